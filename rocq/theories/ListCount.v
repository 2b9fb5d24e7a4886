(** * ListCount: how often the list members call what the caller supplies (C61) *)
From Verif Require Import Base World Machine IterSpec ListModel ListSeg ListOps ListOps2 ListOps3 ListOps4 ListOps5
  SortSpec ListSort ListStep ListSpec ListRefine ListNodes ListBugs ListProps.
Local Open Scope N_scope.

Section Count.
  Context {T : Type} (dbl : bool).
  Notation lstate := (gmap nat (N * option (list T))).
  Notation step := (list_step (T := T) dbl).
  Notation reached := (reached (T := T) dbl).
  Implicit Types (w : world (cell T) lst) (sp : lstate) (xs ys : list T).

  (** Calls of predicates, equalities and orders since the program started. *)
  Definition calls w : N := hmoves (w_heap w).

  (** [sort] with any order whatsoever, not necessarily a strict weak one:
      at most n times the logarithm of n, rounded up, at least n - 1.  (One element: no call,
      but the list is broken afterwards, see [C20_sort_one_breaks].) *)
  Theorem C61_sort sp w i al xs lt : reached sp w -> sp !! i = Some (al, Some xs) ->
    exists w', step (LSrt i lt) w = Ok (OUnit, w') /\
      calls w' <= calls w + nlen xs * N.log2_up (nlen xs) /\ calls w + nlen xs <= calls w' + 1.
  Proof.
    intros Hr Hi. destruct (decide (length xs = 1%nat)) as [H1|H1].
    { destruct xs as [|v [|]]; [done| |done]. destruct (sort_one dbl _ _ _ _ _ lt Hr Hi) as (w' & E & _ & Hc).
      exists w'. split; [exact E|]. unfold calls. rewrite Hc. simpl. lia. }
    apply reached_rel in Hr. destruct (rel_live dbl _ _ _ _ _ Hr Hi) as (Hwf & hd & tl & ns & Hv & Hx & Lk & HW & _).
    assert (Hl : length ns = length xs) by by rewrite <-Hx, vls_length.
    destruct (sort_n dbl _ _ _ _ _ lt Hwf Lk) as (h' & zs & E & _ & _ & Hc); [by rewrite Hl|].
    eexists. split; [eapply upd_run; [exact Hv|exact E]|]. rewrite Hl in Hc. exact Hc.
  Qed.

  (** [merge] of two lists that are not empty, sorted or not: fewer calls than
      there are elements. *)
  Theorem C61_merge sp w i j al xs ys lt : reached sp w -> i <> j ->
    sp !! i = Some (al, Some xs) -> sp !! j = Some (al, Some ys) -> xs <> [] -> ys <> [] -> nlen xs + nlen ys < W ->
    exists w', step (LMer i j false lt) w = Ok (OUnit, w') /\
      calls w < calls w' /\ calls w' < calls w + (nlen xs + nlen ys).
  Proof.
    intros Hr%reached_rel Hij Hi Hj Hx0 Hy0 HW.
    destruct (rel_live2 dbl _ _ _ _ _ _ _ _ Hr Hij Hi Hj)
      as (Hwf & hd & tl & ns & hd2 & tl2 & ms & (V1 & X1 & L1 & W1) & (V2 & X2 & L2 & W2) & Hap & _).
    assert (Hl : length ns = length xs) by by rewrite <-X1, vls_length.
    assert (Hl2 : length ms = length ys) by by rewrite <-X2, vls_length.
    assert (Hns : ns <> []) by (intros ->; by rewrite <-X1 in Hx0).
    assert (Hms : ms <> []) by (intros ->; by rewrite <-X2 in Hy0).
    destruct (merge_n dbl _ _ _ _ _ _ _ _ lt Hwf L1 L2 Hap Hns Hms) as (h' & E & _ & _ & _ & M1 & M2); [by rewrite Hl, Hl2|].
    eexists. split.
    { cbn [list_step]. unfold l_two_ne. destruct (Nat.eqb_spec i j); [done|]. eapply two_run; [exact V1|exact V2|exact E]. }
    rewrite Hl, Hl2 in M2. unfold calls. cbn [w_heap]. lia.
  Qed.
  (** Nothing to merge in, or the list itself: no call. *)
  Theorem C61_merge_nothing sp w i j al xs ys lt rv : reached sp w ->
    sp !! i = Some (al, Some xs) -> sp !! j = Some (al, Some ys) -> i = j \/ ys = [] ->
    exists w', step (LMer i j rv lt) w = Ok (OUnit, w') /\ calls w' = calls w.
  Proof.
    intros Hr%reached_rel Hi Hj Hor. cbn [list_step]. unfold l_two_ne.
    destruct (rel_live dbl _ _ _ _ _ Hr Hi) as (Hwf & hd & tl & ns & Hv & Hx & Lk & HW & _).
    destruct (Nat.eqb_spec i j) as [->|Hij].
    { exists w. split; [|done]. unfold bind, wget. by rewrite Hv. }
    destruct Hor as [?| ->]; [done|].
    destruct (rel_live2 dbl _ _ _ _ _ _ _ _ Hr Hij Hi Hj)
      as (_ & hd1 & tl1 & ns1 & hd2 & tl2 & ms & (V1 & X1 & L1 & W1) & (V2 & X2 & L2 & W2) & Hap & _).
    destruct ms; [|done]. eexists. split; [eapply two_run; [exact V1|exact V2|]|].
    - destruct (merge_empty_ok dbl (L al hd1 tl1 ns1) al hd2 tl2 lt (w_heap w)) as [E1 E2]. destruct rv; [exact E2|exact E1].
    - done.
  Qed.

  (** [remove_if] asks once about every element, [unique] once about every
      element but the first. *)
  Theorem C61_remove_if sp w i f al xs : reached sp w -> sp !! i = Some (al, Some xs) ->
    exists n w', step (LRemIf i f) w = Ok (ONum n, w') /\ calls w' = calls w + nlen xs.
  Proof.
    intros Hr%reached_rel Hi. destruct (rel_live dbl _ _ _ _ _ Hr Hi) as (Hwf & hd & tl & ns & Hv & Hx & Lk & HW & _).
    assert (Hl : length ns = length xs) by by rewrite <-Hx, vls_length.
    destruct (remove_if_n dbl _ _ _ _ _ f Hwf Lk HW) as (h' & E & _ & Hc).
    eexists _, _. split; [eapply updo_run; [exact Hv|]; by rewrite (bind_ok _ _ _ _ _ E)|]. by rewrite Hl in Hc.
  Qed.
  Theorem C61_unique sp w i r al xs : reached sp w -> sp !! i = Some (al, Some xs) ->
    exists n w', step (LUniq i r) w = Ok (ONum n, w') /\ calls w' = calls w + (nlen xs - 1).
  Proof.
    intros Hr%reached_rel Hi. destruct (rel_live dbl _ _ _ _ _ Hr Hi) as (Hwf & hd & tl & ns & Hv & Hx & Lk & HW & _).
    assert (Hl : length ns = length xs) by by rewrite <-Hx, vls_length.
    destruct (unique_n dbl _ _ _ _ _ r Hwf Lk HW) as (h' & E & _ & Hc).
    eexists _, _. split; [eapply updo_run; [exact Hv|]; by rewrite (bind_ok _ _ _ _ _ E)|]. by rewrite Hl in Hc.
  Qed.
End Count.

(** The bound for eight elements is 24; these eight take 12 to 17 calls. *)
Definition count_of (ops : list (lop N)) : option N :=
  match run_ops (list_step true) ops winit with Ok (_, w) => Some (calls w) | Err _ => None end.
Example C61_sort_ex :
  count_of [LRange 0 0 [1; 2; 3; 4; 5; 6; 7; 8]; LSrt 0 N.ltb] = Some 12 /\
  count_of [LRange 0 0 [1; 5; 3; 7; 2; 6; 4; 8]; LSrt 0 N.ltb] = Some 17 /\
  count_of [LRange 0 0 [1; 2; 3; 4; 5; 6; 7; 8]; LSrt 0 (fun _ _ => true)] = Some 12 /\
  8 * N.log2_up 8 = 24.
Proof. by vm_compute. Qed.
Example C61_ex dbl : exists w w1 w2 w3 n2 n3, reached dbl (ex_st dbl) w /\
  list_step dbl (LSrt 0 N.ltb) w = Ok (OUnit, w1) /\ calls w + 3 <= calls w1 <= calls w + 8 /\
  list_step dbl (LRemIf 0 (N.eqb 1)) w = Ok (ONum n2, w2) /\ calls w2 = calls w + 4 /\
  list_step dbl (LUniq 0 N.eqb) w = Ok (ONum n3, w3) /\ calls w3 = calls w + 3.
Proof.
  destruct (ex_reached dbl) as [w Hr]. destruct (ex_lists dbl) as (H0 & _).
  destruct (C61_sort dbl _ w 0 0 _ N.ltb Hr H0) as (w1 & E1 & C1 & C1').
  destruct (C61_remove_if dbl _ w 0 (N.eqb 1) 0 _ Hr H0) as (n2 & w2 & E2 & C2).
  destruct (C61_unique dbl _ w 0 N.eqb 0 _ Hr H0) as (n3 & w3 & E3 & C3).
  exists w, w1, w2, w3, n2, n3. change (nlen [3; 1; 2; 1]) with 4 in C1'. repeat split; try done. lia.
Qed.
Example C61_merge_ex dbl : exists w w', reached dbl (ex_st dbl) w /\
  list_step dbl (LMer 4 1 false N.ltb) w = Ok (OUnit, w') /\ calls w < calls w' < calls w + 3.
Proof.
  destruct (ex_reached dbl) as [w Hr]. destruct (ex_lists dbl) as (_ & H1 & _ & _ & H4 & _).
  destruct (C61_merge dbl _ w 4 1 0 _ _ N.ltb Hr ltac:(done) H4 H1 ltac:(done) ltac:(done) ltac:(done)) as (w' & E & A & B).
  by exists w, w'.
Qed.
Print Assumptions C61_sort.
Print Assumptions C61_merge.
Print Assumptions C61_merge_nothing.
Print Assumptions C61_remove_if.
Print Assumptions C61_unique.
