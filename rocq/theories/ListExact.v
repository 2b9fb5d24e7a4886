(** * ListExact: the operations C14 excludes are exactly those that go wrong

    C14 and its neighbours are proved for histories in which every operation is
    [safe]; ListBugs.v and ListMem.v show what each excluded member does.  Here the
    two are put together: at any reachable moment an operation that is right on
    sequences is either carried out faithfully or goes wrong in one of four ways. *)
From Verif Require Import Base World Machine IterSpec ListModel ListSeg ListOps ListOps2 ListOps3 ListOps4 ListOps5
  SortSpec ListSort ListStep ListSpec ListRefine ListNodes ListBugs ListProps ListDebug Weigh ListMem.
Local Open Scope N_scope.

Section Exact.
  Context {T : Type} (dbl : bool).
  Notation lstate := (gmap nat (N * option (list T))).
  Notation step := (list_step (T := T) dbl).
  Notation reached := (reached (T := T) dbl).
  Implicit Types (w : world (cell T) lst) (sp : lstate) (xs : list T).

  (** What going wrong means: the call itself is undefined; or a list that should be
      usable afterwards cannot be walked through; or something is left in memory
      that no list holds; or the last element is handed out instead of the first. *)
  Inductive wrong sp' w (o : lop T) : Prop :=
  | W_undefined : step o w = Err UB -> wrong sp' w o
  | W_broken x w' i al xs : step o w = Ok (x, w') -> sp' !! i = Some (al, Some xs) ->
      step (LItems i) w' = Err UB -> wrong sp' w o
  | W_leak x w' : step o w = Ok (x, w') -> held sp' < N.of_nat (size (hmap (w_heap w'))) -> wrong sp' w o
  | W_last i al a m b : o = LFrontUC i -> dbl = true -> sp' !! i = Some (al, Some (a :: m ++ [b])) ->
      step o w = Ok (OVal b, w) -> wrong sp' w o.

  Lemma isnil_true xs : isnil xs = true -> xs = [].
  Proof using Type. by destruct xs. Qed.
  Lemma move_moved sp w i j al al' : reached sp w -> sp !! i = None ->
    sp !! j = Some (al', None) -> al <> al' -> step (LMoveAl i j al) w = Err UB.
  Proof using Type.
    intros Hr%reached_rel Hi Hj Hal. pose proof (rel_moved dbl _ _ _ _ Hr Hj) as Hv.
    pose proof (rel_none dbl _ _ _ Hr Hi) as Hi'.
    cbn [list_step]. unfold bind at 1, wnew. rewrite Hi'. unfold bind at 1, wget. rewrite Hv.
    apply bind_err. unfold lift.
    assert (E : l_move_alloc dbl al (Lst PNull PNull 0 al') (w_heap w) = Err UB); [|by rewrite E].
    unfold l_move_alloc. cbn [l_al l_len l_head l_tail]. rewrite (proj2 (N.eqb_neq al al') Hal). cbn [N.eqb].
    assert (Hwf : hwf (w_heap w)) by (destruct Hr as [m Hw]; apply Hw).
    destruct (init_ok dbl (w_heap w) al Hwf) as (hd & tl & h' & E & _). by rewrite (bind_ok _ _ _ _ _ E).
  Qed.

  (** At any reachable moment: what is right on sequences is done faithfully if it is
      [safe], and goes wrong if it is not. *)
  Theorem C14_exact sp w o sp' y : reached sp w -> ordered o -> lspec dbl sp o = SOk sp' y ->
    if safe dbl sp o then exists w', step o w = Ok (y, w') /\ reached sp' w' else wrong sp' w o.
  Proof using Type.
    intros Hr Ho E. destruct (safe dbl sp o) eqn:Hs.
    { apply (reached_step dbl sp w o sp' y Hr Ho). unfold gspec. by rewrite Hs. }
    destruct o; try done; cbn [safe] in Hs; cbn [lspec] in E.
    - (* LMoveAl *) unfold fresh, look, alloc_of in *. destruct (sp !! i) as [[]|] eqn:Ei; [done|].
      destruct (sp !! j) as [[al' oo]|] eqn:Ej; [|done]. injection E as <- <-.
      apply N.eqb_neq in Hs. destruct oo as [[|x xs]|].
      + destruct (C88_move_empty_leaves_one dbl sp w i j al al' Hr Ei Ej Hs) as (w' & E1 & _ & E2).
        eapply W_leak; [exact E1|]. rewrite E2. lia.
      + apply W_undefined. by eapply C27_move_elements_undefined.
      + apply W_undefined. by eapply move_moved.
    - (* LSplA *) unfold live, contents in *. destruct (sp !! i) as [[al [xs|]]|] eqn:Ei; [|done|done].
      destruct (sp !! j) as [[al' [ys|]]|] eqn:Ej; [|done|done]. cbn [default from_option id] in Hs.
      apply negb_false_iff, isnil_true in Hs as ->.
      unfold need in E. destruct (negb (i =? j)%nat && (al =? al') && (k <=? length xs)%nat) eqn:Hn; [|done].
      apply andb_true_iff in Hn as [Hn Hk%Nat.leb_le]. apply andb_true_iff in Hn as [Hij Ha%N.eqb_eq].
      apply negb_true_iff, Nat.eqb_neq in Hij. subst al'.
      destruct (C18_splice_after_empty_breaks dbl sp w i k j al xs rv Hr Hij Ei Ej Hk) as (w' & E1 & E2).
      unfold take_over, give in E. destruct (_ <? W); [|done]. injection E as <- <-.
      eapply W_broken; [exact E1|by rewrite lookup_insert|exact E2].
    - (* LSpl *) unfold need in E. destruct dbl eqn:Hd; [|done].
      unfold live, contents in *. destruct (sp !! i) as [[al [xs|]]|] eqn:Ei; [|done|done].
      destruct (sp !! j) as [[al' [ys|]]|] eqn:Ej; [|done|done]. cbn [default from_option id] in Hs.
      apply negb_false_iff, isnil_true in Hs as ->.
      destruct (negb (i =? j)%nat && (al =? al') && (1 <=? k)%nat && (k <=? length xs + 1)%nat) eqn:Hn; [|done].
      apply andb_true_iff in Hn as [Hn Hk%Nat.leb_le]. apply andb_true_iff in Hn as [Hn Hk1%Nat.leb_le].
      apply andb_true_iff in Hn as [Hij Ha%N.eqb_eq].
      apply negb_true_iff, Nat.eqb_neq in Hij. subst al'.
      destruct (C18_splice_empty_breaks true sp w i k j al xs rv eq_refl Hr Hij Ei Ej ltac:(lia)) as (w' & E1 & E2).
      unfold take_over, give in E. destruct (_ <? W); [|done]. injection E as <- <-.
      eapply W_broken; [rewrite Hd; exact E1|by rewrite lookup_insert|rewrite Hd; exact E2].
    - (* LMer *) unfold live, contents in *. destruct (sp !! i) as [[al [xs|]]|] eqn:Ei; [|done|done].
      destruct (sp !! j) as [[al' [ys|]]|] eqn:Ej; [|done|done]. cbn [default from_option id] in Hs.
      apply orb_false_iff in Hs as [Hs1 Hs2]. rewrite Hs1 in E.
      apply orb_false_iff in Hs1 as [Hij Hy]. apply Nat.eqb_neq in Hij.
      assert (ys <> []) as Hy' by (by intros ->).
      unfold need in E. destruct ((al =? al') && sortedb lt xs && sortedb lt ys) eqn:Hn; [|done].
      apply andb_true_iff in Hn as [Hn _]. apply andb_true_iff in Hn as [Ha%N.eqb_eq _]. subst al'.
      destruct xs as [|x xs].
      + destruct (C19_merge_into_empty_breaks dbl sp w i j al ys rv lt Hr Hij Ei Ej Hy') as (w' & E1 & E2).
        unfold take_over, give in E. destruct (_ <? W); [|done]. injection E as <- <-.
        eapply W_broken; [exact E1|by rewrite lookup_insert|exact E2].
      + destruct rv; [|by rewrite andb_true_r in Hs2]. apply W_undefined.
        by eapply C19_merge_rvalue_undefined.
    - (* LSrt *) unfold live, contents in *. destruct (sp !! i) as [[al [xs|]]|] eqn:Ei; [|done|done].
      cbn [default from_option id] in Hs. apply negb_false_iff, Nat.eqb_eq in Hs. destruct xs as [|v [|]]; [done| |done].
      destruct (C20_sort_one_breaks dbl sp w i al v lt Hr Ei) as (w' & E1 & E2 & _).
      unfold give in E. destruct (_ <? W); [|done]. injection E as <- <-.
      eapply W_broken; [exact E1|by rewrite lookup_insert|exact E2].
    - (* LFrontUC *) unfold live, contents in *. destruct (sp !! i) as [[al [xs|]]|] eqn:Ei; [|done|done].
      cbn [default from_option id] in Hs. apply orb_false_iff in Hs as [Hd%negb_false_iff Hl%Nat.eqb_neq].
      destruct xs as [|a xs]; [done|]. injection E as <- <-.
      destruct xs as [|b m _] using rev_ind; [done|].
      eapply (W_last sp w (LFrontUC i) i al a m b); [done|done|done|].
      eapply C26_const_front_is_last; [done|done|exact Ei|]. exact (last_snoc b (a :: m)).
  Qed.
  Lemma lhist_gen ops : Forall ordered ops -> forall sp w sp' outs, reached sp w -> srun (lspec dbl) sp ops = SOk sp' outs ->
    ((exists w', run_ops step ops w = Ok (outs, w') /\ reached sp' w') /\
      forall pre o post sp1 outs1, ops = pre ++ o :: post -> srun (lspec dbl) sp pre = SOk sp1 outs1 ->
        safe dbl sp1 o = true) \/
    (exists pre o post sp1 outs1 sp2 y w1, ops = pre ++ o :: post /\ srun (lspec dbl) sp pre = SOk sp1 outs1 /\
       run_ops step pre w = Ok (outs1, w1) /\ lspec dbl sp1 o = SOk sp2 y /\
       safe dbl sp1 o = false /\ wrong sp2 w1 o).
  Proof using Type.
    induction 1 as [|o ops Ho Hops IH]; intros sp w sp' outs Hr Hs; cbn [srun run_ops] in *.
    { injection Hs as <- <-. left. split; [by exists w|]. intros [|]; done. }
    destruct (lspec dbl sp o) as [s1 y| |] eqn:E1; [|done|done].
    destruct (srun (lspec dbl) s1 ops) as [s2 ys| |] eqn:E2; [|done|done]. injection Hs as <- <-.
    pose proof (C14_exact sp w o s1 y Hr Ho E1) as Hx. destruct (safe dbl sp o) eqn:Hf.
    - destruct Hx as (w1 & Ew & Hr1).
      destruct (IH _ _ _ _ Hr1 E2) as [[(w2 & Ew2 & Hr2) Hall]|(pre&o'&post&t1&os1&t2&z&w2&->&Ep&Er&Eo&Hn&Hg)].
      + left. split.
        * exists w2. by rewrite (bind_ok _ _ _ _ _ Ew), (bind_ok _ _ _ _ _ Ew2).
        * intros [|o0 pre] o' post t1 os1 [= <- Hop] Ep; [by injection Ep as <- _|]. cbn [srun] in Ep. rewrite E1 in Ep.
          destruct (srun (lspec dbl) s1 pre) as [t2 os2| |] eqn:E3; [|done|done]. injection Ep as <- _.
          by eapply Hall.
      + right. exists (o :: pre), o', post, t1, (y :: os1), t2, z, w2. split; [done|]. cbn [srun run_ops].
        rewrite E1, Ep. split; [done|]. by rewrite (bind_ok _ _ _ _ _ Ew), (bind_ok _ _ _ _ _ Er).
    - right. by exists [], o, ops, sp, [], s1, y, w.
  Qed.
  (** Every history that is right on sequences is carried out faithfully, or has
      a first call that goes wrong; the contents tell which. *)
  Theorem C14_histories_exact ops sp outs : Forall ordered ops -> srun (lspec dbl) ∅ ops = SOk sp outs ->
    ((exists w, run_ops step ops winit = Ok (outs, w)) /\
      forall pre o post sp1 outs1, ops = pre ++ o :: post -> srun (lspec dbl) ∅ pre = SOk sp1 outs1 ->
        safe dbl sp1 o = true) \/
    (exists pre o post sp1 outs1 sp2 y w1, ops = pre ++ o :: post /\ srun (lspec dbl) ∅ pre = SOk sp1 outs1 /\
       run_ops step pre winit = Ok (outs1, w1) /\ lspec dbl sp1 o = SOk sp2 y /\
       safe dbl sp1 o = false /\ wrong sp2 w1 o).
  Proof using Type.
    intros Hf Hs. assert (Hr : reached ∅ winit) by (exists [], []; by repeat split).
    destruct (lhist_gen ops Hf _ _ _ _ Hr Hs) as [[(w & E & _) H]|H]; [left|by right]. split; [by exists w|done].
  Qed.
  (** So at the end of any history every list is chained as it should be, and
      once no list is left no node is, or there is a first call that goes wrong. *)
  Theorem C15_histories_exact ops sp outs : Forall ordered ops -> srun (lspec dbl) ∅ ops = SOk sp outs ->
    (exists w, run_ops step ops winit = Ok (outs, w) /\
       (forall i al xs, sp !! i = Some (al, Some xs) -> exists ps, nodes dbl w i ps xs) /\
       (sp = ∅ -> hmap (w_heap w) = ∅ /\ w_vars w = ∅)) \/
    (exists pre o post sp1 outs1 sp2 y w1, ops = pre ++ o :: post /\ srun (lspec dbl) ∅ pre = SOk sp1 outs1 /\
       run_ops step pre winit = Ok (outs1, w1) /\ lspec dbl sp1 o = SOk sp2 y /\
       safe dbl sp1 o = false /\ wrong sp2 w1 o).
  Proof using Type.
    intros Hf Hs. assert (Hr : reached ∅ winit) by (exists [], []; by repeat split).
    destruct (lhist_gen ops Hf _ _ _ _ Hr Hs) as [[(w & E & Hw) H]|H]; [left|by right]. exists w. split; [done|].
    split; [intros i al xs Hi; by eapply C15_linkage_partial|]. intros ->. apply reached_rel in Hw. exact (world_ok_empty _ _ Hw).
  Qed.
End Exact.

(** All four ways occur. *)
Definition C14_start : list (lop N) :=
  [LRange 0 0 [1; 2; 3]; LNew 1 0; LRange 2 0 [4]; LRange 3 0 [2; 5]; LNew 4 7].
Example C14_exact_ex : match srun (gspec (T := N) true) ∅ C14_start with
  | SOk sp outs =>
      (safe true sp (LSpl 0 1 1 false) = false /\ match lspec true sp (LSpl 0 1 1 false) with SOk _ _ => True | _ => False end) /\
      (safe true sp (LMer 0 3 true N.ltb) = false /\ match lspec true sp (LMer 0 3 true N.ltb) with SOk _ _ => True | _ => False end) /\
      (safe true sp (LMoveAl 5 4 0) = false /\ match lspec true sp (LMoveAl 5 4 0) with SOk _ _ => True | _ => False end) /\
      (safe true sp (LFrontUC 0) = false /\ match lspec true sp (LFrontUC 0) with SOk _ (OVal 1) => True | _ => False end) /\
      (safe true sp (LSrt 2 N.ltb) = false /\ safe true sp (LSrt 0 N.ltb) = true)
  | _ => False end.
Proof. vm_compute. repeat split. Qed.

(** A history with a wrong call in the middle, and the same one without it. *)
Example C14_histories_exact_ex :
  (match srun (lspec (T := N) true) ∅ (C14_start ++ [LSrt 2 N.ltb; LItems 2]) with SOk _ _ => True | _ => False end) /\
  run_ops (list_step (T := N) true) (C14_start ++ [LSrt 2 N.ltb; LItems 2]) winit = Err UB /\
  (match srun (lspec (T := N) true) ∅ (C14_start ++ [LSrt 0 N.ltb; LItems 2]),
         run_ops (list_step (T := N) true) (C14_start ++ [LSrt 0 N.ltb; LItems 2]) winit with
   | SOk _ outs, Ok (outs', _) => outs = outs' | _, _ => False end).
Proof. vm_compute. repeat split. Qed.

Print Assumptions C14_exact.
Print Assumptions C14_histories_exact.
Print Assumptions C15_histories_exact.
