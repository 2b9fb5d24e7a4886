(** * ArrExact: what the calls excluded by C28, C29 and C52 do, always *)
From Verif Require Import Base IterSpec RangeModel RangeProps.
From Verif Require LayoutModel LayoutProps.
Local Open Scope Z_scope.

Section Array.
  Context {A : Type} (nn : nat) (dinit : acell A) (vinit : A) (eqb : A -> A -> bool).
  Notation sstep := (arr_spec nn (abs dinit) vinit eqb).
  Notation mstep := (arr_step nn dinit vinit eqb).
  Implicit Types (xs ys : list A) (b : list (option A)).

  Lemma run_then o e : forall ops w0 w outs, run_ops mstep ops w0 = Ok (outs, w) -> mstep o w = Err e ->
    run_ops mstep (ops ++ [o]) w0 = Err e.
  Proof.
    induction ops as [|p ops IH]; intros w0 w os; csimpl.
    - intros [= -> ->] Ho. unfold bind. by rewrite Ho.
    - unfold bind, ret. destruct (mstep p w0) as [[x1 w1]|]; [|done].
      destruct (run_ops mstep ops w1) as [[y1 w2]|] eqn:E3; [|done]. intros [= <- <-] Ho. by rewrite (IH _ _ _ E3 Ho).
  Qed.
  Lemma unset_read (a : list (acell A)) b k : arep nn a b -> b !! k = Some None -> a_read a k = Err UB.
  Proof.
    intros [_ <-] Hk. rewrite list_lookup_fmap in Hk. unfold a_read. destruct (a !! k) as [[]|]; done.
  Qed.
  Lemma unset_copy (other : list (acell A)) k : a_read other k = Err UB -> forall n pos a, (pos <= k < pos + n)%nat ->
    a_copy_loop n pos a other = Err UB.
  Proof.
    intros Hk. induction n as [|n IH]; intros pos a Hp; [lia|]. csimpl.
    destruct (decide (pos = k)) as [->|]; [by rewrite Hk|].
    destruct (a_read other pos) as [x|e] eqn:E; [apply IH; lia|].
    unfold a_read in E. destruct (other !! pos) as [[]|]; congruence.
  Qed.
  (** An element that was never given a value (or was moved away): reading it,
      and copying the array, is undefined in every state a program can reach. *)
  Theorem C28_array_unset ops s outs i b k : spec_run sstep ∅ ops = Some (s, outs) -> s !! i = Some b -> b !! k = Some None ->
    arr_run nn dinit vinit eqb (ops ++ [AGet i (N.of_nat k)]) = Err UB /\
    (forall j, s !! j = None -> arr_run nn dinit vinit eqb (ops ++ [ACopy j i]) = Err UB) /\
    (forall j c, j <> i -> s !! j = Some c -> arr_run nn dinit vinit eqb (ops ++ [ACopyAsg j i]) = Err UB).
  Proof.
    intros Hs Hi Hk. destruct (arr_history nn dinit vinit eqb ops ∅ ∅ s outs (awrep_init nn) Hs) as (w & E & Hw).
    destruct (awrep_some nn _ _ _ _ Hw Hi) as (a & Ha & Hr).
    pose proof (unset_read _ _ _ Hr Hk) as Hu. apply lookup_lt_Some in Hk. rewrite (arep_len nn _ _ Hr) in Hk.
    split; [|split].
    - eapply run_then; [exact E|]. csimpl. unfold bind, aget. rewrite Ha. unfold lift_o, a_get.
      destruct (N.leb_spec (N.of_nat nn) (N.of_nat k)); [lia|]. by rewrite Nat2N.id, Hu.
    - intros j Hj. eapply run_then; [exact E|]. pose proof (awrep_none nn _ _ _ Hw Hj) as Hn. csimpl.
      unfold bind, aget, afresh, lift_o, a_copy. rewrite Ha. cbn beta iota. rewrite Hn. rewrite (unset_copy _ k Hu); [done|lia].
    - intros j c Hji Hj. eapply run_then; [exact E|]. destruct (awrep_some nn _ _ _ _ Hw Hj) as (a' & Ha' & _). csimpl.
      unfold bind, aget, lift_o, a_copy. rewrite ?Ha', ?Ha. destruct (Nat.eqb_spec j i); [done|].
      rewrite ?Ha. rewrite (unset_copy _ k Hu); [done|lia].
  Qed.

  (** ** C29: the owning iterator, all four operations in any order *)
  (** [len()] is always N; [prev()] reads past the end unless everything was
      handed out. *)
  Definition own_step xs (o : de_op) : option (list A * de_out A) :=
    match o with
    | DNext => Some (tail xs, EItem (head xs))
    | DEmpty => Some (xs, EBool (match xs with [] => true | _ => false end))
    | DLen => Some (xs, ENum (N.of_nat nn))
    | DPrev => match xs with [] => Some ([], EItem None) | _ => None end
    | DLast => None
    end.
  Fixpoint own_run xs (ops : list de_op) : option (list A * list (de_out A)) :=
    match ops with
    | [] => Some (xs, [])
    | o :: ops => match own_step xs o with
                  | Some (xs1, x) => match own_run xs1 ops with Some (xs2, os) => Some (xs2, x :: os) | None => None end
                  | None => None
                  end
    end.
  Lemma own_step_ok o it xs : Z.of_nat nn <= imax usize_t -> airep nn it xs ->
    match own_step xs o with
    | Some (xs', x) => exists it', ai_step nn o it = Ok (x, it') /\ airep nn it' xs'
    | None => ai_step nn o it = Err UB
    end.
  Proof.
    intros Hn Hr. destruct o; csimpl.
    - destruct (ai_step_ok nn vinit eqb DNext it xs Hn (or_introl eq_refl) Hr) as (it' & E & Hr'). exists it'. csimpl in *.
      by destruct xs.
    - destruct Hr as (k & Hg & Hk & Hd). destruct it as [d r]. csimpl in *. subst r d.
      unfold ai_prev, on_range, r_prev, ai_take, bind, get_st, ret, put_st, lift_o, idec. csimpl.
      destruct xs as [|x xs]; csimpl in *.
      + destruct (Z.eqb_spec (Z.of_nat k) (Z.of_nat nn)); [|lia]. eexists. split; [done|]. exists k. csimpl. split; [done|]. split; [lia|done].
      + destruct (Z.eqb_spec (Z.of_nat k) (Z.of_nat nn)); [lia|].
        destruct (Z.ltb_spec 0 (Z.of_nat nn)); [|lia]. csimpl. destruct (Z.ltb_spec (Z.of_nat nn) 0); [lia|].
        unfold a_read. rewrite Nat2Z.id, lookup_ge_None_2; [done|]. rewrite app_length, replicate_length. csimpl. rewrite fmap_length. lia.
    - exists it. done.
    - destruct (ai_step_ok nn vinit eqb DEmpty it xs Hn (or_intror eq_refl) Hr) as (it' & E & Hr'). exists it'. csimpl in *.
      rewrite E. by destruct xs.
    - done.
  Qed.
  Theorem C29_array_into_iter_exact xs ops : length xs = nn -> Z.of_nat nn <= imax usize_t ->
    exists it, ai_new nn dinit (AVal <$> xs) = Ok (it, replicate nn AMoved) /\
      match own_run xs ops with
      | Some (_, outs) => exists it', run_ops (ai_step nn) ops it = Ok (outs, it')
      | None => run_ops (ai_step nn) ops it = Err UB
      end.
  Proof.
    intros Hl Hn. unfold ai_new. rewrite (a_move_ok nn vinit eqb) by (rewrite ?replicate_length; done). eexists. split; [done|].
    assert (Hr : airep nn (AIter (AVal <$> xs) (Range 0 (Z.of_nat nn))) xs) by (by exists 0%nat).
    clear Hl. revert Hr. generalize (AIter (AVal <$> xs) (Range 0 (Z.of_nat nn))). revert xs.
    induction ops as [|o ops IH]; intros xs it Hr; csimpl; [by exists it|].
    pose proof (own_step_ok o it xs Hn Hr) as Ho. unfold bind, ret. destruct (own_step xs o) as [[xs1 x]|]; [|by rewrite Ho].
    destruct Ho as (it1 & -> & Hr1). specialize (IH xs1 it1 Hr1).
    destruct (own_run xs1 ops) as [[xs2 os]|]; [|by rewrite IH]. destruct IH as (it2 & ->). by exists it2.
  Qed.
  (** Copy assignment from an iterator that has handed out nothing yet: the
      target takes the elements but keeps its own position; from any other
      iterator it copies moved-from elements. *)
  Theorem C29_copy_assign_exact xs ys opsx opsy : length xs = nn -> length ys = nn -> Z.of_nat nn <= imax usize_t ->
    Forall (fun o => o = DNext \/ o = DEmpty) opsx -> Forall (fun o => o = DNext \/ o = DEmpty) opsy ->
    exists itx ity itx1 ity1,
      ai_new nn dinit (AVal <$> xs) = Ok (itx, replicate nn AMoved) /\ run_ops (ai_step nn) opsx itx = Ok ((de_run xs opsx).2, itx1) /\
      ai_new nn dinit (AVal <$> ys) = Ok (ity, replicate nn AMoved) /\ run_ops (ai_step nn) opsy ity = Ok ((de_run ys opsy).2, ity1) /\
      ((de_run ys opsy).1 = ys -> exists it, ai_copy_assign nn itx1 ity1 = Ok it /\
         ai_data it = AVal <$> ys /\ ai_range it = Range (Z.of_nat (nn - length (de_run xs opsx).1)) (Z.of_nat nn)) /\
      ((de_run ys opsy).1 <> ys -> ai_copy_assign nn itx1 ity1 = Err UB).
  Proof.
    intros Hx Hy Hn Fx Fy.
    assert (Hgo : forall zs ops, length zs = nn -> Forall (fun o => o = DNext \/ o = DEmpty) ops ->
      exists it it', ai_new nn dinit (AVal <$> zs) = Ok (it, replicate nn AMoved) /\
        run_ops (ai_step nn) ops it = Ok ((de_run zs ops).2, it') /\ airep nn it' (de_run zs ops).1).
    { intros zs ops Hz Hf. unfold ai_new. rewrite (a_move_ok nn vinit eqb) by (rewrite ?replicate_length; done). eexists.
      destruct (de_refines (ai_step nn) (airep nn) (fun o => o = DNext \/ o = DEmpty)
        (fun o s ys H => ai_step_ok nn vinit eqb o s ys Hn H) ops (AIter (AVal <$> zs) (Range 0 (Z.of_nat nn))) zs Hf)
        as (it' & E & Hr); [by exists 0%nat|]. by exists it'. }
    destruct (Hgo xs opsx Hx Fx) as (itx & itx1 & Ex & Rx & Ax). destruct (Hgo ys opsy Hy Fy) as (ity & ity1 & Ey & Ry & Ay).
    exists itx, ity, itx1, ity1. do 4 (split; [done|]).
    destruct Ax as (kx & Gx & Lx & Dx), Ay as (ky & Gy & Ly & Dy).
    assert (Dl : length (ai_data itx1) = nn) by (rewrite Dx, app_length, replicate_length, fmap_length; lia).
    split.
    - intros Hsame. rewrite Hsame in *. assert (ky = 0%nat) as -> by lia. csimpl in Dy.
      unfold ai_copy_assign. rewrite Dy, (a_copy_ok nn vinit eqb) by done. eexists. split; [done|]. csimpl. split; [done|].
      rewrite Gx. do 2 f_equal. lia.
    - intros Hdiff. assert (Hk : (0 < ky)%nat).
      { destruct ky; [|lia]. exfalso. apply Hdiff. clear -Fy Ly Hy.
        assert (Hsuf : forall ops (zs : list A), Forall (fun o => o = DNext \/ o = DEmpty) ops ->
          exists pre : list A, zs = pre ++ (de_run zs ops).1).
        { induction ops as [|o ops IH]; intros zs Hf; csimpl; [by exists []|]. apply Forall_cons in Hf as [Ho Hf].
          destruct (de_step zs o) as [zs1 x] eqn:E. destruct (IH zs1 Hf) as [pre Hp]. destruct (de_run zs1 ops) as [zs2 os]. csimpl in *.
          destruct Ho as [->| ->]; csimpl in E.
          - destruct zs as [|z zs]; csimpl in *; injection E as <- _.
            + exists pre. by rewrite <-Hp.
            + exists (z :: pre). csimpl. by rewrite <-Hp.
          - injection E as <- _. by exists pre. }
        destruct (Hsuf opsy ys Fy) as [pre Hp]. assert (length pre = 0%nat).
        { apply (f_equal length) in Hp. rewrite app_length in Hp. lia. }
        destruct pre; [by symmetry|done]. }
      unfold ai_copy_assign, a_copy. rewrite (unset_copy _ 0%nat); [done| |lia].
      unfold a_read. rewrite Dy. by destruct ky; [lia|].
  Qed.
  (** ** C59: move assignment between two iterators after any calls.  If flowing
      off the end of [operator=] is let pass, the target goes on as the source
      would have, and the source is left with moved-from elements at its old
      position; otherwise the call is undefined, always. *)
  Theorem C59_move_assign_exact xs ys opsx opsy ops : length xs = nn -> length ys = nn -> Z.of_nat nn <= imax usize_t ->
    Forall (fun o => o = DNext \/ o = DEmpty) opsx -> Forall (fun o => o = DNext \/ o = DEmpty) opsy ->
    Forall (fun o => o = DNext \/ o = DEmpty) ops ->
    exists itx ity itx1 ity1,
      ai_new nn dinit (AVal <$> xs) = Ok (itx, replicate nn AMoved) /\ run_ops (ai_step nn) opsx itx = Ok ((de_run xs opsx).2, itx1) /\
      ai_new nn dinit (AVal <$> ys) = Ok (ity, replicate nn AMoved) /\ run_ops (ai_step nn) opsy ity = Ok ((de_run ys opsy).2, ity1) /\
      ai_move_assign nn true itx1 ity1 = Err UB /\
      exists it old it', ai_move_assign nn false itx1 ity1 = Ok (it, old) /\
        run_ops (ai_step nn) ops it = Ok ((de_run (de_run ys opsy).1 ops).2, it') /\
        ai_step nn DNext old = match (de_run ys opsy).1 with [] => Ok (EItem None, old) | _ => Err UB end.
  Proof.
    intros Hx Hy Hn Fx Fy Fo.
    assert (Hgo : forall zs ops, length zs = nn -> Forall (fun o => o = DNext \/ o = DEmpty) ops ->
      exists it it', ai_new nn dinit (AVal <$> zs) = Ok (it, replicate nn AMoved) /\
        run_ops (ai_step nn) ops it = Ok ((de_run zs ops).2, it') /\ airep nn it' (de_run zs ops).1).
    { intros zs ops1 Hz Hf. unfold ai_new. rewrite (a_move_ok nn vinit eqb) by (rewrite ?replicate_length; done). eexists.
      destruct (de_refines (ai_step nn) (airep nn) (fun o => o = DNext \/ o = DEmpty)
        (fun o s ys H => ai_step_ok nn vinit eqb o s ys Hn H) ops1 (AIter (AVal <$> zs) (Range 0 (Z.of_nat nn))) zs Hf)
        as (it' & E & Hr); [by exists 0%nat|]. by exists it'. }
    destruct (Hgo xs opsx Hx Fx) as (itx & itx1 & Ex & Rx & Ax). destruct (Hgo ys opsy Hy Fy) as (ity & ity1 & Ey & Ry & Ay).
    exists itx, ity, itx1, ity1. do 4 (split; [done|]).
    destruct Ax as (kx & Gx & Lx & Dx). pose proof Ay as (ky & Gy & Ly & Dy).
    assert (Dl : length (ai_data itx1) = nn) by (rewrite Dx, app_length, replicate_length, fmap_length; lia).
    assert (El : length (ai_data ity1) = nn) by (rewrite Dy, app_length, replicate_length, fmap_length; lia).
    assert (Hm : ai_move_loop nn 0 (ai_data itx1) (ai_data ity1) = Ok (ai_data ity1, replicate nn AMoved)).
    { pose proof (ai_move_loop_ok vinit eqb (ai_data ity1)) as H.
      specialize (H ltac:(rewrite Dy; apply Forall_app; split; [by apply Forall_replicate|apply Forall_fmap; by apply Forall_true])).
      specialize (H nn 0%nat (ai_data itx1)). csimpl in H. rewrite drop_0, El in H. by apply H. }
    unfold ai_move_assign. rewrite Hm. split; [done|].
    destruct (de_refines (ai_step nn) (airep nn) (fun o => o = DNext \/ o = DEmpty)
      (fun o s ys H => ai_step_ok nn vinit eqb o s ys Hn H) ops ity1 _ Fo Ay) as (it' & E & _).
    eexists _, _, it'. split; [done|]. split; [by destruct ity1|].
    csimpl. unfold ai_next, bind, on_range. csimpl. rewrite Gy. unfold r_next, bind, get_st. csimpl.
    destruct (de_run ys opsy).1 as [|y rest]; csimpl in *.
    - destruct (Z.eqb_spec (Z.of_nat ky) (Z.of_nat nn)); [done|lia].
    - destruct (Z.eqb_spec (Z.of_nat ky) (Z.of_nat nn)); [lia|].
      unfold iinc. csimpl. destruct (Z.ltb_spec (Z.of_nat ky) 18446744073709551615); [|lia].
      csimpl. unfold ret, lift_o, ai_take, bind, get_st, put_st. csimpl.
      destruct (Z.ltb_spec (Z.of_nat ky) 0); [lia|]. unfold a_read, lift_o. csimpl.
      by rewrite lookup_replicate_2 by lia.
  Qed.
End Array.

(** A three-element list in an array of five. *)
Notation some_arr := [AList 0%nat [7; 8; 9]].
Example C28_array_unset_ex : arr_run 5 (AUndef : acell Z) 0 Z.eqb (some_arr ++ [AGet 0%nat 3%N]) = Err UB /\
  arr_run 5 (AUndef : acell Z) 0 Z.eqb (some_arr ++ [ACopy 1%nat 0%nat]) = Err UB.
Proof.
  destruct (C28_array_unset 5 (AUndef : acell Z) 0 Z.eqb some_arr {[0%nat := [Some 7; Some 8; Some 9; None; None]]} [AONone] 0
    [Some 7; Some 8; Some 9; None; None] 3) as (H1 & H2 & _); [by vm_compute|done..|]. split; [done|]. by apply H2.
Qed.
Example C29_exact_ex : own_run 3 [7; 8; 9] [DLen; DNext; DLen; DEmpty; DNext; DNext; DPrev; DLen; DEmpty] =
  Some ([], [ENum 3; EItem (Some 7); ENum 3; EBool false; EItem (Some 8); EItem (Some 9); EItem None; ENum 3; EBool true]) /\
  own_run 3 [7; 8; 9] [DNext; DPrev] = None.
Proof. done. Qed.
Example C29_exact_run_ex : exists it, ai_new 3 (AUndef : acell Z) [AVal 7; AVal 8; AVal 9] = Ok (it, replicate 3 AMoved) /\
  run_ops (ai_step 3) [DNext; DPrev] it = Err UB.
Proof. destruct (C29_array_into_iter_exact 3 (AUndef : acell Z) 0 Z.eqb [7; 8; 9] [DNext; DPrev]) as (it & E & H); [done|done|]. by exists it. Qed.
(** Assigned after one element: the second and third of the other array follow. *)
Example C29_copy_assign_ex : exists itx ity itx1 it,
  ai_new 3 (AUndef : acell Z) [AVal 7; AVal 8; AVal 9] = Ok (itx, replicate 3 AMoved) /\
  run_ops (ai_step 3) [DNext] itx = Ok ([EItem (Some 7)], itx1) /\
  ai_new 3 (AUndef : acell Z) [AVal 1; AVal 2; AVal 3] = Ok (ity, replicate 3 AMoved) /\
  ai_copy_assign 3 itx1 ity = Ok it /\ ai_range it = Range 1 3.
Proof.
  destruct (C29_copy_assign_exact 3 (AUndef : acell Z) 0 Z.eqb [7; 8; 9] [1; 2; 3] [DNext] [])
    as (itx & ity & itx1 & ity1 & E1 & E2 & E3 & E4 & H1 & _); [done|done|done|by repeat constructor; left|constructor|].
  cbn in E4. injection E4 as <-. destruct (H1 eq_refl) as (it & E5 & _ & E6). by exists itx, ity, itx1, it.
Qed.

(** An iterator in the middle takes over one that is in the middle too. *)
Example C59_move_assign_ex : exists itx1 ity1 it old it',
  ai_move_assign 3 false itx1 ity1 = Ok (it, old) /\ ai_move_assign 3 true itx1 ity1 = Err UB /\
  run_ops (ai_step 3) [DNext; DEmpty; DNext; DNext] it = Ok ([EItem (Some 2); EBool false; EItem (Some 3); EItem None], it') /\
  ai_step 3 DNext old = Err UB.
Proof.
  destruct (C59_move_assign_exact 3 (AUndef : acell Z) 0 Z.eqb [7; 8; 9] [1; 2; 3] [DNext; DNext] [DNext] [DNext; DEmpty; DNext; DNext])
    as (itx & ity & itx1 & ity1 & _ & _ & _ & _ & E1 & it & old & it' & E2 & E3 & E4);
    [done|done|done|repeat (constructor; [tauto|]); constructor..|]. by exists itx1, ity1, it, old, it'.
Qed.

(** ** C52 *)
Import LayoutModel LayoutProps.
Local Open Scope N_scope.
(** The block has size * length mod 2^64 bytes: enough exactly when the product
    does not wrap, and no block exactly when the wrapped product is too large. *)
Theorem C52_exact l len h : power_of_two (lalign l) ->
  (alloc_max < (lsize l * len) mod W /\ allocate l len h = Ok (None, h)) \/
  ((lsize l * len) mod W <= alloc_max /\ exists a h' b,
     allocate l len h = Ok (Some a, h') /\ hmap h' !! a = Some b /\ ab_bytes b = (lsize l * len) mod W /\
     (enough l len b <-> lsize l * len < W)).
Proof.
  intros Hp. rewrite allocate_eq. destruct (N.ltb_spec alloc_max ((lsize l * len) mod W)) as [E|E]; [left|right]; (split; [done|]); [done|].
  eexists _, _, (block_for (l, len)). split; [reflexivity|]. split; [apply lookup_insert|]. split; [done|].
  unfold enough, block_for. simpl. split.
  - intros [H _]. destruct (N.lt_ge_cases (lsize l * len) W) as [|H2]; [done|].
    pose proof (N.mod_lt (lsize l * len) W ltac:(done)). lia.
  - intros H. rewrite N.mod_small by done. split; [lia|]. unfold block_alignment. simpl.
    destruct (_ <? lalign l) eqn:E2.
    + exists 1. lia.
    + apply pow2_divides; [done|]. unfold default_new_alignment in *. lia.
Qed.
Example C52_exact_ex : exists a h' b, allocate (Layout 24 8) (2 ^ 62) hempty = Ok (Some a, h') /\ hmap h' !! a = Some b /\
  ab_bytes b = 0 /\ ~ enough (Layout 24 8) (2 ^ 62) b.
Proof.
  destruct (C52_exact (Layout 24 8) (2 ^ 62) hempty) as [[H _]|(_ & a & h' & b & E & Hb & Hn & He)]; [by exists 3|by vm_compute in H|].
  exists a, h', b. split; [done|]. split; [done|]. split; [by rewrite Hn|]. rewrite He. by vm_compute.
Qed.

Print Assumptions C28_array_unset.
Print Assumptions C29_array_into_iter_exact.
Print Assumptions C29_copy_assign_exact.
Print Assumptions C59_move_assign_exact.
Print Assumptions C52_exact.
