(** * LayoutProps: C51 and C52 *)
From Verif Require Import Base LayoutModel.
Local Open Scope N_scope.

(** ** C51, first part: which alignments are accepted *)

(** A power of two, as an arithmetician would say it. *)
Definition power_of_two (a : N) : Prop := exists k, a = 2 ^ k.

Lemma pos_popcount_pos p : 1 <= pos_popcount p.
Proof. induction p; simpl; lia. Qed.

Lemma popcount_one p : pos_popcount p = 1 <-> power_of_two (Npos p).
Proof.
  induction p as [p IH|p IH|]; simpl.
  - pose proof (pos_popcount_pos p). split; [lia|]. intros [k Hk].
    destruct (N.eq_dec k 0) as [->|]; [done|].
    replace k with (N.succ (k - 1)) in Hk by lia. rewrite N.pow_succ_r' in Hk. lia.
  - rewrite IH. split; intros [k Hk].
    + exists (N.succ k). rewrite N.pow_succ_r'. lia.
    + destruct (N.eq_dec k 0) as [->|]; [done|].
      exists (k - 1). replace k with (N.succ (k - 1)) in Hk by lia.
      rewrite N.pow_succ_r' in Hk. lia.
  - split; [|done]. intros _. by exists 0.
Qed.

(** [from_size_align] succeeds exactly for powers of two, and carries both
    numbers unchanged. *)
Theorem C51_layout_valid (size align : N) :
  (power_of_two align -> from_size_align size align = Some (Layout size align)) /\
  (~ power_of_two align -> from_size_align size align = None).
Proof.
  unfold from_size_align. destruct align as [|p]; simpl.
  { split; [|done]. intros [k Hk]. pose proof (N.pow_nonzero 2 k). lia. }
  destruct (pos_popcount p =? 1) eqn:E; simpl.
  - apply N.eqb_eq, popcount_one in E. done.
  - apply N.eqb_neq in E. rewrite popcount_one in E. done.
Qed.

(** [from_size_align_unchecked] skips the check and does nothing else. *)
Theorem C51_unchecked (size align : N) :
  lsize (from_size_align_unchecked size align) = size /\
  lalign (from_size_align_unchecked size align) = align /\
  (power_of_two align <-> from_size_align size align = Some (from_size_align_unchecked size align)).
Proof.
  split; [done|]. split; [done|]. split; [apply C51_layout_valid|]. unfold from_size_align.
  destruct align as [|p]; simpl; [done|]. destruct (pos_popcount p =? 1) eqn:E; simpl; [|done].
  intros _. by apply popcount_one, N.eqb_eq.
Qed.

Example C51_ex :
  from_size_align 24 64 = Some (Layout 24 64) /\ from_size_align 24 48 = None /\
  from_size_align 24 0 = None /\ power_of_two 64 /\ ~ power_of_two 48.
Proof.
  split_and!; try reflexivity.
  - by exists 6.
  - change 48 with (Npos 48). rewrite <-popcount_one. done.
Qed.

(** ** C51, second part: allocation and deallocation agree *)

(** What a client must do: give back every pointer at most once, with the
    layout and length it was asked for. *)
Global Instance layout_eq_dec : EqDecision layout.
Proof. solve_decision. Defined.
Notation led := (gmap nat (layout * N)).
Definition led_step (s : led) (o : lop) : option led :=
  match o with
  | LAlloc i l len => match s !! i with None => Some (<[i := (l, len)]> s) | Some _ => None end
  | LFree i l len => if decide (s !! i = Some (l, len)) then Some (delete i s) else None
  end.
Fixpoint led_run (s : led) (ops : list lop) : option led :=
  match ops with
  | [] => Some s
  | o :: r => match led_step s o with Some s1 => led_run s1 r | None => None end
  end.

(** The block that belongs to a request. *)
Definition block_for (r : layout * N) : ablock :=
  ABlock ((lsize r.1 * r.2) mod W)
         (if default_new_alignment <? lalign r.1 then Some (lalign r.1) else None).

Record lrep (s : led) (w : world ablock (option N)) : Prop := LRep {
  lr_vars : forall i, s !! i = None <-> w_vars w !! i = None;
  lr_block : forall i r a, s !! i = Some r -> w_vars w !! i = Some (Some a) ->
    hmap (w_heap w) !! a = Some (block_for r);
  lr_inj : forall i j a, w_vars w !! i = Some (Some a) -> w_vars w !! j = Some (Some a) -> i = j;
  lr_dom : forall a b, hmap (w_heap w) !! a = Some b -> exists i, w_vars w !! i = Some (Some a);
  lr_next : forall a b, hmap (w_heap w) !! a = Some b -> a < hnext (w_heap w);
}.

Lemma lrep_init : lrep ∅ winit.
Proof. split; simpl; intros; rewrite ?lookup_empty in *; done. Qed.

Lemma allocate_eq l len h :
  allocate l len h =
    if alloc_max <? (lsize l * len) mod W then Ok (None, h)
    else Ok (Some (hnext h),
             Heap (<[hnext h := block_for (l, len)]> (hmap h)) (hnext h + 1) (hmoves h)).
Proof.
  unfold allocate, op_new, block_for, umul, bind, ret, halloc. simpl.
  destruct (_ <? lalign l); by destruct (alloc_max <? _).
Qed.

Lemma deallocate_eq p l len h :
  (forall a, p = Some a -> hmap h !! a = Some (block_for (l, len))) ->
  deallocate p l len h =
    Ok (tt, match p with None => h | Some a => Heap (delete a (hmap h)) (hnext h) (hmoves h) end).
Proof.
  intros H. unfold deallocate, op_delete, bind, ret, hread, hfree, umul.
  destruct p as [a|]; [|by destruct (_ <? lalign l)].
  specialize (H a eq_refl). unfold block_for in H. simpl in H. rewrite (N.mul_comm len).
  destruct (_ <? lalign l); rewrite H; cbn [ab_bytes ab_align];
    rewrite N.eqb_refl, bool_decide_true by done; cbn [andb]; by rewrite H.
Qed.

Lemma lstep_ok s w o s1 : lrep s w -> led_step s o = Some s1 ->
  exists b w1, lstep o w = Ok (b, w1) /\ lrep s1 w1.
Proof.
  intros [Hv Hb Hi Hd Hn] Hs. destruct o as [i l len|i l len]; simpl in Hs.
  - destruct (s !! i) eqn:Ei; [done|]. injection Hs as <-.
    pose proof (proj1 (Hv i) Ei) as Ew.
    unfold lstep, bind, wnew, lift, wset, ret. rewrite Ew, allocate_eq.
    destruct (alloc_max <? _) eqn:E; eexists _, _; (split; [reflexivity|]); split; simpl.
    + intros j. destruct (decide (i = j)) as [->|]; [rewrite !lookup_insert; by split|].
      rewrite !lookup_insert_ne by done. apply Hv.
    + intros j r a. destruct (decide (i = j)) as [->|]; [by rewrite !lookup_insert|].
      rewrite !lookup_insert_ne by done. apply Hb.
    + intros j k a. destruct (decide (i = j)) as [->|]; [by rewrite lookup_insert|].
      destruct (decide (i = k)) as [->|]; [by rewrite (lookup_insert _ k)|].
      rewrite !lookup_insert_ne by done. apply Hi.
    + intros a b H. destruct (Hd a b H) as [j Hj]. exists j.
      rewrite lookup_insert_ne; [done|]. by intros ->; rewrite Ew in Hj.
    + apply Hn.
    + intros j. destruct (decide (i = j)) as [->|]; [rewrite !lookup_insert; by split|].
      rewrite !lookup_insert_ne by done. apply Hv.
    + intros j r a. destruct (decide (i = j)) as [->|].
      { rewrite !lookup_insert. intros [= <-] [= <-]. apply lookup_insert. }
      rewrite !lookup_insert_ne by done. intros H1 H2.
      pose proof (Hb _ _ _ H1 H2) as H3. rewrite lookup_insert_ne; [done|].
      pose proof (Hn _ _ H3). lia.
    + assert (forall j, w_vars w !! j <> Some (Some (hnext (w_heap w)))) as Hf.
      { intros j Hj. destruct (s !! j) as [r|] eqn:E2.
        - pose proof (Hb _ _ _ E2 Hj) as H3. pose proof (Hn _ _ H3). lia.
        - apply Hv in E2. by rewrite E2 in Hj. }
      intros j k a. destruct (decide (i = j)) as [->|].
      * rewrite lookup_insert. intros [= <-].
        destruct (decide (j = k)) as [->|]; [done|]. rewrite lookup_insert_ne by done.
        intros H. by apply Hf in H.
      * rewrite lookup_insert_ne by done. destruct (decide (i = k)) as [->|].
        -- rewrite lookup_insert. intros H [= <-]. by apply Hf in H.
        -- rewrite lookup_insert_ne by done. apply Hi.
    + intros a b. destruct (decide (a = hnext (w_heap w))) as [->|].
      * intros _. exists i. apply lookup_insert.
      * rewrite lookup_insert_ne by done. intros H. destruct (Hd a b H) as [j Hj].
        exists j. rewrite lookup_insert_ne; [done|]. by intros ->; rewrite Ew in Hj.
    + intros a b. destruct (decide (a = hnext (w_heap w))) as [->|]; [lia|].
      rewrite lookup_insert_ne by done. intros H. apply Hn in H. lia.
  - destruct (decide _) as [Ei|]; [|done]. injection Hs as <-.
    destruct (w_vars w !! i) as [p|] eqn:Ew.
    2:{ apply Hv in Ew. by rewrite Ew in Ei. }
    unfold lstep, bind, wget, lift, wdel, ret. rewrite Ew, deallocate_eq.
    2:{ intros a ->. by apply (Hb i). }
    eexists _, _. split; [reflexivity|]. split; simpl.
    + intros j. destruct (decide (i = j)) as [->|]; [rewrite !lookup_delete; by split|].
      rewrite !lookup_delete_ne by done. apply Hv.
    + intros j r a. destruct (decide (i = j)) as [->|]; [by rewrite !lookup_delete|].
      rewrite !lookup_delete_ne by done. intros H1 H2. pose proof (Hb _ _ _ H1 H2) as H3.
      destruct p as [c|]; [|done]. simpl. rewrite lookup_delete_ne; [done|].
      intros ->. pose proof (Hi _ _ _ Ew H2). done.
    + intros j k a. destruct (decide (i = j)) as [->|]; [by rewrite lookup_delete|].
      destruct (decide (i = k)) as [->|]; [by rewrite (lookup_delete _ k)|].
      rewrite !lookup_delete_ne by done. apply Hi.
    + intros a b H. destruct p as [c|]; simpl in H.
      * apply lookup_delete_Some in H as [Hne H]. destruct (Hd a b H) as [j Hj].
        exists j. rewrite lookup_delete_ne; [done|]. intros <-. rewrite Ew in Hj. congruence.
      * destruct (Hd a b H) as [j Hj]. exists j. rewrite lookup_delete_ne; [done|].
        intros <-. by rewrite Ew in Hj.
    + intros a b H. destruct p as [c|]; simpl in *; [|by apply (Hn a b)].
      apply lookup_delete_Some in H as [_ H]. by apply (Hn a b).
Qed.

Lemma lrun_ok ops : forall s w s1, lrep s w -> led_run s ops = Some s1 ->
  exists outs w1, run_ops lstep ops w = Ok (outs, w1) /\ lrep s1 w1.
Proof.
  induction ops as [|o ops IH]; simpl; intros s w s1 Hr Hs.
  { injection Hs as <-. by exists [], w. }
  destruct (led_step s o) as [s2|] eqn:E; [|done].
  destruct (lstep_ok _ _ _ _ Hr E) as (b & w2 & E2 & Hr2).
  destruct (IH _ _ _ Hr2 Hs) as (outs & w3 & E3 & Hr3).
  exists (b :: outs), w3. unfold bind, ret. by rewrite E2, E3.
Qed.

(** Whatever a disciplined client does, deallocation always uses the same
    [operator new]/[delete] flavour, byte count and alignment as allocation
    did (anything else is [UB] in the model), and once everything was given
    back nothing is left allocated. *)
Theorem C51_allocator_pairing (ops : list lop) (s : led) :
  led_run ∅ ops = Some s ->
  exists outs w, lrun ops = Ok (outs, w) /\ (s = ∅ -> hmap (w_heap w) = ∅).
Proof.
  intros H. destruct (lrun_ok _ _ _ _ lrep_init H) as (outs & w & E & Hr).
  exists outs, w. split; [done|]. intros ->.
  apply map_empty. intros a. destruct (hmap (w_heap w) !! a) as [b|] eqn:E2; [|done].
  destruct (lr_dom _ _ Hr _ _ E2) as [i Hi].
  pose proof (proj1 (lr_vars _ _ Hr i) (lookup_empty i)) as H2. by rewrite Hi in H2.
Qed.

Definition ex_lops : list lop :=
  [LAlloc 0 (Layout 24 8) 10; LAlloc 1 (Layout 64 64) 3; LFree 0 (Layout 24 8) 10;
   LFree 1 (Layout 64 64) 3].
Example C51_pairing_ex :
  (exists s, led_run ∅ ex_lops = Some s /\ map_to_list s = []) /\
  (exists w, lrun ex_lops = Ok ([true; true; true; true], w)) /\
  (** Giving back a 64-aligned block as if it were 8-aligned is an error. *)
  lrun [LAlloc 1 (Layout 64 64) 3; LFree 1 (Layout 64 8) 3] = Err UB.
Proof. split_and!; [eexists; split; vm_compute; reflexivity|eexists; vm_compute; reflexivity|reflexivity]. Qed.

(** ** C52: an allocation is large and aligned enough *)

(** The block returned for [len] objects of the given layout, if any, holds
    [len * size] bytes and has the alignment of the layout. *)
Definition enough (l : layout) (len : N) (b : ablock) : Prop :=
  lsize l * len <= ab_bytes b /\ exists k, block_alignment b = k * lalign l.

Definition C52_full : Prop := forall l len h a h',
  power_of_two (lalign l) -> lsize l < W -> len < W ->
  allocate l len h = Ok (Some a, h') ->
  exists b, hmap h' !! a = Some b /\ enough l len b.

(** The product wraps around: 2^61 + 1 objects of 8 bytes get 8 bytes. *)
Theorem C52_refuted : ~ C52_full.
Proof.
  intros H. specialize (H (Layout 8 8) 2305843009213693953 hempty 0).
  edestruct H as (b & Hb & Hen & _); [by exists 3|done|done|reflexivity|].
  simpl in Hb. rewrite lookup_insert in Hb. injection Hb as <-. vm_compute in Hen. done.
Qed.

Lemma pow2_divides a : power_of_two a -> a <= 16 -> exists k, 16 = k * a.
Proof.
  intros [k ->] Hk. assert (k <= 4) as Hk4.
  { destruct (N.le_gt_cases k 4) as [|H]; [done|].
    assert (2 ^ 5 <= 2 ^ k) as H2 by (apply N.pow_le_mono_r; lia). change (2 ^ 5) with 32 in H2. lia. }
  exists (2 ^ (4 - k)). rewrite <-N.pow_add_r. by replace (4 - k + k) with 4 by lia.
Qed.

(** Away from the wrap-around it holds; and [allocate] fails only for
    requests no object could satisfy. *)
Theorem C52_enough_partial l len h :
  power_of_two (lalign l) -> lsize l * len < W ->
  (alloc_max < lsize l * len /\ allocate l len h = Ok (None, h)) \/
  (lsize l * len <= alloc_max /\ exists a h' b,
     allocate l len h = Ok (Some a, h') /\ hmap h' !! a = Some b /\ enough l len b /\
     forall a', a' <> a -> hmap h' !! a' = hmap h !! a').
Proof.
  intros Hp Hw. rewrite allocate_eq, N.mod_small by done.
  destruct (alloc_max <? _) eqn:E; [left|right]; (split; [lia|]); [done|].
  eexists _, _, (block_for (l, len)). split_and!; [reflexivity| | |].
  - apply lookup_insert.
  - unfold enough, block_for, block_alignment. simpl. rewrite N.mod_small by done. split; [lia|].
    destruct (_ <? lalign l) eqn:E2.
    + exists 1. lia.
    + apply pow2_divides; [done|]. unfold default_new_alignment in *. lia.
  - intros a' Ha. simpl. by rewrite lookup_insert_ne.
Qed.

Example C52_ex :
  power_of_two (lalign (Layout 24 64)) /\ lsize (Layout 24 64) * 1000 < W /\
  lsize (Layout 24 64) * 1000 <= alloc_max.
Proof. split_and!; [by exists 6|done|done]. Qed.

Print Assumptions C51_layout_valid.
Print Assumptions C51_allocator_pairing.
Print Assumptions C52_refuted.
Print Assumptions C52_enough_partial.
Print Assumptions C51_unchecked.
