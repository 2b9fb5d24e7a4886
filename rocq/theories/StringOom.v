(** C70 for strings: basic_string.h:73, 84, 116, 137, 397, 412 use what the
    allocator returned without looking whether it is null. *)
From stdpp Require Import prelude gmap.
From Verif Require Import Base World Machine StringModel StringProofs StringProps StringExact Oom.
Local Open Scope N_scope.

Section StringOom.
  Context (mm : N -> bool) (strict : bool).
  Notation HM := (M (heap sblk)).
  Notation starve := (Oom.starve (C := sblk) mm).
  Notation wstarve := (Oom.wstarve (C := sblk) mm).

  Lemma st_salloc {A} n (k k' : option N -> HM A) :
    (forall a, starve (k a) (k' a)) -> (forall h, k None h = Err UB) ->
    starve (a <-- s_alloc (mem := mm) n ;; k a) (a <-- s_alloc n ;; k' a).
  Proof.
    intros Hk Hn. unfold s_alloc. destruct (n <=? alloc_max).
    - by apply st_new.
    - apply st_bind; [apply st_ret|]. done.
  Qed.
  Lemma ub_bind {A B} (m : HM A) (f : A -> HM B) : ubo m -> (forall x h, f x h = Err UB) -> forall h, bind m f h = Err UB.
  Proof. intros Hm Hf h. unfold bind. destruct (m h) as [[x h']|e] eqn:E; [apply Hf|]. by rewrite (Hm _ _ E). Qed.

  Lemma ub_first {A B} (m : HM A) (f : A -> HM B) : (forall h, m h = Err UB) -> forall h, bind m f h = Err UB.
  Proof. intros Hm h. unfold bind. by rewrite Hm. Qed.

  Create HintDb sst.
  Hint Resolve st_ret st_fail st_read st_write st_free : sst.
  Ltac sts := repeat (intros; first [solve [auto 2 with sst nocore] | apply st_bind | case_match]).
  Lemma st_or_ub {X} (o : option X) : starve (or_ub o) (or_ub o). Proof. destruct o; [apply st_ret|apply st_fail]. Qed.
  Hint Resolve st_or_ub : sst.
  Lemma st_read_loc s p off n : starve (read_loc s p off n) (read_loc s p off n). Proof. unfold read_loc. sts. Qed.
  Lemma st_write_loc s p off bs : starve (write_loc s p off bs) (write_loc s p off bs). Proof. unfold write_loc. sts. Qed.
  Lemma st_get_cap s : starve (get_cap s) (get_cap s). Proof. unfold get_cap. sts. Qed.
  Lemma st_s_free p c : starve (s_free p c) (s_free p c). Proof. unfold s_free. sts. Qed.
  Lemma st_alloc_assign : starve (alloc_assign strict) (alloc_assign strict). Proof. unfold alloc_assign. sts. Qed.
  Hint Resolve st_read_loc st_write_loc st_get_cap st_s_free st_alloc_assign : sst.
  Lemma st_destroy s : starve (str_destroy s) (str_destroy s). Proof. unfold str_destroy. sts. Qed.
  Lemma st_literal bs : starve (str_literal (mem := mm) bs) (str_literal bs).
  Proof. unfold str_literal. case_match; [sts|]. apply st_salloc; [sts|done]. Qed.
  Lemma st_copy o : starve (str_copy (mem := mm) o) (str_copy o).
  Proof.
    unfold str_copy. case_match; [|sts]. apply st_bind; [sts|intros cap]. apply st_salloc; [sts|].
    apply ub_bind; [apply ubo_read_loc|done].
  Qed.
  Lemma st_move o : starve (str_move strict o) (str_move strict o). Proof. unfold str_move. sts. Qed.
  Lemma st_move_assign t o : starve (str_move_assign strict t o) (str_move_assign strict t o).
  Proof. unfold str_move_assign. sts. Qed.
  Lemma st_copy_assign t o : starve (str_copy_assign (mem := mm) strict t o) (str_copy_assign strict t o).
  Proof.
    unfold str_copy_assign. case_match; [sts|]. case_match; [|case_match; [sts|]].
    - apply st_bind; [sts|intros _]. apply st_bind; [sts|intros cap]. apply st_salloc; [sts|].
      apply ub_bind; [apply ubo_read_loc|done].
    - apply st_bind; [sts|intros cap]. case_match; [|sts].
      apply st_assoc, st_bind; [sts|intros _]. apply st_assoc, st_bind; [sts|intros _].
      apply st_assoc. apply (st_salloc _ (fun p => bind (ret _) _) (fun p => bind (ret _) _)); [sts|].
      intros h. unfold bind at 1, ret. apply ub_bind; [apply ubo_read_loc|done].
  Qed.

  (** After [try_allocate_new_space]: whatever is done with the new space is
      undefined if there is none. *)
  Lemma st_try_alloc {A} s n (k k' : str * ainfo -> HM A) :
    (forall x, starve (k x) (k' x)) ->
    (forall s1 src c d h, k (s1, AInfo src (LHeap None) c true d) h = Err UB) ->
    starve (x <-- try_alloc (mem := mm) s n ;; k x) (x <-- try_alloc s n ;; k' x).
  Proof.
    intros Hk Hn. unfold try_alloc. case_match.
    - apply st_assoc, st_bind; [sts|intros cap]. case_match; [|apply st_bind; [sts|done]].
      apply st_assoc. apply (st_salloc _ (fun p => bind (ret _) _) (fun p => bind (ret _) _)).
      + intros a. apply st_bind; [sts|done].
      + intros h. apply Hn.
    - case_match; [|apply st_bind; [sts|done]].
      apply st_assoc. apply (st_salloc _ (fun p => bind (ret _) _) (fun p => bind (ret _) _)).
      + intros a. apply st_bind; [sts|done].
      + intros h. apply Hn.
  Qed.
  Lemma st_free_src s i : starve (free_src s i) (free_src s i). Proof. unfold free_src. sts. Qed.
  Hint Resolve st_free_src : sst.
  Lemma st_push s ch : starve (str_push (mem := mm) s ch) (str_push s ch).
  Proof.
    unfold str_push. apply st_try_alloc; [intros [s1 i]; sts|]. intros s1 src c d. cbn [ai_new ai_src ai_des].
    apply ub_first, ub_bind; [apply ubo_read_loc|done].
  Qed.
  Lemma st_boundary s idx : starve (str_boundary s idx) (str_boundary s idx).
  Proof. unfold str_boundary. sts. Qed.
  Hint Resolve st_boundary : sst.
  Lemma st_insert s ch idx : starve (str_insert (mem := mm) s ch idx) (str_insert s ch idx).
  Proof.
    unfold str_insert. apply st_bind; [sts|intros b]. case_match; [sts|].
    apply st_try_alloc; [intros [s1 i]; sts|]. intros s1 src c d. cbn [ai_new ai_src ai_des].
    apply ub_first, ub_bind; [apply ubo_read_loc|done].
  Qed.
  Lemma st_pop s : starve (str_pop s) (str_pop s). Proof. unfold str_pop. sts. Qed.
  Lemma st_print s : starve (str_print s) (str_print s). Proof. unfold str_print. sts. Qed.
  Lemma st_bytes s : starve (str_bytes s) (str_bytes s). Proof. unfold str_bytes. sts. Qed.
  Hint Resolve st_destroy st_literal st_copy st_move st_move_assign st_copy_assign st_push st_insert st_pop st_print st_bytes : sst.

  Lemma str_step_starve o : wstarve (str_step (mem := mm) strict o) (str_step strict o).
  Proof.
    destruct o; cbn [str_step]; unfold s_mk, s_upd, s_obs;
      repeat (intros; first [apply ws_ret | apply ws_fail | apply ws_get | apply ws_set | apply ws_new | apply ws_del
        | apply ws_lift | apply ws_bind | case_match]); sts.
  Qed.
End StringOom.

(** C70, strings.  [mm k] tells whether the [k]-th request of the program is
    met.  While all are, nothing differs from a memory without end, and as
    soon as one is not, the program is undefined. *)
Theorem C70_string_histories_partial (mm : N -> bool) strict ops sp outs :
  srun (gspec strict) ∅ ops = SOk sp outs ->
  exists (n : N) (w : world sblk str), run_ops (str_step strict) ops winit = Ok (outs, w) /\ hnext (w_heap w) = n /\
    ((forall k, k < n -> mm k = true) -> run_ops (str_step (mem := mm) strict) ops winit = Ok (outs, w)) /\
    ((exists k, k < n /\ mm k = false) -> run_ops (str_step (mem := mm) strict) ops winit = Err UB).
Proof.
  intros Hs. pose proof (C43_histories_partial strict ops) as H. rewrite Hs in H. destruct H as (w & E & _).
  exists (hnext (w_heap w)), w. split; [done|]. split; [done|].
  pose proof (ws_run mm _ _ ops (str_step_starve mm strict) winit) as Hw. rewrite E in Hw. destruct Hw as [_ ->].
  split.
  - intros Hk. rewrite (proj2 (roomy_true _ _ _)); [done|]. intros k Hk'. apply Hk. lia.
  - intros (k & Hk & Hm). destruct (roomy _ _ _) eqn:Er; [|done]. rewrite roomy_true in Er.
    rewrite (Er k) in Hm; [done|]. cbn. lia.
Qed.

Lemma eq_copy (mm : N -> bool) o : s_len o <= 16 -> str_copy (mem := mm) o = str_copy o.
Proof. intros Ho. unfold str_copy, LOCAL. by destruct (N.ltb_spec 16 (s_len o)); [lia|]. Qed.
Lemma eq_copy_assign (mm : N -> bool) strict t o : s_len t <> 16 -> s_len o < 16 ->
  str_copy_assign (mem := mm) strict t o = str_copy_assign strict t o.
Proof.
  intros Ht Ho. unfold str_copy_assign, LOCAL. destruct (N.ltb_spec (s_len t) 16), (N.ltb_spec (s_len o) 16),
    (N.ltb_spec 16 (s_len t)), (N.ltb_spec 16 (s_len o)); cbn [andb]; try done; lia.
Qed.
Lemma eq_try_alloc (mm : N -> bool) s n : s_len s <= 16 -> n <= 16 -> try_alloc (mem := mm) s n = try_alloc s n.
Proof.
  intros Hs Hn. unfold try_alloc, LOCAL. destruct (N.ltb_spec 16 (s_len s)); [lia|]. by destruct (N.ltb_spec 16 n); [lia|].
Qed.
Lemma eq_push (mm : N -> bool) s ch : s_len s + nlen ch <= 16 -> str_push (mem := mm) s ch = str_push s ch.
Proof.
  intros Hs. unfold str_push. rewrite eq_try_alloc; [done|lia|].
  unfold uadd. rewrite N.mod_small; [lia|]. unfold W. lia.
Qed.
Lemma eq_insert (mm : N -> bool) s ch idx : s_len s + nlen ch <= 16 ->
  str_insert (mem := mm) s ch idx = str_insert s ch idx.
Proof.
  intros Hs. unfold str_insert. rewrite eq_try_alloc; [done|lia|].
  unfold uadd. rewrite N.mod_small; [lia|]. unfold W. lia.
Qed.

(** Strings of at most 16 bytes need no memory. *)
Theorem C70_string_short (mm : N -> bool) strict sp w o sp' x :
  reached strict sp w -> gspec strict sp o = SOk sp' x ->
  (forall i bs, sp' !! i = Some bs -> (length bs <= 16)%nat) ->
  str_step (mem := mm) strict o w = str_step strict o w.
Proof.
  intros [[m Hw] _]%reached_rel Hg Hshort.
  assert (Hv : forall i s, w_vars w !! i = Some s -> exists bs, sp !! i = Some bs /\ s_len s = nlen bs).
  { intros i s Hi. destruct (world_ok_lookup _ _ _ _ _ _ Hw Hi) as (e & He & <- & Hs).
    exists (e_s e). split; [done|]. eapply srep_len. by apply (wo_rep _ _ _ _ Hw _ _ He). }
  unfold gspec in Hg. destruct (safe strict sp o) eqn:Hsafe; [|done].
  destruct o as [| |i j| |i j| |i ch|i ch idx| | | | | |]; cbn [str_step sspec] in *; try done.
  - unfold fresh, give in Hg. destruct (sp !! i); [done|]. destruct (decide _); [|done]. injection Hg as <- <-.
    specialize (Hshort i bs ltac:(by rewrite lookup_insert)). unfold str_literal, LOCAL.
    destruct (N.leb_spec (N.of_nat (length bs)) 16); [done|lia].
  - unfold bind, wget. destruct (w_vars w !! j) as [o|] eqn:Ej; [|done].
    destruct (Hv _ _ Ej) as (bs & Hb & Hl). unfold fresh, look, give in Hg. destruct (sp !! i); [done|].
    rewrite Hb in Hg. destruct (decide _); [|done]. injection Hg as <- <-.
    specialize (Hshort i bs ltac:(by rewrite lookup_insert)). rewrite eq_copy; [done|lia].
  - unfold bind, wget. destruct (w_vars w !! i) as [t|] eqn:Ei; [|done].
    destruct (w_vars w !! j) as [o|] eqn:Ej; [|done]. destruct (Nat.eqb_spec i j) as [Hij|Hij]; [done|].
    destruct (Hv _ _ Ei) as (xs & Hx & Ht). destruct (Hv _ _ Ej) as (bs & Hb & Hl).
    unfold look, give in Hg. rewrite Hx, Hb in Hg. destruct (decide _); [|done]. injection Hg as <- <-.
    specialize (Hshort i bs ltac:(by rewrite lookup_insert)).
    cbn [safe] in Hsafe. unfold is16, covers in Hsafe. rewrite Hx, Hb in Hsafe.
    destruct (Nat.eqb_spec i j) as [?|_]; [done|]. destruct (Nat.ltb_spec 16 (length bs)) as [?|_]; [lia|].
    cbn [andb orb] in Hsafe. rewrite orb_false_r in Hsafe. apply andb_true_iff in Hsafe as [Hsafe H2].
    apply andb_true_iff in Hsafe as [_ H1]. apply negb_true_iff, Nat.eqb_neq in H1, H2.
    rewrite eq_copy_assign; [done|lia..].
  - unfold s_upd, bind, wget. destruct (w_vars w !! i) as [t|] eqn:Ei; [|done].
    destruct (Hv _ _ Ei) as (xs & Hx & Ht). unfold look, give in Hg. rewrite Hx in Hg.
    destruct (decide _); [|done]. injection Hg as <- <-.
    specialize (Hshort i _ ltac:(by rewrite lookup_insert)). rewrite app_length in Hshort. rewrite eq_push; [done|lia].
  - unfold s_upd, bind, wget. destruct (w_vars w !! i) as [t|] eqn:Ei; [|done].
    destruct (Hv _ _ Ei) as (xs & Hx & Ht). unfold look, give in Hg. rewrite Hx in Hg.
    destruct (cut_ok xs idx) eqn:Hc; [|done]. destruct (decide _); [|done]. injection Hg as <- <-.
    specialize (Hshort i _ ltac:(by rewrite lookup_insert)). pose proof (ins_len xs ch (N.to_nat idx)) as Hi. rewrite app_length in Hi.
    rewrite eq_insert; [done|lia].
Qed.

(** Making a string of more than 16 bytes, or making one grow beyond 16, asks
    for memory, and is undefined if there is none. *)
Definition outgrows (sp : sstate) (o : sop) : bool :=
  match o with
  | SLit _ bs => (16 <? length bs)%nat
  | SCopy _ j => match sp !! j with Some bs => (16 <? length bs)%nat | None => false end
  | SPush i ch | SInsert i ch _ =>
      match sp !! i with Some bs => (length bs <=? 16)%nat && (16 <? length bs + length ch)%nat | None => false end
  | _ => false
  end.
Lemma ask_salloc {A} (mm : N -> bool) n (k : option N -> M (heap sblk) A) h : n <= alloc_max ->
  mm (hnext h) = false -> (forall h, k None h = Err UB) -> bind (s_alloc (mem := mm) n) k h = Err UB.
Proof.
  intros Hn Hm Hk. unfold s_alloc. destruct (N.leb_spec n alloc_max); [|lia]. unfold bind, hnew, room. by rewrite Hm.
Qed.
Lemma ask_try {A} (mm : N -> bool) s (ch : list N) (k : str * ainfo -> M (heap sblk) A) h : mm (hnext h) = false ->
  s_len s <= 16 -> 16 < s_len s + nlen ch -> s_len s + nlen ch + (s_len s + nlen ch) / 2 <= alloc_max ->
  (forall s1 src c d h, k (s1, AInfo src (LHeap None) c true d) h = Err UB) ->
  bind (try_alloc (mem := mm) s (uadd (s_len s) (nlen ch))) k h = Err UB.
Proof.
  intros Hm H1 H2 H3 Hk. rewrite uadd_fits by done. unfold try_alloc, LOCAL.
  destruct (N.ltb_spec 16 (s_len s)); [lia|]. destruct (N.ltb_spec 16 (s_len s + nlen ch)); [|lia].
  rewrite bind_bind. apply ask_salloc; [by rewrite uadd_cap|done|]. intros h'. apply Hk.
Qed.
Lemma ask_push (mm : N -> bool) s ch h : mm (hnext h) = false ->
  s_len s <= 16 -> 16 < s_len s + nlen ch -> s_len s + nlen ch + (s_len s + nlen ch) / 2 <= alloc_max ->
  str_push (mem := mm) s ch h = Err UB.
Proof.
  intros. unfold str_push. apply ask_try; try done. intros s1 src c d. cbn [ai_new ai_src ai_des].
  apply ub_first, ub_bind; [apply ubo_read_loc|done].
Qed.
Theorem C70_string_long (mm : N -> bool) strict sp w o sp' x :
  reached strict sp w -> gspec strict sp o = SOk sp' x -> outgrows sp o = true ->
  mm (hnext (w_heap w)) = false -> str_step (mem := mm) strict o w = Err UB.
Proof.
  intros [[m Hw] _]%reached_rel Hg Hout Hm.
  assert (Hv : forall i bs, sp !! i = Some bs -> exists s fp, w_vars w !! i = Some s /\ srep (w_heap w) s bs fp).
  { intros i bs Hi. destruct (world_ok_lookup_spec _ _ _ _ _ _ Hw Hi) as (e & He & <- & Hs & Hr). eauto. }
  unfold gspec in Hg. destruct (safe strict sp o) eqn:Hsafe; [|done].
  destruct o as [| |i j| |i j| |i ch|i ch idx| | | | | |]; cbn [str_step sspec outgrows] in *; try done.
  - unfold fresh, give in Hg. destruct (sp !! i) eqn:Ei; [done|]. destruct (decide (fits bs)) as [Hf|]; [|done].
    apply Nat.ltb_lt in Hout. destruct (world_ok_none _ _ _ _ _ Hw Ei) as [_ Hi].
    unfold s_mk, bind, wnew. rewrite Hi. unfold lift. cbn [w_heap]. unfold str_literal, LOCAL.
    destruct (N.leb_spec (N.of_nat (length bs)) 16); [lia|]. rewrite ask_salloc; try done.
    unfold fits in Hf. rewrite uadd_cap; lia.
  - unfold fresh, look, give in Hg. destruct (sp !! i) eqn:Ei; [done|]. destruct (sp !! j) as [bs|] eqn:Ej; [|done].
    apply Nat.ltb_lt in Hout. destruct (world_ok_none _ _ _ _ _ Hw Ei) as [_ Hi].
    destruct (Hv _ _ Ej) as (s & fp & Hs & Hr). unfold bind, wget. rewrite Hs.
    unfold s_mk, bind, wnew. rewrite Hi. unfold lift. cbn [w_heap]. unfold str_copy, LOCAL.
    rewrite (srep_len _ _ _ _ Hr). destruct (N.ltb_spec 16 (nlen bs)); [|lia].
    inversion Hr as [|bs' a r Hfit Hgt Hcap Ha]; subst; [lia|].
    unfold bind at 1, get_cap. cbn [s_store ret]. unfold ret at 1. rewrite ask_salloc; try done.
    apply ub_bind; [apply ubo_read_loc|done].
  - unfold look, give in Hg. destruct (sp !! i) as [bs|] eqn:Ei; [|done].
    apply andb_true_iff in Hout as [H1%Nat.leb_le H2%Nat.ltb_lt]. destruct (Hv _ _ Ei) as (s & fp & Hs & Hr).
    destruct (decide (fits _)) as [Hf|]; [|done]. unfold fits in Hf. rewrite app_length, Nat2N.inj_add in Hf.
    unfold s_upd, bind, wget. rewrite Hs. unfold lift. rewrite ask_push; try done; rewrite (srep_len _ _ _ _ Hr); lia.
  - unfold look, give in Hg. destruct (sp !! i) as [bs|] eqn:Ei; [|done].
    apply andb_true_iff in Hout as [H1%Nat.leb_le H2%Nat.ltb_lt]. destruct (Hv _ _ Ei) as (s & fp & Hs & Hr).
    destruct (cut_ok bs idx) eqn:Hc; [|done].
    destruct (decide (fits _)) as [Hf|]; [|done]. unfold fits in Hf.
    pose proof (ins_len bs ch (N.to_nat idx)) as Hl. rewrite app_length in Hl.
    assert (Hf' : nlen bs + nlen ch + (nlen bs + nlen ch) / 2 <= alloc_max).
    { etransitivity; [|exact Hf]. apply N.add_le_mono; [lia|]. apply N.div_le_mono; lia. }
    clear Hf Hl Hg Hsafe Hv. unfold s_upd, bind, wget. rewrite Hs. unfold lift.
    unfold str_insert. unfold bind at 1. rewrite (boundary_ok _ _ _ _ _ Hr), Hc. cbn [negb].
    rewrite (ask_try mm); try done; try (rewrite (srep_len _ _ _ _ Hr); lia).
    intros s1 src c d. cbn [ai_new ai_src ai_des]. apply ub_first, ub_bind; [apply ubo_read_loc|done].
Qed.

(** One string grows past its inline bytes while the other does not. *)
Example C70_string_ex :
  run_ops (str_step (mem := fun k => k <? 1) false) [SLit 0 (replicate 16 65); SPush 0 [66]; SSize 0; SLit 1 [67]; SCopy 2 1; SPush 2 [68]; SBytes 2] winit =
  run_ops (str_step false) [SLit 0 (replicate 16 65); SPush 0 [66]; SSize 0; SLit 1 [67]; SCopy 2 1; SPush 2 [68]; SBytes 2] winit /\
  run_ops (str_step (mem := fun k => k <? 1) false) [SLit 0 (replicate 16 65); SPush 0 [66]; SSize 0; SLit 1 [67]; SCopy 2 0] winit = Err UB.
Proof. split; vm_compute; done. Qed.
Theorem C70_string_refuted strict : ~ (forall (mm : N -> bool) ops sp outs,
  srun (gspec strict) ∅ ops = SOk sp outs -> run_ops (str_step (mem := mm) strict) ops winit <> Err UB).
Proof. intros Hc. by eapply (Hc (fun _ => false) [SLit 0 (replicate 17 65)]); destruct strict. Qed.
Print Assumptions C70_string_histories_partial.
Print Assumptions C70_string_short.
Print Assumptions C70_string_long.
Print Assumptions C70_string_refuted.
