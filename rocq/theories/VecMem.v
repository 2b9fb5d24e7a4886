(** * VecMem: C88, the bytes the vectors hold

    A vector owns at most one block, requested with the size of its capacity
    (vector.h).  Here: the sum over all blocks in memory, at any moment of a
    history. *)
From Verif Require Import Base World VecModel VecSpec VecFacts VecProofs VecProofs2 VecRefine VecMore VecProps VecIterModel VecRefs VecKeep VecCost VecMoves Weigh.
Local Open Scope N_scope.

Section Vectors.
  Context {A : Type} (dflt : A) (eqb : A -> A -> bool) (cmp : A -> A -> comparison).
  Context (sz lmax : N) (Hsz : 1 <= sz) (Hlim : sz * (2 * lmax + 2) <= alloc_max).
  Notation good := (good dflt eqb cmp lmax).
  Notation vrun := (vec_run sz dflt eqb cmp).
  Notation caps_run := (caps_run dflt eqb cmp).
  Implicit Types (w : world (block A) vec) (s : gmap nat (list A)) (c : gmap nat (N * N)).

  (** The bytes of allocator [al] in use. *)
  Definition bytes_of (al : N) (b : block A) : N := if b_alloc b =? al then b_bytes b else 0.
  Definition room_of (al : N) (ca : N * N) : N := if snd ca =? al then sz * fst ca else 0.

  Lemma weigh_vec (g : block A -> N) h v xs fp : vrep sz lmax h v xs fp ->
    NoDup fp /\ sumN (at_ g h <$> fp) = match v_ptr v with Some a => at_ g h a | None => 0 end.
  Proof using Type. clear dflt eqb cmp Hsz Hlim.
    intros (_ & _ & _ & Hp). destruct (v_ptr v) as [a|]; destruct Hp as [H1 H2]; subst fp.
    - split; [apply NoDup_singleton|]. cbn. lia.
    - split; [constructor|done].
  Qed.
  Lemma weigh_vecs g (f : vec -> N) w s : world_ok (vrep sz lmax) w s ->
    (forall v xs fp, vrep sz lmax (w_heap w) v xs fp -> match v_ptr v with Some a => at_ g (w_heap w) a | None => 0 end = f v) ->
    weigh g (w_heap w) = over f (w_vars w).
  Proof using Type. clear dflt eqb cmp Hsz Hlim.
    intros [m Hw] Hf. rewrite (wo_vars _ _ _ _ Hw), over_fmap.
    apply (weigh_world (vrep sz lmax) (vrep_dom sz lmax) g w s m (fun v _ => f v) Hw).
    intros v xs fp Hr. destruct (weigh_vec g _ _ _ _ Hr) as [Hn He]. split; [done|]. rewrite He. by eapply Hf.
  Qed.

  (** The bytes in use, per allocator, are the capacities times the size of an
      element; the capacities are those of C64, a function of the history. *)
  Theorem C88_vec_bytes_partial ops s outs al : good ops s outs ->
    exists w, vrun ops = Ok (outs, w) /\
      weigh (bytes_of al) (w_heap w) = over (room_of al) (caps_run ∅ ∅ ops).
  Proof using Hsz Hlim.
    intros [Hs Ha]. destruct (run_cost dflt eqb cmp sz lmax Hsz Hlim ops winit ∅ s outs) as (w & E & Hw & Hc & _); [|done..|].
    { apply world_ok_init. }
    exists w. split; [done|]. assert (H0 : caps_of (A := A) winit = ∅) by apply fmap_empty. rewrite H0 in Hc.
    rewrite <-Hc. unfold caps_of. rewrite over_fmap. apply (weigh_vecs _ _ w s Hw). clear.
    intros v xs fp (_ & _ & _ & Hp). unfold room_of. cbn [fst snd]. destruct (v_ptr v) as [a|]; destruct Hp as [Hf Hp].
    - unfold at_. rewrite Hp. done.
    - rewrite Hf. destruct (v_alloc v =? al); lia.
  Qed.
  (** There are never more blocks than vectors, and never fewer than vectors
      with elements. *)
  Theorem C88_vec_blocks_partial ops s outs : good ops s outs ->
    exists w, vrun ops = Ok (outs, w) /\
      N.of_nat (base.size (hmap (w_heap w))) <= N.of_nat (base.size s) /\
      over (fun xs => match xs with [] => 0 | _ => 1 end) s <= N.of_nat (base.size (hmap (w_heap w))).
  Proof using Hsz Hlim.
    intros [Hs Ha]. destruct (run_cost dflt eqb cmp sz lmax Hsz Hlim ops winit ∅ s outs) as (w & E & [m Hw] & _); [|done..|].
    { apply world_ok_init. }
    exists w. split; [done|]. rewrite size_weigh.
    assert (Hr : weigh (fun _ => 1) (w_heap w) = over (fun e => match v_ptr (e_o e) with Some _ => 1 | None => 0 end) m).
    { apply (weigh_world (vrep sz lmax) (vrep_dom sz lmax) _ w s m (fun v _ => match v_ptr v with Some _ => 1 | None => 0 end) Hw).
      intros v xs fp Hv. destruct (weigh_vec (fun _ => 1) _ _ _ _ Hv) as [Hn He]. split; [done|]. rewrite He.
      destruct Hv as (_ & _ & _ & Hp). destruct (v_ptr v) as [a|]; [|done]. destruct Hp as [_ Hp]. unfold at_. by rewrite Hp. }
    rewrite Hr. split.
    - rewrite (wo_spec _ _ _ _ Hw), map_size_fmap. unfold over, base.size, map_size. clear.
      induction (map_to_list m) as [|e l IH]; [done|]. rewrite !fmap_cons. cbn [sumN length]. destruct (v_ptr (e_o e.2)); lia.
    - pose proof (wo_rep _ _ _ _ Hw) as Hv. rewrite (wo_spec _ _ _ _ Hw), over_fmap. unfold over.
      assert (Hin : forall i e, (i, e) ∈ map_to_list m -> vrep sz lmax (w_heap w) (e_o e) (e_s e) (e_fp e)).
      { intros i e Hi%elem_of_map_to_list. by apply (Hv i). }
      revert Hin. generalize (map_to_list m). clear. induction l as [|[i e] l IH]; intros Hin; [done|].
      rewrite !fmap_cons. cbn [sumN snd].
      assert (Hl : sumN ((fun e => match e_s e with [] => 0 | _ :: _ => 1 end) <$> l.*2) <=
        sumN ((fun e => match v_ptr (e_o e) with Some _ => 1 | None => 0 end) <$> l.*2)).
      { apply IH. intros j f Hj. apply (Hin j). by right. }
      destruct (Hin i e (elem_of_list_here _ _)) as (H1 & H2 & _ & Hp).
      destruct (e_s e) as [|x xs]; [lia|]. destruct (v_ptr (e_o e)); [lia|]. destruct Hp as [Hp _].
      rewrite Hp, H1 in H2. unfold nlen in H2. cbn [length] in H2. lia.
  Qed.
End Vectors.

(** After the history of C86 and more: bytes in use of allocators 0 and 1. *)
Definition C88_vecs : list (vop N) := ex_moves ++ [VNewFill 8 1 5 7; VReserve 8 9; VNewCount 9 1 0; VPush 8 1].
Example C88_vec_ex : goodb 0 N.eqb N.compare 100 ∅ C88_vecs = true /\
  match vec_run 8 0 N.eqb N.compare C88_vecs with
  | Ok (_, w) => weigh (bytes_of 1) (w_heap w) = over (room_of 8 1) (caps_run 0 N.eqb N.compare ∅ ∅ C88_vecs) /\
      72 <= over (room_of 8 1) (caps_run 0 N.eqb N.compare ∅ ∅ C88_vecs)
  | Err _ => False end.
Proof. vm_compute. split; [done|]. split; [done|]. done. Qed.

Print Assumptions C88_vec_bytes_partial.
Print Assumptions C88_vec_blocks_partial.
