(** * ListPipeProps: C62, programs that send lists through pipelines *)
From Verif Require Import Base World Machine IterProps ListModel ListSeg ListOps ListOps2 ListStep ListSpec ListRefine
  ListNodes ListProps PipeModel Tri PipeProofs ListPipe ListPipeProofs.
Local Open Scope N_scope.

Section Props.
  Context {T : Type} (dbl : bool).
  Notation step := (pipe_step (T := T) dbl).
  Notation spec := (pspec (T := T) dbl).

  Lemma pipe_run ops : Forall pordered ops -> forall sp w, rel dbl sp w ->
    agrees (rel dbl) (run_ops step ops w) (srun spec sp ops).
  Proof.
    induction 1 as [|o ops Ho _ IH]; intros sp w Hr; cbn [run_ops srun].
    { by exists w. }
    pose proof (pipe_step_refines dbl sp w o Ho Hr) as Hs. unfold agrees, bind, ret in *.
    destruct (spec sp o) as [sp1 x| |]; [|by rewrite Hs|done]. destruct Hs as (w1 & -> & Hr1).
    pose proof (IH sp1 w1 Hr1) as H2. destruct (srun spec sp1 ops) as [sp2 xs| |]; [|by rewrite H2|done].
    destruct H2 as (w2 & -> & Hr2). by exists w2.
  Qed.
  Lemma rel_init : rel (T := T) dbl ∅ winit.
  Proof. apply world_ok_init. Qed.

  (** Any program with any number of lists, list operations and pipelines
      gives what it gives on sequences, and the lists hold these sequences. *)
  Theorem C62_pipelines ops sp outs : Forall pordered ops -> srun spec ∅ ops = SOk sp outs ->
    exists w, run_ops step ops winit = Ok (outs, w) /\
      (forall i al xs, sp !! i = Some (al, Some xs) -> exists w', step (PStep (LItems i)) w = Ok (OList xs, w')) /\
      (forall i al, sp !! i = Some (al, None) -> exists w', step (PStep (LMovedQ i)) w = Ok (OBool true, w')).
  Proof.
    intros Ho E. pose proof (pipe_run ops Ho ∅ winit rel_init) as Ha. rewrite E in Ha.
    destruct Ha as (w & E2 & Hr). exists w. split; [done|]. split.
    - intros i al xs Hi. pose proof (pipe_step_refines dbl sp w (PStep (LItems i)) I Hr) as Hs.
      cbn [pspec] in Hs. unfold gspec in Hs. cbn [safe lspec] in Hs. unfold live in Hs. rewrite Hi in Hs.
      destruct Hs as (w' & -> & _). by exists w'.
    - intros i al Hi. pose proof (pipe_step_refines dbl sp w (PStep (LMovedQ i)) I Hr) as Hs.
      cbn [pspec] in Hs. unfold gspec in Hs. cbn [safe lspec] in Hs. unfold look in Hs. rewrite Hi in Hs.
      destruct Hs as (w' & -> & _). by exists w'.
  Qed.
  (** However often the iterators were copied, moved and destroyed on the way:
      once the lists are gone nothing is left. *)
  Theorem C62_storage ops outs : Forall pordered ops -> srun spec ∅ ops = SOk ∅ outs ->
    exists w, run_ops step ops winit = Ok (outs, w) /\ hmap (w_heap w) = ∅ /\ w_vars w = ∅.
  Proof.
    intros Ho E. pose proof (pipe_run ops Ho ∅ winit rel_init) as Ha. rewrite E in Ha.
    destruct Ha as (w & E2 & Hr). exists w. split; [done|]. exact (world_ok_empty _ _ Hr).
  Qed.

  (** A pipeline over [iter()] leaves every node as it was. *)
  Lemma upd_nil_all (h h' : heap (cell T)) fp : hwf h -> upd h h' [] fp ->
    forall a c, hmap h !! a = Some c -> hmap h' !! a = Some c.
  Proof.
    intros Hw Hu a c Ha. rewrite (upd_frame _ _ _ _ Hu); [done|by apply Hw; exists c|]. by intros ?%elem_of_nil.
  Qed.
  Theorem C62_iter_reads_only ops sp outs i bar ps t al xs : Forall pordered ops ->
    srun spec ∅ ops = SOk sp outs -> sp !! i = Some (al, Some xs) ->
    exists w w', run_ops step ops winit = Ok (outs, w) /\
      step (PIter i bar ps t) w = Ok (value_of t (denote ps xs), w') /\
      hmap (w_heap w') = hmap (w_heap w) /\ w_vars w' = w_vars w.
  Proof.
    intros Ho E Hi. pose proof (pipe_run ops Ho ∅ winit rel_init) as Ha. rewrite E in Ha.
    destruct Ha as (w & E2 & m & Hw). assert (Hwf : hwf (w_heap w)) by apply Hw.
    destruct (world_ok_lookup_spec _ _ _ _ _ _ Hw Hi) as (e & Hm & He & Hv & Hr).
    destruct (lrep_inv dbl _ _ _ _ _ Hr) as (hd & tl & ns & Hoe & <- & Lk & HW & Hfp).
    edestruct (run_term_ok (lfp hd ns tl) (fun h => lok dbl h al hd ns tl) (b_frame dbl al hd tl ns) (b_dom dbl al hd tl ns)
        it_next bcopy bmove bdel (Sb tl ns) (Sb_ok dbl al hd tl ns) (bnext_tri dbl al hd tl ns) (bdel_tri dbl al hd tl ns)
        (bmove_ent tl ns) (bleft_tri dbl al hd tl ns) (bcopy_tri dbl al hd tl ns) bar ps t
        (PAddr (startp ns tl), PAddr tl) (vls ns) (w_heap w) [] Hwf Lk) as (h' & E3 & Hu);
        [by intros a ?%elem_of_nil|by apply Sb_new| |].
    { rewrite vls_length. pose proof (lok_fuel dbl _ _ _ _ _ Lk). lia. }
    exists w, (World h' (w_vars w)). split; [done|]. split; [|split; [|done]].
    - cbn [pipe_step]. unfold l_obs, bind, wget. rewrite Hv, Hoe. unfold lift.
      fold (@bind (heap (cell T))). rewrite (it_new_ok dbl _ _ _ _ _ Lk). by rewrite E3.
    - cbn [w_heap]. apply map_eq. intros a. destruct (hmap (w_heap w) !! a) as [c|] eqn:Ec.
      + by eapply upd_nil_all.
      + destruct (hmap h' !! a) as [c|] eqn:Ec'; [|done]. exfalso.
        assert (Hs : is_Some (hmap h' !! a)) by by exists c.
        apply (upd_dom _ _ _ _ Hu) in Hs as [[[? Hs] _]|Hs]; [congruence|by apply elem_of_nil in Hs].
  Qed.
  (** Collecting from [iter()] makes new nodes and leaves the old ones. *)
  Theorem C62_iter_collect ops sp outs i bar ps j al xs : Forall pordered ops ->
    srun spec ∅ ops = SOk sp outs -> sp !! i = Some (al, Some xs) -> sp !! j = None ->
    N.of_nat (length (denote ps xs)) < W ->
    exists w w' w2, run_ops step ops winit = Ok (outs, w) /\ step (PIterC i bar ps j) w = Ok (OUnit, w') /\
      step (PStep (LItems j)) w' = Ok (OList (denote ps xs), w2) /\
      (forall a c, hmap (w_heap w) !! a = Some c -> hmap (w_heap w') !! a = Some c) /\
      (forall k, k <> j -> w_vars w' !! k = w_vars w !! k).
  Proof.
    intros Ho E Hi Hj HWd. pose proof (pipe_run ops Ho ∅ winit rel_init) as Ha. rewrite E in Ha.
    destruct Ha as (w & E2 & Hrel).
    pose proof (pipe_step_refines dbl sp w (PIterC i bar ps j) I Hrel) as Hs. cbn [pspec] in Hs.
    unfold fresh, live, give in Hs. rewrite Hj, Hi in Hs. destruct (N.ltb_spec (nlen (denote ps xs)) W); [|lia].
    destruct Hs as (w' & Es & Hr').
    pose proof (pipe_step_refines dbl _ w' (PStep (LItems j)) I Hr') as Hs2.
    cbn [pspec] in Hs2. unfold gspec in Hs2. cbn [safe lspec] in Hs2. unfold live in Hs2.
    rewrite lookup_insert in Hs2. destruct Hs2 as (w2 & E3 & _). exists w, w', w2.
    do 3 (split; [done|]). destruct Hrel as [m Hw]. assert (Hwf : hwf (w_heap w)) by apply Hw.
    destruct (world_ok_lookup_spec _ _ _ _ _ _ Hw Hi) as (e & Hm & He & Hv & Hr).
    destruct (lrep_inv dbl _ _ _ _ _ Hr) as (hd & tl & ns & Hoe & <- & Lk & HW & Hfp).
    destruct (world_ok_none _ _ _ _ _ Hw Hj) as [Hmj Hwj].
    edestruct (run_coll_ok dbl (lfp hd ns tl) (fun h => lok dbl h al hd ns tl) (b_frame dbl al hd tl ns) (b_dom dbl al hd tl ns)
        it_next bcopy bmove bdel (Sb tl ns) (Sb_ok dbl al hd tl ns) (bnext_tri dbl al hd tl ns) (bdel_tri dbl al hd tl ns)
        (bmove_ent tl ns) (bleft_tri dbl al hd tl ns) (bcopy_tri dbl al hd tl ns) bar ps
        (PAddr (startp ns tl), PAddr tl) (vls ns) (w_heap w) [] Hwf Lk) as (l & h' & fp' & E4 & Hr4 & Hu);
        [by intros a ?%elem_of_nil|by apply Sb_new| |done|].
    { rewrite vls_length. pose proof (lok_fuel dbl _ _ _ _ _ Lk). lia. }
    cbn [pipe_step] in Es. unfold bind at 1, wget in Es. rewrite Hv, Hoe in Es. unfold l_mk, bind, wnew in Es.
    rewrite Hwj in Es. unfold lift in Es. fold (@bind (heap (cell T))) in Es.
    rewrite (it_new_ok dbl _ _ _ _ _ Lk), E4 in Es. injection Es as <-. split.
    - intros a c Hac. cbn [w_heap]. by eapply upd_nil_all.
    - intros k Hk. cbn [w_vars]. by rewrite lookup_insert_ne.
  Qed.
End Props.

(** ** Concrete programs *)
Definition evens : padapt (V := N) := PFilter N.even.
Definition twice : padapt (V := N) := PMap (fun x => 2 * x).
(** [[1 2 3 4 5] | filter(even) | map(twice)], collected, folded, reduced,
    searched and asked by hand; then the same consuming the list. *)
Definition pipe_ops (bar : bool) : list (pop N) :=
  [ PStep (LFrom 0 [1; 2; 3; 4; 5]); PIterC 0 bar [twice; evens] 1; PStep (LItems 1);
    PIter 0 bar [evens; twice] (TFold (fun a x => a ++ [x]) []);
    PIter 0 bar [evens] (TReduce N.add); PIter 0 bar [twice] (TFind (fun x => 5 <? x));
    PIter 0 bar [twice; evens] (TTake 4); PIntoC 0 bar [twice; evens; twice] 2; PStep (LItems 2);
    PStep (LMovedQ 0); PInto 2 bar [evens] (TReduce N.add); PInto 1 bar [] (TTake 1); PFromInto 0 3;
    PStep (LItems 3); PStep (LDel 0); PStep (LDel 1); PStep (LDel 2); PStep (LDel 3) ].
Lemma pipe_ordered bar : Forall pordered (pipe_ops bar).
Proof. repeat constructor. Qed.
Definition pipe_outs : list (lout N) :=
  [ OUnit; OUnit; OList [4; 8]; OList [2; 4; 6; 8; 10]; OOpt (Some 6); OOpt (Some 6);
    OOpts [Some 4; Some 8; None; None]; OUnit; OList [4; 8; 12; 16; 20]; OBool true; OOpt (Some 60);
    OOpts [Some 4]; OUnit; OList []; OUnit; OUnit; OUnit; OUnit ].
Example C62_spec_ex dbl bar : srun (pspec dbl) ∅ (pipe_ops bar) = SOk ∅ pipe_outs.
Proof. destruct dbl, bar; (apply ended; vm_compute; split; reflexivity). Qed.
Example C62_storage_ex dbl bar : exists w, run_ops (pipe_step dbl) (pipe_ops bar) winit = Ok (pipe_outs, w) /\ hmap (w_heap w) = ∅.
Proof.
  destruct (C62_storage dbl _ _ (pipe_ordered bar) (C62_spec_ex dbl bar)) as (w & E & Hh & _). by exists w.
Qed.
(** Run, not deduced. *)
Example C62_run dbl bar :
  (let '(r, n) := match run_ops (pipe_step dbl) (pipe_ops bar) winit with
                  | Ok (r, w) => (Some r, size (hmap (w_heap w))) | Err _ => (None, 1%nat) end in (r, n)) = (Some pipe_outs, 0%nat).
Proof. destruct dbl, bar; vm_compute; reflexivity. Qed.
Definition pipe_start : list (pop N) := [PStep (LFrom 0 [1; 2; 3; 4; 5])].
Lemma pipe_start_run dbl : srun (pspec dbl) ∅ pipe_start = SOk {[0%nat := (0, Some [1; 2; 3; 4; 5])]} [OUnit].
Proof. by destruct dbl. Qed.
Example C62_pipelines_ex dbl : exists w w', run_ops (pipe_step dbl) pipe_start winit = Ok ([OUnit], w) /\
  pipe_step dbl (PStep (LItems 0)) w = Ok (OList [1; 2; 3; 4; 5], w').
Proof.
  destruct (C62_pipelines dbl pipe_start _ _ ltac:(repeat constructor) (pipe_start_run dbl)) as (w & E & Hw & _).
  destruct (Hw 0%nat 0 [1; 2; 3; 4; 5]) as [w' E']; [done|]. by exists w, w'.
Qed.
Example C62_iter_reads_only_ex dbl : exists w w',
  pipe_step dbl (PIter 0 true [twice; evens] (TTake 3)) w = Ok (OOpts [Some 4; Some 8; None], w') /\
  hmap (w_heap w') = hmap (w_heap w).
Proof.
  destruct (C62_iter_reads_only dbl pipe_start _ _ 0 true [twice; evens] (TTake 3) 0 [1; 2; 3; 4; 5]
    ltac:(repeat constructor) (pipe_start_run dbl) ltac:(done)) as (w & w' & _ & E & Hh & _). by exists w, w'.
Qed.
Example C62_iter_collect_ex dbl : exists w w' w2,
  pipe_step dbl (PIterC 0 false [twice; evens] 1) w = Ok (OUnit, w') /\
  pipe_step dbl (PStep (LItems 1)) w' = Ok (OList [4; 8], w2).
Proof.
  destruct (C62_iter_collect dbl pipe_start _ _ 0 false [twice; evens] 1 0 [1; 2; 3; 4; 5]
    ltac:(repeat constructor) (pipe_start_run dbl) ltac:(done) ltac:(done) ltac:(done)) as (w & w' & w2 & _ & E & E2 & _).
  by exists w, w', w2.
Qed.

Print Assumptions C62_pipelines.
Print Assumptions C62_storage.
Print Assumptions C62_iter_reads_only.
Print Assumptions C62_iter_collect.
