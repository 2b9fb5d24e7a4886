(** * MixProps: C63, programs with lists, vectors and pipelines between them *)
From Verif Require Import Base World Machine IterProps ListModel ListSeg ListOps ListOps2 ListStep ListSpec ListRefine
  ListNodes ListProps PipeModel Tri PipeProofs ListPipe ListPipeProofs.
From Verif Require VecModel VecSpec VecProofs VecProofs2 VecRefine VecMore VecProps.
From Verif Require Import MixPipe MixProofs.
Local Open Scope N_scope.

Section Props.
  Context {T : Type} (dbl : bool) (sz lmax : N) (dflt : T) (eqb : T -> T -> bool) (cmp : T -> T -> comparison).
  Context (Hsz : 1 <= sz) (Hlim : sz * (2 * lmax + 2) <= alloc_max).
  Notation step := (mix_step dbl sz dflt eqb cmp).
  Notation spec := (mspec dbl lmax dflt eqb cmp).
  Notation mrel := (mrel (T := T) dbl sz lmax).
  Notation start := (@winit (ListModel.cell T) lst, @winit (VecModel.block T) VecModel.vec).
  Notation none := ((∅, ∅) : gmap nat (N * option (list T)) * gmap nat (list T)).

  Lemma mix_run ops : Forall mordered ops -> forall sp w, mrel sp w -> agrees mrel (run_ops step ops w) (srun spec sp ops).
  Proof.
    induction 1 as [|o ops Ho _ IH]; intros sp w Hr; cbn [run_ops srun].
    { by exists w. }
    pose proof (mix_step_refines dbl sz lmax dflt eqb cmp Hsz Hlim sp w o Ho Hr) as Hs. unfold agrees, bind, ret in *.
    destruct (spec sp o) as [sp1 x| |]; [|by rewrite Hs|done]. destruct Hs as (w1 & -> & Hr1).
    pose proof (IH sp1 w1 Hr1) as H2. destruct (srun spec sp1 ops) as [sp2 xs| |]; [|by rewrite H2|done].
    destruct H2 as (w2 & -> & Hr2). by exists w2.
  Qed.
  Lemma mrel_init : mrel none start.
  Proof. split; [apply world_ok_init|]. split; [apply world_ok_init|]. done. Qed.
  Lemma vec_reads sp w i xs : mrel sp w -> snd sp !! i = Some xs ->
    exists w', step (MVec (VecModel.VIterAll i)) w = Ok (OV (VecModel.OSeq xs), w').
  Proof.
    intros (R1 & R2 & Hin) Hi.
    destruct (VecRefine.vec_step_refines sz lmax dflt eqb cmp Hsz Hlim (snd w) (snd sp) (VecModel.VIterAll i) (snd sp)
      (VecModel.OSeq xs) R2 Hin) as (w' & E & _).
    - cbn [VecSpec.vspec_step]. unfold VecSpec.observe. by rewrite Hi.
    - done.
    - split; [exact Hin|done].
    - cbn [mix_step]. unfold bind, inr_m. rewrite E. by eexists.
  Qed.
  Lemma list_reads sp w i al xs : mrel sp w -> fst sp !! i = Some (al, Some xs) ->
    exists w', step (MList (PStep (LItems i))) w = Ok (OL (OList xs), w').
  Proof.
    intros Hr Hi. pose proof (mix_step_refines dbl sz lmax dflt eqb cmp Hsz Hlim sp w (MList (PStep (LItems i))) I Hr) as Hs.
    cbn [mspec pspec] in Hs. unfold gspec in Hs. cbn [safe lspec] in Hs. unfold live in Hs. rewrite Hi in Hs.
    destruct Hs as (w' & -> & _). by exists w'.
  Qed.

  (** Any program with any number of lists and vectors, with all their
      operations and pipelines between them, gives what it gives on sequences,
      and the collections hold these sequences. *)
  Theorem C63_mixed ops sp outs : Forall mordered ops -> srun spec none ops = SOk sp outs ->
    exists w, run_ops step ops start = Ok (outs, w) /\
      (forall i al xs, fst sp !! i = Some (al, Some xs) -> exists w', step (MList (PStep (LItems i))) w = Ok (OL (OList xs), w')) /\
      (forall i al, fst sp !! i = Some (al, None) -> exists w', step (MList (PStep (LMovedQ i))) w = Ok (OL (OBool true), w')) /\
      (forall i xs, snd sp !! i = Some xs -> exists w', step (MVec (VecModel.VIterAll i)) w = Ok (OV (VecModel.OSeq xs), w')).
  Proof.
    intros Ho E. pose proof (mix_run ops Ho none start mrel_init) as Ha. rewrite E in Ha.
    destruct Ha as (w & E2 & Hr). exists w. split; [done|]. split; [|split].
    - intros i al xs Hi. by eapply list_reads.
    - intros i al Hi. pose proof (mix_step_refines dbl sz lmax dflt eqb cmp Hsz Hlim sp w (MList (PStep (LMovedQ i))) I Hr) as Hs.
      cbn [mspec pspec] in Hs. unfold gspec in Hs. cbn [safe lspec] in Hs. unfold look in Hs. rewrite Hi in Hs.
      destruct Hs as (w' & -> & _). by exists w'.
    - intros i xs Hi. by eapply vec_reads.
  Qed.
  (** Once the lists and the vectors are gone, nothing is left: no node, no buffer. *)
  Theorem C63_storage ops outs : Forall mordered ops -> srun spec none ops = SOk none outs ->
    exists w, run_ops step ops start = Ok (outs, w) /\
      hmap (w_heap (fst w)) = ∅ /\ w_vars (fst w) = ∅ /\ hmap (w_heap (snd w)) = ∅ /\ w_vars (snd w) = ∅.
  Proof.
    intros Ho E. pose proof (mix_run ops Ho none start mrel_init) as Ha. rewrite E in Ha.
    destruct Ha as (w & E2 & R1 & R2 & _). exists w. split; [done|].
    destruct (world_ok_empty _ _ R1), (world_ok_empty _ _ R2). done.
  Qed.

  (** From an iterator that owns nothing: nothing that exists changes. *)
  Definition borrows (s : msrc) : Prop := match s with SLInto _ => False | _ => True end.
  Definition kept {C O} (w w' : world C O) : Prop :=
    (forall a c, hmap (w_heap w) !! a = Some c -> hmap (w_heap w') !! a = Some c) /\
    (forall i o, w_vars w !! i = Some o -> w_vars w' !! i = Some o).
  Lemma upd_nil_keeps {C} (h h' : heap C) fp : hwf h -> upd h h' [] fp -> forall a c, hmap h !! a = Some c -> hmap h' !! a = Some c.
  Proof. intros Hw Hu a c Ha. rewrite (upd_frame _ _ _ _ Hu); [done|by apply Hw; exists c|]. by intros ?%elem_of_nil. Qed.
  Theorem C63_borrow ops sp outs s bar ps k sp' out : Forall mordered ops -> borrows s ->
    srun spec none ops = SOk sp outs -> spec sp (MPipe s bar ps k) = SOk sp' out ->
    exists w w', run_ops step ops start = Ok (outs, w) /\ step (MPipe s bar ps k) w = Ok (out, w') /\
      kept (fst w) (fst w') /\ kept (snd w) (snd w').
  Proof.
    intros Ho Hb E Es. pose proof (mix_run ops Ho none start mrel_init) as Ha. rewrite E in Ha.
    destruct Ha as (w & E2 & Hr). exists w.
    assert (Hk : forall w2 fp, untouched s w w2 fp -> kept (fst w) (fst w2) /\ kept (snd w) (snd w2)).
    { intros w2 fp Hu. pose proof Hr as ([m1 Hw1] & [m2 Hw2] & _).
      assert (Hu' : mupd (heaps w) (heaps w2) [] fp /\ w_vars (fst w2) = w_vars (fst w) /\ w_vars (snd w2) = w_vars (snd w))
        by (by destruct s). destruct Hu' as ([U1 U2] & V1 & V2). unfold kept. rewrite V1, V2.
      split; (split; [|done]).
      - eapply upd_nil_keeps; [apply Hw1|exact U1].
      - eapply upd_nil_keeps; [apply Hw2|exact U2]. }
    assert (Hput : forall C O (w0 w1 : world C O) j o, w_vars w0 !! j = None -> kept w0 w1 ->
      kept w0 (World (w_heap w1) (<[j := o]> (w_vars w1)))).
    { intros C O w0 w1 j o Hj [K1 K2]. split; [done|]. intros i o' Hi. cbn [w_vars]. rewrite lookup_insert_ne; [by apply K2|]. congruence. }
    destruct k as [t|j|j]; cbn [mspec mix_step] in *.
    - destruct (items_case sp s (fun sp xs => SOk sp (OL (value_of t (denote ps xs))))) as [E0|(sp1 & xs & Hg & E0)];
        rewrite E0 in Es; [done|]. injection Es as <- <-.
      edestruct (on_src_ok dbl sz lmax dflt eqb cmp Hsz Hlim s (fun _ nx cp mv dl fuel it => term_m nx cp mv dl fuel bar ps t it) sp w sp1 xs
        (pureQ (value_of t (denote ps xs))) Hr Hg) as (r & w' & fp' & E3 & [-> _] & _ & Hu).
      { intros. by apply term_tri. }
      exists w'. split; [done|]. split; [unfold bind; by rewrite E3|]. by eapply Hk.
    - unfold unused in Es. destruct (fst sp !! j) eqn:Hj; [done|].
      destruct (items_case sp s (fun sp xs => new_list_var sp j (denote ps xs))) as [E0|(sp1 & xs & Hg & E0)];
        rewrite E0 in Es; [done|]. unfold new_list_var in Es.
      destruct (N.ltb_spec (N.of_nat (length (denote ps xs))) W) as [HW|]; [|done]. injection Es as <- <-.
      edestruct (on_src_ok dbl sz lmax dflt eqb cmp Hsz Hlim s (fun _ nx cp mv dl fuel it => run_collect nx cp mv dl bar fuel ps (l_new dbl) (l_put dbl) (l_end dbl) it)
        sp w sp1 xs (fun r => onl (Rp dbl r (denote ps xs))) Hr Hg) as (r & w' & fp' & E3 & _ & _ & Hu).
      { intros. by eapply (pipe_collect _ _ _ _ _ _ _ ltac:(eassumption) _ _ _ _ _ _ _ _ _ _ _ (sink_inl _ _ _ _ _ _ (l_sink dbl))). }
      pose proof (no_var_l _ _ _ _ _ _ Hr Hj) as Hn. destruct (Hk _ _ Hu) as [K1 K2].
      eexists (World (w_heap (fst w')) (<[j := r]> (w_vars (fst w'))), snd w'). split; [done|]. split.
      + unfold bind, inl_m at 1, wnew. rewrite Hn. destruct w as [w1 w2]. cbn [fst snd]. by rewrite E3.
      + split; [by apply Hput|done].
    - unfold unused in Es. destruct (snd sp !! j) eqn:Hj; [done|].
      destruct (items_case sp s (fun sp xs => new_vec_var lmax sp j (denote ps xs))) as [E0|(sp1 & xs & Hg & E0)];
        rewrite E0 in Es; [done|]. unfold new_vec_var in Es.
      destruct (N.leb_spec (N.of_nat (length (denote ps xs))) lmax) as [HW|]; [|done]. injection Es as <- <-.
      edestruct (on_src_ok dbl sz lmax dflt eqb cmp Hsz Hlim s (fun _ nx cp mv dl fuel it => run_collect nx cp mv dl bar fuel ps (w_new sz) (w_put sz) w_end it)
        sp w sp1 xs (fun r => onr (Kv sz lmax r (denote ps xs))) Hr Hg) as (r & w' & fp' & E3 & _ & _ & Hu).
      { intros. by eapply (pipe_collect _ _ _ _ _ _ _ ltac:(eassumption) _ _ _ _ _ _ _ _ _ _ _ (sink_inr _ _ _ _ _ _ (v_sink sz lmax Hsz Hlim))). }
      pose proof (no_var_v _ _ _ _ _ _ Hr Hj) as Hn. destruct (Hk _ _ Hu) as [K1 K2].
      eexists (fst w', World (w_heap (snd w')) (<[j := r]> (w_vars (snd w')))). split; [done|]. split.
      + unfold bind, inr_m at 1, wnew. rewrite Hn. destruct w as [w1 w2]. cbn [fst snd]. by rewrite E3.
      + split; [done|by apply Hput].
  Qed.

  (** A list moved into a vector, the vector moved into a list: the same
      elements, and nothing left behind in the two that were moved. *)
  Theorem C63_round_trip ops sp outs i al xs a b : Forall mordered ops -> srun spec none ops = SOk sp outs ->
    fst sp !! i = Some (al, Some xs) -> snd sp !! a = None -> fst sp !! b = None ->
    N.of_nat (length xs) <= lmax -> N.of_nat (length xs) < W ->
    exists w w', run_ops step ops start = Ok (outs, w) /\
      run_ops step [MIntoV (IL i) a; MIntoL (IV a) b; MList (PStep (LItems b)); MVec (VecModel.VIterAll a); MList (PStep (LMovedQ i))] w
      = Ok ([OV VecModel.ONone; OL OUnit; OL (OList xs); OV (VecModel.OSeq []); OL (OBool true)], w').
  Proof.
    intros Ho E Hi Ha Hb Hl HW. pose proof (mix_run ops Ho none start mrel_init) as Hag. rewrite E in Hag.
    destruct Hag as (w & E2 & Hr). exists w.
    assert (Hib : i <> b) by congruence.
    assert (Hvs : forall o s' x, VecSpec.vspec_step dflt eqb cmp s' o = Some (s', x) -> VecRefine.within lmax s' ->
      VecProps.vop_safeb s' o = true -> (forall n, o <> VecModel.VReserve n.1 n.2) -> VecProps.vlimitb lmax o s' = true).
    { intros o s' x _ Hin _ Hno. unfold VecProps.vlimitb. apply andb_true_iff. split.
      - apply forallb_forall. intros [k ys] Hk. apply N.leb_le. apply (Hin k). by apply elem_of_map_to_list, elem_of_list_In.
      - destruct o; try done. by destruct (Hno (i0, n)). }
    pose proof (mix_run [MIntoV (IL i) a; MIntoL (IV a) b; MList (PStep (LItems b)); MVec (VecModel.VIterAll a); MList (PStep (LMovedQ i))]
      ltac:(repeat constructor) sp w Hr) as Hm.
    cbn [srun mspec into_items] in Hm. unfold unused at 1 in Hm. rewrite Ha, Hi in Hm. cbn [default from_option id] in Hm.
    unfold new_vec_var in Hm. destruct (N.leb_spec (N.of_nat (length xs)) lmax); [|lia]. cbn [fst snd] in Hm.
    unfold unused at 1 in Hm. rewrite lookup_insert_ne, Hb in Hm by done. rewrite lookup_insert in Hm.
    unfold new_list_var in Hm. destruct (N.ltb_spec (N.of_nat (length xs)) W); [|lia]. cbn [fst snd pspec] in Hm.
    unfold gspec in Hm. cbn [safe lspec] in Hm. unfold live, look in Hm. rewrite lookup_insert in Hm. cbn [fst snd] in Hm.
    rewrite insert_insert in Hm.
    cbn [VecSpec.vspec_step] in Hm. unfold VecSpec.observe in Hm. rewrite lookup_insert in Hm. cbn [VecProps.vop_safeb andb] in Hm.
    rewrite (Hvs _ _ (VecModel.OSeq [])) in Hm.
    - cbn [fst snd] in Hm. rewrite lookup_insert_ne, lookup_insert in Hm by done. destruct Hm as (w' & Em & _). by exists w'.
    - cbn [VecSpec.vspec_step]. unfold VecSpec.observe. by rewrite lookup_insert.
    - destruct Hr as (_ & _ & Hin). apply within_insert; [done|cbn; lia].
    - done.
    - done.
  Qed.
End Props.

(** ** Concrete programs *)
Definition small : padapt (V := N) := PFilter (fun x => x <? 9).
Definition double : padapt (V := N) := PMap (fun x => 2 * x).
(** A list through a pipeline into a vector, the vector through a pipeline into
    a list, folded, asked; then consumed in both directions, and all destroyed. *)
Definition mix_ops (bar : bool) : list (mop N) :=
  [ MList (PStep (LFrom 0 [1; 2; 3; 4; 5])); MPipe (SL 0) bar [double; small] (KVec 0); MVec (VecModel.VPush 0 7);
    MVec (VecModel.VIterAll 0); MPipe (SV 0) bar [double] (KList 1); MList (PStep (LPushF 1 0)); MList (PStep (LItems 1));
    MPipe (SV 0) bar [small] (KTerm (TReduce N.add)); MPipe (SL 1) bar [] (KTerm (TTake 2));
    MPipe (SLInto 0) bar [small] (KVec 1); MVec (VecModel.VIterAll 1); MIntoL (IV 1) 2; MList (PStep (LItems 2));
    MVec (VecModel.VIterAll 1); MIntoV (IL 1) 2; MVec (VecModel.VIterAll 2); MTake (IV 2) 2; MTake (IL 2) 7;
    MPipe (SLInto 1) bar [double] (KTerm (TFind (fun _ => true)));
    MList (PStep (LDel 0)); MList (PStep (LDel 1)); MList (PStep (LDel 2));
    MVec (VecModel.VDestroy 0); MVec (VecModel.VDestroy 1); MVec (VecModel.VDestroy 2) ].
Definition mix_outs : list (mout N) :=
  [ OL OUnit; OV VecModel.ONone; OV VecModel.ONone; OV (VecModel.OSeq [2; 4; 6; 8; 10; 7]); OL OUnit; OL OUnit;
    OL (OList [0; 4; 8; 12; 16; 20; 14]); OL (OOpt (Some 27)); OL (OOpts [Some 0; Some 4]); OV VecModel.ONone;
    OV (VecModel.OSeq [1; 2; 3; 4; 5]); OL OUnit; OL (OList [1; 2; 3; 4; 5]); OV (VecModel.OSeq []); OV VecModel.ONone;
    OV (VecModel.OSeq [0; 4; 8; 12; 16; 20; 14]); OL (OOpts [Some 0; Some 4]);
    OL (OOpts [Some 1; Some 2; Some 3; Some 4; Some 5; None; None]); OL (OOpt None);
    OL OUnit; OL OUnit; OL OUnit; OV VecModel.ONone; OV VecModel.ONone; OV VecModel.ONone ].
Notation mstep dbl := (mix_step dbl 8 0 N.eqb N.compare).
Notation mspc dbl := (mspec dbl 100 0 N.eqb N.compare).
Notation mstart := (@winit (ListModel.cell N) lst, @winit (VecModel.block N) VecModel.vec).
Lemma mix_ordered bar : Forall mordered (mix_ops bar).
Proof. repeat constructor. Qed.
Lemma ended2 (r : sres (gmap nat (N * option (list N)) * gmap nat (list N)) (list (mout N))) outs :
  match r with SOk sp o => map_to_list (fst sp) = [] /\ map_to_list (snd sp) = [] /\ o = outs | _ => False end ->
  r = SOk (∅, ∅) outs.
Proof.
  destruct r as [[a b] o| |]; [|done|done]. cbn [fst snd]. intros (H1 & H2 & ->).
  by apply map_to_list_empty_iff in H1 as ->; apply map_to_list_empty_iff in H2 as ->.
Qed.
Lemma ex_sz : 1 <= 8. Proof. lia. Qed.
Lemma ex_lim : 8 * (2 * 100 + 2) <= alloc_max. Proof. by vm_compute. Qed.
Example C63_spec_ex dbl bar : srun (mspc dbl) (∅, ∅) (mix_ops bar) = SOk (∅, ∅) mix_outs.
Proof. destruct dbl, bar; (apply ended2; vm_compute; split; [|split]; reflexivity). Qed.
Example C63_storage_ex dbl bar : exists w, run_ops (mstep dbl) (mix_ops bar) mstart = Ok (mix_outs, w) /\
  hmap (w_heap (fst w)) = ∅ /\ hmap (w_heap (snd w)) = ∅.
Proof.
  destruct (C63_storage dbl 8 100 0 N.eqb N.compare ex_sz ex_lim _ _ (mix_ordered bar) (C63_spec_ex dbl bar))
    as (w & E & H1 & _ & H2 & _). by exists w.
Qed.
(** Run, not deduced. *)
Example C63_run dbl bar :
  match run_ops (mstep dbl) (mix_ops bar) mstart with
  | Ok (r, w) => Some (r, size (hmap (w_heap (fst w))), size (hmap (w_heap (snd w)))) | Err _ => None
  end = Some (mix_outs, 0%nat, 0%nat).
Proof. destruct dbl, bar; vm_compute; reflexivity. Qed.

Definition mix_start : list (mop N) := [MList (PStep (LFrom 0 [1; 2; 3])); MVec (VecModel.VNewList 0 0 [4; 5])].
Lemma mix_start_run dbl : srun (mspc dbl) (∅, ∅) mix_start =
  SOk ({[0%nat := (0, Some [1; 2; 3])]}, {[0%nat := [4; 5]]}) [OL OUnit; OV VecModel.ONone].
Proof. by destruct dbl; vm_compute. Qed.
Lemma mix_start_ordered : Forall mordered mix_start.
Proof. repeat constructor. Qed.
Example C63_mixed_ex dbl : exists w w1 w2, run_ops (mstep dbl) mix_start mstart = Ok ([OL OUnit; OV VecModel.ONone], w) /\
  mstep dbl (MList (PStep (LItems 0))) w = Ok (OL (OList [1; 2; 3]), w1) /\
  mstep dbl (MVec (VecModel.VIterAll 0)) w = Ok (OV (VecModel.OSeq [4; 5]), w2).
Proof.
  destruct (C63_mixed dbl 8 100 0 N.eqb N.compare ex_sz ex_lim _ _ _ mix_start_ordered (mix_start_run dbl)) as (w & E & H1 & _ & H2).
  destruct (H1 0%nat 0 [1; 2; 3]) as [w1 E1]; [done|]. destruct (H2 0%nat [4; 5]) as [w2 E2]; [done|]. by exists w, w1, w2.
Qed.
Example C63_borrow_ex dbl : exists w w', run_ops (mstep dbl) mix_start mstart = Ok ([OL OUnit; OV VecModel.ONone], w) /\
  mstep dbl (MPipe (SV 0) true [double] (KList 1)) w = Ok (OL OUnit, w') /\ kept (fst w) (fst w') /\ kept (snd w) (snd w').
Proof.
  destruct (C63_borrow dbl 8 100 0 N.eqb N.compare ex_sz ex_lim _ _ _ (SV 0) true [double] (KList 1)
    (<[1%nat := (0, Some [8; 10])]> {[0%nat := (0, Some [1; 2; 3])]}, {[0%nat := [4; 5]]}) (OL OUnit)
    mix_start_ordered I (mix_start_run dbl) ltac:(by destruct dbl; vm_compute)) as (w & w' & H). by exists w, w'.
Qed.
Example C63_round_trip_ex dbl : exists w w', run_ops (mstep dbl) mix_start mstart = Ok ([OL OUnit; OV VecModel.ONone], w) /\
  run_ops (mstep dbl) [MIntoV (IL 0) 1; MIntoL (IV 1) 1; MList (PStep (LItems 1)); MVec (VecModel.VIterAll 1); MList (PStep (LMovedQ 0))] w
  = Ok ([OV VecModel.ONone; OL OUnit; OL (OList [1; 2; 3]); OV (VecModel.OSeq []); OL (OBool true)], w').
Proof.
  destruct (C63_round_trip dbl 8 100 0 N.eqb N.compare ex_sz ex_lim _ _ _ 0 0 [1; 2; 3] 1 1
    mix_start_ordered (mix_start_run dbl) ltac:(done) ltac:(done) ltac:(done) ltac:(done) ltac:(done)) as (w & w' & H). by exists w, w'.
Qed.

Print Assumptions C63_mixed.
Print Assumptions C63_storage.
Print Assumptions C63_borrow.
Print Assumptions C63_round_trip.
