(** * StringProps: C43, C44 and C45 *)
From Verif Require Import Base World Machine Utf8Model Utf8Spec Utf8Props StringModel StringProofs.
Local Open Scope N_scope.

(** ** Specification: strings are byte sequences *)
Notation sstate := (gmap nat (list N)).

(** The value a variable gets; there must be memory for it. *)
Definition give (sp : sstate) (i : nat) (bs : list N) : sres sstate sout :=
  if decide (fits bs) then SOk (<[i := bs]> sp) YUnit else SPre.
Definition look (sp : sstate) (i : nat) (k : list N -> sres sstate sout) : sres sstate sout :=
  match sp !! i with Some bs => k bs | None => SPre end.
Definition fresh (sp : sstate) (i : nat) (k : sres sstate sout) : sres sstate sout :=
  match sp !! i with Some _ => SPre | None => k end.

Definition sspec (sp : sstate) (o : sop) : sres sstate sout :=
  match o with
  | SEmpty i => fresh sp i (give sp i [])
  | SLit i bs => fresh sp i (give sp i bs)
  | SCopy i j => fresh sp i (look sp j (fun bs => give sp i bs))
  | SMove i j => fresh sp i (look sp j (fun bs => give (<[j := []]> sp) i bs))
  | SCopyAsg i j => look sp i (fun _ => look sp j (fun bs => give sp i bs))
  | SMoveAsg i j =>
      look sp i (fun xs => look sp j (fun bs =>
        if decide (i = j) then SOk sp YUnit else give (<[j := []]> sp) i bs))
  | SPush i ch => look sp i (fun bs => give sp i (bs ++ ch))
  | SInsert i ch idx =>
      look sp i (fun bs =>
        if cut_ok bs idx then give sp i (take (N.to_nat idx) bs ++ ch ++ drop (N.to_nat idx) bs)
        else SPanic)
  | SPop i =>
      look sp i (fun bs =>
        match last bs with
        | None => SOk sp (YOpt None)
        | Some b => SOk (<[i := take (length bs - 1) bs]> sp) (YOpt (Some b))
        end)
  | SSize i => look sp i (fun bs => SOk sp (YNum (nlen bs)))
  | SPrint i => look sp i (fun bs => SOk sp (YBytes bs))
  | SBytes i => look sp i (fun bs => SOk sp (YBytes bs))
  | SBoundary i idx => look sp i (fun bs => SOk sp (YBool (cut_ok bs idx)))
  | SDel i => look sp i (fun _ => SOk (delete i sp) YUnit)
  end.

(** The operations that go wrong, in terms of the byte sequences: strings of
    exactly 16 bytes, going from 17 to 16 bytes; and, when the missing return
    counts, every move and assignment between different strings but the copy of
    a string of more than 16 bytes over one that is not shorter. *)
Definition is16 (sp : sstate) (i : nat) : bool :=
  match sp !! i with Some bs => (length bs =? 16)%nat | None => false end.
Definition covers (sp : sstate) (i j : nat) : bool :=
  match sp !! i, sp !! j with Some xs, Some bs => (16 <? length bs)%nat && (length bs <=? length xs)%nat | _, _ => false end.
Definition safe (strict : bool) (sp : sstate) (o : sop) : bool :=
  match o with
  | SMove i j => negb strict
  | SCopyAsg i j =>
      (i =? j)%nat || (negb strict && negb (is16 sp i) && negb (is16 sp j)) || covers sp i j
  | SMoveAsg i j =>
      (i =? j)%nat || (negb strict && negb (is16 sp i) && negb (is16 sp j))
  | SPop i => match sp !! i with Some bs => negb (length bs =? 17)%nat | None => true end
  | SPrint i => negb (is16 sp i)
  | _ => true
  end.
Definition gspec (strict : bool) (sp : sstate) (o : sop) : sres sstate sout :=
  if safe strict sp o then sspec sp o else SPre.

(** ** Every step *)
Section Refine.
  Context (strict : bool).
  Notation wok := (world_ok srep).
  Notation wokw := (world_ok_with srep).
  Definition rel (sp : sstate) (w : world sblk str) : Prop := wok w sp.

  Lemma ok_mk w sp m i f bs :
    wokw w sp m -> sp !! i = None -> post (w_heap w) [] (f (w_heap w)) bs ->
    agrees rel (s_mk i f w) (SOk (<[i := bs]> sp) YUnit).
  Proof.
    intros Hw Hi (v'&h'&fp'&E&Hr&Hu). destruct (world_ok_none _ _ _ _ _ Hw Hi) as [Hmi Hwi].
    unfold s_mk, bind, wnew. rewrite Hwi. unfold lift. rewrite E. simpl.
    eexists. split; [done|]. eexists. simpl. eapply (world_new _ srep_frame srep_dom); eauto.
  Qed.
  Lemma ok_upd w sp m i f bs bs' :
    wokw w sp m -> sp !! i = Some bs ->
    (forall s fp, srep (w_heap w) s bs fp -> post (w_heap w) fp (f s (w_heap w)) bs') ->
    agrees rel (s_upd i f w) (SOk (<[i := bs']> sp) YUnit).
  Proof.
    intros Hw Hi Hf. destruct (world_ok_lookup_spec _ _ _ _ _ _ Hw Hi) as (e & Hm & <- & Hv & Hr).
    destruct (Hf _ _ Hr) as (v'&h'&fp'&E&Hr'&Hu).
    unfold s_upd, bind, wget. rewrite Hv. unfold lift. rewrite E. simpl.
    eexists. split; [done|]. eexists. simpl. eapply (world_upd1 _ srep_frame srep_dom); eauto.
  Qed.
  Lemma ok_obs {X} w sp m i (f : str -> M (heap sblk) X) g bs x :
    wokw w sp m -> sp !! i = Some bs ->
    (forall s fp, srep (w_heap w) s bs fp -> f s (w_heap w) = Ok (x, w_heap w)) ->
    agrees rel (s_obs i f g w) (SOk sp (g x)).
  Proof.
    intros Hw Hi Hf. destruct (world_ok_lookup_spec _ _ _ _ _ _ Hw Hi) as (e & Hm & <- & Hv & Hr).
    unfold s_obs, bind, wget. rewrite Hv. unfold lift. rewrite (Hf _ _ Hr). simpl.
    eexists. split; [done|]. exists m. by destruct w.
  Qed.

  Lemma str_step_refines sp w o : rel sp w -> agrees rel (str_step strict o w) (gspec strict sp o).
  Proof.
    intros [m Hw]. assert (Hwf : hwf (w_heap w)) by apply Hw.
    unfold gspec. destruct (safe strict sp o) eqn:Hsafe; [|done].
    destruct o; simpl in Hsafe; simpl; unfold fresh, look, give.
    - destruct (sp !! i) eqn:Ei; [done|]. destruct (decide (fits [])); [|done].
      eapply ok_mk; eauto. by apply new_ok.
    - destruct (sp !! i) eqn:Ei; [done|]. destruct (decide (fits bs)); [|done].
      eapply ok_mk; eauto. by apply literal_ok.
    - destruct (sp !! i) eqn:Ei; [done|]. destruct (sp !! j) as [bs|] eqn:Ej; [|done].
      destruct (decide (fits bs)); [|done].
      destruct (world_ok_lookup_spec _ _ _ _ _ _ Hw Ej) as (e & Hm & <- & Hv & Hr).
      rewrite (bind_ok (wget j) _ w (e_o e) w) by (unfold wget; by rewrite Hv).
      eapply ok_mk; eauto. by eapply copy_ok.
    - destruct strict; [done|].
      destruct (sp !! i) eqn:Ei; [done|]. destruct (sp !! j) as [bs|] eqn:Ej; [|done].
      destruct (decide (fits bs)); [|done].
      destruct (world_ok_lookup_spec _ _ _ _ _ _ Hw Ej) as (e & Hm & <- & Hv & Hr).
      destruct (world_ok_none _ _ _ _ _ Hw Ei) as [Hmi Hwi].
      destruct (move_ok _ _ _ _ Hr) as (s & o' & E & Hr1 & Hr2).
      unfold bind, wnew, wget. rewrite Hwi, Hv. unfold lift. rewrite E. simpl.
      eexists. split; [done|]. eexists. simpl.
      eapply (world_new2 _ srep_frame srep_dom w sp m i j e _ _ _ _ _ (e_fp e) []); eauto.
      + rewrite app_nil_r. apply upd_refl; [done|]. intros a Ha. exact (srep_dom _ _ _ _ a Hr Ha).
      + set_solver.
    - destruct (sp !! i) as [xs|] eqn:Ei; [|done]. destruct (sp !! j) as [bs|] eqn:Ej; [|done].
      destruct (decide (fits bs)); [|done].
      destruct (world_ok_lookup_spec _ _ _ _ _ _ Hw Ei) as (ei & Hmi & <- & Hvi & Hri).
      destruct (world_ok_lookup_spec _ _ _ _ _ _ Hw Ej) as (ej & Hmj & <- & Hvj & Hrj).
      unfold bind at 1, wget at 1. rewrite Hvi. unfold bind at 1, wget at 1. rewrite Hvj.
      destruct (Nat.eqb_spec i j) as [<-|Hij].
      { rewrite insert_id by congruence. eexists. split; [done|]. by exists m. }
      assert (H16 : length (e_s ei) <> 16%nat /\ length (e_s ej) <> 16%nat /\
        str_copy_assign strict (e_o ei) (e_o ej) (w_heap w) = str_copy_assign false (e_o ei) (e_o ej) (w_heap w)).
      { simpl in Hsafe. unfold covers, is16 in Hsafe. rewrite Ei, Ej in Hsafe.
        apply orb_true_iff in Hsafe as [Hsafe|Hsafe]; apply andb_true_iff in Hsafe as [H1 H2].
        - apply andb_true_iff in H1 as [H0 H1]. destruct strict; [done|].
          apply negb_true_iff, Nat.eqb_neq in H1, H2. done.
        - apply Nat.ltb_lt in H1. apply Nat.leb_le in H2. split; [lia|]. split; [lia|].
          destruct strict; [|done]. eapply copy_assign_strict; eauto. lia. }
      destruct H16 as (H1 & H2 & Es).
      destruct (copy_assign_ok (w_heap w) (e_o ei) (e_o ej) (e_s ei) (e_s ej) (e_fp ei) (e_fp ej)) as (s'&h'&fp'&E&Hr'&Hu);
        [done|done|done| |done|done|].
      { intros a Ha Ha'. by eapply (wo_disj _ _ _ _ Hw i j). }
      rewrite <-Es in E.
      unfold bind, lift. rewrite E. simpl. eexists. split; [done|]. eexists. simpl.
      eapply (world_upd1 _ srep_frame srep_dom); eauto.
    - destruct (sp !! i) as [xs|] eqn:Ei; [|done]. destruct (sp !! j) as [bs|] eqn:Ej; [|done].
      destruct (world_ok_lookup_spec _ _ _ _ _ _ Hw Ei) as (ei & Hmi & <- & Hvi & Hri).
      destruct (world_ok_lookup_spec _ _ _ _ _ _ Hw Ej) as (ej & Hmj & <- & Hvj & Hrj).
      unfold bind at 1, wget at 1. rewrite Hvi. unfold bind at 1, wget at 1. rewrite Hvj.
      destruct (Nat.eqb_spec i j) as [<-|Hij].
      { destruct (decide (i = i)); [|done]. eexists. split; [done|]. by exists m. }
      destruct (decide (i = j)); [done|].
      destruct (decide (fits (e_s ej))); [|done].
      destruct strict; [done|]. simpl in Hsafe. apply andb_true_iff in Hsafe as [H1 H2].
      unfold is16 in H1, H2. rewrite Ei in H1. rewrite Ej in H2.
      destruct (move_assign_ok (w_heap w) (e_o ei) (e_o ej) (e_s ei) (e_s ej) (e_fp ei) (e_fp ej))
        as (t'&o'&h'&fp'&E&Hr1&Hr2&Hu); [done|done|done| | | |].
      { intros a Ha Ha'. by eapply (wo_disj _ _ _ _ Hw i j). }
      { intros H. rewrite H in H1. done. }
      { intros H. rewrite H in H2. done. }
      unfold bind, lift. rewrite E. simpl. eexists. split; [done|]. eexists. simpl.
      eapply (world_upd2 _ srep_frame srep_dom w sp m i j ei ej _ _ _ _ _ fp' []); eauto.
      + by rewrite app_nil_r.
      + set_solver.
    - destruct (sp !! i) as [bs|] eqn:Ei; [|done]. destruct (decide (fits (bs ++ ch))); [|done].
      eapply ok_upd; eauto. intros. by apply push_ok.
    - destruct (sp !! i) as [bs|] eqn:Ei; [|done]. destruct (cut_ok bs idx) eqn:Ec.
      + destruct (decide (fits _)); [|done]. eapply ok_upd; eauto. intros. by apply insert_ok.
      + destruct (world_ok_lookup_spec _ _ _ _ _ _ Hw Ei) as (e & Hm & <- & Hv & Hr).
        unfold agrees, s_upd, bind, wget. rewrite Hv. unfold lift. by rewrite (insert_panic _ _ _ _ _ _ Hr Ec).
    - destruct (sp !! i) as [bs|] eqn:Ei; [|done].
      destruct (world_ok_lookup_spec _ _ _ _ _ _ Hw Ei) as (e & Hm & <- & Hv & Hr).
      unfold bind at 1, wget. rewrite Hv.
      destruct (last (e_s e)) as [b|] eqn:El.
      + apply last_Some in El as [xs El]. rewrite El in Hr, Hsafe.
        destruct (pop_ok _ _ _ _ _ Hwf Hr) as (s' & E & Hr').
        { intros H. by rewrite H in Hsafe. }
        rewrite El. replace (take (length (xs ++ [b]) - 1) (xs ++ [b])) with xs.
        2:{ rewrite app_length. simpl. rewrite take_app_alt; [done|lia]. }
        unfold bind, lift. rewrite E. simpl. eexists. split; [done|]. eexists. simpl.
        eapply (world_upd1 _ srep_frame srep_dom); eauto.
        apply upd_refl; [done|]. intros a Ha. exact (srep_dom _ _ _ _ a Hr Ha).
      + apply last_None in El. rewrite El in Hr. unfold bind, lift. rewrite (pop_empty _ _ _ Hr). simpl.
        eexists. split; [done|]. exists m. rewrite insert_id by done. by destruct w.
    - destruct (sp !! i) as [bs|] eqn:Ei; [|done].
      eapply (ok_obs w sp m i (fun s => ret (s_len s)) YNum); eauto.
      intros s fp Hr. by rewrite (srep_len _ _ _ _ Hr).
    - unfold is16 in Hsafe. destruct (sp !! i) as [bs|] eqn:Ei; [|done]. eapply (ok_obs w sp m i str_print YBytes); eauto.
      intros s fp Hr. eapply print_ok; [done|]. intros H. by rewrite H in Hsafe.
    - destruct (sp !! i) as [bs|] eqn:Ei; [|done]. eapply (ok_obs w sp m i str_bytes YBytes); eauto.
      intros s fp Hr. by eapply bytes_ok.
    - destruct (sp !! i) as [bs|] eqn:Ei; [|done].
      eapply (ok_obs w sp m i (fun s => str_boundary s idx) YBool); eauto.
      intros s fp Hr. by eapply boundary_ok.
    - destruct (sp !! i) as [bs|] eqn:Ei; [|done].
      destruct (world_ok_lookup_spec _ _ _ _ _ _ Hw Ei) as (e & Hm & <- & Hv & Hr).
      destruct (destroy_ok _ _ _ _ Hwf Hr) as (h' & E & Hu).
      unfold bind, wget. rewrite Hv. unfold lift. rewrite E. simpl.
      eexists. split; [done|]. eexists. simpl. eapply (world_del _ srep_frame srep_dom); eauto.
  Qed.
End Refine.

(** ** C43 *)
(** Without the operations marked unsafe, every history does what the same
    history on byte sequences does, with the same outputs, and panics exactly
    when inserting at a position that is not a boundary. *)
Theorem C43_histories_partial strict ops :
  match srun (gspec strict) ∅ ops with
  | SOk sp outs => exists w, run_ops (str_step strict) ops winit = Ok (outs, w) /\
      forall i, is_Some (w_vars w !! i) <-> is_Some (sp !! i)
  | SPanic => run_ops (str_step strict) ops winit = Err Panic
  | SPre => True
  end.
Proof.
  pose proof (srun_refines (gspec strict) (str_step strict) rel
    (fun s st o H => str_step_refines strict s st o H) ops ∅ winit (world_ok_init srep)) as H.
  unfold agrees in H. destruct (srun (gspec strict) ∅ ops) as [sp outs| |]; [|done|done].
  destruct H as (w & E & [m Hw]). exists w. split; [done|].
  intros i. rewrite (wo_vars _ _ _ _ Hw), (wo_spec _ _ _ _ Hw), !lookup_fmap, !fmap_is_Some. done.
Qed.

(** Iterating the characters (chars.h over [to_bytes]) of a string holding
    the encoding of [cs] gives the characters of [cs], then nothing, at any
    moment of such a history.  U+007F is C40's exception. *)
Theorem C43_chars_partial strict ops sp outs i cs m :
  srun (gspec strict) ∅ ops = SOk sp outs -> sp !! i = Some (encs cs) ->
  Forall scalar cs -> 0x7F ∉ cs ->
  exists w bs, run_ops (str_step strict) ops winit = Ok (outs, w) /\
    str_step strict (SBytes i) w = Ok (YBytes bs, w) /\
    utf8_chars (length cs + m) bs = Ok ((Some <$> (enc <$> cs)) ++ replicate m None, []).
Proof.
  intros E Hi Hcs Hd. pose proof (srun_refines (gspec strict) (str_step strict) rel
    (fun s st o H => str_step_refines strict s st o H) ops ∅ winit (world_ok_init srep)) as H.
  rewrite E in H. destruct H as (w & E2 & [M Hw]).
  destruct (world_ok_lookup_spec _ _ _ _ _ _ Hw Hi) as (e & Hm & He & Hv & Hr).
  exists w, (encs cs). split; [done|]. split; [|by apply C40_chars_partial].
  cbn [str_step]. unfold s_obs, bind, wget. rewrite Hv. unfold lift.
  rewrite (bytes_ok _ _ _ _ Hr). by destruct w.
Qed.

(** The full claim: no operation is marked unsafe. *)
Definition C43_full (strict : bool) : Prop := forall ops,
  match srun sspec ∅ ops with
  | SOk sp outs => exists w, run_ops (str_step strict) ops winit = Ok (outs, w)
  | SPanic => run_ops (str_step strict) ops winit = Err Panic
  | SPre => True
  end.

(** Each exclusion of [safe] is necessary.  Printing a string of exactly 16
    bytes reads through the null heap pointer. *)
Lemma new_world_lit strict bs : length bs = 16%nat ->
  str_step strict (SLit 0 bs) winit =
    Ok (YUnit, World hempty {[0%nat := Str 16 (ULocal (S_ bs)) None]}).
Proof.
  intros H. do 16 (destruct bs as [|? bs]; [done|]). by destruct bs.
Qed.
Theorem C43_print16_refuted strict bs : length bs = 16%nat ->
  run_ops (str_step strict) [SLit 0 bs; SPrint 0] winit = Err UB.
Proof.
  intros H. cbn [run_ops]. unfold bind at 1. rewrite new_world_lit by done.
  unfold bind at 1. unfold bind at 1. simpl. done.
Qed.
(** Assigning from or to a string of exactly 16 bytes is undefined even if
    the missing return is not. *)
Theorem C43_assign16_refuted bs cs : length bs = 16%nat ->
  (length cs < 16)%nat ->
  run_ops (str_step false) [SLit 0 bs; SLit 1 cs; SCopyAsg 0 1] winit = Err UB /\
  run_ops (str_step false) [SLit 0 bs; SLit 1 cs; SCopyAsg 1 0] winit = Err UB /\
  run_ops (str_step false) [SLit 0 bs; SLit 1 cs; SMoveAsg 0 1] winit = Err UB /\
  run_ops (str_step false) [SLit 0 bs; SLit 1 cs; SMoveAsg 1 0] winit = Err UB.
Proof.
  intros H Hc. do 16 (destruct bs as [|? bs]; [done|]). destruct bs; [|done].
  do 16 (destruct cs as [|? cs]; [done|]). simpl in Hc. lia.
Qed.
(** After removing the last of 17 bytes the content cannot be read at all. *)
Theorem C43_pop17_refuted strict bs : length bs = 17%nat ->
  run_ops (str_step strict) [SLit 0 bs; SPop 0; SBytes 0] winit = Err UB.
Proof.
  intros H. do 17 (destruct bs as [|? bs]; [done|]). destruct bs; [|done]. by destruct strict.
Qed.
(** The missing return of [Allocate::operator=]: every move construction. *)
Theorem C43_missing_return_refuted bs : (length bs < 16)%nat ->
  run_ops (str_step true) [SLit 0 bs; SMove 1 0] winit = Err UB /\
  run_ops (str_step true) [SLit 0 bs; SEmpty 1; SCopyAsg 1 0] winit = Err UB.
Proof.
  intros H. do 16 (destruct bs as [|? bs]; [done|]). simpl in H. lia.
Qed.
Theorem C43_refuted strict : ~ C43_full strict.
Proof.
  intros H. specialize (H [SLit 0 (replicate 16 65); SPrint 0]).
  rewrite C43_print16_refuted in H by done.
  assert (E : exists sp outs, srun sspec ∅ [SLit 0 (replicate 16 65); SPrint 0] = SOk sp outs)
    by (eexists _, _; vm_compute; reflexivity).
  destruct E as (sp & outs & E). rewrite E in H. by destruct H.
Qed.

(** Computing a final state up to equality of maps. *)
Lemma ended (r : sres sstate (list sout)) outs :
  match r with SOk sp o => map_to_list sp = [] /\ o = outs | _ => False end -> r = SOk ∅ outs.
Proof. destruct r; [|done|done]. intros [H ->]. by apply map_to_list_empty_iff in H as ->. Qed.

(** ** C44 *)
(** When all strings of such a history have been destroyed nothing is left on
    the heap; [s_free] checks that each buffer is released once, with the
    capacity it was requested with (anything else is undefined, which C43
    excludes). *)
Theorem C44_storage_partial strict ops outs :
  srun (gspec strict) ∅ ops = SOk ∅ outs ->
  exists w, run_ops (str_step strict) ops winit = Ok (outs, w) /\ hmap (w_heap w) = ∅ /\ w_vars w = ∅.
Proof.
  intros E. pose proof (srun_refines (gspec strict) (str_step strict) rel
    (fun s st o H => str_step_refines strict s st o H) ops ∅ winit (world_ok_init srep)) as H.
  rewrite E in H. destruct H as (w & E2 & Hw). exists w. split; [done|]. by eapply world_ok_empty.
Qed.
(** At any moment of such a history exactly the strings longer than 16 bytes
    own a block, each its own. *)
Theorem C44_blocks_partial strict ops sp outs :
  srun (gspec strict) ∅ ops = SOk sp outs ->
  exists w (own : gmap nat N), run_ops (str_step strict) ops winit = Ok (outs, w) /\
    (forall i, is_Some (own !! i) <-> exists bs, sp !! i = Some bs /\ 16 < nlen bs) /\
    (forall i j a, own !! i = Some a -> own !! j = Some a -> i = j) /\
    (forall a, is_Some (hmap (w_heap w) !! a) <-> exists i, own !! i = Some a).
Proof.
  intros E. pose proof (srun_refines (gspec strict) (str_step strict) rel
    (fun s st o H => str_step_refines strict s st o H) ops ∅ winit (world_ok_init srep)) as H.
  rewrite E in H. destruct H as (w & E2 & [m Hw]).
  exists w, (omap (fun e => head (e_fp e)) m). split; [done|].
  assert (Hone : forall i e, m !! i = Some e ->
    (nlen (e_s e) <= 16 /\ e_fp e = []) \/ (16 < nlen (e_s e) /\ exists a, e_fp e = [a])).
  { intros i e Hi. pose proof (wo_rep _ _ _ _ Hw i e Hi) as Hr. destruct Hr; [left|right]; eauto. }
  split; [|split].
  - intros i. rewrite lookup_omap, (wo_spec _ _ _ _ Hw), lookup_fmap. destruct (m !! i) as [e|] eqn:Ei; simpl.
    + destruct (Hone i e Ei) as [[Hle ->]|[Hgt [a ->]]]; simpl.
      * split; [intros [? ?]; done|]. intros (bs & [= <-] & ?). lia.
      * split; [|eauto]. eauto.
    + split; [intros [? ?]; done|]. by intros (? & ? & _).
  - intros i j a. rewrite !lookup_omap. destruct (m !! i) as [e|] eqn:Ei, (m !! j) as [f|] eqn:Ej; simpl; try done.
    intros Hi Hj. destruct (decide (i = j)) as [|Hij]; [done|]. exfalso.
    eapply (wo_disj _ _ _ _ Hw i j e f a); [done|done|done| |].
    + destruct (Hone i e Ei) as [[_ Hf]|[_ [b Hf]]]; rewrite Hf in *; [done|]. injection Hi as ->. set_solver.
    + destruct (Hone j f Ej) as [[_ Hf]|[_ [b Hf]]]; rewrite Hf in *; [done|]. injection Hj as ->. set_solver.
  - intros a. split.
    + intros Ha. destruct (wo_cover _ _ _ _ Hw a Ha) as (i & e & Hi & Hin). exists i. rewrite lookup_omap, Hi. simpl.
      destruct (Hone i e Hi) as [[_ Hf]|[_ [b Hf]]]; rewrite Hf in *; [set_solver|].
      apply elem_of_list_singleton in Hin as ->. done.
    + intros [i Hi]. rewrite lookup_omap in Hi. destruct (m !! i) as [e|] eqn:Ei; [|done]. simpl in Hi.
      eapply (srep_dom _ _ _ (e_fp e)); [by eapply (wo_rep _ _ _ _ Hw)|].
      destruct (Hone i e Ei) as [[_ Hf]|[_ [b Hf]]]; rewrite Hf in *; [done|]. injection Hi as ->. set_solver.
Qed.
(** Full claim and refutation: removing the last of 17 bytes loses the buffer. *)
Definition C44_full (strict : bool) : Prop := forall ops outs,
  srun sspec ∅ ops = SOk ∅ outs ->
  exists w, run_ops (str_step strict) ops winit = Ok (outs, w) /\ hmap (w_heap w) = ∅.
Theorem C44_pop17_leaks strict bs : length bs = 17%nat ->
  exists outs w, run_ops (str_step strict) [SLit 0 bs; SPop 0; SDel 0] winit = Ok (outs, w) /\
    is_Some (hmap (w_heap w) !! 0).
Proof.
  intros H. do 17 (destruct bs as [|? bs]; [done|]). destruct bs; [|done].
  eexists _, _. split; [by destruct strict|]. by eexists.
Qed.
Theorem C44_refuted strict : ~ C44_full strict.
Proof.
  intros H. destruct (C44_pop17_leaks strict (replicate 17 65) eq_refl) as (outs & w & E & [b Hb]).
  destruct (H [SLit 0 (replicate 17 65); SPop 0; SDel 0] [YUnit; YOpt (Some 65); YUnit]) as (w' & E' & Hm).
  - apply ended. vm_compute. done.
  - rewrite E in E'. injection E' as -> ->. by rewrite Hm, lookup_empty in Hb.
Qed.

(** ** C45 *)
(** On valid UTF-8, [cut_ok] is "between two characters or at an end"... *)
Lemma cut_ok_valid cs idx : Forall scalar cs ->
  cut_ok (encs cs) idx = true <->
  exists k, (k <= length cs)%nat /\ idx = nlen (encs (take k cs)).
Proof.
  intros Hcs. destruct (C41_char_boundary cs idx Hcs) as (r & E & Hr). rewrite <-Hr.
  enough (str_is_boundary (encs cs) idx = Ok (cut_ok (encs cs) idx)) as E2
    by (rewrite E in E2; by injection E2 as ->).
  unfold str_is_boundary, cut_ok. destruct (N.eqb_spec idx 0) as [->|H0]; [done|].
  destruct (N.leb_spec (nlen (encs cs)) idx) as [Hle|Hlt].
  { destruct (N.eqb_spec idx (nlen (encs cs))) as [->|Hne]; [done|].
    rewrite lookup_ge_None_2 by lia. done. }
  destruct (N.eqb_spec idx (nlen (encs cs))) as [->|Hne]; [lia|]. simpl.
  destruct (lookup_lt_is_Some_2 (encs cs) (N.to_nat idx) ltac:(lia)) as [b Hb]. rewrite Hb.
  set (start := if 4 <? idx then idx - 4 else 0).
  assert (Hs : start <= idx) by (unfold start; destruct (4 <? idx); lia).
  replace (N.to_nat (idx + 1 - start)) with (S (N.to_nat idx - N.to_nat start)) by lia.
  rewrite (take_S_r _ _ b) by (rewrite lookup_drop; rewrite <-Hb; f_equal; lia).
  apply utf8_is_boundary_last.
Qed.
(** ... and inserting valid UTF-8 there keeps the string valid, as the
    sequence of characters with the new ones put in between. *)
Theorem C45_insert_valid strict w sp i cs chs idx :
  world_ok srep w sp -> sp !! i = Some (encs cs) -> Forall scalar cs -> Forall scalar chs ->
  fits (encs cs ++ encs chs) ->
  ((exists k, (k <= length cs)%nat /\ idx = nlen (encs (take k cs))) ->
   exists k w', (k <= length cs)%nat /\ idx = nlen (encs (take k cs)) /\
     str_step strict (SInsert i (encs chs) idx) w = Ok (YUnit, w') /\
     world_ok srep w' (<[i := encs (take k cs ++ chs ++ drop k cs)]> sp)) /\
  (~ (exists k, (k <= length cs)%nat /\ idx = nlen (encs (take k cs))) ->
   str_step strict (SInsert i (encs chs) idx) w = Err Panic).
Proof.
  intros Hw Hi Hcs Hchs Hfit.
  pose proof (str_step_refines strict sp w (SInsert i (encs chs) idx) Hw) as H.
  unfold gspec in H. cbn [safe sspec] in H. unfold look in H. rewrite Hi in H. split.
  - intros (k & Hk & Hidx). rewrite (proj2 (cut_ok_valid cs idx Hcs)) in H by eauto.
    assert (Hsplit : take (N.to_nat idx) (encs cs) ++ encs chs ++ drop (N.to_nat idx) (encs cs) =
      encs (take k cs ++ chs ++ drop k cs)).
    { rewrite Hidx, Nnat.Nat2N.id. rewrite <-(take_drop k cs) at 2 4. rewrite !encs_app.
      by rewrite take_app, drop_app. }
    rewrite Hsplit in H. unfold give in H. destruct (decide (fits _)) as [_|Hn].
    + destruct H as (w' & E & Hw'). exists k, w'. done.
    + exfalso. apply Hn. eapply fits_le; [exact Hfit|].
      rewrite !encs_app, !app_length. rewrite <-(take_drop k cs) at 3. rewrite encs_app, app_length. lia.
  - intros Hno. destruct (cut_ok (encs cs) idx) eqn:Ec; [|done].
    exfalso. apply Hno. by apply (cut_ok_valid cs idx Hcs).
Qed.
(** The states of C45 are those of the histories of C43. *)
Theorem C45_reachable strict ops sp outs :
  srun (gspec strict) ∅ ops = SOk sp outs ->
  exists w, run_ops (str_step strict) ops winit = Ok (outs, w) /\ world_ok srep w sp.
Proof.
  intros E. pose proof (srun_refines (gspec strict) (str_step strict) rel
    (fun s st o H => str_step_refines strict s st o H) ops ∅ winit (world_ok_init srep)) as H.
  by rewrite E in H.
Qed.

(** ** Concrete histories *)
Definition str_ex : list sop :=
  [SLit 0 (replicate 15 65); SPush 0 [0xC3; 0xA9]; SBoundary 0 16; SInsert 0 [0xF0; 0x9F; 0x98; 0x80] 15;
   SPrint 0; SCopy 1 0; SMove 2 0; SSize 0; SLit 3 [66]; SCopyAsg 3 2; SMoveAsg 2 1; SPop 3; SBytes 3;
   SDel 0; SDel 1; SDel 2; SDel 3].
Example C43_ex : exists outs, srun (gspec false) ∅ str_ex = SOk ∅ outs /\
  (let w := run_ops (str_step false) str_ex winit in
   match w with Ok (o, w) => o = outs /\ map_to_list (hmap (w_heap w)) = [] | Err _ => False end).
Proof. eexists. split; [apply ended; vm_compute; split; reflexivity|]. vm_compute. done. Qed.
Example C43_ex_strict :
  match srun (gspec true) ∅ [SLit 0 (replicate 40 65); SCopy 1 0; SPush 1 [66]; SInsert 0 [67] 17; SPrint 1; SCopyAsg 1 1; SCopyAsg 1 0; SPop 0; SDel 0; SDel 1] with
  | SOk sp outs => map_to_list sp = [] /\ length outs = 10%nat
  | _ => False end.
Proof. vm_compute. done. Qed.
Example C45_ex :
  srun (gspec true) ∅ [SLit 0 [0xE4; 0xBD; 0xA0]; SInsert 0 [0x41] 1] = SPanic /\
  run_ops (str_step true) [SLit 0 [0xE4; 0xBD; 0xA0]; SInsert 0 [0x41] 1] winit = Err Panic /\
  encs [0x4F60; 0x1F600] = [0xE4; 0xBD; 0xA0; 0xF0; 0x9F; 0x98; 0x80].
Proof. done. Qed.

Print Assumptions C43_histories_partial.
Print Assumptions C43_chars_partial.
Print Assumptions C43_print16_refuted.
Print Assumptions C43_assign16_refuted.
Print Assumptions C43_pop17_refuted.
Print Assumptions C43_missing_return_refuted.
Print Assumptions C43_refuted.
Print Assumptions C44_storage_partial.
Print Assumptions C44_blocks_partial.
Print Assumptions C44_pop17_leaks.
Print Assumptions C44_refuted.
Print Assumptions C45_insert_valid.
Print Assumptions C45_reachable.
