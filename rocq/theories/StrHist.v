(** * StrHist: every history of strings, exactly

    No new model content; the code is that of StringModel.  C43 is proved for
    histories in which every call is [safe]; StringExact.v shows what the other
    calls do, but for the copy of a long string over a shorter long one, where
    the capacity decides.  With the rule of C91 the capacity is known, so every
    history that is right on byte sequences is covered: it is carried out
    faithfully, or there is a first call that goes wrong. *)
From Verif Require Import Base World Machine Utf8Model StringModel StringProofs StringProps StringExact StringCost Weigh StrRoom.
Local Open Scope N_scope.

(** ** Which calls are all right: contents and rooms decide *)
(** The copy of a long string over a long one whose block is large enough. *)
Definition roomy (sp : sstate) (r : rstate) (o : sop) : bool :=
  match o with
  | SCopyAsg i j =>
      match sp !! i, sp !! j with
      | Some xs, Some bs => (16 <? length xs)%nat && (16 <? length bs)%nat && (nlen bs <=? snd (at_i r i))
      | _, _ => false
      end
  | _ => false
  end.
Definition fine_call (strict : bool) (sp : sstate) (r : rstate) (o : sop) : bool := safe strict sp o || roomy sp r o.

(** Going wrong: the call is undefined; or it is a [pop_back] after which the
    string's bytes cannot be had, and its block is never given back. *)
Inductive str_wrong (strict : bool) (w : world sblk str) (o : sop) (y : sout) : Prop :=
| S_undefined : str_step strict o w = Err UB -> str_wrong strict w o y
| S_popped i w1 w2 : o = SPop i -> str_step strict o w = Ok (y, w1) -> str_step strict (SBytes i) w1 = Err UB ->
    str_step strict (SDel i) w1 = Ok (YUnit, w2) ->
    (exists a, is_Some (hmap (w_heap w2) !! a) /\ forall j s, w_vars w2 !! j = Some s -> s_ptr s <> Some a) ->
    str_wrong strict w o y.

Definition R (sp : sstate) (r : rstate) (w : world sblk str) : Prop := rel sp w /\ stale w /\ view w = r.

Lemma long_copy strict t o xs bs fpt fpo h : srep h t xs fpt -> srep h o bs fpo -> 16 < nlen xs -> 16 < nlen bs ->
  nlen bs <= room t -> str_copy_assign strict t o h = str_copy_assign false t o h.
Proof.
  intros Ht Ho Hx Hb Hr. unfold str_copy_assign, LOCAL. rewrite (srep_len _ _ _ _ Ht), (srep_len _ _ _ _ Ho).
  destruct (N.ltb_spec (nlen xs) 16); [lia|]. destruct (N.ltb_spec (nlen bs) 16); [lia|]. rewrite !andb_false_r. cbn [andb].
  destruct (room_cases _ _ _ _ Ht) as [[? _]|(_ & _ & E)]; [lia|]. unfold bind, get_cap, ret. rewrite !E. cbv beta iota.
  destruct (N.ltb_spec (room t) (nlen bs)); [lia|]. done.
Qed.
Lemma long_copy_tight t o xs bs fpt fpo h : srep h t xs fpt -> srep h o bs fpo -> 16 < nlen xs -> 16 < nlen bs ->
  room t < nlen bs -> str_copy_assign true t o h = Err UB.
Proof.
  intros Ht Ho Hx Hb Hr. destruct (str_copy_assign true t o h) as [[? ?]|] eqn:E; [|f_equal; by eapply ubo_copy_assign].
  exfalso. revert E. unfold str_copy_assign, LOCAL. rewrite (srep_len _ _ _ _ Ht), (srep_len _ _ _ _ Ho).
  destruct (N.ltb_spec (nlen xs) 16); [lia|]. destruct (N.ltb_spec (nlen bs) 16); [lia|]. rewrite !andb_false_r. cbn [andb].
  destruct (room_cases _ _ _ _ Ht) as [[? _]|(_ & _ & E)]; [lia|].
  intros (c & h1 & Ec & E1)%bind_inv. unfold get_cap in Ec. rewrite E in Ec. injection Ec as <- <-.
  destruct (N.ltb_spec (room t) (nlen bs)); [|lia].
  apply bind_inv in E1 as (? & ? & E1 & _). apply bind_inv in E1 as (? & ? & _ & E1). by apply bind_inv in E1 as (? & ? & E1 & _).
Qed.

Lemma R_look sp r w i bs : R sp r w -> sp !! i = Some bs ->
  exists s fp, w_vars w !! i = Some s /\ srep (w_heap w) s bs fp /\ at_i r i = (nlen bs, room s).
Proof.
  intros ([m Hw] & _ & <-) Hi. destruct (world_ok_lookup_spec _ _ _ _ _ _ Hw Hi) as (e & _ & <- & Hv & Hr).
  exists (e_o e), (e_fp e). split; [done|]. split; [done|]. rewrite (view_at _ _ _ Hv). by eapply room_lr.
Qed.

Lemma R_step strict sp r w o sp' y : R sp r w -> sspec sp o = SOk sp' y -> fine_call strict sp r o = true ->
  exists w', str_step strict o w = Ok (y, w') /\ R sp' (room_step r o) w'.
Proof.
  intros HR Hs Hf.
  assert (Hgen : forall b, gspec b sp o = SOk sp' y -> exists w', str_step b o w = Ok (y, w') /\ R sp' (room_step r o) w').
  { intros b Hg. destruct HR as (Hr & Hst & <-). pose proof (str_step_refines b sp w o Hr) as H. rewrite Hg in H.
    destruct H as (w' & E & Hr'). exists w'. split; [done|]. split; [done|]. split; [exact (stale_step b _ _ _ _ _ _ _ Hr Hst Hg E)|].
    exact (room_step_ok b _ _ _ _ _ _ _ Hr Hg E Hr'). }
  unfold fine_call in Hf. destruct (safe strict sp o) eqn:Hsafe.
  { apply Hgen. unfold gspec. by rewrite Hsafe. }
  cbn [orb] in Hf. destruct o; try done. cbn [roomy] in Hf.
  destruct (sp !! i) as [xs|] eqn:Hi; [|done]. destruct (sp !! j) as [bs|] eqn:Hj; [|done].
  apply andb_true_iff in Hf as [Hf Hroom%N.leb_le]. apply andb_true_iff in Hf as [Hx%Nat.ltb_lt Hb%Nat.ltb_lt].
  destruct (R_look _ _ _ _ _ HR Hi) as (t & fpt & Vt & Rt & At), (R_look _ _ _ _ _ HR Hj) as (o & fpo & Vo & Ro & _).
  rewrite At in Hroom. cbn [snd] in Hroom.
  assert (E : str_step strict (SCopyAsg i j) w = str_step false (SCopyAsg i j) w).
  { cbn [str_step]. unfold bind at 1, wget at 1. rewrite Vt. unfold bind at 1, wget at 1. rewrite Vo.
    symmetry. unfold bind at 1, wget at 1. rewrite Vt. unfold bind at 1, wget at 1. rewrite Vo. symmetry.
    destruct (i =? j)%nat; [done|]. unfold bind, lift. rewrite (long_copy strict t o xs bs fpt fpo (w_heap w) Rt Ro); [done|lia..]. }
  rewrite E. apply Hgen. unfold gspec. cbn [safe]. unfold is16. rewrite Hi, Hj.
  destruct (Nat.eqb_spec (length xs) 16); [lia|]. destruct (Nat.eqb_spec (length bs) 16); [lia|].
  cbn [negb andb]. rewrite orb_true_r. done.
Qed.

Lemma R_wrong strict sp r w o sp' y : R sp r w -> sspec sp o = SOk sp' y -> fine_call strict sp r o = false ->
  str_wrong strict w o y.
Proof.
  intros HR Hs Hf. apply orb_false_iff in Hf as [Hsafe Hroom].
  assert (Hrs : rel sp w /\ stale w) by (destruct HR as (? & ? & _); done).
  destruct (is_pop o) eqn:Hp.
  - destruct o; try done. cbn [safe] in Hsafe. cbn [sspec] in Hs. unfold look in Hs. destruct (sp !! i) as [bs|] eqn:Hi; [|done].
    apply negb_false_iff, Nat.eqb_eq in Hsafe.
    destruct (pop17_at strict sp w i bs Hrs Hi Hsafe) as (w1&w2&b&Hl&E1&_&_&E2&_&_&E3&_&Ha).
    rewrite Hl in Hs. injection Hs as <- <-. by eapply S_popped.
  - apply S_undefined. destruct (by_capacity sp o) eqn:Hc; [|by eapply exact_at].
    destruct o; try done. cbn [by_capacity roomy] in Hc, Hroom.
    destruct (sp !! i) as [xs|] eqn:Hi; [|done]. destruct (sp !! j) as [bs|] eqn:Hj; [|done].
    apply andb_true_iff in Hc as [Hx%Nat.ltb_lt Hxb%Nat.ltb_lt].
    destruct (Nat.ltb_spec 16 (length xs)); [|lia]. destruct (Nat.ltb_spec 16 (length bs)); [|lia]. cbn [andb] in Hroom.
    apply N.leb_gt in Hroom.
    cbn [safe] in Hsafe. unfold is16 in Hsafe. rewrite Hi, Hj in Hsafe.
    destruct (Nat.eqb_spec i j) as [|Hij]; [done|]. cbn [orb] in Hsafe. apply orb_false_iff in Hsafe as [Hsafe _].
    destruct (Nat.eqb_spec (length xs) 16); [lia|]. destruct (Nat.eqb_spec (length bs) 16); [lia|].
    destruct strict; [|done].
    destruct (R_look _ _ _ _ _ HR Hi) as (t & fpt & Vt & Rt & At), (R_look _ _ _ _ _ HR Hj) as (o & fpo & Vo & Ro & _).
    rewrite At in Hroom. cbn [snd] in Hroom.
    cbn [str_step]. unfold bind at 1, wget at 1. rewrite Vt. unfold bind at 1, wget at 1. rewrite Vo.
    destruct (Nat.eqb_spec i j); [done|]. unfold bind, lift.
    rewrite (long_copy_tight t o xs bs fpt fpo (w_heap w) Rt Ro); [done|lia..].
Qed.

Lemma hist_gen strict ops : forall sp r w sp' outs, R sp r w -> srun sspec sp ops = SOk sp' outs ->
  ((exists w', run_ops (str_step strict) ops w = Ok (outs, w') /\ R sp' (foldl room_step r ops) w') /\
    forall pre o post sp1 outs1, ops = pre ++ o :: post -> srun sspec sp pre = SOk sp1 outs1 ->
      fine_call strict sp1 (foldl room_step r pre) o = true) \/
  (exists pre o post sp1 outs1 sp2 y w1, ops = pre ++ o :: post /\ srun sspec sp pre = SOk sp1 outs1 /\
     run_ops (str_step strict) pre w = Ok (outs1, w1) /\ sspec sp1 o = SOk sp2 y /\
     fine_call strict sp1 (foldl room_step r pre) o = false /\ str_wrong strict w1 o y).
Proof.
  induction ops as [|o ops IH]; intros sp r w sp' outs HR Hs; cbn [srun run_ops] in *.
  { injection Hs as <- <-. left. split; [by exists w|]. intros [|]; done. }
  destruct (sspec sp o) as [s1 y| |] eqn:E1; [|done|done].
  destruct (srun sspec s1 ops) as [s2 ys| |] eqn:E2; [|done|done]. injection Hs as <- <-.
  destruct (fine_call strict sp r o) eqn:Hf.
  - destruct (R_step strict sp r w o s1 y HR E1 Hf) as (w1 & Ew & HR1).
    destruct (IH _ _ _ _ _ HR1 E2) as [[(w2 & Ew2 & HR2) Hall]|(pre&o'&post&t1&os1&t2&z&w2&->&Ep&Er&Eo&Hn&Hg)].
    + left. split.
      * exists w2. by rewrite (bind_ok _ _ _ _ _ Ew), (bind_ok _ _ _ _ _ Ew2).
      * intros [|o0 pre] o' post t1 os1 [= <- Hops] Ep; [by injection Ep as <- _|]. cbn [srun foldl] in Ep |- *. rewrite E1 in Ep.
        destruct (srun sspec s1 pre) as [t2 os2| |] eqn:E3; [|done|done]. injection Ep as <- _.
        by eapply Hall.
    + right. exists (o :: pre), o', post, t1, (y :: os1), t2, z, w2. split; [done|]. cbn [srun run_ops foldl].
      rewrite E1, Ep. split; [done|]. by rewrite (bind_ok _ _ _ _ _ Ew), (bind_ok _ _ _ _ _ Er).
  - right. exists [], o, ops, sp, [], s1, y, w. repeat (split; [done|]). by eapply R_wrong.
Qed.

(** Every history that is right on byte sequences is carried out faithfully,
    or has a first call that goes wrong; which it is can be told from the
    contents and the rooms. *)
Theorem C43_histories_exact strict ops sp outs : srun sspec ∅ ops = SOk sp outs ->
  ((exists w, run_ops (str_step strict) ops winit = Ok (outs, w)) /\
    forall pre o post sp1 outs1, ops = pre ++ o :: post -> srun sspec ∅ pre = SOk sp1 outs1 ->
      fine_call strict sp1 (rooms pre) o = true) \/
  (exists pre o post sp1 outs1 sp2 y w1, ops = pre ++ o :: post /\ srun sspec ∅ pre = SOk sp1 outs1 /\
     run_ops (str_step strict) pre winit = Ok (outs1, w1) /\ sspec sp1 o = SOk sp2 y /\
     fine_call strict sp1 (rooms pre) o = false /\ str_wrong strict w1 o y).
Proof.
  intros Hs. assert (HR : R ∅ ∅ winit).
  { split; [exact (world_ok_init srep)|]. split; [intros i s; cbn; by rewrite lookup_empty|].
    unfold view. cbn. by rewrite fmap_empty. }
  destruct (hist_gen strict ops _ _ _ _ _ HR Hs) as [[(w & E & _) H]|H]; [left|by right]. split; [by exists w|done].
Qed.
(** So a history at whose end no string is left has given back every block,
    or has a first call that goes wrong. *)
Theorem C44_histories_exact strict ops outs : srun sspec ∅ ops = SOk ∅ outs ->
  (exists w, run_ops (str_step strict) ops winit = Ok (outs, w) /\ hmap (w_heap w) = ∅ /\ w_vars w = ∅) \/
  (exists pre o post sp1 outs1 sp2 y w1, ops = pre ++ o :: post /\ srun sspec ∅ pre = SOk sp1 outs1 /\
     run_ops (str_step strict) pre winit = Ok (outs1, w1) /\ sspec sp1 o = SOk sp2 y /\
     fine_call strict sp1 (rooms pre) o = false /\ str_wrong strict w1 o y).
Proof.
  intros Hs. assert (HR : R ∅ ∅ winit).
  { split; [exact (world_ok_init srep)|]. split; [intros i s; cbn; by rewrite lookup_empty|].
    unfold view. cbn. by rewrite fmap_empty. }
  destruct (hist_gen strict ops _ _ _ _ _ HR Hs) as [[(w & E & Hr & _) _]|H]; [left|by right].
  exists w. split; [done|]. by eapply world_ok_empty.
Qed.
(** C91's rule holds for these histories too. *)
Theorem C91_rooms_exact strict ops sp outs w : srun sspec ∅ ops = SOk sp outs ->
  (forall pre o post sp1 outs1, ops = pre ++ o :: post -> srun sspec ∅ pre = SOk sp1 outs1 ->
      fine_call strict sp1 (rooms pre) o = true) ->
  run_ops (str_step strict) ops winit = Ok (outs, w) ->
  forall g, weigh (fun b => g (sb_cap b)) (w_heap w) = over (fun x => if 16 <? fst x then g (snd x) else 0) (rooms ops).
Proof.
  intros Hs Hall Hrun. assert (HR : R ∅ ∅ winit).
  { split; [exact (world_ok_init srep)|]. split; [intros i s; cbn; by rewrite lookup_empty|].
    unfold view. cbn. by rewrite fmap_empty. }
  destruct (hist_gen strict ops _ _ _ _ _ HR Hs) as [[(w' & E & Hr & _ & Ev) _]|(pre&o&post&s1&os1&s2&y&w1&->&Ep&_&_&Hn&_)].
  - rewrite E in Hrun. injection Hrun as <-. intros g. unfold rooms. rewrite <-Ev. by apply (world_rooms sp).
  - pose proof (Hall _ _ _ _ _ eq_refl Ep) as H. unfold rooms in H. congruence.
Qed.

(** A copy over a shorter string that C43 excludes and that is all right; with
    one byte more it is not. *)
Definition hist_ex (n : nat) : list sop := [SLit 0 (replicate 20 65); SLit 1 (replicate n 66); SCopyAsg 0 1; SBytes 0].
Example C43_histories_ex :
  (match srun sspec ∅ (hist_ex 30) with SOk _ outs => last outs = Some (YBytes (replicate 30 66)) | _ => False end) /\
  (match srun sspec ∅ (take 2 (hist_ex 30)) with
   | SOk sp _ => safe true sp (SCopyAsg 0 1) = false /\ fine_call true sp (rooms (take 2 (hist_ex 30))) (SCopyAsg 0 1) = true
   | _ => False end) /\
  (match srun sspec ∅ (take 2 (hist_ex 31)) with
   | SOk sp _ => fine_call true sp (rooms (take 2 (hist_ex 31))) (SCopyAsg 0 1) = false
   | _ => False end) /\
  (match run_ops (str_step true) (hist_ex 30) winit with Ok (outs, _) => last outs = Some (YBytes (replicate 30 66)) | _ => False end) /\
  run_ops (str_step true) (hist_ex 31) winit = Err UB.
Proof. vm_compute. repeat split. Qed.

Example C44_histories_ex :
  (match srun sspec ∅ (hist_ex 30 ++ [SDel 0; SDel 1]) with SOk sp _ => sp !! 0%nat = None /\ sp !! 1%nat = None | _ => False end) /\
  (match run_ops (str_step true) (hist_ex 30 ++ [SDel 0; SDel 1]) winit with Ok (_, w) => hmap (w_heap w) !! 0 = None /\ hmap (w_heap w) !! 1 = None | _ => False end).
Proof. vm_compute. repeat split. Qed.

Print Assumptions C43_histories_exact.
Print Assumptions C44_histories_exact.
Print Assumptions C91_rooms_exact.
