(** * VecProps: the Vector properties C01-C13

    [good dflt eqb cmp lmax ops s outs] (VecSpec.v) is: on mathematical
    sequences the history [ops] meets every precondition, ends in the contents
    [s] and returns [outs]; positional calls avoid the defects of C02/C03; sizes
    stay within [lmax].  [sz] is [sizeof(T)]; a capacity is at most
    [2 * lmax + 2], hence the hypothesis on bytes.  [vec_run] runs the model. *)
From Verif Require Import Base World VecModel VecSpec VecProofs VecProofs2 VecRefine VecMore.
Local Open Scope N_scope.

(** ** Deciding the side conditions, for the examples *)
Section Dec.
  Context {A : Type} (dflt : A) (eqb : A -> A -> bool) (cmp : A -> A -> comparison).
  Definition ins_safeb (xs : list A) (p n : N) : bool :=
    negb (nlen xs =? 0) && (1 <=? p) && ((1 <=? n) || (p =? nlen xs)).
  Definition on_varb (s : gmap nat (list A)) i (P : list A -> bool) : bool :=
    match s !! i with Some xs => P xs | None => false end.
  Definition vop_safeb (s : gmap nat (list A)) (o : vop A) : bool :=
    match o with
    | VEmplace i p _ | VInsert i p _ => on_varb s i (fun xs => ins_safeb xs p 1)
    | VInsertFill i p n _ => on_varb s i (fun xs => ins_safeb xs p n)
    | VInsertRange i p ys => on_varb s i (fun xs => ins_safeb xs p (nlen ys))
    | VEraseRange i p q => on_varb s i (fun xs => (p <? q) || (q =? nlen xs))
    | _ => true
    end.
  Definition vlimitb (lmax : N) (o : vop A) (s' : gmap nat (list A)) : bool :=
    forallb (fun p : nat * list A => nlen p.2 <=? lmax) (map_to_list s') &&
    match o with VReserve _ n => n <=? lmax | _ => true end.
  Fixpoint goodb (lmax : N) (s : gmap nat (list A)) (ops : list (vop A)) : bool :=
    match ops with
    | [] => true
    | o :: r =>
        match vspec_step dflt eqb cmp s o with
        | None => false
        | Some (s1, _) => vop_safeb s o && vlimitb lmax o s1 && goodb lmax s1 r
        end
    end.
  Definition outs_of (ops : list (vop A)) : list (vout A) :=
    match spec_run (vspec_step dflt eqb cmp) ∅ ops with Some (_, o) => o | None => [] end.
  Definition end_of (ops : list (vop A)) : gmap nat (list A) :=
    match spec_run (vspec_step dflt eqb cmp) ∅ ops with Some (s, _) => s | None => ∅ end.

  Lemma vop_safeb_ok s o : vop_safeb s o = true -> vop_safe s o.
  Proof.
    destruct o; simpl; try done; unfold on_varb, on_var, ins_safeb, ins_safe;
      destruct (s !! i) as [zs|]; try done;
      rewrite ?andb_true_iff, ?orb_true_iff, ?negb_true_iff; unfold nlen; intros H;
      try (split; [intros ->; simpl in *|]); lia.
  Qed.
  Lemma goodb_along lmax ops : forall s, goodb lmax s ops = true ->
    along (vspec_step dflt eqb cmp) (hist_ok lmax) s ops /\
    is_Some (spec_run (vspec_step dflt eqb cmp) s ops).
  Proof.
    induction ops as [|o ops IH]; intros s; simpl; [eauto|].
    destruct (vspec_step dflt eqb cmp s o) as [[t x]|]; [|done].
    rewrite !andb_true_iff. intros [[H1 H2] H3]. destruct (IH _ H3) as [Ha [[u y] ->]].
    split; [|eauto]. split; [|done]. split; [by apply vop_safeb_ok|].
    unfold vlimitb in H2. apply andb_true_iff in H2 as [H2 H4]. split.
    - intros i xs Hi. rewrite forallb_forall in H2.
      specialize (H2 (i, xs)). simpl in H2. apply N.leb_le, H2.
      apply elem_of_list_In, elem_of_map_to_list. done.
    - destruct o; try done. by apply N.leb_le.
  Qed.
  Lemma goodb_ok lmax ops : goodb lmax ∅ ops = true ->
    good dflt eqb cmp lmax ops (end_of ops) (outs_of ops).
  Proof.
    intros H. apply goodb_along in H as [Ha [[u y] E]]. unfold good, end_of, outs_of.
    by rewrite E.
  Qed.
  Lemma goodb_ok_list lmax ops l o : goodb lmax ∅ ops = true ->
    map_to_list (end_of ops) = l -> outs_of ops = o ->
    good dflt eqb cmp lmax ops (list_to_map l) o.
  Proof.
    intros H <- <-. rewrite list_to_map_to_list. by apply goodb_ok.
  Qed.
End Dec.

Section Props.
  Context {A : Type} (dflt : A) (eqb : A -> A -> bool) (cmp : A -> A -> comparison).
  Context (sz lmax : N) (Hsz : 1 <= sz) (Hlim : sz * (2 * lmax + 2) <= alloc_max).
  Notation good := (good dflt eqb cmp lmax).
  Notation vrun := (vec_run sz dflt eqb cmp).
  Notation wok := (world_ok (vrep sz lmax)).
  Notation step := (vspec_step dflt eqb cmp).

  Lemma good_wok ops s outs outs' w : good ops s outs -> vrun ops = Ok (outs', w) -> wok w s.
  Proof using Hsz Hlim.
    intros Hg E. destruct (good_run sz lmax dflt eqb cmp Hsz Hlim ops s outs Hg) as (w' & E' & H).
    rewrite E in E'. by injection E' as -> ->.
  Qed.

  (** *** C01 *)
  Theorem C01_vector_is_sequence ops s outs :
    spec_run step ∅ ops = Some (s, outs) -> Forall whole_op ops ->
    along step (fun _ o s' => vlimit lmax o s') ∅ ops ->
    exists w, vrun ops = Ok (outs, w).
  Proof using Hsz Hlim.
    intros Hs Hf Ha. destruct (good_run sz lmax dflt eqb cmp Hsz Hlim ops s outs) as (w & E & _); [|eauto].
    split; [done|]. apply (along_forall _ _ whole_op) in Ha; [|done].
    eapply along_mono; [|exact Ha]. intros t o t' [Hw Hl]. split; [|done]. by destruct o.
  Qed.

  (** *** C02 *)
  Theorem C02_insert_range_partial ops s outs i xs p ys :
    good ops s outs -> s !! i = Some xs -> xs <> [] -> 1 <= p <= nlen xs ->
    (ys <> [] \/ p = nlen xs) -> nlen xs + nlen ys <= lmax ->
    exists w, vrun (ops ++ [VInsertRange i p ys; VIterAll i]) =
      Ok (outs ++ [OIdx (Some p); OSeq (ntake p xs ++ ys ++ ndrop p xs)], w).
  Proof using Hsz Hlim.
    intros Hg Hi Hne Hp Hys Hl. eapply (good_then sz lmax dflt eqb cmp Hsz Hlim); [done|..].
    - simpl. unfold modify. rewrite Hi. destruct (N.leb_spec p (nlen xs)); [done|lia].
    - simpl. unfold on_var. rewrite Hi. split; [done|]. split; [lia|].
      destruct Hys as [Hys|]; [left|by right]. destruct ys; [done|unfold nlen; simpl; lia].
    - done.
    - apply within_insert; [by eapply good_within|].
      rewrite !nlen_app. unfold nlen, ntake, ndrop in *. rewrite take_length, drop_length. lia.
    - by rewrite lookup_insert.
  Qed.
  Theorem C02_insert_fill_partial ops s outs i xs p n x :
    good ops s outs -> s !! i = Some xs -> xs <> [] -> 1 <= p <= nlen xs ->
    (1 <= n \/ p = nlen xs) -> nlen xs + n <= lmax ->
    exists w, vrun (ops ++ [VInsertFill i p n x; VIterAll i]) =
      Ok (outs ++ [OIdx (Some p); OSeq (ntake p xs ++ nrep n x ++ ndrop p xs)], w).
  Proof using Hsz Hlim.
    intros Hg Hi Hne Hp Hys Hl. eapply (good_then sz lmax dflt eqb cmp Hsz Hlim); [done|..].
    - simpl. unfold modify. rewrite Hi. destruct (N.leb_spec p (nlen xs)); [done|lia].
    - simpl. unfold on_var. rewrite Hi. split; [done|]. split; [lia|done].
    - done.
    - apply within_insert; [by eapply good_within|].
      rewrite !nlen_app. unfold nlen, ntake, ndrop, nrep in *.
      rewrite take_length, drop_length, replicate_length. lia.
    - by rewrite lookup_insert.
  Qed.
  Theorem C02_insert_one_partial ops s outs i xs p x :
    good ops s outs -> s !! i = Some xs -> xs <> [] -> 1 <= p <= nlen xs ->
    nlen xs + 1 <= lmax ->
    (exists w, vrun (ops ++ [VInsert i p x; VIterAll i]) =
      Ok (outs ++ [OIdx (Some p); OSeq (ntake p xs ++ [x] ++ ndrop p xs)], w)) /\
    (exists w, vrun (ops ++ [VEmplace i p x; VIterAll i]) =
      Ok (outs ++ [ONone; OSeq (ntake p xs ++ [x] ++ ndrop p xs)], w)).
  Proof using Hsz Hlim.
    intros Hg Hi Hne Hp Hl.
    assert (nlen (ntake p xs ++ [x] ++ ndrop p xs) <= lmax).
    { rewrite !nlen_app. unfold nlen, ntake, ndrop in *. rewrite take_length, drop_length. simpl. lia. }
    split; (eapply (good_then sz lmax dflt eqb cmp Hsz Hlim); [done|..]).
    - simpl. unfold modify. rewrite Hi. destruct (N.leb_spec p (nlen xs)); [done|lia].
    - simpl. unfold on_var. rewrite Hi. split; [done|]. split; [lia|left; lia].
    - done.
    - apply within_insert; [by eapply good_within|done].
    - by rewrite lookup_insert.
    - simpl. unfold modify. rewrite Hi. destruct (N.leb_spec p (nlen xs)); [done|lia].
    - simpl. unfold on_var. rewrite Hi. split; [done|]. split; [lia|left; lia].
    - done.
    - apply within_insert; [by eapply good_within|done].
    - by rewrite lookup_insert.
  Qed.

  (** *** C03 *)
  Theorem C03_erase_one ops s outs i xs p :
    good ops s outs -> s !! i = Some xs -> p < nlen xs ->
    exists w, vrun (ops ++ [VErase i p; VIterAll i]) =
      Ok (outs ++ [OIdx (Some p); OSeq (ntake p xs ++ ndrop (p + 1) xs)], w).
  Proof using Hsz Hlim.
    intros Hg Hi Hp. eapply (good_then sz lmax dflt eqb cmp Hsz Hlim); [done|..].
    - simpl. unfold modify. rewrite Hi. destruct (N.ltb_spec p (nlen xs)); [done|lia].
    - done.
    - done.
    - pose proof (good_within _ _ _ _ _ _ _ Hg) as Hw. apply within_insert; [done|].
      specialize (Hw _ _ Hi). rewrite nlen_app. unfold nlen, ntake, ndrop in *.
      rewrite take_length, drop_length. lia.
    - by rewrite lookup_insert.
  Qed.
  Theorem C03_erase_range_partial ops s outs i xs p q :
    good ops s outs -> s !! i = Some xs -> p <= q <= nlen xs -> (p < q \/ q = nlen xs) ->
    exists w, vrun (ops ++ [VEraseRange i p q; VIterAll i]) =
      Ok (outs ++ [OIdx (Some p); OSeq (ntake p xs ++ ndrop q xs)], w).
  Proof using Hsz Hlim.
    intros Hg Hi Hp Hd. eapply (good_then sz lmax dflt eqb cmp Hsz Hlim); [done|..].
    - simpl. unfold modify. rewrite Hi. destruct (N.leb_spec p q); [|lia].
      destruct (N.leb_spec q (nlen xs)); [done|lia].
    - simpl. unfold on_var. by rewrite Hi.
    - done.
    - pose proof (good_within _ _ _ _ _ _ _ Hg) as Hw. apply within_insert; [done|].
      specialize (Hw _ _ Hi). rewrite nlen_app. unfold nlen, ntake, ndrop in *.
      rewrite take_length, drop_length. lia.
    - by rewrite lookup_insert.
  Qed.

  (** *** C04 *)
  Theorem C04_storage_discipline ops s outs :
    good ops s outs ->
    exists w, vrun ops = Ok (outs, w) /\
      (forall a b, hmap (w_heap w) !! a = Some b ->
         exists i v, w_vars w !! i = Some v /\ v_ptr v = Some a /\
           b_alloc b = v_alloc v /\ b_bytes b = sz * v_cap v /\
           exists xs, s !! i = Some xs /\
             b_cells b = (Live <$> xs) ++ replicate (N.to_nat (v_cap v) - length xs) Raw) /\
      (s = ∅ -> hmap (w_heap w) = ∅).
  Proof using Hsz Hlim.
    intros Hg. destruct (good_run sz lmax dflt eqb cmp Hsz Hlim _ _ _ Hg) as (w & E & Hw).
    exists w. split; [done|]. split.
    - intros a b Hb. destruct (wok_owned _ _ _ _ _ _ Hw Hb) as (i & v & Hi & Hp).
      destruct (wok_var _ _ _ _ _ _ Hw Hi) as (xs & fp & Hs & (Hl & Hc & Hm & Hr) & _).
      rewrite Hp in Hr. destruct Hr as [_ Hr]. rewrite Hb in Hr. injection Hr as ->.
      exists i, v. repeat (split; [done|]). simpl. eauto.
    - intros ->. by apply world_ok_empty in Hw as [-> _].
  Qed.

  (** *** C05 *)
  Theorem C05_capacity_contract ops s outs w i v :
    good ops s outs -> vrun ops = Ok (outs, w) -> w_vars w !! i = Some v ->
    exists xs, s !! i = Some xs /\ size v = nlen xs /\ size v <= capacity v /\
    (forall n, n <= 2 * lmax + 2 -> exists v' h',
       reserve sz v n (w_heap w) = Ok (v', h') /\ capacity v' = N.max (capacity v) n /\
       collect v' h' = Ok (xs, h') /\ size v' = size v) /\
    (forall x, nlen xs < lmax -> exists v' h',
       push_back sz v x (w_heap w) = Ok (v', h') /\
       collect v' h' = Ok (xs ++ [x], h') /\
       (size v < capacity v -> v_ptr v' = v_ptr v /\ capacity v' = capacity v) /\
       (size v = capacity v -> 2 * capacity v <= capacity v' /\ capacity v < capacity v')) /\
    (forall n ys, n <= 2 * lmax + 2 -> nlen xs + nlen ys <= N.min n lmax -> exists v1 h1 v' h',
       reserve sz v n (w_heap w) = Ok (v1, h1) /\ push_all sz ys v1 h1 = Ok (v', h') /\
       collect v' h' = Ok (xs ++ ys, h') /\
       v_ptr v' = v_ptr v1 /\ capacity v' = capacity v1 /\ hmoves h' = hmoves h1 /\
       hnext h' = hnext h1).
  Proof using Hsz Hlim.
    intros Hg E Hv. pose proof (good_wok _ _ _ _ _ Hg E) as Hw.
    destruct (wok_var _ _ _ _ _ _ Hw Hv) as (xs & fp & Hs & Hr & Hwf).
    exists xs. split; [done|]. pose proof Hr as (Hl & Hc & Hm & Hp).
    split; [done|]. split; [done|]. split; [|split].
    - intros n Hn. destruct (reserve_full sz lmax Hsz Hlim _ _ _ _ n Hwf Hr Hn)
        as (v'&h'&fp'&E1&Hr'&Hu&Hcap&_). exists v', h'. split; [done|]. split; [done|].
      split; [by eapply (collect_ok sz lmax)|]. unfold size. by rewrite Hl, (proj1 Hr').
    - intros x Hx. destruct (push_back_full sz lmax Hsz Hlim _ _ _ _ x Hwf Hr ltac:(lia))
        as (v'&h'&fp'&E1&Hr'&Hu&_&H1&H2). exists v', h'. split; [done|].
      split; [by eapply (collect_ok sz lmax)|]. unfold size, capacity. split.
      + intros Hlt. destruct (H1 Hlt) as (?&?&_). done.
      + intros Heq. destruct (H2 Heq) as [-> _]. destruct (N.eqb_spec (v_cap v) 0); lia.
    - intros n ys Hn Hys. destruct (reserve_full sz lmax Hsz Hlim _ _ _ _ n Hwf Hr Hn)
        as (v1&h1&fp1&E1&Hr1&Hu&Hcap&_).
      destruct (push_all_stay sz lmax Hsz Hlim ys h1 v1 xs fp1 (upd_wf _ _ _ _ Hu) Hr1)
        as (v'&h'&fp'&E2&Hr2&Hp2&Hc2&Hn2&Hm2); [lia|lia|].
      exists v1, h1, v', h'. split; [done|]. split; [done|].
      split; [by eapply (collect_ok sz lmax)|]. done.
  Qed.

  (** *** C06 *)
  Theorem C06_push_back_amortised xs (h : heap (block A)) : hwf h -> nlen xs <= lmax ->
    exists v0 h0 v h' k, new_default sz h = Ok (v0, h0) /\ push_all sz xs v0 h0 = Ok (v, h') /\
      collect v h' = Ok (xs, h') /\
      hmoves h' <= hmoves h0 + (2 * nlen xs + 2) /\
      hnext h' = hnext h0 + k /\ 2 ^ k <= nlen xs + 2.
  Proof using Hsz Hlim. clear dflt eqb cmp.
    intros Hwf Hl. destruct (allocate_ok sz lmax Hsz Hlim h 0 2 Hwf) as (h0&E&Hr&Hu&_); [lia|].
    destruct (push_all_cost sz lmax Hsz Hlim xs h0 _ [] _ 0 (upd_wf _ _ _ _ Hu) Hr)
      as (v&h'&fp&k&E2&Hr2&Hc&Hk&_&Hn&Hmv); [unfold nlen in *; simpl; lia|done|by left|].
    eexists _, h0, v, h', k. split; [exact E|]. split; [exact E2|].
    split; [by eapply (collect_ok sz lmax _ _ _ _ Hr2)|].
    assert (nlen ([] : list A) = 0) as H0 by done. rewrite H0 in Hk.
    assert (2 ^ (k + 1) = 2 * 2 ^ k) as Hpow by (rewrite N.pow_add_r; change (2 ^ 1) with 2; lia).
    rewrite Hpow in Hmv. change (2 ^ (0 + 1)) with 2 in Hmv.
    assert (2 ^ k <= nlen xs + 2) by (destruct Hk as [->|?]; [change (2 ^ 0) with 1|]; lia).
    assert (2 ^ k <= nlen xs + 1) by (destruct Hk as [->|?]; [change (2 ^ 0) with 1|]; lia).
    split; [lia|]. split; [lia|done].
  Qed.

  (** *** C07 *)
  Lemma good_untouched ops s outs ops2 s2 outs2 k xs :
    good ops s outs -> good (ops ++ ops2) s2 outs2 -> s !! k = Some xs ->
    Forall (fun o => k ∉ touched o) ops2 ->
    exists w, vrun ((ops ++ ops2) ++ [VIterAll k]) = Ok (outs2 ++ [OSeq xs], w).
  Proof using Hsz Hlim.
    intros Hg Hg2 Hk Hf. assert (s2 !! k = Some xs) as Hk2.
    { destruct Hg2 as [E2 _]. rewrite (spec_run_app _ _ _ _ _ _ (proj1 Hg)) in E2.
      destruct (spec_run step s ops2) as [[t o2]|] eqn:E3; [|done]. injection E2 as <- <-.
      rewrite (run_untouched _ _ _ _ _ _ _ _ E3 Hf). done. }
    destruct (good_run sz lmax dflt eqb cmp Hsz Hlim ((ops ++ ops2) ++ [VIterAll k]) s2 (outs2 ++ [OSeq xs]))
      as (w & E & _); [|eauto].
    eapply good_snoc; [done| |done|done|by eapply good_within].
    simpl. unfold observe. by rewrite Hk2.
  Qed.
  Theorem C07_copies_independent ops s outs i j xs op ops2 s2 outs2 k :
    good ops s outs -> s !! j = Some xs ->
    (op = VNewCopy i j \/ (exists al, op = VNewCopyAl i j al) \/ op = VCopyAsg i j) ->
    good (ops ++ op :: ops2) s2 outs2 -> (k = i \/ k = j) ->
    Forall (fun o => k ∉ touched o) ops2 ->
    exists w, vrun ((ops ++ op :: ops2) ++ [VIterAll k]) = Ok (outs2 ++ [OSeq xs], w).
  Proof using Hsz Hlim.
    intros Hg Hj Hop Hg2 Hk Hf. pose proof Hg2 as [E2 Ha].
    rewrite (spec_run_app _ _ _ _ _ _ (proj1 Hg)) in E2.
    rewrite (along_app _ _ _ _ _ _ _ (proj1 Hg)) in Ha. destruct Ha as [_ Ha].
    simpl in E2, Ha. destruct (step s op) as [[t o1]|] eqn:E3; [|done]. destruct Ha as [Ho Ha].
    assert (good (ops ++ [op]) t (outs ++ [o1])) as Hg1.
    { eapply good_app; [done| |]; simpl; rewrite E3; done. }
    assert (t !! k = Some xs) as Ht.
    { destruct Hop as [->|[[al ->]| ->]]; simpl in E3; rewrite Hj in E3;
        unfold create, modify in E3; destruct (s !! i) eqn:Ei; try done; injection E3 as <- _;
        (destruct (decide (k = i)) as [->|Hne];
          [by rewrite lookup_insert|rewrite lookup_insert_ne by done]; destruct Hk; congruence). }
    replace (ops ++ op :: ops2) with ((ops ++ [op]) ++ ops2) in * by by rewrite <-(assoc_L app).
    by eapply good_untouched.
  Qed.
  Theorem C07_no_shared_buffer ops s outs w i j vi vj a :
    good ops s outs -> vrun ops = Ok (outs, w) ->
    w_vars w !! i = Some vi -> w_vars w !! j = Some vj -> i <> j ->
    v_ptr vi = Some a -> v_ptr vj <> Some a.
  Proof using Hsz Hlim.
    intros Hg E Hi Hj Hne H1 H2. by eapply (wok_no_share sz lmax w s i j); [eapply good_wok|..].
  Qed.

  (** *** C08 *)
  Theorem C08_ilist_assign_effect ops s outs w i v ys :
    good ops s outs -> vrun ops = Ok (outs, w) -> w_vars w !! i = Some v -> nlen ys <= lmax ->
    exists xs v' h', s !! i = Some xs /\ assign_ilist sz false v ys (w_heap w) = Ok (v', h') /\
      size v' = nlen ys /\
      collect v' h' = Ok (take (length xs) ys ++ take (length ys - length xs) ys, h').
  Proof using Hsz Hlim.
    intros Hg E Hv Hys. pose proof (good_wok _ _ _ _ _ Hg E) as Hw.
    destruct (wok_var _ _ _ _ _ _ Hw Hv) as (xs & fp & Hs & Hr & Hwf).
    destruct (assign_ilist_ok sz lmax Hsz Hlim _ _ _ _ ys Hwf Hr Hys) as (v'&h'&fp'&E'&Hr'&Hu).
    exists xs, v', h'. split; [done|]. split; [done|]. split.
    - destruct Hr' as (Hl&_). unfold size. rewrite Hl. unfold ilist_effect. rewrite nlen_app. unfold nlen.
      rewrite !take_length. lia.
    - by eapply (collect_ok sz lmax).
  Qed.
  Theorem C08_ilist_assign_partial ops s outs w i v ys xs :
    good ops s outs -> vrun ops = Ok (outs, w) -> w_vars w !! i = Some v -> nlen ys <= lmax ->
    s !! i = Some xs -> (xs = [] \/ nlen ys <= nlen xs) ->
    exists v' h', assign_ilist sz false v ys (w_heap w) = Ok (v', h') /\ collect v' h' = Ok (ys, h').
  Proof using Hsz Hlim.
    intros Hg E Hv Hys Hs Hc.
    destruct (C08_ilist_assign_effect ops s outs w i v ys Hg E Hv Hys) as (xs'&v'&h'&Hs'&E'&_&C).
    rewrite Hs in Hs'. injection Hs' as <-. exists v', h'. split; [done|]. rewrite C.
    f_equal. f_equal. destruct Hc as [->|Hle].
    - simpl. by rewrite Nat.sub_0_r, take_ge.
    - unfold nlen in Hle. rewrite take_ge by lia.
      replace (length ys - length xs)%nat with 0%nat by lia. by rewrite take_0, app_nil_r.
  Qed.

  (** *** C09 *)
  Theorem C09_comparison ops s outs i j xs ys :
    good ops s outs -> s !! i = Some xs -> s !! j = Some ys ->
    exists w, vrun (ops ++ [VEq i j; VCmp i j]) =
      Ok (outs ++ [OBool (seq_eq eqb xs ys); OCmp (seq_cmp cmp xs ys)], w).
  Proof using Hsz Hlim.
    intros Hg Hi Hj.
    assert (good ((ops ++ [VEq i j]) ++ [VCmp i j]) s
              ((outs ++ [OBool (seq_eq eqb xs ys)]) ++ [OCmp (seq_cmp cmp xs ys)])) as Hg2.
    { pose proof (good_within _ _ _ _ _ _ _ Hg).
      eapply good_snoc; [eapply good_snoc; [done| |done|done|done]| |done|done|done];
        simpl; unfold observe; by rewrite Hi, Hj. }
    rewrite <-!(assoc_L app) in Hg2.
    apply (good_run sz lmax dflt eqb cmp Hsz Hlim) in Hg2 as (w & E & _). eauto.
  Qed.

  (** *** C10 *)
  Theorem C10_into_iter ops s outs w i v xs n :
    good ops s outs -> vrun ops = Ok (outs, w) -> w_vars w !! i = Some v -> s !! i = Some xs ->
    let '(it, rest) := into_iter_new v in
    size rest = 0 /\ collect rest (w_heap w) = Ok ([], w_heap w) /\
    exists it' h' h'',
      into_take sz n it (w_heap w) =
        Ok (((Some <$> take n xs) ++ replicate (n - length xs) None, it'), h') /\
      into_iter_drop sz it' h' = Ok (tt, h'') /\
      hmap h'' = without (hmap (w_heap w)) v.
  Proof using Hsz Hlim.
    intros Hg E Hv Hx. pose proof (good_wok _ _ _ _ _ Hg E) as Hw.
    destruct (wok_var _ _ _ _ _ _ Hw Hv) as (xs' & fp & Hs & Hr & Hwf).
    rewrite Hx in Hs. injection Hs as <-.
    destruct (iirep_new sz lmax _ _ _ _ Hr) as [Hi Hz]. simpl in Hi, Hz |- *.
    split; [done|]. split; [done|].
    destruct (into_take_ok sz lmax Hsz Hlim n _ _ _ _ Hwf Hi) as (it'&h'&fp'&E1&Hi'&Hu).
    destruct (iirep_drop sz lmax Hsz Hlim _ _ _ _ (upd_wf _ _ _ _ Hu) Hi') as (h''&E2&Hu2).
    exists it', h', h''. split; [done|]. split; [done|].
    eapply (upd_without sz lmax); [done|done|]. by eapply upd_trans.
  Qed.
  Theorem C10_into_iter_reversed ops s outs w i v xs n :
    good ops s outs -> vrun ops = Ok (outs, w) -> w_vars w !! i = Some v -> s !! i = Some xs ->
    exists v' h' v'' h'',
      into_rev_take n v (w_heap w) =
        Ok (((Some <$> take n (reverse xs)) ++ replicate (n - length xs) None, v'), h') /\
      clear sz v' h' = Ok (v'', h'') /\
      hmap h'' = without (hmap (w_heap w)) v.
  Proof using Hsz Hlim.
    intros Hg E Hv Hx. pose proof (good_wok _ _ _ _ _ Hg E) as Hw.
    destruct (wok_var _ _ _ _ _ _ Hw Hv) as (xs' & fp & Hs & Hr & Hwf).
    rewrite Hx in Hs. injection Hs as <-.
    destruct (into_rev_take_ok sz lmax Hsz Hlim n _ _ _ _ Hwf Hr) as (v'&h'&E1&Hi'&Hu).
    destruct (clear_ok sz lmax Hsz Hlim _ _ _ _ (upd_wf _ _ _ _ Hu) Hi') as (h''&E2&_&Hu2&_).
    eexists v', h', _, h''. split; [done|]. split; [done|].
    eapply (upd_without sz lmax); [done|done|]. by eapply upd_trans.
  Qed.

  (** *** C11 *)
  Theorem C11_checked_access ops s outs i xs k :
    good ops s outs -> s !! i = Some xs ->
    exists w a f b,
      vrun (ops ++ [VAt i k; VFront i; VBack i]) = Ok (outs ++ [OOpt a; OOpt f; OOpt b], w) /\
      (forall x, a = Some x <-> xs !! N.to_nat k = Some x) /\
      (a = None <-> nlen xs <= k) /\
      (forall x, f = Some x <-> exists r, xs = x :: r) /\
      (forall x, b = Some x <-> exists r, xs = r ++ [x]).
  Proof using Hsz Hlim.
    intros Hg Hi.
    assert (good (((ops ++ [VAt i k]) ++ [VFront i]) ++ [VBack i]) s
              (((outs ++ [OOpt (nlookup xs k)]) ++ [OOpt (head xs)]) ++ [OOpt (last xs)])) as Hg2.
    { pose proof (good_within _ _ _ _ _ _ _ Hg).
      eapply good_snoc; [eapply good_snoc; [eapply good_snoc|..]|..]; try done;
        simpl; unfold observe; by rewrite Hi. }
    rewrite <-!(assoc_L app) in Hg2.
    apply (good_run sz lmax dflt eqb cmp Hsz Hlim) in Hg2 as (w & E & _).
    exists w, (nlookup xs k), (head xs), (last xs). split; [exact E|].
    unfold nlookup, nlen. split; [|split; [|split]].
    - intros x. destruct (N.ltb_spec k (N.of_nat (length xs))); [done|].
      rewrite lookup_ge_None_2 by lia. done.
    - destruct (N.ltb_spec k (N.of_nat (length xs))); [|split; [lia|done]].
      split; [|lia]. intros Hn. apply lookup_ge_None in Hn. lia.
    - intros x. destruct xs as [|y r]; simpl; [naive_solver|]. naive_solver.
    - intros x. destruct xs as [|y r _] using rev_ind; simpl.
      + split; [done|]. intros [r Hr]. by destruct r.
      + rewrite last_snoc. split; [intros [= ->]; eauto|].
        intros [r' Hr]. apply app_inj_tail in Hr as [_ ->]. done.
  Qed.

  (** *** C13 *)
  Theorem C13_alias_exact ops s outs w i v xs k x :
    good ops s outs -> vrun ops = Ok (outs, w) -> w_vars w !! i = Some v -> s !! i = Some xs ->
    nlookup xs k = Some x ->
    (nlen xs < lmax -> size v < capacity v ->
       push_back_m sz v (vread (v_ptr v) k) (w_heap w) = push_back sz v x (w_heap w)) /\
    (nlen xs < lmax -> size v = capacity v ->
       push_back_m sz v (vread (v_ptr v) k) (w_heap w) = Err UB) /\
    (forall n, n <= lmax -> n <= capacity v ->
       resize_m sz v n (vread (v_ptr v) k) (w_heap w) = resize_m sz v n (ret x) (w_heap w)) /\
    (forall n, n <= lmax -> capacity v < n ->
       resize_m sz v n (vread (v_ptr v) k) (w_heap w) = Err UB) /\
    (forall n, 1 <= n <= lmax ->
       assign_fill_m sz v n (vread (v_ptr v) k) (w_heap w) = Err UB).
  Proof using Hsz Hlim.
    intros Hg E Hv Hx Hk. pose proof (good_wok _ _ _ _ _ Hg E) as Hw.
    destruct (wok_var _ _ _ _ _ _ Hw Hv) as (xs' & fp & Hs & Hr & Hwf).
    rewrite Hx in Hs. injection Hs as <-.
    assert (k < nlen xs) by (unfold nlookup, nlen in *; destruct (N.ltb_spec k (N.of_nat (length xs))); [lia|done]).
    assert (xs <> []) by (intros ->; unfold nlen in *; simpl in *; lia).
    unfold size, capacity. split; [|split; [|split; [|split]]]; intros.
    - eapply push_alias_room; eauto; lia.
    - eapply push_alias_full; eauto; lia.
    - eapply resize_alias_room; eauto.
    - eapply resize_alias_realloc; eauto.
    - eapply assign_alias_ub; eauto; lia.
  Qed.
End Props.

(** ** C12 *)
Section Cap.
  Context {A : Type}.
  (** Every index below [n] can be constructed after [reserve(n)]. *)
  Theorem C12_capacity_exact (sz n al : N) (x : A) (h : heap (block A)) :
    1 <= sz -> 1 <= n ->
    exists v' h', reserve sz (Vec 0 0 None al) n h = Ok (v', h') /\ capacity v' = n /\
      ((forall i, i < n -> exists h'', vconstruct (v_ptr v') i x h' = Ok (tt, h'')) <->
       sz * n <= alloc_max).
  Proof.
    intros Hsz Hn. unfold reserve, allocate_reserve, alloc_raw. simpl.
    destruct (N.ltb_spec 0 n); [|lia].
    destruct (N.leb_spec (umul sz n) alloc_max) as [Hle|Hgt].
    - unfold bind, halloc, ret. simpl. eexists _, _. split; [done|]. split; [done|]. simpl. split.
      + intros Hall. destruct (N.le_gt_cases (sz * n) alloc_max) as [|Hbig]; [done|exfalso].
        destruct (Hall (n - 1) ltac:(lia)) as [h'' E]. revert E.
        unfold vconstruct, slot, bind, hread. simpl. rewrite lookup_insert. unfold nlookup. simpl.
        rewrite replicate_length, N2Nat.id.
        destruct (N.ltb_spec (n - 1) (umul sz n / sz)) as [Hlt|]; [|done].
        assert (n <= umul sz n / sz) as Hx by lia.
        assert (sz * n <= umul sz n). { etransitivity; [|apply (N.mul_div_le _ sz); lia]. nia. }
        unfold umul in *. unfold alloc_max in *. unfold W in *. lia.
      + intros Hok i Hi. unfold umul in *. rewrite N.mod_small in * by (unfold alloc_max, W in *; lia).
        unfold vconstruct, slot, bind, hread. simpl. rewrite lookup_insert. unfold nlookup. simpl.
        rewrite replicate_length, N2Nat.id, (N.mul_comm sz n), N.div_mul by lia.
        destruct (N.ltb_spec i n); [|lia].
        rewrite lookup_replicate_2 by lia. unfold ret, set_slot, hwrite. simpl.
        rewrite lookup_insert. eauto.
    - unfold bind, ret. simpl. eexists _, _. split; [done|]. split; [done|]. simpl. split.
      + intros Hall. destruct (Hall 0 ltac:(lia)) as [h'' E]. done.
      + intros Hok. unfold umul in Hgt. rewrite N.mod_small in Hgt; unfold alloc_max, W in *; lia.
  Qed.
End Cap.

(** ** Examples meeting the hypotheses, and refutations *)

Notation Ngood := (good (0 : N) N.eqb N.compare 100).
Notation Nrun := (vec_run 8 (0 : N) N.eqb N.compare).
Notation Nend := (end_of (0 : N) N.eqb N.compare).
Notation Nouts := (outs_of (0 : N) N.eqb N.compare).
Notation Nstep := (vspec_step (0 : N) N.eqb N.compare).

(** A history using three vectors, growth, positional calls, copies, moves and
    destruction; the hypotheses on [sz] and [lmax] hold for 8 and 100. *)
Definition ex_ops : list (vop N) :=
  [ VNewList 0 0 [5;3;8;1]; VNew 1; VPush 1 7; VPush 1 9; VPush 1 4;
    VInsertRange 0 2 [6;6]; VErase 0 1; VNewCopy 2 0; VPop 0; VMoveAsg 1 2;
    VReserve 0 30; VInsert 0 3 2; VInsertFill 1 1 3 0; VEraseRange 1 2 4;
    VSwap 0 1; VResize 0 7; VCopyAsg 2 0; VNewMove 3 1; VAt 3 1; VPrint 3;
    VCmp 0 3; VDestroy 2 ].
Example ex_limits : 1 <= 8 /\ 8 * (2 * 100 + 2) <= alloc_max.
Proof. unfold alloc_max. lia. Qed.
Example ex_good : Ngood ex_ops (Nend ex_ops) (Nouts ex_ops).
Proof. apply goodb_ok. by vm_compute. Qed.
Example ex_end : map_to_list (Nend ex_ops) =
  [(0%nat, [5;0;6;6;8;1;0]); (1%nat, []); (3%nat, [5;6;6;2;8])].
Proof. by vm_compute. Qed.
Example ex_runs : match Nrun ex_ops with Ok (o, _) => o = Nouts ex_ops | Err _ => False end.
Proof. by vm_compute. Qed.

Definition ex_whole : list (vop N) :=
  [ VNewFill 0 0 3 4; VPush 0 1; VNewCopy 1 0; VCopyAsg 0 0; VMoveAsg 1 1; VPop 0;
    VAssignList 1 [9;8;7;6;5]; VEmplaceBack 1 2; VClear 0; VSwap 0 1; VFront 0; VBack 0;
    VIterAll 0; VPrint 0; VEq 0 1; VCmp 0 1; VDestroy 0; VDestroy 1 ].
(** C01 *)
Example C01_ex : Forall whole_op ex_whole /\
  spec_run Nstep ∅ ex_whole = Some (∅, Nouts ex_whole) /\
  along Nstep (fun _ o s' => vlimit 100 o s') ∅ ex_whole.
Proof.
  split; [by repeat constructor|]. split.
  { assert (Ngood ex_whole (list_to_map []) (Nouts ex_whole)) as [H _]
      by (by apply goodb_ok_list; vm_compute).
    exact H. }
  eapply along_mono; [|apply (goodb_along (0:N) N.eqb N.compare 100 ex_whole ∅); by vm_compute].
  by intros ??? [_ ?].
Qed.

(** C02: the full statement is false. *)
Definition insert_claim : Prop := forall ops s outs i xs p ys,
  Ngood ops s outs -> s !! i = Some xs -> p <= nlen xs -> nlen xs + nlen ys <= 100 ->
  exists w, Nrun (ops ++ [VInsertRange i p ys; VIterAll i]) =
    Ok (outs ++ [OIdx (Some p); OSeq (ntake p xs ++ ys ++ ndrop p xs)], w).
Theorem C02_insert_refuted : ~ insert_claim.
Proof.
  intros H. destruct (H [VNewList 0%nat 0 [1;2]] (list_to_map [(0%nat, [1;2])]) [ONone] 0%nat [1;2] 0 [7]) as [w E].
  - by apply goodb_ok_list; vm_compute.
  - done.
  - done.
  - done.
  - vm_compute in E. done.
Qed.
(** The three ways it fails: at begin() and for an empty sequence strictly
    inside, undefined behaviour; into an empty vector, the element is lost. *)
Theorem C02_insert_refuted_cases :
  Nrun [VNewList 0%nat 0 [1;2]; VInsert 0%nat 0 7] = Err UB /\
  Nrun [VNewList 0%nat 0 [1;2]; VEmplace 0%nat 0 7] = Err UB /\
  Nrun [VNewList 0%nat 0 [1;2]; VInsertRange 0%nat 1 []] = Err UB /\
  Nrun [VNewList 0%nat 0 [1;2]; VInsertFill 0%nat 1 0 7] = Err UB /\
  (exists w, Nrun [VNew 0%nat; VInsert 0%nat 0 7; VSize 0%nat; VIterAll 0%nat] =
     Ok ([ONone; OIdx (Some 0); ONum 0; OSeq []], w)) /\
  Nrun [VNew 0%nat; VInsert 0%nat 0 7; VDestroy 0%nat] = Err Leak.
Proof. vm_compute. repeat (split; [done|]). split; [eauto|done]. Qed.
Example C02_ex : exists xs, Nend ex_ops !! 3%nat = Some xs /\ xs <> [] /\ 1 <= 2 <= nlen xs /\
  nlen xs + nlen [10;11;12] <= 100.
Proof. exists [5;6;6;2;8]. by vm_compute. Qed.

(** C03: the range version is false for an empty range before the end. *)
Definition erase_claim : Prop := forall ops s outs i xs p q,
  Ngood ops s outs -> s !! i = Some xs -> p <= q <= nlen xs ->
  exists w, Nrun (ops ++ [VEraseRange i p q; VIterAll i]) =
    Ok (outs ++ [OIdx (Some p); OSeq (ntake p xs ++ ndrop q xs)], w).
Theorem C03_erase_range_refuted : ~ erase_claim.
Proof.
  intros H. destruct (H [VNewList 0%nat 0 [1;2;3]] (list_to_map [(0%nat, [1;2;3])]) [ONone] 0%nat [1;2;3] 1 1) as [w E].
  - by apply goodb_ok_list; vm_compute.
  - done.
  - done.
  - vm_compute in E. done.
Qed.
Example C03_ex : exists xs, Nend ex_ops !! 0%nat = Some xs /\ 3 < nlen xs /\ 2 <= 5 <= nlen xs /\ (2 < 5 \/ 5 = nlen xs).
Proof. exists [5;0;6;6;8;1;0]. vm_compute. intuition done. Qed.

(** C04: [ex_good] meets the hypothesis; after destroying everything the heap
    is empty, although blocks had been allocated on the way. *)
Example C04_ex : Ngood (ex_ops ++ [VDestroy 0; VDestroy 1; VDestroy 3]) ∅
  (Nouts (ex_ops ++ [VDestroy 0; VDestroy 1; VDestroy 3])).
Proof.
  change ∅ with (list_to_map [] : gmap nat (list N)). by apply goodb_ok_list; vm_compute.
Qed.
Example C04_ex_blocks : match Nrun ex_ops with
  | Ok (_, w) => 3 < hnext (w_heap w) /\ base.size (hmap (w_heap w)) = 2%nat
  | Err _ => False end.
Proof. vm_compute. done. Qed.

(** C05, C10, C13: the reached world of [ex_ops] has vector 3 with contents
    [5;6;6;2;8] and a larger capacity, vector 0 has length 7. *)
Example C05_ex : match Nrun ex_ops with
  | Ok (_, w) =>
      (v_len <$> w_vars w !! 3%nat) = Some 5 /\ (v_cap <$> w_vars w !! 3%nat) = Some 30 /\
      (v_len <$> w_vars w !! 0%nat) = Some 7 /\ (v_cap <$> w_vars w !! 0%nat) = Some 8
  | Err _ => False end.
Proof. vm_compute. done. Qed.
Example C06_ex : hwf (hempty : heap (block N)) /\ nlen [1;2;3;4;5;6;7;8;9] <= 100.
Proof. split; [|done]. intros a [b H]. simpl in H. by rewrite lookup_empty in H. Qed.
Example C06_ex_run : match (v <-- new_default 8 ;; push_all 8 [1;2;3;4;5;6;7;8;9] v) hempty with
  | Ok (v, h) => hmoves h = 14 /\ hnext h = 4 /\ v_cap v = 16
  | Err _ => False end.
Proof. vm_compute. done. Qed.

(** C07: a later history that rewrites and destroys the copy. *)
Example C07_ex : Ngood (ex_ops ++ VNewCopy 4 3 :: [VSet 4 0 77; VPush 4 1; VErase 4 2; VDestroy 4])
    (list_to_map [(0%nat, [5;0;6;6;8;1;0]); (1%nat, []); (3%nat, [5;6;6;2;8])])
    (Nouts (ex_ops ++ VNewCopy 4 3 :: [VSet 4 0 77; VPush 4 1; VErase 4 2; VDestroy 4])) /\
  Forall (fun o : vop N => 3%nat ∉ touched o) [VSet 4 0 77; VPush 4 1; VErase 4 2; VDestroy 4].
Proof.
  split.
  - by apply goodb_ok_list; vm_compute.
  - repeat constructor; set_solver.
Qed.

(** C08: the statement fails as soon as the list is longer than a non-empty
    vector; and read strictly the function is always undefined (no return). *)
Theorem C08_ilist_assign_refuted :
  match Nrun [VNewList 0%nat 0 [1]] with
  | Ok (_, w) =>
      match w_vars w !! 0%nat with
      | Some v => match assign_ilist 8 false v [2;3] (w_heap w) with
                  | Ok (v', h') => exists h'', collect v' h' = Ok ([2;2], h'')
                  | Err _ => False
                  end
      | None => False
      end
  | Err _ => False
  end.
Proof. vm_compute. eauto. Qed.
Theorem C08_ilist_assign_no_return {A} (sz : N) (v : vec) (ys : list A) h r :
  assign_ilist sz true v ys h <> Ok r.
Proof.
  unfold assign_ilist, bind. destruct (reserve sz v _ h) as [[v1 h1]|]; [|done].
  destruct (assign_all _ _ _ h1) as [[[] h2]|]; [|done].
  match goal with |- context [match ?t with Ok _ => _ | Err _ => _ end] => by destruct t as [[[] h3]|] end.
Qed.
Example C08_ex : exists xs, Nend ex_ops !! 3%nat = Some xs /\ nlen [1;2] <= nlen xs.
Proof. exists [5;6;6;2;8]. by vm_compute. Qed.

(** C09: laws of the comparisons that C09_comparison says the code computes. *)
Theorem C09_equality_law {A} (eqb : A -> A -> bool) :
  (forall x y, eqb x y = true <-> x = y) ->
  forall xs ys, seq_eq eqb xs ys = true <-> xs = ys.
Proof. exact (seq_eq_iff eqb). Qed.
Theorem C09_order_laws {A} (eqb : A -> A -> bool) (cmp : A -> A -> comparison) :
  (forall x y, eqb x y = true <-> x = y) ->
  (forall x y, cmp x y = Eq <-> x = y) ->
  (forall x y, cmp y x = CompOpp (cmp x y)) ->
  (forall x y z, cmp x y = Lt -> cmp y z = Lt -> cmp x z = Lt) ->
  (forall xs ys, seq_cmp cmp xs ys = Eq <-> seq_eq eqb xs ys = true) /\
  (forall xs ys, seq_cmp cmp ys xs = CompOpp (seq_cmp cmp xs ys)) /\
  (forall xs ys zs, seq_cmp cmp xs ys = Lt -> seq_cmp cmp ys zs = Lt -> seq_cmp cmp xs zs = Lt) /\
  (forall xs ys, seq_cmp cmp xs ys = Lt <-> lex_lt cmp xs ys).
Proof.
  intros H1 H2 H3 H4. split; [|split; [|split]].
  - intros xs ys. by rewrite (seq_eq_iff eqb H1), (seq_cmp_eq_iff cmp H2).
  - by apply seq_cmp_opp.
  - by apply seq_cmp_trans.
  - by apply seq_cmp_lex.
Qed.
Example C09_ex : (forall x y, N.eqb x y = true <-> x = y) /\ (forall x y, N.compare x y = Eq <-> x = y) /\
  (forall x y, N.compare y x = CompOpp (N.compare x y)) /\
  (forall x y z, N.compare x y = Lt -> N.compare y z = Lt -> N.compare x z = Lt) /\
  seq_cmp N.compare [1;2] [1;2;0] = Lt /\ seq_cmp N.compare [1;3] [1;2;0] = Gt.
Proof.
  split; [apply N.eqb_eq|]. split; [apply N.compare_eq_iff|]. split; [intros; apply N.compare_antisym|].
  split; [|done]. intros x y z. rewrite !N.compare_lt_iff. apply N.lt_trans.
Qed.

(** C11 *)
Example C11_ex : Nend ex_ops !! 3%nat = Some [5;6;6;2;8].
Proof. by vm_compute. Qed.

(** C12: the full statement is false: with 8-byte elements and
    [n = 2^61 + 1] the byte count wraps to 8, [reserve] "succeeds" with that
    capacity, and slot 1 lies outside the block; with [n = 2^60] the request
    fails, and the null pointer is not noticed. *)
Theorem C12_capacity_refuted :
  (match reserve 8 (Vec 0 0 None 0) (2 ^ 61 + 1) (hempty : heap (block N)) with
   | Ok (v, h) => capacity v = 2 ^ 61 + 1 /\ vconstruct (v_ptr v) 1 7 h = Err UB
   | Err _ => False end) /\
  (match reserve 8 (Vec 0 0 None 0) (2 ^ 60) (hempty : heap (block N)) with
   | Ok (v, h) => capacity v = 2 ^ 60 /\ v_ptr v = None /\ vconstruct (v_ptr v) 0 7 h = Err UB
   | Err _ => False end).
Proof. vm_compute. done. Qed.
Theorem C12_capacity_partial {A} (sz n al : N) (x : A) (h : heap (block A)) :
  1 <= sz -> 1 <= n -> sz * n <= alloc_max ->
  exists v' h', reserve sz (Vec 0 0 None al) n h = Ok (v', h') /\ capacity v' = n /\
    (forall i, i < n -> exists h'', vconstruct (v_ptr v') i x h' = Ok (tt, h'')).
Proof.
  intros H1 H2 H3. destruct (C12_capacity_exact sz n al x h H1 H2) as (v'&h'&E&Hc&Hi).
  exists v', h'. split; [done|]. split; [done|]. by apply Hi.
Qed.
Example C12_ex : 1 <= 8 /\ 1 <= 1000 /\ 8 * 1000 <= alloc_max.
Proof. unfold alloc_max. lia. Qed.

(** C13: refuted by pushing the first element of a full vector. *)
Theorem C13_alias_refuted :
  match Nrun [VNewList 0%nat 0 [1;2]] with
  | Ok (_, w) =>
      match w_vars w !! 0%nat with
      | Some v => push_back_m 8 v (vread (v_ptr v) 0) (w_heap w) = Err UB /\
                  match push_back 8 v 1 (w_heap w) with
                  | Ok (v', h') => exists h'', collect v' h' = Ok ([1;2;1], h'')
                  | Err _ => False
                  end
      | None => False
      end
  | Err _ => False
  end.
Proof. vm_compute. eauto. Qed.
Example C13_ex : Nend ex_ops !! 3%nat = Some [5;6;6;2;8] /\ nlookup [5;6;6;2;8] 3 = Some 2.
Proof. by vm_compute. Qed.

Print Assumptions C01_vector_is_sequence.
Print Assumptions C02_insert_range_partial.
Print Assumptions C02_insert_fill_partial.
Print Assumptions C02_insert_one_partial.
Print Assumptions C02_insert_refuted.
Print Assumptions C02_insert_refuted_cases.
Print Assumptions C03_erase_one.
Print Assumptions C03_erase_range_partial.
Print Assumptions C03_erase_range_refuted.
Print Assumptions C04_storage_discipline.
Print Assumptions C05_capacity_contract.
Print Assumptions C06_push_back_amortised.
Print Assumptions C07_copies_independent.
Print Assumptions C07_no_shared_buffer.
Print Assumptions C08_ilist_assign_effect.
Print Assumptions C08_ilist_assign_partial.
Print Assumptions C08_ilist_assign_refuted.
Print Assumptions C08_ilist_assign_no_return.
Print Assumptions C09_comparison.
Print Assumptions C09_equality_law.
Print Assumptions C09_order_laws.
Print Assumptions C10_into_iter.
Print Assumptions C10_into_iter_reversed.
Print Assumptions C11_checked_access.
Print Assumptions C12_capacity_exact.
Print Assumptions C12_capacity_partial.
Print Assumptions C12_capacity_refuted.
Print Assumptions C13_alias_exact.
Print Assumptions C13_alias_refuted.
