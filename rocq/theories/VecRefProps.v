(** * VecRefProps: C64, references and iterators into vectors while vectors change *)
From Verif Require Import Base World VecModel VecIterModel VecSpec VecFacts VecProofs VecProofs2 VecRefine VecMore VecProps
  VecIterProps VecRefs VecKeep.
Local Open Scope N_scope.

Section Refs.
  Context {A : Type} (dflt : A) (eqb : A -> A -> bool) (cmp : A -> A -> comparison).
  Context (sz lmax : N) (Hsz : 1 <= sz) (Hlim : sz * (2 * lmax + 2) <= alloc_max).
  Notation WW := (world (block A) vec).
  Notation wok := (world_ok (vrep (A := A) sz lmax)).
  Notation step := (rstep sz dflt eqb cmp).
  Notation spec := (rspec dflt eqb cmp).

  Definition addr_ok (w : WW) (it : viter) (a : addr) : Prop :=
    vi_cur it = a_cur a /\ vi_end it = a_end a /\
    match a_own a with
    | Some j => exists v, w_vars w !! j = Some v /\ v_ptr v = vi_ptr it
    | None => match vi_ptr it with Some p => dead p (w_heap w) | None => True end
    end.
  Definition addrs_ok (w : WW) (ts : gmap nat viter) (qs : gmap nat addr) : Prop :=
    forall t, match ts !! t, qs !! t with
              | Some it, Some a => addr_ok w it a
              | None, None => True
              | _, _ => False
              end.
  Definition rrel (st : rst A) (q : qst A) : Prop :=
    wok (r_w st) (q_s q) /\ within lmax (q_s q) /\ q_c q = caps_of (r_w st) /\ addrs_ok (r_w st) (r_t st) (q_t q).

  Lemma rrel_init : rrel rinit qinit.
  Proof.
    split; [apply world_ok_init|]. split; [intros i xs; cbn; by rewrite lookup_empty|].
    split; [unfold caps_of; cbn; by rewrite fmap_empty|]. intros t. cbn. by rewrite !lookup_empty.
  Qed.
  Lemma addrs_get st q t a : rrel st q -> q_t q !! t = Some a -> exists it, r_t st !! t = Some it /\ addr_ok (r_w st) it a.
  Proof.
    intros (_ & _ & _ & Ht) Ha. specialize (Ht t). rewrite Ha in Ht. destruct (r_t st !! t) as [it|]; [|done]. by exists it.
  Qed.
  Lemma addrs_put (w : WW) ts qs t it a : addrs_ok w ts qs -> addr_ok w it a -> addrs_ok w (<[t := it]> ts) (<[t := a]> qs).
  Proof.
    intros H Ha u. destruct (decide (t = u)) as [->|Hn]; [by rewrite !lookup_insert|]. rewrite !lookup_insert_ne by done. apply H.
  Qed.

  (** No element there: the cell is raw or outside the block. *)
  Lemma slot_none (h : heap (block A)) v (xs : list A) fp k : vrep sz lmax h v xs fp -> nlookup xs k = None ->
    slot (v_ptr v) k h = Err UB \/ exists a b, slot (v_ptr v) k h = Ok ((a, b, Raw), h).
  Proof.
    intros (Hl & Hc & Hm & Hp) Hk. unfold slot. destruct (v_ptr v) as [a|]; [|by left]. destruct Hp as [_ Hb].
    unfold bind, hread. rewrite Hb. cbn [b_cells]. rewrite nlookup_lookup. rewrite nlookup_lookup in Hk. unfold vcells.
    apply lookup_ge_None in Hk. rewrite lookup_app_r by (by rewrite fmap_length). rewrite fmap_length.
    destruct (replicate _ _ !! _) as [c|] eqn:E; [|by left]. right. apply lookup_replicate in E as [-> _]. by exists a, (Blk (v_alloc v) (sz * v_cap v) (vcells xs (v_cap v))).
  Qed.

  Lemma vec_part st q o q' x : rrel st q -> spec q (RVec o) = Some (q', x) -> ref_ok lmax q (RVec o) q' ->
    exists st', step (RVec o) st = Ok (x, st') /\ rrel st' q'.
  Proof.
    intros (Hw & Hin & Hc & Ht) Es [Hsafe Hl]. cbn [rspec] in Es.
    destruct (vspec_step dflt eqb cmp (q_s q) o) as [[s' y]|] eqn:E; [|done]. injection Es as <- <-. cbn [q_s] in Hl.
    destruct (vec_step_refines sz lmax dflt eqb cmp Hsz Hlim _ _ _ _ _ Hw Hin E Hsafe Hl) as (w' & Ew & Hw').
    exists (RSt w' (r_t st)). cbn [rstep]. rewrite Ew. split; [done|].
    pose proof (step_caps dflt eqb cmp sz lmax Hsz Hlim _ _ _ _ _ _ Hw Ew E Hsafe Hl) as Hc'.
    split; [done|]. split; [exact (proj1 Hl)|]. cbn [q_c r_w r_t q_t q_s]. rewrite Hc. split; [by rewrite Hc'|].
    intros t. rewrite lookup_fmap. specialize (Ht t). destruct (r_t st !! t) as [it|], (q_t q !! t) as [a|]; try done.
    destruct Ht as (H1 & H2 & H3). split; [done|]. split; [done|]. cbn [carry a_own]. destruct (a_own a) as [j|].
    - destruct H3 as (v & Hv & Hp). destruct (follow (caps_of (r_w st)) (q_s q) j o) as [j'|] eqn:Ef.
      + destruct (step_follow dflt eqb cmp sz lmax Hsz Hlim _ _ _ _ _ _ _ _ Hw Ew Hv Ef) as (v' & Hv' & Hs' & _).
        exists v'. split; [done|congruence].
      + destruct (vi_ptr it) as [p|]; [|done].
        by eapply (step_kill dflt eqb cmp sz lmax Hsz Hlim _ _ _ _ _ _ _ _ _ Hw Ew E Hsafe Hl Hv Hp Ef).
    - destruct (vi_ptr it) as [p|]; [|done]. by eapply step_dead.
  Qed.

  Lemma denotes_read st q it a x : rrel st q -> addr_ok (r_w st) it a -> denotes (q_s q) a = Some x ->
    it_read it (w_heap (r_w st)) = Ok (x, w_heap (r_w st)).
  Proof.
    intros (Hw & _) (H1 & H2 & H3) Hd. unfold denotes in Hd. destruct (a_own a) as [j|]; [|done].
    destruct H3 as (v & Hv & Hp). destruct (wok_var _ _ _ _ _ _ Hw Hv) as (xs & fp & Hs & Hr & _). rewrite Hs in Hd.
    unfold it_read. rewrite <-Hp, H1. by eapply vread_nlookup.
  Qed.
  Lemma hrun_ok {X} st (m : M (heap (block A)) X) x h' : m (w_heap (r_w st)) = Ok (x, h') ->
    in_heap m st = Ok (x, RSt (World h' (w_vars (r_w st))) (r_t st)).
  Proof. intros E. unfold in_heap, hrun, lift. by rewrite E. Qed.
  Lemma hrun_same {X} st (m : M (heap (block A)) X) x : m (w_heap (r_w st)) = Ok (x, w_heap (r_w st)) ->
    in_heap m st = Ok (x, st).
  Proof. intros E. rewrite (hrun_ok _ _ _ _ E). by destruct st as [[h vs] ts]. Qed.

  Lemma step_agrees st q o q' out : rrel st q -> spec q o = Some (q', out) -> ref_ok lmax q o q' ->
    exists st', step o st = Ok (out, st') /\ rrel st' q'.
  Proof.
    intros Hr Es Hok. destruct o as [o|t i k|t|t y|t d|t|t u].
    - by eapply vec_part.
    - cbn [rspec] in Es. destruct (q_s q !! i) as [xs|] eqn:Ei; [|done]. destruct (N.leb_spec k (nlen xs)); [|done]. injection Es as <- <-.
      destruct Hr as (Hw & Hin & Hc & Ht). destruct Hw as [m Hm].
      destruct (world_ok_lookup_spec _ _ _ _ _ _ Hm Ei) as (e & _ & <- & Hv & Hrep). cbn [rstep]. rewrite Hv.
      eexists. split; [done|]. split; [by exists m|]. split; [done|]. split; [done|]. cbn [r_w r_t q_t]. apply addrs_put; [done|].
      split; [done|]. cbn [vi_end a_end a_own vi_ptr]. destruct Hrep as (-> & _). eauto.
    - cbn [rspec] in Es. destruct (q_t q !! t) as [a|] eqn:Ea; [|done]. destruct (denotes (q_s q) a) as [y|] eqn:Ed; [|done]. injection Es as <- <-.
      destruct (addrs_get _ _ _ _ Hr Ea) as (it & Et & Hit). cbn [rstep]. unfold with_t. rewrite Et.
      rewrite (bind_ok _ _ _ _ _ (hrun_same _ _ _ (denotes_read _ _ _ _ _ Hr Hit Ed))). by exists st.
    - cbn [rspec] in Es. destruct (q_t q !! t) as [a|] eqn:Ea; [|done]. destruct (a_own a) as [j|] eqn:Eo; [|done].
      destruct (vspec_step _ _ _ _ _) as [[s' z]|] eqn:E; [|done]. injection Es as <- <-.
      destruct (addrs_get _ _ _ _ Hr Ea) as (it & Et & Hit). destruct Hr as (Hw & Hin & Hc & Ht).
      assert (Hl : vlimit lmax (VSet j (a_cur a) y) s').
      { split; [|done]. cbn [vspec_step] in E. unfold VecSpec.modify in E. destruct (q_s q !! j) as [xs|] eqn:Ej; [|done].
        destruct (N.ltb_spec (a_cur a) (nlen xs)) as [Hlt|]; [|done]. injection E as <- _. intros i ys.
        destruct (decide (j = i)) as [->|Hn]; [|rewrite lookup_insert_ne by done; apply Hin].
        rewrite lookup_insert. intros [= <-]. specialize (Hin _ _ Ej). clear -Hin Hlt. unfold nlen, ntake, ndrop in *.
        cbn [length app]. rewrite app_length, take_length. cbn [length]. rewrite drop_length. lia. }
      destruct (vec_step_refines sz lmax dflt eqb cmp Hsz Hlim _ _ _ _ _ Hw Hin E I Hl) as (w' & Ew & Hw').
      destruct Hit as (H1 & H2 & H3). rewrite Eo in H3. destruct H3 as (v & Hv & Hp).
      cbn [vec_step] in Ew. unfold obs in Ew. binv Ew. apply wget_inv in E0 as [Hv0 ->]. assert (x = v) as -> by congruence.
      binv Ew. apply lift_inv in E0 as [E0 Hvs]. injection Ew as _ <-. destruct x. cbn [rstep]. unfold with_t. rewrite Et.
      assert (Ei : it_write it y (w_heap (r_w st)) = Ok (tt, w_heap s)).
      { unfold it_write. rewrite <-Hp, H1. exact E0. }
      rewrite (bind_ok _ _ _ _ _ (hrun_ok _ _ _ _ Ei)). eexists. split; [done|].
      assert (World (w_heap s) (w_vars (r_w st)) = s) as -> by (destruct s; cbn in *; by rewrite Hvs).
      split; [done|]. split; [exact (proj1 Hl)|]. split; [cbn; rewrite Hc; unfold caps_of; by rewrite Hvs|]. cbn [r_w r_t q_t].
      intros u. specialize (Ht u). destruct (r_t st !! u) as [iu|], (q_t q !! u) as [au|]; try done.
      destruct Ht as (G1 & G2 & G3). split; [done|]. split; [done|]. destruct (a_own au); [by rewrite Hvs|].
      destruct (vi_ptr iu); [|done]. eapply pr_vassign; [apply prim_dead|exact E0|done].
    - cbn [rspec] in Es. destruct (q_t q !! t) as [a|] eqn:Ea; [|done]. destruct (a_own a) as [j|] eqn:Eo; [|done]. cbv zeta in Es.
      destruct ((0 <=? _)%Z && _) eqn:Eb; [|done]. apply andb_true_iff in Eb as [B1%Z.leb_le B2%N.leb_le]. injection Es as <- <-.
      destruct (addrs_get _ _ _ _ Hr Ea) as (it & Et & Hit). destruct Hit as (H1 & H2 & H3). rewrite Eo in H3. destruct H3 as (v & Hv & Hp).
      destruct Hr as (Hw & Hin & Hc & Ht). destruct (wok_var _ _ _ _ _ _ Hw Hv) as (xs & fp & Hs & Hrep & _).
      unfold len_of in B2. rewrite Hs in B2.
      cbn [rstep]. unfold with_t. rewrite Et.
      assert (Eg : it_goto (A := A) it (Z.of_N (vi_cur it) + d) (w_heap (r_w st)) =
        Ok (VIter (vi_ptr it) (Z.to_N (Z.of_N (a_cur a) + d)) (vi_end it), w_heap (r_w st))).
      { unfold it_goto. rewrite <-Hp, H1. rewrite (bind_ok _ _ _ _ _ (ptr_at_ok sz lmax _ _ _ _ (Z.of_N (a_cur a) + d)%Z Hrep ltac:(unfold nlen in *; lia))). done. }
      rewrite (bind_ok _ _ _ _ _ (hrun_same _ _ _ Eg)). eexists. split; [done|]. split; [done|]. split; [done|]. split; [done|].
      cbn [r_w r_t q_t]. apply addrs_put; [done|]. split; [done|]. split; [done|]. cbn [a_own vi_ptr]. eauto.
    - cbn [rspec] in Es. destruct (q_t q !! t) as [a|] eqn:Ea; [|done]. destruct (a_own a) as [j|] eqn:Eo; [|done].
      destruct (addrs_get _ _ _ _ Hr Ea) as (it & Et & Hit). cbn [rstep]. unfold with_t. rewrite Et.
      destruct (N.eqb_spec (a_cur a) (a_end a)) as [He|He].
      + injection Es as <- <-.
        assert (En : viter_next (A := A) it (w_heap (r_w st)) = Ok ((None, it), w_heap (r_w st))).
        { unfold viter_next. destruct Hit as (-> & -> & _). by rewrite He, N.eqb_refl. }
        rewrite (bind_ok _ _ _ _ _ (hrun_same _ _ _ En)). eexists. split; [done|]. destruct Hr as (Hw & Hin & Hc & Ht).
        split; [done|]. split; [done|]. split; [done|]. cbn [r_w r_t]. by rewrite insert_id.
      + destruct (denotes (q_s q) a) as [y|] eqn:Ed; [|done]. injection Es as <- <-.
        assert (En : viter_next (A := A) it (w_heap (r_w st)) =
          Ok ((Some y, VIter (vi_ptr it) (vi_cur it + 1) (vi_end it)), w_heap (r_w st))).
        { unfold viter_next. rewrite (proj1 Hit), (proj1 (proj2 Hit)), (proj2 (N.eqb_neq _ _) He). cbn [negb].
          rewrite <-(proj1 Hit). rewrite (bind_ok _ _ _ _ _ (denotes_read _ _ _ _ _ Hr Hit Ed)). done. }
        rewrite (bind_ok _ _ _ _ _ (hrun_same _ _ _ En)). eexists. split; [done|]. destruct Hr as (Hw & Hin & Hc & Ht).
        split; [done|]. split; [done|]. split; [done|]. cbn [r_w r_t q_t]. apply addrs_put; [done|].
        destruct Hit as (H1 & H2 & H3). split; [cbn; by rewrite H1|]. split; [done|]. rewrite Eo in H3. exact H3.
    - cbn [rspec] in Es. destruct (q_t q !! t) as [a|] eqn:Ea; [|done]. destruct (q_t q !! u) as [b|] eqn:Eb; [|done].
      destruct (decide _) as [[He Hs]|]; [|done]. injection Es as <- <-.
      destruct (addrs_get _ _ _ _ Hr Ea) as (it & Et & Hit). destruct (addrs_get _ _ _ _ Hr Eb) as (iu & Eu & Hiu).
      cbn [rstep]. unfold with_t. rewrite Et, Eu. exists st. split; [|done]. unfold ret, it_eq.
      destruct Hit as (-> & -> & H3), Hiu as (-> & -> & G3). rewrite <-He in G3. destruct Hs as [j Hj]. rewrite Hj in *.
      destruct H3 as (v & Hv & Hp), G3 as (v' & Hv' & Hp'). rewrite bool_decide_eq_true_2 by congruence. done.
  Qed.

  Lemma run_agrees ops : forall st q q' outs, rrel st q -> spec_run spec q ops = Some (q', outs) -> along spec (ref_ok lmax) q ops ->
    exists st', run_ops step ops st = Ok (outs, st') /\ rrel st' q'.
  Proof.
    induction ops as [|o ops IH]; intros st q q' outs Hr; cbn [spec_run along run_ops].
    - intros [= <- <-] _. by exists st.
    - destruct (spec q o) as [[q1 x]|] eqn:E; [|done]. destruct (spec_run spec q1 ops) as [[q2 xs]|] eqn:E2; [|done].
      intros [= <- <-] [Hok Ha]. destruct (step_agrees _ _ _ _ _ Hr E Hok) as (st1 & E1 & Hr1).
      destruct (IH _ _ _ _ Hr1 E2 Ha) as (st2 & E3 & Hr2). exists st2. split; [|done].
      rewrite (bind_ok _ _ _ _ _ E1). by rewrite (bind_ok _ _ _ _ _ E3).
  Qed.
  (** *** C64 *)

  (** Any program that keeps references, pointers and iterators while any
      operations run on any vectors does what the specification says: a kept
      address denotes the element at its index of the vector that holds the
      buffer now. *)
  Theorem C64_references ops q outs : spec_run spec qinit ops = Some (q, outs) -> along spec (ref_ok lmax) qinit ops ->
    exists st, run_ops step ops rinit = Ok (outs, st) /\
      forall i v, w_vars (r_w st) !! i = Some v -> exists xs, q_s q !! i = Some xs /\ size v = nlen xs /\
        collect v (w_heap (r_w st)) = Ok (xs, w_heap (r_w st)) /\ capacity v = cap_of (q_c q) i.
  Proof using Hsz Hlim.
    intros E Ha. destruct (run_agrees _ _ _ _ _ rrel_init E Ha) as (st & Er & Hr). exists st. split; [done|].
    intros i v Hv. destruct Hr as (Hw & _ & Hc & _). destruct (wok_var _ _ _ _ _ _ Hw Hv) as (xs & fp & Hs & Hrep & _).
    exists xs. split; [done|]. split; [apply Hrep|]. split; [by eapply collect_ok|]. rewrite Hc. by rewrite (cap_of_caps _ _ _ Hv).
  Qed.

  (** And only then: an address whose buffer was given up, or whose index is
      no longer below size(), can be neither read, written nor advanced over. *)
  Theorem C64_dangling ops q outs t a : spec_run spec qinit ops = Some (q, outs) -> along spec (ref_ok lmax) qinit ops ->
    q_t q !! t = Some a -> denotes (q_s q) a = None ->
    run_ops step (ops ++ [RGet t]) rinit = Err UB /\
    (forall x, run_ops step (ops ++ [RSet t x]) rinit = Err UB) /\
    (a_cur a <> a_end a -> run_ops step (ops ++ [RNext t]) rinit = Err UB).
  Proof using Hsz Hlim.
    intros E Ha Et Hd. destruct (run_agrees _ _ _ _ _ rrel_init E Ha) as (st & Er & Hr).
    destruct (addrs_get _ _ _ _ Hr Et) as (it & Ei & H1 & H2 & H3).
    assert (Hslot : slot (vi_ptr it) (vi_cur it) (w_heap (r_w st)) = Err UB \/
      exists p b, slot (vi_ptr it) (vi_cur it) (w_heap (r_w st)) = Ok ((p, b, Raw), w_heap (r_w st))).
    { unfold denotes in Hd. destruct (a_own a) as [j|].
      - destruct H3 as (v & Hv & <-). destruct Hr as (Hw & _). destruct (wok_var _ _ _ _ _ _ Hw Hv) as (xs & fp & Hs & Hrep & _).
        rewrite Hs in Hd. rewrite H1. by eapply slot_none.
      - left. unfold slot. destruct (vi_ptr it) as [p|]; [|done]. unfold bind, hread. by rewrite (proj1 H3). }
    assert (Hlast : forall o, step o st = Err UB -> run_ops step (ops ++ [o]) rinit = Err UB).
    { intros o Eo. clear -Er Eo. revert Er. generalize (@rinit A). generalize outs.
      induction ops as [|p ops IH]; intros os s; cbn [app run_ops].
      - intros [= <- ->]. by apply bind_err.
      - intros E. binv E. binv E. injection E as <- <-. rewrite (bind_ok _ _ _ _ _ E0). apply bind_err. by eapply IH. }
    assert (Hrd : it_read it (w_heap (r_w st)) = Err UB).
    { unfold it_read, vread. destruct Hslot as [Eq|(p & b & Eq)]; [by apply bind_err|]. by rewrite (bind_ok _ _ _ _ _ Eq). }
    assert (Herr : forall X Y (m : M (heap (block A)) X) (k : X -> M (rst A) Y), m (w_heap (r_w st)) = Err UB -> bind (in_heap m) k st = Err UB).
    { intros X Y m k Em. apply bind_err. unfold in_heap, hrun, lift. by rewrite Em. }
    split; [|split].
    - apply Hlast. cbn [rstep]. unfold with_t. rewrite Ei. by apply Herr.
    - intros x. apply Hlast. cbn [rstep]. unfold with_t. rewrite Ei. apply Herr.
      unfold it_write, vassign. destruct Hslot as [Eq|(p & b & Eq)]; [by apply bind_err|]. by rewrite (bind_ok _ _ _ _ _ Eq).
    - intros Hne. apply Hlast. cbn [rstep]. unfold with_t. rewrite Ei. apply Herr. unfold viter_next. rewrite H1, H2, (proj2 (N.eqb_neq _ _) Hne).
      cbn [negb]. rewrite <-H1. by apply bind_err.
  Qed.

  (** After reserve(n), references stay good while the vector is filled up to
      [n] elements. *)
  Lemma pushes_keep t i k e x ys : forall q, (forall j zs, j <> i -> q_s q !! j = Some zs -> nlen zs <= lmax) ->
    forall zs, q_s q !! i = Some zs -> nlookup zs k = Some x -> nlen zs + nlen ys <= N.min lmax (cap_of (q_c q) i) ->
    q_t q !! t = Some (Addr (Some i) k e) ->
    exists q' os, spec_run spec q ((fun y => RVec (VPush i y)) <$> ys) = Some (q', os) /\
      along spec (ref_ok lmax) q ((fun y => RVec (VPush i y)) <$> ys) /\ spec q' (RGet t) = Some (q', OElem x).
  Proof.
    induction ys as [|y ys IH]; intros q Hoth zs Hz Hk Hn Ht.
    - exists q, []. split; [done|]. split; [done|]. cbn [rspec]. rewrite Ht. unfold denotes. cbn [a_own a_cur]. by rewrite Hz, Hk.
    - cbn [fmap list_fmap spec_run along]. cbn [rspec vspec_step]. unfold VecSpec.modify. rewrite Hz.
      assert (Hn' : nlen (zs ++ [y]) = nlen zs + 1) by apply nlen_app. assert (nlen (y :: ys) = nlen ys + 1) as Hy by (unfold nlen; cbn [length]; lia). rewrite Hy in Hn.
      assert (Hp : pushed (len_of (q_s q) i) (cap_of (q_c q) i) = cap_of (q_c q) i).
      { unfold pushed, len_of. rewrite Hz, (proj2 (N.ltb_lt _ _)) by lia. done. }
      set (q1 := QSt _ _ _). destruct (IH q1) with (zs := zs ++ [y]) as (q' & os & E1 & E2 & E3).
      + cbn [q1 q_s]. intros j us Hj. rewrite lookup_insert_ne by done. by apply Hoth.
      + cbn [q1 q_s]. by rewrite lookup_insert.
      + rewrite nlookup_lookup in *. by apply lookup_app_l_Some.
      + cbn [q1 q_c caps_after]. rewrite Hp. unfold cap_of at 1. rewrite lookup_insert. lia.
      + cbn [q1 q_t]. rewrite lookup_fmap, Ht. unfold carry, follow, len_of. cbn [a_own a_cur a_end fmap option_fmap option_map]. rewrite Hz.
        rewrite Nat.eqb_refl, (proj2 (N.ltb_lt _ _)) by lia. done.
      + exists q', (ONone :: os). rewrite E1. split; [done|]. split; [|done]. split; [|done]. split; [done|]. split; [|done].
        cbn [q1 q_s]. intros j us. destruct (decide (j = i)) as [->|Hj]; [rewrite lookup_insert; intros [= <-]; lia|].
        rewrite lookup_insert_ne by done. by apply Hoth.
  Qed.
  Theorem C64_reserve ops q outs i xs n k x ys t : spec_run spec qinit ops = Some (q, outs) -> along spec (ref_ok lmax) qinit ops ->
    q_s q !! i = Some xs -> nlookup xs k = Some x -> nlen xs + nlen ys <= n -> n <= lmax ->
    exists os st, run_ops step (ops ++ [RVec (VReserve i n); RAt t i k] ++ ((fun y => RVec (VPush i y)) <$> ys) ++ [RGet t]) rinit =
      Ok (os ++ [OElem x], st).
  Proof using Hsz Hlim.
    intros E Ha Hx Hk Hn Hm. destruct (run_agrees _ _ _ _ _ rrel_init E Ha) as (st & Er & Hr).
    assert (Hin : within lmax (q_s q)) by apply Hr. specialize (Hin) as Hin'.
    set (q1 := QSt (q_s q) (caps_after (q_c q) (q_s q) (VReserve i n)) (carry (q_c q) (q_s q) (VReserve i n) <$> q_t q)).
    set (q2 := QSt (q_s q1) (q_c q1) (<[t := Addr (Some i) k (nlen xs)]> (q_t q1))).
    assert (Hkl : k < nlen xs).
    { rewrite nlookup_lookup in Hk. apply lookup_lt_Some in Hk. unfold nlen. lia. }
    assert (S1 : spec q (RVec (VReserve i n)) = Some (q1, ONone)).
    { cbn [rspec vspec_step]. unfold VecSpec.modify. rewrite Hx. by rewrite insert_id. }
    assert (S2 : spec q1 (RAt t i k) = Some (q2, ONone)).
    { cbn [rspec q1 q_s]. rewrite Hx, (proj2 (N.leb_le _ _)) by lia. done. }
    destruct (pushes_keep t i k (nlen xs) x ys q2) with (zs := xs) as (q3 & os & S3 & A3 & S4).
    - intros j zs _. apply Hin.
    - done.
    - done.
    - cbn [q2 q1 q_c caps_after]. unfold cap_of at 1. rewrite lookup_insert. lia.
    - cbn [q2 q_t]. by rewrite lookup_insert.
    - exists (outs ++ ONone :: ONone :: os).
      assert (ST : spec_run spec q ([RVec (VReserve i n); RAt t i k] ++ ((fun y => RVec (VPush i y)) <$> ys) ++ [RGet t]) =
        Some (q3, ONone :: ONone :: os ++ [OElem x])).
      { cbn [app spec_run]. rewrite S1, S2. rewrite (spec_run_app _ _ _ _ _ _ S3). cbn [spec_run]. by rewrite S4. }
      destruct (run_agrees (ops ++ [RVec (VReserve i n); RAt t i k] ++ ((fun y => RVec (VPush i y)) <$> ys) ++ [RGet t]) rinit qinit q3
        (outs ++ ONone :: ONone :: os ++ [OElem x]) rrel_init) as (st' & E' & _).
      + by rewrite (spec_run_app _ _ _ _ _ _ E), ST.
      + rewrite (along_app _ _ _ _ _ _ _ E). split; [done|]. cbn [app along]. rewrite S1, S2. split; [split; [done|split; [exact Hin|done]]|].
        split; [done|]. rewrite (along_app _ _ _ _ _ _ _ S3). split; [done|]. cbn [along]. by rewrite S4.
      + exists st'. by rewrite <-app_assoc.
  Qed.
End Refs.

(** ** Concrete cases *)
Section Dec.
  Context {A : Type} (dflt : A) (eqb : A -> A -> bool) (cmp : A -> A -> comparison).
  Fixpoint refb (lmax : N) (q : qst A) (ops : list (rop A)) : bool :=
    match ops with
    | [] => true
    | o :: r =>
        match rspec dflt eqb cmp q o with
        | None => false
        | Some (q1, _) =>
            (match o with RVec o => vop_safeb (q_s q) o && vlimitb lmax o (q_s q1) | _ => true end) && refb lmax q1 r
        end
    end.
  Lemma refb_along lmax ops : forall q, refb lmax q ops = true -> along (rspec dflt eqb cmp) (ref_ok lmax) q ops.
  Proof.
    induction ops as [|o ops IH]; intros q; cbn [refb along]; [done|].
    destruct (rspec dflt eqb cmp q o) as [[q1 x]|]; [|done]. intros [H1 H2]%andb_true_iff. split; [|by apply IH].
    destruct o as [o| | | | | |]; try done. apply andb_true_iff in H1 as [H1 H3]. cbn [ref_ok]. split; [by apply vop_safeb_ok|].
    unfold vlimitb in H3. apply andb_true_iff in H3 as [H3 H4]. split.
    - intros i xs Hi. rewrite forallb_forall in H3. specialize (H3 (i, xs)). cbn in H3. apply N.leb_le, H3.
      apply elem_of_list_In, elem_of_map_to_list. done.
    - destruct o; try done. by apply N.leb_le.
  Qed.
End Dec.

Notation Rrun := (run_ops (rstep 8 (0 : N) N.eqb N.compare)).
Notation Rspec := (rspec (0 : N) N.eqb N.compare).
Definition ref_outs (ops : list (rop N)) : list (vout N) := match spec_run Rspec qinit ops with Some (_, o) => o | None => [] end.
Definition ref_end (ops : list (rop N)) : qst N := match spec_run Rspec qinit ops with Some (q, _) => q | None => qinit end.
Lemma ref_hyps ops : refb 0 N.eqb N.compare 100 qinit ops = true ->
  spec_run Rspec qinit ops = Some (ref_end ops, ref_outs ops) /\ along Rspec (ref_ok 100) qinit ops.
Proof.
  intros H. split; [|by apply refb_along]. unfold ref_end, ref_outs. revert H. generalize (@qinit N).
  assert (Hs : forall q, refb 0 N.eqb N.compare 100 q ops = true -> is_Some (spec_run Rspec q ops)).
  { induction ops as [|o ops IH]; intros q; cbn [refb spec_run]; [eauto|]. destruct (Rspec q o) as [[q1 x]|]; [|done].
    intros [_ H]%andb_true_iff. destruct (IH _ H) as [[q2 xs] ->]. eauto. }
  intros q H. destruct (Hs q H) as [[q2 xs] ->]. done.
Qed.

(** A reference and an iterator taken after reserve, kept over pushes, a swap,
      a move and an erase: they follow the buffer. *)
Definition ref_ops : list (rop N) :=
  [RVec (VNewList 0%nat 0 [10;20;30]); RVec (VReserve 0%nat 6); RAt 0 0 1; RAt 1 0 0; RVec (VPush 0%nat 40); RGet 0; RNext 1;
   RSet 0 21; RVec (VIterAll 0%nat); RVec (VNew 1%nat); RVec (VSwap 0%nat 1%nat); RVec (VIterAll 1%nat); RGet 0;
   RVec (VNewMove 2%nat 1%nat); RVec (VErase 2%nat 0); RGet 0; RMove 1 1; RGet 1; RAt 2 2 2; REq 1 2; RVec (VResize 2%nat 6); RGet 0].
Example C64_ex_hyps : refb 0 N.eqb N.compare 100 qinit ref_ops = true. Proof. by vm_compute. Qed.
Example C64_ex : match Rrun ref_ops rinit with
  | Ok (o, st) => o = ref_outs ref_ops /\ o =
      [ONone; ONone; ONone; ONone; ONone; OElem 20; OOpt (Some 10); ONone; OSeq [10;21;30;40]; ONone; ONone; OSeq [10;21;30;40]; OElem 21;
       ONone; OIdx (Some 0); OElem 30; ONone; OElem 40; ONone; OBool true; ONone; OElem 30]
  | Err _ => False end.
Proof. by vm_compute. Qed.

(** References that no longer denote an element: after a push_back that grows
      the buffer, after clear, after destruction, after copy assignment from a
      larger vector, after the last element is popped. *)
Definition gone_ops (o : list (vop N)) : list (rop N) :=
  [RVec (VNewList 0%nat 0 [10;20]); RVec (VNewList 1%nat 0 [1;2;3;4]); RAt 0 0 1] ++ (RVec <$> o).
Definition gone (o : list (vop N)) : bool :=
  refb 0 N.eqb N.compare 100 qinit (gone_ops o) &&
  match q_t (ref_end (gone_ops o)) !! 0%nat with
  | Some a => match denotes (q_s (ref_end (gone_ops o))) a with None => true | Some _ => false end
  | None => false
  end.
Example C64_ex_gone : forallb gone [[VPush 0%nat 30]; [VClear 0%nat]; [VDestroy 0%nat]; [VCopyAsg 0%nat 1%nat]; [VMoveAsg 0%nat 1%nat]; [VPop 0%nat];
  [VInsertRange 0%nat 1 [7]]; [VReserve 0%nat 3; VPush 0%nat 5]] = true.
Proof. by vm_compute. Qed.
Example C64_ex_not_gone : existsb gone [[VSet 0%nat 1 9]; [VCopyAsg 1%nat 0%nat]; [VNewMove 2%nat 0%nat]; [VMoveAsg 1%nat 0%nat]; [VAssignFill 0%nat 2 5];
  [VPop 0%nat; VPush 0%nat 9]] = false.
Proof. by vm_compute. Qed.
Example C64_ex_dangling : Rrun (gone_ops [VPush 0%nat 30] ++ [RGet 0]) rinit = Err UB /\ Rrun (gone_ops [VPop 0%nat] ++ [RSet 0 5]) rinit = Err UB.
Proof. split; by vm_compute. Qed.
Example C64_ex_dangling_hyps : exists q outs a,
  spec_run Rspec qinit (gone_ops [VPush 0%nat 30]) = Some (q, outs) /\ along Rspec (ref_ok 100) qinit (gone_ops [VPush 0%nat 30]) /\
  q_t q !! 0%nat = Some a /\ denotes (q_s q) a = None.
Proof.
  destruct (ref_hyps (gone_ops [VPush 0%nat 30])) as [E H]; [by vm_compute|].
  exists (ref_end (gone_ops [VPush 0%nat 30])), (ref_outs (gone_ops [VPush 0%nat 30])), (Addr None 1 2). split; [done|]. split; [done|]. by vm_compute.
Qed.

Print Assumptions C64_references.
Print Assumptions C64_dangling.
Print Assumptions C64_reserve.
