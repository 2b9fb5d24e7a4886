(** * VecIterProps: C57 and C58, moving consuming iterators and random access *)
From Verif Require Import Base World VecModel VecSpec VecFacts VecProofs VecProofs2 VecRefine VecMore VecProps VecIterModel.
Local Open Scope N_scope.

(** ** Specification of C58: iterators are positions *)
Section Spec.
  Context {A : Type}.
  Definition ispec : Type := list A * gmap nat N.
  (** New position [k] := position [j] moved by [d]; it has to stay within
      begin() and end(). *)
  Definition go (s : ispec) (k j : nat) (d : Z) : option (ispec * vout A) :=
    match s.2 !! j with
    | Some p => let q := (Z.of_N p + d)%Z in
                if (0 <=? q)%Z && (q <=? Z.of_nat (length s.1))%Z
                then Some ((s.1, <[k := Z.to_N q]> s.2), ONone) else None
    | None => None
    end.
  Definition ispec_step (s : ispec) (o : iop A) : option (ispec * vout A) :=
    match o with
    | IBegin k => Some ((s.1, <[k := 0]> s.2), ONone)
    | IEnd k => Some ((s.1, <[k := nlen s.1]> s.2), ONone)
    | IPlus k j n => go s k j (Z.of_N n)
    | IMinus k j n => go s k j (- Z.of_N n)
    | IInc k => go s k k 1
    | IDec k => go s k k (-1)
    | IPostInc t k =>
        match s.2 !! k, go s k k 1 with
        | Some p, Some (s', o) => Some ((s'.1, <[t := p]> s'.2), o)
        | _, _ => None
        end
    | IPostDec t k =>
        match s.2 !! k, go s k k (-1) with
        | Some p, Some (s', o) => Some ((s'.1, <[t := p]> s'.2), o)
        | _, _ => None
        end
    | IAddA k n => go s k k (Z.of_N n)
    | ISubA k n => go s k k (- Z.of_N n)
    | INext k =>
        match s.2 !! k with
        | Some p => match nlookup s.1 p with
                    | Some x => Some ((s.1, <[k := p + 1]> s.2), OOpt (Some x))
                    | None => Some (s, OOpt None)
                    end
        | None => None
        end
    | IRead k =>
        match s.2 !! k with
        | Some p => match nlookup s.1 p with Some x => Some (s, OElem x) | None => None end
        | None => None
        end
    | IWrite k x =>
        match s.2 !! k with
        | Some p => if p <? nlen s.1 then Some ((ninsert s.1 p x, s.2), ONone) else None
        | None => None
        end
    | IPos k => match s.2 !! k with Some p => Some (s, ONum p) | None => None end
    | IDiff k j =>
        match s.2 !! k, s.2 !! j with
        | Some p, Some q => Some (s, ONum (Z.to_N ((Z.of_N p - Z.of_N q) mod 2 ^ 64)))
        | _, _ => None
        end
    | IEq k j =>
        match s.2 !! k, s.2 !! j with
        | Some p, Some q => Some (s, OBool (p =? q))
        | _, _ => None
        end
    | ICmp k j =>
        match s.2 !! k, s.2 !! j with
        | Some p, Some q => Some (s, OCmp (p ?= q))
        | _, _ => None
        end
    end.
End Spec.

Section Props.
  Context {A : Type} (dflt : A) (eqb : A -> A -> bool) (cmp : A -> A -> comparison).
  Context (sz lmax : N) (Hsz : 1 <= sz) (Hlim : sz * (2 * lmax + 2) <= alloc_max).
  Notation good := (good dflt eqb cmp lmax).
  Notation vrun := (vec_run sz dflt eqb cmp).
  Notation vrep := (vrep sz lmax).

  (** ** C57 *)
  Lemma into_iter_move_ok (h : heap (block A)) it (ys : list A) fp : hwf h -> iirep sz lmax h it ys fp ->
    exists it1 it2 h', into_iter_move sz it h = Ok ((it1, it2), h') /\
      iirep sz lmax h' it1 ys fp /\ upd h h' fp fp /\
      v_ptr (ii_vec it2) = None /\ v_cap (ii_vec it2) = 0 /\ v_len (ii_vec it2) = 0 /\ ii_pos it2 = 0 /\ ii_len it2 = ii_len it.
  Proof using Hsz Hlim. clear dflt eqb cmp.
    intros Hwf Hi.
    destruct (new_default_ok sz lmax Hsz Hlim h Hwf) as (v0 & h1 & fp1 & E1 & Hr1 & Hu1).
    destruct (clear_ok sz lmax Hsz Hlim _ _ _ _ (upd_wf _ _ _ _ Hu1) Hr1) as (h2 & E2 & _ & Hu2 & _).
    assert (Hu : upd h h2 [] []) by by eapply upd_trans.
    unfold into_iter_move. rewrite (bind_ok _ _ _ _ _ E1). unfold move_assign.
    rewrite bind_bind, (bind_ok _ _ _ _ _ E2). unfold move_impl. rewrite bind_ret. unfold ret.
    do 3 eexists. split; [reflexivity|]. cbn [ii_vec ii_pos ii_len v_ptr v_cap v_len].
    assert (Hfp : forall a, a ∈ fp -> is_Some (hmap h !! a)).
    { intros a Ha. destruct Hi as [(_&_&Hr)|(b&k&m&Hp&->&_&_&_&_&_&_&Hb)]; [by eapply vrep_dom|].
      apply elem_of_list_singleton in Ha as ->. eauto. }
    assert (Hfr : forall a, a ∈ fp -> hmap h2 !! a = hmap h !! a).
    { intros a Ha. apply (upd_frame _ _ _ _ Hu); [by apply Hwf, Hfp|set_solver]. }
    split; [|split; [|done]].
    - destruct Hi as [(He&->&Hr)|(b&k&m&Hp&->&Hne&Hm&Hl&Hc&Hpos&Hlen&Hb)].
      + left. cbn [ii_vec ii_pos ii_len]. split; [rewrite (proj1 Hr); cbn; lia|]. split; [done|].
        eapply vrep_frame; [|exact Hfr]. by destruct (ii_vec it).
      + right. exists b, k, m. cbn [ii_vec ii_pos ii_len v_ptr v_cap v_len v_alloc].
        repeat (split; [done|]). by rewrite Hfr by set_solver.
    - pose proof (upd_frame_r _ _ _ _ fp Hwf Hu) as H. cbn in H. apply H.
      intros a Ha. split; [by apply Hfp|set_solver].
  Qed.

  (** A consuming iterator moved after [n] steps goes on where it was; dropping
      both iterators releases everything.  Missing: [next()] of the source
      afterwards. *)
  Theorem C57_move_partial ops s outs w i v xs n m :
    good ops s outs -> vrun ops = Ok (outs, w) -> w_vars w !! i = Some v -> s !! i = Some xs ->
    exists it1 h1 it2 src h2 it3 h3 h4 h5,
      into_take sz n (into_iter_new v).1 (w_heap w) =
        Ok (((Some <$> take n xs) ++ replicate (n - length xs) None, it1), h1) /\
      into_iter_move sz it1 h1 = Ok ((it2, src), h2) /\
      into_take sz m it2 h2 =
        Ok (((Some <$> take m (drop n xs)) ++ replicate (m - length (drop n xs)) None, it3), h3) /\
      into_iter_drop sz src h3 = Ok (tt, h4) /\
      into_iter_drop sz it3 h4 = Ok (tt, h5) /\ hmap h5 = without (hmap (w_heap w)) v.
  Proof using Hsz Hlim.
    intros Hg E Hv Hx. pose proof (good_wok dflt eqb cmp sz lmax Hsz Hlim _ _ _ _ _ Hg E) as Hw.
    destruct (wok_var _ _ _ _ _ _ Hw Hv) as (xs' & fp & Hs & Hr & Hwf).
    rewrite Hx in Hs. injection Hs as <-.
    destruct (iirep_new sz lmax _ _ _ _ Hr) as [Hi Hz].
    destruct (into_take_ok sz lmax Hsz Hlim n _ _ _ _ Hwf Hi) as (it1&h1&fp1&E1&Hi1&Hu1).
    pose proof (upd_wf _ _ _ _ Hu1) as Hwf1.
    destruct (into_iter_move_ok _ _ _ _ Hwf1 Hi1) as (it2&src&h2&E2&Hi2&Hu2&Hs1&Hs2&Hs3&_).
    pose proof (upd_wf _ _ _ _ Hu2) as Hwf2.
    destruct (into_take_ok sz lmax Hsz Hlim m _ _ _ _ Hwf2 Hi2) as (it3&h3&fp3&E3&Hi3&Hu3).
    pose proof (upd_wf _ _ _ _ Hu3) as Hwf3.
    assert (E4 : into_iter_drop sz src h3 = Ok (tt, h3)).
    { unfold into_iter_drop, clear, destroy_all, deallocate, bind, ret, dealloc_raw. rewrite Hs3. cbn. by rewrite Hs1. }
    destruct (iirep_drop sz lmax Hsz Hlim _ _ _ _ Hwf3 Hi3) as (h5&E5&Hu5).
    exists it1, h1, it2, src, h2, it3, h3, h3, h5. repeat (split; [done|]).
    eapply (upd_without sz lmax); [done|done|].
    eapply upd_trans; [done|exact Hu1|]. eapply upd_trans; [done|exact Hu2|]. by eapply upd_trans.
  Qed.
  (** [next()] on the source of a move is undefined unless the iterator was
      exhausted from the start. *)
  Theorem C57_source_undefined ops s outs w i v xs n :
    good ops s outs -> vrun ops = Ok (outs, w) -> w_vars w !! i = Some v -> s !! i = Some xs -> xs <> [] ->
    exists os it1 h1 it2 src h2,
      into_take sz n (into_iter_new v).1 (w_heap w) = Ok ((os, it1), h1) /\
      into_iter_move sz it1 h1 = Ok ((it2, src), h2) /\
      forall h : heap (block A), into_iter_next sz src h = Err UB.
  Proof using Hsz Hlim.
    intros Hg E Hv Hx Hne. pose proof (good_wok dflt eqb cmp sz lmax Hsz Hlim _ _ _ _ _ Hg E) as Hw.
    destruct (wok_var _ _ _ _ _ _ Hw Hv) as (xs' & fp & Hs & Hr & Hwf).
    rewrite Hx in Hs. injection Hs as <-.
    destruct (iirep_new sz lmax _ _ _ _ Hr) as [Hi Hz].
    destruct (into_take_ok sz lmax Hsz Hlim n _ _ _ _ Hwf Hi) as (it1&h1&fp1&E1&Hi1&Hu1).
    destruct (into_iter_move_ok _ _ _ _ (upd_wf _ _ _ _ Hu1) Hi1) as (it2&src&h2&E2&_&_&Hs1&_&_&Hs4&Hs5).
    do 6 eexists. split; [exact E1|]. split; [exact E2|]. intros h. unfold into_iter_next.
    rewrite Hs4, Hs5, Hs1.
    assert (Hl : forall k it (h : heap (block A)) os it' h', into_take sz k it h = Ok ((os, it'), h') -> ii_len it' = ii_len it).
    { clear. induction k as [|k IH]; intros it h os it' h'; simpl.
      { by intros [= <- <- <-]. }
      unfold bind, ret. destruct (into_iter_next sz it h) as [[[o it1] h1]|] eqn:E1; [|done].
      destruct (into_take sz k it1 h1) as [[[os' it2] h2]|] eqn:E2; [|done].
      intros [= <- <- <-]. apply IH in E2. rewrite E2. unfold into_iter_next, bind, ret in E1.
      destruct (_ <? _); [|by injection E1 as <- <- <-].
      destruct (vmove _ _ _) as [[? ?]|]; [|done]. destruct (_ =? _).
      - destruct (clear _ _ _) as [[? ?]|]; [|done]. by injection E1 as <- <- <-.
      - by injection E1 as <- <- <-. }
    rewrite (Hl _ _ _ _ _ _ E1). cbn [into_iter_new move_impl fst ii_len].
    change (ii_len (into_iter_new v).1) with (v_len v). rewrite (proj1 Hr).
    assert (0 < nlen xs) by (unfold nlen; destruct xs; [done|simpl; lia]).
    by rewrite (proj2 (N.ltb_lt _ _)).
  Qed.

  (** ** C58 *)
  Notation istep := (ispec_step (A := A)).
  Definition itrel (h0 : heap (block A)) (v : vec) (fp : list N) (s : ispec) (w : world (block A) viter) : Prop :=
    hwf h0 /\ hwf (w_heap w) /\ vrep (w_heap w) v s.1 fp /\ upd h0 (w_heap w) fp fp /\
    forall k, w_vars w !! k = (fun p => VIter (v_ptr v) p (v_len v)) <$> s.2 !! k /\
              forall p, s.2 !! k = Some p -> p <= nlen s.1.

  Lemma ptr_at_ok (h : heap (block A)) v (xs : list A) fp k : vrep h v xs fp -> (0 <= k <= Z.of_nat (length xs))%Z ->
    ptr_at (v_ptr v) k h = Ok (Z.to_N k, h).
  Proof using Type. clear dflt eqb cmp Hsz Hlim.
    intros (Hl & Hc & Hm & Hp) Hk. unfold ptr_at. destruct (v_ptr v) as [a|].
    - destruct Hp as [_ Hb]. unfold bind, hread. rewrite Hb. cbn [b_cells].
      unfold vcells. rewrite app_length, fmap_length.
      rewrite (proj2 (Z.leb_le _ _)), (proj2 (Z.leb_le _ _)) by lia. done.
    - destruct Hp as [Hc0 _]. unfold nlen in Hl. assert (k = 0%Z) as -> by lia. done.
  Qed.
  Lemma itrel_goto h0 v fp s w k j d s' o : itrel h0 v fp s w -> go s k j d = Some (s', o) ->
    exists p, s.2 !! j = Some p /\ wget j w = Ok (VIter (v_ptr v) p (v_len v), w) /\
      it_goto (VIter (v_ptr v) p (v_len v)) (Z.of_N p + d) (w_heap w) =
        Ok (VIter (v_ptr v) (Z.to_N (Z.of_N p + d)) (v_len v), w_heap w) /\
      o = ONone /\ s' = (s.1, <[k := Z.to_N (Z.of_N p + d)]> s.2) /\
      itrel h0 v fp s' (World (w_heap w) (<[k := VIter (v_ptr v) (Z.to_N (Z.of_N p + d)) (v_len v)]> (w_vars w))).
  Proof using Type. clear dflt eqb cmp Hsz Hlim.
    intros (H0 & H1 & Hr & Hu & Hk). unfold go. destruct (s.2 !! j) as [p|] eqn:Ej; [|done].
    destruct (Z.leb_spec 0 (Z.of_N p + d)); [|done]. destruct (Z.leb_spec (Z.of_N p + d) (Z.of_nat (length s.1))); [|done].
    cbn [andb]. intros [= <- <-]. exists p. split; [done|]. split.
    { unfold wget. destruct (Hk j) as [-> _]. by rewrite Ej. }
    split. { unfold it_goto. cbn [vi_ptr vi_end]. rewrite (bind_ok _ _ _ _ _ (ptr_at_ok _ _ _ _ (Z.of_N p + d) Hr ltac:(lia))). done. }
    split; [done|]. split; [done|]. split; [done|]. split; [done|]. split; [done|]. split; [done|].
    cbn [fst snd w_vars]. intros i. destruct (decide (i = k)) as [->|Hne].
    - rewrite !lookup_insert. split; [done|]. intros q [= <-]. unfold nlen. lia.
    - rewrite !lookup_insert_ne by done. apply Hk.
  Qed.
  Lemma itrel_insert h0 v fp s w k p : itrel h0 v fp s w -> p <= nlen s.1 ->
    itrel h0 v fp (s.1, <[k := p]> s.2) (World (w_heap w) (<[k := VIter (v_ptr v) p (v_len v)]> (w_vars w))).
  Proof using Type. clear dflt eqb cmp Hsz Hlim.
    intros (H0 & H1 & Hr & Hu & Hk) Hp. split; [done|]. split; [done|]. split; [done|]. split; [done|].
    cbn [fst snd w_vars]. intros i. destruct (decide (i = k)) as [->|Hne].
    - rewrite !lookup_insert. split; [done|]. by intros q [= <-].
    - rewrite !lookup_insert_ne by done. apply Hk.
  Qed.
  Lemma itrel_get h0 v fp s w k p : itrel h0 v fp s w -> s.2 !! k = Some p ->
    wget k w = Ok (VIter (v_ptr v) p (v_len v), w) /\ p <= nlen s.1.
  Proof using Type. clear dflt eqb cmp Hsz Hlim.
    intros (_ & _ & _ & _ & Hk) E. destruct (Hk k) as [H1 H2]. split; [|by apply H2].
    unfold wget. by rewrite H1, E.
  Qed.
  Lemma lift_ok {C O X} (m : M (heap C) X) (w : world C O) x h : m (w_heap w) = Ok (x, h) ->
    lift m w = Ok (x, World h (w_vars w)).
  Proof using Type. clear. unfold lift. by intros ->. Qed.

  Lemma iter_step_ok h0 v fp s w o s' x : itrel h0 v fp s w -> istep s o = Some (s', x) ->
    exists w', iter_step v o w = Ok (x, w') /\ itrel h0 v fp s' w'.
  Proof using Hsz Hlim. clear dflt eqb cmp.
    intros Hrel. pose proof Hrel as (H0 & H1 & Hr & Hu & Hk).
    assert (Hgo : forall k j d f, (forall it, f it = it_goto it (Z.of_N (vi_cur it) + d)) ->
      go s k j d = Some (s', x) -> exists w', upd_it k j f w = Ok (x, w') /\ itrel h0 v fp s' w').
    { intros k j d f Hf E. destruct (itrel_goto _ _ _ _ _ _ _ _ _ _ Hrel E) as (p & Ej & Eg & Et & -> & -> & Hrel').
      eexists. split; [|exact Hrel']. unfold upd_it. rewrite (bind_ok _ _ _ _ _ Eg).
      rewrite Hf. cbn [vi_cur]. by rewrite (bind_ok _ _ _ _ _ (lift_ok _ _ _ _ Et)). }
    assert (Hpost : forall t k d, 
      match s.2 !! k, go s k k d with
      | Some p, Some (s', o) => Some ((s'.1, <[t := p]> s'.2), o)
      | _, _ => None
      end = Some (s', x) ->
      exists w', bind (wget k) (fun old => bind (lift (it_goto old (Z.of_N (vi_cur old) + d))) (fun it1 =>
          bind (wset k it1) (fun _ => bind (wset t old) (fun _ => ret ONone)))) w = Ok (x, w') /\ itrel h0 v fp s' w').
    { intros t k d. destruct (s.2 !! k) as [p0|] eqn:E0; [|done]. destruct (go s k k d) as [[s1 o1]|] eqn:E; [|done].
      intros [= <- <-]. destruct (itrel_goto _ _ _ _ _ _ _ _ _ _ Hrel E) as (p & Ej & Eg & Et & -> & -> & Hrel').
      assert (p0 = p) as -> by congruence. cbn [fst snd].
      eexists. split; [|eapply (itrel_insert _ _ _ _ _ t p Hrel')].
      - rewrite (bind_ok _ _ _ _ _ Eg). cbn [vi_cur]. by rewrite (bind_ok _ _ _ _ _ (lift_ok _ _ _ _ Et)).
      - cbn [fst]. by apply (itrel_get _ _ _ _ _ _ _ Hrel Ej). }
    destruct o as [k|k|k j n|k j n|k|k|t k|t k|k n|k n|k|k|k y|k|k j|k j|k j]; cbn [ispec_step iter_step].
    - intros [= <- <-]. eexists. split; [reflexivity|]. apply (itrel_insert _ _ _ _ _ k 0 Hrel). lia.
    - intros [= <- <-]. eexists. split; [reflexivity|]. unfold it_end. cbn [w_heap w_vars].
      rewrite (proj1 Hr) at 1. by apply (itrel_insert _ _ _ _ _ k (nlen s.1) Hrel).
    - by apply Hgo.
    - by apply Hgo.
    - by apply Hgo.
    - by apply Hgo.
    - apply Hpost.
    - apply Hpost.
    - by apply Hgo.
    - by apply Hgo.
    - destruct (s.2 !! k) as [p|] eqn:Ek; [|done]. destruct (itrel_get _ _ _ _ _ _ _ Hrel Ek) as [Eg Hp].
      rewrite (bind_ok _ _ _ _ _ Eg). unfold viter_next. cbn [vi_cur vi_end vi_ptr].
      destruct (nlookup s.1 p) as [y|] eqn:El; intros [= <- <-].
      + pose proof El as Hlt. rewrite nlookup_lookup in Hlt. apply lookup_lt_Some in Hlt.
        destruct (N.eqb_spec p (v_len v)) as [He|_]; [rewrite (proj1 Hr) in He; unfold nlen in He; lia|]. cbn [negb].
        erewrite (bind_ok (lift _)); [|apply lift_ok; rewrite (bind_ok _ _ _ _ _ (vread_nlookup sz lmax _ _ _ _ _ _ Hr El)); reflexivity].
        eexists. split; [reflexivity|]. apply (itrel_insert _ _ _ _ _ k (p + 1) Hrel). unfold nlen. lia.
      + rewrite nlookup_lookup in El. apply lookup_ge_None in El.
        destruct (N.eqb_spec p (v_len v)) as [_|He]; [|rewrite (proj1 Hr) in He; unfold nlen in He, Hp; lia].
        cbn [negb]. eexists. split; [reflexivity|]. cbn [w_heap w_vars].
        rewrite insert_id; [by destruct w|]. destruct (Hk k) as [-> _]. by rewrite Ek.
    - destruct (s.2 !! k) as [p|] eqn:Ek; [|done]. destruct (nlookup s.1 p) as [y|] eqn:El; [|done]. intros [= <- <-].
      destruct (itrel_get _ _ _ _ _ _ _ Hrel Ek) as [Eg Hp]. rewrite (bind_ok _ _ _ _ _ Eg). unfold it_read. cbn [vi_cur vi_ptr].
      rewrite (bind_ok _ _ _ _ _ (lift_ok _ _ _ _ (vread_nlookup sz lmax _ _ _ _ _ _ Hr El))).
      exists w. split; [by destruct w|done].
    - destruct (s.2 !! k) as [p|] eqn:Ek; [|done]. destruct (N.ltb_spec p (nlen s.1)) as [Hp|]; [|done]. intros [= <- <-].
      destruct (itrel_get _ _ _ _ _ _ _ Hrel Ek) as [Eg _]. rewrite (bind_ok _ _ _ _ _ Eg). unfold it_write. cbn [vi_cur vi_ptr].
      unfold nlen in Hp. destruct (lookup_lt_is_Some_2 s.1 (N.to_nat p)) as [z Hz]; [lia|].
      pose proof (take_drop_middle _ _ _ Hz) as Hsp.
      assert (Hlt : nlen (take (N.to_nat p) s.1) = p) by (unfold nlen; rewrite take_length; lia).
      rewrite <-Hsp in Hr.
      destruct (set_index_ok sz lmax _ _ _ _ _ y _ H1 Hr) as (h' & E & Hr' & Hu').
      rewrite Hlt in E. unfold set_index in E. rewrite (bind_ok _ _ _ _ _ (lift_ok _ _ _ _ E)).
      eexists. split; [reflexivity|]. 
      assert (Hins : ninsert s.1 p y = take (N.to_nat p) s.1 ++ y :: drop (S (N.to_nat p)) s.1).
      { unfold ninsert. rewrite <-Hsp at 1. rewrite insert_app_r_alt by (rewrite take_length; lia).
        rewrite take_length, Nat.min_l, Nat.sub_diag by lia. done. }
      split; [done|]. cbn [w_heap w_vars fst snd]. split; [apply (upd_wf _ _ _ _ Hu')|]. rewrite Hins.
      split; [done|]. split; [by eapply upd_trans|].
      intros i. destruct (Hk i) as [Ha Hb]. split; [done|]. intros q Hq. specialize (Hb q Hq).
      rewrite <-Hsp in Hb. unfold nlen in *. rewrite app_length in *. done.
    - destruct (s.2 !! k) as [p|] eqn:Ek; [|done]. intros [= <- <-].
      destruct (itrel_get _ _ _ _ _ _ _ Hrel Ek) as [Eg _]. rewrite (bind_ok _ _ _ _ _ Eg). by exists w.
    - destruct (s.2 !! k) as [p|] eqn:Ek; [|done]. destruct (s.2 !! j) as [q|] eqn:Ej; [|done]. intros [= <- <-].
      destruct (itrel_get _ _ _ _ _ _ _ Hrel Ek) as [Eg Hp]. rewrite (bind_ok _ _ _ _ _ Eg).
      destruct (itrel_get _ _ _ _ _ _ _ Hrel Ej) as [Eg' Hq]. rewrite (bind_ok _ _ _ _ _ Eg').
      exists w. split; [|done]. unfold it_diff. cbn [vi_ptr vi_cur].
      rewrite decide_True by done. unfold lift, bind, ret. destruct w as [hh vv]. cbn. do 4 f_equal.
      destruct Hr as (Hl & Hc & Hm & _). destruct (cmax_W sz lmax Hsz Hlim (v_cap v) Hm) as (_&_&HW).
      unfold usub. apply N2Z.inj. rewrite Z2N.id by (apply Z.mod_pos_bound; lia).
      rewrite N2Z.inj_mod, N2Z.inj_sub, N2Z.inj_add by lia. unfold W.
      replace (Z.of_N p + Z.of_N 18446744073709551616 - Z.of_N q)%Z with (Z.of_N p - Z.of_N q + 1 * 2 ^ 64)%Z by lia.
      change (Z.of_N 18446744073709551616) with (2 ^ 64)%Z. by rewrite Z_mod_plus_full.
    - destruct (s.2 !! k) as [p|] eqn:Ek; [|done]. destruct (s.2 !! j) as [q|] eqn:Ej; [|done]. intros [= <- <-].
      destruct (itrel_get _ _ _ _ _ _ _ Hrel Ek) as [Eg Hp]. rewrite (bind_ok _ _ _ _ _ Eg).
      destruct (itrel_get _ _ _ _ _ _ _ Hrel Ej) as [Eg' Hq]. rewrite (bind_ok _ _ _ _ _ Eg').
      exists w. split; [|done]. unfold it_eq, ret. cbn [vi_ptr vi_cur vi_end].
      rewrite bool_decide_eq_true_2 by done. by rewrite N.eqb_refl, andb_true_r.
    - destruct (s.2 !! k) as [p|] eqn:Ek; [|done]. destruct (s.2 !! j) as [q|] eqn:Ej; [|done]. intros [= <- <-].
      destruct (itrel_get _ _ _ _ _ _ _ Hrel Ek) as [Eg Hp]. rewrite (bind_ok _ _ _ _ _ Eg).
      destruct (itrel_get _ _ _ _ _ _ _ Hrel Ej) as [Eg' Hq]. rewrite (bind_ok _ _ _ _ _ Eg').
      exists w. split; [|done]. unfold it_cmp. cbn [vi_ptr vi_cur].
      rewrite decide_True by done. unfold lift, bind, ret. by destruct w.
  Qed.
  Lemma iter_run_ok h0 v fp iops : forall s w s' os, itrel h0 v fp s w -> spec_run istep s iops = Some (s', os) ->
    exists w', run_ops (iter_step v) iops w = Ok (os, w') /\ itrel h0 v fp s' w'.
  Proof using Hsz Hlim. clear dflt eqb cmp.
    induction iops as [|o iops IH]; intros s w s' os Hr; simpl.
    { intros [= <- <-]. by exists w. }
    destruct (istep s o) as [[s1 x]|] eqn:E; [|done]. destruct (spec_run istep s1 iops) as [[s2 xs]|] eqn:E2; [|done].
    intros [= <- <-]. destruct (iter_step_ok _ _ _ _ _ _ _ _ Hr E) as (w1 & E1 & Hr1).
    destruct (IH _ _ _ _ Hr1 E2) as (w2 & E3 & Hr2). exists w2. split; [|done].
    rewrite (bind_ok _ _ _ _ _ E1). by rewrite (bind_ok _ _ _ _ _ E3).
  Qed.

  (** Any program with any number of iterators into one vector of any
      reachable state behaves as index arithmetic on its sequence, and writes
      through iterators are writes to that sequence.  Missing: comparing iterators
      taken at different sizes of the vector. *)
  Theorem C58_random_access_partial ops s outs w i v xs iops xs' ps os :
    good ops s outs -> vrun ops = Ok (outs, w) -> w_vars w !! i = Some v -> s !! i = Some xs ->
    spec_run istep (xs, ∅) iops = Some ((xs', ps), os) ->
    exists w', run_ops (iter_step v) iops (World (w_heap w) ∅) = Ok (os, w') /\
      collect v (w_heap w') = Ok (xs', w_heap w') /\
      forall j u ys, j <> i -> w_vars w !! j = Some u -> s !! j = Some ys -> collect u (w_heap w') = Ok (ys, w_heap w').
  Proof using Hsz Hlim.
    intros Hg E Hv Hx Hs. pose proof (good_wok dflt eqb cmp sz lmax Hsz Hlim _ _ _ _ _ Hg E) as Hw.
    destruct (wok_var _ _ _ _ _ _ Hw Hv) as (xs0 & fp & Hs0 & Hr & Hwf).
    rewrite Hx in Hs0. injection Hs0 as <-.
    destruct (iter_run_ok (w_heap w) v fp iops (xs, ∅) (World (w_heap w) ∅) (xs', ps) os) as (w' & E1 & Hrel); [|exact Hs|].
    { split; [done|]. split; [done|]. split; [done|]. split; [apply upd_refl; [done|]; intros; by eapply vrep_dom|].
      cbn [w_vars snd]. intros k. rewrite !lookup_empty. done. }
    exists w'. split; [done|]. destruct Hrel as (_ & Hwf' & Hr' & Hu & _). cbn [fst] in Hr'.
    split; [by eapply (collect_ok sz lmax)|].
    intros j u ys Hne Hu' Hys. destruct (wok_var _ _ _ _ _ _ Hw Hu') as (ys0 & fp2 & Hs2 & Hr2 & _).
    rewrite Hys in Hs2. injection Hs2 as <-.
    eapply (collect_ok sz lmax). eapply vrep_frame; [exact Hr2|]. intros a Ha.
    assert (is_Some (hmap (w_heap w) !! a)) as Ha' by by eapply vrep_dom.
    apply (upd_frame _ _ _ _ Hu); [by apply Hwf|]. intros Hin.
    destruct Hr as (_&_&_&Hp), Hr2 as (_&_&_&Hp2).
    destruct (v_ptr v) as [b|] eqn:Eb, (v_ptr u) as [b'|] eqn:Eb'; try (destruct Hp as [_ ->]; set_solver); try (destruct Hp2 as [_ ->]; set_solver).
    destruct Hp as [-> _], Hp2 as [-> _]. apply elem_of_list_singleton in Ha, Hin. subst.
    by apply (wok_no_share sz lmax _ _ _ _ _ _ _ Hw Hu' Hv Hne Eb' Eb).
  Qed.
  (** [push_back] below the capacity leaves iterators usable. *)
  Theorem C58_push_keeps ops s outs w i v xs x k :
    good ops s outs -> vrun ops = Ok (outs, w) -> w_vars w !! i = Some v -> s !! i = Some xs ->
    size v < capacity v -> nlen xs < lmax -> k < nlen xs ->
    exists v' h' y, push_back sz v x (w_heap w) = Ok (v', h') /\ nlookup xs k = Some y /\
      it_read (VIter (v_ptr v) k (v_len v)) h' = Ok (y, h').
  Proof using Hsz Hlim.
    intros Hg E Hv Hx Hc Hl Hk. pose proof (good_wok dflt eqb cmp sz lmax Hsz Hlim _ _ _ _ _ Hg E) as Hw.
    destruct (wok_var _ _ _ _ _ _ Hw Hv) as (xs0 & fp & Hs0 & Hr & Hwf).
    rewrite Hx in Hs0. injection Hs0 as <-.
    destruct (push_back_full sz lmax Hsz Hlim _ _ _ _ x Hwf Hr ltac:(lia)) as (v'&h'&fp'&E1&Hr'&Hu&_&H1&H2).
    destruct (lookup_lt_is_Some_2 xs (N.to_nat k)) as [y Hy]; [unfold nlen in Hk; lia|].
    exists v', h', y. split; [done|]. rewrite nlookup_lookup. split; [done|].
    unfold it_read. cbn [vi_ptr vi_cur]. destruct H1 as (_ & H1 & _); [done|]. rewrite <-H1.
    eapply (vread_nlookup sz lmax); [done|]. rewrite nlookup_lookup. by apply lookup_app_l_Some.
  Qed.
End Props.

(** ** Refutations and examples *)
Definition mv_ops : list (vop N) := [VNewList 0 0 [4; 5; 6; 7]; VReserve 0 10; VPush 0 8].
Lemma mv_good : Ngood mv_ops (Nend mv_ops) (Nouts mv_ops).
Proof. apply goodb_ok. vm_compute. done. Qed.
Lemma mv_run : match Nrun mv_ops with
  | Ok (o, w) => o = Nouts mv_ops /\ w_vars w !! 0%nat = Some (Vec 5 10 (Some 1) 0)
  | Err _ => False end.
Proof. vm_compute. done. Qed.
Lemma mv_end : Nend mv_ops !! 0%nat = Some [4; 5; 6; 7; 8].
Proof. vm_compute. done. Qed.

(** The full claim of C57: the source of a move gives nothing more. *)
Definition C57_full := forall ops s outs w i v n,
  Ngood ops s outs -> Nrun ops = Ok (outs, w) -> w_vars w !! i = Some v ->
  exists os it1 h1 it2 src h2,
    into_take 8 n (into_iter_new v).1 (w_heap w) = Ok ((os, it1), h1) /\
    into_iter_move 8 it1 h1 = Ok ((it2, src), h2) /\
    exists src' h3, into_iter_next 8 src h2 = Ok ((None, src'), h3).
Theorem C57_refuted : ~ C57_full.
Proof.
  intros H. pose proof mv_run as Hr. destruct (Nrun mv_ops) as [[o w]|] eqn:E; [|done]. destruct Hr as [-> Hv].
  destruct (H _ _ _ w 0%nat _ 2%nat mv_good E Hv) as (os & it1 & h1 & it2 & src & h2 & E1 & E2 & src' & h3 & E3).
  destruct (C57_source_undefined 0 N.eqb N.compare 8 100 ltac:(done) ltac:(done) _ _ _ w 0%nat _ _ 2%nat mv_good E Hv mv_end ltac:(done))
    as (os' & it1' & h1' & it2' & src2 & h2' & E1' & E2' & E3').
  rewrite E1 in E1'. injection E1' as <- <- <-. rewrite E2 in E2'. injection E2' as <- <- <-.
  by rewrite E3' in E3.
Qed.
Example C57_ex : match Nrun mv_ops with
  | Ok (_, w) => match w_vars w !! 0%nat with
    | Some v => match (r <-- into_take 8 2 (into_iter_new v).1 ;; '(it2, _) <-- into_iter_move 8 r.2 ;;
                       r2 <-- into_take 8 4 it2 ;; ret (r.1 ++ r2.1)) (w_heap w) with
                | Ok (os, _) => os = [Some 4; Some 5; Some 6; Some 7; Some 8; None] | Err _ => False end
    | None => False end
  | Err _ => False end.
Proof. vm_compute. done. Qed.

Definition ex_iops : list (iop N) :=
  [IBegin 0; IEnd 1; IDiff 1 0; IDiff 0 1; IPlus 2 0 3; IRead 2; IWrite 2 70; IMinus 3 1 2; IEq 2 3; IRead 3; ICmp 0 3;
   IPostInc 4 0; IRead 4; IRead 0; IAddA 0 4; IEq 0 1; INext 0; IDec 0; INext 0; ISubA 0 5; IPos 0].
Example C58_ex : match spec_run ispec_step ([4; 5; 6; 7; 8], ∅) ex_iops with
  | Some ((xs, _), os) => xs = [4; 5; 6; 70; 8] /\
      os = [ONone; ONone; ONum 5; ONum 18446744073709551611; ONone; OElem 7; ONone; ONone; OBool true; OElem 70; OCmp Lt;
            ONone; OElem 4; OElem 5; ONone; OBool true; OOpt None; ONone; OOpt (Some 8); ONone; ONum 0]
  | None => False end.
Proof. vm_compute. done. Qed.
Example C58_ex_push : match Nrun mv_ops with
  | Ok (_, w) => match w_vars w !! 0%nat with
    | Some v => size v < capacity v /\ match push_back 8 v 9 (w_heap w) with
         | Ok (v', h') => it_read (VIter (v_ptr v) 2 (v_len v)) h' = Ok (6, h') | Err _ => False end
    | None => False end
  | Err _ => False end.
Proof. vm_compute. done. Qed.

(** The full claim of C58 also covers iterators taken before and after a
    [push_back] that did not reallocate: equal positions compare equal. *)
Definition C58_full := forall ops s outs w i v x v' h',
  Ngood ops s outs -> Nrun ops = Ok (outs, w) -> w_vars w !! i = Some v -> size v < capacity v ->
  push_back 8 v x (w_heap w) = Ok (v', h') -> it_eq (it_begin v) (it_begin v') = true.
Theorem C58_refuted : ~ C58_full.
Proof.
  intros H. pose proof C58_ex_push as Hr. pose proof mv_run as Hr'.
  destruct (Nrun mv_ops) as [[o w]|] eqn:E; [|done]. destruct Hr' as [-> Hv]. rewrite Hv in Hr. destruct Hr as [Hlt Hr].
  destruct (push_back 8 (Vec 5 10 (Some 1) 0) 9 (w_heap w)) as [[v' h']|] eqn:Ep; [|done].
  specialize (H _ _ _ w 0%nat _ 9 v' h' mv_good E Hv Hlt Ep).
  unfold it_eq, it_begin in H. cbn [vi_end v_len vi_ptr vi_cur] in H.
  rewrite !andb_true_iff in H. destruct H as [_ H]. apply N.eqb_eq in H.
  unfold push_back, push_back_m, bind, ret in Ep. cbn in Ep.
  destruct (vconstruct _ _ _ _) as [[? ?]|]; [|done]. injection Ep as <- <-. discriminate H.
Qed.
(** What happens to them: they never compare equal, wherever they point. *)
Theorem C58_stale_never_equal v v' a b : v_len v <> v_len v' -> 
  it_eq (VIter (v_ptr v) a (v_len v)) (VIter (v_ptr v') b (v_len v')) = false.
Proof.
  intros Hne. unfold it_eq. cbn [vi_end]. destruct (N.eqb_spec (v_len v) (v_len v')); [done|]. by rewrite andb_false_r.
Qed.

Print Assumptions C57_move_partial.
Print Assumptions C57_source_undefined.
Print Assumptions C57_refuted.
Print Assumptions C58_random_access_partial.
Print Assumptions C58_push_keeps.
Print Assumptions C58_refuted.
Print Assumptions C58_stale_never_equal.
