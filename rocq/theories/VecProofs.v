(** * VecProofs: representation invariant and one lemma per Vector function *)
From Verif Require Import Base World VecModel VecSpec VecFacts.
Local Open Scope N_scope.

Section UpdMaps.
  Context {C : Type}.
  Implicit Types h : heap C.

  Lemma upd_alloc_map h h' c :
    hwf h -> hmap h' = <[hnext h := c]> (hmap h) -> hnext h' = hnext h + 1 ->
    upd h h' [] [hnext h].
  Proof.
    intros Hwf Hm Hn.
    assert (halloc c h = Ok (hnext h, Heap (<[hnext h := c]> (hmap h)) (hnext h + 1) (hmoves h)))
      as Ha by done.
    apply (upd_alloc _ _ _ _ Hwf) in Ha as [Hu _].
    destruct Hu as [N1 F1 E1 D1 W1]. simpl in *.
    split; rewrite ?Hm, ?Hn; try done.
    intros a. rewrite Hm, Hn. apply W1.
  Qed.

  Lemma upd_realloc_map h h' c a :
    hwf h -> is_Some (hmap h !! a) ->
    hmap h' = <[hnext h := c]> (delete a (hmap h)) -> hnext h' = hnext h + 1 ->
    upd h h' [a] [hnext h].
  Proof.
    intros Hwf Ha Hm Hn.
    set (h1 := Heap (delete a (hmap h)) (hnext h) (hmoves h)).
    eapply (upd_trans h h1 h' [a] [] [hnext h]); [done| |].
    - by apply upd_free_map.
    - change (hnext h) with (hnext h1). eapply upd_alloc_map; [|done|done].
      intros b. simpl. rewrite lookup_delete_is_Some. intros [_ ?]. by apply Hwf.
  Qed.

  Lemma upd_fp_dom h h' fp fp' : upd h h' fp fp' -> forall a, a ∈ fp' -> is_Some (hmap h' !! a).
  Proof. intros Hu a Ha. apply (upd_dom _ _ _ _ Hu). by right. Qed.
End UpdMaps.

Section VecProofs.
  Context {A : Type} (sz lmax : N).
  Context (Hsz : 1 <= sz) (Hlim : sz * (2 * lmax + 2) <= alloc_max).
  Implicit Types (h : heap (block A)) (v : vec) (xs ys : list A) (fp : list N).

  Notation VM := (M (heap (block A))).

  Definition vcells xs (cap : N) : list (cell A) :=
    (Live <$> xs) ++ replicate (N.to_nat cap - length xs) Raw.

  (** [v] holds exactly the sequence [xs]; [fp] is the block it owns. *)
  Definition vrep h v xs fp : Prop :=
    v_len v = nlen xs /\ v_len v <= v_cap v /\ v_cap v <= 2 * lmax + 2 /\
    match v_ptr v with
    | None => v_cap v = 0 /\ fp = []
    | Some a => fp = [a] /\
        hmap h !! a = Some (Blk (v_alloc v) (sz * v_cap v) (vcells xs (v_cap v)))
    end.

  Lemma vrep_frame h h' v xs fp :
    vrep h v xs fp -> (forall a, a ∈ fp -> hmap h' !! a = hmap h !! a) -> vrep h' v xs fp.
  Proof using Type. clear Hsz Hlim.
    unfold vrep. intros (?&?&?&Hp) Hf. repeat split; try done.
    destruct (v_ptr v) as [a|]; [|done]. destruct Hp as [-> Hp]. split; [done|].
    rewrite Hf; [done|]. set_solver.
  Qed.

  Lemma vrep_dom h v xs fp a : vrep h v xs fp -> a ∈ fp -> is_Some (hmap h !! a).
  Proof using Type. clear Hsz Hlim.
    unfold vrep. intros (?&?&?&Hp) Hf.
    destruct (v_ptr v) as [b|]; destruct Hp as [? Hp]; subst; [|set_solver].
    apply elem_of_list_singleton in Hf as ->. eauto.
  Qed.

  Lemma cmax_W n : n <= 2 * lmax + 2 -> sz * n <= alloc_max /\ sz * n < W /\ n < W.
  Proof.
    intros Hn. assert (sz * n <= sz * (2 * lmax + 2)) by (apply N.mul_le_mono_l; done).
    assert (n <= sz * n) by nia. unfold alloc_max, W in *. lia.
  Qed.

  Lemma umul_sz n : n <= 2 * lmax + 2 -> umul sz n = sz * n.
  Proof. intros Hn. apply umul_small. apply cmax_W in Hn. lia. Qed.

  Lemma alloc_raw_ok h al n :
    n <= 2 * lmax + 2 ->
    alloc_raw sz al n h =
      Ok (Some (hnext h),
          Heap (<[hnext h := Blk al (sz * n) (replicate (N.to_nat n) Raw)]> (hmap h))
               (hnext h + 1) (hmoves h)).
  Proof.
    intros Hn. unfold alloc_raw. rewrite umul_sz by done.
    destruct (cmax_W n Hn) as (H1 & H2 & _).
    rewrite (proj2 (N.leb_le _ _) H1). unfold bind, halloc, ret.
    do 5 f_equal. rewrite N.mul_comm, N.div_mul by lia. done.
  Qed.

  Lemma dealloc_ok h al a n :
    hmap h !! a = Some (Blk al (sz * n) (replicate (N.to_nat n) Raw)) -> n <= 2 * lmax + 2 ->
    dealloc_raw sz al (Some a) n h = Ok (tt, Heap (delete a (hmap h)) (hnext h) (hmoves h)).
  Proof.
    intros Hb Hn. unfold dealloc_raw, bind, hread. rewrite Hb. simpl.
    rewrite N.eqb_refl. simpl.
    assert (umul n sz = sz * n) as ->.
    { rewrite N.mul_comm. apply umul_small. apply cmax_W in Hn. lia. }
    rewrite N.eqb_refl. simpl. rewrite forallb_raw. simpl.
    unfold hfree. by rewrite Hb.
  Qed.

  Lemma vcells_nil cap : vcells [] cap = replicate (N.to_nat cap) Raw.
  Proof using Type. clear Hsz Hlim. unfold vcells. simpl. by rewrite Nat.sub_0_r. Qed.

  (** destroy_all for any mix of live and moved-from elements. *)
  Lemma destroy_all_gen h v a cs by_ n :
    v_ptr v = Some a -> v_len v = N.of_nat (length cs) ->
    Forall (fun x => x <> Raw) cs ->
    hmap h !! a = Some (Blk (v_alloc v) by_ (cs ++ replicate n Raw)) ->
    destroy_all v h =
      Ok (Vec 0 (v_cap v) (v_ptr v) (v_alloc v),
          hput h a (Blk (v_alloc v) by_ (replicate (length cs + n) Raw)) 0).
  Proof.
    intros Hp Hl Hf Hb. unfold destroy_all. rewrite Hp, Hl, Nat2N.id.
    rewrite (bind_ok _ _ _ _ _ (destroy_run a _ _ cs h [] _ 0 Hf Hb eq_refl)).
    unfold ret. simpl. by rewrite replicate_add.
  Qed.

  Lemma destroy_all_ok h v xs fp :
    hwf h -> vrep h v xs fp ->
    exists h', destroy_all v h = Ok (Vec 0 (v_cap v) (v_ptr v) (v_alloc v), h') /\
      vrep h' (Vec 0 (v_cap v) (v_ptr v) (v_alloc v)) [] fp /\ upd h h' fp fp /\
      hmoves h' = hmoves h /\ hnext h' = hnext h.
  Proof.
    intros Hwf (Hl & Hc & Hm & Hp). destruct (v_ptr v) as [a|] eqn:Ep.
    - destruct Hp as [-> Hb].
      erewrite (destroy_all_gen h v a (Live <$> xs)); [|done| |apply Forall_live_not_raw|exact Hb].
      + eexists. rewrite Ep. split; [done|]. split; [|split; [|simpl; lia]].
        * split; [done|]. simpl. split; [lia|]. split; [lia|]. split; [done|].
          rewrite lookup_insert. rewrite vcells_nil. do 3 f_equal.
          rewrite fmap_length. unfold nlen in Hl. lia.
        * eapply upd_write_map; eauto.
      + rewrite fmap_length. done.
    - destruct Hp as [H0 ->]. assert (v_len v = 0) as Hv by lia.
      unfold destroy_all. rewrite Hv. simpl. rewrite bind_ret.
      exists h. rewrite Ep. split; [done|]. split; [|split; [|done]].
      + split; [done|]. simpl. repeat split; lia || done.
      + apply upd_refl; [done|set_solver].
  Qed.

  Lemma clear_gen h v a cs n :
    v_ptr v = Some a -> v_len v = N.of_nat (length cs) ->
    Forall (fun x => x <> Raw) cs -> v_cap v <= 2 * lmax + 2 ->
    v_cap v = N.of_nat (length cs + n) ->
    hmap h !! a = Some (Blk (v_alloc v) (sz * v_cap v) (cs ++ replicate n Raw)) ->
    clear sz v h = Ok (Vec 0 0 None (v_alloc v), Heap (delete a (hmap h)) (hnext h) (hmoves h)).
  Proof.
    intros Hp Hl Hf Hcm Hc Hb. unfold clear.
    rewrite (bind_ok _ _ _ _ _ (destroy_all_gen _ _ _ _ _ _ Hp Hl Hf Hb)).
    unfold deallocate. simpl. rewrite Hp.
    erewrite (bind_ok _ _ _ _ _ (dealloc_ok _ _ a (v_cap v) _ _)).
    - unfold ret, hput. simpl. by rewrite delete_insert_delete, N.add_0_r.
    Unshelve. 2: done.
    rewrite hput_lookup. do 3 f_equal. lia.
  Qed.

  Lemma clear_ok h v xs fp :
    hwf h -> vrep h v xs fp ->
    exists h', clear sz v h = Ok (Vec 0 0 None (v_alloc v), h') /\
      vrep h' (Vec 0 0 None (v_alloc v)) [] [] /\ upd h h' fp [] /\
      hmoves h' = hmoves h /\ hnext h' = hnext h.
  Proof.
    intros Hwf (Hl & Hc & Hm & Hp). destruct (v_ptr v) as [a|] eqn:Ep.
    - destruct Hp as [-> Hb].
      erewrite (clear_gen h v a (Live <$> xs)); [|done| |apply Forall_live_not_raw|done| |exact Hb].
      + eexists. split; [done|]. split; [|split; [|simpl; lia]].
        * split; [done|]. simpl. repeat split; lia || done.
        * by eapply upd_free_map.
      + by rewrite fmap_length.
      + rewrite fmap_length. unfold nlen in Hl. lia.
    - destruct Hp as [H0 ->]. assert (v_len v = 0) as Hv by lia.
      unfold clear, destroy_all. rewrite Hv. unfold bind, ret, deallocate. simpl. rewrite Ep. simpl.
      exists h. split; [done|]. split; [|split; [|done]].
      + split; [done|]. simpl. repeat split; lia || done.
      + apply upd_refl; [done|set_solver].
  Qed.

  Lemma replicate_cells (n m : nat) : (n <= m)%nat ->
    replicate m (@Raw A) = replicate n Raw ++ replicate (m - n) Raw.
  Proof using Type. clear Hsz Hlim. intros. rewrite <-replicate_add. f_equal. lia. Qed.

  Lemma allocate_reserve_ok h v xs fp size :
    hwf h -> vrep h v xs fp -> nlen xs <= size -> size <= 2 * lmax + 2 ->
    exists h', allocate_reserve sz v size h =
        Ok (Vec (v_len v) size (Some (hnext h)) (v_alloc v), h') /\
      vrep h' (Vec (v_len v) size (Some (hnext h)) (v_alloc v)) xs [hnext h] /\
      upd h h' fp [hnext h] /\
      hmoves h' = hmoves h + nlen xs /\ hnext h' = hnext h + 1.
  Proof.
    intros Hwf Hr Hle Hmax. destruct Hr as (Hl & Hc & Hm & Hp).
    unfold allocate_reserve.
    rewrite (bind_ok _ _ _ _ _ (alloc_raw_ok h (v_alloc v) size Hmax)).
    set (h1 := Heap _ _ _).
    assert (H1n : hmap h1 !! hnext h =
      Some (Blk (v_alloc v) (sz * size) (replicate (N.to_nat size) Raw))).
    { simpl. by rewrite lookup_insert. }
    destruct (v_ptr v) as [a|] eqn:Ep.
    - destruct Hp as [-> Hb].
      assert (Hlt : a < hnext h) by (apply Hwf; eauto).
      assert (H1a : hmap h1 !! a = Some (Blk (v_alloc v) (sz * v_cap v) (vcells xs (v_cap v)))).
      { simpl. rewrite lookup_insert_ne by lia. done. }
      rewrite (replicate_cells (length xs)) in H1n by (unfold nlen in *; lia).
      rewrite Hl. unfold nlen. rewrite Nat2N.id.
      erewrite (bind_ok _ _ _ _ _ (move_run (hnext h) a _ _ _ _ xs h1 [] _ [] _ 0 _ H1a H1n eq_refl eq_refl)).
      Unshelve. 2: lia.
      simpl app.
      erewrite (bind_ok _ _ _ _ _ (clear_gen _ v a (replicate (length xs) Moved)
                  (N.to_nat (v_cap v) - length xs) Ep _ _ Hm _ _)).
      Unshelve.
      2: { rewrite replicate_length. done. }
      2: { apply Forall_moved_not_raw. }
      2: { rewrite replicate_length. unfold nlen in *. lia. }
      2: { rewrite hput_lookup. done. }
      unfold ret. eexists. split; [done|]. simpl.
      split; [|split; [|split; [unfold nlen; lia|lia]]].
      + split; [done|]. simpl. split; [done|]. split; [done|]. split; [done|].
        rewrite lookup_delete_ne by lia. rewrite lookup_insert_ne by lia.
        rewrite lookup_insert. done.
      + eapply upd_realloc_map; [done|eauto| |done]. simpl.
        rewrite delete_insert_delete, insert_insert.
        rewrite delete_insert_ne by lia. done.
    - destruct Hp as [H0 ->].
      assert (xs = []) as -> by (destruct xs; [done|]; unfold nlen in *; simpl in *; lia).
      unfold nlen in Hl. simpl in Hl. rewrite Hl. unfold clear, destroy_all. rewrite Hl.
      unfold deallocate, bind, ret. simpl. rewrite Ep. simpl.
      eexists. split; [done|]. simpl. split; [|split; [|unfold nlen; simpl; lia]].
      + split; [done|]. simpl. split; [lia|]. split; [done|]. split; [done|].
        by rewrite vcells_nil.
      + by eapply upd_alloc_map.
  Qed.

  (** Result of an operation on one vector. *)
  Definition post h fp (r : outcome (vec * heap (block A))) xs' : Prop :=
    exists v' h' fp', r = Ok (v', h') /\ vrep h' v' xs' fp' /\ upd h h' fp fp'.

  Lemma post_bind h fp (m : VM vec) (k : vec -> VM vec) xs1 xs2 :
    hwf h -> post h fp (m h) xs1 ->
    (forall v1 h1 fp1, hwf h1 -> vrep h1 v1 xs1 fp1 -> post h1 fp1 (k v1 h1) xs2) ->
    post h fp (bind m k h) xs2.
  Proof using Type. clear Hsz Hlim.
    intros Hwf (v1 & h1 & fp1 & E & Hr & Hu) Hk.
    rewrite (bind_ok _ _ _ _ _ E).
    destruct (Hk v1 h1 fp1 (upd_wf _ _ _ _ Hu) Hr) as (v2 & h2 & fp2 & E2 & Hr2 & Hu2).
    exists v2, h2, fp2. split; [done|]. split; [done|]. by eapply upd_trans.
  Qed.

  Lemma post_ret h fp v xs : hwf h -> vrep h v xs fp -> post h fp (ret v h) xs.
  Proof using Type. clear Hsz Hlim.
    intros Hwf Hr. exists v, h, fp. split; [done|]. split; [done|].
    apply upd_refl; [done|]. intros a. by eapply vrep_dom.
  Qed.

  Lemma reserve_full h v xs fp n :
    hwf h -> vrep h v xs fp -> n <= 2 * lmax + 2 ->
    exists v' h' fp', reserve sz v n h = Ok (v', h') /\ vrep h' v' xs fp' /\ upd h h' fp fp' /\
      v_cap v' = N.max (v_cap v) n /\ v_alloc v' = v_alloc v /\
      (n <= v_cap v -> v' = v /\ h' = h) /\
      (v_cap v < n -> hnext h' = hnext h + 1 /\ hmoves h' = hmoves h + nlen xs).
  Proof.
    intros Hwf Hr Hn. unfold reserve. destruct (N.ltb_spec (v_cap v) n) as [Hlt|Hge].
    - destruct (allocate_reserve_ok h v xs fp n) as (h' & E & Hr' & Hu & Hmv & Hnx); try done.
      { destruct Hr as (Hl & Hc & _). lia. }
      eexists _, h', _. split; [done|]. split; [done|]. split; [done|]. simpl.
      split; [lia|]. split; [done|]. split; [lia|done].
    - exists v, h, fp. split; [done|]. split; [done|]. split.
      { apply upd_refl; [done|]. intros a. by eapply vrep_dom. }
      split; [lia|]. split; [done|]. split; [done|lia].
  Qed.

  Lemma reserve_ok h v xs fp n :
    hwf h -> vrep h v xs fp -> n <= 2 * lmax + 2 -> post h fp (reserve sz v n h) xs.
  Proof.
    intros Hwf Hr Hn. destruct (reserve_full h v xs fp n Hwf Hr Hn) as (v'&h'&fp'&E&Hr'&Hu&_).
    exists v', h', fp'. done.
  Qed.

  (** Room for one more element. *)
  Lemma grow_full h v xs fp :
    hwf h -> vrep h v xs fp -> nlen xs + 1 <= lmax ->
    exists v' h' fp',
      (if v_cap v <=? v_len v then extend_space sz v else ret v) h = Ok (v', h') /\
      vrep h' v' xs fp' /\ upd h h' fp fp' /\ v_len v' < v_cap v' /\ v_alloc v' = v_alloc v /\
      (v_len v < v_cap v -> v' = v /\ h' = h) /\
      (v_len v = v_cap v -> v_cap v' = (if v_cap v =? 0 then 2 else 2 * v_cap v) /\
         hnext h' = hnext h + 1 /\ hmoves h' = hmoves h + nlen xs).
  Proof.
    intros Hwf Hr Hn. assert (Hr0 := Hr). destruct Hr0 as (Hl & Hc & Hm & _).
    destruct (N.leb_spec (v_cap v) (v_len v)) as [Hle|Hlt].
    - assert (v_len v = v_cap v) as Heq by lia.
      unfold extend_space.
      assert ((if v_cap v =? 0 then 2 else umul 2 (v_cap v)) =
              (if v_cap v =? 0 then 2 else 2 * v_cap v)) as ->.
      { destruct (v_cap v =? 0); [done|]. apply umul_small.
        destruct (cmax_W (2 * lmax + 2)) as (_&_&?); [lia|]. lia. }
      destruct (reserve_full h v xs fp (if v_cap v =? 0 then 2 else 2 * v_cap v))
        as (v'&h'&fp'&E&Hr'&Hu&Hc'&Ha'&_&Hx); try done.
      { destruct (N.eqb_spec (v_cap v) 0); lia. }
      exists v', h', fp'. split; [done|]. split; [done|]. split; [done|].
      destruct Hr' as (Hl' & Hc2 & Hm' & _).
      split; [destruct (N.eqb_spec (v_cap v) 0); lia|]. split; [done|]. split; [lia|].
      intros _. split; [destruct (N.eqb_spec (v_cap v) 0); lia|].
      apply Hx. destruct (N.eqb_spec (v_cap v) 0); lia.
    - exists v, h, fp. split; [done|]. split; [done|]. split.
      { apply upd_refl; [done|]. intros a. by eapply vrep_dom. }
      split; [lia|]. split; [done|]. split; [done|lia].
  Qed.

  Lemma nlen_app xs ys : nlen (xs ++ ys) = nlen xs + nlen ys.
  Proof using Type. clear Hsz Hlim. unfold nlen. rewrite app_length. lia. Qed.

  Lemma push_back_full h v xs fp x :
    hwf h -> vrep h v xs fp -> nlen xs + 1 <= lmax ->
    exists v' h' fp', push_back sz v x h = Ok (v', h') /\
      vrep h' v' (xs ++ [x]) fp' /\ upd h h' fp fp' /\ v_alloc v' = v_alloc v /\
      (v_len v < v_cap v -> v_cap v' = v_cap v /\ v_ptr v' = v_ptr v /\
          hnext h' = hnext h /\ hmoves h' = hmoves h) /\
      (v_len v = v_cap v -> v_cap v' = (if v_cap v =? 0 then 2 else 2 * v_cap v) /\
         hnext h' = hnext h + 1 /\ hmoves h' = hmoves h + nlen xs).
  Proof.
    intros Hwf Hr Hn. unfold push_back, push_back_m.
    destruct (grow_full h v xs fp Hwf Hr Hn) as (v1&h1&fp1&E&Hr1&Hu&Hlt&Ha&Hsame&Hgrow).
    rewrite (bind_ok _ _ _ _ _ E). rewrite bind_ret.
    destruct Hr1 as (Hl & Hc & Hm & Hp).
    destruct (v_ptr v1) as [a|] eqn:Ep; [|lia]. destruct Hp as [-> Hb].
    assert (Hcells : vcells xs (v_cap v1) =
      (Live <$> xs) ++ Raw :: replicate (N.to_nat (v_cap v1) - length (xs ++ [x])) Raw).
    { unfold vcells. f_equal. rewrite app_length. simpl.
      replace (N.to_nat (v_cap v1) - length xs)%nat
        with (S (N.to_nat (v_cap v1) - (length xs + 1))) by (unfold nlen in *; lia). done. }
    rewrite Hcells in Hb.
    erewrite (bind_ok _ _ _ _ _ (vconstruct_ok _ _ _ _ _ x _ (v_len v1) Hb _)).
    Unshelve. 2: { rewrite fmap_length. done. }
    assert (uadd (v_len v1) 1 = v_len v1 + 1) as ->.
    { apply uadd_small. destruct (cmax_W (v_cap v1) Hm) as (_&_&?). lia. }
    unfold ret. eexists _, _, [a]. split; [done|].
    split; [|split; [|split; [done|split]]].
    - split; [|simpl; rewrite Ep; split; [lia|split; [lia|split; [done|]]]].
      + simpl. rewrite nlen_app. unfold nlen at 2. simpl. lia.
      + rewrite lookup_insert. unfold vcells. rewrite fmap_app, <-(assoc_L app). done.
    - eapply upd_trans; [done|done|]. eapply upd_write_map; [by apply Hu|by eauto|done|done].
    - intros Hlt'. destruct (Hsame Hlt') as [-> ->]. simpl. split; [done|]. split; [done|]. lia.
    - intros Heq. destruct (Hgrow Heq) as (Hc' & Hn' & Hm'). simpl. split; [done|]. split; [done|]. lia.
  Qed.

  Lemma push_back_ok h v xs fp x :
    hwf h -> vrep h v xs fp -> nlen xs + 1 <= lmax -> post h fp (push_back sz v x h) (xs ++ [x]).
  Proof.
    intros Hwf Hr Hn.
    destruct (push_back_full h v xs fp x Hwf Hr Hn) as (v'&h'&fp'&E&Hr'&Hu&_).
    exists v', h', fp'. done.
  Qed.

  Lemma push_all_ok ys : forall h v xs fp,
    hwf h -> vrep h v xs fp -> nlen xs + nlen ys <= lmax ->
    post h fp (push_all sz ys v h) (xs ++ ys).
  Proof.
    induction ys as [|y ys IH]; intros h v xs fp Hwf Hr Hn; simpl.
    - rewrite app_nil_r. by apply post_ret.
    - eapply post_bind; [done|apply push_back_ok; [done|done|]|].
      + unfold nlen in *. simpl in Hn. lia.
      + intros v1 h1 fp1 Hwf1 Hr1. simpl.
        replace (xs ++ y :: ys) with ((xs ++ [y]) ++ ys) by by rewrite <-(assoc_L app).
        apply IH; [done|done|]. rewrite nlen_app. unfold nlen in *. simpl in *. lia.
  Qed.

  Lemma push_n_ok n x : forall h v xs fp,
    hwf h -> vrep h v xs fp -> nlen xs + N.of_nat n <= lmax ->
    post h fp (repeat_m n (fun u => push_back_m sz u (ret x)) v h) (xs ++ replicate n x).
  Proof.
    induction n as [|n IH]; intros h v xs fp Hwf Hr Hn; simpl.
    - rewrite app_nil_r. by apply post_ret.
    - eapply post_bind; [done|apply push_back_ok; [done|done|]|].
      + lia.
      + intros v1 h1 fp1 Hwf1 Hr1. simpl.
        replace (xs ++ x :: replicate n x) with ((xs ++ [x]) ++ replicate n x)
          by by rewrite <-(assoc_L app).
        apply IH; [done|done|]. rewrite nlen_app. unfold nlen in *. simpl in *. lia.
  Qed.

  (** pop_back *)
  Lemma snoc_inv xs : xs <> [] -> exists ys y, xs = ys ++ [y].
  Proof using Type. clear Hsz Hlim. intros H. destruct xs using rev_ind; [done|eauto]. Qed.

  Lemma pop_back_ok h v xs x fp :
    hwf h -> vrep h v (xs ++ [x]) fp ->
    exists h', pop_back v h = Ok (set_len v (nlen xs), h') /\
      vrep h' (set_len v (nlen xs)) xs fp /\ upd h h' fp fp /\
      hnext h' = hnext h /\ hmoves h' = hmoves h.
  Proof.
    intros Hwf (Hl & Hc & Hm & Hp). rewrite nlen_app in Hl. unfold nlen at 2 in Hl. simpl in Hl.
    destruct (v_ptr v) as [a|] eqn:Ep; [|lia]. destruct Hp as [-> Hb].
    unfold pop_back.
    assert (usub (v_len v) 1 = nlen xs) as ->.
    { rewrite usub_small; [lia|lia|]. destruct (cmax_W (v_cap v) Hm) as (_&_&?). lia. }
    unfold vcells in Hb. rewrite fmap_app, <-(assoc_L app) in Hb. simpl in Hb. rewrite Ep.
    erewrite (bind_ok _ _ _ _ _ (vdestroy_ok _ _ _ _ _ _ _ (nlen xs) Hb _ _)).
    Unshelve. 2: { by rewrite fmap_length. } 2: done.
    unfold ret. eexists. split; [done|]. split; [|split; [|simpl; lia]].
    - split; [done|]. simpl. rewrite Ep. split; [lia|]. split; [done|]. split; [done|].
      rewrite lookup_insert. unfold vcells. do 3 f_equal.
      rewrite app_length. simpl.
      replace (N.to_nat (v_cap v) - length xs)%nat
        with (S (N.to_nat (v_cap v) - (length xs + 1))) by (unfold nlen in *; lia). done.
    - eapply upd_write_map; eauto.
  Qed.

  Lemma pop_n_ok n : forall h v xs ys fp,
    hwf h -> vrep h v (xs ++ ys) fp -> length ys = n ->
    exists v' h', repeat_m n pop_back v h = Ok (v', h') /\ vrep h' v' xs fp /\ upd h h' fp fp /\
      v_ptr v' = v_ptr v /\ v_cap v' = v_cap v /\ v_alloc v' = v_alloc v.
  Proof.
    induction n as [|n IH]; intros h v xs ys fp Hwf Hr Hn; simpl.
    - destruct ys; [|done]. rewrite app_nil_r in Hr. exists v, h. split; [done|]. split; [done|].
      split; [|done]. apply upd_refl; [done|]. intros a. by eapply vrep_dom.
    - destruct ys as [|y ys _] using rev_ind; [done|].
      rewrite app_length in Hn. simpl in Hn. rewrite (assoc_L app) in Hr.
      destruct (pop_back_ok h v (xs ++ ys) y fp Hwf Hr) as (h1 & E & Hr1 & Hu & _).
      rewrite (bind_ok _ _ _ _ _ E).
      destruct (IH h1 (set_len v (nlen (xs ++ ys))) xs ys fp (upd_wf _ _ _ _ Hu) Hr1 ltac:(lia))
        as (v2&h2&E2&Hr2&Hu2&Hp2&Hc2&Ha2).
      exists v2, h2. split; [done|]. split; [done|]. split; [|done]. by eapply upd_trans.
  Qed.

  Lemma resize_ok h v xs fp n x :
    hwf h -> vrep h v xs fp -> n <= lmax -> nlen xs <= lmax ->
    post h fp (resize_m sz v n (ret x) h) (ntake n xs ++ nrep (n - nlen xs) x).
  Proof.
    intros Hwf Hr Hn Hx. unfold resize_m. assert (Hl : v_len v = nlen xs) by apply Hr.
    destruct (N.ltb_spec n (v_len v)) as [Hlt|Hge].
    - rewrite Hl. unfold ntake, nrep.
      replace (n - nlen xs) with 0 by lia. simpl. rewrite app_nil_r.
      rewrite <-(take_drop (N.to_nat n) xs) in Hr.
      destruct (pop_n_ok (N.to_nat (nlen xs - n)) h v _ _ fp Hwf Hr) as (v'&h'&E&Hr'&Hu&_).
      { rewrite drop_length. unfold nlen in *. lia. }
      exists v', h', fp. done.
    - destruct (N.ltb_spec (v_len v) n) as [Hlt|Hge2].
      + unfold ntake, nrep. rewrite take_ge by (unfold nlen in *; lia). rewrite Hl.
        eapply post_bind; [done| |].
        * instantiate (1 := xs). destruct (N.ltb_spec (v_cap v) n).
          -- apply reserve_ok; [done|done|lia].
          -- by apply post_ret.
        * intros v1 h1 fp1 Hwf1 Hr1. apply push_n_ok; [done|done|lia].
      + unfold ntake, nrep. replace (n - nlen xs) with 0 by lia. simpl.
        rewrite app_nil_r, take_ge by (unfold nlen in *; lia). by apply post_ret.
  Qed.

  Lemma post_destroy_all h v xs fp :
    hwf h -> vrep h v xs fp -> post h fp (destroy_all v h) [].
  Proof.
    intros Hwf Hr. destruct (destroy_all_ok h v xs fp Hwf Hr) as (h'&E&Hr'&Hu&_).
    eexists _, h', fp. done.
  Qed.

  Lemma assign_fill_ok h v xs fp n x :
    hwf h -> vrep h v xs fp -> n <= lmax ->
    post h fp (assign_fill_m sz v n (ret x) h) (nrep n x).
  Proof.
    intros Hwf Hr Hn. unfold assign_fill_m.
    eapply post_bind; [done|by eapply post_destroy_all|].
    intros v1 h1 fp1 Hwf1 Hr1. eapply post_bind; [done|eapply reserve_ok; [done|done|lia]|].
    intros v2 h2 fp2 Hwf2 Hr2. unfold nrep.
    change (replicate (N.to_nat n) x) with ([] ++ replicate (N.to_nat n) x).
    apply push_n_ok; [done|done|]. unfold nlen. simpl. lia.
  Qed.

  Lemma assign_list_ok h v xs fp ys :
    hwf h -> vrep h v xs fp -> nlen ys <= lmax ->
    post h fp (assign_list sz v ys h) ys.
  Proof.
    intros Hwf Hr Hn. unfold assign_list.
    eapply post_bind; [done|by eapply post_destroy_all|].
    intros v1 h1 fp1 Hwf1 Hr1.
    eapply post_bind; [done|eapply reserve_ok; [done|done|unfold nlen in Hn; lia]|].
    intros v2 h2 fp2 Hwf2 Hr2.
    apply (push_all_ok ys h2 v2 []); [done|done|]. unfold nlen in *. simpl. lia.
  Qed.

  (** Construction *)
  Lemma vrep_null h al : vrep h (Vec 0 0 None al) [] [].
  Proof using Type. clear Hsz Hlim. split; [done|]. simpl. repeat split; lia || done. Qed.

  Lemma allocate_ok h al n :
    hwf h -> n <= 2 * lmax + 2 ->
    exists h', allocate sz (Vec 0 0 None al) n h = Ok (Vec 0 n (Some (hnext h)) al, h') /\
      vrep h' (Vec 0 n (Some (hnext h)) al) [] [hnext h] /\ upd h h' [] [hnext h] /\
      hnext h' = hnext h + 1 /\ hmoves h' = hmoves h.
  Proof.
    intros Hwf Hn. unfold allocate. simpl.
    rewrite (bind_ok _ _ _ _ _ (alloc_raw_ok h al n Hn)). unfold ret.
    eexists. split; [done|]. split; [|split; [|done]].
    - split; [done|]. simpl. split; [lia|]. split; [done|]. split; [done|].
      rewrite lookup_insert. by rewrite vcells_nil.
    - by eapply upd_alloc_map.
  Qed.

  Lemma new_list_ok h al ys :
    hwf h -> nlen ys <= lmax -> post h [] (new_list sz al ys h) ys.
  Proof.
    intros Hwf Hn. unfold new_list.
    destruct (allocate_ok h al (N.of_nat (length ys)) Hwf) as (h1&E&Hr&Hu&_).
    { unfold nlen in Hn. lia. }
    rewrite (bind_ok _ _ _ _ _ E). simpl. destruct Hr as (_&_&Hm&_&Hb). simpl in Hb.
    rewrite vcells_nil, Nat2N.id in Hb.
    rewrite (replicate_cells (length ys)) in Hb by lia.
    erewrite (bind_ok _ _ _ _ _ (construct_run _ _ _ ys h1 [] _ 0 Hb eq_refl)).
    unfold ret. eexists _, _, [hnext h]. split; [done|]. split.
    - split; [done|]. simpl. split; [lia|]. split; [simpl in Hm; lia|]. split; [done|].
      rewrite lookup_insert. unfold vcells. by rewrite Nat2N.id.
    - eapply upd_trans; [done|done|]. eapply upd_write_map; [apply Hu|eauto|done|done].
  Qed.

  Lemma construct_back_ok ys : forall h v xs fp,
    hwf h -> vrep h v xs fp -> nlen xs + nlen ys <= v_cap v ->
    post h fp (construct_back v ys h) (xs ++ ys).
  Proof.
    induction ys as [|y ys IH]; intros h v xs fp Hwf Hr Hn; simpl.
    - rewrite app_nil_r. by apply post_ret.
    - assert (nlen (y :: ys) = nlen ys + 1) as Hys by (unfold nlen; simpl; lia).
      destruct Hr as (Hl & Hc & Hm & Hp).
      destruct (v_ptr v) as [a|] eqn:Ep; [|lia]. destruct Hp as [-> Hb].
      assert (Hcells : vcells xs (v_cap v) =
        (Live <$> xs) ++ Raw :: replicate (N.to_nat (v_cap v) - length (xs ++ [y])) Raw).
      { unfold vcells. f_equal. rewrite app_length. simpl.
        replace (N.to_nat (v_cap v) - length xs)%nat
          with (S (N.to_nat (v_cap v) - (length xs + 1))) by (unfold nlen in *; lia). done. }
      rewrite Hcells in Hb.
      erewrite (bind_ok _ _ _ _ _ (vconstruct_ok _ _ _ _ _ y _ (v_len v) Hb _)).
      Unshelve. 2: { rewrite fmap_length. done. }
      assert (uadd (v_len v) 1 = v_len v + 1) as ->.
      { apply uadd_small. destruct (cmax_W (v_cap v) Hm) as (_&_&?). lia. }
      set (h1 := hput _ _ _ _). set (v1 := set_len _ _).
      assert (Hu1 : upd h h1 [a] [a]) by (eapply upd_write_map; eauto).
      assert (Hr1 : vrep h1 v1 (xs ++ [y]) [a]).
      { split; [simpl; rewrite nlen_app; unfold nlen; simpl; unfold nlen in Hl; lia|].
        simpl. rewrite Ep. split; [lia|]. split; [done|]. split; [done|].
        rewrite lookup_insert. unfold vcells. rewrite fmap_app, <-(assoc_L app). done. }
      destruct (IH h1 v1 (xs ++ [y]) [a] (upd_wf _ _ _ _ Hu1) Hr1) as (v2&h2&fp2&E2&Hr2&Hu2).
      { rewrite nlen_app. simpl. unfold nlen in *. simpl in *. lia. }
      rewrite <-(assoc_L app) in Hr2. exists v2, h2, fp2. split; [done|]. split; [done|].
      by eapply upd_trans.
  Qed.

  Lemma new_range_ok h al ys :
    hwf h -> nlen ys <= lmax -> post h [] (new_range sz al ys h) ys.
  Proof.
    intros Hwf Hn. unfold new_range.
    destruct (allocate_ok h al (N.of_nat (length ys)) Hwf) as (h1&E&Hr&Hu&_).
    { unfold nlen in Hn. lia. }
    rewrite (bind_ok _ _ _ _ _ E).
    destruct (construct_back_ok ys _ _ _ _ (upd_wf _ _ _ _ Hu) Hr) as (v2&h2&fp2&E2&Hr2&Hu2).
    { unfold nlen. simpl. lia. }
    exists v2, h2, fp2. split; [done|]. split; [done|]. by eapply upd_trans.
  Qed.

  Lemma post_allocate h al n :
    hwf h -> n <= 2 * lmax + 2 -> post h [] (allocate sz (Vec 0 0 None al) n h) [].
  Proof.
    intros Hwf Hn. destruct (allocate_ok h al n Hwf Hn) as (h1&E&Hr&Hu&_).
    eexists _, h1, _. done.
  Qed.

  Lemma new_default_ok h : hwf h -> post h [] (new_default sz h) [].
  Proof. intros Hwf. apply post_allocate; [done|lia]. Qed.

  Lemma from_iter_ok h ys : hwf h -> nlen ys <= lmax -> post h [] (from_iter sz ys h) ys.
  Proof.
    intros Hwf Hn. unfold from_iter. eapply post_bind; [done|by apply new_default_ok|].
    intros v1 h1 fp1 Hwf1 Hr1. apply (push_all_ok ys h1 v1 []); [done|done|].
    unfold nlen in *. simpl. lia.
  Qed.

  Lemma new_fill_ok h al n x : hwf h -> n <= lmax -> post h [] (new_fill sz al n x h) (nrep n x).
  Proof. intros Hwf Hn. eapply assign_fill_ok; [done|apply vrep_null|done]. Qed.

  (** copy_impl: [r] is only read; the copy gets a fresh block. *)
  Lemma copy_impl_ok h al r ys fpr :
    hwf h -> vrep h r ys fpr -> nlen ys <= lmax ->
    post h [] (copy_impl sz (Vec 0 0 None al) r h) ys.
  Proof.
    intros Hwf Hr Hn. unfold copy_impl. destruct Hr as (Hl & Hc & Hm & Hp).
    destruct (allocate_ok h al (v_len r) Hwf) as (h1&E&Hr1&Hu&_).
    { lia. }
    rewrite (bind_ok _ _ _ _ _ E). simpl. destruct Hr1 as (_&_&Hm1&_&Hb). simpl in Hb, Hm1.
    rewrite vcells_nil in Hb.
    assert (Hlen : N.to_nat (v_len r) = length ys) by (unfold nlen in Hl; lia).
    destruct (v_ptr r) as [b|] eqn:Ep.
    - destruct Hp as [-> Hbr]. assert (b < hnext h) by (apply Hwf; eauto).
      assert (Hbr1 : hmap h1 !! b = Some (Blk (v_alloc r) (sz * v_cap r) (vcells ys (v_cap r)))).
      { rewrite (upd_frame _ _ _ _ Hu); [done|done|set_solver]. }
      rewrite (replicate_cells (length ys)) in Hb by lia. rewrite Hlen in *.
      erewrite (bind_ok _ _ _ _ _ (copy_run (hnext h) b _ _ _ _ ys h1 [] _ [] _ 0 _ Hbr1 Hb eq_refl eq_refl)).
      Unshelve. 2: lia.
      unfold ret. eexists _, _, [hnext h]. split; [done|]. split.
      + split; [done|]. simpl. split; [lia|]. split; [done|]. split; [done|].
        rewrite lookup_insert. unfold vcells. by rewrite Hlen.
      + eapply upd_trans; [done|done|]. eapply upd_write_map; [apply Hu|eauto|done|done].
    - destruct Hp as [H0 ->]. assert (ys = []) as ->.
      { destruct ys; [done|]. unfold nlen in *. simpl in *. lia. }
      rewrite Hlen. simpl. rewrite bind_ret. unfold ret.
      eexists _, _, [hnext h]. split; [done|]. split; [|done].
      split; [done|]. simpl. split; [lia|]. split; [done|]. split; [done|].
      rewrite Hb, vcells_nil. done.
  Qed.
End VecProofs.
