(** * VecProofs2: assignment, positional operations, observers, consuming iterators *)
From Verif Require Import Base World VecModel VecSpec VecFacts VecProofs.
Local Open Scope N_scope.

Section VecProofs2.
  Context {A : Type} (sz lmax : N).
  Context (Hsz : 1 <= sz) (Hlim : sz * (2 * lmax + 2) <= alloc_max).
  Implicit Types (h : heap (block A)) (v : vec) (xs ys : list A) (fp : list N).

  Notation VM := (M (heap (block A))).
  Notation vrep := (vrep sz lmax).
  Notation post := (post sz lmax).

  Lemma vrep_other h h' fp r ys fpr fp' :
    hwf h -> vrep h r ys fpr -> (forall a, a ∈ fp -> a ∈ fpr -> False) ->
    upd h h' fp fp' -> vrep h' r ys fpr.
  Proof using Type. clear Hsz Hlim.
    intros Hwf Hr Hd Hu. eapply vrep_frame; [done|]. intros a Ha.
    apply (upd_frame _ _ _ _ Hu); [|eauto]. apply Hwf. by eapply vrep_dom.
  Qed.

  Lemma live_split xs n cap :
    vcells xs cap = (Live <$> take n xs) ++ (Live <$> drop n xs) ++
                    replicate (N.to_nat cap - length xs) Raw.
  Proof using Type. clear Hsz Hlim. unfold vcells. rewrite (assoc_L app), <-fmap_app, take_drop. done. Qed.

  Lemma nlen_nil_inv xs : nlen xs = 0 -> xs = [].
  Proof using Type. clear Hsz Hlim. destruct xs; [done|]. unfold nlen. simpl. lia. Qed.

  (** 117-145 copy assignment between distinct objects *)
  Lemma copy_assign_ok h v xs fp r ys fpr :
    hwf h -> vrep h v xs fp -> vrep h r ys fpr -> (forall a, a ∈ fp -> a ∈ fpr -> False) ->
    nlen ys <= lmax ->
    post h fp (copy_assign sz v r h) ys.
  Proof.
    intros Hwf Hv Hr Hd Hn. unfold copy_assign.
    destruct (N.eqb_spec (v_alloc v) (v_alloc r)) as [Hal|Hal].
    - assert (Hrc : v_cap r <= 2 * lmax + 2) by apply Hr.
      destruct (reserve_full sz lmax Hsz Hlim h v xs fp (v_cap r) Hwf Hv Hrc)
        as (v1&h1&fp1&E1&Hv1&Hu1&Hc1&Ha1&_).
      rewrite (bind_ok _ _ _ _ _ E1).
      assert (Hr1 : vrep h1 r ys fpr) by (by eapply vrep_other).
      assert (Hwf1 : hwf h1) by apply Hu1.
      assert (Hd1 : forall a, a ∈ fp1 -> a ∈ fpr -> False).
      { intros a Ha Har. destruct (upd_new _ _ _ _ Hu1 a Ha); [eauto|].
        assert (a < hnext h); [|lia]. apply Hwf. by eapply vrep_dom. }
      clear Hr E1 Hv Hd.
      destruct Hv1 as (Hl & Hc & Hm & Hp), Hr1 as (Hlr & Hcr & Hmr & Hpr).
      cut (exists h2, ((for_up (N.to_nat (N.min (v_len v1) (v_len r))) 0
              (fun i => x <-- vread (v_ptr r) i ;; vassign (v_ptr v1) i x) ;;;
            (if v_len r <? v_len v1 then
               for_up (N.to_nat (v_len v1 - N.min (v_len v1) (v_len r)))
                 (N.min (v_len v1) (v_len r)) (vdestroy (v_ptr v1))
             else if v_len v1 <? v_len r then
               for_up (N.to_nat (v_len r - N.min (v_len v1) (v_len r)))
                 (N.min (v_len v1) (v_len r))
                 (fun i => x <-- vread (v_ptr r) i ;; vconstruct (v_ptr v1) i x)
             else ret tt) ;;;
            ret (set_len v1 (v_len r))) : VM vec) h1 = Ok (set_len v1 (v_len r), h2) /\
          vrep h2 (set_len v1 (v_len r)) ys fp1 /\ upd h1 h2 fp1 fp1).
      { intros (h2 & E2 & Hr2 & Hu2). eexists _, h2, fp1. split; [exact E2|].
        split; [done|]. by eapply upd_trans. }
      destruct (v_ptr v1) as [a|] eqn:Ep.
      2:{ destruct Hp as [H0 ->]. assert (v_len r = 0) as Hz by lia.
          assert (ys = []) as -> by (apply nlen_nil_inv; lia).
          assert (v_len v1 = 0) as Hz1 by lia. rewrite Hz, Hz1.
          exists h1. split; [done|]. split; [|apply upd_refl; [done|set_solver]].
          split; [done|]. simpl. rewrite Ep. repeat split; lia || done. }
      destruct Hp as [-> Hb].
      assert (Hfin : forall k h2, hmap h2 = <[a := Blk (v_alloc v1) (sz * v_cap v1) k]> (hmap h1) ->
                hnext h2 = hnext h1 -> k = vcells ys (v_cap v1) ->
                vrep h2 (set_len v1 (v_len r)) ys [a] /\ upd h1 h2 [a] [a]).
      { intros k h2 Hm2 Hn2 ->. split.
        - split; [done|]. simpl. rewrite Ep. split; [lia|]. split; [done|]. split; [done|].
          by rewrite Hm2, lookup_insert.
        - eapply upd_write_map; eauto. }
      destruct (N.le_gt_cases (v_len r) (v_len v1)) as [Hle|Hgt].
      + rewrite N.min_r by lia.
        assert (exists h2, for_up (N.to_nat (v_len r)) 0
           (fun i => x <-- vread (v_ptr r) i ;; vassign (Some a) i x) h1 = Ok (tt, h2) /\
           h2 = hput h1 a (Blk (v_alloc v1) (sz * v_cap v1)
              ((Live <$> ys) ++ (Live <$> drop (length ys) xs) ++
                replicate (N.to_nat (v_cap v1) - length xs) Raw)) 0) as (h2 & E2 & Eh2).
        { rewrite (live_split xs (length ys)) in Hb.
          destruct (v_ptr r) as [b|] eqn:Epr.
          - destruct Hpr as [-> Hbr].
            rewrite Hlr. unfold nlen. rewrite Nat2N.id.
            eexists. split; [|done].
            erewrite (copy_assign_run a b _ _ _ _ ys h1 (Live <$> take (length ys) xs) [] _ [] _ 0);
              [done| | | |exact Hbr|exact Hb|done|done].
            + intros ->. eapply Hd1; apply elem_of_list_here.
            + rewrite fmap_length, take_length. unfold nlen in *. lia.
            + apply Forall_live_not_raw.
          - destruct Hpr as [H0 ->]. assert (ys = []) as -> by (apply nlen_nil_inv; lia).
            rewrite Hlr. simpl. unfold ret. eexists. split; [done|].
            rewrite hput_id; [done|]. rewrite Hb. done. }
        rewrite (bind_ok _ _ _ _ _ E2). subst h2.
        destruct (N.ltb_spec (v_len r) (v_len v1)) as [Hlt|Hge].
        * replace (N.to_nat (v_len v1 - v_len r)) with (length (Live <$> drop (length ys) xs))
            by (rewrite fmap_length, drop_length; unfold nlen in *; lia).
          erewrite (bind_ok _ _ _ _ _ (destroy_run a _ _ (Live <$> drop (length ys) xs) _
            (Live <$> ys) _ _ _ (hput_lookup _ _ _ _) _)).
          Unshelve. 2: apply Forall_live_not_raw. 2: by rewrite fmap_length.
          unfold ret. eexists. split; [done|]. eapply Hfin.
          -- rewrite hput_hput. done.
          -- done.
          -- unfold vcells. f_equal. rewrite fmap_length, drop_length, <-replicate_add.
             f_equal. unfold nlen in *. lia.
        * rewrite (proj2 (N.ltb_ge (v_len v1) (v_len r))) by lia. rewrite bind_ret.
          unfold ret. eexists. split; [done|]. eapply Hfin; [done|done|].
          unfold vcells. f_equal. rewrite drop_ge by (unfold nlen in *; lia). simpl.
          f_equal. unfold nlen in *. lia.
      + rewrite N.min_l by lia.
        destruct (v_ptr r) as [b|] eqn:Epr; [|lia]. destruct Hpr as [-> Hbr].
        assert (a <> b) as Hab by (intros ->; eapply Hd1; apply elem_of_list_here).
        rewrite (live_split ys (length xs)) in Hbr.
        replace (N.to_nat (v_len v1)) with (length (take (length xs) ys))
          by (rewrite take_length; unfold nlen in *; lia).
        erewrite (bind_ok _ _ _ _ _ (copy_assign_run a b _ _ _ _ (take (length xs) ys) h1
          (Live <$> xs) [] _ [] _ 0 Hab _ _ Hbr Hb eq_refl eq_refl)).
        Unshelve.
        2: { rewrite fmap_length, take_length. unfold nlen in *. lia. }
        2: apply Forall_live_not_raw.
        rewrite (proj2 (N.ltb_ge (v_len r) (v_len v1))) by lia.
        rewrite (proj2 (N.ltb_lt (v_len v1) (v_len r))) by lia.
        replace (N.to_nat (v_len r - v_len v1)) with (length (drop (length xs) ys))
          by (rewrite drop_length; unfold nlen in *; lia).
        set (h2 := hput _ _ _ _).
        assert (Hbr2 : hmap h2 !! b = hmap h1 !! b) by (by apply hput_lookup_ne).
        rewrite Hbr in Hbr2.
        assert (Hb2 : hmap h2 !! a = Some (Blk (v_alloc v1) (sz * v_cap v1)
           ((Live <$> take (length xs) ys) ++ replicate (length (drop (length xs) ys)) Raw ++
             replicate (N.to_nat (v_cap v1) - length ys) Raw))).
        { unfold h2. rewrite hput_lookup. simpl. do 3 f_equal.
          rewrite <-replicate_add, drop_length. f_equal. unfold nlen in *. lia. }
        erewrite (bind_ok _ _ _ _ _ (copy_run a b _ _ _ _ (drop (length xs) ys) h2 _ _ _ _ _ Hab
          Hbr2 Hb2 _ _)).
        Unshelve.
        2: { rewrite fmap_length, take_length. unfold nlen in *. lia. }
        2: done.
        unfold ret. eexists. split; [done|]. eapply Hfin.
        -- unfold h2. rewrite hput_hput. done.
        -- done.
        -- symmetry. apply live_split.
    - destruct (clear_ok sz lmax Hsz Hlim h v xs fp Hwf Hv) as (h1&E1&Hr1&Hu1&_).
      rewrite (bind_ok _ _ _ _ _ E1).
      destruct (copy_impl_ok sz lmax Hsz Hlim h1 (v_alloc v) r ys fpr) as (v2&h2&fp2&E2&Hr2&Hu2).
      + apply Hu1.
      + by eapply vrep_other.
      + done.
      + exists v2, h2, fp2. split; [done|]. split; [done|]. by eapply upd_trans.
  Qed.

  (** 861-875 the shifting loop, for a non-empty prefix *)
  Lemma meb_run a al by_ n : forall ys h c1 c2 hi fuel,
    (1 <= n)%nat -> (1 <= length c1)%nat ->
    hmap h !! a = Some (Blk al by_ (c1 ++ (Live <$> ys) ++ replicate n Raw ++ c2)) ->
    N.of_nat (length c1 + length ys + n) < W ->
    hi = N.of_nat (length c1 + length ys - 1) -> (length ys < fuel)%nat ->
    exists k, meb_loop fuel (Some a) (N.of_nat (length c1)) (N.of_nat n) hi h =
      Ok (tt, hput h a (Blk al by_ (c1 ++ replicate n Raw ++ (Live <$> ys) ++ c2)) k).
  Proof using Type. clear Hsz Hlim.
    intros ys. induction ys as [|y ys IH] using rev_ind;
      intros h c1 c2 hi fuel Hn Hc1 Hb HW Hhi Hf; (destruct fuel as [|fuel]; [lia|]); simpl.
    - destruct (N.leb_spec (N.of_nat (length c1)) hi); [simpl in Hhi; lia|].
      exists 0. rewrite hput_id by done. done.
    - rewrite app_length in *. simpl in *.
      destruct (N.leb_spec (N.of_nat (length c1)) hi); [|lia].
      destruct n as [|n]; [lia|].
      rewrite fmap_app, <-(assoc_L app) in Hb. simpl in Hb.
      assert (Hb1 : hmap h !! a = Some (Blk al by_ ((c1 ++ (Live <$> ys)) ++ Live y ::
                (replicate (S n) Raw ++ c2)))) by (rewrite Hb, <-(assoc_L app); done).
      erewrite (bind_ok _ _ _ _ _ (vmove_ok _ _ _ _ _ _ _ hi Hb1 _)).
      Unshelve. 2: { rewrite app_length, fmap_length. lia. }
      set (h1 := hput _ _ _ _).
      assert (Hb2 : hmap h1 !! a = Some (Blk al by_ (((c1 ++ (Live <$> ys)) ++ Moved ::
                replicate n Raw) ++ Raw :: c2))).
      { unfold h1. rewrite hput_lookup. do 2 f_equal. rewrite <-!(assoc_L app). do 2 f_equal.
        rewrite replicate_S_end, <-(assoc_L app). done. }
      assert (Hu : uadd hi (N.pos (Pos.of_succ_nat n)) =
                   N.of_nat (length ((c1 ++ (Live <$> ys)) ++ Moved :: replicate n Raw))).
      { rewrite uadd_small by lia. rewrite !app_length, fmap_length. simpl.
        rewrite replicate_length. lia. }
      erewrite (bind_ok _ _ _ _ _ (vconstruct_ok _ _ _ _ _ y _ _ Hb2 Hu)).
      set (h2 := hput _ _ _ _).
      assert (Hb3 : hmap h2 !! a = Some (Blk al by_ ((c1 ++ (Live <$> ys)) ++ Moved ::
                replicate n Raw ++ Live y :: c2))).
      { unfold h2. rewrite hput_lookup. do 2 f_equal. rewrite <-!(assoc_L app). done. }
      erewrite (bind_ok _ _ _ _ _ (vdestroy_ok _ _ _ _ _ _ _ hi Hb3 _ _)).
      Unshelve. 2: { rewrite app_length, fmap_length. lia. } 2: done.
      set (h3 := hput _ _ _ _).
      assert (Hb4 : hmap h3 !! a = Some (Blk al by_ (c1 ++ (Live <$> ys) ++
                replicate (S n) Raw ++ (Live y :: c2)))).
      { unfold h3. rewrite hput_lookup. do 2 f_equal. rewrite <-!(assoc_L app). done. }
      destruct (IH h3 c1 (Live y :: c2) (usub hi 1) fuel) as [k Ek]; try done; try lia.
      { rewrite usub_small by lia. lia. }
      exists (1 + 0 + 0 + k). cbn beta. replace (N.pos (Pos.of_succ_nat n)) with (N.of_nat (S n)) by lia. rewrite Ek. unfold h3, h2, h1.
      rewrite !hput_hput. do 4 f_equal.
      rewrite fmap_app, <-(assoc_L app). done.
  Qed.

  (** A vector whose storage has a gap of [n] raw slots after [xs]. *)
  Definition vgap h v xs (n : nat) ys a : Prop :=
    v_ptr v = Some a /\ v_len v = nlen xs + N.of_nat n + nlen ys /\ v_len v <= v_cap v /\
    v_cap v <= 2 * lmax + 2 /\
    hmap h !! a = Some (Blk (v_alloc v) (sz * v_cap v)
      ((Live <$> xs) ++ replicate n Raw ++ (Live <$> ys) ++
        replicate (N.to_nat (v_cap v) - (length xs + n + length ys)) Raw)).

  Lemma move_elements_back_ok h v xs ys fp n :
    hwf h -> vrep h v (xs ++ ys) fp -> xs <> [] -> (1 <= n)%nat \/ ys = [] ->
    nlen (xs ++ ys) + N.of_nat n <= lmax ->
    exists v' h' a, move_elements_back sz v (nlen xs) (N.of_nat n) h = Ok (v', h') /\
      vgap h' v' xs n ys a /\ upd h h' fp [a].
  Proof.
    intros Hwf Hr Hxs Hny Hn. unfold move_elements_back.
    assert (Hl0 : v_len v = nlen (xs ++ ys)) by apply Hr.
    assert (Hx1 : (1 <= length xs)%nat) by (destruct xs; [done|simpl; lia]).
    rewrite nlen_app in *. unfold nlen in Hl0, Hn.
    destruct (N.eqb_spec (v_len v) 0); [lia|].
    destruct (cmax_W sz lmax Hsz Hlim (2 * lmax + 2)) as (_&_&HW); [lia|].
    assert (uadd (v_len v) (N.of_nat n) = v_len v + N.of_nat n) as Hua
      by (apply uadd_small; lia).
    rewrite Hua.
    assert (exists v1 h1 fp1,
      (if v_cap v <? v_len v + N.of_nat n then reserve sz v (v_len v + N.of_nat n) else ret v) h
        = Ok (v1, h1) /\ vrep h1 v1 (xs ++ ys) fp1 /\ upd h h1 fp fp1 /\
      v_len v + N.of_nat n <= v_cap v1) as (v1&h1&fp1&E1&Hr1&Hu1&Hc1).
    { destruct (N.ltb_spec (v_cap v) (v_len v + N.of_nat n)).
      - destruct (reserve_full sz lmax Hsz Hlim h v _ fp (v_len v + N.of_nat n) Hwf Hr) as
          (v1&h1&fp1&E1&Hr1&Hu1&Hc1&_); [lia|].
        exists v1, h1, fp1. split; [done|]. split; [done|]. split; [done|]. lia.
      - exists v, h, fp. split; [done|]. split; [done|]. split; [|done].
        apply upd_refl; [done|]. intros a. by eapply vrep_dom. }
    rewrite (bind_ok _ _ _ _ _ E1). clear Hr.
    destruct Hr1 as (Hl & Hc & Hm & Hp). rewrite nlen_app in Hl. unfold nlen in Hl.
    destruct (v_ptr v1) as [a|] eqn:Ep; [|lia]. destruct Hp as [-> Hb].
    assert (exists k, meb_loop (S (S (N.to_nat (v_len v)))) (Some a) (nlen xs) (N.of_nat n)
        (usub (v_len v1) 1) h1 = Ok (tt, hput h1 a (Blk (v_alloc v1) (sz * v_cap v1)
          ((Live <$> xs) ++ replicate n Raw ++ (Live <$> ys) ++
        replicate (N.to_nat (v_cap v1) - (length xs + n + length ys)) Raw)) k)) as [k Ek].
    { assert (vcells (xs ++ ys) (v_cap v1) = (Live <$> xs) ++ (Live <$> ys) ++ replicate n Raw ++
        replicate (N.to_nat (v_cap v1) - (length xs + n + length ys)) Raw) as Hcs.
      { unfold vcells. rewrite fmap_app, <-(assoc_L app), <-replicate_add, app_length.
        do 3 f_equal. lia. }
      rewrite Hcs in Hb. destruct Hny as [Hn1 | ->].
      - destruct (meb_run a (v_alloc v1) (sz * v_cap v1) n ys h1 (Live <$> xs)
          (replicate (N.to_nat (v_cap v1) - (length xs + n + length ys)) Raw)
          (usub (v_len v1) 1) (S (S (N.to_nat (v_len v)))))
          as [k Ek]; rewrite ?fmap_length; try done; try lia.
        + rewrite usub_small by lia. lia.
        + rewrite fmap_length in Ek. eauto.
      - exists 0. simpl. simpl in Hl. rewrite usub_small by lia.
        destruct (N.leb_spec (nlen xs) (v_len v1 - 1)); [unfold nlen in *; lia|].
        simpl in Hb. rewrite hput_id by done. done. }
    rewrite (bind_ok _ _ _ _ _ Ek). unfold ret. eexists _, _, a. split; [done|]. split.
    - unfold vgap. simpl. rewrite uadd_small by lia. unfold nlen. split; [done|].
      split; [lia|]. split; [lia|]. split; [lia|]. by rewrite lookup_insert.
    - eapply upd_trans; [done|done|]. eapply upd_write_map; [apply Hu1|eauto|done|done].
  Qed.

  Lemma vgap_fill h v xs zs ys a k h' :
    hwf h -> vgap h v xs (length zs) ys a ->
    h' = hput h a (Blk (v_alloc v) (sz * v_cap v) ((Live <$> xs) ++ (Live <$> zs) ++ (Live <$> ys) ++
        replicate (N.to_nat (v_cap v) - (length xs + length zs + length ys)) Raw)) k ->
    vrep h' v (xs ++ zs ++ ys) [a] /\ upd h h' [a] [a].
  Proof using Type. clear Hsz Hlim.
    intros Hwf (Hp & Hl & Hc & Hm & Hb) ->. split.
    - split; [unfold nlen in *; rewrite !app_length; lia|]. split; [done|]. split; [done|].
      rewrite Hp. split; [done|]. rewrite hput_lookup. unfold vcells.
      rewrite !fmap_app, <-!(assoc_L app), !app_length. do 6 f_equal. lia.
    - eapply upd_write_map; eauto.
  Qed.

  Lemma construct_gap h v xs zs ys a :
    hwf h -> vgap h v xs (length zs) ys a ->
    exists h', construct_all (v_ptr v) (nlen xs) zs h = Ok (tt, h') /\
      vrep h' v (xs ++ zs ++ ys) [a] /\ upd h h' [a] [a].
  Proof using Type. clear Hsz Hlim.
    intros Hwf Hg. assert (Hg' := Hg). destruct Hg' as (Hp & Hl & Hc & Hm & Hb). rewrite Hp.
    erewrite (construct_run a _ _ zs h _ _ _ Hb).
    - eexists. split; [done|]. by eapply vgap_fill.
    - by rewrite fmap_length.
  Qed.

  Lemma split_at (p : N) xs : p <= nlen xs ->
    exists l r, xs = l ++ r /\ p = nlen l /\ ntake p xs = l /\ ndrop p xs = r.
  Proof using Type. clear Hsz Hlim.
    intros Hp. exists (ntake p xs), (ndrop p xs). unfold ntake, ndrop, nlen in *.
    rewrite take_drop. split; [done|]. split; [|done]. rewrite take_length. lia.
  Qed.

  Lemma emplace_ok h v xs ys fp x :
    hwf h -> vrep h v (xs ++ ys) fp -> xs <> [] -> nlen (xs ++ ys) + 1 <= lmax ->
    post h fp (emplace sz v (nlen xs) x h) (xs ++ [x] ++ ys).
  Proof.
    intros Hwf Hr Hxs Hn. unfold emplace.
    assert ((if v_len v =? v_cap v then extend_space sz v else ret v) =
            (if v_cap v <=? v_len v then extend_space sz v else ret v)) as ->.
    { destruct Hr as (_ & Hc & _).
      destruct (N.eqb_spec (v_len v) (v_cap v)), (N.leb_spec (v_cap v) (v_len v)); done || lia. }
    destruct (grow_full sz lmax Hsz Hlim h v _ fp Hwf Hr Hn) as (v1&h1&fp1&E1&Hr1&Hu1&_).
    rewrite (bind_ok _ _ _ _ _ E1).
    destruct (move_elements_back_ok h1 v1 xs ys fp1 1 (upd_wf _ _ _ _ Hu1) Hr1 Hxs)
      as (v2&h2&a&E2&Hg&Hu2); [left; lia|lia|].
    change (N.of_nat 1) with 1 in E2. rewrite (bind_ok _ _ _ _ _ E2).
    destruct (construct_gap h2 v2 xs [x] ys a (upd_wf _ _ _ _ Hu2) Hg) as (h3&E3&Hr3&Hu3).
    simpl in E3. destruct (vconstruct (v_ptr v2) (nlen xs) x h2) as [[[] h4]|e] eqn:E4;
      [|unfold bind in E3; rewrite E4 in E3; done].
    rewrite (bind_ok _ _ _ _ _ E4) in E3. injection E3 as ->.
    rewrite (bind_ok _ _ _ _ _ E4). unfold ret.
    exists v2, h3, [a]. split; [done|]. split; [done|].
    eapply upd_trans; [done|done|]. eapply upd_trans; [apply Hu1|done|done].
  Qed.

  Definition posto {X} h fp (r : outcome ((vec * X) * heap (block A))) xs' (x : X) : Prop :=
    exists v' h' fp', r = Ok ((v', x), h') /\ vrep h' v' xs' fp' /\ upd h h' fp fp'.

  Lemma insert1_ok h v xs ys fp x :
    hwf h -> vrep h v (xs ++ ys) fp -> xs <> [] -> nlen (xs ++ ys) + 1 <= lmax ->
    posto h fp (insert1 sz v (nlen xs) x h) (xs ++ [x] ++ ys) (nlen xs).
  Proof.
    intros Hwf Hr Hxs Hn. unfold insert1.
    destruct (emplace_ok h v xs ys fp x Hwf Hr Hxs Hn) as (v'&h'&fp'&E&Hr'&Hu).
    rewrite (bind_ok _ _ _ _ _ E). exists v', h', fp'. done.
  Qed.

  Lemma fill_run a al by_ x p : forall n h c1 c2 i,
    hmap h !! a = Some (Blk al by_ (c1 ++ replicate n Raw ++ c2)) ->
    p + i = N.of_nat (length c1) -> N.of_nat (length c1 + n) < W ->
    for_up n i (fun i => y <-- ret x ;; vconstruct (Some a) (uadd p i) y) h =
      Ok (tt, hput h a (Blk al by_ (c1 ++ (Live <$> replicate n x) ++ c2)) 0).
  Proof using Type. clear Hsz Hlim.
    induction n as [|n IH]; intros h c1 c2 i Hb Hi HW; simpl.
    - by rewrite hput_id.
    - simpl in Hb. unfold bind at 2. unfold ret at 1. rewrite uadd_small by lia.
      erewrite (bind_ok _ _ _ _ _ (vconstruct_ok _ _ _ _ _ x _ _ Hb Hi)).
      erewrite (IH _ (c1 ++ [Live x]) c2).
      + rewrite hput_hput, <-(assoc_L app). done.
      + rewrite hput_lookup, <-(assoc_L app). done.
      + rewrite app_length. simpl. lia.
      + rewrite app_length. simpl. lia.
  Qed.

  Lemma insert_fill_ok h v xs ys fp n x :
    hwf h -> vrep h v (xs ++ ys) fp -> xs <> [] -> 1 <= n \/ ys = [] ->
    nlen (xs ++ ys) + n <= lmax ->
    posto h fp (insert_fill_m sz v (nlen xs) n (ret x) h) (xs ++ nrep n x ++ ys) (nlen xs).
  Proof.
    intros Hwf Hr Hxs Hny Hn. unfold insert_fill_m, nrep.
    destruct (move_elements_back_ok h v xs ys fp (N.to_nat n) Hwf Hr Hxs)
      as (v2&h2&a&E2&Hg&Hu2); [destruct Hny; [left; lia|by right]|lia|].
    rewrite N2Nat.id in E2. rewrite (bind_ok _ _ _ _ _ E2).
    assert (Hg' := Hg). destruct Hg' as (Hp & Hl & Hc & Hm & Hb). rewrite Hp.
    destruct (cmax_W sz lmax Hsz Hlim (v_cap v2) Hm) as (_&_&HW).
    erewrite (bind_ok _ _ _ _ _ (fill_run a _ _ x (nlen xs) (N.to_nat n) h2 _ _ 0 Hb _ _)).
    Unshelve. 2: { rewrite fmap_length. unfold nlen. lia. }
    2: { rewrite fmap_length. unfold nlen in *. lia. }
    unfold ret.
    destruct (vgap_fill h2 v2 xs (replicate (N.to_nat n) x) ys a 0 _ (upd_wf _ _ _ _ Hu2)
      ltac:(by rewrite replicate_length) eq_refl) as [Hr3 Hu3].
    rewrite replicate_length in Hr3, Hu3.
    eexists v2, _, [a]. split; [done|]. split; [done|]. by eapply upd_trans.
  Qed.

  Lemma insert_range_ok h v xs ys fp zs :
    hwf h -> vrep h v (xs ++ ys) fp -> xs <> [] -> zs <> [] \/ ys = [] ->
    nlen (xs ++ ys) + nlen zs <= lmax ->
    posto h fp (insert_range sz v (nlen xs) zs h) (xs ++ zs ++ ys) (nlen xs).
  Proof.
    intros Hwf Hr Hxs Hny Hn. unfold insert_range.
    assert (Hl : v_len v = nlen (xs ++ ys)) by apply Hr.
    destruct (cmax_W sz lmax Hsz Hlim (2 * lmax + 2)) as (_&_&HW); [lia|].
    rewrite uadd_small by (unfold nlen in *; lia).
    assert (post h fp ((if v_cap v <? v_len v + N.of_nat (length zs)
       then allocate_reserve sz v (v_len v + N.of_nat (length zs)) else ret v) h) (xs ++ ys))
      as (v1&h1&fp1&E1&Hr1&Hu1).
    { destruct (N.ltb_spec (v_cap v) (v_len v + N.of_nat (length zs))).
      - destruct (allocate_reserve_ok sz lmax Hsz Hlim h v (xs ++ ys) fp
          (v_len v + N.of_nat (length zs)) Hwf Hr)
          as (h1&E1&Hr1&Hu1&_); [lia|unfold nlen in *; lia|].
        eexists _, h1, _. done.
      - by apply post_ret. }
    rewrite (bind_ok _ _ _ _ _ E1).
    destruct (move_elements_back_ok h1 v1 xs ys fp1 (length zs) (upd_wf _ _ _ _ Hu1) Hr1 Hxs)
      as (v2&h2&a&E2&Hg&Hu2).
    { destruct Hny as [Hz|Hz]; [left; destruct zs; [done|simpl; lia]|by right]. }
    { unfold nlen in *; lia. }
    rewrite (bind_ok _ _ _ _ _ E2).
    destruct (construct_gap h2 v2 xs zs ys a (upd_wf _ _ _ _ Hu2) Hg) as (h3&E3&Hr3&Hu3).
    rewrite (bind_ok _ _ _ _ _ E3). exists v2, h3, [a]. split; [done|]. split; [done|].
    eapply upd_trans; [done|done|]. eapply upd_trans; [apply Hu1|done|done].
  Qed.

  (** 571, 591: shifting elements down over a gap of [length gap] slots *)
  Lemma shift_run a al by_ f d : forall ys h c1 gap c2 k,
    Forall (fun c => c <> Raw) gap -> gap <> [] ->
    hmap h !! a = Some (Blk al by_ (c1 ++ gap ++ (Live <$> ys) ++ c2)) ->
    d + k = N.of_nat (length c1) -> f + k = N.of_nat (length c1 + length gap) ->
    exists gap' n, Forall (fun c => c <> Raw) gap' /\ length gap' = length gap /\
      for_up (length ys) k (fun k => x <-- vmove (Some a) (f + k) ;; vassign (Some a) (d + k) x) h =
        Ok (tt, hput h a (Blk al by_ (c1 ++ (Live <$> ys) ++ gap' ++ c2)) n).
  Proof using Type. clear Hsz Hlim.
    induction ys as [|y ys IH]; intros h c1 gap c2 k Hg Hne Hb Hd Hf; simpl.
    - exists gap, 0. split; [done|]. split; [done|]. by rewrite hput_id.
    - destruct gap as [|g gap]; [done|]. apply Forall_cons in Hg as [Hg1 Hg2].
      simpl in Hb, Hf.
      assert (Hb1 : hmap h !! a = Some (Blk al by_ ((c1 ++ g :: gap) ++ Live y :: (Live <$> ys) ++ c2)))
        by (rewrite Hb, <-(assoc_L app); done).
      rewrite bind_bind.
      erewrite (bind_ok _ _ _ _ _ (vmove_ok _ _ _ _ _ _ _ (f + k) Hb1 _)).
      Unshelve. 2: { rewrite app_length. simpl. lia. }
      set (h1 := hput _ _ _ _).
      assert (Hb2 : hmap h1 !! a = Some (Blk al by_ (c1 ++ g :: (gap ++ Moved :: (Live <$> ys) ++ c2))))
        by (unfold h1; rewrite hput_lookup, <-(assoc_L app); done).
      erewrite (bind_ok _ _ _ _ _ (vassign_ok _ _ _ _ _ _ y _ (d + k) Hb2 Hd Hg1)).
      set (h2 := hput _ _ _ _).
      destruct (IH h2 (c1 ++ [Live y]) (gap ++ [Moved]) c2 (k + 1)) as (gap'&n&Hg'&Hl'&E).
      + apply Forall_app. split; [done|]. by repeat constructor.
      + by destruct gap.
      + unfold h2. rewrite hput_lookup, <-!(assoc_L app). done.
      + rewrite app_length. simpl. lia.
      + rewrite !app_length. simpl. lia.
      + exists gap', (1 + 0 + n). split; [done|]. split.
        { rewrite Hl', app_length. simpl. lia. }
        rewrite E. unfold h2, h1. rewrite !hput_hput. do 3 f_equal. rewrite <-(assoc_L app). done.
  Qed.

  Lemma pop_n_gen a al by_ cap : forall cs h c1 c2,
    Forall (fun c => c <> Raw) cs ->
    N.of_nat (length c1 + length cs) < W ->
    hmap h !! a = Some (Blk al by_ (c1 ++ cs ++ c2)) ->
    repeat_m (length cs) pop_back (Vec (N.of_nat (length c1 + length cs)) cap (Some a) al) h =
      Ok (Vec (N.of_nat (length c1)) cap (Some a) al,
          hput h a (Blk al by_ (c1 ++ replicate (length cs) Raw ++ c2)) 0).
  Proof using Type. clear Hsz Hlim.
    intros cs. induction cs as [|c cs IH] using rev_ind; intros h c1 c2 Hf HW Hb.
    - simpl. rewrite hput_id by done. by rewrite Nat.add_0_r.
    - apply Forall_app in Hf as [Hf1 Hf2]. apply Forall_cons in Hf2 as [Hc _].
      rewrite app_length in *. simpl in *. rewrite Nat.add_1_r. simpl.
      assert (Hb1 : hmap h !! a = Some (Blk al by_ ((c1 ++ cs) ++ c :: c2)))
        by (rewrite Hb, <-!(assoc_L app); done).
      unfold pop_back at 1. simpl.
      assert (usub (N.of_nat (length c1 + S (length cs))) 1 = N.of_nat (length (c1 ++ cs))) as Hus.
      { rewrite usub_small by lia. rewrite app_length. lia. }
      rewrite Hus. unfold bind at 1.
      erewrite (bind_ok _ _ _ _ _ (vdestroy_ok _ _ _ _ _ _ _ _ Hb1 eq_refl Hc)).
      unfold ret. unfold set_len. simpl.
      rewrite app_length.
      rewrite (IH _ c1 (Raw :: c2)); [|done|lia|rewrite hput_lookup, <-!(assoc_L app); done].
      rewrite hput_hput. do 3 f_equal. do 2 f_equal.
      rewrite app_comm_cons, replicate_cons_app, <-(assoc_L app). done.
  Qed.

  (** 586-601 for ranges that are non-empty or end at end() *)
  Lemma erase_gen h v xs ds ys fp :
    hwf h -> vrep h v (xs ++ ds ++ ys) fp -> ds <> [] \/ ys = [] ->
    post h fp ((std_move (v_ptr v) (nlen xs + nlen ds) (v_len v) (nlen xs) ;;;
                repeat_m (length ds) pop_back v) h) (xs ++ ys).
  Proof.
    intros Hwf Hr Hd. assert (Hr0 := Hr). destruct Hr0 as (Hl & Hc & Hm & Hp).
    rewrite !nlen_app in Hl. unfold std_move.
    destruct (cmax_W sz lmax Hsz Hlim (v_cap v) Hm) as (_&_&HW).
    assert ((nlen xs + nlen ds <=? nlen xs) && (nlen xs <? v_len v) = false) as ->.
    { apply andb_false_iff. destruct Hd as [Hd| ->].
      - left. apply N.leb_gt. destruct ds; [done|]. unfold nlen. simpl. lia.
      - destruct ds as [|d ds]; [right|left].
        + apply N.ltb_ge. unfold nlen in *. simpl in *. lia.
        + apply N.leb_gt. unfold nlen. simpl. lia. }
    destruct (v_ptr v) as [a|] eqn:Ep.
    2:{ destruct Hp as [H0 ->]. assert (xs = []) as -> by (apply nlen_nil_inv; lia).
        assert (ds = []) as -> by (apply nlen_nil_inv; lia).
        assert (ys = []) as -> by (apply nlen_nil_inv; lia).
        assert (v_len v = 0) as Hz by lia. rewrite Hz. simpl. unfold bind, ret. simpl.
        exists v, h, []. split; [done|]. split; [done|]. apply upd_refl; [done|set_solver]. }
    destruct Hp as [-> Hb].
    assert (Hcs : vcells (xs ++ ds ++ ys) (v_cap v) = (Live <$> xs) ++ (Live <$> ds) ++ (Live <$> ys) ++
        replicate (N.to_nat (v_cap v) - (length xs + length ds + length ys)) Raw).
    { unfold vcells. rewrite !fmap_app, <-!(assoc_L app), !app_length. do 4 f_equal. lia. }
    rewrite Hcs in Hb.
    replace (N.to_nat (v_len v - (nlen xs + nlen ds))) with (length ys) by (unfold nlen in *; lia).
    assert (exists gap' n, Forall (fun c => c <> Raw) gap' /\ length gap' = length ds /\
      for_up (length ys) 0 (fun k => x <-- vmove (Some a) (nlen xs + nlen ds + k) ;;
                              vassign (Some a) (nlen xs + k) x) h =
        Ok (tt, hput h a (Blk (v_alloc v) (sz * v_cap v) ((Live <$> xs) ++ (Live <$> ys) ++ gap' ++
        replicate (N.to_nat (v_cap v) - (length xs + length ds + length ys)) Raw)) n)) as (gap&n&Hg&Hgl&E).
    { destruct Hd as [Hd| ->].
      - destruct (shift_run a _ _ (nlen xs + nlen ds) (nlen xs) ys h _ (Live <$> ds) _ 0
          ltac:(apply Forall_live_not_raw) ltac:(by destruct ds) Hb) as (gap&n&Hg&Hgl&E).
        + rewrite fmap_length. unfold nlen. lia.
        + rewrite !fmap_length. unfold nlen. lia.
        + rewrite fmap_length in Hgl. exists gap, n. done.
      - exists (Live <$> ds), 0. split; [apply Forall_live_not_raw|]. rewrite fmap_length.
        split; [done|]. simpl. rewrite hput_id; done. }
    rewrite (bind_ok _ _ _ _ _ E). clear E.
    destruct v as [len cap ptr al]. simpl in *. subst ptr.
    rewrite <-Hgl.
    assert (len = N.of_nat (length ((Live <$> xs) ++ (Live <$> ys)) + length gap)) as Hlen.
    { rewrite app_length, !fmap_length. unfold nlen in *. lia. }
    rewrite Hlen.
    erewrite (pop_n_gen a al _ cap gap); [|done|lia|].
    2:{ rewrite hput_lookup, <-(assoc_L app). done. }
    rewrite hput_hput. rewrite app_length, !fmap_length.
    eexists _, _, [a]. split; [done|]. split.
    - split; [simpl; unfold nlen; rewrite app_length; lia|]. simpl.
      split; [unfold nlen in *; lia|]. split; [done|]. split; [done|].
      rewrite lookup_insert. unfold vcells. rewrite fmap_app, <-!(assoc_L app).
      do 4 f_equal. rewrite Hgl, <-replicate_add, app_length. f_equal. unfold nlen in *. lia.
    - eapply upd_write_map; eauto.
  Qed.

  Lemma erase_range_ok h v xs ds ys fp :
    hwf h -> vrep h v (xs ++ ds ++ ys) fp -> ds <> [] \/ ys = [] ->
    posto h fp (erase_range v (nlen xs) (nlen xs + nlen ds) h) (xs ++ ys) (Some (nlen xs)).
  Proof.
    intros Hwf Hr Hd. unfold erase_range.
    assert (Hl : v_len v = nlen (xs ++ ds ++ ys)) by apply Hr. rewrite !nlen_app in Hl.
    destruct (cmax_W sz lmax Hsz Hlim (v_cap v)) as (_&_&HW); [apply Hr|].
    assert (v_len v <= v_cap v) by apply Hr.
    rewrite (proj2 (N.ltb_ge _ _)) by lia.
    rewrite usub_small by lia.
    replace (N.to_nat (nlen xs + nlen ds - nlen xs)) with (length ds) by (unfold nlen; lia).
    destruct (erase_gen h v xs ds ys fp Hwf Hr Hd) as (v'&h'&fp'&E&Hr'&Hu).
    destruct (std_move (v_ptr v) (nlen xs + nlen ds) (v_len v) (nlen xs) h) as [[[] h1]|e] eqn:E1.
    2:{ unfold bind in E. rewrite E1 in E. done. }
    rewrite (bind_ok _ _ _ _ _ E1) in E. rewrite (bind_ok _ _ _ _ _ E1).
    rewrite (bind_ok _ _ _ _ _ E). exists v', h', fp'. done.
  Qed.

  Lemma erase1_ok h v xs d ys fp :
    hwf h -> vrep h v (xs ++ d :: ys) fp ->
    posto h fp (erase1 v (nlen xs) h) (xs ++ ys) (Some (nlen xs)).
  Proof.
    intros Hwf Hr. unfold erase1.
    assert (Hl : v_len v = nlen (xs ++ d :: ys)) by apply Hr. rewrite nlen_app in Hl.
    destruct (cmax_W sz lmax Hsz Hlim (v_cap v)) as (_&_&HW); [apply Hr|].
    assert (v_len v <= v_cap v) by apply Hr.
    assert (nlen (d :: ys) = nlen ys + 1) as Hd by (unfold nlen; simpl; lia).
    rewrite usub_small by lia.
    destruct (erase_gen h v xs [d] ys fp Hwf Hr ltac:(by left)) as (v'&h'&fp'&E&Hr'&Hu).
    change (nlen [d]) with 1 in E.
    destruct (N.eqb_spec (nlen xs) (v_len v - 1)) as [He|He].
    - assert (ys = []) as -> by (apply nlen_nil_inv; lia).
      destruct (pop_back_ok sz lmax Hsz Hlim h v xs d fp Hwf Hr) as (h2&E2&Hr2&Hu2&_).
      rewrite (bind_ok _ _ _ _ _ E2). unfold ret. simpl.
      rewrite app_nil_r. eexists _, h2, fp. split; [done|]. done.
    - rewrite (proj2 (N.ltb_lt _ _)) by lia.
      destruct (std_move (v_ptr v) (nlen xs + 1) (v_len v) (nlen xs) h) as [[[] h1]|e] eqn:E1.
      2:{ unfold bind in E. rewrite E1 in E. done. }
      rewrite (bind_ok _ _ _ _ _ E1) in E. rewrite (bind_ok _ _ _ _ _ E1).
      simpl in E. destruct (pop_back v h1) as [[v2 h2]|e] eqn:E2.
      2:{ unfold bind in E. rewrite E2 in E. done. }
      rewrite (bind_ok _ _ _ _ _ E2) in E. rewrite (bind_ok _ _ _ _ _ E2).
      injection E as -> ->. exists v', h', fp'. done.
  Qed.

  (** ** Observers *)
  Lemma vread_at h v xs fp i x :
    vrep h v xs fp -> xs !! i = Some x -> vread (v_ptr v) (N.of_nat i) h = Ok (x, h).
  Proof using Type. clear Hsz Hlim.
    intros (Hl & Hc & Hm & Hp) Hx. assert (i < length xs)%nat by (by eapply lookup_lt_Some).
    destruct (v_ptr v) as [a|]; [|unfold nlen in *; lia]. destruct Hp as [-> Hb].
    unfold vcells in Hb. rewrite <-(take_drop_middle xs i x Hx) in Hb at 1.
    rewrite fmap_app, <-(assoc_L app) in Hb. simpl in Hb.
    eapply vread_ok; [exact Hb|]. rewrite fmap_length, take_length. lia.
  Qed.

  Lemma vread_nlookup h v xs fp i x :
    vrep h v xs fp -> nlookup xs i = Some x -> vread (v_ptr v) i h = Ok (x, h).
  Proof using Type. clear Hsz Hlim.
    intros Hr Hx. rewrite nlookup_lookup in Hx.
    rewrite <-(N2Nat.id i). by eapply vread_at.
  Qed.

  Lemma at_ok h v xs fp i : vrep h v xs fp -> at_ v i h = Ok (nlookup xs i, h).
  Proof using Type. clear Hsz Hlim.
    intros Hr. unfold at_. assert (Hl : v_len v = nlen xs) by apply Hr. rewrite Hl.
    destruct (nlookup xs i) as [x|] eqn:E.
    - assert (i < nlen xs).
      { unfold nlookup in E. destruct (N.ltb_spec i (N.of_nat (length xs))); done. }
      rewrite (proj2 (N.ltb_lt _ _)) by done.
      by rewrite (bind_ok _ _ _ _ _ (vread_nlookup _ _ _ _ _ _ Hr E)).
    - rewrite nlookup_lookup in E. apply lookup_ge_None in E.
      rewrite (proj2 (N.ltb_ge _ _)); [done|]. unfold nlen. lia.
  Qed.

  Lemma front_ok h v xs fp : vrep h v xs fp -> front v h = Ok (head xs, h).
  Proof using Type. clear Hsz Hlim.
    intros Hr. unfold front. assert (Hl : v_len v = nlen xs) by apply Hr. rewrite Hl.
    destruct xs as [|x xs]; [done|].
    assert (E := vread_at _ _ _ _ 0 x Hr eq_refl). change (N.of_nat 0) with 0 in E.
    destruct (N.eqb_spec (nlen (x :: xs)) 0) as [Hz|_]; [unfold nlen in Hz; simpl in Hz; lia|].
    cbn [negb]. by rewrite (bind_ok _ _ _ _ _ E).
  Qed.

  Lemma back_ok h v xs fp : vrep h v xs fp -> back v h = Ok (last xs, h).
  Proof.
    intros Hr. unfold back. assert (Hl : v_len v = nlen xs) by apply Hr. rewrite Hl.
    destruct xs as [|x xs _] using rev_ind; [done|].
    rewrite last_snoc, nlen_app. change (nlen [x]) with 1.
    destruct (N.eqb_spec (nlen xs + 1) 0) as [Hz|Hz]; [lia|]. cbn [negb].
    destruct (cmax_W sz lmax Hsz Hlim (v_cap v)) as (_&_&HW); [apply Hr|].
    assert (v_len v <= v_cap v) by apply Hr. rewrite nlen_app in Hl. change (nlen [x]) with 1 in Hl.
    rewrite usub_small by lia.
    replace (nlen xs + 1 - 1) with (N.of_nat (length xs)) by (unfold nlen; lia).
    by rewrite (bind_ok _ _ _ _ _ (vread_at _ _ _ _ (length xs) x Hr
      (list_lookup_middle _ _ _ _ eq_refl))).
  Qed.

  Lemma collect_ok h v xs fp : vrep h v xs fp -> collect v h = Ok (xs, h).
  Proof using Type. clear Hsz Hlim.
    intros (Hl & Hc & Hm & Hp). unfold collect, iter.
    destruct (v_ptr v) as [a|] eqn:Ep.
    - destruct Hp as [-> Hb]. erewrite (collect_run a _ _ xs h []); [done|exact Hb|done| |].
      + unfold nlen in Hl. simpl. lia.
      + unfold nlen in Hl. lia.
    - destruct Hp as [H0 ->]. assert (xs = []) as -> by (apply nlen_nil_inv; lia).
      rewrite Hl. done.
  Qed.

  Lemma print_run v xs : forall n k h fp,
    vrep h v xs fp -> (k + n = length xs)%nat ->
    print_loop n (N.of_nat k) v h = Ok (seq_items (drop k xs), h).
  Proof.
    induction n as [|n IH]; intros k h fp Hr Hk; simpl.
    - rewrite drop_ge by lia. done.
    - destruct (lookup_lt_is_Some_2 xs k ltac:(lia)) as [x Hx].
      rewrite (bind_ok _ _ _ _ _ (vread_at _ _ _ _ k x Hr Hx)).
      replace (N.of_nat k + 1) with (N.of_nat (S k)) by lia.
      rewrite (bind_ok _ _ _ _ _ (IH (S k) h fp Hr ltac:(lia))).
      rewrite (drop_S _ _ _ Hx). unfold ret.
      assert (Hl : v_len v = nlen xs) by apply Hr. rewrite Hl.
      destruct (cmax_W sz lmax Hsz Hlim (v_cap v)) as (_&_&HW); [apply Hr|].
      assert (v_len v <= v_cap v) by apply Hr.
      rewrite usub_small by (unfold nlen in *; lia).
      destruct (drop (S k) xs) as [|y ys] eqn:E.
      + assert (length (drop (S k) xs) = 0%nat) as E' by by rewrite E.
        rewrite drop_length in E'. simpl.
        destruct (N.eqb_spec (N.of_nat k) (nlen xs - 1)); [done|unfold nlen in *; lia].
      + assert (length (drop (S k) xs) = S (length ys)) as E' by by rewrite E.
        rewrite drop_length in E'.
        destruct (N.eqb_spec (N.of_nat k) (nlen xs - 1)); [unfold nlen in *; lia|done].
  Qed.

  Lemma print_ok h v xs fp : vrep h v xs fp -> print v h = Ok (seq_print xs, h).
  Proof.
    intros Hr. unfold print. assert (Hl : v_len v = nlen xs) by apply Hr.
    rewrite Hl. unfold nlen. rewrite Nat2N.id.
    by rewrite (bind_ok _ _ _ _ _ (print_run v xs (length xs) 0 h fp Hr eq_refl)).
  Qed.

  Lemma eq_run eqb h v w xs ys fp fq : forall n k,
    vrep h v xs fp -> vrep h w ys fq -> length xs = length ys -> (k + n = length xs)%nat ->
    eq_loop eqb n (N.of_nat k) (v_ptr v) (v_ptr w) h =
      Ok (seq_eq eqb (drop k xs) (drop k ys), h).
  Proof using Type. clear Hsz Hlim.
    intros n k Hr Hw Hl. revert k. induction n as [|n IH]; intros k Hk; simpl.
    - rewrite !drop_ge by lia. done.
    - destruct (lookup_lt_is_Some_2 xs k ltac:(lia)) as [x Hx].
      destruct (lookup_lt_is_Some_2 ys k ltac:(lia)) as [y Hy].
      rewrite (bind_ok _ _ _ _ _ (vread_at _ _ _ _ k x Hr Hx)).
      rewrite (bind_ok _ _ _ _ _ (vread_at _ _ _ _ k y Hw Hy)).
      rewrite (drop_S _ _ _ Hx), (drop_S _ _ _ Hy). simpl.
      destruct (eqb x y); simpl; [|done].
      replace (N.of_nat k + 1) with (N.of_nat (S k)) by lia. apply IH. lia.
  Qed.

  Lemma seq_eq_length eqb xs : forall ys, length xs <> length ys -> seq_eq eqb xs ys = false.
  Proof using Type. clear Hsz Hlim.
    induction xs as [|x xs IH]; intros [|y ys] Hl; simpl in *; try done.
    rewrite IH by lia. by rewrite andb_false_r.
  Qed.

  Lemma vec_eq_ok eqb h v w xs ys fp fq :
    vrep h v xs fp -> vrep h w ys fq -> vec_eq eqb v w h = Ok (seq_eq eqb xs ys, h).
  Proof using Type. clear Hsz Hlim.
    intros Hr Hw. unfold vec_eq.
    assert (Hl : v_len v = nlen xs) by apply Hr. assert (Hl2 : v_len w = nlen ys) by apply Hw.
    rewrite Hl, Hl2. destruct (N.eqb_spec (nlen xs) (nlen ys)) as [He|He]; cbn [negb].
    - unfold nlen in *. rewrite Nat2N.id.
      apply (eq_run eqb h v w xs ys fp fq (length xs) 0 Hr Hw); lia.
    - rewrite seq_eq_length; [done|]. unfold nlen in *. lia.
  Qed.

  Lemma cmp_run cmp h v w xs ys fp fq : forall n k,
    vrep h v xs fp -> vrep h w ys fq -> (k + n = min (length xs) (length ys))%nat ->
    cmp_loop cmp n (N.of_nat k) (v_ptr v) (v_ptr w) (N.compare (nlen xs) (nlen ys)) h =
      Ok (seq_cmp cmp (drop k xs) (drop k ys), h).
  Proof using Type. clear Hsz Hlim.
    intros n k Hr Hw. revert k. induction n as [|n IH]; intros k Hk; simpl.
    - unfold ret. do 2 f_equal. destruct (N.compare_spec (nlen xs) (nlen ys)) as [He|He|He]; unfold nlen in *.
      + rewrite !drop_ge by lia. done.
      + rewrite (drop_ge xs) by lia. destruct (drop k ys) as [|y r] eqn:E; [|done].
        assert (length (drop k ys) = 0%nat) as E' by by rewrite E. rewrite drop_length in E'. lia.
      + rewrite (drop_ge ys) by lia. destruct (drop k xs) as [|y r] eqn:E; [|done].
        assert (length (drop k xs) = 0%nat) as E' by by rewrite E. rewrite drop_length in E'. lia.
    - destruct (lookup_lt_is_Some_2 xs k ltac:(lia)) as [x Hx].
      destruct (lookup_lt_is_Some_2 ys k ltac:(lia)) as [y Hy].
      rewrite (bind_ok _ _ _ _ _ (vread_at _ _ _ _ k x Hr Hx)).
      rewrite (bind_ok _ _ _ _ _ (vread_at _ _ _ _ k y Hw Hy)).
      rewrite (drop_S _ _ _ Hx), (drop_S _ _ _ Hy). simpl.
      destruct (cmp x y); [|done|done].
      replace (N.of_nat k + 1) with (N.of_nat (S k)) by lia. apply IH. lia.
  Qed.

  Lemma vec_cmp_ok cmp h v w xs ys fp fq :
    vrep h v xs fp -> vrep h w ys fq -> vec_cmp cmp v w h = Ok (seq_cmp cmp xs ys, h).
  Proof using Type. clear Hsz Hlim.
    intros Hr Hw. unfold vec_cmp.
    assert (Hl : v_len v = nlen xs) by apply Hr. assert (Hl2 : v_len w = nlen ys) by apply Hw.
    rewrite Hl, Hl2. eapply (cmp_run cmp h v w xs ys fp fq _ 0); [done|done|]. unfold nlen. lia.
  Qed.

  Lemma set_index_ok h v xs ys y x fp :
    hwf h -> vrep h v (xs ++ y :: ys) fp ->
    exists h', set_index v (nlen xs) x h = Ok (tt, h') /\
      vrep h' v (xs ++ x :: ys) fp /\ upd h h' fp fp.
  Proof using Type. clear Hsz Hlim.
    intros Hwf (Hl & Hc & Hm & Hp). unfold set_index. rewrite nlen_app in Hl.
    assert (nlen (y :: ys) = nlen ys + 1) as Hd by (unfold nlen; simpl; lia).
    destruct (v_ptr v) as [a|] eqn:Ep; [|lia]. destruct Hp as [-> Hb].
    unfold vcells in Hb. rewrite fmap_app, <-(assoc_L app) in Hb. simpl in Hb.
    erewrite (vassign_ok _ _ _ _ _ _ x _ _ Hb); [|by rewrite fmap_length|done].
    eexists. split; [done|]. split; [|eapply upd_write_map; eauto].
    split; [rewrite nlen_app; unfold nlen in *; simpl in *; lia|]. split; [done|]. split; [done|].
    rewrite Ep. split; [done|]. rewrite hput_lookup. unfold vcells.
    rewrite fmap_app, <-(assoc_L app). simpl. rewrite !app_length. done.
  Qed.

  Lemma emplace_back_ok h v xs fp x :
    hwf h -> vrep h v xs fp -> nlen xs + 1 <= lmax ->
    posto h fp (emplace_back sz v x h) (xs ++ [x]) x.
  Proof.
    intros Hwf Hr Hn. unfold emplace_back.
    destruct (push_back_ok sz lmax Hsz Hlim h v xs fp x Hwf Hr Hn) as (v'&h'&fp'&E&Hr'&Hu).
    rewrite (bind_ok _ _ _ _ _ E).
    assert (Hl : v_len v' = nlen (xs ++ [x])) by apply Hr'.
    rewrite nlen_app in Hl. change (nlen [x]) with 1 in Hl.
    destruct (cmax_W sz lmax Hsz Hlim (v_cap v')) as (_&_&HW); [apply Hr'|].
    assert (v_len v' <= v_cap v') by apply Hr'.
    rewrite usub_small by lia.
    replace (v_len v' - 1) with (N.of_nat (length xs)) by (unfold nlen in *; lia).
    erewrite (bind_ok _ _ _ _ _ (vread_at _ _ _ _ (length xs) x Hr' _)).
    Unshelve. 2: by apply list_lookup_middle.
    exists v', h', fp'. done.
  Qed.
End VecProofs2.
