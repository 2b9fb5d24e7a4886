(** * VecRefine: every history of Vector operations refines the list machine *)
From Verif Require Import Base World VecModel VecSpec VecFacts VecProofs VecProofs2.
Local Open Scope N_scope.

Section Refine.
  Context {A : Type} (sz lmax : N) (dflt : A).
  Context (eqb : A -> A -> bool) (cmp : A -> A -> comparison).
  Context (Hsz : 1 <= sz) (Hlim : sz * (2 * lmax + 2) <= alloc_max).

  Notation VM := (M (heap (block A))).
  Notation vrep := (@vrep A sz lmax).
  Notation post := (@post A sz lmax).
  Notation posto := (posto sz lmax).
  Notation wok := (world_ok (@VecProofs.vrep A sz lmax)).
  Notation wokw := (world_ok_with (@VecProofs.vrep A sz lmax)).
  Notation W_ := (world (block A) vec).

  Definition within (sp : gmap nat (list A)) : Prop :=
    forall i xs, sp !! i = Some xs -> nlen xs <= lmax.

  Definition done_ok (r : outcome (vout A * W_)) (out : vout A) (sp' : gmap nat (list A)) : Prop :=
    exists w', r = Ok (out, w') /\ wok w' sp'.

  Lemma step_mk w sp m i (f : VM vec) xs :
    wokw w sp m -> sp !! i = None -> post (w_heap w) [] (f (w_heap w)) xs ->
    done_ok (mk i f w) ONone (<[i := xs]> sp).
  Proof using Type. clear Hsz Hlim.
    intros Hw Hi (v'&h'&fp'&E&Hr&Hu).
    destruct (world_ok_none _ _ _ _ _ Hw Hi) as [Hmi Hwi].
    unfold mk, bind, wnew. rewrite Hwi. unfold lift. rewrite E. simpl.
    eexists. split; [done|]. eexists. simpl. eapply (world_new _ (vrep_frame sz lmax) (vrep_dom sz lmax)); eauto.
  Qed.

  Lemma step_upd1 w sp m i (f : vec -> VM vec) xs xs' :
    wokw w sp m -> sp !! i = Some xs ->
    (forall v fp, vrep (w_heap w) v xs fp -> post (w_heap w) fp (f v (w_heap w)) xs') ->
    done_ok (upd1 i f w) ONone (<[i := xs']> sp).
  Proof using Type. clear Hsz Hlim.
    intros Hw Hi Hf.
    destruct (world_ok_lookup_spec _ _ _ _ _ _ Hw Hi) as (e & Hm & <- & Hv & Hr).
    destruct (Hf _ _ Hr) as (v'&h'&fp'&E&Hr'&Hu).
    unfold upd1, bind, wget. rewrite Hv. unfold lift. rewrite E. simpl.
    eexists. split; [done|]. eexists. simpl. eapply (world_upd1 _ (vrep_frame sz lmax) (vrep_dom sz lmax)); eauto.
  Qed.

  Lemma step_upd1o {X} w sp m i (f : vec -> VM (vec * X)) g xs xs' x :
    wokw w sp m -> sp !! i = Some xs ->
    (forall v fp, vrep (w_heap w) v xs fp -> posto (w_heap w) fp (f v (w_heap w)) xs' x) ->
    done_ok (upd1o i f g w) (g x) (<[i := xs']> sp).
  Proof using Type. clear Hsz Hlim.
    intros Hw Hi Hf.
    destruct (world_ok_lookup_spec _ _ _ _ _ _ Hw Hi) as (e & Hm & <- & Hv & Hr).
    destruct (Hf _ _ Hr) as (v'&h'&fp'&E&Hr'&Hu).
    unfold upd1o, bind, wget. rewrite Hv. unfold lift. rewrite E. simpl.
    eexists. split; [done|]. eexists. simpl. eapply (world_upd1 _ (vrep_frame sz lmax) (vrep_dom sz lmax)); eauto.
  Qed.

  Lemma step_obs {X} w sp m i (f : vec -> VM X) g xs x :
    wokw w sp m -> sp !! i = Some xs ->
    (forall v fp, vrep (w_heap w) v xs fp -> f v (w_heap w) = Ok (x, w_heap w)) ->
    done_ok (obs i f g w) (g x) sp.
  Proof using Type. clear Hsz Hlim.
    intros Hw Hi Hf.
    destruct (world_ok_lookup_spec _ _ _ _ _ _ Hw Hi) as (e & Hm & <- & Hv & Hr).
    unfold obs, bind, wget. rewrite Hv. unfold lift. rewrite (Hf _ _ Hr). simpl.
    eexists. split; [done|]. exists m. by destruct w.
  Qed.

  Lemma insert_same (sp : gmap nat (list A)) i xs : sp !! i = Some xs -> <[i := xs]> sp = sp.
  Proof using Type. clear Hsz Hlim. apply insert_id. Qed.

  Theorem vec_step_refines w sp o sp' out :
    wok w sp -> within sp ->
    vspec_step dflt eqb cmp sp o = Some (sp', out) ->
    vop_safe sp o -> vlimit lmax o sp' ->
    done_ok (vec_step sz dflt eqb cmp o w) out sp'.
  Proof.
    intros [m Hw] Hin Hs Hsafe [Hlm Hlr].
    assert (Hwf : hwf (w_heap w)) by apply Hw.
    assert (Hnew : forall i xs, sp' !! i = Some xs -> nlen xs <= lmax) by exact Hlm.
    destruct o; simpl in Hs, Hsafe, Hlr |- *; unfold create, modify, observe in Hs.
    (* VNew *)
    - destruct (sp !! i) eqn:Ei; [done|]. injection Hs as <- <-.
      eapply step_mk; eauto. by apply new_default_ok.
    (* VNewAlloc *)
    - destruct (sp !! i) eqn:Ei; [done|]. injection Hs as <- <-.
      eapply step_mk; eauto. apply post_ret; [done|apply vrep_null].
    (* VNewFill *)
    - destruct (sp !! i) eqn:Ei; [done|]. injection Hs as <- <-.
      specialize (Hnew i _ (lookup_insert _ _ _)).
      eapply step_mk; eauto. apply new_fill_ok; try done.
      unfold nlen, nrep in Hnew. rewrite replicate_length in Hnew. lia.
    (* VNewCount *)
    - destruct (sp !! i) eqn:Ei; [done|]. injection Hs as <- <-.
      specialize (Hnew i _ (lookup_insert _ _ _)).
      eapply step_mk; eauto. apply new_fill_ok; try done.
      unfold nlen, nrep in Hnew. rewrite replicate_length in Hnew. lia.
    (* VNewList *)
    - destruct (sp !! i) eqn:Ei; [done|]. injection Hs as <- <-.
      specialize (Hnew i _ (lookup_insert _ _ _)).
      eapply step_mk; eauto. by apply new_list_ok.
    (* VNewRange *)
    - destruct (sp !! i) eqn:Ei; [done|]. injection Hs as <- <-.
      specialize (Hnew i _ (lookup_insert _ _ _)).
      eapply step_mk; eauto. by apply new_range_ok.
    (* VFromIter *)
    - destruct (sp !! i) eqn:Ei; [done|]. injection Hs as <- <-.
      specialize (Hnew i _ (lookup_insert _ _ _)).
      eapply step_mk; eauto. by apply from_iter_ok.
    (* VNewCopy *)
    - destruct (sp !! j) as [ys|] eqn:Ej; [|done].
      destruct (sp !! i) eqn:Ei; [done|]. injection Hs as <- <-.
      destruct (world_ok_lookup_spec _ _ _ _ _ _ Hw Ej) as (e & Hm & <- & Hv & Hr).
      unfold bind at 1. unfold wget. rewrite Hv.
      eapply step_mk; eauto. eapply copy_impl_ok; eauto.
    (* VNewCopyAl *)
    - destruct (sp !! j) as [ys|] eqn:Ej; [|done].
      destruct (sp !! i) eqn:Ei; [done|]. injection Hs as <- <-.
      destruct (world_ok_lookup_spec _ _ _ _ _ _ Hw Ej) as (e & Hm & <- & Hv & Hr).
      unfold bind at 1. unfold wget. rewrite Hv.
      eapply step_mk; eauto. eapply copy_impl_ok; eauto.
    (* VNewMove *)
    - destruct (sp !! j) as [ys|] eqn:Ej; [|done].
      destruct (sp !! i) eqn:Ei; [done|]. injection Hs as <- <-.
      destruct (world_ok_lookup_spec _ _ _ _ _ _ Hw Ej) as (e & Hm & <- & Hv & Hr).
      destruct (world_ok_none _ _ _ _ _ Hw Ei) as [Hmi Hwi].
      unfold bind, wnew, wget. rewrite Hwi, Hv. simpl.
      eexists. split; [done|]. eexists. simpl.
      eapply (world_new2 _ (vrep_frame sz lmax) (vrep_dom sz lmax) w sp m i j e _ _ _ _ _ (e_fp e) []); eauto.
      + rewrite app_nil_r. apply upd_refl; [done|]. intros a Ha. by eapply vrep_dom.
      + set_solver.
      + apply vrep_null.
    (* VDestroy *)
    - destruct (sp !! i) as [xs|] eqn:Ei; [|done]. injection Hs as <- <-.
      destruct (world_ok_lookup_spec _ _ _ _ _ _ Hw Ei) as (e & Hm & <- & Hv & Hr).
      destruct (clear_ok sz lmax Hsz Hlim _ _ _ _ Hwf Hr) as (h'&E&_&Hu&_).
      unfold bind, wget. rewrite Hv. unfold lift. rewrite E. simpl.
      eexists. split; [done|]. eexists. simpl. eapply (world_del _ (vrep_frame sz lmax) (vrep_dom sz lmax)); eauto.
    (* VCopyAsg *)
    - destruct (sp !! j) as [ys|] eqn:Ej; [|done].
      destruct (sp !! i) as [xs|] eqn:Ei; [|done]. injection Hs as <- <-.
      destruct (world_ok_lookup_spec _ _ _ _ _ _ Hw Ei) as (e & Hm & <- & Hv & Hr).
      destruct (world_ok_lookup_spec _ _ _ _ _ _ Hw Ej) as (f & Hmj & <- & Hvj & Hrj).
      unfold bind, wget. rewrite Hv, Hvj.
      destruct (Nat.eqb_spec i j) as [<-|Hij].
      + rewrite Hm in Hmj. injection Hmj as <-. rewrite insert_same by done.
        eexists. split; [done|]. by exists m.
      + destruct (copy_assign_ok sz lmax Hsz Hlim (w_heap w) (e_o e) (e_s e) (e_fp e)
          (e_o f) (e_s f) (e_fp f)) as (v'&h'&fp'&E&Hr'&Hu); eauto.
        { intros a. eapply (wo_disj _ _ _ _ Hw i j); eauto. }
        unfold lift. rewrite E. simpl. eexists. split; [done|]. eexists. simpl.
        eapply (world_upd1 _ (vrep_frame sz lmax) (vrep_dom sz lmax)); eauto.
    (* VMoveAsg *)
    - destruct (Nat.eqb_spec i j) as [<-|Hij].
      + destruct (sp !! i) as [xs|] eqn:Ei; [|done]. injection Hs as <- <-.
        destruct (world_ok_lookup_spec _ _ _ _ _ _ Hw Ei) as (e & Hm & <- & Hv & Hr).
        unfold bind, wget. rewrite !Hv. eexists. split; [done|]. by exists m.
      + destruct (sp !! j) as [ys|] eqn:Ej; [|done].
        destruct (sp !! i) as [xs|] eqn:Ei; [|done]. injection Hs as <- <-.
        destruct (world_ok_lookup_spec _ _ _ _ _ _ Hw Ei) as (e & Hm & <- & Hv & Hr).
        destruct (world_ok_lookup_spec _ _ _ _ _ _ Hw Ej) as (f & Hmj & <- & Hvj & Hrj).
        destruct (clear_ok sz lmax Hsz Hlim _ _ _ _ Hwf Hr) as (h'&E&_&Hu&_).
        assert (Hd : forall a, a ∈ e_fp e -> a ∈ e_fp f -> False).
        { intros a. eapply (wo_disj _ _ _ _ Hw i j); eauto. }
        unfold bind, wget. rewrite Hv, Hvj.
        unfold lift, move_assign, bind. rewrite E. simpl.
        eexists. split; [done|]. eexists. simpl.
        eapply (world_upd2 _ (vrep_frame sz lmax) (vrep_dom sz lmax) w sp m i j e f _ _ _ _ _ (e_fp f) []); eauto.
        * eapply (upd_equiv _ _ (e_fp e ++ e_fp f) ([] ++ e_fp f)); [done|set_solver|].
          apply upd_frame_r; [done|done|]. intros a Ha. split; [by eapply vrep_dom|eauto].
        * set_solver.
        * eapply (vrep_other sz lmax (w_heap w)); eauto.
        * apply vrep_null.
    (* VAssignFill *)
    - destruct (sp !! i) as [xs|] eqn:Ei; [|done]. injection Hs as <- <-.
      specialize (Hnew i _ (lookup_insert _ _ _)).
      eapply step_upd1; eauto. intros v fp Hr. eapply assign_fill_ok; eauto.
      unfold nlen, nrep in Hnew. rewrite replicate_length in Hnew. lia.
    (* VAssignList *)
    - destruct (sp !! i) as [ys|] eqn:Ei; [|done]. injection Hs as <- <-.
      specialize (Hnew i _ (lookup_insert _ _ _)).
      eapply step_upd1; eauto. intros v fp Hr. eapply assign_list_ok; eauto.
    (* VReserve *)
    - destruct (sp !! i) as [xs|] eqn:Ei; [|done]. injection Hs as <- <-.
      eapply step_upd1; eauto. intros v fp Hr. eapply reserve_ok; eauto. lia.
    (* VClear *)
    - destruct (sp !! i) as [xs|] eqn:Ei; [|done]. injection Hs as <- <-.
      eapply step_upd1; eauto. intros v fp Hr.
      destruct (clear_ok sz lmax Hsz Hlim _ _ _ _ Hwf Hr) as (h'&E&Hr'&Hu&_).
      eexists _, _, _. eauto.
    (* VPush *)
    - destruct (sp !! i) as [xs|] eqn:Ei; [|done]. injection Hs as <- <-.
      specialize (Hnew i _ (lookup_insert _ _ _)). rewrite nlen_app in Hnew.
      eapply step_upd1; eauto. intros v fp Hr. eapply push_back_ok; eauto.
    (* VEmplaceBack *)
    - destruct (sp !! i) as [xs|] eqn:Ei; [|done]. injection Hs as <- <-.
      specialize (Hnew i _ (lookup_insert _ _ _)). rewrite nlen_app in Hnew.
      eapply step_upd1o; eauto. intros v fp Hr. eapply emplace_back_ok; eauto.
    (* VPop *)
    - destruct (sp !! i) as [xs|] eqn:Ei; [|done].
      destruct xs as [|x xs _] using rev_ind; [done|].
      replace (match xs ++ [x] with [] => None | _ => Some (take (length (xs ++ [x]) - 1) (xs ++ [x]), ONone) end)
        with (Some (xs, @ONone A)) in Hs.
      2:{ destruct (xs ++ [x]) as [|y l] eqn:E; [by destruct xs|]. rewrite <-E.
          rewrite app_length. simpl. rewrite Nat.add_sub.
          by rewrite take_app. }
      injection Hs as <- <-.
      eapply step_upd1; eauto. intros v fp Hr.
      destruct (pop_back_ok sz lmax Hsz Hlim _ _ _ _ _ Hwf Hr) as (h'&E&Hr'&Hu&_).
      eexists _, _, _. eauto.
    (* VResize *)
    - destruct (sp !! i) as [xs|] eqn:Ei; [|done]. injection Hs as <- <-.
      specialize (Hnew i _ (lookup_insert _ _ _)). rewrite nlen_app in Hnew.
      assert (Hx := Hin _ _ Ei).
      eapply step_upd1; eauto. intros v fp Hr. eapply resize_ok; eauto.
      unfold nlen, ntake, nrep in *. rewrite take_length, replicate_length in Hnew. lia.
    (* VResizeVal *)
    - destruct (sp !! i) as [xs|] eqn:Ei; [|done]. injection Hs as <- <-.
      specialize (Hnew i _ (lookup_insert _ _ _)). rewrite nlen_app in Hnew.
      assert (Hx := Hin _ _ Ei).
      eapply step_upd1; eauto. intros v fp Hr. eapply resize_ok; eauto.
      unfold nlen, ntake, nrep in *. rewrite take_length, replicate_length in Hnew. lia.
    (* VSwap *)
    - destruct (sp !! i) as [xs|] eqn:Ei; [|done].
      destruct (sp !! j) as [ys|] eqn:Ej; [|done]. injection Hs as <- <-.
      destruct (world_ok_lookup_spec _ _ _ _ _ _ Hw Ei) as (e & Hm & <- & Hv & Hr).
      destruct (world_ok_lookup_spec _ _ _ _ _ _ Hw Ej) as (f & Hmj & <- & Hvj & Hrj).
      unfold bind, wget. rewrite Hv, Hvj. simpl.
      eexists. split; [done|]. destruct (decide (i = j)) as [<-|Hij].
      + rewrite Hm in Hmj. injection Hmj as <-. rewrite !insert_insert, (insert_same sp) by done.
        rewrite insert_id by done. exists m. by destruct w.
      + eexists. simpl.
        eapply (world_upd2 _ (vrep_frame sz lmax) (vrep_dom sz lmax) w sp m i j e f _ _ _ _ _ (e_fp f) (e_fp e)); eauto.
        * eapply (upd_equiv _ _ (e_fp e ++ e_fp f) (e_fp e ++ e_fp f)); [done|set_solver|].
          apply upd_refl; [done|]. intros a [Ha|Ha]%elem_of_app; [exact (vrep_dom sz lmax _ _ _ _ _ Hr Ha)|exact (vrep_dom sz lmax _ _ _ _ _ Hrj Ha)].
        * intros a Ha Hb. eapply (wo_disj _ _ _ _ Hw i j); eauto.
    (* VSet *)
    - destruct (sp !! i) as [xs|] eqn:Ei; [|done].
      destruct (N.ltb_spec k (nlen xs)) as [Hk|]; [|done]. injection Hs as <- <-.
      destruct (split_at k xs ltac:(lia)) as (l & r & -> & -> & -> & Hd).
      destruct r as [|y r]. { rewrite app_nil_r in Hk. lia. }
      assert (ndrop (nlen l + 1) (l ++ y :: r) = r) as ->.
      { unfold ndrop, nlen. rewrite drop_app_ge by lia.
        replace (N.to_nat (N.of_nat (length l) + 1) - length l)%nat with 1%nat by lia. done. }
      destruct (world_ok_lookup_spec _ _ _ _ _ _ Hw Ei) as (e & Hm & He & Hv & Hr).
      destruct (set_index_ok sz lmax _ _ _ _ _ x _ Hwf Hr) as (h'&E&Hr'&Hu).
      unfold obs, bind, wget. rewrite Hv. unfold lift. rewrite E. simpl.
      eexists. split; [done|]. eexists. simpl.
      rewrite <-(insert_id (w_vars w) i (e_o e)) by done.
      eapply (world_upd1 _ (vrep_frame sz lmax) (vrep_dom sz lmax)); eauto.
    (* VEmplace *)
    - destruct (sp !! i) as [xs|] eqn:Ei; [|done]. unfold on_var in Hsafe. rewrite Ei in Hsafe.
      destruct (N.leb_spec p (nlen xs)) as [Hk|]; [|done]. injection Hs as <- <-.
      destruct Hsafe as (Hne & Hp1 & _).
      destruct (split_at p xs ltac:(lia)) as (l & r & -> & -> & Hl & Hd).
      rewrite Hl, Hd in *. specialize (Hnew i _ (lookup_insert _ _ _)).
      rewrite !nlen_app in Hnew. assert (nlen (x :: r) = nlen r + 1) as Hxr by (unfold nlen; simpl; lia).
      eapply step_upd1; eauto. intros v fp Hr. eapply emplace_ok; eauto.
      + intros ->. done.
      + rewrite nlen_app. lia.
    (* VInsert *)
    - destruct (sp !! i) as [xs|] eqn:Ei; [|done]. unfold on_var in Hsafe. rewrite Ei in Hsafe.
      destruct (N.leb_spec p (nlen xs)) as [Hk|]; [|done]. injection Hs as <- <-.
      destruct Hsafe as (Hne & Hp1 & _).
      destruct (split_at p xs ltac:(lia)) as (l & r & -> & -> & Hl & Hd).
      rewrite Hl, Hd in *. specialize (Hnew i _ (lookup_insert _ _ _)).
      rewrite !nlen_app in Hnew. assert (nlen (x :: r) = nlen r + 1) as Hxr by (unfold nlen; simpl; lia).
      eapply (step_upd1o _ _ _ _ _ (fun k => OIdx (Some k))); eauto.
      intros v fp Hr. eapply insert1_ok; eauto.
      + intros ->. done.
      + rewrite nlen_app. lia.
    (* VInsertFill *)
    - destruct (sp !! i) as [xs|] eqn:Ei; [|done]. unfold on_var in Hsafe. rewrite Ei in Hsafe.
      destruct (N.leb_spec p (nlen xs)) as [Hk|]; [|done]. injection Hs as <- <-.
      destruct Hsafe as (Hne & Hp1 & Hn).
      destruct (split_at p xs ltac:(lia)) as (l & r & -> & -> & Hl & Hd).
      rewrite Hl, Hd in *. specialize (Hnew i _ (lookup_insert _ _ _)).
      rewrite !nlen_app in Hnew.
      assert (nlen (nrep n x) = n) as Hnr by (unfold nlen, nrep; rewrite replicate_length; lia).
      eapply (step_upd1o _ _ _ _ _ (fun k => OIdx (Some k))); eauto.
      intros v fp Hr. eapply insert_fill_ok; eauto.
      + intros ->. done.
      + destruct Hn as [?|Hn]; [by left|right]. rewrite nlen_app in Hn. apply nlen_nil_inv. lia.
      + rewrite nlen_app. lia.
    (* VInsertRange *)
    - rename xs into zs. destruct (sp !! i) as [xs|] eqn:Ei; [|done]. unfold on_var in Hsafe.
      rewrite Ei in Hsafe.
      destruct (N.leb_spec p (nlen xs)) as [Hk|]; [|done]. injection Hs as <- <-.
      destruct Hsafe as (Hne & Hp1 & Hn).
      destruct (split_at p xs ltac:(lia)) as (l & r & -> & -> & Hl & Hd).
      rewrite Hl, Hd in *. specialize (Hnew i _ (lookup_insert _ _ _)).
      rewrite !nlen_app in Hnew.
      eapply (step_upd1o _ _ _ _ _ (fun k => OIdx (Some k))); eauto.
      intros v fp Hr. eapply insert_range_ok; eauto.
      + intros ->. done.
      + destruct Hn as [Hn|Hn]; [left; by intros ->|right].
        rewrite nlen_app in Hn. apply nlen_nil_inv. lia.
      + rewrite nlen_app. lia.
    (* VErase *)
    - destruct (sp !! i) as [xs|] eqn:Ei; [|done].
      destruct (N.ltb_spec p (nlen xs)) as [Hk|]; [|done]. injection Hs as <- <-.
      destruct (split_at p xs ltac:(lia)) as (l & r & -> & -> & -> & Hd).
      destruct r as [|y r]. { rewrite app_nil_r in Hk. lia. }
      assert (ndrop (nlen l + 1) (l ++ y :: r) = r) as ->.
      { unfold ndrop, nlen. rewrite drop_app_ge by lia.
        replace (N.to_nat (N.of_nat (length l) + 1) - length l)%nat with 1%nat by lia. done. }
      eapply step_upd1o; eauto. intros v fp Hr. eapply erase1_ok; eauto.
    (* VEraseRange *)
    - destruct (sp !! i) as [xs|] eqn:Ei; [|done]. unfold on_var in Hsafe. rewrite Ei in Hsafe.
      destruct (N.leb_spec p q) as [Hpq|]; [|done].
      destruct (N.leb_spec q (nlen xs)) as [Hq|]; [|done]. injection Hs as <- <-.
      destruct (split_at p xs ltac:(lia)) as (l & r & -> & -> & -> & Hd).
      rewrite nlen_app in Hq.
      destruct (split_at (q - nlen l) r ltac:(lia)) as (d & r' & -> & Hd' & Hd1 & Hd2).
      assert (q = nlen l + nlen d) as -> by lia.
      assert (ndrop (nlen l + nlen d) (l ++ d ++ r') = r') as ->.
      { unfold ndrop, nlen. rewrite (assoc_L app), drop_app_alt; [done|]. rewrite app_length. lia. }
      eapply step_upd1o; eauto. intros v fp Hr. eapply erase_range_ok; eauto.
      destruct Hsafe as [Hs|Hs]; [left; intros ->; change (nlen []) with 0 in Hs; lia|right].
      rewrite !nlen_app in Hs. apply nlen_nil_inv. lia.
    (* VSize *)
    - destruct (sp !! i) as [xs|] eqn:Ei; [|done]. injection Hs as <- <-.
      eapply (step_obs _ _ _ _ _ ONum); eauto. intros v fp Hr. unfold ret, size.
      assert (v_len v = nlen xs) as -> by apply Hr. done.
    (* VEmpty *)
    - destruct (sp !! i) as [xs|] eqn:Ei; [|done]. injection Hs as <- <-.
      eapply (step_obs _ _ _ _ _ OBool); eauto. intros v fp Hr. unfold ret, empty.
      assert (v_len v = nlen xs) as -> by apply Hr. done.
    (* VAt *)
    - destruct (sp !! i) as [xs|] eqn:Ei; [|done]. injection Hs as <- <-.
      eapply (step_obs _ _ _ _ _ OOpt); eauto. intros v fp Hr. by eapply at_ok.
    (* VIndex *)
    - destruct (sp !! i) as [xs|] eqn:Ei; [|done].
      destruct (nlookup xs k) as [x|] eqn:Ek; [|done]. injection Hs as <- <-.
      eapply (step_obs _ _ _ _ _ OElem); eauto. intros v fp Hr. by eapply vread_nlookup.
    (* VFront *)
    - destruct (sp !! i) as [xs|] eqn:Ei; [|done]. injection Hs as <- <-.
      eapply (step_obs _ _ _ _ _ OOpt); eauto. intros v fp Hr. by eapply front_ok.
    (* VBack *)
    - destruct (sp !! i) as [xs|] eqn:Ei; [|done]. injection Hs as <- <-.
      eapply (step_obs _ _ _ _ _ OOpt); eauto. intros v fp Hr. by eapply (back_ok sz lmax Hsz Hlim).
    (* VIterAll *)
    - destruct (sp !! i) as [xs|] eqn:Ei; [|done]. injection Hs as <- <-.
      eapply (step_obs _ _ _ _ _ OSeq); eauto. intros v fp Hr. by eapply collect_ok.
    (* VPrint *)
    - destruct (sp !! i) as [xs|] eqn:Ei; [|done]. injection Hs as <- <-.
      eapply (step_obs _ _ _ _ _ OToks); eauto. intros v fp Hr. by eapply (print_ok sz lmax Hsz Hlim).
    (* VEq *)
    - destruct (sp !! i) as [xs|] eqn:Ei; [|done].
      destruct (sp !! j) as [ys|] eqn:Ej; [|done]. injection Hs as <- <-.
      destruct (world_ok_lookup_spec _ _ _ _ _ _ Hw Ej) as (f & Hmj & <- & Hvj & Hrj).
      unfold bind at 1. unfold wget. rewrite Hvj.
      eapply (step_obs _ _ _ _ _ OBool); eauto. intros v fp Hr. by eapply vec_eq_ok.
    (* VCmp *)
    - destruct (sp !! i) as [xs|] eqn:Ei; [|done].
      destruct (sp !! j) as [ys|] eqn:Ej; [|done]. injection Hs as <- <-.
      destruct (world_ok_lookup_spec _ _ _ _ _ _ Hw Ej) as (f & Hmj & <- & Hvj & Hrj).
      unfold bind at 1. unfold wget. rewrite Hvj.
      eapply (step_obs _ _ _ _ _ OCmp); eauto. intros v fp Hr. by eapply vec_cmp_ok.
  Qed.

  Lemma vec_history_gen ops : forall w sp sp' outs,
    wok w sp -> within sp ->
    spec_run (vspec_step dflt eqb cmp) sp ops = Some (sp', outs) ->
    along (vspec_step dflt eqb cmp) (hist_ok lmax) sp ops ->
    exists w', run_ops (vec_step sz dflt eqb cmp) ops w = Ok (outs, w') /\ wok w' sp'.
  Proof.
    induction ops as [|o ops IH]; intros w sp sp' outs Hw Hin Hs Ha; simpl in *.
    - injection Hs as <- <-. exists w. done.
    - destruct (vspec_step dflt eqb cmp sp o) as [[s1 x]|] eqn:E1; [|done].
      destruct Ha as [[Hsafe Hl] Ha].
      destruct (spec_run (vspec_step dflt eqb cmp) s1 ops) as [[s2 xs]|] eqn:E2; [|done].
      injection Hs as <- <-.
      destruct (vec_step_refines w sp o s1 x Hw Hin E1 Hsafe Hl) as (w1 & Ew & Hw1).
      destruct (IH w1 s1 s2 xs Hw1) as (w2 & Ew2 & Hw2); [exact (proj1 Hl)|done|done|].
      exists w2. rewrite (bind_ok _ _ _ _ _ Ew), (bind_ok _ _ _ _ _ Ew2). done.
  Qed.

  Lemma vec_history ops sp' outs :
    spec_run (vspec_step dflt eqb cmp) ∅ ops = Some (sp', outs) ->
    along (vspec_step dflt eqb cmp) (hist_ok lmax) ∅ ops ->
    exists w', vec_run sz dflt eqb cmp ops = Ok (outs, w') /\ wok w' sp'.
  Proof.
    intros Hs Ha. eapply vec_history_gen; eauto; [apply world_ok_init|].
    intros i xs. by rewrite lookup_empty.
  Qed.
End Refine.
