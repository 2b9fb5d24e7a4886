(** * VecMore: lemmas behind the per-property theorems of VecProps *)
From Verif Require Import Base World VecModel VecSpec VecFacts VecProofs VecProofs2 VecRefine.
Local Open Scope N_scope.

(** ** Composition of histories *)
Section Compose.
  Context {Sp Op Out : Type} (sstep : Sp -> Op -> option (Sp * Out)).

  Lemma spec_run_app s ops1 ops2 s1 o1 :
    spec_run sstep s ops1 = Some (s1, o1) ->
    spec_run sstep s (ops1 ++ ops2) =
      match spec_run sstep s1 ops2 with
      | Some (s2, o2) => Some (s2, o1 ++ o2)
      | None => None
      end.
  Proof.
    revert s s1 o1. induction ops1 as [|o ops1 IH]; intros s s1 o1; simpl.
    - intros [= <- <-]. by destruct (spec_run sstep s ops2) as [[? ?]|].
    - destruct (sstep s o) as [[t x]|]; [|done].
      destruct (spec_run sstep t ops1) as [[u y]|] eqn:E; [|done]. intros [= <- <-].
      rewrite (IH _ _ _ E). by destruct (spec_run sstep u ops2) as [[? ?]|].
  Qed.

  Lemma along_app P s ops1 ops2 s1 o1 :
    spec_run sstep s ops1 = Some (s1, o1) ->
    along sstep P s (ops1 ++ ops2) <-> along sstep P s ops1 /\ along sstep P s1 ops2.
  Proof.
    revert s s1 o1. induction ops1 as [|o ops1 IH]; intros s s1 o1; simpl.
    - intros [= <- <-]. naive_solver.
    - destruct (sstep s o) as [[t x]|]; [|done].
      destruct (spec_run sstep t ops1) as [[u y]|] eqn:E; [|done]. intros [= <- <-].
      rewrite (IH _ _ _ E). naive_solver.
  Qed.

  Lemma along_mono (P Q : Sp -> Op -> Sp -> Prop) s ops :
    (forall s o s', P s o s' -> Q s o s') -> along sstep P s ops -> along sstep Q s ops.
  Proof.
    intros HPQ. revert s. induction ops as [|o ops IH]; intros s; simpl; [done|].
    destruct (sstep s o) as [[t x]|]; [|done]. intros [? ?]. split; eauto.
  Qed.

  Lemma along_forall (P : Sp -> Op -> Sp -> Prop) (Q : Op -> Prop) s ops :
    along sstep P s ops -> Forall Q ops ->
    along sstep (fun s o s' => Q o /\ P s o s') s ops.
  Proof.
    revert s. induction ops as [|o ops IH]; intros s; simpl; [done|].
    destruct (sstep s o) as [[t x]|]; [|done]. intros [? ?] [? ?]%Forall_cons. split; eauto.
  Qed.
End Compose.

Section More.
  Context {A : Type} (sz lmax : N) (dflt : A).
  Context (eqb : A -> A -> bool) (cmp : A -> A -> comparison).
  Context (Hsz : 1 <= sz) (Hlim : sz * (2 * lmax + 2) <= alloc_max).
  Implicit Types (h : heap (block A)) (v : vec) (xs ys : list A) (fp : list N).
  Notation VM := (M (heap (block A))).
  Notation vrep := (@vrep A sz lmax).
  Notation wok := (world_ok (@VecProofs.vrep A sz lmax)).
  Notation step := (vspec_step dflt eqb cmp).

  Notation good := (good dflt eqb cmp lmax).

  Lemma good_run ops s outs : good ops s outs ->
    exists w, vec_run sz dflt eqb cmp ops = Ok (outs, w) /\ wok w s.
  Proof. intros [? ?]. by eapply vec_history. Qed.

  Lemma good_app ops s outs ops2 s2 outs2 :
    good ops s outs ->
    spec_run step s ops2 = Some (s2, outs2) -> along step (hist_ok lmax) s ops2 ->
    good (ops ++ ops2) s2 (outs ++ outs2).
  Proof.
    intros [E Ha] E2 Ha2. split.
    - by rewrite (spec_run_app _ _ _ _ _ _ E), E2.
    - rewrite (along_app _ _ _ _ _ _ _ E). done.
  Qed.

  Lemma good_within_gen ops : forall s0 s outs,
    within lmax s0 -> spec_run step s0 ops = Some (s, outs) -> along step (hist_ok lmax) s0 ops ->
    within lmax s.
  Proof.
    induction ops as [|o ops IH]; simpl; intros s0 s outs H0 E Ha.
    - by injection E as <- <-.
    - destruct (step s0 o) as [[t x]|]; [|done]. destruct Ha as [[_ [Hl _]] Ha].
      destruct (spec_run step t ops) as [[u y]|] eqn:E2; [|done]. injection E as <- <-.
      by eapply (IH t).
  Qed.

  Lemma good_within ops s outs : good ops s outs -> within lmax s.
  Proof.
    intros [E Ha]. eapply good_within_gen; [|exact E|exact Ha].
    intros i xs. by rewrite lookup_empty.
  Qed.

  (** Ownership facts of reachable worlds. *)
  Lemma wok_no_share w s i j vi vj a :
    wok w s -> w_vars w !! i = Some vi -> w_vars w !! j = Some vj -> i <> j ->
    v_ptr vi = Some a -> v_ptr vj = Some a -> False.
  Proof.
    intros [m Hw] Hi Hj Hij Hpi Hpj.
    destruct (world_ok_lookup _ _ _ _ _ _ Hw Hi) as (e & Hmi & <- & _).
    destruct (world_ok_lookup _ _ _ _ _ _ Hw Hj) as (f & Hmj & <- & _).
    pose proof (wo_rep _ _ _ _ Hw _ _ Hmi) as (_&_&_&Hri). rewrite Hpi in Hri.
    pose proof (wo_rep _ _ _ _ Hw _ _ Hmj) as (_&_&_&Hrj). rewrite Hpj in Hrj.
    destruct Hri as [Efi _], Hrj as [Efj _].
    eapply (wo_disj _ _ _ _ Hw i j e f a Hmi Hmj Hij); rewrite ?Efi, ?Efj; apply elem_of_list_here.
  Qed.

  Lemma wok_owned w s a b :
    wok w s -> hmap (w_heap w) !! a = Some b ->
    exists i v, w_vars w !! i = Some v /\ v_ptr v = Some a.
  Proof using Type. clear Hsz Hlim.
    intros [m Hw] Ha. destruct (wo_cover _ _ _ _ Hw a) as (i & e & Hm & Hfp); [eauto|].
    exists i, (e_o e). split.
    - rewrite (wo_vars _ _ _ _ Hw), lookup_fmap, Hm. done.
    - pose proof (wo_rep _ _ _ _ Hw _ _ Hm) as (_&_&_&Hr).
      destruct (v_ptr (e_o e)) as [a'|]; destruct Hr as [E1 E2].
      + rewrite E1 in Hfp. apply elem_of_list_singleton in Hfp as ->. done.
      + rewrite E2 in Hfp. set_solver.
  Qed.

  Lemma wok_var w s i v :
    wok w s -> w_vars w !! i = Some v ->
    exists xs fp, s !! i = Some xs /\ vrep (w_heap w) v xs fp /\ hwf (w_heap w).
  Proof.
    intros [m Hw] Hi. destruct (world_ok_lookup _ _ _ _ _ _ Hw Hi) as (e & Hm & <- & Hs).
    exists (e_s e), (e_fp e). split; [done|]. split; [by eapply wo_rep|apply Hw].
  Qed.

End More.

Section More2.
  Context {A : Type} (sz lmax : N).
  Context (Hsz : 1 <= sz) (Hlim : sz * (2 * lmax + 2) <= alloc_max).
  Implicit Types (h : heap (block A)) (v : vec) (xs ys : list A) (fp : list N).
  Notation VM := (M (heap (block A))).
  Notation vrep := (@VecProofs.vrep A sz lmax).

  (** Pushing without reallocation. *)
  Lemma push_all_stay ys : forall h v xs fp,
    hwf h -> vrep h v xs fp -> nlen xs + nlen ys <= v_cap v -> nlen xs + nlen ys <= lmax ->
    exists v' h' fp', push_all sz ys v h = Ok (v', h') /\ vrep h' v' (xs ++ ys) fp' /\
      v_ptr v' = v_ptr v /\ v_cap v' = v_cap v /\ hnext h' = hnext h /\ hmoves h' = hmoves h.
  Proof.
    induction ys as [|y ys IH]; intros h v xs fp Hwf Hr Hn Hm; simpl.
    - exists v, h, fp. by rewrite app_nil_r.
    - assert (nlen (y :: ys) = nlen ys + 1) as Hy by (unfold nlen; simpl; lia).
      assert (Hl : v_len v = nlen xs) by apply Hr.
      destruct (push_back_full sz lmax Hsz Hlim h v xs fp y Hwf Hr ltac:(lia))
        as (v1&h1&fp1&E&Hr1&Hu&_&Hst&_).
      destruct (Hst ltac:(lia)) as (Hc1 & Hp1 & Hn1 & Hm1).
      rewrite (bind_ok _ _ _ _ _ E).
      destruct (IH h1 v1 (xs ++ [y]) fp1 (upd_wf _ _ _ _ Hu) Hr1) as (v2&h2&fp2&E2&Hr2&Hp2&Hc2&Hn2&Hm2).
      { rewrite nlen_app. change (nlen [y]) with 1. lia. }
      { rewrite nlen_app. change (nlen [y]) with 1. lia. }
      rewrite <-(assoc_L app) in Hr2. exists v2, h2, fp2.
      split; [done|]. split; [done|]. split; [congruence|]. split; [congruence|]. lia.
  Qed.

  (** Amortised cost. *)
  Lemma push_all_cost ys : forall h v xs fp k,
    hwf h -> vrep h v xs fp -> nlen xs + nlen ys <= lmax ->
    v_cap v = 2 ^ (k + 1) -> (k = 0 \/ 2 ^ k <= nlen xs) ->
    exists v' h' fp' k', push_all sz ys v h = Ok (v', h') /\ vrep h' v' (xs ++ ys) fp' /\
      v_cap v' = 2 ^ (k' + 1) /\ (k' = 0 \/ 2 ^ k' <= nlen xs + nlen ys) /\ k <= k' /\
      hnext h' + k = hnext h + k' /\ hmoves h' + 2 ^ (k + 1) = hmoves h + 2 ^ (k' + 1).
  Proof.
    induction ys as [|y ys IH]; intros h v xs fp k Hwf Hr Hm Hc Hk; simpl.
    - exists v, h, fp, k. rewrite app_nil_r. change (nlen []) with 0. rewrite N.add_0_r.
      split; [done|]. split; [done|]. split; [done|]. split; [done|]. lia.
    - assert (nlen (y :: ys) = nlen ys + 1) as Hy by (unfold nlen; simpl; lia).
      assert (Hl : v_len v = nlen xs) by apply Hr.
      assert (Hlc : v_len v <= v_cap v) by apply Hr.
      assert (0 < 2 ^ (k + 1)) as Hpos by (apply N.neq_0_lt_0, N.pow_nonzero; lia).
      destruct (push_back_full sz lmax Hsz Hlim h v xs fp y Hwf Hr ltac:(lia))
        as (v1&h1&fp1&E&Hr1&Hu&_&Hst&Hgr).
      rewrite (bind_ok _ _ _ _ _ E).
      assert (nlen (xs ++ [y]) = nlen xs + 1) as Hxy by (rewrite nlen_app; done).
      destruct (N.eq_dec (v_len v) (v_cap v)) as [He|He].
      + destruct (Hgr He) as (Hc1 & Hn1 & Hm1).
        destruct (N.eqb_spec (v_cap v) 0); [lia|].
        assert (2 ^ (k + 1 + 1) = 2 * 2 ^ (k + 1)) as Hp2
          by (rewrite (N.add_1_r (k + 1)), N.pow_succ_r'; done).
        destruct (IH h1 v1 (xs ++ [y]) fp1 (k + 1) (upd_wf _ _ _ _ Hu) Hr1)
          as (v2&h2&fp2&k2&E2&Hr2&Hc2&Hk2&Hle&Hn2&Hm2).
        { lia. } { lia. } { right. lia. }
        rewrite <-(assoc_L app) in Hr2. exists v2, h2, fp2, k2.
        split; [done|]. split; [done|]. split; [done|].
        split; [destruct Hk2; [by left|right; lia]|]. lia.
      + destruct (Hst ltac:(lia)) as (Hc1 & Hp1 & Hn1 & Hm1).
        destruct (IH h1 v1 (xs ++ [y]) fp1 k (upd_wf _ _ _ _ Hu) Hr1)
          as (v2&h2&fp2&k2&E2&Hr2&Hc2&Hk2&Hle&Hn2&Hm2).
        { lia. } { by rewrite Hc1. } { destruct Hk; [by left|right; lia]. }
        rewrite <-(assoc_L app) in Hr2. exists v2, h2, fp2, k2.
        split; [done|]. split; [done|]. split; [done|].
        split; [destruct Hk2; [by left|right; lia]|]. lia.
  Qed.

  (** 157-174: exact effect of assignment from an initializer list. *)
  Definition ilist_effect xs ys : list A :=
    take (length xs) ys ++ take (length ys - length xs) ys.

  Lemma assign_ilist_ok h v xs fp ys :
    hwf h -> vrep h v xs fp -> nlen ys <= lmax ->
    post sz lmax h fp (assign_ilist sz false v ys h) (ilist_effect xs ys).
  Proof.
    intros Hwf Hv Hn. unfold assign_ilist, ilist_effect.
    destruct (reserve_full sz lmax Hsz Hlim h v xs fp (N.of_nat (length ys)) Hwf Hv)
      as (v1&h1&fp1&E1&Hv1&Hu1&Hc1&_); [unfold nlen in Hn; lia|].
    rewrite (bind_ok _ _ _ _ _ E1). clear E1 Hv.
    destruct Hv1 as (Hl & Hc & Hm & Hp). unfold nlen in Hl, Hn.
    destruct (v_ptr v1) as [a|] eqn:Ep.
    2:{ destruct Hp as [H0 ->]. assert (xs = []) as -> by (apply nlen_nil_inv; unfold nlen; lia).
        assert (ys = []) as -> by (apply nlen_nil_inv; unfold nlen; lia).
        simpl. rewrite N.min_r by lia. simpl. unfold bind, ret. simpl.
        rewrite (proj2 (N.ltb_ge _ _)) by lia. rewrite (proj2 (N.ltb_ge _ _)) by (simpl in Hl; lia).
        eexists _, h1, []. split; [done|]. split; [|done].
        split; [done|]. simpl. rewrite Ep. repeat split; lia || done. }
    destruct Hp as [-> Hb]. rewrite Hl.
    assert (Hfin : forall k h2 zs, hmap h2 = <[a := Blk (v_alloc v1) (sz * v_cap v1) k]> (hmap h1) ->
              hnext h2 = hnext h1 -> k = vcells zs (v_cap v1) -> length zs = length ys ->
              post sz lmax h fp (Ok (set_len v1 (N.of_nat (length ys)), h2)) zs).
    { intros k h2 zs Hm2 Hn2 -> Hzs. eexists _, h2, [a]. split; [done|]. split.
      - split; [simpl; unfold nlen; lia|]. simpl. rewrite Ep. split; [lia|]. split; [done|]. split; [done|].
        by rewrite Hm2, lookup_insert.
      - eapply upd_trans; [done|done|]. eapply upd_write_map; [apply Hu1|eauto|done|done]. }
    destruct (Nat.le_gt_cases (length ys) (length xs)) as [Hle|Hgt].
    - rewrite N.min_r by lia. rewrite Nat2N.id, firstn_all.
      rewrite (live_split xs (length ys)) in Hb.
      erewrite (bind_ok _ _ _ _ _ (assign_run a _ _ ys h1 (Live <$> take (length ys) xs) [] _ 0 _ _ Hb eq_refl)).
      Unshelve. 2: { rewrite fmap_length, take_length. lia. } 2: apply Forall_live_not_raw.
      replace (length ys - length xs)%nat with 0%nat by lia. simpl.
      rewrite take_0, (take_ge ys (length xs)), app_nil_r by lia.
      destruct (N.ltb_spec (N.of_nat (length ys)) (N.of_nat (length xs))) as [Hlt|Hge].
      + replace (N.to_nat (N.of_nat (length xs) - N.of_nat (length ys)))
          with (length (Live <$> drop (length ys) xs)) by (rewrite fmap_length, drop_length; lia).
        erewrite (bind_ok _ _ _ _ _ (destroy_run a _ _ (Live <$> drop (length ys) xs) _
            (Live <$> ys) _ _ _ (hput_lookup _ _ _ _) _)).
        Unshelve. 2: apply Forall_live_not_raw. 2: by rewrite fmap_length.
        unfold ret. eapply Hfin.
        * rewrite hput_hput. done.
        * done.
        * unfold vcells. f_equal. rewrite fmap_length, drop_length, <-replicate_add.
          f_equal. lia.
        * done.
      + rewrite (proj2 (N.ltb_ge (N.of_nat (length xs)) (N.of_nat (length ys)))) by lia.
        rewrite bind_ret. unfold ret. eapply Hfin; [done|done| |done].
        unfold vcells. f_equal. rewrite drop_ge by lia. simpl. f_equal. lia.
    - rewrite N.min_l by lia. rewrite Nat2N.id.
      assert (Hcs : vcells xs (v_cap v1) = [] ++ (Live <$> xs) ++
        replicate (length ys - length xs) Raw ++ replicate (N.to_nat (v_cap v1) - length ys) Raw).
      { simpl. unfold vcells. rewrite <-replicate_add. do 2 f_equal. lia. }
      rewrite Hcs in Hb.
      erewrite (bind_ok _ _ _ _ _ (assign_run a _ _ (firstn (length xs) ys) h1 (Live <$> xs) [] _ 0 _ _ Hb eq_refl)).
      Unshelve. 2: { rewrite fmap_length, firstn_length. lia. } 2: apply Forall_live_not_raw.
      rewrite (proj2 (N.ltb_ge (N.of_nat (length ys)) (N.of_nat (length xs)))) by lia.
      rewrite (proj2 (N.ltb_lt (N.of_nat (length xs)) (N.of_nat (length ys)))) by lia.
      replace (N.to_nat (N.of_nat (length ys) - N.of_nat (length xs)))
        with (length ys - length xs)%nat by lia.
      set (h2 := hput _ _ _ _).
      assert (Hb2 : hmap h2 !! a = Some (Blk (v_alloc v1) (sz * v_cap v1)
         ((Live <$> take (length xs) ys) ++
          replicate (length (firstn (length ys - length xs) ys)) Raw ++
             replicate (N.to_nat (v_cap v1) - length ys) Raw))).
      { unfold h2. rewrite hput_lookup. simpl. do 5 f_equal. rewrite firstn_length. lia. }
      erewrite (bind_ok _ _ _ _ _ (construct_run a _ _ _ h2 _ _ _ Hb2 _)).
      Unshelve. 2: { rewrite fmap_length, take_length. lia. }
      unfold ret. eapply Hfin.
      + unfold h2. rewrite hput_hput. done.
      + done.
      + unfold vcells. rewrite fmap_app, <-(assoc_L app). do 3 f_equal.
        rewrite app_length, !take_length. lia.
      + rewrite app_length, !take_length. lia.
  Qed.

  (** ** Consuming iterators *)
  Definition iirep h (it : into_iter) ys fp : Prop :=
    (ii_len it <= ii_pos it /\ ys = [] /\ vrep h (ii_vec it) [] fp) \/
    (exists a k m, let v := ii_vec it in
       v_ptr v = Some a /\ fp = [a] /\ ys <> [] /\ v_cap v <= 2 * lmax + 2 /\
       v_len v = N.of_nat (k + length ys) /\ v_cap v = N.of_nat (k + length ys + m) /\
       ii_pos it = N.of_nat k /\ ii_len it = v_len v /\
       hmap h !! a = Some (Blk (v_alloc v) (sz * v_cap v)
         (replicate k Moved ++ (Live <$> ys) ++ replicate m Raw))).

  Lemma iirep_new h v xs fp :
    vrep h v xs fp ->
    iirep h (into_iter_new v).1 xs fp /\ vrep h (into_iter_new v).2 [] [].
  Proof using Type. clear Hsz Hlim.
    intros Hr. split; [|apply vrep_null].
    destruct xs as [|x xs].
    - left. simpl. split; [rewrite (proj1 Hr); done|]. split; [done|]. by destruct v.
    - right. destruct Hr as (Hl & Hc & Hm & Hp). simpl. unfold nlen in Hl.
      destruct (v_ptr v) as [a|]; [|simpl in *; lia]. destruct Hp as [-> Hb].
      exists a, 0%nat, (N.to_nat (v_cap v) - length (x :: xs))%nat.
      split; [done|]. split; [done|]. split; [done|]. split; [done|].
      split; [done|]. split; [simpl in *; lia|]. split; [done|]. split; [done|]. exact Hb.
  Qed.

  Lemma iirep_next h it x ys fp :
    hwf h -> iirep h it (x :: ys) fp ->
    exists it' h' fp', into_iter_next sz it h = Ok ((Some x, it'), h') /\
      iirep h' it' ys fp' /\ upd h h' fp fp' /\ (ys = [] -> fp' = []).
  Proof.
    intros Hwf [(_&?&_)|(a&k&m&Hp&->&_&Hm&Hl&Hc&Hpos&Hlen&Hb)]; [done|].
    simpl in *. unfold into_iter_next. rewrite Hpos, Hlen.
    rewrite (proj2 (N.ltb_lt _ _)) by lia.
    rewrite Hp.
    erewrite (bind_ok _ _ _ _ _ (vmove_ok _ _ _ _ _ _ _ _ Hb _)).
    Unshelve. 2: by rewrite replicate_length.
    set (h1 := hput _ _ _ _).
    assert (Hu1 : upd h h1 [a] [a]) by (eapply upd_write_map; eauto).
    assert (Hb1 : hmap h1 !! a = Some (Blk (v_alloc (ii_vec it)) (sz * v_cap (ii_vec it))
         (replicate (S k) Moved ++ (Live <$> ys) ++ replicate m Raw))).
    { unfold h1. rewrite hput_lookup. do 2 f_equal.
      rewrite (replicate_S_end k), <-(assoc_L app). done. }
    destruct ys as [|y ys].
    - rewrite (proj2 (N.eqb_eq _ _)) by (simpl in Hl; lia).
      erewrite (bind_ok _ _ _ _ _ (clear_gen sz lmax Hsz Hlim h1 (ii_vec it) a
        (replicate (S k) Moved) m Hp _ _ Hm _ Hb1)).
      Unshelve. 2: { rewrite replicate_length. simpl in Hl. lia. }
      2: apply Forall_moved_not_raw.
      2: { rewrite replicate_length. simpl in Hc. lia. }
      unfold ret. eexists _, _, []. split; [done|]. split; [|split; [|done]].
      + left. simpl. split; [simpl in Hl; lia|]. split; [done|]. apply vrep_null.
      + eapply upd_trans; [done|exact Hu1|]. apply upd_free_map; [apply Hu1|done|done].
    - destruct (N.eqb_spec (N.of_nat k + 1) (v_len (ii_vec it))); [simpl in Hl; lia|].
      rewrite bind_ret. unfold ret. eexists _, h1, [a]. split; [done|]. split; [|done].
      right. exists a, (S k), m. simpl. split; [done|]. split; [done|]. split; [done|].
      split; [done|]. simpl in Hl, Hc. split; [lia|]. split; [lia|]. split; [lia|]. split; [done|].
      exact Hb1.
  Qed.

  Lemma iirep_end h it fp :
    iirep h it [] fp -> into_iter_next sz it h = Ok ((None, it), h).
  Proof.
    intros [(He&_&_)|(a&k&m&?&?&?&_)]; [|done].
    unfold into_iter_next. by rewrite (proj2 (N.ltb_ge _ _) He).
  Qed.

  Lemma iirep_drop h it ys fp :
    hwf h -> iirep h it ys fp ->
    exists h', into_iter_drop sz it h = Ok (tt, h') /\ upd h h' fp [].
  Proof.
    intros Hwf [(_&->&Hr)|(a&k&m&Hp&->&_&Hm&Hl&Hc&Hpos&Hlen&Hb)]; unfold into_iter_drop.
    - destruct (clear_ok sz lmax Hsz Hlim _ _ _ _ Hwf Hr) as (h'&E&_&Hu&_).
      rewrite (bind_ok _ _ _ _ _ E). eauto.
    - simpl in *. rewrite (assoc_L app) in Hb.
      erewrite (bind_ok _ _ _ _ _ (clear_gen sz lmax Hsz Hlim h (ii_vec it) a _ m Hp _ _ Hm _ Hb)).
      Unshelve. 2: { rewrite app_length, replicate_length, fmap_length. lia. }
      2: { apply Forall_app. split; [apply Forall_moved_not_raw|apply Forall_live_not_raw]. }
      2: { rewrite app_length, replicate_length, fmap_length. lia. }
      eexists. split; [done|]. by apply upd_free_map.
  Qed.

  Lemma into_take_ok n : forall h it ys fp,
    hwf h -> iirep h it ys fp ->
    exists it' h' fp', into_take sz n it h =
        Ok (((Some <$> take n ys) ++ replicate (n - length ys) None, it'), h') /\
      iirep h' it' (drop n ys) fp' /\ upd h h' fp fp' .
  Proof.
    induction n as [|n IH]; intros h it ys fp Hwf Hr; simpl.
    - exists it, h, fp. rewrite drop_0. split; [done|]. split; [done|].
      apply upd_refl; [done|]. intros a Ha.
      destruct Hr as [(_&->&Hr)|(b&k&m&Hp&->&_&Hm&Hl&Hc&Hpos&Hlen&Hb)]; [by eapply vrep_dom|].
      apply elem_of_list_singleton in Ha as ->. eauto.
    - destruct ys as [|y ys].
      + rewrite (bind_ok _ _ _ _ _ (iirep_end _ _ _ Hr)).
        destruct (IH h it [] fp Hwf Hr) as (it2&h2&fp2&E2&Hr2&Hu2).
        rewrite (bind_ok _ _ _ _ _ E2). rewrite take_nil. simpl.
        rewrite drop_nil in Hr2. rewrite Nat.sub_0_r.
        exists it2, h2, fp2. split; [done|]. done.
      + destruct (iirep_next h it y ys fp Hwf Hr) as (it1&h1&fp1&E1&Hr1&Hu1&_).
        rewrite (bind_ok _ _ _ _ _ E1).
        destruct (IH h1 it1 ys fp1 (upd_wf _ _ _ _ Hu1) Hr1) as (it2&h2&fp2&E2&Hr2&Hu2).
        rewrite (bind_ok _ _ _ _ _ E2).
        exists it2, h2, fp2. split; [done|]. split; [done|]. by eapply upd_trans.
  Qed.

  (** Reversed *)
  Lemma into_rev_next_ok h v xs x fp :
    hwf h -> vrep h v (xs ++ [x]) fp ->
    exists v' h', into_rev_next v h = Ok ((Some x, v'), h') /\ vrep h' v' xs fp /\ upd h h' fp fp.
  Proof.
    intros Hwf (Hl & Hc & Hm & Hp). rewrite nlen_app in Hl. change (nlen [x]) with 1 in Hl.
    destruct (v_ptr v) as [a|] eqn:Ep; [|lia]. destruct Hp as [-> Hb].
    destruct (cmax_W sz lmax Hsz Hlim (v_cap v) Hm) as (_&_&HW).
    unfold into_rev_next. destruct (N.eqb_spec (v_len v) 0); [lia|]. cbn [negb].
    rewrite usub_small by lia.
    assert (Hb0 : hmap h !! a = Some (Blk (v_alloc v) (sz * v_cap v)
      ((Live <$> xs) ++ Live x :: replicate (N.to_nat (v_cap v) - length (xs ++ [x])) Raw))).
    { rewrite Hb. unfold vcells. rewrite fmap_app, <-(assoc_L app). done. }
    rewrite Ep.
    erewrite (bind_ok _ _ _ _ _ (vmove_ok _ _ _ _ _ _ _ _ Hb0 _)).
    Unshelve. 2: { rewrite fmap_length. unfold nlen in Hl. lia. }
    destruct v as [len cap ptr al]. simpl in *. subst ptr.
    pose proof (pop_n_gen a al (sz * cap) cap [Moved]
      (hput h a (Blk al (sz * cap) ((Live <$> xs) ++ Moved ::
         replicate (N.to_nat cap - length (xs ++ [x])) Raw)) 1) (Live <$> xs)
      (replicate (N.to_nat cap - length (xs ++ [x])) Raw)) as Hpop.
    rewrite fmap_length in Hpop. simpl in Hpop.
    assert (len = N.of_nat (length xs + 1)) as -> by (unfold nlen in Hl; lia).
    rewrite lookup_insert in Hpop.
    specialize (Hpop ltac:(by apply Forall_singleton) ltac:(lia) eq_refl).
    set (h1 := hput _ _ _ _) in Hpop |- *.
    destruct (pop_back (Vec (N.of_nat (length xs + 1)) cap (Some a) al) h1) as [[v2 h2]|] eqn:E2; [|unfold bind in Hpop; rewrite E2 in Hpop; done].
    rewrite (bind_ok _ _ _ _ _ E2) in Hpop. injection Hpop as -> ->.
    rewrite (bind_ok _ _ _ _ _ E2). unfold h1. rewrite hput_hput.
    eexists _, _. split; [done|]. split.
    - split; [done|]. simpl. split; [lia|]. split; [done|]. split; [done|].
      rewrite lookup_insert. unfold vcells. do 3 f_equal. rewrite app_length. simpl.
      replace (N.to_nat cap - length xs)%nat with (S (N.to_nat cap - (length xs + 1))) by lia. done.
    - eapply upd_write_map; eauto.
  Qed.

  Lemma into_rev_take_ok n : forall h v ys fp,
    hwf h -> vrep h v ys fp ->
    exists v' h', into_rev_take n v h =
        Ok (((Some <$> take n (reverse ys)) ++ replicate (n - length ys) None, v'), h') /\
      vrep h' v' (take (length ys - n) ys) fp /\ upd h h' fp fp.
  Proof.
    induction n as [|n IH]; intros h v ys fp Hwf Hr; simpl.
    - exists v, h. rewrite Nat.sub_0_r, take_ge by lia. split; [done|]. split; [done|].
      apply upd_refl; [done|]. intros a Ha. by eapply vrep_dom.
    - destruct ys as [|y ys _] using rev_ind.
      + assert (into_rev_next v h = Ok ((None, v), h)) as E1.
        { unfold into_rev_next. assert (v_len v = 0) as -> by apply Hr. done. }
        rewrite (bind_ok _ _ _ _ _ E1).
        destruct (IH h v [] fp Hwf Hr) as (v2&h2&E2&Hr2&Hu2).
        rewrite (bind_ok _ _ _ _ _ E2). change (reverse (@nil A)) with (@nil A).
        exists v2, h2. rewrite !take_nil in *. simpl. rewrite Nat.sub_0_r. done.
      + destruct (into_rev_next_ok h v ys y fp Hwf Hr) as (v1&h1&E1&Hr1&Hu1).
        rewrite (bind_ok _ _ _ _ _ E1).
        destruct (IH h1 v1 ys fp (upd_wf _ _ _ _ Hu1) Hr1) as (v2&h2&E2&Hr2&Hu2).
        rewrite (bind_ok _ _ _ _ _ E2). rewrite reverse_app. simpl. rewrite app_length. simpl.
        exists v2, h2. split; [|split].
        * unfold ret. do 5 f_equal. f_equal. lia.
        * rewrite take_app_le by lia. replace (length ys + 1 - S n)%nat with (length ys - n)%nat by lia.
          done.
        * by eapply upd_trans.
  Qed.

  (** ** References to own elements *)
  Lemma push_alias_room h v xs fp i x :
    hwf h -> vrep h v xs fp -> nlen xs + 1 <= lmax -> nlookup xs i = Some x ->
    v_len v < v_cap v ->
    push_back_m sz v (vread (v_ptr v) i) h = push_back sz v x h.
  Proof.
    intros Hwf Hr Hn Hi Hlt. unfold push_back, push_back_m.
    rewrite (proj2 (N.leb_gt _ _)) by done. rewrite !bind_ret.
    rewrite (bind_ok _ _ _ _ _ (vread_nlookup _ _ _ _ _ _ _ _ Hr Hi)). done.
  Qed.

  Lemma realloc_gone h h' a fp' : hwf h -> is_Some (hmap h !! a) -> upd h h' [a] fp' ->
    fp' = [hnext h] -> hmap h' !! a = None.
  Proof.
    intros Hwf Ha Hu ->. destruct (hmap h' !! a) eqn:E; [|done].
    assert (is_Some (hmap h' !! a)) as Hs by eauto.
    apply (upd_dom _ _ _ _ Hu) in Hs as [[_ Hs]|Hs].
    - set_solver.
    - apply elem_of_list_singleton in Hs. specialize (Hwf a Ha). lia.
  Qed.

  Lemma vread_gone h a i : hmap h !! a = None -> vread (Some a) i h = Err UB.
  Proof. intros Ha. unfold vread, bind, slot, bind, hread. by rewrite Ha. Qed.

  Lemma push_alias_full h v xs fp i :
    hwf h -> vrep h v xs fp -> nlen xs + 1 <= lmax -> xs <> [] ->
    v_len v = v_cap v ->
    push_back_m sz v (vread (v_ptr v) i) h = Err UB.
  Proof.
    intros Hwf Hr Hn Hne Heq. unfold push_back_m, extend_space, reserve.
    rewrite (proj2 (N.leb_le _ _)) by lia.
    assert (Hl : v_len v = nlen xs) by apply Hr.
    assert (0 < nlen xs) by (destruct xs; [done|unfold nlen; simpl; lia]).
    destruct (N.eqb_spec (v_cap v) 0); [lia|].
    destruct (cmax_W sz lmax Hsz Hlim (2 * lmax + 2)) as (_&_&HW); [lia|].
    rewrite umul_small by lia. rewrite (proj2 (N.ltb_lt _ _)) by lia.
    destruct (allocate_reserve_ok sz lmax Hsz Hlim h v xs fp (2 * v_cap v) Hwf Hr)
      as (h'&E&_&Hu&_); [lia|lia|].
    rewrite (bind_ok _ _ _ _ _ E).
    destruct Hr as (_&_&_&Hp). destruct (v_ptr v) as [a|]; [|lia]. destruct Hp as [-> Hb].
    apply bind_err, vread_gone. eapply realloc_gone; eauto.
  Qed.

  Lemma repeat_alias n : forall h v xs fp i x,
    hwf h -> vrep h v xs fp -> nlookup xs i = Some x ->
    nlen xs + N.of_nat n <= v_cap v -> nlen xs + N.of_nat n <= lmax ->
    repeat_m n (fun u => push_back_m sz u (vread (v_ptr v) i)) v h =
    repeat_m n (fun u => push_back_m sz u (ret x)) v h.
  Proof.
    induction n as [|n IH]; intros h v xs fp i x Hwf Hr Hi Hc Hm; simpl; [done|].
    assert (Hl : v_len v = nlen xs) by apply Hr.
    destruct (push_back_full sz lmax Hsz Hlim h v xs fp x Hwf Hr ltac:(lia))
        as (v1&h1&fp1&E&Hr1&Hu&_&Hst&_).
    destruct (Hst ltac:(lia)) as (Hc1 & Hp1 & _).
    assert (push_back_m sz v (vread (v_ptr v) i) h = Ok (v1, h1)) as E'.
    { rewrite (push_alias_room h v xs fp i x); try done; lia. }
    rewrite (bind_ok _ _ _ _ _ E'). unfold push_back in E. rewrite (bind_ok _ _ _ _ _ E).
    rewrite <-Hp1. eapply (IH h1 v1 (xs ++ [x]) fp1); eauto.
    - apply Hu.
    - rewrite nlookup_lookup in *. by apply lookup_app_l_Some.
    - rewrite nlen_app. change (nlen [x]) with 1. lia.
    - rewrite nlen_app. change (nlen [x]) with 1. lia.
  Qed.

  Lemma resize_alias_room h v xs fp i x n :
    hwf h -> vrep h v xs fp -> n <= lmax -> nlookup xs i = Some x -> n <= v_cap v ->
    resize_m sz v n (vread (v_ptr v) i) h = resize_m sz v n (ret x) h.
  Proof.
    intros Hwf Hr Hn Hi Hc. unfold resize_m.
    destruct (N.ltb_spec n (v_len v)); [done|].
    destruct (N.ltb_spec (v_len v) n); [|done].
    rewrite (proj2 (N.ltb_ge _ _)) by done. rewrite !bind_ret.
    assert (Hl : v_len v = nlen xs) by apply Hr.
    eapply repeat_alias; eauto; lia.
  Qed.

  Lemma resize_alias_realloc h v xs fp i n :
    hwf h -> vrep h v xs fp -> n <= lmax -> xs <> [] -> v_cap v < n ->
    resize_m sz v n (vread (v_ptr v) i) h = Err UB.
  Proof.
    intros Hwf Hr Hn Hne Hc. unfold resize_m, reserve.
    assert (Hl : v_len v = nlen xs) by apply Hr.
    assert (Hlc : v_len v <= v_cap v) by apply Hr.
    rewrite (proj2 (N.ltb_ge n (v_len v))) by lia.
    rewrite (proj2 (N.ltb_lt (v_len v) n)) by lia.
    rewrite (proj2 (N.ltb_lt _ _)) by done.
    destruct (allocate_reserve_ok sz lmax Hsz Hlim h v xs fp n Hwf Hr)
      as (h'&E&_&Hu&_); [lia|lia|].
    rewrite (bind_ok _ _ _ _ _ E).
    assert (0 < nlen xs) by (destruct xs; [done|unfold nlen; simpl; lia]).
    destruct Hr as (_&_&_&Hp). destruct (v_ptr v) as [a|]; [|lia]. destruct Hp as [-> Hb].
    destruct (N.to_nat (n - v_len v)) as [|k] eqn:Ek; [lia|]. simpl.
    apply bind_err. unfold push_back_m. simpl.
    rewrite (proj2 (N.leb_gt _ _)) by lia. rewrite bind_ret.
    apply bind_err, vread_gone. eapply realloc_gone; eauto.
  Qed.

  Lemma assign_alias_ub h v xs fp i n :
    hwf h -> vrep h v xs fp -> 1 <= n -> n <= lmax -> xs <> [] -> i < nlen xs ->
    assign_fill_m sz v n (vread (v_ptr v) i) h = Err UB.
  Proof.
    intros Hwf Hr Hn1 Hn Hne Hi. unfold assign_fill_m.
    destruct (destroy_all_ok sz lmax Hsz Hlim h v xs fp Hwf Hr) as (h1&E1&Hr1&Hu1&_).
    rewrite (bind_ok _ _ _ _ _ E1). clear E1.
    assert (Hl : v_len v = nlen xs) by apply Hr.
    assert (Hlc : v_len v <= v_cap v) by apply Hr.
    assert (exists a, v_ptr v = Some a) as [a Ep].
    { destruct Hr as (_&_&_&Hp). destruct (v_ptr v); [eauto|].
      assert (0 < nlen xs) by (destruct xs; [done|unfold nlen; simpl; lia]). lia. }
    assert (Hend : forall h2 v2, v_len v2 = 0 -> 0 < v_cap v2 -> vread (v_ptr v) i h2 = Err UB ->
        repeat_m (N.to_nat n) (fun u => push_back_m sz u (vread (v_ptr v) i)) v2 h2 = Err UB).
    { intros h2 v2 Hl2 Hc2 Hrd. destruct (N.to_nat n) as [|k] eqn:Ek; [lia|]. simpl.
      apply bind_err. unfold push_back_m. rewrite (proj2 (N.leb_gt _ _)) by lia.
      rewrite bind_ret. by apply bind_err. }
    unfold reserve. simpl. destruct (N.ltb_spec (v_cap v) n) as [Hlt|Hge].
    - destruct (allocate_reserve_ok sz lmax Hsz Hlim h1 _ [] fp n (upd_wf _ _ _ _ Hu1) Hr1)
        as (h2&E2&Hr2&Hu2&_); [unfold nlen; simpl; lia|lia|].
      rewrite (bind_ok _ _ _ _ _ E2). apply Hend; [done|simpl; lia|].
      destruct Hr1 as (_&_&_&Hp). simpl in Hp. rewrite Ep in Hp. destruct Hp as [-> Hb].
      rewrite Ep. apply vread_gone. eapply realloc_gone; [apply Hu1| |exact Hu2|done]. eauto.
    - rewrite bind_ret. apply Hend; [done|simpl; lia|].
      destruct Hr1 as (_&_&_&Hp). simpl in Hp. rewrite Ep in Hp |- *. destruct Hp as [-> Hb].
      rewrite vcells_nil in Hb. unfold vread, bind, slot, bind, hread. rewrite Hb. simpl.
      rewrite nlookup_lookup, lookup_replicate_2 by lia. done.
  Qed.


End More2.

Section More3.
  Context {A : Type} (sz lmax : N) (dflt : A).
  Context (eqb : A -> A -> bool) (cmp : A -> A -> comparison).
  Context (Hsz : 1 <= sz) (Hlim : sz * (2 * lmax + 2) <= alloc_max).
  Implicit Types (h : heap (block A)) (v : vec) (xs ys : list A) (fp : list N).
  Notation VM := (M (heap (block A))).
  Notation vrep := (@VecProofs.vrep A sz lmax).
  Notation step := (vspec_step dflt eqb cmp).
  Notation wok := (world_ok vrep).
  Notation good := (good dflt eqb cmp lmax).

  Lemma within_insert (s : gmap nat (list A)) i xs :
    within lmax s -> nlen xs <= lmax -> within lmax (<[i := xs]> s).
  Proof.
    intros Hs Hx j ys. rewrite lookup_insert_Some. intros [[-> ->]|[_ H]]; eauto.
  Qed.

  Lemma good_snoc ops s outs o s' out :
    good ops s outs -> step s o = Some (s', out) -> vop_safe s o ->
    (forall i n, o <> VReserve i n) -> within lmax s' ->
    good (ops ++ [o]) s' (outs ++ [out]).
  Proof.
    intros Hg Hs Hsafe Hnr Hw. eapply good_app; [done| |]; simpl; rewrite Hs; [done|].
    split; [|done]. split; [done|]. split; [done|]. destruct o; try done. by edestruct Hnr.
  Qed.

  Lemma good_then ops s outs o s' out i xs :
    good ops s outs -> step s o = Some (s', out) -> vop_safe s o ->
    (forall i n, o <> VReserve i n) -> within lmax s' -> s' !! i = Some xs ->
    exists w, vec_run sz dflt eqb cmp (ops ++ [o; VIterAll i]) = Ok (outs ++ [out; OSeq xs], w).
  Proof.
    intros Hg Hs Hsafe Hnr Hw Hi.
    assert (good ((ops ++ [o]) ++ [VIterAll i]) s' ((outs ++ [out]) ++ [OSeq xs])) as Hg2.
    { eapply good_snoc; [by eapply good_snoc| |done|done|done].
      simpl. unfold observe. by rewrite Hi. }
    rewrite <-!(assoc_L app) in Hg2. apply (good_run sz lmax dflt eqb cmp Hsz Hlim) in Hg2 as (w & E & _). eauto.
  Qed.

  Lemma step_untouched s o s' out j :
    step s o = Some (s', out) -> j ∉ touched o -> s' !! j = s !! j.
  Proof using Type. clear Hsz Hlim.
    intros Hs Hj.
    destruct o; simpl in Hs, Hj; unfold create, modify, observe in Hs;
      repeat (case_match; try done); simplify_eq;
      rewrite ?lookup_insert_ne, ?lookup_delete_ne by set_solver; done.
  Qed.

  Lemma run_untouched ops : forall s s' outs j,
    spec_run step s ops = Some (s', outs) -> Forall (fun o => j ∉ touched o) ops ->
    s' !! j = s !! j.
  Proof using Type. clear Hsz Hlim.
    induction ops as [|o ops IH]; simpl; intros s s' outs j Hs Hf.
    - by injection Hs as <- <-.
    - apply Forall_cons in Hf as [Ho Hf]. destruct (step s o) as [[t x]|] eqn:E; [|done].
      destruct (spec_run step t ops) as [[u y]|] eqn:E2; [|done]. injection Hs as <- <-.
      rewrite (IH _ _ _ _ E2 Hf). by eapply step_untouched.
  Qed.

  Lemma upd_nil_map h h' fp : hwf h -> upd h h' fp [] ->
    forall a, hmap h' !! a = if decide (a ∈ fp) then None else hmap h !! a.
  Proof using Type. clear dflt eqb cmp Hsz Hlim.
    intros Hwf Hu a. case_decide as Hd.
    - destruct (hmap h' !! a) eqn:E; [|done].
      assert (is_Some (hmap h' !! a)) as Hs by eauto.
      apply (upd_dom _ _ _ _ Hu) in Hs. set_solver.
    - destruct (decide (a < hnext h)) as [Hlt|Hge].
      + by apply (upd_frame _ _ _ _ Hu).
      + destruct (hmap h !! a) eqn:E1. { assert (a < hnext h) by (apply Hwf; eauto). lia. }
        destruct (hmap h' !! a) eqn:E; [|done].
        assert (is_Some (hmap h' !! a)) as Hs by eauto.
        apply (upd_dom _ _ _ _ Hu) in Hs. rewrite E1 in Hs. destruct Hs as [[[? ?] _]|?]; [done|set_solver].
  Qed.

  (** What is left of the heap when vector [v] is gone. *)
  Definition without (m : gmap N (block A)) (v : vec) : gmap N (block A) :=
    match v_ptr v with Some a => delete a m | None => m end.

  Lemma upd_without h h' v xs fp :
    hwf h -> vrep h v xs fp -> upd h h' fp [] -> hmap h' = without (hmap h) v.
  Proof using Type. clear dflt eqb cmp Hsz Hlim.
    intros Hwf Hr Hu. apply map_eq. intros a. rewrite (upd_nil_map _ _ _ Hwf Hu).
    destruct Hr as (_&_&_&Hp). unfold without. destruct (v_ptr v) as [b|]; destruct Hp as [E1 E2]; subst.
    - case_decide as Hd.
      + apply elem_of_list_singleton in Hd as ->. by rewrite lookup_delete.
      + rewrite lookup_delete_ne; [done|]. set_solver.
    - case_decide; [set_solver|done].
  Qed.
End More3.

(** ** Order laws of the lexicographic comparison *)
Section Lex.
  Context {A : Type}.

  Lemma seq_eq_iff (eqb : A -> A -> bool) : (forall x y, eqb x y = true <-> x = y) ->
    forall xs ys, seq_eq eqb xs ys = true <-> xs = ys.
  Proof.
    intros He. induction xs as [|x xs IH]; intros [|y ys]; simpl; try done.
    rewrite andb_true_iff, He, IH. naive_solver.
  Qed.

  Context (cmp : A -> A -> comparison).
  Lemma seq_cmp_eq_iff : (forall x y, cmp x y = Eq <-> x = y) ->
    forall xs ys, seq_cmp cmp xs ys = Eq <-> xs = ys.
  Proof.
    intros He. induction xs as [|x xs IH]; intros [|y ys]; simpl; try done.
    destruct (cmp x y) eqn:E.
    - rewrite IH. apply He in E as ->. naive_solver.
    - split; [done|]. intros [= -> ->]. by rewrite (proj2 (He y y) eq_refl) in E.
    - split; [done|]. intros [= -> ->]. by rewrite (proj2 (He y y) eq_refl) in E.
  Qed.

  Lemma seq_cmp_opp : (forall x y, cmp y x = CompOpp (cmp x y)) ->
    forall xs ys, seq_cmp cmp ys xs = CompOpp (seq_cmp cmp xs ys).
  Proof.
    intros Ha. induction xs as [|x xs IH]; intros [|y ys]; simpl; try done.
    rewrite Ha. by destruct (cmp x y); simpl.
  Qed.

  Lemma seq_cmp_trans : (forall x y, cmp x y = Eq <-> x = y) ->
    (forall x y z, cmp x y = Lt -> cmp y z = Lt -> cmp x z = Lt) ->
    forall xs ys zs, seq_cmp cmp xs ys = Lt -> seq_cmp cmp ys zs = Lt -> seq_cmp cmp xs zs = Lt.
  Proof.
    intros He Ht. induction xs as [|x xs IH]; intros [|y ys] [|z zs]; simpl; try done.
    destruct (cmp x y) eqn:E1, (cmp y z) eqn:E2; try done.
    - apply He in E1 as ->. rewrite E2. eauto.
    - apply He in E1 as ->. by rewrite E2.
    - apply He in E2 as ->. by rewrite E1.
    - by rewrite (Ht _ _ _ E1 E2).
  Qed.

  (** The textbook definition of lexicographic order. *)
  Definition lex_lt (xs ys : list A) : Prop :=
    exists p xs' ys', xs = p ++ xs' /\ ys = p ++ ys' /\
      ((xs' = [] /\ ys' <> []) \/
       (exists x xr y yr, xs' = x :: xr /\ ys' = y :: yr /\ cmp x y = Lt)).

  Lemma seq_cmp_lex : (forall x y, cmp x y = Eq <-> x = y) ->
    forall xs ys, seq_cmp cmp xs ys = Lt <-> lex_lt xs ys.
  Proof.
    intros He xs ys. split.
    - revert ys. induction xs as [|x xs IH]; intros [|y ys]; simpl; try done.
      + intros _. exists [], [], (y :: ys). naive_solver.
      + destruct (cmp x y) eqn:E; [|intros _|done].
        * intros (p & a & b & -> & -> & H)%IH. apply He in E as ->.
          exists (y :: p), a, b. done.
        * exists [], (x :: xs), (y :: ys). split; [done|]. split; [done|]. right. eauto 10.
    - intros (p & a & b & -> & -> & H). induction p as [|z p IH]; simpl.
      + destruct H as [[-> Hb]|(x & xr & y & yr & -> & -> & E)]; [by destruct b|].
        simpl. by rewrite E.
      + rewrite (proj2 (He z z) eq_refl). exact IH.
  Qed.
End Lex.
