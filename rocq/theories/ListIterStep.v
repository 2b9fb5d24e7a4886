(** * ListIterStep: every operation on lists and kept iterators does what the specification says *)
From Verif Require Import Base World Machine IterSpec ListModel ListSeg ListOps ListOps2 ListOps3 ListOps4 ListOps5
  SortSpec ListSort ListStep ListSpec ListRefine ListIterModel ListIterRel.
Local Open Scope N_scope.

Section Ref.
  Context {T : Type} (dbl : bool).
  Notation lok := (lok dbl).
  Notation became := (became dbl).
  Notation H := (heap (cell T)).
  Notation kst := (kst T).
  Notation kls := (kls T).
  Notation ist := (ist T).
  Notation R := (R dbl).
  Notation krel := (krel dbl).
  Notation nrep := (nrep dbl).
  Implicit Types (h : H) (s : kst) (st : ist) (l : kls) (e : list (N * T)) (ρ : N -> N) (c al : N).

  Section Conts.
    Context (s : kst) (r : outcome (kout T * ist)).
    Lemma a_live i k : (forall al l, k_ls s !! i = Some (al, Some l) -> agrees krel r (k al l)) ->
      agrees krel r (live s i k).
    Proof. unfold live. intros Hk. destruct (k_ls s !! i) as [[al [l|]]|]; [|done|done]. by apply Hk. Qed.
    Lemma a_need b k : (b = true -> agrees krel r k) -> agrees krel r (need b k).
    Proof. unfold need. intros Hk. destruct b; [|done]. by apply Hk. Qed.
    Lemma a_give i al l e x : (nlen e < W -> agrees krel r (SOk (put s i al (with_els l e)) x)) ->
      agrees krel r (give s i al l e x).
    Proof. unfold give. intros Hk. destruct (N.ltb_spec (nlen e) W); [|done]. by apply Hk. Qed.
    Lemma a_give_it i al l e u p :
      (nlen e < W -> agrees krel r (SOk (set_it (put s i al (with_els l e)) u (name_at (with_els l e) p)) KU)) ->
      agrees krel r (give_it s i al l e u p).
    Proof. unfold give_it. intros Hk. destruct (N.ltb_spec (nlen e) W); [|done]. by apply Hk. Qed.
    Lemma a_pos t l k : (forall n p, k_it s !! t = Some n -> names l !! p = Some n -> agrees krel r (k p)) ->
      agrees krel r (at_pos s t l k).
    Proof. apply at_pos_ok. Qed.
  End Conts.

  Lemma sub_take_drop (e : list (N * T)) p q n : n ∈ (take p e ++ drop q e).*1 -> n ∈ e.*1.
  Proof.
    rewrite fmap_app, elem_of_app, fmap_take, fmap_drop. intros [Hn|Hn].
    - apply elem_of_take in Hn as (i & Hn & _). by eapply elem_of_list_lookup_2.
    - apply elem_of_list_lookup in Hn as [i Hn]. rewrite lookup_drop in Hn. by eapply elem_of_list_lookup_2.
  Qed.
  Lemma sub_perm (e e' : list (N * T)) n : e ≡ₚ e' -> n ∈ e.*1 -> n ∈ e'.*1.
  Proof. by intros ->. Qed.
  Lemma rn_cons ρ n v e : rn ρ ((n, v) :: e) = (ρ n, v) :: rn ρ e.
  Proof. done. Qed.
  Lemma see_run {A} st i (f : lst -> M H A) o x : w_vars (i_w st) !! i = Some o ->
    f o (w_heap (i_w st)) = Ok (x, w_heap (i_w st)) -> see i f st = Ok (x, st).
  Proof.
    intros Hv E. unfold see, onw, bind, wget. rewrite Hv. unfold lift. rewrite E. by destruct st as [[? ?] ?].
  Qed.
  Lemma mem_run {A} st (m : M H A) x : m (w_heap (i_w st)) = Ok (x, w_heap (i_w st)) -> mem m st = Ok (x, st).
  Proof. intros E. unfold mem, onw, lift. rewrite E. by destruct st as [[? ?] ?]. Qed.

  (** Positions of the new list. *)
  Lemma pos_at ρ hd tl e1 e2 p : p = S (length e1) ->
    lfp hd (rn ρ e1 ++ e2) tl !! p = Some (startp e2 tl).
  Proof. intros ->. rewrite <-(rn_length ρ e1). apply lfp_start. Qed.

  Lemma pos_upto ρ hd tl e1 e2 p : p = length e1 ->
    lfp hd (rn ρ e1 ++ e2) tl !! p = Some (endp hd (rn ρ e1)).
  Proof. intros ->. rewrite <-(rn_length ρ e1). apply lfp_end. Qed.
  Lemma spl_two ρ c h al l l' p rv (f : lst -> lst -> M H (lst * lst)) :
    Forall (fun n => n < c) (names l) -> Forall (fun n => n < c) (names l') ->
    nlen (take p (k_els l) ++ k_els l' ++ drop p (k_els l)) < W ->
    lok h al (ρ (k_front l)) (rn ρ (k_els l)) (ρ (k_end l)) ->
    lok h al (ρ (k_front l')) (rn ρ (k_els l')) (ρ (k_end l')) ->
    apart (lfp (ρ (k_front l)) (rn ρ (k_els l)) (ρ (k_end l))) (lfp (ρ (k_front l')) (rn ρ (k_els l')) (ρ (k_end l'))) ->
    (rv = false -> exists h', f (addr ρ al l) (addr ρ al l') h =
        Ok ((L al (ρ (k_front l)) (ρ (k_end l)) (rn ρ (take p (k_els l)) ++ rn ρ (k_els l') ++ rn ρ (drop p (k_els l))),
             L (T := T) al (ρ (k_front l')) (ρ (k_end l')) []), h') /\
        spliced dbl h h' al (ρ (k_front l)) (rn ρ (take p (k_els l))) (rn ρ (drop p (k_els l))) (ρ (k_end l))
          (ρ (k_front l')) (rn ρ (k_els l')) (ρ (k_end l'))) ->
    (rv = true -> exists h', f (addr ρ al l) (addr ρ al l') h =
        Ok ((L al (ρ (k_front l)) (ρ (k_end l)) (rn ρ (take p (k_els l)) ++ rn ρ (k_els l') ++ rn ρ (drop p (k_els l))),
             moved_from (addr ρ al l')), h') /\
        spliced_rv dbl h h' al (ρ (k_front l)) (rn ρ (take p (k_els l))) (rn ρ (drop p (k_els l))) (ρ (k_end l))
          (ρ (k_front l')) (rn ρ (k_els l')) (ρ (k_end l'))) ->
    let si := (al, Some (with_els l (take p (k_els l) ++ k_els l' ++ drop p (k_els l)))) in
    let sj := (al, if rv then None else Some (with_els l' [])) in
    exists o o' h' fi fj, f (addr ρ al l) (addr ρ al l') h = Ok ((o, o'), h') /\ nrep ρ c h' o si fi /\ nrep ρ c h' o' sj fj /\
      apart fi fj /\
      upd h h' (lfp (ρ (k_front l)) (rn ρ (k_els l)) (ρ (k_end l)) ++ lfp (ρ (k_front l')) (rn ρ (k_els l')) (ρ (k_end l'))) (fi ++ fj).
  Proof.
    intros Hn1 Hn2 HW Lk Lk2 Hap Hf Hg. cbv zeta.
    set (e := take p (k_els l) ++ k_els l' ++ drop p (k_els l)) in *.
    assert (He : rn ρ e = rn ρ (take p (k_els l)) ++ rn ρ (k_els l') ++ rn ρ (drop p (k_els l))) by (unfold e; by rewrite !rn_app).
    destruct (names_ends _ _ Hn1) as (M1 & M2 & M3). destruct (names_ends _ _ Hn2) as (M4 & M5 & M6).
    assert (Hne : Forall (fun n => n < c) (names (with_els l e))).
    { rewrite names_with. constructor; [done|]. apply Forall_app. split; [|by constructor]. unfold e. rewrite !fmap_app.
      apply Forall_app. split; [by apply Forall_take_names|]. apply Forall_app. split; [done|by apply Forall_drop_names]. }
    rewrite (cut ρ (k_els l) p). rewrite (cut ρ (k_els l) p) in Lk, Hap.
    destruct rv.
    - destruct (Hg eq_refl) as (h' & E & A1 & A2). rewrite <-He in E, A1, A2.
      exists (addr ρ al (with_els l e)), (moved_from (addr ρ al l')), h', (ρ <$> names (with_els l e)), [].
      split; [exact E|]. split; [constructor; done|]. split; [constructor|]. split; [apply apart_nil_r|].
      rewrite <-rn_names. exact A2.
    - destruct (Hf eq_refl) as (h' & E & A1 & A2 & A3). rewrite <-He in E, A1, A3.
      exists (addr ρ al (with_els l e)), (addr ρ al (with_els l' [])), h', (ρ <$> names (with_els l e)), (ρ <$> names (with_els l' [])).
      split; [exact E|]. split; [constructor; done|]. split; [|split].
      + constructor; [done|done|]. rewrite names_with. constructor; [done|]. by constructor.
      + rewrite <-!rn_names. cbn [with_els k_front k_els k_end]. rewrite He. apply apart_mid; [|exact Hap].
        by eapply lok_nd.
      + rewrite <-!rn_names. exact A3.
  Qed.

  Lemma kstep_refines s st o : kordered o -> krel s st -> agrees krel (kstep dbl o st) (kspec dbl s o).
  Proof.
    intros Hord [ρ HR]. assert (Hwf : hwf (w_heap (i_w st))) by by eapply R_wf.
    destruct o; cbn [kordered] in Hord; cbn [kstep kspec].
    - (* KRange *)
      destruct (k_ls s !! i) eqn:Ei; [done|]. apply a_need; intros HW%N.ltb_lt.
      destruct HR as [[m Hw] Hit]. destruct (world_ok_none _ _ _ _ _ Hw Ei) as [Hmi Hwi].
      destruct (range_ok dbl (w_heap (i_w st)) al vs Hwf HW) as (hd & tl & ms & h' & E & Hv & Lk & Hu).
      unfold onw, bind, wnew. rewrite Hwi. unfold lift. rewrite E. cbn. eexists. split; [done|].
      set (c := k_next s). set (ρ' := ext ρ c (hd :: tl :: ads ms)).
      assert (Hr : forall n, n < k_next s -> ρ' n = ρ n) by apply ext_old.
      assert (E1 : ρ' c = hd).
      { pose proof (ext_new ρ c (hd :: tl :: ads ms) 0 hd eq_refl) as X. by rewrite N.add_0_r in X. }
      assert (E2 : ρ' (c + 1) = tl) by exact (ext_new ρ c (hd :: tl :: ads ms) 1 tl eq_refl).
      assert (E3 : rn ρ' (number (c + 2) vs) = ms).
      { rewrite <-Hv. apply (rn_number ρ c (c + 2) _ _ 2); [lia|]. intros j a Hj. exact Hj. }
      assert (HR' : R ρ' (used s (2 + length vs)) st) by (apply R_more with (ρ := ρ); [done|split; [by exists m|done]]).
      exists ρ'. destruct HR' as [[m' Hw'] Hit']. split; [|exact Hit'].
      assert (Hmi' : m' !! i = None).
      { destruct (world_ok_none _ _ _ _ _ Hw' Ei). done. }
      eexists. cbn [i_w put set_ls used k_ls k_next].
      set (l := Kls c (number (c + 2) vs) (c + 1)).
      assert (Ho : L al hd tl ms = addr ρ' al l) by (unfold addr; cbn [l k_front k_els k_end]; by rewrite E1, E2, E3).
      rewrite Ho. eapply (world_new _ (nrep_frame dbl ρ' _) (nrep_dom dbl ρ' _)); [exact Hw'|done|exact Hu|].
      assert (Hfp : lfp hd ms tl = ρ' <$> names l) by (rewrite <-rn_names; cbn [l k_front k_els k_end]; by rewrite E1, E2, E3).
      rewrite Hfp. constructor; cbn [l k_front k_els k_end].
      + by rewrite E1, E2, E3.
      + by rewrite number_length.
      + unfold names. cbn [l k_front k_els k_end used k_next]. fold c. constructor; [lia|]. apply Forall_app. split; [|constructor; [lia|done]].
        eapply Forall_impl; [apply (number_names (c + 2) vs (N.of_nat (length vs))); lia|]. cbv beta. lia.
    - (* KMove *)
      destruct (k_ls s !! i) eqn:Ei; [done|]. destruct (k_ls s !! j) as [[al l]|] eqn:Ej; [|done].
      destruct HR as [[m Hw] Hit]. destruct (world_ok_none _ _ _ _ _ Hw Ei) as [Hmi Hwi].
      destruct (world_ok_lookup_spec _ _ _ _ _ _ Hw Ej) as (e & Hm & He & Hv & Hr).
      unfold onw, bind, wnew, wget. rewrite Hwi, Hv. cbn. eexists. split; [done|]. exists ρ. split; [|done].
      eexists. cbn [i_w set_ls k_ls k_next].
      eapply (world_new2 _ (nrep_frame dbl ρ _) (nrep_dom dbl ρ _) (i_w st) (k_ls s) m i j e _ _ _ _ _ (e_fp e) []);
        [exact Hw|done|done| |apply apart_nil_r|exact Hr|].
      + rewrite app_nil_r. apply upd_refl; [done|]. intros a Ha. exact (nrep_dom _ _ _ _ _ _ _ a Hr Ha).
      + exact (nrep_moved _ _ _ _ _ _ _ Hr).
    - (* KSwap *)
      destruct (k_ls s !! i) as [x|] eqn:Ei; [|done]. destruct (k_ls s !! j) as [y|] eqn:Ej; [|done].
      destruct (decide (i = j)) as [<-|Hij].
      + rewrite Ei in Ej. injection Ej as ->. rewrite insert_insert, insert_id by done.
        destruct HR as [[m Hw] Hit]. destruct (world_ok_lookup_spec _ _ _ _ _ _ Hw Ei) as (e & Hm & He & Hv & Hr).
        unfold two, onw, bind, wget. rewrite Hv. cbn. rewrite ?Hv. cbn. eexists. split; [done|]. exists ρ. split; [|done]. exists m.
        cbn. rewrite insert_insert. rewrite insert_id by (rewrite Hv; by destruct (e_o e)).
        destruct st as [[? ?] ?]. exact Hw.
      + eapply ok_two; [exact HR|done|exact Ei|exact Ej|]. intros o fi o2 fj Hi Hj Hap.
        exists o2, o, (w_heap (i_w st)), fj, fi. split; [by destruct o, o2|]. split; [done|]. split; [done|].
        split; [intros a Ha Ha'; exact (Hap a Ha' Ha)|].
        eapply upd_equiv; [intros a; reflexivity| |apply upd_refl; [done|]].
        * intros a. rewrite !elem_of_app. naive_solver.
        * intros a [Ha|Ha]%elem_of_app; [exact (nrep_dom _ _ _ _ _ _ _ a Hi Ha)|exact (nrep_dom _ _ _ _ _ _ _ a Hj Ha)].
    - (* KDel *)
      destruct (k_ls s !! i) as [x|] eqn:Ei; [|done].
      destruct HR as [[m Hw] Hit]. destruct (world_ok_lookup_spec _ _ _ _ _ _ Hw Ei) as (e & Hm & He & Hv & Hr).
      destruct (nrep_destroy _ _ _ _ _ _ _ Hwf Hr) as (o' & h' & E & Hu).
      unfold onw, bind, wget. rewrite Hv. unfold lift. rewrite E. cbn. eexists. split; [done|]. exists ρ. split; [|done].
      eexists. cbn [i_w set_ls k_ls k_next]. eapply (world_del _ (nrep_frame dbl ρ _) (nrep_dom dbl ρ _)); eauto.
    - (* KClear *)
      apply a_live; intros al l Ei. apply a_give; intros HW. destruct (R_live _ _ _ _ _ _ _ HR Ei) as (Hv & Lk & HWl & Hn).
      destruct (clear_ok dbl _ _ _ _ _ Hwf Lk) as (h' & E & Lk' & Hu).
      eapply ok_one_0; [exact HR|exact Ei|exact E|done| |done]. intros n Hin. set_solver.
    - (* KPushF *)
      apply a_live; intros al l Ei. apply a_give; intros HW. destruct (R_live _ _ _ _ _ _ _ HR Ei) as (Hv & Lk & HWl & Hn).
      destruct (names_ends _ _ Hn) as (H1 & H2 & H3).
      destruct (push_front_ok dbl _ _ _ _ _ v Hwf Lk) as (h' & b & E & Hb).
      { cbn [length] in HW. rewrite rn_length. lia. }
      eapply (ok_one_ _ ρ (ext ρ (k_next s) [b])); [exact HR|exact Ei|apply ext_old|exact E|exact Hb| | |exact HW].
      + exact (rn_ins1 ρ (k_next s) [] (k_els l) b v (Forall_nil_2 _) H2).
      + exact (ins_names1 (k_next s) v [] (k_els l) (Forall_nil_2 _) H2).
    - (* KPopF *)
      apply a_live; intros al l Ei. destruct (k_els l) as [|[n v] e] eqn:El; [done|]. apply a_give; intros HW.
      destruct (R_live _ _ _ _ _ _ _ HR Ei) as (Hv & Lk & HWl & Hn). rewrite El in Lk, HWl. rewrite rn_cons in Lk.
      destruct (pop_front_ok dbl _ _ _ _ _ _ _ Hwf Lk) as (h' & E & Hb); [cbn [length] in HWl |- *; rewrite rn_length; lia|].
      eapply ok_one_0; [exact HR|exact Ei| | | |exact HW].
      + unfold addr. rewrite El. exact E.
      + rewrite El. exact Hb.
      + rewrite El. intros m Hm. by right.
    - (* KPushB *)
      apply a_need; intros Hd. apply a_live; intros al l Ei. apply a_give; intros HW.
      destruct (R_live _ _ _ _ _ _ _ HR Ei) as (Hv & Lk & HWl & Hn). destruct (names_ends _ _ Hn) as (H1 & H2 & H3).
      destruct (push_back_ok dbl _ _ _ _ _ v Hd Hwf Lk) as (h' & b & E & Hb).
      { rewrite app_length in HW. cbn [length] in HW. rewrite rn_length. lia. }
      eapply (ok_one_ _ ρ (ext ρ (k_next s) [b])); [exact HR|exact Ei|apply ext_old|exact E|exact Hb| | |exact HW].
      + exact (rn_ins1 ρ (k_next s) (k_els l) [] b v H2 (Forall_nil_2 _)).
      + exact (ins_names1 (k_next s) v (k_els l) [] H2 (Forall_nil_2 _)).
    - (* KPopB *)
      apply a_need; intros Hd. apply a_live; intros al l Ei.
      destruct (R_live _ _ _ _ _ _ _ HR Ei) as (Hv & Lk & HWl & Hn).
      destruct (k_els l) as [|[n v] e _] eqn:El using rev_ind; [done|].
      assert (Hm : forall (r : sres kst (kout T)), match e ++ [(n, v)] with [] => SPre | _ => r end = r) by by destruct e.
      rewrite Hm, removelast_last. apply a_give; intros HW.
      rewrite rn_app in Lk.
      destruct (pop_back_ok dbl _ _ _ _ _ _ _ Hd Hwf Lk) as (h' & E & Hb).
      { rewrite app_length in HWl |- *. rewrite rn_length. cbn [length] in *. lia. }
      eapply ok_one_0; [exact HR|exact Ei| | | |exact HW].
      + unfold addr. rewrite El, rn_app. exact E.
      + rewrite El, rn_app. exact Hb.
      + rewrite El, fmap_app. intros m Hin. apply elem_of_app. by left.
    - (* KSrt *)
      apply a_live; intros al l Ei. apply a_need; intros Hne%negb_true_iff%Nat.eqb_neq. apply a_give; intros HW.
      destruct (R_live _ _ _ _ _ _ _ HR Ei) as (Hv & Lk & HWl & Hn).
      destruct (sort_ok dbl _ _ _ _ _ lt Hwf Lk) as (h' & zs & E & Hs & Hb); [by rewrite rn_length|].
      apply (sorted_as_ssort _ (swo_on _ Hord)) in Hs. rewrite <-rn_reverse, <-rn_ssort in Hs. subst zs.
      eapply ok_one_0; [exact HR|exact Ei|exact E|exact Hb| |exact HW].
      intros n. apply sub_perm. rewrite ssort_perm. apply reverse_Permutation.
    - (* KMer *)
      apply a_live; intros al l Ei. apply a_live; intros al' l' Ej.
      apply a_need; intros [[[[[Hij%negb_true_iff%Nat.eqb_neq <-%N.eqb_eq]%andb_true_iff
        Hx%negb_true_iff%isnil_false]%andb_true_iff Hy%negb_true_iff%isnil_false]%andb_true_iff
        Hs1%sortedb_srt]%andb_true_iff Hs2%sortedb_srt]%andb_true_iff.
      apply a_give; intros HW. unfold put. cbn [set_ls k_ls k_it k_next].
      eapply (ok_two _ ρ s st i j); [exact HR|done|exact Ei|exact Ej|]. intros o fi o2 fj Hi Hj Hap.
      apply nrep_inv in Hi as (-> & Lk & HW1 & Hn1 & ->). apply nrep_inv in Hj as (-> & Lk2 & HW2 & Hn2 & ->).
      destruct (merge_ok dbl _ _ _ _ _ _ _ _ lt Hwf Lk Lk2 Hap) as (h' & E & A1 & A2 & A3).
      { by destruct (k_els l). }
      { by destruct (k_els l'). }
      { rewrite !rn_length. rewrite (ssort_perm (val_lt lt)), app_length in HW. lia. }
      assert (Hz : mrg (on snd lt) (rn ρ (k_els l)) (rn ρ (k_els l')) = rn ρ (ssort (val_lt lt) (k_els l' ++ k_els l))).
      { rewrite rn_ssort, rn_app. apply mrg_ssort; [by apply swo_on| |]; apply srt_on.
        - by rewrite <-(rn_vls ρ) in Hs1.
        - by rewrite <-(rn_vls ρ) in Hs2. }
      rewrite Hz in E, A1, A3.
      set (e := ssort (val_lt lt) (k_els l' ++ k_els l)) in *.
      destruct (names_ends _ _ Hn1) as (M1 & M2 & M3). destruct (names_ends _ _ Hn2) as (M4 & M5 & M6).
      assert (Hsub : forall n, n ∈ e.*1 -> n ∈ (k_els l').*1 \/ n ∈ (k_els l).*1).
      { intros n Hin. apply elem_of_app. rewrite <-fmap_app. revert Hin. apply sub_perm. apply ssort_perm. }
      exists (addr ρ al (with_els l e)), (addr ρ al (with_els l' [])), h', (ρ <$> names (with_els l e)), (ρ <$> names (with_els l' [])).
      split; [exact E|]. split; [|split; [|split]].
      + constructor; [done|done|]. rewrite names_with. constructor; [done|]. apply Forall_app. split; [|by constructor].
        apply Forall_forall. intros n [Hin|Hin]%Hsub; [rewrite Forall_forall in M5; by apply M5|rewrite Forall_forall in M2; by apply M2].
      + constructor; [done|done|]. rewrite names_with. constructor; [done|]. by constructor.
      + rewrite <-!rn_names. cbn [with_els k_front k_els k_end]. intros a Ha Ha2.
        pose proof (lok_nd dbl _ _ _ _ _ Lk2) as Hnd. unfold lfp in Hnd.
        apply NoDup_cons in Hnd as [Hq1 Hnd]. apply NoDup_app in Hnd as (_ & Hq2 & _).
        assert (Ha3 : a = ρ (k_front l') \/ a = ρ (k_end l')).
        { unfold lfp in Ha2. apply elem_of_cons in Ha2 as [->|Ha2]; [by left|]. right. by apply elem_of_list_singleton in Ha2. }
        assert (Hp : a ∈ lfp (ρ (k_front l)) (rn ρ (k_els l)) (ρ (k_end l)) \/ a ∈ ads (rn ρ (k_els l'))).
        { unfold lfp in Ha |- *. rewrite elem_of_cons, elem_of_app in Ha |- *. destruct Ha as [Ha|[Ha|Ha]]; [tauto| |tauto].
          rewrite rn_ads in Ha |- *. rewrite rn_ads. apply elem_of_list_fmap in Ha as (n & -> & [Hin|Hin]%Hsub).
          - right. apply elem_of_list_fmap. by exists n.
          - left. right. left. apply elem_of_list_fmap. by exists n. }
        destruct Hp as [Hp|Hp].
        * apply (Hap a Hp). unfold lfp. rewrite elem_of_cons, elem_of_app, elem_of_list_singleton. tauto.
        * destruct Ha3 as [->| ->]; [apply Hq1; by apply elem_of_app; left|]. apply (Hq2 _ Hp). by apply elem_of_list_singleton.
      + rewrite <-!rn_names. exact A3.
    - (* KRev *)
      apply a_live; intros al l Ei. destruct (R_live _ _ _ _ _ _ _ HR Ei) as (Hv & Lk & HWl & Hn).
      destruct (names_ends _ _ Hn) as (H1 & H2 & H3).
      assert (Hsub : Forall (fun n => n < k_next s) (reverse (k_els l)).*1).
      { rewrite fmap_reverse. by apply Forall_reverse. }
      destruct (bool_dec dbl true) as [Hd|Hd%not_true_is_false].
      + destruct (rev_dbl_ok dbl _ _ _ _ _ Hd Hwf Lk) as (h' & E & Lk' & Hu). rewrite <-rn_reverse in E, Lk', Hu.
        unfold one_. erewrite one_run; [|exact Hv|].
        2:{ unfold l_reverse. rewrite Hd. rewrite (bind_ok _ _ _ _ _ E). done. }
        eexists. split; [done|]. exists ρ. unfold put.
        replace (if dbl then Kls (k_end l) (reverse (k_els l)) (k_front l) else with_els l (reverse (k_els l)))
          with (Kls (k_end l) (reverse (k_els l)) (k_front l)) by by rewrite Hd.
        pose (l' := Kls (k_end l) (reverse (k_els l)) (k_front l)).
        change (R ρ (set_ls s (<[i := (al, Some l')]> (k_ls s)))
          (ISt (World h' (<[i := addr ρ al l']> (w_vars (i_w st)))) (i_it st))).
        eapply R_one; [exact HR|exact Ei| |apply nrep_some; [exact Lk'|cbn [l' k_els]; by rewrite reverse_length|]].
        * change (k_end l) with (k_front l') in Hu. rewrite <-rn_names. exact Hu.
        * unfold names. cbn [l' k_front k_els k_end]. constructor; [done|]. apply Forall_app. split; [done|by constructor].
      + destruct (rev_fwd_ok dbl _ _ _ _ _ Hd Hwf Lk) as (h' & E & Hb). rewrite <-rn_reverse in E, Hb.
        replace (if dbl then Kls (k_end l) (reverse (k_els l)) (k_front l) else with_els l (reverse (k_els l)))
          with (with_els l (reverse (k_els l))) by by rewrite Hd.
        eapply ok_one_0; [exact HR|exact Ei| |exact Hb| |by rewrite reverse_length].
        * unfold l_reverse. rewrite Hd in E |- *. exact E.
        * intros n. apply sub_perm. apply reverse_Permutation.
    - (* KRemIf *)
      apply a_live; intros al l Ei. apply a_give; intros HW. destruct (R_live _ _ _ _ _ _ _ HR Ei) as (Hv & Lk & HWl & Hn).
      destruct (remove_if_ok dbl _ _ _ _ _ f Hwf Lk) as (h' & E & Hb); [by rewrite rn_length|].
      set (e := rest (fun x : N * T => f (snd x)) (k_els l)) in *.
      assert (Hc : nlen (List.filter f (k_els l).*2) = nlen (rn ρ (k_els l)) - nlen (kept f (rn ρ (k_els l)))).
      { rewrite <-(vls_length (kept f _)), rest_kept, rn_vls, rn_length. pose proof (rest_count f (k_els l).*2) as X.
        rewrite fmap_length in X. lia. }
      rewrite Hc. rewrite <-rn_rest in E, Hb |- *. fold e in E, Hb |- *.
      destruct (ok_became0 _ ρ s st i al l (fun o => '(o', n) <-- l_remove_if dbl o f ;; ret (o', (KN n : kout T)))
        (KN (nlen (rn ρ (k_els l)) - nlen (rn ρ e))) h' e HR Ei) as (st' & E' & HR' & _); try done.
      { unfold addr, bind. rewrite E. done. }
      { intros n. unfold e, rest. rewrite !elem_of_list_fmap. intros (x & -> & Hx). exists x. split; [done|].
        apply elem_of_list_In in Hx. apply filter_In in Hx as [Hx _]. by apply elem_of_list_In. }
      exists st'. split; [done|]. by exists ρ.
    - (* KUniq *)
      apply a_live; intros al l Ei. apply a_give; intros HW. destruct (R_live _ _ _ _ _ _ _ HR Ei) as (Hv & Lk & HWl & Hn).
      destruct (unique_ok dbl _ _ _ _ _ r Hwf Lk) as (h' & E & Hb); [by rewrite rn_length|].
      rewrite <-rn_firsts in E, Hb.
      set (e := firsts (fun x y : N * T => r (snd x) (snd y)) (k_els l)) in *.
      destruct (ok_became0 _ ρ s st i al l (fun o => '(o', n) <-- l_unique dbl o r ;; ret (o', (KN n : kout T)))
        (KN (nlen (k_els l) - nlen e)) h' e HR Ei) as (st' & E' & HR' & _); try done.
      { unfold addr, bind. rewrite E. by rewrite !rn_length. }
      { intros n. rewrite !elem_of_list_fmap. intros (x & -> & Hx). exists x. split; [done|].
        unfold e in Hx. clear -Hx. destruct (k_els l) as [|y e0]; [done|]. cbn in Hx.
        apply elem_of_cons in Hx as [->|Hx]; [by left|]. right. revert y Hx.
        induction e0 as [|z e0 IH]; intros y Hx; [done|]. cbn in Hx. destruct (r (snd z) (snd y)); [right; eauto|].
        apply elem_of_cons in Hx as [->|Hx]; [by left|right; eauto]. }
      exists st'. split; [done|]. by exists ρ.
    - (* KItems *)
      apply a_live; intros al l Ei. destruct (R_live _ _ _ _ _ _ _ HR Ei) as (Hv & Lk & HWl & Hn).
      erewrite see_run; [|exact Hv|]. 2:{ unfold addr. rewrite (bind_ok _ _ _ _ _ (to_list_ok dbl _ _ _ _ _ Lk)). done. }
      eexists. rewrite rn_vls. split; [done|]. by exists ρ.
    - (* KEmpA *)
      apply a_live; intros al l Ei. apply a_pos; intros n p Ht Hp. apply a_need; intros Hle%Nat.leb_le.
      apply a_give_it; intros HW. destruct (R_live _ _ _ _ _ _ _ HR Ei) as (Hv & Lk & HWl & Hn).
      destruct (names_ends _ _ Hn) as (H1 & H2 & H3). pose proof (pos_end ρ l p n Hp Hle) as Hq.
      rewrite (cut ρ (k_els l) p) in Lk.
      destruct (emplace_after_ok dbl _ _ _ _ _ _ v Hwf Lk) as (h' & b & E & Hb).
      { rewrite !app_length, take_length, drop_length in HW. rewrite app_length, !rn_length, take_length, drop_length. cbn [length] in HW. lia. }
      eapply (ok_at1 _ ρ (ext ρ (k_next s) [b])); [exact HR|exact Ei|exact Ht|apply ext_old| | | | |exact HW|].
      + unfold addr. rewrite (cut ρ (k_els l) p), Hq. exact E.
      + rewrite (cut ρ (k_els l) p). exact Hb.
      + apply (rn_ins1 ρ (k_next s) (take p (k_els l)) (drop p (k_els l)) b v); [by apply Forall_take_names|by apply Forall_drop_names].
      + apply (ins_names1 (k_next s) v (take p (k_els l)) (drop p (k_els l))); [by apply Forall_take_names|by apply Forall_drop_names].
      + rewrite pos_at; [done|]. rewrite take_length. lia.
    - (* KInsA *)
      apply a_live; intros al l Ei. apply a_pos; intros n p Ht Hp. apply a_need; intros Hle%Nat.leb_le.
      apply a_give_it; intros HW. destruct (R_live _ _ _ _ _ _ _ HR Ei) as (Hv & Lk & HWl & Hn).
      destruct (names_ends _ _ Hn) as (H1 & H2 & H3). pose proof (pos_end ρ l p n Hp Hle) as Hq.
      rewrite (cut ρ (k_els l) p) in Lk. destruct vs as [|v0 vs0] eqn:Hvs.
      + cbn [isnil length]. rewrite used_0. cbn [number imap app]. rewrite take_drop.
        assert (Hl : with_els l (k_els l) = l) by by destruct l.
        eapply (ok_at1_0 _ ρ s st i t u n al l _ (w_heap (i_w st)) (k_els l) p (ρ n)); [exact HR|exact Ei|exact Ht|done| |done|done|].
        * apply became_refl; [done|]. by rewrite <-cut in Lk.
        * rewrite rn_names, list_lookup_fmap, Hp. done.
      + rewrite <-Hvs in *. destruct (insert_after_ok dbl _ _ _ _ _ _ vs Hwf Lk) as (h' & ms & E & Hms & Hb); [|by subst|].
        { rewrite !app_length, number_length, take_length, drop_length in HW. rewrite app_length, !rn_length, take_length, drop_length. lia. }
        replace (isnil vs) with false by by subst.
        eapply (ok_at1 _ ρ (ext ρ (k_next s) (ads ms))); [exact HR|exact Ei|exact Ht|apply ext_old| | | | |exact HW|].
        * unfold addr. rewrite (cut ρ (k_els l) p), Hq. exact E.
        * rewrite (cut ρ (k_els l) p). exact Hb.
        * rewrite <-Hms. apply rn_ins; [by apply Forall_take_names|by apply Forall_drop_names].
        * apply ins_names; [by apply Forall_take_names|by apply Forall_drop_names].
        * rewrite pos_at; [|rewrite take_length; lia]. rewrite startp_app. destruct ms as [|[b u'] ms]; [|done]. by subst.
    - (* KEraA *)
      apply a_live; intros al l Ei. apply a_pos; intros n p Ht Hp. apply a_need; intros Hle%Nat.leb_le.
      apply a_give_it; intros HW. destruct (R_live _ _ _ _ _ _ _ HR Ei) as (Hv & Lk & HWl & Hn).
      pose proof (pos_end ρ l p n Hp Hle) as Hq.
      destruct (drop p (k_els l)) as [|[m v] e2] eqn:Ed.
      + assert (Hpl : p = length (k_els l)).
        { apply (f_equal length) in Ed. rewrite drop_length in Ed. cbn in Ed. lia. }
        rewrite (drop_ge (k_els l) (p + 1)) by lia. rewrite app_nil_r, take_ge by lia. rewrite take_ge in Hq by lia.
        eapply (ok_at1_0 _ ρ s st i t u n al l _ (w_heap (i_w st)) (k_els l) (p + 1)); [exact HR|exact Ei|exact Ht| | |done|done|].
        * rewrite Hq. unfold addr. exact (erase_after_none dbl _ _ _ _ _ Lk).
        * by apply became_refl.
        * pose proof (lfp_start (ρ (k_front l)) (rn ρ (k_els l)) [] (ρ (k_end l))) as X. rewrite app_nil_r, rn_length in X.
          rewrite Nat.add_1_r, Hpl. exact X.
      + assert (Hd : drop (p + 1) (k_els l) = e2) by (rewrite <-drop_drop, Ed; done). rewrite Hd in HW |- *.
        rewrite (cut ρ (k_els l) p), Ed, rn_cons in Lk.
        destruct (erase_after_ok dbl _ _ _ _ _ _ _ _ Hwf Lk) as (h' & E & Hb).
        { rewrite <-rn_cons, <-Ed, <-cut, rn_length. done. }
        rewrite <-rn_app in E, Hb.
        eapply (ok_at1_0 _ ρ s st i t u n al l); [exact HR|exact Ei|exact Ht| | | |exact HW|].
        * unfold addr. rewrite (cut ρ (k_els l) p), Ed, rn_cons, Hq. exact E.
        * rewrite (cut ρ (k_els l) p), Ed, rn_cons. exact Hb.
        * rewrite <-Hd. intros k. apply sub_take_drop.
        * rewrite rn_app, pos_at; [done|]. rewrite take_length. lia.
    - (* KEraAR *)
      apply a_live; intros al l Ei. apply a_pos; intros n p Ht Hp. apply a_pos; intros n2 q Ht2 Hp2. apply a_need; intros Hle%Nat.leb_le.
      destruct (R_live _ _ _ _ _ _ _ HR Ei) as (Hv & Lk & HWl & Hn).
      pose proof (lookup_lt_Some _ _ _ Hp2) as Hlt. rewrite names_length in Hlt.
      destruct (Nat.eqb_spec p q) as [<-|Hne].
      + rewrite Hp in Hp2. injection Hp2 as <-. rewrite (name_at_lookup _ _ _ Hp). unfold at2.
        rewrite (bind_ok _ _ _ _ _ (gett_ok _ _ _ _ _ _ HR Ht)), (bind_ok _ _ _ _ _ (gett_ok _ _ _ _ _ _ HR Ht2)).
        erewrite bind_ok; [|eapply one_run; [exact Hv|apply erase_after_range_same]]. cbn. eexists. split; [done|]. exists ρ.
        rewrite insert_id by done. destruct st as [[hh vv] it].
        apply (R_it dbl ρ s (ISt (World hh vv) it)); [done|]. rewrite Forall_lookup in Hn. by eapply Hn.
      + apply a_give_it; intros HW.
        pose proof (pos_end ρ l p n Hp ltac:(lia)) as Hq. pose proof (pos_start ρ l q n2 Hp2 ltac:(lia)) as Hq2.
        set (e1 := take p (k_els l)) in *. set (e3 := drop (q - 1) (k_els l)) in *.
        set (e2 := take (q - 1 - p) (drop p (k_els l))).
        assert (Hs : k_els l = e1 ++ e2 ++ e3).
        { unfold e1, e2, e3. replace (drop (q - 1) (k_els l)) with (drop (q - 1 - p) (drop p (k_els l))) by (rewrite drop_drop; f_equal; lia).
          by rewrite !take_drop. }
        assert (Hrs : rn ρ (k_els l) = rn ρ e1 ++ rn ρ e2 ++ rn ρ e3) by (by rewrite Hs, !rn_app).
        assert (HWr : nlen (rn ρ e1 ++ rn ρ e2 ++ rn ρ e3) < W) by by rewrite <-Hrs, rn_length.
        rewrite Hrs in Lk.
        destruct (erase_after_range_ok dbl _ _ _ _ _ _ _ Hwf Lk HWr) as (h' & E & Hb). rewrite <-(rn_app ρ e1 e3) in E, Hb.
        eapply (ok_at2 _ ρ s st i t1 t2 u n n2 al l); [exact HR|exact Ei|exact Ht|exact Ht2| | | |exact HW|].
        * unfold addr. rewrite Hrs, Hq, Hq2. exact E.
        * rewrite Hrs. exact Hb.
        * intros k. apply sub_take_drop.
        * rewrite rn_app, pos_at; [done|]. unfold e1. rewrite take_length. lia.
    - (* KEmp *)
      apply a_need; intros Hdb. apply a_live; intros al l Ei. apply a_pos; intros n p Ht Hp. apply a_need; intros Hge%Nat.leb_le.
      apply a_give_it; intros HW. destruct (R_live _ _ _ _ _ _ _ HR Ei) as (Hv & Lk & HWl & Hn).
      destruct (names_ends _ _ Hn) as (H1 & H2 & H3). pose proof (pos_start ρ l p n Hp Hge) as Hq.
      pose proof (lookup_lt_Some _ _ _ Hp) as Hlt. rewrite names_length in Hlt.
      rewrite (cut ρ (k_els l) (p - 1)) in Lk.
      destruct (emplace_ok dbl _ _ _ _ _ _ v Hdb Hwf Lk) as (h' & b & E & Hb).
      { rewrite !app_length, take_length, drop_length in HW. rewrite app_length, !rn_length, take_length, drop_length. cbn [length] in HW. lia. }
      eapply (ok_at1 _ ρ (ext ρ (k_next s) [b])); [exact HR|exact Ei|exact Ht|apply ext_old| | | | |exact HW|].
      + unfold addr. rewrite (cut ρ (k_els l) (p - 1)), Hq. exact E.
      + rewrite (cut ρ (k_els l) (p - 1)). exact Hb.
      + apply (rn_ins1 ρ (k_next s) (take (p - 1) (k_els l)) (drop (p - 1) (k_els l)) b v); [by apply Forall_take_names|by apply Forall_drop_names].
      + apply (ins_names1 (k_next s) v (take (p - 1) (k_els l)) (drop (p - 1) (k_els l))); [by apply Forall_take_names|by apply Forall_drop_names].
      + rewrite pos_at; [done|]. rewrite take_length. lia.
    - (* KIns *)
      apply a_need; intros Hdb. apply a_live; intros al l Ei. apply a_pos; intros n p Ht Hp. apply a_need; intros Hge%Nat.leb_le.
      apply a_give_it; intros HW. destruct (R_live _ _ _ _ _ _ _ HR Ei) as (Hv & Lk & HWl & Hn).
      destruct (names_ends _ _ Hn) as (H1 & H2 & H3). pose proof (pos_start ρ l p n Hp Hge) as Hq.
      pose proof (lookup_lt_Some _ _ _ Hp) as Hlt. rewrite names_length in Hlt.
      rewrite (cut ρ (k_els l) (p - 1)) in Lk. destruct vs as [|v0 vs0] eqn:Hvs.
      + cbn [length]. rewrite used_0. cbn [number imap app]. rewrite take_drop.
        eapply (ok_at1_0 _ ρ s st i t u n al l _ (w_heap (i_w st)) (k_els l) p (ρ n)); [exact HR|exact Ei|exact Ht|done| |done|done|].
        * apply became_refl; [done|]. by rewrite <-cut in Lk.
        * rewrite rn_names, list_lookup_fmap, Hp. done.
      + rewrite <-Hvs in *. destruct (insert_ok dbl _ _ _ _ _ _ vs Hdb Hwf Lk) as (h' & ms & E & Hms & Hb); [|by subst|].
        { rewrite !app_length, number_length, take_length, drop_length in HW. rewrite app_length, !rn_length, take_length, drop_length. lia. }
        eapply (ok_at1 _ ρ (ext ρ (k_next s) (ads ms))); [exact HR|exact Ei|exact Ht|apply ext_old| | | | |exact HW|].
        * unfold addr. rewrite (cut ρ (k_els l) (p - 1)), Hq. exact E.
        * rewrite (cut ρ (k_els l) (p - 1)). exact Hb.
        * rewrite <-Hms. apply rn_ins; [by apply Forall_take_names|by apply Forall_drop_names].
        * apply ins_names; [by apply Forall_take_names|by apply Forall_drop_names].
        * rewrite pos_at; [|rewrite take_length; lia]. rewrite startp_app. destruct ms as [|[b u'] ms]; [|done]. by subst.
    - (* KEra *)
      apply a_need; intros Hdb. apply a_live; intros al l Ei. apply a_pos; intros n p Ht Hp. apply a_need; intros Hge%Nat.leb_le.
      apply a_give_it; intros HW. destruct (R_live _ _ _ _ _ _ _ HR Ei) as (Hv & Lk & HWl & Hn).
      pose proof (pos_start ρ l p n Hp Hge) as Hq.
      pose proof (lookup_lt_Some _ _ _ Hp) as Hlt. rewrite names_length in Hlt.
      destruct (drop (p - 1) (k_els l)) as [|[m v] e2] eqn:Ed.
      + assert (Hpl : (p - 1)%nat = length (k_els l)).
        { apply (f_equal length) in Ed. rewrite drop_length in Ed. cbn in Ed. lia. }
        rewrite (drop_ge (k_els l) p) by lia. rewrite app_nil_r, take_ge by lia. cbn [rn fmap list_fmap startp] in Hq.
        eapply (ok_at1_0 _ ρ s st i t u n al l _ (w_heap (i_w st)) (k_els l) p); [exact HR|exact Ei|exact Ht| | |done|done|].
        * rewrite Hq. unfold addr. apply erase_end.
        * by apply became_refl.
        * pose proof (lfp_start (ρ (k_front l)) (rn ρ (k_els l)) [] (ρ (k_end l))) as X. rewrite app_nil_r, rn_length in X.
          replace p with (S (length (k_els l))) by lia. exact X.
      + assert (Hd : drop p (k_els l) = e2) by (replace p with (p - 1 + 1)%nat by lia; rewrite <-drop_drop, Ed; done).
        rewrite Hd in HW |- *. rewrite (cut ρ (k_els l) (p - 1)), Ed, rn_cons in Lk. cbn [startp] in Hq.
        destruct (erase_ok dbl _ _ _ _ _ _ _ _ Hdb Hwf Lk) as (h' & E & Hb).
        { rewrite <-rn_cons, <-Ed, <-cut, rn_length. done. }
        rewrite <-rn_app in E, Hb.
        eapply (ok_at1_0 _ ρ s st i t u n al l); [exact HR|exact Ei|exact Ht| | | |exact HW|].
        * unfold addr. rewrite (cut ρ (k_els l) (p - 1)), Ed, rn_cons, Hq. exact E.
        * rewrite (cut ρ (k_els l) (p - 1)), Ed, rn_cons. exact Hb.
        * rewrite <-Hd. intros k. apply sub_take_drop.
        * rewrite rn_app, pos_at; [done|]. rewrite take_length. lia.
    - (* KEraR *)
      apply a_need; intros Hdb. apply a_live; intros al l Ei. apply a_pos; intros n p Ht Hp. apply a_pos; intros n2 q Ht2 Hp2.
      apply a_need; intros [Hge%Nat.leb_le Hle%Nat.leb_le]%andb_true_iff. apply a_give_it; intros HW.
      destruct (R_live _ _ _ _ _ _ _ HR Ei) as (Hv & Lk & HWl & Hn).
      pose proof (lookup_lt_Some _ _ _ Hp2) as Hlt. rewrite names_length in Hlt.
      pose proof (pos_start ρ l p n Hp Hge) as Hq. pose proof (pos_start ρ l q n2 Hp2 ltac:(lia)) as Hq2.
      set (e1 := take (p - 1) (k_els l)) in *. set (e3 := drop (q - 1) (k_els l)) in *.
      set (e2 := take (q - p) (drop (p - 1) (k_els l))).
      assert (Hs3 : drop (p - 1) (k_els l) = e2 ++ e3).
      { unfold e2, e3. replace (drop (q - 1) (k_els l)) with (drop (q - p) (drop (p - 1) (k_els l))) by (rewrite drop_drop; f_equal; lia).
        by rewrite take_drop. }
      assert (Hs : k_els l = e1 ++ e2 ++ e3) by (rewrite <-Hs3; unfold e1; by rewrite take_drop).
      rewrite Hs3, rn_app in Hq.
      assert (Hrs : rn ρ (k_els l) = rn ρ e1 ++ rn ρ e2 ++ rn ρ e3) by (by rewrite Hs, !rn_app).
      assert (HWr : nlen (rn ρ e1 ++ rn ρ e2 ++ rn ρ e3) < W) by by rewrite <-Hrs, rn_length.
      rewrite Hrs in Lk.
      destruct (erase_range_ok dbl _ _ _ _ _ _ _ Hdb Hwf Lk HWr) as (h' & E & Hb). rewrite <-(rn_app ρ e1 e3) in E, Hb.
      eapply (ok_at2 _ ρ s st i t1 t2 u n n2 al l); [exact HR|exact Ei|exact Ht|exact Ht2| | | |exact HW|].
      + unfold addr. rewrite Hrs, Hq, Hq2. exact E.
      + rewrite Hrs. exact Hb.
      + intros k. apply sub_take_drop.
      + rewrite rn_app, pos_at; [done|]. unfold e1. rewrite take_length. lia.
    - (* KSplA *)
      apply a_live; intros al l Ei. apply a_live; intros al' l' Ej. apply a_pos; intros n p Ht Hp.
      apply a_need; intros [[[Hij%negb_true_iff%Nat.eqb_neq <-%N.eqb_eq]%andb_true_iff
        Hy%negb_true_iff%isnil_false]%andb_true_iff Hle%Nat.leb_le]%andb_true_iff.
      apply a_give; intros HW. rewrite (bind_ok _ _ _ _ _ (gett_ok _ _ _ _ _ _ HR Ht)).
      pose proof (pos_end ρ l p n Hp Hle) as Hq.
      eapply (ok_two _ ρ s st i j); [exact HR|done|exact Ei|exact Ej|]. intros o fi o2 fj Hi Hj Hap.
      apply nrep_inv in Hi as (-> & Lk & HW1 & Hn1 & ->). apply nrep_inv in Hj as (-> & Lk2 & HW2 & Hn2 & ->).
      apply (spl_two ρ (k_next s) (w_heap (i_w st)) al l l' p rv
        (fun o o2 => if rv then l_splice_after_rv dbl o (PAddr (ρ n)) o2 else l_splice_after dbl o (PAddr (ρ n)) o2)); [exact Hn1|exact Hn2|exact HW|exact Lk|exact Lk2|exact Hap| |];
        intros ->; rewrite Hq; unfold addr; rewrite (cut ρ (k_els l) p) in Lk, Hap |- *.
      + eapply splice_after_ok; [done|exact Lk|exact Lk2|by destruct (k_els l')|exact Hap|].
        rewrite !app_length, take_length, drop_length in HW. rewrite app_length, !rn_length, take_length, drop_length. lia.
      + eapply splice_after_ok; [done|exact Lk|exact Lk2|by destruct (k_els l')|exact Hap|].
        rewrite !app_length, take_length, drop_length in HW. rewrite app_length, !rn_length, take_length, drop_length. lia.
    - (* KSpl *)
      apply a_need; intros Hdb. apply a_live; intros al l Ei. apply a_live; intros al' l' Ej. apply a_pos; intros n p Ht Hp.
      apply a_need; intros [[[Hij%negb_true_iff%Nat.eqb_neq <-%N.eqb_eq]%andb_true_iff
        Hy%negb_true_iff%isnil_false]%andb_true_iff Hge%Nat.leb_le]%andb_true_iff.
      apply a_give; intros HW. rewrite (bind_ok _ _ _ _ _ (gett_ok _ _ _ _ _ _ HR Ht)).
      pose proof (pos_start ρ l p n Hp Hge) as Hq.
      eapply (ok_two _ ρ s st i j); [exact HR|done|exact Ei|exact Ej|]. intros o fi o2 fj Hi Hj Hap.
      apply nrep_inv in Hi as (-> & Lk & HW1 & Hn1 & ->). apply nrep_inv in Hj as (-> & Lk2 & HW2 & Hn2 & ->).
      apply (spl_two ρ (k_next s) (w_heap (i_w st)) al l l' (p - 1) rv
        (fun o o2 => if rv then l_splice_rv dbl o (PAddr (ρ n)) o2 else l_splice dbl o (PAddr (ρ n)) o2)); [exact Hn1|exact Hn2|exact HW|exact Lk|exact Lk2|exact Hap| |];
        intros ->; rewrite Hq; unfold addr; rewrite (cut ρ (k_els l) (p - 1)) in Lk, Hap |- *.
      + eapply splice_ok; [done|done|exact Lk|exact Lk2|by destruct (k_els l')|exact Hap|].
        rewrite !app_length, take_length, drop_length in HW. rewrite app_length, !rn_length, take_length, drop_length. lia.
      + eapply splice_ok; [done|done|exact Lk|exact Lk2|by destruct (k_els l')|exact Hap|].
        rewrite !app_length, take_length, drop_length in HW. rewrite app_length, !rn_length, take_length, drop_length. lia.
    - (* KBefore *)
      apply a_live; intros al l Ei. destruct (R_live _ _ _ _ _ _ _ HR Ei) as (Hv & Lk & HWl & Hn).
      destruct (names_ends _ _ Hn) as (H1 & H2 & H3).
      rewrite (bind_ok _ _ _ _ _ (see_run st i _ _ _ Hv eq_refl)). eexists. split; [done|]. exists ρ. by apply R_it.
    - (* KBegin *)
      apply a_live; intros al l Ei. destruct (R_live _ _ _ _ _ _ _ HR Ei) as (Hv & Lk & HWl & Hn).
      assert (E : get_next (l_head (addr ρ al l)) (w_heap (i_w st)) = Ok (PAddr (startp (rn ρ (k_els l)) (ρ (k_end l))), w_heap (i_w st))).
      { exact (next_at dbl _ _ _ [] _ _ Lk). }
      rewrite (bind_ok _ _ _ _ _ (see_run st i (fun o => get_next (l_head o)) _ _ Hv E)). eexists. split; [done|]. exists ρ.
      eapply ok_set; [exact HR|exact Ei|]. exact (lfp_start _ [] _ _).
    - (* KEnd *)
      apply a_live; intros al l Ei. destruct (R_live _ _ _ _ _ _ _ HR Ei) as (Hv & Lk & HWl & Hn).
      destruct (names_ends _ _ Hn) as (H1 & H2 & H3).
      rewrite (bind_ok _ _ _ _ _ (see_run st i _ _ _ Hv eq_refl)). eexists. split; [done|]. exists ρ. by apply R_it.
    - (* KCopy *)
      match goal with |- context [k_it s !! ?x] => destruct (k_it s !! x) as [n|] eqn:Ht end; [|done].
      rewrite (bind_ok _ _ _ _ _ (gett_ok _ _ _ _ _ _ HR Ht)). eexists. split; [done|]. exists ρ. apply R_it; [done|].
      destruct HR as [_ Hit]. by destruct (Hit _ _ Ht).
    - (* KInc *)
      apply a_live; intros al l Ei. apply a_pos; intros n p Ht Hp. apply a_need; intros Hle%Nat.leb_le.
      destruct (R_live _ _ _ _ _ _ _ HR Ei) as (Hv & Lk & HWl & Hn). pose proof (pos_end ρ l p n Hp Hle) as Hq.
      rewrite (cut ρ (k_els l) p) in Lk. pose proof (next_at dbl _ _ _ _ _ _ Lk) as E. rewrite <-Hq in E.
      rewrite (bind_ok _ _ _ _ _ (gett_ok _ _ _ _ _ _ HR Ht)), (bind_ok _ _ _ _ _ (mem_run _ _ _ E)).
      eexists. split; [done|]. exists ρ. eapply ok_set; [exact HR|exact Ei|]. rewrite (cut ρ (k_els l) p).
      apply pos_at. rewrite take_length. lia.
    - (* KIncP *)
      apply a_live; intros al l Ei. apply a_pos; intros n p Ht Hp. apply a_need; intros Hle%Nat.leb_le.
      destruct (R_live _ _ _ _ _ _ _ HR Ei) as (Hv & Lk & HWl & Hn). pose proof (pos_end ρ l p n Hp Hle) as Hq.
      rewrite (cut ρ (k_els l) p) in Lk. pose proof (next_at dbl _ _ _ _ _ _ Lk) as E. rewrite <-Hq in E.
      rewrite (bind_ok _ _ _ _ _ (gett_ok _ _ _ _ _ _ HR Ht)), (bind_ok _ _ _ _ _ (mem_run _ _ _ E)).
      eexists. split; [done|]. exists ρ.
      assert (HR1 : R ρ (set_it s t (name_at l (p + 1))) (ISt (i_w st) (<[t := PAddr (startp (rn ρ (drop p (k_els l))) (ρ (k_end l)))]> (i_it st)))).
      { eapply ok_set; [exact HR|exact Ei|]. rewrite (cut ρ (k_els l) p). apply pos_at. rewrite take_length. lia. }
      eapply (ok_set _ ρ _ _ i al l u p (ρ n) HR1 Ei). by rewrite rn_names, list_lookup_fmap, Hp.
    - (* KDec *)
      apply a_need; intros Hdb. apply a_live; intros al l Ei. apply a_pos; intros n p Ht Hp. apply a_need; intros Hge%Nat.leb_le.
      destruct (R_live _ _ _ _ _ _ _ HR Ei) as (Hv & Lk & HWl & Hn). pose proof (pos_start ρ l p n Hp Hge) as Hq.
      pose proof (lookup_lt_Some _ _ _ Hp) as Hlt. rewrite names_length in Hlt.
      rewrite (cut ρ (k_els l) (p - 1)) in Lk. pose proof (prev_at dbl _ _ _ _ _ _ Hdb Lk) as E. rewrite <-Hq in E.
      rewrite (bind_ok _ _ _ _ _ (gett_ok _ _ _ _ _ _ HR Ht)), (bind_ok _ _ _ _ _ (mem_run _ _ _ E)).
      eexists. split; [done|]. exists ρ. eapply ok_set; [exact HR|exact Ei|]. rewrite (cut ρ (k_els l) (p - 1)).
      apply pos_upto. rewrite take_length. lia.
    - (* KDecP *)
      apply a_need; intros Hdb. apply a_live; intros al l Ei. apply a_pos; intros n p Ht Hp. apply a_need; intros Hge%Nat.leb_le.
      destruct (R_live _ _ _ _ _ _ _ HR Ei) as (Hv & Lk & HWl & Hn). pose proof (pos_start ρ l p n Hp Hge) as Hq.
      pose proof (lookup_lt_Some _ _ _ Hp) as Hlt. rewrite names_length in Hlt.
      rewrite (cut ρ (k_els l) (p - 1)) in Lk. pose proof (prev_at dbl _ _ _ _ _ _ Hdb Lk) as E. rewrite <-Hq in E.
      rewrite (bind_ok _ _ _ _ _ (gett_ok _ _ _ _ _ _ HR Ht)), (bind_ok _ _ _ _ _ (mem_run _ _ _ E)).
      eexists. split; [done|]. exists ρ.
      assert (HR1 : R ρ (set_it s t (name_at l (p - 1))) (ISt (i_w st) (<[t := PAddr (endp (ρ (k_front l)) (rn ρ (take (p - 1) (k_els l))))]> (i_it st)))).
      { eapply ok_set; [exact HR|exact Ei|]. rewrite (cut ρ (k_els l) (p - 1)).
        apply pos_upto. rewrite take_length. lia. }
      eapply (ok_set _ ρ _ _ i al l u p (ρ n) HR1 Ei). by rewrite rn_names, list_lookup_fmap, Hp.
    - (* KGet *)
      apply a_live; intros al l Ei. apply a_pos; intros n p Ht Hp. apply a_need; intros Hge%Nat.leb_le.
      destruct (k_els l !! (p - 1)%nat) as [[m v]|] eqn:Ek; [|done].
      destruct (R_live _ _ _ _ _ _ _ HR Ei) as (Hv & Lk & HWl & Hn). pose proof (pos_start ρ l p n Hp Hge) as Hq.
      rewrite (cut ρ (k_els l) (p - 1)) in Lk. rewrite (drop_S _ _ _ Ek), rn_cons in Lk, Hq. cbn [startp] in Hq.
      pose proof (value_at dbl _ _ _ _ _ _ _ _ Lk) as E. rewrite <-Hq in E.
      rewrite (bind_ok _ _ _ _ _ (gett_ok _ _ _ _ _ _ HR Ht)), (bind_ok _ _ _ _ _ (mem_run _ _ _ E)).
      eexists. split; [done|]. by exists ρ.
    - (* KSet *)
      apply a_live; intros al l Ei. apply a_pos; intros n p Ht Hp. apply a_need; intros Hge%Nat.leb_le.
      destruct (k_els l !! (p - 1)%nat) as [[m v0]|] eqn:Ek; [|done].
      destruct (R_live _ _ _ _ _ _ _ HR Ei) as (Hv & Lk & HWl & Hn). pose proof (pos_start ρ l p n Hp Hge) as Hq.
      pose proof (lookup_lt_Some _ _ _ Ek) as Hlt.
      destruct (names_ends _ _ Hn) as (H1 & H2 & H3).
      assert (Hrs : rn ρ (k_els l) = rn ρ (take (p - 1) (k_els l)) ++ (ρ m, v0) :: rn ρ (drop (S (p - 1)) (k_els l))).
      { rewrite (cut ρ (k_els l) (p - 1)), (drop_S _ _ _ Ek), rn_cons. done. }
      assert (Hrs' : rn ρ (<[(p - 1)%nat := (m, v)]> (k_els l)) =
        rn ρ (take (p - 1) (k_els l)) ++ (ρ m, v) :: rn ρ (drop (S (p - 1)) (k_els l))).
      { rewrite insert_take_drop by done. by rewrite rn_app, rn_cons. }
      rewrite (drop_S _ _ _ Ek), rn_cons in Hq. cbn [startp] in Hq. rewrite Hrs in Lk.
      destruct (it_set_ok dbl _ _ _ _ _ _ v _ _ Hwf Lk) as (h' & E & Lk' & Hu).
      rewrite (bind_ok _ _ _ _ _ (gett_ok _ _ _ _ _ _ HR Ht)). rewrite Hq. unfold mem, onw, lift, bind. rewrite E.
      cbn. eexists. split; [done|]. exists ρ.
      set (e := <[(p - 1)%nat := (m, v)]> (k_els l)) in *.
      assert (Hads : e.*1 = (k_els l).*1).
      { unfold e. rewrite list_fmap_insert. apply list_insert_id. by rewrite list_lookup_fmap, Ek. }
      assert (Ha : addr ρ al (with_els l e) = addr ρ al l).
      { unfold addr, L. cbn [with_els k_front k_els k_end]. f_equal. unfold e. by rewrite !rn_length, insert_length. }
      replace (w_vars (i_w st)) with (<[i := addr ρ al (with_els l e)]> (w_vars (i_w st))) by (rewrite Ha; by apply insert_id).
      unfold put. eapply R_one; [exact HR|exact Ei| |apply nrep_some].
      + rewrite Hrs, <-rn_names. cbn [with_els k_front k_els k_end]. rewrite Hrs'. exact Hu.
      + cbn [with_els k_front k_els k_end]. rewrite Hrs'. exact Lk'.
      + cbn [with_els k_els]. unfold e. by rewrite insert_length.
      + rewrite names_with, Hads. exact Hn.
    - (* KEq *)
      apply a_live; intros al l Ei. apply a_live; intros al' l' Ej. apply a_pos; intros n p Ht Hp. apply a_pos; intros m q Ht2 Hq.
      rewrite (bind_ok _ _ _ _ _ (gett_ok _ _ _ _ _ _ HR Ht)), (bind_ok _ _ _ _ _ (gett_ok _ _ _ _ _ _ HR Ht2)).
      eexists. split; [|by exists ρ]. unfold ret. rewrite (name_at_lookup _ _ _ Hp), (name_at_lookup _ _ _ Hq).
      do 3 f_equal. apply bool_decide_ext. split; [|by intros ->]. intros [= E].
      eapply R_inj; [exact HR|exact Ei|exact Ej| | |exact E]; by eapply elem_of_list_lookup_2.
  Qed.
End Ref.
