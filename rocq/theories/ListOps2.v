(** * ListOps2: the operations of BaseList on well-formed lists *)
From Verif Require Import Base World ListModel ListSeg ListOps.
Local Open Scope N_scope.
Ltac Zify.zify_post_hook ::= Z.to_euclidean_division_equations.

Lemma uadd_small a b : a + b < W -> uadd a b = a + b.
Proof. intros. unfold uadd. by apply N.mod_small. Qed.
Lemma usub_small a b : b <= a -> a < W -> usub a b = a - b.
Proof.
  intros. unfold usub. replace (a + W - b) with ((a - b) + 1 * W) by lia.
  rewrite N.mod_add by done. apply N.mod_small. lia.
Qed.

Section Ops2.
  Context {T : Type} (dbl : bool).
  Notation H := (heap (cell T)).
  Notation sn := (sn dbl).
  Notation lok := (lok dbl).
  Notation lpre := (lpre dbl).
  Notation seg := (seg dbl).
  Notation oseg := (oseg dbl).
  Notation cseg := (cseg dbl).
  Notation link := (link dbl).
  Notation grow := (grow dbl).
  Implicit Types (h : H) (a p q : N) (ns : list (N * T)).
  Notation fuelok := (fuel_ok _).

  (** ** Construction *)
  Lemma two_ok h al : hwf h ->
    let hd := hnext h in let h1 := ins h (vcell dbl al) in let tl := hnext h1 in
    let h2 := ins h1 (vcell dbl al) in
    lpre h2 al hd [] [] tl /\ hwf h2 /\ upd h h2 [] (lfp hd ([] : list (N * T)) tl).
  Proof.
    intros Hw hd h1 tl h2. assert (Hne : hd <> tl) by (unfold hd, tl, h1; simpl; lia).
    split; [|split].
    - split.
      + simpl. apply NoDup_cons. split; [|apply NoDup_singleton]. by intros ?%elem_of_list_singleton.
      + unfold virt, h2. rewrite dt_ins, decide_False by done. unfold h1. rewrite dt_ins, decide_True; done.
      + unfold virt, h2. rewrite dt_ins, decide_True; done.
      + done.
      + done.
      + unfold h2. rewrite nx_ins, decide_True; done.
      + intros Hd. unfold h2. rewrite pv_ins, decide_False by done. unfold h1. rewrite pv_ins, decide_True by done.
        simpl. by rewrite Hd.
    - by apply hwf_ins, hwf_ins.
    - eapply upd_trans; [done| |]. { apply (upd_ins h (vcell dbl al) []); [done|]. set_solver. }
      eapply upd_equiv; [done| |apply (upd_ins h1 (vcell dbl al))].
      + intros a. unfold lfp. simpl. rewrite !elem_of_cons. unfold hd, tl. naive_solver.
      + by apply hwf_ins.
      + intros a Ha. apply elem_of_list_singleton in Ha as ->. apply has_ins. by left.
  Qed.
  Lemma upn_id h a n : nx h a = Some n -> upn h a n = h.
  Proof.
    unfold nx, upn. intros E. destruct h as [m n1 n2]. simpl in *. f_equal. apply alter_id.
    intros c Hc. rewrite Hc in E. injection E as E. destruct c. simpl in *. by subst.
  Qed.
  Lemma vls_len ns vs : vls ns = vs -> length ns = length vs.
  Proof. intros <-. unfold vls. by rewrite fmap_length. Qed.
  Lemma L_eq al hd tl ns n : n = nlen ns -> Lst (PAddr hd) (PAddr tl) n al = L al hd tl ns.
  Proof. by intros ->. Qed.

  (** A list of new nodes between new virtual nodes. *)
  Lemma fresh_list h h3 al ms : hwf h ->
    let hd := hnext h in let h1 := ins h (vcell dbl al) in let tl := hnext h1 in
    let h2 := ins h1 (vcell dbl al) in let h4 := sn h3 (endp hd ms) tl in
    grow h2 h3 al hd ms ->
    lok h4 al hd ms tl /\ upd h h4 [] (lfp hd ms tl) /\
    set_next dbl (PAddr (endp hd ms)) (PAddr tl) h3 = Ok (tt, h4) /\
    set_next dbl (PAddr tl) PNull h4 = Ok (tt, h4).
  Proof.
    intros Hw hd h1 tl h2 h4 G. destruct (two_ok h al Hw) as (Lp & Hw2 & U). fold hd h1 tl h2 in Lp, Hw2, U.
    pose proof (lok_insert dbl h2 h3 al hd [] [] tl ms Hw2 Lp G) as Lk.
    pose proof (upd_insert dbl h2 h3 al hd [] [] tl ms Hw2 Lp G) as U2.
    pose proof (lpre_grow dbl h2 h3 al hd [] [] tl ms Hw2 Lp G) as Lp3.
    simpl in Lk, U2, Lp3. rewrite app_nil_r in Lk, U2.
    split; [exact Lk|]. split; [by eapply upd_trans|]. split.
    - apply set_next_ok; (eapply lpre_has; [exact Lp3|]).
      + apply (end_in hd ms [] tl).
      + apply tl_in.
    - rewrite set_next_null_ok by (eapply lok_has; [exact Lk|apply tl_in]).
      rewrite upn_id; [done|]. apply Lk.
  Qed.

  Lemma init_ok' h al : hwf h -> exists hd tl h',
    init_empty_list dbl al h = Ok (L al hd tl ([] : list (N * T)), h') /\ lok h' al hd [] tl /\
    upd h h' [] (lfp hd ([] : list (N * T)) tl).
  Proof. apply init_ok. Qed.

  Definition made h al vs (r : outcome (lst * H)) : Prop :=
    exists hd tl ms h', r = Ok (L al hd tl ms, h') /\ vls ms = vs /\ lok h' al hd ms tl /\
      upd h h' [] (lfp hd ms tl).

  Lemma new_ok h al : hwf h -> made h al [] (init_empty_list dbl al h).
  Proof. intros Hw. destruct (init_ok dbl h al Hw) as (hd & tl & h' & E & Lk & U). by exists hd, tl, [], h'. Qed.
  Lemma range_ok h al vs : hwf h -> nlen vs < W -> made h al vs (l_range dbl al vs h).
  Proof.
    intros Hw Hlen. unfold l_range. destruct vs as [|v vs]; [by apply new_ok|].
    set (vv := v :: vs) in *. set (h1 := ins h (vcell dbl al)). set (h2 := ins h1 (vcell dbl al)).
    assert (Hw2 : hwf h2) by by apply hwf_ins, hwf_ins.
    destruct (append_ok dbl al vv h2 (hnext h) Hw2) as (h3 & ms & E & Hv & G).
    { apply has_ins. right. apply has_ins. by left. }
    destruct (fresh_list h h3 al ms Hw G) as (Lk & U & E2 & E3).
    exists (hnext h), (hnext h1), ms, (sn h3 (endp (hnext h) ms) (hnext h1)).
    split; [|done].
    rewrite (bind_ok _ _ _ _ _ (build_virtual_ok dbl h al)).
    rewrite (bind_ok _ _ _ _ _ (build_virtual_ok dbl h1 al)).
    rewrite (bind_ok _ _ _ _ _ E). rewrite (bind_ok _ _ _ _ _ E2). rewrite (bind_ok _ _ _ _ _ E3).
    rewrite uadd_small by lia. rewrite (L_eq al _ _ ms); [done|]. rewrite (vls_len ms vv Hv). done.
  Qed.
  Lemma count_range al n v h : l_count dbl al n v h = l_range dbl al (replicate (N.to_nat n) v) h.
  Proof.
    unfold l_count, l_range. destruct (N.eqb_spec n 0) as [->|Hn]; [done|].
    rewrite replicate_length, N2Nat.id. destruct (N.to_nat n) as [|k] eqn:E; [lia|]. done.
  Qed.
  Lemma count_ok h al n v : hwf h -> n < W -> made h al (replicate (N.to_nat n) v) (l_count dbl al n v h).
  Proof. intros Hw Hn. rewrite count_range. apply range_ok; [done|]. rewrite replicate_length. lia. Qed.

  (** Adding elements behind the last one. *)
  Lemma append_close h al hd n1 n2 tl vs :
    hwf h -> lpre h al hd n1 n2 tl -> exists h' ms,
      append dbl al (PAddr (endp hd n1)) vs h = Ok (PAddr (endp hd (n1 ++ ms)), h') /\
      vls ms = vs /\ grow h h' al (endp hd n1) ms /\
      set_next dbl (PAddr (endp hd (n1 ++ ms))) (PAddr (startp n2 tl)) h' =
        Ok (tt, sn h' (endp hd (n1 ++ ms)) (startp n2 tl)) /\
      lok (sn h' (endp hd (n1 ++ ms)) (startp n2 tl)) al hd (n1 ++ ms ++ n2) tl /\
      upd h (sn h' (endp hd (n1 ++ ms)) (startp n2 tl)) (lfp hd (n1 ++ n2) tl) (lfp hd (n1 ++ ms ++ n2) tl).
  Proof.
    intros Hw Lp. destruct (append_ok dbl al vs h (endp hd n1) Hw) as (h' & ms & E & Hv & G).
    { eapply lpre_has; [done|apply end_in]. }
    pose proof (lpre_grow dbl h h' al hd n1 n2 tl ms Hw Lp G) as Lp'.
    exists h', ms. rewrite endp_app. split; [done|]. split; [done|]. split; [done|].
    rewrite <-endp_app. split; [|split].
    - apply set_next_ok; (eapply lpre_has; [exact Lp'|]); [apply end_in|apply start_in].
    - by eapply lok_insert.
    - by eapply upd_insert.
  Qed.
  Lemma from_iter_ok h vs : hwf h -> nlen vs < W -> made h 0 vs (l_from_iter dbl vs h).
  Proof.
    intros Hw Hlen. unfold l_from_iter. destruct (init_ok dbl h 0 Hw) as (hd & tl & h1 & E & Lk & U).
    rewrite (bind_ok _ _ _ _ _ E). assert (Hw1 : hwf h1) by apply U.
    destruct (append_close h1 0 hd [] [] tl vs Hw1) as (h2 & ms & E2 & Hv & G & E3 & Lk2 & U2).
    { by apply lok_lpre. }
    simpl in E2, E3, Lk2, U2. rewrite app_nil_r in Lk2, U2.
    eexists hd, tl, ms, _. split.
    - cbn [l_head l_tail L]. rewrite (bind_ok _ _ _ _ _ E2). rewrite (bind_ok _ _ _ _ _ E3).
      unfold ret, set_len. cbn [l_head l_tail l_len l_al L length]. rewrite uadd_small by (simpl; lia).
      rewrite (L_eq 0 hd tl ms); [done|]. rewrite (vls_len ms vs Hv). simpl. lia.
    - split; [done|]. split; [done|]. by eapply upd_trans.
  Qed.

  (** ** Clearing and destroying *)
  Lemma lok_fw h al hd ns tl : lok h al hd ns tl -> fw h al ns tl /\ nx h hd = Some (PAddr (startp ns tl)).
  Proof.
    intros Lk. pose proof (lk_seg _ _ _ _ _ _ Lk) as Hs. apply seg_cseg in Hs as [[Hl _] Hc].
    split; [by eapply cseg_fw|done].
  Qed.
  Lemma lok_nd2 h al hd ns tl : lok h al hd ns tl -> NoDup (ads ns ++ [tl]) /\ hd ∉ ads ns ++ [tl].
  Proof. intros Lk. pose proof (lk_nd _ _ _ _ _ _ Lk) as Hn. by apply NoDup_cons in Hn as [? ?]. Qed.
  Lemma lok_fuel h al hd ns tl : lok h al hd ns tl -> (length ns + 2 <= size (hmap h))%nat.
  Proof.
    intros Lk. pose proof (size_ge h _ (lk_nd _ _ _ _ _ _ Lk) (fun a => lok_has dbl h al hd ns tl a Lk)) as Hs.
    simpl in Hs. rewrite app_length in Hs. unfold ads in Hs. rewrite fmap_length in Hs. simpl in Hs. lia.
  Qed.
  Lemma clear_ok h al hd ns tl : hwf h -> lok h al hd ns tl -> exists h',
    l_clear dbl (L al hd tl ns) h = Ok (L al hd tl ([] : list (N * T)), h') /\
    lok h' al hd [] tl /\ upd h h' (lfp hd ns tl) (lfp hd ([] : list (N * T)) tl).
  Proof.
    intros Hw Lk. destruct (lok_fw _ _ _ _ _ Lk) as [Hf Hn]. destruct (lok_nd2 _ _ _ _ _ Lk) as [Hnd Hhd].
    destruct (destroy_run_ok al tl ns (S (size (hmap h))) h 0 Hf Hnd) as (h1 & E & F).
    { pose proof (lok_fuel _ _ _ _ _ Lk). lia. }
    assert (Hdis : forall a, a ∈ lfp hd ([] : list (N * T)) tl -> a ∉ ads ns).
    { intros a [->|Ha]%elem_of_cons; [set_solver|]. simpl in Ha. apply elem_of_list_singleton in Ha as ->.
      apply NoDup_app in Hnd as (_ & Hnd & _). intros Hin. eapply Hnd; [exact Hin|by left]. }
    assert (U1 : upd h h1 (lfp hd ns tl) (lfp hd ([] : list (N * T)) tl)).
    { eapply freed_upd; [done|done| | |].
      - intros a Ha. by eapply lok_has.
      - intros a Ha. unfold lfp. set_solver.
      - intros a. unfold lfp at 1 2. split.
        + intros Ha. split; [|by apply Hdis]. set_solver.
        + intros [Ha Hn']. set_solver. }
    assert (Lp : lpre h1 al hd [] [] tl).
    { eapply lpre_frame; [intros a Ha; apply F, Hdis; exact Ha|].
      apply (lpre_drop_r dbl h al hd [] ns [] tl). apply lok_lpre. by rewrite app_nil_r. }
    assert (Hw1 : hwf h1) by apply U1.
    exists (sn h1 hd tl). split; [|split].
    - unfold l_clear. cbn [l_head l_tail l_al L].
      rewrite (bind_ok _ _ _ _ _ (get_next_ok h hd _ Hn ltac:(done))).
      rewrite (bind_ok _ _ _ _ _ (fuel_ok h)). rewrite (bind_ok _ _ _ _ _ E).
      rewrite (bind_ok _ _ _ _ _ (set_next_ok dbl h1 hd tl ltac:(eapply lpre_has; [exact Lp|apply (end_in hd [] [] tl)]) ltac:(eapply lpre_has; [exact Lp|apply tl_in]))).
      done.
    - apply (lpre_close dbl h1 al hd [] [] tl Lp).
    - eapply upd_trans; [done|exact U1|]. apply (lpre_upd dbl h1 al hd [] [] tl); [done|done| |done].
      intros a Ha. by eapply lpre_has.
  Qed.
  Lemma destroy_ok h al hd ns tl : hwf h -> lok h al hd ns tl -> exists l' h',
    l_destroy dbl (L al hd tl ns) h = Ok (l', h') /\ upd h h' (lfp hd ns tl) [].
  Proof.
    intros Hw Lk. destruct (clear_ok h al hd ns tl Hw Lk) as (h1 & E & Lk1 & U1).
    assert (Hw1 : hwf h1) by apply U1. assert (Hne : tl <> hd).
    { destruct (lok_nd2 _ _ _ _ _ Lk1) as [_ Hn]. intros ->. apply Hn. by left. }
    assert (V2 : virt (fr h1 hd) al tl) by (unfold virt; rewrite dt_fr by done; apply Lk1).
    eexists _, _. split.
    - unfold l_destroy. cbn [l_head l_tail l_al L]. rewrite decide_False by done.
      rewrite (bind_ok _ _ _ _ _ E).
      rewrite (bind_ok _ _ _ _ _ (destroy_virt_ok h1 al hd (lk_hd _ _ _ _ _ _ Lk1))).
      rewrite (bind_ok _ _ _ _ _ (destroy_virt_ok _ al tl V2)). done.
    - eapply upd_trans; [done|exact U1|]. eapply upd_trans; [done| |].
      + apply (upd_fr h1 hd _ [tl]); [done| | |].
        * intros a Ha. by eapply lok_has.
        * by left.
        * intros a. unfold lfp. simpl. rewrite !elem_of_cons, elem_of_nil. naive_solver.
      + apply upd_fr; [by apply hwf_fr| |by left|].
        * intros a Ha. apply elem_of_list_singleton in Ha as ->. by eapply virt_has.
        * intros a. rewrite elem_of_list_singleton, elem_of_nil. naive_solver.
  Qed.
  Lemma ilist_assign_ok h al hd ns tl vs : hwf h -> lok h al hd ns tl -> nlen vs < W -> exists ms h',
    l_ilist_assign dbl (L al hd tl ns) vs h = Ok (L al hd tl ms, h') /\ vls ms = vs /\
    lok h' al hd ms tl /\ upd h h' (lfp hd ns tl) (lfp hd ms tl).
  Proof.
    intros Hw Lk Hlen. destruct (clear_ok h al hd ns tl Hw Lk) as (h1 & E & Lk1 & U1).
    assert (Hw1 : hwf h1) by apply U1.
    destruct (append_close h1 al hd [] [] tl vs Hw1) as (h2 & ms & E2 & Hv & G & E3 & Lk2 & U2).
    { by apply lok_lpre. }
    simpl in E2, E3, Lk2, U2. rewrite app_nil_r in Lk2, U2.
    eexists ms, _. split.
    - unfold l_ilist_assign. rewrite (bind_ok _ _ _ _ _ E). cbn [l_head l_tail l_al L].
      rewrite (bind_ok _ _ _ _ _ E2). rewrite (bind_ok _ _ _ _ _ E3).
      unfold ret, set_len. cbn [l_head l_tail l_len l_al L length]. rewrite uadd_small by (simpl; lia).
      rewrite (L_eq al hd tl ms); [done|]. rewrite (vls_len ms vs Hv). simpl. lia.
    - split; [done|]. split; [done|]. by eapply upd_trans.
  Qed.

  (** ** Copying *)
  Lemma copy_loop_ok al al' q ns : forall fuel h p n,
    hwf h -> has h p -> fw h al ns q -> p ∉ ads ns -> NoDup (ads ns ++ [q]) ->
    (length ns < fuel)%nat -> n + nlen ns < W ->
    exists h' ms, copy_loop dbl fuel al' (PAddr (startp ns q)) (PAddr q) (PAddr p) n h =
        Ok ((PAddr (endp p ms), n + nlen ns), h') /\ vls ms = vls ns /\ grow h h' al' p ms.
  Proof.
    induction ns as [|[a v] ns IH]; intros fuel h p n Hw Hp Hf Hpn Hnd Hfuel Hn;
      (destruct fuel as [|fuel]; [simpl in Hfuel; lia|]).
    { exists h, []. split; [|split; [done|by apply grow_refl]].
      cbn [copy_loop startp length]. rewrite decide_True by done. unfold ret. do 3 f_equal. lia. }
    destruct Hf as (Hv & Hnx & Hf). rewrite ads_cons in Hnd, Hpn. apply NoDup_cons in Hnd as [Ha Hnd].
    apply not_elem_of_cons in Hpn as [Hpa Hpn].
    set (h1 := ins h (dcell al' v)). set (b := hnext h).
    assert (H1p : has h1 p) by (apply has_ins; by right).
    assert (H1b : has h1 b) by (apply has_ins; by left).
    assert (Hab : a < b) by (apply Hw; by eapply node_has).
    assert (Hlt : forall c, c ∈ ads ns -> c < b).
    { intros c Hc. apply Hw. clear -Hf Hc. induction ns as [|[d w] ns IH]; [by apply elem_of_nil in Hc|].
      destruct Hf as (Hv & _ & Hf). rewrite ads_cons in Hc. apply elem_of_cons in Hc as [->|Hc]; [by eapply node_has|auto]. }
    destruct (IH fuel (sn h1 p b) b (n + 1)) as (h' & ms & E & Hvs & G).
    { by apply hwf_sn, hwf_ins. } { by apply has_sn. }
    { eapply fw_frame; [|exact Hf]. intros c Hc. rewrite nx_sn, dt_sn by done.
      rewrite decide_False by (intros ->; done). pose proof (Hlt c Hc).
      unfold h1. rewrite nx_ins, dt_ins, !decide_False by lia. done. }
    { intros Hb. apply Hlt in Hb. lia. }
    { done. } { simpl in Hfuel. lia. } { simpl in Hn. lia. }
    exists h', ((b, v) :: ms). split; [|split].
    - cbn [copy_loop startp]. rewrite decide_False.
      2:{ intros [= ->]. apply Ha, elem_of_app. right. by left. }
      rewrite (bind_ok _ _ _ _ _ (value_ok h al a v Hv)).
      rewrite (bind_ok _ _ _ _ _ (construct_ok h al' v)).
      assert (Hnx1 : nx h1 a = Some (PAddr (startp ns q))).
      { unfold h1. rewrite nx_ins, decide_False by lia. done. }
      rewrite (bind_ok _ _ _ _ _ (get_next_ok h1 a _ Hnx1 ltac:(done))).
      rewrite (bind_ok _ _ _ _ _ (set_next_ok dbl h1 p b H1p H1b)).
      rewrite uadd_small by (simpl in Hn; lia). fold b. rewrite E. do 3 f_equal. simpl. lia.
    - unfold vls in *. rewrite !fmap_cons. by rewrite Hvs.
    - by apply grow_cons.
  Qed.
  Lemma copy_impl_ok h al hd ns tl al' : hwf h -> lok h al hd ns tl -> nlen ns < W ->
    made h al' (vls ns) (copy_impl dbl al' (L al hd tl ns) h).
  Proof.
    intros Hw Lk Hlen. unfold copy_impl. cbn [l_head l_tail l_len L].
    destruct (N.eqb_spec (nlen ns) 0) as [H0|H0].
    { destruct ns; [|simpl in H0; lia]. by apply new_ok. }
    destruct (lok_fw _ _ _ _ _ Lk) as [Hf Hn]. destruct (lok_nd2 _ _ _ _ _ Lk) as [Hnd Hhd].
    set (h1 := ins h (vcell dbl al')). set (h2 := ins h1 (vcell dbl al')).
    assert (Hw2 : hwf h2) by by apply hwf_ins, hwf_ins.
    assert (Hlt : forall c, c ∈ lfp hd ns tl -> c < hnext h) by (intros; by eapply lok_lt).
    assert (Hf2 : fw h2 al ns tl).
    { eapply fw_frame; [|exact Hf]. intros c Hc. assert (c < hnext h) by (apply Hlt; unfold lfp; set_solver).
      unfold h2, h1. rewrite !nx_ins, !dt_ins, !decide_False by (simpl; lia). done. }
    destruct (copy_loop_ok al al' tl ns (S (size (hmap h2))) h2 (hnext h) 0) as (h3 & ms & E & Hv & G); [done| |done| |done| |lia|].
    { apply has_ins. right. apply has_ins. by left. }
    { intros Hin. assert (hnext h < hnext h) by (apply Hlt; unfold lfp; set_solver). lia. }
    { pose proof (lok_fuel _ _ _ _ _ Lk). enough (size (hmap h) <= size (hmap h2))%nat by lia.
      rewrite <-!size_dom. apply subseteq_size. intros c. rewrite !elem_of_dom. intros Hc.
      apply (has_ins h1 _ c). right. apply has_ins. by right. }
    destruct (fresh_list h h3 al' ms Hw G) as (Lk3 & U & E2 & E3).
    exists (hnext h), (hnext h1), ms, (sn h3 (endp (hnext h) ms) (hnext h1)).
    split; [|done].
    rewrite (bind_ok _ _ _ _ _ (get_next_ok h hd _ Hn ltac:(done))).
    rewrite (bind_ok _ _ _ _ _ (build_virtual_ok dbl h al')).
    rewrite (bind_ok _ _ _ _ _ (build_virtual_ok dbl h1 al')).
    rewrite (bind_ok _ _ _ _ _ (fuel_ok h2)).
    rewrite (bind_ok _ _ _ _ _ E). rewrite (bind_ok _ _ _ _ _ E2). rewrite (bind_ok _ _ _ _ _ E3).
    rewrite (L_eq al' _ _ ms); [done|]. rewrite (vls_len ms _ Hv). unfold vls. rewrite fmap_length. lia.
  Qed.
End Ops2.
