(** * ListOps3: the positional operations of BaseList on well-formed lists *)
From Verif Require Import Base World ListModel ListSeg ListOps ListOps2.
Local Open Scope N_scope.

Section Ops3.
  Context {T : Type} (dbl : bool).
  Notation H := (heap (cell T)).
  Notation sn := (sn dbl).
  Notation lok := (lok dbl).
  Notation lpre := (lpre dbl).
  Notation seg := (seg dbl).
  Notation oseg := (oseg dbl).
  Notation cseg := (cseg dbl).
  Notation link := (link dbl).
  Notation grow := (grow dbl).
  Implicit Types (h : H) (a p q : N) (ns : list (N * T)).

  (** The list went from [ns] to [ns'], nothing else changed. *)
  Definition became h h' al hd tl ns ns' : Prop :=
    lok h' al hd ns' tl /\ upd h h' (lfp hd ns tl) (lfp hd ns' tl).
  Lemma became_refl h al hd tl ns : hwf h -> lok h al hd ns tl -> became h h al hd tl ns ns.
  Proof. intros Hw Lk. split; [done|]. apply upd_refl; [done|]. intros a Ha. by eapply lok_has. Qed.
  Lemma became_trans h h1 h2 al hd tl n1 n2 n3 : hwf h ->
    became h h1 al hd tl n1 n2 -> became h1 h2 al hd tl n2 n3 -> became h h2 al hd tl n1 n3.
  Proof. intros Hw [_ U1] [L U2]. split; [done|]. by eapply upd_trans. Qed.
  Lemma became_tk h h' al hd tl n1 n2 : became (tk h) h' al hd tl n1 n2 -> became h h' al hd tl n1 n2.
  Proof. intros [L [A1 A2 A3 A4 A5]]. split; [exact L|]. by split. Qed.
  Lemma became_wf h h' al hd tl n1 n2 : became h h' al hd tl n1 n2 -> hwf h'.
  Proof. intros [_ U]. apply U. Qed.

  (** ** Reading links *)
  Lemma next_at h al hd n1 n2 tl : lok h al hd (n1 ++ n2) tl ->
    get_next (PAddr (endp hd n1)) h = Ok (PAddr (startp n2 tl), h).
  Proof. intros Lk. apply get_next_ok; [|done]. by apply (lok_link dbl h al). Qed.
  Lemma prev_at h al hd n1 n2 tl : dbl = true -> lok h al hd (n1 ++ n2) tl ->
    get_prev (PAddr (startp n2 tl)) h = Ok (PAddr (endp hd n1), h).
  Proof. intros Hd Lk. apply get_prev_ok; [|done]. by apply (lok_link dbl h al hd n1 n2 tl). Qed.
  Lemma next_of h al hd n1 a v n2 tl : lok h al hd (n1 ++ (a, v) :: n2) tl ->
    get_next (PAddr a) h = Ok (PAddr (startp n2 tl), h).
  Proof.
    intros Lk. rewrite cons_middle, app_assoc in Lk. pose proof (next_at _ _ _ _ _ _ Lk) as E.
    by rewrite endp_app in E.
  Qed.
  Lemma node_at h al hd n1 a v n2 tl : lok h al hd (n1 ++ (a, v) :: n2) tl -> node h al a v.
  Proof. intros Lk. eapply oseg_node; [apply Lk|]. set_solver. Qed.
  Lemma value_at h al hd n1 a v n2 tl : lok h al hd (n1 ++ (a, v) :: n2) tl ->
    value (PAddr a) h = Ok (v, h).
  Proof. intros Lk. eapply value_ok. by eapply node_at. Qed.
  Lemma ne_tl h al hd n1 a v n2 tl : lok h al hd (n1 ++ (a, v) :: n2) tl -> PAddr a <> PAddr tl.
  Proof.
    intros Lk [= ->]. destruct (lok_nd2 dbl _ _ _ _ _ Lk) as [Hn _]. rewrite ads_app, ads_cons in Hn.
    apply NoDup_app in Hn as (_ & Hn & _). apply (Hn tl); set_solver.
  Qed.
  Lemma ne_hd h al hd n1 a v n2 tl : lok h al hd (n1 ++ (a, v) :: n2) tl -> PAddr a <> PAddr hd.
  Proof.
    intros Lk [= ->]. destruct (lok_nd2 dbl _ _ _ _ _ Lk) as [_ Hn]. apply Hn.
    rewrite ads_app, ads_cons. set_solver.
  Qed.
  Lemma lok_has1 h al hd n1 n2 tl : lok h al hd (n1 ++ n2) tl -> has h (endp hd n1) /\ has h (startp n2 tl).
  Proof. intros Lk. split; (eapply lok_has; [exact Lk|]); [apply end_in|apply start_in]. Qed.

  Lemma advance_app j k (p : lptr) h : stl_advance (T := T) (j + k) p h =
    bind (stl_advance j p) (stl_advance k) h.
  Proof.
    revert p h. induction j as [|j IH]; intros p h; [done|]. cbn [stl_advance plus]. rewrite bind_bind.
    unfold bind at 1 2. destruct (get_next p h) as [[q h']|]; [|done]. apply IH.
  Qed.
  Lemma advance_seg h al p ns : oseg h al p ns ->
    stl_advance (length ns) (PAddr p) h = Ok (PAddr (endp p ns), h).
  Proof.
    revert p. induction ns as [|[a v] ns IH]; intros p; [done|]. intros ([Hl _] & _ & Ho).
    cbn [length stl_advance]. rewrite (bind_ok _ _ _ _ _ (get_next_ok h p _ Hl ltac:(done))). by apply IH.
  Qed.
  Lemma advance_ok h al hd n1 n2 tl : lok h al hd (n1 ++ n2) tl ->
    stl_advance (length n1) (PAddr hd) h = Ok (PAddr (endp hd n1), h).
  Proof. intros Lk. eapply advance_seg. apply (lok_lpre dbl _ _ _ n1 n2 tl Lk). Qed.
  Lemma advance_start h al hd n1 n2 tl : lok h al hd (n1 ++ n2) tl ->
    stl_advance (S (length n1)) (PAddr hd) h = Ok (PAddr (startp n2 tl), h).
  Proof.
    intros Lk. replace (S (length n1)) with (length n1 + 1)%nat by lia. rewrite advance_app.
    rewrite (bind_ok _ _ _ _ _ (advance_ok _ _ _ _ _ _ Lk)). cbn [stl_advance].
    by rewrite (bind_ok _ _ _ _ _ (next_at _ _ _ _ _ _ Lk)).
  Qed.
  Lemma back_advance_ok h al hd n1 n2 n3 tl : dbl = true -> lok h al hd (n1 ++ n2 ++ n3) tl ->
    back_advance (length n2) (PAddr (endp hd (n1 ++ n2))) h = Ok (PAddr (endp hd n1), h).
  Proof.
    intros Hd. revert n3. induction n2 as [|[a v] n2 IH] using rev_ind; intros n3 Lk.
    { by rewrite app_nil_r. }
    rewrite app_length, Nat.add_comm. cbn [length plus back_advance].
    rewrite <-app_assoc in Lk. pose proof (IH _ Lk) as E. rewrite app_assoc in Lk.
    pose proof (prev_at _ _ _ _ _ _ Hd Lk) as E2. simpl in E2. rewrite !endp_app in *. simpl.
    rewrite (bind_ok _ _ _ _ _ E2). exact E.
  Qed.

  (** ** Inserting *)
  Lemma insert_after_ok h al hd n1 n2 tl vs :
    hwf h -> lok h al hd (n1 ++ n2) tl -> nlen (n1 ++ n2) + nlen vs < W -> vs <> [] ->
    exists h' ms, l_insert_after dbl (L al hd tl (n1 ++ n2)) (PAddr (endp hd n1)) vs h =
        Ok ((L al hd tl (n1 ++ ms ++ n2), PAddr (startp ms tl)), h') /\
      vls ms = vs /\ became h h' al hd tl (n1 ++ n2) (n1 ++ ms ++ n2).
  Proof.
    intros Hw Lk Hlen Hvs.
    destruct (append_close dbl h al hd n1 n2 tl vs Hw (lok_lpre _ _ _ _ _ _ _ Lk)) as (h' & ms & E & Hv & G & E2 & Lk2 & U).
    exists (sn h' (endp hd (n1 ++ ms)) (startp n2 tl)), ms. split; [|done].
    assert (Hms : ms <> []) by (intros ->; by destruct vs).
    unfold l_insert_after. destruct vs as [|v vs]; [done|]. cbn [l_al L].
    rewrite (bind_ok _ _ _ _ _ (next_at _ _ _ _ _ _ Lk)). rewrite (bind_ok _ _ _ _ _ E).
    rewrite (bind_ok _ _ _ _ _ E2). rewrite (bind_ok _ _ _ _ _ (next_at _ _ _ _ _ _ Lk2)).
    unfold ret, set_len, L. cbn [l_head l_tail l_len l_al]. rewrite uadd_small by done.
    rewrite startp_app. destruct ms as [|[b w] ms]; [done|]. do 4 f_equal.
    rewrite !app_length. cbn [length]. apply vls_len in Hv. simpl in Hv. lia.
  Qed.
  Lemma insert_ok h al hd n1 n2 tl vs : dbl = true ->
    hwf h -> lok h al hd (n1 ++ n2) tl -> nlen (n1 ++ n2) + nlen vs < W -> vs <> [] ->
    exists h' ms, l_insert dbl (L al hd tl (n1 ++ n2)) (PAddr (startp n2 tl)) vs h =
        Ok ((L al hd tl (n1 ++ ms ++ n2), PAddr (startp ms tl)), h') /\
      vls ms = vs /\ became h h' al hd tl (n1 ++ n2) (n1 ++ ms ++ n2).
  Proof.
    intros Hd Hw Lk Hlen Hvs.
    destruct (append_close dbl h al hd n1 n2 tl vs Hw (lok_lpre _ _ _ _ _ _ _ Lk)) as (h' & ms & E & Hv & G & E2 & Lk2 & U).
    exists (sn h' (endp hd (n1 ++ ms)) (startp n2 tl)), ms. split; [|done].
    assert (Hms : ms <> []) by (intros ->; by destruct vs).
    unfold l_insert. destruct vs as [|v vs]; [done|]. cbn [l_al L].
    rewrite (bind_ok _ _ _ _ _ (prev_at _ _ _ _ _ _ Hd Lk)). rewrite (bind_ok _ _ _ _ _ E).
    rewrite (bind_ok _ _ _ _ _ E2). rewrite (bind_ok _ _ _ _ _ (next_at _ _ _ _ _ _ Lk2)).
    unfold ret, set_len, L. cbn [l_head l_tail l_len l_al]. rewrite uadd_small by done.
    rewrite startp_app. destruct ms as [|[b w] ms]; [done|]. do 4 f_equal.
    rewrite !app_length. cbn [length]. apply vls_len in Hv. simpl in Hv. lia.
  Qed.

  Lemma ins1_ok h al hd n1 n2 tl v : hwf h -> lok h al hd (n1 ++ n2) tl ->
    let b := hnext h in let h1 := ins h (dcell al v) in
    let p := endp hd n1 in let q := startp n2 tl in
    let h2 := sn (sn h1 p b) b q in
    get_next (PAddr p) h1 = Ok (PAddr q, h1) /\
    (dbl = true -> get_prev (PAddr q) h1 = Ok (PAddr p, h1)) /\
    set_next dbl (PAddr p) (PAddr b) h1 = Ok (tt, sn h1 p b) /\
    set_next dbl (PAddr b) (PAddr q) (sn h1 p b) = Ok (tt, h2) /\
    set_next dbl (PAddr b) (PAddr q) h1 = Ok (tt, sn h1 b q) /\
    set_next dbl (PAddr p) (PAddr b) (sn h1 b q) = Ok (tt, h2) /\
    became h h2 al hd tl (n1 ++ n2) (n1 ++ (b, v) :: n2).
  Proof.
    intros Hw Lk b h1 p q h2. destruct (lok_has1 _ _ _ _ _ _ Lk) as [Hp Hq]. fold p q in Hp, Hq.
    assert (H1p : has h1 p) by (apply has_ins; by right).
    assert (H1q : has h1 q) by (apply has_ins; by right).
    assert (H1b : has h1 b) by (apply has_ins; by left).
    assert (Hpb : p < b) by by apply Hw. assert (Hqb : q < b) by by apply Hw.
    destruct (lok_link _ _ _ _ _ _ _ Lk) as [Hl1 Hl2]. fold p q in Hl1, Hl2.
    assert (Hlp : lpre h al hd n1 n2 tl) by by apply lok_lpre.
    assert (G : grow h (sn h1 p b) al p [(b, v)]).
    { apply grow_cons; [done|done|]. apply grow_refl. by apply hwf_sn, hwf_ins. }
    split; [|split; [|split; [|split; [|split; [|split]]]]].
    - apply get_next_ok; [|done]. unfold h1. rewrite nx_ins, decide_False by (fold b; lia). done.
    - intros Hd. apply get_prev_ok; [|done]. unfold h1. rewrite pv_ins, decide_False by (fold b; lia). auto.
    - by apply set_next_ok.
    - apply set_next_ok; by apply has_sn.
    - by apply set_next_ok.
    - unfold h2. rewrite (sn_comm dbl h1 p b b q) by lia. apply set_next_ok; by apply has_sn.
    - pose proof (lok_insert dbl _ _ _ _ _ _ _ _ Hw Hlp G) as Lk2.
      pose proof (upd_insert dbl _ _ _ _ _ _ _ _ Hw Hlp G) as U2.
      rewrite endp_app in Lk2, U2. split; [exact Lk2|exact U2].
  Qed.
  Lemma L_more al hd tl n1 n2 (x : N * T) : nlen (n1 ++ n2) + 1 < W ->
    set_len (L al hd tl (n1 ++ n2)) (uadd (nlen (n1 ++ n2)) 1) = L al hd tl (n1 ++ x :: n2).
  Proof.
    intros Hlen. unfold set_len, L. cbn [l_head l_tail l_len l_al]. rewrite uadd_small by done.
    f_equal. rewrite !app_length. cbn [length]. lia.
  Qed.
  Lemma L_less al hd tl n1 n2 (x : N * T) : nlen (n1 ++ x :: n2) < W ->
    set_len (L al hd tl (n1 ++ x :: n2)) (usub (nlen (n1 ++ x :: n2)) 1) = L al hd tl (n1 ++ n2).
  Proof.
    intros Hlen. unfold set_len, L. cbn [l_head l_tail l_len l_al].
    rewrite app_length in *. cbn [length] in *. rewrite usub_small by lia.
    f_equal. rewrite !app_length. lia.
  Qed.
  Lemma emplace_after_ok h al hd n1 n2 tl v :
    hwf h -> lok h al hd (n1 ++ n2) tl -> nlen (n1 ++ n2) + 1 < W ->
    exists h' b, l_emplace_after dbl (L al hd tl (n1 ++ n2)) (PAddr (endp hd n1)) v h =
        Ok ((L al hd tl (n1 ++ (b, v) :: n2), PAddr b), h') /\
      became h h' al hd tl (n1 ++ n2) (n1 ++ (b, v) :: n2).
  Proof.
    intros Hw Lk Hlen. destruct (ins1_ok h al hd n1 n2 tl v Hw Lk) as (E1 & E2 & E3 & E4 & E5 & E6 & B).
    eexists _, _. split; [|exact B]. unfold l_emplace_after. cbn [l_al L].
    rewrite (bind_ok _ _ _ _ _ (construct_ok h al v)). rewrite (bind_ok _ _ _ _ _ E1).
    rewrite (bind_ok _ _ _ _ _ E5). rewrite (bind_ok _ _ _ _ _ E6). cbn [l_len].
    exact (f_equal (fun l => Ok ((l, _), _)) (L_more al hd tl n1 n2 (hnext h, v) Hlen)).
  Qed.
  Lemma emplace_ok h al hd n1 n2 tl v : dbl = true ->
    hwf h -> lok h al hd (n1 ++ n2) tl -> nlen (n1 ++ n2) + 1 < W ->
    exists h' b, l_emplace dbl (L al hd tl (n1 ++ n2)) (PAddr (startp n2 tl)) v h =
        Ok ((L al hd tl (n1 ++ (b, v) :: n2), PAddr b), h') /\
      became h h' al hd tl (n1 ++ n2) (n1 ++ (b, v) :: n2).
  Proof.
    intros Hd Hw Lk Hlen. destruct (ins1_ok h al hd n1 n2 tl v Hw Lk) as (E1 & E2 & E3 & E4 & E5 & E6 & B).
    eexists _, _. split; [|exact B]. unfold l_emplace. cbn [l_al L].
    rewrite (bind_ok _ _ _ _ _ (construct_ok h al v)). rewrite (bind_ok _ _ _ _ _ (E2 Hd)).
    rewrite (bind_ok _ _ _ _ _ E3). rewrite (bind_ok _ _ _ _ _ E4). cbn [l_len].
    exact (f_equal (fun l => Ok ((l, _), _)) (L_more al hd tl n1 n2 (hnext h, v) Hlen)).
  Qed.
  Lemma push_front_ok h al hd ns tl v :
    hwf h -> lok h al hd ns tl -> nlen ns + 1 < W ->
    exists h' b, l_push_front dbl (L al hd tl ns) v h = Ok (L al hd tl ((b, v) :: ns), h') /\
      became h h' al hd tl ns ((b, v) :: ns).
  Proof.
    intros Hw Lk Hlen. destruct (ins1_ok h al hd [] ns tl v Hw Lk) as (E1 & E2 & E3 & E4 & E5 & E6 & B).
    eexists _, _. split; [|exact B]. unfold l_push_front. cbn [l_al l_head L].
    rewrite (bind_ok _ _ _ _ _ (construct_ok h al v)). rewrite (bind_ok _ _ _ _ _ E1).
    rewrite (bind_ok _ _ _ _ _ E5). rewrite (bind_ok _ _ _ _ _ E6).
    rewrite (bind_ok _ _ _ _ _ (value_at _ _ _ _ _ _ _ _ (proj1 B))). cbn [l_len].
    unfold ret. f_equal. f_equal. apply (L_more _ _ _ [] ns (hnext h, v) Hlen).
  Qed.
  Lemma push_back_ok h al hd ns tl v : dbl = true ->
    hwf h -> lok h al hd ns tl -> nlen ns + 1 < W ->
    exists h' b, l_push_back dbl (L al hd tl ns) v h = Ok (L al hd tl (ns ++ [(b, v)]), h') /\
      became h h' al hd tl ns (ns ++ [(b, v)]).
  Proof.
    intros Hd Hw Lk Hlen. rewrite <-(app_nil_r ns) in Lk, Hlen.
    destruct (ins1_ok h al hd ns [] tl v Hw Lk) as (E1 & E2 & E3 & E4 & E5 & E6 & B).
    rewrite app_nil_r in B at 1. cbn [startp] in *.
    eexists _, _. split; [|exact B]. unfold l_push_back. cbn [l_al l_tail L].
    rewrite (bind_ok _ _ _ _ _ (construct_ok h al v)). rewrite (bind_ok _ _ _ _ _ (E2 Hd)).
    rewrite (bind_ok _ _ _ _ _ E3). rewrite (bind_ok _ _ _ _ _ E4).
    rewrite (bind_ok _ _ _ _ _ (value_at _ _ _ _ _ _ _ _ (proj1 B))). cbn [l_len].
    unfold ret. f_equal. f_equal. rewrite <-(L_more _ _ _ ns [] (hnext h, v) Hlen).
    by rewrite app_nil_r.
  Qed.

  (** ** Removing *)
  Lemma cut_ok h al hd n1 mid n2 tl : hwf h -> lok h al hd (n1 ++ mid ++ n2) tl ->
    let h1 := sn h (endp hd n1) (startp n2 tl) in
    set_next dbl (PAddr (endp hd n1)) (PAddr (startp n2 tl)) h = Ok (tt, h1) /\
    fw h1 al mid (startp n2 tl) /\ NoDup (ads mid ++ [startp n2 tl]) /\
    (length mid < S (size (hmap h1)))%nat /\
    (forall h2, freed h1 h2 (ads mid) -> became h h2 al hd tl (n1 ++ mid ++ n2) (n1 ++ n2)).
  Proof.
    intros Hw Lk h1. pose proof (lok_lpre _ _ _ _ _ _ _ Lk) as Lp.
    pose proof (lpre_drop_r _ _ _ _ _ _ _ _ Lp) as Lp2.
    assert (Hp : has h (endp hd n1)) by (eapply lpre_has; [exact Lp2|apply end_in]).
    assert (Hq : has h (startp n2 tl)) by (eapply lpre_has; [exact Lp2|apply start_in]).
    destruct (nd_split _ _ _ _ (lk_nd _ _ _ _ _ _ Lk)) as (N1 & N2 & N12).
    rewrite ads_app, <-app_assoc in N2, N12.
    assert (Hpm : endp hd n1 ∉ ads mid).
    { intros Hin. apply (N12 (endp hd n1)); [apply endp_in|]. apply elem_of_app. by left. }
    apply NoDup_app in N2 as (Nm & Nd & N2).
    assert (Hqm : startp n2 tl ∉ ads mid).
    { intros Hin. apply (Nd _ Hin). apply startp_in. }
    assert (Hfp : forall a, a ∈ lfp hd (n1 ++ mid ++ n2) tl -> has h a) by (intros; by eapply lok_has).
    assert (U1 : upd h h1 (lfp hd (n1 ++ mid ++ n2) tl) (lfp hd (n1 ++ mid ++ n2) tl)).
    { apply (lpre_upd dbl h al hd n1 n2 tl); [done|done|done|]. intros a. unfold lfp. rewrite !ads_app. set_solver. }
    split; [by apply set_next_ok|]. split; [|split; [|split]].
    - eapply fw_frame.
      2:{ eapply cseg_fw. pose proof (lp_r _ _ _ _ _ _ _ Lp) as Hc. apply cseg_app in Hc as [Hc _]. exact Hc. }
      intros a Ha. unfold h1. rewrite nx_sn, dt_sn by done. rewrite decide_False; [done|]. by intros ->.
    - apply NoDup_app. split; [done|]. split; [|apply NoDup_singleton].
      intros a Ha Hb. apply elem_of_list_singleton in Hb as ->. done.
    - apply le_n_S. pose proof (size_ge h1 (ads mid) Nm) as Hs. unfold ads in Hs. rewrite fmap_length in Hs.
      apply Hs. intros a Ha. apply has_sn. apply Hfp. unfold lfp. rewrite !ads_app. unfold ads. set_solver.
    - intros h2 F. assert (Hdis : forall a, a ∈ lfp hd (n1 ++ n2) tl -> a ∉ ads mid).
      { intros a Ha Hm. apply lfp_app in Ha as [Ha|Ha]; [|by apply (Nd a)].
        apply (N12 a); [done|]. apply elem_of_app. by left. }
      split.
      + eapply lok_frame; [intros a Ha; by apply F, Hdis|]. by apply lpre_close.
      + eapply upd_trans; [done|exact U1|]. eapply freed_upd; [by apply hwf_sn|exact F| | |].
        * intros a Ha. apply has_sn. auto.
        * intros a Ha. unfold lfp. rewrite !ads_app. set_solver.
        * intros a. split; [intros Ha; split; [|by apply Hdis]|intros [Ha Hm]].
          -- revert Ha. unfold lfp. rewrite !ads_app. set_solver.
          -- revert Ha Hm. unfold lfp. rewrite !ads_app. set_solver.
  Qed.
  (** One node. *)
  Lemma cut1_ok h al hd n1 a v n2 tl : hwf h -> lok h al hd (n1 ++ (a, v) :: n2) tl ->
    let h1 := sn h (endp hd n1) (startp n2 tl) in
    set_next dbl (PAddr (endp hd n1)) (PAddr (startp n2 tl)) h = Ok (tt, h1) /\
    get_next (PAddr a) h1 = Ok (PAddr (startp n2 tl), h1) /\
    destroy_node al (PAddr a) h1 = Ok (tt, fr h1 a) /\
    became h (fr h1 a) al hd tl (n1 ++ (a, v) :: n2) (n1 ++ n2).
  Proof.
    intros Hw Lk h1. destruct (cut_ok h al hd n1 [(a, v)] n2 tl Hw Lk) as (E & (Hn & Hx & _) & _ & _ & B).
    fold h1 in E, Hn, Hx, B. split; [done|]. split; [by apply get_next_ok|]. split; [by eapply destroy_node_ok|].
    apply B. apply freed_one.
  Qed.
  Lemma erase_after_ok h al hd n1 a v n2 tl :
    hwf h -> lok h al hd (n1 ++ (a, v) :: n2) tl -> nlen (n1 ++ (a, v) :: n2) < W ->
    exists h', l_erase_after dbl (L al hd tl (n1 ++ (a, v) :: n2)) (PAddr (endp hd n1)) h =
        Ok ((L al hd tl (n1 ++ n2), PAddr (startp n2 tl)), h') /\
      became h h' al hd tl (n1 ++ (a, v) :: n2) (n1 ++ n2).
  Proof.
    intros Hw Lk Hlen. destruct (cut1_ok h al hd n1 a v n2 tl Hw Lk) as (E1 & E2 & E3 & B).
    eexists. split; [|exact B]. unfold l_erase_after. cbn [l_tail l_al L].
    rewrite (bind_ok _ _ _ _ _ (next_at _ _ _ _ _ _ Lk)). cbn [startp].
    rewrite decide_False by by eapply ne_tl. rewrite (bind_ok _ _ _ _ _ (next_of _ _ _ _ _ _ _ _ Lk)).
    rewrite (bind_ok _ _ _ _ _ E1). rewrite (bind_ok _ _ _ _ _ E3). cbn [l_len].
    exact (f_equal (fun l => Ok ((l, _), _)) (L_less al hd tl n1 n2 (a, v) Hlen)).
  Qed.
  Lemma erase_after_none h al hd ns tl : lok h al hd ns tl ->
    l_erase_after dbl (L al hd tl ns) (PAddr (endp hd ns)) h = Ok ((L al hd tl ns, PAddr tl), h).
  Proof.
    intros Lk. rewrite <-(app_nil_r ns) in Lk. unfold l_erase_after. cbn [l_tail l_al L].
    rewrite (bind_ok _ _ _ _ _ (next_at _ _ _ _ _ _ Lk)). cbn [startp]. by rewrite decide_True.
  Qed.
  Lemma erase_after_loop_ok al hd n1 n2 tl mid : forall fuel h,
    hwf h -> lok h al hd (n1 ++ mid ++ n2) tl -> nlen (n1 ++ mid ++ n2) < W -> (length mid < fuel)%nat ->
    exists h', erase_after_loop dbl fuel (L al hd tl (n1 ++ mid ++ n2)) (PAddr (endp hd n1)) (PAddr (startp n2 tl)) h =
        Ok (L al hd tl (n1 ++ n2), h') /\ became h h' al hd tl (n1 ++ mid ++ n2) (n1 ++ n2).
  Proof.
    induction mid as [|[a v] mid IH]; intros fuel h Hw Lk Hlen Hfuel; (destruct fuel as [|fuel]; [lia|]); simpl in Hfuel;
      cbn [erase_after_loop].
    - exists h. split; [|by apply became_refl]. case_decide; [done|].
      rewrite (bind_ok _ _ _ _ _ (next_at _ _ _ _ _ _ Lk)). by rewrite decide_True.
    - assert (Hne : PAddr (endp hd n1) <> PAddr (startp n2 tl)).
      { pose proof (lk_nd _ _ _ _ _ _ Lk) as Hnd. rewrite app_assoc in Hnd.
        destruct (nd_split _ _ _ _ Hnd) as (_ & _ & N12). intros [= He]. apply (N12 (endp hd n1)).
        - pose proof (endp_in hd n1). rewrite ads_app. set_solver.
        - rewrite He. apply startp_in. }
      assert (Hne2 : PAddr a <> PAddr (startp n2 tl)).
      { pose proof (lk_nd _ _ _ _ _ _ Lk) as Hnd. rewrite app_assoc in Hnd.
        destruct (nd_split _ _ _ _ Hnd) as (_ & _ & N12). intros [= He]. apply (N12 a).
        - rewrite ads_app, ads_cons. set_solver.
        - rewrite He. apply startp_in. }
      cbn [app] in Lk, Hlen.
      destruct (erase_after_ok h al hd n1 a v (mid ++ n2) tl Hw Lk Hlen) as (h1 & E & B).
      destruct (IH fuel h1) as (h2 & E2 & B2).
      { by eapply became_wf. } { apply B. } { rewrite !app_length in *. cbn [length] in Hlen. rewrite app_length in Hlen. lia. } { lia. }
      exists h2. rewrite decide_False by done.
      rewrite (bind_ok _ _ _ _ _ (next_at _ _ _ _ _ _ Lk)). cbn [startp app]. rewrite decide_False by done.
      rewrite (bind_ok _ _ _ _ _ E). split; [done|]. by eapply became_trans.
  Qed.
  Lemma erase_after_range_ok h al hd n1 mid n2 tl :
    hwf h -> lok h al hd (n1 ++ mid ++ n2) tl -> nlen (n1 ++ mid ++ n2) < W ->
    exists h', l_erase_after_range dbl (L al hd tl (n1 ++ mid ++ n2)) (PAddr (endp hd n1)) (PAddr (startp n2 tl)) h =
        Ok ((L al hd tl (n1 ++ n2), PAddr (startp n2 tl)), h') /\
      became h h' al hd tl (n1 ++ mid ++ n2) (n1 ++ n2).
  Proof.
    intros Hw Lk Hlen. destruct (erase_after_loop_ok al hd n1 n2 tl mid (S (size (hmap h))) h Hw Lk Hlen) as (h' & E & B).
    { pose proof (lok_fuel dbl _ _ _ _ _ Lk) as Hf. rewrite !app_length in Hf. lia. }
    exists h'. split; [|done]. unfold l_erase_after_range. rewrite (bind_ok _ _ _ _ _ (fuel_ok h)).
    by rewrite (bind_ok _ _ _ _ _ E).
  Qed.
  Lemma erase_after_range_same h (l : lst) (p : lptr) :
    l_erase_after_range dbl (T := T) l p p h = Ok ((l, p), h).
  Proof.
    unfold l_erase_after_range. rewrite (bind_ok _ _ _ _ _ (fuel_ok h)). cbn [erase_after_loop].
    by rewrite decide_True.
  Qed.
  Lemma erase_ok h al hd n1 a v n2 tl : dbl = true ->
    hwf h -> lok h al hd (n1 ++ (a, v) :: n2) tl -> nlen (n1 ++ (a, v) :: n2) < W ->
    exists h', l_erase dbl (L al hd tl (n1 ++ (a, v) :: n2)) (PAddr a) h =
        Ok ((L al hd tl (n1 ++ n2), PAddr (startp n2 tl)), h') /\
      became h h' al hd tl (n1 ++ (a, v) :: n2) (n1 ++ n2).
  Proof.
    intros Hd Hw Lk Hlen. destruct (cut1_ok h al hd n1 a v n2 tl Hw Lk) as (E1 & E2 & E3 & B).
    eexists. split; [|exact B]. unfold l_erase. cbn [l_tail l_head l_al L].
    rewrite decide_False by by eapply ne_tl. rewrite decide_False by by eapply ne_hd.
    rewrite (bind_ok _ _ _ _ _ (prev_at _ _ _ _ _ _ Hd Lk)).
    rewrite (bind_ok _ _ _ _ _ (next_of _ _ _ _ _ _ _ _ Lk)).
    rewrite (bind_ok _ _ _ _ _ E1). rewrite (bind_ok _ _ _ _ _ E2). rewrite (bind_ok _ _ _ _ _ E3). cbn [l_len].
    exact (f_equal (fun l => Ok ((l, _), _)) (L_less al hd tl n1 n2 (a, v) Hlen)).
  Qed.
  Lemma erase_end h al hd ns tl : l_erase dbl (T := T) (L al hd tl ns) (PAddr tl) h = Ok ((L al hd tl ns, PAddr tl), h).
  Proof. unfold l_erase. cbn [l_tail L]. by rewrite decide_True. Qed.
  Lemma L_cut al hd tl n1 mid n2 : nlen (n1 ++ mid ++ n2) < W ->
    set_len (L (T := T) al hd tl (n1 ++ mid ++ n2)) (usub (nlen (n1 ++ mid ++ n2)) (0 + nlen mid)) = L al hd tl (n1 ++ n2).
  Proof.
    intros Hlen. unfold set_len, L. cbn [l_head l_tail l_len l_al].
    rewrite !app_length in *. rewrite usub_small by lia. f_equal. lia.
  Qed.
  Lemma erase_range_ok h al hd n1 mid n2 tl : dbl = true ->
    hwf h -> lok h al hd (n1 ++ mid ++ n2) tl -> nlen (n1 ++ mid ++ n2) < W ->
    exists h', l_erase_range dbl (L al hd tl (n1 ++ mid ++ n2)) (PAddr (startp (mid ++ n2) tl)) (PAddr (startp n2 tl)) h =
        Ok ((L al hd tl (n1 ++ n2), PAddr (startp n2 tl)), h') /\
      became h h' al hd tl (n1 ++ mid ++ n2) (n1 ++ n2).
  Proof.
    intros Hd Hw Lk Hlen. unfold l_erase_range. destruct mid as [|[a v] mid].
    { exists h. cbn [app]. rewrite decide_True by done. split; [done|by apply became_refl]. }
    set (md := (a, v) :: mid) in *.
    destruct (cut_ok h al hd n1 md n2 tl Hw Lk) as (E & Hf & Hn & Hfuel & B).
    destruct (destroy_run_ok al (startp n2 tl) md (S (size (hmap (sn h (endp hd n1) (startp n2 tl))))) _ 0 Hf Hn Hfuel) as (h' & E2 & F).
    exists h'. split; [|by apply B]. cbn [l_head l_al L].
    rewrite decide_False.
    2:{ cbn [startp app md]. intros [= He]. apply NoDup_app in Hn as (_ & Hn & _). apply (Hn a); [by left|]. rewrite He. by left. }
    rewrite decide_False by (cbn [startp app md]; eapply ne_hd; cbn [app] in Lk; exact Lk).
    rewrite bind_ret. rewrite (bind_ok _ _ _ _ _ (prev_at _ _ _ _ _ _ Hd Lk)).
    rewrite (bind_ok _ _ _ _ _ E). rewrite (bind_ok _ _ _ _ _ (fuel_ok _)).
    rewrite startp_app. rewrite (bind_ok _ _ _ _ _ E2). cbn [l_len].
    exact (f_equal (fun l => Ok ((l, _), _)) (L_cut al hd tl n1 md n2 Hlen)).
  Qed.
  Lemma pop_front_ok h al hd a v ns tl :
    hwf h -> lok h al hd ((a, v) :: ns) tl -> nlen ((a, v) :: ns) < W ->
    exists h', l_pop_front dbl (L al hd tl ((a, v) :: ns)) h = Ok (L al hd tl ns, h') /\
      became h h' al hd tl ((a, v) :: ns) ns.
  Proof.
    intros Hw Lk Hlen. destruct (cut1_ok h al hd [] a v ns tl Hw Lk) as (E1 & E2 & E3 & B).
    eexists. split; [|exact B]. unfold l_pop_front. cbn [l_tail l_head l_al L].
    rewrite (bind_ok _ _ _ _ _ (next_at h al hd [] _ tl Lk)). cbn [startp].
    rewrite (bind_ok _ _ _ _ _ (next_of h al hd [] _ _ _ _ Lk)).
    rewrite (bind_ok _ _ _ _ _ E1). rewrite (bind_ok _ _ _ _ _ E3). cbn [l_len].
    unfold ret. f_equal. f_equal. apply (L_less _ _ _ [] ns (a, v) Hlen).
  Qed.
  Lemma pop_back_ok h al hd a v ns tl : dbl = true ->
    hwf h -> lok h al hd (ns ++ [(a, v)]) tl -> nlen (ns ++ [(a, v)]) < W ->
    exists h', l_pop_back dbl (L al hd tl (ns ++ [(a, v)])) h = Ok (L al hd tl ns, h') /\
      became h h' al hd tl (ns ++ [(a, v)]) ns.
  Proof.
    intros Hd Hw Lk Hlen. destruct (cut1_ok h al hd ns a v [] tl Hw Lk) as (E1 & E2 & E3 & B).
    rewrite (app_nil_r ns) in B. pose proof Lk as Lk2. rewrite <-(app_nil_r (ns ++ _)) in Lk2.
    eexists. split; [|exact B]. unfold l_pop_back. cbn [l_tail l_head l_al L].
    pose proof (prev_at _ _ _ _ _ _ Hd Lk2) as P1. rewrite endp_app in P1. cbn [startp endp] in P1.
    rewrite (bind_ok _ _ _ _ _ P1). rewrite (bind_ok _ _ _ _ _ (prev_at _ _ _ _ _ _ Hd Lk)).
    cbn [startp] in E1. rewrite (bind_ok _ _ _ _ _ E1). rewrite (bind_ok _ _ _ _ _ E3). cbn [l_len].
    pose proof (L_less al hd tl ns [] (a, v) Hlen) as EL. rewrite (app_nil_r ns) in EL.
    exact (f_equal (fun l => Ok (l, _)) EL).
  Qed.

  (** ** Resizing *)
  Lemma extend_loop_ok al hd tl vs : forall h ns,
    hwf h -> lok h al hd ns tl ->
    exists h' ms, extend_loop dbl al (PAddr (endp hd ns)) (PAddr tl) vs h = Ok (PAddr (endp hd (ns ++ ms)), h') /\
      vls ms = vs /\ became h h' al hd tl ns (ns ++ ms).
  Proof.
    induction vs as [|v vs IH]; intros h ns Hw Lk.
    { exists h, []. rewrite app_nil_r. split; [done|]. split; [done|by apply became_refl]. }
    rewrite <-(app_nil_r ns) in Lk.
    destruct (ins1_ok h al hd ns [] tl v Hw Lk) as (E1 & E2 & E3 & E4 & E5 & E6 & B).
    rewrite (app_nil_r ns) in B. cbn [startp] in *.
    destruct (IH _ (ns ++ [(hnext h, v)]) (became_wf _ _ _ _ _ _ _ B) (proj1 B)) as (h' & ms & E & Hv & B2).
    exists h', ((hnext h, v) :: ms). rewrite <-app_assoc in E, B2. cbn [app] in E, B2. split; [|split].
    - cbn [extend_loop]. rewrite (bind_ok _ _ _ _ _ (construct_ok h al v)).
      rewrite (bind_ok _ _ _ _ _ E3). rewrite (bind_ok _ _ _ _ _ E4).
      rewrite endp_app in E. exact E.
    - by rewrite <-Hv.
    - by eapply became_trans.
  Qed.
  Lemma last_of h al hd ns tl : dbl = true -> lok h al hd ns tl -> get_prev (PAddr tl) h = Ok (PAddr (endp hd ns), h).
  Proof. intros Hd Lk. rewrite <-(app_nil_r ns) in Lk. by apply (prev_at _ _ _ _ _ _ Hd Lk). Qed.
  Lemma extend_ok h al hd ns tl n v : hwf h -> lok h al hd ns tl -> nlen ns <= n -> n < W ->
    exists h' ms, l_extend dbl (L al hd tl ns) n v h = Ok (L al hd tl (ns ++ ms), h') /\
      vls ms = replicate (N.to_nat (n - nlen ns)) v /\ became h h' al hd tl ns (ns ++ ms).
  Proof.
    intros Hw Lk Hn HW. destruct (extend_loop_ok al hd tl (replicate (N.to_nat (n - nlen ns)) v) h ns Hw Lk) as (h' & ms & E & Hv & B).
    exists h', ms. split; [|done]. unfold l_extend. cbn [l_len l_tail l_head l_al L]. rewrite usub_small by done.
    assert (Ep : (if dbl then get_prev (PAddr tl) else stl_advance (N.to_nat (nlen ns)) (PAddr hd)) h = Ok (PAddr (endp hd ns), h)).
    { destruct (bool_dec dbl true) as [Hd|Hd].
      - pose proof (last_of _ _ _ _ _ Hd Lk) as El. by rewrite Hd.
      - apply not_true_is_false in Hd. rewrite Nat2N.id. rewrite <-(app_nil_r ns) in Lk.
        pose proof (advance_ok _ _ _ _ _ _ Lk) as El. by rewrite Hd. }
    rewrite (bind_ok _ _ _ _ _ Ep). rewrite (bind_ok _ _ _ _ _ E). unfold ret. f_equal. f_equal.
    unfold set_len, L. f_equal. rewrite app_length. apply vls_len in Hv. rewrite replicate_length in Hv. lia.
  Qed.
  Lemma shorten_ok h al hd n1 n2 tl : hwf h -> lok h al hd (n1 ++ n2) tl -> nlen (n1 ++ n2) < W ->
    exists h', l_shorten dbl (L al hd tl (n1 ++ n2)) (nlen n1) h = Ok (L al hd tl n1, h') /\
      became h h' al hd tl (n1 ++ n2) n1.
  Proof.
    intros Hw Lk Hlen. pose proof Lk as Lk2. rewrite <-(app_nil_r n2) in Lk2.
    destruct (cut_ok h al hd n1 n2 [] tl Hw Lk2) as (E & Hf & Hn & Hfuel & B).
    rewrite !app_nil_r in B. cbn [startp] in *.
    destruct (destroy_run_ok al tl n2 (S (size (hmap (sn h (endp hd n1) tl)))) _ 0 Hf Hn Hfuel) as (h' & E2 & F).
    exists h'. split; [|by apply B]. unfold l_shorten. cbn [l_head l_al l_tail l_len L].
    match goal with |- bind ?m _ _ = _ => assert (Ep : m h = Ok (PAddr (endp hd n1), h)) end.
    { pose proof (fun Hd => last_of _ _ _ _ _ Hd Lk) as X1.
      pose proof (fun Hd => back_advance_ok _ _ _ _ _ _ _ Hd Lk2) as X2.
      pose proof (advance_ok _ _ _ _ _ _ Lk) as X3.
      rewrite app_length in *. rewrite usub_small by lia. rewrite Nat2N.id.
      destruct (bool_dec dbl true) as [Hd|Hd%not_true_is_false]; rewrite Hd; cbn [andb]; [|done].
      destruct (_ <? _); [|done]. rewrite (bind_ok _ _ _ _ _ (X1 Hd)).
      replace (N.to_nat _) with (length n2) by lia. by apply X2. }
    rewrite (bind_ok _ _ _ _ _ Ep). rewrite (bind_ok _ _ _ _ _ (next_at _ _ _ _ _ _ Lk)).
    rewrite (bind_ok _ _ _ _ _ E). rewrite (bind_ok _ _ _ _ _ (fuel_ok _)). by rewrite (bind_ok _ _ _ _ _ E2).
  Qed.
  Definition resized ns (n : N) (v : T) : list T :=
    take (N.to_nat n) (vls ns) ++ replicate (N.to_nat (n - nlen ns)) v.
  Lemma resize_ok h al hd ns tl n v : hwf h -> lok h al hd ns tl -> nlen ns < W -> n < W ->
    exists h' ns', l_resize dbl (L al hd tl ns) n v h = Ok (L al hd tl ns', h') /\
      vls ns' = resized ns n v /\ take (N.to_nat n) ns = take (length ns) ns' /\ became h h' al hd tl ns ns'.
  Proof.
    intros Hw Lk Hlen Hn. unfold l_resize, resized. cbn [l_len L].
    assert (Hvl : length (vls ns) = length ns) by (unfold vls; by rewrite fmap_length).
    destruct (N.eqb_spec n 0) as [->|H0].
    { destruct (clear_ok dbl h al hd ns tl Hw Lk) as (h' & E & Lk' & U). exists h', []. split; [done|].
      split; [done|]. split; [by rewrite take_nil|]. by split. }
    destruct (N.eqb_spec n (nlen ns)) as [->|H1].
    { exists h, ns. split; [done|]. rewrite Nat2N.id, N.sub_diag, app_nil_r, firstn_all2 by lia.
      split; [done|]. split; [done|by apply became_refl]. }
    destruct (N.ltb_spec (nlen ns) n) as [H2|H2].
    - destruct (extend_ok h al hd ns tl n v Hw Lk) as (h' & ms & E & Hv & B); [lia|done|].
      exists h', (ns ++ ms). split; [done|]. rewrite vls_app, Hv. rewrite firstn_all2 by lia. split; [done|].
      split; [|done]. rewrite take_app. rewrite firstn_all2 by lia. done.
    - set (k := N.to_nat n). rewrite <-(take_drop k ns) in Lk, Hlen.
      assert (Hk : length (take k ns) = k) by (rewrite take_length; lia).
      destruct (shorten_ok h al hd (take k ns) (drop k ns) tl Hw Lk Hlen) as (h' & E & B).
      rewrite take_drop, Hk in *. replace (N.of_nat k) with n in E by lia. exists h', (take k ns). split; [done|].
      replace (n - nlen ns) with 0 by lia. rewrite app_nil_r. split; [|split; [|done]].
      + unfold vls. by rewrite fmap_take.
      + rewrite (firstn_all2 (take k ns)); [done|lia].
  Qed.
End Ops3.
