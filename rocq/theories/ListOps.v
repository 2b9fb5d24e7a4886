(** * ListOps: what the list operations do to a well-formed list *)
From Verif Require Import Base World ListModel ListSeg.
Local Open Scope N_scope.

Section Ops.
  Context {T : Type} (dbl : bool).
  Notation H := (heap (cell T)).
  Notation sn := (sn dbl).
  Notation lok := (lok dbl).
  Notation seg := (seg dbl).
  Notation oseg := (oseg dbl).
  Notation cseg := (cseg dbl).
  Notation link := (link dbl).
  Implicit Types (h : H) (a p q : N) (ns : list (N * T)).

  Definition L al hd tl (ns : list (N * T)) : lst := Lst (PAddr hd) (PAddr tl) (nlen ns) al.

  (** ** Footprints *)
  Lemma nd_split hd (n1 n2 : list (N * T)) tl : NoDup (hd :: ads (n1 ++ n2) ++ [tl]) ->
    NoDup (hd :: ads n1) /\ NoDup (ads n2 ++ [tl]) /\
    (forall a, a ∈ hd :: ads n1 -> a ∈ ads n2 ++ [tl] -> False).
  Proof.
    rewrite ads_app, <-app_assoc, (app_comm_cons (ads n1)). rewrite NoDup_app. intros (H1 & H2 & H3).
    split; [done|]. split; [done|]. exact H2.
  Qed.
  Lemma nd_join hd (n1 n2 : list (N * T)) tl :
    NoDup (hd :: ads n1) -> NoDup (ads n2 ++ [tl]) ->
    (forall a, a ∈ hd :: ads n1 -> a ∈ ads n2 ++ [tl] -> False) ->
    NoDup (hd :: ads (n1 ++ n2) ++ [tl]).
  Proof.
    intros H1 H2 H3. rewrite ads_app, <-app_assoc, (app_comm_cons (ads n1)). apply NoDup_app.
    split; [done|]. split; [exact H3|done].
  Qed.
  Lemma lfp_app hd (n1 n2 : list (N * T)) tl a :
    a ∈ lfp hd (n1 ++ n2) tl <-> a ∈ hd :: ads n1 \/ a ∈ ads n2 ++ [tl].
  Proof. unfold lfp. rewrite ads_app. rewrite !elem_of_cons, !elem_of_app. naive_solver. Qed.
  Lemma lok_lt h al hd ns tl a : hwf h -> lok h al hd ns tl -> a ∈ lfp hd ns tl -> a < hnext h.
  Proof. intros Hw Hl Ha. apply Hw. by eapply lok_has. Qed.

  Lemma lookup_alter_dec (f : cell T -> cell T) x (m : gmap N (cell T)) i :
    alter f x m !! i = if decide (x = i) then f <$> m !! i else m !! i.
  Proof. destruct (decide (x = i)) as [->|]; [apply lookup_alter|by apply lookup_alter_ne]. Qed.
  Lemma sn_comm h x y z w : x <> z -> y <> w -> sn (sn h x y) z w = sn (sn h z w) x y.
  Proof.
    intros Hx Hy. unfold ListSeg.sn, upn, upp. destruct dbl; simpl; f_equal; apply map_eq; intros i;
      rewrite !lookup_alter_dec; repeat case_decide; subst; try done; by destruct (hmap h !! i).
  Qed.

  (** ** Construction *)
  Lemma init_ok h al : hwf h -> exists hd tl h',
    init_empty_list dbl al h = Ok (L al hd tl ([] : list (N * T)), h') /\ lok h' al hd [] tl /\
    upd h h' [] (lfp hd ([] : list (N * T)) tl).
  Proof.
    intros Hw. set (h1 := ins h (vcell dbl al)). set (h2 := ins h1 (vcell dbl al)).
    set (hd := hnext h). set (tl := hnext h1). assert (Hne : hd <> tl) by (unfold hd, tl, h1; simpl; lia).
    assert (H2h : has h2 hd) by (apply has_ins; right; apply has_ins; by left).
    assert (H2t : has h2 tl) by (apply has_ins; by left).
    exists hd, tl, (sn h2 hd tl). split; [|split].
    - unfold init_empty_list. rewrite (bind_ok _ _ _ _ _ (build_virtual_ok dbl h al)).
      rewrite (bind_ok _ _ _ _ _ (build_virtual_ok dbl h1 al)).
      by rewrite (bind_ok _ _ _ _ _ (set_next_ok dbl h2 hd tl H2h H2t)).
    - split.
      + simpl. apply NoDup_cons. split; [|apply NoDup_singleton]. by intros ?%elem_of_list_singleton.
      + unfold virt. rewrite dt_sn. unfold h2. rewrite dt_ins, decide_False by done.
        unfold h1. rewrite dt_ins, decide_True; done.
      + unfold virt. rewrite dt_sn. unfold h2. rewrite dt_ins, decide_True; done.
      + split; [done|]. by apply link_sn.
      + rewrite nx_sn by done. rewrite decide_False by done. unfold h2. rewrite nx_ins, decide_True; done.
      + intros Hd. rewrite pv_sn by done. rewrite Hd, decide_False by done.
        unfold h2. rewrite pv_ins, decide_False by done. unfold h1. rewrite pv_ins, decide_True by done.
        simpl. by rewrite Hd.
    - eapply upd_trans; [done| |]. { apply (upd_ins h (vcell dbl al) []); [done|]. set_solver. }
      eapply upd_trans; [by apply hwf_ins| |].
      { apply (upd_ins h1 (vcell dbl al)); [by apply hwf_ins|].
        intros a Ha. apply elem_of_list_singleton in Ha as ->. apply has_ins. by left. }
      eapply upd_equiv; [done| |apply upd_sn].
      + intros a. unfold lfp. simpl. rewrite !elem_of_cons. naive_solver.
      + by apply hwf_ins, hwf_ins.
      + intros a [->|Ha]%elem_of_cons; [done|]. by apply elem_of_list_singleton in Ha as ->.
      + by right; left.
      + by left.
  Qed.

  (** Appending new nodes behind [p]. *)
  Record grow h h' al p ns : Prop := Grow {
    g_nd : NoDup (ads ns);
    g_new : forall a, a ∈ ads ns -> hnext h <= a;
    g_seg : oseg h' al p ns;
    g_wf : hwf h';
    g_next : hnext h <= hnext h';
    g_has : forall a, has h' a <-> has h a \/ a ∈ ads ns;
    g_fr : forall a, a < hnext h -> a <> p -> hmap h' !! a = hmap h !! a;
    g_pv : pv h' p = pv h p;
    g_dt : dt h' p = dt h p;
    g_nil : ns = [] -> h' = h;
  }.
  Lemma grow_refl h al p : hwf h -> grow h h al p [].
  Proof.
    intros Hw. split; try done.
    - constructor.
    - by intros a ?%elem_of_nil.
    - intros a. rewrite elem_of_nil. naive_solver.
  Qed.
  Lemma grow_cons h h' al p v ns :
    hwf h -> has h p -> grow (sn (ins h (dcell al v)) p (hnext h)) h' al (hnext h) ns ->
    grow h h' al p ((hnext h, v) :: ns).
  Proof.
    intros Hw Hp. set (a := hnext h). set (h1 := ins h (dcell al v)). set (h2 := sn h1 p a).
    assert (Hpa : p < a) by by apply Hw.
    assert (H1p : has h1 p) by (apply has_ins; by right).
    assert (H1a : has h1 a) by (apply has_ins; by left).
    assert (N2 : hnext h2 = a + 1) by (unfold h2; rewrite hnext_sn; done).
    intros G. destruct G as [G1 G2 G3 G4 G5 G6 G7 G8 G9 _]. rewrite N2 in *. split; rewrite ?ads_cons.
    - apply NoDup_cons. split; [|done]. intros Ha. apply G2 in Ha. lia.
    - intros b [->|Hb]%elem_of_cons; [done|]. apply G2 in Hb. lia.
    - split; [|split; [|done]].
      + eapply link_frame; [| |by apply (link_sn dbl h1 p a)].
        * apply has_eq. apply G7; lia.
        * intros _. exact G8.
      + unfold node. rewrite G9. unfold h2. rewrite dt_sn. unfold h1. rewrite dt_ins, decide_True; done.
    - done.
    - lia.
    - intros b. rewrite G6. unfold h2. rewrite has_sn. unfold h1. rewrite has_ins.
      rewrite elem_of_cons. naive_solver.
    - intros b Hb Hne. rewrite G7 by lia. unfold h2. rewrite hmap_sn by lia.
      unfold h1. simpl. apply lookup_insert_ne. lia.
    - destruct (has_eq h2 h' p (G7 p ltac:(lia) ltac:(lia))) as (_ & -> & _).
      unfold h2. rewrite pv_sn by done. rewrite (decide_False (P := p = a)) by lia.
      unfold h1. rewrite pv_ins, decide_False by lia. by destruct dbl.
    - destruct (has_eq h2 h' p (G7 p ltac:(lia) ltac:(lia))) as (_ & _ & ->).
      unfold h2. rewrite dt_sn. unfold h1. rewrite dt_ins, decide_False by lia. done.
    - done.
  Qed.
  Lemma append_ok al vs : forall h p, hwf h -> has h p ->
    exists h' ms, append dbl al (PAddr p) vs h = Ok (PAddr (endp p ms), h') /\ vls ms = vs /\
      grow h h' al p ms.
  Proof.
    induction vs as [|v vs IH]; intros h p Hw Hp.
    { exists h, []. split; [done|]. split; [done|]. by apply grow_refl. }
    assert (H1p : has (ins h (dcell al v)) p) by (apply has_ins; by right).
    assert (H1a : has (ins h (dcell al v)) (hnext h)) by (apply has_ins; by left).
    destruct (IH (sn (ins h (dcell al v)) p (hnext h)) (hnext h)) as (h' & ms & E & Hv & G).
    { by apply hwf_sn, hwf_ins. } { by apply has_sn. }
    exists h', ((hnext h, v) :: ms). split; [|split].
    - cbn [append]. rewrite (bind_ok _ _ _ _ _ (construct_ok h al v)).
      rewrite (bind_ok _ _ _ _ _ (set_next_ok dbl _ _ _ H1p H1a)). exact E.
    - by rewrite <-Hv.
    - by apply grow_cons.
  Qed.
  Lemma grow_upd h h' al p ms fp : hwf h -> grow h h' al p ms -> (forall a, a ∈ fp -> has h a) -> p ∈ fp ->
    upd h h' fp (ads ms ++ fp).
  Proof.
    intros Hw G Hfp Hp. split.
    - exact (g_next _ _ _ _ _ G).
    - intros a Ha Hn. apply G; [done|]. by intros ->.
    - intros a [Ha|Ha]%elem_of_app; [|by left]. right. by apply G.
    - intros a. rewrite elem_of_app. change (has h' a <-> has h a /\ a ∉ fp \/ a ∈ ads ms \/ a ∈ fp).
      rewrite (g_has _ _ _ _ _ G). destruct (decide (a ∈ fp)); naive_solver.
    - apply G.
  Qed.

  (** ** A list with the link between [n1] and [n2] missing *)
  Record lpre h al hd n1 n2 tl : Prop := Lpre {
    lp_nd : NoDup (hd :: ads (n1 ++ n2) ++ [tl]);
    lp_hd : virt h al hd;
    lp_tl : virt h al tl;
    lp_l : oseg h al hd n1;
    lp_r : cseg h al n2 tl;
    lp_tn : nx h tl = Some PNull;
    lp_hp : dbl = true -> pv h hd = Some PNull;
  }.
  Lemma lok_lpre h al hd n1 n2 tl : lok h al hd (n1 ++ n2) tl -> lpre h al hd n1 n2 tl.
  Proof.
    intros Lk. pose proof (lk_seg _ _ _ _ _ _ Lk) as Hs. apply seg_app in Hs as (S1 & S2 & S3).
    split; try done; apply Lk.
  Qed.
  Lemma lok_link h al hd n1 n2 tl : lok h al hd (n1 ++ n2) tl -> link h (endp hd n1) (startp n2 tl).
  Proof. intros Lk. pose proof (lk_seg _ _ _ _ _ _ Lk) as Hs. by apply seg_app in Hs as (S1 & S2 & S3). Qed.
  Lemma lpre_has h al hd n1 n2 tl a : lpre h al hd n1 n2 tl -> a ∈ lfp hd (n1 ++ n2) tl -> has h a.
  Proof.
    intros Lp. rewrite lfp_app. intros [[->|Ha]%elem_of_cons|[Ha|Ha]%elem_of_app].
    - eapply virt_has, Lp.
    - eapply oseg_has; [apply Lp|done].
    - eapply cseg_has; [apply Lp|done].
    - apply elem_of_list_singleton in Ha as ->. eapply virt_has, Lp.
  Qed.
  Lemma hd_in hd (n1 n2 : list (N * T)) tl : hd ∈ lfp hd (n1 ++ n2) tl.
  Proof. by left. Qed.
  Lemma tl_in hd (ns : list (N * T)) tl : tl ∈ lfp hd ns tl.
  Proof. right. apply elem_of_app. right. by left. Qed.
  Lemma end_in hd (n1 n2 : list (N * T)) tl : endp hd n1 ∈ lfp hd (n1 ++ n2) tl.
  Proof. apply lfp_app. left. apply endp_in. Qed.
  Lemma start_in hd (n1 n2 : list (N * T)) tl : startp n2 tl ∈ lfp hd (n1 ++ n2) tl.
  Proof. apply lfp_app. right. apply startp_in. Qed.
  Lemma end_start hd (n1 n2 : list (N * T)) tl : NoDup (hd :: ads (n1 ++ n2) ++ [tl]) ->
    hd <> startp n2 tl /\ tl <> endp hd n1 /\ endp hd n1 <> startp n2 tl.
  Proof.
    intros (N1 & N2 & N12)%nd_split.
    pose proof (endp_in hd n1) as He. pose proof (startp_in n2 tl) as Hs.
    assert (Hhd : hd ∈ hd :: ads n1) by by left.
    assert (Htl : tl ∈ ads n2 ++ [tl]) by (apply elem_of_app; right; by left).
    split; [|split]; intros Heq.
    - apply (N12 hd); [done|by rewrite Heq].
    - apply (N12 tl); [by rewrite Heq|done].
    - apply (N12 (endp hd n1)); [done|by rewrite Heq].
  Qed.
  Lemma lpre_views h h' al hd n1 n2 tl :
    (forall a, a ∈ lfp hd (n1 ++ n2) tl -> a <> endp hd n1 -> nx h' a = nx h a) ->
    (forall a, a ∈ lfp hd (n1 ++ n2) tl -> a <> startp n2 tl -> dbl = true -> pv h' a = pv h a) ->
    (forall a, a ∈ lfp hd (n1 ++ n2) tl -> dt h' a = dt h a) ->
    lpre h al hd n1 n2 tl -> lpre h' al hd n1 n2 tl.
  Proof.
    intros Hn Hp Hd Lp. destruct (nd_split _ _ _ _ (lp_nd _ _ _ _ _ _ Lp)) as (N1 & N2 & N12).
    destruct (end_start _ _ _ _ (lp_nd _ _ _ _ _ _ Lp)) as (E1 & E2 & E3).
    pose proof (endp_in hd n1) as He. pose proof (startp_in n2 tl) as Hs.
    split.
    - apply Lp.
    - unfold virt. rewrite Hd by apply hd_in. apply Lp.
    - unfold virt. rewrite Hd by apply tl_in. apply Lp.
    - eapply oseg_frame; [done| | | |apply Lp].
      + intros a Ha Hne. apply Hn; [|done]. apply lfp_app. by left.
      + intros a Ha. assert (Hin : a ∈ hd :: ads n1) by by right. apply Hp; [apply lfp_app; by left|].
        intros ->. by apply (N12 (startp n2 tl)).
      + intros a Ha. apply Hd. apply lfp_app. left. by right.
    - eapply cseg_frame; [done| | | |apply Lp].
      + intros a Ha. assert (Hin : a ∈ ads n2 ++ [tl]) by (apply elem_of_app; by left).
        apply Hn; [apply lfp_app; by right|]. intros ->. by apply (N12 (endp hd n1)).
      + intros a Ha Hne Hdb. apply Hp; [|done|done]. apply lfp_app. by right.
      + intros a Ha. apply Hd. apply lfp_app. right. apply elem_of_app. by left.
    - rewrite Hn; [apply Lp|apply tl_in|done].
    - intros Hdb. rewrite Hp; [by apply Lp|apply hd_in|done|done].
  Qed.
  Lemma lpre_frame h h' al hd n1 n2 tl :
    (forall a, a ∈ lfp hd (n1 ++ n2) tl -> hmap h' !! a = hmap h !! a) ->
    lpre h al hd n1 n2 tl -> lpre h' al hd n1 n2 tl.
  Proof. intros Hf. apply lpre_views; intros; by apply has_eq, Hf. Qed.
  (** Writing an unrelated link. *)
  Lemma lpre_sn h al hd n1 n2 tl x y : has h x -> has h y ->
    (x ∈ lfp hd (n1 ++ n2) tl -> x = endp hd n1) -> (y ∈ lfp hd (n1 ++ n2) tl -> y = startp n2 tl) ->
    lpre h al hd n1 n2 tl -> lpre (sn h x y) al hd n1 n2 tl.
  Proof.
    intros Hx Hy Hxe Hye. apply lpre_views.
    - intros a Ha Hne. rewrite nx_sn by done. rewrite decide_False; [done|]. intros ->. auto.
    - intros a Ha Hne Hd. rewrite pv_sn by done. rewrite Hd, decide_False; [done|]. intros ->. auto.
    - intros a Ha. apply dt_sn.
  Qed.
  (** Closing the gap. *)
  Lemma lpre_close h al hd n1 n2 tl : lpre h al hd n1 n2 tl ->
    lok (sn h (endp hd n1) (startp n2 tl)) al hd (n1 ++ n2) tl.
  Proof.
    intros Lp0.
    assert (He : has h (endp hd n1)) by (eapply lpre_has; [done|apply end_in]).
    assert (Hs : has h (startp n2 tl)) by (eapply lpre_has; [done|apply start_in]).
    assert (Lp : lpre (sn h (endp hd n1) (startp n2 tl)) al hd n1 n2 tl) by by apply lpre_sn.
    split; try apply Lp. apply seg_app. split; [apply Lp|]. split; [|apply Lp]. by apply link_sn.
  Qed.
  Lemma lpre_upd h al hd n1 n2 tl fp : hwf h -> lpre h al hd n1 n2 tl ->
    (forall a, a ∈ fp -> has h a) -> (forall a, a ∈ lfp hd (n1 ++ n2) tl -> a ∈ fp) ->
    upd h (sn h (endp hd n1) (startp n2 tl)) fp fp.
  Proof.
    intros Hw Lp Hh Hfp. apply upd_sn; [done|done| |]; apply Hfp; [apply end_in|apply start_in].
  Qed.
  (** Forgetting nodes next to the gap. *)
  Lemma lpre_drop_r h al hd n1 mid n2 tl :
    lpre h al hd n1 (mid ++ n2) tl -> lpre h al hd n1 n2 tl.
  Proof.
    intros Lp. pose proof (lp_r _ _ _ _ _ _ Lp) as Hr. apply cseg_app in Hr as [_ Hr].
    split; try apply Lp; [|done].
    destruct (nd_split _ _ _ _ (lp_nd _ _ _ _ _ _ Lp)) as (N1 & N2 & N12).
    rewrite ads_app, <-app_assoc in N2, N12. apply nd_join; [done|by apply NoDup_app in N2 as (_ & _ & ?)|].
    intros a Ha Hb. apply (N12 a); [done|]. apply elem_of_app. by right.
  Qed.
  (** New nodes at the gap. *)
  Lemma lpre_grow h h' al hd n1 n2 tl ms :
    hwf h -> lpre h al hd n1 n2 tl -> grow h h' al (endp hd n1) ms -> lpre h' al hd (n1 ++ ms) n2 tl.
  Proof.
    intros Hw Lp G.
    destruct (nd_split _ _ _ _ (lp_nd _ _ _ _ _ _ Lp)) as (N1 & N2 & N12).
    assert (Hall : forall a, a ∈ lfp hd (n1 ++ n2) tl -> a < hnext h).
    { intros a Ha. apply Hw. by eapply lpre_has. }
    assert (Hnew : forall a, a ∈ ads ms -> hnext h <= a) by apply G.
    assert (Lp' : lpre h' al hd n1 n2 tl).
    { eapply lpre_views; [| | |exact Lp].
      - intros a Ha Hne. apply has_eq. apply G; auto.
      - intros a Ha _ _. destruct (decide (a = endp hd n1)) as [->|Hne]; [apply G|].
        apply has_eq. apply G; auto.
      - intros a Ha. destruct (decide (a = endp hd n1)) as [->|Hne]; [apply G|].
        apply has_eq. apply G; auto. }
    split; try apply Lp'.
    - rewrite <-app_assoc. apply nd_join; [done| |].
      + rewrite ads_app, <-app_assoc. apply NoDup_app. split; [apply G|]. split; [|done].
        intros a Ha Hb. apply Hnew in Ha. assert (a < hnext h) by (apply Hall, lfp_app; by right). lia.
      + intros a Ha. rewrite ads_app, <-app_assoc. intros [Hb|Hb]%elem_of_app; [|by apply (N12 a)].
        apply Hnew in Hb. assert (a < hnext h) by (apply Hall, lfp_app; by left). lia.
    - apply oseg_app. split; [apply Lp'|apply G].
  Qed.
  Lemma lok_insert h h' al hd n1 n2 tl ms :
    hwf h -> lpre h al hd n1 n2 tl -> grow h h' al (endp hd n1) ms ->
    lok (sn h' (endp hd (n1 ++ ms)) (startp n2 tl)) al hd (n1 ++ ms ++ n2) tl.
  Proof.
    intros Hw Lp G. rewrite app_assoc. apply lpre_close. by eapply lpre_grow.
  Qed.
  Lemma upd_insert h h' al hd n1 n2 tl ms :
    hwf h -> lpre h al hd n1 n2 tl -> grow h h' al (endp hd n1) ms ->
    upd h (sn h' (endp hd (n1 ++ ms)) (startp n2 tl)) (lfp hd (n1 ++ n2) tl) (lfp hd (n1 ++ ms ++ n2) tl).
  Proof.
    intros Hw Lp G.
    assert (U : upd h h' (lfp hd (n1 ++ n2) tl) (ads ms ++ lfp hd (n1 ++ n2) tl)).
    { eapply grow_upd; [done|done| |].
      - intros a Ha. by eapply lpre_has.
      - apply lfp_app. left. apply endp_in. }
    eapply upd_equiv; [done| |].
    2:{ eapply upd_trans; [done|exact U|]. eapply lpre_upd; [apply G|by eapply lpre_grow| |].
      - intros a [Ha|Ha]%elem_of_app; apply G; [by right|]. left. by eapply lpre_has.
      - intros a. unfold lfp. rewrite !ads_app. set_solver. }
    intros a. unfold lfp. rewrite !ads_app. set_solver.
  Qed.

  (** ** Removing nodes *)
  (** Following the links forward only. *)
  Fixpoint fw h al ns q : Prop :=
    match ns with
    | [] => True
    | (a, v) :: r => node h al a v /\ nx h a = Some (PAddr (startp r q)) /\ fw h al r q
    end.
  Lemma cseg_fw h al ns q : cseg h al ns q -> fw h al ns q.
  Proof.
    induction ns as [|[a v] ns IH]; [done|]. intros [Hv Hs]. apply seg_cseg in Hs as [[Hl _] Hc].
    split; [done|]. split; [done|]. by apply IH.
  Qed.
  Lemma fw_frame h h' al ns q :
    (forall a, a ∈ ads ns -> nx h' a = nx h a /\ dt h' a = dt h a) -> fw h al ns q -> fw h' al ns q.
  Proof.
    induction ns as [|[a v] ns IH]; intros Hf; [done|]. intros (Hv & Hn & Hr).
    destruct (Hf a) as [E1 E2]; [by left|]. split; [unfold node in *; by rewrite E2|].
    split; [by rewrite E1|]. apply IH; [|done]. intros b Hb. apply Hf. by right.
  Qed.
  Lemma fw_app h al n1 n2 q : fw h al (n1 ++ n2) q <-> fw h al n1 (startp n2 q) /\ fw h al n2 q.
  Proof.
    induction n1 as [|[a v] n1 IH]; simpl; [naive_solver|]. rewrite IH, startp_app. naive_solver.
  Qed.
  Record freed h h' (xs : list N) : Prop := Freed {
    f_next : hnext h' = hnext h;
    f_fr : forall a, a ∉ xs -> hmap h' !! a = hmap h !! a;
    f_in : forall a, a ∈ xs -> hmap h' !! a = None;
  }.
  Lemma freed_refl h : freed h h [].
  Proof. split; [done|done|]. by intros a ?%elem_of_nil. Qed.
  Lemma freed_one h a : freed h (fr h a) [a].
  Proof.
    split; [done| |].
    - intros b Hb. simpl. apply lookup_delete_ne. intros ->. apply Hb. by left.
    - intros b Hb. apply elem_of_list_singleton in Hb as ->. simpl. apply lookup_delete.
  Qed.
  Lemma freed_trans h h1 h2 xs ys : freed h h1 xs -> freed h1 h2 ys -> freed h h2 (xs ++ ys).
  Proof.
    intros [A1 A2 A3] [B1 B2 B3]. split; [congruence| |].
    - intros a Ha. rewrite B2, A2; [done| |]; set_solver.
    - intros a Ha. destruct (decide (a ∈ ys)) as [?|Hn]; [auto|]. rewrite B2 by done. apply A3. set_solver.
  Qed.
  Lemma freed_wf h h' xs : hwf h -> freed h h' xs -> hwf h'.
  Proof.
    intros Hw F a [c Hc]. rewrite (f_next _ _ _ F). destruct (decide (a ∈ xs)) as [Hin|Hin].
    - by rewrite (f_in _ _ _ F a Hin) in Hc.
    - apply Hw. rewrite (f_fr _ _ _ F a Hin) in Hc. eauto.
  Qed.
  Lemma freed_upd h h' xs fp fp' : hwf h -> freed h h' xs ->
    (forall a, a ∈ fp -> has h a) -> (forall a, a ∈ xs -> a ∈ fp) -> (forall a, a ∈ fp' <-> a ∈ fp /\ a ∉ xs) ->
    upd h h' fp fp'.
  Proof.
    intros Hw F Hh Hx Hf. split.
    - rewrite (f_next _ _ _ F). lia.
    - intros a _ Ha. apply F. auto.
    - intros a Ha. left. by apply Hf.
    - intros a. rewrite Hf. destruct (decide (a ∈ xs)) as [Hin|Hin].
      + rewrite (f_in _ _ _ F a Hin). split; [by intros [? ?]|]. intros [[_ Hn]|[_ ?]]; [|done]. destruct Hn. auto.
      + rewrite (f_fr _ _ _ F a Hin). destruct (decide (a ∈ fp)) as [Hfp|Hfp]; [|naive_solver].
        split; [by right|]. intros _. by apply Hh.
    - by eapply freed_wf.
  Qed.
  Lemma freed_view h h' xs a : freed h h' xs -> a ∉ xs -> nx h' a = nx h a /\ pv h' a = pv h a /\ dt h' a = dt h a.
  Proof. intros F Ha. by apply has_eq, F. Qed.

  Lemma destroy_run_ok al q ns : forall fuel h n,
    fw h al ns q -> NoDup (ads ns ++ [q]) -> (length ns < fuel)%nat ->
    exists h', destroy_run fuel al (PAddr (startp ns q)) (PAddr q) n h = Ok (n + nlen ns, h') /\
      freed h h' (ads ns).
  Proof.
    induction ns as [|[a v] ns IH]; intros fuel h n Hf Hnd Hfuel; (destruct fuel as [|fuel]; [simpl in Hfuel; lia|]).
    { exists h. split; [|apply freed_refl]. cbn [destroy_run startp length].
      rewrite decide_True by done. unfold ret. do 2 f_equal. lia. }
    destruct Hf as (Hv & Hn & Hf). rewrite ads_cons in Hnd. apply NoDup_cons in Hnd as [Ha Hnd].
    destruct (IH fuel (fr h a) (n + 1)) as (h' & E & F).
    { eapply fw_frame; [|exact Hf]. intros b Hb. assert (b <> a) by (intros ->; apply Ha, elem_of_app; by left).
      by rewrite nx_fr, dt_fr. }
    { done. } { simpl in Hfuel. lia. }
    exists h'. split.
    - cbn [destroy_run startp]. rewrite decide_False.
      2:{ intros [= ->]. apply Ha, elem_of_app. right. by left. }
      rewrite (bind_ok _ _ _ _ _ (get_next_ok h a _ Hn ltac:(done))).
      rewrite (bind_ok _ _ _ _ _ (destroy_node_ok h al a v Hv)). rewrite E. do 2 f_equal. cbn [length]. lia.
    - rewrite ads_cons. change (a :: ads ns) with ([a] ++ ads ns). eapply freed_trans; [apply freed_one|done].
  Qed.
End Ops.
