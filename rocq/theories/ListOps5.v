(** * ListOps5: reversing, splicing, consuming *)
From Verif Require Import Base World IterSpec ListModel ListSeg ListOps ListOps2 ListOps3 ListOps4.
Local Open Scope N_scope.

Section Ops5.
  Context {T : Type} (dbl : bool).
  Notation H := (heap (cell T)).
  Notation sn := (sn dbl).
  Notation lok := (lok dbl).
  Notation lpre := (lpre dbl).
  Notation seg := (seg dbl).
  Notation oseg := (oseg dbl).
  Notation cseg := (cseg dbl).
  Notation link := (link dbl).
  Notation grow := (grow dbl).
  Notation became := (became dbl).
  Implicit Types (h : H) (a p q : N) (ns : list (N * T)).

  Lemma ads_reverse ns : ads (reverse ns) = reverse (ads ns).
  Proof. apply fmap_reverse. Qed.
  Lemma vls_reverse ns : vls (reverse ns) = reverse (vls ns).
  Proof. apply fmap_reverse. Qed.

  Lemma nd_perm (l l' : list N) : l ≡ₚ l' -> NoDup l -> NoDup l'.
  Proof. by intros ->. Qed.

  (** ** reverse of a forward list *)
  Lemma fw_cseg h al ns q : dbl = false -> fw h al ns q -> cseg h al ns q.
  Proof.
    intros Hd. induction ns as [|[a v] ns IH]; [done|]. intros (Hv & Hn & Hf).
    split; [done|]. apply seg_cseg. split; [|auto]. split; [done|]. by rewrite Hd.
  Qed.
  Lemma rev_fwd_loop_ok al tl ms : dbl = false -> forall fuel h ds,
    fw h al ms tl -> fw h al ds tl -> NoDup (ads ms ++ ads ds ++ [tl]) -> (length ms < fuel)%nat ->
    exists h', rev_fwd_loop dbl fuel (PAddr (startp ms tl)) (PAddr (startp ds tl)) (PAddr tl) h =
        Ok (PAddr (startp (reverse ms ++ ds) tl), h') /\
      fw h' al (reverse ms ++ ds) tl /\ hnext h' = hnext h /\ (forall a, has h' a <-> has h a) /\
      (forall a, a ∉ ads ms -> hmap h' !! a = hmap h !! a) /\
      (forall a, dt h' a = dt h a).
  Proof.
    intros Hd. induction ms as [|[a v] ms IH]; intros fuel h ds Hm Hds Hnd Hf; (destruct fuel as [|fuel]; [lia|]);
      simpl in Hf; cbn [rev_fwd_loop startp].
    { exists h. rewrite decide_True by done. done. }
    destruct Hm as (Hv & Hn & Hm). rewrite ads_cons in Hnd. cbn [app] in Hnd. apply NoDup_cons in Hnd as [Ha Hnd].
    rewrite decide_False. 2:{ intros [= ->]. apply Ha. set_solver. }
    assert (Hha : has h a) by by eapply node_has.
    set (h1 := upn h a (PAddr (startp ds tl))).
    assert (E1 : set_next dbl (PAddr a) (PAddr (startp ds tl)) h = Ok (tt, h1)).
    { unfold set_next. rewrite (bind_ok _ _ _ _ _ (put_next_ok h a _ Hha)). by rewrite Hd. }
    destruct (IH fuel h1 ((a, v) :: ds)) as (h' & E & F & Hx & Hh & Hfr & Hdt).
    { eapply fw_frame; [|exact Hm]. intros b Hb. unfold h1. rewrite nx_upn, dt_upn by done.
      rewrite decide_False; [done|]. intros ->. apply Ha. set_solver. }
    { split; [unfold node, h1; by rewrite dt_upn|]. split.
      - unfold h1. rewrite nx_upn by done. by rewrite decide_True.
      - eapply fw_frame; [|exact Hds]. intros b Hb. unfold h1. rewrite nx_upn, dt_upn by done.
        rewrite decide_False; [done|]. intros ->. apply Ha. set_solver. }
    { rewrite ads_cons. eapply nd_perm; [|apply NoDup_cons; split; [exact Ha|exact Hnd]].
      cbn [app]. by rewrite Permutation_middle. }
    { lia. }
    exists h'. rewrite reverse_cons, <-app_assoc. cbn [app].
    rewrite (bind_ok _ _ _ _ _ (get_next_ok h a _ Hn ltac:(done))). rewrite (bind_ok _ _ _ _ _ E1).
    split; [exact E|]. split; [done|]. split; [by rewrite Hx|]. split; [|split].
    - intros b. rewrite Hh. apply has_upn.
    - intros b Hb. rewrite ads_cons in Hb. apply not_elem_of_cons in Hb as [Hb1 Hb2]. rewrite Hfr by done.
      unfold h1. simpl. by rewrite lookup_alter_ne.
    - intros b. rewrite Hdt. apply dt_upn.
  Qed.
  Lemma rev_fwd_ok h al hd ns tl : dbl = false -> hwf h -> lok h al hd ns tl ->
    exists h', rev_fwd dbl (L al hd tl ns) h = Ok (L al hd tl (reverse ns), h') /\
      became h h' al hd tl ns (reverse ns).
  Proof.
    intros Hd Hw Lk. unfold rev_fwd. cbn [l_len l_head l_tail L].
    destruct (N.ltb_spec (nlen ns) 2) as [E|E].
    { exists h. assert (reverse ns = ns) as -> by (by destruct ns as [|x [|? ?]]; simpl in E; [| |lia]).
      split; [done|by apply became_refl]. }
    destruct (lok_fw dbl _ _ _ _ _ Lk) as [Hf Hn]. destruct (lok_nd2 dbl _ _ _ _ _ Lk) as [Hnd Hhd].
    destruct (rev_fwd_loop_ok al tl ns Hd (S (size (hmap h))) h []) as (h1 & E1 & F & Hx & Hh & Hfr & Hdt).
    { done. } { done. } { done. } { pose proof (lok_fuel dbl _ _ _ _ _ Lk). lia. }
    rewrite app_nil_r in E1, F.
    assert (Htl : tl ∉ ads ns).
    { intros Hin. apply NoDup_app in Hnd as (_ & Hnd & _). apply (Hnd tl Hin). by left. }
    assert (Lp : lpre h1 al hd [] (reverse ns) tl).
    { split.
      - cbn [app]. rewrite ads_reverse. eapply nd_perm; [|apply Lk]. by rewrite reverse_Permutation.
      - unfold virt. rewrite Hdt. apply Lk.
      - unfold virt. rewrite Hdt. apply Lk.
      - done.
      - by apply fw_cseg.
      - destruct (has_eq h h1 tl (Hfr tl Htl)) as (-> & _ & _). apply Lk.
      - by rewrite Hd. }
    assert (Hw1 : hwf h1). { intros a Ha. rewrite Hx. apply Hw. by apply Hh. }
    assert (Heq : forall a, a ∈ lfp hd (reverse ns) tl <-> a ∈ lfp hd ns tl).
    { intros a. unfold lfp. rewrite ads_reverse, !elem_of_cons, !elem_of_app, elem_of_reverse. done. }
    exists (sn h1 hd (startp (reverse ns) tl)). split; [|split].
    - rewrite (bind_ok _ _ _ _ _ (next_at dbl h al hd [] ns tl Lk)). rewrite (bind_ok _ _ _ _ _ (fuel_ok h)).
      cbn [startp] in E1. rewrite (bind_ok _ _ _ _ _ E1).
      assert (E2 : set_next dbl (PAddr hd) (PAddr (startp (reverse ns) tl)) h1 = Ok (tt, sn h1 hd (startp (reverse ns) tl))).
      { apply set_next_ok; (eapply lpre_has; [exact Lp|]); [apply hd_in|apply start_in]. }
      rewrite (bind_ok _ _ _ _ _ E2). unfold ret, L. do 3 f_equal. by rewrite reverse_length.
    - apply (lpre_close dbl _ _ _ [] _ _ Lp).
    - assert (U1 : upd h h1 (lfp hd ns tl) (lfp hd (reverse ns) tl)).
      { split.
        - by rewrite Hx.
        - intros a _ Ha. apply Hfr. intros Hin. apply Ha. unfold lfp. set_solver.
        - intros a Ha. left. by apply Heq.
        - intros a. change (has h1 a <-> has h a /\ a ∉ lfp hd ns tl \/ a ∈ lfp hd (reverse ns) tl).
          rewrite Hh, Heq. split; [destruct (decide (a ∈ lfp hd ns tl)); auto|].
          intros [[? _]|Ha]; [done|]. by eapply lok_has.
        - done. }
      eapply upd_trans; [done|exact U1|]. apply (lpre_upd dbl _ al hd [] (reverse ns) tl); [done|done| |done].
      intros a Ha. by eapply lpre_has.
  Qed.

  (** ** reverse of a doubly linked list *)
  Definition ptr (xs : list N) : lptr := match xs with [] => PNull | x :: _ => PAddr x end.
  Fixpoint chain h (xs : list N) : Prop :=
    match xs with
    | [] => True
    | x :: r => nx h x = Some (ptr r) /\ (exists q : lptr, pv h x = Some q /\ q <> PUndef) /\ chain h r
    end.
  Record swapped h h' (xs : list N) : Prop := Swapped {
    s_next : hnext h' = hnext h;
    s_has : forall a, has h' a <-> has h a;
    s_fr : forall a, a ∉ xs -> hmap h' !! a = hmap h !! a;
    s_nx : forall a, a ∈ xs -> nx h' a = pv h a;
    s_pv : forall a, a ∈ xs -> pv h' a = nx h a;
    s_dt : forall a, dt h' a = dt h a;
  }.
  Lemma chain_frame h h' xs : (forall a, a ∈ xs -> nx h' a = nx h a /\ pv h' a = pv h a) -> chain h xs -> chain h' xs.
  Proof.
    induction xs as [|x xs IH]; intros Hf; [done|]. intros (Hn & Hp & Hc).
    destruct (Hf x ltac:(by left)) as [E1 E2]. split; [by rewrite E1|]. split; [by rewrite E2|].
    apply IH; [|done]. intros a Ha. apply Hf. by right.
  Qed.
  Lemma rev_dbl_loop_ok xs : forall fuel h, chain h xs -> NoDup xs -> (length xs < fuel)%nat ->
    exists h', rev_dbl_loop fuel (ptr xs) (ptr (tail xs)) h = Ok (tt, h') /\ swapped h h' xs.
  Proof.
    induction xs as [|x xs IH]; intros fuel h Hc Hnd Hf; (destruct fuel as [|fuel]; [lia|]); simpl in Hf;
      cbn [rev_dbl_loop ptr tail].
    { exists h. rewrite decide_True by done. split; [done|]. split; try done; by intros a ?%elem_of_nil. }
    destruct Hc as (Hn & (q & Hp & Hq) & Hc). apply NoDup_cons in Hnd as [Hx Hnd].
    rewrite decide_False by done. assert (Hhx : has h x) by by eapply has_nx.
    set (h1 := upp (upn h x q) x (ptr xs)).
    assert (E1 : swap_links (PAddr x) h = Ok (tt, h1)).
    { unfold swap_links. rewrite (bind_ok _ _ _ _ _ (get_next_ok h x _ Hn ltac:(by destruct xs))).
      rewrite (bind_ok _ _ _ _ _ (get_prev_ok h x _ Hp Hq)).
      rewrite (bind_ok _ _ _ _ _ (put_next_ok h x _ Hhx)). apply put_prev_ok. by apply has_upn. }
    assert (Hview : forall b, b <> x -> nx h1 b = nx h b /\ pv h1 b = pv h b).
    { intros b Hb. unfold h1. rewrite nx_upp, nx_upn, pv_upp, pv_upn by (by rewrite ?has_upn).
      by rewrite !decide_False. }
    assert (Hc1 : chain h1 xs).
    { eapply chain_frame; [|exact Hc]. intros b Hb. apply Hview. by intros ->. }
    assert (E2 : (if decide (ptr xs = PNull) then ret (ptr xs) else get_next (ptr xs)) h1 = Ok (ptr (tail xs), h1)).
    { destruct xs as [|y xs]; [done|]. cbn [ptr tail]. rewrite decide_False by done.
      destruct Hc1 as (Hn1 & _). apply get_next_ok; [done|by destruct xs]. }
    destruct (IH fuel h1 Hc1 Hnd ltac:(lia)) as (h' & E & S). exists h'.
    rewrite (bind_ok _ _ _ _ _ E1). rewrite (bind_ok _ _ _ _ _ E2). split; [done|].
    destruct S as [S1 S2 S3 S4 S5 S6]. split.
    - by rewrite S1.
    - intros a. rewrite S2. unfold h1. by rewrite has_upp, has_upn.
    - intros a [Ha1 Ha2]%not_elem_of_cons. rewrite S3 by done. unfold h1. simpl. by rewrite !lookup_alter_ne.
    - intros a [->|Ha]%elem_of_cons.
      + destruct (has_eq h1 h' x (S3 x Hx)) as (-> & _ & _). unfold h1. rewrite nx_upp, nx_upn by done.
        by rewrite decide_True.
      + rewrite S4 by done. apply Hview. by intros ->.
    - intros a [->|Ha]%elem_of_cons.
      + destruct (has_eq h1 h' x (S3 x Hx)) as (_ & -> & _). unfold h1. rewrite pv_upp by by rewrite has_upn.
        by rewrite decide_True.
      + rewrite S5 by done. apply Hview. by intros ->.
    - intros a. rewrite S6. unfold h1. by rewrite dt_upp, dt_upn.
  Qed.
  Lemma seg_chain h al p ns q : dbl = true -> seg h al p ns q -> nx h q = Some PNull ->
    (exists r : lptr, pv h p = Some r /\ r <> PUndef) -> chain h (p :: ads ns ++ [q]).
  Proof.
    intros Hd. revert p. induction ns as [|[a v] ns IH]; intros p [Ho Hl] Hq Hp.
    { destruct Hl as [L1 L2]. split; [done|]. split; [done|]. split; [done|]. split; [|done].
      exists (PAddr p). split; [by apply L2|done]. }
    destruct Ho as ([L1 L2] & Hv & Ho). split; [done|]. split; [done|]. apply (IH a); [by split|done|].
    exists (PAddr p). split; [by apply L2|done].
  Qed.
  Lemma seg_rev h h' al p ns q : dbl = true ->
    (forall a, a ∈ p :: ads ns ++ [q] -> nx h' a = pv h a /\ pv h' a = nx h a) ->
    (forall a, dt h' a = dt h a) ->
    seg h al p ns q -> seg h' al q (reverse ns) p.
  Proof.
    intros Hd Hv Hdt. revert p Hv. induction ns as [|[a v] ns IH]; intros p Hv [Ho Hl].
    { split; [done|]. destruct Hl as [L1 L2]. destruct (Hv p) as [_ P1]; [by left|].
      destruct (Hv q) as [P2 _]; [by right; left|]. rewrite reverse_nil; cbn [endp]. split; [rewrite P2; auto|by rewrite P1]. }
    destruct Ho as ([L1 L2] & Hn & Ho). rewrite reverse_cons. apply seg_app.
    assert (IHs : seg h' al q (reverse ns) a).
    { apply IH; [|by split]. intros b Hb. apply Hv. by right. }
    destruct IHs as [I1 I2]. split; [done|]. split; [done|]. split; [unfold node in *; by rewrite Hdt|].
    split; [done|]. cbn [endp]. destruct (Hv p) as [_ P1]; [by left|].
    destruct (Hv a) as [P2 _]; [by right; left|]. split; [rewrite P2; auto|by rewrite P1].
  Qed.
  Lemma rev_dbl_ok h al hd ns tl : dbl = true -> hwf h -> lok h al hd ns tl ->
    exists h', rev_dbl (L al hd tl ns) h = Ok (L al tl hd (reverse ns), h') /\
      lok h' al tl (reverse ns) hd /\ upd h h' (lfp hd ns tl) (lfp tl (reverse ns) hd).
  Proof.
    intros Hd Hw Lk. unfold rev_dbl. cbn [l_head l_tail l_al L].
    destruct (rev_dbl_loop_ok (hd :: ads ns ++ [tl]) (S (size (hmap h))) h) as (h' & E & S).
    { eapply seg_chain; [done|apply Lk|apply Lk|]. exists PNull. split; [by apply Lk|done]. }
    { apply Lk. }
    { pose proof (lok_fuel dbl _ _ _ _ _ Lk). cbn [length]. rewrite app_length. unfold ads. rewrite fmap_length. simpl. lia. }
    assert (Heq : forall a, a ∈ lfp tl (reverse ns) hd <-> a ∈ lfp hd ns tl).
    { intros a. unfold lfp. rewrite ads_reverse, !elem_of_cons, !elem_of_app, elem_of_reverse, !elem_of_list_singleton. naive_solver. }
    exists h'. split; [|split].
    - rewrite (bind_ok _ _ _ _ _ (next_at dbl h al hd [] ns tl Lk)). rewrite (bind_ok _ _ _ _ _ (fuel_ok h)).
      cbn [ptr tail] in E. assert (ptr (ads ns ++ [tl]) = PAddr (startp ns tl)) as Ep by by destruct ns as [|[a v] ns].
      rewrite Ep in E. rewrite (bind_ok _ _ _ _ _ E). unfold ret, L. cbn [l_len]. by rewrite reverse_length.
    - split.
      + rewrite ads_reverse. eapply nd_perm; [|apply Lk].
        rewrite reverse_Permutation, (Permutation_app_comm (ads ns) [tl]), (Permutation_app_comm (ads ns) [hd]). apply perm_swap.
      + unfold virt. rewrite (s_dt _ _ _ S). apply Lk.
      + unfold virt. rewrite (s_dt _ _ _ S). apply Lk.
      + eapply seg_rev; [done| |apply S|apply Lk]. intros a Ha. by split; apply S.
      + rewrite (s_nx _ _ _ S); [|by left]. by apply Lk.
      + intros _. rewrite (s_pv _ _ _ S); [|apply tl_in]. apply Lk.
    - split.
      + by rewrite (s_next _ _ _ S).
      + intros a _ Ha. by apply S.
      + intros a Ha. left. by apply Heq.
      + intros a. change (has h' a <-> has h a /\ a ∉ lfp hd ns tl \/ a ∈ lfp tl (reverse ns) hd).
        rewrite (s_has _ _ _ S), Heq. split; [destruct (decide (a ∈ lfp hd ns tl)); auto|].
        intros [[? _]|Ha]; [done|]. by eapply lok_has.
      + intros a Ha. rewrite (s_next _ _ _ S). apply Hw. by apply (s_has _ _ _ S).
  Qed.
  Lemma reverse_ok h al hd ns tl : hwf h -> lok h al hd ns tl ->
    exists h' hd' tl', l_reverse dbl (L al hd tl ns) h = Ok (L al hd' tl' (reverse ns), h') /\
      lok h' al hd' (reverse ns) tl' /\ upd h h' (lfp hd ns tl) (lfp hd' (reverse ns) tl').
  Proof.
    intros Hw Lk. unfold l_reverse. pose proof (fun Hd => rev_dbl_ok h al hd ns tl Hd Hw Lk) as R1.
    pose proof (fun Hd => rev_fwd_ok h al hd ns tl Hd Hw Lk) as R2.
    destruct (bool_dec dbl true) as [Hd|Hd%not_true_is_false].
    - destruct (R1 Hd) as (h' & E & Lk' & U). exists h', tl, hd. split; [|done]. by rewrite Hd.
    - destruct (R2 Hd) as (h' & E & Lk' & U). exists h', hd, tl. split; [|done]. rewrite Hd in E |- *. exact E.
  Qed.

  (** ** Splicing *)
  Definition apart (f g : list N) : Prop := forall a, a ∈ f -> a ∈ g -> False.
  Lemma ads_in_lfp hd ns tl a : a ∈ ads ns -> a ∈ lfp hd ns tl.
  Proof. intros Ha. right. apply elem_of_app. by left. Qed.
  Lemma lpre_join h al hd n1 n2 tl ms hd2 tl2 :
    lpre h al hd n1 n2 tl -> lok h al hd2 ms tl2 -> ms <> [] ->
    apart (lfp hd (n1 ++ n2) tl) (lfp hd2 ms tl2) ->
    lpre (sn h (endp hd2 ms) (startp n2 tl)) al hd n1 (ms ++ n2) tl.
  Proof.
    intros Lp Lk Hms Hap.
    assert (Hi : endp hd2 ms ∈ ads ms) by by apply endp_in_ne.
    assert (Hx : has h (endp hd2 ms)) by (eapply lok_has; [exact Lk|by apply ads_in_lfp]).
    assert (Hy : has h (startp n2 tl)) by (eapply lpre_has; [exact Lp|apply start_in]).
    destruct (nd_split _ _ _ _ (lp_nd _ _ _ _ _ _ _ Lp)) as (N1 & N2 & N12).
    assert (Lp' : lpre (sn h (endp hd2 ms) (startp n2 tl)) al hd n1 n2 tl).
    { apply lpre_sn; [done|done| |done|done]. intros Hin. destruct (Hap _ Hin). by apply ads_in_lfp. }
    destruct (lok_nd2 dbl _ _ _ _ _ Lk) as [Nm _]. apply NoDup_app in Nm as (Nm & _ & _).
    assert (Hsn2 : startp n2 tl ∉ ads ms).
    { intros Hin. apply (Hap (startp n2 tl)); [apply start_in|by apply ads_in_lfp]. }
    split; try apply Lp'.
    - apply nd_join; [done| |].
      + rewrite ads_app, <-app_assoc. apply NoDup_app. split; [done|].
        split; [|done]. intros b Hb Hb2. apply (Hap b); [apply lfp_app; by right|by apply ads_in_lfp].
      + intros b Hb. rewrite ads_app, <-app_assoc. intros [Hb2|Hb2]%elem_of_app; [|by apply (N12 b)].
        apply (Hap b); [apply lfp_app; by left|by apply ads_in_lfp].
    - apply cseg_app. split; [|apply Lp'].
      destruct (lk_seg _ _ _ _ _ _ Lk) as [Ho _]. destruct ms as [|[a v] ms]; [done|].
      destruct Ho as (_ & Hv & Ho). split; [|split].
      + unfold node. by rewrite dt_sn.
      + apply oseg_sn; [done|done|done|done| |done]. intros Hin. apply Hsn2. by right.
      + by apply link_sn.
  Qed.
  Lemma splice_core h al hd n1 n2 tl ms hd2 tl2 :
    hwf h -> lok h al hd (n1 ++ n2) tl -> lok h al hd2 ms tl2 -> ms <> [] ->
    apart (lfp hd (n1 ++ n2) tl) (lfp hd2 ms tl2) ->
    let p := endp hd n1 in let q := startp n2 tl in let s := startp ms tl2 in let t := endp hd2 ms in
    let h2 := sn (sn h t q) p s in
    set_next dbl (PAddr t) (PAddr q) h = Ok (tt, sn h t q) /\
    set_next dbl (PAddr p) (PAddr s) (sn h t q) = Ok (tt, h2) /\
    set_next dbl (PAddr p) (PAddr s) h = Ok (tt, sn h p s) /\
    set_next dbl (PAddr t) (PAddr q) (sn h p s) = Ok (tt, h2) /\
    lok h2 al hd (n1 ++ ms ++ n2) tl /\ lpre h2 al hd2 [] [] tl2 /\ hwf h2 /\
    upd h h2 (lfp hd (n1 ++ n2) tl ++ lfp hd2 ms tl2) (lfp hd (n1 ++ n2) tl ++ lfp hd2 ms tl2).
  Proof.
    intros Hw Lk1 Lk2 Hms Hap p q s t h2.
    destruct (lok_has1 dbl _ _ _ _ _ _ Lk1) as [Hp Hq]. fold p q in Hp, Hq.
    assert (Ht : t ∈ ads ms) by by apply endp_in_ne.
    assert (Hs : s ∈ ads ms) by by apply startp_in_ne.
    assert (Hmf : forall a, a ∈ ads ms -> a ∈ lfp hd2 ms tl2) by (intros a; apply ads_in_lfp).
    assert (Hht : has h t) by (eapply lok_has; [exact Lk2|auto]).
    assert (Hhs : has h s) by (eapply lok_has; [exact Lk2|auto]).
    assert (Hp1 : p ∈ lfp hd (n1 ++ n2) tl) by apply end_in.
    assert (Hq1 : q ∈ lfp hd (n1 ++ n2) tl) by apply start_in.
    assert (Hpt : p <> t) by (intros He; apply (Hap p); [done|rewrite He; auto]).
    assert (Hqs : q <> s) by (intros He; apply (Hap q); [done|rewrite He; auto]).
    pose proof (lpre_join h al hd n1 n2 tl ms hd2 tl2 (lok_lpre _ _ _ _ _ _ _ Lk1) Lk2 Hms Hap) as Lp.
    fold t q in Lp.
    assert (Est : startp (ms ++ n2) tl = s).
    { unfold s. rewrite startp_app. by destruct ms as [|[a v] ms]. }
    assert (Lp2 : lpre h al hd2 [] [] tl2).
    { apply (lpre_drop_r dbl h al hd2 [] ms [] tl2). apply lok_lpre. by rewrite app_nil_r. }
    destruct (lok_nd2 dbl _ _ _ _ _ Lk2) as [Nm Nh].
    assert (Hdis : forall a, a ∈ lfp hd2 ([] : list (N * T)) tl2 -> a ∉ ads ms /\ a ∈ lfp hd2 ms tl2).
    { intros a [->|Ha]%elem_of_cons; [split; [set_solver|by left]|].
      simpl in Ha. apply elem_of_list_singleton in Ha as ->. split; [|apply tl_in].
      apply NoDup_app in Nm as (_ & Nm & _). intros Hin. apply (Nm _ Hin). by left. }
    assert (Hfp : forall a, a ∈ lfp hd (n1 ++ n2) tl ++ lfp hd2 ms tl2 -> has h a).
    { intros a [Ha|Ha]%elem_of_app; [exact (lok_has _ _ _ _ _ _ a Lk1 Ha)|exact (lok_has _ _ _ _ _ _ a Lk2 Ha)]. }
    split; [by apply set_next_ok|]. split; [apply set_next_ok; by apply has_sn|].
    split; [by apply set_next_ok|].
    split. { unfold h2. rewrite sn_comm by done. apply set_next_ok; by apply has_sn. }
    split; [|split; [|split]].
    - unfold h2. rewrite <-Est. by apply lpre_close.
    - unfold h2. apply lpre_sn; [by apply has_sn|by apply has_sn| | |].
      + intros Hin. destruct (Hap p); [done|]. by apply Hdis.
      + intros Hin. destruct (Hdis s Hin) as [Hn _]. done.
      + apply lpre_sn; [done|done| | |done].
        * intros Hin. destruct (Hdis t Hin) as [Hn _]. done.
        * intros Hin. destruct (Hap q); [done|]. by apply Hdis.
    - by apply hwf_sn, hwf_sn.
    - eapply upd_trans; [done| |].
      + apply (upd_sn dbl h t q); [done|done| |]; apply elem_of_app; [right; by apply Hmf|by left].
      + apply upd_sn; [by apply hwf_sn| | |].
        * intros a Ha. apply has_sn. auto.
        * apply elem_of_app. by left.
        * apply elem_of_app. right. by apply Hmf.
  Qed.
  Lemma real_tail_ok h al hd ns tl : lok h al hd ns tl ->
    real_tail dbl (L al hd tl ns) h = Ok (PAddr (endp hd ns), h).
  Proof.
    intros Lk. unfold real_tail. cbn [l_tail l_head L]. pose proof (fun Hd => last_of dbl _ _ _ _ _ Hd Lk) as P1.
    assert (P2 : forall n2 n1 fuel, lok h al hd (n1 ++ n2) tl -> (length n2 < fuel)%nat ->
      real_tail_loop fuel (PAddr (endp hd n1)) (PAddr tl) h = Ok (PAddr (endp hd (n1 ++ n2)), h)).
    { clear. induction n2 as [|[a v] n2 IH]; intros n1 fuel Lk Hf; (destruct fuel as [|fuel]; [lia|]); simpl in Hf;
        cbn [real_tail_loop]; rewrite (bind_ok _ _ _ _ _ (next_at dbl _ _ _ _ _ _ Lk)); cbn [startp].
      - rewrite decide_True by done. by rewrite app_nil_r.
      - rewrite decide_False by by eapply ne_tl. rewrite cons_middle, app_assoc in Lk.
        pose proof (IH _ fuel Lk ltac:(lia)) as E. rewrite endp_app in E. cbn [endp] in E. rewrite E.
        by rewrite <-app_assoc. }
    pose proof (P2 ns [] (S (size (hmap h))) Lk) as P3.
    destruct (bool_dec dbl true) as [Hd|Hd%not_true_is_false].
    - pose proof (P1 Hd) as E. by rewrite Hd.
    - rewrite Hd. rewrite (bind_ok _ _ _ _ _ (fuel_ok h)). apply P3.
      pose proof (lok_fuel dbl _ _ _ _ _ Lk). lia.
  Qed.
  Lemma lfp_mid hd (n1 n2 : list (N * T)) tl ms hd2 tl2 : forall a,
    a ∈ lfp hd (n1 ++ n2) tl ++ lfp hd2 ms tl2 <->
    a ∈ lfp hd (n1 ++ ms ++ n2) tl ++ lfp hd2 ([] : list (N * T)) tl2.
  Proof.
    intros a. unfold lfp. rewrite !ads_app. cbn [ads fmap list_fmap app].
    repeat (rewrite elem_of_app || rewrite elem_of_cons). rewrite !elem_of_nil. naive_solver.
  Qed.
  Lemma L_splice al hd tl n1 n2 ms hd2 tl2 : nlen (n1 ++ n2) + nlen ms < W ->
    set_len (L (T := T) al hd tl (n1 ++ n2)) (uadd (l_len (L al hd tl (n1 ++ n2))) (l_len (L al hd2 tl2 ms))) =
    L al hd tl (n1 ++ ms ++ n2).
  Proof.
    intros Hlen. unfold set_len, L. cbn [l_head l_tail l_len l_al]. rewrite uadd_small by done.
    f_equal. rewrite !app_length. lia.
  Qed.
  (** Both lists afterwards: the first has the nodes of the second. *)
  Definition spliced h h' al hd n1 n2 tl hd2 ms tl2 : Prop :=
    lok h' al hd (n1 ++ ms ++ n2) tl /\ lok h' al hd2 [] tl2 /\
    upd h h' (lfp hd (n1 ++ n2) tl ++ lfp hd2 ms tl2) (lfp hd (n1 ++ ms ++ n2) tl ++ lfp hd2 ([] : list (N * T)) tl2).
  Definition spliced_rv h h' al hd n1 n2 tl hd2 ms tl2 : Prop :=
    lok h' al hd (n1 ++ ms ++ n2) tl /\
    upd h h' (lfp hd (n1 ++ n2) tl ++ lfp hd2 ms tl2) (lfp hd (n1 ++ ms ++ n2) tl ++ []).
  Lemma splice_end h2 h al hd n1 n2 tl hd2 ms tl2 : hwf h -> hwf h2 ->
    lok h2 al hd (n1 ++ ms ++ n2) tl -> lpre h2 al hd2 [] [] tl2 ->
    apart (lfp hd (n1 ++ ms ++ n2) tl) (lfp hd2 ([] : list (N * T)) tl2) ->
    upd h h2 (lfp hd (n1 ++ n2) tl ++ lfp hd2 ms tl2) (lfp hd (n1 ++ n2) tl ++ lfp hd2 ms tl2) ->
    let h3 := sn h2 hd2 tl2 in
    set_next dbl (PAddr hd2) (PAddr tl2) h2 = Ok (tt, h3) /\ spliced h h3 al hd n1 n2 tl hd2 ms tl2.
  Proof.
    intros Hw Hw2 Lk Lp Hap U h3.
    assert (Hh : has h2 hd2) by (eapply lpre_has; [exact Lp|by left]).
    assert (Ht : has h2 tl2) by (eapply lpre_has; [exact Lp|apply tl_in]).
    split; [by apply set_next_ok|]. split; [|split].
    - eapply lok_frame; [|exact Lk]. intros a Ha. apply hmap_sn; intros ->; (eapply Hap; [exact Ha|]); [by left|apply tl_in].
    - apply (lpre_close dbl _ _ _ [] [] _ Lp).
    - eapply upd_trans; [done|eapply upd_equiv; [done|apply lfp_mid|exact U]|].
      apply upd_sn; [done| | |].
      + intros a [Ha|Ha]%elem_of_app; [by eapply lok_has|by eapply lpre_has].
      + apply elem_of_app. right. by left.
      + apply elem_of_app. right. apply tl_in.
  Qed.
  Lemma splice_end_rv h2 h al hd n1 n2 tl hd2 ms tl2 : hwf h -> hwf h2 ->
    lok h2 al hd (n1 ++ ms ++ n2) tl -> lpre h2 al hd2 [] [] tl2 ->
    apart (lfp hd (n1 ++ ms ++ n2) tl) (lfp hd2 ([] : list (N * T)) tl2) ->
    upd h h2 (lfp hd (n1 ++ n2) tl ++ lfp hd2 ms tl2) (lfp hd (n1 ++ n2) tl ++ lfp hd2 ms tl2) ->
    let h3 := fr h2 hd2 in let h4 := fr h3 tl2 in
    destroy_node al (PAddr hd2) h2 = Ok (tt, h3) /\ destroy_node al (PAddr tl2) h3 = Ok (tt, h4) /\
    spliced_rv h h4 al hd n1 n2 tl hd2 ms tl2.
  Proof.
    intros Hw Hw2 Lk Lp Hap U h3 h4.
    assert (Hne : tl2 <> hd2).
    { intros He. pose proof (lp_nd _ _ _ _ _ _ _ Lp) as Hnd. apply NoDup_cons in Hnd as [Hnd _]. apply Hnd. rewrite He. by left. }
    assert (Hin1 : hd2 ∈ lfp hd2 ([] : list (N * T)) tl2) by by left.
    assert (Hin2 : tl2 ∈ lfp hd2 ([] : list (N * T)) tl2) by apply tl_in.
    assert (V2 : virt h3 al tl2) by (unfold virt, h3; rewrite dt_fr by done; apply Lp).
    split; [by apply destroy_virt_ok, Lp|]. split; [by apply destroy_virt_ok|].
    assert (Hd1 : forall a, a ∈ lfp hd (n1 ++ ms ++ n2) tl -> a <> hd2 /\ a <> tl2).
    { intros a Ha. split; intros ->; by eapply Hap. }
    split.
    - eapply lok_frame; [|exact Lk]. intros a Ha. destruct (Hd1 a Ha) as [? ?].
      unfold h4, h3. simpl. by rewrite !lookup_delete_ne.
    - eapply upd_trans; [done|eapply upd_equiv; [done|apply lfp_mid|exact U]|].
      assert (Hh2 : forall a, a ∈ lfp hd (n1 ++ ms ++ n2) tl ++ lfp hd2 ([] : list (N * T)) tl2 -> has h2 a).
      { intros a [Ha|Ha]%elem_of_app; [by eapply lok_has|by eapply lpre_has]. }
      eapply upd_trans; [done| |].
      + apply (upd_fr h2 hd2 _ (lfp hd (n1 ++ ms ++ n2) tl ++ [tl2])); [done|done|apply elem_of_app; by right|].
        intros a. change (lfp hd2 ([] : list (N * T)) tl2) with [hd2; tl2]. generalize (Hd1 a).
        rewrite !elem_of_app, !elem_of_cons, elem_of_nil. clear Hd1. intros Hd1. split.
        * intros [Ha|[->|Ha]]; [|by split; [right; right; left|]|done]. destruct (Hd1 Ha). by split; [left|].
        * intros [[Ha|[->|[->|Ha]]] ?]; [by left|done|by right; left|done].
      + apply upd_fr; [by apply hwf_fr| |apply elem_of_app; right; by left|].
        * intros a Ha. apply has_fr. split.
          -- apply elem_of_app in Ha as [Ha|Ha]; [by apply Hd1|]. by apply elem_of_list_singleton in Ha as ->.
          -- apply Hh2. apply elem_of_app. apply elem_of_app in Ha as [Ha|Ha]; [by left|right].
             apply elem_of_list_singleton in Ha as ->. done.
        * intros a. rewrite !elem_of_app, elem_of_list_singleton, elem_of_nil. split.
          -- intros [Ha|[]]. destruct (Hd1 a Ha). by split; [left|].
          -- intros [[Ha|Ha] ?]; [by left|done].
  Qed.
  Lemma apart_mid hd (n1 n2 : list (N * T)) tl hd2 ms tl2 : NoDup (hd2 :: ads ms ++ [tl2]) ->
    apart (lfp hd (n1 ++ n2) tl) (lfp hd2 ms tl2) ->
    apart (lfp hd (n1 ++ ms ++ n2) tl) (lfp hd2 ([] : list (N * T)) tl2).
  Proof.
    intros Hnd Hap a Ha Hb.
    assert (Hb2 : a ∈ lfp hd2 ms tl2 /\ a ∉ ads ms).
    { apply NoDup_cons in Hnd as [Nh Nm]. apply elem_of_cons in Hb as [->|Hb]; [split; [by left|intros Hin; apply Nh; apply elem_of_app; by left]|].
      simpl in Hb. apply elem_of_list_singleton in Hb as ->. split; [apply tl_in|].
      apply NoDup_app in Nm as (_ & Nm & _). intros Hin. apply (Nm _ Hin). by left. }
    destruct Hb2 as [Hb2 Hb3]. apply (Hap a); [|done]. revert Ha Hb3. unfold lfp. rewrite !ads_app.
    rewrite !elem_of_cons, !elem_of_app. naive_solver.
  Qed.
  Lemma splice_after_ok h al hd n1 n2 tl ms hd2 tl2 :
    hwf h -> lok h al hd (n1 ++ n2) tl -> lok h al hd2 ms tl2 -> ms <> [] ->
    apart (lfp hd (n1 ++ n2) tl) (lfp hd2 ms tl2) -> nlen (n1 ++ n2) + nlen ms < W ->
    (exists h', l_splice_after dbl (L al hd tl (n1 ++ n2)) (PAddr (endp hd n1)) (L al hd2 tl2 ms) h =
        Ok ((L al hd tl (n1 ++ ms ++ n2), L (T := T) al hd2 tl2 []), h') /\
        spliced h h' al hd n1 n2 tl hd2 ms tl2) /\
    (exists h', l_splice_after_rv dbl (L al hd tl (n1 ++ n2)) (PAddr (endp hd n1)) (L al hd2 tl2 ms) h =
        Ok ((L al hd tl (n1 ++ ms ++ n2), moved_from (L al hd2 tl2 ms)), h') /\
        spliced_rv h h' al hd n1 n2 tl hd2 ms tl2).
  Proof.
    intros Hw Lk1 Lk2 Hms Hap Hlen.
    destruct (splice_core h al hd n1 n2 tl ms hd2 tl2 Hw Lk1 Lk2 Hms Hap) as (E1 & E2 & E3 & E4 & Lk & Lp & Hw2 & U).
    pose proof (apart_mid _ _ _ _ _ _ _ (lk_nd _ _ _ _ _ _ Lk2) Hap) as Hap2. split.
    - destruct (splice_end _ h al hd n1 n2 tl hd2 ms tl2 Hw Hw2 Lk Lp Hap2 U) as [E5 S].
      eexists. split; [|exact S]. unfold l_splice_after. cbn [l_head l_tail].
      rewrite (bind_ok _ _ _ _ _ (next_at dbl h al hd2 [] ms tl2 Lk2)).
      rewrite (bind_ok _ _ _ _ _ (real_tail_ok _ _ _ _ _ Lk2)).
      rewrite (bind_ok _ _ _ _ _ (next_at dbl _ _ _ _ _ _ Lk1)).
      rewrite (bind_ok _ _ _ _ _ E1). rewrite (bind_ok _ _ _ _ _ E2).
      rewrite (bind_ok _ _ _ _ _ (E5 : set_next dbl (l_head (L al hd2 tl2 ms)) (l_tail (L al hd2 tl2 ms)) _ = _)).
      by rewrite L_splice.
    - destruct (splice_end_rv _ h al hd n1 n2 tl hd2 ms tl2 Hw Hw2 Lk Lp Hap2 U) as (E5 & E6 & S).
      eexists. split; [|exact S]. unfold l_splice_after_rv.
      rewrite (bind_ok _ _ _ _ _ (next_at dbl h al hd2 [] ms tl2 Lk2)).
      rewrite (bind_ok _ _ _ _ _ (real_tail_ok _ _ _ _ _ Lk2)).
      rewrite (bind_ok _ _ _ _ _ (next_at dbl _ _ _ _ _ _ Lk1)).
      rewrite (bind_ok _ _ _ _ _ E1). rewrite (bind_ok _ _ _ _ _ E2).
      rewrite (bind_ok _ _ _ _ _ (E5 : destroy_node (l_al (L al hd2 tl2 ms)) (l_head (L al hd2 tl2 ms)) _ = _)).
      rewrite (bind_ok _ _ _ _ _ (E6 : destroy_node (l_al (L al hd2 tl2 ms)) (l_tail (L al hd2 tl2 ms)) _ = _)).
      by rewrite L_splice.
  Qed.
  Lemma splice_ok h al hd n1 n2 tl ms hd2 tl2 : dbl = true ->
    hwf h -> lok h al hd (n1 ++ n2) tl -> lok h al hd2 ms tl2 -> ms <> [] ->
    apart (lfp hd (n1 ++ n2) tl) (lfp hd2 ms tl2) -> nlen (n1 ++ n2) + nlen ms < W ->
    (exists h', l_splice dbl (L al hd tl (n1 ++ n2)) (PAddr (startp n2 tl)) (L al hd2 tl2 ms) h =
        Ok ((L al hd tl (n1 ++ ms ++ n2), L (T := T) al hd2 tl2 []), h') /\
        spliced h h' al hd n1 n2 tl hd2 ms tl2) /\
    (exists h', l_splice_rv dbl (L al hd tl (n1 ++ n2)) (PAddr (startp n2 tl)) (L al hd2 tl2 ms) h =
        Ok ((L al hd tl (n1 ++ ms ++ n2), moved_from (L al hd2 tl2 ms)), h') /\
        spliced_rv h h' al hd n1 n2 tl hd2 ms tl2).
  Proof.
    intros Hd Hw Lk1 Lk2 Hms Hap Hlen.
    destruct (splice_core h al hd n1 n2 tl ms hd2 tl2 Hw Lk1 Lk2 Hms Hap) as (E1 & E2 & E3 & E4 & Lk & Lp & Hw2 & U).
    pose proof (apart_mid _ _ _ _ _ _ _ (lk_nd _ _ _ _ _ _ Lk2) Hap) as Hap2. split.
    - destruct (splice_end _ h al hd n1 n2 tl hd2 ms tl2 Hw Hw2 Lk Lp Hap2 U) as [E5 S].
      eexists. split; [|exact S]. unfold l_splice. cbn [l_head l_tail].
      rewrite (bind_ok _ _ _ _ _ (next_at dbl h al hd2 [] ms tl2 Lk2)).
      rewrite (bind_ok _ _ _ _ _ (real_tail_ok _ _ _ _ _ Lk2)).
      rewrite (bind_ok _ _ _ _ _ (prev_at dbl _ _ _ _ _ _ Hd Lk1)).
      rewrite (bind_ok _ _ _ _ _ E3). rewrite (bind_ok _ _ _ _ _ E4).
      rewrite (bind_ok _ _ _ _ _ (E5 : set_next dbl (l_head (L al hd2 tl2 ms)) (l_tail (L al hd2 tl2 ms)) _ = _)).
      by rewrite L_splice.
    - destruct (splice_end_rv _ h al hd n1 n2 tl hd2 ms tl2 Hw Hw2 Lk Lp Hap2 U) as (E5 & E6 & S).
      eexists. split; [|exact S]. unfold l_splice_rv.
      rewrite (bind_ok _ _ _ _ _ (next_at dbl h al hd2 [] ms tl2 Lk2)).
      rewrite (bind_ok _ _ _ _ _ (real_tail_ok _ _ _ _ _ Lk2)).
      rewrite (bind_ok _ _ _ _ _ (prev_at dbl _ _ _ _ _ _ Hd Lk1)).
      rewrite (bind_ok _ _ _ _ _ E3). rewrite (bind_ok _ _ _ _ _ E4).
      rewrite (bind_ok _ _ _ _ _ (E5 : destroy_node (l_al (L al hd2 tl2 ms)) (l_head (L al hd2 tl2 ms)) _ = _)).
      rewrite (bind_ok _ _ _ _ _ (E6 : destroy_node (l_al (L al hd2 tl2 ms)) (l_tail (L al hd2 tl2 ms)) _ = _)).
      by rewrite L_splice.
  Qed.

  (** ** Consuming *)
  Lemma into_run_ok al hd tl calls : forall h ns, hwf h -> lok h al hd ns tl -> nlen ns < W ->
    (dbl = true \/ Forall (fun c => c = true) calls) ->
    exists h' ns', into_run dbl (L al hd tl ns) calls h = Ok ((L al hd tl ns', ends_run (vls ns) calls), h') /\
      vls ns' = ends_left (vls ns) calls /\ became h h' al hd tl ns ns'.
  Proof.
    induction calls as [|c calls IH]; intros h ns Hw Lk Hlen Hc.
    { exists h, ns. split; [done|]. split; [done|by apply became_refl]. }
    assert (Hc' : dbl = true \/ Forall (fun c => c = true) calls).
    { destruct Hc as [|Hc]; [by left|right; by inversion Hc]. }
    cbn [into_run ends_run ends_left]. destruct c.
    - unfold into_next. cbn [l_len L]. destruct ns as [|[a v] ns].
      + destruct (IH h [] Hw Lk Hlen Hc') as (h' & ns' & E & Hv & B). exists h', ns'.
        cbn [length N.eqb N.of_nat]. rewrite bind_ret. by rewrite (bind_ok _ _ _ _ _ E).
      + destruct (N.eqb_spec (nlen ((a, v) :: ns)) 0) as [E0|_]; [done|].
        destruct (pop_front_ok dbl _ _ _ _ _ _ _ Hw Lk Hlen) as (h1 & E1 & B1).
        destruct (IH h1 ns (became_wf _ _ _ _ _ _ _ _ B1) (proj1 B1)) as (h' & ns' & E & Hv & B);
          [cbn [length] in Hlen; lia|done|]. exists h', ns'.
        rewrite bind_bind. rewrite (bind_ok _ _ _ _ _ (front_ok dbl _ _ _ _ _ Lk)). rewrite bind_bind.
        rewrite (bind_ok _ _ _ _ _ E1). rewrite bind_ret. rewrite (bind_ok _ _ _ _ _ E).
        split; [done|]. split; [done|]. by eapply became_trans.
    - assert (Hd : dbl = true) by (destruct Hc as [|Hc]; [done|by inversion Hc]).
      unfold into_prev. cbn [l_len L]. destruct ns as [|[a v] ns _] using rev_ind.
      + destruct (IH h [] Hw Lk Hlen Hc') as (h' & ns' & E & Hv & B). exists h', ns'.
        cbn [length N.eqb N.of_nat]. rewrite bind_ret. by rewrite (bind_ok _ _ _ _ _ E).
      + destruct (N.eqb_spec (nlen (ns ++ [(a, v)])) 0) as [E0|_]; [rewrite app_length in E0; simpl in E0; lia|].
        destruct (pop_back_ok dbl _ _ _ _ _ _ _ Hd Hw Lk Hlen) as (h1 & E1 & B1).
        destruct (IH h1 ns (became_wf _ _ _ _ _ _ _ _ B1) (proj1 B1)) as (h' & ns' & E & Hv & B);
          [rewrite app_length in Hlen; lia|done|]. exists h', ns'.
        rewrite bind_bind. rewrite (bind_ok _ _ _ _ _ (back_ok dbl _ _ _ _ _ Hd Lk)). rewrite bind_bind.
        rewrite (bind_ok _ _ _ _ _ E1). rewrite bind_ret. rewrite (bind_ok _ _ _ _ _ E).
        rewrite vls_snoc, removelast_last. split; [done|]. split; [done|]. by eapply became_trans.
  Qed.
  Lemma into_iter_ok h al hd ns tl calls : hwf h -> lok h al hd ns tl -> nlen ns < W ->
    (dbl = true \/ Forall (fun c => c = true) calls) ->
    exists h', l_into_iter dbl (L al hd tl ns) calls h =
        Ok ((moved_from (L al hd tl ns), ends_run (vls ns) calls), h') /\ upd h h' (lfp hd ns tl) [].
  Proof.
    intros Hw Lk Hlen Hc. unfold l_into_iter, l_move.
    destruct (into_run_ok al hd tl calls h ns Hw Lk Hlen Hc) as (h1 & ns' & E & Hv & B).
    destruct (destroy_ok dbl h1 al hd ns' tl (became_wf _ _ _ _ _ _ _ _ B) (proj1 B)) as (l' & h2 & E2 & U2).
    exists h2. rewrite (bind_ok _ _ _ _ _ E). rewrite (bind_ok _ _ _ _ _ E2). split; [done|].
    eapply upd_trans; [done|apply B|done].
  Qed.
End Ops5.
