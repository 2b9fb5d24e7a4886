(** * ListSort: mergeSort and merge over linked nodes *)
From Verif Require Import Base World ListModel ListSeg ListOps ListOps2 ListOps3 ListOps4 ListOps5 SortSpec.
Local Open Scope N_scope.

Section Srt.
  Context {T : Type} (dbl : bool).
  Notation H := (heap (cell T)).
  Notation sn := (sn dbl).
  Notation lok := (lok dbl).
  Notation lpre := (lpre dbl).
  Notation seg := (seg dbl).
  Notation oseg := (oseg dbl).
  Notation cseg := (cseg dbl).
  Notation link := (link dbl).
  Implicit Types (h : H) (a p q : N) (ns : list (N * T)) (e : lptr).

  (** Only links of the nodes [fp] change. *)
  Record relink h h' (fp : list N) : Prop := Relink {
    r_next : hnext h' = hnext h;
    r_has : forall a, has h' a <-> has h a;
    r_dt : forall a, dt h' a = dt h a;
    r_fr : forall a, a ∉ fp -> hmap h' !! a = hmap h !! a;
  }.
  Lemma relink_refl h fp : relink h h fp.
  Proof. by split. Qed.
  Lemma relink_tk h h' fp : relink (tk h) h' fp -> relink h h' fp.
  Proof. intros [A1 A2 A3 A4]. by split. Qed.
  Lemma relink_trans h h1 h2 fp : relink h h1 fp -> relink h1 h2 fp -> relink h h2 fp.
  Proof.
    intros [A1 A2 A3 A4] [B1 B2 B3 B4]. split.
    - congruence.
    - intros a. by rewrite B2.
    - intros a. by rewrite B3.
    - intros a Ha. rewrite B4 by done. by apply A4.
  Qed.
  Lemma relink_weaken h h' fp fp' : (forall a, a ∈ fp -> a ∈ fp') -> relink h h' fp -> relink h h' fp'.
  Proof. intros Hs [A1 A2 A3 A4]. split; try done. intros a Ha. apply A4. intros Hin. apply Ha. auto. Qed.
  Lemma relink_sn h p q fp : has h p -> has h q -> p ∈ fp -> q ∈ fp -> relink h (sn h p q) fp.
  Proof.
    intros Hp Hq Hpf Hqf. split.
    - by rewrite hnext_sn.
    - intros a. apply has_sn.
    - intros a. apply dt_sn.
    - intros a Ha. apply hmap_sn; by intros ->.
  Qed.
  Lemma relink_upn h p (e : lptr) fp : p ∈ fp -> relink h (upn h p e) fp.
  Proof.
    intros Hpf. split.
    - done.
    - intros a. apply has_upn.
    - intros a. apply dt_upn.
    - intros a Ha. simpl. rewrite lookup_alter_ne; [done|]. by intros ->.
  Qed.
  Lemma relink_upd h h' fp : hwf h -> (forall a, a ∈ fp -> has h a) -> relink h h' fp -> upd h h' fp fp.
  Proof.
    intros Hw Hfp [A1 A2 A3 A4]. split.
    - by rewrite A1.
    - intros a _ Ha. by apply A4.
    - intros a Ha. by left.
    - intros a. change (has h' a <-> has h a /\ a ∉ fp \/ a ∈ fp). rewrite A2.
      split; [destruct (decide (a ∈ fp)); auto|]. intros [[? _]|?]; auto.
    - intros a Ha. rewrite A1. apply Hw. by apply A2.
  Qed.
  Lemma relink_wf h h' fp : hwf h -> relink h h' fp -> hwf h'.
  Proof. intros Hw R a Ha. rewrite (r_next _ _ _ R). apply Hw. by apply (r_has _ _ _ R). Qed.
  Lemma relink_virt h h' fp al t : relink h h' fp -> virt h al t -> virt h' al t.
  Proof. intros R V. unfold virt. by rewrite (r_dt _ _ _ R). Qed.
  Lemma relink_node h h' fp al a v : relink h h' fp -> node h al a v -> node h' al a v.
  Proof. intros R V. unfold node. by rewrite (r_dt _ _ _ R). Qed.

  (** Linked nodes and what the last one's next is; nothing about the
      previous-link of the first. *)
  Definition chn h al ns e : Prop :=
    match ns with
    | [] => True
    | (a, v) :: r => node h al a v /\ oseg h al a r /\ nx h (endp a r) = Some e
    end.
  Definition sp ns e : lptr := match ns with [] => e | (a, _) :: _ => PAddr a end.
  (** The end as merge recognises it: null or a node without data. *)
  Definition isend h al e : Prop := e = PNull \/ exists t, e = PAddr t /\ virt h al t.
  (** As mergeSort needs it: nothing follows. *)
  Definition isend0 h al e : Prop := e = PNull \/ exists t, e = PAddr t /\ virt h al t /\ nx h t = Some PNull.

  Lemma oseg_tk h al p ns : oseg h al p ns -> oseg (tk h) al p ns.
  Proof. revert p. induction ns as [|[a v] ns IH]; intros p; [done|]. intros (A1 & A2 & A3). split; [exact A1|]. split; [exact A2|]. by apply IH. Qed.
  Lemma chn_tk h al ns e : chn h al ns e -> chn (tk h) al ns e.
  Proof. destruct ns as [|[a v] ns]; [done|]. intros (A1 & A2 & A3). split; [exact A1|]. split; [by apply oseg_tk|exact A3]. Qed.
  Lemma virt_not_node h al t v : virt h al t -> node h al t v -> False.
  Proof. unfold virt, node. congruence. Qed.
  Lemma chn_node h al ns e a : chn h al ns e -> a ∈ ads ns -> exists v, node h al a v.
  Proof.
    destruct ns as [|[b w] ns]; [by intros _ ?%elem_of_nil|]. intros (Hb & Ho & _).
    intros [->|Ha]%elem_of_cons; [eauto|]. apply elem_of_list_fmap in Ha as ([c v] & -> & Ha). exists v.
    by eapply oseg_node.
  Qed.
  Lemma chn_has h al ns e a : chn h al ns e -> a ∈ ads ns -> has h a.
  Proof. intros Hc Ha. destruct (chn_node _ _ _ _ _ Hc Ha) as [v Hv]. by eapply node_has. Qed.
  Lemma isend0_isend h al e : isend0 h al e -> isend h al e.
  Proof. intros [->|(t & -> & V & _)]; [by left|right; eauto]. Qed.
  Lemma isend_relink h h' fp al e : relink h h' fp -> isend h al e -> isend h' al e.
  Proof. intros R [->|(t & -> & V)]; [by left|right]. exists t. split; [done|]. by eapply relink_virt. Qed.
  Lemma isend0_relink h h' fp al e : relink h h' fp -> (forall t, e = PAddr t -> t ∉ fp) ->
    isend0 h al e -> isend0 h' al e.
  Proof.
    intros R Hf [->|(t & -> & V & Hn)]; [by left|right]. exists t. split; [done|]. split; [by eapply relink_virt|].
    destruct (has_eq h h' t (r_fr _ _ _ R t (Hf t eq_refl))) as (-> & _ & _). done.
  Qed.
  Lemma chn_relink h h' fp al ns e : relink h h' fp -> (forall a, a ∈ ads ns -> a ∉ fp) -> NoDup (ads ns) ->
    chn h al ns e -> chn h' al ns e.
  Proof.
    intros R Hf Hnd. destruct ns as [|[a v] ns]; [done|]. intros (Hv & Ho & Hn).
    assert (F : forall b, b ∈ a :: ads ns -> nx h' b = nx h b /\ pv h' b = pv h b /\ dt h' b = dt h b).
    { intros b Hb. apply has_eq, R. by apply Hf. }
    split; [by eapply relink_node|]. split.
    - eapply oseg_frame; [done| | | |exact Ho].
      + intros b Hb _. by apply F.
      + intros b Hb _. apply F. by right.
      + intros b Hb. apply F. by right.
    - destruct (F (endp a ns) (endp_in a ns)) as (-> & _ & _). done.
  Qed.
  Lemma chn_cons h al a v ns e : chn h al ((a, v) :: ns) e ->
    node h al a v /\ nx h a = Some (sp ns e) /\ chn h al ns e.
  Proof.
    intros (Hv & Ho & Hn). split; [done|]. destruct ns as [|[b w] ns]; [done|].
    destruct Ho as ([L1 L2] & Hw & Ho). split; [done|]. done.
  Qed.
  Lemma chn_sn h al ns e x y : has h x -> has h y -> NoDup (ads ns) -> x ∉ ads ns ->
    (y ∈ ads ns -> PAddr y = sp ns e) -> chn h al ns e -> chn (sn h x y) al ns e.
  Proof.
    intros Hx Hy Hnd Hxn Hyn. destruct ns as [|[a v] ns]; [done|]. intros (Hv & Ho & Hn).
    split; [unfold node; by rewrite dt_sn|]. split.
    - apply oseg_sn; [done|done|done| | |done].
      + intros Hin. destruct Hxn. done.
      + intros Hin. apply NoDup_cons in Hnd as [Hnd _]. assert (Ey : y ∈ ads ((a, v) :: ns)) by by right.
        apply Hyn in Ey. simpl in Ey. injection Ey as ->. done.
    - rewrite nx_sn by done. rewrite decide_False; [done|]. intros E. apply Hxn. rewrite <-E. apply endp_in.
  Qed.
  Lemma m_end_nil h al e : isend h al e -> m_end e h = Ok (true, h).
  Proof. unfold m_end. intros [->|(t & -> & V)]; [done|]. rewrite decide_False by done. by eapply no_data_virt. Qed.
  Lemma m_end_cons h al a v ns e : chn h al ((a, v) :: ns) e -> m_end (PAddr a) h = Ok (false, h).
  Proof. intros (Hv & _). unfold m_end. rewrite decide_False by done. by eapply no_data_node. Qed.

  (** ** merge *)
  (** What the loop leaves: the nodes linked up, and the rest. *)
  Lemma merge_loop_ok al lt ex ey : forall fuel h a v ds xs ys,
    node h al a v -> oseg h al a ds -> chn h al xs ex -> chn h al ys ey -> isend h al ex -> isend h al ey ->
    NoDup ((a :: ads ds) ++ ads xs ++ ads ys) -> (length xs + length ys < fuel)%nat ->
    exists h' ds' xs' ys',
      merge_loop dbl fuel lt (sp xs ex) (sp ys ey) (PAddr (endp a ds)) h =
        Ok ((sp xs' ex, sp ys' ey, PAddr (endp a ds')), h') /\
      node h' al a v /\ oseg h' al a ds' /\ chn h' al xs' ex /\ chn h' al ys' ey /\
      (xs' = [] \/ ys' = []) /\ ds ++ mrg (on snd lt) xs ys = ds' ++ xs' ++ ys' /\
      (xs' = [] -> ys' = [] -> xs = [] /\ ys = []) /\
      relink h h' ((a :: ads ds) ++ ads xs ++ ads ys) /\
      hmoves h' + (nlen xs' + nlen ys') = hmoves h + (nlen xs + nlen ys).
  Proof.
    induction fuel as [|fuel IH]; intros h a v ds xs ys Ha Ho Hx Hy Ex Ey Hnd Hf; [lia|].
    cbn [merge_loop].
    destruct xs as [|[x vx] xs].
    { exists h, ds, [], ys. cbn [sp]. rewrite (bind_ok _ _ _ _ _ (m_end_nil _ _ _ Ex)).
      rewrite mrg_nil_l. repeat (split; [done || by left|]). done. }
    cbn [sp]. rewrite (bind_ok _ _ _ _ _ (m_end_cons _ _ _ _ _ _ Hx)).
    destruct ys as [|[y vy] ys].
    { exists h, ds, ((x, vx) :: xs), []. cbn [sp]. rewrite (bind_ok _ _ _ _ _ (m_end_nil _ _ _ Ey)).
      rewrite mrg_nil_r, app_nil_r. repeat (split; [done || by right|]). done. }
    cbn [sp]. rewrite (bind_ok _ _ _ _ _ (m_end_cons _ _ _ _ _ _ Hy)).
    destruct (chn_cons _ _ _ _ _ _ Hx) as (Nx & Lx & Cx). destruct (chn_cons _ _ _ _ _ _ Hy) as (Ny & Ly & Cy).
    rewrite (bind_ok _ _ _ _ _ (value_ok _ _ _ _ Nx)). rewrite (bind_ok _ _ _ _ _ (value_ok _ _ _ _ Ny)).
    rewrite tk_bind. rewrite mrg_cons. unfold on at 1. cbn [snd].
    set (p := endp a ds).
    match goal with |- context [if lt vx vy then ?A else ?B] =>
      enough (G : exists h' ds' xs' ys', (if lt vx vy then A else B) (tk h) =
        Ok ((sp xs' ex, sp ys' ey, PAddr (endp a ds')), h') /\
      node h' al a v /\ oseg h' al a ds' /\ chn h' al xs' ex /\ chn h' al ys' ey /\
      (xs' = [] \/ ys' = []) /\
      ds ++ (if lt vx vy then (x, vx) :: mrg (on snd lt) xs ((y, vy) :: ys) else (y, vy) :: mrg (on snd lt) ((x, vx) :: xs) ys) =
        ds' ++ xs' ++ ys' /\
      (xs' = [] -> ys' = [] -> (x, vx) :: xs = [] /\ (y, vy) :: ys = []) /\
      relink (tk h) h' ((a :: ads ds) ++ ads ((x, vx) :: xs) ++ ads ((y, vy) :: ys)) /\
      hmoves h' + (nlen xs' + nlen ys') + 1 = hmoves (tk h) + (nlen ((x, vx) :: xs) + nlen ((y, vy) :: ys))) end.
    { destruct G as (h' & ds' & xs' & ys' & G0 & G1 & G2 & G3 & G4 & G5 & G6 & G7 & G8 & G9).
      exists h', ds', xs', ys'. do 8 (split; [assumption|]). split; [by apply relink_tk|].
      unfold tk in G9. cbn [hmoves] in G9. lia. }
    change (node (tk h) al a v) in Ha. apply oseg_tk in Ho.
    apply chn_tk in Hx. apply chn_tk in Hy.
    change (isend (tk h) al ex) in Ex. change (isend (tk h) al ey) in Ey.
    change (node (tk h) al x vx) in Nx. change (node (tk h) al y vy) in Ny.
    change (nx (tk h) x = Some (sp xs ex)) in Lx. change (nx (tk h) y = Some (sp ys ey)) in Ly.
    apply chn_tk in Cx. apply chn_tk in Cy.
    revert Ha Ho Hx Hy Ex Ey Nx Ny Lx Ly Cx Cy. generalize (tk h). clear h. intros h Ha Ho Hx Hy Ex Ey Nx Ny Lx Ly Cx Cy.
    assert (Hp : p ∈ a :: ads ds) by apply endp_in.
    assert (Hhp : has h p).
    { destruct (proj1 (elem_of_cons _ _ _) Hp) as [E|Hin]; [rewrite E; by eapply node_has|by eapply oseg_has]. }
    assert (Hhx : has h x) by by eapply node_has. assert (Hhy : has h y) by by eapply node_has.
    apply NoDup_app in Hnd as (Nd & Ndx & Nxy). apply NoDup_app in Nxy as (NX & Nxy & NY).
    rewrite !ads_cons in *.
    assert (Hpx : p ∉ x :: ads xs) by (intros Hin; apply (Ndx p Hp); apply elem_of_app; by left).
    assert (Hpy : p ∉ y :: ads ys) by (intros Hin; apply (Ndx p Hp); apply elem_of_app; by right).
    assert (Hdx : x ∉ a :: ads ds) by (intros Hin; apply (Ndx x Hin); apply elem_of_app; left; by left).
    assert (Hdy : y ∉ a :: ads ds) by (intros Hin; apply (Ndx y Hin); apply elem_of_app; right; by left).
    assert (Hxy : x ∉ y :: ads ys) by (apply Nxy; by left).
    assert (Hyx : y ∉ x :: ads xs) by (intros Hin; apply (Nxy y Hin); by left).
    destruct (lt vx vy) eqn:E.
    - set (h1 := sn h p x).
      assert (R1 : relink h h1 ((a :: ads ds) ++ (x :: ads xs) ++ y :: ads ys)).
      { apply relink_sn; [done|done|by apply elem_of_app; left|]. apply elem_of_app. right. by left. }
      assert (Cx1 : chn h1 al ((x, vx) :: xs) ex) by (apply chn_sn; done).
      assert (Cy1 : chn h1 al ((y, vy) :: ys) ey).
      { apply chn_sn; [done|done|done|done| |done]. intros Hin. by destruct Hxy. }
      destruct (chn_cons _ _ _ _ _ _ Cx1) as (Nx1 & Lx1 & Cxs).
      destruct (IH h1 a v (ds ++ [(x, vx)]) xs ((y, vy) :: ys)) as (h' & ds' & xs' & ys' & E' & A1 & A2 & A3 & A4 & A5 & A6 & A7 & A10 & A11).
      { by eapply relink_node. }
      { apply oseg_app. split; [apply oseg_sn; [done|done|done|done| |done]; intros Hin; apply Hdx; by right|].
        split; [by apply link_sn|]. split; [done|done]. }
      { done. } { done. } { by eapply isend_relink. } { by eapply isend_relink. }
      { eapply nd_perm; [|apply NoDup_app; split; [exact Nd|split; [exact Ndx|]]; apply NoDup_app; done].
        rewrite ads_app, ads_cons. cbn [app]. rewrite <-app_assoc. done. }
      { simpl in *. lia. }
      rewrite endp_app in E'. cbn [endp] in E'.
      exists h', ds', xs', ys'. split.
      { rewrite (bind_ok _ _ _ _ _ (set_next_ok dbl h p x Hhp Hhx)). fold h1.
        rewrite (bind_ok _ _ _ _ _ (get_next_ok h1 x _ Lx1 ltac:(destruct xs as [|[? ?] ?]; [by destruct Ex as [->|(? & -> & _)]|done]))).
        assert (Lp : nx h1 p = Some (PAddr x)) by (unfold h1; rewrite nx_sn by done; by rewrite decide_True).
        rewrite (bind_ok _ _ _ _ _ (get_next_ok h1 p _ Lp ltac:(done))). exact E'. }
      split; [done|]. split; [done|]. split; [done|]. split; [done|]. split; [done|].
      split; [rewrite <-app_assoc in A6; exact A6|].
      split; [intros Q1 Q2; by destruct (A7 Q1 Q2)|].
      split; [|unfold h1 in A11; rewrite hm_sn in A11; cbn [length] in *; lia].
      eapply relink_trans; [exact R1|]. eapply relink_weaken; [|exact A10].
      intros b. rewrite ads_app, ads_cons. cbn [app]. rewrite <-app_assoc. done.
    - set (h1 := sn h p y).
      assert (R1 : relink h h1 ((a :: ads ds) ++ (x :: ads xs) ++ y :: ads ys)).
      { apply relink_sn; [done|done|by apply elem_of_app; left|]. apply elem_of_app. right. apply elem_of_app. right. by left. }
      assert (Cy1 : chn h1 al ((y, vy) :: ys) ey) by (apply chn_sn; done).
      assert (Cx1 : chn h1 al ((x, vx) :: xs) ex).
      { apply chn_sn; [done|done|done|done| |done]. intros Hin. by destruct Hyx. }
      destruct (chn_cons _ _ _ _ _ _ Cy1) as (Ny1 & Ly1 & Cys).
      destruct (IH h1 a v (ds ++ [(y, vy)]) ((x, vx) :: xs) ys) as (h' & ds' & xs' & ys' & E' & A1 & A2 & A3 & A4 & A5 & A6 & A7 & A10 & A11).
      { by eapply relink_node. }
      { apply oseg_app. split; [apply oseg_sn; [done|done|done|done| |done]; intros Hin; apply Hdy; by right|].
        split; [by apply link_sn|]. split; [done|done]. }
      { done. } { done. } { by eapply isend_relink. } { by eapply isend_relink. }
      { eapply nd_perm; [|apply NoDup_app; split; [exact Nd|split; [exact Ndx|]]; apply NoDup_app; done].
        rewrite ads_app, !ads_cons. change (ads ([] : list (N * T))) with ([] : list N). cbn [app].
        rewrite <-app_assoc. cbn [app]. constructor. f_equiv. rewrite <-(Permutation_middle (ads xs) (ads ys) y). apply perm_swap. }
      { simpl in *. lia. }
      rewrite endp_app in E'. cbn [endp] in E'.
      exists h', ds', xs', ys'. split.
      { rewrite (bind_ok _ _ _ _ _ (set_next_ok dbl h p y Hhp Hhy)). fold h1.
        rewrite (bind_ok _ _ _ _ _ (get_next_ok h1 y _ Ly1 ltac:(destruct ys as [|[? ?] ?]; [by destruct Ey as [->|(? & -> & _)]|done]))).
        assert (Lp : nx h1 p = Some (PAddr y)) by (unfold h1; rewrite nx_sn by done; by rewrite decide_True).
        rewrite (bind_ok _ _ _ _ _ (get_next_ok h1 p _ Lp ltac:(done))). exact E'. }
      split; [done|]. split; [done|]. split; [done|]. split; [done|]. split; [done|].
      split; [rewrite <-app_assoc in A6; exact A6|].
      split; [intros Q1 Q2; by destruct (A7 Q1 Q2)|].
      split; [|unfold h1 in A11; rewrite hm_sn in A11; cbn [length] in *; lia].
      eapply relink_trans; [exact R1|]. eapply relink_weaken; [|exact A10].
      intros b. rewrite ads_app, !ads_cons. change (ads ([] : list (N * T))) with ([] : list N).
      repeat (rewrite elem_of_app || rewrite elem_of_cons). rewrite elem_of_nil. naive_solver.
  Qed.
  Lemma last_loop_ok al e ns : forall fuel h a v,
    chn h al ((a, v) :: ns) e -> isend h al e -> (length ns < fuel)%nat ->
    last_loop fuel (PAddr a) h = Ok (PAddr (endp a ns), h).
  Proof.
    induction ns as [|[b w] ns IH]; intros fuel h a v Hc He Hf; (destruct fuel as [|fuel]; [lia|]); cbn [last_loop];
      destruct (chn_cons _ _ _ _ _ _ Hc) as (Na & La & Cn); cbn [sp] in La.
    - rewrite (bind_ok _ _ _ _ _ (get_next_ok h a _ La ltac:(by destruct He as [->|(? & -> & _)]))).
      rewrite (bind_ok _ _ _ _ _ (m_end_nil _ _ _ He)). done.
    - rewrite (bind_ok _ _ _ _ _ (get_next_ok h a _ La ltac:(done))).
      rewrite (bind_ok _ _ _ _ _ (m_end_cons _ _ _ _ _ _ Cn)). cbn [endp]. eapply IH; [done|done|simpl in Hf; lia].
  Qed.
  Lemma chn_join h al a v ds zs e : node h al a v -> oseg h al a ds -> chn h al zs e -> zs <> [] ->
    NoDup ((a :: ads ds) ++ ads zs) ->
    exists b, sp zs e = PAddr b /\ has h (endp a ds) /\ has h b /\ b ∈ ads zs /\
      chn (sn h (endp a ds) b) al ((a, v) :: ds ++ zs) e.
  Proof.
    intros Hv Ho Hc Hne Hnd. destruct zs as [|[b w] zs]; [done|]. exists b. split; [done|].
    assert (Hhb : has h b) by (eapply chn_has; [exact Hc|by left]).
    assert (Hp : endp a ds ∈ a :: ads ds) by apply endp_in.
    assert (Hhp : has h (endp a ds)).
    { destruct (proj1 (elem_of_cons _ _ _) Hp) as [E|Hin]; [rewrite E; by eapply node_has|by eapply oseg_has]. }
    split; [done|]. split; [done|]. split; [by left|].
    apply NoDup_app in Hnd as (N1 & N12 & N2).
    assert (Hc1 : chn (sn h (endp a ds) b) al ((b, w) :: zs) e).
    { apply chn_sn; [done|done|done| |done|done]. by apply N12. }
    destruct Hc1 as (C1 & C2 & C3). split; [unfold node; by rewrite dt_sn|]. split.
    - apply oseg_app. split.
      + apply oseg_sn; [done|done|done|done| |done]. intros Hin. apply (N12 b); [by right|by left].
      + split; [by apply link_sn|]. done.
    - rewrite endp_app. cbn [endp]. done.
  Qed.
  (** Two non-empty chains: one chain with the merged nodes, ended by the end of one of the two. *)
  Lemma merge_nodes_ok h al lt xs ys ex ey :
    chn h al xs ex -> chn h al ys ey -> isend h al ex -> isend h al ey ->
    NoDup (ads xs ++ ads ys) -> xs <> [] -> ys <> [] ->
    let zs := mrg (on snd lt) xs ys in
    exists h' e t, merge_nodes dbl lt (sp xs ex) (sp ys ey) h = Ok ((sp zs e, PAddr t), h') /\
      chn h' al zs e /\ (e = ex \/ e = ey) /\ (forall q, endp q zs = t) /\
      relink h h' (ads xs ++ ads ys) /\ hmoves h + 1 <= hmoves h' /\ hmoves h' + 1 <= hmoves h + (nlen xs + nlen ys).
  Proof.
    intros Hx Hy Ex Ey Hnd Hxn Hyn zs. destruct xs as [|[x vx] xs]; [done|]. destruct ys as [|[y vy] ys]; [done|].
    clear Hxn Hyn. unfold merge_nodes. cbn [sp].
    rewrite (bind_ok _ _ _ _ _ (m_end_cons _ _ _ _ _ _ Hx)). rewrite (bind_ok _ _ _ _ _ (m_end_cons _ _ _ _ _ _ Hy)).
    destruct (chn_cons _ _ _ _ _ _ Hx) as (Nx & Lx & Cx). destruct (chn_cons _ _ _ _ _ _ Hy) as (Ny & Ly & Cy).
    rewrite (bind_ok _ _ _ _ _ (value_ok _ _ _ _ Nx)). rewrite (bind_ok _ _ _ _ _ (value_ok _ _ _ _ Ny)).
    rewrite tk_bind.
    match goal with |- exists h' e t, ?lhs = @?R h' e t /\ _ =>
      enough (G : exists h' e t, lhs = R h' e t /\ chn h' al zs e /\ (e = ex \/ e = ey) /\ (forall q, endp q zs = t) /\
        relink (tk h) h' (ads ((x, vx) :: xs) ++ ads ((y, vy) :: ys)) /\ hmoves (tk h) <= hmoves h' /\
        hmoves h' + 2 <= hmoves (tk h) + (nlen ((x, vx) :: xs) + nlen ((y, vy) :: ys))) end.
    { destruct G as (h' & e & t & G1 & G2 & G3 & G4 & G5 & G6 & G7). exists h', e, t.
      do 4 (split; [assumption|]). split; [by apply relink_tk|]. unfold tk in G6, G7. cbn [hmoves] in G6, G7. lia. }
    apply chn_tk in Hx. apply chn_tk in Hy.
    change (isend (tk h) al ex) in Ex. change (isend (tk h) al ey) in Ey.
    change (node (tk h) al x vx) in Nx. change (node (tk h) al y vy) in Ny.
    change (nx (tk h) x = Some (sp xs ex)) in Lx. change (nx (tk h) y = Some (sp ys ey)) in Ly.
    apply chn_tk in Cx. apply chn_tk in Cy.
    revert Hx Hy Ex Ey Nx Ny Lx Ly Cx Cy. generalize (tk h). clear h. intros h Hx Hy Ex Ey Nx Ny Lx Ly Cx Cy.
    assert (Hsize : (S (length xs) + S (length ys) <= size (hmap h))%nat).
    { assert (Hs : forall a, a ∈ ads ((x, vx) :: xs) ++ ads ((y, vy) :: ys) -> has h a).
      { intros a [Ha|Ha]%elem_of_app; [exact (chn_has _ _ _ _ _ Hx Ha)|exact (chn_has _ _ _ _ _ Hy Ha)]. }
      pose proof (size_ge h _ Hnd Hs) as Hz. rewrite app_length in Hz. unfold ads in Hz. rewrite !fmap_length in Hz.
      simpl in Hz. lia. }
    assert (Hgo : forall a v xs0 ys0, node h al a v -> chn h al xs0 ex -> chn h al ys0 ey ->
      zs = (a, v) :: mrg (on snd lt) xs0 ys0 -> NoDup (a :: ads xs0 ++ ads ys0) ->
      (forall b, b ∈ a :: ads xs0 ++ ads ys0 -> b ∈ ads ((x, vx) :: xs) ++ ads ((y, vy) :: ys)) ->
      (xs0 = [] -> ys0 = [] -> False) -> (length xs0 + length ys0 < size (hmap h))%nat ->
      exists h' e t, ('(a2, b2, p) <-- merge_loop dbl (S (size (hmap h))) lt (sp xs0 ex) (sp ys0 ey) (PAddr a) ;;
          ea <-- m_end a2 ;;
          (if ea : bool then eb <-- m_end b2 ;; (if eb : bool then ret tt else set_next dbl p b2)
           else set_next dbl p a2) ;;;
          t <-- last_loop (S (size (hmap h))) p ;; ret (PAddr a, t)) h = Ok ((sp zs e, PAddr t), h') /\
        chn h' al zs e /\ (e = ex \/ e = ey) /\ (forall q, endp q zs = t) /\
        relink h h' (ads ((x, vx) :: xs) ++ ads ((y, vy) :: ys)) /\
        hmoves h <= hmoves h' /\ hmoves h' + 1 <= hmoves h + (nlen xs0 + nlen ys0)).
    { intros a v xs0 ys0 Na Cx0 Cy0 Hz Hnd0 Hsub Hne Hlen.
      destruct (merge_loop_ok al lt ex ey (S (size (hmap h))) h a v [] xs0 ys0) as
        (h1 & ds & xs1 & ys1 & E1 & A1 & A2 & A3 & A4 & A5 & A6 & A7 & R1 & A11); try done; [lia|].
      cbn [endp app] in E1, A6, R1. rewrite (bind_ok _ _ _ _ _ E1).
      assert (Hperm : a :: ads xs0 ++ ads ys0 ≡ₚ (a :: ads ds) ++ ads (xs1 ++ ys1)).
      { cbn [app]. constructor. rewrite <-ads_app, <-ads_app, <-A6. unfold ads. by rewrite mrg_perm. }
      assert (Hnd1 : NoDup ((a :: ads ds) ++ ads (xs1 ++ ys1))) by (by eapply nd_perm).
      assert (Hfin : forall zs1 e, sp zs1 e = (if decide (xs1 = []) then sp ys1 ey else sp xs1 ex) ->
        zs1 = xs1 ++ ys1 -> zs1 <> [] -> chn h1 al zs1 e -> (e = ex \/ e = ey) ->
        exists b h', sp zs1 e = PAddr b /\ set_next dbl (PAddr (endp a ds)) (PAddr b) h1 = Ok (tt, h') /\
          last_loop (S (size (hmap h))) (PAddr (endp a ds)) h' = Ok (PAddr (endp a (ds ++ zs1)), h') /\
          chn h' al zs e /\ (forall q, endp q zs = endp a (ds ++ zs1)) /\
          relink h h' (ads ((x, vx) :: xs) ++ ads ((y, vy) :: ys)) /\
          hmoves h <= hmoves h' /\ hmoves h' + 1 <= hmoves h + (nlen xs0 + nlen ys0)).
      { intros zs1 e Hsp Hzs1 Hzn Hc1 He. rewrite <-Hzs1 in *.
        destruct (chn_join h1 al a v ds zs1 e A1 A2 Hc1 Hzn Hnd1) as (b & Hb & Hh1 & Hh2 & Hbin & Hc2).
        exists b, (sn h1 (endp a ds) b). split; [done|]. split; [by apply set_next_ok|].
        assert (Ez : zs = (a, v) :: ds ++ zs1) by (rewrite Hz; by f_equal).
        assert (Hie : isend (sn h1 (endp a ds) b) al e).
        { assert (Hi : isend h al e) by (destruct He as [->| ->]; done).
          eapply isend_relink; [|eapply isend_relink; [exact R1|exact Hi]].
          apply (relink_sn h1 (endp a ds) b [endp a ds; b]); [done|done|by left|by right; left]. }
        assert (Hlz : (length zs1 <= length xs0 + length ys0)%nat).
        { apply (f_equal length) in A6. rewrite app_length in A6.
          pose proof (Permutation_length (mrg_perm (on snd lt) xs0 ys0)) as Hp. rewrite app_length in Hp. lia. }
        assert (Hl1 : (length zs1 = length xs1 + length ys1)%nat) by (rewrite Hzs1; apply app_length).
        assert (Hl0 : (0 < length zs1)%nat) by (destruct zs1; [done|simpl; lia]).
        split; [|split; [|split; [|split; [|rewrite hm_sn; lia]]]].
        - assert (Hz1 : exists w, zs1 = (b, w) :: tail zs1).
          { destruct zs1 as [|[c w] zs1]; [done|]. injection Hb as ->. by exists w. }
          destruct Hz1 as [w Hz1]. rewrite endp_app.
          assert (Ho2 : oseg (sn h1 (endp a ds) b) al (endp a ds) zs1 /\ nx (sn h1 (endp a ds) b) (endp (endp a ds) zs1) = Some e).
          { destruct Hc2 as (_ & Ho2 & Hn2). rewrite endp_app in Hn2. apply oseg_app in Ho2 as [_ Ho2]. done. }
          assert (Hln : (length zs1 < size (hmap h))%nat).
          { apply (f_equal length) in A6. rewrite app_length in A6.
            pose proof (Permutation_length (mrg_perm (on snd lt) xs0 ys0)) as Hp. rewrite app_length in Hp. lia. }
          assert (Hnode : exists w', node (sn h1 (endp a ds) b) al (endp a ds) w').
          { eapply chn_node; [exact Hc2|]. unfold ads. rewrite fmap_cons, fmap_app. cbn [fst].
            pose proof (endp_in a ds) as Hin. apply elem_of_cons in Hin as [->|Hin]; [by left|right].
            apply elem_of_app. by left. }
          destruct Hnode as [w' Hw']. eapply (last_loop_ok al e zs1 _ _ _ w'); [|done|lia].
          split; [done|]. exact Ho2.
        - by rewrite Ez.
        - intros q. by rewrite Ez.
        - eapply relink_trans; [eapply relink_weaken; [|exact R1]; exact Hsub|].
          apply relink_sn; [done|done| |].
          + apply Hsub. rewrite Hperm. apply elem_of_app. left. apply endp_in.
          + apply Hsub. rewrite Hperm. apply elem_of_app. by right. }
      assert (Ey1 : isend h1 al ey) by by eapply isend_relink.
      assert (Ex1 : isend h1 al ex) by by eapply isend_relink.
      destruct xs1 as [|[x1 w1] xs1].
      - cbn [sp]. rewrite (bind_ok _ _ _ _ _ (m_end_nil _ _ _ Ex1)).
        destruct ys1 as [|[y1 w1] ys1].
        + (* the loop cannot run out of both *)
          exfalso. destruct (A7 eq_refl eq_refl) as [-> ->]. by apply Hne.
        + destruct (Hfin ((y1, w1) :: ys1) ey) as (b & h' & Hb & S1 & S2 & S3 & S4 & S5 & S6 & S7); try done; [by right|].
          injection Hb as <-. cbn [sp]. rewrite bind_bind. rewrite (bind_ok _ _ _ _ _ (m_end_cons _ _ _ _ _ _ A4)).
          rewrite (bind_ok _ _ _ _ _ S1). rewrite (bind_ok _ _ _ _ _ S2).
          exists h', ey, (endp a (ds ++ (y1, w1) :: ys1)). split; [by rewrite Hz|]. split; [done|]. split; [by right|done].
      - cbn [sp]. rewrite (bind_ok _ _ _ _ _ (m_end_cons _ _ _ _ _ _ A3)).
        assert (ys1 = []) as -> by (by destruct A5). 
        destruct (Hfin ((x1, w1) :: xs1) ex) as (b & h' & Hb & S1 & S2 & S3 & S4 & S5 & S6 & S7); try done; [by rewrite app_nil_r|by left|].
        injection Hb as <-. rewrite (bind_ok _ _ _ _ _ S1). rewrite (bind_ok _ _ _ _ _ S2).
        exists h', ex, (endp a (ds ++ (x1, w1) :: xs1)). split; [by rewrite Hz|]. split; [done|]. split; [by left|done]. }
    rewrite !ads_cons in Hnd. destruct (lt vx vy) eqn:E.
    - assert (Hz : zs = (x, vx) :: mrg (on snd lt) xs ((y, vy) :: ys)).
      { unfold zs. rewrite mrg_cons. unfold on at 1. cbn [snd]. by rewrite E. }
      destruct (Hgo x vx xs ((y, vy) :: ys)) as (h' & e & t & Q1 & Q2 & Q3 & Q4 & Q5 & Q6 & Q7); try done.
      exists h', e, t. split; [|do 5 (split; [assumption|]); cbn [length] in *; lia].
      assert (E1 : (a' <-- get_next (PAddr x) ;; ret (PAddr x, a', PAddr y)) h = Ok ((PAddr x, sp xs ex, PAddr y), h)).
      { by rewrite (bind_ok _ _ _ _ _ (get_next_ok h x _ Lx ltac:(destruct xs as [|[? ?] ?]; [by destruct Ex as [->|(? & -> & _)]|done]))). }
      rewrite (bind_ok _ _ _ _ _ E1). rewrite (bind_ok _ _ _ _ _ (fuel_ok h)). exact Q1.
    - assert (Hz : zs = (y, vy) :: mrg (on snd lt) ((x, vx) :: xs) ys).
      { unfold zs. rewrite mrg_cons. unfold on at 1. cbn [snd]. by rewrite E. }
      assert (Hp : (x :: ads xs) ++ y :: ads ys ≡ₚ y :: ads ((x, vx) :: xs) ++ ads ys).
      { rewrite ads_cons. cbn [app]. rewrite <-(Permutation_middle (ads xs) (ads ys) y). apply perm_swap. }
      destruct (Hgo y vy ((x, vx) :: xs) ys) as (h' & e & t & Q1 & Q2 & Q3 & Q4 & Q5 & Q6 & Q7); try done.
      { eapply nd_perm; [exact Hp|exact Hnd]. }
      { intros b. rewrite !ads_cons, <-ads_cons with (a := x) (v := vx), <-Hp. done. }
      { simpl. lia. }
      exists h', e, t. split; [|do 5 (split; [assumption|]); cbn [length] in *; lia].
      assert (E1 : (b' <-- get_next (PAddr y) ;; ret (PAddr y, PAddr x, b')) h = Ok ((PAddr y, PAddr x, sp ys ey), h)).
      { by rewrite (bind_ok _ _ _ _ _ (get_next_ok h y _ Ly ltac:(destruct ys as [|[? ?] ?]; [by destruct Ey as [->|(? & -> & _)]|done]))). }
      rewrite (bind_ok _ _ _ _ _ E1). rewrite (bind_ok _ _ _ _ _ (fuel_ok h)). exact Q1.
  Qed.

  (** ** mergeSort *)
  Definition nth_ptr ns (i : nat) e : lptr := match ns !! i with Some (a, _) => PAddr a | None => e end.
  Lemma chn_nth h al ns e i a v : chn h al ns e -> ns !! i = Some (a, v) ->
    node h al a v /\ nx h a = Some (nth_ptr ns (S i) e).
  Proof.
    revert i. induction ns as [|[b w] ns IH]; intros i Hc Hi; [done|].
    destruct (chn_cons _ _ _ _ _ _ Hc) as (Nb & Lb & Cn). destruct i as [|i].
    - injection Hi as -> ->. split; [done|]. rewrite Lb. by destruct ns as [|[c u] ns].
    - by apply IH.
  Qed.
  Lemma nth_ptr_def h al ns i e : isend h al e -> nth_ptr ns i e <> PUndef.
  Proof. intros He. unfold nth_ptr. destruct (ns !! i) as [[b w]|]; [done|]. by destruct He as [->|(? & -> & _)]. Qed.
  Lemma s_end_ok h al ns e i a v : chn h al ns e -> isend h al e -> ns !! i = Some (a, v) ->
    s_end (PAddr a) h = Ok (bool_decide (S i = length ns), h).
  Proof.
    intros Hc He Hi. destruct (chn_nth _ _ _ _ _ _ _ Hc Hi) as [Na Ln]. unfold s_end.
    rewrite (bind_ok _ _ _ _ _ (get_next_ok h a _ Ln (nth_ptr_def _ _ _ _ _ He))).
    pose proof (lookup_lt_Some _ _ _ Hi). unfold nth_ptr. destruct (ns !! S i) as [[b w]|] eqn:E.
    - rewrite decide_False by done. destruct (chn_nth _ _ _ _ _ _ _ Hc E) as [Nb _].
      pose proof (lookup_lt_Some _ _ _ E). rewrite bool_decide_eq_false_2 by lia. by eapply no_data_node.
    - apply lookup_ge_None in E. rewrite bool_decide_eq_true_2 by lia.
      destruct He as [->|(t & -> & V)]; [by rewrite decide_True|]. rewrite decide_False by done. by eapply no_data_virt.
  Qed.
  Lemma mid_loop_ok h al ns e : chn h al ns e -> isend h al e -> forall fuel k a v b w,
    ns !! (2 * k)%nat = Some (a, v) -> ns !! k = Some (b, w) -> (length ns < 2 * k + 2 * fuel)%nat ->
    exists c u m, mid_loop fuel (PAddr a) (PAddr b) h = Ok (PAddr c, h) /\ ns !! m = Some (c, u) /\
      (length ns = 2 * m + 1 \/ length ns = 2 * m + 2)%nat.
  Proof.
    intros Hc He. induction fuel as [|fuel IH]; intros k a v b w Ha Hb Hf.
    { apply lookup_lt_Some in Ha. lia. }
    cbn [mid_loop]. pose proof (lookup_lt_Some _ _ _ Ha) as Hl.
    rewrite (bind_ok _ _ _ _ _ (s_end_ok _ _ _ _ _ _ _ Hc He Ha)).
    case_bool_decide as E1; [exists b, w, k; split; [done|]; split; [done|lia]|].
    destruct (lookup_lt_is_Some_2 ns (S (2 * k))) as [[a1 v1] Ha1]; [lia|].
    destruct (chn_nth _ _ _ _ _ _ _ Hc Ha) as [_ La]. unfold nth_ptr in La. rewrite Ha1 in La.
    rewrite (bind_ok _ _ _ _ _ (get_next_ok h a _ La ltac:(done))).
    rewrite (bind_ok _ _ _ _ _ (s_end_ok _ _ _ _ _ _ _ Hc He Ha1)).
    case_bool_decide as E2; [exists b, w, k; split; [done|]; split; [done|lia]|].
    destruct (lookup_lt_is_Some_2 ns (S (S (2 * k)))) as [[a2 v2] Ha2]; [lia|].
    destruct (lookup_lt_is_Some_2 ns (S k)) as [[b1 w1] Hb1]; [lia|].
    destruct (chn_nth _ _ _ _ _ _ _ Hc Ha1) as [_ La1]. unfold nth_ptr in La1. rewrite Ha2 in La1.
    destruct (chn_nth _ _ _ _ _ _ _ Hc Hb) as [_ Lb]. unfold nth_ptr in Lb. rewrite Hb1 in Lb.
    rewrite (bind_ok _ _ _ _ _ (get_next_ok h a1 _ La1 ltac:(done))).
    rewrite (bind_ok _ _ _ _ _ (get_next_ok h b _ Lb ltac:(done))).
    apply (IH (S k) a2 v2 b1 w1); [|done|lia]. by replace (2 * S k)%nat with (S (S (2 * k))) by lia.
  Qed.
  Lemma chn_cut h al a v n1 n2 e : NoDup (ads ((a, v) :: n1) ++ ads n2) -> chn h al ((a, v) :: n1 ++ n2) e ->
    nx h (endp a n1) = Some (sp n2 e) /\
    chn (upn h (endp a n1) PNull) al ((a, v) :: n1) PNull /\ chn (upn h (endp a n1) PNull) al n2 e.
  Proof.
    intros Hnd (Hv & Ho & Hn). apply oseg_app in Ho as [Ho1 Ho2]. rewrite endp_app in Hn.
    apply NoDup_app in Hnd as (N1 & N12 & N2). rewrite ads_cons in N1, N12.
    pose proof (endp_in a n1) as Hin.
    assert (Hh : has h (endp a n1)).
    { apply elem_of_cons in Hin as [->|Hin]; [by eapply node_has|eapply oseg_has; [exact Ho1|done]]. }
    split; [|split].
    - destruct n2 as [|[b w] n2]; [done|]. by destruct Ho2 as ([L1 _] & _).
    - split; [unfold node; by rewrite dt_upn|]. split.
      + eapply oseg_frame; [done| | | |exact Ho1].
        * intros b Hb Hne. rewrite nx_upn by done. by rewrite decide_False.
        * intros b Hb _. by rewrite pv_upn.
        * intros b Hb. by rewrite dt_upn.
      + rewrite nx_upn by done. by rewrite decide_True.
    - destruct n2 as [|[b w] n2]; [done|]. destruct Ho2 as (_ & Hw & Ho2). cbn [endp] in Hn.
      assert (Hne : forall c, c ∈ b :: ads n2 -> c <> endp a n1).
      { intros c Hc ->. by apply (N12 _ Hin). }
      split; [unfold node; by rewrite dt_upn|]. split.
      + eapply oseg_frame; [done| | | |exact Ho2].
        * intros c Hc _. rewrite nx_upn by done. rewrite decide_False; [done|]. by apply Hne.
        * intros c Hc _. by rewrite pv_upn.
        * intros c Hc. by rewrite dt_upn.
      + rewrite nx_upn by done. rewrite decide_False; [done|]. apply Hne, endp_in.
  Qed.
  Lemma take_drop_endp a v ns k b w : ((a, v) :: ns) !! k = Some (b, w) -> endp a (take k ns) = b.
  Proof.
    revert a v k. induction ns as [|[c u] ns IH]; intros a v k Hk.
    - destruct k; [by injection Hk|done].
    - destruct k as [|k]; [by injection Hk|]. exact (IH c u k Hk).
  Qed.
  Lemma log2_up_half (n k : N) : 2 <= n -> 2 * k <= n + 1 -> 1 <= k -> N.log2_up k + 1 <= N.log2_up n.
  Proof.
    intros Hn Hk H1. assert (Hc : n <= 2 ^ N.log2_up n) by (apply N.log2_up_le_pow2; [lia|done]).
    assert (Hp : 1 <= N.log2_up n) by (apply (N.le_trans _ (N.log2_up 2)); [done|by apply N.log2_up_le_mono]).
    enough (N.log2_up k <= N.log2_up n - 1) by lia. apply N.log2_up_le_pow2; [lia|].
    assert (E : 2 ^ N.log2_up n = 2 * 2 ^ (N.log2_up n - 1)).
    { replace (N.log2_up n) with (N.succ (N.log2_up n - 1)) at 1 by lia. by rewrite N.pow_succ_r'. }
    lia.
  Qed.
  Lemma sort_bound (n a b c : N) : 2 <= n -> a + b = n -> 2 * a <= n + 1 -> 2 * b <= n + 1 -> 1 <= a -> 1 <= b ->
    c + 1 <= n -> a * N.log2_up a + b * N.log2_up b + c <= n * N.log2_up n.
  Proof.
    intros Hn Hab Ha Hb Ha1 Hb1 Hc. pose proof (log2_up_half n a Hn Ha Ha1). pose proof (log2_up_half n b Hn Hb Hb1). nia.
  Qed.
  Lemma merge_sort_ok al lt : forall depth h ns e,
    chn h al ns e -> isend0 h al e -> NoDup (ads ns) -> ns <> [] ->
    (length ns + (if decide (e = PNull) then 0 else 1) < depth)%nat ->
    exists h' zs r, merge_sort dbl depth lt (sp ns e) h = Ok ((sp zs PNull, r), h') /\
      sorted_as (on snd lt) ns zs /\ chn h' al zs PNull /\ zs <> [] /\
      ((1 < length ns)%nat -> forall q, r = PAddr (endp q zs)) /\ relink h h' (ads ns) /\
      hmoves h' <= hmoves h + nlen ns * N.log2_up (nlen ns) /\ hmoves h + nlen ns <= hmoves h' + 1.
  Proof.
    induction depth as [|depth IH]; intros h ns e Hc He Hnd Hne Hd; [lia|].
    destruct ns as [|[a v] ns]; [done|]. clear Hne. cbn [merge_sort sp]. rewrite decide_False by done.
    destruct (chn_cons _ _ _ _ _ _ Hc) as (Na & La & Cn). rewrite bind_bind.
    pose proof (isend0_isend _ _ _ He) as He'.
    rewrite (bind_ok _ _ _ _ _ (get_next_ok h a _ La ltac:(destruct ns as [|[? ?] ?]; [by destruct He' as [->|(? & -> & _)]|done]))).
    rewrite bind_ret. case_bool_decide as En.
    { (* nothing follows *)
      destruct ns as [|[? ?] ?]; [|done]. cbn [sp] in En. subst e.
      exists h, [(a, v)], PNull. split; [done|]. split; [by apply sa_one|]. split; [done|]. split; [done|].
      split; [simpl; lia|]. split; [apply relink_refl|split; [lia|simpl; lia]]. }
    rewrite (bind_ok _ _ _ _ _ (fuel_ok h)).
    assert (Hsz : (S (length ns) <= size (hmap h))%nat).
    { pose proof (size_ge h _ Hnd (fun b => chn_has _ _ _ _ b Hc)) as Hz. unfold ads in Hz. rewrite fmap_length in Hz.
      simpl in Hz. lia. }
    destruct (mid_loop_ok h al _ e Hc He' (S (size (hmap h))) 0 a v a v eq_refl eq_refl) as (c & u & m & E1 & Hm & Hlen).
    { cbn [length]. lia. }
    rewrite (bind_ok _ _ _ _ _ E1). pose proof (take_drop_endp _ _ _ _ _ _ Hm) as Ec.
    set (n1 := take m ns) in *. set (n2 := drop m ns). assert (Ens : ns = n1 ++ n2) by (unfold n1, n2; by rewrite take_drop).
    cbn [length] in Hlen. assert (Hl1 : (length n1 = m)%nat) by (unfold n1; rewrite take_length; lia).
    assert (Hl2 : (length n2 = length ns - m)%nat) by (unfold n2; by rewrite drop_length).
    clearbody n1 n2. rewrite Ens in Hc, Hnd, Cn. cbn [length] in Hd.
    assert (Hnd2 : NoDup (ads ((a, v) :: n1) ++ ads n2)) by by rewrite <-ads_app.
    destruct (chn_cut h al a v n1 n2 e Hnd2 Hc) as (Lc & C1 & C2). rewrite Ec in Lc, C1, C2.
    set (h1 := upn h c PNull) in *.
    assert (Hin : c ∈ ads ((a, v) :: n1)) by (rewrite <-Ec; apply endp_in).
    assert (R1 : relink h h1 (ads ((a, v) :: n1))) by by apply relink_upn.
    assert (Hhc : has h c).
    { eapply chn_has; [exact Hc|]. change ((a, v) :: n1 ++ n2) with (((a, v) :: n1) ++ n2).
      rewrite ads_app. apply elem_of_app. by left. }
    rewrite (bind_ok _ _ _ _ _ (get_next_ok h c _ Lc ltac:(destruct n2 as [|[? ?] ?]; [by destruct He' as [->|(? & -> & _)]|done]))).
    rewrite (bind_ok _ _ _ _ _ (put_next_ok h c _ Hhc)). fold h1.
    pose proof Hnd2 as Hnd3. apply NoDup_app in Hnd3 as (ND1 & ND12 & ND2).
    assert (Hte : forall t, e = PAddr t -> t ∉ ads ((a, v) :: n1) ++ ads n2).
    { intros t -> Hin2. destruct He as [|(t' & [= <-] & V & _)]; [done|].
      change ((a, v) :: n1 ++ n2) with (((a, v) :: n1) ++ n2) in Hc. rewrite <-ads_app in Hin2.
      destruct (chn_node _ _ _ _ _ Hc Hin2) as [x Hx]. by eapply virt_not_node. }
    assert (He1 : isend0 h1 al e).
    { eapply isend0_relink; [exact R1| |done]. intros t Ht Hin2. apply (Hte t Ht). apply elem_of_app. by left. }
    destruct (IH h1 ((a, v) :: n1) PNull C1) as (h2 & z1 & r1 & E2 & S1 & D1 & Z1 & _ & R2 & M2 & K2).
    { by left. } { done. } { done. }
    { cbn [length]. rewrite decide_True by done. destruct (decide (e = PNull)) as [->|_]; [|lia].
      destruct n2; [|cbn [length] in *; lia]. exfalso. apply En. rewrite Ens.
      destruct n1; [done|]. cbn [length] in *. lia. }
    rewrite (bind_ok _ _ _ _ _ (E2 : merge_sort dbl depth lt (PAddr a) h1 = _)).
    assert (C2' : chn h2 al n2 e).
    { eapply chn_relink; [exact R2| |done|exact C2]. intros b Hb Hb2. by apply (ND12 b). }
    assert (He2 : isend0 h2 al e).
    { eapply isend0_relink; [exact R2| |done]. intros t Ht Hin2. apply (Hte t Ht). apply elem_of_app. by left. }
    pose proof (sorted_as_perm _ _ _ S1) as P1.
    destruct (decide (n2 = [])) as [->|Hn2].
    - (* one element in front of the virtual tail *)
      cbn [length] in Hl2. assert (n1 = []) as -> by (destruct n1; [done|cbn [length] in *; lia]).
      assert (z1 = [(a, v)]) as -> by (by apply Permutation_singleton_r in P1).
      cbn [sp]. destruct depth as [|depth]; [cbn [length] in Hd; destruct (decide (e = PNull)); [|lia]; by subst|].
      assert (E3 : merge_sort dbl (S depth) lt e h2 = Ok ((e, PNull), h2)).
      { cbn [merge_sort]. destruct He2 as [->|(t & -> & V & Ht)]; [by rewrite decide_True|].
        rewrite decide_False by done. rewrite bind_bind. rewrite (bind_ok _ _ _ _ _ (get_next_ok h2 t _ Ht ltac:(done))).
        rewrite bind_ret. by rewrite bool_decide_eq_true_2. }
      rewrite (bind_ok _ _ _ _ _ E3). cbn [fst]. unfold merge_nodes.
      rewrite (bind_ok _ _ _ _ _ (m_end_cons _ _ _ _ _ _ D1)).
      rewrite (bind_ok _ _ _ _ _ (m_end_nil _ _ _ (isend0_isend _ _ _ He2))).
      exists h2, [(a, v)], PNull. split; [done|]. subst ns. split; [by apply sa_one|]. split; [done|]. split; [done|].
      split; [simpl; lia|]. split; [by eapply relink_trans|split; [exact M2|exact K2]].
    - destruct (IH h2 n2 e C2' He2 ND2 Hn2) as (h3 & z2 & r2 & E3 & S2 & D2 & Z2 & _ & R3 & M3 & K3).
      { cbn [length] in *. lia. }
      rewrite (bind_ok _ _ _ _ _ E3). cbn [fst].
      pose proof (sorted_as_perm _ _ _ S2) as P2.
      assert (A1 : ads z1 ≡ₚ ads ((a, v) :: n1)) by (unfold ads; by rewrite P1).
      assert (A2 : ads z2 ≡ₚ ads n2) by (unfold ads; by rewrite P2).
      assert (Hndz : NoDup (ads z1 ++ ads z2)).
      { eapply nd_perm; [|exact Hnd2]. by rewrite A1, A2. }
      assert (D1' : chn h3 al z1 PNull).
      { eapply chn_relink; [exact R3| | |exact D1].
        - intros b Hb Hb2. apply (ND12 b); [|done]. by rewrite <-A1.
        - by apply NoDup_app in Hndz as (? & _). }
      destruct (merge_nodes_ok h3 al lt z1 z2 PNull PNull D1' D2) as (h4 & e4 & t & E4 & C4 & He4 & Ht & R4 & K4 & M4);
        [by left|by left|done|done|done|].
      assert (e4 = PNull) as -> by (by destruct He4).
      exists h4, (mrg (on snd lt) z1 z2), (PAddr t). split; [done|]. rewrite Ens.
      assert (Hzz : mrg (on snd lt) z1 z2 ≡ₚ z1 ++ z2) by apply mrg_perm.
      split; [by apply (sa_merge _ ((a, v) :: n1))|]. split; [done|].
      split. { intros Hz. rewrite Hz in Hzz. apply Permutation_nil in Hzz. by destruct z1. }
      split. { intros _ q. by rewrite (Ht q). }
      change ((a, v) :: n1 ++ n2) with (((a, v) :: n1) ++ n2). rewrite ads_app.
      split.
      2:{ change (hmoves h1) with (hmoves h) in M2, K2. apply Permutation_length in P1, P2. cbn [length] in *.
          assert (Hn2' : (1 <= length n2)%nat) by (destruct n2; [done|simpl; lia]).
          rewrite app_length. cbn [length].
          pose proof (sort_bound (N.of_nat (S (length n1) + length n2)) (N.of_nat (S (length n1))) (nlen n2)
            (N.of_nat (S (length n1)) + nlen n2 - 1)) as Hsb. split; lia. }
      assert (W1 : forall b, b ∈ ads ((a, v) :: n1) -> b ∈ ads ((a, v) :: n1) ++ ads n2) by (intros; apply elem_of_app; by left).
      assert (W2 : forall b, b ∈ ads n2 -> b ∈ ads ((a, v) :: n1) ++ ads n2) by (intros; apply elem_of_app; by right).
      eapply relink_trans; [eapply relink_weaken; [exact W1|exact R1]|].
      eapply relink_trans; [eapply relink_weaken; [exact W1|exact R2]|].
      eapply relink_trans; [eapply relink_weaken; [exact W2|exact R3]|].
      eapply relink_weaken; [|exact R4]. intros b. by rewrite A1, A2.
  Qed.

  (** ** The members *)
  Lemma lok_chn h al hd ns tl : lok h al hd ns tl ->
    chn h al ns (PAddr tl) /\ isend0 h al (PAddr tl) /\ NoDup (ads ns) /\ hd ∉ ads ns /\ tl ∉ ads ns /\ hd <> tl.
  Proof.
    intros Lk. destruct (lok_nd2 dbl _ _ _ _ _ Lk) as [Nm Nh]. apply NoDup_app in Nm as (Nm & Nt & _).
    split; [|split; [|split; [done|split; [|split]]]].
    - destruct (lk_seg _ _ _ _ _ _ Lk) as [Ho [L1 _]]. destruct ns as [|[a v] ns]; [done|].
      destruct Ho as (_ & Hv & Ho). split; [done|]. by split.
    - right. exists tl. split; [done|]. split; apply Lk.
    - intros Hin. apply Nh. apply elem_of_app. by left.
    - intros Hin. apply (Nt _ Hin). by left.
    - intros ->. apply Nh. apply elem_of_app. right. by left.
  Qed.
  Lemma rebuild h al hd zs tl e : chn h al zs e -> zs <> [] -> virt h al hd -> virt h al tl -> hd <> tl ->
    NoDup (ads zs) -> nx h tl = Some PNull -> (dbl = true -> pv h hd = Some PNull) ->
    exists s t h1 h2, sp zs PNull = PAddr s /\ (forall e', sp zs e' = PAddr s) /\ (forall q, endp q zs = t) /\
      set_next dbl (PAddr hd) (PAddr s) h = Ok (tt, h1) /\
      set_next dbl (PAddr t) (PAddr tl) h1 = Ok (tt, h2) /\
      lok h2 al hd zs tl /\ relink h h2 (lfp hd zs tl) /\ hmoves h2 = hmoves h.
  Proof.
    intros Hc Hne Vh Vt Hht Hnd Hnt Hph. destruct zs as [|[a v] zs]; [done|].
    set (t := endp a zs). exists a, t, (sn h hd a), (sn (sn h hd a) t tl).
    assert (Hnh : hd ∉ ads ((a, v) :: zs)).
    { intros Hin. destruct (chn_node _ _ _ _ _ Hc Hin) as [x Hx]. exact (virt_not_node _ _ _ _ Vh Hx). }
    assert (Hntl : tl ∉ ads ((a, v) :: zs)).
    { intros Hin. destruct (chn_node _ _ _ _ _ Hc Hin) as [x Hx]. exact (virt_not_node _ _ _ _ Vt Hx). }
    assert (Hta : t ∈ ads ((a, v) :: zs)) by apply endp_in.
    assert (Hha : has h a) by (eapply chn_has; [exact Hc|by left]).
    assert (Hhh : has h hd) by by eapply virt_has. assert (Hhtl : has h tl) by by eapply virt_has.
    assert (Hhtt : has h t) by by eapply chn_has.
    assert (Hth : t <> hd) by (by intros He; rewrite He in Hta). 
    assert (Hatl : a <> tl) by (intros ->; apply Hntl; by left).
    split; [done|]. split; [done|]. split; [done|]. split; [by apply set_next_ok|].
    split; [apply set_next_ok; by apply has_sn|]. split; [|split; [|by rewrite !hm_sn]].
    - rewrite sn_comm by done. apply (lpre_close dbl (sn h t tl) al hd [] ((a, v) :: zs) tl).
      destruct Hc as (Hv & Ho & Hn). split.
      + cbn [app]. constructor; [|apply NoDup_app; split; [done|split; [|apply NoDup_singleton]]].
        * intros [?|?%elem_of_list_singleton]%elem_of_app; done.
        * intros b Hb ->%elem_of_list_singleton. done.
      + unfold virt. by rewrite dt_sn.
      + unfold virt. by rewrite dt_sn.
      + done.
      + split; [unfold node; by rewrite dt_sn|]. split.
        * apply oseg_sn; [done|done|done|done| |done]. intros Hin. apply Hntl. by right.
        * by apply link_sn.
      + rewrite nx_sn by done. rewrite decide_False; [done|]. intros ->. done.
      + intros Hd. rewrite pv_sn by done. rewrite Hd. rewrite decide_False by done. by apply Hph.
    - eapply relink_trans; apply relink_sn; try (by apply has_sn); try done.
      + by left.
      + right. apply elem_of_app. left. by left.
      + right. apply elem_of_app. by left.
      + apply tl_in.
  Qed.
  Lemma lfp_perm hd ns zs tl : zs ≡ₚ ns -> lfp hd zs tl ≡ₚ lfp hd ns tl.
  Proof. intros Hp. unfold lfp, ads. by rewrite Hp. Qed.
  Lemma sort_nil_ok h al hd tl (lt : T -> T -> bool) : lok h al hd [] tl -> hwf h ->
    exists h', l_sort dbl (L (T := T) al hd tl []) lt h = Ok (L (T := T) al hd tl [], h') /\ became dbl h h' al hd tl [] [] /\
      hmoves h' = hmoves h.
  Proof.
    intros Lk Hw. destruct (lok_chn _ _ _ _ _ Lk) as (_ & He & _). unfold l_sort.
    rewrite (bind_ok _ _ _ _ _ (next_at dbl h al hd [] [] tl Lk)). rewrite (bind_ok _ _ _ _ _ (fuel_ok h)). cbn [startp].
    assert (E : merge_sort dbl (S (size (hmap h))) lt (PAddr tl) h = Ok ((PAddr tl, PNull), h)).
    { cbn [merge_sort]. rewrite decide_False by done. rewrite bind_bind.
      rewrite (bind_ok _ _ _ _ _ (get_next_ok h tl _ (lk_tn _ _ _ _ _ _ Lk) ltac:(done))). rewrite bind_ret.
      by rewrite bool_decide_eq_true_2. }
    rewrite (bind_ok _ _ _ _ _ E). cbn [fst snd].
    destruct (lok_has1 dbl _ _ _ [] [] _ Lk) as [Hh Ht]. cbn [endp startp] in Hh, Ht.
    exists (sn h hd tl). rewrite (bind_ok _ _ _ _ _ (set_next_ok dbl h hd tl Hh Ht : set_next dbl (l_head (L (T := T) al hd tl [])) _ _ = _)).
    rewrite decide_True by done. split; [done|]. split; [|by rewrite hm_sn]. split.
    - apply (lpre_close dbl h al hd [] [] tl). by apply (lok_lpre dbl h al hd [] [] tl).
    - apply upd_sn; [done| |by left|apply tl_in]. intros a Ha. by eapply lok_has.
  Qed.
  Lemma sort_n h al hd ns tl lt : hwf h -> lok h al hd ns tl -> length ns <> 1%nat ->
    exists h' zs, l_sort dbl (L al hd tl ns) lt h = Ok (L al hd tl zs, h') /\
      sorted_as (on snd lt) ns zs /\ became dbl h h' al hd tl ns zs /\
      hmoves h' <= hmoves h + nlen ns * N.log2_up (nlen ns) /\ hmoves h + nlen ns <= hmoves h' + 1.
  Proof.
    intros Hw Lk Hlen. destruct (decide (ns = [])) as [->|Hne].
    { destruct (sort_nil_ok h al hd tl lt Lk Hw) as (h' & E & B & M). exists h', []. split; [exact E|].
      split; [apply sa_one; simpl; lia|]. split; [exact B|rewrite M; simpl; lia]. }
    assert (Hl2 : (1 < length ns)%nat) by (destruct ns; [done|]; simpl in *; lia).
    destruct (lok_chn _ _ _ _ _ Lk) as (Hc & He & Hnd & Hnh & Hnt & Hht).
    destruct (merge_sort_ok al lt (S (size (hmap h))) h ns (PAddr tl) Hc He Hnd Hne) as (h1 & zs & r & E & S1 & C1 & Z1 & Hr & R1 & M1).
    { rewrite decide_False by done. pose proof (lok_fuel dbl _ _ _ _ _ Lk). lia. }
    pose proof (sorted_as_perm _ _ _ S1) as P1.
    assert (Pa : ads zs ≡ₚ ads ns) by (unfold ads; by rewrite P1).
    assert (Vh : virt h1 al hd) by (eapply relink_virt; [exact R1|apply Lk]).
    assert (Vt : virt h1 al tl) by (eapply relink_virt; [exact R1|apply Lk]).
    destruct (has_eq h h1 hd (r_fr _ _ _ R1 hd Hnh)) as (_ & Ph & _).
    destruct (has_eq h h1 tl (r_fr _ _ _ R1 tl Hnt)) as (Pt & _ & _).
    destruct (rebuild h1 al hd zs tl PNull C1 Z1 Vh Vt Hht) as (s & t & h2 & h3 & Es & _ & Et & E2 & E3 & Lk3 & R3 & M3).
    { by eapply nd_perm. }
    { rewrite Pt. apply Lk. }
    { intros Hd. rewrite Ph. by apply Lk. }
    exists h3, zs. split; [|split; [done|split; [split; [done|]|by rewrite M3]]].
    - unfold l_sort. rewrite (bind_ok _ _ _ _ _ (next_at dbl h al hd [] ns tl Lk)). rewrite (bind_ok _ _ _ _ _ (fuel_ok h)).
      assert (sp ns (PAddr tl) = PAddr (startp ns tl)) as Esp by by destruct ns as [|[? ?] ?].
      rewrite Esp in E. rewrite (bind_ok _ _ _ _ _ E). cbn [fst snd]. rewrite Es.
      rewrite (bind_ok _ _ _ _ _ (E2 : set_next dbl (l_head (L al hd tl ns)) _ _ = _)).
      rewrite (Hr Hl2 hd), (Et hd). rewrite decide_False by done.
      rewrite (bind_ok _ _ _ _ _ (E3 : set_next dbl _ (l_tail (L al hd tl ns)) _ = _)).
      unfold ret, L. do 3 f_equal. by rewrite (Permutation_length P1).
    - assert (Hfp : forall a, a ∈ lfp hd ns tl -> has h a) by (intros a Ha; by eapply lok_has).
      eapply upd_equiv; [done| |apply (relink_upd h h3 (lfp hd ns tl)); [done|done|]].
      + intros a. by rewrite (lfp_perm hd ns zs tl P1).
      + eapply relink_trans; [eapply relink_weaken; [|exact R1]|eapply relink_weaken; [|exact R3]].
        * intros a Ha. right. apply elem_of_app. by left.
        * intros a. by rewrite (lfp_perm hd ns zs tl P1).
  Qed.
  Lemma sort_ok h al hd ns tl lt : hwf h -> lok h al hd ns tl -> length ns <> 1%nat ->
    exists h' zs, l_sort dbl (L al hd tl ns) lt h = Ok (L al hd tl zs, h') /\
      sorted_as (on snd lt) ns zs /\ became dbl h h' al hd tl ns zs.
  Proof. intros Hw Lk Hl. destruct (sort_n h al hd ns tl lt Hw Lk Hl) as (h' & zs & E & S & B & _). by exists h', zs. Qed.
  Lemma merge_n h al hd ns tl hd2 ms tl2 lt : hwf h -> lok h al hd ns tl -> lok h al hd2 ms tl2 ->
    apart (lfp hd ns tl) (lfp hd2 ms tl2) -> ns <> [] -> ms <> [] -> nlen ns + nlen ms < W ->
    let zs := mrg (on snd lt) ns ms in
    exists h', l_merge dbl (L al hd tl ns) (L al hd2 tl2 ms) lt h =
        Ok ((L al hd tl zs, L (T := T) al hd2 tl2 []), h') /\
      lok h' al hd zs tl /\ lok h' al hd2 [] tl2 /\
      upd h h' (lfp hd ns tl ++ lfp hd2 ms tl2) (lfp hd zs tl ++ lfp hd2 ([] : list (N * T)) tl2) /\
      hmoves h + 1 <= hmoves h' /\ hmoves h' + 1 <= hmoves h + (nlen ns + nlen ms).
  Proof.
    intros Hw Lk1 Lk2 Hap Hn Hm Hlen zs.
    destruct (lok_chn _ _ _ _ _ Lk1) as (Hc1 & He1 & Hnd1 & Hnh1 & Hnt1 & Hht1).
    destruct (lok_chn _ _ _ _ _ Lk2) as (Hc2 & He2 & Hnd2 & Hnh2 & Hnt2 & Hht2).
    assert (I1 : hd ∈ lfp hd ns tl) by by left. assert (I2 : tl ∈ lfp hd ns tl) by apply tl_in.
    assert (I3 : hd2 ∈ lfp hd2 ms tl2) by by left. assert (I4 : tl2 ∈ lfp hd2 ms tl2) by apply tl_in.
    assert (In1 : forall a, a ∈ ads ns -> a ∈ lfp hd ns tl) by (intros a; apply ads_in_lfp).
    assert (In2 : forall a, a ∈ ads ms -> a ∈ lfp hd2 ms tl2) by (intros a; apply ads_in_lfp).
    assert (Hh2 : has h hd2) by (eapply lok_has; [exact Lk2|done]).
    assert (Ht2 : has h tl2) by (eapply lok_has; [exact Lk2|done]).
    set (h1 := sn h hd2 tl2).
    assert (E1 : set_next dbl (PAddr hd2) (PAddr tl2) h = Ok (tt, h1)) by by apply set_next_ok.
    assert (R1 : relink h h1 [hd2; tl2]) by (apply relink_sn; [done|done|by left|by right; left]).
    assert (F1 : forall a, a ∈ lfp hd ns tl -> a ∉ [hd2; tl2]).
    { intros a Ha [->|[->|[]%elem_of_nil]%elem_of_cons]%elem_of_cons; eapply Hap; eauto. }
    assert (Lk1' : lok h1 al hd ns tl).
    { eapply lok_frame; [|exact Lk1]. intros a Ha. apply R1. by apply F1. }
    assert (Lo1 : lok h1 al hd2 [] tl2).
    { apply (lpre_close dbl h al hd2 [] [] tl2). apply (lpre_drop_r dbl h al hd2 [] ms [] tl2). apply lok_lpre.
      by rewrite app_nil_r. }
    destruct (lok_chn _ _ _ _ _ Lk1') as (Hc1' & He1' & _).
    assert (Hc2' : chn h1 al ms (PAddr tl2)).
    { eapply chn_relink; [exact R1| |done|exact Hc2].
      intros a Ha [->|[->|[]%elem_of_nil]%elem_of_cons]%elem_of_cons; done. }
    assert (He2' : isend h1 al (PAddr tl2)).
    { eapply isend_relink; [exact R1|]. by apply isend0_isend. }
    assert (Hnd12 : NoDup (ads ns ++ ads ms)).
    { apply NoDup_app. split; [done|]. split; [|done]. intros a Ha Hb. apply (Hap a); auto. }
    destruct (merge_nodes_ok h1 al lt ns ms (PAddr tl) (PAddr tl2) Hc1' Hc2' (isend0_isend _ _ _ He1') He2' Hnd12 Hn Hm)
      as (h2 & e & t & E2 & C2 & _ & Ht & R2 & M2a & M2b). fold zs in E2, C2, Ht.
    assert (Hp : zs ≡ₚ ns ++ ms) by apply mrg_perm.
    assert (Hz : zs <> []).
    { intros Hz. rewrite Hz in Hp. apply Permutation_nil in Hp. by destruct ns. }
    assert (Pa : ads zs ≡ₚ ads ns ++ ads ms) by (rewrite <-ads_app; unfold ads; by rewrite Hp).
    assert (Fr : forall a, a ∈ lfp hd ns tl ++ lfp hd2 ms tl2 -> a ∉ ads ns -> a ∉ ads ms -> a ∉ ads ns ++ ads ms).
    { intros a _ ? ? [?|?]%elem_of_app; done. }
    assert (Hhm : hd ∉ ads ms) by (intros Hin; apply (Hap hd); auto).
    assert (Htm : tl ∉ ads ms) by (intros Hin; apply (Hap tl); auto).
    assert (Hh2n : hd2 ∉ ads ns) by (intros Hin; apply (Hap hd2); auto).
    assert (Ht2n : tl2 ∉ ads ns) by (intros Hin; apply (Hap tl2); auto).
    assert (Nh : hd ∉ ads ns ++ ads ms) by (intros [?|?]%elem_of_app; done).
    assert (Nt : tl ∉ ads ns ++ ads ms) by (intros [?|?]%elem_of_app; done).
    destruct (has_eq h1 h2 hd (r_fr _ _ _ R2 hd Nh)) as (_ & Ph & _).
    destruct (has_eq h1 h2 tl (r_fr _ _ _ R2 tl Nt)) as (Pt & _ & _).
    destruct (rebuild h2 al hd zs tl e C2 Hz) as (s & t' & h3 & h4 & _ & Es & Et & E3 & E4 & Lk4 & R4 & M4).
    { eapply relink_virt; [exact R2|apply Lk1']. }
    { eapply relink_virt; [exact R2|apply Lk1']. }
    { done. }
    { by eapply nd_perm. }
    { rewrite Pt. apply Lk1'. }
    { intros Hd. rewrite Ph. by apply Lk1'. }
    assert (t' = t) as -> by (by rewrite <-(Et 0), <-(Ht 0)).
    assert (Lo4 : lok h4 al hd2 [] tl2).
    { eapply lok_frame; [|exact Lo1]. intros a Ha.
      assert (Ha2 : a = hd2 \/ a = tl2).
      { apply elem_of_cons in Ha as [->|Ha]; [by left|]. simpl in Ha. apply elem_of_list_singleton in Ha as ->. by right. }
      assert (Na : a ∉ ads ns ++ ads ms) by (intros [?|?]%elem_of_app; destruct Ha2 as [-> | ->]; done).
      rewrite (r_fr _ _ _ R4); [by apply R2|]. intros [->|[Hin|Hin%elem_of_list_singleton]%elem_of_app]%elem_of_cons.
      - apply (Hap hd); [done|]. by destruct Ha2 as [-> | ->].
      - rewrite Pa in Hin. done.
      - subst a. apply (Hap tl); [done|]. by destruct Ha2 as [-> | ->]. }
    exists h4. split; [|split; [done|split; [done|split; [|unfold h1 in M2a, M2b; rewrite hm_sn in M2a, M2b; lia]]]].
    - unfold l_merge. cbn [l_len l_head l_tail L]. destruct (N.eqb_spec (nlen ms) 0) as [E0|_]; [by destruct ms|].
      rewrite (bind_ok _ _ _ _ _ (next_at dbl h al hd [] ns tl Lk1)).
      rewrite (bind_ok _ _ _ _ _ (next_at dbl h al hd2 [] ms tl2 Lk2)).
      rewrite (bind_ok _ _ _ _ _ E1).
      assert (sp ns (PAddr tl) = PAddr (startp ns tl)) as Esp1 by by destruct ns as [|[? ?] ?].
      assert (sp ms (PAddr tl2) = PAddr (startp ms tl2)) as Esp2 by by destruct ms as [|[? ?] ?].
      rewrite Esp1, Esp2 in E2. rewrite (bind_ok _ _ _ _ _ E2). cbn [fst snd]. rewrite Es.
      rewrite (bind_ok _ _ _ _ _ E3). rewrite decide_False by done. rewrite (bind_ok _ _ _ _ _ E4).
      unfold ret, L, set_len. cbn [l_head l_tail l_al l_len]. rewrite uadd_small by done. do 4 f_equal.
      rewrite (Permutation_length Hp), app_length. lia.
    - assert (Hfp : forall a, a ∈ lfp hd ns tl ++ lfp hd2 ms tl2 -> has h a).
      { intros a [Ha|Ha]%elem_of_app; [exact (lok_has _ _ _ _ _ _ a Lk1 Ha)|exact (lok_has _ _ _ _ _ _ a Lk2 Ha)]. }
      eapply upd_equiv; [done| |apply (relink_upd h h4 (lfp hd ns tl ++ lfp hd2 ms tl2)); [done|done|]].
      + intros a. unfold lfp. cbn [ads fmap list_fmap app].
        repeat (rewrite elem_of_app || rewrite elem_of_cons). change (zs.*1) with (ads zs). rewrite Pa.
        repeat (rewrite elem_of_app || rewrite elem_of_cons). rewrite !elem_of_nil. naive_solver.
      + eapply relink_trans; [eapply relink_weaken; [|exact R1]|].
        { intros a [->|[->|[]%elem_of_nil]%elem_of_cons]%elem_of_cons; apply elem_of_app; by right. }
        eapply relink_trans; [eapply relink_weaken; [|exact R2]|eapply relink_weaken; [|exact R4]].
        * intros a [Ha|Ha]%elem_of_app; apply elem_of_app; [left; auto|right; auto].
        * intros a [->|[Ha|Ha%elem_of_list_singleton]%elem_of_app]%elem_of_cons; apply elem_of_app; [by left| |left; by subst].
          rewrite Pa in Ha. apply elem_of_app in Ha as [Ha|Ha]; [left; auto|right; auto].
  Qed.
  Lemma merge_ok h al hd ns tl hd2 ms tl2 lt : hwf h -> lok h al hd ns tl -> lok h al hd2 ms tl2 ->
    apart (lfp hd ns tl) (lfp hd2 ms tl2) -> ns <> [] -> ms <> [] -> nlen ns + nlen ms < W ->
    let zs := mrg (on snd lt) ns ms in
    exists h', l_merge dbl (L al hd tl ns) (L al hd2 tl2 ms) lt h =
        Ok ((L al hd tl zs, L (T := T) al hd2 tl2 []), h') /\
      lok h' al hd zs tl /\ lok h' al hd2 [] tl2 /\
      upd h h' (lfp hd ns tl ++ lfp hd2 ms tl2) (lfp hd zs tl ++ lfp hd2 ([] : list (N * T)) tl2).
  Proof.
    intros Hw L1 L2 Ha Hn Hm Hl. destruct (merge_n h al hd ns tl hd2 ms tl2 lt Hw L1 L2 Ha Hn Hm Hl) as (h' & E & B1 & B2 & B3 & _).
    by exists h'.
  Qed.
  Lemma merge_empty_ok (l : lst) al hd2 tl2 lt h :
    l_merge dbl l (L (T := T) al hd2 tl2 []) lt h = Ok ((l, L (T := T) al hd2 tl2 []), h) /\
    l_merge_rv dbl l (L (T := T) al hd2 tl2 []) lt h = Ok ((l, L (T := T) al hd2 tl2 []), h).
  Proof. done. Qed.
End Srt.
