(** * MixProofs: programs with lists, vectors and pipelines between them follow
    their specification *)
From Verif Require Import Base World Machine IterProps ListModel ListSeg ListOps ListOps2 ListOps3 ListOps4 ListOps5
  SortSpec ListSort ListStep ListSpec ListRefine PipeModel Tri PipeProofs ListPipe ListPipeProofs.
From Verif Require VecModel VecSpec VecProofs VecProofs2 VecRefine VecMore VecProps.
From Verif Require Import MixPipe.
Local Open Scope N_scope.

(** ** A world with storage that no variable owns (yet) *)
Section Loose.
  Context {C O Sp : Type} (rep : heap C -> O -> Sp -> list N -> Prop).
  Context (rep_frame : forall h h' o s fp, rep h o s fp ->
             (forall a, a ∈ fp -> hmap h' !! a = hmap h !! a) -> rep h' o s fp).
  Context (rep_dom : forall h o s fp a, rep h o s fp -> a ∈ fp -> is_Some (hmap h !! a)).
  Notation wokw := (world_ok_with rep).

  Record loose_with (w : world C O) (sp : gmap nat Sp) (m : gmap nat (entry (O := O) (Sp := Sp))) (fp : list N) : Prop := {
    lo_wf : hwf (w_heap w);
    lo_vars : w_vars w = e_o <$> m;
    lo_spec : sp = e_s <$> m;
    lo_rep : forall i e, m !! i = Some e -> rep (w_heap w) (e_o e) (e_s e) (e_fp e);
    lo_disj : forall i j e f a, m !! i = Some e -> m !! j = Some f -> i <> j -> a ∈ e_fp e -> a ∈ e_fp f -> False;
    lo_free : forall i e a, m !! i = Some e -> a ∈ e_fp e -> a ∈ fp -> False;
    lo_cover : forall a, is_Some (hmap (w_heap w) !! a) -> (exists i e, m !! i = Some e /\ a ∈ e_fp e) \/ a ∈ fp;
  }.
  Definition loose w sp fp := exists m, loose_with w sp m fp.

  Lemma loose_nil w sp : loose w sp [] -> world_ok rep w sp.
  Proof using.
    intros [m [H1 H2 H3 H4 H5 H6 H7]]. exists m. split; try done. intros a Ha.
    destruct (H7 a Ha) as [?|Hn]; [done|]. by apply elem_of_nil in Hn.
  Qed.
  Lemma loose_new w sp j o s fp : loose w sp fp -> sp !! j = None -> rep (w_heap w) o s fp ->
    world_ok rep (World (w_heap w) (<[j := o]> (w_vars w))) (<[j := s]> sp).
  Proof using.
    intros [m [H1 H2 H3 H4 H5 H6 H7]] Hj Hr. exists (<[j := Entry o s fp]> m).
    assert (Hm : m !! j = None) by (rewrite H3, lookup_fmap in Hj; by destruct (m !! j)).
    split; cbn [w_heap w_vars].
    - done.
    - by rewrite fmap_insert, H2.
    - by rewrite fmap_insert, H3.
    - intros i e. destruct (decide (j = i)) as [<-|Hn]; [rewrite lookup_insert|rewrite lookup_insert_ne by done].
      + by intros [= <-].
      + apply H4.
    - intros i k e f a. destruct (decide (j = i)) as [<-|Hni], (decide (j = k)) as [<-|Hnk];
        rewrite ?lookup_insert, ?lookup_insert_ne by done.
      + done.
      + intros [= <-] Hk _ Ha Hb. by eapply H6.
      + intros Hi [= <-] _ Ha Hb. by eapply H6.
      + apply H5.
    - intros a Ha. destruct (H7 a Ha) as [(i & e & Hi & Hin)|Hin].
      + exists i, e. split; [|done]. rewrite lookup_insert_ne; [done|]. intros ->. congruence.
      + exists j, (Entry o s fp). by rewrite lookup_insert.
  Qed.
  (** Something new was made and nothing else was touched. *)
  Lemma loose_made w sp m h' fp : wokw w sp m -> upd (w_heap w) h' [] fp -> loose (World h' (w_vars w)) sp fp.
  Proof using rep_frame rep_dom.
    intros Hw Hu. exists m. split; cbn [w_heap w_vars].
    - apply Hu.
    - apply Hw.
    - apply Hw.
    - intros i e Hi. eapply world_other_rep; [exact rep_frame|exact rep_dom|exact Hw|exact Hu|exact Hi|].
      by intros a _ ?%elem_of_nil.
    - apply Hw.
    - intros i e a Hi Ha Hb. destruct (upd_new _ _ _ _ Hu a Hb) as [Hx|Hx]; [by apply elem_of_nil in Hx|].
      assert (a < hnext (w_heap w)) by (by eapply wo_dom). lia.
    - intros a Ha. apply (upd_dom _ _ _ _ Hu) in Ha as [[Ha _]|Ha]; [left|by right]. by apply (wo_cover _ _ _ _ Hw).
  Qed.
  (** Something was made of what one variable owned. *)
  Lemma loose_from w sp m i e h' o' s' fp : wokw w sp m -> m !! i = Some e -> upd (w_heap w) h' (e_fp e) fp ->
    rep h' o' s' [] -> loose (World h' (<[i := o']> (w_vars w))) (<[i := s']> sp) fp.
  Proof using rep_frame rep_dom.
    intros Hw Hi Hu Hr. exists (<[i := Entry o' s' []]> m). split; cbn [w_heap w_vars].
    - apply Hu.
    - rewrite fmap_insert. f_equal. apply Hw.
    - rewrite fmap_insert. f_equal. apply Hw.
    - intros j f. destruct (decide (i = j)) as [<-|Hn]; [rewrite lookup_insert|rewrite lookup_insert_ne by done].
      + by intros [= <-].
      + intros Hj. eapply world_other_rep; [exact rep_frame|exact rep_dom|exact Hw|exact Hu|exact Hj|].
        intros a Ha Hb. by eapply (wo_disj _ _ _ _ Hw i j e f a).
    - intros j k f g a. destruct (decide (i = j)) as [<-|Hni], (decide (i = k)) as [<-|Hnk];
        rewrite ?lookup_insert, ?lookup_insert_ne by done.
      + done.
      + intros [= <-] Hk _ Ha. by apply elem_of_nil in Ha.
      + intros Hj [= <-] _ _ Ha. by apply elem_of_nil in Ha.
      + apply Hw.
    - intros j f a. destruct (decide (i = j)) as [<-|Hn]; [rewrite lookup_insert|rewrite lookup_insert_ne by done].
      + intros [= <-] Ha. by apply elem_of_nil in Ha.
      + intros Hj Ha Hb. destruct (upd_new _ _ _ _ Hu a Hb) as [Hx|Hx]; [by eapply (wo_disj _ _ _ _ Hw i j e f a)|].
        assert (a < hnext (w_heap w)) by (by eapply wo_dom). lia.
    - intros a Ha. apply (upd_dom _ _ _ _ Hu) in Ha as [[Ha Hn]|Ha]; [left|by right].
      destruct (wo_cover _ _ _ _ Hw a Ha) as (j & f & Hj & Hf). exists j, f. split; [|done].
      rewrite lookup_insert_ne; [done|]. intros ->. naive_solver.
  Qed.
End Loose.

(** ** Sources, bundled *)
Section Src.
  Context {H Ad V It : Type} {MM : mem H Ad}.
  Notation HM := (M H).
  Notation asn := (H -> list Ad -> Prop).
  (** A source that may be asked and destroyed. *)
  Record is_into (rd : list Ad) (rdp : H -> Prop) (nx : It -> HM (It * option V)) (dl : It -> HM unit)
      (Sr : It -> list V -> asn) : Prop := IsInto {
    i_frame : forall h h', rdp h -> (forall a, a ∈ rd -> mlook h' a = mlook h a) -> rdp h';
    i_dom : forall h a, rdp h -> a ∈ rd -> is_Some (mlook h a);
    i_ok : forall it xs, asn_ok rd rdp (Sr it xs);
    i_next : forall it xs, tri rd rdp (Sr it xs) (nx it) (fun r => pur (snd r = head xs) (Sr (fst r) (tail xs)));
    i_del : forall it xs, tri rd rdp (Sr it xs) (dl it) (fun _ => emp);
  }.
  (** A source that may be copied and moved as well. *)
  Record is_src (rd : list Ad) (rdp : H -> Prop) (nx : It -> HM (It * option V)) (cp : It -> HM It)
      (mv : It -> It * It) (dl : It -> HM unit) (Sr : It -> list V -> asn) : Prop := IsSrc {
    s_into : is_into rd rdp nx dl Sr;
    s_move : forall it xs, ent (Sr it xs) (Sr (fst (mv it)) xs);
    s_left : forall it, tri rd rdp emp (dl (snd (mv it))) (fun _ => emp);
    s_copy : forall it xs, tri rd rdp (Sr it xs) (cp it) (fun it' => star (Sr it' xs) (Sr it xs));
  }.
End Src.
Section Lift.
  Context {S1 A1 S2 A2 V It : Type} {M1 : mem S1 A1} {M2 : mem S2 A2}.
  Lemma into_inl rd rdp (nx : It -> M S1 (It * option V)) dl Sr : is_into rd rdp nx dl Sr ->
    is_into (inl <$> rd) (fun h : S1 * S2 => rdp (fst h)) (fun it => inl_m (nx it)) (fun it => inl_m (dl it))
      (fun it xs => onl (A2 := A2) (Sr it xs)).
  Proof.
    intros [Hf Hd Hok Hn Hdl]. split.
    - intros h h' Hr Ha. eapply Hf; [exact Hr|]. intros a Hin. specialize (Ha (inl a)). rewrite elem_inl in Ha.
      specialize (Ha Hin). cbn in Ha. destruct (mlook (fst h') a), (mlook (fst h) a); cbn in Ha; naive_solver.
    - intros h a Hr (b & -> & Hb)%elem_of_list_fmap. cbn. apply fmap_is_Some. by apply Hd.
    - intros it xs. by apply ok_inl.
    - intros it xs. eapply tri_post; [apply tri_inl, Hn|]. intros r h fp (f & -> & Hp & Hs).
      exists (inl <$> f). split; [done|]. split; [done|]. by exists f.
    - intros it xs. eapply tri_post; [apply tri_inl, Hdl|]. intros r h fp Hp. cbn beta in Hp.
      apply onl_emp in Hp as ->. by exists [].
  Qed.
  Lemma src_inl rd rdp (nx : It -> M S1 (It * option V)) cp mv dl Sr : is_src rd rdp nx cp mv dl Sr ->
    is_src (inl <$> rd) (fun h : S1 * S2 => rdp (fst h)) (fun it => inl_m (nx it)) (fun it => inl_m (cp it)) mv
      (fun it => inl_m (dl it)) (fun it xs => onl (A2 := A2) (Sr it xs)).
  Proof.
    intros [Hi Hm Hl Hc]. split.
    - by apply into_inl.
    - intros it xs. apply ent_inl, Hm.
    - intros it. eapply tri_ent; [|apply tri_inl, Hl|].
      + intros h fp Hp. unfold emp in Hp. subst fp. exists []. split; [done|]. by exists [].
      + intros r h fp Hp. cbn beta in Hp. apply onl_emp in Hp as ->. by exists [].
    - intros it xs. eapply tri_post; [apply tri_inl, Hc|]. intros it'. apply onl_star.
  Qed.
  Lemma into_inr rd rdp (nx : It -> M S2 (It * option V)) dl Sr : is_into rd rdp nx dl Sr ->
    is_into (inr <$> rd) (fun h : S1 * S2 => rdp (snd h)) (fun it => inr_m (nx it)) (fun it => inr_m (dl it))
      (fun it xs => onr (A1 := A1) (Sr it xs)).
  Proof.
    intros [Hf Hd Hok Hn Hdl]. split.
    - intros h h' Hr Ha. eapply Hf; [exact Hr|]. intros a Hin. specialize (Ha (inr a)). rewrite elem_inr in Ha.
      specialize (Ha Hin). cbn in Ha. destruct (mlook (snd h') a), (mlook (snd h) a); cbn in Ha; naive_solver.
    - intros h a Hr (b & -> & Hb)%elem_of_list_fmap. cbn. apply fmap_is_Some. by apply Hd.
    - intros it xs. by apply ok_inr.
    - intros it xs. eapply tri_post; [apply tri_inr, Hn|]. intros r h fp (f & -> & Hp & Hs).
      exists (inr <$> f). split; [done|]. split; [done|]. by exists f.
    - intros it xs. eapply tri_post; [apply tri_inr, Hdl|]. intros r h fp Hp. cbn beta in Hp.
      apply onr_emp in Hp as ->. by exists [].
  Qed.
  Lemma src_inr rd rdp (nx : It -> M S2 (It * option V)) cp mv dl Sr : is_src rd rdp nx cp mv dl Sr ->
    is_src (inr <$> rd) (fun h : S1 * S2 => rdp (snd h)) (fun it => inr_m (nx it)) (fun it => inr_m (cp it)) mv
      (fun it => inr_m (dl it)) (fun it xs => onr (A1 := A1) (Sr it xs)).
  Proof.
    intros [Hi Hm Hl Hc]. split.
    - by apply into_inr.
    - intros it xs. apply ent_inr, Hm.
    - intros it. eapply tri_ent; [|apply tri_inr, Hl|].
      + intros h fp Hp. unfold emp in Hp. subst fp. exists []. split; [done|]. by exists [].
      + intros r h fp Hp. cbn beta in Hp. apply onr_emp in Hp as ->. by exists [].
    - intros it xs. eapply tri_post; [apply tri_inr, Hc|]. intros it'. apply onr_star.
  Qed.
End Lift.

(** ** Collections, bundled: needing nothing to be read *)
Section Sink.
  Context {H Ad V K R : Type} {MM : mem H Ad}.
  Notation asn := (H -> list Ad -> Prop).
  Notation top := (fun _ : H => True).
  Record is_sink (kn : M H K) (kp : K -> V -> M H K) (ke : K -> M H R) (room : nat -> Prop)
      (Kp : K -> list V -> asn) (Rp : R -> list V -> asn) : Prop := IsSink {
    k_ok : forall k vs, asn_ok [] top (Kp k vs);
    k_res : forall r vs, asn_ok [] top (Rp r vs);
    k_le : forall m n, (m <= n)%nat -> room n -> room m;
    k_new : tri [] top emp kn (fun k => Kp k []);
    k_put : forall k vs v, room (S (length vs)) -> tri [] top (Kp k vs) (kp k v) (fun k' => Kp k' (vs ++ [v]));
    k_end : forall k vs, tri [] top (Kp k vs) (ke k) (fun r => Rp r vs);
  }.
End Sink.
Section LiftSink.
  Context {S1 A1 S2 A2 V K R : Type} {M1 : mem S1 A1} {M2 : mem S2 A2}.
  Lemma sink_inl (kn : M S1 K) (kp : K -> V -> M S1 K) (ke : K -> M S1 R) room Kp Rp : is_sink kn kp ke room Kp Rp ->
    is_sink (H := S1 * S2) (inl_m kn) (fun k v => inl_m (kp k v)) (fun k => inl_m (ke k)) room
      (fun k vs => onl (A2 := A2) (Kp k vs)) (fun r vs => onl (Rp r vs)).
  Proof.
    intros [H1 H2 H3 H4 H5 H6]. split.
    - intros k vs. exact (ok_inl [] _ _ (H1 k vs)).
    - intros k vs. exact (ok_inl [] _ _ (H2 k vs)).
    - exact H3.
    - eapply tri_pre; [|exact (tri_inl [] _ _ _ _ H4)]. intros h fp Hp. unfold emp in Hp. subst fp. exists [].
      split; [done|]. by exists [].
    - intros k vs v Hr. exact (tri_inl [] _ _ _ _ (H5 k vs v Hr)).
    - intros k vs. exact (tri_inl [] _ _ _ _ (H6 k vs)).
  Qed.
  Lemma sink_inr (kn : M S2 K) (kp : K -> V -> M S2 K) (ke : K -> M S2 R) room Kp Rp : is_sink kn kp ke room Kp Rp ->
    is_sink (H := S1 * S2) (inr_m kn) (fun k v => inr_m (kp k v)) (fun k => inr_m (ke k)) room
      (fun k vs => onr (A1 := A1) (Kp k vs)) (fun r vs => onr (Rp r vs)).
  Proof.
    intros [H1 H2 H3 H4 H5 H6]. split.
    - intros k vs. exact (ok_inr [] _ _ (H1 k vs)).
    - intros k vs. exact (ok_inr [] _ _ (H2 k vs)).
    - exact H3.
    - eapply tri_pre; [|exact (tri_inr [] _ _ _ _ H4)]. intros h fp Hp. unfold emp in Hp. subst fp. exists [].
      split; [done|]. by exists [].
    - intros k vs v Hr. exact (tri_inr [] _ _ _ _ (H5 k vs v Hr)).
    - intros k vs. exact (tri_inr [] _ _ _ _ (H6 k vs)).
  Qed.
End LiftSink.

(** ** Whole expressions, in terms of the bundles *)
Section Whole.
  Context {H Ad V It : Type} {MM : mem H Ad}.
  Notation asn := (H -> list Ad -> Prop).
  Context (rd : list Ad) (rdp : H -> Prop) (nx : It -> M H (It * option V)) (cp : It -> M H It) (mv : It -> It * It)
    (dl : It -> M H unit) (Sr : It -> list V -> asn).
  Section Into.
    Context (HS : is_into rd rdp nx dl Sr).
    Lemma into_collect {K R} (kn : M H K) (kp : K -> V -> M H K) (ke : K -> M H R) room Kp Rp fuel xs it :
      is_sink kn kp ke room Kp Rp -> (length xs < fuel)%nat -> room (length xs) ->
      tri rd rdp (Sr it xs) (by_ref dl (collect_body fuel nx kn kp ke) it) (fun r => Rp r xs).
    Proof. clear cp mv.
      intros [K1 K2 K3 K4 K5 K6] Hf Hr. destruct HS as [Hfr Hd Hok Hn Hdl].
      assert (K2' : forall r, asn_ok rd rdp (Rp r xs)) by (intros r; apply ok_rd, K2).
      apply (by_ref_tri rd rdp Hfr Hd dl Sr Hdl _ K2').
      intros it2. apply (collect_body_tri rd rdp Hfr Hd nx (fun i => ret i) (fun i => (i, i)) dl Sr Hok Hn Hdl
        fuel [] xs Hf kn kp ke Kp Rp room); try done.
      - intros k vs. apply ok_rd, K1.
      - intros k vs. apply ok_rd, K2.
      - apply tri_rd, K4.
      - intros k vs v Hv. by apply tri_rd, K5.
      - intros k vs. apply tri_rd, K6.
    Qed.
    Lemma into_take n xs it :
      tri rd rdp (Sr it xs) (by_ref dl (take_body nx n) it) (pureQ ((fun i => xs !! i) <$> seq 0 n)).
    Proof. clear cp mv.
      destruct HS as [Hfr Hd Hok Hn Hdl]. apply (by_ref_tri rd rdp Hfr Hd dl Sr Hdl); [intros; apply pureQ_ok|].
      intros it2. apply (take_tri rd rdp Hfr Hd nx (fun i => ret i) (fun i => (i, i)) dl Sr Hok Hn Hdl (fun l => l) (length xs)); [|done].
      apply (pnext_tri rd rdp Hfr Hd nx (fun i => ret i) (fun i => (i, i)) dl Sr Hok Hn Hdl [] (S (length xs)) (length xs)). lia.
    Qed.
  End Into.
  Context (HS : is_src rd rdp nx cp mv dl Sr) (bar : bool) (ps : list (padapt (V := V))).
  Lemma pipe_collect {K R} (kn : M H K) (kp : K -> V -> M H K) (ke : K -> M H R) room Kp Rp fuel xs it :
    is_sink kn kp ke room Kp Rp -> (length xs < fuel)%nat -> room (length (denote ps xs)) ->
    tri rd rdp (Sr it xs) (run_collect nx cp mv dl bar fuel ps kn kp ke it) (fun r => Rp r (denote ps xs)).
  Proof.
    intros [K1 K2 K3 K4 K5 K6] Hf Hr. destruct HS as [[Hfr Hd Hok Hn Hdl] Hm Hl Hc].
    apply (run_collect_tri rd rdp Hfr Hd nx cp mv dl Sr Hok Hn Hdl Hm Hl Hc bar fuel ps xs Hf kn kp ke Kp Rp room); try done.
    - intros k vs. apply ok_rd, K1.
    - intros k vs. apply ok_rd, K2.
    - apply tri_rd, K4.
    - intros k vs v Hv. by apply tri_rd, K5.
    - intros k vs. apply tri_rd, K6.
  Qed.
End Whole.

(** ** Vectors *)
Section Vec.
  Import VecModel VecSpec VecProofs VecProofs2 VecMore.
  Context {T : Type} (sz lmax : N) (Hsz : 1 <= sz) (Hlim : sz * (2 * lmax + 2) <= alloc_max).
  Notation H := (heap (block T)).
  Notation asn := (H -> list N -> Prop).
  Notation vrep := (VecProofs.vrep (A := T) sz lmax).

  Lemma vrefl_nil (h : H) : hwf h -> upd h h [] [].
  Proof. intros Hw. apply upd_refl; [done|]. by intros b ?%elem_of_nil. Qed.

  (** A vector that is looked at. *)
  Section Borrow.
    Context (v : vec) (zs : list T) (fz : list N).
    Notation rdp := (fun h => vrep h v zs fz).
    Definition Sv (it : viter) (xs : list T) : asn := fun h fp =>
      fp = [] /\ exists k, it = VIter (v_ptr v) (N.of_nat k) (v_len v) /\ xs = drop k zs /\ (k <= length zs)%nat.
    Lemma v_src : is_src fz rdp v_next v_copy v_move v_del Sv.
    Proof. clear Hsz Hlim.
      split; [split|..].
      - intros h h' Hr Hf. by eapply vrep_frame.
      - intros h a Hr Ha. by eapply vrep_dom.
      - intros it xs. split.
        + intros h h' fp _ Hs _. exact Hs.
        + intros h fp a [-> _]. by intros ?%elem_of_nil.
      - intros it xs h fp Hw Hr _ [-> (k & -> & -> & Hk)]. unfold v_next, viter_next.
        cbn [vi_cur vi_end vi_ptr]. assert (Hl : v_len v = nlen zs) by apply Hr. unfold nlen in Hl.
        destruct (N.eqb_spec (N.of_nat k) (v_len v)) as [E|E]; cbn [negb].
        + eexists (_, _), h, []. split; [done|]. split; [|by apply vrefl_nil]. cbn [fst snd].
          rewrite drop_ge by lia. split; [done|]. split; [done|]. exists k. split; [done|].
          rewrite drop_ge by lia. by split.
        + destruct (lookup_lt_is_Some_2 zs k) as [x Hx]; [lia|].
          rewrite (bind_ok _ _ _ _ _ (bind_ok _ _ _ _ _ (vread_at sz lmax _ _ _ _ _ _ Hr Hx))).
          eexists (_, _), h, []. split; [done|]. split; [|by apply vrefl_nil]. cbn [fst snd].
          rewrite (drop_S zs x k Hx). split; [done|]. split; [done|]. exists (S k).
          split; [|split; [done|lia]]. f_equal. lia.
      - intros it xs h fp Hw Hr _ [-> _]. eexists _, h, []. split; [done|]. split; [done|by apply vrefl_nil].
      - intros it xs. apply ent_refl.
      - intros it h fp Hw Hr _ Hem. unfold emp in Hem. subst fp. eexists _, h, []. split; [done|].
        split; [done|by apply vrefl_nil].
      - intros it xs h fp Hw Hr _ [-> Hs]. eexists _, h, []. split; [done|]. split; [|by apply vrefl_nil].
        exists [], []. split; [done|]. split; [by intros a ?%elem_of_nil|]. by split.
    Qed.
    Lemma Sv_new h : vrep h v zs fz -> Sv (iter v) zs h [].
    Proof. clear Hsz Hlim. intros Hr. split; [done|]. exists 0%nat. split; [done|]. split; [done|lia]. Qed.
  End Borrow.

  (** A vector that is consumed. *)
  Notation iirep := (VecMore.iirep (A := T) sz lmax).
  Definition Svi (it : into_iter) (xs : list T) : asn := fun h fp => iirep h it xs fp.
  Lemma vi_src : is_into [] (fun _ => True) (vi_next sz) (into_iter_drop sz) Svi.
  Proof.
    split.
    - done.
    - by intros h a _ ?%elem_of_nil.
    - intros it xs. split.
      + intros h h' fp _ Hr Hf. rewrite app_nil_r in Hf.
        destruct Hr as [(He & -> & Hr)|(a & k & m & Hp & -> & Hne & Hm & Hl & Hc & Hpos & Hlen & Hb)].
        * left. split; [done|]. split; [done|]. by eapply vrep_frame.
        * right. exists a, k, m. do 8 (split; [done|]). specialize (Hf a). cbn in Hf. rewrite Hf; [done|].
          by apply elem_of_list_singleton.
      + intros h fp b Hr Hb.
        destruct Hr as [(He & -> & Hr)|(a & k & m & Hp & -> & Hne & Hm & Hl & Hc & Hpos & Hlen & Hbk)].
        * by eapply vrep_dom.
        * apply elem_of_list_singleton in Hb as ->. cbn. by eexists.
    - intros it xs h fp Hw _ _ Hr. unfold vi_next. destruct xs as [|x xs].
      + rewrite (bind_ok _ _ _ _ _ (iirep_end sz lmax _ _ _ Hr)).
        eexists (_, _), h, fp. split; [done|]. split; [by split|]. apply upd_refl; [done|]. intros b Hb.
        destruct Hr as [(He & _ & Hr)|(a & k & m & Hp & -> & Hne & _)]; [by eapply vrep_dom|done].
      + destruct (iirep_next sz lmax Hsz Hlim h it x xs fp Hw Hr) as (it' & h' & fp' & E & Hr' & Hu & _).
        rewrite (bind_ok _ _ _ _ _ E). eexists (_, _), h', fp'. split; [done|]. split; [by split|done].
    - intros it xs h fp Hw _ _ Hr. destruct (iirep_drop sz lmax Hsz Hlim h it xs fp Hw Hr) as (h' & E & Hu).
      exists tt, h', []. by split.
  Qed.

  (** A vector that is collected into. *)
  Definition Kv (v : vec) (vs : list T) : asn := fun h fp => vrep h v vs fp.
  Definition vroom (n : nat) : Prop := N.of_nat n <= lmax.
  Lemma v_sink : is_sink (fv_new (T := T) sz) (fv_put sz) fv_end vroom Kv Kv.
  Proof.
    assert (Hok : forall k vs, asn_ok [] (fun _ : H => True) (Kv k vs)).
    { intros k vs. split.
      - intros h h' fp _ Hr Hf. rewrite app_nil_r in Hf. by eapply vrep_frame.
      - intros h fp a Hr Ha. by eapply vrep_dom. }
    split.
    - exact Hok.
    - exact Hok.
    - unfold vroom. lia.
    - intros h fp Hw _ _ Hem. unfold emp in Hem. subst fp.
      destruct (new_default_ok (A := T) sz lmax Hsz Hlim h Hw) as (v & h' & fp' & E & Hr & Hu). by exists v, h', fp'.
    - intros k vs x Hr h fp Hw _ _ Hp. unfold vroom in Hr. cbn in Hr.
      destruct (push_back_ok sz lmax Hsz Hlim h k vs fp x Hw Hp) as (v & h' & fp' & E & Hr' & Hu).
      { unfold nlen. lia. }
      by exists v, h', fp'.
    - intros k vs. apply tri_ret; [apply Hok|apply ent_refl].
  Qed.
End Vec.

(** ** Lists *)
Section Lst.
  Context {T : Type} (dbl : bool).
  Lemma l_src : is_src [] none (into_next (T := T) dbl) (l_copy dbl) l_move (odel dbl) (So dbl).
  Proof.
    split; [split|..].
    - done.
    - by intros h a _ ?%elem_of_nil.
    - apply So_ok.
    - apply onext_tri.
    - apply odel_tri.
    - apply omove_ent.
    - apply oleft_tri.
    - apply ocopy_tri.
  Qed.
  Lemma lb_src al hd tl (ns : list (N * T)) :
    is_src (lfp hd ns tl) (fun h => lok dbl h al hd ns tl) it_next bcopy bmove bdel (Sb tl ns).
  Proof.
    split; [split|..].
    - apply b_frame.
    - apply b_dom.
    - apply Sb_ok.
    - apply bnext_tri.
    - apply bdel_tri.
    - apply bmove_ent.
    - apply bleft_tri.
    - apply bcopy_tri.
  Qed.
  Lemma l_sink : is_sink (fi_new (T := T) dbl) (fi_put dbl) (fi_end dbl) ListPipeProofs.room (Kp dbl) (Rp dbl).
  Proof.
    split.
    - apply Kp_ok.
    - apply Rp_ok.
    - apply room_le.
    - apply new_tri.
    - apply put_tri.
    - apply end_tri.
  Qed.
End Lst.

(** ** Programs *)
Section Main.
  Context {T : Type} (dbl : bool) (sz lmax : N) (dflt : T) (eqb : T -> T -> bool) (cmp : T -> T -> comparison).
  Context (Hsz : 1 <= sz) (Hlim : sz * (2 * lmax + 2) <= alloc_max).
  Notation H1 := (heap (ListModel.cell T)).
  Notation H2 := (heap (VecModel.block T)).
  Notation HM := (M (H1 * H2)).
  Notation lstate := (gmap nat (N * option (list T))).
  Notation vstate := (gmap nat (list T)).
  Notation state := (lstate * vstate)%type.
  Notation W1 := (world (ListModel.cell T) lst).
  Notation W2 := (world (VecModel.block T) VecModel.vec).
  Notation lrep := (ListRefine.lrep (T := T) dbl).
  Notation vrep := (VecProofs.vrep (A := T) sz lmax).
  Notation within := (VecRefine.within (A := T) lmax).
  Notation asn := (H1 * H2 -> list (N + N) -> Prop).
  Implicit Types (sp : state) (w : W1 * W2).

  Definition mrel sp w : Prop := rel dbl (fst sp) (fst w) /\ world_ok vrep (snd w) (snd sp) /\ within (snd sp).
  Definition mloose sp w (fp : list (N + N)) : Prop :=
    loose lrep (fst w) (fst sp) (lefts fp) /\ loose vrep (snd w) (snd sp) (rights fp) /\ within (snd sp).
  Definition heaps w : H1 * H2 := (w_heap (fst w), w_heap (snd w)).

  Lemma lrep_fr h h' o s fp : lrep h o s fp -> (forall a, a ∈ fp -> hmap h' !! a = hmap h !! a) -> lrep h' o s fp.
  Proof. apply lrep_frame. Qed.

  Lemma term_tri {It} rd rdp nx cp mv dl Sr (HS : is_src (H := H1 * H2) (V := T) (It := It) rd rdp nx cp mv dl Sr) bar ps t fuel xs (it : It) :
    (length xs < fuel)%nat ->
    tri (MM := both_mem) rd rdp (Sr it xs) (term_m nx cp mv dl fuel bar ps t it) (pureQ (value_of t (denote ps xs))).
  Proof.
    intros Hf. destruct HS as [[Hfr Hd Hok Hn Hdl] Hm Hl Hc].
    assert (Hgo : forall R (m : HM R) (x : R) (c : R -> lout T), tri (MM := both_mem) rd rdp (Sr it xs) m (pureQ x) ->
      tri (MM := both_mem) rd rdp (Sr it xs) (r <-- m ;; ret (c r)) (pureQ (c x))).
    { intros R m x c Hx. eapply (tri_bind rd rdp Hfr Hd); [exact Hx|]. intros r. apply tri_ret; [apply pureQ_ok|].
      intros h fp [-> Hp]. exists fp. by split. }
    destruct t as [k a|k|q|n]; cbn [term_m value_of]; apply Hgo.
    - by apply (run_fold_tri rd rdp Hfr Hd nx cp mv dl Sr Hok Hn Hdl Hm Hl Hc bar fuel ps xs Hf).
    - by apply (run_reduce_tri rd rdp Hfr Hd nx cp mv dl Sr Hok Hn Hdl Hm Hl Hc bar fuel ps xs Hf).
    - by apply (run_find_tri rd rdp Hfr Hd nx cp mv dl Sr Hok Hn Hdl Hm Hl Hc bar fuel ps xs Hf).
    - by apply (run_take_tri rd rdp Hfr Hd nx cp mv dl Sr Hok Hn Hdl Hm Hl Hc bar fuel ps xs Hf).
  Qed.

  (** What a source gives, and what is left. *)
  Inductive gives sp : msrc -> state -> list T -> Prop :=
  | gives_l i al xs : fst sp !! i = Some (al, Some xs) -> gives sp (SL i) sp xs
  | gives_li i al o : fst sp !! i = Some (al, o) ->
      gives sp (SLInto i) (<[i := (al, None)]> (fst sp), snd sp) (default [] o)
  | gives_v i xs : snd sp !! i = Some xs -> gives sp (SV i) sp xs.
  Inductive igives sp : isrc -> state -> list T -> Prop :=
  | igives_l i al o : fst sp !! i = Some (al, o) ->
      igives sp (IL i) (<[i := (al, None)]> (fst sp), snd sp) (default [] o)
  | igives_v i xs : snd sp !! i = Some xs -> igives sp (IV i) (fst sp, <[i := []]> (snd sp)) xs.
  Lemma items_case sp s k : items sp s k = SPre \/ exists sp' xs, gives sp s sp' xs /\ items sp s k = k sp' xs.
  Proof.
    destruct s as [i|i|i]; cbn [items].
    - destruct (fst sp !! i) as [[al [xs|]]|] eqn:E; [right|by left..]. exists sp, xs. split; [by econstructor|done].
    - destruct (fst sp !! i) as [[al o]|] eqn:E; [right|by left]. eexists _, _. split; [by econstructor|done].
    - destruct (snd sp !! i) as [xs|] eqn:E; [right|by left]. exists sp, xs. split; [by econstructor|done].
  Qed.
  Lemma into_case sp s k : into_items sp s k = SPre \/ exists sp' xs, igives sp s sp' xs /\ into_items sp s k = k sp' xs.
  Proof.
    destruct s as [i|i]; cbn [into_items].
    - destruct (fst sp !! i) as [[al o]|] eqn:E; [right|by left]. eexists _, _. split; [by econstructor|done].
    - destruct (snd sp !! i) as [xs|] eqn:E; [right|by left]. eexists _, xs. split; [by econstructor|done].
  Qed.
  Lemma gives_fresh_l sp s sp' xs j : gives sp s sp' xs -> fst sp !! j = None -> fst sp' !! j = None.
  Proof. intros [i al ys E|i al o E|i ys E] Hj; try done. cbn [fst]. rewrite lookup_insert_ne; [done|]. congruence. Qed.
  Lemma gives_fresh_v sp s sp' xs j : gives sp s sp' xs -> snd sp !! j = None -> snd sp' !! j = None.
  Proof. by intros [i al ys E|i al o E|i ys E]. Qed.
  Lemma igives_fresh_l sp s sp' xs j : igives sp s sp' xs -> fst sp !! j = None -> fst sp' !! j = None.
  Proof. intros [i al o E|i ys E] Hj; try done. cbn [fst]. rewrite lookup_insert_ne; [done|]. congruence. Qed.
  Lemma igives_fresh_v sp s sp' xs j : igives sp s sp' xs -> snd sp !! j = None -> snd sp' !! j = None.
  Proof. intros [i al o E|i ys E] Hj; try done. cbn [snd]. rewrite lookup_insert_ne; [done|]. congruence. Qed.

  (** The rest of the world after a source was used. *)
  Lemma rest_borrow sp w (h' : H1 * H2) fp : mrel sp w -> mupd (heaps w) h' [] fp ->
    mloose sp (World (fst h') (w_vars (fst w)), World (snd h') (w_vars (snd w))) fp.
  Proof.
    intros ([m1 Hw1] & [m2 Hw2] & Hin) [U1 U2]. split; [|split; [|done]]; cbn [fst snd].
    - eapply loose_made; [exact lrep_fr|apply lrep_dom|exact Hw1|exact U1].
    - eapply loose_made; [apply VecProofs.vrep_frame|apply VecProofs.vrep_dom|exact Hw2|exact U2].
  Qed.
  Lemma rest_list sp w (h' : H1 * H2) i al o l m fp e : mrel sp w -> world_ok_with lrep (fst w) (fst sp) m ->
    m !! i = Some e -> fst sp !! i = Some (al, o) -> l = snd (l_move (e_o e)) -> lrep (w_heap (fst w)) (e_o e) (al, o) (e_fp e) ->
    mupd (heaps w) h' (inl <$> e_fp e) fp ->
    mloose (<[i := (al, None)]> (fst sp), snd sp) (World (fst h') (<[i := l]> (w_vars (fst w))), World (snd h') (w_vars (snd w))) fp.
  Proof.
    intros (_ & [m2 Hw2] & Hin) Hw1 Hm Hi -> Hr [U1 U2]. rewrite lefts_inl in U1. rewrite rights_inl in U2.
    split; [|split; [|done]]; cbn [fst snd].
    - eapply loose_from; [exact lrep_fr|apply lrep_dom|exact Hw1|exact Hm|exact U1|].
      cbn [l_move snd]. rewrite (lrep_moved dbl _ _ _ _ Hr). constructor.
    - eapply loose_made; [apply VecProofs.vrep_frame|apply VecProofs.vrep_dom|exact Hw2|exact U2].
  Qed.

  (** An iterator that owns nothing changes nothing. *)
  Definition untouched (s : msrc) w w' (fp : list (N + N)) : Prop :=
    match s with
    | SLInto _ => True
    | _ => mupd (heaps w) (heaps w') [] fp /\ w_vars (fst w') = w_vars (fst w) /\ w_vars (snd w') = w_vars (snd w)
    end.
  Lemma on_src_ok {R} s body sp w sp' xs (Q : R -> asn) : mrel sp w -> gives sp s sp' xs ->
    (forall It rd rdp nx cp mv dl Sr fuel (it : It), is_src (H := H1 * H2) (V := T) rd rdp nx cp mv dl Sr -> (length xs < fuel)%nat ->
       tri (MM := both_mem) rd rdp (Sr it xs) (body It nx cp mv dl fuel it) Q) ->
    exists r w' fp', on_src dbl s body w = Ok (r, w') /\ Q r (heaps w') fp' /\ mloose sp' w' fp' /\ untouched s w w' fp'.
  Proof.
    intros Hrel Hg Hb. pose proof Hrel as ([m1 Hw1] & [m2 Hw2] & Hin).
    assert (Hwf : mwf (mem := both_mem) (heaps w)) by (split; [apply Hw1|apply Hw2]).
    destruct Hg as [i al xs Hi|i al o Hi|i xs Hi]; cbn [on_src].
    - destruct (world_ok_lookup_spec _ _ _ _ _ _ Hw1 Hi) as (e & Hm & He & Hv & Hr).
      destruct (lrep_inv dbl _ _ _ _ _ Hr) as (hd & tl & ns & Ho & <- & Lk & HW & Hfp).
      destruct (Hb _ _ _ _ _ _ _ _ (S (size (hmap (w_heap (fst w))))) (PAddr (startp ns tl), PAddr tl)
        (src_inl _ _ _ _ _ _ _ (lb_src dbl al hd tl ns))) with (h := heaps w) (fp := @nil (N + N))
        as (r & h' & fp' & E & Hq & Hu).
      { rewrite vls_length. pose proof (lok_fuel dbl _ _ _ _ _ Lk). lia. }
      { exact Hwf. } { exact Lk. } { by intros a ?%elem_of_nil. }
      { exists []. split; [done|]. apply Sb_new. }
      exists r, (World (fst h') (w_vars (fst w)), World (snd h') (w_vars (snd w))), fp'.
      split; [|split; [by destruct h'|split; [by apply rest_borrow|by destruct h']]].
      unfold bind at 1, inl_m at 1, wget. rewrite Hv, Ho. unfold on_heaps. cbn [fst snd].
      unfold bind at 1, inl_m at 1. cbn [fst snd]. rewrite (fuel_ok (w_heap (fst w))). cbn [fst snd].
      unfold bind at 1, inl_m at 1. cbn [fst snd]. rewrite (it_new_ok dbl _ _ _ _ _ Lk).
      unfold heaps in E. rewrite E. by destruct h'.
    - destruct (world_ok_lookup_spec _ _ _ _ _ _ Hw1 Hi) as (e & Hm & He & Hv & Hr).
      destruct (Hb _ _ _ _ _ _ _ _ (S (size (hmap (w_heap (fst w))))) (fst (l_move (e_o e)))
        (src_inl _ _ _ _ _ _ _ (l_src dbl))) with (h := heaps w) (fp := (inl <$> e_fp e) : list (N + N))
        as (r & h' & fp' & E & Hq & Hu).
      { pose proof (So_size dbl _ _ _ _ _ Hr). lia. }
      { exact Hwf. } { exact I. } { by intros a _ ?%elem_of_nil. }
      { exists (e_fp e). split; [done|]. by exists al, o. }
      exists r, (World (fst h') (<[i := snd (l_move (e_o e))]> (w_vars (fst w))), World (snd h') (w_vars (snd w))), fp'.
      split; [|split; [by destruct h'|split; [by eapply rest_list|done]]].
      unfold bind at 1, inl_m at 1, wget. rewrite Hv. destruct (l_move (e_o e)) as [it l']. cbn [fst snd] in *.
      unfold bind at 1, on_heaps. cbn [fst snd].
      unfold bind at 1, inl_m at 1. cbn [fst snd]. rewrite (fuel_ok (w_heap (fst w))). cbn [fst snd].
      unfold heaps in E. rewrite E. by destruct h'.
    - destruct (world_ok_lookup_spec _ _ _ _ _ _ Hw2 Hi) as (e & Hm & He & Hv & Hr).
      destruct (Hb _ _ _ _ _ _ _ _ (S (N.to_nat (VecModel.v_len (e_o e)))) (VecModel.iter (e_o e))
        (src_inr _ _ _ _ _ _ _ (v_src sz lmax (e_o e) xs (e_fp e)))) with (h := heaps w) (fp := @nil (N + N))
        as (r & h' & fp' & E & Hq & Hu).
      { assert (VecModel.v_len (e_o e) = VecSpec.nlen xs) as -> by apply Hr. unfold VecSpec.nlen. lia. }
      { exact Hwf. } { exact Hr. } { by intros a ?%elem_of_nil. }
      { exists []. split; [done|]. eapply Sv_new. exact Hr. }
      exists r, (World (fst h') (w_vars (fst w)), World (snd h') (w_vars (snd w))), fp'.
      split; [|split; [by destruct h'|split; [by apply rest_borrow|by destruct h']]].
      unfold bind at 1, inr_m at 1, wget. rewrite Hv. unfold on_heaps. cbn [fst snd].
      unfold heaps in E. rewrite E. by destruct h'.
  Qed.

  Lemma within_insert (s : vstate) i xs : within s -> N.of_nat (length xs) <= lmax -> within (<[i := xs]> s).
  Proof.
    intros Hs Hx j ys. destruct (decide (i = j)) as [<-|Hn]; [rewrite lookup_insert|rewrite lookup_insert_ne by done].
    - by intros [= <-].
    - apply Hs.
  Qed.
  Lemma on_into_ok {R} s body sp w sp' xs (Q : R -> asn) : mrel sp w -> igives sp s sp' xs ->
    (forall It rd rdp nx dl Sr fuel (it : It), is_into (H := H1 * H2) (V := T) rd rdp nx dl Sr -> (length xs < fuel)%nat ->
       tri (MM := both_mem) rd rdp (Sr it xs) (body It nx dl fuel it) Q) ->
    exists r w' fp', on_into dbl sz s body w = Ok (r, w') /\ Q r (heaps w') fp' /\ mloose sp' w' fp'.
  Proof.
    intros Hrel Hg Hb. pose proof Hrel as ([m1 Hw1] & [m2 Hw2] & Hin).
    assert (Hwf : mwf (mem := both_mem) (heaps w)) by (split; [apply Hw1|apply Hw2]).
    destruct Hg as [i al o Hi|i xs Hi]; cbn [on_into].
    - destruct (world_ok_lookup_spec _ _ _ _ _ _ Hw1 Hi) as (e & Hm & He & Hv & Hr).
      destruct (Hb _ _ _ _ _ _ (S (size (hmap (w_heap (fst w))))) (fst (l_move (e_o e)))
        (into_inl _ _ _ _ _ (s_into _ _ _ _ _ _ _ (l_src dbl)))) with (h := heaps w) (fp := (inl <$> e_fp e) : list (N + N))
        as (r & h' & fp' & E & Hq & Hu).
      { pose proof (So_size dbl _ _ _ _ _ Hr). lia. }
      { exact Hwf. } { exact I. } { by intros a _ ?%elem_of_nil. }
      { exists (e_fp e). split; [done|]. by exists al, o. }
      exists r, (World (fst h') (<[i := snd (l_move (e_o e))]> (w_vars (fst w))), World (snd h') (w_vars (snd w))), fp'.
      split; [|split; [by destruct h'|by eapply rest_list]].
      unfold bind at 1, inl_m at 1, wget. rewrite Hv. destruct (l_move (e_o e)) as [it l']. cbn [fst snd] in *.
      unfold bind at 1, on_heaps. cbn [fst snd].
      unfold bind at 1, inl_m at 1. cbn [fst snd]. rewrite (fuel_ok (w_heap (fst w))). cbn [fst snd].
      unfold heaps in E. rewrite E. by destruct h'.
    - destruct (world_ok_lookup_spec _ _ _ _ _ _ Hw2 Hi) as (e & Hm & He & Hv & Hr).
      destruct (VecMore.iirep_new sz lmax _ _ _ _ Hr) as [Hi1 Hi2].
      destruct (Hb _ _ _ _ _ _ (S (N.to_nat (VecModel.v_len (e_o e)))) (fst (VecModel.into_iter_new (e_o e)))
        (into_inr _ _ _ _ _ (vi_src sz lmax Hsz Hlim))) with (h := heaps w) (fp := (inr <$> e_fp e) : list (N + N))
        as (r & h' & fp' & E & Hq & Hu).
      { assert (VecModel.v_len (e_o e) = VecSpec.nlen xs) as -> by apply Hr. unfold VecSpec.nlen. lia. }
      { exact Hwf. } { exact I. } { by intros a _ ?%elem_of_nil. }
      { exists (e_fp e). split; [done|]. exact Hi1. }
      exists r, (World (fst h') (w_vars (fst w)), World (snd h') (<[i := snd (VecModel.into_iter_new (e_o e))]> (w_vars (snd w)))), fp'.
      split; [|split; [by destruct h'|]].
      + unfold bind at 1, inr_m at 1, wget. rewrite Hv. destruct (VecModel.into_iter_new (e_o e)) as [it v']. cbn [fst snd] in *.
        unfold bind at 1, on_heaps. cbn [fst snd]. unfold heaps in E. rewrite E. by destruct h'.
      + destruct Hu as [U1 U2]. rewrite rights_inr in U2. rewrite lefts_inr in U1.
        split; [|split]; cbn [fst snd].
        * eapply loose_made; [exact lrep_fr|apply lrep_dom|exact Hw1|exact U1].
        * eapply loose_from; [apply VecProofs.vrep_frame|apply VecProofs.vrep_dom|exact Hw2|exact Hm|exact U2|].
          apply VecProofs.vrep_null.
        * apply within_insert; [done|]. cbn. lia.
  Qed.

  Lemma loose_done sp w : mloose sp w [] -> mrel sp w.
  Proof. intros (L1 & L2 & Hin). split; [by apply loose_nil|]. split; [by apply loose_nil|done]. Qed.
  Lemma put_list sp w fp j l ys : mloose sp w fp -> fst sp !! j = None -> onl (Rp dbl l ys) (heaps w) fp ->
    mrel (<[j := (0, Some ys)]> (fst sp), snd sp) (World (w_heap (fst w)) (<[j := l]> (w_vars (fst w))), snd w).
  Proof.
    intros (L1 & L2 & Hin) Hj (f & -> & Hp). rewrite lefts_inl in L1. rewrite rights_inl in L2. split; [|split; [|done]].
    - by eapply loose_new.
    - by apply loose_nil.
  Qed.
  Lemma put_vec sp w fp j v ys : mloose sp w fp -> snd sp !! j = None -> N.of_nat (length ys) <= lmax ->
    onr (Kv sz lmax v ys) (heaps w) fp ->
    mrel (fst sp, <[j := ys]> (snd sp)) (fst w, World (w_heap (snd w)) (<[j := v]> (w_vars (snd w)))).
  Proof.
    intros (L1 & L2 & Hin) Hj Hl (f & -> & Hp). rewrite lefts_inr in L1. rewrite rights_inr in L2. split; [|split].
    - by apply loose_nil.
    - by eapply loose_new.
    - by apply within_insert.
  Qed.
  Lemma no_var_l sp w j : mrel sp w -> fst sp !! j = None -> w_vars (fst w) !! j = None.
  Proof. intros ([m Hw] & _) Hj. by eapply (world_ok_none _ _ _ _ _ Hw). Qed.
  Lemma no_var_v sp w j : mrel sp w -> snd sp !! j = None -> w_vars (snd w) !! j = None.
  Proof. intros (_ & [m Hw] & _) Hj. by eapply (world_ok_none _ _ _ _ _ Hw). Qed.

  Notation step := (mix_step dbl sz dflt eqb cmp).
  Notation spec := (mspec dbl lmax dflt eqb cmp).

  Theorem mix_step_refines sp w o : mordered o -> mrel sp w -> agrees mrel (step o w) (spec sp o).
  Proof.
    intros Hord Hrel. destruct o as [o|o|s bar ps [t|j|j]|s j|s j|s n]; cbn [mix_step mspec mordered] in *.
    - destruct Hrel as (R1 & R2 & Hin). pose proof (pipe_step_refines dbl (fst sp) (fst w) o Hord R1) as Ha.
      unfold bind, inl_m. destruct (pspec dbl (fst sp) o) as [s x| |]; cbn [agrees] in *; [|by rewrite Ha|done].
      destruct Ha as (w' & -> & R1'). by eexists.
    - destruct (VecSpec.vspec_step dflt eqb cmp (snd sp) o) as [[s x]|] eqn:Es; [|done].
      destruct (VecProps.vop_safeb (snd sp) o && VecProps.vlimitb lmax o s) eqn:Eb; [|done].
      apply andb_true_iff in Eb as [Eb1 Eb2]. apply (VecProps.vop_safeb_ok dflt eqb cmp) in Eb1.
      assert (Hl : VecSpec.vlimit lmax o s).
      { unfold VecProps.vlimitb in Eb2. apply andb_true_iff in Eb2 as [E1 E2]. split.
        - intros i xs Hi. rewrite forallb_forall in E1. specialize (E1 (i, xs)). apply N.leb_le, E1.
          by apply elem_of_list_In, elem_of_map_to_list.
        - destruct o; try done. by apply N.leb_le. }
      destruct Hrel as (R1 & R2 & Hin).
      destruct (VecRefine.vec_step_refines sz lmax dflt eqb cmp Hsz Hlim (snd w) (snd sp) o s x R2 Hin Es Eb1 Hl)
        as (w' & E & R2').
      unfold bind, inr_m. cbn [agrees]. rewrite E. eexists. split; [done|]. split; [done|]. split; [done|].
      intros i xs Hi. by apply (proj1 Hl i).
    - destruct (items_case sp s (fun sp xs => SOk sp (OL (value_of t (denote ps xs))))) as [->|(sp' & xs & Hg & ->)]; [done|].
      edestruct (on_src_ok s (fun _ nx cp mv dl fuel it => term_m nx cp mv dl fuel bar ps t it) sp w sp' xs
        (pureQ (value_of t (denote ps xs))) Hrel Hg) as (r & w' & fp' & E & [-> Hem] & Hlo & _).
      { intros. by apply term_tri. }
      unfold emp in Hem. subst fp'. cbn [agrees]. unfold bind. rewrite E. eexists. split; [done|]. by apply loose_done.
    - unfold unused. destruct (fst sp !! j) eqn:Hj; [done|].
      destruct (items_case sp s (fun sp xs => new_list_var sp j (denote ps xs))) as [->|(sp' & xs & Hg & ->)]; [done|].
      unfold new_list_var. destruct (N.ltb_spec (N.of_nat (length (denote ps xs))) W) as [HW|]; [|done].
      edestruct (on_src_ok s (fun _ nx cp mv dl fuel it => run_collect nx cp mv dl bar fuel ps (l_new dbl) (l_put dbl) (l_end dbl) it)
        sp w sp' xs (fun r => onl (Rp dbl r (denote ps xs))) Hrel Hg) as (r & w' & fp' & E & Hq & Hlo & _).
      { intros. by eapply (pipe_collect _ _ _ _ _ _ _ _ _ _ _ _ _ _ _ _ _ _ _ (sink_inl _ _ _ _ _ _ (l_sink dbl))). }
      cbn [agrees]. unfold bind, inl_m at 1, wnew. rewrite (no_var_l _ _ _ Hrel Hj).
      destruct w as [w1 w2]. cbn [fst snd]. rewrite E. eexists. split; [done|].
      eapply put_list; [done| |done]. by eapply gives_fresh_l.
    - unfold unused. destruct (snd sp !! j) eqn:Hj; [done|].
      destruct (items_case sp s (fun sp xs => new_vec_var lmax sp j (denote ps xs))) as [->|(sp' & xs & Hg & ->)]; [done|].
      unfold new_vec_var. destruct (N.leb_spec (N.of_nat (length (denote ps xs))) lmax) as [HW|]; [|done].
      edestruct (on_src_ok s (fun _ nx cp mv dl fuel it => run_collect nx cp mv dl bar fuel ps (w_new sz) (w_put sz) w_end it)
        sp w sp' xs (fun r => onr (Kv sz lmax r (denote ps xs))) Hrel Hg) as (r & w' & fp' & E & Hq & Hlo & _).
      { intros. by eapply (pipe_collect _ _ _ _ _ _ _ _ _ _ _ _ _ _ _ _ _ _ _ (sink_inr _ _ _ _ _ _ (v_sink sz lmax Hsz Hlim))). }
      cbn [agrees]. unfold bind, inr_m at 1, wnew. rewrite (no_var_v _ _ _ Hrel Hj).
      destruct w as [w1 w2]. cbn [fst snd]. rewrite E. eexists. split; [done|].
      eapply put_vec; [done| |done|done]. by eapply gives_fresh_v.
    - unfold unused. destruct (fst sp !! j) eqn:Hj; [done|].
      destruct (into_case sp s (fun sp xs => new_list_var sp j xs)) as [->|(sp' & xs & Hg & ->)]; [done|].
      unfold new_list_var. destruct (N.ltb_spec (N.of_nat (length xs)) W) as [HW|]; [|done].
      edestruct (on_into_ok s (fun _ nx dl fuel it => by_ref dl (collect_body fuel nx (l_new dbl) (l_put dbl) (l_end dbl)) it)
        sp w sp' xs (fun r => onl (Rp dbl r xs)) Hrel Hg) as (r & w' & fp' & E & Hq & Hlo).
      { intros. by eapply (into_collect _ _ _ _ _ _ _ _ _ _ _ _ _ _ _ (sink_inl _ _ _ _ _ _ (l_sink dbl))). }
      cbn [agrees]. unfold bind, inl_m at 1, wnew. rewrite (no_var_l _ _ _ Hrel Hj).
      destruct w as [w1 w2]. cbn [fst snd]. rewrite E. eexists. split; [done|].
      eapply put_list; [done| |done]. by eapply igives_fresh_l.
    - unfold unused. destruct (snd sp !! j) eqn:Hj; [done|].
      destruct (into_case sp s (fun sp xs => new_vec_var lmax sp j xs)) as [->|(sp' & xs & Hg & ->)]; [done|].
      unfold new_vec_var. destruct (N.leb_spec (N.of_nat (length xs)) lmax) as [HW|]; [|done].
      edestruct (on_into_ok s (fun _ nx dl fuel it => by_ref dl (collect_body fuel nx (w_new sz) (w_put sz) w_end) it)
        sp w sp' xs (fun r => onr (Kv sz lmax r xs)) Hrel Hg) as (r & w' & fp' & E & Hq & Hlo).
      { intros. by eapply (into_collect _ _ _ _ _ _ _ _ _ _ _ _ _ _ _ (sink_inr _ _ _ _ _ _ (v_sink sz lmax Hsz Hlim))). }
      cbn [agrees]. unfold bind, inr_m at 1, wnew. rewrite (no_var_v _ _ _ Hrel Hj).
      destruct w as [w1 w2]. cbn [fst snd]. rewrite E. eexists. split; [done|].
      eapply put_vec; [done| |done|done]. by eapply igives_fresh_v.
    - destruct (into_case sp s (fun sp xs => SOk sp (OL (OOpts ((fun i => xs !! i) <$> seq 0 n))))) as [->|(sp' & xs & Hg & ->)]; [done|].
      edestruct (on_into_ok s (fun _ nx dl fuel it => by_ref dl (take_body nx n) it) sp w sp' xs
        (pureQ ((fun i => xs !! i) <$> seq 0 n)) Hrel Hg) as (r & w' & fp' & E & [-> Hem] & Hlo).
      { intros. by apply (into_take _ _ _ _ _). }
      unfold emp in Hem. subst fp'. cbn [agrees]. unfold bind. rewrite E. eexists. split; [done|]. by apply loose_done.
    Unshelve. all: done.
  Qed.
End Main.
