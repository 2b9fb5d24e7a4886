(** * ListNodes: which nodes a list consists of, and what happens to them

    C15, C17, C18, C22 and the parts of C20 and C23 about nodes. *)
From Verif Require Import Base World Machine IterSpec ListModel ListSeg ListOps ListOps2 ListOps3 ListOps4 ListOps5
  SortSpec ListSort ListStep ListSpec ListRefine.
Local Open Scope N_scope.

Section Nodes.
  Context {T : Type} (dbl : bool).
  Notation lstate := (gmap nat (N * option (list T))).
  Notation step := (list_step (T := T) dbl).
  Notation lok := (lok dbl).
  Notation rel := (rel (T := T) dbl).
  Notation world := (world (cell T) lst).
  Notation H := (heap (cell T)).
  Implicit Types (h : H) (ns ms : list (N * T)) (w : world) (ops : list (lop T)) (sp : lstate) (ps : list N) (xs : list T).

  (** States a client can get to by operations that are not affected by the
      defects (see [safe]); [sp] tells what the lists contain. *)
  Lemma hist ops : Forall ordered ops -> forall sp w, rel sp w ->
    agrees rel (run_ops step ops w) (srun (gspec dbl) sp ops).
  Proof.
    induction ops as [|o ops IH]; intros Hf sp w Hr; simpl.
    { by exists w. }
    apply Forall_cons in Hf as [Ho Hf].
    pose proof (list_step_refines dbl sp w o Ho Hr) as H0. unfold agrees, bind, ret in *.
    destruct (gspec dbl sp o) as [s1 x| |]; simpl in *; [|by rewrite H0|done].
    destruct H0 as (w1 & -> & Hr1). pose proof (IH Hf s1 w1 Hr1) as H2.
    destruct (srun (gspec dbl) s1 ops) as [s2 xs| |]; [|by rewrite H2|done].
    destruct H2 as (w2 & -> & Hr2). by exists w2.
  Qed.
  Lemma reach ops sp outs : Forall ordered ops -> srun (gspec dbl) ∅ ops = SOk sp outs ->
    exists w, run_ops step ops winit = Ok (outs, w) /\ rel sp w.
  Proof.
    intros Hf E. pose proof (hist ops Hf ∅ winit (world_ok_init _)) as H0. by rewrite E in H0.
  Qed.
  Definition reached sp w : Prop :=
    exists ops outs, Forall ordered ops /\ srun (gspec dbl) ∅ ops = SOk sp outs /\
      run_ops step ops winit = Ok (outs, w).
  Lemma reached_rel sp w : reached sp w -> rel sp w.
  Proof.
    intros (ops & outs & Hf & E & E2). destruct (reach _ _ _ Hf E) as (w' & E3 & Hr).
    rewrite E2 in E3. by injection E3 as ->.
  Qed.

  (** [nodes w i ps xs]: variable [i] is a list with elements [xs] whose
      iterators from [before_begin()] to [end()] are the nodes [ps]: they are
      different nodes, [k] times [++] from [before_begin()] gives the [k]-th of
      them and (doubly linked) so do [size() + 1 - k] times [--] from [end()];
      those in between refer to the elements. *)
  Record nodes w (i : nat) ps xs : Prop := Nodes {
    nd_size : length ps = (length xs + 2)%nat;
    nd_diff : NoDup ps;
    nd_walk : exists l, w_vars w !! i = Some l /\ l_len l = nlen xs /\
      (forall k p, ps !! k = Some p -> stl_advance k (l_head l) (w_heap w) = Ok (PAddr p, w_heap w)) /\
      (dbl = true -> forall k p, ps !! k = Some p ->
         back_advance (length xs + 1 - k) (l_tail l) (w_heap w) = Ok (PAddr p, w_heap w)) /\
      (forall p, ps !! (length xs + 1)%nat = Some p -> l_tail l = PAddr p);
    nd_elem : forall k p v, ps !! S k = Some p -> xs !! k = Some v ->
      value (PAddr p) (w_heap w) = Ok (v, w_heap w);
  }.

  Lemma prev_pos h al hd ns tl k p q : dbl = true -> lok h al hd ns tl ->
    lfp hd ns tl !! S k = Some p -> lfp hd ns tl !! k = Some q -> get_prev (PAddr p) h = Ok (PAddr q, h).
  Proof.
    intros Hd Lk Hp Hq. pose proof (lookup_lt_Some _ _ _ Hp) as Hlt. rewrite lfp_length in Hlt.
    destruct (split_at ns k) as (n1 & n2 & -> & <- & _); [lia|].
    rewrite lfp_start in Hp. injection Hp as <-. rewrite lfp_end in Hq. injection Hq as <-.
    exact (prev_at dbl _ _ _ _ _ _ Hd Lk).
  Qed.
  Lemma back_pos h al hd ns tl p : dbl = true -> lok h al hd ns tl ->
    forall d k q, lfp hd ns tl !! (k + d)%nat = Some p -> lfp hd ns tl !! k = Some q ->
    back_advance d (PAddr p) h = Ok (PAddr q, h).
  Proof.
    intros Hd Lk d. revert p. induction d as [|d IH]; intros p k q Hp Hq.
    - rewrite Nat.add_0_r, Hq in Hp. by injection Hp as ->.
    - cbn [back_advance]. rewrite Nat.add_succ_r in Hp.
      destruct (lookup_lt_is_Some_2 (lfp hd ns tl) (k + d)%nat) as [r Hr].
      { apply lookup_lt_Some in Hp. lia. }
      rewrite (bind_ok _ _ _ _ _ (prev_pos _ _ _ _ _ _ _ _ Hd Lk Hp Hr)). by eapply IH.
  Qed.
  Lemma lok_nodes w i al hd ns tl : w_vars w !! i = Some (L al hd tl ns) -> lok (w_heap w) al hd ns tl ->
    nodes w i (lfp hd ns tl) (vls ns).
  Proof.
    intros Hv Lk. pose proof (vls_length ns) as Hn.
    assert (Ht : lfp hd ns tl !! (length ns + 1)%nat = Some tl).
    { pose proof (lfp_start hd ns [] tl) as H. rewrite app_nil_r in H. by rewrite Nat.add_1_r. }
    split.
    - rewrite lfp_length. lia.
    - by eapply lok_nd.
    - exists (L al hd tl ns). rewrite Hn. split; [done|]. split; [done|]. cbn [l_head l_tail L]. split; [|split].
      + intros k p Hp. by eapply advance_pos.
      + intros Hd k p Hp. pose proof (lookup_lt_Some _ _ _ Hp) as Hlt. rewrite lfp_length in Hlt.
        eapply back_pos; [done|done| |exact Hp]. by replace (k + _)%nat with (length ns + 1)%nat by lia.
      + intros p Hp. rewrite Ht in Hp. by injection Hp as ->.
    - intros k p v Hp Hx. pose proof (lookup_lt_Some _ _ _ Hx) as Hlt. rewrite Hn in Hlt.
      destruct (split_at ns k) as (n1 & n2 & -> & Hk & _); [lia|]. subst k.
      rewrite lfp_start in Hp. injection Hp as <-.
      rewrite app_length in Hlt. destruct n2 as [|[a u] n2]; [simpl in Hlt; lia|].
      unfold vls in Hx. rewrite fmap_app, lookup_app_r, fmap_length, Nat.sub_diag in Hx by (by rewrite fmap_length).
      injection Hx as <-. exact (value_at dbl _ _ _ _ _ _ _ _ Lk).
  Qed.

  (** The other lists keep their nodes. *)
  Definition others w w' sp (is : list nat) : Prop :=
    forall j al ys, j ∉ is -> sp !! j = Some (al, Some ys) -> exists qs, nodes w j qs ys /\ nodes w' j qs ys.

  Lemma rel_live sp w i al xs : rel sp w -> sp !! i = Some (al, Some xs) ->
    hwf (w_heap w) /\ exists hd tl ns, w_vars w !! i = Some (L al hd tl ns) /\ vls ns = xs /\
      lok (w_heap w) al hd ns tl /\ nlen ns < W /\
      forall h' l' fp', upd (w_heap w) h' (lfp hd ns tl) fp' ->
        others w (World h' (<[i := l']> (w_vars w))) sp [i].
  Proof.
    intros [m Hw] Hi. destruct (world_ok_lookup_spec _ _ _ _ _ _ Hw Hi) as (e & Hm & He & Hv & Hr).
    destruct (lrep_inv dbl _ _ _ _ _ Hr) as (hd & tl & ns & Ho & Hx & Lk & HW & Hfp).
    pose proof (wo_wf _ _ _ _ Hw) as Hwf.
    split; [done|]. exists hd, tl, ns. rewrite Hv, Ho. do 4 (split; [done|]).
    intros h' l' fp' Hu j al' ys Hj Hsj. apply not_elem_of_cons in Hj as [Hj _].
    destruct (world_ok_lookup_spec _ _ _ _ _ _ Hw Hsj) as (e2 & Hm2 & He2 & Hv2 & Hr2).
    destruct (lrep_inv dbl _ _ _ _ _ Hr2) as (hd2 & tl2 & ms & Ho2 & Hx2 & Lk2 & HW2 & Hfp2).
    subst ys. exists (lfp hd2 ms tl2). rewrite Ho2 in Hv2.
    split; [by eapply lok_nodes|]. eapply lok_nodes; simpl; [by rewrite lookup_insert_ne|].
    eapply lok_frame; [|exact Lk2]. intros a Ha. apply (upd_frame _ _ _ _ Hu).
    - apply Hwf. exact (lok_has dbl _ _ _ _ _ _ Lk2 Ha).
    - intros Ha'. rewrite <-Hfp in Ha'. rewrite <-Hfp2 in Ha. exact (wo_disj _ _ _ _ Hw i j _ _ a Hm Hm2 (not_eq_sym Hj) Ha' Ha).
  Qed.
  Lemma rel_live2 sp w i j al xs al' ys : rel sp w -> i <> j ->
    sp !! i = Some (al, Some xs) -> sp !! j = Some (al', Some ys) ->
    hwf (w_heap w) /\ exists hd tl ns hd2 tl2 ms,
      (w_vars w !! i = Some (L al hd tl ns) /\ vls ns = xs /\ lok (w_heap w) al hd ns tl /\ nlen ns < W) /\
      (w_vars w !! j = Some (L al' hd2 tl2 ms) /\ vls ms = ys /\ lok (w_heap w) al' hd2 ms tl2 /\ nlen ms < W) /\
      apart (lfp hd ns tl) (lfp hd2 ms tl2) /\
      forall h' l' o' fp', upd (w_heap w) h' (lfp hd ns tl ++ lfp hd2 ms tl2) fp' ->
        others w (World h' (<[i := l']> (<[j := o']> (w_vars w)))) sp [i; j].
  Proof.
    intros [m Hw] Hij Hi Hj. destruct (world_ok_lookup_spec _ _ _ _ _ _ Hw Hi) as (e & Hm & He & Hv & Hr).
    destruct (world_ok_lookup_spec _ _ _ _ _ _ Hw Hj) as (e2 & Hm2 & He2 & Hv2 & Hr2).
    destruct (lrep_inv dbl _ _ _ _ _ Hr) as (hd & tl & ns & Ho & Hx & Lk & HW & Hfp).
    destruct (lrep_inv dbl _ _ _ _ _ Hr2) as (hd2 & tl2 & ms & Ho2 & Hx2 & Lk2 & HW2 & Hfp2).
    pose proof (wo_wf _ _ _ _ Hw) as Hwf.
    split; [done|]. exists hd, tl, ns, hd2, tl2, ms. rewrite Hv, Ho, Hv2, Ho2.
    split; [done|]. split; [done|]. rewrite <-Hfp, <-Hfp2. split.
    { intros a Ha Ha'. exact (wo_disj _ _ _ _ Hw i j _ _ a Hm Hm2 Hij Ha Ha'). }
    intros h' l' o' fp' Hu k al2 zs Hk Hsk. apply not_elem_of_cons in Hk as [Hk1 Hk].
    apply not_elem_of_cons in Hk as [Hk2 _].
    destruct (world_ok_lookup_spec _ _ _ _ _ _ Hw Hsk) as (e3 & Hm3 & He3 & Hv3 & Hr3).
    destruct (lrep_inv dbl _ _ _ _ _ Hr3) as (hd3 & tl3 & qs & Ho3 & Hx3 & Lk3 & HW3 & Hfp3).
    subst zs. exists (lfp hd3 qs tl3). rewrite Ho3 in Hv3.
    split; [by eapply lok_nodes|]. eapply lok_nodes; simpl; [by rewrite !lookup_insert_ne|].
    eapply lok_frame; [|exact Lk3]. intros a Ha. apply (upd_frame _ _ _ _ Hu).
    - apply Hwf. exact (lok_has dbl _ _ _ _ _ _ Lk3 Ha).
    - rewrite <-Hfp3 in Ha. intros [Ha'|Ha']%elem_of_app.
      + exact (wo_disj _ _ _ _ Hw i k _ _ a Hm Hm3 (not_eq_sym Hk1) Ha' Ha).
      + exact (wo_disj _ _ _ _ Hw j k _ _ a Hm2 Hm3 (not_eq_sym Hk2) Ha' Ha).
  Qed.

  Lemma updo_run w i f l l' x h' : w_vars w !! i = Some l -> f l (w_heap w) = Ok ((l', x), h') ->
    l_updo (T := T) i f w = Ok (x, World h' (<[i := l']> (w_vars w))).
  Proof. intros Hv E. unfold l_updo, bind, wget. rewrite Hv. unfold lift. by rewrite E. Qed.
  Lemma upd_run w i f l l' h' : w_vars w !! i = Some l -> f l (w_heap w) = Ok (l', h') ->
    l_upd (T := T) i f w = Ok (OUnit, World h' (<[i := l']> (w_vars w))).
  Proof. intros Hv E. eapply updo_run; [done|]. by rewrite (bind_ok _ _ _ _ _ E). Qed.

  Lemma at_run sp w i k f al hd tl ns p ns' q n h' : w_vars w !! i = Some (L al hd tl ns) ->
    lok (w_heap w) al hd ns tl -> lfp hd ns tl !! k = Some p ->
    f (L al hd tl ns) (PAddr p) (w_heap w) = Ok ((L al hd tl ns', PAddr q), h') ->
    became dbl (w_heap w) h' al hd tl ns ns' -> lfp hd ns' tl !! n = Some q ->
    (forall h' l' fp', upd (w_heap w) h' (lfp hd ns tl) fp' -> others w (World h' (<[i := l']> (w_vars w))) sp [i]) ->
    exists w', l_at (T := T) i k f w = Ok (OPos n, w') /\ nodes w' i (lfp hd ns' tl) (vls ns') /\
      others w w' sp [i] /\ (forall a, a ∈ lfp hd ns tl -> a ∉ lfp hd ns' tl -> hmap (w_heap w') !! a = None).
  Proof.
    intros Hv Lk Hp E [Lk' Hu] Hq Ho. eexists. split; [|split; [|split]].
    - eapply updo_run; [exact Hv|]. cbn [l_head L].
      rewrite (bind_ok _ _ _ _ _ (advance_pos dbl _ _ _ _ _ _ _ Lk Hp)), (bind_ok _ _ _ _ _ E).
      by rewrite (bind_ok _ _ _ _ _ (pos_ok dbl _ _ _ _ _ _ _ Lk' Hq)).
    - eapply lok_nodes; simpl; [apply lookup_insert|done].
    - by eapply Ho.
    - intros a Ha Ha'. simpl. destruct (hmap h' !! a) eqn:E'; [|done]. exfalso.
      destruct (upd_dom _ _ _ _ Hu a) as [H1 _]. destruct (H1 ltac:(by eexists)) as [[_ ?]|?]; done.
  Qed.
  Lemma at2_run sp w i k1 k2 f al hd tl ns p1 p2 ns' q n h' : w_vars w !! i = Some (L al hd tl ns) ->
    lok (w_heap w) al hd ns tl -> lfp hd ns tl !! k1 = Some p1 -> lfp hd ns tl !! k2 = Some p2 ->
    f (L al hd tl ns) (PAddr p1) (PAddr p2) (w_heap w) = Ok ((L al hd tl ns', PAddr q), h') ->
    became dbl (w_heap w) h' al hd tl ns ns' -> lfp hd ns' tl !! n = Some q ->
    (forall h' l' fp', upd (w_heap w) h' (lfp hd ns tl) fp' -> others w (World h' (<[i := l']> (w_vars w))) sp [i]) ->
    exists w', l_at2 (T := T) i k1 k2 f w = Ok (OPos n, w') /\ nodes w' i (lfp hd ns' tl) (vls ns') /\
      others w w' sp [i] /\ (forall a, a ∈ lfp hd ns tl -> a ∉ lfp hd ns' tl -> hmap (w_heap w') !! a = None).
  Proof.
    intros Hv Lk Hp1 Hp2 E [Lk' Hu] Hq Ho. eexists. split; [|split; [|split]].
    - eapply updo_run; [exact Hv|]. cbn [l_head L].
      rewrite (bind_ok _ _ _ _ _ (advance_pos dbl _ _ _ _ _ _ _ Lk Hp1)).
      rewrite (bind_ok _ _ _ _ _ (advance_pos dbl _ _ _ _ _ _ _ Lk Hp2)), (bind_ok _ _ _ _ _ E).
      by rewrite (bind_ok _ _ _ _ _ (pos_ok dbl _ _ _ _ _ _ _ Lk' Hq)).
    - eapply lok_nodes; simpl; [apply lookup_insert|done].
    - by eapply Ho.
    - intros a Ha Ha'. simpl. destruct (hmap h' !! a) eqn:E'; [|done]. exfalso.
      destruct (upd_dom _ _ _ _ Hu a) as [H1 _]. destruct (H1 ltac:(by eexists)) as [[_ ?]|?]; done.
  Qed.
  Lemma lfp_ins hd n1 ms (n2 : list (N * T)) tl : lfp hd (n1 ++ ms ++ n2) tl =
    take (length n1 + 1) (lfp hd (n1 ++ n2) tl) ++ ads ms ++ drop (length n1 + 1) (lfp hd (n1 ++ n2) tl).
  Proof.
    unfold lfp. rewrite Nat.add_1_r. cbn [take drop app]. f_equal. rewrite !ads_app, <-!app_assoc.
    assert (length (ads n1) = length n1) as <- by apply fmap_length. by rewrite take_app, drop_app.
  Qed.
  Lemma lfp_del hd n1 (mid n2 : list (N * T)) tl : lfp hd (n1 ++ n2) tl =
    take (length n1 + 1) (lfp hd (n1 ++ mid ++ n2) tl) ++
    drop (length n1 + 1 + length mid) (lfp hd (n1 ++ mid ++ n2) tl).
  Proof.
    unfold lfp. replace (length n1 + 1 + length mid)%nat with (S (length n1 + length mid)) by lia.
    rewrite Nat.add_1_r. cbn [take drop app]. f_equal. rewrite !ads_app, <-!app_assoc.
    assert (length (ads n1) = length n1) as <- by apply fmap_length.
    assert (length (ads mid) = length mid) as <- by apply fmap_length.
    by rewrite take_app, <-drop_drop, drop_app, drop_app.
  Qed.

  (** ** C15 *)
  Theorem C15_linkage_partial sp w i al xs : reached sp w -> sp !! i = Some (al, Some xs) ->
    exists ps, nodes w i ps xs.
  Proof.
    intros Hr%reached_rel Hi. destruct (rel_live _ _ _ _ _ Hr Hi) as (_ & hd & tl & ns & Hv & <- & Lk & _).
    eexists. by eapply lok_nodes.
  Qed.

  (** ** C17 *)
  (** Before position [k + 1] (after [k]): the new nodes are exactly those, no
      other node of this or another list changes or moves. *)
  Theorem C17_emplace_after sp w i k v al xs : reached sp w -> sp !! i = Some (al, Some xs) ->
    (k <= length xs)%nat -> nlen xs + 1 < W ->
    exists ps w' a, nodes w i ps xs /\ step (LEmpA i k v) w = Ok (OPos (k + 1), w') /\
      nodes w' i (take (k + 1) ps ++ [a] ++ drop (k + 1) ps) (take k xs ++ [v] ++ drop k xs) /\
      others w w' sp [i].
  Proof.
    intros Hr%reached_rel Hi Hk HW'. destruct (rel_live _ _ _ _ _ Hr Hi) as (Hwf & hd & tl & ns & Hv & Hx & Lk & HW & Ho).
    assert (Hl : length ns = length xs) by by rewrite <-Hx, vls_length.
    destruct (split_at ns k) as (n1 & n2 & -> & <- & H1 & H2); [lia|]. rewrite Hx in H1, H2.
    destruct (emplace_after_ok dbl _ _ _ _ _ _ v Hwf Lk) as (h' & b & E & Hb); [rewrite Hl; lia|].
    destruct (at_run sp w i (length n1) (fun l p => l_emplace_after dbl l p v) _ _ _ _ _ _ _ (length n1 + 1) _ Hv Lk
      (lfp_end _ _ _ _) E Hb) as (w' & E' & Hn & Hoth & _); [rewrite Nat.add_1_r; apply lfp_start|done|].
    exists (lfp hd (n1 ++ n2) tl), w', b. split; [rewrite <-Hx; by eapply lok_nodes|]. split; [exact E'|]. split; [|done].
    change ((b, v) :: n2) with ([(b, v)] ++ n2) in Hn. rewrite lfp_ins in Hn.
    rewrite !vls_app, H1, H2 in Hn. exact Hn.
  Qed.

  Theorem C17_insert_after sp w i k vs al xs : reached sp w -> sp !! i = Some (al, Some xs) ->
    (k <= length xs)%nat -> nlen xs + nlen vs < W ->
    exists ps w' new, nodes w i ps xs /\
      step (LInsA i k vs) w = Ok (OPos (match vs with [] => k | _ => k + 1 end), w') /\
      length new = length vs /\
      nodes w' i (take (k + 1) ps ++ new ++ drop (k + 1) ps) (take k xs ++ vs ++ drop k xs) /\
      others w w' sp [i].
  Proof.
    intros Hr%reached_rel Hi Hk HW'. destruct (rel_live _ _ _ _ _ Hr Hi) as (Hwf & hd & tl & ns & Hv & Hx & Lk & HW & Ho).
    assert (Hl : length ns = length xs) by by rewrite <-Hx, vls_length.
    destruct (split_at ns k) as (n1 & n2 & -> & <- & H1 & H2); [lia|]. rewrite Hx in H1, H2.
    destruct vs as [|v0 vs].
    - destruct (at_run sp w i (length n1) (fun l p => l_insert_after dbl l p []) al hd tl (n1 ++ n2) _ (n1 ++ n2) _ (length n1) (w_heap w) Hv Lk
        (lfp_end _ _ _ _) eq_refl (became_refl dbl _ _ _ _ _ Hwf Lk)) as (w' & E' & Hn & Hoth & _); [apply lfp_end|done|].
      exists (lfp hd (n1 ++ n2) tl), w', []. split; [rewrite <-Hx; by eapply lok_nodes|]. split; [exact E'|]. split; [done|].
      split; [|done]. cbn [app]. rewrite !take_drop. by rewrite Hx in Hn.
    - remember (v0 :: vs) as vs' eqn:Evs.
      destruct (insert_after_ok dbl _ _ _ _ _ _ vs' Hwf Lk) as (h' & ms & E & Hm & Hb); [rewrite Hl; lia|by subst|].
      destruct (at_run sp w i (length n1) (fun l p => l_insert_after dbl l p vs') _ _ _ _ _ _ _ (length n1 + 1) _ Hv Lk
        (lfp_end _ _ _ _) E Hb) as (w' & E' & Hn & Hoth & _).
      { rewrite Nat.add_1_r, lfp_start. subst vs'. by destruct ms as [|[]]. }
      { done. }
      exists (lfp hd (n1 ++ n2) tl), w', (ads ms). split; [rewrite <-Hx; by eapply lok_nodes|].
      split; [subst vs'; exact E'|]. split; [by rewrite <-Hm, vls_length; apply fmap_length|].
      split; [|done]. rewrite lfp_ins in Hn. rewrite !vls_app, H1, H2, Hm in Hn. exact Hn.
  Qed.

  Theorem C17_emplace sp w i k v al xs : dbl = true -> reached sp w -> sp !! i = Some (al, Some xs) ->
    (1 <= k <= length xs + 1)%nat -> nlen xs + 1 < W ->
    exists ps w' a, nodes w i ps xs /\ step (LEmp i k v) w = Ok (OPos k, w') /\
      nodes w' i (take k ps ++ [a] ++ drop k ps) (take (k - 1) xs ++ [v] ++ drop (k - 1) xs) /\
      others w w' sp [i].
  Proof.
    intros Hd Hr%reached_rel Hi Hk HW'. destruct (rel_live _ _ _ _ _ Hr Hi) as (Hwf & hd & tl & ns & Hv & Hx & Lk & HW & Ho).
    assert (Hl : length ns = length xs) by by rewrite <-Hx, vls_length.
    destruct (split_at ns (k - 1)) as (n1 & n2 & -> & Hk' & H1 & H2); [lia|]. rewrite Hx in H1, H2.
    assert (k = length n1 + 1)%nat as -> by lia. replace (length n1 + 1 - 1)%nat with (length n1) in * by lia.
    destruct (emplace_ok dbl _ _ _ _ _ _ v Hd Hwf Lk) as (h' & b & E & Hb); [rewrite Hl; lia|].
    assert (Hs : lfp hd (n1 ++ n2) tl !! (length n1 + 1)%nat = Some (startp n2 tl)) by (rewrite Nat.add_1_r; apply lfp_start).
    destruct (at_run sp w i _ (fun l p => l_emplace dbl l p v) _ _ _ _ _ _ _ (length n1 + 1) _ Hv Lk
      Hs E Hb) as (w' & E' & Hn & Hoth & _); [rewrite Nat.add_1_r; apply lfp_start|done|].
    exists (lfp hd (n1 ++ n2) tl), w', b. split; [rewrite <-Hx; by eapply lok_nodes|]. split; [exact E'|]. split; [|done].
    change ((b, v) :: n2) with ([(b, v)] ++ n2) in Hn. rewrite lfp_ins in Hn.
    rewrite !vls_app, H1, H2 in Hn. exact Hn.
  Qed.

  Theorem C17_insert sp w i k vs al xs : dbl = true -> reached sp w -> sp !! i = Some (al, Some xs) ->
    (1 <= k <= length xs + 1)%nat -> nlen xs + nlen vs < W ->
    exists ps w' new, nodes w i ps xs /\ step (LIns i k vs) w = Ok (OPos k, w') /\
      length new = length vs /\
      nodes w' i (take k ps ++ new ++ drop k ps) (take (k - 1) xs ++ vs ++ drop (k - 1) xs) /\
      others w w' sp [i].
  Proof.
    intros Hd Hr%reached_rel Hi Hk HW'. destruct (rel_live _ _ _ _ _ Hr Hi) as (Hwf & hd & tl & ns & Hv & Hx & Lk & HW & Ho).
    assert (Hl : length ns = length xs) by by rewrite <-Hx, vls_length.
    destruct (split_at ns (k - 1)) as (n1 & n2 & -> & Hk' & H1 & H2); [lia|]. rewrite Hx in H1, H2.
    assert (k = length n1 + 1)%nat as -> by lia. replace (length n1 + 1 - 1)%nat with (length n1) in * by lia.
    assert (Hs : lfp hd (n1 ++ n2) tl !! (length n1 + 1)%nat = Some (startp n2 tl)) by (rewrite Nat.add_1_r; apply lfp_start).
    destruct vs as [|v0 vs].
    - destruct (at_run sp w i _ (fun l p => l_insert dbl l p []) al hd tl (n1 ++ n2) _ (n1 ++ n2) _ (length n1 + 1) (w_heap w) Hv Lk
        Hs eq_refl (became_refl dbl _ _ _ _ _ Hwf Lk)) as (w' & E' & Hn & Hoth & _); [done|done|].
      exists (lfp hd (n1 ++ n2) tl), w', []. split; [rewrite <-Hx; by eapply lok_nodes|]. split; [exact E'|]. split; [done|].
      split; [|done]. cbn [app]. rewrite !take_drop. by rewrite Hx in Hn.
    - remember (v0 :: vs) as vs' eqn:Evs.
      destruct (insert_ok dbl _ _ _ _ _ _ vs' Hd Hwf Lk) as (h' & ms & E & Hm & Hb); [rewrite Hl; lia|by subst|].
      destruct (at_run sp w i _ (fun l p => l_insert dbl l p vs') _ _ _ _ _ _ _ (length n1 + 1) _ Hv Lk
        Hs E Hb) as (w' & E' & Hn & Hoth & _).
      { rewrite Nat.add_1_r, lfp_start. subst vs'. by destruct ms as [|[]]. }
      { done. }
      exists (lfp hd (n1 ++ n2) tl), w', (ads ms). split; [rewrite <-Hx; by eapply lok_nodes|].
      split; [exact E'|]. split; [by rewrite <-Hm, vls_length; apply fmap_length|].
      split; [|done]. rewrite lfp_ins in Hn. rewrite !vls_app, H1, H2, Hm in Hn. exact Hn.
  Qed.

  (** Erasing: the erased nodes are freed, no other node changes or moves. *)
  Lemma gone hd n1 (mid n2 : list (N * T)) tl a : NoDup (lfp hd (n1 ++ mid ++ n2) tl) -> a ∈ ads mid -> a ∉ lfp hd (n1 ++ n2) tl.
  Proof.
    unfold lfp. rewrite !ads_app, <-!app_assoc, NoDup_cons, !NoDup_app, elem_of_cons, !elem_of_app.
    intros (Hhd & _ & Hn1 & _ & Hmid & _) Ha [->|[H0|[H0|H0]]].
    - tauto.
    - apply (Hn1 _ H0). rewrite !elem_of_app. tauto.
    - apply (Hmid _ Ha). rewrite !elem_of_app. tauto.
    - apply (Hmid _ Ha). rewrite !elem_of_app. tauto.
  Qed.
  Lemma freed_del w' hd n1 (mid n2 : list (N * T)) tl : NoDup (lfp hd (n1 ++ mid ++ n2) tl) ->
    (forall a, a ∈ lfp hd (n1 ++ mid ++ n2) tl -> a ∉ lfp hd (n1 ++ n2) tl -> hmap (w_heap w') !! a = None) ->
    forall j a, (j < length mid)%nat -> lfp hd (n1 ++ mid ++ n2) tl !! (length n1 + 1 + j)%nat = Some a ->
    hmap (w_heap w') !! a = None.
  Proof.
    intros Hnd Hf j a Hj Ha. apply Hf; [by eapply elem_of_list_lookup_2|].
    apply (gone hd n1 mid n2 tl a Hnd). unfold lfp in Ha.
    replace (length n1 + 1 + j)%nat with (S (length (ads n1) + j)) in Ha.
    2:{ unfold ads. rewrite fmap_length. lia. }
    assert (Ha2 : (ads (n1 ++ mid ++ n2) ++ [tl]) !! (length (ads n1) + j)%nat = Some a) by exact Ha.
    rewrite !ads_app, <-!app_assoc, lookup_app_r in Ha2 by lia.
    rewrite lookup_app_l in Ha2 by (unfold ads; rewrite !fmap_length; lia). by eapply elem_of_list_lookup_2.
  Qed.

  Theorem C17_erase_after sp w i k al xs : reached sp w -> sp !! i = Some (al, Some xs) -> (k < length xs)%nat ->
    exists ps w', nodes w i ps xs /\ step (LEraA i k) w = Ok (OPos (k + 1), w') /\
      nodes w' i (take (k + 1) ps ++ drop (k + 2) ps) (take k xs ++ drop (k + 1) xs) /\
      others w w' sp [i] /\ (forall a, ps !! (k + 1)%nat = Some a -> hmap (w_heap w') !! a = None).
  Proof.
    intros Hr%reached_rel Hi Hk. destruct (rel_live _ _ _ _ _ Hr Hi) as (Hwf & hd & tl & ns & Hv & Hx & Lk & HW & Ho).
    assert (Hl : length ns = length xs) by by rewrite <-Hx, vls_length.
    destruct (split_at ns k) as (n1 & n2 & -> & <- & H1 & H2); [lia|]. rewrite Hx in H1, H2.
    rewrite app_length in Hl. destruct n2 as [|[b v] n2]; [simpl in Hl; lia|].
    destruct (erase_after_ok dbl _ _ _ _ _ _ _ _ Hwf Lk HW) as (h' & E & Hb).
    destruct (at_run sp w i (length n1) (l_erase_after dbl) _ _ _ _ _ _ _ (length n1 + 1) _ Hv Lk
      (lfp_end _ _ _ _) E Hb) as (w' & E' & Hn & Hoth & Hf); [rewrite Nat.add_1_r; apply lfp_start|done|].
    change ((b, v) :: n2) with ([(b, v)] ++ n2) in *.
    exists (lfp hd (n1 ++ [(b, v)] ++ n2) tl), w'. split; [rewrite <-Hx; by eapply lok_nodes|]. split; [exact E'|].
    split; [|split; [done|]].
    - rewrite (lfp_del hd n1 [(b, v)]) in Hn. rewrite vls_app, H1 in Hn.
      replace (length n1 + 1 + length [(b, v)])%nat with (length n1 + 2)%nat in Hn by (simpl; lia).
      assert (Hd : vls n2 = drop (length n1 + 1) xs) by (rewrite <-drop_drop, <-H2; done). by rewrite Hd in Hn.
    - intros a Ha. eapply (freed_del w' hd n1 [(b, v)] n2 tl); [by eapply lok_nd|done| |].
      + simpl. by instantiate (1 := 0%nat); lia.
      + by rewrite Nat.add_0_r.
  Qed.
  (** Nothing to erase after the last element. *)
  Theorem C17_erase_after_end sp w i al xs : reached sp w -> sp !! i = Some (al, Some xs) ->
    exists ps w', nodes w i ps xs /\ step (LEraA i (length xs)) w = Ok (OPos (length xs + 1), w') /\
      nodes w' i ps xs /\ others w w' sp [i].
  Proof.
    intros Hr%reached_rel Hi. destruct (rel_live _ _ _ _ _ Hr Hi) as (Hwf & hd & tl & ns & Hv & Hx & Lk & HW & Ho).
    assert (Hl : length ns = length xs) by by rewrite <-Hx, vls_length.
    assert (He : lfp hd ns tl !! length ns = Some (endp hd ns)).
    { pose proof (lfp_end hd ns [] tl) as H0. by rewrite app_nil_r in H0. }
    destruct (at_run sp w i (length ns) (l_erase_after dbl) _ _ _ _ _ _ _ (length ns + 1) _ Hv Lk
      He (erase_after_none dbl _ _ _ _ _ Lk) (became_refl dbl _ _ _ _ _ Hwf Lk)) as (w' & E' & Hn & Hoth & Hf); [|done|].
    { pose proof (lfp_start hd ns [] tl) as H0. rewrite app_nil_r in H0. by rewrite Nat.add_1_r. }
    rewrite Hx in Hn. rewrite Hl in E'.
    exists (lfp hd ns tl), w'. split; [rewrite <-Hx; by eapply lok_nodes|]. done.
  Qed.

  Theorem C17_erase_after_range sp w i k1 k2 al xs : reached sp w -> sp !! i = Some (al, Some xs) ->
    (k1 < k2 <= length xs + 1)%nat ->
    exists ps w', nodes w i ps xs /\ step (LEraAR i k1 k2) w = Ok (OPos (k1 + 1), w') /\
      nodes w' i (take (k1 + 1) ps ++ drop k2 ps) (take k1 xs ++ drop (k2 - 1) xs) /\ others w w' sp [i] /\
      (forall j a, (k1 < j < k2)%nat -> ps !! j = Some a -> hmap (w_heap w') !! a = None).
  Proof.
    intros Hr%reached_rel Hi Hk. destruct (rel_live _ _ _ _ _ Hr Hi) as (Hwf & hd & tl & ns & Hv & Hx & Lk & HW & Ho).
    assert (Hl : length ns = length xs) by by rewrite <-Hx, vls_length.
    destruct (split_at ns k1) as (n1 & n2 & -> & <- & H1 & H2); [lia|]. rewrite Hx in H1, H2.
    rewrite app_length in Hl.
    destruct (split_at n2 (k2 - 1 - length n1)) as (mid & n3 & -> & Hm & H3 & H4); [lia|]. rewrite H2 in H3, H4.
    assert (Hk2 : k2 = S (length (n1 ++ mid))) by (rewrite app_length; lia).
    destruct (erase_after_range_ok dbl _ _ _ _ _ _ _ Hwf Lk HW) as (h' & E & Hb).
    assert (Hs : lfp hd (n1 ++ mid ++ n3) tl !! k2 = Some (startp n3 tl)).
    { rewrite Hk2, app_assoc. apply lfp_start. }
    destruct (at2_run sp w i (length n1) k2 (l_erase_after_range dbl) _ _ _ _ _ _ _ _ (length n1 + 1) _ Hv Lk
      (lfp_end _ _ _ _) Hs E Hb) as (w' & E' & Hn & Hoth & Hf); [rewrite Nat.add_1_r; apply lfp_start|done|].
    exists (lfp hd (n1 ++ mid ++ n3) tl), w'. split; [rewrite <-Hx; by eapply lok_nodes|]. split; [exact E'|].
    split; [|split; [done|]].
    - rewrite (lfp_del hd n1 mid) in Hn. rewrite vls_app, H1, H4, drop_drop in Hn.
      replace (length n1 + 1 + length mid)%nat with k2 in Hn by (rewrite Hk2, app_length; lia).
      by replace (length n1 + (k2 - 1 - length n1))%nat with (k2 - 1)%nat in Hn by lia.
    - intros j a Hj Ha. apply (freed_del w' hd n1 mid n3 tl (lok_nd dbl _ _ _ _ _ Lk) Hf (j - length n1 - 1)); [lia|].
      by replace (length n1 + 1 + (j - length n1 - 1))%nat with j by lia.
  Qed.

  Theorem C17_erase sp w i k al xs : dbl = true -> reached sp w -> sp !! i = Some (al, Some xs) ->
    (1 <= k <= length xs)%nat ->
    exists ps w', nodes w i ps xs /\ step (LEra i k) w = Ok (OPos k, w') /\
      nodes w' i (take k ps ++ drop (k + 1) ps) (take (k - 1) xs ++ drop k xs) /\
      others w w' sp [i] /\ (forall a, ps !! k = Some a -> hmap (w_heap w') !! a = None).
  Proof.
    intros Hd Hr%reached_rel Hi Hk. destruct (rel_live _ _ _ _ _ Hr Hi) as (Hwf & hd & tl & ns & Hv & Hx & Lk & HW & Ho).
    assert (Hl : length ns = length xs) by by rewrite <-Hx, vls_length.
    destruct (split_at ns (k - 1)) as (n1 & n2 & -> & Hk' & H1 & H2); [lia|]. rewrite Hx in H1, H2.
    assert (k = length n1 + 1)%nat as -> by lia. replace (length n1 + 1 - 1)%nat with (length n1) in * by lia.
    rewrite app_length in Hl. destruct n2 as [|[b v] n2]; [simpl in Hl; lia|].
    destruct (erase_ok dbl _ _ _ _ _ _ _ _ Hd Hwf Lk HW) as (h' & E & Hb).
    assert (Hs : lfp hd (n1 ++ (b, v) :: n2) tl !! (length n1 + 1)%nat = Some b) by (rewrite Nat.add_1_r; apply lfp_start).
    destruct (at_run sp w i _ (l_erase dbl) _ _ _ _ _ _ _ (length n1 + 1) _ Hv Lk
      Hs E Hb) as (w' & E' & Hn & Hoth & Hf); [rewrite Nat.add_1_r; apply lfp_start|done|].
    change ((b, v) :: n2) with ([(b, v)] ++ n2) in *.
    exists (lfp hd (n1 ++ [(b, v)] ++ n2) tl), w'. split; [rewrite <-Hx; by eapply lok_nodes|]. split; [exact E'|].
    split; [|split; [done|]].
    - rewrite (lfp_del hd n1 [(b, v)]) in Hn. rewrite vls_app, H1 in Hn.
      change (length [(b, v)]) with 1%nat in Hn.
      assert (Hd' : vls n2 = drop (length n1 + 1) xs) by (rewrite <-drop_drop, <-H2; done). by rewrite Hd' in Hn.
    - intros a Ha. apply (freed_del w' hd n1 [(b, v)] n2 tl (lok_nd dbl _ _ _ _ _ Lk) Hf 0); [simpl; lia|].
      by rewrite Nat.add_0_r.
  Qed.
  Theorem C17_erase_range sp w i k1 k2 al xs : dbl = true -> reached sp w -> sp !! i = Some (al, Some xs) ->
    (1 <= k1 <= k2)%nat -> (k2 <= length xs + 1)%nat ->
    exists ps w', nodes w i ps xs /\ step (LEraR i k1 k2) w = Ok (OPos k1, w') /\
      nodes w' i (take k1 ps ++ drop k2 ps) (take (k1 - 1) xs ++ drop (k2 - 1) xs) /\ others w w' sp [i] /\
      (forall j a, (k1 <= j < k2)%nat -> ps !! j = Some a -> hmap (w_heap w') !! a = None).
  Proof.
    intros Hd Hr%reached_rel Hi Hk Hk2'. destruct (rel_live _ _ _ _ _ Hr Hi) as (Hwf & hd & tl & ns & Hv & Hx & Lk & HW & Ho).
    assert (Hl : length ns = length xs) by by rewrite <-Hx, vls_length.
    destruct (split_at ns (k1 - 1)) as (n1 & n2 & -> & Hk' & H1 & H2); [lia|]. rewrite Hx in H1, H2.
    assert (k1 = length n1 + 1)%nat as -> by lia. replace (length n1 + 1 - 1)%nat with (length n1) in * by lia.
    rewrite app_length in Hl.
    destruct (split_at n2 (k2 - 1 - length n1)) as (mid & n3 & -> & Hm & H3 & H4); [lia|]. rewrite H2 in H3, H4.
    assert (Hk2 : k2 = S (length (n1 ++ mid))) by (rewrite app_length; lia).
    destruct (erase_range_ok dbl _ _ _ _ _ _ _ Hd Hwf Lk HW) as (h' & E & Hb).
    assert (Hs2 : lfp hd (n1 ++ mid ++ n3) tl !! k2 = Some (startp n3 tl)).
    { rewrite Hk2, app_assoc. apply lfp_start. }
    assert (Hs1 : lfp hd (n1 ++ mid ++ n3) tl !! (length n1 + 1)%nat = Some (startp (mid ++ n3) tl)).
    { rewrite Nat.add_1_r. apply lfp_start. }
    destruct (at2_run sp w i _ k2 (l_erase_range dbl) _ _ _ _ _ _ _ _ (length n1 + 1) _ Hv Lk
      Hs1 Hs2 E Hb) as (w' & E' & Hn & Hoth & Hf); [rewrite Nat.add_1_r; apply lfp_start|done|].
    exists (lfp hd (n1 ++ mid ++ n3) tl), w'. split; [rewrite <-Hx; by eapply lok_nodes|]. split; [exact E'|].
    split; [|split; [done|]].
    - rewrite (lfp_del hd n1 mid) in Hn. rewrite vls_app, H1, H4, drop_drop in Hn.
      replace (length n1 + 1 + length mid)%nat with k2 in Hn by (rewrite Hk2, app_length; lia).
      by replace (length n1 + (k2 - 1 - length n1))%nat with (k2 - 1)%nat in Hn by lia.
    - intros j a Hj Ha. apply (freed_del w' hd n1 mid n3 tl (lok_nd dbl _ _ _ _ _ Lk) Hf (j - length n1 - 1)); [lia|].
      by replace (length n1 + 1 + (j - length n1 - 1))%nat with j by lia.
  Qed.

  (** ** Going on *)
  Lemma reached_step sp w o sp' x : reached sp w -> ordered o -> gspec dbl sp o = SOk sp' x ->
    exists w', step o w = Ok (x, w') /\ reached sp' w'.
  Proof.
    intros Hr Ho E. pose proof (list_step_refines dbl sp w o Ho (reached_rel _ _ Hr)) as H0. rewrite E in H0.
    destruct H0 as (w' & E' & _). exists w'. split; [done|].
    destruct Hr as (ops & outs & Hf & Es & Er). exists (ops ++ [o]), (outs ++ [x]). split; [|split].
    - apply Forall_app. split; [done|]. by apply Forall_singleton.
    - rewrite (srun_app _ _ _ _ _ _ Es). cbn [srun]. by rewrite E.
    - clear -Er E'. revert outs Er. generalize (@winit (cell T) lst). induction ops as [|o' ops IH]; intros w0 outs Er.
      + injection Er as <- <-. cbn [app run_ops]. by rewrite (bind_ok _ _ _ _ _ E').
      + cbn [app run_ops] in Er |- *. unfold bind in Er |- *. destruct (step o' w0) as [[y w1]|]; [|done].
        destruct (run_ops step ops w1) as [[ys w2]|] eqn:E2; [|done]. injection Er as <- <-.
        by rewrite (IH _ _ E2).
  Qed.
  Lemma nodes_unique w i ps xs ps' xs' : nodes w i ps xs -> nodes w i ps' xs' -> ps = ps'.
  Proof.
    intros [L1 _ (l & V1 & N1 & A1 & _) _] [L2 _ (l' & V2 & N2 & A2 & _) _].
    rewrite V1 in V2. injection V2 as <-. rewrite N1 in N2.
    apply list_eq_same_length with (length ps'); [done|lia|].
    intros k a b _ Ha Hb. apply A1 in Ha. apply A2 in Hb. rewrite Ha in Hb. by injection Hb.
  Qed.
  Lemma two_run w i j f l o l' o' h' : w_vars w !! i = Some l -> w_vars w !! j = Some o ->
    f l o (w_heap w) = Ok ((l', o'), h') ->
    l_two (T := T) i j f w = Ok (OUnit, World h' (<[i := l']> (<[j := o']> (w_vars w)))).
  Proof. intros Hi Hj E. unfold l_two, bind, wget. rewrite Hi, Hj. unfold lift. by rewrite E. Qed.

  (** ** C18 *)
  (** The nodes of a list: [before_begin()], those of the elements, [end()]. *)
  Definition ring (a : N) (mid : list N) (b : N) : list N := a :: mid ++ [b].
  Lemma ring_lfp hd ns tl : lfp hd ns tl = ring hd (ads ns) tl.
  Proof. done. Qed.

  (** The elements of [other] come over in their nodes, [other] is left empty
      (lvalue) or without anything (rvalue). *)
  Theorem C18_splice_after_partial sp w i k j al xs ys (rv : bool) : reached sp w -> i <> j ->
    sp !! i = Some (al, Some xs) -> sp !! j = Some (al, Some ys) -> ys <> [] ->
    (k <= length xs)%nat -> nlen xs + nlen ys < W ->
    exists ps a mid b w', nodes w i ps xs /\ nodes w j (ring a mid b) ys /\
      step (LSplA i k j rv) w = Ok (OUnit, w') /\
      nodes w' i (take (k + 1) ps ++ mid ++ drop (k + 1) ps) (take k xs ++ ys ++ drop k xs) /\
      (if rv then w_vars w' !! j = Some (Lst PNull PNull 0 al) /\
                  hmap (w_heap w') !! a = None /\ hmap (w_heap w') !! b = None
       else nodes w' j (ring a [] b) []) /\
      others w w' sp [i; j].
  Proof.
    intros Hr%reached_rel Hij Hi Hj Hy0 Hk HW'.
    destruct (rel_live2 _ _ _ _ _ _ _ _ Hr Hij Hi Hj)
      as (Hwf & hd & tl & ns & hd2 & tl2 & ms & (V1 & X1 & L1 & W1) & (V2 & X2 & L2 & W2) & Hap & Ho).
    assert (Hl : length ns = length xs) by by rewrite <-X1, vls_length.
    assert (Hl2 : length ms = length ys) by by rewrite <-X2, vls_length.
    destruct (split_at ns k) as (n1 & n2 & -> & <- & H1 & H2); [lia|]. rewrite X1 in H1, H2.
    assert (Hms : ms <> []) by (intros ->; by rewrite <-X2 in Hy0).
    assert (HWs : nlen (n1 ++ n2) + nlen ms < W) by (rewrite Hl, Hl2; done).
    destruct (splice_after_ok dbl _ _ _ _ _ _ _ _ _ Hwf L1 L2 Hms Hap HWs) as [(h1 & E1 & A1 & A2 & A3) (h2 & E2 & B1 & B2)].
    pose proof (advance_ok dbl _ _ _ _ _ _ L1) as Ha.
    assert (Hn : forall w', w_vars w' !! i = Some (L al hd tl (n1 ++ ms ++ n2)) -> lok (w_heap w') al hd (n1 ++ ms ++ n2) tl ->
      nodes w' i (take (length n1 + 1) (lfp hd (n1 ++ n2) tl) ++ ads ms ++ drop (length n1 + 1) (lfp hd (n1 ++ n2) tl))
        (take (length n1) xs ++ ys ++ drop (length n1) xs)).
    { intros w' Hv Lk. pose proof (lok_nodes _ _ _ _ _ _ Hv Lk) as Hn. rewrite lfp_ins in Hn.
      by rewrite !vls_app, H1, H2, X2 in Hn. }
    exists (lfp hd (n1 ++ n2) tl), hd2, (ads ms), tl2.
    destruct rv.
    - eexists. split; [rewrite <-X1; by eapply lok_nodes|]. split; [rewrite <-X2; by eapply lok_nodes|].
      split; [eapply two_run; [exact V1|exact V2|]; cbn [l_head L]; rewrite (bind_ok _ _ _ _ _ Ha); exact E2|].
      split; [apply Hn; simpl; [apply lookup_insert|done]|]. split; [|by eapply Ho].
      simpl. split; [by rewrite lookup_insert_ne, lookup_insert|].
      assert (Hfr : forall a, a ∈ lfp hd2 ms tl2 -> a ∉ ads ms -> hmap h2 !! a = None).
      { intros a Ha2 Hnm. destruct (hmap h2 !! a) eqn:E'; [|done]. exfalso.
        destruct (upd_dom _ _ _ _ B2 a) as [D1 _]. destruct (D1 ltac:(by eexists)) as [[_ D2]|D2].
        - apply D2. apply elem_of_app. by right.
        - rewrite app_nil_r in D2. rewrite (app_assoc n1), lfp_app, ads_app, elem_of_cons, elem_of_app in D2.
          destruct D2 as [[->|[D2|D2]]|D2]; [| |done|].
          + apply (Hap hd); [apply hd_in|done].
          + apply (Hap a); [|done]. rewrite lfp_app. left. by right.
          + apply (Hap a); [|done]. rewrite lfp_app. by right. }
      pose proof (lk_nd _ _ _ _ _ _ L2) as Hnd. apply NoDup_cons in Hnd as [Hnh Hnd]. apply NoDup_app in Hnd as (_ & Hnt & _).
      split; apply Hfr.
      + by left.
      + intros Hc. apply Hnh. apply elem_of_app. by left.
      + apply tl_in.
      + intros Hc. apply (Hnt _ Hc). by apply elem_of_list_singleton.
    - eexists. split; [rewrite <-X1; by eapply lok_nodes|]. split; [rewrite <-X2; by eapply lok_nodes|].
      split; [eapply two_run; [exact V1|exact V2|]; cbn [l_head L]; rewrite (bind_ok _ _ _ _ _ Ha); exact E1|].
      split; [apply Hn; simpl; [apply lookup_insert|done]|]. split; [|by eapply Ho].
      change (nodes (World h1 (<[i:=L al hd tl (n1 ++ ms ++ n2)]> (<[j:=L (T := T) al hd2 tl2 []]> (w_vars w)))) j
        (lfp hd2 ([] : list (N * T)) tl2) (vls [])).
      eapply lok_nodes; [|exact A2]. simpl. by rewrite lookup_insert_ne, lookup_insert.
  Qed.
  Theorem C18_splice_partial sp w i k j al xs ys (rv : bool) : dbl = true -> reached sp w -> i <> j ->
    sp !! i = Some (al, Some xs) -> sp !! j = Some (al, Some ys) -> ys <> [] ->
    (1 <= k <= length xs + 1)%nat -> nlen xs + nlen ys < W ->
    exists ps a mid b w', nodes w i ps xs /\ nodes w j (ring a mid b) ys /\
      step (LSpl i k j rv) w = Ok (OUnit, w') /\
      nodes w' i (take k ps ++ mid ++ drop k ps) (take (k - 1) xs ++ ys ++ drop (k - 1) xs) /\
      (if rv then w_vars w' !! j = Some (Lst PNull PNull 0 al) /\
                  hmap (w_heap w') !! a = None /\ hmap (w_heap w') !! b = None
       else nodes w' j (ring a [] b) []) /\
      others w w' sp [i; j].
  Proof.
    intros Hd Hr%reached_rel Hij Hi Hj Hy0 Hk HW'.
    destruct (rel_live2 _ _ _ _ _ _ _ _ Hr Hij Hi Hj)
      as (Hwf & hd & tl & ns & hd2 & tl2 & ms & (V1 & X1 & L1 & W1) & (V2 & X2 & L2 & W2) & Hap & Ho).
    assert (Hl : length ns = length xs) by by rewrite <-X1, vls_length.
    assert (Hl2 : length ms = length ys) by by rewrite <-X2, vls_length.
    destruct (split_at ns (k - 1)) as (n1 & n2 & -> & Hk' & H1 & H2); [lia|]. rewrite X1 in H1, H2.
    assert (k = length n1 + 1)%nat as -> by lia. replace (length n1 + 1 - 1)%nat with (length n1) in * by lia.
    assert (Hms : ms <> []) by (intros ->; by rewrite <-X2 in Hy0).
    assert (HWs : nlen (n1 ++ n2) + nlen ms < W) by (rewrite Hl, Hl2; done).
    destruct (splice_ok dbl _ _ _ _ _ _ _ _ _ Hd Hwf L1 L2 Hms Hap HWs) as [(h1 & E1 & A1 & A2 & A3) (h2 & E2 & B1 & B2)].
    pose proof (advance_start dbl _ _ _ _ _ _ L1) as Ha. rewrite <-Nat.add_1_r in Ha.
    assert (Hn : forall w', w_vars w' !! i = Some (L al hd tl (n1 ++ ms ++ n2)) -> lok (w_heap w') al hd (n1 ++ ms ++ n2) tl ->
      nodes w' i (take (length n1 + 1) (lfp hd (n1 ++ n2) tl) ++ ads ms ++ drop (length n1 + 1) (lfp hd (n1 ++ n2) tl))
        (take (length n1) xs ++ ys ++ drop (length n1) xs)).
    { intros w' Hv Lk. pose proof (lok_nodes _ _ _ _ _ _ Hv Lk) as Hn. rewrite lfp_ins in Hn.
      by rewrite !vls_app, H1, H2, X2 in Hn. }
    exists (lfp hd (n1 ++ n2) tl), hd2, (ads ms), tl2.
    destruct rv.
    - eexists. split; [rewrite <-X1; by eapply lok_nodes|]. split; [rewrite <-X2; by eapply lok_nodes|].
      split; [eapply two_run; [exact V1|exact V2|]; cbn [l_head L]; rewrite (bind_ok _ _ _ _ _ Ha); exact E2|].
      split; [apply Hn; simpl; [apply lookup_insert|done]|]. split; [|by eapply Ho].
      simpl. split; [by rewrite lookup_insert_ne, lookup_insert|].
      assert (Hfr : forall a, a ∈ lfp hd2 ms tl2 -> a ∉ ads ms -> hmap h2 !! a = None).
      { intros a Ha2 Hnm. destruct (hmap h2 !! a) eqn:E'; [|done]. exfalso.
        destruct (upd_dom _ _ _ _ B2 a) as [D1 _]. destruct (D1 ltac:(by eexists)) as [[_ D2]|D2].
        - apply D2. apply elem_of_app. by right.
        - rewrite app_nil_r in D2. rewrite (app_assoc n1), lfp_app, ads_app, elem_of_cons, elem_of_app in D2.
          destruct D2 as [[->|[D2|D2]]|D2]; [| |done|].
          + apply (Hap hd); [apply hd_in|done].
          + apply (Hap a); [|done]. rewrite lfp_app. left. by right.
          + apply (Hap a); [|done]. rewrite lfp_app. by right. }
      pose proof (lk_nd _ _ _ _ _ _ L2) as Hnd. apply NoDup_cons in Hnd as [Hnh Hnd]. apply NoDup_app in Hnd as (_ & Hnt & _).
      split; apply Hfr.
      + by left.
      + intros Hc. apply Hnh. apply elem_of_app. by left.
      + apply tl_in.
      + intros Hc. apply (Hnt _ Hc). by apply elem_of_list_singleton.
    - eexists. split; [rewrite <-X1; by eapply lok_nodes|]. split; [rewrite <-X2; by eapply lok_nodes|].
      split; [eapply two_run; [exact V1|exact V2|]; cbn [l_head L]; rewrite (bind_ok _ _ _ _ _ Ha); exact E1|].
      split; [apply Hn; simpl; [apply lookup_insert|done]|]. split; [|by eapply Ho].
      change (nodes (World h1 (<[i:=L al hd tl (n1 ++ ms ++ n2)]> (<[j:=L (T := T) al hd2 tl2 []]> (w_vars w)))) j
        (lfp hd2 ([] : list (N * T)) tl2) (vls [])).
      eapply lok_nodes; [|exact A2]. simpl. by rewrite lookup_insert_ne, lookup_insert.
  Qed.

  (** ** C19, C20: merging and sorting relink the nodes, every node keeps its
      element. *)
  Lemma zip_nodes ns : zip (ads ns) (vls ns) = ns.
  Proof. unfold ads, vls. apply zip_fst_snd. Qed.
  Theorem C20_sort_nodes_partial sp w i al xs lt : reached sp w -> sp !! i = Some (al, Some xs) ->
    length xs <> 1%nat -> swo lt ->
    exists a mid b w' mid' xs', nodes w i (ring a mid b) xs /\ step (LSrt i lt) w = Ok (OUnit, w') /\
      nodes w' i (ring a mid' b) xs' /\ srt lt xs' /\ zip mid' xs' ≡ₚ zip mid xs /\ others w w' sp [i].
  Proof.
    intros Hr%reached_rel Hi H1 Hlt. destruct (rel_live _ _ _ _ _ Hr Hi) as (Hwf & hd & tl & ns & Hv & Hx & Lk & HW & Ho).
    destruct (sort_ok dbl _ _ _ _ _ lt Hwf Lk) as (h' & zs & E & Hs & Lk' & Hu); [by rewrite <-Hx, vls_length in H1|].
    exists hd, (ads ns), tl. eexists _, (ads zs), (vls zs). split; [rewrite <-Hx; by eapply lok_nodes|].
    split; [eapply upd_run; [exact Hv|exact E]|]. split; [eapply lok_nodes; simpl; [apply lookup_insert|done]|].
    split; [|split].
    - apply sorted_as_map in Hs. apply (sorted_as_srt lt Hlt) in Hs. exact Hs.
    - rewrite <-Hx, !zip_nodes. by eapply sorted_as_perm.
    - by eapply Ho.
  Qed.
  Theorem C19_merge_nodes_partial sp w i j al xs ys lt : reached sp w -> i <> j ->
    sp !! i = Some (al, Some xs) -> sp !! j = Some (al, Some ys) ->
    xs <> [] -> ys <> [] -> nlen xs + nlen ys < W -> swo lt -> srt lt xs -> srt lt ys ->
    exists a mid b c mid2 d w' mid' zs, nodes w i (ring a mid b) xs /\ nodes w j (ring c mid2 d) ys /\
      step (LMer i j false lt) w = Ok (OUnit, w') /\
      nodes w' i (ring a mid' b) zs /\ nodes w' j (ring c [] d) [] /\
      srt lt zs /\ zip mid' zs ≡ₚ zip mid xs ++ zip mid2 ys /\ others w w' sp [i; j].
  Proof.
    intros Hr%reached_rel Hij Hi Hj Hx0 Hy0 HW' Hlt Hs1 Hs2.
    destruct (rel_live2 _ _ _ _ _ _ _ _ Hr Hij Hi Hj)
      as (Hwf & hd & tl & ns & hd2 & tl2 & ms & (V1 & X1 & L1 & W1) & (V2 & X2 & L2 & W2) & Hap & Ho).
    assert (Hl : length ns = length xs) by by rewrite <-X1, vls_length.
    assert (Hl2 : length ms = length ys) by by rewrite <-X2, vls_length.
    assert (Hns : ns <> []) by (intros ->; by rewrite <-X1 in Hx0).
    assert (Hms : ms <> []) by (intros ->; by rewrite <-X2 in Hy0).
    destruct (merge_ok dbl _ _ _ _ _ _ _ _ lt Hwf L1 L2 Hap Hns Hms) as (h' & E & A1 & A2 & A3); [by rewrite Hl, Hl2|].
    set (zs := mrg (on snd lt) ns ms) in *.
    exists hd, (ads ns), tl, hd2, (ads ms), tl2. eexists _, (ads zs), (vls zs).
    split; [rewrite <-X1; by eapply lok_nodes|]. split; [rewrite <-X2; by eapply lok_nodes|].
    split.
    { cbn [list_step]. unfold l_two_ne. destruct (Nat.eqb_spec i j); [done|]. eapply two_run; [exact V1|exact V2|exact E]. }
    split; [eapply lok_nodes; simpl; [apply lookup_insert|exact A1]|]. split.
    { change (ring hd2 [] tl2) with (lfp hd2 ([] : list (N * T)) tl2). change (@nil T) with (vls (T := T) []).
      eapply lok_nodes; [|exact A2]. simpl. by rewrite lookup_insert_ne, lookup_insert. }
    split; [|split].
    - unfold zs, vls. rewrite mrg_map. fold (vls ns) (vls ms). rewrite X1, X2. by apply mrg_srt.
    - rewrite <-X1, <-X2, !zip_nodes. apply mrg_perm.
    - by eapply Ho.
  Qed.

  (** ** C22 *)
  Theorem C22_reverse sp w i al xs : reached sp w -> sp !! i = Some (al, Some xs) ->
    exists a mid b w', nodes w i (ring a mid b) xs /\ step (LRev i) w = Ok (OUnit, w') /\
      nodes w' i (if dbl then ring b (reverse mid) a else ring a (reverse mid) b) (reverse xs) /\
      (forall p, is_Some (hmap (w_heap w') !! p) <-> is_Some (hmap (w_heap w) !! p)) /\ others w w' sp [i].
  Proof.
    intros Hr%reached_rel Hi. destruct (rel_live _ _ _ _ _ Hr Hi) as (Hwf & hd & tl & ns & Hv & Hx & Lk & HW & Ho).
    assert (Hm : forall p, p ∈ lfp hd (reverse ns) tl <-> p ∈ lfp hd ns tl).
    { intros p. unfold lfp. rewrite ads_reverse, !elem_of_cons, !elem_of_app, elem_of_reverse. done. }
    assert (Hm2 : forall p, p ∈ lfp tl (reverse ns) hd <-> p ∈ lfp hd ns tl).
    { intros p. unfold lfp. rewrite ads_reverse, !elem_of_cons, !elem_of_app, elem_of_reverse, !elem_of_list_singleton. tauto. }
    assert (Hsame : forall h' fp, upd (w_heap w) h' (lfp hd ns tl) fp -> (forall p, p ∈ fp <-> p ∈ lfp hd ns tl) ->
      forall p, is_Some (hmap h' !! p) <-> is_Some (hmap (w_heap w) !! p)).
    { intros h' fp Hu He p. rewrite (upd_dom _ _ _ _ Hu), He. split.
      - intros [[? _]|?]; [done|]. by eapply lok_has.
      - intros ?. destruct (decide (p ∈ lfp hd ns tl)); auto. }
    destruct (bool_dec dbl true) as [Hd|Hd%not_true_is_false].
    - destruct (rev_dbl_ok dbl _ _ _ _ _ Hd Hwf Lk) as (h' & E & Lk' & Hu).
      assert (Er : l_reverse dbl (L al hd tl ns) (w_heap w) = Ok (L al tl hd (reverse ns), h')).
      { unfold l_reverse. destruct dbl; [exact E|done]. }
      exists hd, (ads ns), tl. eexists. split; [rewrite <-Hx; by eapply lok_nodes|].
      split; [eapply upd_run; [exact Hv|exact Er]|]. split; [|split].
      + assert (Hi' : (if dbl then ring tl (reverse (ads ns)) hd else ring hd (reverse (ads ns)) tl) = lfp tl (reverse ns) hd).
        { rewrite ring_lfp, ads_reverse. by destruct dbl. }
        rewrite Hi', <-Hx, <-vls_reverse. eapply lok_nodes; simpl; [apply lookup_insert|done].
      + simpl. by eapply Hsame.
      + by eapply Ho.
    - destruct (rev_fwd_ok dbl _ _ _ _ _ Hd Hwf Lk) as (h' & E & Lk' & Hu).
      assert (Er : l_reverse dbl (L al hd tl ns) (w_heap w) = Ok (L al hd tl (reverse ns), h')).
      { unfold l_reverse. destruct dbl; [done|exact E]. }
      exists hd, (ads ns), tl. eexists. split; [rewrite <-Hx; by eapply lok_nodes|].
      split; [eapply upd_run; [exact Hv|exact Er]|]. split; [|split].
      + assert (Hi' : (if dbl then ring tl (reverse (ads ns)) hd else ring hd (reverse (ads ns)) tl) = lfp hd (reverse ns) tl).
        { rewrite ring_lfp, ads_reverse. by destruct dbl. }
        rewrite Hi', <-Hx, <-vls_reverse. eapply lok_nodes; simpl; [apply lookup_insert|done].
      + simpl. by eapply Hsame.
      + by eapply Ho.
  Qed.
  (** Reversing twice gives the same nodes in the same order. *)
  Theorem C22_involution sp w i al xs : reached sp w -> sp !! i = Some (al, Some xs) ->
    exists ps w1 w2, nodes w i ps xs /\ step (LRev i) w = Ok (OUnit, w1) /\ step (LRev i) w1 = Ok (OUnit, w2) /\
      nodes w2 i ps xs.
  Proof.
    intros Hr Hi. destruct (C22_reverse _ _ _ _ _ Hr Hi) as (a & mid & b & w1 & N0 & E1 & N1 & _).
    assert (Hg : gspec dbl sp (LRev i) = SOk (<[i := (al, Some (reverse xs))]> sp) OUnit).
    { unfold gspec, give. cbn. unfold live. rewrite Hi. unfold give. rewrite reverse_length.
      destruct (rel_live _ _ _ _ _ (reached_rel _ _ Hr) Hi) as (_ & hd & tl & ns & _ & <- & _ & HW & _).
      rewrite vls_length. apply N.ltb_lt in HW. by rewrite HW. }
    destruct (reached_step _ _ (LRev i) _ _ Hr I Hg) as (w1' & E1' & Hr1). rewrite E1 in E1'. injection E1' as <-.
    destruct (C22_reverse _ _ i al (reverse xs) Hr1) as (a' & mid' & b' & w2 & N1' & E2 & N2 & _); [apply lookup_insert|].
    exists (ring a mid b), w1, w2. split; [done|]. split; [done|]. split; [done|].
    pose proof (nodes_unique _ _ _ _ _ _ N1 N1') as He. rewrite reverse_involutive in N2.
    assert (Hf : (if dbl then ring b' (reverse mid') a' else ring a' (reverse mid') b') = ring a mid b).
    { clear -He. destruct dbl; unfold ring in He |- *; injection He as -> He; apply app_inj_2 in He as [<- [= ->]]; try done;
        by rewrite reverse_involutive. }
    by rewrite Hf in N2.
  Qed.

  (** ** C23 *)
  (** What stays keeps its node, what goes is freed. *)
  Lemma freed_rest w h' hd ns ns' tl fp : upd (w_heap w) h' (lfp hd ns tl) fp ->
    fp = lfp hd ns' tl -> forall a, a ∈ lfp hd ns tl -> a ∉ lfp hd ns' tl -> hmap h' !! a = None.
  Proof.
    intros Hu -> a Ha Ha'. destruct (hmap h' !! a) eqn:E'; [|done]. exfalso.
    destruct (upd_dom _ _ _ _ Hu a) as [D1 _]. destruct (D1 ltac:(by eexists)) as [[_ ?]|?]; done.
  Qed.
  Theorem C23_remove_if sp w i f al xs : reached sp w -> sp !! i = Some (al, Some xs) ->
    exists a mid b w', nodes w i (ring a mid b) xs /\
      step (LRemIf i f) w = Ok (ONum (nlen (List.filter f xs)), w') /\
      let ps' := ring a (List.filter (fun x => negb (f (snd x))) (zip mid xs)).*1 b in
      nodes w' i ps' (List.filter (fun x => negb (f x)) xs) /\
      (forall p, p ∈ ring a mid b -> p ∉ ps' -> hmap (w_heap w') !! p = None) /\ others w w' sp [i].
  Proof.
    intros Hr%reached_rel Hi. destruct (rel_live _ _ _ _ _ Hr Hi) as (Hwf & hd & tl & ns & Hv & Hx & Lk & HW & Ho).
    destruct (remove_if_ok dbl _ _ _ _ _ f Hwf Lk HW) as (h' & E & Lk' & Hu).
    assert (Hk : List.filter (fun x => negb (f (snd x))) ns = kept f ns).
    { clear. unfold kept. induction ns as [|[c v] ns IH]; [done|]. rewrite filter_cons. cbn [List.filter snd].
      destruct (f v) eqn:Ef; cbn [negb]; [rewrite decide_False by (cbn; congruence); exact IH|].
      rewrite decide_True by done. by rewrite IH. }
    exists hd, (ads ns), tl. eexists. split; [rewrite <-Hx; by eapply lok_nodes|]. split; [|cbn zeta; split; [|split]].
    - eapply updo_run; [exact Hv|]. rewrite (bind_ok _ _ _ _ _ E). unfold ret. do 4 f_equal.
      rewrite <-(vls_length ns), <-(vls_length (kept f ns)), rest_kept, Hx. pose proof (rest_count f xs). lia.
    - rewrite <-Hx, zip_nodes, Hk. change (List.filter (fun x => negb (f x)) (vls ns)) with (rest f (vls ns)).
      rewrite <-rest_kept. eapply lok_nodes; simpl; [apply lookup_insert|done].
    - rewrite <-Hx, zip_nodes, Hk. simpl. by eapply freed_rest.
    - by eapply Ho.
  Qed.
  Lemma unique_firsts r ns : unique_of r ns = firsts (fun x y => r (snd x) (snd y)) ns.
  Proof.
    destruct ns as [|[a v] ns]; [done|]. cbn [unique_of firsts]. f_equal. revert a v.
    induction ns as [|[b u] ns IH]; intros a v; [done|]. cbn [uniq runs snd]. destruct (r u v); [apply IH|]. f_equal. apply IH.
  Qed.
  Theorem C23_unique sp w i r al xs : reached sp w -> sp !! i = Some (al, Some xs) ->
    exists a mid b w', nodes w i (ring a mid b) xs /\
      step (LUniq i r) w = Ok (ONum (nlen xs - nlen (firsts r xs)), w') /\
      let ps' := ring a (firsts (fun x y => r (snd x) (snd y)) (zip mid xs)).*1 b in
      nodes w' i ps' (firsts r xs) /\
      (forall p, p ∈ ring a mid b -> p ∉ ps' -> hmap (w_heap w') !! p = None) /\ others w w' sp [i].
  Proof.
    intros Hr%reached_rel Hi. destruct (rel_live _ _ _ _ _ Hr Hi) as (Hwf & hd & tl & ns & Hv & Hx & Lk & HW & Ho).
    destruct (unique_ok dbl _ _ _ _ _ r Hwf Lk HW) as (h' & E & Lk' & Hu).
    exists hd, (ads ns), tl. eexists. split; [rewrite <-Hx; by eapply lok_nodes|]. split; [|cbn zeta; split; [|split]].
    - eapply updo_run; [exact Hv|]. rewrite (bind_ok _ _ _ _ _ E). unfold ret. do 4 f_equal.
      by rewrite <-(vls_length ns), <-(vls_length (unique_of r ns)), firsts_unique, Hx.
    - rewrite <-Hx, zip_nodes, <-unique_firsts, <-firsts_unique.
      eapply lok_nodes; simpl; [apply lookup_insert|done].
    - rewrite <-Hx, zip_nodes, <-unique_firsts. simpl. by eapply freed_rest.
    - by eapply Ho.
  Qed.
End Nodes.
