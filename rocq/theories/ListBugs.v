(** * ListBugs: what the defective members of [List] and [ForwardList] do

    For all contents, not just for an example: C18 (splicing in an empty
    list), C19 (merging into an empty list, merging an rvalue), C20 (sorting
    one element), C23 (removing by reference to an element), C26 ([const]
    [front_unchecked]) and C27 (moving to another allocator). *)
From Verif Require Import Base World Machine IterSpec ListModel ListSeg ListOps ListOps2 ListOps3 ListOps4 ListOps5
  SortSpec ListSort ListStep ListSpec ListRefine ListNodes.
Local Open Scope N_scope.

Lemma bind_err {S A B} (m : M S A) (k : A -> M S B) s e : m s = Err e -> bind m k s = Err e.
Proof. intros E. unfold bind. by rewrite E. Qed.

Section Bugs.
  Context {T : Type} (dbl : bool).
  Notation lstate := (gmap nat (N * option (list T))).
  Notation step := (list_step (T := T) dbl).
  Notation lok := (lok dbl).
  Notation reached := (reached (T := T) dbl).
  Notation H := (heap (cell T)).
  Implicit Types (h : H) (ns ms : list (N * T)) (w : world (cell T) lst) (sp : lstate) (xs : list T).

  (** Nodes linked forward, on to [e]. *)
  Fixpoint pth h al ns (e : lptr) : Prop :=
    match ns with
    | [] => True
    | (a, v) :: r => node h al a v /\ nx h a = Some (ListSort.sp r e) /\ pth h al r e
    end.
  Notation spt := ListSort.sp.
  Lemma pth_frame h h' al ns e :
    (forall a, a ∈ ads ns -> nx h' a = nx h a /\ dt h' a = dt h a) -> pth h al ns e -> pth h' al ns e.
  Proof.
    induction ns as [|[a v] ns IH]; intros Hf; [done|]. intros (H1 & H2 & H3).
    destruct (Hf a) as [F1 F2]; [by left|]. split; [unfold node; by rewrite F2|]. split; [by rewrite F1|].
    apply IH; [|done]. intros b Hb. apply Hf. by right.
  Qed.
  Lemma lok_pth h al hd n1 n2 tl : lok h al hd (n1 ++ n2) tl -> pth h al n1 (PAddr (startp n2 tl)).
  Proof.
    intros Lk. destruct (lok_fw dbl _ _ _ _ _ Lk) as [Hf _]. apply fw_app in Hf as [Hf _]. clear Lk.
    induction n1 as [|[a v] n1 IH]; [done|]. destruct Hf as (F1 & F2 & F3). split; [done|]. split; [|by apply IH].
    rewrite F2. by destruct n1 as [|[]].
  Qed.
  (** A loop that runs off the list. *)
  Lemma collect_bad h al (e stop : lptr) ns : forall fuel, pth h al ns e -> (forall a, a ∈ ads ns -> PAddr a <> stop) ->
    e <> stop -> value (T := T) e h = Err UB -> e <> PUndef -> (length ns < fuel)%nat ->
    stl_collect fuel (spt ns e) stop h = Err UB.
  Proof.
    induction ns as [|[a v] ns IH]; intros fuel Hp Hs He Hv Hu Hf; (destruct fuel as [|fuel]; [simpl in Hf; lia|]); cbn [stl_collect ListSort.sp].
    - rewrite decide_False by done. by apply bind_err.
    - rewrite decide_False by (apply Hs; by left). destruct Hp as (H1 & H2 & H3).
      rewrite (bind_ok _ _ _ _ _ (value_ok _ _ _ _ H1)).
      assert (Hd : spt ns e <> PUndef) by by destruct ns as [|[]].
      rewrite (bind_ok _ _ _ _ _ (get_next_ok _ _ _ H2 Hd)). apply bind_err.
      apply IH; try done; [|simpl in Hf; lia]. intros b Hb. apply Hs. by right.
  Qed.
  Lemma items_bad w i l al ns (e : lptr) : w_vars w !! i = Some l -> get_next (l_head l) (w_heap w) = Ok (spt ns e, w_heap w) ->
    pth (w_heap w) al ns e -> NoDup (ads ns) -> (forall a, a ∈ ads ns -> PAddr a <> l_tail l) -> e <> l_tail l ->
    value (T := T) e (w_heap w) = Err UB -> e <> PUndef -> step (LItems i) w = Err UB.
  Proof.
    intros Hv Hn Hp Hnd Ht He Hval Hu. cbn [list_step]. unfold l_obs, bind at 1, wget. rewrite Hv. unfold lift.
    assert (E : (x <-- l_to_list l ;; ret (OList x)) (w_heap w) = Err UB); [|by rewrite E].
    apply bind_err. unfold l_to_list. rewrite (bind_ok _ _ _ _ _ Hn), (bind_ok _ _ _ _ _ (fuel_ok _)).
    eapply collect_bad; try done. apply Nat.lt_succ_r.
    assert (length ns = length (ads ns)) as -> by (symmetry; apply fmap_length).
    apply size_ge; [done|]. clear -Hp. revert Hp. induction ns as [|[a v] ns IH]; intros Hp b Hb; [by apply elem_of_nil in Hb|].
    destruct Hp as (H1 & H2 & H3). apply elem_of_cons in Hb as [->|Hb]; [by eapply node_has|by apply IH].
  Qed.
  Lemma value_gone h a : ~ has h a -> value (T := T) (PAddr a) h = Err UB.
  Proof.
    intros Hn. unfold value. apply bind_err. unfold rd, hread. destruct (hmap h !! a) eqn:E; [|done].
    destruct Hn. by eexists.
  Qed.

  (** From [p] on along [ns] to [e]. *)
  Definition run_to h al p ns (e : lptr) : Prop := nx h p = Some (spt ns e) /\ pth h al ns e.
  Lemma run_to_end h h' al ns e e' : forall p, run_to h al p ns e -> NoDup (p :: ads ns) ->
    (forall a, a ∈ p :: ads ns -> dt h' a = dt h a /\ (a <> endp p ns -> nx h' a = nx h a)) ->
    nx h' (endp p ns) = Some e' -> run_to h' al p ns e'.
  Proof.
    induction ns as [|[a v] ns IH]; intros p [R1 R2] Hnd Hf He.
    { by split. }
    destruct R2 as (H1 & H2 & H3). apply NoDup_cons in Hnd as [Hp Hnd].
    destruct (IH a (conj H2 H3) Hnd) as [I1 I2]; [|done|].
    { intros b Hb. apply Hf. by right. }
    split; [|split; [|by split]].
    - destruct (Hf p) as [_ E]; [by left|]. rewrite E; [by rewrite R1|]. cbn [endp]. intros E'.
      apply Hp. rewrite E'. apply endp_in.
    - unfold node. by rewrite (proj1 (Hf a ltac:(right; by left))).
  Qed.
  Lemma lok_run h al hd ns tl n1 n2 : lok h al hd ns tl -> ns = n1 ++ n2 -> run_to h al hd n1 (PAddr (startp n2 tl)).
  Proof.
    intros Lk ->. split; [|by eapply lok_pth]. destruct (lok_fw dbl _ _ _ _ _ Lk) as [_ ->].
    rewrite startp_app. by destruct n1 as [|[]].
  Qed.
  Lemma run_items w i l al hd ns (e : lptr) : w_vars w !! i = Some l -> l_head l = PAddr hd -> run_to (w_heap w) al hd ns e ->
    NoDup (ads ns) -> (forall a, a ∈ ads ns -> PAddr a <> l_tail l) -> e <> l_tail l ->
    value (T := T) e (w_heap w) = Err UB -> e <> PUndef -> step (LItems i) w = Err UB.
  Proof.
    intros Hv Hh [R1 R2] Hnd Ht He Hval Hu. eapply items_bad; try done.
    rewrite Hh. apply get_next_ok; [done|]. by destruct ns as [|[]].
  Qed.
  Lemma gone_fr h a : ~ has (fr h a) a.
  Proof. rewrite has_fr. by intros [? _]. Qed.

  (** ** C18: splicing in an empty list *)
  (** The call itself goes through, with the wrong links: the list now runs
      into the [end()] of the other one. *)
  Theorem C18_splice_after_empty_breaks sp w i k j al xs (rv : bool) : reached sp w -> i <> j ->
    sp !! i = Some (al, Some xs) -> sp !! j = Some (al, Some []) -> (k <= length xs)%nat ->
    exists w', step (LSplA i k j rv) w = Ok (OUnit, w') /\ step (LItems i) w' = Err UB.
  Proof.
    intros Hr%reached_rel Hij Hi Hj Hk.
    destruct (rel_live2 dbl _ _ _ _ _ _ _ _ Hr Hij Hi Hj)
      as (Hwf & hd & tl & ns & hd2 & tl2 & ms & (V1 & X1 & L1 & W1) & (V2 & X2 & L2 & W2) & Hap & _).
    destruct ms as [|[]]; [clear X2|done].
    assert (Hl : length ns = length xs) by by rewrite <-X1, vls_length.
    destruct (split_at ns k) as (n1 & n2 & -> & <- & H1 & H2); [lia|].
    pose proof (advance_ok dbl _ _ _ _ _ _ L1) as Ha.
    set (h := w_heap w) in *. set (p := endp hd n1). set (q := startp n2 tl).
    assert (Hp : p ∈ lfp hd (n1 ++ n2) tl).
    { rewrite lfp_app. left. apply endp_in. }
    assert (Hq : q ∈ lfp hd (n1 ++ n2) tl).
    { rewrite lfp_app. right. apply startp_in. }
    assert (Hhp : has h p) by exact (lok_has dbl _ _ _ _ _ _ L1 Hp).
    assert (Hhq : has h q) by exact (lok_has dbl _ _ _ _ _ _ L1 Hq).
    assert (Hh2 : has h hd2) by (eapply lok_has; [exact L2|by left]).
    assert (Ht2 : has h tl2) by (eapply lok_has; [exact L2|apply tl_in]).
    destruct (lok_fw dbl _ _ _ _ _ L2) as [_ N2]. cbn [startp] in N2.
    pose proof (next_at dbl _ _ _ _ _ _ L1) as Np.
    pose proof (lok_run _ _ _ _ _ n1 n2 L1 eq_refl) as R.
    destruct (lok_chn dbl _ _ _ _ _ L1) as (_ & _ & Nd & Nh & Nt & Hht).
    rewrite ads_app in Nd, Nh, Nt. apply NoDup_app in Nd as (Nd & _ & _).
    assert (Nh1 : hd ∉ ads n1) by (intros ?; apply Nh, elem_of_app; by left).
    assert (Nt1 : tl ∉ ads n1) by (intros ?; apply Nt, elem_of_app; by left).
    assert (Hph2 : p <> hd2) by (intros E; apply (Hap p Hp); rewrite E; by left).
    assert (Htt : tl2 <> tl) by (intros E; apply (Hap tl (tl_in _ _ _)); rewrite <-E; apply tl_in).
    assert (Hhd2 : forall a, a ∈ hd :: ads n1 -> a <> hd2 /\ a <> tl2).
    { intros a Ha1. assert (a ∈ lfp hd (n1 ++ n2) tl) by (rewrite lfp_app; by left).
      split; intros ->; apply (Hap _ ltac:(done)); [by left|apply tl_in]. }
    pose proof (real_tail_ok dbl _ _ _ _ _ L2) as Rt. cbn [endp] in Rt.
    destruct (lok_chn dbl _ _ _ _ _ L2) as (_ & _ & _ & _ & _ & Hht2).
    set (h1 := sn dbl h hd2 q). set (h2 := sn dbl h1 p tl2).
    assert (E1 : set_next dbl (PAddr hd2) (PAddr q) h = Ok (tt, h1)) by by apply set_next_ok.
    assert (E2 : set_next dbl (PAddr p) (PAddr tl2) h1 = Ok (tt, h2)) by (apply set_next_ok; by apply has_sn).
    assert (G : get_next (PAddr hd2) h = Ok (PAddr tl2, h)) by (by apply get_next_ok).
    assert (Nxp : nx h2 p = Some (PAddr tl2)).
    { unfold h2. rewrite nx_sn by (by apply has_sn). by rewrite decide_True. }
    assert (Nxo : forall a, a ∈ hd :: ads n1 -> a <> p -> nx h2 a = nx h a).
    { intros a Ha1 Hap1. unfold h2, h1. rewrite !nx_sn by (done || by apply has_sn).
      rewrite decide_False by done. by rewrite decide_False by (by apply Hhd2). }
    destruct rv.
    - set (h3 := fr (fr h2 hd2) tl2).
      assert (D1 : virt h2 al hd2) by (unfold virt, h2, h1; rewrite !dt_sn; apply L2).
      assert (D2 : virt (fr h2 hd2) al tl2) by (unfold virt, h2, h1; rewrite dt_fr, !dt_sn by done; apply L2).
      eexists. split.
      { cbn [list_step]. eapply two_run; [exact V1|exact V2|]. cbn [l_head L]. rewrite (bind_ok _ _ _ _ _ Ha).
        unfold l_splice_after_rv. cbn [l_head l_tail l_al L].
        rewrite (bind_ok _ _ _ _ _ G), (bind_ok _ _ _ _ _ Rt), (bind_ok _ _ _ _ _ Np), (bind_ok _ _ _ _ _ E1), (bind_ok _ _ _ _ _ E2).
        rewrite (bind_ok _ _ _ _ _ (destroy_virt_ok _ al hd2 D1)), (bind_ok _ _ _ _ _ (destroy_virt_ok _ al tl2 D2)).
        reflexivity. }
      eapply (run_items _ _ _ al hd n1 (PAddr tl2)); [simpl; by rewrite lookup_insert|done| |done| | | |done].
      + simpl. fold h3. eapply run_to_end; [exact R|by constructor| |].
        * intros a Ha1. destruct (Hhd2 a Ha1). unfold h3. rewrite !dt_fr, !nx_fr by done.
          unfold h2 at 1, h1. rewrite !dt_sn. split; [done|by apply Nxo].
        * fold p. destruct (Hhd2 p ltac:(apply endp_in)). unfold h3. by rewrite !nx_fr.
      + intros a Ha1 [= ->]. done.
      + cbn. congruence.
      + apply value_gone. apply gone_fr.
    - set (h3 := sn dbl h2 hd2 tl2).
      assert (Hs : has h2 hd2) by by do 2 apply has_sn. assert (Hs2 : has h2 tl2) by by do 2 apply has_sn.
      eexists. split.
      { cbn [list_step]. eapply two_run; [exact V1|exact V2|]. cbn [l_head L]. rewrite (bind_ok _ _ _ _ _ Ha).
        unfold l_splice_after. cbn [l_head l_tail l_al L].
        rewrite (bind_ok _ _ _ _ _ G), (bind_ok _ _ _ _ _ Rt), (bind_ok _ _ _ _ _ Np), (bind_ok _ _ _ _ _ E1), (bind_ok _ _ _ _ _ E2).
        rewrite (bind_ok _ _ _ _ _ (set_next_ok dbl h2 hd2 tl2 Hs Hs2)).
        reflexivity. }
      eapply (run_items _ _ _ al hd n1 (PAddr tl2)); [simpl; by rewrite lookup_insert|done| |done| | | |done].
      + simpl. fold h3. eapply run_to_end; [exact R|by constructor| |].
        * intros a Ha1. destruct (Hhd2 a Ha1). unfold h3. rewrite dt_sn, nx_sn by done.
          unfold h2 at 1, h1. rewrite !dt_sn. split; [done|]. rewrite decide_False by done. by apply Nxo.
        * fold p. unfold h3. rewrite nx_sn by done. by rewrite decide_False.
      + intros a Ha1 [= ->]. done.
      + cbn. congruence.
      + eapply value_virt. unfold h3, h2, h1, virt. cbn. rewrite !dt_sn. apply L2.
  Qed.

  Theorem C18_splice_empty_breaks sp w i k j al xs (rv : bool) : dbl = true -> reached sp w -> i <> j ->
    sp !! i = Some (al, Some xs) -> sp !! j = Some (al, Some []) -> (1 <= k <= length xs + 1)%nat ->
    exists w', step (LSpl i k j rv) w = Ok (OUnit, w') /\ step (LItems i) w' = Err UB.
  Proof.
    intros Hd Hr%reached_rel Hij Hi Hj Hk.
    destruct (rel_live2 dbl _ _ _ _ _ _ _ _ Hr Hij Hi Hj)
      as (Hwf & hd & tl & ns & hd2 & tl2 & ms & (V1 & X1 & L1 & W1) & (V2 & X2 & L2 & W2) & Hap & _).
    destruct ms as [|[]]; [clear X2|done].
    assert (Hl : length ns = length xs) by by rewrite <-X1, vls_length.
    destruct (split_at ns (k - 1)) as (n1 & n2 & -> & Hk' & H1 & H2); [lia|].
    assert (k = S (length n1)) as -> by lia.
    pose proof (advance_start dbl _ _ _ _ _ _ L1) as Ha.
    set (h := w_heap w) in *. set (p := endp hd n1). set (q := startp n2 tl).
    assert (Hp : p ∈ lfp hd (n1 ++ n2) tl).
    { rewrite lfp_app. left. apply endp_in. }
    assert (Hq : q ∈ lfp hd (n1 ++ n2) tl).
    { rewrite lfp_app. right. apply startp_in. }
    assert (Hhp : has h p) by exact (lok_has dbl _ _ _ _ _ _ L1 Hp).
    assert (Hhq : has h q) by exact (lok_has dbl _ _ _ _ _ _ L1 Hq).
    assert (Hh2 : has h hd2) by (eapply lok_has; [exact L2|by left]).
    assert (Ht2 : has h tl2) by (eapply lok_has; [exact L2|apply tl_in]).
    destruct (lok_fw dbl _ _ _ _ _ L2) as [_ N2]. cbn [startp] in N2.
    pose proof (prev_at dbl _ _ _ _ _ _ Hd L1) as Np.
    pose proof (lok_run _ _ _ _ _ n1 n2 L1 eq_refl) as R.
    destruct (lok_chn dbl _ _ _ _ _ L1) as (_ & _ & Nd & Nh & Nt & Hht).
    rewrite ads_app in Nd, Nh, Nt. apply NoDup_app in Nd as (Nd & _ & _).
    assert (Nh1 : hd ∉ ads n1) by (intros ?; apply Nh, elem_of_app; by left).
    assert (Nt1 : tl ∉ ads n1) by (intros ?; apply Nt, elem_of_app; by left).
    assert (Hph2 : p <> hd2) by (intros E; apply (Hap p Hp); rewrite E; by left).
    assert (Htt : tl2 <> tl) by (intros E; apply (Hap tl (tl_in _ _ _)); rewrite <-E; apply tl_in).
    assert (Hhd2 : forall a, a ∈ hd :: ads n1 -> a <> hd2 /\ a <> tl2).
    { intros a Ha1. assert (a ∈ lfp hd (n1 ++ n2) tl) by (rewrite lfp_app; by left).
      split; intros ->; apply (Hap _ ltac:(done)); [by left|apply tl_in]. }
    pose proof (real_tail_ok dbl _ _ _ _ _ L2) as Rt. cbn [endp] in Rt.
    destruct (lok_chn dbl _ _ _ _ _ L2) as (_ & _ & _ & _ & _ & Hht2).
    set (h1 := sn dbl h p tl2). set (h2 := sn dbl h1 hd2 q).
    assert (E1 : set_next dbl (PAddr p) (PAddr tl2) h = Ok (tt, h1)) by by apply set_next_ok.
    assert (E2 : set_next dbl (PAddr hd2) (PAddr q) h1 = Ok (tt, h2)) by (apply set_next_ok; by apply has_sn).
    assert (G : get_next (PAddr hd2) h = Ok (PAddr tl2, h)) by (by apply get_next_ok).
    assert (Nxp : nx h2 p = Some (PAddr tl2)).
    { unfold h2, h1. rewrite !nx_sn by (done || by apply has_sn). rewrite decide_False by done. by rewrite decide_True. }
    assert (Nxo : forall a, a ∈ hd :: ads n1 -> a <> p -> nx h2 a = nx h a).
    { intros a Ha1 Hap1. unfold h2, h1. rewrite !nx_sn by (done || by apply has_sn).
      rewrite decide_False by (by apply Hhd2). by rewrite decide_False. }
    destruct rv.
    - set (h3 := fr (fr h2 hd2) tl2).
      assert (D1 : virt h2 al hd2) by (unfold virt, h2, h1; rewrite !dt_sn; apply L2).
      assert (D2 : virt (fr h2 hd2) al tl2) by (unfold virt, h2, h1; rewrite dt_fr, !dt_sn by done; apply L2).
      eexists. split.
      { cbn [list_step]. eapply two_run; [exact V1|exact V2|]. cbn [l_head L]. rewrite (bind_ok _ _ _ _ _ Ha).
        unfold l_splice_rv. cbn [l_head l_tail l_al L].
        rewrite (bind_ok _ _ _ _ _ G), (bind_ok _ _ _ _ _ Rt), (bind_ok _ _ _ _ _ Np), (bind_ok _ _ _ _ _ E1), (bind_ok _ _ _ _ _ E2).
        rewrite (bind_ok _ _ _ _ _ (destroy_virt_ok _ al hd2 D1)), (bind_ok _ _ _ _ _ (destroy_virt_ok _ al tl2 D2)).
        reflexivity. }
      eapply (run_items _ _ _ al hd n1 (PAddr tl2)); [simpl; by rewrite lookup_insert|done| |done| | | |done].
      + simpl. fold h3. eapply run_to_end; [exact R|by constructor| |].
        * intros a Ha1. destruct (Hhd2 a Ha1). unfold h3. rewrite !dt_fr, !nx_fr by done.
          unfold h2 at 1, h1. rewrite !dt_sn. split; [done|by apply Nxo].
        * fold p. destruct (Hhd2 p ltac:(apply endp_in)). unfold h3. by rewrite !nx_fr.
      + intros a Ha1 [= ->]. done.
      + cbn. congruence.
      + apply value_gone. apply gone_fr.
    - set (h3 := sn dbl h2 hd2 tl2).
      assert (Hs : has h2 hd2) by by do 2 apply has_sn. assert (Hs2 : has h2 tl2) by by do 2 apply has_sn.
      eexists. split.
      { cbn [list_step]. eapply two_run; [exact V1|exact V2|]. cbn [l_head L]. rewrite (bind_ok _ _ _ _ _ Ha).
        unfold l_splice. cbn [l_head l_tail l_al L].
        rewrite (bind_ok _ _ _ _ _ G), (bind_ok _ _ _ _ _ Rt), (bind_ok _ _ _ _ _ Np), (bind_ok _ _ _ _ _ E1), (bind_ok _ _ _ _ _ E2).
        rewrite (bind_ok _ _ _ _ _ (set_next_ok dbl h2 hd2 tl2 Hs Hs2)).
        reflexivity. }
      eapply (run_items _ _ _ al hd n1 (PAddr tl2)); [simpl; by rewrite lookup_insert|done| |done| | | |done].
      + simpl. fold h3. eapply run_to_end; [exact R|by constructor| |].
        * intros a Ha1. destruct (Hhd2 a Ha1). unfold h3. rewrite dt_sn, nx_sn by done.
          unfold h2 at 1, h1. rewrite !dt_sn. split; [done|]. rewrite decide_False by done. by apply Nxo.
        * fold p. unfold h3. rewrite nx_sn by done. by rewrite decide_False.
      + intros a Ha1 [= ->]. done.
      + cbn. congruence.
      + eapply value_virt. unfold h3, h2, h1, virt. cbn. rewrite !dt_sn. apply L2.
  Qed.

  (** ** C19: merging into an empty list *)
  Theorem C19_merge_into_empty_breaks sp w i j al ys (rv : bool) lt : reached sp w -> i <> j ->
    sp !! i = Some (al, Some []) -> sp !! j = Some (al, Some ys) -> ys <> [] ->
    exists w', step (LMer i j rv lt) w = Ok (OUnit, w') /\ step (LItems i) w' = Err UB.
  Proof.
    intros Hr%reached_rel Hij Hi Hj Hy.
    destruct (rel_live2 dbl _ _ _ _ _ _ _ _ Hr Hij Hi Hj)
      as (Hwf & hd & tl & ns & hd2 & tl2 & ms & (V1 & X1 & L1 & W1) & (V2 & X2 & L2 & W2) & Hap & _).
    destruct ns as [|[]]; [clear X1|done].
    destruct ms as [|[b v] ms]; [by rewrite <-X2 in Hy|]. clear X2 Hy.
    set (h := w_heap w) in *.
    assert (Hhd : has h hd) by (eapply lok_has; [exact L1|by left]).
    assert (Hh2 : has h hd2) by (eapply lok_has; [exact L2|by left]).
    assert (Ht2 : has h tl2) by (eapply lok_has; [exact L2|apply tl_in]).
    assert (Hbi : b ∈ lfp hd2 ((b, v) :: ms) tl2) by (right; by left).
    assert (Hb : has h b) by exact (lok_has dbl _ _ _ _ _ _ L2 Hbi).
    pose proof (next_at dbl h al hd [] [] tl L1) as N1. pose proof (next_at dbl h al hd2 [] _ tl2 L2) as N2. cbn [endp startp] in N1, N2.
    pose proof (lok_run _ _ _ _ _ ((b, v) :: ms) [] L2 ltac:(by rewrite app_nil_r)) as [_ R]. cbn [startp] in R.
    destruct (lok_chn dbl _ _ _ _ _ L2) as (_ & _ & Nd & Nh & Nt & Hht2).
    assert (Hap2 : forall a, a ∈ hd2 :: ads ((b, v) :: ms) ++ [tl2] -> a <> hd /\ a <> tl).
    { intros a Ha. split; intros ->; refine (Hap _ _ Ha); [by left|apply tl_in]. }
    assert (Hhh : hd2 <> hd /\ hd2 <> tl) by (apply Hap2; by left).
    assert (Htt : tl2 <> hd /\ tl2 <> tl) by (apply Hap2, tl_in).
    assert (Hms : forall a, a ∈ ads ((b, v) :: ms) -> a <> hd /\ a <> tl /\ a <> hd2 /\ a <> tl2).
    { intros a Ha. destruct (Hap2 a) as [? ?]; [right; apply elem_of_app; by left|]. split; [done|]. split; [done|].
      split; intros ->; [by apply Nh|by apply Nt]. }
    assert (Hl : l_len (L (T := T) al hd2 tl2 ((b, v) :: ms)) =? 0 = false) by (apply N.eqb_neq; cbn [l_len L length]; lia).
    cbn [list_step]. unfold l_two_ne. rewrite (proj2 (Nat.eqb_neq i j) Hij).
    destruct rv.
    - set (h1 := fr (fr h hd2) tl2). set (h2 := sn dbl h1 hd b).
      assert (D1 : virt h al hd2) by apply L2.
      assert (D2 : virt (fr h hd2) al tl2) by (unfold virt; rewrite dt_fr by done; apply L2).
      assert (D3 : virt h1 al tl) by (unfold virt, h1; rewrite !dt_fr by (apply not_eq_sym; naive_solver); apply L1).
      assert (Hh1 : has h1 hd) by (unfold h1; rewrite !has_fr; split; [apply not_eq_sym; naive_solver|]; split; [apply not_eq_sym; naive_solver|done]).
      assert (Hb1 : has h1 b) by (unfold h1; rewrite !has_fr; destruct (Hms b ltac:(by left)) as (? & ? & ? & ?); done).
      eexists. split.
      { eapply two_run; [exact V1|exact V2|]. unfold l_merge_rv. rewrite Hl. cbn [l_head l_tail l_al L].
        rewrite (bind_ok _ _ _ _ _ N1), (bind_ok _ _ _ _ _ N2).
        rewrite (bind_ok _ _ _ _ _ (destroy_virt_ok _ al hd2 D1)), (bind_ok _ _ _ _ _ (destroy_virt_ok _ al tl2 D2)). fold h1.
        assert (M1 : merge_nodes dbl lt (PAddr tl) (PAddr b) h1 = Ok ((PAddr b, PNull), h1)).
        { unfold merge_nodes. by rewrite (bind_ok _ _ _ _ _ (m_end_nil h1 al (PAddr tl) (or_intror (ex_intro _ tl (conj eq_refl D3))))). }
        rewrite (bind_ok _ _ _ _ _ M1). cbn [fst snd]. rewrite (bind_ok _ _ _ _ _ (set_next_ok dbl h1 hd b Hh1 Hb1)).
        reflexivity. }
      eapply (run_items _ _ _ al hd ((b, v) :: ms) (PAddr tl2)); [simpl; by rewrite lookup_insert|done| |done| | | |done].
      + simpl. fold h2. split; [unfold h2; rewrite nx_sn by done; by rewrite decide_True|].
        eapply pth_frame; [|exact R]. intros a Ha. destruct (Hms a Ha) as (? & ? & ? & ?).
        unfold h2. rewrite dt_sn, nx_sn by done. rewrite decide_False by done. unfold h1. by rewrite !nx_fr, !dt_fr.
      + intros a Ha [= ->]. by destruct (Hms _ Ha) as (? & ? & ? & ?).
      + cbn. intros [= ->]. naive_solver.
      + apply value_gone. unfold h2. cbn. rewrite has_sn. apply gone_fr.
    - set (h1 := sn dbl h hd2 tl2). set (h2 := sn dbl h1 hd b).
      assert (D3 : virt h1 al tl) by (unfold virt, h1; rewrite dt_sn; apply L1).
      assert (Hh1 : has h1 hd) by by apply has_sn. assert (Hb1 : has h1 b) by by apply has_sn.
      eexists. split.
      { eapply two_run; [exact V1|exact V2|]. unfold l_merge. rewrite Hl. cbn [l_head l_tail l_al L].
        rewrite (bind_ok _ _ _ _ _ N1), (bind_ok _ _ _ _ _ N2), (bind_ok _ _ _ _ _ (set_next_ok dbl h hd2 tl2 Hh2 Ht2)). fold h1.
        assert (M1 : merge_nodes dbl lt (PAddr tl) (PAddr b) h1 = Ok ((PAddr b, PNull), h1)).
        { unfold merge_nodes. by rewrite (bind_ok _ _ _ _ _ (m_end_nil h1 al (PAddr tl) (or_intror (ex_intro _ tl (conj eq_refl D3))))). }
        rewrite (bind_ok _ _ _ _ _ M1). cbn [fst snd]. rewrite (bind_ok _ _ _ _ _ (set_next_ok dbl h1 hd b Hh1 Hb1)).
        reflexivity. }
      eapply (run_items _ _ _ al hd ((b, v) :: ms) (PAddr tl2)); [simpl; by rewrite lookup_insert|done| |done| | | |done].
      + simpl. fold h2. split; [unfold h2; rewrite nx_sn by done; by rewrite decide_True|].
        eapply pth_frame; [|exact R]. intros a Ha. destruct (Hms a Ha) as (? & ? & ? & ?).
        unfold h2, h1. rewrite !dt_sn, !nx_sn by done. by rewrite !decide_False.
      + intros a Ha [= ->]. by destruct (Hms _ Ha) as (? & ? & ? & ?).
      + cbn. intros [= ->]. naive_solver.
      + eapply value_virt. unfold h2, h1, virt. cbn. rewrite !dt_sn. apply L2.
  Qed.

  (** ** C19: merging an rvalue *)
  (** The nodes that end [other] are freed first; merging then asks them
      whether they are the end. *)
  Lemma m_end_gone h a : ~ has h a -> m_end (T := T) (PAddr a) h = Err UB.
  Proof.
    intros Hn. unfold m_end. rewrite decide_False by done. unfold no_data. apply bind_err.
    unfold rd, hread. destruct (hmap h !! a) eqn:E; [|done]. destruct Hn. by eexists.
  Qed.
  Lemma m_end_node h al a v : node h al a v -> m_end (T := T) (PAddr a) h = Ok (false, h).
  Proof. intros Hn. unfold m_end. rewrite decide_False by done. by eapply no_data_node. Qed.
  Lemma pth_sn h al ns e x y : has h x -> x ∉ ads ns -> pth h al ns e -> pth (sn dbl h x y) al ns e.
  Proof.
    intros Hx Hn. apply pth_frame. intros a Ha. rewrite dt_sn, nx_sn by done. rewrite decide_False; [done|]. by intros ->.
  Qed.
  Lemma last_loop_bad al t ys : forall fuel h p, nx h p = Some (spt ys (PAddr t)) -> pth h al ys (PAddr t) -> ~ has h t ->
    (length ys < fuel)%nat -> last_loop fuel (PAddr p) h = Err UB.
  Proof.
    induction ys as [|[a v] ys IH]; intros fuel h p Hp Hy Ht Hf; (destruct fuel as [|fuel]; [simpl in Hf; lia|]); cbn [last_loop];
      rewrite (bind_ok _ _ _ _ _ (get_next_ok _ _ _ Hp ltac:(done))); cbn [ListSort.sp].
    - by apply bind_err, m_end_gone.
    - destruct Hy as (Y1 & Y2 & Y3). rewrite (bind_ok _ _ _ _ _ (m_end_node _ _ _ _ Y1)). apply IH; try done. simpl in Hf. lia.
  Qed.
  Lemma pth_tk h al ns e : pth h al ns e -> pth (tk h) al ns e.
  Proof. by apply pth_frame. Qed.
  Lemma merge_loop_rv al lt tl t : forall fuel h p (xs ys : list (N * T)),
    pth h al xs (PAddr tl) -> virt h al tl -> pth h al ys (PAddr t) -> ~ has h t -> has h p ->
    p ∉ ads xs ++ ads ys -> NoDup (ads xs ++ ads ys) -> (xs <> [] \/ ys <> []) -> (length xs + length ys < fuel)%nat ->
    merge_loop dbl fuel lt (spt xs (PAddr tl)) (spt ys (PAddr t)) (PAddr p) h = Err UB \/
    exists h' p' ys', merge_loop dbl fuel lt (spt xs (PAddr tl)) (spt ys (PAddr t)) (PAddr p) h = Ok ((PAddr tl, spt ys' (PAddr t), PAddr p'), h') /\
      ys' <> [] /\ pth h' al ys' (PAddr t) /\ ~ has h' t /\ has h' p' /\ p' ∉ ads ys' /\ virt h' al tl /\ (length ys' <= length ys)%nat.
  Proof.
    induction fuel as [|fuel IH]; intros h p xs ys Hx Vt Hy Ht Hp Hpn Hnd Hne Hf; [lia|]. cbn [merge_loop].
    assert (Hend : forall h, virt h al tl -> m_end (T := T) (PAddr tl) h = Ok (true, h)).
    { intros h' V. eapply m_end_nil. right. by exists tl. }
    destruct xs as [|[x vx] xs].
    { right. exists h, p, ys. cbn [ListSort.sp]. rewrite (bind_ok _ _ _ _ _ (Hend _ Vt)).
      split; [done|]. split; [by destruct Hne|]. done. }
    destruct Hx as (X1 & X2 & X3). cbn [ListSort.sp]. rewrite (bind_ok _ _ _ _ _ (m_end_node _ _ _ _ X1)).
    destruct ys as [|[y vy] ys].
    { left. by apply bind_err, m_end_gone. }
    destruct Hy as (Y1 & Y2 & Y3). cbn [ListSort.sp]. rewrite (bind_ok _ _ _ _ _ (m_end_node _ _ _ _ Y1)).
    rewrite (bind_ok _ _ _ _ _ (value_ok _ _ _ _ X1)), (bind_ok _ _ _ _ _ (value_ok _ _ _ _ Y1)), tk_bind.
    change (node (tk h) al x vx) in X1. change (node (tk h) al y vy) in Y1.
    change (nx (tk h) x = Some (spt xs (PAddr tl))) in X2. change (nx (tk h) y = Some (spt ys (PAddr t))) in Y2.
    apply pth_tk in X3. apply pth_tk in Y3. change (virt (tk h) al tl) in Vt. change (~ has (tk h) t) in Ht. change (has (tk h) p) in Hp.
    revert X1 Y1 X2 Y2 X3 Y3 Vt Ht Hp. generalize (tk h). clear h. intros h X1 Y1 X2 Y2 X3 Y3 Vt Ht Hp.
    apply not_elem_of_app in Hpn as [Px Py]. rewrite !ads_cons in *. 
    apply NoDup_app in Hnd as (Nx & Nxy & Ny).
    assert (Hhx : has h x) by by eapply node_has. assert (Hhy : has h y) by by eapply node_has.
    assert (Hxy : x <> y) by (intros ->; apply (Nxy y); by left).
    assert (Px0 : p <> x) by (intros ->; apply Px; by left). assert (Py0 : p <> y) by (intros ->; apply Py; by left).
    destruct (lt vx vy).
    - set (h1 := sn dbl h p x). rewrite (bind_ok _ _ _ _ _ (set_next_ok dbl h p x Hp Hhx)). fold h1.
      assert (X2' : nx h1 x = Some (spt xs (PAddr tl))) by (unfold h1; rewrite nx_sn by done; by rewrite decide_False).
      assert (P2' : nx h1 p = Some (PAddr x)) by (unfold h1; rewrite nx_sn by done; by rewrite decide_True).
      rewrite (bind_ok _ _ _ _ _ (get_next_ok _ _ _ X2' ltac:(by destruct xs as [|[]]))).
      rewrite (bind_ok _ _ _ _ _ (get_next_ok _ _ _ P2' ltac:(done))).
      apply NoDup_cons in Nx as [Nx0 Nx].
      destruct (IH h1 x xs ((y, vy) :: ys)) as [E|(h' & p' & ys' & E & A)].
      + apply pth_sn; [done| |done]. intros ?. apply Px. by right.
      + unfold virt, h1. by rewrite dt_sn.
      + apply pth_sn; [done|done|]. by split.
      + unfold h1. by rewrite has_sn.
      + by apply has_sn.
      + rewrite not_elem_of_app. split; [done|]. apply Nxy. by left.
      + apply NoDup_app. split; [done|]. split; [|done]. intros b Hb. apply Nxy. by right.
      + by right.
      + simpl in *. lia.
      + left. exact E.
      + right. exists h', p', ys'. split; [exact E|done].
    - set (h1 := sn dbl h p y). rewrite (bind_ok _ _ _ _ _ (set_next_ok dbl h p y Hp Hhy)). fold h1.
      assert (Y2' : nx h1 y = Some (spt ys (PAddr t))) by (unfold h1; rewrite nx_sn by done; by rewrite decide_False).
      assert (P2' : nx h1 p = Some (PAddr y)) by (unfold h1; rewrite nx_sn by done; by rewrite decide_True).
      rewrite (bind_ok _ _ _ _ _ (get_next_ok _ _ _ Y2' ltac:(by destruct ys as [|[]]))).
      rewrite (bind_ok _ _ _ _ _ (get_next_ok _ _ _ P2' ltac:(done))).
      apply NoDup_cons in Ny as [Ny0 Ny].
      destruct (IH h1 y ((x, vx) :: xs) ys) as [E|(h' & p' & ys' & E & A1 & A2 & A3 & A4 & A5 & A6 & A7)].
      + apply pth_sn; [done|done|]. by split.
      + unfold virt, h1. by rewrite dt_sn.
      + apply pth_sn; [done| |done]. intros ?. apply Py. by right.
      + unfold h1. by rewrite has_sn.
      + by apply has_sn.
      + rewrite not_elem_of_app. split; [|done]. intros Hin. apply (Nxy y Hin). by left.
      + apply NoDup_app. split; [done|]. split; [|done]. intros b Hb Hb'. apply (Nxy b Hb). by right.
      + by left.
      + simpl in *. lia.
      + left. exact E.
      + right. exists h', p', ys'. split; [exact E|]. do 6 (split; [done|]). cbn [length]. lia.
  Qed.
  Theorem C19_merge_rvalue_undefined sp w i j al xs ys lt : reached sp w -> i <> j ->
    sp !! i = Some (al, Some xs) -> sp !! j = Some (al, Some ys) -> xs <> [] -> ys <> [] ->
    step (LMer i j true lt) w = Err UB.
  Proof.
    intros Hr%reached_rel Hij Hi Hj Hx0 Hy0.
    destruct (rel_live2 dbl _ _ _ _ _ _ _ _ Hr Hij Hi Hj)
      as (Hwf & hd & tl & ns & hd2 & tl2 & ms & (V1 & X1 & L1 & W1) & (V2 & X2 & L2 & W2) & Hap & _).
    destruct ns as [|[a x] ns]; [by rewrite <-X1 in Hx0|]. clear X1 Hx0.
    destruct ms as [|[b y] ms]; [by rewrite <-X2 in Hy0|]. clear X2 Hy0.
    set (h := w_heap w) in *.
    assert (Ht2 : has h tl2) by (eapply lok_has; [exact L2|apply tl_in]).
    pose proof (next_at dbl h al hd [] _ tl L1) as N1. pose proof (next_at dbl h al hd2 [] _ tl2 L2) as N2. cbn [endp startp] in N1, N2.
    pose proof (lok_run _ _ _ _ _ ((a, x) :: ns) [] L1 ltac:(by rewrite app_nil_r)) as [_ Ra]. cbn [startp] in Ra.
    pose proof (lok_run _ _ _ _ _ ((b, y) :: ms) [] L2 ltac:(by rewrite app_nil_r)) as [_ Rb]. cbn [startp] in Rb.
    destruct (lok_chn dbl _ _ _ _ _ L1) as (_ & _ & Nd1 & Nh1 & Nt1 & Hht1).
    destruct (lok_chn dbl _ _ _ _ _ L2) as (_ & _ & Nd & Nh & Nt & Hht2).
    assert (Hap2 : forall c, c ∈ lfp hd ((a, x) :: ns) tl -> c <> hd2 /\ c <> tl2).
    { intros c Hc. split; intros ->; refine (Hap _ Hc _); [by left|apply tl_in]. }
    set (h1 := fr (fr h hd2) tl2).
    assert (D1 : virt h al hd2) by apply L2.
    assert (D2 : virt (fr h hd2) al tl2) by (unfold virt; rewrite dt_fr by done; apply L2).
    assert (D3 : virt h1 al tl).
    { destruct (Hap2 tl (tl_in _ _ _)). unfold virt, h1. rewrite !dt_fr by done. apply L1. }
    assert (Ra1 : pth h1 al ((a, x) :: ns) (PAddr tl)).
    { eapply pth_frame; [|exact Ra]. intros c Hc. destruct (Hap2 c ltac:(right; apply elem_of_app; by left)).
      unfold h1. by rewrite !nx_fr, !dt_fr. }
    assert (Rb1 : pth h1 al ((b, y) :: ms) (PAddr tl2)).
    { eapply pth_frame; [|exact Rb]. intros c Hc. assert (c <> hd2) by by intros ->. assert (c <> tl2) by by intros ->.
      unfold h1. by rewrite !nx_fr, !dt_fr. }
    assert (Hg : ~ has h1 tl2) by apply gone_fr.
    assert (Hl : l_len (L (T := T) al hd2 tl2 ((b, y) :: ms)) =? 0 = false) by (apply N.eqb_neq; cbn [l_len L length]; lia).
    assert (Hdis : forall c, c ∈ ads ((a, x) :: ns) -> c ∉ ads ((b, y) :: ms)).
    { intros c Hc Hc'. apply (Hap c); right; apply elem_of_app; by left. }
    cbn [list_step]. unfold l_two_ne. rewrite (proj2 (Nat.eqb_neq i j) Hij).
    assert (E : l_merge_rv dbl (L al hd tl ((a, x) :: ns)) (L al hd2 tl2 ((b, y) :: ms)) lt h = Err UB).
    2:{ unfold l_two, wget, bind at 1. rewrite V1. unfold bind at 1. rewrite V2. apply bind_err. unfold lift. fold h. by rewrite E. }
    unfold l_merge_rv. rewrite Hl. cbn [l_head l_tail l_al L].
    rewrite (bind_ok _ _ _ _ _ N1), (bind_ok _ _ _ _ _ N2).
    rewrite (bind_ok _ _ _ _ _ (destroy_virt_ok _ al hd2 D1)), (bind_ok _ _ _ _ _ (destroy_virt_ok _ al tl2 D2)). fold h1.
    apply bind_err. unfold merge_nodes.
    rewrite (bind_ok _ _ _ _ _ (m_end_node _ _ _ _ (proj1 Ra1))), (bind_ok _ _ _ _ _ (m_end_node _ _ _ _ (proj1 Rb1))).
    rewrite (bind_ok _ _ _ _ _ (value_ok _ _ _ _ (proj1 Ra1))), (bind_ok _ _ _ _ _ (value_ok _ _ _ _ (proj1 Rb1))), tk_bind.
    apply pth_tk in Ra1. apply pth_tk in Rb1. change (virt (tk h1) al tl) in D3. change (~ has (tk h1) tl2) in Hg.
    set (h0 := tk h1) in *. assert (Hh0 : forall c, has h0 c <-> has h1 c) by done. clearbody h0.
    destruct Ra1 as (A1 & A2 & A3). destruct Rb1 as (B1 & B2 & B3).
    assert (Hfu : (length ns + length ms < size (hmap h0))%nat).
    { assert (Hs : NoDup (ads ((a, x) :: ns) ++ ads ((b, y) :: ms))) by (apply NoDup_app; done).
      pose proof (size_ge h0 _ Hs) as Hs2. rewrite app_length in Hs2. unfold ads in Hs2. rewrite !fmap_length in Hs2. cbn [length] in Hs2.
      enough (S (length ns) + S (length ms) <= size (hmap h0))%nat by lia. apply Hs2.
      intros c [Hc|Hc]%elem_of_app; apply Hh0; unfold h1; rewrite !has_fr.
      - destruct (Hap2 c ltac:(right; apply elem_of_app; by left)). split; [done|]. split; [done|].
        apply (lok_has dbl _ _ _ _ _ _ L1). right. apply elem_of_app. by left.
      - split; [by intros ->|]. split; [by intros ->|]. apply (lok_has dbl _ _ _ _ _ _ L2). right. apply elem_of_app. by left. }
    set (fuel := S (size (hmap h0))).
    assert (K : forall s (n1 n2 : list (N * T)), has h0 s -> pth h0 al n1 (PAddr tl) -> pth h0 al n2 (PAddr tl2) ->
      s ∉ ads n1 ++ ads n2 -> NoDup (ads n1 ++ ads n2) -> (n1 <> [] \/ n2 <> []) -> (length n1 + length n2 < fuel)%nat ->
      ('(a2, b2, p) <-- merge_loop dbl fuel lt (spt n1 (PAddr tl)) (spt n2 (PAddr tl2)) (PAddr s) ;;
       ea <-- m_end a2 ;;
       (if ea : bool then eb <-- m_end b2 ;; (if eb : bool then ret tt else set_next dbl p b2) else set_next dbl p a2) ;;;
       t <-- last_loop fuel p ;; ret (PAddr s, t)) h0 = Err UB).
    { intros s n1 n2 Hs P1 P2 Hsn Hn2 Hne Hf.
      destruct (merge_loop_rv al lt tl tl2 fuel h0 s n1 n2 P1 D3 P2 Hg Hs Hsn Hn2 Hne Hf)
        as [E|(h' & p' & ys' & E & Q1 & Q2 & Q3 & Q4 & Q5 & Q6 & Q7)]; [by apply bind_err|].
      rewrite (bind_ok _ _ _ _ _ E).
      rewrite (bind_ok _ _ _ _ _ (m_end_nil h' al (PAddr tl) (or_intror (ex_intro _ tl (conj eq_refl Q6))))).
      destruct ys' as [|[c z] ys']; [done|]. cbn [ListSort.sp]. destruct Q2 as (C1 & C2 & C3).
      rewrite bind_bind. rewrite (bind_ok _ _ _ _ _ (m_end_node _ _ _ _ C1)).
      assert (Hhc : has h' c) by by eapply node_has.
      rewrite (bind_ok _ _ _ _ _ (set_next_ok dbl h' p' c Q4 Hhc)). apply bind_err.
      eapply (last_loop_bad al tl2 ((c, z) :: ys')).
      - rewrite nx_sn by done. by rewrite decide_True.
      - apply pth_sn; [done|done|]. by split.
      - by rewrite has_sn.
      - lia. }
    assert (Hha : has h0 a) by by eapply node_has. assert (Hhb : has h0 b) by by eapply node_has.
    rewrite !ads_cons in *. apply NoDup_cons in Nd1 as [Na Nd1]. apply NoDup_cons in Nd as [Nb Nd].
    destruct (lt x y).
    - rewrite bind_bind, (bind_ok _ _ _ _ _ (get_next_ok _ _ _ A2 ltac:(by destruct ns as [|[]]))), bind_ret.
      rewrite (bind_ok _ _ _ _ _ (fuel_ok h0)). fold fuel.
      apply (K a ns ((b, y) :: ms)); try done.
      + rewrite not_elem_of_app. split; [done|]. apply Hdis. by left.
      + apply NoDup_app. split; [done|]. split; [|by constructor]. intros c Hc. apply Hdis. by right.
      + by right.
      + unfold fuel. cbn [length]. lia.
    - rewrite bind_bind, (bind_ok _ _ _ _ _ (get_next_ok _ _ _ B2 ltac:(by destruct ms as [|[]]))), bind_ret.
      rewrite (bind_ok _ _ _ _ _ (fuel_ok h0)). fold fuel.
      apply (K b ((a, x) :: ns) ms); try done.
      + rewrite not_elem_of_app. split; [|done]. intros Hin. apply (Hdis b Hin). by left.
      + apply NoDup_app. split; [by constructor|]. split; [|done]. intros c Hc Hc'. apply (Hdis c Hc). by right.
      + by left.
      + unfold fuel. cbn [length]. lia.
  Qed.

  (** ** C20: sorting one element *)
  Lemma sort_one sp w i al v lt : reached sp w -> sp !! i = Some (al, Some [v]) ->
    exists w', step (LSrt i lt) w = Ok (OUnit, w') /\ (step (LItems i) w' = Err UB /\ step (LDel i) w' = Err UB) /\
      hmoves (w_heap w') = hmoves (w_heap w).
  Proof.
    intros Hr%reached_rel Hi.
    destruct (rel_live dbl _ _ _ _ _ Hr Hi) as (Hwf & hd & tl & ns & V & X & Lk & HW & _).
    destruct ns as [|[a x] [|]]; [done| |done]. injection X as ->.
    set (h := w_heap w) in *.
    pose proof (next_at dbl h al hd [] _ tl Lk) as N1. cbn [endp startp] in N1.
    pose proof (lok_run _ _ _ _ _ [(a, v)] [] Lk ltac:(by rewrite app_nil_r)) as [_ (A1 & A2 & _)]. cbn [ListSort.sp startp] in A2.
    destruct (lok_chn dbl _ _ _ _ _ Lk) as (_ & _ & _ & Nh & Nt & Hht).
    assert (Hha : hd <> a) by (intros ->; apply Nh; by left). assert (Hta : tl <> a) by (intros ->; apply Nt; by left).
    assert (Ha : has h a) by by eapply node_has. assert (Hhd : has h hd) by (eapply virt_has, Lk).
    assert (Vt : virt h al tl) by apply Lk. assert (Nt0 : nx h tl = Some PNull) by apply Lk.
    pose proof (lok_fuel dbl _ _ _ _ _ Lk) as Hfu. simpl in Hfu.
    set (h1 := upn h a PNull). set (h2 := sn dbl h1 hd a).
    assert (G1 : get_next (PAddr a) h = Ok (PAddr tl, h)) by by apply get_next_ok.
    assert (A1' : node h1 al a v) by (unfold node, h1; by rewrite dt_upn).
    assert (A2' : nx h1 a = Some PNull) by (unfold h1; rewrite nx_upn by done; by rewrite decide_True).
    assert (Vt1 : virt h1 al tl) by (unfold virt, h1; by rewrite dt_upn).
    assert (Nt1 : nx h1 tl = Some PNull) by (unfold h1; rewrite nx_upn by done; by rewrite decide_False).
    assert (Ms : exists d, S (size (hmap h)) = S (S d)) by (exists (pred (size (hmap h))); lia). destruct Ms as [d Hd].
    assert (S1 : merge_sort dbl (S d) lt (PAddr a) h1 = Ok ((PAddr a, PNull), h1)).
    { cbn [merge_sort]. rewrite decide_False by done. rewrite bind_bind.
      rewrite (bind_ok _ _ _ _ _ (get_next_ok _ _ _ A2' ltac:(done))), bind_ret. by rewrite bool_decide_true. }
    assert (S2 : merge_sort dbl (S d) lt (PAddr tl) h1 = Ok ((PAddr tl, PNull), h1)).
    { cbn [merge_sort]. rewrite decide_False by done. rewrite bind_bind.
      rewrite (bind_ok _ _ _ _ _ (get_next_ok _ _ _ Nt1 ltac:(done))), bind_ret. by rewrite bool_decide_true. }
    assert (Mg : merge_nodes dbl lt (PAddr a) (PAddr tl) h1 = Ok ((PAddr a, PNull), h1)).
    { unfold merge_nodes. rewrite (bind_ok _ _ _ _ _ (m_end_node _ _ _ _ A1')).
      by rewrite (bind_ok _ _ _ _ _ (m_end_nil h1 al (PAddr tl) (or_intror (ex_intro _ tl (conj eq_refl Vt1))))). }
    assert (Ss : merge_sort dbl (S (S d)) lt (PAddr a) h = Ok ((PAddr a, PNull), h1)).
    { revert S1 S2. generalize (S d). intros d' S1 S2. cbn [merge_sort]. rewrite decide_False by done. rewrite bind_bind.
      rewrite (bind_ok _ _ _ _ _ G1), bind_ret, bool_decide_false by done.
      rewrite (bind_ok _ _ _ _ _ (fuel_ok h)).
      assert (Md : mid_loop (S (size (hmap h))) (PAddr a) (PAddr a) h = Ok (PAddr a, h)).
      { cbn [mid_loop]. assert (Es : s_end (PAddr a) h = Ok (true, h)).
        { unfold s_end. rewrite (bind_ok _ _ _ _ _ G1), decide_False by done. by eapply no_data_virt. }
        by rewrite (bind_ok _ _ _ _ _ Es). }
      rewrite (bind_ok _ _ _ _ _ Md), (bind_ok _ _ _ _ _ G1), (bind_ok _ _ _ _ _ (put_next_ok h a PNull Ha)). fold h1.
      rewrite (bind_ok _ _ _ _ _ S1), (bind_ok _ _ _ _ _ S2). exact Mg. }
    assert (Hh1 : has h1 hd) by by apply has_upn. assert (Ha1 : has h1 a) by by apply has_upn.
    assert (Nh2 : nx h2 hd = Some (PAddr a)) by (unfold h2; rewrite nx_sn by done; by rewrite decide_True).
    assert (Na2 : nx h2 a = Some PNull).
    { unfold h2. rewrite nx_sn by done. by rewrite decide_False. }
    assert (A12 : node h2 al a v) by (unfold node, h2; by rewrite dt_sn).
    exists (World h2 (<[i := L al hd tl [(a, v)]]> (w_vars w))).
    split; [|split; [split|cbn [w_heap]; unfold h2; by rewrite hm_sn]].
    - cbn [list_step]. eapply upd_run; [exact V|]. unfold l_sort. cbn [l_head L]. fold h.
      rewrite (bind_ok _ _ _ _ _ N1), (bind_ok _ _ _ _ _ (fuel_ok h)), Hd, (bind_ok _ _ _ _ _ Ss). cbn [fst snd].
      rewrite (bind_ok _ _ _ _ _ (set_next_ok dbl h1 hd a Hh1 Ha1)). reflexivity.
    - eapply (run_items _ _ _ al hd [(a, v)] PNull); [simpl; by rewrite lookup_insert|done| |apply NoDup_singleton| |done|done|done].
      + split; [done|]. by split.
      + intros b ->%elem_of_list_singleton. cbn. congruence.
    - cbn [list_step]. unfold bind at 1, wget. cbn [w_vars]. rewrite lookup_insert. apply bind_err. unfold lift.
      assert (E : l_destroy dbl (L al hd tl [(a, v)]) h2 = Err UB); [|cbn [w_heap]; by rewrite E].
      unfold l_destroy. cbn [l_head l_al L]. rewrite decide_False by done. apply bind_err.
      unfold l_clear. cbn [l_head l_tail l_al L].
      rewrite (bind_ok _ _ _ _ _ (get_next_ok _ _ _ Nh2 ltac:(done))), (bind_ok _ _ _ _ _ (fuel_ok h2)). apply bind_err.
      assert (Hs : exists e, S (size (hmap h2)) = S (S e)).
      { exists (pred (size (hmap h2))). assert (1 <= size (hmap h2))%nat; [|lia].
        apply (size_ge h2 [a]); [apply NoDup_singleton|]. intros b ->%elem_of_list_singleton. by eapply node_has. }
      destruct Hs as [e He]. rewrite He. cbn [destroy_run]. rewrite decide_False by congruence.
      rewrite (bind_ok _ _ _ _ _ (get_next_ok _ _ _ Na2 ltac:(done))), (bind_ok _ _ _ _ _ (destroy_node_ok _ al a v A12)).
      by rewrite decide_False.
  Qed.
  Theorem C20_sort_one_breaks sp w i al v lt : reached sp w -> sp !! i = Some (al, Some [v]) ->
    exists w', step (LSrt i lt) w = Ok (OUnit, w') /\ step (LItems i) w' = Err UB /\ step (LDel i) w' = Err UB.
  Proof. intros Hr Hi. destruct (sort_one _ _ _ _ _ lt Hr Hi) as (w' & E & [A B] & _). by exists w'. Qed.

  (** ** C26: the [const] [front_unchecked] *)
  Theorem C26_const_front_is_last sp w i al xs x : dbl = true -> reached sp w -> sp !! i = Some (al, Some xs) ->
    last xs = Some x -> step (LFrontUC i) w = Ok (OVal x, w).
  Proof.
    intros Hd Hr%reached_rel Hi Hx.
    destruct (rel_live dbl _ _ _ _ _ Hr Hi) as (Hwf & hd & tl & ns & V & X & Lk & HW & _). subst xs.
    destruct ns as [|[a v] ns _] using rev_ind; [done|]. rewrite vls_snoc, last_snoc in Hx. injection Hx as ->.
    cbn [list_step]. unfold l_obs, bind at 1, wget. rewrite V. unfold lift.
    rewrite (bind_ok _ _ _ _ _ (front_unchecked_const_dbl dbl _ _ _ _ _ _ _ Hd Lk)). by destruct w.
  Qed.

  (** ** C27: moving to another allocator *)
  Lemma move_loop_bad al al' tl ns : forall fuel h p n, hwf h -> pth h al' ns (PAddr tl) -> virt h al' tl ->
    has h p -> p ∉ ads ns -> p <> tl -> NoDup (ads ns) -> tl ∉ ads ns -> (length ns < fuel)%nat ->
    move_loop dbl fuel al al' (spt ns (PAddr tl)) (PAddr p) n h = Err UB.
  Proof.
    induction ns as [|[a v] ns IH]; intros fuel h p n Hw Hn Vt Hp Hpn Hpt Hnd Htn Hf;
      (destruct fuel as [|fuel]; [simpl in Hf; lia|]); cbn [move_loop ListSort.sp]; rewrite decide_False by done.
    { apply bind_err. by eapply value_virt. }
    destruct Hn as (A1 & A2 & A3). rewrite ads_cons in *.
    rewrite (bind_ok _ _ _ _ _ (value_ok _ _ _ _ A1)), (bind_ok _ _ _ _ _ (construct_ok h al v)).
    set (q := hnext h). set (h1 := ins h (dcell al v)). set (h2 := sn dbl h1 p q). set (h3 := fr h2 a).
    assert (Hne : forall b, has h b -> b <> q) by (intros b Hb ->; apply Hw in Hb; unfold q in Hb; lia).
    assert (Ha : has h a) by by eapply node_has. assert (Ht : has h tl) by by eapply virt_has.
    assert (Hpa : p <> a) by (intros ->; apply Hpn; by left). assert (Hta : tl <> a) by (intros ->; apply Htn; by left).
    assert (Hp1 : has h1 p) by (apply has_ins; by right). assert (Hq1 : has h1 q) by (apply has_ins; by left).
    assert (F1 : forall b, has h b -> nx h1 b = nx h b /\ dt h1 b = dt h b).
    { intros b Hb. unfold h1. rewrite nx_ins, dt_ins. fold q. by rewrite !decide_False by by apply Hne. }
    assert (F2 : forall b, has h b -> dt h2 b = dt h b /\ (b <> p -> nx h2 b = nx h b)).
    { intros b Hb. destruct (F1 b Hb) as [F11 F12]. unfold h2. rewrite dt_sn, nx_sn by done. split; [done|].
      intros Hbp. by rewrite decide_False. }
    assert (G : get_next (PAddr a) h1 = Ok (spt ns (PAddr tl), h1)).
    { apply get_next_ok; [by rewrite (proj1 (F1 a Ha))|by destruct ns as [|[]]]. }
    rewrite (bind_ok _ _ _ _ _ G), (bind_ok _ _ _ _ _ (set_next_ok dbl h1 p q Hp1 Hq1)). fold h2.
    assert (A1' : node h2 al' a v) by (unfold node; by rewrite (proj1 (F2 a Ha))).
    rewrite (bind_ok _ _ _ _ _ (destroy_node_ok _ _ _ _ A1')). fold h3.
    apply NoDup_cons in Hnd as [Hna Hnd].
    assert (Hin : forall b, b ∈ ads ns -> has h b).
    { clear -A3. induction ns as [|[c z] ns IH]; intros b Hb; [by apply elem_of_nil in Hb|].
      destruct A3 as (B1 & B2 & B3). apply elem_of_cons in Hb as [->|Hb]; [by eapply node_has|by apply IH]. }
    apply IH.
    - apply hwf_fr, hwf_sn, hwf_ins, Hw.
    - eapply pth_frame; [|exact A3]. intros b Hb. assert (b <> a) by by intros ->.
      assert (b <> p) by (intros ->; apply Hpn; by right).
      unfold h3. rewrite nx_fr, dt_fr by done. destruct (F2 b (Hin b Hb)) as [? F]. by rewrite F.
    - unfold h3, virt. rewrite dt_fr by done. by rewrite (proj1 (F2 tl Ht)).
    - unfold h3, h2. rewrite has_fr, has_sn. split; [apply not_eq_sym; by apply Hne|done].
    - intros Hb. by apply (Hne q (Hin q Hb)).
    - apply not_eq_sym. by apply Hne.
    - done.
    - intros ?. apply Htn. by right.
    - simpl in Hf. lia.
  Qed.
  Theorem C27_move_elements_undefined sp w i j al al' xs : reached sp w -> sp !! i = None ->
    sp !! j = Some (al', Some xs) -> al <> al' -> xs <> [] -> step (LMoveAl i j al) w = Err UB.
  Proof.
    intros Hr%reached_rel Hi Hj Hal Hx.
    assert (Hi' : w_vars w !! i = None).
    { destruct Hr as [m Hw]. destruct (w_vars w !! i) as [o|] eqn:E; [|done]. exfalso.
      pose proof (wo_vars _ _ _ _ Hw) as Ev. pose proof (wo_spec _ _ _ _ Hw) as Es.
      rewrite Ev, lookup_fmap in E. rewrite Es, lookup_fmap in Hi. destruct (m !! i); [done|done]. }
    destruct (rel_live dbl _ _ _ _ _ Hr Hj) as (Hwf & hd & tl & ns & V & X & Lk & HW & _).
    cbn [list_step]. unfold bind at 1, wnew. rewrite Hi'. unfold bind at 1, wget. rewrite V.
    apply bind_err. unfold lift.
    assert (E : l_move_alloc dbl al (L al' hd tl ns) (w_heap w) = Err UB); [|by rewrite E].
    unfold l_move_alloc. cbn [l_al l_len l_head l_tail L].
    rewrite (proj2 (N.eqb_neq al al') Hal). destruct ns as [|[a v] ns]; [by rewrite <-X in Hx|].
    rewrite (proj2 (N.eqb_neq (nlen ((a, v) :: ns)) 0)) by (cbn [length]; lia).
    set (h := w_heap w) in *. pose proof (next_at dbl h al' hd [] _ tl Lk) as N1. cbn [endp startp] in N1.
    rewrite (bind_ok _ _ _ _ _ N1), (bind_ok _ _ _ _ _ (build_virtual_ok dbl h al)).
    set (h1 := ins h (vcell dbl al)). rewrite (bind_ok _ _ _ _ _ (build_virtual_ok dbl h1 al)).
    set (h2 := ins h1 (vcell dbl al)). rewrite (bind_ok _ _ _ _ _ (fuel_ok h2)). apply bind_err.
    pose proof (lok_run _ _ _ _ _ ((a, v) :: ns) [] Lk ltac:(by rewrite app_nil_r)) as [_ R]. cbn [startp] in R.
    destruct (lok_chn dbl _ _ _ _ _ Lk) as (_ & _ & Nd & Nh & Nt & Hht).
    assert (Hlt : forall b, b ∈ lfp hd ((a, v) :: ns) tl -> b < hnext h) by (intros b Hb; apply Hwf; exact (lok_has dbl _ _ _ _ _ _ Lk Hb)).
    assert (Hn1 : hnext h1 = hnext h + 1) by (unfold h1, ins; simpl; lia).
    assert (F : forall b, b ∈ lfp hd ((a, v) :: ns) tl -> nx h2 b = nx h b /\ dt h2 b = dt h b).
    { intros b Hb%Hlt. unfold h2. rewrite nx_ins, dt_ins, !decide_False by lia.
      unfold h1. by rewrite nx_ins, dt_ins, !decide_False by lia. }
    apply (move_loop_bad al al' tl ((a, v) :: ns)).
    - by apply hwf_ins, hwf_ins.
    - eapply pth_frame; [|exact R]. intros b Hb. apply F. right. apply elem_of_app. by left.
    - unfold virt. rewrite (proj2 (F tl (tl_in _ _ _))). apply Lk.
    - apply has_ins. right. apply has_ins. by left.
    - intros Hb. assert (hnext h < hnext h); [|lia]. apply Hlt. right. apply elem_of_app. by left.
    - pose proof (Hlt tl (tl_in _ _ _)). lia.
    - done.
    - done.
    - assert (Hs : (length (ads ((a, v) :: ns)) <= size (hmap h2))%nat).
      { apply size_ge; [done|]. intros b Hb. apply has_ins. right. apply has_ins. right.
        apply (lok_has dbl _ _ _ _ _ _ Lk). right. apply elem_of_app. by left. }
      unfold ads in Hs. rewrite fmap_length in Hs. lia.
  Qed.
  (** Without elements the list moves but its last node stays behind. *)
  Theorem C27_move_empty_leaks sp w i j al al' : reached sp w -> sp !! i = None ->
    sp !! j = Some (al', Some []) -> al <> al' ->
    exists a b c d w', nodes dbl w j (ring a [] b) [] /\ step (LMoveAl i j al) w = Ok (OUnit, w') /\
      nodes dbl w' i (ring c [] d) [] /\ w_vars w' !! j = Some (Lst PNull PNull 0 al') /\
      b <> c /\ b <> d /\ is_Some (hmap (w_heap w') !! b) /\ others dbl w w' sp [i; j].
  Proof.
    intros Hr%reached_rel Hi Hj Hal.
    assert (Hij : i <> j) by congruence.
    assert (Hi' : w_vars w !! i = None).
    { destruct Hr as [m Hw]. destruct (w_vars w !! i) as [o|] eqn:E; [|done]. exfalso.
      pose proof (wo_vars _ _ _ _ Hw) as Ev. pose proof (wo_spec _ _ _ _ Hw) as Es.
      rewrite Ev, lookup_fmap in E. rewrite Es, lookup_fmap in Hi. destruct (m !! i); [done|done]. }
    destruct (rel_live dbl _ _ _ _ _ Hr Hj) as (Hwf & hd & tl & ns & V & X & Lk & HW & Ho).
    destruct ns as [|[]]; [clear X|done]. set (h := w_heap w) in *.
    destruct (new_ok dbl h al Hwf) as (c & d & ms & h1 & E1 & X1 & L1 & U1).
    destruct ms as [|[]]; [clear X1|done].
    assert (Hcd : forall a, a ∈ lfp hd ([] : list (N * T)) tl -> a < hnext h /\ a ∉ lfp c ([] : list (N * T)) d).
    { intros a Ha. pose proof (Hwf a (lok_has dbl _ _ _ _ _ _ Lk Ha)). split; [done|].
      intros Ha'. destruct (upd_new _ _ _ _ U1 a Ha') as [Hn|Hn]; [by apply elem_of_nil in Hn|lia]. }
    assert (F1 : forall a, a ∈ lfp hd ([] : list (N * T)) tl -> hmap h1 !! a = hmap h !! a).
    { intros a Ha. apply (upd_frame _ _ _ _ U1); [by apply Hcd|]. by intros ?%elem_of_nil. }
    pose proof (lok_frame dbl _ _ _ _ _ _ F1 Lk) as Lk1.
    assert (Hd : virt h1 al' hd) by apply Lk1.
    destruct (lok_chn dbl _ _ _ _ _ Lk) as (_ & _ & _ & _ & _ & Hht).
    set (h2 := fr h1 hd).
    assert (L2 : lok h2 al c [] d).
    { eapply lok_frame; [|exact L1]. intros a Ha. unfold h2, fr. simpl. apply lookup_delete_ne.
      intros <-. by apply (Hcd hd ltac:(by left)). }
    exists hd, tl, c, d, (World h2 (<[i := L (T := T) al c d []]> (<[j := Lst PNull PNull 0 al']> (w_vars w)))).
    assert (U : upd h h2 (lfp hd ([] : list (N * T)) tl) (lfp c ([] : list (N * T)) d ++ [tl])).
    { eapply (upd_trans _ _ _ _ (lfp c ([] : list (N * T)) d ++ lfp hd ([] : list (N * T)) tl)); [done| |].
      - apply (upd_frame_r _ _ [] _ _ Hwf U1). intros a Ha. split; [exact (lok_has dbl _ _ _ _ _ _ Lk Ha)|].
        by intros ?%elem_of_nil.
      - apply upd_fr; [apply (upd_wf _ _ _ _ U1)| | |].
        + intros a [Ha|Ha]%elem_of_app; [exact (lok_has dbl _ _ _ _ _ _ L1 Ha)|exact (lok_has dbl _ _ _ _ _ _ Lk1 Ha)].
        + apply elem_of_app. right. by left.
        + intros a. rewrite !elem_of_app, elem_of_list_singleton. unfold lfp at 3. cbn [ads fmap list_fmap app].
          rewrite !elem_of_cons, elem_of_nil. pose proof (proj2 (Hcd hd ltac:(by left))) as Hn. split.
          * intros [Ha| ->]; [split; [by left|by intros ->]|]. split; [by auto|done].
          * intros [[Ha|[Ha|[Ha|[]]]] Hn']; [by left|done|by right]. }
    split; [exact (lok_nodes dbl _ _ _ _ _ _ V Lk)|]. split.
    { cbn [list_step]. unfold bind at 1, wnew. rewrite Hi'. unfold bind at 1, wget. rewrite V.
      assert (E : l_move_alloc dbl al (L (T := T) al' hd tl []) h = Ok ((L (T := T) al c d [], Lst PNull PNull 0 al'), h2)).
      { unfold l_move_alloc. cbn [l_al l_len l_head l_tail L length]. rewrite (proj2 (N.eqb_neq al al') Hal).
        change (N.of_nat 0 =? 0) with true. cbn [bool_decide]. rewrite (bind_ok _ _ _ _ _ E1).
        by rewrite (bind_ok _ _ _ _ _ (destroy_virt_ok _ _ _ Hd)). }
      unfold bind at 1, lift. fold h. rewrite E. reflexivity. }
    split; [change (ring c [] d) with (lfp c ([] : list (N * T)) d); eapply (lok_nodes dbl _ i al c [] d); [simpl; by rewrite lookup_insert|exact L2]|].
    split; [simpl; by rewrite lookup_insert_ne, lookup_insert|].
    pose proof (proj2 (Hcd tl (tl_in _ _ _))) as Hn.
    split; [intros ->; apply Hn; by left|]. split; [intros ->; apply Hn, tl_in|]. split.
    { simpl. unfold h2. apply (proj2 (has_fr h1 hd tl)). split; [done|]. exact (lok_has dbl _ _ _ _ _ _ Lk1 (tl_in _ _ _)). }
    intros k alk ys Hk Hsk. destruct (Ho h2 (Lst PNull PNull 0 al') _ U k alk ys) as (qs & Q1 & Q2); [|done|].
    { intros ->%elem_of_list_singleton. apply Hk. right. by left. }
    exists qs. split; [done|]. destruct Q2 as [S1 S2 (l & S3 & S4) S5]. split; [done|done| |done].
    exists l. split; [|done]. simpl in *. rewrite lookup_insert_ne; [done|]. intros <-. apply Hk. by left.
  Qed.

  (** ** C23: [remove(val)] with [val] an element of the list *)
  (** The nodes before the one referred to. *)
  Lemma ref_loop al hd tl eqb x p m2 m1 : forall n1 fuel h cnt,
    hwf h -> lok h al hd (n1 ++ m1 ++ (p, x) :: m2) tl -> nlen (n1 ++ m1 ++ (p, x) :: m2) < W -> (length m1 < fuel)%nat ->
    exists n1' fuel' h' cnt', hwf h' /\ lok h' al hd (n1' ++ (p, x) :: m2) tl /\ nlen (n1' ++ (p, x) :: m2) < W /\
      (fuel = length m1 + fuel')%nat /\
      forall f, (forall h v, value (PAddr p) h = Ok (x, h) -> f v h = Ok (eqb x v : bool, h)) ->
        remove_loop dbl fuel (L al hd tl (n1 ++ m1 ++ (p, x) :: m2)) f (PAddr (endp hd n1))
            (PAddr (startp (m1 ++ (p, x) :: m2) tl)) cnt h =
        remove_loop dbl fuel' (L al hd tl (n1' ++ (p, x) :: m2)) f (PAddr (endp hd n1')) (PAddr p) cnt' h'.
  Proof.
    induction m1 as [|[a v] m1 IH]; intros n1 fuel h cnt Hw Lk Hlen Hf.
    { exists n1, fuel, h, cnt. done. }
    destruct fuel as [|fuel]; [lia|]. simpl in Hf. cbn [app] in *.
    pose proof Lk as Lk0. apply lok_tk in Lk. change (hwf (tk h)) in Hw.
    assert (Vp : value (PAddr p) (tk h) = Ok (x, tk h)).
    { rewrite app_comm_cons, app_assoc in Lk. exact (value_at dbl _ _ _ _ _ _ _ _ Lk). }
    destruct (eqb x v) eqn:Eb.
    - destruct (cut1_ok dbl (tk h) al hd n1 a v _ tl Hw Lk) as (E1 & E2 & E3 & B).
      assert (Hlen' : nlen (n1 ++ m1 ++ (p, x) :: m2) < W) by (rewrite app_length in *; cbn [length] in Hlen; lia).
      destruct (IH n1 fuel _ (uadd cnt 1) (became_wf dbl _ _ _ _ _ _ _ B) (proj1 B)) as (n1' & fuel' & h' & cnt' & A1 & A2 & A3 & A4 & A5);
        [done|lia|].
      exists n1', fuel', h', cnt'. do 3 (split; [done|]). split; [cbn [length]; lia|].
      intros f Hff. rewrite <-(A5 f Hff). cbn [remove_loop startp L l_tail].
      rewrite decide_False by by eapply ne_tl.
      rewrite (bind_ok _ _ _ _ _ (value_at dbl _ _ _ _ _ _ _ _ Lk0)), tk_bind, (bind_ok _ _ _ _ _ (Hff _ v Vp)), Eb.
      rewrite (bind_ok _ _ _ _ _ (next_of dbl _ _ _ _ _ _ _ _ Lk)). rewrite (bind_ok _ _ _ _ _ E1). cbn [l_al].
      rewrite (bind_ok _ _ _ _ _ E3). rewrite (bind_ok _ _ _ _ _ (next_at dbl _ _ _ _ _ _ (proj1 B))).
      by rewrite (L_less' al hd tl n1 _ (a, v) Hlen).
    - pose proof Lk as Lk2. rewrite cons_middle, app_assoc in Lk2.
      destruct (IH (n1 ++ [(a, v)]) fuel (tk h) cnt Hw Lk2) as (n1' & fuel' & h' & cnt' & A1 & A2 & A3 & A4 & A5);
        [by rewrite <-app_assoc|lia|].
      exists n1', fuel', h', cnt'. do 3 (split; [done|]). split; [cbn [length]; lia|].
      intros f Hff. rewrite <-(A5 f Hff). cbn [remove_loop startp L l_tail].
      rewrite decide_False by by eapply ne_tl.
      rewrite (bind_ok _ _ _ _ _ (value_at dbl _ _ _ _ _ _ _ _ Lk0)), tk_bind, (bind_ok _ _ _ _ _ (Hff _ v Vp)), Eb.
      rewrite (bind_ok _ _ _ _ _ (next_of dbl _ _ _ _ _ _ _ _ Lk)), (bind_ok _ _ _ _ _ (next_at dbl _ _ _ _ _ _ Lk)). cbn [startp].
      rewrite endp_app, <-app_assoc. done.
  Qed.
  Lemma ref_split sp w i al xs k x ps p l : reached sp w -> sp !! i = Some (al, Some xs) -> nodes dbl w i ps xs ->
    xs !! k = Some x -> ps !! S k = Some p -> w_vars w !! i = Some l ->
    hwf (w_heap w) /\ exists hd tl m1 m2, l = L al hd tl (m1 ++ (p, x) :: m2) /\ xs = vls (m1 ++ (p, x) :: m2) /\ length m1 = k /\
      lok (w_heap w) al hd (m1 ++ (p, x) :: m2) tl /\ nlen (m1 ++ (p, x) :: m2) < W.
  Proof.
    intros Hr%reached_rel Hi Hn Hx Hp Hl.
    destruct (rel_live dbl _ _ _ _ _ Hr Hi) as (Hwf & hd & tl & ns & V & X & Lk & HW & _).
    split; [done|]. pose proof (nodes_unique dbl _ _ _ _ _ _ Hn (lok_nodes dbl _ _ _ _ _ _ V Lk)) as ->.
    rewrite V in Hl. injection Hl as <-. subst xs. unfold vls in Hx. rewrite list_lookup_fmap in Hx.
    destruct (ns !! k) as [[a v]|] eqn:E; [|done]. injection Hx as ->.
    assert (a = p) as ->.
    { change ((ads ns ++ [tl]) !! k = Some p) in Hp. rewrite lookup_app_l in Hp.
      - unfold ads in Hp. rewrite list_lookup_fmap, E in Hp. by injection Hp.
      - unfold ads. rewrite fmap_length. by eapply lookup_lt_Some. }
    exists hd, tl, (take k ns), (drop (S k) ns). rewrite (take_drop_middle _ _ _ E).
    split; [done|]. split; [done|]. split; [|done]. apply take_length_le.
    apply lookup_lt_Some in E. lia.
  Qed.
  Theorem C23_remove_alias_undefined sp w i al xs k x ps p l (eqb : T -> T -> bool) : reached sp w ->
    sp !! i = Some (al, Some xs) -> nodes dbl w i ps xs -> xs !! k = Some x -> ps !! S k = Some p -> w_vars w !! i = Some l ->
    eqb x x = true -> (S k < length xs)%nat -> l_remove_ref dbl l eqb (PAddr p) (w_heap w) = Err UB.
  Proof.
    intros Hr Hi Hn Hx Hp Hl He Hk.
    destruct (ref_split _ _ _ _ _ _ _ _ _ _ Hr Hi Hn Hx Hp Hl) as (Hwf & hd & tl & m1 & m2 & -> & -> & <- & Lk & HW).
    destruct m2 as [|[c z] m2].
    { rewrite vls_length, app_length in Hk. simpl in Hk. lia. }
    unfold l_remove_ref, remove_if_m. cbn [l_len l_head L].
    rewrite (proj2 (N.eqb_neq _ 0)) by (rewrite app_length; simpl; lia).
    rewrite (bind_ok _ _ _ _ _ (next_at dbl _ al hd [] _ tl Lk)), (bind_ok _ _ _ _ _ (fuel_ok _)).
    pose proof (lok_fuel dbl _ _ _ _ _ Lk) as Hfu. rewrite app_length in Hfu. cbn [length] in Hfu.
    destruct (ref_loop al hd tl eqb x p ((c, z) :: m2) m1 [] (S (size (hmap (w_heap w)))) (w_heap w) 0 Hwf Lk HW) as (n1 & fuel & h & cnt & A1 & A2 & A3 & A4 & A5);
      [lia|].
    cbn [app endp] in A5. rewrite A5 by (intros h' v E; by rewrite (bind_ok _ _ _ _ _ E)).
    destruct fuel as [|[|fuel]]; [lia|lia|]. clear A5 A4.
    pose proof (value_at dbl _ _ _ _ _ _ _ _ A2) as Vp0. apply lok_tk in A2. change (hwf (tk h)) in A1.
    destruct (cut1_ok dbl (tk h) al hd n1 p x _ tl A1 A2) as (E1 & E2 & E3 & B).
    remember (S fuel) as g eqn:Hg. cbn [remove_loop L l_tail].
    rewrite decide_False by by eapply ne_tl.
    pose proof (value_at dbl _ _ _ _ _ _ _ _ A2) as Vp.
    rewrite (bind_ok _ _ _ _ _ Vp0), tk_bind, bind_bind, (bind_ok _ _ _ _ _ Vp), bind_ret, He.
    rewrite (bind_ok _ _ _ _ _ (next_of dbl _ _ _ _ _ _ _ _ A2)), (bind_ok _ _ _ _ _ E1). cbn [l_al].
    rewrite (bind_ok _ _ _ _ _ E3), (bind_ok _ _ _ _ _ (next_at dbl _ _ _ _ _ _ (proj1 B))). cbn [startp].
    subst g. cbn [remove_loop l_tail set_len]. rewrite decide_False by (eapply ne_tl; exact (proj1 B)).
    rewrite (bind_ok _ _ _ _ _ (value_at dbl _ _ _ _ _ _ _ _ (proj1 B))), tk_bind, bind_bind. apply bind_err.
    apply value_gone. exact (gone_fr _ _).
  Qed.
  (** Referring to the last element is fine. *)
  Theorem C23_remove_alias_last sp w i al xs k x ps p l (eqb : T -> T -> bool) : reached sp w ->
    sp !! i = Some (al, Some xs) -> nodes dbl w i ps xs -> xs !! k = Some x -> ps !! S k = Some p -> w_vars w !! i = Some l ->
    eqb x x = true -> (S k = length xs)%nat ->
    l_remove_ref dbl l eqb (PAddr p) (w_heap w) = l_remove_if dbl l (eqb x) (w_heap w).
  Proof.
    intros Hr Hi Hn Hx Hp Hl He Hk.
    destruct (ref_split _ _ _ _ _ _ _ _ _ _ Hr Hi Hn Hx Hp Hl) as (Hwf & hd & tl & m1 & m2 & -> & -> & <- & Lk & HW).
    destruct m2 as [|[c z] m2].
    2:{ rewrite vls_length, app_length in Hk. simpl in Hk. lia. }
    unfold l_remove_if, l_remove_ref, remove_if_m. cbn [l_len l_head L].
    rewrite (proj2 (N.eqb_neq _ 0)) by (rewrite app_length; simpl; lia).
    rewrite !(bind_ok _ _ _ _ _ (next_at dbl _ al hd [] _ tl Lk)), !(bind_ok _ _ _ _ _ (fuel_ok _)).
    pose proof (lok_fuel dbl _ _ _ _ _ Lk) as Hfu. rewrite app_length in Hfu. cbn [length] in Hfu.
    destruct (ref_loop al hd tl eqb x p [] m1 [] (S (size (hmap (w_heap w)))) (w_heap w) 0 Hwf Lk HW) as (n1 & fuel & h & cnt & A1 & A2 & A3 & A4 & A5);
      [lia|].
    cbn [app endp] in A5. rewrite A5 by (intros h' v E; by rewrite (bind_ok _ _ _ _ _ E)).
    rewrite A5 by done.
    destruct fuel as [|[|fuel]]; [lia|lia|]. clear A5 A4.
    pose proof (value_at dbl _ _ _ _ _ _ _ _ A2) as Vp0. apply lok_tk in A2. change (hwf (tk h)) in A1.
    destruct (cut1_ok dbl (tk h) al hd n1 p x _ tl A1 A2) as (E1 & E2 & E3 & B).
    remember (S fuel) as g eqn:Hg. cbn [remove_loop L l_tail].
    rewrite !decide_False by by eapply ne_tl.
    pose proof (value_at dbl _ _ _ _ _ _ _ _ A2) as Vp.
    rewrite !(bind_ok _ _ _ _ _ Vp0), !tk_bind, bind_bind, (bind_ok _ _ _ _ _ Vp), !bind_ret, !He.
    rewrite !(bind_ok _ _ _ _ _ (next_of dbl _ _ _ _ _ _ _ _ A2)), !(bind_ok _ _ _ _ _ E1). cbn [l_al].
    rewrite !(bind_ok _ _ _ _ _ E3), !(bind_ok _ _ _ _ _ (next_at dbl _ _ _ _ _ _ (proj1 B))). cbn [startp].
    subst g. cbn [remove_loop l_tail set_len]. by rewrite !decide_True.
  Qed.
End Bugs.
