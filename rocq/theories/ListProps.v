(** * ListProps: C14-C27 and C53, histories of list operations *)
From Verif Require Import Base World Machine IterSpec ListModel ListSeg ListOps ListOps2 ListOps3 ListOps4 ListOps5
  SortSpec ListSort ListStep ListSpec ListRefine ListNodes ListBugs.
Local Open Scope N_scope.

Section Hist.
  Context {T : Type} (dbl : bool).
  Notation lstate := (gmap nat (N * option (list T))).
  Notation step := (list_step (T := T) dbl).
  Notation wokw := (world_ok_with (lrep dbl)).
  Notation rel := (rel (T := T) dbl).
  Implicit Types (ops : list (lop T)) (sp : lstate).

  (** ** C14 *)
  (** All histories without the members C18-C21, C26 and C27 are about (the
      const [front_unchecked], moving to another allocator, splice, merge,
      sort): they do what the same history on sequences does, with the same
      outputs, and no step is undefined. *)
  Definition plain (o : lop T) : bool :=
    match o with
    | LMoveAl _ _ _ | LSplA _ _ _ _ | LSpl _ _ _ _ | LMer _ _ _ _ | LSrt _ _ | LFrontUC _ => false
    | _ => true
    end.
  Lemma plain_spec ops : forallb plain ops = true -> Forall ordered ops /\
    forall sp, srun (gspec dbl) sp ops = srun (lspec dbl) sp ops.
  Proof.
    induction ops as [|o ops IH]; simpl; [done|]. intros [Ho Hf]%andb_true_iff.
    destruct (IH Hf) as [IH1 IH2]. split.
    - constructor; [by destruct o|done].
    - intros sp. assert (gspec dbl sp o = lspec dbl sp o) as -> by (unfold gspec; by destruct o).
      destruct (lspec dbl sp o); [|done|done]. by rewrite IH2.
  Qed.
  Theorem C14_histories ops : forallb plain ops = true ->
    match srun (lspec dbl) ∅ ops with
    | SOk sp outs => exists w, run_ops step ops winit = Ok (outs, w) /\
        forall i, is_Some (w_vars w !! i) <-> is_Some (sp !! i)
    | SPanic => False
    | SPre => True
    end.
  Proof.
    intros Hp. destruct (plain_spec ops Hp) as [Ho He]. rewrite <-He.
    pose proof (hist dbl ops Ho ∅ winit (world_ok_init _)) as H.
    destruct (srun (gspec dbl) ∅ ops) as [sp outs| |] eqn:E; [| |done].
    - destruct H as (w & E2 & [m Hw]). exists w. split; [done|].
      intros i. rewrite (wo_vars _ _ _ _ Hw), (wo_spec _ _ _ _ Hw), !lookup_fmap, !fmap_is_Some. done.
    - exfalso. clear H Ho Hp. rewrite He in E. clear He. revert E. generalize (∅ : lstate).
      induction ops as [|o ops IH]; intros sp; simpl; [done|].
      assert (Hn : lspec dbl sp o <> SPanic).
      { clear. destruct o; cbn [lspec]; unfold fresh, look, live, need, take_over, give;
          repeat case_match; done. }
      destruct (lspec dbl sp o) as [s1 x| |] eqn:E1; [|done|done].
      specialize (IH s1). destruct (srun _ s1 ops); [done| |done]. intros _. by apply IH.
  Qed.

  (** With the other members, as long as they are not used where C18-C20, C26
      and C27 say they go wrong ([safe]), and with comparisons that are
      strict weak orders. *)
  Theorem C14_all_partial ops : Forall ordered ops ->
    match srun (gspec dbl) ∅ ops with
    | SOk sp outs => exists w, run_ops step ops winit = Ok (outs, w) /\
        forall i, is_Some (w_vars w !! i) <-> is_Some (sp !! i)
    | SPanic => False
    | SPre => True
    end.
  Proof.
    intros Ho. pose proof (hist dbl ops Ho ∅ winit (world_ok_init _)) as H.
    destruct (srun (gspec dbl) ∅ ops) as [sp outs| |] eqn:E; [| |done].
    - destruct H as (w & E2 & [m Hw]). exists w. split; [done|].
      intros i. rewrite (wo_vars _ _ _ _ Hw), (wo_spec _ _ _ _ Hw), !lookup_fmap, !fmap_is_Some. done.
    - exfalso. clear H Ho. revert E. generalize (∅ : lstate).
      induction ops as [|o ops IH]; intros sp; simpl; [done|].
      assert (Hn : gspec dbl sp o <> SPanic).
      { clear. unfold gspec. destruct (safe dbl sp o); [|done].
        destruct o; cbn [lspec]; unfold fresh, look, live, need, take_over, give; repeat case_match; done. }
      destruct (gspec dbl sp o) as [s1 x| |] eqn:E1; [|done|done].
      specialize (IH s1). destruct (srun _ s1 ops); [done| |done]. intros _. by apply IH.
  Qed.

  Notation reached := (reached (T := T) dbl).
  Notation nodes := (nodes (T := T) dbl).

  (** ** C16 *)
  (** What is in memory are the nodes of the lists, and no two lists share
      one.  (Freeing a node twice, or with another layout or allocator than it
      was allocated with, is undefined in the model.) *)
  Theorem C16_nodes sp w : reached sp w -> forall a,
    is_Some (hmap (w_heap w) !! a) <->
    exists i al xs ps, sp !! i = Some (al, Some xs) /\ nodes w i ps xs /\ a ∈ ps.
  Proof.
    intros Hr a. split.
    - intros Ha. destruct (reached_rel dbl _ _ Hr) as [m Hw].
      destruct (wo_cover _ _ _ _ Hw a Ha) as (i & e & Hm & Hin).
      pose proof (wo_rep _ _ _ _ Hw i e Hm) as Rp. pose proof (wo_vars _ _ _ _ Hw) as Ev. pose proof (wo_spec _ _ _ _ Hw) as Es.
      assert (Hv : w_vars w !! i = Some (e_o e)) by (rewrite Ev, lookup_fmap, Hm; done).
      assert (Hs : sp !! i = Some (e_s e)) by (rewrite Es, lookup_fmap, Hm; done).
      destruct (e_s e) as [al [xs|]] eqn:Ee.
      + destruct (lrep_inv dbl _ _ _ _ _ Rp) as (hd & tl & ns & Ho & Hx & Lk & HW & Hfp).
        exists i, al, xs, (lfp hd ns tl). split; [done|]. rewrite Hfp in Hin. split; [|done].
        rewrite <-Hx. rewrite Ho in Hv. by eapply lok_nodes.
      + destruct (lrep_inv_none dbl _ _ _ _ Rp) as [_ Hfp]. rewrite Hfp in Hin. by apply elem_of_nil in Hin.
    - intros (i & al & xs & ps & Hi & Hn & Ha).
      destruct (rel_live dbl _ _ _ _ _ (reached_rel dbl _ _ Hr) Hi) as (_ & hd & tl & ns & V & X & Lk & _).
      rewrite (nodes_unique dbl _ _ _ _ _ _ Hn (lok_nodes dbl _ _ _ _ _ _ V Lk)) in Ha.
      exact (lok_has dbl _ _ _ _ _ _ Lk Ha).
  Qed.
  Theorem C16_separate sp w i j al xs al' ys ps qs a : reached sp w -> i <> j ->
    sp !! i = Some (al, Some xs) -> sp !! j = Some (al', Some ys) ->
    nodes w i ps xs -> nodes w j qs ys -> a ∈ ps -> a ∉ qs.
  Proof.
    intros Hr%reached_rel Hij Hi Hj Hp Hq Ha Ha'.
    destruct (rel_live2 dbl _ _ _ _ _ _ _ _ Hr Hij Hi Hj)
      as (Hwf & hd & tl & ns & hd2 & tl2 & ms & (V1 & X1 & L1 & W1) & (V2 & X2 & L2 & W2) & Hap & _).
    rewrite (nodes_unique dbl _ _ _ _ _ _ Hp (lok_nodes dbl _ _ _ _ _ _ V1 L1)) in Ha.
    rewrite (nodes_unique dbl _ _ _ _ _ _ Hq (lok_nodes dbl _ _ _ _ _ _ V2 L2)) in Ha'. by apply (Hap a).
  Qed.
  (** Once the lists are gone so are the nodes. *)
  Theorem C16_storage ops outs : Forall ordered ops -> srun (gspec dbl) ∅ ops = SOk ∅ outs ->
    exists w, run_ops step ops winit = Ok (outs, w) /\ hmap (w_heap w) = ∅ /\ w_vars w = ∅.
  Proof.
    intros Ho E. destruct (reach dbl _ _ _ Ho E) as (w & E2 & Hr). exists w. split; [done|].
    exact (world_ok_empty _ _ Hr).
  Qed.

  (** ** C20, C21 *)
  Lemma reached_W sp w i al xs : reached sp w -> sp !! i = Some (al, Some xs) -> nlen xs < W.
  Proof.
    intros Hr%reached_rel Hi. destruct (rel_live dbl _ _ _ _ _ Hr Hi) as (_ & hd & tl & ns & V & <- & _ & HW & _).
    by rewrite vls_length.
  Qed.
  Lemma items_now sp w i al xs : reached sp w -> sp !! i = Some (al, Some xs) ->
    exists w', step (LItems i) w = Ok (OList xs, w').
  Proof.
    intros Hr Hi. destruct (reached_step dbl sp w (LItems i) sp (OList xs) Hr I) as (w' & E & _); [|by exists w'].
    unfold gspec. cbn [safe lspec]. unfold live. by rewrite Hi.
  Qed.
  (** Sorting: a sorted permutation; within every class of equivalent elements
      the order is turned round. *)
  Theorem C20_sort_partial sp w i al xs lt : reached sp w -> sp !! i = Some (al, Some xs) ->
    length xs <> 1%nat -> swo lt ->
    exists w' w2 ys, step (LSrt i lt) w = Ok (OUnit, w') /\ step (LItems i) w' = Ok (OList ys, w2) /\
      srt lt ys /\ ys ≡ₚ xs /\ reached (<[i := (al, Some ys)]> sp) w'.
  Proof.
    intros Hr Hi Hl Hlt. set (ys := ssort lt (reverse xs)).
    assert (Hp : ys ≡ₚ xs) by (unfold ys; rewrite ssort_perm; apply reverse_Permutation).
    destruct (reached_step dbl sp w (LSrt i lt) (<[i := (al, Some ys)]> sp) OUnit Hr Hlt) as (w' & E & Hr').
    { unfold gspec, safe, contents. rewrite Hi. cbn [default from_option id].
      destruct (Nat.eqb_spec (length xs) 1); [done|]. cbn [negb lspec]. unfold live. rewrite Hi. unfold give.
      rewrite (proj2 (N.ltb_lt _ _)); [done|]. unfold ys in Hp. rewrite Hp. by eapply reached_W. }
    destruct (items_now _ _ i al ys Hr' ltac:(by rewrite lookup_insert)) as (w2 & E2).
    exists w', w2, ys. split; [done|]. split; [done|]. split; [by apply ssort_srt|]. done.
  Qed.
  Theorem C21_sort_reverses sp w i al xs lt : reached sp w -> sp !! i = Some (al, Some xs) ->
    length xs <> 1%nat -> swo lt ->
    exists w' w2 ys, step (LSrt i lt) w = Ok (OUnit, w') /\ step (LItems i) w' = Ok (OList ys, w2) /\
      forall x, class lt x ys = reverse (class lt x xs).
  Proof.
    intros Hr Hi Hl Hlt. set (ys := ssort lt (reverse xs)).
    assert (Hp : ys ≡ₚ xs) by (unfold ys; rewrite ssort_perm; apply reverse_Permutation).
    destruct (reached_step dbl sp w (LSrt i lt) (<[i := (al, Some ys)]> sp) OUnit Hr Hlt) as (w' & E & Hr').
    { unfold gspec, safe, contents. rewrite Hi. cbn [default from_option id].
      destruct (Nat.eqb_spec (length xs) 1); [done|]. cbn [negb lspec]. unfold live. rewrite Hi. unfold give.
      rewrite (proj2 (N.ltb_lt _ _)); [done|]. unfold ys in Hp. rewrite Hp. by eapply reached_W. }
    destruct (items_now _ _ i al ys Hr' ltac:(by rewrite lookup_insert)) as (w2 & E2).
    exists w', w2, ys. split; [done|]. split; [done|]. intros x. unfold ys. by rewrite ssort_class, class_reverse.
  Qed.
  (** Merging two non-empty lists (lvalue): sorted, everything there, [other]
      empty; the equivalent elements of [other] come first. *)
  Theorem C19_merge_partial sp w i j al xs ys lt : reached sp w -> i <> j ->
    sp !! i = Some (al, Some xs) -> sp !! j = Some (al, Some ys) ->
    xs <> [] -> nlen xs + nlen ys < W -> swo lt -> srt lt xs -> srt lt ys ->
    exists w' w2 zs, step (LMer i j false lt) w = Ok (OUnit, w') /\ step (LItems i) w' = Ok (OList zs, w2) /\
      srt lt zs /\ zs ≡ₚ xs ++ ys /\ (forall x, class lt x zs = class lt x ys ++ class lt x xs) /\
      reached (<[i := (al, Some zs)]> (<[j := (al, Some [])]> sp)) w'.
  Proof.
    intros Hr Hij Hi Hj Hx Hw Hlt Sx Sy. set (zs := ssort lt (ys ++ xs)).
    assert (Hp : zs ≡ₚ xs ++ ys) by (unfold zs; rewrite ssort_perm; apply Permutation_app_comm).
    assert (Hk : forall sp', (sp' = sp /\ ys = [] \/ ys <> [] /\ sp' = <[i := (al, Some zs)]> (<[j := (al, Some [])]> sp)) ->
      exists w', step (LMer i j false lt) w = Ok (OUnit, w') /\ reached sp' w').
    { intros sp' Hsp. destruct (reached_step dbl sp w (LMer i j false lt) sp' OUnit Hr Hlt) as (w' & E & Hr'); [|by exists w'].
      unfold gspec, safe, contents. rewrite Hi, Hj. cbn [default from_option id].
      rewrite (proj2 (Nat.eqb_neq i j) Hij), (proj2 (isnil_false xs) Hx). cbn [negb andb orb]. rewrite orb_true_r.
      cbn [lspec]. unfold live. rewrite Hi, Hj, (proj2 (Nat.eqb_neq i j) Hij). cbn [orb].
      destruct Hsp as [[-> ->]|[Hy ->]]; [done|]. rewrite (proj2 (isnil_false ys) Hy), N.eqb_refl.
      rewrite (proj2 (sortedb_srt lt xs) Sx), (proj2 (sortedb_srt lt ys) Sy). cbn [andb]. unfold need, take_over, give.
      fold zs. rewrite (proj2 (N.ltb_lt _ _)); [done|]. rewrite Hp, app_length. lia. }
    assert (Hc : forall x, class lt x zs = class lt x ys ++ class lt x xs)
      by (intros x; unfold zs; by rewrite ssort_class, class_app).
    destruct ys as [|y ys].
    - assert (Hz : zs = xs) by (unfold zs; by apply ssort_id).
      destruct (Hk sp) as (w' & E & Hr'); [by left|].
      destruct (items_now _ _ i al xs Hr' Hi) as (w2 & E2). exists w', w2, zs. split; [done|].
      rewrite Hz. split; [done|]. split; [done|]. rewrite Hz in Hp. split; [done|]. rewrite Hz in Hc. split; [done|].
      rewrite (insert_id sp j) by done. by rewrite insert_id.
    - destruct (Hk (<[i := (al, Some zs)]> (<[j := (al, Some [])]> sp))) as (w' & E & Hr'); [by right|].
      destruct (items_now _ _ i al zs Hr' ltac:(by rewrite lookup_insert)) as (w2 & E2).
      exists w', w2, zs. do 2 (split; [done|]). split; [by apply ssort_srt|]. done.
  Qed.

  (** ** C24 *)
  (** What calls of one kind ([true]: next, [false]: prev) were given. *)
  Fixpoint given (c : bool) (calls : list bool) (outs : list (option T)) : list T :=
    match calls, outs with
    | d :: calls, Some x :: outs => if eqb c d then x :: given c calls outs else given c calls outs
    | _ :: calls, _ :: outs => given c calls outs
    | _, _ => []
    end.
  Fixpoint somes (outs : list (option T)) : nat :=
    match outs with [] => 0 | Some _ :: r => S (somes r) | None :: r => somes r end.
  (** Every element at most once, in order from either side; none exactly once
      all were given. *)
  Record meets (xs : list T) (calls : list bool) (outs : list (option T)) : Prop := {
    mt_len : length outs = length calls;
    mt_items : exists left, xs = given true calls outs ++ left ++ reverse (given false calls outs);
    mt_none : forall k, outs !! k = Some None -> somes (take k outs) = length xs;
    mt_some : forall k x, outs !! k = Some (Some x) -> (somes (take k outs) < length xs)%nat;
  }.
  Lemma taken_meets calls : forall xs, meets xs calls (taken xs calls).
  Proof.
    induction calls as [|[] calls IH]; intros xs; cbn [taken].
    - split; [done|exists xs; by rewrite app_nil_r|by intros []|by intros []].
    - destruct (IH (tail xs)) as [H1 (lf & H2) H3 H4]. destruct xs as [|x xs].
      + split; [exact (f_equal S H1)|by exists lf| |].
        * intros [|k]; cbn; [done|]. apply (H3 k).
        * intros [|k] y; cbn; [done|]. intros Hy. by apply (H4 k) in Hy.
      + cbn [head tail] in *. split; [cbn [length]; by rewrite H1|exists lf; exact (f_equal (cons x) H2)| |].
        * intros [|k]; cbn; [done|]. intros Hk. by rewrite (H3 k Hk).
        * intros [|k] y; cbn; [lia|]. intros Hk%H4. lia.
    - destruct (IH (take (length xs - 1) xs)) as [H1 (lf & H2) H3 H4].
      destruct xs as [|x xs _] using rev_ind.
      + split; [exact (f_equal S H1)|by exists lf| |].
        * intros [|k]; cbn; [done|]. apply (H3 k).
        * intros [|k] y; cbn; [done|]. intros Hy. by apply (H4 k) in Hy.
      + rewrite last_snoc. rewrite app_length in *. cbn [length] in *. rewrite Nat.add_sub, take_app in *.
        split; [cbn [length]; by rewrite H1| | |].
        * exists lf. cbn [given eqb Bool.eqb]. rewrite reverse_cons, !app_assoc. rewrite app_assoc in H2. by rewrite <-H2.
        * intros [|k]; cbn; [done|]. intros Hk. rewrite (H3 k Hk). rewrite app_length. simpl. lia.
        * intros [|k] y; cbn; rewrite app_length; simpl; [lia|]. intros Hk%H4. lia.
  Qed.
  Theorem C24_iter sp w i al xs calls : reached sp w -> sp !! i = Some (al, Some xs) ->
    (dbl = true \/ Forall (fun c => c = true) calls) ->
    exists outs w', step (LIter i calls) w = Ok (OOpts outs, w') /\ meets xs calls outs /\ reached sp w'.
  Proof.
    intros Hr Hi Hc. exists (taken xs calls).
    destruct (reached_step dbl sp w (LIter i calls) sp (OOpts (taken xs calls)) Hr I) as (w' & E & Hr').
    { unfold gspec. cbn [safe lspec]. unfold live. rewrite Hi.
      assert (dbl || forward calls = true) as ->; [|done]. destruct Hc as [->|Hc]; [done|]. apply orb_true_iff. right.
      unfold forward. apply forallb_forall. intros c Hin. rewrite Forall_forall in Hc. apply Hc, elem_of_list_In, Hin. }
    exists w'. split; [done|]. split; [apply taken_meets|done].
  Qed.
  (** [into_iter()]: the same, and the list is moved from; when the iterator
      is destroyed nothing of it is left. *)
  Theorem C24_into_iter sp w i al xs calls : reached sp w -> sp !! i = Some (al, Some xs) ->
    (dbl = true \/ Forall (fun c => c = true) calls) ->
    exists ps outs w', nodes w i ps xs /\ step (LInto i calls) w = Ok (OOpts outs, w') /\ meets xs calls outs /\
      w_vars w' !! i = Some (Lst PNull PNull 0 al) /\ (forall a, a ∈ ps -> hmap (w_heap w') !! a = None) /\
      others dbl w w' sp [i] /\ reached (<[i := (al, None)]> sp) w'.
  Proof.
    intros Hr Hi Hc.
    destruct (rel_live dbl _ _ _ _ _ (reached_rel dbl _ _ Hr) Hi) as (Hwf & hd & tl & ns & V & X & Lk & HW & Ho).
    destruct (into_iter_ok dbl _ _ _ _ _ calls Hwf Lk HW Hc) as (h' & E & U).
    destruct (reached_step dbl sp w (LInto i calls) (<[i := (al, None)]> sp) (OOpts (taken xs calls)) Hr I) as (w' & E' & Hr').
    { unfold gspec. cbn [safe lspec]. unfold live. rewrite Hi.
      assert (dbl || forward calls = true) as ->; [|done]. destruct Hc as [->|Hc]; [done|]. apply orb_true_iff. right.
      unfold forward. apply forallb_forall. intros c Hin. rewrite Forall_forall in Hc. apply Hc, elem_of_list_In, Hin. }
    assert (E2 : step (LInto i calls) w = Ok (OOpts (taken xs calls), World h' (<[i := Lst PNull PNull 0 al]> (w_vars w)))).
    { cbn [list_step]. eapply updo_run; [exact V|]. rewrite (bind_ok _ _ _ _ _ E). by rewrite taken_ends, X. }
    rewrite E2 in E'. injection E' as <-.
    exists (lfp hd ns tl), (taken xs calls). eexists. split; [rewrite <-X; by eapply lok_nodes|].
    split; [exact E2|]. split; [apply taken_meets|]. split; [simpl; by rewrite lookup_insert|].
    split; [|split; [by eapply Ho|done]].
    intros a Ha. simpl. destruct (hmap h' !! a) eqn:Ea; [|done]. exfalso.
    destruct (upd_dom _ _ _ _ U a) as [D _]. destruct (D ltac:(by eexists)) as [[_ ?]|?%elem_of_nil]; done.
  Qed.

  (** ** C25 *)
  (** [++] and [--] on a reversed iterator call each other for ever: no number
      of calls is enough. *)
  Theorem C25_refuted (h : heap (cell T)) p fuel : rev_inc fuel p h = Err Fuel /\ rev_dec fuel p h = Err Fuel.
  Proof. induction fuel as [|fuel [IH1 IH2]]; [done|]. split; [exact IH2|exact IH1]. Qed.

  (** What does work: [rbegin()] is at the last element, and is [rend()]
      exactly if there is none. *)
  Theorem C25_ends_partial sp w i al xs : dbl = true -> reached sp w -> sp !! i = Some (al, Some xs) ->
    exists l p, w_vars w !! i = Some l /\ l_rbegin l (w_heap w) = Ok (p, w_heap w) /\
      (p = l_rend l <-> xs = []) /\
      (forall x, last xs = Some x -> value p (w_heap w) = Ok (x, w_heap w)).
  Proof.
    intros Hd Hr Hi. destruct (C15_linkage_partial dbl _ _ _ _ _ Hr Hi) as [ps [Hl Hdf (l & V & _ & F & B & _) Hel]].
    assert (Hn : exists p, ps !! length xs = Some p) by (apply lookup_lt_is_Some; lia). destruct Hn as [p Hp].
    assert (H0 : exists q, ps !! 0%nat = Some q) by (apply lookup_lt_is_Some; lia). destruct H0 as [q Hq].
    pose proof (F 0%nat q Hq) as F0. cbn in F0. injection F0 as F0.
    pose proof (B Hd _ p Hp) as B1. replace (length xs + 1 - length xs)%nat with 1%nat in B1 by lia.
    exists l, (PAddr p). split; [done|]. split; [|split].
    - cbn [back_advance] in B1. unfold bind in B1. unfold l_rbegin.
      by destruct (get_prev (l_tail l) (w_heap w)) as [[]|].
    - unfold l_rend. rewrite F0. split.
      + intros [= ->]. pose proof (NoDup_lookup ps _ _ _ Hdf Hp Hq) as E. by destruct xs.
      + intros ->. cbn in Hp. congruence.
    - intros x Hx. destruct xs as [|y xs _] using rev_ind; [done|]. rewrite last_snoc in Hx. injection Hx as ->.
      rewrite app_length in Hp. apply (Hel (length xs)).
      + by rewrite Nat.add_comm in Hp.
      + by rewrite lookup_app_r, Nat.sub_diag by lia.
  Qed.

  (** ** C26 *)
  Theorem C26_ends_partial sp w i al o : reached sp w -> sp !! i = Some (al, o) ->
    (exists w', step (LFront i) w = Ok (OOpt (head (default [] o)), w') /\ reached sp w') /\
    (dbl = true -> exists w', step (LBack i) w = Ok (OOpt (last (default [] o)), w') /\ reached sp w') /\
    (forall x, head (default [] o) = Some x -> exists w', step (LFrontU i) w = Ok (OVal x, w') /\ reached sp w') /\
    (forall x, dbl = true -> last (default [] o) = Some x -> exists w', step (LBackU i) w = Ok (OVal x, w') /\ reached sp w') /\
    (forall x, head (default [] o) = Some x -> dbl = false \/ length (default [] o) = 1%nat ->
       exists w', step (LFrontUC i) w = Ok (OVal x, w') /\ reached sp w').
  Proof.
    intros Hr Hi. split; [|split; [|split; [|split]]].
    - apply (reached_step dbl sp w (LFront i) sp _ Hr I). unfold gspec. cbn [safe lspec]. unfold look. by rewrite Hi.
    - intros ->. apply (reached_step true sp w (LBack i) sp _ Hr I). unfold gspec. cbn [safe lspec]. unfold look. by rewrite Hi.
    - intros x Hx. apply (reached_step dbl sp w (LFrontU i) sp _ Hr I). unfold gspec. cbn [safe lspec]. unfold live. rewrite Hi.
      destruct o as [[|y xs]|]; [done| |done]. cbn in Hx. by injection Hx as ->.
    - intros x -> Hx. apply (reached_step true sp w (LBackU i) sp _ Hr I). unfold gspec. cbn [safe lspec need]. unfold live. rewrite Hi.
      destruct o as [xs|]; [|done]. cbn in Hx. by rewrite Hx.
    - intros x Hx Hc. apply (reached_step dbl sp w (LFrontUC i) sp _ Hr I). unfold gspec. cbn [safe lspec]. unfold live, contents. rewrite Hi.
      destruct o as [[|y xs]|]; [done| |done]. cbn [default from_option id head] in *. injection Hx as ->.
      assert (negb dbl || (length (x :: xs) =? 1)%nat = true) as ->; [|done].
      destruct Hc as [->| ->]; [done|]. apply orb_true_r.
  Qed.

  (** ** C27 *)
  (** With an equal allocator the very same nodes pass to the new list. *)
  Theorem C27_move_partial sp w i j al xs : reached sp w -> sp !! i = None -> sp !! j = Some (al, Some xs) ->
    exists ps w', nodes w j ps xs /\ step (LMoveAl i j al) w = Ok (OUnit, w') /\ nodes w' i ps xs /\
      w_vars w' !! j = Some (Lst PNull PNull 0 al) /\ w_heap w' = w_heap w /\
      reached (<[i := (al, Some xs)]> (<[j := (al, None)]> sp)) w'.
  Proof.
    intros Hr Hi Hj. assert (Hij : i <> j) by congruence.
    assert (Hi' : w_vars w !! i = None).
    { destruct (reached_rel dbl _ _ Hr) as [m Hw]. destruct (w_vars w !! i) as [o|] eqn:E; [|done]. exfalso.
      pose proof (wo_vars _ _ _ _ Hw) as Ev. pose proof (wo_spec _ _ _ _ Hw) as Es.
      rewrite Ev, lookup_fmap in E. rewrite Es, lookup_fmap in Hi. by destruct (m !! i). }
    destruct (rel_live dbl _ _ _ _ _ (reached_rel dbl _ _ Hr) Hj) as (Hwf & hd & tl & ns & V & X & Lk & HW & Ho).
    set (w' := World (w_heap w) (<[i := L al hd tl ns]> (<[j := Lst PNull PNull 0 al]> (w_vars w)))).
    assert (E : step (LMoveAl i j al) w = Ok (OUnit, w')).
    { cbn [list_step]. unfold bind at 1, wnew. rewrite Hi'. unfold bind at 1, wget. rewrite V.
      unfold bind at 1, lift, l_move_alloc. cbn [l_al L]. by rewrite N.eqb_refl. }
    destruct (reached_step dbl sp w (LMoveAl i j al) (<[i := (al, Some xs)]> (<[j := (al, None)]> sp)) OUnit Hr I) as (w2 & E2 & Hr2).
    { unfold gspec, safe, alloc_of. rewrite Hj, N.eqb_refl. cbn [lspec]. unfold fresh, look. by rewrite Hi, Hj. }
    rewrite E in E2. injection E2 as <-.
    exists (lfp hd ns tl), w'. rewrite <-X. split; [by eapply lok_nodes|]. split; [done|]. rewrite X. split; [|split; [|done]].
    - rewrite <-X. eapply lok_nodes; [|exact Lk]. simpl. by rewrite lookup_insert.
    - simpl. by rewrite lookup_insert_ne, lookup_insert.
  Qed.

  (** ** C53 *)
  Theorem C53_print sp w i al xs : reached sp w -> sp !! i = Some (al, Some xs) ->
    exists w', step (LPrint i) w = Ok (OToks (POpen dbl :: shown xs ++ [PClose]), w') /\ reached sp w'.
  Proof.
    intros Hr Hi. apply (reached_step dbl sp w (LPrint i) sp _ Hr I). unfold gspec. cbn [safe lspec]. unfold live. by rewrite Hi.
  Qed.
End Hist.

(** ** A reachable state that meets the hypotheses above *)
Definition ex_ops : list (lop N) :=
  [LRange 0 0 [3; 1; 2; 1]; LRange 1 0 [5]; LNew 2 0; LRange 3 7 [4; 6]; LPushF 3 9; LPopF 3; LRange 4 0 [2; 4]; LNew 5 7].
Definition ex_st (dbl : bool) : gmap nat (N * option (list N)) :=
  match srun (gspec dbl) ∅ ex_ops with SOk sp _ => sp | _ => ∅ end.
Lemma ex_reached dbl : exists w, reached dbl (ex_st dbl) w.
Proof.
  assert (Ho : Forall ordered ex_ops) by (repeat constructor).
  assert (E : exists outs, srun (gspec dbl) ∅ ex_ops = SOk (ex_st dbl) outs) by (destruct dbl; eexists; reflexivity).
  destruct E as [outs E]. destruct (reach dbl _ _ _ Ho E) as (w & Er & _). exists w, ex_ops, outs. done.
Qed.
Example ex_lists dbl : ex_st dbl !! 0%nat = Some (0, Some [3; 1; 2; 1]) /\ ex_st dbl !! 1%nat = Some (0, Some [5]) /\
  ex_st dbl !! 2%nat = Some (0, Some []) /\ ex_st dbl !! 3%nat = Some (7, Some [4; 6]) /\
  ex_st dbl !! 4%nat = Some (0, Some [2; 4]) /\ ex_st dbl !! 5%nat = Some (7, Some []) /\ ex_st dbl !! 6%nat = None.
Proof. destruct dbl; done. Qed.
Lemma swo_ltb : swo N.ltb.
Proof.
  split; intros *; [apply N.ltb_irrefl| |].
  - rewrite !N.ltb_lt. lia.
  - rewrite !N.ltb_ge. lia.
Qed.
Definition by_fst (a b : N * N) : bool := fst a <? fst b.
Lemma swo_fst : swo by_fst.
Proof.
  unfold by_fst. split; intros *; [apply N.ltb_irrefl| |].
  - rewrite !N.ltb_lt. lia.
  - rewrite !N.ltb_ge. lia.
Qed.

(** ** The full properties, and what is wrong with them *)
Definition C15_full := forall T dbl (ops : list (lop T)) sp outs, Forall ordered ops ->
  srun (lspec dbl) ∅ ops = SOk sp outs ->
  exists w, run_ops (list_step dbl) ops winit = Ok (outs, w) /\
    forall i al xs, sp !! i = Some (al, Some xs) -> exists ps, nodes dbl w i ps xs.
Theorem C15_refuted : ~ C15_full.
Proof.
  intros H. set (ops := [LRange 0 0 [5]; LSrt 0 N.ltb; LItems 0] : list (lop N)).
  destruct (srun (lspec true) ∅ ops) as [sp outs| |] eqn:Es; [|by vm_compute in Es|by vm_compute in Es].
  destruct (H N true ops sp outs) as (w & E & _); [|done|by vm_compute in E].
  constructor; [done|]. constructor; [exact swo_ltb|]. by repeat constructor.
Qed.

Definition C18_full := forall T dbl sp w i k j al (xs ys : list T) rv, reached dbl sp w -> i <> j ->
  sp !! i = Some (al, Some xs) -> sp !! j = Some (al, Some ys) -> (k <= length xs)%nat -> nlen xs + nlen ys < W ->
  exists w' w2, list_step dbl (LSplA i k j rv) w = Ok (OUnit, w') /\
    list_step dbl (LItems i) w' = Ok (OList (take k xs ++ ys ++ drop k xs), w2).
Theorem C18_refuted : ~ C18_full.
Proof.
  intros H. destruct (ex_reached true) as [w Hr]. destruct (ex_lists true) as (H0 & _ & H2 & _).
  destruct (H N true _ w 0%nat 1%nat 2%nat 0 _ _ false Hr ltac:(done) H0 H2 ltac:(simpl; lia) ltac:(done)) as (w1 & w2 & E1 & E2).
  destruct (C18_splice_after_empty_breaks true _ w 0%nat 1%nat 2%nat 0 _ false Hr ltac:(done) H0 H2 ltac:(simpl; lia)) as (w1' & E1' & E2').
  rewrite E1 in E1'. injection E1' as <-. by rewrite E2 in E2'.
Qed.

Definition C19_full := forall T dbl sp w i j al (xs ys : list T) rv lt, reached dbl sp w -> i <> j ->
  sp !! i = Some (al, Some xs) -> sp !! j = Some (al, Some ys) -> nlen xs + nlen ys < W ->
  swo lt -> srt lt xs -> srt lt ys ->
  exists w' w2 zs, list_step dbl (LMer i j rv lt) w = Ok (OUnit, w') /\
    list_step dbl (LItems i) w' = Ok (OList zs, w2) /\ srt lt zs /\ zs ≡ₚ xs ++ ys.
Theorem C19_refuted : ~ C19_full.
Proof.
  intros H. destruct (ex_reached true) as [w Hr]. destruct (ex_lists true) as (_ & H1 & H2 & _).
  destruct (H N true _ w 2%nat 1%nat 0 _ _ false N.ltb Hr ltac:(done) H2 H1 ltac:(done) swo_ltb) as (w1 & w2 & zs & E1 & E2 & _).
  { by intros []. }
  { intros [|a] [|b] x y Hab; simpl; [lia| |lia|done]. by rewrite lookup_nil. }
  destruct (C19_merge_into_empty_breaks true _ w 2%nat 1%nat 0 _ false N.ltb Hr ltac:(done) H2 H1 ltac:(done)) as (w1' & E1' & E2').
  rewrite E1 in E1'. injection E1' as <-. by rewrite E2 in E2'.
Qed.

Definition C20_full := forall T dbl sp w i al (xs : list T) lt, reached dbl sp w -> sp !! i = Some (al, Some xs) -> swo lt ->
  exists w' w2 ys, list_step dbl (LSrt i lt) w = Ok (OUnit, w') /\ list_step dbl (LItems i) w' = Ok (OList ys, w2) /\
    srt lt ys /\ ys ≡ₚ xs.
Theorem C20_refuted : ~ C20_full.
Proof.
  intros H. destruct (ex_reached false) as [w Hr]. destruct (ex_lists false) as (_ & H1 & _).
  destruct (H N false _ w 1%nat 0 _ N.ltb Hr H1 swo_ltb) as (w1 & w2 & ys & E1 & E2 & _).
  destruct (C20_sort_one_breaks false _ w 1%nat 0 5 N.ltb Hr H1) as (w1' & E1' & E2' & _).
  rewrite E1 in E1'. injection E1' as <-. by rewrite E2 in E2'.
Qed.

(** Stability, for sort away from C20's defect and for merge away from C19's. *)
Definition C21_sort_full := forall T dbl sp w i al (xs : list T) lt, reached dbl sp w -> sp !! i = Some (al, Some xs) ->
  length xs <> 1%nat -> swo lt ->
  exists w' w2 ys, list_step dbl (LSrt i lt) w = Ok (OUnit, w') /\ list_step dbl (LItems i) w' = Ok (OList ys, w2) /\
    forall x, class lt x ys = class lt x xs.
Definition C21_merge_full := forall T dbl sp w i j al (xs ys : list T) lt, reached dbl sp w -> i <> j ->
  sp !! i = Some (al, Some xs) -> sp !! j = Some (al, Some ys) -> xs <> [] -> nlen xs + nlen ys < W ->
  swo lt -> srt lt xs -> srt lt ys ->
  exists w' w2 zs, list_step dbl (LMer i j false lt) w = Ok (OUnit, w') /\ list_step dbl (LItems i) w' = Ok (OList zs, w2) /\
    forall x, class lt x zs = class lt x xs ++ class lt x ys.
Definition ex_pairs : list (lop (N * N)) := [LRange 0 0 [(1, 1); (0, 2); (1, 3)]; LRange 1 0 [(1, 4)]; LRange 2 0 [(1, 5)]].
Definition ex_pst (dbl : bool) : gmap nat (N * option (list (N * N))) :=
  match srun (gspec dbl) ∅ ex_pairs with SOk sp _ => sp | _ => ∅ end.
Lemma ex_pairs_reached dbl : exists w, reached dbl (ex_pst dbl) w.
Proof.
  assert (Ho : Forall ordered ex_pairs) by (repeat constructor).
  assert (E : exists outs, srun (gspec dbl) ∅ ex_pairs = SOk (ex_pst dbl) outs) by (destruct dbl; eexists; reflexivity).
  destruct E as [outs E]. destruct (reach dbl _ _ _ Ho E) as (w & Er & _). exists w, ex_pairs, outs. done.
Qed.
Example ex_pairs_lists dbl : ex_pst dbl !! 0%nat = Some (0, Some [(1, 1); (0, 2); (1, 3)]) /\ ex_pst dbl !! 1%nat = Some (0, Some [(1, 4)]) /\ ex_pst dbl !! 2%nat = Some (0, Some [(1, 5)]).
Proof. destruct dbl; done. Qed.
Theorem C21_sort_refuted : ~ C21_sort_full.
Proof.
  intros H. destruct (ex_pairs_reached true) as [w Hr]. destruct (ex_pairs_lists true) as (H0 & _ & _). set (sp := ex_pst true) in *.
  destruct (H _ true sp w _ _ _ _ Hr H0 ltac:(done) swo_fst) as (w1 & w2 & ys & E1 & E2 & Hc).
  destruct (C21_sort_reverses true sp w _ _ _ _ Hr H0 ltac:(done) swo_fst) as (w1' & w2' & ys' & E1' & E2' & Hc').
  rewrite E1 in E1'. injection E1' as <-. rewrite E2 in E2'. injection E2' as <- _.
  specialize (Hc (1, 1)). specialize (Hc' (1, 1)). rewrite Hc in Hc'. vm_compute in Hc'. discriminate.
Qed.
Theorem C21_merge_refuted : ~ C21_merge_full.
Proof.
  intros H. destruct (ex_pairs_reached true) as [w Hr]. destruct (ex_pairs_lists true) as (_ & H1 & H2). set (sp := ex_pst true) in *.
  assert (S1 : srt by_fst [(1, 4)]) by (intros [|a] [|b] x y Hab; simpl; [lia|by rewrite lookup_nil|lia|done]).
  assert (S2 : srt by_fst [(1, 5)]) by (intros [|a] [|b] x y Hab; simpl; [lia|by rewrite lookup_nil|lia|done]).
  destruct (H _ true sp w 1%nat 2%nat _ _ _ _ Hr ltac:(done) H1 H2 ltac:(done) ltac:(done) swo_fst S1 S2) as (w1 & w2 & ys & E1 & E2 & Hc).
  destruct (C19_merge_partial true sp w 1%nat 2%nat _ _ _ _ Hr ltac:(done) H1 H2 ltac:(done) ltac:(done) swo_fst S1 S2)
    as (w1' & w2' & ys' & E1' & E2' & _ & _ & Hc' & _).
  rewrite E1 in E1'. injection E1' as <-. rewrite E2 in E2'. injection E2' as <- _.
  specialize (Hc (1, 1)). specialize (Hc' (1, 1)). rewrite Hc in Hc'. vm_compute in Hc'. discriminate.
Qed.
(** What is left of stability: the sort keeps the order of a class exactly if
      that class reads the same backwards. *)
Theorem C21_sort_partial {T} dbl sp w i al (xs : list T) lt : reached dbl sp w -> sp !! i = Some (al, Some xs) ->
  length xs <> 1%nat -> swo lt ->
  exists w' w2 ys, list_step dbl (LSrt i lt) w = Ok (OUnit, w') /\ list_step dbl (LItems i) w' = Ok (OList ys, w2) /\
    forall x, class lt x ys = class lt x xs <-> reverse (class lt x xs) = class lt x xs.
Proof.
  intros Hr Hi Hl Hlt. destruct (C21_sort_reverses dbl sp w i al xs lt Hr Hi Hl Hlt) as (w' & w2 & ys & E1 & E2 & Hc).
  exists w', w2, ys. split; [done|]. split; [done|]. intros x. by rewrite Hc.
Qed.

(** [remove(val)]: as [remove_if] of the elements equal to [val], also when
    [val] is one of the elements. *)
Definition C23_alias_full := forall T dbl sp w i al (xs : list T) k x ps p l eqb, reached dbl sp w ->
  sp !! i = Some (al, Some xs) -> nodes dbl w i ps xs -> xs !! k = Some x -> ps !! S k = Some p -> w_vars w !! i = Some l ->
  eqb x x = true -> l_remove_ref dbl l eqb (PAddr p) (w_heap w) = l_remove_if dbl l (eqb x) (w_heap w).
Theorem C23_alias_refuted : ~ C23_alias_full.
Proof.
  intros H. destruct (ex_reached true) as [w Hr]. destruct (ex_lists true) as (H0 & _).
  destruct (C23_remove_if true _ w 0%nat (N.eqb 3) 0 _ Hr H0) as (a & mid & b & w' & Hn & Es & _).
  destruct (rel_live true _ _ _ _ _ (reached_rel true _ _ Hr) H0) as (_ & hd & tl & ns & V & X & Lk & _).
  assert (Hn' : nodes true w 0 (lfp hd ns tl) [3; 1; 2; 1]) by (rewrite <-X; by eapply lok_nodes).
  destruct ns as [|[p v] ns]; [done|]. set (l := L 0 hd tl ((p, v) :: ns)) in V. rename V into Hl.
  pose proof (C23_remove_alias_undefined true _ w 0%nat 0 _ 0%nat 3 _ p l N.eqb Hr H0 Hn' eq_refl eq_refl Hl eq_refl ltac:(simpl; lia)) as E1.
  rewrite (H N true _ w 0%nat 0 _ 0%nat 3 _ p l N.eqb Hr H0 Hn' eq_refl eq_refl Hl eq_refl) in E1.
  cbn [list_step] in Es. unfold l_updo, bind at 1, wget in Es. rewrite Hl in Es. unfold bind at 1, lift, bind at 1 in Es.
  by rewrite E1 in Es.
Qed.

Definition C26_full := forall T dbl sp w i al (xs : list T) x, reached dbl sp w -> sp !! i = Some (al, Some xs) ->
  head xs = Some x -> exists w', list_step dbl (LFrontUC i) w = Ok (OVal x, w').
Theorem C26_refuted : ~ C26_full.
Proof.
  intros H. destruct (ex_reached true) as [w Hr]. destruct (ex_lists true) as (H0 & _).
  destruct (H N true _ w 0%nat 0 _ 3 Hr H0 eq_refl) as [w' E].
  rewrite (C26_const_front_is_last true _ w 0%nat 0 _ 1 eq_refl Hr H0 eq_refl) in E. by injection E.
Qed.

Definition C27_full := forall T dbl sp w i j al al' (xs : list T), reached dbl sp w -> sp !! i = None ->
  sp !! j = Some (al', Some xs) -> exists w', list_step dbl (LMoveAl i j al) w = Ok (OUnit, w') /\
    (exists ps, nodes dbl w' i ps xs) /\ w_vars w' !! j = Some (Lst PNull PNull 0 al').
Theorem C27_refuted : ~ C27_full.
Proof.
  intros H. destruct (ex_reached true) as [w Hr]. destruct (ex_lists true) as (H0 & _ & _ & _ & _ & _ & H6).
  destruct (H N true _ w 6%nat 0%nat 7 0 _ Hr H6 H0) as (w' & E & _).
  by rewrite (C27_move_elements_undefined true _ w 6%nat 0%nat 7 0 _ Hr H6 H0) in E.
Qed.

(** ** Concrete histories *)
Definition long_ops : list (lop N) :=
  [LRange 0 0 [3; 1; 2; 1]; LPushF 0 8; LEmpA 0 2 9; LInsA 0 1 [7; 7]; LEraA 0 0; LEraAR 0 1 3; LItems 0;
   LCopy 1 0; LRev 1; LItems 1; LRemIf 1 (N.eqb 1); LFrom 2 [4; 4; 5]; LUniq 2 N.eqb; LSwap 1 2; LItems 1;
   LSrt 2 N.ltb; LItems 2; LMer 2 1 false N.ltb; LItems 2; LItems 1; LPrint 2; LNew 3 0; LPushF 3 6; LSplA 3 1 2 true; LItems 3;
   LMovedQ 2; LFront 3; LIter 3 [true; true]; LMoveAl 4 3 0; LMoveAsg 0 4; LResize 0 2 5; LIlist 0 [1; 2; 3]; LCopyAsg 2 0;
   LInto 2 [true; true; true; true]; LMovedQ 2; LClear 0; LSize 0; LDel 0; LDel 1; LDel 2; LDel 3; LDel 4].
Lemma long_ordered : Forall ordered long_ops.
Proof. repeat (constructor; [first [exact swo_ltb|exact I]|]). constructor. Qed.
Lemma ended (r : sres (gmap nat (N * option (list N))) (list (lout N))) outs :
  match r with SOk sp o => map_to_list sp = [] /\ o = outs | _ => False end -> r = SOk ∅ outs.
Proof. destruct r; [|done|done]. intros [H ->]. by apply map_to_list_empty_iff in H as ->. Qed.
Example C14_ex dbl : exists outs, srun (gspec dbl) ∅ long_ops = SOk ∅ outs /\
  outs !! 18%nat = Some (OList [2; 3; 4; 5; 7; 9]).
Proof. destruct dbl; (eexists; split; [apply ended; vm_compute; split; reflexivity|done]). Qed.
Example C14_plain_ex dbl : forallb plain ex_ops = true /\
  match srun (lspec dbl) ∅ (ex_ops ++ [LSwap 0 3; LItems 0]) with
  | SOk _ outs => last outs = Some (OList [4; 6]) | _ => False end.
Proof. by destruct dbl. Qed.
Example C16_ex dbl : exists outs w, run_ops (list_step dbl) long_ops winit = Ok (outs, w) /\ hmap (w_heap w) = ∅.
Proof.
  destruct (C14_ex dbl) as (outs & E & _). destruct (C16_storage dbl _ _ long_ordered E) as (w & E' & H & _).
  by exists outs, w.
Qed.
(** The theorems at the lists of [ex_st]: [3; 1; 2; 1], [5], [], [4; 6] and [2; 4]. *)
Example C18_ex dbl : exists w w', reached dbl (ex_st dbl) w /\ list_step dbl (LSplA 0 2 4 false) w = Ok (OUnit, w') /\
  exists ps, nodes dbl w' 0 ps [3; 1; 2; 4; 2; 1].
Proof.
  destruct (ex_reached dbl) as [w Hr]. destruct (ex_lists dbl) as (H0 & _ & _ & _ & H4 & _).
  destruct (C18_splice_after_partial dbl _ w 0 2 4 0 _ _ false Hr ltac:(done) H0 H4 ltac:(done) ltac:(simpl; lia) ltac:(done))
    as (ps & a & mid & b & w' & _ & _ & E & Hn & _). exists w, w'. do 2 (split; [done|]). eexists. exact Hn.
Qed.
Lemma srt24 : srt N.ltb [2; 4].
Proof. by apply sortedb_srt. Qed.
Lemma srt5 : srt N.ltb [5].
Proof. by apply sortedb_srt. Qed.
Example C19_ex dbl : exists w w' w2 zs, reached dbl (ex_st dbl) w /\
  list_step dbl (LMer 4 1 false N.ltb) w = Ok (OUnit, w') /\ list_step dbl (LItems 4) w' = Ok (OList zs, w2) /\ zs ≡ₚ [2; 4; 5].
Proof.
  destruct (ex_reached dbl) as [w Hr]. destruct (ex_lists dbl) as (_ & H1 & _ & _ & H4 & _).
  destruct (C19_merge_partial dbl _ w 4 1 0 _ _ _ Hr ltac:(done) H4 H1 ltac:(done) ltac:(done) swo_ltb srt24 srt5)
    as (w' & w2 & zs & E & E2 & _ & Hp & _). by exists w, w', w2, zs.
Qed.
Example C20_ex dbl : exists w w' w2 ys, reached dbl (ex_st dbl) w /\
  list_step dbl (LSrt 0 N.ltb) w = Ok (OUnit, w') /\ list_step dbl (LItems 0) w' = Ok (OList ys, w2) /\
  srt N.ltb ys /\ ys ≡ₚ [3; 1; 2; 1].
Proof.
  destruct (ex_reached dbl) as [w Hr]. destruct (ex_lists dbl) as (H0 & _).
  destruct (C20_sort_partial dbl _ w 0 0 _ _ Hr H0 ltac:(done) swo_ltb) as (w' & w2 & ys & E & E2 & Hs & Hp & _).
  by exists w, w', w2, ys.
Qed.
Example C21_ex :
  match run_ops (list_step true) [LRange 0 0 [(1, 1); (0, 2); (1, 3)]; LSrt 0 by_fst; LItems 0] winit with
  | Ok (outs, _) => last outs = Some (OList [(0, 2); (1, 3); (1, 1)]) | _ => False end.
Proof. by vm_compute. Qed.
Example C24_ex : meets [1; 2; 3; 4] [true; false; true; true; false; true] [Some 1; Some 4; Some 2; Some 3; None; None] /\
  ~ meets [1; 2; 3] [true; false] [Some 1; Some 2] /\ ~ meets [1; 2] [true; true] [Some 1; None].
Proof.
  split; [exact (taken_meets [true; false; true; true; false; true] [1; 2; 3; 4])|]. split.
  - intros [_ (lf & H) _ _]. apply (f_equal last) in H. change (reverse _) with [2] in H. by rewrite app_assoc, last_snoc in H.
  - intros [_ _ H _]. by specialize (H 1%nat eq_refl).
Qed.
Example C26_ex : exists w w', reached true (ex_st true) w /\ list_step true (LFront 0) w = Ok (OOpt (Some 3), w') /\
  list_step true (LFrontUC 0) w = Ok (OVal 1, w).
Proof.
  destruct (ex_reached true) as [w Hr]. destruct (ex_lists true) as (H0 & _).
  destruct (C26_ends_partial true _ w 0 0 _ Hr H0) as ((w' & E & _) & _). exists w, w'. do 2 (split; [done|]).
  exact (C26_const_front_is_last true _ w 0 0 _ 1 eq_refl Hr H0 eq_refl).
Qed.
Example C27_ex dbl : exists w w', reached dbl (ex_st dbl) w /\ list_step dbl (LMoveAl 6 3 7) w = Ok (OUnit, w') /\
  exists ps, nodes dbl w' 6 ps [4; 6].
Proof.
  destruct (ex_reached dbl) as [w Hr]. destruct (ex_lists dbl) as (_ & _ & _ & H3 & _ & _ & H6).
  destruct (C27_move_partial dbl _ w 6 3 7 _ Hr H6 H3) as (ps & w' & _ & E & Hn & _).
  exists w, w'. do 2 (split; [done|]). by exists ps.
Qed.
Example C27_leak_ex : exists w w' b, reached true (ex_st true) w /\ list_step true (LMoveAl 6 5 0) w = Ok (OUnit, w') /\
  is_Some (hmap (w_heap w') !! b) /\ w_vars w' !! 5%nat = Some (Lst PNull PNull 0 7).
Proof.
  destruct (ex_reached true) as [w Hr]. destruct (ex_lists true) as (_ & _ & _ & _ & _ & H5 & H6).
  destruct (C27_move_empty_leaks true _ w 6 5 0 7 Hr H6 H5 ltac:(done)) as (a & b & c & d & w' & _ & E & _ & Hv & _ & _ & Hb & _).
  by exists w, w', b.
Qed.
Example C53_ex : match run_ops (list_step false) [LRange 0 0 [3; 1]; LPrint 0; LClear 0; LPrint 0] winit with
  | Ok (outs, _) => outs = [OUnit; OToks [POpen false; PElem 3; PSep; PElem 1; PClose]; OUnit; OToks [POpen false; PClose]]
  | _ => False end.
Proof. by vm_compute. Qed.

Print Assumptions C18_splice_after_empty_breaks.
Print Assumptions C18_splice_empty_breaks.
Print Assumptions C19_merge_into_empty_breaks.
Print Assumptions C19_merge_rvalue_undefined.
Print Assumptions C20_sort_one_breaks.
Print Assumptions C26_const_front_is_last.
Print Assumptions C27_move_elements_undefined.
Print Assumptions C27_move_empty_leaks.
Print Assumptions C23_remove_alias_undefined.
Print Assumptions C23_remove_alias_last.
Print Assumptions C15_linkage_partial.
Print Assumptions C17_emplace_after.
Print Assumptions C17_insert_after.
Print Assumptions C17_emplace.
Print Assumptions C17_insert.
Print Assumptions C17_erase_after.
Print Assumptions C17_erase_after_end.
Print Assumptions C17_erase_after_range.
Print Assumptions C17_erase.
Print Assumptions C17_erase_range.
Print Assumptions C18_splice_after_partial.
Print Assumptions C18_splice_partial.
Print Assumptions C20_sort_nodes_partial.
Print Assumptions C19_merge_nodes_partial.
Print Assumptions C22_reverse.
Print Assumptions C22_involution.
Print Assumptions C23_remove_if.
Print Assumptions C23_unique.
Print Assumptions C14_histories.
Print Assumptions C14_all_partial.
Print Assumptions C16_nodes.
Print Assumptions C16_separate.
Print Assumptions C16_storage.
Print Assumptions C20_sort_partial.
Print Assumptions C21_sort_reverses.
Print Assumptions C19_merge_partial.
Print Assumptions C24_iter.
Print Assumptions C24_into_iter.
Print Assumptions C25_refuted.
Print Assumptions C25_ends_partial.
Print Assumptions C26_ends_partial.
Print Assumptions C27_move_partial.
Print Assumptions C53_print.
Print Assumptions C15_refuted.
Print Assumptions C18_refuted.
Print Assumptions C19_refuted.
Print Assumptions C20_refuted.
Print Assumptions C21_sort_refuted.
Print Assumptions C21_merge_refuted.
Print Assumptions C21_sort_partial.
Print Assumptions C23_alias_refuted.
Print Assumptions C26_refuted.
Print Assumptions C27_refuted.
