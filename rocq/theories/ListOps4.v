(** * ListOps4: ends, traversals, removing, reversing, splicing *)
From Verif Require Import Base World IterSpec ListModel ListSeg ListOps ListOps2 ListOps3.
Local Open Scope N_scope.

Section Ops4.
  Context {T : Type} (dbl : bool).
  Notation H := (heap (cell T)).
  Notation sn := (sn dbl).
  Notation lok := (lok dbl).
  Notation lpre := (lpre dbl).
  Notation seg := (seg dbl).
  Notation oseg := (oseg dbl).
  Notation cseg := (cseg dbl).
  Notation link := (link dbl).
  Notation grow := (grow dbl).
  Notation became := (became dbl).
  Implicit Types (h : H) (a p q : N) (ns : list (N * T)).

  Lemma vls_snoc ns a (v : T) : vls (ns ++ [(a, v)]) = vls ns ++ [v].
  Proof. by rewrite vls_app. Qed.
  (** ** The ends *)
  Lemma front_ok h al hd ns tl : lok h al hd ns tl ->
    l_front (L al hd tl ns) h = Ok (head (vls ns), h).
  Proof.
    intros Lk. unfold l_front. cbn [l_len l_head L]. destruct ns as [|[a v] ns]; [done|].
    destruct (N.eqb_spec (nlen ((a, v) :: ns)) 0) as [E|_]; [done|].
    rewrite (bind_ok _ _ _ _ _ (next_at dbl h al hd [] _ tl Lk)). cbn [startp].
    by rewrite (bind_ok _ _ _ _ _ (value_at dbl h al hd [] _ _ _ _ Lk)).
  Qed.
  Lemma front_unchecked_ok h al hd a v ns tl : lok h al hd ((a, v) :: ns) tl ->
    l_front_unchecked (L al hd tl ((a, v) :: ns)) h = Ok (v, h).
  Proof.
    intros Lk. unfold l_front_unchecked. cbn [l_len l_head L].
    rewrite (bind_ok _ _ _ _ _ (next_at dbl h al hd [] _ tl Lk)). cbn [startp].
    by rewrite (value_at dbl h al hd [] _ _ _ _ Lk).
  Qed.
  Lemma back_ok h al hd ns tl : dbl = true -> lok h al hd ns tl ->
    l_back (L al hd tl ns) h = Ok (last (vls ns), h).
  Proof.
    intros Hd Lk. unfold l_back. cbn [l_len l_tail L]. destruct ns as [|[a v] ns _] using rev_ind; [done|].
    destruct (N.eqb_spec (nlen (ns ++ [(a, v)])) 0) as [E|_]; [rewrite app_length in E; simpl in E; lia|].
    rewrite (bind_ok _ _ _ _ _ (last_of dbl _ _ _ _ _ Hd Lk)). rewrite endp_app. cbn [endp].
    rewrite (bind_ok _ _ _ _ _ (value_at dbl _ _ _ _ _ _ _ _ Lk)). by rewrite vls_snoc, last_snoc.
  Qed.
  Lemma back_unchecked_ok h al hd a v ns tl : dbl = true -> lok h al hd (ns ++ [(a, v)]) tl ->
    l_back_unchecked (L al hd tl (ns ++ [(a, v)])) h = Ok (v, h).
  Proof.
    intros Hd Lk. unfold l_back_unchecked. cbn [l_len l_tail L].
    rewrite (bind_ok _ _ _ _ _ (last_of dbl _ _ _ _ _ Hd Lk)). rewrite endp_app. cbn [endp].
    by rewrite (value_at dbl _ _ _ _ _ _ _ _ Lk).
  Qed.
  Lemma front_unchecked_const_fwd h al hd a v ns tl : dbl = false -> lok h al hd ((a, v) :: ns) tl ->
    l_front_unchecked_const dbl (L al hd tl ((a, v) :: ns)) h = Ok (v, h).
  Proof. intros Hd Lk. rewrite <-(front_unchecked_ok _ _ _ _ _ _ _ Lk). unfold l_front_unchecked_const. by rewrite Hd. Qed.
  Lemma front_unchecked_const_dbl h al hd a v ns tl : dbl = true -> lok h al hd (ns ++ [(a, v)]) tl ->
    l_front_unchecked_const dbl (L al hd tl (ns ++ [(a, v)])) h = Ok (v, h).
  Proof. intros Hd Lk. rewrite <-(back_unchecked_ok _ _ _ _ _ _ _ Hd Lk). unfold l_front_unchecked_const. by rewrite Hd. Qed.
  (** ** Iterating *)
  (** [ListIter] with the middle part [mid] still to come. *)
  Lemma it_next_ok h al hd n1 mid n2 tl : lok h al hd (n1 ++ mid ++ n2) tl ->
    it_next (PAddr (startp (mid ++ n2) tl), PAddr (startp n2 tl)) h =
      Ok (match mid with
          | [] => ((PAddr (startp n2 tl), PAddr (startp n2 tl)), None)
          | (_, v) :: r => ((PAddr (startp (r ++ n2) tl), PAddr (startp n2 tl)), Some v)
          end, h).
  Proof.
    intros Lk. unfold it_next. destruct mid as [|[a v] mid]; cbn [app].
    { by rewrite decide_True. }
    cbn [startp]. rewrite decide_False.
    2:{ intros [= He]. pose proof (lk_nd _ _ _ _ _ _ Lk) as Hnd. rewrite app_assoc in Hnd.
        destruct (nd_split _ _ _ _ Hnd) as (_ & _ & N12). apply (N12 a).
        - rewrite ads_app, ads_cons. set_solver.
        - rewrite He. apply startp_in. }
    rewrite (bind_ok _ _ _ _ _ (value_at dbl _ _ _ _ _ _ _ _ Lk)).
    by rewrite (bind_ok _ _ _ _ _ (next_of dbl _ _ _ _ _ _ _ _ Lk)).
  Qed.
  Lemma it_prev_ok h al hd n1 mid n2 tl : dbl = true -> lok h al hd (n1 ++ mid ++ n2) tl ->
    it_prev (PAddr (startp (mid ++ n2) tl), PAddr (startp n2 tl)) h =
      Ok (match last mid with
          | None => ((PAddr (startp n2 tl), PAddr (startp n2 tl)), None)
          | Some (a, v) => ((PAddr (startp (mid ++ n2) tl), PAddr a), Some v)
          end, h).
  Proof.
    intros Hd Lk. unfold it_prev. destruct mid as [|[a v] mid _] using rev_ind.
    { cbn [app last]. by rewrite decide_True. }
    rewrite last_snoc. rewrite decide_False.
    2:{ intros [= He]. pose proof (lk_nd _ _ _ _ _ _ Lk) as Hnd. rewrite app_assoc in Hnd.
        destruct (nd_split _ _ _ _ Hnd) as (_ & _ & N12). apply (N12 (startp n2 tl)).
        - rewrite He, startp_app. rewrite ads_app. right. apply elem_of_app. right. apply startp_in_ne. by destruct mid.
        - apply startp_in. }
    rewrite <-app_assoc in Lk. cbn [app] in Lk. rewrite app_assoc in Lk.
    pose proof Lk as Lk2. rewrite cons_middle, app_assoc in Lk2.
    pose proof (prev_at dbl _ _ _ _ _ _ Hd Lk2) as E. rewrite endp_app in E. cbn [endp] in E.
    rewrite (bind_ok _ _ _ _ _ E). by rewrite (bind_ok _ _ _ _ _ (value_at dbl _ _ _ _ _ _ _ _ Lk)).
  Qed.
  (** Calls from both ends of a sequence. *)
  Fixpoint ends_run (xs : list T) (calls : list bool) : list (option T) :=
    match calls with
    | [] => []
    | true :: r => head xs :: ends_run (tail xs) r
    | false :: r => last xs :: ends_run (removelast xs) r
    end.
  Fixpoint ends_left (xs : list T) (calls : list bool) : list T :=
    match calls with
    | [] => xs
    | true :: r => ends_left (tail xs) r
    | false :: r => ends_left (removelast xs) r
    end.
  Lemma it_run_ok h al hd tl calls : forall n1 mid n2, lok h al hd (n1 ++ mid ++ n2) tl ->
    (dbl = true \/ Forall (fun c => c = true) calls) ->
    it_run (PAddr (startp (mid ++ n2) tl), PAddr (startp n2 tl)) calls h = Ok (ends_run (vls mid) calls, h).
  Proof.
    induction calls as [|c calls IH]; intros n1 mid n2 Lk Hc; [done|].
    assert (Hc' : dbl = true \/ Forall (fun c => c = true) calls).
    { destruct Hc as [|Hc]; [by left|right; by inversion Hc]. }
    cbn [it_run ends_run]. destruct c.
    - rewrite (bind_ok _ _ _ _ _ (it_next_ok _ _ _ _ _ _ _ Lk)). destruct mid as [|[a v] mid]; cbn [app].
      + by rewrite (bind_ok _ _ _ _ _ (IH n1 [] n2 Lk Hc')).
      + cbn [app] in Lk. rewrite cons_middle, app_assoc in Lk.
        by rewrite (bind_ok _ _ _ _ _ (IH _ mid n2 Lk Hc')).
    - assert (Hd : dbl = true) by (destruct Hc as [|Hc]; [done|by inversion Hc]).
      rewrite (bind_ok _ _ _ _ _ (it_prev_ok _ _ _ _ _ _ _ Hd Lk)).
      destruct mid as [|[a v] mid _] using rev_ind.
      + cbn [last]. by rewrite (bind_ok _ _ _ _ _ (IH n1 [] n2 Lk Hc')).
      + rewrite last_snoc. rewrite <-app_assoc in Lk |- *. cbn [app] in Lk |- *.
        pose proof (IH _ mid ((a, v) :: n2) Lk Hc') as E. cbn [startp] in E.
        rewrite (bind_ok _ _ _ _ _ E). rewrite vls_snoc.
        by rewrite last_snoc, removelast_last.
  Qed.
  Lemma iter_ok h al hd ns tl calls : lok h al hd ns tl ->
    (dbl = true \/ Forall (fun c => c = true) calls) ->
    l_iter (L al hd tl ns) calls h = Ok (ends_run (vls ns) calls, h).
  Proof.
    intros Lk Hc. unfold l_iter, it_new. cbn [l_head l_tail L]. rewrite bind_bind.
    rewrite (bind_ok _ _ _ _ _ (next_at dbl h al hd [] ns tl Lk)). rewrite bind_ret.
    pose proof Lk as Lk2. rewrite <-(app_nil_r ns) in Lk2.
    pose proof (it_run_ok h al hd tl calls [] ns [] Lk2 Hc) as E. by rewrite app_nil_r in E.
  Qed.
  Lemma collect_ok h al hd tl n2 : forall n1 fuel, lok h al hd (n1 ++ n2) tl -> (length n2 < fuel)%nat ->
    stl_collect fuel (PAddr (startp n2 tl)) (PAddr tl) h = Ok (vls n2, h).
  Proof.
    induction n2 as [|[a v] n2 IH]; intros n1 fuel Lk Hf; (destruct fuel as [|fuel]; [lia|]); simpl in Hf;
      cbn [stl_collect startp].
    { by rewrite decide_True. }
    rewrite decide_False by by eapply ne_tl.
    rewrite (bind_ok _ _ _ _ _ (value_at dbl _ _ _ _ _ _ _ _ Lk)).
    rewrite (bind_ok _ _ _ _ _ (next_of dbl _ _ _ _ _ _ _ _ Lk)).
    rewrite cons_middle, app_assoc in Lk.
    by rewrite (bind_ok _ _ _ _ _ (IH _ fuel Lk ltac:(lia))).
  Qed.
  Lemma to_list_ok h al hd ns tl : lok h al hd ns tl -> l_to_list (L al hd tl ns) h = Ok (vls ns, h).
  Proof.
    intros Lk. unfold l_to_list. cbn [l_head l_tail L].
    rewrite (bind_ok _ _ _ _ _ (next_at dbl h al hd [] ns tl Lk)).
    rewrite (bind_ok _ _ _ _ _ (fuel_ok h)). apply (collect_ok _ al hd _ _ []); [done|].
    pose proof (lok_fuel dbl _ _ _ _ _ Lk). lia.
  Qed.
  Lemma collect_back_ok h al hd ns tl n1 : dbl = true -> forall n2 fuel, lok h al hd (n1 ++ n2) tl -> (length n1 < fuel)%nat ->
    ns = n1 ++ n2 ->
    stl_collect_back fuel (PAddr (startp n2 tl)) (PAddr (startp ns tl)) h = Ok (reverse (vls n1), h).
  Proof.
    intros Hd. induction n1 as [|[a v] n1 IH] using rev_ind; intros n2 fuel Lk Hf Hns; (destruct fuel as [|fuel]; [lia|]);
      rewrite ?app_length in Hf; simpl in Hf; cbn [stl_collect_back].
    { rewrite Hns. by rewrite decide_True. }
    rewrite decide_False.
    2:{ intros [= He]. destruct (nd_split _ _ _ _ (lk_nd _ _ _ _ _ _ Lk)) as (_ & _ & N12).
        apply (N12 (startp n2 tl)); [|apply startp_in]. rewrite He, Hns, startp_app.
        right. apply startp_in_ne. by destruct n1. }
    pose proof (prev_at dbl _ _ _ _ _ _ Hd Lk) as E. rewrite endp_app in E. cbn [endp] in E.
    rewrite (bind_ok _ _ _ _ _ E). rewrite <-app_assoc in Lk, Hns. cbn [app] in Lk, Hns.
    rewrite (bind_ok _ _ _ _ _ (value_at dbl _ _ _ _ _ _ _ _ Lk)).
    pose proof (IH _ fuel Lk ltac:(lia) Hns) as E2. cbn [startp] in E2. rewrite (bind_ok _ _ _ _ _ E2).
    by rewrite vls_snoc, reverse_snoc.
  Qed.
  Lemma to_list_back_ok h al hd ns tl : dbl = true -> lok h al hd ns tl ->
    l_to_list_back (L al hd tl ns) h = Ok (reverse (vls ns), h).
  Proof.
    intros Hd Lk. unfold l_to_list_back. cbn [l_head l_tail L].
    rewrite (bind_ok _ _ _ _ _ (next_at dbl h al hd [] ns tl Lk)).
    rewrite (bind_ok _ _ _ _ _ (fuel_ok h)). pose proof Lk as Lk2. rewrite <-(app_nil_r ns) in Lk2.
    pose proof (collect_back_ok h al hd ns tl ns Hd [] (S (size (hmap h))) Lk2) as E. cbn [startp] in E. apply E.
    - pose proof (lok_fuel dbl _ _ _ _ _ Lk). lia.
    - by rewrite app_nil_r.
  Qed.

  Lemma L_less' al hd tl n1 n2 (x : N * T) : nlen (n1 ++ x :: n2) < W ->
    set_len (L al hd tl (n1 ++ x :: n2)) (usub (l_len (L al hd tl (n1 ++ x :: n2))) 1) = L al hd tl (n1 ++ n2).
  Proof. apply L_less. Qed.

  (** ** remove_if *)
  Definition kept (f : T -> bool) ns : list (N * T) := filter (fun x => f (snd x) = false) ns.
  Lemma remove_loop_ok al hd tl f n2 : forall n1 fuel h cnt,
    hwf h -> lok h al hd (n1 ++ n2) tl -> nlen (n1 ++ n2) < W -> cnt + nlen n2 < W -> (length n2 < fuel)%nat ->
    exists h', remove_loop dbl fuel (L al hd tl (n1 ++ n2)) (fun v => ret (f v)) (PAddr (endp hd n1)) (PAddr (startp n2 tl)) cnt h =
        Ok ((L al hd tl (n1 ++ kept f n2), cnt + (nlen n2 - nlen (kept f n2))), h') /\
      became h h' al hd tl (n1 ++ n2) (n1 ++ kept f n2) /\ hmoves h' = hmoves h + nlen n2.
  Proof.
    induction n2 as [|[a v] n2 IH]; intros n1 fuel h cnt Hw Lk Hlen Hcnt Hf; (destruct fuel as [|fuel]; [lia|]); simpl in Hf;
      cbn [remove_loop startp L l_tail].
    { exists h. rewrite decide_True by done. split; [|split; [by apply became_refl|simpl; lia]]. unfold ret. do 3 f_equal. simpl. lia. }
    rewrite decide_False by by eapply ne_tl.
    rewrite (bind_ok _ _ _ _ _ (value_at dbl _ _ _ _ _ _ _ _ Lk)). rewrite tk_bind. rewrite bind_ret.
    apply lok_tk in Lk. change (hwf (tk h)) in Hw.
    enough (G : exists h', (if f v then nx <-- get_next (PAddr a) ;; set_next dbl (PAddr (endp hd n1)) nx ;;;
          destroy_node (l_al (L al hd tl (n1 ++ (a, v) :: n2))) (PAddr a) ;;; cur' <-- get_next (PAddr (endp hd n1)) ;;
          remove_loop dbl fuel (set_len (L al hd tl (n1 ++ (a, v) :: n2)) (usub (l_len (L al hd tl (n1 ++ (a, v) :: n2))) 1))
            (fun v => ret (f v)) (PAddr (endp hd n1)) cur' (uadd cnt 1)
        else cur' <-- get_next (PAddr a) ;; last' <-- get_next (PAddr (endp hd n1)) ;;
          remove_loop dbl fuel (L al hd tl (n1 ++ (a, v) :: n2)) (fun v => ret (f v)) last' cur' cnt) (tk h) =
        Ok ((L al hd tl (n1 ++ kept f ((a, v) :: n2)), cnt + (nlen ((a, v) :: n2) - nlen (kept f ((a, v) :: n2)))), h') /\
      became (tk h) h' al hd tl (n1 ++ (a, v) :: n2) (n1 ++ kept f ((a, v) :: n2)) /\ hmoves h' = hmoves (tk h) + nlen n2).
    { destruct G as (h' & G1 & G2 & G3). exists h'. split; [exact G1|]. split; [by apply became_tk|].
      rewrite G3. cbn [tk hmoves length]. lia. }
    revert Lk Hw. generalize (tk h). clear h. intros h Lk Hw.
    assert (Hk : forall l, (length (kept f l) <= length l)%nat) by (intros; apply filter_length).
    pose proof (Hk n2). unfold kept. rewrite filter_cons. cbn [snd]. fold (kept f n2).
    destruct (f v) eqn:Ef.
    - rewrite decide_False by done. destruct (cut1_ok dbl h al hd n1 a v n2 tl Hw Lk) as (E1 & E2 & E3 & B).
      assert (Hlen' : nlen (n1 ++ n2) < W) by (rewrite app_length in *; cbn [length] in Hlen; lia).
      destruct (IH n1 fuel _ (cnt + 1) (became_wf _ _ _ _ _ _ _ _ B) (proj1 B)) as (h' & E & B2 & C2);
        [done|simpl in Hcnt; lia|lia|].
      exists h'. split; [|split; [by eapply became_trans|rewrite C2; by rewrite ?hm_fr, ?hm_sn]].
      rewrite (bind_ok _ _ _ _ _ (next_of dbl _ _ _ _ _ _ _ _ Lk)). rewrite (bind_ok _ _ _ _ _ E1). cbn [l_al].
      rewrite (bind_ok _ _ _ _ _ E3). rewrite (bind_ok _ _ _ _ _ (next_at dbl _ _ _ _ _ _ (proj1 B))).
      rewrite (L_less' al hd tl n1 n2 (a, v) Hlen).
      rewrite uadd_small by (simpl in Hcnt; lia). rewrite E. do 3 f_equal. cbn [length]. lia.
    - rewrite decide_True by done. pose proof Lk as Lk2. rewrite cons_middle, app_assoc in Lk2.
      rewrite (bind_ok _ _ _ _ _ (next_of dbl _ _ _ _ _ _ _ _ Lk)).
      rewrite (bind_ok _ _ _ _ _ (next_at dbl _ _ _ _ _ _ Lk)). cbn [startp].
      destruct (IH (n1 ++ [(a, v)]) fuel h cnt Hw Lk2) as (h' & E & B2 & C2).
      { by rewrite <-app_assoc. } { simpl in Hcnt; lia. } { lia. }
      exists h'. rewrite <-!app_assoc in E, B2. cbn [app] in E, B2. rewrite endp_app in E. cbn [endp] in E.
      split; [|done]. etransitivity; [exact E|]. do 3 f_equal. cbn [length]. lia.
  Qed.
  Lemma remove_if_n h al hd ns tl f : hwf h -> lok h al hd ns tl -> nlen ns < W ->
    exists h', l_remove_if dbl (L al hd tl ns) f h =
        Ok ((L al hd tl (kept f ns), nlen ns - nlen (kept f ns)), h') /\
      became h h' al hd tl ns (kept f ns) /\ hmoves h' = hmoves h + nlen ns.
  Proof.
    intros Hw Lk Hlen. unfold l_remove_if, remove_if_m. cbn [l_len l_head L].
    destruct (N.eqb_spec (nlen ns) 0) as [E|_].
    { destruct ns; [|simpl in E; lia]. exists h. split; [done|split; [by apply became_refl|simpl; lia]]. }
    destruct (remove_loop_ok al hd tl f ns [] (S (size (hmap h))) h 0 Hw Lk Hlen) as (h' & E & B & C).
    { lia. } { pose proof (lok_fuel dbl _ _ _ _ _ Lk). lia. }
    exists h'. split; [|done]. rewrite (bind_ok _ _ _ _ _ (next_at dbl h al hd [] ns tl Lk)).
    rewrite (bind_ok _ _ _ _ _ (fuel_ok h)). exact E.
  Qed.
  Lemma remove_if_ok h al hd ns tl f : hwf h -> lok h al hd ns tl -> nlen ns < W ->
    exists h', l_remove_if dbl (L al hd tl ns) f h =
        Ok ((L al hd tl (kept f ns), nlen ns - nlen (kept f ns)), h') /\
      became h h' al hd tl ns (kept f ns).
  Proof. intros Hw Lk Hl. destruct (remove_if_n h al hd ns tl f Hw Lk Hl) as (h' & E & B & _). by exists h'. Qed.

  (** ** unique *)
  (** Of the nodes behind one with value [w], those that stay. *)
  Fixpoint uniq (r : T -> T -> bool) (w : T) ns : list (N * T) :=
    match ns with
    | [] => []
    | (a, v) :: m => if r v w then uniq r w m else (a, v) :: uniq r v m
    end.
  Lemma uniq_length r w ns : (length (uniq r w ns) <= length ns)%nat.
  Proof. revert w. induction ns as [|[a v] ns IH]; intros w; simpl; [done|]. destruct (r v w); simpl; [specialize (IH w)|specialize (IH v)]; lia. Qed.
  Lemma unique_loop_ok al hd tl r n2 : forall n1 b w fuel h cnt,
    hwf h -> lok h al hd (n1 ++ (b, w) :: n2) tl -> nlen (n1 ++ (b, w) :: n2) < W -> cnt + nlen n2 < W -> (length n2 < fuel)%nat ->
    exists h', unique_loop dbl fuel (L al hd tl (n1 ++ (b, w) :: n2)) r (PAddr b) (PAddr b) (PAddr (startp n2 tl)) cnt h =
        Ok ((L al hd tl (n1 ++ (b, w) :: uniq r w n2), cnt + (nlen n2 - nlen (uniq r w n2))), h') /\
      became h h' al hd tl (n1 ++ (b, w) :: n2) (n1 ++ (b, w) :: uniq r w n2) /\ hmoves h' = hmoves h + nlen n2.
  Proof.
    induction n2 as [|[a v] n2 IH]; intros n1 b w fuel h cnt Hw Lk Hlen Hcnt Hf; (destruct fuel as [|fuel]; [lia|]); simpl in Hf;
      cbn [unique_loop startp L l_tail].
    { exists h. rewrite decide_True by done. split; [|split; [by apply became_refl|simpl; lia]]. unfold ret. do 3 f_equal. simpl. lia. }
    pose proof Lk as Lk2. rewrite cons_middle, app_assoc in Lk2.
    rewrite decide_False by by eapply ne_tl.
    rewrite (bind_ok _ _ _ _ _ (value_at dbl _ _ _ _ _ _ _ _ Lk2)).
    rewrite (bind_ok _ _ _ _ _ (value_at dbl _ _ _ _ _ _ _ _ Lk)). rewrite tk_bind. cbn [uniq].
    apply lok_tk in Lk. apply lok_tk in Lk2. change (hwf (tk h)) in Hw.
    set (ho := tk h) in *.
    match goal with |- exists h', ?lhs = @?R h' /\ @?B h' /\ _ =>
      enough (G : exists h', lhs = R h' /\ became ho h' al hd tl (n1 ++ (b, w) :: (a, v) :: n2)
                 (n1 ++ (b, w) :: if r v w then uniq r w n2 else (a, v) :: uniq r v n2) /\ hmoves h' = hmoves ho + nlen n2) end.
    { destruct G as (h' & G1 & G2 & G3). exists h'. split; [exact G1|]. split; [by apply became_tk|].
      rewrite G3. cbn [ho tk hmoves length]. lia. }
    revert Lk Lk2 Hw. generalize ho. clear ho h. intros h Lk Lk2 Hw.
    destruct (r v w) eqn:Er.
    - destruct (cut1_ok dbl h al hd (n1 ++ [(b, w)]) a v n2 tl Hw Lk2) as (E1 & E2 & E3 & B).
      assert (Hlen' : nlen (n1 ++ (b, w) :: n2) < W) by (rewrite app_length in *; cbn [length] in *; lia).
      pose proof (proj1 B) as Lk3. pose proof B as B'. rewrite <-!app_assoc in B'. cbn [app] in B'.
      destruct (IH n1 b w fuel _ (cnt + 1) (became_wf _ _ _ _ _ _ _ _ B) (proj1 B')) as (h' & E & B2 & C2);
        [done|simpl in Hcnt; lia|lia|].
      pose proof (uniq_length r w n2).
      exists h'. split; [|split; [by eapply became_trans|rewrite C2; by rewrite ?hm_fr, ?hm_sn]]. rewrite endp_app in E1. cbn [endp] in E1.
      rewrite (bind_ok _ _ _ _ _ (next_of dbl _ _ _ _ _ _ _ _ Lk2)). rewrite (bind_ok _ _ _ _ _ E1). cbn [l_al].
      rewrite endp_app in E3. cbn [endp] in E3. rewrite (bind_ok _ _ _ _ _ E3).
      pose proof (next_at dbl _ _ _ _ _ _ Lk3) as E4. rewrite endp_app in E4. cbn [endp] in E4.
      rewrite (bind_ok _ _ _ _ _ E4).
      assert (Hlen2 : nlen ((n1 ++ [(b, w)]) ++ (a, v) :: n2) < W) by by rewrite <-app_assoc.
      pose proof (L_less' al hd tl (n1 ++ [(b, w)]) n2 (a, v) Hlen2) as EL. rewrite <-!app_assoc in EL. cbn [app] in EL.
      rewrite EL. rewrite endp_app in E. cbn [endp] in E.
      rewrite uadd_small by (simpl in Hcnt; lia). rewrite E. do 3 f_equal. cbn [length]. lia.
    - destruct (IH (n1 ++ [(b, w)]) a v fuel h cnt Hw Lk2) as (h' & E & B2 & C2).
      { by rewrite <-app_assoc. } { simpl in Hcnt; lia. } { lia. }
      exists h'. rewrite <-!app_assoc in E, B2. cbn [app] in E, B2.
      rewrite (bind_ok _ _ _ _ _ (next_of dbl _ _ _ _ _ _ _ _ Lk2)).
      split; [|done]. etransitivity; [exact E|]. do 3 f_equal. cbn [length]. lia.
  Qed.
  Definition unique_of (r : T -> T -> bool) ns : list (N * T) :=
    match ns with [] => [] | (a, v) :: m => (a, v) :: uniq r v m end.
  Lemma unique_n h al hd ns tl r : hwf h -> lok h al hd ns tl -> nlen ns < W ->
    exists h', l_unique dbl (L al hd tl ns) r h =
        Ok ((L al hd tl (unique_of r ns), nlen ns - nlen (unique_of r ns)), h') /\
      became h h' al hd tl ns (unique_of r ns) /\ hmoves h' = hmoves h + (nlen ns - 1).
  Proof.
    intros Hw Lk Hlen. unfold l_unique. cbn [l_len l_head L].
    destruct (N.ltb_spec (nlen ns) 2) as [E|E].
    { exists h. destruct ns as [|[a v] [|? ?]]; [| |simpl in E; lia]; (split; [done|split; [by apply became_refl|simpl; lia]]). }
    destruct ns as [|[a v] ns]; [simpl in E; lia|].
    destruct (unique_loop_ok al hd tl r ns [] a v (S (size (hmap h))) h 0 Hw Lk Hlen) as (h' & E2 & B & C).
    { cbn [length] in Hlen. lia. } { pose proof (lok_fuel dbl _ _ _ _ _ Lk) as Hf. simpl in Hf. lia. }
    exists h'. split; [|split; [done|rewrite C; cbn [length]; lia]]. rewrite (bind_ok _ _ _ _ _ (next_at dbl h al hd [] _ tl Lk)). cbn [startp].
    rewrite (bind_ok _ _ _ _ _ (next_of dbl h al hd [] _ _ _ tl Lk)).
    rewrite (bind_ok _ _ _ _ _ (fuel_ok h)). etransitivity; [exact E2|]. cbn [app unique_of]. do 3 f_equal.
    cbn [length]. lia.
  Qed.
  Lemma unique_ok h al hd ns tl r : hwf h -> lok h al hd ns tl -> nlen ns < W ->
    exists h', l_unique dbl (L al hd tl ns) r h =
        Ok ((L al hd tl (unique_of r ns), nlen ns - nlen (unique_of r ns)), h') /\
      became h h' al hd tl ns (unique_of r ns).
  Proof. intros Hw Lk Hl. destruct (unique_n h al hd ns tl r Hw Lk Hl) as (h' & E & B & _). by exists h'. Qed.
End Ops4.
