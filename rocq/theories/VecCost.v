(** * VecCost: growing a vector in the middle of any history (C06) *)
From Verif Require Import Base World VecModel VecSpec VecFacts VecProofs VecProofs2 VecRefine VecMore VecProps.
Local Open Scope N_scope.

Section Cost.
  Context {A : Type} (dflt : A) (eqb : A -> A -> bool) (cmp : A -> A -> comparison).
  Context (sz lmax : N) (Hsz : 1 <= sz) (Hlim : sz * (2 * lmax + 2) <= alloc_max).
  Notation good := (good dflt eqb cmp lmax).
  Notation vrun := (vec_run sz dflt eqb cmp).
  Notation wok := (world_ok (vrep sz lmax)).
  Notation sstep := (vspec_step dflt eqb cmp).
  Notation step := (vec_step sz dflt eqb cmp).

  (** Calls at the end of vector [i], and how many elements they add. *)
  Definition at_end (i : nat) (o : vop A) : option N :=
    match o with
    | VPush j _ | VEmplaceBack j _ => if decide (i = j) then Some 1 else None
    | VPop j => if decide (i = j) then Some 0 else None
    | _ => None
    end.
  Definition pushes (i : nat) (ops : list (vop A)) : N := foldr N.add 0 (omap (at_end i) ops).

  Lemma pushes_cons i o d ops : at_end i o = Some d -> pushes i (o :: ops) = d + pushes i ops.
  Proof using Type. clear. intros H. unfold pushes. simpl. by rewrite H. Qed.

  Lemma vread_same p k h (z : A) h' : vread p k h = Ok (z, h') -> h' = h.
  Proof using Type.
    clear. unfold vread, bind, slot, ret, fail. destruct p as [a|]; [|done]. unfold bind, hread.
    repeat case_match; naive_solver.
  Qed.

  Lemma end_step w s i xs o d s' x : wok w s -> s !! i = Some xs -> at_end i o = Some d ->
    sstep s o = Some (s', x) -> within lmax s' ->
    exists w' v v' ys, step o w = Ok (x, w') /\ wok w' s' /\ s' !! i = Some ys /\
      w_vars w !! i = Some v /\ w_vars w' !! i = Some v' /\ v_len v = nlen xs /\ v_len v' = nlen ys /\
      nlen xs <= v_cap v /\ nlen ys <= nlen xs + d /\
      ((v_cap v' = v_cap v /\ hnext (w_heap w') = hnext (w_heap w) /\ hmoves (w_heap w') = hmoves (w_heap w)) \/
       (d = 1 /\ v_cap v = nlen xs /\ v_cap v' = (if v_cap v =? 0 then 2 else 2 * v_cap v) /\
        hnext (w_heap w') = hnext (w_heap w) + 1 /\ hmoves (w_heap w') = hmoves (w_heap w) + nlen xs)).
  Proof using Hsz Hlim.
    intros [m Hw] Hi Hd Hs Hin. destruct (world_ok_lookup_spec _ _ _ _ _ _ Hw Hi) as (e & Hm & <- & Hv & Hr).
    assert (hwf (w_heap w)) as Hwf by apply Hw. pose proof Hr as (Hl & Hc & Hmx & _).
    destruct o as [| | | | | | | | | | | | | | | | |j y|j y|j| | | | | | | | | | | | | | | | | | | |]; try done; simpl in Hd;
      (destruct (decide (i = j)) as [<-|]; [|done]); injection Hd as <-; simpl in Hs; unfold modify in Hs; rewrite Hi in Hs.
    - injection Hs as <- <-. specialize (Hin i _ (lookup_insert _ _ _)). rewrite nlen_app in Hin. change (nlen [y]) with 1 in Hin.
      destruct (push_back_full sz lmax Hsz Hlim _ _ _ _ y Hwf Hr Hin) as (v' & h' & fp' & E & Hr' & Hu & _ & H1 & H2).
      eexists _, (e_o e), v', (e_s e ++ [y]). split.
      { simpl. unfold upd1, bind, wget. rewrite Hv. unfold lift. rewrite E. reflexivity. }
      simpl. split; [eexists; by eapply (world_upd1 _ (vrep_frame sz lmax) (vrep_dom sz lmax))|].
      rewrite !lookup_insert. do 3 (split; [done|]). split; [done|]. split; [apply Hr'|]. split; [lia|].
      split; [rewrite nlen_app; done|].
      destruct (N.eq_dec (v_len (e_o e)) (v_cap (e_o e))) as [He|He].
      + right. destruct (H2 He) as (? & ? & ?). split; [done|]. split; [lia|]. done.
      + left. destruct H1 as (? & ? & ? & ?); [lia|]. done.
    - injection Hs as <- <-. specialize (Hin i _ (lookup_insert _ _ _)). rewrite nlen_app in Hin. change (nlen [y]) with 1 in Hin.
      destruct (push_back_full sz lmax Hsz Hlim _ _ _ _ y Hwf Hr Hin) as (v' & h' & fp' & E & Hr' & Hu & _ & H1 & H2).
      destruct (emplace_back_ok sz lmax Hsz Hlim _ _ _ _ y Hwf Hr Hin) as (v2 & h2 & fp2 & E2 & _).
      assert (v2 = v' /\ h2 = h') as [-> ->].
      { unfold emplace_back in E2. rewrite (bind_ok _ _ _ _ _ E) in E2. unfold bind, ret in E2.
        destruct (vread (v_ptr v') (usub (v_len v') 1) h') as [[z h3]|] eqn:Er; [|done]. injection E2 as <- _ <-.
        split; [done|]. by apply vread_same in Er. }
      eexists _, (e_o e), v', (e_s e ++ [y]). split.
      { simpl. unfold upd1o, bind, wget. rewrite Hv. unfold lift. rewrite E2. reflexivity. }
      simpl. split; [eexists; by eapply (world_upd1 _ (vrep_frame sz lmax) (vrep_dom sz lmax))|].
      rewrite !lookup_insert. do 3 (split; [done|]). split; [done|]. split; [apply Hr'|]. split; [lia|].
      split; [rewrite nlen_app; done|].
      destruct (N.eq_dec (v_len (e_o e)) (v_cap (e_o e))) as [He|He].
      + right. destruct (H2 He) as (? & ? & ?). split; [done|]. split; [lia|]. done.
      + left. destruct H1 as (? & ? & ? & ?); [lia|]. done.
    - destruct (e_s e) as [|y ys _] eqn:Ee using rev_ind; [done|].
      replace (match ys ++ [y] with [] => None | _ => Some (take (length (ys ++ [y]) - 1) (ys ++ [y]), ONone) end)
        with (Some (ys, @ONone A)) in Hs.
      2:{ rewrite app_length. simpl. replace (length ys + 1 - 1)%nat with (length ys) by lia.
          rewrite take_app. by destruct ys. }
      injection Hs as <- <-.
      destruct (pop_back_ok sz lmax Hsz Hlim _ _ _ _ _ Hwf Hr) as (h' & E & Hr' & Hu & H1 & H2).
      eexists _, (e_o e), _, ys. split.
      { simpl. unfold upd1, bind, wget. rewrite Hv. unfold lift. rewrite E. reflexivity. }
      simpl. split; [eexists; by eapply (world_upd1 _ (vrep_frame sz lmax) (vrep_dom sz lmax))|].
      rewrite !lookup_insert. do 3 (split; [done|]). split; [done|]. split; [done|]. split; [lia|].
      split; [rewrite nlen_app; lia|]. by left.
  Qed.

  (** After the buffer was last replaced by one of [2 * c] elements, [a] were
      added, counting the one that caused it. *)
  Lemma cost_after i ops : Forall (fun o => is_Some (at_end i o)) ops ->
    forall w s xs s' outs c a, wok w s -> s !! i = Some xs -> spec_run sstep s ops = Some (s', outs) ->
    along sstep (hist_ok lmax) s ops ->
    (exists v, w_vars w !! i = Some v /\ v_cap v = 2 * c) -> nlen xs <= c + a -> 1 <= c ->
    exists w' ys k, run_ops step ops w = Ok (outs, w') /\ s' !! i = Some ys /\
      nlen ys <= nlen xs + pushes i ops /\
      hmoves (w_heap w') <= hmoves (w_heap w) + 2 * (a + pushes i ops) /\
      hnext (w_heap w') = hnext (w_heap w) + k /\ (k = 0 \/ 2 ^ k * c <= c + a + pushes i ops).
  Proof using Hsz Hlim.
    induction ops as [|o ops IH]; intros Hall w s xs s' outs c a Hw Hi Hs Hal (v & Hv & Hcap) Hle Hc1.
    { injection Hs as <- <-. exists w, xs, 0. split; [done|]. split; [done|]. unfold pushes. simpl. split; [lia|]. split; [lia|]. split; [lia|]. by left. }
    apply Forall_cons in Hall as [[d Hd] Hall].
    simpl in Hs, Hal. destruct (sstep s o) as [[s1 x]|] eqn:Es; [|done]. destruct Hal as [[_ [Hin _]] Hal].
    destruct (spec_run sstep s1 ops) as [[s2 os]|] eqn:Er; [|done]. injection Hs as -> <-.
    destruct (end_step _ _ _ _ _ _ _ _ Hw Hi Hd Es Hin)
      as (w1 & v0 & v1 & ys & E1 & Hw1 & Hi1 & Hv0 & Hv1 & Hl0 & Hl1 & Hcp & Hlen & Hcase).
    rewrite Hv in Hv0. injection Hv0 as <-. rewrite (pushes_cons _ _ _ _ Hd).
    destruct Hcase as [(Hc & Hn & Hm)|(-> & Hfull & Hc & Hn & Hm)].
    - destruct (IH Hall w1 s1 ys s' os c (a + d) Hw1 Hi1 Er Hal) as (w' & zs & k & E & Hi' & H1 & H2 & H3 & H4);
        [exists v1; split; [done|lia]|lia|done|].
      exists w', zs, k. simpl. rewrite (bind_ok _ _ _ _ _ E1), (bind_ok _ _ _ _ _ E). split; [done|].
      split; [done|]. split; [lia|]. split; [lia|]. split; [lia|]. destruct H4 as [->|H4]; [by left|right; lia].
    - destruct (N.eqb_spec (v_cap v) 0); [lia|].
      destruct (IH Hall w1 s1 ys s' os (2 * c) 1 Hw1 Hi1 Er Hal) as (w' & zs & k & E & Hi' & H1 & H2 & H3 & H4);
        [exists v1; split; [done|lia]|lia|lia|].
      exists w', zs, (k + 1). simpl. rewrite (bind_ok _ _ _ _ _ E1), (bind_ok _ _ _ _ _ E). split; [done|].
      split; [done|]. split; [lia|]. split; [lia|]. split; [lia|]. right.
      rewrite N.pow_add_r. change (2 ^ 1) with 2. destruct H4 as [->|H4]; [change (2 ^ 0) with 1|]; lia.
  Qed.

  Lemma cost_any i ops : Forall (fun o => is_Some (at_end i o)) ops ->
    forall w s xs s' outs, wok w s -> s !! i = Some xs -> spec_run sstep s ops = Some (s', outs) ->
    along sstep (hist_ok lmax) s ops ->
    exists w' ys k, run_ops step ops w = Ok (outs, w') /\ s' !! i = Some ys /\
      nlen ys <= nlen xs + pushes i ops /\
      hmoves (w_heap w') <= hmoves (w_heap w) + nlen xs + 2 * pushes i ops /\
      hnext (w_heap w') = hnext (w_heap w) + k /\ (k = 0 \/ 2 ^ (k - 1) <= nlen xs + pushes i ops).
  Proof using Hsz Hlim.
    induction ops as [|o ops IH]; intros Hall w s xs s' outs Hw Hi Hs Hal.
    { injection Hs as <- <-. exists w, xs, 0. split; [done|]. split; [done|]. unfold pushes. simpl. split; [lia|]. split; [lia|]. split; [lia|]. by left. }
    apply Forall_cons in Hall as [[d Hd] Hall].
    simpl in Hs, Hal. destruct (sstep s o) as [[s1 x]|] eqn:Es; [|done]. destruct Hal as [[_ [Hin _]] Hal].
    destruct (spec_run sstep s1 ops) as [[s2 os]|] eqn:Er; [|done]. injection Hs as -> <-.
    destruct (end_step _ _ _ _ _ _ _ _ Hw Hi Hd Es Hin)
      as (w1 & v & v1 & ys & E1 & Hw1 & Hi1 & Hv & Hv1 & Hl0 & Hl1 & Hcp & Hlen & Hcase).
    rewrite (pushes_cons _ _ _ _ Hd).
    destruct Hcase as [(Hc & Hn & Hm)|(-> & Hfull & Hc & Hn & Hm)].
    - destruct (IH Hall w1 s1 ys s' os Hw1 Hi1 Er Hal) as (w' & zs & k & E & Hi' & H1 & H2 & H3 & H4).
      exists w', zs, k. simpl. rewrite (bind_ok _ _ _ _ _ E1), (bind_ok _ _ _ _ _ E). split; [done|].
      split; [done|]. split; [lia|]. split; [lia|]. split; [lia|]. destruct H4 as [->|H4]; [by left|right; lia].
    - destruct (cost_after i ops Hall w1 s1 ys s' os (v_cap v1 / 2) (nlen ys - v_cap v1 / 2) Hw1 Hi1 Er Hal)
        as (w' & zs & k & E & Hi' & H1 & H2 & H3 & H4).
      { exists v1. split; [done|]. rewrite Hc. destruct (N.eqb_spec (v_cap v) 0); [done|].
        rewrite (N.mul_comm 2 (v_cap v)), N.div_mul; lia. }
      { rewrite Hc. destruct (N.eqb_spec (v_cap v) 0); [change (2 / 2) with 1; lia|].
        rewrite (N.mul_comm 2 (v_cap v)), N.div_mul; lia. }
      { rewrite Hc. destruct (N.eqb_spec (v_cap v) 0); [done|].
        rewrite (N.mul_comm 2 (v_cap v)), N.div_mul; lia. }
      exists w', zs, (k + 1). simpl. rewrite (bind_ok _ _ _ _ _ E1), (bind_ok _ _ _ _ _ E). split; [done|].
      assert (v_cap v1 / 2 <= nlen xs + 1 /\ 1 <= v_cap v1 / 2 /\ (v_cap v1 / 2 = nlen xs \/ nlen xs = 0 /\ v_cap v1 / 2 = 1)) as (Hq & Hq1 & Hq2).
      { rewrite Hc. destruct (N.eqb_spec (v_cap v) 0); [change (2 / 2) with 1; lia|].
        rewrite (N.mul_comm 2 (v_cap v)), N.div_mul; lia. }
      split; [done|]. split; [lia|]. split; [lia|]. split; [lia|]. right.
      rewrite N.add_sub. destruct H4 as [->|H4]; [change (2 ^ 0) with 1; lia|].
      assert (2 ^ k * 1 <= 2 ^ k * (v_cap v1 / 2)) by (by apply N.mul_le_mono_l). lia.
  Qed.

  (** C06: in the middle of any history, any sequence of push_back,
      emplace_back and pop_back of one vector relocates at most its length plus
      twice the elements added, and requests a number of buffers logarithmic in
      the length. *)
  Theorem C06_growth i ops s outs xs ops2 s2 outs2 : good ops s outs -> s !! i = Some xs ->
    Forall (fun o => is_Some (at_end i o)) ops2 ->
    spec_run sstep s ops2 = Some (s2, outs2) -> along sstep (hist_ok lmax) s ops2 ->
    exists w w2 ys k, vrun ops = Ok (outs, w) /\ run_ops step ops2 w = Ok (outs2, w2) /\ s2 !! i = Some ys /\
      nlen ys <= nlen xs + pushes i ops2 /\
      hmoves (w_heap w2) <= hmoves (w_heap w) + nlen xs + 2 * pushes i ops2 /\
      hnext (w_heap w2) = hnext (w_heap w) + k /\ (k = 0 \/ 2 ^ (k - 1) <= nlen xs + pushes i ops2).
  Proof using Hsz Hlim.
    intros Hg Hi Hall Hs Hal. destruct (good_run sz lmax dflt eqb cmp Hsz Hlim _ _ _ Hg) as (w & E & Hw).
    destruct (cost_any i ops2 Hall w s xs s2 outs2 Hw Hi Hs Hal) as (w2 & ys & k & H). by exists w, w2, ys, k.
  Qed.
End Cost.

(** After the history of VecProps (vector 0 has 7 elements and room for 8): ten
    push_backs with two pop_backs between relocate 8 elements into one new
    buffer. *)
Definition ex_push : list (vop N) :=
  (VPush 0 <$> [1; 2; 3]) ++ [VPop 0; VEmplaceBack 0 4; VPop 0] ++ (VPush 0 <$> [5; 6; 7; 8; 9; 10]).
Example C06_growth_ex : match Nrun ex_ops with
  | Ok (_, w) => match run_ops (vec_step 8 0 N.eqb N.compare) ex_push w with
      | Ok (_, w2) => hmoves (w_heap w2) = hmoves (w_heap w) + 8 /\ hnext (w_heap w2) = hnext (w_heap w) + 1 /\
          pushes 0 ex_push = 10 /\ Nend ex_ops !! 0%nat = Some [5;0;6;6;8;1;0]
      | Err _ => False end
  | Err _ => False end /\ Forall (fun o => is_Some (at_end 0 o)) ex_push /\
  is_Some (spec_run (vspec_step 0 N.eqb N.compare) (Nend ex_ops) ex_push).
Proof. split; [vm_compute; done|]. split; [repeat constructor; eauto|]. vm_compute. eauto. Qed.

Example C06_growth_ex_along : along (vspec_step 0 N.eqb N.compare) (hist_ok 100) (Nend ex_ops) ex_push.
Proof. apply goodb_along. vm_compute. done. Qed.

Print Assumptions C06_growth.
