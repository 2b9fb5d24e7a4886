(** * VecBreaks: the positional calls excluded in C02 and C03 always go wrong

    No new model content; the code is that of VecModel (vector.h:543-551,
    586-668, 861-875).  VecProps proves insert and erase outside the excluded
    calls; here: in every reachable state each excluded call is undefined, or
    loses its argument and ruins the vector. *)
From Verif Require Import Base World VecModel VecSpec VecFacts VecProofs VecProofs2 VecRefine
  VecMore VecProps.
Local Open Scope N_scope.

Section Facts.
  Context {A : Type}.
  Implicit Types (h : heap (block A)).

  (** 864-871: with [pos == 0] the unsigned [hi] wraps below zero. *)
  Lemma meb_wrap a al by_ n : forall ys h c2 hi fuel,
    (1 <= n)%nat -> ys <> [] ->
    hmap h !! a = Some (Blk al by_ ((Live <$> ys) ++ replicate n Raw ++ c2)) ->
    N.of_nat (length ys + n + length c2) < W ->
    hi = N.of_nat (length ys - 1) -> (length ys < fuel)%nat ->
    meb_loop fuel (Some a) 0 (N.of_nat n) hi h = Err UB.
  Proof.
    intros ys. induction ys as [|y ys IH] using rev_ind; [done|].
    intros h c2 hi fuel Hn _ Hb HW Hhi Hf. rewrite app_length in *. simpl in *.
    destruct fuel as [|fuel]; [lia|]. simpl.
    destruct (N.leb_spec 0 hi); [|lia]. destruct n as [|n]; [lia|].
    rewrite fmap_app, <-(assoc_L app) in Hb. simpl in Hb.
    assert (Hi : hi = N.of_nat (length (Live <$> ys))) by (rewrite fmap_length; lia).
    rewrite (bind_ok _ _ _ _ _ (vmove_ok _ _ _ _ _ _ _ hi Hb Hi)).
    set (h1 := hput _ _ _ _).
    assert (Hb2 : hmap h1 !! a = Some (Blk al by_ (((Live <$> ys) ++ Moved ::
                replicate n Raw) ++ Raw :: c2))).
    { unfold h1. rewrite hput_lookup. do 2 f_equal. rewrite <-!(assoc_L app). do 2 f_equal.
      change (Raw :: replicate n Raw ++ c2) with (replicate (S n) (@Raw A) ++ c2).
      rewrite replicate_S_end, <-(assoc_L app). done. }
    assert (Hu : uadd hi (N.pos (Pos.of_succ_nat n)) =
                   N.of_nat (length ((Live <$> ys) ++ Moved :: replicate n Raw))).
    { rewrite uadd_small by lia. rewrite !app_length, fmap_length. simpl.
      rewrite replicate_length. lia. }
    rewrite (bind_ok _ _ _ _ _ (vconstruct_ok _ _ _ _ _ y _ _ Hb2 Hu)).
    set (h2 := hput _ _ _ _).
    assert (Hb3 : hmap h2 !! a = Some (Blk al by_ ((Live <$> ys) ++ Moved ::
                replicate n Raw ++ Live y :: c2))).
    { unfold h2. rewrite hput_lookup. do 2 f_equal. rewrite <-!(assoc_L app). done. }
    rewrite (bind_ok _ _ _ _ _ (vdestroy_ok _ _ _ _ _ _ _ hi Hb3 Hi ltac:(done))).
    set (h3 := hput _ _ _ _).
    assert (Hb4 : hmap h3 !! a = Some (Blk al by_ ((Live <$> ys) ++
                replicate (S n) Raw ++ (Live y :: c2)))).
    { unfold h3. rewrite hput_lookup. done. }
    change (N.pos (Pos.of_succ_nat n)) with (N.of_nat (S n)).
    destruct ys as [|z ys].
    - simpl in Hhi. subst hi. change (N.of_nat 0) with 0. rewrite usub_0_1.
      destruct fuel as [|fuel]; [simpl in Hf; lia|]. simpl.
      apply bind_err. unfold vmove. apply bind_err. eapply slot_oob; [exact Hb4|].
      simpl in HW |- *. rewrite app_length, replicate_length. simpl. unfold W in HW. lia.
    - eapply (IH h3 (Live y :: c2)); [lia|done|exact Hb4| | |].
      + simpl in HW |- *. lia.
      + rewrite usub_small by (simpl in *; lia). simpl. simpl in Hhi. lia.
      + simpl in *. lia.
  Qed.

  (** 864-871 with [count == 0]: the element is constructed onto itself. *)
  Lemma meb_self fuel a al by_ c1 y c2 p hi h :
    hmap h !! a = Some (Blk al by_ (c1 ++ Live y :: c2)) -> hi = N.of_nat (length c1) ->
    hi < W -> p <= hi -> meb_loop (S fuel) (Some a) p 0 hi h = Err UB.
  Proof.
    intros Hb Hi HW Hp. simpl. destruct (N.leb_spec p hi); [|lia].
    rewrite (bind_ok _ _ _ _ _ (vmove_ok _ _ _ _ _ _ _ hi Hb Hi)).
    apply bind_err. rewrite uadd_small by lia. rewrite N.add_0_r. unfold vconstruct.
    set (h1 := hput _ _ _ _).
    assert (Hb1 : hmap h1 !! a = Some (Blk al by_ (c1 ++ Moved :: c2)))
      by (unfold h1; by rewrite hput_lookup).
    by rewrite (bind_ok _ _ _ _ _ (slot_ok _ _ _ _ _ _ _ hi Hb1 Hi)).
  Qed.

  (** Filling more slots than there are. *)
  Lemma fill_oob a al by_ x p : forall k n h c1 i,
    hmap h !! a = Some (Blk al by_ (c1 ++ replicate k Raw)) ->
    p + i = N.of_nat (length c1) -> N.of_nat (length c1 + n) < W -> (k < n)%nat ->
    for_up n i (fun i => y <-- ret x ;; vconstruct (Some a) (uadd p i) y) h = Err UB.
  Proof.
    induction k as [|k IH]; intros n h c1 i Hb Hi HW Hk; (destruct n as [|n]; [lia|]); simpl.
    - apply bind_err. rewrite bind_ret. rewrite uadd_small by lia. unfold vconstruct. apply bind_err.
      eapply slot_oob; [exact Hb|]. simpl. rewrite app_nil_r. lia.
    - simpl in Hb. rewrite bind_bind, bind_ret. rewrite uadd_small by lia.
      rewrite (bind_ok _ _ _ _ _ (vconstruct_ok _ _ _ _ _ x _ _ Hb Hi)).
      eapply (IH n _ (c1 ++ [Live x])).
      + rewrite hput_lookup, <-(assoc_L app). done.
      + rewrite app_length. simpl. lia.
      + rewrite app_length. simpl. lia.
      + lia.
  Qed.

  Lemma run_app {St Op Out} (step : Op -> M St Out) ops1 ops2 : forall w outs w1,
    run_ops step ops1 w = Ok (outs, w1) ->
    run_ops step (ops1 ++ ops2) w =
      match run_ops step ops2 w1 with Ok (o2, w2) => Ok (outs ++ o2, w2) | Err e => Err e end.
  Proof.
    induction ops1 as [|o ops1 IH]; intros w outs w1; simpl.
    - intros [= <- <-]. by destruct (run_ops step ops2 w) as [[? ?]|].
    - unfold bind. destruct (step o w) as [[x t]|]; [|done].
      destruct (run_ops step ops1 t) as [[ys u]|] eqn:E; [|done]. intros [= <- <-].
      rewrite (IH _ _ _ E). by destruct (run_ops step ops2 u) as [[? ?]|].
  Qed.
End Facts.

Section Breaks.
  Context {A : Type} (sz lmax : N).
  Context (Hsz : 1 <= sz) (Hlim : sz * (2 * lmax + 2) <= alloc_max).
  Implicit Types (h : heap (block A)) (v : vec) (xs ys : list A) (fp : list N).
  Notation vrep := (@vrep A sz lmax).

  Lemma meb_zero h v xs fp p :
    vrep h v xs fp -> p < nlen xs -> nlen xs <= lmax -> move_elements_back sz v p 0 h = Err UB.
  Proof using Hsz Hlim.
    intros Hr Hp Hmax. assert (Hl : v_len v = nlen xs) by apply Hr.
    destruct (cmax_W sz lmax Hsz Hlim (2 * lmax + 2)) as (_&_&HW); [lia|].
    destruct Hr as (_ & Hc & _ & Hptr). unfold move_elements_back.
    rewrite (proj2 (N.eqb_neq _ _)) by lia. rewrite uadd_small, N.add_0_r by lia.
    rewrite (proj2 (N.ltb_ge _ _)) by done. rewrite bind_ret.
    destruct (v_ptr v) as [a|]; [|lia]. destruct Hptr as [_ Hb].
    destruct (snoc_inv xs) as (zs & z & ->). { intros ->. unfold nlen in *. simpl in *. lia. }
    unfold vcells in Hb. rewrite fmap_app, <-(assoc_L app) in Hb. simpl in Hb.
    apply bind_err. rewrite nlen_app in *. change (nlen [z]) with 1 in *.
    eapply meb_self; [exact Hb| | |].
    - rewrite fmap_length, usub_small by lia. unfold nlen in *. lia.
    - rewrite usub_small by lia. lia.
    - rewrite usub_small by lia. lia.
  Qed.

  Lemma meb_begin h v xs fp n :
    hwf h -> vrep h v xs fp -> xs <> [] -> nlen xs + n <= lmax ->
    move_elements_back sz v 0 n h = Err UB.
  Proof using Hsz Hlim.
    intros Hwf Hr Hxs Hmax.
    assert (0 < nlen xs) by (destruct xs; [done|unfold nlen; simpl; lia]).
    destruct (N.eq_dec n 0) as [->|Hn].
    { eapply meb_zero; [done|lia|lia]. }
    assert (Hl : v_len v = nlen xs) by apply Hr.
    destruct (cmax_W sz lmax Hsz Hlim (2 * lmax + 2)) as (_&_&HW); [lia|].
    unfold move_elements_back. rewrite (proj2 (N.eqb_neq _ _)) by lia.
    rewrite uadd_small by lia.
    assert (exists v1 h1 fp1, (if v_cap v <? v_len v + n then reserve sz v (v_len v + n) else ret v) h
        = Ok (v1, h1) /\ vrep h1 v1 xs fp1 /\ v_len v + n <= v_cap v1) as (v1&h1&fp1&E1&Hr1&Hc1).
    { destruct (N.ltb_spec (v_cap v) (v_len v + n)).
      - destruct (reserve_full sz lmax Hsz Hlim h v _ fp (v_len v + n) Hwf Hr) as
          (v1&h1&fp1&E1&Hr1&Hu1&Hc1&_); [lia|].
        exists v1, h1, fp1. split; [done|]. split; [done|]. lia.
      - exists v, h, fp. done. }
    rewrite (bind_ok _ _ _ _ _ E1). apply bind_err.
    assert (Hl1 : v_len v1 = nlen xs) by apply Hr1.
    destruct Hr1 as (_ & Hcc & Hm & Hp). destruct (v_ptr v1) as [a|]; [|lia]. destruct Hp as [_ Hb].
    rewrite <-(N2Nat.id n).
    eapply (meb_wrap a _ _ (N.to_nat n) xs h1
      (replicate (N.to_nat (v_cap v1) - length xs - N.to_nat n) Raw)); try done; try lia.
    - rewrite Hb. unfold vcells. rewrite <-replicate_add. do 4 f_equal. unfold nlen in *. lia.
    - rewrite replicate_length. unfold nlen in *. lia.
    - rewrite usub_small by lia. unfold nlen in *. lia.
    - unfold nlen in *. lia.
  Qed.

  Lemma meb_empty h v p n : v_len v = 0 -> move_elements_back sz v p n h = Ok (v, h).
  Proof using Type. clear. intros H. unfold move_elements_back. by rewrite H. Qed.

  (** *** An element placed in the buffer of a vector that still counts none *)
  Definition stray h v : Prop :=
    v_len v = 0 /\ 1 <= v_cap v /\ v_cap v <= 2 * lmax + 2 /\
    exists a z c, v_ptr v = Some a /\
      hmap h !! a = Some (Blk (v_alloc v) (sz * v_cap v) (Live z :: c)).

  Lemma stray_iter h v : stray h v -> collect v h = Ok ([], h).
  Proof using Type. clear Hsz Hlim.
    intros (Hl & _). unfold collect, iter. rewrite Hl. done.
  Qed.
  Lemma stray_clear h v : stray h v -> clear sz v h = Err Leak.
  Proof using Hsz Hlim.
    intros (Hl & Hc & Hm & a & z & c & Hp & Hb).
    destruct (cmax_W sz lmax Hsz Hlim (v_cap v) Hm) as (_&HW&_).
    unfold clear, destroy_all. rewrite Hl. simpl. rewrite bind_bind, bind_ret, bind_ret.
    unfold deallocate. apply bind_err. simpl. rewrite Hp. unfold dealloc_raw, bind, hread. rewrite Hb.
    simpl. rewrite N.eqb_refl. simpl. rewrite umul_small by lia. rewrite (N.mul_comm (v_cap v)), N.eqb_refl.
    done.
  Qed.
  Lemma stray_push h v x : stray h v -> push_back sz v x h = Err UB.
  Proof using Type. clear Hsz Hlim.
    intros (Hl & Hc & Hm & a & z & c & Hp & Hb). unfold push_back, push_back_m.
    rewrite (proj2 (N.leb_gt _ _)) by lia. rewrite !bind_ret. apply bind_err. rewrite Hl, Hp.
    unfold vconstruct. by rewrite (bind_ok _ _ _ _ _ (slot_ok h a _ _ [] _ _ 0 Hb eq_refl)).
  Qed.

  Lemma emplace_empty h v fp x :
    hwf h -> vrep h v [] fp -> 1 <= lmax ->
    exists v' h', emplace sz v 0 x h = Ok (v', h') /\ stray h' v'.
  Proof using Hsz Hlim.
    intros Hwf Hr Hmax. unfold emplace.
    assert ((if v_len v =? v_cap v then extend_space sz v else ret v) =
            (if v_cap v <=? v_len v then extend_space sz v else ret v)) as ->.
    { destruct Hr as (_ & Hc & _).
      destruct (N.eqb_spec (v_len v) (v_cap v)), (N.leb_spec (v_cap v) (v_len v)); done || lia. }
    destruct (grow_full sz lmax Hsz Hlim h v _ fp Hwf Hr Hmax) as (v1&h1&fp1&E1&Hr1&Hu1&Hlt&_).
    rewrite (bind_ok _ _ _ _ _ E1).
    assert (Hl : v_len v1 = 0) by apply Hr1.
    rewrite (bind_ok _ _ _ _ _ (meb_empty _ _ _ _ Hl)).
    destruct Hr1 as (_ & Hc & Hm & Hp). destruct (v_ptr v1) as [a|] eqn:Ep; [|lia].
    destruct Hp as [_ Hb]. unfold vcells in Hb. simpl in Hb.
    destruct (N.to_nat (v_cap v1)) as [|k] eqn:Ek; [lia|]. simpl in Hb.
    rewrite (bind_ok _ _ _ _ _ (vconstruct_ok h1 a _ _ [] x _ 0 Hb eq_refl)).
    eexists _, _. split; [done|]. split; [done|]. split; [lia|]. split; [done|].
    eexists a, x, _. split; [done|]. by rewrite hput_lookup.
  Qed.

  Lemma insert_range_empty h v fp y ys :
    hwf h -> vrep h v [] fp -> nlen (y :: ys) <= lmax ->
    exists v' h', insert_range sz v 0 (y :: ys) h = Ok ((v', 0), h') /\ stray h' v'.
  Proof using Hsz Hlim.
    intros Hwf Hr Hmax. unfold insert_range.
    assert (Hl : v_len v = 0) by apply Hr.
    destruct (cmax_W sz lmax Hsz Hlim (2 * lmax + 2)) as (_&_&HW); [lia|].
    change (N.of_nat (length (y :: ys))) with (nlen (y :: ys)).
    rewrite uadd_small by lia. rewrite Hl, N.add_0_l.
    assert (exists v1 h1 fp1, (if v_cap v <? nlen (y :: ys)
       then allocate_reserve sz v (nlen (y :: ys)) else ret v) h = Ok (v1, h1) /\
       vrep h1 v1 [] fp1 /\ nlen (y :: ys) <= v_cap v1) as (v1&h1&fp1&E1&Hr1&Hc1).
    { destruct (N.ltb_spec (v_cap v) (nlen (y :: ys))).
      - destruct (allocate_reserve_ok sz lmax Hsz Hlim h v [] fp (nlen (y :: ys)) Hwf Hr)
          as (h1&E1&Hr1&Hu1&_); [change (nlen (@nil A)) with 0; lia|lia|].
        eexists _, h1, _. split; [done|]. split; [done|]. cbn [v_cap]. lia.
      - by exists v, h, fp. }
    rewrite (bind_ok _ _ _ _ _ E1).
    assert (Hl1 : v_len v1 = 0) by apply Hr1.
    rewrite (bind_ok _ _ _ _ _ (meb_empty _ _ _ _ Hl1)).
    destruct Hr1 as (_ & Hc & Hm & Hp).
    assert (1 <= v_cap v1) by (unfold nlen in *; simpl in *; lia).
    destruct (v_ptr v1) as [a|] eqn:Ep; [|lia].
    destruct Hp as [_ Hb].
    assert (vcells (@nil A) (v_cap v1) = [] ++ replicate (length (y :: ys)) Raw ++
      replicate (N.to_nat (v_cap v1) - length (y :: ys)) Raw) as Hcs.
    { assert (length (y :: ys) <= N.to_nat (v_cap v1))%nat by (unfold nlen in *; lia).
      unfold vcells. rewrite !app_nil_l, <-replicate_add. f_equal. cbn [length] in *. lia. }
    rewrite Hcs in Hb.
    rewrite (bind_ok _ _ _ _ _ (construct_run a _ _ (y :: ys) h1 [] _ 0 Hb eq_refl)).
    eexists _, _. split; [done|]. split; [done|]. split; [done|]. split; [done|].
    eexists a, y, _. split; [done|]. rewrite hput_lookup. done.
  Qed.

  Lemma insert_fill_empty h v fp n x :
    hwf h -> vrep h v [] fp -> 1 <= n -> n <= lmax ->
    (v_cap v < n -> insert_fill_m sz v 0 n (ret x) h = Err UB) /\
    (n <= v_cap v -> exists h', insert_fill_m sz v 0 n (ret x) h = Ok ((v, 0), h') /\ stray h' v).
  Proof using Hsz Hlim.
    intros Hwf Hr Hn Hmax. unfold insert_fill_m.
    assert (Hl : v_len v = 0) by apply Hr.
    destruct (cmax_W sz lmax Hsz Hlim (2 * lmax + 2)) as (_&_&HW); [lia|].
    rewrite (bind_ok _ _ _ _ _ (meb_empty _ _ _ _ Hl)).
    destruct Hr as (_ & Hc & Hm & Hp). destruct (v_ptr v) as [a|] eqn:Ep.
    - destruct Hp as [_ Hb]. unfold vcells in Hb. simpl in Hb. split; intros Hlt.
      + apply bind_err. rewrite Nat.sub_0_r in Hb.
        eapply (fill_oob a _ _ x 0 (N.to_nat (v_cap v)) _ h []); [exact Hb|done|simpl; lia|lia].
      + assert (replicate (N.to_nat (v_cap v) - 0) (@Raw A) = [] ++ replicate (N.to_nat n) Raw ++
          replicate (N.to_nat (v_cap v) - N.to_nat n) Raw) as Hcs.
        { simpl app. rewrite <-replicate_add. f_equal. lia. }
        rewrite Hcs in Hb.
        rewrite (bind_ok _ _ _ _ _ (fill_run a _ _ x 0 (N.to_nat n) h [] _ 0 Hb eq_refl ltac:(simpl; lia))).
        eexists. split; [done|]. split; [done|]. split; [lia|]. split; [done|].
        destruct (N.to_nat n) as [|k] eqn:Ek; [lia|].
        eexists a, x, _. split; [done|]. rewrite hput_lookup. done.
    - destruct Hp as [H0 _]. split; [|lia]. intros _. apply bind_err.
      destruct (N.to_nat n) as [|k] eqn:Ek; [lia|]. simpl. apply bind_err. by rewrite bind_ret.
  Qed.

  Lemma erase_empty h v xs fp p :
    vrep h v xs fp -> p < nlen xs -> nlen xs <= lmax -> erase_range v p p h = Err UB.
  Proof using Type. clear Hsz Hlim.
    intros Hr Hp Hm. assert (Hl : v_len v = nlen xs) by apply Hr.
    unfold erase_range. rewrite (proj2 (N.ltb_ge _ _)) by lia. apply bind_err. unfold std_move.
    rewrite N.leb_refl, (proj2 (N.ltb_lt _ _)) by lia. done.
  Qed.
End Breaks.

(** The ways of inserting the values [ys] before position [p] of vector [i],
    and what the call returns. *)
Inductive insertion {A} (i : nat) (p : N) : vop A -> list A -> vout A -> Prop :=
| Ins_insert x : insertion i p (VInsert i p x) [x] (OIdx (Some p))
| Ins_emplace x : insertion i p (VEmplace i p x) [x] ONone
| Ins_fill n x : insertion i p (VInsertFill i p n x) (nrep n x) (OIdx (Some p))
| Ins_range ys : insertion i p (VInsertRange i p ys) ys (OIdx (Some p)).

Section Props.
  Context {A : Type} (dflt : A) (eqb : A -> A -> bool) (cmp : A -> A -> comparison).
  Context (sz lmax : N) (Hsz : 1 <= sz) (Hlim : sz * (2 * lmax + 2) <= alloc_max).
  Notation good := (good dflt eqb cmp lmax).
  Notation vrun := (vec_run sz dflt eqb cmp).
  Notation step := (vec_step sz dflt eqb cmp).

  Lemma good_at ops s outs i xs :
    good ops s outs -> s !! i = Some xs ->
    exists w v fp, vrun ops = Ok (outs, w) /\ w_vars w !! i = Some v /\ hwf (w_heap w) /\
      vrep sz lmax (w_heap w) v xs fp /\ nlen xs <= lmax.
  Proof using Hsz Hlim.
    intros Hg Hi. destruct (good_run sz lmax dflt eqb cmp Hsz Hlim _ _ _ Hg) as (w & E & m & Hw).
    destruct (world_ok_lookup_spec _ _ _ _ _ _ Hw Hi) as (e & _ & _ & Hv & Hr).
    exists w, (e_o e), (e_fp e). repeat (split; [done|]). split; [by eapply wo_wf|].
    split; [done|]. by eapply (good_within _ _ _ _ _ _ _ Hg).
  Qed.

  Lemma upd1_run i f w v v' h' :
    w_vars w !! i = Some v -> f v (w_heap w) = Ok (v', h') ->
    upd1 (A := A) i f w = Ok (ONone, World h' (<[i := v']> (w_vars w))).
  Proof using Type. clear Hsz Hlim. intros Hv E. unfold upd1, bind, wget, lift, wset, ret. by rewrite Hv, E. Qed.
  Lemma upd1o_run {X} i f (g : X -> vout A) w v v' x h' :
    w_vars w !! i = Some v -> f v (w_heap w) = Ok ((v', x), h') ->
    upd1o i f g w = Ok (g x, World h' (<[i := v']> (w_vars w))).
  Proof using Type. clear Hsz Hlim. intros Hv E. unfold upd1o, bind, wget, lift, wset, ret. by rewrite Hv, E. Qed.
  Lemma upd1_fails i f w v e :
    w_vars w !! i = Some v -> f v (w_heap w) = Err e -> upd1 (A := A) i f w = Err e.
  Proof using Type. clear Hsz Hlim. intros Hv E. unfold upd1, bind, wget, lift. by rewrite Hv, E. Qed.
  Lemma upd1o_fails {X} i f (g : X -> vout A) w v e :
    w_vars w !! i = Some v -> f v (w_heap w) = Err e -> upd1o i f g w = Err e.
  Proof using Type. clear Hsz Hlim. intros Hv E. unfold upd1o, bind, wget, lift. by rewrite Hv, E. Qed.

  Lemma vrun_fails ops os outs w o e :
    vrun ops = Ok (outs, w) -> step o w = Err e -> vrun (ops ++ o :: os) = Err e.
  Proof using Type. clear Hsz Hlim.
    intros E Ho. unfold vec_run. rewrite (run_app _ _ _ _ _ _ E). simpl. unfold bind. by rewrite Ho.
  Qed.

  Lemma insertion_ub i p o ys out w v xs fp :
    w_vars w !! i = Some v -> hwf (w_heap w) -> vrep sz lmax (w_heap w) v xs fp ->
    insertion i p o ys out -> xs <> [] -> nlen xs + nlen ys <= lmax ->
    p = 0 \/ (ys = [] /\ p < nlen xs) -> step o w = Err UB.
  Proof using Hsz Hlim.
    intros Hv Hwf Hr Hi Hne Hl Hp.
    assert (Hlen : v_len v = nlen xs) by apply Hr.
    destruct (cmax_W sz lmax Hsz Hlim (2 * lmax + 2)) as (_&_&HW); [lia|].
    assert (Hem : forall x, p = 0 -> nlen xs + 1 <= lmax -> emplace sz v p x (w_heap w) = Err UB).
    { intros x -> Hl1. unfold emplace.
      assert ((if v_len v =? v_cap v then extend_space sz v else ret v) =
            (if v_cap v <=? v_len v then extend_space sz v else ret v)) as ->.
      { destruct Hr as (_ & Hc & _).
        destruct (N.eqb_spec (v_len v) (v_cap v)), (N.leb_spec (v_cap v) (v_len v)); done || lia. }
      destruct (grow_full sz lmax Hsz Hlim _ v _ fp Hwf Hr ltac:(lia)) as (v1&h1&fp1&E1&Hr1&Hu1&_).
      rewrite (bind_ok _ _ _ _ _ E1). apply bind_err.
      eapply (meb_begin sz lmax Hsz Hlim); [by eapply upd_wf|done|done|lia]. }
    destruct Hi as [x|x|n x|ys]; simpl step.
    - destruct Hp as [Hp|[? _]]; [|done]. eapply upd1o_fails; [done|]. unfold insert1.
      apply bind_err. by apply Hem.
    - destruct Hp as [Hp|[? _]]; [|done]. eapply upd1_fails; [done|]. by apply Hem.
    - assert (nlen (nrep n x) = n) as Hn.
      { unfold nlen, nrep. rewrite replicate_length. lia. }
      rewrite Hn in Hl. eapply upd1o_fails; [done|]. unfold insert_fill_m. apply bind_err.
      destruct Hp as [->|[H0 Hp]].
      + by eapply (meb_begin sz lmax Hsz Hlim).
      + assert (n = 0) as -> by (rewrite <-Hn, H0; done).
        eapply (meb_zero sz lmax Hsz Hlim); [done|done|lia].
    - eapply upd1o_fails; [done|]. unfold insert_range.
      change (N.of_nat (length ys)) with (nlen ys). rewrite uadd_small by lia. rewrite Hlen.
      assert (exists v1 h1 fp1, (if v_cap v <? nlen xs + nlen ys
        then allocate_reserve sz v (nlen xs + nlen ys) else ret v) (w_heap w) = Ok (v1, h1) /\
        vrep sz lmax h1 v1 xs fp1 /\ hwf h1) as (v1&h1&fp1&E1&Hr1&Hwf1).
      { destruct (N.ltb_spec (v_cap v) (nlen xs + nlen ys)).
        - destruct (allocate_reserve_ok sz lmax Hsz Hlim _ v xs fp (nlen xs + nlen ys) Hwf Hr)
            as (h1&E1&Hr1&Hu1&_); [lia|lia|].
          eexists _, h1, _. split; [done|]. split; [done|]. by eapply upd_wf.
        - by exists v, (w_heap w), fp. }
      rewrite (bind_ok _ _ _ _ _ E1). apply bind_err. destruct Hp as [->|[-> Hp]].
      + by eapply (meb_begin sz lmax Hsz Hlim).
      + eapply (meb_zero sz lmax Hsz Hlim); [done|done|]. change (nlen (@nil A)) with 0 in Hl. lia.
  Qed.

  Lemma insertion_stray i p o ys out w v fp :
    w_vars w !! i = Some v -> hwf (w_heap w) -> vrep sz lmax (w_heap w) v [] fp ->
    insertion i p o ys out -> ys <> [] -> p = 0 -> nlen ys <= lmax ->
    (exists n x, o = VInsertFill i p n x /\ v_cap v < n /\ step o w = Err UB) \/
    (exists v' h', step o w = Ok (out, World h' (<[i := v']> (w_vars w))) /\
       stray sz lmax h' v').
  Proof using Hsz Hlim.
    intros Hv Hwf Hr Hi Hne -> Hl. destruct Hi as [x|x|n x|ys]; simpl step.
    - right. destruct (emplace_empty sz lmax Hsz Hlim _ _ _ x Hwf Hr Hl) as (v'&h'&E&Hs).
      exists v', h'. split; [|done].
      apply (upd1o_run i _ (fun k => OIdx (Some k)) w v v' 0 h' Hv). unfold insert1.
      by rewrite (bind_ok _ _ _ _ _ E).
    - right. destruct (emplace_empty sz lmax Hsz Hlim _ _ _ x Hwf Hr Hl) as (v'&h'&E&Hs).
      exists v', h'. split; [|done]. by eapply upd1_run.
    - assert (nlen (nrep n x) = n) as Hn.
      { unfold nlen, nrep. rewrite replicate_length. lia. }
      assert (1 <= n). { destruct (N.eq_dec n 0) as [->|]; [done|lia]. }
      destruct (insert_fill_empty sz lmax Hsz Hlim _ _ _ n x Hwf Hr) as [H1 H2]; [done|lia|].
      destruct (N.lt_ge_cases (v_cap v) n) as [Hlt|Hge].
      + left. exists n, x. split; [done|]. split; [done|]. eapply upd1o_fails; [done|]. by apply H1.
      + right. destruct (H2 Hge) as (h'&E&Hs). exists v, h'. split; [|done].
        by apply (upd1o_run i _ (fun k => OIdx (Some k)) w v v 0 h' Hv).
    - right. destruct ys as [|y ys]; [done|].
      destruct (insert_range_empty sz lmax Hsz Hlim _ _ _ y ys Hwf Hr Hl) as (v'&h'&E&Hs).
      exists v', h'. split; [|done].
      by apply (upd1o_run i _ (fun k => OIdx (Some k)) w v v' 0 h' Hv).
  Qed.

  (** *** C02: undefined before the first element, and for nothing inserted
      before an existing element. *)
  Theorem C02_insert_ub ops s outs i xs p o ys out :
    good ops s outs -> s !! i = Some xs -> insertion i p o ys out -> xs <> [] ->
    nlen xs + nlen ys <= lmax -> p = 0 \/ (ys = [] /\ p < nlen xs) ->
    forall os, vrun (ops ++ o :: os) = Err UB.
  Proof using Hsz Hlim.
    intros Hg Hi Ho Hne Hl Hp os. destruct (good_at _ _ _ _ _ Hg Hi) as (w&v&fp&E&Hv&Hwf&Hr&_).
    eapply vrun_fails; [done|]. by eapply insertion_ub.
  Qed.

  (** Into an empty vector: the values are lost, and the vector is ruined. *)
  Theorem C02_insert_lost ops s outs i o ys out :
    good ops s outs -> s !! i = Some [] -> insertion i 0 o ys out -> ys <> [] -> nlen ys <= lmax ->
    exists w v, vrun ops = Ok (outs, w) /\ w_vars w !! i = Some v /\
    ((exists n x, o = VInsertFill i 0 n x /\ capacity v < n /\ forall os, vrun (ops ++ o :: os) = Err UB) \/
     ((exists w', vrun (ops ++ [o; VSize i; VIterAll i]) =
         Ok (outs ++ [out; ONum 0; OSeq []], w')) /\
      (forall os, vrun (ops ++ o :: VDestroy i :: os) = Err Leak) /\
      (forall os, vrun (ops ++ o :: VClear i :: os) = Err Leak) /\
      (forall y os, vrun (ops ++ o :: VPush i y :: os) = Err UB))).
  Proof using Hsz Hlim.
    intros Hg Hi Ho Hne Hl. destruct (good_at _ _ _ _ _ Hg Hi) as (w&v&fp&E&Hv&Hwf&Hr&_).
    exists w, v. split; [done|]. split; [done|].
    destruct (insertion_stray _ _ _ _ _ _ _ _ Hv Hwf Hr Ho Hne eq_refl Hl) as
      [(n&x&->&Hc&Eo)|(v'&h'&Eo&Hs)].
    - left. exists n, x. split; [done|]. split; [done|]. intros os. by eapply vrun_fails.
    - right. unfold vec_run in *. split.
      + eexists. rewrite (run_app _ _ _ _ _ _ E). simpl. unfold bind at 1. rewrite Eo.
        unfold obs, bind, wget, lift, ret. cbn [w_vars w_heap]. rewrite lookup_insert. cbn [w_vars w_heap].
        rewrite lookup_insert. cbn [w_vars w_heap].
        rewrite (stray_iter _ _ _ _ Hs). unfold size. by rewrite (proj1 Hs).
      + repeat split; intros; rewrite (run_app _ _ _ _ _ _ E); simpl; unfold bind at 1; rewrite Eo;
          unfold upd1, bind, wget, lift; cbn [w_vars w_heap]; rewrite lookup_insert; cbn [w_vars w_heap].
        * by rewrite (stray_clear sz lmax Hsz Hlim _ _ Hs).
        * by rewrite (stray_clear sz lmax Hsz Hlim _ _ Hs).
        * by rewrite (stray_push sz lmax _ _ _ Hs).
  Qed.

  (** Exactly when insertion works. *)
  Theorem C02_insert_exact ops s outs i xs p o ys out :
    good ops s outs -> s !! i = Some xs -> insertion i p o ys out -> p <= nlen xs ->
    nlen xs + nlen ys <= lmax ->
    (exists w, vrun (ops ++ [o; VIterAll i; VDestroy i]) =
       Ok (outs ++ [out; OSeq (ntake p xs ++ ys ++ ndrop p xs); ONone], w)) <->
    (xs = [] /\ ys = []) \/ (xs <> [] /\ p <> 0 /\ (ys <> [] \/ p = nlen xs)).
  Proof using Hsz Hlim.
    intros Hg Hi Ho Hp Hl. split.
    - intros [w E]. destruct xs as [|x0 xs0] eqn:Exs.
      + destruct ys as [|y ys]; [by left|]. exfalso.
        change (nlen (@nil A)) with 0 in *. assert (p = 0) as -> by lia.
        destruct (good_at _ _ _ _ _ Hg Hi) as (w0&v&fp&E0&Hv&Hwf&Hr&_).
        destruct (insertion_stray _ _ _ _ _ _ _ _ Hv Hwf Hr Ho ltac:(done) eq_refl) as
          [(n&x&_&_&Eo)|(v'&h'&Eo&Hs)]; [lia| |].
        * by rewrite (vrun_fails _ _ _ _ _ _ E0 Eo) in E.
        * unfold vec_run in *. rewrite (run_app _ _ _ _ _ _ E0) in E. simpl in E.
          unfold bind at 1 in E. rewrite Eo in E.
          unfold obs, bind, wget, lift, ret in E. cbn [w_vars w_heap] in E.
          rewrite lookup_insert in E. cbn [w_vars w_heap] in E.
          rewrite (stray_iter _ _ _ _ Hs) in E. cbn [w_vars w_heap] in E.
          rewrite lookup_insert in E. cbn [w_vars w_heap] in E.
          by rewrite (stray_clear sz lmax Hsz Hlim _ _ Hs) in E.
      + right. split; [done|]. subst.
        assert (Hub := C02_insert_ub _ _ _ _ _ _ _ _ _ Hg Hi Ho ltac:(done) Hl).
        split. { intros ->. by rewrite Hub in E by (by left). }
        destruct ys as [|y ys]; [|by left]. right.
        destruct (N.lt_ge_cases p (nlen (x0 :: xs0))); [|lia]. by rewrite Hub in E by (by right).
    - intros [[-> ->]|(Hne & H0 & Hys)].
      + change (nlen (@nil A)) with 0 in *. assert (p = 0) as -> by lia.
        destruct (good_at _ _ _ _ _ Hg Hi) as (w&v&fp&E&Hv&Hwf&Hr&_).
        assert (Hlen : v_len v = 0) by apply Hr.
        assert (Hsame : World (w_heap w) (<[i := v]> (w_vars w)) = w).
        { rewrite (insert_id _ _ _ Hv). by destruct w. }
        assert (step o w = Ok (out, w)) as Eo.
        { rewrite <-Hsame at 2. remember (@nil A) as zs eqn:Ezs. destruct Ho as [x|x|n x|ys]; try done.
          - assert (n = 0) as ->.
            { apply (f_equal length) in Ezs. unfold nrep in Ezs. rewrite replicate_length in Ezs. simpl in Ezs. lia. }
            apply (upd1o_run i _ (fun k => OIdx (Some k)) w v v 0 _ Hv). unfold insert_fill_m.
            by rewrite (bind_ok _ _ _ _ _ (meb_empty sz _ _ _ _ Hlen)).
          - subst ys. apply (upd1o_run i _ (fun k => OIdx (Some k)) w v v 0 _ Hv). unfold insert_range.
            rewrite Hlen. change (uadd 0 (N.of_nat (length []))) with 0.
            rewrite (proj2 (N.ltb_ge _ _)) by lia. rewrite bind_ret.
            by rewrite (bind_ok _ _ _ _ _ (meb_empty sz _ _ _ _ Hlen)). }
        assert (good ((ops ++ [VIterAll i]) ++ [VDestroy i]) (delete i s) ((outs ++ [OSeq []]) ++ [ONone])) as Hg2.
        { eapply good_snoc; [eapply good_snoc; [done| |done|done|by eapply good_within]| |done|done|].
          - simpl. unfold observe. by rewrite Hi.
          - simpl. by rewrite Hi.
          - intros j zs Hj. apply lookup_delete_Some in Hj as [_ Hj].
            by eapply (good_within _ _ _ _ _ _ _ Hg). }
        rewrite <-!(assoc_L app) in Hg2.
        apply (good_run sz lmax dflt eqb cmp Hsz Hlim) in Hg2 as (w2 & E2 & _). exists w2.
        unfold vec_run in *. rewrite (run_app _ _ _ _ _ _ E) in E2. rewrite (run_app _ _ _ _ _ _ E).
        change [o; VIterAll i; VDestroy i] with (o :: [VIterAll i; VDestroy i]).
        simpl app in E2 |- *.
        cbn [run_ops]. rewrite (bind_ok _ _ _ _ _ Eo).
        destruct (run_ops step [VIterAll i; VDestroy i] w) as [[o3 w3]|] eqn:E3; [|done].
        rewrite (bind_ok _ _ _ _ _ E3). injection E2 as E4 ->. apply app_inv_head in E4 as ->. done.
      + set (r := ntake p xs ++ ys ++ ndrop p xs).
        assert (Hr : nlen r <= lmax).
        { unfold r. rewrite !nlen_app. unfold nlen, ntake, ndrop in *. rewrite take_length, drop_length. lia. }
        assert (Hw : within lmax (<[i := r]> s)) by (apply within_insert; [by eapply good_within|done]).
        assert (good (((ops ++ [o]) ++ [VIterAll i]) ++ [VDestroy i]) (delete i (<[i := r]> s))
          (((outs ++ [out]) ++ [OSeq r]) ++ [ONone])) as Hg2.
        { eapply good_snoc; [eapply good_snoc; [eapply (good_snoc _ _ _ _ _ _ _ _ (<[i := r]> s) out); [done| | | |done]|
             |done|done|done]| |done|done|].
          - destruct Ho; simpl; unfold modify; rewrite Hi; destruct (N.leb_spec p (nlen xs)); done || lia.
          - destruct Ho as [x|x|n x|ys]; simpl; unfold on_var; rewrite Hi; (split; [done|]; split; [lia|]).
            + left; lia.
            + left; lia.
            + destruct Hys as [Hys|]; [left|by right]. destruct (N.eq_dec n 0) as [->|]; [done|lia].
            + destruct Hys as [Hys|]; [left|by right]. destruct ys; [done|unfold nlen; simpl; lia].
          - by destruct Ho.
          - simpl. unfold observe. by rewrite lookup_insert.
          - simpl. by rewrite lookup_insert.
          - intros j zs Hj. apply lookup_delete_Some in Hj as [_ Hj]. by eapply Hw. }
        rewrite <-!(assoc_L app) in Hg2.
        apply (good_run sz lmax dflt eqb cmp Hsz Hlim) in Hg2 as (w2 & E2 & _). by exists w2.
  Qed.

  (** *** C03: an empty range before the end cannot be erased. *)
  Theorem C03_erase_exact ops s outs i xs p q :
    good ops s outs -> s !! i = Some xs -> p <= q <= nlen xs ->
    (p = q /\ q <> nlen xs -> forall os, vrun (ops ++ VEraseRange i p q :: os) = Err UB) /\
    ((exists w, vrun (ops ++ [VEraseRange i p q; VIterAll i]) =
       Ok (outs ++ [OIdx (Some p); OSeq (ntake p xs ++ ndrop q xs)], w)) <->
     p <> q \/ q = nlen xs).
  Proof using Hsz Hlim.
    intros Hg Hi Hp. destruct (good_at _ _ _ _ _ Hg Hi) as (w&v&fp&E&Hv&Hwf&Hr&Hl).
    assert (H1 : p = q /\ q <> nlen xs -> forall os, vrun (ops ++ VEraseRange i p q :: os) = Err UB).
    { intros [<- Hq] os. eapply vrun_fails; [done|]. simpl. eapply upd1o_fails; [done|].
      eapply (erase_empty sz lmax); [done|lia|done]. }
    split; [done|]. split.
    - intros [w2 E2]. destruct (N.eq_dec p q); [|by left]. destruct (N.eq_dec q (nlen xs)); [by right|].
      by rewrite (H1 ltac:(done)) in E2.
    - intros H. apply (C03_erase_range_partial dflt eqb cmp sz lmax Hsz Hlim ops s outs i xs p q Hg Hi Hp).
      destruct H; [left; lia|by right].
  Qed.
End Props.

(** ** Concrete cases *)
Example C02_exact_ex_hyps : exists xs, Ngood ex_ops (Nend ex_ops) (Nouts ex_ops) /\
  Nend ex_ops !! 3%nat = Some xs /\ xs <> [] /\ nlen xs + nlen [4;4] <= 100 /\
  insertion (A := N) 3%nat 0 (VInsertFill 3%nat 0 2 4) [4;4] (OIdx (Some 0)) /\
  insertion (A := N) 3%nat 2 (VInsertRange 3%nat 2 []) [] (OIdx (Some 2)).
Proof.
  exists [5;6;6;2;8]. split; [exact ex_good|]. split; [by vm_compute|]. split; [done|].
  split; [by vm_compute|]. split; [apply (Ins_fill 3%nat 0 2 4)|constructor].
Qed.
(** Vector 1 of the example history is empty, with capacity. *)
Example C02_lost_ex_hyps : Nend ex_ops !! 1%nat = Some [] /\
  insertion (A := N) 1%nat 0 (VInsert 1%nat 0 4) [4] (OIdx (Some 0)).
Proof. split; [by vm_compute|constructor]. Qed.
Example C02_exact_ex :
  Nrun (ex_ops ++ [VInsertFill 3%nat 0 2 4]) = Err UB /\
  Nrun (ex_ops ++ [VInsertRange 3%nat 2 []]) = Err UB /\
  Nrun (ex_ops ++ [VInsert 1%nat 0 4; VDestroy 1%nat]) = Err Leak /\
  Nrun (ex_ops ++ [VInsert 1%nat 0 4; VPush 1%nat 4]) = Err UB /\
  Nrun (ex_ops ++ [VInsertFill 1%nat 0 9 4]) = Err UB.
Proof. by vm_compute. Qed.
Example C03_exact_ex : exists xs, Nend ex_ops !! 3%nat = Some xs /\ 2 <= 2 <= nlen xs /\ 2 <> nlen xs /\
  Nrun (ex_ops ++ [VEraseRange 3%nat 2 2]) = Err UB.
Proof. exists [5;6;6;2;8]. by vm_compute. Qed.

Print Assumptions C02_insert_ub.
Print Assumptions C02_insert_lost.
Print Assumptions C02_insert_exact.
Print Assumptions C03_erase_exact.
