(** * VecAlias: arguments of insert that refer into the vector (C13, C65)

    Source: include/mstl/collection/vector.h 630-640 [insert(pos, count, val)]
    with [val] a reference to an element, and 649-665
    [insert(pos, first, last)] with [first], [last] pointers obtained from
    [data()] of the same vector. *)
From Verif Require Import Base World VecModel VecSpec VecFacts VecProofs VecProofs2 VecRefine
  VecMore VecProps.
Local Open Scope N_scope.

Section Model.
  Context {A : Type} (sz : N).
  Notation VM := (M (heap (block A))).

  (** 649-665 [insert(pos, first, last)] where the range has [d] elements and
      [rd j] evaluates [*(first + j)] at the moment element [j] is constructed.
      [std::distance] and [std::abs] (652) give [d]. *)
  Definition insert_range_m (v : vec) (p d : N) (rd : N -> VM A) : VM (vec * N) :=
    v1 <-- (if v_cap v <? uadd (v_len v) d
            then allocate_reserve sz v (uadd (v_len v) d) else ret v) ;;
    v2 <-- move_elements_back sz v1 p d ;;
    for_up (N.to_nat d) 0 (fun j => x <-- rd j ;; vconstruct (v_ptr v2) (uadd p j) x) ;;;
    ret (v2, p).

  (** [v.insert(v.begin() + p, v.data() + a, v.data() + b)], 649-665: the
      pointers are computed before the call, from the old buffer. *)
  Definition insert_own (v : vec) (p a b : N) : VM (vec * N) :=
    insert_range_m v p (b - a) (fun j => vread (v_ptr v) (a + j)).
End Model.

(** ** Specification *)

(** The elements of [xs] at the indices [idx 0, ..., idx (n-1)]. *)
Definition picks {A} (xs : list A) (idx : nat -> nat) (n : nat) : list A :=
  omap (fun j => xs !! idx j) (seq 0 n).

(** The call returned an iterator to [p], and the vector now holds [ys]. *)
Definition leaves {A} (r : outcome ((vec * N) * heap (block A))) (p : N) (ys : list A) : Prop :=
  exists v' h', r = Ok ((v', p), h') /\ size v' = nlen ys /\ collect v' h' = Ok (ys, h').

Section Facts.
  Context {A : Type}.
  Implicit Types (h : heap (block A)) (xs ys zs : list A).
  Notation VM := (M (heap (block A))).

  Lemma picks_S xs idx n x : xs !! idx n = Some x -> picks xs idx (S n) = picks xs idx n ++ [x].
  Proof.
    intros Hx. unfold picks. rewrite seq_S, omap_app. simpl. by rewrite Hx.
  Qed.
  Lemma picks_length xs idx n : (forall j, (j < n)%nat -> (idx j < length xs)%nat) ->
    length (picks xs idx n) = n.
  Proof.
    induction n as [|n IH]; intros H; [done|].
    destruct (lookup_lt_is_Some_2 xs (idx n)) as [x Hx]; [apply H; lia|].
    rewrite (picks_S _ _ _ _ Hx), app_length, IH; [simpl; lia|]. intros; apply H; lia.
  Qed.
  Lemma picks_lookup xs idx n j : (forall j, (j < n)%nat -> (idx j < length xs)%nat) ->
    (j < n)%nat -> picks xs idx n !! j = xs !! idx j.
  Proof.
    induction n as [|n IH]; intros H Hj; [lia|].
    destruct (lookup_lt_is_Some_2 xs (idx n)) as [x Hx]; [apply H; lia|].
    rewrite (picks_S _ _ _ _ Hx).
    assert (length (picks xs idx n) = n) as Hl by (apply picks_length; intros; apply H; lia).
    destruct (decide (j = n)) as [->|].
    - rewrite lookup_app_r by lia. rewrite Hl, Nat.sub_diag. done.
    - rewrite lookup_app_l by lia. apply IH; [|lia]. intros; apply H; lia.
  Qed.

  Lemma picks_slice xs a n : (a + n <= length xs)%nat ->
    picks xs (fun j => a + j)%nat n = take n (drop a xs).
  Proof.
    intros Hn. apply list_eq. intros j. destruct (decide (j < n)%nat).
    - rewrite picks_lookup; [|intros; lia|done]. by rewrite lookup_take, lookup_drop by done.
    - rewrite !lookup_ge_None_2; [done|rewrite take_length; lia|].
      rewrite picks_length; [lia|]. intros; lia.
  Qed.

  Lemma vread_cell h a al by_ cs k z :
    hmap h !! a = Some (Blk al by_ cs) -> cs !! k = Some (Live z) ->
    vread (Some a) (N.of_nat k) h = Ok (z, h).
  Proof.
    intros Hb Hk. rewrite <-(take_drop_middle cs k _ Hk) in Hb.
    eapply vread_ok; [exact Hb|]. rewrite take_length.
    apply lookup_lt_Some in Hk. lia.
  Qed.
  Lemma vread_raw h a al by_ cs k :
    hmap h !! a = Some (Blk al by_ cs) -> cs !! k = Some Raw ->
    vread (Some a) (N.of_nat k) h = Err UB.
  Proof.
    intros Hb Hk. rewrite <-(take_drop_middle cs k _ Hk) in Hb. unfold vread.
    assert (N.of_nat k = N.of_nat (length (take k cs))) as Hl.
    { rewrite take_length. apply lookup_lt_Some in Hk. lia. }
    by rewrite (bind_ok _ _ _ _ _ (slot_ok _ _ _ _ _ _ _ _ Hb Hl)).
  Qed.

  Lemma bind_same {S X Y} (m : M S X) (k k' : X -> M S Y) s :
    (forall a t, k a t = k' a t) -> bind m k s = bind m k' s.
  Proof. intros H. unfold bind. destruct (m s) as [[a t]|]; [apply H|done]. Qed.

  (** With a range outside the vector [insert_range_m] is [insert_range]. *)
  Lemma insert_range_m_ext (sz : N) v p xs h :
    p + nlen xs < W ->
    insert_range_m sz v p (nlen xs) (fun j => match nlookup xs j with
      | Some x => ret x | None => fail UB end) h = insert_range sz v p xs h.
  Proof.
    intros HW. unfold insert_range_m, insert_range.
    change (N.of_nat (length xs)) with (nlen xs).
    apply bind_same. intros v1 h1. apply bind_same. intros v2 h2.
    assert (forall zs ds q h, xs = ds ++ zs -> q = nlen ds ->
      for_up (length zs) q (fun j => x <-- (match nlookup xs j with
        | Some x => ret x | None => fail UB end) ;; vconstruct (v_ptr v2) (uadd p j) x) h
      = construct_all (v_ptr v2) (p + q) zs h) as Hrun.
    { induction zs as [|z zs IH]; intros ds q h' Hx ->; simpl; [done|].
      assert (nlookup xs (nlen ds) = Some z) as ->.
      { rewrite nlookup_lookup, Hx. unfold nlen. rewrite Nat2N.id. by rewrite list_lookup_middle. }
      rewrite bind_bind, bind_ret. rewrite uadd_small.
      - apply bind_same. intros [] h3.
        replace (p + nlen ds + 1) with (p + (nlen ds + 1)) by lia.
        apply (IH (ds ++ [z])); [by rewrite <-(assoc_L app)|].
        unfold nlen. rewrite app_length. simpl. lia.
      - rewrite Hx in HW. unfold nlen in *. rewrite app_length in HW. simpl in HW. lia. }
    replace (N.to_nat (nlen xs)) with (length xs) by (unfold nlen; lia).
    unfold bind at 1. rewrite (Hrun xs [] 0 h2 eq_refl eq_refl), N.add_0_r. done.
  Qed.

  (** Filling the gap with values that are read while it is being filled. *)
  Lemma own_run a al by_ (rd : N -> VM A) p c2 : forall zs h c1 i,
    hmap h !! a = Some (Blk al by_ (c1 ++ replicate (length zs) Raw ++ c2)) ->
    p + i = N.of_nat (length c1) -> N.of_nat (length c1 + length zs) < W ->
    (forall h' ds z rs, zs = ds ++ z :: rs ->
       hmap h' !! a = Some (Blk al by_ (c1 ++ (Live <$> ds) ++ replicate (S (length rs)) Raw ++ c2)) ->
       rd (i + N.of_nat (length ds)) h' = Ok (z, h')) ->
    for_up (length zs) i (fun j => x <-- rd j ;; vconstruct (Some a) (uadd p j) x) h =
      Ok (tt, hput h a (Blk al by_ (c1 ++ (Live <$> zs) ++ c2)) 0).
  Proof.
    induction zs as [|z zs IH]; intros h c1 i Hb Hi HW Hrd; simpl.
    - by rewrite hput_id.
    - simpl in Hb, HW.
      assert (rd i h = Ok (z, h)) as Ez.
      { rewrite <-(N.add_0_r i). exact (Hrd h [] z zs eq_refl Hb). }
      rewrite bind_bind, (bind_ok _ _ _ _ _ Ez).
      rewrite uadd_small by lia.
      erewrite (bind_ok _ _ _ _ _ (vconstruct_ok _ _ _ _ _ z _ _ Hb Hi)).
      erewrite (IH _ (c1 ++ [Live z]) (i + 1)).
      + rewrite hput_hput, <-(assoc_L app). done.
      + rewrite hput_lookup, <-(assoc_L app). done.
      + rewrite app_length. simpl. lia.
      + rewrite app_length. simpl. lia.
      + intros h' ds z' rs -> Hb'.
        replace (i + 1 + N.of_nat (length ds)) with (i + N.of_nat (length (z :: ds))) by (simpl; lia).
        apply (Hrd h' (z :: ds) z' rs); [done|]. rewrite Hb', <-(assoc_L app). done.
  Qed.
  Lemma own_ub n i (rd : N -> VM A) q p h :
    rd i h = Err UB ->
    for_up (S n) i (fun j => x <-- rd j ;; vconstruct q (uadd p j) x) h = Err UB.
  Proof. intros E. simpl. apply bind_err. by apply bind_err. Qed.
  (** Cells of the buffer while the gap after [xs] is being filled. *)
  Definition gapc xs (ds : list A) (n : nat) ys (m : nat) : list (cell A) :=
    (Live <$> xs) ++ (Live <$> ds) ++ replicate n Raw ++ (Live <$> ys) ++ replicate m Raw.

  Lemma gapc_low xs ds n ys m k x : xs !! k = Some x -> gapc xs ds n ys m !! k = Some (Live x).
  Proof.
    intros Hk. unfold gapc. apply lookup_app_l_Some. by rewrite list_lookup_fmap, Hk.
  Qed.
  Lemma gapc_done xs ds n ys m k x : ds !! k = Some x ->
    gapc xs ds n ys m !! (length xs + k)%nat = Some (Live x).
  Proof.
    intros Hk. unfold gapc. rewrite lookup_app_r by (rewrite fmap_length; lia).
    rewrite fmap_length. replace (length xs + k - length xs)%nat with k by lia.
    apply lookup_app_l_Some. by rewrite list_lookup_fmap, Hk.
  Qed.
  Lemma gapc_raw xs ds n ys m k : (k < n)%nat ->
    gapc xs ds n ys m !! (length xs + length ds + k)%nat = Some Raw.
  Proof.
    intros Hk. unfold gapc. rewrite lookup_app_r by (rewrite fmap_length; lia).
    rewrite lookup_app_r by (rewrite !fmap_length; lia).
    rewrite !fmap_length. apply lookup_app_l_Some.
    replace (length xs + length ds + k - length xs - length ds)%nat with k by lia.
    by apply lookup_replicate_2.
  Qed.
  Lemma gapc_high xs ds n ys m k x : ys !! k = Some x ->
    gapc xs ds n ys m !! (length xs + length ds + n + k)%nat = Some (Live x).
  Proof.
    intros Hk. unfold gapc. rewrite lookup_app_r by (rewrite fmap_length; lia).
    rewrite lookup_app_r by (rewrite !fmap_length; lia).
    rewrite lookup_app_r by (rewrite !fmap_length, replicate_length; lia).
    rewrite !fmap_length, replicate_length. apply lookup_app_l_Some.
    replace (length xs + length ds + n + k - length xs - length ds - n)%nat with k by lia.
    by rewrite list_lookup_fmap, Hk.
  Qed.
End Facts.

Section Alias.
  Context {A : Type} (sz lmax : N).
  Context (Hsz : 1 <= sz) (Hlim : sz * (2 * lmax + 2) <= alloc_max).
  Implicit Types (h : heap (block A)) (v : vec) (xs ys : list A) (fp : list N).
  Notation vrep := (@vrep A sz lmax).
  Notation posto := (@posto A sz lmax).

  (** [move_elements_back] without reallocation keeps the pointer. *)
  Lemma meb_room h v xs ys fp n :
    hwf h -> vrep h v (xs ++ ys) fp -> xs <> [] -> (1 <= n)%nat \/ ys = [] ->
    nlen (xs ++ ys) + N.of_nat n <= lmax -> v_len v + N.of_nat n <= v_cap v ->
    exists v' h' a, move_elements_back sz v (nlen xs) (N.of_nat n) h = Ok (v', h') /\
      vgap sz lmax h' v' xs n ys a /\ upd h h' fp [a] /\ v_ptr v = Some a.
  Proof using Hsz Hlim.
    intros Hwf Hr Hxs Hny Hn Hc.
    destruct (move_elements_back_ok sz lmax Hsz Hlim h v xs ys fp n Hwf Hr Hxs Hny Hn)
      as (v'&h'&a&E&Hg&Hu).
    exists v', h', a. split; [done|]. split; [done|]. split; [done|].
    assert (v_ptr v' = v_ptr v) as Hp.
    { revert E. unfold move_elements_back. destruct (v_len v =? 0) eqn:E0.
      - unfold ret. intros [= -> _]. done.
      - destruct (cmax_W sz lmax Hsz Hlim (2 * lmax + 2)) as (_&_&HW); [lia|].
        assert (v_len v = nlen (xs ++ ys)) as Hl by apply Hr.
        rewrite uadd_small by lia. rewrite (proj2 (N.ltb_ge _ _)) by lia. rewrite bind_ret.
        unfold bind. destruct (meb_loop _ _ _ _ _ h) as [[[] h2]|]; [|done].
        unfold ret. intros [= <- _]. done. }
    rewrite <-Hp. apply Hg.
  Qed.

  (** The loop that fills the gap, over the gap left by [move_elements_back]. *)
  Lemma gap_fill h v xs ys a n (rd : N -> M (heap (block A)) A) zs :
    hwf h -> vgap sz lmax h v xs n ys a -> length zs = n ->
    (forall h' ds z rs m, zs = ds ++ z :: rs ->
       hmap h' !! a = Some (Blk (v_alloc v) (sz * v_cap v) (gapc xs ds (S (length rs)) ys m)) ->
       rd (N.of_nat (length ds)) h' = Ok (z, h')) ->
    exists h', for_up n 0 (fun j => x <-- rd j ;; vconstruct (v_ptr v) (uadd (nlen xs) j) x) h
      = Ok (tt, h') /\ vrep h' v (xs ++ zs ++ ys) [a] /\ upd h h' [a] [a].
  Proof using Hsz Hlim.
    intros Hwf Hg <- Hrd. assert (Hg' := Hg). destruct Hg' as (Hp & Hl & Hc & Hm & Hb). rewrite Hp.
    destruct (cmax_W sz lmax Hsz Hlim (v_cap v) Hm) as (_&_&HW).
    erewrite (own_run a _ _ rd (nlen xs) _ zs h (Live <$> xs) 0 Hb).
    - eexists. split; [done|]. by eapply vgap_fill.
    - rewrite fmap_length. unfold nlen. lia.
    - rewrite fmap_length. unfold nlen in *. lia.
    - intros h' ds z rs Hz Hb'. rewrite N.add_0_l. eapply Hrd; [done|]. exact Hb'.
  Qed.

  (** With reallocation the old buffer is gone. *)
  Lemma meb_gone h v xs ys fp n :
    hwf h -> vrep h v (xs ++ ys) fp -> xs <> [] -> (1 <= n)%nat ->
    nlen (xs ++ ys) + N.of_nat n <= lmax -> v_cap v < v_len v + N.of_nat n ->
    exists v' h' a, move_elements_back sz v (nlen xs) (N.of_nat n) h = Ok (v', h') /\
      v_ptr v = Some a /\ hmap h' !! a = None.
  Proof using Hsz Hlim.
    intros Hwf Hr Hxs Hn Hmax Hc.
    assert (Hl : v_len v = nlen (xs ++ ys)) by apply Hr.
    assert (0 < nlen (xs ++ ys)) by (rewrite nlen_app; destruct xs; [done|unfold nlen; simpl; lia]).
    destruct (cmax_W sz lmax Hsz Hlim (2 * lmax + 2)) as (_&_&HW); [lia|].
    destruct (allocate_reserve_ok sz lmax Hsz Hlim h v (xs ++ ys) fp (v_len v + N.of_nat n) Hwf Hr)
      as (h1&E&Hr1&Hu1&_); [lia|lia|].
    destruct (meb_room h1 _ xs ys _ n (upd_wf _ _ _ _ Hu1) Hr1 Hxs) as (v2&h2&a2&E2&Hg&Hu2&Ep2);
      [left; lia|lia|simpl; lia|].
    simpl in Ep2. injection Ep2 as <-.
    destruct Hr as (_&Hcv&_&Hp). destruct (v_ptr v) as [a|] eqn:Ea; [|lia]. destruct Hp as [-> Hb].
    exists v2, h2, a. split; [|split; [done|]].
    - revert E2. unfold move_elements_back, reserve. simpl.
      rewrite (proj2 (N.eqb_neq _ _)) by lia. rewrite uadd_small by lia.
      rewrite N.ltb_irrefl, (proj2 (N.ltb_lt _ _)) by done.
      rewrite bind_ret. rewrite (bind_ok _ _ _ _ _ E). simpl. done.
    - assert (hmap h1 !! a = None) as Hg1 by (eapply realloc_gone; eauto).
      assert (a <> hnext h) by (apply N.lt_neq, Hwf; eauto).
      destruct (hmap h2 !! a) eqn:Eh; [|done].
      assert (is_Some (hmap h2 !! a)) as Hs by eauto.
      apply (upd_dom _ _ _ _ Hu2) in Hs as [[Hs _]|Hs]; [|set_solver].
      rewrite Hg1 in Hs. by destruct Hs.
  Qed.

  (** *** insert(p, n, v[k]) *)
  Definition zs_ok (n : N) (x : A) (ds rs : list A) : Prop :=
    replicate (N.to_nat n) x = ds ++ x :: rs.
  Lemma insert_alias_gen h v xs ys fp n k :
    hwf h -> vrep h v (xs ++ ys) fp -> xs <> [] -> 1 <= n ->
    nlen (xs ++ ys) + n <= lmax -> k < nlen (xs ++ ys) ->
    (v_cap v < v_len v + n ->
       insert_fill_m sz v (nlen xs) n (vread (v_ptr v) k) h = Err UB) /\
    (v_len v + n <= v_cap v ->
       (forall x, k < nlen xs -> nlookup (xs ++ ys) k = Some x ->
          posto h fp (insert_fill_m sz v (nlen xs) n (vread (v_ptr v) k) h)
            (xs ++ nrep n x ++ ys) (nlen xs)) /\
       (nlen xs <= k < nlen xs + n ->
          insert_fill_m sz v (nlen xs) n (vread (v_ptr v) k) h = Err UB) /\
       (forall x, nlen xs + n <= k -> nlookup (xs ++ ys) (k - n) = Some x ->
          posto h fp (insert_fill_m sz v (nlen xs) n (vread (v_ptr v) k) h)
            (xs ++ nrep n x ++ ys) (nlen xs))).
  Proof using Hsz Hlim.
    intros Hwf Hr Hxs Hn Hmax Hk.
    assert (Hl : v_len v = nlen (xs ++ ys)) by apply Hr.
    unfold insert_fill_m. split.
    - intros Hc.
      destruct (meb_gone h v xs ys fp (N.to_nat n)) as (v2&h2&a&E2&Ep&Hg); try done; try lia.
      rewrite N2Nat.id in E2. rewrite (bind_ok _ _ _ _ _ E2), Ep.
      apply bind_err. destruct (N.to_nat n) as [|m] eqn:En; [lia|].
      apply (own_ub _ _ (fun _ => vread (Some a) k)). by apply vread_gone.
    - intros Hc.
      destruct (meb_room h v xs ys fp (N.to_nat n) Hwf Hr Hxs) as (v2&h2&a&E2&Hg&Hu&Ep);
        [left; lia|lia|lia|].
      rewrite N2Nat.id in E2. rewrite (bind_ok _ _ _ _ _ E2), Ep.
      assert (forall x, (forall h' ds rs m, zs_ok n x ds rs ->
          hmap h' !! a = Some (Blk (v_alloc v2) (sz * v_cap v2) (gapc xs ds (S (length rs)) ys m)) ->
          vread (Some a) k h' = Ok (x, h')) ->
          posto h fp ((for_up (N.to_nat n) 0 (fun i => x <-- vread (Some a) k ;;
             vconstruct (v_ptr v2) (uadd (nlen xs) i) x) ;;; ret (v2, nlen xs)) h2)
            (xs ++ nrep n x ++ ys) (nlen xs)) as Hfill.
      { intros x Hx.
        destruct (gap_fill h2 v2 xs ys a (N.to_nat n) (fun _ => vread (Some a) k)
          (replicate (N.to_nat n) x) (upd_wf _ _ _ _ Hu) Hg) as (h3&E3&Hr3&Hu3).
        - by rewrite replicate_length.
        - intros h' ds z rs m Hz Hb.
          assert (z = x) as ->.
          { assert (z ∈ replicate (N.to_nat n) x) as Hin by (rewrite Hz; set_solver).
            by apply elem_of_replicate_inv in Hin. }
          apply (Hx h' ds rs m); [|done]. exact Hz.
        - rewrite (bind_ok _ _ _ _ _ E3). eexists v2, h3, [a]. split; [done|].
          split; [done|]. by eapply upd_trans. }
      split; [|split].
      + intros x Hk1 Hx. apply Hfill. intros h' ds rs m _ Hb. rewrite <-(N2Nat.id k).
        eapply vread_cell; [exact Hb|]. apply gapc_low.
        rewrite nlookup_lookup, lookup_app_l in Hx; [done|unfold nlen in *; lia].
      + intros Hk1. apply bind_err. destruct Hg as (Hp & _ & _ & _ & Hb).
        destruct (N.to_nat n) as [|m] eqn:En; [lia|].
        apply (own_ub _ _ (fun _ => vread (Some a) k)). rewrite <-(N2Nat.id k).
        eapply vread_raw; [exact Hb|].
        replace (N.to_nat k) with (length xs + length (@nil A) + (N.to_nat k - length xs))%nat
          by (unfold nlen in *; simpl; lia).
        eapply (gapc_raw xs [] (S m) ys). unfold nlen in *. lia.
      + intros x Hk1 Hx. apply Hfill. intros h' ds rs m Hz Hb. rewrite <-(N2Nat.id k).
        eapply vread_cell; [exact Hb|].
        assert (length ds + S (length rs) = N.to_nat n)%nat as Hlen.
        { apply (f_equal length) in Hz. rewrite replicate_length, app_length in Hz. simpl in Hz. lia. }
        rewrite nlookup_lookup, lookup_app_r in Hx by (unfold nlen in *; lia).
        replace (N.to_nat k) with (length xs + length ds + S (length rs) +
          (N.to_nat (k - n) - length xs))%nat by (unfold nlen in *; lia).
        by apply gapc_high.
  Qed.

  (** *** insert(p, data() + a, data() + b) *)
  Lemma insert_range_meb h v xs fp p d (rd : N -> M (heap (block A)) A) :
    hwf h -> vrep h v xs fp -> xs <> [] -> nlen xs + d <= lmax ->
    insert_range_m sz v p d rd h =
    (v2 <-- move_elements_back sz v p d ;;
     for_up (N.to_nat d) 0 (fun j => x <-- rd j ;; vconstruct (v_ptr v2) (uadd p j) x) ;;;
     ret (v2, p)) h.
  Proof using Hsz Hlim.
    intros Hwf Hr Hxs Hmax. unfold insert_range_m.
    assert (Hl : v_len v = nlen xs) by apply Hr.
    assert (0 < nlen xs) by (destruct xs; [done|unfold nlen; simpl; lia]).
    destruct (cmax_W sz lmax Hsz Hlim (2 * lmax + 2)) as (_&_&HW); [lia|].
    rewrite uadd_small by lia.
    destruct (N.ltb_spec (v_cap v) (v_len v + d)) as [Hc|Hc]; [|by rewrite bind_ret].
    destruct (allocate_reserve_ok sz lmax Hsz Hlim h v xs fp (v_len v + d) Hwf Hr)
      as (h1&E&Hr1&Hu1&_); [lia|lia|].
    rewrite (bind_ok _ _ _ _ _ E). cbn beta. unfold bind at 1. unfold bind at 4.
    assert (move_elements_back sz (Vec (v_len v) (v_len v + d) (Some (hnext h)) (v_alloc v)) p d h1
      = move_elements_back sz v p d h) as ->; [|done].
    unfold move_elements_back, reserve. simpl.
    rewrite (proj2 (N.eqb_neq _ _)) by lia. rewrite uadd_small by lia.
    rewrite N.ltb_irrefl, (proj2 (N.ltb_lt _ _)) by done.
    rewrite bind_ret. rewrite (bind_ok _ _ _ _ _ E). done.
  Qed.

  Lemma insert_own_gen h v xs ys fp a b :
    hwf h -> vrep h v (xs ++ ys) fp -> xs <> [] -> a < b -> b <= nlen (xs ++ ys) ->
    nlen (xs ++ ys) + (b - a) <= lmax ->
    (v_cap v < v_len v + (b - a) -> insert_own sz v (nlen xs) a b h = Err UB) /\
    (v_len v + (b - a) <= v_cap v ->
       (a < nlen xs ->
          posto h fp (insert_own sz v (nlen xs) a b h)
            (xs ++ picks (xs ++ ys) (fun j => N.to_nat a + j mod (length xs - N.to_nat a))%nat
                     (N.to_nat (b - a)) ++ ys) (nlen xs)) /\
       (nlen xs <= a < nlen xs + (b - a) -> insert_own sz v (nlen xs) a b h = Err UB) /\
       (nlen xs + (b - a) <= a ->
          posto h fp (insert_own sz v (nlen xs) a b h)
            (xs ++ picks (xs ++ ys) (fun j => N.to_nat (a - (b - a)) + j)%nat
                     (N.to_nat (b - a)) ++ ys) (nlen xs))).
  Proof using Hsz Hlim.
    intros Hwf Hr Hxs Hab Hb Hmax.
    assert (Hl : v_len v = nlen (xs ++ ys)) by apply Hr.
    unfold insert_own.
    rewrite (insert_range_meb h v (xs ++ ys) fp) by (done || by destruct xs).
    set (d := b - a) in *. assert (1 <= d) by lia. split.
    - intros Hc.
      destruct (meb_gone h v xs ys fp (N.to_nat d)) as (v2&h2&q&E2&Ep&Hg); try done; try lia.
      rewrite N2Nat.id in E2. rewrite (bind_ok _ _ _ _ _ E2), Ep.
      apply bind_err. destruct (N.to_nat d) as [|m] eqn:En; [lia|].
      apply own_ub. by apply vread_gone.
    - intros Hc.
      destruct (meb_room h v xs ys fp (N.to_nat d) Hwf Hr Hxs) as (v2&h2&q&E2&Hg&Hu&Ep);
        [left; lia|lia|lia|].
      rewrite N2Nat.id in E2. rewrite (bind_ok _ _ _ _ _ E2), Ep.
      assert (forall zs, length zs = N.to_nat d ->
          (forall h' ds z rs m, zs = ds ++ z :: rs ->
            hmap h' !! q = Some (Blk (v_alloc v2) (sz * v_cap v2) (gapc xs ds (S (length rs)) ys m)) ->
            vread (Some q) (a + N.of_nat (length ds)) h' = Ok (z, h')) ->
          posto h fp ((for_up (N.to_nat d) 0 (fun j => x <-- vread (Some q) (a + j) ;;
             vconstruct (v_ptr v2) (uadd (nlen xs) j) x) ;;; ret (v2, nlen xs)) h2)
            (xs ++ zs ++ ys) (nlen xs)) as Hfill.
      { intros zs Hz Hrd.
        destruct (gap_fill h2 v2 xs ys q (N.to_nat d) (fun j => vread (Some q) (a + j))
          zs (upd_wf _ _ _ _ Hu) Hg Hz Hrd) as (h3&E3&Hr3&Hu3).
        rewrite (bind_ok _ _ _ _ _ E3). eexists v2, h3, [q]. split; [done|].
        split; [done|]. by eapply upd_trans. }
      assert (Hla : length (xs ++ ys) = N.to_nat (nlen (xs ++ ys))) by (unfold nlen; lia).
      assert (Hlx : length xs = N.to_nat (nlen xs)) by (unfold nlen; lia).
      split; [|split].
      + intros Ha. set (g := (length xs - N.to_nat a)%nat). assert (0 < g)%nat by lia.
        set (idx := fun j : nat => (N.to_nat a + j mod g)%nat).
        assert (forall j, (j < N.to_nat d)%nat -> (idx j < length xs)%nat) as Hidx.
        { intros j Hj. unfold idx. pose proof (Nat.mod_upper_bound j g ltac:(lia)). lia. }
        assert (length xs <= length (xs ++ ys))%nat by (rewrite app_length; lia).
        assert (forall j, (j < N.to_nat d)%nat -> (idx j < length (xs ++ ys))%nat) as Hidx'.
        { intros j Hj. specialize (Hidx j Hj). lia. }
        apply Hfill; [by apply picks_length|].
        intros h' ds z rs m Hz Hbl.
        assert (length ds + S (length rs) = N.to_nat d)%nat as Hlen.
        { rewrite <-(picks_length (xs ++ ys) idx (N.to_nat d) Hidx'), Hz, app_length. done. }
        assert (Hzj : forall j x, ds !! j = Some x -> xs !! idx j = Some x).
        { intros j x Hj. pose proof (lookup_lt_Some _ _ _ Hj).
          rewrite <-(lookup_app_l xs ys) by (apply Hidx; lia).
          rewrite <-(picks_lookup (xs ++ ys) idx (N.to_nat d)) by (done || lia).
          rewrite Hz. by apply lookup_app_l_Some. }
        assert (xs !! idx (length ds) = Some z) as Hzz.
        { rewrite <-(lookup_app_l xs ys) by (apply Hidx; lia).
          rewrite <-(picks_lookup (xs ++ ys) idx (N.to_nat d)) by (done || lia).
          rewrite Hz. by rewrite list_lookup_middle. }
        replace (a + N.of_nat (length ds)) with (N.of_nat (N.to_nat a + length ds)) by lia.
        eapply vread_cell; [exact Hbl|].
        destruct (decide (length ds < g)%nat).
        * apply gapc_low. rewrite <-Hzz. unfold idx. by rewrite Nat.mod_small.
        * destruct (lookup_lt_is_Some_2 ds (length ds - g)) as [y Hy]; [lia|].
          assert (idx (length ds) = idx (length ds - g)%nat) as Hper.
          { unfold idx. f_equal. replace (length ds) with (length ds - g + 1 * g)%nat at 1 by lia.
            rewrite Nat.mod_add by lia. done. }
          assert (y = z) as -> by (apply Hzj in Hy; congruence).
          replace (N.to_nat a + length ds)%nat with (length xs + (length ds - g))%nat by lia.
          by apply gapc_done.
      + intros Ha. apply bind_err. destruct Hg as (Hp & _ & _ & _ & Hbl).
        destruct (N.to_nat d) as [|m] eqn:En; [lia|].
        apply own_ub. rewrite N.add_0_r, <-(N2Nat.id a).
        eapply vread_raw; [exact Hbl|].
        replace (N.to_nat a) with (length xs + length (@nil A) + (N.to_nat a - length xs))%nat
          by (simpl; lia).
        eapply (gapc_raw xs [] (S m) ys). lia.
      + intros Ha. set (idx := fun j : nat => (N.to_nat (a - d) + j)%nat).
        assert (forall j, (j < N.to_nat d)%nat -> (idx j < length (xs ++ ys))%nat) as Hidx.
        { intros j Hj. unfold idx. lia. }
        apply Hfill; [by apply picks_length|].
        intros h' ds z rs m Hz Hbl.
        assert (length ds + S (length rs) = N.to_nat d)%nat as Hlen.
        { rewrite <-(picks_length (xs ++ ys) idx (N.to_nat d) Hidx), Hz, app_length. done. }
        assert ((xs ++ ys) !! idx (length ds) = Some z) as Hzz.
        { rewrite <-(picks_lookup (xs ++ ys) idx (N.to_nat d)) by (done || lia).
          rewrite Hz. by rewrite list_lookup_middle. }
        unfold idx in Hzz. rewrite lookup_app_r in Hzz by lia.
        replace (a + N.of_nat (length ds)) with (N.of_nat (length xs + length ds + S (length rs) +
          (N.to_nat (a - d) + length ds - length xs))) by lia.
        eapply vread_cell; [exact Hbl|]. by apply gapc_high.
  Qed.
End Alias.

Section Props.
  Context {A : Type} (sz lmax : N) (dflt : A).
  Context (eqb : A -> A -> bool) (cmp : A -> A -> comparison).
  Context (Hsz : 1 <= sz) (Hlim : sz * (2 * lmax + 2) <= alloc_max).
  Notation good := (good dflt eqb cmp lmax).
  Notation vrun := (vec_run sz dflt eqb cmp).

  Lemma posto_leaves h fp (r : outcome ((vec * N) * heap (block A))) ys p :
    posto sz lmax h fp r ys p -> leaves r p ys.
  Proof using Type.
    intros (v'&h'&fp'&->&Hr&_). exists v', h'. split; [done|]. split; [apply Hr|].
    by eapply collect_ok.
  Qed.

  Theorem C13_insert_exact ops s outs w i v xs k p n :
    good ops s outs -> vrun ops = Ok (outs, w) -> w_vars w !! i = Some v -> s !! i = Some xs ->
    1 <= p <= nlen xs -> 1 <= n -> nlen xs + n <= lmax -> k < nlen xs ->
    let r := insert_fill_m sz v p n (vread (v_ptr v) k) (w_heap w) in
    (capacity v < nlen xs + n -> r = Err UB) /\
    (nlen xs + n <= capacity v ->
       (forall x, k < p -> nlookup xs k = Some x ->
          leaves r p (ntake p xs ++ nrep n x ++ ndrop p xs)) /\
       (p <= k < p + n -> r = Err UB) /\
       (forall x, p + n <= k -> nlookup xs (k - n) = Some x ->
          leaves r p (ntake p xs ++ nrep n x ++ ndrop p xs))).
  Proof using Hsz Hlim.
    intros Hg E Hv Hx Hp Hn Hmax Hk.
    pose proof (good_wok _ _ _ _ _ Hsz Hlim _ _ _ _ _ Hg E) as Hw.
    destruct (wok_var _ _ _ _ _ _ Hw Hv) as (xs' & fp & Hs & Hr & Hwf).
    rewrite Hx in Hs. injection Hs as <-.
    assert (Hl : v_len v = nlen xs) by apply Hr.
    destruct (split_at p xs) as (l&r&->&->&->&->); [lia|].
    assert (l <> []) by (intros ->; unfold nlen in *; simpl in *; lia).
    destruct (insert_alias_gen sz lmax Hsz Hlim _ v l r fp n k Hwf Hr) as (H1&H2); try done.
    rewrite Hl in H1, H2. split; [done|]. intros Hc. destruct (H2 Hc) as (H3&H4&H5).
    split; [|split]; [|done|]; intros x Hkp Hxk; (eapply posto_leaves; eauto).
  Qed.

  Theorem C65_own_range ops s outs w i v xs p a b :
    good ops s outs -> vrun ops = Ok (outs, w) -> w_vars w !! i = Some v -> s !! i = Some xs ->
    1 <= p <= nlen xs -> a < b -> b <= nlen xs -> nlen xs + (b - a) <= lmax ->
    let r := insert_own sz v p a b (w_heap w) in
    (capacity v < nlen xs + (b - a) -> r = Err UB) /\
    (nlen xs + (b - a) <= capacity v ->
       (b <= p -> leaves r p (ntake p xs ++ ntake (b - a) (ndrop a xs) ++ ndrop p xs)) /\
       (a < p -> leaves r p (ntake p xs ++
          picks xs (fun j => N.to_nat a + j mod N.to_nat (p - a))%nat (N.to_nat (b - a)) ++
          ndrop p xs)) /\
       (p <= a < p + (b - a) -> r = Err UB) /\
       (p + (b - a) <= a ->
          leaves r p (ntake p xs ++ ntake (b - a) (ndrop (a - (b - a)) xs) ++ ndrop p xs))).
  Proof using Hsz Hlim.
    intros Hg E Hv Hx Hp Hab Hb Hmax.
    pose proof (good_wok _ _ _ _ _ Hsz Hlim _ _ _ _ _ Hg E) as Hw.
    destruct (wok_var _ _ _ _ _ _ Hw Hv) as (xs' & fp & Hs & Hr & Hwf).
    rewrite Hx in Hs. injection Hs as <-.
    assert (Hl : v_len v = nlen xs) by apply Hr.
    destruct (split_at p xs) as (l&r&->&->&->&->); [lia|].
    assert (l <> []) by (intros ->; unfold nlen in *; simpl in *; lia).
    destruct (insert_own_gen sz lmax Hsz Hlim _ v l r fp a b Hwf Hr) as (H1&H2); try done.
    rewrite Hl in H1, H2. split; [done|]. intros Hc. destruct (H2 Hc) as (H3&H4&H5).
    assert (length (l ++ r) = N.to_nat (nlen (l ++ r))) by (unfold nlen; lia).
    assert (N.to_nat (nlen l - a) = length l - N.to_nat a)%nat as Hla by (unfold nlen; lia).
    split; [|split; [|split]].
    - intros Hbp. specialize (H3 ltac:(lia)). apply posto_leaves in H3.
      unfold ntake at 1, ndrop at 1.
      rewrite <-(picks_slice (l ++ r) (N.to_nat a) (N.to_nat (b - a))) by lia.
      assert (picks (l ++ r) (fun j => N.to_nat a + j mod (length l - N.to_nat a))%nat (N.to_nat (b - a))
        = picks (l ++ r) (fun j => N.to_nat a + j)%nat (N.to_nat (b - a))) as <-; [|done].
      apply list_omap_ext. apply Forall2_same_length_lookup_2; [done|].
      intros j x y Hj Hj'. assert (x = y) as -> by congruence.
      apply lookup_seq in Hj' as [-> Hj']. simpl.
      rewrite Nat.mod_small; [done|]. unfold nlen in *. lia.
    - intros Ha. rewrite Hla. eapply posto_leaves. eauto.
    - done.
    - intros Ha. specialize (H5 Ha). apply posto_leaves in H5.
      rewrite (picks_slice (l ++ r)) in H5 by lia. done.
  Qed.
End Props.

(** ** Examples *)
Definition al_ops : list (vop N) := [VNewList 0%nat 0 [1;2;3;4;5]; VReserve 0%nat 9].
Definition al_vec : vec := Vec 5 9 (Some 1) 0.
Example C13_insert_ex :
  Ngood al_ops (list_to_map [(0%nat, [1;2;3;4;5])]) (Nouts al_ops) /\
  match Nrun al_ops with
  | Ok (_, w) => w_vars w !! 0%nat = Some al_vec
  | Err _ => False end.
Proof. split; [by apply goodb_ok_list; vm_compute|by vm_compute]. Qed.
(** Room for four more: [v[0]] is inserted correctly at 2; [v[2]] and [v[3]]
    are in the gap; [v[4]] is read as the value of [v[2]]. *)
Example C13_insert_cases : match Nrun al_ops with
  | Ok (_, w) =>
      let ins k := (r <-- insert_fill_m 8 al_vec 2 2 (vread (v_ptr al_vec) k) ;; collect r.1) (w_heap w) in
      (exists h, ins 0 = Ok ([1;2;1;1;3;4;5], h)) /\ ins 2 = Err UB /\ ins 3 = Err UB /\
      (exists h, ins 4 = Ok ([1;2;3;3;3;4;5], h))
  | Err _ => False end.
Proof. vm_compute. eauto 10. Qed.
(** [insert(p, n, v[k])] does not behave as if [v[k]] had been copied first. *)
Theorem C13_insert_refuted :
  match Nrun al_ops with
  | Ok (_, w) =>
      (exists h, (r <-- insert_fill_m 8 al_vec 2 2 (vread (v_ptr al_vec) 4) ;; collect r.1) (w_heap w)
        = Ok ([1;2;3;3;3;4;5], h)) /\
      (exists h, (r <-- insert_fill_m 8 al_vec 2 2 (ret 5) ;; collect r.1) (w_heap w)
        = Ok ([1;2;5;5;3;4;5], h))
  | Err _ => False end.
Proof. vm_compute. eauto. Qed.
(** The four cases of C65: before the position, across it (the part before it
    is repeated), in the gap, and beyond the gap (shifted by the length). *)
Example C65_ex : match Nrun al_ops with
  | Ok (_, w) =>
      let ins p a b := (r <-- insert_own 8 al_vec p a b ;; collect r.1) (w_heap w) in
      (exists h, ins 3 0 2 = Ok ([1;2;3;1;2;4;5], h)) /\
      (exists h, ins 2 0 4 = Ok ([1;2;1;2;1;2;3;4;5], h)) /\
      ins 2 2 4 = Err UB /\
      (exists h, ins 2 4 5 = Ok ([1;2;4;3;4;5], h)) /\
      (exists h, ins 1 3 5 = Ok ([1;2;3;2;3;4;5], h)) /\
      ins 2 0 5 = Err UB
  | Err _ => False end.
Proof. vm_compute. eauto 20. Qed.

Print Assumptions C13_insert_exact.
Print Assumptions C13_insert_refuted.
Print Assumptions C65_own_range.
