(** * VecKeep: which operations keep, move or free a vector's buffer, and the
      capacity they leave; towards C64 (VecRefProps.v)

    Everything here is partial correctness: about calls that return. *)
From Verif Require Import Base World VecModel VecIterModel VecSpec VecFacts VecProofs VecProofs2 VecRefine VecMore VecProps VecRefs.
Local Open Scope N_scope.

Lemma bind_inv {S A B} (m : M S A) (k : A -> M S B) s b s2 : bind m k s = Ok (b, s2) ->
  exists a s1, m s = Ok (a, s1) /\ k a s1 = Ok (b, s2).
Proof. unfold bind. destruct (m s) as [[a s1]|]; [|done]. eauto. Qed.
Ltac binv H := apply bind_inv in H; let x := fresh "x" in let s := fresh "s" in let E := fresh "E" in
  destruct H as (x & s & E & H).

(** ** Where the members leave the buffer (partial correctness) *)
Section Stay.
  Context {A : Type} (sz : N).
  Implicit Types (h : heap (block A)) (v : vec) (xs ys : list A).
  Notation VM := (M (heap (block A))).
  Definition same v v' : Prop := v_ptr v' = v_ptr v /\ v_cap v' = v_cap v /\ v_alloc v' = v_alloc v.
  Lemma same_refl v : same v v. Proof. done. Qed.
  Lemma same_trans a b c : same a b -> same b c -> same a c.
  Proof. intros (H1 & H2 & H3) (H4 & H5 & H6). split_and!; congruence. Qed.
  Lemma same_len v l : same v (set_len v l). Proof. done. Qed.

  Lemma reserve_same v n h v' h' : reserve (A := A) sz v n h = Ok (v', h') -> n <= v_cap v -> same v v' /\ v_len v' = v_len v.
  Proof. unfold reserve. intros H Hn. rewrite (proj2 (N.ltb_ge _ _)) in H by lia. injection H as <- <-. done. Qed.
  Lemma push_same v rd h v' h' : push_back_m (A := A) sz v rd h = Ok (v', h') -> v_len v < v_cap v -> v_cap v < W ->
    same v v' /\ v_len v' = v_len v + 1.
  Proof.
    unfold push_back_m. intros H Hl HW. rewrite (proj2 (N.leb_gt _ _)) in H by lia. rewrite bind_ret in H.
    binv H. binv H. injection H as <- <-. split; [done|]. cbn. apply uadd_small. lia.
  Qed.
  Lemma repeat_push_same rd n : forall v h v' h', repeat_m n (fun u => push_back_m (A := A) sz u rd) v h = Ok (v', h') ->
    v_len v + N.of_nat n <= v_cap v -> v_cap v < W -> same v v'.
  Proof.
    induction n as [|n IH]; intros v h v' h' H Hl HW; cbn [repeat_m] in H.
    - injection H as <- <-. done.
    - binv H. destruct (push_same _ _ _ _ _ E) as [Hs Hn]; [lia|done|]. eapply same_trans; [exact Hs|].
      destruct Hs as (_ & Hc & _). eapply IH; [exact H|lia|lia].
  Qed.
  Lemma push_all_same ys : forall v h v' h', push_all (A := A) sz ys v h = Ok (v', h') ->
    v_len v + nlen ys <= v_cap v -> v_cap v < W -> same v v'.
  Proof.
    induction ys as [|y ys IH]; intros v h v' h' H Hl HW; cbn [push_all] in H.
    - injection H as <- <-. done.
    - binv H. unfold nlen in Hl. cbn in Hl. destruct (push_same _ _ _ _ _ E) as [Hs Hn]; [lia|done|].
      eapply same_trans; [exact Hs|]. destruct Hs as (_ & Hc & _). eapply IH; [exact H|unfold nlen; lia|lia].
  Qed.
  Lemma pop_same v h v' h' : pop_back (A := A) v h = Ok (v', h') -> same v v'.
  Proof. unfold pop_back. intros H. binv H. injection H as <- <-. done. Qed.
  Lemma repeat_pop_same n : forall v h v' h', repeat_m n (pop_back (A := A)) v h = Ok (v', h') -> same v v'.
  Proof.
    induction n as [|n IH]; intros v h v' h' H; cbn [repeat_m] in H.
    - injection H as <- <-. done.
    - binv H. eapply same_trans; [by eapply pop_same|by eapply IH].
  Qed.
  Lemma resize_same v n rd h v' h' : resize_m (A := A) sz v n rd h = Ok (v', h') -> n <= v_cap v -> v_cap v < W -> same v v'.
  Proof.
    unfold resize_m. intros H Hn HW. destruct (N.ltb_spec n (v_len v)); [by eapply repeat_pop_same|].
    destruct (N.ltb_spec (v_len v) n); [|by injection H as <- <-].
    rewrite (proj2 (N.ltb_ge _ _)) in H by lia. rewrite bind_ret in H. eapply repeat_push_same; [exact H|lia|done].
  Qed.
  Lemma assign_fill_same v n rd h v' h' : assign_fill_m (A := A) sz v n rd h = Ok (v', h') -> n <= v_cap v -> v_cap v < W -> same v v'.
  Proof.
    unfold assign_fill_m, destroy_all. intros H Hn HW. binv H. binv E. injection E as <- <-. binv H.
    apply reserve_same in E as [Hs Hl]; [|done]. eapply same_trans; [exact Hs|]. destruct Hs as (_ & Hc & _). cbn in Hl, Hc.
    eapply repeat_push_same; [exact H|lia|lia].
  Qed.
  Lemma assign_list_same v xs h v' h' : assign_list (A := A) sz v xs h = Ok (v', h') -> nlen xs <= v_cap v -> v_cap v < W -> same v v'.
  Proof.
    unfold assign_list, destroy_all. intros H Hn HW. binv H. binv E. injection E as <- <-. binv H.
    apply reserve_same in E as [Hs Hl]; [|done]. eapply same_trans; [exact Hs|]. destruct Hs as (_ & Hc & _). cbn in Hl, Hc.
    eapply push_all_same; [exact H|unfold nlen in *; lia|lia].
  Qed.
  Lemma back_same v p n h v' h' : move_elements_back (A := A) sz v p n h = Ok (v', h') -> v_len v + n <= v_cap v -> v_cap v < W -> same v v'.
  Proof.
    unfold move_elements_back. intros H Hn HW. destruct (N.eqb_spec (v_len v) 0); [by injection H as <- <-|].
    rewrite uadd_small in H by lia. rewrite (proj2 (N.ltb_ge _ _)) in H by lia. rewrite bind_ret in H.
    binv H. injection H as <- <-. done.
  Qed.
  Lemma emplace_same v p x h v' h' : emplace (A := A) sz v p x h = Ok (v', h') -> v_len v < v_cap v -> v_cap v < W -> same v v'.
  Proof.
    unfold emplace. intros H Hn HW. destruct (N.eqb_spec (v_len v) (v_cap v)); [lia|]. rewrite bind_ret in H.
    binv H. binv H. injection H as <- <-. eapply back_same; [exact E|lia|done].
  Qed.
  Lemma insert1_same v p x h v' h' k : insert1 (A := A) sz v p x h = Ok ((v', k), h') -> v_len v < v_cap v -> v_cap v < W -> same v v'.
  Proof. unfold insert1. intros H Hn HW. binv H. injection H as <- <- <-. by eapply emplace_same. Qed.
  Lemma insert_fill_same v p n rd h v' h' k : insert_fill_m (A := A) sz v p n rd h = Ok ((v', k), h') ->
    v_len v + n <= v_cap v -> v_cap v < W -> same v v'.
  Proof. unfold insert_fill_m. intros H Hn HW. binv H. binv H. injection H as <- <- <-. by eapply back_same. Qed.
  Lemma insert_range_same v p xs h v' h' k : insert_range (A := A) sz v p xs h = Ok ((v', k), h') ->
    v_len v + nlen xs <= v_cap v -> v_cap v < W -> same v v'.
  Proof.
    unfold insert_range. intros H Hn HW. rewrite uadd_small in H by (unfold nlen in *; lia).
    rewrite (proj2 (N.ltb_ge _ _)) in H by (unfold nlen in *; lia). rewrite bind_ret in H.
    binv H. binv H. injection H as <- <- <-. by eapply back_same.
  Qed.
  Lemma erase1_same v p h v' h' k : erase1 (A := A) v p h = Ok ((v', k), h') -> same v v'.
  Proof.
    unfold erase1. intros H. destruct (p =? usub (v_len v) 1); [|destruct (p <? usub (v_len v) 1)].
    - binv H. injection H as <- <- <-. by eapply pop_same.
    - binv H. binv H. injection H as <- <- <-. by eapply pop_same.
    - injection H as <- <- <-. done.
  Qed.
  Lemma erase_range_same v p q h v' h' k : erase_range (A := A) v p q h = Ok ((v', k), h') -> same v v'.
  Proof.
    unfold erase_range. intros H. destruct (v_len v <? q).
    - injection H as <- <- <-. done.
    - binv H. binv H. injection H as <- <- <-. by eapply repeat_pop_same.
  Qed.
  Lemma emplace_back_same v x h v' h' y : emplace_back (A := A) sz v x h = Ok ((v', y), h') -> v_len v < v_cap v -> v_cap v < W -> same v v'.
  Proof. unfold emplace_back. intros H Hn HW. binv H. binv H. injection H as <- <- <-. by eapply push_same. Qed.
  Lemma copy_assign_same v r h v' h' : copy_assign (A := A) sz v r h = Ok (v', h') -> v_alloc v = v_alloc r -> v_cap r <= v_cap v ->
    same v v'.
  Proof.
    unfold copy_assign. intros H Ha Hc. rewrite Ha, N.eqb_refl in H. binv H. apply reserve_same in E as [Hs _]; [|done].
    cbv zeta in H. binv H. binv H. injection H as <- <-. exact Hs.
  Qed.
End Stay.

(** ** The capacity the members leave *)
Section Caps.
  Context {A : Type} (sz : N).
  Implicit Types (h : heap (block A)) (v : vec) (xs ys : list A).
  Definition shape v v' (c : N) : Prop := v_cap v' = c /\ v_alloc v' = v_alloc v.
  Lemma same_shape v v' : same v v' -> shape v v' (v_cap v).
  Proof. by intros (_ & ? & ?). Qed.
  Lemma shape_same a b c n : shape a b n -> same b c -> shape a c n.
  Proof. intros [H1 H2] (_ & H3 & H4). split; congruence. Qed.

  Lemma clear_shape v h v' h' : clear (A := A) sz v h = Ok (v', h') -> v' = Vec 0 0 None (v_alloc v).
  Proof. unfold clear, destroy_all, deallocate. intros H. binv H. binv E. injection E as <- <-. binv H. by injection H as <- <-. Qed.
  Lemma allocate_reserve_shape v n h v' h' : allocate_reserve (A := A) sz v n h = Ok (v', h') -> shape v v' n /\ v_len v' = v_len v.
  Proof.
    unfold allocate_reserve. intros H. binv H. binv H. binv H. apply clear_shape in E1 as ->. by injection H as <- <-.
  Qed.
  Lemma reserve_shape v n h v' h' : reserve (A := A) sz v n h = Ok (v', h') -> shape v v' (N.max (v_cap v) n) /\ v_len v' = v_len v.
  Proof.
    unfold reserve. intros H. destruct (N.ltb_spec (v_cap v) n).
    - rewrite N.max_r by lia. by eapply allocate_reserve_shape.
    - rewrite N.max_l by lia. by injection H as <- <-.
  Qed.
  Lemma push_shape v rd h v' h' : push_back_m (A := A) sz v rd h = Ok (v', h') -> v_len v <= v_cap v -> v_cap v < W -> 2 * v_len v + 2 < W ->
    shape v v' (pushed (v_len v) (v_cap v)) /\ v_len v' = v_len v + 1.
  Proof.
    unfold push_back_m, extend_space, pushed. intros H Hl HW H2. binv H. binv H. binv H. injection H as <- <-.
    destruct (N.leb_spec (v_cap v) (v_len v)).
    - rewrite (proj2 (N.ltb_ge _ _)) by lia. apply reserve_shape in E as [[Hc Ha] Hn].
      rewrite uadd_small by lia. cbn. rewrite Hn. split; [|done]. split; [|done]. cbn. rewrite Hc.
      destruct (N.eqb_spec (v_cap v) 0) as [->|]; [done|]. rewrite umul_small by lia. lia.
    - injection E as <- <-. rewrite (proj2 (N.ltb_lt _ _)) by lia. rewrite uadd_small by lia. done.
  Qed.
  Lemma pushed_ge len cap : len <= cap -> len + 1 <= pushed len cap.
  Proof. unfold pushed. intros. destruct (N.ltb_spec len cap); [lia|]. destruct (N.eqb_spec cap 0); lia. Qed.
  Lemma push_all_shape ys : forall v h v' h', push_all (A := A) sz ys v h = Ok (v', h') -> v_len v <= v_cap v -> v_cap v < W ->
    2 * (v_len v + nlen ys) + 2 < W -> shape v v' (grown (length ys) (v_len v) (v_cap v)).
  Proof.
    induction ys as [|y ys IH]; intros v h v' h' H Hl HW H2; cbn [push_all] in H.
    - by injection H as <- <-.
    - unfold nlen in *. cbn [length] in H2. binv H. apply push_shape in E as [[Hc Ha] Hn]; [|done|done|lia].
      apply IH in H as [Hc' Ha'].
      + cbn [length grown]. rewrite Hn, Hc in Hc'. split; [done|congruence].
      + rewrite Hn, Hc. by apply pushed_ge.
      + rewrite Hc. unfold pushed. destruct (_ <? _) eqn:E1; [lia|]. apply N.ltb_ge in E1. destruct (N.eqb_spec (v_cap v) 0); lia.
      + lia.
  Qed.
  Lemma resize_shape v n rd h v' h' : resize_m (A := A) sz v n rd h = Ok (v', h') -> v_len v <= v_cap v -> v_cap v < W -> n < W ->
    shape v v' (N.max (v_cap v) n).
  Proof.
    unfold resize_m. intros H Hl HW Hn. destruct (N.ltb_spec n (v_len v)).
    - rewrite N.max_l by lia. apply same_shape. by eapply repeat_pop_same.
    - destruct (N.ltb_spec (v_len v) n); [|injection H as <- <-; by rewrite N.max_l by lia].
      binv H. assert (Hs : shape v x (N.max (v_cap v) n) /\ v_len x = v_len v).
      { destruct (N.ltb_spec (v_cap v) n); [by eapply reserve_shape|]. injection E as <- <-. by rewrite N.max_l by lia. }
      destruct Hs as [Hs Hlx]. eapply shape_same; [exact Hs|]. destruct Hs as [Hc Ha].
      eapply repeat_push_same; [exact H| |]; lia.
  Qed.
  Lemma assign_fill_shape v n rd h v' h' : assign_fill_m (A := A) sz v n rd h = Ok (v', h') -> v_cap v < W -> n < W ->
    shape v v' (N.max (v_cap v) n).
  Proof.
    unfold assign_fill_m, destroy_all. intros H HW Hn. binv H. binv E. injection E as <- <-. binv H.
    apply reserve_shape in E as [Hs Hl]. cbn in Hl. eapply shape_same; [exact Hs|]. destruct Hs as [Hc Ha]. cbn in Hc.
    eapply repeat_push_same; [exact H| |]; lia.
  Qed.
  Lemma assign_list_shape v xs h v' h' : assign_list (A := A) sz v xs h = Ok (v', h') -> v_cap v < W -> nlen xs < W ->
    shape v v' (N.max (v_cap v) (nlen xs)).
  Proof.
    unfold assign_list, destroy_all. intros H HW Hn. binv H. binv E. injection E as <- <-. binv H.
    apply reserve_shape in E as [Hs Hl]. cbn in Hl. eapply shape_same; [exact Hs|]. destruct Hs as [Hc Ha]. cbn in Hc. unfold nlen in *.
    eapply push_all_same; [exact H| |]; unfold nlen; lia.
  Qed.
  Lemma back_shape v p n h v' h' : move_elements_back (A := A) sz v p n h = Ok (v', h') -> v_len v <= v_cap v ->
    v_len v + n < W -> v_len v <> 0 -> shape v v' (N.max (v_cap v) (v_len v + n)).
  Proof.
    unfold move_elements_back. intros H Hl HW Hn. rewrite (proj2 (N.eqb_neq _ _)) in H by done.
    rewrite (uadd_small (v_len v) n) in H by lia. binv H. binv H. injection H as <- <-.
    assert (Hs : shape v x (N.max (v_cap v) (v_len v + n))).
    { destruct (N.ltb_spec (v_cap v) (v_len v + n)); [by eapply reserve_shape|]. injection E as <- <-. by rewrite N.max_l by lia. }
    exact Hs.
  Qed.
  Lemma emplace_shape v p x h v' h' : emplace (A := A) sz v p x h = Ok (v', h') -> v_len v <= v_cap v -> v_cap v < W -> 2 * v_len v + 2 < W ->
    v_len v <> 0 -> shape v v' (pushed (v_len v) (v_cap v)).
  Proof.
    unfold emplace, extend_space, pushed. intros H Hl HW H2 Hn. binv H. binv H. binv H. injection H as <- <-.
    destruct (N.eqb_spec (v_len v) (v_cap v)) as [He|].
    - rewrite (proj2 (N.ltb_ge _ _)) by lia. rewrite (proj2 (N.eqb_neq _ _)) in E by lia. rewrite (proj2 (N.eqb_neq _ _)) by lia.
      apply reserve_shape in E as [[Hc Ha] Hlx]. rewrite umul_small in Hc by lia. rewrite N.max_r in Hc by lia.
      apply back_same in E0 as (_ & Hc' & Ha'); [|lia|lia]. split; congruence.
    - injection E as <- <-. rewrite (proj2 (N.ltb_lt _ _)) by lia. apply same_shape. eapply back_same; [exact E0|lia|done].
  Qed.
  Lemma insert_range_shape v p xs h v' h' k : insert_range (A := A) sz v p xs h = Ok ((v', k), h') -> v_len v <= v_cap v -> v_cap v < W ->
    v_len v + nlen xs < W -> shape v v' (N.max (v_cap v) (v_len v + nlen xs)).
  Proof.
    unfold insert_range, nlen. intros H Hl HW Hn. rewrite uadd_small in H by lia. binv H. binv H. binv H. injection H as <- <- <-.
    assert (Hs : shape v x (N.max (v_cap v) (v_len v + N.of_nat (length xs))) /\ v_len x = v_len v).
    { destruct (N.ltb_spec (v_cap v) (v_len v + N.of_nat (length xs))).
      - rewrite N.max_r by lia. by eapply allocate_reserve_shape.
      - injection E as <- <-. by rewrite N.max_l by lia. }
    destruct Hs as [Hs Hlx]. eapply shape_same; [exact Hs|]. destruct Hs as [Hc Ha]. eapply back_same; [exact E0|lia|lia].
  Qed.
  Lemma copy_impl_shape v r h v' h' : copy_impl (A := A) sz v r h = Ok (v', h') -> shape v v' (v_len r).
  Proof. unfold copy_impl, allocate. intros H. binv H. binv E. injection E as <- <-. binv H. by injection H as <- <-. Qed.
  Lemma copy_assign_shape v r h v' h' : copy_assign (A := A) sz v r h = Ok (v', h') ->
    shape v v' (if v_alloc v =? v_alloc r then N.max (v_cap v) (v_cap r) else v_len r).
  Proof.
    unfold copy_assign. intros H. destruct (v_alloc v =? v_alloc r).
    - binv H. apply reserve_shape in E as [Hs _]. cbv zeta in H. binv H. binv H. injection H as <- <-. exact Hs.
    - binv H. apply clear_shape in E as ->. by apply copy_impl_shape in H.
  Qed.
  Lemma construct_back_same xs : forall v h v' h', construct_back (A := A) v xs h = Ok (v', h') -> same v v'.
  Proof.
    induction xs as [|x xs IH]; intros v h v' h' H; cbn [construct_back] in H; [by injection H as <- <-|].
    binv H. eapply same_trans; [|by eapply IH]. done.
  Qed.
End Caps.

Section SpecFacts.
  Context {A : Type}.
  Implicit Types (s : gmap nat (list A)).
  Lemma create_inv s i xs s' out : VecSpec.create (A := A) s i xs = Some (s', out) -> s' !! i = Some xs.
  Proof. unfold VecSpec.create. destruct (s !! i); [done|]. intros [= <- _]. apply lookup_insert. Qed.
  Lemma modify_inv s i f s' out : VecSpec.modify (A := A) s i f = Some (s', out) ->
    exists xs ys, s !! i = Some xs /\ f xs = Some (ys, out) /\ s' !! i = Some ys.
  Proof.
    unfold VecSpec.modify. destruct (s !! i) as [xs|]; [|done]. destruct (f xs) as [[ys o]|] eqn:Ef; [|done]. intros [= <- <-].
    exists xs, ys. split; [done|]. split; [done|]. apply lookup_insert.
  Qed.
  Lemma nlen_nrep n (x : A) : nlen (nrep n x) = n.
  Proof. unfold nlen, nrep. rewrite replicate_length. lia. Qed.
  Lemma nlen_resize n (xs : list A) x : nlen (ntake n xs ++ nrep (n - nlen xs) x) = n.
  Proof. unfold nlen, ntake, nrep. rewrite app_length, take_length, replicate_length. lia. Qed.
  Lemma nlen_ins p (xs ys : list A) : p <= nlen xs -> nlen (ntake p xs ++ ys ++ ndrop p xs) = nlen xs + nlen ys.
  Proof. unfold nlen, ntake, ndrop. intros. rewrite !app_length, take_length, drop_length. lia. Qed.
End SpecFacts.

(** ** The rule is right *)
Section Steps.
  Context {A : Type} (dflt : A) (eqb : A -> A -> bool) (cmp : A -> A -> comparison).
  Context (sz lmax : N) (Hsz : 1 <= sz) (Hlim : sz * (2 * lmax + 2) <= alloc_max).
  Notation WW := (world (block A) vec).
  Notation wok := (world_ok (vrep (A := A) sz lmax)).
  Notation spec := (vspec_step dflt eqb cmp).
  Notation step := (vec_step sz dflt eqb cmp).
  Implicit Types (w : WW) (s : gmap nat (list A)).

  Lemma lift_inv {X} (m : M (heap (block A)) X) w x w' : lift (O := vec) m w = Ok (x, w') ->
    m (w_heap w) = Ok (x, w_heap w') /\ w_vars w' = w_vars w.
  Proof. unfold lift. destruct (m (w_heap w)) as [[y h]|]; [|done]. by intros [= <- <-]. Qed.
  Lemma wget_inv i w o w' : wget (C := block A) i w = Ok (o, w') -> w_vars w !! i = Some o /\ w' = w.
  Proof. unfold wget. destruct (w_vars w !! i) as [p|]; [|done]. by intros [= <- <-]. Qed.
  Lemma wnew_inv i w w' : wnew (C := block A) (O := vec) i w = Ok (tt, w') -> w_vars w !! i = None /\ w' = w.
  Proof. unfold wnew. destruct (w_vars w !! i) as [p|]; [done|]. by intros [= <-]. Qed.

  Lemma mk_keeps i m w out w' j v : mk (A := A) i m w = Ok (out, w') -> w_vars w !! j = Some v -> w_vars w' !! j = Some v.
  Proof.
    unfold mk. intros H Hj. binv H. destruct x. apply wnew_inv in E as [Hn ->]. binv H. apply lift_inv in E as [_ Hv].
    binv H. injection E as <- <-. injection H as <- <-. cbn [w_vars]. rewrite lookup_insert_ne by congruence. by rewrite Hv.
  Qed.
  Lemma upd1_other i f w out w' j v : upd1 (A := A) i f w = Ok (out, w') -> i <> j -> w_vars w !! j = Some v -> w_vars w' !! j = Some v.
  Proof.
    unfold upd1. intros H Hn Hj. binv H. apply wget_inv in E as [_ ->]. binv H. apply lift_inv in E as [_ Hv].
    binv H. injection E as <- <-. injection H as <- <-. cbn [w_vars]. rewrite lookup_insert_ne by done. by rewrite Hv.
  Qed.
  Lemma upd1_at j f w out w' v : upd1 (A := A) j f w = Ok (out, w') -> w_vars w !! j = Some v ->
    exists v', f v (w_heap w) = Ok (v', w_heap w') /\ w_vars w' !! j = Some v'.
  Proof.
    unfold upd1. intros H Hj. binv H. apply wget_inv in E as [Hx ->]. binv H. apply lift_inv in E as [E Hv].
    binv H. injection E0 as <- <-. injection H as <- <-. cbn [w_vars w_heap]. assert (x = v) as -> by congruence.
    exists x0. by rewrite lookup_insert.
  Qed.
  Lemma upd1o_other {X} i f (g : X -> vout A) w out w' j v : upd1o i f g w = Ok (out, w') -> i <> j -> w_vars w !! j = Some v ->
    w_vars w' !! j = Some v.
  Proof.
    unfold upd1o. intros H Hn Hj. binv H. apply wget_inv in E as [_ ->]. binv H. apply lift_inv in E as [_ Hv].
    destruct x0 as [v1 y]. binv H. injection E as <- <-. injection H as <- <-. cbn [w_vars]. rewrite lookup_insert_ne by done. by rewrite Hv.
  Qed.
  Lemma upd1o_at {X} j f (g : X -> vout A) w out w' v : upd1o j f g w = Ok (out, w') -> w_vars w !! j = Some v ->
    exists v' y, f v (w_heap w) = Ok ((v', y), w_heap w') /\ w_vars w' !! j = Some v'.
  Proof.
    unfold upd1o. intros H Hj. binv H. apply wget_inv in E as [Hx ->]. binv H. apply lift_inv in E as [E Hv].
    destruct x0 as [v1 y]. binv H. injection E0 as <- <-. injection H as <- <-. cbn [w_vars w_heap]. assert (x = v) as -> by congruence.
    exists v1, y. by rewrite lookup_insert.
  Qed.
  Lemma obs_vars {X} i f (g : X -> vout A) w out w' : obs i f g w = Ok (out, w') -> w_vars w' = w_vars w.
  Proof.
    unfold obs. intros H. binv H. apply wget_inv in E as [Hx ->]. binv H. apply lift_inv in E as [E Hv]. by injection H as <- <-.
  Qed.

  Definition caps_of w : gmap nat (N * N) := (fun v => (v_cap v, v_alloc v)) <$> w_vars w.
  Lemma cap_of_caps w i v : w_vars w !! i = Some v -> cap_of (caps_of w) i = v_cap v.
  Proof. intros H. unfold cap_of, caps_of. by rewrite lookup_fmap, H. Qed.
  Lemma al_of_caps w i v : w_vars w !! i = Some v -> al_of (caps_of w) i = v_alloc v.
  Proof. intros H. unfold al_of, caps_of. by rewrite lookup_fmap, H. Qed.

  Lemma step_follow w s o out w' j j' v : wok w s -> step o w = Ok (out, w') -> w_vars w !! j = Some v ->
    follow (caps_of w) s j o = Some j' -> exists v', w_vars w' !! j' = Some v' /\ same v v'.
  Proof.
    intros Hwk E Hv Hf.
    assert (exists xs, s !! j = Some xs /\ v_len v = nlen xs /\ v_len v <= v_cap v /\ v_cap v < W) as (xs & Hs & Hl & Hlc & HW).
    { destruct (wok_var _ _ _ _ _ _ Hwk Hv) as (xs & fp & Hs & Hr & _). exists xs.
      split; [done|]. destruct Hr as (Hl & Hc & Hmx & _). split; [done|]. split; [done|].
      destruct (cmax_W sz lmax Hsz Hlim (v_cap v)) as (_ & _ & ?); [lia|done]. }
    unfold follow in Hf. rewrite (cap_of_caps _ _ _ Hv) in Hf. unfold len_of in Hf. rewrite Hs, <-Hl in Hf.
    assert (Hkeep : forall w2 : WW, w_vars w2 !! j = Some v -> exists v', w_vars w2 !! j = Some v' /\ same v v') by (intros; by exists v).
    assert (H1 : forall i (f : vec -> M (heap (block A)) vec) (b : bool), upd1 (A := A) i f w = Ok (out, w') ->
      (if Nat.eqb i j then (if b then Some j else None) else Some j) = Some j' ->
      (b = true -> forall v' h', f v (w_heap w) = Ok (v', h') -> same v v') -> exists v', w_vars w' !! j' = Some v' /\ same v v').
    { intros i f b Hu Hb Hsm. destruct (Nat.eqb_spec i j) as [->|Hn]; [destruct b; [|done]|]; injection Hb as <-.
      - destruct (upd1_at _ _ _ _ _ _ Hu Hv) as (v' & E1 & Hv'). exists v'. split; [done|]. by eapply Hsm.
      - apply Hkeep. by eapply upd1_other. }
    assert (H2 : forall X i (f : vec -> M (heap (block A)) (vec * X)) (g : X -> vout A) (b : bool), upd1o i f g w = Ok (out, w') ->
      (if Nat.eqb i j then (if b then Some j else None) else Some j) = Some j' ->
      (b = true -> forall v' y h', f v (w_heap w) = Ok ((v', y), h') -> same v v') -> exists v', w_vars w' !! j' = Some v' /\ same v v').
    { intros X i f g b Hu Hb Hsm. destruct (Nat.eqb_spec i j) as [->|Hn]; [destruct b; [|done]|]; injection Hb as <-.
      - destruct (upd1o_at _ _ _ _ _ _ _ Hu Hv) as (v' & y & E1 & Hv'). exists v'. split; [done|]. by eapply Hsm.
      - apply Hkeep. by eapply upd1o_other. }
    assert (Hj1 : forall i, (if Nat.eqb i j then (if true then Some j else None) else Some j) = Some j)
      by (intros i; by destruct (Nat.eqb i j)).
    destruct o; cbn [vec_step] in E;
      try (injection Hf as <-; apply Hkeep; by eapply mk_keeps);
      try (injection Hf as <-; apply Hkeep; rewrite (obs_vars _ _ _ _ _ _ E); exact Hv).
    - (* VNewCopy *) injection Hf as <-. apply Hkeep. binv E. apply wget_inv in E0 as [_ ->]. by eapply mk_keeps.
    - (* VNewCopyAl *) injection Hf as <-. apply Hkeep. binv E. apply wget_inv in E0 as [_ ->]. by eapply mk_keeps.
    - (* VNewMove *) binv E. destruct x. apply wnew_inv in E0 as [Hn ->]. binv E. apply wget_inv in E0 as [Hr ->].
      unfold move_impl in E. binv E. injection E0 as <- <-. binv E. injection E0 as <- <-. injection E as <- <-. cbn [w_vars].
      destruct (Nat.eqb_spec j0 j) as [->|Hne]; injection Hf as <-.
      + rewrite lookup_insert. assert (x = v) as -> by congruence. by eexists.
      + rewrite !lookup_insert_ne by congruence. by exists v.
    - (* VDestroy *) binv E. apply wget_inv in E0 as [Hr ->]. binv E. apply lift_inv in E0 as [_ Hvs]. binv E.
      injection E0 as <- <-. injection E as <- <-. cbn [w_vars].
      destruct (Nat.eqb_spec i j) as [->|Hne]; [done|]. injection Hf as <-. rewrite lookup_delete_ne by done. rewrite Hvs. by exists v.
    - (* VCopyAsg *) binv E. apply wget_inv in E0 as [Hr ->]. binv E. apply wget_inv in E0 as [Hr2 ->].
      destruct (Nat.eqb_spec i j0) as [->|Hne].
      + injection E as <- <-. assert (Some j = Some j') as [= <-] by (by destruct (Nat.eqb j0 j)). by exists v.
      + cbn [orb] in Hf. rewrite (cap_of_caps _ _ _ Hr2), (al_of_caps _ _ _ Hr2), (al_of_caps _ _ _ Hv) in Hf. binv E. apply lift_inv in E0 as [Ec Hvs]. binv E. injection E0 as <- <-. injection E as <- <-. cbn [w_vars].
        destruct (Nat.eqb_spec i j) as [->|Hnj].
        * destruct (N.eqb_spec (v_alloc v) (v_alloc x0)) as [Ha|]; [|done].
          destruct (N.leb_spec (v_cap x0) (v_cap v)) as [Hc|]; [|done]. injection Hf as <-. rewrite lookup_insert.
          assert (x = v) as -> by congruence. exists x1. split; [done|]. by eapply copy_assign_same.
        * injection Hf as <-. rewrite lookup_insert_ne by done. rewrite Hvs. by exists v.
    - (* VMoveAsg *) binv E. apply wget_inv in E0 as [Hr ->]. binv E. apply wget_inv in E0 as [Hr2 ->].
      destruct (Nat.eqb_spec i j0) as [->|Hne].
      + injection E as <- <-. injection Hf as <-. by exists v.
      + binv E. apply lift_inv in E0 as [Em Hvs]. destruct x1 as [v1 r1]. unfold move_assign in Em. binv Em. injection Em as <- <- Eh.
        binv E. injection E1 as <- <-. binv E. injection E1 as <- <-. injection E as <- <-. cbn [w_vars].
        destruct (Nat.eqb_spec j0 j) as [->|Hnj].
        * injection Hf as <-. rewrite lookup_insert. assert (x0 = v) as -> by congruence. by eexists.
        * destruct (Nat.eqb_spec i j) as [->|Hni]; [done|]. injection Hf as <-. rewrite !lookup_insert_ne by done. rewrite Hvs. by exists v.
    - eapply H1; [exact E|exact Hf|]. intros Hb%N.leb_le v' h' Ef. eapply assign_fill_same; [exact Ef|done..].
    - eapply H1; [exact E|exact Hf|]. intros Hb%N.leb_le v' h' Ef. eapply assign_list_same; [exact Ef|done..].
    - eapply H1; [exact E|exact Hf|]. intros Hb%N.leb_le v' h' Ef. eapply reserve_same; [exact Ef|done].
    - eapply (H1 _ _ false); [exact E|exact Hf|done].
    - eapply H1; [exact E|exact Hf|]. intros Hb%N.ltb_lt v' h' Ef. eapply push_same; [exact Ef|done..].
    - eapply H2; [exact E|exact Hf|]. intros Hb%N.ltb_lt v' y h' Ef. eapply emplace_back_same; [exact Ef|done..].
    - injection Hf as <-. eapply (H1 _ _ true); [exact E|apply Hj1|]. intros _ v' h' Ef. eapply pop_same; [exact Ef|done..].
    - eapply H1; [exact E|exact Hf|]. intros Hb%N.leb_le v' h' Ef. eapply resize_same; [exact Ef|done..].
    - eapply H1; [exact E|exact Hf|]. intros Hb%N.leb_le v' h' Ef. eapply resize_same; [exact Ef|done..].
    - (* VSwap *) binv E. apply wget_inv in E0 as [Hr ->]. binv E. apply wget_inv in E0 as [Hr2 ->]. unfold swap in E.
      binv E. injection E0 as <- <-. binv E. injection E0 as <- <-. injection E as <- <-. cbn [w_vars].
      destruct (Nat.eqb_spec i j) as [->|Hni].
      + injection Hf as <-. assert (x = v) as -> by congruence. destruct (decide (j = j0)) as [<-|Hn].
        * rewrite lookup_insert. assert (x0 = v) as -> by congruence. by eexists.
        * rewrite lookup_insert_ne, lookup_insert by done. by eexists.
      + destruct (Nat.eqb_spec j0 j) as [->|Hnj]; injection Hf as <-.
        * rewrite lookup_insert. assert (x0 = v) as -> by congruence. by eexists.
        * rewrite !lookup_insert_ne by done. by exists v.
    - eapply H1; [exact E|exact Hf|]. intros Hb%N.ltb_lt v' h' Ef. eapply emplace_same; [exact Ef|done..].
    - eapply H2; [exact E|exact Hf|]. intros Hb%N.ltb_lt v' y h' Ef. eapply insert1_same; [exact Ef|done..].
    - eapply H2; [exact E|exact Hf|]. intros Hb%N.leb_le v' y h' Ef. eapply insert_fill_same; [exact Ef|done..].
    - eapply H2; [exact E|exact Hf|]. intros Hb%N.leb_le v' y h' Ef. eapply insert_range_same; [exact Ef|done..].
    - injection Hf as <-. eapply (H2 _ _ _ _ true); [exact E|apply Hj1|]. intros _ v' y h' Ef. eapply erase1_same; [exact Ef|done..].
    - injection Hf as <-. eapply (H2 _ _ _ _ true); [exact E|apply Hj1|]. intros _ v' y h' Ef. eapply erase_range_same; [exact Ef|done..].
    - injection Hf as <-. apply Hkeep. binv E. apply wget_inv in E0 as [_ ->]. rewrite (obs_vars _ _ _ _ _ _ E). exact Hv.
    - injection Hf as <-. apply Hkeep. binv E. apply wget_inv in E0 as [_ ->]. rewrite (obs_vars _ _ _ _ _ _ E). exact Hv.
  Qed.

  Lemma mk_inv i m w out w' : mk (A := A) i m w = Ok (out, w') ->
    exists v, m (w_heap w) = Ok (v, w_heap w') /\ w_vars w' = <[i := v]> (w_vars w).
  Proof.
    unfold mk. intros H. binv H. destruct x. apply wnew_inv in E as [Hn ->]. binv H. apply lift_inv in E as [E Hv].
    binv H. injection E0 as <- <-. injection H as <- <-. cbn [w_vars w_heap]. exists x. by rewrite Hv.
  Qed.
  Lemma upd1_inv i f w out w' : upd1 (A := A) i f w = Ok (out, w') ->
    exists v v', w_vars w !! i = Some v /\ f v (w_heap w) = Ok (v', w_heap w') /\ w_vars w' = <[i := v']> (w_vars w).
  Proof.
    unfold upd1. intros H. binv H. apply wget_inv in E as [Hx ->]. binv H. apply lift_inv in E as [E Hv].
    binv H. injection E0 as <- <-. injection H as <- <-. cbn [w_vars w_heap]. exists x, x0. by rewrite Hv.
  Qed.
  Lemma upd1o_inv {X} i f (g : X -> vout A) w out w' : upd1o i f g w = Ok (out, w') ->
    exists v v' y, w_vars w !! i = Some v /\ f v (w_heap w) = Ok ((v', y), w_heap w') /\ w_vars w' = <[i := v']> (w_vars w).
  Proof.
    unfold upd1o. intros H. binv H. apply wget_inv in E as [Hx ->]. binv H. apply lift_inv in E as [E Hv].
    destruct x0 as [v1 y]. binv H. injection E0 as <- <-. injection H as <- <-. cbn [w_vars w_heap]. exists x, v1, y. by rewrite Hv.
  Qed.

  Lemma put_caps w w' i v c al : w_vars w' = <[i := v]> (w_vars w) -> v_cap v = c -> v_alloc v = al ->
    caps_of w' = <[i := (c, al)]> (caps_of w).
  Proof. unfold caps_of. intros -> <- <-. by rewrite fmap_insert. Qed.
  Lemma set_caps w w' i v v' c : w_vars w !! i = Some v -> w_vars w' = <[i := v']> (w_vars w) -> shape v v' c ->
    caps_of w' = <[i := (c, al_of (caps_of w) i)]> (caps_of w).
  Proof. intros Hv Hw [Hc Ha]. eapply put_caps; [done|done|]. by rewrite (al_of_caps _ _ _ Hv). Qed.

  Lemma step_caps w s o s' out w' : wok w s -> step o w = Ok (out, w') -> spec s o = Some (s', out) ->
    vop_safe s o -> vlimit lmax o s' -> caps_of w' = caps_after (caps_of w) s o.
  Proof.
    intros Hwk E Es Hsafe [Hlim' Hres].
    assert (HV : forall i v, w_vars w !! i = Some v -> exists xs, s !! i = Some xs /\ len_of s i = v_len v /\ v_len v = nlen xs /\ v_len v <= v_cap v /\ v_cap v < W).
    { intros i v Hv. destruct (wok_var _ _ _ _ _ _ Hwk Hv) as (xs & fp & Hs & Hr & _). exists xs. unfold len_of. rewrite Hs.
      destruct Hr as (Hl & Hc & Hmx & _). split_and!; try done.
      destruct (cmax_W sz lmax Hsz Hlim (v_cap v)) as (_ & _ & ?); [lia|done]. }
    assert (HL : forall n, n <= lmax -> 2 * n + 2 < W).
    { intros n Hn. destruct (cmax_W sz lmax Hsz Hlim (2 * lmax + 2)) as (_ & _ & ?); lia. }
    destruct o; cbn [vec_step] in E; cbn [vspec_step] in Es; cbn [caps_after];
      try (unfold caps_of; rewrite (obs_vars _ _ _ _ _ _ E); reflexivity);
      try (apply mk_inv in E as (v & Em & Hw'));
      try (apply upd1_inv in E as (v & v' & Hv & Ef & Hw'));
      try (apply upd1o_inv in E as (v & v' & y & Hv & Ef & Hw'));
      try (apply create_inv in Es; apply Hlim' in Es);
      try (destruct (HV _ _ Hv) as (xs0 & Hs0 & Hlo & Hl & Hlc & HW)).
    - unfold new_default, allocate in Em. binv Em. injection Em as <- Eh. by eapply put_caps.
    - injection Em as <- Eh. by eapply put_caps.
    - unfold new_fill in Em. apply assign_fill_shape in Em as [Hc Ha]; [|cbn; unfold W; lia|rewrite nlen_nrep in Es; specialize (HL _ Es); lia].
      eapply put_caps; [done|rewrite Hc; cbn; lia|done].
    - unfold new_fill in Em. apply assign_fill_shape in Em as [Hc Ha]; [|cbn; unfold W; lia|rewrite nlen_nrep in Es; specialize (HL _ Es); lia].
      eapply put_caps; [done|rewrite Hc; cbn; lia|done].
    - unfold new_list, allocate in Em. binv Em. binv E. injection E as <- Eh. binv Em. injection Em as <- Eh2. by eapply put_caps.
    - unfold new_range, allocate in Em. binv Em. binv E. injection E as <- Eh. apply construct_back_same in Em as (_ & Hc & Ha).
      by eapply put_caps.
    - unfold from_iter, new_default, allocate in Em. binv Em. binv E. injection E as <- Eh.
      apply push_all_shape in Em as [Hc Ha]; [|cbn; lia|done|specialize (HL _ Es); cbn; lia]. by eapply put_caps.
    - binv E. apply wget_inv in E0 as [Hr ->]. apply mk_inv in E as (v & Em & Hw').
      apply copy_impl_shape in Em as [Hc Ha]. destruct (HV _ _ Hr) as (xs0 & Hs0 & Hlo & _). rewrite Hlo. by eapply put_caps.
    - binv E. apply wget_inv in E0 as [Hr ->]. apply mk_inv in E as (v & Em & Hw').
      apply copy_impl_shape in Em as [Hc Ha]. destruct (HV _ _ Hr) as (xs0 & Hs0 & Hlo & _). rewrite Hlo. by eapply put_caps.
    - binv E. destruct x. apply wnew_inv in E0 as [Hn ->]. binv E. apply wget_inv in E0 as [Hr ->].
      unfold move_impl in E. binv E. injection E0 as <- <-. binv E. injection E0 as <- <-. injection E as <- <-.
      rewrite (cap_of_caps _ _ _ Hr), (al_of_caps _ _ _ Hr). unfold caps_of. cbn [w_vars]. by rewrite !fmap_insert.
    - binv E. apply wget_inv in E0 as [Hr ->]. binv E. apply lift_inv in E0 as [_ Hvs]. binv E.
      injection E0 as <- <-. injection E as <- <-. unfold caps_of. cbn [w_vars]. by rewrite fmap_delete, Hvs.
    - binv E. apply wget_inv in E0 as [Hr ->]. binv E. apply wget_inv in E0 as [Hr2 ->].
      destruct (Nat.eqb_spec i j) as [->|Hne]; [by injection E as <- <-|].
      binv E. apply lift_inv in E0 as [Ec Hvs]. binv E. injection E0 as <- <-. injection E as <- <-.
      apply copy_assign_shape in Ec. destruct (HV _ _ Hr2) as (xs0 & Hs0 & Hlo & _).
      rewrite (al_of_caps _ _ _ Hr), (al_of_caps _ _ _ Hr2), (cap_of_caps _ _ _ Hr), (cap_of_caps _ _ _ Hr2), Hlo.
      destruct (v_alloc x =? v_alloc x0); destruct Ec as [Hc Ha]; (eapply put_caps; [cbn [w_vars]; by rewrite Hvs|done|done]).
    - binv E. apply wget_inv in E0 as [Hr ->]. binv E. apply wget_inv in E0 as [Hr2 ->].
      destruct (Nat.eqb_spec i j) as [->|Hne]; [by injection E as <- <-|].
      binv E. apply lift_inv in E0 as [Em Hvs]. destruct x1 as [v1 r1]. unfold move_assign in Em. binv Em. injection Em as <- <- Eh.
      binv E. injection E1 as <- <-. binv E. injection E1 as <- <-. injection E as <- <-.
      rewrite (cap_of_caps _ _ _ Hr2), (al_of_caps _ _ _ Hr2). unfold caps_of. cbn [w_vars]. by rewrite !fmap_insert, Hvs.
    - apply modify_inv in Es as (xs & ys & Hs & [= <- _] & Hs'). apply Hlim' in Hs'. rewrite nlen_nrep in Hs'. specialize (HL _ Hs').
      rewrite (cap_of_caps _ _ _ Hv). eapply set_caps; [done|done|]. eapply assign_fill_shape; [exact Ef|done|lia].
    - apply modify_inv in Es as (xs' & ys & Hs & [= <- _] & Hs'). apply Hlim' in Hs'. specialize (HL _ Hs').
      rewrite (cap_of_caps _ _ _ Hv). eapply set_caps; [done|done|]. eapply assign_list_shape; [exact Ef|done|lia].
    - rewrite (cap_of_caps _ _ _ Hv). eapply set_caps; [done|done|]. eapply reserve_shape; exact Ef.
    - eapply set_caps; [done|done|]. by apply clear_shape in Ef as ->.
    - apply modify_inv in Es as (xs & ys & Hs & [= <- _] & Hs'). apply Hlim' in Hs'. rewrite nlen_app in Hs'. assert (xs = xs0) as -> by congruence.
      rewrite (cap_of_caps _ _ _ Hv), Hlo. eapply set_caps; [done|done|].
      eapply push_shape; [exact Ef|done|done|]. specialize (HL (nlen xs0) ltac:(lia)). lia.
    - apply modify_inv in Es as (xs & ys & Hs & [= <- _] & Hs'). apply Hlim' in Hs'. rewrite nlen_app in Hs'. assert (xs = xs0) as -> by congruence.
      rewrite (cap_of_caps _ _ _ Hv), Hlo. eapply set_caps; [done|done|]. unfold emplace_back in Ef. binv Ef. binv Ef. injection Ef as <- <- Eh.
      eapply push_shape; [exact E|done|done|]. specialize (HL (nlen xs0) ltac:(lia)). lia.
    - apply pop_same in Ef as (_ & Hc & Ha). rewrite (put_caps _ _ _ _ _ _ Hw' Hc Ha). apply insert_id. unfold caps_of. by rewrite lookup_fmap, Hv.
    - apply modify_inv in Es as (xs & ys & Hs & [= <- _] & Hs'). apply Hlim' in Hs'. rewrite nlen_resize in Hs'. specialize (HL _ Hs').
      rewrite (cap_of_caps _ _ _ Hv). eapply set_caps; [done|done|]. eapply resize_shape; [exact Ef|done|done|lia].
    - apply modify_inv in Es as (xs & ys & Hs & [= <- _] & Hs'). apply Hlim' in Hs'. rewrite nlen_resize in Hs'. specialize (HL _ Hs').
      rewrite (cap_of_caps _ _ _ Hv). eapply set_caps; [done|done|]. eapply resize_shape; [exact Ef|done|done|lia].
    - binv E. apply wget_inv in E0 as [Hr ->]. binv E. apply wget_inv in E0 as [Hr2 ->]. unfold swap in E.
      binv E. injection E0 as <- <-. binv E. injection E0 as <- <-. injection E as <- <-.
      rewrite (cap_of_caps _ _ _ Hr2), (al_of_caps _ _ _ Hr2), (cap_of_caps _ _ _ Hr), (al_of_caps _ _ _ Hr).
      unfold caps_of. cbn [w_vars]. by rewrite !fmap_insert.
    - apply modify_inv in Es as (xs & ys & Hs & Ey & Hs'). apply Hlim' in Hs'. assert (xs = xs0) as -> by congruence.
      destruct (N.leb_spec p (nlen xs0)); [|done]. assert (ys = ntake p xs0 ++ [x] ++ ndrop p xs0) as -> by congruence. rewrite nlen_ins in Hs' by done. change (nlen [x]) with 1 in Hs'.
      cbn [vop_safe] in Hsafe. unfold on_var in Hsafe. rewrite Hs in Hsafe. destruct Hsafe as (Hne & _).
      rewrite (cap_of_caps _ _ _ Hv), Hlo. eapply set_caps; [done|done|].
      eapply emplace_shape; [exact Ef|done|done| |]; [specialize (HL (nlen xs0) ltac:(lia)); lia|].
      rewrite Hl. destruct xs0; [done|]. unfold nlen. cbn [length]. lia.
    - apply modify_inv in Es as (xs & ys & Hs & Ey & Hs'). apply Hlim' in Hs'. assert (xs = xs0) as -> by congruence.
      destruct (N.leb_spec p (nlen xs0)); [|done]. assert (ys = ntake p xs0 ++ [x] ++ ndrop p xs0) as -> by congruence. rewrite nlen_ins in Hs' by done. change (nlen [x]) with 1 in Hs'.
      cbn [vop_safe] in Hsafe. unfold on_var in Hsafe. rewrite Hs in Hsafe. destruct Hsafe as (Hne & _).
      rewrite (cap_of_caps _ _ _ Hv), Hlo. eapply set_caps; [done|done|]. unfold insert1 in Ef. binv Ef. injection Ef as <- <- Eh.
      eapply emplace_shape; [exact E|done|done| |]; [specialize (HL (nlen xs0) ltac:(lia)); lia|].
      rewrite Hl. destruct xs0; [done|]. unfold nlen. cbn [length]. lia.
    - apply modify_inv in Es as (xs & ys & Hs & Ey & Hs'). apply Hlim' in Hs'. assert (xs = xs0) as -> by congruence.
      destruct (N.leb_spec p (nlen xs0)); [|done]. injection Ey as <- _. rewrite nlen_ins, nlen_nrep in Hs' by done.
      cbn [vop_safe] in Hsafe. unfold on_var in Hsafe. rewrite Hs in Hsafe. destruct Hsafe as (Hne & _).
      rewrite (cap_of_caps _ _ _ Hv), Hlo. eapply set_caps; [done|done|]. unfold insert_fill_m in Ef. binv Ef. binv Ef. injection Ef as <- <- Eh.
      eapply back_shape; [exact E|done| |]; [specialize (HL (nlen xs0 + n) ltac:(lia)); lia|].
      rewrite Hl. destruct xs0; [done|]. unfold nlen. cbn [length]. lia.
    - apply modify_inv in Es as (xs' & ys & Hs & Ey & Hs'). apply Hlim' in Hs'. assert (xs' = xs0) as -> by congruence.
      destruct (N.leb_spec p (nlen xs0)); [|done]. injection Ey as <- _. rewrite nlen_ins in Hs' by done.
      rewrite (cap_of_caps _ _ _ Hv), Hlo. eapply set_caps; [done|done|].
      eapply insert_range_shape; [exact Ef|done|done|]. specialize (HL _ Hs'). lia.
    - apply erase1_same in Ef as (_ & Hc & Ha). rewrite (put_caps _ _ _ _ _ _ Hw' Hc Ha). apply insert_id. unfold caps_of. by rewrite lookup_fmap, Hv.
    - apply erase_range_same in Ef as (_ & Hc & Ha). rewrite (put_caps _ _ _ _ _ _ Hw' Hc Ha). apply insert_id. unfold caps_of. by rewrite lookup_fmap, Hv.
    - binv E. apply wget_inv in E0 as [_ ->]. unfold caps_of. by rewrite (obs_vars _ _ _ _ _ _ E).
    - binv E. apply wget_inv in E0 as [_ ->]. unfold caps_of. by rewrite (obs_vars _ _ _ _ _ _ E).
  Qed.
End Steps.

(** ** Freed addresses stay freed *)
(** A property of heaps that allocation, writing, freeing and counting keep. *)
Definition prim {A} (I : heap (block A) -> Prop) : Prop :=
  (forall c h, I h -> I (Heap (<[hnext h := c]> (hmap h)) (hnext h + 1) (hmoves h))) /\
  (forall a c h, I h -> is_Some (hmap h !! a) -> I (Heap (<[a := c]> (hmap h)) (hnext h) (hmoves h))) /\
  (forall a h, I h -> I (Heap (delete a (hmap h)) (hnext h) (hmoves h))) /\
  (forall h, I h -> I (Heap (hmap h) (hnext h) (hmoves h + 1))).
Section Pres.
  Context {A : Type} (sz : N).
  Notation VM := (M (heap (block A))).
  Context (I : heap (block A) -> Prop).
  Context (HI : prim I).
  Definition pr {X} (m : VM X) : Prop := forall h x h', m h = Ok (x, h') -> I h -> I h'.

  Lemma pr_ret {X} (x : X) : pr (ret x). Proof. by intros h y h' [= <- <-]. Qed.
  Lemma pr_fail {X} e : pr (fail (A := X) e). Proof. done. Qed.
  Lemma pr_bind {X Y} (m : VM X) (k : X -> VM Y) : pr m -> (forall x, pr (k x)) -> pr (bind m k).
  Proof. intros H1 H2 h y h' H Hi. binv H. eapply H2; [exact H|]. by eapply H1. Qed.
  Lemma pr_halloc c : pr (halloc c). Proof. intros h x h' [= <- <-]. apply HI. Qed.
  Lemma pr_hread a : pr (hread a).
  Proof. intros h x h'. unfold hread. destruct (hmap h !! a); [|done]. by intros [= <- <-]. Qed.
  Lemma pr_hwrite a c : pr (hwrite a c).
  Proof. intros h x h'. unfold hwrite. destruct (hmap h !! a) eqn:E; [|done]. intros [= <- <-] Hi. apply HI; eauto. Qed.
  Lemma pr_hfree a : pr (hfree a).
  Proof. intros h x h'. unfold hfree. destruct (hmap h !! a) eqn:E; [|done]. intros [= <- <-]. apply HI. Qed.
  Lemma pr_htick : pr htick. Proof. intros h x h' [= <- <-]. apply HI. Qed.
  Lemma pr_for n : forall i (f : N -> VM unit), (forall i, pr (f i)) -> pr (for_up n i f).
  Proof. induction n as [|n IH]; intros i f H; cbn [for_up]; [apply pr_ret|]. apply pr_bind; [done|]. intros _. by apply IH. Qed.
  Lemma pr_repeat {X} n : forall x (f : X -> VM X), (forall x, pr (f x)) -> pr (repeat_m n f x).
  Proof. induction n as [|n IH]; intros x f H; cbn [repeat_m]; [apply pr_ret|]. apply pr_bind; [done|]. intros y. by apply IH. Qed.

  Ltac prs := repeat first
    [ assumption | apply pr_ret | apply pr_fail | apply pr_halloc | apply pr_hread | apply pr_hwrite | apply pr_hfree | apply pr_htick
    | match goal with H : forall _, pr _ |- _ => apply H end
    | match goal with H : forall _ _, pr _ |- _ => apply H end
    | match goal with H : forall _ _ _, pr _ |- _ => apply H end
    | apply pr_for; intros ?; cbn beta | apply pr_repeat; intros ?; cbn beta
    | apply pr_bind; [|intros ?; cbn beta]
    | match goal with |- pr (match ?x with _ => _ end) => destruct x end
    | match goal with |- pr (if ?x then _ else _) => destruct x end
    | match goal with |- pr (let _ := _ in _) => cbv zeta end ].

  Lemma pr_slot p i : pr (slot (A := A) p i). Proof. unfold slot. prs. Qed.
  Lemma pr_vread p i : pr (vread (A := A) p i). Proof. unfold vread. pose proof pr_slot. prs. Qed.
  Lemma pr_vconstruct p i x : pr (vconstruct (A := A) p i x). Proof. unfold vconstruct, set_slot. pose proof pr_slot. prs. Qed.
  Lemma pr_vdestroy p i : pr (vdestroy (A := A) p i). Proof. unfold vdestroy, set_slot. pose proof pr_slot. prs. Qed.
  Lemma pr_vmove p i : pr (vmove (A := A) p i). Proof. unfold vmove, set_slot. pose proof pr_slot. prs. Qed.
  Lemma pr_vassign p i x : pr (vassign (A := A) p i x). Proof. unfold vassign, set_slot. pose proof pr_slot. prs. Qed.
  Lemma pr_alloc al n : pr (alloc_raw (A := A) sz al n). Proof. unfold alloc_raw. rewrite hnew_endless. prs. Qed.
  Lemma pr_dealloc al p n : pr (dealloc_raw (A := A) sz al p n). Proof. unfold dealloc_raw. prs. Qed.
  Lemma pr_destroy_all v : pr (destroy_all (A := A) v). Proof. unfold destroy_all. pose proof pr_vdestroy. prs. Qed.
  Lemma pr_clear v : pr (clear (A := A) sz v).
  Proof. unfold clear, deallocate. pose proof pr_destroy_all. pose proof pr_dealloc. prs. Qed.
  Lemma pr_allocate v n : pr (allocate (A := A) sz v n). Proof. unfold allocate. pose proof pr_alloc. prs. Qed.
  Lemma pr_allocate_reserve v n : pr (allocate_reserve (A := A) sz v n).
  Proof. unfold allocate_reserve. pose proof pr_alloc. pose proof pr_clear. pose proof pr_vmove. pose proof pr_vconstruct. prs. Qed.
  Lemma pr_reserve v n : pr (reserve (A := A) sz v n). Proof. unfold reserve. pose proof pr_allocate_reserve. prs. Qed.
  Lemma pr_push v rd : pr rd -> pr (push_back_m (A := A) sz v rd).
  Proof. intros Hrd. unfold push_back_m, extend_space. pose proof pr_reserve. pose proof pr_vconstruct. prs. Qed.
  Lemma pr_push_ret v x : pr (push_back (A := A) sz v x). Proof. apply pr_push, pr_ret. Qed.
  Lemma pr_emplace_back v x : pr (emplace_back (A := A) sz v x).
  Proof. unfold emplace_back. pose proof pr_push_ret. pose proof pr_vread. prs. Qed.
  Lemma pr_pop v : pr (pop_back (A := A) v). Proof. unfold pop_back. pose proof pr_vdestroy. prs. Qed.
  Lemma pr_resize v n x : pr (resize_m (A := A) sz v n (ret x)).
  Proof. unfold resize_m. pose proof pr_pop. pose proof pr_reserve. pose proof (fun u => pr_push u (ret x) (pr_ret x)). prs. Qed.
  Lemma pr_assign_fill v n x : pr (assign_fill_m (A := A) sz v n (ret x)).
  Proof. unfold assign_fill_m. pose proof pr_destroy_all. pose proof pr_reserve. pose proof (fun u => pr_push u (ret x) (pr_ret x)). prs. Qed.
  Lemma pr_push_all ys : forall v, pr (push_all (A := A) sz ys v).
  Proof. pose proof pr_push_ret. induction ys as [|y ys IH]; intros v; cbn [push_all]; prs. Qed.
  Lemma pr_assign_list v xs : pr (assign_list (A := A) sz v xs).
  Proof. unfold assign_list. pose proof pr_destroy_all. pose proof pr_reserve. pose proof pr_push_all. prs. Qed.
  Lemma pr_construct_all xs : forall p i, pr (construct_all (A := A) p i xs).
  Proof. pose proof pr_vconstruct. induction xs as [|x xs IH]; intros p i; cbn [construct_all]; prs. Qed.
  Lemma pr_construct_back xs : forall v, pr (construct_back (A := A) v xs).
  Proof. pose proof pr_vconstruct. induction xs as [|x xs IH]; intros v; cbn [construct_back]; prs. Qed.
  Lemma pr_copy_impl v r : pr (copy_impl (A := A) sz v r).
  Proof. unfold copy_impl. pose proof pr_allocate. pose proof pr_vread. pose proof pr_vconstruct. prs. Qed.
  Lemma pr_copy_assign v r : pr (copy_assign (A := A) sz v r).
  Proof.
    unfold copy_assign. pose proof pr_reserve. pose proof pr_vread. pose proof pr_vconstruct. pose proof pr_vassign. pose proof pr_vdestroy.
    pose proof pr_clear. pose proof pr_copy_impl. prs.
  Qed.
  Lemma pr_meb n : forall p pos c hi, pr (meb_loop (A := A) n p pos c hi).
  Proof.
    pose proof pr_vmove. pose proof pr_vconstruct. pose proof pr_vdestroy. induction n as [|n IH]; intros p pos c hi; cbn [meb_loop]; prs. apply IH.
  Qed.
  Lemma pr_back v p n : pr (move_elements_back (A := A) sz v p n).
  Proof. unfold move_elements_back. pose proof pr_reserve. prs. apply pr_meb. Qed.
  Lemma pr_emplace v p x : pr (emplace (A := A) sz v p x).
  Proof. unfold emplace, extend_space. pose proof pr_reserve. pose proof pr_back. pose proof pr_vconstruct. prs. Qed.
  Lemma pr_insert_fill v p n x : pr (insert_fill_m (A := A) sz v p n (ret x)).
  Proof. unfold insert_fill_m. pose proof pr_back. pose proof pr_vconstruct. prs. Qed.
  Lemma pr_insert_range v p xs : pr (insert_range (A := A) sz v p xs).
  Proof. unfold insert_range. pose proof pr_allocate_reserve. pose proof pr_back. pose proof pr_construct_all. prs. Qed.
  Lemma pr_std_move p a b c : pr (std_move (A := A) p a b c).
  Proof. unfold std_move. pose proof pr_vmove. pose proof pr_vassign. prs. Qed.
  Lemma pr_erase1 v p : pr (erase1 (A := A) v p).
  Proof. unfold erase1. pose proof pr_pop. prs. apply pr_std_move. Qed.
  Lemma pr_erase_range v p q : pr (erase_range (A := A) v p q).
  Proof. unfold erase_range. pose proof pr_pop. prs. apply pr_std_move. Qed.
  Lemma pr_collect n : forall it, pr (viter_collect (A := A) n it).
  Proof. pose proof pr_vread. induction n as [|n IH]; intros it; cbn [viter_collect]; unfold viter_next; prs. Qed.
  Lemma pr_eq eqb n : forall i p q, pr (eq_loop (A := A) eqb n i p q).
  Proof. pose proof pr_vread. induction n as [|n IH]; intros; cbn [eq_loop]; prs. Qed.
  Lemma pr_cmp cmp n : forall i p q r, pr (cmp_loop (A := A) cmp n i p q r).
  Proof. pose proof pr_vread. induction n as [|n IH]; intros; cbn [cmp_loop]; prs; apply IH. Qed.
  Lemma pr_print n : forall i v, pr (print_loop (A := A) n i v).
  Proof. pose proof pr_vread. induction n as [|n IH]; intros; cbn [print_loop]; prs. Qed.

  Lemma step_pr dflt eqb cmp o w out w' : vec_step sz dflt eqb cmp o w = Ok (out, w') -> I (w_heap w) -> I (w_heap w').
  Proof.
    assert (Hmk : forall i m, pr m -> mk (A := A) i m w = Ok (out, w') -> I (w_heap w) -> I (w_heap w')).
    { intros i m Hm E. apply mk_inv in E as (v & Em & _). by eapply Hm. }
    assert (H1 : forall i f, (forall v, pr (f v)) -> upd1 (A := A) i f w = Ok (out, w') -> I (w_heap w) -> I (w_heap w')).
    { intros i f Hm E. apply upd1_inv in E as (v & v' & _ & Em & _). by eapply Hm. }
    assert (H2 : forall X i f (g : X -> vout A), (forall v, pr (f v)) -> upd1o i f g w = Ok (out, w') -> I (w_heap w) -> I (w_heap w')).
    { intros X i f g Hm E. apply upd1o_inv in E as (v & v' & y & _ & Em & _). by eapply Hm. }
    assert (H3 : forall X i f (g : X -> vout A), (forall v, pr (f v)) -> obs i f g w = Ok (out, w') -> I (w_heap w) -> I (w_heap w')).
    { intros X i f g Hm E. unfold obs in E. binv E. apply wget_inv in E0 as [_ ->]. binv E. apply lift_inv in E0 as [E0 _].
      injection E as <- <-. by eapply Hm. }
    intros E. destruct o; cbn [vec_step] in E.
    - eapply Hmk; [|exact E]. apply pr_allocate.
    - eapply Hmk; [|exact E]. apply pr_ret.
    - eapply Hmk; [|exact E]. apply pr_assign_fill.
    - eapply Hmk; [|exact E]. apply pr_assign_fill.
    - eapply Hmk; [|exact E]. unfold new_list. pose proof pr_allocate. prs. apply pr_construct_all.
    - eapply Hmk; [|exact E]. unfold new_range. pose proof pr_allocate. prs. apply pr_construct_back.
    - eapply Hmk; [|exact E]. unfold from_iter, new_default. pose proof pr_allocate. prs. apply pr_push_all.
    - binv E. apply wget_inv in E0 as [_ ->]. eapply Hmk; [|exact E]. apply pr_copy_impl.
    - binv E. apply wget_inv in E0 as [_ ->]. eapply Hmk; [|exact E]. apply pr_copy_impl.
    - binv E. destruct x. apply wnew_inv in E0 as [Hn ->]. binv E. apply wget_inv in E0 as [Hr ->].
      unfold move_impl in E. binv E. injection E0 as <- <-. binv E. injection E0 as <- <-. by injection E as <- <-.
    - binv E. apply wget_inv in E0 as [Hr ->]. binv E. apply lift_inv in E0 as [E0 _]. binv E.
      injection E1 as <- <-. injection E as <- <-. by eapply pr_clear.
    - binv E. apply wget_inv in E0 as [Hr ->]. binv E. apply wget_inv in E0 as [Hr2 ->].
      destruct (Nat.eqb_spec i j) as [->|Hne]; [by injection E as <- <-|].
      binv E. apply lift_inv in E0 as [Ec _]. binv E. injection E0 as <- <-. injection E as <- <-. by eapply pr_copy_assign.
    - binv E. apply wget_inv in E0 as [Hr ->]. binv E. apply wget_inv in E0 as [Hr2 ->].
      destruct (Nat.eqb_spec i j) as [->|Hne]; [by injection E as <- <-|].
      binv E. apply lift_inv in E0 as [Em _]. destruct x1 as [v1 r1]. unfold move_assign in Em. binv Em. injection Em as <- <- Eh.
      binv E. injection E1 as <- <-. binv E. injection E1 as <- <-. injection E as <- <-. cbn [w_heap]. rewrite <-Eh. by eapply pr_clear.
    - eapply H1; [|exact E]. intros v. apply pr_assign_fill.
    - eapply H1; [|exact E]. intros v. apply pr_assign_list.
    - eapply H1; [|exact E]. intros v. apply pr_reserve.
    - eapply H1; [|exact E]. intros v. apply pr_clear.
    - eapply H1; [|exact E]. intros v. apply pr_push_ret.
    - eapply H2; [|exact E]. intros v. apply pr_emplace_back.
    - eapply H1; [|exact E]. intros v. apply pr_pop.
    - eapply H1; [|exact E]. intros v. apply pr_resize.
    - eapply H1; [|exact E]. intros v. apply pr_resize.
    - binv E. apply wget_inv in E0 as [Hr ->]. binv E. apply wget_inv in E0 as [Hr2 ->]. unfold swap in E.
      binv E. injection E0 as <- <-. binv E. injection E0 as <- <-. by injection E as <- <-.
    - eapply H3; [|exact E]. intros v. apply pr_vassign.
    - eapply H1; [|exact E]. intros v. apply pr_emplace.
    - eapply H2; [|exact E]. intros v. unfold insert1. pose proof pr_emplace. prs.
    - eapply H2; [|exact E]. intros v. apply pr_insert_fill.
    - eapply H2; [|exact E]. intros v. apply pr_insert_range.
    - eapply H2; [|exact E]. intros v. apply pr_erase1.
    - eapply H2; [|exact E]. intros v. apply pr_erase_range.
    - eapply H3; [|exact E]. intros v. apply pr_ret.
    - eapply H3; [|exact E]. intros v. apply pr_ret.
    - eapply H3; [|exact E]. intros v. unfold at_. pose proof pr_vread. prs.
    - eapply H3; [|exact E]. intros v. apply pr_vread.
    - eapply H3; [|exact E]. intros v. unfold front. pose proof pr_vread. prs.
    - eapply H3; [|exact E]. intros v. unfold back. pose proof pr_vread. prs.
    - eapply H3; [|exact E]. intros v. apply pr_collect.
    - eapply H3; [|exact E]. intros v. unfold print. pose proof pr_print. prs.
    - binv E. apply wget_inv in E0 as [_ ->]. eapply H3; [|exact E]. intros v. unfold vec_eq. prs. apply pr_eq.
    - binv E. apply wget_inv in E0 as [_ ->]. eapply H3; [|exact E]. intros v. apply pr_cmp.
  Qed.
End Pres.

Section Dead.
  Context {A : Type} (sz : N).
  Implicit Types (h : heap (block A)) (v : vec).
  Definition lo (a : N) h : Prop := a < hnext h.
  Definition dead (a : N) h : Prop := hmap h !! a = None /\ a < hnext h.

  Lemma prim_lo a : prim (lo a).
  Proof. unfold prim, lo. cbn [hnext]. split_and!; intros; lia. Qed.
  Lemma prim_dead a : prim (dead a).
  Proof.
    unfold prim, dead; cbn [hnext hmap]. split_and!.
    - intros c g [H1 H2]. split; [|lia]. rewrite lookup_insert_ne by lia. done.
    - intros b c g [H1 H2] [z Hz]. split; [|done]. destruct (decide (a = b)) as [->|]; [congruence|]. by rewrite lookup_insert_ne.
    - intros b g [H1 H2]. split; [|done]. destruct (decide (a = b)) as [->|]; [apply lookup_delete|]. by rewrite lookup_delete_ne.
    - done.
  Qed.

  Definition kill (a : N) {X} (m : M (heap (block A)) X) : Prop := forall h x h', m h = Ok (x, h') -> lo a h -> dead a h'.
  Lemma kill_l a {X Y} (m : M (heap (block A)) X) (k : X -> M (heap (block A)) Y) : kill a m -> (forall x, pr (dead a) (k x)) -> kill a (bind m k).
  Proof. intros H1 H2 h y h' H Hi. binv H. eapply H2; [exact H|]. by eapply H1. Qed.
  Lemma kill_r a {X Y} (m : M (heap (block A)) X) (k : X -> M (heap (block A)) Y) : pr (lo a) m -> (forall x, kill a (k x)) -> kill a (bind m k).
  Proof. intros H1 H2 h y h' H Hi. binv H. eapply H2; [exact H|]. by eapply H1. Qed.

  Lemma clear_kill a v : v_ptr v = Some a -> kill a (clear (A := A) sz v).
  Proof.
    intros Ha h x h' H Hi. unfold clear, deallocate in H. binv H. pose proof (pr_destroy_all _ (prim_lo a) v _ _ _ E Hi) as Hi1.
    unfold destroy_all in E. binv E. injection E as <- <-. cbn [v_ptr v_alloc v_cap] in H. rewrite Ha in H. unfold dealloc_raw in H.
    binv H. binv E. unfold hread in E1. destruct (hmap s0 !! a) as [b|] eqn:Eb; [|done]. injection E1 as <- <-.
    destruct (negb _); [done|]. destruct (negb _); [done|]. destruct (negb _); [done|]. unfold hfree in E. rewrite Eb in E.
    injection E as <- <-. injection H as <- <-. split; [apply lookup_delete|exact Hi1].
  Qed.
  Lemma allocate_reserve_kill a v n : v_ptr v = Some a -> kill a (allocate_reserve (A := A) sz v n).
  Proof.
    intros Ha. unfold allocate_reserve. apply kill_r; [apply pr_alloc, prim_lo|]. intros p. apply kill_r.
    - apply pr_for. intros i. apply pr_bind; [apply pr_vmove, prim_lo|]. intros x. apply pr_vconstruct, prim_lo.
    - intros _. apply kill_l; [by apply clear_kill|]. intros v1. apply pr_ret.
  Qed.
  Lemma reserve_kill a v n : v_ptr v = Some a -> v_cap v < n -> kill a (reserve (A := A) sz v n).
  Proof. intros Ha Hn. unfold reserve. rewrite (proj2 (N.ltb_lt _ _) Hn). by apply allocate_reserve_kill. Qed.
  Lemma extend_kill a v : v_ptr v = Some a -> 2 * v_cap v < W -> kill a (extend_space (A := A) sz v).
  Proof.
    intros Ha HW. unfold extend_space. apply reserve_kill; [done|]. destruct (N.eqb_spec (v_cap v) 0) as [->|]; [lia|].
    rewrite umul_small by lia. lia.
  Qed.
  Lemma push_kill a v rd : v_ptr v = Some a -> v_cap v <= v_len v -> 2 * v_cap v < W -> pr (dead a) rd -> kill a (push_back_m (A := A) sz v rd).
  Proof.
    intros Ha Hc HW Hrd. unfold push_back_m. rewrite (proj2 (N.leb_le _ _) Hc). apply kill_l; [by apply extend_kill|]. intros v1.
    apply pr_bind; [done|]. intros x. apply pr_bind; [apply pr_vconstruct, prim_dead|]. intros _. apply pr_ret.
  Qed.
  Lemma resize_kill a v n x : v_ptr v = Some a -> v_cap v < n -> v_len v <= v_cap v -> kill a (resize_m (A := A) sz v n (ret x)).
  Proof.
    intros Ha Hn Hl. unfold resize_m. rewrite (proj2 (N.ltb_ge n (v_len v))), (proj2 (N.ltb_lt (v_len v) n)), (proj2 (N.ltb_lt _ _) Hn) by lia.
    apply kill_l; [by apply reserve_kill|]. intros v1. apply pr_repeat. intros u. apply pr_push; [apply prim_dead|apply pr_ret].
  Qed.
  Lemma assign_fill_kill a v n x : v_ptr v = Some a -> v_cap v < n -> kill a (assign_fill_m (A := A) sz v n (ret x)).
  Proof.
    intros Ha Hn h y h' H Hi. unfold assign_fill_m in H. binv H. pose proof (pr_destroy_all _ (prim_lo a) v _ _ _ E Hi) as Hi1.
    unfold destroy_all in E. binv E. injection E as <- <-. revert H Hi1. apply (kill_l a (reserve sz _ n)); [by apply reserve_kill|].
    intros v1. apply pr_repeat. intros u. apply pr_push; [apply prim_dead|apply pr_ret].
  Qed.
  Lemma assign_list_kill a v xs : v_ptr v = Some a -> v_cap v < nlen xs -> kill a (assign_list (A := A) sz v xs).
  Proof.
    intros Ha Hn h y h' H Hi. unfold assign_list in H. binv H. pose proof (pr_destroy_all _ (prim_lo a) v _ _ _ E Hi) as Hi1.
    unfold destroy_all in E. binv E. injection E as <- <-. revert H Hi1. apply (kill_l a (reserve sz _ _)); [by apply reserve_kill|].
    intros v1. apply pr_push_all, prim_dead.
  Qed.
  Lemma back_kill a v p n : v_ptr v = Some a -> v_cap v < v_len v + n -> v_len v + n < W -> v_len v <> 0 ->
    kill a (move_elements_back (A := A) sz v p n).
  Proof.
    intros Ha Hc HW Hn. unfold move_elements_back. rewrite (proj2 (N.eqb_neq _ _)) by done. rewrite (uadd_small (v_len v) n) by done.
    rewrite (proj2 (N.ltb_lt _ _) Hc). apply kill_l; [by apply reserve_kill|]. intros v1. apply pr_bind; [apply pr_meb, prim_dead|].
    intros _. apply pr_ret.
  Qed.
  Lemma emplace_kill a v p x : v_ptr v = Some a -> v_cap v <= v_len v -> v_len v <= v_cap v -> 2 * v_cap v < W ->
    kill a (emplace (A := A) sz v p x).
  Proof.
    intros Ha Hc Hl HW. unfold emplace. rewrite (proj2 (N.eqb_eq _ _)) by lia. apply kill_l; [by apply extend_kill|]. intros v1.
    apply pr_bind; [apply pr_back, prim_dead|]. intros v2. apply pr_bind; [apply pr_vconstruct, prim_dead|]. intros _. apply pr_ret.
  Qed.
  Lemma insert_range_kill a v p xs : v_ptr v = Some a -> v_cap v < v_len v + nlen xs -> v_len v + nlen xs < W ->
    kill a (insert_range (A := A) sz v p xs).
  Proof.
    intros Ha Hc HW. unfold insert_range. unfold nlen in *. rewrite uadd_small by done. rewrite (proj2 (N.ltb_lt _ _) Hc). cbv zeta.
    apply kill_l; [by apply allocate_reserve_kill|]. intros v1.
    apply pr_bind; [apply pr_back, prim_dead|]. intros v2. apply pr_bind; [apply pr_construct_all, prim_dead|]. intros _. apply pr_ret.
  Qed.
  Lemma copy_assign_kill a v r : v_ptr v = Some a -> (v_alloc v = v_alloc r -> v_cap v < v_cap r) -> kill a (copy_assign (A := A) sz v r).
  Proof.
    intros Ha Hc. unfold copy_assign. destruct (N.eqb_spec (v_alloc v) (v_alloc r)) as [He|].
    - apply kill_l; [apply reserve_kill; auto|]. intros v1. cbv zeta. apply pr_bind.
      { apply pr_for. intros i. apply pr_bind; [apply pr_vread|]. intros x. apply pr_vassign, prim_dead. }
      intros _. apply pr_bind; [|intros _; apply pr_ret]. destruct (_ <? _).
      + apply pr_for. intros i. apply pr_vdestroy, prim_dead.
      + destruct (_ <? _); [|apply pr_ret]. apply pr_for. intros i. apply pr_bind; [apply pr_vread|]. intros x. apply pr_vconstruct, prim_dead.
    - apply kill_l; [by apply clear_kill|]. intros v1. apply pr_copy_impl, prim_dead.
  Qed.
End Dead.

(** An operation that gives the buffer up frees it. *)
Section Kills.
  Context {A : Type} (dflt : A) (eqb : A -> A -> bool) (cmp : A -> A -> comparison).
  Context (sz lmax : N) (Hsz : 1 <= sz) (Hlim : sz * (2 * lmax + 2) <= alloc_max).
  Notation WW := (world (block A) vec).
  Notation wok := (world_ok (vrep (A := A) sz lmax)).
  Notation spec := (vspec_step dflt eqb cmp).
  Notation step := (vec_step sz dflt eqb cmp).

  Lemma step_kill (w : WW) s o s' out w' j v a : wok w s -> step o w = Ok (out, w') -> spec s o = Some (s', out) ->
    vop_safe s o -> vlimit lmax o s' -> w_vars w !! j = Some v -> v_ptr v = Some a -> follow (caps_of w) s j o = None ->
    dead a (w_heap w').
  Proof.
    intros Hwk E Es Hsafe [Hlim' Hres] Hv Ha Hf.
    destruct (wok_var _ _ _ _ _ _ Hwk Hv) as (xs & fp & Hs & Hr & Hwf). destruct Hr as (Hl & Hlc & Hmx & Hp).
    rewrite Ha in Hp. destruct Hp as [_ Hp]. assert (Hlo : lo a (w_heap w)) by (apply Hwf; eauto).
    assert (HW : 2 * v_cap v < W).
    { destruct (cmax_W sz lmax Hsz Hlim (v_cap v)) as (H1 & _ & _); [lia|].
      assert (v_cap v <= sz * v_cap v) by nia. unfold alloc_max, W in *. lia. }
    assert (HL : forall n, n <= lmax -> n < W).
    { intros n Hn. destruct (cmax_W sz lmax Hsz Hlim (2 * lmax + 2)) as (_ & _ & ?); lia. }
    unfold follow in Hf. rewrite (cap_of_caps _ _ _ Hv) in Hf. unfold len_of in Hf. rewrite Hs, <-Hl in Hf.
    assert (H1 : forall i (f : vec -> M (heap (block A)) vec) (b : bool), upd1 (A := A) i f w = Ok (out, w') ->
      (if Nat.eqb i j then (if b then Some j else None) else Some j) = None ->
      (i = j -> b = false -> kill a (f v)) -> dead a (w_heap w')).
    { intros i f b Hu Hb Hk. destruct (Nat.eqb_spec i j) as [->|Hn]; [destruct b; [done|]|done].
      apply upd1_inv in Hu as (v0 & v' & Hv0 & Ef & _). assert (v0 = v) as -> by congruence. by eapply Hk. }
    assert (H2 : forall X i (f : vec -> M (heap (block A)) (vec * X)) (g : X -> vout A) (b : bool), upd1o i f g w = Ok (out, w') ->
      (if Nat.eqb i j then (if b then Some j else None) else Some j) = None ->
      (i = j -> b = false -> kill a (f v)) -> dead a (w_heap w')).
    { intros X i f g b Hu Hb Hk. destruct (Nat.eqb_spec i j) as [->|Hn]; [destruct b; [done|]|done].
      apply upd1o_inv in Hu as (v0 & v' & y & Hv0 & Ef & _). assert (v0 = v) as -> by congruence. by eapply Hk. }
    destruct o; cbn [vec_step] in E; try done.
    - destruct (Nat.eqb j0 j); done.
    - binv E. apply wget_inv in E0 as [Hr ->]. binv E. apply lift_inv in E0 as [E0 _]. binv E.
      injection E1 as <- <-. injection E as <- <-. destruct (Nat.eqb_spec i j) as [->|Hne]; [|done].
      assert (x = v) as -> by congruence. by eapply clear_kill.
    - binv E. apply wget_inv in E0 as [Hr ->]. binv E. apply wget_inv in E0 as [Hr2 ->].
      destruct (Nat.eqb_spec i j) as [->|Hne]; [|done]. destruct (Nat.eqb_spec j j0) as [->|Hne]; [done|]. cbn [orb] in Hf.
      rewrite (cap_of_caps _ _ _ Hr2), (al_of_caps _ _ _ Hr2), (al_of_caps _ _ _ Hv) in Hf.
      binv E. apply lift_inv in E0 as [Ec _]. binv E. injection E0 as <- <-. injection E as <- <-. assert (x = v) as -> by congruence.
      eapply copy_assign_kill; [exact Ha| |exact Ec|done]. intros He. rewrite He, N.eqb_refl in Hf. cbn [andb] in Hf.
      destruct (N.leb_spec (v_cap x0) (v_cap v)); [done|lia].
    - destruct (Nat.eqb_spec i j0) as [->|Hne]; [done|]. destruct (Nat.eqb_spec j0 j) as [->|Hnj]; [done|].
      destruct (Nat.eqb_spec i j) as [->|Hni]; [|done].
      binv E. apply wget_inv in E0 as [Hr ->]. binv E. apply wget_inv in E0 as [Hr2 ->].
      binv E. apply lift_inv in E0 as [Em _]. destruct x1 as [v1 r1]. unfold move_assign in Em. binv Em. injection Em as <- <- Eh.
      binv E. injection E1 as <- <-. binv E. injection E1 as <- <-. injection E as <- <-. cbn [w_heap]. rewrite <-Eh.
      assert (x = v) as -> by congruence. by eapply clear_kill.
    - eapply H1; [exact E|exact Hf|]. intros _ Hb%N.leb_gt. by apply assign_fill_kill.
    - eapply H1; [exact E|exact Hf|]. intros _ Hb%N.leb_gt. by apply assign_list_kill.
    - eapply H1; [exact E|exact Hf|]. intros _ Hb%N.leb_gt. by apply reserve_kill.
    - eapply (H1 _ _ false); [exact E|exact Hf|]. intros _ _. by apply clear_kill.
    - eapply H1; [exact E|exact Hf|]. intros _ Hb%N.ltb_ge. apply push_kill; try done. apply pr_ret.
    - eapply H2; [exact E|exact Hf|]. intros _ Hb%N.ltb_ge. unfold emplace_back. apply kill_l; [apply push_kill; try done; apply pr_ret|].
      intros v1. apply pr_bind; [apply pr_vread|]. intros y. apply pr_ret.
    - eapply H1; [exact E|exact Hf|]. intros _ Hb%N.leb_gt. by apply resize_kill.
    - eapply H1; [exact E|exact Hf|]. intros _ Hb%N.leb_gt. by apply resize_kill.
    - destruct (Nat.eqb i j); [done|]. by destruct (Nat.eqb j0 j).
    - eapply H1; [exact E|exact Hf|]. intros _ Hb%N.ltb_ge. by apply emplace_kill.
    - eapply H2; [exact E|exact Hf|]. intros _ Hb%N.ltb_ge. unfold insert1. apply kill_l; [by apply emplace_kill|].
      intros v1. apply pr_ret.
    - eapply H2; [exact E|exact Hf|]. intros -> Hb%N.leb_gt. cbn [vspec_step] in Es.
      apply modify_inv in Es as (xs0 & ys & Hs0 & Ey & Hs'). apply Hlim' in Hs'. assert (xs0 = xs) as -> by congruence.
      destruct (N.leb_spec p (nlen xs)); [|done]. assert (ys = ntake p xs ++ nrep n x ++ ndrop p xs) as -> by congruence.
      rewrite nlen_ins, nlen_nrep in Hs' by done. cbn [vop_safe] in Hsafe. unfold on_var in Hsafe. rewrite Hs in Hsafe. destruct Hsafe as (Hne & _).
      unfold insert_fill_m. apply kill_l.
      + apply back_kill; [done|done|rewrite Hl; auto|]. rewrite Hl. destruct xs; [done|]. unfold nlen. cbn [length]. lia.
      + intros v1. apply pr_bind; [|intros _; apply pr_ret]. apply pr_for. intros i. apply pr_bind; [apply pr_ret|]. intros y.
        apply pr_vconstruct, prim_dead.
    - eapply H2; [exact E|exact Hf|]. intros -> Hb%N.leb_gt. cbn [vspec_step] in Es.
      apply modify_inv in Es as (xs1 & ys & Hs0 & Ey & Hs'). apply Hlim' in Hs'. assert (xs1 = xs) as -> by congruence.
      destruct (N.leb_spec p (nlen xs)); [|done]. assert (ys = ntake p xs ++ xs0 ++ ndrop p xs) as -> by congruence.
      rewrite nlen_ins in Hs' by done. apply insert_range_kill; [done|done|]. rewrite Hl. auto.
  Qed.

  Lemma step_dead (w : WW) o out w' a : step o w = Ok (out, w') -> dead a (w_heap w) -> dead a (w_heap w').
  Proof. intros E. eapply step_pr; [apply prim_dead|exact E]. Qed.
End Kills.
