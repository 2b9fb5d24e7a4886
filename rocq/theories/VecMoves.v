(** * VecMoves: elements moved and buffers requested by vector operations (C86)

    The heap of Base counts every [std::move] of an element ([hmoves], ticked
    by [vmove]: relocation into another buffer, shifting for insertion and
    erasure) and every request for a buffer ([hnext]). *)
From Verif Require Import Base World VecModel VecSpec VecFacts VecProofs VecProofs2 VecRefine VecMore VecProps VecIterModel VecRefs VecKeep VecCost.
Local Open Scope N_scope.

(** ** What the calls cost

    Stated over the contents [s] and the capacities [c] (of which C64 says
    what they are after every call), independently of the code. *)
Section CostSpec.
  Context {A : Type} (dflt : A) (eqb : A -> A -> bool) (cmp : A -> A -> comparison).
  Notation vspec := (gmap nat (list A)).
  Notation caps := (gmap nat (N * N)).
  Notation sstep := (vspec_step dflt eqb cmp).

  (** Replacing the buffer of [i] when [b]. *)
  Definition regrow (b : bool) (len : N) : N := if b then len else 0.
  Definition one (b : bool) : N := if b then 1 else 0.

  (** [n] elements appended one at a time. *)
  Fixpoint grown_moves (n : nat) (len cap : N) : N :=
    match n with
    | O => 0
    | S n => regrow (cap <=? len) len + grown_moves n (len + 1) (pushed len cap)
    end.
  Fixpoint grown_bufs (n : nat) (len cap : N) : N :=
    match n with
    | O => 0
    | S n => one (cap <=? len) + grown_bufs n (len + 1) (pushed len cap)
    end.

  (** Elements moved to make or close a gap. *)
  Definition shift (s : vspec) (o : vop A) : N :=
    match o with
    | VEmplace i p _ | VInsert i p _ | VInsertFill i p _ _ | VInsertRange i p _ => len_of s i - p
    | VErase i p => len_of s i - (p + 1)
    | VEraseRange i p q => len_of s i - q
    | _ => 0
    end.
  (** Does the call replace the buffer of the vector it works on? *)
  Definition replaces (c : caps) (s : vspec) (o : vop A) : bool :=
    match o with
    | VReserve i n | VAssignFill i n _ => cap_of c i <? n
    | VAssignList i xs => cap_of c i <? nlen xs
    | VResize i n | VResizeVal i n _ => cap_of c i <? n
    | VPush i _ | VEmplaceBack i _ | VEmplace i _ _ | VInsert i _ _ => cap_of c i <=? len_of s i
    | VInsertFill i _ n _ => cap_of c i <? len_of s i + n
    | VInsertRange i _ ys => cap_of c i <? len_of s i + nlen ys
    | VCopyAsg i j => negb (Nat.eqb i j) && (if al_of c i =? al_of c j then cap_of c i <? cap_of c j else true)
    | _ => false
    end.
  (** The elements that are in the vector when its buffer is replaced, and
      have to be moved. *)
  Definition carried (c : caps) (s : vspec) (o : vop A) : N :=
    match o with
    | VReserve i _ | VResize i _ | VResizeVal i _ _ | VPush i _ | VEmplaceBack i _
    | VEmplace i _ _ | VInsert i _ _ | VInsertFill i _ _ _ | VInsertRange i _ _ => len_of s i
    | VCopyAsg i j => if al_of c i =? al_of c j then len_of s i else 0
    | _ => 0
    end.
  Definition moved (c : caps) (s : vspec) (o : vop A) : N :=
    match o with
    | VFromIter _ xs => grown_moves (length xs) 0 2
    | _ => regrow (replaces c s o) (carried c s o) + shift s o
    end.
  Definition requested (c : caps) (s : vspec) (o : vop A) : N :=
    match o with
    | VFromIter _ xs => 1 + grown_bufs (length xs) 0 2
    | VNew _ | VNewList _ _ _ | VNewRange _ _ _ | VNewCopy _ _ | VNewCopyAl _ _ _ => 1
    | VNewFill _ _ n _ | VNewCount _ _ n => one (0 <? n)
    | _ => one (replaces c s o)
    end.

  (** Over a history. *)
  Fixpoint sums (f : caps -> vspec -> vop A -> N) (c : caps) (s : vspec) (ops : list (vop A)) : N :=
    match ops with
    | [] => 0
    | o :: r => match sstep s o with
                | Some (s', _) => f c s o + sums f (caps_after c s o) s' r
                | None => 0
                end
    end.
  Fixpoint caps_run (c : caps) (s : vspec) (ops : list (vop A)) : caps :=
    match ops with
    | [] => c
    | o :: r => match sstep s o with
                | Some (s', _) => caps_run (caps_after c s o) s' r
                | None => c
                end
    end.
End CostSpec.

(** ** What the code costs *)
Section Count.
  Context {A : Type} (sz lmax : N) (Hsz : 1 <= sz) (Hlim : sz * (2 * lmax + 2) <= alloc_max).
  Context (wa wb : N).
  Implicit Types (h : heap (block A)) (v : vec) (xs ys : list A).
  Notation VM := (M (heap (block A))).

  (** A call that returns has added [n] to [wa] times the moves plus [wb] times
      the requests. *)
  Definition mass h : N := wa * hmoves h + wb * hnext h.
  Definition mv {X} (m : VM X) (n : N) : Prop :=
    forall h x h', m h = Ok (x, h') -> mass h' = mass h + n.

  Lemma mv_eq {X} (m : VM X) n k : mv m n -> n = k -> mv m k.
  Proof using Type. clear Hsz Hlim. by intros H <-. Qed.
  Lemma mv_ret {X} (x : X) : mv (ret x) 0.
  Proof using Type. clear Hsz Hlim. intros h y h' [= <- <-]. lia. Qed.
  Lemma mv_fail {X} e n : mv (fail e : VM X) n.
  Proof using Type. clear Hsz Hlim. by intros h y h'. Qed.
  Lemma mv_bind {X Y} (m : VM X) (k : X -> VM Y) a b : mv m a -> (forall x, mv (k x) b) -> mv (bind m k) (a + b).
  Proof using Type. clear Hsz Hlim. intros Hm Hk h y h' E. binv E. apply Hm in E0. apply Hk in E. lia. Qed.
  Lemma mv_bind0 {X Y} (m : VM X) (k : X -> VM Y) b : mv m 0 -> (forall x, mv (k x) b) -> mv (bind m k) b.
  Proof using Type. clear Hsz Hlim. intros Hm Hk. by apply (mv_bind m k 0 b). Qed.
  Lemma mv_hread a : mv (hread a) 0.
  Proof using Type. clear Hsz Hlim. intros h y h'. unfold hread. destruct (_ !! a); [|done]. intros [= <- <-]. lia. Qed.
  Lemma mv_hwrite a c : mv (hwrite a c) 0.
  Proof using Type. clear Hsz Hlim. intros h y h'. unfold hwrite. destruct (_ !! a); [|done]. intros [= <- <-]. unfold mass. simpl. lia. Qed.
  Lemma mv_hfree a : mv (hfree a) 0.
  Proof using Type. clear Hsz Hlim. intros h y h'. unfold hfree. destruct (_ !! a); [|done]. intros [= <- <-]. unfold mass. simpl. lia. Qed.
  Lemma mv_slot p i : mv (slot p i) 0.
  Proof using Type. clear Hsz Hlim.
    destruct p as [a|]; [|apply mv_fail]. apply mv_bind0; [apply mv_hread|]. intros b.
    destruct (nlookup _ i); [apply mv_ret|apply mv_fail].
  Qed.
  Lemma mv_vread p i : mv (vread p i) 0.
  Proof using Type. clear Hsz Hlim. apply mv_bind0; [apply mv_slot|]. intros [[a b] [|x|]]; try apply mv_fail. apply mv_ret. Qed.
  Lemma mv_vconstruct p i x : mv (vconstruct p i x) 0.
  Proof using Type. clear Hsz Hlim. apply mv_bind0; [apply mv_slot|]. intros [[a b] [|y|]]; try apply mv_fail. apply mv_hwrite. Qed.
  Lemma mv_vdestroy p i : mv (vdestroy (A := A) p i) 0.
  Proof using Type. clear Hsz Hlim. apply mv_bind0; [apply mv_slot|]. intros [[a b] [|y|]]; try apply mv_fail; apply mv_hwrite. Qed.
  Lemma mv_vassign p i x : mv (vassign p i x) 0.
  Proof using Type. clear Hsz Hlim. apply mv_bind0; [apply mv_slot|]. intros [[a b] [|y|]]; try apply mv_fail; apply mv_hwrite. Qed.
  Lemma mv_vmove p i : mv (vmove p i) wa.
  Proof using Type. clear Hsz Hlim.
    apply mv_bind0; [apply mv_slot|]. intros [[a b] [|y|]]; try apply mv_fail.
    apply mv_bind0; [apply mv_hwrite|]. intros []. intros h x h' E. binv E. injection E0 as _ <-.
    injection E as _ <-. unfold mass. simpl. lia.
  Qed.
  Lemma mv_alloc al n : n <= 2 * lmax + 2 -> mv (alloc_raw (A := A) sz al n) wb.
  Proof using Hsz Hlim.
    intros Hn. unfold alloc_raw. rewrite (umul_sz sz lmax Hsz Hlim) by done.
    destruct (cmax_W sz lmax Hsz Hlim n Hn) as [H _]. rewrite (proj2 (N.leb_le _ _)) by done.
    intros h x h' E. injection E as <- <-. unfold mass. simpl. lia.
  Qed.
  Lemma mv_dealloc al p n : mv (dealloc_raw (A := A) sz al p n) 0.
  Proof using Type. clear Hsz Hlim.
    destruct p as [a|]; [|apply mv_ret]. apply mv_bind0; [apply mv_hread|]. intros b.
    repeat case_match; try apply mv_fail. apply mv_hfree.
  Qed.
  Lemma mv_for n body k : (forall i, mv (body i) k) -> forall i, mv (for_up n i body) (N.of_nat n * k).
  Proof using Type. clear Hsz Hlim.
    intros Hb. induction n as [|n IH]; intros i; cbn [for_up]; [apply mv_ret|].
    replace (N.of_nat (S n) * k) with (k + N.of_nat n * k) by lia. apply mv_bind; [apply Hb|]. intros _. apply IH.
  Qed.
  Lemma mv_for0 n body : (forall i, mv (body i) 0) -> forall i, mv (for_up n i body) 0.
  Proof using Type. clear Hsz Hlim. intros Hb i. pose proof (mv_for n body 0 Hb i) as H. by rewrite N.mul_0_r in H. Qed.
  Lemma mv_destroy_all v : mv (destroy_all (A := A) v) 0.
  Proof using Type. clear Hsz Hlim. apply mv_bind0; [apply mv_for0; intros; apply mv_vdestroy|]. intros. apply mv_ret. Qed.
  Lemma mv_clear v : mv (clear (A := A) sz v) 0.
  Proof using Type. clear Hsz Hlim.
    apply mv_bind0; [apply mv_destroy_all|]. intros. apply mv_bind0; [apply mv_dealloc|]. intros. apply mv_ret.
  Qed.
  Lemma mv_allocate v n : n <= 2 * lmax + 2 -> mv (allocate (A := A) sz v n) wb.
  Proof using Hsz Hlim.
    intros Hn. eapply mv_eq; [apply mv_bind; [by apply mv_alloc|intros; apply mv_ret]|]. lia.
  Qed.
  Lemma mv_allocate_reserve v n : n <= 2 * lmax + 2 -> mv (allocate_reserve (A := A) sz v n) (wa * v_len v + wb).
  Proof using Hsz Hlim.
    intros Hn. eapply mv_eq.
    { apply mv_bind; [by apply mv_alloc|]. intros p. apply mv_bind; [|intros; apply mv_bind0; [apply mv_clear|intros; apply mv_ret]].
      apply (mv_for _ _ wa). intros i. eapply mv_eq; [apply mv_bind; [apply mv_vmove|intros; apply mv_vconstruct]|]. lia. }
    lia.
  Qed.
  Definition price (b : bool) (len : N) : N := wa * regrow b len + wb * one b.
  Lemma mv_reserve v n : n <= 2 * lmax + 2 -> mv (reserve (A := A) sz v n) (price (v_cap v <? n) (v_len v)).
  Proof using Hsz Hlim.
    intros Hn. unfold reserve, price. destruct (_ <? _).
    - eapply mv_eq; [by apply mv_allocate_reserve|]. unfold regrow, one. lia.
    - eapply mv_eq; [apply mv_ret|]. unfold regrow, one. lia.
  Qed.
  Lemma mv_extend v : v_cap v <= lmax -> mv (extend_space (A := A) sz v) (price true (v_len v)).
  Proof using Hsz Hlim.
    intros Hc. assert (2 * v_cap v < W) by (destruct (cmax_W sz lmax Hsz Hlim (2 * lmax + 2)) as (_ & _ & ?); lia).
    unfold extend_space. destruct (N.eqb_spec (v_cap v) 0) as [He|].
    - eapply mv_eq; [apply mv_reserve; lia|]. by rewrite He.
    - rewrite umul_small by done. eapply mv_eq; [apply mv_reserve; lia|]. by rewrite (proj2 (N.ltb_lt _ _)) by lia.
  Qed.
  Lemma mv_push v rd : mv rd 0 -> v_len v <= v_cap v -> v_len v + 1 <= lmax ->
    mv (push_back_m (A := A) sz v rd) (price (v_cap v <=? v_len v) (v_len v)).
  Proof using Hsz Hlim.
    intros Hr Hlc Hl. unfold push_back_m. eapply mv_eq.
    { apply mv_bind.
      - instantiate (1 := price (v_cap v <=? v_len v) (v_len v)). destruct (N.leb_spec (v_cap v) (v_len v)).
        + apply mv_extend. lia.
        + eapply mv_eq; [apply mv_ret|]. unfold price, regrow, one. lia.
      - intros v1. apply mv_bind0; [done|]. intros x. apply mv_bind0; [apply mv_vconstruct|]. intros. apply mv_ret. }
    lia.
  Qed.
  Lemma mv_push_room v rd : mv rd 0 -> v_len v < v_cap v -> mv (push_back_m (A := A) sz v rd) 0.
  Proof using Type. clear Hsz Hlim.
    intros Hr Hl. unfold push_back_m. rewrite (proj2 (N.leb_gt _ _)) by lia. apply mv_bind0; [apply mv_ret|].
    intros v1. apply mv_bind0; [done|]. intros x. apply mv_bind0; [apply mv_vconstruct|]. intros. apply mv_ret.
  Qed.
  Lemma mv_pop v : mv (pop_back (A := A) v) 0.
  Proof using Type. clear Hsz Hlim. apply mv_bind0; [apply mv_vdestroy|]. intros. apply mv_ret. Qed.
  Lemma mv_repeat {X} n (body : X -> VM X) : (forall x, mv (body x) 0) -> forall x, mv (repeat_m n body x) 0.
  Proof using Type. clear Hsz Hlim.
    intros Hb. induction n as [|n IH]; intros x; cbn [repeat_m]; [apply mv_ret|]. by apply mv_bind0.
  Qed.
  (** Pushes within the capacity. *)
  Lemma mv_pushes rd n : mv rd 0 -> forall v, v_len v + N.of_nat n <= v_cap v -> v_cap v < W ->
    mv (repeat_m n (fun u => push_back_m (A := A) sz u rd) v) 0.
  Proof using Type. clear Hsz Hlim.
    intros Hr. induction n as [|n IH]; intros v Hl HW; cbn [repeat_m]; [apply mv_ret|].
    intros h x h' E. binv E. destruct (push_same sz _ _ _ _ _ E0) as [(_ & Hc & _) Hn]; [lia|lia|].
    pose proof (mv_push_room v rd Hr ltac:(lia) _ _ _ E0) as H.
    pose proof (IH x0) as H2. rewrite Hc in H2. specialize (H2 ltac:(lia) HW _ _ _ E). lia.
  Qed.
  Lemma mv_push_all xs : forall v, v_len v + nlen xs <= v_cap v -> v_cap v < W -> mv (push_all sz xs v) 0.
  Proof using Type. clear Hsz Hlim.
    induction xs as [|y xs IH]; intros v Hl HW; cbn [push_all]; [apply mv_ret|].
    unfold nlen in Hl. cbn in Hl. intros h x h' E. binv E.
    destruct (push_same sz _ _ _ _ _ E0) as [(_ & Hc & _) Hn]; [lia|lia|].
    pose proof (mv_push_room v (ret y) (mv_ret y) ltac:(lia) _ _ _ E0) as H.
    pose proof (IH x0) as H2. rewrite Hc in H2. specialize (H2 ltac:(unfold nlen; lia) HW _ _ _ E). lia.
  Qed.
  (** Pushes that may grow. *)
  Lemma mv_push_grow xs : forall v, v_len v <= v_cap v -> v_cap v <= 2 * lmax + 2 -> v_len v + nlen xs <= lmax ->
    mv (push_all sz xs v) (wa * grown_moves (length xs) (v_len v) (v_cap v) + wb * grown_bufs (length xs) (v_len v) (v_cap v)).
  Proof using Hsz Hlim.
    induction xs as [|y xs IH]; intros v Hl HW Hm; cbn [push_all length grown_moves grown_bufs].
    { eapply mv_eq; [apply mv_ret|]. lia. }
    unfold nlen in Hm. cbn [length] in Hm. intros h x h' E. binv E.
    destruct (cmax_W sz lmax Hsz Hlim (2 * lmax + 2)) as (_ & _ & HW2); [lia|].
    pose proof (mv_push v (ret y) (mv_ret y) Hl ltac:(lia) _ _ _ E0) as H.
    apply push_shape in E0 as [[Hc Ha] Hn]; [|done|lia|lia].
    assert (Hp : pushed (v_len v) (v_cap v) <= 2 * lmax + 2).
    { unfold pushed. destruct (N.ltb_spec (v_len v) (v_cap v)); [lia|]. destruct (N.eqb_spec (v_cap v) 0); lia. }
    pose proof (pushed_ge _ _ Hl) as Hg.
    pose proof (IH x0) as H2. rewrite Hc, Hn in H2. specialize (H2 ltac:(lia) Hp ltac:(unfold nlen; lia) _ _ _ E).
    unfold price in H. lia.
  Qed.
  Lemma mv_construct_all xs : forall p i, mv (construct_all p i xs) 0.
  Proof using Type. clear Hsz Hlim. induction xs as [|x xs IH]; intros; cbn; [apply mv_ret|]. apply mv_bind0; [apply mv_vconstruct|]. intros. apply IH. Qed.
  Lemma mv_construct_back xs : forall v, mv (construct_back v xs) 0.
  Proof using Type. clear Hsz Hlim. induction xs as [|x xs IH]; intros; cbn; [apply mv_ret|]. apply mv_bind0; [apply mv_vconstruct|]. intros. apply IH. Qed.

  Lemma mv_resize v n rd : mv rd 0 -> v_len v <= v_cap v -> v_cap v < W -> n <= lmax ->
    mv (resize_m (A := A) sz v n rd) (price (v_cap v <? n) (v_len v)).
  Proof using Hsz Hlim.
    intros Hr Hl HW Hn. destruct (cmax_W sz lmax Hsz Hlim (2 * lmax + 2)) as (_ & _ & HW2); [lia|].
    unfold resize_m. destruct (N.ltb_spec n (v_len v)).
    { rewrite (proj2 (N.ltb_ge _ _)) by lia. eapply mv_eq; [apply mv_repeat; intros; apply mv_pop|]. unfold price, regrow, one. lia. }
    destruct (N.ltb_spec (v_len v) n).
    2:{ rewrite (proj2 (N.ltb_ge _ _)) by lia. eapply mv_eq; [apply mv_ret|]. unfold price, regrow, one. lia. }
    intros h x h' E. binv E. destruct (N.ltb_spec (v_cap v) n).
    - pose proof (mv_reserve v n ltac:(lia) _ _ _ E0) as H2. apply reserve_shape in E0 as [[Hc Ha] Hn2].
      rewrite (proj2 (N.ltb_lt _ _)) in H2 by lia.
      apply (mv_pushes rd _ Hr) in E; lia.
    - injection E0 as <- <-. apply (mv_pushes rd _ Hr) in E; [|lia|lia]. unfold price, regrow, one. lia.
  Qed.
  Lemma mv_assign_fill v n rd : mv rd 0 -> v_cap v < W -> n <= lmax ->
    mv (assign_fill_m (A := A) sz v n rd) (price (v_cap v <? n) 0).
  Proof using Hsz Hlim.
    intros Hr HW Hn. destruct (cmax_W sz lmax Hsz Hlim (2 * lmax + 2)) as (_ & _ & HW2); [lia|].
    unfold assign_fill_m. intros h x h' E. binv E. pose proof (mv_destroy_all v _ _ _ E0) as H1.
    unfold destroy_all in E0. binv E0. injection E0 as <- <-. binv E.
    pose proof (mv_reserve _ n ltac:(lia) _ _ _ E0) as H2. apply reserve_shape in E0 as [[Hc Ha] Hn2]. cbn in Hc, Hn2, H2.
    apply (mv_pushes rd _ Hr) in E; lia.
  Qed.
  Lemma mv_assign_list v xs : v_cap v < W -> nlen xs <= lmax ->
    mv (assign_list (A := A) sz v xs) (price (v_cap v <? nlen xs) 0).
  Proof using Hsz Hlim.
    intros HW Hn. destruct (cmax_W sz lmax Hsz Hlim (2 * lmax + 2)) as (_ & _ & HW2); [lia|].
    unfold assign_list. intros h x h' E. binv E. pose proof (mv_destroy_all v _ _ _ E0) as H1.
    unfold destroy_all in E0. binv E0. injection E0 as <- <-. binv E. fold (nlen xs) in E0.
    pose proof (mv_reserve _ (nlen xs) ltac:(lia) _ _ _ E0) as H2. apply reserve_shape in E0 as [[Hc Ha] Hn2]. cbn in Hc, Hn2, H2.
    apply mv_push_all in E; lia.
  Qed.
  Lemma mv_copy_impl v r : v_len r <= lmax -> mv (copy_impl (A := A) sz v r) wb.
  Proof using Hsz Hlim.
    intros Hn. eapply mv_eq.
    { apply mv_bind; [apply mv_allocate; lia|]. intros v1. apply mv_bind0; [|intros; apply mv_ret].
      apply mv_for0. intros i. apply mv_bind0; [apply mv_vread|]. intros. apply mv_vconstruct. }
    lia.
  Qed.
  Lemma mv_copy_assign v r : v_cap r <= 2 * lmax + 2 -> v_len r <= lmax ->
    mv (copy_assign (A := A) sz v r)
      (if v_alloc v =? v_alloc r then price (v_cap v <? v_cap r) (v_len v) else wb).
  Proof using Hsz Hlim.
    intros Hc Hl. unfold copy_assign. destruct (_ =? _).
    - eapply mv_eq.
      { apply mv_bind; [by apply mv_reserve|]. intros v1. cbv zeta. apply mv_bind0.
        { apply mv_for0. intros i. apply mv_bind0; [apply mv_vread|]. intros. apply mv_vassign. }
        intros _. apply mv_bind0; [|intros; apply mv_ret].
        destruct (_ <? _); [apply mv_for0; intros; apply mv_vdestroy|]. destruct (_ <? _); [|apply mv_ret].
        apply mv_for0. intros i. apply mv_bind0; [apply mv_vread|]. intros. apply mv_vconstruct. }
      lia.
    - apply mv_bind0; [apply mv_clear|]. intros. by apply mv_copy_impl.
  Qed.
  Lemma mv_meb n : forall p pos count hi, 1 <= pos -> hi < W -> mv (meb_loop (A := A) n p pos count hi) (wa * (hi + 1 - pos)).
  Proof using Type. clear Hsz Hlim.
    induction n as [|n IH]; intros p pos count hi Hp HW; cbn [meb_loop]; [apply mv_fail|].
    destruct (N.leb_spec pos hi).
    - rewrite usub_small by lia. eapply mv_eq.
      { apply mv_bind; [apply mv_vmove|]. intros x. apply mv_bind0; [apply mv_vconstruct|]. intros _.
        apply mv_bind0; [apply mv_vdestroy|]. intros _. apply IH; lia. }
      replace (hi - 1 + 1 - pos) with (hi - pos) by lia. replace (hi + 1 - pos) with (1 + (hi - pos)) by lia. lia.
    - eapply mv_eq; [apply mv_ret|]. replace (hi + 1 - pos) with 0 by lia. lia.
  Qed.
  Lemma mv_back v p n : 1 <= p -> v_len v <> 0 -> v_len v + n <= lmax ->
    mv (move_elements_back (A := A) sz v p n) (price (v_cap v <? v_len v + n) (v_len v) + wa * (v_len v - p)).
  Proof using Hsz Hlim.
    intros Hp Hl Hm. destruct (cmax_W sz lmax Hsz Hlim (2 * lmax + 2)) as (_ & _ & HW2); [lia|].
    unfold move_elements_back. rewrite (proj2 (N.eqb_neq _ _)) by done. rewrite (uadd_small (v_len v) n) by lia.
    intros h x h' E. binv E.
    assert (v_len x0 = v_len v /\ mass s = mass h + price (v_cap v <? v_len v + n) (v_len v)) as [Hx Hs].
    { destruct (N.ltb_spec (v_cap v) (v_len v + n)).
      - pose proof (mv_reserve v (v_len v + n) ltac:(lia) _ _ _ E0) as H2. rewrite (proj2 (N.ltb_lt _ _)) in H2 by lia.
        apply reserve_shape in E0 as [_ Hn]. done.
      - injection E0 as <- <-. split; [done|]. unfold price, regrow, one. lia. }
    binv E. injection E as <- <-. rewrite Hx, usub_small in E1 by lia. apply mv_meb in E1; [|done|lia].
    replace (v_len v - 1 + 1 - p) with (v_len v - p) in E1 by lia. lia.
  Qed.
  Lemma mv_emplace v p x : 1 <= p -> v_len v <> 0 -> v_len v <= v_cap v -> v_len v + 1 <= lmax ->
    mv (emplace (A := A) sz v p x) (price (v_cap v <=? v_len v) (v_len v) + wa * (v_len v - p)).
  Proof using Hsz Hlim.
    intros Hp Hl Hc Hm. destruct (cmax_W sz lmax Hsz Hlim (2 * lmax + 2)) as (_ & _ & HW2); [lia|].
    unfold emplace. intros h y h' E. binv E.
    assert (v_len x0 = v_len v /\ v_len v + 1 <= v_cap x0 /\ mass s = mass h + price (v_cap v <=? v_len v) (v_len v)) as (Hx & Hxc & Hs).
    { destruct (N.eqb_spec (v_len v) (v_cap v)) as [He|He].
      - rewrite (proj2 (N.leb_le _ _)) by lia. pose proof (mv_extend v ltac:(lia) _ _ _ E0) as H2.
        unfold extend_space in E0. apply reserve_shape in E0 as [[Hc2 _] Hn]. split; [done|]. split; [|done].
        rewrite Hc2. rewrite (proj2 (N.eqb_neq _ _)) by lia. rewrite umul_small by lia. lia.
      - rewrite (proj2 (N.leb_gt _ _)) by lia. injection E0 as <- <-. split; [done|]. split; [lia|]. unfold price, regrow, one. lia. }
    clear E0. binv E. apply mv_back in E0; [|done|lia|lia]. rewrite Hx, (proj2 (N.ltb_ge _ _)) in E0 by lia.
    binv E. apply mv_vconstruct in E1. injection E as <- <-. unfold price, regrow, one in *. lia.
  Qed.
  Lemma mv_insert_fill v p n rd : mv rd 0 -> 1 <= p -> v_len v <> 0 -> v_len v + n <= lmax ->
    mv (insert_fill_m (A := A) sz v p n rd) (price (v_cap v <? v_len v + n) (v_len v) + wa * (v_len v - p)).
  Proof using Hsz Hlim.
    intros Hr Hp Hl Hm. eapply mv_eq.
    { apply mv_bind; [by apply mv_back|]. intros v1. apply mv_bind0; [|intros; apply mv_ret].
      apply mv_for0. intros i. apply mv_bind0; [done|]. intros. apply mv_vconstruct. }
    lia.
  Qed.
  Lemma mv_insert_range v p xs : 1 <= p -> v_len v <> 0 -> v_len v + nlen xs <= lmax ->
    mv (insert_range (A := A) sz v p xs) (price (v_cap v <? v_len v + nlen xs) (v_len v) + wa * (v_len v - p)).
  Proof using Hsz Hlim.
    intros Hp Hl Hm. destruct (cmax_W sz lmax Hsz Hlim (2 * lmax + 2)) as (_ & _ & HW2); [lia|].
    unfold insert_range. fold (nlen xs). rewrite (uadd_small (v_len v) (nlen xs)) by lia. intros h y h' E. binv E.
    assert (v_len x = v_len v /\ v_len v + nlen xs <= v_cap x /\ mass s = mass h + price (v_cap v <? v_len v + nlen xs) (v_len v)) as (Hx & Hxc & Hs).
    { destruct (N.ltb_spec (v_cap v) (v_len v + nlen xs)).
      - pose proof (mv_allocate_reserve v (v_len v + nlen xs) ltac:(lia) _ _ _ E0) as H2.
        apply allocate_reserve_shape in E0 as [[Hc2 _] Hn]. split; [done|]. split; [lia|]. unfold price, regrow, one. lia.
      - injection E0 as <- <-. split; [done|]. split; [lia|]. unfold price, regrow, one. lia. }
    clear E0. binv E. apply mv_back in E0; [|done|lia|lia]. rewrite Hx, (proj2 (N.ltb_ge _ _)) in E0 by lia.
    binv E. apply mv_construct_all in E1. injection E as <- <-. unfold price, regrow, one in *. lia.
  Qed.
  Lemma mv_std_move p f l d : mv (std_move (A := A) p f l d) (wa * (l - f)).
  Proof using Type. clear Hsz Hlim.
    unfold std_move. destruct (_ && _); [apply mv_fail|]. eapply mv_eq.
    { apply (mv_for _ _ wa). intros i. eapply mv_eq; [apply mv_bind; [apply mv_vmove|intros; apply mv_vassign]|]. lia. }
    lia.
  Qed.
  Lemma mv_erase1 v p : p < v_len v -> v_len v < W -> mv (erase1 (A := A) v p) (wa * (v_len v - (p + 1))).
  Proof using Type. clear Hsz Hlim.
    intros Hp HW. unfold erase1. rewrite usub_small by lia. destruct (N.eqb_spec p (v_len v - 1)) as [->|].
    - eapply mv_eq; [apply mv_bind0; [apply mv_pop|intros; apply mv_ret]|]. replace (v_len v - (v_len v - 1 + 1)) with 0 by lia. lia.
    - rewrite (proj2 (N.ltb_lt _ _)) by lia. eapply mv_eq.
      { apply mv_bind; [apply mv_std_move|]. intros _. apply mv_bind0; [apply mv_pop|]. intros. apply mv_ret. }
      lia.
  Qed.
  Lemma mv_erase_range v p q : q <= v_len v -> mv (erase_range (A := A) v p q) (wa * (v_len v - q)).
  Proof using Type. clear Hsz Hlim.
    intros Hq. unfold erase_range. rewrite (proj2 (N.ltb_ge _ _)) by lia. eapply mv_eq.
    { apply mv_bind; [apply mv_std_move|]. intros _. apply mv_bind0; [apply mv_repeat; intros; apply mv_pop|]. intros. apply mv_ret. }
    lia.
  Qed.
  Lemma mv_collect n : forall it, mv (viter_collect (A := A) n it) 0.
  Proof using Type. clear Hsz Hlim.
    induction n as [|n IH]; intros it; cbn [viter_collect]; [apply mv_fail|]. apply mv_bind0.
    - unfold viter_next. destruct (negb _); [|apply mv_ret]. apply mv_bind0; [apply mv_vread|]. intros. apply mv_ret.
    - intros [[x|] it1]; [|apply mv_ret]. apply mv_bind0; [apply IH|]. intros. apply mv_ret.
  Qed.
  Lemma mv_eqs eqb n : forall i p q, mv (eq_loop (A := A) eqb n i p q) 0.
  Proof using Type. clear Hsz Hlim.
    induction n as [|n IH]; intros i p q; cbn [eq_loop]; [apply mv_ret|].
    apply mv_bind0; [apply mv_vread|]. intros x. apply mv_bind0; [apply mv_vread|]. intros y. destruct (negb _); [apply mv_ret|apply IH].
  Qed.
  Lemma mv_cmps cmp n : forall i p q r, mv (cmp_loop (A := A) cmp n i p q r) 0.
  Proof using Type. clear Hsz Hlim.
    induction n as [|n IH]; intros i p q r; cbn [cmp_loop]; [apply mv_ret|].
    apply mv_bind0; [apply mv_vread|]. intros x. apply mv_bind0; [apply mv_vread|]. intros y. destruct (cmp x y); [apply IH|apply mv_ret..].
  Qed.
  Lemma mv_prints n : forall i v, mv (print_loop (A := A) n i v) 0.
  Proof using Type. clear Hsz Hlim.
    induction n as [|n IH]; intros i v; cbn [print_loop]; [apply mv_ret|].
    apply mv_bind0; [apply mv_vread|]. intros x. apply mv_bind0; [apply IH|]. intros. apply mv_ret.
  Qed.

  Context (dflt : A) (eqb : A -> A -> bool) (cmp : A -> A -> comparison).
  Notation WW := (world (block A) vec).
  Notation wok := (world_ok (vrep (A := A) sz lmax)).
  Notation spec := (vspec_step dflt eqb cmp).
  Notation step := (vec_step sz dflt eqb cmp).
  Implicit Types (w : WW) (s : gmap nat (list A)).

  Lemma obs_heap {X} i f (g : X -> vout A) w out w' : obs i f g w = Ok (out, w') ->
    exists v x, f v (w_heap w) = Ok (x, w_heap w').
  Proof using Type. clear Hsz Hlim.
    unfold obs. intros H. binv H. apply wget_inv in E as [Hx ->]. binv H. apply lift_inv in E as [E Hv]. injection H as <- <-. eauto.
  Qed.

  Lemma step_mass w s o s' out w' : wok w s -> step o w = Ok (out, w') -> spec s o = Some (s', out) ->
    vop_safe s o -> vlimit lmax o s' ->
    mass (w_heap w') = mass (w_heap w) + (wa * moved (caps_of w) s o + wb * requested (caps_of w) s o).
  Proof using Hsz Hlim.
    intros Hwk E Es Hsafe [Hlim' Hres].
    assert (HV : forall i v, w_vars w !! i = Some v -> exists xs, s !! i = Some xs /\ len_of s i = v_len v /\ v_len v = nlen xs /\
      v_len v <= v_cap v /\ v_cap v < W /\ v_cap v <= 2 * lmax + 2).
    { intros i v Hv. destruct (wok_var _ _ _ _ _ _ Hwk Hv) as (xs & fp & Hs & Hr & _). exists xs. unfold len_of. rewrite Hs.
      destruct Hr as (Hl & Hc & Hmx & _). split_and!; try done.
      destruct (cmax_W sz lmax Hsz Hlim (v_cap v)) as (_ & _ & ?); [lia|done]. }
    assert (HM : forall X (m : VM X) n k x, mv m n -> m (w_heap w) = Ok (x, w_heap w') -> n = k -> mass (w_heap w') = mass (w_heap w) + k)
      by (intros X m n k x H1 H2 <-; by eapply H1).
    assert (Hcopy : forall j al i (x : vec), w_vars w !! j = Some x -> mk (A := A) i (new_copy sz al x) w = Ok (out, w') ->
      match s !! j with None => None | Some ys => VecSpec.create s i ys end = Some (s', out) ->
      mass (w_heap w') = mass (w_heap w) + wb).
    { intros j al i x Hr Em Ec. apply mk_inv in Em as (v & Em & Hw'). destruct (HV _ _ Hr) as (xs0 & Hs0 & Hlo & Hl & _).
      rewrite Hs0 in Ec. apply create_inv in Ec. apply Hlim' in Ec. eapply HM; [apply mv_copy_impl; rewrite Hl; exact Ec|exact Em|done]. }
    unfold moved, requested.
    destruct o; cbn [vec_step] in E; cbn [vspec_step] in Es; cbn [replaces carried shift];
      try (apply mk_inv in E as (v & Em & Hw'));
      try (apply upd1_inv in E as (v & v' & Hv & Ef & Hw'));
      try (apply upd1o_inv in E as (v & v' & y & Hv & Ef & Hw'));
      try (apply create_inv in Es; apply Hlim' in Es);
      try (destruct (HV _ _ Hv) as (xs0 & Hs0 & Hlo & Hl & Hlc & HW & Hmx));
      try (rewrite (cap_of_caps _ _ _ Hv), ?Hlo).
    - eapply HM; [|exact Em|]; [apply mv_allocate; lia|]. unfold regrow. lia.
    - eapply HM; [|exact Em|]; [apply mv_ret|]. unfold regrow, one. lia.
    - rewrite nlen_nrep in Es. eapply HM; [|exact Em|]; [apply mv_assign_fill; [apply mv_ret|done|done]|]. cbn [v_cap]. unfold price, regrow, one. destruct (0 <? n); lia.
    - rewrite nlen_nrep in Es. eapply HM; [|exact Em|]; [apply mv_assign_fill; [apply mv_ret|done|done]|]. cbn [v_cap]. unfold price, regrow, one. destruct (0 <? n); lia.
    - eapply HM; [|exact Em|].
      { apply mv_bind; [apply mv_allocate; unfold nlen in Es; lia|]. intros v1. apply mv_bind0; [apply mv_construct_all|]. intros. apply mv_ret. }
      unfold regrow. lia.
    - eapply HM; [|exact Em|].
      { apply mv_bind; [apply mv_allocate; unfold nlen in Es; lia|]. intros v1. apply mv_construct_back. }
      unfold regrow. lia.
    - unfold from_iter in Em. binv Em. pose proof (mv_allocate _ 2 ltac:(lia) _ _ _ E) as H1.
      unfold new_default, allocate in E. binv E. injection E as <- Eh.
      apply mv_push_grow in Em; cbn; try lia. cbn in Em. lia.
    - binv E. apply wget_inv in E0 as [Hr ->]. rewrite (Hcopy _ _ _ _ Hr E Es). unfold regrow. lia.
    - binv E. apply wget_inv in E0 as [Hr ->]. rewrite (Hcopy _ _ _ _ Hr E Es). unfold regrow. lia.
    - binv E. destruct x. apply wnew_inv in E0 as [Hn ->]. binv E. apply wget_inv in E0 as [Hr ->].
      unfold move_impl in E. binv E. injection E0 as <- <-. binv E. injection E0 as <- <-. injection E as <- <-.
      cbn [w_heap]. unfold regrow, one. lia.
    - binv E. apply wget_inv in E0 as [Hr ->]. binv E. apply lift_inv in E0 as [Em Hvs]. binv E.
      injection E0 as <- <-. injection E as <- <-. cbn [w_heap]. apply mv_clear in Em. unfold regrow, one. lia.
    - binv E. apply wget_inv in E0 as [Hr ->]. binv E. apply wget_inv in E0 as [Hr2 ->].
      destruct (Nat.eqb_spec i j) as [->|Hne]; [injection E as <- <-; unfold regrow, one; cbn; lia|].
      binv E. apply lift_inv in E0 as [Ec Hvs]. binv E. injection E0 as <- <-. injection E as <- <-. cbn [w_heap].
      destruct (HV _ _ Hr2) as (xs0 & Hs0 & Hlo & Hl & _ & _ & Hmx). destruct (HV _ _ Hr) as (xs1 & Hs1 & Hlo1 & Hl1 & _).
      rewrite Hs0 in Es. apply modify_inv in Es as (xs & ys & Hs & [= <-] & Hs'). apply Hlim' in Hs'.
      rewrite (al_of_caps _ _ _ Hr), (al_of_caps _ _ _ Hr2), (cap_of_caps _ _ _ Hr), (cap_of_caps _ _ _ Hr2), Hlo1.
      apply mv_copy_assign in Ec; [|done|lia]. destruct (v_alloc x =? v_alloc x0); cbn [negb andb]; unfold price, regrow, one in *; lia.
    - binv E. apply wget_inv in E0 as [Hr ->]. binv E. apply wget_inv in E0 as [Hr2 ->].
      destruct (Nat.eqb_spec i j) as [->|Hne]; [injection E as <- <-; unfold regrow, one; lia|].
      binv E. apply lift_inv in E0 as [Em Hvs]. destruct x1 as [v1 r1]. unfold move_assign in Em. binv Em. injection Em as <- <- Eh.
      binv E. injection E1 as <- <-. binv E. injection E1 as <- <-. injection E as <- <-. cbn [w_heap]. rewrite <-Eh.
      apply mv_clear in E0. unfold regrow, one. lia.
    - apply modify_inv in Es as (xs & ys & Hs & [= <- _] & Hs'). apply Hlim' in Hs'. rewrite nlen_nrep in Hs'.
      eapply HM; [|exact Ef|]; [apply mv_assign_fill; [apply mv_ret|done|done]|]. unfold price, regrow, one. destruct (_ <? _); lia.
    - apply modify_inv in Es as (xs' & ys & Hs & [= <- _] & Hs'). apply Hlim' in Hs'.
      eapply HM; [|exact Ef|]; [apply mv_assign_list; done|]. unfold price, regrow, one. destruct (_ <? _); lia.
    - eapply HM; [|exact Ef|]; [apply mv_reserve; lia|]. unfold price. lia.
    - eapply HM; [|exact Ef|]; [apply mv_clear|]. unfold regrow, one. lia.
    - apply modify_inv in Es as (xs & ys & Hs & [= <- _] & Hs'). apply Hlim' in Hs'. rewrite nlen_app in Hs'. assert (xs = xs0) as -> by congruence.
      change (nlen [x]) with 1 in Hs'. eapply HM; [|exact Ef|]; [apply mv_push; [apply mv_ret|done|lia]|]. unfold price. lia.
    - apply modify_inv in Es as (xs & ys & Hs & [= <- _] & Hs'). apply Hlim' in Hs'. rewrite nlen_app in Hs'. assert (xs = xs0) as -> by congruence.
      change (nlen [x]) with 1 in Hs'. eapply HM; [|exact Ef|].
      { apply mv_bind; [apply mv_push; [apply mv_ret|done|lia]|]. intros v1. apply mv_bind0; [apply mv_vread|]. intros. apply mv_ret. }
      unfold price. lia.
    - eapply HM; [|exact Ef|]; [apply mv_pop|]. unfold regrow, one. lia.
    - apply modify_inv in Es as (xs & ys & Hs & [= <- _] & Hs'). apply Hlim' in Hs'. rewrite nlen_resize in Hs'.
      eapply HM; [|exact Ef|]; [apply mv_resize; [apply mv_ret|done..]|]. unfold price. lia.
    - apply modify_inv in Es as (xs & ys & Hs & [= <- _] & Hs'). apply Hlim' in Hs'. rewrite nlen_resize in Hs'.
      eapply HM; [|exact Ef|]; [apply mv_resize; [apply mv_ret|done..]|]. unfold price. lia.
    - binv E. apply wget_inv in E0 as [Hr ->]. binv E. apply wget_inv in E0 as [Hr2 ->]. unfold swap in E.
      binv E. injection E0 as <- <-. binv E. injection E0 as <- <-. injection E as <- <-. cbn [w_heap]. unfold regrow, one. lia.
    - apply obs_heap in E as (v & y & Ef). eapply HM; [|exact Ef|]; [apply mv_vassign|]. unfold regrow, one. lia.
    - apply modify_inv in Es as (xs & ys & Hs & Ey & Hs'). apply Hlim' in Hs'. assert (xs = xs0) as -> by congruence.
      destruct (N.leb_spec p (nlen xs0)); [|done]. assert (ys = ntake p xs0 ++ [x] ++ ndrop p xs0) as -> by congruence. rewrite nlen_ins in Hs' by done. change (nlen [x]) with 1 in Hs'.
      cbn [vop_safe] in Hsafe. unfold on_var in Hsafe. rewrite Hs in Hsafe. destruct Hsafe as (Hne & Hp & _).
      assert (v_len v <> 0) by (rewrite Hl; destruct xs0; [done|]; unfold nlen; cbn [length]; lia).
      eapply HM; [|exact Ef|]; [apply mv_emplace; [done|done|done|lia]|]. unfold price. lia.
    - apply modify_inv in Es as (xs & ys & Hs & Ey & Hs'). apply Hlim' in Hs'. assert (xs = xs0) as -> by congruence.
      destruct (N.leb_spec p (nlen xs0)); [|done]. assert (ys = ntake p xs0 ++ [x] ++ ndrop p xs0) as -> by congruence. rewrite nlen_ins in Hs' by done. change (nlen [x]) with 1 in Hs'.
      cbn [vop_safe] in Hsafe. unfold on_var in Hsafe. rewrite Hs in Hsafe. destruct Hsafe as (Hne & Hp & _).
      assert (v_len v <> 0) by (rewrite Hl; destruct xs0; [done|]; unfold nlen; cbn [length]; lia).
      eapply HM; [|exact Ef|]; [apply mv_bind; [apply mv_emplace; [done|done|done|lia]|intros; apply mv_ret]|]. unfold price. lia.
    - apply modify_inv in Es as (xs & ys & Hs & Ey & Hs'). apply Hlim' in Hs'. assert (xs = xs0) as -> by congruence.
      destruct (N.leb_spec p (nlen xs0)); [|done]. injection Ey as <- _. rewrite nlen_ins, nlen_nrep in Hs' by done.
      cbn [vop_safe] in Hsafe. unfold on_var in Hsafe. rewrite Hs in Hsafe. destruct Hsafe as (Hne & Hp & _).
      assert (v_len v <> 0) by (rewrite Hl; destruct xs0; [done|]; unfold nlen; cbn [length]; lia).
      eapply HM; [|exact Ef|]; [apply mv_insert_fill; [apply mv_ret|done|done|lia]|]. unfold price. lia.
    - apply modify_inv in Es as (xs' & ys & Hs & Ey & Hs'). apply Hlim' in Hs'. assert (xs' = xs0) as -> by congruence.
      destruct (N.leb_spec p (nlen xs0)); [|done]. injection Ey as <- _. rewrite nlen_ins in Hs' by done.
      cbn [vop_safe] in Hsafe. unfold on_var in Hsafe. rewrite Hs in Hsafe. destruct Hsafe as (Hne & Hp & _).
      assert (v_len v <> 0) by (rewrite Hl; destruct xs0; [done|]; unfold nlen; cbn [length]; lia).
      eapply HM; [|exact Ef|]; [apply mv_insert_range; [done|done|lia]|]. unfold price. lia.
    - apply modify_inv in Es as (xs & ys & Hs & Ey & Hs'). assert (xs = xs0) as -> by congruence.
      destruct (N.ltb_spec p (nlen xs0)); [|done]. eapply HM; [|exact Ef|]; [apply mv_erase1; lia|]. unfold regrow, one. lia.
    - apply modify_inv in Es as (xs & ys & Hs & Ey & Hs'). assert (xs = xs0) as -> by congruence.
      destruct (N.leb_spec p q); [|done]. destruct (N.leb_spec q (nlen xs0)); [|done].
      eapply HM; [|exact Ef|]; [apply mv_erase_range; lia|]. unfold regrow, one. lia.
    - apply obs_heap in E as (v & y & Ef). eapply HM; [|exact Ef|]; [apply mv_ret|]. unfold regrow, one. lia.
    - apply obs_heap in E as (v & y & Ef). eapply HM; [|exact Ef|]; [apply mv_ret|]. unfold regrow, one. lia.
    - apply obs_heap in E as (v & y & Ef). eapply HM; [|exact Ef|].
      { instantiate (1 := 0). unfold at_. destruct (_ <? _); [|apply mv_ret]. apply mv_bind0; [apply mv_vread|]. intros. apply mv_ret. }
      unfold regrow, one. lia.
    - apply obs_heap in E as (v & y & Ef). eapply HM; [|exact Ef|]; [apply mv_vread|]. unfold regrow, one. lia.
    - apply obs_heap in E as (v & y & Ef). eapply HM; [|exact Ef|].
      { instantiate (1 := 0). unfold front. destruct (negb _); [|apply mv_ret]. apply mv_bind0; [apply mv_vread|]. intros. apply mv_ret. }
      unfold regrow, one. lia.
    - apply obs_heap in E as (v & y & Ef). eapply HM; [|exact Ef|].
      { instantiate (1 := 0). unfold back. destruct (negb _); [|apply mv_ret]. apply mv_bind0; [apply mv_vread|]. intros. apply mv_ret. }
      unfold regrow, one. lia.
    - apply obs_heap in E as (v & y & Ef). eapply HM; [|exact Ef|]; [apply mv_collect|]. unfold regrow, one. lia.
    - apply obs_heap in E as (v & y & Ef). eapply HM; [|exact Ef|]; [apply mv_bind0; [apply mv_prints|intros; apply mv_ret]|]. unfold regrow, one. lia.
    - binv E. apply wget_inv in E0 as [_ ->]. apply obs_heap in E as (v & y & Ef). eapply HM; [|exact Ef|].
      { instantiate (1 := 0). unfold vec_eq. destruct (negb _); [apply mv_ret|apply mv_eqs]. }
      unfold regrow, one. lia.
    - binv E. apply wget_inv in E0 as [_ ->]. apply obs_heap in E as (v & y & Ef). eapply HM; [|exact Ef|]; [apply mv_cmps|]. unfold regrow, one. lia.
  Qed.
End Count.

(** ** The claims *)

(** Calls that add or remove elements of [i] one at a time (or remove or read
    any number), and how many they add. *)
Definition single {A} (i : nat) (o : vop A) : bool :=
  match o with
  | VPush j _ | VEmplaceBack j _ | VPop j | VSet j _ _ | VEmplace j _ _ | VInsert j _ _
  | VErase j _ | VEraseRange j _ _ => Nat.eqb i j
  | VSize _ | VEmpty _ | VAt _ _ | VIndex _ _ | VFront _ | VBack _ | VIterAll _ | VPrint _ | VEq _ _ | VCmp _ _ => true
  | _ => false
  end.
Definition added {A} (o : vop A) : N :=
  match o with
  | VPush _ _ | VEmplaceBack _ _ | VEmplace _ _ _ | VInsert _ _ _ => 1
  | _ => 0
  end.
(** Calls that change the elements of [i] in whatever number, but not where
    its capacity comes from. *)
Definition inside {A} (i : nat) (o : vop A) : bool :=
  single i o ||
  match o with
  | VResize j _ | VResizeVal j _ _ | VAssignFill j _ _ | VAssignList j _ | VInsertFill j _ _ _ | VInsertRange j _ _ => Nat.eqb i j
  | _ => false
  end.
(** Ways of appending one element [x] to vector 0, which has [k], other than
    push_back and emplace_back. *)
Inductive appender := ByResize | ByFill | ByRange.
Definition append {A} (a : appender) (x : A) (k : N) : vop A :=
  match a with
  | ByResize => VResizeVal 0 (k + 1) x
  | ByFill => VInsertFill 0 k 1 x
  | ByRange => VInsertRange 0 k [x]
  end.
Fixpoint appends {A} (a : appender) (x : A) (n : nat) (k : N) : list (vop A) :=
  match n with O => [] | S n => append a x k :: appends a x n (k + 1) end.

Section Claims.
  Context {A : Type} (dflt : A) (eqb : A -> A -> bool) (cmp : A -> A -> comparison).
  Context (sz lmax : N) (Hsz : 1 <= sz) (Hlim : sz * (2 * lmax + 2) <= alloc_max).
  Notation WW := (world (block A) vec).
  Notation good := (good dflt eqb cmp lmax).
  Notation vrun := (vec_run sz dflt eqb cmp).
  Notation wok := (world_ok (vrep (A := A) sz lmax)).
  Notation sstep := (vspec_step dflt eqb cmp).
  Notation step := (vec_step sz dflt eqb cmp).
  Notation sums := (sums dflt eqb cmp).
  Notation caps_run := (caps_run dflt eqb cmp).
  Implicit Types (w : WW) (s : gmap nat (list A)) (c : gmap nat (N * N)).

  Lemma run_cost ops : forall w s s' outs, wok w s -> within lmax s -> spec_run sstep s ops = Some (s', outs) ->
    along sstep (hist_ok lmax) s ops ->
    exists w', run_ops step ops w = Ok (outs, w') /\ wok w' s' /\ caps_of w' = caps_run (caps_of w) s ops /\
      hmoves (w_heap w') = hmoves (w_heap w) + sums moved (caps_of w) s ops /\
      hnext (w_heap w') = hnext (w_heap w) + sums requested (caps_of w) s ops.
  Proof using Hsz Hlim.
    induction ops as [|o ops IH]; intros w s s' outs Hw Hin Hs Ha; simpl in *.
    - injection Hs as <- <-. exists w. rewrite !N.add_0_r. done.
    - destruct (sstep s o) as [[s1 x]|] eqn:E1; [|done]. destruct Ha as [[Hsafe Hl] Ha].
      destruct (spec_run sstep s1 ops) as [[s2 xs]|] eqn:E2; [|done]. injection Hs as <- <-.
      destruct (vec_step_refines sz lmax dflt eqb cmp Hsz Hlim w s o s1 x Hw Hin E1 Hsafe Hl) as (w1 & Ew & Hw1).
      destruct (IH w1 s1 s2 xs Hw1 (proj1 Hl) E2 Ha) as (w2 & Ew2 & Hw2 & Hc & Hm & Hn).
      exists w2. rewrite (bind_ok _ _ _ _ _ Ew), (bind_ok _ _ _ _ _ Ew2). split; [done|]. split; [done|].
      pose proof (step_caps dflt eqb cmp sz lmax Hsz Hlim w s o s1 x w1 Hw Ew E1 Hsafe Hl) as Hc1. rewrite Hc1 in Hc, Hm, Hn.
      pose proof (step_mass sz lmax Hsz Hlim 1 0 dflt eqb cmp w s o s1 x w1 Hw Ew E1 Hsafe Hl) as H1.
      pose proof (step_mass sz lmax Hsz Hlim 0 1 dflt eqb cmp w s o s1 x w1 Hw Ew E1 Hsafe Hl) as H2.
      unfold mass in H1, H2. split; [done|]. lia.
  Qed.

  (** C86: the elements moved and the buffers requested by any good history
      are those of the table above, call by call. *)
  Theorem C86_count_partial ops s outs : good ops s outs ->
    exists w, vrun ops = Ok (outs, w) /\
      hmoves (w_heap w) = sums moved ∅ ∅ ops /\ hnext (w_heap w) = sums requested ∅ ∅ ops /\
      forall i v, w_vars w !! i = Some v -> capacity v = cap_of (caps_run ∅ ∅ ops) i.
  Proof using Hsz Hlim.
    intros [Hs Ha]. destruct (run_cost ops winit ∅ s outs) as (w & E & Hw & Hc & Hm & Hn); [|done..|].
    { apply world_ok_init. }
    exists w. split; [done|]. assert (H0 : caps_of (A := A) winit = ∅) by apply fmap_empty. rewrite H0 in *. split; [by rewrite Hm|]. split; [by rewrite Hn|].
    intros i v Hv. by rewrite <-Hc, (cap_of_caps _ _ _ Hv).
  Qed.

  (** In the middle of a history. *)
  Lemma good_cost ops s outs ops2 s2 outs2 : good ops s outs ->
    spec_run sstep s ops2 = Some (s2, outs2) -> along sstep (hist_ok lmax) s ops2 ->
    exists w w2, vrun ops = Ok (outs, w) /\ run_ops step ops2 w = Ok (outs2, w2) /\ wok w s /\
      caps_of w = caps_run ∅ ∅ ops /\
      hmoves (w_heap w2) = hmoves (w_heap w) + sums moved (caps_run ∅ ∅ ops) s ops2 /\
      hnext (w_heap w2) = hnext (w_heap w) + sums requested (caps_run ∅ ∅ ops) s ops2.
  Proof using Hsz Hlim.
    intros Hg Hs2 Ha2. pose proof Hg as [Hs Ha]. assert (H0 : caps_of (A := A) winit = ∅) by apply fmap_empty.
    destruct (run_cost ops winit ∅ s outs) as (w & E & Hw & Hc & _); [|done..|]; [apply world_ok_init|].
    rewrite H0 in Hc. assert (Hin : within lmax s).
    { eapply good_within; [exact Hg]. }
    destruct (run_cost ops2 w s s2 outs2 Hw Hin Hs2 Ha2) as (w2 & E2 & _ & _ & Hm & Hn).
    exists w, w2. rewrite <-Hc. done.
  Qed.

  Theorem C86_call_partial ops s outs o s' x : good ops s outs -> sstep s o = Some (s', x) ->
    vop_safe s o -> vlimit lmax o s' ->
    exists w w', vrun ops = Ok (outs, w) /\ step o w = Ok (x, w') /\
      hmoves (w_heap w') = hmoves (w_heap w) + moved (caps_run ∅ ∅ ops) s o /\
      hnext (w_heap w') = hnext (w_heap w) + requested (caps_run ∅ ∅ ops) s o.
  Proof using Hsz Hlim.
    intros Hg Es Hsafe Hl. destruct (good_cost ops s outs [o] s' [x] Hg) as (w & w2 & E & E2 & _ & _ & Hm & Hn).
    { simpl. by rewrite Es. }
    { simpl. by rewrite Es. }
    exists w, w2. split; [done|]. simpl in *. rewrite Es in Hm, Hn. rewrite N.add_0_r in Hm, Hn. split; [|done].
    unfold bind in E2. destruct (step o w) as [[y w1]|]; [|done]. by injection E2 as -> ->.
  Qed.

  (** ** One element at a time *)
  Lemma cap_of_put c i n a j : cap_of (<[j := (n, a)]> c) i = if Nat.eqb i j then n else cap_of c i.
  Proof using Type.
    clear. unfold cap_of. destruct (Nat.eqb_spec i j) as [->|]; [by rewrite lookup_insert|by rewrite lookup_insert_ne].
  Qed.
  Lemma single_len s i xs o s' x : single i o = true -> s !! i = Some xs -> sstep s o = Some (s', x) ->
    exists ys, s' !! i = Some ys /\ nlen ys <= nlen xs + added o.
  Proof using Type.
    clear Hsz Hlim. intros Hd Hi Hs.
    destruct o; try done; simpl in Hd; cbn [vspec_step] in Hs; cbn [added]; try (apply Nat.eqb_eq in Hd as <-);
      try (apply modify_inv in Hs as (xs1 & ys & Hx & Hy & Hs'); assert (xs1 = xs) as -> by congruence);
      try (unfold VecSpec.observe in Hs; repeat (case_match; try done); injection Hs as <- _; exists xs; split; [done|lia]);
      exists ys; (split; [done|]).
    - injection Hy as <- _. rewrite nlen_app. done.
    - injection Hy as <- _. rewrite nlen_app. done.
    - destruct xs; [done|]. injection Hy as <- _. unfold nlen. rewrite take_length. lia.
    - destruct (N.ltb_spec k (nlen xs)); [|done]. injection Hy as <- _. unfold nlen, ntake, ndrop in *.
      rewrite app_length, take_length. cbn [length]. rewrite drop_length. lia.
    - destruct (N.leb_spec p (nlen xs)); [|done]. assert (ys = ntake p xs ++ [x0] ++ ndrop p xs) as -> by congruence. by rewrite nlen_ins by done.
    - destruct (N.leb_spec p (nlen xs)); [|done]. assert (ys = ntake p xs ++ [x0] ++ ndrop p xs) as -> by congruence. by rewrite nlen_ins by done.
    - destruct (N.ltb_spec p (nlen xs)); [|done]. injection Hy as <- _. unfold nlen, ntake, ndrop in *.
      rewrite !app_length, take_length, drop_length. lia.
    - destruct (N.leb_spec p q); [|done]. destruct (N.leb_spec q (nlen xs)); [|done]. injection Hy as <- _. unfold nlen, ntake, ndrop in *.
      rewrite !app_length, take_length, drop_length. lia.
  Qed.
  Lemma single_cost c s i xs o : single i o = true -> s !! i = Some xs -> nlen xs <= cap_of c i ->
    moved c s o = regrow (replaces c s o) (nlen xs) + shift s o /\ requested c s o = one (replaces c s o) /\
    ((replaces c s o = false /\ cap_of (caps_after c s o) i = cap_of c i /\ nlen xs + added o <= cap_of c i) \/
     (replaces c s o = true /\ added o = 1 /\ cap_of c i = nlen xs /\
      cap_of (caps_after c s o) i = if cap_of c i =? 0 then 2 else 2 * cap_of c i)).
  Proof using Type.
    clear. intros Hd Hi Hc. assert (Hlen : len_of s i = nlen xs) by (unfold len_of; by rewrite Hi).
    assert (Hgrow : ((cap_of c i <=? nlen xs) = false /\ pushed (nlen xs) (cap_of c i) = cap_of c i /\ nlen xs + 1 <= cap_of c i) \/
       ((cap_of c i <=? nlen xs) = true /\ 1 = 1 /\ cap_of c i = nlen xs /\
       pushed (nlen xs) (cap_of c i) = if cap_of c i =? 0 then 2 else 2 * cap_of c i)).
    { unfold pushed. destruct (N.leb_spec (cap_of c i) (nlen xs)).
      - right. rewrite (proj2 (N.ltb_ge _ _)) by lia. split; [done|]. split; [done|]. split; [lia|done].
      - left. rewrite (proj2 (N.ltb_lt _ _)) by lia. split; [done|]. split; [done|lia]. }
    destruct o; try done; simpl in Hd; unfold moved, requested; cbn [added replaces carried shift caps_after];
      try (apply Nat.eqb_eq in Hd as <-); rewrite ?cap_of_put, ?Nat.eqb_refl, ?Hlen;
      (split; [done|]); (split; [done|]); try exact Hgrow; left; (split; [done|]); (split; [done|]); lia.
  Qed.

  (** The potential of a vector: what its next replacement will cost. *)
  Lemma single_run i ops : Forall (fun o => single i o = true) ops ->
    forall c s xs s' outs, s !! i = Some xs -> nlen xs <= cap_of c i -> spec_run sstep s ops = Some (s', outs) ->
    exists ys, s' !! i = Some ys /\ nlen ys <= nlen xs + sums (fun _ _ => added) c s ops /\
      sums moved c s ops <= (2 * nlen xs - cap_of c i) + 2 * sums (fun _ _ => added) c s ops + sums (fun _ => shift) c s ops /\
      (forall k m, k = 0 \/ 2 ^ k <= cap_of c i -> (k = 0 \/ 2 ^ (k - 1) <= m) -> nlen xs <= m ->
        let k' := k + sums requested c s ops in k' = 0 \/ 2 ^ (k' - 1) <= m + sums (fun _ _ => added) c s ops).
  Proof using Type.
    clear sz lmax Hsz Hlim. induction ops as [|o ops IH]; intros Hall c s xs s' outs Hi Hc Hs.
    { injection Hs as <- <-. exists xs. cbn [VecMoves.sums]. split; [done|]. split; [lia|]. split; [lia|].
      intros k m _ Hk _. cbv zeta. rewrite !N.add_0_r. done. }
    apply Forall_cons in Hall as [Hd Hall]. cbn [spec_run] in Hs. cbn [VecMoves.sums].
    destruct (sstep s o) as [[s1 x]|] eqn:Es; [|done].
    destruct (spec_run sstep s1 ops) as [[s2 os]|] eqn:Er; [|done]. injection Hs as -> <-.
    destruct (single_len _ _ _ _ _ _ Hd Hi Es) as (ys & Hi1 & Hl).
    destruct (single_cost c s i xs o Hd Hi Hc) as (Hm & Hr & Hcase). rewrite Hm, Hr.
    destruct Hcase as [(-> & Hc1 & Hle)|(-> & Ha & Hfull & Hc1)]; unfold regrow, one.
    - destruct (IH Hall (caps_after c s o) s1 ys s' os Hi1 ltac:(lia) Er) as (zs & Hz & H1 & H2 & H3).
      exists zs. split; [done|]. split; [lia|]. rewrite Hc1 in H2, H3. split; [lia|].
      intros k m Hk1 Hk2 Hm1. cbv zeta in *. rewrite N.add_0_l.
      destruct (H3 k (m + added o)) as [H|H]; [done| |lia|by left|right; lia].
      destruct Hk2; [by left|right; lia].
    - assert (Hc2 : nlen ys <= cap_of (caps_after c s o) i) by (rewrite Hc1; destruct (N.eqb_spec (cap_of c i) 0); lia).
      destruct (IH Hall (caps_after c s o) s1 ys s' os Hi1 Hc2 Er) as (zs & Hz & H1 & H2 & H3).
      exists zs. split; [done|]. split; [lia|]. rewrite Hc1 in H2, H3. split.
      { destruct (N.eqb_spec (cap_of c i) 0); lia. }
      intros k m Hk1 Hk2 Hm1. cbv zeta in *. rewrite N.add_assoc.
      assert (2 ^ k <= m + added o) as Hpow.
      { destruct Hk1 as [->|]; [change (2 ^ 0) with 1|]; lia. }
      destruct (H3 (k + 1) (m + added o)) as [H|H]; [| |lia|lia|right; lia].
      + right. rewrite N.pow_add_r. change (2 ^ 1) with 2. destruct (N.eqb_spec (cap_of c i) 0) as [He|].
        * destruct Hk1 as [->|Hk1]; [done|]. pose proof (N.pow_nonzero 2 k ltac:(done)). lia.
        * destruct Hk1 as [->|Hk1]; [change (2 ^ 0) with 1|]; lia.
      + right. by rewrite N.add_sub.
  Qed.

  (** C86: in the middle of any history, any sequence of calls that add one
      element at a time to a vector (push_back, emplace_back, insert(pos, x),
      emplace(pos, x), among removals and reads) moves at most as many elements
      as have to make way, plus the vector's size at the beginning, plus two
      per element added; and the number of buffers is logarithmic. *)
  Theorem C86_single_partial i ops s outs xs ops2 s2 outs2 : good ops s outs -> s !! i = Some xs ->
    Forall (fun o => single i o = true) ops2 ->
    spec_run sstep s ops2 = Some (s2, outs2) -> along sstep (hist_ok lmax) s ops2 ->
    let n := sums (fun _ _ => added) ∅ s ops2 in
    exists w w2 k, vrun ops = Ok (outs, w) /\ run_ops step ops2 w = Ok (outs2, w2) /\
      hmoves (w_heap w2) <= hmoves (w_heap w) + sums (fun _ => shift) ∅ s ops2 + nlen xs + 2 * n /\
      hnext (w_heap w2) = hnext (w_heap w) + k /\ (k = 0 \/ 2 ^ (k - 1) <= nlen xs + n).
  Proof using Hsz Hlim.
    intros Hg Hi Hall Hs Hal n. destruct (good_cost _ _ _ _ _ _ Hg Hs Hal) as (w & w2 & E & E2 & Hw & Hc & Hm & Hn).
    destruct Hw as [m Hw]. destruct (world_ok_lookup_spec _ _ _ _ _ _ Hw Hi) as (e & _ & <- & Hv & Hr).
    destruct Hr as (Hl & Hlc & _).
    assert (Hcap : nlen (e_s e) <= cap_of (caps_run ∅ ∅ ops) i) by (rewrite <-Hc, (cap_of_caps _ _ _ Hv); lia).
    destruct (single_run i ops2 Hall (caps_run ∅ ∅ ops) s (e_s e) s2 outs2 Hi Hcap Hs) as (ys & _ & _ & H2 & H3).
    assert (Hany : forall (f : gmap nat (list A) -> vop A -> N) l c1 c2 t, sums (fun _ => f) c1 t l = sums (fun _ => f) c2 t l).
    { intros f l. induction l as [|o l IH]; intros c1 c2 t; [done|]. cbn [VecMoves.sums]. destruct (sstep t o) as [[t' y]|]; [|done].
      by rewrite (IH _ (caps_after c2 t o)). }
    exists w, w2, (sums requested (caps_run ∅ ∅ ops) s ops2). split; [done|]. split; [done|].
    unfold n. rewrite (Hany (fun _ => added) _ ∅ (caps_run ∅ ∅ ops)), (Hany shift _ ∅ (caps_run ∅ ∅ ops)). split; [lia|]. split; [lia|].
    apply (H3 0 (nlen (e_s e))); [by left|by left|lia].
  Qed.

  (** ** Within a reserved capacity *)
  Lemma inside_step c s i xs o s' x n : inside i o = true -> s !! i = Some xs -> sstep s o = Some (s', x) ->
    nlen xs <= n -> n <= cap_of c i -> on_var s' i (fun ys => nlen ys <= n) ->
    (exists ys, s' !! i = Some ys /\ nlen ys <= n) /\ n <= cap_of (caps_after c s o) i /\
    moved c s o = shift s o /\ requested c s o = 0.
  Proof using Type.
    clear sz lmax Hsz Hlim. intros Hd Hi Hs Hn Hc Hon.
    assert (exists ys, s' !! i = Some ys /\ nlen ys <= n) as (ys & Hy & Hyn).
    { unfold on_var in Hon. destruct (s' !! i) as [ys|]; [|done]. eauto. }
    split; [eauto|]. assert (Hlen : len_of s i = nlen xs) by (unfold len_of; by rewrite Hi).
    unfold inside in Hd. destruct (single i o) eqn:Hsi.
    { assert (Hle : nlen xs + added o <= n).
      { destruct o; cbn [added]; rewrite ?N.add_0_r; try done; simpl in Hsi; try (apply Nat.eqb_eq in Hsi as <-); cbn [vspec_step] in Hs;
          apply modify_inv in Hs as (xs1 & ys1 & Hx & Hf & Hs'); assert (xs1 = xs) as -> by congruence; assert (ys1 = ys) as -> by congruence.
        - injection Hf as <- _. by rewrite nlen_app in Hyn.
        - injection Hf as <- _. by rewrite nlen_app in Hyn.
        - destruct (N.leb_spec p (nlen xs)); [|done]. assert (ys = ntake p xs ++ [x0] ++ ndrop p xs) as -> by congruence. by rewrite nlen_ins in Hyn by done.
        - destruct (N.leb_spec p (nlen xs)); [|done]. assert (ys = ntake p xs ++ [x0] ++ ndrop p xs) as -> by congruence. by rewrite nlen_ins in Hyn by done. }
      destruct (single_cost c s i xs o Hsi Hi ltac:(lia)) as (Hm & Hr & [(Hb & Hcc & _)|(Hb & Ha & Hf & _)]); [|lia].
      rewrite Hm, Hr, Hb, Hcc. done. }
    destruct o; try done; simpl in Hd; apply Nat.eqb_eq in Hd as <-; cbn [vspec_step] in Hs;
      apply modify_inv in Hs as (xs1 & ys1 & Hx & Hf & Hs'); assert (xs1 = xs) as -> by congruence; assert (ys1 = ys) as -> by congruence;
      unfold moved, requested; cbn [replaces carried shift caps_after]; rewrite cap_of_put, Nat.eqb_refl, ?Hlen; (split; [lia|]).
    - injection Hf as <- _. rewrite nlen_nrep in Hyn. by rewrite (proj2 (N.ltb_ge _ _)) by lia.
    - injection Hf as <- _. by rewrite (proj2 (N.ltb_ge _ _)) by lia.
    - injection Hf as <- _. rewrite nlen_resize in Hyn. by rewrite (proj2 (N.ltb_ge _ _)) by lia.
    - injection Hf as <- _. rewrite nlen_resize in Hyn. by rewrite (proj2 (N.ltb_ge _ _)) by lia.
    - destruct (N.leb_spec p (nlen xs)); [|done]. injection Hf as <- _. rewrite nlen_ins, nlen_nrep in Hyn by done.
      by rewrite (proj2 (N.ltb_ge _ _)) by lia.
    - destruct (N.leb_spec p (nlen xs)); [|done]. injection Hf as <- _. rewrite nlen_ins in Hyn by done.
      by rewrite (proj2 (N.ltb_ge _ _)) by lia.
  Qed.
  Lemma inside_run i n ops : Forall (fun o => inside i o = true) ops ->
    forall c d s xs s' outs, s !! i = Some xs -> nlen xs <= n -> n <= cap_of c i -> spec_run sstep s ops = Some (s', outs) ->
    along sstep (fun _ _ s' => on_var s' i (fun ys => nlen ys <= n)) s ops ->
    sums moved c s ops = sums (fun _ => shift) d s ops /\ sums requested c s ops = 0.
  Proof using Type.
    clear sz lmax Hsz Hlim. induction ops as [|o ops IH]; intros Hall c d s xs s' outs Hi Hn Hc Hs Ha; [done|].
    apply Forall_cons in Hall as [Hd Hall]. cbn [spec_run along] in Hs, Ha. cbn [VecMoves.sums].
    destruct (sstep s o) as [[s1 x]|] eqn:Es; [|done]. destruct Ha as [Hon Ha].
    destruct (spec_run sstep s1 ops) as [[s2 os]|] eqn:Er; [|done].
    destruct (inside_step c s i xs o s1 x n Hd Hi Es Hn Hc Hon) as ((ys & Hy & Hyn) & Hc1 & -> & ->).
    destruct (IH Hall (caps_after c s o) (caps_after d s o) s1 ys s2 os Hy Hyn Hc1 Er Ha) as [-> ->]. done.
  Qed.

  (** C86: once reserve(n) has been called, no call that keeps the size within
      [n] requests a buffer, and none moves an element that does not have to
      make way, whichever members the elements are added with. *)
  Theorem C86_reserved_partial i n ops s outs xs ops2 s2 outs2 : good ops s outs -> s !! i = Some xs -> nlen xs <= n -> n <= lmax ->
    Forall (fun o => inside i o = true) ops2 ->
    spec_run sstep s ops2 = Some (s2, outs2) -> along sstep (hist_ok lmax) s ops2 ->
    along sstep (fun _ _ s' => on_var s' i (fun ys => nlen ys <= n)) s ops2 ->
    exists w w1 w2, vrun ops = Ok (outs, w) /\ step (VReserve i n) w = Ok (ONone, w1) /\ run_ops step ops2 w1 = Ok (outs2, w2) /\
      hmoves (w_heap w2) = hmoves (w_heap w1) + sums (fun _ => shift) ∅ s ops2 /\ hnext (w_heap w2) = hnext (w_heap w1).
  Proof using Hsz Hlim.
    intros Hg Hi Hn Hm Hall Hs Hal Hon.
    assert (Er : sstep s (VReserve i n) = Some (s, ONone)).
    { cbn [vspec_step]. unfold VecSpec.modify. rewrite Hi. by rewrite insert_id. }
    assert (Hin : within lmax s) by (by eapply good_within).
    destruct (good_run sz lmax dflt eqb cmp Hsz Hlim _ _ _ Hg) as (w & Ew & Hww).
    destruct (vec_step_refines sz lmax dflt eqb cmp Hsz Hlim w s _ s ONone Hww Hin Er I (conj Hin Hm)) as (w1 & Es & Hw1).
    destruct (run_cost ops2 w1 s s2 outs2 Hw1 Hin Hs Hal) as (w2 & E2 & _ & _ & Hmv & Hnx).
    exists w, w1, w2. split; [done|]. split; [done|]. split; [done|].
    assert (Hcap : n <= cap_of (caps_of w1) i).
    { rewrite (step_caps dflt eqb cmp sz lmax Hsz Hlim w s _ s ONone w1 Hww Es Er I (conj Hin Hm)).
      cbn [caps_after]. rewrite cap_of_put, Nat.eqb_refl. lia. }
    destruct (inside_run i n ops2 Hall _ ∅ s xs s2 outs2 Hi Hn Hcap Hs Hon) as [H1 H2]. rewrite H1 in Hmv. rewrite H2 in Hnx. split; [done|lia].
  Qed.

  (** ** Appending by other members *)
  Lemma append_step a x c s xs k : s !! 0%nat = Some xs -> nlen xs = k -> 1 <= k -> cap_of c 0 = k ->
    exists s' out ys, sstep s (append a x k) = Some (s', out) /\ s' = <[0%nat := ys]> s /\ nlen ys = k + 1 /\
      vop_safe s (append a x k) /\ moved c s (append a x k) = k /\ requested c s (append a x k) = 1 /\
      cap_of (caps_after c s (append a x k)) 0 = k + 1 /\ forall i n, append a x k <> VReserve i n.
  Proof using Type.
    clear sz lmax Hsz Hlim. intros Hi Hk H1 Hc. assert (Hlen : len_of s 0%nat = k) by (unfold len_of; by rewrite Hi).
    assert (Hne : xs <> []) by (intros ->; unfold nlen in Hk; simpl in Hk; lia).
    destruct a; cbn [append vspec_step vop_safe]; unfold VecSpec.modify, on_var, ins_safe, moved, requested; rewrite Hi;
      cbn [replaces carried shift caps_after]; rewrite cap_of_put, Hc, ?Hlen; cbn [Nat.eqb].
    - eexists _, _, _. split; [done|]. split; [done|]. split; [apply nlen_resize|]. split; [done|].
      rewrite (proj2 (N.ltb_lt _ _)) by lia. unfold regrow, one. split; [lia|]. split; [done|]. split; [lia|done].
    - rewrite Hk, N.leb_refl. eexists _, _, _. split; [done|]. split; [done|].
      split; [rewrite nlen_ins, nlen_nrep by lia; lia|]. split; [split; [done|lia]|].
      rewrite (proj2 (N.ltb_lt _ _)) by lia. unfold regrow, one. split; [lia|]. split; [done|]. split; [lia|done].
    - rewrite Hk, N.leb_refl. change (nlen [x]) with 1. eexists _, _, _. split; [done|]. split; [done|].
      split; [by rewrite (nlen_ins k xs [x]), Hk by lia|]. split; [split; [done|lia]|].
      rewrite (proj2 (N.ltb_lt _ _)) by lia. unfold regrow, one. split; [lia|]. split; [done|]. split; [lia|done].
  Qed.
  Lemma append_run a x n : forall c s xs k, s !! 0%nat = Some xs -> nlen xs = k -> 1 <= k -> cap_of c 0 = k ->
    k + N.of_nat n <= lmax -> within lmax s ->
    exists s' outs ys, spec_run sstep s (appends a x n k) = Some (s', outs) /\ along sstep (hist_ok lmax) s (appends a x n k) /\
      s' !! 0%nat = Some ys /\ nlen ys = k + N.of_nat n /\
      2 * sums moved c s (appends a x n k) + N.of_nat n = N.of_nat n * (2 * k + N.of_nat n) /\
      sums requested c s (appends a x n k) = N.of_nat n.
  Proof using Type.
    clear Hsz Hlim. induction n as [|n IH]; intros c s xs k Hi Hk H1 Hc Hl Hin.
    { exists s, [], xs. split; [done|]. split; [done|]. split; [done|]. split; [lia|]. split; [cbn; lia|done]. }
    cbn [appends spec_run along VecMoves.sums].
    destruct (append_step a x c s xs k Hi Hk H1 Hc) as (s1 & out & ys & Es & Hs1 & Hy & Hsafe & Hm & Hr & Hc1 & Hnr).
    rewrite Es. assert (Hin1 : within lmax s1).
    { rewrite Hs1. intros j zs. rewrite lookup_insert_Some. intros [[_ <-]|[_ Hz]]; [lia|by eapply Hin]. }
    destruct (IH (caps_after c s (append a x k)) s1 ys (k + 1)) as (s' & outs & zs & Er & Ha & Hz & Hzl & Hsm & Hsr);
      [by rewrite Hs1, lookup_insert|done|lia|done|lia|done|].
    rewrite Er. exists s', (out :: outs), zs. split; [done|]. split.
    { split; [|done]. split; [done|]. split; [done|]. destruct a; done. }
    split; [done|]. split; [lia|]. rewrite Hm, Hr, Hsr. split; [|lia]. nia.
  Qed.

  (** C86: appending [n] elements one at a time with resize(size() + 1),
      insert(end(), 1, x) or insert(end(), first, last) moves n (n + 1) / 2
      elements and requests a buffer every time: each asks for exactly the room
      it needs (vector.h:861-875, 711-752, 650-669). *)
  Theorem C86_append_cost a x n : 1 + N.of_nat n <= lmax ->
    exists s outs w xs, good (VNewList 0 0 [x] :: appends a x n 1) s outs /\
      vrun (VNewList 0 0 [x] :: appends a x n 1) = Ok (outs, w) /\ s !! 0%nat = Some xs /\ nlen xs = 1 + N.of_nat n /\
      2 * hmoves (w_heap w) = N.of_nat n * (N.of_nat n + 1) /\ hnext (w_heap w) = N.of_nat n + 1.
  Proof using Hsz Hlim.
    intros Hl. set (s1 := <[0%nat := [x]]> ∅ : gmap nat (list A)).
    assert (E1 : sstep ∅ (VNewList 0 0 [x]) = Some (s1, ONone)) by done.
    assert (Hin : within lmax s1).
    { intros j zs. unfold s1. rewrite lookup_insert_Some. intros [[_ <-]|[_ Hz]]; [unfold nlen; simpl; lia|by rewrite lookup_empty in Hz]. }
    set (c1 := caps_after ∅ (∅ : gmap nat (list A)) (VNewList 0 0 [x])).
    destruct (append_run a x n c1 s1 [x] 1) as (s' & outs & ys & Er & Ha & Hy & Hyl & Hm & Hr);
      [apply lookup_insert|done|done|done|done|done|].
    assert (Hg : good (VNewList 0 0 [x] :: appends a x n 1) s' (ONone :: outs)).
    { split.
      - change (spec_run sstep ∅ (VNewList 0 0 [x] :: appends a x n 1)) with
          (match spec_run sstep s1 (appends a x n 1) with Some (s2, os) => Some (s2, ONone :: os) | None => None end). by rewrite Er.
      - split; [|exact Ha]. split; [done|]. split; [exact Hin|done]. }
    destruct (C86_count_partial _ _ _ Hg) as (w & Ew & Hmv & Hnx & _).
    exists s', (ONone :: outs), w, ys. split; [done|]. split; [done|]. split; [done|]. split; [lia|].
    cbn [VecMoves.sums] in Hmv, Hnx. rewrite E1 in Hmv, Hnx. fold c1 in Hmv, Hnx.
    change (moved ∅ ∅ (VNewList 0 0 [x])) with 0 in Hmv. change (requested ∅ ∅ (VNewList 0 0 [x])) with 1 in Hnx.
    split; [|lia]. nia.
  Qed.

  (** Hence no constant bounds the cost per element appended. *)
  Theorem C86_refuted a x K : 2 * K + 2 <= lmax ->
    exists n ops s outs w xs, good ops s outs /\ vrun ops = Ok (outs, w) /\ s !! 0%nat = Some xs /\ nlen xs = 1 + n /\
      ops = VNewList 0 0 [x] :: appends a x (N.to_nat n) 1 /\ K * n < hmoves (w_heap w).
  Proof using Hsz Hlim.
    intros HK. destruct (C86_append_cost a x (N.to_nat (2 * K + 1)) ltac:(lia)) as (s & outs & w & xs & Hg & Ew & Hi & Hx & Hm & _).
    eexists (2 * K + 1), _, s, outs, w, xs. split; [exact Hg|]. split; [done|]. split; [done|]. split; [lia|]. split; [done|].
    rewrite N2Nat.id in Hm. nia.
  Qed.
End Claims.

(** ** Concrete cases *)

(** The history of VecProps and then: insertion and erasure in the middle, a
    fill insertion that grows, copy assignment to a smaller vector. *)
Definition ex_moves : list (vop N) :=
  ex_ops ++ [VNewList 5 0 [1; 2; 3; 4]; VInsert 5 2 9; VErase 5 0; VInsertFill 5 1 5 7; VNewList 6 0 [1; 2; 3]; VCopyAsg 6 5;
             VReserve 5 4; VFromIter 7 [1; 2; 3; 4; 5]; VResize 7 2; VEraseRange 7 0 1].
Example C86_count_ex : goodb 0 N.eqb N.compare 100 ∅ ex_moves = true /\
  match vec_run 8 0 N.eqb N.compare ex_moves with
  | Ok (_, w) => hmoves (w_heap w) = sums 0 N.eqb N.compare moved ∅ ∅ ex_moves /\
      hnext (w_heap w) = sums 0 N.eqb N.compare requested ∅ ∅ ex_moves /\
      sums 0 N.eqb N.compare moved ∅ ∅ ex_moves = sums 0 N.eqb N.compare moved ∅ ∅ ex_ops + 27
  | Err _ => False end.
Proof. vm_compute. done. Qed.

(** Calls one element at a time on vector 0, after that history. *)
Definition ex_single : list (vop N) :=
  [VInsert 0 3 1; VEmplace 0 1 2; VPush 0 3; VErase 0 2; VEraseRange 0 1 3; VInsert 0 2 5; VAt 0 1; VEmplaceBack 0 6; VEmplace 0 4 7].
Example C86_single_ex : Forall (fun o => single 0 o = true) ex_single /\
  goodb 0 N.eqb N.compare 100 (Nend ex_ops) ex_single = true /\
  match Nrun ex_ops with
  | Ok (_, w) => match run_ops (vec_step 8 0 N.eqb N.compare) ex_single w with
      | Ok (_, w2) => hmoves (w_heap w2) = hmoves (w_heap w) + 42 /\ hnext (w_heap w2) = hnext (w_heap w) + 1 /\
          sums 0 N.eqb N.compare (fun _ => shift) ∅ (Nend ex_ops) ex_single = 34
      | Err _ => False end
  | Err _ => False end.
Proof. split; [repeat constructor|]. vm_compute. done. Qed.

(** Reserving 20 first: none of these needs a buffer. *)
Definition ex_inside : list (vop N) :=
  [VResize 0 12; VInsertFill 0 5 3 1; VInsertRange 0 15 [1; 2; 3]; VPush 0 4; VErase 0 1; VAssignFill 0 18 7; VInsert 0 1 2].
Fixpoint roomy (n : N) (s : gmap nat (list N)) (ops : list (vop N)) : bool :=
  match ops with
  | [] => true
  | o :: r => match vspec_step 0 N.eqb N.compare s o with
              | Some (s', _) => match s' !! 0%nat with Some ys => (nlen ys <=? n) && roomy n s' r | None => false end
              | None => false
              end
  end.
Lemma roomy_along n ops : forall s, roomy n s ops = true ->
  along (vspec_step 0 N.eqb N.compare) (fun _ _ s' => on_var s' 0 (fun ys => nlen ys <= n)) s ops.
Proof.
  induction ops as [|o ops IH]; intros s; cbn [roomy along]; [done|]. destruct (vspec_step _ _ _ s o) as [[s' x]|]; [|done].
  unfold on_var. destruct (s' !! 0%nat) as [ys|]; [|done]. intros [H1 H2]%andb_true_iff. split; [by apply N.leb_le|by apply IH].
Qed.
Example C86_reserved_ex : Forall (fun o => inside 0 o = true) ex_inside /\
  goodb 0 N.eqb N.compare 100 (Nend ex_ops) ex_inside = true /\
  along (vspec_step 0 N.eqb N.compare) (fun _ _ s' => on_var s' 0 (fun ys => nlen ys <= 20)) (Nend ex_ops) ex_inside /\
  match Nrun (ex_ops ++ [VReserve 0 20]) with
  | Ok (_, w) => match run_ops (vec_step 8 0 N.eqb N.compare) ex_inside w with
      | Ok (_, w2) => hmoves (w_heap w2) = hmoves (w_heap w) + 41 /\ hnext (w_heap w2) = hnext (w_heap w)
      | Err _ => False end
  | Err _ => False end.
Proof. split; [repeat constructor|]. split; [by vm_compute|]. split; [apply roomy_along; by vm_compute|]. vm_compute. done. Qed.

(** 40 elements appended: 820 moves and 41 buffers by the other members, at
    most 81 moves by push_back. *)
Example C86_append_ex : Forall (fun a =>
  match vec_run 8 0 N.eqb N.compare (VNewList 0 0 [1] :: appends a 1 40 1) with
  | Ok (_, w) => hmoves (w_heap w) = 820 /\ hnext (w_heap w) = 41
  | Err _ => False end) [ByResize; ByFill; ByRange] /\
  match vec_run 8 0 N.eqb N.compare (VNewList 0 0 [1] :: replicate 40 (VPush 0 1)) with
  | Ok (_, w) => hmoves (w_heap w) = 63 /\ hnext (w_heap w) = 7
  | Err _ => False end.
Proof. split; [|vm_compute; done]. do 3 (apply Forall_cons; split; [vm_compute; done|]). by apply Forall_nil. Qed.

Print Assumptions C86_count_partial.
Print Assumptions C86_call_partial.
Print Assumptions C86_single_partial.
Print Assumptions C86_reserved_partial.
Print Assumptions C86_append_cost.
Print Assumptions C86_refuted.
