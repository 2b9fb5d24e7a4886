(** * VecDebug: vectors in a debug build (C77)

    Source: include/mstl/global.h:12-22, include/mstl/collection/vector.h:188-196.
    With [MSTL_DEBUG_ASSERT] on, [operator[]] checks its index.  It is used by
    the copy constructors and the copy assignment to another allocator (843),
    [operator==] (1065), [operator<<] (1077) and [operator<=>] (1096); the other
    members go by [beginPtr] and assert nothing. *)
From Verif Require Import Base World IterSpec VecModel VecSpec VecProofs VecRefine VecProps.
Local Open Scope N_scope.
Local Notation nlen l := (N.of_nat (length l)).

Section Model.
  Context {A : Type} (sz : N) (dflt : A) (eqb : A -> A -> bool) (cmp : A -> A -> comparison).
  Notation VM := (M (heap (block A))).

  (** vector.h:188-196 [operator[]]; writing through it. *)
  Definition d_index (v : vec) (i : N) : VM A := if i <? v_len v then index v i else fail Panic.
  Definition d_set_index (v : vec) (i : N) (x : A) : VM unit := if i <? v_len v then set_index v i x else fail Panic.
  (** vector.h:838-845 [copy_impl]; 87-93 the copy constructors. *)
  Definition d_copy_impl (v r : vec) : VM vec :=
    v1 <-- allocate sz v (v_len r) ;;
    for_up (N.to_nat (v_len r)) 0
      (fun i => x <-- d_index r i ;; vconstruct (v_ptr v1) i x) ;;;
    ret (set_len v1 (v_len r)).
  Definition d_new_copy (al : N) (r : vec) : VM vec := d_copy_impl (Vec 0 0 None al) r.
  (** vector.h:117-145 [operator=(const Vector&)]. *)
  Definition d_copy_assign (v other : vec) : VM vec :=
    if v_alloc v =? v_alloc other then copy_assign sz v other
    else v1 <-- clear sz v ;; d_copy_impl v1 other.
  (** vector.h:1058-1071 [operator==]. *)
  Fixpoint d_eq_loop (n : nat) (i : N) (l r : vec) : VM bool :=
    match n with
    | O => ret true
    | S n' =>
        x <-- d_index l i ;; y <-- d_index r i ;;
        if negb (eqb x y) then ret false else d_eq_loop n' (i + 1) l r
    end.
  Definition d_eq (l r : vec) : VM bool :=
    if negb (v_len l =? v_len r) then ret false
    else d_eq_loop (N.to_nat (v_len l)) 0 l r.
  (** vector.h:1086-1107 [operator<=>]. *)
  Fixpoint d_cmp_loop (n : nat) (i : N) (l r : vec) (rest : comparison) : VM comparison :=
    match n with
    | O => ret rest
    | S n' =>
        x <-- d_index l i ;; y <-- d_index r i ;;
        match cmp x y with
        | Eq => d_cmp_loop n' (i + 1) l r rest
        | c => ret c
        end
    end.
  Definition d_cmp (l r : vec) : VM comparison :=
    d_cmp_loop (N.to_nat (N.min (v_len l) (v_len r))) 0 l r (N.compare (v_len l) (v_len r)).
  (** vector.h:1073-1084 [operator<<]. *)
  Fixpoint d_print_loop (n : nat) (i : N) (v : vec) : VM (list (nat + A)) :=
    match n with
    | O => ret []
    | S n' =>
        x <-- d_index v i ;;
        r <-- d_print_loop n' (i + 1) v ;;
        ret (if negb (i =? usub (v_len v) 1) then inr x :: inl 1%nat :: r
             else inr x :: r)
    end.
  Definition d_print (v : vec) : VM (list (nat + A)) :=
    ts <-- d_print_loop (N.to_nat (v_len v)) 0 v ;;
    ret (inl 0%nat :: ts ++ [inl 2%nat]).

  Notation WM := (M (world (block A) vec)).
  Definition vec_debug_step (o : vop A) : WM (vout A) :=
    match o with
    | VNewCopy i j => r <-- wget j ;; mk i (d_new_copy 0 r)
    | VNewCopyAl i j al => r <-- wget j ;; mk i (d_new_copy al r)
    | VCopyAsg i j =>
        v <-- wget i ;; r <-- wget j ;;
        if Nat.eqb i j then ret ONone
        else v1 <-- lift (d_copy_assign v r) ;; wset i v1 ;;; ret ONone
    | VSet i k x => obs i (fun v => d_set_index v k x) (fun _ => ONone)
    | VIndex i k => obs i (fun v => d_index v k) OElem
    | VPrint i => obs i (fun v => d_print v) OToks
    | VEq i j => r <-- wget j ;; obs i (fun v => d_eq v r) OBool
    | VCmp i j => r <-- wget j ;; obs i (fun v => d_cmp v r) OCmp
    | o => vec_step sz dflt eqb cmp o
    end.

  (** ** Specification *)

  (** The index a client gives to [operator[]]. *)
  Definition subscript (o : vop A) : option (nat * N) :=
    match o with VIndex i k | VSet i k _ => Some (i, k) | _ => None end.
End Model.

Section Proofs.
  Context {A : Type} (sz : N) (dflt : A) (eqb : A -> A -> bool) (cmp : A -> A -> comparison).
  Notation H := (heap (block A)).
  Notation dstep := (vec_debug_step sz dflt eqb cmp).
  Notation rstep := (vec_step sz dflt eqb cmp).

  Lemma bind_ext {S X Y} (m : M S X) (f g : X -> M S Y) s : (forall a s', f a s' = g a s') -> bind m f s = bind m g s.
  Proof. intros E. unfold bind. destruct (m s) as [[a s']|]; [|done]. apply E. Qed.
  Lemma bind_ext2 {S X Y} (m m' : M S X) (f g : X -> M S Y) s : m s = m' s -> (forall a s', f a s' = g a s') -> bind m f s = bind m' g s.
  Proof. intros E E2. unfold bind. rewrite E. destruct (m' s) as [[a s']|]; [|done]. apply E2. Qed.
  Lemma index_in v i (h : H) : i < v_len v -> d_index v i h = vread (v_ptr v) i h.
  Proof. intros Hi. unfold d_index. by rewrite (proj2 (N.ltb_lt _ _) Hi). Qed.
  Lemma bind_index {Y} v i (k : A -> M H Y) (h : H) : i < v_len v -> bind (d_index v i) k h = bind (vread (v_ptr v) i) k h.
  Proof. intros Hi. unfold bind. by rewrite index_in. Qed.

  Lemma copy_same v r (h : H) : d_copy_impl sz v r h = copy_impl sz v r h.
  Proof.
    unfold d_copy_impl, copy_impl. apply bind_ext. intros v1 h1.
    assert (G : forall n i h, i + N.of_nat n <= v_len r ->
      for_up n i (fun i => bind (d_index r i) (vconstruct (v_ptr v1) i)) h =
      for_up n i (fun i => bind (vread (v_ptr r) i) (vconstruct (v_ptr v1) i)) (h : H)).
    { induction n as [|n IH]; intros i h2 Hn; [done|]. cbn [for_up]. apply bind_ext2; [apply bind_index; lia|].
      intros u h3. apply IH. lia. }
    apply bind_ext2; [apply G; lia|done].
  Qed.
  Lemma eq_same l r (h : H) : d_eq eqb l r h = vec_eq eqb l r h.
  Proof.
    unfold d_eq, vec_eq. destruct (N.eqb_spec (v_len l) (v_len r)) as [E|]; [|done]. cbn [negb].
    assert (G : forall n i h, i + N.of_nat n <= v_len l -> d_eq_loop eqb n i l r h = eq_loop eqb n i (v_ptr l) (v_ptr r) h).
    { induction n as [|n IH]; intros i h2 Hn; [done|]. cbn [d_eq_loop eq_loop]. rewrite bind_index by lia.
      apply bind_ext. intros x h3. rewrite bind_index by lia. apply bind_ext. intros y h4.
      destruct (negb (eqb x y)); [done|]. apply IH. lia. }
    apply G. lia.
  Qed.
  Lemma cmp_same l r (h : H) : d_cmp cmp l r h = vec_cmp cmp l r h.
  Proof.
    unfold d_cmp, vec_cmp.
    assert (G : forall n i rest h, i + N.of_nat n <= N.min (v_len l) (v_len r) ->
      d_cmp_loop cmp n i l r rest h = cmp_loop cmp n i (v_ptr l) (v_ptr r) rest h).
    { induction n as [|n IH]; intros i rest h2 Hn; [done|]. cbn [d_cmp_loop cmp_loop]. rewrite bind_index by lia.
      apply bind_ext. intros x h3. rewrite bind_index by lia. apply bind_ext. intros y h4.
      destruct (cmp x y); [|done|done]. apply IH. lia. }
    apply G. lia.
  Qed.
  Lemma print_same v (h : H) : d_print v h = print v h.
  Proof.
    unfold d_print, print.
    assert (G : forall n i h, i + N.of_nat n <= v_len v -> d_print_loop n i v h = print_loop n i v (h : H)).
    { induction n as [|n IH]; intros i h2 Hn; [done|]. cbn [d_print_loop print_loop]. rewrite bind_index by lia.
      apply bind_ext. intros x h3. unfold bind. by rewrite IH by lia. }
    unfold bind. by rewrite G by lia.
  Qed.
  Lemma mk_ext i (f g : M H vec) w : (forall h, f h = g h) -> mk i f w = mk i g w.
  Proof. intros E. unfold mk, bind, lift. destruct (wnew i w) as [[u w1]|]; [|done]. by rewrite E. Qed.
  Lemma obs_ext {X} i (f g : vec -> M H X) (k : X -> vout A) w : (forall v h, f v h = g v h) -> obs i f k w = obs i g k w.
  Proof. intros E. unfold obs, bind, lift. destruct (wget i w) as [[v w1]|]; [|done]. by rewrite E. Qed.

  (** ** C77 *)

  (** In every state whatsoever, reachable or not: an index that is not less
      than [size()] panics, and every other call does what it does in a
      release build. *)
  Theorem C77_debug_exact w (o : vop A) :
    dstep o w = match subscript o with
                | Some (i, k) =>
                    match w_vars w !! i with
                    | Some v => if k <? v_len v then rstep o w else Err Panic
                    | None => Err UB
                    end
                | None => rstep o w
                end.
  Proof.
    destruct o; try done; cbn [vec_debug_step subscript vec_step].
    - apply bind_ext. intros r w1. apply mk_ext. intros h. apply copy_same.
    - apply bind_ext. intros r w1. apply mk_ext. intros h. apply copy_same.
    - apply bind_ext. intros v w1. apply bind_ext. intros r w2. destruct (i =? j)%nat; [done|].
      unfold bind at 1 3, lift. assert (d_copy_assign sz v r (w_heap w2) = copy_assign sz v r (w_heap w2)) as ->; [|done].
      unfold d_copy_assign, copy_assign. destruct (v_alloc v =? v_alloc r); [done|]. apply bind_ext. intros v1 h1. apply copy_same.
    - unfold obs, bind, wget. destruct (w_vars w !! i) as [v|]; [|done]. unfold lift, d_set_index. by destruct (k <? v_len v).
    - unfold obs, bind, wget. destruct (w_vars w !! i) as [v|]; [|done]. unfold lift, d_index. by destruct (k <? v_len v).
    - apply obs_ext. intros v h. apply print_same.
    - apply bind_ext. intros r w1. apply obs_ext. intros v h. apply eq_same.
    - apply bind_ext. intros r w1. apply obs_ext. intros v h. apply cmp_same.
  Qed.
End Proofs.

Section Hist.
  Context {A : Type} (dflt : A) (eqb : A -> A -> bool) (cmp : A -> A -> comparison).
  Context (sz lmax : N) (Hsz : 1 <= sz) (Hlim : sz * (2 * lmax + 2) <= alloc_max).
  Notation good := (good dflt eqb cmp lmax).
  Notation vdebug := (fun ops => run_ops (vec_debug_step sz dflt eqb cmp) ops winit).
  Notation wok := (world_ok (vrep sz lmax)).

  Lemma run_snoc {St Op Out} (st : Op -> M St Out) ops o w outs w1 :
    run_ops st ops w = Ok (outs, w1) ->
    run_ops st (ops ++ [o]) w = match st o w1 with Ok (x, w2) => Ok (outs ++ [x], w2) | Err e => Err e end.
  Proof.
    revert w outs. induction ops as [|a ops IH]; intros w outs; cbn [run_ops app]; unfold bind, ret.
    - intros [= <- <-]. by destruct (st o w) as [[x w2]|].
    - destruct (st a w) as [[x w2]|]; [|done]. destruct (run_ops st ops w2) as [[xs w3]|] eqn:E; [|done].
      intros [= <- <-]. rewrite (IH _ _ E). by destruct (st o w3) as [[y w4]|].
  Qed.

  Lemma debug_run ops : forall w s s' outs,
    wok w s -> within lmax s ->
    spec_run (vspec_step dflt eqb cmp) s ops = Some (s', outs) ->
    along (vspec_step dflt eqb cmp) (hist_ok lmax) s ops ->
    exists w', run_ops (vec_step sz dflt eqb cmp) ops w = Ok (outs, w') /\
      run_ops (vec_debug_step sz dflt eqb cmp) ops w = Ok (outs, w') /\ wok w' s'.
  Proof using Hsz Hlim.
    induction ops as [|o ops IH]; intros w s s' outs Hw Hin Hs Ha; simpl in *.
    - injection Hs as <- <-. by exists w.
    - destruct (vspec_step dflt eqb cmp s o) as [[s1 x]|] eqn:E1; [|done].
      destruct Ha as [[Hsafe Hl] Ha].
      destruct (spec_run (vspec_step dflt eqb cmp) s1 ops) as [[s2 xs]|] eqn:E2; [|done].
      injection Hs as <- <-.
      destruct (vec_step_refines sz lmax dflt eqb cmp Hsz Hlim w s o s1 x Hw Hin E1 Hsafe Hl) as (w1 & Ew & Hw1).
      destruct (IH w1 s1 s2 xs) as (w2 & R1 & R2 & Hw2); [done|exact (proj1 Hl)|done|done|].
      exists w2. unfold bind. rewrite Ew, R1.
      assert (vec_debug_step sz dflt eqb cmp o w = Ok (x, w1)) as Ed.
      { rewrite C77_debug_exact, <- Ew. destruct (subscript o) as [[i k]|] eqn:Eo; [|done].
        destruct Hw as [m Hm].
        assert (exists ys, s !! i = Some ys /\ k < nlen ys) as (ys & Hi & Hk).
        { destruct o; try done; injection Eo as -> ->; cbn in E1; unfold modify, observe in E1;
            destruct (s !! i) as [ys|]; try done; exists ys; (split; [done|]);
            destruct (decide (k < nlen ys)) as [|Hge]; try done; exfalso; revert E1.
          - rewrite (proj2 (N.ltb_ge _ _)) by (unfold VecSpec.nlen; lia). done.
          - unfold nlookup. rewrite (proj2 (N.ltb_ge _ _)) by lia. done. }
        destruct (world_ok_lookup_spec _ _ _ _ _ _ Hm Hi) as (e & Hme & <- & Hv & Hr).
        assert (Hlen : v_len (e_o e) = nlen (e_s e)) by apply Hr.
        rewrite Hv. by rewrite (proj2 (N.ltb_lt _ _)) by lia. }
      by rewrite Ed, R2.
  Qed.

  (** Programs that keep to the sizes of their vectors compute the same in
      both builds; the first index beyond the end panics instead of reading. *)
  Theorem C77_debug_histories ops s outs : good ops s outs ->
    exists w, vec_run sz dflt eqb cmp ops = Ok (outs, w) /\ vdebug ops = Ok (outs, w) /\
      forall i xs k, s !! i = Some xs -> nlen xs <= k ->
        vdebug (ops ++ [VIndex i k]) = Err Panic /\
        forall x, vdebug (ops ++ [VSet i k x]) = Err Panic.
  Proof using Hsz Hlim.
    intros [Es Ea].
    destruct (debug_run ops winit ∅ s outs) as (w & E1 & E2 & Hw); [apply world_ok_init|intros i xs; by rewrite lookup_empty|done|done|].
    exists w. split; [done|]. split; [done|]. intros i xs k Hi.
    destruct Hw as [m Hm]. destruct (world_ok_lookup_spec _ _ _ _ _ _ Hm Hi) as (e & Hme & <- & Hv & Hr).
    assert (Hlen : v_len (e_o e) = nlen (e_s e)) by apply Hr.
    intros Hk. assert (k <? v_len (e_o e) = false) as Hf by (apply N.ltb_ge; lia).
    split; [|intros x]; rewrite (run_snoc _ _ _ _ _ _ E2), C77_debug_exact; cbn [subscript]; by rewrite Hv, Hf.
  Qed.
End Hist.

(** Non-trivial cases: a copy to another allocator, comparisons and printing
    run all the checked subscripts of the members; reading and writing [v[2]]
    of a vector of two panics, where a release build reads a cell that holds no
    object. *)
Definition C77_ops : list (vop Z) :=
  [VNew 0; VPush 0 5%Z; VPush 0 7%Z; VNewCopy 1 0; VSet 1 1 9%Z; VNewCopyAl 2 1 3; VCopyAsg 0 2; VEq 0 2; VCmp 1 0; VPrint 2; VIndex 0 1].
Notation C77_debug := (fun ops => run_ops (vec_debug_step 4 0%Z Z.eqb Z.compare) ops winit).
Notation C77_release := (vec_run 4 0%Z Z.eqb Z.compare).
Example C77_ex :
  good 0%Z Z.eqb Z.compare 100 C77_ops (end_of 0%Z Z.eqb Z.compare C77_ops) (outs_of 0%Z Z.eqb Z.compare C77_ops) /\
  end_of 0%Z Z.eqb Z.compare C77_ops !! 0%nat = Some [5; 9]%Z /\
  C77_debug (C77_ops ++ [VIndex 0 2]) = Err Panic /\ C77_release (C77_ops ++ [VIndex 0 2]) = Err UB /\
  C77_debug (C77_ops ++ [VSet 0 2 1%Z]) = Err Panic /\ C77_release (C77_ops ++ [VSet 0 2 1%Z]) = Err UB.
Proof. split; [apply goodb_ok; by vm_compute|]. repeat split; by vm_compute. Qed.

Print Assumptions C77_debug_exact.
Print Assumptions C77_debug_histories.
Print Assumptions C77_ex.
