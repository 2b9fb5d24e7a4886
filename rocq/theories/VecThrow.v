(** * VecThrow: Vector operations when copying an element throws

    VecModel takes element operations to be total.  Here a *copy* of an element
    (copy construction, copy assignment, construction from arguments) may throw;
    moves, swaps and destructors may not (allocate_reserve, 805, is noexcept).
    The state is the vector object itself, the heap and the number of copies
    that still succeed; the next one throws.  A throwing function leaves the
    data members as they were at that moment: the model assigns them in the
    order of the source.

    A throwing construction leaves the storage raw; a throwing assignment
    leaves its target as it was.  All line numbers refer to
    include/mstl/collection/vector.h. *)
From Verif Require Import Base World VecModel VecSpec VecFacts VecProofs VecProofs2 VecRefine
  VecMore VecProps VecBreaks.
Local Open Scope N_scope.

Record tst (A : Type) := Tst { t_v : vec; t_h : heap (block A); t_k : nat }.
Global Arguments Tst {A} _ _ _. Global Arguments t_v {A} _. Global Arguments t_h {A} _.
Global Arguments t_k {A} _.
(** How a call ends: it returns, or an exception leaves it. *)
Inductive tres (X : Type) := Done (x : X) | Threw.
Global Arguments Done {X} _. Global Arguments Threw {X}.

Section Model.
  Context {A : Type} (sz : N).
  Notation VM := (M (heap (block A))).
  Definition TM (X : Type) : Type := tst A -> outcome (tres X * tst A).

  Definition tret {X} (x : X) : TM X := fun s => Ok (Done x, s).
  Definition tbind {X Y} (m : TM X) (k : X -> TM Y) : TM Y := fun s =>
    match m s with
    | Ok (Done x, s') => k x s'
    | Ok (Threw, s') => Ok (Threw, s')
    | Err e => Err e
    end.
  Notation "x <~ m ;; k" := (tbind m (fun x => k)) (at level 100, m at next level, right associativity).
  Notation "m ~;; k" := (tbind m (fun _ => k)) (at level 100, right associativity).

  (** A step on the heap that cannot throw. *)
  Definition heapy {X} (m : VM X) : TM X := fun s =>
    match m (t_h s) with
    | Ok (x, h') => Ok (Done x, Tst (t_v s) h' (t_k s))
    | Err e => Err e
    end.
  Definition self : TM vec := fun s => Ok (Done (t_v s), s).
  Definition setv (v : vec) : TM unit := fun s => Ok (Done tt, Tst v (t_h s) (t_k s)).
  (** One element is copied. *)
  Definition copying : TM unit := fun s =>
    match t_k s with
    | O => Ok (Threw, s)
    | S k => Ok (Done tt, Tst (t_v s) (t_h s) k)
    end.
  (** A member function that cannot throw. *)
  Definition call (f : vec -> VM vec) : TM unit :=
    v <~ self ;; v1 <~ heapy (f v) ;; setv v1.

  Fixpoint t_for (n : nat) (i : N) (body : N -> TM unit) : TM unit :=
    match n with O => tret tt | S n' => body i ~;; t_for n' (i + 1) body end.
  Fixpoint t_repeat (n : nat) (body : TM unit) : TM unit :=
    match n with O => tret tt | S n' => body ~;; t_repeat n' body end.

  (** 818-821 [construct_at(pos, val)] with a copy of [x]. *)
  Definition t_construct (i : N) (x : A) : TM unit :=
    copying ~;; v <~ self ;; heapy (vconstruct (v_ptr v) i x).

  (** 674-680 [push_back(const T&)], 697-704 [emplace_back]:
      [construct_at(len++, v)] has incremented [len] when the copy starts. *)
  Definition t_push_back (x : A) : TM unit :=
    v <~ self ;;
    (if v_cap v <=? v_len v then call (extend_space sz) else tret tt) ~;;
    v1 <~ self ;;
    setv (set_len v1 (uadd (v_len v1) 1)) ~;;
    t_construct (v_len v1) x.

  Fixpoint t_push_all (xs : list A) : TM unit :=
    match xs with [] => tret tt | x :: r => t_push_back x ~;; t_push_all r end.

  (** 711-752 [resize]. *)
  Definition t_resize (count : N) (x : A) : TM unit :=
    v <~ self ;;
    if count <? v_len v then
      t_repeat (N.to_nat (v_len v - count)) (call pop_back)
    else if v_len v <? count then
      (if v_cap v <? count then call (fun v => reserve sz v count) else tret tt) ~;;
      t_repeat (N.to_nat (count - v_len v)) (t_push_back x)
    else tret tt.

  (** 216-224 [assign(count, val)], 226-234 [assign(initializer_list)]. *)
  Definition t_assign_fill (count : N) (x : A) : TM unit :=
    call destroy_all ~;;
    call (fun v => reserve sz v count) ~;;
    t_repeat (N.to_nat count) (t_push_back x).
  Definition t_assign_list (xs : list A) : TM unit :=
    call destroy_all ~;;
    call (fun v => reserve sz v (N.of_nat (length xs))) ~;;
    t_push_all xs.

  Fixpoint t_construct_all (i : N) (xs : list A) : TM unit :=
    match xs with
    | [] => tret tt
    | x :: r => t_construct i x ~;; t_construct_all (i + 1) r
    end.

  (** 608-623 [insert(pos, val)]: [emplace] (543-551) takes its arguments by
      value, so the copy is made before the vector is touched. *)
  Definition t_insert1 (p : N) (x : A) : TM N :=
    copying ~;; call (fun v => emplace sz v p x) ~;; tret p.

  (** 630-640 [insert(pos, count, val)], 650-669 [insert(pos, first, last)]. *)
  Definition t_insert_fill (p count : N) (x : A) : TM N :=
    call (fun v => move_elements_back sz v p count) ~;;
    t_for (N.to_nat count) 0 (fun i => t_construct (uadd p i) x) ~;;
    tret p.
  Definition t_insert_range (p : N) (xs : list A) : TM N :=
    let d := N.of_nat (length xs) in
    v <~ self ;;
    (if v_cap v <? uadd (v_len v) d
     then call (fun v => allocate_reserve sz v (uadd (v_len v) d)) else tret tt) ~;;
    call (fun v => move_elements_back sz v p d) ~;;
    t_construct_all p xs ~;;
    tret p.

  (** 838-845 [copy_impl(const Vector&)]: [len = r.len] comes before the loop. *)
  Definition t_copy_impl (r : vec) : TM unit :=
    call (fun v => allocate sz v (v_len r)) ~;;
    v <~ self ;; setv (set_len v (v_len r)) ~;;
    t_for (N.to_nat (v_len r)) 0
      (fun i => x <~ heapy (vread (v_ptr r) i) ;; t_construct i x).

  (** 117-145 [operator=(const Vector&)], distinct objects. *)
  Definition t_copy_assign (other : vec) : TM unit :=
    v <~ self ;;
    if v_alloc v =? v_alloc other then
      call (fun v => reserve sz v (v_cap other)) ~;;
      v1 <~ self ;;
      let common := N.min (v_len v1) (v_len other) in
      t_for (N.to_nat common) 0 (fun i =>
        x <~ heapy (vread (v_ptr other) i) ;; copying ~;; heapy (vassign (v_ptr v1) i x)) ~;;
      (if v_len other <? v_len v1 then
         heapy (for_up (N.to_nat (v_len v1 - common)) common (vdestroy (v_ptr v1)))
       else if v_len v1 <? v_len other then
         t_for (N.to_nat (v_len other - common)) common
           (fun i => x <~ heapy (vread (v_ptr other) i) ;; t_construct i x)
       else tret tt) ~;;
      setv (set_len v1 (v_len other))
    else
      call (clear sz) ~;; t_copy_impl other.

  (** ** Constructors.  The object starts with null members; if the body
      throws, its destructor does not run. *)
  (** 69-71, 847-857 *)
  Definition t_new_list (xs : list A) : TM unit :=
    call (fun v => allocate sz v (N.of_nat (length xs))) ~;;
    v <~ self ;; setv (set_len v (N.of_nat (length xs))) ~;;
    t_construct_all 0 xs.
  (** 81-85 *)
  Definition t_new_fill (n : N) (x : A) : TM unit := t_assign_fill n x.
  (** 103-111 *)
  Fixpoint t_construct_back (xs : list A) : TM unit :=
    match xs with
    | [] => tret tt
    | x :: r =>
        v <~ self ;; setv (set_len v (uadd (v_len v) 1)) ~;;
        t_construct (v_len v) x ~;; t_construct_back r
    end.
  Definition t_new_range (xs : list A) : TM unit :=
    call (fun v => allocate sz v (N.of_nat (length xs))) ~;; t_construct_back xs.

  (** 453-469 [from_iter] over references to [xs]: the local vector is destroyed
      when an exception leaves the loop. *)
  Definition t_from_iter (xs : list A) : TM unit := fun s =>
    match (call (fun v => allocate sz v 2) ~;; t_push_all xs) s with
    | Ok (Threw, s') =>
        match clear sz (t_v s') (t_h s') with
        | Ok (v, h) => Ok (Threw, Tst v h (t_k s'))
        | Err e => Err e
        end
    | r => r
    end.
End Model.

Notation "x <~ m ;; k" := (tbind m (fun x => k)) (at level 100, m at next level, right associativity).
Notation "m ~;; k" := (tbind m (fun _ => k)) (at level 100, right associativity).

(** What a vector shows: for each index below size(), the element found there,
    or nothing if the storage holds no element. *)
Definition shows {A} (v : vec) (h : heap (block A)) (os : list (option A)) : Prop :=
  size v = nlen os /\
  forall i o, os !! i = Some o ->
    vread (v_ptr v) (N.of_nat i) h = match o with Some x => Ok (x, h) | None => Err UB end.

(** ** No exception: the functions of VecModel *)
Section NoThrow.
  Context {A : Type} (sz : N).
  Implicit Types (h : heap (block A)) (v : vec).
  Notation VM := (M (heap (block A))).

  (** [m] copies [n] elements and otherwise behaves like [f]. *)
  Definition like {X} (n : nat) (m : TM X) (f : vec -> VM (vec * X)) : Prop :=
    forall v h k, (n <= k)%nat -> m (Tst v h k) =
      match f v h with
      | Ok ((v', x), h') => Ok (Done x, Tst v' h' (k - n))
      | Err e => Err e
      end.
  Definition like1 (n : nat) (m : TM unit) (f : vec -> VM vec) : Prop :=
    forall v h k, (n <= k)%nat -> m (Tst v h k) =
      match f v h with
      | Ok (v', h') => Ok (Done tt, Tst v' h' (k - n))
      | Err e => Err e
      end.

  Lemma tbind_done {X Y} (m : TM (A := A) X) (k : X -> TM Y) s x s' :
    m s = Ok (Done x, s') -> tbind m k s = k x s'.
  Proof. unfold tbind. by intros ->. Qed.
  Lemma tbind_threw {X Y} (m : TM (A := A) X) (k : X -> TM Y) s s' :
    m s = Ok (Threw, s') -> tbind m k s = Ok (Threw, s').
  Proof. unfold tbind. by intros ->. Qed.
  Lemma tbind_err {X Y} (m : TM (A := A) X) (k : X -> TM Y) s e :
    m s = Err e -> tbind m k s = Err e.
  Proof. unfold tbind. by intros ->. Qed.
  Lemma tbind_self {Y} (k : vec -> TM Y) v h n : tbind self k (Tst v h n) = k v (Tst (A := A) v h n).
  Proof. done. Qed.
  Lemma like_ok n m f v h k v' h' : like1 n m f -> (n <= k)%nat -> f v h = Ok (v', h') ->
    m (Tst v h k) = Ok (Done tt, Tst v' h' (k - n)).
  Proof. intros H Hk E. by rewrite H, E. Qed.
  Lemma like_err n m f v h k e : like1 n m f -> (n <= k)%nat -> f v h = Err e -> m (Tst v h k) = Err e.
  Proof. intros H Hk E. by rewrite H, E. Qed.
  Lemma like_call f : like1 0 (call f) f.
  Proof.
    intros v h k Hk. unfold call, tbind, self, heapy, setv. simpl. rewrite Nat.sub_0_r.
    by destruct (f v h) as [[? ?]|].
  Qed.
  Lemma like_ret : like1 0 (tret tt) (fun v => ret v).
  Proof. intros v h k Hk. unfold tret, ret. by rewrite Nat.sub_0_r. Qed.
  Lemma like_seq n1 n2 n m1 m2 f1 f2 :
    like1 n1 m1 f1 -> like1 n2 m2 f2 -> n = (n1 + n2)%nat ->
    like1 n (m1 ~;; m2) (fun v => bind (f1 v) f2).
  Proof.
    intros H1 H2 -> v h k Hk. unfold tbind, bind. rewrite H1 by lia.
    destruct (f1 v h) as [[v' h']|]; [|done]. rewrite H2 by lia.
    destruct (f2 v' h') as [[v2 h2]|]; [|done]. do 3 f_equal. lia.
  Qed.
  Lemma like_self n m f : (forall v0, like1 n (m v0) (f v0)) ->
    like1 n (v <~ self ;; m v) (fun v => f v v).
  Proof. intros H v h k Hk. unfold tbind, self. simpl. by apply H. Qed.
  Lemma like_ext n m f g : like1 n m f -> (forall v h, f v h = g v h) -> like1 n m g.
  Proof. intros H E v h k Hk. by rewrite H, E. Qed.
  (** A step that leaves the data members alone. *)
  Lemma like_construct i x : like1 1 (t_construct i x) (fun v => vconstruct (v_ptr v) i x ;;; ret v).
  Proof.
    intros v h k Hk. destruct k as [|k]; [lia|].
    unfold t_construct, tbind, copying, self, heapy, bind, ret. simpl.
    destruct (vconstruct (v_ptr v) i x h) as [[[] h']|]; [|done]. by rewrite Nat.sub_0_r.
  Qed.
  Lemma like_for (f : vec -> N -> VM unit) (body : N -> TM unit) :
    (forall i, like1 1 (body i) (fun v => f v i ;;; ret v)) ->
    forall n i, like1 n (t_for n i body) (fun v => for_up n i (f v) ;;; ret v).
  Proof.
    intros Hb. induction n as [|n IH]; intros i.
    - intros v h k Hk. simpl. unfold tret, ret, bind. by rewrite Nat.sub_0_r.
    - simpl. eapply like_ext; [eapply like_seq; [apply Hb|apply IH|lia]|].
      intros v h. simpl. rewrite !bind_bind. unfold bind, ret.
      by destruct (f v i h) as [[? ?]|].
  Qed.
  Lemma like_construct_all xs : forall i, like1 (length xs) (t_construct_all i xs)
    (fun v => construct_all (v_ptr v) i xs ;;; ret v).
  Proof.
    induction xs as [|x xs IH]; intros i; simpl.
    - intros v h k Hk. unfold tret, ret, bind. by rewrite Nat.sub_0_r.
    - eapply like_ext; [eapply like_seq; [apply like_construct|apply IH|lia]|].
      intros v h. simpl. unfold bind, ret. by destruct (vconstruct (v_ptr v) i x h) as [[? ?]|].
  Qed.
  Lemma like_push x : like1 1 (t_push_back sz x) (fun v => push_back sz v x).
  Proof.
    intros v h k Hk. destruct k as [|k]; [lia|].
    unfold t_push_back, push_back, push_back_m, t_construct, call, tbind, copying, self, heapy, setv, tret, bind, ret.
    simpl. destruct (v_cap v <=? v_len v); simpl.
    - destruct (extend_space sz v h) as [[v1 h1]|]; [|done]. simpl.
      destruct (vconstruct (v_ptr v1) (v_len v1) x h1) as [[[] ?]|]; [|done]. by rewrite Nat.sub_0_r.
    - destruct (vconstruct (v_ptr v) (v_len v) x h) as [[[] ?]|]; [|done]. by rewrite Nat.sub_0_r.
  Qed.
  Lemma like_push_all xs : like1 (length xs) (t_push_all sz xs) (fun v => push_all sz xs v).
  Proof.
    induction xs as [|x xs IH]; simpl; [apply like_ret|].
    eapply like_seq; [apply like_push|apply IH|lia].
  Qed.
  Lemma like_repeat n m f c : like1 c m f -> like1 (n * c) (t_repeat n m) (fun v => repeat_m n f v).
  Proof.
    intros H. induction n as [|n IH]; simpl; [apply like_ret|].
    eapply like_seq; [apply H|apply IH|lia].
  Qed.
  Lemma like_if (b : bool) n m f : like1 0 m f -> n = O ->
    like1 n (if b then m else tret tt) (fun v => if b then f v else ret v).
  Proof. intros H ->. destruct b; [done|apply like_ret]. Qed.
  (** [n] is only an upper bound on the copies actually made. *)
  Definition resize_copies v (count : N) : nat := N.to_nat (count - v_len v).

  Lemma nothrow_resize count x v h k : (resize_copies v count <= k)%nat ->
    t_resize sz count x (Tst v h k) =
      match resize_m sz v count (ret x) h with
      | Ok (v', h') => Ok (Done tt, Tst v' h' (k - resize_copies v count))
      | Err e => Err e
      end.
  Proof.
    unfold resize_copies. intros Hk. unfold t_resize, resize_m. unfold tbind at 1, self at 1. simpl.
    destruct (N.ltb_spec count (v_len v)).
    - rewrite (like_repeat _ _ _ 0 (like_call pop_back)) by lia.
      destruct (repeat_m _ _ v h) as [[? ?]|]; [|done]. do 3 f_equal. lia.
    - destruct (N.ltb_spec (v_len v) count).
      + pose proof (like_seq 0 (N.to_nat (count - v_len v)) (N.to_nat (count - v_len v))
          (if v_cap v <? count then call (fun v => reserve sz v count) else tret tt)
          (t_repeat (N.to_nat (count - v_len v)) (t_push_back sz x))
          (fun v1 => if v_cap v <? count then reserve sz v1 count else ret v1)
          (fun v1 => repeat_m (N.to_nat (count - v_len v)) (fun u => push_back_m sz u (ret x)) v1)) as H2.
        rewrite H2; [done| | |done|done].
        * apply like_if; [apply like_call|done].
        * eapply like_ext; [|done]. rewrite <-(Nat.mul_1_r (N.to_nat (count - v_len v))) at 1.
          apply like_repeat. apply (like_push x).
      + unfold tret, ret. do 3 f_equal. lia.
  Qed.
  Lemma like_assign_fill n x :
    like1 (N.to_nat n) (t_assign_fill sz n x) (fun v => assign_fill_m sz v n (ret x)).
  Proof.
    unfold t_assign_fill, assign_fill_m. eapply like_seq; [apply like_call| |].
    - eapply like_seq; [apply (like_call (fun v => reserve sz v n))| |].
      + apply (like_repeat (N.to_nat n) _ _ 1). apply (like_push x).
      + done.
    - simpl. lia.
  Qed.
  Lemma like_assign_list xs : like1 (length xs) (t_assign_list sz xs) (fun v => assign_list sz v xs).
  Proof.
    unfold t_assign_list, assign_list. eapply like_seq; [apply like_call| |].
    - eapply like_seq; [apply (like_call (fun v => reserve sz v _))|apply like_push_all|done].
    - done.
  Qed.
  Lemma like_done n (m : TM unit) f (p : N) : like1 n m f ->
    like n (m ~;; tret p) (fun v => v1 <-- f v ;; ret (v1, p)).
  Proof.
    intros H v h k Hk. unfold tbind, bind. rewrite H by done. by destruct (f v h) as [[? ?]|].
  Qed.
  Lemma like_eq {X} n (m : TM X) f g : like n m f -> (forall v h, f v h = g v h) -> like n m g.
  Proof. intros H E v h k Hk. by rewrite H, E. Qed.
  Lemma tbind_assoc {X Y Z} (m : TM (A := A) X) (k : X -> TM Y) (l : Y -> TM Z) s :
    tbind (tbind m k) l s = tbind m (fun x => tbind (k x) l) s.
  Proof. unfold tbind. destruct (m s) as [[[?|] ?]|]; done. Qed.
  Lemma like_assoc {X} n (m1 m2 : TM unit) (m3 : TM X) (f : vec -> VM (vec * X)) :
    like n ((m1 ~;; m2) ~;; m3) f -> like n (m1 ~;; m2 ~;; m3) f.
  Proof. intros H v h k Hk. by rewrite <-H, tbind_assoc. Qed.

  Lemma like_insert1 p x : like 1 (t_insert1 sz p x) (fun v => insert1 sz v p x).
  Proof.
    intros v h k Hk. destruct k as [|k]; [lia|].
    unfold t_insert1, insert1, call, tbind, copying, self, heapy, setv, tret, bind, ret. simpl.
    rewrite Nat.sub_0_r. by destruct (emplace sz v p x h) as [[? ?]|].
  Qed.
  Lemma like_insert_fill p n x :
    like (N.to_nat n) (t_insert_fill sz p n x) (fun v => insert_fill_m sz v p n (ret x)).
  Proof.
    unfold t_insert_fill. apply like_assoc. eapply like_eq; [apply like_done|].
    - eapply like_seq; [apply (like_call (fun v => move_elements_back sz v p n))| |done].
      apply (like_for (fun v i => y <-- ret x ;; vconstruct (v_ptr v) (uadd p i) y)).
      intros i. eapply like_ext; [apply like_construct|]. done.
    - intros v h. simpl. unfold insert_fill_m. rewrite bind_bind. unfold bind.
      destruct (move_elements_back sz v p n h) as [[? ?]|]; [|done].
      by destruct (for_up _ _ _ _) as [[? ?]|].
  Qed.
  Lemma like_insert_range p xs :
    like (length xs) (t_insert_range sz p xs) (fun v => insert_range sz v p xs).
  Proof.
    intros v h k Hk. unfold t_insert_range, insert_range.
    set (d := N.of_nat (length xs)). unfold tbind at 1, self at 1. simpl.
    set (b := v_cap v <? uadd (v_len v) d).
    assert (H : like (length xs)
      ((if b then call (fun v => allocate_reserve sz v (uadd (v_len v) d)) else tret tt) ~;;
       call (fun v => move_elements_back sz v p d) ~;; t_construct_all p xs ~;; tret p)
      (fun u => v1 <-- (if b then allocate_reserve sz u (uadd (v_len u) d) else ret u) ;;
         v2 <-- move_elements_back sz v1 p d ;; construct_all (v_ptr v2) p xs ;;; ret (v2, p))).
    { apply like_assoc, like_assoc. eapply like_eq; [apply like_done|].
      - eapply like_seq; [eapply like_seq; [apply like_if; [|done]| |done]| |].
        + apply (like_call (fun v => allocate_reserve sz v (uadd (v_len v) d))).
        + apply (like_call (fun v => move_elements_back sz v p d)).
        + apply like_construct_all.
        + done.
      - intros u g. simpl. set (m0 := if b then _ else _). rewrite !bind_bind. unfold bind.
        destruct (m0 g) as [[? ?]|]; [|done].
        destruct (move_elements_back _ _ _ _ _) as [[? ?]|]; [|done].
        by destruct (construct_all _ _ _ _) as [[? ?]|]. }
    by apply H.
  Qed.
  Lemma like_setv (f : vec -> vec) : like1 0 (v <~ self ;; setv (f v)) (fun v => ret (f v)).
  Proof. intros v h k Hk. unfold tbind, self, setv, ret. simpl. by rewrite Nat.sub_0_r. Qed.
  Lemma like_copy_impl r :
    like1 (N.to_nat (v_len r)) (t_copy_impl sz r) (fun v => copy_impl sz v r).
  Proof.
    unfold t_copy_impl. intros v h k Hk.
    assert (H : like1 (N.to_nat (v_len r))
      (call (fun v => allocate sz v (v_len r)) ~;; (v <~ self ;; setv (set_len v (v_len r))) ~;;
       t_for (N.to_nat (v_len r)) 0 (fun i => x <~ heapy (vread (v_ptr r) i) ;; t_construct i x))
      (fun v => v1 <-- allocate sz v (v_len r) ;; v2 <-- ret (set_len v1 (v_len r)) ;;
         (for_up (N.to_nat (v_len r)) 0 (fun i => x <-- vread (v_ptr r) i ;; vconstruct (v_ptr v2) i x) ;;; ret v2))).
    { eapply like_seq; [apply (like_call (fun v => allocate sz v (v_len r)))| |].
      - eapply like_seq; [apply like_setv| |].
        + apply (like_for (fun v i => x <-- vread (v_ptr r) i ;; vconstruct (v_ptr v) i x)).
          intros i u g j Hj. destruct j as [|j]; [lia|].
          unfold t_construct, tbind, copying, self, heapy, bind, ret. simpl.
          destruct (vread (v_ptr r) i g) as [[y g1]|]; [|done]. simpl.
          destruct (vconstruct (v_ptr u) i y g1) as [[[] ?]|]; [|done]. by rewrite Nat.sub_0_r.
        + done.
      - done. }
    apply H. done.
  Qed.
  Lemma nothrow_copy_assign r v h k : (N.to_nat (v_len r) <= k)%nat ->
    t_copy_assign sz r (Tst v h k) =
      match copy_assign sz v r h with
      | Ok (v', h') => Ok (Done tt, Tst v' h' (k - N.to_nat (v_len r)))
      | Err e => Err e
      end.
  Proof.
    intros Hk. unfold t_copy_assign, copy_assign. rewrite tbind_self.
    destruct (v_alloc v =? v_alloc r).
    - pose proof (like_call (fun v => reserve sz v (v_cap r))) as H0.
      destruct (reserve sz v (v_cap r) h) as [[v1 h1]|] eqn:E0.
      2:{ rewrite (bind_err _ _ _ _ E0). erewrite tbind_err; [done|].
          eapply (like_err _ _ _ _ _ _ _ H0); [lia|exact E0]. }
      rewrite (bind_ok _ _ _ _ _ E0).
      rewrite (tbind_done _ _ _ _ _ (like_ok _ _ _ _ _ k _ _ H0 ltac:(lia) E0)). rewrite tbind_self, Nat.sub_0_r.
      set (common := N.min (v_len v1) (v_len r)).
      assert (H1 : like1 (N.to_nat common) (t_for (N.to_nat common) 0 (fun i =>
        x <~ heapy (vread (v_ptr r) i) ;; copying ~;; heapy (vassign (v_ptr v1) i x)))
        (fun u => for_up (N.to_nat common) 0 (fun i => x <-- vread (v_ptr r) i ;; vassign (v_ptr v1) i x) ;;; ret u)).
      { apply (like_for (fun _ i => x <-- vread (v_ptr r) i ;; vassign (v_ptr v1) i x)).
        intros i u g j Hj. destruct j as [|j]; [lia|].
        unfold tbind, copying, heapy, bind, ret. simpl.
        destruct (vread (v_ptr r) i g) as [[y g1]|]; [|done]. simpl.
        destruct (vassign (v_ptr v1) i y g1) as [[[] ?]|]; [|done]. by rewrite Nat.sub_0_r. }
      set (m1 := for_up (N.to_nat common) 0 (fun i => x <-- vread (v_ptr r) i ;; vassign (v_ptr v1) i x)) in *.
      destruct (m1 h1) as [[[] h2]|] eqn:E1.
      2:{ rewrite (bind_err _ _ _ _ E1). erewrite tbind_err; [done|].
          eapply (like_err _ _ _ _ _ _ _ H1); [unfold common; lia|]. simpl. by rewrite (bind_err _ _ _ _ E1). }
      rewrite (bind_ok _ _ _ _ _ E1).
      erewrite tbind_done.
      2:{ eapply (like_ok _ _ _ _ _ k _ _ H1); [unfold common; lia|]. simpl.
          rewrite (bind_ok _ _ _ _ _ E1). done. }
      clear H0 H1 E0 E1.
      assert (Hs : forall (m : TM unit) (f : VM unit) n v' h' k',
        m (Tst v1 h' k') = match f h' with Ok (_, h2) => Ok (Done tt, Tst v1 h2 (k' - n)) | Err e => Err e end ->
        (m ~;; setv v') (Tst v1 h' k') =
        match (f ;;; ret v') h' with Ok (v2, h2) => Ok (Done tt, Tst v2 h2 (k' - n)) | Err e => Err e end).
      { intros m f n v' h' k' Hm. unfold tbind. rewrite Hm by done. unfold bind, ret.
        by destruct (f h') as [[[] ?]|]. }
      destruct (N.ltb_spec (v_len r) (v_len v1)) as [Hlt|Hge].
      + rewrite (Hs _ (for_up (N.to_nat (v_len v1 - common)) common (vdestroy (v_ptr v1))) 0%nat).
        * destruct (bind _ _ h2) as [[? ?]|]; [|done]. do 3 f_equal. unfold common. lia.
        * unfold heapy, bind, ret. cbn [t_h t_v t_k]. destruct (for_up _ _ _ h2) as [[[] ?]|]; [|done].
          by rewrite Nat.sub_0_r.
      + destruct (N.ltb_spec (v_len v1) (v_len r)) as [Hlt|Hge2].
        * rewrite (Hs _ (for_up (N.to_nat (v_len r - common)) common (fun i =>
             x <-- vread (v_ptr r) i ;; vconstruct (v_ptr v1) i x)) (N.to_nat (v_len r - common))).
          -- destruct (bind _ _ h2) as [[? ?]|]; [|done]. do 3 f_equal. unfold common. lia.
          -- pose proof (like_for (fun v i => x <-- vread (v_ptr r) i ;; vconstruct (v_ptr v) i x)
              (fun i => x <~ heapy (vread (v_ptr r) i) ;; t_construct i x)) as H3.
             rewrite H3; [|clear|unfold common; lia].
             ++ unfold bind at 1. destruct (for_up _ _ _ h2) as [[[] ?]|]; done.
             ++ intros i u g j Hj. destruct j as [|j]; [lia|].
                unfold t_construct, tbind, copying, self, heapy, bind, ret. simpl.
                destruct (vread (v_ptr r) i g) as [[y g1]|]; [|done]. simpl.
                destruct (vconstruct (v_ptr u) i y g1) as [[[] ?]|]; [|done]. by rewrite Nat.sub_0_r.
        * unfold tbind, tret, setv, bind, ret. simpl. do 3 f_equal. unfold common. lia.
    - pose proof (like_seq 0 _ _ _ _ _ _ (like_call (clear sz)) (like_copy_impl r) eq_refl) as H.
      by apply H.
  Qed.
  Lemma like_new_list xs : like1 (length xs) (t_new_list sz xs)
    (fun v => v1 <-- allocate sz v (N.of_nat (length xs)) ;; construct_all (v_ptr v1) 0 xs ;;;
              ret (set_len v1 (N.of_nat (length xs)))).
  Proof.
    set (l := N.of_nat (length xs)).
    assert (H : like1 (length xs)
      (call (fun v => allocate sz v l) ~;; (v <~ self ;; setv (set_len v l)) ~;; t_construct_all 0 xs)
      (fun v => v1 <-- allocate sz v l ;; v2 <-- ret (set_len v1 l) ;;
         (construct_all (v_ptr v2) 0 xs ;;; ret v2))).
    { eapply like_seq; [apply (like_call (fun v => allocate sz v l))| |].
      - eapply like_seq; [apply like_setv|apply like_construct_all|done].
      - done. }
    exact H.
  Qed.
  Lemma like_construct_back xs :
    like1 (length xs) (t_construct_back xs) (fun v => construct_back v xs).
  Proof.
    induction xs as [|x xs IH]; simpl; [apply like_ret|]. intros v h k Hk. destruct k as [|k]; [lia|].
    unfold tbind at 1 2 3, self, setv. unfold t_construct, tbind at 1 2, copying, self. simpl.
    unfold heapy. simpl. unfold bind.
    destruct (vconstruct (v_ptr v) (v_len v) x h) as [[[] h1]|]; [|done]. rewrite IH by lia. done.
  Qed.
  Lemma like_new_range xs : like1 (length xs) (t_new_range sz xs)
    (fun v => v1 <-- allocate sz v (N.of_nat (length xs)) ;; construct_back v1 xs).
  Proof.
    eapply like_seq; [apply (like_call (fun v => allocate sz v _))|apply like_construct_back|done].
  Qed.
  Lemma like_from_iter xs : like1 (length xs) (t_from_iter sz xs)
    (fun v => v1 <-- allocate sz v 2 ;; push_all sz xs v1).
  Proof.
    intros v h k Hk. unfold t_from_iter.
    pose proof (like_seq 0 (length xs) (length xs) _ _ _ _ (like_call (fun v => allocate sz v 2))
      (like_push_all xs) eq_refl) as H.
    rewrite H by done. by destruct (bind _ _ h) as [[? ?]|].
  Qed.
End NoThrow.

(** ** An exception *)
Section Facts.
  Context {A : Type}.
  Implicit Types (h : heap (block A)) (v : vec).

  Definition cell_opt (c : cell A) : option A := match c with Live x => Some x | _ => None end.
  Lemma cell_opt_live (xs : list A) : cell_opt <$> (Live <$> xs) = Some <$> xs.
  Proof. rewrite <-list_fmap_compose. by apply list_fmap_ext. Qed.

  Lemma shows_cells v h a al by_ cs c2 :
    v_ptr v = Some a -> hmap h !! a = Some (Blk al by_ (cs ++ c2)) -> v_len v = N.of_nat (length cs) ->
    shows v h (cell_opt <$> cs).
  Proof.
    intros Hp Hb Hl. split; [unfold size, nlen; by rewrite fmap_length|].
    intros i o Ho. rewrite list_lookup_fmap in Ho. destruct (cs !! i) as [c|] eqn:Ec; [|done].
    injection Ho as <-. apply elem_of_list_split_length in Ec as (l1 & l2 & -> & Hi).
    rewrite <-(assoc_L app) in Hb. simpl in Hb. rewrite Hp. unfold vread.
    rewrite (bind_ok _ _ _ _ _ (slot_ok _ _ _ _ _ _ _ (N.of_nat i) Hb ltac:(lia))). by destruct c.
  Qed.

  Lemma destroy_hole a al by_ : forall cs h c1 c2 n i,
    Forall (fun x => x <> Raw) cs -> hmap h !! a = Some (Blk al by_ (c1 ++ cs ++ Raw :: c2)) ->
    i = N.of_nat (length c1) -> (length cs < n)%nat ->
    for_up n i (vdestroy (Some a)) h = Err UB.
  Proof.
    induction cs as [|c cs IH]; intros h c1 c2 n i Hf Hb Hi Hn; (destruct n as [|n]; [simpl in Hn; lia|]); simpl.
    - apply bind_err. unfold vdestroy. by rewrite (bind_ok _ _ _ _ _ (slot_ok _ _ _ _ _ _ _ _ Hb Hi)).
    - apply Forall_cons in Hf as [Hc Hf]. simpl in Hb.
      rewrite (bind_ok _ _ _ _ _ (vdestroy_ok _ _ _ _ _ _ _ _ Hb Hi Hc)).
      eapply (IH _ (c1 ++ [Raw]) c2); [done| | |simpl in Hn; lia].
      + rewrite hput_lookup, <-(assoc_L app). done.
      + rewrite app_length. simpl. lia.
  Qed.
  Lemma clear_hole sz v h a al by_ cs c2 :
    v_ptr v = Some a -> hmap h !! a = Some (Blk al by_ (cs ++ Raw :: c2)) ->
    Forall (fun x => x <> Raw) cs -> N.of_nat (length cs) < v_len v -> clear sz v h = Err UB.
  Proof.
    intros Hp Hb Hf Hl. unfold clear, destroy_all. apply bind_err, bind_err. rewrite Hp.
    eapply (destroy_hole a _ _ cs h []); [done|exact Hb|done|lia].
  Qed.
  Lemma pop_hole v h a al by_ cs c2 :
    v_ptr v = Some a -> hmap h !! a = Some (Blk al by_ (cs ++ Raw :: c2)) ->
    v_len v = N.of_nat (length cs) + 1 -> v_len v < W -> pop_back v h = Err UB.
  Proof.
    intros Hp Hb Hl HW. unfold pop_back. apply bind_err. rewrite Hp, usub_small by lia.
    unfold vdestroy. rewrite (bind_ok _ _ _ _ _ (slot_ok _ _ _ _ _ _ _ (v_len v - 1) Hb ltac:(lia))). done.
  Qed.
  Lemma clear_extra sz v h a cs ds :
    v_ptr v = Some a -> hmap h !! a = Some (Blk (v_alloc v) (umul (v_cap v) sz) (cs ++ ds)) ->
    Forall (fun x => x <> Raw) cs -> v_len v = N.of_nat (length cs) ->
    forallb is_raw ds = false -> clear sz v h = Err Leak.
  Proof.
    intros Hp Hb Hf Hl Hd. unfold clear, destroy_all. rewrite Hl, Nat2N.id, Hp.
    rewrite bind_bind. rewrite (bind_ok _ _ _ _ _ (destroy_run a _ _ cs h [] ds 0 Hf Hb eq_refl)).
    rewrite bind_ret. unfold deallocate. apply bind_err. simpl. unfold dealloc_raw.
    erewrite bind_ok by (unfold hread; rewrite hput_lookup; done). simpl.
    rewrite !N.eqb_refl. simpl. rewrite forallb_app, Hd, andb_false_r. done.
  Qed.

  (** Constructing the elements of [ys] until the copies run out. *)
  Lemma construct_throw v a al by_ : forall ys h c1 c2 i k,
    v_ptr v = Some a -> hmap h !! a = Some (Blk al by_ (c1 ++ replicate (length ys) Raw ++ c2)) ->
    i = N.of_nat (length c1) -> (k < length ys)%nat ->
    t_construct_all i ys (Tst v h k) = Ok (Threw, Tst v (hput h a (Blk al by_
      (c1 ++ (Live <$> take k ys) ++ replicate (length ys - k) Raw ++ c2)) 0) 0).
  Proof.
    induction ys as [|y ys IH]; intros h c1 c2 i k Hp Hb Hi Hk; [simpl in Hk; lia|]. simpl.
    destruct k as [|k].
    - simpl in *. rewrite hput_id by done. done.
    - simpl in Hb. erewrite tbind_done.
      2:{ eapply (like_ok 1 _ _ _ _ (S k) _ _ (like_construct i y)); [lia|]. rewrite Hp.
          rewrite (bind_ok _ _ _ _ _ (vconstruct_ok _ _ _ _ _ _ _ _ Hb Hi)). done. }
      replace (S k - 1)%nat with k by lia.
      erewrite (IH _ (c1 ++ [Live y]) c2).
      + rewrite hput_hput, <-(assoc_L app). done.
      + done.
      + rewrite hput_lookup, <-(assoc_L app). done.
      + rewrite app_length. simpl. lia.
      + simpl in Hk. lia.
  Qed.
  (** The same, reading the elements from another buffer. *)
  Lemma copy_throw v a b al by_ al' by' : forall ys h c1 c2 d1 d2 i k,
    a <> b -> v_ptr v = Some a -> hmap h !! b = Some (Blk al' by' (d1 ++ (Live <$> ys) ++ d2)) ->
    hmap h !! a = Some (Blk al by_ (c1 ++ replicate (length ys) Raw ++ c2)) ->
    i = N.of_nat (length c1) -> length c1 = length d1 -> (k < length ys)%nat ->
    t_for (length ys) i (fun i => x <~ heapy (vread (Some b) i) ;; t_construct i x) (Tst v h k) =
    Ok (Threw, Tst v (hput h a (Blk al by_
      (c1 ++ (Live <$> take k ys) ++ replicate (length ys - k) Raw ++ c2)) 0) 0).
  Proof.
    induction ys as [|y ys IH]; intros h c1 c2 d1 d2 i k Hab Hp Hd Hb Hi Hl Hk; [simpl in Hk; lia|].
    simpl. simpl in Hb, Hd. rewrite tbind_assoc.
    erewrite tbind_done by (unfold heapy; simpl; rewrite (vread_ok _ _ _ _ _ _ _ i Hd ltac:(lia)); done).
    simpl. destruct k as [|k].
    - simpl in *. rewrite hput_id by done. done.
    - erewrite tbind_done.
      2:{ eapply (like_ok 1 _ _ _ _ (S k) _ _ (like_construct i y)); [lia|]. rewrite Hp.
          rewrite (bind_ok _ _ _ _ _ (vconstruct_ok _ _ _ _ _ _ _ _ Hb Hi)). done. }
      replace (S k - 1)%nat with k by lia.
      erewrite (IH _ (c1 ++ [Live y]) c2 (d1 ++ [Live y]) d2).
      + rewrite hput_hput, <-(assoc_L app). done.
      + done.
      + done.
      + rewrite hput_lookup_ne by done. by rewrite <-(assoc_L app).
      + rewrite hput_lookup, <-(assoc_L app). done.
      + rewrite app_length. simpl. lia.
      + rewrite !app_length. simpl. lia.
      + simpl in Hk. lia.
  Qed.
  (** [std::copy] stops at the first copy assignment that throws. *)
  Lemma assign_throw v a b al by_ al' by' : forall ys cs h c1 c2 d1 d2 i k,
    a <> b -> length cs = length ys -> Forall (fun x => x <> Raw) cs ->
    hmap h !! b = Some (Blk al' by' (d1 ++ (Live <$> ys) ++ d2)) ->
    hmap h !! a = Some (Blk al by_ (c1 ++ cs ++ c2)) ->
    i = N.of_nat (length c1) -> length c1 = length d1 -> (k < length ys)%nat ->
    t_for (length ys) i (fun i => x <~ heapy (vread (Some b) i) ;; copying ~;; heapy (vassign (Some a) i x))
      (Tst v h k) =
    Ok (Threw, Tst v (hput h a (Blk al by_ (c1 ++ (Live <$> take k ys) ++ drop k cs ++ c2)) 0) 0).
  Proof.
    induction ys as [|y ys IH]; intros cs h c1 c2 d1 d2 i k Hab Hc Hf Hd Hb Hi Hl Hk; [simpl in Hk; lia|].
    destruct cs as [|c cs]; [done|]. apply Forall_cons in Hf as [Hx Hf].
    simpl. simpl in Hb, Hd, Hc. rewrite tbind_assoc.
    erewrite tbind_done by (unfold heapy; simpl; rewrite (vread_ok _ _ _ _ _ _ _ i Hd ltac:(lia)); done).
    simpl. destruct k as [|k].
    - simpl in *. rewrite hput_id by done. done.
    - rewrite tbind_assoc. erewrite tbind_done by done.
      erewrite tbind_done by (unfold heapy; simpl; rewrite (vassign_ok _ _ _ _ _ _ y _ _ Hb Hi Hx); done).
      simpl. erewrite (IH cs _ (c1 ++ [Live y]) c2 (d1 ++ [Live y]) d2).
      + rewrite hput_hput, <-(assoc_L app). done.
      + done.
      + lia.
      + done.
      + rewrite hput_lookup_ne by done. by rewrite <-(assoc_L app).
      + rewrite hput_lookup, <-(assoc_L app). done.
      + rewrite app_length. simpl. lia.
      + rewrite !app_length. simpl. lia.
      + simpl in Hk. lia.
  Qed.
  Lemma assign_done v a b al by_ al' by' : forall ys cs h c1 c2 d1 d2 i k,
    a <> b -> length cs = length ys -> Forall (fun x => x <> Raw) cs ->
    hmap h !! b = Some (Blk al' by' (d1 ++ (Live <$> ys) ++ d2)) ->
    hmap h !! a = Some (Blk al by_ (c1 ++ cs ++ c2)) ->
    i = N.of_nat (length c1) -> length c1 = length d1 ->
    t_for (length ys) i (fun i => x <~ heapy (vread (Some b) i) ;; copying ~;; heapy (vassign (Some a) i x))
      (Tst v h (length ys + k)) =
    Ok (Done tt, Tst v (hput h a (Blk al by_ (c1 ++ (Live <$> ys) ++ c2)) 0) k).
  Proof.
    induction ys as [|y ys IH]; intros cs h c1 c2 d1 d2 i k Hab Hc Hf Hd Hb Hi Hl; simpl.
    { destruct cs; [|done]. simpl in *. rewrite hput_id by done. done. }
    destruct cs as [|c cs]; [done|]. apply Forall_cons in Hf as [Hx Hf].
    simpl in Hb, Hd, Hc. rewrite tbind_assoc.
    erewrite tbind_done by (unfold heapy; simpl; rewrite (vread_ok _ _ _ _ _ _ _ i Hd ltac:(lia)); done).
    simpl. rewrite tbind_assoc. erewrite tbind_done by done.
    erewrite tbind_done by (unfold heapy; simpl; rewrite (vassign_ok _ _ _ _ _ _ y _ _ Hb Hi Hx); done).
    simpl. erewrite (IH cs _ (c1 ++ [Live y]) c2 (d1 ++ [Live y]) d2).
    - rewrite hput_hput, <-(assoc_L app). done.
    - done.
    - lia.
    - done.
    - rewrite hput_lookup_ne by done. by rewrite <-(assoc_L app).
    - rewrite hput_lookup, <-(assoc_L app). done.
    - rewrite app_length. simpl. lia.
    - rewrite !app_length. simpl. lia.
  Qed.
  Lemma fill_construct p (x : A) s : forall n i, p + i + N.of_nat n < W ->
    t_for n i (fun i => t_construct (uadd p i) x) s = t_construct_all (p + i) (replicate n x) s.
  Proof.
    intros n. revert s. induction n as [|n IH]; intros s i HW; simpl; [done|].
    rewrite uadd_small by lia. unfold tbind.
    destruct (t_construct (p + i) x s) as [[[[]|] s']|]; try done.
    rewrite IH by lia. by rewrite N.add_assoc.
  Qed.
  Lemma repeat_push sz (x : A) n s : t_repeat n (t_push_back sz x) s = t_push_all sz (replicate n x) s.
  Proof.
    revert s. induction n as [|n IH]; intros s; simpl; [done|]. unfold tbind.
    by destruct (t_push_back sz x s) as [[[[]|] s']|].
  Qed.
  Lemma replicate_app_S (k n : nat) (x : cell A) c : (k < n)%nat ->
    replicate (n - k) x ++ c = x :: replicate (n - k - 1) x ++ c.
  Proof. intros. replace (n - k)%nat with (S (n - k - 1)) by lia. simpl. do 2 f_equal. f_equal. lia. Qed.
End Facts.

Section Throw.
  Context {A : Type} (sz lmax : N).
  Context (Hsz : 1 <= sz) (Hlim : sz * (2 * lmax + 2) <= alloc_max).
  Implicit Types (h : heap (block A)) (v : vec) (xs ys : list A) (fp : list N).
  Notation vrep := (@vrep A sz lmax).

  Lemma push_throw h v xs fp x :
    hwf h -> vrep h v xs fp -> nlen xs + 1 <= lmax ->
    exists v1 h1 fp1, t_push_back sz x (Tst v h 0) = Ok (Threw, Tst (set_len v1 (v_len v1 + 1)) h1 0) /\
      vrep h1 v1 xs fp1 /\ upd h h1 fp fp1 /\ v_len v1 < v_cap v1.
  Proof using Hsz Hlim.
    intros Hwf Hr Hl.
    destruct (grow_full sz lmax Hsz Hlim h v xs fp Hwf Hr Hl) as (v1&h1&fp1&E1&Hr1&Hu1&Hlt&_).
    exists v1, h1, fp1. split; [|done]. unfold t_push_back. rewrite tbind_self.
    pose proof (like_if (v_cap v <=? v_len v) 0 _ _ (like_call (extend_space (A := A) sz)) eq_refl) as H.
    rewrite (tbind_done _ _ _ _ _ (like_ok _ _ _ _ _ 0 _ _ H ltac:(lia) E1)). rewrite tbind_self.
    destruct (cmax_W sz lmax Hsz Hlim (v_cap v1)) as (_&_&HW); [apply Hr1|].
    rewrite uadd_small by lia. done.
  Qed.

  Lemma push_all_throw : forall ys k h v xs fp,
    hwf h -> vrep h v xs fp -> nlen xs + nlen ys <= lmax -> (k < length ys)%nat ->
    exists v1 h1 fp1, t_push_all sz ys (Tst v h k) = Ok (Threw, Tst (set_len v1 (v_len v1 + 1)) h1 0) /\
      vrep h1 v1 (xs ++ take k ys) fp1 /\ upd h h1 fp fp1 /\ v_len v1 < v_cap v1.
  Proof using Hsz Hlim.
    induction ys as [|y ys IH]; intros k h v xs fp Hwf Hr Hl Hk; [simpl in Hk; lia|].
    assert (nlen (y :: ys) = nlen ys + 1) as Hys by (unfold nlen; simpl; lia).
    simpl. destruct k as [|k].
    - destruct (push_throw h v xs fp y Hwf Hr ltac:(lia)) as (v1&h1&fp1&E&Hr1&Hu&Hlt).
      exists v1, h1, fp1. rewrite (tbind_threw _ _ _ _ E). simpl. by rewrite app_nil_r.
    - destruct (push_back_ok sz lmax Hsz Hlim h v xs fp y Hwf Hr ltac:(lia)) as (v1&h1&fp1&E&Hr1&Hu).
      rewrite (tbind_done _ _ _ _ _ (like_ok _ _ _ _ _ (S k) _ _ (like_push sz y) ltac:(lia) E)).
      replace (S k - 1)%nat with k by lia.
      destruct (IH k h1 v1 (xs ++ [y]) fp1 (upd_wf _ _ _ _ Hu) Hr1) as (v2&h2&fp2&E2&Hr2&Hu2&Hlt2).
      { rewrite nlen_app. change (nlen [y]) with 1. lia. }
      { simpl in Hk. lia. }
      exists v2, h2, fp2. split; [done|]. rewrite <-(assoc_L app) in Hr2. split; [done|].
      split; [|done]. by eapply upd_trans.
  Qed.

  (** One slot too many is counted. *)
  Lemma over_shows h v xs fp : vrep h v xs fp -> v_len v < v_cap v ->
    let v' := set_len v (v_len v + 1) in
    shows v' h ((Some <$> xs) ++ [None]) /\ clear sz v' h = Err UB /\ pop_back v' h = Err UB.
  Proof using Hsz Hlim.
    intros (Hl & Hc & Hm & Hp) Hlt v'. destruct (v_ptr v) as [a|] eqn:Ep; [|lia]. destruct Hp as [_ Hb].
    destruct (cmax_W sz lmax Hsz Hlim (v_cap v) Hm) as (_&_&HW).
    assert (vcells xs (v_cap v) = (Live <$> xs) ++ Raw :: replicate (N.to_nat (v_cap v) - length xs - 1) Raw) as Hcs.
    { unfold vcells. f_equal. rewrite <-(app_nil_r (replicate _ _)).
      rewrite replicate_app_S by (unfold nlen in *; lia). by rewrite app_nil_r. }
    rewrite Hcs in Hb. split; [|split].
    - replace ((Some <$> xs) ++ [None]) with (cell_opt <$> ((Live <$> xs) ++ [Raw])).
      2:{ by rewrite fmap_app, cell_opt_live. }
      eapply (shows_cells v' h a); [done| |].
      + rewrite <-(assoc_L app). exact Hb.
      + rewrite app_length, fmap_length. simpl. unfold nlen in *. lia.
    - eapply (clear_hole sz v' h a); [done|exact Hb|apply Forall_live_not_raw|].
      rewrite fmap_length. simpl. unfold nlen in *. lia.
    - eapply (pop_hole v' h a); [done|exact Hb| |simpl; lia]. rewrite fmap_length. simpl.
      unfold nlen in *. lia.
  Qed.

  (** 543-668: the gap is already counted when its first slot is filled. *)
  Lemma gap_throw h v xs ys zs a k :
    hwf h -> vgap sz lmax h v xs (length zs) ys a -> (k < length zs)%nat ->
    exists h', t_construct_all (nlen xs) zs (Tst v h k) = Ok (Threw, Tst v h' 0) /\ upd h h' [a] [a] /\
      shows v h' ((Some <$> xs ++ take k zs) ++ replicate (length zs - k) None ++ (Some <$> ys)) /\
      clear sz v h' = Err UB.
  Proof using Hsz Hlim.
    intros Hwf (Hp & Hl & Hc & Hm & Hb) Hk.
    set (h' := hput h a (Blk (v_alloc v) (sz * v_cap v) ((Live <$> xs) ++ (Live <$> take k zs) ++
      replicate (length zs - k) Raw ++ (Live <$> ys) ++
      replicate (N.to_nat (v_cap v) - (length xs + length zs + length ys)) Raw)) 0).
    exists h'. split.
    { eapply construct_throw; [done|exact Hb|by rewrite fmap_length|done]. }
    assert (Hb' : hmap h' !! a = Some (Blk (v_alloc v) (sz * v_cap v) ((Live <$> xs) ++ (Live <$> take k zs) ++
      replicate (length zs - k) Raw ++ (Live <$> ys) ++
      replicate (N.to_nat (v_cap v) - (length xs + length zs + length ys)) Raw))) by apply hput_lookup.
    split; [eapply upd_write_map; eauto|]. split.
    - replace ((Some <$> xs ++ take k zs) ++ replicate (length zs - k) None ++ (Some <$> ys)) with
        (cell_opt <$> (((Live <$> xs) ++ (Live <$> take k zs) ++ replicate (length zs - k) Raw) ++ (Live <$> ys))).
      2:{ rewrite !fmap_app, !cell_opt_live, fmap_replicate. simpl. by rewrite <-!(assoc_L app). }
      eapply (shows_cells v h' a); [done| |].
      + rewrite Hb'. by rewrite <-!(assoc_L app).
      + rewrite !app_length, !fmap_length, take_length, replicate_length. unfold nlen in *. lia.
    - rewrite replicate_app_S in Hb' by done. rewrite (assoc_L app) in Hb'.
      eapply (clear_hole sz v h' a); [done|exact Hb'| |].
      + apply Forall_app. split; apply Forall_live_not_raw.
      + rewrite !app_length, !fmap_length, take_length. unfold nlen in *. lia.
  Qed.

  Lemma insert_fill_throw h v xs ys fp n x k :
    hwf h -> vrep h v (xs ++ ys) fp -> xs <> [] -> nlen (xs ++ ys) + n <= lmax -> (k < N.to_nat n)%nat ->
    exists v' h' a, t_insert_fill sz (nlen xs) n x (Tst v h k) = Ok (Threw, Tst v' h' 0) /\
      upd h h' fp [a] /\
      shows v' h' ((Some <$> xs ++ replicate k x) ++ replicate (N.to_nat n - k) None ++ (Some <$> ys)) /\
      clear sz v' h' = Err UB.
  Proof using Hsz Hlim.
    intros Hwf Hr Hxs Hl Hk.
    destruct (move_elements_back_ok sz lmax Hsz Hlim h v xs ys fp (N.to_nat n) Hwf Hr Hxs)
      as (v2&h2&a&E2&Hg&Hu2); [left; lia|lia|]. rewrite N2Nat.id in E2.
    pose proof Hg as Hg'. destruct Hg' as (_ & Hl2 & Hc2 & Hm2 & _).
    destruct (cmax_W sz lmax Hsz Hlim (v_cap v2) Hm2) as (_&_&HW).
    destruct (gap_throw h2 v2 xs ys (replicate (N.to_nat n) x) a k (upd_wf _ _ _ _ Hu2)) as (h'&E&Hu&Hs&Hcl).
    { by rewrite replicate_length. } { by rewrite replicate_length. }
    exists v2, h', a. unfold t_insert_fill.
    pose proof (like_call (fun v => move_elements_back (A := A) sz v (nlen xs) n)) as H.
    rewrite (tbind_done _ _ _ _ _ (like_ok _ _ _ _ _ k _ _ H ltac:(lia) E2)). rewrite Nat.sub_0_r.
    erewrite tbind_threw.
    2:{ rewrite fill_construct by (unfold nlen in *; lia). rewrite N.add_0_r. exact E. }
    split; [done|]. split; [by eapply upd_trans|]. split; [|done].
    rewrite take_replicate, replicate_length in Hs. by rewrite Nat.min_l in Hs by lia.
  Qed.

  Lemma insert_range_throw h v xs ys fp zs k :
    hwf h -> vrep h v (xs ++ ys) fp -> xs <> [] -> nlen (xs ++ ys) + nlen zs <= lmax -> (k < length zs)%nat ->
    exists v' h' a, t_insert_range sz (nlen xs) zs (Tst v h k) = Ok (Threw, Tst v' h' 0) /\
      upd h h' fp [a] /\
      shows v' h' ((Some <$> xs ++ take k zs) ++ replicate (length zs - k) None ++ (Some <$> ys)) /\
      clear sz v' h' = Err UB.
  Proof using Hsz Hlim.
    intros Hwf Hr Hxs Hn Hk. unfold t_insert_range. rewrite tbind_self.
    assert (Hl : v_len v = nlen (xs ++ ys)) by apply Hr.
    destruct (cmax_W sz lmax Hsz Hlim (2 * lmax + 2)) as (_&_&HW); [lia|].
    change (N.of_nat (length zs)) with (nlen zs).
    assert (post sz lmax h fp ((if v_cap v <? uadd (v_len v) (nlen zs)
       then allocate_reserve sz v (uadd (v_len v) (nlen zs)) else ret v) h) (xs ++ ys))
      as (v1&h1&fp1&E1&Hr1&Hu1).
    { rewrite uadd_small by (unfold nlen in *; lia).
      destruct (N.ltb_spec (v_cap v) (v_len v + nlen zs)).
      - destruct (allocate_reserve_ok sz lmax Hsz Hlim h v (xs ++ ys) fp
          (v_len v + nlen zs) Hwf Hr)
          as (h1&E1&Hr1&Hu1&_); [lia|unfold nlen in *; lia|].
        eexists _, h1, _. done.
      - by apply post_ret. }
    pose proof (like_if (v_cap v <? uadd (v_len v) (nlen zs)) 0 _ _
      (like_call (fun v => allocate_reserve (A := A) sz v (uadd (v_len v) (nlen zs)))) eq_refl) as H1.
    rewrite (tbind_done _ _ _ _ _ (like_ok _ _ _ _ _ k _ _ H1 ltac:(lia) E1)). rewrite Nat.sub_0_r.
    destruct (move_elements_back_ok sz lmax Hsz Hlim h1 v1 xs ys fp1 (length zs) (upd_wf _ _ _ _ Hu1) Hr1 Hxs)
      as (v2&h2&a&E2&Hg&Hu2); [left; lia|unfold nlen in *; lia|].
    pose proof (like_call (fun v => move_elements_back (A := A) sz v (nlen xs) (nlen zs))) as H2.
    rewrite (tbind_done _ _ _ _ _ (like_ok _ _ _ _ _ k _ _ H2 ltac:(lia) E2)). rewrite Nat.sub_0_r.
    destruct (gap_throw h2 v2 xs ys zs a k (upd_wf _ _ _ _ Hu2) Hg Hk) as (h'&E&Hu&Hs&Hcl).
    exists v2, h', a. rewrite (tbind_threw _ _ _ _ E). split; [done|]. split; [|done].
    eapply upd_trans; [done|exact Hu1|]. eapply upd_trans; [apply Hu1|done|done].
  Qed.

  (** 838-845 from a null object: the elements beyond the throwing one are missing. *)
  Lemma copy_impl_throw h al r ys fpr k :
    hwf h -> vrep h r ys fpr -> nlen ys <= lmax -> (k < length ys)%nat ->
    exists v' h' a, t_copy_impl sz r (Tst (Vec 0 0 None al) h k) = Ok (Threw, Tst v' h' 0) /\
      upd h h' [] [a] /\ v_ptr v' = Some a /\
      (exists b, hmap h' !! a = Some b /\ b_cells b = (Live <$> take k ys) ++ replicate (length ys - k) Raw) /\
      shows v' h' ((Some <$> take k ys) ++ replicate (length ys - k) None) /\ clear sz v' h' = Err UB.
  Proof using Hsz Hlim.
    intros Hwf Hr Hn Hk. destruct Hr as (Hl & Hc & Hm & Hp).
    destruct (allocate_ok sz lmax Hsz Hlim h al (v_len r) Hwf) as (h1&E&Hr1&Hu&_); [lia|].
    unfold t_copy_impl.
    pose proof (like_call (fun v => allocate (A := A) sz v (v_len r))) as H1.
    rewrite (tbind_done _ _ _ _ _ (like_ok _ _ _ _ _ k _ _ H1 ltac:(lia) E)). rewrite Nat.sub_0_r, tbind_self.
    erewrite tbind_done by done.
    destruct Hr1 as (_&_&_&_&Hb). simpl in Hb. rewrite vcells_nil in Hb.
    assert (Hlen : N.to_nat (v_len r) = length ys) by (unfold nlen in *; lia). rewrite Hlen in *.
    destruct (v_ptr r) as [b|] eqn:Ep; [|unfold nlen in *; lia].
    destruct Hp as [-> Hbr]. assert (b < hnext h) by (apply Hwf; eauto).
    assert (Hbr1 : hmap h1 !! b = Some (Blk (v_alloc r) (sz * v_cap r) (vcells ys (v_cap r)))).
    { rewrite (upd_frame _ _ _ _ Hu); [done|done|set_solver]. }
    set (v1 := set_len (Vec 0 (v_len r) (Some (hnext h)) al) (v_len r)).
    rewrite <-(app_nil_r (replicate _ _)) in Hb. simpl t_h. simpl t_k.
    rewrite (copy_throw v1 (hnext h) b _ _ _ _ ys h1 [] [] [] _ 0 k ltac:(lia) eq_refl Hbr1 Hb eq_refl eq_refl Hk).
    simpl app. rewrite app_nil_r. set (h2 := hput _ _ _ _). exists v1, h2, (hnext h). split; [done|].
    assert (Hb2 : hmap h2 !! hnext h = Some (Blk al (sz * v_len r)
       ((Live <$> take k ys) ++ replicate (length ys - k) Raw))) by apply hput_lookup.
    split; [|split; [done|split; [eauto|split]]].
    - eapply upd_trans; [done|done|]. eapply upd_write_map; [apply Hu|by rewrite Hb|done|done].
    - replace ((Some <$> take k ys) ++ replicate (length ys - k) None) with
        (cell_opt <$> ((Live <$> take k ys) ++ replicate (length ys - k) Raw)).
      2:{ by rewrite fmap_app, cell_opt_live, fmap_replicate. }
      eapply (shows_cells v1 h2 (hnext h)); [done|by rewrite app_nil_r|].
      rewrite app_length, fmap_length, take_length, replicate_length. simpl. lia.
    - rewrite <-(app_nil_r (replicate _ _)), replicate_app_S in Hb2 by done.
      eapply (clear_hole sz v1 h2 (hnext h)); [done|exact Hb2|apply Forall_live_not_raw|].
      rewrite fmap_length, take_length. simpl. lia.
  Qed.

  (** 117-145, the same allocator, a copy assignment throws: every element is
      still there, the first [k] are already the new ones. *)
  Lemma copy_assign_early h v xs fp r ys fpr k :
    hwf h -> vrep h v xs fp -> vrep h r ys fpr -> (forall a, a ∈ fp -> a ∈ fpr -> False) ->
    v_alloc v = v_alloc r -> (k < length xs)%nat -> (k < length ys)%nat ->
    exists v' h' fp', t_copy_assign sz r (Tst v h k) = Ok (Threw, Tst v' h' 0) /\
      vrep h' v' (take k ys ++ drop k xs) fp' /\ upd h h' fp fp'.
  Proof using Hsz Hlim.
    intros Hwf Hv Hr Hd Hal Hkx Hky. unfold t_copy_assign. rewrite tbind_self.
    rewrite (proj2 (N.eqb_eq _ _) Hal).
    assert (Hrc : v_cap r <= 2 * lmax + 2) by apply Hr.
    destruct (reserve_full sz lmax Hsz Hlim h v xs fp (v_cap r) Hwf Hv Hrc)
      as (v1&h1&fp1&E1&Hv1&Hu1&Hc1&Ha1&_).
    pose proof (like_call (fun v => reserve (A := A) sz v (v_cap r))) as H1.
    rewrite (tbind_done _ _ _ _ _ (like_ok _ _ _ _ _ k _ _ H1 ltac:(lia) E1)). rewrite Nat.sub_0_r, tbind_self.
    assert (Hr1 : vrep h1 r ys fpr) by (by eapply vrep_other).
    assert (Hd1 : forall a, a ∈ fp1 -> a ∈ fpr -> False).
    { intros a Ha Har. destruct (upd_new _ _ _ _ Hu1 a Ha); [eauto|].
      assert (a < hnext h); [|lia]. apply Hwf. by eapply vrep_dom. }
    pose proof Hv1 as (Hl & Hc & Hm & Hp). destruct Hr1 as (Hlr & Hcr & Hmr & Hpr).
    destruct (v_ptr v1) as [a|] eqn:Ep; [|unfold nlen in *; lia].
    destruct (v_ptr r) as [b|] eqn:Epr; [|unfold nlen in *; lia].
    destruct Hp as [-> Hb], Hpr as [-> Hbr].
    assert (a <> b) as Hab by (intros ->; eapply Hd1; apply elem_of_list_here).
    set (n := Nat.min (length xs) (length ys)).
    replace (N.to_nat (N.min (v_len v1) (v_len r))) with (length (take n ys))
      by (rewrite take_length; unfold nlen in *; lia).
    rewrite (live_split ys n) in Hbr. rewrite (live_split xs n) in Hb.
    erewrite tbind_threw.
    2:{ eapply (assign_throw v1 a b _ _ _ _ (take n ys) (Live <$> take n xs) h1 [] _ [] _ 0 k);
          [done| |apply Forall_live_not_raw|exact Hbr|exact Hb|done|done|].
        - rewrite fmap_length, !take_length. lia.
        - rewrite take_length. lia. }
    eexists v1, _, [a]. split; [done|].
    assert (Hcs : (Live <$> take k (take n ys)) ++ drop k (Live <$> take n xs) ++ (Live <$> drop n xs) ++
       replicate (N.to_nat (v_cap v1) - length xs) Raw = vcells (take k ys ++ drop k xs) (v_cap v1)).
    { unfold vcells. rewrite fmap_app, take_take, Nat.min_l by lia. rewrite <-(assoc_L app). f_equal.
      rewrite <-fmap_drop, (assoc_L app), <-fmap_app. f_equal.
      - f_equal. rewrite <-(take_drop n xs) at 3. rewrite drop_app_le; [done|]. rewrite take_length. lia.
      - f_equal. rewrite app_length, take_length, drop_length. lia. }
    split.
    - split; [|split; [done|split; [done|]]].
      + rewrite nlen_app. unfold nlen in *. rewrite take_length, drop_length. lia.
      + rewrite Ep. split; [done|]. rewrite hput_lookup. simpl. by rewrite Hcs.
    - eapply upd_trans; [done|exact Hu1|]. eapply upd_write_map; [apply Hu1|by rewrite Hb|done|done].
  Qed.

  (** The same, but a copy construction beyond the old length throws: [len] is
      still the old one and does not cover what was appended. *)
  Lemma copy_assign_late h v xs fp r ys fpr k :
    hwf h -> vrep h v xs fp -> vrep h r ys fpr -> (forall a, a ∈ fp -> a ∈ fpr -> False) ->
    v_alloc v = v_alloc r -> (length xs <= k)%nat -> (k < length ys)%nat ->
    exists v' h' fp', t_copy_assign sz r (Tst v h k) = Ok (Threw, Tst v' h' 0) /\
      upd h h' fp fp' /\ collect v' h' = Ok (take (length xs) ys, h') /\
      (k = length xs -> vrep h' v' (take k ys) fp') /\
      ((length xs < k)%nat -> clear sz v' h' = Err Leak).
  Proof using Hsz Hlim.
    intros Hwf Hv Hr Hd Hal Hkx Hky. unfold t_copy_assign. rewrite tbind_self.
    rewrite (proj2 (N.eqb_eq _ _) Hal).
    assert (Hrc : v_cap r <= 2 * lmax + 2) by apply Hr.
    destruct (reserve_full sz lmax Hsz Hlim h v xs fp (v_cap r) Hwf Hv Hrc)
      as (v1&h1&fp1&E1&Hv1&Hu1&Hc1&Ha1&_).
    pose proof (like_call (fun v => reserve (A := A) sz v (v_cap r))) as H1.
    rewrite (tbind_done _ _ _ _ _ (like_ok _ _ _ _ _ k _ _ H1 ltac:(lia) E1)). rewrite Nat.sub_0_r, tbind_self.
    assert (Hr1 : vrep h1 r ys fpr) by (by eapply vrep_other).
    assert (Hd1 : forall a, a ∈ fp1 -> a ∈ fpr -> False).
    { intros a Ha Har. destruct (upd_new _ _ _ _ Hu1 a Ha); [eauto|].
      assert (a < hnext h); [|lia]. apply Hwf. by eapply vrep_dom. }
    pose proof Hv1 as (Hl & Hc & Hm & Hp). destruct Hr1 as (Hlr & Hcr & Hmr & Hpr).
    destruct (v_ptr v1) as [a|] eqn:Ep; [|unfold nlen in *; lia].
    destruct (v_ptr r) as [b|] eqn:Epr; [|unfold nlen in *; lia].
    destruct Hp as [-> Hb], Hpr as [-> Hbr].
    assert (a <> b) as Hab by (intros ->; eapply Hd1; apply elem_of_list_here).
    assert (Hv1r : v_len v1 < v_len r) by (unfold nlen in *; lia).
    rewrite N.min_l by lia. rewrite (live_split ys (length xs)) in Hbr.
    replace (N.to_nat (v_len v1)) with (length (take (length xs) ys))
      by (rewrite take_length; unfold nlen in *; lia).
    assert (Hk : (length (take (length xs) ys) + (k - length xs) = k)%nat) by (rewrite take_length; lia).
    erewrite tbind_done.
    2:{ rewrite <-Hk at 1.
        eapply (assign_done v1 a b _ _ _ _ (take (length xs) ys) (Live <$> xs) h1 [] _ [] _ 0 (k - length xs));
          [done| |apply Forall_live_not_raw|exact Hbr|exact Hb|done|done].
        rewrite fmap_length, take_length. lia. }
    rewrite (proj2 (N.ltb_ge (v_len r) (v_len v1))) by lia.
    rewrite (proj2 (N.ltb_lt (v_len v1) (v_len r))) by lia.
    replace (N.to_nat (v_len r - v_len v1)) with (length (drop (length xs) ys))
      by (rewrite drop_length; unfold nlen in *; lia).
    set (h2 := hput _ _ _ _).
    assert (Hbr2 : hmap h2 !! b = hmap h1 !! b) by (by apply hput_lookup_ne). rewrite Hbr in Hbr2.
    assert (Hb2 : hmap h2 !! a = Some (Blk (v_alloc v1) (sz * v_cap v1)
       ((Live <$> take (length xs) ys) ++ replicate (length (drop (length xs) ys)) Raw ++
         replicate (N.to_nat (v_cap v1) - length ys) Raw))).
    { unfold h2. rewrite hput_lookup. simpl. do 3 f_equal.
      rewrite <-replicate_add, drop_length. f_equal. unfold nlen in *. lia. }
    erewrite tbind_threw.
    2:{ eapply (copy_throw v1 a b _ _ _ _ (drop (length xs) ys) h2 _ _ _ _ (v_len v1) (k - length xs));
          [done|done|exact Hbr2|exact Hb2| |done|].
        - rewrite fmap_length, take_length. unfold nlen in *. lia.
        - rewrite drop_length. lia. }
    set (h3 := hput _ _ _ _). exists v1, h3, [a]. split; [done|].
    assert (Hb3 : hmap h3 !! a = Some (Blk (v_alloc v1) (sz * v_cap v1)
       ((Live <$> take (length xs) ys) ++ (Live <$> take (k - length xs) (drop (length xs) ys)) ++
        replicate (length (drop (length xs) ys) - (k - length xs)) Raw ++
        replicate (N.to_nat (v_cap v1) - length ys) Raw))) by apply hput_lookup.
    assert (Hu3 : upd h1 h3 [a] [a]).
    { unfold h3, h2. rewrite hput_hput. eapply upd_write_map; [apply Hu1|by rewrite Hb|done|done]. }
    split; [by eapply upd_trans|]. split; [|split].
    - unfold collect, iter. rewrite Ep.
      erewrite (collect_run a _ _ (take (length xs) ys) h3 []); [done|exact Hb3|done| |].
      + simpl. rewrite take_length. unfold nlen in *. lia.
      + rewrite take_length. unfold nlen in *. lia.
    - intros ->. split; [|split; [done|split; [done|]]].
      + unfold nlen in *. rewrite take_length. lia.
      + rewrite Ep. split; [done|]. rewrite Hb3. do 2 f_equal. rewrite Nat.sub_diag. unfold vcells. simpl.
        f_equal. rewrite <-replicate_add. f_equal. rewrite take_length, drop_length. unfold nlen in *. lia.
    - intros Hlt. destruct (cmax_W sz lmax Hsz Hlim (v_cap v1) Hm) as (_&HWs&_).
      eapply (clear_extra sz v1 h3 a (Live <$> take (length xs) ys)); [done| |apply Forall_live_not_raw| |].
      + rewrite Hb3. do 2 f_equal. rewrite umul_small by lia. lia.
      + rewrite fmap_length, take_length. unfold nlen in *. lia.
      + destruct (take (k - length xs) (drop (length xs) ys)) as [|z zs] eqn:Et; [|done].
        apply (f_equal length) in Et. rewrite take_length, drop_length in Et. simpl in Et. lia.
  Qed.

  (** Different allocators: clear(), then [copy_impl]. *)
  Lemma copy_assign_other h v xs fp r ys fpr k :
    hwf h -> vrep h v xs fp -> vrep h r ys fpr -> (forall a, a ∈ fp -> a ∈ fpr -> False) ->
    v_alloc v <> v_alloc r -> nlen ys <= lmax -> (k < length ys)%nat ->
    exists v' h' fp', t_copy_assign sz r (Tst v h k) = Ok (Threw, Tst v' h' 0) /\
      upd h h' fp fp' /\ shows v' h' ((Some <$> take k ys) ++ replicate (length ys - k) None) /\
      clear sz v' h' = Err UB.
  Proof using Hsz Hlim.
    intros Hwf Hv Hr Hd Hal Hn Hk. unfold t_copy_assign. rewrite tbind_self.
    rewrite (proj2 (N.eqb_neq _ _) Hal).
    destruct (clear_ok sz lmax Hsz Hlim h v xs fp Hwf Hv) as (h1&E1&Hr1&Hu1&_).
    rewrite (tbind_done _ _ _ _ _ (like_ok _ _ _ _ _ k _ _ (like_call (clear sz)) ltac:(lia) E1)).
    rewrite Nat.sub_0_r.
    destruct (copy_impl_throw h1 (v_alloc v) r ys fpr k) as (v2&h2&a&E2&Hu2&_&_&Hs&Hcl).
    - apply Hu1.
    - by eapply vrep_other.
    - done.
    - done.
    - exists v2, h2, [a]. split; [done|]. split; [|done]. by eapply upd_trans.
  Qed.

  (** resize, assign and the filling constructor. *)
  Lemma resize_throw h v xs fp n x k :
    hwf h -> vrep h v xs fp -> n <= lmax -> (N.to_nat (nlen xs) + k < N.to_nat n)%nat ->
    exists v1 h1 fp1, t_resize sz n x (Tst v h k) = Ok (Threw, Tst (set_len v1 (v_len v1 + 1)) h1 0) /\
      vrep h1 v1 (xs ++ replicate k x) fp1 /\ upd h h1 fp fp1 /\ v_len v1 < v_cap v1.
  Proof using Hsz Hlim.
    intros Hwf Hr Hn Hk. unfold t_resize. rewrite tbind_self.
    assert (Hl : v_len v = nlen xs) by apply Hr.
    rewrite (proj2 (N.ltb_ge _ _)) by lia. rewrite (proj2 (N.ltb_lt _ _)) by lia.
    assert (post sz lmax h fp ((if v_cap v <? n then reserve sz v n else ret v) h) xs) as (v1&h1&fp1&E1&Hr1&Hu1).
    { destruct (v_cap v <? n); [|by apply post_ret]. eapply reserve_ok; try done. lia. }
    pose proof (like_if (v_cap v <? n) 0 _ _ (like_call (fun v => reserve (A := A) sz v n)) eq_refl) as H.
    rewrite (tbind_done _ _ _ _ _ (like_ok _ _ _ _ _ k _ _ H ltac:(lia) E1)). rewrite Nat.sub_0_r, repeat_push.
    destruct (push_all_throw (replicate (N.to_nat (n - v_len v)) x) k h1 v1 xs fp1 (upd_wf _ _ _ _ Hu1) Hr1)
      as (v2&h2&fp2&E2&Hr2&Hu2&Hlt).
    { unfold nlen in *. rewrite replicate_length. lia. }
    { rewrite replicate_length. lia. }
    exists v2, h2, fp2. split; [done|]. rewrite take_replicate, Nat.min_l in Hr2 by lia.
    split; [done|]. split; [|done]. by eapply upd_trans.
  Qed.

  Lemma assign_list_throw h v xs fp ys k :
    hwf h -> vrep h v xs fp -> nlen ys <= lmax -> (k < length ys)%nat ->
    exists v1 h1 fp1, t_assign_list sz ys (Tst v h k) = Ok (Threw, Tst (set_len v1 (v_len v1 + 1)) h1 0) /\
      vrep h1 v1 (take k ys) fp1 /\ upd h h1 fp fp1 /\ v_len v1 < v_cap v1.
  Proof using Hsz Hlim.
    intros Hwf Hr Hn Hk. unfold t_assign_list.
    destruct (destroy_all_ok sz lmax Hsz Hlim h v xs fp Hwf Hr) as (h1&E1&Hr1&Hu1&_).
    rewrite (tbind_done _ _ _ _ _ (like_ok _ _ _ _ _ k _ _ (like_call destroy_all) ltac:(lia) E1)).
    rewrite Nat.sub_0_r. change (N.of_nat (length ys)) with (nlen ys).
    destruct (reserve_ok sz lmax Hsz Hlim h1 _ [] fp (nlen ys) (upd_wf _ _ _ _ Hu1) Hr1) as (v2&h2&fp2&E2&Hr2&Hu2).
    { lia. }
    pose proof (like_call (fun v => reserve (A := A) sz v (nlen ys))) as H2.
    rewrite (tbind_done _ _ _ _ _ (like_ok _ _ _ _ _ k _ _ H2 ltac:(lia) E2)). rewrite Nat.sub_0_r.
    destruct (push_all_throw ys k h2 v2 [] fp2 (upd_wf _ _ _ _ Hu2) Hr2) as (v3&h3&fp3&E3&Hr3&Hu3&Hlt); [|done|].
    { change (nlen (@nil A)) with 0. lia. }
    exists v3, h3, fp3. split; [done|]. split; [done|]. split; [|done].
    eapply upd_trans; [done|exact Hu1|]. eapply upd_trans; [apply Hu1|done|done].
  Qed.

  Lemma assign_fill_list n (x : A) s : t_assign_fill sz n x s = t_assign_list sz (replicate (N.to_nat n) x) s.
  Proof using Type. clear Hsz Hlim.
    unfold t_assign_fill, t_assign_list, tbind. destruct (call destroy_all s) as [[[[]|] s1]|]; [|done..].
    rewrite replicate_length, N2Nat.id.
    destruct (call (fun v => reserve sz v n) s1) as [[[[]|] s2]|]; [|done..]. apply repeat_push.
  Qed.

  (** A block nobody owns, with [ys] in it, and nothing else has changed. *)
  Definition leaks h h' ys : Prop :=
    exists a b n, hmap h !! a = None /\ hmap h' !! a = Some b /\ b_cells b = (Live <$> ys) ++ replicate n Raw /\
      forall a', a' <> a -> hmap h' !! a' = hmap h !! a'.
  Lemma leaks_upd h h' a b ys n :
    hwf h -> upd h h' [] [a] -> hmap h' !! a = Some b -> b_cells b = (Live <$> ys) ++ replicate n Raw ->
    leaks h h' ys.
  Proof using Type. clear Hsz Hlim.
    intros Hwf Hu Hb Hc. exists a, b, n. split; [|split; [done|split; [done|]]].
    - destruct (upd_new _ _ _ _ Hu a) as [H|H]; [apply elem_of_list_here|by apply elem_of_nil in H|].
      destruct (hmap h !! a) eqn:E; [|done]. assert (a < hnext h) by (apply Hwf; eauto). lia.
    - intros a' Ha'. destruct (N.lt_ge_cases a' (hnext h)).
      + apply (upd_frame _ _ _ _ Hu); [done|apply not_elem_of_nil].
      + destruct (hmap h !! a') eqn:E; [assert (a' < hnext h) by (apply Hwf; eauto); lia|].
        destruct (hmap h' !! a') eqn:E'; [|done].
        destruct (proj1 (upd_dom _ _ _ _ Hu a')) as [[[? Hx] _]|Hin]; [eauto|congruence|].
        by apply elem_of_list_singleton in Hin.
  Qed.
  Lemma leaks_vrep h h' v xs fp :
    hwf h -> upd h h' [] fp -> vrep h' v xs fp -> 0 < v_cap v -> leaks h h' xs.
  Proof using Type. clear Hsz Hlim.
    intros Hwf Hu (Hl & Hc & Hm & Hp) H0. destruct (v_ptr v) as [a|]; [|lia]. destruct Hp as [-> Hb].
    eapply leaks_upd; done.
  Qed.

  Lemma new_list_throw h al ys k :
    hwf h -> nlen ys <= lmax -> (k < length ys)%nat ->
    exists v' h', t_new_list sz ys (Tst (Vec 0 0 None al) h k) = Ok (Threw, Tst v' h' 0) /\ leaks h h' (take k ys).
  Proof using Hsz Hlim.
    intros Hwf Hn Hk. change (N.of_nat (length ys)) with (nlen ys).
    destruct (allocate_ok sz lmax Hsz Hlim h al (nlen ys) Hwf) as (h1&E&Hr1&Hu&_); [lia|].
    unfold t_new_list. change (N.of_nat (length ys)) with (nlen ys).
    pose proof (like_call (fun v => allocate (A := A) sz v (nlen ys))) as H1.
    rewrite (tbind_done _ _ _ _ _ (like_ok _ _ _ _ _ k _ _ H1 ltac:(lia) E)). rewrite Nat.sub_0_r, tbind_self.
    erewrite tbind_done by done. destruct Hr1 as (_&_&_&_&Hb). simpl in Hb. rewrite vcells_nil in Hb.
    unfold nlen in Hb at 2. rewrite Nat2N.id, <-(app_nil_r (replicate _ _)) in Hb.
    eexists _, _. split; [eapply (construct_throw _ (hnext h) _ _ ys h1 []); [done|exact Hb|done|done]|].
    eapply leaks_upd; [done| |apply hput_lookup|simpl; by rewrite app_nil_r].
    eapply upd_trans; [done|exact Hu|]. eapply upd_write_map; [apply Hu|by rewrite Hb|done|done].
  Qed.

  Lemma new_fill_throw h al n x k :
    hwf h -> n <= lmax -> (k < N.to_nat n)%nat ->
    exists v' h', t_new_fill sz n x (Tst (Vec 0 0 None al) h k) = Ok (Threw, Tst v' h' 0) /\
      leaks h h' (replicate k x).
  Proof using Hsz Hlim.
    intros Hwf Hn Hk. unfold t_new_fill. rewrite assign_fill_list.
    destruct (assign_list_throw h (Vec 0 0 None al) [] [] (replicate (N.to_nat n) x) k Hwf (vrep_null sz lmax h al))
      as (v1&h1&fp1&E&Hr&Hu&Hlt).
    { unfold nlen. rewrite replicate_length. lia. } { by rewrite replicate_length. }
    eexists _, h1. split; [exact E|]. rewrite take_replicate, Nat.min_l in Hr by lia.
    eapply leaks_vrep; [done|done|done|lia].
  Qed.

  Lemma construct_back_throw a al0 al by_ : forall ys h cap c1 c2 len k,
    hmap h !! a = Some (Blk al by_ (c1 ++ replicate (length ys) Raw ++ c2)) ->
    len = N.of_nat (length c1) -> len + nlen ys < W -> (k < length ys)%nat ->
    exists v', t_construct_back ys (Tst (Vec len cap (Some a) al0) h k) = Ok (Threw, Tst v' (hput h a (Blk al by_
      (c1 ++ (Live <$> take k ys) ++ replicate (length ys - k) Raw ++ c2)) 0) 0).
  Proof using Type. clear Hsz Hlim.
    induction ys as [|y ys IH]; intros h cap c1 c2 len k Hb Hi HW Hk; [simpl in Hk; lia|]. simpl.
    rewrite tbind_self. erewrite tbind_done by done. simpl t_h. simpl t_k.
    assert (nlen (y :: ys) = nlen ys + 1) as Hys by (unfold nlen; simpl; lia).
    cbn [v_len]. rewrite uadd_small by lia. unfold set_len. cbn [v_len v_cap v_ptr v_alloc].
    destruct k as [|k].
    - simpl in *. rewrite hput_id by done. eexists. done.
    - simpl in Hb. erewrite tbind_done.
      2:{ eapply (like_ok 1 _ _ _ _ (S k) _ _ (like_construct len y)); [lia|]. cbn [v_ptr].
          rewrite (bind_ok _ _ _ _ _ (vconstruct_ok _ _ _ _ _ _ _ _ Hb Hi)). done. }
      replace (S k - 1)%nat with k by lia.
      destruct (IH (hput h a (Blk al by_ (c1 ++ Live y :: replicate (length ys) Raw ++ c2)) 0) cap
        (c1 ++ [Live y]) c2 (len + 1) k) as (v' & E).
      + rewrite hput_lookup, <-(assoc_L app). done.
      + rewrite app_length. simpl. lia.
      + lia.
      + simpl in Hk. lia.
      + exists v'. rewrite E. rewrite hput_hput, <-(assoc_L app). done.
  Qed.

  Lemma new_range_throw h al ys k :
    hwf h -> nlen ys <= lmax -> (k < length ys)%nat ->
    exists v' h', t_new_range sz ys (Tst (Vec 0 0 None al) h k) = Ok (Threw, Tst v' h' 0) /\ leaks h h' (take k ys).
  Proof using Hsz Hlim.
    intros Hwf Hn Hk.
    destruct (allocate_ok sz lmax Hsz Hlim h al (nlen ys) Hwf) as (h1&E&Hr1&Hu&_); [lia|].
    unfold t_new_range. change (N.of_nat (length ys)) with (nlen ys).
    pose proof (like_call (fun v => allocate (A := A) sz v (nlen ys))) as H1.
    rewrite (tbind_done _ _ _ _ _ (like_ok _ _ _ _ _ k _ _ H1 ltac:(lia) E)). rewrite Nat.sub_0_r.
    destruct Hr1 as (_&_&_&_&Hb). simpl in Hb. rewrite vcells_nil in Hb.
    unfold nlen in Hb at 2. rewrite Nat2N.id, <-(app_nil_r (replicate _ _)) in Hb.
    destruct (cmax_W sz lmax Hsz Hlim (2 * lmax + 2)) as (_&_&HW); [lia|].
    destruct (construct_back_throw (hnext h) al _ _ ys h1 (nlen ys) [] [] 0 k Hb eq_refl) as (v' & E'); [lia|done|].
    eexists v', _. split; [exact E'|].
    eapply leaks_upd; [done| |apply hput_lookup|simpl; by rewrite app_nil_r].
    eapply upd_trans; [done|exact Hu|]. eapply upd_write_map; [apply Hu|by rewrite Hb|done|done].
  Qed.

  Lemma new_copy_throw h al r ys fpr k :
    hwf h -> vrep h r ys fpr -> nlen ys <= lmax -> (k < length ys)%nat ->
    exists v' h', t_copy_impl sz r (Tst (Vec 0 0 None al) h k) = Ok (Threw, Tst v' h' 0) /\ leaks h h' (take k ys).
  Proof using Hsz Hlim.
    intros Hwf Hr Hn Hk. destruct (copy_impl_throw h al r ys fpr k Hwf Hr Hn Hk) as (v'&h'&a&E&Hu&_&(b&Hb&Hc)&_).
    exists v', h'. split; [done|]. by eapply leaks_upd.
  Qed.

  Lemma from_iter_throw h ys k :
    hwf h -> nlen ys <= lmax -> (k < length ys)%nat ->
    t_from_iter sz ys (Tst (Vec 0 0 None 0) h k) = Err UB.
  Proof using Hsz Hlim.
    intros Hwf Hn Hk.
    destruct (allocate_ok sz lmax Hsz Hlim h 0 2 Hwf) as (h1&E&Hr1&Hu&_); [lia|].
    unfold t_from_iter.
    pose proof (like_call (fun v => allocate (A := A) sz v 2)) as H1.
    rewrite (tbind_done _ _ _ _ _ (like_ok _ _ _ _ _ k _ _ H1 ltac:(lia) E)). rewrite Nat.sub_0_r.
    destruct (push_all_throw ys k h1 _ [] _ (upd_wf _ _ _ _ Hu) Hr1) as (v2&h2&fp2&E2&Hr2&Hu2&Hlt); [|done|].
    { change (nlen (@nil A)) with 0. lia. }
    rewrite E2. simpl t_v. simpl t_h. by destruct (over_shows h2 v2 _ _ Hr2 Hlt) as (_ & -> & _).
  Qed.
End Throw.

(** ** Histories: one more operation, in which a copy may throw *)
Section Step.
  Context {A : Type} (sz : N) (dflt : A) (eqb : A -> A -> bool) (cmp : A -> A -> comparison).
  Notation wld := (world (block A) vec).
  Notation step := (vec_step sz dflt eqb cmp).

  (** A call on an existing vector: whatever it has done to the object stays. *)
  Definition t_upd {X} (i : nat) (m : vec -> TM (A := A) X) (g : X -> vout A) (k : nat) (w : wld)
    : outcome (tres (vout A) * wld) :=
    match w_vars w !! i with
    | None => Err UB
    | Some v =>
        match m v (Tst v (w_heap w) k) with
        | Ok (r, s') => Ok (match r with Done x => Done (g x) | Threw => Threw end,
                            World (t_h s') (<[i := t_v s']> (w_vars w)))
        | Err e => Err e
        end
    end.
  (** A constructor: if it throws there is no object. *)
  Definition t_mk (i : nat) (al : N) (m : TM unit) (k : nat) (w : wld)
    : outcome (tres (vout A) * wld) :=
    match w_vars w !! i with
    | Some _ => Err UB
    | None =>
        match m (Tst (Vec 0 0 None al) (w_heap w) k) with
        | Ok (Done _, s') => Ok (Done ONone, World (t_h s') (<[i := t_v s']> (w_vars w)))
        | Ok (Threw, s') => Ok (Threw, World (t_h s') (w_vars w))
        | Err e => Err e
        end
    end.
  Definition quiet (r : outcome (vout A * wld)) : outcome (tres (vout A) * wld) :=
    match r with Ok (x, w') => Ok (Done x, w') | Err e => Err e end.

  (** The operation [o] in the world [w]; the copies after the [k]-th throw. *)
  Definition throw_step (o : vop A) (k : nat) (w : wld) : outcome (tres (vout A) * wld) :=
    match o with
    | VNewFill i al n x => t_mk i al (t_new_fill sz n x) k w
    | VNewCount i al n => t_mk i al (t_new_fill sz n dflt) k w
    | VNewList i al xs => t_mk i al (t_new_list sz xs) k w
    | VNewRange i al xs => t_mk i al (t_new_range sz xs) k w
    | VFromIter i xs => t_mk i 0 (t_from_iter sz xs) k w
    | VNewCopy i j =>
        match w_vars w !! j with Some r => t_mk i 0 (t_copy_impl sz r) k w | None => Err UB end
    | VNewCopyAl i j al =>
        match w_vars w !! j with Some r => t_mk i al (t_copy_impl sz r) k w | None => Err UB end
    | VCopyAsg i j =>
        match w_vars w !! j with
        | Some r => t_upd i (fun _ => if Nat.eqb i j then tret tt else t_copy_assign sz r) (fun _ => ONone) k w
        | None => Err UB
        end
    | VAssignFill i n x => t_upd i (fun _ => t_assign_fill sz n x) (fun _ => ONone) k w
    | VAssignList i xs => t_upd i (fun _ => t_assign_list sz xs) (fun _ => ONone) k w
    | VPush i x => t_upd i (fun _ => t_push_back sz x) (fun _ => ONone) k w
    | VEmplaceBack i x =>
        t_upd i (fun _ => t_push_back sz x ~;; v <~ self ;; heapy (vread (v_ptr v) (usub (v_len v) 1))) OElem k w
    | VResize i n => t_upd i (fun _ => t_resize sz n dflt) (fun _ => ONone) k w
    | VResizeVal i n x => t_upd i (fun _ => t_resize sz n x) (fun _ => ONone) k w
    | VEmplace i p x => t_upd i (fun _ => t_insert1 sz p x) (fun _ => ONone) k w
    | VInsert i p x => t_upd i (fun _ => t_insert1 sz p x) (fun q => OIdx (Some q)) k w
    | VInsertFill i p n x => t_upd i (fun _ => t_insert_fill sz p n x) (fun q => OIdx (Some q)) k w
    | VInsertRange i p xs => t_upd i (fun _ => t_insert_range sz p xs) (fun q => OIdx (Some q)) k w
    | _ => quiet (step o w)
    end.

  (** How many elements an operation copies, from the contents [s]. *)
  Definition copies (s : gmap nat (list A)) (o : vop A) : nat :=
    let len j := match s !! j with Some xs => length xs | None => O end in
    match o with
    | VNewFill _ _ n _ | VNewCount _ _ n | VAssignFill _ n _ | VInsertFill _ _ n _ => N.to_nat n
    | VNewList _ _ xs | VNewRange _ _ xs | VFromIter _ xs | VAssignList _ xs | VInsertRange _ _ xs => length xs
    | VNewCopy _ j | VNewCopyAl _ j _ => len j
    | VCopyAsg i j => if Nat.eqb i j then O else len j
    | VPush _ _ | VEmplaceBack _ _ | VEmplace _ _ _ | VInsert _ _ _ => 1%nat
    | VResize i n | VResizeVal i n _ => (N.to_nat n - len i)%nat
    | _ => O
    end.

  Lemma t_upd_like n i (m : vec -> TM unit) f (g : vout A) k w :
    (forall v h, w_vars w !! i = Some v -> m v (Tst v h k) =
      match f v h with Ok (v', h') => Ok (Done tt, Tst v' h' (k - n)) | Err e => Err e end) ->
    t_upd i m (fun _ => g) k w = quiet ((v <-- wget i ;; v1 <-- lift (f v) ;; wset i v1 ;;; ret g) w).
  Proof.
    intros H. unfold t_upd, bind, wget, lift, wset, ret. destruct (w_vars w !! i) as [v|]; [|done].
    rewrite H by done. by destruct (f v (w_heap w)) as [[? ?]|].
  Qed.
  Lemma t_upd_like_o {X} n i (m : TM X) f (g : X -> vout A) k w :
    like n m f -> (n <= k)%nat -> t_upd i (fun _ => m) g k w = quiet (upd1o i f g w).
  Proof.
    intros H Hk. unfold t_upd, upd1o, bind, wget, lift, wset, ret. destruct (w_vars w !! i) as [v|]; [|done].
    rewrite H by done. by destruct (f v (w_heap w)) as [[[? ?] ?]|].
  Qed.
  Lemma t_mk_like n i al m f k w :
    like1 n m f -> (n <= k)%nat -> t_mk i al m k w = quiet (mk i (f (Vec 0 0 None al)) w).
  Proof.
    intros H Hk. unfold t_mk, mk, bind, wnew, lift, wset, ret. destruct (w_vars w !! i) as [v|]; [done|].
    rewrite H by done. by destruct (f _ (w_heap w)) as [[? ?]|].
  Qed.
  Lemma like_emplace_back (x : A) : like (A := A) (X := A) 1
    (t_push_back sz x ~;; v <~ self ;; heapy (vread (v_ptr v) (usub (v_len v) 1)))
    (fun v => emplace_back sz v x).
  Proof.
    intros v h k Hk. unfold emplace_back, tbind at 1. rewrite (like_push sz x) by done. unfold bind.
    destruct (push_back sz v x h) as [[v1 h1]|]; [|done]. rewrite tbind_self. unfold heapy. simpl.
    destruct (vread (v_ptr v1) (usub (v_len v1) 1) h1) as [[y h2]|]; done.
  Qed.

  (** Without an exception nothing differs from VecModel. *)
  Lemma no_throw (s : gmap nat (list A)) o k w :
    (forall j xs, s !! j = Some xs -> exists v, w_vars w !! j = Some v /\ v_len v = nlen xs) ->
    (forall j v, w_vars w !! j = Some v -> exists xs, s !! j = Some xs) ->
    (copies s o <= k)%nat -> throw_step o k w = quiet (step o w).
  Proof.
    intros Hs Hw Hk.
    assert (Hlen : forall j v, w_vars w !! j = Some v ->
      N.to_nat (v_len v) = match s !! j with Some xs => length xs | None => O end).
    { intros j v Hv. destruct (Hw j v Hv) as [xs Hxs]. destruct (Hs j xs Hxs) as (v' & Hv' & Hl).
      assert (v' = v) as -> by congruence. rewrite Hxs, Hl. unfold nlen. lia. }
    destruct o; simpl in Hk |- *; try done.
    - eapply (t_mk_like _ i al _ (fun v => assign_fill_m sz v n (ret x))); [apply like_assign_fill|done].
    - eapply (t_mk_like _ i al _ (fun v => assign_fill_m sz v n (ret dflt))); [apply like_assign_fill|done].
    - eapply (t_mk_like _ i al _ _ _ _ (like_new_list sz xs)). done.
    - eapply (t_mk_like _ i al _ _ _ _ (like_new_range sz xs)). done.
    - eapply (t_mk_like _ i 0 _ _ _ _ (like_from_iter sz xs)). done.
    - unfold bind at 1, wget at 1. destruct (w_vars w !! j) as [r|] eqn:Hj; [|done].
      rewrite <-(Hlen j r Hj) in Hk. eapply (t_mk_like _ i 0 _ _ _ _ (like_copy_impl sz r)). done.
    - unfold bind at 1, wget at 1. destruct (w_vars w !! j) as [r|] eqn:Hj; [|done].
      rewrite <-(Hlen j r Hj) in Hk. eapply (t_mk_like _ i al _ _ _ _ (like_copy_impl sz r)). done.
    - unfold t_upd, bind, wget, lift, wset, ret. destruct (w_vars w !! i) as [v|] eqn:Hi.
      2:{ by destruct (w_vars w !! j). }
      destruct (w_vars w !! j) as [r|] eqn:Hj; [|done]. rewrite <-(Hlen j r Hj) in Hk.
      destruct (Nat.eqb i j).
      + unfold tret. simpl. rewrite (insert_id _ _ _ Hi). by destruct w.
      + rewrite (nothrow_copy_assign sz r v _ k Hk). by destruct (copy_assign sz v r (w_heap w)) as [[? ?]|].
    - apply (t_upd_like (N.to_nat n)). intros v h _. by apply (like_assign_fill sz n x).
    - apply (t_upd_like (length xs)). intros v h _. by apply (like_assign_list sz xs).
    - apply (t_upd_like 1). intros v h _. by apply (like_push sz x).
    - by eapply t_upd_like_o; [apply like_emplace_back|].
    - unfold t_upd, upd1, bind, wget, lift, wset, ret. destruct (w_vars w !! i) as [v|] eqn:Hi; [|done].
      rewrite <-(Hlen i v Hi) in Hk. rewrite nothrow_resize by (unfold resize_copies; lia).
      unfold ret. by destruct (resize_m sz v n _ (w_heap w)) as [[? ?]|].
    - unfold t_upd, upd1, bind, wget, lift, wset, ret. destruct (w_vars w !! i) as [v|] eqn:Hi; [|done].
      rewrite <-(Hlen i v Hi) in Hk. rewrite nothrow_resize by (unfold resize_copies; lia).
      unfold ret. by destruct (resize_m sz v n _ (w_heap w)) as [[? ?]|].
    - unfold t_upd, upd1, bind, wget, lift, wset, ret. destruct (w_vars w !! i) as [v|]; [|done].
      rewrite (like_insert1 sz p x) by done. unfold insert1, bind, ret.
      by destruct (emplace sz v p x (w_heap w)) as [[? ?]|].
    - by eapply t_upd_like_o; [apply like_insert1|].
    - by eapply t_upd_like_o; [apply like_insert_fill|].
    - by eapply t_upd_like_o; [apply like_insert_range|].
  Qed.
End Step.

Section Props.
  Context {A : Type} (dflt : A) (eqb : A -> A -> bool) (cmp : A -> A -> comparison).
  Context (sz lmax : N) (Hsz : 1 <= sz) (Hlim : sz * (2 * lmax + 2) <= alloc_max).
  Notation wld := (world (block A) vec).
  Notation good := (good dflt eqb cmp lmax).
  Notation vrun := (vec_run sz dflt eqb cmp).
  Notation step := (vec_step sz dflt eqb cmp).
  Notation tstep := (throw_step sz dflt eqb cmp).
  Notation vrep := (@VecProofs.vrep A sz lmax).
  Notation wok := (world_ok (@VecProofs.vrep A sz lmax)).

  (** Iterating over variable [j] yields [ys]. *)
  Definition holds (w : wld) (j : nat) (ys : list A) : Prop :=
    exists v, w_vars w !! j = Some v /\ collect v (w_heap w) = Ok (ys, w_heap w).
  Definition others (s : gmap nat (list A)) (i : nat) (w : wld) : Prop :=
    forall j ys, j <> i -> s !! j = Some ys -> holds w j ys.
  (** Variable [i] shows [os], and destroying it is undefined. *)
  Definition broken (s : gmap nat (list A)) (i : nat) (os : list (option A)) (w : wld) : Prop :=
    (exists v, w_vars w !! i = Some v /\ shows v (w_heap w) os) /\
    step (VDestroy i) w = Err UB /\ step (VClear i) w = Err UB /\ others s i w.
  (** From here on every history behaves as from the contents [s]. *)
  Definition usable (s : gmap nat (list A)) (w : wld) : Prop :=
    forall ops s' outs, spec_run (vspec_step dflt eqb cmp) s ops = Some (s', outs) ->
      along (vspec_step dflt eqb cmp) (hist_ok lmax) s ops ->
      exists w', run_ops step ops w = Ok (outs, w') /\ wok w' s'.

  Lemma keeps_others w s m i e h' v' fp' :
    world_ok_with vrep w s m -> m !! i = Some e -> upd (w_heap w) h' (e_fp e) fp' ->
    others s i (World h' (<[i := v']> (w_vars w))).
  Proof using Type. clear Hsz Hlim.
    intros Hw Hi Hu j ys Hij Hj.
    destruct (world_ok_lookup_spec _ _ _ _ _ _ Hw Hj) as (f & Hf & Hs & Hv & Hr).
    exists (e_o f). simpl. rewrite lookup_insert_ne by done. split; [done|].
    eapply (collect_ok sz lmax). eapply vrep_other; [by eapply wo_wf|exact Hr| |exact Hu].
    intros a Ha Ha'. by eapply (wo_disj _ _ _ _ Hw i j).
  Qed.

  Lemma destroy_fails i w v e : w_vars w !! i = Some v -> clear sz v (w_heap w) = Err e ->
    step (VDestroy i) w = Err e /\ step (VClear i) w = Err e.
  Proof using Type. clear Hsz Hlim.
    intros Hv E. unfold vec_step, upd1, bind, wget, lift. rewrite Hv, E. done.
  Qed.

  Theorem C66_no_throw ops s outs o k :
    good ops s outs -> (copies s o <= k)%nat ->
    exists w, vrun ops = Ok (outs, w) /\ tstep o k w = quiet (step o w).
  Proof using Hsz Hlim.
    intros Hg Hk. destruct (good_run sz lmax dflt eqb cmp Hsz Hlim _ _ _ Hg) as (w & E & m & Hw).
    exists w. split; [done|]. apply (no_throw sz dflt eqb cmp s); [| |done].
    - intros j xs Hj. destruct (world_ok_lookup_spec _ _ _ _ _ _ Hw Hj) as (e & _ & _ & Hv & Hr).
      exists (e_o e). split; [done|]. apply Hr.
    - intros j v Hv. destruct (world_ok_lookup _ _ _ _ _ _ Hw Hv) as (e & _ & _ & Hj). eauto.
  Qed.

  (** Operations that end in push_back: what is kept and what is appended. *)
  Inductive appending (i : nat) (xs : list A) : vop A -> list A -> list A -> Prop :=
  | App_push x : appending i xs (VPush i x) xs [x]
  | App_emplace x : appending i xs (VEmplaceBack i x) xs [x]
  | App_resize n x : nlen xs <= n -> appending i xs (VResizeVal i n x) xs (nrep (n - nlen xs) x)
  | App_resize0 n : nlen xs <= n -> appending i xs (VResize i n) xs (nrep (n - nlen xs) dflt)
  | App_fill n x : appending i xs (VAssignFill i n x) [] (nrep n x)
  | App_list ys : appending i xs (VAssignList i ys) [] ys.

  Theorem C66_append ops s outs i xs o keep add k :
    good ops s outs -> s !! i = Some xs -> appending i xs o keep add ->
    nlen keep + nlen add <= lmax -> (k < length add)%nat ->
    exists w w', vrun ops = Ok (outs, w) /\ tstep o k w = Ok (Threw, w') /\
      broken s i ((Some <$> keep ++ take k add) ++ [None]) w' /\ step (VPop i) w' = Err UB.
  Proof using Hsz Hlim.
    intros Hg Hi Ho Hl Hk.
    destruct (good_run sz lmax dflt eqb cmp Hsz Hlim _ _ _ Hg) as (w & E & m & Hw).
    destruct (world_ok_lookup_spec _ _ _ _ _ _ Hw Hi) as (e & He & _ & Hv & Hr).
    pose proof (wo_wf _ _ _ _ Hw) as Hwf.
    assert (exists v1 h1 fp1, tstep o k w = Ok (Threw, World h1 (<[i := set_len v1 (v_len v1 + 1)]> (w_vars w))) /\
      vrep h1 v1 (keep ++ take k add) fp1 /\ upd (w_heap w) h1 (e_fp e) fp1 /\ v_len v1 < v_cap v1)
      as (v1&h1&fp1&E1&Hr1&Hu1&Hlt).
    { destruct Ho as [x|x|n x Hn|n Hn|n x|ys]; unfold throw_step, t_upd; rewrite Hv.
      - simpl in Hk. assert (k = O) as -> by lia.
        destruct (push_throw sz lmax Hsz Hlim _ _ _ _ x Hwf Hr) as (v1&h1&fp1&E1&H); [done|].
        exists v1, h1, fp1. rewrite E1. simpl. by rewrite app_nil_r.
      - simpl in Hk. assert (k = O) as -> by lia.
        destruct (push_throw sz lmax Hsz Hlim _ _ _ _ x Hwf Hr) as (v1&h1&fp1&E1&H); [done|].
        exists v1, h1, fp1. rewrite (tbind_threw _ _ _ _ E1). simpl. by rewrite app_nil_r.
      - unfold nrep, nlen in *. rewrite replicate_length in *.
        destruct (resize_throw sz lmax Hsz Hlim _ _ _ _ n x k Hwf Hr) as (v1&h1&fp1&E1&H);
          [lia|unfold nlen; lia|].
        exists v1, h1, fp1. rewrite E1. simpl. rewrite take_replicate, Nat.min_l by lia. done.
      - unfold nrep, nlen in *. rewrite replicate_length in *.
        destruct (resize_throw sz lmax Hsz Hlim _ _ _ _ n dflt k Hwf Hr) as (v1&h1&fp1&E1&H);
          [lia|unfold nlen; lia|].
        exists v1, h1, fp1. rewrite E1. simpl. rewrite take_replicate, Nat.min_l by lia. done.
      - change (nlen (@nil A)) with 0 in Hl.
        destruct (assign_list_throw sz lmax Hsz Hlim _ _ _ _ (nrep n x) k Hwf Hr) as (v1&h1&fp1&E1&H); [lia|done|].
        exists v1, h1, fp1. rewrite assign_fill_list. unfold nrep in E1. rewrite E1. done.
      - change (nlen (@nil A)) with 0 in Hl.
        destruct (assign_list_throw sz lmax Hsz Hlim _ _ _ _ ys k Hwf Hr) as (v1&h1&fp1&E1&H); [lia|done|].
        exists v1, h1, fp1. rewrite E1. done. }
    exists w, (World h1 (<[i := set_len v1 (v_len v1 + 1)]> (w_vars w))).
    split; [done|]. split; [done|].
    destruct (over_shows sz lmax Hsz Hlim h1 v1 _ _ Hr1 Hlt) as (Hs & Hc & Hp).
    assert (Hi' : w_vars (World h1 (<[i := set_len v1 (v_len v1 + 1)]> (w_vars w))) !! i =
      Some (set_len v1 (v_len v1 + 1))) by apply lookup_insert.
    split; [split; [eauto|]|].
    - destruct (destroy_fails _ _ _ _ Hi' Hc). split; [done|]. split; [done|]. by eapply keeps_others.
    - unfold vec_step, upd1, bind, wget, lift. rewrite Hi'. cbn [w_heap]. by rewrite Hp.
  Qed.

  (** insert of several elements: the gap is counted before it is filled. *)
  Theorem C66_insert_many ops s outs i xs p o ys out k :
    good ops s outs -> s !! i = Some xs -> insertion i p o ys out ->
    (forall x, o <> VInsert i p x) -> (forall x, o <> VEmplace i p x) ->
    1 <= p <= nlen xs -> nlen xs + nlen ys <= lmax -> (k < length ys)%nat ->
    exists w w', vrun ops = Ok (outs, w) /\ tstep o k w = Ok (Threw, w') /\
      broken s i ((Some <$> ntake p xs ++ take k ys) ++ replicate (length ys - k) None ++ (Some <$> ndrop p xs)) w'.
  Proof using Hsz Hlim.
    intros Hg Hi Ho Hno1 Hno2 Hp Hl Hk.
    destruct (good_run sz lmax dflt eqb cmp Hsz Hlim _ _ _ Hg) as (w & E & m & Hw).
    destruct (world_ok_lookup_spec _ _ _ _ _ _ Hw Hi) as (e & He & _ & Hv & Hr).
    pose proof (wo_wf _ _ _ _ Hw) as Hwf.
    rewrite <-(take_drop (N.to_nat p) xs) in Hr.
    assert (Hpl : nlen (take (N.to_nat p) xs) = p) by (unfold nlen in *; rewrite take_length; lia).
    assert (Hne : take (N.to_nat p) xs <> []).
    { intros Hx. rewrite Hx in Hpl. unfold nlen in Hpl. simpl in Hpl. lia. }
    assert (exists v1 h1 fp1, tstep o k w = Ok (Threw, World h1 (<[i := v1]> (w_vars w))) /\
      upd (w_heap w) h1 (e_fp e) fp1 /\
      shows v1 h1 ((Some <$> ntake p xs ++ take k ys) ++ replicate (length ys - k) None ++ (Some <$> ndrop p xs)) /\
      clear sz v1 h1 = Err UB) as (v1&h1&fp1&E1&Hu1&Hs&Hc).
    { destruct Ho as [x|x|n x|ys]; [by destruct (Hno1 x)|by destruct (Hno2 x)| |];
        unfold throw_step, t_upd; rewrite Hv.
      - unfold nrep, nlen in Hk, Hl. rewrite replicate_length in Hk, Hl.
        destruct (insert_fill_throw sz lmax Hsz Hlim _ _ _ _ _ n x k Hwf Hr Hne) as (v1&h1&a&E1&Hu&Hs&Hc).
        { rewrite take_drop. unfold nlen. lia. } { done. }
        exists v1, h1, [a]. rewrite Hpl in E1. rewrite E1. split; [done|]. split; [done|].
        unfold nrep. rewrite replicate_length, take_replicate, Nat.min_l by lia. done.
      - destruct (insert_range_throw sz lmax Hsz Hlim _ _ _ _ _ ys k Hwf Hr Hne) as (v1&h1&a&E1&Hu&Hs&Hc).
        { rewrite take_drop. done. } { done. }
        exists v1, h1, [a]. rewrite Hpl in E1. rewrite E1. done. }
    exists w, (World h1 (<[i := v1]> (w_vars w))). split; [done|]. split; [done|].
    assert (Hi' : w_vars (World h1 (<[i := v1]> (w_vars w))) !! i = Some v1) by apply lookup_insert.
    destruct (destroy_fails _ _ _ _ Hi' Hc). split; [eauto|]. split; [done|]. split; [done|].
    by eapply keeps_others.
  Qed.

  (** insert and emplace of one element: the strong guarantee. *)
  Theorem C66_insert_one_partial ops s outs i xs p o x :
    good ops s outs -> s !! i = Some xs -> o = VInsert i p x \/ o = VEmplace i p x ->
    exists w, vrun ops = Ok (outs, w) /\ tstep o 0 w = Ok (Threw, w) /\ usable s w.
  Proof using Hsz Hlim.
    intros Hg Hi Ho.
    destruct (good_run sz lmax dflt eqb cmp Hsz Hlim _ _ _ Hg) as (w & E & Hw).
    pose proof Hw as [m Hm]. destruct (world_ok_lookup_spec _ _ _ _ _ _ Hm Hi) as (e & He & _ & Hv & Hr).
    exists w. split; [done|]. split.
    - assert (World (w_heap w) (<[i := e_o e]> (w_vars w)) = w) as Hsame.
      { rewrite (insert_id _ _ _ Hv). by destruct w. }
      rewrite <-Hsame at 2. destruct Ho as [-> | ->]; unfold throw_step, t_upd; by rewrite Hv.
    - intros ops2 s2 outs2 E2 Ha. eapply vec_history_gen; try done. by eapply good_within.
  Qed.

  (** Copy assignment. *)
  Theorem C66_copy_assign_partial ops s outs i j xs ys k :
    good ops s outs -> s !! i = Some xs -> s !! j = Some ys -> i <> j -> (k < length ys)%nat ->
    exists w v r w' v', vrun ops = Ok (outs, w) /\ w_vars w !! i = Some v /\ w_vars w !! j = Some r /\
      tstep (VCopyAsg i j) k w = Ok (Threw, w') /\ w_vars w' !! i = Some v' /\ others s i w' /\
      (v_alloc v = v_alloc r -> (k < length xs)%nat -> usable (<[i := take k ys ++ drop k xs]> s) w') /\
      (v_alloc v = v_alloc r -> k = length xs -> usable (<[i := take k ys]> s) w') /\
      (v_alloc v = v_alloc r -> (length xs < k)%nat ->
         holds w' i (take (length xs) ys) /\ step (VDestroy i) w' = Err Leak) /\
      (v_alloc v <> v_alloc r -> broken s i ((Some <$> take k ys) ++ replicate (length ys - k) None) w').
  Proof using Hsz Hlim.
    intros Hg Hi Hj Hij Hk.
    destruct (good_run sz lmax dflt eqb cmp Hsz Hlim _ _ _ Hg) as (w & E & m & Hw).
    destruct (world_ok_lookup_spec _ _ _ _ _ _ Hw Hi) as (e & He & _ & Hv & Hr).
    destruct (world_ok_lookup_spec _ _ _ _ _ _ Hw Hj) as (f & Hf & _ & Hvj & Hrj).
    pose proof (wo_wf _ _ _ _ Hw) as Hwf.
    assert (Hd : forall a, a ∈ e_fp e -> a ∈ e_fp f -> False).
    { intros a Ha Ha'. by eapply (wo_disj _ _ _ _ Hw i j). }
    assert (Hwi : within lmax s) by by eapply good_within.
    assert (Hn : nlen ys <= lmax) by by eapply Hwi.
    assert (Huse : forall v' h' fp' zs, upd (w_heap w) h' (e_fp e) fp' -> vrep h' v' zs fp' -> nlen zs <= lmax ->
      usable (<[i := zs]> s) (World h' (<[i := v']> (w_vars w)))).
    { intros v' h' fp' zs Hu Hz Hzl ops2 s2 outs2 E2 Ha.
      eapply vec_history_gen; [done|done| | |exact E2|exact Ha].
      - eexists. eapply world_upd1; [apply vrep_frame|apply vrep_dom|exact Hw|exact He|exact Hu|exact Hz].
      - by apply within_insert. }
    assert (Hstep : forall v' h', t_copy_assign sz (e_o f) (Tst (e_o e) (w_heap w) k) = Ok (Threw, Tst v' h' 0) ->
      tstep (VCopyAsg i j) k w = Ok (Threw, World h' (<[i := v']> (w_vars w)))).
    { intros v' h' Et. unfold throw_step, t_upd. rewrite Hvj, Hv.
      rewrite (proj2 (Nat.eqb_neq _ _) Hij). by rewrite Et. }
    exists w, (e_o e), (e_o f).
    destruct (N.eq_dec (v_alloc (e_o e)) (v_alloc (e_o f))) as [Hal|Hal].
    2:{ destruct (copy_assign_other sz lmax Hsz Hlim _ _ _ _ _ _ _ k Hwf Hr Hrj Hd Hal Hn Hk)
          as (v'&h'&fp'&Et&Hu&Hs&Hc).
        exists (World h' (<[i := v']> (w_vars w))), v'. split; [done|]. split; [done|]. split; [done|].
        split; [by apply Hstep|].
        assert (Hi' : w_vars (World h' (<[i := v']> (w_vars w))) !! i = Some v') by apply lookup_insert.
        split; [done|]. assert (Hoth := keeps_others _ _ _ _ _ _ v' _ Hw He Hu). split; [done|].
        split; [done|]. split; [done|]. split; [done|]. intros _.
        destruct (destroy_fails _ _ _ _ Hi' Hc). split; [eauto|]. done. }
    destruct (Nat.lt_ge_cases k (length xs)) as [Hkx|Hkx].
    - destruct (copy_assign_early sz lmax Hsz Hlim _ _ _ _ _ _ _ k Hwf Hr Hrj Hd Hal Hkx Hk)
        as (v'&h'&fp'&Et&Hr'&Hu).
      exists (World h' (<[i := v']> (w_vars w))), v'. split; [done|]. split; [done|]. split; [done|].
      split; [by apply Hstep|]. split; [apply lookup_insert|].
      split; [by eapply keeps_others|]. split.
      + intros _ _. eapply Huse; [exact Hu|exact Hr'|]. assert (nlen xs <= lmax) by by eapply Hwi.
        rewrite nlen_app. unfold nlen in *. rewrite take_length, drop_length. lia.
      + split; [intros _ Hx; lia|]. split; [intros _ Hx; lia|]. by intros.
    - destruct (copy_assign_late sz lmax Hsz Hlim _ _ _ _ _ _ _ k Hwf Hr Hrj Hd Hal Hkx Hk)
        as (v'&h'&fp'&Et&Hu&Hcol&Heq&Hlk).
      exists (World h' (<[i := v']> (w_vars w))), v'. split; [done|]. split; [done|]. split; [done|].
      split; [by apply Hstep|]. split; [apply lookup_insert|].
      split; [by eapply keeps_others|]. split; [intros _ Hx; lia|]. split; [|split; [|by intros]].
      + intros _ Hx. eapply Huse; [exact Hu|by apply Heq|]. unfold nlen in *. rewrite take_length. lia.
      + intros _ Hx. split.
        * exists v'. split; [apply lookup_insert|done].
        * eapply destroy_fails; [apply lookup_insert|by apply Hlk].
  Qed.

  (** Constructors: the object never comes into being, its buffer stays. *)
  Inductive building (s : gmap nat (list A)) (i : nat) : vop A -> list A -> Prop :=
  | Bld_fill al n x : building s i (VNewFill i al n x) (nrep n x)
  | Bld_count al n : building s i (VNewCount i al n) (nrep n dflt)
  | Bld_list al ys : building s i (VNewList i al ys) ys
  | Bld_range al ys : building s i (VNewRange i al ys) ys
  | Bld_copy j ys : s !! j = Some ys -> building s i (VNewCopy i j) ys
  | Bld_copy_al j al ys : s !! j = Some ys -> building s i (VNewCopyAl i j al) ys.

  Theorem C66_constructor ops s outs i o ys k :
    good ops s outs -> s !! i = None -> building s i o ys -> nlen ys <= lmax -> (k < length ys)%nat ->
    exists w w', vrun ops = Ok (outs, w) /\ tstep o k w = Ok (Threw, w') /\
      w_vars w' = w_vars w /\ leaks (w_heap w) (w_heap w') (take k ys).
  Proof using Hsz Hlim.
    intros Hg Hi Ho Hl Hk.
    destruct (good_run sz lmax dflt eqb cmp Hsz Hlim _ _ _ Hg) as (w & E & m & Hw).
    destruct (world_ok_none _ _ _ _ _ Hw Hi) as [_ Hv].
    pose proof (wo_wf _ _ _ _ Hw) as Hwf. exists w.
    assert (exists al t v' h', tstep o k w = t_mk i al t k w /\
      t (Tst (Vec 0 0 None al) (w_heap w) k) = Ok (Threw, Tst v' h' 0) /\
      leaks (w_heap w) h' (take k ys)) as (al&t&v'&h'&Et&E'&Hlk).
    { destruct Ho as [al n x|al n|al ys|al ys|j ys Hj|j al ys Hj]; simpl.
      - unfold nrep, nlen in *. rewrite replicate_length in *.
        destruct (new_fill_throw sz lmax Hsz Hlim _ al n x k Hwf) as (v'&h'&E'&Hlk); [lia|done|].
        exists al, (t_new_fill sz n x), v', h'. rewrite take_replicate, Nat.min_l by lia. done.
      - unfold nrep, nlen in *. rewrite replicate_length in *.
        destruct (new_fill_throw sz lmax Hsz Hlim _ al n dflt k Hwf) as (v'&h'&E'&Hlk); [lia|done|].
        exists al, (t_new_fill sz n dflt), v', h'. rewrite take_replicate, Nat.min_l by lia. done.
      - destruct (new_list_throw sz lmax Hsz Hlim _ al ys k Hwf Hl Hk) as (v'&h'&E'&Hlk).
        by exists al, (t_new_list sz ys), v', h'.
      - destruct (new_range_throw sz lmax Hsz Hlim _ al ys k Hwf Hl Hk) as (v'&h'&E'&Hlk).
        by exists al, (t_new_range sz ys), v', h'.
      - destruct (world_ok_lookup_spec _ _ _ _ _ _ Hw Hj) as (f & Hf & _ & Hvj & Hrj).
        destruct (new_copy_throw sz lmax Hsz Hlim _ 0 _ ys _ k Hwf Hrj Hl Hk) as (v'&h'&E'&Hlk).
        exists 0, (t_copy_impl sz (e_o f)), v', h'. by rewrite Hvj.
      - destruct (world_ok_lookup_spec _ _ _ _ _ _ Hw Hj) as (f & Hf & _ & Hvj & Hrj).
        destruct (new_copy_throw sz lmax Hsz Hlim _ al _ ys _ k Hwf Hrj Hl Hk) as (v'&h'&E'&Hlk).
        exists al, (t_copy_impl sz (e_o f)), v', h'. by rewrite Hvj. }
    exists (World h' (w_vars w)). split; [done|]. split; [|done].
    rewrite Et. unfold t_mk. by rewrite Hv, E'.
  Qed.

  (** from_iter: the local vector is destroyed on the way out. *)
  Theorem C66_from_iter ops s outs i ys k :
    good ops s outs -> s !! i = None -> nlen ys <= lmax -> (k < length ys)%nat ->
    exists w, vrun ops = Ok (outs, w) /\ tstep (VFromIter i ys) k w = Err UB.
  Proof using Hsz Hlim.
    intros Hg Hi Hl Hk.
    destruct (good_run sz lmax dflt eqb cmp Hsz Hlim _ _ _ Hg) as (w & E & m & Hw).
    destruct (world_ok_none _ _ _ _ _ Hw Hi) as [_ Hv]. exists w. split; [done|].
    unfold throw_step, t_mk. rewrite Hv.
    by rewrite (from_iter_throw sz lmax Hsz Hlim _ ys k (wo_wf _ _ _ _ Hw) Hl Hk).
  Qed.
End Props.

(** ** The guarantee one would expect, and that it fails *)
Notation Ntstep := (throw_step 8 (0 : N) N.eqb N.compare).
Notation Nvstep := (vec_step 8 (0 : N) N.eqb N.compare).
Definition Nafter (ops : list (vop N)) (o : vop N) (k : nat) : outcome (tres (vout N) * world (block N) vec) :=
  match Nrun ops with Ok (_, w) => Ntstep o k w | Err e => Err e end.
(** The basic guarantee: whatever a throwing operation leaves behind can be
    destroyed, and destroying all of it leaves nothing allocated. *)
Definition tidy (w : world (block N) vec) : bool :=
  match run_ops Nvstep (VDestroy <$> (map_to_list (w_vars w)).*1) w with
  | Ok (_, w2) => match map_to_list (hmap (w_heap w2)) with [] => true | _ => false end
  | Err _ => false
  end.
Definition throw_claim : Prop := forall ops o k s outs w,
  Ngood (ops ++ [o]) s outs -> Nafter ops o k = Ok (Threw, w) -> tidy w = true.
Theorem C66_refuted : ~ throw_claim.
Proof.
  intros H.
  destruct (Nafter [VNewList 0%nat 0 [1;2]] (VPush 0%nat 3) 0) as [[[] w]|] eqn:E; try (vm_compute in E; discriminate E).
  assert (tidy w = true) as Hw.
  { eapply (H [VNewList 0%nat 0 [1;2]] (VPush 0%nat 3) 0%nat _ _ w); [|exact E].
    apply goodb_ok. by vm_compute. }
  vm_compute in E. injection E as <-. vm_compute in Hw. discriminate Hw.
Qed.
(** Every way it fails, each after the same well-behaved start. *)
Definition ex_start : list (vop N) := [VNewList 0%nat 0 [5;0;6]; VNewList 1%nat 0 [7;8;9;4;2]; VNewList 2%nat 1 [3]].
Definition verdict (o : vop N) (k : nat) : option bool :=
  match Nafter ex_start o k with Ok (Threw, w) => Some (tidy w) | _ => None end.
Theorem C66_refuted_cases :
  Forall (fun '(o, k) => goodb (0 : N) N.eqb N.compare 100 ∅ (ex_start ++ [o]) = true /\ verdict o k = Some false)
    [ (VPush 0%nat 1, 0%nat); (VEmplaceBack 0%nat 1, 0%nat); (VResizeVal 0%nat 6 1, 2%nat); (VResize 0%nat 6, 0%nat);
      (VAssignFill 0%nat 4 1, 3%nat); (VAssignList 0%nat [1;2], 1%nat);
      (VInsertFill 0%nat 1 3 1, 1%nat); (VInsertRange 0%nat 3 [1;1], 0%nat);
      (VCopyAsg 0%nat 1%nat, 4%nat); (VCopyAsg 2%nat 1%nat, 2%nat);
      (VNewFill 3%nat 0 4 1, 2%nat); (VNewCount 3%nat 0 4, 0%nat); (VNewList 3%nat 0 [1;2], 1%nat);
      (VNewRange 3%nat 0 [1;2], 1%nat); (VNewCopy 3%nat 1%nat, 3%nat); (VNewCopyAl 3%nat 1%nat 5, 0%nat) ] /\
  Nafter ex_start (VFromIter 3%nat [1;2;3]) 1 = Err UB.
Proof. split; [|by vm_compute]. repeat (constructor; [by vm_compute|]). constructor. Qed.
(** Where it holds. *)
Example C66_kept_cases :
  Forall (fun '(o, k) => verdict o k = Some true)
    [ (VInsert 0%nat 1 4, 0%nat); (VEmplace 0%nat 3 4, 0%nat); (VCopyAsg 0%nat 1%nat, 0%nat);
      (VCopyAsg 0%nat 1%nat, 2%nat); (VCopyAsg 0%nat 1%nat, 3%nat); (VCopyAsg 1%nat 0%nat, 2%nat) ].
Proof. repeat (constructor; [by vm_compute|]). constructor. Qed.

(** The hypotheses are met by the example history. *)
Example C66_append_ex : exists xs, Ngood ex_ops (Nend ex_ops) (Nouts ex_ops) /\ Nend ex_ops !! 0%nat = Some xs /\
  appending (0 : N) 0%nat xs (VResizeVal 0%nat 10 4) xs [4;4;4] /\ nlen xs + nlen [4;4;4] <= 100 /\
  appending (0 : N) 0%nat xs (VAssignList 0%nat [9;9]) [] [9;9].
Proof.
  exists [5;0;6;6;8;1;0]. split; [exact ex_good|]. split; [by vm_compute|].
  split; [by apply (App_resize (0 : N) 0%nat [5;0;6;6;8;1;0] 10 4)|]. split; [by vm_compute|constructor].
Qed.
Example C66_insert_ex : exists xs, Nend ex_ops !! 3%nat = Some xs /\
  insertion (A := N) 3%nat 2 (VInsertRange 3%nat 2 [1;2;3]) [1;2;3] (OIdx (Some 2)) /\
  1 <= 2 <= nlen xs /\ nlen xs + nlen [1;2;3] <= 100.
Proof. exists [5;6;6;2;8]. split; [by vm_compute|]. split; [constructor|]. by vm_compute. Qed.
Example C66_copy_ex : exists xs ys, Nend ex_ops !! 3%nat = Some xs /\ Nend ex_ops !! 0%nat = Some ys /\
  (length xs < 6 < length ys)%nat /\ copies (Nend ex_ops) (VCopyAsg 3%nat 0%nat) = 7%nat.
Proof. exists [5;6;6;2;8], [5;0;6;6;8;1;0]. split; [by vm_compute|]. split; [by vm_compute|]. split; [simpl; lia|by vm_compute]. Qed.
Example C66_ctor_ex : Nend ex_ops !! 7%nat = None /\
  building (0 : N) (Nend ex_ops) 7%nat (VNewCopy 7%nat 3%nat) [5;6;6;2;8].
Proof. split; [by vm_compute|]. constructor. by vm_compute. Qed.

Print Assumptions C66_no_throw.
Print Assumptions C66_append.
Print Assumptions C66_insert_many.
Print Assumptions C66_insert_one_partial.
Print Assumptions C66_copy_assign_partial.
Print Assumptions C66_constructor.
Print Assumptions C66_from_iter.
Print Assumptions C66_refuted.
Print Assumptions C66_refuted_cases.
