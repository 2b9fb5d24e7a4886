(** * VecModel: include/mstl/collection/vector.h and memory/allocators/allocator.h

    Every definition cites the lines it models.  All line numbers refer to
    include/mstl/collection/vector.h unless another file is named.

    Simplifications (all of them):
    - element copy/move/destroy operations are total and do not throw; an
      element is an abstract value [A], a moved-from element is the distinct
      cell state [Moved], and *reading* a moved-from element is reported as
      [UB] (stricter than C++, which only makes the value unspecified);
    - iterators are represented by the index [pos()] = [cur - beg] (985-987);
      arithmetic on an iterator that an earlier reallocation invalidated (as
      [emplace] does at 548) is taken to be well defined;
    - allocators are numbered; equal numbers compare equal, [A{}] is 0;
    - [::operator new] succeeds for every request up to [alloc_max] bytes,
      unless a [memory] other than [endless] is given (C70);
    - [MSTL_DEBUG_ASSERT] is off, as in a release build (global.h:12-22);
    - [constexpr] evaluation is not modelled. *)
From Verif Require Import Base.
Local Open Scope N_scope.

(** Storage for one element. *)
Inductive cell (A : Type) := Raw | Live (a : A) | Moved.
Global Arguments Raw {A}.
Global Arguments Live {A} _.
Global Arguments Moved {A}.

(** A block handed out by an allocator: who made it, how many bytes were asked
    for, and its element slots. *)
Record block (A : Type) := Blk {
  b_alloc : N;
  b_bytes : N;
  b_cells : list (cell A);
}.
Global Arguments Blk {A} _ _ _.
Global Arguments b_alloc {A} _.
Global Arguments b_bytes {A} _.
Global Arguments b_cells {A} _.

(** The data members of [Vector] (781-787); [None] is the null pointer. *)
Record vec := Vec {
  v_len : N;
  v_cap : N;
  v_ptr : option N;
  v_alloc : N;
}.

Section Vec.
  (** [sz] is [sizeof(T)], [dflt] is [T{}]. *)
  Context `{mem : memory} {A : Type} (sz : N) (dflt : A).

  Notation VM := (M (heap (block A))).

  (** ** Raw storage *)

  (** memory/allocators/allocator.h:23-42 [Allocator::allocate]:
      [::operator new(layout.size * length, nothrow)].  The product wraps, and
      a failed request yields null. *)
  Definition alloc_raw (al n : N) : VM (option N) :=
    let bytes := umul sz n in
    if bytes <=? alloc_max then
      hnew (Blk al bytes (replicate (N.to_nat (bytes / sz)) Raw))
    else ret None.

  Definition is_raw (c : cell A) : bool :=
    match c with Raw => true | _ => false end.

  (** memory/allocators/allocator.h:50-68 [Allocator::deallocate]: sized
      delete.  Deleting null is a no-op; a size or allocator that differs from
      the one used for allocation is UB; live elements in the block leak. *)
  Definition dealloc_raw (al : N) (p : option N) (n : N) : VM unit :=
    match p with
    | None => ret tt
    | Some a =>
        b <-- hread a ;;
        if negb (b_alloc b =? al) then fail UB
        else if negb (b_bytes b =? umul n sz) then fail UB
        else if negb (forallb is_raw (b_cells b)) then fail Leak
        else hfree a
    end.

  (** The slot [beginPtr + i]; null, dangling or out of bounds is UB. *)
  Definition slot (p : option N) (i : N) : VM (N * block A * cell A) :=
    match p with
    | None => fail UB
    | Some a =>
        b <-- hread a ;;
        match nlookup (b_cells b) i with
        | None => fail UB
        | Some c => ret (a, b, c)
        end
    end.

  Definition set_slot (a : N) (b : block A) (i : N) (c : cell A) : VM unit :=
    hwrite a (Blk (b_alloc b) (b_bytes b) (ninsert (b_cells b) i c)).

  (** Reading the element at [p + i] (lvalue-to-rvalue / copy source). *)
  Definition vread (p : option N) (i : N) : VM A :=
    '(_, _, c) <-- slot p i ;;
    match c with Live x => ret x | _ => fail UB end.

  (** 818-821 [construct_at]: only legal on raw storage. *)
  Definition vconstruct (p : option N) (i : N) (x : A) : VM unit :=
    '(a, b, c) <-- slot p i ;;
    match c with Raw => set_slot a b i (Live x) | _ => fail UB end.

  (** 823-825 [destroy_at]. *)
  Definition vdestroy (p : option N) (i : N) : VM unit :=
    '(a, b, c) <-- slot p i ;;
    match c with Raw => fail UB | _ => set_slot a b i Raw end.

  (** [std::move(p[i])] used to construct or assign another element: the
      source stays alive but moved-from.  Counted by the ghost counter. *)
  Definition vmove (p : option N) (i : N) : VM A :=
    '(a, b, c) <-- slot p i ;;
    match c with
    | Live x => set_slot a b i Moved ;;; htick ;;; ret x
    | _ => fail UB
    end.

  (** Assignment to an existing element [p[i] = x]. *)
  Definition vassign (p : option N) (i : N) (x : A) : VM unit :=
    '(a, b, c) <-- slot p i ;;
    match c with Raw => fail UB | _ => set_slot a b i (Live x) end.

  (** ** Private helpers *)

  (** 887-892 [destroy_all]. *)
  Definition destroy_all (v : vec) : VM vec :=
    for_up (N.to_nat (v_len v)) 0 (vdestroy (v_ptr v)) ;;;
    ret (Vec 0 (v_cap v) (v_ptr v) (v_alloc v)).

  (** 791-795 [deallocate]. *)
  Definition deallocate (v : vec) : VM vec :=
    dealloc_raw (v_alloc v) (v_ptr v) (v_cap v) ;;;
    ret (Vec 0 0 None (v_alloc v)).

  (** 522-525 [clear]. *)
  Definition clear (v : vec) : VM vec :=
    v1 <-- destroy_all v ;; deallocate v1.

  (** 798-803 [allocate]. *)
  Definition allocate (v : vec) (size : N) : VM vec :=
    p <-- alloc_raw (v_alloc v) size ;;
    ret (Vec 0 size p (v_alloc v)).

  (** 805-816 [allocate_reserve]. *)
  Definition allocate_reserve (v : vec) (size : N) : VM vec :=
    nArr <-- alloc_raw (v_alloc v) size ;;
    for_up (N.to_nat (v_len v)) 0
      (fun i => x <-- vmove (v_ptr v) i ;; vconstruct nArr i x) ;;;
    v1 <-- clear v ;;
    ret (Vec (v_len v) size nArr (v_alloc v1)).

  (** 495-499 [reserve]. *)
  Definition reserve (v : vec) (newCap : N) : VM vec :=
    if v_cap v <? newCap then allocate_reserve v newCap else ret v.

  (** 877-885 [extend_space]. *)
  Definition extend_space (v : vec) : VM vec :=
    reserve v (if v_cap v =? 0 then 2 else umul 2 (v_cap v)).

  Definition set_len (v : vec) (l : N) : vec :=
    Vec l (v_cap v) (v_ptr v) (v_alloc v).

  (** ** Modifiers at the end *)

  (** 674-691 [push_back] and 697-704 [emplace_back].  [rd] evaluates the
      argument at the moment the element is constructed: [ret x] for an
      argument living outside the vector, a read of a slot for a reference to
      an element (property C13). *)
  Definition push_back_m (v : vec) (rd : VM A) : VM vec :=
    v1 <-- (if v_cap v <=? v_len v then extend_space v else ret v) ;;
    x <-- rd ;;
    vconstruct (v_ptr v1) (v_len v1) x ;;;
    ret (set_len v1 (uadd (v_len v1) 1)).
  Definition push_back (v : vec) (x : A) : VM vec := push_back_m v (ret x).

  (** 697-704 [emplace_back]: returns a reference to the new last element;
      the model returns its value as well. *)
  Definition emplace_back (v : vec) (x : A) : VM (vec * A) :=
    v1 <-- push_back v x ;;
    y <-- vread (v_ptr v1) (usub (v_len v1) 1) ;;
    ret (v1, y).

  (** 757-760 [pop_back]. *)
  Definition pop_back (v : vec) : VM vec :=
    vdestroy (v_ptr v) (usub (v_len v) 1) ;;;
    ret (set_len v (usub (v_len v) 1)).

  (** 711-752 [resize]: [rd] as in [push_back_m]; [resize(count)] is
      [resize_m] with [ret dflt] (it calls [emplace_back()]). *)
  Definition resize_m (v : vec) (count : N) (rd : VM A) : VM vec :=
    if count <? v_len v then
      repeat_m (N.to_nat (v_len v - count)) pop_back v
    else if v_len v <? count then
      v1 <-- (if v_cap v <? count then reserve v count else ret v) ;;
      repeat_m (N.to_nat (count - v_len v)) (fun u => push_back_m u rd) v1
    else ret v.

  (** 216-224 [assign(count, val)]. *)
  Definition assign_fill_m (v : vec) (count : N) (rd : VM A) : VM vec :=
    v1 <-- destroy_all v ;;
    v2 <-- reserve v1 count ;;
    repeat_m (N.to_nat count) (fun u => push_back_m u rd) v2.

  Fixpoint push_all (xs : list A) (v : vec) : VM vec :=
    match xs with
    | [] => ret v
    | x :: r => v1 <-- push_back v x ;; push_all r v1
    end.

  (** 226-234 [assign(initializer_list)]. *)
  Definition assign_list (v : vec) (xs : list A) : VM vec :=
    v1 <-- destroy_all v ;;
    v2 <-- reserve v1 (N.of_nat (length xs)) ;;
    push_all xs v2.

  (** ** Construction *)

  Fixpoint construct_all (p : option N) (i : N) (xs : list A) : VM unit :=
    match xs with
    | [] => ret tt
    | x :: r => vconstruct p i x ;;; construct_all p (i + 1) r
    end.

  (** 847-857 [copy_impl(initializer_list)]; 69-71 the constructor. *)
  Definition new_list (al : N) (xs : list A) : VM vec :=
    v <-- allocate (Vec 0 0 None al) (N.of_nat (length xs)) ;;
    construct_all (v_ptr v) 0 xs ;;;
    ret (set_len v (N.of_nat (length xs))).

  (** 73-75 [Vector()]. *)
  Definition new_default : VM vec := allocate (Vec 0 0 None 0) 2.

  (** 77-79 [Vector(const A&)]. *)
  Definition new_alloc (al : N) : VM vec := ret (Vec 0 0 None al).

  (** 81-85 [Vector(count, val, allocator)] ([Vector(count)] passes [{}]). *)
  Definition new_fill (al n : N) (x : A) : VM vec :=
    assign_fill_m (Vec 0 0 None al) n (ret x).

  (** 103-111 [Vector(first, last, alloc)] over a range of [xs]. *)
  Fixpoint construct_back (v : vec) (xs : list A) : VM vec :=
    match xs with
    | [] => ret v
    | x :: r => vconstruct (v_ptr v) (v_len v) x ;;;
                construct_back (set_len v (uadd (v_len v) 1)) r
    end.
  Definition new_range (al : N) (xs : list A) : VM vec :=
    v <-- allocate (Vec 0 0 None al) (N.of_nat (length xs)) ;;
    construct_back v xs.

  (** 838-845 [copy_impl(const Vector&)]; 87-93 the copy constructors ([alloc{}]
      in the first, i.e. the allocator is not propagated). *)
  Definition copy_impl (v r : vec) : VM vec :=
    v1 <-- allocate v (v_len r) ;;
    for_up (N.to_nat (v_len r)) 0
      (fun i => x <-- vread (v_ptr r) i ;; vconstruct (v_ptr v1) i x) ;;;
    ret (set_len v1 (v_len r)).
  Definition new_copy (al : N) (r : vec) : VM vec := copy_impl (Vec 0 0 None al) r.

  (** 827-836 [move_impl]: the new value of [*this] and what is left of [r].
      The allocator is taken from [r] as well. *)
  Definition move_impl (r : vec) : vec * vec :=
    (Vec (v_len r) (v_cap r) (v_ptr r) (v_alloc r), Vec 0 0 None (v_alloc r)).

  (** 453-469 [from_iter] over an iterator producing [xs]. *)
  Definition from_iter (xs : list A) : VM vec :=
    v <-- new_default ;; push_all xs v.

  (** ** Assignment *)

  (** 117-145 [operator=(const Vector&)] for distinct objects (the self test at
      118 is in the step function). *)
  Definition copy_assign (v other : vec) : VM vec :=
    if v_alloc v =? v_alloc other then
      v1 <-- reserve v (v_cap other) ;;
      let common := N.min (v_len v1) (v_len other) in
      for_up (N.to_nat common) 0
        (fun i => x <-- vread (v_ptr other) i ;; vassign (v_ptr v1) i x) ;;;
      (if v_len other <? v_len v1 then
         for_up (N.to_nat (v_len v1 - common)) common (vdestroy (v_ptr v1))
       else if v_len v1 <? v_len other then
         for_up (N.to_nat (v_len other - common)) common
           (fun i => x <-- vread (v_ptr other) i ;; vconstruct (v_ptr v1) i x)
       else ret tt) ;;;
      ret (set_len v1 (v_len other))
    else
      v1 <-- clear v ;; copy_impl v1 other.

  (** 147-155 [operator=(Vector&&)] for distinct objects. *)
  Definition move_assign (v r : vec) : VM (vec * vec) :=
    _ <-- clear v ;; ret (move_impl r).

  Fixpoint assign_all (p : option N) (i : N) (xs : list A) : VM unit :=
    match xs with
    | [] => ret tt
    | x :: r => vassign p i x ;;; assign_all p (i + 1) r
    end.

  (** 157-174 [operator=(initializer_list)].  [lo] starts at [list.begin()],
      not at [list.begin() + common] (167).  The function has no [return]
      statement, which is UB by itself; [strict = false] ignores that and
      looks at the effect on the vector only. *)
  Definition assign_ilist (strict : bool) (v : vec) (xs : list A) : VM vec :=
    let n := N.of_nat (length xs) in
    v1 <-- reserve v n ;;
    let common := N.min (v_len v1) n in
    assign_all (v_ptr v1) 0 (firstn (N.to_nat common) xs) ;;;
    (if n <? v_len v1 then
       for_up (N.to_nat (v_len v1 - common)) common (vdestroy (v_ptr v1))
     else if v_len v1 <? n then
       construct_all (v_ptr v1) common (firstn (N.to_nat (n - common)) xs)
     else ret tt) ;;;
    if strict then fail UB else ret (set_len v1 n).

  (** 772-779 [swap]. *)
  Definition swap (v o : vec) : vec * vec := (o, v).

  (** ** Positional modifiers *)

  (** 861-875 [move_elements_back]: the [while (hi >= pos)] loop with the
      unsigned [hi--]. *)
  Fixpoint meb_loop (fuel : nat) (p : option N) (pos count hi : N) : VM unit :=
    match fuel with
    | O => fail Fuel
    | S f =>
        if pos <=? hi then
          x <-- vmove p hi ;;
          vconstruct p (uadd hi count) x ;;;
          vdestroy p hi ;;;
          meb_loop f p pos count (usub hi 1)
        else ret tt
    end.
  Definition move_elements_back (v : vec) (pos count : N) : VM vec :=
    if v_len v =? 0 then ret v
    else
      v1 <-- (if v_cap v <? uadd (v_len v) count
              then reserve v (uadd (v_len v) count) else ret v) ;;
      meb_loop (S (S (N.to_nat (v_len v)))) (v_ptr v1) pos count (usub (v_len v1) 1) ;;;
      ret (set_len v1 (uadd (v_len v1) count)).

  (** 543-551 [emplace] (arguments are taken by value). *)
  Definition emplace (v : vec) (p : N) (x : A) : VM vec :=
    v1 <-- (if v_len v =? v_cap v then extend_space v else ret v) ;;
    v2 <-- move_elements_back v1 p 1 ;;
    vconstruct (v_ptr v2) p x ;;;
    ret v2.

  (** 608-623 [insert(pos, val)]: returns [begin() + p]. *)
  Definition insert1 (v : vec) (p : N) (x : A) : VM (vec * N) :=
    v1 <-- emplace v p x ;; ret (v1, p).

  (** 630-640 [insert(pos, count, val)]; [rd] as above. *)
  Definition insert_fill_m (v : vec) (p count : N) (rd : VM A) : VM (vec * N) :=
    v1 <-- move_elements_back v p count ;;
    for_up (N.to_nat count) 0
      (fun i => x <-- rd ;; vconstruct (v_ptr v1) (uadd p i) x) ;;;
    ret (v1, p).

  (** 650-669 [insert(pos, first, last)] and the initializer-list overload. *)
  Definition insert_range (v : vec) (p : N) (xs : list A) : VM (vec * N) :=
    let d := N.of_nat (length xs) in
    v1 <-- (if v_cap v <? uadd (v_len v) d
            then allocate_reserve v (uadd (v_len v) d) else ret v) ;;
    v2 <-- move_elements_back v1 p d ;;
    construct_all (v_ptr v2) p xs ;;;
    ret (v2, p).

  (** [std::move(b + first, b + last, b + dst)] as called at 571 and 591.
      [alg.move] requires [dst] not to lie in [[first, last)]. *)
  Definition std_move (p : option N) (first last dst : N) : VM unit :=
    if (first <=? dst) && (dst <? last) then fail UB
    else
      for_up (N.to_nat (last - first)) 0
        (fun k => x <-- vmove p (first + k) ;; vassign p (dst + k) x).

  (** 565-577 [erase(pos)]; the returned iterator is [Some index], or [None]
      for the null iterator of the last branch. *)
  Definition erase1 (v : vec) (p : N) : VM (vec * option N) :=
    if p =? usub (v_len v) 1 then
      v1 <-- pop_back v ;; ret (v1, Some (v_len v1))
    else if p <? usub (v_len v) 1 then
      std_move (v_ptr v) (p + 1) (v_len v) p ;;;
      v1 <-- pop_back v ;; ret (v1, Some p)
    else ret (v, None).

  (** 586-601 [erase(first, last)]. *)
  Definition erase_range (v : vec) (lo hi : N) : VM (vec * option N) :=
    if v_len v <? hi then ret (v, None)
    else
      std_move (v_ptr v) hi (v_len v) lo ;;;
      v1 <-- repeat_m (N.to_nat (usub hi lo)) pop_back v ;;
      ret (v1, Some lo).

  (** ** Observers *)

  (** 476-486, 505-507 [empty], [size], [capacity]. *)
  Definition size (v : vec) : N := v_len v.
  Definition empty (v : vec) : bool := v_len v =? 0.
  Definition capacity (v : vec) : N := v_cap v.

  (** 188-196 [operator[]], 275-281 [at_unchecked]. *)
  Definition index (v : vec) (i : N) : VM A := vread (v_ptr v) i.
  (** writing through [operator[]]: [v[i] = x]. *)
  Definition set_index (v : vec) (i : N) (x : A) : VM unit := vassign (v_ptr v) i x.

  (** 248-262 [at]. *)
  Definition at_ (v : vec) (i : N) : VM (option A) :=
    if i <? v_len v then x <-- vread (v_ptr v) i ;; ret (Some x) else ret None.

  (** 295-309 [front]. *)
  Definition front (v : vec) : VM (option A) :=
    if negb (v_len v =? 0) then x <-- vread (v_ptr v) 0 ;; ret (Some x) else ret None.

  (** 335-349 [back]. *)
  Definition back (v : vec) : VM (option A) :=
    if negb (v_len v =? 0) then
      x <-- vread (v_ptr v) (usub (v_len v) 1) ;; ret (Some x)
    else ret None.

  (** 414-451 [iter]/[begin]/[end] and 896-992 [VectorIter]: position and end
      as offsets into the buffer. *)
  Record viter := VIter { vi_ptr : option N; vi_cur : N; vi_end : N }.
  Definition iter (v : vec) : viter := VIter (v_ptr v) 0 (v_len v).
  (** 911-917 [next]. *)
  Definition viter_next (it : viter) : VM (option A * viter) :=
    if negb (vi_cur it =? vi_end it) then
      x <-- vread (vi_ptr it) (vi_cur it) ;;
      ret (Some x, VIter (vi_ptr it) (vi_cur it + 1) (vi_end it))
    else ret (None, it).

  (** Exhausting an iterator ([while (n = it.next(), n.is_some())]). *)
  Fixpoint viter_collect (fuel : nat) (it : viter) : VM (list A) :=
    match fuel with
    | O => fail Fuel
    | S f =>
        '(o, it1) <-- viter_next it ;;
        match o with
        | None => ret []
        | Some x => xs <-- viter_collect f it1 ;; ret (x :: xs)
        end
    end.
  Definition collect (v : vec) : VM (list A) :=
    viter_collect (S (N.to_nat (v_len v))) (iter v).

  (** 1058-1071 [operator==]. *)
  Fixpoint eq_loop (eqb : A -> A -> bool) (n : nat) (i : N) (p q : option N) : VM bool :=
    match n with
    | O => ret true
    | S n' =>
        x <-- vread p i ;; y <-- vread q i ;;
        if negb (eqb x y) then ret false else eq_loop eqb n' (i + 1) p q
    end.
  Definition vec_eq (eqb : A -> A -> bool) (l r : vec) : VM bool :=
    if negb (v_len l =? v_len r) then ret false
    else eq_loop eqb (N.to_nat (v_len l)) 0 (v_ptr l) (v_ptr r).

  (** 1086-1107 [operator<=>]. *)
  Fixpoint cmp_loop (cmp : A -> A -> comparison) (n : nat) (i : N) (p q : option N)
      (rest : comparison) : VM comparison :=
    match n with
    | O => ret rest
    | S n' =>
        x <-- vread p i ;; y <-- vread q i ;;
        match cmp x y with
        | Eq => cmp_loop cmp n' (i + 1) p q rest
        | c => ret c
        end
    end.
  Definition vec_cmp (cmp : A -> A -> comparison) (l r : vec) : VM comparison :=
    cmp_loop cmp (N.to_nat (N.min (v_len l) (v_len r))) 0 (v_ptr l) (v_ptr r)
      (N.compare (v_len l) (v_len r)).

  (** 1073-1084 [operator<<]: what is written, as a list of tokens; [inl] is
      literal text (0 = "Vec [", 1 = ", ", 2 = "]"), [inr] an element. *)
  Fixpoint print_loop (n : nat) (i : N) (v : vec) : VM (list (nat + A)) :=
    match n with
    | O => ret []
    | S n' =>
        x <-- vread (v_ptr v) i ;;
        r <-- print_loop n' (i + 1) v ;;
        ret (if negb (i =? usub (v_len v) 1) then inr x :: inl 1%nat :: r
             else inr x :: r)
    end.
  Definition print (v : vec) : VM (list (nat + A)) :=
    ts <-- print_loop (N.to_nat (v_len v)) 0 v ;;
    ret (inl 0%nat :: ts ++ [inl 2%nat]).

  (** ** Consuming iterators *)

  (** 994-1026 [VectorIntoIter<T, A, false>]. *)
  Record into_iter := IntoIter { ii_vec : vec; ii_pos : N; ii_len : N }.
  (** 391-393, 999: construction moves the vector into the iterator. *)
  Definition into_iter_new (v : vec) : into_iter * vec :=
    let '(v1, r) := move_impl v in (IntoIter v1 0 (v_len v1), r).
  (** 1009-1020 [next]. *)
  Definition into_iter_next (it : into_iter) : VM (option A * into_iter) :=
    if ii_pos it <? ii_len it then
      x <-- vmove (v_ptr (ii_vec it)) (ii_pos it) ;;
      let pos := ii_pos it + 1 in
      v1 <-- (if pos =? ii_len it then clear (ii_vec it) else ret (ii_vec it)) ;;
      ret (Some x, IntoIter v1 pos (ii_len it))
    else ret (None, it).
  (** implicit destructor: destroys [vec]. *)
  Definition into_iter_drop (it : into_iter) : VM unit :=
    _ <-- clear (ii_vec it) ;; ret tt.
  (** 1001-1006 move construction of the iterator: new iterator, old iterator
      ([v.len] is left as it was).  The member [vec] is default-constructed
      first and then assigned to. *)
  Definition into_iter_move (it : into_iter) : VM (into_iter * into_iter) :=
    v0 <-- new_default ;;
    '(v1, r) <-- move_assign v0 (ii_vec it) ;;
    ret (IntoIter v1 (ii_pos it) (v_len v1), IntoIter r 0 (ii_len it)).

  (** 1028-1056 [VectorIntoIter<T, A, true>]: only the vector.  Its move
      constructor (1036-1039) names a member it does not have and does not
      compile when used. *)
  Definition into_rev_next (v : vec) : VM (option A * vec) :=
    if negb (v_len v =? 0) then
      x <-- vmove (v_ptr v) (usub (v_len v) 1) ;;
      v1 <-- pop_back v ;;
      ret (Some x, v1)
    else ret (None, v).

  (** Client code: [n] calls of [next] on a consuming iterator, and its
      reversed counterpart; what the calls return, and the final iterator. *)
  Fixpoint into_take (n : nat) (it : into_iter) : VM (list (option A) * into_iter) :=
    match n with
    | O => ret ([], it)
    | S n' =>
        '(o, it1) <-- into_iter_next it ;;
        '(os, it2) <-- into_take n' it1 ;;
        ret (o :: os, it2)
    end.
  Fixpoint into_rev_take (n : nat) (v : vec) : VM (list (option A) * vec) :=
    match n with
    | O => ret ([], v)
    | S n' =>
        '(o, v1) <-- into_rev_next v ;;
        '(os, v2) <-- into_rev_take n' v1 ;;
        ret (o :: os, v2)
    end.
End Vec.

(** ** Histories over several vectors *)

Inductive vop (A : Type) :=
| VNew (i : nat)                         (* Vector() *)
| VNewAlloc (i : nat) (al : N)           (* Vector(alloc) *)
| VNewFill (i : nat) (al n : N) (x : A)  (* Vector(n, x, alloc) *)
| VNewCount (i : nat) (al n : N)         (* Vector(n, alloc) *)
| VNewList (i : nat) (al : N) (xs : list A)
| VNewRange (i : nat) (al : N) (xs : list A)
| VFromIter (i : nat) (xs : list A)
| VNewCopy (i j : nat)                   (* i(j) *)
| VNewCopyAl (i j : nat) (al : N)
| VNewMove (i j : nat)                   (* i(std::move(j)), with or without allocator *)
| VDestroy (i : nat)
| VCopyAsg (i j : nat)
| VMoveAsg (i j : nat)
| VAssignFill (i : nat) (n : N) (x : A)
| VAssignList (i : nat) (xs : list A)
| VReserve (i : nat) (n : N)
| VClear (i : nat)
| VPush (i : nat) (x : A)
| VEmplaceBack (i : nat) (x : A)
| VPop (i : nat)
| VResize (i : nat) (n : N)
| VResizeVal (i : nat) (n : N) (x : A)
| VSwap (i j : nat)
| VSet (i : nat) (k : N) (x : A)
| VEmplace (i : nat) (p : N) (x : A)
| VInsert (i : nat) (p : N) (x : A)
| VInsertFill (i : nat) (p n : N) (x : A)
| VInsertRange (i : nat) (p : N) (xs : list A)
| VErase (i : nat) (p : N)
| VEraseRange (i : nat) (p q : N)
| VSize (i : nat)
| VEmpty (i : nat)
| VAt (i : nat) (k : N)
| VIndex (i : nat) (k : N)
| VFront (i : nat)
| VBack (i : nat)
| VIterAll (i : nat)
| VPrint (i : nat)
| VEq (i j : nat)
| VCmp (i j : nat).
Global Arguments VNew {A}. Global Arguments VNewAlloc {A}. Global Arguments VNewFill {A}.
Global Arguments VNewCount {A}. Global Arguments VNewList {A}. Global Arguments VNewRange {A}.
Global Arguments VFromIter {A}. Global Arguments VNewCopy {A}. Global Arguments VNewCopyAl {A}.
Global Arguments VNewMove {A}. Global Arguments VDestroy {A}. Global Arguments VCopyAsg {A}.
Global Arguments VMoveAsg {A}. Global Arguments VAssignFill {A}. Global Arguments VAssignList {A}.
Global Arguments VReserve {A}. Global Arguments VClear {A}. Global Arguments VPush {A}.
Global Arguments VEmplaceBack {A}. Global Arguments VPop {A}. Global Arguments VResize {A}.
Global Arguments VResizeVal {A}. Global Arguments VSwap {A}. Global Arguments VSet {A}.
Global Arguments VEmplace {A}. Global Arguments VInsert {A}. Global Arguments VInsertFill {A}.
Global Arguments VInsertRange {A}. Global Arguments VErase {A}. Global Arguments VEraseRange {A}.
Global Arguments VSize {A}. Global Arguments VEmpty {A}. Global Arguments VAt {A}.
Global Arguments VIndex {A}. Global Arguments VFront {A}. Global Arguments VBack {A}.
Global Arguments VIterAll {A}. Global Arguments VPrint {A}. Global Arguments VEq {A}.
Global Arguments VCmp {A}.

(** What an operation returns to its caller. *)
Inductive vout (A : Type) :=
| ONone
| ONum (n : N)
| OBool (b : bool)
| OElem (x : A)
| OOpt (o : option A)
| OSeq (xs : list A)
| OToks (ts : list (nat + A))
| OIdx (o : option N)              (* an iterator, as index; None = null *)
| OCmp (c : comparison).
Global Arguments ONone {A}. Global Arguments ONum {A}. Global Arguments OBool {A}.
Global Arguments OElem {A}. Global Arguments OOpt {A}. Global Arguments OSeq {A}.
Global Arguments OToks {A}. Global Arguments OIdx {A}. Global Arguments OCmp {A}.

Section VecStep.
  Context `{mem : memory} {A : Type} (sz : N) (dflt : A).
  Context (eqb : A -> A -> bool) (cmp : A -> A -> comparison).
  Notation WM := (M (world (block A) vec)).

  Definition mk (i : nat) (m : M (heap (block A)) vec) : WM (vout A) :=
    wnew i ;;; v <-- lift m ;; wset i v ;;; ret ONone.
  Definition upd1 (i : nat) (f : vec -> M (heap (block A)) vec) : WM (vout A) :=
    v <-- wget i ;; v1 <-- lift (f v) ;; wset i v1 ;;; ret ONone.
  Definition upd1o {X} (i : nat) (f : vec -> M (heap (block A)) (vec * X))
      (g : X -> vout A) : WM (vout A) :=
    v <-- wget i ;; '(v1, x) <-- lift (f v) ;; wset i v1 ;;; ret (g x).
  Definition obs {X} (i : nat) (f : vec -> M (heap (block A)) X) (g : X -> vout A) : WM (vout A) :=
    v <-- wget i ;; x <-- lift (f v) ;; ret (g x).

  Definition vec_step (o : vop A) : WM (vout A) :=
    match o with
    | VNew i => mk i (new_default sz)
    | VNewAlloc i al => mk i (new_alloc al)
    | VNewFill i al n x => mk i (new_fill sz al n x)
    | VNewCount i al n => mk i (new_fill sz al n dflt)
    | VNewList i al xs => mk i (new_list sz al xs)
    | VNewRange i al xs => mk i (new_range sz al xs)
    | VFromIter i xs => mk i (from_iter sz xs)
    | VNewCopy i j => r <-- wget j ;; mk i (new_copy sz 0 r)
    | VNewCopyAl i j al => r <-- wget j ;; mk i (new_copy sz al r)
    | VNewMove i j =>
        wnew i ;;; r <-- wget j ;;
        let '(v, r1) := move_impl r in
        wset j r1 ;;; wset i v ;;; ret ONone
    | VDestroy i => v <-- wget i ;; _ <-- lift (clear sz v) ;; wdel i ;;; ret ONone
    | VCopyAsg i j =>
        v <-- wget i ;; r <-- wget j ;;
        if Nat.eqb i j then ret ONone
        else v1 <-- lift (copy_assign sz v r) ;; wset i v1 ;;; ret ONone
    | VMoveAsg i j =>
        v <-- wget i ;; r <-- wget j ;;
        if Nat.eqb i j then ret ONone
        else '(v1, r1) <-- lift (move_assign sz v r) ;; wset j r1 ;;; wset i v1 ;;; ret ONone
    | VAssignFill i n x => upd1 i (fun v => assign_fill_m sz v n (ret x))
    | VAssignList i xs => upd1 i (fun v => assign_list sz v xs)
    | VReserve i n => upd1 i (fun v => reserve sz v n)
    | VClear i => upd1 i (fun v => clear sz v)
    | VPush i x => upd1 i (fun v => push_back sz v x)
    | VEmplaceBack i x => upd1o i (fun v => emplace_back sz v x) OElem
    | VPop i => upd1 i (fun v => pop_back v)
    | VResize i n => upd1 i (fun v => resize_m sz v n (ret dflt))
    | VResizeVal i n x => upd1 i (fun v => resize_m sz v n (ret x))
    | VSwap i j =>
        v <-- wget i ;; r <-- wget j ;;
        let '(v1, r1) := swap v r in wset j r1 ;;; wset i v1 ;;; ret ONone
    | VSet i k x => obs i (fun v => set_index v k x) (fun _ => ONone)
    | VEmplace i p x => upd1 i (fun v => emplace sz v p x)
    | VInsert i p x => upd1o i (fun v => insert1 sz v p x) (fun k => OIdx (Some k))
    | VInsertFill i p n x =>
        upd1o i (fun v => insert_fill_m sz v p n (ret x)) (fun k => OIdx (Some k))
    | VInsertRange i p xs => upd1o i (fun v => insert_range sz v p xs) (fun k => OIdx (Some k))
    | VErase i p => upd1o i (fun v => erase1 v p) OIdx
    | VEraseRange i p q => upd1o i (fun v => erase_range v p q) OIdx
    | VSize i => obs i (fun v => ret (size v)) ONum
    | VEmpty i => obs i (fun v => ret (empty v)) OBool
    | VAt i k => obs i (fun v => at_ v k) OOpt
    | VIndex i k => obs i (fun v => index v k) OElem
    | VFront i => obs i (fun v => front v) OOpt
    | VBack i => obs i (fun v => back v) OOpt
    | VIterAll i => obs i (fun v => collect v) OSeq
    | VPrint i => obs i (fun v => print v) OToks
    | VEq i j => r <-- wget j ;; obs i (fun v => vec_eq eqb v r) OBool
    | VCmp i j => r <-- wget j ;; obs i (fun v => vec_cmp cmp v r) OCmp
    end.

  (** A whole program: a history of operations from the empty world. *)
  Definition vec_run (ops : list (vop A)) : outcome (list (vout A) * world (block A) vec) :=
    run_ops vec_step ops winit.
End VecStep.
