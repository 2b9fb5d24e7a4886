(** * RangeModel: include/mstl/ops/range.h, include/mstl/slice.h,
      include/mstl/collection/array.h (iterators and Array itself)

    Simplifications:
    - [Idx] is a C++ integer type, given by its bounds and whether overflow
      wraps (unsigned) or is undefined (signed); other [Idx] are in [FloatRange];
    - elements are abstract values; a slice looks at a list of live elements,
      an array holds cells (indeterminate, value, moved-from), and *using* an
      indeterminate or moved-from cell is reported as [UB];
    - pointers into an array are offsets; dereferencing one outside is [UB]. *)
From Verif Require Import Base IterSpec.
Local Open Scope Z_scope.

(** ** Integer types *)
Record ity := Ity { imin : Z; imax : Z; iwrap : bool }.
Definition usize_t : ity := Ity 0 18446744073709551615 true.
Definition int_t : ity := Ity (-2147483648) 2147483647 false.
Definition in_ity (t : ity) (x : Z) : Prop := imin t <= x <= imax t.

(** Built-in [++] and [--]. *)
Definition iinc (t : ity) (x : Z) : outcome Z :=
  if x <? imax t then Ok (x + 1) else if iwrap t then Ok (imin t) else Err UB.
Definition idec (t : ity) (x : Z) : outcome Z :=
  if imin t <? x then Ok (x - 1) else if iwrap t then Ok (imax t) else Err UB.

(** ** Range (range.h:92-152) *)
Record range := Range { r_low : Z; r_high : Z }.

Definition lift_o {S A} (o : outcome A) : M S A :=
  fun s => match o with Ok a => Ok (a, s) | Err e => Err e end.
Definition get_st {S} : M S S := fun s => Ok (s, s).
Definition put_st {S} (s : S) : M S unit := fun _ => Ok (tt, s).

Section Range.
  Context (t : ity).

  (** range.h:103-107 [contains]. *)
  Definition r_contains (r : range) (x : Z) : bool := (r_low r <=? x) && (x <? r_high r).

  (** range.h:109-117 [next]. *)
  Definition r_next : M range (option Z) :=
    r <-- get_st ;;
    if r_low r =? r_high r then ret None
    else
      let value := r_low r in
      l <-- lift_o (iinc t (r_low r)) ;;
      put_st (Range l (r_high r)) ;;;
      ret (Some value).

  (** range.h:119-127 [prev]: hands out [high] *before* decrementing it. *)
  Definition r_prev : M range (option Z) :=
    r <-- get_st ;;
    if r_low r =? r_high r then ret None
    else
      let value := r_high r in
      h <-- lift_o (idec t (r_high r)) ;;
      put_st (Range (r_low r) h) ;;;
      ret (Some value).

  (** range.h:129-133 [is_empty]. *)
  Definition r_is_empty (r : range) : bool := negb (r_low r <? r_high r).

  (** range.h:135-143 [begin]/[end] with RangeCursor (range.h:15-90): the loop
      [for (auto x : r)], collecting the values seen. *)
  Fixpoint r_for (fuel : nat) (cur last : Z) : outcome (list Z) :=
    match fuel with
    | O => Err Fuel
    | S f =>
        if cur =? last then Ok []
        else match iinc t cur with
             | Err e => Err e
             | Ok c' => match r_for f c' last with
                        | Ok xs => Ok (cur :: xs)
                        | Err e => Err e
                        end
             end
    end.

  (** One call on a range used as an iterator. *)
  Definition r_step (o : de_op) : M range (de_out Z) :=
    match o with
    | DNext => x <-- r_next ;; ret (EItem x)
    | DPrev => x <-- r_prev ;; ret (EItem x)
    | DEmpty => r <-- get_st ;; ret (EBool (r_is_empty r))
    | DLen | DLast => fail UB     (* a Range has no such member *)
    end.
End Range.

(** ** Slice (slice.h) *)
Section Slice.
  Context {A : Type}.
  (** The array the slice points into, as the list of its elements; offsets
      are relative to its first element. *)
  Context (mem : list A).

  Record siter := SIter { s_start : N; s_end : N }.
  Record slice := Slice { sl_ptr : option N; sl_size : N }.

  (** slice.h:19 the constructor. *)
  Definition siter_new (p len : N) : siter := SIter p (p + len)%N.

  (** slice.h:101-109 [iter], [iter_mut]; 93-99 [into_iter] empties the slice. *)
  Definition slice_iter (s : slice) : option siter :=
    match sl_ptr s with Some p => Some (siter_new p (sl_size s)) | None => None end.
  Definition slice_into_iter (s : slice) : option siter * slice :=
    (slice_iter s, Slice None 0).

  Definition deref (i : N) : M siter A :=
    match nlookup mem i with Some x => ret x | None => fail UB end.

  (** slice.h:21-30 [next]. *)
  Definition s_next : M siter (option A) :=
    it <-- get_st ;;
    if (s_end it <=? s_start it)%N then ret None
    else
      x <-- deref (s_start it) ;;
      put_st (SIter (s_start it + 1)%N (s_end it)) ;;;
      ret (Some x).

  (** slice.h:32-41 [prev]. *)
  Definition s_prev : M siter (option A) :=
    it <-- get_st ;;
    if (s_end it <=? s_start it)%N then ret None
    else
      let e := (s_end it - 1)%N in
      x <-- deref e ;;
      put_st (SIter (s_start it) e) ;;;
      ret (Some x).

  (** slice.h:43-46 [len], 48-51 [is_empty], 53-60 [last]. *)
  Definition s_len (it : siter) : N := (s_end it - s_start it)%N.
  Definition s_is_empty (it : siter) : bool := (s_start it =? s_end it)%N.
  Definition s_last : M siter (option A) :=
    it <-- get_st ;;
    if s_is_empty it then ret None
    else x <-- deref (s_end it - 1)%N ;; ret (Some x).

  Definition s_step (o : de_op) : M siter (de_out A) :=
    match o with
    | DNext => x <-- s_next ;; ret (EItem x)
    | DPrev => x <-- s_prev ;; ret (EItem x)
    | DLen => it <-- get_st ;; ret (ENum (s_len it))
    | DEmpty => it <-- get_st ;; ret (EBool (s_is_empty it))
    | DLast => x <-- s_last ;; ret (EItem x)
    end.

  (** collection/array.h:100-144 [ArrayIterRef]: as above but testing with
      [is_empty], i.e. [start == end]; there is no [last]. *)
  Definition ar_next : M siter (option A) :=
    it <-- get_st ;;
    if s_is_empty it then ret None
    else
      x <-- deref (s_start it) ;;
      put_st (SIter (s_start it + 1)%N (s_end it)) ;;;
      ret (Some x).
  Definition ar_prev : M siter (option A) :=
    it <-- get_st ;;
    if s_is_empty it then ret None
    else
      let e := (s_end it - 1)%N in
      x <-- deref e ;;
      put_st (SIter (s_start it) e) ;;;
      ret (Some x).
  Definition ar_step (o : de_op) : M siter (de_out A) :=
    match o with
    | DNext => x <-- ar_next ;; ret (EItem x)
    | DPrev => x <-- ar_prev ;; ret (EItem x)
    | DLen => it <-- get_st ;; ret (ENum (s_len it))
    | DEmpty => it <-- get_st ;; ret (EBool (s_is_empty it))
    | DLast => fail UB
    end.
End Slice.

(** ** Array (collection/array.h) *)
Inductive acell (A : Type) := AUndef | AVal (a : A) | AMoved.
Global Arguments AUndef {A}.
Global Arguments AVal {A} _.
Global Arguments AMoved {A}.

Section Array.
  (** [nn] is the template argument N; [dinit] is what default-initialisation
      leaves in an element ([AUndef] for scalars, [AVal] for class types);
      [vinit] is [T{}]. *)
  Context {A : Type} (nn : nat) (dinit : acell A) (vinit : A).
  Notation arr := (list (acell A)).

  Definition a_read (a : arr) (i : nat) : outcome A :=
    match a !! i with Some (AVal x) => Ok x | _ => Err UB end.

  (** array.h:164 [Array() = default]; [Array arr;] default-initialises. *)
  Definition a_default : arr := replicate nn dinit.
  (** [Array arr{};] value-initialises (the constructor is not user-provided). *)
  Definition a_value : arr := replicate nn (AVal vinit).

  (** array.h:165-178 the initializer-list constructor: [values] is first
      default-initialised, then assigned element by element. *)
  Fixpoint a_list_loop (xs : list A) (pos : nat) (a : arr) : arr :=
    match xs with
    | [] => a
    | x :: r =>
        let a1 := <[pos := AVal x]> a in
        let pos1 := S pos in
        if (nn <=? pos1)%nat then a1 else a_list_loop r pos1 a1
    end.
  Definition a_list (xs : list A) : outcome arr :=
    if (nn <? length xs)%nat then Err Panic
    else Ok (a_list_loop xs 0 a_default).

  (** array.h:185-196 copy assignment (and 185 the defaulted copy): every
      element of [other] is read. *)
  Fixpoint a_copy_loop (n pos : nat) (a other : arr) : outcome arr :=
    match n with
    | O => Ok a
    | S n' => match a_read other pos with
              | Ok x => a_copy_loop n' (S pos) (<[pos := AVal x]> a) other
              | Err e => Err e
              end
    end.
  Definition a_copy (a other : arr) : outcome arr := a_copy_loop nn 0 a other.

  (** array.h:201-218 move construction and assignment: target and source. *)
  Fixpoint a_move_loop (n pos : nat) (a other : arr) : outcome (arr * arr) :=
    match n with
    | O => Ok (a, other)
    | S n' => match a_read other pos with
              | Ok x => a_move_loop n' (S pos) (<[pos := AVal x]> a) (<[pos := AMoved]> other)
              | Err e => Err e
              end
    end.
  Definition a_move (a other : arr) : outcome (arr * arr) := a_move_loop nn 0 a other.

  (** array.h:258-271 [operator[]]: read and write. *)
  Definition a_get (a : arr) (pos : N) : outcome A :=
    if (N.of_nat nn <=? pos)%N then Err Panic else a_read a (N.to_nat pos).
  Definition a_set (a : arr) (pos : N) (x : A) : outcome arr :=
    if (N.of_nat nn <=? pos)%N then Err Panic
    else match a !! N.to_nat pos with
         | Some _ => Ok (<[N.to_nat pos := AVal x]> a)
         | None => Err UB
         end.

  (** array.h:232-240 [operator==]. *)
  Fixpoint a_eq_loop (eqb : A -> A -> bool) (n pos : nat) (a b : arr) : outcome bool :=
    match n with
    | O => Ok true
    | S n' => match a_read a pos, a_read b pos with
              | Ok x, Ok y => if negb (eqb x y) then Ok false else a_eq_loop eqb n' (S pos) a b
              | _, _ => Err UB
              end
    end.
  Definition a_eq (eqb : A -> A -> bool) (a b : arr) : outcome bool := a_eq_loop eqb nn 0 a b.

  (** array.h:242-256 [from_iter] over an iterator that produces [src]; also
      returns what is left in the iterator.  Note that one more item than
      stored is taken from the iterator. *)
  Definition src_next (src : list A) : option A * list A := (head src, tail src).
  Fixpoint a_from_loop (fuel pos : nat) (next : option A) (src : list A) (a : arr)
      : outcome (arr * list A) :=
    match fuel with
    | O => Err Fuel
    | S f =>
        match next with
        | None => Ok (a, src)
        | Some x =>
            if (pos <? nn)%nat then
              match a_set a (N.of_nat pos) x with
              | Err e => Err e
              | Ok a1 => let '(nx, src1) := src_next src in a_from_loop f (S pos) nx src1 a1
              end
            else Ok (a, src)
        end
    end.
  Definition a_from_iter (src : list A) : outcome (arr * list A) :=
    let '(nx, src1) := src_next src in a_from_loop (S (S nn)) 0 nx src1 a_value.

  (** array.h:16-98 [ArrayIter]: owns the data, positions come from a
      [Range<usize>]. *)
  Record aiter := AIter { ai_data : arr; ai_range : range }.
  (** array.h:21-25 the constructor moves the elements out of the array:
      iterator and what is left of the array. *)
  Definition ai_new (a : arr) : outcome (aiter * arr) :=
    match a_move (replicate nn dinit) a with
    | Ok (d, a') => Ok (AIter d (Range 0 (Z.of_nat nn)), a')
    | Err e => Err e
    end.
  Definition ai_take (pos : Z) : M aiter A :=
    it <-- get_st ;;
    x <-- lift_o (if (pos <? 0) then Err UB else a_read (ai_data it) (Z.to_nat pos)) ;;
    put_st (AIter (<[Z.to_nat pos := AMoved]> (ai_data it)) (ai_range it)) ;;;
    ret x.
  Definition on_range {B} (m : M range B) : M aiter B :=
    fun it => match m (ai_range it) with
              | Ok (b, r) => Ok (b, AIter (ai_data it) r)
              | Err e => Err e
              end.
  (** array.h:67-81 [next], [prev]; 83-90 [len], [is_empty]. *)
  Definition ai_next : M aiter (option A) :=
    o <-- on_range (r_next usize_t) ;;
    match o with None => ret None | Some p => x <-- ai_take p ;; ret (Some x) end.
  Definition ai_prev : M aiter (option A) :=
    o <-- on_range (r_prev usize_t) ;;
    match o with None => ret None | Some p => x <-- ai_take p ;; ret (Some x) end.
  Definition ai_step (o : de_op) : M aiter (de_out A) :=
    match o with
    | DNext => x <-- ai_next ;; ret (EItem x)
    | DPrev => x <-- ai_prev ;; ret (EItem x)
    | DLen => ret (ENum (N.of_nat nn))
    | DEmpty => it <-- get_st ;; ret (EBool (r_is_empty (ai_range it)))
    | DLast => fail UB
    end.

  (** array.h:28-38 [operator=(const ArrayIter&)]: [range] is not copied. *)
  Definition ai_copy_assign (it other : aiter) : outcome aiter :=
    match a_copy (ai_data it) (ai_data other) with
    | Ok d => Ok (AIter d (ai_range it))
    | Err e => Err e
    end.

  (** array.h:43-51 move construction: all elements are moved, those already
      handed out (moved-from) too; moving an indeterminate one is undefined.
      [other.range] stays as it is.  New iterator, old iterator. *)
  Fixpoint ai_move_loop (n pos : nat) (d other : arr) : outcome (arr * arr) :=
    match n with
    | O => Ok (d, other)
    | S n' => match other !! pos with
              | None | Some AUndef => Err UB
              | Some c => ai_move_loop n' (S pos) (<[pos := c]> d) (<[pos := AMoved]> other)
              end
    end.
  Definition ai_move (it : aiter) : outcome (aiter * aiter) :=
    match ai_move_loop nn 0 (replicate nn dinit) (ai_data it) with
    | Ok (d, o) => Ok (AIter d (ai_range it), AIter o (ai_range it))
    | Err e => Err e
    end.
  (** array.h:52-60 move assignment between distinct iterators; there is no
      return statement, which counts as undefined if [strict]. *)
  Definition ai_move_assign (strict : bool) (it other : aiter) : outcome (aiter * aiter) :=
    match ai_move_loop nn 0 (ai_data it) (ai_data other) with
    | Ok (d, o) => if strict then Err UB else Ok (AIter d (ai_range other), AIter o (ai_range other))
    | Err e => Err e
    end.
End Array.

(** ** Histories over several arrays *)
Inductive aop (A : Type) :=
| ANew (i : nat)                  (* Array a{} *)
| ADef (i : nat)                  (* Array a; *)
| AList (i : nat) (xs : list A)
| ACopy (i j : nat)
| AMove (i j : nat)
| ACopyAsg (i j : nat)
| AMoveAsg (i j : nat)
| ADestroy (i : nat)
| AGet (i : nat) (k : N)
| ASet (i : nat) (k : N) (x : A)
| AEq (i j : nat)
| AFrom (i : nat) (src : list A).
Global Arguments ANew {A}. Global Arguments ADef {A}. Global Arguments AList {A}.
Global Arguments ACopy {A}. Global Arguments AMove {A}. Global Arguments ACopyAsg {A}.
Global Arguments AMoveAsg {A}. Global Arguments ADestroy {A}. Global Arguments AGet {A}.
Global Arguments ASet {A}. Global Arguments AEq {A}. Global Arguments AFrom {A}.
Inductive aout (A : Type) := AONone | AOElem (x : A) | AOBool (b : bool) | AORest (xs : list A).
Global Arguments AONone {A}. Global Arguments AOElem {A}. Global Arguments AOBool {A}.
Global Arguments AORest {A}.

Section ArrayStep.
  Context {A : Type} (nn : nat) (dinit : acell A) (vinit : A) (eqb : A -> A -> bool).
  Notation aworld := (gmap nat (list (acell A))).
  Notation AM := (M aworld).

  Definition aget (i : nat) : AM (list (acell A)) :=
    fun w => match w !! i with Some a => Ok (a, w) | None => Err UB end.
  Definition aput (i : nat) (a : list (acell A)) : AM unit :=
    fun w => Ok (tt, <[i := a]> w).
  Definition afresh (i : nat) : AM unit :=
    fun w => match w !! i with Some _ => Err UB | None => Ok (tt, w) end.

  Definition arr_step (o : aop A) : AM (aout A) :=
    match o with
    | ANew i => afresh i ;;; aput i (a_value nn vinit) ;;; ret AONone
    | ADef i => afresh i ;;; aput i (a_default nn dinit) ;;; ret AONone
    | AList i xs => afresh i ;;; a <-- lift_o (a_list nn dinit xs) ;; aput i a ;;; ret AONone
    | ACopy i j =>
        b <-- aget j ;; afresh i ;;;
        a <-- lift_o (a_copy nn (replicate nn dinit) b) ;; aput i a ;;; ret AONone
    | AMove i j =>
        b <-- aget j ;; afresh i ;;;
        '(a, b1) <-- lift_o (a_move nn (replicate nn dinit) b) ;;
        aput i a ;;; aput j b1 ;;; ret AONone
    | ACopyAsg i j =>
        a <-- aget i ;; b <-- aget j ;;
        if Nat.eqb i j then ret AONone
        else a1 <-- lift_o (a_copy nn a b) ;; aput i a1 ;;; ret AONone
    | AMoveAsg i j =>
        a <-- aget i ;; b <-- aget j ;;
        if Nat.eqb i j then ret AONone
        else '(a1, b1) <-- lift_o (a_move nn a b) ;; aput i a1 ;;; aput j b1 ;;; ret AONone
    | ADestroy i => _ <-- aget i ;; (fun w => Ok (AONone, delete i w))
    | AGet i k => a <-- aget i ;; x <-- lift_o (a_get nn a k) ;; ret (AOElem x)
    | ASet i k x => a <-- aget i ;; a1 <-- lift_o (a_set nn a k x) ;; aput i a1 ;;; ret AONone
    | AEq i j => a <-- aget i ;; b <-- aget j ;; r <-- lift_o (a_eq nn eqb a b) ;; ret (AOBool r)
    | AFrom i src =>
        afresh i ;;; '(a, rest) <-- lift_o (a_from_iter nn vinit src) ;;
        aput i a ;;; ret (AORest rest)
    end.
  Definition arr_run (ops : list (aop A)) : outcome (list (aout A) * aworld) :=
    run_ops arr_step ops ∅.
End ArrayStep.
