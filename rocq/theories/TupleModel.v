(** * TupleModel: include/mstl/utility/tuple.h

    The components of a tuple live at locations of a store: a [Tuple<T...>]
    owns fresh locations, a [Tuple<T&...>] (from [tie]) refers to locations of
    other variables.  Types are erased: the conversions chosen by overload
    resolution are given as functions, position by position; combinations
    rejected by the [requires] clauses (different arity, index out of range)
    are [None] or [UB] here and named in the comments.  Callbacks are
    arbitrary transformations of a client world [Wd] and of the component they
    are handed by reference. *)
From Verif Require Import Base.

Section Tuple.
  Context {V Wd : Type} (moved : V -> V) (eqb : V -> V -> bool).

  (** tuple.h:25-46, 197-198: [Tuple<>] and [Tuple<First, Rest...>]. *)
  Inductive tup := TNil | TCons (f : N) (r : tup).

  Record tst := TSt { tmem : gmap N V; tnext : N; tworld : Wd }.
  Notation TM := (M tst).

  Definition t_read (l : N) : TM V :=
    fun s => match tmem s !! l with Some v => Ok (v, s) | None => Err UB end.
  Definition t_write (l : N) (v : V) : TM unit :=
    fun s => match tmem s !! l with
             | Some _ => Ok (tt, TSt (<[l := v]> (tmem s)) (tnext s) (tworld s))
             | None => Err UB
             end.
  (** A new component initialised to [v]. *)
  Definition t_alloc (v : V) : TM N :=
    fun s => Ok (tnext s, TSt (<[tnext s := v]> (tmem s)) (tnext s + 1)%N (tworld s)).
  (** Reading an expression [std::move(x)]. *)
  Definition t_take (l : N) : TM V := v <-- t_read l ;; t_write l (moved v) ;;; ret v.

  (** tuple.h:49-52 the converting constructor, given the conversions of the
      arguments to the component types; [UB] stands for "does not compile"
      (number of arguments wrong). *)
  Fixpoint t_ctor (convs : list (V -> V)) (args : list V) : TM tup :=
    match convs, args with
    | [], [] => ret TNil
    | c :: cs, a :: r => f <-- t_alloc (c a) ;; t <-- t_ctor cs r ;; ret (TCons f t)
    | _, _ => fail UB
    end.
  (** tuple.h:283-287 [make_tuple(v, vs...)]: the arguments are copied. *)
  Definition t_make (args : list V) : TM tup := t_ctor (replicate (length args) (fun v => v)) args.
  (** tuple.h:54-55 copy and 57-58 move construction. *)
  Fixpoint t_copy_ctor (other : tup) : TM tup :=
    match other with
    | TNil => ret TNil
    | TCons f r => v <-- t_read f ;; l <-- t_alloc v ;; t <-- t_copy_ctor r ;; ret (TCons l t)
    end.
  Fixpoint t_move_ctor (other : tup) : TM tup :=
    match other with
    | TNil => ret TNil
    | TCons f r => v <-- t_take f ;; l <-- t_alloc v ;; t <-- t_move_ctor r ;; ret (TCons l t)
    end.

  (** tuple.h:62-70 copy assignment, 72-80 move assignment (the base case
      [Tuple<>] is tuple.h:208), 82-88 converting assignment.  [same] is
      [&other == this]. *)
  Fixpoint t_copy_loop (t other : tup) : TM unit :=
    match t, other with
    | TNil, TNil => ret tt
    | TCons f r, TCons f2 r2 => v <-- t_read f2 ;; t_write f v ;;; t_copy_loop r r2
    | _, _ => fail UB
    end.
  Definition t_copy_assign (same : bool) (t other : tup) : TM unit :=
    if same then ret tt else t_copy_loop t other.
  Fixpoint t_move_loop (t other : tup) : TM unit :=
    match t, other with
    | TNil, TNil => ret tt
    | TCons f r, TCons f2 r2 => v <-- t_take f2 ;; t_write f v ;;; t_move_loop r r2
    | _, _ => fail UB
    end.
  Definition t_move_assign (same : bool) (t other : tup) : TM unit :=
    if same then ret tt else t_move_loop t other.
  Fixpoint t_conv_assign (convs : list (V -> V)) (t other : tup) : TM unit :=
    match convs, t, other with
    | [], TNil, TNil => ret tt
    | c :: cs, TCons f r, TCons f2 r2 =>
        v <-- t_read f2 ;; t_write f (c v) ;;; t_conv_assign cs r r2
    | _, _, _ => fail UB
    end.

  (** tuple.h:90-94, 210-212 [operator==]. *)
  Fixpoint t_eq (t u : tup) : TM bool :=
    match t, u with
    | TNil, TNil => ret true
    | TCons f r, TCons f2 r2 =>
        x <-- t_read f ;; y <-- t_read f2 ;;
        if eqb x y then t_eq r r2 else ret false
    | _, _ => fail UB
    end.

  (** tuple.h:101, 204-206 [size]. *)
  Fixpoint t_size (t : tup) : N := match t with TNil => 0 | TCons _ r => 1 + t_size r end.
  (** tuple.h:107-125 [get_first], [get_rest]. *)
  Definition t_get_first (t : tup) : option N := match t with TCons f _ => Some f | TNil => None end.
  Definition t_get_rest (t : tup) : option tup := match t with TCons _ r => Some r | TNil => None end.
  (** tuple.h:138-156, 258-271 [get<pos>]: a reference to the component;
      [None] is the violated [requires (pos < size())]. *)
  Fixpoint t_get (pos : nat) (t : tup) {struct t} : option N :=
    match t with
    | TNil => None
    | TCons f r => match pos with O => Some f | S p => t_get p r end
    end.
  (** tuple.h:162-188 [first], [second] of a pair. *)
  Definition t_first (t : tup) : option N := if (t_size t =? 2)%N then t_get_first t else None.
  Definition t_second (t : tup) : option N :=
    if (t_size t =? 2)%N then r ← t_get_rest t; t_get_first r else None.

  (** tuple.h:127-131, 214-215 [for_each(fun)]. *)
  Definition t_call (fn : V -> Wd -> V * Wd) (l : N) : TM unit :=
    v <-- t_read l ;;
    (fun s => let '(v', w') := fn v (tworld s) in
              Ok (tt, TSt (<[l := v']> (tmem s)) (tnext s) w')).
  Fixpoint t_for_each (fn : V -> Wd -> V * Wd) (t : tup) : TM unit :=
    match t with
    | TNil => ret tt
    | TCons f r => t_call fn f ;;; t_for_each fn r
    end.

  (** tuple.h:311-315 [tie(v, vs...)]: a tuple of references. *)
  Fixpoint t_tie (ls : list N) : tup :=
    match ls with [] => TNil | l :: r => TCons l (t_tie r) end.
End Tuple.
Arguments TSt {V Wd} _ _ _.
Arguments tmem {V Wd} _.
Arguments tnext {V Wd} _.
Arguments tworld {V Wd} _.
Arguments tst : clear implicits.

(** type_traits.h:14-30 [ArgAt<pos, Ts...>], tuple.h:238-244 [TupleElement]:
    [None] is the static_assert failure / missing member. *)
Fixpoint arg_at {T} (pos : nat) (ts : list T) {struct ts} : option T :=
  match ts with
  | [] => None
  | t :: r => match pos with O => Some t | S p => arg_at p r end
  end.
