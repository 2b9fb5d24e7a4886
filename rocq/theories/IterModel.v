(** * IterModel: include/mstl/iter/adapters/map.h, adapters/filter.h,
      termnals/{find,fold,reduce,for_each,last,collect}.h, utility.h

    A pipeline is a source iterator with a list of adapters around it,
    outermost first.  [snext] is the source's [next()].  All closures are
    client code with a state of their own ([C], the captured variables) and
    arbitrary effects on a client world [Wd]; [pull] is the client-visible
    effect of asking the source for an element.  So the order and number of
    all calls is observable.

    [Option<T>] values are those proved in C34 (here [option]).

    Not modelled because it does not compile when used: the pipe form
    [| last()] (last.h:40-45: binds an rvalue to [Iter&] and returns an Option
    as Item) and the [combine] forms of [Last] and [Reduce] (last.h:57-61,
    reduce.h:54-60: the function does not have the declared type).  The
    [[likely]] variants (filter.h:44-64, find.h:29-50) only add hints. *)
From Verif Require Import Base.

Section Iter.
  Context {V C Wd Src : Type} (snext : Src -> option V * Src) (pull : option V -> Wd -> Wd).

  (** The adapters; a predicate takes its argument by reference and may change
      the element. *)
  Inductive stage :=
  | SMap (f : C -> V -> Wd -> V * C * Wd)
  | SFilter (p : C -> V -> Wd -> bool * V * C * Wd).

  (** The state of the iterator object: the captured state of every stage's
      closure, outermost first, and the source. *)
  Record ist := Ist { icl : list C; isrc : Src; iwd : Wd }.
  Notation IM := (M ist).

  Definition src_pull : IM (option V) :=
    fun s => let '(o, src') := snext (isrc s) in Ok (o, Ist (icl s) src' (pull o (iwd s))).
  Definition pop_cl : IM C :=
    fun s => match icl s with c :: r => Ok (c, Ist r (isrc s) (iwd s)) | [] => Err UB end.
  Definition push_cl (c : C) : IM unit :=
    fun s => Ok (tt, Ist (c :: icl s) (isrc s) (iwd s)).
  Definition call_map (f : C -> V -> Wd -> V * C * Wd) (c : C) (x : V) : IM (V * C) :=
    fun s => let '(y, c', w') := f c x (iwd s) in Ok ((y, c'), Ist (icl s) (isrc s) w').
  Definition call_pred (p : C -> V -> Wd -> bool * V * C * Wd) (c : C) (x : V) : IM (bool * V * C) :=
    fun s => let '(b, y, c', w') := p c x (iwd s) in Ok ((b, y, c'), Ist (icl s) (isrc s) w').

  (** find.h:12-27 [find(Iter& iter, P predicate)]: the predicate is passed
      by value, so its state [c] is a copy that is dropped at the end. *)
  Fixpoint find_loop (fuel : nat) (nx : IM (option V)) (p : C -> V -> Wd -> bool * V * C * Wd) (c : C)
      : IM (option V) :=
    match fuel with
    | O => fail Fuel
    | S fuel' =>
        o <-- nx ;;
        match o with
        | None => ret None
        | Some x =>
            '(b, y, c') <-- call_pred p c x ;;
            if b : bool then ret (Some y) else find_loop fuel' nx p c'
        end
    end.

  (** map.h:29-38 [MapIter::next], filter.h:30-33 [FilterIter::next]. *)
  Fixpoint p_next (fuel : nat) (sts : list stage) : IM (option V) :=
    match sts with
    | [] => src_pull
    | SMap f :: r =>
        c <-- pop_cl ;;
        o <-- p_next fuel r ;;
        match o with
        | None => push_cl c ;;; ret None
        | Some x => '(y, c') <-- call_map f c x ;; push_cl c' ;;; ret (Some y)
        end
    | SFilter p :: r =>
        c <-- pop_cl ;;
        o <-- find_loop fuel (p_next fuel r) p c ;;
        push_cl c ;;; ret o
    end.

  Section Terminal.
    Context {A : Type} (k : A -> V -> Wd -> A * Wd).
    Definition call_k (a : A) (x : V) : IM A :=
      fun s => let '(a', w') := k a x (iwd s) in Ok (a', Ist (icl s) (isrc s) w').
    (** fold.h:13-27 [fold]; [A] is the accumulator together with the lambda's
        own state.  for_each.h:12-21 is the case where there is only the
        latter. *)
    Fixpoint t_fold_loop (fuel : nat) (nx : IM (option V)) (o : option V) (init : A) : IM A :=
      match fuel with
      | O => fail Fuel
      | S fuel' =>
          match o with
          | None => ret init
          | Some x =>
              init' <-- call_k init x ;;
              o' <-- nx ;;
              t_fold_loop fuel' nx o' init'
          end
      end.
    Definition t_fold (fuel : nat) (nx : IM (option V)) (init : A) : IM A :=
      o <-- nx ;; t_fold_loop fuel nx o init.
  End Terminal.
  Definition t_for_each (fuel : nat) (nx : IM (option V)) (k : C -> V -> Wd -> C * Wd) (c : C) : IM C :=
    t_fold k fuel nx c.

  (** reduce.h:14-26 [reduce]. *)
  Definition t_reduce (fuel : nat) (nx : IM (option V)) (k : V * C -> V -> Wd -> (V * C) * Wd) (c : C)
      : IM (option V) :=
    o <-- nx ;;
    match o with
    | Some x => '(y, _) <-- t_fold k fuel nx (x, c) ;; ret (Some y)
    | None => ret None
    end.

  (** last.h:18-35 [last] for an iterator without a [last] member. *)
  Fixpoint t_last_loop (fuel : nat) (nx : IM (option V)) (prev current : option V) : IM (option V) :=
    match fuel with
    | O => fail Fuel
    | S fuel' =>
        match current with
        | None => ret prev
        | Some _ => o <-- nx ;; t_last_loop fuel' nx current o
        end
    end.
  Definition t_last (fuel : nat) (nx : IM (option V)) : IM (option V) :=
    prev <-- nx ;; current <-- nx ;; t_last_loop fuel nx prev current.

  (** collect.h:12-17 [collect] with the [from_iter] of Vector
      (vector.h from_iter, a push_back loop) and List (linked_list.h:753-767). *)
  Definition t_collect (fuel : nat) (nx : IM (option V)) : IM (list V) :=
    t_fold (fun (l : list V) x w => (l ++ [x], w)) fuel nx [].

  (** find.h:12-27 as a terminal; utility.h:131-136. *)
  Definition t_find (fuel : nat) (nx : IM (option V)) (p : C -> V -> Wd -> bool * V * C * Wd) (c : C)
      : IM (option V) := find_loop fuel nx p c.
End Iter.
Arguments stage : clear implicits.
Arguments ist : clear implicits.
Arguments Ist {C Wd Src} _ _ _.
Arguments icl {C Wd Src} _.
Arguments isrc {C Wd Src} _.
Arguments iwd {C Wd Src} _.
