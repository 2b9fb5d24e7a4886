(** * PipeModel: pipelines over iterators that own memory

    include/mstl/iter/utility.h, adapters/map.h, adapters/filter.h,
    termnals/{collect,find,fold,reduce,for_each}.h once more, this time with
    the iterator objects themselves: every place where an iterator is copied,
    moved or destroyed.  (What the closures see and in which order is
    [IterModel]; here the closures are functions of the element only.)

    An adapter object is its source iterator together with a closure, so
    copying, moving and destroying it is copying, moving and destroying the
    source ([MapIter] and [FilterIter] declare no such members, map.h:20-46,
    filter.h:23-64: they are the implicit memberwise ones).

    The parameters are the members of the source iterator: [next()], the copy
    constructor, the move constructor (the new object and what is left of the
    old one) and the destructor.  When exactly a parameter of a function is
    destroyed (at its return or at the end of the full expression) is up to
    the implementation; here: at the return. *)
From Verif Require Import Base IterProps.

Section Pipe.
  (** [St]: the memory the iterator and the collection live in. *)
  Context {St V It : Type}.
  Notation HM := (M St).
  Context (inext : It -> HM (It * option V)) (icopy : It -> HM It) (imove : It -> It * It) (idel : It -> HM unit).
  Notation stages := (list (padapt (V := V))).

  (** find.h:12-27 [find(Iter&, P)]. *)
  Fixpoint find_from (fuel : nat) (nx : It -> HM (It * option V)) (q : V -> bool) (it : It) : HM (It * option V) :=
    match fuel with
    | O => fail Fuel
    | S fuel =>
        '(it', o) <-- nx it ;;
        match o with
        | None => ret (it', None)
        | Some x => if q x then ret (it', Some x) else find_from fuel nx q it'
        end
    end.
  (** map.h:29-38 [MapIter::next], filter.h:30-33 [FilterIter::next]; the
      stages outermost first. *)
  Fixpoint pnext (fuel : nat) (ps : stages) (it : It) : HM (It * option V) :=
    match ps with
    | [] => inext it
    | PMap g :: r => '(it', o) <-- pnext fuel r it ;; ret (it', g <$> o)
    | PFilter q :: r => find_from fuel (pnext fuel r) q it
    end.

  (** ** Building the pipeline *)
  (** utility.h:120-125 [operator|(Iter iter, AdapterHolder holder)] gets the
      iterator by value and moves it into [to_adapter] (map.h:60-62,
      filter.h:79-81, 95-97), which moves it into the constructor's parameter
      (map.h:27, filter.h:28, 50), from which the member is copied. *)
  Definition bar_stage (it : It) : HM It :=
    let '(p1, it') := imove it in
    let '(p2, p1') := imove p1 in
    m <-- icopy p2 ;;
    idel p2 ;;; idel p1' ;;; idel it' ;;; ret m.
  Fixpoint bar_stages (n : nat) (it : It) : HM It :=
    match n with
    | O => ret it
    | S n => m <-- bar_stage it ;; bar_stages n m
    end.
  (** utility.h:82-93 [combine(Iter iter, Com, Lambda lambda, Args... args)]
      copies the iterator into [map]/[filter] (map.h:48-52, filter.h:103-115),
      which copies it into the constructor's parameter, from which the member
      is copied.  The parameter of [combine] lives until everything inside has
      returned.  utility.h:16-26 is the case without further arguments. *)
  Fixpoint com {R} (n : nat) (it : It) (k : It -> HM R) : HM R :=
    match n with
    | O => k it
    | S n =>
        p1 <-- icopy it ;; p2 <-- icopy p1 ;; m <-- icopy p2 ;;
        idel p2 ;;; idel p1 ;;;
        r <-- com n m k ;; idel it ;;; ret r
    end.

  (** ** How a terminal gets its iterator *)
  Section Pass.
    Context {R : Type} (body : It -> HM (It * R)).
    (** [find] takes the iterator of utility.h:127-132 ([operator|]) or 31-39
        ([combine]) by reference (find.h:57-62). *)
    Definition by_ref (it : It) : HM R :=
      '(it', r) <-- body it ;; idel it' ;;; ret r.
    (** utility.h:127-132 [holder.call(std::move(iter))]; fold.h:36-39,
        for_each.h:29-34, reduce.h:33-41 forward it into a parameter. *)
    Definition by_move (it : It) : HM R :=
      let '(p, it0) := imove it in
      '(p', r) <-- body p ;; idel p' ;;; idel it0 ;;; ret r.
    (** utility.h:31-39 [terminalFunc(iter, args...)]. *)
    Definition by_copy (it : It) : HM R :=
      p <-- icopy it ;; '(p', r) <-- body p ;; idel p' ;;; idel it ;;; ret r.
    (** collect.h:23-28 (through [operator|]) and utility.h:31-39 (through
        [combine]) copy the iterator into the parameter of [collect], which
        collect.h:15-17 moves into the one of [from_iter]. *)
    Definition by_copy_move (it : It) : HM R :=
      p <-- icopy it ;;
      let '(p1, p0) := imove p in
      '(p', r) <-- body p1 ;; idel p' ;;; idel p0 ;;; idel it ;;; ret r.
  End Pass.

  (** ** What a terminal does *)
  Section Body.
    Context (fuel : nat) (nx : It -> HM (It * option V)).
    (** fold.h:16-27; for_each.h:15-21 is the case without a result. *)
    Fixpoint fold_body {A} (n : nat) (k : A -> V -> A) (a : A) (it : It) : HM (It * A) :=
      match n with
      | O => fail Fuel
      | S n =>
          '(it', o) <-- nx it ;;
          match o with None => ret (it', a) | Some x => fold_body n k (k a x) it' end
      end.
    (** reduce.h:14-26: the inner [fold] works on a copy. *)
    Definition reduce_body (k : V -> V -> V) (it : It) : HM (It * option V) :=
      '(it', o) <-- nx it ;;
      match o with
      | None => ret (it', None)
      | Some x =>
          p <-- icopy it' ;; '(p', r) <-- fold_body fuel k x p ;; idel p' ;;; ret (it', Some r)
      end.
    Definition find_body (q : V -> bool) (it : It) : HM (It * option V) := find_from fuel nx q it.
    (** A client calling [next()] some number of times. *)
    Fixpoint take_body (n : nat) (it : It) : HM (It * list (option V)) :=
      match n with
      | O => ret (it, [])
      | S n => '(it', o) <-- nx it ;; '(it2, os) <-- take_body n it' ;; ret (it2, o :: os)
      end.
    (** The loop of a [from_iter]: an empty collection, every element added
        to it, something at the end. *)
    Section Collect.
      Context {K R : Type} (knew : HM K) (kput : K -> V -> HM K) (kend : K -> HM R).
      Fixpoint collect_loop (n : nat) (k : K) (it : It) : HM (It * K) :=
        match n with
        | O => fail Fuel
        | S n =>
            '(it', o) <-- nx it ;;
            match o with None => ret (it', k) | Some x => k' <-- kput k x ;; collect_loop n k' it' end
        end.
      Definition collect_body (it : It) : HM (It * R) :=
        k <-- knew ;; '(it', k') <-- collect_loop fuel k it ;; r <-- kend k' ;; ret (it', r).
    End Collect.
  End Body.

  (** ** Whole expressions
      [bar]: [it | stage | ... | terminal]; else [combine(it, stages...,
      terminal)] ([reduce] has no such form). *)
  Section Whole.
    Context (bar : bool) (fuel : nat) (ps : stages).
    Notation nx := (pnext fuel ps).
    Notation len := (length ps).
    Definition build {R} (t : It -> HM R) (it : It) : HM R :=
      if bar then m <-- bar_stages len it ;; t m else com len it t.
    Definition run_fold {A} (k : A -> V -> A) (a : A) : It -> HM A :=
      build (if bar then by_move (fold_body nx fuel k a) else by_copy (fold_body nx fuel k a)).
    Definition run_reduce (k : V -> V -> V) : It -> HM (option V) := build (by_move (reduce_body fuel nx k)).
    Definition run_find (q : V -> bool) : It -> HM (option V) := build (by_ref (find_body fuel nx q)).
    Definition run_collect {K R} (knew : HM K) (kput : K -> V -> HM K) (kend : K -> HM R) : It -> HM R :=
      build (by_copy_move (collect_body fuel nx knew kput kend)).
    (** The pipeline kept in a variable, asked [n] times and dropped. *)
    Definition run_take (n : nat) (it : It) : HM (list (option V)) :=
      m <-- build ret it ;; by_ref (take_body nx n) m.
  End Whole.
End Pipe.

(** ** Two memories side by side
    The iterator and the collection may live in memories of different kinds
    (nodes of lists, buffers of vectors). *)
Section Sides.
  Context {S1 S2 : Type}.
  Definition inl_m {A} (m : M S1 A) : M (S1 * S2) A := fun h =>
    match m (fst h) with Ok (a, h1) => Ok (a, (h1, snd h)) | Err e => Err e end.
  Definition inr_m {A} (m : M S2 A) : M (S1 * S2) A := fun h =>
    match m (snd h) with Ok (a, h2) => Ok (a, (fst h, h2)) | Err e => Err e end.
End Sides.
