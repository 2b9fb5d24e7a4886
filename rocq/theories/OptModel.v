(** * OptModel: include/mstl/option/option.h

    Several [Option<T>] variables.  The union is a slot that is untouched
    storage, the live [value], or the live [non_value]; constructing over a
    live [value] ([Leak]: its destructor is skipped) and destroying or reading
    a member that is not the live one ([UB]) are errors.  A payload is a value
    or moved-from ("valid but unspecified").  [triv] says whether T is a type
    whose move is a copy (scalars), in which case a moved-from payload keeps
    its value.  Ghost counters record payload constructions and destructions,
    temporaries included.

    Not modelled: constexpr evaluation; exceptions thrown by T are in OptThrow. *)
From Verif Require Import Base Machine.

Inductive pay (V : Type) := PVal (v : V) | PMoved.
Global Arguments PVal {V} _.
Global Arguments PMoved {V}.

Definition pmap {V} (f : V -> V) (p : pay V) : pay V :=
  match p with PVal v => PVal (f v) | PMoved => PMoved end.

(** What a payload looks like after it was the source of a move. *)
Definition after_move {V} (triv : bool) (p : pay V) : pay V :=
  if triv then p else PMoved.

Inductive oslot (V : Type) := OsRaw | OsNon | OsVal (p : pay V).
Global Arguments OsRaw {V}.
Global Arguments OsNon {V}.
Global Arguments OsVal {V} _.

(** option.h:208-213 the members: the union and [hold_value]. *)
Record oobj (V : Type) := OObj { ohold : bool; oslot_of : oslot V }.
Global Arguments OObj {V} _ _.
Global Arguments ohold {V} _.
Global Arguments oslot_of {V} _.

Record ost (V : Type) := OSt { ovars : gmap nat (oobj V); octor : N; odtor : N }.
Global Arguments OSt {V} _ _ _.
Global Arguments ovars {V} _.
Global Arguments octor {V} _.
Global Arguments odtor {V} _.
Definition oinit {V} : ost V := OSt ∅ 0 0.

Section OptModel.
  Context {V : Type} (triv : bool).
  Notation st := (ost V).

  Definition oget (i : nat) : M st (oobj V) :=
    fun s => match ovars s !! i with Some o => Ok (o, s) | None => Err UB end.
  Definition oput (i : nat) (o : oobj V) : M st unit :=
    fun s => Ok (tt, OSt (<[i := o]> (ovars s)) (octor s) (odtor s)).
  (** Storage for a new variable; [hold_value = false] by its default member
      initialiser (option.h:213). *)
  Definition onew (i : nat) : M st unit :=
    fun s => match ovars s !! i with
             | Some _ => Err UB
             | None => Ok (tt, OSt (<[i := OObj false OsRaw]> (ovars s)) (octor s) (odtor s))
             end.
  Definition odel (i : nat) : M st unit :=
    fun s => Ok (tt, OSt (delete i (ovars s)) (octor s) (odtor s)).
  Definition octick : M st unit := fun s => Ok (tt, OSt (ovars s) (octor s + 1) (odtor s)).
  Definition odtick : M st unit := fun s => Ok (tt, OSt (ovars s) (octor s) (odtor s + 1)).

  (** Reading the union member [value]. *)
  Definition oread (i : nat) : M st (pay V) :=
    o <-- oget i ;;
    match oslot_of o with OsVal p => ret p | _ => fail UB end.
  (** Writing it (assignment to a live object). *)
  Definition owrite (i : nat) (p : pay V) : M st unit :=
    o <-- oget i ;;
    match oslot_of o with OsVal _ => oput i (OObj (ohold o) (OsVal p)) | _ => fail UB end.
  (** [std::move(value)] used as the source of a construction or assignment. *)
  Definition omove_out (i : nat) : M st (pay V) :=
    p <-- oread i ;; owrite i (after_move triv p) ;;; ret p.

  Definition set_hold (i : nat) (b : bool) : M st unit :=
    o <-- oget i ;; oput i (OObj b (oslot_of o)).

  (** option.h:185-188 [construct_val]. *)
  Definition construct_val (i : nat) (p : pay V) : M st unit :=
    o <-- oget i ;;
    match oslot_of o with
    | OsVal _ => fail Leak
    | _ => oput i (OObj (ohold o) (OsVal p)) ;;; octick
    end.
  (** option.h:190-192 [destroy_val]. *)
  Definition destroy_val (i : nat) : M st unit :=
    o <-- oget i ;;
    match oslot_of o with
    | OsVal _ => oput i (OObj (ohold o) OsRaw) ;;; odtick
    | _ => fail UB
    end.
  (** option.h:194-196 [construct_non]. *)
  Definition construct_non (i : nat) : M st unit :=
    o <-- oget i ;;
    match oslot_of o with
    | OsVal _ => fail Leak
    | _ => oput i (OObj (ohold o) OsNon)
    end.
  (** option.h:198-200 [destroy_non]. *)
  Definition destroy_non (i : nat) : M st unit :=
    o <-- oget i ;;
    match oslot_of o with
    | OsNon => oput i (OObj (ohold o) OsRaw)
    | _ => fail UB
    end.
  (** option.h:202-206 [reset]. *)
  Definition reset (i : nat) : M st unit :=
    destroy_val i ;;; construct_non i ;;; set_hold i false.

  (** option.h:24-27, 181-182 [some(t)]: the constructor builds [value] from
      the argument and sets [hold_value]. *)
  Definition o_some (i : nat) (p : pay V) : M st unit :=
    onew i ;;; construct_val i p ;;; set_hold i true.
  (** option.h:19-23 [emplace(args...)]: a temporary T is built from the
      arguments, moved into the Option and destroyed. *)
  Definition o_emplace (i : nat) (p : pay V) : M st unit :=
    octick ;;; o_some i p ;;; odtick.
  (** option.h:28-29, 183 [none()]. *)
  Definition o_none (i : nat) : M st unit :=
    onew i ;;; construct_non i ;;; set_hold i false.

  (** option.h:31-32 [is_some], [is_none]. *)
  Definition o_is_some (i : nat) : M st bool := o <-- oget i ;; ret (ohold o).
  Definition o_is_none (i : nat) : M st bool := o <-- oget i ;; ret (negb (ohold o)).

  (** option.h:43-48 [unwrap_unchecked]: the result [res] is constructed by
      moving; the caller destroys it eventually ([odtick]). *)
  Definition o_unwrap_unchecked (i : nat) : M st (pay V) :=
    p <-- omove_out i ;; octick ;;; reset i ;;; odtick ;;; ret p.
  (** option.h:34-41 [unwrap]. *)
  Definition o_unwrap (i : nat) : M st (pay V) :=
    b <-- o_is_some i ;;
    if b : bool then o_unwrap_unchecked i else fail Panic.
  (** option.h:68-76 [as_ref_uncheck] and reading through the reference. *)
  Definition o_as_ref_uncheck (i : nat) : M st (pay V) := oread i.
  (** option.h:50-66 [as_ref] (const and not) and reading through it. *)
  Definition o_as_ref (i : nat) : M st (pay V) :=
    b <-- o_is_some i ;; if b : bool then oread i else fail Panic.
  (** option.h:50-57 [as_ref() = p]: writing through the reference. *)
  Definition o_as_ref_set (i : nat) (p : pay V) : M st unit :=
    b <-- o_is_some i ;; if b : bool then owrite i p else fail Panic.

  (** option.h:78-89 [map], the result stored in the new variable [j].
      [byval] says whether the lambda takes its parameter by value (it is
      then constructed by moving from [value]) or by const reference.  The
      lambda's result is a temporary moved into the new Option. *)
  Definition o_map (byval : bool) (f : V -> V) (i j : nat) : M st unit :=
    b <-- o_is_some i ;;
    if b : bool then
      x <-- (if byval then p <-- omove_out i ;; octick ;;; ret p else oread i) ;;
      octick ;;;
      (if byval then odtick else ret tt) ;;;
      o_some j (pmap f x) ;;; odtick
    else o_none j.

  (** option.h:94-104 the move constructor: variable [i] from [j]. *)
  Definition o_move_ctor (i j : nat) : M st unit :=
    onew i ;;;
    o <-- oget j ;;
    set_hold i (ohold o) ;;;
    if ohold o then
      p <-- omove_out j ;; construct_val i p ;;; reset j
    else construct_non i.

  (** option.h:109-131 move assignment [i = std::move(j)]. *)
  Definition o_move_assign (i j : nat) : M st unit :=
    if (i =? j)%nat then _ <-- oget i ;; ret tt else
    a <-- oget i ;; b <-- oget j ;;
    if eqb (ohold a) (ohold b) then
      if ohold a then p <-- omove_out j ;; owrite i p else ret tt
    else
      set_hold i (ohold b) ;;;
      if ohold b then
        destroy_non i ;;;
        p <-- omove_out j ;; construct_val i p ;;;
        reset j
      else
        destroy_val i ;;; construct_non i.

  (** option.h:136-145 the copy constructor. *)
  Definition o_copy_ctor (i j : nat) : M st unit :=
    onew i ;;;
    o <-- oget j ;;
    set_hold i (ohold o) ;;;
    if ohold o then p <-- oread j ;; construct_val i p else construct_non i.

  (** option.h:150-170 copy assignment. *)
  Definition o_copy_assign (i j : nat) : M st unit :=
    if (i =? j)%nat then _ <-- oget i ;; ret tt else
    a <-- oget i ;; b <-- oget j ;;
    if eqb (ohold a) (ohold b) then
      if ohold a then p <-- oread j ;; owrite i p else ret tt
    else
      set_hold i (ohold b) ;;;
      if ohold b then
        destroy_non i ;;; p <-- oread j ;; construct_val i p
      else
        destroy_val i ;;; construct_non i.

  (** option.h:172-178 the destructor. *)
  Definition o_destroy (i : nat) : M st unit :=
    o <-- oget i ;;
    (if ohold o then destroy_val i else destroy_non i) ;;; odel i.
End OptModel.

(** The operations a client can perform, and what it sees. *)
Inductive oop (V : Type) :=
| OSome (i : nat) (v : V) | OEmplace (i : nat) (v : V) | ONone (i : nat)
| OIsSome (i : nat) | OIsNone (i : nat)
| OUnwrap (i : nat) | OUnwrapU (i : nat)
| OAsRef (i : nat) | OAsRefU (i : nat) | OAsRefSet (i : nat) (v : V)
| OMap (byval : bool) (f : V -> V) (i j : nat)
| OMoveCtor (i j : nat) | OMoveAssign (i j : nat)
| OCopyCtor (i j : nat) | OCopyAssign (i j : nat)
| ODestroy (i : nat).
Global Arguments OSome {V} _ _.
Global Arguments OEmplace {V} _ _.
Global Arguments ONone {V} _.
Global Arguments OIsSome {V} _.
Global Arguments OIsNone {V} _.
Global Arguments OUnwrap {V} _.
Global Arguments OUnwrapU {V} _.
Global Arguments OAsRef {V} _.
Global Arguments OAsRefU {V} _.
Global Arguments OAsRefSet {V} _ _.
Global Arguments OMap {V} _ _ _ _.
Global Arguments OMoveCtor {V} _ _.
Global Arguments OMoveAssign {V} _ _.
Global Arguments OCopyCtor {V} _ _.
Global Arguments OCopyAssign {V} _ _.
Global Arguments ODestroy {V} _.

Inductive oout (V : Type) := OutU | OutB (b : bool) | OutP (p : pay V).
Global Arguments OutU {V}.
Global Arguments OutB {V} _.
Global Arguments OutP {V} _.

Section OptStep.
  Context {V : Type} (triv : bool).
  Definition unit_out (m : M (ost V) unit) : M (ost V) (oout V) := _ <-- m ;; ret OutU.
  Definition bool_out (m : M (ost V) bool) : M (ost V) (oout V) := b <-- m ;; ret (OutB b).
  Definition pay_out (m : M (ost V) (pay V)) : M (ost V) (oout V) := p <-- m ;; ret (OutP p).
  Definition opt_step (o : oop V) : M (ost V) (oout V) :=
    match o with
    | OSome i v => unit_out (o_some i (PVal v))
    | OEmplace i v => unit_out (o_emplace i (PVal v))
    | ONone i => unit_out (o_none i)
    | OIsSome i => bool_out (o_is_some i)
    | OIsNone i => bool_out (o_is_none i)
    | OUnwrap i => pay_out (o_unwrap triv i)
    | OUnwrapU i => pay_out (o_unwrap_unchecked triv i)
    | OAsRef i => pay_out (o_as_ref i)
    | OAsRefU i => pay_out (o_as_ref_uncheck i)
    | OAsRefSet i v => unit_out (o_as_ref_set i (PVal v))
    | OMap b f i j => unit_out (o_map triv b f i j)
    | OMoveCtor i j => unit_out (o_move_ctor triv i j)
    | OMoveAssign i j => unit_out (o_move_assign triv i j)
    | OCopyCtor i j => unit_out (o_copy_ctor i j)
    | OCopyAssign i j => unit_out (o_copy_assign i j)
    | ODestroy i => unit_out (o_destroy i)
    end.
  Definition opt_run := run_ops opt_step.
End OptStep.

(** ** Option<T&> (option.h:224-335): a nullable pointer [option A], [A] being
    the identity of the referent. *)
Section RefOpt.
  Context {A : Type}.
  Notation rst := (gmap nat (option A)).
  Definition rget (i : nat) : M rst (option A) :=
    fun s => match s !! i with Some p => Ok (p, s) | None => Err UB end.
  Definition rput (i : nat) (p : option A) : M rst unit := fun s => Ok (tt, <[i := p]> s).
  Definition rnew (i : nat) (p : option A) : M rst unit :=
    fun s => match s !! i with Some _ => Err UB | None => Ok (tt, <[i := p]> s) end.
  (** option.h:243-252 [unwrap]; 254-259 [unwrap_unchecked] (dereferences a
      null pointer when none). *)
  Definition ro_unwrap (i : nat) : M rst A :=
    p <-- rget i ;;
    match p with Some a => rput i None ;;; ret a | None => fail Panic end.
  Definition ro_unwrap_unchecked (i : nat) : M rst A :=
    p <-- rget i ;; rput i None ;;;
    match p with Some a => ret a | None => fail UB end.
  (** option.h:261-277 [as_ref]; 279-287 [as_ref_uncheck]. *)
  Definition ro_as_ref (i : nat) : M rst A :=
    p <-- rget i ;; match p with Some a => ret a | None => fail Panic end.
  Definition ro_as_ref_uncheck (i : nat) : M rst A :=
    p <-- rget i ;; match p with Some a => ret a | None => fail UB end.
  (** option.h:289-300 [map] with a lambda returning a reference. *)
  Definition ro_map (f : A -> A) (i j : nat) : M rst unit :=
    p <-- rget i ;; rnew j (f <$> p).
  (** option.h:302-327 copies and moves. *)
  Definition ro_copy_ctor (i j : nat) : M rst unit := p <-- rget j ;; rnew i p.
  Definition ro_copy_assign (i j : nat) : M rst unit :=
    _ <-- rget i ;; p <-- rget j ;; rput i p.
  Definition ro_move_ctor (i j : nat) : M rst unit := p <-- rget j ;; rnew i p ;;; rput j None.
  Definition ro_move_assign (i j : nat) : M rst unit :=
    _ <-- rget i ;;
    if (i =? j)%nat then ret tt else
    p <-- rget j ;; rput i p ;;; rput j None.
End RefOpt.

Inductive rop (A : Type) :=
| RSome (i : nat) (a : A) | RNone (i : nat) | RIsSome (i : nat)
| RUnwrap (i : nat) | RUnwrapU (i : nat) | RAsRef (i : nat) | RAsRefU (i : nat)
| RMap (f : A -> A) (i j : nat)
| RCopyCtor (i j : nat) | RCopyAssign (i j : nat) | RMoveCtor (i j : nat) | RMoveAssign (i j : nat).
Global Arguments RSome {A} _ _.
Global Arguments RNone {A} _.
Global Arguments RIsSome {A} _.
Global Arguments RUnwrap {A} _.
Global Arguments RUnwrapU {A} _.
Global Arguments RAsRef {A} _.
Global Arguments RAsRefU {A} _.
Global Arguments RMap {A} _ _ _.
Global Arguments RCopyCtor {A} _ _.
Global Arguments RCopyAssign {A} _ _.
Global Arguments RMoveCtor {A} _ _.
Global Arguments RMoveAssign {A} _ _.
Inductive rout (A : Type) := ROutU | ROutB (b : bool) | ROutA (a : A).
Global Arguments ROutU {A}.
Global Arguments ROutB {A} _.
Global Arguments ROutA {A} _.

Section RefStep.
  Context {A : Type}.
  Definition ro_step (o : rop A) : M (gmap nat (option A)) (rout A) :=
    match o with
    | RSome i a => rnew i (Some a) ;;; ret ROutU
    | RNone i => rnew i None ;;; ret ROutU
    | RIsSome i => p <-- rget i ;; ret (ROutB (match p with Some _ => true | None => false end))
    | RUnwrap i => a <-- ro_unwrap i ;; ret (ROutA a)
    | RUnwrapU i => a <-- ro_unwrap_unchecked i ;; ret (ROutA a)
    | RAsRef i => a <-- ro_as_ref i ;; ret (ROutA a)
    | RAsRefU i => a <-- ro_as_ref_uncheck i ;; ret (ROutA a)
    | RMap f i j => ro_map f i j ;;; ret ROutU
    | RCopyCtor i j => ro_copy_ctor i j ;;; ret ROutU
    | RCopyAssign i j => ro_copy_assign i j ;;; ret ROutU
    | RMoveCtor i j => ro_move_ctor i j ;;; ret ROutU
    | RMoveAssign i j => ro_move_assign i j ;;; ret ROutU
    end.
  Definition ro_run := run_ops ro_step.
End RefStep.
