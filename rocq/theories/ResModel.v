(** * ResModel: include/mstl/result/result.h

    Several [Result<T, E>] variables.  A Result is a tag [type] and a union
    whose live member is tracked separately from the tag (they can disagree,
    see C36).  [clsT]/[clsE] say whether T/E is a class type
    (std::is_class_v): only then are destructors run, and only then does a
    move change its source.  Payloads are as in OptModel.  Constructing over a
    live class object is [Leak]; reading, assigning or destroying a member
    that is not the live one is [UB].  Ghost counters count constructions and
    destructions of class payloads stored in Results.

    [Result<T&, E>] (result.h:477-568) is this model with T the (non-class)
    pointer type.  Not modelled: the const overload of [ok_ref]
    (result.h:314-320; it returns an [Option<T&>] as [Option<const T&>], which
    does not compile when used), constexpr evaluation, and the text printed by
    a panic. *)
From Verif Require Import Base Machine OptModel.

Inductive rslot (V F : Type) := RsRaw | RsT (p : pay V) | RsE (q : pay F).
Global Arguments RsRaw {V F}.
Global Arguments RsT {V F} _.
Global Arguments RsE {V F} _.

(** result.h:397-405 the members; [rtag = true] is [Ok]. *)
Record robj (V F : Type) := RObj { rtag : bool; rslot_of : rslot V F }.
Global Arguments RObj {V F} _ _.
Global Arguments rtag {V F} _.
Global Arguments rslot_of {V F} _.

Record rst (V F : Type) := RSt { rvars : gmap nat (robj V F); rctor : N; rdtor : N }.
Global Arguments RSt {V F} _ _ _.
Global Arguments rvars {V F} _.
Global Arguments rctor {V F} _.
Global Arguments rdtor {V F} _.
Definition rinit {V F} : rst V F := RSt ∅ 0 0.

Section ResModel.
  Context {V F : Type} (clsT clsE : bool) (eqT : V -> V -> bool) (eqE : F -> F -> bool).
  Notation st := (rst V F).

  Definition res_get (i : nat) : M st (robj V F) :=
    fun s => match rvars s !! i with Some o => Ok (o, s) | None => Err UB end.
  Definition res_put (i : nat) (o : robj V F) : M st unit :=
    fun s => Ok (tt, RSt (<[i := o]> (rvars s)) (rctor s) (rdtor s)).
  (** Storage for a new variable whose [type] is initialised to [b]. *)
  Definition res_new (i : nat) (b : bool) : M st unit :=
    fun s => match rvars s !! i with
             | Some _ => Err UB
             | None => Ok (tt, RSt (<[i := RObj b RsRaw]> (rvars s)) (rctor s) (rdtor s))
             end.
  Definition res_del (i : nat) : M st unit :=
    fun s => Ok (tt, RSt (delete i (rvars s)) (rctor s) (rdtor s)).
  Definition rctick (cls : bool) : M st unit :=
    fun s => Ok (tt, RSt (rvars s) (if cls then rctor s + 1 else rctor s)%N (rdtor s)).
  Definition rdtick : M st unit :=
    fun s => Ok (tt, RSt (rvars s) (rctor s) (rdtor s + 1)).

  (** May a new object be constructed over this slot? *)
  Definition reusable (sl : rslot V F) : bool :=
    match sl with RsRaw => true | RsT _ => negb clsT | RsE _ => negb clsE end.
  Definition construct_t (i : nat) (p : pay V) : M st unit :=
    o <-- res_get i ;;
    if reusable (rslot_of o) then res_put i (RObj (rtag o) (RsT p)) ;;; rctick clsT else fail Leak.
  Definition construct_e (i : nat) (q : pay F) : M st unit :=
    o <-- res_get i ;;
    if reusable (rslot_of o) then res_put i (RObj (rtag o) (RsE q)) ;;; rctick clsE else fail Leak.
  Definition read_t (i : nat) : M st (pay V) :=
    o <-- res_get i ;; match rslot_of o with RsT p => ret p | _ => fail UB end.
  Definition read_e (i : nat) : M st (pay F) :=
    o <-- res_get i ;; match rslot_of o with RsE q => ret q | _ => fail UB end.
  Definition write_t (i : nat) (p : pay V) : M st unit :=
    o <-- res_get i ;;
    match rslot_of o with RsT _ => res_put i (RObj (rtag o) (RsT p)) | _ => fail UB end.
  Definition write_e (i : nat) (q : pay F) : M st unit :=
    o <-- res_get i ;;
    match rslot_of o with RsE _ => res_put i (RObj (rtag o) (RsE q)) | _ => fail UB end.
  (** [std::move(t)] / [std::move(e)] used as the source of a construction or
      assignment. *)
  Definition move_t (i : nat) : M st (pay V) :=
    p <-- read_t i ;; write_t i (after_move (negb clsT) p) ;;; ret p.
  Definition move_e (i : nat) : M st (pay F) :=
    q <-- read_e i ;; write_e i (after_move (negb clsE) q) ;;; ret q.

  (** result.h:407-417 [destroy_t], [destroy_e]: nothing for non-classes. *)
  Definition destroy_t (i : nat) : M st unit :=
    if clsT then
      o <-- res_get i ;;
      match rslot_of o with RsT _ => res_put i (RObj (rtag o) RsRaw) ;;; rdtick | _ => fail UB end
    else ret tt.
  Definition destroy_e (i : nat) : M st unit :=
    if clsE then
      o <-- res_get i ;;
      match rslot_of o with RsE _ => res_put i (RObj (rtag o) RsRaw) ;;; rdtick | _ => fail UB end
    else ret tt.

  (** result.h:423-429 [move_impl] and 431-437 [copy_impl]: into [i] from [j]. *)
  Definition move_impl (i j : nat) : M st unit :=
    r <-- res_get j ;;
    if rtag r then p <-- move_t j ;; construct_t i p
    else q <-- move_e j ;; construct_e i q.
  Definition copy_impl (i j : nat) : M st unit :=
    r <-- res_get j ;;
    if rtag r then p <-- read_t j ;; construct_t i p
    else q <-- read_e j ;; construct_e i q.

  (** result.h:28-36, 129-132 constructors from a T, [ok(args...)]. *)
  Definition res_ok (i : nat) (p : pay V) : M st unit := res_new i true ;;; construct_t i p.
  (** result.h:38-44, 145-149 constructors from an E, [err(args...)]. *)
  Definition res_err (i : nat) (q : pay F) : M st unit := res_new i false ;;; construct_e i q.
  (** result.h:46-48 copy and 50-53 move construction. *)
  Definition res_copy_ctor (i j : nat) : M st unit :=
    r <-- res_get j ;; res_new i (rtag r) ;;; copy_impl i j.
  Definition res_move_ctor (i j : nat) : M st unit :=
    r <-- res_get j ;; res_new i (rtag r) ;;; move_impl i j.
  (** result.h:55-61 the destructor. *)
  Definition res_destroy (i : nat) : M st unit :=
    r <-- res_get i ;;
    (if rtag r then destroy_t i else destroy_e i) ;;; res_del i.

  (** result.h:164-181 [is_ok], [is_err]. *)
  Definition res_is_ok (i : nat) : M st bool := r <-- res_get i ;; ret (rtag r).
  Definition res_is_err (i : nat) : M st bool := r <-- res_get i ;; ret (negb (rtag r)).
  (** result.h:200-206 [unwrap] and 225-227 [unwrap_unchecked]: an rvalue
      reference to the payload, from which the caller moves. *)
  Definition res_unwrap (i : nat) : M st (pay V) :=
    r <-- res_get i ;; if rtag r then move_t i else fail Panic.
  Definition res_unwrap_unchecked (i : nat) : M st (pay V) := move_t i.
  (** result.h:243-249 [unwrap_err], 265-267 [unwrap_err_unchecked]. *)
  Definition res_unwrap_err (i : nat) : M st (pay F) :=
    r <-- res_get i ;; if rtag r then fail Panic else move_e i.
  Definition res_unwrap_err_unchecked (i : nat) : M st (pay F) := move_e i.
  (** result.h:282-288 [ok()] (a copy), 306-312 [ok_ref()] (read through). *)
  Definition res_ok_opt (i : nat) : M st (option (pay V)) :=
    r <-- res_get i ;; if rtag r then p <-- read_t i ;; ret (Some p) else ret None.
  (** result.h:328-334 [err()], 352-366 [err_ref()]. *)
  Definition res_err_opt (i : nat) : M st (option (pay F)) :=
    r <-- res_get i ;; if rtag r then ret None else q <-- read_e i ;; ret (Some q).
  (** result.h:296-298, 374-380 [ok_unchecked], [ok_ref_unchecked];
      342-344, 388-394 [err_unchecked], [err_ref_unchecked]. *)
  Definition res_ok_unchecked (i : nat) : M st (pay V) := read_t i.
  Definition res_err_unchecked (i : nat) : M st (pay F) := read_e i.

  (** result.h:63-83 move assignment [i = std::move(j)]. *)
  Definition res_move_assign (i j : nat) : M st unit :=
    if (i =? j)%nat then _ <-- res_get i ;; ret tt else
    a <-- res_get i ;; b <-- res_get j ;;
    if eqb (rtag a) (rtag b) then
      if rtag a then p <-- res_unwrap j ;; write_t i p
      else q <-- res_unwrap_err j ;; write_e i q
    else
      (if rtag a then destroy_t i else destroy_e i) ;;; move_impl i j.
  (** result.h:85-104 copy assignment. *)
  Definition res_copy_assign (i j : nat) : M st unit :=
    if (i =? j)%nat then _ <-- res_get i ;; ret tt else
    a <-- res_get i ;; b <-- res_get j ;;
    if eqb (rtag a) (rtag b) then
      if rtag a then p <-- read_t j ;; write_t i p
      else q <-- read_e j ;; write_e i q
    else
      (if rtag a then destroy_t i else destroy_e i) ;;; copy_impl i j.

  (** result.h:106-116 [operator==].  Comparing a moved-from payload has an
      unspecified result; the model answers [false], the specification
      nothing. *)
  Definition peq {X} (eq : X -> X -> bool) (a b : pay X) : bool :=
    match a, b with PVal x, PVal y => eq x y | _, _ => false end.
  Definition res_eq (i j : nat) : M st bool :=
    a <-- res_get i ;; b <-- res_get j ;;
    if eqb (rtag a) (rtag b) then
      if rtag a then p <-- read_t i ;; q <-- read_t j ;; ret (peq eqT p q)
      else p <-- read_e i ;; q <-- read_e j ;; ret (peq eqE p q)
    else ret false.
End ResModel.

Inductive eop (V F : Type) :=
| EOk (i : nat) (v : V) | EErr (i : nat) (e : F)
| ECopyCtor (i j : nat) | EMoveCtor (i j : nat)
| ECopyAssign (i j : nat) | EMoveAssign (i j : nat)
| EIsOk (i : nat) | EIsErr (i : nat)
| EUnwrap (i : nat) | EUnwrapU (i : nat) | EUnwrapErr (i : nat) | EUnwrapErrU (i : nat)
| EOkOpt (i : nat) | EErrOpt (i : nat) | EOkU (i : nat) | EErrU (i : nat)
| EEq (i j : nat) | EDestroy (i : nat).
Global Arguments EOk {V F} _ _.
Global Arguments EErr {V F} _ _.
Global Arguments ECopyCtor {V F} _ _.
Global Arguments EMoveCtor {V F} _ _.
Global Arguments ECopyAssign {V F} _ _.
Global Arguments EMoveAssign {V F} _ _.
Global Arguments EIsOk {V F} _.
Global Arguments EIsErr {V F} _.
Global Arguments EUnwrap {V F} _.
Global Arguments EUnwrapU {V F} _.
Global Arguments EUnwrapErr {V F} _.
Global Arguments EUnwrapErrU {V F} _.
Global Arguments EOkOpt {V F} _.
Global Arguments EErrOpt {V F} _.
Global Arguments EOkU {V F} _.
Global Arguments EErrU {V F} _.
Global Arguments EEq {V F} _ _.
Global Arguments EDestroy {V F} _.

Inductive eout (V F : Type) :=
| EU | EB (b : bool) | EV (p : pay V) | EF (q : pay F) | EOV (o : option (pay V)) | EOF (o : option (pay F)).
Global Arguments EU {V F}.
Global Arguments EB {V F} _.
Global Arguments EV {V F} _.
Global Arguments EF {V F} _.
Global Arguments EOV {V F} _.
Global Arguments EOF {V F} _.

Section ResStep.
  Context {V F : Type} (clsT clsE : bool) (eqT : V -> V -> bool) (eqE : F -> F -> bool).
  Definition via {A} (k : A -> eout V F) (m : M (rst V F) A) : M (rst V F) (eout V F) :=
    a <-- m ;; ret (k a).
  Definition res_step (o : eop V F) : M (rst V F) (eout V F) :=
    match o with
    | EOk i v => via (fun _ => EU) (res_ok clsT clsE i (PVal v))
    | EErr i e => via (fun _ => EU) (res_err clsT clsE i (PVal e))
    | ECopyCtor i j => via (fun _ => EU) (res_copy_ctor clsT clsE i j)
    | EMoveCtor i j => via (fun _ => EU) (res_move_ctor clsT clsE i j)
    | ECopyAssign i j => via (fun _ => EU) (res_copy_assign clsT clsE i j)
    | EMoveAssign i j => via (fun _ => EU) (res_move_assign clsT clsE i j)
    | EIsOk i => via EB (res_is_ok i)
    | EIsErr i => via EB (res_is_err i)
    | EUnwrap i => via EV (res_unwrap clsT i)
    | EUnwrapU i => via EV (res_unwrap_unchecked clsT i)
    | EUnwrapErr i => via EF (res_unwrap_err clsE i)
    | EUnwrapErrU i => via EF (res_unwrap_err_unchecked clsE i)
    | EOkOpt i => via EOV (res_ok_opt i)
    | EErrOpt i => via EOF (res_err_opt i)
    | EOkU i => via EV (res_ok_unchecked i)
    | EErrU i => via EF (res_err_unchecked i)
    | EEq i j => via EB (res_eq eqT eqE i j)
    | EDestroy i => via (fun _ => EU) (res_destroy clsT clsE i)
    end.
  Definition res_run := run_ops res_step.
End ResStep.
