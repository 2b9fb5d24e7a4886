(** * Base: outcomes, machine words, heaps

    Shared by every model file.  Nothing here models a particular function of
    modern_stl; it fixes how C++ executions are represented. *)
From stdpp Require Export base tactics list numbers gmap.
From Coq Require Export ZifyBool ZifyNat ZifyN Lia.

Global Arguments N.add : simpl never.
Global Arguments N.mul : simpl never.
Global Arguments N.sub : simpl never.

(** The ways an execution can fail to return normally.

    - [UB]    undefined behaviour of the C++ abstract machine
    - [Panic] [MSTL_PANIC]: prints and exits with code 101
              (include/mstl/global.h:10, 58-68)
    - [Leak]  storage is released while it still holds live elements whose
              destructors will never run (not UB, but a lifetime error)
    - [Fuel]  a loop of the model ran out of fuel (divergence) *)
Inductive err := UB | Panic | Leak | Fuel.

Global Instance err_eq_dec : EqDecision err.
Proof. solve_decision. Defined.

Inductive outcome (A : Type) : Type :=
| Ok (a : A)
| Err (e : err).
Global Arguments Ok {A} _.
Global Arguments Err {A} _.

(** State-and-failure monad. *)
Definition M (S A : Type) : Type := S -> outcome (A * S).

Definition ret {S A} (a : A) : M S A := fun s => Ok (a, s).
Definition fail {S A} (e : err) : M S A := fun _ => Err e.
Definition bind {S A B} (m : M S A) (k : A -> M S B) : M S B :=
  fun s => match m s with
           | Ok (a, s') => k a s'
           | Err e => Err e
           end.

Declare Scope m_scope.
Delimit Scope m_scope with m.
Notation "x <-- m1 ;; m2" := (bind m1 (fun x => m2))
  (at level 100, m1 at next level, right associativity) : m_scope.
Notation "' pat <-- m1 ;; m2" := (bind m1 (fun x => match x with pat => m2 end))
  (at level 100, pat pattern, m1 at next level, right associativity) : m_scope.
Notation "m1 ;;; m2" := (bind m1 (fun _ => m2))
  (at level 100, right associativity) : m_scope.
Global Open Scope m_scope.

(** [usize] is an unsigned 64-bit word (include/mstl/global.h:43,
    [std::uintptr_t] on a 64-bit target). *)
Definition W : N := 18446744073709551616.
Definition uadd (a b : N) : N := (a + b) mod W.
Definition usub (a b : N) : N := (a + W - b) mod W.
Definition umul (a b : N) : N := (a * b) mod W.

(** The largest request [::operator new(n, std::nothrow)] can satisfy
    (PTRDIFF_MAX); larger ones return the null pointer. *)
Definition alloc_max : N := 9223372036854775807.

(** A heap maps addresses to cells of type [C]; [hnext] is the next fresh
    address.  Addresses are never reused, so a dangling pointer stays
    detectable.  [hmoves] is a ghost counter: of element relocations for
    the vectors, of calls of user-supplied functions for the lists. *)
Record heap (C : Type) : Type := Heap {
  hmap : gmap N C;
  hnext : N;
  hmoves : N;
}.
Global Arguments Heap {C} _ _ _.
Global Arguments hmap {C} _.
Global Arguments hnext {C} _.
Global Arguments hmoves {C} _.

Definition hempty {C} : heap C := Heap ∅ 0 0.

(** Whether [::operator new(n, std::nothrow)] finds room for the request that
    would get this address (memory/allocators/allocator.h:24-31).  Unless
    another memory is named, there is always room. *)
Class memory := room : N -> bool.
Global Instance endless : memory := fun _ => true.

Section HeapOps.
  Context {C : Type}.

  Definition halloc (c : C) : M (heap C) N :=
    fun h => Ok (hnext h, Heap (<[hnext h := c]> (hmap h)) (hnext h + 1) (hmoves h)).

  (** A request that may fail: null, and the address is skipped. *)
  Definition hnew `{memory} (c : C) : M (heap C) (option N) :=
    fun h => if room (hnext h) then Ok (Some (hnext h), Heap (<[hnext h := c]> (hmap h)) (hnext h + 1) (hmoves h))
             else Ok (None, Heap (hmap h) (hnext h + 1) (hmoves h)).
  Lemma hnew_endless c : hnew c = (a <-- halloc c ;; ret (Some a)).
  Proof. reflexivity. Qed.

  (** Reading through a null, dangling or wild pointer is UB. *)
  Definition hread (a : N) : M (heap C) C :=
    fun h => match hmap h !! a with
             | Some c => Ok (c, h)
             | None => Err UB
             end.

  Definition hwrite (a : N) (c : C) : M (heap C) unit :=
    fun h => match hmap h !! a with
             | Some _ => Ok (tt, Heap (<[a := c]> (hmap h)) (hnext h) (hmoves h))
             | None => Err UB
             end.

  (** Freeing a block that is not allocated (double free) is UB. *)
  Definition hfree (a : N) : M (heap C) unit :=
    fun h => match hmap h !! a with
             | Some _ => Ok (tt, Heap (delete a (hmap h)) (hnext h) (hmoves h))
             | None => Err UB
             end.

  Definition htick : M (heap C) unit :=
    fun h => Ok (tt, Heap (hmap h) (hnext h) (hmoves h + 1)).
End HeapOps.

(** List lookup by a 64-bit index, without converting a huge index to [nat]. *)
Definition nlookup {A} (l : list A) (i : N) : option A :=
  if (i <? N.of_nat (length l))%N then l !! N.to_nat i else None.
Definition ninsert {A} (l : list A) (i : N) (x : A) : list A :=
  <[N.to_nat i := x]> l.

(** [for (usize i = lo; i < lo + n; i++) body(i)]. *)
Fixpoint for_up {S} (n : nat) (i : N) (body : N -> M S unit) : M S unit :=
  match n with
  | O => ret tt
  | S n' => body i ;;; for_up n' (i + 1)%N body
  end.

(** [while (d > 0) { body; d--; }]. *)
Fixpoint repeat_m {S X} (n : nat) (body : X -> M S X) (x : X) : M S X :=
  match n with
  | O => ret x
  | S n' => x' <-- body x ;; repeat_m n' body x'
  end.

(** Running a list of operations, collecting outputs. *)
Section Run.
  Context {St Op Out : Type} (step : Op -> M St Out).
  Fixpoint run_ops (ops : list Op) : M St (list Out) :=
    match ops with
    | [] => ret []
    | o :: r => x <-- step o ;; xs <-- run_ops r ;; ret (x :: xs)
    end.
End Run.

(** The specification side: a partial step function; [None] means the caller
    broke a documented precondition. *)
Section SpecRun.
  Context {Sp Op Out : Type} (sstep : Sp -> Op -> option (Sp * Out)).
  Fixpoint spec_run (s : Sp) (ops : list Op) : option (Sp * list Out) :=
    match ops with
    | [] => Some (s, [])
    | o :: r =>
        match sstep s o with
        | None => None
        | Some (s1, x) =>
            match spec_run s1 r with
            | None => None
            | Some (s2, xs) => Some (s2, x :: xs)
            end
        end
    end.

  (** [along P s ops]: [P] holds of every (state, operation, next state)
      met while running the specification. *)
  Fixpoint along (P : Sp -> Op -> Sp -> Prop) (s : Sp) (ops : list Op) : Prop :=
    match ops with
    | [] => True
    | o :: r =>
        match sstep s o with
        | None => False
        | Some (s1, _) => P s o s1 /\ along P s1 r
        end
    end.
End SpecRun.

(** ** Worlds: any number of C++ variables (numbered by [nat]) sharing a heap. *)
Record world (C O : Type) := World { w_heap : heap C; w_vars : gmap nat O }.
Global Arguments World {C O} _ _.
Global Arguments w_heap {C O} _.
Global Arguments w_vars {C O} _.

Definition winit {C O} : world C O := World hempty ∅.

Section WorldOps.
  Context {C O : Type}.
  (** Using a variable that does not exist is not a C++ program: [UB]. *)
  Definition wget (i : nat) : M (world C O) O :=
    fun w => match w_vars w !! i with Some o => Ok (o, w) | None => Err UB end.
  Definition wset (i : nat) (o : O) : M (world C O) unit :=
    fun w => Ok (tt, World (w_heap w) (<[i := o]> (w_vars w))).
  Definition wnew (i : nat) : M (world C O) unit :=
    fun w => match w_vars w !! i with Some _ => Err UB | None => Ok (tt, w) end.
  Definition wdel (i : nat) : M (world C O) unit :=
    fun w => Ok (tt, World (w_heap w) (delete i (w_vars w))).
  (** Run a heap computation inside the world. *)
  Definition lift {A} (m : M (heap C) A) : M (world C O) A :=
    fun w => match m (w_heap w) with
             | Ok (a, h') => Ok (a, World h' (w_vars w))
             | Err e => Err e
             end.
End WorldOps.
