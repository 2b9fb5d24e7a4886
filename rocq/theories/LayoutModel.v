(** * LayoutModel: include/mstl/memory/layout.h and
      include/mstl/memory/allocators/allocator.h

    [::operator new]/[delete] of the C++ runtime are modelled by a heap of
    blocks that remember the byte count and alignment they were requested
    with; a sized (and possibly aligned) [delete] with other numbers is [UB].
    Not modelled: the constant-evaluated branches of
    [Allocator::allocate<T>]/[deallocate<T>], [operator<<] of Layout. *)
From Verif Require Import Base.
Local Open Scope N_scope.

(** layout.h:18-20. *)
Record layout := Layout { lsize : N; lalign : N }.

(** [std::popcount] on a 64-bit word. *)
Fixpoint pos_popcount (p : positive) : N :=
  match p with
  | xH => 1
  | xO q => pos_popcount q
  | xI q => 1 + pos_popcount q
  end.
Definition popcount (n : N) : N := match n with 0 => 0 | Npos p => pos_popcount p end.

(** layout.h:44-50 [from_size_align]; [None] is [LayoutError]. *)
Definition from_size_align (size align : N) : option layout :=
  if (align =? 0) || negb (popcount align =? 1) then None
  else Some (Layout size align).
(** layout.h:55-57 [from_size_align_unchecked]. *)
Definition from_size_align_unchecked (size align : N) : layout := Layout size align.

(** [__STDCPP_DEFAULT_NEW_ALIGNMENT__] on the x86-64 targets the project
    builds for. *)
Definition default_new_alignment : N := 16.

(** A block: the bytes asked for, and the alignment if the over-aligned
    [operator new] was used. *)
Record ablock := ABlock { ab_bytes : N; ab_align : option N }.

Notation AHeap := (heap ablock).

(** [::operator new(bytes, [al,] std::nothrow_t{})]: null when the request
    exceeds what any object may occupy. *)
Definition op_new (bytes : N) (al : option N) : M AHeap (option N) :=
  if alloc_max <? bytes then ret None
  else a <-- halloc (ABlock bytes al) ;; ret (Some a).
(** [::operator delete(ptr, bytes[, al])]; deleting null does nothing. *)
Definition op_delete (ptr : option N) (bytes : N) (al : option N) : M AHeap unit :=
  match ptr with
  | None => ret tt
  | Some a =>
      b <-- hread a ;;
      if (ab_bytes b =? bytes) && bool_decide (ab_align b = al) then hfree a else fail UB
  end.

(** allocator.h:24-31 [allocate(layout, length)]. *)
Definition allocate (l : layout) (length : N) : M AHeap (option N) :=
  if default_new_alignment <? lalign l
  then op_new (umul (lsize l) length) (Some (lalign l))
  else op_new (umul (lsize l) length) None.
(** allocator.h:50-57 [deallocate(ptr, layout, len)]. *)
Definition deallocate (ptr : option N) (l : layout) (len : N) : M AHeap unit :=
  if default_new_alignment <? lalign l
  then op_delete ptr (umul len (lsize l)) (Some (lalign l))
  else op_delete ptr (umul len (lsize l)) None.

(** The alignment a block is guaranteed to have. *)
Definition block_alignment (b : ablock) : N :=
  match ab_align b with Some al => al | None => default_new_alignment end.

(** Clients: named pointers obtained from [allocate] and given back. *)
Inductive lop := LAlloc (i : nat) (l : layout) (len : N) | LFree (i : nat) (l : layout) (len : N).
Definition lstep (o : lop) : M (world ablock (option N)) bool :=
  match o with
  | LAlloc i l len => wnew i ;;; p <-- lift (allocate l len) ;; wset i p ;;;
                      ret (match p with Some _ => true | None => false end)
  | LFree i l len => p <-- wget i ;; lift (deallocate p l len) ;;; wdel i ;;; ret true
  end.
Definition lrun (ops : list lop) := run_ops lstep ops winit.
