(** * VecSpec: what a Vector is supposed to be — a finite sequence

    The specification machine: variables hold plain lists.  [None] means the
    caller violated a documented precondition (unknown variable, index out of
    range, [pop_back] on an empty vector, iterator out of range). *)
From Verif Require Import Base VecModel.
Local Open Scope N_scope.

Section Spec.
  Context {A : Type} (dflt : A).
  Context (eqb : A -> A -> bool) (cmp : A -> A -> comparison).

  Notation vspec := (gmap nat (list A)).

  Definition nlen (xs : list A) : N := N.of_nat (length xs).
  Definition ntake (n : N) (xs : list A) := take (N.to_nat n) xs.
  Definition ndrop (n : N) (xs : list A) := drop (N.to_nat n) xs.
  Definition nrep (n : N) (x : A) := replicate (N.to_nat n) x.

  (** Element-wise equality and lexicographic order. *)
  Fixpoint seq_eq (xs ys : list A) : bool :=
    match xs, ys with
    | [], [] => true
    | x :: xs, y :: ys => eqb x y && seq_eq xs ys
    | _, _ => false
    end.
  Fixpoint seq_cmp (xs ys : list A) : comparison :=
    match xs, ys with
    | [], [] => Eq
    | [], _ :: _ => Lt
    | _ :: _, [] => Gt
    | x :: xs, y :: ys => match cmp x y with Eq => seq_cmp xs ys | c => c end
    end.

  (** "Vec [a, b, c]" *)
  Fixpoint seq_items (xs : list A) : list (nat + A) :=
    match xs with
    | [] => []
    | [x] => [inr x]
    | x :: r => inr x :: inl 1%nat :: seq_items r
    end.
  Definition seq_print (xs : list A) : list (nat + A) :=
    inl 0%nat :: seq_items xs ++ [inl 2%nat].

  Definition create (s : vspec) (i : nat) (xs : list A) : option (vspec * vout A) :=
    match s !! i with
    | Some _ => None
    | None => Some (<[i := xs]> s, ONone)
    end.
  Definition modify (s : vspec) (i : nat) (f : list A -> option (list A * vout A))
      : option (vspec * vout A) :=
    match s !! i with
    | None => None
    | Some xs => match f xs with
                 | None => None
                 | Some (ys, o) => Some (<[i := ys]> s, o)
                 end
    end.
  Definition observe (s : vspec) (i : nat) (f : list A -> option (vout A))
      : option (vspec * vout A) :=
    match s !! i with
    | None => None
    | Some xs => match f xs with None => None | Some o => Some (s, o) end
    end.

  Definition vspec_step (s : vspec) (o : vop A) : option (vspec * vout A) :=
    match o with
    | VNew i | VNewAlloc i _ => create s i []
    | VNewFill i _ n x => create s i (nrep n x)
    | VNewCount i _ n => create s i (nrep n dflt)
    | VNewList i _ xs | VNewRange i _ xs | VFromIter i xs => create s i xs
    | VNewCopy i j | VNewCopyAl i j _ =>
        match s !! j with None => None | Some ys => create s i ys end
    | VNewMove i j =>
        match s !! j with
        | None => None
        | Some ys => match s !! i with
                     | Some _ => None
                     | None => Some (<[i := ys]> (<[j := []]> s), ONone)
                     end
        end
    | VDestroy i =>
        match s !! i with None => None | Some _ => Some (delete i s, ONone) end
    | VCopyAsg i j =>
        match s !! j with
        | None => None
        | Some ys => modify s i (fun _ => Some (ys, ONone))
        end
    | VMoveAsg i j =>
        if Nat.eqb i j then observe s i (fun _ => Some ONone)
        else match s !! j with
             | None => None
             | Some ys => match s !! i with
                          | None => None
                          | Some _ => Some (<[i := ys]> (<[j := []]> s), ONone)
                          end
             end
    | VAssignFill i n x => modify s i (fun _ => Some (nrep n x, ONone))
    | VAssignList i xs => modify s i (fun _ => Some (xs, ONone))
    | VReserve i n => modify s i (fun xs => Some (xs, ONone))
    | VClear i => modify s i (fun _ => Some ([], ONone))
    | VPush i x => modify s i (fun xs => Some (xs ++ [x], ONone))
    | VEmplaceBack i x => modify s i (fun xs => Some (xs ++ [x], OElem x))
    | VPop i => modify s i (fun xs =>
        match xs with [] => None | _ => Some (take (length xs - 1) xs, ONone) end)
    | VResize i n => modify s i (fun xs =>
        Some (ntake n xs ++ nrep (n - nlen xs) dflt, ONone))
    | VResizeVal i n x => modify s i (fun xs =>
        Some (ntake n xs ++ nrep (n - nlen xs) x, ONone))
    | VSwap i j =>
        match s !! i, s !! j with
        | Some xs, Some ys => Some (<[i := ys]> (<[j := xs]> s), ONone)
        | _, _ => None
        end
    | VSet i k x => modify s i (fun xs =>
        if k <? nlen xs then Some (ntake k xs ++ [x] ++ ndrop (k + 1) xs, ONone) else None)
    | VEmplace i p x => modify s i (fun xs =>
        if p <=? nlen xs then Some (ntake p xs ++ [x] ++ ndrop p xs, ONone) else None)
    | VInsert i p x => modify s i (fun xs =>
        if p <=? nlen xs then Some (ntake p xs ++ [x] ++ ndrop p xs, OIdx (Some p)) else None)
    | VInsertFill i p n x => modify s i (fun xs =>
        if p <=? nlen xs then Some (ntake p xs ++ nrep n x ++ ndrop p xs, OIdx (Some p)) else None)
    | VInsertRange i p ys => modify s i (fun xs =>
        if p <=? nlen xs then Some (ntake p xs ++ ys ++ ndrop p xs, OIdx (Some p)) else None)
    | VErase i p => modify s i (fun xs =>
        if p <? nlen xs then Some (ntake p xs ++ ndrop (p + 1) xs, OIdx (Some p)) else None)
    | VEraseRange i p q => modify s i (fun xs =>
        if (p <=? q) && (q <=? nlen xs)
        then Some (ntake p xs ++ ndrop q xs, OIdx (Some p)) else None)
    | VSize i => observe s i (fun xs => Some (ONum (nlen xs)))
    | VEmpty i => observe s i (fun xs => Some (OBool (nlen xs =? 0)))
    | VAt i k => observe s i (fun xs => Some (OOpt (nlookup xs k)))
    | VIndex i k => observe s i (fun xs =>
        match nlookup xs k with Some x => Some (OElem x) | None => None end)
    | VFront i => observe s i (fun xs => Some (OOpt (head xs)))
    | VBack i => observe s i (fun xs => Some (OOpt (last xs)))
    | VIterAll i => observe s i (fun xs => Some (OSeq xs))
    | VPrint i => observe s i (fun xs => Some (OToks (seq_print xs)))
    | VEq i j => observe s i (fun xs =>
        match s !! j with Some ys => Some (OBool (seq_eq xs ys)) | None => None end)
    | VCmp i j => observe s i (fun xs =>
        match s !! j with Some ys => Some (OCmp (seq_cmp xs ys)) | None => None end)
    end.

  (** Guard excluding the positional defects of the code (see C02, C03):
      insertion needs a non-empty vector, a position after begin() and at
      least one new element (or the end position); range erasure must not be
      an empty range before the end. *)
  Definition ins_safe (xs : list A) (p n : N) : Prop :=
    xs <> [] /\ 1 <= p /\ (1 <= n \/ p = nlen xs).
  Definition on_var (s : vspec) (i : nat) (P : list A -> Prop) : Prop :=
    match s !! i with Some xs => P xs | None => False end.
  Definition vop_safe (s : vspec) (o : vop A) : Prop :=
    match o with
    | VEmplace i p _ | VInsert i p _ => on_var s i (fun xs => ins_safe xs p 1)
    | VInsertFill i p n _ => on_var s i (fun xs => ins_safe xs p n)
    | VInsertRange i p ys => on_var s i (fun xs => ins_safe xs p (nlen ys))
    | VEraseRange i p q => on_var s i (fun xs => p < q \/ q = nlen xs)
    | _ => True
    end.

  (** Operations that never move elements around inside the vector. *)
  Definition whole_op (o : vop A) : Prop :=
    match o with
    | VEmplace _ _ _ | VInsert _ _ _ | VInsertFill _ _ _ _ | VInsertRange _ _ _
    | VErase _ _ | VEraseRange _ _ _ => False
    | _ => True
    end.

  (** Size limit: all sequences, and all explicit reservations, stay within
      [lmax] elements. *)
  Definition vlimit (lmax : N) (o : vop A) (s' : vspec) : Prop :=
    (forall i xs, s' !! i = Some xs -> nlen xs <= lmax) /\
    match o with VReserve _ n => n <= lmax | _ => True end.

  (** A good history: every call meets the preconditions of the
      specification, avoids the positional defects, and sizes stay within
      [lmax]; [s] and [outs] are the resulting contents and return values. *)
  Definition hist_ok (lmax : N) (s : vspec) (o : vop A) (s' : vspec) : Prop :=
    vop_safe s o /\ vlimit lmax o s'.
  Definition good (lmax : N) (ops : list (vop A)) (s : vspec) (outs : list (vout A)) : Prop :=
    spec_run vspec_step ∅ ops = Some (s, outs) /\ along vspec_step (hist_ok lmax) ∅ ops.

  (** The variables an operation may change, create or destroy. *)
  Definition touched (o : vop A) : list nat :=
    match o with
    | VNew i | VNewAlloc i _ | VNewFill i _ _ _ | VNewCount i _ _ | VNewList i _ _
    | VNewRange i _ _ | VFromIter i _ | VNewCopy i _ | VNewCopyAl i _ _
    | VDestroy i | VCopyAsg i _ | VAssignFill i _ _ | VAssignList i _ | VReserve i _
    | VClear i | VPush i _ | VEmplaceBack i _ | VPop i | VResize i _ | VResizeVal i _ _
    | VSet i _ _ | VEmplace i _ _ | VInsert i _ _ | VInsertFill i _ _ _
    | VInsertRange i _ _ | VErase i _ | VEraseRange i _ _ => [i]
    | VNewMove i j | VMoveAsg i j | VSwap i j => [i; j]
    | _ => []
    end.
End Spec.
