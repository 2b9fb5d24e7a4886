(** * TypeListModel: include/mstl/utility/type_list.h

    Compile-time lists of types.  C++ types are codes: base types, the wrapper
    [TypeConst<T>], instances [Tpl<Ts...>] of class templates and
    [TypeListImpl<Ts...>] itself.  A compile-time computation that the
    compiler rejects is [None]. *)
From Verif Require Import Base TupleModel.

Inductive cty :=
| CBase (n : nat)
| CConst (t : cty)
| CInst (tpl : nat) (args : list cty).

(** Decidable identity of types ([std::same_as]). *)
Fixpoint same_as (a b : cty) {struct a} : bool :=
  match a, b with
  | CBase n, CBase m => Nat.eqb n m
  | CConst t, CConst u => same_as t u
  | CInst n ts, CInst m us =>
      Nat.eqb n m &&
      (fix go ts us := match ts, us with
                       | [], [] => true
                       | t :: ts, u :: us => same_as t u && go ts us
                       | _, _ => false
                       end) ts us
  | _, _ => false
  end.

(** type_list.h:94-97 [TypeListImpl<Types...>]. *)
Definition tl := list cty.
(** [typename Types::type], type_list.h:55; only [TypeConst] has it here. *)
Definition inner (t : cty) : option cty := match t with CConst u => Some u | _ => None end.

(** type_list.h:150-151 [TypeList<Types...>]: every type is wrapped. *)
Definition TypeList (ts : list cty) : tl := CConst <$> ts.
(** type_list.h:102 [size]. *)
Definition tl_size (l : tl) : nat := length l.
(** type_list.h:107-108, 122-125 [At]/[at]. *)
Definition tl_at (pos : nat) (l : tl) : option cty := arg_at pos l.
(** type_list.h:113-114 [Append], 119-120 [Prepend] and the operators
    161-164, 174-177, which wrap the new types. *)
Definition tl_append (l : tl) (ts : list cty) : tl := l ++ (CConst <$> ts).
Definition tl_prepend (l : tl) (ts : list cty) : tl := (CConst <$> ts) ++ l.

(** type_list.h:127-130 [count<Type>]: the fold [(x + ...)] over an empty pack
    is ill-formed. *)
Fixpoint count_fold (ty : cty) (l : tl) : option nat :=
  match l with
  | [] => None
  | [t] => u ← inner t; Some (if same_as ty u then 1 else 0)
  | t :: r => u ← inner t; n ← count_fold ty r; Some ((if same_as ty u then 1 else 0) + n)
  end.
Definition tl_count (ty : cty) (l : tl) : option nat := count_fold ty l.

(** type_list.h:67-70 [TypeConst::operator==]; 135-143 equality of lists. *)
Definition tc_eq (a b : cty) : option bool :=
  match a, b with CConst t, CConst u => Some (same_as t u) | _, _ => None end.
Fixpoint tl_eq_fold (a b : tl) : option bool :=
  match a, b with
  | [], [] => Some true
  | t :: ts, u :: us => x ← tc_eq t u; y ← tl_eq_fold ts us; Some (x && y)
  | _, _ => None
  end.
Definition tl_eq (a b : tl) : option bool :=
  if negb (length a =? length b)%nat then Some false else tl_eq_fold a b.

(** type_list.h:187-190 [apply_to<T>], 195-198 [extract_from]. *)
Definition tl_apply (tpl : nat) (l : tl) : option cty :=
  ts ← mapM inner l; Some (CConst (CInst tpl ts)).
Definition tl_extract (t : cty) : option tl :=
  match t with CInst _ args => Some (TypeList args) | _ => None end.

(** type_list.h:203-219 [map]: [f] maps the wrapped type to the (wrapped)
    result of the lambda. *)
Definition tl_map (f : cty -> cty) (l : tl) : tl := map f l.
(** type_list.h:221-228 [Filter] with its accumulator [Out]; 254-257. *)
Fixpoint tl_filter_go (p : cty -> bool) (l out : tl) : tl :=
  match l with
  | [] => out
  | h :: ts => if p h then tl_filter_go p ts (out ++ [h]) else tl_filter_go p ts out
  end.
Definition tl_filter (p : cty -> bool) (l : tl) : tl := tl_filter_go p l [].
