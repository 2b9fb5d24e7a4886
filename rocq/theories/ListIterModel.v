(** * ListIterModel: programs that keep list iterators

    include/mstl/collection/linked_list.h:139-223 [ListIterSTL] (not reversed)
    together with the members of BaseList.  A program has any number of lists
    and any number of iterators that it keeps while the lists change.

    In the operations on iterators alone, [i] (and [j]) names the list the
    iterator points into at that moment; the code does not use it, it only
    serves the specification. *)
From Verif Require Import Base ListModel ListStep.
Local Open Scope N_scope.

Section Iters.
  Context {T : Type} (dbl : bool).
  Notation H := (heap (cell T)).
  Notation HM := (M H).

  (** linked_list.h:170-172 [T& operator*()], then an assignment. *)
  Definition it_set (p : lptr) (v : T) : HM unit := value p ;;; put_data p (DVal v).

  Record ist := ISt { i_w : world (cell T) lst; i_it : gmap nat lptr }.
  Definition iinit : ist := ISt winit ∅.

  Inductive kop :=
  (* lists *)
  | KRange (i : nat) (al : N) (vs : list T)
  | KMove (i j : nat)
  | KSwap (i j : nat)
  | KDel (i : nat)
  | KClear (i : nat)
  | KPushF (i : nat) (v : T)
  | KPopF (i : nat)
  | KPushB (i : nat) (v : T)
  | KPopB (i : nat)
  | KSrt (i : nat) (lt : T -> T -> bool)
  | KMer (i j : nat) (lt : T -> T -> bool)
  | KRev (i : nat)
  | KRemIf (i : nat) (f : T -> bool)
  | KUniq (i : nat) (r : T -> T -> bool)
  | KItems (i : nat)
  (* lists, at the position of iterator [t]; the result goes to [u] *)
  | KEmpA (i t : nat) (v : T) (u : nat)
  | KInsA (i t : nat) (vs : list T) (u : nat)
  | KEraA (i t u : nat)
  | KEraAR (i t1 t2 u : nat)
  | KEmp (i t : nat) (v : T) (u : nat)
  | KIns (i t : nat) (vs : list T) (u : nat)
  | KEra (i t u : nat)
  | KEraR (i t1 t2 u : nat)
  | KSplA (i t j : nat) (rv : bool)
  | KSpl (i t j : nat) (rv : bool)
  (* iterators *)
  | KBefore (t i : nat)
  | KBegin (t i : nat)
  | KEnd (t i : nat)
  | KCopy (t s : nat)
  | KInc (i t : nat)
  | KIncP (i t u : nat)
  | KDec (i t : nat)
  | KDecP (i t u : nat)
  | KGet (i t : nat)
  | KSet (i t : nat) (v : T)
  | KEq (i t j s : nat).
  Inductive kout := KU | KV (v : T) | KB (b : bool) | KN (n : N) | KL (xs : list T).

  Notation KM := (M ist).
  Definition onw {A} (m : M (world (cell T) lst) A) : KM A :=
    fun s => match m (i_w s) with
             | Ok (a, w) => Ok (a, ISt w (i_it s))
             | Err e => Err e
             end.
  Definition gett (t : nat) : KM lptr :=
    fun s => match i_it s !! t with Some p => Ok (p, s) | None => Err UB end.
  (** An iterator is declared or assigned (linked_list.h:155-164). *)
  Definition sett (t : nat) (p : lptr) : KM unit :=
    fun s => Ok (tt, ISt (i_w s) (<[t := p]> (i_it s))).
  Definition one {A} (i : nat) (f : lst -> HM (lst * A)) : KM A :=
    onw (l <-- wget i ;; '(l', x) <-- lift (f l) ;; wset i l' ;;; ret x).
  Definition one_ (i : nat) (f : lst -> HM lst) : KM kout :=
    one i (fun l => l' <-- f l ;; ret (l', KU)).
  Definition two (i j : nat) (f : lst -> lst -> HM (lst * lst)) : KM kout :=
    onw (l <-- wget i ;; o <-- wget j ;;
         '(l', o') <-- lift (f l o) ;; wset j o' ;;; wset i l' ;;; ret KU).
  Definition see {A} (i : nat) (f : lst -> HM A) : KM A := onw (l <-- wget i ;; lift (f l)).
  Definition mem {A} (m : HM A) : KM A := onw (lift m).
  (** A member that takes an iterator and gives one. *)
  Definition at1 (i t u : nat) (f : lst -> lptr -> HM (lst * lptr)) : KM kout :=
    p <-- gett t ;; q <-- one i (fun l => f l p) ;; sett u q ;;; ret KU.
  Definition at2 (i t1 t2 u : nat) (f : lst -> lptr -> lptr -> HM (lst * lptr)) : KM kout :=
    p1 <-- gett t1 ;; p2 <-- gett t2 ;; q <-- one i (fun l => f l p1 p2) ;; sett u q ;;; ret KU.

  Definition kstep (o : kop) : KM kout :=
    match o with
    | KRange i al vs => onw (wnew i ;;; l <-- lift (l_range dbl al vs) ;; wset i l ;;; ret KU)
    | KMove i j =>
        onw (wnew i ;;; o <-- wget j ;; let '(l, o') := l_move o in wset j o' ;;; wset i l ;;; ret KU)
    | KSwap i j => two i j (fun l o => ret (l_swap l o))
    | KDel i => onw (l <-- wget i ;; lift (l_destroy dbl l) ;;; wdel i ;;; ret KU)
    | KClear i => one_ i (l_clear dbl)
    | KPushF i v => one_ i (fun l => l_push_front dbl l v)
    | KPopF i => one_ i (l_pop_front dbl)
    | KPushB i v => one_ i (fun l => l_push_back dbl l v)
    | KPopB i => one_ i (l_pop_back dbl)
    | KSrt i lt => one_ i (fun l => l_sort dbl l lt)
    | KMer i j lt => two i j (fun l o => l_merge dbl l o lt)
    | KRev i => one_ i (l_reverse dbl)
    | KRemIf i f => one i (fun l => '(l', n) <-- l_remove_if dbl l f ;; ret (l', KN n))
    | KUniq i r => one i (fun l => '(l', n) <-- l_unique dbl l r ;; ret (l', KN n))
    | KItems i => see i (fun l => x <-- l_to_list l ;; ret (KL x))
    | KEmpA i t v u => at1 i t u (fun l p => l_emplace_after dbl l p v)
    | KInsA i t vs u => at1 i t u (fun l p => l_insert_after dbl l p vs)
    | KEraA i t u => at1 i t u (l_erase_after dbl)
    | KEraAR i t1 t2 u => at2 i t1 t2 u (l_erase_after_range dbl)
    | KEmp i t v u => at1 i t u (fun l p => l_emplace dbl l p v)
    | KIns i t vs u => at1 i t u (fun l p => l_insert dbl l p vs)
    | KEra i t u => at1 i t u (l_erase dbl)
    | KEraR i t1 t2 u => at2 i t1 t2 u (l_erase_range dbl)
    | KSplA i t j rv =>
        p <-- gett t ;;
        two i j (fun l o => if rv then l_splice_after_rv dbl l p o else l_splice_after dbl l p o)
    | KSpl i t j rv =>
        p <-- gett t ;;
        two i j (fun l o => if rv then l_splice_rv dbl l p o else l_splice dbl l p o)
    (* linked_list.h:780-814 before_begin, begin, end *)
    | KBefore t i => p <-- see i (fun l => ret (l_head l)) ;; sett t p ;;; ret KU
    | KBegin t i => p <-- see i (fun l => get_next (l_head l)) ;; sett t p ;;; ret KU
    | KEnd t i => p <-- see i (fun l => ret (l_tail l)) ;; sett t p ;;; ret KU
    | KCopy t s => p <-- gett s ;; sett t p ;;; ret KU
    (* linked_list.h:178-187, 207-218 *)
    | KInc _ t => p <-- gett t ;; q <-- mem (get_next p) ;; sett t q ;;; ret KU
    | KIncP _ t u => p <-- gett t ;; q <-- mem (get_next p) ;; sett t q ;;; sett u p ;;; ret KU
    | KDec _ t => p <-- gett t ;; q <-- mem (get_prev p) ;; sett t q ;;; ret KU
    | KDecP _ t u => p <-- gett t ;; q <-- mem (get_prev p) ;; sett t q ;;; sett u p ;;; ret KU
    | KGet _ t => p <-- gett t ;; v <-- mem (value p) ;; ret (KV v)
    | KSet _ t v => p <-- gett t ;; mem (it_set p v) ;;; ret KU
    (* linked_list.h:220-222 *)
    | KEq _ t _ s => p <-- gett t ;; q <-- gett s ;; ret (KB (bool_decide (p = q)))
    end.
End Iters.
Global Arguments ist : clear implicits.
Global Arguments kop : clear implicits.
Global Arguments kout : clear implicits.
