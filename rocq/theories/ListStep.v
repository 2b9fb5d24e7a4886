(** * ListStep: programs over any number of list variables

    include/mstl/collection/linked_list.h: the members that [ListModel] does
    not need for itself (capacity, swap, printing) and the histories a client
    can write.  A position is given as a number of [++] from [before_begin()]
    (0 is [before_begin()], 1 is [begin()], [size() + 1] is [end()]), which is
    how a client gets at an iterator; a returned iterator is turned back into
    that number by walking from [before_begin()]. *)
From Verif Require Import Base IterSpec ListModel.
Local Open Scope N_scope.

Section Step.
  Context `{mem : memory} {T : Type} (dbl : bool).
  Notation H := (heap (cell T)).
  Notation HM := (M H).

  (** linked_list.h:643-651 [get_allocator], [moved]; 851-861 [empty],
      [size]. *)
  Definition l_moved (l : lst) : bool := bool_decide (l_head l = PNull).
  Definition l_empty (l : lst) : bool := l_len l =? 0.

  (** linked_list.h:1422-1427 [swap]: the four members one after the other. *)
  Definition l_swap (l o : lst) : lst * lst :=
    let '(l, o) := (Lst (l_head l) (l_tail l) (l_len l) (l_al o), Lst (l_head o) (l_tail o) (l_len o) (l_al l)) in
    let '(l, o) := (Lst (l_head o) (l_tail l) (l_len l) (l_al l), Lst (l_head l) (l_tail o) (l_len o) (l_al o)) in
    let '(l, o) := (Lst (l_head l) (l_tail o) (l_len l) (l_al l), Lst (l_head o) (l_tail l) (l_len o) (l_al o)) in
    (Lst (l_head l) (l_tail l) (l_len o) (l_al l), Lst (l_head o) (l_tail o) (l_len l) (l_al o)).

  (** linked_list.h:1947-1981 [operator<<]: what goes to the stream, piece by
      piece ("List [" or "ForwardList [", elements, ", ", "]"). *)
  Inductive ptok := POpen (double : bool) | PElem (v : T) | PSep | PClose.
  Fixpoint print_loop (fuel : nat) (lo hi : lptr) (i size : N) : HM (list ptok) :=
    match fuel with
    | O => fail Fuel
    | S fuel =>
        if decide (lo = hi) then ret [PClose]
        else
          v <-- value lo ;;
          lo' <-- get_next lo ;;
          r <-- print_loop fuel lo' hi (uadd i 1) size ;;
          ret (PElem v :: (if i =? usub size 1 then r else PSep :: r))
    end.
  Definition l_print (l : lst) : HM (list ptok) :=
    lo <-- get_next (l_head l) ;;
    fuel <-- nodes_in_memory ;;
    r <-- print_loop fuel lo (l_tail l) 0 (l_len l) ;; ret (POpen dbl :: r).

  (** The position of an iterator. *)
  Fixpoint pos_loop (fuel : nat) (p q : lptr) (n : nat) : HM nat :=
    match fuel with
    | O => fail Fuel
    | S fuel =>
        if decide (p = q) then ret n
        else p' <-- get_next p ;; pos_loop fuel p' q (S n)
    end.
  Definition l_pos (l : lst) (q : lptr) : HM nat :=
    fuel <-- nodes_in_memory ;; pos_loop fuel (l_head l) q 0.

  Inductive lop :=
  (* construction *)
  | LNew (i : nat) (al : N)
  | LRange (i : nat) (al : N) (vs : list T)
  | LCount (i : nat) (al n : N) (v : T)
  | LFrom (i : nat) (vs : list T)
  | LCopy (i j : nat)
  | LCopyAl (i j : nat) (al : N)
  | LMove (i j : nat)
  | LMoveAl (i j : nat) (al : N)
  (* assignment, swap, destruction *)
  | LCopyAsg (i j : nat)
  | LMoveAsg (i j : nat)
  | LIlist (i : nat) (vs : list T)
  | LSwap (i j : nat)
  | LDel (i : nat)
  (* ends, size *)
  | LClear (i : nat)
  | LResize (i : nat) (n : N) (v : T)
  | LPushF (i : nat) (v : T)
  | LPopF (i : nat)
  | LPushB (i : nat) (v : T)
  | LPopB (i : nat)
  (* positions *)
  | LEmpA (i k : nat) (v : T)
  | LInsA (i k : nat) (vs : list T)
  | LEraA (i k : nat)
  | LEraAR (i k1 k2 : nat)
  | LEmp (i k : nat) (v : T)
  | LIns (i k : nat) (vs : list T)
  | LEra (i k : nat)
  | LEraR (i k1 k2 : nat)
  (* operations *)
  | LSplA (i k j : nat) (rv : bool)
  | LSpl (i k j : nat) (rv : bool)
  | LMer (i j : nat) (rv : bool) (lt : T -> T -> bool)
  | LSrt (i : nat) (lt : T -> T -> bool)
  | LRev (i : nat)
  | LRemIf (i : nat) (f : T -> bool)
  | LUniq (i : nat) (r : T -> T -> bool)
  (* observers *)
  | LSize (i : nat)
  | LEmptyQ (i : nat)
  | LMovedQ (i : nat)
  | LAlloc (i : nat)
  | LFront (i : nat)
  | LBack (i : nat)
  | LFrontU (i : nat)
  | LFrontUC (i : nat)
  | LBackU (i : nat)
  | LItems (i : nat)
  | LItemsBack (i : nat)
  | LIter (i : nat) (calls : list bool)
  | LInto (i : nat) (calls : list bool)
  | LPrint (i : nat).

  Inductive lout :=
  | OUnit | ONum (n : N) | OBool (b : bool) | OOpt (o : option T) | OVal (v : T)
  | OList (xs : list T) | OOpts (xs : list (option T)) | OPos (k : nat) | OToks (ts : list ptok).

  Notation WM := (M (world (cell T) lst)).
  Definition l_mk (i : nat) (f : HM lst) : WM lout :=
    wnew i ;;; l <-- lift f ;; wset i l ;;; ret OUnit.
  Definition l_updo (i : nat) (f : lst -> HM (lst * lout)) : WM lout :=
    l <-- wget i ;; '(l', x) <-- lift (f l) ;; wset i l' ;;; ret x.
  Definition l_upd (i : nat) (f : lst -> HM lst) : WM lout :=
    l_updo i (fun l => l' <-- f l ;; ret (l', OUnit)).
  Definition l_obs (i : nat) (f : lst -> HM lout) : WM lout :=
    l <-- wget i ;; lift (f l).
  (** A member taking a position and giving one back. *)
  Definition l_at (i k : nat) (f : lst -> lptr -> HM (lst * lptr)) : WM lout :=
    l_updo i (fun l =>
      p <-- stl_advance k (l_head l) ;;
      '(l', r) <-- f l p ;;
      n <-- l_pos l' r ;; ret (l', OPos n)).
  Definition l_at2 (i k1 k2 : nat) (f : lst -> lptr -> lptr -> HM (lst * lptr)) : WM lout :=
    l_updo i (fun l =>
      p1 <-- stl_advance k1 (l_head l) ;;
      p2 <-- stl_advance k2 (l_head l) ;;
      '(l', r) <-- f l p1 p2 ;;
      n <-- l_pos l' r ;; ret (l', OPos n)).
  (** A member of one list taking another. *)
  Definition l_two (i j : nat) (f : lst -> lst -> HM (lst * lst)) : WM lout :=
    l <-- wget i ;; o <-- wget j ;;
    '(l', o') <-- lift (f l o) ;; wset j o' ;;; wset i l' ;;; ret OUnit.
  (** The same, when the code returns at once for one and the same list
      (linked_list.h:603, 613, 1470, 1514). *)
  Definition l_two_ne (i j : nat) (f : lst -> lst -> HM (lst * lst)) : WM lout :=
    if (i =? j)%nat then wget i ;;; ret OUnit else l_two i j f.

  Definition list_step (o : lop) : WM lout :=
    match o with
    | LNew i al => l_mk i (l_new dbl al)
    | LRange i al vs => l_mk i (l_range dbl al vs)
    | LCount i al n v => l_mk i (l_count dbl al n v)
    | LFrom i vs => l_mk i (l_from_iter dbl vs)
    | LCopy i j => o <-- wget j ;; l_mk i (l_copy dbl o)
    | LCopyAl i j al => o <-- wget j ;; l_mk i (l_copy_alloc dbl al o)
    | LMove i j =>
        wnew i ;;; o <-- wget j ;;
        let '(l, o') := l_move o in wset j o' ;;; wset i l ;;; ret OUnit
    | LMoveAl i j al =>
        wnew i ;;; o <-- wget j ;;
        '(l, o') <-- lift (l_move_alloc dbl al o) ;; wset j o' ;;; wset i l ;;; ret OUnit
    | LCopyAsg i j => l_two_ne i j (fun l o => l' <-- l_copy_assign dbl l o ;; ret (l', o))
    | LMoveAsg i j => l_two_ne i j (l_move_assign dbl)
    | LIlist i vs => l_upd i (fun l => l_ilist_assign dbl l vs)
    | LSwap i j => l_two i j (fun l o => ret (l_swap l o))
    | LDel i => l <-- wget i ;; lift (l_destroy dbl l) ;;; wdel i ;;; ret OUnit
    | LClear i => l_upd i (l_clear dbl)
    | LResize i n v => l_upd i (fun l => l_resize dbl l n v)
    | LPushF i v => l_upd i (fun l => l_push_front dbl l v)
    | LPopF i => l_upd i (l_pop_front dbl)
    | LPushB i v => l_upd i (fun l => l_push_back dbl l v)
    | LPopB i => l_upd i (l_pop_back dbl)
    | LEmpA i k v => l_at i k (fun l p => l_emplace_after dbl l p v)
    | LInsA i k vs => l_at i k (fun l p => l_insert_after dbl l p vs)
    | LEraA i k => l_at i k (l_erase_after dbl)
    | LEraAR i k1 k2 => l_at2 i k1 k2 (l_erase_after_range dbl)
    | LEmp i k v => l_at i k (fun l p => l_emplace dbl l p v)
    | LIns i k vs => l_at i k (fun l p => l_insert dbl l p vs)
    | LEra i k => l_at i k (l_erase dbl)
    | LEraR i k1 k2 => l_at2 i k1 k2 (l_erase_range dbl)
    | LSplA i k j rv =>
        l_two i j (fun l o => p <-- stl_advance k (l_head l) ;;
          (if rv then l_splice_after_rv dbl l p o else l_splice_after dbl l p o))
    | LSpl i k j rv =>
        l_two i j (fun l o => p <-- stl_advance k (l_head l) ;;
          (if rv then l_splice_rv dbl l p o else l_splice dbl l p o))
    | LMer i j rv lt =>
        l_two_ne i j (fun l o => if rv then l_merge_rv dbl l o lt else l_merge dbl l o lt)
    | LSrt i lt => l_upd i (fun l => l_sort dbl l lt)
    | LRev i => l_upd i (l_reverse dbl)
    | LRemIf i f => l_updo i (fun l => '(l', n) <-- l_remove_if dbl l f ;; ret (l', ONum n))
    | LUniq i r => l_updo i (fun l => '(l', n) <-- l_unique dbl l r ;; ret (l', ONum n))
    | LSize i => l_obs i (fun l => ret (ONum (l_len l)))
    | LEmptyQ i => l_obs i (fun l => ret (OBool (l_empty l)))
    | LMovedQ i => l_obs i (fun l => ret (OBool (l_moved l)))
    | LAlloc i => l_obs i (fun l => ret (ONum (l_al l)))
    | LFront i => l_obs i (fun l => x <-- l_front l ;; ret (OOpt x))
    | LBack i => l_obs i (fun l => x <-- l_back l ;; ret (OOpt x))
    | LFrontU i => l_obs i (fun l => x <-- l_front_unchecked l ;; ret (OVal x))
    | LFrontUC i => l_obs i (fun l => x <-- l_front_unchecked_const dbl l ;; ret (OVal x))
    | LBackU i => l_obs i (fun l => x <-- l_back_unchecked l ;; ret (OVal x))
    | LItems i => l_obs i (fun l => x <-- l_to_list l ;; ret (OList x))
    | LItemsBack i => l_obs i (fun l => x <-- l_to_list_back l ;; ret (OList x))
    | LIter i calls => l_obs i (fun l => x <-- l_iter l calls ;; ret (OOpts x))
    | LInto i calls => l_updo i (fun l => '(l', x) <-- l_into_iter dbl l calls ;; ret (l', OOpts x))
    | LPrint i => l_obs i (fun l => x <-- l_print l ;; ret (OToks x))
    end.
End Step.
Global Arguments ptok : clear implicits.
Global Arguments lop : clear implicits.
Global Arguments lout : clear implicits.
