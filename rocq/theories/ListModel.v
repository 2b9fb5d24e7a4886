(** * ListModel: include/mstl/collection/linked_list.h

    [BaseList<T, Node, A>] with [Node] = [ListNode] ([dbl = true], the alias
    [List], 1941-1942) or [ForwardListNode] ([dbl = false], [ForwardList],
    1944-1945), function by function.

    Simplifications:
    - [MSTL_DEBUG_ASSERT] is off, as in a release build (global.h:12-22);
    - [T] is any type of values; copying and moving a value gives that value
      (a moved-from element is destroyed right after the move wherever the
      code moves one), comparing and testing values has no effect;
    - an allocation of a node succeeds, unless a [memory] other than
      [endless] is given (C70);
    - explicitly calling the destructor and then giving the object new
      contents (601-625) is taken to leave the storage of the object usable;
    - an allocator is a number: two allocators are equal when the numbers are,
      and memory has to go back to the allocator it came from;
    - loops whose trip count depends on the links carry fuel, one more than
      the number of nodes in memory, so running out of it means that the loop
      runs in circles. *)
From Verif Require Import Base IterSpec.
Local Open Scope N_scope.

(** A [Node*]: indeterminate, null or an address. *)
Inductive lptr := PUndef | PNull | PAddr (a : N).
Global Instance lptr_eq_dec : EqDecision lptr.
Proof. solve_decision. Defined.

(** linked_list.h:303-327 with 1740-1754: a node is allocated either bare
    ([get_node_layout], for the virtual nodes) or together with its element
    ([get_data_node_layout]). *)
Inductive lay := LNode | LData.
Global Instance lay_eq_dec : EqDecision lay.
Proof. solve_decision. Defined.

(** The member [data] together with what it points to. *)
Inductive ldat (T : Type) := DUndef | DNull | DRaw | DVal (v : T).
Global Arguments DUndef {T}.
Global Arguments DNull {T}.
Global Arguments DRaw {T}.
Global Arguments DVal {T} _.

(** linked_list.h:340-397 [ForwardListNode], [ListNode]: the links and the
    data; a forward node has no [prev] (here: never written). *)
Record cell (T : Type) := Cell {
  n_lay : lay;
  n_al : N;
  n_prev : lptr;
  n_next : lptr;
  n_dat : ldat T;
}.
Global Arguments Cell {T} _ _ _ _ _.
Global Arguments n_lay {T} _.
Global Arguments n_al {T} _.
Global Arguments n_prev {T} _.
Global Arguments n_next {T} _.
Global Arguments n_dat {T} _.

(** linked_list.h:437-440: the data members of [BaseList]. *)
Record lst := Lst { l_head : lptr; l_tail : lptr; l_len : N; l_al : N }.

Definition set_len (l : lst) (n : N) : lst := Lst (l_head l) (l_tail l) n (l_al l).

Section List.
  Context `{mem : memory} {T : Type} (dbl : bool).
  Notation H := (heap (cell T)).
  Notation HM := (M H).

  (** Following a pointer. *)
  Definition rd (p : lptr) : HM (cell T) :=
    match p with PAddr a => hread a | _ => fail UB end.
  Definition wr (p : lptr) (c : cell T) : HM unit :=
    match p with PAddr a => hwrite a c | _ => fail UB end.
  (** Using an indeterminate pointer value is undefined. *)
  Definition defd (p : lptr) : HM lptr :=
    match p with PUndef => fail UB | _ => ret p end.
  Definition get_next (p : lptr) : HM lptr := c <-- rd p ;; defd (n_next c).
  Definition get_prev (p : lptr) : HM lptr := c <-- rd p ;; defd (n_prev c).
  Definition put_next (p n : lptr) : HM unit :=
    c <-- rd p ;; wr p (Cell (n_lay c) (n_al c) (n_prev c) n (n_dat c)).
  Definition put_prev (p n : lptr) : HM unit :=
    c <-- rd p ;; wr p (Cell (n_lay c) (n_al c) n (n_next c) (n_dat c)).
  Definition put_data (p : lptr) (d : ldat T) : HM unit :=
    c <-- rd p ;; wr p (Cell (n_lay c) (n_al c) (n_prev c) (n_next c) d).
  (** [p->data == nullptr] *)
  Definition no_data (p : lptr) : HM bool :=
    c <-- rd p ;; match n_dat c with DUndef => fail UB | DNull => ret true | _ => ret false end.
  (** [*p->data] *)
  Definition value (p : lptr) : HM T :=
    c <-- rd p ;; match n_dat c with DVal v => ret v | _ => fail UB end.

  (** linked_list.h:359-361 and 391-396 [set_next]. *)
  Definition set_next (p n : lptr) : HM unit :=
    put_next p n ;;;
    if dbl then (if decide (n = PNull) then ret tt else put_prev n p) else ret tt.

  (** Enough fuel for any loop that visits no node twice. *)
  Definition nodes_in_memory : HM nat := fun h => Ok (S (size (hmap h)), h).

  (** What the allocator returned, as a pointer. *)
  Definition to_ptr (a : option N) : lptr :=
    match a with Some a => PAddr a | None => PNull end.
  (** linked_list.h:1757-1775 [alloc_node], [alloc_node_with_data]. *)
  Definition alloc_node (al : N) : HM lptr :=
    a <-- hnew (Cell LNode al PUndef PUndef DUndef) ;; ret (to_ptr a).
  Definition alloc_node_with_data (al : N) : HM lptr :=
    a <-- hnew (Cell LData al PUndef PUndef DUndef) ;;
    put_data (to_ptr a) DRaw ;;; ret (to_ptr a).
  (** linked_list.h:1777-1785 [build_virtual_node]. *)
  Definition build_virtual_node (al : N) : HM lptr :=
    r <-- alloc_node al ;;
    put_next r PNull ;;; put_data r DNull ;;;
    (if dbl then put_prev r PNull else ret tt) ;;; ret r.
  (** linked_list.h:1801-1806 [construct_node], with 347-351, 378-382
      [construct]. *)
  Definition construct_node (al : N) (v : T) : HM lptr :=
    n <-- alloc_node_with_data al ;;
    d <-- no_data n ;;
    (if d : bool then fail UB else put_data n (DVal v)) ;;; ret n.
  (** linked_list.h:1788-1799 [dealloc_node], [dealloc_node_with_data]: the
      block has to have been allocated with that layout by that allocator. *)
  Definition dealloc (al : N) (ly : lay) (p : lptr) : HM unit :=
    match p with
    | PAddr a =>
        c <-- hread a ;;
        if decide (n_lay c = ly /\ n_al c = al) then
          match n_dat c with DVal _ => fail Leak | _ => hfree a end
        else fail UB
    | _ => fail UB
    end.
  (** linked_list.h:1809-1817 [destroy_node], with 354-357, 385-388
      [destroy]. *)
  Definition destroy_node (al : N) (p : lptr) : HM unit :=
    d <-- no_data p ;;
    if d : bool then dealloc al LNode p
    else value p ;;; put_data p DRaw ;;; dealloc al LData p.

  (** linked_list.h:1820-1826 [init_empty_list]. *)
  Definition init_empty_list (al : N) : HM lst :=
    hd <-- build_virtual_node al ;;
    tl <-- build_virtual_node al ;;
    set_next hd tl ;;; ret (Lst hd tl 0 al).

  (** The loop
      [for (...) { tmp = construct_node(v); p->set_next(tmp); p = tmp; len++; }]
      of 470-475, 491-496, 514-519, 633-638, 758-764, 950-954, 979-985,
      1160-1164 and 1192-1198; gives [p]. *)
  Fixpoint append (al : N) (p : lptr) (vs : list T) : HM lptr :=
    match vs with
    | [] => ret p
    | v :: r => tmp <-- construct_node al v ;; set_next p tmp ;;; append al tmp r
    end.

  (** linked_list.h:451-459: the empty list. *)
  Definition l_new (al : N) : HM lst := init_empty_list al.
  (** linked_list.h:503-524 [BaseList(first, last, a)]; 589 from an
      initializer list. *)
  Definition l_range (al : N) (vs : list T) : HM lst :=
    match vs with
    | [] => init_empty_list al
    | _ =>
        hd <-- build_virtual_node al ;;
        tl <-- build_virtual_node al ;;
        p <-- append al hd vs ;;
        set_next p tl ;;; set_next tl PNull ;;;
        ret (Lst hd tl (uadd 0 (N.of_nat (length vs))) al)
    end.
  (** linked_list.h:461-480 [BaseList(count, value, a)]; 482-501 the same
      with the default value. *)
  Definition l_count (al n : N) (v : T) : HM lst :=
    if n =? 0 then init_empty_list al
    else
      hd <-- build_virtual_node al ;;
      tl <-- build_virtual_node al ;;
      p <-- append al hd (replicate (N.to_nat n) v) ;;
      set_next p tl ;;; set_next tl PNull ;;;
      ret (Lst hd tl (uadd 0 n) al).
  (** linked_list.h:753-767 [from_iter]. *)
  Definition l_from_iter (vs : list T) : HM lst :=
    l <-- init_empty_list 0 ;;
    p <-- append 0 (l_head l) vs ;;
    set_next p (l_tail l) ;;;
    ret (set_len l (uadd (l_len l) (N.of_nat (length vs)))).

  (** linked_list.h:526-531 the moving constructor: the new list and what is
      left of the old one. *)
  Definition moved_from (l : lst) : lst := Lst PNull PNull 0 (l_al l).
  Definition l_move (o : lst) : lst * lst := (o, moved_from o).

  (** linked_list.h:1828-1854 [copy_impl]; the loop 1843-1849. *)
  Fixpoint copy_loop (fuel : nat) (al : N) (rp stop p : lptr) (n : N) : HM (lptr * N) :=
    match fuel with
    | O => fail Fuel
    | S fuel =>
        if decide (rp = stop) then ret (p, n)
        else
          v <-- value rp ;;
          tmp <-- construct_node al v ;;
          rp' <-- get_next rp ;;
          set_next p tmp ;;; copy_loop fuel al rp' stop tmp (uadd n 1)
    end.
  Definition copy_impl (al : N) (o : lst) : HM lst :=
    if l_len o =? 0 then init_empty_list al
    else
      rp <-- get_next (l_head o) ;;
      hd <-- build_virtual_node al ;;
      tl <-- build_virtual_node al ;;
      fuel <-- nodes_in_memory ;;
      '(p, n) <-- copy_loop fuel al rp (l_tail o) hd 0 ;;
      set_next p tl ;;; set_next tl PNull ;;; ret (Lst hd tl n al).
  (** linked_list.h:579-587: copying, with the allocator of the source or a
      given one. *)
  Definition l_copy (o : lst) : HM lst := copy_impl (l_al o) o.
  Definition l_copy_alloc (al : N) (o : lst) : HM lst := copy_impl al o.

  (** [while (cur != stop) { tmp = cur; cur = cur->next; destroy_node(tmp); }]
      of 878-883, 1880-1884 and 1264-1269; gives the number of nodes. *)
  Fixpoint destroy_run (fuel : nat) (al : N) (cur stop : lptr) (n : N) : HM N :=
    match fuel with
    | O => fail Fuel
    | S fuel =>
        if decide (cur = stop) then ret n
        else
          nxt <-- get_next cur ;;
          destroy_node al cur ;;; destroy_run fuel al nxt stop (n + 1)
    end.
  (** linked_list.h:876-886 [clear]. *)
  Definition l_clear (l : lst) : HM lst :=
    cur <-- get_next (l_head l) ;;
    fuel <-- nodes_in_memory ;;
    destroy_run fuel (l_al l) cur (l_tail l) 0 ;;;
    set_next (l_head l) (l_tail l) ;;; ret (set_len l 0).
  (** linked_list.h:591-599 the destructor; the destroyed object. *)
  Definition l_destroy (l : lst) : HM lst :=
    if decide (l_head l = PNull) then ret l
    else
      l' <-- l_clear l ;;
      destroy_node (l_al l) (l_head l) ;;; destroy_node (l_al l) (l_tail l) ;;; ret l'.

  (** linked_list.h:533-577 the moving constructor with an allocator; the
      loop 557-565. *)
  Fixpoint move_loop (fuel : nat) (al al' : N) (rp p : lptr) (n : N) : HM (lptr * N) :=
    match fuel with
    | O => fail Fuel
    | S fuel =>
        if decide (rp = PNull) then ret (p, n)
        else
          v <-- value rp ;;
          nn <-- construct_node al v ;;
          rp' <-- get_next rp ;;
          set_next p nn ;;;
          destroy_node al' rp ;;;
          move_loop fuel al al' rp' nn (uadd n 1)
    end.
  Definition l_move_alloc (al : N) (o : lst) : HM (lst * lst) :=
    if al =? l_al o then ret (Lst (l_head o) (l_tail o) (l_len o) al, moved_from o)
    else if l_len o =? 0 then
      l <-- init_empty_list al ;;
      destroy_node (l_al o) (l_head o) ;;; ret (l, moved_from o)
    else
      rp <-- get_next (l_head o) ;;
      hd <-- build_virtual_node al ;;
      tl <-- build_virtual_node al ;;
      fuel <-- nodes_in_memory ;;
      '(p, n) <-- move_loop fuel al (l_al o) rp hd 0 ;;
      set_next p tl ;;; set_next tl PNull ;;;
      destroy_node (l_al o) (l_head o) ;;; destroy_node (l_al o) (l_tail o) ;;;
      ret (Lst hd tl n al, moved_from o).

  (** linked_list.h:601-610, 612-625, 627-641: the assignments (from another
      list). *)
  Definition l_copy_assign (l o : lst) : HM lst :=
    l_destroy l ;;; copy_impl (l_al o) o.
  Definition l_move_assign (l o : lst) : HM (lst * lst) :=
    l_destroy l ;;; ret (o, moved_from o).
  Definition l_ilist_assign (l : lst) (vs : list T) : HM lst :=
    l1 <-- l_clear l ;;
    p <-- append (l_al l1) (l_head l1) vs ;;
    set_next p (l_tail l1) ;;;
    ret (set_len l1 (uadd (l_len l1) (N.of_nat (length vs)))).

  (** linked_list.h:658-731: the ends.  The [const] [front_unchecked] of a
      doubly linked list is 728-731 (more constrained than 685-688), which
      reads the last element. *)
  Definition l_front (l : lst) : HM (option T) :=
    if l_len l =? 0 then ret None
    else p <-- get_next (l_head l) ;; v <-- value p ;; ret (Some v).
  Definition l_front_unchecked (l : lst) : HM T :=
    p <-- get_next (l_head l) ;; value p.
  Definition l_front_unchecked_const (l : lst) : HM T :=
    if dbl then p <-- get_prev (l_tail l) ;; value p
    else p <-- get_next (l_head l) ;; value p.
  Definition l_back (l : lst) : HM (option T) :=
    if l_len l =? 0 then ret None
    else p <-- get_prev (l_tail l) ;; v <-- value p ;; ret (Some v).
  Definition l_back_unchecked (l : lst) : HM T :=
    p <-- get_prev (l_tail l) ;; value p.

  (** linked_list.h:97-127 [ListIter] and 776-778 [iter]. *)
  Definition it_new (l : lst) : HM (lptr * lptr) :=
    s <-- get_next (l_head l) ;; ret (s, l_tail l).
  Definition it_next (it : lptr * lptr) : HM ((lptr * lptr) * option T) :=
    let '(s, e) := it in
    if decide (s = e) then ret (it, None)
    else v <-- value s ;; s' <-- get_next s ;; ret ((s', e), Some v).
  Definition it_prev (it : lptr * lptr) : HM ((lptr * lptr) * option T) :=
    let '(s, e) := it in
    if decide (e = s) then ret (it, None)
    else e' <-- get_prev e ;; v <-- value e' ;; ret ((s, e'), Some v).
  (** A client making the given calls ([true]: next, [false]: prev). *)
  Fixpoint it_run (it : lptr * lptr) (calls : list bool) : HM (list (option T)) :=
    match calls with
    | [] => ret []
    | c :: r =>
        '(it', x) <-- (if c : bool then it_next it else it_prev it) ;;
        xs <-- it_run it' r ;; ret (x :: xs)
    end.
  Definition l_iter (l : lst) (calls : list bool) : HM (list (option T)) :=
    it <-- it_new l ;; it_run it calls.

  (** linked_list.h:143-223 [ListIterSTL], not reversed: a position is a node;
      780-806 [before_begin], [begin], [end]. *)
  Fixpoint stl_advance (k : nat) (p : lptr) : HM lptr :=
    match k with O => ret p | S k => q <-- get_next p ;; stl_advance k q end.
  (** [for (it = begin(); it != end(); ++it) use the element]. *)
  Fixpoint stl_collect (fuel : nat) (p stop : lptr) : HM (list T) :=
    match fuel with
    | O => fail Fuel
    | S fuel =>
        if decide (p = stop) then ret []
        else v <-- value p ;; q <-- get_next p ;; r <-- stl_collect fuel q stop ;; ret (v :: r)
    end.
  Definition l_to_list (l : lst) : HM (list T) :=
    p <-- get_next (l_head l) ;; fuel <-- nodes_in_memory ;; stl_collect fuel p (l_tail l).
  (** [for (it = end(); it != begin(); ) use the element before]. *)
  Fixpoint stl_collect_back (fuel : nat) (p stop : lptr) : HM (list T) :=
    match fuel with
    | O => fail Fuel
    | S fuel =>
        if decide (p = stop) then ret []
        else q <-- get_prev p ;; v <-- value q ;; r <-- stl_collect_back fuel q stop ;; ret (v :: r)
    end.
  Definition l_to_list_back (l : lst) : HM (list T) :=
    p <-- get_next (l_head l) ;; fuel <-- nodes_in_memory ;; stl_collect_back fuel (l_tail l) p.
  (** linked_list.h:189-205 on a reversed iterator: the most constrained
      [operator++] (189-191) calls [operator--] and the most constrained
      [operator--] (197-200) calls [operator++]. *)
  Fixpoint rev_inc (fuel : nat) (p : lptr) : HM lptr :=
    match fuel with O => fail Fuel | S fuel => rev_dec fuel p end
  with rev_dec (fuel : nat) (p : lptr) : HM lptr :=
    match fuel with O => fail Fuel | S fuel => rev_inc fuel p end.
  (** linked_list.h:816-829 [rbegin], [crbegin]; 831-844 [rend], [crend]. *)
  Definition l_rbegin (l : lst) : HM lptr := get_prev (l_tail l).
  Definition l_rend (l : lst) : lptr := l_head l.

  (** linked_list.h:1007-1015 [emplace_after]; 905-929 [insert_after] of one
      value. *)
  Definition l_emplace_after (l : lst) (pos : lptr) (v : T) : HM (lst * lptr) :=
    tmp <-- construct_node (l_al l) v ;;
    nx <-- get_next pos ;;
    set_next tmp nx ;;; set_next pos tmp ;;;
    ret (set_len l (uadd (l_len l) 1), tmp).
  (** linked_list.h:941-958, 970-988 and 990-992 [insert_after] of a number of
      values, of a range, of an initializer list. *)
  Definition l_insert_after (l : lst) (pos : lptr) (vs : list T) : HM (lst * lptr) :=
    match vs with
    | [] => ret (l, pos)
    | _ =>
        t <-- get_next pos ;;
        p <-- append (l_al l) pos vs ;;
        set_next p t ;;;
        r <-- get_next pos ;;
        ret (set_len l (uadd (l_len l) (N.of_nat (length vs))), r)
    end.
  (** linked_list.h:1029-1041 [erase_after(pos)]. *)
  Definition l_erase_after (l : lst) (pos : lptr) : HM (lst * lptr) :=
    tmp <-- get_next pos ;;
    if decide (tmp = l_tail l) then ret (l, l_tail l)
    else
      r <-- get_next tmp ;;
      set_next pos r ;;; destroy_node (l_al l) tmp ;;;
      ret (set_len l (usub (l_len l) 1), r).
  (** linked_list.h:1056-1063 [erase_after(first, last)]. *)
  Fixpoint erase_after_loop (fuel : nat) (l : lst) (first last : lptr) : HM lst :=
    match fuel with
    | O => fail Fuel
    | S fuel =>
        if decide (first = last) then ret l
        else
          n <-- get_next first ;;
          if decide (n = last) then ret l
          else '(l', _) <-- l_erase_after l first ;; erase_after_loop fuel l' first last
    end.
  Definition l_erase_after_range (l : lst) (first last : lptr) : HM (lst * lptr) :=
    fuel <-- nodes_in_memory ;;
    l' <-- erase_after_loop fuel l first last ;; ret (l', last).

  (** linked_list.h:1078-1089 [emplace]; 1110-1136 [insert] of one value. *)
  Definition l_emplace (l : lst) (pos : lptr) (v : T) : HM (lst * lptr) :=
    tmp <-- construct_node (l_al l) v ;;
    pr <-- get_prev pos ;;
    set_next pr tmp ;;; set_next tmp pos ;;;
    ret (set_len l (uadd (l_len l) 1), tmp).
  (** linked_list.h:1151-1168, 1183-1201 and 1203-1205 [insert] of a number
      of values, of a range, of an initializer list. *)
  Definition l_insert (l : lst) (pos : lptr) (vs : list T) : HM (lst * lptr) :=
    match vs with
    | [] => ret (l, pos)
    | _ =>
        r <-- get_prev pos ;;
        p <-- append (l_al l) r vs ;;
        set_next p pos ;;;
        res <-- get_next r ;;
        ret (set_len l (uadd (l_len l) (N.of_nat (length vs))), res)
    end.
  (** linked_list.h:1223-1235 [erase(pos)]. *)
  Definition l_erase (l : lst) (pos : lptr) : HM (lst * lptr) :=
    if decide (pos = l_tail l) then ret (l, pos)
    else if decide (pos = l_head l) then ret (l, pos)
    else
      pr <-- get_prev pos ;; nx <-- get_next pos ;;
      set_next pr nx ;;;
      r <-- get_next pos ;;
      destroy_node (l_al l) pos ;;;
      ret (set_len l (usub (l_len l) 1), r).
  (** linked_list.h:1254-1271 [erase(first, last)]. *)
  Definition l_erase_range (l : lst) (first last : lptr) : HM (lst * lptr) :=
    if decide (first = last) then ret (l, last)
    else
      first <-- (if decide (first = l_head l) then get_next first else ret first) ;;
      hp <-- get_prev first ;;
      set_next hp last ;;;
      fuel <-- nodes_in_memory ;;
      n <-- destroy_run fuel (l_al l) first last 0 ;;
      ret (set_len l (usub (l_len l) n), last).

  (** linked_list.h:1277-1303 [push_front], [emplace_front]. *)
  Definition l_push_front (l : lst) (v : T) : HM lst :=
    node <-- construct_node (l_al l) v ;;
    nx <-- get_next (l_head l) ;;
    set_next node nx ;;; set_next (l_head l) node ;;;
    value node ;;; ret (set_len l (uadd (l_len l) 1)).
  (** linked_list.h:1308-1314 [pop_front]. *)
  Definition l_pop_front (l : lst) : HM lst :=
    tmp <-- get_next (l_head l) ;;
    nx <-- get_next tmp ;;
    set_next (l_head l) nx ;;; destroy_node (l_al l) tmp ;;;
    ret (set_len l (usub (l_len l) 1)).
  (** linked_list.h:1324-1360 [push_back], [emplace_back]. *)
  Definition l_push_back (l : lst) (v : T) : HM lst :=
    node <-- construct_node (l_al l) v ;;
    pr <-- get_prev (l_tail l) ;;
    set_next pr node ;;; set_next node (l_tail l) ;;;
    value node ;;; ret (set_len l (uadd (l_len l) 1)).
  (** linked_list.h:1368-1376 [pop_back]. *)
  Definition l_pop_back (l : lst) : HM lst :=
    tmp <-- get_prev (l_tail l) ;;
    pr <-- get_prev tmp ;;
    set_next pr (l_tail l) ;;;
    destroy_node (l_al l) tmp ;;; ret (set_len l (usub (l_len l) 1)).

  Fixpoint back_advance (k : nat) (p : lptr) : HM lptr :=
    match k with O => ret p | S k => q <-- get_prev p ;; back_advance k q end.
  (** linked_list.h:1856-1886 [shorten]. *)
  Definition l_shorten (l : lst) (count : N) : HM lst :=
    let d := usub (l_len l) count in
    t <-- (if dbl && (d <? l_len l / 2) then
             pr <-- get_prev (l_tail l) ;; back_advance (N.to_nat d) pr
           else stl_advance (N.to_nat count) (l_head l)) ;;
    p <-- get_next t ;;
    set_next t (l_tail l) ;;;
    fuel <-- nodes_in_memory ;;
    destroy_run fuel (l_al l) p (l_tail l) 0 ;;;
    ret (set_len l count).
  (** linked_list.h:1888-1926 [extend]; the loops 1899-1904, 1919-1924. *)
  Fixpoint extend_loop (al : N) (p tl : lptr) (vs : list T) : HM lptr :=
    match vs with
    | [] => ret p
    | v :: r =>
        tmp <-- construct_node al v ;;
        set_next p tmp ;;; set_next tmp tl ;;; extend_loop al tmp tl r
    end.
  Definition l_extend (l : lst) (count : N) (v : T) : HM lst :=
    let d := usub count (l_len l) in
    p <-- (if dbl then get_prev (l_tail l) else stl_advance (N.to_nat (l_len l)) (l_head l)) ;;
    extend_loop (l_al l) p (l_tail l) (replicate (N.to_nat d) v) ;;;
    ret (set_len l count).
  (** linked_list.h:1383-1410 [resize]; [v] is the given or the default
      value. *)
  Definition l_resize (l : lst) (count : N) (v : T) : HM lst :=
    if count =? 0 then l_clear l
    else if count =? l_len l then ret l
    else if l_len l <? count then l_extend l count v
    else l_shorten l count.

  (** linked_list.h:1928-1938 [real_tail]. *)
  Fixpoint real_tail_loop (fuel : nat) (p tl : lptr) : HM lptr :=
    match fuel with
    | O => fail Fuel
    | S fuel =>
        n <-- get_next p ;;
        if decide (n = tl) then ret p else real_tail_loop fuel n tl
    end.
  Definition real_tail (l : lst) : HM lptr :=
    if dbl then get_prev (l_tail l)
    else fuel <-- nodes_in_memory ;; real_tail_loop fuel (l_head l) (l_tail l).

  (** linked_list.h:1535-1545 and 1560-1572 [splice_after]: [other] passed as
      lvalue or (second) as rvalue, when its virtual nodes go too. *)
  Definition l_splice_after (l : lst) (pos : lptr) (o : lst) : HM (lst * lst) :=
    hf <-- get_next (l_head o) ;;
    t <-- real_tail o ;;
    nx <-- get_next pos ;;
    set_next t nx ;;; set_next pos hf ;;;
    set_next (l_head o) (l_tail o) ;;;
    ret (set_len l (uadd (l_len l) (l_len o)), set_len o 0).
  Definition l_splice_after_rv (l : lst) (pos : lptr) (o : lst) : HM (lst * lst) :=
    hf <-- get_next (l_head o) ;;
    t <-- real_tail o ;;
    nx <-- get_next pos ;;
    set_next t nx ;;; set_next pos hf ;;;
    destroy_node (l_al o) (l_head o) ;;; destroy_node (l_al o) (l_tail o) ;;;
    ret (set_len l (uadd (l_len l) (l_len o)), moved_from o).
  (** linked_list.h:1547-1558, 1574-1587 [splice]. *)
  Definition l_splice (l : lst) (pos : lptr) (o : lst) : HM (lst * lst) :=
    hf <-- get_next (l_head o) ;;
    t <-- real_tail o ;;
    pr <-- get_prev pos ;;
    set_next pr hf ;;; set_next t pos ;;;
    set_next (l_head o) (l_tail o) ;;;
    ret (set_len l (uadd (l_len l) (l_len o)), set_len o 0).
  Definition l_splice_rv (l : lst) (pos : lptr) (o : lst) : HM (lst * lst) :=
    hf <-- get_next (l_head o) ;;
    t <-- real_tail o ;;
    pr <-- get_prev pos ;;
    set_next pr hf ;;; set_next t pos ;;;
    destroy_node (l_al o) (l_head o) ;;; destroy_node (l_al o) (l_tail o) ;;;
    ret (set_len l (uadd (l_len l) (l_len o)), moved_from o).

  (** linked_list.h:1610-1635 [remove_if]; the predicate may read the memory
      (1598-1602 [remove(val)] compares with what [val] refers to).  Here and
      below [htick] counts the calls of the predicate, equality or order that
      the caller supplies; it has no other effect. *)
  Fixpoint remove_loop (fuel : nat) (l : lst) (f : T -> HM bool) (last cur : lptr) (cnt : N)
    : HM (lst * N) :=
    match fuel with
    | O => fail Fuel
    | S fuel =>
        if decide (cur = l_tail l) then ret (l, cnt)
        else
          v <-- value cur ;;
          htick ;;;
          b <-- f v ;;
          if b : bool then
            nx <-- get_next cur ;;
            set_next last nx ;;; destroy_node (l_al l) cur ;;;
            cur' <-- get_next last ;;
            remove_loop fuel (set_len l (usub (l_len l) 1)) f last cur' (uadd cnt 1)
          else
            cur' <-- get_next cur ;; last' <-- get_next last ;;
            remove_loop fuel l f last' cur' cnt
    end.
  Definition remove_if_m (l : lst) (f : T -> HM bool) : HM (lst * N) :=
    if l_len l =? 0 then ret (l, 0)
    else
      cur <-- get_next (l_head l) ;;
      fuel <-- nodes_in_memory ;; remove_loop fuel l f (l_head l) cur 0.
  Definition l_remove_if (l : lst) (f : T -> bool) : HM (lst * N) :=
    remove_if_m l (fun v => ret (f v)).
  (** [remove(val)] with [val] a reference to the element of node [p]. *)
  Definition l_remove_ref (l : lst) (eqb : T -> T -> bool) (p : lptr) : HM (lst * N) :=
    remove_if_m l (fun v => x <-- value p ;; ret (eqb x v)).

  (** linked_list.h:1640-1655 [reverse] of a forward list. *)
  Fixpoint rev_fwd_loop (fuel : nat) (p pr tl : lptr) : HM lptr :=
    match fuel with
    | O => fail Fuel
    | S fuel =>
        if decide (p = tl) then ret pr
        else tmp <-- get_next p ;; set_next p pr ;;; rev_fwd_loop fuel tmp p tl
    end.
  Definition rev_fwd (l : lst) : HM lst :=
    if l_len l <? 2 then ret l
    else
      p <-- get_next (l_head l) ;;
      fuel <-- nodes_in_memory ;;
      pr <-- rev_fwd_loop fuel p (l_tail l) (l_tail l) ;;
      set_next (l_head l) pr ;;; ret l.
  (** linked_list.h:1660-1671 [reverse] of a doubly linked list. *)
  Definition swap_links (p : lptr) : HM unit :=
    n <-- get_next p ;; q <-- get_prev p ;; put_next p q ;;; put_prev p n.
  Fixpoint rev_dbl_loop (fuel : nat) (p ap : lptr) : HM unit :=
    match fuel with
    | O => fail Fuel
    | S fuel =>
        if decide (p = PNull) then ret tt
        else
          swap_links p ;;;
          ap' <-- (if decide (ap = PNull) then ret ap else get_next ap) ;;
          rev_dbl_loop fuel ap ap'
    end.
  Definition rev_dbl (l : lst) : HM lst :=
    ap <-- get_next (l_head l) ;;
    fuel <-- nodes_in_memory ;;
    rev_dbl_loop fuel (l_head l) ap ;;;
    ret (Lst (l_tail l) (l_head l) (l_len l) (l_al l)).
  Definition l_reverse (l : lst) : HM lst := if dbl then rev_dbl l else rev_fwd l.

  (** linked_list.h:1677-1714 [unique]. *)
  Fixpoint unique_loop (fuel : nat) (l : lst) (r : T -> T -> bool) (bc last cur : lptr) (cnt : N)
    : HM (lst * N) :=
    match fuel with
    | O => fail Fuel
    | S fuel =>
        if decide (cur = l_tail l) then ret (l, cnt)
        else
          v <-- value cur ;; w <-- value last ;;
          htick ;;;
          if r v w then
            nx <-- get_next cur ;;
            set_next bc nx ;;; destroy_node (l_al l) cur ;;;
            cur' <-- get_next bc ;;
            unique_loop fuel (set_len l (usub (l_len l) 1)) r bc last cur' (uadd cnt 1)
          else
            cur' <-- get_next cur ;;
            unique_loop fuel l r cur cur cur' cnt
    end.
  Definition l_unique (l : lst) (r : T -> T -> bool) : HM (lst * N) :=
    if l_len l <? 2 then ret (l, 0)
    else
      f <-- get_next (l_head l) ;;
      cur <-- get_next f ;;
      fuel <-- nodes_in_memory ;; unique_loop fuel l r f f cur 0.

  (** linked_list.h:259-301 [_private::merge]; [is_end] 265-267. *)
  Definition m_end (n : lptr) : HM bool :=
    if decide (n = PNull) then ret true else no_data n.
  Fixpoint merge_loop (fuel : nat) (lt : T -> T -> bool) (a b p : lptr) : HM (lptr * lptr * lptr) :=
    match fuel with
    | O => fail Fuel
    | S fuel =>
        ea <-- m_end a ;;
        if ea : bool then ret (a, b, p)
        else
          eb <-- m_end b ;;
          if eb : bool then ret (a, b, p)
          else
            x <-- value a ;; y <-- value b ;;
            htick ;;;
            if lt x y then
              set_next p a ;;; a' <-- get_next a ;; p' <-- get_next p ;; merge_loop fuel lt a' b p'
            else
              set_next p b ;;; b' <-- get_next b ;; p' <-- get_next p ;; merge_loop fuel lt a b' p'
    end.
  Fixpoint last_loop (fuel : nat) (p : lptr) : HM lptr :=
    match fuel with
    | O => fail Fuel
    | S fuel =>
        n <-- get_next p ;;
        e <-- m_end n ;;
        if e : bool then ret p else last_loop fuel n
    end.
  Definition merge_nodes (lt : T -> T -> bool) (a b : lptr) : HM (lptr * lptr) :=
    ea <-- m_end a ;;
    if ea : bool then ret (b, PNull)
    else
      eb <-- m_end b ;;
      if eb : bool then ret (a, PNull)
      else
        x <-- value a ;; y <-- value b ;;
        htick ;;;
        '(res, a1, b1) <-- (if lt x y then a' <-- get_next a ;; ret (a, a', b)
                            else b' <-- get_next b ;; ret (b, a, b')) ;;
        fuel <-- nodes_in_memory ;;
        '(a2, b2, p) <-- merge_loop fuel lt a1 b1 res ;;
        ea <-- m_end a2 ;;
        (if ea : bool then
           eb <-- m_end b2 ;; (if eb : bool then ret tt else set_next p b2)
         else set_next p a2) ;;;
        t <-- last_loop fuel p ;;
        ret (res, t).

  (** linked_list.h:232-255 [_private::mergeSort]; [is_end] 237-239. *)
  Definition s_end (n : lptr) : HM bool :=
    nx <-- get_next n ;; if decide (nx = PNull) then ret true else no_data nx.
  Fixpoint mid_loop (fuel : nat) (fast slow : lptr) : HM lptr :=
    match fuel with
    | O => fail Fuel
    | S fuel =>
        e1 <-- s_end fast ;;
        if e1 : bool then ret slow
        else
          f1 <-- get_next fast ;;
          e2 <-- s_end f1 ;;
          if e2 : bool then ret slow
          else
            f2 <-- get_next f1 ;; s1 <-- get_next slow ;; mid_loop fuel f2 s1
    end.
  Fixpoint merge_sort (depth : nat) (lt : T -> T -> bool) (head : lptr) : HM (lptr * lptr) :=
    match depth with
    | O => fail Fuel
    | S depth =>
        base <-- (if decide (head = PNull) then ret true
                  else n <-- get_next head ;; ret (bool_decide (n = PNull))) ;;
        if base : bool then ret (head, PNull)
        else
          fuel <-- nodes_in_memory ;;
          mid <-- mid_loop fuel head head ;;
          slow <-- get_next mid ;;
          put_next mid PNull ;;;
          g1 <-- merge_sort depth lt head ;;
          g2 <-- merge_sort depth lt slow ;;
          merge_nodes lt (fst g1) (fst g2)
    end.
  (** linked_list.h:1719-1737 [sort]. *)
  Definition l_sort (l : lst) (lt : T -> T -> bool) : HM lst :=
    f <-- get_next (l_head l) ;;
    depth <-- nodes_in_memory ;;
    r <-- merge_sort depth lt f ;;
    set_next (l_head l) (fst r) ;;;
    (if decide (snd r = PNull) then ret tt else set_next (snd r) (l_tail l)) ;;;
    ret l.

  (** linked_list.h:1445-1486 [merge(other, p)] for another list. *)
  Definition l_merge (l o : lst) (lt : T -> T -> bool) : HM (lst * lst) :=
    if l_len o =? 0 then ret (l, o)
    else
      a <-- get_next (l_head l) ;;
      b <-- get_next (l_head o) ;;
      set_next (l_head o) (l_tail o) ;;;
      r <-- merge_nodes lt a b ;;
      set_next (l_head l) (fst r) ;;;
      (if decide (snd r = PNull) then ret tt else set_next (snd r) (l_tail l)) ;;;
      ret (set_len l (uadd (l_len l) (l_len o)), set_len o 0).
  (** linked_list.h:1495-1533 [merge] with [other] an rvalue. *)
  Definition l_merge_rv (l o : lst) (lt : T -> T -> bool) : HM (lst * lst) :=
    if l_len o =? 0 then ret (l, o)
    else
      a <-- get_next (l_head l) ;;
      b <-- get_next (l_head o) ;;
      destroy_node (l_al o) (l_head o) ;;; destroy_node (l_al o) (l_tail o) ;;;
      r <-- merge_nodes lt a b ;;
      set_next (l_head l) (fst r) ;;;
      (if decide (snd r = PNull) then ret tt else set_next (snd r) (l_tail l)) ;;;
      ret (set_len l (uadd (l_len l) (l_len o)), moved_from o).

  (** linked_list.h:1987-2015 [ListIntoIter]: takes the list over; making the
      given calls and then being destroyed. *)
  Definition into_next (l : lst) : HM (lst * option T) :=
    if l_len l =? 0 then ret (l, None)
    else
      f <-- l_front l ;;
      l' <-- l_pop_front l ;; ret (l', f).
  Definition into_prev (l : lst) : HM (lst * option T) :=
    if l_len l =? 0 then ret (l, None)
    else
      b <-- l_back l ;;
      l' <-- l_pop_back l ;; ret (l', b).
  Fixpoint into_run (l : lst) (calls : list bool) : HM (lst * list (option T)) :=
    match calls with
    | [] => ret (l, [])
    | c :: r =>
        '(l', x) <-- (if c : bool then into_next l else into_prev l) ;;
        '(l2, xs) <-- into_run l' r ;; ret (l2, x :: xs)
    end.
  (** 742-744 [into_iter], the calls, the end of the iterator's lifetime: the
      items and what is left of the list. *)
  Definition l_into_iter (l : lst) (calls : list bool) : HM (lst * list (option T)) :=
    let '(it, l') := l_move l in
    '(it', xs) <-- into_run it calls ;;
    l_destroy it' ;;; ret (l', xs).
End List.
