(** * ListThrow: list operations when copying an element throws

    include/mstl/collection/linked_list.h.  [ListModel] takes element
    operations to be total.  Here *constructing* an element in a node may throw
    (copying it, or building it from arguments); moving, destroying and
    comparing may not.  The state is the list object itself, the memory and the
    number of constructions that still succeed; the next one throws.  A
    throwing function leaves the data members as they were at that moment: the
    model assigns them in the order of the source.

    An exception that reaches a [noexcept] function ends the program
    ([std::terminate]); that is written [Err Panic] here. *)
From Verif Require Import Base World Machine IterSpec ListModel ListSeg ListOps ListOps2 ListOps3 ListStep
  ListOps5 ListSpec ListRefine ListNodes ListLeak.
Local Open Scope N_scope.

Record lts (T : Type) := Lts { x_l : lst; x_h : heap (cell T); x_k : nat }.
Global Arguments Lts {T} _ _ _. Global Arguments x_l {T} _. Global Arguments x_h {T} _.
Global Arguments x_k {T} _.

Section Model.
  Context {T : Type} (dbl : bool).
  Notation H := (heap (cell T)).
  Notation HM := (M H).
  (** [None]: an exception leaves the call. *)
  Definition LM (X : Type) : Type := lts T -> outcome (option X * lts T).

  Definition xret {X} (x : X) : LM X := fun s => Ok (Some x, s).
  Definition xbind {X Y} (m : LM X) (k : X -> LM Y) : LM Y := fun s =>
    match m s with
    | Ok (Some x, s') => k x s'
    | Ok (None, s') => Ok (None, s')
    | Err e => Err e
    end.
  Notation "x <~ m ;; k" := (xbind m (fun x => k)) (at level 100, m at next level, right associativity).
  Notation "m ~;; k" := (xbind m (fun _ => k)) (at level 100, right associativity).

  (** A step on the memory that cannot throw. *)
  Definition mem {X} (m : HM X) : LM X := fun s =>
    match m (x_h s) with
    | Ok (x, h') => Ok (Some x, Lts (x_l s) h' (x_k s))
    | Err e => Err e
    end.
  Definition this : LM lst := fun s => Ok (Some (x_l s), s).
  Definition put (l : lst) : LM unit := fun s => Ok (Some tt, Lts l (x_h s) (x_k s)).
  (** One element is constructed. *)
  Definition constructing : LM unit := fun s =>
    match x_k s with
    | O => Ok (None, s)
    | S k => Ok (Some tt, Lts (x_l s) (x_h s) k)
    end.
  (** A member function that cannot throw. *)
  Definition calls (f : lst -> HM lst) : LM unit := l <~ this ;; l1 <~ mem (f l) ;; put l1.
  (** [len++] *)
  Definition count1 : LM unit := l <~ this ;; put (set_len l (uadd (l_len l) 1)).
  (** [noexcept] *)
  Definition noexcept {X} (m : LM X) : LM X := fun s =>
    match m s with Ok (None, _) => Err Panic | r => r end.
  (** A local list goes out of scope with the exception. *)
  Definition unwinding {X} (m : LM X) (dtor : lst -> HM lst) : LM X := fun s =>
    match m s with
    | Ok (None, s') =>
        match dtor (x_l s') (x_h s') with
        | Ok (l, h) => Ok (None, Lts l h (x_k s'))
        | Err e => Err e
        end
    | r => r
    end.

  (** linked_list.h:1801-1806 [construct_node]: the node is there when the
      element is constructed. *)
  Definition x_construct_node (v : T) : LM lptr :=
    l <~ this ;;
    n <~ mem (alloc_node_with_data (l_al l)) ;;
    d <~ mem (no_data n) ;;
    (if d : bool then mem (fail UB) else constructing ~;; mem (put_data n (DVal v))) ~;;
    xret n.

  (** The loop of the constructors, assignments and insertions: [counting] when
      [len++] is in the loop. *)
  Fixpoint x_append (counting : bool) (p : lptr) (vs : list T) : LM lptr :=
    match vs with
    | [] => xret p
    | v :: r =>
        tmp <~ x_construct_node v ;;
        (if counting then count1 else xret tt) ~;;
        mem (set_next dbl p tmp) ~;; x_append counting tmp r
    end.

  (** linked_list.h:503-524 and 589 [BaseList(first, last, a)]. *)
  Definition x_range (vs : list T) : LM unit :=
    match vs with
    | [] => calls (fun l => init_empty_list dbl (l_al l))
    | _ =>
        l <~ this ;;
        hd <~ mem (build_virtual_node dbl (l_al l)) ;;
        tl <~ mem (build_virtual_node dbl (l_al l)) ;;
        p <~ x_append true hd vs ;;
        mem (set_next dbl p tl) ~;;
        l1 <~ this ;; put (Lst hd tl (l_len l1) (l_al l1)) ~;;
        mem (set_next dbl tl PNull)
    end.
  (** linked_list.h:461-501 [BaseList(count, value, a)], [BaseList(count, a)]. *)
  Definition x_count (n : N) (v : T) : LM unit :=
    if n =? 0 then calls (fun l => init_empty_list dbl (l_al l))
    else
      l <~ this ;;
      hd <~ mem (build_virtual_node dbl (l_al l)) ;;
      tl <~ mem (build_virtual_node dbl (l_al l)) ;;
      p <~ x_append true hd (replicate (N.to_nat n) v) ;;
      mem (set_next dbl p tl) ~;;
      l1 <~ this ;; put (Lst hd tl (l_len l1) (l_al l1)) ~;;
      mem (set_next dbl tl PNull).
  (** linked_list.h:753-767 [from_iter]: the list is a local variable. *)
  Definition x_from_iter (vs : list T) : LM unit :=
    calls (fun l => init_empty_list dbl (l_al l)) ~;;
    unwinding
      (l <~ this ;;
       p <~ x_append true (l_head l) vs ;;
       mem (set_next dbl p (l_tail l)))
      (l_destroy dbl).

  (** linked_list.h:1828-1854 [copy_impl]; the loop 1843-1849. *)
  Fixpoint x_copy_loop (fuel : nat) (rp stop p : lptr) : LM lptr :=
    match fuel with
    | O => mem (fail Fuel)
    | S fuel =>
        if decide (rp = stop) then xret p
        else
          v <~ mem (value rp) ;;
          tmp <~ x_construct_node v ;;
          rp' <~ mem (get_next rp) ;;
          mem (set_next dbl p tmp) ~;;
          count1 ~;;
          x_copy_loop fuel rp' stop tmp
    end.
  Definition x_copy_impl (o : lst) : LM unit :=
    l <~ this ;; put (set_len l 0) ~;;
    if l_len o =? 0 then calls (fun l => init_empty_list dbl (l_al l))
    else
      rp <~ mem (get_next (l_head o)) ;;
      hd <~ mem (build_virtual_node dbl (l_al l)) ;;
      tl <~ mem (build_virtual_node dbl (l_al l)) ;;
      fuel <~ mem nodes_in_memory ;;
      p <~ x_copy_loop fuel rp (l_tail o) hd ;;
      mem (set_next dbl p tl) ~;;
      l1 <~ this ;; put (Lst hd tl (l_len l1) (l_al l1)) ~;;
      mem (set_next dbl tl PNull).

  (** linked_list.h:601-610 [operator=(const BaseList&)], another list: the
      destructor leaves [head] and [tail] as they are. *)
  Definition x_copy_assign (o : lst) : LM unit :=
    calls (l_destroy dbl) ~;;
    l <~ this ;; put (Lst (l_head l) (l_tail l) (l_len l) (l_al o)) ~;;
    x_copy_impl o.
  (** linked_list.h:627-641 [operator=(initializer_list)]. *)
  Definition x_ilist_assign (vs : list T) : LM unit :=
    calls (l_clear dbl) ~;;
    l <~ this ;;
    p <~ x_append true (l_head l) vs ;;
    mem (set_next dbl p (l_tail l)).

  (** linked_list.h:1007-1015 [emplace_after], 1078-1089 [emplace]. *)
  Definition x_emplace_after (pos : lptr) (v : T) : LM lptr :=
    tmp <~ x_construct_node v ;;
    nx <~ mem (get_next pos) ;;
    mem (set_next dbl tmp nx) ~;; mem (set_next dbl pos tmp) ~;;
    count1 ~;; xret tmp.
  Definition x_emplace (pos : lptr) (v : T) : LM lptr :=
    tmp <~ x_construct_node v ;;
    pr <~ mem (get_prev pos) ;;
    mem (set_next dbl pr tmp) ~;; mem (set_next dbl tmp pos) ~;;
    count1 ~;; xret tmp.

  (** linked_list.h:941-958 and 1151-1168 insert [count] copies and add to
      [len] at the end ([counting = false]); 970-988 and 1183-1201 insert a
      range and count in the loop. *)
  Definition x_insert_after (counting : bool) (pos : lptr) (vs : list T) : LM lptr :=
    match vs with
    | [] => xret pos
    | _ =>
        t <~ mem (get_next pos) ;;
        p <~ x_append counting pos vs ;;
        (if counting then xret tt
         else l <~ this ;; put (set_len l (uadd (l_len l) (N.of_nat (length vs))))) ~;;
        mem (set_next dbl p t) ~;;
        mem (get_next pos)
    end.
  Definition x_insert (counting : bool) (pos : lptr) (vs : list T) : LM lptr :=
    match vs with
    | [] => xret pos
    | _ =>
        r <~ mem (get_prev pos) ;;
        p <~ x_append counting r vs ;;
        (if counting then xret tt
         else l <~ this ;; put (set_len l (uadd (l_len l) (N.of_nat (length vs))))) ~;;
        mem (set_next dbl p pos) ~;;
        mem (get_next r)
    end.

  (** linked_list.h:1277-1303 [push_front], [emplace_front]; 1324-1360
      [push_back], [emplace_back]: [noexcept]. *)
  Definition x_push_front (v : T) : LM unit := noexcept (
    node <~ x_construct_node v ;;
    l <~ this ;;
    nx <~ mem (get_next (l_head l)) ;;
    mem (set_next dbl node nx) ~;; mem (set_next dbl (l_head l) node) ~;;
    mem (value node) ~;; count1).
  Definition x_push_back (v : T) : LM unit := noexcept (
    node <~ x_construct_node v ;;
    l <~ this ;;
    pr <~ mem (get_prev (l_tail l)) ;;
    mem (set_next dbl pr node) ~;; mem (set_next dbl node (l_tail l)) ~;;
    mem (value node) ~;; count1).

  (** linked_list.h:1383-1410 [resize], [noexcept], with 1888-1926 [extend]. *)
  Fixpoint x_extend_loop (p tl : lptr) (vs : list T) : LM lptr :=
    match vs with
    | [] => xret p
    | v :: r =>
        tmp <~ x_construct_node v ;;
        mem (set_next dbl p tmp) ~;; mem (set_next dbl tmp tl) ~;; x_extend_loop tmp tl r
    end.
  Definition x_extend (count : N) (v : T) : LM unit :=
    l <~ this ;;
    let d := usub count (l_len l) in
    p <~ mem (if dbl then get_prev (l_tail l) else stl_advance (N.to_nat (l_len l)) (l_head l)) ;;
    x_extend_loop p (l_tail l) (replicate (N.to_nat d) v) ~;;
    put (set_len l count).
  Definition x_resize (count : N) (v : T) : LM unit := noexcept (
    l <~ this ;;
    if count =? 0 then calls (l_clear dbl)
    else if count =? l_len l then xret tt
    else if l_len l <? count then x_extend count v
    else calls (fun l => l_shorten dbl l count)).

  (** ** Programs: one operation in which [k] constructions succeed *)
  Notation WM := (M (world (cell T) lst)).
  Definition x_mk (k i : nat) (al : N) (f : LM unit) : WM (option (lout T)) :=
    wnew i ;;; fun w =>
    match f (Lts (Lst PNull PNull 0 al) (w_heap w) k) with
    | Ok (Some _, s) => Ok (Some OUnit, World (x_h s) (<[i := x_l s]> (w_vars w)))
    | Ok (None, s) => Ok (None, World (x_h s) (w_vars w))
    | Err e => Err e
    end.
  Definition x_upd (k i : nat) (f : LM (lout T)) : WM (option (lout T)) :=
    l <-- wget i ;; fun w =>
    match f (Lts l (w_heap w) k) with
    | Ok (r, s) => Ok (r, World (x_h s) (<[i := x_l s]> (w_vars w)))
    | Err e => Err e
    end.
  Definition x_at (k i pos : nat) (f : lptr -> LM lptr) : WM (option (lout T)) :=
    x_upd k i (
      l <~ this ;; p <~ mem (stl_advance pos (l_head l)) ;;
      r <~ f p ;;
      l1 <~ this ;; n <~ mem (l_pos l1 r) ;; xret (OPos n)).
  Definition quiet (m : WM (lout T)) : WM (option (lout T)) := x <-- m ;; ret (Some x).

  Definition x_step (counting : bool) (k : nat) (o : lop T) : WM (option (lout T)) :=
    match o with
    | LRange i al vs => x_mk k i al (x_range vs)
    | LCount i al n v => x_mk k i al (x_count n v)
    | LFrom i vs => x_mk k i 0 (x_from_iter vs)
    | LCopy i j => o <-- wget j ;; x_mk k i (l_al o) (x_copy_impl o)
    | LCopyAl i j al => o <-- wget j ;; x_mk k i al (x_copy_impl o)
    | LCopyAsg i j =>
        if (i =? j)%nat then quiet (list_step dbl o)
        else o <-- wget j ;; x_upd k i (x_copy_assign o ~;; xret OUnit)
    | LIlist i vs => x_upd k i (x_ilist_assign vs ~;; xret OUnit)
    | LResize i n v => x_upd k i (x_resize n v ~;; xret OUnit)
    | LPushF i v => x_upd k i (x_push_front v ~;; xret OUnit)
    | LPushB i v => x_upd k i (x_push_back v ~;; xret OUnit)
    | LEmpA i p v => x_at k i p (fun q => x_emplace_after q v)
    | LInsA i p vs => x_at k i p (fun q => x_insert_after counting q vs)
    | LEmp i p v => x_at k i p (fun q => x_emplace q v)
    | LIns i p vs => x_at k i p (fun q => x_insert counting q vs)
    | _ => quiet (list_step dbl o)
    end.
End Model.

(** ** While no construction throws, the operations are those of [ListModel] *)
Section NoThrow.
  Context {T : Type} (dbl : bool).
  Notation H := (heap (cell T)).
  Notation HM := (M H).
  Notation LM := (LM (T := T)).
  Notation world := (world (cell T) lst).
  Implicit Types (h : H) (l : lst) (k : nat).

  (** [r], done from the object [l] with [k] constructions left. *)
  Definition as_done {X} (k : nat) (r : outcome ((lst * X) * H)) : outcome (option X * lts T) :=
    match r with Ok ((l, x), h) => Ok (Some x, Lts l h k) | Err e => Err e end.

  Lemma xb_mem {X Y} (m : HM X) (f : X -> LM Y) l h k :
    xbind (mem m) f (Lts l h k) = match m h with Ok (x, h') => f x (Lts l h' k) | Err e => Err e end.
  Proof. unfold xbind, mem. cbn [x_h x_l x_k]. by destruct (m h) as [[x h']|]. Qed.
  Lemma xb_this {Y} (f : lst -> LM Y) l h k : xbind this f (Lts l h k) = f l (Lts l h k).
  Proof. done. Qed.
  Lemma xb_put {Y} (f : unit -> LM Y) l l' h k : xbind (put l') f (Lts l h k) = f tt (Lts l' h k).
  Proof. done. Qed.
  Lemma xb_ret {X Y} (x : X) (f : X -> LM Y) s : xbind (xret x) f s = f x s.
  Proof. done. Qed.
  Lemma xb_assoc {X Y Z} (m : LM X) (f : X -> LM Y) (g : Y -> LM Z) s :
    xbind (xbind m f) g s = xbind m (fun x => xbind (f x) g) s.
  Proof. unfold xbind. by destruct (m s) as [[[x|] s']|]. Qed.
  Lemma xb_calls {Y} (f : lst -> HM lst) (g : unit -> LM Y) l h k :
    xbind (calls f) g (Lts l h k) = match f l h with Ok (l', h') => g tt (Lts l' h' k) | Err e => Err e end.
  Proof. unfold calls. rewrite !xb_assoc, xb_this, xb_assoc, xb_mem. by destruct (f l h) as [[l' h']|]. Qed.
  Lemma x_calls (f : lst -> HM lst) l h k :
    calls f (Lts l h k) = match f l h with Ok (l', h') => Ok (Some tt, Lts l' h' k) | Err e => Err e end.
  Proof. unfold calls. rewrite xb_this, xb_mem. by destruct (f l h) as [[l' h']|]. Qed.
  Lemma xb_count {Y} (g : unit -> LM Y) l h k :
    xbind count1 g (Lts l h k) = g tt (Lts (set_len l (uadd (l_len l) 1)) h k).
  Proof. done. Qed.
  Lemma x_mem {X} (m : HM X) l h k :
    mem m (Lts l h k) = match m h with Ok (x, h') => Ok (Some x, Lts l h' k) | Err e => Err e end.
  Proof. unfold mem. cbn [x_h x_l x_k]. done. Qed.

  (** The node whose element was not constructed. *)
  Definition raw_cell al : cell T := Cell LData al PUndef PUndef DRaw.
  Lemma alloc_data_ok h al : alloc_node_with_data al h = Ok (PAddr (hnext h), ins h (raw_cell al)).
  Proof.
    unfold alloc_node_with_data. rewrite hnew_endless, bind_bind. unfold bind at 1, halloc. rewrite bind_ret. simpl to_ptr. unfold put_data. rewrite bind_bind.
    erewrite bind_ok; [|apply rd_ok; simpl; apply lookup_insert].
    erewrite bind_ok; [|eapply wr_ok; simpl; apply lookup_insert]. simpl. unfold ret, ins. by rewrite insert_insert.
  Qed.
  Lemma construct_some v l h k :
    x_construct_node v (Lts l h (S k)) = Ok (Some (PAddr (hnext h)), Lts l (ins h (dcell (l_al l) v)) k).
  Proof.
    unfold x_construct_node. rewrite xb_this, xb_mem, alloc_data_ok, xb_mem.
    unfold no_data. erewrite bind_ok; [|apply rd_ok; simpl; apply lookup_insert]. cbn [raw_cell n_dat ret].
    rewrite xb_assoc. unfold xbind at 1, constructing. cbn [x_k x_l x_h]. rewrite xb_mem.
    unfold put_data. erewrite bind_ok; [|apply rd_ok; simpl; apply lookup_insert].
    erewrite wr_ok; [|simpl; apply lookup_insert]. cbn. unfold xret, ins. by rewrite insert_insert.
  Qed.
  Lemma construct_none v l h :
    x_construct_node v (Lts l h 0) = Ok (None, Lts l (ins h (raw_cell (l_al l))) 0).
  Proof.
    unfold x_construct_node. rewrite xb_this, xb_mem, alloc_data_ok, xb_mem.
    unfold no_data. erewrite bind_ok; [|apply rd_ok; simpl; apply lookup_insert]. done.
  Qed.
  Lemma xb_some {X Y} (m : LM X) (f : X -> LM Y) s x s' : m s = Ok (Some x, s') -> xbind m f s = f x s'.
  Proof. intros E. unfold xbind. by rewrite E. Qed.
  Lemma xb_none {X Y} (m : LM X) (f : X -> LM Y) s s' : m s = Ok (None, s') -> xbind m f s = Ok (None, s').
  Proof. intros E. unfold xbind. by rewrite E. Qed.

  Lemma uadd_step x n : uadd (uadd x 1) (N.of_nat n) = uadd x (N.of_nat (S n)).
  Proof. unfold uadd. rewrite N.add_mod_idemp_l by done. f_equal. lia. Qed.
  Definition counted (c : bool) l (n : nat) : lst :=
    if c then set_len l (uadd (l_len l) (N.of_nat n)) else l.
  Lemma set_len_id l : l_len l < W -> set_len l (uadd (l_len l) 0) = l.
  Proof.
    intros Hl. destruct l as [a b n c]. unfold set_len, uadd. cbn in *. f_equal. rewrite N.add_0_r. by apply N.mod_small.
  Qed.
  Lemma counted_0 c l : l_len l < W -> counted c l 0 = l.
  Proof. intros Hl. destruct c; [|done]. by apply set_len_id. Qed.
  Lemma counted_S c l n :
    counted c (if c then set_len l (uadd (l_len l) 1) else l) n = counted c l (S n).
  Proof. destruct c; [|done]. unfold counted, set_len. cbn [l_len l_head l_tail l_al]. by rewrite uadd_step. Qed.
  Lemma counted_al c l n : l_al (counted c l n) = l_al l.
  Proof. by destruct c. Qed.
  Lemma uadd_W x n : uadd x n < W.
  Proof. unfold uadd. apply N.mod_lt. done. Qed.

  Lemma append_like c vs : forall p l h k, l_len l < W ->
    x_append dbl c p vs (Lts l h (length vs + k)) =
      match append dbl (l_al l) p vs h with
      | Ok (q, h') => Ok (Some q, Lts (counted c l (length vs)) h' k)
      | Err e => Err e
      end.
  Proof.
    induction vs as [|v vs IH]; intros p l h k Hl; cbn [x_append append length].
    { rewrite counted_0 by done. done. }
    cbn [Nat.add]. rewrite (xb_some _ _ _ _ _ (construct_some v l h _)), (bind_ok _ _ _ _ _ (construct_ok h _ v)).
    rewrite <-counted_S.
    assert (Hc : forall f : unit -> LM lptr, xbind (if c then count1 else xret tt) f
      (Lts l (ins h (dcell (l_al l) v)) (length vs + k)) =
      f tt (Lts (if c then set_len l (uadd (l_len l) 1) else l) (ins h (dcell (l_al l) v)) (length vs + k)))
      by (intros; by destruct c).
    rewrite Hc, xb_mem. unfold bind. destruct (set_next dbl p _ _) as [[[] h1]|]; [|done].
    rewrite IH by (destruct c; [apply uadd_W|done]). by replace (l_al (if c then _ else l)) with (l_al l) by by destruct c.
  Qed.

  Definition as_made (k : nat) (r : outcome (lst * H)) : outcome (option unit * lts T) :=
    match r with Ok (l, h) => Ok (Some tt, Lts l h k) | Err e => Err e end.
  Notation none al := (Lst PNull PNull 0 al).

  Ltac both := unfold bind; match goal with
    | |- context [match ?m ?h with Ok _ => _ | Err _ => _ end] =>
        destruct (m h) as [[? ?]|] eqn:?; [|done]
    end.

  Lemma init_like al h k :
    calls (fun l => init_empty_list dbl (l_al l)) (Lts (none al) h k) = as_made k (init_empty_list dbl al h).
  Proof. by rewrite x_calls. Qed.
  Lemma range_like al vs h k :
    x_range dbl vs (Lts (none al) h (length vs + k)) = as_made k (l_range dbl al vs h).
  Proof.
    unfold x_range, l_range. destruct vs as [|v vs]; [apply init_like|]. set (vv := v :: vs).
    rewrite xb_this. cbn [l_al].
    rewrite xb_mem. unfold bind. destruct (build_virtual_node dbl al h) as [[hd h1]|]; [|done].
    rewrite xb_mem. destruct (build_virtual_node dbl al h1) as [[tl h2]|]; [|done].
    unfold xbind at 1. rewrite append_like by done. cbn [l_al].
    destruct (append dbl al hd vv h2) as [[p h3]|]; [|done].
    rewrite xb_mem. destruct (set_next dbl p tl h3) as [[? h4]|]; [|done].
    rewrite xb_this, xb_put, x_mem. destruct (set_next dbl tl PNull h4) as [[[] h5]|]; done.
  Qed.
  Lemma count_like al n v h k :
    x_count dbl n v (Lts (none al) h (N.to_nat n + k)) = as_made k (l_count dbl al n v h).
  Proof.
    unfold x_count, l_count. destruct (N.eqb_spec n 0) as [->|]; [apply init_like|].
    rewrite xb_this. cbn [l_al].
    rewrite xb_mem. unfold bind. destruct (build_virtual_node dbl al h) as [[hd h1]|]; [|done].
    rewrite xb_mem. destruct (build_virtual_node dbl al h1) as [[tl h2]|]; [|done].
    unfold xbind at 1. pose proof (append_like true (replicate (N.to_nat n) v) hd (none al) h2 k ltac:(done)) as E.
    rewrite replicate_length in E. rewrite E. cbn [l_al].
    destruct (append dbl al hd _ h2) as [[p h3]|]; [|done].
    rewrite xb_mem. destruct (set_next dbl p tl h3) as [[? h4]|]; [|done].
    rewrite xb_this, xb_put, x_mem. unfold counted. rewrite N2Nat.id. destruct (set_next dbl tl PNull h4) as [[[] h5]|]; done.
  Qed.
  Lemma init_len al h l h' : init_empty_list (T := T) dbl al h = Ok (l, h') -> l_len l = 0 /\ l_al l = al.
  Proof.
    unfold init_empty_list, bind, ret. repeat case_match; try done. by intros [= <- <-].
  Qed.
  Lemma from_like vs h k :
    x_from_iter dbl vs (Lts (none 0) h (length vs + k)) = as_made k (l_from_iter dbl vs h).
  Proof.
    unfold x_from_iter, l_from_iter. rewrite xb_calls. cbn [l_al]. unfold bind at 1.
    destruct (init_empty_list dbl 0 h) as [[l h1]|] eqn:E; [|done]. apply init_len in E as [El Ea].
    unfold unwinding. rewrite xb_this. unfold xbind at 1. rewrite append_like by (rewrite El; done). rewrite Ea.
    unfold bind. destruct (append dbl 0 (l_head l) vs h1) as [[p h2]|]; [|done].
    rewrite x_mem. destruct (set_next dbl p (l_tail l) h2) as [[[] h3]|]; done.
  Qed.
  Lemma clear_len l h l' h' : l_clear (T := T) dbl l h = Ok (l', h') -> l' = set_len l 0.
  Proof. unfold l_clear, bind, ret. repeat case_match; try done. by intros [= <- <-]. Qed.
  Lemma ilist_like vs l h k :
    x_ilist_assign dbl vs (Lts l h (length vs + k)) = as_made k (l_ilist_assign dbl l vs h).
  Proof.
    unfold x_ilist_assign, l_ilist_assign. rewrite xb_calls. unfold bind.
    destruct (l_clear dbl l h) as [[l1 h1]|] eqn:E; [|done]. apply clear_len in E as ->.
    rewrite xb_this. unfold xbind at 1. rewrite append_like by done.
    destruct (append dbl _ _ vs h1) as [[p h2]|]; [|done].
    rewrite x_mem. destruct (set_next dbl p _ h2) as [[[] h3]|]; done.
  Qed.
  Lemma emplace_after_like pos v l h k :
    x_emplace_after dbl pos v (Lts l h (S k)) = as_done k (l_emplace_after dbl l pos v h).
  Proof.
    unfold x_emplace_after, l_emplace_after. rewrite (xb_some _ _ _ _ _ (construct_some v l h _)).
    rewrite (bind_ok _ _ _ _ _ (construct_ok h _ v)). rewrite xb_mem. unfold bind.
    destruct (get_next pos _) as [[nx h1]|]; [|done]. rewrite xb_mem.
    destruct (set_next dbl _ nx h1) as [[[] h2]|]; [|done]. rewrite xb_mem.
    destruct (set_next dbl pos _ h2) as [[[] h3]|]; [|done]. done.
  Qed.
  Lemma emplace_like pos v l h k :
    x_emplace dbl pos v (Lts l h (S k)) = as_done k (l_emplace dbl l pos v h).
  Proof.
    unfold x_emplace, l_emplace. rewrite (xb_some _ _ _ _ _ (construct_some v l h _)).
    rewrite (bind_ok _ _ _ _ _ (construct_ok h _ v)). rewrite xb_mem. unfold bind.
    destruct (get_prev pos _) as [[nx h1]|]; [|done]. rewrite xb_mem.
    destruct (set_next dbl nx _ h1) as [[[] h2]|]; [|done]. rewrite xb_mem.
    destruct (set_next dbl _ pos h2) as [[[] h3]|]; [|done]. done.
  Qed.
  Lemma insert_after_like c pos vs l h k : l_len l < W ->
    x_insert_after dbl c pos vs (Lts l h (length vs + k)) = as_done k (l_insert_after dbl l pos vs h).
  Proof.
    intros Hl. unfold x_insert_after, l_insert_after. destruct vs as [|v vs]; [done|]. set (vv := v :: vs).
    rewrite xb_mem. unfold bind. destruct (get_next pos h) as [[t h1]|]; [|done].
    unfold xbind at 1. rewrite append_like by done.
    destruct (append dbl _ pos vv h1) as [[p h2]|]; [|done].
    assert (Hc : forall f : unit -> LM lptr, xbind (if c then xret tt else
        xbind this (fun l => put (set_len l (uadd (l_len l) (N.of_nat (length vv)))))) f
        (Lts (counted c l (length vv)) h2 k) =
      f tt (Lts (set_len l (uadd (l_len l) (N.of_nat (length vv)))) h2 k)) by (intros; by destruct c).
    rewrite Hc, xb_mem. destruct (set_next dbl p t h2) as [[[] h3]|]; [|done].
    rewrite x_mem. by destruct (get_next pos h3) as [[r h4]|].
  Qed.
  Lemma insert_like c pos vs l h k : l_len l < W ->
    x_insert dbl c pos vs (Lts l h (length vs + k)) = as_done k (l_insert dbl l pos vs h).
  Proof.
    intros Hl. unfold x_insert, l_insert. destruct vs as [|v vs]; [done|]. set (vv := v :: vs).
    rewrite xb_mem. unfold bind. destruct (get_prev pos h) as [[t h1]|]; [|done].
    unfold xbind at 1. rewrite append_like by done.
    destruct (append dbl _ t vv h1) as [[p h2]|]; [|done].
    assert (Hc : forall f : unit -> LM lptr, xbind (if c then xret tt else
        xbind this (fun l => put (set_len l (uadd (l_len l) (N.of_nat (length vv)))))) f
        (Lts (counted c l (length vv)) h2 k) =
      f tt (Lts (set_len l (uadd (l_len l) (N.of_nat (length vv)))) h2 k)) by (intros; by destruct c).
    rewrite Hc, xb_mem. destruct (set_next dbl p pos h2) as [[[] h3]|]; [|done].
    rewrite x_mem. by destruct (get_next t h3) as [[r h4]|].
  Qed.
  Lemma push_front_like v l h k :
    x_push_front dbl v (Lts l h (S k)) = as_made k (l_push_front dbl l v h).
  Proof.
    unfold x_push_front, l_push_front, noexcept. rewrite (xb_some _ _ _ _ _ (construct_some v l h _)).
    rewrite (bind_ok _ _ _ _ _ (construct_ok h _ v)). rewrite xb_this, xb_mem. unfold bind.
    destruct (get_next _ _) as [[nx h1]|]; [|done]. rewrite xb_mem.
    destruct (set_next dbl _ nx h1) as [[[] h2]|]; [|done]. rewrite xb_mem.
    destruct (set_next dbl _ _ h2) as [[[] h3]|]; [|done]. rewrite xb_mem.
    by destruct (value _ h3) as [[x h4]|].
  Qed.
  Lemma push_back_like v l h k :
    x_push_back dbl v (Lts l h (S k)) = as_made k (l_push_back dbl l v h).
  Proof.
    unfold x_push_back, l_push_back, noexcept. rewrite (xb_some _ _ _ _ _ (construct_some v l h _)).
    rewrite (bind_ok _ _ _ _ _ (construct_ok h _ v)). rewrite xb_this, xb_mem. unfold bind.
    destruct (get_prev _ _) as [[nx h1]|]; [|done]. rewrite xb_mem.
    destruct (set_next dbl nx _ h1) as [[[] h2]|]; [|done]. rewrite xb_mem.
    destruct (set_next dbl _ _ h2) as [[[] h3]|]; [|done]. rewrite xb_mem.
    by destruct (value _ h3) as [[x h4]|].
  Qed.
  Lemma extend_loop_like tl vs : forall p l h k,
    x_extend_loop dbl p tl vs (Lts l h (length vs + k)) =
      match extend_loop dbl (l_al l) p tl vs h with
      | Ok (q, h') => Ok (Some q, Lts l h' k)
      | Err e => Err e
      end.
  Proof.
    induction vs as [|v vs IH]; intros p l h k; cbn [x_extend_loop extend_loop length Nat.add]; [done|].
    rewrite (xb_some _ _ _ _ _ (construct_some v l h _)), (bind_ok _ _ _ _ _ (construct_ok h _ v)).
    rewrite xb_mem. unfold bind. destruct (set_next dbl p _ _) as [[[] h1]|]; [|done].
    rewrite xb_mem. destruct (set_next dbl _ tl _) as [[[] h2]|]; [|done]. apply IH.
  Qed.
  (** The number of elements [resize] makes. *)
  Definition grown l (n : N) : nat := if l_len l <? n then N.to_nat (n - l_len l) else O.
  Lemma resize_like n v l h k : l_len l < W -> n < W ->
    x_resize dbl n v (Lts l h (grown l n + k)) = as_made k (l_resize dbl l n v h).
  Proof.
    intros Hl Hn. unfold x_resize, l_resize, noexcept, grown. rewrite xb_this.
    destruct (N.eqb_spec n 0) as [->|H0].
    { replace (l_len l <? 0) with false by lia. rewrite x_calls. by destruct (l_clear dbl l h) as [[]|]. }
    destruct (N.eqb_spec n (l_len l)) as [->|H1].
    { by rewrite N.ltb_irrefl. }
    destruct (N.ltb_spec (l_len l) n) as [H2|H2].
    2:{ rewrite x_calls. by destruct (l_shorten dbl l n h) as [[]|]. }
    unfold x_extend, l_extend. rewrite xb_this, xb_mem. unfold bind.
    destruct ((if dbl then get_prev (l_tail l) else stl_advance (N.to_nat (l_len l)) (l_head l)) h) as [[p h1]|]; [|done].
    assert (Hu : usub n (l_len l) = n - l_len l).
    { unfold usub. replace (n + W - l_len l) with (n - l_len l + 1 * W) by lia.
      rewrite N.mod_add by done. apply N.mod_small. lia. }
    rewrite Hu. unfold xbind at 1.
    pose proof (extend_loop_like (l_tail l) (replicate (N.to_nat (n - l_len l)) v) p l h1 k) as E.
    rewrite replicate_length in E. rewrite E.
    by destruct (extend_loop dbl _ p _ _ h1) as [[q h2]|].
  Qed.

  Lemma copy_loop_like al' q ns : forall fuel h p l k,
    hwf h -> has h p -> fw h al' ns q -> p ∉ ads ns -> NoDup (ads ns ++ [q]) -> (length ns < fuel)%nat ->
    x_copy_loop dbl fuel (PAddr (startp ns q)) (PAddr q) (PAddr p) (Lts l h (length ns + k)) =
      match copy_loop dbl fuel (l_al l) (PAddr (startp ns q)) (PAddr q) (PAddr p) (l_len l) h with
      | Ok ((p', n), h') => Ok (Some p', Lts (set_len l n) h' k)
      | Err e => Err e
      end.
  Proof.
    induction ns as [|[a v] ns IH]; intros fuel h p l k Hw Hp Hf Hpn Hnd Hfuel;
      (destruct fuel as [|fuel]; [simpl in Hfuel; lia|]).
    { cbn [x_copy_loop copy_loop startp length Nat.add]. rewrite !decide_True by done. unfold ret.
      by destruct l. }
    destruct Hf as (Hv & Hn & Hf). rewrite ads_cons in Hnd, Hpn. apply NoDup_cons in Hnd as [Ha Hnd].
    apply not_elem_of_cons in Hpn as [Hpa Hpn].
    cbn [x_copy_loop copy_loop startp length Nat.add]. rewrite !decide_False.
    2,3: intros [= ->]; apply Ha, elem_of_app; right; by left.
    rewrite xb_mem, (value_ok h al' a v Hv), (bind_ok _ _ _ _ _ (value_ok h al' a v Hv)).
    rewrite (xb_some _ _ _ _ _ (construct_some v l h _)), (bind_ok _ _ _ _ _ (construct_ok h _ v)).
    set (h1 := ins h (dcell (l_al l) v)).
    assert (Hah : a < hnext h) by (apply Hw; by eapply node_has).
    assert (Hph : p < hnext h) by by apply Hw.
    assert (Hn1 : nx h1 a = Some (PAddr (startp ns q))).
    { unfold h1. rewrite nx_ins, decide_False by lia. done. }
    rewrite xb_mem, (get_next_ok h1 a _ Hn1 ltac:(done)), (bind_ok _ _ _ _ _ (get_next_ok h1 a _ Hn1 ltac:(done))).
    assert (H1p : has h1 p) by (apply has_ins; by right).
    assert (H1a : has h1 (hnext h)) by (apply has_ins; by left).
    rewrite xb_mem, (set_next_ok dbl _ _ _ H1p H1a), (bind_ok _ _ _ _ _ (set_next_ok dbl _ _ _ H1p H1a)).
    rewrite xb_count.
    assert (Hlt : forall b, b ∈ ads ns -> b < hnext h).
    { intros b Hb. apply Hw. clear -Hf Hb. induction ns as [|[c w] ns IH]; [by apply elem_of_nil in Hb|].
      destruct Hf as (Hw & _ & Hf). rewrite ads_cons in Hb. apply elem_of_cons in Hb as [->|Hb]; [by eapply node_has|by apply IH]. }
    rewrite IH.
    - done.
    - by apply hwf_sn, hwf_ins.
    - apply has_sn. done.
    - eapply fw_frame; [|exact Hf]. intros b Hb. pose proof (Hlt b Hb).
      rewrite nx_sn, dt_sn by done. rewrite decide_False by (intros ->; done).
      unfold h1. rewrite nx_ins, dt_ins, !decide_False by lia. done.
    - intros Hb. apply Hlt in Hb. lia.
    - done.
    - simpl in Hfuel. lia.
  Qed.

  Lemma copy_impl_like al' hd ns tl l h k : hwf h -> lok dbl h al' hd ns tl ->
    x_copy_impl dbl (L al' hd tl ns) (Lts l h (length ns + k)) =
      as_made k (copy_impl dbl (l_al l) (L al' hd tl ns) h).
  Proof.
    intros Hw Lk. unfold x_copy_impl, copy_impl. rewrite xb_this, xb_put. cbn [l_head l_tail l_len L].
    destruct (N.eqb_spec (nlen ns) 0) as [H0|H0].
    { assert (length ns = 0)%nat as -> by lia. by rewrite x_calls. }
    destruct (lok_fw _ _ _ _ _ _ Lk) as [Hf Hn]. destruct (lok_nd2 _ _ _ _ _ _ Lk) as [Hnd Hhd].
    set (h1 := ins h (vcell dbl (l_al l))). set (h2 := ins h1 (vcell dbl (l_al l))).
    assert (Hw2 : hwf h2) by by apply hwf_ins, hwf_ins.
    assert (Hlt : forall c, c ∈ lfp hd ns tl -> c < hnext h) by (intros; by eapply lok_lt).
    assert (Hf2 : fw h2 al' ns tl).
    { eapply fw_frame; [|exact Hf]. intros c Hc. assert (c < hnext h) by (apply Hlt; unfold lfp; set_solver).
      unfold h2, h1. rewrite !nx_ins, !dt_ins, !decide_False by (simpl; lia). done. }
    rewrite xb_mem, (get_next_ok h hd _ Hn ltac:(done)), (bind_ok _ _ _ _ _ (get_next_ok h hd _ Hn ltac:(done))).
    rewrite xb_mem, (build_virtual_ok dbl h _), (bind_ok _ _ _ _ _ (build_virtual_ok dbl h _)).
    rewrite xb_mem, (build_virtual_ok dbl h1 _), (bind_ok _ _ _ _ _ (build_virtual_ok dbl h1 _)).
    rewrite xb_mem, fuel_ok, (bind_ok _ _ _ _ _ (fuel_ok _)). fold h2.
    unfold xbind at 1. rewrite (copy_loop_like al' tl ns (S (size (hmap h2))) h2 (hnext h) (set_len l 0) k); [|done| |done| |done|].
    - cbn [set_len l_len l_al]. unfold bind at 1.
      destruct (copy_loop dbl _ _ _ _ _ _ h2) as [[[p n] h3]|]; [|done].
      rewrite xb_mem. unfold bind. destruct (set_next dbl p _ h3) as [[[] h4]|]; [|done].
      rewrite xb_this, xb_put, x_mem. by destruct (set_next dbl _ PNull h4) as [[[] h5]|].
    - apply has_ins. right. apply has_ins. by left.
    - intros Hin. assert (hnext h < hnext h) by (apply Hlt; unfold lfp; set_solver). lia.
    - pose proof (lok_fuel _ _ _ _ _ _ Lk). enough (size (hmap h) <= size (hmap h2))%nat by lia.
      rewrite <-!size_dom. apply subseteq_size. intros c. rewrite !elem_of_dom. intros Hc.
      apply (has_ins h1 _ c). right. apply has_ins. by right.
  Qed.
  Lemma copy_none_like al' l h k :
    x_copy_impl dbl (none al') (Lts l h k) = as_made k (copy_impl dbl (l_al l) (none al') h).
  Proof. unfold x_copy_impl, copy_impl. rewrite xb_this, xb_put. cbn [l_len N.eqb]. by rewrite x_calls. Qed.

  Lemma mk_like n k i al f g (w : world) :
    f (Lts (none al) (w_heap w) (n + k)) = as_made k (g (w_heap w)) ->
    x_mk (n + k) i al f w = quiet (l_mk i g) w.
  Proof.
    intros E. unfold x_mk, quiet, l_mk, bind, wnew, lift, wset, ret. destruct (w_vars w !! i); [done|].
    rewrite E. by destruct (g (w_heap w)) as [[l h]|].
  Qed.
  Lemma upd_like n k i f g (w : world) l : w_vars w !! i = Some l ->
    f (Lts l (w_heap w) (n + k)) = as_made k (g l (w_heap w)) ->
    x_upd (n + k) i (xbind f (fun _ => xret OUnit)) w = quiet (l_upd i g) w.
  Proof.
    intros Hl E. unfold x_upd, quiet, l_upd, l_updo, bind, wget, lift, wset, ret. rewrite Hl.
    unfold xbind. rewrite E. by destruct (g l (w_heap w)) as [[l' h]|].
  Qed.
  Lemma at_like n k i p f g (w : world) l : w_vars w !! i = Some l ->
    (forall q h, f q (Lts l h (n + k)) = as_done k (g l q h)) ->
    x_at (n + k) i p f w = quiet (l_at i p g) w.
  Proof.
    intros Hl E. unfold x_at, x_upd, quiet, l_at, l_updo, bind, wget, lift, wset, ret. rewrite Hl.
    rewrite xb_this, xb_mem. destruct (stl_advance p (l_head l) (w_heap w)) as [[q h1]|]; [|done].
    unfold xbind at 1. rewrite E. destruct (g l q h1) as [[[l' r] h2]|]; [|done]. cbn [as_done].
    rewrite xb_this, xb_mem. by destruct (l_pos l' r h2) as [[m h3]|].
  Qed.
  Lemma absent_upd k i (f : LM (lout T)) g (w : world) : w_vars w !! i = None ->
    x_upd k i f w = quiet (l_updo i g) w.
  Proof. intros Hl. unfold x_upd, quiet, l_updo, bind, wget. by rewrite Hl. Qed.
End NoThrow.

(** ** Nothing throws: the operations of [ListModel] *)
Section Same.
  Context {T : Type} (dbl : bool).
  Notation lstate := (gmap nat (N * option (list T))).
  Notation world := (world (cell T) lst).
  Notation reached := (reached (T := T) dbl).
  Implicit Types (sp : lstate) (w : world) (k : nat) (h : heap (cell T)) (l : lst).

  (** How many elements an operation constructs, in terms of sequences. *)
  Definition copies sp (o : lop T) : nat :=
    match o with
    | LRange _ _ vs | LFrom _ vs | LIlist _ vs | LInsA _ _ vs | LIns _ _ vs => length vs
    | LCount _ _ n _ => N.to_nat n
    | LCopy _ j | LCopyAl _ j _ => length (contents sp j)
    | LCopyAsg i j => if (i =? j)%nat then O else length (contents sp j)
    | LResize i n _ => N.to_nat n - length (contents sp i)
    | LPushF _ _ | LPushB _ _ | LEmpA _ _ _ | LEmp _ _ _ => 1
    | _ => 0
    end.
  (** Sizes are [usize]. *)
  Definition sized (o : lop T) : Prop := match o with LResize _ n _ => n < W | _ => True end.

  Lemma rel_var sp w i l : rel dbl sp w -> w_vars w !! i = Some l ->
    hwf (w_heap w) /\ exists s fp, sp !! i = Some s /\ lrep dbl (w_heap w) l s fp.
  Proof.
    intros [m Hw] Hl. split; [apply (wo_wf _ _ _ _ Hw)|].
    destruct (world_ok_lookup _ _ _ _ _ _ Hw Hl) as (e & Hm & <- & Hs).
    exists (e_s e), (e_fp e). split; [done|]. by eapply wo_rep.
  Qed.
  Lemma lrep_W h l s fp : lrep dbl h l s fp -> l_len l < W.
  Proof. by intros [al hd tl ns Lk Hn|al]. Qed.
  Lemma lrep_len h l al o fp : lrep dbl h l (al, o) fp -> l_len l = nlen (default [] o) /\ l_al l = al.
  Proof. intros H. inversion H; subst; simpl; [|done]. by rewrite vls_length. Qed.
  Lemma copy_impl_any h o s fp l k : hwf h -> lrep dbl h o s fp ->
    x_copy_impl dbl o (Lts l h (length (default [] (snd s)) + k)) = as_made k (copy_impl dbl (l_al l) o h).
  Proof.
    intros Hw [al hd tl ns Lk Hn|al]; simpl.
    - rewrite vls_length. by apply copy_impl_like.
    - by rewrite copy_none_like.
  Qed.
  Lemma contents_of sp i s : sp !! i = Some s -> contents sp i = default [] (snd s).
  Proof. intros E. unfold contents. rewrite E. by destruct s. Qed.
  Lemma destroy_any h l s fp : hwf h -> lrep dbl h l s fp -> exists l' h',
    l_destroy dbl l h = Ok (l', h') /\ upd h h' fp [].
  Proof.
    intros Hw [al hd tl ns Lk Hn|al].
    - by apply destroy_ok.
    - exists (Lst PNull PNull 0 al), h. split; [done|]. apply upd_refl; [done|]. by intros a ?%elem_of_nil.
  Qed.
  Lemma rel_pair sp w i j l o : rel dbl sp w -> i <> j -> w_vars w !! i = Some l -> w_vars w !! j = Some o ->
    hwf (w_heap w) /\ exists si fi sj fj, sp !! i = Some si /\ sp !! j = Some sj /\
      lrep dbl (w_heap w) l si fi /\ lrep dbl (w_heap w) o sj fj /\ apart fi fj.
  Proof.
    intros [m Hw] Hij Hl Ho. split; [apply (wo_wf _ _ _ _ Hw)|].
    destruct (world_ok_lookup _ _ _ _ _ _ Hw Hl) as (e & Hm & <- & Hs).
    destruct (world_ok_lookup _ _ _ _ _ _ Hw Ho) as (e2 & Hm2 & <- & Hs2).
    exists (e_s e), (e_fp e), (e_s e2), (e_fp e2). do 2 (split; [done|]).
    split; [by eapply wo_rep|]. split; [by eapply wo_rep|]. intros a Ha Ha'. by eapply (wo_disj _ _ _ _ Hw i j).
  Qed.
  Lemma lrep_after h h' o s fp fi : hwf h -> lrep dbl h o s fp -> apart fi fp -> upd h h' fi [] -> lrep dbl h' o s fp.
  Proof.
    intros Hw Hr Ha Hu. eapply lrep_frame; [exact Hr|]. intros a Hin. apply (upd_frame _ _ _ _ Hu).
    - apply Hw. by eapply lrep_dom.
    - intros Hf. by eapply Ha.
  Qed.

  Ltac absent i := match goal with w : world |- _ =>
    destruct (w_vars w !! i) as [l|] eqn:Heqo; [|by apply absent_upd] end.

  Theorem C68_no_throw sp w c k o : reached sp w -> sized o -> (copies sp o <= k)%nat ->
    x_step dbl c k o w = quiet (list_step dbl o) w.
  Proof.
    intros Hr Hz Hk. apply reached_rel in Hr.
    destruct o as [| i al vs|i al n v|i vs|i j|i j al| | |i j| |i vs| | | |i n v|i v| |i v| |i p v|i p vs| | |i p v|i p vs| | | | | | | | | | | | | | | | | | | | | | |];
      cbn [copies] in Hk; cbn [x_step list_step]; try done;
      try (destruct (Nat.le_exists_sub _ _ Hk) as (k' & Ek & _); rewrite Nat.add_comm in Ek; subst k).
    - apply mk_like, range_like.
    - apply mk_like, count_like.
    - apply mk_like, from_like.
    - unfold quiet at 1. rewrite bind_bind. unfold bind at 1 2. destruct (wget j w) as [[o w']|] eqn:E; [|done].
      unfold wget in E. destruct (w_vars w !! j) as [o'|] eqn:Hj; [|done]. injection E as <- <-.
      destruct (rel_var _ _ _ _ Hr Hj) as (Hw & s & fp & Hs & Ho). rewrite (contents_of _ _ _ Hs).
      apply mk_like. by eapply copy_impl_any.
    - unfold quiet at 1. rewrite bind_bind. unfold bind at 1 2. destruct (wget j w) as [[o w']|] eqn:E; [|done].
      unfold wget in E. destruct (w_vars w !! j) as [o'|] eqn:Hj; [|done]. injection E as <- <-.
      destruct (rel_var _ _ _ _ Hr Hj) as (Hw & s & fp & Hs & Ho). rewrite (contents_of _ _ _ Hs).
      apply mk_like. by eapply copy_impl_any.
    - destruct (Nat.eqb_spec i j) as [->|Hij]; [done|].
      unfold l_two_ne. replace (i =? j)%nat with false by (symmetry; by apply Nat.eqb_neq).
      unfold quiet, l_two, x_upd, bind, wget. 
      destruct (w_vars w !! j) as [o|] eqn:Hj; [|by destruct (w_vars w !! i); [rewrite Hj|]].
      destruct (w_vars w !! i) as [l|] eqn:Hi; [|done]. rewrite Hj.
      destruct (rel_pair _ _ _ _ _ _ Hr Hij Hi Hj) as (Hw & si & fi & sj & fj & Hsi & Hsj & Hl & Ho & Ha).
      destruct (destroy_any _ _ _ _ Hw Hl) as (l' & h' & E & Hu).
      rewrite (contents_of _ _ _ Hsj). unfold lift, l_copy_assign, bind. rewrite E.
      unfold x_copy_assign. rewrite xb_assoc, xb_calls, E, xb_assoc, xb_this, xb_assoc, xb_put.
      unfold xbind. rewrite (copy_impl_any h' o sj fj _ k').
      + cbn [l_al]. destruct (copy_impl dbl (l_al o) o h') as [[l1 h1]|]; [|done]. cbn. by rewrite (insert_id (w_vars w) j o).
      + apply Hu.
      + by eapply lrep_after.
    - absent i. eapply upd_like; [done|]. apply ilist_like.
    - absent i. destruct (rel_var _ _ _ _ Hr Heqo) as (Hw & s & fp & Hs & Hl).
      destruct s as [al o]. destruct (lrep_len _ _ _ _ _ Hl) as [El _].
      rewrite (contents_of _ _ _ Hs). cbn [snd].
      replace (N.to_nat n - _)%nat with (grown l n).
      2:{ unfold grown. rewrite El. destruct (N.ltb_spec (nlen (default [] o)) n); lia. }
      eapply upd_like; [done|]. apply resize_like; [by eapply lrep_W|done].
    - absent i. eapply upd_like; [done|]. apply push_front_like.
    - absent i. eapply upd_like; [done|]. apply push_back_like.
    - absent i. eapply at_like; [done|]. intros. apply emplace_after_like.
    - absent i. destruct (rel_var _ _ _ _ Hr Heqo) as (Hw & s & fp & Hs & Hl).
      eapply at_like; [done|]. intros. apply insert_after_like. by eapply lrep_W.
    - absent i. eapply at_like; [done|]. intros. apply emplace_like.
    - absent i. destruct (rel_var _ _ _ _ Hr Heqo) as (Hw & s & fp & Hs & Hl).
      eapply at_like; [done|]. intros. apply insert_like. by eapply lrep_W.
  Qed.
End Same.

(** ** An element throws *)
Section Throw.
  Context {T : Type} (dbl : bool).
  Notation lstate := (gmap nat (N * option (list T))).
  Notation world := (world (cell T) lst).
  Notation H := (heap (cell T)).
  Notation LM := (LM (T := T)).
  Notation reached := (reached (T := T) dbl).
  Notation step := (list_step (T := T) dbl).
  Implicit Types (sp : lstate) (w : world) (k : nat) (h : H) (l : lst) (ns ms : list (N * T)).

  (** The programs that still run, and how much stays allocated after them:
      [n] blocks are lost. *)
  Definition goes_on (n : nat) sp w : Prop := forall ops sp' outs, Forall ordered ops ->
    srun (gspec dbl) sp ops = SOk sp' outs ->
    exists w', run_ops step ops w = Ok (outs, w') /\ (sp' = ∅ -> size (hmap (w_heap w')) = n).

  Lemma rel_empty w : rel dbl (∅ : lstate) w -> hmap (w_heap w) = ∅.
  Proof.
    intros [m Hw]. apply map_empty. intros a. destruct (hmap (w_heap w) !! a) as [c|] eqn:E; [|done]. exfalso.
    destruct (wo_cover _ _ _ _ Hw a ltac:(by eexists)) as (i & e & Hi & _).
    pose proof (wo_spec _ _ _ _ Hw) as Hs.
    assert ((e_s <$> m) !! i = None) as Hn by (rewrite <-Hs; apply lookup_empty).
    rewrite lookup_fmap, Hi in Hn. done.
  Qed.
  Lemma lrel_goes_on g sp w : lrel dbl g sp w -> goes_on (size g) sp w.
  Proof.
    intros Hl ops sp' outs Ho E. pose proof (leak_hist dbl ops Ho g sp w Hl) as Ha. rewrite E in Ha.
    destruct Ha as (w' & -> & w0 & -> & _ & Hr). exists (wplus w0 g). split; [done|]. intros ->.
    apply rel_empty in Hr. unfold wplus, plus. simpl. by rewrite Hr, (left_id_L ∅ (∪)).
  Qed.

  (** Only new blocks appeared. *)
  Lemma leaked sp w h' n : rel dbl sp w -> hwf h' -> hnext (w_heap w) <= hnext h' ->
    (forall a, a < hnext (w_heap w) -> hmap h' !! a = hmap (w_heap w) !! a) ->
    size (hmap h') = (size (hmap (w_heap w)) + n)%nat ->
    goes_on n sp (World h' (w_vars w)).
  Proof.
    intros [m Hw] Hw' Hn Hf Hs. pose proof (wo_wf _ _ _ _ Hw) as Hwf.
    set (g := hmap h' ∖ hmap (w_heap w)).
    assert (Hsub : hmap (w_heap w) ⊆ hmap h').
    { apply map_subseteq_spec. intros a c Ha. rewrite Hf; [done|]. apply Hwf. by eexists. }
    assert (Hu : hmap (w_heap w) ∪ g = hmap h') by by apply map_difference_union.
    assert (Hd : hmap (w_heap w) ##ₘ g) by by apply map_disjoint_difference_r.
    assert (size g = n) as <-.
    { rewrite <-Hu, map_size_disj_union in Hs by done. lia. }
    apply lrel_goes_on. exists (World (Heap (hmap (w_heap w)) (hnext h') (hmoves h')) (w_vars w)).
    split; [|split].
    - unfold wplus, plus. simpl. rewrite Hu. by destruct h'.
    - split; [done|]. intros a Ha. simpl. apply Hw'. rewrite <-Hu. destruct Ha as [c Ha].
      exists c. rewrite lookup_union_r; [done|]. by destruct (map_disjoint_spec (hmap (w_heap w)) g) as [Hds _];
        destruct (hmap (w_heap w) !! a) as [d|] eqn:Ed; [destruct (Hds Hd _ _ _ Ed Ha)|].
    - exists m. destruct Hw as [W1 W2 W3 W4 W5 W6]. split; try done.
      + intros a Ha. simpl in *. specialize (W1 a Ha). lia.
      + intros i e He. eapply lrep_frame; [exact (W4 i e He)|done].
  Qed.

  Lemma append_throw c vs : forall p l h k, hwf h -> has h p -> l_len l < W -> (k < length vs)%nat ->
    exists h' ms, x_append dbl c (PAddr p) vs (Lts l h k) =
        Ok (None, Lts (counted c l k) (ins h' (raw_cell (l_al l))) 0) /\
      vls ms = take k vs /\ grow dbl h h' (l_al l) p ms /\ (ms <> [] -> nx h' (endp p ms) = Some PUndef).
  Proof.
    induction vs as [|v vs IH]; intros p l h k Hw Hp Hl Hk; [simpl in Hk; lia|].
    destruct k as [|k]; cbn [x_append].
    { exists h, []. rewrite (xb_none _ _ _ _ (construct_none v l h)), counted_0 by done.
      split; [done|]. split; [done|]. split; [by apply grow_refl|done]. }
    rewrite (xb_some _ _ _ _ _ (construct_some v l h _)).
    assert (Hc : forall f : unit -> LM lptr, xbind (if c then count1 else xret tt) f
      (Lts l (ins h (dcell (l_al l) v)) k) =
      f tt (Lts (if c then set_len l (uadd (l_len l) 1) else l) (ins h (dcell (l_al l) v)) k))
      by (intros; by destruct c).
    assert (H1p : has (ins h (dcell (l_al l) v)) p) by (apply has_ins; by right).
    assert (H1a : has (ins h (dcell (l_al l) v)) (hnext h)) by (apply has_ins; by left).
    rewrite Hc, xb_mem, (set_next_ok dbl _ _ _ H1p H1a).
    assert (Hal : l_al (if c then set_len l (uadd (l_len l) 1) else l) = l_al l) by by destruct c.
    destruct (IH (hnext h) (if c then set_len l (uadd (l_len l) 1) else l)
      (sn dbl (ins h (dcell (l_al l) v)) p (hnext h)) k) as (h' & ms & E & Hv & G & Hl').
    { by apply hwf_sn, hwf_ins. } { by apply has_sn. } { destruct c; [apply uadd_W|done]. } { simpl in Hk. lia. }
    rewrite Hal in E, G. rewrite counted_S in E.
    exists h', ((hnext h, v) :: ms). split; [done|]. split; [cbn; by f_equal|]. split; [by apply grow_cons|].
    intros _. destruct ms as [|m ms].
    - cbn [endp]. rewrite (g_nil _ _ _ _ _ _ G eq_refl). rewrite nx_sn by done.
      assert (p < hnext h) by by apply Hw. rewrite decide_False by lia. unfold ins, nx. simpl. by rewrite lookup_insert.
    - by apply Hl'.
  Qed.

  Lemma copy_loop_throw al' q ns : forall fuel h p l k,
    hwf h -> has h p -> fw h al' ns q -> p ∉ ads ns -> NoDup (ads ns ++ [q]) -> (length ns < fuel)%nat ->
    l_len l < W -> (k < length ns)%nat ->
    exists h' ms, x_copy_loop dbl fuel (PAddr (startp ns q)) (PAddr q) (PAddr p) (Lts l h k) =
        Ok (None, Lts (counted true l k) (ins h' (raw_cell (l_al l))) 0) /\
      vls ms = take k (vls ns) /\ grow dbl h h' (l_al l) p ms.
  Proof.
    induction ns as [|[a v] ns IH]; intros fuel h p l k Hw Hp Hf Hpn Hnd Hfuel Hl Hk; [simpl in Hk; lia|].
    destruct fuel as [|fuel]; [simpl in Hfuel; lia|].
    destruct Hf as (Hv & Hn & Hf). rewrite ads_cons in Hnd, Hpn. apply NoDup_cons in Hnd as [Ha Hnd].
    apply not_elem_of_cons in Hpn as [Hpa Hpn].
    cbn [x_copy_loop startp]. rewrite decide_False by (intros [= ->]; apply Ha, elem_of_app; right; by left).
    rewrite xb_mem, (value_ok h al' a v Hv).
    destruct k as [|k].
    { exists h, []. rewrite (xb_none _ _ _ _ (construct_none v l h)), counted_0 by done.
      split; [done|]. split; [done|by apply grow_refl]. }
    rewrite (xb_some _ _ _ _ _ (construct_some v l h _)).
    set (h1 := ins h (dcell (l_al l) v)).
    assert (Hah : a < hnext h) by (apply Hw; by eapply node_has).
    assert (Hph : p < hnext h) by by apply Hw.
    assert (Hn1 : nx h1 a = Some (PAddr (startp ns q))).
    { unfold h1. rewrite nx_ins, decide_False by lia. done. }
    rewrite xb_mem, (get_next_ok h1 a _ Hn1 ltac:(done)).
    assert (H1p : has h1 p) by (apply has_ins; by right).
    assert (H1a : has h1 (hnext h)) by (apply has_ins; by left).
    rewrite xb_mem, (set_next_ok dbl _ _ _ H1p H1a), xb_count.
    assert (Hlt : forall b, b ∈ ads ns -> b < hnext h).
    { intros b Hb. apply Hw. clear -Hf Hb. induction ns as [|[c w] ns IH]; [by apply elem_of_nil in Hb|].
      destruct Hf as (Hw & _ & Hf). rewrite ads_cons in Hb. apply elem_of_cons in Hb as [->|Hb]; [by eapply node_has|by apply IH]. }
    destruct (IH fuel (sn dbl h1 p (hnext h)) (hnext h) (set_len l (uadd (l_len l) 1)) k) as (h' & ms & E & Hvs & G).
    - by apply hwf_sn, hwf_ins.
    - by apply has_sn.
    - eapply fw_frame; [|exact Hf]. intros b Hb. pose proof (Hlt b Hb).
      rewrite nx_sn, dt_sn by done. rewrite decide_False by (intros ->; done).
      unfold h1. rewrite nx_ins, dt_ins, !decide_False by lia. done.
    - intros Hb. apply Hlt in Hb. lia.
    - done.
    - simpl in Hfuel. lia.
    - apply uadd_W.
    - simpl in Hk. lia.
    - exists h', ((hnext h, v) :: ms). split; [|split; [cbn; by f_equal|by apply grow_cons]].
      rewrite E. do 3 f_equal. apply (counted_S true l k).
  Qed.

  (** Sizes and frames of what [append] leaves. *)
  Lemma grow_size h h' al p ms : hwf h -> grow dbl h h' al p ms ->
    size (hmap h') = (size (hmap h) + length ms)%nat.
  Proof.
    intros Hw G. assert (Hd : dom (hmap h') = dom (hmap h) ∪ list_to_set (ads ms)).
    { apply set_eq. intros a. rewrite elem_of_union, elem_of_list_to_set, !elem_of_dom. apply G. }
    rewrite <-!size_dom, Hd, size_union.
    - rewrite size_list_to_set by apply G. unfold ads. by rewrite fmap_length.
    - intros a. rewrite elem_of_list_to_set, elem_of_dom. intros Ha Hm. apply Hw in Ha. apply G in Hm. lia.
  Qed.
  Lemma ins_size h c : hwf h -> size (hmap (ins h c)) = S (size (hmap h)).
  Proof.
    intros Hw. unfold ins. simpl. apply map_size_insert_None. destruct (hmap h !! hnext h) eqn:E; [|done].
    assert (hnext h < hnext h) by (apply Hw; by eexists). lia.
  Qed.
  Lemma ins_frame h (c : cell T) a : a < hnext h -> hmap (ins h c) !! a = hmap h !! a.
  Proof. intros Ha. unfold ins. simpl. apply lookup_insert_ne. lia. Qed.

  (** *** A chain of nodes whose last link is indeterminate *)
  Definition next_of ns : lptr := match ns with [] => PUndef | (a, _) :: _ => PAddr a end.
  Fixpoint dead h al ns : Prop :=
    match ns with
    | [] => True
    | (a, v) :: r => node h al a v /\ nx h a = Some (next_of r) /\ dead h al r
    end.
  Lemma oseg_dead h al ns : forall p, oseg dbl h al p ns -> (ns <> [] -> nx h (endp p ns) = Some PUndef) ->
    dead h al ns.
  Proof.
    induction ns as [|[a v] ns IH]; intros p; [done|]. intros (Hl & Hn & Ho) Hu. cbn [dead]. split; [done|].
    destruct ns as [|[b u] ns].
    - split; [|done]. exact (Hu ltac:(done)).
    - split; [by destruct Ho as [[Hl2 _] _]|]. apply (IH a); [done|]. intros _. exact (Hu ltac:(done)).
  Qed.
  Lemma dead_frame h h' al ns : (forall a, a ∈ ads ns -> hmap h' !! a = hmap h !! a) -> dead h al ns -> dead h' al ns.
  Proof.
    induction ns as [|[a v] ns IH]; intros Hf; [done|]. intros (Hn & Hx & Hd). rewrite ads_cons in Hf.
    destruct (has_eq h h' a (Hf a ltac:(by left))) as (Ex & _ & Ed). cbn [dead]. split; [|split].
    - unfold node. by rewrite Ed.
    - by rewrite Ex.
    - apply IH; [|done]. intros b Hb. apply Hf. by right.
  Qed.
  Lemma next_undef h a : nx h a = Some PUndef -> get_next (PAddr a) h = Err UB.
  Proof.
    unfold nx. destruct (hmap h !! a) as [c|] eqn:E; [|done]. intros [= Hc].
    unfold get_next. rewrite (bind_ok _ _ _ _ _ (rd_ok h a c E)). by rewrite Hc.
  Qed.
  Lemma bind_err {A B} (m : M H A) (f : A -> M H B) h e : m h = Err e -> bind m f h = Err e.
  Proof. intros E. unfold bind. by rewrite E. Qed.

  Lemma collect_dead al q ns : forall fuel h, dead h al ns -> ns <> [] -> q ∉ ads ns -> (length ns <= fuel)%nat ->
    stl_collect fuel (next_of ns) (PAddr q) h = Err UB.
  Proof.
    induction ns as [|[a v] ns IH]; intros fuel h Hd Hne Hq Hf; [done|].
    destruct fuel as [|fuel]; [simpl in Hf; lia|]. destruct Hd as (Hn & Hx & Hd).
    rewrite ads_cons in Hq. apply not_elem_of_cons in Hq as [Hqa Hq].
    cbn [stl_collect next_of]. rewrite decide_False by (intros [= ->]; done).
    rewrite (bind_ok _ _ _ _ _ (value_ok h al a v Hn)). destruct ns as [|[b u] ns].
    - apply bind_err. by apply next_undef.
    - rewrite (bind_ok _ _ _ _ _ (get_next_ok h a _ Hx ltac:(done))).
      apply bind_err. apply IH; [done|done|done|]. simpl in *. lia.
  Qed.
  Lemma print_dead al q ns : forall fuel h i n, dead h al ns -> ns <> [] -> q ∉ ads ns -> (length ns <= fuel)%nat ->
    print_loop fuel (next_of ns) (PAddr q) i n h = Err UB.
  Proof.
    induction ns as [|[a v] ns IH]; intros fuel h i n Hd Hne Hq Hf; [done|].
    destruct fuel as [|fuel]; [simpl in Hf; lia|]. destruct Hd as (Hn & Hx & Hd).
    rewrite ads_cons in Hq. apply not_elem_of_cons in Hq as [Hqa Hq].
    cbn [print_loop next_of]. rewrite decide_False by (intros [= ->]; done).
    rewrite (bind_ok _ _ _ _ _ (value_ok h al a v Hn)). destruct ns as [|[b u] ns].
    - apply bind_err. by apply next_undef.
    - rewrite (bind_ok _ _ _ _ _ (get_next_ok h a _ Hx ltac:(done))).
      apply bind_err. apply IH; [done|done|done|]. simpl in *. lia.
  Qed.
  Lemma destroy_dead al q ns : forall fuel h n, dead h al ns -> ns <> [] -> NoDup (ads ns) -> q ∉ ads ns ->
    (length ns <= fuel)%nat -> destroy_run fuel al (next_of ns) (PAddr q) n h = Err UB.
  Proof.
    induction ns as [|[a v] ns IH]; intros fuel h n Hd Hne Hnd Hq Hf; [done|].
    destruct fuel as [|fuel]; [simpl in Hf; lia|]. destruct Hd as (Hn & Hx & Hd).
    rewrite ads_cons in Hq, Hnd. apply not_elem_of_cons in Hq as [Hqa Hq]. apply NoDup_cons in Hnd as [Ha Hnd].
    cbn [destroy_run next_of]. rewrite decide_False by (intros [= ->]; done). destruct ns as [|[b u] ns].
    - apply bind_err. by apply next_undef.
    - rewrite (bind_ok _ _ _ _ _ (get_next_ok h a _ Hx ltac:(done))).
      rewrite (bind_ok _ _ _ _ _ (destroy_node_ok h al a v Hn)). apply IH; [|done|done|done|simpl in *; lia].
      eapply dead_frame; [|exact Hd]. intros c Hc. unfold fr. simpl. apply lookup_delete_ne. by intros ->.
  Qed.

  (** What a list [Lst hd tl n al] is when its chain is dead. *)
  Record off h al hd tl ns : Prop := Off {
    of_ne : ns <> [];
    of_hd : nx h hd = Some (next_of ns);
    of_dead : dead h al ns;
    of_nd : NoDup (ads ns);
    of_tl : tl ∉ ads ns;
  }.
  Lemma dead_has h al ns a : dead h al ns -> a ∈ ads ns -> has h a.
  Proof.
    induction ns as [|[b v] ns IH]; [by intros _ ?%elem_of_nil|]. intros (Hn & _ & Hd).
    rewrite ads_cons. intros [->|Ha]%elem_of_cons; [by eapply node_has|by apply IH].
  Qed.
  Lemma off_fuel h al hd tl ns : off h al hd tl ns -> (length ns <= S (size (hmap h)))%nat.
  Proof.
    intros O. pose proof (size_ge h _ (of_nd _ _ _ _ _ O) (fun a => dead_has h al ns a (of_dead _ _ _ _ _ O))) as Hs.
    unfold ads in Hs. rewrite fmap_length in Hs. lia.
  Qed.
  Lemma off_clear h al hd tl ns n : off h al hd tl ns -> l_clear dbl (Lst (PAddr hd) (PAddr tl) n al) h = Err UB.
  Proof.
    intros O. unfold l_clear. cbn [l_head l_tail l_al].
    assert (Hne : next_of ns <> PUndef) by (destruct ns as [|[]]; [by destruct (of_ne _ _ _ _ _ O)|done]).
    rewrite (bind_ok _ _ _ _ _ (get_next_ok h hd _ (of_hd _ _ _ _ _ O) Hne)), (bind_ok _ _ _ _ _ (fuel_ok h)).
    apply bind_err. apply destroy_dead; try apply O. by eapply off_fuel.
  Qed.
  Lemma off_destroy h al hd tl ns n : off h al hd tl ns -> l_destroy dbl (Lst (PAddr hd) (PAddr tl) n al) h = Err UB.
  Proof.
    intros O. unfold l_destroy. cbn [l_head]. rewrite decide_False by done. apply bind_err. by eapply off_clear.
  Qed.

  (** Walking through the list, clearing it and destroying it are undefined. *)
  Definition torn i w : Prop :=
    forall o, o ∈ [LItems i; LPrint i; LClear i; LDel i] -> step o w = Err UB.
  Lemma torn_off i w hd tl n al ns : w_vars w !! i = Some (Lst (PAddr hd) (PAddr tl) n al) ->
    off (w_heap w) al hd tl ns -> torn i w.
  Proof.
    intros Hv O o Ho.
    assert (Hne : next_of ns <> PUndef) by (destruct ns as [|[]]; [by destruct (of_ne _ _ _ _ _ O)|done]).
    pose proof (off_fuel _ _ _ _ _ O) as Hf.
    rewrite !elem_of_cons, elem_of_nil in Ho. destruct Ho as [->|[->|[->|[->|[]]]]]; cbn [list_step];
      unfold l_obs, l_upd, l_updo, bind at 1, wget; rewrite Hv; unfold lift.
    - unfold l_to_list. rewrite bind_bind. cbn [l_head l_tail].
      rewrite (bind_ok _ _ _ _ _ (get_next_ok _ hd _ (of_hd _ _ _ _ _ O) Hne)), bind_bind, (bind_ok _ _ _ _ _ (fuel_ok _)).
      rewrite (bind_err _ _ _ UB); [done|]. eapply collect_dead; try apply O. done.
    - unfold l_print. rewrite bind_bind. cbn [l_head l_tail].
      rewrite (bind_ok _ _ _ _ _ (get_next_ok _ hd _ (of_hd _ _ _ _ _ O) Hne)), bind_bind, (bind_ok _ _ _ _ _ (fuel_ok _)).
      rewrite bind_bind. rewrite (bind_err _ _ _ UB); [done|]. eapply print_dead; try apply O. done.
    - unfold bind. by erewrite off_clear.
    - unfold bind. by erewrite off_destroy.
  Qed.
  (** ... as they are when the virtual nodes are gone. *)
  Lemma torn_gone i w hd tl n al : w_vars w !! i = Some (Lst (PAddr hd) tl n al) ->
    hmap (w_heap w) !! hd = None -> torn i w.
  Proof.
    intros Hv Hh o Ho.
    assert (E : get_next (PAddr hd) (w_heap w) = Err UB).
    { unfold get_next, bind, rd, hread. by rewrite Hh. }
    rewrite !elem_of_cons, elem_of_nil in Ho. destruct Ho as [->|[->|[->|[->|[]]]]]; cbn [list_step];
      unfold l_obs, l_upd, l_updo, bind at 1, wget; rewrite Hv; unfold lift.
    - unfold l_to_list, bind. cbn [l_head]. by rewrite E.
    - unfold l_print, bind. cbn [l_head]. by rewrite E.
    - unfold l_clear, bind. cbn [l_head]. by rewrite E.
    - unfold l_destroy, l_clear, bind. cbn [l_head]. rewrite decide_False by done. by rewrite E.
  Qed.

  (** *** Inserting into a gap *)
  Lemma append_at c vs l h hd n1 n2 tl k : hwf h -> lok dbl h (l_al l) hd (n1 ++ n2) tl -> l_len l < W ->
    (0 < k < length vs)%nat -> exists h' ns,
      x_append dbl c (PAddr (endp hd n1)) vs (Lts l h k) = Ok (None, Lts (counted c l k) h' 0) /\
      off h' (l_al l) hd tl ns /\ vls ns = vls n1 ++ take k vs /\ hwf h' /\ hnext h <= hnext h' /\
      (forall a, a < hnext h -> a ∉ lfp hd (n1 ++ n2) tl -> hmap h' !! a = hmap h !! a).
  Proof.
    intros Hw Lk Hl Hk. assert (Hp : has h (endp hd n1)) by (eapply lok_has; [done|apply end_in]).
    destruct (append_throw c vs (endp hd n1) l h k Hw Hp Hl ltac:(lia)) as (h1 & ms & E & Hv & G & Hu).
    pose proof (lpre_grow dbl h h1 (l_al l) hd n1 n2 tl ms Hw (lok_lpre _ _ _ _ _ _ _ Lk) G) as Lp.
    assert (Hms : ms <> []). { intros ->. apply (f_equal length) in Hv. rewrite take_length in Hv. simpl in Hv. lia. }
    pose proof (g_wf _ _ _ _ _ _ G) as Hw1.
    assert (Hlt : forall a, a ∈ lfp hd ((n1 ++ ms) ++ n2) tl -> a < hnext h1).
    { intros a Ha. apply Hw1. by eapply lpre_has. }
    exists (ins h1 (raw_cell (l_al l))), (n1 ++ ms). split; [done|]. split; [|split; [|split; [|split]]].
    - destruct (nd_split _ _ _ _ (lp_nd _ _ _ _ _ _ _ Lp)) as (N1 & N2 & N12).
      pose proof (lp_l _ _ _ _ _ _ _ Lp) as Ho.
      split.
      + by intros [_ ?]%app_nil.
      + assert (hd < hnext h1) by (apply Hlt, hd_in).
        destruct (has_eq h1 (ins h1 (raw_cell (l_al l))) hd (ins_frame _ _ _ ltac:(done))) as (-> & _).
        destruct (n1 ++ ms) as [|[a v] r] eqn:Er; [by apply app_nil in Er as [_ ?]|].
        by destruct Ho as [[? _] _].
      + eapply dead_frame; [|eapply oseg_dead; [exact Ho|]].
        * intros a Ha. apply ins_frame, Hlt. unfold lfp. rewrite ads_app. set_solver.
        * intros _. rewrite endp_app. by apply Hu.
      + by apply NoDup_cons in N1 as [_ ?].
      + intros Ha. apply (N12 tl); [by right|]. apply elem_of_app. right. by left.
    - by rewrite vls_app, Hv.
    - by apply hwf_ins.
    - pose proof (g_next _ _ _ _ _ _ G). simpl. lia.
    - intros a Ha Hn. rewrite ins_frame by (pose proof (g_next _ _ _ _ _ _ G); lia). apply G; [done|].
      intros ->. apply Hn, end_in.
  Qed.
  (** The first one throws: one raw node. *)
  Lemma append_first c vs l h p : hwf h -> has h p -> l_len l < W -> vs <> [] ->
    x_append dbl c (PAddr p) vs (Lts l h 0) = Ok (None, Lts l (ins h (raw_cell (l_al l))) 0).
  Proof.
    intros Hw Hp Hl Hv. destruct vs as [|v vs]; [done|]. cbn [x_append].
    by rewrite (xb_none _ _ _ _ (construct_none v l h)).
  Qed.
  Lemma ins_leak sp w c : rel dbl sp w -> goes_on 1 sp (World (ins (w_heap w) c) (w_vars w)).
  Proof.
    intros Hr. assert (Hw : hwf (w_heap w)) by by destruct Hr as [m [Hw _]].
    apply leaked; [done|by apply hwf_ins|simpl; lia| |].
    - intros a Ha. by apply ins_frame.
    - rewrite ins_size by done. lia.
  Qed.

  (** *** The other lists *)
  Lemma others_frame sp w (m : gmap nat (entry (O := lst) (Sp := N * option (list T)))) is h' vars (fp : list N) :
    world_ok_with (lrep dbl) w sp m ->
    (forall j, j ∉ is -> vars !! j = w_vars w !! j) ->
    (forall j e a, m !! j = Some e -> j ∉ is -> a ∈ e_fp e -> a ∉ fp) ->
    (forall a, a < hnext (w_heap w) -> a ∉ fp -> hmap h' !! a = hmap (w_heap w) !! a) ->
    others dbl w (World h' vars) sp is.
  Proof.
    intros Hw Hv Hd Hf j al ys Hj Hs.
    destruct (world_ok_lookup_spec _ _ _ _ _ _ Hw Hs) as (e & Hm & He & Hvj & Hr).
    destruct (lrep_inv dbl _ _ _ _ _ Hr) as (hd & tl & ns & Ho & <- & Lk & HW & Hfp).
    exists (lfp hd ns tl). rewrite Ho in Hvj. split; [by eapply lok_nodes|].
    eapply lok_nodes; simpl; [rewrite Hv by done; exact Hvj|].
    eapply lok_frame; [|exact Lk]. intros a Ha. apply Hf.
    - apply (wo_wf _ _ _ _ Hw). by eapply lok_has.
    - eapply Hd; [exact Hm|done|]. by rewrite Hfp.
  Qed.
  Lemma rel_fresh sp w h' : rel dbl sp w ->
    (forall a, a < hnext (w_heap w) -> hmap h' !! a = hmap (w_heap w) !! a) ->
    others dbl w (World h' (w_vars w)) sp [].
  Proof.
    intros [m Hw] Hf. eapply (others_frame _ _ _ _ _ _ [] Hw); [done| |].
    - intros j e a _ _ _. apply not_elem_of_nil.
    - intros a Ha _. by apply Hf.
  Qed.
  Lemma rel_any sp w i s : rel dbl sp w -> sp !! i = Some s ->
    hwf (w_heap w) /\ exists l fp, w_vars w !! i = Some l /\ lrep dbl (w_heap w) l s fp /\
      forall h' l', (forall a, a < hnext (w_heap w) -> a ∉ fp -> hmap h' !! a = hmap (w_heap w) !! a) ->
        others dbl w (World h' (<[i := l']> (w_vars w))) sp [i].
  Proof.
    intros [m Hw] Hi. split; [apply (wo_wf _ _ _ _ Hw)|].
    destruct (world_ok_lookup_spec _ _ _ _ _ _ Hw Hi) as (e & Hm & He & Hv & Hr).
    exists (e_o e), (e_fp e). split; [done|]. split; [done|]. intros h' l' Hf.
    eapply (others_frame _ _ _ _ _ _ (e_fp e) Hw); [| |done].
    - intros j Hj. rewrite lookup_insert_ne; [done|]. intros ->. apply Hj. by left.
    - intros j f a Hmj Hj Ha Ha'. eapply (wo_disj _ _ _ _ Hw i j); [done|done| |done|done].
      intros ->. apply Hj. by left.
  Qed.
  Lemma rel_two sp w i j si sj : rel dbl sp w -> i <> j -> sp !! i = Some si -> sp !! j = Some sj ->
    hwf (w_heap w) /\ exists l fi o fj, w_vars w !! i = Some l /\ w_vars w !! j = Some o /\
      lrep dbl (w_heap w) l si fi /\ lrep dbl (w_heap w) o sj fj /\ apart fi fj /\
      forall h' l', (forall a, a < hnext (w_heap w) -> a ∉ fi -> hmap h' !! a = hmap (w_heap w) !! a) ->
        others dbl w (World h' (<[i := l']> (w_vars w))) sp [i].
  Proof.
    intros [m Hw] Hij Hi Hj. split; [apply (wo_wf _ _ _ _ Hw)|].
    destruct (world_ok_lookup_spec _ _ _ _ _ _ Hw Hi) as (e & Hm & He & Hv & Hr).
    destruct (world_ok_lookup_spec _ _ _ _ _ _ Hw Hj) as (e2 & Hm2 & He2 & Hv2 & Hr2).
    exists (e_o e), (e_fp e), (e_o e2), (e_fp e2). do 4 (split; [done|]). split.
    { intros a Ha Ha'. by eapply (wo_disj _ _ _ _ Hw i j). }
    intros h' l' Hf. eapply (others_frame _ _ _ _ _ _ (e_fp e) Hw); [| |done].
    - intros k Hk. rewrite lookup_insert_ne; [done|]. intros ->. apply Hk. by left.
    - intros k f a Hmj Hk Ha Ha'. eapply (wo_disj _ _ _ _ Hw i k); [done|done| |done|done].
      intros ->. apply Hk. by left.
  Qed.

  (** *** The theorems *)
  (** Constructors: the object does not come into being; its two virtual nodes,
      the nodes made so far, with their elements, and the one that was being
      made are never freed. *)
  Definition builds (o : lop T) : bool :=
    match o with LRange _ _ _ | LCount _ _ _ _ | LCopy _ _ | LCopyAl _ _ _ => true | _ => false end.

  Lemma virtual_leak h al c3 ms h3 (c1 c2 : cell T) : hwf h ->
    grow dbl (ins (ins h c1) c2) h3 al (hnext h) ms ->
    let h' := ins h3 c3 in hwf h' /\ hnext h <= hnext h' /\
    (forall a, a < hnext h -> hmap h' !! a = hmap h !! a) /\ size (hmap h') = (size (hmap h) + (length ms + 3))%nat.
  Proof.
    intros Hw G h'. assert (Hw2 : hwf (ins (ins h c1) c2)) by by apply hwf_ins, hwf_ins.
    pose proof (g_next _ _ _ _ _ _ G) as Hn. simpl in Hn. pose proof (g_wf _ _ _ _ _ _ G) as Hw3.
    split; [by apply hwf_ins|]. split; [simpl; lia|]. split.
    - intros a Ha. unfold h'. rewrite ins_frame by lia. rewrite (g_fr _ _ _ _ _ _ G) by (simpl; lia).
      rewrite ins_frame by (simpl; lia). by rewrite ins_frame.
    - unfold h'. rewrite ins_size by done. rewrite (grow_size _ _ _ _ _ Hw2 G).
      rewrite !ins_size by (try done; by apply hwf_ins). lia.
  Qed.
  Lemma mk_throw sp w i al k f n h' l' k' : rel dbl sp w -> sp !! i = None ->
    f (Lts (Lst PNull PNull 0 al) (w_heap w) k) = Ok (None, Lts l' h' k') ->
    hwf h' -> hnext (w_heap w) <= hnext h' ->
    (forall a, a < hnext (w_heap w) -> hmap h' !! a = hmap (w_heap w) !! a) ->
    size (hmap h') = (size (hmap (w_heap w)) + n)%nat ->
    exists w', x_mk k i al f w = Ok (None, w') /\ w_vars w' = w_vars w /\ goes_on n sp w' /\ others dbl w w' sp [].
  Proof.
    intros Hr Hi E Hw Hn Hf Hs. exists (World h' (w_vars w)).
    assert (Hv : w_vars w !! i = None) by (destruct Hr as [m Hm]; by apply (world_ok_none _ _ _ _ _ Hm)).
    split; [|split; [done|split]].
    - unfold x_mk, bind, wnew. rewrite Hv, E. done.
    - by apply leaked.
    - by apply rel_fresh.
  Qed.
  Lemma copy_impl_throw al' hd ns tl l h k : hwf h -> lok dbl h al' hd ns tl -> (k < length ns)%nat ->
    exists h', x_copy_impl dbl (L al' hd tl ns) (Lts l h k) =
        Ok (None, Lts (set_len l (N.of_nat k mod W)) h' 0) /\
      hwf h' /\ hnext h <= hnext h' /\
      (forall a, a < hnext h -> hmap h' !! a = hmap h !! a) /\ size (hmap h') = (size (hmap h) + (k + 3))%nat.
  Proof.
    intros Hw Lk Hk. unfold x_copy_impl. rewrite xb_this, xb_put. cbn [l_head l_tail l_len L].
    destruct (N.eqb_spec (nlen ns) 0) as [H0|H0]; [lia|].
    destruct (lok_fw _ _ _ _ _ _ Lk) as [Hf Hn]. destruct (lok_nd2 _ _ _ _ _ _ Lk) as [Hnd Hhd].
    set (h1 := ins h (vcell dbl (l_al l))). set (h2 := ins h1 (vcell dbl (l_al l))).
    assert (Hw2 : hwf h2) by by apply hwf_ins, hwf_ins.
    assert (Hlt : forall c, c ∈ lfp hd ns tl -> c < hnext h) by (intros; by eapply lok_lt).
    assert (Hf2 : fw h2 al' ns tl).
    { eapply fw_frame; [|exact Hf]. intros c Hc. assert (c < hnext h) by (apply Hlt; unfold lfp; set_solver).
      unfold h2, h1. rewrite !nx_ins, !dt_ins, !decide_False by (simpl; lia). done. }
    rewrite xb_mem, (get_next_ok h hd _ Hn ltac:(done)).
    rewrite xb_mem, (build_virtual_ok dbl h _).
    rewrite xb_mem, (build_virtual_ok dbl h1 _).
    rewrite xb_mem, fuel_ok. fold h2.
    destruct (copy_loop_throw al' tl ns (S (size (hmap h2))) h2 (hnext h) (set_len l 0) k) as (h3 & ms & E & Hv & G);
      [done| |done| |done| |done|done|].
    - apply has_ins. right. apply has_ins. by left.
    - intros Hin. assert (hnext h < hnext h) by (apply Hlt; unfold lfp; set_solver). lia.
    - pose proof (lok_fuel _ _ _ _ _ _ Lk). enough (size (hmap h) <= size (hmap h2))%nat by lia.
      rewrite <-!size_dom. apply subseteq_size. intros c. rewrite !elem_of_dom. intros Hc.
      apply (has_ins h1 _ c). right. apply has_ins. by right.
    - exists (ins h3 (raw_cell (l_al l))). split; [rewrite (xb_none _ _ _ _ E); done|].
      destruct (virtual_leak h (l_al l) (raw_cell (l_al l)) ms h3 _ _ Hw G) as (A & B & C & D).
      do 3 (split; [done|]). rewrite D. apply (f_equal length) in Hv. rewrite take_length, !vls_length in Hv. lia.
  Qed.

  Theorem C68_constructors sp w c k o sp' x : reached sp w -> builds o = true ->
    gspec dbl sp o = SOk sp' x -> (k < copies sp o)%nat ->
    exists w', x_step dbl c k o w = Ok (None, w') /\ w_vars w' = w_vars w /\ goes_on (k + 3) sp w' /\
      others dbl w w' sp [].
  Proof.
    intros Hr Hb E Hk. apply reached_rel in Hr.
    assert (Hw : hwf (w_heap w)) by by destruct Hr as [m [Hw _]].
    assert (Hlt : forall n m : nat, (n < m)%nat -> ~ (m = 0)%nat) by lia.
    assert (Hap : forall al (vs : list T), (k < length vs)%nat -> exists h' l' k',
      x_append dbl true (PAddr (hnext (w_heap w))) vs
        (Lts (Lst PNull PNull 0 al) (ins (ins (w_heap w) (vcell dbl al)) (vcell dbl al)) k) = Ok (None, Lts l' h' k') /\
      hwf h' /\ hnext (w_heap w) <= hnext h' /\
      (forall a, a < hnext (w_heap w) -> hmap h' !! a = hmap (w_heap w) !! a) /\
      size (hmap h') = (size (hmap (w_heap w)) + (k + 3))%nat).
    { intros al vs Hv. set (h2 := ins (ins (w_heap w) (vcell dbl al)) (vcell dbl al)).
      destruct (append_throw true vs (hnext (w_heap w)) (Lst PNull PNull 0 al) h2 k) as (h3 & ms & E3 & Hm & G & _).
      { by apply hwf_ins, hwf_ins. } { apply has_ins. right. apply has_ins. by left. } { done. } { done. }
      destruct (virtual_leak (w_heap w) al (raw_cell al) ms h3 _ _ Hw G) as (A & B & C & D).
      eexists (ins h3 (raw_cell al)), _, 0%nat. split; [exact E3|]. do 3 (split; [done|]). rewrite D.
      apply (f_equal length) in Hm. rewrite take_length, vls_length in Hm. lia. }
    destruct o as [| i al vs|i al n v|i vs|i j|i j al | | | | | | | | | | | | | | | | | | | | | | | | | | | | | | | | | | | | | | | | | |];
      try done; unfold gspec in E; cbn [safe lspec copies] in *.
    - unfold fresh in E. destruct (sp !! i) eqn:Hi; [done|].
      destruct (Hap al vs Hk) as (h' & l' & k' & Ea & A & B & C & D).
      eapply mk_throw; [done|done| |done|done|done|done].
      unfold x_range. destruct vs as [|v vs]; [simpl in Hk; lia|]. rewrite xb_this.
      rewrite xb_mem, (build_virtual_ok dbl _ _), xb_mem, (build_virtual_ok dbl _ _). by rewrite (xb_none _ _ _ _ Ea).
    - unfold fresh in E. destruct (sp !! i) eqn:Hi; [done|].
      destruct (Hap al (replicate (N.to_nat n) v)) as (h' & l' & k' & Ea & A & B & C & D); [by rewrite replicate_length|].
      eapply mk_throw; [done|done| |done|done|done|done].
      unfold x_count. destruct (N.eqb_spec n 0); [lia|]. rewrite xb_this.
      rewrite xb_mem, (build_virtual_ok dbl _ _), xb_mem, (build_virtual_ok dbl _ _). by rewrite (xb_none _ _ _ _ Ea).
    - unfold fresh in E. destruct (sp !! i) eqn:Hi; [done|]. unfold look in E. destruct (sp !! j) as [[al o]|] eqn:Hj; [|done].
      destruct (rel_any _ _ _ _ Hr Hj) as (_ & l & fp & Hv & Hl & _).
      rewrite (contents_of _ _ _ Hj) in Hk. destruct o as [xs|]; [|simpl in Hk; lia].
      destruct (lrep_inv dbl _ _ _ _ _ Hl) as (hd & tl & ns & -> & <- & Lk & _). cbn in Hk. rewrite vls_length in Hk.
      destruct (copy_impl_throw al hd ns tl (Lst PNull PNull 0 al) (w_heap w) k Hw Lk Hk) as (h' & Ec & A & B & C & D).
      cbn [x_step]. unfold bind at 1, wget. rewrite Hv. eapply mk_throw; [done|done|exact Ec|done|done|done|done].
    - unfold fresh in E. destruct (sp !! i) eqn:Hi; [done|]. unfold look in E. destruct (sp !! j) as [[al' o]|] eqn:Hj; [|done].
      destruct (rel_any _ _ _ _ Hr Hj) as (_ & l & fp & Hv & Hl & _).
      rewrite (contents_of _ _ _ Hj) in Hk. destruct o as [xs|]; [|simpl in Hk; lia].
      destruct (lrep_inv dbl _ _ _ _ _ Hl) as (hd & tl & ns & -> & <- & Lk & _). cbn in Hk. rewrite vls_length in Hk.
      destruct (copy_impl_throw al' hd ns tl (Lst PNull PNull 0 al) (w_heap w) k Hw Lk Hk) as (h' & Ec & A & B & C & D).
      cbn [x_step]. unfold bind at 1, wget. rewrite Hv. eapply mk_throw; [done|done|exact Ec|done|done|done|done].
  Qed.

  (** Insertions: [l.insert(p, ...)], [emplace], and their [_after] forms. *)
  Definition inserts (o : lop T) : option nat :=
    match o with LIns i _ _ | LInsA i _ _ | LEmp i _ _ | LEmpA i _ _ => Some i | _ => None end.

  Lemma at_throw w i p f l q l' h' k k' : w_vars w !! i = Some l ->
    stl_advance p (l_head l) (w_heap w) = Ok (PAddr q, w_heap w) ->
    f (PAddr q) (Lts l (w_heap w) k) = Ok (None, Lts l' h' k') ->
    x_at k i p f w = Ok (None, World h' (<[i := l']> (w_vars w))).
  Proof.
    intros Hv Ea Ef. unfold x_at, x_upd, bind, wget. rewrite Hv, xb_this, xb_mem, Ea.
    by rewrite (xb_none _ _ _ _ Ef).
  Qed.
  (** The values that are constructed. *)
  Definition newly (o : lop T) : list T :=
    match o with LIns _ _ vs | LInsA _ _ vs | LIlist _ vs => vs | LEmp _ _ v | LEmpA _ _ v => [v] | _ => [] end.
  Lemma insert_gap sp w o i sp' x : rel dbl sp w -> inserts o = Some i -> gspec dbl sp o = SOk sp' x ->
    newly o <> [] -> exists al xs hd tl n1 n2, sp !! i = Some (al, Some xs) /\
      w_vars w !! i = Some (L al hd tl (n1 ++ n2)) /\ vls (n1 ++ n2) = xs /\
      lok dbl (w_heap w) al hd (n1 ++ n2) tl /\ nlen (n1 ++ n2) < W /\ hwf (w_heap w) /\
      (forall h' l', (forall a, a < hnext (w_heap w) -> a ∉ lfp hd (n1 ++ n2) tl -> hmap h' !! a = hmap (w_heap w) !! a) ->
        others dbl w (World h' (<[i := l']> (w_vars w))) sp [i]) /\
      forall c k l' h' k', x_append dbl c (PAddr (endp hd n1)) (newly o) (Lts (L al hd tl (n1 ++ n2)) (w_heap w) k) =
          Ok (None, Lts l' h' k') ->
        (length (newly o) = 1 -> k = 0)%nat ->
        x_step dbl c k o w = Ok (None, World h' (<[i := l']> (w_vars w))).
  Proof.
    intros Hr Ho E Hn.
    assert (Hlive : exists al xs p, sp !! i = Some (al, Some xs) /\ (p <= length xs)%nat /\
      ((exists v, o = LEmpA i p v) \/ (exists vs, o = LInsA i p vs) \/
       (dbl = true /\ exists v, o = LEmp i (S p) v) \/ (dbl = true /\ exists vs, o = LIns i (S p) vs))).
    { unfold gspec in E. destruct o; try done; injection Ho as ->; cbn [safe lspec] in E;
        try (unfold need in E at 1; destruct dbl eqn:Hdb; [|done]); unfold live in E;
        destruct (sp !! i) as [[al [xs|]]|]; try done; exists al, xs; unfold need in E.
      - exists k. destruct (Nat.leb_spec k (length xs)); [|done]. split; [done|]. split; [done|]. left. by eexists.
      - exists k. destruct (Nat.leb_spec k (length xs)); [|done]. split; [done|]. split; [done|]. right. left. by eexists.
      - exists (k - 1)%nat. destruct (Nat.leb_spec 1 k), (Nat.leb_spec k (length xs + 1)); try done. split; [done|]. split; [lia|].
        right. right. left. replace (S (k - 1)) with k by lia. split; [done|]. by eexists.
      - exists (k - 1)%nat. destruct (Nat.leb_spec 1 k), (Nat.leb_spec k (length xs + 1)); try done. split; [done|]. split; [lia|].
        right. right. right. replace (S (k - 1)) with k by lia. split; [done|]. by eexists. }
    destruct Hlive as (al & xs & p & Hi & Hp & Hop).
    destruct (rel_any _ _ _ _ Hr Hi) as (Hw & l & fp & Hv & Hl & Hoth).
    destruct (lrep_inv dbl _ _ _ _ _ Hl) as (hd & tl & ns & -> & <- & Lk & HW & ->). rewrite vls_length in Hp.
    destruct (split_at ns p) as (n1 & n2 & -> & <- & _); [done|].
    exists al, (vls (n1 ++ n2)), hd, tl, n1, n2. do 7 (split; [done|]).
    pose proof (advance_pos dbl _ _ _ _ _ _ _ Lk (lfp_end _ _ _ _)) as A1.
    pose proof (advance_pos dbl _ _ _ _ _ _ _ Lk (lfp_start _ _ _ _)) as A2.
    assert (Hone : forall c v s l' h' k', x_append dbl c (PAddr (endp hd n1)) [v] (Lts (L al hd tl (n1 ++ n2)) (w_heap w) 0) =
      Ok (None, Lts l' h' k') -> forall (f : lptr -> LM lptr), s = Lts (L al hd tl (n1 ++ n2)) (w_heap w) 0 ->
      xbind (x_construct_node v) f s = Ok (None, Lts l' h' k')).
    { intros c v s l' h' k' Ea f ->. cbn [x_append] in Ea. rewrite (xb_none _ _ _ _ (construct_none v _ _)) in Ea.
      by rewrite (xb_none _ _ _ _ (construct_none v _ _)). }
    intros c k l' h' k' Ea H1.
    destruct Hop as [[v ->]|[[vs ->]|[[Hd [v ->]]|[Hd [vs ->]]]]]; cbn [newly x_step] in *.
    - rewrite (H1 eq_refl) in *. eapply at_throw; [done|exact A1|]. by eapply Hone.
    - eapply at_throw; [done|exact A1|]. unfold x_insert_after. destruct vs as [|v vs]; [done|].
      rewrite xb_mem, (next_at dbl _ _ _ _ _ _ Lk). by rewrite (xb_none _ _ _ _ Ea).
    - rewrite (H1 eq_refl) in *. eapply at_throw; [done|exact A2|]. by eapply Hone.
    - eapply at_throw; [done|exact A2|]. unfold x_insert. destruct vs as [|v vs]; [done|].
      rewrite xb_mem, (prev_at dbl _ _ _ _ _ _ Hd Lk). by rewrite (xb_none _ _ _ _ Ea).
  Qed.
  Lemma copies_newly sp o i : inserts o = Some i -> copies sp o = length (newly o).
  Proof. by destruct o. Qed.

  (** The first element throws: nothing has changed but for one block that is
      never freed. *)
  Theorem C68_insert_first sp w c o i sp' x : reached sp w -> inserts o = Some i ->
    gspec dbl sp o = SOk sp' x -> (0 < copies sp o)%nat ->
    exists w', x_step dbl c 0 o w = Ok (None, w') /\ w_vars w' = w_vars w /\ goes_on 1 sp w' /\ others dbl w w' sp [].
  Proof.
    intros Hr%reached_rel Ho E Hc. rewrite (copies_newly sp _ _ Ho) in Hc.
    assert (Hn : newly o <> []) by (intros En; rewrite En in Hc; simpl in Hc; lia).
    destruct (insert_gap _ _ _ _ _ _ Hr Ho E Hn) as (al & xs & hd & tl & n1 & n2 & Hi & Hv & Hx & Lk & HW & Hw & _ & Hs).
    exists (World (ins (w_heap w) (raw_cell al)) (w_vars w)). split; [|split; [done|split]].
    - erewrite Hs; [|apply append_first; [done| |done|done]|done].
      + by rewrite (insert_id (w_vars w) i).
      + eapply lok_has; [done|apply end_in].
    - by apply ins_leak.
    - apply rel_fresh; [done|]. intros a Ha. by apply ins_frame.
  Qed.

  (** A later element throws: the last node made has an indeterminate link,
      and what came after the position is cut off.  [size()] counts the nodes
      made when the code counts in the loop. *)
  Theorem C68_insert_torn sp w c k o i sp' x : reached sp w -> inserts o = Some i ->
    gspec dbl sp o = SOk sp' x -> (0 < k < copies sp o)%nat ->
    exists w', x_step dbl c k o w = Ok (None, w') /\ torn i w' /\ others dbl w w' sp [i] /\
      step (LSize i) w' = Ok (ONum ((nlen (contents sp i) + if c then N.of_nat k else 0) mod W), w').
  Proof.
    intros Hr%reached_rel Ho E Hc. rewrite (copies_newly sp _ _ Ho) in Hc.
    assert (Hn : newly o <> []) by (intros En; rewrite En in Hc; simpl in Hc; lia).
    destruct (insert_gap _ _ _ _ _ _ Hr Ho E Hn) as (al & xs & hd & tl & n1 & n2 & Hi & Hv & Hx & Lk & HW & Hw & Hoth & Hs).
    destruct (append_at c (newly o) (L al hd tl (n1 ++ n2)) (w_heap w) hd n1 n2 tl k Hw Lk HW Hc)
      as (h' & ns & Ea & O & Hvs & Hw' & Hnx & Hf).
    eexists. split; [eapply Hs; [exact Ea|lia]|]. split; [|split].
    - eapply (torn_off i _ hd tl (l_len (counted c (L al hd tl (n1 ++ n2)) k)) al); [|exact O].
      simpl. rewrite lookup_insert. by destruct c.
    - by apply Hoth.
    - cbn [list_step]. unfold l_obs, bind, wget. simpl. rewrite lookup_insert. unfold lift, ret. simpl. do 2 f_equal.
      f_equal. rewrite (contents_of _ _ _ Hi). cbn [snd default id]. rewrite <-Hx, vls_length. destruct c; simpl; [done|].
      rewrite N.add_0_r. symmetry. by apply N.mod_small.
  Qed.

  (** [l = {...}] *)
  Lemma upd_throw w i l l' h' k k' (f : LM unit) : w_vars w !! i = Some l ->
    f (Lts l (w_heap w) k) = Ok (None, Lts l' h' k') ->
    x_upd k i (xbind f (fun _ => xret OUnit)) w = Ok (None, World h' (<[i := l']> (w_vars w))).
  Proof. intros Hv E. unfold x_upd, bind, wget. rewrite Hv. by rewrite (xb_none _ _ _ _ E). Qed.
  Theorem C68_ilist_first sp w c i al xs vs : reached sp w -> sp !! i = Some (al, Some xs) -> vs <> [] ->
    exists w', x_step dbl c 0 (LIlist i vs) w = Ok (None, w') /\ goes_on 1 (<[i := (al, Some [])]> sp) w' /\
      others dbl w w' sp [i].
  Proof.
    intros Hr%reached_rel Hi Hn. destruct (rel_any _ _ _ _ Hr Hi) as (Hw & l & fp & Hv & Hl & Hoth).
    destruct (lrep_inv dbl _ _ _ _ _ Hl) as (hd & tl & ns & -> & <- & Lk & HW & ->).
    destruct (clear_ok dbl _ _ _ _ _ Hw Lk) as (h1 & E1 & Lk1 & U1).
    pose proof (list_step_refines dbl sp w (LClear i) I Hr) as Ha. unfold gspec in Ha. cbn [safe lspec] in Ha.
    unfold live in Ha. rewrite Hi in Ha. unfold give in Ha. simpl in Ha. destruct Ha as (w1 & Ew & Hr1).
    rewrite (upd_run w i (l_clear dbl) _ _ _ Hv E1) in Ew. injection Ew as <-.
    assert (Hw1 : hwf h1) by apply U1.
    exists (World (ins h1 (raw_cell al)) (<[i := L al hd tl ([] : list (N * T))]> (w_vars w))). split; [|split].
    - cbn [x_step]. eapply upd_throw; [exact Hv|]. unfold x_ilist_assign. rewrite xb_calls, E1, xb_this. cbn [l_head L].
      erewrite xb_none; [done|]. apply append_first; [done| |done|done]. eapply lok_has; [exact Lk1|]. by left.
    - apply (ins_leak _ _ (raw_cell al) Hr1).
    - apply Hoth. intros a Ha Hn'. rewrite ins_frame by (pose proof (upd_next _ _ _ _ U1); lia).
      by apply (upd_frame _ _ _ _ U1).
  Qed.
  Theorem C68_ilist_torn sp w c k i al xs vs : reached sp w -> sp !! i = Some (al, Some xs) ->
    (0 < k < length vs)%nat -> exists w', x_step dbl c k (LIlist i vs) w = Ok (None, w') /\ torn i w' /\
      others dbl w w' sp [i] /\ step (LSize i) w' = Ok (ONum (N.of_nat k mod W), w').
  Proof.
    intros Hr%reached_rel Hi Hn. destruct (rel_any _ _ _ _ Hr Hi) as (Hw & l & fp & Hv & Hl & Hoth).
    destruct (lrep_inv dbl _ _ _ _ _ Hl) as (hd & tl & ns & -> & <- & Lk & HW & ->).
    destruct (clear_ok dbl _ _ _ _ _ Hw Lk) as (h1 & E1 & Lk1 & U1).
    assert (Hw1 : hwf h1) by apply U1.
    destruct (append_at true vs (L al hd tl ([] : list (N * T))) h1 hd [] [] tl k Hw1 Lk1 ltac:(done) Hn)
      as (h' & ms & Ea & O & Hvs & Hw' & Hnx & Hf).
    eexists. split; [cbn [x_step]; eapply upd_throw; [exact Hv|]; unfold x_ilist_assign;
      rewrite xb_calls, E1, xb_this; cbn [l_head L]; erewrite xb_none; [done|exact Ea]|].
    split; [|split].
    - eapply torn_off; [|exact O]. simpl. by rewrite lookup_insert.
    - apply Hoth. intros a Ha Hn'. rewrite Hf; [|pose proof (upd_next _ _ _ _ U1); lia|].
      + by apply (upd_frame _ _ _ _ U1).
      + simpl. intros Hin. apply Hn'. unfold lfp in *. set_solver.
    - cbn [list_step]. unfold l_obs, bind, wget. simpl. rewrite lookup_insert. done.
  Qed.

  (** [l = other]: the nodes of [l] are freed first; afterwards [head] and
      [tail] dangle. *)
  Lemma copy_assign_throw l o h k sj fj si fi ys : hwf h -> lrep dbl h l si fi -> lrep dbl h o sj fj -> apart fi fj ->
    snd sj = Some ys -> (k < length ys)%nat -> exists h' h1,
    x_copy_assign dbl o (Lts l h k) = Ok (None, Lts (Lst (l_head l) (l_tail l) (N.of_nat k) (l_al o)) h' 0) /\
    upd h h1 fi [] /\ hwf h' /\ hnext h1 <= hnext h' /\ (forall a, a < hnext h1 -> hmap h' !! a = hmap h1 !! a) /\
    size (hmap h') = (size (hmap h1) + (k + 3))%nat /\ exists l', l_destroy dbl l h = Ok (l', h1).
  Proof.
    intros Hw Hl Ho Ha Hs Hk. destruct (destroy_any dbl h l si fi Hw Hl) as (l' & h1 & E & U).
    pose proof (lrep_after dbl h h1 o sj fj fi Hw Ho Ha U) as Ho1.
    destruct sj as [al ys']. simpl in Hs. subst ys'.
    destruct (lrep_inv dbl _ _ _ _ _ Ho1) as (hd & tl & ns & -> & <- & Lk & HW & _). rewrite vls_length in Hk.
    assert (Hl' : l_head l' = l_head l /\ l_tail l' = l_tail l).
    { unfold l_destroy in E. destruct (decide (l_head l = PNull)); [by injection E as <- <-|].
      unfold bind, ret in E. destruct (l_clear dbl l h) as [[l2 h2]|] eqn:Ec; [|done]. apply clear_len in Ec as ->.
      repeat case_match; try done. by injection E as <- <-. }
    destruct (copy_impl_throw al hd ns tl (Lst (l_head l') (l_tail l') (l_len l') al) h1 k) as (h' & Ec & A & B & C & D);
      [apply U|done|done|].
    exists h', h1. split; [|do 4 (split; [done|]); split; [done|by eexists]].
    unfold x_copy_assign. rewrite xb_calls, E, xb_this, xb_put. cbn [l_al L]. rewrite Ec.
    destruct Hl' as [-> ->]. unfold set_len. cbn. do 4 f_equal. apply N.mod_small. lia.
  Qed.
  Theorem C68_assign_torn sp w c k i j al xs al' ys : reached sp w -> i <> j -> sp !! i = Some (al, Some xs) ->
    sp !! j = Some (al', Some ys) -> (k < length ys)%nat ->
    exists w', x_step dbl c k (LCopyAsg i j) w = Ok (None, w') /\ torn i w' /\ others dbl w w' sp [i] /\
      step (LSize i) w' = Ok (ONum (N.of_nat k), w').
  Proof.
    intros Hr%reached_rel Hij Hi Hj Hk.
    destruct (rel_two _ _ _ _ _ _ Hr Hij Hi Hj) as (Hw & l & fi & o & fj & Hvi & Hvj & Hl & Ho & Ha & Hoth).
    destruct (copy_assign_throw l o (w_heap w) k _ _ _ _ ys Hw Hl Ho Ha eq_refl Hk) as (h' & h1 & E & U & Hw' & Hn & Hf & _ & _).
    eexists. split; [|split; [|split]].
    - cbn [x_step]. rewrite (proj2 (Nat.eqb_neq i j) Hij). unfold bind at 1, wget. rewrite Hvj.
      eapply upd_throw; [done|exact E].
    - destruct (lrep_inv dbl _ _ _ _ _ Hl) as (hd & tl & ns & -> & <- & Lk & HW & ->).
      eapply torn_gone; [simpl; by rewrite lookup_insert|]. simpl.
      assert (Hh : hd < hnext (w_heap w)) by (eapply lok_lt; [done|exact Lk|by left]).
      rewrite Hf by (pose proof (upd_next _ _ _ _ U); lia).
      destruct (hmap h1 !! hd) eqn:Eh; [|done]. exfalso.
      destruct (proj1 (upd_dom _ _ _ _ U hd) ltac:(by eexists)) as [[_ Hnf]|?%elem_of_nil]; [|done]. apply Hnf. by left.
    - apply Hoth. intros a Ha' Hnf. pose proof (upd_next _ _ _ _ U). rewrite Hf by lia. by apply (upd_frame _ _ _ _ U).
    - cbn [list_step]. unfold l_obs, bind, wget. simpl. rewrite lookup_insert. done.
  Qed.
  (** A list that was moved from says it is still moved from, and how many
      elements were copied before the exception. *)
  Theorem C68_assign_moved sp w c k i j al al' ys : reached sp w -> i <> j -> sp !! i = Some (al, None) ->
    sp !! j = Some (al', Some ys) -> (k < length ys)%nat ->
    exists w' w'', x_step dbl c k (LCopyAsg i j) w = Ok (None, w') /\
      step (LMovedQ i) w' = Ok (OBool true, w') /\ step (LSize i) w' = Ok (ONum (N.of_nat k), w') /\
      ((0 < k)%nat -> step (LFront i) w' = Err UB) /\
      step (LDel i) w' = Ok (OUnit, w'') /\ goes_on (k + 3) (delete i sp) w'' /\ others dbl w w' sp [i].
  Proof.
    intros Hr%reached_rel Hij Hi Hj Hk.
    destruct (rel_two _ _ _ _ _ _ Hr Hij Hi Hj) as (Hw & l & fi & o & fj & Hvi & Hvj & Hl & Ho & Ha & Hoth).
    destruct (copy_assign_throw l o (w_heap w) k _ _ _ _ ys Hw Hl Ho Ha eq_refl Hk)
      as (h' & h1 & E & U & Hw' & Hn & Hf & Hs & l' & Ed).
    destruct (lrep_inv_none dbl _ _ _ _ Hl) as [-> ->].
    unfold l_destroy in Ed. cbn [l_head] in Ed. rewrite decide_True in Ed by done. injection Ed as <- <-.
    set (l1 := Lst PNull PNull (N.of_nat k) (l_al o)).
    exists (World h' (<[i := l1]> (w_vars w))), (World h' (delete i (w_vars w))).
    split; [|split; [|split; [|split; [|split; [|split]]]]].
    - cbn [x_step]. rewrite (proj2 (Nat.eqb_neq i j) Hij). unfold bind at 1, wget. rewrite Hvj.
      eapply upd_throw; [done|exact E].
    - cbn [list_step]. unfold l_obs, bind, wget. simpl. rewrite lookup_insert. done.
    - cbn [list_step]. unfold l_obs, bind, wget. simpl. rewrite lookup_insert. done.
    - intros Hk0. cbn [list_step]. unfold l_obs, bind, wget. simpl. rewrite lookup_insert. unfold lift, l_front.
      cbn [l_len l1 w_heap l_head]. destruct (N.eqb_spec (N.of_nat k) 0); [lia|]. done.
    - cbn [list_step]. unfold bind, wget. cbn [w_vars]. rewrite lookup_insert. unfold lift, l_destroy. cbn [l_head l1].
      rewrite decide_True by done. unfold ret, wdel. cbn [w_vars w_heap]. by rewrite delete_insert_delete.
    - pose proof (list_step_refines dbl sp w (LDel i) I Hr) as Hd. unfold gspec in Hd. cbn [safe lspec] in Hd.
      unfold look in Hd. rewrite Hi in Hd. destruct Hd as (w1 & Ew & Hr1).
      cbn [list_step] in Ew. unfold bind, wget in Ew. rewrite Hvi in Ew. unfold lift, l_destroy in Ew. cbn [l_head] in Ew.
      rewrite decide_True in Ew by done. unfold ret, wdel in Ew. cbn [w_vars w_heap] in Ew.
      injection Ew as <-. apply (leaked _ _ h' (k + 3) Hr1); simpl; done.
    - apply Hoth. intros a Ha' _. by apply Hf.
  Qed.

  (** [from_iter]: the local list is destroyed. *)
  Theorem C68_from_first sp w c i vs : reached sp w -> sp !! i = None -> vs <> [] ->
    exists w', x_step dbl c 0 (LFrom i vs) w = Ok (None, w') /\ w_vars w' = w_vars w /\ goes_on 1 sp w' /\
      others dbl w w' sp [].
  Proof.
    intros Hr%reached_rel Hi Hn. assert (Hw : hwf (w_heap w)) by by destruct Hr as [m [Hw _]].
    destruct (init_ok dbl (w_heap w) 0 Hw) as (hd & tl & h1 & E1 & Lk1 & U1).
    assert (Hw1 : hwf h1) by apply U1. set (h2 := ins h1 (raw_cell (T := T) 0)).
    assert (Lk2 : lok dbl h2 0 hd [] tl).
    { eapply lok_frame; [|exact Lk1]. intros a Ha. apply ins_frame. by eapply lok_lt. }
    assert (Hw2 : hwf h2) by by apply hwf_ins.
    destruct (destroy_ok dbl h2 0 hd [] tl Hw2 Lk2) as (l' & h3 & E3 & U3).
    assert (Hnew : forall a, a ∈ lfp hd ([] : list (N * T)) tl -> hnext (w_heap w) <= a < hnext h1).
    { intros a Ha. split; [|by eapply lok_lt]. destruct (upd_new _ _ _ _ U1 a Ha) as [?%elem_of_nil|?]; done. }
    pose proof (upd_next _ _ _ _ U1) as N1. pose proof (upd_next _ _ _ _ U3) as N3.
    eapply mk_throw; [done|done| | | | |].
    - unfold x_from_iter. rewrite xb_calls. cbn [l_al]. rewrite E1. unfold unwinding. rewrite xb_this.
      cbn [l_head]. erewrite xb_none; [|apply append_first; [done| |done|done]].
      + cbn [x_l x_h x_k]. change (ins h1 _) with h2. change (Lst (PAddr hd) (PAddr tl) 0 0) with (L 0 hd tl ([] : list (N * T))).
        rewrite E3. done.
      + eapply lok_has; [exact Lk1|]. by left.
    - apply U3.
    - simpl in N3. lia.
    - intros a Ha. rewrite (upd_frame _ _ _ _ U3).
      + unfold h2. rewrite ins_frame by lia. apply (upd_frame _ _ _ _ U1); [done|]. apply not_elem_of_nil.
      + simpl. lia.
      + intros Hin. apply Hnew in Hin. lia.
    - rewrite <-!size_dom. assert (Hd : dom (hmap h3) = {[hnext h1]} ∪ dom (hmap (w_heap w))).
      { apply set_eq. intros a. rewrite elem_of_union, elem_of_singleton, !elem_of_dom, (upd_dom _ _ _ _ U3).
        change (is_Some (hmap h2 !! a)) with (has h2 a). unfold h2. rewrite has_ins.
        change (has h1 a) with (is_Some (hmap h1 !! a)). rewrite (upd_dom _ _ _ _ U1). split.
        - intros [[[->|[[? _]|?]] ?]|?%elem_of_nil]; [by left|by right|done|done].
        - intros [->|Ha].
          + left. split; [by left|]. intros Hin. apply Hnew in Hin. lia.
          + left. split; [right; left; split; [done|apply not_elem_of_nil]|]. intros Hin. apply Hnew in Hin. apply Hw in Ha. lia. }
      rewrite Hd, size_union, size_singleton; [lia|]. intros a. rewrite elem_of_singleton, elem_of_dom. intros -> Ha. apply Hw in Ha. lia.
  Qed.
  Theorem C68_from_torn sp w c k i vs : reached sp w -> sp !! i = None -> (0 < k < length vs)%nat ->
    x_step dbl c k (LFrom i vs) w = Err UB.
  Proof.
    intros Hr%reached_rel Hi Hk. assert (Hw : hwf (w_heap w)) by by destruct Hr as [m [Hw _]].
    assert (Hv : w_vars w !! i = None) by (destruct Hr as [m Hm]; by apply (world_ok_none _ _ _ _ _ Hm)).
    destruct (init_ok dbl (w_heap w) 0 Hw) as (hd & tl & h1 & E1 & Lk1 & U1).
    assert (Hw1 : hwf h1) by apply U1.
    destruct (append_at true vs (L 0 hd tl ([] : list (N * T))) h1 hd [] [] tl k Hw1 Lk1 ltac:(done) Hk)
      as (h' & ms & Ea & O & _).
    cbn [x_step]. unfold x_mk, bind, wnew. rewrite Hv. unfold x_from_iter. rewrite xb_calls. cbn [l_al]. rewrite E1.
    unfold unwinding. rewrite xb_this. cbn [l_head]. erewrite xb_none; [|exact Ea]. cbn [x_l x_h].
    change (counted true (L 0 hd tl ([] : list (N * T))) k) with (Lst (PAddr hd) (PAddr tl) (uadd 0 (N.of_nat k)) 0).
    by erewrite off_destroy.
  Qed.

  (** [push_front], [push_back], [emplace_front], [emplace_back] and [resize]
      are [noexcept]: the program ends. *)
  Definition grows (o : lop T) : bool :=
    match o with LPushF _ _ | LPushB _ _ | LResize _ _ _ => true | _ => false end.
  Lemma extend_throw vs : forall p tl l h k, hwf h -> has h p -> has h tl -> (k < length vs)%nat ->
    exists s, x_extend_loop dbl (PAddr p) (PAddr tl) vs (Lts l h k) = Ok (None, s).
  Proof.
    induction vs as [|v vs IH]; intros p tl l h k Hw Hp Ht Hk; [simpl in Hk; lia|].
    destruct k as [|k]; cbn [x_extend_loop].
    { rewrite (xb_none _ _ _ _ (construct_none v l h)). by eexists. }
    rewrite (xb_some _ _ _ _ _ (construct_some v l h _)).
    assert (H1p : has (ins h (dcell (l_al l) v)) p) by (apply has_ins; by right).
    assert (H1a : has (ins h (dcell (l_al l) v)) (hnext h)) by (apply has_ins; by left).
    assert (H1t : has (ins h (dcell (l_al l) v)) tl) by (apply has_ins; by right).
    rewrite xb_mem, (set_next_ok dbl _ _ _ H1p H1a), xb_mem.
    rewrite set_next_ok by (by apply has_sn).
    apply IH; [by apply hwf_sn, hwf_sn, hwf_ins|by apply has_sn, has_sn|by apply has_sn, has_sn|simpl in Hk; lia].
  Qed.
  Theorem C68_noexcept sp w c k o sp' x : reached sp w -> grows o = true -> gspec dbl sp o = SOk sp' x ->
    (k < copies sp o)%nat -> x_step dbl c k o w = Err Panic.
  Proof.
    intros Hr%reached_rel Ho E Hk.
    assert (Hpush : forall i v (g : lptr -> LM unit) l, w_vars w !! i = Some l ->
      x_upd 0 i (xbind (noexcept (xbind (x_construct_node v) g)) (fun _ => xret OUnit)) w = Err Panic).
    { intros i v g l Hv. unfold x_upd, bind, wget. rewrite Hv. unfold xbind at 1. unfold noexcept.
      by rewrite (xb_none _ _ _ _ (construct_none v l (w_heap w))). }
    unfold gspec in E. destruct o; try done; cbn [safe lspec copies x_step] in *.
    - unfold live in E. destruct (sp !! i) as [[al [xs|]]|] eqn:Hi; try done. unfold need in E.
      destruct (N.ltb_spec n W) as [Hn|]; [|done].
      destruct (rel_any _ _ _ _ Hr Hi) as (Hw & l & fp & Hv & Hl & _).
      destruct (lrep_inv dbl _ _ _ _ _ Hl) as (hd & tl & ns & -> & <- & Lk & HW & ->).
      rewrite (contents_of _ _ _ Hi) in Hk. cbn [snd default id] in Hk. rewrite vls_length in Hk.
      unfold x_upd, bind, wget. rewrite Hv. unfold xbind at 1, x_resize, noexcept. rewrite xb_this. cbn [l_len L].
      destruct (N.eqb_spec n 0); [lia|]. destruct (N.eqb_spec n (nlen ns)); [lia|].
      destruct (N.ltb_spec (nlen ns) n); [|lia].
      unfold x_extend. rewrite xb_this, xb_mem. cbn [l_len l_tail l_head L].
      assert (Ep : (if dbl then get_prev (PAddr tl) else stl_advance (N.to_nat (nlen ns)) (PAddr hd)) (w_heap w) = Ok (PAddr (endp hd ns), w_heap w)).
      { rewrite <-(app_nil_r ns) in Lk. destruct (bool_dec dbl true) as [Hd|Hd].
        - pose proof (prev_at dbl _ _ _ _ _ _ Hd Lk) as El. rewrite Hd. exact El.
        - apply not_true_is_false in Hd. rewrite Nat2N.id.
          pose proof (advance_pos dbl _ _ _ _ _ _ _ Lk (lfp_end _ _ _ _)) as El. rewrite Hd. exact El. }
      rewrite Ep.
      destruct (extend_throw (replicate (N.to_nat (usub n (nlen ns))) v) (endp hd ns) tl (L al hd tl ns) (w_heap w) k) as [s Es].
      + done.
      + pose proof (end_in hd ns [] tl) as He. rewrite app_nil_r in He. eapply lok_has; [done|exact He].
      + eapply lok_has; [done|]. apply tl_in.
      + rewrite replicate_length, usub_small by lia. lia.
      + by rewrite (xb_none _ _ _ _ Es).
    - unfold live in E. destruct (sp !! i) as [[al [xs|]]|] eqn:Hi; try done.
      destruct (rel_any _ _ _ _ Hr Hi) as (_ & l & fp & Hv & _). replace k with 0%nat by lia. by eapply Hpush.
    - assert (Hd : exists b, b = dbl) by by eexists. destruct Hd as [b Hd]. unfold need in E. rewrite <-Hd in E at 1.
      destruct b; [|done]. unfold live in E. destruct (sp !! i) as [[al [xs|]]|] eqn:Hi; try done.
      destruct (rel_any _ _ _ _ Hr Hi) as (_ & l & fp & Hv & _). replace k with 0%nat by lia. by eapply Hpush.
  Qed.

  (** Whatever the call and whichever element throws: the lists the call does
      not write to keep their elements, in the same nodes. *)
  Definition target (o : lop T) : list nat :=
    match o with
    | LIns i _ _ | LInsA i _ _ | LEmp i _ _ | LEmpA i _ _ | LIlist i _ | LCopyAsg i _ => [i]
    | _ => []
    end.
  Lemma others_less w w' sp is js : (forall i, i ∈ is -> i ∈ js) -> others dbl w w' sp is -> others dbl w w' sp js.
  Proof. intros Hs Ho j al ys Hj. apply Ho. intros Hi. by apply Hj, Hs. Qed.
  Theorem C68_others_partial sp w c k o sp' x w' : reached sp w -> ordered o -> sized o -> gspec dbl sp o = SOk sp' x ->
    x_step dbl c k o w = Ok (None, w') -> others dbl w w' sp (target o).
  Proof.
    intros Hr Hord Hz E Ex.
    assert (Hk : (k < copies sp o)%nat).
    { destruct (Nat.lt_ge_cases k (copies sp o)) as [?|Hge]; [done|exfalso].
      rewrite (C68_no_throw dbl sp w c k o Hr Hz Hge) in Ex.
      pose proof (list_step_refines dbl sp w o Hord (reached_rel _ _ _ Hr)) as Ha. rewrite E in Ha.
      destruct Ha as (w1 & E1 & _). unfold quiet, bind, ret in Ex. rewrite E1 in Ex. done. }
    assert (Hsame : forall is, (exists v, x_step dbl c k o w = Ok (None, v) /\ others dbl w v sp is) ->
      (forall i, i ∈ is -> i ∈ target o) -> others dbl w w' sp (target o)).
    { intros is (v & Ev & Ho) Hs. rewrite Ex in Ev. injection Ev as ->. by eapply others_less. }
    destruct (builds o) eqn:Hb.
    { destruct (C68_constructors sp w c k o sp' x Hr Hb E Hk) as (v & Ev & _ & _ & Ho).
      eapply (Hsame []); [by exists v|]. by intros i ?%elem_of_nil. }
    destruct (grows o) eqn:Hg.
    { rewrite (C68_noexcept sp w c k o sp' x Hr Hg E Hk) in Ex. done. }
    destruct (inserts o) as [i|] eqn:Hi.
    { assert (Ht : target o = [i]) by (destruct o; try done; by injection Hi as ->).
      destruct k as [|k].
      - destruct (C68_insert_first sp w c o i sp' x Hr Hi E Hk) as (v & Ev & _ & _ & Ho).
        eapply (Hsame []); [by exists v|]. by intros ? ?%elem_of_nil.
      - destruct (C68_insert_torn sp w c (S k) o i sp' x Hr Hi E ltac:(lia)) as (v & Ev & _ & Ho & _).
        eapply (Hsame [i]); [by exists v|]. by rewrite Ht. }
    destruct o as [| | |i vs| | | | |i j| |i vs| | | | | | | | | | | | | | | | | | | | | | | | | | | | | | | | | | | | |]; try done;
      try (simpl in Hk; lia); unfold gspec in E; cbn [safe lspec copies target] in *.
    - unfold fresh in E. destruct (sp !! i) eqn:Hs; [done|]. destruct k as [|k].
      + destruct (C68_from_first sp w c i vs Hr Hs) as (v & Ev & _ & _ & Ho); [by intros ->; simpl in Hk; lia|].
        eapply (Hsame []); [by exists v|done].
      + rewrite (C68_from_torn sp w c (S k) i vs Hr Hs ltac:(lia)) in Ex. done.
    - unfold look in E. destruct (sp !! i) as [[al ox]|] eqn:Hsi; [|done]. destruct (sp !! j) as [[al' oy]|] eqn:Hsj; [|done].
      destruct (Nat.eqb_spec i j) as [->|Hij]; [lia|]. rewrite (contents_of _ _ _ Hsj) in Hk.
      destruct oy as [ys|]; [|simpl in Hk; lia]. cbn [snd default id] in Hk. destruct ox as [xs|].
      + destruct (C68_assign_torn sp w c k i j _ _ _ _ Hr Hij Hsi Hsj Hk) as (v & Ev & _ & Ho & _).
        eapply (Hsame [i]); [by exists v|done].
      + destruct (C68_assign_moved sp w c k i j _ _ _ Hr Hij Hsi Hsj Hk) as (v & v2 & Ev & _ & _ & _ & _ & _ & Ho).
        eapply (Hsame [i]); [by exists v|done].
    - unfold live in E. destruct (sp !! i) as [[al [xs|]]|] eqn:Hsi; try done. destruct k as [|k].
      + destruct (C68_ilist_first sp w c i al xs vs Hr Hsi) as (v & Ev & _ & Ho); [by intros ->; simpl in Hk; lia|].
        eapply (Hsame [i]); [by exists v|done].
      + destruct (C68_ilist_torn sp w c (S k) i al xs vs Hr Hsi ltac:(lia)) as (v & Ev & _ & Ho & _).
        eapply (Hsame [i]); [by exists v|done].
  Qed.
End Throw.

(** ** The claim, and where it fails *)
Section Refuted.
  Context (dbl : bool).
  Notation lstate := (gmap nat (N * option (list N))).
  Notation world := (world (cell N) lst).

  (** All variables can be destroyed, and then nothing is left in memory. *)
  Definition tidy (w : world) : bool :=
    match run_ops (list_step dbl) ((fun p => LDel (fst p)) <$> map_to_list (w_vars w)) w with
    | Ok (_, w') => (size (hmap (w_heap w')) =? 0)%nat
    | Err _ => false
    end.
  (** An exception from an element is something a program recovers from. *)
  Definition throw_claim : Prop := forall (ops : list (lop N)) o c k sp outs sp' x w, Forall ordered ops ->
    srun (gspec dbl) ∅ ops = SOk sp outs -> run_ops (list_step dbl) ops winit = Ok (outs, w) ->
    gspec dbl sp o = SOk sp' x -> exists r w', x_step dbl c k o w = Ok (r, w') /\ tidy w' = true.

  Definition xstart : list (lop N) :=
    [LRange 0%nat 0 [5;0;6]; LRange 1%nat 0 [7;8;9;4]; LNew 2%nat 0; LMove 3%nat 2%nat; LPushF 0%nat 1].
  Definition xafter (o : lop N) (k : nat) : outcome (option (lout N) * world) :=
    match run_ops (list_step dbl) xstart winit with
    | Ok (_, w) => x_step dbl true k o w
    | Err e => Err e
    end.
  Definition verdict (o : lop N) (k : nat) : option bool :=
    match xafter o k with Ok (None, w) => Some (tidy w) | Ok (Some _, w) => None | Err _ => Some false end.
  Definition allowed (o : lop N) : bool :=
    match srun (gspec dbl) ∅ (xstart ++ [o]) with SOk _ _ => true | _ => false end.
End Refuted.

Theorem C68_refuted dbl : ~ throw_claim dbl.
Proof.
  intros H. destruct (run_ops (list_step dbl) [LRange 0%nat 0 [5;6]] winit) as [[outs w]|] eqn:E;
    [|destruct dbl; vm_compute in E; discriminate E].
  destruct (srun (gspec dbl) ∅ [LRange 0%nat 0 [5;6]]) as [sp outs'| |] eqn:Es;
    [|destruct dbl; vm_compute in Es; discriminate Es..].
  assert (outs' = outs) as ->.
  { destruct dbl; vm_compute in E, Es; injection E as <- _; by injection Es as _ <-. }
  destruct (gspec dbl sp (LEmpA 0%nat 0 1)) as [sp' x| |] eqn:Eg.
  - edestruct (H [LRange 0%nat 0 [5;6]] (LEmpA 0%nat 0 1) true 0%nat) as (r & w' & Ex & Ht); [by repeat constructor|exact Es|exact E|exact Eg|].
    destruct dbl; vm_compute in E; injection E as _ <-; vm_compute in Ex; injection Ex as _ <-; vm_compute in Ht; discriminate Ht.
  - destruct dbl; vm_compute in Es; injection Es as <- _; vm_compute in Eg; discriminate Eg.
  - destruct dbl; vm_compute in Es; injection Es as <- _; vm_compute in Eg; discriminate Eg.
Qed.
(** Every way it fails, each after the same well-behaved start. *)
Theorem C68_refuted_cases dbl :
  Forall (fun '(o, k) => allowed dbl o = true /\ verdict dbl o k = Some false)
    [ (LRange 4%nat 0 [1;2], 1%nat); (LCount 4%nat 0 3 1, 0%nat); (LCopy 4%nat 1%nat, 3%nat); (LCopyAl 4%nat 1%nat 7, 2%nat);
      (LFrom 4%nat [1;2], 0%nat); (LFrom 4%nat [1;2], 1%nat);
      (LCopyAsg 0%nat 1%nat, 0%nat); (LCopyAsg 0%nat 1%nat, 3%nat); (LCopyAsg 2%nat 1%nat, 2%nat);
      (LIlist 0%nat [1;2], 0%nat); (LIlist 0%nat [1;2], 1%nat);
      (LEmpA 0%nat 1%nat 3, 0%nat); (LInsA 0%nat 1%nat [3;4], 0%nat); (LInsA 0%nat 1%nat [3;4], 1%nat);
      (LPushF 0%nat 1, 0%nat); (LResize 0%nat 6 1, 1%nat) ].
Proof. destruct dbl; repeat (constructor; [by vm_compute|]); constructor. Qed.
Theorem C68_refuted_double :
  Forall (fun '(o, k) => allowed true o = true /\ verdict true o k = Some false)
    [ (LEmp 0%nat 1%nat 3, 0%nat); (LIns 0%nat 5%nat [3;4], 0%nat); (LIns 0%nat 2%nat [3;4], 1%nat); (LPushB 0%nat 1, 0%nat) ].
Proof. repeat (constructor; [by vm_compute|]); constructor. Qed.

(** The hypotheses are met. *)
Definition xstate (dbl : bool) : gmap nat (N * option (list N)) :=
  match srun (gspec dbl) ∅ xstart with SOk sp _ => sp | _ => ∅ end.
Example C68_ex dbl : exists w, reached dbl (xstate dbl) w /\
  map_to_list (xstate dbl) = [(0%nat, (0, Some [1;5;0;6])); (1%nat, (0, Some [7;8;9;4])); (3%nat, (0, Some [])); (2%nat, (0, None))] /\
  copies (xstate dbl) (LCopyAsg 0%nat 1%nat) = 4%nat /\ copies (xstate dbl) (LResize 0%nat 6 1) = 2%nat.
Proof.
  destruct (srun (gspec dbl) ∅ xstart) as [sp outs| |] eqn:E; [|destruct dbl; vm_compute in E; discriminate E..].
  destruct (reach dbl xstart sp outs) as (w & Ew & _); [by repeat constructor|exact E|].
  exists w. split.
  - exists xstart, outs. split; [by repeat constructor|]. unfold xstate. rewrite E. by split.
  - clear E Ew. destruct dbl; repeat split; vm_compute; reflexivity.
Qed.

Print Assumptions C68_no_throw.
Print Assumptions C68_constructors.
Print Assumptions C68_insert_first.
Print Assumptions C68_insert_torn.
Print Assumptions C68_ilist_first.
Print Assumptions C68_ilist_torn.
Print Assumptions C68_assign_torn.
Print Assumptions C68_assign_moved.
Print Assumptions C68_from_first.
Print Assumptions C68_from_torn.
Print Assumptions C68_noexcept.
Print Assumptions C68_others_partial.
Print Assumptions C68_refuted.
Print Assumptions C68_refuted_cases.
Print Assumptions C68_refuted_double.
