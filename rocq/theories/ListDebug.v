(** * ListDebug: lists in a debug build (C75), lists that have been moved from (C76)

    Source: include/mstl/global.h:12-22, include/mstl/collection/linked_list.h.
    Everywhere else [MSTL_DEBUG_ASSERT] is off.  Here it is on: a failing
    assertion is [MSTL_PANIC].  The assertions of the node classes (349, 355,
    380: [data != nullptr]) are left out: [construct_node] has just allocated
    the data and [destroy_node] tests it before the call. *)
From Verif Require Import Base World Machine IterSpec ListModel ListSeg ListOps ListOps2 ListOps3 ListOps4 ListOps5
  SortSpec ListSort ListStep ListSpec ListRefine ListNodes ListBugs ListAlias ListProps.
Local Open Scope N_scope.
Local Notation nlen l := (N.of_nat (length l)).

Section Model.
  Context {T : Type} (dbl : bool).
  Notation H := (heap (cell T)).
  Notation HM := (M H).

  (** global.h:12-22 [MSTL_DEBUG_ASSERT]. *)
  Definition dassert (b : bool) : HM unit := if b then ret tt else fail Panic.
  Definition notnull (p : lptr) : bool := bool_decide (p <> PNull).

  (** linked_list.h:1828-1830 [copy_impl]. *)
  Definition d_copy_impl (al : N) (o : lst) : HM lst := dassert (notnull (l_head o)) ;;; copy_impl dbl al o.
  (** linked_list.h:579-587. *)
  Definition d_copy (o : lst) : HM lst := d_copy_impl (l_al o) o.
  Definition d_copy_alloc (al : N) (o : lst) : HM lst := d_copy_impl al o.
  (** linked_list.h:601-610: the contents go before the assertion is met. *)
  Definition d_copy_assign (l o : lst) : HM lst := l_destroy dbl l ;;; d_copy_impl (l_al o) o.
  (** linked_list.h:533-534. *)
  Definition d_move_alloc (al : N) (o : lst) : HM (lst * lst) :=
    dassert (notnull (l_head o)) ;;; l_move_alloc dbl al o.

  (** linked_list.h:943, 972 [insert_after]. *)
  Definition d_insert_after (l : lst) (pos : lptr) (vs : list T) : HM (lst * lptr) :=
    dassert (bool_decide (pos <> l_tail l)) ;;; l_insert_after dbl l pos vs.
  (** linked_list.h:1009 [emplace_after]. *)
  Definition d_emplace_after (l : lst) (pos : lptr) (v : T) : HM (lst * lptr) :=
    dassert (bool_decide (pos <> l_tail l)) ;;; l_emplace_after dbl l pos v.
  (** linked_list.h:1030 [erase_after]. *)
  Definition d_erase_after (l : lst) (pos : lptr) : HM (lst * lptr) :=
    dassert (bool_decide (pos <> l_tail l)) ;;; l_erase_after dbl l pos.
  (** linked_list.h:1056-1063: a loop around 1030. *)
  Fixpoint d_erase_after_loop (fuel : nat) (l : lst) (first last : lptr) : HM lst :=
    match fuel with
    | O => fail Fuel
    | S fuel =>
        if decide (first = last) then ret l
        else
          n <-- get_next first ;;
          if decide (n = last) then ret l
          else '(l', _) <-- d_erase_after l first ;; d_erase_after_loop fuel l' first last
    end.
  Definition d_erase_after_range (l : lst) (first last : lptr) : HM (lst * lptr) :=
    fuel <-- nodes_in_memory ;;
    l' <-- d_erase_after_loop fuel l first last ;; ret (l', last).
  (** linked_list.h:1081 [emplace]. *)
  Definition d_emplace (l : lst) (pos : lptr) (v : T) : HM (lst * lptr) :=
    dassert (bool_decide (pos <> l_head l)) ;;; l_emplace dbl l pos v.
  (** linked_list.h:1151-1168 [insert(pos, count, val)], asserting at 1153;
      the [insert] of a range (1183-1201) asserts nothing. *)
  Definition d_insert_n (l : lst) (pos : lptr) (n : N) (v : T) : HM (lst * lptr) :=
    dassert (bool_decide (pos <> l_head l)) ;;; l_insert dbl l pos (replicate (N.to_nat n) v).

  (** linked_list.h:1308-1314 [pop_front]: [head->next] is what is asserted
      not to be null. *)
  Definition d_pop_front (l : lst) : HM lst :=
    tmp <-- get_next (l_head l) ;; dassert (notnull tmp) ;;; l_pop_front dbl l.
  (** linked_list.h:1370-1371 [pop_back]. *)
  Definition d_pop_back (l : lst) : HM lst :=
    dassert (notnull (l_head l)) ;;; dassert (negb (l_len l =? 0)) ;;; l_pop_back dbl l.
  (** linked_list.h:1467-1468, 1511-1512 [merge], before the lists are
      compared. *)
  Definition d_heads (l o : lst) : HM unit := dassert (notnull (l_head l)) ;;; dassert (notnull (l_head o)).
  Definition d_merge (rv : bool) (l o : lst) (lt : T -> T -> bool) : HM (lst * lst) :=
    d_heads l o ;;; (if rv then l_merge_rv dbl l o lt else l_merge dbl l o lt).
  (** linked_list.h:1613 [remove_if]; 1641, 1661 [reverse]; 1692 [unique];
      1731 [sort]. *)
  Definition d_remove_if (l : lst) (f : T -> bool) : HM (lst * N) :=
    dassert (notnull (l_head l)) ;;; l_remove_if dbl l f.
  Definition d_reverse (l : lst) : HM lst := dassert (notnull (l_head l)) ;;; l_reverse dbl l.
  Definition d_unique (l : lst) (r : T -> T -> bool) : HM (lst * N) :=
    dassert (notnull (l_head l)) ;;; l_unique dbl l r.
  Definition d_sort (l : lst) (lt : T -> T -> bool) : HM lst :=
    dassert (notnull (l_head l)) ;;; l_sort dbl l lt.

  (** linked_list.h:1987-2015 [ListIntoIter], around 1310 and 1370-1371. *)
  Definition d_into_next (l : lst) : HM (lst * option T) :=
    if l_len l =? 0 then ret (l, None)
    else
      f <-- l_front l ;;
      l' <-- d_pop_front l ;; ret (l', f).
  Definition d_into_prev (l : lst) : HM (lst * option T) :=
    if l_len l =? 0 then ret (l, None)
    else
      b <-- l_back l ;;
      l' <-- d_pop_back l ;; ret (l', b).
  Fixpoint d_into_run (l : lst) (calls : list bool) : HM (lst * list (option T)) :=
    match calls with
    | [] => ret (l, [])
    | c :: r =>
        '(l', x) <-- (if c : bool then d_into_next l else d_into_prev l) ;;
        '(l2, xs) <-- d_into_run l' r ;; ret (l2, x :: xs)
    end.
  Definition d_into_iter (l : lst) (calls : list bool) : HM (lst * list (option T)) :=
    let '(it, l') := l_move l in
    '(it', xs) <-- d_into_run it calls ;;
    l_destroy dbl it' ;;; ret (l', xs).

  (** Calls: those of ListStep.v ([LIns] is the [insert] of a range there) and
      [insert(pos, count, val)]. *)
  Inductive dop := DOp (o : lop T) | DInsN (i k : nat) (n : N) (v : T).
  Notation WM := (M (world (cell T) lst)).
  Definition release_step (o : dop) : WM (lout T) :=
    match o with
    | DOp o => list_step dbl o
    | DInsN i k n v => list_step dbl (LIns i k (replicate (N.to_nat n) v))
    end.
  Definition debug_step (o : dop) : WM (lout T) :=
    match o with
    | DOp (LCopy i j) => o <-- wget j ;; l_mk i (d_copy o)
    | DOp (LCopyAl i j al) => o <-- wget j ;; l_mk i (d_copy_alloc al o)
    | DOp (LMoveAl i j al) =>
        wnew i ;;; o <-- wget j ;;
        '(l, o') <-- lift (d_move_alloc al o) ;; wset j o' ;;; wset i l ;;; ret OUnit
    | DOp (LCopyAsg i j) => l_two_ne i j (fun l o => l' <-- d_copy_assign l o ;; ret (l', o))
    | DOp (LPopF i) => l_upd i d_pop_front
    | DOp (LPopB i) => l_upd i d_pop_back
    | DOp (LEmpA i k v) => l_at i k (fun l p => d_emplace_after l p v)
    | DOp (LInsA i k vs) => l_at i k (fun l p => d_insert_after l p vs)
    | DOp (LEraA i k) => l_at i k d_erase_after
    | DOp (LEraAR i k1 k2) => l_at2 i k1 k2 d_erase_after_range
    | DOp (LEmp i k v) => l_at i k (fun l p => d_emplace l p v)
    | DInsN i k n v => l_at i k (fun l p => d_insert_n l p n v)
    | DOp (LMer i j rv lt) =>
        if (i =? j)%nat then l <-- wget i ;; lift (d_heads l l) ;;; ret OUnit
        else l_two i j (fun l o => d_merge rv l o lt)
    | DOp (LSrt i lt) => l_upd i (fun l => d_sort l lt)
    | DOp (LRev i) => l_upd i d_reverse
    | DOp (LRemIf i f) => l_updo i (fun l => '(l', n) <-- d_remove_if l f ;; ret (l', ONum n))
    | DOp (LUniq i r) => l_updo i (fun l => '(l', n) <-- d_unique l r ;; ret (l', ONum n))
    | DOp (LInto i calls) => l_updo i (fun l => '(l', x) <-- d_into_iter l calls ;; ret (l', OOpts x))
    | DOp o => list_step dbl o
    end.

  (** ** Specification *)

  (** When a debug build stops, in terms of the sequences. *)
  Notation lstate := (gmap nat (N * option (list T))).
  Definition exists_ (sp : lstate) (i : nat) : bool := match sp !! i with Some _ => true | None => false end.
  Definition moved (sp : lstate) (i : nat) : bool := match sp !! i with Some (_, None) => true | _ => false end.
  (** Position [k] is [end()]; a list that has been moved from has one
      position, which is [before_begin()] and [end()]. *)
  Definition at_end (sp : lstate) (i k : nat) : bool :=
    match sp !! i with
    | Some (_, Some xs) => (k =? length xs + 1)%nat
    | Some (_, None) => (k =? 0)%nat
    | None => false
    end.
  Definition fires (sp : lstate) (o : dop) : bool :=
    match o with
    | DOp (LCopy i j) | DOp (LCopyAl i j _) | DOp (LMoveAl i j _) => negb (exists_ sp i) && moved sp j
    | DOp (LCopyAsg i j) => exists_ sp i && negb (i =? j)%nat && moved sp j
    | DOp (LPopB i) => match sp !! i with Some (_, None) | Some (_, Some []) => true | _ => false end
    | DOp (LEmpA i k _) | DOp (LInsA i k _) | DOp (LEraA i k) => at_end sp i k
    | DOp (LEraAR i k1 k2) =>
        match sp !! i with
        | Some (_, Some xs) => (k1 =? length xs + 1)%nat && (k2 <=? length xs)%nat
        | _ => false
        end
    | DOp (LEmp i k _) | DInsN i k _ _ => exists_ sp i && (k =? 0)%nat
    | DOp (LMer i j _ _) => exists_ sp i && exists_ sp j && (moved sp i || moved sp j)
    | DOp (LSrt i _) | DOp (LRev i) | DOp (LRemIf i _) | DOp (LUniq i _) => moved sp i
    | _ => false
    end.
  (** What both builds should do. *)
  Definition rspec (sp : lstate) (o : dop) : sres lstate (lout T) :=
    match o with
    | DOp o => gspec dbl sp o
    | DInsN i k n v => gspec dbl sp (LIns i k (replicate (N.to_nat n) v))
    end.
  Definition dspec (sp : lstate) (o : dop) : sres lstate (lout T) :=
    if fires sp o then SPanic else rspec sp o.

  (** The members that only doubly linked lists have. *)
  Definition available (o : dop) : bool :=
    match o with
    | DInsN _ _ _ _ => dbl
    | DOp (LPushB _ _) | DOp (LPopB _) | DOp (LEmp _ _ _) | DOp (LIns _ _ _) | DOp (LEra _ _) | DOp (LEraR _ _ _)
    | DOp (LSpl _ _ _ _) | DOp (LBack _) | DOp (LBackU _) | DOp (LItemsBack _) => dbl
    | DOp (LIter _ calls) | DOp (LInto _ calls) => dbl || forward calls
    | _ => true
    end.
  Definition dordered (o : dop) : Prop := match o with DOp o => ordered o | _ => True end.
End Model.
Global Arguments dop : clear implicits.

Section Proofs.
  Context {T : Type} (dbl : bool).
  Notation lstate := (gmap nat (N * option (list T))).
  Notation lok := (lok dbl).
  Notation rel := (rel (T := T) dbl).
  Notation H := (heap (cell T)).
  Implicit Types (h : H) (ns : list (N * T)) (w : world (cell T) lst) (sp : lstate) (xs : list T).

  Lemma dassert_true b (A : Type) (f : M H A) h : b = true -> (dassert b ;;; f) h = f h.
  Proof. by intros ->. Qed.
  Lemma dassert_false b (A : Type) (f : M H A) h : b = false -> (dassert b ;;; f) h = Err Panic.
  Proof. by intros ->. Qed.

  Lemma rel_none sp w i : rel sp w -> sp !! i = None -> w_vars w !! i = None.
  Proof. intros [m Hw] Hi. by destruct (world_ok_none _ _ _ _ _ Hw Hi). Qed.
  Lemma rel_moved sp w i al : rel sp w -> sp !! i = Some (al, None) -> w_vars w !! i = Some (Lst PNull PNull 0 al).
  Proof.
    intros [m Hw] Hi. destruct (world_ok_lookup_spec _ _ _ _ _ _ Hw Hi) as (e & Hm & He & Hv & Hr).
    apply lrep_inv_none in Hr as [E _]. by rewrite E in Hv.
  Qed.
  (** A variable and what it stands for. *)
  Inductive shape sp w i : Prop :=
  | sh_none : sp !! i = None -> w_vars w !! i = None -> shape sp w i
  | sh_moved al : sp !! i = Some (al, None) -> w_vars w !! i = Some (Lst PNull PNull 0 al) -> shape sp w i
  | sh_live al hd tl ns : sp !! i = Some (al, Some (vls ns)) -> w_vars w !! i = Some (L al hd tl ns) ->
      lok (w_heap w) al hd ns tl -> nlen ns < W -> shape sp w i.
  Lemma shape_of sp w i : rel sp w -> shape sp w i.
  Proof.
    intros Hr. destruct (sp !! i) as [[al [xs|]]|] eqn:Hi.
    - destruct (rel_live dbl _ _ _ _ _ Hr Hi) as (_ & hd & tl & ns & V & X & Lk & HW & _). subst xs. by eapply sh_live.
    - eapply sh_moved; [done|]. by eapply rel_moved.
    - apply sh_none; [done|]. by eapply rel_none.
  Qed.

  Lemma upd_err (f : lst -> M H lst) w i l e : w_vars w !! i = Some l -> f l (w_heap w) = Err e -> l_upd (T := T) i f w = Err e.
  Proof. intros V E. unfold l_upd, l_updo, bind at 1, wget. rewrite V. unfold lift, bind. by rewrite E. Qed.
  Lemma updo_ext (f g : lst -> M H (lst * lout T)) w i : (forall l, w_vars w !! i = Some l -> f l (w_heap w) = g l (w_heap w)) ->
    l_updo (T := T) i f w = l_updo i g w.
  Proof.
    intros E. unfold l_updo, bind, wget. destruct (w_vars w !! i) as [l|] eqn:Hl; [|done].
    unfold lift. by rewrite (E l eq_refl).
  Qed.
  Lemma updo_err (f : lst -> M H (lst * lout T)) w i l e : w_vars w !! i = Some l -> f l (w_heap w) = Err e -> l_updo (T := T) i f w = Err e.
  Proof. intros V E. unfold l_updo, bind, wget. rewrite V. unfold lift. by rewrite E. Qed.
  Lemma updo_none (f : lst -> M H (lst * lout T)) w i : w_vars w !! i = None -> l_updo (T := T) i f w = Err UB.
  Proof. intros V. unfold l_updo, bind, wget. by rewrite V. Qed.
  Lemma at_err (f : lst -> lptr -> M H (lst * lptr)) w i k l p e : w_vars w !! i = Some l ->
    stl_advance k (l_head l) (w_heap w) = Ok (p, w_heap w) -> f l p (w_heap w) = Err e -> l_at (T := T) i k f w = Err e.
  Proof. intros V Ea E. eapply updo_err; [exact V|]. unfold bind. by rewrite Ea, E. Qed.
  Lemma at2_ext (f g : lst -> lptr -> lptr -> M H (lst * lptr)) w i k1 k2 :
    (forall l p1 p2, w_vars w !! i = Some l ->
      stl_advance k1 (l_head l) (w_heap w) = Ok (p1, w_heap w) -> stl_advance k2 (l_head l) (w_heap w) = Ok (p2, w_heap w) ->
      f l p1 p2 (w_heap w) = g l p1 p2 (w_heap w)) ->
    l_at2 (T := T) i k1 k2 f w = l_at2 i k1 k2 g w.
  Proof.
    intros E. apply updo_ext. intros l V. apply bind_ext. intros p1 h1 E1. pose proof (advance_same _ _ _ _ _ E1) as ->.
    apply bind_ext. intros p2 h2 E2. pose proof (advance_same _ _ _ _ _ E2) as ->. unfold bind at 1 3. by rewrite (E l p1 p2 V E1 E2).
  Qed.
  Lemma at2_err (f : lst -> lptr -> lptr -> M H (lst * lptr)) w i k1 k2 l p1 p2 e : w_vars w !! i = Some l ->
    stl_advance k1 (l_head l) (w_heap w) = Ok (p1, w_heap w) -> stl_advance k2 (l_head l) (w_heap w) = Ok (p2, w_heap w) ->
    f l p1 p2 (w_heap w) = Err e -> l_at2 (T := T) i k1 k2 f w = Err e.
  Proof. intros V E1 E2 E. eapply updo_err; [exact V|]. unfold bind. by rewrite E1, E2, E. Qed.

  (** ** Positions *)
  Lemma get_next_bad h (p : lptr) e : get_next p h = Err e -> e = UB.
  Proof.
    unfold get_next, bind. destruct p; [by intros [= <-]..|]. unfold rd, hread. destruct (hmap h !! a); [|by intros [= <-]].
    unfold defd. by destruct (n_next _); [intros [= <-]|..].
  Qed.
  Lemma advance_bad k : forall (p : lptr) h e, stl_advance k p h = Err e -> e = UB.
  Proof.
    induction k as [|k IH]; intros p h e E; [done|]. cbn [stl_advance] in E. unfold bind in E.
    destruct (get_next p h) as [[q h']|] eqn:E1; [by eapply IH|]. injection E as <-. by eapply get_next_bad.
  Qed.
  Lemma advance_null k (p : lptr) h h' : stl_advance k PNull h = Ok (p, h') -> k = 0%nat /\ p = PNull.
  Proof. destruct k as [|k]; [|done]. by intros [= <-]. Qed.
  Lemma advance_end h al hd ns tl : lok h al hd ns tl -> stl_advance (S (length ns)) (PAddr hd) h = Ok (PAddr tl, h).
  Proof. intros Lk. rewrite (advance_split dbl _ _ _ _ _ _ Lk) by done. by rewrite drop_all. Qed.
  Lemma lok_sep h al hd (n1 n2 : list (N * T)) tl : lok h al hd (n1 ++ n2) tl -> startp n2 tl <> hd /\ endp hd n1 <> tl.
  Proof. intros Lk. destruct (end_start hd n1 n2 tl (lk_nd _ _ _ _ _ _ Lk)) as (A & B & _). split; congruence. Qed.
  Lemma tail_next h al hd ns tl : lok h al hd ns tl -> get_next (PAddr tl) h = Ok (PNull, h).
  Proof. intros Lk. apply get_next_ok; [apply (lk_tn _ _ _ _ _ _ Lk)|done]. Qed.
  (** Positions beyond the end lead to the null pointer or nowhere. *)
  Lemma advance_beyond h al hd ns tl k (p : lptr) h' : lok h al hd ns tl ->
    stl_advance k (PAddr hd) h = Ok (p, h') -> (length ns + 1 < k)%nat -> p = PNull.
  Proof.
    intros Lk E Hk. replace k with (S (length ns) + S (k - length ns - 2))%nat in E by lia.
    rewrite advance_app, (bind_ok _ _ _ _ _ (advance_end _ _ _ _ _ Lk)) in E. cbn [stl_advance] in E.
    rewrite (bind_ok _ _ _ _ _ (tail_next _ _ _ _ _ Lk)) in E. by apply advance_null in E as [_ ->].
  Qed.
  Lemma is_tail h al hd ns tl k (p : lptr) h' : lok h al hd ns tl -> stl_advance k (PAddr hd) h = Ok (p, h') ->
    bool_decide (p <> PAddr tl) = negb (k =? length ns + 1)%nat.
  Proof.
    intros Lk E. destruct (Nat.eqb_spec k (length ns + 1)) as [->|Hk].
    - replace (length ns + 1)%nat with (S (length ns)) in E by lia. rewrite (advance_end _ _ _ _ _ Lk) in E. injection E as <- _.
      apply bool_decide_eq_false. by intros [].
    - apply bool_decide_eq_true. destruct (decide (k <= length ns)%nat) as [Hle|Hgt].
      + destruct (advance_pos dbl _ _ _ _ _ _ Lk Hle) as [E1 _]. rewrite E1 in E. injection E as <- _. intros [= E2].
        rewrite <-(take_drop k ns) in Lk. by apply lok_sep in Lk as [_ ?].
      + rewrite (advance_beyond _ _ _ _ _ _ _ _ Lk E) by lia. done.
  Qed.
  Lemma is_head h al hd ns tl k (p : lptr) h' : lok h al hd ns tl -> stl_advance k (PAddr hd) h = Ok (p, h') ->
    bool_decide (p <> PAddr hd) = negb (k =? 0)%nat.
  Proof.
    intros Lk E. destruct (Nat.eqb_spec k 0) as [->|Hk].
    - injection E as <- _. apply bool_decide_eq_false. by intros [].
    - apply bool_decide_eq_true. destruct (decide (k <= length ns + 1)%nat) as [Hle|Hgt].
      + destruct k as [|k]; [done|]. rewrite (advance_split dbl _ _ _ _ _ _ Lk) in E by lia. injection E as <- _. intros [= E2].
        rewrite <-(take_drop k ns) in Lk. by apply lok_sep in Lk as [? _].
      + rewrite (advance_beyond _ _ _ _ _ _ _ _ Lk E) by lia. done.
  Qed.

  (** A member that asserts something about its position. *)
  Lemma at_assert (c : lst -> lptr -> bool) (f : lst -> lptr -> M H (lst * lptr)) w i k b :
    (forall l p, w_vars w !! i = Some l -> stl_advance k (l_head l) (w_heap w) = Ok (p, w_heap w) -> c l p = negb b) ->
    (b = true -> exists l p, w_vars w !! i = Some l /\ stl_advance k (l_head l) (w_heap w) = Ok (p, w_heap w)) ->
    l_at i k (fun l p => dassert (c l p) ;;; f l p) w = if b then Err Panic else l_at i k f w.
  Proof.
    intros Hc Hb. destruct b.
    - destruct Hb as (l & p & V & E); [done|]. eapply at_err; [exact V|exact E|]. apply dassert_false. by eapply Hc.
    - apply at_ext. intros l p V E. apply dassert_true. by eapply Hc.
  Qed.
  Lemma at_not_end sp w i k (f : lst -> lptr -> M H (lst * lptr)) : rel sp w ->
    l_at i k (fun l p => dassert (bool_decide (p <> l_tail l)) ;;; f l p) w =
      if at_end sp i k then Err Panic else l_at i k f w.
  Proof.
    intros Hr. unfold at_end. apply at_assert; destruct (shape_of _ _ i Hr) as [Es V|al Es V|al hd tl ns Es V Lk HW]; rewrite Es.
    - intros l p V2. congruence.
    - intros l p V2 E. rewrite V in V2. injection V2 as <-. cbn [l_head l_tail] in *. apply advance_null in E as [-> ->].
      by apply bool_decide_eq_false; intros [].
    - intros l p V2 E. rewrite V in V2. injection V2 as <-. cbn [l_head l_tail L] in *. rewrite vls_length. by eapply is_tail.
    - done.
    - intros ->%Nat.eqb_eq. eexists _, _. split; [exact V|done].
    - intros ->%Nat.eqb_eq. rewrite vls_length, Nat.add_1_r. eexists _, _. split; [exact V|]. by eapply advance_end.
  Qed.
  Lemma at_not_head sp w i k (f : lst -> lptr -> M H (lst * lptr)) : rel sp w ->
    l_at i k (fun l p => dassert (bool_decide (p <> l_head l)) ;;; f l p) w =
      if exists_ sp i && (k =? 0)%nat then Err Panic else l_at i k f w.
  Proof.
    intros Hr. unfold exists_. apply at_assert; destruct (shape_of _ _ i Hr) as [Es V|al Es V|al hd tl ns Es V Lk HW]; rewrite Es; cbn [andb].
    - intros l p V2. congruence.
    - intros l p V2 E. rewrite V in V2. injection V2 as <-. cbn [l_head l_tail] in *. apply advance_null in E as [-> ->].
      by apply bool_decide_eq_false; intros [].
    - intros l p V2 E. rewrite V in V2. injection V2 as <-. cbn [l_head l_tail L] in *. by eapply is_head.
    - done.
    - intros ->%Nat.eqb_eq. eexists _, _. split; [exact V|done].
    - intros ->%Nat.eqb_eq. eexists _, _. split; [exact V|done].
  Qed.
  (** A member that asserts that the list has not been moved from. *)
  Lemma updo_live sp w i (f : lst -> M H (lst * lout T)) : rel sp w ->
    l_updo i (fun l => dassert (notnull (l_head l)) ;;; f l) w = if moved sp i then Err Panic else l_updo i f w.
  Proof.
    intros Hr. unfold moved. destruct (shape_of _ _ i Hr) as [Es V|al Es V|al hd tl ns Es V Lk HW]; rewrite Es.
    - by rewrite !updo_none.
    - by eapply updo_err.
    - apply updo_ext. intros l V2. rewrite V in V2. by injection V2 as <-.
  Qed.

  (** ** erase_after of a range *)
  Lemma erase_loop_same fuel : forall l (first last : lptr) h, first <> l_tail l ->
    d_erase_after_loop dbl fuel l first last h = erase_after_loop dbl fuel l first last h.
  Proof.
    induction fuel as [|fuel IH]; intros l first last h Hf; [done|]. cbn [d_erase_after_loop erase_after_loop].
    destruct (decide (first = last)) as [|Hne]; [done|]. apply bind_ext. intros n h1 E1. destruct (decide (n = last)) as [|Hne2]; [done|].
    unfold d_erase_after. rewrite bind_bind. rewrite dassert_true by (by apply bool_decide_eq_true).
    apply bind_ext. intros [l' q] h2 E2. apply IH. revert E2. unfold l_erase_after, bind.
    destruct (get_next first h1) as [[t h3]|]; [|done]. destruct (decide (t = l_tail l)); [by intros [= <- _ _]|].
    destruct (get_next t h3) as [[r h4]|]; [|done]. destruct (set_next dbl first r h4) as [[u h5]|]; [|done].
    destruct (destroy_node (l_al l) t h5) as [[u2 h6]|]; [|done]. by intros [= <- _ _].
  Qed.

  (** ** Iterators that take the list over *)
  Lemma pop_front_debug l h r : l_pop_front dbl l h = Ok r -> d_pop_front dbl l h = Ok r /\ l_head (fst r) = l_head l.
  Proof.
    unfold d_pop_front, l_pop_front, bind. destruct (get_next (l_head l) h) as [[t h1]|] eqn:E1; [|done].
    pose proof (get_next_same _ _ _ _ E1) as ->.
    destruct (get_next t h) as [[n h2]|] eqn:E2; [|done]. intros E. unfold dassert, notnull.
    rewrite bool_decide_eq_true_2 by (by intros ->). cbn [ret]. rewrite E1, E2. split; [done|]. revert E.
    destruct (set_next dbl (l_head l) n h2) as [[u h3]|]; [|done]. destruct (destroy_node (l_al l) t h3) as [[u2 h4]|]; [|done].
    by intros [= <-].
  Qed.
  Lemma pop_back_debug l h r : l_head l <> PNull -> l_len l <> 0 -> l_pop_back dbl l h = Ok r ->
    d_pop_back dbl l h = Ok r /\ l_head (fst r) = l_head l.
  Proof.
    intros Hh Hl E. unfold d_pop_back. rewrite dassert_true by (by apply bool_decide_eq_true).
    rewrite dassert_true by (by destruct (N.eqb_spec (l_len l) 0)). split; [done|]. revert E. unfold l_pop_back, bind.
    destruct (get_prev (l_tail l) h) as [[t h1]|]; [|done]. destruct (get_prev t h1) as [[q h2]|]; [|done].
    destruct (set_next dbl q (l_tail l) h2) as [[u h3]|]; [|done]. destruct (destroy_node (l_al l) t h3) as [[u2 h4]|]; [|done].
    by intros [= <-].
  Qed.
  Lemma into_run_debug calls : forall l h r, l_head l <> PNull -> into_run dbl l calls h = Ok r -> d_into_run dbl l calls h = Ok r.
  Proof.
    induction calls as [|c calls IH]; intros l h r Hh E; [done|]. cbn [into_run d_into_run] in *.
    unfold bind in E at 1. destruct ((if c then into_next dbl l else into_prev dbl l) h) as [[[l' x] h1]|] eqn:E1; [|done].
    assert ((if c then d_into_next dbl l else d_into_prev dbl l) h = Ok ((l', x), h1) /\ l_head l' = l_head l) as [E2 Hl].
    { destruct c.
      - revert E1. unfold into_next, d_into_next. destruct (l_len l =? 0); [by intros [= <- <- <-]|]. unfold bind.
        destruct (l_front l h) as [[f h2]|]; [|done]. destruct (l_pop_front dbl l h2) as [[l2 h3]|] eqn:E3; [|done].
        apply pop_front_debug in E3 as [-> E3]. simpl in E3. by intros [= <- <- <-].
      - revert E1. unfold into_prev, d_into_prev. destruct (N.eqb_spec (l_len l) 0) as [|Hne]; [by intros [= <- <- <-]|]. unfold bind.
        destruct (l_back l h) as [[f h2]|]; [|done]. destruct (l_pop_back dbl l h2) as [[l2 h3]|] eqn:E3; [|done].
        apply pop_back_debug in E3 as [-> E3]; [|done|done]. simpl in E3. by intros [= <- <- <-]. }
    rewrite (bind_ok _ _ _ _ _ E2). unfold bind in *. destruct (into_run dbl l' calls h1) as [[[l2 xs] h2]|] eqn:E3; [|done].
    by rewrite (IH l' h1 _ ltac:(by rewrite Hl) E3).
  Qed.
  Lemma into_empty calls : forall l h, l_len l = 0 ->
    into_run dbl l calls h = Ok ((l, map (fun _ => None) calls), h) /\ d_into_run dbl l calls h = Ok ((l, map (fun _ => None) calls), h).
  Proof.
    induction calls as [|c calls IH]; intros l h Hl; [done|]. cbn [into_run d_into_run].
    assert ((if c then into_next dbl l else into_prev dbl l) h = Ok ((l, None), h)) as E1.
    { destruct c; unfold into_next, into_prev; by rewrite Hl. }
    assert ((if c then d_into_next dbl l else d_into_prev dbl l) h = Ok ((l, None), h)) as E2.
    { destruct c; unfold d_into_next, d_into_prev; by rewrite Hl. }
    destruct (IH l h Hl) as [E3 E4]. rewrite (bind_ok _ _ _ _ _ E1), (bind_ok _ _ _ _ _ E2), (bind_ok _ _ _ _ _ E3), (bind_ok _ _ _ _ _ E4).
    done.
  Qed.

  (** ** A call in both builds *)
  Lemma exact sp w (o : dop T) : rel sp w -> available dbl o = true ->
    debug_step dbl o w = if fires sp o then Err Panic else release_step dbl o w.
  Proof.
    intros Hr Ha. destruct o as [o|i k n v]; [|exact (at_not_head sp w i k _ Hr)]. unfold release_step.
    destruct o; try done; cbn [debug_step fires list_step].
    - (* LCopy *) destruct (shape_of _ _ i Hr) as [Es V|al Es V|al hd tl ns Es V Lk HW];
      destruct (shape_of _ _ j Hr) as [Es2 V2|al2 Es2 V2|al2 hd2 tl2 ns2 Es2 V2 Lk2 HW2];
      unfold exists_, moved; rewrite Es, Es2; unfold l_mk, bind, wget, wnew; rewrite V2; try done; by rewrite V.
    - (* LCopyAl *) destruct (shape_of _ _ i Hr) as [Es V|al' Es V|al' hd tl ns Es V Lk HW];
      destruct (shape_of _ _ j Hr) as [Es2 V2|al2 Es2 V2|al2 hd2 tl2 ns2 Es2 V2 Lk2 HW2];
      unfold exists_, moved; rewrite Es, Es2; unfold l_mk, bind, wget, wnew; rewrite V2; try done; by rewrite V.
    - (* LMoveAl *) destruct (shape_of _ _ i Hr) as [Es V|al' Es V|al' hd tl ns Es V Lk HW];
      destruct (shape_of _ _ j Hr) as [Es2 V2|al2 Es2 V2|al2 hd2 tl2 ns2 Es2 V2 Lk2 HW2];
      unfold exists_, moved; rewrite Es, Es2; unfold l_mk, bind, wget, wnew; rewrite V; try done; by rewrite V2.
    - (* LCopyAsg *) unfold l_two_ne. destruct (Nat.eqb_spec i j) as [<-|Hij].
      { by rewrite andb_false_r. }
      rewrite andb_true_r. unfold l_two.
      assert (Hd : forall l, w_vars w !! i = Some l -> exists l' h', l_destroy dbl l (w_heap w) = Ok (l', h')).
      { intros l V. pose proof (list_step_refines dbl sp w (LDel i) I Hr) as HD. cbn [gspec safe lspec] in HD.
        destruct (shape_of _ _ i Hr) as [Es V0|al Es V0|al hd tl ns Es V0 Lk HW]; [congruence|..];
          unfold look in HD; rewrite Es in HD; cbn [agrees] in HD; destruct HD as (w' & HD & _);
          cbn [list_step] in HD; unfold bind, wget, lift in HD; rewrite V in HD;
          destruct (l_destroy dbl l (w_heap w)) as [[l' h']|]; try done; by eexists _, _. }
      destruct (shape_of _ _ i Hr) as [Es V|al Es V|al hd tl ns Es V Lk HW].
      { unfold exists_. rewrite Es. unfold bind, wget. by rewrite V. }
      all: destruct (Hd _ V) as (l' & h' & Ed);
        destruct (shape_of _ _ j Hr) as [Es2 V2|al2 Es2 V2|al2 hd2 tl2 ns2 Es2 V2 Lk2 HW2];
        unfold exists_, moved; rewrite Es, Es2; unfold bind, wget; rewrite V, V2; try done;
        unfold lift, d_copy_assign, l_copy_assign, bind; by rewrite Ed.
    - (* LPopF *) apply upd_ext. intros l V. unfold d_pop_front.
      destruct (shape_of _ _ i Hr) as [Es V0|al Es V0|al hd tl ns Es V0 Lk HW]; rewrite V0 in V; [done|..]; injection V as <-; [done|].
      pose proof (next_at dbl _ _ _ [] _ _ Lk) as E. cbn [endp] in E. by rewrite (bind_ok _ _ _ _ _ E).
    - (* LPopB *) destruct (shape_of _ _ i Hr) as [Es V|al Es V|al hd tl ns Es V Lk HW]; rewrite Es.
      + unfold l_upd. by rewrite !updo_none.
      + by eapply upd_err.
      + destruct ns as [|[a x] ns]; [by eapply upd_err|]. apply upd_ext. intros l V2. rewrite V in V2. by injection V2 as <-.
    - by apply at_not_end.
    - by apply at_not_end.
    - by apply at_not_end.
    - (* LEraAR *) assert (Hg : forall l p1 p2, (p1 = p2 \/ p1 <> l_tail l) ->
        d_erase_after_range dbl l p1 p2 (w_heap w) = l_erase_after_range dbl l p1 p2 (w_heap w)).
      { intros l p1 p2 [->|Hp]; unfold d_erase_after_range, l_erase_after_range; rewrite !(bind_ok _ _ _ _ _ (fuel_ok _)).
        - cbn [d_erase_after_loop erase_after_loop]. by rewrite !decide_True by done.
        - unfold bind at 1 2. by rewrite erase_loop_same. }
      destruct (shape_of _ _ i Hr) as [Es V|al Es V|al hd tl ns Es V Lk HW]; rewrite Es.
      + apply at2_ext. intros l p1 p2 V2. congruence.
      + apply at2_ext. intros l p1 p2 V2 E1 E2. rewrite V in V2. injection V2 as <-. cbn [l_head] in *.
        apply advance_null in E1 as [_ ->]. apply advance_null in E2 as [_ ->]. apply Hg. by left.
      + rewrite vls_length. destruct (Nat.eqb_spec k1 (length ns + 1)) as [->|Hk1]; cbn [andb].
        2:{ apply at2_ext. intros l p1 p2 V2 E1 E2. rewrite V in V2. injection V2 as <-. cbn [l_head L] in *. apply Hg. right.
            pose proof (is_tail _ _ _ _ _ _ _ _ Lk E1) as Hb. rewrite (proj2 (Nat.eqb_neq _ _) Hk1) in Hb.
            by apply bool_decide_eq_true in Hb. }
        destruct (Nat.leb_spec k2 (length ns)) as [Hk2|Hk2].
        * rewrite Nat.add_1_r. destruct (advance_pos dbl _ _ _ _ _ _ Lk Hk2) as [E2 _].
          eapply at2_err; [exact V|by eapply advance_end|exact E2|].
          unfold d_erase_after_range. rewrite (bind_ok _ _ _ _ _ (fuel_ok _)). cbn [d_erase_after_loop].
          assert (Hne : PAddr tl <> PAddr (endp hd (take k2 ns))).
          { intros [= E]. rewrite <-(take_drop k2 ns) in Lk. by apply lok_sep in Lk as [_ ?]. }
          rewrite decide_False by done. rewrite bind_bind, (bind_ok _ _ _ _ _ (tail_next _ _ _ _ _ Lk)).
          rewrite decide_False by done. unfold d_erase_after. rewrite !bind_bind. apply dassert_false.
          apply bool_decide_eq_false. by intros [].
        * apply at2_ext. intros l p1 p2 V2 E1 E2. rewrite V in V2. injection V2 as <-. cbn [l_head L] in *.
          rewrite Nat.add_1_r, (advance_end _ _ _ _ _ Lk) in E1. injection E1 as <-.
          destruct (decide (k2 = S (length ns))) as [->|Hk].
          { rewrite (advance_end _ _ _ _ _ Lk) in E2. injection E2 as <-. apply Hg. by left. }
          rewrite (advance_beyond _ _ _ _ _ _ _ _ Lk E2) by lia.
          unfold d_erase_after_range, l_erase_after_range. rewrite !(bind_ok _ _ _ _ _ (fuel_ok _)).
          cbn [d_erase_after_loop erase_after_loop]. rewrite !decide_False by done.
          rewrite !bind_bind, !(bind_ok _ _ _ _ _ (tail_next _ _ _ _ _ Lk)). by rewrite !decide_True.
    - by apply at_not_head.
    - (* LMer *) unfold l_two_ne, l_two. destruct (Nat.eqb_spec i j) as [<-|Hij].
      { rewrite andb_diag, orb_diag. destruct (shape_of _ _ i Hr) as [Es V|al Es V|al hd tl ns Es V Lk HW]; unfold exists_, moved;
        rewrite Es; unfold bind, wget; rewrite V; try done. by destruct w. }
      destruct (shape_of _ _ i Hr) as [Es V|al Es V|al hd tl ns Es V Lk HW];
      destruct (shape_of _ _ j Hr) as [Es2 V2|al2 Es2 V2|al2 hd2 tl2 ns2 Es2 V2 Lk2 HW2];
        unfold exists_, moved; rewrite Es, Es2; unfold bind, wget; rewrite V; try done; rewrite V2; try done.
    - (* LSrt *) unfold l_upd. rewrite <-(updo_live _ _ _ _ Hr). apply updo_ext. intros l _. unfold d_sort. by rewrite bind_bind.
    - (* LRev *) unfold l_upd. rewrite <-(updo_live _ _ _ _ Hr). apply updo_ext. intros l _. unfold d_reverse. by rewrite bind_bind.
    - (* LRemIf *) rewrite <-(updo_live _ _ _ _ Hr). apply updo_ext. intros l _. unfold d_remove_if. by rewrite bind_bind.
    - (* LUniq *) rewrite <-(updo_live _ _ _ _ Hr). apply updo_ext. intros l _. unfold d_unique. by rewrite bind_bind.
    - (* LInto *) destruct (shape_of _ _ i Hr) as [Es V|al Es V|al hd tl ns Es V Lk HW].
      + by rewrite !updo_none.
      + apply updo_ext. intros l V2. rewrite V in V2. injection V2 as <-. unfold d_into_iter, l_into_iter. cbn [l_move].
        destruct (into_empty calls (Lst PNull PNull 0 al) (w_heap w) eq_refl) as [E1 E2].
        by rewrite !bind_bind, (bind_ok _ _ _ _ _ E1), (bind_ok _ _ _ _ _ E2).
      + pose proof (list_step_refines dbl sp w (LInto i calls) I Hr) as HD. cbn [gspec safe lspec available] in HD, Ha.
        rewrite Ha in HD. unfold need, live in HD. rewrite Es in HD. cbn [agrees] in HD. destruct HD as (w' & HD & _).
        cbn [list_step] in HD. unfold l_updo at 1 in HD. unfold bind at 1, wget in HD. rewrite V in HD.
        apply updo_ext. intros l V2. rewrite V in V2. injection V2 as <-.
        unfold lift, l_into_iter, d_into_iter, bind in *. cbn [l_move] in *.
        destruct (into_run dbl (L al hd tl ns) calls (w_heap w)) as [[[l2 xs] h2]|] eqn:E; [|done].
        assert (Hh : l_head (L al hd tl ns) <> PNull) by done. by rewrite (into_run_debug _ _ _ _ Hh E).
  Qed.
  Lemma release_refines sp w (o : dop T) : dordered o -> rel sp w -> agrees rel (release_step dbl o w) (rspec dbl sp o).
  Proof. intros Ho Hr. destruct o as [o|i k n v]; by apply list_step_refines. Qed.
  Lemma debug_refines sp w (o : dop T) : dordered o -> available dbl o = true -> rel sp w ->
    agrees rel (debug_step dbl o w) (dspec dbl sp o).
  Proof.
    intros Ho Ha Hr. rewrite (exact _ _ _ Hr Ha). unfold dspec. destruct (fires sp o); [done|]. by apply release_refines.
  Qed.
  Definition client (o : dop T) : Prop := dordered o /\ available dbl o = true.
  Lemma dhist ops : Forall client ops -> forall sp w, rel sp w ->
    agrees rel (run_ops (debug_step dbl) ops w) (srun (dspec dbl) sp ops).
  Proof.
    induction ops as [|o ops IH]; intros Hf sp w Hr; simpl.
    { by exists w. }
    apply Forall_cons in Hf as [[Ho Ha] Hf].
    pose proof (debug_refines sp w o Ho Ha Hr) as H0. unfold agrees, bind, ret in *.
    destruct (dspec dbl sp o) as [s1 x| |]; simpl in *; [|by rewrite H0|done].
    destruct H0 as (w1 & -> & Hr1). pose proof (IH Hf s1 w1 Hr1) as H2.
    destruct (srun (dspec dbl) s1 ops) as [s2 xs| |]; [|by rewrite H2|done].
    destruct H2 as (w2 & -> & Hr2). by exists w2.
  Qed.
  Definition dreached sp w : Prop :=
    exists ops outs, Forall client ops /\ srun (dspec dbl) ∅ ops = SOk sp outs /\
      run_ops (debug_step dbl) ops winit = Ok (outs, w).
  Lemma dreached_rel sp w : dreached sp w -> rel sp w.
  Proof.
    intros (ops & outs & Hf & E & E2). pose proof (dhist ops Hf ∅ winit (world_ok_init _)) as H0. rewrite E in H0.
    destruct H0 as (w' & E3 & Hr). rewrite E2 in E3. by injection E3 as ->.
  Qed.

  (** ** C75: the debug build *)

  (** Wherever a program can get, a call in a debug build panics in exactly the
      cases of [fires], and otherwise does what it does in a release build. *)
  Theorem C75_debug_exact sp w (o : dop T) : dreached sp w -> available dbl o = true ->
    debug_step dbl o w = if fires sp o then Err Panic else release_step dbl o w.
  Proof. intros Hr%dreached_rel. by apply exact. Qed.
  (** Programs: the debug build computes what the sequences say up to the
      first call that [fires], and panics there. *)
  Theorem C75_debug_histories ops : Forall client ops ->
    match srun (dspec dbl) ∅ ops with
    | SOk _ outs => exists w, run_ops (debug_step dbl) ops winit = Ok (outs, w)
    | SPanic => run_ops (debug_step dbl) ops winit = Err Panic
    | SPre => True
    end.
  Proof.
    intros Hf. pose proof (dhist ops Hf ∅ winit (world_ok_init _)) as H0. unfold agrees in H0.
    destruct (srun (dspec dbl) ∅ ops) as [s x| |]; [|done|done]. destruct H0 as (w & E & _). by exists w.
  Qed.
  (** The calls that a debug build stops although the release build carries
      them out as specified: copies of lists that have been moved from, and
      moving those with an allocator equal to theirs. *)
  Theorem C75_false_alarms sp (o : dop T) : available dbl o = true -> fires sp o = true ->
    (exists sp' x, rspec dbl sp o = SOk sp' x) <->
    match o with
    | DOp (LCopy _ _) | DOp (LCopyAl _ _ _) | DOp (LCopyAsg _ _) => True
    | DOp (LMoveAl _ j al) => al = alloc_of sp j
    | _ => False
    end.
  Proof.
    intros Ha Hf.
    assert (no : (exists sp' x, SPre = @SOk lstate (lout T) sp' x) -> False) by by intros (? & ? & ?).
    assert (yes : forall i al, exists sp' x, give sp i al [] OUnit = @SOk lstate (lout T) sp' x) by (intros; by eexists _, _).
    destruct o as [o|i k n v].
    2:{ cbn [fires rspec gspec safe lspec available] in *. rewrite Ha. unfold live, exists_ in *. cbn [need].
        destruct (sp !! i) as [[al [xs|]]|]; cbn [andb] in Hf; [|by split..]. apply Nat.eqb_eq in Hf as ->. by split. }
    destruct o; try done; cbn [fires rspec gspec safe lspec available] in *; unfold exists_, moved, at_end in *.
    - destruct (sp !! i) as [[al o]|] eqn:Ei; [done|]. destruct (sp !! j) as [[al [xs|]]|] eqn:Ej; try done.
      split; [done|]. intros _. unfold gspec, safe, lspec, fresh, look. rewrite Ei, Ej. apply yes.
    - destruct (sp !! i) as [[al' o]|] eqn:Ei; [done|]. destruct (sp !! j) as [[al' [xs|]]|] eqn:Ej; try done.
      split; [done|]. intros _. unfold gspec, safe, lspec, fresh, look. rewrite Ei, Ej. apply yes.
    - destruct (sp !! i) as [[al' o]|] eqn:Ei; [done|]. destruct (sp !! j) as [[al' [xs|]]|] eqn:Ej; try done.
      unfold gspec, safe, lspec, fresh, look. rewrite Ei, Ej. destruct (N.eqb_spec al (alloc_of sp j)) as [->|Hne].
      + split; [done|]. intros _. by eexists _, _.
      + split; [|done]. by intros (? & ? & ?).
    - destruct (sp !! i) as [[al' o]|] eqn:Ei; [|done]. destruct (sp !! j) as [[al [xs|]]|] eqn:Ej; try (by rewrite andb_false_r in Hf).
      split; [done|]. intros _. unfold gspec, safe, lspec, fresh, look. rewrite Ei, Ej.
      destruct (i =? j)%nat; [done|]. apply yes.
    - unfold gspec, safe, lspec, need, live. rewrite Ha. destruct (sp !! i) as [[al [[|y ys]|]]|]; try done; by split.
    - unfold gspec, safe, lspec, need, live. destruct (sp !! i) as [[al [xs|]]|]; [|by split|by split].
      apply Nat.eqb_eq in Hf as ->. destruct (Nat.leb_spec (length xs + 1) (length xs)); [lia|]. by split.
    - unfold gspec, safe, lspec, need, live. destruct (sp !! i) as [[al [xs|]]|]; [|by split|by split].
      apply Nat.eqb_eq in Hf as ->. destruct (Nat.leb_spec (length xs + 1) (length xs)); [lia|]. by split.
    - unfold gspec, safe, lspec, need, live. destruct (sp !! i) as [[al [xs|]]|]; [|by split|by split].
      apply Nat.eqb_eq in Hf as ->. destruct (Nat.leb_spec (length xs + 1) (length xs)); [lia|]. by split.
    - unfold gspec, safe, lspec, need, live. destruct (sp !! i) as [[al [xs|]]|]; [|by split|by split].
      apply andb_true_iff in Hf as [->%Nat.eqb_eq H2%Nat.leb_le].
      destruct (Nat.leb_spec (length xs + 1) k2); [lia|]. by split.
    - unfold gspec, safe, lspec, need, live. rewrite Ha. destruct (sp !! i) as [[al [xs|]]|]; [|by split|by split].
      apply Nat.eqb_eq in Hf as ->. by split.
    - unfold gspec, lspec, need, live. match goal with |- context [safe ?a ?b ?c] => destruct (safe a b c) end; [|by split].
      destruct (sp !! i) as [[al [xs|]]|]; [|by split|by split]. destruct (sp !! j) as [[al' [ys|]]|]; [done|by split|by split].
    - unfold gspec, lspec, live. destruct (sp !! i) as [[al [xs|]]|]; [done| |done]. try case_match; by split.
    - unfold gspec, lspec, live. destruct (sp !! i) as [[al [xs|]]|]; [done| |done]. try case_match; by split.
    - unfold gspec, lspec, live. destruct (sp !! i) as [[al [xs|]]|]; [done| |done]. try case_match; by split.
    - unfold gspec, lspec, live. destruct (sp !! i) as [[al [xs|]]|]; [done| |done]. try case_match; by split.
  Qed.
  (** The assertion of [pop_front] is for empty lists and never fails: the
      node [end()] points to is destroyed, [size()] becomes 2^64-1 and going
      through the list is undefined. *)
  Theorem C75_pop_front_missed sp w i al : dreached sp w -> sp !! i = Some (al, Some []) ->
    exists w', debug_step dbl (DOp (LPopF i)) w = Ok (OUnit, w') /\
      debug_step dbl (DOp (LSize i)) w' = Ok (ONum (W - 1), w') /\
      debug_step dbl (DOp (LItems i)) w' = Err UB.
  Proof.
    intros Hr%dreached_rel Hi. rewrite (exact _ _ _ Hr) by done. cbn [fires release_step list_step].
    destruct (rel_live dbl _ _ _ _ _ Hr Hi) as (Hwf & hd & tl & ns & V & X & Lk & HW & _). destruct ns as [|n ns]; [|done].
    pose proof (next_at dbl _ _ _ [] [] _ Lk) as E1. cbn [endp startp] in E1.
    pose proof (tail_next _ _ _ _ _ Lk) as E2.
    pose proof (virt_has _ _ _ (lk_hd _ _ _ _ _ _ Lk)) as Hh. pose proof (lk_tl _ _ _ _ _ _ Lk) as Ht.
    pose proof (lok_sep _ _ _ [] [] _ Lk) as [Hne _]. cbn [startp] in Hne.
    assert (E3 : l_pop_front dbl (L (T := T) al hd tl []) (w_heap w) =
      Ok (Lst (PAddr hd) (PAddr tl) (W - 1) al, fr (upn (w_heap w) hd PNull) tl)).
    { unfold l_pop_front. cbn [l_head L]. rewrite (bind_ok _ _ _ _ _ E1), (bind_ok _ _ _ _ _ E2).
      rewrite (bind_ok _ _ _ _ _ (set_next_null_ok dbl _ _ Hh)).
      erewrite bind_ok; [|apply destroy_virt_ok; unfold virt; rewrite dt_upn; exact Ht]. done. }
    eexists (World _ _). split; [|split].
    - unfold l_upd, l_updo, bind, wget. rewrite V. unfold lift. rewrite E3. done.
    - cbn. unfold l_obs, bind, wget. cbn [w_vars]. rewrite lookup_insert. done.
    - cbn. unfold l_obs, bind at 1, wget. cbn [w_vars]. rewrite lookup_insert. unfold lift. cbn [w_heap].
      unfold l_to_list. cbn [l_head]. rewrite !bind_bind.
      erewrite bind_ok; [|apply get_next_ok; [rewrite nx_fr by congruence; rewrite nx_upn, decide_True by done; reflexivity|done]].
      done.
  Qed.

  (** ** C76: lists that have been moved from, in a release build *)

  (** The calls on a list that has been moved from, or with one as argument,
      other than those the specification allows on such lists (C14). *)
  Definition touches sp (o : lop T) : bool :=
    match o with
    | LIlist i _ | LClear i | LPushF i _ | LPopF i | LPushB i _ | LPopB i
    | LEmpA i _ _ | LInsA i _ _ | LEraA i _ | LEraAR i _ _ | LEmp i _ _ | LIns i _ _ | LEra i _ | LEraR i _ _
    | LSrt i _ | LRev i | LRemIf i _ | LUniq i _ | LFrontU i | LFrontUC i | LBackU i | LItems i | LItemsBack i
    | LIter i _ | LInto i _ | LPrint i => moved sp i
    | LResize i n _ => moved sp i && (n <? W)
    | LSplA i _ j _ | LSpl i _ j _ | LMer i j _ _ =>
        exists_ sp i && exists_ sp j && (moved sp i || moved sp j)
    | _ => false
    end.
  (** What such a call gives when it is defined; no list changes then. *)
  Definition answer sp (o : lop T) : option (lout T) :=
    match o with
    | LInsA _ O [] | LIns _ O [] | LEra _ O => Some (OPos 0)
    | LEraAR _ O O | LEraR _ O O => Some (OPos 0)
    | LRev _ => if dbl then None else Some OUnit
    | LRemIf _ _ | LUniq _ _ => Some (ONum 0)
    | LInto _ calls => Some (OOpts (map (fun _ => None) calls))
    | LMer i j _ _ => if (i =? j)%nat || isnil (contents sp j) then Some OUnit else None
    | _ => None
    end.

  Lemma updo_same (f : lst -> M H (lst * lout T)) w i l x : w_vars w !! i = Some l -> f l (w_heap w) = Ok ((l, x), w_heap w) ->
    l_updo i f w = Ok (x, w).
  Proof.
    intros V E. unfold l_updo, bind, wget. rewrite V. unfold lift. rewrite E. unfold wset, ret. simpl. rewrite insert_id by done.
    by destruct w.
  Qed.
  Lemma obs_err (f : lst -> M H (lout T)) w i l e : w_vars w !! i = Some l -> f l (w_heap w) = Err e -> l_obs (T := T) i f w = Err e.
  Proof. intros V E. unfold l_obs, bind, wget. rewrite V. unfold lift. by rewrite E. Qed.
  Lemma at_bad (f : lst -> lptr -> M H (lst * lptr)) w i k al : w_vars w !! i = Some (Lst PNull PNull 0 al) ->
    (k = 0%nat -> f (Lst PNull PNull 0 al) PNull (w_heap w) = Err UB) -> l_at (T := T) i k f w = Err UB.
  Proof.
    intros V E. eapply updo_err; [exact V|]. cbn [l_head]. destruct k as [|k]; [|done]. unfold bind. cbn [stl_advance ret].
    unfold ret. by rewrite E.
  Qed.
  Lemma at_good (f : lst -> lptr -> M H (lst * lptr)) w i al : w_vars w !! i = Some (Lst PNull PNull 0 al) ->
    f (Lst PNull PNull 0 al) PNull (w_heap w) = Ok ((Lst PNull PNull 0 al, PNull), w_heap w) -> l_at (T := T) i 0 f w = Ok (OPos 0, w).
  Proof.
    intros V E. eapply updo_same; [exact V|]. cbn [l_head stl_advance]. unfold bind, ret. rewrite E.
    unfold l_pos, bind. rewrite (fuel_ok (w_heap w)). cbn [pos_loop l_head]. by rewrite decide_True.
  Qed.
  Lemma set_next_null n (h : H) : set_next dbl PNull n h = Err UB.
  Proof. done. Qed.
  Lemma two_bad (f : lst -> lst -> M H (lst * lst)) w i j l o : w_vars w !! i = Some l -> w_vars w !! j = Some o ->
    f l o (w_heap w) = Err UB -> l_two (T := T) i j f w = Err UB.
  Proof. intros V V2 E. unfold l_two, bind, wget. rewrite V, V2. unfold lift. by rewrite E. Qed.

  Lemma advance_then k (p : lptr) (A : Type) (f : lptr -> M H A) h :
    (forall q, stl_advance k p h = Ok (q, h) -> f q h = Err UB) -> bind (stl_advance k p) f h = Err UB.
  Proof.
    intros Hf. unfold bind. destruct (stl_advance k p h) as [[q h']|e] eqn:E.
    - pose proof (advance_same _ _ _ _ _ E) as ->. by apply Hf.
    - by rewrite (advance_bad _ _ _ _ E).
  Qed.
  Theorem C76_moved_from sp w (o : lop T) : dreached sp w -> available dbl (DOp o) = true -> touches sp o = true ->
    list_step dbl o w = match answer sp o with Some x => Ok (x, w) | None => Err UB end.
  Proof.
    intros Hr%dreached_rel Ha Ht.
    assert (Hm : forall i, moved sp i = true -> exists al, w_vars w !! i = Some (Lst PNull PNull 0 al)).
    { intros i. unfold moved. destruct (sp !! i) as [[al [xs|]]|] eqn:Ei; [done| |done]. intros _. exists al. by eapply rel_moved. }
    destruct o; try done; cbn [touches available] in Ht, Ha; cbn [answer list_step].
    - destruct (Hm _ Ht) as [al V]. by eapply upd_err.
    - destruct (Hm _ Ht) as [al V]. by eapply upd_err.
    - apply andb_true_iff in Ht as [Ht HW%N.ltb_lt]. destruct (Hm _ Ht) as [al V]. eapply upd_err; [exact V|].
      unfold l_resize. cbn [l_len]. destruct (N.eqb_spec n 0) as [->|Hn]; [done|].
      destruct (N.ltb_spec 0 n); [|lia]. unfold l_extend. cbn [l_len l_tail l_head].
      assert (usub n 0 = n) as ->. { unfold usub. rewrite N.sub_0_r. replace (n + W) with (n + 1 * W) by lia. rewrite N.mod_add by done. by apply N.mod_small. }
      destruct dbl; [done|]. cbn [N.to_nat stl_advance]. rewrite bind_ret.
      destruct (N.to_nat n) as [|m] eqn:Em; [lia|]. cbn [replicate extend_loop].
      rewrite !bind_bind. rewrite (bind_ok _ _ _ _ _ (construct_ok _ _ _)). done.
    - destruct (Hm _ Ht) as [al V]. eapply upd_err; [exact V|]. unfold l_push_front, l_push_back. by rewrite (bind_ok _ _ _ _ _ (construct_ok _ _ _)).
    - destruct (Hm _ Ht) as [al V]. by eapply upd_err.
    - destruct (Hm _ Ht) as [al V]. eapply upd_err; [exact V|]. unfold l_push_front, l_push_back. by rewrite (bind_ok _ _ _ _ _ (construct_ok _ _ _)).
    - destruct (Hm _ Ht) as [al V]. by eapply upd_err.
    - destruct (Hm _ Ht) as [al V]. eapply at_bad; [exact V|]. intros _. by unfold l_emplace_after; rewrite (bind_ok _ _ _ _ _ (construct_ok _ _ _)).
    - destruct (Hm _ Ht) as [al V]. destruct k, vs; [by eapply at_good|by eapply at_bad..].
    - destruct (Hm _ Ht) as [al V]. by eapply at_bad.
    - destruct (Hm _ Ht) as [al V]. destruct k1 as [|k1]; [|by eapply updo_err]. destruct k2 as [|k2]; [|by eapply updo_err].
      eapply updo_same; [exact V|]. cbn [stl_advance l_head]. unfold bind, ret. cbn. done.
    - destruct (Hm _ Ht) as [al V]. eapply at_bad; [exact V|]. intros _. by unfold l_emplace; rewrite (bind_ok _ _ _ _ _ (construct_ok _ _ _)).
    - destruct (Hm _ Ht) as [al V]. destruct k, vs; [by eapply at_good|by eapply at_bad..].
    - destruct (Hm _ Ht) as [al V]. destruct k as [|k]; [by eapply at_good|by eapply at_bad].
    - destruct (Hm _ Ht) as [al V]. destruct k1 as [|k1]; [|by eapply updo_err]. destruct k2 as [|k2]; [|by eapply updo_err].
      eapply updo_same; [exact V|]. cbn [stl_advance l_head]. unfold bind, ret. cbn. done.
    - destruct (shape_of _ _ i Hr) as [Es V|al Es V|al hd tl ns Es V Lk HW];
      destruct (shape_of _ _ j Hr) as [Es2 V2|al2 Es2 V2|al2 hd2 tl2 ns2 Es2 V2 Lk2 HW2];
        unfold exists_, moved in Ht; rewrite Es, Es2 in Ht; try done; clear Ht; eapply two_bad; try done; apply advance_then; intros p E;
        [by destruct rv..| |by destruct rv].
      apply advance_null in E as [_ ->]. pose proof (next_at dbl _ _ _ [] _ _ Lk2) as E1. cbn [endp] in E1.
      destruct rv; unfold l_splice_after, l_splice_after_rv; cbn [l_head L];
        by rewrite (bind_ok _ _ _ _ _ E1), (bind_ok _ _ _ _ _ (real_tail_ok dbl _ _ _ _ _ Lk2)).
    - destruct (shape_of _ _ i Hr) as [Es V|al Es V|al hd tl ns Es V Lk HW];
      destruct (shape_of _ _ j Hr) as [Es2 V2|al2 Es2 V2|al2 hd2 tl2 ns2 Es2 V2 Lk2 HW2];
        unfold exists_, moved in Ht; rewrite Es, Es2 in Ht; try done; clear Ht; eapply two_bad; try done; apply advance_then; intros p E;
        [by destruct rv..| |by destruct rv].
      apply advance_null in E as [_ ->]. pose proof (next_at dbl _ _ _ [] _ _ Lk2) as E1. cbn [endp] in E1.
      destruct rv; unfold l_splice, l_splice_rv; cbn [l_head L];
        by rewrite (bind_ok _ _ _ _ _ E1), (bind_ok _ _ _ _ _ (real_tail_ok dbl _ _ _ _ _ Lk2)).
    - unfold l_two_ne, contents. destruct (Nat.eqb_spec i j) as [<-|Hij]; cbn [orb].
      { rewrite andb_diag, orb_diag in Ht. apply andb_true_iff in Ht as [_ Ht]. destruct (Hm _ Ht) as [al V].
        unfold bind, wget. by rewrite V. }
      assert (Hsame : forall l o, w_vars w !! i = Some l -> w_vars w !! j = Some o -> l_len o = 0 ->
        l_two i j (fun l o => if rv then l_merge_rv dbl l o lt else l_merge dbl l o lt) w = Ok (OUnit, w)).
      { intros l o V V2 E. unfold l_two, bind, wget. rewrite V, V2. unfold lift.
        assert ((if rv then l_merge_rv dbl l o lt else l_merge dbl l o lt) (w_heap w) = Ok ((l, o), w_heap w)) as ->.
        { destruct rv; unfold l_merge_rv, l_merge; by rewrite E. }
        unfold wset, ret. simpl. rewrite (insert_id _ j) by done. rewrite (insert_id _ i) by done. by destruct w. }
      destruct (shape_of _ _ i Hr) as [Es V|al Es V|al hd tl ns Es V Lk HW];
      destruct (shape_of _ _ j Hr) as [Es2 V2|al2 Es2 V2|al2 hd2 tl2 ns2 Es2 V2 Lk2 HW2];
        unfold exists_, moved in Ht; rewrite Es, Es2 in Ht; try done; rewrite Es2; cbn [default isnil].
      + by eapply Hsame.
      + destruct ns2 as [|[a x] ns2]; [by eapply Hsame|]. eapply two_bad; [done..|]. by destruct rv.
      + by eapply Hsame.
    - destruct (Hm _ Ht) as [al V]. by eapply upd_err.
    - destruct (Hm _ Ht) as [al V]. destruct dbl; [by eapply upd_err|]. by eapply updo_same.
    - destruct (Hm _ Ht) as [al V]. by eapply updo_same.
    - destruct (Hm _ Ht) as [al V]. by eapply updo_same.
    - destruct (Hm _ Ht) as [al V]. by eapply obs_err.
    - destruct (Hm _ Ht) as [al V]. eapply obs_err; [exact V|]. unfold l_front_unchecked_const. by destruct dbl.
    - destruct (Hm _ Ht) as [al V]. by eapply obs_err.
    - destruct (Hm _ Ht) as [al V]. by eapply obs_err.
    - destruct (Hm _ Ht) as [al V]. by eapply obs_err.
    - destruct (Hm _ Ht) as [al V]. by eapply obs_err.
    - destruct (Hm _ Ht) as [al V]. eapply updo_same; [exact V|]. unfold l_into_iter. cbn [l_move].
      destruct (into_empty calls (Lst PNull PNull 0 al) (w_heap w) eq_refl) as [E1 _].
      by rewrite !bind_bind, (bind_ok _ _ _ _ _ E1).
    - destruct (Hm _ Ht) as [al V]. by eapply obs_err.
  Qed.
End Proofs.

Section More.
  Context {T : Type} (dbl : bool).
  (** What no assertion catches: using a list that has been moved from, in
      the calls below, is undefined in a debug build too. *)
  Theorem C75_uncaught sp w i : dreached (T := T) dbl sp w -> moved sp i = true ->
    debug_step dbl (DOp (LClear i)) w = Err UB /\
    (forall vs, debug_step dbl (DOp (LIlist i vs)) w = Err UB) /\
    (forall n v, n < W -> debug_step dbl (DOp (LResize i n v)) w = Err UB) /\
    (forall v, debug_step dbl (DOp (LPushF i v)) w = Err UB) /\
    debug_step dbl (DOp (LPopF i)) w = Err UB /\
    (dbl = true -> forall v, debug_step dbl (DOp (LPushB i v)) w = Err UB) /\
    (forall k j rv, exists_ sp j = true -> debug_step dbl (DOp (LSplA i k j rv)) w = Err UB /\
       debug_step dbl (DOp (LSplA j k i rv)) w = Err UB) /\
    debug_step dbl (DOp (LFrontU i)) w = Err UB /\
    debug_step dbl (DOp (LItems i)) w = Err UB /\
    (forall calls, dbl || forward calls = true -> debug_step dbl (DOp (LIter i calls)) w = Err UB) /\
    debug_step dbl (DOp (LPrint i)) w = Err UB.
  Proof.
    intros Hr Hm.
    assert (G : forall o, available dbl (DOp o) = true -> touches sp o = true -> fires sp (DOp o) = false ->
      answer dbl sp o = None -> debug_step dbl (DOp o) w = Err UB).
    { intros o Ha Ht Hf Hn. rewrite (C75_debug_exact dbl _ _ _ Hr Ha), Hf. cbn [release_step].
      by rewrite (C76_moved_from dbl _ _ _ Hr Ha Ht), Hn. }
    assert (He : exists_ sp i = true). { unfold exists_, moved in *. by destruct (sp !! i) as [[? [?|]]|]. }
    repeat split; intros; try (by apply G).
    - apply G; try done. cbn [touches]. rewrite Hm. by apply N.ltb_lt.
    - apply G; try done. cbn [touches]. by rewrite He, H, Hm.
    - apply G; try done. cbn [touches]. by rewrite He, H, Hm, orb_true_r.
  Qed.
End More.

(** "A debug build computes what a release build computes as long as the
    program keeps to what the members allow" is false: lists that have been
    moved from may be copied, and a debug build panics. *)
Theorem C75_refuted (dbl : bool) : ~ forall ops : list (dop N), Forall (client dbl) ops ->
  match srun (rspec dbl) ∅ ops with
  | SOk _ outs => exists w, run_ops (debug_step dbl) ops winit = Ok (outs, w)
  | SPanic => False
  | SPre => True
  end.
Proof.
  intros Hc. specialize (Hc [DOp (LRange 0 0 [1; 2]); DOp (LMove 1 0); DOp (LCopy 2 0)]). destruct Hc as [w E].
  - repeat constructor.
  - revert E. destruct dbl; vm_compute; discriminate.
Qed.

(** A program in which nothing fires, and then one call of every kind that
    does: at the end of the list, before its beginning, on an empty list, on a
    list that has been moved from. *)
Definition C75_ops : list (dop N) :=
  [DOp (LRange 0 0 [3; 1; 2]); DOp (LNew 1 0); DOp (LMove 2 0); DOp (LEmpA 2 3 5); DOp (LPopF 2); DInsN 2 4 2 8;
   DOp (LEraAR 2 3 5); DOp (LSrt 2 N.ltb); DOp (LItems 2); DOp (LMer 2 1 false N.ltb); DOp (LSize 0); DOp (LInto 2 [true; false])].
Definition C75_calls : list (dop N) :=
  [DOp (LEmpA 2 5 7); DOp (LEraA 2 5); DOp (LInsA 0 0 []); DOp (LEraAR 2 5 1); DInsN 2 0 1 7; DOp (LEmp 0 0 7); DOp (LPopB 1); DOp (LPopB 0);
   DOp (LCopy 3 0); DOp (LCopyAsg 1 0); DOp (LMoveAl 3 0 0); DOp (LMer 0 0 false N.ltb); DOp (LRev 0); DOp (LUniq 0 N.eqb)].
Example C75_ex : Forall (client true) C75_ops /\ Forall (client true) C75_calls /\
  (exists sp, srun (dspec true) ∅ C75_ops = SOk sp
    [OUnit; OUnit; OUnit; OPos 4; OUnit; OPos 4; OPos 4; OUnit; OList [1; 2; 5; 8]; OUnit; ONum 0; OOpts [Some 1; Some 8]]) /\
  (exists sp outs, srun (dspec true) ∅ (take 9 C75_ops) = SOk sp outs /\ map (fires sp) C75_calls = replicate 14 true).
Proof.
  assert (I2 : forall o : dop N, dordered o -> available true o = true -> client true o) by (intros; by split).
  split; [|split; [|split]].
  - repeat (constructor; [apply I2; [first [exact I|exact swo_ltb]|done]|]). constructor.
  - repeat (constructor; [apply I2; [first [exact I|exact swo_ltb]|done]|]). constructor.
  - eexists. vm_compute. reflexivity.
  - eexists _, _. split; vm_compute; reflexivity.
Qed.
(** States with lists that have been moved from and empty lists, for the other
    theorems, and the answers of [C76_moved_from]. *)
Example C76_ex : exists sp w, dreached true sp w /\ moved sp 0 = true /\ sp !! 1%nat = Some (0, Some []) /\
  exists_ sp 2 = true /\ sp !! 2%nat = Some (0, Some [3; 1]) /\
  map (touches sp) [LRemIf 0 (fun _ => true); LMer 1 0 true N.ltb; LMer 0 2 false N.ltb; LEra 0 0; LResize 0 0 5; LSpl 0 0 2 true; LRev 0]
    = replicate 7 true /\
  map (answer true sp) [LRemIf 0 (fun _ => true); LMer 1 0 true N.ltb; LMer 0 2 false N.ltb; LEra 0 0; LResize 0 0 5; LSpl 0 0 2 true; LRev 0]
    = [Some (ONum 0); Some OUnit; None; Some (OPos 0); None; None; None].
Proof.
  set (ops := [DOp (LRange 0 0 [3; 1]); DOp (LNew 1 0); DOp (LMove 2 0)]).
  eexists _, _. split.
  - exists ops. eexists. split; [repeat constructor|]. split; vm_compute; reflexivity.
  - repeat split.
Qed.

Print Assumptions C75_debug_exact.
Print Assumptions C75_debug_histories.
Print Assumptions C75_false_alarms.
Print Assumptions C75_pop_front_missed.
Print Assumptions C75_uncaught.
Print Assumptions C75_refuted.
Print Assumptions C76_moved_from.
