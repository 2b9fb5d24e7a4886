(** * ListAlias: arguments that refer into a list (C74)

    Source: include/mstl/collection/linked_list.h.  The members that take a
    [const T&] get a reference to an element of a list, possibly of the one
    they are called on, and the members that take a pair of iterators get
    iterators of a list, possibly of the one they insert into.  ListModel.v
    passes values; here the argument is read from memory at the moment the
    code reads it.  [remove(val)] with such a reference is C23. *)
From Verif Require Import Base World Machine IterSpec ListModel ListSeg ListOps ListOps2 ListOps3 ListOps4 ListOps5
  SortSpec ListSort ListStep ListSpec ListRefine ListNodes ListBugs.
Local Open Scope N_scope.

Section Model.
  Context {T : Type} (dbl : bool).
  Notation H := (heap (cell T)).
  Notation HM := (M H).

  (** linked_list.h:1801-1806 [construct_node(val)] with [val] the element of
      node [q]: the node is allocated first, then [val] is copied. *)
  Definition construct_from (al : N) (q : lptr) : HM lptr :=
    n <-- alloc_node_with_data al ;;
    d <-- no_data n ;;
    (if d : bool then fail UB else x <-- value q ;; put_data n (DVal x)) ;;; ret n.

  (** The loops 950-954 and 1160-1164. *)
  Fixpoint append_ref (al : N) (p : lptr) (n : nat) (q : lptr) : HM lptr :=
    match n with
    | O => ret p
    | S n => tmp <-- construct_from al q ;; set_next dbl p tmp ;;; append_ref al tmp n q
    end.
  (** linked_list.h:941-958 [insert_after(pos, count, val)]. *)
  Definition l_insert_after_ref (l : lst) (pos : lptr) (n : N) (q : lptr) : HM (lst * lptr) :=
    if n =? 0 then ret (l, pos)
    else
      t <-- get_next pos ;;
      p <-- append_ref (l_al l) pos (N.to_nat n) q ;;
      set_next dbl p t ;;;
      r <-- get_next pos ;; ret (set_len l (uadd (l_len l) n), r).
  (** linked_list.h:1151-1168 [insert(pos, count, val)]. *)
  Definition l_insert_ref (l : lst) (pos : lptr) (n : N) (q : lptr) : HM (lst * lptr) :=
    if n =? 0 then ret (l, pos)
    else
      r <-- get_prev pos ;;
      p <-- append_ref (l_al l) r (N.to_nat n) q ;;
      set_next dbl p pos ;;;
      res <-- get_next r ;; ret (set_len l (uadd (l_len l) n), res).

  (** The loops 979-985 and 1192-1198: [first] moves on before the new node is
      linked in. *)
  Fixpoint append_own (fuel : nat) (al : N) (p first last : lptr) (cnt : N) : HM (lptr * N) :=
    match fuel with
    | O => fail Fuel
    | S fuel =>
        if decide (first = last) then ret (p, cnt)
        else
          tmp <-- construct_from al first ;;
          nx <-- get_next first ;;
          set_next dbl p tmp ;;; append_own fuel al tmp nx last (cnt + 1)
    end.
  (** linked_list.h:970-988 [insert_after(pos, first, last)]; [len++] once per
      round is added up at the end. *)
  Definition l_insert_after_own (fuel : nat) (l : lst) (pos first last : lptr) : HM (lst * lptr) :=
    if decide (first = last) then ret (l, pos)
    else
      t <-- get_next pos ;;
      '(p, c) <-- append_own fuel (l_al l) pos first last 0 ;;
      set_next dbl p t ;;;
      r <-- get_next pos ;; ret (set_len l (uadd (l_len l) c), r).
  (** linked_list.h:1183-1201 [insert(pos, first, last)]. *)
  Definition l_insert_own (fuel : nat) (l : lst) (pos first last : lptr) : HM (lst * lptr) :=
    if decide (first = last) then ret (l, pos)
    else
      r <-- get_prev pos ;;
      '(p, c) <-- append_own fuel (l_al l) r first last 0 ;;
      set_next dbl p pos ;;;
      res <-- get_next r ;; ret (set_len l (uadd (l_len l) c), res).

  (** linked_list.h:905-908 and 1007-1015 [insert_after(pos, val)]. *)
  Definition l_emplace_after_ref (l : lst) (pos q : lptr) : HM (lst * lptr) :=
    tmp <-- construct_from (l_al l) q ;;
    nx <-- get_next pos ;;
    set_next dbl tmp nx ;;; set_next dbl pos tmp ;;;
    ret (set_len l (uadd (l_len l) 1), tmp).
  (** linked_list.h:1078-1089 and 1110-1113 [insert(pos, val)]. *)
  Definition l_emplace_ref (l : lst) (pos q : lptr) : HM (lst * lptr) :=
    tmp <-- construct_from (l_al l) q ;;
    pr <-- get_prev pos ;;
    set_next dbl pr tmp ;;; set_next dbl tmp pos ;;;
    ret (set_len l (uadd (l_len l) 1), tmp).
  (** linked_list.h:1286-1303 [push_front(val)]. *)
  Definition l_push_front_ref (l : lst) (q : lptr) : HM lst :=
    node <-- construct_from (l_al l) q ;;
    nx <-- get_next (l_head l) ;;
    set_next dbl node nx ;;; set_next dbl (l_head l) node ;;;
    value node ;;; ret (set_len l (uadd (l_len l) 1)).
  (** linked_list.h:1337-1360 [push_back(val)]. *)
  Definition l_push_back_ref (l : lst) (q : lptr) : HM lst :=
    node <-- construct_from (l_al l) q ;;
    pr <-- get_prev (l_tail l) ;;
    set_next dbl pr node ;;; set_next dbl node (l_tail l) ;;;
    value node ;;; ret (set_len l (uadd (l_len l) 1)).
  (** linked_list.h:1908-1926 [extend(count, val)]. *)
  Fixpoint extend_ref_loop (al : N) (p tl : lptr) (n : nat) (q : lptr) : HM lptr :=
    match n with
    | O => ret p
    | S n =>
        tmp <-- construct_from al q ;;
        set_next dbl p tmp ;;; set_next dbl tmp tl ;;; extend_ref_loop al tmp tl n q
    end.
  Definition l_extend_ref (l : lst) (count : N) (q : lptr) : HM lst :=
    let d := usub count (l_len l) in
    p <-- (if dbl then get_prev (l_tail l) else stl_advance (N.to_nat (l_len l)) (l_head l)) ;;
    extend_ref_loop (l_al l) p (l_tail l) (N.to_nat d) q ;;;
    ret (set_len l count).
  (** linked_list.h:1400-1410 [resize(count, val)]. *)
  Definition l_resize_ref (l : lst) (count : N) (q : lptr) : HM lst :=
    if count =? 0 then l_clear dbl l
    else if count =? l_len l then ret l
    else if l_len l <? count then l_extend_ref l count q
    else l_shorten dbl l count.

  (** Calls; [j], [m] stand for the element with index [m] of list [j],
      [j], [a], [b] for the iterators to the elements with the indices [a] and
      [b] (or the end); positions [k] count from [before_begin()]. *)
  Inductive aop :=
  | AOp (o : lop T)
  | APushF (i j m : nat)
  | APushB (i j m : nat)
  | AResize (i : nat) (n : N) (j m : nat)
  | AInsA1 (i k j m : nat)
  | AIns1 (i k j m : nat)
  | AInsAN (i k : nat) (n : N) (j m : nat)
  | AInsN (i k : nat) (n : N) (j m : nat)
  | AInsAR (i k j a b : nat)
  | AInsR (i k j a b : nat).

  Notation WM := (M (world (cell T) lst)).
  Definition at_elem (j m : nat) (f : lptr -> WM (lout T)) : WM (lout T) :=
    o <-- wget j ;; q <-- lift (stl_advance (S m) (l_head o)) ;; f q.
  Definition at_range (j a b : nat) (f : lptr -> lptr -> WM (lout T)) : WM (lout T) :=
    o <-- wget j ;; q1 <-- lift (stl_advance (S a) (l_head o)) ;;
    q2 <-- lift (stl_advance (S b) (l_head o)) ;; f q1 q2.
  Definition alias_step (o : aop) : WM (lout T) :=
    match o with
    | AOp o => list_step dbl o
    | APushF i j m => at_elem j m (fun q => l_upd i (fun l => l_push_front_ref l q))
    | APushB i j m => at_elem j m (fun q => l_upd i (fun l => l_push_back_ref l q))
    | AResize i n j m => at_elem j m (fun q => l_upd i (fun l => l_resize_ref l n q))
    | AInsA1 i k j m => at_elem j m (fun q => l_at i k (fun l p => l_emplace_after_ref l p q))
    | AIns1 i k j m => at_elem j m (fun q => l_at i k (fun l p => l_emplace_ref l p q))
    | AInsAN i k n j m => at_elem j m (fun q => l_at i k (fun l p => l_insert_after_ref l p n q))
    | AInsN i k n j m => at_elem j m (fun q => l_at i k (fun l p => l_insert_ref l p n q))
    | AInsAR i k j a b =>
        at_range j a b (fun q1 q2 => l_at i k (fun l p =>
          fuel <-- nodes_in_memory ;; l_insert_after_own fuel l p q1 q2))
    | AInsR i k j a b =>
        at_range j a b (fun q1 q2 => l_at i k (fun l p =>
          fuel <-- nodes_in_memory ;; l_insert_own fuel l p q1 q2))
    end.

  (** ** Specification *)

  (** What the call does to sequences: as if the elements referred to had
      been copied before the call.  A range of the list itself must not have
      the node after which the elements go behind its first one. *)
  Notation lstate := (gmap nat (N * option (list T))).
  Notation res := (sres lstate (lout T)).
  Definition pick (sp : lstate) (j m : nat) (k : T -> res) : res :=
    live sp j (fun _ ys => match ys !! m with Some x => k x | None => SPre end).
  Definition crosses (i j a b k : nat) : bool := ((i =? j) && (a + 1 <? k) && (k <=? b))%nat.
  Definition slice (sp : lstate) (j a b : nat) (k : list T -> res) : res :=
    live sp j (fun _ ys => need ((a <=? b) && (b <=? length ys))%nat (k (take (b - a) (drop a ys)))).
  Definition alias_spec (sp : lstate) (o : aop) : res :=
    match o with
    | AOp o => gspec dbl sp o
    | APushF i j m => pick sp j m (fun x => lspec dbl sp (LPushF i x))
    | APushB i j m => pick sp j m (fun x => lspec dbl sp (LPushB i x))
    | AResize i n j m => pick sp j m (fun x => lspec dbl sp (LResize i n x))
    | AInsA1 i k j m => pick sp j m (fun x => lspec dbl sp (LEmpA i k x))
    | AIns1 i k j m => pick sp j m (fun x => lspec dbl sp (LEmp i k x))
    | AInsAN i k n j m => pick sp j m (fun x => lspec dbl sp (LInsA i k (replicate (N.to_nat n) x)))
    | AInsN i k n j m => pick sp j m (fun x => lspec dbl sp (LIns i k (replicate (N.to_nat n) x)))
    | AInsAR i k j a b =>
        slice sp j a b (fun vs => need (negb (crosses i j a b k)) (lspec dbl sp (LInsA i k vs)))
    | AInsR i k j a b =>
        slice sp j a b (fun vs => need (negb (crosses i j a b (k - 1))) (lspec dbl sp (LIns i k vs)))
    end.
  Definition aordered (o : aop) : Prop := match o with AOp o => ordered o | _ => True end.
End Model.
Global Arguments aop : clear implicits.

Section Proofs.
  Context {T : Type} (dbl : bool).
  Notation lstate := (gmap nat (N * option (list T))).
  Notation lok := (lok dbl).
  Notation sn := (sn dbl).
  Notation rel := (rel (T := T) dbl).
  Notation H := (heap (cell T)).
  Implicit Types (h : H) (ns ms : list (N * T)) (w : world (cell T) lst) (sp : lstate) (xs : list T).

  (** ** One reference *)
  Lemma bind_ext {S A B} (m : M S A) (f g : A -> M S B) s :
    (forall a s', m s = Ok (a, s') -> f a s' = g a s') -> bind m f s = bind m g s.
  Proof. intros E. unfold bind. destruct (m s) as [[a s']|]; [|done]. by apply E. Qed.

  Lemma construct_from_ok h al al' a x : hwf h -> node h al' a x ->
    construct_from al (PAddr a) h = construct_node al x h.
  Proof.
    intros Hw Hn. unfold construct_from, construct_node. apply bind_ext. intros n h1 E1.
    assert (n = PAddr (hnext h) /\ node h1 al' a x) as [-> Hn1].
    { revert E1. unfold alloc_node_with_data. rewrite hnew_endless, !bind_bind.
      unfold bind at 1, halloc. rewrite bind_ret. simpl to_ptr.
      unfold put_data at 1. rewrite bind_bind. erewrite bind_ok; [|apply rd_ok; simpl; apply lookup_insert].
      erewrite bind_ok; [|eapply wr_ok; simpl; apply lookup_insert]. intros E1. injection E1 as <- <-. split; [done|].
      pose proof (node_has _ _ _ _ Hn) as Ha. assert (Hlt : a < hnext h) by (by apply Hw).
      unfold node, dt in *. simpl. rewrite insert_insert, lookup_insert_ne by lia. done. }
    apply bind_ext. intros d h2 E2.
    assert (h2 = h1) as ->.
    { revert E2. unfold no_data, bind. destruct (rd _ h1) as [[c h3]|] eqn:E3; [|done].
      assert (h3 = h1) as ->. { revert E3. unfold rd, hread. destruct (hmap h1 !! _); [|done]. by intros [= _ <-]. }
      destruct (n_dat c); [done|..]; by intros [= _ <-]. }
    destruct d; [done|]. rewrite bind_bind. by rewrite (bind_ok _ _ _ _ _ (value_ok _ _ _ _ Hn1)).
  Qed.
  Lemma hwf_upn h p n : hwf h -> hwf (upn h p n).
  Proof. intros Hw a Ha. change (has (upn h p n) a) in Ha. rewrite has_upn in Ha. by apply Hw. Qed.
  Lemma hwf_upp h p n : hwf h -> hwf (upp h p n).
  Proof. intros Hw a Ha. change (has (upp h p n) a) in Ha. rewrite has_upp in Ha. by apply Hw. Qed.
  Lemma put_next_inv h (p n : lptr) u h' : put_next p n h = Ok (u, h') -> exists a, p = PAddr a /\ h' = upn h a n.
  Proof.
    intros E. destruct p as [| |a]; [done|done|]. exists a. split; [done|].
    destruct (hmap h !! a) eqn:Ea.
    - rewrite put_next_ok in E by (by eexists). by injection E.
    - unfold put_next, bind, rd, hread in E. by rewrite Ea in E.
  Qed.
  Lemma put_prev_inv h (p n : lptr) u h' : put_prev p n h = Ok (u, h') -> exists a, p = PAddr a /\ h' = upp h a n.
  Proof.
    intros E. destruct p as [| |a]; [done|done|]. exists a. split; [done|].
    destruct (hmap h !! a) eqn:Ea.
    - rewrite put_prev_ok in E by (by eexists). by injection E.
    - unfold put_prev, bind, rd, hread in E. by rewrite Ea in E.
  Qed.
  (** Linking changes no element. *)
  Lemma set_next_keeps h (p n : lptr) u h' al a x : set_next dbl p n h = Ok (u, h') -> hwf h -> node h al a x ->
    hwf h' /\ node h' al a x.
  Proof.
    intros E Hw Hn. unfold set_next, bind in E. destruct (put_next p n h) as [[u1 h1]|] eqn:E1; [|done].
    apply put_next_inv in E1 as (b & -> & ->).
    assert (A : hwf (upn h b n) /\ node (upn h b n) al a x).
    { split; [by apply hwf_upn|]. unfold node. by rewrite dt_upn. }
    destruct dbl; [|by injection E as _ <-]. destruct (decide _); [by injection E as _ <-|].
    apply put_prev_inv in E as (c & -> & ->). destruct A as [A1 A2].
    split; [by apply hwf_upp|]. unfold node. by rewrite dt_upp.
  Qed.
  Lemma construct_keeps h al v (n : lptr) h' al' a x : construct_node al v h = Ok (n, h') -> hwf h -> node h al' a x ->
    hwf h' /\ node h' al' a x.
  Proof.
    rewrite construct_ok. intros [= <- <-] Hw Hn. split; [by apply hwf_ins|].
    pose proof (node_has _ _ _ _ Hn) as Ha. assert (Hlt : a < hnext h) by (by apply Hw).
    unfold node. by rewrite dt_ins, decide_False by lia.
  Qed.
  Lemma append_ref_ok al al' a x n : forall (p : lptr) h, hwf h -> node h al' a x ->
    append_ref dbl al p n (PAddr a) h = append dbl al p (replicate n x) h.
  Proof.
    induction n as [|n IH]; intros p h Hw Hn; [done|]. cbn [append_ref replicate append].
    unfold bind at 1. rewrite (construct_from_ok _ _ _ _ _ Hw Hn). symmetry. apply bind_ext. intros t h1 E1.
    destruct (construct_keeps _ _ _ _ _ _ _ _ E1 Hw Hn) as [Hw1 Hn1]. apply bind_ext. intros u h2 E2.
    destruct (set_next_keeps _ _ _ _ _ _ _ _ E2 Hw1 Hn1) as [Hw2 Hn2]. symmetry. by apply IH.
  Qed.
  Lemma extend_ref_ok al al' a x n : forall (p tl : lptr) h, hwf h -> node h al' a x ->
    extend_ref_loop dbl al p tl n (PAddr a) h = extend_loop dbl al p tl (replicate n x) h.
  Proof.
    induction n as [|n IH]; intros p tl h Hw Hn; [done|]. cbn [extend_ref_loop replicate extend_loop].
    unfold bind at 1. rewrite (construct_from_ok _ _ _ _ _ Hw Hn). symmetry. apply bind_ext. intros t h1 E1.
    destruct (construct_keeps _ _ _ _ _ _ _ _ E1 Hw Hn) as [Hw1 Hn1]. apply bind_ext. intros u h2 E2.
    destruct (set_next_keeps _ _ _ _ _ _ _ _ E2 Hw1 Hn1) as [Hw2 Hn2]. apply bind_ext. intros u' h3 E3.
    destruct (set_next_keeps _ _ _ _ _ _ _ _ E3 Hw2 Hn2) as [Hw3 Hn3]. symmetry. by apply IH.
  Qed.

  Lemma push_front_ref_ok l h al' a x : hwf h -> node h al' a x ->
    l_push_front_ref dbl l (PAddr a) h = l_push_front dbl l x h.
  Proof. intros Hw Hn. unfold l_push_front_ref, l_push_front, bind at 1 6. by rewrite (construct_from_ok _ _ _ _ _ Hw Hn). Qed.
  Lemma push_back_ref_ok l h al' a x : hwf h -> node h al' a x ->
    l_push_back_ref dbl l (PAddr a) h = l_push_back dbl l x h.
  Proof. intros Hw Hn. unfold l_push_back_ref, l_push_back, bind at 1 6. by rewrite (construct_from_ok _ _ _ _ _ Hw Hn). Qed.
  Lemma emplace_after_ref_ok l p h al' a x : hwf h -> node h al' a x ->
    l_emplace_after_ref dbl l p (PAddr a) h = l_emplace_after dbl l p x h.
  Proof. intros Hw Hn. unfold l_emplace_after_ref, l_emplace_after, bind at 1 5. by rewrite (construct_from_ok _ _ _ _ _ Hw Hn). Qed.
  Lemma emplace_ref_ok l p h al' a x : hwf h -> node h al' a x ->
    l_emplace_ref dbl l p (PAddr a) h = l_emplace dbl l p x h.
  Proof. intros Hw Hn. unfold l_emplace_ref, l_emplace, bind at 1 5. by rewrite (construct_from_ok _ _ _ _ _ Hw Hn). Qed.
  Lemma get_next_same h (p q : lptr) h' : get_next p h = Ok (q, h') -> h' = h.
  Proof.
    unfold get_next, bind. destruct p; [done|done|]. unfold rd, hread. destruct (hmap h !! a); [|done].
    unfold defd. by destruct (n_next _); [done|intros [= _ <-]..].
  Qed.
  Lemma get_prev_same h (p q : lptr) h' : get_prev p h = Ok (q, h') -> h' = h.
  Proof.
    unfold get_prev, bind. destruct p; [done|done|]. unfold rd, hread. destruct (hmap h !! a); [|done].
    unfold defd. by destruct (n_prev _); [done|intros [= _ <-]..].
  Qed.
  Lemma advance_same k : forall (p q : lptr) h h', stl_advance k p h = Ok (q, h') -> h' = h.
  Proof.
    induction k as [|k IH]; intros p q h h' E; [by injection E|]. cbn [stl_advance] in E. unfold bind in E.
    destruct (get_next p h) as [[r h1]|] eqn:E1; [|done]. apply get_next_same in E1 as ->. by eapply IH.
  Qed.
  Lemma insert_after_ref_ok l p n h al' a x : hwf h -> node h al' a x ->
    l_insert_after_ref dbl l p n (PAddr a) h = l_insert_after dbl l p (replicate (N.to_nat n) x) h.
  Proof.
    intros Hw Hn. unfold l_insert_after_ref, l_insert_after. destruct (N.eqb_spec n 0) as [->|Hne]; [done|].
    destruct (N.to_nat n) as [|m] eqn:Em; [lia|]. change (replicate (S m) x) with (x :: replicate m x) at 1. cbn match.
    apply bind_ext. intros t h1 E1. apply get_next_same in E1 as ->. unfold bind at 1.
    rewrite (append_ref_ok _ _ _ _ _ _ _ Hw Hn). apply bind_ext. intros q h2 _. apply bind_ext. intros u h3 _.
    apply bind_ext. intros r h4 _. rewrite replicate_length. by replace (N.of_nat (S m)) with n by lia.
  Qed.
  Lemma insert_ref_ok l p n h al' a x : hwf h -> node h al' a x ->
    l_insert_ref dbl l p n (PAddr a) h = l_insert dbl l p (replicate (N.to_nat n) x) h.
  Proof.
    intros Hw Hn. unfold l_insert_ref, l_insert. destruct (N.eqb_spec n 0) as [->|Hne]; [done|].
    destruct (N.to_nat n) as [|m] eqn:Em; [lia|]. change (replicate (S m) x) with (x :: replicate m x) at 1. cbn match.
    apply bind_ext. intros t h1 E1. apply get_prev_same in E1 as ->. unfold bind at 1.
    rewrite (append_ref_ok _ _ _ _ _ _ _ Hw Hn). apply bind_ext. intros q h2 _. apply bind_ext. intros u h3 _.
    apply bind_ext. intros r h4 _. rewrite replicate_length. by replace (N.of_nat (S m)) with n by lia.
  Qed.
  Lemma resize_ref_ok l n h al' a x : hwf h -> node h al' a x ->
    l_resize_ref dbl l n (PAddr a) h = l_resize dbl l n x h.
  Proof.
    intros Hw Hn. unfold l_resize_ref, l_resize. destruct (n =? 0); [done|]. destruct (n =? l_len l); [done|].
    destruct (l_len l <? n); [|done]. unfold l_extend_ref, l_extend. apply bind_ext. intros p h1 E1.
    assert (h1 = h) as ->. { destruct dbl; [by eapply get_prev_same|by eapply advance_same]. }
    unfold bind at 1. by rewrite (extend_ref_ok _ _ _ _ _ _ _ _ Hw Hn).
  Qed.

  (** ** Ranges *)
  Notation spt := ListSort.sp.
  Lemma pth_has h al ns e b : pth h al ns e -> b ∈ ads ns -> has h b.
  Proof.
    induction ns as [|[a v] ns IH]; intros Hp Hb; [by apply elem_of_nil in Hb|]. destruct Hp as (P1 & _ & P3).
    rewrite ads_cons in Hb. apply elem_of_cons in Hb as [->|Hb]; [by eapply node_has|by apply IH].
  Qed.
  (** One round of the loop. *)
  Lemma round h al al' a v p (q last : lptr) fuel cnt : hwf h -> has h p -> node h al' a v -> nx h a = Some q -> q <> PUndef ->
    PAddr a <> last ->
    append_own dbl (S fuel) al (PAddr p) (PAddr a) last cnt h =
      append_own dbl fuel al (PAddr (hnext h)) q last (cnt + 1) (sn (ins h (dcell al v)) p (hnext h)).
  Proof.
    intros Hw Hp Hn Hx Hq Hl. cbn [append_own]. rewrite decide_False by done.
    unfold bind at 1. rewrite (construct_from_ok _ _ _ _ _ Hw Hn), construct_ok.
    assert (Hlt : a < hnext h). { apply Hw. by eapply node_has. }
    erewrite bind_ok; [|apply get_next_ok; [|exact Hq]; rewrite nx_ins, decide_False by lia; exact Hx].
    erewrite bind_ok; [|apply set_next_ok; apply has_ins; [by right|by left]]. done.
  Qed.
  (** What a round leaves alone. *)
  Lemma round_frame h al v p b : hwf h -> has h p -> has h b -> b <> p ->
    nx (sn (ins h (dcell al v)) p (hnext h)) b = nx h b /\ dt (sn (ins h (dcell al v)) p (hnext h)) b = dt h b.
  Proof.
    intros Hw Hp Hb Hne. assert (Hlt : b < hnext h) by by apply Hw.
    rewrite nx_sn by (apply has_ins; by right). rewrite decide_False by done.
    rewrite nx_ins, decide_False by lia. rewrite dt_sn, dt_ins, decide_False by lia. done.
  Qed.
  Lemma append_own_ok al al' e ns : forall fuel h p cnt, hwf h -> has h p -> pth h al' ns (PAddr e) -> e ∉ ads ns ->
    p ∉ ads (tail ns) -> NoDup (ads ns) -> (length ns < fuel)%nat ->
    append_own dbl fuel al (PAddr p) (spt ns (PAddr e)) (PAddr e) cnt h =
      bind (append dbl al (PAddr p) (vls ns)) (fun q => ret (q, cnt + nlen ns)) h.
  Proof.
    induction ns as [|[a v] ns IH]; intros fuel h p cnt Hw Hp Ht He Hpn Hnd Hf; (destruct fuel as [|fuel]; [simpl in Hf; lia|]).
    { cbn. rewrite decide_True by done. unfold bind, ret. simpl. by rewrite N.add_0_r. }
    destruct Ht as (P1 & P2 & P3). rewrite ads_cons in He, Hnd. apply NoDup_cons in Hnd as [Hna Hnd].
    apply not_elem_of_cons in He as [Hea He]. cbn [tail] in Hpn.
    assert (Hq : spt ns (PAddr e) <> PUndef) by by destruct ns as [|[]].
    change (spt ((a, v) :: ns) (PAddr e)) with (PAddr a).
    rewrite (round h al al' a v p _ (PAddr e) fuel cnt Hw Hp P1 P2 Hq) by (intros [=]; done).
    change (vls ((a, v) :: ns)) with (v :: vls ns). cbn [append].
    rewrite IH.
    - symmetry. rewrite bind_bind, (bind_ok _ _ _ _ _ (construct_ok h al v)), bind_bind.
      erewrite bind_ok; [|apply set_next_ok; apply has_ins; [by right|by left]].
      apply bind_ext. intros r h' _. unfold ret. do 2 f_equal. f_equal. cbn [length]. lia.
    - by apply hwf_sn, hwf_ins.
    - apply has_sn, has_ins. by left.
    - eapply pth_frame; [|exact P3]. intros b Hb. apply round_frame; try done; [by eapply pth_has|].
      by intros ->.
    - done.
    - destruct ns as [|[b y] ns]; [by apply not_elem_of_nil|]. cbn [tail]. intros Hin.
      assert (has h (hnext h)) as Hh. { eapply pth_has; [exact P3|]. rewrite ads_cons. by right. }
      apply Hw in Hh. lia.
    - done.
    - simpl in Hf. lia.
  Qed.
  (** The loop that runs after its own tail. *)
  Lemma pth_snoc h al ns p x (e : lptr) : pth h al ns (PAddr p) -> node h al p x -> nx h p = Some e -> pth h al (ns ++ [(p, x)]) e.
  Proof.
    induction ns as [|[a v] ns IH]; intros Hp Hn Hx; [done|]. destruct Hp as (P1 & P2 & P3). simpl.
    split; [done|]. split; [|by apply IH]. rewrite P2. by destruct ns as [|[]].
  Qed.
  Lemma spt_snoc ns p (x : T) (e : lptr) : spt (ns ++ [(p, x)]) e = spt ns (PAddr p).
  Proof. by destruct ns as [|[]]. Qed.
  Lemma append_own_endless al (e : N) fuel : forall h ns p x cnt, hwf h -> has h e -> pth h al ns (PAddr p) ->
    ns <> [] -> node h al p x -> p ∉ ads ns -> NoDup (ads ns) -> e ∉ ads ns -> e <> p ->
    append_own dbl fuel al (PAddr p) (spt ns (PAddr p)) (PAddr e) cnt h = Err Fuel.
  Proof.
    induction fuel as [|fuel IH]; intros h ns p x cnt Hw He Ht Hne Hn Hp Hnd Hl Hlp; [done|].
    destruct ns as [|[a v] ns]; [done|]. destruct Ht as (P1 & P2 & P3).
    rewrite ads_cons in Hp, Hnd, Hl. apply NoDup_cons in Hnd as [Hna Hnd]. apply not_elem_of_cons in Hp as [Hpa Hp].
    apply not_elem_of_cons in Hl as [Hla Hl]. pose proof (node_has _ _ _ _ Hn) as Hph.
    assert (Hq : spt ns (PAddr p) <> PUndef) by by destruct ns as [|[]].
    change (spt ((a, v) :: ns) (PAddr p)) with (PAddr a).
    rewrite (round h al al a v p _ (PAddr e) fuel cnt Hw Hph P1 P2 Hq) by (intros [=]; done).
    rewrite <-(spt_snoc ns p x (PAddr (hnext h))).
    assert (Hfresh : forall b, has h b -> b <> hnext h) by (intros b Hb ->; apply Hw in Hb; lia).
    apply (IH _ _ _ v).
    - by apply hwf_sn, hwf_ins.
    - apply has_sn, has_ins. by right.
    - apply pth_snoc.
      + eapply pth_frame; [|exact P3]. intros b Hb. apply round_frame; try done; [by eapply pth_has|]. by intros ->.
      + unfold node. rewrite dt_sn, dt_ins, decide_False by by apply Hfresh. done.
      + rewrite nx_sn by (apply has_ins; by right). by rewrite decide_True.
    - by destruct ns.
    - unfold node. rewrite dt_sn, dt_ins, decide_True by done. done.
    - rewrite ads_app. intros [Hin|Hin]%elem_of_app.
      + by apply (Hfresh (hnext h)); [eapply pth_has|].
      + rewrite ads_cons in Hin. apply elem_of_list_singleton in Hin. by apply (Hfresh p).
    - rewrite ads_app. apply NoDup_app. split; [done|]. split; [|apply NoDup_singleton].
      intros b Hb Hin. apply elem_of_list_singleton in Hin. simpl in Hin. by subst.
    - rewrite ads_app. intros [Hin|Hin]%elem_of_app; [done|]. apply elem_of_list_singleton in Hin. done.
    - by apply Hfresh.
  Qed.

  Lemma spt_start ns tl : spt ns (PAddr tl) = PAddr (startp ns tl).
  Proof. by destruct ns as [|[]]. Qed.
  Lemma advance_split h al hd ns tl k : lok h al hd ns tl -> (k <= length ns)%nat ->
    stl_advance (S k) (PAddr hd) h = Ok (PAddr (startp (drop k ns) tl), h).
  Proof.
    intros Lk Hk. rewrite <-(take_drop k ns) in Lk. pose proof (advance_start dbl _ _ _ _ _ _ Lk) as E.
    by rewrite take_length_le in E by done.
  Qed.
  (** The part of a list between two iterators. *)
  Lemma lok_part h al hd ns tl a b : lok h al hd ns tl -> (a <= b)%nat -> (b <= length ns)%nat ->
    let part := take (b - a) (drop a ns) in let e := startp (drop b ns) tl in
    pth h al part (PAddr e) /\ NoDup (ads part) /\ e ∉ ads part /\ startp (drop a ns) tl = startp part e /\ has h e.
  Proof.
    intros Lk Ha Hb part e.
    assert (Hs : ns = take a ns ++ part ++ drop b ns).
    { unfold part. rewrite <-(take_drop a ns) at 1. f_equal. rewrite <-(take_drop (b - a) (drop a ns)) at 1. f_equal.
      rewrite drop_drop. f_equal. lia. }
    pose proof (lok_nd2 dbl _ _ _ _ _ Lk) as [Hnd _]. rewrite Hs, !ads_app, <-!app_assoc in Hnd.
    apply NoDup_app in Hnd as (_ & _ & Hnd). apply NoDup_app in Hnd as (N1 & N2 & N3).
    assert (He : e ∈ ads (drop b ns) ++ [tl]).
    { unfold e. destruct (drop b ns) as [|[c y] r]; simpl; set_solver. }
    split; [|split; [done|split; [|split]]].
    - assert (Hs2 : ns = (take a ns ++ part) ++ drop b ns) by (by rewrite <-app_assoc).
      assert (Lk2 : lok h al hd ((take a ns ++ part) ++ drop b ns) tl) by (by rewrite <-Hs2).
      apply lok_pth in Lk2. fold e in Lk2. revert Lk2. generalize (take a ns). clear. intros m.
      induction m as [|[c y] m IH]; [done|]. intros (_ & _ & P). by apply IH.
    - intros Hin. by apply (N2 e).
    - rewrite <-(take_drop (b - a) (drop a ns)) at 1. rewrite drop_drop. replace (a + (b - a))%nat with b by lia.
      fold part. unfold e. destruct part as [|[]]; done.
    - rewrite <-(take_drop b ns) in Lk. by apply lok_has1 in Lk as [_ ?].
  Qed.

  Lemma insert_after_own_ok l p e part fuel h al' : hwf h -> has h p -> pth h al' part (PAddr e) -> e ∉ ads part ->
    p ∉ ads (tail part) -> NoDup (ads part) -> (length part < fuel)%nat ->
    l_insert_after_own dbl fuel l (PAddr p) (PAddr (startp part e)) (PAddr e) h = l_insert_after dbl l (PAddr p) (vls part) h.
  Proof.
    intros Hw Hp Ht He Hpt Hnd Hf. unfold l_insert_after_own, l_insert_after. destruct part as [|[a v] r].
    { by rewrite decide_True. }
    change (vls ((a, v) :: r)) with (v :: vls r) at 1. cbn match. rewrite decide_False.
    2:{ simpl. intros [= ->]. apply He. by left. }
    apply bind_ext. intros t h1 E1. apply get_next_same in E1 as ->. rewrite <-spt_start.
    unfold bind at 1. rewrite (append_own_ok _ _ _ _ _ _ _ _ Hw Hp Ht He Hpt Hnd Hf).
    unfold bind at 1 4. destruct (append dbl _ _ _ h) as [[q h2]|]; [|done]. cbn -[set_next get_next vls uadd].
    apply bind_ext. intros u h3 _. apply bind_ext. intros r' h4 _. by rewrite vls_length.
  Qed.
  Lemma insert_own_ok l q p e part fuel h al' : hwf h -> get_prev q h = Ok (PAddr p, h) -> has h p -> pth h al' part (PAddr e) -> e ∉ ads part ->
    p ∉ ads (tail part) -> NoDup (ads part) -> (length part < fuel)%nat ->
    l_insert_own dbl fuel l q (PAddr (startp part e)) (PAddr e) h = l_insert dbl l q (vls part) h.
  Proof.
    intros Hw Hq Hp Ht He Hpt Hnd Hf. unfold l_insert_own, l_insert. destruct part as [|[a v] r].
    { by rewrite decide_True. }
    change (vls ((a, v) :: r)) with (v :: vls r) at 1. cbn match. rewrite decide_False.
    2:{ simpl. intros [= ->]. apply He. by left. }
    rewrite !(bind_ok _ _ _ _ _ Hq). rewrite <-spt_start.
    unfold bind at 1. rewrite (append_own_ok _ _ _ _ _ _ _ _ Hw Hp Ht He Hpt Hnd Hf).
    unfold bind at 1 4. destruct (append dbl _ _ _ h) as [[q' h2]|]; [|done]. cbn -[set_next get_next vls uadd].
    apply bind_ext. intros u h3 _. apply bind_ext. intros r' h4 _. by rewrite vls_length.
  Qed.

  (** ** Steps *)
  Lemma upd_ext (f g : lst -> M H lst) w i : (forall l, w_vars w !! i = Some l -> f l (w_heap w) = g l (w_heap w)) ->
    l_upd (T := T) i f w = l_upd i g w.
  Proof.
    intros E. unfold l_upd, l_updo, bind at 1 5, wget. destruct (w_vars w !! i) as [l|] eqn:Hl; [|done].
    unfold lift, bind. by rewrite (E l eq_refl).
  Qed.
  Lemma at_ext (f g : lst -> lptr -> M H (lst * lptr)) w i k : (forall l p, w_vars w !! i = Some l ->
      stl_advance k (l_head l) (w_heap w) = Ok (p, w_heap w) -> f l p (w_heap w) = g l p (w_heap w)) ->
    l_at (T := T) i k f w = l_at i k g w.
  Proof.
    intros E. unfold l_at, l_updo, bind at 1 7, wget. destruct (w_vars w !! i) as [l|] eqn:Hl; [|done].
    unfold lift, bind. destruct (stl_advance k _ _) as [[p h']|] eqn:Ea; [|done].
    pose proof (advance_same _ _ _ _ _ Ea) as ->. by rewrite (E l p eq_refl Ea).
  Qed.
  Lemma elem_run sp w j m (f : lptr -> M (world (cell T) lst) (lout T)) (k : T -> sres lstate (lout T)) : rel sp w ->
    (forall al a x, node (w_heap w) al a x -> hwf (w_heap w) -> agrees rel (f (PAddr a) w) (k x)) ->
    agrees rel (at_elem j m f w) (pick sp j m k).
  Proof.
    intros Hr Hf. unfold pick, live. destruct (sp !! j) as [[al [ys|]]|] eqn:Hj; [|done|done].
    destruct (ys !! m) as [x|] eqn:Hx; [|done].
    destruct (rel_live dbl _ _ _ _ _ Hr Hj) as (Hwf & hd & tl & ns & V & X & Lk & _). subst ys.
    unfold vls in Hx. rewrite list_lookup_fmap in Hx. destruct (ns !! m) as [[a v]|] eqn:E; [|done].
    injection Hx as ->. pose proof (take_drop_middle _ _ _ E) as Hs.
    unfold at_elem, bind at 1, wget. rewrite V. unfold lift, bind. cbn [l_head L].
    rewrite (advance_split _ _ _ _ _ m Lk) by (apply lookup_lt_Some in E; lia).
    rewrite (drop_S _ _ _ E). cbn [startp]. destruct w as [hh vv]. cbn [w_heap w_vars] in *.
    eapply Hf; [|done]. rewrite <-Hs in Lk. by apply (node_at dbl) in Lk.
  Qed.
  (** Where the new nodes go, seen from the range. *)
  Lemma outside ns hd a b k : NoDup (ads ns) -> hd ∉ ads ns -> (k <= length ns)%nat ->
    ~ (a + 1 < k <= b)%nat -> endp hd (take k ns) ∉ ads (tail (take (b - a) (drop a ns))).
  Proof.
    intros Hnd Hh Hk Hc Hin. unfold ads in Hin. apply elem_of_list_lookup in Hin as [n Hn].
    rewrite list_lookup_fmap, lookup_tail in Hn.
    destruct (decide (S n < b - a)%nat) as [Hlt|Hge]; [|by rewrite lookup_take_ge in Hn by lia].
    rewrite lookup_take, lookup_drop in Hn by done.
    assert (Hn' : ads ns !! (a + S n)%nat = Some (endp hd (take k ns))) by (unfold ads; by rewrite list_lookup_fmap).
    destruct k as [|k].
    { apply Hh. apply elem_of_list_lookup. by exists (a + S n)%nat. }
    destruct (lookup_lt_is_Some_2 ns k) as [[c y] Hc']; [lia|].
    rewrite (take_S_r _ _ _ Hc'), endp_app in Hn'. simpl in Hn'.
    assert (Hk' : ads ns !! k = Some c) by (unfold ads; by rewrite list_lookup_fmap, Hc').
    pose proof (NoDup_lookup _ _ _ _ Hnd Hn' Hk'). lia.
  Qed.
  Lemma advance_pos h al hd ns tl k : lok h al hd ns tl -> (k <= length ns)%nat ->
    stl_advance k (PAddr hd) h = Ok (PAddr (endp hd (take k ns)), h) /\ has h (endp hd (take k ns)).
  Proof.
    intros Lk Hk. rewrite <-(take_drop k ns) in Lk. pose proof (advance_ok dbl _ _ _ _ _ _ Lk) as E.
    rewrite take_length_le in E by done. split; [done|]. by apply lok_has1 in Lk as [? _].
  Qed.
  (** Two lists and the node [k] of the first against the range of the second. *)
  Lemma range_facts sp w i j al xs al' ys a b k : rel sp w -> sp !! i = Some (al, Some xs) -> sp !! j = Some (al', Some ys) ->
    (a <= b)%nat -> (b <= length ys)%nat -> (k <= length xs)%nat -> crosses i j a b k = false ->
    hwf (w_heap w) /\ exists hd tl ns hd2 tl2 ms, w_vars w !! i = Some (L al hd tl ns) /\ vls ns = xs /\
      lok (w_heap w) al hd ns tl /\
      w_vars w !! j = Some (L al' hd2 tl2 ms) /\ vls ms = ys /\ lok (w_heap w) al' hd2 ms tl2 /\
      endp hd (take k ns) ∉ ads (tail (take (b - a) (drop a ms))) /\
      (length (take (b - a) (drop a ms)) < S (base.size (hmap (w_heap w))))%nat.
  Proof.
    intros Hr Hi Hj Ha Hb Hk Hc.
    assert (Hfu : forall hd tl (ms : list (N * T)) al, lok (w_heap w) al hd ms tl ->
      (length (take (b - a) (drop a ms)) < S (base.size (hmap (w_heap w))))%nat).
    { intros ? ? ? ? Lk. pose proof (lok_fuel dbl _ _ _ _ _ Lk). rewrite take_length, drop_length. lia. }
    destruct (decide (i = j)) as [<-|Hne].
    - rewrite Hi in Hj. injection Hj as <- <-. destruct (rel_live dbl _ _ _ _ _ Hr Hi) as (Hwf & hd & tl & ns & V & X & Lk & _).
      split; [done|]. exists hd, tl, ns, hd, tl, ns. do 6 (split; [done|]). split; [|by eapply Hfu].
      destruct (lok_nd2 dbl _ _ _ _ _ Lk) as [N1 N2]. apply NoDup_app in N1 as (N1 & _).
      apply outside; [done| |by rewrite <-X, vls_length in Hk|].
      + intros Hin. apply N2. apply elem_of_app. by left.
      + intros Hx. unfold crosses in Hc. rewrite Nat.eqb_refl in Hc. simpl in Hc.
        destruct (Nat.ltb_spec (a + 1) k); [|lia]. destruct (Nat.leb_spec k b); [done|lia].
    - destruct (rel_live2 dbl _ _ _ _ _ _ _ _ Hr Hne Hi Hj) as (Hwf & hd & tl & ns & hd2 & tl2 & ms & (V1 & X1 & L1 & _) & (V2 & X2 & L2 & _) & Hap & _).
      split; [done|]. exists hd, tl, ns, hd2, tl2, ms. do 6 (split; [done|]). split; [|by eapply Hfu].
      intros Hin. apply (Hap (endp hd (take k ns))).
      + unfold lfp. destruct k as [|k]; [by left|]. rewrite <-X1, vls_length in Hk.
        destruct (lookup_lt_is_Some_2 ns k) as [[c y] E]; [lia|]. rewrite (take_S_r _ _ _ E), endp_app. simpl. right.
        apply elem_of_app. left. apply elem_of_list_lookup. exists k. unfold ads. by rewrite list_lookup_fmap, E.
      + apply ads_in_lfp. revert Hin. unfold ads. rewrite !elem_of_list_fmap. intros (y & -> & Hy). exists y. split; [done|].
        assert (Hy' : y ∈ take (b - a) (drop a ms)). { destruct (take (b - a) (drop a ms)); [done|by right]. }
        apply elem_of_take in Hy' as (n & Hn & _). rewrite lookup_drop in Hn. apply elem_of_list_lookup. by eexists.
  Qed.
  Lemma range_run w j a b al hd tl ns (f : lptr -> lptr -> M (world (cell T) lst) (lout T)) :
    w_vars w !! j = Some (L al hd tl ns) -> lok (w_heap w) al hd ns tl -> (a <= b)%nat -> (b <= length ns)%nat ->
    at_range j a b f w = f (PAddr (startp (drop a ns) tl)) (PAddr (startp (drop b ns) tl)) w.
  Proof.
    intros V Lk Ha Hb. unfold at_range, bind at 1, wget. rewrite V. unfold lift, bind. cbn [l_head L].
    rewrite (advance_split _ _ _ _ _ a Lk) by lia. cbn [w_heap w_vars].
    rewrite (advance_split _ _ _ _ _ b Lk) by lia. by destruct w.
  Qed.
  Lemma alias_step_refines sp w o : aordered o -> rel sp w -> agrees rel (alias_step dbl o w) (alias_spec dbl sp o).
  Proof.
    intros Ho Hr. destruct o as [o|i j m|i j m|i n j m|i k j m|i k j m|i k n j m|i k n j m|i k j a b|i k j a b]; cbn [alias_step alias_spec].
    - by apply list_step_refines.
    - apply elem_run; [done|]. intros al a x Hn Hw. rewrite (upd_ext _ (fun l => l_push_front dbl l x)).
      { exact (list_step_refines dbl sp w (LPushF i x) I Hr). } intros l _. by eapply push_front_ref_ok.
    - apply elem_run; [done|]. intros al a x Hn Hw. rewrite (upd_ext _ (fun l => l_push_back dbl l x)).
      { exact (list_step_refines dbl sp w (LPushB i x) I Hr). } intros l _. by eapply push_back_ref_ok.
    - apply elem_run; [done|]. intros al a x Hn Hw. rewrite (upd_ext _ (fun l => l_resize dbl l n x)).
      { exact (list_step_refines dbl sp w (LResize i n x) I Hr). } intros l _. by eapply resize_ref_ok.
    - apply elem_run; [done|]. intros al a x Hn Hw. rewrite (at_ext _ (fun l p => l_emplace_after dbl l p x)).
      { exact (list_step_refines dbl sp w (LEmpA i k x) I Hr). } intros l p _ _. by eapply emplace_after_ref_ok.
    - apply elem_run; [done|]. intros al a x Hn Hw. rewrite (at_ext _ (fun l p => l_emplace dbl l p x)).
      { exact (list_step_refines dbl sp w (LEmp i k x) I Hr). } intros l p _ _. by eapply emplace_ref_ok.
    - apply elem_run; [done|]. intros al a x Hn Hw.
      rewrite (at_ext _ (fun l p => l_insert_after dbl l p (replicate (N.to_nat n) x))).
      { exact (list_step_refines dbl sp w (LInsA i k (replicate (N.to_nat n) x)) I Hr). }
      intros l p _ _. by eapply insert_after_ref_ok.
    - apply elem_run; [done|]. intros al a x Hn Hw.
      rewrite (at_ext _ (fun l p => l_insert dbl l p (replicate (N.to_nat n) x))).
      { exact (list_step_refines dbl sp w (LIns i k (replicate (N.to_nat n) x)) I Hr). }
      intros l p _ _. by eapply insert_ref_ok.
    - unfold slice, live. destruct (sp !! j) as [[al' [ys|]]|] eqn:Hj; [|done|done]. unfold need at 1.
      destruct (Nat.leb_spec a b) as [Ha|]; [|done]. destruct (Nat.leb_spec b (length ys)) as [Hb|]; [|done]. cbn [andb].
      unfold need. destruct (crosses i j a b k) eqn:Hc; [done|]. cbn [negb].
      destruct (sp !! i) as [[al [xs|]]|] eqn:Hi; [|by cbn [lspec]; unfold live; rewrite Hi..].
      destruct (Nat.leb_spec k (length xs)) as [Hk|Hk].
      2:{ cbn [lspec]. unfold live. rewrite Hi. unfold need. by rewrite (proj2 (Nat.leb_gt _ _) Hk). }
      destruct (range_facts _ _ _ _ _ _ _ _ _ _ _ Hr Hi Hj Ha Hb Hk Hc) as (Hwf & hd & tl & ns & hd2 & tl2 & ms & V1 & X1 & L1 & V2 & X2 & L2 & Ht & Hfu).
      assert (Hb' : (b <= length ms)%nat) by by rewrite <-X2, vls_length in Hb.
      assert (Hk' : (k <= length ns)%nat) by by rewrite <-X1, vls_length in Hk.
      rewrite (range_run _ _ _ _ _ _ _ _ _ V2 L2 Ha Hb').
      destruct (lok_part _ _ _ _ _ _ _ L2 Ha Hb') as (P1 & P2 & P3 & P4 & P5). rewrite P4.
      rewrite (at_ext _ (fun l p => l_insert_after dbl l p (take (b - a) (drop a ys)))).
      { exact (list_step_refines dbl sp w (LInsA i k (take (b - a) (drop a ys))) I Hr). }
      intros l p Hl Hp. rewrite V1 in Hl. injection Hl as <-. cbn [l_head L] in Hp.
      destruct (advance_pos _ _ _ _ _ _ L1 Hk') as [E1 E2]. rewrite E1 in Hp. injection Hp as <-.
      rewrite (bind_ok _ _ _ _ _ (fuel_ok _)). rewrite (insert_after_own_ok _ _ _ _ _ _ al'); try done.
      rewrite <-X2. unfold vls. by rewrite fmap_take, fmap_drop.
    - unfold slice, live. destruct (sp !! j) as [[al' [ys|]]|] eqn:Hj; [|done|done]. unfold need at 1.
      destruct (Nat.leb_spec a b) as [Ha|]; [|done]. destruct (Nat.leb_spec b (length ys)) as [Hb|]; [|done]. cbn [andb].
      unfold need at 1. destruct (crosses i j a b (k - 1)) eqn:Hc; [done|]. cbn [negb].
      destruct dbl eqn:Hd; [|done]. rewrite <-Hd in *.
      destruct (sp !! i) as [[al [xs|]]|] eqn:Hi; [|by cbn [lspec]; rewrite Hd; unfold live; simpl; rewrite Hi..].
      destruct (decide (1 <= k <= length xs + 1)%nat) as [Hk|Hk].
      2:{ cbn [lspec]. rewrite Hd. unfold live. cbn [need]. rewrite Hi. unfold need.
          destruct (Nat.leb_spec 1 k); [|done]. destruct (Nat.leb_spec k (length xs + 1)); [lia|done]. }
      destruct k as [|k]; [lia|]. replace (S k - 1)%nat with k in Hc by lia.
      assert (Hk1 : (k <= length xs)%nat) by lia.
      destruct (range_facts _ _ _ _ _ _ _ _ _ _ _ Hr Hi Hj Ha Hb Hk1 Hc) as (Hwf & hd & tl & ns & hd2 & tl2 & ms & V1 & X1 & L1 & V2 & X2 & L2 & Ht & Hfu).
      assert (Hb' : (b <= length ms)%nat) by by rewrite <-X2, vls_length in Hb.
      assert (Hk' : (k <= length ns)%nat) by by rewrite <-X1, vls_length in Hk1.
      rewrite (range_run _ _ _ _ _ _ _ _ _ V2 L2 Ha Hb').
      destruct (lok_part _ _ _ _ _ _ _ L2 Ha Hb') as (P1 & P2 & P3 & P4 & P5). rewrite P4.
      rewrite (at_ext _ (fun l p => l_insert dbl l p (take (b - a) (drop a ys)))).
      { exact (list_step_refines dbl sp w (LIns i (S k) (take (b - a) (drop a ys))) I Hr). }
      intros l p Hl Hp. rewrite V1 in Hl. injection Hl as <-. cbn [l_head L] in Hp.
      rewrite (advance_split _ _ _ _ _ _ L1 Hk') in Hp. injection Hp as <-.
      destruct (advance_pos _ _ _ _ _ _ L1 Hk') as [_ E2].
      rewrite (bind_ok _ _ _ _ _ (fuel_ok _)). rewrite (insert_own_ok _ _ (endp hd (take k ns)) _ _ _ _ al'); try done.
      + rewrite <-X2. unfold vls. by rewrite fmap_take, fmap_drop.
      + rewrite <-(take_drop k ns) in L1. by apply (prev_at dbl _ _ _ _ _ _ Hd L1).
  Qed.

  (** ** C74 *)
  Lemma alias_hist ops : Forall aordered ops -> forall sp w, rel sp w ->
    agrees rel (run_ops (alias_step dbl) ops w) (srun (alias_spec dbl) sp ops).
  Proof.
    induction ops as [|o ops IH]; intros Hf sp w Hr; simpl; [by exists w|].
    apply Forall_cons in Hf as [Ho Hf].
    pose proof (alias_step_refines sp w o Ho Hr) as H0. unfold agrees, bind, ret in *.
    destruct (alias_spec dbl sp o) as [s1 x| |]; simpl in *; [|by rewrite H0|done].
    destruct H0 as (w1 & -> & Hr1). pose proof (IH Hf s1 w1 Hr1) as H2.
    destruct (srun (alias_spec dbl) s1 ops) as [s2 xs| |]; [|by rewrite H2|done].
    destruct H2 as (w2 & -> & Hr2). by exists w2.
  Qed.
  Lemma no_panic ops : forall sp, srun (alias_spec dbl) sp ops <> SPanic.
  Proof.
    induction ops as [|o ops IH]; intros sp; simpl; [done|].
    assert (Hl : forall o, lspec dbl sp o <> SPanic).
    { clear. intros o. destruct o; cbn [lspec]; unfold fresh, look, live, need, take_over, give; repeat case_match; done. }
    assert (Hn : alias_spec dbl sp o <> SPanic).
    { destruct o; cbn [alias_spec]; unfold gspec, pick, slice, live, need; repeat case_match; try done; apply Hl. }
    destruct (alias_spec dbl sp o) as [s1 x| |] eqn:E1; [|done|done].
    specialize (IH s1). by destruct (srun _ s1 ops).
  Qed.
  (** Histories in which arguments refer to elements of lists, of the list
      itself or of another one: they do what they would do for copies made
      before the call, provided that no range of a list reaches over the
      place in that list where it is inserted. *)
  Theorem C74_references (ops : list (aop T)) : Forall aordered ops ->
    match srun (alias_spec dbl) ∅ ops with
    | SOk sp outs => exists w, run_ops (alias_step dbl) ops winit = Ok (outs, w) /\
        forall i, is_Some (w_vars w !! i) <-> is_Some (sp !! i)
    | SPanic => False
    | SPre => True
    end.
  Proof.
    intros Ho. pose proof (alias_hist ops Ho ∅ winit (world_ok_init _)) as E.
    destruct (srun (alias_spec dbl) ∅ ops) as [sp outs| |] eqn:Es; [|by apply no_panic in Es|done].
    destruct E as (w & E2 & [m Hw]). exists w. split; [done|].
    intros i. rewrite (wo_vars _ _ _ _ Hw), (wo_spec _ _ _ _ Hw), !lookup_fmap, !fmap_is_Some. done.
  Qed.

  (** The state after such a history. *)
  Definition areached sp w : Prop :=
    exists ops outs, Forall aordered ops /\ srun (alias_spec dbl) ∅ ops = SOk sp outs /\
      run_ops (alias_step dbl) ops winit = Ok (outs, w).
  Lemma areached_rel sp w : areached sp w -> rel sp w.
  Proof.
    intros (ops & outs & Ho & Es & E). pose proof (alias_hist ops Ho ∅ winit (world_ok_init _)) as E3.
    rewrite Es in E3. destruct E3 as (w' & E3 & Hr). rewrite E in E3. by injection E3 as ->.
  Qed.
  Lemma cross_split ns k a b : (a + 1 < k)%nat -> (k <= b)%nat -> (b <= length ns)%nat ->
    exists c x n1 n2 n3 n4, n2 <> [] /\ ns = n1 ++ n2 ++ (c, x) :: n3 ++ n4 /\ length n1 = a /\ length (n1 ++ n2) = (k - 1)%nat /\
      length (n1 ++ n2 ++ (c, x) :: n3) = b.
  Proof.
    intros Ha Hk Hb. destruct (lookup_lt_is_Some_2 ns (k - 1)) as [[c x] E]; [lia|].
    exists c, x, (take a ns), (take (k - 1 - a) (drop a ns)), (take (b - k) (drop k ns)), (drop b ns).
    assert (E1 : drop k ns = take (b - k) (drop k ns) ++ drop b ns).
    { rewrite <-(take_drop (b - k) (drop k ns)) at 1. f_equal. rewrite drop_drop. f_equal. lia. }
    assert (E2 : drop (k - 1) ns = (c, x) :: drop k ns).
    { rewrite (drop_S _ _ _ E). do 2 f_equal. lia. }
    assert (E3 : drop a ns = take (k - 1 - a) (drop a ns) ++ drop (k - 1) ns).
    { rewrite <-(take_drop (k - 1 - a) (drop a ns)) at 1. f_equal. rewrite drop_drop. f_equal. lia. }
    split; [|split; [|split; [|split]]].
    - intros E0. apply (f_equal length) in E0. rewrite take_length, drop_length in E0. simpl in E0. lia.
    - rewrite <-(take_drop a ns) at 1. f_equal. rewrite E3 at 1. f_equal. rewrite E2. by f_equal.
    - apply take_length_le. lia.
    - rewrite app_length, take_length_le, take_length, drop_length by lia. lia.
    - rewrite !app_length. simpl. rewrite !take_length, !drop_length. lia.
  Qed.
  (** The walk in a list from an iterator [a] before node [k] on, over it. *)
  Lemma cross_walk h al hd ns tl a b k fuel : hwf h -> lok h al hd ns tl -> (a + 1 < k)%nat -> (k <= b)%nat -> (b <= length ns)%nat ->
    PAddr (startp (drop a ns) tl) <> PAddr (startp (drop b ns) tl) /\
    append_own dbl fuel al (PAddr (endp hd (take k ns))) (PAddr (startp (drop a ns) tl)) (PAddr (startp (drop b ns) tl)) 0 h = Err Fuel.
  Proof.
    intros Hw Lk Ha Hk Hb. destruct (cross_split ns k a b Ha Hk Hb) as (c & x & n1 & n2 & n3 & n4 & Hn2 & Hns & Hl1 & Hl2 & Hl3).
    assert (Da : drop a ns = n2 ++ (c, x) :: n3 ++ n4) by (rewrite Hns, <-Hl1; apply drop_app).
    assert (Db : drop b ns = n4).
    { replace ns with ((n1 ++ n2 ++ (c, x) :: n3) ++ n4) by (rewrite Hns, <-!app_assoc; done). rewrite <-Hl3. apply drop_app. }
    assert (Tk : endp hd (take k ns) = c).
    { replace ns with (((n1 ++ n2) ++ [(c, x)]) ++ n3 ++ n4) by (rewrite Hns, <-!app_assoc; done).
      replace k with (length ((n1 ++ n2) ++ [(c, x)])) by (rewrite app_length, Hl2; simpl; lia). rewrite take_app.
      by rewrite endp_app. }
    rewrite Da, Db, Tk. pose proof (lok_nd2 dbl _ _ _ _ _ Lk) as [Hnd _].
    rewrite Hns, !ads_app, ads_cons, ads_app, <-!app_assoc in Hnd. apply NoDup_app in Hnd as (_ & _ & Hnd).
    apply NoDup_app in Hnd as (N1 & N2 & Hnd). simpl in Hnd. apply NoDup_cons in Hnd as [N3 Hnd].
    set (e := startp n4 tl). assert (He : e ∈ ads n4 ++ [tl]).
    { unfold e. destruct n4 as [|[]]; simpl; left. }
    assert (Hst : startp (n2 ++ (c, x) :: n3 ++ n4) tl = startp n2 c) by by destruct n2 as [|[]].
    assert (He2 : e ∉ ads n2). { intros Hin. apply (N2 e Hin). simpl. right. rewrite <-app_assoc. apply elem_of_app. by right. }
    rewrite Hst. split.
    - destruct n2 as [|[f y] n2]; [done|]. simpl. intros [= ->]. apply He2. by left.
    - rewrite <-spt_start. eapply append_own_endless; [done| |..].
      + rewrite <-(take_drop b ns) in Lk. apply lok_has1 in Lk as [_ Lk]. by rewrite Db in Lk.
      + rewrite Hns in Lk. rewrite app_assoc in Lk. apply lok_pth in Lk. simpl in Lk. revert Lk. clear.
        induction n1 as [|[d y] n1 IH]; [done|]. intros (_ & _ & P). by apply IH.
      + done.
      + rewrite Hns, app_assoc in Lk. by apply (node_at dbl) in Lk.
      + intros Hin. apply (N2 c Hin). by left.
      + done.
      + done.
      + intros ->. apply N3. rewrite <-app_assoc. apply elem_of_app. by right.
  Qed.
  (** Otherwise the loop runs into the nodes it is adding and never gets to
      the end of the range: whatever number of rounds is allowed, they do not
      suffice. *)
  Theorem C74_insert_after_endless sp w i al xs k a b l fuel : areached sp w -> sp !! i = Some (al, Some xs) ->
    (a + 1 < k)%nat -> (k <= b)%nat -> (b <= length xs)%nat -> w_vars w !! i = Some l ->
    exists p q1 q2, stl_advance k (l_head l) (w_heap w) = Ok (p, w_heap w) /\
      stl_advance (S a) (l_head l) (w_heap w) = Ok (q1, w_heap w) /\
      stl_advance (S b) (l_head l) (w_heap w) = Ok (q2, w_heap w) /\
      l_insert_after_own dbl fuel l p q1 q2 (w_heap w) = Err Fuel.
  Proof.
    intros Hr%areached_rel Hi Ha Hk Hb Hl. destruct (rel_live dbl _ _ _ _ _ Hr Hi) as (Hwf & hd & tl & ns & V & X & Lk & _).
    rewrite V in Hl. injection Hl as <-. cbn [l_head L].
    assert (Hb' : (b <= length ns)%nat) by by rewrite <-X, vls_length in Hb.
    assert (Hk' : (k <= length ns)%nat) by lia.
    destruct (cross_walk _ _ _ _ _ _ _ _ fuel Hwf Lk Ha Hk Hb') as [A1 A2]. destruct (advance_pos _ _ _ _ _ _ Lk Hk') as [E1 _].
    eexists _, _, _. split; [exact E1|]. split; [apply (advance_split _ _ _ _ _ _ Lk); lia|]. split; [by apply (advance_split _ _ _ _ _ _ Lk)|].
    unfold l_insert_after_own. rewrite decide_False by done.
    assert (Lk' := Lk). rewrite <-(take_drop k ns) in Lk'. rewrite (bind_ok _ _ _ _ _ (next_at dbl _ _ _ _ _ _ Lk')). cbn [l_al L].
    by apply bind_err.
  Qed.
  Theorem C74_insert_endless sp w i al xs k a b l fuel : dbl = true -> areached sp w -> sp !! i = Some (al, Some xs) ->
    (a + 1 < k)%nat -> (k <= b)%nat -> (b <= length xs)%nat -> w_vars w !! i = Some l ->
    exists p q1 q2, stl_advance (S k) (l_head l) (w_heap w) = Ok (p, w_heap w) /\
      stl_advance (S a) (l_head l) (w_heap w) = Ok (q1, w_heap w) /\
      stl_advance (S b) (l_head l) (w_heap w) = Ok (q2, w_heap w) /\
      l_insert_own dbl fuel l p q1 q2 (w_heap w) = Err Fuel.
  Proof.
    intros Hd Hr%areached_rel Hi Ha Hk Hb Hl. destruct (rel_live dbl _ _ _ _ _ Hr Hi) as (Hwf & hd & tl & ns & V & X & Lk & _).
    rewrite V in Hl. injection Hl as <-. cbn [l_head L].
    assert (Hb' : (b <= length ns)%nat) by by rewrite <-X, vls_length in Hb.
    assert (Hk' : (k <= length ns)%nat) by lia.
    destruct (cross_walk _ _ _ _ _ _ _ _ fuel Hwf Lk Ha Hk Hb') as [A1 A2].
    eexists _, _, _. split; [by apply (advance_split _ _ _ _ _ _ Lk)|]. split; [apply (advance_split _ _ _ _ _ _ Lk); lia|].
    split; [by apply (advance_split _ _ _ _ _ _ Lk)|].
    unfold l_insert_own. rewrite decide_False by done.
    assert (Lk' := Lk). rewrite <-(take_drop k ns) in Lk'. rewrite (bind_ok _ _ _ _ _ (prev_at dbl _ _ _ _ _ _ Hd Lk')). cbn [l_al L].
    by apply bind_err.
  Qed.
End Proofs.

(** Without the condition on ranges the claim is false: inserting the elements
    of a list behind their last but one, [l.insert_after(p, l.begin(),
    l.end())]. *)
Definition copy_spec {T} (dbl : bool) sp (o : aop T) :=
  match o with
  | AInsAR i k j a b => slice sp j a b (fun vs => lspec dbl sp (LInsA i k vs))
  | AInsR i k j a b => slice sp j a b (fun vs => lspec dbl sp (LIns i k vs))
  | _ => alias_spec dbl sp o
  end.
Theorem C74_refuted (dbl : bool) : ~ forall ops : list (aop N), Forall aordered ops ->
  match srun (copy_spec dbl) ∅ ops with
  | SOk _ outs => exists w, run_ops (alias_step dbl) ops winit = Ok (outs, w)
  | SPanic => False
  | SPre => True
  end.
Proof.
  intros Hc. specialize (Hc [AOp (LRange 0 0 [1; 2; 3]); AInsAR 0 2 0 0 3]). destruct Hc as [w E].
  - repeat constructor.
  - revert E. destruct dbl; vm_compute; discriminate.
Qed.

(** A history with references to own elements, whose results are checked, and
    ranges of the list itself: before the range, from its first element on
    ([l.insert_after(l.begin(), l.begin(), l.end())]), and behind it. *)
Definition C74_ops : list (aop N) :=
  [AOp (LRange 0 0 [1; 2; 3]); AOp (LRange 1 5 [8; 9]); APushF 0 0 1; AInsA1 0 2 0 3; AInsAN 0 1 2 0 0; AOp (LItems 0);
   AResize 0 9 0 6; AInsAR 0 0 0 0 2; AOp (LItems 0); AInsAR 1 1 1 0 2; AInsAR 1 4 1 1 3; AInsAR 0 5 1 0 6; AOp (LItems 1);
   AOp (LItems 0)].
Example C74_ex : Forall aordered C74_ops /\ forall dbl, exists sp,
  srun (alias_spec dbl) ∅ C74_ops = SOk sp
    [OUnit; OUnit; OUnit; OPos 3; OPos 2; OList [2; 2; 2; 1; 3; 2; 3]; OUnit; OPos 1;
     OList [2; 2; 2; 2; 2; 1; 3; 2; 3; 3; 3]; OPos 2; OPos 5; OPos 6; OList [8; 8; 9; 9; 8; 9];
     OList [2; 2; 2; 2; 2; 8; 8; 9; 9; 8; 9; 1; 3; 2; 3; 3; 3]].
Proof. split; [repeat constructor|]. intros [|]; eexists; vm_compute; reflexivity. Qed.
Definition C74_dbl_ops : list (aop N) :=
  [AOp (LRange 0 0 [1; 2; 3]); APushB 0 0 1; AIns1 0 5 0 0; AInsN 0 1 2 0 2; AInsR 0 1 0 0 7; AInsR 0 15 0 13 14; AOp (LItems 0);
   AOp (LItemsBack 0)].
Example C74_ex_dbl : Forall aordered C74_dbl_ops /\ exists sp,
  srun (alias_spec true) ∅ C74_dbl_ops = SOk sp
    [OUnit; OUnit; OPos 5; OPos 1; OPos 1; OPos 15; OList [3; 3; 1; 2; 3; 2; 1; 3; 3; 1; 2; 3; 2; 1; 1];
     OList [1; 1; 2; 3; 2; 1; 3; 3; 1; 2; 3; 2; 1; 3; 3]].
Proof. split; [repeat constructor|]. eexists; vm_compute; reflexivity. Qed.
(** [l.insert(l.end(), l.begin(), l.end())] meets the hypotheses of
    [C74_insert_endless]. *)
Example C74_ex_endless : exists sp w l, areached true sp w /\ sp !! 0%nat = Some (0, Some [1; 2; 3]) /\
  (0 + 1 < 3)%nat /\ (3 <= 3)%nat /\ (3 <= length [1; 2; 3])%nat /\ w_vars w !! 0%nat = Some l.
Proof.
  set (ops := [AOp (LRange 0 0 [1; 2; 3])]).
  eexists _, _, _. split.
  - exists ops. eexists. split; [repeat constructor|]. split; vm_compute; reflexivity.
  - split; [done|]. split; [lia|]. split; [lia|]. split; [simpl; lia|]. done.
Qed.

Print Assumptions C74_references.
Print Assumptions C74_insert_after_endless.
Print Assumptions C74_insert_endless.
Print Assumptions C74_refuted.
