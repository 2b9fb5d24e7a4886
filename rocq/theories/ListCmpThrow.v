(** * ListCmpThrow: list operations when the caller's predicate throws

    include/mstl/collection/linked_list.h: [sort], [merge], [unique] and
    [remove_if] call a predicate the caller supplies.  Here the predicate may
    throw; everything else does not.  The monad is that of [ListThrow], with the
    number of calls of the predicate that still return in place of the number of
    constructions. *)
From Verif Require Import Base World Machine IterSpec SortSpec ListModel ListSeg ListOps ListOps2 ListOps3 ListOps4 ListStep
  ListOps5 ListSort ListSpec ListRefine ListNodes ListLeak ListThrow.
Local Open Scope N_scope.

Section Model.
  Context {T : Type} (dbl : bool).
  Notation H := (heap (cell T)).
  Notation HM := (M H).
  Notation LM := (LM (T := T)).
  Notation "x <~ m ;; k" := (xbind m (fun x => k)) (at level 100, m at next level, right associativity).
  Notation "' pat <~ m ;; k" := (xbind m (fun x => match x with pat => k end))
    (at level 100, pat pattern, m at next level, right associativity).
  Notation "m ~;; k" := (xbind m (fun _ => k)) (at level 100, right associativity).

  (** The predicate is called: it returns, and is counted as in [ListModel], or
      it throws. *)
  Definition comparing : LM unit := fun s =>
    match x_k s with
    | O => Ok (None, s)
    | S k => mem htick (Lts (x_l s) (x_h s) k)
    end.

  (** linked_list.h:1610-1635 [remove_if], [noexcept]. *)
  Fixpoint x_remove_loop (fuel : nat) (f : T -> bool) (last cur : lptr) (cnt : N) : LM N :=
    match fuel with
    | O => mem (fail Fuel)
    | S fuel =>
        l <~ this ;;
        if decide (cur = l_tail l) then xret cnt
        else
          v <~ mem (value cur) ;;
          comparing ~;;
          if f v then
            nx <~ mem (get_next cur) ;;
            mem (set_next dbl last nx) ~;; mem (destroy_node (l_al l) cur) ~;;
            put (set_len l (usub (l_len l) 1)) ~;;
            cur' <~ mem (get_next last) ;;
            x_remove_loop fuel f last cur' (uadd cnt 1)
          else
            cur' <~ mem (get_next cur) ;; last' <~ mem (get_next last) ;;
            x_remove_loop fuel f last' cur' cnt
    end.
  Definition x_remove (f : T -> bool) : LM N :=
    l <~ this ;;
    if l_len l =? 0 then xret 0
    else
      cur <~ mem (get_next (l_head l)) ;;
      fuel <~ mem nodes_in_memory ;; x_remove_loop fuel f (l_head l) cur 0.
  Definition x_remove_if (f : T -> bool) : LM N := noexcept (x_remove f).

  (** linked_list.h:1677-1714 [unique]. *)
  Fixpoint x_unique_loop (fuel : nat) (r : T -> T -> bool) (bc last cur : lptr) (cnt : N) : LM N :=
    match fuel with
    | O => mem (fail Fuel)
    | S fuel =>
        l <~ this ;;
        if decide (cur = l_tail l) then xret cnt
        else
          v <~ mem (value cur) ;; w <~ mem (value last) ;;
          comparing ~;;
          if r v w then
            nx <~ mem (get_next cur) ;;
            mem (set_next dbl bc nx) ~;; mem (destroy_node (l_al l) cur) ~;;
            put (set_len l (usub (l_len l) 1)) ~;;
            cur' <~ mem (get_next bc) ;;
            x_unique_loop fuel r bc last cur' (uadd cnt 1)
          else
            cur' <~ mem (get_next cur) ;;
            x_unique_loop fuel r cur cur cur' cnt
    end.
  Definition x_unique (r : T -> T -> bool) : LM N :=
    l <~ this ;;
    if l_len l <? 2 then xret 0
    else
      f <~ mem (get_next (l_head l)) ;;
      cur <~ mem (get_next f) ;;
      fuel <~ mem nodes_in_memory ;; x_unique_loop fuel r f f cur 0.

  (** linked_list.h:259-301 [_private::merge]. *)
  Fixpoint x_merge_loop (fuel : nat) (lt : T -> T -> bool) (a b p : lptr) : LM (lptr * lptr * lptr) :=
    match fuel with
    | O => mem (fail Fuel)
    | S fuel =>
        ea <~ mem (m_end a) ;;
        if ea : bool then xret (a, b, p)
        else
          eb <~ mem (m_end b) ;;
          if eb : bool then xret (a, b, p)
          else
            x <~ mem (value a) ;; y <~ mem (value b) ;;
            comparing ~;;
            if lt x y then
              mem (set_next dbl p a) ~;; a' <~ mem (get_next a) ;; p' <~ mem (get_next p) ;;
              x_merge_loop fuel lt a' b p'
            else
              mem (set_next dbl p b) ~;; b' <~ mem (get_next b) ;; p' <~ mem (get_next p) ;;
              x_merge_loop fuel lt a b' p'
    end.
  Definition x_merge_nodes (lt : T -> T -> bool) (a b : lptr) : LM (lptr * lptr) :=
    ea <~ mem (m_end a) ;;
    if ea : bool then xret (b, PNull)
    else
      eb <~ mem (m_end b) ;;
      if eb : bool then xret (a, PNull)
      else
        x <~ mem (value a) ;; y <~ mem (value b) ;;
        comparing ~;;
        '(res, a1, b1) <~ mem (if lt x y then a' <-- get_next a ;; ret (a, a', b)
                               else b' <-- get_next b ;; ret (b, a, b')) ;;
        fuel <~ mem nodes_in_memory ;;
        '(a2, b2, p) <~ x_merge_loop fuel lt a1 b1 res ;;
        mem (ea <-- m_end a2 ;;
             (if ea : bool then
                eb <-- m_end b2 ;; (if eb : bool then ret tt else set_next dbl p b2)
              else set_next dbl p a2) ;;;
             t <-- last_loop fuel p ;;
             ret (res, t)).

  (** linked_list.h:232-255 [_private::mergeSort]. *)
  Fixpoint x_merge_sort (depth : nat) (lt : T -> T -> bool) (head : lptr) : LM (lptr * lptr) :=
    match depth with
    | O => mem (fail Fuel)
    | S depth =>
        base <~ mem (if decide (head = PNull) then ret true
                     else n <-- get_next head ;; ret (bool_decide (n = PNull))) ;;
        if base : bool then xret (head, PNull)
        else
          fuel <~ mem nodes_in_memory ;;
          mid <~ mem (mid_loop fuel head head) ;;
          slow <~ mem (get_next mid) ;;
          mem (put_next mid PNull) ~;;
          g1 <~ x_merge_sort depth lt head ;;
          g2 <~ x_merge_sort depth lt slow ;;
          x_merge_nodes lt (fst g1) (fst g2)
    end.
  (** linked_list.h:1719-1737 [sort]. *)
  Definition x_sort (lt : T -> T -> bool) : LM unit :=
    l <~ this ;;
    f <~ mem (get_next (l_head l)) ;;
    depth <~ mem nodes_in_memory ;;
    r <~ x_merge_sort depth lt f ;;
    mem (set_next dbl (l_head l) (fst r) ;;;
         (if decide (snd r = PNull) then ret tt else set_next dbl (snd r) (l_tail l))).

  (** linked_list.h:1464-1486 [merge(other, p)], another list: both lengths are
      set before the nodes are merged. *)
  Definition x_merge (o : lst) (lt : T -> T -> bool) : LM unit :=
    if l_len o =? 0 then xret tt
    else
      l <~ this ;;
      a <~ mem (get_next (l_head l)) ;;
      b <~ mem (get_next (l_head o)) ;;
      mem (set_next dbl (l_head o) (l_tail o)) ~;;
      put (set_len l (uadd (l_len l) (l_len o))) ~;;
      r <~ x_merge_nodes lt a b ;;
      mem (set_next dbl (l_head l) (fst r) ;;;
           (if decide (snd r = PNull) then ret tt else set_next dbl (snd r) (l_tail l))).
  Definition emptied (o : lst) : lst := if l_len o =? 0 then o else set_len o 0.
  (** linked_list.h:1508-1533 [merge] with [other] an rvalue. *)
  Definition x_merge_rv (o : lst) (lt : T -> T -> bool) : LM unit :=
    if l_len o =? 0 then xret tt
    else
      l <~ this ;;
      a <~ mem (get_next (l_head l)) ;;
      b <~ mem (get_next (l_head o)) ;;
      put (set_len l (uadd (l_len l) (l_len o))) ~;;
      mem (destroy_node (l_al o) (l_head o)) ~;; mem (destroy_node (l_al o) (l_tail o)) ~;;
      r <~ x_merge_nodes lt a b ;;
      mem (set_next dbl (l_head l) (fst r) ;;;
           (if decide (snd r = PNull) then ret tt else set_next dbl (snd r) (l_tail l))).
  Definition emptied_rv (o : lst) : lst := if l_len o =? 0 then o else moved_from o.

  (** ** Programs: one operation in which [k] calls of the predicate return *)
  Notation WM := (M (world (cell T) lst)).
  Definition c_two (k i j : nat) (f : lst -> LM unit) (g : lst -> lst) : WM (option (lout T)) :=
    l <-- wget i ;; o <-- wget j ;; fun w =>
    match f o (Lts l (w_heap w) k) with
    | Ok (r, s) => Ok ((fun _ => OUnit) <$> r, World (x_h s) (<[i := x_l s]> (<[j := g o]> (w_vars w))))
    | Err e => Err e
    end.
  Definition c_step (k : nat) (o : lop T) : WM (option (lout T)) :=
    match o with
    | LSrt i lt => x_upd k i (x_sort lt ~;; xret OUnit)
    | LMer i j rv lt =>
        if (i =? j)%nat then quiet (list_step dbl o)
        else if rv then c_two k i j (fun o => x_merge_rv o lt) emptied_rv
        else c_two k i j (fun o => x_merge o lt) emptied
    | LUniq i r => x_upd k i (n <~ x_unique r ;; xret (ONum n))
    | LRemIf i f => x_upd k i (n <~ x_remove_if f ;; xret (ONum n))
    | _ => quiet (list_step dbl o)
    end.
End Model.

(** ** The predicate throws exactly when it is called more often than it
    returns; when it does not throw, the operations are those of [ListModel] *)
Section Sim.
  Context {T : Type} (dbl : bool).
  Notation H := (heap (cell T)).
  Notation HM := (M H).
  Notation LM := (LM (T := T)).
  Implicit Types (h : H) (l : lst) (k : nat).

  Definition calm {X} (m : HM X) : Prop := forall h x h', m h = Ok (x, h') -> hmoves h' = hmoves h.
  Definition sim {X} (xm : LM X) (m : HM X) : Prop :=
    (forall h x h', m h = Ok (x, h') -> hmoves h <= hmoves h') /\
    forall l h k, match xm (Lts l h k) with
    | Ok (Some x, s) => m h = Ok (x, x_h s) /\ x_l s = l /\ hmoves (x_h s) + N.of_nat (x_k s) = hmoves h + N.of_nat k
    | Ok (None, s) => x_l s = l /\ forall x h', m h = Ok (x, h') -> hmoves h + N.of_nat k < hmoves h'
    | Err e => m h = Err e
    end.
  Lemma sim_calm {X} (m : HM X) : calm m -> sim (mem m) m.
  Proof.
    intros Hc. split; [intros h x h' E; rewrite (Hc _ _ _ E); lia|]. intros l h k. unfold mem. cbn [x_h x_l x_k].
    destruct (m h) as [[x h']|] eqn:E; [|done]. cbn [x_h x_l x_k]. rewrite (Hc _ _ _ E). done.
  Qed.
  Lemma sim_ret {X} (x : X) : sim (xret x) (ret x).
  Proof. split; [by intros h y h' [= <- <-]|]. done. Qed.
  Lemma sim_fail {X} e : sim (mem (X := X) (fail e)) (fail e).
  Proof. apply sim_calm. by intros h y h' [=]. Qed.
  Lemma sim_cmp : sim comparing (htick : HM unit).
  Proof.
    split. { intros h [] h' [= <-]. simpl. lia. }
    intros l h k. unfold comparing. cbn [x_k]. destruct k as [|k].
    - split; [done|]. intros [] h' [= <-]. simpl. lia.
    - cbn [x_l x_h]. unfold mem, htick. cbn. split; [done|]. split; [done|]. lia.
  Qed.
  Lemma sim_bind {X Y} (xm : LM X) (m : HM X) (xf : X -> LM Y) (f : X -> HM Y) :
    sim xm m -> (forall x, sim (xf x) (f x)) -> sim (xbind xm xf) (bind m f).
  Proof.
    intros [Hm1 Hm2] Hf. split.
    - intros h y h'. unfold bind. destruct (m h) as [[x h1]|] eqn:E; [|done]. intros E2.
      apply Hm1 in E. apply (proj1 (Hf x)) in E2. lia.
    - intros l h k. specialize (Hm2 l h k). unfold xbind. destruct (xm (Lts l h k)) as [[[x|] [l1 h1 k1]]|e] eqn:E.
      + cbn [x_h x_l x_k] in Hm2. destruct Hm2 as (E1 & -> & E2). unfold bind. rewrite E1.
        pose proof (proj2 (Hf x) l h1 k1) as Hx. destruct (xf x (Lts l h1 k1)) as [[[y|] s]|]; [| |done].
        * destruct Hx as (A & B & C). split; [done|]. split; [done|]. lia.
        * destruct Hx as (A & B). split; [done|]. intros y h' Ey. specialize (B _ _ Ey). lia.
      + destruct Hm2 as (A & B). split; [done|]. intros y h'. unfold bind.
        destruct (m h) as [[x h2]|] eqn:E1; [|done]. intros E2. specialize (B _ _ eq_refl). apply (proj1 (Hf x)) in E2. lia.
      + unfold bind. by rewrite Hm2.
  Qed.

  Lemma calm_ret {X} (x : X) : calm (ret x).
  Proof. by intros h y h' [= <- <-]. Qed.
  Lemma calm_fail {X} e : calm (fail (A := X) e).
  Proof. by intros h y h' [=]. Qed.
  Lemma calm_bind {X Y} (m : HM X) (f : X -> HM Y) : calm m -> (forall x, calm (f x)) -> calm (bind m f).
  Proof.
    intros Hm Hf h y h'. unfold bind. destruct (m h) as [[x h1]|] eqn:E; [|done]. intros E2.
    apply Hm in E. apply Hf in E2. congruence.
  Qed.
  Lemma calm_read a : calm (hread a).
  Proof. intros h c h'. unfold hread. destruct (hmap h !! a); [|done]. by intros [= <- <-]. Qed.
  Lemma calm_write a c : calm (hwrite a c).
  Proof. intros h [] h'. unfold hwrite. destruct (hmap h !! a); [|done]. by intros [= <-]. Qed.
  Lemma calm_nodes : calm (nodes_in_memory (T := T)).
  Proof. intros h n h'. unfold nodes_in_memory. by intros [= <- <-]. Qed.
  Local Hint Resolve calm_ret calm_fail calm_read calm_write calm_nodes : calm.
  Ltac calms := repeat (intros; first [solve [auto 2 with calm nocore] | apply calm_bind | case_match]).
  Lemma calm_rd p : calm (rd p). Proof. unfold rd. calms. Qed.
  Lemma calm_wr p c : calm (wr p c). Proof. unfold wr. calms. Qed.
  Local Hint Resolve calm_rd calm_wr : calm.
  Lemma calm_get_next p : calm (get_next p). Proof. unfold get_next, defd. calms. Qed.
  Lemma calm_no_data p : calm (no_data p). Proof. unfold no_data. calms. Qed.
  Lemma calm_value p : calm (value p). Proof. unfold value. calms. Qed.
  Lemma calm_put_next p q : calm (put_next p q). Proof. unfold put_next. calms. Qed.
  Lemma calm_put_prev p q : calm (put_prev p q). Proof. unfold put_prev. calms. Qed.
  Local Hint Resolve calm_get_next calm_no_data calm_value calm_put_next calm_put_prev : calm.
  Lemma calm_set_next p q : calm (set_next dbl p q). Proof. unfold set_next. calms. Qed.
  Lemma calm_m_end p : calm (m_end p). Proof. unfold m_end. calms. Qed.
  Lemma calm_s_end p : calm (s_end p). Proof. unfold s_end. calms. Qed.
  Local Hint Resolve calm_set_next calm_m_end calm_s_end : calm.
  Lemma calm_mid fuel : forall a b, calm (mid_loop fuel a b).
  Proof. induction fuel as [|fuel IH]; intros a b; cbn [mid_loop]; calms. Qed.
  Lemma calm_last fuel : forall p, calm (last_loop fuel p).
  Proof. induction fuel as [|fuel IH]; intros p; cbn [last_loop]; calms. Qed.
  Local Hint Resolve calm_mid calm_last : calm.

  Local Hint Resolve sim_ret sim_fail sim_cmp : calm.
  Ltac sims := repeat (intros; first
    [solve [auto 2 with calm nocore] | apply sim_bind | case_match | apply sim_calm; solve [calms] ]).
  Lemma sim_merge_loop lt fuel : forall a b p, sim (x_merge_loop dbl fuel lt a b p) (merge_loop dbl fuel lt a b p).
  Proof. induction fuel as [|fuel IH]; intros a b p; cbn [x_merge_loop merge_loop]; sims. Qed.
  Local Hint Resolve sim_merge_loop : calm.
  Lemma sim_merge_nodes lt a b : sim (x_merge_nodes dbl lt a b) (merge_nodes dbl lt a b).
  Proof. unfold x_merge_nodes, merge_nodes. sims. Qed.
  Local Hint Resolve sim_merge_nodes : calm.
  Lemma sim_merge_sort lt depth : forall p, sim (x_merge_sort dbl depth lt p) (merge_sort dbl depth lt p).
  Proof. induction depth as [|depth IH]; intros p; cbn [x_merge_sort merge_sort]; sims. Qed.
  Local Hint Resolve sim_merge_sort : calm.

  (** The same for members that update the object, from the object [l] on. *)
  Definition simo {X} l (xm : LM X) (m : HM (lst * X)) : Prop :=
    (forall h x h', m h = Ok (x, h') -> hmoves h <= hmoves h') /\
    forall h k, match xm (Lts l h k) with
    | Ok (Some x, s) => m h = Ok ((x_l s, x), x_h s) /\ hmoves (x_h s) + N.of_nat (x_k s) = hmoves h + N.of_nat k
    | Ok (None, s) => forall x h', m h = Ok (x, h') -> hmoves h + N.of_nat k < hmoves h'
    | Err e => m h = Err e
    end.
  Lemma simo_ret {X} l (x : X) : simo l (xret x) (ret (l, x)).
  Proof. split; [by intros h y h' [= <- <-]|]. done. Qed.
  Lemma simo_fail {X} l e : simo l (mem (X := X) (fail e)) (fail e).
  Proof. split; [by intros h y h' [=]|]. done. Qed.
  Lemma simo_this {X} l (f : lst -> LM X) m : simo l (f l) m -> simo l (xbind this f) m.
  Proof. done. Qed.
  Lemma simo_put {X} l l' (f : unit -> LM X) m : simo l' (f tt) m -> simo l (xbind (put l') f) m.
  Proof. done. Qed.
  Lemma simo_bind {X Y} l (xm : LM X) (m : HM X) (xf : X -> LM Y) (f : X -> HM (lst * Y)) :
    sim xm m -> (forall x, simo l (xf x) (f x)) -> simo l (xbind xm xf) (bind m f).
  Proof.
    intros [Hm1 Hm2] Hf. split.
    - intros h y h'. unfold bind. destruct (m h) as [[x h1]|] eqn:E; [|done]. intros E2.
      apply Hm1 in E. apply (proj1 (Hf x)) in E2. lia.
    - intros h k. specialize (Hm2 l h k). unfold xbind. destruct (xm (Lts l h k)) as [[[x|] [l1 h1 k1]]|e] eqn:E.
      + cbn [x_h x_l x_k] in Hm2. destruct Hm2 as (E1 & -> & E2). unfold bind. rewrite E1.
        pose proof (proj2 (Hf x) h1 k1) as Hx. destruct (xf x (Lts l h1 k1)) as [[[y|] s]|]; [| |done].
        * destruct Hx as (A & C). split; [done|]. lia.
        * intros y h' Ey. specialize (Hx _ _ Ey). lia.
      + destruct Hm2 as (A & B). intros y h'. unfold bind.
        destruct (m h) as [[x h2]|] eqn:E1; [|done]. intros E2. specialize (B _ _ eq_refl). apply (proj1 (Hf x)) in E2. lia.
      + unfold bind. by rewrite Hm2.
  Qed.
  (** What is done with the result. *)
  Lemma simo_map {X Y} l (xm : LM X) (m : HM (lst * X)) (f : X -> Y) :
    simo l xm m -> simo l (xbind xm (fun x => xret (f x))) ('(l', x) <-- m ;; ret (l', f x)).
  Proof.
    intros [Hm1 Hm2]. split.
    - intros h y h'. unfold bind. destruct (m h) as [[[l1 x] h1]|] eqn:E; [|done]. intros [= <- <-]. by eapply Hm1.
    - intros h k. specialize (Hm2 h k). unfold xbind. destruct (xm (Lts l h k)) as [[[x|] [l1 h1 k1]]|e] eqn:E.
      + destruct Hm2 as (E1 & E2). unfold bind. by rewrite E1.
      + intros y h'. unfold bind. destruct (m h) as [[[l2 x] h2]|] eqn:E1; [|done]. intros [= <- <-]. by eapply Hm2.
      + unfold bind. by rewrite Hm2.
  Qed.
  Lemma calm_free a : calm (hfree a).
  Proof. intros h [] h'. unfold hfree. destruct (hmap h !! a); [|done]. by intros [= <-]. Qed.
  Lemma calm_put_data p d : calm (put_data p d). Proof. unfold put_data. calms. Qed.
  Local Hint Resolve calm_free calm_put_data : calm.
  Lemma calm_dealloc al ly p : calm (dealloc (T := T) al ly p). Proof. unfold dealloc. calms. Qed.
  Local Hint Resolve calm_dealloc : calm.
  Lemma calm_destroy al p : calm (destroy_node (T := T) al p). Proof. unfold destroy_node. calms. Qed.
  Local Hint Resolve calm_destroy : calm.
  Local Hint Resolve simo_ret simo_fail : calm.
  Ltac simos := repeat (intros; first
    [solve [auto 2 with calm nocore] | apply simo_this | apply simo_put
    | apply simo_bind; [solve [sims]|] | case_match ]).
  Lemma simo_unique_loop r fuel : forall l b c p n, simo l (x_unique_loop dbl fuel r b c p n) (unique_loop dbl fuel l r b c p n).
  Proof. induction fuel as [|fuel IH]; intros l b c p n; cbn [x_unique_loop unique_loop]; simos. Qed.
  Local Hint Resolve simo_unique_loop : calm.
  Lemma simo_unique r l : simo l (x_unique dbl r) (l_unique dbl l r).
  Proof. unfold x_unique, l_unique. simos. Qed.
  Lemma simo_remove_loop f fuel : forall l c p n,
    simo l (x_remove_loop dbl fuel f c p n) (remove_loop dbl fuel l (fun v => ret (f v)) c p n).
  Proof.
    induction fuel as [|fuel IH]; intros l c p n; cbn [x_remove_loop remove_loop]; [simos|]. apply simo_this.
    case_match; [simos|]. apply simo_bind; [sims|]. intros v. apply simo_bind; [sims|]. intros _.
    change (bind (ret (f v)) ?g) with (g (f v)). cbv beta. simos.
  Qed.
  Local Hint Resolve simo_remove_loop : calm.
  Lemma simo_remove f l : simo l (x_remove dbl f) (l_remove_if dbl l f).
  Proof. unfold x_remove, l_remove_if, remove_if_m. simos. Qed.
  Lemma simo_ext {X} l (xm : LM X) (m m' : HM (lst * X)) : (forall h, m h = m' h) -> simo l xm m -> simo l xm m'.
  Proof.
    intros E [A B]. split.
    - intros h x h'. rewrite <-E. apply A.
    - intros h k. specialize (B h k). destruct (xm (Lts l h k)) as [[[x|] s]|]; [by rewrite <-E| |by rewrite <-E].
      intros x h'. rewrite <-E. apply B.
  Qed.
  Lemma simo_end l (m : HM unit) : calm m -> simo l (mem m) (m ;;; ret (l, tt)).
  Proof.
    intros Hc. split.
    - intros h x h'. unfold bind. destruct (m h) as [[[] h1]|] eqn:E; [|done]. intros [= <- <-]. rewrite (Hc _ _ _ E). lia.
    - intros h k. unfold mem, bind. cbn [x_h x_l x_k]. destruct (m h) as [[[] h1]|] eqn:E; [|done]. cbn [x_h x_l x_k].
      split; [done|]. by rewrite (Hc _ _ _ E).
  Qed.
  Ltac assocs := intros h; unfold bind; repeat case_match; simplify_eq; try done; congruence.
  Lemma simo_sort lt l : simo l (x_sort dbl lt) (l' <-- l_sort dbl l lt ;; ret (l', tt)).
  Proof.
    eapply (simo_ext _ _ (f <-- get_next (l_head l) ;; depth <-- nodes_in_memory ;; r <-- merge_sort dbl depth lt f ;;
       (set_next dbl (l_head l) (fst r) ;;; (if decide (snd r = PNull) then ret tt else set_next dbl (snd r) (l_tail l))) ;;;
       ret (l, tt))).
    { unfold l_sort, ret. assocs. }
    unfold x_sort. simos; apply simo_end; calms.
  Qed.
  (** [merge]: the lengths are set first. *)
  Lemma simo_merge (rv : bool) o lt l :
    simo l (if rv then x_merge_rv dbl o lt else x_merge dbl o lt)
      (r <-- (if rv then l_merge_rv dbl l o lt else l_merge dbl l o lt) ;; ret (fst r, tt)).
  Proof.
    destruct rv.
    - unfold x_merge_rv, l_merge_rv. destruct (l_len o =? 0); [exact (simo_ret l tt)|].
      set (l' := set_len l (uadd (l_len l) (l_len o))).
      eapply (simo_ext _ _ (a <-- get_next (l_head l) ;; b <-- get_next (l_head o) ;;
         destroy_node (l_al o) (l_head o) ;;; destroy_node (l_al o) (l_tail o) ;;; r <-- merge_nodes dbl lt a b ;;
         (set_next dbl (l_head l) (fst r) ;;; (if decide (snd r = PNull) then ret tt else set_next dbl (snd r) (l_tail l))) ;;;
         ret (l', tt))).
      { unfold ret. assocs. }
      simos; apply simo_end; calms.
    - unfold x_merge, l_merge. destruct (l_len o =? 0); [exact (simo_ret l tt)|].
      set (l' := set_len l (uadd (l_len l) (l_len o))).
      eapply (simo_ext _ _ (a <-- get_next (l_head l) ;; b <-- get_next (l_head o) ;;
         set_next dbl (l_head o) (l_tail o) ;;; r <-- merge_nodes dbl lt a b ;;
         (set_next dbl (l_head l) (fst r) ;;; (if decide (snd r = PNull) then ret tt else set_next dbl (snd r) (l_tail l))) ;;;
         ret (l', tt))).
      { unfold ret. assocs. }
      simos; apply simo_end; calms.
  Qed.
End Sim.

(** ** What the nodes look like when the exception leaves *)
Section Torn.
  Context {T : Type} (dbl : bool).
  Notation H := (heap (cell T)).
  Notation HM := (M H).
  Notation LM := (LM (T := T)).
  Notation sn := (sn dbl).
  Notation chn := (chn dbl).
  Implicit Types (h : H) (l : lst) (k : nat) (ns ms xs ys ds : list (N * T)) (e : lptr).

  (** Nodes that follow each other, and what follows the last. *)
  Fixpoint way h al ns e : Prop :=
    match ns with
    | [] => True
    | (a, v) :: r => node h al a v /\ nx h a = Some (sp r e) /\ way h al r e
    end.
  Lemma chn_way h al ns e : chn h al ns e -> way h al ns e.
  Proof.
    induction ns as [|[a v] ns IH]; intros Hc; [done|]. destruct (chn_cons _ _ _ _ _ _ _ Hc) as (A & B & C).
    cbn [way]. auto.
  Qed.
  Lemma sp_app ns ms e : sp (ns ++ ms) e = sp ns (sp ms e).
  Proof. by destruct ns as [|[a v] ns]. Qed.
  Lemma way_app h al ns ms e : way h al (ns ++ ms) e <-> way h al ns (sp ms e) /\ way h al ms e.
  Proof.
    induction ns as [|[a v] ns IH]; [naive_solver|]. cbn [app way]. rewrite IH, sp_app. naive_solver.
  Qed.
  Lemma way_node h al ns e a : way h al ns e -> a ∈ ads ns -> exists v, node h al a v.
  Proof.
    induction ns as [|[b w] ns IH]; [by intros _ ?%elem_of_nil|]. intros (A & _ & B).
    rewrite ads_cons. intros [->|Ha]%elem_of_cons; [by eexists|by apply IH].
  Qed.
  Lemma way_has h al ns e a : way h al ns e -> a ∈ ads ns -> has h a.
  Proof. intros Hw Ha. destruct (way_node _ _ _ _ _ Hw Ha) as [v Hv]. by eapply node_has. Qed.
  Lemma way_tk h al ns e : way h al ns e -> way (tk h) al ns e.
  Proof. induction ns as [|[a v] ns IH]; [done|]. intros (A & B & C). split; [exact A|]. split; [exact B|]. by apply IH. Qed.
  Lemma way_sn h al ns e p q : has h p -> has h q -> p ∉ ads ns -> way h al ns e -> way (sn h p q) al ns e.
  Proof.
    intros Hp Hq. induction ns as [|[a v] ns IH]; [done|]. rewrite ads_cons.
    intros [Hpa Hn]%not_elem_of_cons (A & B & C). split; [unfold node; by rewrite dt_sn|]. split; [|by apply IH].
    rewrite nx_sn by done. rewrite decide_False; [done|]. by intros ->.
  Qed.
  (** The last of them is linked to [q]. *)
  Lemma way_end h al a v ns e q : has h q -> NoDup (a :: ads ns) ->
    way h al ((a, v) :: ns) e -> way (sn h (endp a ns) q) al ((a, v) :: ns) (PAddr q).
  Proof.
    revert a v. induction ns as [|[b w] ns IH]; intros a v Hq Hnd Hw.
    - destruct Hw as (A & B & _). cbn [endp]. split; [unfold node; by rewrite dt_sn|]. split; [|done].
      rewrite nx_sn by (by eapply node_has). by rewrite decide_True.
    - destruct Hw as (A & B & C). cbn [endp]. rewrite ads_cons in Hnd. apply NoDup_cons in Hnd as [Ha Hnd].
      assert (Hh : has h (endp b ns)) by (eapply way_has; [exact C|apply endp_in]).
      split; [unfold node; by rewrite dt_sn|]. split; [|by apply IH].
      rewrite nx_sn by done. rewrite decide_False; [done|]. intros ->. apply Ha. apply endp_in.
  Qed.
  Lemma m_end_way h al a v ns e : way h al ((a, v) :: ns) e -> m_end (PAddr a) h = Ok (false, h).
  Proof. intros (Hv & _). unfold m_end. rewrite decide_False by done. by eapply no_data_node. Qed.

  Lemma xb_none_inv {X Y} (m : LM X) (f : X -> LM Y) s s' : xbind m f s = Ok (None, s') ->
    m s = Ok (None, s') \/ exists x s1, m s = Ok (Some x, s1) /\ f x s1 = Ok (None, s').
  Proof.
    unfold xbind. destruct (m s) as [[[x|] s1]|]; [|intros [= <-]; by left|done]. intros E. right. by exists x, s1.
  Qed.
  Lemma mem_none {X} (m : HM X) s s' : mem m s = Ok (None, s') -> False.
  Proof. unfold mem. by destruct (m (x_h s)) as [[x h]|]. Qed.
  Lemma comparing_S {Y} (f : unit -> LM Y) l h k : xbind comparing f (Lts l h (S k)) = f tt (Lts l (tk h) k).
  Proof. done. Qed.
  Lemma comparing_O {Y} (f : unit -> LM Y) l h : xbind comparing f (Lts l h 0) = Ok (None, Lts l h 0).
  Proof. done. Qed.

  (** At a comparison of [merge]: the nodes done so far go on into what is left
      of the chain the last one came from; what is left of the other chain is
      apart. *)
  Definition halfway (b : bool) h al ds xs ex ys ey : Prop :=
    way h al ds (if b then sp xs ex else sp ys ey) /\ way h al xs ex /\ way h al ys ey.
  Lemma merge_loop_torn al lt ex ey : forall fuel (b : bool) h a v ds xs ys l k s,
    halfway b h al ((a, v) :: ds) xs ex ys ey -> isend h al ex -> isend h al ey ->
    NoDup ((a :: ads ds) ++ ads xs ++ ads ys) ->
    x_merge_loop dbl fuel lt (sp xs ex) (sp ys ey) (PAddr (endp a ds)) (Lts l h k) = Ok (None, s) ->
    exists b' d2 xs' ys', x_l s = l /\ halfway b' (x_h s) al ((a, v) :: ds ++ d2) xs' ex ys' ey /\
      xs' <> [] /\ ys' <> [] /\ (exists x1, xs = x1 ++ xs' /\ forall z, z ∈ x1 -> z ∈ d2) /\
      (exists y1, ys = y1 ++ ys' /\ forall z, z ∈ y1 -> z ∈ d2) /\
      d2 ++ xs' ++ ys' ≡ₚ xs ++ ys /\ length d2 = k /\
      relink h (x_h s) ((a :: ads ds) ++ ads xs ++ ads ys).
  Proof.
    induction fuel as [|fuel IH]; intros b h a v ds xs ys l k s (Wd & Wx & Wy) Ex Ey Hnd; cbn [x_merge_loop].
    { by intros ?%mem_none. }
    rewrite xb_mem. destruct xs as [|[x vx] xs]; cbn [sp]; [by rewrite (m_end_nil _ _ _ Ex)|].
    rewrite (m_end_way _ _ _ _ _ _ Wx). rewrite xb_mem.
    destruct ys as [|[y vy] ys]; cbn [sp]; [by rewrite (m_end_nil _ _ _ Ey)|].
    rewrite (m_end_way _ _ _ _ _ _ Wy). destruct Wx as (Nx & Lx & Wx). destruct Wy as (Ny & Ly & Wy).
    rewrite xb_mem, (value_ok _ _ _ _ Nx), xb_mem, (value_ok _ _ _ _ Ny).
    destruct k as [|k].
    { rewrite comparing_O. intros [= <-]. exists b, [], ((x, vx) :: xs), ((y, vy) :: ys). rewrite app_nil_r.
      split; [done|]. split; [done|]. do 2 (split; [done|]).
      do 2 (split; [exists []; split; [done|by intros ? ?%elem_of_nil]|]). do 2 (split; [done|]). apply relink_refl. }
    rewrite comparing_S. intros E.
    apply way_tk in Wd. change (node (tk h) al x vx) in Nx. change (node (tk h) al y vy) in Ny.
    change (isend (tk h) al ex) in Ex. change (isend (tk h) al ey) in Ey.
    change (nx (tk h) x = Some (sp xs ex)) in Lx. change (nx (tk h) y = Some (sp ys ey)) in Ly.
    apply way_tk in Wx. apply way_tk in Wy.
    enough (G : exists b' d2 xs' ys', x_l s = l /\ halfway b' (x_h s) al ((a, v) :: ds ++ d2) xs' ex ys' ey /\
      xs' <> [] /\ ys' <> [] /\ (exists x1, (x, vx) :: xs = x1 ++ xs' /\ forall z, z ∈ x1 -> z ∈ d2) /\
      (exists y1, (y, vy) :: ys = y1 ++ ys' /\ forall z, z ∈ y1 -> z ∈ d2) /\
      d2 ++ xs' ++ ys' ≡ₚ ((x, vx) :: xs) ++ (y, vy) :: ys /\ length d2 = S k /\
      relink (tk h) (x_h s) ((a :: ads ds) ++ ads ((x, vx) :: xs) ++ ads ((y, vy) :: ys))).
    { destruct G as (b' & d2 & xs' & ys' & G1 & G2 & G3 & G4 & G5 & G6 & G7 & G8 & G9).
      exists b', d2, xs', ys'. do 8 (split; [assumption|]). by apply relink_tk. }
    revert Wd Ex Ey Nx Ny Lx Ly Wx Wy E. generalize (tk h). clear h. intros h Wd Ex Ey Nx Ny Lx Ly Wx Wy E.
    set (p := endp a ds) in *. assert (Hp : p ∈ a :: ads ds) by apply endp_in.
    assert (Hhp : has h p) by (eapply way_has; [exact Wd|by rewrite ads_cons]).
    assert (Hhx : has h x) by by eapply node_has. assert (Hhy : has h y) by by eapply node_has.
    apply NoDup_app in Hnd as (Nd & Ndx & Nxy). rewrite !ads_cons in *.
    assert (Hpx : p ∉ x :: ads xs) by (intros Hin; apply (Ndx p Hp); apply elem_of_app; by left).
    assert (Hpy : p ∉ y :: ads ys) by (intros Hin; apply (Ndx p Hp); apply elem_of_app; by right).
    destruct (lt vx vy).
    - rewrite xb_mem, (set_next_ok dbl h p x Hhp Hhx) in E. set (h1 := sn h p x) in *.
      assert (R1 : relink h h1 ((a :: ads ds) ++ (x :: ads xs) ++ y :: ads ys)).
      { apply relink_sn; [done|done|by apply elem_of_app; left|]. apply elem_of_app. right. by left. }
      assert (Wx1 : way h1 al ((x, vx) :: xs) ex) by (apply way_sn; done).
      assert (Wy1 : way h1 al ((y, vy) :: ys) ey) by (apply way_sn; done).
      pose proof (way_end h al a v ds _ x Hhx Nd Wd) as Wd1. fold p h1 in Wd1.
      destruct Wx1 as (Nx1 & Lx1 & Wxs).
      assert (Ex1 : isend h1 al ex) by by eapply isend_relink. assert (Ey1 : isend h1 al ey) by by eapply isend_relink.
      rewrite xb_mem, (get_next_ok h1 x _ Lx1) in E
        by (destruct xs as [|[? ?] ?]; [by destruct Ex as [->|(? & -> & _)]|done]).
      rewrite xb_mem, (get_next_ok h1 p (PAddr x)) in E; [|unfold h1; rewrite nx_sn by done; by rewrite decide_True|done].
      assert (Ep : PAddr x = PAddr (endp a (ds ++ [(x, vx)]))) by by rewrite endp_app.
      rewrite Ep in E.
      destruct (IH true h1 a v (ds ++ [(x, vx)]) xs ((y, vy) :: ys) l k s) as
        (b' & d2 & xs' & ys' & G1 & G2 & G3 & G4 & (x1 & G5 & G5') & (y1 & G6 & G6') & G7 & G8 & G9).
      { split; [|split; [done|done]]. change ((a, v) :: ds ++ [(x, vx)]) with (((a, v) :: ds) ++ [(x, vx)]).
        apply way_app. split; [exact Wd1|]. split; [done|]. done. }
      { done. } { done. }
      { eapply nd_perm; [|apply NoDup_app; split; [exact Nd|split; [exact Ndx|exact Nxy]]].
        rewrite ads_app, ads_cons. cbn [app]. rewrite <-app_assoc. done. }
      { exact E. }
      exists b', ((x, vx) :: d2), xs', ys'. rewrite <-app_assoc in G2. do 4 (split; [assumption|]).
      split; [exists ((x, vx) :: x1); split; [by rewrite G5|]; intros z [->|Hz]%elem_of_cons; [by left|right; auto]|].
      split; [exists y1; split; [done|]; intros z Hz; right; auto|].
      split; [cbn [app]; by rewrite G7|]. split; [by rewrite <-G8|].
      eapply relink_trans; [exact R1|]. eapply relink_weaken; [|exact G9].
      intros c. rewrite ads_app, ads_cons. cbn [app]. rewrite <-app_assoc. done.
    - rewrite xb_mem, (set_next_ok dbl h p y Hhp Hhy) in E. set (h1 := sn h p y) in *.
      assert (R1 : relink h h1 ((a :: ads ds) ++ (x :: ads xs) ++ y :: ads ys)).
      { apply relink_sn; [done|done|by apply elem_of_app; left|]. apply elem_of_app. right. apply elem_of_app. right. by left. }
      assert (Wx1 : way h1 al ((x, vx) :: xs) ex) by (apply way_sn; done).
      assert (Wy1 : way h1 al ((y, vy) :: ys) ey) by (apply way_sn; done).
      pose proof (way_end h al a v ds _ y Hhy Nd Wd) as Wd1. fold p h1 in Wd1.
      destruct Wy1 as (Ny1 & Ly1 & Wys).
      assert (Ex1 : isend h1 al ex) by by eapply isend_relink. assert (Ey1 : isend h1 al ey) by by eapply isend_relink.
      rewrite xb_mem, (get_next_ok h1 y _ Ly1) in E
        by (destruct ys as [|[? ?] ?]; [by destruct Ey as [->|(? & -> & _)]|done]).
      rewrite xb_mem, (get_next_ok h1 p (PAddr y)) in E; [|unfold h1; rewrite nx_sn by done; by rewrite decide_True|done].
      assert (Ep : PAddr y = PAddr (endp a (ds ++ [(y, vy)]))) by by rewrite endp_app.
      rewrite Ep in E.
      assert (Hpm : (a :: ads ds) ++ (x :: ads xs) ++ y :: ads ys ≡ₚ (a :: ads (ds ++ [(y, vy)])) ++ ads ((x, vx) :: xs) ++ ads ys).
      { rewrite ads_app, !ads_cons. change (ads ([] : list (N * T))) with ([] : list N). cbn [app].
        rewrite <-app_assoc. cbn [app]. constructor. f_equiv. rewrite <-(Permutation_middle (ads xs) (ads ys) y). apply perm_swap. }
      destruct (IH false h1 a v (ds ++ [(y, vy)]) ((x, vx) :: xs) ys l k s) as
        (b' & d2 & xs' & ys' & G1 & G2 & G3 & G4 & (x1 & G5 & G5') & (y1 & G6 & G6') & G7 & G8 & G9).
      { split; [|split; [done|done]]. change ((a, v) :: ds ++ [(y, vy)]) with (((a, v) :: ds) ++ [(y, vy)]).
        apply way_app. split; [exact Wd1|]. split; [done|]. done. }
      { done. } { done. }
      { eapply nd_perm; [exact Hpm|apply NoDup_app; split; [exact Nd|split; [exact Ndx|exact Nxy]]]. }
      { exact E. }
      exists b', ((y, vy) :: d2), xs', ys'. rewrite <-app_assoc in G2. do 4 (split; [assumption|]).
      split; [exists x1; split; [done|]; intros z Hz; right; auto|].
      split; [exists ((y, vy) :: y1); split; [by rewrite G6|]; intros z [->|Hz]%elem_of_cons; [by left|right; auto]|].
      split; [cbn [app]; rewrite G7; cbn [app]; rewrite <-(Permutation_middle xs ys (y, vy)); apply perm_swap|].
      split; [by rewrite <-G8|].
      eapply relink_trans; [exact R1|]. eapply relink_weaken; [|exact G9]. intros c. by rewrite Hpm.
  Qed.

  (** The comparison number [k] (from 0) of [merge] throws. *)
  Definition stuck k h h' al xs ex ys ey : Prop :=
    exists b ds xs' ys', halfway b h' al ds xs' ex ys' ey /\ xs' <> [] /\ ys' <> [] /\
      (exists x1, xs = x1 ++ xs' /\ forall z, z ∈ x1 -> z ∈ ds) /\
      (exists y1, ys = y1 ++ ys' /\ forall z, z ∈ y1 -> z ∈ ds) /\
      ds ++ xs' ++ ys' ≡ₚ xs ++ ys /\ length ds = k /\ relink h h' (ads xs ++ ads ys) /\ (k = 0%nat -> h' = h).
  Lemma merge_nodes_torn al lt xs ys ex ey h l k s :
    way h al xs ex -> way h al ys ey -> isend h al ex -> isend h al ey -> NoDup (ads xs ++ ads ys) ->
    x_merge_nodes dbl lt (sp xs ex) (sp ys ey) (Lts l h k) = Ok (None, s) ->
    x_l s = l /\ stuck k h (x_h s) al xs ex ys ey.
  Proof.
    intros Wx Wy Ex Ey Hnd. unfold x_merge_nodes.
    rewrite xb_mem. destruct xs as [|[x vx] xs]; cbn [sp]; [by rewrite (m_end_nil _ _ _ Ex)|].
    rewrite (m_end_way _ _ _ _ _ _ Wx). rewrite xb_mem.
    destruct ys as [|[y vy] ys]; cbn [sp]; [by rewrite (m_end_nil _ _ _ Ey)|].
    rewrite (m_end_way _ _ _ _ _ _ Wy). pose proof Wx as (Nx & Lx & Wxs). pose proof Wy as (Ny & Ly & Wys).
    rewrite xb_mem, (value_ok _ _ _ _ Nx), xb_mem, (value_ok _ _ _ _ Ny).
    destruct k as [|k].
    { rewrite comparing_O. intros [= <-]. split; [done|]. exists true, [], ((x, vx) :: xs), ((y, vy) :: ys).
      split; [done|]. do 2 (split; [done|]).
      do 2 (split; [exists []; split; [done|by intros ? ?%elem_of_nil]|]). do 2 (split; [done|]). split; [apply relink_refl|done]. }
    rewrite comparing_S. intros E.
    enough (G : x_l s = l /\ stuck (S k) (tk h) (x_h s) al ((x, vx) :: xs) ex ((y, vy) :: ys) ey).
    { destruct G as (G0 & b' & d2 & xs' & ys' & G2 & G3 & G4 & G5 & G6 & G7 & G8 & G9 & _). split; [done|].
      exists b', d2, xs', ys'. do 7 (split; [assumption|]). split; [by apply relink_tk|done]. }
    apply way_tk in Wx, Wy, Wxs, Wys. change (node (tk h) al x vx) in Nx. change (node (tk h) al y vy) in Ny.
    change (isend (tk h) al ex) in Ex. change (isend (tk h) al ey) in Ey.
    change (nx (tk h) x = Some (sp xs ex)) in Lx. change (nx (tk h) y = Some (sp ys ey)) in Ly.
    revert Wx Wy Ex Ey Nx Ny Lx Ly Wxs Wys E. generalize (tk h). clear h. intros h Wx Wy Ex Ey Nx Ny Lx Ly Wxs Wys E.
    rewrite xb_mem in E.
    assert (Hmem : forall (s1 : lts T) (f : lptr * lptr * lptr -> HM (lptr * lptr)) m,
      xbind m (fun z => let '(a2, b2, p) := z in mem (f (a2, b2, p))) s1 = Ok (None, s) -> m s1 = Ok (None, s)).
    { intros s1 f m [Hm|([[a2 b2] p] & s2 & _ & Hm)]%xb_none_inv; [done|]. by apply mem_none in Hm. }
    destruct (lt vx vy).
    - rewrite (bind_ok _ _ _ _ _ (get_next_ok h x _ Lx ltac:(destruct xs as [|[? ?] ?]; [by destruct Ex as [->|(? & -> & _)]|done]))) in E.
      unfold ret in E. rewrite xb_mem, fuel_ok in E.
      apply (Hmem _ (fun z => let '(a2, b2, p) := z in _)) in E.
      destruct (merge_loop_torn al lt ex ey (S (size (hmap h))) true h x vx [] xs ((y, vy) :: ys) l k s) as
        (b' & d2 & xs' & ys' & G1 & G2 & G3 & G4 & (x1 & G5 & G5') & (y1 & G6 & G6') & G7 & G8 & G9); try done.
      split; [done|]. exists b', ((x, vx) :: d2), xs', ys'. do 3 (split; [done|]).
      split; [exists ((x, vx) :: x1); split; [by rewrite G5|]; intros z [->|Hz]%elem_of_cons; [by left|right; auto]|].
      split; [exists y1; split; [done|]; intros z Hz; right; auto|].
      split; [cbn [app]; by rewrite G7|]. split; [by rewrite <-G8|]. split; [done|done].
    - rewrite (bind_ok _ _ _ _ _ (get_next_ok h y _ Ly ltac:(destruct ys as [|[? ?] ?]; [by destruct Ey as [->|(? & -> & _)]|done]))) in E.
      unfold ret in E. rewrite xb_mem, fuel_ok in E.
      apply (Hmem _ (fun z => let '(a2, b2, p) := z in _)) in E.
      assert (Hpm : ads ((x, vx) :: xs) ++ ads ((y, vy) :: ys) ≡ₚ (y :: []) ++ ads ((x, vx) :: xs) ++ ads ys).
      { rewrite !ads_cons. cbn [app]. rewrite <-(Permutation_middle (ads xs) (ads ys) y). apply perm_swap. }
      destruct (merge_loop_torn al lt ex ey (S (size (hmap h))) false h y vy [] ((x, vx) :: xs) ys l k s) as
        (b' & d2 & xs' & ys' & G1 & G2 & G3 & G4 & (x1 & G5 & G5') & (y1 & G6 & G6') & G7 & G8 & G9); try done.
      { eapply nd_perm; [exact Hpm|done]. }
      split; [done|]. exists b', ((y, vy) :: d2), xs', ys'. do 3 (split; [done|]).
      split; [exists x1; split; [done|]; intros z Hz; right; auto|].
      split; [exists ((y, vy) :: y1); split; [by rewrite G6|]; intros z [->|Hz]%elem_of_cons; [by left|right; auto]|].
      split; [cbn [app]; rewrite G7; cbn [app]; rewrite <-(Permutation_middle xs ys (y, vy)); apply perm_swap|].
      split; [by rewrite <-G8|]. split; [|done].
      eapply relink_weaken; [|exact G9]. intros c. by rewrite Hpm.
  Qed.

  (** The nodes from [a] on end in a null link. *)
  Definition falls h al a : Prop := exists v ns, way h al ((a, v) :: ns) PNull.
  Lemma way_falls h al ns a : way h al ns PNull -> a ∈ ads ns -> falls h al a.
  Proof.
    induction ns as [|[b w] ns IH]; [by intros _ ?%elem_of_nil|]. intros Hw.
    rewrite ads_cons. intros [->|Ha]%elem_of_cons; [by exists w, ns|]. apply IH; [by destruct Hw as (_ & _ & ?)|done].
  Qed.
  Lemma stuck_falls k h h' al xs ys a : stuck k h h' al xs PNull ys PNull -> a ∈ ads xs ++ ads ys -> falls h' al a.
  Proof.
    intros (b & ds & xs' & ys' & (W1 & W2 & W3) & _ & _ & _ & _ & Hp & _) Ha.
    assert (Hp2 : ads xs ++ ads ys ≡ₚ ads ds ++ ads xs' ++ ads ys').
    { rewrite <-!ads_app. unfold ads. by rewrite Hp. }
    rewrite Hp2 in Ha. apply elem_of_app in Ha as [Ha|[Ha|Ha]%elem_of_app].
    - destruct b.
      + apply (way_falls _ _ (ds ++ xs')); [by apply way_app|]. rewrite ads_app. apply elem_of_app. by left.
      + apply (way_falls _ _ (ds ++ ys')); [by apply way_app|]. rewrite ads_app. apply elem_of_app. by left.
    - by apply (way_falls _ _ xs').
    - by apply (way_falls _ _ ys').
  Qed.

  Lemma merge_sort_torn al lt : forall depth h ns e l k s,
    chn h al ns e -> isend0 h al e -> NoDup (ads ns) -> ns <> [] ->
    (length ns + (if decide (e = PNull) then 0 else 1) < depth)%nat ->
    x_merge_sort dbl depth lt (sp ns e) (Lts l h k) = Ok (None, s) ->
    x_l s = l /\ relink h (x_h s) (ads ns) /\
    forall a, a ∈ ads ns -> e = PNull \/ PAddr a = sp ns e -> falls (x_h s) al a.
  Proof.
    induction depth as [|depth IH]; intros h ns e l k s Hc He Hnd Hne Hd; [lia|].
    destruct ns as [|[a v] ns]; [done|]. clear Hne. cbn [x_merge_sort sp].
    destruct (chn_cons _ _ _ _ _ _ _ Hc) as (Na & La & Cn).
    pose proof (isend0_isend _ _ _ He) as He'.
    rewrite xb_mem, decide_False by done.
    rewrite (bind_ok _ _ _ _ _ (get_next_ok h a _ La ltac:(destruct ns as [|[? ?] ?]; [by destruct He' as [->|(? & -> & _)]|done]))).
    unfold ret. case_bool_decide as En; [done|]. rewrite xb_mem, fuel_ok.
    assert (Hsz : (S (length ns) <= size (hmap h))%nat).
    { pose proof (size_ge h _ Hnd (fun b => chn_has _ _ _ _ _ b Hc)) as Hz. unfold ads in Hz. rewrite fmap_length in Hz.
      simpl in Hz. lia. }
    destruct (mid_loop_ok dbl h al _ e Hc He' (S (size (hmap h))) 0 a v a v eq_refl eq_refl) as (c & u & m & E1 & Hm & Hlen).
    { cbn [length]. lia. }
    rewrite xb_mem, E1. pose proof (take_drop_endp _ _ _ _ _ _ Hm) as Ec.
    set (n1 := take m ns) in *. set (n2 := drop m ns). assert (Ens : ns = n1 ++ n2) by (unfold n1, n2; by rewrite take_drop).
    cbn [length] in Hlen. assert (Hl1 : (length n1 = m)%nat) by (unfold n1; rewrite take_length; lia).
    assert (Hl2 : (length n2 = length ns - m)%nat) by (unfold n2; by rewrite drop_length).
    clearbody n1 n2. rewrite Ens in Hc, Hnd, Cn. cbn [length] in Hd.
    assert (Hnd2 : NoDup (ads ((a, v) :: n1) ++ ads n2)) by by rewrite <-ads_app.
    destruct (chn_cut dbl h al a v n1 n2 e Hnd2 Hc) as (Lc & C1 & C2). rewrite Ec in Lc, C1, C2.
    set (h1 := upn h c PNull) in *.
    assert (Hin : c ∈ ads ((a, v) :: n1)) by (rewrite <-Ec; apply endp_in).
    assert (R1 : relink h h1 (ads ((a, v) :: n1))) by by apply relink_upn.
    assert (Hhc : has h c).
    { eapply chn_has; [exact Hc|]. change ((a, v) :: n1 ++ n2) with (((a, v) :: n1) ++ n2).
      rewrite ads_app. apply elem_of_app. by left. }
    rewrite xb_mem, (get_next_ok h c _ Lc) by (destruct n2 as [|[? ?] ?]; [by destruct He' as [->|(? & -> & _)]|done]).
    rewrite xb_mem, (put_next_ok h c _ Hhc). fold h1.
    pose proof Hnd2 as Hnd3. apply NoDup_app in Hnd3 as (ND1 & ND12 & ND2).
    assert (Hte : forall t, e = PAddr t -> t ∉ ads ((a, v) :: n1) ++ ads n2).
    { intros t -> Hin2. destruct He as [|(t' & [= <-] & V & _)]; [done|].
      change ((a, v) :: n1 ++ n2) with (((a, v) :: n1) ++ n2) in Hc. rewrite <-ads_app in Hin2.
      destruct (chn_node _ _ _ _ _ _ Hc Hin2) as [x Hx]. by eapply virt_not_node. }
    assert (He1 : isend0 h1 al e).
    { eapply isend0_relink; [exact R1| |done]. intros t Ht Hin2. apply (Hte t Ht). apply elem_of_app. by left. }
    assert (Hd1 : (length ((a, v) :: n1) + (if decide (PNull = PNull) then 0 else 1) < depth)%nat).
    { cbn [length]. rewrite decide_True by done. destruct (decide (e = PNull)) as [->|_]; [|lia].
      destruct n2; [|cbn [length] in *; lia]. exfalso. apply En. rewrite Ens.
      destruct n1; [done|]. cbn [length] in *. lia. }
    assert (Eads : ads ((a, v) :: ns) = ads ((a, v) :: n1) ++ ads n2) by (rewrite Ens, <-ads_app; done). rewrite Eads.
    assert (W1 : forall b, b ∈ ads ((a, v) :: n1) -> b ∈ ads ((a, v) :: n1) ++ ads n2) by (intros; apply elem_of_app; by left).
    assert (W2 : forall b, b ∈ ads n2 -> b ∈ ads ((a, v) :: n1) ++ ads n2) by (intros; apply elem_of_app; by right).
    intros [E|(g1 & [l2 h2 k2] & E2x & E)]%xb_none_inv.
    { (* the first half *)
      destruct (IH h1 ((a, v) :: n1) PNull l k s C1 (or_introl eq_refl) ND1 ltac:(done) Hd1 E) as (A1 & A2 & A3).
      split; [done|]. split; [eapply relink_weaken; [exact W1|]; by eapply relink_trans|].
      intros b [Hb|Hb]%elem_of_app Hor; [apply A3; [done|by left]|].
      destruct Hor as [->|[= ->]]; [|exfalso; eapply ND12; [by left|done]].
      apply (way_falls _ _ n2); [|done]. apply (chn_way _ _ _ _). eapply chn_relink; [exact A2| |done|exact C2].
      intros b' Hb' Hb2. by apply (ND12 b'). }
    destruct (merge_sort_ok dbl al lt depth h1 ((a, v) :: n1) PNull C1 (or_introl eq_refl) ND1 ltac:(done) Hd1)
      as (h2' & z1 & r1 & E2 & S1 & D1 & Z1 & _ & R2 & _).
    pose proof (proj2 (sim_merge_sort dbl lt depth (PAddr a)) l h1 k) as Hs. rewrite E2x in Hs. cbn [x_h x_l x_k] in Hs.
    destruct Hs as (Hs & -> & _). cbn [sp] in E2. rewrite E2 in Hs. injection Hs as <- <-.
    assert (C2' : chn h2' al n2 e).
    { eapply chn_relink; [exact R2| |done|exact C2]. intros b Hb Hb2. by apply (ND12 b). }
    assert (He2 : isend0 h2' al e).
    { eapply isend0_relink; [exact R2| |done]. intros t Ht Hin2. apply (Hte t Ht). apply elem_of_app. by left. }
    pose proof (sorted_as_perm _ _ _ S1) as P1. assert (A1 : ads z1 ≡ₚ ads ((a, v) :: n1)) by (unfold ads; by rewrite P1).
    assert (R12 : relink h h2' (ads ((a, v) :: n1) ++ ads n2)).
    { eapply relink_weaken; [exact W1|]. by eapply relink_trans. }
    destruct (decide (n2 = [])) as [->|Hn2].
    { (* one element in front of the virtual tail: no comparison *)
      exfalso. cbn [length] in Hl2. assert (n1 = []) as -> by (destruct n1; [done|cbn [length] in *; lia]).
      assert (z1 = [(a, v)]) as -> by (by apply Permutation_singleton_r in P1).
      cbn [sp] in E. destruct depth as [|depth]; [cbn [length] in Hd; destruct (decide (e = PNull)); [|lia]; by subst|].
      assert (E3 : merge_sort dbl (S depth) lt e h2' = Ok ((e, PNull), h2')).
      { cbn [merge_sort]. destruct He2 as [->|(t & -> & V & Ht)]; [by rewrite decide_True|].
        rewrite decide_False by done. rewrite bind_bind. rewrite (bind_ok _ _ _ _ _ (get_next_ok h2' t _ Ht ltac:(done))).
        rewrite bind_ret. by rewrite bool_decide_eq_true_2. }
      apply xb_none_inv in E as [E|(g2 & [l3 h3 k3] & E3x & E)].
      - pose proof (proj2 (sim_merge_sort dbl lt (S depth) e) l h2' k2) as Hs. rewrite E in Hs.
        destruct Hs as (_ & Hs). specialize (Hs _ _ E3). lia.
      - pose proof (proj2 (sim_merge_sort dbl lt (S depth) e) l h2' k2) as Hs. rewrite E3x in Hs. cbn [x_h x_l x_k] in Hs.
        destruct Hs as (Hs & -> & _). rewrite E3 in Hs. injection Hs as <- <-. cbn [fst sp] in E. unfold x_merge_nodes in E.
        rewrite xb_mem, (m_end_cons _ _ _ _ _ _ _ D1), xb_mem, (m_end_nil _ _ _ (isend0_isend _ _ _ He2)) in E. done. }
    assert (Hd2 : (length n2 + (if decide (e = PNull) then 0 else 1) < depth)%nat) by (cbn [length] in *; lia).
    apply xb_none_inv in E as [E|(g2 & [l3 h3 k3] & E3x & E)].
    { (* the second half *)
      destruct (IH h2' n2 e l k2 s C2' He2 ND2 Hn2 Hd2 E) as (B1 & B2 & B3). split; [done|].
      split; [eapply relink_trans; [exact R12|]; by eapply relink_weaken|].
      assert (D1' : chn (x_h s) al z1 PNull).
      { eapply chn_relink; [exact B2| | |exact D1].
        - intros b Hb Hb2. apply (ND12 b); [|done]. by rewrite <-A1.
        - eapply nd_perm; [symmetry; exact A1|done]. }
      intros b [Hb|Hb]%elem_of_app Hor.
      - apply (way_falls _ _ z1); [by apply chn_way|]. by rewrite A1.
      - destruct Hor as [->|[= ->]]; [|exfalso; eapply ND12; [by left|done]]. apply B3; [done|by left]. }
    destruct (merge_sort_ok dbl al lt depth h2' n2 e C2' He2 ND2 Hn2 Hd2) as (h3' & z2 & r2 & E3 & S2 & D2 & Z2 & _ & R3 & _).
    pose proof (proj2 (sim_merge_sort dbl lt depth (sp n2 e)) l h2' k2) as Hs. rewrite E3x in Hs. cbn [x_h x_l x_k] in Hs.
    destruct Hs as (Hs & -> & _). rewrite E3 in Hs. injection Hs as <- <-. cbn [fst] in E.
    pose proof (sorted_as_perm _ _ _ S2) as P2. assert (A2 : ads z2 ≡ₚ ads n2) by (unfold ads; by rewrite P2).
    assert (Hndz : NoDup (ads z1 ++ ads z2)).
    { eapply nd_perm; [|exact Hnd2]. by rewrite A1, A2. }
    assert (D1' : chn h3' al z1 PNull).
    { eapply chn_relink; [exact R3| | |exact D1].
      - intros b Hb Hb2. apply (ND12 b); [|done]. by rewrite <-A1.
      - by apply NoDup_app in Hndz as (? & _). }
    destruct (merge_nodes_torn al lt z1 z2 PNull PNull h3' l k3 s) as (B1 & B2);
      [by apply chn_way|by apply chn_way|by left|by left|done|exact E|].
    split; [done|]. split.
    - eapply relink_trans; [exact R12|]. eapply relink_trans; [eapply relink_weaken; [exact W2|exact R3]|].
      destruct B2 as (? & ? & ? & ? & _ & _ & _ & _ & _ & _ & _ & R4 & _).
      eapply relink_weaken; [|exact R4]. intros b. by rewrite A1, A2.
    - intros b Hb _. eapply stuck_falls; [exact B2|]. by rewrite A1, A2.
  Qed.

  (** *** Walking along links that miss the virtual tail *)
  Lemma node_det h al a v w : node h al a v -> node h al a w -> v = w.
  Proof. unfold node. intros A B. rewrite A in B. congruence. Qed.
  Lemma way_det h al e ns : forall ms, isend0 h al e -> way h al ns e -> way h al ms e -> sp ns e = sp ms e -> ns = ms.
  Proof.
    induction ns as [|[a v] ns IH]; intros ms He Hn Hm Es.
    - destruct ms as [|[b w] ms]; [done|]. cbn [sp] in Es. exfalso.
      destruct He as [->|(t & -> & V & _)]; [done|]. injection Es as ->. destruct Hm as (Hb & _). by eapply virt_not_node.
    - destruct ms as [|[b w] ms]; cbn [sp] in Es.
      { exfalso. destruct He as [->|(t & -> & V & _)]; [done|]. injection Es as ->. destruct Hn as (Hb & _).
        by eapply virt_not_node. }
      injection Es as ->. destruct Hn as (A1 & A2 & A3), Hm as (B1 & B2 & B3).
      rewrite (node_det _ _ _ _ _ A1 B1). f_equal. apply IH; [done|done|done|]. congruence.
  Qed.
  Lemma way_nodup h al e ns : isend0 h al e -> way h al ns e -> NoDup (ads ns).
  Proof.
    intros He. induction ns as [|[a v] ns IH]; intros Hw; [by constructor|]. pose proof Hw as (A & B & C).
    rewrite ads_cons. constructor; [|by apply IH]. intros ([a' w] & -> & (n1 & n2 & ->)%elem_of_list_split)%elem_of_list_fmap.
    apply way_app in C as (_ & C). pose proof (way_det _ _ _ _ _ He Hw C eq_refl) as E. apply (f_equal length) in E.
    cbn [length] in E. rewrite app_length in E. cbn [length fst] in E. lia.
  Qed.
  Lemma next_null h : get_next (T := T) PNull h = Err UB.
  Proof. done. Qed.
  Lemma value_null h : value (T := T) PNull h = Err UB.
  Proof. done. Qed.
  Lemma value_virt h al t : virt h al t -> value (PAddr t) h = Err UB.
  Proof.
    unfold virt, dt. destruct (hmap h !! t) as [c|] eqn:E; [|done]. simpl. intros [= _ _ Ed].
    unfold value. rewrite (bind_ok _ _ _ _ _ (rd_ok h t c E)). by rewrite Ed.
  Qed.
  Definition room ns e : nat := (length ns + (if decide (e = PNull) then 0 else 1))%nat.
  Lemma collect_off al q e ns : forall fuel h, isend0 h al e -> way h al ns e -> q ∉ ads ns -> e <> PAddr q ->
    (room ns e < fuel)%nat -> stl_collect fuel (sp ns e) (PAddr q) h = Err UB.
  Proof.
    induction ns as [|[a v] ns IH]; intros fuel h He Hw Hq Hqe Hf; (destruct fuel as [|fuel]; [lia|]); cbn [stl_collect sp].
    { rewrite decide_False by done. apply bind_err. destruct He as [->|(t & -> & V & _)]; [done|by eapply value_virt]. }
    destruct Hw as (Hn & Hx & Hw). rewrite ads_cons in Hq. apply not_elem_of_cons in Hq as [Hqa Hq].
    rewrite decide_False by (intros [= ->]; done). rewrite (bind_ok _ _ _ _ _ (value_ok h al a v Hn)).
    rewrite (bind_ok _ _ _ _ _ (get_next_ok h a _ Hx ltac:(destruct ns as [|[? ?] ?]; [by destruct He as [->|(? & -> & _)]|done]))).
    apply bind_err. apply IH; [done..|]. unfold room in *. cbn [length] in *. lia.
  Qed.
  Lemma print_off al q e ns : forall fuel h i n, isend0 h al e -> way h al ns e -> q ∉ ads ns -> e <> PAddr q ->
    (room ns e < fuel)%nat -> print_loop fuel (sp ns e) (PAddr q) i n h = Err UB.
  Proof.
    induction ns as [|[a v] ns IH]; intros fuel h i n He Hw Hq Hqe Hf; (destruct fuel as [|fuel]; [lia|]); cbn [print_loop sp].
    { rewrite decide_False by done. apply bind_err. destruct He as [->|(t & -> & V & _)]; [done|by eapply value_virt]. }
    destruct Hw as (Hn & Hx & Hw). rewrite ads_cons in Hq. apply not_elem_of_cons in Hq as [Hqa Hq].
    rewrite decide_False by (intros [= ->]; done). rewrite (bind_ok _ _ _ _ _ (value_ok h al a v Hn)).
    rewrite (bind_ok _ _ _ _ _ (get_next_ok h a _ Hx ltac:(destruct ns as [|[? ?] ?]; [by destruct He as [->|(? & -> & _)]|done]))).
    apply bind_err. apply IH; [done..|]. unfold room in *. cbn [length] in *. lia.
  Qed.
  Lemma way_frame h h' al ns e : (forall a, a ∈ ads ns -> hmap h' !! a = hmap h !! a) -> way h al ns e -> way h' al ns e.
  Proof.
    induction ns as [|[a v] ns IH]; intros Hf; [done|]. intros (Hn & Hx & Hd). rewrite ads_cons in Hf.
    destruct (has_eq h h' a (Hf a ltac:(by left))) as (Ex & _ & Ed). split; [unfold node; by rewrite Ed|].
    split; [by rewrite Ex|]. apply IH; [|done]. intros b Hb. apply Hf. by right.
  Qed.
  Lemma isend0_not h al e ns t : isend0 h al e -> way h al ns e -> e = PAddr t -> t ∉ ads ns.
  Proof.
    intros He Hw -> Hin. destruct He as [|(t' & [= <-] & V & _)]; [done|].
    destruct (way_node _ _ _ _ _ Hw Hin) as [v Hv]. by eapply virt_not_node.
  Qed.
  Lemma destroy_off al q e ns : forall fuel h n, isend0 h al e -> way h al ns e -> NoDup (ads ns) -> q ∉ ads ns -> e <> PAddr q ->
    (room ns e < fuel)%nat -> destroy_run fuel al (sp ns e) (PAddr q) n h = Err UB.
  Proof.
    induction ns as [|[a v] ns IH]; intros fuel h n He Hw Hnd Hq Hqe Hf; (destruct fuel as [|fuel]; [lia|]); cbn [destroy_run sp].
    { rewrite decide_False by done. destruct He as [->|(t & -> & V & Hx)]; [done|].
      rewrite (bind_ok _ _ _ _ _ (get_next_ok h t _ Hx ltac:(done))).
      rewrite (bind_ok _ _ _ _ _ (destroy_virt_ok h al t V)).
      destruct fuel as [|fuel]; [unfold room in Hf; rewrite decide_False in Hf by done; simpl in Hf; lia|].
      cbn [destroy_run]. by rewrite decide_False. }
    destruct Hw as (Hn & Hx & Hw). rewrite ads_cons in Hq, Hnd. apply not_elem_of_cons in Hq as [Hqa Hq].
    apply NoDup_cons in Hnd as [Ha Hnd].
    rewrite decide_False by (intros [= ->]; done).
    rewrite (bind_ok _ _ _ _ _ (get_next_ok h a _ Hx ltac:(destruct ns as [|[? ?] ?]; [by destruct He as [->|(? & -> & _)]|done]))).
    rewrite (bind_ok _ _ _ _ _ (destroy_node_ok h al a v Hn)).
    apply IH; [| |done|done|done|unfold room in *; cbn [length] in *; lia].
    - destruct He as [->|(t & -> & V & Ht)]; [by left|]. right. exists t. split; [done|].
      assert (Hta : t <> a). { intros ->. by eapply virt_not_node. }
      destruct (has_eq h (fr h a) t) as (Ex & _ & Ed); [unfold fr; simpl; by apply lookup_delete_ne|].
      unfold virt. rewrite Ed, Ex. done.
    - eapply way_frame; [|exact Hw]. intros c Hc. unfold fr. simpl. apply lookup_delete_ne. by intros ->.
  Qed.
  Lemma way_room h al ns e : isend0 h al e -> way h al ns e -> (room ns e < S (size (hmap h)))%nat.
  Proof.
    intros He Hw. pose proof (way_nodup _ _ _ _ He Hw) as Hnd. unfold room. case_decide as Hd.
    - pose proof (size_ge h _ Hnd (fun a => way_has _ _ _ _ a Hw)) as Hs. unfold ads in Hs. rewrite fmap_length in Hs. lia.
    - destruct He as [->|(t & -> & V & Ht)]; [done|].
      pose proof (size_ge h (t :: ads ns)) as Hs. cbn [length] in Hs. unfold ads in Hs at 3. rewrite fmap_length in Hs.
      enough (S (length ns) <= size (hmap h))%nat by lia. apply Hs.
      + constructor; [|done]. eapply isend0_not; [|exact Hw|done]. right. by exists t.
      + intros a [->|Ha]%elem_of_cons; [by eapply virt_has|by eapply way_has].
  Qed.
  Lemma torn_way i (w : world (cell T) lst) hd tl n al ns e : w_vars w !! i = Some (Lst (PAddr hd) (PAddr tl) n al) ->
    nx (w_heap w) hd = Some (sp ns e) -> isend0 (w_heap w) al e -> way (w_heap w) al ns e -> tl ∉ ads ns -> e <> PAddr tl ->
    torn dbl i w.
  Proof.
    intros Hv Hh He Hw Hq Hqe o Ho. pose proof (way_room _ _ _ _ He Hw) as Hf. pose proof (way_nodup _ _ _ _ He Hw) as Hnd.
    assert (Hne : sp ns e <> PUndef) by (destruct ns as [|[? ?] ?]; [by destruct He as [->|(? & -> & _)]|done]).
    assert (Hc : forall n, l_clear dbl (Lst (PAddr hd) (PAddr tl) n al) (w_heap w) = Err UB).
    { intros n'. unfold l_clear. cbn [l_head l_tail l_al].
      rewrite (bind_ok _ _ _ _ _ (get_next_ok _ hd _ Hh Hne)), (bind_ok _ _ _ _ _ (fuel_ok _)).
      apply bind_err. by apply destroy_off. }
    rewrite !elem_of_cons, elem_of_nil in Ho. destruct Ho as [->|[->|[->|[->|[]]]]]; cbn [list_step];
      unfold l_obs, l_upd, l_updo, bind at 1, wget; rewrite Hv; unfold lift.
    - unfold l_to_list. rewrite bind_bind. cbn [l_head l_tail].
      rewrite (bind_ok _ _ _ _ _ (get_next_ok _ hd _ Hh Hne)), bind_bind, (bind_ok _ _ _ _ _ (fuel_ok _)).
      rewrite (bind_err _ _ _ UB); [done|]. by eapply collect_off.
    - unfold l_print. rewrite bind_bind. cbn [l_head l_tail].
      rewrite (bind_ok _ _ _ _ _ (get_next_ok _ hd _ Hh Hne)), bind_bind, (bind_ok _ _ _ _ _ (fuel_ok _)).
      rewrite bind_bind. rewrite (bind_err _ _ _ UB); [done|]. by eapply print_off.
    - unfold bind. by rewrite Hc.
    - unfold l_destroy. cbn [l_head]. rewrite decide_False by done. unfold bind. by rewrite Hc.
  Qed.
End Torn.

(** ** The theorems *)
Section Props.
  Context {T : Type} (dbl : bool).
  Notation H := (heap (cell T)).
  Notation HM := (M H).
  Notation LM := (LM (T := T)).
  Notation world := (world (cell T) lst).
  Notation lstate := (gmap nat (N * option (list T))).
  Notation step := (list_step (T := T) dbl).
  Notation reached := (reached (T := T) dbl).
  Notation lok := (lok dbl).
  Notation lp := ListSort.sp.
  Implicit Types (h : H) (l : lst) (k : nat) (w : world) (sp : lstate) (ns ms : list (N * T)) (xs ys : list T).

  (** Calls of what the caller supplies, since the program started. *)
  Definition called w : N := hmoves (w_heap w).
  (** How an operation ends when the predicate throws. *)
  Definition aborts (o : lop T) : bool := match o with LRemIf _ _ => true | _ => false end.
  Definition takes (o : lop T) : bool :=
    match o with LSrt _ _ | LMer _ _ _ _ | LUniq _ _ | LRemIf _ _ => true | _ => false end.

  Lemma upd_sim k i (xm : LM (lout T)) (f : lst -> HM (lst * lout T)) w x w1 :
    (forall l, simo l xm (f l)) -> l_updo i f w = Ok (x, w1) ->
    (called w1 <= called w + N.of_nat k -> x_upd k i xm w = Ok (Some x, w1)) /\
    (called w + N.of_nat k < called w1 -> exists w', x_upd k i xm w = Ok (None, w')).
  Proof.
    intros Hs. unfold l_updo, x_upd, bind, wget. destruct (w_vars w !! i) as [l|] eqn:Hv; [|done]. unfold lift.
    destruct (Hs l) as [_ Hs2]. specialize (Hs2 (w_heap w) k).
    destruct (f l (w_heap w)) as [[[l' y] h']|] eqn:E; [|done]. intros [= -> <-]. unfold called. cbn [w_heap].
    destruct (xm (Lts l (w_heap w) k)) as [[[z|] s]|]; [| |done].
    - destruct Hs2 as ([= -> -> ->] & Hc). split; [done|lia].
    - specialize (Hs2 _ _ eq_refl). split; [lia|by eexists].
  Qed.
  Lemma noexcept_sim k i (xm : LM N) (f : lst -> HM (lst * N)) w x w1 :
    (forall l, simo l xm (f l)) -> l_updo i (fun l => '(l', n) <-- f l ;; ret (l', ONum n)) w = Ok (x, w1) ->
    (called w1 <= called w + N.of_nat k -> x_upd k i (xbind (noexcept xm) (fun n => xret (ONum n))) w = Ok (Some x, w1)) /\
    (called w + N.of_nat k < called w1 -> x_upd k i (xbind (noexcept xm) (fun n => xret (ONum n))) w = Err Panic).
  Proof.
    intros Hs. unfold l_updo, x_upd, bind, wget. destruct (w_vars w !! i) as [l|] eqn:Hv; [|done]. unfold lift.
    destruct (Hs l) as [_ Hs2]. specialize (Hs2 (w_heap w) k).
    destruct (f l (w_heap w)) as [[[l' y] h']|] eqn:E; [|done]. intros [= <- <-]. unfold called. cbn [w_heap].
    unfold xbind, noexcept. destruct (xm (Lts l (w_heap w) k)) as [[[z|] s]|]; [| |done].
    - destruct Hs2 as ([= -> -> ->] & Hc). split; [done|lia].
    - specialize (Hs2 _ _ eq_refl). split; [lia|done].
  Qed.
  Lemma two_sim k i j (rv : bool) lt w x w1 :
    l_two i j (if rv then fun l o => l_merge_rv dbl l o lt else fun l o => l_merge dbl l o lt) w = Ok (x, w1) ->
    forall m, m = (if rv then c_two k i j (fun o => x_merge_rv dbl o lt) emptied_rv
                   else c_two k i j (fun o => x_merge dbl o lt) emptied) ->
    (called w1 <= called w + N.of_nat k -> m w = Ok (Some x, w1)) /\
    (called w + N.of_nat k < called w1 -> exists w', m w = Ok (None, w')).
  Proof.
    unfold l_two, bind, wget. destruct (w_vars w !! i) as [l|] eqn:Hv; [|done].
    destruct (w_vars w !! j) as [o|] eqn:Hj; [|done]. unfold lift.
    destruct (simo_merge dbl rv o lt l) as [_ Hs]. specialize (Hs (w_heap w) k). unfold bind in Hs.
    intros E m Em0.
    assert (Hm : m w = match (if rv then x_merge_rv dbl o lt else x_merge dbl o lt) (Lts l (w_heap w) k) with
      | Ok (r, s) => Ok ((fun _ => OUnit) <$> r, World (x_h s) (<[i := x_l s]>
          (<[j := (if rv then emptied_rv else emptied) o]> (w_vars w))))
      | Err e => Err e end).
    { rewrite Em0. destruct rv; unfold c_two, bind, wget; by rewrite Hv, Hj. }
    rewrite Hm. clear Hm m Em0.
    assert (Hr : forall r h', (if rv then l_merge_rv dbl l o lt else l_merge dbl l o lt) (w_heap w) = Ok (r, h') ->
      snd r = (if rv then emptied_rv else emptied) o).
    { clear Hs E. intros r h'. destruct rv; unfold l_merge_rv, l_merge, emptied_rv, emptied;
        (destruct (l_len o =? 0); [by intros [= <- _]|]); unfold bind, ret;
        repeat (case_match; try done); by intros [= <- _]. }
    replace ((if rv then fun l o => l_merge_rv dbl l o lt else fun l o => l_merge dbl l o lt) l o)
      with (if rv then l_merge_rv dbl l o lt else l_merge dbl l o lt) in E by by destruct rv.
    destruct ((if rv then l_merge_rv dbl l o lt else l_merge dbl l o lt) (w_heap w)) as [[[l' o'] h']|] eqn:Em; [|done].
    specialize (Hr _ _ eq_refl). simpl in Hr. subst o'. injection E as <- <-. unfold called. cbn [w_heap].
    destruct ((if rv then x_merge_rv dbl o lt else x_merge dbl o lt) (Lts l (w_heap w) k)) as [[[[]|] s]|]; [| |done].
    - destruct Hs as ([= -> ->] & Hc). split; [done|lia].
    - specialize (Hs _ _ eq_refl). split; [lia|by eexists].
  Qed.

  (** The exception leaves exactly when the operation would call the predicate
      more often than it returns; otherwise the operation is what it is without
      exceptions.  An exception that leaves [remove_if] ends the program. *)
  Theorem C69_calls w k o x w1 : step o w = Ok (x, w1) ->
    (called w1 <= called w + N.of_nat k \/ takes o = false -> c_step dbl k o w = Ok (Some x, w1)) /\
    (called w + N.of_nat k < called w1 -> takes o = true ->
       if aborts o then c_step dbl k o w = Err Panic else exists w', c_step dbl k o w = Ok (None, w')).
  Proof.
    destruct o; intros E;
      try (split; [intros _; cbn [c_step]; unfold quiet, bind; by rewrite E|intros _ [=]]);
      cbn [takes aborts]; cbn [c_step list_step] in *.
    - (* LMer *)
      unfold l_two_ne in E. destruct (i =? j)%nat eqn:Eij.
      { split.
        - intros _. unfold quiet. cbn [list_step]. unfold l_two_ne. rewrite Eij. unfold bind at 1. by rewrite E.
        - intros Hc _. exfalso. revert E. unfold bind, wget. destruct (w_vars w !! i); [|done]. intros [= _ <-]. lia. }
      destruct (two_sim k i j rv lt w x w1 ltac:(by destruct rv) _ eq_refl) as [A B]. destruct rv; (split; [intros [?|?]; [auto|done]|auto]).
    - (* LSrt *)
      unfold l_upd in E. destruct (upd_sim k i (xbind (x_sort dbl lt) (fun _ => xret OUnit))
        (fun l => '(l', y) <-- (l' <-- l_sort dbl l lt ;; ret (l', tt)) ;; ret (l', (fun _ => OUnit) y)) w x w1) as [A B].
      { intros l. apply (simo_map _ _ _ (fun _ => OUnit)). apply simo_sort. }
      { rewrite <-E. unfold l_updo, bind, lift. destruct (wget i w) as [[l0 w0]|]; [|done]. by destruct (l_sort dbl l0 lt (w_heap w0)) as [[? ?]|]. }
      split; [intros [?|?]; [auto|done]|auto].
    - (* LRemIf *)
      destruct (noexcept_sim k i (x_remove dbl f) (fun l => l_remove_if dbl l f) w x w1) as [A B]; [|exact E|].
      { intros l. apply simo_remove. }
      split; [intros [?|?]; [auto|done]|auto].
    - (* LUniq *)
      destruct (upd_sim k i (xbind (x_unique dbl r) (fun n => xret (ONum n)))
        (fun l => '(l', n) <-- l_unique dbl l r ;; ret (l', ONum n)) w x w1) as [A B]; [|exact E|].
      { intros l. apply (simo_map _ _ _ ONum). apply simo_unique. }
      split; [intros [?|?]; [auto|done]|auto].
  Qed.

  (** *** sort *)
  Lemma first_next h al hd ns tl : lok h al hd ns tl -> get_next (PAddr hd) h = Ok (PAddr (startp ns tl), h).
  Proof. exact (next_at dbl h al hd [] ns tl). Qed.
  Lemma first_nx h al hd ns tl : lok h al hd ns tl -> nx h hd = Some (PAddr (startp ns tl)).
  Proof. intros Lk. exact (proj1 (lok_link dbl h al hd [] ns tl Lk)). Qed.
  Lemma len_step w i l : w_vars w !! i = Some l -> step (LSize i) w = Ok (ONum (l_len l), w).
  Proof. intros Hv. cbn [list_step]. unfold l_obs, bind, wget. rewrite Hv. unfold lift, ret. by destruct w. Qed.
  Theorem C69_sort_throws sp w k i al xs lt : reached sp w -> sp !! i = Some (al, Some xs) -> (k + 1 < length xs)%nat ->
    exists w', c_step dbl k (LSrt i lt) w = Ok (None, w').
  Proof.
    intros Hr%reached_rel Hi Hk.
    destruct (rel_live dbl _ _ _ _ _ Hr Hi) as (Hwf & hd & tl & ns & Hv & Hx & Lk & HW & _).
    assert (Hl : length ns = length xs) by by rewrite <-Hx, vls_length.
    destruct (sort_n dbl _ _ _ _ _ lt Hwf Lk ltac:(lia)) as (h' & zs & E & _ & _ & _ & Hc).
    pose proof (upd_run w i (fun l => l_sort dbl l lt) _ _ _ Hv E) as Es.
    eapply (C69_calls w k (LSrt i lt)); [exact Es| |done]. unfold called. cbn [w_heap]. lia.
  Qed.
  (** Whatever the order answered before it threw, for any order: the first
      node of the list is left in a chain that ends in a null link, so the
      virtual tail is not reached any more. *)
  Theorem C69_sort sp w k i al xs lt w' : reached sp w -> sp !! i = Some (al, Some xs) ->
    c_step dbl k (LSrt i lt) w = Ok (None, w') ->
    torn dbl i w' /\ step (LSize i) w' = Ok (ONum (nlen xs), w') /\ others dbl w w' sp [i].
  Proof.
    intros Hr%reached_rel Hi.
    destruct (rel_live dbl _ _ _ _ _ Hr Hi) as (Hwf & hd & tl & ns & Hv & Hx & Lk & HW & Hoth).
    destruct (lok_chn dbl _ _ _ _ _ Lk) as (Hc & He & Hnd & Hnh & Hnt & Hht).
    cbn [c_step]. unfold x_upd, bind, wget. rewrite Hv.
    destruct (xbind _ _ _) as [[[?|] s]|] eqn:E; [done| |done]. intros [= <-].
    apply xb_none_inv in E as [E|(? & ? & _ & E)]; [|done]. unfold x_sort in E. rewrite xb_this in E. cbn [l_head L] in E.
    rewrite xb_mem in E. rewrite (first_next _ _ _ _ _ Lk), xb_mem, fuel_ok in E.
    apply xb_none_inv in E as [E|(? & ? & _ & E)]; [|by apply mem_none in E].
    assert (lp ns (PAddr tl) = PAddr (startp ns tl)) as Esp by by destruct ns as [|[? ?] ?].
    destruct (decide (ns = [])) as [->|Hne].
    { exfalso. cbn [startp] in E. cbn [x_merge_sort] in E. rewrite decide_False in E by done. rewrite xb_mem in E.
      rewrite (bind_ok _ _ _ _ _ (get_next_ok _ tl _ (lk_tn _ _ _ _ _ _ Lk) ltac:(done))) in E. unfold ret in E.
      by rewrite bool_decide_eq_true_2 in E. }
    rewrite <-Esp in E. apply merge_sort_torn with (al := al) in E as (Hl & R & Hf); [|done..|].
    2:{ rewrite decide_False by done. pose proof (lok_fuel dbl _ _ _ _ _ Lk). lia. }
    assert (Hup : upd (w_heap w) (x_h s) (lfp hd ns tl) (lfp hd ns tl)).
    { apply relink_upd; [done|intros a Ha; by eapply lok_has|]. eapply relink_weaken; [|exact R]. intros a. apply ads_in_lfp. }
    split; [|split].
    - destruct ns as [|[a v] ns]; [done|]. destruct (Hf a) as (v' & ms & Hw); [rewrite ads_cons; by left|by right|].
      assert (Vt : virt (x_h s) al tl) by (eapply relink_virt; [exact R|apply Lk]).
      eapply (torn_way dbl i _ hd tl _ al ((a, v') :: ms) PNull); [simpl; by rewrite lookup_insert, Hl| |by left|exact Hw| |done].
      + cbn [w_heap ListSort.sp]. destruct (has_eq _ (x_h s) hd (r_fr _ _ _ R hd Hnh)) as (-> & _ & _). exact (first_nx _ _ _ _ _ Lk).
      + intros Hin. destruct (way_node _ _ _ _ _ Hw Hin) as [u Hu]. by eapply virt_not_node.
    - erewrite len_step; [|simpl; by rewrite lookup_insert]. rewrite Hl. cbn [l_len L]. by rewrite <-Hx, vls_length.
    - by eapply Hoth.
  Qed.

  (** *** merge *)
  Lemma collect_way al q ns : forall fuel h, virt h al q -> way h al ns (PAddr q) -> (length ns < fuel)%nat ->
    stl_collect fuel (lp ns (PAddr q)) (PAddr q) h = Ok (vls ns, h).
  Proof.
    induction ns as [|[a v] ns IH]; intros fuel h V Hw Hf; (destruct fuel as [|fuel]; [lia|]); cbn [stl_collect ListSort.sp].
    { by rewrite decide_True. }
    destruct Hw as (Hn & Hx & Hw). rewrite decide_False by (intros [= ->]; by eapply virt_not_node).
    rewrite (bind_ok _ _ _ _ _ (value_ok h al a v Hn)).
    rewrite (bind_ok _ _ _ _ _ (get_next_ok h a _ Hx ltac:(by destruct ns as [|[? ?] ?]))).
    rewrite (bind_ok _ _ _ _ _ (IH fuel h V Hw ltac:(simpl in Hf; lia))). done.
  Qed.
  Theorem C69_merge sp w k i j al xs ys lt w' : reached sp w -> i <> j ->
    sp !! i = Some (al, Some xs) -> sp !! j = Some (al, Some ys) -> nlen xs + nlen ys < W ->
    c_step dbl k (LMer i j false lt) w = Ok (None, w') ->
    step (LSize i) w' = Ok (ONum (nlen xs + nlen ys), w') /\
    step (LItems j) w' = Ok (OList [], w') /\ step (LSize j) w' = Ok (ONum 0, w') /\
    others dbl w w' sp [i; j] /\
    (torn dbl i w' \/ exists zs lost, step (LItems i) w' = Ok (OList zs, w') /\ lost <> [] /\ zs ++ lost ≡ₚ xs ++ ys) /\
    (k = 0%nat -> step (LItems i) w' = Ok (OList xs, w')).
  Proof.
    intros Hr%reached_rel Hij Hi Hj HWs.
    destruct (rel_live2 dbl _ _ _ _ _ _ _ _ Hr Hij Hi Hj)
      as (Hwf & hd & tl & ns & hd2 & tl2 & ms & (V1 & X1 & Lk1 & W1) & (V2 & X2 & Lk2 & W2) & Hap & Hoth).
    cbn [c_step]. destruct (Nat.eqb_spec i j) as [|_]; [done|]. unfold c_two, bind, wget. rewrite V1, V2.
    assert (Hlx : length ns = length xs) by by rewrite <-X1, vls_length.
    assert (Hly : length ms = length ys) by by rewrite <-X2, vls_length.
    destruct (x_merge dbl _ lt _) as [[[?|] s]|] eqn:E; [done| |done]. intros [= <-]. unfold x_merge in E.
    cbn [l_len L] in E. destruct (N.eqb_spec (nlen ms) 0) as [|Hm0]; [done|].
    destruct (lok_chn dbl _ _ _ _ _ Lk1) as (Hc1 & He1 & Hnd1 & Hnh1 & Hnt1 & Hht1).
    destruct (lok_chn dbl _ _ _ _ _ Lk2) as (Hc2 & He2 & Hnd2 & Hnh2 & Hnt2 & Hht2).
    assert (I1 : hd ∈ lfp hd ns tl) by by left. assert (I2 : tl ∈ lfp hd ns tl) by apply tl_in.
    assert (I3 : hd2 ∈ lfp hd2 ms tl2) by by left. assert (I4 : tl2 ∈ lfp hd2 ms tl2) by apply tl_in.
    assert (In1 : forall a, a ∈ ads ns -> a ∈ lfp hd ns tl) by (intros a; apply ads_in_lfp).
    assert (In2 : forall a, a ∈ ads ms -> a ∈ lfp hd2 ms tl2) by (intros a; apply ads_in_lfp).
    set (h := w_heap w) in *.
    assert (Hh2 : has h hd2) by (eapply lok_has; [exact Lk2|done]).
    assert (Ht2 : has h tl2) by (eapply lok_has; [exact Lk2|done]).
    set (h1 := sn dbl h hd2 tl2).
    rewrite xb_this, xb_mem in E. cbn [l_head l_tail L] in E. rewrite (first_next _ _ _ _ _ Lk1) in E.
    rewrite xb_mem, (first_next _ _ _ _ _ Lk2), xb_mem in E. rewrite set_next_ok in E by done. fold h1 in E.
    rewrite xb_put in E. apply xb_none_inv in E as [E|(? & ? & _ & E)]; [|by apply mem_none in E].
    assert (R1 : relink h h1 [hd2; tl2]) by (apply relink_sn; [done|done|by left|by right; left]).
    assert (F1 : forall a, a ∈ lfp hd ns tl -> a ∉ [hd2; tl2]).
    { intros a Ha [->|[->|[]%elem_of_nil]%elem_of_cons]%elem_of_cons; eapply Hap; eauto. }
    assert (Lk1' : lok h1 al hd ns tl).
    { eapply lok_frame; [|exact Lk1]. intros a Ha. apply R1. by apply F1. }
    assert (Lo1 : lok h1 al hd2 [] tl2).
    { apply (lpre_close dbl h al hd2 [] [] tl2). apply (lpre_drop_r dbl h al hd2 [] ms [] tl2). apply lok_lpre.
      by rewrite app_nil_r. }
    destruct (lok_chn dbl _ _ _ _ _ Lk1') as (Hc1' & He1' & _).
    destruct (lok_chn dbl _ _ _ _ _ Lo1) as (_ & He2' & _).
    assert (Hc2' : chn dbl h1 al ms (PAddr tl2)).
    { eapply chn_relink; [exact R1| |done|exact Hc2].
      intros a Ha [->|[->|[]%elem_of_nil]%elem_of_cons]%elem_of_cons; done. }
    assert (Hnd12 : NoDup (ads ns ++ ads ms)).
    { apply NoDup_app. split; [done|]. split; [|done]. intros a Ha Hb. apply (Hap a); auto. }
    assert (Esp1 : lp ns (PAddr tl) = PAddr (startp ns tl)) by by destruct ns as [|[? ?] ?].
    assert (Esp2 : lp ms (PAddr tl2) = PAddr (startp ms tl2)) by by destruct ms as [|[? ?] ?].
    rewrite <-Esp1, <-Esp2 in E.
    apply merge_nodes_torn with (al := al) in E as (Hl & b & ds & xs' & ys' & (Wd & Wx & Wy) & Hxn & Hyn & (x1 & Ex1 & Hx1) & (y1 & Ey1 & Hy1) & Hp & Hk & R2 & H0);
      [|by apply (chn_way dbl)|by apply (chn_way dbl)|by apply isend0_isend|by apply isend0_isend|done].
    assert (Hhm : hd ∉ ads ms) by (intros Hin; apply (Hap hd); auto).
    assert (Htm : tl ∉ ads ms) by (intros Hin; apply (Hap tl); auto).
    assert (Hh2n : hd2 ∉ ads ns) by (intros Hin; apply (Hap hd2); auto).
    assert (Ht2n : tl2 ∉ ads ns) by (intros Hin; apply (Hap tl2); auto).
    assert (Nh : hd ∉ ads ns ++ ads ms) by (intros [?|?]%elem_of_app; done).
    assert (Nt : tl ∉ ads ns ++ ads ms) by (intros [?|?]%elem_of_app; done).
    assert (Nh2 : hd2 ∉ ads ns ++ ads ms) by (intros [?|?]%elem_of_app; done).
    assert (Nt2 : tl2 ∉ ads ns ++ ads ms) by (intros [?|?]%elem_of_app; done).
    assert (Lo2 : lok (x_h s) al hd2 [] tl2).
    { eapply lok_frame; [|exact Lo1]. intros a [->|[->|[]%elem_of_nil]%elem_of_cons]%elem_of_cons; by apply R2. }
    assert (Ee1 : isend0 (x_h s) al (PAddr tl)).
    { eapply isend0_relink; [exact R2|by intros t [= <-]|done]. }
    assert (Ee2 : isend0 (x_h s) al (PAddr tl2)).
    { eapply isend0_relink; [exact R2|by intros t [= <-]|done]. }
    assert (Vt : virt (x_h s) al tl) by (destruct Ee1 as [|(? & [= <-] & ? & _)]; done).
    assert (Hhd : nx (x_h s) hd = Some (lp ns (PAddr tl))).
    { destruct (has_eq _ (x_h s) hd (r_fr _ _ _ R2 hd Nh)) as (-> & _ & _). rewrite Esp1. exact (first_nx _ _ _ _ _ Lk1'). }
    assert (Vi : forall v, <[i:=v]> (<[j:=emptied (L al hd2 tl2 ms)]> (w_vars w)) !! i = Some v) by (intros; by rewrite lookup_insert).
    assert (Vj : forall v, <[i:=v]> (<[j:=emptied (L al hd2 tl2 ms)]> (w_vars w)) !! j = Some (L (T := T) al hd2 tl2 [])).
    { intros v. rewrite lookup_insert_ne, lookup_insert by done. unfold emptied. cbn [l_len L].
      by destruct (N.eqb_spec (nlen ms) 0). }
    set (w' := World (x_h s) _).
    assert (Vi' : w_vars w' !! i = Some (set_len (L al hd tl ns) (uadd (nlen ns) (nlen ms)))) by (simpl; by rewrite Vi, Hl).
    assert (Col : forall zs, way (x_h s) al zs (PAddr tl) -> lp ns (PAddr tl) = lp zs (PAddr tl) ->
      step (LItems i) w' = Ok (OList (vls zs), w')).
    { intros zs Hz Es. cbn [list_step]. unfold l_obs, bind at 1, wget. rewrite Vi'. unfold lift, l_to_list. cbn [l_head l_tail set_len L].
      rewrite bind_bind, (bind_ok _ _ _ _ _ (get_next_ok (w_heap w') hd _ Hhd ltac:(by rewrite Esp1))).
      rewrite bind_bind, (bind_ok _ _ _ _ _ (fuel_ok _)). rewrite Es.
      assert (Hz2 : (length zs < S (size (hmap (w_heap w'))))%nat).
      { pose proof (way_room _ _ _ _ Ee1 Hz) as Hrm. unfold room in Hrm. rewrite decide_False in Hrm by done.
        change (w_heap w') with (x_h s). lia. }
      rewrite (bind_ok _ _ _ _ _ (collect_way al tl zs _ (x_h s) Vt Hz Hz2)).
      done. }
    split; [|split; [|split; [|split; [|split]]]].
    - rewrite (len_step _ _ _ Vi'). cbn [set_len l_len]. do 3 f_equal. rewrite Hlx, Hly. by apply uadd_small.
    - cbn [list_step]. unfold l_obs, bind at 1, wget. cbn [w_vars w']. rewrite Vj. unfold lift.
      cbn [w_heap w']. by rewrite (bind_ok _ _ _ _ _ (to_list_ok dbl _ _ _ _ _ Lo2)).
    - rewrite (len_step w' j (L (T := T) al hd2 tl2 [])); [done|]. apply Vj.
    - eapply Hoth. apply (relink_upd h (x_h s) (lfp hd ns tl ++ lfp hd2 ms tl2)); [done| |].
      + intros a [Ha|Ha]%elem_of_app; [exact (lok_has dbl _ _ _ _ _ _ Lk1 Ha)|exact (lok_has dbl _ _ _ _ _ _ Lk2 Ha)].
      + eapply relink_trans; [eapply relink_weaken; [|exact R1]|eapply relink_weaken; [|exact R2]].
        * intros a [->|[->|[]%elem_of_nil]%elem_of_cons]%elem_of_cons; apply elem_of_app; by right.
        * intros a [Ha|Ha]%elem_of_app; apply elem_of_app; auto.
    - assert (Hpv : vls ds ++ vls xs' ++ vls ys' ≡ₚ xs ++ ys).
      { rewrite <-X1, <-X2. unfold vls. by rewrite <-!fmap_app, Hp. }
      destruct x1 as [|[a v] x1].
      { right. simpl in Ex1. subst xs'. exists (vls ns), (vls ds ++ vls ys').
        split; [by apply Col|]. split.
        - intros [_ Hy]%app_eq_nil. by destruct ys'.
        - rewrite <-Hpv. rewrite !(assoc (++)). f_equiv. apply (comm (++)). }
      destruct (elem_of_list_split ds (a, v) (Hx1 _ ltac:(by left))) as (d1 & d2 & ->).
      apply way_app in Wd as (_ & Wd).
      assert (Hs1 : lp ns (PAddr tl) = PAddr a) by by rewrite Ex1.
      destruct b.
      + right. exists (vls ((a, v) :: d2 ++ xs')), (vls d1 ++ vls ys'). split; [|split].
        * apply Col; [|done]. apply (way_app _ _ ((a, v) :: d2) xs'). split; [exact Wd|done].
        * intros [_ Hy]%app_eq_nil. by destruct ys'.
        * rewrite <-Hpv. unfold vls. rewrite !fmap_app. cbn [fmap list_fmap]. rewrite !fmap_app. fold (vls d1) (vls d2) (vls xs') (vls ys').
          rewrite (assoc (++) _ (vls d1)), (comm (++) _ (vls d1)), <-!(assoc (++)). cbn [app]. by rewrite <-!(assoc (++)).
      + left. eapply (torn_way dbl i _ hd tl _ al (((a, v) :: d2) ++ ys') (PAddr tl2)); [exact Vi'| |exact Ee2| | |].
        * cbn [w_heap w']. by rewrite Hhd, Hs1.
        * apply way_app. split; [exact Wd|done].
        * intros Hin. assert (Hw : way (x_h s) al (((a, v) :: d2) ++ ys') (PAddr tl2)) by (apply way_app; by split).
          destruct (way_node _ _ _ _ _ Hw Hin) as [u Hu]. by eapply virt_not_node.
        * intros [= ->]. by apply (Hap tl).
    - intros ->. destruct ds as [|? ?]; [|done]. assert (x1 = []) as ->.
      { destruct x1 as [|z x1]; [done|]. exfalso. apply (not_elem_of_nil z). apply Hx1. by left. }
      simpl in Ex1. subst xs'. rewrite <-X1. by apply Col.
  Qed.

  (** *** unique *)
  Lemma unique_loop_throw al hd tl r n2 : forall n1 b v0 fuel h cnt k,
    hwf h -> lok h al hd (n1 ++ (b, v0) :: n2) tl -> nlen (n1 ++ (b, v0) :: n2) < W -> (length n2 < fuel)%nat -> (k < length n2)%nat ->
    exists h' c', let ns' := n1 ++ (b, v0) :: uniq r v0 (take k n2) ++ drop k n2 in
      x_unique_loop dbl fuel r (PAddr b) (PAddr b) (PAddr (startp n2 tl)) cnt (Lts (L al hd tl (n1 ++ (b, v0) :: n2)) h k) =
        Ok (None, Lts (L al hd tl ns') h' c') /\
      became dbl h h' al hd tl (n1 ++ (b, v0) :: n2) ns'.
  Proof.
    induction n2 as [|[a v] n2 IH]; intros n1 b v0 fuel h cnt k Hw Lk Hlen Hf Hk; (destruct fuel as [|fuel]; [lia|]); simpl in Hf, Hk; [lia|].
    cbn [x_unique_loop startp]. rewrite xb_this. cbn [l_tail L].
    pose proof Lk as Lk2. rewrite cons_middle, app_assoc in Lk2.
    rewrite decide_False by by eapply ne_tl.
    rewrite xb_mem, (value_at dbl _ _ _ _ _ _ _ _ Lk2), xb_mem, (value_at dbl _ _ _ _ _ _ _ _ Lk).
    destruct k as [|k].
    { rewrite comparing_O. cbn [take drop uniq app]. eexists h, _. split; [done|]. by apply became_refl. }
    rewrite comparing_S. cbn [take drop uniq].
    apply lok_tk in Lk. apply lok_tk in Lk2. change (hwf (tk h)) in Hw.
    cbv zeta. match goal with |- exists h' c', ?lhs = Ok (None, Lts (L al hd tl ?N) h' c') /\ _ =>
      enough (G : exists h' c', lhs = Ok (None, Lts (L al hd tl N) h' c') /\
        became dbl (tk h) h' al hd tl (n1 ++ (b, v0) :: (a, v) :: n2) N) end.
    { destruct G as (h' & c' & G1 & G2). exists h', c'. split; [exact G1|]. by apply became_tk. }
    revert Lk Lk2 Hw. generalize (tk h). clear h. intros h Lk Lk2 Hw.
    destruct (r v v0) eqn:Er.
    - destruct (cut1_ok dbl h al hd (n1 ++ [(b, v0)]) a v n2 tl Hw Lk2) as (E1 & E2 & E3 & B).
      assert (Hlen' : nlen (n1 ++ (b, v0) :: n2) < W) by (rewrite app_length in *; cbn [length] in *; lia).
      pose proof (proj1 B) as Lk3. pose proof B as B'. rewrite <-!app_assoc in B'. cbn [app] in B'.
      destruct (IH n1 b v0 fuel _ (uadd cnt 1) k (became_wf _ _ _ _ _ _ _ _ B) (proj1 B')) as (h' & c' & E & B2);
        [done|lia|lia|].
      exists h', c'. split; [|by eapply became_trans]. rewrite endp_app in E1. cbn [endp] in E1.
      rewrite xb_mem, (ListOps3.next_of dbl _ _ _ _ _ _ _ _ Lk2), xb_mem, E1, xb_mem. cbn [l_al L].
      rewrite endp_app in E3. cbn [endp] in E3. rewrite E3, xb_put, xb_mem.
      pose proof (next_at dbl _ _ _ _ _ _ Lk3) as E4. rewrite endp_app in E4. cbn [endp] in E4. rewrite E4.
      assert (Hlen2 : nlen ((n1 ++ [(b, v0)]) ++ (a, v) :: n2) < W) by by rewrite <-app_assoc.
      pose proof (L_less' al hd tl (n1 ++ [(b, v0)]) n2 (a, v) Hlen2) as EL. rewrite <-!app_assoc in EL. cbn [app] in EL.
      rewrite EL. rewrite endp_app in E. cbn [endp] in E. exact E.
    - destruct (IH (n1 ++ [(b, v0)]) a v fuel h cnt k Hw Lk2) as (h' & c' & E & B2).
      { by rewrite <-app_assoc. } { lia. } { lia. }
      exists h', c'. cbv zeta in E, B2. rewrite <-!app_assoc in E, B2. cbn [app] in E, B2.
      rewrite xb_mem, (ListOps3.next_of dbl _ _ _ _ _ _ _ _ Lk2). split; [exact E|exact B2].
  Qed.

  Lemma rel_goes_on sp w : rel dbl sp w -> goes_on dbl 0 sp w.
  Proof.
    intros Hr ops sp' outs Ho E. pose proof (hist dbl ops Ho sp w Hr) as Ha.
    rewrite E in Ha. destruct Ha as (w' & -> & Hr'). exists w'. split; [done|]. intros ->.
    apply rel_empty in Hr'. by rewrite Hr'.
  Qed.
  Lemma uniq_firsts r a v ns k : vls ((a, v) :: uniq r v (take k ns) ++ drop k ns) =
    firsts r (take (S k) (v :: vls ns)) ++ drop (S k) (v :: vls ns).
  Proof.
    cbn [take drop]. pose proof (firsts_unique r ((a, v) :: take k ns)) as E. cbn [unique_of] in E.
    assert (Et : vls (take k ns) = take k (vls ns)) by apply fmap_take.
    assert (Ed : vls (drop k ns) = drop k (vls ns)) by apply fmap_drop.
    change (vls ((a, v) :: take k ns)) with (v :: vls (take k ns)) in E. rewrite Et in E. rewrite <-E, <-Ed.
    unfold vls. by rewrite <-fmap_app.
  Qed.
  (** [unique]: the list is what it was with the duplicates found so far gone,
      and every program goes on from there. *)
  Theorem C69_unique sp w k i al xs r : reached sp w -> sp !! i = Some (al, Some xs) -> (k + 1 < length xs)%nat ->
    exists w', c_step dbl k (LUniq i r) w = Ok (None, w') /\ others dbl w w' sp [i] /\
      goes_on dbl 0 (<[i := (al, Some (firsts r (take (k + 1) xs) ++ drop (k + 1) xs))]> sp) w'.
  Proof.
    intros Hr%reached_rel Hi Hk.
    destruct (rel_live dbl _ _ _ _ _ Hr Hi) as (Hwf & hd & tl & ns & Hv & Hx & Lk & HW & Hoth).
    assert (Key : forall hd tl ns, vls ns = xs -> lok (w_heap w) al hd ns tl -> nlen ns < W ->
      exists ns' h' c', x_unique dbl r (Lts (L al hd tl ns) (w_heap w) k) = Ok (None, Lts (L al hd tl ns') h' c') /\
        vls ns' = firsts r (take (k + 1) xs) ++ drop (k + 1) xs /\ became dbl (w_heap w) h' al hd tl ns ns').
    { clear hd tl ns Hv Hx Lk HW Hoth. intros hd tl ns Hx Lk HW.
      assert (Hl : length ns = length xs) by by rewrite <-Hx, vls_length.
      destruct ns as [|[a v] ns]; [simpl in Hl; lia|]. cbn [length] in Hl.
      destruct (unique_loop_throw al hd tl r ns [] a v (S (size (hmap (w_heap w)))) (w_heap w) 0 k Hwf Lk HW) as (h' & c' & E & B).
      { pose proof (lok_fuel dbl _ _ _ _ _ Lk) as Hf. simpl in Hf. lia. } { lia. }
      eexists _, h', c'. split; [|split; [|exact B]].
      - unfold x_unique. rewrite xb_this. cbn [l_len l_head L]. destruct (N.ltb_spec (nlen ((a, v) :: ns)) 2) as [E2|E2]; [cbn [length] in E2; lia|].
        rewrite xb_mem, (first_next _ _ _ _ _ Lk). cbn [startp]. rewrite xb_mem, (ListOps3.next_of dbl _ al hd [] _ _ _ tl Lk), xb_mem, fuel_ok.
        exact E.
      - cbn [app]. rewrite uniq_firsts. rewrite Nat.add_1_r. rewrite <-Hx. done. }
    destruct (Key hd tl ns Hx Lk HW) as (ns' & h' & c' & E & Hn' & B).
    exists (World h' (<[i := L al hd tl ns']> (w_vars w))).
    split; [|split].
    - cbn [c_step]. unfold x_upd, bind, wget. rewrite Hv. by rewrite (xb_none _ _ _ _ E).
    - eapply Hoth. apply B.
    - apply rel_goes_on. destruct Hr as [m Hw].
      pose proof (ok_updo dbl w sp m i (fun l h => match x_unique dbl r (Lts l h k) with
        | Ok (_, s) => Ok ((x_l s, OUnit), x_h s) | Err e => Err e end) al xs
        (al, Some (firsts r (take (k + 1) xs) ++ drop (k + 1) xs)) OUnit Hw Hi) as Ha.
      destruct Ha as (w1 & E1 & R1).
      { intros hd0 tl0 ns0 Hx0 Lk0 HW0. destruct (Key hd0 tl0 ns0 Hx0 Lk0 HW0) as (ns1 & h1 & c1 & -> & Hn1 & B1).
        eexists _, h1, _. split; [done|]. split; [|exact (proj2 B1)]. apply rep_now; [exact (proj1 B1)| |done].
        assert (Hle : (length ns1 <= length ns0)%nat).
        { rewrite <-(vls_length ns1), <-(vls_length ns0), Hn1, Hx0, app_length, drop_length.
          pose proof (firsts_length r (take (k + 1) xs)) as Hfl. rewrite take_length in Hfl. lia. }
        lia. }
      unfold l_updo, bind, wget in E1. rewrite Hv in E1. unfold lift in E1. rewrite E in E1. cbn [x_l x_h] in E1.
      unfold wset, ret in E1. injection E1 as <-. exact R1.
  Qed.

  (** *** remove_if *)
  Theorem C69_remove_if sp w k i al xs f : reached sp w -> sp !! i = Some (al, Some xs) -> (k < length xs)%nat ->
    c_step dbl k (LRemIf i f) w = Err Panic.
  Proof.
    intros Hr%reached_rel Hi Hk.
    destruct (rel_live dbl _ _ _ _ _ Hr Hi) as (Hwf & hd & tl & ns & Hv & Hx & Lk & HW & _).
    assert (Hl : length ns = length xs) by by rewrite <-Hx, vls_length.
    destruct (remove_if_n dbl _ _ _ _ _ f Hwf Lk HW) as (h' & E & _ & Hc).
    refine (proj2 (C69_calls w k (LRemIf i f) _ _ _) _ eq_refl).
    - cbn [list_step]. eapply updo_run; [exact Hv|]. rewrite (bind_ok _ _ _ _ _ E). done.
    - unfold called. cbn [w_heap]. rewrite Hc. lia.
  Qed.
End Props.

(** ** A throwing predicate is something a program recovers from: refuted *)
Section Refuted.
  Context (dbl : bool).
  Notation world := (world (cell N) lst).
  Definition cmp_claim : Prop := forall (ops : list (lop N)) o k sp outs sp' x w, Forall ordered ops ->
    srun (gspec dbl) ∅ ops = SOk sp outs -> run_ops (list_step dbl) ops winit = Ok (outs, w) ->
    gspec dbl sp o = SOk sp' x -> exists r w', c_step dbl k o w = Ok (r, w') /\ tidy dbl w' = true.

  Definition cstart : list (lop N) :=
    [LRange 0%nat 0 [5;0;6;6]; LRange 1%nat 0 [7;8;9;4]; LRange 2%nat 0 [1;3;5]; LRange 3%nat 0 [2;4]].
  Definition cafter (o : lop N) (k : nat) : outcome (option (lout N) * world) :=
    match run_ops (list_step dbl) cstart winit with
    | Ok (_, w) => c_step dbl k o w
    | Err e => Err e
    end.
  Definition cverdict (o : lop N) (k : nat) : option bool :=
    match cafter o k with Ok (None, w) => Some (tidy dbl w) | Ok (Some _, w) => None | Err _ => Some false end.
  Definition cthen (o : lop N) (k : nat) (q : lop N) : option (outcome (lout N)) :=
    match cafter o k with
    | Ok (None, w) => Some (match list_step dbl q w with Ok (x, _) => Ok x | Err e => Err e end)
    | _ => None
    end.
  Definition callowed (o : lop N) : bool :=
    match srun (gspec dbl) ∅ (cstart ++ [o]) with SOk _ _ => true | _ => false end.
End Refuted.

Theorem C69_refuted dbl : ~ cmp_claim dbl.
Proof.
  intros H. destruct (run_ops (list_step dbl) [LRange 0%nat 0 [5;6]] winit) as [[outs w]|] eqn:E;
    [|destruct dbl; vm_compute in E; discriminate E].
  destruct (srun (gspec dbl) ∅ [LRange 0%nat 0 [5;6]]) as [sp outs'| |] eqn:Es;
    [|destruct dbl; vm_compute in Es; discriminate Es..].
  assert (outs' = outs) as ->.
  { destruct dbl; vm_compute in E, Es; injection E as <- _; by injection Es as _ <-. }
  destruct (gspec dbl sp (LSrt 0%nat N.ltb)) as [sp' x| |] eqn:Eg.
  - edestruct (H [LRange 0%nat 0 [5;6]] (LSrt 0%nat N.ltb) 0%nat) as (r & w' & Ex & Ht); [by repeat constructor|exact Es|exact E|exact Eg|].
    destruct dbl; vm_compute in E; injection E as _ <-; vm_compute in Ex; injection Ex as _ <-; vm_compute in Ht; discriminate Ht.
  - destruct dbl; vm_compute in Es; injection Es as <- _; vm_compute in Eg; discriminate Eg.
  - destruct dbl; vm_compute in Es; injection Es as <- _; vm_compute in Eg; discriminate Eg.
Qed.
(** [sort], [merge] and [remove_if]; [unique] is the exception. *)
Theorem C69_refuted_cases dbl :
  Forall (fun '(o, k) => callowed dbl o = true /\ cverdict dbl o k = Some false)
    [ (LSrt 0%nat N.ltb, 0%nat); (LSrt 0%nat N.ltb, 1%nat); (LSrt 0%nat N.ltb, 2%nat); (LSrt 0%nat N.ltb, 3%nat);
      (LMer 2%nat 3%nat false N.ltb, 0%nat); (LMer 2%nat 3%nat false N.ltb, 1%nat);
      (LMer 2%nat 3%nat false N.ltb, 2%nat); (LMer 2%nat 3%nat false N.ltb, 3%nat);
      (LRemIf 0%nat (N.eqb 6), 3%nat) ] /\
  Forall (fun k => callowed dbl (LUniq 0%nat N.eqb) = true /\ cverdict dbl (LUniq 0%nat N.eqb) k = Some true)
    [0%nat; 1%nat; 2%nat].
Proof. destruct dbl; (split; repeat (constructor; [by vm_compute|]); constructor). Qed.
(** Both ends of an interrupted [merge] of 1, 3, 5 and 2, 4 occur. *)
Example C69_merge_ex dbl :
  cthen dbl (LMer 2%nat 3%nat false N.ltb) 0 (LItems 2%nat) = Some (Ok (OList [1;3;5])) /\
  cthen dbl (LMer 2%nat 3%nat false N.ltb) 1 (LItems 2%nat) = Some (Ok (OList [1;3;5])) /\
  cthen dbl (LMer 2%nat 3%nat false N.ltb) 2 (LItems 2%nat) = Some (Err UB) /\
  cthen dbl (LMer 2%nat 3%nat false N.ltb) 3 (LItems 2%nat) = Some (Ok (OList [1;2;3;5])) /\
  cthen dbl (LMer 2%nat 3%nat false N.ltb) 3 (LSize 2%nat) = Some (Ok (ONum 5)) /\
  cthen dbl (LMer 2%nat 3%nat false N.ltb) 3 (LItems 3%nat) = Some (Ok (OList [])) /\
  cthen dbl (LUniq 0%nat N.eqb) 2 (LItems 0%nat) = Some (Ok (OList [5;0;6;6])) /\
  cthen dbl (LUniq 0%nat (fun a b => 4 <? a)) 2 (LItems 0%nat) = Some (Ok (OList [5;0;6])) /\
  cthen dbl (LSrt 0%nat N.ltb) 3 (LItems 0%nat) = Some (Err UB).
Proof. destruct dbl; by vm_compute. Qed.

(** The hypotheses are met. *)
Definition cstate (dbl : bool) : gmap nat (N * option (list N)) :=
  match srun (gspec dbl) ∅ cstart with SOk sp _ => sp | _ => ∅ end.
Example C69_ex dbl : exists w w', reached dbl (cstate dbl) w /\
  map_to_list (cstate dbl) = [(0%nat, (0, Some [5;0;6;6])); (1%nat, (0, Some [7;8;9;4])); (3%nat, (0, Some [2;4])); (2%nat, (0, Some [1;3;5]))] /\
  c_step dbl 2 (LMer 2%nat 3%nat false N.ltb) w = Ok (None, w').
Proof.
  destruct (srun (gspec dbl) ∅ cstart) as [sp outs| |] eqn:E; [|destruct dbl; vm_compute in E; discriminate E..].
  destruct (reach dbl cstart sp outs) as (w & Ew & _); [by repeat constructor|exact E|].
  exists w. destruct (cafter dbl (LMer 2%nat 3%nat false N.ltb) 2) as [[[x|] w']|e] eqn:Ea;
    [destruct dbl; vm_compute in Ea; discriminate Ea| |destruct dbl; vm_compute in Ea; discriminate Ea].
  exists w'. split; [|split].
  - exists cstart, outs. split; [by repeat constructor|]. unfold cstate. rewrite E. by split.
  - clear E Ew Ea. destruct dbl; vm_compute; reflexivity.
  - unfold cafter in Ea. by rewrite Ew in Ea.
Qed.

Print Assumptions C69_calls.
Print Assumptions C69_sort_throws.
Print Assumptions C69_sort.
Print Assumptions C69_merge.
Print Assumptions C69_unique.
Print Assumptions C69_remove_if.
Print Assumptions C69_refuted.
Print Assumptions C69_refuted_cases.
