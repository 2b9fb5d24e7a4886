(** * AllocatorLife: the allocator objects inside strings (C84)

    A string has a member [alloc] of type [Allocate], which is derived from
    the allocator class (basic_string.h:429-462).  An allocator with state is
    usually a handle on a shared pool: its copy constructor adds a user to the
    pool, its destructor takes one away.  Here every construction, assignment
    and destruction of the base-class subobject is recorded, in addition to
    what [StringAlloc.v] says of the calls of [allocate] and [deallocate].

    Simplifications: the allocator class has copy operations only (a class
    that declares its copy operations and destructor has no implicit moves);
    a string that is assigned to and keeps its allocator is not told apart
    from one that is assigned an equal one, the sums are the same. *)
From Verif Require Import Base World Machine Utf8Model StringModel StringProofs StringProps StringExact StringIter StringAlloc.
Local Open Scope N_scope.

(** A user more or less for a pool. *)
Notation event := (N * Z)%type.

(** ** [Allocate] *)

(** basic_string.h:432: [Allocator()]. *)
Definition base_default : list event := [(0, 1%Z)].
(** basic_string.h:433, 434: [Allocator(a)]. *)
Definition base_copy (a : N) : list event := [(a, 1%Z)].
(** basic_string.h:439-450: [Allocator::operator=]. *)
Definition base_assign (x y : N) : list event := [(y, 1%Z); (x, (-1)%Z)].
(** basic_string.h:430: the body calls the destructor of the base class,
    which the language then runs by itself. *)
Definition allocate_destroy (x : N) : list event := [(x, (-1)%Z); (x, (-1)%Z)].

Definition al_in (w : aworld) (i : nat) : N := match aw_vars w !! i with Some x => snd x | None => 0 end.
(** The events of an operation that leads from [w] to [w']:
    basic_string.h:55-56, 63-64 (constructors), 78 (the copy constructor does
    not name [alloc]), 145-146 (the move constructor assigns it), 92-143,
    157-213 (assignments), 57-61 with 462 (the destructor). *)
Definition h_events (o : aop) (w w' : aworld) : list event :=
  match o with
  | ANew _ a | ALit _ a _ => base_copy a
  | AOp (SEmpty _) | AOp (SCopy _ _) => base_default
  | AOp (SLit _ _) => base_copy 0
  | AOp (SMove _ j) => base_default ++ base_assign 0 (al_in w j)
  | AOp (SCopyAsg i j) => if (i =? j)%nat then [] else base_assign (al_in w i) (al_in w' i)
  | AOp (SMoveAsg i j) => if (i =? j)%nat then [] else base_assign (al_in w i) (al_in w j)
  | AOp (SDel i) => allocate_destroy (al_in w i)
  | AOp _ => []
  end.
Record hworld := HWorld { hw_world : aworld; hw_events : list event }.
Definition h_step (strict : bool) (o : aop) : M hworld sout := fun s =>
  match a_step strict o (hw_world s) with
  | Ok (y, w') => Ok (y, HWorld w' (hw_events s ++ h_events o (hw_world s) w'))
  | Err e => Err e
  end.
Definition h_init : hworld := HWorld ainit [].

(** ** Specification *)

(** The users of pool [a] the events add up to. *)
Definition sum_of (a : N) (l : list event) : Z := foldr (fun e z => ((if (fst e =? a)%N then snd e else 0) + z)%Z) 0%Z l.
(** The strings of a state that use allocator [a]. *)
Definition strings_with (a : N) (s : aspec) : list nat :=
  filter (fun i => al_of (spec_al s) i = a) (map fst (map_to_list (spec_str s))).
(** The strings destroyed in the course of a history while they used [a]. *)
Fixpoint destroyed (strict : bool) (a : N) (s : aspec) (ops : list aop) : N :=
  match ops with
  | [] => 0
  | o :: r =>
      match a_spec strict s o with
      | SOk s' _ =>
          (match o with AOp (SDel i) => if al_of (spec_al s) i =? a then 1 else 0 | _ => 0 end)
          + destroyed strict a s' r
      | _ => 0
      end
  end.

(** ** Proofs *)
Lemma sum_app a l k : sum_of a (l ++ k) = (sum_of a l + sum_of a k)%Z.
Proof. induction l as [|e l IH]; cbn [sum_of foldr app] in *; [done|]. unfold sum_of in *. cbn [foldr]. rewrite IH. lia. Qed.

Definition users (a : N) (vs : gmap nat astr) : Z := Z.of_N (mcount (fun x => snd x =? a) vs).
Lemma users_fresh a vs i x : vs !! i = None -> users a (<[i := x]> vs) = ((if (snd x =? a)%N then 1 else 0) + users a vs)%Z.
Proof. intros H. unfold users. rewrite mcount_fresh by done. destruct (snd x =? a); lia. Qed.
Lemma users_put a vs i x y : vs !! i = Some x ->
  users a (<[i := y]> vs) = ((if (snd y =? a)%N then 1 else 0) - (if (snd x =? a)%N then 1 else 0) + users a vs)%Z.
Proof. intros H. unfold users. pose proof (mcount_insert (fun x => snd x =? a) vs i x y H). destruct (snd x =? a), (snd y =? a); lia. Qed.
Lemma users_same a vs i x y : vs !! i = Some x -> snd y = snd x -> users a (<[i := y]> vs) = users a vs.
Proof. intros H E. rewrite (users_put _ _ _ _ _ H), E. lia. Qed.
Lemma users_del a vs i x : vs !! i = Some x -> users a (delete i vs) = (users a vs - (if (snd x =? a)%N then 1 else 0))%Z.
Proof. intros H. unfold users. pose proof (mcount_delete (fun x => snd x =? a) vs i x H). destruct (snd x =? a); lia. Qed.

Section Steps.
  Context (strict : bool).
  Ltac binds :=
    repeat match goal with
    | H : bind _ _ _ = Ok _ |- _ => let x := fresh "x" in let s := fresh "s" in let E := fresh "E" in
        apply bind_inv in H as (x & s & E & H)
    end.

  Lemma snd_new al s x s' : a_new al s = Ok (x, s') -> snd x = al.
  Proof. by intros [= <- <-]. Qed.
  Lemma snd_literal al bs s x s' : a_literal al bs s = Ok (x, s') -> snd x = al.
  Proof. unfold a_literal. intros E. destruct (_ <=? _); binds; by injection E as <- _. Qed.
  Lemma snd_copy x s y s' : a_copy x s = Ok (y, s') -> snd y = 0.
  Proof. unfold a_copy. intros E. destruct (_ <? _); binds; by injection E as <- _. Qed.
  Lemma snd_move x s y o s' : a_move strict x s = Ok ((y, o), s') -> snd y = snd x /\ snd o = snd x.
  Proof. unfold a_move. destruct x as [t al]. intros E. binds. by injection E as <- <- _. Qed.
  Lemma snd_move_assign x y s z o s' : a_move_assign strict x y s = Ok ((z, o), s') -> snd z = snd y /\ snd o = snd y.
  Proof.
    unfold a_move_assign. destruct x as [t al], y as [u bl]. intros E.
    destruct (_ && _); [|destruct (_ && _); [|destruct (_ && _)]]; binds; by injection E as <- <- _.
  Qed.
  Lemma snd_push x ch s y s' : a_push x ch s = Ok (y, s') -> snd y = snd x.
  Proof. unfold a_push. destruct x as [t al]. intros E. binds. destruct x as [u i]. binds. by injection E as <- _. Qed.
  Lemma snd_insert x ch idx s y s' : a_insert x ch idx s = Ok (y, s') -> snd y = snd x.
  Proof.
    unfold a_insert. destruct x as [t al]. intros E. binds. destruct (negb x); [done|]. binds.
    destruct x0 as [u i]. binds. by injection E as <- _.
  Qed.

  Lemma get_inv' i w x w' : a_get i w = Ok (x, w') -> aw_vars w !! i = Some x /\ w' = w.
  Proof. unfold a_get. destruct (aw_vars w !! i) eqn:E; [|done]. by intros [= <- <-]. Qed.
  Lemma fresh_inv' i w x w' : a_fresh i w = Ok (x, w') -> aw_vars w !! i = None /\ w' = w.
  Proof. unfold a_fresh. destruct (aw_vars w !! i) eqn:E; [done|]. by intros [= <- <-]. Qed.
  Lemma alift_inv {X} (m : M amem X) w x w' : a_lift m w = Ok (x, w') -> exists s, m (aw_mem w) = Ok (x, s) /\ w' = AWorld s (aw_vars w).
  Proof. unfold a_lift. destruct (m (aw_mem w)) as [[y s]|]; [|done]. intros [= <- <-]. eauto. Qed.

  Lemma mk_users a i f al w y w' : (forall s x s', f s = Ok (x, s') -> snd x = al) -> a_mk i f w = Ok (y, w') ->
    users a (aw_vars w') = ((if (al =? a)%N then 1 else 0) + users a (aw_vars w))%Z.
  Proof.
    intros Hf E. unfold a_mk in E. binds. apply fresh_inv' in E0 as [Hi ->]. apply alift_inv in E1 as (m & E1 & ->).
    injection E2 as _ <-. injection E as _ <-. cbn [aw_vars]. rewrite users_fresh by done. by rewrite (Hf _ _ _ E1).
  Qed.
  Lemma upd_users a i f w y w' : (forall x s x' s', f x s = Ok (x', s') -> snd x' = snd x) -> a_upd i f w = Ok (y, w') ->
    users a (aw_vars w') = users a (aw_vars w).
  Proof.
    intros Hf E. unfold a_upd in E. binds. apply get_inv' in E0 as [Hi ->]. apply alift_inv in E1 as (m & E1 & ->).
    injection E2 as _ <-. injection E as _ <-. cbn [aw_vars]. eapply users_same; [done|]. by eapply Hf.
  Qed.
  Lemma obs_users {X} a i (f : str -> M (heap sblk) X) g w y w' : a_obs i f g w = Ok (y, w') ->
    users a (aw_vars w') = users a (aw_vars w).
  Proof.
    intros E. unfold a_obs in E. binds. apply get_inv' in E0 as [Hi ->]. apply alift_inv in E1 as (m & E1 & ->).
    by injection E as _ <-.
  Qed.

  (** What an operation adds to the users of a pool is what it adds to the
      strings that use it, but for the strings it destroys. *)
  Lemma step_users a o w y w' : a_step strict o w = Ok (y, w') ->
    sum_of a (h_events o w w') = (users a (aw_vars w') - users a (aw_vars w)
      - match o with AOp (SDel i) => if (al_in w i =? a)%N then 1 else 0 | _ => 0 end)%Z.
  Proof.
    destruct o as [i al|i al bs|o]; [| |destruct o as [i|i bs|i j|i j|i j|i j|i ch|i ch idx|i|i|i|i|i idx|i]];
      cbn [a_step h_events]; unfold base_default, base_copy, base_assign, allocate_destroy; intros E.
    - rewrite (mk_users a _ _ al _ _ _ ltac:(apply snd_new) E). cbn. lia.
    - rewrite (mk_users a _ _ al _ _ _ ltac:(apply snd_literal) E). cbn. lia.
    - rewrite (mk_users a _ _ 0 _ _ _ ltac:(apply snd_new) E). cbn -[N.eqb]. lia.
    - rewrite (mk_users a _ _ 0 _ _ _ ltac:(apply snd_literal) E). cbn -[N.eqb]. lia.
    - binds. apply get_inv' in E0 as [Hj ->].
      rewrite (mk_users a _ _ 0 _ _ _ ltac:(apply snd_copy) E). cbn -[N.eqb]. lia.
    - binds. apply fresh_inv' in E0 as [Hi ->]. apply get_inv' in E1 as [Hj ->]. destruct x1 as [z o']. binds.
      apply alift_inv in E2 as (m & E2 & ->). injection E0 as _ <-. injection E1 as _ <-. injection E as _ <-.
      cbn [aw_vars]. apply snd_move in E2 as [H1 H2]. unfold al_in. rewrite Hj.
      rewrite users_fresh, (users_same a _ _ _ _ Hj H2), H1.
      2:{ rewrite lookup_insert_ne; [done|]. intros ->. by rewrite Hj in Hi. }
      cbn -[N.eqb]. destruct (0 =? a), (snd x0 =? a); lia.
    - binds. apply get_inv' in E0 as [Hi ->]. apply get_inv' in E1 as [Hj ->].
      destruct (i =? j)%nat; [injection E as _ <-; cbn; lia|]. binds.
      apply alift_inv in E0 as (m & E0 & ->). injection E1 as _ <-. injection E as _ <-. unfold al_in. cbn [aw_vars].
      rewrite Hi, lookup_insert, (users_put a _ _ _ _ Hi). cbn. destruct (snd x =? a), (snd x1 =? a); lia.
    - binds. apply get_inv' in E0 as [Hi ->]. apply get_inv' in E1 as [Hj ->].
      destruct (i =? j)%nat eqn:Hij; [injection E as _ <-; cbn; lia|]. binds. destruct x1 as [z o']. binds.
      apply alift_inv in E0 as (m & E0 & ->). injection E1 as _ <-. injection E2 as _ <-. injection E as _ <-.
      apply snd_move_assign in E0 as [H1 H2]. unfold al_in. cbn [aw_vars]. rewrite Hi, Hj.
      apply Nat.eqb_neq in Hij.
      rewrite (users_put a _ _ x), (users_same a _ _ _ _ Hj H2), H1 by (by rewrite lookup_insert_ne).
      cbn. destruct (snd x =? a), (snd x0 =? a); lia.
    - rewrite (upd_users a _ _ _ _ _ ltac:(intros ????; apply snd_push) E). cbn. lia.
    - rewrite (upd_users a _ _ _ _ _ ltac:(intros ????; apply snd_insert) E). cbn. lia.
    - binds. apply get_inv' in E0 as [Hi ->]. destruct x0 as [z v]. binds.
      apply alift_inv in E1 as (m & E1 & ->). injection E0 as _ <-. injection E as _ <-. cbn [aw_vars].
      rewrite (users_same a _ _ _ (z, snd x) Hi) by done. cbn. lia.
    - rewrite (obs_users a _ _ _ _ _ _ E). cbn. lia.
    - rewrite (obs_users a _ _ _ _ _ _ E). cbn. lia.
    - rewrite (obs_users a _ _ _ _ _ _ E). cbn. lia.
    - rewrite (obs_users a _ _ _ _ _ _ E). cbn. lia.
    - binds. apply get_inv' in E0 as [Hi ->]. apply alift_inv in E1 as (m & E1 & ->). injection E2 as _ <-. injection E as _ <-.
      cbn [aw_vars]. rewrite (users_del a _ _ _ Hi). unfold al_in. rewrite Hi. cbn. destruct (snd x =? a); lia.
  Qed.

  Lemma h_run_ok ops : forall s w evs s' outs, arel s w -> srun (a_spec strict) s ops = SOk s' outs ->
    exists w' evs', run_ops (h_step strict) ops (HWorld w evs) = Ok (outs, HWorld w' (evs ++ evs')) /\ arel s' w' /\
      forall a, sum_of a evs' = (users a (aw_vars w') - users a (aw_vars w) - Z.of_N (destroyed strict a s ops))%Z.
  Proof.
    induction ops as [|o ops IH]; cbn [srun run_ops destroyed]; intros s w evs s' outs Hr E.
    { injection E as <- <-. exists w, []. rewrite app_nil_r. split; [done|]. split; [done|]. intros a. cbn. lia. }
    pose proof (step_refines strict s w o Hr) as R. 
    destruct (a_spec strict s o) as [s1 y| |] eqn:Eo; [|done|done]. destruct R as (w1 & E1 & R1).
    destruct (srun (a_spec strict) s1 ops) as [s2 ys| |] eqn:E2; [|done|done]. injection E as <- <-.
    destruct (IH s1 w1 (evs ++ h_events o w w1) s2 ys R1 E2) as (w' & evs' & E3 & R3 & Hs).
    exists w', (h_events o w w1 ++ evs'). cbv [bind ret]. unfold h_step at 1. cbn [hw_world hw_events].
    rewrite E1, E3, app_assoc. split; [done|]. split; [done|]. intros a.
    rewrite sum_app, Hs, (step_users a _ _ _ _ E1).
    assert (forall i, o = AOp (SDel i) -> al_in w i = al_of (spec_al s) i) as Ha.
    { intros i ->. cbn [a_step] in E1. apply bind_inv in E1 as (x & w2 & E1 & _). apply get_inv' in E1 as [Hx _].
      unfold al_in. rewrite Hx. by apply (ar_al _ _ Hr). }
    destruct o as [| |[]]; try (cbn; lia). rewrite (Ha _ eq_refl). destruct (_ =? a); lia.
  Qed.
End Steps.

(** The strings counted by name. *)
Lemma users_list a (vs : gmap nat astr) : users a vs = Z.of_nat (length (filter (fun p => snd (snd p) = a) (map_to_list vs))).
Proof.
  induction vs as [|i x vs Hi IH] using map_ind; [by rewrite map_to_list_empty|].
  rewrite users_fresh, map_to_list_insert, IH by done. rewrite filter_cons. cbn [snd].
  destruct (N.eqb_spec (snd x) a), (decide (snd x = a)); try done; cbn [length]; lia.
Qed.
Lemma users_spec a s w : arel s w -> users a (aw_vars w) = Z.of_nat (length (strings_with a s)).
Proof.
  intros [Hr _ Ha _ _]. unfold users, strings_with.
  assert (dom (spec_str s) = dom (aw_vars w)) as Hd.
  { destruct Hr as [m Hw]. pose proof (wo_spec _ _ _ _ Hw) as Es. pose proof (wo_vars _ _ _ _ Hw) as Ev.
    assert (dom (w_vars (forget w)) = dom (aw_vars w)) as <- by apply dom_fmap_L.
    by rewrite Es, Ev, !dom_fmap_L. }
  fold (users a (aw_vars w)). rewrite users_list. f_equal.
  transitivity (length (filter (fun i => al_of (spec_al s) i = a) (map fst (map_to_list (aw_vars w))))).
  - assert (forall l : list (nat * astr), (forall p, p ∈ l -> snd (snd p) = al_of (spec_al s) (fst p)) ->
      length (filter (fun p => snd (snd p) = a) l) = length (filter (fun i => al_of (spec_al s) i = a) (map fst l))) as H.
    { induction l as [|p l IH]; [done|]. intros H. cbn [map]. rewrite !filter_cons.
      rewrite (H p) by (by left). destruct (decide _); cbn [length]; rewrite IH; try done; intros q Hq; apply H; by right. }
    apply H. intros [i x] Hp. apply elem_of_map_to_list in Hp. by apply Ha.
  - apply Permutation_length. apply filter_Permutation.
    apply NoDup_Permutation; [apply (NoDup_fst_map_to_list (aw_vars w))|apply (NoDup_fst_map_to_list (spec_str s))|].
    intros i.
    assert (forall {A} (m : gmap nat A), i ∈ map fst (map_to_list m) <-> i ∈ dom m) as H.
    { intros A m. rewrite elem_of_dom. change (map fst (map_to_list m)) with (fst <$> map_to_list m).
      rewrite elem_of_list_fmap. split.
      - intros ([k x] & -> & Hx). apply elem_of_map_to_list in Hx. by exists x.
      - intros [x Hx]. exists (i, x). split; [done|]. by apply elem_of_map_to_list. }
    rewrite (H _ (spec_str s)), Hd. apply (H _ (aw_vars w)).
Qed.

(** ** C84 *)

(** The pool of an allocator has as many users as there are strings with it. *)
Definition C84_full : Prop := forall strict ops s outs, srun (a_spec strict) aspec0 ops = SOk s outs ->
  exists w evs, run_ops (h_step strict) ops h_init = Ok (outs, HWorld w evs) /\
    forall a, sum_of a evs = Z.of_nat (length (strings_with a s)).

(** What is true: every string that is destroyed takes away two users. *)
Theorem C84_exact_partial strict ops s outs : srun (a_spec strict) aspec0 ops = SOk s outs ->
  exists w evs, run_ops (h_step strict) ops h_init = Ok (outs, HWorld w evs) /\
    forall a, sum_of a evs = (Z.of_nat (length (strings_with a s)) - Z.of_N (destroyed strict a aspec0 ops))%Z.
Proof.
  intros E. destruct (h_run_ok strict ops aspec0 ainit [] s outs arel_init E) as (w & evs & Er & Hr & Hs).
  exists w, evs. split; [done|]. intros a. rewrite Hs, (users_spec a _ _ Hr). cbn [ainit aw_vars].
  unfold users. rewrite mcount_empty. lia.
Qed.
(** As long as no string is destroyed the numbers are right. *)
Theorem C84_alive_partial strict ops s outs : srun (a_spec strict) aspec0 ops = SOk s outs ->
  (forall i, AOp (SDel i) ∉ ops) ->
  exists w evs, run_ops (h_step strict) ops h_init = Ok (outs, HWorld w evs) /\
    forall a, sum_of a evs = Z.of_nat (length (strings_with a s)).
Proof.
  intros E Hd. destruct (C84_exact_partial _ _ _ _ E) as (w & evs & Er & Hs). exists w, evs. split; [done|].
  intros a. rewrite Hs.
  assert (forall s ops, (forall i, AOp (SDel i) ∉ ops) -> destroyed strict a s ops = 0) as Hz; [|rewrite Hz by done; lia].
  clear. intros s ops. revert s. induction ops as [|o ops IH]; [done|]. intros s H. cbn [destroyed].
  destruct (a_spec strict s o); [|done|done]. rewrite IH.
  - destruct o as [| |[]]; try done. exfalso. eapply H. by left.
  - intros i Hi. apply (H i). by right.
Qed.
(** One string with a caller's allocator, made and destroyed: its pool has
    lost the user that is the caller's own handle. *)
Theorem C84_refuted : ~ C84_full.
Proof.
  intros H. pose (ops := [ALit 0 1 (replicate 20 65); AOp (SDel 0)]).
  destruct (srun (a_spec false) aspec0 ops) as [s outs| |] eqn:E; [|vm_compute in E; discriminate E..].
  destruct (H false ops s outs E) as (w & evs & Er & Hs). specialize (Hs 1).
  vm_compute in Er. injection Er as _ _ <-.
  assert (strings_with 1 s = []) as H0 by (vm_compute in E; injection E as <- _; reflexivity).
  rewrite H0 in Hs. vm_compute in Hs. discriminate Hs.
Qed.

Definition C84_ops : list aop :=
  [ALit 0 1 (replicate 20 65); ANew 1 1; AOp (SPush 1 [66]); AOp (SCopy 2 0); AOp (SMove 3 0); ALit 4 2 [67];
   AOp (SCopyAsg 4 1)].
Example C84_ex :
  match srun (a_spec false) aspec0 C84_ops with
  | SOk s _ => length (strings_with 1 s) = 4%nat /\ length (strings_with 2 s) = 0%nat /\
               length (strings_with 0 s) = 1%nat
  | _ => False
  end /\
  match run_ops (h_step false) C84_ops h_init with
  | Ok (_, w) => sum_of 1 (hw_events w) = 4%Z /\ sum_of 2 (hw_events w) = 0%Z /\ sum_of 0 (hw_events w) = 1%Z
  | Err _ => False
  end /\
  (forall i, AOp (SDel i) ∉ C84_ops) /\
  match run_ops (h_step false) (C84_ops ++ [AOp (SDel 0); AOp (SDel 1); AOp (SDel 3); AOp (SDel 4)]) h_init with
  | Ok (_, w) => sum_of 1 (hw_events w) = (-4)%Z
  | Err _ => False
  end.
Proof.
  split_and!; [vm_compute; by split_and!|vm_compute; by split_and!| |by vm_compute].
  intros i. unfold C84_ops. rewrite !elem_of_cons, elem_of_nil. intros H. by decompose [or] H.
Qed.
Print Assumptions C84_exact_partial.
Print Assumptions C84_alive_partial.
Print Assumptions C84_refuted.
