(** * OptProps: specification of Option and properties C34, C35 *)
From Verif Require Import Base Machine OptModel.

(** ** Specification: an Option variable is an [option] of a payload.

    [map] with a by-value lambda moves the payload out but leaves the Option
    holding it; move assignment between two Options that both hold a value
    does the same (see C35).  Everything else is what the name says. *)

(** What a move leaves behind: scalars keep their value, of other payloads
    nothing is known but that they must be destroyed. *)
Definition left_behind {V} (scalar : bool) (p : pay V) : pay V := if scalar then p else PMoved.
(** The function is applied to what the payload is. *)
Definition applied {V} (f : V -> V) (p : pay V) : pay V := match p with PVal v => PVal (f v) | PMoved => PMoved end.

Section OptSpec.
  Context {V : Type} (triv : bool).
  Notation sp := (gmap nat (option (pay V))).

  Definition is_someb (o : option (pay V)) : bool := match o with Some _ => true | None => false end.

  Definition opt_spec (s : sp) (op : oop V) : sres sp (oout V) :=
    match op with
    | OSome i v | OEmplace i v =>
        match s !! i with None => SOk (<[i := Some (PVal v)]> s) OutU | _ => SPre end
    | ONone i => match s !! i with None => SOk (<[i := None]> s) OutU | _ => SPre end
    | OIsSome i => match s !! i with Some o => SOk s (OutB (is_someb o)) | None => SPre end
    | OIsNone i => match s !! i with Some o => SOk s (OutB (negb (is_someb o))) | None => SPre end
    | OUnwrap i =>
        match s !! i with
        | Some (Some p) => SOk (<[i := None]> s) (OutP p)
        | Some None => SPanic
        | None => SPre
        end
    | OUnwrapU i =>
        match s !! i with Some (Some p) => SOk (<[i := None]> s) (OutP p) | _ => SPre end
    | OAsRef i =>
        match s !! i with
        | Some (Some p) => SOk s (OutP p)
        | Some None => SPanic
        | None => SPre
        end
    | OAsRefU i => match s !! i with Some (Some p) => SOk s (OutP p) | _ => SPre end
    | OAsRefSet i v =>
        match s !! i with
        | Some (Some _) => SOk (<[i := Some (PVal v)]> s) OutU
        | Some None => SPanic
        | None => SPre
        end
    | OMap byval f i j =>
        match s !! i, s !! j with
        | Some o, None =>
            let o' := if byval then left_behind triv <$> o else o in
            SOk (<[j := applied f <$> o]> (<[i := o']> s)) OutU
        | _, _ => SPre
        end
    | OMoveCtor i j =>
        match s !! i, s !! j with
        | None, Some o => SOk (<[i := o]> (<[j := None]> s)) OutU
        | _, _ => SPre
        end
    | OMoveAssign i j =>
        match s !! i, s !! j with
        | Some a, Some b =>
            if (i =? j)%nat then SOk s OutU
            else
              let src := match a, b with Some _, Some p => Some (left_behind triv p) | _, _ => None end in
              SOk (<[i := b]> (<[j := src]> s)) OutU
        | _, _ => SPre
        end
    | OCopyCtor i j =>
        match s !! i, s !! j with
        | None, Some o => SOk (<[i := o]> s) OutU
        | _, _ => SPre
        end
    | OCopyAssign i j =>
        match s !! i, s !! j with
        | Some _, Some b => SOk (<[i := b]> s) OutU
        | _, _ => SPre
        end
    | ODestroy i => match s !! i with Some _ => SOk (delete i s) OutU | None => SPre end
    end.
  Definition opt_srun := srun opt_spec.
End OptSpec.

Section OptProofs.
  Context {V : Type} (triv : bool).
  Notation sp := (gmap nat (option (pay V))).

  Definition conc (o : option (pay V)) : oobj V :=
    match o with Some p => OObj true (OsVal p) | None => OObj false OsNon end.
  Definition orel (s : sp) (st : ost V) : Prop :=
    ovars st = conc <$> s /\ octor st = (odtor st + mcount is_someb s)%N.

  Ltac crunch :=
    repeat (first
      [ progress unfold ret, fail, unit_out, bool_out, pay_out, oget, oput, onew, odel, octick,
          odtick, oread, owrite, omove_out, set_hold, construct_val, destroy_val, construct_non,
          destroy_non, reset, o_some, o_emplace, o_none, o_is_some, o_is_none,
          o_unwrap_unchecked, o_unwrap, o_as_ref_uncheck, o_as_ref, o_as_ref_set, o_map,
          o_move_ctor, o_move_assign, o_copy_ctor, o_copy_assign, o_destroy, bind
      | progress csimpl
      | match goal with
        | H : ?s !! ?i = _ |- context [?s !! ?i] => rewrite H
        | |- context [<[?i:=_]> _ !! ?i] => rewrite lookup_insert
        | H : ?i <> ?j |- context [<[?i:=_]> _ !! ?j] => rewrite (lookup_insert_ne _ i j) by done
        | H : ?j <> ?i |- context [<[?i:=_]> _ !! ?j] => rewrite (lookup_insert_ne _ i j) by done
        | |- context [(_ <$> _) !! _] => rewrite lookup_fmap
        end ]).
  Ltac mapeq :=
    apply map_eq; intros ?k; rewrite ?lookup_fmap;
    repeat match goal with
           | |- context [<[?i:=_]> _ !! ?k] =>
               destruct (decide (i = k)); [subst; rewrite ?lookup_insert|rewrite ?(lookup_insert_ne _ i k) by done]
           | |- context [delete ?i _ !! ?k] =>
               destruct (decide (i = k)); [subst; rewrite ?lookup_delete|rewrite ?(lookup_delete_ne _ i k) by done]
           end; rewrite ?lookup_fmap;
    repeat match goal with H : ?s !! ?i = _ |- context [?s !! ?i] => rewrite H end;
    csimpl; try done; try congruence.

  (** [mcount] of an updated map in terms of the original. *)
  Ltac counts :=
    repeat match goal with
      | |- context [mcount is_someb (<[?i:=?y]> ?m)] =>
          match goal with
          | H : m !! i = Some ?x |- _ =>
              let E := fresh "E" in
              pose proof (mcount_insert is_someb m i x y H) as E;
              let n := fresh "n" in
              set (n := mcount is_someb (<[i:=y]> m)) in *; clearbody n
          | H : m !! i = None |- _ => rewrite (mcount_fresh is_someb m i y H)
          end
      | |- context [mcount is_someb (delete ?i ?m)] =>
          match goal with
          | H : m !! i = Some ?x |- _ =>
              let E := fresh "E" in
              pose proof (mcount_delete is_someb m i x H) as E;
              let n := fresh "n" in
              set (n := mcount is_someb (delete i m)) in *; clearbody n
          end
      end; simpl in *; try lia.

  Ltac finish :=
    eexists; split; [reflexivity|]; split; simpl;
    [mapeq | try lia; counts].

  Lemma opt_step_ok s st op : orel s st -> agrees orel (opt_step triv op st) (opt_spec triv s op).
  Proof.
    intros [Hv Hc]. destruct st as [vars c d]; simpl in Hv, Hc; subst vars c.
    destruct op as [i v|i v|i|i|i|i|i|i|i|i v|b f i j|i j|i j|i j|i j|i];
      unfold opt_spec, agrees; simpl.
    - destruct (s !! i) as [o|] eqn:Ei; [done|]. crunch. finish.
    - destruct (s !! i) as [o|] eqn:Ei; [done|]. crunch. finish.
    - destruct (s !! i) as [o|] eqn:Ei; [done|]. crunch. finish.
    - destruct (s !! i) as [[p|]|] eqn:Ei; [| |done]; crunch; finish.
    - destruct (s !! i) as [[p|]|] eqn:Ei; [| |done]; crunch; finish.
    - destruct (s !! i) as [[p|]|] eqn:Ei; [| |done]; crunch; [finish|done].
    - destruct (s !! i) as [[p|]|] eqn:Ei; [|done|done]; crunch; finish.
    - destruct (s !! i) as [[p|]|] eqn:Ei; [| |done]; crunch; [finish|done].
    - destruct (s !! i) as [[p|]|] eqn:Ei; [|done|done]; crunch; finish.
    - destruct (s !! i) as [[p|]|] eqn:Ei; [| |done]; crunch; [finish|done].
    - destruct (s !! i) as [o|] eqn:Ei; [|done]. destruct (s !! j) eqn:Ej; [done|].
      assert (i <> j) by congruence.
      assert (Hj : forall x, <[i:=x]> s !! j = None) by (intros; by rewrite lookup_insert_ne).
      destruct o as [p|], b; crunch; finish; rewrite (mcount_fresh _ _ j) by done; counts.
    - destruct (s !! i) as [|] eqn:Ei; [done|]. destruct (s !! j) as [o|] eqn:Ej; [|done].
      assert (i <> j) by congruence.
      assert (Hj : forall x, <[j:=x]> s !! i = None) by (intros; by rewrite lookup_insert_ne).
      destruct o as [p|]; crunch; finish; rewrite (mcount_fresh _ _ i) by done; counts.
    - destruct (s !! i) as [a|] eqn:Ei; [|done]. destruct (s !! j) as [o|] eqn:Ej; [|done].
      destruct (Nat.eqb_spec i j) as [->|Hne].
      { rewrite Ei in Ej. injection Ej as ->. crunch. rewrite Nat.eqb_refl. crunch. finish. }
      assert (Hj : forall x, <[j:=x]> s !! i = Some a) by (intros; by rewrite lookup_insert_ne).
      assert (Hb : (i =? j)%nat = false) by by apply Nat.eqb_neq.
      unfold o_move_assign. rewrite Hb.
      destruct o as [p|], a as [q|]; crunch; finish;
        match goal with |- context [mcount is_someb (<[i:=?y]> (<[j:=?x]> s))] =>
          pose proof (mcount_insert is_someb (<[j:=x]> s) i _ y (Hj x));
          pose proof (mcount_insert is_someb s j _ x Ej) end; simpl in *; lia.
    - destruct (s !! i) as [|] eqn:Ei; [done|]. destruct (s !! j) as [o|] eqn:Ej; [|done].
      assert (i <> j) by congruence.
      destruct o as [p|]; crunch; finish.
    - destruct (s !! i) as [a|] eqn:Ei; [|done]. destruct (s !! j) as [o|] eqn:Ej; [|done].
      destruct (Nat.eqb_spec i j) as [->|Hne].
      { rewrite Ei in Ej. injection Ej as ->. crunch. rewrite Nat.eqb_refl. crunch.
        rewrite insert_id by done. finish. }
      assert (Hb : (i =? j)%nat = false) by by apply Nat.eqb_neq.
      unfold o_copy_assign. rewrite Hb.
      destruct o as [p|], a as [q|]; crunch; finish.
    - destruct (s !! i) as [[p|]|] eqn:Ei; [| |done]; crunch; finish.
  Qed.

  Lemma opt_run_ok ops s st :
    orel s st -> agrees orel (opt_run triv ops st) (opt_srun triv s ops).
  Proof. apply srun_refines. intros. by apply opt_step_ok. Qed.
  Lemma orel_init : orel ∅ oinit.
  Proof. split; simpl; [by rewrite fmap_empty|]. by rewrite mcount_empty. Qed.
End OptProofs.

(** ** C34 *)

(** Every history does what the specification says (in particular it panics
    exactly where the specification demands a panic and has no undefined
    behaviour), and payload constructions minus destructions is at any time
    the number of Options holding a value. *)
Theorem C34_option_histories {V : Type} (triv : bool) (ops : list (oop V)) :
  match opt_srun triv ∅ ops with
  | SOk s outs =>
      exists st, opt_run triv ops oinit = Ok (outs, st) /\
                 octor st = (odtor st + mcount is_someb s)%N
  | SPanic => opt_run triv ops oinit = Err Panic
  | SPre => True
  end.
Proof.
  pose proof (opt_run_ok triv ops ∅ oinit orel_init) as H. unfold agrees in H.
  destruct (opt_srun triv ∅ ops) as [s outs| |]; [|done|done].
  destruct H as (st & ? & _ & ?). by exists st.
Qed.

(** Once every Option is destroyed, every payload was destroyed exactly as
    often as one was constructed. *)
Theorem C34_payloads_balanced {V : Type} (triv : bool) (ops : list (oop V)) outs :
  opt_srun triv ∅ ops = SOk ∅ outs ->
  exists st, opt_run triv ops oinit = Ok (outs, st) /\ octor st = odtor st.
Proof.
  intros H. pose proof (C34_option_histories triv ops) as H1. rewrite H in H1.
  destruct H1 as (st & ? & E). exists st. split; [done|]. rewrite mcount_empty in E. lia.
Qed.

(** The specification itself says what is promised of an Option. *)
Theorem C34_unwrap {V : Type} (triv : bool) (ops : list (oop V)) s outs i :
  opt_srun triv ∅ ops = SOk s outs ->
  (forall p, s !! i = Some (Some p) ->
     exists st, opt_run triv (ops ++ [OIsSome i; OAsRef i; OUnwrap i; OIsSome i]) oinit =
                Ok (outs ++ [OutB true; OutP p; OutP p; OutB false], st)) /\
  (s !! i = Some None ->
     opt_run triv (ops ++ [OUnwrap i]) oinit = Err Panic /\
     opt_run triv (ops ++ [OAsRef i]) oinit = Err Panic).
Proof.
  intros H. split.
  - intros p Hp.
    pose proof (C34_option_histories triv (ops ++ [OIsSome i; OAsRef i; OUnwrap i; OIsSome i])) as H2.
    unfold opt_srun in *. rewrite (srun_app _ _ _ _ _ _ H) in H2.
    simpl srun in H2. rewrite Hp in H2. cbn iota in H2. rewrite Hp in H2. cbn iota in H2.
    rewrite Hp in H2. cbn iota in H2. rewrite lookup_insert in H2.
    destruct H2 as (st & E & _). by exists st.
  - intros Hp. split.
    + pose proof (C34_option_histories triv (ops ++ [OUnwrap i])) as H2.
      unfold opt_srun in *. rewrite (srun_app _ _ _ _ _ _ H) in H2. simpl srun in H2.
      by rewrite Hp in H2.
    + pose proof (C34_option_histories triv (ops ++ [OAsRef i])) as H2.
      unfold opt_srun in *. rewrite (srun_app _ _ _ _ _ _ H) in H2. simpl srun in H2.
      by rewrite Hp in H2.
Qed.

Definition C34_ops : list (oop N) :=
  [OSome 0 7%N; OEmplace 1 8%N; ONone 2; OCopyCtor 3 0; OMoveCtor 4 1; OIsSome 1;
   OCopyAssign 2 3; OAsRefSet 2 9%N; OMap true (N.add 1) 2 5; OUnwrap 5; OIsSome 5; OAsRef 2;
   ODestroy 0; ODestroy 1; ODestroy 2; ODestroy 3; ODestroy 4; ODestroy 5].
Example C34_ex :
  match opt_srun false ∅ C34_ops with
  | SOk s outs => map_to_list s = [] /\
      List.filter (fun o => match o with OutU => false | _ => true end) outs =
        [OutB false; OutP (PVal 10%N); OutB false; OutP PMoved]
  | _ => False
  end.
Proof. vm_compute. split; reflexivity. Qed.
Example C34_ex_panic : opt_srun false ∅ [OSome 0 7%N; OUnwrap 0; OUnwrap 0] = SPanic.
Proof. reflexivity. Qed.

(** ** C35 *)

Section C35.
  Context {V : Type} (triv : bool).

  Lemma reach_step (ops : list (oop V)) s outs op q s1 s2 o1 b :
    opt_srun triv ∅ ops = SOk s outs ->
    opt_spec triv s op = SOk s1 o1 -> opt_spec triv s1 q = SOk s2 b ->
    exists st, opt_run triv (ops ++ [op; q]) oinit = Ok (outs ++ [o1; b], st).
  Proof.
    intros H H1 H2.
    pose proof (srun_app (opt_spec triv) ops [op; q] _ _ _ H) as E.
    simpl srun in E at 2. rewrite H1, H2 in E.
    pose proof (C34_option_histories triv (ops ++ [op; q])) as H3.
    unfold opt_srun in H3. rewrite E in H3.
    destruct H3 as (st & ? & _). by exists st.
  Qed.
End C35.

(** Full statement, for the two ways of moving out. *)
Definition moved_from_is_none (V : Type) (mk : nat -> nat -> oop V) (pre : option (option (pay V)) -> Prop) : Prop :=
  forall triv (ops : list (oop V)) s outs i j b,
    i <> j -> opt_srun triv ∅ ops = SOk s outs -> pre (s !! i) -> s !! j = Some b ->
    exists st, opt_run triv (ops ++ [mk i j; OIsSome j]) oinit =
               Ok (outs ++ [OutU; OutB false], st).

Theorem C35_move_construction (V : Type) : moved_from_is_none V OMoveCtor (fun o => o = None).
Proof.
  intros triv ops s outs i j b Hne Hr Hi Hj.
  eapply reach_step; [done|simpl; by rewrite Hi, Hj|].
  simpl. rewrite lookup_insert_ne, lookup_insert by done. reflexivity.
Qed.

(** Missing: both hold a value. *)
Theorem C35_move_assignment_partial (V : Type) triv (ops : list (oop V)) s outs i j a b :
  i <> j -> opt_srun triv ∅ ops = SOk s outs -> s !! i = Some a -> s !! j = Some b ->
  a = None \/ b = None ->
  exists st, opt_run triv (ops ++ [OMoveAssign i j; OIsSome j]) oinit =
             Ok (outs ++ [OutU; OutB false], st).
Proof.
  intros Hne Hr Hi Hj Hab.
  assert (Hn : match a, b with Some _, Some p => Some (left_behind triv p) | _, _ => None end = None).
  { destruct Hab as [-> | ->]; [done|by destruct a]. }
  eapply reach_step; [done| |].
  { simpl. rewrite Hi, Hj. apply Nat.eqb_neq in Hne. rewrite Hne, Hn. reflexivity. }
  simpl. by rewrite lookup_insert_ne, lookup_insert by done.
Qed.

(** When both hold a value the source always stays some. *)
Theorem C35_move_assignment_refuted (V : Type) triv (ops : list (oop V)) s outs i j p q :
  i <> j -> opt_srun triv ∅ ops = SOk s outs -> s !! i = Some (Some p) -> s !! j = Some (Some q) ->
  exists st, opt_run triv (ops ++ [OMoveAssign i j; OIsSome j]) oinit =
             Ok (outs ++ [OutU; OutB true], st).
Proof.
  intros Hne Hr Hi Hj.
  eapply reach_step; [done| |].
  { simpl. rewrite Hi, Hj. apply Nat.eqb_neq in Hne. rewrite Hne. reflexivity. }
  simpl. by rewrite lookup_insert_ne, lookup_insert by done.
Qed.
Theorem C35_full_claim_refuted :
  ~ moved_from_is_none N OMoveAssign (fun o => is_Some o).
Proof.
  intros H.
  destruct (H false [OSome 0 1%N; OSome 1 2%N]
              (<[1%nat := Some (PVal 2%N)]> (<[0%nat := Some (PVal 1%N)]> ∅)) [OutU; OutU]
              0%nat 1%nat (Some (PVal 2%N))) as (st & E); [done|done| |done|discriminate E].
  exists (Some (PVal 1%N)). done.
Qed.

Example C35_ex : exists s outs,
  opt_srun false ∅ [OSome 0 1%N; ONone 1; OSome 2 3%N] = SOk s outs /\
  s !! 3%nat = None /\ s !! 0%nat = Some (Some (PVal 1%N)) /\ s !! 1%nat = Some None.
Proof. eexists _, _. split; [reflexivity|]. by vm_compute. Qed.

(** Option<T&>: specification, the same histories, and moving always leaves none. *)
Section RefSpec.
  Context {A : Type}.
  Notation sp := (gmap nat (option A)).
  Definition ref_spec (s : sp) (o : rop A) : sres sp (rout A) :=
    let fresh i p := match s !! i with None => SOk (<[i := p]> s) ROutU | _ => SPre end in
    let on i k := match s !! i with Some p => k p | None => SPre end in
    match o with
    | RSome i a => fresh i (Some a)
    | RNone i => fresh i None
    | RIsSome i => on i (fun p => SOk s (ROutB (match p with Some _ => true | None => false end)))
    | RUnwrap i => on i (fun p => match p with Some a => SOk (<[i := None]> s) (ROutA a) | None => SPanic end)
    | RUnwrapU i => on i (fun p => match p with Some a => SOk (<[i := None]> s) (ROutA a) | None => SPre end)
    | RAsRef i => on i (fun p => match p with Some a => SOk s (ROutA a) | None => SPanic end)
    | RAsRefU i => on i (fun p => match p with Some a => SOk s (ROutA a) | None => SPre end)
    | RMap f i j => on i (fun p => fresh j (f <$> p))
    | RCopyCtor i j => on j (fun p => fresh i p)
    | RCopyAssign i j => on i (fun _ => on j (fun p => SOk (<[i := p]> s) ROutU))
    | RMoveCtor i j =>
        on j (fun p => match s !! i with None => SOk (<[j := None]> (<[i := p]> s)) ROutU | _ => SPre end)
    | RMoveAssign i j =>
        on i (fun _ => on j (fun p =>
          if (i =? j)%nat then SOk s ROutU else SOk (<[j := None]> (<[i := p]> s)) ROutU))
    end.
End RefSpec.

Theorem C34_option_ref_histories {A : Type} (ops : list (rop A)) :
  match srun ref_spec ∅ ops with
  | SOk s outs => ro_run ops ∅ = Ok (outs, s)
  | SPanic => ro_run ops ∅ = Err Panic
  | SPre => True
  end.
Proof.
  assert (H : agrees eq (ro_run ops (∅ : gmap nat (option A))) (srun ref_spec ∅ ops)).
  { apply srun_refines; [|done]. clear. intros s st o <-. destruct o; simpl;
      unfold agrees, rnew, rget, rput, ro_unwrap, ro_unwrap_unchecked, ro_as_ref, ro_as_ref_uncheck,
        ro_map, ro_copy_ctor, ro_copy_assign, ro_move_ctor, ro_move_assign, rget, rput, rnew, bind,
        ret, fail.
    all: try (destruct (s !! i) as [[]|] eqn:Ei; simpl; try done; eauto; fail).
    - destruct (s !! i) eqn:Ei; simpl; [|done]. destruct (s !! j); simpl; eauto.
    - destruct (s !! j) eqn:Ej; simpl; [|done]. destruct (s !! i); simpl; eauto.
    - destruct (s !! i) eqn:Ei; simpl; [|done]. destruct (s !! j); simpl; eauto.
    - destruct (s !! j) eqn:Ej; simpl; [|done]. destruct (s !! i); simpl; eauto.
    - destruct (s !! i) eqn:Ei; simpl; [|done]. destruct (s !! j) eqn:Ej; simpl; [|done].
      destruct (i =? j)%nat eqn:E; simpl; [eauto|]. rewrite Ej. eauto. }
  unfold agrees in H. destruct (srun ref_spec ∅ ops); [|done|done].
  destruct H as (st & ? & <-). done.
Qed.

Theorem C35_option_ref {A : Type} (ops : list (rop A)) s outs i j a b :
  i <> j -> srun ref_spec ∅ ops = SOk s outs -> s !! j = Some b ->
  (s !! i = None ->
     ro_run (ops ++ [RMoveCtor i j]) ∅ = Ok (outs ++ [ROutU], <[j := None]> (<[i := b]> s))) /\
  (s !! i = Some a ->
     ro_run (ops ++ [RMoveAssign i j]) ∅ = Ok (outs ++ [ROutU], <[j := None]> (<[i := b]> s))).
Proof.
  intros Hne Hr Hj.
  split; intros Hi.
  - pose proof (C34_option_ref_histories (ops ++ [RMoveCtor i j])) as H.
    rewrite (srun_app _ _ _ _ _ _ Hr) in H. simpl in H. rewrite Hj, Hi in H. exact H.
  - pose proof (C34_option_ref_histories (ops ++ [RMoveAssign i j])) as H.
    rewrite (srun_app _ _ _ _ _ _ Hr) in H. simpl in H. rewrite Hj, Hi in H.
    apply Nat.eqb_neq in Hne. rewrite Hne in H. exact H.
Qed.
Example C35_ref_ex : exists s outs,
  srun ref_spec ∅ [RSome 0 11%N; RSome 1 22%N] = SOk s outs /\ s !! 0%nat = Some (Some 11%N) /\
  s !! 1%nat = Some (Some 22%N).
Proof. eexists _, _. split; [reflexivity|]. by vm_compute. Qed.

Print Assumptions C34_option_histories.
Print Assumptions C34_payloads_balanced.
Print Assumptions C34_unwrap.
Print Assumptions C34_option_ref_histories.
Print Assumptions C35_move_construction.
Print Assumptions C35_move_assignment_partial.
Print Assumptions C35_move_assignment_refuted.
Print Assumptions C35_full_claim_refuted.
Print Assumptions C35_option_ref.
