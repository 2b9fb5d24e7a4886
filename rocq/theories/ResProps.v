(** * ResProps: specification of Result and properties C36, C37 *)
From Verif Require Import Base Machine OptModel ResModel.

(** ** Specification: a Result variable is a tagged sum of payloads.

    [mixed] says whether assignment between different variants is part of the
    history ([true]: the full property; [false]: such an assignment is treated
    as outside the specification). *)
Section ResSpec.
  Context {V F : Type} (clsT clsE : bool) (eqT : V -> V -> bool) (eqE : F -> F -> bool) (mixed : bool).
  Notation val := (pay V + pay F)%type.
  Notation sp := (gmap nat val).
  Implicit Types a b : val.

  Definition v_ok (a : val) : bool := match a with inl _ => true | inr _ => false end.
  Definition v_moved (a : val) : val :=
    match a with inl p => inl (if negb clsT then p else PMoved) | inr q => inr (if negb clsE then q else PMoved) end.

  Definition res_spec (s : sp) (o : eop V F) : sres sp (eout V F) :=
    let fresh i (k : sres sp (eout V F)) := match s !! i with None => k | _ => SPre end in
    let on i (k : val -> sres sp (eout V F)) := match s !! i with Some a => k a | None => SPre end in
    match o with
    | EOk i v => fresh i (SOk (<[i := inl (PVal v)]> s) EU)
    | EErr i e => fresh i (SOk (<[i := inr (PVal e)]> s) EU)
    | ECopyCtor i j => on j (fun a => fresh i (SOk (<[i := a]> s) EU))
    | EMoveCtor i j => on j (fun a => fresh i (SOk (<[i := a]> (<[j := v_moved a]> s)) EU))
    | ECopyAssign i j =>
        on i (fun a => on j (fun b =>
          if eqb (v_ok a) (v_ok b) || mixed then SOk (<[i := b]> s) EU else SPre))
    | EMoveAssign i j =>
        on i (fun a => on j (fun b =>
          if (i =? j)%nat then SOk s EU
          else if eqb (v_ok a) (v_ok b) || mixed then SOk (<[i := b]> (<[j := v_moved b]> s)) EU
          else SPre))
    | EIsOk i => on i (fun a => SOk s (EB (v_ok a)))
    | EIsErr i => on i (fun a => SOk s (EB (negb (v_ok a))))
    | EUnwrap i =>
        on i (fun a => match a with inl p => SOk (<[i := v_moved a]> s) (EV p) | inr _ => SPanic end)
    | EUnwrapU i =>
        on i (fun a => match a with inl p => SOk (<[i := v_moved a]> s) (EV p) | inr _ => SPre end)
    | EUnwrapErr i =>
        on i (fun a => match a with inr q => SOk (<[i := v_moved a]> s) (EF q) | inl _ => SPanic end)
    | EUnwrapErrU i =>
        on i (fun a => match a with inr q => SOk (<[i := v_moved a]> s) (EF q) | inl _ => SPre end)
    | EOkOpt i => on i (fun a => SOk s (EOV (match a with inl p => Some p | inr _ => None end)))
    | EErrOpt i => on i (fun a => SOk s (EOF (match a with inr q => Some q | inl _ => None end)))
    | EOkU i => on i (fun a => match a with inl p => SOk s (EV p) | inr _ => SPre end)
    | EErrU i => on i (fun a => match a with inr q => SOk s (EF q) | inl _ => SPre end)
    | EEq i j =>
        on i (fun a => on j (fun b =>
          match a, b with
          | inl (PVal x), inl (PVal y) => SOk s (EB (eqT x y))
          | inr (PVal x), inr (PVal y) => SOk s (EB (eqE x y))
          | inl _, inr _ | inr _, inl _ => SOk s (EB false)
          | _, _ => SPre
          end))
    | EDestroy i => on i (fun _ => SOk (delete i s) EU)
    end.
  Definition res_srun := srun res_spec.

  (** Does this value hold a class object (one with a destructor)? *)
  Definition v_cls (a : val) : bool := match a with inl _ => clsT | inr _ => clsE end.
End ResSpec.

Section ResProofs.
  Context {V F : Type} (clsT clsE : bool) (eqT : V -> V -> bool) (eqE : F -> F -> bool).
  Notation val := (pay V + pay F)%type.
  Notation sp := (gmap nat val).

  Definition rconc (a : val) : robj V F :=
    match a with inl p => RObj true (RsT p) | inr q => RObj false (RsE q) end.
  Definition rrel (s : sp) (st : rst V F) : Prop :=
    rvars st = rconc <$> s /\ rctor st = (rdtor st + mcount (v_cls clsT clsE) s)%N.

  Ltac crunch :=
    repeat (first
      [ progress unfold ret, fail, via, res_get, res_put, res_new, res_del, rctick, rdtick,
          construct_t, construct_e, read_t, read_e, write_t, write_e, move_t, move_e, destroy_t,
          destroy_e, move_impl, copy_impl, res_ok, res_err, res_copy_ctor, res_move_ctor,
          res_destroy, res_is_ok, res_is_err, res_unwrap, res_unwrap_unchecked, res_unwrap_err,
          res_unwrap_err_unchecked, res_ok_opt, res_err_opt, res_ok_unchecked, res_err_unchecked,
          res_eq, bind
      | progress csimpl
      | match goal with
        | H : ?s !! ?i = _ |- context [?s !! ?i] => rewrite H
        | |- context [<[?i:=_]> _ !! ?i] => rewrite lookup_insert
        | H : ?i <> ?j |- context [<[?i:=_]> _ !! ?j] => rewrite (lookup_insert_ne _ i j) by done
        | H : ?j <> ?i |- context [<[?i:=_]> _ !! ?j] => rewrite (lookup_insert_ne _ i j) by done
        | |- context [(_ <$> _) !! _] => rewrite lookup_fmap
        end ]).
  Ltac mapeq :=
    apply map_eq; intros ?k; rewrite ?lookup_fmap;
    repeat match goal with
           | |- context [<[?i:=_]> _ !! ?k] =>
               destruct (decide (i = k)); [subst; rewrite ?lookup_insert|rewrite ?(lookup_insert_ne _ i k) by done]
           | |- context [delete ?i _ !! ?k] =>
               destruct (decide (i = k)); [subst; rewrite ?lookup_delete|rewrite ?(lookup_delete_ne _ i k) by done]
           end; rewrite ?lookup_fmap;
    repeat match goal with H : ?s !! ?i = _ |- context [?s !! ?i] => rewrite H end;
    csimpl; try done; try congruence.
  Notation cnt := (mcount (v_cls clsT clsE)).
  Ltac counts :=
    repeat match goal with
      | |- context [cnt (<[?i:=?y]> ?m)] =>
          match goal with
          | H : m !! i = Some ?x |- _ =>
              let E := fresh "E" in
              pose proof (mcount_insert (v_cls clsT clsE) m i x y H) as E;
              let n := fresh "n" in
              set (n := cnt (<[i:=y]> m)) in *; clearbody n
          | H : m !! i = None |- _ => rewrite (mcount_fresh (v_cls clsT clsE) m i y H)
          end
      | |- context [cnt (delete ?i ?m)] =>
          match goal with
          | H : m !! i = Some ?x |- _ =>
              let E := fresh "E" in
              pose proof (mcount_delete (v_cls clsT clsE) m i x H) as E;
              let n := fresh "n" in
              set (n := cnt (delete i m)) in *; clearbody n
          end
      end; simpl in *; try lia.
  Ltac finish :=
    eexists; split; [reflexivity|]; split; simpl;
    [mapeq | try lia; counts].

  Lemma res_step_ok s st op :
    rrel s st ->
    agrees rrel (res_step clsT clsE eqT eqE op st) (res_spec clsT clsE eqT eqE false s op).
  Proof.
    intros [Hv Hc]. destruct st as [vars c d]; simpl in Hv, Hc; subst vars c.
    destruct op as [i v|i v|i j|i j|i j|i j|i|i|i|i|i|i|i|i|i|i|i j|i];
      unfold res_spec, agrees; simpl.
    - destruct (s !! i) as [o|] eqn:Ei; [done|]. crunch. finish; destruct clsT; lia.
    - destruct (s !! i) as [o|] eqn:Ei; [done|]. crunch. finish; destruct clsE; lia.
    - destruct (s !! j) as [o|] eqn:Ej; [|done]. destruct (s !! i) eqn:Ei; [done|].
      assert (i <> j) by congruence.
      destruct o as [p|q]; crunch; finish; [destruct clsT|destruct clsE]; lia.
    - destruct (s !! j) as [o|] eqn:Ej; [|done]. destruct (s !! i) eqn:Ei; [done|].
      assert (i <> j) by congruence.
      assert (Hj : forall x, <[j:=x]> s !! i = None) by (intros; by rewrite lookup_insert_ne).
      destruct o as [p|q]; crunch; finish; rewrite (mcount_fresh _ _ i) by done; simpl;
        counts; [destruct clsT|destruct clsE]; lia.
    - destruct (s !! i) as [a|] eqn:Ei; [|done]. destruct (s !! j) as [o|] eqn:Ej; [|done].
      destruct (eqb (v_ok a) (v_ok o) || false) eqn:Et; [|done].
      unfold res_copy_assign. destruct (Nat.eqb_spec i j) as [->|Hne].
      { rewrite Ei in Ej. injection Ej as ->. crunch. rewrite insert_id by done. finish. }
      destruct a as [p|p], o as [q|q]; try done; crunch; finish.
    - destruct (s !! i) as [a|] eqn:Ei; [|done]. destruct (s !! j) as [o|] eqn:Ej; [|done].
      unfold res_move_assign. destruct (Nat.eqb_spec i j) as [->|Hne].
      { crunch. finish. }
      destruct (eqb (v_ok a) (v_ok o) || false) eqn:Et; [|done].
      assert (Hj : forall x, <[j:=x]> s !! i = Some a) by (intros; by rewrite lookup_insert_ne).
      destruct a as [p|p], o as [q|q]; try done; crunch; finish;
        match goal with |- context [cnt (<[i:=?y]> (<[j:=?x]> s))] =>
          pose proof (mcount_insert (v_cls clsT clsE) (<[j:=x]> s) i _ y (Hj x));
          pose proof (mcount_insert (v_cls clsT clsE) s j _ x Ej) end; simpl in *; lia.
    - destruct (s !! i) as [[p|p]|] eqn:Ei; [| |done]; crunch; finish.
    - destruct (s !! i) as [[p|p]|] eqn:Ei; [| |done]; crunch; finish.
    - destruct (s !! i) as [[p|p]|] eqn:Ei; [| |done]; crunch; [finish|done].
    - destruct (s !! i) as [[p|p]|] eqn:Ei; [|done|done]; crunch; finish.
    - destruct (s !! i) as [[p|p]|] eqn:Ei; [| |done]; crunch; [done|finish].
    - destruct (s !! i) as [[p|p]|] eqn:Ei; [done| |done]; crunch; finish.
    - destruct (s !! i) as [[p|p]|] eqn:Ei; [| |done]; crunch; finish.
    - destruct (s !! i) as [[p|p]|] eqn:Ei; [| |done]; crunch; finish.
    - destruct (s !! i) as [[p|p]|] eqn:Ei; [|done|done]; crunch; finish.
    - destruct (s !! i) as [[p|p]|] eqn:Ei; [done| |done]; crunch; finish.
    - destruct (s !! i) as [a|] eqn:Ei; [|done]. destruct (s !! j) as [o|] eqn:Ej; [|done].
      destruct a as [[p|]|[p|]], o as [[q|]|[q|]]; try done; crunch; finish.
    - destruct (s !! i) as [[p|p]|] eqn:Ei; [| |done]; 
        pose proof (mcount_delete (v_cls clsT clsE) s i _ Ei) as Hd; simpl in Hd;
        [destruct clsT eqn:?|destruct clsE eqn:?]; crunch;
        (eexists; split; [reflexivity|]; split; simpl; [mapeq|lia]).
  Qed.

  Lemma res_run_ok ops s st :
    rrel s st ->
    agrees rrel (res_run clsT clsE eqT eqE ops st) (res_srun clsT clsE eqT eqE false s ops).
  Proof. apply srun_refines. intros. by apply res_step_ok. Qed.
  Lemma rrel_init : rrel ∅ rinit.
  Proof. split; simpl; [by rewrite fmap_empty|]. by rewrite mcount_empty. Qed.
End ResProofs.

(** ** C37: accessors, along every history without mixed-variant assignment *)
Theorem C37_result_histories {V F : Type} clsT clsE eqT eqE (ops : list (eop V F)) :
  match res_srun clsT clsE eqT eqE false ∅ ops with
  | SOk s outs =>
      exists st, res_run clsT clsE eqT eqE ops rinit = Ok (outs, st) /\
                 rctor st = (rdtor st + mcount (v_cls clsT clsE) s)%N
  | SPanic => res_run clsT clsE eqT eqE ops rinit = Err Panic
  | SPre => True
  end.
Proof.
  pose proof (res_run_ok clsT clsE eqT eqE ops ∅ rinit (rrel_init _ _)) as H. unfold agrees in H.
  destruct (res_srun _ _ _ _ _ ∅ ops) as [s outs| |]; [|done|done].
  destruct H as (st & ? & _ & ?). by exists st.
Qed.

(** All observers of one Result, after any such history. *)
Theorem C37_accessors {V F : Type} clsT clsE eqT eqE (ops : list (eop V F)) s outs i :
  res_srun clsT clsE eqT eqE false ∅ ops = SOk s outs ->
  (forall p, s !! i = Some (inl p) ->
    (exists st, res_run clsT clsE eqT eqE
       (ops ++ [EIsOk i; EIsErr i; EOkOpt i; EErrOpt i; EOkU i; EUnwrap i]) rinit =
     Ok (outs ++ [EB true; EB false; EOV (Some p); EOF None; EV p; EV p], st)) /\
    res_run clsT clsE eqT eqE (ops ++ [EUnwrapErr i]) rinit = Err Panic) /\
  (forall q, s !! i = Some (inr q) ->
    (exists st, res_run clsT clsE eqT eqE
       (ops ++ [EIsOk i; EIsErr i; EOkOpt i; EErrOpt i; EErrU i; EUnwrapErr i]) rinit =
     Ok (outs ++ [EB false; EB true; EOV None; EOF (Some q); EF q; EF q], st)) /\
    res_run clsT clsE eqT eqE (ops ++ [EUnwrap i]) rinit = Err Panic).
Proof.
  intros H.
  assert (K : forall l, match
      match srun (res_spec clsT clsE eqT eqE false) s l with
      | SOk s2 o2 => SOk s2 (outs ++ o2) | SPanic => SPanic | SPre => SPre end
    with
    | SOk s' o' => exists st, res_run clsT clsE eqT eqE (ops ++ l) rinit = Ok (o', st)
    | SPanic => res_run clsT clsE eqT eqE (ops ++ l) rinit = Err Panic
    | SPre => True
    end).
  { intros l. pose proof (C37_result_histories clsT clsE eqT eqE (ops ++ l)) as H2.
    unfold res_srun in *. rewrite (srun_app _ _ _ _ _ _ H) in H2.
    destruct (srun _ s l); [|done|done]. destruct H2 as (st & ? & _). by exists st. }
  split; intros p Hp; split.
  - specialize (K [EIsOk i; EIsErr i; EOkOpt i; EErrOpt i; EOkU i; EUnwrap i]).
    simpl in K. repeat (rewrite Hp in K; simpl in K). exact K.
  - specialize (K [EUnwrapErr i]). simpl in K. rewrite Hp in K. exact K.
  - specialize (K [EIsOk i; EIsErr i; EOkOpt i; EErrOpt i; EErrU i; EUnwrapErr i]).
    simpl in K. repeat (rewrite Hp in K; simpl in K). exact K.
  - specialize (K [EUnwrap i]). simpl in K. rewrite Hp in K. exact K.
Qed.

(** == : same variant and equal payloads. *)
Theorem C37_equality {V F : Type} clsT clsE eqT eqE (ops : list (eop V F)) s outs i j a b :
  res_srun clsT clsE eqT eqE false ∅ ops = SOk s outs ->
  s !! i = Some a -> s !! j = Some b ->
  a <> inl PMoved -> a <> inr PMoved -> b <> inl PMoved -> b <> inr PMoved ->
  (forall x y, eqT x y = true <-> x = y) -> (forall x y, eqE x y = true <-> x = y) ->
  exists st r, res_run clsT clsE eqT eqE (ops ++ [EEq i j]) rinit = Ok (outs ++ [EB r], st) /\
               (r = true <-> a = b).
Proof.
  intros H Hi Hj A1 A2 B1 B2 HT HE.
  pose proof (C37_result_histories clsT clsE eqT eqE (ops ++ [EEq i j])) as H2.
  unfold res_srun in *. rewrite (srun_app _ _ _ _ _ _ H) in H2. simpl srun in H2.
  rewrite Hi, Hj in H2.
  destruct a as [[x|]|[x|]], b as [[y|]|[y|]]; try done; simpl in H2;
    destruct H2 as (st & E & _); exists st; eexists; (split; [exact E|]);
    try (rewrite HT); try (rewrite HE); split; intros; congruence.
Qed.

Definition C37_ops : list (eop N N) :=
  [EOk 0 7%N; EErr 1 8%N; ECopyCtor 2 0; EMoveCtor 3 1; EOk 4 9%N; ECopyAssign 2 4; EEq 2 4;
   EUnwrapErr 3; EMoveAssign 0 2; EOkOpt 0; EErrOpt 1; EIsErr 1;
   EDestroy 4; EDestroy 3; EDestroy 2; EDestroy 1; EDestroy 0].
Example C37_ex :
  match res_srun true true N.eqb N.eqb false ∅ C37_ops with
  | SOk s outs => map_to_list s = [] /\
      List.filter (fun o => match o with EU => false | _ => true end) outs =
        [EB true; EF (PVal 8%N); EOV (Some (PVal 9%N)); EOF (Some PMoved); EB true]
  | _ => False
  end.
Proof. vm_compute. split; reflexivity. Qed.

(** ** C36 *)

(** Full statement: histories in which any assignment is allowed. *)
Definition C36_full (V F : Type) : Prop :=
  forall clsT clsE eqT eqE (ops : list (eop V F)),
  match res_srun clsT clsE eqT eqE true ∅ ops with
  | SOk s outs => exists st, res_run clsT clsE eqT eqE ops rinit = Ok (outs, st)
  | SPanic => res_run clsT clsE eqT eqE ops rinit = Err Panic
  | SPre => True
  end.

(** Missing: assignments between different variants. *)
Theorem C36_assignment_partial {V F : Type} clsT clsE eqT eqE (ops : list (eop V F)) s outs i j a b :
  res_srun clsT clsE eqT eqE false ∅ ops = SOk s outs ->
  s !! i = Some a -> s !! j = Some b -> v_ok a = v_ok b ->
  exists st st',
    res_run clsT clsE eqT eqE (ops ++ [ECopyAssign i j; EIsOk i; EOkOpt i; EErrOpt i]) rinit =
      Ok (outs ++ [EU; EB (v_ok b); EOV (match b with inl p => Some p | _ => None end);
                   EOF (match b with inr q => Some q | _ => None end)], st) /\
    (i <> j ->
     res_run clsT clsE eqT eqE (ops ++ [EMoveAssign i j; EIsOk i; EOkOpt i; EErrOpt i]) rinit =
      Ok (outs ++ [EU; EB (v_ok b); EOV (match b with inl p => Some p | _ => None end);
                   EOF (match b with inr q => Some q | _ => None end)], st')).
Proof.
  intros H Hi Hj Ht.
  pose proof (C37_result_histories clsT clsE eqT eqE (ops ++ [ECopyAssign i j; EIsOk i; EOkOpt i; EErrOpt i])) as H2.
  pose proof (C37_result_histories clsT clsE eqT eqE (ops ++ [EMoveAssign i j; EIsOk i; EOkOpt i; EErrOpt i])) as H3.
  unfold res_srun in *. rewrite (srun_app _ _ _ _ _ _ H) in H2. rewrite (srun_app _ _ _ _ _ _ H) in H3. simpl srun in H2, H3.
  rewrite Hi, Hj in H2, H3. rewrite Ht, eqb_reflx in H2, H3. cbn [orb] in H2, H3.
  rewrite !lookup_insert in H2.
  destruct H2 as (st & E & _).
  destruct (decide (i = j)) as [->|Hne].
  { exists st, st. split; [done|done]. }
  destruct (Nat.eqb_spec i j) as [|_]; [done|]. rewrite !lookup_insert in H3.
  destruct H3 as (st' & E' & _). exists st, st'. split; [done|]. by intros.
Qed.

(** The exact behaviour otherwise: the assignment goes through but the tag of
    the target does not change, although the payload of the source is now
    stored there; every access guided by the tag is undefined. *)
Definition wrong_after {V F} clsT clsE eqT eqE (ops : list (eop V F)) outs i (a : pay V + pay F) op : Prop :=
  (exists st, res_run clsT clsE eqT eqE (ops ++ [op; EIsOk i]) rinit = Ok (outs ++ [EU; EB (v_ok a)], st)) /\
  res_run clsT clsE eqT eqE (ops ++ [op; (if v_ok a then EUnwrap i else EUnwrapErr i)]) rinit = Err UB /\
  res_run clsT clsE eqT eqE (ops ++ [op; (if v_ok a then EOkOpt i else EErrOpt i)]) rinit = Err UB /\
  ((if v_ok a then clsT else clsE) = true ->
   res_run clsT clsE eqT eqE (ops ++ [op; EDestroy i]) rinit = Err UB).

Section C36.
  Context {V F : Type} (clsT clsE : bool) (eqT : V -> V -> bool) (eqE : F -> F -> bool).
  Lemma run_app (l1 l2 : list (eop V F)) : forall st st1 o1,
    res_run clsT clsE eqT eqE l1 st = Ok (o1, st1) ->
    res_run clsT clsE eqT eqE (l1 ++ l2) st =
      match res_run clsT clsE eqT eqE l2 st1 with Ok (o2, st2) => Ok (o1 ++ o2, st2) | Err e => Err e end.
  Proof.
    unfold res_run. induction l1 as [|o l1 IH]; simpl; intros st st1 o1.
    - unfold ret. intros [= <- <-]. simpl. by destruct (run_ops _ l2 st) as [[]|].
    - unfold bind, ret. destruct (res_step _ _ _ _ o st) as [[x st2]|]; [|done].
      destruct (run_ops _ l1 st2) as [[o2 st3]|] eqn:E; [|done].
      intros [= <- <-]. rewrite (IH _ _ _ E). by destruct (run_ops _ l2 st3) as [[]|].
  Qed.
End C36.

Theorem C36_mixed_assignment_exact {V F : Type} clsT clsE eqT eqE (ops : list (eop V F)) s outs i j a b op :
  res_srun clsT clsE eqT eqE false ∅ ops = SOk s outs ->
  s !! i = Some a -> s !! j = Some b -> v_ok a <> v_ok b ->
  op = ECopyAssign i j \/ op = EMoveAssign i j ->
  wrong_after clsT clsE eqT eqE ops outs i a op.
Proof.
  intros H Hi Hj Hab Hop.
  assert (Hne : i <> j) by congruence.
  pose proof (res_run_ok clsT clsE eqT eqE ops ∅ rinit (rrel_init _ _)) as H1.
  rewrite H in H1. destruct H1 as ([vars c d] & Hr & Hv & Hc). simpl in Hv, Hc.
  assert (Hi' : vars !! i = Some (rconc a)) by (by rewrite Hv, lookup_fmap, Hi).
  assert (Hj' : vars !! j = Some (rconc b)) by (by rewrite Hv, lookup_fmap, Hj).
  clear Hv Hc Hi Hj H s.
  assert (Hb : (i =? j)%nat = false) by by apply Nat.eqb_neq.
  unfold wrong_after. rewrite !(run_app _ _ _ _ _ _ _ _ _ Hr). clear Hr ops.
  unfold res_run.
  destruct a as [p|p], b as [q|q]; simpl in Hab; try done; destruct Hop as [-> | ->];
    unfold run_ops, res_step, via, res_copy_assign, res_move_assign; rewrite Hb;
    destruct clsT, clsE;
    unfold res_destroy, res_is_ok, res_unwrap, res_unwrap_err, res_ok_opt, res_err_opt,
      copy_impl, move_impl, destroy_t, destroy_e, move_t, move_e, construct_t, construct_e,
      read_t, read_e, write_t, write_e, rctick, rdtick, res_get, res_put, res_del, ret, fail, bind;
    repeat (csimpl; first [rewrite Hi' | rewrite Hj' | rewrite lookup_insert |
            rewrite (lookup_insert_ne _ i j) by done | rewrite (lookup_insert_ne _ j i) by done]);
    csimpl; (split; [by eexists|]); (split; [done|]); (split; [done|]); done.
Qed.

Theorem C36_mixed_assignment_refuted : ~ C36_full N N.
Proof.
  intros H.
  pose proof (H true true N.eqb N.eqb [EOk 0 1%N; EErr 1 2%N; ECopyAssign 0 1; EIsOk 0]) as H1.
  vm_compute in H1. destruct H1 as (st & E). discriminate E.
Qed.

Example C36_ex : exists s outs,
  res_srun true true N.eqb N.eqb false ∅ [EOk 0 1%N; EErr 1 2%N; EOk 2 3%N] = SOk s outs /\
  s !! 0%nat = Some (inl (PVal 1%N)) /\ s !! 1%nat = Some (inr (PVal 2%N)) /\
  s !! 2%nat = Some (inl (PVal 3%N)).
Proof. eexists _, _. split; [reflexivity|]. by vm_compute. Qed.

Print Assumptions C36_assignment_partial.
Print Assumptions C36_mixed_assignment_exact.
Print Assumptions C36_mixed_assignment_refuted.
Print Assumptions C37_result_histories.
Print Assumptions C37_accessors.
Print Assumptions C37_equality.
