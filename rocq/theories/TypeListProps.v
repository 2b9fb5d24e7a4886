(** * TypeListProps: C50 *)
From Verif Require Import Base TupleModel TypeListModel.

(** Induction over types with the list of template arguments. *)
Lemma cty_ind2 (P : cty -> Prop) :
  (forall n, P (CBase n)) -> (forall t, P t -> P (CConst t)) ->
  (forall k ts, Forall P ts -> P (CInst k ts)) -> forall t, P t.
Proof.
  intros H1 H2 H3. fix IH 1. intros [n|t|k ts]; [apply H1|apply H2, IH|apply H3].
  induction ts as [|t ts IHts]; constructor; [apply IH|apply IHts].
Qed.

Lemma same_as_spec a : forall b, same_as a b = true <-> a = b.
Proof.
  induction a as [n|t IH|k ts IH] using cty_ind2; intros [m|u|m us]; simpl; try (split; done).
  - rewrite Nat.eqb_eq. split; congruence.
  - rewrite IH. split; congruence.
  - rewrite andb_true_iff, Nat.eqb_eq.
    assert ((fix go ts us := match ts, us with
       | [], [] => true | t :: ts, u :: us => same_as t u && go ts us | _, _ => false end) ts us = true
       <-> ts = us) as ->; [|split; [by intros [-> ->]|by intros [= -> ->]]].
    revert us. induction IH as [|t ts Ht Hts IH2]; intros [|u us]; try (split; done).
    rewrite andb_true_iff, Ht, IH2. split; [by intros [-> ->]|by intros [= -> ->]].
Qed.

Global Instance cty_eq_dec : EqDecision cty.
Proof.
  intros a b. destruct (same_as a b) eqn:E.
  - left. by apply same_as_spec.
  - right. intros H. apply same_as_spec in H. congruence.
Defined.

(** How often a type occurs in a list of types. *)
Fixpoint occurrences (ty : cty) (ts : list cty) : nat :=
  match ts with
  | [] => 0
  | t :: r => (if decide (ty = t) then 1 else 0) + occurrences ty r
  end.
Lemma same_as_decide {A} a b (x y : A) :
  (if same_as a b then x else y) = (if decide (a = b) then x else y).
Proof.
  destruct (same_as a b) eqn:E, (decide (a = b)) as [H|H]; try done.
  - by apply same_as_spec in E.
  - apply same_as_spec in H. congruence.
Qed.

(** Every operation except [count] on the empty list is the list operation. *)
Theorem C50_type_list_laws (ts us : list cty) :
  tl_size (TypeList ts) = length ts /\
  (forall i, tl_at i (TypeList ts) = CConst <$> (ts !! i)) /\
  tl_append (TypeList ts) us = TypeList (ts ++ us) /\
  tl_prepend (TypeList ts) us = TypeList (us ++ ts) /\
  (exists b, tl_eq (TypeList ts) (TypeList us) = Some b /\ (b = true <-> ts = us)) /\
  (forall g f, (forall t, f (CConst t) = CConst (g t)) ->
     tl_map f (TypeList ts) = TypeList (map g ts)) /\
  (forall q p, (forall t, p (CConst t) = q t) ->
     tl_filter p (TypeList ts) = TypeList (List.filter q ts)).
Proof.
  split_and!.
  - unfold tl_size, TypeList. by rewrite fmap_length.
  - intros i. unfold tl_at, TypeList. revert i. induction ts as [|t r IH]; intros [|i]; try done. apply IH.
  - unfold tl_append, TypeList. by rewrite fmap_app.
  - unfold tl_prepend, TypeList. by rewrite fmap_app.
  - unfold tl_eq, TypeList. rewrite !fmap_length.
    destruct (Nat.eqb_spec (length ts) (length us)) as [Hl|Hl]; simpl.
    2:{ exists false. split; [done|]. split; [done|]. intros ->. done. }
    revert us Hl. induction ts as [|t r IH]; intros [|u us] Hl; try done; simpl.
    { exists true. done. }
    destruct (IH us) as (b & E & Hb); [simpl in *; lia|].
    change (list_fmap _ _ CConst) with (fmap (M := list) CConst). rewrite E. simpl. eexists. split; [done|].
    rewrite andb_true_iff, same_as_spec, Hb. split; [by intros [-> ->]|by intros [= -> ->]].
  - intros g f H. unfold tl_map, TypeList. induction ts as [|t r IH]; [done|]. csimpl. by rewrite H, IH.
  - intros q p H. unfold tl_filter, TypeList.
    assert (forall out, tl_filter_go p (CConst <$> ts) out = out ++ (CConst <$> List.filter q ts)) as ->; [|done].
    induction ts as [|t r IH]; intros out; csimpl; [by rewrite app_nil_r|].
    rewrite H. destruct (q t); csimpl; rewrite IH; [|done]. by rewrite <-(assoc_L app).
Qed.

(** [apply_to] and [extract_from] are inverse to each other. *)
Theorem C50_apply_extract (tpl : nat) (ts : list cty) :
  tl_apply tpl (TypeList ts) = Some (CConst (CInst tpl ts)) /\
  tl_extract (CInst tpl ts) = Some (TypeList ts).
Proof.
  split; [|done]. unfold tl_apply, TypeList.
  assert (mapM inner (CConst <$> ts) = Some ts) as ->; [|done].
  induction ts as [|t r IH]; [done|]. rewrite fmap_cons.
  change (mapM inner (CConst t :: (CConst <$> r))) with (l ← mapM inner (CConst <$> r); Some (t :: l)).
  by rewrite IH.
Qed.

(** [count<Type>()] on a non-empty list; what is missing: the empty list,
    where the fold expression is ill-formed. *)
Theorem C50_count_partial (ty : cty) (ts : list cty) : ts <> [] ->
  tl_count ty (TypeList ts) = Some (occurrences ty ts).
Proof.
  unfold tl_count, TypeList. induction ts as [|t [|u r] IH]; intros H; [done| |].
  - simpl. by rewrite Nat.add_0_r, same_as_decide.
  - rewrite fmap_cons. change (count_fold ty (CConst t :: (CConst <$> u :: r))) with
      (n ← count_fold ty (CConst <$> u :: r); Some ((if same_as ty t then 1 else 0) + n)).
    rewrite IH by done. by rewrite same_as_decide.
Qed.
Theorem C50_count_empty_refuted :
  ~ (forall ty ts, tl_count ty (TypeList ts) = Some (occurrences ty ts)).
Proof. intros H. by specialize (H (CBase 0) []). Qed.

(** int, double, long and [Tuple<int, double>]. *)
Example C50_ex :
  let ls := TypeList [CBase 0; CInst 7 [CBase 0; CBase 1]; CBase 0] in
  tl_at 1 ls = Some (CConst (CInst 7 [CBase 0; CBase 1])) /\
  tl_count (CBase 0) ls = Some 2 /\
  tl_eq ls (tl_append (TypeList [CBase 0; CInst 7 [CBase 0; CBase 1]]) [CBase 0]) = Some true /\
  tl_filter (fun t => same_as t (CConst (CBase 0))) ls = TypeList [CBase 0; CBase 0].
Proof. split_and!; reflexivity. Qed.

Print Assumptions C50_type_list_laws.
Print Assumptions C50_apply_extract.
Print Assumptions C50_count_partial.
Print Assumptions C50_count_empty_refuted.
