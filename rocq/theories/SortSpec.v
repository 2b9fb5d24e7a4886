(** * SortSpec: orders, stable sorting and merging of mathematical sequences *)
From Verif Require Import Base.

Section Sort.
  Context {A : Type} (lt : A -> A -> bool).

  (** A strict weak order, as a predicate "comes strictly before". *)
  Record swo : Prop := Swo {
    swo_irr : forall x, lt x x = false;
    swo_tr : forall x y z, lt x y = true -> lt y z = true -> lt x z = true;
    swo_nt : forall x y z, lt x y = false -> lt y z = false -> lt x z = false;
  }.
  (** Neither comes before the other. *)
  Definition eqv (x y : A) : bool := negb (lt x y) && negb (lt y x).
  (** No element comes before one that stands earlier. *)
  Definition srt (l : list A) : Prop :=
    forall i j x y, (i < j)%nat -> l !! i = Some x -> l !! j = Some y -> lt y x = false.
  (** The elements equivalent to [x], in their order. *)
  Definition class (x : A) (l : list A) : list A := List.filter (eqv x) l.
  (** Stable insertion sort. *)
  Fixpoint sins (x : A) (l : list A) : list A :=
    match l with [] => [x] | y :: r => if lt y x then y :: sins x r else x :: l end.
  Definition ssort (l : list A) : list A := foldr sins [] l.

  (** What _private::merge does to the two sequences of elements: the next
      one of [b] whenever the next one of [a] does not come strictly before. *)
  Fixpoint mrg (a : list A) : list A -> list A :=
    fix go (b : list A) : list A :=
      match a, b with
      | [], _ => b
      | _, [] => a
      | x :: a', y :: b' => if lt x y then x :: mrg a' b else y :: go b'
      end.
  (** How mergeSort comes from one sequence to the other. *)
  Inductive sorted_as : list A -> list A -> Prop :=
  | sa_one l : (length l <= 1)%nat -> sorted_as l l
  | sa_merge l1 l2 z1 z2 : sorted_as l1 z1 -> sorted_as l2 z2 -> sorted_as (l1 ++ l2) (mrg z1 z2).

  Lemma mrg_nil_l b : mrg [] b = b.
  Proof. by destruct b. Qed.
  Lemma mrg_nil_r a : mrg a [] = a.
  Proof. by destruct a. Qed.
  Lemma mrg_cons x a y b : mrg (x :: a) (y :: b) = if lt x y then x :: mrg a (y :: b) else y :: mrg (x :: a) b.
  Proof. done. Qed.
  Lemma mrg_ind (P : list A -> list A -> list A -> Prop) :
    (forall b, P [] b b) -> (forall a, P a [] a) ->
    (forall x a y b, lt x y = true -> P a (y :: b) (mrg a (y :: b)) -> P (x :: a) (y :: b) (x :: mrg a (y :: b))) ->
    (forall x a y b, lt x y = false -> P (x :: a) b (mrg (x :: a) b) -> P (x :: a) (y :: b) (y :: mrg (x :: a) b)) ->
    forall a b, P a b (mrg a b).
  Proof.
    intros H1 H2 H3 H4 a. induction a as [|x a IHa]; intros b; [rewrite mrg_nil_l; apply H1|].
    induction b as [|y b IHb]; [apply H2|]. rewrite mrg_cons. destruct (lt x y) eqn:E; [by apply H3|by apply H4].
  Qed.
  Lemma mrg_perm a b : mrg a b ≡ₚ a ++ b.
  Proof.
    apply (mrg_ind (fun a b z => z ≡ₚ a ++ b)); clear.
    - done.
    - intros a. by rewrite app_nil_r.
    - intros x a y b _ IH. rewrite IH. done.
    - intros x a y b _ IH. rewrite IH. by rewrite <-Permutation_middle.
  Qed.
  Lemma sorted_as_perm l z : sorted_as l z -> z ≡ₚ l.
  Proof. induction 1 as [|l1 l2 z1 z2 _ IH1 _ IH2]; [done|]. by rewrite mrg_perm, IH1, IH2. Qed.

  Hypothesis O : swo.
  Lemma lt_asym x y : lt x y = true -> lt y x = false.
  Proof.
    intros H. destruct (lt y x) eqn:E; [|done]. pose proof (swo_tr O _ _ _ H E) as C. by rewrite (swo_irr O) in C.
  Qed.
  Lemma eqv_true x y : eqv x y = true <-> lt x y = false /\ lt y x = false.
  Proof. unfold eqv. destruct (lt x y), (lt y x); simpl; naive_solver. Qed.
  Lemma eqv_refl x : eqv x x = true.
  Proof. apply eqv_true. by rewrite (swo_irr O). Qed.
  Lemma srt_nil : srt [].
  Proof. intros i j x y _ H. done. Qed.
  Lemma srt_cons x l : srt (x :: l) <-> Forall (fun y => lt y x = false) l /\ srt l.
  Proof.
    split.
    - intros H. split.
      + apply Forall_lookup. intros i y Hy. apply (H 0%nat (S i) x y); [lia|done|done].
      + intros i j u v Hij Hu Hv. apply (H (S i) (S j) u v); [lia|done|done].
    - intros [H1 H2] i j u v Hij Hu Hv. destruct j as [|j]; [lia|]. simpl in Hv. destruct i as [|i].
      + simpl in Hu. injection Hu as ->. rewrite Forall_lookup in H1. by eapply H1.
      + simpl in Hu. apply (H2 i j u v); [lia|done|done].
  Qed.
  Lemma srt_one l : (length l <= 1)%nat -> srt l.
  Proof. intros H i j x y Hij Hx Hy. apply lookup_lt_Some in Hy. lia. Qed.
  Lemma Forall_perm (P : A -> Prop) l l' : l ≡ₚ l' -> Forall P l -> Forall P l'.
  Proof. by intros ->. Qed.
  Lemma all_lt_trans x y l : lt y x = false -> Forall (fun z => lt z y = false) l -> Forall (fun z => lt z x = false) l.
  Proof. intros H Hl. eapply Forall_impl; [exact Hl|]. intros z Hz. cbv beta in Hz. by eapply (swo_nt O). Qed.

  Lemma mrg_srt a b : srt a -> srt b -> srt (mrg a b).
  Proof.
    apply (mrg_ind (fun a b z => srt a -> srt b -> srt z)); try done.
    - intros x c y d E IH Ha Hb. apply srt_cons in Ha as [Ha1 Ha2]. apply srt_cons. split; [|by apply IH].
      eapply Forall_perm; [symmetry; apply mrg_perm|]. apply Forall_app. split; [done|].
      constructor; [by apply lt_asym|]. apply srt_cons in Hb as [Hb _]. eapply all_lt_trans; [|exact Hb].
      by apply lt_asym.
    - intros x c y d E IH Ha Hb. apply srt_cons in Hb as [Hb1 Hb2]. apply srt_cons. split; [|by apply IH].
      eapply Forall_perm; [symmetry; apply mrg_perm|]. apply Forall_app. split; [|done].
      constructor; [done|]. apply srt_cons in Ha as [Ha _]. by eapply all_lt_trans.
  Qed.
  Lemma class_app x l1 l2 : class x (l1 ++ l2) = class x l1 ++ class x l2.
  Proof. unfold class. apply List.filter_app. Qed.
  Lemma class_none x l : Forall (fun y => eqv x y = false) l -> class x l = [].
  Proof. induction 1 as [|y l H _ IH]; [done|]. simpl. by rewrite H. Qed.
  (** The order of the equivalent ones in a merge: those of [b] first. *)
  Lemma mrg_class x a b : srt a -> srt b -> class x (mrg a b) = class x b ++ class x a.
  Proof.
    apply (mrg_ind (fun a b z => srt a -> srt b -> class x z = class x b ++ class x a)).
    - intros c _ _. by rewrite app_nil_r.
    - intros c _ _. done.
    - intros u c v d E IH Ha Hb. apply srt_cons in Ha as [Ha1 Ha2]. specialize (IH Ha2 Hb).
      change (class x (u :: mrg c (v :: d))) with (class x ([u] ++ mrg c (v :: d))).
      change (class x (u :: c)) with (class x ([u] ++ c)). rewrite !class_app, IH, app_assoc, app_assoc. f_equal.
      unfold class at 1 4. cbn [List.filter]. destruct (eqv x u) eqn:Eu; [|by rewrite app_nil_r].
      rewrite (class_none x (v :: d)); [done|].
      apply srt_cons in Hb as [Hb _]. assert (Hv : eqv x v = false).
      { destruct (eqv x v) eqn:Ev; [|done]. apply eqv_true in Eu as [Eu1 Eu2]. apply eqv_true in Ev as [Ev1 Ev2].
        pose proof (swo_nt O _ _ _ Eu2 Ev1). congruence. }
      constructor; [done|]. eapply Forall_impl; [exact Hb|]. intros z Hz. cbv beta in Hz.
      destruct (eqv x z) eqn:Ez; [|done]. apply eqv_true in Ez as [Ez1 Ez2]. apply eqv_true in Eu as [Eu1 Eu2].
      (* u < v, v <= z, z ~ x ~ u *)
      pose proof (swo_nt O _ _ _ Eu2 Ez1) as C. pose proof (swo_nt O _ _ _ C Hz). congruence.
    - intros u c v d E IH Ha Hb. apply srt_cons in Hb as [Hb1 Hb2]. specialize (IH Ha Hb2).
      change (class x (v :: mrg (u :: c) d)) with (class x ([v] ++ mrg (u :: c) d)).
      change (class x (v :: d)) with (class x ([v] ++ d)). by rewrite !class_app, IH, app_assoc.
  Qed.
  Lemma class_reverse x l : class x (reverse l) = reverse (class x l).
  Proof.
    induction l as [|y l IH]; [done|]. rewrite reverse_cons, class_app, IH.
    change (class x (y :: l)) with (class x ([y] ++ l)). rewrite class_app. unfold class at 2 3.
    cbn [List.filter]. destruct (eqv x y); cbn [app]; [by rewrite reverse_cons|by rewrite app_nil_r].
  Qed.
  Lemma sorted_as_srt l z : sorted_as l z -> srt z.
  Proof. induction 1; [by apply srt_one|by apply mrg_srt]. Qed.
  Lemma sorted_as_class x l z : sorted_as l z -> class x z = reverse (class x l).
  Proof.
    induction 1 as [l H|l1 l2 z1 z2 S1 IH1 S2 IH2].
    - destruct l as [|y [|? ?]]; simpl in H; [done| |lia]. simpl. by destruct (eqv x y).
    - rewrite mrg_class; [|by eapply sorted_as_srt|by eapply sorted_as_srt].
      by rewrite IH1, IH2, class_app, reverse_app.
  Qed.

  (** The stable sort: sorted, and every class keeps its order. *)
  Lemma sins_perm x l : sins x l ≡ₚ x :: l.
  Proof.
    induction l as [|y l IH]; [done|]. simpl. destruct (lt y x); [|done]. rewrite IH. apply perm_swap.
  Qed.
  Lemma ssort_perm l : ssort l ≡ₚ l.
  Proof. induction l as [|x l IH]; [done|]. simpl. by rewrite sins_perm, IH. Qed.
  Lemma sins_srt x l : srt l -> srt (sins x l).
  Proof.
    induction l as [|y l IH]; intros H; [by apply srt_one|]. simpl. destruct (lt y x) eqn:E.
    - apply srt_cons in H as [H1 H2]. apply srt_cons. split; [|by apply IH].
      eapply Forall_perm; [symmetry; apply sins_perm|]. constructor; [by apply lt_asym|done].
    - apply srt_cons. split; [|done]. apply srt_cons in H as [H1 _]. constructor; [done|].
      by eapply all_lt_trans.
  Qed.
  Lemma ssort_srt l : srt (ssort l).
  Proof. induction l as [|x l IH]; [apply srt_nil|]. simpl. by apply sins_srt. Qed.
  Lemma sins_class z x l : class z (sins x l) = class z (x :: l).
  Proof.
    induction l as [|y l IH]; [done|]. simpl. destruct (lt y x) eqn:E; [|done].
    change (class z (y :: sins x l)) with (class z ([y] ++ sins x l)). rewrite class_app, IH. simpl.
    destruct (eqv z y) eqn:Ey; destruct (eqv z x) eqn:Ex; try done.
    apply eqv_true in Ey as [Ey1 Ey2]. apply eqv_true in Ex as [Ex1 Ex2].
    pose proof (swo_nt O _ _ _ Ey2 Ex1). congruence.
  Qed.
  Lemma ssort_class z l : class z (ssort l) = class z l.
  Proof. induction l as [|x l IH]; [done|]. simpl. rewrite sins_class. simpl. by rewrite IH. Qed.
  (** These two determine the sequence. *)
  Lemma srt_class_eq l1 : forall l2, srt l1 -> srt l2 -> (forall x, class x l1 = class x l2) -> l1 = l2.
  Proof.
    induction l1 as [|u l1 IH]; intros l2 S1 S2 Hc.
    - destruct l2 as [|v l2]; [done|]. specialize (Hc v). simpl in Hc. by rewrite eqv_refl in Hc.
    - destruct l2 as [|v l2].
      { specialize (Hc u). simpl in Hc. by rewrite eqv_refl in Hc. }
      apply srt_cons in S1 as [F1 S1]. apply srt_cons in S2 as [F2 S2].
      assert (Huv : u = v).
      { assert (I1 : u ∈ class u (v :: l2)) by (rewrite <-Hc; simpl; rewrite eqv_refl; by left).
        assert (I2 : v ∈ class v (u :: l1)) by (rewrite Hc; simpl; rewrite eqv_refl; by left).
        apply elem_of_list_In, filter_In in I1 as [I1 _]. apply elem_of_list_In, filter_In in I2 as [I2 _].
        apply elem_of_list_In, elem_of_cons in I1 as [->|I1]; [done|].
        apply elem_of_list_In, elem_of_cons in I2 as [->|I2]; [done|].
        rewrite Forall_forall in F1, F2. pose proof (F2 u I1) as G1. pose proof (F1 v I2) as G2.
        specialize (Hc u). simpl in Hc. rewrite eqv_refl in Hc.
        assert (Ev : eqv u v = true) by by apply eqv_true. rewrite Ev in Hc. by injection Hc. }
      subst v. f_equal. apply IH; [done|done|]. intros x. specialize (Hc x). simpl in Hc.
      destruct (eqv x u); [by injection Hc|done].
  Qed.
  Lemma sorted_as_ssort l z : sorted_as l z -> z = ssort (reverse l).
  Proof.
    intros S. apply srt_class_eq; [by eapply sorted_as_srt|apply ssort_srt|].
    intros x. rewrite ssort_class, class_reverse. by apply sorted_as_class.
  Qed.
  Lemma mrg_ssort a b : srt a -> srt b -> mrg a b = ssort (b ++ a).
  Proof.
    intros Sa Sb. apply srt_class_eq; [by apply mrg_srt|apply ssort_srt|].
    intros x. rewrite ssort_class, class_app. by apply mrg_class.
  Qed.
  Lemma ssort_id l : srt l -> ssort l = l.
  Proof. intros S. apply srt_class_eq; [apply ssort_srt|done|]. intros x. apply ssort_class. Qed.
End Sort.

Section Map.
  Context {A B : Type} (f : B -> A) (lt : A -> A -> bool).
  Definition on (x y : B) : bool := lt (f x) (f y).
  Lemma mrg_map a b : f <$> mrg on a b = mrg lt (f <$> a) (f <$> b).
  Proof.
    apply (mrg_ind on (fun a b z => f <$> z = mrg lt (f <$> a) (f <$> b))).
    - intros c. symmetry. apply (mrg_nil_l lt).
    - intros c. symmetry. apply (mrg_nil_r lt).
    - intros x c y d E IH. cbn [fmap list_fmap] in *. rewrite mrg_cons. unfold on in E. rewrite E. by rewrite <-IH.
    - intros x c y d E IH. cbn [fmap list_fmap] in *. rewrite mrg_cons. unfold on in E. rewrite E. by rewrite <-IH.
  Qed.
  Lemma sorted_as_map l z : sorted_as on l z -> sorted_as lt (f <$> l) (f <$> z).
  Proof.
    induction 1; [apply sa_one; by rewrite fmap_length|]. rewrite mrg_map, fmap_app. by apply sa_merge.
  Qed.
End Map.
