(** * Machine: specification machines that may also demand a panic

    [SPanic] means "the documented behaviour is MSTL_PANIC"; [SPre] means the
    caller broke a documented precondition (nothing is claimed then). *)
From Verif Require Import Base.

Inductive sres (S O : Type) :=
| SOk (s : S) (o : O)
| SPanic
| SPre.
Global Arguments SOk {S O} _ _.
Global Arguments SPanic {S O}.
Global Arguments SPre {S O}.

Section Machine.
  Context {Sp Op Out : Type} (sstep : Sp -> Op -> sres Sp Out).

  Fixpoint srun (s : Sp) (ops : list Op) : sres Sp (list Out) :=
    match ops with
    | [] => SOk s []
    | o :: r =>
        match sstep s o with
        | SOk s1 x =>
            match srun s1 r with
            | SOk s2 xs => SOk s2 (x :: xs)
            | SPanic => SPanic
            | SPre => SPre
            end
        | SPanic => SPanic
        | SPre => SPre
        end
    end.

  Lemma srun_app l1 l2 : forall s s1 o1,
    srun s l1 = SOk s1 o1 ->
    srun s (l1 ++ l2) =
      match srun s1 l2 with SOk s2 o2 => SOk s2 (o1 ++ o2) | SPanic => SPanic | SPre => SPre end.
  Proof.
    induction l1 as [|o l1 IH]; simpl; intros t t1 o2.
    - intros [= <- <-]. simpl. by destruct (srun t l2).
    - destruct (sstep t o); try done. destruct (srun _ l1) eqn:E; try done. intros [= <- <-].
      rewrite (IH _ _ _ E). by destruct (srun _ l2).
  Qed.

  (** What it means for an execution to do what the specification says. *)
  Definition agrees {St A} (rel : Sp -> St -> Prop) (r : outcome (A * St)) (sp : sres Sp A) : Prop :=
    match sp with
    | SOk s' x => exists st', r = Ok (x, st') /\ rel s' st'
    | SPanic => r = Err Panic
    | SPre => True
    end.

  Lemma srun_refines {St} (step : Op -> M St Out) (rel : Sp -> St -> Prop) :
    (forall s st o, rel s st -> agrees rel (step o st) (sstep s o)) ->
    forall ops s st, rel s st -> agrees rel (run_ops step ops st) (srun s ops).
  Proof.
    intros Hstep. induction ops as [|o ops IH]; intros s st Hr; simpl.
    { by exists st. }
    pose proof (Hstep s st o Hr) as H. unfold agrees, bind, ret in *.
    destruct (sstep s o) as [s1 x| |]; simpl in *; [|by rewrite H|done].
    destruct H as (st1 & -> & Hr1). pose proof (IH s1 st1 Hr1) as H2.
    destruct (srun s1 ops) as [s2 xs| |]; [|by rewrite H2|done].
    destruct H2 as (st2 & -> & Hr2). by exists st2.
  Qed.
End Machine.

(** Counting the elements of a map that satisfy a boolean test. *)
Section Count.
  Context {A : Type} (b : A -> bool).
  Definition mcount (m : gmap nat A) : N :=
    map_fold (fun _ x n => ((if b x then 1 else 0) + n)%N) 0%N m.

  Lemma mcount_empty : mcount ∅ = 0%N.
  Proof. apply map_fold_empty. Qed.
  Lemma mcount_fresh m i x : m !! i = None ->
    mcount (<[i := x]> m) = ((if b x then 1 else 0) + mcount m)%N.
  Proof.
    intros H. unfold mcount. rewrite map_fold_insert_L; [done| |done].
    intros. lia.
  Qed.
  Lemma mcount_delete m i x : m !! i = Some x ->
    mcount m = ((if b x then 1 else 0) + mcount (delete i m))%N.
  Proof.
    intros H. rewrite <-(mcount_fresh (delete i m) i x) by apply lookup_delete.
    by rewrite insert_delete.
  Qed.
  Lemma mcount_insert m i x y : m !! i = Some x ->
    ((if b x then 1 else 0) + mcount (<[i := y]> m) = (if b y then 1 else 0) + mcount m)%N.
  Proof.
    intros H. rewrite <-(insert_delete_insert m i y).
    rewrite mcount_fresh by apply lookup_delete.
    rewrite (mcount_delete m i x H). lia.
  Qed.
End Count.
