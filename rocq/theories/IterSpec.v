(** * IterSpec: what a double-ended iterator is supposed to do

    An iterator over a finite sequence is that sequence; [next] takes from the
    front, [prev] from the back. *)
From Verif Require Import Base.

Inductive de_op := DNext | DPrev | DLen | DEmpty | DLast.
Inductive de_out (A : Type) :=
| EItem (o : option A)
| ENum (n : N)
| EBool (b : bool).
Global Arguments EItem {A} _.
Global Arguments ENum {A} _.
Global Arguments EBool {A} _.

Section DeSpec.
  Context {A : Type}.
  Definition de_step (xs : list A) (o : de_op) : list A * de_out A :=
    match o with
    | DNext => (tail xs, EItem (head xs))
    | DPrev => (take (length xs - 1) xs, EItem (last xs))
    | DLen => (xs, ENum (N.of_nat (length xs)))
    | DEmpty => (xs, EBool (match xs with [] => true | _ => false end))
    | DLast => (xs, EItem (last xs))
    end.
  Fixpoint de_run (xs : list A) (ops : list de_op) : list A * list (de_out A) :=
    match ops with
    | [] => (xs, [])
    | o :: r => let '(ys, x) := de_step xs o in
                let '(zs, os) := de_run ys r in (zs, x :: os)
    end.

  (** The items handed out by [next] calls and by [prev] calls. *)
  Fixpoint got (want : de_op -> bool) (ops : list de_op) (outs : list (de_out A)) : list A :=
    match ops, outs with
    | o :: ops, EItem (Some x) :: outs => if want o then x :: got want ops outs else got want ops outs
    | _ :: ops, _ :: outs => got want ops outs
    | _, _ => []
    end.
  Definition is_next (o : de_op) : bool := match o with DNext => true | _ => false end.
  Definition is_prev (o : de_op) : bool := match o with DPrev => true | _ => false end.

  (** The specification itself does what is promised: what [next] handed out,
      what is left, and what [prev] handed out (backwards) make up the
      sequence, so nothing is produced twice and nothing is skipped. *)
  Lemma de_run_meets ops : forall xs ys outs,
    de_run xs ops = (ys, outs) ->
    xs = got is_next ops outs ++ ys ++ reverse (got is_prev ops outs).
  Proof.
    induction ops as [|o ops IH]; intros xs ys outs; simpl.
    { intros [= -> <-]. by rewrite app_nil_r. }
    destruct (de_step xs o) as [zs x] eqn:E1. destruct (de_run zs ops) as [us os] eqn:E2.
    intros [= -> <-]. apply IH in E2. destruct o; simpl in E1; injection E1 as <- <-.
    - destruct xs as [|x xs]; simpl in *; [done|]. by rewrite E2 at 1.
    - destruct xs as [|x xs _] using rev_ind; simpl in *; [done|].
      rewrite app_length, last_snoc in *. simpl in *.
      rewrite Nat.add_sub, take_app in E2. rewrite E2 at 1. rewrite reverse_cons.
      by rewrite <-!(assoc_L app).
    - done.
    - done.
    - simpl. by destruct (last xs).
  Qed.
End DeSpec.

(** A model iterator [step] refines the sequence [xs] (of some memory state)
    when a relation is kept. *)
Section DeRefine.
  Context {A St : Type} (step : de_op -> M St (de_out A)) (rep : St -> list A -> Prop).
  Context (allowed : de_op -> Prop).
  Context (Hstep : forall o s xs, allowed o -> rep s xs ->
    exists s', step o s = Ok ((de_step xs o).2, s') /\ rep s' (de_step xs o).1).
  Lemma de_refines ops : forall s xs, Forall allowed ops -> rep s xs ->
    exists s', run_ops step ops s = Ok ((de_run xs ops).2, s') /\ rep s' (de_run xs ops).1.
  Proof using Hstep.
    induction ops as [|o ops IH]; intros s xs Hf Hr; simpl; [eauto|].
    apply Forall_cons in Hf as [Ho Hf].
    destruct (Hstep o s xs Ho Hr) as (s1 & E & Hr1).
    destruct (de_step xs o) as [ys x]. destruct (IH s1 ys Hf Hr1) as (s2 & E2 & Hr2).
    destruct (de_run ys ops) as [zs os]. simpl in *.
    exists s2. unfold bind, ret. by rewrite E, E2.
  Qed.
End DeRefine.
