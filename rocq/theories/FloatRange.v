(** * FloatRange: ops::Range over index types that are not integers
      (include/mstl/ops/range.h, cmp.h, arithmetical.h)

    [Range<Idx>] asks of [Idx] only [<=>] (as weak as a partial order) and
    copying; [next] and [prev] also ask for [++] and [--].  RangeModel.v takes
    [Idx] to be an integer type.  Here [Idx] is any type, given by the five
    operators the code applies to it, and then [double].

    Simplifications:
    - the operators of [Idx] are functions: they do not change anything else,
      and two calls with the same operands agree;
    - copying an [Idx] gives the same value;
    - [double] is IEEE 754 binary64 rounding to nearest, ties to even; the sign
      of a zero, which no operator here looks at, and the payload of a NaN are
      left out. *)
From Verif Require Import Base.
Local Open Scope Z_scope.

(** ** Range<Idx> for any Idx *)
(** range.h:151-152, the two (public) fields. *)
Record grange (I : Type) := GRange { g_low : I; g_high : I }.
Global Arguments GRange {I} _ _.
Global Arguments g_low {I} _.
Global Arguments g_high {I} _.

Inductive gop (I : Type) := GNext | GPrev | GEmpty | GContains (x : I) | GSame (r : grange I) | GSetLow (x : I) | GSetHigh (x : I).
Global Arguments GNext {I}.
Global Arguments GPrev {I}.
Global Arguments GEmpty {I}.
Global Arguments GContains {I} _.
Global Arguments GSame {I} _.
Global Arguments GSetLow {I} _.
Global Arguments GSetHigh {I} _.
Inductive gout (I : Type) := GItem (o : option I) | GBool (b : bool) | GUnit.
Global Arguments GItem {I} _.
Global Arguments GBool {I} _.
Global Arguments GUnit {I}.

(** The operators the code applies to an [Idx]: [==], [<], [<=], [++], [--]. *)
Record idx_ops (I : Type) := IdxOps {
  o_eq : I -> I -> bool; o_lt : I -> I -> bool; o_le : I -> I -> bool;
  o_inc : I -> outcome I; o_dec : I -> outcome I }.
Global Arguments o_eq {I} _ _ _.
Global Arguments o_lt {I} _ _ _.
Global Arguments o_le {I} _ _ _.
Global Arguments o_inc {I} _ _.
Global Arguments o_dec {I} _ _.

Section Model.
  Context {I : Type} (X : idx_ops I).
  Definition up {A} (o : outcome A) : M (grange I) A :=
    fun s => match o with Ok a => Ok (a, s) | Err e => Err e end.
  Definition cur : M (grange I) (grange I) := fun s => Ok (s, s).
  Definition set (r : grange I) : M (grange I) unit := fun _ => Ok (tt, r).

  (** range.h:103-107 [contains]. *)
  Definition g_contains (r : grange I) (x : I) : bool := o_le X (g_low r) x && o_lt X x (g_high r).

  (** range.h:109-117 [next]. *)
  Definition g_next : M (grange I) (option I) :=
    r <-- cur ;;
    if o_eq X (g_low r) (g_high r) then ret None
    else
      let value := g_low r in
      l <-- up (o_inc X (g_low r)) ;;
      set (GRange l (g_high r)) ;;;
      ret (Some value).

  (** range.h:119-127 [prev]. *)
  Definition g_prev : M (grange I) (option I) :=
    r <-- cur ;;
    if o_eq X (g_low r) (g_high r) then ret None
    else
      let value := g_high r in
      h <-- up (o_dec X (g_high r)) ;;
      set (GRange (g_low r) h) ;;;
      ret (Some value).

  (** range.h:129-133 [is_empty]. *)
  Definition g_is_empty (r : grange I) : bool := negb (o_lt X (g_low r) (g_high r)).

  (** range.h:145-149 [operator==], for the same [Idx]. *)
  Definition g_same (r s : grange I) : bool :=
    o_eq X (g_low r) (g_low s) && o_eq X (g_high r) (g_high s).

  Definition g_step (o : gop I) : M (grange I) (gout I) :=
    match o with
    | GNext => x <-- g_next ;; ret (GItem x)
    | GPrev => x <-- g_prev ;; ret (GItem x)
    | GEmpty => r <-- cur ;; ret (GBool (g_is_empty r))
    | GContains x => r <-- cur ;; ret (GBool (g_contains r x))
    | GSame s => r <-- cur ;; ret (GBool (g_same r s))
    | GSetLow x => r <-- cur ;; set (GRange x (g_high r)) ;;; ret GUnit
    | GSetHigh x => r <-- cur ;; set (GRange (g_low r) x) ;;; ret GUnit
    end.
  Definition g_run (ops : list (gop I)) : M (grange I) (list (gout I)) := run_ops g_step ops.
End Model.

(** ** double *)
(** A finite double is a multiple of 2^-1074, and is given by that multiple. *)
Inductive dbl := DFin (z : Z) | DInf (neg : bool) | DNaN.
Definition one : Z := 2 ^ 1074.
Definition d_of (k : Z) : dbl := DFin (k * one).
(** Rounding to 53 significant bits, to nearest, ties to even. *)
Definition fl (z : Z) : Z :=
  let a := Z.abs z in
  if a <? 2 ^ 53 then z
  else
    let u := 2 ^ (Z.log2 a - 52) in
    let q := a / u in let r := a mod u in
    let q' := if 2 * r <? u then q else if u <? 2 * r then q + 1
              else if Z.even q then q else q + 1 in
    Z.sgn z * (q' * u).
Definition fin (z : Z) : dbl :=
  if 2 ^ 1024 * one <=? Z.abs z then DInf (z <? 0) else DFin z.
Definition d_add (x : dbl) (k : Z) : dbl :=
  match x with DFin z => fin (fl (z + k)) | _ => x end.
Definition d_eq (x y : dbl) : bool :=
  match x, y with
  | DFin a, DFin b => a =? b
  | DInf a, DInf b => Bool.eqb a b
  | _, _ => false
  end.
Definition d_lt (x y : dbl) : bool :=
  match x, y with
  | DFin a, DFin b => a <? b
  | DFin _, DInf n => negb n
  | DInf n, DFin _ => n
  | DInf n, DInf m => n && negb m
  | _, _ => false
  end.
Definition d_le (x y : dbl) : bool := d_lt x y || d_eq x y.
Definition dbl_ops : idx_ops dbl :=
  IdxOps dbl d_eq d_lt d_le (fun x => Ok (d_add x one)) (fun x => Ok (d_add x (- one))).
(** What a double can hold. *)
Definition is_dbl (x : dbl) : Prop :=
  match x with DFin z => fl z = z /\ Z.abs z < 2 ^ 1024 * one | _ => True end.

(** * Specification *)
Section Spec.
  Context {I : Type} (X : idx_ops I).
  (** A walk: each value is the increment of the one before. *)
  Inductive walk : I -> list I -> I -> Prop :=
  | walk_nil x : walk x [] x
  | walk_cons x y xs z : o_inc X x = Ok y -> walk y xs z -> walk x (x :: xs) z.
  (** The outcome of [n] calls of [next]. *)
  Definition nexts (n : nat) (r : grange I) : outcome (list (gout I) * grange I) :=
    g_run X (replicate n GNext) r.
  (** Going through the range comes to an end; and it never does. *)
  Definition ends (r : grange I) : Prop :=
    exists n outs r', nexts n r = Ok (outs, r') /\ GItem None ∈ outs.
  Definition unending (r : grange I) : Prop :=
    forall n, exists xs r', nexts n r = Ok ((fun x => GItem (Some x)) <$> xs, r') /\ length xs = n.
  (** Going through it gives these values, then none for ever. *)
  Definition gives (r : grange I) (xs : list I) : Prop :=
    forall k, exists r', nexts (length xs + k) r =
      Ok (((fun x => GItem (Some x)) <$> xs) ++ replicate k (GItem None), r').
End Spec.

(** An ordered type whose values are points of a line and whose [++] moves a fixed
    distance: integers without bounds, fixed-point numbers, dates, ... *)
Definition even_steps {I} (X : idx_ops I) (pos : I -> Z) (step : Z) : Prop :=
  0 < step /\
  (forall x y, o_eq X x y = (pos x =? pos y)) /\
  (forall x y, o_lt X x y = (pos x <? pos y)) /\
  (forall x y, o_le X x y = (pos x <=? pos y)) /\
  (forall x, exists y, o_inc X x = Ok y /\ pos y = pos x + step).

(** * Proofs *)
Section Gen.
  Context {I : Type} (X : idx_ops I).
  Notation some x := (GItem (Some x)).

  Lemma nexts_stop n r : o_eq X (g_low r) (g_high r) = true ->
    nexts X n r = Ok (replicate n (GItem None), r).
  Proof.
    intros E. unfold nexts, g_run. induction n as [|n IH]; [done|].
    cbn. unfold g_next, cur, bind. cbn. rewrite E. cbn. by rewrite IH.
  Qed.
  Lemma nexts_go n r y : o_eq X (g_low r) (g_high r) = false -> o_inc X (g_low r) = Ok y ->
    nexts X (S n) r =
    match nexts X n (GRange y (g_high r)) with
    | Ok (outs, r') => Ok (some (g_low r) :: outs, r')
    | Err e => Err e
    end.
  Proof.
    intros E E'. unfold nexts, g_run. cbn. unfold g_next, cur, bind. cbn. rewrite E. cbn.
    unfold up. rewrite E'. cbn. by destruct (run_ops _ _ _) as [[outs r']|e].
  Qed.
  Lemma nexts_bad n r e : o_eq X (g_low r) (g_high r) = false -> o_inc X (g_low r) = Err e ->
    nexts X (S n) r = Err e.
  Proof.
    intros E E'. unfold nexts, g_run. cbn. unfold g_next, cur, bind. cbn. rewrite E. cbn.
    unfold up. by rewrite E'.
  Qed.

  (** *** C87: what [next] does, for every index type *)
  Theorem C87_walk n : forall r outs r', nexts X n r = Ok (outs, r') ->
    exists xs, (length xs <= n)%nat /\
      outs = ((fun x => some x) <$> xs) ++ replicate (n - length xs) (GItem None) /\
      walk X (g_low r) xs (g_low r') /\ g_high r' = g_high r /\
      Forall (fun x => o_eq X x (g_high r) = false) xs /\
      ((length xs < n)%nat -> o_eq X (g_low r') (g_high r) = true).
  Proof.
    induction n as [|n IH]; intros r outs r' H.
    { cbn in H. injection H as <- <-. exists []. cbn.
      split; [lia|]. split; [done|]. split; [constructor|]. split; [done|]. split; [constructor|lia]. }
    destruct (o_eq X (g_low r) (g_high r)) eqn:E.
    { rewrite nexts_stop in H by done. injection H as <- <-. exists []. cbn -[replicate].
      split; [lia|]. split; [done|]. split; [constructor|]. done. }
    destruct (o_inc X (g_low r)) as [y|e] eqn:E'; [|by rewrite (nexts_bad _ _ e) in H].
    rewrite (nexts_go _ _ y) in H by done.
    destruct (nexts X n _) as [[o2 r2]|] eqn:E2; [|done]. injection H as <- <-.
    apply IH in E2 as (xs & Hl & -> & Hw & Hh & Hf & He). cbn in *.
    exists (g_low r :: xs). cbn. split; [lia|]. split; [done|]. split; [by econstructor|].
    split; [done|]. split; [by constructor|]. intros. apply He. lia.
  Qed.

  (** [prev] starts with a value that is not in the range. *)
  Theorem C87_prev_outside r x r' :
    (forall y, o_lt X y y = false) ->
    g_prev X r = Ok (Some x, r') -> g_contains X r x = false.
  Proof.
    intros Hi H. unfold g_prev, cur, bind in H. cbn in H. destruct (o_eq X _ _); [done|]. cbn in H.
    unfold up in H. destruct (o_dec X (g_high r)); [|done]. cbn in H. injection H as <- _.
    unfold g_contains. rewrite Hi. apply andb_false_r.
  Qed.

  (** *** C87: histories of all the members, for every index type *)
  Definition is_write (o : gop I) : bool :=
    match o with GSetLow _ | GSetHigh _ => true | _ => false end.
  (** What the calls of [next], and of [prev], gave. *)
  Fixpoint nexted (ops : list (gop I)) (outs : list (gout I)) : list I :=
    match ops, outs with
    | GNext :: ops, GItem (Some x) :: outs => x :: nexted ops outs
    | _ :: ops, _ :: outs => nexted ops outs
    | _, _ => []
    end.
  Fixpoint preved (ops : list (gop I)) (outs : list (gout I)) : list I :=
    match ops, outs with
    | GPrev :: ops, GItem (Some x) :: outs => x :: preved ops outs
    | _ :: ops, _ :: outs => preved ops outs
    | _, _ => []
    end.
  (** Each value is the decrement of the one before. *)
  Inductive walk_down : I -> list I -> I -> Prop :=
  | down_nil x : walk_down x [] x
  | down_cons x y xs z : o_dec X x = Ok y -> walk_down y xs z -> walk_down x (x :: xs) z.

  Lemma met_stays ops : forall r outs r',
    forallb (fun o => negb (is_write o)) ops = true -> g_run X ops r = Ok (outs, r') ->
    o_eq X (g_low r) (g_high r) = true -> r' = r.
  Proof using Type.
    unfold g_run. induction ops as [|o ops IH]; intros r outs r' Hw H E; [by injection H as <- <-|].
    cbn in Hw. apply andb_true_iff in Hw as [Ho Hw]. cbn in H. unfold bind in H.
    destruct o; try done; cbn in H; unfold g_next, g_prev, cur, bind in H; cbn in H;
      rewrite ?E in H; cbn in H;
      (destruct (run_ops _ ops _) as [[o2 r2]|] eqn:E2; [|done]); injection H as <- <-; by eapply IH.
  Qed.

  (** However [next], [prev] and the questions are mixed, each end
      moves only by its own calls, one step a call; none means they have met. *)
  Theorem C87_both_ends ops : forall r outs r',
    forallb (fun o => negb (is_write o)) ops = true -> g_run X ops r = Ok (outs, r') ->
    walk X (g_low r) (nexted ops outs) (g_low r') /\
    walk_down (g_high r) (preved ops outs) (g_high r') /\
    (GItem None ∈ outs -> o_eq X (g_low r') (g_high r') = true).
  Proof using Type.
    induction ops as [|o ops IH]; intros r outs r' Hw H.
    { injection H as <- <-. split; [constructor|]. split; [constructor|]. intros Hn. by apply elem_of_nil in Hn. }
    pose proof Hw as Hw0. cbn in Hw. apply andb_true_iff in Hw as [Ho Hw].
    destruct (o_eq X (g_low r) (g_high r)) eqn:E.
    { pose proof (met_stays _ _ _ _ Hw0 H E) as ->.
      unfold g_run in H. cbn in H. unfold bind in H.
      destruct o; try done; cbn in H; unfold g_next, g_prev, cur, bind in H; cbn in H;
        rewrite ?E in H; cbn in H;
        (destruct (run_ops _ ops _) as [[o2 r2]|] eqn:E2; [|done]); injection H as <- ->;
        destruct (IH _ _ _ Hw E2) as (A & B & _); cbn; by repeat split. }
    unfold g_run in H. cbn in H. unfold bind in H.
    destruct o; try done; cbn in H; unfold g_next, g_prev, cur, up, bind in H; cbn in H;
      rewrite ?E in H; cbn in H.
    1: destruct (o_inc X (g_low r)) as [y|] eqn:Ey; [|done]; cbn in H.
    2: destruct (o_dec X (g_high r)) as [y|] eqn:Ey; [|done]; cbn in H.
    all: (destruct (run_ops _ ops _) as [[o2 r2]|] eqn:E2; [|done]); injection H as <- <-;
      destruct (IH _ _ _ Hw E2) as (A & B & C); cbn in *.
    all: split; [first [by econstructor|done]|]; split; [first [by econstructor|done]|].
    all: intros Hn; apply elem_of_cons in Hn as [Hn|Hn]; [done|by apply C].
  Qed.

  (** After any history, the questions are answered for the range as it is and
      leave it alone, and writing one end leaves the other. *)
  Theorem C87_asked_written ops r outs r1 : g_run X ops r = Ok (outs, r1) ->
    let l := g_low r1 in let h := g_high r1 in
    (exists b, g_run X (ops ++ [GEmpty]) r = Ok (outs ++ [GBool b], r1) /\ (b = false <-> o_lt X l h = true)) /\
    (forall x, exists b, g_run X (ops ++ [GContains x]) r = Ok (outs ++ [GBool b], r1) /\
       (b = true <-> o_le X l x = true /\ o_lt X x h = true)) /\
    (forall s, exists b, g_run X (ops ++ [GSame s]) r = Ok (outs ++ [GBool b], r1) /\
       (b = true <-> o_eq X l (g_low s) = true /\ o_eq X h (g_high s) = true)) /\
    (forall x, g_run X (ops ++ [GSetLow x]) r = Ok (outs ++ [GUnit], GRange x h)) /\
    (forall x, g_run X (ops ++ [GSetHigh x]) r = Ok (outs ++ [GUnit], GRange l x)).
  Proof using Type.
    intros H. cbn zeta.
    assert (forall o, g_run X (ops ++ [o]) r =
      match g_step X o r1 with Ok (a, r2) => Ok (outs ++ [a], r2) | Err e => Err e end) as Ha.
    { intros o. revert r outs H. unfold g_run. induction ops as [|p ops IH]; intros r outs H.
      { injection H as <- ->. cbn. unfold bind. by destruct (g_step X o r1) as [[a r2]|]. }
      cbn in H |- *. unfold bind in H |- *. destruct (g_step X p r) as [[a r2]|]; [|done].
      destruct (run_ops _ ops r2) as [[o2 r3]|] eqn:E2; [|done]. injection H as <- ->.
      rewrite (IH _ _ E2). by destruct (g_step X o r1) as [[? ?]|]. }
    split; [|split; [|split; [|split]]].
    - eexists. split; [rewrite Ha; done|]. unfold g_is_empty. by destruct (o_lt X _ _).
    - intros x. eexists. split; [rewrite Ha; done|]. apply andb_true_iff.
    - intros s. eexists. split; [rewrite Ha; done|]. apply andb_true_iff.
    - intros x. rewrite Ha. done.
    - intros x. rewrite Ha. done.
  Qed.

  Lemma unending_intro (P : I -> Prop) r :
    P (g_low r) ->
    (forall x, P x -> o_eq X x (g_high r) = false /\ exists y, o_inc X x = Ok y /\ P y) ->
    unending X r.
  Proof.
    intros H0 HP n. revert r H0 HP. induction n as [|n IH]; intros r H0 HP.
    { exists [], r. done. }
    destruct (HP _ H0) as (E & y & Ey & Hy).
    destruct (IH (GRange y (g_high r)) Hy HP) as (xs & r' & H & Hl).
    exists (g_low r :: xs), r'. rewrite (nexts_go _ _ y), H by done. cbn. by rewrite Hl.
  Qed.
  Lemma unending_not_ends r : unending X r -> ~ ends X r.
  Proof.
    intros Hu (n & outs & r' & H & Hin). destruct (Hu n) as (xs & r2 & H2 & _).
    rewrite H in H2. injection H2 as -> ->. apply elem_of_list_fmap in Hin as (x & ? & _). done.
  Qed.

  Lemma gives_intro xs : forall r z,
    walk X (g_low r) xs z -> Forall (fun x => o_eq X x (g_high r) = false) xs ->
    o_eq X z (g_high r) = true -> gives X r xs.
  Proof.
    induction xs as [|x xs IH]; intros r z Hw Hf Hz k.
    { inversion Hw; subst. exists r. cbn [length plus]. rewrite nexts_stop by done. done. }
    inversion Hw as [|? y ? ? Hi Hw']; subst. inversion Hf; subst.
    destruct (IH (GRange y (g_high r)) z Hw' H2 Hz k) as (r' & Hr). exists r'.
    cbn [length plus]. rewrite (nexts_go _ _ y), Hr by done. done.
  Qed.
  Lemma gives_ends r xs : gives X r xs -> ends X r.
  Proof.
    intros H. destruct (H 1%nat) as (r' & E). eexists _, _, _. split; [exact E|].
    apply elem_of_app. right. by left.
  Qed.

  (** *** Types whose [++] moves a fixed distance *)
  Context (pos : I -> Z) (step : Z) (Hs : even_steps X pos step).

  Lemma steps_walk : forall n x, exists xs z, walk X x xs z /\ length xs = n /\
    pos <$> xs = (fun i => pos x + i * step) <$> seqZ 0 (Z.of_nat n) /\ pos z = pos x + Z.of_nat n * step.
  Proof using Hs.
    destruct Hs as (H0 & _ & _ & _ & Hi). intros n. induction n as [|n IH]; intros x.
    { exists [], x. split; [constructor|]. split; [done|]. split; [done|lia]. }
    destruct (Hi x) as (y & Ey & Py). destruct (IH y) as (xs & z & Hw & Hl & Hp & Hz).
    exists (x :: xs), z. split; [by econstructor|]. split; [cbn; lia|]. split.
    - rewrite fmap_cons, Hp. rewrite (seqZ_cons 0 (Z.of_nat (S n))) by lia. rewrite fmap_cons. f_equal; [lia|].
      replace (Z.pred (Z.of_nat (S n))) with (Z.of_nat n) by lia.
      change (Z.succ 0) with (1 + 0). rewrite <-(fmap_add_seqZ 1 0 (Z.of_nat n)), <-list_fmap_compose.
      apply list_fmap_ext. intros ? i _. cbn. lia.
    - lia.
  Qed.

  Theorem C87_even_steps r :
    let d := pos (g_high r) - pos (g_low r) in
    (0 <= d /\ (step | d) ->
       exists xs, gives X r xs /\
         pos <$> xs = (fun i => pos (g_low r) + i * step) <$> seqZ 0 (d / step) /\
         (forall x, g_contains X r x = true /\ (step | pos x - pos (g_low r)) <-> pos x ∈ pos <$> xs)) /\
    (~ (0 <= d /\ (step | d)) -> unending X r).
  Proof using Hs.
    cbn zeta. set (d := pos (g_high r) - pos (g_low r)).
    pose proof Hs as (H0 & Heq & Hlt & Hle & Hi). split.
    - intros (Hd & k & Hk).
      assert (0 <= k) by nia. assert (d / step = k) as -> by (rewrite Hk; apply Z.div_mul; lia).
      destruct (steps_walk (Z.to_nat k) (g_low r)) as (xs & z & Hw & Hl & Hp & Hz).
      rewrite Z2Nat.id in Hp, Hz by lia.
      assert (forall p, p ∈ pos <$> xs -> exists i, 0 <= i < k /\ p = pos (g_low r) + i * step) as Hin.
      { intros p Hin. rewrite Hp in Hin. apply elem_of_list_fmap in Hin as (i & -> & Hi2).
        apply elem_of_seqZ in Hi2. exists i. split; [lia|done]. }
      exists xs. split; [|split; [done|]].
      + apply (gives_intro _ _ z Hw).
        * apply Forall_forall. intros x Hx. rewrite Heq. apply Z.eqb_neq.
          destruct (Hin (pos x)) as (i & ? & ->); [by apply elem_of_list_fmap_1|]. subst d. nia.
        * rewrite Heq. apply Z.eqb_eq. subst d. lia.
      + intros x. unfold g_contains. rewrite Hle, Hlt, andb_true_iff, Z.leb_le, Z.ltb_lt. split.
        * intros ((Ha & Hb) & i & Hx). rewrite Hp. apply elem_of_list_fmap. exists i.
          split; [lia|]. apply elem_of_seqZ. subst d. nia.
        * intros Hx. destruct (Hin _ Hx) as (i & ? & ->). split; [subst d; nia|].
          exists i. lia.
    - intros Hn. apply (unending_intro (fun x => (step | pos x - pos (g_low r)) /\ pos (g_low r) <= pos x)).
      { split; [exists 0; lia|lia]. }
      intros x ((i & Hx) & Hge). split.
      + rewrite Heq. apply Z.eqb_neq. intros E. apply Hn. subst d. split; [lia|]. exists i. lia.
      + destruct (Hi x) as (y & Ey & Py). exists y. split; [done|]. split; [exists (i + 1); lia|lia].
  Qed.
  Theorem C87_ends_iff r :
    ends X r <-> pos (g_low r) <= pos (g_high r) /\ (step | pos (g_high r) - pos (g_low r)).
  Proof using Hs.
    destruct (C87_even_steps r) as [H1 H2]. cbn zeta in *. split.
    - intros He. destruct (decide (pos (g_low r) <= pos (g_high r))) as [Hle|Hle].
      + destruct (Znumtheory.Zdivide_dec step (pos (g_high r) - pos (g_low r))) as [Hd|Hd]; [done|].
        exfalso. apply (unending_not_ends r); [|done]. apply H2. tauto.
      + exfalso. apply (unending_not_ends r); [|done]. apply H2. lia.
    - intros [Hle Hd]. destruct H1 as (xs & Hg & _); [split; [lia|done]|]. by eapply gives_ends.
  Qed.
  (** [is_empty] foretells [next] in a range that ends, and fails to in every other
      one sooner or later. *)
  Theorem C87_is_empty r :
    (ends X r -> forall n outs r', nexts X n r = Ok (outs, r') ->
       (g_is_empty X r' = true <-> exists r'', g_next X r' = Ok (None, r''))) /\
    (~ ends X r -> exists n, forall m outs r', (n <= m)%nat -> nexts X m r = Ok (outs, r') ->
       g_is_empty X r' = true /\ exists x r'', g_next X r' = Ok (Some x, r'')).
  Proof using Hs.
    pose proof Hs as (H0 & Heq & Hlt & Hle & Hi).
    assert (forall x xs z, walk X x xs z -> pos z = pos x + Z.of_nat (length xs) * step) as Hpos.
    { intros x xs z HW. induction HW as [|x y ys z E HW IH]; [cbn; lia|].
      destruct (Hi x) as (y' & E' & Py). rewrite E in E'. injection E' as <-. cbn [length]. lia. }
    assert (forall r', (exists r'', g_next X r' = Ok (None, r'')) <-> pos (g_low r') = pos (g_high r')) as Hnone.
    { intros r'. unfold g_next, cur, bind. cbn. rewrite Heq.
      destruct (Z.eqb_spec (pos (g_low r')) (pos (g_high r'))); cbn; [split; [done|]; intros; by eexists|].
      unfold up. destruct (Hi (g_low r')) as (y & -> & _). cbn. split; [|done]. intros (? & ?). done. }
    split.
    - intros He n outs r' H. rewrite Hnone. apply C87_ends_iff in He as (Hl & k & Hk).
      apply C87_walk in H as (xs & Hn & _ & Hw & Hh & Hf & _).
      unfold g_is_empty. rewrite Hlt, negb_true_iff, Z.ltb_ge, Hh. split; [|lia]. intros Hge.
      apply Z.le_antisymm; [|done]. apply Z.nlt_ge. intros Hgt.
      pose proof (Hpos _ _ _ Hw) as Hp.
      assert (0 <= k < Z.of_nat (length xs)) as Hkl by nia.
      (* the walk would have come past the end *)
      destruct (lookup_lt_is_Some_2 xs (Z.to_nat k)) as (y & Hy); [lia|].
      rewrite Forall_lookup in Hf. pose proof (Hf _ _ Hy) as Hne. rewrite Heq, Z.eqb_neq in Hne. apply Hne.
      assert (forall x xs z, walk X x xs z -> forall i y, xs !! i = Some y -> pos y = pos x + Z.of_nat i * step) as Hat.
      { clear -Hi. intros x xs z HW. induction HW as [|x y ys z E HW IH]; [done|]. intros [|i] w Hw.
        - injection Hw as <-. lia.
        - destruct (Hi x) as (y' & E' & Py). rewrite E in E'. injection E' as <-. apply IH in Hw. lia. }
      rewrite (Hat _ _ _ Hw _ _ Hy), Z2Nat.id by lia. lia.
    - intros Hn. destruct (C87_even_steps r) as [_ Hu]. cbn zeta in Hu.
      assert (unending X r) as Hun.
      { apply Hu. intros [Ha Hb]. apply Hn, C87_ends_iff. split; [lia|done]. }
      exists (Z.to_nat (pos (g_high r) - pos (g_low r))). intros m outs r' Hm H.
      destruct (Hun m) as (ys & r2 & H2 & Hl2). rewrite H in H2. injection H2 as -> <-.
      apply C87_walk in H as (xs & Hl & E & Hw & Hh & Hf & He).
      assert (length xs = m) as Hlm.
      { destruct (decide (length xs < m)%nat) as [Hlt'|]; [|lia].
        assert (GItem None ∈ (fun x : I => GItem (Some x)) <$> ys) as Hin.
        { rewrite E. apply elem_of_app. right. apply elem_of_replicate. split; [done|lia]. }
        apply elem_of_list_fmap in Hin as (? & ? & _). done. }
      pose proof (Hpos _ _ _ Hw) as Hp. split.
      + unfold g_is_empty. rewrite Hlt, negb_true_iff, Z.ltb_ge, Hh, Hp, Hlm. nia.
      + assert (o_eq X (g_low r') (g_high r') = false) as Hne.
        { rewrite Heq. apply Z.eqb_neq. intros Heq'. apply Hn. apply C87_ends_iff.
          rewrite Hh in Heq'. rewrite Hp in Heq'. split; [nia|]. exists (Z.of_nat (length xs)). lia. }
        destruct (Hi (g_low r')) as (y & Ey & _). exists (g_low r'), (GRange y (g_high r')).
        unfold g_next, cur, bind. cbn. rewrite Hne. cbn. unfold up. by rewrite Ey.
  Qed.
End Gen.

(** *** Rounding *)
Definition ulp (a : Z) : Z := 2 ^ (Z.log2 a - 52).
Lemma ulp_pos a : 2 ^ 53 <= a -> 0 < ulp a.
Proof.
  intros H. apply Z.pow_pos_nonneg; [lia|].
  assert (53 <= Z.log2 a) by (apply Z.log2_le_pow2; lia). lia.
Qed.
Lemma ulp_bounds a : 2 ^ 53 <= a -> 2 ^ 52 * ulp a <= a < 2 ^ 53 * ulp a.
Proof.
  intros H. assert (53 <= Z.log2 a) by (apply Z.log2_le_pow2; lia). unfold ulp.
  rewrite <-!Z.pow_add_r by lia. replace (52 + (Z.log2 a - 52)) with (Z.log2 a) by lia.
  replace (53 + (Z.log2 a - 52)) with (Z.succ (Z.log2 a)) by lia. apply Z.log2_spec. lia.
Qed.
(** [fl] away from zero: a multiple of the unit in the last place, next to [z]. *)
Lemma fl_large z : 2 ^ 53 <= Z.abs z ->
  exists q', fl z = Z.sgn z * (q' * ulp (Z.abs z)) /\
    Z.abs z / ulp (Z.abs z) <= q' <= Z.abs z / ulp (Z.abs z) + 1 /\
    (Z.abs z mod ulp (Z.abs z) = 0 -> q' = Z.abs z / ulp (Z.abs z)).
Proof.
  intros H. pose proof (ulp_pos _ H) as Hu. unfold fl.
  destruct (Z.ltb_spec (Z.abs z) (2 ^ 53)); [lia|]. cbv zeta. fold (ulp (Z.abs z)).
  set (a := Z.abs z) in *. set (u := ulp a) in *.
  destruct (Z.ltb_spec (2 * (a mod u)) u); [|destruct (Z.ltb_spec u (2 * (a mod u))); [|destruct (Z.even (a / u))]];
    eexists; (split; [reflexivity|]); split; lia.
Qed.
Lemma fl_small z : Z.abs z < 2 ^ 53 -> fl z = z.
Proof. intros H. unfold fl. destruct (Z.ltb_spec (Z.abs z) (2 ^ 53)); [done|lia]. Qed.
Lemma fl_exact z : 2 ^ 53 <= Z.abs z -> (ulp (Z.abs z) | Z.abs z) -> fl z = z.
Proof.
  intros H (q & Hq). pose proof (ulp_pos _ H) as Hu.
  destruct (fl_large z H) as (q' & -> & _ & Hm).
  assert (Z.abs z mod ulp (Z.abs z) = 0) as E by (rewrite Hq at 1; apply Z.mod_mul; lia).
  rewrite (Hm E). assert (Z.abs z / ulp (Z.abs z) * ulp (Z.abs z) = Z.abs z) as ->.
  { pose proof (Z.div_mod (Z.abs z) (ulp (Z.abs z))). lia. }
  rewrite Z.mul_comm. apply Z.abs_sgn.
Qed.
Lemma fl_exact_inv z : 2 ^ 53 <= Z.abs z -> fl z = z -> (ulp (Z.abs z) | Z.abs z).
Proof.
  intros H E. destruct (fl_large z H) as (q' & E' & _ & _). rewrite E in E'.
  exists q'. pose proof (ulp_pos _ H). destruct (Z.sgn_spec z) as [[? Es]|[[? Es]|[? Es]]]; rewrite Es in E'; try lia.
Qed.
Lemma ulp_mono a b : a <= b -> (ulp a | ulp b) \/ Z.log2 a < 52.
Proof.
  intros H. pose proof (Z.log2_le_mono a b H). destruct (decide (Z.log2 a < 52)); [by right|left].
  unfold ulp. exists (2 ^ (Z.log2 b - Z.log2 a)). rewrite <-Z.pow_add_r by lia. f_equal. lia.
Qed.
(** Rounding does not cross a value that needs no rounding. *)
Lemma fl_ge x y : fl x = x -> x <= y -> x <= fl y.
Proof.
  intros Hx Hxy. destruct (decide (Z.abs y < 2 ^ 53)) as [Hs|Hs]; [by rewrite fl_small by done|].
  assert (2 ^ 53 <= Z.abs y) as Hy by lia. clear Hs.
  pose proof (ulp_pos _ Hy) as Hu. pose proof (ulp_bounds _ Hy) as Hb.
  destruct (fl_large y Hy) as (q' & -> & Hq & Hm).
  set (u := ulp (Z.abs y)) in *.
  pose proof (Z.div_mod (Z.abs y) u ltac:(lia)) as Hdm. pose proof (Z.mod_pos_bound (Z.abs y) u Hu) as Hmb.
  set (q := Z.abs y / u) in *. set (m := Z.abs y mod u) in *.
  destruct (decide (0 < y)) as [Hp|Hp].
  - rewrite Z.sgn_pos by done. rewrite Z.mul_1_l.
    assert (x <= q * u); [|nia].
    destruct (decide (x < 2 ^ 52 * u)) as [Hlt|Hge].
    { assert (2 ^ 52 <= q); [|nia]. apply Z.div_le_lower_bound; lia. }
    assert (2 ^ 53 <= Z.abs x) as Hax.
    { destruct (decide (u = 1)) as [->|]; [|lia].
      assert (2 ^ 53 <= 2 ^ 52 * 1 \/ Z.abs y < 2 ^ 53 * 1) by lia. lia. }
    pose proof (fl_exact_inv x Hax Hx) as Hd.
    assert (ulp (Z.abs x) = u) as Eu.
    { unfold u, ulp. f_equal. f_equal. apply Z.le_antisymm; [apply Z.log2_le_mono; lia|].
      assert (2 ^ Z.log2 (Z.abs y) <= Z.abs x) as Hl; [|].
      { replace (2 ^ Z.log2 (Z.abs y)) with (2 ^ 52 * u); [lia|]. unfold u, ulp.
        assert (53 <= Z.log2 (Z.abs y)) by (apply Z.log2_le_pow2; lia).
        rewrite <-Z.pow_add_r by lia. f_equal. lia. }
      apply Z.log2_le_mono in Hl. rewrite Z.log2_pow2 in Hl; [done|apply Z.log2_nonneg]. }
    rewrite Eu in Hd. destruct Hd as (k & Hk). assert (k <= q); [|nia].
    assert (k * u <= q * u + m) by lia. nia.
  - rewrite Z.sgn_neg by lia.
    assert (q' * u <= Z.abs x); [|lia].
    destruct (decide (m = 0)) as [E0|]; [rewrite (Hm E0); nia|].
    assert ((q + 1) * u <= Z.abs x); [|nia].
    assert (2 ^ 53 <= Z.abs x) as Hax by lia.
    pose proof (fl_exact_inv x Hax Hx) as Hd.
    destruct (ulp_mono (Z.abs y) (Z.abs x)) as [Hdu|Hdu]; [lia| |].
    + assert ((u | Z.abs x)) as (k & Hk) by (etrans; [exact Hdu|exact Hd]).
      assert (q < k); [|nia]. assert (q * u + m <= k * u) by lia. nia.
    + assert (53 <= Z.log2 (Z.abs y)) by (apply Z.log2_le_pow2; lia). lia.
Qed.

(** Whole numbers up to 2^53 are exact. *)
Lemma fl_whole k : Z.abs k <= 2 ^ 53 -> fl (k * one) = k * one.
Proof.
  intros Hk. destruct (decide (Z.abs (k * one) < 2 ^ 53)); [by apply fl_small|].
  apply fl_exact; [lia|].
  destruct (decide (k = 0)) as [->|]; [by exists 0|].
  rewrite Z.abs_mul. change (Z.abs one) with (2 ^ 1074). unfold ulp.
  rewrite Z.log2_mul_pow2 by lia. set (l := Z.log2 (Z.abs k)).
  pose proof (Z.log2_nonneg (Z.abs k)).
  pose proof (Z.log2_le_mono _ _ Hk) as Hl. rewrite (Z.log2_pow2 53) in Hl by lia. fold l in Hl, H.
  destruct (decide (l = 53)) as [E|E].
  - assert (Z.abs k = 2 ^ 53) as ->.
    { pose proof (Z.log2_spec (Z.abs k)) as Hs. fold l in Hs. rewrite E in Hs. lia. }
    exists (2 ^ 52). rewrite <-!Z.pow_add_r by lia. f_equal. lia.
  - exists (Z.abs k * 2 ^ (52 - l)). rewrite <-Z.mul_assoc, <-Z.pow_add_r by lia. do 2 f_equal. lia.
Qed.
Lemma fin_ok z : Z.abs z < 2 ^ 1024 * one -> fin z = DFin z.
Proof. intros H. unfold fin. destruct (Z.leb_spec (2 ^ 1024 * one) (Z.abs z)); [lia|done]. Qed.
Lemma one_pos : 0 < one.
Proof. done. Qed.
Lemma whole_small k : Z.abs k <= 2 ^ 53 -> Z.abs (k * one) < 2 ^ 1024 * one.
Proof.
  intros H. pose proof one_pos. rewrite Z.abs_mul, (Z.abs_eq one) by lia.
  apply Z.mul_lt_mono_pos_r; [done|]. assert (2 ^ 53 < 2 ^ 1024) by (apply Z.pow_lt_mono_r; lia). lia.
Qed.
Lemma d_of_is_dbl k : Z.abs k <= 2 ^ 53 -> is_dbl (d_of k).
Proof. intros H. split; [by apply fl_whole|by apply whole_small]. Qed.
(** [++] on a whole number: exact below 2^53, and 2^53 + 1 rounds back. *)
Lemma d_inc_whole k : Z.abs k <= 2 ^ 53 -> d_add (d_of k) one = d_of (Z.min (k + 1) (2 ^ 53)).
Proof.
  intros H. unfold d_add, d_of at 1. replace (k * one + one) with ((k + 1) * one) by lia.
  destruct (decide (k = 2 ^ 53)) as [->|].
  - rewrite Z.min_r by lia. vm_compute. done.
  - rewrite Z.min_l, fl_whole, fin_ok by (try apply whole_small; lia). done.
Qed.
(** [++] never goes down. *)
Lemma d_inc_up x y : is_dbl x -> d_lt y x = true -> d_lt y (d_add x one) = true.
Proof.
  intros Hx Hy. destruct x as [z|n|]; [|done|done]. destruct Hx as [Hf Hm].
  assert (z <= fl (z + one)) as Hge by (apply fl_ge; [done|pose proof one_pos; lia]).
  unfold d_add, fin. destruct (Z.leb_spec (2 ^ 1024 * one) (Z.abs (fl (z + one)))).
  - assert (fl (z + one) <? 0 = false) as ->; [|by destruct y as [|[]|]]. apply Z.ltb_ge. lia.
  - destruct y as [w|[]|]; cbn in *; [|done..]. apply Z.ltb_lt in Hy. apply Z.ltb_lt. lia.
Qed.
(** Rounding gives a double. *)
Lemma fl_fl z : fl (fl z) = fl z.
Proof.
  destruct (decide (Z.abs z < 2 ^ 53)) as [Hs|Hs]; [by rewrite !(fl_small z) by done|].
  assert (2 ^ 53 <= Z.abs z) as H by lia. clear Hs.
  pose proof (ulp_pos _ H) as Hu. pose proof (ulp_bounds _ H) as Hb.
  assert (53 <= Z.log2 (Z.abs z)) as Hl by (apply Z.log2_le_pow2; lia).
  destruct (fl_large z H) as (q' & E & Hq & _). set (u := ulp (Z.abs z)) in *.
  assert (2 ^ 52 <= Z.abs z / u < 2 ^ 53) as Hq2.
  { split; [apply Z.div_le_lower_bound; lia|apply Z.div_lt_upper_bound; lia]. }
  assert (Z.abs (fl z) = q' * u) as Ea.
  { rewrite E, Z.abs_mul. destruct (Z.sgn_spec z) as [[? ->]|[[? ->]|[? ->]]]; nia. }
  assert (2 <= u) as Hu2.
  { unfold u, ulp. assert (2 ^ 1 <= 2 ^ (Z.log2 (Z.abs z) - 52)); [apply Z.pow_le_mono_r; lia|lia]. }
  apply fl_exact; rewrite Ea; [nia|].
  destruct (decide (q' = 2 ^ 53)) as [->|Hne].
  - unfold u, ulp at 2. exists (2 ^ 52). unfold ulp.
    rewrite <-Z.pow_add_r by lia. rewrite Z.log2_pow2 by lia. rewrite <-Z.pow_add_r by lia. f_equal. lia.
  - exists q'. f_equal. unfold u at 1. unfold ulp. f_equal. f_equal.
    symmetry. apply Z.log2_unique; [lia|]. unfold u, ulp.
    assert (2 ^ Z.log2 (Z.abs z) = 2 ^ 52 * u) as ->.
    { unfold u, ulp. rewrite <-Z.pow_add_r by lia. f_equal. lia. }
    rewrite Z.pow_succ_r by lia.
    assert (2 ^ Z.log2 (Z.abs z) = 2 ^ 52 * u) as ->.
    { unfold u, ulp. rewrite <-Z.pow_add_r by lia. f_equal. lia. }
    fold (ulp (Z.abs z)). fold u. nia.
Qed.
Lemma d_add_is_dbl x k : is_dbl x -> is_dbl (d_add x k).
Proof.
  intros Hx. destruct x as [z|n|]; [|done|done]. unfold d_add, fin.
  destruct (Z.leb_spec (2 ^ 1024 * one) (Z.abs (fl (z + k)))); [done|]. split; [apply fl_fl|done].
Qed.
Lemma d_lt_ne x y : d_lt y x = true -> d_eq x y = false.
Proof.
  destruct x as [a|[]|], y as [b|[]|]; cbn; try done. intros H%Z.ltb_lt. apply Z.eqb_neq. lia.
Qed.
Lemma d_lt_irr x : d_lt x x = false.
Proof. destruct x as [a|[]|]; cbn; try done. apply Z.ltb_irrefl. Qed.

(** *** C87 for double *)
Theorem C87_double_exact z n :
  (forall i, 0 <= i <= Z.of_nat n -> is_dbl (DFin (z + i * one))) ->
  gives dbl_ops (GRange (DFin z) (DFin (z + Z.of_nat n * one)))
    ((fun i => DFin (z + i * one)) <$> seqZ 0 (Z.of_nat n)).
Proof.
  intros H. pose proof one_pos as H1.
  assert (forall m j, 0 <= j -> j + Z.of_nat m <= Z.of_nat n ->
    walk dbl_ops (DFin (z + j * one)) ((fun i => DFin (z + i * one)) <$> seqZ j (Z.of_nat m))
      (DFin (z + (j + Z.of_nat m) * one))) as Hw.
  { intros m. induction m as [|m IH]; intros j Hj Hm.
    { change (Z.of_nat 0) with 0. rewrite seqZ_nil, Z.add_0_r by lia. constructor. }
    rewrite seqZ_cons by lia. rewrite fmap_cons. econstructor.
    - cbn. replace (z + j * one + one) with (z + Z.succ j * one) by lia.
      destruct (H (Z.succ j)) as [-> Hb]; [lia|]. by rewrite fin_ok.
    - replace (Z.pred (Z.of_nat (S m))) with (Z.of_nat m) by lia.
      replace (j + Z.of_nat (S m)) with (Z.succ j + Z.of_nat m) by lia. apply IH; lia. }
  eapply gives_intro.
  - pose proof (Hw n 0 ltac:(lia) ltac:(lia)) as Hw0. rewrite Z.mul_0_l, Z.add_0_r, Z.add_0_l in Hw0. exact Hw0.
  - apply Forall_forall. intros x (i & -> & Hi)%elem_of_list_fmap. apply elem_of_seqZ in Hi.
    cbn. apply Z.eqb_neq. nia.
  - cbn. apply Z.eqb_refl.
Qed.

Theorem C87_double_whole k j : - 2 ^ 53 <= k <= j -> j <= 2 ^ 53 ->
  gives dbl_ops (GRange (d_of k) (d_of j)) (d_of <$> seqZ k (j - k)).
Proof.
  intros Hk Hj. pose proof (C87_double_exact (k * one) (Z.to_nat (j - k))) as H.
  rewrite Z2Nat.id in H by lia. unfold d_of at 1 2.
  replace (j * one) with (k * one + (j - k) * one) by lia.
  replace (d_of <$> seqZ k (j - k)) with ((fun i => DFin (k * one + i * one)) <$> seqZ 0 (j - k)).
  - apply H. intros i Hi. replace (k * one + i * one) with ((k + i) * one) by lia. apply d_of_is_dbl. lia.
  - replace k with (k + 0) at 2 by lia. rewrite <-fmap_add_seqZ, <-list_fmap_compose.
    apply list_fmap_ext. intros ? i _. cbn. unfold d_of. f_equal. lia.
Qed.

(** Starting from a whole number, it comes to an end exactly when the other end is
    a whole number, not below, and at most 2^53. *)
Theorem C87_double_ends_iff k high : Z.abs k <= 2 ^ 53 ->
  (ends dbl_ops (GRange (d_of k) high) <-> exists j, high = d_of j /\ k <= j <= 2 ^ 53) /\
  (~ ends dbl_ops (GRange (d_of k) high) -> unending dbl_ops (GRange (d_of k) high)).
Proof.
  intros Hk. pose proof one_pos as H1.
  assert (forall P : Prop, Decision P -> (P -> ends dbl_ops (GRange (d_of k) high)) ->
    (~ P -> unending dbl_ops (GRange (d_of k) high)) ->
    (ends dbl_ops (GRange (d_of k) high) <-> P) /\
    (~ ends dbl_ops (GRange (d_of k) high) -> unending dbl_ops (GRange (d_of k) high))) as Hcase.
  { intros P [HP|HP] Ha Hb; [tauto|]. split; [|tauto]. split; [|tauto].
    intros He. exfalso. eapply unending_not_ends; [|exact He]. by apply Hb. }
  apply Hcase.
  - destruct high as [z|n|]; [|right; intros (j & ? & _); done..].
    destruct (decide (z mod one = 0 /\ k <= z / one <= 2 ^ 53)) as [[Ha Hb]|Hn].
    + left. exists (z / one). split; [|done]. unfold d_of. f_equal.
      pose proof (Z.div_mod z one). lia.
    + right. intros (j & [= ->] & Hj). apply Hn. rewrite Z.mod_mul, Z.div_mul by lia. done.
  - intros (j & -> & Hj). eapply gives_ends. apply C87_double_whole; lia.
  - intros Hn. apply (unending_intro _ (fun x => exists i, x = d_of i /\ k <= i <= 2 ^ 53)).
    { exists k. split; [done|lia]. }
    intros x (i & -> & Hi). split.
    + cbn. destruct high as [z|n|]; cbn; [|done..]. apply Z.eqb_neq. intros <-. apply Hn. by exists i.
    + eexists. split; [reflexivity|]. rewrite d_inc_whole by lia. eexists. split; [reflexivity|]. lia.
Qed.

(** Past its other end a range runs for ever, and says it is empty all the time. *)
Theorem C87_double_past low high : is_dbl low -> d_lt high low = true ->
  unending dbl_ops (GRange low high) /\
  forall n outs r, nexts dbl_ops n (GRange low high) = Ok (outs, r) -> g_is_empty dbl_ops r = true.
Proof.
  intros Hd Hl. split.
  - apply (unending_intro _ (fun x => is_dbl x /\ d_lt high x = true)); [done|]. cbn.
    intros x [Hx Hlt]. split; [by apply d_lt_ne|]. eexists. split; [reflexivity|].
    split; [by apply d_add_is_dbl|by apply d_inc_up].
  - intros n outs r H. apply C87_walk in H as (xs & _ & _ & Hw & Hh & _). cbn in Hw, Hh.
    assert (forall x ys y, walk dbl_ops x ys y -> is_dbl x -> d_lt high x = true -> d_lt high y = true) as Hup.
    { intros x ys y HW. induction HW as [|x y ys z Hi HW IH]; [done|]. cbn in Hi. injection Hi as <-.
      intros. apply IH; [by apply d_add_is_dbl|by apply d_inc_up]. }
    pose proof (Hup _ _ _ Hw Hd Hl) as Hr. unfold g_is_empty. rewrite Hh. cbn.
    destruct (g_low r) as [a|[]|], high as [b|[]|]; cbn in *; try done.
    apply Z.ltb_lt in Hr. apply negb_true_iff, Z.ltb_ge. lia.
Qed.

(** [contains] and [is_empty] follow the order of the extended real line:
    [before x y] is that some number [z * 2^-1074] is less than [y] and not
    less than [x]. *)
Definition less_than (z : Z) (x : dbl) : Prop :=
  match x with DFin a => z < a | DInf neg => neg = false | DNaN => False end.
Definition before (x y : dbl) : Prop := x <> DNaN /\ y <> DNaN /\ exists z, less_than z y /\ ~ less_than z x.
Lemma d_lt_before x y : d_lt x y = true <-> before x y.
Proof.
  unfold before. destruct x as [a|n|], y as [b|m|]; cbn.
  - split; [intros; split_and!; [done|done|exists a; lia]|intros (_ & _ & z & ?); lia].
  - destruct m; cbn; (split; [intros|intros (_ & _ & z & ? & ?)]; try done). split_and!; [done|done|exists a; split; [done|lia]].
  - by split; [|intros (_ & ? & _)].
  - destruct n; cbn; (split; [intros|intros (_ & _ & z & ? & ?)]; try done). split_and!; [done|done|exists (b - 1); split; [lia|done]].
  - destruct n, m; cbn; (split; [intros|intros (_ & _ & z & ? & ?)]; try done). split_and!; [done|done|by exists 0].
  - by split; [|intros (_ & ? & _)].
  - by split; [|intros (? & _)].
  - by split; [|intros (? & _)].
  - by split; [|intros (? & _)].
Qed.
Lemma d_le_before x y : x <> DNaN -> y <> DNaN -> d_le x y = true <-> ~ before y x.
Proof.
  intros Hx Hy. rewrite <-d_lt_before, not_true_iff_false. unfold d_le. destruct x as [a|[]|], y as [b|[]|]; cbn; try done; lia.
Qed.
Theorem C87_double_order low high x :
  (g_is_empty dbl_ops (GRange low high) = false <-> before low high) /\
  (g_contains dbl_ops (GRange low high) x = true <-> low <> DNaN /\ ~ before x low /\ before x high).
Proof.
  unfold g_is_empty, g_contains. cbn. rewrite negb_false_iff, d_lt_before, andb_true_iff, d_lt_before. split; [done|]. split.
  - intros [H1 H2]. assert (Hx : x <> DNaN) by apply H2. assert (Hl : low <> DNaN) by (by intros ->).
    split; [done|]. split; [|done]. by apply d_le_before.
  - intros (Hl & H1 & H2). split; [|done]. apply d_le_before; [done|apply H2|done].
Qed.
Example C87_order_ex : g_is_empty dbl_ops (GRange (DInf true) (d_of 0)) = false /\
  g_contains dbl_ops (GRange (DInf true) (DInf false)) (d_of 5) = true /\
  g_contains dbl_ops (GRange (DInf true) (DInf false)) (DInf false) = false.
Proof. done. Qed.

(** A NaN at either end: nothing is contained, it is empty, and it has no end. *)
Theorem C87_double_nan low high : low = DNaN \/ high = DNaN ->
  unending dbl_ops (GRange low high) /\
  g_is_empty dbl_ops (GRange low high) = true /\
  (forall x, g_contains dbl_ops (GRange low high) x = false) /\
  g_same dbl_ops (GRange low high) (GRange low high) = false.
Proof.
  intros H. split; [|split; [|split]].
  - apply (unending_intro _ (fun x => x = DNaN \/ high = DNaN)); [done|]. cbn.
    intros x [->| ->]; (split; [by try destruct x|]); eexists; (split; [reflexivity|]); [by left|by right].
  - unfold g_is_empty. cbn. destruct H as [->| ->]; [done|]. by destruct low as [|[]|].
  - intros x. unfold g_contains. cbn. destruct H as [->| ->]; [done|]. destruct x as [|[]|]; cbn; apply andb_false_r.
  - unfold g_same. cbn. destruct H as [->| ->]; [done|]. apply andb_false_r.
Qed.

(** Where adding one changes nothing, the same value comes out every time. *)
Theorem C87_double_stuck low high n : d_add low one = low -> d_eq low high = false ->
  nexts dbl_ops n (GRange low high) = Ok (replicate n (GItem (Some low)), GRange low high).
Proof.
  intros Ha He. induction n as [|n IH]; [done|].
  rewrite (nexts_go _ _ _ low); [cbn; by rewrite IH|done|cbn; by rewrite Ha].
Qed.

(** The claim: going through a range of finite doubles with low <= high gives
    exactly the values low, low + 1, ... below high. *)
Definition double_range_claim : Prop :=
  forall a b, is_dbl (DFin a) -> is_dbl (DFin b) -> a <= b -> ends dbl_ops (GRange (DFin a) (DFin b)).
(** 0.14 and 1.14, the doubles nearest to these decimals. *)
Definition d_014 : Z := 0x11eb851eb851ec * 2 ^ (1074 - 55).
Definition d_114 : Z := 0x123d70a3d70a3d * 2 ^ (1074 - 52).
Theorem C87_refuted :
  ~ double_range_claim /\
  (* 0 to 2.5 *)
  unending dbl_ops (GRange (d_of 0) (DFin (5 * (one / 2)))) /\
  (* 0.14 to 1.14 *)
  unending dbl_ops (GRange (DFin d_014) (DFin d_114)) /\
  (* 2^53 to 2^53 + 2: the first value over and over *)
  (forall n, nexts dbl_ops n (GRange (d_of (2 ^ 53)) (d_of (2 ^ 53 + 2))) =
     Ok (replicate n (GItem (Some (d_of (2 ^ 53)))), GRange (d_of (2 ^ 53)) (d_of (2 ^ 53 + 2)))).
Proof.
  assert (unending dbl_ops (GRange (d_of 0) (DFin (5 * (one / 2))))) as Hu.
  { destruct (C87_double_ends_iff 0 (DFin (5 * (one / 2)))) as [Hi Hu]; [done|].
    apply Hu. rewrite Hi. intros (j & E & Hj). unfold d_of in E.
    assert (5 * (one / 2) = j * one) as E' by congruence. clear E.
    assert (one = 2 * (one / 2)) as E2 by (vm_compute; done).
    pose proof one_pos. set (h := one / 2) in *. clearbody h.
    assert (5 = j * 2); [|lia]. apply (Z.mul_reg_r _ _ h); lia. }
  split; [|split; [done|split]].
  - intros H. eapply unending_not_ends; [exact Hu|]. apply H.
    + vm_compute. done.
    + vm_compute. done.
    + vm_compute. done.
  - (* the second step lands above *)
    pose (low := DFin d_014). pose (high := DFin d_114).
    assert (unending dbl_ops (GRange (d_add low one) high)) as Hp.
    { apply C87_double_past; [apply d_add_is_dbl; vm_compute; done|vm_compute; done]. }
    intros [|n].
    + exists [], (GRange low high). done.
    + destruct (Hp n) as (xs & r' & E & Hl). exists (low :: xs), r'.
      rewrite (nexts_go _ _ _ (d_add low one)); [|vm_compute; done|done].
      cbn [g_low g_high]. fold high. rewrite E. cbn. by rewrite Hl.
  - intros n. apply C87_double_stuck; vm_compute; done.
Qed.

(** *** Concrete cases *)
(** Money in cents, whose [++] adds one unit of a hundred. *)
Definition cents : idx_ops Z :=
  IdxOps Z Z.eqb Z.ltb Z.leb (fun x => Ok (x + 100)) (fun x => Ok (x - 100)).
Example C87_cents : even_steps cents (fun x => x) 100.
Proof. split; [lia|]. do 3 (split; [done|]). intros x. by eexists. Qed.
Example C87_even_steps_ex :
  ends cents (GRange 50 350) /\ ~ ends cents (GRange 50 300) /\
  (exists r, nexts cents 4 (GRange 50 350) = Ok ([GItem (Some 50); GItem (Some 150); GItem (Some 250); GItem None], r)) /\
  (exists r, nexts cents 4 (GRange 50 300) = Ok ([GItem (Some 50); GItem (Some 150); GItem (Some 250); GItem (Some 350)], r) /\
     g_is_empty cents r = true).
Proof.
  split; [|split; [|split]].
  - apply (C87_ends_iff _ _ _ C87_cents). split; [cbn; lia|]. exists 3. done.
  - rewrite (C87_ends_iff _ _ _ C87_cents). intros [_ (k & E)]. cbn in E. lia.
  - eexists. vm_compute. done.
  - eexists. vm_compute. done.
Qed.
(** Two calls from below, one from above, a question, then both ends written. *)
Example C87_histories_ex :
  g_run cents [GNext; GPrev; GNext; GEmpty] (GRange 0 500) =
    Ok ([GItem (Some 0); GItem (Some 500); GItem (Some 100); GBool false], GRange 200 400) /\
  g_run cents [GNext; GSetLow 300; GSetHigh 300; GNext; GContains 300; GSame (GRange 300 300)] (GRange 0 500) =
    Ok ([GItem (Some 0); GUnit; GUnit; GItem None; GBool false; GBool true], GRange 300 300).
Proof. done. Qed.
Example C87_double_ex :
  (exists r, nexts dbl_ops 3 (GRange (d_of 7) (d_of 9)) = Ok ([GItem (Some (d_of 7)); GItem (Some (d_of 8)); GItem None], r)) /\
  (* 0.5 to 2.5: every value on the way is exact *)
  (exists r, nexts dbl_ops 3 (GRange (DFin (one / 2)) (DFin (5 * (one / 2)))) =
     Ok ([GItem (Some (DFin (one / 2))); GItem (Some (DFin (3 * (one / 2)))); GItem None], r)) /\
  is_dbl (d_of 3) /\ d_lt (d_of 1) (d_of 3) = true /\
  g_contains dbl_ops (GRange (d_of 0) (d_of 1)) (DFin d_014) = true /\
  (exists r, g_prev dbl_ops (GRange (d_of 0) (d_of 1)) = Ok (Some (d_of 1), r)).
Proof.
  split; [eexists; vm_compute; done|]. split; [eexists; vm_compute; done|].
  split; [vm_compute; done|]. split; [vm_compute; done|]. split; [vm_compute; done|]. eexists. vm_compute. done.
Qed.
Example C87_rounding_ex :
  (* 2^53 + 1 is a tie and goes to 2^53; 2^53 + 3 is one too and goes to 2^53 + 4 *)
  d_add (d_of (2 ^ 53)) one = d_of (2 ^ 53) /\ d_add (d_of (2 ^ 53 + 2)) one = d_of (2 ^ 53 + 4) /\
  (* the largest double is left alone; the smallest positive one is swallowed *)
  d_add (DFin ((2 ^ 53 - 1) * 2 ^ 971 * one)) one = DFin ((2 ^ 53 - 1) * 2 ^ 971 * one) /\
  d_add (DFin 1) one = d_of 1.
Proof. by vm_compute. Qed.

Print Assumptions C87_walk.
Print Assumptions C87_prev_outside.
Print Assumptions C87_both_ends.
Print Assumptions C87_asked_written.
Print Assumptions C87_even_steps.
Print Assumptions C87_ends_iff.
Print Assumptions C87_is_empty.
Print Assumptions C87_double_exact.
Print Assumptions C87_double_whole.
Print Assumptions C87_double_ends_iff.
Print Assumptions C87_double_past.
Print Assumptions C87_double_order.
Print Assumptions C87_double_nan.
Print Assumptions C87_double_stuck.
Print Assumptions C87_refuted.
