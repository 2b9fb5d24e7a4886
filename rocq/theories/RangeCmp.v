(** * RangeCmp: comparing ranges and cursors, also of different integer types
      (include/mstl/ops/range.h, cmp.h, arithmetical.h)

    RangeModel covers what one Range does; here are [Range::contains] for an
    item of another type, [Range::operator==] between ranges of different index
    types, the order and equality of RangeCursors, and cursor arithmetic.  The
    C++ rules these rest on (integral promotion, usual arithmetic conversions,
    the ban on narrowing in [<=>]) are modelled for the integer types of
    [std_types]; [bool] and floating point are not. *)
From Verif Require Import Base Machine IterSpec RangeModel.
From Verif Require MatchModel.
Local Open Scope Z_scope.

(** The integer types (x86-64).  [iwrap] for the types narrower than [int]:
    their [++] computes in [int] and converts back, which is modular. *)
Definition i8 : ity := Ity (-128) 127 true.
Definition u8 : ity := Ity 0 255 true.
Definition i16 : ity := Ity (-32768) 32767 true.
Definition u16 : ity := Ity 0 65535 true.
Definition i32 : ity := int_t.
Definition u32 : ity := Ity 0 4294967295 true.
Definition i64 : ity := Ity (-9223372036854775808) 9223372036854775807 false.
Definition u64 : ity := usize_t.
Definition std_types : list ity := [i8; u8; i16; u16; i32; u32; i64; u64].

(** The values of a type of [bits] bits (two's complement). *)
Theorem C72_types :
  Forall (fun '(t, bits, sgn) => forall x, in_ity t x <->
      if (sgn : bool) then - 2 ^ (bits - 1) <= x < 2 ^ (bits - 1) else 0 <= x < 2 ^ bits)
    [(i8, 8, true); (u8, 8, false); (i16, 16, true); (u16, 16, false);
     (i32, 32, true); (u32, 32, false); (i64, 64, true); (u64, 64, false)].
Proof.
  repeat (apply Forall_cons; split; [intros x; unfold in_ity; simpl; lia|]). apply Forall_nil_2.
Qed.

(** [conv.prom]: a type all of whose values fit in [int] becomes [int]. *)
Definition fits (a c : ity) : bool := (imin c <=? imin a) && (imax a <=? imax c).
Definition promote (t : ity) : ity := if fits t int_t then int_t else t.
Definition is_signed (t : ity) : bool := imin t <? 0.
(** [expr.arith.conv]: the type two operands are converted to.  Rank is read off
      the largest value. *)
Definition common (a b : ity) : ity :=
  let a := promote a in let b := promote b in
  if Bool.eqb (is_signed a) (is_signed b) then if imax a <? imax b then b else a
  else
    let '(u, s) := if is_signed a then (b, a) else (a, b) in
    if imax s <=? imax u then u else s.
(** [conv.integral] to a common type. *)
Definition conv (t : ity) (x : Z) : Z := if is_signed t then x else x mod (imax t + 1).
(** Built-in [==], [<], [<=] on values of types [a] and [b]. *)
Definition op_eq (a b : ity) (x y : Z) : bool := conv (common a b) x =? conv (common a b) y.
Definition op_lt (a b : ity) (x y : Z) : bool := conv (common a b) x <? conv (common a b) y.
Definition op_le (a b : ity) (x y : Z) : bool := conv (common a b) x <=? conv (common a b) y.
(** [expr.spaceship]/4: [x <=> y] is ill-formed when a conversion to the common
      type is narrowing.  This decides PartialOrd, WeakOrd and StrongOrd
      (cmp.h:12-25) for integers; Eq (cmp.h:27-30) always holds. *)
Definition spaceship (a b : ity) : bool := fits a (common a b) && fits b (common a b).
Definition op_cmp (a b : ity) (x y : Z) : comparison := conv (common a b) x ?= conv (common a b) y.

(** range.h:103-107 [contains(U&& item)]; [None]: rejected by the constraint. *)
Definition contains_at (t u : ity) (r : range) (x : Z) : option bool :=
  if spaceship t u && spaceship u t then Some (op_le t u (r_low r) x && op_lt u t x (r_high r)) else None.
(** range.h:145-149 [operator==(const Range<U>&)]. *)
Definition range_eq (t u : ity) (r s : range) : bool :=
  op_eq t u (r_low r) (r_low s) && op_eq t u (r_high r) (r_high s).
(** range.h:59-85 [RangeCursor<Idx>] against [RangeCursor<I>]: for integers it is
      the StrongOrd versions that are chosen. *)
Definition cursor_cmp (t u : ity) (x y : Z) : option comparison :=
  if spaceship u t then Some (op_cmp t u x y) else None.
Definition cursor_eq (t u : ity) (x y : Z) : option bool :=
  if spaceship u t then Some (op_eq t u x y) else None.

(** ** Cursor programs: any number of cursors of one type *)
Inductive kop :=
| KNew (i : nat) (p : Z) | KCopy (i j : nat) | KAsg (i j : nat) | KDel (i : nat)
| KIncPre (i : nat) | KIncPost (i j : nat)   (* auto j = i++; *)
| KDecPre (i : nat) | KDecPost (i j : nat)
| KAdd (k i j : nat) | KSub (k i j : nat)    (* auto k = i + j; *)
| KGet (i : nat) | KEq (i j : nat) | KCmp (i j : nat).
Inductive kout := KU | KZ (z : Z) | KB (b : bool) | KC (c : comparison).

Section Cursor.
  Context (t : ity).
  Notation KM := (M (gmap nat Z)).
  (** Built-in [+] and [-]; only for types that are their own promotion, the
      others do not satisfy Add and Sub (arithmetical.h:19-27). *)
  Definition iarith (z : Z) : outcome Z :=
    if negb (fits t (promote t) && fits (promote t) t) then Err UB
    else if (imin t <=? z) && (z <=? imax t) then Ok z
    else if iwrap t then Ok (z mod (imax t + 1)) else Err UB.
  Definition kget (i : nat) : KM Z := fun w => match w !! i with Some p => Ok (p, w) | None => Err UB end.
  Definition kput (i : nat) (p : Z) : KM unit := fun w => Ok (tt, <[i := p]> w).
  Definition knew (i : nat) (p : Z) : KM unit :=
    fun w => match w !! i with None => Ok (tt, <[i := p]> w) | Some _ => Err UB end.

  Definition kstep (o : kop) : KM kout :=
    match o with
    (* range.h:17: the caller's value has type Idx *)
    | KNew i p => if (imin t <=? p) && (p <=? imax t) then knew i p ;;; ret KU else fail UB
    (* 19-22, and the implicit assignment *)
    | KCopy i j => p <-- kget j ;; knew i p ;;; ret KU
    | KAsg i j => _ <-- kget i ;; p <-- kget j ;; kput i p ;;; ret KU
    | KDel i => _ <-- kget i ;; (fun w => Ok (KU, delete i w))
    (* 24-33 *)
    | KIncPre i => p <-- kget i ;; p' <-- lift_o (iinc t p) ;; kput i p' ;;; ret KU
    | KIncPost i j => p <-- kget i ;; p' <-- lift_o (iinc t p) ;; kput i p' ;;; knew j p ;;; ret KU
    (* 39-48 *)
    | KDecPre i => p <-- kget i ;; p' <-- lift_o (idec t p) ;; kput i p' ;;; ret KU
    | KDecPost i j => p <-- kget i ;; p' <-- lift_o (idec t p) ;; kput i p' ;;; knew j p ;;; ret KU
    (* 35-37, 50-52 *)
    | KAdd k i j => p <-- kget i ;; q <-- kget j ;; z <-- lift_o (iarith (p + q)) ;; knew k z ;;; ret KU
    | KSub k i j => p <-- kget i ;; q <-- kget j ;; z <-- lift_o (iarith (p - q)) ;; knew k z ;;; ret KU
    (* 54-57 *)
    | KGet i => p <-- kget i ;; ret (KZ p)
    | KEq i j => p <-- kget i ;; q <-- kget j ;; ret (KB (op_eq t t p q))
    | KCmp i j => p <-- kget i ;; q <-- kget j ;; ret (KC (op_cmp t t p q))
    end.
End Cursor.

(** * Specification *)
(** The integers a type holds, and the accepted pairs: some type among [int] and
    the two holds all values of both. *)
Definition holds_all (a c : ity) : Prop := forall x, in_ity a x -> in_ity c x.
Definition one_type_for (a b : ity) : Prop :=
  exists c, (c = int_t \/ c = a \/ c = b) /\ holds_all a c /\ holds_all b c.

(** A cursor is a mathematical integer that is never reduced; only looking at it
    (or comparing it) does that, for types that wrap. *)
Definition seen (t : ity) (z : Z) : Z :=
  if iwrap t then imin t + (z - imin t) mod (imax t - imin t + 1) else z.
Definition arith_type (t : ity) : bool := existsb (fun a => (imin a =? imin t) && (imax a =? imax t)) [i32; u32; i64; u64].
Section KSpec.
  Context (t : ity).
  Notation spec := (gmap nat Z).
  Definition able (z : Z) : bool := iwrap t || ((imin t <=? z) && (z <=? imax t)).
  Definition kfresh (w : spec) (i : nat) (z : Z) : sres spec kout :=
    match w !! i with None => SOk (<[i := z]> w) KU | Some _ => SPre end.
  Definition kbump (w : spec) (i : nat) (d : Z) (f : Z -> spec -> sres spec kout) : sres spec kout :=
    match w !! i with
    | Some z => if able (z + d) then f z (<[i := z + d]> w) else SPre
    | None => SPre
    end.
  Definition kspec (w : spec) (o : kop) : sres spec kout :=
    match o with
    | KNew i p => if (imin t <=? p) && (p <=? imax t) then kfresh w i p else SPre
    | KCopy i j => match w !! j with Some z => kfresh w i z | None => SPre end
    | KAsg i j => match w !! i, w !! j with Some _, Some z => SOk (<[i := z]> w) KU | _, _ => SPre end
    | KDel i => match w !! i with Some _ => SOk (delete i w) KU | None => SPre end
    | KIncPre i => kbump w i 1 (fun _ w' => SOk w' KU)
    | KIncPost i j => kbump w i 1 (fun z w' => kfresh w' j z)
    | KDecPre i => kbump w i (-1) (fun _ w' => SOk w' KU)
    | KDecPost i j => kbump w i (-1) (fun z w' => kfresh w' j z)
    | KAdd k i j => match w !! i, w !! j with
        | Some p, Some q => if arith_type t && able (p + q) then kfresh w k (p + q) else SPre | _, _ => SPre end
    | KSub k i j => match w !! i, w !! j with
        | Some p, Some q => if arith_type t && able (p - q) then kfresh w k (p - q) else SPre | _, _ => SPre end
    | KGet i => match w !! i with Some z => SOk w (KZ (seen t z)) | None => SPre end
    | KEq i j => match w !! i, w !! j with
        | Some p, Some q => SOk w (KB (bool_decide (seen t p = seen t q))) | _, _ => SPre end
    | KCmp i j => match w !! i, w !! j with
        | Some p, Some q => SOk w (KC (seen t p ?= seen t q)) | _, _ => SPre end
    end.
End KSpec.

(** * Proofs *)
Lemma std_cases t (P : ity -> Prop) :
  P i8 -> P u8 -> P i16 -> P u16 -> P i32 -> P u32 -> P i64 -> P u64 -> t ∈ std_types -> P t.
Proof.
  intros. repeat match goal with H : _ ∈ _ :: _ |- _ => apply elem_of_cons in H as [->|H]; [done|] | H : _ ∈ std_types |- _ => unfold std_types in H end.
  by apply elem_of_nil in H7.
Qed.
Lemma fits_holds a c : imin a <= imax a -> fits a c = true <-> holds_all a c.
Proof.
  unfold fits, holds_all, in_ity. intros Ha. rewrite andb_true_iff, !Z.leb_le. split.
  - intros [? ?] x [? ?]. lia.
  - intros H. pose proof (H (imin a)). pose proof (H (imax a)). lia.
Qed.
Global Instance ity_eq_dec : EqDecision ity.
Proof. solve_decision. Defined.
Lemma std_wf t : t ∈ std_types -> imin t <= 0 /\ 0 < imax t /\ (is_signed t = false -> imin t = 0) /\ (is_signed t = true -> imin t < 0).
Proof.
  intros Ht. pattern t. revert Ht. apply std_cases; cbn; repeat split; intros; try lia; try done.
Qed.
Lemma std_cases2 (P : ity -> ity -> bool) : forallb (fun a => forallb (P a) std_types) std_types = true ->
  forall a b, a ∈ std_types -> b ∈ std_types -> P a b = true.
Proof.
  intros H a b Ha Hb. rewrite forallb_forall in H. specialize (H a (proj1 (elem_of_list_In _ _) Ha)).
  rewrite forallb_forall in H. apply H. by apply elem_of_list_In.
Qed.
Lemma common_std a b : a ∈ std_types -> b ∈ std_types -> common a b ∈ std_types.
Proof.
  intros Ha Hb. apply (bool_decide_unpack _).
  apply Is_true_eq_left. revert a b Ha Hb. apply (std_cases2 (fun a b => bool_decide (common a b ∈ std_types))). by vm_compute.
Qed.
Lemma common_sym a b : a ∈ std_types -> b ∈ std_types -> common a b = common b a.
Proof.
  intros Ha Hb. apply (bool_decide_unpack _), Is_true_eq_left. revert a b Ha Hb.
  apply (std_cases2 (fun a b => bool_decide (common a b = common b a))). by vm_compute.
Qed.
Lemma conv_id t x : in_ity t x -> conv t x = x.
Proof.
  unfold conv, in_ity, is_signed. intros [? ?]. destruct (imin t <? 0) eqn:E; [done|].
  apply Z.ltb_ge in E. rewrite Z.mod_small; lia.
Qed.
Lemma spaceship_fits a b x : a ∈ std_types -> b ∈ std_types -> spaceship a b = true ->
  (in_ity a x -> in_ity (common a b) x) /\ (in_ity b x -> in_ity (common a b) x).
Proof.
  unfold spaceship, fits, in_ity. intros _ _ H. rewrite !andb_true_iff, !Z.leb_le in H. lia.
Qed.

(** ** C72: ranges of different integer types *)
(** [contains], wherever it compiles, is membership in [low, high). *)
Theorem C72_contains t u r x b : t ∈ std_types -> u ∈ std_types ->
  in_ity t (r_low r) -> in_ity t (r_high r) -> in_ity u x ->
  contains_at t u r x = Some b -> (b = true <-> r_low r <= x < r_high r).
Proof.
  intros Ht Hu Hl Hh Hx. unfold contains_at. destruct (spaceship t u) eqn:S1, (spaceship u t) eqn:S2; try done.
  simpl. intros [= <-]. unfold op_le, op_lt.
  rewrite (common_sym u t) by done.
  destruct (spaceship_fits t u (r_low r) Ht Hu S1) as [A1 _]. destruct (spaceship_fits t u (r_high r) Ht Hu S1) as [A2 _].
  destruct (spaceship_fits t u x Ht Hu S1) as [_ A3].
  rewrite !conv_id by auto. rewrite andb_true_iff, Z.leb_le, Z.ltb_lt. lia.
Qed.
(** It compiles for the pairs of types that some type of the two, or [int], holds. *)
Theorem C72_accepted t u : t ∈ std_types -> u ∈ std_types ->
  (one_type_for t u <-> forall r x, contains_at t u r x <> None) /\
  (one_type_for t u <-> forall x y, cursor_cmp t u x y <> None).
Proof.
  intros Ht Hu.
  assert (H : one_type_for t u <-> existsb (fun c => fits t c && fits u c) [int_t; t; u] = true).
  { destruct (std_wf t Ht) as (? & ? & _). destruct (std_wf u Hu) as (? & ? & _).
    unfold one_type_for. rewrite existsb_exists. split.
    - intros (c & Hc & A & B). exists c. apply fits_holds in A; [|lia]. apply fits_holds in B; [|lia].
      rewrite A, B. split; [|done]. simpl. intuition.
    - intros (c & Hc & A). apply andb_true_iff in A as [A B]. exists c.
      apply fits_holds in A; [|lia]. apply fits_holds in B; [|lia]. split; [|done].
      simpl in Hc. intuition. }
  assert (E : existsb (fun c => fits t c && fits u c) [int_t; t; u] = spaceship t u).
  { apply eqb_prop. revert t u Ht Hu H.
    intros t u Ht Hu _. revert t u Ht Hu. apply (std_cases2 (fun t u => Bool.eqb (existsb (fun c => fits t c && fits u c) [int_t; t; u]) (spaceship t u))).
    by vm_compute. }
  assert (Y : spaceship u t = spaceship t u).
  { unfold spaceship. rewrite (common_sym u t) by done. apply andb_comm. }
  rewrite H, E. split.
  - unfold contains_at. rewrite Y. destruct (spaceship t u); simpl; split; try done.
    intros F. exfalso. by apply (F (Range 0 0) 0).
  - unfold cursor_cmp. rewrite Y. destruct (spaceship t u); split; try done.
    intros F. exfalso. by apply (F 0 0).
Qed.

(** [==] and [<=>] of cursors, wherever they compile, are those of the integers. *)
Theorem C72_cursors t u x y : t ∈ std_types -> u ∈ std_types -> in_ity t x -> in_ity u y ->
  (forall c, cursor_cmp t u x y = Some c -> c = (x ?= y)) /\
  (forall b, cursor_eq t u x y = Some b -> (b = true <-> x = y)).
Proof.
  intros Ht Hu Hx Hy. unfold cursor_cmp, cursor_eq, op_cmp, op_eq.
  destruct (spaceship u t) eqn:S; [|done]. rewrite (common_sym t u) by done.
  destruct (spaceship_fits u t x Hu Ht S) as [_ A]. destruct (spaceship_fits u t y Hu Ht S) as [B _].
  rewrite !conv_id by auto. split; [by intros c [= <-]|]. intros b [= <-]. apply Z.eqb_eq.
Qed.

(** [==] between ranges always compiles.  It is symmetric and never says
    "different" of equal bounds. *)
Theorem C72_eq_sym t u r s : t ∈ std_types -> u ∈ std_types -> range_eq t u r s = range_eq u t s r.
Proof.
  intros Ht Hu. unfold range_eq, op_eq. rewrite (common_sym t u) by done.
  by rewrite (Z.eqb_sym (conv _ (r_low r))), (Z.eqb_sym (conv _ (r_high r))).
Qed.
Theorem C72_eq_refl t u r : range_eq t u r r = true.
Proof. unfold range_eq, op_eq. by rewrite !Z.eqb_refl. Qed.

Lemma common_cases a b : a ∈ std_types -> b ∈ std_types ->
  (fits a (common a b) && fits b (common a b)) ||
  (negb (is_signed (common a b)) && Bool.eqb (is_signed a) (negb (is_signed b)) &&
   (imax a <=? imax (common a b)) && (imax b <=? imax (common a b))) = true.
Proof. revert a b. apply std_cases2. by vm_compute. Qed.
Lemma conv_eq_spec t u x y : t ∈ std_types -> u ∈ std_types -> in_ity t x -> in_ity u y ->
  op_eq t u x y = true <-> exists k, x - y = k * (if is_signed (common t u) then 0 else imax (common t u) + 1).
Proof.
  intros Ht Hu Hx Hy. unfold op_eq, conv. destruct (std_wf _ (common_std t u Ht Hu)) as (? & ? & ? & ?).
  destruct (is_signed (common t u)) eqn:E; rewrite Z.eqb_eq.
  - split; [intros ->; exists 0; lia|]. intros [k Hk]. lia.
  - split.
    + intros Hm. exists (x / (imax (common t u) + 1) - y / (imax (common t u) + 1)).
      rewrite (Z.div_mod x (imax (common t u) + 1)) at 1 by lia.
      rewrite (Z.div_mod y (imax (common t u) + 1)) at 1 by lia. rewrite Hm. ring.
    + intros [k Hk]. replace x with (y + k * (imax (common t u) + 1)) by lia. apply Z_mod_plus_full.
Qed.
(** Exactly when [==] holds: the bounds differ by multiples of [2^n] when the two
    are compared in an unsigned type of [n] bits, and are equal otherwise. *)
Definition modulus (t u : ity) : Z :=
  if is_signed (common t u) then 0 else imax (common t u) + 1.
Theorem C72_eq_exact t u r s : t ∈ std_types -> u ∈ std_types ->
  in_ity t (r_low r) -> in_ity t (r_high r) -> in_ity u (r_low s) -> in_ity u (r_high s) ->
  range_eq t u r s = true <->
  (exists k, r_low r - r_low s = k * modulus t u) /\ (exists k, r_high r - r_high s = k * modulus t u).
Proof. intros. unfold range_eq, modulus. rewrite andb_true_iff, !conv_eq_spec by done. done. Qed.
(** Which pairs are compared in an unsigned type. *)
Theorem C72_modulus : forall t u, t ∈ std_types -> u ∈ std_types ->
  modulus t u = if bool_decide (t = u64 \/ u = u64) then 2 ^ 64
    else if bool_decide ((t = u32 /\ u <> i64) \/ (u = u32 /\ t <> i64)) then 2 ^ 32 else 0.
Proof.
  intros t u Ht Hu. apply Z.eqb_eq. revert t u Ht Hu.
  apply (std_cases2 (fun t u => Z.eqb (modulus t u) (if bool_decide (t = u64 \/ u = u64) then 2 ^ 64
    else if bool_decide ((t = u32 /\ u <> i64) \/ (u = u32 /\ t <> i64)) then 2 ^ 32 else 0))). by vm_compute.
Qed.

(** The claim "r == s iff the bounds are equal" is false... *)
Definition eq_claim (t u : ity) : Prop := forall r s,
  in_ity t (r_low r) -> in_ity t (r_high r) -> in_ity u (r_low s) -> in_ity u (r_high s) ->
  range_eq t u r s = true -> r = s.
Theorem C72_eq_refuted : ~ eq_claim i32 u32.
Proof.
  intros H. specialize (H (Range (-1) 5) (Range 4294967295 5)). cbv -[Z.le] in H.
  enough (Range (-1) 5 = Range 4294967295 5) by done. apply H; try lia; done.
Qed.
(** ... for these pairs and no others ... *)
Theorem C72_eq_claim t u : t ∈ std_types -> u ∈ std_types -> eq_claim t u <-> one_type_for t u.
Proof.
  intros Ht Hu. destruct (C72_accepted t u Ht Hu) as [_ A]. destruct (std_wf t Ht) as (Wt1 & Wt2 & _).
  destruct (std_wf u Hu) as (Wu1 & Wu2 & _). split.
  - intros H. apply A. intros x y. unfold cursor_cmp. destruct (spaceship u t) eqn:E; [done|]. exfalso.
    assert (N : exists x y, in_ity t x /\ in_ity u y /\ op_eq t u x y = true /\ x <> y).
    { pose proof (std_cases2 (fun t u => spaceship u t ||
        (let x := if is_signed t then -1 else imax (common t u) in let y := if is_signed t then imax (common t u) else -1 in
         (imin t <=? x) && (x <=? imax t) && (imin u <=? y) && (y <=? imax u) && op_eq t u x y && negb (x =? y))) eq_refl t u Ht Hu) as Q.
      cbv beta zeta in Q. rewrite E in Q. simpl in Q. rewrite !andb_true_iff, negb_true_iff, !Z.leb_le, Z.eqb_neq in Q.
      eexists _, _. unfold in_ity. intuition eauto. }
    destruct N as (a & b & Ha & Hb & Hab & Hne).
    specialize (H (Range a a) (Range b b) Ha Ha Hb Hb). unfold range_eq in H. simpl in H.
    rewrite Hab in H. specialize (H eq_refl). by injection H.
  - intros H r s Hl Hh Hl' Hh'. unfold range_eq. rewrite andb_true_iff. intros [E1 E2].
    pose proof (proj1 A H) as C. specialize (C 0 0). unfold cursor_cmp in C.
    destruct (spaceship u t) eqn:S; [|done].
    assert (Y : spaceship t u = true) by (rewrite <- S; unfold spaceship; rewrite (common_sym u t) by done; apply andb_comm).
    unfold op_eq in *.
    assert (F : forall x y, in_ity t x -> in_ity u y -> (conv (common t u) x =? conv (common t u) y) = true -> x = y).
    { intros x y Hx Hy. destruct (spaceship_fits t u x Ht Hu Y) as [A1 _]. destruct (spaceship_fits t u y Ht Hu Y) as [_ A2].
      rewrite !conv_id by auto. apply Z.eqb_eq. }
    destruct r, s; simpl in *. f_equal; by apply F.
Qed.
(** ... and true of any two types as long as no bound is negative. *)
Theorem C72_eq_partial t u r s : t ∈ std_types -> u ∈ std_types ->
  in_ity t (r_low r) -> in_ity t (r_high r) -> in_ity u (r_low s) -> in_ity u (r_high s) ->
  0 <= r_low r -> 0 <= r_high r -> 0 <= r_low s -> 0 <= r_high s ->
  range_eq t u r s = true <-> r = s.
Proof.
  intros Ht Hu Hl Hh Hl' Hh' ? ? ? ?. split; [|intros ->; apply C72_eq_refl].
  unfold range_eq, op_eq. rewrite andb_true_iff, !Z.eqb_eq.
  pose proof (common_cases t u Ht Hu) as C. rewrite orb_true_iff, !andb_true_iff, !Z.leb_le in C.
  unfold in_ity, fits in *. rewrite !andb_true_iff, !Z.leb_le in C.
  destruct (std_wf _ (common_std t u Ht Hu)) as (? & ? & ? & ?).
  assert (I : forall x, 0 <= x -> x <= imax t \/ x <= imax u -> conv (common t u) x = x).
  { intros x Hx Hm. apply conv_id. unfold in_ity. lia. }
  rewrite !I by lia. destruct r, s; simpl; by intros [-> ->].
Qed.
(** [==] is not transitive either. *)
Theorem C72_transitive_refuted : exists r s q,
  in_ity i32 (r_low r) /\ in_ity i32 (r_high r) /\ in_ity u32 (r_low s) /\ in_ity u32 (r_high s) /\
  in_ity i64 (r_low q) /\ in_ity i64 (r_high q) /\
  range_eq i32 u32 r s = true /\ range_eq u32 i64 s q = true /\ range_eq i32 i64 r q = false.
Proof.
  exists (Range (-1) 5), (Range 4294967295 5), (Range 4294967295 5). unfold in_ity. vm_compute. intuition (try done).
Qed.
(** utility/match.h:69-77, 143-150: [when(u, f)] compares with [==]; its claim
    "f runs when the value equals u" fails in the same way. *)
Theorem C72_when_refuted : exists target v : Z, in_ity i32 target /\ in_ity u32 v /\ target <> v /\
  MatchModel.match_expr (Wd := unit) (fun w => (op_eq u32 i32 v target, w)) (fun w => (1, w)) [MatchModel.Branch None (fun w => (2, w))] tt = Ok (1, tt).
Proof. exists (-1), 4294967295. unfold in_ity. vm_compute. intuition (try done). Qed.

Example C72_contains_ex :
  contains_at i32 u8 (Range (-5) 200) 199 = Some true /\ contains_at i32 i64 (Range (-5) 200) 4294967295 = Some false /\
  contains_at i32 u32 (Range (-5) 5) 3 = None /\ one_type_for i32 u8 /\ ~ one_type_for i32 u32.
Proof.
  split_and!; [done..| |].
  - exists int_t. split; [by left|]. unfold holds_all, in_ity. simpl. split; intros; lia.
  - intros (c & Hc & A & B). specialize (A (-1)). specialize (B 4294967295). unfold in_ity in *. simpl in *.
    destruct Hc as [->|[->| ->]]; simpl in *; lia.
Qed.
Example C72_cursors_ex : cursor_cmp u32 i64 4294967295 (-1) = Some Gt /\ cursor_eq u8 i8 200 (-56) = Some false.
Proof. done. Qed.
Example C72_eq_ex : range_eq i32 u32 (Range 1 10) (Range 1 10) = true /\ range_eq i32 u32 (Range 1 10) (Range 2 10) = false /\
  eq_claim u8 i8 /\ ~ eq_claim i64 u64.
Proof.
  split_and!; [done..| |].
  - apply C72_eq_claim; [set_solver..|]. exists int_t. split; [by left|]. unfold holds_all, in_ity. simpl. split; intros; lia.
  - rewrite C72_eq_claim by set_solver. intros (c & Hc & A & B). specialize (A (-1)). specialize (B 18446744073709551615). unfold in_ity in *. simpl in *.
    destruct Hc as [->|[->| ->]]; simpl in *; lia.
Qed.

(** ** C73: cursor arithmetic *)
Definition krel (t : ity) (w w' : gmap nat Z) : Prop := forall i,
  match w !! i with Some z => able t z = true /\ w' !! i = Some (seen t z) | None => w' !! i = None end.
(** What [kstep] does is what the specification says; and what the specification
    excludes (overflow of a signed type, arithmetic on a type narrower than
    [int], names that do not exist or exist already) is undefined or does not
    compile ([Err UB]). *)
Definition sayings {St A} (rel : gmap nat Z -> St -> Prop) (r : outcome (A * St)) (sp : sres (gmap nat Z) A) : Prop :=
  match sp with SOk w x => exists st, r = Ok (x, st) /\ rel w st | SPanic => False | SPre => r = Err UB end.

Section KProof.
  Context (t : ity) (Ht : t ∈ std_types).
  Let Hwf : imin t <= 0 /\ 0 < imax t. Proof. destruct (std_wf t Ht) as (? & ? & _); lia. Qed.

  Lemma seen_in z : able t z = true -> in_ity t (seen t z).
  Proof.
    unfold able, seen, in_ity. destruct Hwf. destruct (iwrap t); simpl.
    - intros _. pose proof (Z.mod_pos_bound (z - imin t) (imax t - imin t + 1) ltac:(lia)). lia.
    - rewrite andb_true_iff, !Z.leb_le. lia.
  Qed.
  Lemma seen_id z : in_ity t z -> seen t z = z.
  Proof.
    unfold seen, in_ity. intros [? ?]. destruct (iwrap t); [|done]. rewrite Z.mod_small; lia.
  Qed.
  Lemma in_able z : in_ity t z -> able t z = true.
  Proof. unfold able, in_ity. intros [? ?]. apply orb_true_iff. right. apply andb_true_iff. rewrite !Z.leb_le. lia. Qed.
  Lemma seen_shift z d : iwrap t = true -> seen t (seen t z + d) = seen t (z + d).
  Proof.
    unfold seen. intros ->. f_equal.
    replace (imin t + (z - imin t) mod (imax t - imin t + 1) + d - imin t) with ((z - imin t) mod (imax t - imin t + 1) + d) by lia.
    rewrite Zplus_mod_idemp_l. f_equal. lia.
  Qed.
  Lemma seen_period z k : iwrap t = true -> seen t (z + k * (imax t - imin t + 1)) = seen t z.
  Proof.
    unfold seen. intros ->. f_equal.
    replace (z + k * (imax t - imin t + 1) - imin t) with (z - imin t + k * (imax t - imin t + 1)) by lia. apply Z_mod_plus_full.
  Qed.
  Lemma iinc_seen z : able t z = true -> iinc t (seen t z) = if able t (z + 1) then Ok (seen t (z + 1)) else Err UB.
  Proof.
    intros Ha. pose proof (seen_in z Ha) as [L U]. destruct Hwf. unfold iinc. destruct (iwrap t) eqn:W.
    - assert (able t (z + 1) = true) as -> by (unfold able; by rewrite W).
      destruct (seen t z <? imax t) eqn:E.
      + apply Z.ltb_lt in E. f_equal. rewrite <- seen_shift by done. symmetry. apply seen_id. split; lia.
      + apply Z.ltb_ge in E. f_equal. rewrite <- seen_shift by done. replace (seen t z) with (imax t) by lia.
        replace (imax t + 1) with (imin t + 1 * (imax t - imin t + 1)) by lia. rewrite seen_period by done.
        symmetry. apply seen_id. split; lia.
    - unfold able, seen in *. rewrite W in *. simpl in *. destruct (z <? imax t) eqn:E.
      + apply Z.ltb_lt in E. replace ((imin t <=? z + 1) && (z + 1 <=? imax t)) with true; [done|].
        symmetry. apply andb_true_iff. rewrite !Z.leb_le. lia.
      + apply Z.ltb_ge in E. replace ((imin t <=? z + 1) && (z + 1 <=? imax t)) with false; [done|].
        symmetry. apply andb_false_iff. right. apply Z.leb_gt. lia.
  Qed.
  Lemma idec_seen z : able t z = true -> idec t (seen t z) = if able t (z - 1) then Ok (seen t (z - 1)) else Err UB.
  Proof.
    intros Ha. pose proof (seen_in z Ha) as [L U]. destruct Hwf. unfold idec. destruct (iwrap t) eqn:W.
    - assert (able t (z - 1) = true) as -> by (unfold able; by rewrite W).
      replace (z - 1) with (z + -1) by lia.
      destruct (imin t <? seen t z) eqn:E.
      + apply Z.ltb_lt in E. f_equal. rewrite <- seen_shift by done. replace (seen t z + -1) with (seen t z - 1) by lia. symmetry. apply seen_id. split; lia.
      + apply Z.ltb_ge in E. f_equal. rewrite <- seen_shift by done. replace (seen t z) with (imin t) by lia.
        replace (imin t + -1) with (imax t + (-1) * (imax t - imin t + 1)) by lia. rewrite seen_period by done.
        symmetry. apply seen_id. split; lia.
    - unfold able, seen in *. rewrite W in *. simpl in *. destruct (imin t <? z) eqn:E.
      + apply Z.ltb_lt in E. replace ((imin t <=? z - 1) && (z - 1 <=? imax t)) with true; [done|].
        symmetry. apply andb_true_iff. rewrite !Z.leb_le. lia.
      + apply Z.ltb_ge in E. replace ((imin t <=? z - 1) && (z - 1 <=? imax t)) with false; [done|].
        symmetry. apply andb_false_iff. left. apply Z.leb_gt. lia.
  Qed.
  Lemma own_promotion : fits t (promote t) && fits (promote t) t = arith_type t.
  Proof.
    apply eqb_prop. exact (std_cases2 (fun t _ => Bool.eqb (fits t (promote t) && fits (promote t) t) (arith_type t)) eq_refl t t Ht Ht).
  Qed.
  Lemma arith_wrap : arith_type t = true -> iwrap t = true -> imin t = 0.
  Proof.
    intros A W.
    pose proof (std_cases2 (fun t _ => negb (arith_type t && iwrap t) || (imin t =? 0)) eq_refl t t Ht Ht) as Q. cbv beta in Q.
    rewrite A, W in Q. simpl in Q. by apply Z.eqb_eq.
  Qed.
  (** Built-in [+]/[-]: any [z] congruent to [y] that is reached from seen values. *)
  Lemma iarith_seen y z : (iwrap t = true -> seen t y = seen t z) -> (iwrap t = false -> y = z) ->
    iarith t y = if arith_type t && able t z then Ok (seen t z) else Err UB.
  Proof.
    intros Hw Hn. unfold iarith. rewrite own_promotion. destruct (arith_type t) eqn:A; simpl; [|done].
    destruct (iwrap t) eqn:W.
    - pose proof (arith_wrap A W) as M. rewrite <- Hw by done.
      assert (able t z = true) as -> by (unfold able; by rewrite W).
      destruct ((imin t <=? y) && (y <=? imax t)) eqn:E.
      + f_equal. symmetry. apply seen_id. unfold in_ity. rewrite andb_true_iff, !Z.leb_le in E. lia.
      + f_equal. unfold seen. rewrite W, M. replace (y - 0) with y by lia. replace (imax t - 0 + 1) with (imax t + 1) by lia. lia.
    - rewrite Hn by done. unfold able, seen. rewrite W. simpl. by destruct ((imin t <=? z) && (z <=? imax t)).
  Qed.
  Lemma cmp_seen p q : able t p = true -> able t q = true ->
    op_eq t t (seen t p) (seen t q) = bool_decide (seen t p = seen t q) /\ op_cmp t t (seen t p) (seen t q) = (seen t p ?= seen t q).
  Proof.
    intros Hp%seen_in Hq%seen_in. unfold op_eq, op_cmp.
    assert (S : spaceship t t = true).
    { pose proof (std_cases2 (fun a b => negb (bool_decide (a = b)) || spaceship a b) eq_refl t t Ht Ht) as Q. cbv beta in Q.
      by rewrite bool_decide_true in Q by done. }
    destruct (spaceship_fits t t (seen t p) Ht Ht S) as [A _]. destruct (spaceship_fits t t (seen t q) Ht Ht S) as [B _].
    rewrite !conv_id by auto. split; [|done]. apply eq_true_iff_eq. by rewrite Z.eqb_eq, bool_decide_eq_true.
  Qed.

  Lemma krel_get w w' i : krel t w w' ->
    kget i w' = match w !! i with Some z => Ok (seen t z, w') | None => Err UB end.
  Proof. intros H. specialize (H i). unfold kget. destruct (w !! i); [by destruct H as [_ ->]|by rewrite H]. Qed.
  Lemma krel_able w w' i z : krel t w w' -> w !! i = Some z -> able t z = true.
  Proof. intros H E. specialize (H i). rewrite E in H. by destruct H. Qed.
  Lemma krel_put w w' i z : krel t w w' -> able t z = true -> krel t (<[i := z]> w) (<[i := seen t z]> w').
  Proof.
    intros H Hz j. destruct (decide (i = j)) as [->|]; [by rewrite !lookup_insert|].
    rewrite !lookup_insert_ne by done. apply H.
  Qed.
  Lemma knew_says w w' i z : krel t w w' -> able t z = true ->
    sayings (krel t) ((knew i (seen t z) ;;; ret KU) w') (kfresh w i z).
  Proof.
    intros H Hz. unfold kfresh, knew, bind, ret. pose proof (H i) as Hi. destruct (w !! i).
    - destruct Hi as [_ ->]. done.
    - rewrite Hi. simpl. eexists. split; [done|]. by apply krel_put.
  Qed.
  Lemma kbump_says w w' i d (step : Z -> outcome Z) (m : Z -> M (gmap nat Z) kout) f : krel t w w' ->
    (forall z, able t z = true -> step (seen t z) = if able t (z + d) then Ok (seen t (z + d)) else Err UB) ->
    (forall z, able t z = true -> able t (z + d) = true ->
      sayings (krel t) (m (seen t z) (<[i := seen t (z + d)]> w')) (f z (<[i := z + d]> w))) ->
    sayings (krel t) ((p <-- kget i ;; p' <-- lift_o (step p) ;; kput i p' ;;; m p) w') (kbump t w i d f).
  Proof.
    intros H Hs Hm. unfold bind at 1. rewrite (krel_get w w' i H). unfold kbump.
    destruct (w !! i) as [z|] eqn:E; [|done]. pose proof (krel_able _ _ _ _ H E) as Hz.
    unfold bind at 1, lift_o at 1. rewrite Hs by done. destruct (able t (z + d)) eqn:A; [|done].
    unfold bind, kput. by apply Hm.
  Qed.
  Lemma kstep_says w w' o : krel t w w' -> sayings (krel t) (kstep t o w') (kspec t w o).
  Proof.
    intros H. destruct o; simpl.
    - destruct ((imin t <=? p) && (p <=? imax t)) eqn:E; [|done].
      assert (in_ity t p) as Hp by (unfold in_ity; rewrite andb_true_iff, !Z.leb_le in E; lia).
      pose proof (knew_says w w' i p H (in_able p Hp)) as K. by rewrite (seen_id p Hp) in K.
    - unfold bind at 1. rewrite (krel_get _ _ _ H). destruct (w !! j) as [z|] eqn:E; [|done].
      apply knew_says; [done|by eapply krel_able].
    - unfold bind. rewrite (krel_get _ _ i H). destruct (w !! i) as [y|] eqn:Ei; [|done].
      rewrite (krel_get _ _ j H). destruct (w !! j) as [z|] eqn:E; [|done]. unfold kput, ret. simpl.
      eexists. split; [done|]. apply krel_put; [done|by eapply krel_able].
    - unfold bind. rewrite (krel_get _ _ i H). destruct (w !! i) as [y|] eqn:Ei; [|done]. simpl.
      eexists. split; [done|]. intros j. destruct (decide (i = j)) as [->|]; [by rewrite !lookup_delete|].
      rewrite !lookup_delete_ne by done. apply H.
    - apply (kbump_says w w' i 1 (iinc t) (fun _ => ret KU)); [done|apply iinc_seen|].
      intros z _ A. unfold ret. simpl. eexists. split; [done|]. by apply krel_put.
    - apply (kbump_says w w' i 1 (iinc t) (fun p => knew j p ;;; ret KU)); [done|apply iinc_seen|].
      intros z Hz A. apply knew_says; [by apply krel_put|done].
    - apply (kbump_says w w' i (-1) (idec t) (fun _ => ret KU)); [done|apply idec_seen|].
      intros z _ A. unfold ret. simpl. eexists. split; [done|]. by apply krel_put.
    - apply (kbump_says w w' i (-1) (idec t) (fun p => knew j p ;;; ret KU)); [done|apply idec_seen|].
      intros z Hz A. apply knew_says; [by apply krel_put|done].
    - unfold bind at 1. rewrite (krel_get _ _ i H). destruct (w !! i) as [p|] eqn:Ei; [|done].
      unfold bind at 1. rewrite (krel_get _ _ j H). destruct (w !! j) as [q|] eqn:Ej; [|done].
      unfold bind at 1, lift_o at 1. rewrite (iarith_seen _ (p + q)).
      + destruct (arith_type t && able t (p + q)) eqn:A; [|done]. apply knew_says; [done|]. by apply andb_true_iff in A as [_ A].
      + intros W. rewrite seen_shift by done. rewrite Z.add_comm, seen_shift by done. f_equal. lia.
      + intros W. unfold seen. by rewrite W.
    - unfold bind at 1. rewrite (krel_get _ _ i H). destruct (w !! i) as [p|] eqn:Ei; [|done].
      unfold bind at 1. rewrite (krel_get _ _ j H). destruct (w !! j) as [q|] eqn:Ej; [|done].
      unfold bind at 1, lift_o at 1. rewrite (iarith_seen _ (p - q)).
      + destruct (arith_type t && able t (p - q)) eqn:A; [|done]. apply knew_says; [done|]. by apply andb_true_iff in A as [_ A].
      + intros W. rewrite <- !Z.add_opp_r, seen_shift by done. unfold seen. rewrite W.
        set (m := imax t - imin t + 1).
        f_equal.
        replace (p + - (imin t + (q - imin t) mod m) - imin t) with
          (p + - q - imin t + ((q - imin t) / m) * m).
        2:{ pose proof (Z.div_mod (q - imin t) m ltac:(unfold m; destruct Hwf; lia)). lia. }
        by rewrite Z_mod_plus_full.
      + intros W. unfold seen. by rewrite W.
    - unfold bind. rewrite (krel_get _ _ i H). destruct (w !! i) as [p|] eqn:Ei; [|done]. by eexists.
    - unfold bind. rewrite (krel_get _ _ i H). destruct (w !! i) as [p|] eqn:Ei; [|done].
      rewrite (krel_get _ _ j H). destruct (w !! j) as [q|] eqn:Ej; [|done].
      destruct (cmp_seen p q) as [-> _]; [by eapply krel_able..|]. by eexists.
    - unfold bind. rewrite (krel_get _ _ i H). destruct (w !! i) as [p|] eqn:Ei; [|done].
      rewrite (krel_get _ _ j H). destruct (w !! j) as [q|] eqn:Ej; [|done].
      destruct (cmp_seen p q) as [_ ->]; [by eapply krel_able..|]. by eexists.
  Qed.
  Lemma krun_says ops : forall w w', krel t w w' -> sayings (krel t) (run_ops (kstep t) ops w') (srun (kspec t) w ops).
  Proof.
    induction ops as [|o ops IH]; intros w w' H; simpl; [by eexists|].
    pose proof (kstep_says w w' o H) as S. unfold bind, ret. destruct (kspec t w o) as [w1 x| |]; simpl in *; [|done|by rewrite S].
    destruct S as (w1' & -> & H1). pose proof (IH w1 w1' H1) as S2. destruct (srun (kspec t) w1 ops) as [w2 xs| |]; simpl in *; [|done|by rewrite S2].
    destruct S2 as (w2' & -> & H2). by eexists.
  Qed.
End KProof.

Theorem C73_cursors t ops : t ∈ std_types -> sayings (krel t) (run_ops (kstep t) ops ∅) (srun (kspec t) ∅ ops).
Proof. intros Ht. apply krun_says; [done|]. intros i. by rewrite !lookup_empty. Qed.

(** Walking from [begin()] towards [end()]: after [n] increments the cursor shows
    [low + n], and [==], [<=>] against [end()] tell how far there is to go. *)
Theorem C73_walk t low high n : t ∈ std_types -> in_ity t low -> in_ity t high -> low + Z.of_nat n <= high ->
  exists w, run_ops (kstep t) ([KNew 0 low; KNew 1 high] ++ replicate n (KIncPre 0) ++ [KGet 0; KEq 0 1; KCmp 0 1]) ∅ =
    Ok (replicate (2 + n) KU ++ [KZ (low + Z.of_nat n); KB (bool_decide (low + Z.of_nat n = high)); KC (low + Z.of_nat n ?= high)], w).
Proof.
  intros Ht Hl Hh Hn. destruct (std_wf t Ht) as (W1 & W2 & _).
  pose proof (C73_cursors t ([KNew 0 low; KNew 1 high] ++ replicate n (KIncPre 0) ++ [KGet 0; KEq 0 1; KCmp 0 1]) Ht) as S.
  assert (E : srun (kspec t) ∅ ([KNew 0 low; KNew 1 high] ++ replicate n (KIncPre 0) ++ [KGet 0; KEq 0 1; KCmp 0 1]) =
    SOk (<[0%nat := low + Z.of_nat n]> (<[1%nat := high]> ∅))
      (replicate (2 + n) KU ++ [KZ (low + Z.of_nat n); KB (bool_decide (low + Z.of_nat n = high)); KC (low + Z.of_nat n ?= high)])).
  { assert (In : forall z, in_ity t z -> (imin t <=? z) && (z <=? imax t) = true)
      by (unfold in_ity; intros z [? ?]; apply andb_true_iff; rewrite !Z.leb_le; lia).
    assert (G : forall m l, in_ity t l -> l + Z.of_nat m <= high ->
      srun (kspec t) (<[0%nat := l]> (<[1%nat := high]> ∅)) (replicate m (KIncPre 0) ++ [KGet 0; KEq 0 1; KCmp 0 1]) =
      SOk (<[0%nat := l + Z.of_nat m]> (<[1%nat := high]> ∅))
        (replicate m KU ++ [KZ (l + Z.of_nat m); KB (bool_decide (l + Z.of_nat m = high)); KC (l + Z.of_nat m ?= high)])).
    { induction m as [|m IH]; intros l Hl' Hm.
      - replace (l + Z.of_nat 0) with l by lia. set (w := <[0%nat := l]> _).
        assert (E0 : w !! 0%nat = Some l) by done. assert (E1 : w !! 1%nat = Some high) by done. clearbody w.
        repeat (simpl; rewrite ?E0, ?E1). by rewrite (seen_id t l), (seen_id t high) by done.
      - assert (I1 : in_ity t (l + 1)) by (unfold in_ity in *; lia).
        simpl. unfold kbump. rewrite lookup_insert, in_able by done. rewrite insert_insert.
        rewrite IH by (done || lia). replace (l + 1 + Z.of_nat m) with (l + Z.of_nat (Datatypes.S m)) by lia. done. }
    simpl. rewrite (In low) by done. unfold kfresh at 1. rewrite lookup_empty. rewrite (In high) by done.
    unfold kfresh. rewrite lookup_insert_ne, lookup_empty by done. rewrite insert_commute by done.
    rewrite G by done. done. }
  rewrite E in S. simpl in S. destruct S as (w & S & _). by exists w.
Qed.
(** [*(end() - begin())] is the number of elements and [begin() + (end() - begin())]
    is [end()], whenever the difference is a value of the type. *)
Theorem C73_distance t low high : t ∈ std_types -> arith_type t = true ->
  in_ity t low -> in_ity t high -> in_ity t (high - low) ->
  exists w, run_ops (kstep t) [KNew 0 low; KNew 1 high; KSub 2 1 0; KGet 2; KAdd 3 0 2; KEq 3 1] ∅ =
    Ok ([KU; KU; KU; KZ (high - low); KU; KB true], w).
Proof.
  intros Ht A Hl Hh Hd. pose proof (C73_cursors t [KNew 0 low; KNew 1 high; KSub 2 1 0; KGet 2; KAdd 3 0 2; KEq 3 1] Ht) as S.
  assert (In : forall z, in_ity t z -> (imin t <=? z) && (z <=? imax t) = true)
      by (unfold in_ity; intros z [? ?]; apply andb_true_iff; rewrite !Z.leb_le; lia).
  assert (E : exists w, srun (kspec t) ∅ [KNew 0 low; KNew 1 high; KSub 2 1 0; KGet 2; KAdd 3 0 2; KEq 3 1] = SOk w [KU; KU; KU; KZ (high - low); KU; KB true]).
  { cbn [srun kspec]. rewrite (In low) by done. cbn [kfresh]. unfold kfresh at 1. rewrite lookup_empty.
    cbn [srun kspec]. rewrite (In high) by done. unfold kfresh at 1. rewrite lookup_insert_ne, lookup_empty by done.
    set (w := <[1%nat := high]> _). assert (E0 : w !! 0%nat = Some low) by done. assert (E1 : w !! 1%nat = Some high) by done.
    assert (E2 : w !! 2%nat = None) by done. assert (E3 : w !! 3%nat = None) by done. clearbody w.
    cbn [srun kspec]. rewrite E1, E0, A, (in_able t (high - low)) by done. cbn [andb]. unfold kfresh at 1. rewrite E2.
    cbn [srun kspec]. rewrite lookup_insert, (seen_id t (high - low)) by done. rewrite lookup_insert_ne, E0 by done. rewrite lookup_insert.
    replace (low + (high - low)) with high by lia. rewrite (in_able t high) by done. cbn [andb]. unfold kfresh at 1.
    rewrite lookup_insert_ne, E3 by done. cbn [srun kspec]. rewrite lookup_insert, lookup_insert_ne, lookup_insert_ne, E1 by done.
    rewrite bool_decide_true by done. by eexists. }
  destruct E as [w E]. rewrite E in S. simpl in S. destruct S as (w' & S & _). by exists w'.
Qed.
(** Not so for every range: the difference of the bounds of a signed type may
    overflow. *)
Theorem C73_distance_refuted : exists low high, in_ity i32 low /\ in_ity i32 high /\ low <= high /\
  run_ops (kstep i32) [KNew 0 low; KNew 1 high; KSub 2 1 0] ∅ = Err UB.
Proof. exists (-2147483648), 2147483647. unfold in_ity. vm_compute. intuition (try done). Qed.

Definition k_ex : list kop := [KNew 0 250; KIncPost 0 1; KCopy 2 0; KIncPre 2; KIncPre 2; KIncPre 2; KIncPre 2; KIncPre 2; KGet 2; KGet 0; KGet 1;
  KDecPre 2; KDecPost 2 3; KGet 2; KGet 3; KCmp 2 0; KAsg 2 0; KEq 2 0; KDel 2].
Example C73_cursors_ex : u8 ∈ std_types /\
  exists w, srun (kspec u8) ∅ k_ex = SOk w [KU; KU; KU; KU; KU; KU; KU; KU; KZ 0; KZ 251; KZ 250; KU; KU; KZ 254; KZ 255; KC Gt; KU; KB true; KU].
Proof. split; [set_solver|]. eexists. vm_compute. done. Qed.
Example C73_excluded_ex : srun (kspec i32) ∅ [KNew 0 2147483647; KIncPre 0] = SPre /\ srun (kspec u16) ∅ [KNew 0 1; KNew 1 1; KAdd 2 0 1] = SPre.
Proof. done. Qed.
Example C73_walk_ex : in_ity i8 97 /\ in_ity i8 122 /\ 97 + Z.of_nat 25 <= 122 /\ in_ity u32 (10 - 1) /\ arith_type u32 = true.
Proof. unfold in_ity. simpl. repeat split; lia. Qed.
Print Assumptions C72_types.
