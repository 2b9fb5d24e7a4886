(** * HistExact: every history of arrays, and of Options whose values throw
    (C28, C67)

    Every history does what the specification says, or it has a first call that
    leaves it; which calls these are and what they do is stated. *)
From Verif Require Import Base Machine OptModel OptProps OptThrow ResExact IterSpec RangeModel RangeProps ArrExact.

(** ** C67 *)
Lemma srun_below {S O X} (f g : S -> O -> sres S X) : (forall s o, g s o = f s o \/ g s o = SPre) ->
  forall ops s s' outs, srun g s ops = SOk s' outs -> srun f s ops = SOk s' outs.
Proof.
  intros H. induction ops as [|o ops IH]; intros s s' outs; [done|]. cbn [srun].
  destruct (H s o) as [E|E]; rewrite E; [|done]. destruct (f s o) as [s1 y| |]; [|done|done].
  destruct (srun g s1 ops) as [s2 ys| |] eqn:E2; [|done|done]. by rewrite (IH _ _ _ E2).
Qed.

Section Opt.
  Context {V : Type} (triv wrecks : bool).
  Notation run := (run_ops (opt_tstep triv wrecks)).
  Notation spec := (opt_tspec triv wrecks).
  Notation step := (opt_tstep (V := V) triv wrecks).

  Lemma tspec_restricts s (ok : oop V * nat) : spec false s ok = spec true s ok \/ spec false s ok = SPre.
  Proof using Type.
    unfold opt_tspec. destruct (opt_spec triv s (fst ok)); [|by left|by left]. case_match; [by left|].
    destruct (fst ok); try by left. cbn. repeat case_match; auto.
  Qed.
  Lemma tspec_empty s (ok : oop V * nat) : spec false s ok = SPre -> spec true s ok <> SPre ->
    exists i j p, ok = (OCopyAssign i j, O) /\ s !! i = Some None /\ s !! j = Some (Some p).
  Proof using Type.
    destruct ok as [o k]. unfold opt_tspec. cbn [fst snd]. destruct (opt_spec triv s o) as [s' x| |] eqn:E; [|done|done].
    destruct (Nat.leb_spec (needs s o) k) as [Hk|Hk]; [done|]. intros H1 _.
    destruct o as [i v|i v|i|i|i|i|i|i|i|i v|[] f i j|i j|i j|i j|i j|i]; try done. cbn in H1, Hk.
    destruct (s !! i) as [[q|]|] eqn:Ei; [done| |done].
    destruct (i =? j)%nat; [lia|]. destruct (s !! j) as [[p|]|] eqn:Ej; try lia.
    exists i, j, p. by replace k with 0%nat by lia.
  Qed.

  (** What the claim says, or a first copy of a value into an empty Option that
      throws: from then on the Option says it holds a value and its end is
      undefined. *)
  Theorem C67_histories_exact (ops : list (oop V * nat)) :
    match srun (spec true) ∅ ops with
    | SOk s outs => exists st, run ops oinit = Ok (outs, st) /\ octor st = (odtor st + mcount is_someb s)%N
    | SPanic => run ops oinit = Err Panic
    | SPre => True
    end \/
    exists pre i j post s outs st st' p, ops = pre ++ (OCopyAssign i j, O) :: post /\
      srun (spec true) ∅ pre = SOk s outs /\ run pre oinit = Ok (outs, st) /\
      s !! i = Some None /\ s !! j = Some (Some p) /\
      step (OCopyAssign i j, O) st = Ok (None, st') /\
      (forall k, step (OIsSome i, k) st' = Ok (Some (OutB true), st')) /\
      (forall k, step (ODestroy i, S k) st' = Err UB).
  Proof using Type.
    destruct (srun_split (spec true) (spec false) ops tspec_restricts ∅) as [E|(pre&o&post&s&outs&->&E&Eg&En)].
    - left. rewrite <-E. apply C67_histories_partial.
    - right. destruct (tspec_empty s o Eg En) as (i & j & p & -> & Hi & Hj).
      pose proof (C67_histories_partial triv wrecks pre) as H. rewrite E in H. destruct H as (st & Hr & _).
      destruct (C67_assign_breaks triv wrecks pre s outs st i j p E Hr Hi Hj) as (st' & E1 & E2 & E3 & _).
      exists pre, i, j, post, s, outs, st, st', p. split; [done|]. split; [by apply (srun_below _ _ tspec_restricts)|].
      repeat (split; [done|]). intros k. apply E3; [by cbn; rewrite Nat.eqb_refl|left; by cbn; rewrite Hi|lia].
  Qed.
End Opt.

(** A history of each kind. *)
Example C67_histories_ex :
  (match srun (opt_tspec false true true) ∅ C67_ops with SOk _ outs => length outs = 20%nat | _ => False end) /\
  (match run_ops (opt_tstep false false) C67_bad oinit with Ok (outs, _) => outs = [Some OutU; Some OutU; None; Some (OutB true)] | _ => False end) /\
  (match srun (opt_tspec false false true) ∅ C67_bad with SOk _ outs => outs = [Some OutU; Some OutU; None; Some (OutB false)] | _ => False end).
Proof. vm_compute. repeat split. Qed.

(** ** C28 *)
Lemma spec_first {S O X} (f : S -> O -> option (S * X)) : forall ops s,
  (exists s' outs, spec_run f s ops = Some (s', outs)) \/
  exists pre o post s1 outs, ops = pre ++ o :: post /\ spec_run f s pre = Some (s1, outs) /\ f s1 o = None.
Proof.
  induction ops as [|o ops IH]; intros s; [left; by eexists _, _|]. cbn [spec_run].
  destruct (f s o) as [[s1 x]|] eqn:E; [|right; by exists [], o, ops, s, []].
  destruct (IH s1) as [(s2 & ys & ->)|(pre & p & post & s2 & ys & -> & E2 & E3)]; [left; by eexists _, _|].
  right. exists (o :: pre), p, post, s2, (x :: ys). cbn [spec_run app]. by rewrite E, E2.
Qed.
Lemma run_stops {S O X} (f : O -> M S X) o post e : forall pre w0 w outs, run_ops f pre w0 = Ok (outs, w) -> f o w = Err e ->
  run_ops f (pre ++ o :: post) w0 = Err e.
Proof.
  induction pre as [|p pre IH]; intros w0 w os; cbn [run_ops app].
  - intros [= <- <-] Ho. unfold bind. by rewrite Ho.
  - unfold bind, ret. destruct (f p w0) as [[x1 w1]|]; [|done].
    destruct (run_ops f pre w1) as [[y1 w2]|] eqn:E3; [|done]. intros [= <- <-] Ho. by rewrite (IH _ _ _ E3 Ho).
Qed.
Lemma run_goes_on {S O X} (f : O -> M S X) o x w' : forall pre w0 w outs, run_ops f pre w0 = Ok (outs, w) -> f o w = Ok (x, w') ->
  run_ops f (pre ++ [o]) w0 = Ok (outs ++ [x], w').
Proof.
  induction pre as [|p pre IH]; intros w0 w os; cbn [run_ops app].
  - intros [= <- <-] Ho. unfold bind, ret. by rewrite Ho.
  - unfold bind, ret. destruct (f p w0) as [[x1 w1]|]; [|done].
    destruct (run_ops f pre w1) as [[y1 w2]|] eqn:E3; [|done]. intros [= <- <-] Ho. by rewrite (IH _ _ _ E3 Ho).
Qed.

Section Arr.
  Context {A : Type} (nn : nat) (dinit : acell A) (vinit : A) (eqb : A -> A -> bool).
  Notation sstep := (arr_spec nn (abs dinit) vinit eqb).
  Notation mstep := (arr_step nn dinit vinit eqb).
  Notation aspec := (gmap nat (list (option A))).

  (** A call that a program can contain: the arrays it uses exist, the one it
      makes does not. *)
  Definition well_named (s : aspec) (o : aop A) : Prop :=
    match o with
    | ANew i | ADef i | AList i _ | AFrom i _ => s !! i = None
    | ACopy i j | AMove i j => is_Some (s !! j) /\ s !! i = None
    | ACopyAsg i j | AMoveAsg i j | AEq i j => is_Some (s !! i) /\ is_Some (s !! j)
    | ADestroy i | AGet i _ | ASet i _ _ => is_Some (s !! i)
    end.
  Definition too_far (o : aop A) : Prop :=
    match o with
    | AList _ xs => (nn < length xs)%nat
    | AGet _ k | ASet _ k _ => (N.of_nat nn <= k)%N
    | _ => False
    end.
  (** Element [k] of [i] has no value: it was never given one, or was moved away. *)
  Definition unset (s : aspec) (i : nat) : Prop := exists b k, s !! i = Some b /\ b !! k = Some None.
  Definition reads_unset (s : aspec) (o : aop A) : Prop :=
    match o with
    | ACopy _ j | AMove _ j => unset s j
    | ACopyAsg i j | AMoveAsg i j => i <> j /\ unset s j
    | AGet i k => exists b, s !! i = Some b /\ b !! N.to_nat k = Some None
    | AEq i j => unset s i \/ unset s j
    | _ => False
    end.

  (** A difference is found before an element without a value. *)
  Fixpoint apart (xs ys : list (option A)) : bool :=
    match xs, ys with
    | Some x :: xs, Some y :: ys => if eqb x y then apart xs ys else true
    | _, _ => false
    end.
  Definition told_apart (s : aspec) (o : aop A) : bool :=
    match o with AEq i j => apart (default [] (s !! i)) (default [] (s !! j)) | _ => false end.

  Lemma not_all b : all_some b = false -> exists k, b !! k = Some (None : option A).
  Proof using Type.
    induction b as [|[x|] b IH]; [done| |by exists 0%nat]. cbn. intros H. destruct (IH H) as [k Hk]. by exists (S k).
  Qed.
  Lemma unset_move (other : list (acell A)) k : forall n pos a o, (forall m, (pos <= m)%nat -> o !! m = other !! m) ->
    a_read other k = Err UB -> (pos <= k < pos + n)%nat -> a_move_loop n pos a o = Err UB.
  Proof using Type.
    clear vinit eqb. induction n as [|n IH]; intros pos a o Ho Hk Hp; [lia|]. cbn [a_move_loop].
    assert (E0 : a_read o pos = a_read other pos) by (unfold a_read; by rewrite Ho). rewrite E0.
    destruct (decide (pos = k)) as [->|]; [by rewrite Hk|].
    destruct (a_read other pos) as [x|e] eqn:E.
    - apply IH; [|done|lia]. intros m Hm. rewrite list_lookup_insert_ne by lia. apply Ho. lia.
    - unfold a_read in E. destruct (other !! pos) as [[]|]; congruence.
  Qed.
  Lemma read_abs (a : list (acell A)) pos : a_read a pos = match (abs <$> a) !! pos with Some (Some x) => Ok x | _ => Err UB end.
  Proof using Type. unfold a_read. rewrite list_lookup_fmap. destruct (a !! pos) as [[]|]; done. Qed.
  Lemma unset_eq (a b : list (acell A)) k : length a = length b -> (abs <$> a) !! k = Some None \/ (abs <$> b) !! k = Some None ->
    forall n pos, (pos + n = length a)%nat -> (pos <= k)%nat ->
    a_eq_loop eqb n pos a b = if apart (drop pos (abs <$> a)) (drop pos (abs <$> b)) then Ok false else Err UB.
  Proof using Type.
    intros Hl Hk. induction n as [|n IH]; intros pos Hn Hp.
    { destruct Hk as [H|H]; apply lookup_lt_Some in H; rewrite fmap_length in H; lia. }
    cbn [a_eq_loop]. rewrite !read_abs.
    destruct (lookup_lt_is_Some_2 (abs <$> a) pos) as [x Hx]; [rewrite fmap_length; lia|].
    destruct (lookup_lt_is_Some_2 (abs <$> b) pos) as [y Hy]; [rewrite fmap_length; lia|].
    rewrite Hx, Hy, (drop_S _ _ _ Hx), (drop_S _ _ _ Hy). destruct x as [x|]; [|done]. destruct y as [y|]; [|done]. cbn [apart].
    destruct (eqb x y); [|done]. cbn. apply IH; [lia|]. destruct (decide (pos = k)) as [->|]; [|lia]. destruct Hk; congruence.
  Qed.

  (** Every history of arrays is carried out, or it has a first call that goes
      too far, and the program ends, or that reads an element without a value:
      that is undefined, unless a comparison has found a difference before. *)
  Theorem C28_histories_exact (ops : list (aop A)) :
    (exists s outs w, spec_run sstep ∅ ops = Some (s, outs) /\ arr_run nn dinit vinit eqb ops = Ok (outs, w)) \/
    exists pre o post s outs, ops = pre ++ o :: post /\ spec_run sstep ∅ pre = Some (s, outs) /\
      (well_named s o ->
       (too_far o /\ arr_run nn dinit vinit eqb ops = Err Panic) \/
       (reads_unset s o /\
        if told_apart s o then exists w, arr_run nn dinit vinit eqb (pre ++ [o]) = Ok (outs ++ [AOBool false], w)
        else arr_run nn dinit vinit eqb ops = Err UB)).
  Proof using Type.
    destruct (spec_first sstep ops ∅) as [(s & outs & E)|(pre & o & post & s & outs & -> & E & En)].
    - left. destruct (C28_array_histories_partial nn dinit vinit eqb ops s outs E) as [w Hw]. by exists s, outs, w.
    - right. exists pre, o, post, s, outs. split; [done|]. split; [done|]. intros Hn.
      destruct (arr_history nn dinit vinit eqb pre ∅ ∅ s outs (awrep_init nn) E) as (w & Er & Hw).
      assert (Hstop : forall e, mstep o w = Err e -> arr_run nn dinit vinit eqb (pre ++ o :: post) = Err e).
      { intros e He. eapply run_stops; [exact Er|done]. }
      destruct o as [i|i|i xs|i j|i j|i j|i j|i|i k|i k x|i j|i src]; cbn [well_named arr_spec] in Hn, En.
      + unfold acreate in En. by rewrite Hn in En.
      + unfold acreate in En. by rewrite Hn in En.
      + unfold acreate in En. rewrite Hn in En. destruct (Nat.leb_spec (length xs) nn) as [|Hl]; [done|].
        left. split; [done|]. apply Hstop. cbn. unfold bind, afresh, lift_o, a_list. rewrite (awrep_none nn _ _ _ Hw Hn).
        by destruct (Nat.ltb_spec nn (length xs)); [|lia].
      + destruct Hn as [[b Hj] Hi]. unfold acreate in En. rewrite Hj, Hi in En. destruct (all_some b) eqn:Eb; [done|].
        destruct (not_all b Eb) as [k Hk]. right. split; [by exists b, k|]. apply Hstop.
        destruct (awrep_some nn _ _ _ _ Hw Hj) as (a & Ha & Hr). cbn. unfold bind, aget, afresh, lift_o, a_copy.
        rewrite Ha. cbn beta iota. rewrite (awrep_none nn _ _ _ Hw Hi).
        rewrite (unset_copy vinit eqb a k (unset_read nn a b k Hr Hk)); [done|].
        apply lookup_lt_Some in Hk. rewrite (arep_len nn _ _ Hr) in Hk. lia.
      + destruct Hn as [[b Hj] Hi]. rewrite Hj, Hi in En. destruct (all_some b) eqn:Eb; [done|].
        destruct (not_all b Eb) as [k Hk]. right. split; [by exists b, k|]. apply Hstop.
        destruct (awrep_some nn _ _ _ _ Hw Hj) as (a & Ha & Hr). cbn. unfold bind, aget, afresh, lift_o, a_move.
        rewrite Ha. cbn beta iota. rewrite (awrep_none nn _ _ _ Hw Hi).
        rewrite (unset_move a k nn 0 _ a); [done|done|by apply (unset_read nn a b)|].
        apply lookup_lt_Some in Hk. rewrite (arep_len nn _ _ Hr) in Hk. lia.
      + destruct Hn as [[c Hi] [b Hj]]. rewrite Hi, Hj in En. destruct (Nat.eqb_spec i j) as [|Hij]; [done|].
        destruct (all_some b) eqn:Eb; [done|]. destruct (not_all b Eb) as [k Hk]. right. split; [split; [done|by exists b, k]|].
        apply Hstop. destruct (awrep_some nn _ _ _ _ Hw Hj) as (a & Ha & Hr). destruct (awrep_some nn _ _ _ _ Hw Hi) as (a' & Ha' & _).
        cbn. unfold bind, aget, lift_o, a_copy. rewrite Ha', Ha. destruct (Nat.eqb_spec i j) as [|_]; [done|].
        rewrite (unset_copy vinit eqb a k (unset_read nn a b k Hr Hk)); [done|].
        apply lookup_lt_Some in Hk. rewrite (arep_len nn _ _ Hr) in Hk. lia.
      + destruct Hn as [[c Hi] [b Hj]]. rewrite Hi, Hj in En. destruct (Nat.eqb_spec i j) as [|Hij]; [done|].
        destruct (all_some b) eqn:Eb; [done|]. destruct (not_all b Eb) as [k Hk]. right. split; [split; [done|by exists b, k]|].
        apply Hstop. destruct (awrep_some nn _ _ _ _ Hw Hj) as (a & Ha & Hr). destruct (awrep_some nn _ _ _ _ Hw Hi) as (a' & Ha' & _).
        cbn. unfold bind, aget, lift_o, a_move. rewrite Ha', Ha. destruct (Nat.eqb_spec i j) as [|_]; [done|].
        rewrite (unset_move a k nn 0 _ a); [done|done|by apply (unset_read nn a b)|].
        apply lookup_lt_Some in Hk. rewrite (arep_len nn _ _ Hr) in Hk. lia.
      + destruct Hn as [b Hi]. by rewrite Hi in En.
      + destruct Hn as [b Hi]. rewrite Hi in En. destruct (awrep_some nn _ _ _ _ Hw Hi) as (a & Ha & Hr).
        unfold nlookup in En. rewrite (arep_len nn _ _ Hr) in En. cbn [too_far reads_unset].
        destruct (N.ltb_spec k (N.of_nat nn)) as [Hk|Hk].
        * right. destruct (lookup_lt_is_Some_2 b (N.to_nat k)) as [q Hq]; [rewrite (arep_len nn _ _ Hr); lia|].
          rewrite Hq in En. destruct q; [done|]. split; [by exists b|]. apply Hstop. cbn. unfold bind, aget, lift_o, a_get.
          rewrite Ha. destruct (N.leb_spec (N.of_nat nn) k); [lia|]. by rewrite (unset_read nn a b _ Hr Hq).
        * left. split; [done|]. apply Hstop. cbn. unfold bind, aget, lift_o, a_get.
          rewrite Ha. by destruct (N.leb_spec (N.of_nat nn) k); [|lia].
      + destruct Hn as [b Hi]. rewrite Hi in En. destruct (awrep_some nn _ _ _ _ Hw Hi) as (a & Ha & Hr).
        destruct (N.ltb_spec k (N.of_nat nn)) as [Hk|Hk]; [done|].
        left. split; [done|]. apply Hstop. cbn. unfold bind, aget, lift_o, a_set.
        rewrite Ha. by destruct (N.leb_spec (N.of_nat nn) k); [|lia].
      + destruct Hn as [[c Hi] [b Hj]]. rewrite Hi, Hj in En.
        destruct (awrep_some nn _ _ _ _ Hw Hj) as (a & Ha & Hr). destruct (awrep_some nn _ _ _ _ Hw Hi) as (a' & Ha' & Hr').
        destruct Hr as [Hr1 Hr2], Hr' as [Hr1' Hr2'].
        assert (Hu : exists k, (b !! k = Some None /\ unset s j) \/ (c !! k = Some None /\ unset s i)).
        { destruct (all_some c) eqn:Ec; [destruct (all_some b) eqn:Eb; [done|]|].
          - destruct (not_all b Eb) as [k Hk]. exists k. left. split; [done|]. by exists b, k.
          - destruct (not_all c Ec) as [k Hk]. exists k. right. split; [done|]. by exists c, k. }
        destruct Hu as (k & Hu). right. split; [cbn; destruct Hu as [[_ ?]|[_ ?]]; auto|].
        cbn [told_apart]. rewrite Hi, Hj. cbn [default from_option id].
        pose proof (unset_eq a' a k ltac:(by rewrite Hr1, Hr1')) as E2. rewrite Hr2, Hr2' in E2.
        specialize (E2 ltac:(destruct Hu as [[? _]|[? _]]; auto) nn 0%nat ltac:(lia) ltac:(lia)). rewrite !drop_0 in E2.
        destruct (apart c b).
        * exists w. eapply run_goes_on; [exact Er|].
          cbn. unfold bind, aget, lift_o, a_eq, ret. by rewrite Ha', Ha, E2.
        * apply Hstop. cbn. unfold bind, aget, lift_o, a_eq. by rewrite Ha', Ha, E2.
      + unfold acreate in En. by rewrite Hn in En.
  Qed.
End Arr.

(** Histories of each kind: arrays of three numbers, uninitialised by default. *)
Notation ahist := (arr_run 3 (AUndef : acell Z) 0%Z Z.eqb).
Example C28_histories_ex :
  (match ahist [AList 0 [1; 2]%Z; ASet 0 2%N 5%Z; ACopy 1 0; AEq 0 1; AMove 2 0; ASet 0 0%N 4%Z; AGet 0 0%N] with
   | Ok (outs, _) => outs = [AONone; AONone; AONone; AOBool true; AONone; AONone; AOElem 4%Z] | _ => False end) /\
  ahist [AList 0 [1; 2]%Z; ACopy 1 0; AGet 1 0%N] = Err UB /\
  ahist [AList 0 [1; 2]%Z; AMove 1 0; AGet 1 0%N] = Err UB /\
  ahist [AList 0 [1; 2]%Z; AList 1 [1; 2; 3]%Z; AEq 0 1; AGet 1 0%N] = Err UB /\
  (match ahist [AList 0 [1; 2]%Z; AList 1 [1; 3; 3]%Z; AEq 0 1] with
   | Ok (outs, _) => outs = [AONone; AONone; AOBool false] | _ => False end) /\
  ahist [AList 0 [1; 2]%Z; AGet 0 3%N; AGet 0 2%N] = Err Panic.
Proof. vm_compute. repeat split. Qed.

Print Assumptions C67_histories_exact.
Print Assumptions C28_histories_exact.
