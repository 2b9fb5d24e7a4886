(** * TupleProps: C49 *)
From Verif Require Import Base TupleModel.

Section Props.
  Context {V Wd : Type} (moved : V -> V) (eqb : V -> V -> bool).
  Notation st := (tst V Wd).

  (** [t] has exactly the components [vs], in order, as seen through
      [get<i>]. *)
  Definition holds (t : tup) (vs : list V) (s : st) : Prop :=
    forall i, (t_get i t = None /\ vs !! i = None) \/
              (exists l v, t_get i t = Some l /\ vs !! i = Some v /\ tmem s !! l = Some v).
  Definition component (t : tup) (l : N) : Prop := exists i, t_get i t = Some l.
  (** No two components of [t] share a location (always so for tuples of
      values; for [tie] when the variables are distinct). *)
  Definition apart (t : tup) : Prop :=
    forall i j l, t_get i t = Some l -> t_get j t = Some l -> i = j.
  Definition disjoint (t u : tup) : Prop := forall l, component t l -> component u l -> False.
  (** Locations in use are below the allocation counter. *)
  Definition wf (s : st) : Prop := forall l v, tmem s !! l = Some v -> (l < tnext s)%N.
  (** From [s] to [s'] nothing changed except at locations satisfying [P]. *)
  Definition only (P : N -> Prop) (s s' : st) : Prop :=
    forall l, ~ P l -> tmem s' !! l = tmem s !! l.

  (** *** Structural lemmas *)
  Lemma holds_nil s : holds TNil [] s.
  Proof. intros i. left. done. Qed.
  Lemma holds_cons f r v vs s : holds (TCons f r) (v :: vs) s <-> tmem s !! f = Some v /\ holds r vs s.
  Proof.
    split.
    - intros H. split.
      + destruct (H 0) as [[? _]|(l & x & [= <-] & [= <-] & H1)]; done.
      + intros i. apply (H (S i)).
    - intros [H1 H2] [|i]; [right; by exists f, v|apply (H2 i)].
  Qed.
  Lemma holds_nil_inv t s : holds t [] s -> t = TNil.
  Proof.
    intros H. destruct t as [|f r]; [done|].
    destruct (H 0) as [[? _]|(l & x & _ & ? & _)]; done.
  Qed.
  Lemma holds_cons_inv t v vs s : holds t (v :: vs) s -> exists f r, t = TCons f r.
  Proof.
    intros H. destruct t as [|f r]; [|by eauto].
    destruct (H 0) as [[_ ?]|(l & x & ? & _ & _)]; done.
  Qed.
  Lemma component_cons f r l : component (TCons f r) l <-> l = f \/ component r l.
  Proof.
    split.
    - intros [[|i] H]; simpl in H; [injection H as ->; by left|right; by exists i].
    - intros [->|[i H]]; [by exists 0|by exists (S i)].
  Qed.
  Lemma component_nil l : ~ component TNil l.
  Proof. intros [i H]. done. Qed.
  Lemma apart_cons f r : apart (TCons f r) <-> ~ component r f /\ apart r.
  Proof.
    split.
    - intros H. split.
      + intros [i Hi]. specialize (H 0 (S i) f eq_refl Hi). done.
      + intros i j l H1 H2. specialize (H (S i) (S j) l H1 H2). lia.
    - intros [H1 H2] [|i] [|j] l; simpl; intros G1 G2; [done| | |].
      + injection G1 as <-. exfalso. apply H1. by exists j.
      + injection G2 as <-. exfalso. apply H1. by exists i.
      + f_equal. by apply (H2 _ _ l).
  Qed.
  Lemma holds_only t vs s s' P : holds t vs s -> only P s s' ->
    (forall l, component t l -> ~ P l) -> holds t vs s'.
  Proof.
    intros H Ho Hd i. destruct (H i) as [?|(l & v & H1 & H2 & H3)]; [by left|].
    right. exists l, v. split_and!; [done|done|]. rewrite Ho; [done|]. apply Hd. by exists i.
  Qed.
  Lemma holds_length t vs s : holds t vs s -> t_size t = N.of_nat (length vs).
  Proof.
    revert vs. induction t as [|f r IH]; intros [|v vs] H; [done| | |].
    - destruct (H 0) as [[_ ?]|(l & x & ? & _ & _)]; done.
    - destruct (H 0) as [[? _]|(l & x & _ & ? & _)]; done.
    - apply holds_cons in H as [_ H]. apply IH in H. simpl. lia.
  Qed.
  Lemma holds_live t vs s l : holds t vs s -> component t l -> exists v, tmem s !! l = Some v.
  Proof.
    intros H [i Hi]. destruct (H i) as [[H1 _]|(l' & v & H1 & _ & H3)]; [by rewrite Hi in H1|].
    rewrite Hi in H1. injection H1 as ->. by exists v.
  Qed.

  Lemma take_eq l v (s : st) : tmem s !! l = Some v ->
    t_take moved l s = Ok (v, TSt (<[l := moved v]> (tmem s)) (tnext s) (tworld s)).
  Proof. intros H. unfold t_take, bind, t_read, t_write, ret. by rewrite H, H. Qed.
  Lemma write_eq l v x (s : st) : tmem s !! l = Some v ->
    t_write l x s = Ok (tt, TSt (<[l := x]> (tmem s)) (tnext s) (tworld s)).
  Proof. intros H. unfold t_write. by rewrite H. Qed.

  (** *** Construction *)
  Lemma ctor_ok convs : forall args s, length convs = length args -> wf s ->
    exists t s', t_ctor convs args s = Ok (t, s') /\ wf s' /\
      holds t (zip_with (fun c a => c a) convs args) s' /\ apart t /\
      only (fun l => (tnext s <= l)%N) s s' /\
      (forall l, component t l -> (tnext s <= l < tnext s')%N) /\ (tnext s <= tnext s')%N /\
      tworld s' = tworld s.
  Proof.
    induction convs as [|c cs IH]; intros [|a r] s Hl Hw; try done; simpl.
    - exists TNil, s. split_and!; [done|done|apply holds_nil|by intros ???|done| |lia|done].
      intros l H. by apply component_nil in H.
    - injection Hl as Hl. set (s1 := TSt (<[tnext s := c a]> (tmem s)) (tnext s + 1)%N (tworld s)).
      assert (wf s1) as Hw1.
      { intros l v. simpl. destruct (decide (l = tnext s)) as [->|]; [lia|].
        rewrite lookup_insert_ne by done. intros H. apply Hw in H. lia. }
      destruct (IH r s1 Hl Hw1) as (t & s2 & E & Hw2 & Hh & Ha & Ho & Hc & Hn & Hwd).
      assert (~ component t (tnext s)) as Hnc.
      { intros H. apply Hc in H. simpl in H. lia. }
      exists (TCons (tnext s) t), s2. split_and!.
      + unfold bind, t_alloc, ret. fold s1. by rewrite E.
      + done.
      + apply holds_cons. split; [|done]. rewrite Ho by (simpl; lia). simpl. by rewrite lookup_insert.
      + by apply apart_cons.
      + intros l Hl2. rewrite Ho by (simpl; lia). simpl. rewrite lookup_insert_ne by lia. done.
      + intros l H. apply component_cons in H as [->|H]; [simpl in *; lia|].
        apply Hc in H. simpl in H. lia.
      + simpl in Hn. lia.
      + done.
  Qed.

  (** C49, construction: the tuple built from [args] has exactly the (converted)
      arguments as components, in order; its components are new and pairwise
      distinct; nothing else changes. *)
  Theorem C49_construct convs args s : length convs = length args -> wf s ->
    exists t s', t_ctor convs args s = Ok (t, s') /\
      holds t (zip_with (fun c a => c a) convs args) s' /\ apart t /\
      t_size t = N.of_nat (length args) /\
      only (fun l => component t l) s s' /\
      (forall l, component t l -> tmem s !! l = None) /\ wf s' /\ tworld s' = tworld s.
  Proof.
    intros Hl Hw. destruct (ctor_ok convs args s Hl Hw) as (t & s' & E & Hw' & Hh & Ha & Ho & Hc & Hn & Hwd).
    exists t, s'. split_and!; try done.
    - rewrite (holds_length _ _ _ Hh), zip_with_length. f_equal. lia.
    - clear Hh Ha. revert s t s' E Hl Hw Hw' Ho Hc Hn Hwd. revert args.
      induction convs as [|c cs IH]; intros [|a r] s t s' E Hl Hw Hw' Ho Hc Hn Hwd; try done; simpl in E.
      + injection E as <- <-. done.
      + injection Hl as Hl. unfold bind, t_alloc, ret in E.
        set (s1 := TSt (<[tnext s := c a]> (tmem s)) (tnext s + 1)%N (tworld s)) in *.
        assert (wf s1) as Hw1.
        { intros l v. simpl. destruct (decide (l = tnext s)) as [->|]; [lia|].
          rewrite lookup_insert_ne by done. intros H. apply Hw in H. lia. }
        destruct (ctor_ok cs r s1 Hl Hw1) as (t2 & s2 & E2 & Hw2 & Hh2 & Ha2 & Ho2 & Hc2 & Hn2 & Hwd2).
        rewrite E2 in E. injection E as <- <-.
        pose proof (IH r s1 t2 s2 E2 Hl Hw1 Hw2 Ho2 Hc2 Hn2 Hwd2) as Hon.
        intros l Hnl. rewrite component_cons in Hnl. rewrite (Hon l) by tauto. simpl.
        rewrite lookup_insert_ne; [done|]. intros <-. tauto.
    - intros l H. apply Hc in H. destruct (tmem s !! l) eqn:E2; [|done]. apply Hw in E2. lia.
  Qed.

  (** [make_tuple] copies its arguments. *)
  Theorem C49_make_tuple args s : wf s ->
    exists t s', t_make args s = Ok (t, s') /\ holds t args s' /\ apart t /\
      only (fun l => component t l) s s' /\ wf s'.
  Proof.
    intros Hw. unfold t_make.
    destruct (C49_construct (replicate (length args) (fun v => v)) args s) as (t & s' & E & Hh & Ha & _ & Ho & _ & Hw' & _);
      [by rewrite replicate_length|done|].
    exists t, s'. split_and!; try done.
    replace args with (zip_with (fun (c : V -> V) a => c a) (replicate (length args) (fun v => v)) args) at 1; [done|].
    clear. induction args as [|a args IH]; [done|]. simpl. by rewrite IH.
  Qed.

  (** *** Access *)
  (** [get<i>] refers to the [i]-th component and does not exist for other
      [i]; [first]/[second] exist for pairs only. *)
  Theorem C49_get t vs s : holds t vs s ->
    (forall i v, vs !! i = Some v -> exists l, t_get i t = Some l /\ t_read l s = Ok (v, s)) /\
    (forall i, vs !! i = None -> t_get i t = None) /\
    t_size t = N.of_nat (length vs) /\
    (length vs = 2 -> t_first t = t_get 0 t /\ t_second t = t_get 1 t) /\
    (length vs <> 2 -> t_first t = None /\ t_second t = None).
  Proof.
    intros H. split_and!.
    - intros i v Hi. destruct (H i) as [[_ H1]|(l & v' & H1 & H2 & H3)]; [by rewrite Hi in H1|].
      rewrite Hi in H2. injection H2 as <-. exists l. split; [done|]. unfold t_read. by rewrite H3.
    - intros i Hi. destruct (H i) as [[H1 _]|(l & v' & H1 & H2 & H3)]; [done|by rewrite Hi in H2].
    - by eapply holds_length.
    - intros Hl. pose proof (holds_length _ _ _ H) as Hs. unfold t_first, t_second. rewrite Hs, Hl. simpl.
      destruct t as [|f [|g r]]; simpl in *; done.
    - intros Hl. pose proof (holds_length _ _ _ H) as Hs. unfold t_first, t_second. rewrite Hs.
      destruct (N.eqb_spec (N.of_nat (length vs)) 2); [lia|done].
  Qed.

  (** Writing through the reference [get<i>(t)] changes that component only. *)
  Theorem C49_set t vs s i v : holds t vs s -> apart t -> i < length vs ->
    exists l s', t_get i t = Some l /\ t_write l v s = Ok (tt, s') /\
      holds t (<[i := v]> vs) s' /\ only (fun l' => l' = l) s s'.
  Proof.
    intros H Ha Hi. destruct (H i) as [[_ H1]|(l & v' & H1 & H2 & H3)].
    { apply lookup_ge_None in H1. lia. }
    exists l, (TSt (<[l := v]> (tmem s)) (tnext s) (tworld s)). split_and!; [done| | |].
    - unfold t_write. by rewrite H3.
    - intros j. destruct (decide (i = j)) as [<-|Hne].
      + right. exists l, v. split_and!; [done|by apply list_lookup_insert|apply lookup_insert].
      + rewrite list_lookup_insert_ne by done. destruct (H j) as [?|(l2 & v2 & G1 & G2 & G3)]; [by left|].
        right. exists l2, v2. split_and!; [done|done|]. simpl. rewrite lookup_insert_ne; [done|].
        intros ->. apply Hne. by apply (Ha _ _ l2).
    - intros l' Hl'. simpl. by rewrite lookup_insert_ne.
  Qed.

  (** *** Assignment *)
  Lemma conv_assign_ok t : forall convs u xs ys s,
    holds t xs s -> holds u ys s -> length xs = length ys -> length convs = length ys ->
    apart t -> disjoint t u ->
    exists s', t_conv_assign convs t u s = Ok (tt, s') /\
      holds t (zip_with (fun c a => c a) convs ys) s' /\ only (component t) s s' /\
      tworld s' = tworld s.
  Proof.
    induction t as [|f r IH]; intros convs u xs ys s Ht Hu Hl Hc Ha Hd.
    - destruct xs as [|x xs]; [|apply holds_cons_inv in Ht as (?&?&?); done].
      destruct ys as [|y ys]; [|done]. destruct convs; [|done].
      apply holds_nil_inv in Hu as ->. exists s. split_and!; [done|apply holds_nil|done|done].
    - destruct xs as [|x xs]; [by apply holds_nil_inv in Ht|].
      destruct ys as [|y ys]; [done|]. destruct convs as [|c cs]; [done|].
      destruct (holds_cons_inv _ _ _ _ Hu) as (f2 & r2 & ->).
      apply holds_cons in Ht as [Hf Hr]. apply holds_cons in Hu as [Hf2 Hr2].
      apply apart_cons in Ha as [Hnf Ha]. simpl in *. injection Hl as Hl. injection Hc as Hc.
      set (s1 := TSt (<[f := c y]> (tmem s)) (tnext s) (tworld s)).
      assert (only (fun l => l = f) s s1) as Ho1.
      { intros l Hl2. simpl. by rewrite lookup_insert_ne. }
      destruct (IH cs r2 xs ys s1) as (s' & E & Hh & Ho & Hwd); [| |done|done|done| |].
      + eapply holds_only; [done|done|]. by intros l ? ->.
      + eapply holds_only; [done|done|]. intros l H1 ->. apply (Hd f); apply component_cons; [by left|by right].
      + intros l H1 H2. apply (Hd l); apply component_cons; by right.
      + exists s'. split_and!.
        * unfold bind, t_read, t_write. rewrite Hf2, Hf. fold s1. done.
        * apply holds_cons. split; [|done]. rewrite Ho by done. simpl. by rewrite lookup_insert.
        * intros l Hl2. rewrite component_cons in Hl2. rewrite Ho by tauto. rewrite Ho1 by tauto. done.
        * done.
  Qed.

  Lemma copy_conv t : forall u (s : st) n, t_size t = N.of_nat n ->
    t_copy_loop t u s = t_conv_assign (replicate n (fun v : V => v)) t u s.
  Proof.
    induction t as [|f r IH]; intros u s n Hn; simpl in *.
    - destruct n; [|lia]. by destruct u.
    - destruct n as [|n]; [lia|]. simpl. destruct u as [|f2 r2]; [done|].
      unfold bind. destruct (t_read f2 s) as [[v s1]|]; [|done].
      destruct (t_write f v s1) as [[? s2]|]; [|done]. apply IH. lia.
  Qed.

  Lemma zip_id (ys : list V) n : length ys = n ->
    zip_with (fun (c : V -> V) a => c a) (replicate n (fun v => v)) ys = ys.
  Proof. revert n. induction ys as [|y ys IH]; intros [|n] H; simpl in *; try done. f_equal. apply IH. lia. Qed.

  (** Copy and converting assignment replace every component and nothing else;
      the source is unchanged; self-assignment changes nothing. *)
  Theorem C49_assign t u xs ys s :
    holds t xs s -> holds u ys s -> length xs = length ys -> apart t -> disjoint t u ->
    (exists s', t_copy_assign false t u s = Ok (tt, s') /\ holds t ys s' /\ holds u ys s' /\
       only (component t) s s') /\
    (forall convs, length convs = length ys ->
       exists s', t_conv_assign convs t u s = Ok (tt, s') /\
         holds t (zip_with (fun c a => c a) convs ys) s' /\ holds u ys s' /\ only (component t) s s') /\
    t_copy_assign true t t s = Ok (tt, s).
  Proof.
    intros Ht Hu Hl Ha Hd.
    assert (forall convs, length convs = length ys ->
       exists s', t_conv_assign convs t u s = Ok (tt, s') /\
         holds t (zip_with (fun c a => c a) convs ys) s' /\ holds u ys s' /\ only (component t) s s') as Hconv.
    { intros convs Hc. destruct (conv_assign_ok t convs u xs ys s) as (s' & E & Hh & Ho & _); try done.
      exists s'. split_and!; try done. eapply holds_only; [done|done|]. intros l H1 H2. by apply (Hd l). }
    split_and!; [|done|done].
    destruct (Hconv (replicate (length ys) (fun v => v))) as (s' & E & Hh & Hu' & Ho); [by rewrite replicate_length|].
    exists s'. split_and!; try done.
    - unfold t_copy_assign. rewrite (copy_conv _ _ _ (length ys)); [done|].
      rewrite (holds_length _ _ _ Ht). by rewrite Hl.
    - by rewrite zip_id in Hh.
  Qed.

  Lemma move_assign_ok t : forall u xs ys s,
    holds t xs s -> holds u ys s -> length xs = length ys ->
    apart t -> apart u -> disjoint t u ->
    exists s', t_move_loop moved t u s = Ok (tt, s') /\
      holds t ys s' /\ holds u (moved <$> ys) s' /\ only (fun l => component t l \/ component u l) s s'.
  Proof.
    induction t as [|f r IH]; intros u xs ys s Ht Hu Hl Ha Hau Hd.
    - destruct xs as [|x xs]; [|apply holds_cons_inv in Ht as (?&?&?); done].
      destruct ys as [|y ys]; [|done].
      apply holds_nil_inv in Hu as ->. exists s. split_and!; [done|apply holds_nil|apply holds_nil|done].
    - destruct xs as [|x xs]; [by apply holds_nil_inv in Ht|].
      destruct ys as [|y ys]; [done|].
      destruct (holds_cons_inv _ _ _ _ Hu) as (f2 & r2 & ->).
      apply holds_cons in Ht as [Hf Hr]. apply holds_cons in Hu as [Hf2 Hr2].
      apply apart_cons in Ha as [Hnf Ha]. apply apart_cons in Hau as [Hnf2 Hau]. simpl in *. injection Hl as Hl.
      assert (f <> f2) as Hne.
      { intros ->. apply (Hd f2); apply component_cons; by left. }
      set (s1 := TSt (<[f := y]> (<[f2 := moved y]> (tmem s))) (tnext s) (tworld s)).
      assert (only (fun l => l = f \/ l = f2) s s1) as Ho1.
      { intros l Hl2. simpl. rewrite !lookup_insert_ne by (intros Heq; apply Hl2; rewrite Heq; tauto). done. }
      assert (forall l, component r l -> ~ (l = f \/ l = f2)) as Hcr.
      { intros l H1 [->| ->]; [done|]. apply (Hd f2); apply component_cons; [by right|by left]. }
      assert (forall l, component r2 l -> ~ (l = f \/ l = f2)) as Hcr2.
      { intros l H1 [->| ->]; [|done]. apply (Hd f); apply component_cons; [by left|by right]. }
      destruct (IH r2 xs ys s1) as (s' & E & Hh & Hh2 & Ho); [| |done|done|done| |].
      + by eapply holds_only.
      + by eapply holds_only.
      + intros l H1 H2. apply (Hd l); apply component_cons; by right.
      + assert (~ (component r f \/ component r2 f)) as Hx.
        { intros [?|H2]; [done|]. by apply (Hcr2 f H2); left. }
        assert (~ (component r f2 \/ component r2 f2)) as Hx2.
        { intros [H2|?]; [|done]. by apply (Hcr f2 H2); right. }
        exists s'. split_and!.
        * unfold bind. rewrite (take_eq _ _ _ Hf2). rewrite (write_eq f x); [done|].
          simpl. by rewrite lookup_insert_ne.
        * apply holds_cons. split; [|done]. rewrite Ho by done. simpl. by rewrite lookup_insert.
        * csimpl. apply holds_cons. split; [|done]. rewrite Ho by done. simpl.
          rewrite lookup_insert_ne by done. by rewrite lookup_insert.
        * intros l Hl2. rewrite !component_cons in Hl2. rewrite Ho by tauto. rewrite Ho1 by tauto. done.
  Qed.

  (** Move assignment moves every component over. *)
  Theorem C49_move_assign t u xs ys s :
    holds t xs s -> holds u ys s -> length xs = length ys -> apart t -> apart u -> disjoint t u ->
    (exists s', t_move_assign moved false t u s = Ok (tt, s') /\ holds t ys s' /\
       holds u (moved <$> ys) s' /\ only (fun l => component t l \/ component u l) s s') /\
    t_move_assign moved true t t s = Ok (tt, s).
  Proof. intros. split; [by eapply move_assign_ok|done]. Qed.

  (** *** Copy and move construction *)
  Lemma copy_ctor_ok u : forall ys s, holds u ys s -> wf s ->
    exists t s', t_copy_ctor u s = Ok (t, s') /\ wf s' /\ holds t ys s' /\ apart t /\
      only (fun l => (tnext s <= l)%N) s s' /\
      (forall l, component t l -> (tnext s <= l < tnext s')%N) /\ (tnext s <= tnext s')%N.
  Proof.
    induction u as [|f r IH]; intros ys s Hu Hw; simpl.
    - destruct ys as [|y ys]; [|apply holds_cons_inv in Hu as (?&?&?); done].
      exists TNil, s. split_and!; [done|done|apply holds_nil|by intros ???|done| |lia].
      intros l H. by apply component_nil in H.
    - destruct ys as [|y ys]; [by apply holds_nil_inv in Hu|]. apply holds_cons in Hu as [Hf Hr].
      set (s1 := TSt (<[tnext s := y]> (tmem s)) (tnext s + 1)%N (tworld s)).
      assert (wf s1) as Hw1.
      { intros l v. simpl. destruct (decide (l = tnext s)) as [->|]; [lia|].
        rewrite lookup_insert_ne by done. intros H. apply Hw in H. lia. }
      assert (only (fun l => l = tnext s) s s1) as Ho1.
      { intros l Hl2. simpl. by rewrite lookup_insert_ne. }
      destruct (IH ys s1) as (t & s2 & E & Hw2 & Hh & Ha & Ho & Hc & Hn); [|done|].
      { eapply holds_only; [done|done|]. intros l Hl ->. destruct (holds_live _ _ _ _ Hr Hl) as [v Hv].
        apply Hw in Hv. lia. }
      assert (~ component t (tnext s)) as Hnc.
      { intros H. apply Hc in H. simpl in H. lia. }
      exists (TCons (tnext s) t), s2. split_and!.
      + unfold bind, t_read, t_alloc, ret. rewrite Hf. fold s1. by rewrite E.
      + done.
      + apply holds_cons. split; [|done]. rewrite Ho by (simpl; lia). simpl. by rewrite lookup_insert.
      + by apply apart_cons.
      + intros l Hl2. rewrite Ho by (simpl; lia). apply Ho1. lia.
      + intros l H. apply component_cons in H as [->|H]; [simpl in *; lia|].
        apply Hc in H. simpl in H. lia.
      + simpl in Hn. lia.
  Qed.
  Lemma move_ctor_ok u : forall ys s, holds u ys s -> apart u -> wf s ->
    exists t s', t_move_ctor moved u s = Ok (t, s') /\ wf s' /\ holds t ys s' /\ apart t /\
      holds u (moved <$> ys) s' /\
      only (fun l => (tnext s <= l)%N \/ component u l) s s' /\
      (forall l, component t l -> (tnext s <= l < tnext s')%N) /\ (tnext s <= tnext s')%N.
  Proof.
    induction u as [|f r IH]; intros ys s Hu Hau Hw; simpl.
    - destruct ys as [|y ys]; [|apply holds_cons_inv in Hu as (?&?&?); done].
      exists TNil, s. split_and!; [done|done|apply holds_nil|by intros ???|apply holds_nil|done| |lia].
      intros l H. by apply component_nil in H.
    - destruct ys as [|y ys]; [by apply holds_nil_inv in Hu|]. apply holds_cons in Hu as [Hf Hr].
      apply apart_cons in Hau as [Hnf Hau].
      assert (f < tnext s)%N as Hfn by (by eapply Hw).
      set (s1 := TSt (<[tnext s := y]> (<[f := moved y]> (tmem s))) (tnext s + 1)%N (tworld s)).
      assert (wf s1) as Hw1.
      { intros l v. simpl. destruct (decide (l = tnext s)) as [->|]; [lia|].
        rewrite lookup_insert_ne by done. destruct (decide (l = f)) as [->|]; [lia|].
        rewrite lookup_insert_ne by done. intros H. apply Hw in H. lia. }
      assert (only (fun l => l = tnext s \/ l = f) s s1) as Ho1.
      { intros l Hl2. simpl. rewrite !lookup_insert_ne by (intros Heq; apply Hl2; rewrite Heq; tauto). done. }
      assert (forall l, component r l -> (l < tnext s)%N) as Hrl.
      { intros l Hl. destruct (holds_live _ _ _ _ Hr Hl) as [v Hv]. by apply Hw in Hv. }
      destruct (IH ys s1) as (t & s2 & E & Hw2 & Hh & Ha & Hm & Ho & Hc & Hn); [|done|done|].
      { eapply holds_only; [done|done|]. intros l Hl [->| ->]; [|done]. apply Hrl in Hl. lia. }
      assert (~ component t (tnext s)) as Hnc.
      { intros H. apply Hc in H. simpl in H. lia. }
      assert (~ component r (tnext s)) as Hnr.
      { intros H. apply Hrl in H. lia. }
      exists (TCons (tnext s) t), s2. split_and!.
      + unfold bind. rewrite (take_eq _ _ _ Hf). unfold t_alloc, ret. simpl. fold s1. by rewrite E.
      + done.
      + apply holds_cons. split; [|done]. rewrite Ho by (simpl; intros [?|?]; [lia|done]). simpl.
        by rewrite lookup_insert.
      + by apply apart_cons.
      + csimpl. apply holds_cons. split; [|done]. rewrite Ho by (simpl; intros [?|?]; [lia|done]). simpl.
        rewrite lookup_insert_ne by lia. by rewrite lookup_insert.
      + intros l Hl2. rewrite component_cons in Hl2. rewrite Ho by (simpl; intros [?|?]; [apply Hl2; left; lia|tauto]).
        apply Ho1. intros [?|?]; [apply Hl2; left; lia|tauto].
      + intros l H. apply component_cons in H as [->|H]; [simpl in *; lia|].
        apply Hc in H. simpl in H. lia.
      + simpl in Hn. lia.
  Qed.

  (** A copy has the same components at new locations and leaves the source
      alone; a move takes them over. *)
  Theorem C49_copy_move_construct u ys s : holds u ys s -> apart u -> wf s ->
    (exists t s', t_copy_ctor u s = Ok (t, s') /\ holds t ys s' /\ holds u ys s' /\ apart t /\
       disjoint t u /\ (forall l v, tmem s !! l = Some v -> tmem s' !! l = Some v) /\ wf s') /\
    (exists t s', t_move_ctor moved u s = Ok (t, s') /\ holds t ys s' /\ holds u (moved <$> ys) s' /\
       apart t /\ disjoint t u /\
       (forall l v, ~ component u l -> tmem s !! l = Some v -> tmem s' !! l = Some v) /\ wf s').
  Proof.
    intros Hu Ha Hw.
    assert (forall l, component u l -> (l < tnext s)%N) as Hul.
    { intros l Hl. destruct (holds_live _ _ _ _ Hu Hl) as [v Hv]. by apply Hw in Hv. }
    split.
    - destruct (copy_ctor_ok u ys s Hu Hw) as (t & s' & E & Hw' & Hh & Hat & Ho & Hc & Hn).
      exists t, s'. split_and!; try done.
      + apply (holds_only _ _ _ _ _ Hu Ho). intros l Hl. apply Hul in Hl. lia.
      + intros l H1 H2. apply Hc in H1. apply Hul in H2. lia.
      + intros l v Hv. rewrite Ho; [done|]. apply Hw in Hv. lia.
    - destruct (move_ctor_ok u ys s Hu Ha Hw) as (t & s' & E & Hw' & Hh & Hat & Hm & Ho & Hc & Hn).
      exists t, s'. split_and!; try done.
      + intros l H1 H2. apply Hc in H1. apply Hul in H2. lia.
      + intros l v Hnc Hv. rewrite Ho; [done|]. apply Hw in Hv. intros [?|?]; [lia|done].
  Qed.

  (** *** Comparison *)
  Theorem C49_eq t u xs ys s : holds t xs s -> holds u ys s -> length xs = length ys ->
    exists b, t_eq eqb t u s = Ok (b, s) /\
      (b = true <-> forall i x y, xs !! i = Some x -> ys !! i = Some y -> eqb x y = true).
  Proof.
    revert u xs ys. induction t as [|f r IH]; intros u xs ys Ht Hu Hl.
    - destruct xs as [|x xs]; [|apply holds_cons_inv in Ht as (?&?&?); done].
      destruct ys as [|y ys]; [|done]. apply holds_nil_inv in Hu as ->. by exists true.
    - destruct xs as [|x xs]; [by apply holds_nil_inv in Ht|]. destruct ys as [|y ys]; [done|].
      destruct (holds_cons_inv _ _ _ _ Hu) as (f2 & r2 & ->).
      apply holds_cons in Ht as [Hf Hr]. apply holds_cons in Hu as [Hf2 Hr2]. injection Hl as Hl.
      destruct (IH r2 xs ys Hr Hr2 Hl) as (b & E & Hb).
      simpl. unfold bind, t_read, ret. rewrite Hf. simpl. rewrite Hf2.
      destruct (eqb x y) eqn:Exy.
      + exists b. split; [done|]. rewrite Hb. split.
        * intros H [|i] a c; simpl; [by intros [= <-] [= <-]|apply H].
        * intros H i a c. apply (H (S i)).
      + exists false. split; [done|]. split; [done|]. intros H. specialize (H 0 x y eq_refl eq_refl). congruence.
  Qed.

  (** *** for_each *)
  (** Calling [fn] on every value from left to right. *)
  Fixpoint visit (fn : V -> Wd -> V * Wd) (vs : list V) (w : Wd) : list V * Wd :=
    match vs with
    | [] => ([], w)
    | v :: r => let '(v1, w1) := fn v w in let '(r1, w2) := visit fn r w1 in (v1 :: r1, w2)
    end.
  Theorem C49_for_each fn t vs s : holds t vs s -> apart t ->
    exists s', t_for_each fn t s = Ok (tt, s') /\ holds t (visit fn vs (tworld s)).1 s' /\
      tworld s' = (visit fn vs (tworld s)).2 /\ only (component t) s s'.
  Proof.
    revert vs s. induction t as [|f r IH]; intros vs s Ht Ha.
    - destruct vs as [|x xs]; [|apply holds_cons_inv in Ht as (?&?&?); done]. by exists s.
    - destruct vs as [|x xs]; [by apply holds_nil_inv in Ht|]. apply holds_cons in Ht as [Hf Hr].
      apply apart_cons in Ha as [Hnf Ha]. simpl.
      destruct (fn x (tworld s)) as [x1 w1] eqn:Efn.
      set (s1 := TSt (<[f := x1]> (tmem s)) (tnext s) w1).
      assert (only (fun l => l = f) s s1) as Ho1.
      { intros l Hl2. simpl. by rewrite lookup_insert_ne. }
      destruct (IH xs s1) as (s' & E & Hh & Hwd & Ho); [|done|].
      { eapply holds_only; [done|done|]. by intros l ? ->. }
      exists s'. simpl in Hh, Hwd. destruct (visit fn xs w1) as [r1 w2]. simpl in *. split_and!.
      + unfold bind, t_call, t_read, bind. rewrite Hf, Efn. fold s1. done.
      + apply holds_cons. split; [|done]. rewrite Ho by done. simpl. by rewrite lookup_insert.
      + done.
      + intros l Hl2. rewrite component_cons in Hl2. rewrite Ho by tauto. rewrite Ho1 by tauto. done.
  Qed.

  (** *** tie *)
  Lemma tie_get ls i : t_get i (t_tie ls) = ls !! i.
  Proof. revert i. induction ls as [|l ls IH]; intros [|i]; try done. simpl. apply IH. Qed.

  (** [tie(x1, .., xn) = u] stores the components of [u] in the distinct
      variables x1 .. xn. *)
  Theorem C49_tie ls u ys s convs :
    NoDup ls -> length ls = length ys -> length convs = length ys ->
    (forall l, l ∈ ls -> exists v, tmem s !! l = Some v) ->
    holds u ys s -> (forall l, l ∈ ls -> ~ component u l) ->
    exists s', t_conv_assign convs (t_tie ls) u s = Ok (tt, s') /\
      (forall i l c y, ls !! i = Some l -> convs !! i = Some c -> ys !! i = Some y -> tmem s' !! l = Some (c y)) /\
      only (fun l => l ∈ ls) s s'.
  Proof.
    intros Hnd Hl Hlc Hlive Hu Hd.
    assert (forall l, component (t_tie ls) l <-> l ∈ ls) as Hcomp.
    { intros l. split.
      - intros [i Hi]. rewrite tie_get in Hi. by eapply elem_of_list_lookup_2.
      - intros [i Hi]%elem_of_list_lookup. exists i. by rewrite tie_get. }
    assert (exists xs, holds (t_tie ls) xs s /\ length xs = length ys) as (xs & Hh & Hlx).
    { rewrite <-Hl. clear -Hlive. induction ls as [|l ls IH].
      - exists []. split; [apply holds_nil|done].
      - destruct (Hlive l) as [v Hv]; [by left|]. destruct IH as (xs & Hx & Hlx); [set_solver|].
        exists (v :: xs). split; [by apply holds_cons|simpl; lia]. }
    destruct (conv_assign_ok (t_tie ls) convs u xs ys s) as (s' & E & Hh' & Ho & _); try done.
    - intros i j l. rewrite !tie_get. intros H1 H2. by eapply NoDup_lookup.
    - intros l H1 H2. apply (Hd l); [by apply Hcomp|done].
    - exists s'. split_and!; [done| |].
      + intros i l c y H1 H2 H3. destruct (Hh' i) as [[G _]|(l' & v & G1 & G2 & G3)].
        { rewrite tie_get in G. congruence. }
        rewrite tie_get, H1 in G1. injection G1 as <-.
        rewrite lookup_zip_with, H2 in G2. simpl in G2. rewrite H3 in G2. simpl in G2. congruence.
      + intros l Hl2. apply Ho. by rewrite Hcomp.
  Qed.
End Props.

(** [TupleElement<I, T>] / [ArgAtT] is list lookup. *)
Theorem C49_tuple_element {T} (ts : list T) i : arg_at i ts = ts !! i.
Proof. revert i. induction ts as [|t ts IH]; intros [|i]; try done. simpl. apply IH. Qed.

(** A triple of numbers; copying, doubling every component through for_each,
    comparing, tying. *)
Definition ex_s : tst nat (list nat) := TSt (list_to_map [(0%N, 7); (1%N, 8)]) 2 [].
Definition ex_prog : M (tst nat (list nat)) (bool * bool * option N) :=
  t <-- t_make [10; 20; 30] ;;
  u <-- t_copy_ctor t ;;
  b1 <-- t_eq Nat.eqb t u ;;
  t_for_each (fun v w => (v * 2, w ++ [v])) u ;;;
  b2 <-- t_eq Nat.eqb t u ;;
  v <-- t_make [1; 2] ;;
  t_conv_assign [S; fun x => x] (t_tie [0%N; 1%N]) v ;;;
  ret (b1, b2, t_get 2 t).
Example C49_ex :
  (exists s, ex_prog ex_s = Ok ((true, false, Some 4%N), s) /\ tworld s = [10; 20; 30] /\
     tmem s !! 7%N = Some 60 /\ tmem s !! 0%N = Some 2 /\ tmem s !! 1%N = Some 2) /\
  wf ex_s.
Proof.
  split.
  - eexists. split; [vm_compute; reflexivity|]. split_and!; reflexivity.
  - intros l v H. apply elem_of_list_to_map_2 in H.
    repeat (apply elem_of_cons in H as [[= -> ->]|H]; [simpl; lia|]). by apply elem_of_nil in H.
Qed.
(** The condition "distinct and apart" of C49_tie matters: [tie(a,b) = tie(b,a)]
    does not swap (as with std::tie). *)
Example C49_tie_alias_ex :
  exists s, t_copy_assign false (t_tie [0%N; 1%N]) (t_tie [1%N; 0%N]) ex_s = Ok (tt, s) /\
    tmem s !! 0%N = Some 8 /\ tmem s !! 1%N = Some 8.
Proof. eexists. split; [vm_compute; reflexivity|]. split; reflexivity. Qed.

Print Assumptions C49_construct.
Print Assumptions C49_make_tuple.
Print Assumptions C49_get.
Print Assumptions C49_set.
Print Assumptions C49_assign.
Print Assumptions C49_move_assign.
Print Assumptions C49_copy_move_construct.
Print Assumptions C49_eq.
Print Assumptions C49_for_each.
Print Assumptions C49_tie.
Print Assumptions C49_tuple_element.
