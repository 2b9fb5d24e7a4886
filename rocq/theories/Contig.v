(** * Contig: C92, iterators over contiguous memory

    The contract of [ContinuousIterator] and [ExactSizeIterator]
    (iter/iter_concepts.h:84-163): [len()] is the number of items still to
    come, [is_empty()] says whether that is 0, and [start_addr()] is the
    address of the next one, so that a consumer may take [len()] elements
    straight from memory. *)
From Verif Require Import Base IterSpec RangeModel RangeProps ArrExact.
Local Open Scope N_scope.

(** ** The code *)
(** slice.h:62-66 and array.h:136-140 [start_addr]: where [start] points, as
    an offset into the array. *)
Definition s_start_addr (it : siter) : N := s_start it.
Definition ar_start_addr (it : siter) : N := s_start it.
(** array.h:90-94 [start_addr] of the owning iterator: [&data[0]], whatever
    was handed out; an offset into its own [data]. *)
Definition ai_start_addr {A} (it : aiter (A:=A)) : N := 0.
(** What the memory of an owning iterator holds; [None] for an element that
    was moved away or never set. *)
Definition ai_cell {A} (it : aiter (A:=A)) (k : N) : option A :=
  match ai_data it !! N.to_nat k with Some (AVal x) => Some x | _ => None end.

(** ** The specification, in terms of calls only *)
Definition contiguous {A St} (step : de_op -> M St (de_out A)) (addr : St -> N) (cell : St -> N -> option A)
    (it : St) : Prop :=
  exists (xs : list A) it',
    step DLen it = Ok (ENum (N.of_nat (length xs)), it) /\
    step DEmpty it = Ok (EBool (N.of_nat (length xs) =? 0), it) /\
    run_ops step (replicate (S (length xs)) DNext) it = Ok ((EItem ∘ Some <$> xs) ++ [EItem None], it') /\
    forall k x, xs !! k = Some x -> cell it (addr it + N.of_nat k) = Some x.

(** How many items [next] gave. *)
Definition given {A} (ops : list de_op) (outs : list (de_out A)) : nat := length (got is_next ops outs).

Lemma drain_run {A} (xs : list A) : de_run xs (replicate (S (length xs)) DNext) = ([], (EItem ∘ Some <$> xs) ++ [EItem None]).
Proof. induction xs as [|x xs IH]; [done|]. csimpl in *. by rewrite IH. Qed.

Section Borrowed.
  Context {A : Type} (mem : list A).

  Lemma next_addr (step : de_op -> M siter (de_out A)) ops :
    (forall o it r it', step o it = Ok (r, it') ->
       s_start it' = s_start it + (match o, r with DNext, EItem (Some _) => 1 | _, _ => 0 end)) ->
    forall it outs it', run_ops step ops it = Ok (outs, it') -> s_start it' = s_start it + N.of_nat (given ops outs).
  Proof using Type.
    intros Hs. induction ops as [|o ops IH]; intros it outs it' H.
    { injection H as <- <-. unfold given. cbn. lia. }
    csimpl in H. unfold bind, ret in H. destruct (step o it) as [[r it1]|] eqn:E; [|done].
    destruct (run_ops step ops it1) as [[rs it2]|] eqn:E2; [|done]. injection H as <- <-.
    apply Hs in E. apply IH in E2. rewrite E2, E. unfold given. csimpl.
    destruct o, r as [[x|]| |]; csimpl; unfold given; lia.
  Qed.

  Lemma srep_contiguous (step : de_op -> M siter (de_out A)) it xs :
    (forall o it xs, o <> DLast -> srep mem it xs ->
       exists it', step o it = Ok ((de_step xs o).2, it') /\ srep mem it' (de_step xs o).1) ->
    (forall o it r it', o = DLen \/ o = DEmpty -> step o it = Ok (r, it') -> it' = it) ->
    srep mem it xs -> contiguous step s_start_addr (fun _ => nlookup mem) it.
  Proof using Type.
    intros Hstep Hsame Hr.
    destruct (de_refines step (srep mem) (fun o => o <> DLast) Hstep (replicate (S (length xs)) DNext) it xs)
      as (it' & E & _); [by apply Forall_replicate|done|].
    exists xs, it'. split; [|split; [|split]].
    - destruct (Hstep DLen it xs) as (it1 & E1 & _); [done|done|].
      pose proof (Hsame _ _ _ _ (or_introl eq_refl) E1) as ->. by rewrite E1.
    - destruct (Hstep DEmpty it xs) as (it1 & E1 & _); [done|done|].
      pose proof (Hsame _ _ _ _ (or_intror eq_refl) E1) as ->. rewrite E1. by destruct xs.
    - by rewrite E, drain_run.
    - intros k x Hk. pose proof (srep_len _ _ _ Hr) as Hl. pose proof (lookup_lt_Some _ _ _ Hk).
      destruct Hr as (H1 & H2 & ->). rewrite lookup_take, lookup_drop in Hk by lia.
      unfold nlookup, s_start_addr. destruct (N.ltb_spec (s_start it + N.of_nat k) (N.of_nat (length mem))); [|lia].
      rewrite <-Hk. f_equal. lia.
  Qed.

  (** After any calls, the [len()] elements from [start_addr()] on are what
      the iterator still gives, in order. *)
  Theorem C92_slice_partial p n ops : p + n <= N.of_nat (length mem) ->
    exists outs it, run_ops (s_step mem) ops (siter_new p n) = Ok (outs, it) /\
      contiguous (s_step mem) s_start_addr (fun _ => nlookup mem) it /\
      s_start_addr it = p + N.of_nat (given ops outs).
  Proof using Type.
    intros Hp. set (xs := take (N.to_nat n) (drop (N.to_nat p) mem)).
    destruct (de_refines (s_step mem) (srep mem) (fun _ => True) (fun o s ys _ => s_step_ok mem o s ys)
      ops (siter_new p n) xs) as (it & E & Hr); [by apply Forall_true| |].
    { split; [simpl; lia|]. split; [simpl; lia|]. simpl. unfold xs. f_equal. lia. }
    eexists _, it. split; [exact E|]. split.
    - eapply srep_contiguous; [intros; by apply s_step_ok| |exact Hr].
      intros o it1 r it2 [-> | ->]; csimpl; unfold bind, get_st, ret; by intros [= _ <-].
    - eapply next_addr in E; [exact E|]. intros o it1 r it2 H.
      destruct o; csimpl in H; unfold s_next, s_prev, s_last, bind, get_st, put_st, ret, deref, fail in H; csimpl in H;
        repeat case_match; unfold ret in *; try done; simplify_eq; csimpl; lia.
  Qed.
  Theorem C92_array_partial ops : Forall (fun o => o <> DLast) ops ->
    exists outs it, run_ops (ar_step mem) ops (siter_new 0 (N.of_nat (length mem))) = Ok (outs, it) /\
      contiguous (ar_step mem) ar_start_addr (fun _ => nlookup mem) it /\
      ar_start_addr it = N.of_nat (given ops outs).
  Proof using Type.
    intros Hf.
    destruct (de_refines (ar_step mem) (srep mem) (fun o => o <> DLast) (ar_step_ok mem)
      ops (siter_new 0 (N.of_nat (length mem))) mem) as (it & E & Hr); [done| |].
    { split; [simpl; lia|]. split; [simpl; lia|]. simpl. change (N.to_nat 0) with 0%nat. rewrite drop_0, take_ge; [done|lia]. }
    eexists _, it. split; [exact E|]. split.
    - eapply srep_contiguous; [intros; by apply ar_step_ok| |exact Hr].
      intros o it1 r it2 [-> | ->]; csimpl; unfold bind, get_st, ret; by intros [= _ <-].
    - eapply next_addr in E; [exact E|]. intros o it1 r it2 H.
      destruct o; csimpl in H; unfold ar_next, ar_prev, bind, get_st, put_st, ret, deref, fail in H; csimpl in H;
        repeat case_match; unfold ret in *; try done; simplify_eq; csimpl; lia.
  Qed.
End Borrowed.

(** ** The iterator [into_iter()] gives *)
Section Owned.
  Context {A : Type} (nn : nat) (dinit : acell A) (vinit : A) (eqb : A -> A -> bool).

  Lemma own_run_ok ops : (Z.of_nat nn <= imax usize_t)%Z -> forall (xs : list A) it ys outs, airep nn it xs ->
    own_run nn xs ops = Some (ys, outs) -> exists it', run_ops (ai_step nn) ops it = Ok (outs, it') /\ airep nn it' ys.
  Proof using vinit eqb.
    intros Hn. induction ops as [|o ops IH]; intros xs it ys outs Hr H; csimpl in *.
    { injection H as <- <-. by exists it. }
    pose proof (own_step_ok nn vinit eqb o it xs Hn Hr) as Ho. unfold bind, ret. destruct (own_step nn xs o) as [[xs1 x]|]; [|done].
    destruct Ho as (it1 & -> & Hr1). destruct (own_run nn xs1 ops) as [[xs2 os]|] eqn:E; [|done]. injection H as <- <-.
    destruct (IH _ _ _ _ Hr1 E) as (it2 & -> & Hr2). by exists it2.
  Qed.

  (** It meets the contract exactly as long as it has handed out nothing. *)
  Theorem C92_into_exact xs ops ys outs : length xs = nn -> (Z.of_nat nn <= imax usize_t)%Z ->
    own_run nn xs ops = Some (ys, outs) ->
    exists it it', ai_new nn dinit (AVal <$> xs) = Ok (it, replicate nn AMoved) /\
      run_ops (ai_step nn) ops it = Ok (outs, it') /\
      (contiguous (ai_step nn) ai_start_addr ai_cell it' <-> ys = xs).
  Proof using vinit eqb.
    intros Hl Hn Ho. unfold ai_new. rewrite (a_move_ok nn vinit eqb) by (rewrite ?replicate_length; done).
    assert (Hr : airep nn (AIter (AVal <$> xs) (Range 0 (Z.of_nat nn))) xs) by (by exists 0%nat).
    destruct (own_run_ok ops Hn _ _ _ _ Hr Ho) as (it' & E & Hr'). eexists _, it'. split; [done|]. split; [exact E|].
    assert (Hsuf : forall ops (xs ys : list A) outs, own_run nn xs ops = Some (ys, outs) -> exists pre, xs = pre ++ ys).
    { clear. induction ops as [|o ops IH]; intros xs ys outs H; csimpl in H; [injection H as <- <-; by exists []|].
      destruct (own_step nn xs o) as [[xs1 x]|] eqn:E; [|done]. destruct (own_run nn xs1 ops) as [[xs2 os]|] eqn:E2; [|done].
      injection H as <- <-. destruct (IH _ _ _ E2) as (pre & ->).
      assert (exists p0, xs = p0 ++ pre ++ xs2) as (p0 & ->); [|exists (p0 ++ pre); by rewrite <-(assoc_L app)].
      destruct o; csimpl in E; try done.
      - injection E as E _. destruct xs as [|x0 xs]; [exists []; done|exists [x0]]. csimpl in *. by rewrite E.
      - destruct xs; [|done]. injection E as E _. exists []. done.
      - injection E as E _. by exists [].
      - injection E as E _. by exists []. }
    destruct (Hsuf _ _ _ _ Ho) as (pre & Hpre). split.
    - intros (zs & it2 & Hlen & _ & Hrun & _). csimpl in Hlen. injection Hlen as Hlen.
      assert (Hz : length zs = nn) by (unfold ret in Hlen; simplify_eq; lia). clear Hlen.
      destruct (de_refines (ai_step nn) (airep nn) (fun o => o = DNext \/ o = DEmpty)
        (fun o it xs Ho => ai_step_ok nn vinit eqb o it xs Hn Ho) (replicate (S (length zs)) DNext) it' ys) as (it3 & E3 & _);
        [apply Forall_replicate; by left|done|].
      rewrite E3 in Hrun. injection Hrun as Hrun _.
      assert (Hge : (length zs <= length ys)%nat).
      { revert Hrun. clear. revert ys. induction zs as [|z zs IH]; intros ys H; [cbn; lia|].
        csimpl in H. destruct ys as [|y ys]; csimpl in H.
        - exfalso. destruct (de_run [] (replicate (length zs) DNext)). csimpl in H. done.
        - csimpl in IH. specialize (IH ys). destruct (de_run ys (DNext :: replicate (length zs) DNext)) eqn:E. csimpl in *.
          rewrite E in IH, H. csimpl in *. injection H as _ H. specialize (IH H). lia. }
      assert (length pre = 0)%nat; [|destruct pre; [by subst|done]].
      pose proof (f_equal length Hpre) as Hq. rewrite app_length in Hq. lia.
    - intros ->. destruct Hr' as (k & Hg & Hk & Hd). assert (k = 0)%nat as -> by lia. csimpl in Hd.
      assert (Hr' : airep nn it' xs) by (exists 0%nat; done).
      destruct (de_refines (ai_step nn) (airep nn) (fun o => o = DNext \/ o = DEmpty)
        (fun o it xs Ho => ai_step_ok nn vinit eqb o it xs Hn Ho) (replicate (S (length xs)) DNext) it' xs) as (it3 & E3 & _);
        [apply Forall_replicate; by left|done|].
      exists xs, it3. split; [csimpl; unfold ret; by rewrite Hl|]. split; [|split].
      + csimpl. unfold bind, get_st, ret. rewrite Hg. unfold r_is_empty. csimpl.
        destruct xs; csimpl in *; subst nn; [done|]. do 3 f_equal.
      + by rewrite E3, drain_run.
      + intros j x Hj. unfold ai_cell, ai_start_addr. rewrite Hd, N.add_0_l, Nat2N.id, list_lookup_fmap, Hj. done.
  Qed.
End Owned.

(** ** Examples, and what fails *)
Definition C92_full : Prop := forall (xs ys : list Z) outs ops it it' left,
  xs <> [] -> own_run (length xs) xs ops = Some (ys, outs) ->
  ai_new (length xs) AUndef (AVal <$> xs) = Ok (it, left) ->
  run_ops (ai_step (length xs)) ops it = Ok (outs, it') ->
  contiguous (ai_step (length xs)) ai_start_addr ai_cell it'.
(** One [next()]: [len()] is still 3, and [start_addr()] the element that was
    moved away. *)
Theorem C92_refuted : ~ C92_full.
Proof.
  intros H. specialize (H [1; 2; 3]%Z [2; 3]%Z [EItem (Some 1%Z)] [DNext] _ _ _ ltac:(done) eq_refl eq_refl eq_refl).
  destruct H as (xs & it' & Hl & _ & Hr & Hc). injection Hl as Hl. destruct xs as [|a [|b [|c [|]]]]; csimpl in *; try lia.
  specialize (Hc 0%nat a eq_refl). done.
Qed.
Example C92_refuted_ex :
  match ai_new 3 AUndef [AVal 1%Z; AVal 2%Z; AVal 3%Z] with
  | Ok (it, _) =>
      match run_ops (ai_step 3) [DNext; DLen] it with
      | Ok (outs, it') => outs = [EItem (Some 1%Z); ENum 3] /\ ai_start_addr it' = 0 /\ ai_cell it' 0 = None /\ ai_cell it' 1 = Some 2%Z
      | Err _ => False
      end
  | Err _ => False
  end.
Proof. done. Qed.
(** The example of iter_concepts.h:143-156, continued from the back. *)
Example C92_ex :
  match run_ops (ar_step [1; 2; 3]%Z) [DNext; DPrev] (siter_new 0 3) with
  | Ok (outs, it) => outs = [EItem (Some 1%Z); EItem (Some 3%Z)] /\ ar_start_addr it = 1 /\ s_len it = 1 /\
      nlookup [1; 2; 3]%Z (ar_start_addr it) = Some 2%Z
  | Err _ => False
  end.
Proof. done. Qed.
