(** * RangeProps: Range, Slice and Array properties C28-C33 *)
From Verif Require Import Base IterSpec RangeModel.
Local Open Scope Z_scope.

(** ** Specification *)

(** The integers [low .. high-1]. *)
Definition zrange (low high : Z) : list Z := seqZ low (high - low).

(** Arrays as sequences of [nn] values, [None] = unspecified. *)
Section ArrSpec.
  Context {A : Type} (nn : nat) (d : option A) (vinit : A) (eqb : A -> A -> bool).
  Notation aspec := (gmap nat (list (option A))).

  Definition all_some (b : list (option A)) : bool :=
    forallb (fun o => match o with Some _ => true | None => false end) b.
  Fixpoint opt_eq (a b : list (option A)) : bool :=
    match a, b with
    | Some x :: a, Some y :: b => eqb x y && opt_eq a b
    | [], [] => true
    | _, _ => false
    end.
  Definition acreate (s : aspec) i (a : list (option A)) (o : aout A) : option (aspec * aout A) :=
    match s !! i with Some _ => None | None => Some (<[i := a]> s, o) end.

  Definition arr_spec (s : aspec) (o : aop A) : option (aspec * aout A) :=
    match o with
    | ANew i => acreate s i (replicate nn (Some vinit)) AONone
    | ADef i => acreate s i (replicate nn d) AONone
    | AList i xs =>
        if (length xs <=? nn)%nat
        then acreate s i ((Some <$> xs) ++ replicate (nn - length xs) d) AONone else None
    | ACopy i j =>
        match s !! j with
        | Some b => if all_some b then acreate s i b AONone else None
        | None => None
        end
    | AMove i j =>
        match s !! j, s !! i with
        | Some b, None =>
            if all_some b then Some (<[i := b]> (<[j := replicate nn None]> s), AONone) else None
        | _, _ => None
        end
    | ACopyAsg i j =>
        match s !! i, s !! j with
        | Some a, Some b =>
            if Nat.eqb i j then Some (s, AONone)
            else if all_some b then Some (<[i := b]> s, AONone) else None
        | _, _ => None
        end
    | AMoveAsg i j =>
        match s !! i, s !! j with
        | Some a, Some b =>
            if Nat.eqb i j then Some (s, AONone)
            else if all_some b then Some (<[i := b]> (<[j := replicate nn None]> s), AONone)
            else None
        | _, _ => None
        end
    | ADestroy i => match s !! i with Some _ => Some (delete i s, AONone) | None => None end
    | AGet i k =>
        match s !! i with
        | Some a => match nlookup a k with Some (Some x) => Some (s, AOElem x) | _ => None end
        | None => None
        end
    | ASet i k x =>
        match s !! i with
        | Some a => if (k <? N.of_nat nn)%N then Some (<[i := <[N.to_nat k := Some x]> a]> s, AONone) else None
        | None => None
        end
    | AEq i j =>
        match s !! i, s !! j with
        | Some a, Some b =>
            if all_some a && all_some b then Some (s, AOBool (opt_eq a b)) else None
        | _, _ => None
        end
    | AFrom i src =>
        acreate s i ((Some <$> take nn src) ++ replicate (nn - length src) (Some vinit))
          (AORest (drop (S nn) src))
    end.
End ArrSpec.

(** ** Range *)
Section RangeProofs.
  Context (t : ity).

  Lemma zrange_nil l : zrange l l = [].
  Proof. unfold zrange. by replace (l - l) with 0 by lia. Qed.
  Lemma zrange_cons l h : l < h -> zrange l h = l :: zrange (l + 1) h.
  Proof.
    intros. unfold zrange. rewrite seqZ_cons by lia. f_equal. f_equal; lia.
  Qed.
  Lemma zrange_len l h : l <= h -> length (zrange l h) = Z.to_nat (h - l).
  Proof. intros. unfold zrange. by rewrite seqZ_length. Qed.

  Definition rrep (r : range) (xs : list Z) : Prop :=
    r_low r <= r_high r /\ in_ity t (r_low r) /\ in_ity t (r_high r) /\
    xs = zrange (r_low r) (r_high r).

  Definition r_allowed (o : de_op) : Prop := o = DNext \/ o = DEmpty.

  Lemma r_step_ok o r xs : r_allowed o -> rrep r xs ->
    exists r', r_step t o r = Ok ((de_step xs o).2, r') /\ rrep r' (de_step xs o).1.
  Proof.
    intros Ho (Hlh & Hl & Hh & ->). unfold in_ity in *. destruct Ho as [->| ->]; simpl.
    - unfold r_step, r_next, bind, get_st, ret, put_st, lift_o. simpl.
      destruct (Z.eqb_spec (r_low r) (r_high r)) as [E|Hne].
      + rewrite E, zrange_nil. exists r. split; [done|].
        split; [done|]. split; [done|]. split; [done|]. by rewrite E, zrange_nil.
      + unfold iinc. destruct (Z.ltb_spec (r_low r) (imax t)); [|lia].
        rewrite zrange_cons by lia. eexists. split; [done|].
        split; [simpl; lia|]. split; [unfold in_ity; simpl; lia|]. split; [done|]. done.
    - unfold bind, get_st, ret. exists r. split; [|done]. f_equal. f_equal. f_equal.
      unfold r_is_empty. destruct (Z.ltb_spec (r_low r) (r_high r)).
      + by rewrite zrange_cons by lia.
      + replace (r_high r) with (r_low r) by lia. by rewrite zrange_nil.
  Qed.

  Lemma r_for_ok : forall n l h, Z.to_nat (h - l) = n -> l <= h -> in_ity t l -> in_ity t h ->
    r_for t (S n) l h = Ok (zrange l h).
  Proof.
    induction n as [|n IH]; intros l h Hn Hlh Hl Hh.
    - cbn [r_for]. replace h with l by lia. by rewrite Z.eqb_refl, zrange_nil.
    - remember (S n) as m eqn:Hm. cbn [r_for]. subst m.
      destruct (Z.eqb_spec l h); [lia|]. unfold iinc, in_ity in *.
      destruct (Z.ltb_spec l (imax t)); [|lia].
      rewrite (IH (l + 1) h) by (unfold in_ity; lia). by rewrite (zrange_cons l h) by lia.
  Qed.

  Lemma zrange_elem l h x : x ∈ zrange l h <-> l <= x < h.
  Proof. unfold zrange. rewrite elem_of_seqZ. lia. Qed.

  Lemma zrange_nodup l h : NoDup (zrange l h).
  Proof. apply NoDup_seqZ. Qed.

  (** *** C31 *)
  Theorem C31_range_enumerates low high :
    low <= high -> in_ity t low -> in_ity t high ->
    (forall ops, Forall r_allowed ops ->
       exists r', run_ops (r_step t) ops (Range low high) = Ok ((de_run (zrange low high) ops).2, r')) /\
    r_for t (S (Z.to_nat (high - low))) low high = Ok (zrange low high) /\
    (forall x, r_contains (Range low high) x = true <-> x ∈ zrange low high) /\
    (r_is_empty (Range low high) = true <-> zrange low high = []).
  Proof.
    intros Hlh Hl Hh. split; [|split; [|split]].
    - intros ops Hf. destruct (de_refines (r_step t) rrep r_allowed r_step_ok ops (Range low high)
        (zrange low high) Hf) as (r' & E & _); [done|eauto].
    - by apply r_for_ok.
    - intros x. rewrite zrange_elem. unfold r_contains. simpl. lia.
    - unfold r_is_empty. simpl. destruct (Z.ltb_spec low high).
      + by rewrite zrange_cons by lia.
      + replace high with low by lia. by rewrite zrange_nil.
  Qed.

  (** What the two kinds of calls really do: [next] counts up from [low],
      [prev] counts down from [high] itself; the range is exhausted after
      [high - low] successful calls. *)
  Definition rexact (r : range) (o : de_op) : range * de_out Z :=
    match o with
    | DNext => if r_low r =? r_high r then (r, EItem None)
               else (Range (r_low r + 1) (r_high r), EItem (Some (r_low r)))
    | DPrev => if r_low r =? r_high r then (r, EItem None)
               else (Range (r_low r) (r_high r - 1), EItem (Some (r_high r)))
    | _ => (r, EBool (r_low r =? r_high r))
    end.
  Fixpoint rexact_run (r : range) (ops : list de_op) : list (de_out Z) :=
    match ops with
    | [] => []
    | o :: ops => (rexact r o).2 :: rexact_run (rexact r o).1 ops
    end.
  Definition r_has (o : de_op) : Prop := o = DNext \/ o = DPrev \/ o = DEmpty.

  (** *** C32 *)
  Theorem C32_range_both_ends_exact ops : forall low high,
    low <= high -> in_ity t low -> in_ity t high -> Forall r_has ops ->
    exists r', run_ops (r_step t) ops (Range low high) = Ok (rexact_run (Range low high) ops, r').
  Proof.
    induction ops as [|o ops IH]; intros low high Hlh Hl Hh Hf; [eexists; done|].
    apply Forall_cons in Hf as [Ho Hf]. cbn [run_ops rexact_run].
    assert (exists l h, l <= h /\ in_ity t l /\ in_ity t h /\
      r_step t o (Range low high) = Ok ((rexact (Range low high) o).2, Range l h) /\
      (rexact (Range low high) o).1 = Range l h) as (l & h & H1 & H2 & H3 & E & E').
    { unfold in_ity in *. destruct Ho as [->|[->| ->]]; simpl;
        unfold r_next, r_prev, bind, get_st, ret, put_st, lift_o, iinc, idec; simpl.
      - destruct (Z.eqb_spec low high); [by exists low, high|].
        destruct (Z.ltb_spec low (imax t)); [|lia]. exists (low + 1), high. unfold in_ity. simpl. lia || (repeat split; lia || done).
      - destruct (Z.eqb_spec low high); [by exists low, high|].
        destruct (Z.ltb_spec (imin t) high); [|lia]. exists low, (high - 1). simpl. repeat split; lia || done.
      - exists low, high. repeat split; try done || lia. f_equal. f_equal. f_equal. unfold r_is_empty. simpl.
        destruct (Z.ltb_spec low high), (Z.eqb_spec low high); try done; lia. }
    destruct (IH l h H1 H2 H3 Hf) as (r' & E2). exists r'. unfold bind, ret.
    rewrite E, E'. by rewrite E2.
  Qed.
  (** With [next] alone the full claim holds. *)
  Theorem C32_range_next_only_partial low high ops :
    low <= high -> in_ity t low -> in_ity t high -> Forall r_allowed ops ->
    exists r', run_ops (r_step t) ops (Range low high) = Ok ((de_run (zrange low high) ops).2, r').
  Proof. intros H1 H2 H3 Hf. by apply (proj1 (C31_range_enumerates low high H1 H2 H3)). Qed.
End RangeProofs.

(** The full claim is false: the first [prev] on [0, 3) hands out 3. *)
Definition range_de_claim : Prop := forall t low high ops,
  low <= high -> in_ity t low -> in_ity t high -> Forall r_has ops ->
  exists r', run_ops (r_step t) ops (Range low high) = Ok ((de_run (zrange low high) ops).2, r').
Theorem C32_range_prev_refuted : ~ range_de_claim.
Proof.
  intros H. destruct (H int_t 0 3 [DPrev]) as [r' E]; [lia|by split|by split|..].
  - apply Forall_singleton. unfold r_has. tauto.
  - vm_compute in E. done.
Qed.
Example C31_ex : 250 <= 255 /\ in_ity (Ity 0 255 true) 250 /\ in_ity (Ity 0 255 true) 255 /\
  zrange 250 255 = [250;251;252;253;254].
Proof. repeat split; try done; unfold in_ity; simpl; lia. Qed.
Example C32_ex : rexact_run (Range 0 3) [DPrev; DNext; DPrev; DNext] =
  [EItem (Some 3); EItem (Some 0); EItem (Some 2); EItem None].
Proof. done. Qed.

(** ** Slice *)
Section SliceProofs.
  Context {A : Type} (mem : list A).

  Definition srep (it : siter) (xs : list A) : Prop :=
    (s_start it <= s_end it)%N /\ (s_end it <= N.of_nat (length mem))%N /\
    xs = take (N.to_nat (s_end it - s_start it)) (drop (N.to_nat (s_start it)) mem).

  Lemma srep_len it xs : srep it xs -> length xs = N.to_nat (s_end it - s_start it).
  Proof. intros (H1&H2&->). rewrite take_length, drop_length. lia. Qed.

  Lemma srep_empty it : srep it [] -> s_start it = s_end it.
  Proof. intros H. pose proof (srep_len _ _ H). destruct H. simpl in *. lia. Qed.

  Lemma srep_front it x xs : srep it (x :: xs) ->
    nlookup mem (s_start it) = Some x /\ (s_start it < s_end it)%N /\
    srep (SIter (s_start it + 1) (s_end it)) xs.
  Proof.
    intros H. pose proof (srep_len _ _ H) as Hl. destruct H as (H1&H2&E). simpl in Hl.
    split; [|split; [lia|]].
    - unfold nlookup. destruct (N.ltb_spec (s_start it) (N.of_nat (length mem))); [|lia].
      assert ((x :: xs) !! 0%nat = Some x) as Hx by done. rewrite E in Hx.
      rewrite lookup_take in Hx by lia. rewrite lookup_drop in Hx. by rewrite Nat.add_0_r in Hx.
    - split; [simpl; lia|]. split; [done|]. simpl.
      replace (N.to_nat (s_start it + 1)) with (S (N.to_nat (s_start it))) by lia.
      replace (N.to_nat (s_end it - (s_start it + 1))) with (pred (N.to_nat (s_end it - s_start it))) by lia.
      destruct (drop (N.to_nat (s_start it)) mem) as [|y r] eqn:Ed; [by rewrite take_nil in E|].
      destruct (N.to_nat (s_end it - s_start it)) as [|m] eqn:Em; [done|]. simpl in E. injection E as <- ->.
      simpl. f_equal. replace (S (N.to_nat (s_start it))) with (N.to_nat (s_start it) + 1)%nat by lia.
      by rewrite <-drop_drop, Ed.
  Qed.

  Lemma srep_back it x xs : srep it (xs ++ [x]) ->
    nlookup mem (s_end it - 1) = Some x /\ (s_start it < s_end it)%N /\
    srep (SIter (s_start it) (s_end it - 1)) xs.
  Proof.
    intros H. pose proof (srep_len _ _ H) as Hl. destruct H as (H1&H2&E).
    rewrite app_length in Hl. simpl in Hl. split; [|split; [lia|]].
    - unfold nlookup. destruct (N.ltb_spec (s_end it - 1) (N.of_nat (length mem))); [|lia].
      assert ((xs ++ [x]) !! length xs = Some x) as Hx by by apply list_lookup_middle.
      rewrite E in Hx. rewrite lookup_take in Hx by lia. rewrite lookup_drop in Hx.
      rewrite <-Hx. f_equal. lia.
    - split; [simpl; lia|]. split; [simpl; lia|]. simpl.
      replace (N.to_nat (s_end it - 1 - s_start it)) with (length xs) by lia.
      assert (take (length xs) (xs ++ [x]) = xs) as Ht by by rewrite take_app.
      rewrite E, take_take in Ht. rewrite <-Ht at 1. f_equal. lia.
  Qed.

  Lemma s_step_ok o it xs : srep it xs ->
    exists it', s_step mem o it = Ok ((de_step xs o).2, it') /\ srep it' (de_step xs o).1.
  Proof.
    intros H. pose proof (srep_len _ _ H) as Hl.
    destruct o; simpl; unfold s_next, s_prev, s_last, s_len, s_is_empty, bind, get_st, ret, put_st, deref; simpl.
    - destruct xs as [|x xs]; simpl.
      + rewrite (proj2 (N.leb_le _ _)) by (apply srep_empty in H; lia). eauto.
      + destruct (srep_front _ _ _ H) as (E & Hlt & H').
        destruct (N.leb_spec (s_end it) (s_start it)); [lia|]. rewrite E. unfold ret. eauto.
    - destruct xs as [|x xs _] using rev_ind; simpl.
      + rewrite (proj2 (N.leb_le _ _)) by (apply srep_empty in H; lia). eauto.
      + destruct (srep_back _ _ _ H) as (E & Hlt & H').
        destruct (N.leb_spec (s_end it) (s_start it)); [lia|]. rewrite E. unfold ret.
        rewrite last_snoc, app_length. simpl. rewrite Nat.add_sub, take_app. eauto.
    - exists it. split; [|done]. do 3 f_equal. lia.
    - exists it. split; [|done]. do 3 f_equal. destruct xs; simpl in Hl.
      + apply srep_empty in H. by apply N.eqb_eq.
      + apply N.eqb_neq. lia.
    - destruct xs as [|x xs _] using rev_ind; simpl.
      + rewrite (proj2 (N.eqb_eq _ _)) by (by apply srep_empty in H). eauto.
      + destruct (srep_back _ _ _ H) as (E & Hlt & H').
        rewrite (proj2 (N.eqb_neq _ _)) by lia. rewrite E. unfold ret. rewrite last_snoc. eauto.
  Qed.

  Lemma ar_step_ok o it xs : o <> DLast -> srep it xs ->
    exists it', ar_step mem o it = Ok ((de_step xs o).2, it') /\ srep it' (de_step xs o).1.
  Proof.
    intros Ho H. destruct (s_step_ok o it xs H) as (it' & E & H'). exists it'. split; [|done].
    rewrite <-E. destruct H as (H1&_&_).
    assert ((s_end it <=? s_start it)%N = s_is_empty it) as Hq.
    { unfold s_is_empty. destruct (N.leb_spec (s_end it) (s_start it)), (N.eqb_spec (s_start it) (s_end it));
        try done; lia. }
    destruct o; simpl; unfold s_next, s_prev, ar_next, ar_prev, bind, get_st; try done; by rewrite ?Hq.
  Qed.

  (** *** C33 *)
  Theorem C33_slice_iterator p n ops :
    (p + n <= N.of_nat (length mem))%N ->
    let xs := take (N.to_nat n) (drop (N.to_nat p) mem) in
    slice_iter (Slice (Some p) n) = Some (siter_new p n) /\
    (slice_into_iter (Slice (Some p) n)).1 = Some (siter_new p n) /\
    exists it', run_ops (s_step mem) ops (siter_new p n) = Ok ((de_run xs ops).2, it').
  Proof.
    intros Hpn xs. split; [done|]. split; [done|].
    destruct (de_refines (s_step mem) srep (fun _ => True) (fun o s ys _ => s_step_ok o s ys)
      ops (siter_new p n) xs) as (it' & E & _); [by apply Forall_true| |eauto].
    split; [simpl; lia|]. split; [simpl; lia|]. simpl. unfold xs. f_equal. lia.
  Qed.

  (** *** C29, iter() *)
  Theorem C29_array_iter ops :
    Forall (fun o => o <> DLast) ops ->
    exists it', run_ops (ar_step mem) ops (siter_new 0 (N.of_nat (length mem))) = Ok ((de_run mem ops).2, it').
  Proof.
    intros Hf. destruct (de_refines (ar_step mem) srep (fun o => o <> DLast) ar_step_ok
      ops (siter_new 0 (N.of_nat (length mem))) mem) as (it' & E & _); [done| |eauto].
    split; [simpl; lia|]. split; [simpl; lia|]. simpl. change (N.to_nat 0) with 0%nat. rewrite drop_0, take_ge; [done|lia].
  Qed.
End SliceProofs.

(** The meaning of [de_run], independent of its definition: items from the
    front, the rest, items from the back reassemble the sequence. *)
Theorem C33_ends_meet {A} (xs ys : list A) ops outs :
  de_run xs ops = (ys, outs) ->
  xs = got is_next ops outs ++ ys ++ reverse (got is_prev ops outs).
Proof. apply de_run_meets. Qed.
Example C33_ex : (1 + 3 <= N.of_nat (length [10;11;12;13;14]))%N /\
  (de_run (take 3 (drop 1 [10;11;12;13;14])) [DLen; DNext; DPrev; DLast; DNext; DNext; DEmpty]).2 =
  [ENum 3; EItem (Some 11); EItem (Some 13); EItem (Some 12); EItem (Some 12); EItem None; EBool true].
Proof. split; [simpl; lia|done]. Qed.

(** ** Array *)
Section ArrProofs.
  Context {A : Type} (nn : nat) (dinit : acell A) (vinit : A) (eqb : A -> A -> bool).
  Notation arr := (list (acell A)).
  Implicit Types xs ys src : list A.

  Definition abs (c : acell A) : option A := match c with AVal x => Some x | _ => None end.
  Definition arep (a : arr) (b : list (option A)) : Prop := length a = nn /\ abs <$> a = b.
  Definition awrep (w : gmap nat arr) (s : gmap nat (list (option A))) : Prop :=
    forall i, match w !! i, s !! i with
              | Some a, Some b => arep a b
              | None, None => True
              | _, _ => False
              end.
  Notation sstep := (arr_spec nn (abs dinit) vinit eqb).
  Notation mstep := (arr_step nn dinit vinit eqb).

  Lemma arep_len a b : arep a b -> length b = nn.
  Proof. intros [H <-]. by rewrite fmap_length. Qed.

  Lemma all_some_vals (a : arr) : all_some (abs <$> a) = true -> exists xs, a = AVal <$> xs.
  Proof.
    induction a as [|c a IH]; csimpl; [by exists []|]. rewrite andb_true_iff. intros [H1 H2].
    destruct (IH H2) as [xs ->]. destruct c as [|x|]; try done. by exists (x :: xs).
  Qed.
  Lemma a_read_vals xs k x : xs !! k = Some x -> a_read (AVal <$> xs) k = Ok x.
  Proof. intros H. unfold a_read. by rewrite list_lookup_fmap, H. Qed.

  Lemma insert_take_drop (a : arr) pos x : (pos < length a)%nat ->
    <[pos := x]> a = take pos a ++ x :: drop (S pos) a.
  Proof. intros. by apply insert_take_drop. Qed.

  Lemma a_copy_loop_ok xs : forall n pos (a : arr),
    (pos + n = length xs)%nat -> length a = length xs ->
    a_copy_loop n pos a (AVal <$> xs) = Ok (take pos a ++ (AVal <$> drop pos xs)).
  Proof.
    induction n as [|n IH]; intros pos a Hp Ha; csimpl.
    - rewrite drop_ge by lia. rewrite take_ge by lia. by rewrite app_nil_r.
    - destruct (lookup_lt_is_Some_2 xs pos) as [x Hx]; [lia|].
      rewrite (a_read_vals _ _ _ Hx). rewrite IH by (rewrite ?insert_length; lia).
      f_equal. rewrite (drop_S _ _ _ Hx). rewrite insert_take_drop by lia.
      change (AVal x :: drop (S pos) a) with ([AVal x] ++ drop (S pos) a).
      rewrite (assoc_L app), take_app_alt by (rewrite app_length, take_length; csimpl; lia).
      by rewrite <-(assoc_L app).
  Qed.

  Lemma a_copy_ok a xs : length xs = nn -> length a = nn -> a_copy nn a (AVal <$> xs) = Ok (AVal <$> xs).
  Proof. intros. unfold a_copy. by rewrite a_copy_loop_ok by lia. Qed.

  Lemma a_move_loop_ok xs : forall n pos (a : arr),
    (pos + n = length xs)%nat -> length a = length xs ->
    a_move_loop n pos a (replicate pos AMoved ++ (AVal <$> drop pos xs)) =
      Ok (take pos a ++ (AVal <$> drop pos xs), replicate (length xs) AMoved).
  Proof.
    induction n as [|n IH]; intros pos a Hp Ha; csimpl.
    - rewrite drop_ge by lia. rewrite take_ge by lia. csimpl. rewrite !app_nil_r.
      by replace pos with (length xs) by lia.
    - destruct (lookup_lt_is_Some_2 xs pos) as [x Hx]; [lia|].
      rewrite (drop_S _ _ _ Hx). csimpl. unfold a_read.
      rewrite lookup_app_r, replicate_length, Nat.sub_diag by (rewrite replicate_length; lia). csimpl.
      rewrite insert_app_r_alt, replicate_length, Nat.sub_diag by (rewrite replicate_length; lia). csimpl.
      assert (replicate pos AMoved ++ AMoved :: (AVal <$> drop (S pos) xs) =
        replicate (S pos) (AMoved : acell A) ++ (AVal <$> drop (S pos) xs)) as ->.
      { rewrite replicate_S_end, <-(assoc_L app). done. }
      rewrite IH by (rewrite ?insert_length; lia).
      f_equal. f_equal. rewrite insert_take_drop by lia.
      change (AVal x :: drop (S pos) a) with ([AVal x] ++ drop (S pos) a).
      rewrite (assoc_L app), take_app_alt by (rewrite app_length, take_length; csimpl; lia).
      by rewrite <-(assoc_L app).
  Qed.

  Lemma a_move_ok a xs : length xs = nn -> length a = nn ->
    a_move nn a (AVal <$> xs) = Ok (AVal <$> xs, replicate nn AMoved).
  Proof.
    intros H1 H2. unfold a_move. pose proof (a_move_loop_ok xs nn 0 a) as H. csimpl in H.
    rewrite !drop_0 in H. rewrite H by lia. by rewrite H1.
  Qed.

  Lemma a_list_loop_ok xs : forall pos (a : arr),
    (pos + length xs <= nn)%nat -> length a = nn -> (pos < nn \/ xs = [])%nat ->
    a_list_loop nn xs pos a = take pos a ++ (AVal <$> xs) ++ drop (pos + length xs) a.
  Proof.
    induction xs as [|x xs IH]; intros pos a Hp Ha Hn; csimpl in *.
    - by rewrite Nat.add_0_r, take_drop.
    - assert (<[pos := AVal x]> a = (take pos a ++ [AVal x]) ++ drop (S pos) a) as E.
      { rewrite insert_take_drop by lia. by rewrite <-(assoc_L app). }
      assert (length (take pos a ++ [AVal x]) = S pos) as HL by (rewrite app_length, take_length; csimpl; lia).
      destruct (Nat.leb_spec nn (S pos)).
      + assert (xs = []) as -> by (destruct xs; [done|csimpl in *; lia]). csimpl.
        rewrite insert_take_drop by lia. by rewrite Nat.add_1_r.
      + rewrite IH by (rewrite ?insert_length; lia). rewrite E.
        rewrite take_app_alt by done.
        rewrite drop_app_ge by lia. rewrite HL, drop_drop, <-(assoc_L app).
        csimpl. f_equal. f_equal. f_equal. f_equal. lia.
  Qed.

  Lemma a_from_loop_ok xs : forall fuel pos (a : arr),
    (nn < pos + fuel)%nat -> (pos <= nn)%nat -> length a = nn ->
    a_from_loop nn fuel pos (head xs) (tail xs) a =
      Ok (take pos a ++ (AVal <$> take (nn - pos) xs) ++ drop (pos + length xs) a,
          drop (S (nn - pos)) xs).
  Proof.
    induction xs as [|x xs IH]; intros fuel pos a Hf Hp Ha; (destruct fuel as [|fuel]; [lia|]); csimpl.
    - rewrite take_nil, Nat.add_0_r. csimpl. by rewrite take_drop.
    - destruct (Nat.ltb_spec pos nn) as [Hlt|Hge].
      + unfold a_set. destruct (N.leb_spec (N.of_nat nn) (N.of_nat pos)); [lia|].
        rewrite Nat2N.id. destruct (lookup_lt_is_Some_2 a pos) as [c ->]; [lia|].
        unfold src_next. rewrite IH by (rewrite ?insert_length; lia).
        assert (<[pos := AVal x]> a = (take pos a ++ [AVal x]) ++ drop (S pos) a) as E.
        { rewrite insert_take_drop by lia. by rewrite <-(assoc_L app). }
        assert (length (take pos a ++ [AVal x]) = S pos) as HL by (rewrite app_length, take_length; csimpl; lia).
        rewrite E. rewrite take_app_alt by done. rewrite drop_app_ge by lia.
        rewrite HL, drop_drop, <-(assoc_L app).
        destruct (nn - pos)%nat as [|k] eqn:Ek; [lia|].
        replace (nn - S pos)%nat with k by lia. csimpl. repeat f_equal. lia.
      + assert (pos = nn) as -> by lia. rewrite Nat.sub_diag. csimpl.
        rewrite take_ge by lia. rewrite drop_ge by lia. by rewrite app_nil_r.
  Qed.

  Lemma a_from_iter_ok xs : a_from_iter nn vinit xs =
    Ok ((AVal <$> take nn xs) ++ replicate (nn - length xs) (AVal vinit), drop (S nn) xs).
  Proof.
    unfold a_from_iter, src_next, a_value.
    rewrite a_from_loop_ok by (rewrite ?replicate_length; lia).
    rewrite Nat.sub_0_r. csimpl. rewrite drop_replicate. done.
  Qed.

  Lemma a_eq_loop_ok xs ys : forall n pos, (pos + n = length xs)%nat -> length xs = length ys ->
    a_eq_loop eqb n pos (AVal <$> xs) (AVal <$> ys) =
    Ok (opt_eq eqb (Some <$> drop pos xs) (Some <$> drop pos ys)).
  Proof.
    induction n as [|n IH]; intros pos Hp Hl; csimpl.
    - by rewrite !drop_ge by lia.
    - destruct (lookup_lt_is_Some_2 xs pos) as [x Hx]; [lia|].
      destruct (lookup_lt_is_Some_2 ys pos) as [y Hy]; [lia|].
      rewrite (a_read_vals _ _ _ Hx), (a_read_vals _ _ _ Hy).
      rewrite (drop_S _ _ _ Hx), (drop_S _ _ _ Hy). csimpl.
      destruct (eqb x y); csimpl; [|done]. apply IH; lia.
  Qed.

  Lemma arep_vals a b : arep a b -> all_some b = true ->
    exists xs, a = AVal <$> xs /\ b = Some <$> xs /\ length xs = nn.
  Proof.
    intros [Hl <-] H. destruct (all_some_vals a H) as [xs ->]. exists xs.
    split; [done|]. split; [|by rewrite fmap_length in Hl].
    rewrite <-list_fmap_compose. done.
  Qed.

  Lemma awrep_set w s i a b : awrep w s -> arep a b -> awrep (<[i := a]> w) (<[i := b]> s).
  Proof.
    intros Hw Ha j. destruct (decide (i = j)) as [->|Hne].
    - by rewrite !lookup_insert.
    - rewrite !lookup_insert_ne by done. apply Hw.
  Qed.
  Lemma awrep_some w s i b : awrep w s -> s !! i = Some b -> exists a, w !! i = Some a /\ arep a b.
  Proof. intros Hw Hi. specialize (Hw i). rewrite Hi in Hw. destruct (w !! i); [eauto|done]. Qed.
  Lemma awrep_none w s i : awrep w s -> s !! i = None -> w !! i = None.
  Proof. intros Hw Hi. specialize (Hw i). rewrite Hi in Hw. by destruct (w !! i). Qed.
  Lemma arep_of_vals xs : length xs = nn -> arep (AVal <$> xs) (Some <$> xs).
  Proof.
    intros. split; [by rewrite fmap_length|]. rewrite <-list_fmap_compose. done.
  Qed.
  Lemma arep_moved : arep (replicate nn AMoved) (replicate nn None).
  Proof. split; [by rewrite replicate_length|]. by rewrite fmap_replicate. Qed.

  Lemma arr_step_ok w s o s' out : awrep w s -> sstep s o = Some (s', out) ->
    exists w', mstep o w = Ok (out, w') /\ awrep w' s'.
  Proof.
    intros Hw Hs. destruct o; csimpl in *; unfold acreate, bind, aget, afresh, aput, lift_o, ret in *.
    - destruct (s !! i) eqn:Ei; [done|]. injection Hs as <- <-. rewrite (awrep_none _ _ _ Hw Ei).
      eexists. split; [done|]. apply awrep_set; [done|]. unfold a_value, a_default.
      split; [by rewrite replicate_length|]. by rewrite fmap_replicate.
    - destruct (s !! i) eqn:Ei; [done|]. injection Hs as <- <-. rewrite (awrep_none _ _ _ Hw Ei).
      eexists. split; [done|]. apply awrep_set; [done|]. unfold a_value, a_default.
      split; [by rewrite replicate_length|]. by rewrite fmap_replicate.
    - destruct (Nat.leb_spec (length xs) nn) as [Hle|]; [|done].
      destruct (s !! i) eqn:Ei; [done|]. injection Hs as <- <-. rewrite (awrep_none _ _ _ Hw Ei).
      unfold a_list. destruct (Nat.ltb_spec nn (length xs)); [lia|].
      eexists. split; [done|]. apply awrep_set; [done|]. unfold a_default.
      rewrite a_list_loop_ok; [|csimpl; lia|by rewrite replicate_length|].
      2:{ destruct xs; [by right|left; csimpl in *; lia]. }
      csimpl. rewrite drop_replicate. split.
      + rewrite app_length, fmap_length, replicate_length. lia.
      + rewrite fmap_app, fmap_replicate, <-list_fmap_compose. done.
    - destruct (s !! j) as [b|] eqn:Ej; [|done]. destruct (all_some b) eqn:Eb; [|done].
      destruct (s !! i) eqn:Ei; [done|]. injection Hs as <- <-.
      destruct (awrep_some _ _ _ _ Hw Ej) as (a & -> & Ha). rewrite (awrep_none _ _ _ Hw Ei).
      destruct (arep_vals _ _ Ha Eb) as (xs & -> & -> & Hl).
      rewrite a_copy_ok by (rewrite ?replicate_length; done).
      eexists. split; [done|]. apply awrep_set; [done|]. by apply arep_of_vals.
    - destruct (s !! j) as [b|] eqn:Ej; [|done]. destruct (s !! i) eqn:Ei; [done|].
      destruct (all_some b) eqn:Eb; [|done]. injection Hs as <- <-.
      destruct (awrep_some _ _ _ _ Hw Ej) as (a & -> & Ha). rewrite (awrep_none _ _ _ Hw Ei).
      destruct (arep_vals _ _ Ha Eb) as (xs & -> & -> & Hl).
      rewrite a_move_ok by (rewrite ?replicate_length; done).
      eexists. split; [done|]. rewrite insert_commute by (intros ->; congruence).
      apply awrep_set; [|by apply arep_of_vals]. apply awrep_set; [done|]. apply arep_moved.
    - destruct (s !! i) as [a0|] eqn:Ei; [|done]. destruct (s !! j) as [b|] eqn:Ej; [|done].
      destruct (awrep_some _ _ _ _ Hw Ei) as (a & -> & Ha).
      destruct (awrep_some _ _ _ _ Hw Ej) as (b' & -> & Hb).
      destruct (Nat.eqb_spec i j) as [->|Hne]; [injection Hs as <- <-; eauto|].
      destruct (all_some b) eqn:Eb; [|done]. injection Hs as <- <-.
      destruct (arep_vals _ _ Hb Eb) as (xs & -> & -> & Hl).
      rewrite a_copy_ok by (done || apply Ha).
      eexists. split; [done|]. apply awrep_set; [done|]. by apply arep_of_vals.
    - destruct (s !! i) as [a0|] eqn:Ei; [|done]. destruct (s !! j) as [b|] eqn:Ej; [|done].
      destruct (awrep_some _ _ _ _ Hw Ei) as (a & -> & Ha).
      destruct (awrep_some _ _ _ _ Hw Ej) as (b' & -> & Hb).
      destruct (Nat.eqb_spec i j) as [->|Hne]; [injection Hs as <- <-; eauto|].
      destruct (all_some b) eqn:Eb; [|done]. injection Hs as <- <-.
      destruct (arep_vals _ _ Hb Eb) as (xs & -> & -> & Hl).
      rewrite a_move_ok by (done || apply Ha).
      eexists. split; [done|]. rewrite insert_commute by done.
      apply awrep_set; [|by apply arep_of_vals]. apply awrep_set; [done|]. apply arep_moved.
    - destruct (s !! i) as [a0|] eqn:Ei; [|done]. injection Hs as <- <-.
      destruct (awrep_some _ _ _ _ Hw Ei) as (a & -> & Ha). eexists. split; [done|].
      intros k. destruct (decide (i = k)) as [->|Hne]; [by rewrite !lookup_delete|].
      rewrite !lookup_delete_ne by done. apply Hw.
    - destruct (s !! i) as [a0|] eqn:Ei; [|done].
      destruct (awrep_some _ _ _ _ Hw Ei) as (a & -> & Hl & <-).
      unfold nlookup in Hs. rewrite fmap_length, Hl in Hs. unfold a_get.
      destruct (N.ltb_spec k (N.of_nat nn)); [|done].
      destruct (N.leb_spec (N.of_nat nn) k); [lia|].
      rewrite list_lookup_fmap in Hs. unfold a_read. destruct (a !! N.to_nat k) as [[|y|]|]; csimpl in *; try done.
      injection Hs as <- <-. eauto.
    - destruct (s !! i) as [a0|] eqn:Ei; [|done].
      destruct (N.ltb_spec k (N.of_nat nn)); [|done]. injection Hs as <- <-.
      destruct (awrep_some _ _ _ _ Hw Ei) as (a & -> & Hl & <-). unfold a_set.
      destruct (N.leb_spec (N.of_nat nn) k); [lia|].
      destruct (lookup_lt_is_Some_2 a (N.to_nat k)) as [c ->]; [lia|].
      eexists. split; [done|]. apply awrep_set; [done|]. split; [by rewrite insert_length|].
      by rewrite list_fmap_insert.
    - destruct (s !! i) as [a0|] eqn:Ei; [|done]. destruct (s !! j) as [b|] eqn:Ej; [|done].
      destruct (awrep_some _ _ _ _ Hw Ei) as (a & -> & Ha).
      destruct (awrep_some _ _ _ _ Hw Ej) as (b' & -> & Hb).
      destruct (all_some a0) eqn:Ea; [|done]. destruct (all_some b) eqn:Eb; [|done]. injection Hs as <- <-.
      destruct (arep_vals _ _ Ha Ea) as (xs & -> & -> & Hl).
      destruct (arep_vals _ _ Hb Eb) as (ys & -> & -> & Hl').
      unfold a_eq. rewrite a_eq_loop_ok by lia. rewrite !drop_0. eauto.
    - destruct (s !! i) eqn:Ei; [done|]. injection Hs as <- <-. rewrite (awrep_none _ _ _ Hw Ei).
      rewrite a_from_iter_ok. eexists. split; [done|]. apply awrep_set; [done|]. split.
      + rewrite app_length, fmap_length, take_length, replicate_length. lia.
      + rewrite fmap_app, fmap_replicate, <-list_fmap_compose. done.
  Qed.

  Lemma arr_history ops : forall w s s' outs, awrep w s ->
    spec_run sstep s ops = Some (s', outs) ->
    exists w', run_ops mstep ops w = Ok (outs, w') /\ awrep w' s'.
  Proof.
    induction ops as [|o ops IH]; csimpl; intros w s s' outs Hw Hs.
    - injection Hs as <- <-. eauto.
    - destruct (sstep s o) as [[t x]|] eqn:E1; [|done].
      destruct (spec_run sstep t ops) as [[u y]|] eqn:E2; [|done]. injection Hs as <- <-.
      destruct (arr_step_ok _ _ _ _ _ Hw E1) as (w1 & E & Hw1).
      destruct (IH _ _ _ _ Hw1 E2) as (w2 & E' & Hw2). exists w2. unfold bind, ret. by rewrite E, E'.
  Qed.

  Lemma awrep_init : awrep ∅ ∅.
  Proof. intros i. by rewrite !lookup_empty. Qed.

  (** *** C28 *)
  Theorem C28_array_histories_partial ops s outs :
    spec_run sstep ∅ ops = Some (s, outs) ->
    exists w, arr_run nn dinit vinit eqb ops = Ok (outs, w).
  Proof.
    intros Hs. destruct (arr_history ops ∅ ∅ s outs awrep_init Hs) as (w & E & _). by exists w.
  Qed.
  Theorem C28_array_bounds_panic ops s outs i b k x :
    spec_run sstep ∅ ops = Some (s, outs) -> s !! i = Some b -> (N.of_nat nn <= k)%N ->
    arr_run nn dinit vinit eqb (ops ++ [AGet i k]) = Err Panic /\
    arr_run nn dinit vinit eqb (ops ++ [ASet i k x]) = Err Panic.
  Proof.
    intros Hs Hi Hk. destruct (arr_history ops ∅ ∅ s outs awrep_init Hs) as (w & E & Hw).
    destruct (awrep_some _ _ _ _ Hw Hi) as (a & Ha & _).
    assert (forall o, mstep o w = Err Panic -> forall w0 outs, run_ops mstep ops w0 = Ok (outs, w) ->
      run_ops mstep (ops ++ [o]) w0 = Err Panic) as Happ.
    { intros o Ho. clear E Hs. induction ops as [|p ops IH]; intros w0 os; csimpl.
      - intros [= -> ->]. unfold bind. by rewrite Ho.
      - unfold bind, ret. destruct (mstep p w0) as [[x1 w1]|]; [|done].
        destruct (run_ops mstep ops w1) as [[y1 w2]|] eqn:E3; [|done]. intros [= <- <-].
        by rewrite (IH _ _ E3). }
    unfold arr_run. split; (eapply Happ; [|done]); csimpl; unfold bind, aget; rewrite Ha;
      unfold lift_o, a_get, a_set; by rewrite (proj2 (N.leb_le _ _) Hk).
  Qed.
  Theorem C28_array_list_too_long xs : (nn < length xs)%nat -> a_list nn dinit xs = Err Panic.
  Proof. intros H. unfold a_list. destruct (Nat.ltb_spec nn (length xs)); [done|lia]. Qed.

  (** *** C30 *)
  Theorem C30_array_from_iter src :
    exists a, a_from_iter nn vinit src = Ok (a, drop (S nn) src) /\ length a = nn /\
      (forall k x, (k < nn)%nat -> src !! k = Some x -> a !! k = Some (AVal x)) /\
      (forall k, (k < nn)%nat -> src !! k = None -> a !! k = Some (AVal vinit)).
  Proof.
    rewrite a_from_iter_ok. eexists. split; [done|]. split; [|split].
    - rewrite app_length, fmap_length, take_length, replicate_length. lia.
    - intros k x Hk Hx. pose proof (lookup_lt_Some _ _ _ Hx).
      rewrite lookup_app_l by (rewrite fmap_length, take_length; lia).
      rewrite list_lookup_fmap, lookup_take by lia. by rewrite Hx.
    - intros k Hk Hx. apply lookup_ge_None in Hx.
      rewrite lookup_app_r by (rewrite fmap_length, take_length; lia).
      rewrite fmap_length, take_length. by rewrite lookup_replicate_2 by lia.
  Qed.

  (** *** C29, into_iter() *)
  Definition airep (it : aiter (A:=A)) (xs : list A) : Prop :=
    exists k, ai_range it = Range (Z.of_nat k) (Z.of_nat nn) /\ (k + length xs = nn)%nat /\
      ai_data it = replicate k AMoved ++ (AVal <$> xs).

  Lemma ai_step_ok o it xs : Z.of_nat nn <= imax usize_t -> o = DNext \/ o = DEmpty -> airep it xs ->
    exists it', ai_step nn o it = Ok ((de_step xs o).2, it') /\ airep it' (de_step xs o).1.
  Proof.
    intros Hn Ho (k & Hr & Hk & Hd). destruct it as [d r]. csimpl in *. subst r d.
    destruct Ho as [->| ->]; csimpl.
    - unfold ai_next, on_range, r_next, ai_take, bind, get_st, ret, put_st, lift_o, iinc. csimpl.
      destruct (Z.eqb_spec (Z.of_nat k) (Z.of_nat nn)).
      + assert (xs = []) as -> by (destruct xs; [done|csimpl in *; lia]).
        eexists. split; [done|]. exists k. csimpl in *. split; [done|]. split; [lia|done].
      + destruct xs as [|x xs]; [csimpl in *; lia|]. csimpl in *.
        destruct (Z.ltb_spec (Z.of_nat k) 18446744073709551615); [|lia]. csimpl.
        destruct (Z.ltb_spec (Z.of_nat k) 0); [lia|].
        unfold a_read. rewrite Nat2Z.id, lookup_app_r, replicate_length, Nat.sub_diag
          by (rewrite replicate_length; lia). csimpl. eexists. split; [done|].
        exists (S k). csimpl. split; [f_equal; lia|]. split; [lia|].
        rewrite insert_app_r_alt, replicate_length, Nat.sub_diag by (rewrite replicate_length; lia). csimpl.
        change (AMoved :: (AVal <$> xs)) with ([AMoved] ++ (AVal <$> xs)).
        rewrite (assoc_L app), <-replicate_S_end. done.
    - exists (AIter (replicate k AMoved ++ (AVal <$> xs)) (Range (Z.of_nat k) (Z.of_nat nn))).
      split; [|by exists k]. unfold bind, get_st, ret, r_is_empty. csimpl.
      do 3 f_equal. destruct xs; csimpl in *; destruct (Z.ltb_spec (Z.of_nat k) (Z.of_nat nn)); try done; lia.
  Qed.
  Theorem C29_array_into_iter_partial xs ops :
    length xs = nn -> Z.of_nat nn <= imax usize_t ->
    Forall (fun o => o = DNext \/ o = DEmpty) ops ->
    exists it it', ai_new nn dinit (AVal <$> xs) = Ok (it, replicate nn AMoved) /\
      run_ops (ai_step nn) ops it = Ok ((de_run xs ops).2, it').
  Proof.
    intros Hl Hn Hf. unfold ai_new. rewrite a_move_ok by (rewrite ?replicate_length; done).
    eexists. destruct (de_refines (ai_step nn) airep (fun o => o = DNext \/ o = DEmpty)
      (fun o s ys H => ai_step_ok o s ys Hn H) ops (AIter (AVal <$> xs) (Range 0 (Z.of_nat nn))) xs Hf)
      as (it' & E & _); [|eauto].
    exists 0%nat. csimpl. done.
  Qed.

  (** *** C59 *)
  Lemma ai_move_loop_ok (a : arr) : Forall (fun c => c <> AUndef) a -> forall n pos d,
    (pos + n = length a)%nat -> length d = length a ->
    ai_move_loop n pos d (replicate pos AMoved ++ drop pos a) =
      Ok (take pos d ++ drop pos a, replicate (length a) AMoved).
  Proof.
    intros Hf. induction n as [|n IH]; intros pos d Hp Hd; csimpl.
    - rewrite drop_ge by lia. rewrite take_ge by lia. rewrite !app_nil_r.
      by replace pos with (length a) by lia.
    - destruct (lookup_lt_is_Some_2 a pos) as [c Hc]; [lia|].
      rewrite (drop_S _ _ _ Hc).
      rewrite lookup_app_r, replicate_length, Nat.sub_diag by (rewrite replicate_length; lia). csimpl.
      rewrite insert_app_r_alt, replicate_length, Nat.sub_diag by (rewrite replicate_length; lia). csimpl.
      assert (c <> AUndef) as Hc' by (by eapply Forall_lookup_1 in Hf).
      assert (replicate pos AMoved ++ AMoved :: drop (S pos) a =
        replicate (S pos) (AMoved : acell A) ++ drop (S pos) a) as ->.
      { rewrite replicate_S_end, <-(assoc_L app). done. }
      assert (ai_move_loop n (S pos) (<[pos := c]> d) (replicate (S pos) AMoved ++ drop (S pos) a) =
        Ok (take pos d ++ c :: drop (S pos) a, replicate (length a) AMoved)) as E.
      { rewrite IH by (rewrite ?insert_length; lia). f_equal. f_equal. rewrite insert_take_drop by lia.
        change (c :: drop (S pos) d) with ([c] ++ drop (S pos) d).
        rewrite (assoc_L app), take_app_alt by (rewrite app_length, take_length; csimpl; lia).
        by rewrite <-(assoc_L app). }
      by destruct c.
  Qed.
  Lemma ai_move_ok it xs : airep it xs ->
    ai_move nn dinit it = Ok (it, AIter (replicate nn AMoved) (ai_range it)).
  Proof.
    intros (k & Hr & Hk & Hd). unfold ai_move.
    assert (Hl : length (ai_data it) = nn) by (rewrite Hd, app_length, replicate_length, fmap_length; lia).
    pose proof (ai_move_loop_ok (ai_data it)) as H.
    specialize (H ltac:(rewrite Hd; apply Forall_app; split; [by apply Forall_replicate|apply Forall_fmap; by apply Forall_true])).
    specialize (H nn 0%nat (replicate nn dinit)). csimpl in H. rewrite drop_0 in H.
    rewrite H by (rewrite ?replicate_length; lia). rewrite Hl. by destruct it.
  Qed.
  (** An owning iterator moved after any calls goes on as if it had not been.
      Missing: move assignment, and [next()] on the source. *)
  Theorem C59_array_into_iter_move_partial xs ops ops' :
    length xs = nn -> Z.of_nat nn <= imax usize_t ->
    Forall (fun o => o = DNext \/ o = DEmpty) ops -> Forall (fun o => o = DNext \/ o = DEmpty) ops' ->
    exists it it1 it2 old it3, ai_new nn dinit (AVal <$> xs) = Ok (it, replicate nn AMoved) /\
      run_ops (ai_step nn) ops it = Ok ((de_run xs ops).2, it1) /\
      ai_move nn dinit it1 = Ok (it2, old) /\
      run_ops (ai_step nn) ops' it2 = Ok ((de_run (de_run xs ops).1 ops').2, it3) /\
      ((de_run xs ops).1 <> [] -> ai_step nn DNext old = Err UB).
  Proof.
    intros Hl Hn Hf Hf'. unfold ai_new. rewrite a_move_ok by (rewrite ?replicate_length; done).
    destruct (de_refines (ai_step nn) airep (fun o => o = DNext \/ o = DEmpty)
      (fun o s ys H => ai_step_ok o s ys Hn H) ops (AIter (AVal <$> xs) (Range 0 (Z.of_nat nn))) xs Hf)
      as (it1 & E1 & Hr1); [exists 0%nat; csimpl; done|].
    destruct (de_refines (ai_step nn) airep (fun o => o = DNext \/ o = DEmpty)
      (fun o s ys H => ai_step_ok o s ys Hn H) ops' it1 _ Hf' Hr1) as (it3 & E3 & _).
    eexists _, it1, it1, _, it3. split; [done|]. split; [done|]. split; [by eapply ai_move_ok|]. split; [done|].
    intros Hne. destruct Hr1 as (k & Hr & Hk & _). csimpl. unfold ai_next, bind, on_range. csimpl. rewrite Hr.
    unfold r_next, bind, get_st. csimpl.
    assert (k < nn)%nat by (destruct (de_run xs ops).1; [done|csimpl in *; lia]).
    destruct (Z.eqb_spec (Z.of_nat k) (Z.of_nat nn)); [lia|]. csimpl in Hn.
    unfold iinc. csimpl. destruct (Z.ltb_spec (Z.of_nat k) 18446744073709551615); [|lia].
    csimpl. unfold ret, lift_o, ai_take, bind, get_st, put_st. csimpl.
    destruct (Z.ltb_spec (Z.of_nat k) 0); [lia|]. unfold a_read, lift_o. csimpl.
    by rewrite lookup_replicate_2 by lia.
  Qed.
End ArrProofs.

(** C28, the part that is false: elements beyond a short list are not
    value-initialised but left indeterminate for scalar types. *)
Theorem C28_array_short_list_refuted :
  exists a, a_list 3 (AUndef : acell Z) [7] = Ok a /\ a_get 3 a 0 = Ok 7 /\ a_get 3 a 1 = Err UB.
Proof. by eexists. Qed.
Example C28_ex : match spec_run (arr_spec 3 None 0 Z.eqb) ∅
    [AList 0 [1;2;3]; ACopy 1 0; ASet 1 2 9; AEq 0 1; AGet 0 2; AMove 2 0; AGet 2 2; ACopyAsg 0 1;
     AEq 0 1; AFrom 3 [4;5;6;7;8]; AGet 3 2; AList 4 [1]; AGet 4 0; ADestroy 1] with
  | Some (_, outs) => outs = [AONone; AONone; AONone; AOBool false; AOElem 3; AONone; AOElem 3; AONone;
      AOBool true; AORest [8]; AOElem 6; AONone; AOElem 1; AONone]
  | None => False end.
Proof. by vm_compute. Qed.

(** C29: [prev] on the owning iterator reads [data[N]]; [len] never shrinks;
    an assigned iterator keeps its old position. *)
Theorem C29_array_into_iter_prev_refuted :
  match ai_new 3 (AUndef : acell Z) [AVal 1; AVal 2; AVal 3] with
  | Ok (it, _) => run_ops (ai_step 3) [DPrev] it = Err UB /\
                  (exists it', run_ops (ai_step 3) [DNext; DLen] it = Ok ([EItem (Some 1); ENum 3], it')) /\
                  (exists it1 it2, run_ops (ai_step 3) [DNext; DNext] it = Ok ([EItem (Some 1); EItem (Some 2)], it1) /\
                     ai_copy_assign 3 it1 it = Ok it2 /\
                     exists it3, run_ops (ai_step 3) [DNext; DNext] it2 = Ok ([EItem (Some 3); EItem None], it3))
  | Err _ => False
  end.
Proof.
  change (ai_new 3 (AUndef : acell Z) [AVal 1; AVal 2; AVal 3]) with
    (Ok (AIter [AVal 1; AVal 2; AVal 3] (Range 0 3), [AMoved; AMoved; AMoved] : list (acell Z))).
  cbv iota beta. split; [done|]. split; [by eexists|].
  exists (AIter [AMoved; AMoved; AVal 3] (Range 2 3)), (AIter [AVal 1; AVal 2; AVal 3] (Range 2 3)).
  split; [done|]. split; [done|]. by eexists.
Qed.
Example C29_ex : length [5;6;7] = 3%nat /\ Z.of_nat 3 <= imax usize_t /\
  Forall (fun o => o = DNext \/ o = DEmpty) [DNext; DEmpty; DNext; DNext; DNext; DEmpty] /\
  (de_run [5;6;7] [DNext; DEmpty; DNext; DNext; DNext; DEmpty]).2 =
    [EItem (Some 5); EBool false; EItem (Some 6); EItem (Some 7); EItem None; EBool true].
Proof. split; [done|]. split; [csimpl; lia|]. split; [|done]. repeat (constructor; [tauto|]). constructor. Qed.
(** The full claim of C59: also by move assignment, and the source gives
    nothing more. *)
Definition C59_full := forall (xs : list Z) it a it1 os n,
  ai_new (length xs) (AUndef : acell Z) (AVal <$> xs) = Ok (it, a) ->
  run_ops (ai_step (length xs)) (replicate n DNext) it = Ok (os, it1) ->
  (exists it2 src src', ai_move (length xs) AUndef it1 = Ok (it2, src) /\
     ai_step (length xs) DNext src = Ok (EItem None, src')) /\
  (exists r, ai_move_assign (length xs) true it it1 = Ok r).
Theorem C59_refuted : ~ C59_full.
Proof.
  intros H. destruct (H [1; 2; 3] (AIter [AVal 1; AVal 2; AVal 3] (Range 0 3)) [AMoved; AMoved; AMoved]
    (AIter [AMoved; AVal 2; AVal 3] (Range 1 3)) [EItem (Some 1)] 1%nat) as [_ [r E]]; done.
Qed.
Theorem C59_source_refuted :
  match ai_new 3 (AUndef : acell Z) [AVal 1; AVal 2; AVal 3] with
  | Ok (it, _) => exists it1 it2 src, run_ops (ai_step 3) [DNext] it = Ok ([EItem (Some 1)], it1) /\
      ai_move 3 AUndef it1 = Ok (it2, src) /\ ai_step 3 DNext src = Err UB
  | Err _ => False
  end.
Proof.
  change (ai_new 3 (AUndef : acell Z) [AVal 1; AVal 2; AVal 3]) with
    (Ok (AIter [AVal 1; AVal 2; AVal 3] (Range 0 3), [AMoved; AMoved; AMoved] : list (acell Z))).
  cbv iota beta. exists (AIter [AMoved; AVal 2; AVal 3] (Range 1 3)). do 2 eexists. done.
Qed.
Example C59_ex : length [5;6;7] = 3%nat /\ (de_run [5;6;7] [DNext]).1 = [6;7] /\
  (de_run [6;7] [DNext; DNext; DNext]).2 = [EItem (Some 6); EItem (Some 7); EItem None].
Proof. done. Qed.
Example C30_ex : a_from_iter 3 0 [4;5;6;7;8] = Ok ([AVal 4; AVal 5; AVal 6], [8]) /\
  a_from_iter 3 0 [4] = Ok ([AVal 4; AVal 0; AVal 0], []).
Proof. done. Qed.

Print Assumptions C28_array_histories_partial.
Print Assumptions C28_array_bounds_panic.
Print Assumptions C28_array_list_too_long.
Print Assumptions C28_array_short_list_refuted.
Print Assumptions C29_array_iter.
Print Assumptions C29_array_into_iter_partial.
Print Assumptions C29_array_into_iter_prev_refuted.
Print Assumptions C59_array_into_iter_move_partial.
Print Assumptions C59_refuted.
Print Assumptions C59_source_refuted.
Print Assumptions C30_array_from_iter.
Print Assumptions C31_range_enumerates.
Print Assumptions C32_range_both_ends_exact.
Print Assumptions C32_range_next_only_partial.
Print Assumptions C32_range_prev_refuted.
Print Assumptions C33_slice_iterator.
Print Assumptions C33_ends_meet.
