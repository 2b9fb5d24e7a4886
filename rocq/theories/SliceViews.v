(** * SliceViews: C79, slices as views of arrays

    slice.h: any number of slices, copies of slices and iterators over any
    number of arrays, in one program with writes to the arrays.

    Simplifications: a pointer is an array and an offset.  An array can end;
    forming a pointer into it and comparing pointers is still allowed then,
    reading and writing through them is not.  Writing through an iterator made
    by the const [iter] does not compile; here it is an error. *)
From Verif Require Import Base Machine IterSpec RangeModel.
Local Open Scope N_scope.

Section Code.
  Context {A : Type}.

  (** ** The code *)
  (** An array: whether it still exists, and its elements. *)
  Record warr := WArr { a_live : bool; a_elts : list A }.
  (** slice.h:78-115 with the array [ptr] points into. *)
  Record wslice := WSlc { ws_arr : nat; ws : slice }.
  (** slice.h:14-70; [wi_mut] for [T&], not [const T&]. *)
  Record witer := WIt_ { wi_arr : nat; wi : siter; wi_mut : bool }.
  Record wst := WSt { w_arr : gmap nat warr; w_slc : gmap nat wslice; w_it : gmap nat witer }.
  Definition wstart : wst := WSt ∅ ∅ ∅.

  Inductive wop :=
  | WNew (a : nat) (xs : list A) | WEnd (a : nat) | WSet (a : nat) (k : N) (v : A) | WGet (a : nat)
  | WSlice (s a : nat) (p n : N)   (* Slice s { &a[p], n } *)
  | WCopy (s u : nat)              (* Slice s = u, or s = u *)
  | WIter (t s : nat) (mut : bool) (* t = s.iter(), s.iter_mut() *)
  | WInto (t s : nat)              (* t = s.into_iter() *)
  | WCopyIt (t u : nat)
  | WCall (t : nat) (o : de_op)    (* t.next(), prev(), len(), is_empty(), last() *)
  | WPut (t : nat) (o : de_op) (v : A)  (* if the call gives a reference r: r = v *)
  | WAddr (s : nat) | WItAddr (t : nat).
  Inductive wout := WOk | WElts (xs : list A) | WRes (r : de_out A) | WPtr (p : option (nat * N)).

  Definition w_elts (st : wst) (a : nat) : list A :=
    match w_arr st !! a with Some (WArr true xs) => xs | _ => [] end.
  (** slice.h:19: [ptr + len] must stay within the array, or be null + 0. *)
  Definition new_iter (st : wst) (a : nat) (s : slice) : outcome siter :=
    match sl_ptr s with
    | None => if sl_size s =? 0 then Ok (SIter 0 0) else Err UB
    | Some p =>
        match w_arr st !! a with
        | Some (WArr _ xs) =>
            match slice_iter s with
            | Some it => if s_end it <=? N.of_nat (length xs) then Ok it else Err UB
            | None => Err UB
            end
        | None => Err UB
        end
    end.
  (** The place of the reference that [next], [prev] or [last] returns. *)
  Definition ref_at (o : de_op) (it : siter) : N :=
    match o with DNext => s_start it | _ => s_end it - 1 end.
  Definition w_write (st : wst) (a : nat) (k : N) (v : A) : outcome (gmap nat warr) :=
    match w_arr st !! a with
    | Some (WArr true xs) =>
        if k <? N.of_nat (length xs) then Ok (<[a := WArr true (<[N.to_nat k := v]> xs)]> (w_arr st)) else Err UB
    | _ => Err UB
    end.

  Definition wstep (o : wop) : M wst wout := fun st =>
    let '(WSt ar sl its) := st in
    match o with
    | WNew a xs => match ar !! a with None => Ok (WOk, WSt (<[a := WArr true xs]> ar) sl its) | Some _ => Err UB end
    | WEnd a =>
        match ar !! a with Some (WArr true xs) => Ok (WOk, WSt (<[a := WArr false xs]> ar) sl its) | _ => Err UB end
    | WSet a k v => match w_write st a k v with Ok ar' => Ok (WOk, WSt ar' sl its) | Err e => Err e end
    | WGet a => match ar !! a with Some (WArr true xs) => Ok (WElts xs, st) | _ => Err UB end
    | WSlice s a p n =>
        match ar !! a with
        | Some (WArr true xs) =>
            if p <=? N.of_nat (length xs) then Ok (WOk, WSt ar (<[s := WSlc a (Slice (Some p) n)]> sl) its) else Err UB
        | _ => Err UB
        end
    | WCopy s u => match sl !! u with Some x => Ok (WOk, WSt ar (<[s := x]> sl) its) | None => Err UB end
    | WIter t s m =>
        match sl !! s with
        | Some (WSlc a x) =>
            match new_iter st a x with Ok it => Ok (WOk, WSt ar sl (<[t := WIt_ a it m]> its)) | Err e => Err e end
        | None => Err UB
        end
    | WInto t s =>
        match sl !! s with
        | Some (WSlc a x) =>
            match new_iter st a x with
            | Ok it => Ok (WOk, WSt ar (<[s := WSlc a (slice_into_iter x).2]> sl) (<[t := WIt_ a it true]> its))
            | Err e => Err e
            end
        | None => Err UB
        end
    | WCopyIt t u => match its !! u with Some x => Ok (WOk, WSt ar sl (<[t := x]> its)) | None => Err UB end
    | WCall t o =>
        match its !! t with
        | Some (WIt_ a it m) =>
            match s_step (w_elts st a) o it with
            | Ok (r, it') => Ok (WRes r, WSt ar sl (<[t := WIt_ a it' m]> its))
            | Err e => Err e
            end
        | None => Err UB
        end
    | WPut t o v =>
        match its !! t with
        | Some (WIt_ a it true) =>
            match s_step (w_elts st a) o it with
            | Ok (EItem (Some x), it') =>
                match w_write st a (ref_at o it) v with
                | Ok ar' => Ok (WRes (EItem (Some x)), WSt ar' sl (<[t := WIt_ a it' true]> its))
                | Err e => Err e
                end
            | Ok (r, it') => Ok (WRes r, WSt ar sl (<[t := WIt_ a it' true]> its))
            | Err e => Err e
            end
        | _ => Err UB
        end
    | WAddr s => match sl !! s with Some (WSlc a x) => Ok (WPtr ((a,.) <$> sl_ptr x), st) | None => Err UB end
    | WItAddr t => match its !! t with Some (WIt_ a it _) => Ok (WPtr (Some (a, s_start it)), st) | None => Err UB end
    end.

  (** ** The specification

      A slice, and what is left of an iterator, is a sequence of places; a
      place is an array and an index.  What they hold is looked up when it is
      asked for.  [None] is an array that has ended. *)
  Notation place := (nat * nat)%type.
  Definition places (a p n : nat) : list place := pair a <$> seq p n.
  Record vst := VSt { v_arr : gmap nat (option (list A)); v_slc : gmap nat (list place); v_it : gmap nat (list place * bool) }.
  Definition vstart : vst := VSt ∅ ∅ ∅.
  Definition value_at (ar : gmap nat (option (list A))) (p : place) : option A :=
    xs ← ar !! p.1; ys ← xs; ys !! p.2.
  Definition store_at (ar : gmap nat (option (list A))) (p : place) (v : A) : gmap nat (option (list A)) :=
    alter (fmap <[p.2 := v]>) p.1 ar.

  (** The place a call gives, and what is left. *)
  Definition pick (o : de_op) (ps : list place) : option place * list place :=
    match o with
    | DNext => (head ps, tail ps)
    | DPrev => (last ps, take (length ps - 1) ps)
    | _ => (last ps, ps)
    end.
  Definition vcall (ar : gmap nat (option (list A))) (ps : list place) (o : de_op) : option (de_out A * list place) :=
    match o with
    | DLen => Some (ENum (N.of_nat (length ps)), ps)
    | DEmpty => Some (EBool (bool_decide (ps = [])), ps)
    | _ =>
        match pick o ps with
        | (None, ps') => Some (EItem None, ps')
        | (Some p, ps') => v ← value_at ar p; Some (EItem (Some v), ps')
        end
    end.
  Definition vspec (s : vst) (o : wop) : sres vst wout :=
    let '(VSt ar sl its) := s in
    match o with
    | WNew a xs => match ar !! a with None => SOk (VSt (<[a := Some xs]> ar) sl its) WOk | Some _ => SPre end
    | WEnd a => match ar !! a with Some (Some xs) => SOk (VSt (<[a := None]> ar) sl its) WOk | _ => SPre end
    | WSet a k v =>
        match value_at ar (a, N.to_nat k) with Some _ => SOk (VSt (store_at ar (a, N.to_nat k) v) sl its) WOk | None => SPre end
    | WGet a => match ar !! a with Some (Some xs) => SOk s (WElts xs) | _ => SPre end
    | WSlice x a p n =>
        match ar !! a with
        | Some (Some xs) =>
            if p + n <=? N.of_nat (length xs)
            then SOk (VSt ar (<[x := places a (N.to_nat p) (N.to_nat n)]> sl) its) WOk else SPre
        | _ => SPre
        end
    | WCopy x u => match sl !! u with Some ps => SOk (VSt ar (<[x := ps]> sl) its) WOk | None => SPre end
    | WIter t x m => match sl !! x with Some ps => SOk (VSt ar sl (<[t := (ps, m)]> its)) WOk | None => SPre end
    | WInto t x => match sl !! x with Some ps => SOk (VSt ar (<[x := []]> sl) (<[t := (ps, true)]> its)) WOk | None => SPre end
    | WCopyIt t u => match its !! u with Some k => SOk (VSt ar sl (<[t := k]> its)) WOk | None => SPre end
    | WCall t o =>
        match its !! t with
        | Some (ps, m) =>
            match vcall ar ps o with
            | Some (r, ps') => SOk (VSt ar sl (<[t := (ps', m)]> its)) (WRes r)
            | None => SPre
            end
        | None => SPre
        end
    | WPut t o v =>
        match its !! t with
        | Some (ps, true) =>
            match vcall ar ps o with
            | Some (EItem (Some x), ps') =>
                match (pick o ps).1 with
                | Some p => SOk (VSt (store_at ar p v) sl (<[t := (ps', true)]> its)) (WRes (EItem (Some x)))
                | None => SPre
                end
            | Some (r, ps') => SOk (VSt ar sl (<[t := (ps', true)]> its)) (WRes r)
            | None => SPre
            end
        | _ => SPre
        end
    | WAddr x =>
        match sl !! x with Some ((a, k) :: _) => SOk s (WPtr (Some (a, N.of_nat k))) | _ => SPre end
    | WItAddr t =>
        match its !! t with Some ((a, k) :: _, _) => SOk s (WPtr (Some (a, N.of_nat k))) | _ => SPre end
    end.

  (** ** Refinement *)
  Definition arr_ok (x : option warr) (y : option (option (list A))) : Prop :=
    match x, y with
    | None, None => True
    | Some (WArr true xs), Some (Some ys) => xs = ys
    | Some (WArr false xs), Some None => True
    | _, _ => False
    end.
  Definition room (ar : gmap nat warr) (a : nat) (e : N) : Prop :=
    exists x, ar !! a = Some x /\ e <= N.of_nat (length (a_elts x)).
  Definition slc_ok (ar : gmap nat warr) (x : option wslice) (y : option (list place)) : Prop :=
    match x, y with
    | None, None => True
    | Some (WSlc a (Slice (Some p) n)), Some ps => room ar a (p + n) /\ ps = places a (N.to_nat p) (N.to_nat n)
    | Some (WSlc a (Slice None n)), Some ps => n = 0 /\ ps = []
    | _, _ => False
    end.
  Definition wit_ok (ar : gmap nat warr) (x : option witer) (y : option (list place * bool)) : Prop :=
    match x, y with
    | None, None => True
    | Some (WIt_ a (SIter s e) m), Some (ps, m') =>
        m = m' /\ s <= e /\ ps = places a (N.to_nat s) (N.to_nat (e - s)) /\ (s < e -> room ar a e)
    | _, _ => False
    end.
  Definition vrel (v : vst) (w : wst) : Prop :=
    (forall a, arr_ok (w_arr w !! a) (v_arr v !! a)) /\
    (forall s, slc_ok (w_arr w) (w_slc w !! s) (v_slc v !! s)) /\
    (forall t, wit_ok (w_arr w) (w_it w !! t) (v_it v !! t)).

  Lemma places_0 a p : places a p 0 = [].
  Proof. done. Qed.
  Lemma places_S a p n : places a p (S n) = (a, p) :: places a (S p) n.
  Proof. done. Qed.
  Lemma places_snoc a p n : places a p (S n) = places a p n ++ [(a, (p + n)%nat)].
  Proof. unfold places. by rewrite seq_S, fmap_app. Qed.
  Lemma places_len a p n : length (places a p n) = n.
  Proof. unfold places. by rewrite fmap_length, seq_length. Qed.

  (** Growing or changing the arrays leaves the slices in range. *)
  Definition same_sizes (ar ar' : gmap nat warr) : Prop := forall a e, room ar a e -> room ar' a e.
  Lemma sizes_ins ar a xs l x : (forall y, ar !! a = Some y -> length (a_elts y) = length xs) -> x = WArr l xs ->
    same_sizes ar (<[a := x]> ar).
  Proof.
    intros H -> b e (y & Hy & He). destruct (decide (a = b)) as [->|Hne].
    - exists (WArr l xs). rewrite lookup_insert. split; [done|]. simpl. by rewrite <-(H _ Hy).
    - exists y. by rewrite lookup_insert_ne.
  Qed.
  Lemma slc_mono ar ar' x y : same_sizes ar ar' -> slc_ok ar x y -> slc_ok ar' x y.
  Proof. intros Hs. destruct x as [[a [[p|] n]]|], y; try done; intros [? ?]; split; auto. Qed.
  Lemma wit_mono ar ar' x y : same_sizes ar ar' -> wit_ok ar x y -> wit_ok ar' x y.
  Proof. intros Hs. destruct x as [[a [s e] m]|], y as [[ps m']|]; try done. intros (? & ? & ? & ?). split_and!; auto. Qed.

  Lemma ok_ins {X Y} (P : option X -> option Y -> Prop) (m1 : gmap nat X) (m2 : gmap nat Y) i x y :
    (forall k, P (m1 !! k) (m2 !! k)) -> P (Some x) (Some y) -> forall k, P (<[i := x]> m1 !! k) (<[i := y]> m2 !! k).
  Proof.
    intros H Hx k. destruct (decide (i = k)) as [->|Hne]; [by rewrite !lookup_insert|by rewrite !lookup_insert_ne].
  Qed.

  Lemma value_live (ar : gmap nat warr) v a k x : arr_ok (ar !! a) (v !! a) -> value_at v (a, k) = Some x ->
    exists xs, ar !! a = Some (WArr true xs) /\ v !! a = Some (Some xs) /\ xs !! k = Some x.
  Proof.
    unfold value_at. cbn [fst snd]. intros Ha. destruct (v !! a) as [[ys|]|] eqn:Ev; try done. simpl. intros Hx.
    destruct (ar !! a) as [[[] xs]|] eqn:Ew; try done. simpl in Ha. subst. eauto.
  Qed.
  Lemma nlookup_nat (xs : list A) k x : xs !! k = Some x -> nlookup xs (N.of_nat k) = Some x.
  Proof.
    intros H. pose proof (lookup_lt_Some _ _ _ H). unfold nlookup.
    destruct (N.ltb_spec (N.of_nat k) (N.of_nat (length xs))); [|lia]. by rewrite Nat2N.id.
  Qed.

  Lemma call_ok v w a s e ps o r ps' :
    (forall a, arr_ok (w_arr w !! a) (v !! a)) -> s <= e -> ps = places a (N.to_nat s) (N.to_nat (e - s)) ->
    (s < e -> room (w_arr w) a e) -> vcall v ps o = Some (r, ps') ->
    exists s' e', s_step (w_elts w a) o (SIter s e) = Ok (r, SIter s' e') /\
      s' <= e' /\ ps' = places a (N.to_nat s') (N.to_nat (e' - s')) /\ (s' < e' -> room (w_arr w) a e').
  Proof.
    intros Hv Hle -> Hroom Hc.
    assert (Hread : forall k x, value_at v (a, k) = Some x -> nlookup (w_elts w a) (N.of_nat k) = Some x).
    { intros k x Hx. destruct (value_live _ _ _ _ _ (Hv a) Hx) as (xs & Ea & _ & Hk). unfold w_elts. rewrite Ea. by apply nlookup_nat. }
    destruct (decide (s = e)) as [->|Hne].
    - exists e, e. rewrite N.sub_diag in *. rewrite places_0 in Hc.
      assert (s_step (w_elts w a) o (SIter e e) = Ok (r, SIter e e) /\ ps' = []) as [-> ->].
      { destruct o; simpl in Hc; injection Hc as <- <-; (split; [|done]);
          unfold s_step, s_next, s_prev, s_last, s_len, s_is_empty, bind, get_st, ret; simpl; rewrite ?N.leb_refl, ?N.eqb_refl, ?N.sub_diag; done. }
      split_and!; [done|lia|done|lia].
    - destruct (N.to_nat (e - s)) as [|m] eqn:Em; [lia|].
      assert (Hr : forall e', e' <= e -> room (w_arr w) a e').
      { intros e' He. destruct (Hroom ltac:(lia)) as (x & Hx & He2). exists x. split; [done|]. lia. }
      destruct o.
      + exists (s + 1), e. rewrite places_S in Hc. cbn in Hc. destruct (value_at v (a, N.to_nat s)) as [x|] eqn:Ev; [|done].
        injection Hc as <- <-. unfold s_step, s_next, bind, get_st, ret, deref, put_st. simpl.
        destruct (N.leb_spec e s); [lia|]. pose proof (Hread _ _ Ev) as Hq. rewrite N2Nat.id in Hq. rewrite Hq. unfold ret. split_and!; [done|lia|f_equal; lia|].
        intros _. apply Hr. lia.
      + exists s, (e - 1). rewrite places_snoc in Hc. unfold vcall, pick in Hc. rewrite last_snoc in Hc.
        destruct (value_at v (a, _)) as [x|] eqn:Ev; [|done]. injection Hc as <- <-.
        unfold s_step, s_prev, bind, get_st, ret, deref, put_st. simpl. destruct (N.leb_spec e s); [lia|].
        pose proof (Hread _ _ Ev) as Hq. replace (N.of_nat (N.to_nat s + m)) with (e - 1) in Hq by lia. rewrite Hq. unfold ret. split_and!; [done|lia| |].
        * rewrite app_length. simpl. rewrite Nat.add_sub, take_app. f_equal. lia.
        * intros _. apply Hr. lia.
      + exists s, e. cbn [vcall] in Hc. apply (inj Some), pair_equal_spec in Hc as [<- <-]. rewrite places_len. unfold s_step, s_len, bind, get_st, ret. simpl.
        split_and!; [do 3 f_equal; lia|lia|by rewrite Em|intros _; apply Hr; lia].
      + exists s, e. cbn [vcall] in Hc. apply (inj Some), pair_equal_spec in Hc as [<- <-]. unfold s_step, s_is_empty, bind, get_st, ret. simpl.
        destruct (N.eqb_spec s e); [done|].
        split_and!; [done|lia|by rewrite Em|intros _; apply Hr; lia].
      + exists s, e. rewrite places_snoc in Hc. unfold vcall, pick in Hc. rewrite last_snoc in Hc.
        destruct (value_at v (a, _)) as [x|] eqn:Ev; [|done]. injection Hc as <- <-.
        unfold s_step, s_last, s_is_empty, bind, get_st, ret, deref. simpl. destruct (N.eqb_spec s e); [done|].
        pose proof (Hread _ _ Ev) as Hq. replace (N.of_nat (N.to_nat s + m)) with (e - 1) in Hq by lia. rewrite Hq. unfold ret.
        split_and!; [done|lia|by rewrite Em, places_snoc|intros _; apply Hr; lia].
  Qed.

  Lemma write_ok v w a k x y : (forall b, arr_ok (w_arr w !! b) (v !! b)) -> value_at v (a, k) = Some y ->
    exists ar', w_write w a (N.of_nat k) x = Ok ar' /\ (forall b, arr_ok (ar' !! b) (store_at v (a, k) x !! b)) /\
      same_sizes (w_arr w) ar'.
  Proof.
    intros Hv Hy. destruct (value_live _ _ _ _ _ (Hv a) Hy) as (xs & Ea & Eb & Hk). pose proof (lookup_lt_Some _ _ _ Hk) as Hlt.
    unfold w_write. rewrite Ea. destruct (N.ltb_spec (N.of_nat k) (N.of_nat (length xs))); [|lia]. rewrite Nat2N.id.
    eexists. split; [done|]. split.
    - intros b. unfold store_at. cbn [fst snd]. destruct (decide (a = b)) as [->|Hne].
      + by rewrite lookup_insert, lookup_alter, Eb.
      + rewrite lookup_insert_ne, lookup_alter_ne by done. apply Hv.
    - eapply sizes_ins; [|done]. intros z Hz. rewrite Ea in Hz. injection Hz as <-. simpl. by rewrite insert_length.
  Qed.

  Lemma wstep_refines v w o : vrel v w -> agrees vrel (wstep o w) (vspec v o).
  Proof.
    destruct v as [ar sl its], w as [war wsl wits]. intros (Ha & Hs & Ht). cbn [v_arr v_slc v_it w_arr w_slc w_it] in *.
    destruct o; cbn [wstep vspec].
    - specialize (Ha a) as Ha'. destruct (war !! a) as [[[] ?]|] eqn:Ew, (ar !! a) as [[]|] eqn:Ev; try done.
      eexists. split; [done|]. assert (same_sizes war (<[a := WArr true xs]> war)) as Hz.
      { eapply sizes_ins; [|done]. intros y Hy. by rewrite Ew in Hy. }
      split_and!; cbn [v_arr v_slc v_it w_arr w_slc w_it]; [by apply ok_ins|intros; by eapply slc_mono|intros; by eapply wit_mono].
    - specialize (Ha a) as Ha'. destruct (war !! a) as [[[] ?]|] eqn:Ew, (ar !! a) as [[]|] eqn:Ev; try done.
      eexists. split; [done|]. assert (same_sizes war (<[a := WArr false a_elts0]> war)) as Hz.
      { eapply sizes_ins; [|done]. intros y Hy. rewrite Ew in Hy. by injection Hy as <-. }
      split_and!; cbn [v_arr v_slc v_it w_arr w_slc w_it]; [by apply ok_ins|intros; by eapply slc_mono|intros; by eapply wit_mono].
    - destruct (value_at ar (a, N.to_nat k)) as [y|] eqn:Ey; [|done].
      destruct (write_ok ar (WSt war wsl wits) a (N.to_nat k) v y Ha Ey) as (ar' & E & Ha' & Hz). rewrite N2Nat.id in E. rewrite E.
      eexists. split; [done|]. split_and!; cbn [v_arr v_slc v_it w_arr w_slc w_it]; [done|intros; by eapply slc_mono|intros; by eapply wit_mono].
    - specialize (Ha a) as Ha'. destruct (war !! a) as [[[] ?]|] eqn:Ew, (ar !! a) as [[]|] eqn:Ev; try done.
      simpl in Ha'. subst. eexists. split; [done|]. done.
    - specialize (Ha a) as Ha'. destruct (war !! a) as [[[] ?]|] eqn:Ew, (ar !! a) as [[]|] eqn:Ev; try done.
      simpl in Ha'. subst. destruct (N.leb_spec (p + n) (N.of_nat (length l))) as [Hle|]; [|done].
      destruct (N.leb_spec p (N.of_nat (length l))); [|lia]. eexists. split; [done|]. split_and!; cbn [v_arr v_slc v_it w_arr w_slc w_it]; [done| |done].
      apply ok_ins; [done|]. split; [|done]. eexists. split; [exact Ew|done].
    - specialize (Hs u) as Hs'. destruct (wsl !! u) as [x|] eqn:Ew, (sl !! u) as [y|] eqn:Ev; try done.
      eexists. split; [done|]. split_and!; cbn [v_arr v_slc v_it w_arr w_slc w_it]; [done| |done]. by apply ok_ins.
    - specialize (Hs s) as Hs'. destruct (wsl !! s) as [[a [[p|] n]]|] eqn:Ew, (sl !! s) as [y|] eqn:Ev; try done.
      + destruct Hs' as [(x & Hx & Hle) ->]. unfold new_iter. cbn [sl_ptr w_arr]. rewrite Hx. destruct x as [l xs].
        cbn [slice_iter sl_ptr sl_size siter_new s_end]. cbn [a_elts] in Hle. destruct (N.leb_spec (p + n) (N.of_nat (length xs))); [|lia].
        eexists. split; [done|]. split_and!; cbn [v_arr v_slc v_it w_arr w_slc w_it]; [done|done|].
        apply ok_ins; [done|]. split_and!; [done|lia|f_equal; lia|]. intros _. by exists (WArr l xs).
      + destruct Hs' as [-> ->]. eexists. split; [done|]. split_and!; cbn [v_arr v_slc v_it w_arr w_slc w_it]; [done|done|].
        apply ok_ins; [done|]. by split_and!.
    - specialize (Hs s) as Hs'. destruct (wsl !! s) as [[a [[p|] n]]|] eqn:Ew, (sl !! s) as [y|] eqn:Ev; try done.
      + destruct Hs' as [(x & Hx & Hle) ->]. unfold new_iter. cbn [sl_ptr w_arr]. rewrite Hx. destruct x as [l xs].
        cbn [slice_iter sl_ptr sl_size siter_new s_end]. cbn [a_elts] in Hle. destruct (N.leb_spec (p + n) (N.of_nat (length xs))); [|lia].
        eexists. split; [done|]. split_and!; cbn [v_arr v_slc v_it w_arr w_slc w_it]; [done|by apply ok_ins|].
        apply ok_ins; [done|]. split_and!; [done|lia|f_equal; lia|]. intros _. by exists (WArr l xs).
      + destruct Hs' as [-> ->]. eexists. split; [done|]. split_and!; cbn [v_arr v_slc v_it w_arr w_slc w_it]; [done|by apply ok_ins|].
        apply ok_ins; [done|]. by split_and!.
    - specialize (Ht u) as Ht'. destruct (wits !! u) as [x|] eqn:Ew, (its !! u) as [y|] eqn:Ev; try done.
      eexists. split; [done|]. split_and!; cbn [v_arr v_slc v_it w_arr w_slc w_it]; [done|done|]. by apply ok_ins.
    - specialize (Ht t) as Ht'. destruct (its !! t) as [[ps m]|] eqn:Ev; [|done]. destruct (wits !! t) as [[a [s e] m']|] eqn:Ew; [|done].
      destruct Ht' as (-> & Hle & Hps & Hr). destruct (vcall ar ps o) as [[r ps']|] eqn:Ec; [|done].
      destruct (call_ok ar (WSt war wsl wits) a s e ps o r ps' Ha Hle Hps Hr Ec) as (s' & e' & E & H1 & H2 & H3). rewrite E.
      eexists. split; [done|]. split_and!; cbn [v_arr v_slc v_it w_arr w_slc w_it]; [done|done|]. by apply ok_ins.
    - specialize (Ht t) as Ht'. destruct (its !! t) as [[ps []]|] eqn:Ev; [|done|done]. destruct (wits !! t) as [[a [s e] m']|] eqn:Ew; [|done].
      destruct Ht' as (-> & Hle & Hps & Hr). destruct (vcall ar ps o) as [[r ps']|] eqn:Ec; [|done].
      destruct (call_ok ar (WSt war wsl wits) a s e ps o r ps' Ha Hle Hps Hr Ec) as (s' & e' & E & H1 & H2 & H3). rewrite E.
      destruct r as [[x|]|?|?].
      2-4: eexists; split; [done|]; split_and!; cbn [v_arr v_slc v_it w_arr w_slc w_it]; [done|done|]; by apply ok_ins.
      destruct ((pick o ps).1) as [p|] eqn:Ep; [|done].
      assert (p = (a, N.to_nat (ref_at o (SIter s e))) /\ value_at ar p = Some x) as [Epl Ex].
      { assert (Hx : value_at ar p = Some x).
        { unfold vcall in Ec. destruct o; try done; destruct (pick _ ps) as [q qs]; cbn [fst] in Ep; subst q;
            destruct (value_at ar p); try done; by injection Ec as <- _. }
        split; [|done]. destruct (N.to_nat (e - s)) as [|m] eqn:Em.
        { rewrite Hps, places_0 in Ep. by destruct o. }
        destruct o; simpl in Ep; rewrite Hps in Ep; try (rewrite places_snoc, last_snoc in Ep); injection Ep as <-; simpl; f_equal; lia. }
      rewrite Epl in Ex |- *. destruct (write_ok ar (WSt war wsl wits) a _ v x Ha Ex) as (ar' & E2 & Ha' & Hz). rewrite N2Nat.id in E2. rewrite E2.
      eexists. split; [done|]. split_and!; cbn [v_arr v_slc v_it w_arr w_slc w_it]; [done|intros; by eapply slc_mono|].
      apply ok_ins; [intros; by eapply wit_mono|]. split_and!; auto.
    - specialize (Hs s) as Hs'. destruct (sl !! s) as [[|[b k] ps]|] eqn:Ev; [done| |done].
      destruct (wsl !! s) as [[a [[p|] n]]|] eqn:Ew; [|by destruct Hs'|done]. destruct Hs' as [_ Hp].
      destruct (N.to_nat n); [done|]. rewrite places_S in Hp. injection Hp as -> -> _.
      eexists. split; [simpl; by rewrite N2Nat.id|]. done.
    - specialize (Ht t) as Ht'. destruct (its !! t) as [[[|[b k] ps] m]|] eqn:Ev; [done| |done].
      destruct (wits !! t) as [[a [s e] m']|] eqn:Ew; [|done]. destruct Ht' as (_ & _ & Hp & _).
      destruct (N.to_nat (e - s)); [done|]. rewrite places_S in Hp. injection Hp as -> -> _.
      eexists. split; [simpl; by rewrite N2Nat.id|]. done.
  Qed.
  Lemma vrel_start : vrel vstart wstart.
  Proof. split_and!; intros k; simpl; by rewrite !lookup_empty. Qed.

  (** ** C79 *)
  (** Every program: slices and iterators see what the arrays hold now, writes
      through any of them are seen by all, [into_iter] empties its slice only. *)
  Theorem C79_views ops :
    match srun vspec vstart ops with
    | SOk v outs => exists w, run_ops wstep ops wstart = Ok (outs, w)
    | SPanic => run_ops wstep ops wstart = Err Panic
    | SPre => True
    end.
  Proof.
    pose proof (srun_refines vspec wstep vrel wstep_refines ops _ _ vrel_start) as H. unfold agrees in H.
    destruct (srun vspec vstart ops); [|done|done]. destruct H as (w & H & _). eauto.
  Qed.
  (** An array that has ended must not be read through what is left of an
      iterator; asking how much is left is fine. *)
  Theorem C79_ended ops v outs t ps m a k o : srun vspec vstart ops = SOk v outs ->
    v_it v !! t = Some (ps, m) -> (pick o ps).1 = Some (a, k) -> v_arr v !! a = Some None -> o <> DLen -> o <> DEmpty ->
    exists w, run_ops wstep ops wstart = Ok (outs, w) /\ wstep (WCall t o) w = Err UB.
  Proof.
    intros E Hi Hp Hd Ho1 Ho2. pose proof (srun_refines vspec wstep vrel wstep_refines ops _ _ vrel_start) as H. rewrite E in H.
    destruct H as (w & R & (Ha & _ & Ht)). exists w. split; [done|]. destruct w as [war wsl wits]. cbn [wstep].
    specialize (Ht t). rewrite Hi in Ht. cbn [w_it w_arr] in *. destruct (wits !! t) as [[b [s e] m']|]; [|done].
    destruct Ht as (-> & Hle & -> & Hr). destruct (N.to_nat (e - s)) as [|n] eqn:En; [by destruct o|].
    assert (b = a) as ->.
    { destruct o; simpl in Hp; try (rewrite (places_snoc b), last_snoc in Hp); by injection Hp as <- _. }
    assert (w_elts (WSt war wsl wits) a = []) as ->.
    { unfold w_elts. cbn [w_arr]. specialize (Ha a). rewrite Hd in Ha. by destruct (war !! a) as [[[] ?]|]. }
    unfold s_step, s_next, s_prev, s_last, s_is_empty, bind, get_st, deref, nlookup. simpl.
    destruct o; try done; cbn [s_start s_end]; rewrite ?(proj2 (N.leb_gt e s)), ?(proj2 (N.eqb_neq s e)) by lia; cbn [s_start s_end];
      match goal with |- context [(?x <? 0)] => destruct (N.ltb_spec x 0); [lia|] end; done.
  Qed.
  (** The consequence for [into_iter]: the slice is empty afterwards. *)
  Theorem C79_into_iter ops v outs s t u : srun vspec vstart ops = SOk v outs -> is_Some (v_slc v !! s) ->
    exists w outs', run_ops wstep (ops ++ [WInto t s; WIter u s false; WCall u DLen; WCall u DNext]) wstart =
      Ok (outs ++ outs', w) /\ outs' = [WOk; WOk; WRes (ENum 0); WRes (EItem None)].
  Proof.
    intros E [ps Hs]. destruct v as [ar sl its]. cbn [v_slc] in Hs.
    pose proof (C79_views (ops ++ [WInto t s; WIter u s false; WCall u DLen; WCall u DNext])) as H.
    rewrite (srun_app _ _ _ _ _ _ E) in H. cbn [srun] in H.
    assert (E1 : vspec (VSt ar sl its) (WInto t s) = SOk (VSt ar (<[s := []]> sl) (<[t := (ps, true)]> its)) WOk)
      by (cbn [vspec]; by rewrite Hs).
    rewrite E1 in H. do 6 (cbn -[lookup insert] in H; rewrite ?lookup_insert in H).
    destruct H as (w & H). exists w. eexists. split; [exact H|done].
  Qed.
End Code.

(** A program that meets the hypotheses: two overlapping slices of one array;
    writes through one are seen through the other and in the array. *)
Definition C79_ops : list (@wop N) :=
  [WNew 0 [10;11;12;13;14]; WSlice 0 0 1 3; WCopy 1 0; WSlice 2 0 2 3; WIter 0 0 true; WIter 1 2 false;
   WPut 0 DPrev 99; WCall 1 DNext; WCall 1 DNext; WPut 0 DNext 77; WGet 0; WInto 2 0; WIter 3 0 false; WCall 3 DLen; WCall 3 DNext;
   WCall 2 DNext; WIter 4 1 false; WCall 4 DLast; WCall 4 DLen; WAddr 1; WItAddr 2; WSet 0 2 55; WCall 4 DPrev; WCall 4 DPrev; WEnd 0; WCall 4 DLen].
Example C79_ex :
  (match srun vspec vstart C79_ops with SOk _ outs => outs | _ => [] end) =
    [WOk; WOk; WOk; WOk; WOk; WOk;
     WRes (EItem (Some 13)); WRes (EItem (Some 12)); WRes (EItem (Some 99)); WRes (EItem (Some 11)); WElts [10;77;12;99;14]; WOk; WOk; WRes (ENum 0); WRes (EItem None);
     WRes (EItem (Some 77)); WOk; WRes (EItem (Some 99)); WRes (ENum 3); WPtr (Some (0%nat, 1)); WPtr (Some (0%nat, 2)); WOk; WRes (EItem (Some 99)); WRes (EItem (Some 55)); WOk; WRes (ENum 1)].
Proof. by vm_compute. Qed.
Example C79_ended_ex :
  match srun vspec vstart C79_ops with
  | SOk v _ => v_it v !! 4%nat = Some ([(0, 1)%nat], false) /\ v_arr v !! 0%nat = Some None /\ is_Some (v_slc v !! 1%nat)
  | _ => False end /\
  run_ops wstep (C79_ops ++ [WCall 4 DNext]) wstart = Err UB.
Proof. split; [vm_compute; split_and!; eauto|by vm_compute]. Qed.

Print Assumptions C79_views.
Print Assumptions C79_ended.
Print Assumptions C79_into_iter.
