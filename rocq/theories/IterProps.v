(** * IterProps: C46 and C47 *)
From Verif Require Import Base IterModel IterSpec RangeModel.

Lemma iter_S_r {A} (f : A -> A) n x : Nat.iter (S n) f x = Nat.iter n f (f x).
Proof. induction n as [|n IH]; simpl in *; [done|by rewrite IH]. Qed.

Section Props.
  Context {V C Wd Src : Type} (snext : Src -> option V * Src) (pull : option V -> Wd -> Wd).
  Notation stage := (stage V C Wd).
  Notation ist := (ist C Wd Src).

  (** The source, started in [s], produces [xs] and then none, ending in [s']. *)
  Inductive yields : Src -> list V -> Src -> Prop :=
  | Y_nil s s' : snext s = (None, s') -> yields s [] s'
  | Y_cons s s1 s2 x xs : snext s = (Some x, s1) -> yields s1 xs s2 -> yields s (x :: xs) s2.

  (** ** Specification: one element at a time

      What should happen to one element [x] on its way through the stages
      (innermost first): [None] if some filter drops it. *)
  Fixpoint pass (sts : list stage) (cs : list C) (x : V) (w : Wd) : option V * list C * Wd :=
    match sts, cs with
    | SMap f :: r, c :: cs =>
        match pass r cs x w with
        | (Some y, cs', w') => let '(z, c', w'') := f c y w' in (Some z, c' :: cs', w'')
        | (None, cs', w') => (None, c :: cs', w')
        end
    | SFilter p :: r, c :: cs =>
        match pass r cs x w with
        | (Some y, cs', w') =>
            let '(b, z, c', w'') := p c y w' in (if b then Some z else None, c' :: cs', w'')
        | (None, cs', w') => (None, c :: cs', w')
        end
    | _, _ => (Some x, cs, w)
    end.

  (** Feeding all of [xs] to a consumer [k], element by element. *)
  Fixpoint feed {A} (sts : list stage) (k : A -> V -> Wd -> A * Wd)
      (cs : list C) (xs : list V) (a : A) (w : Wd) : A * list C * Wd :=
    match xs with
    | [] => (a, cs, pull None w)
    | x :: r =>
        match pass sts cs x (pull (Some x) w) with
        | (Some y, cs', w') => let '(a', w'') := k a y w' in feed sts k cs' r a' w''
        | (None, cs', w') => feed sts k cs' r a w'
        end
    end.

  (** The first element that comes through, and what was not touched. *)
  Fixpoint first_out (sts : list stage) (cs : list C) (xs : list V) (w : Wd)
      : option V * list C * list V * Wd :=
    match xs with
    | [] => (None, cs, [], pull None w)
    | x :: r =>
        match pass sts cs x (pull (Some x) w) with
        | (Some y, cs', w') => (Some y, cs', r, w')
        | (None, cs', w') => first_out sts cs' r w'
        end
    end.

  (** A predicate is steady if calling it does not change its own captured
      variables (it may still have effects elsewhere and change the element). *)
  Definition steady (st : stage) : Prop :=
    match st with
    | SMap _ => True
    | SFilter p => forall c x w b y c' w', p c x w = (b, y, c', w') -> c' = c
    end.

  (** ** The exact behaviour, for all closures

      A filter stage has the captured state [c0] it was built with and the
      state [c] of the copy made for the current [next()]. *)
  Fixpoint xpass (sts : list stage) (cs : list (C * C)) (x : V) (w : Wd) : option V * list (C * C) * Wd :=
    match sts, cs with
    | SMap f :: r, (c0, c) :: cs =>
        match xpass r cs x w with
        | (Some y, cs', w') => let '(z, c', w'') := f c y w' in (Some z, (c', c') :: cs', w'')
        | (None, cs', w') => (None, (c0, c) :: cs', w')
        end
    | SFilter p :: r, (c0, c) :: cs =>
        match xpass r cs x w with
        | (Some y, cs', w') =>
            let '(b, z, c', w'') := p c y w' in
            if b then (Some z, (c0, c0) :: cs', w'') else (None, (c0, c') :: cs', w'')
        | (None, cs', w') => (None, (c0, c) :: cs', w')
        end
    | _, _ => (Some x, cs, w)
    end.
  Definition drop_copies (cs : list (C * C)) : list (C * C) := (fun c => (c.1, c.1)) <$> cs.
  Fixpoint xfirst (sts : list stage) (cs : list (C * C)) (xs : list V) (w : Wd)
      : option V * list (C * C) * list V * Wd :=
    match xs with
    | [] => (None, drop_copies cs, [], pull None w)
    | x :: r =>
        match xpass sts cs x (pull (Some x) w) with
        | (Some y, cs', w') => (Some y, cs', r, w')
        | (None, cs', w') => xfirst sts cs' r w'
        end
    end.
  Definition start (cs : list C) : list (C * C) := (fun c => (c, c)) <$> cs.

  (** *** Facts about the exact behaviour *)
  Lemma xpass_length sts : forall cs x w o cs' w',
    xpass sts cs x w = (o, cs', w') -> length cs' = length cs.
  Proof.
    induction sts as [|[f|p] r IH]; intros [|[c0 c] cs] x w o cs' w'; simpl; try by intros [= <- <- <-].
    - destruct (xpass r cs x w) as [[[y|] cs1] w1] eqn:E; apply IH in E.
      + destruct (f c y w1) as [[z c'] w2]. intros [= <- <- <-]. simpl. lia.
      + intros [= <- <- <-]. simpl. lia.
    - destruct (xpass r cs x w) as [[[y|] cs1] w1] eqn:E; apply IH in E.
      + destruct (p c y w1) as [[[[] z] c'] w2]; intros [= <- <- <-]; simpl; lia.
      + intros [= <- <- <-]. simpl. lia.
  Qed.

  Definition clean (cs : list (C * C)) : Prop := drop_copies cs = cs.
  Lemma clean_cons c0 c cs : clean ((c0, c) :: cs) <-> c = c0 /\ clean cs.
  Proof.
    unfold clean, drop_copies. csimpl. split.
    - intros [= -> ->]. done.
    - intros [-> ->]. done.
  Qed.
  Lemma drop_clean cs : clean (drop_copies cs).
  Proof. unfold clean, drop_copies. rewrite <-list_fmap_compose. done. Qed.
  Lemma clean_start cs : clean cs -> exists c1, cs = start c1.
  Proof.
    unfold clean. intros H. exists (fst <$> cs). rewrite <-H at 1. unfold drop_copies, start.
    by rewrite <-list_fmap_compose.
  Qed.
  Lemma start_clean c1 : clean (start c1).
  Proof. unfold clean, drop_copies, start. rewrite <-list_fmap_compose. done. Qed.
  Lemma xfirst_clean sts : forall xs cs w o cs' xs' w', length cs = length sts ->
    xfirst sts cs xs w = (o, cs', xs', w') -> clean cs' /\ length cs' = length sts.
  Proof.
    induction xs as [|x xs IH]; intros cs w o cs' xs' w' Hl; simpl.
    - intros [= <- <- <- <-]. split; [apply drop_clean|]. unfold drop_copies. by rewrite fmap_length.
    - destruct (xpass sts cs x (pull (Some x) w)) as [[[y|] cs1] w1] eqn:E.
      + intros [= <- <- <- <-]. split.
        * clear IH. revert cs cs1 y w1 Hl E. generalize (pull (Some x) w).
          intros w0 cs cs1 y w1 Hl E. revert cs cs1 y w0 w1 Hl E.
          induction sts as [|[f|p] r IH]; intros [|[c0 c] cs] cs1 y w0 w1 Hl; simpl; try done.
          -- by intros [= <- <- <-].
          -- destruct (xpass r cs x w0) as [[[u|] cs2] w2] eqn:E; [|done].
             destruct (f c u w2) as [[z c'] w3]. intros [= <- <- <-]. apply clean_cons. split; [done|].
             eapply IH; [|done]. simpl in *. lia.
          -- destruct (xpass r cs x w0) as [[[u|] cs2] w2] eqn:E; [|done].
             destruct (p c u w2) as [[[[] z] c'] w3]; [|done]. intros [= <- <- <-]. apply clean_cons. split; [done|].
             eapply IH; [|done]. simpl in *. lia.
        * apply xpass_length in E. lia.
      + apply IH. apply xpass_length in E. lia.
  Qed.
  Lemma xfirst_shorter sts : forall xs cs w y cs' xs' w',
    xfirst sts cs xs w = (Some y, cs', xs', w') -> length xs' < length xs.
  Proof.
    induction xs as [|x xs IH]; intros cs w y cs' xs' w'; simpl; [done|].
    destruct (xpass _ _ _ _) as [[[z|] cs1] w1]; [intros [= <- <- <- <-]; lia|].
    intros H. apply IH in H. lia.
  Qed.

  (** Unfolding one adapter. *)
  Lemma xfirst_map f r c0 c : forall xs cs w,
    xfirst (SMap f :: r) ((c0, c) :: cs) xs w =
      match xfirst r cs xs w with
      | (Some y, cs', xs', w') => let '(z, c', w'') := f c y w' in (Some z, (c', c') :: cs', xs', w'')
      | (None, cs', xs', w') => (None, (c0, c0) :: cs', xs', w')
      end.
  Proof.
    induction xs as [|x xs IH]; intros cs w; simpl; [done|].
    destruct (xpass r cs x (pull (Some x) w)) as [[[y|] cs1] w1].
    - by destruct (f c y w1) as [[z c'] w2].
    - apply IH.
  Qed.
  Lemma xfirst_filter p r c0 : forall xs cs c w,
    xfirst (SFilter p :: r) ((c0, c) :: cs) xs w =
      match xfirst r cs xs w with
      | (Some y, cs', xs', w') =>
          let '(b, z, c', w'') := p c y w' in
          if b then (Some z, (c0, c0) :: cs', xs', w'')
          else xfirst (SFilter p :: r) ((c0, c') :: cs') xs' w''
      | (None, cs', xs', w') => (None, (c0, c0) :: cs', xs', w')
      end.
  Proof.
    induction xs as [|x xs IH]; intros cs c w; simpl; [done|].
    destruct (xpass r cs x (pull (Some x) w)) as [[[y|] cs1] w1].
    - by destruct (p c y w1) as [[[[] z] c'] w2].
    - apply IH.
  Qed.

  (** *** The model computes it *)
  (** One call of [next()]: from [xs] left in the source. *)
  Definition next_is (nx : M ist (option V)) (sts : list stage) (bound : nat) : Prop :=
    forall xs cs extra s s2 w, length xs <= bound -> yields s xs s2 -> length cs = length sts ->
      match xfirst sts (start cs) xs w with
      | (o, cs', xs', w') =>
          exists s1, nx (Ist (cs ++ extra) s w) = Ok (o, Ist ((fst <$> cs') ++ extra) s1 w') /\
            match o with
            | Some _ => yields s1 xs' s2
            | None => s1 = s2 /\ xs' = []
            end
      end.

  Lemma find_loop_is nx r p c0 bound : next_is nx r bound -> forall fuel xs,
    length xs <= bound -> length xs < fuel ->
    forall c cs extra s s2 w, yields s xs s2 -> length cs = length r ->
      match xfirst (SFilter p :: r) ((c0, c) :: start cs) xs w with
      | (o, cs', xs', w') =>
          exists s1, find_loop fuel nx p c (Ist (cs ++ extra) s w)
                       = Ok (o, Ist ((fst <$> tail cs') ++ extra) s1 w') /\
            match o with
            | Some _ => yields s1 xs' s2
            | None => s1 = s2 /\ xs' = []
            end
      end.
  Proof.
    intros Hnx. induction fuel as [|fuel IH]; intros xs Hb Hf c cs extra s s2 w Hy Hl; [lia|].
    rewrite xfirst_filter. pose proof (Hnx xs cs extra s s2 w Hb Hy Hl) as H1.
    destruct (xfirst r (start cs) xs w) as [[[[y|] cs1] xs1] w1] eqn:E1.
    - destruct H1 as (s1 & E2 & Hy1). simpl. unfold bind at 1. rewrite E2.
      unfold bind, call_pred. simpl. destruct (p c y w1) as [[[b z] c'] w2] eqn:Ep.
      destruct b; simpl.
      + exists s1. done.
      + apply xfirst_clean in E1 as Hc; [|unfold start; by rewrite fmap_length].
        destruct Hc as [Hc Hl1]. destruct (clean_start _ Hc) as [c1 ->].
        apply xfirst_shorter in E1.
        pose proof (IH xs1 ltac:(lia) ltac:(lia) c' c1 extra s1 s2 w2 Hy1) as H2.
        unfold start in Hl1. rewrite fmap_length in Hl1. specialize (H2 Hl1).
        replace (fst <$> start c1) with c1.
        2:{ unfold start. rewrite <-list_fmap_compose. symmetry. apply list_fmap_id. }
        done.
    - destruct H1 as (s1 & E2 & H2). exists s1. simpl. unfold bind. rewrite E2. done.
  Qed.

  Lemma start_cons c cs : start (c :: cs) = (c, c) :: start cs.
  Proof. done. Qed.

  Lemma p_next_is sts : forall bound fuel, bound < fuel -> next_is (p_next snext pull fuel sts) sts bound.
  Proof.
    induction sts as [|[f|p] r IH]; intros bound fuel Hf xs cs extra s s2 w Hb Hy Hl.
    - destruct cs; [|done]. simpl. destruct xs as [|x xs]; simpl.
      + inversion Hy as [? ? E|]; subst. exists s2. split; [|done].
        unfold src_pull. simpl. by rewrite E.
      + inversion Hy as [|? s1 ? ? ? E Hy1]; subst. exists s1. split; [|done].
        unfold src_pull. simpl. by rewrite E.
    - destruct cs as [|c cs]; [done|]. injection Hl as Hl. rewrite start_cons, xfirst_map.
      pose proof (IH bound fuel Hf xs cs extra s s2 w Hb Hy Hl) as H1.
      destruct (xfirst r (start cs) xs w) as [[[[y|] cs1] xs1] w1] eqn:E1; destruct H1 as (s1 & E2 & Hy1).
      + destruct (f c y w1) as [[z c'] w2] eqn:Ef. exists s1. split; [|done].
        simpl. unfold bind, pop_cl. simpl. rewrite E2. unfold call_map, push_cl, ret. simpl. by rewrite Ef.
      + exists s1. split; [|done].
        simpl. unfold bind, pop_cl. simpl. rewrite E2. unfold push_cl, ret. done.
    - destruct cs as [|c cs]; [done|]. injection Hl as Hl. rewrite start_cons.
      pose proof (find_loop_is _ r p c bound (IH bound fuel Hf) fuel xs Hb ltac:(lia) c cs extra s s2 w Hy Hl) as H1.
      destruct (xfirst (SFilter p :: r) ((c, c) :: start cs) xs w) as [[[o cs1] xs1] w1] eqn:E1.
      destruct H1 as (s1 & E2 & Hy1). exists s1. split; [|done].
      simpl. unfold bind, pop_cl. simpl. rewrite E2. unfold push_cl, ret. simpl.
      assert (exists rest, cs1 = (c, c) :: rest) as [rest ->].
      { clear -E1. revert E1. generalize (start cs). generalize c at 2. intros ca l. revert ca l w.
        induction xs as [|x xs IH]; intros ca l w; simpl.
        - intros [= <- <- <- <-]. eauto.
        - destruct (xpass r l x (pull (Some x) w)) as [[[y|] cs2] w2].
          + destruct (p ca y w2) as [[[[] z] c'] w3]; [intros [= <- <- <- <-]; eauto|apply IH].
          + apply IH. }
      done.
  Qed.

  (** *** Under steady predicates the exact behaviour is the specification *)
  Lemma xpass_steady sts : Forall steady sts -> forall cs x w, length cs = length sts ->
    xpass sts (start cs) x w =
      match pass sts cs x w with (o, cs', w') => (o, start cs', w') end /\
    length (pass sts cs x w).1.2 = length sts.
  Proof.
    induction 1 as [|st r Hst Hr IH]; intros [|c cs] x w Hl; try done.
    injection Hl as Hl. rewrite start_cons. destruct st as [f|p]; simpl; destruct (IH cs x w Hl) as [-> Hlen];
      destruct (pass r cs x w) as [[[y|] cs'] w']; simpl in Hlen.
    - destruct (f c y w') as [[z c'] w'']. simpl. auto.
    - simpl. auto.
    - destruct (p c y w') as [[[[] z] c'] w''] eqn:Ep; pose proof (Hst _ _ _ _ _ _ _ Ep) as ->; simpl; auto.
    - simpl. auto.
  Qed.
  Lemma start_drop cs : drop_copies (start cs) = start cs.
  Proof. apply start_clean. Qed.
  Lemma xfirst_steady sts : Forall steady sts -> forall xs cs w, length cs = length sts ->
    xfirst sts (start cs) xs w =
      match first_out sts cs xs w with (o, cs', xs', w') => (o, start cs', xs', w') end /\
    length (first_out sts cs xs w).1.1.2 = length sts.
  Proof.
    intros Hs. induction xs as [|x xs IH]; intros cs w Hl; simpl.
    { by rewrite start_drop. }
    destruct (xpass_steady sts Hs cs x (pull (Some x) w) Hl) as [-> Hlen].
    destruct (pass sts cs x (pull (Some x) w)) as [[[y|] cs'] w']; simpl in *; [done|]. by apply IH.
  Qed.

  Lemma fst_start cs : fst <$> start cs = cs.
  Proof. unfold start. rewrite <-list_fmap_compose. apply list_fmap_id. Qed.

  Lemma feed_first {A} sts (k : A -> V -> Wd -> A * Wd) : forall xs cs a w,
    feed sts k cs xs a w =
      match first_out sts cs xs w with
      | (Some y, cs', xs', w') => let '(a', w'') := k a y w' in feed sts k cs' xs' a' w''
      | (None, cs', _, w') => (a, cs', w')
      end.
  Proof.
    induction xs as [|x xs IH]; intros cs a w; simpl; [done|].
    by destruct (pass sts cs x (pull (Some x) w)) as [[[y|] cs'] w'].
  Qed.
  Lemma first_out_shorter sts : forall xs cs w y cs' xs' w',
    first_out sts cs xs w = (Some y, cs', xs', w') -> length xs' < length xs.
  Proof.
    induction xs as [|x xs IH]; intros cs w y cs' xs' w'; simpl; [done|].
    destruct (pass _ _ _ _) as [[[z|] cs1] w1]; [intros [= <- <- <- <-]; lia|].
    intros H. apply IH in H. lia.
  Qed.

  Context (sts : list stage) (Hsteady : Forall steady sts).
  Notation nx fuel := (p_next snext pull fuel sts).

  Lemma next_steady fuel xs cs s s2 w : length xs < fuel -> yields s xs s2 -> length cs = length sts ->
    match first_out sts cs xs w with
    | (o, cs', xs', w') =>
        exists s1, nx fuel (Ist cs s w) = Ok (o, Ist cs' s1 w') /\ length cs' = length sts /\
          match o with Some _ => yields s1 xs' s2 | None => s1 = s2 /\ xs' = [] end
    end.
  Proof.
    intros Hf Hy Hl. pose proof (p_next_is sts (length xs) fuel Hf xs cs [] s s2 w ltac:(lia) Hy Hl) as H.
    destruct (xfirst_steady sts Hsteady xs cs w Hl) as [E Hlen]. rewrite E in H.
    destruct (first_out sts cs xs w) as [[[o cs'] xs'] w']. destruct H as (s1 & E2 & H2).
    rewrite !app_nil_r, fst_start in E2. by exists s1.
  Qed.

  Lemma fold_steady {A} (k : A -> V -> Wd -> A * Wd) fuel : forall n xs cs s s2 a w,
    length xs < n -> n <= fuel -> yields s xs s2 -> length cs = length sts ->
    (o <-- nx fuel ;; t_fold_loop k n (nx fuel) o a) (Ist cs s w) =
      match feed sts k cs xs a w with (a', cs', w') => Ok (a', Ist cs' s2 w') end.
  Proof.
    induction n as [|n IH]; intros xs cs s s2 a w Hn Hf Hy Hl; [lia|].
    pose proof (next_steady fuel xs cs s s2 w ltac:(lia) Hy Hl) as H. rewrite feed_first.
    unfold bind at 1. destruct (first_out sts cs xs w) as [[[[y|] cs'] xs'] w'] eqn:E;
      destruct H as (s1 & E2 & Hl2 & H2); rewrite E2.
    - simpl. unfold bind at 1, call_k. simpl. destruct (k a y w') as [a' w''] eqn:Ek.
      apply first_out_shorter in E. apply IH; [lia|lia|done|done].
    - simpl. unfold ret. by destruct H2 as [-> _].
  Qed.

  (** *** C46 *)
  (** Folding (and [for_each], where the accumulator is the lambda's captured
      state): every element is pulled once, sent through all stages and
      consumed before the next one is pulled. *)
  Theorem C46_fold_partial {A} (k : A -> V -> Wd -> A * Wd) fuel xs cs s s2 a w :
    length xs < fuel -> yields s xs s2 -> length cs = length sts ->
    t_fold k fuel (nx fuel) a (Ist cs s w) =
      match feed sts k cs xs a w with (a', cs', w') => Ok (a', Ist cs' s2 w') end.
  Proof. intros. by apply fold_steady. Qed.

  Theorem C46_collect_partial fuel xs cs s s2 w :
    length xs < fuel -> yields s xs s2 -> length cs = length sts ->
    t_collect fuel (nx fuel) (Ist cs s w) =
      match feed sts (fun l x w => (l ++ [x], w)) cs xs [] w with
      | (l, cs', w') => Ok (l, Ist cs' s2 w')
      end.
  Proof. intros. by apply fold_steady. Qed.

  (** [reduce]: the first element that comes through starts the accumulation. *)
  Definition reduce_k (k : V * C -> V -> Wd -> (V * C) * Wd) (a : option V * C) (x : V) (w : Wd)
      : (option V * C) * Wd :=
    match a with
    | (None, c) => ((Some x, c), w)
    | (Some y, c) => let '((z, c'), w') := k (y, c) x w in ((Some z, c'), w')
    end.
  Lemma feed_reduce k : forall xs cs y c w,
    feed sts (reduce_k k) cs xs (Some y, c) w =
      match feed sts k cs xs (y, c) w with ((z, c'), cs', w') => ((Some z, c'), cs', w') end.
  Proof.
    induction xs as [|x xs IH]; intros cs y c w; simpl; [done|].
    destruct (pass sts cs x (pull (Some x) w)) as [[[u|] cs'] w']; [|apply IH].
    destruct (k (y, c) u w') as [[z c'] w'']. apply IH.
  Qed.
  Theorem C46_reduce_partial (k : V * C -> V -> Wd -> (V * C) * Wd) fuel xs cs s s2 c w :
    length xs < fuel -> yields s xs s2 -> length cs = length sts ->
    t_reduce fuel (nx fuel) k c (Ist cs s w) =
      match feed sts (reduce_k k) cs xs (None, c) w with ((r, _), cs', w') => Ok (r, Ist cs' s2 w') end.
  Proof.
    intros Hf Hy Hl. pose proof (next_steady fuel xs cs s s2 w Hf Hy Hl) as H.
    rewrite feed_first. unfold t_reduce, bind at 1.
    destruct (first_out sts cs xs w) as [[[[y|] cs'] xs'] w'] eqn:E;
      destruct H as (s1 & E2 & Hl2 & H2); rewrite E2.
    - apply first_out_shorter in E. simpl. rewrite feed_reduce. unfold bind at 1.
      rewrite (C46_fold_partial k fuel xs' cs' s1 s2 (y, c) w') by (done || lia).
      by destruct (feed sts k cs' xs' (y, c) w') as [[[z c'] cs''] w''].
    - by destruct H2 as [-> _].
  Qed.

  (** [last]: the last element that comes through. *)
  Lemma last_loop_steady fuel : forall n xs cs s s2 prev w,
    length xs < n -> n <= fuel -> yields s xs s2 -> length cs = length sts ->
    (o <-- nx fuel ;; t_last_loop n (nx fuel) prev o) (Ist cs s w) =
      match feed sts (fun _ x w => (Some x, w)) cs xs prev w with (r, cs', w') => Ok (r, Ist cs' s2 w') end.
  Proof.
    induction n as [|n IH]; intros xs cs s s2 prev w Hn Hf Hy Hl; [lia|].
    pose proof (next_steady fuel xs cs s s2 w ltac:(lia) Hy Hl) as H. rewrite feed_first.
    unfold bind at 1. destruct (first_out sts cs xs w) as [[[[y|] cs'] xs'] w'] eqn:E;
      destruct H as (s1 & E2 & Hl2 & H2); rewrite E2.
    - apply first_out_shorter in E. simpl. apply IH; [lia|lia|done|done].
    - simpl. unfold ret. by destruct H2 as [-> _].
  Qed.
  (** [last] asks the iterator once more after it is exhausted when the
      pipeline is empty; [fused] says the source tolerates that. *)
  Theorem C46_last_partial fuel xs cs s s2 w :
    length xs < fuel -> yields s xs s2 -> length cs = length sts ->
    (exists y cs' xs' w', first_out sts cs xs w = (Some y, cs', xs', w')) ->
    t_last fuel (nx fuel) (Ist cs s w) =
      match feed sts (fun _ x w => (Some x, w)) cs xs None w with (r, cs', w') => Ok (r, Ist cs' s2 w') end.
  Proof.
    intros Hf Hy Hl (y & cs' & xs' & w' & E). pose proof (next_steady fuel xs cs s s2 w Hf Hy Hl) as H.
    rewrite E in H. destruct H as (s1 & E2 & Hl2 & H2).
    rewrite feed_first, E. unfold t_last, bind at 1. rewrite E2.
    apply first_out_shorter in E. apply last_loop_steady; [lia|lia|done|done].
  Qed.

  (** When nothing comes through, [last] has asked the exhausted source a
      second time; a source that says none again gives none. *)
  Theorem C46_last_empty_partial fuel xs cs s s2 s3 w :
    length xs < fuel -> yields s xs s2 -> length cs = length sts ->
    (first_out sts cs xs w).1.1.1 = None -> snext s2 = (None, s3) ->
    t_last fuel (nx fuel) (Ist cs s w) =
      match feed sts (fun _ x w => (Some x, w)) cs xs None w with
      | (r, cs', w') => Ok (r, Ist cs' s3 (pull None w'))
      end /\
    (feed sts (fun _ x w => (Some x, w)) cs xs None w).1.1 = None.
  Proof.
    intros Hf Hy Hl E0 E3. pose proof (next_steady fuel xs cs s s2 w Hf Hy Hl) as H.
    rewrite feed_first.
    destruct (first_out sts cs xs w) as [[[o cs'] xs'] w'] eqn:E. simpl in E0. subst o.
    destruct H as (s1 & E2 & Hl2 & -> & ->). split; [|done].
    unfold t_last, bind at 1. rewrite E2. unfold bind at 1.
    pose proof (next_steady fuel [] cs' s2 s3 w' ltac:(simpl; lia) (Y_nil _ _ E3) Hl2) as H. simpl in H.
    destruct H as (s1 & E4 & _ & -> & _). rewrite E4. destruct fuel; [lia|]. done.
  Qed.

  (** [find]: stops at the first match and leaves the rest in the source. *)
  Theorem C46_find_partial p c fuel xs cs s s2 w :
    steady (SFilter p) -> length xs < fuel -> yields s xs s2 -> length cs = length sts ->
    match first_out (SFilter p :: sts) (c :: cs) xs w with
    | (o, cs', xs', w') =>
        exists s1, t_find fuel (nx fuel) p c (Ist cs s w) = Ok (o, Ist (tail cs') s1 w') /\
          match o with Some _ => yields s1 xs' s2 | None => s1 = s2 /\ xs' = [] end
    end.
  Proof.
    intros Hp Hf Hy Hl.
    pose proof (find_loop_is _ sts p c (length xs) (p_next_is sts (length xs) fuel Hf) fuel xs ltac:(lia) Hf
      c cs [] s s2 w Hy Hl) as H.
    destruct (xfirst_steady (SFilter p :: sts) ltac:(by constructor) xs (c :: cs) w ltac:(simpl; lia)) as [E Hlen].
    rewrite start_cons in E. rewrite E in H.
    destruct (first_out (SFilter p :: sts) (c :: cs) xs w) as [[[o cs'] xs'] w'].
    destruct H as (s1 & E2 & H2). exists s1. split; [|done].
    rewrite !app_nil_r in E2. unfold t_find. rewrite E2. do 3 f_equal. destruct cs' as [|c1 cs']; [done|]. simpl. by rewrite fst_start.
  Qed.

End Props.

(** For arbitrary closures, stateful predicates included: one call of
    [next()] does exactly [xfirst], in which a filter's predicate starts from
    its original captured state at every [next()] of that filter. *)
Theorem C46_next_exact {V C Wd Src} (snext : Src -> option V * Src) (pull : option V -> Wd -> Wd)
    (sts : list (stage V C Wd)) fuel xs cs s s2 w :
  length xs < fuel -> yields snext s xs s2 -> length cs = length sts ->
  match xfirst pull sts (start cs) xs w with
  | (o, cs', xs', w') =>
      exists s1 cs1, cs' = start cs1 /\ length cs1 = length sts /\
        p_next snext pull fuel sts (Ist cs s w) = Ok (o, Ist cs1 s1 w') /\
        match o with Some _ => yields snext s1 xs' s2 | None => s1 = s2 /\ xs' = [] end
  end.
Proof.
  intros Hf Hy Hl.
  pose proof (p_next_is snext pull sts (length xs) fuel Hf xs cs [] s s2 w ltac:(lia) Hy Hl) as H.
  destruct (xfirst pull sts (start cs) xs w) as [[[o cs'] xs'] w'] eqn:E.
  apply xfirst_clean in E as [Hc Hl1]; [|unfold start; by rewrite fmap_length].
  destruct (clean_start _ Hc) as [c1 ->]. destruct H as (s1 & E2 & H2).
  rewrite !app_nil_r, fst_start in E2. unfold start in Hl1. rewrite fmap_length in Hl1. eauto 6.
Qed.

(** *** C47: exhausted stays exhausted

    [dead] is any set of source states in which [next()] returns none and
    stays in the set.  No condition on the predicates: no closure is called at
    all ([cs] and the rest of the client world stay as they are). *)
Theorem C47_exhausted_all {V C Wd Src} (snext : Src -> option V * Src) (pull : option V -> Wd -> Wd)
    (dead : Src -> Prop) (sts : list (stage V C Wd)) :
  (forall s, dead s -> exists s', snext s = (None, s') /\ dead s') ->
  forall fuel n cs s w, 0 < fuel -> dead s -> length cs = length sts ->
  exists s', run_ops (fun _ : unit => p_next snext pull fuel sts) (replicate n tt) (Ist cs s w) =
               Ok (replicate n None, Ist cs s' (Nat.iter n (pull None) w)) /\ dead s'.
Proof.
  intros Hdead fuel n cs s w Hf. revert cs s w.
  assert (forall cs s w, dead s -> length cs = length sts ->
    exists s', p_next snext pull fuel sts (Ist cs s w) = Ok (None, Ist cs s' (pull None w)) /\ dead s') as Hone.
  { intros cs s w Hd Hl. destruct (Hdead s Hd) as (s' & E & Hd').
    pose proof (p_next_is snext pull sts 0 fuel Hf [] cs [] s s' w ltac:(simpl; lia) (Y_nil _ _ _ E) Hl) as H.
    simpl in H. destruct H as (s1 & E2 & -> & _). exists s'. split; [|done].
    rewrite !app_nil_r in E2. rewrite E2. by rewrite start_drop, fst_start. }
  induction n as [|n IH]; intros cs s w Hd Hl; simpl.
  { by exists s. }
  destruct (Hone cs s w Hd Hl) as (s1 & E1 & Hd1).
  destruct (IH cs s1 (pull None w) Hd1 Hl) as (s2 & E2 & Hd2). exists s2. split; [|done].
  unfold bind, ret. rewrite E1, E2. by rewrite <-iter_S_r.
Qed.

(** *** The list functions of C46, for closures without state or effects *)
Section Pure.
  Context {V Src : Type} (snext : Src -> option V * Src).
  Inductive padapt := PMap (g : V -> V) | PFilter (q : V -> bool).
  (** Outermost first; [map]/[filter] are those of the standard library. *)
  Fixpoint denote (ps : list padapt) (xs : list V) : list V :=
    match ps with
    | [] => xs
    | PMap g :: r => List.map g (denote r xs)
    | PFilter q :: r => List.filter q (denote r xs)
    end.
  (** The client world counts the requests made to the source. *)
  Definition interp (a : padapt) : stage V unit nat :=
    match a with
    | PMap g => SMap (fun c x w => (g x, c, w))
    | PFilter q => SFilter (fun c x w => (q x, x, c, w))
    end.
  Definition count_pull (_ : option V) (w : nat) : nat := S w.
  Definition pipe (ps : list padapt) (fuel : nat) := p_next snext count_pull fuel (interp <$> ps).

  Lemma interp_steady ps : Forall steady (interp <$> ps).
  Proof. apply Forall_fmap, Forall_true. intros [g|q]; simpl; [done|]. by intros ??????? [= _ _ -> _]. Qed.

  Lemma pass_pure ps : forall cs x w, length cs = length ps ->
    exists o, pass (interp <$> ps) cs x w = (o, cs, w) /\
      forall xs, denote ps (x :: xs) = match o with Some y => y :: denote ps xs | None => denote ps xs end.
  Proof.
    induction ps as [|[g|q] r IH]; intros [|c cs] x w Hl; try done; csimpl.
    - by exists (Some x).
    - injection Hl as Hl. destruct (IH cs x w Hl) as (o & -> & Hd). destruct o as [y|].
      + exists (Some (g y)). split; [done|]. intros xs. by rewrite Hd.
      + exists None. split; [done|]. intros xs. by rewrite Hd.
    - injection Hl as Hl. destruct (IH cs x w Hl) as (o & -> & Hd). destruct o as [y|].
      + exists (if q y then Some y else None). split; [done|]. intros xs. rewrite Hd. simpl. by destruct (q y).
      + exists None. split; [done|]. intros xs. by rewrite Hd.
  Qed.
  Lemma feed_pure {A} ps (k : A -> V -> A) : forall xs cs a w, length cs = length ps ->
    feed count_pull (interp <$> ps) (fun a x w => (k a x, w)) cs xs a w =
      (fold_left k (denote ps xs) a, cs, w + S (length xs)).
  Proof.
    induction xs as [|x xs IH]; intros cs a w Hl; simpl.
    { assert (denote ps [] = []) as -> by (clear; induction ps as [|[g|q] r IH]; simpl; by rewrite ?IH).
      simpl. by rewrite Nat.add_1_r. }
    unfold count_pull at 1. destruct (pass_pure ps cs x (S w) Hl) as (o & -> & Hd). rewrite Hd.
    destruct o as [y|]; rewrite IH by done; simpl; f_equal; lia.
  Qed.

  Context (ps : list padapt) (fuel : nat) (xs : list V) (s s2 : Src).
  Context (Hf : length xs < fuel) (Hy : yields snext s xs s2).
  Notation st0 := (Ist (replicate (length ps) tt) s 0).
  Notation st1 w := (Ist (replicate (length ps) tt) s2 w).

  (** Every element is pulled once, plus the final none. *)
  Theorem C46_pure_fold {A} (k : A -> V -> A) a :
    t_fold (fun a x w => (k a x, w)) fuel (pipe ps fuel) a st0 =
      Ok (fold_left k (denote ps xs) a, st1 (S (length xs))).
  Proof.
    unfold pipe.
    rewrite (C46_fold_partial snext count_pull _ (interp_steady ps) _ fuel xs _ s s2)
      by (done || by rewrite replicate_length, fmap_length).
    by rewrite feed_pure by apply replicate_length.
  Qed.
  Theorem C46_pure_collect :
    t_collect fuel (pipe ps fuel) st0 = Ok (denote ps xs, st1 (S (length xs))).
  Proof.
    unfold t_collect. rewrite C46_pure_fold. do 2 f_equal.
    enough (forall l, fold_left (fun l x => l ++ [x]) (denote ps xs) l = l ++ denote ps xs) as H by apply H.
    induction (denote ps xs) as [|y ys IH]; intros l; simpl; [by rewrite app_nil_r|].
    by rewrite IH, <-app_assoc.
  Qed.
  Theorem C46_pure_reduce (k : V -> V -> V) :
    t_reduce fuel (pipe ps fuel) (fun a x w => ((k a.1 x, a.2), w)) tt st0 =
      Ok (match denote ps xs with [] => None | y :: ys => Some (fold_left k ys y) end, st1 (S (length xs))).
  Proof.
    unfold pipe.
    rewrite (C46_reduce_partial snext count_pull _ (interp_steady ps) _ fuel xs _ s s2)
      by (done || by rewrite replicate_length, fmap_length).
    set (k' := fun (a : option V * unit) x => (Some (match a.1 with Some y => k y x | None => x end), a.2)).
    assert (forall l cs a w,
      feed count_pull (interp <$> ps) (reduce_k (fun a x w => ((k a.1 x, a.2), w))) cs l a w =
      feed count_pull (interp <$> ps) (fun a x w => (k' a x, w)) cs l a w) as ->.
    { intros l. induction l as [|x l IH]; intros cs a w; simpl; [done|].
      destruct (pass _ _ _ _) as [[[y|] cs'] w']; [|apply IH]. rewrite <-IH.
      destruct a as [[z|] []]; done. }
    rewrite feed_pure by apply replicate_length.
    assert (forall l a, fold_left k' l a =
      (match a.1, l with
       | None, [] => None | None, y :: ys => Some (fold_left k ys y)
       | Some y, _ => Some (fold_left k l y) end, a.2)) as H.
    { clear. induction l as [|y ys IH]; intros [[z|] c]; simpl; try done; rewrite IH; done. }
    rewrite H. simpl. by destruct (denote ps xs).
  Qed.
  Lemma first_out_cons (sts : list (stage V unit nat)) cs x l w :
    first_out count_pull sts cs (x :: l) w =
      match pass sts cs x (S w) with
      | (Some y, cs', w') => (Some y, cs', l, w')
      | (None, cs', w') => first_out count_pull sts cs' l w'
      end.
  Proof. done. Qed.
  Lemma denote_nil qs : denote qs [] = [].
  Proof. induction qs as [|[g|q] r IH]; simpl; by rewrite ?IH. Qed.
  Lemma first_pure : forall l cs w, length cs = length ps ->
    (first_out count_pull (interp <$> ps) cs l w).1.1.1 = head (denote ps l).
  Proof.
    induction l as [|x l IH]; intros cs w Hl; simpl.
    { by rewrite denote_nil. }
    unfold count_pull at 1. destruct (pass_pure ps cs x (S w) Hl) as (o & -> & Hd). rewrite Hd.
    destruct o as [y|]; [done|]. by apply IH.
  Qed.
  Lemma fold_last (l : list V) o :
    fold_left (fun _ x => Some x) l o = match last l with Some y => Some y | None => o end.
  Proof.
    revert o. induction l as [|y l IH]; intros o; [done|]. simpl fold_left. rewrite IH.
    destruct l as [|z l]; [done|]. rewrite !last_cons_cons.
    destruct (last (z :: l)) eqn:E; [done|]. by apply last_None in E.
  Qed.
  (** [last] asks an exhausted source once more if there was nothing. *)
  Theorem C46_pure_last s3 : snext s2 = (None, s3) ->
    t_last fuel (pipe ps fuel) st0 =
      Ok (last (denote ps xs),
          match denote ps xs with
          | [] => Ist (replicate (length ps) tt) s3 (S (S (length xs)))
          | _ => st1 (S (length xs))
          end).
  Proof.
    intros E3. unfold pipe.
    pose proof (first_pure xs (replicate (length ps) tt) 0 (replicate_length _ _)) as Hfst.
    destruct (denote ps xs) as [|y ys] eqn:Ed.
    - edestruct (C46_last_empty_partial snext count_pull _ (interp_steady ps) fuel xs) as [-> _];
        [done|done|by rewrite replicate_length, fmap_length|done|done|].
      rewrite (feed_pure ps (fun _ x => Some x)) by apply replicate_length. by rewrite Ed.
    - rewrite (C46_last_partial snext count_pull _ (interp_steady ps) fuel xs _ s s2).
      + rewrite (feed_pure ps (fun _ x => Some x)) by apply replicate_length. rewrite Ed, fold_last.
        destruct (last (y :: ys)) eqn:E; [done|]. by apply last_None in E.
      + done.
      + done.
      + by rewrite replicate_length, fmap_length.
      + destruct (first_out _ _ _ _ _) as [[[o cs'] xs'] w'] eqn:E. rewrite ?E in Hfst. simpl in Hfst.
        rewrite Hfst. eauto 6.
  Qed.
  (** [find] gives the first match; what is left in the source is what follows
      the element that gave it. *)
  Theorem C46_pure_find (q : V -> bool) :
    exists xs1 xs2 s1,
      t_find fuel (pipe ps fuel) (fun c x w => (q x, x, c, w)) tt st0 =
        Ok (List.find q (denote ps xs), Ist (replicate (length ps) tt) s1
              (match List.find q (denote ps xs) with Some _ => length xs1 | None => S (length xs) end)) /\
      match List.find q (denote ps xs) with
      | Some y => xs = xs1 ++ xs2 /\ yields snext s1 xs2 s2 /\
                  List.filter q (denote ps xs1) = [y]
      | None => s1 = s2
      end.
  Proof.
    set (ps' := PFilter q :: ps).
    pose proof (C46_find_partial snext count_pull _ (interp_steady ps) (fun c x w => (q x, x, c, w)) tt
      fuel xs (replicate (length ps) tt) s s2 0) as H.
    change (SFilter _ :: (interp <$> ps)) with (interp <$> ps') in H.
    change (tt :: replicate (length ps) tt) with (replicate (length ps') tt) in H.
    specialize (H ltac:(by intros ??????? [= _ _ -> _]) Hf Hy ltac:(by rewrite replicate_length, fmap_length)).
    assert (forall l cs w, length cs = length ps' ->
      exists l1 l2,
        first_out count_pull (interp <$> ps') cs l w =
          (List.find q (denote ps l), cs,
           match List.find q (denote ps l) with Some _ => l2 | None => [] end,
           w + match List.find q (denote ps l) with Some _ => length l1 | None => S (length l) end) /\
        match List.find q (denote ps l) with
        | Some y => l = l1 ++ l2 /\ List.filter q (denote ps l1) = [y]
        | None => True
        end) as Hfirst.
    { induction l as [|x l IH]; intros cs w Hl.
      { exists [], []. rewrite denote_nil.
        simpl. split; [|done]. unfold count_pull. by rewrite Nat.add_1_r. }
      rewrite first_out_cons. destruct (pass_pure ps' cs x (S w) Hl) as (o & -> & Hd).
      destruct cs as [|c cs]; [done|]. injection Hl as Hl.
      destruct (pass_pure ps cs x (S w) Hl) as (o1 & _ & Hd1).
      assert (o = match o1 with Some y => if q y then Some y else None | None => None end) as Ho.
      { specialize (Hd []). simpl in Hd. specialize (Hd1 []). rewrite Hd1 in Hd.
        rewrite denote_nil in Hd. destruct o1 as [y|]; simpl in Hd; [destruct (q y)|]; destruct o; simpl in Hd; congruence. }
      rewrite Hd1. destruct o1 as [y|].
      - cbn [List.find]. destruct (q y) eqn:Eq; subst o.
        + exists [x], l. split; [simpl; f_equal; lia|]. split; [done|].
          rewrite Hd1. rewrite denote_nil.
          simpl. by rewrite Eq.
        + destruct (IH (c :: cs) (S w) ltac:(simpl; lia)) as (l1 & l2 & -> & H2).
          exists (x :: l1), l2. destruct (List.find q (denote ps l)) eqn:Ef.
          * destruct H2 as [-> H2]. split; [simpl; f_equal; lia|]. split; [done|].
            rewrite Hd1. simpl. by rewrite Eq.
          * split; [simpl; f_equal; lia|done].
      - subst o. destruct (IH (c :: cs) (S w) ltac:(simpl; lia)) as (l1 & l2 & -> & H2).
        exists (x :: l1), l2. destruct (List.find q (denote ps l)) eqn:Ef.
        + destruct H2 as [-> H2]. split; [simpl; f_equal; lia|]. split; [done|]. by rewrite Hd1.
        + split; [simpl; f_equal; lia|done]. }
    destruct (Hfirst xs (replicate (length ps') tt) 0 (replicate_length _ _)) as (l1 & l2 & E & H2).
    rewrite E in H. destruct H as (s1 & E1 & H1). exists l1, l2, s1. split; [exact E1|].
    destruct (List.find q (denote ps xs)).
    - destruct H2. done.
    - by destruct H1.
  Qed.
End Pure.

(** *** A library source: the slice iterator, used by Vector, Array and Slice *)
Section Slice.
  Context {A : Type} (mem : list A).
  Definition slice_src (it : siter) : option A * siter :=
    match s_next mem it with Ok r => r | Err _ => (None, it) end.
  Lemma slice_yields p n : (p + n <= N.of_nat (length mem))%N ->
    yields slice_src (siter_new p n) (take (N.to_nat n) (drop (N.to_nat p) mem)) (SIter (p + n) (p + n)).
  Proof.
    intros Hpn. unfold siter_new.
    remember (N.to_nat n) as k eqn:Ek. revert p n Hpn Ek. induction k as [|k IH]; intros p n Hpn Ek.
    { simpl. constructor. assert (n = 0%N) as -> by lia. unfold slice_src, s_next, bind, get_st. simpl.
      by rewrite N.add_0_r, N.leb_refl. }
    destruct (lookup_lt_is_Some_2 mem (N.to_nat p) ltac:(lia)) as [x Hx].
    rewrite (drop_S _ _ _ Hx). simpl. apply (Y_cons _ _ (SIter (p + 1) (p + n)) _ x).
    - unfold slice_src, s_next, bind, get_st. simpl.
      destruct (N.leb_spec (p + n) p); [lia|]. unfold put_st, deref, ret, nlookup. simpl.
      destruct (N.ltb_spec p (N.of_nat (length mem))); [|lia]. by rewrite Hx.
    - replace (p + n)%N with ((p + 1) + (n - 1))%N by lia.
      replace (S (N.to_nat p)) with (N.to_nat (p + 1)) by lia. apply IH; lia.
  Qed.
  Lemma slice_dead p : slice_src (SIter p p) = (None, SIter p p).
  Proof. unfold slice_src, s_next, bind, get_st. simpl. by rewrite N.leb_refl. Qed.
End Slice.

(** So [v.iter() | map | filter | ... | collect] over a slice of [mem] is the
    list function, and afterwards the pipeline stays exhausted. *)
Theorem C46_over_slice {A} (mem : list A) (ps : list padapt) p n :
  (p + n <= N.of_nat (length mem))%N ->
  let xs := take (N.to_nat n) (drop (N.to_nat p) mem) in
  let fuel := S (length xs) in
  let st := Ist (replicate (length ps) tt) in
  t_collect fuel (pipe (slice_src mem) ps fuel) (st (siter_new p n) 0) =
    Ok (denote ps xs, st (SIter (p + n) (p + n)) (S (length xs))) /\
  forall m w, exists s', run_ops (fun _ : unit => pipe (slice_src mem) ps fuel) (replicate m tt)
      (st (SIter (p + n) (p + n)) w) =
    Ok (replicate m None, st s' (Nat.iter m S w)).
Proof.
  intros Hpn xs fuel st. split.
  - apply C46_pure_collect; [unfold fuel; lia|]. by apply slice_yields.
  - intros m w. destruct (C47_exhausted_all (slice_src mem) count_pull (fun s => s = SIter (p + n) (p + n))
      (interp <$> ps)) with (fuel := fuel) (n := m) (cs := replicate (length ps) tt)
      (s := SIter (p + n) (p + n)) (w := w) as (s' & E & _).
    + intros ? ->. eexists. split; [apply slice_dead|done].
    + unfold fuel. lia.
    + done.
    + by rewrite replicate_length, fmap_length.
    + exists s'. exact E.
Qed.

(** *** The full claim of C46 is false for predicates with state *)
Definition C46_full : Prop :=
  forall (sts : list (stage nat nat nat)) (xs : list nat) cs w,
    length cs = length sts ->
    let src l := match l with [] => (None, []) | x :: r => (Some x, r) end in
    exists st, t_collect (S (length xs)) (p_next src (fun _ w => w) (S (length xs)) sts) (Ist cs xs w) =
      Ok ((feed (fun _ w => w) sts (fun l x w => (l ++ [x], w)) cs xs [] w).1.1, st).
(** A predicate that counts its calls, to keep every second element. *)
Definition every_second : stage nat nat nat := SFilter (fun c x w => (Nat.even c, x, S c, w)).
Theorem C46_refuted : ~ C46_full.
Proof.
  intros H. specialize (H [every_second] [10;20;30;40] [0] 0 eq_refl). destruct H as [st H].
  vm_compute in H. congruence.
Qed.

(** A non-trivial pipeline meeting the hypotheses: a mapping closure that
    numbers the elements, logging filters, stopping early. *)
Definition ex_src (l : list nat) : option nat * list nat :=
  match l with [] => (None, []) | x :: r => (Some x, r) end.
Definition ex_log (o : option nat) (w : list nat) : list nat :=
  w ++ [match o with Some x => x | None => 99 end].
Definition ex_stages : list (stage nat nat (list nat)) :=
  [ SFilter (fun c x w => (Nat.even x, x, c, w ++ [100 + x]));
    SMap (fun c x w => (x + c, S c, w ++ [200 + x])) ].
Lemma ex_yields l : yields ex_src l l [].
Proof. induction l; econstructor; done. Qed.
Example C46_ex :
  Forall steady ex_stages /\ yields ex_src [1;2;4;5] [1;2;4;5] [] /\
  t_collect 5 (p_next ex_src ex_log 5 ex_stages) (Ist [0;1] [1;2;4;5] []) =
    Ok ([2;4], Ist [0;5] [] [1;201;102; 2;202;104; 4;204;107; 5;205;109; 99]).
Proof.
  split; [|split; [apply ex_yields|done]].
  constructor; [by intros ??????? [= _ _ -> _]|]. by constructor.
Qed.
Example C46_ex_find :
  t_find 5 (p_next ex_src ex_log 5 ex_stages) (fun c x w => (2 <? x, x, c, w)) 0 (Ist [0;1] [1;2;4;5] []) =
    Ok (Some 4, Ist [0;3] [4;5] [1;201;102; 2;202;104]).
Proof. done. Qed.
Example C46_ex_pure :
  let ps := [PFilter Nat.even; PMap (fun x => x + 3); PFilter (fun x => x <? 9)] in
  denote ps [1;2;10;5;3] = [4;8;6] /\
  t_last 6 (pipe ex_src ps 6) (Ist [tt;tt;tt] [1;2;10;5;3] 0) = Ok (Some 6, Ist [tt;tt;tt] [] 6).
Proof. done. Qed.
Example C47_ex :
  run_ops (fun _ : unit => p_next ex_src ex_log 1 [SFilter (fun c x w => (Nat.even c, x, S c, w))]) [tt;tt] (Ist [7] [] []) =
    Ok ([None;None], Ist [7] [] [99;99]).
Proof. done. Qed.

Print Assumptions C46_next_exact.
Print Assumptions C46_fold_partial.
Print Assumptions C46_collect_partial.
Print Assumptions C46_reduce_partial.
Print Assumptions C46_last_partial.
Print Assumptions C46_last_empty_partial.
Print Assumptions C46_find_partial.
Print Assumptions C46_pure_fold.
Print Assumptions C46_pure_collect.
Print Assumptions C46_pure_reduce.
Print Assumptions C46_pure_last.
Print Assumptions C46_pure_find.
Print Assumptions C46_over_slice.
Print Assumptions C46_refuted.
Print Assumptions C47_exhausted_all.
