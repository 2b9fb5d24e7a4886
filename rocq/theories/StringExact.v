(** * StringExact: the operations left out by C43 and C44 always go wrong

    StringProps proves the histories without the operations marked unsafe, and
    for each of these gives one failing program.  Here every operation marked
    unsafe is shown to go wrong in every state a history can reach. *)
From Verif Require Import Base World Machine Utf8Model Utf8Spec Utf8Props StringModel StringProofs StringProps.
Local Open Scope N_scope.

(** ** Freed blocks stay freed *)
Section Keeps.
  Notation H := (heap sblk).
  Notation HM := (M H).
  Definition keeps (h h' : H) : Prop :=
    hnext h <= hnext h' /\ forall a, a < hnext h -> hmap h !! a = None -> hmap h' !! a = None.
  Definition kp {X} (m : HM X) : Prop := forall h x h', m h = Ok (x, h') -> keeps h h'.
  Lemma keeps_refl h : keeps h h.
  Proof. split; [lia|done]. Qed.
  Lemma keeps_trans h1 h2 h3 : keeps h1 h2 -> keeps h2 h3 -> keeps h1 h3.
  Proof. intros [A B] [C D]. split; [lia|]. intros a Ha Hn. apply D; [lia|]. by apply B. Qed.
  Lemma kp_ret {X} (x : X) : kp (ret x).
  Proof. intros h y h' [= <- <-]. apply keeps_refl. Qed.
  Lemma kp_fail {X} e : kp (fail (A := X) e).
  Proof. by intros h y h' [=]. Qed.
  Lemma kp_bind {X Y} (m : HM X) (f : X -> HM Y) : kp m -> (forall x, kp (f x)) -> kp (bind m f).
  Proof.
    intros Hm Hf h y h'. unfold bind. destruct (m h) as [[x h1]|] eqn:E; [|done]. intros E2.
    apply Hm in E. apply Hf in E2. by eapply keeps_trans.
  Qed.
  Lemma kp_read a : kp (hread a).
  Proof. intros h c h'. unfold hread. destruct (hmap h !! a); [|done]. intros [= <- <-]. apply keeps_refl. Qed.
  Lemma kp_write a c : kp (hwrite a c).
  Proof.
    intros h c' h'. unfold hwrite. destruct (hmap h !! a) eqn:E; [|done]. intros [= <- <-]. split; [simpl; lia|].
    intros b Hb Hn. simpl. rewrite lookup_insert_ne; [done|]. by intros ->; rewrite E in Hn.
  Qed.
  Lemma kp_free a : kp (hfree a).
  Proof.
    intros h c' h'. unfold hfree. destruct (hmap h !! a) eqn:E; [|done]. intros [= <- <-]. split; [simpl; lia|].
    intros b Hb Hn. simpl. by apply lookup_delete_None; right.
  Qed.
  Lemma kp_alloc c : kp (halloc c).
  Proof.
    intros h c' h'. unfold halloc. intros [= <- <-]. split; [simpl; lia|].
    intros b Hb Hn. simpl. rewrite lookup_insert_ne; [done|]. lia.
  Qed.
  Lemma kp_or_ub {X} (o : option X) : kp (or_ub o).
  Proof. destruct o; [apply kp_ret|apply kp_fail]. Qed.
  Local Hint Resolve kp_ret kp_fail kp_read kp_write kp_free kp_alloc kp_or_ub : kp.
  Ltac kps := repeat (intros; first [solve [auto 2 with kp nocore] | apply kp_bind | case_match]).
  Lemma kp_read_loc s p off n : kp (read_loc s p off n). Proof. unfold read_loc. kps. Qed.
  Lemma kp_write_loc s p off bs : kp (write_loc s p off bs). Proof. unfold write_loc. kps. Qed.
  Lemma kp_get_cap s : kp (get_cap s). Proof. unfold get_cap. kps. Qed.
  Lemma kp_s_alloc n : kp (s_alloc n). Proof. unfold s_alloc. rewrite hnew_endless. kps. Qed.
  Lemma kp_s_free p c : kp (s_free p c). Proof. unfold s_free. kps. Qed.
  Lemma kp_alloc_assign strict : kp (alloc_assign strict). Proof. unfold alloc_assign. kps. Qed.
  Local Hint Resolve kp_read_loc kp_write_loc kp_get_cap kp_s_alloc kp_s_free kp_alloc_assign : kp.
  Lemma kp_destroy s : kp (str_destroy s). Proof. unfold str_destroy. kps. Qed.
  Lemma kp_literal bs : kp (str_literal bs). Proof. unfold str_literal. kps. Qed.
  Lemma kp_copy o : kp (str_copy o). Proof. unfold str_copy. kps. Qed.
  Lemma kp_move strict o : kp (str_move strict o). Proof. unfold str_move. kps. Qed.
  Lemma kp_copy_assign strict t o : kp (str_copy_assign strict t o). Proof. unfold str_copy_assign. kps. Qed.
  Lemma kp_move_assign strict t o : kp (str_move_assign strict t o). Proof. unfold str_move_assign. kps. Qed.
  Lemma kp_try_alloc s n : kp (try_alloc s n). Proof. unfold try_alloc. kps. Qed.
  Lemma kp_free_src s i : kp (free_src s i). Proof. unfold free_src. kps. Qed.
  Local Hint Resolve kp_try_alloc kp_free_src : kp.
  Lemma kp_push s ch : kp (str_push s ch). Proof. unfold str_push. kps. Qed.
  Lemma kp_boundary s idx : kp (str_boundary s idx). Proof. unfold str_boundary. kps. Qed.
  Local Hint Resolve kp_boundary : kp.
  Lemma kp_insert s ch idx : kp (str_insert s ch idx). Proof. unfold str_insert. kps. Qed.
  Lemma kp_pop s : kp (str_pop s). Proof. unfold str_pop. kps. Qed.
  Lemma kp_print s : kp (str_print s). Proof. unfold str_print. kps. Qed.
  Lemma kp_bytes s : kp (str_bytes s). Proof. unfold str_bytes. kps. Qed.
End Keeps.

(** The only way to fail, but for [insert], is to be undefined. *)
Section Ubo.
  Notation HM := (M (heap sblk)).
  Definition ubo {X} (m : HM X) : Prop := forall h e, m h = Err e -> e = UB.
  Lemma ubo_ret {X} (x : X) : ubo (ret x). Proof. by intros h e [=]. Qed.
  Lemma ubo_fail {X} : ubo (fail (A := X) UB). Proof. by intros h e [= <-]. Qed.
  Lemma ubo_bind {X Y} (m : HM X) (f : X -> HM Y) : ubo m -> (forall x, ubo (f x)) -> ubo (bind m f).
  Proof.
    intros Hm Hf h e. unfold bind. destruct (m h) as [[x h1]|e'] eqn:E; [apply Hf|]. intros [= <-]. by eapply Hm.
  Qed.
  Lemma ubo_read a : ubo (hread a). Proof. intros h e. unfold hread. by destruct (hmap h !! a); intros [=]. Qed.
  Lemma ubo_write a c : ubo (hwrite a c). Proof. intros h e. unfold hwrite. by destruct (hmap h !! a); intros [=]. Qed.
  Lemma ubo_free a : ubo (hfree a). Proof. intros h e. unfold hfree. by destruct (hmap h !! a); intros [=]. Qed.
  Lemma ubo_alloc c : ubo (halloc c). Proof. by intros h e [=]. Qed.
  Lemma ubo_or_ub {X} (o : option X) : ubo (or_ub o). Proof. destruct o; [apply ubo_ret|apply ubo_fail]. Qed.
  Local Hint Resolve ubo_ret ubo_fail ubo_read ubo_write ubo_free ubo_alloc ubo_or_ub : ubo.
  Ltac ubos := repeat (intros; first [solve [auto 2 with ubo nocore] | apply ubo_bind | case_match]).
  Lemma ubo_read_loc s p off n : ubo (read_loc s p off n). Proof. unfold read_loc. ubos. Qed.
  Lemma ubo_write_loc s p off bs : ubo (write_loc s p off bs). Proof. unfold write_loc. ubos. Qed.
  Lemma ubo_get_cap s : ubo (get_cap s). Proof. unfold get_cap. ubos. Qed.
  Lemma ubo_s_alloc n : ubo (s_alloc n). Proof. unfold s_alloc. rewrite hnew_endless. ubos. Qed.
  Lemma ubo_s_free p c : ubo (s_free p c). Proof. unfold s_free. ubos. Qed.
  Lemma ubo_alloc_assign strict : ubo (alloc_assign strict). Proof. unfold alloc_assign. ubos. Qed.
  Local Hint Resolve ubo_read_loc ubo_write_loc ubo_get_cap ubo_s_alloc ubo_s_free ubo_alloc_assign : ubo.
  Lemma ubo_copy_assign strict t o : ubo (str_copy_assign strict t o). Proof. unfold str_copy_assign. ubos. Qed.
  Lemma ubo_move_assign strict t o : ubo (str_move_assign strict t o). Proof. unfold str_move_assign. ubos. Qed.
End Ubo.

(** ** The pointer of a short string is null or dangling *)
Definition pok (h : heap sblk) (s : str) : Prop :=
  s_len s <= 16 -> forall a, s_ptr s = Some a -> hmap h !! a = None /\ a < hnext h.
Definition stale (w : world sblk str) : Prop := forall i s, w_vars w !! i = Some s -> pok (w_heap w) s.

Lemma pok_keeps h h' s : keeps h h' -> pok h s -> pok h' s.
Proof. intros [A B] Hp Hl a Ha. destruct (Hp Hl a Ha). split; [by apply B|lia]. Qed.
Lemma stale_keeps w h' : keeps (w_heap w) h' -> stale w -> stale (World h' (w_vars w)).
Proof. intros Hk Hs i s Hi. eapply pok_keeps; [exact Hk|]. by eapply Hs. Qed.
Lemma stale_ins h vs i s : stale (World h vs) -> pok h s -> stale (World h (<[i := s]> vs)).
Proof.
  intros Hs Hp k t. cbn [w_vars w_heap]. destruct (decide (i = k)) as [->|Hne].
  - rewrite lookup_insert. by intros [= <-].
  - rewrite lookup_insert_ne by done. apply Hs.
Qed.
Lemma stale_del h vs i : stale (World h vs) -> stale (World h (delete i vs)).
Proof. intros Hs k t. cbn [w_vars w_heap]. rewrite lookup_delete_Some. intros [_ ?]. by eapply Hs. Qed.

Lemma write_loc_same s p off bs h s' h' : write_loc s p off bs h = Ok (s', h') -> s_len s' = s_len s /\ s_ptr s' = s_ptr s.
Proof.
  unfold write_loc, or_ub, bind, ret, fail. destruct p as [|[a|]]; [..|done]; repeat case_match; try done;
    intros [= <- <-]; done.
Qed.
Lemma write_heap_same s p off bs h s' h' : write_loc s (LHeap p) off bs h = Ok (s', h') -> s' = s.
Proof. unfold write_loc, or_ub, bind, ret, fail. repeat case_match; try done; by intros [= <- <-]. Qed.
Lemma bind_inv {S X Y} (m : M S X) (k : X -> M S Y) s y s' : bind m k s = Ok (y, s') ->
  exists x s1, m s = Ok (x, s1) /\ k x s1 = Ok (y, s').
Proof. unfold bind. destruct (m s) as [[x s1]|]; [|done]. eauto. Qed.
Lemma pok_same h h' s s' : keeps h h' -> pok h s -> s_ptr s' = s_ptr s -> (s_len s' <= 16 -> s_len s <= 16) -> pok h' s'.
Proof. intros Hk Hp E Hl Hl' a Ha. rewrite E in Ha. by eapply (pok_keeps _ _ _ Hk Hp); [apply Hl|]. Qed.
Lemma pok_long h s : 16 < s_len s -> pok h s.
Proof. intros ??. lia. Qed.
Lemma pok_none h s : s_ptr s = None -> pok h s.
Proof. intros E _ a. by rewrite E. Qed.

Lemma pok_literal bs h s h' : str_literal bs h = Ok (s, h') -> pok h' s.
Proof.
  unfold str_literal, LOCAL. destruct (N.leb_spec (nlen bs) 16).
  - intros [_ E]%write_loc_same. by apply pok_none.
  - intros (p & h1 & _ & E)%bind_inv. apply write_loc_same in E as [E _]. apply pok_long. by rewrite E.
Qed.
Lemma pok_copy o h s h' : str_copy o h = Ok (s, h') -> pok h' s.
Proof.
  unfold str_copy, LOCAL. destruct (N.ltb_spec 16 (s_len o)).
  - intros (c & h1 & _ & (p & h2 & _ & (bs & h3 & _ & E)%bind_inv)%bind_inv)%bind_inv.
    apply write_loc_same in E as [E _]. apply pok_long. by rewrite E.
  - intros [= <- <-]. by apply pok_none.
Qed.
Lemma try_alloc_short s n h : s_len s <= 16 -> n <= 16 -> try_alloc s n h = Ok ((s, AInfo LLocal LLocal 0 false false), h).
Proof. intros H1 H2. unfold try_alloc, LOCAL. by destruct (N.ltb_spec 16 (s_len s)), (N.ltb_spec 16 n); try lia. Qed.
Lemma pok_push h s bs fp ch s' h' : srep h s bs fp -> fits (bs ++ ch) -> pok h s ->
  str_push s ch h = Ok (s', h') -> pok h' s'.
Proof.
  intros Hr Hf Hp E Hl. pose proof (kp_push _ _ _ _ _ E) as Hk. unfold fits in Hf. rewrite app_length in Hf.
  unfold str_push in E. rewrite (srep_len _ _ _ _ Hr), uadd_fits in E by (replace (nlen bs + nlen ch) with (N.of_nat (length bs + length ch)) by lia; exact Hf).
  assert (nlen bs + nlen ch <= 16) as Hn.
  { apply bind_inv in E as ([s1 i] & h1 & _ & E). apply bind_inv in E as (s2 & h2 & _ & E).
    apply bind_inv in E as (s3 & h3 & _ & E). injection E as <- _. exact Hl. }
  rewrite (bind_ok _ _ _ _ _ (try_alloc_short s _ h ltac:(rewrite (srep_len _ _ _ _ Hr); lia) Hn)) in E. cbn [ai_new ai_des] in E.
  apply bind_inv in E as (s2 & h2 & [= <- <-] & E). apply bind_inv in E as (s3 & h3 & E3 & [= <- <-]).
  apply write_loc_same in E3 as [_ E3]. cbn [s_ptr]. rewrite E3. eapply (pok_keeps h); [done..|]. rewrite (srep_len _ _ _ _ Hr). lia.
Qed.
Lemma pok_insert h s bs fp ch idx s' h' : srep h s bs fp -> fits (bs ++ ch) -> pok h s ->
  str_insert s ch idx h = Ok (s', h') -> pok h' s'.
Proof.
  intros Hr Hf Hp E Hl. pose proof (kp_insert _ _ _ _ _ _ E) as Hk. unfold fits in Hf. rewrite app_length in Hf.
  unfold str_insert in E. rewrite (srep_len _ _ _ _ Hr), uadd_fits in E by (replace (nlen bs + nlen ch) with (N.of_nat (length bs + length ch)) by lia; exact Hf).
  apply bind_inv in E as (b & h0 & Eb & E). destruct b; [|done]. cbn [negb] in E.
  assert (nlen bs + nlen ch <= 16) as Hn.
  { apply bind_inv in E as ([s1 i] & h1 & _ & E). apply bind_inv in E as (s2 & h2 & _ & E).
    injection E as <- _. exact Hl. }
  rewrite (bind_ok _ _ _ _ _ (try_alloc_short s _ h0 ltac:(rewrite (srep_len _ _ _ _ Hr); lia) Hn)) in E. cbn [ai_new ai_des ai_src] in E.
  apply bind_inv in E as (s2 & h2 & E2 & [= <- <-]). apply bind_inv in E2 as (b2 & h3 & _ & E2).
  apply bind_inv in E2 as (t1 & h4 & E3 & E2). apply write_loc_same in E2 as [_ E2], E3 as [_ E3].
  cbn [s_ptr]. rewrite E2, E3. eapply (pok_keeps h); [done..|]. rewrite (srep_len _ _ _ _ Hr). lia.
Qed.
Lemma s_free_dead p c h h' a : s_free p c h = Ok (tt, h') -> p = Some a -> hwf h -> hmap h' !! a = None /\ a < hnext h'.
Proof.
  intros E -> Hwf. unfold s_free in E. apply bind_inv in E as (b & h1 & E1 & E).
  unfold hread in E1. destruct (hmap h !! a) as [b'|] eqn:Ha; [|done]. injection E1 as -> ->.
  destruct (sb_cap b =? c); [|done]. unfold hfree in E. rewrite Ha in E. injection E as <-. simpl.
  split; [apply lookup_delete|]. apply Hwf. eauto.
Qed.
Lemma pok_copy_assign strict h t o xs bs fpt fpo t' h' : hwf h -> srep h t xs fpt -> srep h o bs fpo ->
  length xs <> 16%nat -> length bs <> 16%nat -> pok h t ->
  str_copy_assign strict t o h = Ok (t', h') -> pok h' t'.
Proof.
  intros Hwf Ht Ho Hx Hb Hp E. pose proof (kp_copy_assign _ _ _ _ _ _ E) as Hk.
  destruct (N.ltb_spec 16 (nlen bs)) as [Hl|Hl].
  - apply pok_long. unfold str_copy_assign, LOCAL in E. rewrite (srep_len _ _ _ _ Ht), (srep_len _ _ _ _ Ho) in E.
    destruct (N.ltb_spec (nlen bs) 16); [lia|]. destruct (N.ltb_spec 16 (nlen bs)); [|lia].
    rewrite !andb_false_r, !andb_true_r in E. destruct (nlen xs <? 16).
    + apply bind_inv in E as (? & ? & _ & (c & h1 & _ & (p & h2 & _ & (b & h3 & _ & E)%bind_inv)%bind_inv)%bind_inv).
      apply write_loc_same in E as [E _]. by rewrite E.
    + apply bind_inv in E as (c & h1 & _ & E). apply bind_inv in E as (t1 & h2 & Et & E).
      apply bind_inv in E as (b & h3 & _ & E). apply write_loc_same in E as [E _]. rewrite E.
      destruct (c <? nlen bs).
      * apply bind_inv in Et as (? & ? & _ & (? & ? & _ & (p & ? & _ & [= <- _])%bind_inv)%bind_inv). done.
      * by injection Et as <- _.
  - unfold str_copy_assign, LOCAL in E. rewrite (srep_len _ _ _ _ Ht), (srep_len _ _ _ _ Ho) in E.
    destruct (N.ltb_spec (nlen bs) 16); [|lia]. rewrite !andb_true_r in E.
    destruct (N.ltb_spec (nlen xs) 16) as [Hs|Hs].
    + apply bind_inv in E as (? & ? & _ & [= <- <-]). eapply pok_same; [done..|]. rewrite (srep_len _ _ _ _ Ht). lia.
    + destruct (N.ltb_spec 16 (nlen bs)); [lia|]. destruct (N.ltb_spec 16 (nlen xs)); [|lia]. cbn [andb] in E.
      apply bind_inv in E as (c & h1 & E1 & E). assert (h1 = h) as ->.
      { revert E1. unfold get_cap, ret, fail. case_match; [done|]. by intros [= _ <-]. }
      apply bind_inv in E as ([] & h2 & E2 & E). apply bind_inv in E as (? & h3 & E3 & [= <- <-]).
      assert (h3 = h2) as ->. { revert E3. unfold alloc_assign. destruct strict; [done|]. by intros [= _ <-]. }
      intros _ a. cbn [s_ptr]. intros Ha. by eapply s_free_dead.
Qed.
Lemma pok_move_assign strict h t o xs bs fpt fpo t' o' h' : hwf h -> srep h t xs fpt -> srep h o bs fpo ->
  length xs <> 16%nat -> length bs <> 16%nat -> pok h t -> pok h o ->
  str_move_assign strict t o h = Ok ((t', o'), h') -> pok h' t' /\ pok h' o'.
Proof.
  intros Hwf Ht Ho Hx Hb Hp Hpo E. pose proof (kp_move_assign _ _ _ _ _ _ E) as Hk.
  unfold str_move_assign, LOCAL in E. rewrite (srep_len _ _ _ _ Ht), (srep_len _ _ _ _ Ho) in E.
  assert (Hcap : forall s c h1 h2, get_cap s h1 = Ok (c, h2) -> h2 = h1).
  { intros s c h1 h2. unfold get_cap, ret, fail. destruct (s_store s); [by intros [=]|]. by intros [= _ <-]. }
  assert (Hall : forall h1 h2, alloc_assign strict h1 = Ok (tt, h2) -> h2 = h1).
  { intros h1 h2. unfold alloc_assign. destruct strict; [done|]. by intros [= <-]. }
  destruct (N.ltb_spec 16 (nlen bs)) as [Hl|Hl].
  - destruct (N.ltb_spec (nlen bs) 16); [lia|]. rewrite !andb_false_r, !andb_true_r in E.
    destruct (nlen xs <? 16).
    + apply bind_inv in E as (? & ? & _ & (c & h1 & _ & [= <- <- <-])%bind_inv).
      split; [by apply pok_long|by apply pok_none].
    + apply bind_inv in E as (c & h1 & _ & (? & ? & _ & (? & ? & _ & (c' & ? & _ & [= <- <- <-])%bind_inv)%bind_inv)%bind_inv).
      split; [by apply pok_long|by apply pok_none].
  - destruct (N.ltb_spec (nlen bs) 16); [|lia]. rewrite !andb_true_r in E.
    assert (pok h' (Str 0 (s_store o) (s_ptr o))) as Hpo'.
    { eapply (pok_same h h' o); [done..|]. rewrite (srep_len _ _ _ _ Ho). lia. }
    destruct (N.ltb_spec (nlen xs) 16) as [Hs|Hs].
    + apply bind_inv in E as (? & ? & _ & [= <- <- <-]). split; [|done].
      eapply (pok_same _ _ t _ Hk Hp); [done|]. rewrite (srep_len _ _ _ _ Ht). lia.
    + destruct (N.ltb_spec 16 (nlen xs)); [|lia]. cbn [andb] in E.
      apply bind_inv in E as (c & h1 & ->%Hcap & E).
      apply bind_inv in E as ([] & h2 & E2 & E). apply bind_inv in E as ([] & h3 & ->%Hall & [= <- <- <-]).
      split; [|done]. intros _ a. cbn [s_ptr]. intros Ha. by eapply s_free_dead.
Qed.

Lemma lift_inv {X} (m : M (heap sblk) X) (w : world sblk str) x w' : lift m w = Ok (x, w') ->
  exists h', m (w_heap w) = Ok (x, h') /\ w' = World h' (w_vars w).
Proof. unfold lift. destruct (m (w_heap w)) as [[y h']|]; [|done]. intros [= <- <-]. eauto. Qed.
Lemma wget_inv i (w : world sblk str) s w' : wget i w = Ok (s, w') -> w_vars w !! i = Some s /\ w' = w.
Proof. unfold wget. destruct (w_vars w !! i); [|done]. by intros [= <- <-]. Qed.
Lemma wnew_inv i (w : world sblk str) x w' : wnew i w = Ok (x, w') -> w' = w.
Proof. unfold wnew. destruct (w_vars w !! i); [done|]. by intros [= _ <-]. Qed.

Lemma ins_len (bs ch : list N) k : (length (bs ++ ch) <= length (take k bs ++ ch ++ drop k bs))%nat.
Proof. rewrite !app_length, take_length, drop_length. lia. Qed.

Section Reached.
  Context (strict : bool).
  Notation step := (str_step strict).
  Definition reached (sp : sstate) (w : world sblk str) : Prop :=
    exists ops outs, srun (gspec strict) ∅ ops = SOk sp outs /\ run_ops step ops winit = Ok (outs, w).

  Lemma stale_obs {X} i (f : str -> M (heap sblk) X) g w x w' : (forall s, kp (f s)) -> stale w ->
    s_obs i f g w = Ok (x, w') -> stale w'.
  Proof.
    intros Hk Hs (s & w1 & [_ ->]%wget_inv & E)%bind_inv. apply bind_inv in E as (y & w1 & E & [= _ <-]).
    apply lift_inv in E as (h' & E & ->). apply stale_keeps; [by eapply Hk|done].
  Qed.
  Lemma stale_mk i f w x w' : kp f -> (forall h s h', f h = Ok (s, h') -> pok h' s) -> stale w ->
    s_mk i f w = Ok (x, w') -> stale w'.
  Proof.
    intros Hk Hp Hs (? & w1 & ->%wnew_inv & E)%bind_inv. apply bind_inv in E as (s & w1 & E & E2).
    apply lift_inv in E as (h' & E & ->). injection E2 as _ <-. apply stale_ins; [|by eapply Hp].
    apply stale_keeps; [by eapply Hk|done].
  Qed.
  Lemma stale_upd i f w x w' : (forall s, kp (f s)) ->
    (forall s s' h', w_vars w !! i = Some s -> f s (w_heap w) = Ok (s', h') -> pok h' s') -> stale w ->
    s_upd i f w = Ok (x, w') -> stale w'.
  Proof.
    intros Hk Hp Hs (s & w1 & [Hi ->]%wget_inv & E)%bind_inv. apply bind_inv in E as (s' & w1 & E & E2).
    apply lift_inv in E as (h' & E & ->). injection E2 as _ <-. apply stale_ins; [|by eapply Hp].
    apply stale_keeps; [by eapply Hk|done].
  Qed.

  Lemma stale_step sp w o sp' y x w' : rel sp w -> stale w -> gspec strict sp o = SOk sp' y ->
    step o w = Ok (x, w') -> stale w'.
  Proof.
    intros [m Hw] Hs. assert (Hwf : hwf (w_heap w)) by apply Hw.
    assert (Hrep : forall i s, w_vars w !! i = Some s -> exists bs fp, sp !! i = Some bs /\ srep (w_heap w) s bs fp).
    { intros i s Hi. destruct (world_ok_lookup _ _ _ _ _ _ Hw Hi) as (e & Hm & <- & Hsp).
      exists (e_s e), (e_fp e). split; [done|]. by eapply (wo_rep _ _ _ _ Hw). }
    unfold gspec. destruct (safe strict sp o) eqn:Hsafe; [|done].
    destruct o; simpl in Hsafe; cbn [sspec str_step]; intros Hg E.
    - eapply stale_mk; [..|exact E]; [apply kp_ret| |done]. intros h s h' [= <- <-]. by apply pok_none.
    - eapply stale_mk; [..|exact E]; [apply kp_literal| |done]. apply pok_literal.
    - apply bind_inv in E as (o & w1 & [_ ->]%wget_inv & E).
      eapply stale_mk; [..|exact E]; [apply kp_copy| |done]. apply pok_copy.
    - apply bind_inv in E as (? & w1 & ->%wnew_inv & E). apply bind_inv in E as (o & w1 & [Hj ->]%wget_inv & E).
      apply bind_inv in E as ([s o'] & w1 & E1 & E). apply lift_inv in E1 as (h' & E1 & ->).
      injection E as _ <-. pose proof (kp_move _ _ _ _ _ E1) as Hk.
      apply bind_inv in E1 as (? & h1 & _ & [= <- <- <-]).
      apply stale_ins; [apply stale_ins|]; [by apply stale_keeps|by apply pok_none|].
      eapply (pok_same _ _ o _ Hk); [by eapply Hs|done|done].
    - apply bind_inv in E as (t & w1 & [Hi ->]%wget_inv & E). apply bind_inv in E as (o & w1 & [Hj ->]%wget_inv & E).
      destruct (Nat.eqb_spec i j) as [->|Hij]; [by injection E as _ <-|].
      apply bind_inv in E as (t' & w1 & E1 & E). apply lift_inv in E1 as (h' & E1 & ->). injection E as _ <-.
      apply stale_ins; [apply stale_keeps; [by eapply kp_copy_assign|done]|].
      destruct (Hrep i t Hi) as (xs & fpt & Hxs & Rt), (Hrep j o Hj) as (bs & fpo & Hbs & Ro).
      simpl in Hsafe. unfold covers, is16 in Hsafe. rewrite Hxs, Hbs in Hsafe.
      assert (length xs <> 16%nat /\ length bs <> 16%nat) as [H1 H2].
      { apply orb_true_iff in Hsafe as [Hsafe|Hsafe]; apply andb_true_iff in Hsafe as [H1 H2].
        - apply andb_true_iff in H1 as [H0 H1]. apply negb_true_iff, Nat.eqb_neq in H1, H2. done.
        - apply Nat.ltb_lt in H1. apply Nat.leb_le in H2. lia. }
      eapply (pok_copy_assign strict (w_heap w) t o xs bs); eauto.
    - apply bind_inv in E as (t & w1 & [Hi ->]%wget_inv & E). apply bind_inv in E as (o & w1 & [Hj ->]%wget_inv & E).
      destruct (Nat.eqb_spec i j) as [->|Hij]; [by injection E as _ <-|].
      apply bind_inv in E as ([t' o'] & w1 & E1 & E). apply lift_inv in E1 as (h' & E1 & ->). injection E as _ <-.
      destruct (Hrep i t Hi) as (xs & fpt & Hxs & Rt), (Hrep j o Hj) as (bs & fpo & Hbs & Ro).
      simpl in Hsafe. unfold is16 in Hsafe. rewrite Hxs, Hbs in Hsafe. apply andb_true_iff in Hsafe as [H1 H2].
      apply andb_true_iff in H1 as [H0 H1]. apply negb_true_iff, Nat.eqb_neq in H1, H2.
      destruct (pok_move_assign strict (w_heap w) t o xs bs fpt fpo t' o' h') as [P1 P2]; eauto.
      apply stale_ins; [apply stale_ins; [|done]|done]. apply stale_keeps; [by eapply kp_move_assign|done].
    - unfold look in Hg. destruct (sp !! i) as [bs|] eqn:Ei; [|done]. unfold give in Hg. destruct (decide (fits (bs ++ ch))); [|done].
      eapply stale_upd; [..|exact E]; [intros; apply kp_push| |done]. intros s s' h' Hv Es.
      destruct (Hrep i s Hv) as (bs' & fp & Hb & R). rewrite Ei in Hb. injection Hb as <-. eapply pok_push; eauto.
    - unfold look in Hg. destruct (sp !! i) as [bs|] eqn:Ei; [|done]. destruct (cut_ok bs idx); [|done]. unfold give in Hg.
      destruct (decide (fits _)) as [Hf|]; [|done].
      eapply stale_upd; [..|exact E]; [intros; apply kp_insert| |done]. intros s s' h' Hv Es.
      destruct (Hrep i s Hv) as (bs' & fp & Hb & R). rewrite Ei in Hb. injection Hb as <-. eapply (pok_insert _ s bs fp ch idx s' h' R); [|by eapply Hs|exact Es].
      eapply fits_le; [exact Hf|]. apply ins_len.
    - apply bind_inv in E as (s & w1 & [Hi ->]%wget_inv & E).
      apply bind_inv in E as ([s' z] & w1 & E1 & E). apply lift_inv in E1 as (h' & E1 & ->). injection E as _ <-.
      pose proof (kp_pop _ _ _ _ E1) as Hk. apply stale_ins; [by apply stale_keeps|].
      destruct (Hrep i s Hi) as (bs & fp & Hbs & R). rewrite Hbs in Hsafe. apply negb_true_iff, Nat.eqb_neq in Hsafe.
      unfold str_pop in E1. rewrite (srep_len _ _ _ _ R) in E1. destruct (N.eqb_spec (nlen bs) 0) as [H0|H0].
      + injection E1 as <- _ <-. by eapply Hs.
      + apply bind_inv in E1 as (l & h1 & _ & E1). destruct l as [|b [|]]; [done| |done]. injection E1 as <- _ <-.
        eapply (pok_same _ _ s _ Hk); [by eapply Hs|done|]. cbn [s_len]. rewrite (srep_len _ _ _ _ R). lia.
    - eapply stale_obs; [..|exact E]; [intros; apply kp_ret|done].
    - eapply stale_obs; [..|exact E]; [intros; apply kp_print|done].
    - eapply stale_obs; [..|exact E]; [intros; apply kp_bytes|done].
    - eapply stale_obs; [..|exact E]; [intros; apply kp_boundary|done].
    - apply bind_inv in E as (s & w1 & [Hi ->]%wget_inv & E). apply bind_inv in E as (? & w1 & E1 & E).
      apply lift_inv in E1 as (h' & E1 & ->). injection E as _ <-. apply stale_del, stale_keeps; [by eapply kp_destroy|done].
  Qed.

  Lemma reached_rel sp w : reached sp w -> rel sp w /\ stale w.
  Proof.
    intros (ops & outs & E & R).
    assert (Hstep : forall s st o, rel s st /\ stale st ->
      agrees (fun s w => rel s w /\ stale w) (step o st) (gspec strict s o)).
    { intros s st o [H1 H2]. pose proof (str_step_refines strict s st o H1) as H. unfold agrees in *.
      destruct (gspec strict s o) as [s' y| |] eqn:Eg; [|done|done]. destruct H as (st' & Es & Hr).
      exists st'. split; [done|]. split; [done|]. exact (stale_step _ _ _ _ _ _ _ H1 H2 Eg Es). }
    assert (Hini : rel ∅ winit /\ stale winit).
    { split; [exact (world_ok_init srep)|]. intros i s. cbn. by rewrite lookup_empty. }
    pose proof (srun_refines (gspec strict) step _ Hstep ops ∅ winit Hini) as H.
    rewrite E in H. destruct H as (w' & Ew & H). rewrite R in Ew. by injection Ew as ->.
  Qed.
End Reached.

(** ** C43: every excluded operation goes wrong *)
Section Exact.
  Context (strict : bool).
  Notation step := (str_step strict).
  Notation reached := (reached strict).

  Lemma read_stale h s t n : pok h s -> s_len s <= 16 -> 0 < n ->
    forall h', keeps h h' -> read_loc t (LHeap (s_ptr s)) 0 n h' = Err UB.
  Proof.
    intros Hp Hl Hn h' Hk. unfold read_loc. destruct (N.eqb_spec n 0); [lia|].
    destruct (s_ptr s) as [a|] eqn:Ea; [|done]. destruct (pok_keeps _ _ _ Hk Hp Hl a Ea) as [Ha _].
    unfold bind, hread. by rewrite Ha.
  Qed.
  Lemma cap_local h s bs fp : srep h s bs fp -> length bs = 16%nat -> forall h', get_cap s h' = Err UB.
  Proof.
    intros [bs' u p r Hf Hl Hu Hlen Hne|bs' a r Hf Hgt Hc Ha] H16 h'; [|lia].
    unfold get_cap. cbn [s_store]. rewrite Hne; [done|]. by intros ->.
  Qed.
  Lemma print16 h s bs fp : srep h s bs fp -> pok h s -> length bs = 16%nat -> str_print s h = Err UB.
  Proof.
    intros Hr Hp H16. unfold str_print, LOCAL. pose proof (srep_len _ _ _ _ Hr) as Hl. rewrite Hl.
    destruct (N.ltb_spec (nlen bs) 16); [lia|]. eapply read_stale; [exact Hp|lia|lia|apply keeps_refl].
  Qed.
  (** What is left of an assignment when it is not undefined at once. *)
  Lemma copy_assign16 h t o xs bs fpt fpo : srep h t xs fpt -> srep h o bs fpo -> pok h o ->
    length xs = 16%nat \/ length bs = 16%nat -> str_copy_assign strict t o h = Err UB.
  Proof.
    intros Ht Ho Hpo H16. destruct (str_copy_assign strict t o h) as [[t' h']|e] eqn:E.
    - exfalso. unfold str_copy_assign, LOCAL in E. rewrite (srep_len _ _ _ _ Ht), (srep_len _ _ _ _ Ho) in E.
      assert (((nlen xs <? 16) && (nlen bs <? 16)) = false /\ ((nlen xs <? 16) && (16 <? nlen bs)) = false /\
        ((16 <? nlen xs) && (nlen bs <? 16)) = false) as (A & B & C).
      { repeat match goal with |- context [N.ltb ?a ?b] => destruct (N.ltb_spec a b) end; try done; lia. }
      rewrite A, B, C in E. apply bind_inv in E as (c & h1 & E1 & E).
      destruct H16 as [H16|H16]; [by rewrite (cap_local _ _ _ _ Ht H16) in E1|].
      apply bind_inv in E as (t1 & h2 & E2 & E).
      assert (keeps h h2) as Hk.
      { eapply keeps_trans; [by eapply kp_get_cap|]. revert E2. destruct (c <? nlen bs).
        - intros (? & ? & E2 & (? & ? & E3 & (? & ? & E4 & [= _ <-])%bind_inv)%bind_inv)%bind_inv.
          eapply keeps_trans; [by eapply kp_s_free|]. eapply keeps_trans; [by eapply kp_alloc_assign|]. by eapply kp_s_alloc.
        - intros [= _ <-]. apply keeps_refl. }
      apply bind_inv in E as (b & h3 & E3 & _).
      rewrite (read_stale h o o (nlen bs)) in E3; [done|done| |lia|done]. rewrite (srep_len _ _ _ _ Ho). lia.
    - f_equal. by eapply ubo_copy_assign.
  Qed.
  Lemma move_assign16 h t o xs bs fpt fpo : srep h t xs fpt -> srep h o bs fpo ->
    length xs = 16%nat \/ length bs = 16%nat -> str_move_assign strict t o h = Err UB.
  Proof.
    intros Ht Ho H16. destruct (str_move_assign strict t o h) as [[t' h']|e] eqn:E.
    - exfalso. unfold str_move_assign, LOCAL in E. rewrite (srep_len _ _ _ _ Ht), (srep_len _ _ _ _ Ho) in E.
      assert (((nlen xs <? 16) && (nlen bs <? 16)) = false /\ ((nlen xs <? 16) && (16 <? nlen bs)) = false /\
        ((16 <? nlen xs) && (nlen bs <? 16)) = false) as (A & B & C).
      { repeat match goal with |- context [N.ltb ?a ?b] => destruct (N.ltb_spec a b) end; try done; lia. }
      rewrite A, B, C in E. apply bind_inv in E as (c & h1 & E1 & E).
      destruct H16 as [H16|H16]; [by rewrite (cap_local _ _ _ _ Ht H16) in E1|].
      apply bind_inv in E as (? & h2 & _ & E). apply bind_inv in E as (? & h3 & _ & E). apply bind_inv in E as (? & h4 & E & _).
      by rewrite (cap_local _ _ _ _ Ho H16) in E.
    - f_equal. by eapply ubo_move_assign.
  Qed.
End Exact.
(** With the missing return: whenever the allocator is assigned. *)
Lemma move_assign_strict h t o : str_move_assign true t o h = Err UB.
Proof.
  destruct (str_move_assign true t o h) as [[t' h']|e] eqn:E; [|f_equal; by eapply ubo_move_assign]. exfalso.
  assert (H : forall X (k : unit -> M (heap sblk) X) h x h', bind (alloc_assign true) k h = Ok (x, h') -> False) by done.
  unfold str_move_assign in E. repeat match type of E with context [if ?b then _ else _] => destruct b end;
    try (by eapply H); apply bind_inv in E as (? & ? & _ & E); apply bind_inv in E as (? & ? & _ & E); by eapply H.
Qed.
Lemma copy_assign_short h t o xs bs fpt fpo : srep h t xs fpt -> srep h o bs fpo -> pok h o ->
  nlen xs <= 16 \/ nlen bs <= 16 -> str_copy_assign true t o h = Err UB.
Proof.
  intros Ht Ho Hpo Hlt. destruct (decide (length xs = 16%nat \/ length bs = 16%nat)) as [H16|H16]; [by eapply copy_assign16|].
  unfold str_copy_assign, LOCAL. rewrite (srep_len _ _ _ _ Ht), (srep_len _ _ _ _ Ho).
  destruct (N.ltb_spec (nlen xs) 16) as [Hxs|Hxs], (N.ltb_spec (nlen bs) 16) as [Hbs|Hbs],
    (N.ltb_spec 16 (nlen xs)) as [Hxg|Hxg], (N.ltb_spec 16 (nlen bs)) as [Hbg|Hbg]; try lia; cbn [andb]; try done.
  match goal with |- ?r = _ => destruct r as [[t' h']|e] eqn:E end.
  - exfalso. apply bind_inv in E as (? & ? & _ & E). apply bind_inv in E as (? & ? & _ & E). done.
  - f_equal. revert E. apply ubo_bind; [apply ubo_get_cap|]. intros c. apply ubo_bind; [apply ubo_s_free|]. intros _.
    apply ubo_bind; [apply ubo_alloc_assign|]. intros _. apply ubo_ret.
Qed.

Section Exact2.
  Context (strict : bool).
  Notation step := (str_step strict).
  Notation reached := (reached strict).
  (** The copy of a long string over a shorter long one depends on the capacity. *)
  Definition by_capacity (sp : sstate) (o : sop) : bool :=
    match o with
    | SCopyAsg i j =>
        match sp !! i, sp !! j with Some xs, Some bs => (16 <? length xs)%nat && (length xs <? length bs)%nat | _, _ => false end
    | _ => false
    end.
  Definition is_pop (o : sop) : bool := match o with SPop _ => true | _ => false end.

  Lemma exact_at sp w o sp' x : rel sp w /\ stale w -> sspec sp o = SOk sp' x -> safe strict sp o = false ->
    is_pop o = false -> by_capacity sp o = false -> step o w = Err UB.
  Proof.
    intros [[m Hw] Hs] Hsp Hsafe Hp Hc.
    assert (Hrep : forall i bs, sp !! i = Some bs -> exists s fp, w_vars w !! i = Some s /\ srep (w_heap w) s bs fp /\ pok (w_heap w) s).
    { intros i bs Hi. destruct (world_ok_lookup_spec _ _ _ _ _ _ Hw Hi) as (e & Hm & <- & Hv & Hr). eauto 6. }
    destruct o; try done; cbn [safe sspec str_step by_capacity] in *; unfold look, fresh in Hsp.
    - destruct strict; [|done]. destruct (sp !! i) eqn:Ei; [done|]. destruct (sp !! j) as [bs|] eqn:Ej; [|done].
      destruct (Hrep j bs Ej) as (s & fp & Hv & _). destruct (world_ok_none _ _ _ _ _ Hw Ei) as [_ Hwi].
      unfold bind, wnew, wget. by rewrite Hwi, Hv.
    - destruct (sp !! i) as [xs|] eqn:Ei; [|done]. destruct (sp !! j) as [bs|] eqn:Ej; [|done].
      destruct (Hrep i xs Ei) as (t & fpt & Vt & Rt & Pt), (Hrep j bs Ej) as (o & fpo & Vo & Ro & Po).
      unfold bind at 1, wget at 1. rewrite Vt. unfold bind at 1, wget at 1. rewrite Vo.
      destruct (i =? j)%nat; [done|]. cbn [orb] in Hsafe. unfold covers, is16 in Hsafe. rewrite Ei, Ej in Hsafe.
      assert (str_copy_assign strict t o (w_heap w) = Err UB) as E; [|by unfold bind, lift; rewrite E].
      destruct (decide (length xs = 16%nat \/ length bs = 16%nat)) as [H16|H16]; [by eapply copy_assign16|].
      destruct (Nat.eqb_spec (length xs) 16) as [|_]; [lia|]. destruct (Nat.eqb_spec (length bs) 16) as [|_]; [lia|].
      destruct strict; [|done]. cbn [negb andb orb] in Hsafe.
      eapply copy_assign_short; eauto.
      destruct (Nat.ltb_spec 16 (length bs)); [|lia]. destruct (Nat.ltb_spec 16 (length xs)); [|lia].
      destruct (Nat.leb_spec (length bs) (length xs)); [done|]. destruct (Nat.ltb_spec (length xs) (length bs)); [done|lia].
    - destruct (sp !! i) as [xs|] eqn:Ei; [|done]. destruct (sp !! j) as [bs|] eqn:Ej; [|done].
      destruct (Hrep i xs Ei) as (t & fpt & Vt & Rt & Pt), (Hrep j bs Ej) as (o & fpo & Vo & Ro & Po).
      unfold bind at 1, wget at 1. rewrite Vt. unfold bind at 1, wget at 1. rewrite Vo.
      destruct (i =? j)%nat; [done|]. cbn [orb] in Hsafe. unfold is16 in Hsafe. rewrite Ei, Ej in Hsafe.
      assert (str_move_assign strict t o (w_heap w) = Err UB) as E; [|by unfold bind, lift; rewrite E].
      destruct (decide (length xs = 16%nat \/ length bs = 16%nat)) as [H16|H16]; [by eapply move_assign16|].
      destruct (Nat.eqb_spec (length xs) 16) as [|_]; [lia|]. destruct (Nat.eqb_spec (length bs) 16) as [|_]; [lia|].
      destruct strict; [|done]. apply move_assign_strict.
    - unfold is16 in Hsafe. destruct (sp !! i) as [bs|] eqn:Ei; [|done].
      apply negb_false_iff, Nat.eqb_eq in Hsafe. destruct (Hrep i bs Ei) as (s & fp & V & R & P).
      unfold s_obs, bind, wget. rewrite V. unfold lift. by rewrite (print16 _ _ _ _ R P Hsafe).
  Qed.

  Theorem C43_exact sp w o sp' x : reached sp w -> sspec sp o = SOk sp' x -> safe strict sp o = false ->
    is_pop o = false -> by_capacity sp o = false -> step o w = Err UB.
  Proof. intros H%reached_rel. by apply exact_at. Qed.

  (** Removing the last of 17 bytes: the call itself is right, but from then on
      the string's bytes cannot be read, it cannot grow, and when it is destroyed
      its block stays, with nobody pointing to it. *)
  Lemma pop17_at sp w i bs : rel sp w /\ stale w -> sp !! i = Some bs -> length bs = 17%nat ->
    exists w1 w2 b, last bs = Some b /\ step (SPop i) w = Ok (YOpt (Some b), w1) /\
      step (SSize i) w1 = Ok (YNum 16, w1) /\ step (SPrint i) w1 = Ok (YBytes (take 16 bs), w1) /\
      step (SBytes i) w1 = Err UB /\ step (SPop i) w1 = Err UB /\
      (forall ch, ch <> [] -> fits (bs ++ ch) -> step (SPush i ch) w1 = Err UB) /\
      step (SDel i) w1 = Ok (YUnit, w2) /\ hmap (w_heap w2) = hmap (w_heap w) /\
      exists a, is_Some (hmap (w_heap w2) !! a) /\ forall j s, w_vars w2 !! j = Some s -> s_ptr s <> Some a.
  Proof.
    intros [[m Hw] Hs] Hi H17.
    destruct (world_ok_lookup_spec _ _ _ _ _ _ Hw Hi) as (e & Hm & He & Hv & Hr).
    assert (exists xs b, bs = xs ++ [b]) as (xs & b & Eb).
    { destruct bs as [|b0 bs0] using rev_ind; [done|]. eauto. }
    assert (Hlx : length xs = 16%nat) by (rewrite Eb, app_length in H17; simpl in H17; lia).
    destruct e as [s es fp]. cbn [e_o e_s e_fp] in *. subst es.
    inversion Hr as [bs' u p r Hf Hl|bs' a r Hf Hgt Hc Ha]; subst s fp bs'; [lia|].
    assert (Hl17 : nlen bs = 17) by lia.
    set (c := nlen (S_ bs ++ r)) in *. set (s1 := Str 16 (UCap c) (Some a)).
    assert (Epop : str_pop (Str (nlen bs) (UCap c) (Some a)) (w_heap w) = Ok ((s1, Some b), w_heap w)).
    { unfold str_pop. cbn [s_len s_store s_ptr]. destruct (N.eqb_spec (nlen bs) 0); [lia|].
      rewrite (bind_ok _ _ _ _ _ (read_here (w_heap w) _ xs [b] [] _ (nlen bs - 1) 1 ltac:(by rewrite app_nil_r, <-Eb) ltac:(lia) eq_refl)).
      unfold s1. by rewrite Hl17. }
    exists (World (w_heap w) (<[i := s1]> (w_vars w))), (World (w_heap w) (delete i (<[i := s1]> (w_vars w)))), b.
    assert (Hg : forall X (f : str -> M (world sblk str) X), bind (wget i) f (World (w_heap w) (<[i := s1]> (w_vars w))) =
      f s1 (World (w_heap w) (<[i := s1]> (w_vars w)))).
    { intros X f. unfold bind, wget. cbn [w_vars]. by rewrite lookup_insert. }
    split; [by rewrite Eb, last_snoc|].
    split; [cbn [str_step]; unfold bind, wget; rewrite Hv; unfold lift; rewrite Epop; done|].
    cbn [str_step]. unfold s_obs, s_upd. rewrite !Hg.
    split; [done|]. split.
    { assert (str_print s1 (w_heap w) = Ok (take 16 bs, w_heap w)) as E; [|by unfold bind, lift; cbn [w_heap]; rewrite E].
      unfold str_print, s1. cbn [s_len s_ptr LOCAL]. change (16 <? LOCAL) with false. cbv iota.
      replace (take 16 bs) with xs by (rewrite Eb; rewrite <-Hlx; by rewrite take_app).
      assert (Ha' : hmap (w_heap w) !! a = Some (SBlk c ([] ++ S_ xs ++ (Some b :: r)))).
      { rewrite Ha. do 2 f_equal. rewrite Eb, fmap_app, <-app_assoc. done. }
      apply (read_heap_ok (w_heap w) _ a c [] (Some b :: r) xs 0 16 Ha'); [done|lia]. }
    split; [done|]. split; [done|]. split.
    { intros ch Hch Hfit. rewrite Hg. unfold fits in Hfit. rewrite app_length in Hfit.
      assert (str_push s1 ch (w_heap w) = Err UB) as E; [|by unfold bind, lift; cbn [w_heap]; rewrite E].
      destruct ch as [|c0 ch]; [done|]. cbn [length] in Hfit.
      unfold str_push, s1. cbn [s_len]. rewrite uadd_fits.
      2:{ assert (16 + nlen (c0 :: ch) <= N.of_nat (length bs + S (length ch))) by (cbn [length]; lia).
          revert Hfit. cbn [length]. lia. }
      unfold try_alloc. cbn [s_len]. change (LOCAL <? 16) with false. cbv iota.
      destruct (N.ltb_spec LOCAL (16 + nlen (c0 :: ch))) as [_|Hn]; [|unfold LOCAL in Hn; cbn [length] in Hn; lia].
      unfold bind at 1. unfold bind at 1. unfold s_alloc. rewrite hnew_endless. destruct (_ <=? _); unfold bind at 1, halloc, ret; done. }
    split; [done|]. split; [done|]. exists a. split; [cbn [w_heap]; by rewrite Ha|].
    intros j t. cbn [w_vars]. rewrite delete_insert_delete, lookup_delete_Some. intros [Hne Hj] Ht.
    destruct (world_ok_lookup _ _ _ _ _ _ Hw Hj) as (f & Hmj & Hf' & Hspj). pose proof (wo_rep _ _ _ _ Hw j f Hmj) as Hrj.
    rewrite Hf' in Hrj. destruct (N.leb_spec (nlen (e_s f)) 16) as [Hle|Hgt'].
    - pose proof (Hs j t Hj) as Hp. rewrite <-(srep_len _ _ _ _ Hrj) in Hle. destruct (Hp Hle a Ht) as [Hp' _].
      by rewrite Ha in Hp'.
    - inversion Hrj as [|? a2 r2 ??? Ha2 E1 E2 E3]; [lia|]. rewrite <-E1 in Ht. cbn [s_ptr] in Ht. assert (a2 = a) as -> by congruence.
      eapply (wo_disj _ _ _ _ Hw i j _ f a Hm Hmj Hne); [cbn; set_solver|]. rewrite <-E3. set_solver.
  Qed.
  Theorem C43_pop17_breaks sp w i bs : reached sp w -> sp !! i = Some bs -> length bs = 17%nat ->
    exists w1 w2 b, last bs = Some b /\ step (SPop i) w = Ok (YOpt (Some b), w1) /\
      step (SSize i) w1 = Ok (YNum 16, w1) /\ step (SPrint i) w1 = Ok (YBytes (take 16 bs), w1) /\
      step (SBytes i) w1 = Err UB /\ step (SPop i) w1 = Err UB /\
      (forall ch, ch <> [] -> fits (bs ++ ch) -> step (SPush i ch) w1 = Err UB) /\
      step (SDel i) w1 = Ok (YUnit, w2) /\ hmap (w_heap w2) = hmap (w_heap w) /\
      exists a, is_Some (hmap (w_heap w2) !! a) /\ forall j s, w_vars w2 !! j = Some s -> s_ptr s <> Some a.
  Proof. intros H%reached_rel. by apply pop17_at. Qed.
End Exact2.

(** Where the capacity decides: undefined, or right. *)
Theorem C43_by_capacity sp w i j xs bs : reached true sp w -> i <> j -> sp !! i = Some xs -> sp !! j = Some bs ->
  (16 < length xs < length bs)%nat ->
  str_step true (SCopyAsg i j) w = Err UB \/
  exists w', str_step true (SCopyAsg i j) w = Ok (YUnit, w') /\ rel (<[i := bs]> sp) w'.
Proof.
  intros [[m Hw] Hs]%reached_rel Hij Hi Hj Hl. assert (Hwf : hwf (w_heap w)) by apply Hw.
  destruct (world_ok_lookup_spec _ _ _ _ _ _ Hw Hi) as (ei & Hmi & <- & Hvi & Hri).
  destruct (world_ok_lookup_spec _ _ _ _ _ _ Hw Hj) as (ej & Hmj & <- & Hvj & Hrj).
  cbn [str_step]. unfold bind at 1, wget at 1. rewrite Hvi. unfold bind at 1, wget at 1. rewrite Hvj.
  destruct (Nat.eqb_spec i j) as [|_]; [done|].
  destruct (copy_assign_ok (w_heap w) (e_o ei) (e_o ej) (e_s ei) (e_s ej) (e_fp ei) (e_fp ej)) as (s'&h'&fp'&E&Hr'&Hu);
    [done|done|done| |lia|lia|].
  { intros a Ha Ha'. by eapply (wo_disj _ _ _ _ Hw i j). }
  assert (str_copy_assign true (e_o ei) (e_o ej) (w_heap w) = Err UB \/
          str_copy_assign true (e_o ei) (e_o ej) (w_heap w) = str_copy_assign false (e_o ei) (e_o ej) (w_heap w)) as [E1|E1].
  { clear E. destruct (str_copy_assign true (e_o ei) (e_o ej) (w_heap w)) as [[? ?]|] eqn:E.
    - right. rewrite <-E. revert E. unfold str_copy_assign. rewrite (srep_len _ _ _ _ Hri), (srep_len _ _ _ _ Hrj). unfold LOCAL.
      destruct (N.ltb_spec (nlen (e_s ei)) 16); [lia|]. destruct (N.ltb_spec (nlen (e_s ej)) 16); [lia|]. rewrite !andb_false_r. cbn [andb].
      destruct (get_cap (e_o ei) (w_heap w)) as [[c h1]|] eqn:Ec; [|by unfold bind at 1; rewrite Ec].
      rewrite !(bind_ok _ _ _ _ _ Ec). destruct (c <? nlen (e_s ej)); [|done].
      intros (? & ? & E & _)%bind_inv. by apply bind_inv in E as (? & ? & _ & E).
    - left. f_equal. by eapply ubo_copy_assign. }
  - left. unfold bind, lift. by rewrite E1.
  - right. rewrite E in E1. unfold bind, wget, lift. rewrite Hvi, Hvj, E1. simpl. eexists. split; [done|]. eexists. simpl.
    eapply (world_upd1 _ srep_frame srep_dom); eauto.
Qed.

(** Both happen; and the states in question are reached. *)
Example C43_by_capacity_ex :
  match run_ops (str_step true) [SLit 0 (replicate 20 65); SLit 1 (replicate 30 66); SCopyAsg 0 1; SBytes 0; SDel 0; SDel 1] winit with
  | Ok (outs, w) => outs = [YUnit; YUnit; YUnit; YBytes (replicate 30 66); YUnit; YUnit] /\ map_to_list (hmap (w_heap w)) = []
  | Err _ => False end /\
  run_ops (str_step true) [SLit 0 (replicate 20 65); SLit 1 (replicate 31 66); SCopyAsg 0 1] winit = Err UB.
Proof. by vm_compute. Qed.
Example C43_exact_ex : exists sp w, reached false sp w /\ map_to_list sp = [(0%nat, replicate 16 65); (1%nat, []); (2%nat, replicate 17 66)] /\
  safe false sp (SPrint 0) = false /\ safe false sp (SCopyAsg 1 0) = false /\ safe false sp (SMoveAsg 2 0) = false /\
  by_capacity sp (SCopyAsg 1 0) = false.
Proof.
  destruct (srun (gspec false) ∅ [SLit 0 (replicate 15 65); SPush 0 [65]; SLit 3 (replicate 17 66); SEmpty 1; SMove 2 3; SDel 3]) as [sp outs| |] eqn:E;
    [|vm_compute in E; discriminate E..].
  destruct (C45_reachable false _ sp outs E) as (w & R & _).
  exists sp, w. split; [by eexists _, _|]. vm_compute in E. injection E as <- _. clear. vm_compute. done.
Qed.

Print Assumptions C43_exact.
Print Assumptions C43_pop17_breaks.
Print Assumptions C43_by_capacity.
