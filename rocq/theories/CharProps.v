(** * CharProps: C54-C56, characters and literals *)
From Verif Require Import Base IterSpec Utf8Model Utf8Spec Utf8Props CharModel.
Local Open Scope N_scope.

(** ** C54 *)
(** Any interleaving of [Ascii::next] and [Ascii::last] on an iterator over
    [bs] does what taking one-byte characters from the ends of the sequence
    does. *)
Theorem C54_ascii_chars bs ops : Forall (fun o => o = DNext \/ o = DPrev) ops ->
  exists rest, run_ops ascii_step ops bs = Ok ((de_run ((fun b => [b]) <$> bs) ops).2, rest) /\
    (fun b => [b]) <$> rest = (de_run ((fun b => [b]) <$> bs) ops).1.
Proof.
  intros Hf.
  destruct (de_refines ascii_step (fun s xs => (fun b => [b]) <$> s = xs) (fun o => o = DNext \/ o = DPrev))
    with (ops := ops) (s := bs) (xs := (fun b => [b]) <$> bs) as (s' & E & Hr); [|done|done|by exists s'].
  intros o s xs Ho <-. destruct Ho as [-> | ->]; cbn [ascii_step de_step fst snd].
  - destruct s as [|b s]; eexists; split; reflexivity.
  - unfold ascii_last. destruct s as [|b s _] using rev_ind; [eexists; split; reflexivity|].
    rewrite fmap_app. change ((fun b => [b]) <$> [b]) with [[b]]. rewrite !last_snoc. eexists. split; [reflexivity|].
    rewrite !app_length, fmap_length. cbn [length]. rewrite !Nat.add_sub.
    by rewrite take_app, <-(fmap_length (fun b => [b]) s), take_app.
Qed.
(** What that comes to: the characters given, in order, and the rest make up
    the string. *)
Theorem C54_ascii_ends_meet bs ops outs rest : Forall (fun o => o = DNext \/ o = DPrev) ops ->
  run_ops ascii_step ops bs = Ok (outs, rest) ->
  bs = concat (got is_next ops outs) ++ rest ++ concat (reverse (got is_prev ops outs)).
Proof.
  intros Hf E. destruct (C54_ascii_chars bs ops Hf) as (r & E' & Hr). rewrite E in E'. injection E' as -> <-.
  destruct (de_run _ ops) as [ys os] eqn:Ed. simpl in *. apply de_run_meets in Ed.
  assert (Hc : forall l : list N, concat ((fun b => [b]) <$> l) = l)
    by (induction l as [|x l IH]; [done|cbn; f_equal; exact IH]).
  rewrite <-(Hc bs), Ed, !concat_app, <-Hr. by rewrite Hc.
Qed.
Example C54_ex : run_ops ascii_step [DNext; DPrev; DNext; DPrev] [72; 105; 33] =
  Ok ([EItem (Some [72]); EItem (Some [33]); EItem (Some [105]); EItem None], []).
Proof. done. Qed.

(** ** C55 *)
Lemma chars_wrap_nul s : chars_wrap (s ++ [0]) = s.
Proof. unfold chars_wrap. by rewrite app_length, Nat.add_sub, take_app. Qed.
Lemma literal_spec v s bs : literal v (s ++ [0]) = Some bs <-> s <> [] /\ v s = Ok None /\ bs = s.
Proof.
  unfold literal. rewrite chars_wrap_nul, app_length, Nat.add_sub.
  destruct (Nat.eqb_spec (length s) 0) as [Hl%nil_length_inv|Hl].
  - subst s. split; [done|]. by intros [? _].
  - split.
    + destruct (v s) as [[]|]; try done. intros [= <-]. split; [|done]. by intros ->.
    + by intros (_ & -> & ->).
Qed.
(** A literal compiles exactly if it is not empty and valid, and holds its
    bytes (the terminating zero not among them). *)
Theorem C55_utf8_literal s bs : Forall byte s ->
  (utf8_literal (s ++ [0]) = Some bs <-> s <> [] /\ valid_utf8 s /\ bs = s).
Proof. intros Hb. unfold utf8_literal. by rewrite literal_spec, C38_validate_is_rfc3629. Qed.
Theorem C55_ascii_literal_exact s bs :
  ascii_literal (s ++ [0]) = Some bs <-> s <> [] /\ Forall (fun b => b <= 128) s /\ bs = s.
Proof.
  unfold ascii_literal. rewrite literal_spec. pose proof (C42_exact s) as H.
  destruct (ascii_validate s) as [p|].
  - destruct H as (l & b & r & -> & _ & Hb & _). split; [by intros (_ & ? & _)|].
    intros (_ & Hf & _). apply Forall_app in Hf as [_ Hf]. apply Forall_cons in Hf as [? _]. lia.
  - split; intros (? & _ & ?); done.
Qed.
Definition C55_ascii_full := forall s bs, ascii_literal (s ++ [0]) = Some bs <-> s <> [] /\ Forall (fun b => b < 128) s /\ bs = s.
(** Missing: literals with the byte 128. *)
Theorem C55_ascii_literal_partial s bs : 128 ∉ s ->
  (ascii_literal (s ++ [0]) = Some bs <-> s <> [] /\ Forall (fun b => b < 128) s /\ bs = s).
Proof.
  intros Hn. rewrite C55_ascii_literal_exact.
  assert (Forall (fun b => b <= 128) s <-> Forall (fun b => b < 128) s) as ->; [|done].
  rewrite !Forall_forall. split; intros H b Hb; specialize (H b Hb); [|lia].
  assert (b <> 128) by (intros ->; done). lia.
Qed.
Theorem C55_ascii_refuted : ~ C55_ascii_full.
Proof.
  intros H. destruct (proj1 (H [128] [128])) as (_ & Hf & _); [done|]. apply Forall_cons in Hf as [Hf _]. lia.
Qed.
Example C55_ex : utf8_literal [0xE4; 0xBD; 0xA0; 0] = Some [0xE4; 0xBD; 0xA0] /\ utf8_literal [0] = None /\
  utf8_literal [0xE4; 0xBD; 0] = None /\ ascii_literal [72; 0; 105; 0] = Some [72; 0; 105].
Proof. done. Qed.

(** ** C56 *)
Lemma fill_app src : forall i dst pre, length pre = i -> (i + length src <= length dst)%nat -> take i dst = pre ->
  fill i src dst = pre ++ src ++ drop (i + length src) dst.
Proof.
  induction src as [|b src IH]; intros i dst pre Hp Hl Ht; cbn [fill length] in *.
  - rewrite Nat.add_0_r, <-Ht. simpl. by rewrite take_drop.
  - rewrite (IH (S i) _ (pre ++ [b])).
    + rewrite <-app_assoc. simpl. do 3 f_equal. rewrite drop_insert_gt by lia. f_equal. lia.
    + rewrite app_length. simpl. lia.
    + rewrite insert_length. lia.
    + rewrite <-Ht. assert (Hi : (i < length dst)%nat) by lia.
      apply lookup_lt_is_Some in Hi as [x Hx].
      rewrite (take_S_r (<[i:=b]> dst) i b) by (apply list_lookup_insert; lia).
      by rewrite take_insert by lia.
Qed.
(** A character prints the bytes it was made of, and exactly those of length
    at most [MAX_LEN] make one. *)
Theorem C56_utf8_char bs : (is_Some (utf8_chr bs) <-> (0 < length bs <= 4)%nat) /\
  forall c, utf8_chr bs = Some c -> c_len c = N.of_nat (length bs) /\ chr_print c = Ok bs.
Proof.
  unfold utf8_chr, chr_new.
  destruct (Nat.ltb_spec 0 (length bs)) as [Hl|Hl].
  2: { cbn [andb]. split; [|done]. split; [by intros []|lia]. }
  destruct (Nat.leb_spec (length bs) 4) as [Hg|Hg]; cbn [andb].
  2: { split; [|done]. split; [by intros []|lia]. }
  split; [split; [done|by eexists]|].
  intros c [= <-]. cbn [c_len]. split; [done|]. unfold chr_print. cbn [c_len c_bytes].
  rewrite (fill_app bs 0 _ []) by (rewrite ?replicate_length; done || lia). cbn [app Nat.add].
  rewrite app_length, drop_length, Nat2N.id, take_app. cbn [length].
  destruct (N.leb_spec (N.of_nat (length bs)) (N.of_nat (length bs + (4 - length bs)))); [done|lia].
Qed.
Theorem C56_ascii_char bs : (is_Some (ascii_chr bs) <-> length bs = 1%nat) /\
  forall c, ascii_chr bs = Some c -> c_len c = 1 /\ chr_print c = Ok bs.
Proof.
  unfold ascii_chr, chr_new. destruct bs as [|b [|b' bs]]; cbn.
  - split; [split; [by intros []|done]|done].
  - split; [split; [done|by eexists]|]. intros c [= <-]. done.
  - split; [split; [by intros []|done]|done].
Qed.
(** A character made from a literal is one character. *)
Definition C56_one_full := forall s bs c, Forall byte s -> utf8_literal (s ++ [0]) = Some bs -> utf8_chr bs = Some c ->
  exists x, scalar x /\ chr_print c = Ok (enc x).
(** Missing: literals with several characters in at most four bytes. *)
Theorem C56_one_partial s bs c : Forall byte s -> utf8_literal (s ++ [0]) = Some bs -> utf8_chr bs = Some c ->
  exists xs, Forall scalar xs /\ xs <> [] /\ (length xs <= 4)%nat /\ chr_print c = Ok (encs xs).
Proof.
  intros Hb Hl Hc. apply C55_utf8_literal in Hl as (Hn & (xs & Hs & ->) & ->); [|done].
  destruct (C56_utf8_char (encs xs)) as [[H1 _] H2]. destruct (H2 _ Hc) as [_ Hp].
  exists xs. split; [done|]. split; [by intros ->|]. split; [|done].
  specialize (H1 ltac:(by eexists)). destruct H1 as [_ H1].
  assert (forall l, Forall scalar l -> (length l <= length (encs l))%nat) as Hle; [|specialize (Hle xs Hs); lia].
  clear. induction l as [|x l IH]; [done|]. intros [Hx Hl]%Forall_cons. rewrite encs_cons, app_length. simpl.
  specialize (IH Hl). assert (0 < length (enc x))%nat; [|lia]. unfold enc. repeat case_match; simpl; lia.
Qed.
Theorem C56_one_char x : scalar x -> exists c, utf8_chr (enc x) = Some c /\ chr_print c = Ok (enc x) /\ c_len c = N.of_nat (length (enc x)).
Proof.
  intros Hx. destruct (C56_utf8_char (enc x)) as [[_ H1] H2]. destruct H1 as [c Hc].
  - unfold enc. repeat case_match; simpl; lia.
  - exists c. destruct (H2 c Hc). done.
Qed.
Theorem C56_refuted : ~ C56_one_full.
Proof.
  intros H. destruct (H [0x61; 0x62] [0x61; 0x62] (Chr 2 [0x61; 0x62; 0; 0])) as (x & Hx & E); [repeat constructor| | |].
  - done.
  - done.
  - cbn in E. unfold enc in E.
    destruct (x <? 128) eqn:E1; [discriminate E|]. destruct (x <? 2048) eqn:E2; [|by destruct (x <? 65536)].
    injection E as E3 E4. apply N.ltb_ge in E1. lia.
Qed.
(** Printing the characters of a string prints the string. *)
Theorem C56_print_chars cs : Forall scalar cs -> 0x7F ∉ cs ->
  exists chs, utf8_chars (length cs) (encs cs) = Ok (chs, []) /\
    print_all ((fun c => c ≫= utf8_chr) <$> chs) = Ok (encs cs).
Proof.
  intros Hs Hd. pose proof (C40_chars_partial cs 0 Hs Hd) as H. rewrite Nat.add_0_r, app_nil_r in H.
  eexists. split; [exact H|]. clear H Hd. induction cs as [|x cs IH]; [done|].
  apply Forall_cons in Hs as [Hx Hs]. destruct (C56_one_char x Hx) as (c & E & Hp & _).
  cbn [fmap list_fmap mbind option_bind print_all]. rewrite E, Hp.
  specialize (IH Hs). cbn [fmap list_fmap] in IH. rewrite IH. by rewrite encs_cons.
Qed.
Example C56_ex : print_all [utf8_chr [0xE4; 0xBD; 0xA0]; utf8_chr [0x21]] = Ok [0xE4; 0xBD; 0xA0; 0x21] /\
  utf8_chr [0x61; 0x62] = Some (Chr 2 [0x61; 0x62; 0; 0]).
Proof. done. Qed.

Print Assumptions C54_ascii_chars.
Print Assumptions C54_ascii_ends_meet.
Print Assumptions C55_utf8_literal.
Print Assumptions C55_ascii_literal_exact.
Print Assumptions C55_ascii_literal_partial.
Print Assumptions C55_ascii_refuted.
Print Assumptions C56_utf8_char.
Print Assumptions C56_ascii_char.
Print Assumptions C56_one_partial.
Print Assumptions C56_one_char.
Print Assumptions C56_refuted.
Print Assumptions C56_print_chars.
