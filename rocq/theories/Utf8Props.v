(** * Utf8Props: properties C38-C42 *)
From Verif Require Import Base Utf8Model Utf8Spec.
Local Open Scope N_scope.

Ltac Zify.zify_post_hook ::= Z.to_euclidean_division_equations.

(** ** Facts about bytes *)
Lemma char_width_spec b : byte b ->
  char_width b =
    if b <? 0x80 then 1 else if b <? 0xC2 then 0 else if b <? 0xE0 then 2
    else if b <? 0xF0 then 3 else if b <? 0xF5 then 4 else 0.
Proof.
  intros Hb.
  assert (H : forallb (fun n => N.eqb (char_width (N.of_nat n))
     (let b := N.of_nat n in if b <? 0x80 then 1 else if b <? 0xC2 then 0 else if b <? 0xE0 then 2
    else if b <? 0xF0 then 3 else if b <? 0xF5 then 4 else 0)) (seq 0 256) = true) by (vm_compute; reflexivity).
  rewrite forallb_forall in H. specialize (H (N.to_nat b)). unfold byte in Hb.
  rewrite N2Nat.id in H. apply N.eqb_eq, H. apply in_seq. lia.
Qed.
Lemma is_cont_spec b : byte b -> is_cont b = (0x80 <=? b) && (b <? 0xC0).
Proof.
  unfold byte, is_cont, as_i8. intros Hb. destruct (N.ltb_spec b 128); lia.
Qed.

(** The four shapes of an encoded scalar value. *)
Lemma enc1 x : x < 0x80 -> enc x = [x].
Proof. intros H. unfold enc. by rewrite (proj2 (N.ltb_lt _ _) H). Qed.
Lemma enc2 x y : 0xC2 <= x < 0xE0 -> 0x80 <= y < 0xC0 ->
  enc ((x - 0xC0) * 64 + (y - 0x80)) = [x; y].
Proof.
  intros Hx Hy. unfold enc.
  destruct (N.ltb_spec ((x - 0xC0) * 64 + (y - 0x80)) 0x80); [lia|].
  destruct (N.ltb_spec ((x - 0xC0) * 64 + (y - 0x80)) 0x800); [|lia].
  f_equal; [lia|]. f_equal; lia.
Qed.
Lemma enc3 x y z : 0xE0 <= x < 0xF0 -> 0x80 <= y < 0xC0 -> 0x80 <= z < 0xC0 ->
  (x = 0xE0 -> 0xA0 <= y) ->
  enc ((x - 0xE0) * 4096 + (y - 0x80) * 64 + (z - 0x80)) = [x; y; z].
Proof.
  intros Hx Hy Hz Hxy. unfold enc. set (c := (x - 0xE0) * 4096 + (y - 0x80) * 64 + (z - 0x80)).
  assert (0x800 <= c) by (unfold c; lia). assert (c < 0x10000) by (unfold c; lia).
  destruct (N.ltb_spec c 0x80); [lia|]. destruct (N.ltb_spec c 0x800); [lia|].
  destruct (N.ltb_spec c 0x10000); [|lia].
  unfold c. repeat (f_equal; try lia).
Qed.
Lemma enc4 x y z w : 0xF0 <= x < 0xF5 -> 0x80 <= y < 0xC0 -> 0x80 <= z < 0xC0 -> 0x80 <= w < 0xC0 ->
  (x = 0xF0 -> 0x90 <= y) ->
  enc ((x - 0xF0) * 262144 + (y - 0x80) * 4096 + (z - 0x80) * 64 + (w - 0x80)) = [x; y; z; w].
Proof.
  intros Hx Hy Hz Hw Hxy. unfold enc.
  set (c := (x - 0xF0) * 262144 + (y - 0x80) * 4096 + (z - 0x80) * 64 + (w - 0x80)).
  assert (0x10000 <= c) by (unfold c; lia).
  destruct (N.ltb_spec c 0x80); [lia|]. destruct (N.ltb_spec c 0x800); [lia|].
  destruct (N.ltb_spec c 0x10000); [lia|].
  unfold c. repeat (f_equal; try lia).
Qed.

(** Conversely: what an encoding looks like. *)
Inductive shape : list N -> Prop :=
| Sh1 x : x < 0x80 -> shape [x]
| Sh2 x y : 0xC2 <= x < 0xE0 -> 0x80 <= y < 0xC0 -> shape [x; y]
| Sh3 x y z : 0xE0 <= x < 0xF0 -> 0x80 <= y < 0xC0 -> 0x80 <= z < 0xC0 ->
    (x = 0xE0 -> 0xA0 <= y) -> (x = 0xED -> y < 0xA0) -> shape [x; y; z]
| Sh4 x y z w : 0xF0 <= x < 0xF5 -> 0x80 <= y < 0xC0 -> 0x80 <= z < 0xC0 -> 0x80 <= w < 0xC0 ->
    (x = 0xF0 -> 0x90 <= y) -> (x = 0xF4 -> y < 0x90) -> shape [x; y; z; w].

Lemma enc_shape c : scalar c -> shape (enc c).
Proof.
  unfold scalar, enc. intros Hc.
  destruct (N.ltb_spec c 0x80); [constructor; lia|].
  destruct (N.ltb_spec c 0x800); [constructor; lia|].
  destruct (N.ltb_spec c 0x10000); constructor; lia.
Qed.
Lemma shape_enc p : shape p -> exists c, scalar c /\ p = enc c.
Proof.
  unfold scalar. intros [x H|x y H1 H2|x y z H1 H2 H3 H4 H5|x y z w H1 H2 H3 H4 H5 H6].
  - exists x. rewrite enc1 by done. split; [lia|done].
  - eexists. rewrite <-enc2 by done. split; [|reflexivity]. lia.
  - eexists. rewrite <-enc3 by done. split; [|reflexivity]. lia.
  - eexists. rewrite <-enc4 by done. split; [|reflexivity]. lia.
Qed.
Lemma enc_bytes c : scalar c -> Forall byte (enc c).
Proof.
  intros Hc. apply enc_shape in Hc. unfold byte. destruct Hc; repeat constructor; lia.
Qed.
Lemma enc_len c : scalar c -> (1 <= length (enc c) <= 4)%nat.
Proof. intros Hc. apply enc_shape in Hc. destruct Hc; simpl; lia. Qed.

(** ** One turn of [validate] against one character *)
Lemma vchar_complete x r p rest :
  x :: r = p ++ rest -> shape p -> vchar x r = VOk (N.of_nat (length p) - 1) rest.
Proof.
  intros E Hp. unfold vchar.
  destruct Hp as [x' H|x' y H1 H2|x' y z H1 H2 H3 H4 H5|x' y z w H1 H2 H3 H4 H5 H6];
    injection E as -> ->; rewrite char_width_spec by (unfold byte; lia).
  - destruct (N.ltb_spec x' 0x80); [|lia]. done.
  - destruct (N.ltb_spec x' 0x80); [lia|]. destruct (N.ltb_spec x' 0xC2); [lia|].
    destruct (N.ltb_spec x' 0xE0); [|lia]. simpl. rewrite is_cont_spec by (unfold byte; lia).
    replace ((0x80 <=? y) && (y <? 0xC0)) with true by lia. done.
  - destruct (N.ltb_spec x' 0x80); [lia|]. destruct (N.ltb_spec x' 0xC2); [lia|].
    destruct (N.ltb_spec x' 0xE0); [lia|]. destruct (N.ltb_spec x' 0xF0); [|lia]. simpl.
    replace (check3 x' y) with true by (unfold check3; lia). simpl.
    rewrite is_cont_spec by (unfold byte; lia).
    replace ((0x80 <=? z) && (z <? 0xC0)) with true by lia. done.
  - destruct (N.ltb_spec x' 0x80); [lia|]. destruct (N.ltb_spec x' 0xC2); [lia|].
    destruct (N.ltb_spec x' 0xE0); [lia|]. destruct (N.ltb_spec x' 0xF0); [lia|].
    destruct (N.ltb_spec x' 0xF5); [|lia]. simpl.
    replace (check4 x' y) with true by (unfold check4; lia). simpl.
    rewrite !is_cont_spec by (unfold byte; lia).
    replace ((0x80 <=? z) && (z <? 0xC0)) with true by lia. simpl.
    replace ((0x80 <=? w) && (w <? 0xC0)) with true by lia. done.
Qed.

(** What went wrong, in terms of characters: [j] bytes in. *)
Definition error_at (rest : list N) (j : nat) : Prop :=
  (begun (take j rest) /\ (j < length rest)%nat /\ ~ starts_char (take (S j) rest)) \/
  (begun rest /\ length rest = S j).

Lemma starts_shape p : starts_char p <-> exists t, shape (p ++ t).
Proof.
  split.
  - intros (c & t & Hc & E). exists t. rewrite <-E. by apply enc_shape.
  - intros (t & H). apply shape_enc in H as (c & ? & E). exists c, t. by rewrite E.
Qed.
Lemma begun_shape p : begun p <-> exists b t, shape (p ++ b :: t).
Proof.
  split.
  - intros (c & b & t & Hc & E). exists b, t. rewrite <-E. by apply enc_shape.
  - intros (b & t & H). apply shape_enc in H as (c & ? & E). exists c, b, t. by rewrite E.
Qed.
Lemma begun_nil : begun [].
Proof. exists 0, 0, []. split; [unfold scalar; lia|done]. Qed.

Lemma vchar_result x r :
  Forall byte (x :: r) ->
  match vchar x r with
  | VOk k rest => exists p, shape p /\ x :: r = p ++ rest /\ k + 1 = N.of_nat (length p)
  | VErr k => error_at (x :: r) (N.to_nat k)
  end.
Proof.
  intros Hb. inversion Hb as [|? ? Hx Hr]; subst. unfold vchar. rewrite char_width_spec by done.
  destruct (N.ltb_spec x 0x80).
  { simpl. exists [x]. split; [by constructor|done]. }
  destruct (N.ltb_spec x 0xC2).
  { simpl. left. split; [apply begun_nil|]. split; [simpl; lia|].
    simpl. rewrite take_0, starts_shape. intros (t & Hs). inversion Hs; lia. }
  destruct (N.ltb_spec x 0xE0).
  { simpl. destruct r as [|y r].
    { simpl. right. split; [|done].
      apply begun_shape. exists 0x80, []. constructor; lia. }
    simpl. inversion Hr as [|? ? Hy Hr2]; subst. rewrite is_cont_spec by done.
    destruct ((0x80 <=? y) && (y <? 0xC0)) eqn:Ey; simpl.
    - exists [x; y]. split; [constructor; lia|done].
    - left. split; [|split; [simpl; lia|]].
      + apply begun_shape. exists 0x80, []. constructor; lia.
      + simpl. rewrite take_0. rewrite starts_shape. intros (t & Hs). inversion Hs; lia. }
  destruct (N.ltb_spec x 0xF0).
  { assert (S1 : forall y, check3 x y = true -> shape [x; y; 0x80]).
    { intros y Hy. unfold check3 in Hy. constructor; lia. }
    assert (S0 : begun [x]).
    { apply begun_shape. destruct (N.eq_dec x 0xE0).
      - exists 0xA0, [0x80]. apply S1. unfold check3. lia.
      - exists 0x80, [0x80]. apply S1. unfold check3. lia. }
    simpl. destruct r as [|y r].
    { simpl. by right. }
    simpl. inversion Hr as [|? ? Hy Hr2]; subst.
    destruct (check3 x y) eqn:Ey; simpl.
    2: { left. split; [done|]. split; [simpl; lia|]. simpl. rewrite take_0.
         rewrite starts_shape. intros (t & Hs). unfold check3 in Ey. inversion Hs; lia. }
    destruct r as [|z r].
    { simpl. right. split; [|done]. apply begun_shape. exists 0x80, []. by apply S1. }
    simpl. inversion Hr2 as [|? ? Hz Hr3]; subst. rewrite is_cont_spec by done.
    destruct ((0x80 <=? z) && (z <? 0xC0)) eqn:Ez; simpl.
    - exists [x; y; z]. split; [unfold check3 in Ey; constructor; lia|done].
    - left. split; [|split; [simpl; lia|]].
      + apply begun_shape. exists 0x80, []. by apply S1.
      + simpl. rewrite take_0, starts_shape. intros (t & Hs). inversion Hs; lia. }
  destruct (N.ltb_spec x 0xF5).
  { assert (S1 : forall y z, check4 x y = true -> 0x80 <= z < 0xC0 -> shape [x; y; z; 0x80]).
    { intros y z Hy Hz. unfold check4 in Hy. constructor; lia. }
    assert (S0 : begun [x]).
    { apply begun_shape. destruct (N.eq_dec x 0xF0).
      - exists 0x90, [0x80; 0x80]. apply S1; unfold check4; lia.
      - exists 0x80, [0x80; 0x80]. apply S1; unfold check4; lia. }
    simpl. destruct r as [|y r].
    { simpl. by right. }
    simpl. inversion Hr as [|? ? Hy Hr2]; subst.
    destruct (check4 x y) eqn:Ey; simpl.
    2: { left. split; [done|]. split; [simpl; lia|]. simpl. rewrite take_0.
         rewrite starts_shape. intros (t & Hs). unfold check4 in Ey. inversion Hs; lia. }
    destruct r as [|z r].
    { simpl. right. split; [|done]. apply begun_shape. exists 0x80, [0x80]. apply S1; [done|lia]. }
    simpl. inversion Hr2 as [|? ? Hz Hr3]; subst. rewrite is_cont_spec by done.
    destruct ((0x80 <=? z) && (z <? 0xC0)) eqn:Ez; simpl.
    2: { left. split; [|split; [simpl; lia|]].
         - apply begun_shape. exists 0x80, [0x80]. apply S1; [done|lia].
         - simpl. rewrite take_0, starts_shape. intros (t & Hs). inversion Hs; lia. }
    destruct r as [|w r].
    { simpl. right. split; [|done]. apply begun_shape. exists 0x80, []. apply S1; [done|lia]. }
    simpl. inversion Hr3 as [|? ? Hw Hr4]; subst. rewrite is_cont_spec by done.
    destruct ((0x80 <=? w) && (w <? 0xC0)) eqn:Ew; simpl.
    - exists [x; y; z; w]. split; [unfold check4 in Ey; constructor; lia|done].
    - left. split; [|split; [simpl; lia|]].
      + apply begun_shape. exists 0x80, []. apply S1; [done|lia].
      + simpl. rewrite take_0, starts_shape. intros (t & Hs). inversion Hs; lia. }
  simpl. left. split; [apply begun_nil|]. split; [simpl; lia|].
  simpl. rewrite take_0, starts_shape. intros (t & Hs). inversion Hs; lia.
Qed.

(** ** The loop *)
Lemma encs_cons c cs : encs (c :: cs) = enc c ++ encs cs.
Proof. done. Qed.
Lemma encs_app cs ds : encs (cs ++ ds) = encs cs ++ encs ds.
Proof. unfold encs. by rewrite fmap_app, concat_app. Qed.

Lemma utf8_loop_result fuel : forall off bs,
  Forall byte bs -> (length bs <= fuel)%nat ->
  match utf8_loop fuel off bs with
  | Ok None => exists cs, Forall scalar cs /\ bs = encs cs
  | Ok (Some o) =>
      exists cs rest j, Forall scalar cs /\ bs = encs cs ++ rest /\ error_at rest j /\
        o = off + N.of_nat (length (encs cs) + j)
  | Err _ => False
  end.
Proof.
  induction fuel as [|fuel IH]; intros off bs Hb Hl.
  { destruct bs; [|simpl in Hl; lia]. by exists []. }
  destruct bs as [|x r]; simpl; [by exists []|].
  pose proof (vchar_result x r Hb) as H. destruct (vchar x r) as [k rest|k].
  - destruct H as (p & Hp & E & Hk). rewrite E in Hb, Hl. apply Forall_app in Hb as [_ Hb].
    assert (Hne : (1 <= length p)%nat) by (destruct Hp; simpl; lia).
    rewrite app_length in Hl.
    specialize (IH (off + k + 1) rest Hb ltac:(lia)).
    apply shape_enc in Hp as (c & Hc & ->).
    destruct (utf8_loop fuel (off + k + 1) rest) as [[o|]|]; [| |done].
    + destruct IH as (cs & rest' & j & Hcs & -> & He & ->).
      exists (c :: cs), rest', j. split; [by constructor|]. rewrite encs_cons. split.
      { by rewrite E, (assoc_L app). }
      split; [done|]. rewrite app_length. lia.
    + destruct IH as (cs & Hcs & ->). exists (c :: cs). split; [by constructor|]. done.
  - exists [], (x :: r), (N.to_nat k). split; [done|]. split; [done|]. split; [done|]. simpl. lia.
Qed.

Lemma utf8_loop_valid cs : forall fuel off,
  Forall scalar cs -> (length (encs cs) <= fuel)%nat -> utf8_loop fuel off (encs cs) = Ok None.
Proof.
  induction cs as [|c cs IH]; intros fuel off Hcs Hl; [by destruct fuel|].
  inversion Hcs as [|? ? Hc Hcs']; subst. rewrite encs_cons in *. rewrite app_length in Hl.
  pose proof (enc_len c Hc) as Hlen. pose proof (enc_shape c Hc) as Hs.
  destruct (enc c) as [|x p] eqn:Ec; [simpl in *; lia|].
  destruct fuel as [|fuel]; [simpl in *; lia|]. cbn [app utf8_loop].
  rewrite (vchar_complete x (p ++ encs cs) (x :: p) (encs cs)) by done.
  apply IH; [done|]. simpl in *. lia.
Qed.

(** ** C38 *)
Theorem C38_validate_is_rfc3629 (bs : list N) :
  Forall byte bs -> (utf8_validate bs = Ok None <-> valid_utf8 bs).
Proof.
  intros Hb. split.
  - intros H. pose proof (utf8_loop_result (length bs) 0 bs Hb ltac:(lia)) as H1.
    unfold utf8_validate in H. rewrite H in H1. exact H1.
  - intros (cs & Hcs & ->). by apply utf8_loop_valid.
Qed.
(** It always answers (the fuel is enough). *)
Theorem C38_validate_terminates (bs : list N) :
  Forall byte bs -> exists r, utf8_validate bs = Ok r.
Proof.
  intros Hb. pose proof (utf8_loop_result (length bs) 0 bs Hb ltac:(lia)) as H1.
  unfold utf8_validate. destruct (utf8_loop (length bs) 0 bs) as [r|]; [by exists r|done].
Qed.
(** "h", U+00E9, U+20AC, U+10348, and some invalid strings. *)
Example C38_ex :
  valid_utf8 [0x68; 0xC3; 0xA9; 0xE2; 0x82; 0xAC; 0xF0; 0x90; 0x8D; 0x88] /\
  utf8_validate [0x68; 0xC3; 0xA9; 0xE2; 0x82; 0xAC; 0xF0; 0x90; 0x8D; 0x88] = Ok None /\
  utf8_validate [0xED; 0xA0; 0x80] = Ok (Some 1) /\
  utf8_validate [0xC0; 0x80] = Ok (Some 0).
Proof.
  split; [|by vm_compute]. exists [0x68; 0xE9; 0x20AC; 0x10348].
  split; [|reflexivity]. repeat constructor; unfold scalar; lia.
Qed.

(** ** C39 *)

(** Full statement. *)
Definition C39_full : Prop := forall bs off,
  Forall byte bs -> utf8_validate bs = Ok (Some off) ->
  valid_utf8 (take (N.to_nat off) bs) /\
  forall n, (N.to_nat off < n <= length bs)%nat -> ~ valid_utf8 (take n bs).

(** Exactly what is reported: after the longest valid prefix [pre], the index
    of the first byte that cannot continue the character begun there, or, if
    the input ends inside that character, the index of the last byte. *)
Theorem C39_error_position_exact (bs : list N) off :
  Forall byte bs -> utf8_validate bs = Ok (Some off) ->
  exists pre rest j, bs = pre ++ rest /\ valid_utf8 pre /\ error_at rest j /\
    off = N.of_nat (length pre + j).
Proof.
  intros Hb H. pose proof (utf8_loop_result (length bs) 0 bs Hb ltac:(lia)) as H1.
  unfold utf8_validate in H. rewrite H in H1.
  destruct H1 as (cs & rest & j & Hcs & -> & He & ->).
  exists (encs cs), rest, j. split; [done|]. split; [by exists cs|]. split; [done|]. lia.
Qed.

Lemma shape_prefix_free p q s t : shape p -> shape q -> p ++ s = q ++ t -> p = q /\ s = t.
Proof.
  intros Hp Hq E. destruct Hp, Hq; simpl in E; injection E; intros; subst;
    first [done | exfalso; lia].
Qed.
Lemma begun_no_char p c t : begun p -> scalar c -> p <> enc c ++ t.
Proof.
  intros Hp Hc ->. apply begun_shape in Hp as (b & u & Hu). rewrite <-(assoc_L app) in Hu.
  destruct (shape_prefix_free (enc c) _ (t ++ b :: u) [] (enc_shape c Hc) Hu) as [_ E].
  { by rewrite app_nil_r. }
  by destruct t.
Qed.
Lemma error_no_char rest j c t : error_at rest j -> scalar c -> rest <> enc c ++ t.
Proof.
  intros He Hc E. destruct He as [(Hj & Hl & Hn)|(Hst & Hl)].
  - destruct (decide (j < length (enc c))%nat) as [Hlt|Hge].
    + apply Hn. exists c, (drop (S j) (enc c)). split; [done|]. rewrite E, take_app_le by lia.
      by rewrite take_drop.
    + rewrite E, take_app_ge in Hj by lia. by eapply begun_no_char in Hj.
  - by eapply begun_no_char in Hst.
Qed.

(** No prefix longer than [pre] is valid. *)
Lemma error_maximal pre rest j n :
  valid_utf8 pre -> error_at rest j -> (length pre < n <= length (pre ++ rest))%nat ->
  ~ valid_utf8 (take n (pre ++ rest)).
Proof.
  intros (cs & Hcs & ->) He Hn (ds & Hds & E).
  rewrite app_length in Hn. rewrite take_app_ge in E by lia.
  assert (Hr : exists c t, scalar c /\ take (n - length (encs cs)) rest = enc c ++ t).
  { assert (Hne : take (n - length (encs cs)) rest <> []).
    { intros Hz. apply (f_equal length) in Hz. rewrite take_length in Hz. simpl in Hz. lia. }
    revert ds Hds E Hne. generalize (take (n - length (encs cs)) rest) as r. clear -Hcs.
    induction cs as [|c cs IH]; intros r ds Hds E Hne.
    - destruct ds as [|d ds]; [done|]. exists d, (encs ds). by inversion Hds.
    - inversion Hcs as [|? ? Hc Hcs']; subst.
      destruct ds as [|d ds].
      { exfalso. simpl in E. apply (f_equal length) in E. rewrite encs_cons, !app_length in E.
        pose proof (enc_len c Hc). simpl in E. lia. }
      inversion Hds as [|? ? Hd Hds']; subst. rewrite !encs_cons, <-(assoc_L app) in E.
      destruct (shape_prefix_free _ _ _ _ (enc_shape c Hc) (enc_shape d Hd) E) as [_ E2].
      by eapply IH. }
  destruct Hr as (c & t & Hc & Hr).
  apply (error_no_char rest j c (t ++ drop (n - length (encs cs)) rest) He Hc).
  by rewrite (assoc_L app), <-Hr, take_drop.
Qed.

(** Missing: the reported position itself is the end of the longest valid
    prefix.  It is never before it and at most three bytes after it. *)
Theorem C39_error_position_partial (bs : list N) off :
  Forall byte bs -> utf8_validate bs = Ok (Some off) ->
  exists s, (s <= N.to_nat off <= s + 3)%nat /\ (N.to_nat off < length bs)%nat /\
    valid_utf8 (take s bs) /\
    forall n, (s < n <= length bs)%nat -> ~ valid_utf8 (take n bs).
Proof.
  intros Hb H. destruct (C39_error_position_exact bs off Hb H) as (pre & rest & j & -> & Hp & He & ->).
  exists (length pre). rewrite Nat2N.id, app_length.
  assert (Hj : (j <= 3 /\ j < length rest)%nat).
  { assert (Hlen : forall p, begun p -> (length p <= 3)%nat).
    { intros p Hbp. apply begun_shape in Hbp as (b & t & Hs).
      assert (length (p ++ b :: t) <= 4)%nat by (destruct Hs; simpl; lia).
      rewrite app_length in *. simpl in *. lia. }
    destruct He as [(H1 & H2 & _)|(H1 & H2)]; apply Hlen in H1; [|lia].
    rewrite take_length in H1. lia. }
  split; [lia|]. split; [lia|]. split; [by rewrite take_app|].
  intros n Hn. apply (error_maximal pre rest j n Hp He). by rewrite app_length.
Qed.

(** When the error is found at the first byte of a character (it starts no
    character, or the input ends right after it) the full claim holds. *)
Theorem C39_error_at_lead_partial (pre rest : list N) :
  Forall byte (pre ++ rest) -> valid_utf8 pre -> error_at rest 0 ->
  utf8_validate (pre ++ rest) = Ok (Some (N.of_nat (length pre))) /\
  valid_utf8 (take (length pre) (pre ++ rest)) /\
  forall n, (length pre < n <= length (pre ++ rest))%nat -> ~ valid_utf8 (take n (pre ++ rest)).
Proof.
  intros Hb Hp He. split; [|split; [by rewrite take_app|]].
  2: { intros n Hn. by apply (error_maximal pre rest 0 n). }
  destruct (C38_validate_terminates _ Hb) as ([off|] & Hv); rewrite Hv.
  2: { exfalso. apply C38_validate_is_rfc3629 in Hv; [|done].
       assert (Hl : (0 < length rest)%nat) by (destruct He as [(_ & ? & _)|(_ & ?)]; lia).
       apply (error_maximal pre rest 0 (length (pre ++ rest)) Hp He).
       - rewrite app_length. lia.
       - by rewrite firstn_all. }
  destruct (C39_error_position_exact _ _ Hb Hv) as (pre' & rest' & j & E & Hp' & He' & ->).
  assert (Hpp : length pre' = length pre).
  { destruct (lt_eq_lt_dec (length pre') (length pre)) as [[Hlt|]|Hlt]; [|done|].
    - exfalso. apply (error_maximal pre' rest' j (length pre) Hp' He').
      + rewrite <-E, app_length. lia.
      + by rewrite <-E, take_app.
    - exfalso. apply (error_maximal pre rest 0 (length pre') Hp He).
      + rewrite E, app_length. lia.
      + by rewrite E, take_app. }
  destruct (app_inj_1 pre pre' rest rest' (eq_sym Hpp) E) as [<- <-].
  assert (j = 0)%nat as ->; [|by rewrite Nat.add_0_r].
  clear -He He' . destruct He as [(H1 & H2 & H3)|(H1 & H2)], He' as [(K1 & K2 & K3)|(K1 & K2)]; try lia.
  - destruct j as [|j]; [done|]. exfalso. apply H3. destruct rest as [|b rest]; [simpl in *; lia|].
    simpl in *. rewrite take_0. destruct K1 as (c & d & t & Hc & E).
    exists c, (take j rest ++ d :: t). split; [done|]. by rewrite E.
  - exfalso. apply H3. destruct rest as [|b rest]; [simpl in *; lia|]. simpl. rewrite take_0.
    destruct K1 as (c & d & t & Hc & E). exists c, (rest ++ d :: t). split; [done|]. by rewrite E.
Qed.
Example C39_ex : valid_utf8 [0x61; 0xC3; 0xA9] /\ error_at [0xFF; 0x62] 0 /\
  utf8_validate [0x61; 0xC3; 0xA9; 0xFF; 0x62] = Ok (Some 3).
Proof.
  split; [|split; [|reflexivity]].
  - exists [0x61; 0xE9]. split; [|reflexivity]. repeat constructor; unfold scalar; lia.
  - left. split; [apply begun_nil|]. split; [simpl; lia|]. rewrite starts_shape. simpl.
    intros (t & Hs). inversion Hs; lia.
Qed.

Theorem C39_refuted : ~ C39_full.
Proof.
  intros H. destruct (H [0xC2; 0x41] 1) as [(cs & Hcs & E) _].
  - repeat constructor; unfold byte; lia.
  - reflexivity.
  - simpl in E. destruct cs as [|c cs]; [done|]. inversion Hcs as [|? ? Hc _]; subst.
    rewrite encs_cons in E. pose proof (enc_shape c Hc) as Hs.
    destruct Hs as [|? ?| | ]; simpl in E; try discriminate E; injection E as <- _; lia.
Qed.

(** ** C40 *)

(** Full statement: every valid string, [m] calls past the end. *)
Definition C40_full : Prop := forall cs m,
  Forall scalar cs ->
  utf8_chars (length cs + m) (encs cs) = Ok ((Some <$> (enc <$> cs)) ++ replicate m None, []).

Lemma utf8_next_enc c rest :
  scalar c -> c <> 0x7F -> utf8_next (enc c ++ rest) = Ok (Some (enc c), rest).
Proof.
  intros Hc Hne. pose proof (enc_shape c Hc) as Hs.
  assert (Hd : enc c <> [0x7F]).
  { intros E. apply Hne. unfold enc in E.
    destruct (N.ltb_spec c 0x80); [by injection E|].
    destruct (N.ltb_spec c 0x800); [done|]. by destruct (N.ltb_spec c 0x10000). }
  destruct Hs as [x H|x y H1 H2|x y z H1 H2 H3 H4 H5|x y z w H1 H2 H3 H4 H5 H6]; simpl.
  - destruct (N.ltb_spec x 0x7F); [done|]. exfalso. apply Hd. f_equal. lia.
  - destruct (N.ltb_spec x 0x7F); [lia|]. destruct (N.ltb_spec x 0xE0); [done|lia].
  - destruct (N.ltb_spec x 0x7F); [lia|]. destruct (N.ltb_spec x 0xE0); [lia|].
    destruct (N.ltb_spec x 0xF0); [done|lia].
  - destruct (N.ltb_spec x 0x7F); [lia|]. destruct (N.ltb_spec x 0xE0); [lia|].
    destruct (N.ltb_spec x 0xF0); [lia|done].
Qed.

(** Missing: strings containing U+007F. *)
Theorem C40_chars_partial cs m :
  Forall scalar cs -> 0x7F ∉ cs ->
  utf8_chars (length cs + m) (encs cs) = Ok ((Some <$> (enc <$> cs)) ++ replicate m None, []).
Proof.
  induction cs as [|c cs IH]; intros Hcs Hd.
  { change (encs []) with (@nil N). simpl. clear. induction m as [|m IHm]; simpl; [done|]. by rewrite IHm. }
  inversion Hcs as [|? ? Hc Hcs']; subst. apply not_elem_of_cons in Hd as [Hd Hd'].
  rewrite encs_cons. cbn [length Nat.add utf8_chars].
  rewrite utf8_next_enc by (try done; congruence). by rewrite IH.
Qed.
(** With U+007F: at the end of the string the decoder reads past the end;
    otherwise it glues the next byte to it. *)
Theorem C40_refuted_at_end cs m :
  Forall scalar cs -> 0x7F ∉ cs ->
  utf8_chars (length cs + 1 + m) (encs (cs ++ [0x7F])) = Err UB.
Proof.
  induction cs as [|c cs IH]; intros Hcs Hd; [done|].
  inversion Hcs as [|? ? Hc Hcs']; subst. apply not_elem_of_cons in Hd as [Hd Hd'].
  rewrite <-app_comm_cons, encs_cons. cbn [length Nat.add utf8_chars].
  rewrite utf8_next_enc by (try done; congruence). by rewrite IH.
Qed.
Theorem C40_refuted : ~ C40_full.
Proof.
  intros H. pose proof (H [0x7F] 0%nat ltac:(repeat constructor; unfold scalar; lia)) as E. discriminate E.
Qed.
Theorem C40_refuted_inside b rest :
  b < 0x80 -> utf8_next (enc 0x7F ++ b :: rest) = Ok (Some [0x7F; b], rest).
Proof. done. Qed.
(** The guard cannot be dropped for any string: U+007F anywhere makes [chars()]
    hand out something else, or run past the end. *)
Theorem C40_exact cs : Forall scalar cs ->
  (utf8_chars (length cs) (encs cs) = Ok (Some <$> (enc <$> cs), []) <-> 0x7F ∉ cs).
Proof.
  intros Hcs. split.
  - induction cs as [|c cs IH]; [intros _; apply not_elem_of_nil|].
    inversion Hcs as [|? ? Hc Hcs']; subst. rewrite encs_cons. cbn [length utf8_chars].
    destruct (decide (c = 0x7F)) as [->|Hd].
    + change (enc 0x7F) with [0x7F]. destruct (encs cs) as [|b r]; [done|]. cbn.
      destruct (utf8_chars (length cs) r) as [[? ?]|]; [|done]. by intros [=].
    + rewrite utf8_next_enc by done. destruct (utf8_chars (length cs) (encs cs)) as [[ds r]|] eqn:E; [|done].
      cbn [fmap list_fmap]. intros [= -> ->]. apply not_elem_of_cons. split; [congruence|]. by apply IH.
  - intros Hd. pose proof (C40_chars_partial cs 0 Hcs Hd) as H. by rewrite Nat.add_0_r, app_nil_r in H.
Qed.
(** On any bytes at all, what is handed out is the string cut into pieces: no
    byte is lost, repeated or moved. *)
Theorem C40_pieces n bs ds r : utf8_chars n bs = Ok (ds, r) -> concat (omap id ds) ++ r = bs.
Proof.
  revert bs ds r. induction n as [|n IH]; intros bs ds r; cbn [utf8_chars]; [by intros [= <- <-]|].
  destruct (utf8_next bs) as [[c bs']|] eqn:E; [|done].
  destruct (utf8_chars n bs') as [[ds' r']|] eqn:E'; [|done]. intros [= <- <-]. apply IH in E'.
  revert E. unfold utf8_next. repeat case_match; intros [= <- <-]; try subst; cbn; congruence.
Qed.
Example C40_ex :
  Forall scalar [0x68; 0xE9; 0x20AC; 0x10348] /\ not (0x7F ∈ [0x68; 0xE9; 0x20AC; 0x10348]) /\
  utf8_chars 5 (encs [0x68; 0xE9; 0x20AC; 0x10348]) =
    Ok ([Some [0x68]; Some [0xC3; 0xA9]; Some [0xE2; 0x82; 0xAC]; Some [0xF0; 0x90; 0x8D; 0x88]; None], []).
Proof.
  split; [repeat constructor; unfold scalar; lia|]. split; [|reflexivity].
  rewrite !not_elem_of_cons. repeat split; try lia. apply not_elem_of_nil.
Qed.

(** ** C41 *)
Lemma not_cont_spec b : byte b -> (-0x40 <=? as_i8 b)%Z = negb (is_cont b).
Proof. intros Hb. unfold is_cont. lia. Qed.

Lemma boundary_bytes cs : forall i b,
  Forall scalar cs -> encs cs !! i = Some b ->
  (is_cont b = false <-> exists k, (k < length cs)%nat /\ i = length (encs (take k cs))).
Proof.
  induction cs as [|c cs IH]; intros i b Hcs Hi; [done|].
  inversion Hcs as [|? ? Hc Hcs']; subst. rewrite encs_cons in Hi.
  pose proof (enc_len c Hc) as Hlen.
  destruct (decide (i < length (enc c))%nat) as [Hlt|Hge].
  - rewrite lookup_app_l in Hi by done.
    assert (Hi0 : is_cont b = false <-> i = 0%nat).
    { pose proof (enc_shape c Hc) as Hs.
      assert (Hbb : byte b). { eapply Forall_lookup_1; [apply (enc_bytes c Hc)|done]. }
      rewrite is_cont_spec by done.
      destruct Hs as [x H|x y H1 H2|x y z H1 H2 H3 H4 H5|x y z w H1 H2 H3 H4 H5 H6];
        destruct i as [|[|[|[|i]]]]; simpl in Hi; try discriminate Hi; injection Hi as <-;
        split; intros; first [done | lia]. }
    rewrite Hi0. split.
    + intros ->. exists 0%nat. simpl. split; [lia|done].
    + intros (k & Hk & E). destruct k as [|k]; [done|]. simpl in E. rewrite encs_cons, app_length in E. lia.
  - rewrite lookup_app_r in Hi by lia. rewrite (IH _ _ Hcs' Hi). split.
    + intros (k & Hk & E). exists (S k). simpl. rewrite encs_cons, app_length. split; lia.
    + intros (k & Hk & E). destruct k as [|k]; [simpl in E; lia|].
      simpl in E. rewrite encs_cons, app_length in E. exists k. simpl in Hk. split; lia.
Qed.

Lemma last_take_drop {A} (bs : list A) s n x :
  bs !! (s + n)%nat = Some x -> last (take (S n) (drop s bs)) = Some x.
Proof.
  intros H. rewrite <-lookup_drop in H.
  rewrite last_lookup, take_length.
  assert (n < length (drop s bs))%nat by (by eapply lookup_lt_Some).
  rewrite Nat.min_l by lia. simpl. by rewrite lookup_take by lia.
Qed.

Theorem C41_char_boundary cs (i : N) :
  Forall scalar cs ->
  exists r, str_is_boundary (encs cs) i = Ok r /\
    (r = true <-> exists k, (k <= length cs)%nat /\ i = N.of_nat (length (encs (take k cs)))).
Proof.
  intros Hcs. unfold str_is_boundary.
  destruct (N.eqb_spec i 0) as [->|Hi0].
  { exists true. split; [done|]. split; [|done]. intros _. exists 0%nat. simpl. split; [lia|done]. }
  assert (Hmono : forall k, (length (encs (take k cs)) <= length (encs cs))%nat).
  { intros k. rewrite <-(take_drop k cs) at 2. rewrite encs_app, app_length. lia. }
  destruct (N.leb_spec (N.of_nat (length (encs cs))) i) as [Hge|Hlt].
  { eexists. split; [reflexivity|]. rewrite N.eqb_eq. split.
    - intros ->. exists (length cs). by rewrite firstn_all.
    - intros (k & Hk & ->). specialize (Hmono k). lia. }
  destruct (lookup_lt_is_Some_2 (encs cs) (N.to_nat i) ltac:(lia)) as (b & Hb).
  assert (Hbb : byte b).
  { eapply Forall_lookup_1; [|done]. clear -Hcs. induction Hcs; [constructor|].
    rewrite encs_cons. apply Forall_app. split; [by apply enc_bytes|done]. }
  set (s := if 4 <? i then i - 4 else 0).
  unfold utf8_is_boundary.
  assert (Hl : last (take (N.to_nat (i + 1 - s)) (drop (N.to_nat s) (encs cs))) = Some b).
  { assert (s <= i) by (unfold s; destruct (4 <? i); lia).
    replace (N.to_nat (i + 1 - s)) with (S (N.to_nat (i - s))) by lia.
    apply last_take_drop. by replace (N.to_nat s + N.to_nat (i - s))%nat with (N.to_nat i) by lia. }
  rewrite Hl. rewrite not_cont_spec by done. eexists. split; [reflexivity|].
  rewrite negb_true_iff. rewrite (boundary_bytes cs _ _ Hcs Hb). split.
  - intros (k & Hk & E). exists k. split; [lia|]. lia.
  - intros (k & Hk & E). exists k. split; [|lia].
    destruct (decide (k = length cs)) as [->|]; [|lia]. rewrite firstn_all in E. lia.
Qed.
Example C41_ex :
  str_is_boundary (encs [0x68; 0x20AC; 0x7F]) 1 = Ok true /\
  str_is_boundary (encs [0x68; 0x20AC; 0x7F]) 2 = Ok false /\
  str_is_boundary (encs [0x68; 0x20AC; 0x7F]) 4 = Ok true /\
  str_is_boundary (encs [0x68; 0x20AC; 0x7F]) 6 = Ok false.
Proof. by vm_compute. Qed.

(** ** C42 *)
Definition C42_full : Prop := forall bs, Forall byte bs ->
  (ascii_validate bs = None <-> Forall (fun b => b < 128) bs) /\
  forall p, ascii_validate bs = Some p ->
    Forall (fun b => b < 128) (take (N.to_nat p) bs) /\
    exists b, bs !! N.to_nat p = Some b /\ 128 <= b.

(** The exact behaviour: the limit is 128 inclusive. *)
Lemma ascii_loop_exact bs : forall pos,
  match ascii_loop pos bs with
  | None => Forall (fun b => b <= 128) bs
  | Some p => exists l b r, bs = l ++ b :: r /\ Forall (fun b => b <= 128) l /\ 128 < b /\
                            p = pos + N.of_nat (length l)
  end.
Proof.
  induction bs as [|x bs IH]; intros pos; simpl; [constructor|].
  destruct (N.ltb_spec 128 x).
  { exists [], x, bs. split; [done|]. split; [constructor|]. split; [done|]. simpl. lia. }
  specialize (IH (pos + 1)). destruct (ascii_loop (pos + 1) bs) as [p|].
  - destruct IH as (l & b & r & -> & Hl & Hb & ->). exists (x :: l), b, r.
    split; [done|]. split; [by constructor|]. split; [done|]. simpl. lia.
  - by constructor.
Qed.
Theorem C42_exact (bs : list N) :
  match ascii_validate bs with
  | None => Forall (fun b => b <= 128) bs
  | Some p => exists l b r, bs = l ++ b :: r /\ Forall (fun b => b <= 128) l /\ 128 < b /\
                            p = N.of_nat (length l)
  end.
Proof. exact (ascii_loop_exact bs 0). Qed.
(** Missing: strings containing the byte 128. *)
Theorem C42_ascii_partial (bs : list N) :
  128 ∉ bs ->
  (ascii_validate bs = None <-> Forall (fun b => b < 128) bs) /\
  forall p, ascii_validate bs = Some p ->
    Forall (fun b => b < 128) (take (N.to_nat p) bs) /\
    exists b, bs !! N.to_nat p = Some b /\ 128 <= b.
Proof.
  intros Hn. pose proof (C42_exact bs) as H.
  assert (K : forall l, 128 ∉ l -> Forall (fun b => b <= 128) l -> Forall (fun b => b < 128) l).
  { intros l Hl HF. apply Forall_forall. intros b Hb. rewrite Forall_forall in HF.
    specialize (HF b Hb). assert (b <> 128) by (intros ->; done). lia. }
  destruct (ascii_validate bs) as [p|].
  - destruct H as (l & b & r & -> & Hl & Hb & ->). split.
    + split; [done|]. intros HF. apply Forall_app in HF as [_ HF]. inversion HF; subst. lia.
    + intros p [= <-]. rewrite Nat2N.id, take_app. split.
      * apply K; [|done]. intros Hi. apply Hn. apply elem_of_app. by left.
      * exists b. rewrite list_lookup_middle by done. split; [done|lia].
  - split; [|done]. split; [|done]. intros _. by apply K.
Qed.
Theorem C42_refuted : ~ C42_full.
Proof.
  intros H. destruct (H [128]) as [[H1 _] _]; [repeat constructor; unfold byte; lia|].
  specialize (H1 eq_refl). inversion H1; lia.
Qed.
Example C42_ex : not (128 ∈ [0x48; 0x69; 0xE9]) /\ ascii_validate [0x48; 0x69; 0xE9] = Some 2 /\
                 ascii_validate [0x48; 0x69] = None.
Proof.
  split; [|done]. rewrite !not_elem_of_cons. repeat split; try lia. apply not_elem_of_nil.
Qed.

Print Assumptions C38_validate_is_rfc3629.
Print Assumptions C38_validate_terminates.
Print Assumptions C39_error_position_exact.
Print Assumptions C39_error_position_partial.
Print Assumptions C39_error_at_lead_partial.
Print Assumptions C39_refuted.
Print Assumptions C40_chars_partial.
Print Assumptions C40_exact.
Print Assumptions C40_pieces.
Print Assumptions C40_refuted_at_end.
Print Assumptions C40_refuted_inside.
Print Assumptions C40_refuted.
Print Assumptions C41_char_boundary.
Print Assumptions C42_exact.
Print Assumptions C42_ascii_partial.
Print Assumptions C42_refuted.
