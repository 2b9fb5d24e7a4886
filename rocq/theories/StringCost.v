(** * StringCost: how much appending to a string moves (C81) *)
From Verif Require Import Base World Machine Utf8Model StringModel StringProofs StringProps StringExact.
Local Open Scope N_scope.
Ltac Zify.zify_post_hook ::= Z.to_euclidean_division_equations.

(** ** What is counted *)
(** Where the bytes of a string are: in the object ([None]) or in a buffer. *)
Definition home (s : str) : option N := if 16 <? s_len s then s_ptr s else None.
(** The bytes of the string that one call took to another place. *)
Definition hauled (i : nat) (w w' : world sblk str) : N :=
  match w_vars w !! i, w_vars w' !! i with
  | Some s, Some s' => if decide (home s = home s') then 0 else s_len s
  | _, _ => 0
  end.
Fixpoint hauled_all (strict : bool) (i : nat) (ops : list sop) (w : world sblk str) : N :=
  match ops with
  | [] => 0
  | o :: r =>
      match str_step strict o w with
      | Ok (_, w') => hauled i w w' + hauled_all strict i r w'
      | Err _ => 0
      end
  end.
(** Editing string [i]: the bytes a call adds; [None] for any other call. *)
Definition edits (i : nat) (o : sop) : option N :=
  match o with
  | SPush j ch | SInsert j ch _ => if decide (i = j) then Some (nlen ch) else None
  | SPop j | SSize j | SBytes j | SPrint j | SBoundary j _ => if decide (i = j) then Some 0 else None
  | _ => None
  end.
Definition added (i : nat) (ops : list sop) : N := foldr N.add 0 (omap (edits i) ops).

(** ** What one call does *)
Definition hn {X} (m : M (heap sblk) X) : Prop := forall h x h', m h = Ok (x, h') -> hnext h' = hnext h.
Lemma hn_ret {X} (x : X) : hn (ret x).
Proof. by intros h y h' [= <- <-]. Qed.
Lemma hn_fail {X} e : hn (fail (A := X) e).
Proof. by intros h y h' [=]. Qed.
Lemma hn_bind {X Y} (m : M (heap sblk) X) (f : X -> M (heap sblk) Y) : hn m -> (forall x, hn (f x)) -> hn (bind m f).
Proof.
  intros Hm Hf h y h' (x & h1 & E & E2)%bind_inv. apply Hm in E. apply Hf in E2. congruence.
Qed.
Lemma hn_read a : hn (hread a).
Proof. intros h c h'. unfold hread. destruct (hmap h !! a); [|done]. by intros [= <- <-]. Qed.
Lemma hn_write a c : hn (hwrite a c).
Proof. intros h c' h'. unfold hwrite. destruct (hmap h !! a) eqn:E; [|done]. by intros [= <- <-]. Qed.
Lemma hn_free a : hn (hfree a).
Proof. intros h c' h'. unfold hfree. destruct (hmap h !! a) eqn:E; [|done]. by intros [= <- <-]. Qed.
Lemma hn_or_ub {X} (o : option X) : hn (or_ub o).
Proof. destruct o; [apply hn_ret|apply hn_fail]. Qed.
Local Hint Resolve hn_ret hn_fail hn_read hn_write hn_free hn_or_ub : hn.
Ltac hns := repeat (intros; first [solve [auto 2 with hn nocore] | apply hn_bind | case_match]).
Lemma hn_read_loc s p off n : hn (read_loc s p off n). Proof. unfold read_loc. hns. Qed.
Lemma hn_write_loc s p off bs : hn (write_loc s p off bs). Proof. unfold write_loc. hns. Qed.
Lemma hn_get_cap s : hn (get_cap s). Proof. unfold get_cap. hns. Qed.
Lemma hn_s_free p c : hn (s_free p c). Proof. unfold s_free. hns. Qed.
Local Hint Resolve hn_read_loc hn_write_loc hn_get_cap hn_s_free : hn.
Lemma hn_free_src s i : hn (free_src s i). Proof. unfold free_src. hns. Qed.
Lemma hn_boundary s idx : hn (str_boundary s idx). Proof. unfold str_boundary. hns. Qed.
Lemma hn_bytes s : hn (str_bytes s). Proof. unfold str_bytes. hns. Qed.
Lemma hn_print s : hn (str_print s). Proof. unfold str_print. hns. Qed.
Lemma hn_pop s : hn (str_pop s). Proof. unfold str_pop. hns. Qed.

Inductive how (s : str) (h : heap sblk) (s' : str) (h' : heap sblk) : Prop :=
| Stays : hnext h' = hnext h -> home s' = home s ->
    (16 < s_len s -> 16 < s_len s' /\ exists c, s_store s = UCap c /\ s_store s' = UCap c) ->
    (s_len s <= 16 -> s_len s' <= 16) -> how s h s' h'
| Grows : hnext h' = hnext h + 1 -> 16 < s_len s' ->
    s_store s' = UCap (uadd (s_len s') (s_len s' / 2)) ->
    (16 < s_len s -> exists c, s_store s = UCap c /\ c < s_len s') -> how s h s' h'.

Lemma s_alloc_shape n h p h' : s_alloc n h = Ok (p, h') -> p = None \/ hnext h' = hnext h + 1.
Proof.
  unfold s_alloc. rewrite hnew_endless. destruct (n <=? alloc_max); [|intros [= <- <-]; by left].
  intros (a & h3 & [= <- <-] & [= <- <-])%bind_inv. by right.
Qed.
Lemma try_alloc_shape s n h s1 i h1 : s_len s <= n -> try_alloc s n h = Ok ((s1, i), h1) ->
  s_len s1 = s_len s /\
  ((ai_new i = false /\ s1 = s /\ h1 = h /\
    ((16 < s_len s /\ ai_des i = LHeap (s_ptr s) /\ exists c, s_store s = UCap c) \/
     (s_len s <= 16 /\ ai_des i = LLocal /\ n <= 16))) \/
   (ai_new i = true /\ ai_cap i = uadd n (n / 2) /\ ai_des i = LHeap (s_ptr s1) /\ 16 < n /\
    (s_ptr s1 = None \/ hnext h1 = hnext h + 1) /\
    (16 < s_len s -> exists c, s_store s = UCap c /\ c < n))).
Proof.
  intros Hle. unfold try_alloc, LOCAL. destruct (N.ltb_spec 16 (s_len s)) as [Hl|Hl].
  - intros (c & h0 & E0 & E)%bind_inv. unfold get_cap in E0.
    destruct (s_store s) as [l|c'] eqn:Es; [done|]. injection E0 as <- <-.
    destruct (N.ltb_spec c' n) as [Hc|Hc].
    + apply bind_inv in E as (p & h2 & E2 & [= <- <- <-]). split; [done|]. right.
      do 3 (split; [done|]). split; [lia|]. split; [|eauto].
      by eapply s_alloc_shape.
    + injection E as <- <- <-. split; [done|]. left. do 3 (split; [done|]). left. eauto.
  - destruct (N.ltb_spec 16 n) as [Hc|Hc].
    + intros (p & h2 & E2 & [= <- <- <-])%bind_inv. split; [done|]. right.
      do 3 (split; [done|]). split; [lia|]. split; [|lia]. by eapply s_alloc_shape.
    + intros [= <- <- <-]. split; [done|]. left. do 3 (split; [done|]). right. done.
Qed.

Lemma home_eq (s s' : str) : (16 < s_len s <-> 16 < s_len s') -> s_ptr s' = s_ptr s -> home s' = home s.
Proof. intros H E. unfold home. rewrite E. destruct (N.ltb_spec 16 (s_len s)), (N.ltb_spec 16 (s_len s')); by (done || lia). Qed.

Lemma push_shape s ch h s' h' : s_len s <= uadd (s_len s) (nlen ch) -> str_push s ch h = Ok (s', h') ->
  s_len s' = uadd (s_len s) (nlen ch) /\ how s h s' h'.
Proof.
  intros Hle. unfold str_push. set (n := uadd (s_len s) (nlen ch)) in *.
  intros ([s1 i] & h1 & E1 & E)%bind_inv. apply bind_inv in E as (s2 & h2 & E2 & E).
  apply bind_inv in E as (s3 & h3 & E3 & [= <- <-]).
  destruct (try_alloc_shape _ _ _ _ _ _ Hle E1) as [Hl1 [(Hn & -> & -> & Hc)|(Hn & Hcap & Hd & H16 & Hp & Hc)]];
    rewrite Hn in E2; split; try done.
  - injection E2 as <- <-. pose proof (hn_write_loc _ _ _ _ _ _ _ E3) as Hh.
    destruct Hc as [(Hl & Hd & c & Hs)|(Hl & Hd & Hn16)]; rewrite Hd in E3.
    + apply write_heap_same in E3 as ->. apply Stays; cbn [s_len s_store]; [done| | |lia].
      * apply home_eq; cbn [s_len s_ptr]; [lia|done].
      * intros _. split; [lia|eauto].
    + apply write_loc_same in E3 as [_ Ep]. apply Stays; cbn [s_len s_store]; [done| |lia|done].
      apply home_eq; cbn [s_len s_ptr]; [lia|done].
  - apply bind_inv in E2 as (bs & h4 & E4 & E2). apply bind_inv in E2 as (s5 & h5 & E5 & E2).
    apply bind_inv in E2 as ([] & h6 & E6 & [= <- <-]).
    rewrite Hd in E3, E5. pose proof (hn_write_loc _ _ _ _ _ _ _ E3). pose proof (hn_write_loc _ _ _ _ _ _ _ E5).
    pose proof (hn_read_loc _ _ _ _ _ _ _ E4). pose proof (hn_free_src _ _ _ _ _ E6).
    destruct Hp as [Hp|Hp]; [by rewrite Hp in E5|].
    apply write_heap_same in E3 as ->. apply Grows; cbn [s_len s_store]; [lia|done|by rewrite Hcap|done].
Qed.

Lemma insert_shape s ch idx h s' h' : s_len s <= uadd (s_len s) (nlen ch) -> str_insert s ch idx h = Ok (s', h') ->
  s_len s' = uadd (s_len s) (nlen ch) /\ how s h s' h'.
Proof.
  intros Hle. unfold str_insert. set (n := uadd (s_len s) (nlen ch)) in *.
  intros (b & h0 & Eb & E)%bind_inv. pose proof (hn_boundary _ _ _ _ _ Eb). destruct b; [|done]. cbn [negb] in E.
  apply bind_inv in E as ([s1 i] & h1 & E1 & E). apply bind_inv in E as (s2 & h2 & E2 & [= <- <-]).
  destruct (try_alloc_shape _ _ _ _ _ _ Hle E1) as [Hl1 [(Hn & -> & -> & Hc)|(Hn & Hcap & Hd & H16 & Hp & Hc)]];
    rewrite Hn in E2; split; try done.
  - apply bind_inv in E2 as (b2 & h3 & E3 & E2). apply bind_inv in E2 as (t1 & h4 & E4 & E2).
    pose proof (hn_write_loc _ _ _ _ _ _ _ E2). pose proof (hn_write_loc _ _ _ _ _ _ _ E4).
    pose proof (hn_read_loc _ _ _ _ _ _ _ E3).
    destruct Hc as [(Hl & Hd & c & Hs)|(Hl & Hd & Hn16)]; rewrite Hd in E2, E4.
    + apply write_heap_same in E2 as ->, E4 as ->. apply Stays; cbn [s_len s_store]; [congruence| | |lia].
      * apply home_eq; cbn [s_len s_ptr]; [lia|done].
      * intros _. split; [lia|eauto].
    + apply write_loc_same in E2 as [_ Ep], E4 as [_ Ep']. apply Stays; cbn [s_len s_store]; [congruence| |lia|done].
      apply home_eq; cbn [s_len s_ptr]; [lia|congruence].
  - apply bind_inv in E2 as (b1 & h3 & E3 & E2). apply bind_inv in E2 as (t1 & h4 & E4 & E2).
    apply bind_inv in E2 as (t2 & h5 & E5 & E2). apply bind_inv in E2 as (b2 & h6 & E6 & E2).
    apply bind_inv in E2 as (t3 & h7 & E7 & E2). apply bind_inv in E2 as ([] & h8 & E8 & [= <- <-]).
    rewrite Hd in E4, E5, E7.
    pose proof (hn_write_loc _ _ _ _ _ _ _ E4). pose proof (hn_write_loc _ _ _ _ _ _ _ E5). pose proof (hn_write_loc _ _ _ _ _ _ _ E7).
    pose proof (hn_read_loc _ _ _ _ _ _ _ E3). pose proof (hn_read_loc _ _ _ _ _ _ _ E6). pose proof (hn_free_src _ _ _ _ _ E8).
    destruct Hp as [Hp|Hp]; [by rewrite Hp in E4|].
    apply Grows; cbn [s_len s_store]; [lia|done|by rewrite Hcap|done].
Qed.

Lemma pop_shape s h s' x h' : s_len s <> 17 -> str_pop s h = Ok ((s', x), h') ->
  (16 < s_len s -> exists c, s_store s = UCap c) ->
  s_len s' <= s_len s /\ how s h s' h'.
Proof.
  intros H17 E Hc. pose proof (hn_pop _ _ _ _ E) as Hh. unfold str_pop in E.
  destruct (N.eqb_spec (s_len s) 0) as [H0|H0].
  { injection E as <- <- <-. split; [lia|]. apply Stays; [done..| |done]. intros Hl. split; [done|].
    destruct (Hc Hl) as [c ?]. eauto. }
  apply bind_inv in E as (bs & h1 & _ & E). destruct bs as [|b [|]]; [done| |done]. injection E as <- <- <-.
  cbn [s_len]. split; [lia|]. apply Stays; cbn [s_len s_store]; [done| | |lia].
  - apply home_eq; cbn [s_len s_ptr]; [lia|done].
  - intros Hl. split; [lia|]. destruct (Hc Hl) as [c ?]. eauto.
Qed.

(** ** Histories of edits *)
Section Cost.
  Context (strict : bool).
  Notation step := (str_step strict).
  Notation rel := (StringProps.rel).

  Lemma rel_str sp w i bs : rel sp w -> sp !! i = Some bs ->
    exists s, w_vars w !! i = Some s /\ s_len s = nlen bs /\ (16 < s_len s -> exists c, s_store s = UCap c) /\ fits bs.
  Proof.
    intros [m Hw] Hi. destruct (world_ok_lookup_spec _ _ _ _ _ _ Hw Hi) as (e & Hm & <- & Hv & Hr).
    exists (e_o e). split; [done|]. pose proof (srep_len _ _ _ _ Hr). split; [done|]. split; [|by eapply srep_fits].
    inversion Hr; subst; simpl; [lia|eauto].
  Qed.

  Lemma edit_step sp w i bs o a sp' x : rel sp w -> sp !! i = Some bs -> edits i o = Some a ->
    gspec strict sp o = SOk sp' x ->
    exists w' s s' bs', step o w = Ok (x, w') /\ rel sp' w' /\ sp' !! i = Some bs' /\
      w_vars w !! i = Some s /\ w_vars w' !! i = Some s' /\ s_len s = nlen bs /\ s_len s' = nlen bs' /\
      nlen bs' <= nlen bs + a /\ fits bs' /\ how s (w_heap w) s' (w_heap w').
  Proof.
    intros Hr Hi Ha Hs. pose proof (str_step_refines strict sp w o Hr) as Hag. rewrite Hs in Hag.
    destruct Hag as (w' & E & Hr'). destruct (rel_str _ _ _ _ Hr Hi) as (s & Hv & Hl & Hc & Hf).
    unfold gspec in Hs. destruct (safe strict sp o) eqn:Hsafe; [|done].
    assert (forall (f : str -> M (heap sblk) str) bs', s_upd i f w = Ok (x, w') -> sp' = <[i := bs']> sp ->
      (forall s1 h1, f s (w_heap w) = Ok (s1, h1) -> how s (w_heap w) s1 h1) -> nlen bs' <= nlen bs + a ->
      exists w' s s' bs', step o w = Ok (x, w') /\ rel sp' w' /\ sp' !! i = Some bs' /\
      w_vars w !! i = Some s /\ w_vars w' !! i = Some s' /\ s_len s = nlen bs /\ s_len s' = nlen bs' /\
      nlen bs' <= nlen bs + a /\ fits bs' /\ how s (w_heap w) s' (w_heap w')) as Hupd.
    { intros f bs' Eu -> Hhow Hlen. unfold s_upd, bind, wget, lift in Eu. rewrite Hv in Eu.
      destruct (f s (w_heap w)) as [[s1 h1]|] eqn:Ef; [|done]. injection Eu as <- <-. simpl in *.
      destruct (rel_str _ _ i bs' Hr' (lookup_insert _ _ _)) as (s' & Hv' & Hl' & _ & Hf').
      simpl in Hv'. rewrite lookup_insert in Hv'. injection Hv' as <-.
      eexists _, s, s1, bs'. split; [exact E|]. split; [done|]. split; [by rewrite lookup_insert|].
      split; [done|]. split; [simpl; by rewrite lookup_insert|]. do 4 (split; [done|]). by apply Hhow. }
    assert (sp' = sp -> w_vars w' = w_vars w -> hnext (w_heap w') = hnext (w_heap w) ->
      exists w' s s' bs', step o w = Ok (x, w') /\ rel sp' w' /\ sp' !! i = Some bs' /\
      w_vars w !! i = Some s /\ w_vars w' !! i = Some s' /\ s_len s = nlen bs /\ s_len s' = nlen bs' /\
      nlen bs' <= nlen bs + a /\ fits bs' /\ how s (w_heap w) s' (w_heap w')) as Hobs.
    { intros -> Ev Eh. exists w', s, s, bs. split; [done|]. split; [done|]. do 2 (split; [done|]).
      split; [by rewrite Ev|]. do 2 (split; [done|]). split; [lia|]. split; [done|].
      apply Stays; [done|done| |done]. intros H. split; [done|]. destruct (Hc H) as [c ?]. eauto. }
    assert (forall X (f : str -> M (heap sblk) X) g, s_obs i f g w = Ok (x, w') -> (forall s, hn (f s)) ->
      w_vars w' = w_vars w /\ hnext (w_heap w') = hnext (w_heap w)) as Hob.
    { intros X f g Eo Hn. unfold s_obs, bind, wget, lift in Eo. rewrite Hv in Eo.
      destruct (f s (w_heap w)) as [[y h1]|] eqn:Ef; [|done]. injection Eo as _ <-. simpl. split; [done|]. by eapply Hn. }
    destruct o as [| | | | | |j ch|j ch idx|j|j|j|j|j idx|]; simpl in Ha; try done;
      (destruct (decide (i = j)) as [<-|]; [|done]); injection Ha as <-; simpl in Hs, E; unfold look, give in Hs;
      rewrite Hi in Hs.
    - destruct (decide (fits (bs ++ ch))) as [Hfit|]; [|done]. injection Hs as <- <-.
      eapply Hupd; [exact E|done| |rewrite app_length; lia]. intros s1 h1 E1. eapply push_shape; [|exact E1].
      unfold fits in Hfit. rewrite app_length in Hfit. rewrite Hl, uadd_fits; lia.
    - destruct (cut_ok bs idx) eqn:Ec; [|done]. destruct (decide (fits _)) as [Hfit|]; [|done]. injection Hs as <- <-.
      pose proof (cut_ok_le _ _ Ec).
      assert (length (take (N.to_nat idx) bs ++ ch ++ drop (N.to_nat idx) bs) = (length bs + length ch)%nat) as Hlen
        by (rewrite !app_length, take_length, drop_length; lia).
      eapply Hupd; [exact E|done| |rewrite Hlen; lia]. intros s1 h1 E1. eapply insert_shape; [|exact E1].
      unfold fits in Hfit. rewrite Hlen in Hfit. rewrite Hl, uadd_fits; lia.
    - unfold bind, wget, lift in E. rewrite Hv in E. simpl in Hsafe. rewrite Hi in Hsafe.
      destruct (str_pop s (w_heap w)) as [[[s1 y] h1]|] eqn:Ep; [|done]. injection E as E0 E1.
      assert (s_len s <> 17) as H17.
      { rewrite Hl. intros H. assert (length bs = 17%nat) as H' by lia. by rewrite H' in Hsafe. }
      destruct (pop_shape _ _ _ _ _ H17 Ep Hc) as [Hle Hhow].
      destruct (last bs) as [b|] eqn:El; injection Hs as <- <-.
      + destruct (rel_str _ _ i _ Hr' (lookup_insert _ _ _)) as (s' & Hv' & Hl' & _ & Hf').
        rewrite <-E1 in Hv'. simpl in Hv'. rewrite lookup_insert in Hv'. injection Hv' as <-.
        eexists w', s, s1, _. split.
        { simpl. unfold bind, wget, lift. rewrite Hv, Ep. simpl. by rewrite E0, <-E1. }
        split; [done|]. split; [by rewrite lookup_insert|]. split; [done|].
        split; [rewrite <-E1; simpl; by rewrite lookup_insert|]. do 2 (split; [done|]). split; [lia|].
        split; [done|]. by rewrite <-E1.
      + destruct (rel_str _ _ i _ Hr' Hi) as (s' & Hv' & Hl' & _ & Hf').
        rewrite <-E1 in Hv'. simpl in Hv'. rewrite lookup_insert in Hv'. injection Hv' as <-.
        exists w', s, s1, bs. split.
        { simpl. unfold bind, wget, lift. rewrite Hv, Ep. simpl. by rewrite E0, <-E1. }
        split; [done|]. split; [done|]. split; [done|].
        split; [rewrite <-E1; simpl; by rewrite lookup_insert|]. do 2 (split; [done|]). split; [lia|].
        split; [done|]. by rewrite <-E1.
    - injection Hs as <- <-. destruct (Hob _ (fun s => ret (s_len s)) YNum E (fun s => hn_ret _)). by apply Hobs.
    - injection Hs as <- <-. destruct (Hob _ str_print YBytes E hn_print). by apply Hobs.
    - injection Hs as <- <-. destruct (Hob _ str_bytes YBytes E hn_bytes). by apply Hobs.
    - injection Hs as <- <-. destruct (Hob _ (fun s => str_boundary s idx) YBool E (fun s => hn_boundary s idx)). by apply Hobs.
  Qed.

  Lemma hauled_stays i w w' s s' : w_vars w !! i = Some s -> w_vars w' !! i = Some s' -> home s' = home s -> hauled i w w' = 0.
  Proof. intros H1 H2 H. unfold hauled. rewrite H1, H2, H. by destruct (decide (home s = home s)). Qed.
  Lemma hauled_le i w w' s : w_vars w !! i = Some s -> hauled i w w' <= s_len s.
  Proof. intros H1. unfold hauled. rewrite H1. destruct (w_vars w' !! i); [destruct (decide _)|]; lia. Qed.
  Lemma added_cons i o a ops : edits i o = Some a -> added i (o :: ops) = a + added i ops.
  Proof. intros H. unfold added. simpl. by rewrite H. Qed.

  (** After the bytes were moved when the string had [L1] of them; [a] were
      added since. *)
  Lemma cost_after i ops : Forall (fun o => is_Some (edits i o)) ops ->
    forall sp w bs sp' outs L1 a, rel sp w -> sp !! i = Some bs -> srun (gspec strict) sp ops = SOk sp' outs ->
    (exists s, w_vars w !! i = Some s /\ 16 < s_len s /\ s_store s = UCap (L1 + L1 / 2)) -> nlen bs <= L1 + a -> 16 < L1 ->
    exists w' bs' k, run_ops step ops w = Ok (outs, w') /\ rel sp' w' /\ sp' !! i = Some bs' /\
      nlen bs' <= L1 + a + added i ops /\
      hauled_all strict i ops w <= 3 * (a + added i ops) /\
      hnext (w_heap w') = hnext (w_heap w) + k /\ 3 ^ k * L1 <= 2 ^ k * (L1 + a + added i ops).
  Proof.
    induction ops as [|o ops IH]; intros Hall sp w bs sp' outs L1 a Hr Hi Hs (s & Hv & Hl16 & Hst) Hle HL1.
    { injection Hs as <- <-. exists w, bs, 0. split; [done|]. unfold added. simpl. split_and!; try done; lia. }
    apply Forall_cons in Hall as [[d Hd] Hall].
    simpl in Hs. destruct (gspec strict sp o) as [sp1 x| |] eqn:Eg; [|done|done].
    destruct (srun (gspec strict) sp1 ops) as [sp2 xs| |] eqn:Er; [|done|done]. injection Hs as -> <-.
    destruct (edit_step _ _ _ _ _ _ _ _ Hr Hi Hd Eg) as (w1 & s0 & s1 & bs1 & E1 & Hr1 & Hi1 & Hv0 & Hv1 & Hl0 & Hl1 & Hb1 & Hf1 & Hhow).
    rewrite Hv in Hv0. injection Hv0 as <-. rewrite (added_cons _ _ _ _ Hd).
    destruct Hhow as [Hn Hh Hc _|Hn H16 Hc Hgt].
    - destruct (Hc Hl16) as [Hl' (c & Hc1 & Hc2)]. rewrite Hst in Hc1. injection Hc1 as <-.
      destruct (IH Hall sp1 w1 bs1 sp' xs L1 (a + d) Hr1 Hi1 Er) as (w' & bs' & k & E & Hr' & Hi' & H1 & H2 & H3 & H4);
        [by exists s1|lia|done|].
      exists w', bs', k. simpl. unfold bind. rewrite E1, E, (hauled_stays _ _ _ _ _ Hv Hv1 Hh). split; [done|].
      split; [done|]. split; [done|]. split; [lia|]. split; [lia|]. split; [lia|].
      by replace (L1 + a + (d + added i ops)) with (L1 + (a + d) + added i ops) by lia.
    - destruct (Hgt Hl16) as (c & Hc1 & Hlt). rewrite Hst in Hc1. injection Hc1 as <-.
      rewrite uadd_cap in Hc by (rewrite Hl1; exact Hf1).
      destruct (IH Hall sp1 w1 bs1 sp' xs (s_len s1) 0 Hr1 Hi1 Er) as (w' & bs' & k & E & Hr' & Hi' & H1 & H2 & H3 & H4);
        [by exists s1|lia|done|].
      exists w', bs', (k + 1). simpl. unfold bind. rewrite E1, E. pose proof (hauled_le i w w1 s Hv). split; [done|].
      split; [done|]. split; [done|]. split; [lia|].
      assert (s_len s1 <= 3 * (a + d)) by lia. split; [lia|]. split; [lia|].
      rewrite !N.pow_add_r. change (3 ^ 1) with 3. change (2 ^ 1) with 2.
      assert (3 * L1 <= 2 * s_len s1) by lia.
      assert (3 ^ k * (3 * L1) <= 3 ^ k * (2 * s_len s1)) by (by apply N.mul_le_mono_l).
      assert (2 ^ k * (2 * (s_len s1 + 0 + added i ops)) <= 2 ^ k * (2 * (L1 + a + (d + added i ops)))) by (apply N.mul_le_mono_l; lia).
      lia.
  Qed.

  Lemma reached_rel sp w : reached strict sp w -> rel sp w.
  Proof.
    intros (ops & outs & Es & Er).
    pose proof (srun_refines (gspec strict) step rel (fun s st o H => str_step_refines strict s st o H) ops ∅ winit (world_ok_init srep)) as H.
    rewrite Es in H. destruct H as (w' & E & H). rewrite Er in E. by injection E as <-.
  Qed.

  Lemma cost_any i ops : Forall (fun o => is_Some (edits i o)) ops ->
    forall sp w bs sp' outs, rel sp w -> sp !! i = Some bs -> srun (gspec strict) sp ops = SOk sp' outs ->
    exists w' bs' k, run_ops step ops w = Ok (outs, w') /\ sp' !! i = Some bs' /\
      nlen bs' <= nlen bs + added i ops /\
      hauled_all strict i ops w <= nlen bs + 3 * added i ops /\
      hnext (w_heap w') = hnext (w_heap w) + k /\
      (k = 0 \/ 17 * 3 ^ (k - 1) <= 2 ^ (k - 1) * (nlen bs + added i ops)).
  Proof.
    induction ops as [|o ops IH]; intros Hall sp w bs sp' outs Hr Hi Hs.
    { injection Hs as <- <-. exists w, bs, 0. split; [done|]. unfold added. simpl. split_and!; try done; try lia. }
    apply Forall_cons in Hall as [[d Hd] Hall].
    simpl in Hs. destruct (gspec strict sp o) as [sp1 x| |] eqn:Eg; [|done|done].
    destruct (srun (gspec strict) sp1 ops) as [sp2 xs| |] eqn:Er; [|done|done]. injection Hs as -> <-.
    destruct (edit_step _ _ _ _ _ _ _ _ Hr Hi Hd Eg) as (w1 & s & s1 & bs1 & E1 & Hr1 & Hi1 & Hv & Hv1 & Hl0 & Hl1 & Hb1 & Hf1 & Hhow).
    rewrite (added_cons _ _ _ _ Hd).
    destruct Hhow as [Hn Hh Hc _|Hn H16 Hc Hgt].
    - destruct (IH Hall sp1 w1 bs1 sp' xs Hr1 Hi1 Er) as (w' & bs' & k & E & Hi' & H1 & H2 & H3 & H4).
      exists w', bs', k. simpl. unfold bind. rewrite E1, E, (hauled_stays _ _ _ _ _ Hv Hv1 Hh). split; [done|].
      split; [done|]. split; [lia|]. split; [lia|]. split; [lia|].
      destruct H4 as [->|H4]; [by left|right]. etrans; [exact H4|]. apply N.mul_le_mono_l. lia.
    - rewrite uadd_cap in Hc by (rewrite Hl1; exact Hf1).
      destruct (cost_after i ops Hall sp1 w1 bs1 sp' xs (s_len s1) 0 Hr1 Hi1 Er) as (w' & bs' & k & E & Hr' & Hi' & H1 & H2 & H3 & H4);
        [by exists s1|lia|done|].
      exists w', bs', (k + 1). simpl. unfold bind. rewrite E1, E. pose proof (hauled_le i w w1 s Hv). split; [done|].
      split; [done|]. split; [lia|]. split; [lia|]. split; [lia|]. right. rewrite N.add_sub.
      transitivity (3 ^ k * s_len s1); [rewrite N.mul_comm; apply N.mul_le_mono_l; lia|].
      etrans; [exact H4|]. apply N.mul_le_mono_l. lia.
  Qed.

  (** C81: from any state a history reaches, any sequence of push_back, insert,
      pop_back and looking at one string moves at most its length plus three
      times the bytes added, and asks for a number of buffers logarithmic in
      the length. *)
  Theorem C81_growth i ops sp w bs sp' outs : reached strict sp w -> sp !! i = Some bs ->
    Forall (fun o => is_Some (edits i o)) ops -> srun (gspec strict) sp ops = SOk sp' outs ->
    exists w' bs' k, run_ops step ops w = Ok (outs, w') /\ sp' !! i = Some bs' /\
      nlen bs' <= nlen bs + added i ops /\
      hauled_all strict i ops w <= nlen bs + 3 * added i ops /\
      hnext (w_heap w') = hnext (w_heap w) + k /\
      (k = 0 \/ 17 * 3 ^ (k - 1) <= 2 ^ (k - 1) * (nlen bs + added i ops)).
  Proof. intros Hr Hi Hall Hs. eapply cost_any; [done| |done|done]. by apply reached_rel. Qed.
End Cost.

(** Sixty times push_back on an empty string, a pop_back and an insert: 16, 25, 39
    and 59 bytes are moved, into four buffers. *)
Definition ex_first : list sop := [SEmpty 0].
Definition ex_adds : list sop := replicate 60 (SPush 0 [65]) ++ [SPop 0; SInsert 0 [66; 67] 3].
Example C81_ex :
  exists sp w bs sp' outs, reached false sp w /\ sp !! 0%nat = Some bs /\
    Forall (fun o => is_Some (edits 0 o)) ex_adds /\ srun (gspec false) sp ex_adds = SOk sp' outs /\
    added 0 ex_adds = 62 /\ hauled_all false 0 ex_adds w = 139 /\
    (hnext ∘ w_heap ∘ snd) <$> (match run_ops (str_step false) ex_adds w with Ok r => Some r | Err _ => None end) = Some (hnext (w_heap w) + 4).
Proof.
  eexists {[0%nat := []]}, _, [], _, _. split.
  { exists ex_first. eexists. split; [reflexivity|]. reflexivity. }
  split; [reflexivity|]. split.
  { apply (bool_decide_unpack _). vm_compute. exact I. }
  split; [vm_compute; reflexivity|]. split; [reflexivity|]. split; [vm_compute; reflexivity|]. vm_compute. reflexivity.
Qed.

Print Assumptions C81_growth.
