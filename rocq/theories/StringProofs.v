(** * StringProofs: the string operations against byte sequences *)
From Verif Require Import Base World Machine Utf8Model StringModel.
Local Open Scope N_scope.
Ltac Zify.zify_post_hook ::= Z.to_euclidean_division_equations.

Notation nlen l := (N.of_nat (length l)).

(** A string for which there is memory: its capacity can be requested. *)
Definition fits (bs : list N) : Prop := nlen bs + nlen bs / 2 <= alloc_max.
Global Instance fits_dec bs : Decision (fits bs).
Proof. unfold fits. apply _. Defined.

Notation S_ bs := (Some <$> bs : list (option N)).

Lemma bind_ok {S A B} (m : M S A) (k : A -> M S B) s a s' : m s = Ok (a, s') -> bind m k s = k a s'.
Proof. unfold bind. by intros ->. Qed.
Lemma bind_bind {S A B D} (m : M S A) (k1 : A -> M S B) (k2 : B -> M S D) s :
  bind (bind m k1) k2 s = bind m (fun a => bind (k1 a) k2) s.
Proof. unfold bind. by destruct (m s) as [[]|]. Qed.

(** ** Bytes *)
Lemma write_at_app l1 l2 l3 bs off : length l2 = length bs -> off = nlen l1 ->
  write_at (l1 ++ l2 ++ l3) off bs = Some (l1 ++ S_ bs ++ l3).
Proof.
  intros Hl ->. unfold write_at. rewrite !app_length.
  destruct (N.leb_spec (nlen l1 + nlen bs) (N.of_nat (length l1 + (length l2 + length l3)))); [|lia].
  do 2 f_equal. { rewrite Nnat.Nat2N.id. by rewrite take_app. }
  f_equal. rewrite Nnat.Nat2N.id, (app_assoc l1 l2 l3).
  by rewrite drop_app_alt by (rewrite app_length; lia).
Qed.
Lemma mapM_S (bs : list N) : mapM id (S_ bs) = Some bs.
Proof.
  induction bs as [|b bs IH]; [done|]. change (S_ (b :: bs)) with (Some b :: S_ bs).
  simpl in *. by rewrite IH.
Qed.
Lemma read_at_app l1 l3 bs off n : off = nlen l1 -> n = nlen bs ->
  read_at (l1 ++ S_ bs ++ l3) off n = Some bs.
Proof.
  intros -> ->. unfold read_at. rewrite !app_length, fmap_length.
  destruct (N.leb_spec (nlen l1 + nlen bs) (N.of_nat (length l1 + (length bs + length l3)))); [|lia].
  rewrite !Nnat.Nat2N.id, drop_app, take_app_alt by (by rewrite fmap_length). apply mapM_S.
Qed.

(** ** Representation *)
Inductive srep (h : heap sblk) : str -> list N -> list N -> Prop :=
| SR_local bs u p r :
    fits bs -> nlen bs <= 16 -> inline u = S_ bs ++ r -> length (S_ bs ++ r) = 16%nat ->
    (bs <> [] -> u = ULocal (inline u)) ->
    srep h (Str (nlen bs) u p) bs []
| SR_heap bs a r :
    fits bs -> 16 < nlen bs -> nlen (S_ bs ++ r) <= alloc_max ->
    hmap h !! a = Some (SBlk (nlen (S_ bs ++ r)) (S_ bs ++ r)) ->
    srep h (Str (nlen bs) (UCap (nlen (S_ bs ++ r))) (Some a)) bs [a].

Lemma srep_frame h h' o s fp : srep h o s fp ->
  (forall a, a ∈ fp -> hmap h' !! a = hmap h !! a) -> srep h' o s fp.
Proof.
  intros [] Hf.
  - by econstructor.
  - econstructor; try done. rewrite Hf; [done|set_solver].
Qed.
Lemma srep_dom h o s fp a : srep h o s fp -> a ∈ fp -> is_Some (hmap h !! a).
Proof. intros [] Ha; [set_solver|]. apply elem_of_list_singleton in Ha as ->. eauto. Qed.
Lemma srep_fits h o s fp : srep h o s fp -> fits s.
Proof. by intros []. Qed.
Lemma srep_len h o s fp : srep h o s fp -> s_len o = nlen s.
Proof. by intros []. Qed.

Definition post (h : heap sblk) (fp : list N) (r : outcome (str * heap sblk)) (bs : list N) : Prop :=
  exists s' h' fp', r = Ok (s', h') /\ srep h' s' bs fp' /\ upd h h' fp fp'.

(** ** Primitive steps *)
Lemma uadd_fits n m : n + m + (n + m) / 2 <= alloc_max -> uadd n m = n + m.
Proof. intros H. unfold uadd, W, alloc_max in *. apply N.mod_small. lia. Qed.
Lemma uadd_cap n : n + n / 2 <= alloc_max -> uadd n (n / 2) = n + n / 2.
Proof. intros H. unfold uadd, W, alloc_max in *. apply N.mod_small. lia. Qed.

Lemma s_alloc_ok h n : hwf h -> n <= alloc_max ->
  exists h', s_alloc n h = Ok (Some (hnext h), h') /\ upd h h' [] [hnext h] /\
    hmap h' = <[hnext h := SBlk n (replicate (N.to_nat n) None)]> (hmap h).
Proof.
  intros Hwf Hn. unfold s_alloc. rewrite hnew_endless. destruct (N.leb_spec n alloc_max); [|lia].
  destruct (halloc (SBlk n (replicate (N.to_nat n) None)) h) as [[a h']|] eqn:E; [|done].
  destruct (upd_alloc _ _ _ _ Hwf E) as (Hu & -> & Hm).
  exists h'. unfold bind. rewrite E. done.
Qed.
Lemma s_free_ok h a b : hwf h -> hmap h !! a = Some b ->
  exists h', s_free (Some a) (sb_cap b) h = Ok (tt, h') /\ upd h h' [a] [] /\
    hmap h' = delete a (hmap h).
Proof.
  intros Hwf Ha. unfold s_free, bind, hread. rewrite Ha, N.eqb_refl. unfold hfree. rewrite Ha.
  eexists. split; [done|]. split; [|done]. by apply upd_free_map.
Qed.
Lemma write_heap_ok h s a cap l1 l2 l3 bs off : hwf h ->
  hmap h !! a = Some (SBlk cap (l1 ++ l2 ++ l3)) -> length l2 = length bs -> off = nlen l1 ->
  exists h', write_loc s (LHeap (Some a)) off bs h = Ok (s, h') /\ upd h h' [a] [a] /\
    hmap h' = <[a := SBlk cap (l1 ++ S_ bs ++ l3)]> (hmap h).
Proof.
  intros Hwf Ha Hl ->. unfold write_loc, bind, hread. rewrite Ha. cbn [sb_data sb_cap].
  rewrite (write_at_app l1 l2 l3 bs _ Hl eq_refl). unfold or_ub, ret, hwrite. rewrite Ha.
  eexists. split; [done|]. split; [|done].
  eapply upd_write_map; [done|by eexists|done|done].
Qed.
Lemma write_local_ok h n u p l1 l2 l3 bs off :
  inline u = l1 ++ l2 ++ l3 -> length l2 = length bs -> off = nlen l1 ->
  write_loc (Str n u p) LLocal off bs h = Ok (Str n (ULocal (l1 ++ S_ bs ++ l3)) p, h).
Proof.
  intros Hu Hl ->. unfold write_loc, bind. cbn [s_store s_len s_ptr]. rewrite Hu.
  by rewrite (write_at_app l1 l2 l3 bs _ Hl eq_refl).
Qed.
Lemma read_heap_ok h s a cap l1 l3 bs off n :
  hmap h !! a = Some (SBlk cap (l1 ++ S_ bs ++ l3)) -> off = nlen l1 -> n = nlen bs ->
  read_loc s (LHeap (Some a)) off n h = Ok (bs, h).
Proof.
  intros Ha -> ->. unfold read_loc. destruct (N.eqb_spec (nlen bs) 0) as [Hz|Hz].
  { by destruct bs. }
  unfold bind, hread. rewrite Ha. cbn [sb_data]. by rewrite (read_at_app l1 l3 bs _ _ eq_refl eq_refl).
Qed.
Lemma read_local_ok h m u p l1 l3 bs off n :
  inline u = l1 ++ S_ bs ++ l3 -> (bs <> [] -> u = ULocal (inline u)) -> off = nlen l1 -> n = nlen bs ->
  read_loc (Str m u p) LLocal off n h = Ok (bs, h).
Proof.
  intros Hu Hne -> ->. unfold read_loc. destruct (N.eqb_spec (nlen bs) 0) as [Hz|Hz].
  { by destruct bs. }
  cbn [s_store]. assert (bs <> []) as Hb by (intros ->; simpl in Hz; lia).
  rewrite (Hne Hb), Hu. by rewrite (read_at_app l1 l3 bs _ _ eq_refl eq_refl).
Qed.

(** Any part [mid] of the content can be read where the string keeps it. *)
Lemma read_here h s b1 mid b2 fp off n :
  srep h s (b1 ++ mid ++ b2) fp -> off = nlen b1 -> n = nlen mid ->
  read_loc s (here s) off n h = Ok (mid, h).
Proof.
  intros Hr -> ->. inversion Hr as [bs u p r Hfit Hle Hu Hl Hne|bs a r Hfit Hgt Hcap Ha]; subst.
  - unfold here, LOCAL. cbn [s_len]. destruct (N.ltb_spec 16 (nlen (b1 ++ mid ++ b2))); [lia|].
    rewrite !fmap_app, <-!app_assoc in Hu. eapply read_local_ok; [exact Hu| |by rewrite fmap_length|done].
    intros Hm. apply Hne. intros [_ [? _]%app_eq_nil]%app_eq_nil. done.
  - unfold here, LOCAL. cbn [s_len s_ptr]. destruct (N.ltb_spec 16 (nlen (b1 ++ mid ++ b2))); [|lia].
    rewrite !fmap_app, <-!app_assoc in Ha. eapply read_heap_ok; [exact Ha|by rewrite fmap_length|done].
Qed.

(** ** Construction *)
Lemma inline16 : length (inline (ULocal (replicate 16 None))) = 16%nat.
Proof. done. Qed.
Lemma new_ok h : hwf h -> post h [] (Ok (str_new, h)) [].
Proof.
  intros Hwf. exists str_new, h, []. split; [done|]. split.
  - apply (SR_local h [] _ None (replicate 16 None)); try done.
  - apply upd_refl; [done|set_solver].
Qed.
Lemma replicate_split {A} (x : A) n m : (m <= n)%nat ->
  replicate n x = replicate m x ++ replicate (n - m) x.
Proof. intros. rewrite <-replicate_add. f_equal. lia. Qed.

Lemma fill_ok h n bs s' : hwf h -> n <= alloc_max -> nlen bs <= n -> 16 < nlen bs -> fits bs ->
  s' = Str (nlen bs) (UCap n) (Some (hnext h)) ->
  exists h1, s_alloc n h = Ok (Some (hnext h), h1) /\
    (forall a, a < hnext h -> hmap h1 !! a = hmap h !! a) /\
    post h [] (write_loc s' (LHeap (Some (hnext h))) 0 bs h1) bs.
Proof.
  intros Hwf Hn Hle Hgt Hfit ->. destruct (s_alloc_ok h n Hwf Hn) as (h1 & E1 & Hu1 & Hm1).
  exists h1. split; [done|]. split. { intros a Ha. rewrite Hm1. apply lookup_insert_ne. lia. }
  assert (hmap h1 !! hnext h = Some (SBlk n ([] ++ replicate (length bs) None ++ replicate (N.to_nat n - length bs) None))) as Hl.
  { rewrite Hm1, lookup_insert. do 2 f_equal. rewrite (replicate_split None (N.to_nat n) (length bs)) by lia. done. }
  destruct (write_heap_ok h1 (Str (nlen bs) (UCap n) (Some (hnext h))) (hnext h) n [] _ _ bs 0
    (upd_wf _ _ _ _ Hu1) Hl (replicate_length _ _) eq_refl) as (h2 & E2 & Hu2 & Hm2).
  exists (Str (nlen bs) (UCap n) (Some (hnext h))), h2, [hnext h]. split; [done|]. split.
  - assert (n = nlen (S_ bs ++ replicate (N.to_nat n - length bs) None)) as Hlen.
    { rewrite app_length, fmap_length, replicate_length. lia. }
    rewrite Hlen at 1. constructor; [done|done|lia|]. rewrite <-Hlen, Hm2, lookup_insert. done.
  - by eapply upd_trans.
Qed.

Lemma literal_ok h bs : hwf h -> fits bs -> post h [] (str_literal bs h) bs.
Proof.
  intros Hwf Hfit. unfold str_literal, LOCAL. destruct (N.leb_spec (nlen bs) 16) as [Hle|Hgt].
  - rewrite (write_local_ok h _ _ _ [] (replicate (length bs) None) (replicate (16 - length bs) None) bs 0);
      [|by rewrite app_nil_l; apply replicate_split; lia|apply replicate_length|done].
    eexists _, h, []. split; [done|]. split.
    + apply (SR_local h bs _ _ (replicate (16 - length bs) None)); try done.
      rewrite app_length, fmap_length, replicate_length. lia.
    + apply upd_refl; [done|set_solver].
  - rewrite uadd_cap by apply Hfit. unfold bind.
    destruct (fill_ok h (nlen bs + nlen bs / 2) bs _ Hwf Hfit ltac:(lia) Hgt Hfit eq_refl) as (h1 & E1 & _ & Hp).
    rewrite E1. exact Hp.
Qed.

Lemma copy_ok h o bs fp : hwf h -> srep h o bs fp -> post h [] (str_copy o h) bs.
Proof.
  intros Hwf Hr. inversion Hr as [bs' u p r Hfit Hle Hu Hl Hne|bs' a r Hfit Hgt Hcap Ha]; subst; unfold str_copy, LOCAL; cbn [s_len s_store s_ptr].
  - destruct (N.ltb_spec 16 (nlen bs)); [lia|].
    eexists _, h, []. split; [done|]. split; [by eapply SR_local|]. apply upd_refl; [done|set_solver].
  - destruct (N.ltb_spec 16 (nlen bs)); [|lia]. unfold get_cap, bind at 1. cbn [s_store].
    unfold ret at 1. unfold bind at 1.
    destruct (fill_ok h (nlen (S_ bs ++ r)) bs _ Hwf Hcap ltac:(rewrite app_length, fmap_length; lia) Hgt Hfit eq_refl)
      as (h1 & E1 & Hsame & Hp).
    rewrite E1. unfold bind at 1.
    rewrite (read_heap_ok h1 _ a (nlen (S_ bs ++ r)) [] r bs); [exact Hp| |done|done].
    rewrite Hsame; [done|]. apply Hwf. eauto.
Qed.

Lemma destroy_ok h s bs fp : hwf h -> srep h s bs fp ->
  exists h', str_destroy s h = Ok (tt, h') /\ upd h h' fp [].
Proof.
  intros Hwf Hr. inversion Hr as [bs' u p r Hfit Hle Hu Hl Hne|bs' a r Hfit Hgt Hcap Ha]; subst; unfold str_destroy, LOCAL; cbn [s_len s_store s_ptr].
  - destruct (N.ltb_spec 16 (nlen bs)); [lia|]. exists h. split; [done|]. apply upd_refl; [done|set_solver].
  - destruct (N.ltb_spec 16 (nlen bs)); [|lia]. unfold bind, get_cap. cbn [s_store]. unfold ret.
    destruct (s_free_ok h a _ Hwf Ha) as (h' & E & Hu & _). cbn [sb_cap] in E. rewrite E. eauto.
Qed.

(** ** Growing *)
Lemma fits_le bs cs : fits cs -> (length bs <= length cs)%nat -> fits bs.
Proof. unfold fits. intros. lia. Qed.

Lemma try_alloc_heap n c p new_len h : 16 < n ->
  try_alloc (Str n (UCap c) p) new_len h =
    if c <? new_len then
      (p' <-- s_alloc (uadd new_len (new_len / 2)) ;;
       ret (Str n (UCap c) p', AInfo (LHeap p) (LHeap p') (uadd new_len (new_len / 2)) true true)) h
    else Ok (Str n (UCap c) p, AInfo (LHeap p) (LHeap p) 0 false false, h).
Proof.
  intros Hn. unfold try_alloc, LOCAL. cbn [s_len s_store s_ptr]. destruct (N.ltb_spec 16 n); [|lia].
  unfold bind at 1, get_cap. cbn [s_store]. unfold ret at 1. by destruct (c <? new_len).
Qed.
Lemma try_alloc_local n u p new_len h : n <= 16 ->
  try_alloc (Str n u p) new_len h =
    if 16 <? new_len then
      (p' <-- s_alloc (uadd new_len (new_len / 2)) ;;
       ret (Str n u p', AInfo LLocal (LHeap p') (uadd new_len (new_len / 2)) true false)) h
    else Ok (Str n u p, AInfo LLocal LLocal 0 false false, h).
Proof.
  intros Hn. unfold try_alloc, LOCAL. cbn [s_len s_store s_ptr]. destruct (N.ltb_spec 16 n); [lia|].
  by destruct (16 <? new_len).
Qed.

(** All ways of adding: the content [b1 ++ b2] becomes [b1 ++ ch ++ b2].  What
    [try_alloc] returns. *)
Lemma try_alloc_ok h s bs fp new_len : hwf h -> srep h s bs fp -> nlen bs <= new_len ->
  new_len + new_len / 2 <= alloc_max ->
  (exists u p r, s = Str (nlen bs) u p /\ fp = [] /\ new_len <= 16 /\ inline u = S_ bs ++ r /\
     length (S_ bs ++ r) = 16%nat /\ (bs <> [] -> u = ULocal (inline u)) /\
     try_alloc s new_len h = Ok ((s, AInfo LLocal LLocal 0 false false), h)) \/
  (exists a r, s = Str (nlen bs) (UCap (nlen (S_ bs ++ r))) (Some a) /\ fp = [a] /\ 16 < nlen bs /\
     new_len <= nlen (S_ bs ++ r) /\ nlen (S_ bs ++ r) <= alloc_max /\
     hmap h !! a = Some (SBlk (nlen (S_ bs ++ r)) (S_ bs ++ r)) /\
     try_alloc s new_len h = Ok ((s, AInfo (LHeap (Some a)) (LHeap (Some a)) 0 false false), h)) \/
  (exists h1 u p src dl, s = Str (nlen bs) u p /\ 16 < new_len /\
     upd h h1 [] [hnext h] /\
     hmap h1 = <[hnext h := SBlk (new_len + new_len / 2) (replicate (N.to_nat (new_len + new_len / 2)) None)]> (hmap h) /\
     try_alloc s new_len h =
       Ok ((Str (nlen bs) u (Some (hnext h)),
            AInfo src (LHeap (Some (hnext h))) (new_len + new_len / 2) true dl), h1) /\
     (forall s' h' off n b1 mid b2, s_store s' = u -> bs = b1 ++ mid ++ b2 -> off = nlen b1 -> n = nlen mid ->
        (forall a, a < hnext h -> hmap h' !! a = hmap h !! a) ->
        read_loc s' src off n h' = Ok (mid, h')) /\
     (forall s' h' d, s_store s' = u -> upd h1 h' [hnext h] [hnext h] ->
        hmap h' !! hnext h = Some d ->
        exists h2, free_src s' (AInfo src (LHeap (Some (hnext h))) (new_len + new_len / 2) true dl) h' = Ok (tt, h2) /\
          upd h h2 fp [hnext h] /\ hmap h2 !! hnext h = Some d)).
Proof.
  intros Hwf Hr Hle Hfit. inversion Hr as [bs' u p r Hf Hl16 Hu Hl Hne|bs' a r Hf Hgt Hcap Ha]; subst.
  - rewrite try_alloc_local by done. destruct (N.ltb_spec 16 new_len) as [Hn|Hn].
    + right. right. rewrite uadd_cap by done.
      destruct (s_alloc_ok h _ Hwf Hfit) as (h1 & E1 & Hu1 & Hm1).
      exists h1, u, p, LLocal, false. do 4 (split; [done|]). split.
      { unfold bind. by rewrite E1. }
      split.
      * intros [n' u' p'] h' off n b1 mid b2 Es -> -> -> _. cbn [s_store] in Es. subst u'.
        rewrite !fmap_app, <-!app_assoc in Hu. eapply read_local_ok; [exact Hu| |by rewrite fmap_length|done].
        intros Hm. apply Hne. intros [_ [? _]%app_eq_nil]%app_eq_nil. done.
      * intros s' h' d Es Hu' Hd. exists h'. unfold free_src. cbn [ai_dealloc]. split; [done|]. split; [|done].
        by eapply upd_trans.
    + left. exists u, p, r. split_and!; done.
  - rewrite try_alloc_heap by done.
    destruct (N.ltb_spec (nlen (S_ bs ++ r)) new_len) as [Hn|Hn].
    + right. right. rewrite uadd_cap by done.
      destruct (s_alloc_ok h _ Hwf Hfit) as (h1 & E1 & Hu1 & Hm1).
      assert (a < hnext h) as Halt by (apply Hwf; eauto).
      exists h1, (UCap (nlen (S_ bs ++ r))), (Some a), (LHeap (Some a)), true. split; [done|].
      split; [rewrite app_length, fmap_length in Hn; lia|]. do 2 (split; [done|]). split.
      { unfold bind. by rewrite E1. }
      split.
      * intros s' h' off n b1 mid b2 Es -> -> -> Hsame.
        rewrite <-(Hsame a Halt), !fmap_app, <-!app_assoc in Ha.
        eapply read_heap_ok; [exact Ha|by rewrite fmap_length|done].
      * intros s' h' d Es Hu' Hd. unfold free_src. cbn [ai_dealloc ai_src]. unfold bind, get_cap. rewrite Es. unfold ret.
        assert (hmap h' !! a = Some (SBlk (nlen (S_ bs ++ r)) (S_ bs ++ r))) as Ha'.
        { rewrite (upd_frame _ _ _ _ Hu'); [|pose proof (upd_next _ _ _ _ Hu1); lia|set_solver by lia].
          rewrite Hm1, lookup_insert_ne by lia. done. }
        destruct (s_free_ok h' a _ (upd_wf _ _ _ _ Hu') Ha') as (h2 & E2 & Hu2 & Hm2). cbn [sb_cap] in E2.
        exists h2. split; [done|]. split.
        -- assert (upd h h' [] [hnext h]) as Hu3 by by eapply upd_trans.
           assert (upd h h' [a] [hnext h; a]) as Hu4.
           { eapply (upd_frame_r _ _ _ _ [a]) in Hu3; [exact Hu3|done|].
             intros x ->%elem_of_list_singleton. split; [eauto|set_solver]. }
           assert (upd h' h2 [hnext h; a] [hnext h]) as Hu5.
           { eapply (upd_frame_r _ _ _ _ [hnext h]) in Hu2; [|by apply Hu'|].
             - eapply upd_equiv; [| |exact Hu2]; set_solver.
             - intros x ->%elem_of_list_singleton. split; [eauto|set_solver by lia]. }
           by eapply upd_trans.
        -- rewrite Hm2, lookup_delete_ne by lia. done.
    + right. left. exists a, r. split_and!; done.
Qed.

Lemma push_ok h s bs fp ch : hwf h -> srep h s bs fp -> fits (bs ++ ch) ->
  post h fp (str_push s ch h) (bs ++ ch).
Proof.
  intros Hwf Hr Hfit. unfold str_push. rewrite (srep_len _ _ _ _ Hr).
  assert (Hnew : uadd (nlen bs) (nlen ch) = nlen (bs ++ ch)).
  { rewrite app_length, Nat2N.inj_add. apply uadd_fits. unfold fits in Hfit. rewrite app_length in Hfit. lia. }
  rewrite Hnew.
  destruct (try_alloc_ok h s bs fp (nlen (bs ++ ch)) Hwf Hr ltac:(rewrite app_length; lia) Hfit)
    as [(u & p & r & -> & -> & Hn & Hu & Hl & Hne & E)|[(a & r & -> & -> & Hgt & Hn & Hcap & Ha & E)|
        (h1 & u & p & src & dl & -> & Hn & Hu1 & Hm1 & E & Hread & Hfree)]];
    unfold bind at 1; rewrite E; cbn [ai_new ai_des ai_src].
  - unfold bind at 1, ret at 1. cbn [s_len]. unfold bind at 1.
    rewrite app_length in Hl. rewrite fmap_length in Hl. rewrite app_length in Hn.
    rewrite (write_local_ok h _ _ _ (S_ bs) (take (length ch) r) (drop (length ch) r) ch (nlen bs));
      [|by rewrite take_drop|rewrite take_length; lia|by rewrite fmap_length].
    unfold ret. cbn [s_store s_ptr]. eexists _, h, []. split; [done|]. split.
    + rewrite app_assoc, <-fmap_app.
      apply (SR_local h (bs ++ ch) _ _ (drop (length ch) r)); try done.
      * rewrite app_length. lia.
      * rewrite app_length, fmap_length, app_length, drop_length. lia.
    + apply upd_refl; [done|set_solver].
  - unfold bind at 1, ret at 1. cbn [s_len]. unfold bind at 1.
    assert (Hlr : (length ch <= length r)%nat).
    { rewrite !app_length, fmap_length in Hn. lia. }
    assert (Ha2 := Ha). rewrite <-(take_drop (length ch) r) in Ha2 at 2.
    destruct (write_heap_ok h (Str (nlen bs) (UCap (nlen (S_ bs ++ r))) (Some a)) a _ _ _ _ ch (nlen bs) Hwf Ha2)
      as (h' & E' & Hu' & Hm').
    { rewrite take_length. lia. }
    { by rewrite fmap_length. }
    rewrite E'. unfold ret. cbn [s_store s_ptr]. eexists _, h', [a]. split; [done|]. split; [|done].
    rewrite app_assoc, <-fmap_app in Hm'.
    assert (Hlen : nlen (S_ bs ++ r) = nlen (S_ (bs ++ ch) ++ drop (length ch) r)).
    { rewrite !app_length, !fmap_length, app_length, drop_length. lia. }
    rewrite Hlen in *. constructor; [done|rewrite app_length; lia|done|]. by rewrite Hm', lookup_insert.
  - cbn [s_len].
    assert (Hlt : nlen (bs ++ ch) <= nlen (bs ++ ch) + nlen (bs ++ ch) / 2) by lia.
    set (cap := nlen (bs ++ ch) + nlen (bs ++ ch) / 2) in *.
    assert (Hframe1 : forall a, a < hnext h -> hmap h1 !! a = hmap h !! a).
    { intros a Ha. rewrite Hm1, lookup_insert_ne by lia. done. }
    assert (E1 := Hread (Str (nlen bs) u (Some (hnext h))) h1 0 (nlen bs) [] bs [] eq_refl
      ltac:(by rewrite app_nil_r) eq_refl eq_refl Hframe1).
    rewrite bind_bind, (bind_ok _ _ _ _ _ E1). cbv beta.
    assert (Ha1 : hmap h1 !! hnext h = Some (SBlk cap ([] ++ replicate (length bs) None ++
               (replicate (length ch) None ++ replicate (N.to_nat cap - length bs - length ch) None)))).
    { rewrite Hm1, lookup_insert. do 2 f_equal. rewrite app_length in Hlt.
      rewrite (replicate_split None (N.to_nat cap) (length bs)) by lia.
      rewrite (replicate_split None (N.to_nat cap - length bs) (length ch)) by lia. done. }
    destruct (write_heap_ok h1 (Str (nlen bs) u (Some (hnext h))) (hnext h) cap _ _ _ bs 0
      (upd_wf _ _ _ _ Hu1) Ha1 (replicate_length _ _) eq_refl) as (h2 & E2 & Hu2 & Hm2).
    rewrite bind_bind, (bind_ok _ _ _ _ _ E2). cbv beta.
    destruct (Hfree (Str (nlen bs) u (Some (hnext h))) h2 _ eq_refl Hu2 ltac:(by rewrite Hm2, lookup_insert))
      as (h3 & E3 & Hu3 & Ha3).
    rewrite bind_bind, (bind_ok _ _ _ _ _ E3). unfold bind at 1, ret at 1. cbn [s_len s_ptr ai_cap].
    rewrite app_nil_l in Ha3.
    destruct (write_heap_ok h3 (Str (nlen bs) (UCap cap) (Some (hnext h))) (hnext h) cap (S_ bs) _ _ ch (nlen bs)
      (upd_wf _ _ _ _ Hu3) Ha3 (replicate_length _ _) ltac:(by rewrite fmap_length)) as (h4 & E4 & Hu4 & Hm4).
    unfold bind. rewrite E4. unfold ret. cbn [s_store s_ptr].
    eexists _, h4, [hnext h]. split; [done|]. split.
    + rewrite app_assoc, <-fmap_app in Hm4.
      assert (Hlen : cap = nlen (S_ (bs ++ ch) ++ replicate (N.to_nat cap - length bs - length ch) None)).
      { rewrite app_length, fmap_length, replicate_length, app_length in *. lia. }
      rewrite Hlen at 1. constructor; [done|done|rewrite <-Hlen; exact Hfit|].
      rewrite <-Hlen, Hm4, lookup_insert. done.
    + by eapply upd_trans.
Qed.

(** ** Boundaries *)
(** Which positions may be cut: both ends, and before any byte that is not a
    continuation byte 10xxxxxx. *)
Definition cut_ok (bs : list N) (idx : N) : bool :=
  (idx =? 0) || (idx =? nlen bs) ||
  match bs !! N.to_nat idx with
  | Some b => negb ((128 <=? b) && (b <? 192))
  | None => false
  end.

Lemma list_split3 {A} (l : list A) (i n : nat) : (i + n <= length l)%nat ->
  exists b1 mid b2, l = b1 ++ mid ++ b2 /\ length b1 = i /\ length mid = n /\ mid = take n (drop i l).
Proof.
  intros H. exists (take i l), (take n (drop i l)), (drop n (drop i l)).
  split; [by rewrite take_drop, take_drop|]. rewrite !take_length, drop_length. split; [lia|]. split; [lia|done].
Qed.

Lemma utf8_is_boundary_last l b :
  utf8_is_boundary (l ++ [b]) = Ok (negb ((128 <=? b) && (b <? 192))).
Proof.
  unfold utf8_is_boundary. rewrite last_snoc. f_equal. unfold as_i8.
  destruct (N.ltb_spec b 128), (N.leb_spec 128 b), (N.ltb_spec b 192); simpl; try lia;
    match goal with |- (?x <=? ?y)%Z = _ => destruct (Z.leb_spec x y) end; try done; lia.
Qed.

Lemma boundary_ok h s bs fp idx : srep h s bs fp ->
  str_boundary s idx h = Ok (cut_ok bs idx, h).
Proof.
  intros Hr. unfold str_boundary, cut_ok. rewrite (srep_len _ _ _ _ Hr).
  destruct (N.eqb_spec idx 0) as [->|H0]; [done|]. simpl.
  destruct (N.leb_spec (nlen bs) idx) as [Hle|Hlt].
  { destruct (N.eqb_spec idx (nlen bs)) as [->|Hne]; [done|].
    rewrite lookup_ge_None_2 by lia. done. }
  destruct (N.eqb_spec idx (nlen bs)) as [->|Hne]; [lia|]. simpl.
  destruct (lookup_lt_is_Some_2 bs (N.to_nat idx) ltac:(lia)) as [b Hb]. rewrite Hb.
  set (start := if 4 <? idx then idx - 4 else 0).
  assert (Hs : start <= idx) by (unfold start; destruct (4 <? idx); lia).
  destruct (list_split3 bs (N.to_nat start) (N.to_nat (idx + 1 - start)) ltac:(lia))
    as (b1 & mid & b2 & Hbs & Hl1 & Hl2 & Hmid).
  rewrite Hbs in Hr. rewrite (bind_ok _ _ _ _ _ (read_here h s b1 mid b2 fp start (idx + 1 - start) Hr ltac:(lia) ltac:(lia))).
  destruct (last mid) as [c|] eqn:El.
  2:{ apply last_None in El. subst mid. rewrite El in Hl2. simpl in Hl2. lia. }
  apply last_Some in El as [mid' Hm]. rewrite Hm, utf8_is_boundary_last. unfold ret.
  assert (b = c) as ->; [|done].
  rewrite Hbs, lookup_app_r, lookup_app_l in Hb by lia.
  rewrite Hm in Hb. rewrite Hm, app_length in Hl2. simpl in Hl2.
  rewrite lookup_app_r in Hb by lia.
  replace (N.to_nat idx - length b1 - length mid')%nat with 0%nat in Hb by lia. by injection Hb as ->.
Qed.

Lemma usub_le a b : b <= a -> a < W -> usub a b = a - b.
Proof. intros. unfold usub, W in *. lia. Qed.

Lemma insert_split (bs ch : list N) (idx : N) : idx <= nlen bs ->
  exists b1 b2, bs = b1 ++ b2 /\ length b1 = N.to_nat idx /\
    take (N.to_nat idx) bs ++ ch ++ drop (N.to_nat idx) bs = b1 ++ ch ++ b2.
Proof.
  intros H. exists (take (N.to_nat idx) bs), (drop (N.to_nat idx) bs).
  rewrite take_drop, take_length. split; [done|]. split; [lia|done].
Qed.

Lemma cut_ok_le bs idx : cut_ok bs idx = true -> idx <= nlen bs.
Proof.
  unfold cut_ok. destruct (N.eqb_spec idx 0); [lia|]. destruct (N.eqb_spec idx (nlen bs)); [lia|]. simpl.
  destruct (bs !! N.to_nat idx) eqn:E; [|done]. apply lookup_lt_Some in E. lia.
Qed.

Lemma insert_ok h s bs fp ch idx : hwf h -> srep h s bs fp -> cut_ok bs idx = true ->
  fits (take (N.to_nat idx) bs ++ ch ++ drop (N.to_nat idx) bs) ->
  post h fp (str_insert s ch idx h) (take (N.to_nat idx) bs ++ ch ++ drop (N.to_nat idx) bs).
Proof.
  intros Hwf Hr Hcut Hfit. unfold str_insert. rewrite (bind_ok _ _ _ _ _ (boundary_ok h s bs fp idx Hr)), Hcut.
  cbn [negb]. rewrite (srep_len _ _ _ _ Hr).
  destruct (insert_split bs ch idx (cut_ok_le _ _ Hcut)) as (b1 & b2 & -> & Hl1 & Heq). rewrite Heq in *.
  assert (Hidx : idx = nlen b1) by lia. clear Heq Hl1 Hcut. subst idx.
  assert (Hlen : nlen (b1 ++ ch ++ b2) = nlen (b1 ++ b2) + nlen ch) by (rewrite !app_length; lia).
  assert (Hnew : uadd (nlen (b1 ++ b2)) (nlen ch) = nlen (b1 ++ ch ++ b2)).
  { rewrite Hlen. apply uadd_fits. unfold fits in Hfit. by rewrite Hlen in Hfit. }
  rewrite Hnew.
  assert (Hsub : usub (nlen (b1 ++ b2)) (nlen b1) = nlen b2).
  { rewrite usub_le; [rewrite app_length; lia|rewrite app_length; lia|].
    unfold fits, alloc_max, W in *. lia. }
  rewrite Hsub.
  destruct (try_alloc_ok h s (b1 ++ b2) fp (nlen (b1 ++ ch ++ b2)) Hwf Hr ltac:(rewrite Hlen; lia) Hfit)
    as [(u & p & r & -> & -> & Hn & Hu & Hl & Hne & E)|[(a & r & -> & -> & Hgt & Hn & Hcap & Ha & E)|
        (h1 & u & p & src & dl & -> & Hn & Hu1 & Hm1 & E & Hread & Hfree)]];
    rewrite (bind_ok _ _ _ _ _ E); cbn [ai_new ai_des ai_src].
  - rewrite fmap_app, <-app_assoc in Hu. rewrite fmap_app, <-app_assoc, !app_length, !fmap_length in Hl.
    rewrite Hlen, app_length in Hn.
    assert (E1 := read_local_ok h (nlen (b1 ++ b2)) u p (S_ b1) r b2 (nlen b1) (nlen b2) Hu
      ltac:(intros Hb; apply Hne; by intros [_ ?]%app_eq_nil) ltac:(by rewrite fmap_length) eq_refl).
    rewrite bind_bind, (bind_ok _ _ _ _ _ E1). cbv beta.
    set (l := S_ b2 ++ r) in *.
    assert (Hll : length l = (length b2 + length r)%nat) by (unfold l; by rewrite app_length, fmap_length).
    assert (E2 := write_local_ok h (nlen (b1 ++ b2)) u p (S_ b1 ++ take (length ch) l)
      (take (length b2) (drop (length ch) l)) (drop (length b2) (drop (length ch) l)) b2 (nlen b1 + nlen ch)).
    rewrite bind_bind. erewrite (bind_ok _ _ _ _ _ (E2 _ _ _)). Unshelve.
    2:{ rewrite <-app_assoc, take_drop, take_drop. exact Hu. }
    2:{ rewrite take_length, drop_length. lia. }
    2:{ rewrite app_length, fmap_length, take_length. lia. }
    cbv beta.
    assert (E3 := write_local_ok h (nlen (b1 ++ b2))
      (ULocal ((S_ b1 ++ take (length ch) l) ++ S_ b2 ++ drop (length b2) (drop (length ch) l))) p
      (S_ b1) (take (length ch) l) (S_ b2 ++ drop (length b2) (drop (length ch) l)) ch (nlen b1)
      ltac:(simpl; by rewrite <-app_assoc) ltac:(rewrite take_length; lia) ltac:(by rewrite fmap_length)).
    rewrite (bind_ok _ _ _ _ _ E3). unfold ret. cbn [s_store s_ptr].
    eexists _, h, []. split; [done|]. split; [|apply upd_refl; [done|set_solver]].
    set (r' := drop (length b2) (drop (length ch) l)).
    replace (S_ b1 ++ S_ ch ++ S_ b2 ++ r') with (S_ (b1 ++ ch ++ b2) ++ r') by by rewrite !fmap_app, <-!app_assoc.
    apply (SR_local h _ _ _ r'); try done.
    + rewrite Hlen, app_length. lia.
    + rewrite app_length, fmap_length. unfold r'. rewrite !drop_length, !app_length. lia.
  - rewrite fmap_app, <-app_assoc in *. rewrite Hlen, app_length in Hn.
    rewrite !app_length, !fmap_length in Hn.
    set (cap := nlen (S_ b1 ++ S_ b2 ++ r)) in *.
    assert (Hcapl : cap = nlen b1 + nlen b2 + nlen r) by (unfold cap; rewrite !app_length, !fmap_length; lia).
    assert (E1 := read_heap_ok h (Str (nlen (b1 ++ b2)) (UCap cap) (Some a)) a cap (S_ b1) r b2 (nlen b1) (nlen b2)
      Ha ltac:(by rewrite fmap_length) eq_refl).
    rewrite bind_bind, (bind_ok _ _ _ _ _ E1). cbv beta.
    set (l := S_ b2 ++ r) in *.
    assert (Hll : length l = (length b2 + length r)%nat) by (unfold l; by rewrite app_length, fmap_length).
    destruct (write_heap_ok h (Str (nlen (b1 ++ b2)) (UCap cap) (Some a)) a cap (S_ b1 ++ take (length ch) l)
      (take (length b2) (drop (length ch) l)) (drop (length b2) (drop (length ch) l)) b2 (nlen b1 + nlen ch) Hwf)
      as (h1 & E2 & Hu1 & Hm1).
    { rewrite <-app_assoc, take_drop, take_drop. exact Ha. }
    { rewrite take_length, drop_length. lia. }
    { rewrite app_length, fmap_length, take_length. lia. }
    rewrite bind_bind, (bind_ok _ _ _ _ _ E2). cbv beta.
    destruct (write_heap_ok h1 (Str (nlen (b1 ++ b2)) (UCap cap) (Some a)) a cap (S_ b1) (take (length ch) l)
      (S_ b2 ++ drop (length b2) (drop (length ch) l)) ch (nlen b1) (upd_wf _ _ _ _ Hu1))
      as (h2 & E3 & Hu2 & Hm2).
    { rewrite Hm1, lookup_insert. by rewrite <-app_assoc. }
    { rewrite take_length. lia. }
    { by rewrite fmap_length. }
    rewrite (bind_ok _ _ _ _ _ E3). unfold ret. cbn [s_store s_ptr].
    eexists _, h2, [a]. split; [done|]. split; [|by eapply upd_trans].
    set (r' := drop (length b2) (drop (length ch) l)) in *.
    assert (Hr' : nlen (S_ (b1 ++ ch ++ b2) ++ r') = cap).
    { rewrite app_length, fmap_length. unfold r'. rewrite !drop_length, !app_length. lia. }
    rewrite <-Hr'. constructor; [done|rewrite Hlen; lia|by rewrite Hr'|].
    rewrite Hr', Hm2, lookup_insert. by rewrite !fmap_app, <-!app_assoc.
  - set (cap := nlen (b1 ++ ch ++ b2) + nlen (b1 ++ ch ++ b2) / 2) in *.
    assert (Hcap : nlen b1 + nlen ch + nlen b2 <= cap) by (unfold cap; rewrite Hlen, app_length; lia).
    assert (Hframe1 : forall a, a < hnext h -> hmap h1 !! a = hmap h !! a).
    { intros a Ha. rewrite Hm1, lookup_insert_ne by lia. done. }
    set (s1 := Str (nlen (b1 ++ b2)) u (Some (hnext h))) in *.
    assert (E1 := Hread s1 h1 0 (nlen b1) [] b1 b2 eq_refl eq_refl eq_refl eq_refl Hframe1).
    rewrite bind_bind, (bind_ok _ _ _ _ _ E1). cbv beta.
    set (rest := replicate (N.to_nat cap - length b1 - length ch - length b2) (@None N)).
    assert (Ha1 : hmap h1 !! hnext h = Some (SBlk cap ([] ++ replicate (length b1) None ++
               (replicate (length ch) None ++ replicate (length b2) None ++ rest)))).
    { rewrite Hm1, lookup_insert. do 2 f_equal. unfold rest.
      rewrite (replicate_split None (N.to_nat cap) (length b1)) by lia.
      rewrite (replicate_split None (N.to_nat cap - length b1) (length ch)) by lia.
      rewrite (replicate_split None (N.to_nat cap - length b1 - length ch) (length b2)) by lia. done. }
    destruct (write_heap_ok h1 s1 (hnext h) cap _ _ _ b1 0
      (upd_wf _ _ _ _ Hu1) Ha1 (replicate_length _ _) eq_refl) as (h2 & E2 & Hu2 & Hm2).
    rewrite bind_bind, (bind_ok _ _ _ _ _ E2). cbv beta. rewrite app_nil_l in Hm2.
    destruct (write_heap_ok h2 s1 (hnext h) cap (S_ b1) (replicate (length ch) None) (replicate (length b2) None ++ rest)
      ch (nlen b1) (upd_wf _ _ _ _ Hu2) ltac:(by rewrite Hm2, lookup_insert) (replicate_length _ _)
      ltac:(by rewrite fmap_length)) as (h3 & E3 & Hu3 & Hm3).
    rewrite bind_bind, (bind_ok _ _ _ _ _ E3). cbv beta.
    assert (Hframe3 : forall a, a < hnext h -> hmap h3 !! a = hmap h !! a).
    { intros a Ha. rewrite Hm3, lookup_insert_ne, Hm2, lookup_insert_ne by lia. by apply Hframe1. }
    assert (E4 := Hread s1 h3 (nlen b1) (nlen b2) b1 b2 [] eq_refl ltac:(by rewrite app_nil_r) eq_refl eq_refl Hframe3).
    rewrite bind_bind, (bind_ok _ _ _ _ _ E4). cbv beta.
    destruct (write_heap_ok h3 s1 (hnext h) cap (S_ b1 ++ S_ ch) (replicate (length b2) None) rest
      b2 (nlen b1 + nlen ch) (upd_wf _ _ _ _ Hu3) ltac:(rewrite Hm3, lookup_insert; by rewrite <-app_assoc)
      (replicate_length _ _) ltac:(rewrite app_length, !fmap_length; lia)) as (h4 & E5 & Hu4 & Hm4).
    rewrite bind_bind, (bind_ok _ _ _ _ _ E5). cbv beta.
    assert (Hu14 : upd h1 h4 [hnext h] [hnext h]).
    { eapply upd_trans; [apply Hu1|exact Hu2|]. eapply upd_trans; [apply Hu2|exact Hu3|exact Hu4]. }
    destruct (Hfree s1 h4 _ eq_refl Hu14 ltac:(by rewrite Hm4, lookup_insert)) as (h5 & E6 & Hu5 & Ha5).
    rewrite bind_bind, (bind_ok _ _ _ _ _ E6). unfold bind, ret. cbn [s_len s_ptr s_store s1 ai_cap].
    eexists _, h5, [hnext h]. split; [done|]. split; [|done].
    assert (Hr' : nlen (S_ (b1 ++ ch ++ b2) ++ rest) = cap).
    { rewrite app_length, fmap_length. unfold rest. rewrite replicate_length, !app_length. lia. }
    rewrite <-Hr'. constructor; [done|done|rewrite Hr'; exact Hfit|].
    rewrite Hr', Ha5. by rewrite !fmap_app, <-!app_assoc.
Qed.

Lemma insert_panic h s bs fp ch idx : srep h s bs fp -> cut_ok bs idx = false ->
  str_insert s ch idx h = Err Panic.
Proof.
  intros Hr Hcut. unfold str_insert. by rewrite (bind_ok _ _ _ _ _ (boundary_ok h s bs fp idx Hr)), Hcut.
Qed.

(** ** pop_back, printing *)
Lemma pop_ok h s bs b fp : hwf h -> srep h s (bs ++ [b]) fp -> length (bs ++ [b]) <> 17%nat ->
  exists s', str_pop s h = Ok ((s', Some b), h) /\ srep h s' bs fp.
Proof.
  intros Hwf Hr Hne17. unfold str_pop. rewrite (srep_len _ _ _ _ Hr).
  destruct (N.eqb_spec (nlen (bs ++ [b])) 0) as [H0|H0]; [rewrite app_length in H0; simpl in H0; lia|].
  assert (Hlen : nlen (bs ++ [b]) - 1 = nlen bs) by (rewrite app_length; simpl; lia). rewrite Hlen.
  rewrite (bind_ok _ _ _ _ _ (read_here h s bs [b] [] fp (nlen bs) 1 ltac:(by rewrite app_nil_r) eq_refl eq_refl)).
  eexists. split; [done|].
  inversion Hr as [bs' u p r Hf Hl16 Hu Hl Hne|bs' a r Hf Hgt Hcap Ha]; subst; cbn [s_store s_ptr].
  - rewrite fmap_app, <-app_assoc in Hu, Hl. apply (SR_local h bs u p ([Some b] ++ r)); try done.
    + eapply fits_le; [done|]. rewrite app_length. lia.
    + lia.
    + intros _. apply Hne. by destruct bs.
  - rewrite fmap_app, <-app_assoc in *. apply SR_heap; try done.
    + eapply fits_le; [done|]. rewrite app_length. lia.
    + rewrite app_length in Hne17, Hgt. simpl in Hne17, Hgt. lia.
Qed.
Lemma pop_empty h s fp : srep h s [] fp -> str_pop s h = Ok ((s, None), h).
Proof. intros Hr. unfold str_pop. by rewrite (srep_len _ _ _ _ Hr). Qed.

Lemma bytes_ok h s bs fp : srep h s bs fp -> str_bytes s h = Ok (bs, h).
Proof.
  intros Hr. unfold str_bytes. rewrite (srep_len _ _ _ _ Hr).
  eapply (read_here h s [] bs []); [by rewrite app_nil_r|done|done].
Qed.
Lemma print_ok h s bs fp : srep h s bs fp -> length bs <> 16%nat -> str_print s h = Ok (bs, h).
Proof.
  intros Hr Hne. rewrite <-(bytes_ok _ _ _ _ Hr). unfold str_print, str_bytes, here, LOCAL.
  rewrite (srep_len _ _ _ _ Hr). destruct (N.ltb_spec (nlen bs) 16), (N.ltb_spec 16 (nlen bs)); try done; lia.
Qed.

(** ** Moving and assigning, when the missing return statement is harmless *)
Lemma empty_rep h u p : length (inline u) = 16%nat -> srep h (Str 0 u p) [] [].
Proof. intros Hl. by apply (SR_local h [] u p (inline u)). Qed.
Lemma local_inline h s bs fp : srep h s bs fp -> length (inline (s_store s)) = 16%nat.
Proof. intros [? u p r ?? Hu Hl| ]; simpl; [by rewrite Hu|done]. Qed.

Lemma move_ok h o bs fp : srep h o bs fp ->
  exists s o', str_move false o h = Ok ((s, o'), h) /\ srep h s bs fp /\ srep h o' [] [].
Proof.
  intros Hr. eexists _, _. split; [done|]. split; [by destruct o|]. by apply empty_rep.
Qed.

Lemma upd_frame_l (h h' : heap sblk) fp fp' gp :
  hwf h -> upd h h' fp fp' -> (forall a, a ∈ gp -> is_Some (hmap h !! a) /\ a ∉ fp) ->
  upd h h' (fp ++ gp) (fp' ++ gp).
Proof. apply upd_frame_r. Qed.

Lemma srep_local h s bs fp : srep h s bs fp -> nlen bs <= 16 -> fp = [].
Proof. intros []; [done|lia]. Qed.
Lemma local_as h n s bs fp p : srep h s bs fp -> n = s_len s -> nlen bs <= 16 -> srep h (Str n (s_store s) p) bs [].
Proof.
  intros Hr -> Hle. inversion Hr; subst; [|lia]. cbn [s_store s_len]. by eapply SR_local.
Qed.

Lemma copy_assign_ok h t o xs bs fpt fpo : hwf h -> srep h t xs fpt -> srep h o bs fpo ->
  (forall a, a ∈ fpt -> a ∈ fpo -> False) ->
  length xs <> 16%nat -> length bs <> 16%nat ->
  post h fpt (str_copy_assign false t o h) bs.
Proof.
  intros Hwf Ht Ho Hd Hx Hb. unfold str_copy_assign, LOCAL.
  rewrite (srep_len _ _ _ _ Ht), (srep_len _ _ _ _ Ho).
  destruct (N.ltb_spec (nlen xs) 16) as [Hxs|Hxs], (N.ltb_spec (nlen bs) 16) as [Hbs|Hbs],
    (N.ltb_spec 16 (nlen xs)) as [Hxg|Hxg], (N.ltb_spec 16 (nlen bs)) as [Hbg|Hbg]; try lia; cbn [andb].
  - rewrite (srep_local _ _ _ _ Ht) by lia. eexists _, h, []. split; [done|]. split.
    + eapply local_as; [done|by rewrite (srep_len _ _ _ _ Ho)|lia].
    + apply upd_refl; [done|set_solver].
  - rewrite (srep_local _ _ _ _ Ht) by lia. unfold bind at 1, alloc_assign, ret at 1.
    pose proof (copy_ok h o bs fpo Hwf Ho) as Hc. unfold str_copy, LOCAL in Hc.
    rewrite (srep_len _ _ _ _ Ho) in Hc. by destruct (N.ltb_spec 16 (nlen bs)); [|lia].
  - destruct (destroy_ok h t xs fpt Hwf Ht) as (h' & E & Hu). unfold str_destroy, LOCAL in E.
    rewrite (srep_len _ _ _ _ Ht) in E. destruct (N.ltb_spec 16 (nlen xs)); [|lia].
    unfold bind in E |- *. destruct (get_cap t h) as [[c h0]|]; [|done].
    rewrite E. unfold alloc_assign, ret. eexists _, h', []. split; [done|]. split; [|done].
    eapply local_as; [|by rewrite (srep_len _ _ _ _ Ho)|lia].
    eapply srep_frame; [exact Ho|]. rewrite (srep_local _ _ _ _ Ho) by lia. set_solver.
  - inversion Ht as [|xs' a r Hf Hgt Hcap Ha]; subst; [lia|].
    inversion Ho as [|bs' a2 r2 Hf2 Hgt2 Hcap2 Ha2]; subst; [lia|].
    assert (a <> a2) as Haa by (intros ->; apply (Hd a2); set_solver).
    unfold get_cap. cbn [s_store s_ptr s_len]. unfold bind at 1, ret at 1.
    destruct (N.ltb_spec (nlen (S_ xs ++ r)) (nlen bs)) as [Hc|Hc].
    + destruct (s_free_ok h a _ Hwf Ha) as (h1 & E1 & Hu1 & Hm1). cbn [sb_cap] in E1.
      rewrite bind_bind, (bind_ok _ _ _ _ _ E1), bind_bind.
      rewrite (bind_ok (alloc_assign false) _ h1 tt h1 eq_refl).
      rewrite uadd_cap by exact Hf2.
      destruct (fill_ok h1 (nlen bs + nlen bs / 2) bs _ (upd_wf _ _ _ _ Hu1) Hf2 ltac:(lia) Hgt2 Hf2 eq_refl)
        as (h2 & E2 & Hsame & Hp).
      rewrite bind_bind, (bind_ok _ _ _ _ _ E2). unfold bind at 1, ret at 1. cbn [s_ptr].
      assert (hmap h2 !! a2 = Some (SBlk (nlen (S_ bs ++ r2)) ([] ++ S_ bs ++ r2))) as Ha2'.
      { rewrite Hsame; [by rewrite Hm1, lookup_delete_ne|]. apply (upd_wf _ _ _ _ Hu1).
        rewrite Hm1, lookup_delete_ne by done. eauto. }
      rewrite (bind_ok _ _ _ _ _ (read_heap_ok h2 _ a2 _ [] r2 bs 0 (nlen bs) Ha2' eq_refl eq_refl)).
      destruct Hp as (s' & h' & fp' & E3 & Hr3 & Hu3). exists s', h', fp'. split; [done|]. split; [done|].
      by eapply upd_trans.
    + unfold bind at 1, ret at 1. cbn [s_ptr].
      rewrite (bind_ok _ _ _ _ _ (read_heap_ok h _ a2 _ [] r2 bs 0 (nlen bs) Ha2 eq_refl eq_refl)).
      set (l := S_ xs ++ r) in *.
      destruct (write_heap_ok h (Str (nlen bs) (UCap (nlen l)) (Some a)) a (nlen l) [] (take (length bs) l) (drop (length bs) l) bs 0 Hwf)
        as (h1 & E1 & Hu1 & Hm1).
      { by rewrite app_nil_l, take_drop. }
      { rewrite take_length. lia. }
      { done. }
      rewrite E1. eexists _, h1, [a]. split; [done|]. split; [|done].
      assert (nlen l = nlen (S_ bs ++ drop (length bs) l)) as Hl.
      { rewrite app_length, fmap_length, drop_length. lia. }
      rewrite Hl. constructor; [done|done|by rewrite <-Hl|]. rewrite <-Hl, Hm1, lookup_insert. done.
Qed.

(** Enough room: [Allocate::operator=] is not called. *)
Lemma copy_assign_strict h t o xs bs fpt fpo : srep h t xs fpt -> srep h o bs fpo ->
  16 < nlen bs -> (length bs <= length xs)%nat -> str_copy_assign true t o h = str_copy_assign false t o h.
Proof.
  intros Ht Ho Hb Hl. unfold str_copy_assign, LOCAL. rewrite (srep_len _ _ _ _ Ht), (srep_len _ _ _ _ Ho).
  destruct (N.ltb_spec (nlen xs) 16); [lia|]. destruct (N.ltb_spec (nlen bs) 16); [lia|]. rewrite !andb_false_r. cbn [andb].
  inversion Ht as [|xs' a r Hf Hgt Hcap Ha]; subst; [lia|].
  unfold get_cap. cbn [s_store]. unfold bind, ret.
  destruct (N.ltb_spec (nlen (S_ xs ++ r)) (nlen bs)) as [Hc|Hc]; [|done].
  rewrite app_length, fmap_length in Hc. lia.
Qed.

Lemma move_assign_ok h t o xs bs fpt fpo : hwf h -> srep h t xs fpt -> srep h o bs fpo ->
  (forall a, a ∈ fpt -> a ∈ fpo -> False) ->
  length xs <> 16%nat -> length bs <> 16%nat ->
  exists t' o' h' fp', str_move_assign false t o h = Ok ((t', o'), h') /\
    srep h' t' bs fp' /\ srep h' o' [] [] /\ upd h h' (fpt ++ fpo) fp'.
Proof.
  intros Hwf Ht Ho Hd Hx Hb. unfold str_move_assign, LOCAL.
  rewrite (srep_len _ _ _ _ Ht), (srep_len _ _ _ _ Ho).
  assert (Hinl := local_inline _ _ _ _ Ho).
  assert (Hdom : forall a, a ∈ fpo -> is_Some (hmap h !! a) /\ a ∉ fpt).
  { intros a Ha. split; [by eapply srep_dom|]. intros Ha'. by eapply Hd. }
  destruct (N.ltb_spec (nlen xs) 16) as [Hxs|Hxs], (N.ltb_spec (nlen bs) 16) as [Hbs|Hbs],
    (N.ltb_spec 16 (nlen xs)) as [Hxg|Hxg], (N.ltb_spec 16 (nlen bs)) as [Hbg|Hbg]; try lia; cbn [andb].
  - rewrite (srep_local _ _ _ _ Ht), (srep_local _ _ _ _ Ho) by lia. eexists _, _, h, []. split; [done|]. split.
    + eapply local_as; [done|by rewrite (srep_len _ _ _ _ Ho)|lia].
    + split; [by apply empty_rep|]. apply upd_refl; [done|set_solver].
  - rewrite (srep_local _ _ _ _ Ht) by lia. inversion Ho as [|bs' a2 r2 Hf2 Hgt2 Hcap2 Ha2]; subst; [lia|].
    eexists _, _, h, [a2]. split; [done|]. cbn [s_ptr]. split; [by constructor|]. split; [by apply empty_rep|].
    apply upd_refl; [done|]. intros b ->%elem_of_list_singleton. eauto.
  - destruct (destroy_ok h t xs fpt Hwf Ht) as (h' & E & Hu). unfold str_destroy, LOCAL in E.
    rewrite (srep_len _ _ _ _ Ht) in E. destruct (N.ltb_spec 16 (nlen xs)); [|lia].
    unfold bind in E |- *. destruct (get_cap t h) as [[c h0]|]; [|done].
    rewrite E. unfold alloc_assign, ret. rewrite (srep_local _ _ _ _ Ho), app_nil_r by lia.
    eexists _, _, h', []. split; [done|]. split; [|split; [by apply empty_rep|done]].
    eapply local_as; [|by rewrite (srep_len _ _ _ _ Ho)|lia].
    eapply srep_frame; [exact Ho|]. rewrite (srep_local _ _ _ _ Ho) by lia. set_solver.
  - destruct (destroy_ok h t xs fpt Hwf Ht) as (h' & E & Hu). unfold str_destroy, LOCAL in E.
    rewrite (srep_len _ _ _ _ Ht) in E. destruct (N.ltb_spec 16 (nlen xs)); [|lia].
    assert (Hfr := Ho). eapply (srep_frame h h') in Hfr.
    2:{ intros a Ha. destruct (Hdom a Ha). apply (upd_frame _ _ _ _ Hu); [by apply Hwf|done]. }
    inversion Ho as [|bs' a2 r2 Hf2 Hgt2 Hcap2 Ha2]; subst; [lia|].
    unfold bind in E |- *. destruct (get_cap t h) as [[c h0]|]; [|done].
    rewrite E. unfold alloc_assign, ret, get_cap. cbn [s_store s_ptr].
    eexists _, _, h', [a2]. split; [done|]. split; [done|]. split; [by apply empty_rep|].
    eapply (upd_frame_r h h' fpt [] [a2]); done.
Qed.
