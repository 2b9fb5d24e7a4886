(** C70 for lists: how many requests an operation makes, and what happens when
    one of them fails. *)
From stdpp Require Import prelude gmap.
From Verif Require Import Base World Machine ListModel ListStep ListSpec ListSeg ListOps2 ListRefine ListNodes Oom ListOom.
Local Open Scope N_scope.

Section Count.
  Context {T : Type} (dbl : bool).
  Notation H := (heap (cell T)).
  Notation HM := (M H).
  Notation World := (world (cell T) lst).

  Notation lstate := (gmap nat (N * option (list T))).

  (** [m] makes [k] requests. *)
  Definition asks {A} (k : N) (m : HM A) : Prop :=
    forall h x h', m h = Ok (x, h') -> hnext h' = hnext h + k.
  Definition never : N -> bool := fun _ => false.
  Lemma roomy_never a b : roomy never a b = true -> b <= a.
  Proof. intros Hr. destruct (N.le_gt_cases b a); [done|]. rewrite roomy_true in Hr. specialize (Hr a). discriminate Hr. lia. Qed.
  (** Code that does not depend on the memory requests nothing. *)
  Lemma quiet {A} (m : HM A) : starve never m m -> asks 0 m.
  Proof.
    intros Hm h x h' E. specialize (Hm h). rewrite E in Hm. destruct Hm as [Hn Hr].
    destruct (roomy never _ _) eqn:Er; [|done]. apply roomy_never in Er. lia.
  Qed.
  Lemma asks_ret {A} (x : A) : asks 0 (ret x).
  Proof. intros h y h' [= <- <-]. lia. Qed.
  Lemma asks_bind {A B} i j k (m : HM A) (f : A -> HM B) :
    asks i m -> (forall x, asks j (f x)) -> k = i + j -> asks k (bind m f).
  Proof.
    intros Hm Hf -> h y h'. unfold bind. destruct (m h) as [[x h1]|] eqn:E; [|done]. intros E2.
    rewrite (Hf _ _ _ _ E2), (Hm _ _ _ E). lia.
  Qed.
  Lemma asks_first {A B} k (m : HM A) (f : A -> HM B) : asks k m -> (forall x, asks 0 (f x)) -> asks k (bind m f).
  Proof. intros Hm Hf. eapply asks_bind; [done..|lia]. Qed.
  Lemma asks_then {A B} k (m : HM A) (f : A -> HM B) : asks 0 m -> (forall x, asks k (f x)) -> asks k (bind m f).
  Proof. intros Hm Hf. eapply asks_bind; [done..|lia]. Qed.

  Lemma q_set_next p q : asks 0 (set_next dbl p q).
  Proof. apply quiet, r_set_next. Qed.
  Lemma q_get_next p : asks 0 (get_next p).
  Proof. apply quiet, r_get_next. Qed.
  Lemma q_get_prev p : asks 0 (get_prev p).
  Proof. apply quiet, r_get_prev. Qed.
  Lemma q_value p : asks 0 (value p).
  Proof. apply quiet, r_value. Qed.
  Lemma q_advance k p : asks 0 (stl_advance k p).
  Proof. apply quiet, r_advance. Qed.
  Lemma q_pos l p : asks 0 (l_pos l p).
  Proof. apply quiet, r_pos. Qed.
  Lemma q_clear l : asks 0 (l_clear dbl l).
  Proof. apply quiet, r_clear. Qed.
  Lemma q_destroy l : asks 0 (l_destroy dbl l).
  Proof. apply quiet, r_destroy. Qed.
  Lemma q_shorten l n : asks 0 (l_shorten dbl l n).
  Proof. apply quiet, r_shorten. Qed.
  Create HintDb asks.
  Hint Resolve q_set_next q_get_next q_get_prev q_value q_advance q_pos q_clear q_destroy q_shorten asks_ret : asks.
  Lemma a_construct al v : asks 1 (construct_node al v).
  Proof. intros h x h'. rewrite construct_ok. by intros [= <- <-]. Qed.
  Lemma a_build al : asks 1 (build_virtual_node dbl al).
  Proof. intros h x h'. rewrite build_virtual_ok. by intros [= <- <-]. Qed.
  Hint Resolve a_construct a_build : asks.
  Ltac qs := repeat (first [apply asks_ret | apply asks_first; [solve [eauto with asks]|intros]
    | apply asks_then; [solve [eauto with asks]|intros]]); eauto with asks.
  Lemma a_init al : asks 2 (init_empty_list dbl al).
  Proof.
    unfold init_empty_list. eapply asks_bind; [apply a_build|intros x; apply asks_first; [apply a_build|intros y; qs]|lia].
  Qed.
  Lemma a_append al vs : forall p, asks (nlen vs) (append dbl al p vs).
  Proof.
    induction vs as [|v vs IH]; intros p; cbn [append]; [apply asks_ret|].
    eapply asks_bind; [apply a_construct|intros x; apply asks_then; [apply q_set_next|intros; apply IH]|].
    cbn [length]. lia.
  Qed.
  Lemma a_extend al tl vs : forall p, asks (nlen vs) (extend_loop dbl al p tl vs).
  Proof.
    induction vs as [|v vs IH]; intros p; cbn [extend_loop]; [apply asks_ret|].
    eapply asks_bind; [apply a_construct|intros x; do 2 (apply asks_then; [apply q_set_next|intros]); apply IH|].
    cbn [length]. lia.
  Qed.
  Hint Resolve a_init a_append a_extend : asks.
  Lemma a_range al vs : asks (2 + nlen vs) (l_range dbl al vs).
  Proof.
    unfold l_range. destruct vs as [|v vs]; [apply a_init|].
    eapply asks_bind; [apply a_build|intros hd|]; [eapply asks_bind; [apply a_build|intros tl|]|].
    - apply asks_first; [apply a_append|intros p]. qs.
    - reflexivity.
    - lia.
  Qed.
  Lemma a_count al n v : asks (2 + n) (l_count dbl al n v).
  Proof.
    unfold l_count. destruct (N.eqb_spec n 0) as [->|Hn]; [apply a_init|].
    eapply asks_bind; [apply a_build|intros hd|]; [eapply asks_bind; [apply a_build|intros tl|]|].
    - apply asks_first; [apply a_append|intros p]. qs.
    - reflexivity.
    - rewrite replicate_length. lia.
  Qed.
  Lemma a_from vs : asks (2 + nlen vs) (l_from_iter dbl vs).
  Proof.
    unfold l_from_iter. eapply asks_bind; [apply a_init|intros l|reflexivity].
    apply asks_first; [apply a_append|intros p]. qs.
  Qed.
  Lemma a_ilist l vs : asks (nlen vs) (l_ilist_assign dbl l vs).
  Proof.
    unfold l_ilist_assign. apply asks_then; [apply q_clear|intros l1].
    apply asks_first; [apply a_append|intros p]. qs.
  Qed.
  Lemma a_emplace_after l p v : asks 1 (l_emplace_after dbl l p v).
  Proof. unfold l_emplace_after. apply asks_first; [apply a_construct|intros]. qs. Qed.
  Lemma a_emplace l p v : asks 1 (l_emplace dbl l p v).
  Proof. unfold l_emplace. apply asks_first; [apply a_construct|intros]. qs. Qed.
  Lemma a_push_front l v : asks 1 (l_push_front dbl l v).
  Proof. unfold l_push_front. apply asks_first; [apply a_construct|intros]. qs. Qed.
  Lemma a_push_back l v : asks 1 (l_push_back dbl l v).
  Proof. unfold l_push_back. apply asks_first; [apply a_construct|intros]. qs. Qed.
  Lemma a_insert_after l p vs : asks (nlen vs) (l_insert_after dbl l p vs).
  Proof.
    unfold l_insert_after. destruct vs as [|v vs]; [apply asks_ret|].
    apply asks_then; [apply q_get_next|intros]. apply asks_first; [apply a_append|intros]. qs.
  Qed.
  Lemma a_insert l p vs : asks (nlen vs) (l_insert dbl l p vs).
  Proof.
    unfold l_insert. destruct vs as [|v vs]; [apply asks_ret|].
    apply asks_then; [apply q_get_prev|intros]. apply asks_first; [apply a_append|intros]. qs.
  Qed.
  Lemma a_resize l n v : l_len l < W -> n < W -> asks (n - l_len l) (l_resize dbl l n v).
  Proof.
    intros Hl Hn. unfold l_resize. destruct (N.eqb_spec n 0) as [->|H0]; [apply q_clear|].
    destruct (N.eqb_spec n (l_len l)) as [->|H1]; [rewrite N.sub_diag; apply asks_ret|].
    destruct (N.ltb_spec (l_len l) n) as [H2|H2].
    - unfold l_extend. apply asks_then; [destruct dbl; [apply q_get_prev|apply q_advance]|intros p].
      apply asks_first; [|intros; apply asks_ret]. replace (n - l_len l) with (nlen (replicate (N.to_nat (usub n (l_len l))) v)).
      + apply a_extend.
      + rewrite replicate_length. unfold usub. replace (n + W - l_len l) with (n - l_len l + 1 * W) by lia.
        rewrite N.mod_add by done. rewrite N.mod_small; lia.
    - replace (n - l_len l) with 0 by lia. apply q_shorten.
  Qed.

  (** Code that gives nothing back: what it requested is there at the end. *)
  Definition fills {A} (m : HM A) : Prop :=
    forall h x h', m h = Ok (x, h') -> hnext h <= hnext h' /\
      (forall a, is_Some (hmap h !! a) -> is_Some (hmap h' !! a)) /\
      (forall a, hnext h <= a < hnext h' -> is_Some (hmap h' !! a)).
  Lemma fills_bind {A B} (m : HM A) (f : A -> HM B) : fills m -> (forall x, fills (f x)) -> fills (bind m f).
  Proof.
    intros Hm Hf h y h'. unfold bind. destruct (m h) as [[x h1]|] eqn:E; [|done]. intros E2.
    destruct (Hm _ _ _ E) as (A1 & A2 & A3). destruct (Hf _ _ _ _ E2) as (B1 & B2 & B3).
    split; [lia|]. split; [eauto|]. intros a Ha. destruct (N.lt_ge_cases a (hnext h1)); [|apply B3; lia].
    apply B2, A3. lia.
  Qed.
  Lemma fills_ret {A} (x : A) : fills (ret x).
  Proof. intros h y h' [= <- <-]. split; [done|]. split; [done|]. lia. Qed.
  Lemma fills_fail {A} e : fills (A := A) (fail e).
  Proof. by intros h y h' [=]. Qed.
  Lemma fills_read a : fills (hread (C := cell T) a).
  Proof. intros h y h'. unfold hread. destruct (_ !! _); [|done]. intros [= <- <-]. split; [done|]. split; [done|]. lia. Qed.
  Lemma fills_write a (c : cell T) : fills (hwrite a c).
  Proof.
    intros h y h'. unfold hwrite. destruct (_ !! _); [|done]. intros [= <- <-]. simpl. split; [done|]. split; [|lia].
    intros b Hb. destruct (decide (a = b)) as [->|Hn]; [by rewrite lookup_insert|by rewrite lookup_insert_ne].
  Qed.
  Lemma fills_fuel : fills (nodes_in_memory (T := T)).
  Proof. intros h y h' [= <- <-]. split; [done|]. split; [done|]. lia. Qed.
  Lemma f_ins h (c : cell T) : hnext h <= hnext (ins h c) /\
      (forall a, is_Some (hmap h !! a) -> is_Some (hmap (ins h c) !! a)) /\
      (forall a, hnext h <= a < hnext (ins h c) -> is_Some (hmap (ins h c) !! a)).
  Proof.
    unfold ins. simpl. split; [lia|]. split; intros b Hb.
    - destruct (decide (hnext h = b)) as [->|Hn]; [by rewrite lookup_insert|by rewrite lookup_insert_ne].
    - replace b with (hnext h) by lia. by rewrite lookup_insert.
  Qed.
  Lemma f_construct al v : fills (construct_node al v).
  Proof. intros h x h'. rewrite construct_ok. intros [= <- <-]. apply f_ins. Qed.
  Lemma f_build al : fills (build_virtual_node dbl al).
  Proof. intros h x h'. rewrite build_virtual_ok. intros [= <- <-]. apply f_ins. Qed.
  Create HintDb fills.
  Hint Resolve fills_ret fills_fail fills_read fills_write fills_fuel f_construct f_build : fills.
  Ltac fs := repeat (eauto 2 with fills;
    match goal with
    | |- fills (bind _ _) => apply fills_bind; intros
    | |- context [match ?x with _ => _ end] => destruct x
    end).
  Lemma f_set_next p q : fills (set_next dbl p q).
  Proof. unfold set_next, put_next, put_prev, rd, wr. fs. Qed.
  Lemma f_get_next (p : lptr) : fills (get_next (T := T) p).
  Proof. unfold get_next, rd, defd. fs. Qed.
  Lemma f_value (p : lptr) : fills (value (T := T) p).
  Proof. unfold value, rd. fs. Qed.
  Hint Resolve f_set_next f_get_next f_value : fills.
  Lemma f_init al : fills (init_empty_list dbl al).
  Proof. unfold init_empty_list. fs. Qed.
  Hint Resolve f_init : fills.
  Lemma f_copy_loop al f : forall rp stop p n, fills (copy_loop dbl f al rp stop p n).
  Proof. induction f; intros; cbn [copy_loop]; fs. Qed.
  Hint Resolve f_copy_loop : fills.
  Lemma f_copy_impl al o : fills (copy_impl dbl al o).
  Proof. unfold copy_impl. fs. Qed.

  (** A list made from nothing: one request for each node and two for the ends. *)
  Lemma made_asks h al (vs : list T) l h' : hwf h -> made dbl h al vs (Ok (l, h')) -> 
    (forall a, hnext h <= a < hnext h' -> is_Some (hmap h' !! a)) -> hnext h' = hnext h + (2 + nlen vs).
  Proof.
    intros Hw (hd & tl & ms & h1 & [= -> ->] & Hv & Lk & U) Hf.
    assert (Hn : hnext h <= hnext h1) by apply U.
    assert (Hp : lfp hd ms tl ≡ₚ (fun i => hnext h + N.of_nat i) <$> seq 0 (N.to_nat (hnext h1 - hnext h))).
    { apply NoDup_Permutation; [apply Lk| |].
      - apply NoDup_fmap_2_strong; [|apply NoDup_seq]. intros; lia.
      - intros a. rewrite elem_of_list_fmap. split.
        + intros Ha. assert (hnext h <= a). { by destruct (upd_new _ _ _ _ U a Ha) as [Hx|]; [apply elem_of_nil in Hx|]. }
          assert (a < hnext h1). { apply (upd_wf _ _ _ _ U). by eapply lok_has. }
          exists (N.to_nat (a - hnext h)). split; [lia|]. apply elem_of_seq. lia.
        + intros (i & -> & Hi). apply elem_of_seq in Hi.
          specialize (Hf (hnext h + N.of_nat i) ltac:(lia)). apply (upd_dom _ _ _ _ U) in Hf as [[Hx _]|Hx]; [|done].
          apply Hw in Hx. lia. }
    apply Permutation_length in Hp. rewrite fmap_length, seq_length in Hp. unfold lfp in Hp. cbn [length] in Hp.
    rewrite app_length in Hp. cbn [length] in Hp. rewrite <-Hv, vls_length.
    unfold ads in Hp. rewrite fmap_length in Hp. lia.
  Qed.

  (** The number of requests, told from the sequences. *)
  Definition requests (sp : lstate) (o : lop T) : N :=
    match o with
    | LNew _ _ => 2
    | LRange _ _ vs | LFrom _ vs => 2 + nlen vs
    | LCount _ _ n _ => 2 + n
    | LCopy _ j | LCopyAl _ j _ => 2 + nlen (contents sp j)
    | LCopyAsg i j => if (i =? j)%nat then 0 else 2 + nlen (contents sp j)
    | LIlist _ vs | LInsA _ _ vs | LIns _ _ vs => nlen vs
    | LResize i n _ => n - nlen (contents sp i)
    | LPushF _ _ | LPushB _ _ | LEmpA _ _ _ | LEmp _ _ _ => 1
    | _ => 0
    end.

  Definition wasks {A} (k : N) (w : World) (m : M World A) : Prop :=
    forall x w', m w = Ok (x, w') -> hnext (w_heap w') = hnext (w_heap w) + k.
  Lemma wquiet {A} (m : M World A) w : wstarve never m m -> wasks 0 w m.
  Proof.
    intros Hm x h' E. specialize (Hm w). rewrite E in Hm. destruct Hm as [Hn Hr].
    destruct (roomy never _ _) eqn:Er; [|done]. apply roomy_never in Er. lia.
  Qed.
  Lemma wa_mk k i f w : asks k f -> wasks k w (l_mk i f).
  Proof.
    intros Hf x w'. unfold l_mk, bind, wnew, lift, wset, ret. destruct (w_vars w !! i); [done|].
    destruct (f (w_heap w)) as [[l h']|] eqn:E; [|done]. intros [= <- <-]. simpl. by eapply Hf.
  Qed.
  Lemma wa_updo k i f w : (forall l, w_vars w !! i = Some l -> asks k (f l)) -> wasks k w (l_updo i f).
  Proof.
    intros Hf x w'. unfold l_updo, bind, wget, lift, wset, ret. destruct (w_vars w !! i) as [l|] eqn:Ei; [|done].
    destruct (f l (w_heap w)) as [[[l' y] h']|] eqn:E; [|done]. intros [= <- <-]. simpl. by eapply (Hf l).
  Qed.
  Lemma wa_upd k i f w : (forall l, w_vars w !! i = Some l -> asks k (f l)) -> wasks k w (l_upd i f).
  Proof. intros Hf. apply wa_updo. intros l Hl. apply asks_first; [by apply Hf|intros; apply asks_ret]. Qed.
  Lemma wa_at k i p f w : (forall l q, asks k (f l q)) -> wasks k w (l_at i p f).
  Proof.
    intros Hf. apply wa_updo. intros l _. apply asks_then; [apply q_advance|intros q].
    apply asks_first; [apply Hf|intros [l' r]]. apply asks_then; [apply q_pos|intros]. apply asks_ret.
  Qed.

  Lemma copy_asks h o (s : N * option (list T)) fp al l h' : hwf h -> lrep dbl h o s fp ->
    copy_impl dbl al o h = Ok (l, h') -> hnext h' = hnext h + (2 + nlen (default [] (snd s))).
  Proof.
    intros Hwf Hr E. pose proof (copy_rep dbl _ _ _ _ al Hwf Hr) as Hm. rewrite E in Hm.
    eapply made_asks; [done|exact Hm|]. eapply f_copy_impl. exact E.
  Qed.
  Lemma wa_copy sp w i j (al : N) (al' : N * N -> N) : rel dbl sp w ->
    wasks (2 + nlen (contents sp j)) w (o <-- wget j ;; l_mk i (copy_impl dbl (al' (al, l_al o)) o)).
  Proof.
    intros [m Hw] x w'. unfold bind, wget. destruct (w_vars w !! j) as [o|] eqn:Ej; [|done].
    destruct (world_ok_lookup _ _ _ _ _ _ Hw Ej) as (e & He & <- & Hs).
    pose proof (wo_rep _ _ _ _ Hw _ _ He) as Hr. unfold contents. rewrite Hs.
    unfold l_mk, bind, wnew, lift, wset, ret. destruct (w_vars w !! i); [done|]. cbn [w_heap].
    destruct (copy_impl _ _ _ _) as [[l h']|] eqn:E; [|done]. intros [= <- <-]. cbn [w_heap].
    pose proof (copy_asks _ _ _ _ _ _ _ (wo_wf _ _ _ _ Hw) Hr E) as Hc. by destruct (e_s e).
  Qed.
  Lemma wa_copy_assign sp w i j : rel dbl sp w -> i <> j ->
    wasks (2 + nlen (contents sp j)) w (l_two i j (fun l o => l' <-- l_copy_assign dbl l o ;; ret (l', o))).
  Proof.
    intros [m Hw] Hij x w'. unfold l_two, bind, wget. destruct (w_vars w !! i) as [l|] eqn:Ei; [|done].
    destruct (w_vars w !! j) as [o|] eqn:Ej; [|done].
    destruct (world_ok_lookup _ _ _ _ _ _ Hw Ei) as (e & He & <- & Hs).
    destruct (world_ok_lookup _ _ _ _ _ _ Hw Ej) as (f & Hf & <- & Ht).
    pose proof (wo_rep _ _ _ _ Hw _ _ He) as Hr. pose proof (wo_rep _ _ _ _ Hw _ _ Hf) as Hq.
    unfold contents. rewrite Ht. unfold lift, wset, ret. cbn [w_heap].
    destruct (l_copy_assign dbl (e_o e) (e_o f) (w_heap w)) as [[l' h']|] eqn:E; [|done].
    intros [= <- <-]. cbn [w_heap]. unfold l_copy_assign, bind in E.
    destruct (destroy_rep dbl _ _ _ _ (wo_wf _ _ _ _ Hw) Hr) as (l1 & h1 & E1 & Hu). rewrite E1 in E.
    assert (Hq1 : lrep dbl h1 (e_o f) (e_s f) (e_fp f)).
    { eapply (world_other_rep _ (lrep_frame dbl) (lrep_dom dbl)); [exact Hw|exact Hu|exact Hf|]. intros a Ha Ha'. by eapply (wo_disj _ _ _ _ Hw i j e f a). }
    pose proof (copy_asks _ _ _ _ _ _ _ (upd_wf _ _ _ _ Hu) Hq1 E) as Hc.
    pose proof (q_destroy _ _ _ _ E1). destruct (e_s f). cbn [snd] in Hc. lia.
  Qed.

  Lemma step_asks sp w o sp' y : rel dbl sp w -> gspec dbl sp o = SOk sp' y ->
    wasks (requests sp o) w (list_step dbl o).
  Proof.
    intros Hrel Hg. pose proof (step_starve dbl never o) as Hs.
    destruct o; cbn [requests list_step] in *; try exact (wquiet _ w Hs); clear Hs.
    - apply wa_mk, a_init.
    - apply wa_mk, a_range.
    - apply wa_mk, a_count.
    - apply wa_mk, a_from.
    - exact (wa_copy sp w i j 0 snd Hrel).
    - exact (wa_copy sp w i j al fst Hrel).
    - (* to a list with the same allocator *)
      unfold gspec in Hg. cbn [safe] in Hg. destruct (N.eqb_spec al (alloc_of sp j)) as [->|]; [|done]. clear Hg.
      destruct Hrel as [m Hw]. intros x w'. unfold bind, wnew, wget, lift, wset, ret.
      destruct (w_vars w !! i); [done|]. destruct (w_vars w !! j) as [o|] eqn:Ej; [|done].
      destruct (world_ok_lookup _ _ _ _ _ _ Hw Ej) as (e & He & <- & Hs).
      pose proof (lrep_al _ _ _ _ _ (wo_rep _ _ _ _ Hw _ _ He)) as Hal.
      unfold alloc_of. rewrite Hs. destruct (e_s e) as [al' o']. cbn [fst] in Hal. unfold l_move_alloc.
      rewrite Hal, N.eqb_refl. unfold ret. intros [= <- <-]. cbn [w_heap]. lia.
    - unfold l_two_ne. destruct (Nat.eqb_spec i j) as [->|Hij]; [|by apply wa_copy_assign].
      apply wquiet, ws_bind; [apply ws_get|intros; apply ws_ret].
    - apply wa_upd. intros l _. apply a_ilist.
    - apply wa_upd. intros l Hl. destruct Hrel as [m Hw].
      destruct (world_ok_lookup _ _ _ _ _ _ Hw Hl) as (e & He & <- & Hs).
      pose proof (wo_rep _ _ _ _ Hw _ _ He) as Hr. pose proof (lrep_len _ _ _ _ _ Hr) as Hlen.
      unfold gspec in Hg. cbn [safe lspec] in Hg. unfold live, look in Hg. unfold contents. rewrite Hs in *.
      destruct (e_s e) as [al' [xs|]]; [|done]. cbn [default snd] in *. unfold need in Hg.
      destruct (N.ltb_spec n W); [|done]. rewrite <-Hlen. apply a_resize; [|done].
      destruct (lrep_inv _ _ _ _ _ _ Hr) as (hd & tl & ns & -> & <- & _ & HW & _). exact HW.
    - apply wa_upd. intros l _. apply a_push_front.
    - apply wa_upd. intros l _. apply a_push_back.
    - apply wa_at. intros l q. apply a_emplace_after.
    - apply wa_at. intros l q. apply a_insert_after.
    - apply wa_at. intros l q. apply a_emplace.
    - apply wa_at. intros l q. apply a_insert.
  Qed.
End Count.

Section Props.
  Context {T : Type} (dbl : bool).
  Notation lstate := (gmap nat (N * option (list T))).

  (** The requests of a history. *)
  Fixpoint total (sp : lstate) (ops : list (lop T)) : N :=
    match ops with
    | [] => 0
    | o :: r => requests sp o + match gspec dbl sp o with SOk sp' _ => total sp' r | _ => 0 end
    end.

  Lemma hist_asks ops : Forall ordered ops -> forall sp w sp' outs, rel dbl sp w ->
    srun (gspec dbl) sp ops = SOk sp' outs ->
    exists w', run_ops (list_step dbl) ops w = Ok (outs, w') /\ rel dbl sp' w' /\
      hnext (w_heap w') = hnext (w_heap w) + total sp ops.
  Proof.
    induction ops as [|o ops IH]; intros Hf sp w sp' outs Hr; simpl.
    { intros [= <- <-]. exists w. split; [done|]. split; [done|]. lia. }
    apply Forall_cons in Hf as [Ho Hf]. pose proof (list_step_refines dbl sp w o Ho Hr) as H0.
    destruct (gspec dbl sp o) as [s1 x| |] eqn:E; [|done|done]. destruct H0 as (w1 & E1 & Hr1).
    destruct (srun (gspec dbl) s1 ops) as [s2 xs| |] eqn:E2; [|done|done]. intros [= <- <-].
    destruct (IH Hf _ _ _ _ Hr1 E2) as (w2 & E3 & Hr2 & Hn).
    exists w2. unfold bind. rewrite E1, E3. split; [done|]. split; [done|].
    rewrite Hn, (step_asks dbl _ _ _ _ _ Hr E _ _ E1). lia.
  Qed.

  (** C70, lists.  [mm k] tells whether the [k]-th request of the program is
      met.  While all are, nothing differs from a memory without end ... *)
  Theorem C70_list_partial (mm : N -> bool) ops sp outs :
    Forall ordered ops -> srun (gspec dbl) ∅ ops = SOk sp outs ->
    (forall k, k < total ∅ ops -> mm k = true) ->
    exists w, run_ops (list_step (mem := mm) dbl) ops winit = Ok (outs, w) /\ rel dbl sp w.
  Proof.
    intros Ho Hs Hm. destruct (hist_asks ops Ho ∅ winit sp outs) as (w & E & Hr & Hn); [apply world_ok_init|done|].
    exists w. split; [|done]. pose proof (ws_run mm (list_step (mem := mm) dbl) (list_step dbl) ops (step_starve dbl mm) winit) as Hw.
    rewrite E in Hw. destruct Hw as [_ ->]. rewrite Hn. rewrite (proj2 (roomy_true _ _ _)); [done|].
    intros k Hk. apply Hm. cbn in Hk. lia.
  Qed.
  (** ... and as soon as one is not, the program is undefined: nothing reports
      it. *)
  Theorem C70_list_undefined (mm : N -> bool) ops sp outs k :
    Forall ordered ops -> srun (gspec dbl) ∅ ops = SOk sp outs ->
    k < total ∅ ops -> mm k = false ->
    run_ops (list_step (mem := mm) dbl) ops winit = Err UB.
  Proof.
    intros Ho Hs Hk Hm. destruct (hist_asks ops Ho ∅ winit sp outs) as (w & E & Hr & Hn); [apply world_ok_init|done|].
    pose proof (ws_run mm (list_step (mem := mm) dbl) (list_step dbl) ops (step_starve dbl mm) winit) as Hw.
    rewrite E in Hw. destruct Hw as [_ ->]. rewrite Hn. destruct (roomy _ _ _) eqn:Er; [|done].
    rewrite roomy_true in Er. rewrite (Er k) in Hm; [done|]. cbn. lia.
  Qed.

  (** Rearranging, removing, looking and moving needs no memory, in whatever
      state the lists are and whatever is left of the memory. *)
  Definition frugal (o : lop T) : bool :=
    match o with
    | LNew _ _ | LRange _ _ _ | LCount _ _ _ _ | LFrom _ _ | LCopy _ _ | LCopyAl _ _ _ | LMoveAl _ _ _
    | LCopyAsg _ _ | LIlist _ _ | LResize _ _ _ | LPushF _ _ | LPushB _ _ | LEmpA _ _ _ | LEmp _ _ _
    | LInsA _ _ _ | LIns _ _ _ => false
    | _ => true
    end.
  Theorem C70_list_frugal (mm : N -> bool) o w :
    frugal o = true -> list_step (mem := mm) dbl o w = list_step dbl o w.
  Proof. by destruct o. Qed.
End Props.

(** Three lists, five operations that ask for memory. *)
Definition oom_ops : list (lop N) :=
  [LRange 0 0 [3; 1; 2]; LCopy 1 0; LPushF 1 7; LPopF 0; LSrt 1 N.ltb; LNew 2 0; LResize 0 4 9; LItems 1].
Example oom_ordered : Forall ordered oom_ops.
Proof. repeat constructor; simpl; try done. all: intros; rewrite ?N.ltb_lt, ?N.ltb_ge in *; lia. Qed.
Example oom_total : total true ∅ oom_ops = 15.
Proof. vm_compute. done. Qed.
Example oom_last_request :
  run_ops (list_step (mem := fun k => k <? 15) true) oom_ops winit = run_ops (list_step true) oom_ops winit /\
  run_ops (list_step (mem := fun k => k <? 14) true) oom_ops winit = Err UB.
Proof. split; vm_compute; done. Qed.

(** C70 as stated is false: a list that cannot be told about. *)
Theorem C70_list_refuted dbl : ~ (forall (mm : N -> bool) (ops : list (lop N)) sp outs,
  Forall ordered ops -> srun (gspec dbl) ∅ ops = SOk sp outs ->
  run_ops (list_step (mem := mm) dbl) ops winit <> Err UB).
Proof.
  intros Hc. destruct dbl.
  - by eapply (Hc (fun k => k <? 2) [LNew 0 0; LPushF 0 7] _ _ ltac:(by repeat constructor)).
  - by eapply (Hc (fun k => k <? 2) [LNew 0 0; LPushF 0 7] _ _ ltac:(by repeat constructor)).
Qed.
Print Assumptions C70_list_partial.
Print Assumptions C70_list_undefined.
Print Assumptions C70_list_frugal.
Print Assumptions C70_list_refuted.
