(** * ListMem: C88, the nodes in memory and the requests for nodes

    Every node of a list is a block of its own (linked_list.h:1757-1775).
    Here: how many of them are in memory, at any moment, and how many requests
    each call makes. *)
From Verif Require Import Base World Machine IterSpec ListModel ListSeg ListOps ListOps2 ListOps3 ListOps4 ListOps5
  SortSpec ListSort ListStep ListSpec ListRefine ListNodes ListBugs ListProps Weigh.
Local Open Scope N_scope.

Section Lists.
  Context {T : Type} (dbl : bool).
  Notation lstate := (gmap nat (N * option (list T))).
  Notation step := (list_step (T := T) dbl).
  Notation reached := (reached (T := T) dbl).
  Notation H := (heap (cell T)).
  Notation HM := (M H).
  Implicit Types (h : H) (w : world (cell T) lst) (ops : list (lop T)) (sp : lstate).

  (** ** What the lists hold *)
  (** A list that has not been moved from: a node for every element and two
      without element; a list that has been moved from: nothing. *)
  Definition elements (s : N * option (list T)) : N := nlen (default [] (snd s)).
  Definition sentinels (s : N * option (list T)) : N := match snd s with Some _ => 2 | None => 0 end.
  Definition mine (al : N) (f : N * option (list T) -> N) (s : N * option (list T)) : N := if fst s =? al then f s else 0.
  Definition of_kind (al : N) (ly : lay) (c : cell T) : bool := bool_decide (n_lay c = ly) && (n_al c =? al).

  Lemma at_seg (g : cell T -> N) h al ns : forall p q x, seg dbl h al p ns q ->
    (forall c, n_lay c = LData -> n_al c = al -> g c = x) ->
    sumN (at_ g h <$> ads ns) = x * nlen ns.
  Proof using Type.
    induction ns as [|[a v] ns IH]; intros p q x [Hs Hl] Hg; [cbn; lia|].
    cbn [oseg] in Hs. rewrite ads_cons. cbn [fmap list_fmap sumN length].
    assert (node h al a v) as Hn by apply Hs.
    assert (Hs' : seg dbl h al a ns q).
    { split; [apply Hs|]. exact Hl. }
    rewrite (IH _ _ x Hs' Hg). unfold node, dt in Hn. unfold at_.
    destruct (hmap h !! a) as [c|] eqn:E; [|done]. cbn in Hn. injection Hn as Hy Ha Hd. rewrite (Hg c); [lia|done|done].
  Qed.
  Lemma at_virt (g : cell T -> N) h al a : virt h al a -> forall y, (forall c, n_lay c = LNode -> n_al c = al -> g c = y) ->
    at_ g h a = y.
  Proof using Type.
    unfold virt, dt, at_. intros Hv y Hy. destruct (hmap h !! a) as [c|]; [|done]. cbn in Hv. injection Hv as Hl Ha Hd. by apply Hy.
  Qed.
  Lemma weigh_list (g : cell T -> N) x y h l s fp : lrep dbl h l s fp ->
    (forall c, n_lay c = LData -> n_al c = fst s -> g c = x (fst s)) ->
    (forall c, n_lay c = LNode -> n_al c = fst s -> g c = y (fst s)) ->
    NoDup fp /\ sumN (at_ g h <$> fp) = x (fst s) * elements s + y (fst s) * sentinels s.
  Proof using Type.
    intros [al hd tl ns Lk HW|al] Hx Hy; cbn [fst] in *.
    - split; [exact (lok_nd dbl _ _ _ _ _ Lk)|]. unfold lfp. rewrite fmap_cons, fmap_app. cbn [sumN].
      rewrite sumN_app. cbn [fmap list_fmap sumN].
      rewrite (at_seg g h al ns hd tl (x al) (lk_seg _ _ _ _ _ _ Lk) Hx).
      rewrite (at_virt g h al hd (lk_hd _ _ _ _ _ _ Lk) _ Hy), (at_virt g h al tl (lk_tl _ _ _ _ _ _ Lk) _ Hy).
      unfold elements, sentinels. cbn [snd default]. cbn. rewrite vls_length. lia.
    - split; [constructor|]. unfold elements, sentinels. cbn. lia.
  Qed.
  Lemma weigh_lists (g : cell T -> N) x y sp w : rel dbl sp w ->
    (forall c, n_lay c = LData -> g c = x (n_al c)) -> (forall c, n_lay c = LNode -> g c = y (n_al c)) ->
    weigh g (w_heap w) = over (fun s => x (fst s) * elements s + y (fst s) * sentinels s) sp.
  Proof using Type.
    intros [m Hw] Hx Hy. rewrite (wo_spec _ _ _ _ Hw), over_fmap.
    apply (weigh_world (lrep dbl) (lrep_dom dbl) g w sp m (fun _ s => x (fst s) * elements s + y (fst s) * sentinels s) Hw).
    intros o s fp Hr. apply (weigh_list g x y _ _ _ _ Hr).
    - intros c Hl <-. by apply Hx.
    - intros c Hl <-. by apply Hy.
  Qed.

  (** The nodes in memory. *)
  Theorem C88_nodes_partial sp w : reached sp w ->
    N.of_nat (size (hmap (w_heap w))) = over (fun s => elements s + sentinels s) sp.
  Proof using Type.
    intros Hr%reached_rel. transitivity (weigh (fun _ => 1) (w_heap w)).
    - apply size_weigh.
    - rewrite (weigh_lists _ (fun _ => 1) (fun _ => 1) sp w Hr) by done.
      unfold over. f_equal. apply list_fmap_ext. intros i s _. lia.
  Qed.
  (** Those of one allocator, with and without room for an element. *)
  Theorem C88_allocator_partial sp w al : reached sp w ->
    blocks (of_kind al LData) (w_heap w) = over (mine al elements) sp /\
    blocks (of_kind al LNode) (w_heap w) = over (mine al sentinels) sp.
  Proof using Type.
    intros Hr%reached_rel. rewrite !blocks_weigh. split.
    - rewrite (weigh_lists _ (fun a => if a =? al then 1 else 0) (fun _ => 0) sp w Hr).
      + unfold over, mine. f_equal. apply list_fmap_ext. intros i s _. cbn beta. destruct (fst s =? al); lia.
      + intros c Hc. unfold of_kind. rewrite Hc. done.
      + intros c Hc. unfold of_kind. rewrite Hc. done.
    - rewrite (weigh_lists _ (fun _ => 0) (fun a => if a =? al then 1 else 0) sp w Hr).
      + unfold over, mine. f_equal. apply list_fmap_ext. intros i s _. cbn beta. destruct (fst s =? al); lia.
      + intros c Hc. unfold of_kind. rewrite Hc. done.
      + intros c Hc. unfold of_kind. rewrite Hc. done.
  Qed.

  (** ** What a call requests *)
  (** [m] makes [n] requests. *)
  Definition nq {A} (m : HM A) (n : N) : Prop := forall h x h', m h = Ok (x, h') -> hnext h' = hnext h + n.
  Lemma nq_ret {A} (x : A) : nq (ret x) 0.
  Proof using Type. intros h y h' [= <- <-]. lia. Qed.
  Lemma nq_fail {A} e n : nq (fail e : HM A) n.
  Proof using Type. by intros h y h' [=]. Qed.
  Lemma nq_bind {A B} (m : HM A) (k : A -> HM B) a b n : nq m a -> (forall x, nq (k x) b) -> n = a + b -> nq (bind m k) n.
  Proof using Type.
    intros Hm Hk -> h y h'. unfold bind. destruct (m h) as [[x h1]|] eqn:E; [|done]. intros E2.
    rewrite (Hk _ _ _ _ E2), (Hm _ _ _ E). lia.
  Qed.
  Lemma nq_bind0 {A B} (m : HM A) (k : A -> HM B) n : nq m 0 -> (forall x, nq (k x) n) -> nq (bind m k) n.
  Proof using Type. intros Hm Hk. by eapply nq_bind. Qed.
  Lemma nq_read a : nq (hread a) 0.
  Proof using Type. intros h x h'. unfold hread. destruct (hmap h !! a); [|done]. intros [= <- <-]. lia. Qed.
  Lemma nq_write a c : nq (hwrite a c) 0.
  Proof using Type. intros h x h'. unfold hwrite. destruct (hmap h !! a); [|done]. intros [= <- <-]. simpl. lia. Qed.
  Lemma nq_free a : nq (hfree a) 0.
  Proof using Type. intros h x h'. unfold hfree. destruct (hmap h !! a); [|done]. intros [= <- <-]. simpl. lia. Qed.
  Lemma nq_alloc c : nq (hnew c) 1.
  Proof using Type. intros h x h'. rewrite hnew_endless. unfold bind, halloc. intros [= <- <-]. done. Qed.
  Lemma nq_tick : nq htick 0.
  Proof using Type. intros h x h' [= <- <-]. simpl. lia. Qed.
  Lemma nq_fuel : nq nodes_in_memory 0.
  Proof using Type. intros h x h' [= <- <-]. lia. Qed.

  Ltac prim := first [ apply nq_ret | apply nq_fail | apply nq_read | apply nq_write | apply nq_free | apply nq_tick | apply nq_fuel ].
  Ltac quiet := intros; repeat (
    try prim; eauto 2 with nq;
    match goal with
    | |- nq (bind _ _) _ => apply nq_bind0; intros
    | |- context [match ?x with _ => _ end] => destruct x
    end).
  Create HintDb nq.
  Local Notation still m := (nq m 0).

  Lemma q_rd p : still (rd p). Proof using Type. destruct p; prim. Qed.
  Lemma q_wr p c : still (wr p c). Proof using Type. destruct p; prim. Qed.
  Hint Resolve q_rd q_wr : nq.
  Lemma q_defd p : still (defd (T := T) p). Proof using Type. destruct p; prim. Qed.
  Hint Resolve q_defd : nq.
  Lemma q_get_next p : still (get_next p). Proof using Type. unfold get_next. quiet. Qed.
  Lemma q_get_prev p : still (get_prev p). Proof using Type. unfold get_prev. quiet. Qed.
  Lemma q_put_next p q : still (put_next p q). Proof using Type. unfold put_next. quiet. Qed.
  Lemma q_put_prev p q : still (put_prev p q). Proof using Type. unfold put_prev. quiet. Qed.
  Lemma q_put_data p d : still (put_data p d). Proof using Type. unfold put_data. quiet. Qed.
  Lemma q_no_data p : still (no_data p). Proof using Type. unfold no_data. quiet. Qed.
  Lemma q_value p : still (value p). Proof using Type. unfold value. quiet. Qed.
  Hint Resolve q_get_next q_get_prev q_put_next q_put_prev q_put_data q_no_data q_value : nq.
  Lemma q_set_next p q : still (set_next dbl p q). Proof using Type. unfold set_next. quiet. Qed.
  Hint Resolve q_set_next : nq.
  Lemma q_build al : nq (build_virtual_node dbl al) 1.
  Proof using Type. unfold build_virtual_node, alloc_node. eapply (nq_bind _ _ 1 0); [|quiet|done]. eapply (nq_bind _ _ 1 0); [apply nq_alloc|quiet|done]. Qed.
  Lemma q_construct al v : nq (construct_node al v) 1.
  Proof using Type. unfold construct_node, alloc_node_with_data. eapply (nq_bind _ _ 1 0); [|quiet|done]. eapply (nq_bind _ _ 1 0); [apply nq_alloc|quiet|done]. Qed.
  Lemma q_dealloc al ly p : still (dealloc al ly p). Proof using Type. unfold dealloc. quiet. Qed.
  Hint Resolve q_dealloc : nq.
  Lemma q_destroy_node al p : still (destroy_node al p). Proof using Type. unfold destroy_node. quiet. Qed.
  Hint Resolve q_destroy_node : nq.
  Ltac one := eapply (nq_bind _ _ 1); [first [apply q_build | apply q_construct]|intros|].
  Lemma q_init al : nq (init_empty_list dbl al) 2.
  Proof using Type. unfold init_empty_list. one; [|]. 1: one; [quiet|done]. done. Qed.
  Lemma q_append al vs : forall p, nq (append dbl al p vs) (nlen vs).
  Proof using Type.
    induction vs as [|v vs IH]; intros p; cbn [append]; [prim|]. one; [apply nq_bind0; [quiet|intros; apply IH]|].
    cbn [length]. lia.
  Qed.
  Lemma q_range al vs : nq (l_range dbl al vs) (2 + nlen vs).
  Proof using Type.
    unfold l_range. destruct vs as [|v vs]; [apply q_init|]. eapply (nq_bind _ _ 1 (1 + nlen (v :: vs))); [apply q_build|intros|lia].
    one; [|reflexivity]. eapply (nq_bind _ _ _ 0); [apply q_append|quiet|]. lia.
  Qed.
  Lemma q_count al n v : nq (l_count dbl al n v) (2 + n).
  Proof using Type.
    unfold l_count. destruct (N.eqb_spec n 0) as [->|Hn]; [apply q_init|]. eapply (nq_bind _ _ 1 (1 + n)); [apply q_build|intros|lia].
    one; [|reflexivity]. eapply (nq_bind _ _ _ 0); [apply q_append|quiet|]. rewrite replicate_length. lia.
  Qed.
  Lemma q_from vs : nq (l_from_iter dbl vs) (2 + nlen vs).
  Proof using Type.
    unfold l_from_iter. eapply nq_bind; [apply q_init|intros|reflexivity].
    eapply (nq_bind _ _ _ 0); [apply q_append|quiet|]. lia.
  Qed.
  Lemma q_destroy_run al f : forall cur stop n, still (destroy_run f al cur stop n).
  Proof using Type. induction f; intros; cbn [destroy_run]; quiet. Qed.
  Hint Resolve q_destroy_run : nq.
  Lemma q_clear l : still (l_clear dbl l). Proof using Type. unfold l_clear. quiet. Qed.
  Hint Resolve q_clear : nq.
  Lemma q_destroy l : still (l_destroy dbl l). Proof using Type. unfold l_destroy. quiet. Qed.
  Hint Resolve q_destroy : nq.
  Lemma q_move_assign l o : still (l_move_assign dbl l o). Proof using Type. unfold l_move_assign. quiet. Qed.
  Lemma q_ilist l vs : nq (l_ilist_assign dbl l vs) (nlen vs).
  Proof using Type.
    unfold l_ilist_assign. apply nq_bind0; [quiet|intros]. eapply (nq_bind _ _ _ 0); [apply q_append|quiet|]. lia.
  Qed.
  Lemma q_front l : still (l_front l). Proof using Type. unfold l_front. quiet. Qed.
  Lemma q_front_u l : still (l_front_unchecked l). Proof using Type. unfold l_front_unchecked. quiet. Qed.
  Lemma q_front_uc l : still (l_front_unchecked_const dbl l). Proof using Type. unfold l_front_unchecked_const. quiet. Qed.
  Lemma q_back l : still (l_back l). Proof using Type. unfold l_back. quiet. Qed.
  Lemma q_back_u l : still (l_back_unchecked l). Proof using Type. unfold l_back_unchecked. quiet. Qed.
  Hint Resolve q_move_assign q_front q_front_u q_front_uc q_back q_back_u : nq.
  Lemma q_it_next it : still (it_next it). Proof using Type. unfold it_next. quiet. Qed.
  Lemma q_it_prev it : still (it_prev it). Proof using Type. unfold it_prev. quiet. Qed.
  Hint Resolve q_it_next q_it_prev : nq.
  Lemma q_it_run calls : forall it, still (it_run it calls).
  Proof using Type. induction calls; intros it; cbn [it_run]; quiet. Qed.
  Hint Resolve q_it_run : nq.
  Lemma q_iter l calls : still (l_iter l calls). Proof using Type. unfold l_iter, it_new. quiet. Qed.
  Lemma q_advance k : forall p, still (stl_advance k p).
  Proof using Type. induction k; intros p; cbn [stl_advance]; quiet. Qed.
  Lemma q_collect f : forall p stop, still (stl_collect f p stop).
  Proof using Type. induction f; intros; cbn [stl_collect]; quiet. Qed.
  Lemma q_collect_back f : forall p stop, still (stl_collect_back f p stop).
  Proof using Type. induction f; intros; cbn [stl_collect_back]; quiet. Qed.
  Hint Resolve q_iter q_advance q_collect q_collect_back : nq.
  Lemma q_to_list l : still (l_to_list l). Proof using Type. unfold l_to_list. quiet. Qed.
  Lemma q_to_list_back l : still (l_to_list_back l). Proof using Type. unfold l_to_list_back. quiet. Qed.
  Hint Resolve q_to_list q_to_list_back : nq.
  Lemma q_emplace_after l p v : nq (l_emplace_after dbl l p v) 1.
  Proof using Type. unfold l_emplace_after. one; [quiet|done]. Qed.
  Lemma q_insert_after l p vs : nq (l_insert_after dbl l p vs) (nlen vs).
  Proof using Type.
    unfold l_insert_after. destruct vs as [|v vs]; [prim|]. apply nq_bind0; [quiet|intros].
    eapply (nq_bind _ _ _ 0); [apply q_append|quiet|]. lia.
  Qed.
  Lemma q_erase_after l p : still (l_erase_after dbl l p). Proof using Type. unfold l_erase_after. quiet. Qed.
  Hint Resolve q_erase_after : nq.
  Lemma q_erase_after_loop f : forall l p q, still (erase_after_loop dbl f l p q).
  Proof using Type. induction f; intros; cbn [erase_after_loop]; quiet. Qed.
  Hint Resolve q_erase_after_loop : nq.
  Lemma q_erase_after_range l p q : still (l_erase_after_range dbl l p q).
  Proof using Type. unfold l_erase_after_range. quiet. Qed.
  Lemma q_emplace l p v : nq (l_emplace dbl l p v) 1.
  Proof using Type. unfold l_emplace. one; [quiet|done]. Qed.
  Lemma q_insert l p vs : nq (l_insert dbl l p vs) (nlen vs).
  Proof using Type.
    unfold l_insert. destruct vs as [|v vs]; [prim|]. apply nq_bind0; [quiet|intros].
    eapply (nq_bind _ _ _ 0); [apply q_append|quiet|]. lia.
  Qed.
  Lemma q_erase l p : still (l_erase dbl l p). Proof using Type. unfold l_erase. quiet. Qed.
  Lemma q_erase_range l p q : still (l_erase_range dbl l p q). Proof using Type. unfold l_erase_range. quiet. Qed.
  Lemma q_push_front l v : nq (l_push_front dbl l v) 1.
  Proof using Type. unfold l_push_front. one; [quiet|done]. Qed.
  Lemma q_pop_front l : still (l_pop_front dbl l). Proof using Type. unfold l_pop_front. quiet. Qed.
  Lemma q_push_back l v : nq (l_push_back dbl l v) 1.
  Proof using Type. unfold l_push_back. one; [quiet|done]. Qed.
  Lemma q_pop_back l : still (l_pop_back dbl l). Proof using Type. unfold l_pop_back. quiet. Qed.
  Hint Resolve q_erase_after_range q_erase q_erase_range q_pop_front q_pop_back : nq.
  Lemma q_back_advance k : forall p, still (back_advance k p).
  Proof using Type. induction k; intros p; cbn [back_advance]; quiet. Qed.
  Hint Resolve q_back_advance : nq.
  Lemma q_shorten l n : still (l_shorten dbl l n). Proof using Type. unfold l_shorten. quiet. Qed.
  Hint Resolve q_shorten : nq.
  Lemma q_extend_loop al tl vs : forall p, nq (extend_loop dbl al p tl vs) (nlen vs).
  Proof using Type.
    induction vs as [|v vs IH]; intros p; cbn [extend_loop]; [prim|]. one; [|].
    - apply nq_bind0; [quiet|intros]. apply nq_bind0; [quiet|intros]. apply IH.
    - cbn [length]. lia.
  Qed.
  Lemma q_resize l n v : l_len l < W -> n < W -> nq (l_resize dbl l n v) (n - l_len l).
  Proof using Type.
    intros Hl Hn. unfold l_resize. destruct (N.eqb_spec n 0) as [->|H0]; [quiet|].
    destruct (N.eqb_spec n (l_len l)) as [->|H1]; [replace (_ - _) with 0 by lia; prim|].
    destruct (N.ltb_spec (l_len l) n) as [H2|H2].
    - unfold l_extend. apply nq_bind0; [quiet|intros]. eapply (nq_bind _ _ _ 0); [apply q_extend_loop|quiet|].
      rewrite replicate_length, Nnat.N2Nat.id, N.add_0_r. unfold usub. replace (n + W - l_len l) with (n - l_len l + 1 * W) by lia.
      rewrite N.mod_add by done. rewrite N.mod_small; lia.
    - replace (n - l_len l) with 0 by lia. quiet.
  Qed.
  Lemma q_real_tail_loop f : forall p tl, still (real_tail_loop f p tl).
  Proof using Type. induction f; intros; cbn [real_tail_loop]; quiet. Qed.
  Hint Resolve q_real_tail_loop : nq.
  Lemma q_real_tail l : still (real_tail dbl l). Proof using Type. unfold real_tail. quiet. Qed.
  Hint Resolve q_real_tail : nq.
  Lemma q_splice_after l p o : still (l_splice_after dbl l p o). Proof using Type. unfold l_splice_after. quiet. Qed.
  Lemma q_splice_after_rv l p o : still (l_splice_after_rv dbl l p o). Proof using Type. unfold l_splice_after_rv. quiet. Qed.
  Lemma q_splice l p o : still (l_splice dbl l p o). Proof using Type. unfold l_splice. quiet. Qed.
  Lemma q_splice_rv l p o : still (l_splice_rv dbl l p o). Proof using Type. unfold l_splice_rv. quiet. Qed.
  Hint Resolve q_splice_after q_splice_after_rv q_splice q_splice_rv : nq.
  Lemma q_remove_loop p f : forall l last cur n, still (remove_loop dbl f l (fun v => ret (p v)) last cur n).
  Proof using Type. induction f; intros; cbn [remove_loop]; quiet. Qed.
  Hint Resolve q_remove_loop : nq.
  Lemma q_remove_if l p : still (l_remove_if dbl l p).
  Proof using Type. unfold l_remove_if, remove_if_m. quiet. Qed.
  Hint Resolve q_remove_if : nq.
  Lemma q_rev_fwd_loop f : forall p pr tl, still (rev_fwd_loop dbl f p pr tl).
  Proof using Type. induction f; intros; cbn [rev_fwd_loop]; quiet. Qed.
  Hint Resolve q_rev_fwd_loop : nq.
  Lemma q_swap p : still (swap_links p). Proof using Type. unfold swap_links. quiet. Qed.
  Hint Resolve q_swap : nq.
  Lemma q_rev_dbl_loop f : forall p ap, still (rev_dbl_loop f p ap).
  Proof using Type. induction f; intros; cbn [rev_dbl_loop]; quiet. Qed.
  Hint Resolve q_rev_dbl_loop : nq.
  Lemma q_rev_fwd l : still (rev_fwd dbl l). Proof using Type. unfold rev_fwd. quiet. Qed.
  Lemma q_rev_dbl l : still (rev_dbl l). Proof using Type. unfold rev_dbl. quiet. Qed.
  Lemma q_reverse l : still (l_reverse dbl l).
  Proof using Type. unfold l_reverse. destruct dbl eqn:E; [apply q_rev_dbl|]. rewrite <-E. apply q_rev_fwd. Qed.
  Hint Resolve q_reverse : nq.
  Lemma q_unique_loop r f : forall l bc last cur n, still (unique_loop dbl f l r bc last cur n).
  Proof using Type. induction f; intros; cbn [unique_loop]; quiet. Qed.
  Hint Resolve q_unique_loop : nq.
  Lemma q_unique l r : still (l_unique dbl l r). Proof using Type. unfold l_unique. quiet. Qed.
  Hint Resolve q_unique : nq.
  Lemma q_m_end p : still (m_end p). Proof using Type. unfold m_end. quiet. Qed.
  Hint Resolve q_m_end : nq.
  Lemma q_merge_loop lt f : forall a b p, still (merge_loop dbl f lt a b p).
  Proof using Type. induction f; intros; cbn [merge_loop]; quiet. Qed.
  Lemma q_last_loop f : forall p, still (last_loop f p).
  Proof using Type. induction f; intros; cbn [last_loop]; quiet. Qed.
  Hint Resolve q_merge_loop q_last_loop : nq.
  Lemma q_merge_nodes lt a b : still (merge_nodes dbl lt a b). Proof using Type. unfold merge_nodes. quiet. Qed.
  Hint Resolve q_merge_nodes : nq.
  Lemma q_s_end p : still (s_end p). Proof using Type. unfold s_end. quiet. Qed.
  Hint Resolve q_s_end : nq.
  Lemma q_mid_loop f : forall a b, still (mid_loop f a b).
  Proof using Type. induction f; intros; cbn [mid_loop]; quiet. Qed.
  Hint Resolve q_mid_loop : nq.
  Lemma q_merge_sort lt f : forall p, still (merge_sort dbl f lt p).
  Proof using Type. induction f; intros; cbn [merge_sort]; quiet. Qed.
  Hint Resolve q_merge_sort : nq.
  Lemma q_sort l lt : still (l_sort dbl l lt). Proof using Type. unfold l_sort. quiet. Qed.
  Lemma q_merge l o lt : still (l_merge dbl l o lt). Proof using Type. unfold l_merge. quiet. Qed.
  Lemma q_merge_rv l o lt : still (l_merge_rv dbl l o lt). Proof using Type. unfold l_merge_rv. quiet. Qed.
  Hint Resolve q_sort q_merge q_merge_rv : nq.
  Lemma q_into_run calls : forall l, still (into_run dbl l calls).
  Proof using Type. induction calls; intros l; cbn [into_run]; [prim|]. unfold into_next, into_prev. quiet. Qed.
  Hint Resolve q_into_run : nq.
  Lemma q_into_iter l calls : still (l_into_iter dbl l calls). Proof using Type. unfold l_into_iter, l_move. quiet. Qed.
  Hint Resolve q_into_iter : nq.
  Lemma q_print_loop f : forall lo hi i n, still (print_loop f lo hi i n).
  Proof using Type. induction f; intros; cbn [print_loop]; quiet. Qed.
  Hint Resolve q_print_loop : nq.
  Lemma q_print l : still (l_print dbl l). Proof using Type. unfold l_print. quiet. Qed.
  Lemma q_pos_loop q f : forall p n, still (pos_loop f p q n).
  Proof using Type. induction f; intros; cbn [pos_loop]; quiet. Qed.
  Hint Resolve q_print q_pos_loop : nq.
  Lemma q_pos l p : still (l_pos l p). Proof using Type. unfold l_pos. quiet. Qed.
  Hint Resolve q_pos : nq.

  (** Copying returns no node, so what it requests is what it has added. *)
  Definition nf {A} (m : HM A) : Prop := forall h x h', hwf h -> m h = Ok (x, h') ->
    hwf h' /\ N.of_nat (size (hmap h')) + hnext h = N.of_nat (size (hmap h)) + hnext h'.
  Lemma nf_ret {A} (x : A) : nf (ret x).
  Proof using Type. intros h y h' Hw [= <- <-]. done. Qed.
  Lemma nf_fail {A} e : nf (fail e : HM A).
  Proof using Type. by intros h y h' Hw [=]. Qed.
  Lemma nf_bind {A B} (m : HM A) (k : A -> HM B) : nf m -> (forall x, nf (k x)) -> nf (bind m k).
  Proof using Type.
    intros Hm Hk h y h' Hw. unfold bind. destruct (m h) as [[x h1]|] eqn:E; [|done]. intros E2.
    destruct (Hm _ _ _ Hw E) as [Hw1 ?]. destruct (Hk _ _ _ _ Hw1 E2). split; [done|]. lia.
  Qed.
  Lemma nf_read a : nf (hread a).
  Proof using Type. intros h x h' Hw. unfold hread. destruct (hmap h !! a); [|done]. by intros [= <- <-]. Qed.
  Lemma nf_write a c : nf (hwrite a c).
  Proof using Type.
    intros h x h' Hw. unfold hwrite. destruct (hmap h !! a) as [d|] eqn:E; [|done]. intros [= <- <-]. simpl. split.
    - intros b. simpl. destruct (decide (a = b)) as [->|Hn].
      + intros _. apply Hw. by exists d.
      + rewrite lookup_insert_ne by done. apply Hw.
    - rewrite map_size_insert_Some; [done|]. by exists d.
  Qed.
  Lemma nf_alloc c : nf (hnew c).
  Proof using Type.
    intros h x h' Hw. rewrite hnew_endless. unfold bind, halloc. intros [= <- <-]. simpl. split.
    - intros b. simpl. destruct (decide (hnext h = b)) as [<-|Hn]; [lia|].
      rewrite lookup_insert_ne by done. intros Hb%Hw. lia.
    - rewrite map_size_insert_None; [lia|]. destruct (hmap h !! hnext h) eqn:E; [|done].
      specialize (Hw (hnext h) (mk_is_Some _ _ E)). lia.
  Qed.
  Lemma nf_fuel : nf nodes_in_memory.
  Proof using Type. intros h x h' Hw [= <- <-]. done. Qed.
  Ltac keep := repeat (first [ apply nf_ret | apply nf_fail | apply nf_read | apply nf_write | apply nf_alloc | apply nf_fuel | by auto
    | apply nf_bind; intros | match goal with |- context [match ?x with _ => _ end] => destruct x end]).
  Lemma f_set_next p q : nf (set_next dbl p q).
  Proof using Type. unfold set_next, put_next, put_prev, rd, wr. keep. Qed.
  Lemma f_build al : nf (build_virtual_node dbl al).
  Proof using Type. unfold build_virtual_node, alloc_node, put_next, put_prev, put_data, rd, wr. keep. Qed.
  Lemma f_construct al v : nf (construct_node al v).
  Proof using Type. unfold construct_node, alloc_node_with_data, no_data, put_data, rd, wr. keep. Qed.
  Lemma f_copy_loop al f : forall rp stop p n, nf (copy_loop dbl f al rp stop p n).
  Proof using Type.
    pose proof f_set_next. pose proof f_construct.
    induction f; intros; cbn [copy_loop]; unfold value, get_next, rd, defd; keep.
  Qed.
  Lemma f_copy al o : nf (copy_impl dbl al o).
  Proof using Type.
    pose proof f_set_next. pose proof f_build. pose proof f_copy_loop.
    unfold copy_impl, init_empty_list, get_next, rd, defd. keep.
  Qed.
  Lemma q_copy h l s fp al x h' : hwf h -> lrep dbl h l s fp -> copy_impl dbl al l h = Ok (x, h') ->
    hnext h' = hnext h + (2 + elements s).
  Proof using Type.
    intros Hw Hr E. destruct (copy_rep dbl _ _ _ _ al Hw Hr) as (hd & tl & ms & h2 & E2 & Hv & Lk & Hu).
    rewrite E in E2. injection E2 as -> <-. destruct (f_copy al l _ _ _ Hw E) as [_ Hs].
    assert (size (hmap h') = size (hmap h) + length (lfp hd ms tl))%nat as Hz.
    { rewrite <-!size_dom, <-(size_list_to_set (C := gset N)) by exact (lok_nd dbl _ _ _ _ _ Lk).
      rewrite <-size_union; [f_equal|].
      - apply set_eq. intros a. rewrite elem_of_union, !elem_of_dom, elem_of_list_to_set, (upd_dom _ _ _ _ Hu).
        split; [intros [[? _]|?]; auto|intros [?|?]; [left|by right]]. split; [done|]. by intros ?%elem_of_nil.
      - intros a. rewrite elem_of_dom, elem_of_list_to_set. intros Ha%Hw Ha'.
        destruct (upd_new _ _ _ _ Hu a Ha') as [?%elem_of_nil|?]; [done|lia]. }
    rewrite lfp_length in Hz. unfold elements. rewrite <-Hv, vls_length. lia.
  Qed.

  (** The requests of a call, in terms of the sequences. *)
  Definition asks sp (o : lop T) : N :=
    match o with
    | LNew _ _ => 2
    | LRange _ _ vs | LFrom _ vs => 2 + nlen vs
    | LCount _ _ n _ => 2 + n
    | LCopy _ j | LCopyAl _ j _ => 2 + nlen (contents sp j)
    | LCopyAsg i j => if (i =? j)%nat then 0 else 2 + nlen (contents sp j)
    | LIlist _ vs | LInsA _ _ vs | LIns _ _ vs => nlen vs
    | LPushF _ _ | LPushB _ _ | LEmpA _ _ _ | LEmp _ _ _ => 1
    | LResize i n _ => n - nlen (contents sp i)
    | _ => 0
    end.

  Definition wq {A} (m : M (world (cell T) lst) A) (n : N) : Prop :=
    forall w x w', m w = Ok (x, w') -> hnext (w_heap w') = hnext (w_heap w) + n.
  Lemma wq_ret {A} (x : A) : wq (ret x) 0.
  Proof using Type. intros w y w' [= <- <-]. lia. Qed.
  Lemma wq_bind {A B} (m : M _ A) (k : A -> M _ B) a b n : wq m a -> (forall x, wq (k x) b) -> n = a + b -> wq (bind m k) n.
  Proof using Type.
    intros Hm Hk -> w y w'. unfold bind. destruct (m w) as [[x w1]|] eqn:E; [|done]. intros E2.
    rewrite (Hk _ _ _ _ E2), (Hm _ _ _ E). lia.
  Qed.
  Lemma wq_bind0 {A B} (m : M _ A) (k : A -> M _ B) n : wq m 0 -> (forall x, wq (k x) n) -> wq (bind m k) n.
  Proof using Type. intros Hm Hk. by eapply wq_bind. Qed.
  Lemma wq_lift {A} (m : HM A) n : nq m n -> wq (lift m) n.
  Proof using Type.
    intros Hm w x w'. unfold lift. destruct (m (w_heap w)) as [[y h']|] eqn:E; [|done].
    intros [= <- <-]. exact (Hm _ _ _ E).
  Qed.
  Lemma wq_get i : wq (wget i) 0.
  Proof using Type. intros w x w'. unfold wget. destruct (w_vars w !! i); [|done]. intros [= <- <-]. lia. Qed.
  Lemma wq_set i l : wq (wset i l) 0.
  Proof using Type. intros w x w'. unfold wset. intros [= <- <-]. simpl. lia. Qed.
  Lemma wq_new i : wq (wnew i) 0.
  Proof using Type. intros w x w'. unfold wnew. destruct (w_vars w !! i); [done|]. intros [= <- <-]. simpl. lia. Qed.
  Lemma wq_del i : wq (wdel i) 0.
  Proof using Type. intros w x w'. unfold wdel. intros [= <- <-]. simpl. lia. Qed.
  Ltac wquiet := intros; repeat (first [apply wq_ret | apply wq_get | apply wq_set | apply wq_new | apply wq_del
        | apply wq_bind0; intros | apply wq_lift
        | match goal with |- wq (match ?x with _ => _ end) _ => destruct x end]); quiet.
  Lemma wq_mk i f n : nq f n -> wq (l_mk i f) n.
  Proof using Type. intros Hf. unfold l_mk. apply wq_bind0; [wquiet|intros]. eapply (wq_bind _ _ n 0); [by apply wq_lift|wquiet|lia]. Qed.
  Lemma wq_updo i f n : (forall l, nq (f l) n) -> wq (l_updo i f) n.
  Proof using Type. intros Hf. unfold l_updo. apply wq_bind0; [wquiet|intros]. eapply (wq_bind _ _ n 0); [by apply wq_lift|wquiet|lia]. Qed.
  Lemma wq_upd i f n : (forall l, nq (f l) n) -> wq (l_upd i f) n.
  Proof using Type. intros Hf. apply wq_updo. intros l. eapply (nq_bind _ _ n 0); [done|quiet|lia]. Qed.
  Lemma wq_at i k f n : (forall l p, nq (f l p) n) -> wq (l_at i k f) n.
  Proof using Type. intros Hf. apply wq_updo. intros l. apply nq_bind0; [quiet|intros]. eapply (nq_bind _ _ n 0); [done|quiet|lia]. Qed.

  Lemma step_asks sp w o s x y w' : rel dbl sp w -> gspec dbl sp o = SOk s x -> step o w = Ok (y, w') ->
    hnext (w_heap w') = hnext (w_heap w) + asks sp o.
  Proof using Type.
    intros Hr Hs. revert w' y.
    assert (Hcp : forall i j al, (exists s', sp !! j = Some s') -> forall w' y, (o <-- wget j ;; l_mk i (copy_impl dbl (al o) o)) w = Ok (y, w') ->
      hnext (w_heap w') = hnext (w_heap w) + (2 + nlen (contents sp j))).
    { intros i j al [s' Hj] w' y. destruct Hr as [m Hw]. destruct (world_ok_lookup_spec _ _ _ _ _ _ Hw Hj) as (e & Hm & He & Hv & Hrep).
      unfold bind at 1, wget. rewrite Hv. unfold l_mk, bind, wnew. destruct (w_vars w !! i); [done|]. unfold lift.
      destruct (copy_impl dbl (al (e_o e)) (e_o e) (w_heap w)) as [[l h']|] eqn:E; [|done]. unfold wset, ret. intros [= <- <-]. simpl.
      rewrite (q_copy _ _ _ _ _ _ _ (wo_wf _ _ _ _ Hw) Hrep E). unfold contents. rewrite Hj. by destruct s'. }
    assert (Hmv : forall al j, alloc_of sp j = al -> forall o, w_vars w !! j = Some o -> l_al o = al).
    { intros al j <- o0 Ho. destruct Hr as [m Hw]. pose proof (wo_vars _ _ _ _ Hw) as Ev. pose proof (wo_spec _ _ _ _ Hw) as Es.
      rewrite Ev, lookup_fmap in Ho. destruct (m !! j) as [e|] eqn:Hm; [|done]. injection Ho as <-.
      unfold alloc_of. rewrite Es, lookup_fmap, Hm. cbn. rewrite (lrep_al dbl _ _ _ _ (wo_rep _ _ _ _ Hw j e Hm)). by destruct (e_s e). }
    enough (forall w' y, step o w = Ok (y, w') -> hnext (w_heap w') = hnext (w_heap w) + asks sp o) by eauto.
    unfold gspec in Hs. destruct (safe dbl sp o) eqn:Sf; [|done].
    destruct o; cbn [list_step asks lspec safe] in *;
      try (by intros w' y; revert w y w' Hr Hcp Hmv; clear; intros w y w' _ _ _; revert w y w';
        match goal with |- forall w x w', ?m w = _ -> _ = _ + ?n => change (wq m n) end;
        unfold l_obs, l_upd, l_at, l_at2, l_updo, l_mk, l_two_ne, l_two, l_move, l_swap; wquiet).
    all: try (intros w' y; first
      [ eapply wq_mk; first [apply q_init | apply q_range | apply q_count | apply q_from]
      | eapply wq_upd; intros; first [apply q_ilist | apply q_push_front | apply q_push_back]
      | eapply wq_at; intros; first [apply q_emplace_after | apply q_insert_after | apply q_emplace | apply q_insert] ]).
    - apply (Hcp i j l_al). unfold fresh, look in Hs. destruct (sp !! i); [done|]. destruct (sp !! j) as [s'|]; [by exists s'|done].
    - apply (Hcp i j (fun _ => al)). unfold fresh, look in Hs. destruct (sp !! i); [done|]. destruct (sp !! j) as [s'|]; [by exists s'|done].
    - intros w' y. apply N.eqb_eq in Sf. unfold bind at 1. unfold wnew. destruct (w_vars w !! i); [done|]. unfold bind at 1, wget.
      destruct (w_vars w !! j) as [o|] eqn:Ho; [|done]. pose proof (Hmv _ _ (eq_sym Sf) _ Ho) as Ha.
      unfold l_move_alloc. rewrite Ha, N.eqb_refl. intros [= <- <-]. simpl. lia.
    - intros w' y. unfold l_two_ne. destruct (Nat.eqb_spec i j) as [->|Hij].
      { unfold bind, wget. destruct (w_vars w !! j); [|done]. intros [= <- <-]. lia. }
      unfold look in Hs. destruct (sp !! i) as [si|] eqn:Hi; [|done]. destruct si as [ai oi]. destruct (sp !! j) as [[aj oj]|] eqn:Hj; [|done].
      destruct Hr as [m Hw].
      destruct (world_ok_lookup_spec _ _ _ _ _ _ Hw Hi) as (ei & Hmi & Hei & Hvi & Hri).
      destruct (world_ok_lookup_spec _ _ _ _ _ _ Hw Hj) as (ej & Hmj & Hej & Hvj & Hrj).
      destruct (destroy_rep dbl _ _ _ _ (wo_wf _ _ _ _ Hw) Hri) as (l1 & h1 & E1 & Hu).
      assert (Hrj1 : lrep dbl h1 (e_o ej) (aj, oj) (e_fp ej)).
      { apply (lrep_frame dbl _ _ _ _ _ Hrj). intros a Ha. apply (upd_frame _ _ _ _ Hu).
        - apply (wo_wf _ _ _ _ Hw). exact (lrep_dom dbl _ _ _ _ _ Hrj Ha).
        - intros Ha'. exact (wo_disj _ _ _ _ Hw i j ei ej a Hmi Hmj Hij Ha' Ha). }
      unfold l_two, bind, wget, lift. rewrite Hvi, Hvj. unfold l_copy_assign, bind. rewrite E1.
      destruct (copy_impl dbl (l_al (e_o ej)) (e_o ej) h1) as [[l' h']|] eqn:E2; [|done]. unfold wset, ret. intros [= <- <-]. simpl.
      rewrite (q_copy _ _ _ _ _ _ _ (upd_wf _ _ _ _ Hu) Hrj1 E2), (q_destroy _ _ _ _ E1). unfold contents. rewrite Hj. unfold elements. cbn [snd]. lia.
    - intros w' y. unfold live in Hs. destruct (sp !! i) as [[ai [xs|]]|] eqn:Hi; [|done|done]. unfold need in Hs.
      destruct (N.ltb_spec n W) as [Hn|]; [|done]. destruct Hr as [m Hw].
      destruct (world_ok_lookup_spec _ _ _ _ _ _ Hw Hi) as (ei & Hmi & Hei & Hvi & Hri).
      pose proof (lrep_len dbl _ _ _ _ Hri) as Hl. cbn in Hl.
      assert (l_len (e_o ei) < W) as HlW by (destruct (lrep_inv dbl _ _ _ _ _ Hri) as (? & ? & ns & -> & _ & _ & HW & _); exact HW).
      unfold l_upd, l_updo, bind, wget, lift. rewrite Hvi.
      destruct (l_resize dbl (e_o ei) n v (w_heap w)) as [[l' h']|] eqn:E; [|done]. unfold wset, ret. intros [= <- <-]. simpl.
      rewrite (q_resize _ _ _ HlW Hn _ _ _ E), Hl. unfold contents. by rewrite Hi.
  Qed.

  (** One call. *)
  Theorem C88_requests_partial sp w o s x : reached sp w -> ordered o -> gspec dbl sp o = SOk s x ->
    exists w', step o w = Ok (x, w') /\ hnext (w_heap w') = hnext (w_heap w) + asks sp o.
  Proof using Type.
    intros Hr Ho Hs. destruct (reached_step dbl sp w o s x Hr Ho Hs) as (w' & E & _). exists w'. split; [done|].
    exact (step_asks _ _ _ _ _ _ _ (reached_rel dbl _ _ Hr) Hs E).
  Qed.

  (** A history: what has been requested and not returned is what the lists
      hold, so every other node has been returned. *)
  Fixpoint asked sp ops : N :=
    match ops with
    | [] => 0
    | o :: r => match gspec dbl sp o with SOk s _ => asks sp o + asked s r | _ => 0 end
    end.
  Lemma asked_ok ops : forall sp w s outs w', Forall ordered ops -> rel dbl sp w -> srun (gspec dbl) sp ops = SOk s outs ->
    run_ops step ops w = Ok (outs, w') -> hnext (w_heap w') = hnext (w_heap w) + asked sp ops.
  Proof using Type.
    induction ops as [|o ops IH]; intros sp w s outs w' Hf Hr; simpl.
    { intros _ [= <- <-]. lia. }
    apply Forall_cons in Hf as [Ho Hf]. pose proof (list_step_refines dbl sp w o Ho Hr) as H0. unfold agrees in H0.
    destruct (gspec dbl sp o) as [s1 x| |] eqn:Hs; [|done|done]. destruct H0 as (w1 & E & Hr1).
    pose proof (step_asks _ _ _ _ _ _ _ Hr Hs E) as Hn. unfold bind at 1. rewrite E. unfold bind at 1.
    destruct (srun (gspec dbl) s1 ops) as [s2 xs| |] eqn:E2; [|done|done]. intros _.
    destruct (run_ops step ops w1) as [[ys w2]|] eqn:E3; [|done]. intros [= <- <-].
    pose proof (hist dbl ops Hf s1 w1 Hr1) as H3. rewrite E2, E3 in H3. destruct H3 as (w3 & [= -> <-] & _).
    rewrite (IH _ _ _ _ _ Hf Hr1 E2 E3). lia.
  Qed.
  Theorem C88_returned_partial ops sp outs : Forall ordered ops -> srun (gspec dbl) ∅ ops = SOk sp outs ->
    exists w, run_ops step ops winit = Ok (outs, w) /\
      hnext (w_heap w) = asked ∅ ops /\
      N.of_nat (size (hmap (w_heap w))) = over (fun s => elements s + sentinels s) sp /\
      over (fun s => elements s + sentinels s) sp <= asked ∅ ops.
  Proof using Type.
    intros Hf E. destruct (reach dbl _ _ _ Hf E) as (w & E2 & Hr). exists w. split; [done|].
    assert (reached sp w) as Hre by (exists ops, outs; done).
    assert (hnext (w_heap w) = asked ∅ ops) as Hn.
    { rewrite (asked_ok _ _ _ _ _ _ Hf (world_ok_init _) E E2). simpl. done. }
    split; [done|]. rewrite <-(C88_nodes_partial sp w Hre). split; [done|]. rewrite <-Hn.
    destruct Hr as [m Hw]. pose proof (wo_wf _ _ _ _ Hw) as Hwf. rewrite <-size_dom.
    assert (Hsub : dom (hmap (w_heap w)) ⊆ (list_to_set (N.of_nat <$> seq 0 (N.to_nat (hnext (w_heap w)))) : gset N)).
    { intros a Ha%elem_of_dom%Hwf. apply elem_of_list_to_set, elem_of_list_fmap. exists (N.to_nat a).
      split; [lia|]. apply elem_of_seq. lia. }
    apply subseteq_size in Hsub. rewrite size_list_to_set in Hsub.
    - rewrite fmap_length, seq_length in Hsub. lia.
    - apply NoDup_fmap_2; [intros ? ?; lia|]. apply NoDup_seq.
  Qed.

  (** ** The exception *)
  (** Moving an empty list to another allocator leaves one node that no list
      holds (C27). *)
  Lemma size_delete (m : gmap N (cell T)) a c : m !! a = Some c -> (size (delete a m) + 1 = size m)%nat.
  Proof using Type.
    intros Ha. rewrite <-(insert_delete m a c Ha) at 2. rewrite map_size_insert_None by apply lookup_delete. lia.
  Qed.
  Lemma destroy_node_size al p h x h' : destroy_node (T := T) al p h = Ok (x, h') -> (size (hmap h') + 1 = size (hmap h))%nat.
  Proof using Type.
    destruct p as [| |a]; [done|done|].
    unfold destroy_node, no_data, value, put_data, dealloc, rd, wr, bind, hread, hwrite, hfree, ret, fail.
    destruct (hmap h !! a) as [c|] eqn:E; [|done]. destruct (n_dat c) eqn:Ed; cbn; try done; rewrite E, Ed; try done.
    - destruct (decide _); [|done]. rewrite E. intros [= <- <-]. cbn. exact (size_delete _ _ _ E).
    - cbn. rewrite E. cbn. rewrite E. cbn. rewrite lookup_insert. cbn. destruct (decide _); [|done]. cbn.
      rewrite lookup_insert. intros [= <- <-]. cbn. rewrite delete_insert_delete. exact (size_delete _ _ _ E).
  Qed.
  Definition held sp : N := over (fun s => elements s + sentinels s) sp.
  Theorem C88_move_empty_leaves_one sp w i j al al' : reached sp w -> sp !! i = None ->
    sp !! j = Some (al', Some []) -> al <> al' ->
    exists w', step (LMoveAl i j al) w = Ok (OUnit, w') /\
      lspec dbl sp (LMoveAl i j al) = SOk (<[i := (al, Some [])]> (<[j := (al', None)]> sp)) OUnit /\
      N.of_nat (size (hmap (w_heap w'))) = held (<[i := (al, Some [])]> (<[j := (al', None)]> sp)) + 1.
  Proof using Type.
    intros Hr Hi Hj Hal. destruct (C27_move_empty_leaks dbl sp w i j al al' Hr Hi Hj Hal) as (a & b & c & d & w' & _ & E & _).
    exists w'. split; [done|]. split; [cbn [lspec]; unfold fresh, look; by rewrite Hi, Hj|].
    pose proof (C88_nodes_partial sp w Hr) as Hn. fold (held sp) in Hn.
    assert (i <> j) as Hij by congruence. unfold held in *.
    rewrite over_new by (by rewrite lookup_insert_ne by done).
    pose proof (over_put (fun s => elements s + sentinels s) sp j (al', None) _ Hj) as Hp. cbn in Hp. cbn.
    assert (size (hmap (w_heap w')) = size (hmap (w_heap w)) + 1)%nat; [|lia].
    apply reached_rel in Hr. destruct Hr as [m Hw]. destruct (world_ok_lookup_spec _ _ _ _ _ _ Hw Hj) as (e & Hm & He & Hv & Hrep).
    pose proof (lrep_al dbl _ _ _ _ Hrep) as Ha. pose proof (lrep_len dbl _ _ _ _ Hrep) as Hl. cbn in Ha, Hl.
    cbn [list_step] in E. unfold bind at 1, wnew in E. destruct (w_vars w !! i); [done|]. unfold bind at 1, wget in E. rewrite Hv in E.
    unfold bind at 1, lift, l_move_alloc in E. rewrite Ha, Hl in E. destruct (N.eqb_spec al al'); [done|]. cbn [N.eqb] in E.
    destruct (init_empty_list dbl al (w_heap w)) as [[l1 h1]|] eqn:E1; [|unfold bind in E; by rewrite E1 in E].
    unfold bind at 1 in E. rewrite E1 in E. unfold bind at 1 in E.
    destruct (destroy_node al' (l_head (e_o e)) h1) as [[u h2]|] eqn:E2; [|done]. injection E as <-. cbn [w_heap].
    apply destroy_node_size in E2.
    pose proof (f_copy al (Lst PNull PNull 0 al)) as Hf. unfold copy_impl in Hf. cbn [l_len N.eqb] in Hf.
    destruct (Hf _ _ _ (wo_wf _ _ _ _ Hw) E1) as [_ Hs]. pose proof (q_init al _ _ _ E1). lia.
  Qed.
End Lists.

(** Full claim and refutation. *)
Definition C88_full : Prop := forall (T : Type) (dbl : bool) (ops : list (lop T)) sp outs w,
  Forall ordered ops -> srun (lspec dbl) ∅ ops = SOk sp outs -> run_ops (list_step dbl) ops winit = Ok (outs, w) ->
  N.of_nat (size (hmap (w_heap w))) = over (fun s => elements s + sentinels s) sp.
Theorem C88_refuted : ~ C88_full.
Proof.
  intros Hf. set (ops := [LNew 0 1; LMoveAl 1 0 2] : list (lop N)).
  assert (Hs : match srun (lspec true) ∅ ops with
    | SOk sp outs => over (fun s => elements s + sentinels s) sp = 2 /\ outs = [OUnit; OUnit] | _ => False end).
  { vm_compute. split; reflexivity. }
  assert (Hw : match run_ops (list_step true) ops winit with
    | Ok (outs, w) => size (hmap (w_heap w)) = 3%nat /\ outs = [OUnit; OUnit] | Err _ => False end).
  { vm_compute. split; reflexivity. }
  assert (Forall ordered ops) as Ho by (apply Forall_cons; split; [exact I|]; apply Forall_cons; split; [exact I|]; apply Forall_nil_2).
  specialize (Hf N true ops). destruct (srun (lspec true) ∅ ops) as [sp outs| |]; [|exact Hs..].
  destruct (run_ops (list_step true) ops winit) as [[outs' w]|]; [|exact Hw].
  destruct Hs as [Hs ->]. destruct Hw as [Hz ->]. specialize (Hf sp _ w Ho eq_refl eq_refl). rewrite Hz, Hs in Hf. discriminate Hf.
Qed.

(** ** A history *)
(** Two lists of allocators 1 and 2, a copy, a move, a splice, a growing
    [resize], an erased element: 16 requests, 13 nodes in memory at the end. *)
Definition C88_prog : list (lop N) :=
  [LRange 0 1 [5; 6; 7]; LCopyAl 1 0 2; LMove 2 0; LPushB 2 8; LRange 3 1 [9]; LSplA 2 0 3 false;
   LResize 1 5 0; LEraA 2 1; LDel 3; LSrt 2 N.ltb].
Example C88_ordered : Forall ordered C88_prog.
Proof. repeat (apply Forall_cons; split; [first [exact swo_ltb|exact I]|]). apply Forall_nil_2. Qed.
Example C88_ex : match srun (gspec true) ∅ C88_prog with
  | SOk sp outs => over (fun s => elements s + sentinels s) sp = 13 /\ asked true ∅ C88_prog = 16 /\
      over (mine 1 elements) sp = 4 /\ over (mine 1 sentinels) sp = 2 /\ over (mine 2 elements) sp = 5
  | _ => False end.
Proof. vm_compute. repeat split. Qed.

Print Assumptions C88_nodes_partial.
Print Assumptions C88_allocator_partial.
Print Assumptions C88_requests_partial.
Print Assumptions C88_returned_partial.
Print Assumptions C88_move_empty_leaves_one.
Print Assumptions C88_refuted.
