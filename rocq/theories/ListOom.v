(** Lists when memory runs out: linked_list.h:1757-1785, 1801-1806 use the node
    the allocator returned without looking whether there is one. *)
From stdpp Require Import prelude gmap.
From Verif Require Import Base ListModel ListStep Oom.
Local Open Scope N_scope.

Section ListOom.
  Context {T : Type} (dbl : bool) (mm : N -> bool).
  Notation starve := (Oom.starve (C := cell T) mm).
  Notation wstarve := (Oom.wstarve (C := cell T) mm).
  Ltac prim := first
    [ apply st_ret | apply st_fail | apply st_read | apply st_write | apply st_free | apply st_tick ].
  Create HintDb starve.
  Ltac starves := repeat (
    try prim; eauto 2 with starve;
    match goal with
    | |- Oom.starve _ (bind _ _) (bind _ _) => apply st_bind; intros
    | |- context [match ?x with _ => _ end] => destruct x
    end).
  Lemma r_fuel : starve (nodes_in_memory (T := T)) nodes_in_memory.
  Proof. intros h. unfold nodes_in_memory. by rewrite roomy_nil. Qed.
  Hint Resolve r_fuel : starve.

  Lemma r_rd p : starve (rd p) (rd p). Proof. destruct p; prim. Qed.
  Lemma r_wr p c : starve (wr p c) (wr p c). Proof. destruct p; prim. Qed.
  Hint Resolve r_rd r_wr : starve.
  Lemma r_defd p : starve (defd (T := T) p) (defd (T := T) p). Proof. destruct p; prim. Qed.
  Hint Resolve r_defd : starve.
  Lemma r_get_next p : starve (get_next p) (get_next p). Proof. unfold get_next. starves. Qed.
  Lemma r_get_prev p : starve (get_prev p) (get_prev p). Proof. unfold get_prev. starves. Qed.
  Lemma r_put_next p q : starve (put_next p q) (put_next p q). Proof. unfold put_next. starves. Qed.
  Lemma r_put_prev p q : starve (put_prev p q) (put_prev p q). Proof. unfold put_prev. starves. Qed.
  Lemma r_put_data p d : starve (put_data p d) (put_data p d). Proof. unfold put_data. starves. Qed.
  Lemma r_no_data p : starve (no_data p) (no_data p). Proof. unfold no_data. starves. Qed.
  Lemma r_value p : starve (value p) (value p). Proof. unfold value. starves. Qed.
  Hint Resolve r_get_next r_get_prev r_put_next r_put_prev r_put_data r_no_data r_value : starve.
  Lemma r_set_next p q : starve (set_next dbl p q) (set_next dbl p q). Proof. unfold set_next. starves. Qed.
  Hint Resolve r_set_next : starve.
  Lemma r_alloc_data al : starve (alloc_node_with_data (mem := mm) al) (alloc_node_with_data al).
  Proof. unfold alloc_node_with_data. apply st_new; [|done]. intros a. starves. Qed.
  Hint Resolve r_alloc_data : starve.
  Lemma r_build al : starve (build_virtual_node (mem := mm) dbl al) (build_virtual_node dbl al).
  Proof.
    unfold build_virtual_node, alloc_node. apply st_assoc, st_new; [|done].
    intros a. starves.
  Qed.
  Lemma r_construct al v : starve (construct_node (mem := mm) al v) (construct_node al v).
  Proof. unfold construct_node. starves. Qed.
  Lemma r_dealloc al ly p : starve (dealloc al ly p) (dealloc al ly p). Proof. unfold dealloc. starves. Qed.
  Hint Resolve r_build r_construct r_dealloc : starve.
  Lemma r_destroy_node al p : starve (destroy_node al p) (destroy_node al p). Proof. unfold destroy_node. starves. Qed.
  Lemma r_init al : starve (init_empty_list (mem := mm) dbl al) (init_empty_list dbl al). Proof. unfold init_empty_list. starves. Qed.
  Hint Resolve r_destroy_node r_init : starve.
  Lemma r_append al vs : forall p, starve (append (mem := mm) dbl al p vs) (append dbl al p vs).
  Proof. induction vs; intros p; cbn [append]; starves. Qed.
  Hint Resolve r_append : starve.
  Lemma r_range al vs : starve (l_range (mem := mm) dbl al vs) (l_range dbl al vs). Proof. unfold l_range. starves. Qed.
  Lemma r_count al n v : starve (l_count (mem := mm) dbl al n v) (l_count dbl al n v). Proof. unfold l_count. starves. Qed.
  Lemma r_from vs : starve (l_from_iter (mem := mm) dbl vs) (l_from_iter dbl vs). Proof. unfold l_from_iter. starves. Qed.
  Hint Resolve r_range r_count r_from : starve.

  Ltac loop f := induction f as [|f IH]; intros; [prim|].
  Lemma r_copy_loop al f : forall rp stop p n,
    starve (copy_loop (mem := mm) dbl f al rp stop p n) (copy_loop dbl f al rp stop p n).
  Proof. loop f. cbn [copy_loop]. starves; try apply IH. Qed.
  Hint Resolve r_copy_loop : starve.
  Lemma r_copy_impl al o : starve (copy_impl (mem := mm) dbl al o) (copy_impl dbl al o). Proof. unfold copy_impl. starves. Qed.
  Hint Resolve r_copy_impl : starve.
  Lemma r_destroy_run al f : forall cur stop n,
    starve (destroy_run f al cur stop n) (destroy_run f al cur stop n).
  Proof. loop f. cbn [destroy_run]. starves; try apply IH. Qed.
  Hint Resolve r_destroy_run : starve.
  Lemma r_clear l : starve (l_clear dbl l) (l_clear dbl l). Proof. unfold l_clear. starves. Qed.
  Hint Resolve r_clear : starve.
  Lemma r_destroy l : starve (l_destroy dbl l) (l_destroy dbl l). Proof. unfold l_destroy. starves. Qed.
  Hint Resolve r_destroy : starve.
  Lemma r_move_loop al al' f : forall rp p n,
    starve (move_loop (mem := mm) dbl f al al' rp p n) (move_loop dbl f al al' rp p n).
  Proof. loop f. cbn [move_loop]. starves; try apply IH. Qed.
  Hint Resolve r_move_loop : starve.
  Lemma r_move_alloc al o : starve (l_move_alloc (mem := mm) dbl al o) (l_move_alloc dbl al o). Proof. unfold l_move_alloc. starves. Qed.
  Lemma r_copy_assign l o : starve (l_copy_assign (mem := mm) dbl l o) (l_copy_assign dbl l o). Proof. unfold l_copy_assign. starves. Qed.
  Lemma r_move_assign l o : starve (l_move_assign dbl l o) (l_move_assign dbl l o). Proof. unfold l_move_assign. starves. Qed.
  Lemma r_ilist l vs : starve (l_ilist_assign (mem := mm) dbl l vs) (l_ilist_assign dbl l vs). Proof. unfold l_ilist_assign. starves. Qed.
  Lemma r_front l : starve (l_front l) (l_front l). Proof. unfold l_front. starves. Qed.
  Lemma r_front_u l : starve (l_front_unchecked l) (l_front_unchecked l). Proof. unfold l_front_unchecked. starves. Qed.
  Lemma r_front_uc l : starve (l_front_unchecked_const dbl l) (l_front_unchecked_const dbl l). Proof. unfold l_front_unchecked_const. starves. Qed.
  Lemma r_back l : starve (l_back l) (l_back l). Proof. unfold l_back. starves. Qed.
  Lemma r_back_u l : starve (l_back_unchecked l) (l_back_unchecked l). Proof. unfold l_back_unchecked. starves. Qed.
  Hint Resolve r_move_alloc r_copy_assign r_move_assign r_ilist r_front r_front_u r_front_uc r_back r_back_u : starve.
  Lemma r_it_next it : starve (it_next it) (it_next it). Proof. unfold it_next. starves. Qed.
  Lemma r_it_prev it : starve (it_prev it) (it_prev it). Proof. unfold it_prev. starves. Qed.
  Hint Resolve r_it_next r_it_prev : starve.
  Lemma r_it_run calls : forall it, starve (it_run it calls) (it_run it calls).
  Proof. induction calls; intros it; cbn [it_run]; starves. Qed.
  Hint Resolve r_it_run : starve.
  Lemma r_iter l calls : starve (l_iter l calls) (l_iter l calls). Proof. unfold l_iter, it_new. starves. Qed.
  Lemma r_advance k : forall p, starve (stl_advance k p) (stl_advance k p).
  Proof. induction k; intros p; cbn [stl_advance]; starves. Qed.
  Lemma r_collect f : forall p stop, starve (stl_collect f p stop) (stl_collect f p stop).
  Proof. loop f. cbn [stl_collect]. starves; try apply IH. Qed.
  Lemma r_collect_back f : forall p stop,
    starve (stl_collect_back f p stop) (stl_collect_back f p stop).
  Proof. loop f. cbn [stl_collect_back]. starves; try apply IH. Qed.
  Hint Resolve r_iter r_advance r_collect r_collect_back : starve.
  Lemma r_to_list l : starve (l_to_list l) (l_to_list l). Proof. unfold l_to_list. starves. Qed.
  Lemma r_to_list_back l : starve (l_to_list_back l) (l_to_list_back l). Proof. unfold l_to_list_back. starves. Qed.
  Hint Resolve r_to_list r_to_list_back : starve.
  Lemma r_emplace_after l p v : starve (l_emplace_after (mem := mm) dbl l p v) (l_emplace_after dbl l p v). Proof. unfold l_emplace_after. starves. Qed.
  Lemma r_insert_after l p vs : starve (l_insert_after (mem := mm) dbl l p vs) (l_insert_after dbl l p vs). Proof. unfold l_insert_after. starves. Qed.
  Lemma r_erase_after l p : starve (l_erase_after dbl l p) (l_erase_after dbl l p). Proof. unfold l_erase_after. starves. Qed.
  Hint Resolve r_emplace_after r_insert_after r_erase_after : starve.
  Lemma r_erase_after_loop f : forall l p q,
    starve (erase_after_loop dbl f l p q) (erase_after_loop dbl f l p q).
  Proof. loop f. cbn [erase_after_loop]. starves; try apply IH. Qed.
  Hint Resolve r_erase_after_loop : starve.
  Lemma r_erase_after_range l p q : starve (l_erase_after_range dbl l p q) (l_erase_after_range dbl l p q).
  Proof. unfold l_erase_after_range. starves. Qed.
  Lemma r_emplace l p v : starve (l_emplace (mem := mm) dbl l p v) (l_emplace dbl l p v). Proof. unfold l_emplace. starves. Qed.
  Lemma r_insert l p vs : starve (l_insert (mem := mm) dbl l p vs) (l_insert dbl l p vs). Proof. unfold l_insert. starves. Qed.
  Lemma r_erase l p : starve (l_erase dbl l p) (l_erase dbl l p). Proof. unfold l_erase. starves. Qed.
  Lemma r_erase_range l p q : starve (l_erase_range dbl l p q) (l_erase_range dbl l p q). Proof. unfold l_erase_range. starves. Qed.
  Lemma r_push_front l v : starve (l_push_front (mem := mm) dbl l v) (l_push_front dbl l v). Proof. unfold l_push_front. starves. Qed.
  Lemma r_pop_front l : starve (l_pop_front dbl l) (l_pop_front dbl l). Proof. unfold l_pop_front. starves. Qed.
  Lemma r_push_back l v : starve (l_push_back (mem := mm) dbl l v) (l_push_back dbl l v). Proof. unfold l_push_back. starves. Qed.
  Lemma r_pop_back l : starve (l_pop_back dbl l) (l_pop_back dbl l). Proof. unfold l_pop_back. starves. Qed.
  Hint Resolve r_erase_after_range r_emplace r_insert r_erase r_erase_range r_push_front r_pop_front
    r_push_back r_pop_back : starve.
  Lemma r_back_advance k : forall p, starve (back_advance k p) (back_advance k p).
  Proof. induction k; intros p; cbn [back_advance]; starves. Qed.
  Hint Resolve r_back_advance : starve.
  Lemma r_shorten l n : starve (l_shorten dbl l n) (l_shorten dbl l n). Proof. unfold l_shorten. starves. Qed.
  Lemma r_extend_loop al tl vs : forall p, starve (extend_loop (mem := mm) dbl al p tl vs) (extend_loop dbl al p tl vs).
  Proof. induction vs; intros p; cbn [extend_loop]; starves. Qed.
  Hint Resolve r_shorten r_extend_loop : starve.
  Lemma r_extend l n v : starve (l_extend (mem := mm) dbl l n v) (l_extend dbl l n v). Proof. unfold l_extend. starves. Qed.
  Hint Resolve r_extend : starve.
  Lemma r_resize l n v : starve (l_resize (mem := mm) dbl l n v) (l_resize dbl l n v). Proof. unfold l_resize. starves. Qed.
  Hint Resolve r_resize : starve.
  Lemma r_real_tail_loop f : forall p tl, starve (real_tail_loop f p tl) (real_tail_loop f p tl).
  Proof. loop f. cbn [real_tail_loop]. starves; try apply IH. Qed.
  Hint Resolve r_real_tail_loop : starve.
  Lemma r_real_tail l : starve (real_tail dbl l) (real_tail dbl l). Proof. unfold real_tail. starves. Qed.
  Hint Resolve r_real_tail : starve.
  Lemma r_splice_after l p o : starve (l_splice_after dbl l p o) (l_splice_after dbl l p o). Proof. unfold l_splice_after. starves. Qed.
  Lemma r_splice_after_rv l p o : starve (l_splice_after_rv dbl l p o) (l_splice_after_rv dbl l p o). Proof. unfold l_splice_after_rv. starves. Qed.
  Lemma r_splice l p o : starve (l_splice dbl l p o) (l_splice dbl l p o). Proof. unfold l_splice. starves. Qed.
  Lemma r_splice_rv l p o : starve (l_splice_rv dbl l p o) (l_splice_rv dbl l p o). Proof. unfold l_splice_rv. starves. Qed.
  Hint Resolve r_splice_after r_splice_after_rv r_splice r_splice_rv : starve.
  Lemma r_remove_loop p f : (forall v, starve (p v) (p v)) -> forall l last cur n,
    starve (remove_loop dbl f l p last cur n) (remove_loop dbl f l p last cur n).
  Proof. intros Hp. loop f. cbn [remove_loop]. starves; try apply IH. Qed.
  Lemma r_remove_if l p : starve (l_remove_if dbl l p) (l_remove_if dbl l p).
  Proof. unfold l_remove_if, remove_if_m. starves. apply r_remove_loop. intros. prim. Qed.
  Hint Resolve r_remove_if : starve.
  Lemma r_rev_fwd_loop f : forall p pr tl,
    starve (rev_fwd_loop dbl f p pr tl) (rev_fwd_loop dbl f p pr tl).
  Proof. loop f. cbn [rev_fwd_loop]. starves; try apply IH. Qed.
  Hint Resolve r_rev_fwd_loop : starve.
  Lemma r_swap p : starve (swap_links p) (swap_links p). Proof. unfold swap_links. starves. Qed.
  Hint Resolve r_swap : starve.
  Lemma r_rev_dbl_loop f : forall p ap, starve (rev_dbl_loop f p ap) (rev_dbl_loop f p ap).
  Proof. loop f. cbn [rev_dbl_loop]. starves; try apply IH. Qed.
  Hint Resolve r_rev_dbl_loop : starve.
  Lemma r_rev_fwd l : starve (rev_fwd dbl l) (rev_fwd dbl l). Proof. unfold rev_fwd. starves. Qed.
  Lemma r_rev_dbl l : starve (rev_dbl l) (rev_dbl l). Proof. unfold rev_dbl. starves. Qed.
  Lemma r_reverse l : starve (l_reverse dbl l) (l_reverse dbl l).
  Proof. unfold l_reverse. destruct dbl eqn:E; [apply r_rev_dbl|]. rewrite <-E. apply r_rev_fwd. Qed.
  Hint Resolve r_reverse : starve.
  Lemma r_unique_loop r f : forall l bc last cur n,
    starve (unique_loop dbl f l r bc last cur n) (unique_loop dbl f l r bc last cur n).
  Proof. loop f. cbn [unique_loop]. starves; try apply IH. Qed.
  Hint Resolve r_unique_loop : starve.
  Lemma r_unique l r : starve (l_unique dbl l r) (l_unique dbl l r). Proof. unfold l_unique. starves. Qed.
  Hint Resolve r_unique : starve.
  Lemma r_m_end p : starve (m_end p) (m_end p). Proof. unfold m_end. starves. Qed.
  Hint Resolve r_m_end : starve.
  Lemma r_merge_loop lt f : forall a b p,
    starve (merge_loop dbl f lt a b p) (merge_loop dbl f lt a b p).
  Proof. loop f. cbn [merge_loop]. starves; try apply IH. Qed.
  Lemma r_last_loop f : forall p, starve (last_loop f p) (last_loop f p).
  Proof. loop f. cbn [last_loop]. starves; try apply IH. Qed.
  Hint Resolve r_merge_loop r_last_loop : starve.
  Lemma r_merge_nodes lt a b : starve (merge_nodes dbl lt a b) (merge_nodes dbl lt a b). Proof. unfold merge_nodes. starves. Qed.
  Hint Resolve r_merge_nodes : starve.
  Lemma r_s_end p : starve (s_end p) (s_end p). Proof. unfold s_end. starves. Qed.
  Hint Resolve r_s_end : starve.
  Lemma r_mid_loop f : forall a b, starve (mid_loop f a b) (mid_loop f a b).
  Proof. loop f. cbn [mid_loop]. starves; try apply IH. Qed.
  Hint Resolve r_mid_loop : starve.
  Lemma r_merge_sort lt f : forall p, starve (merge_sort dbl f lt p) (merge_sort dbl f lt p).
  Proof. loop f. cbn [merge_sort]. starves; try apply IH. Qed.
  Hint Resolve r_merge_sort : starve.
  Lemma r_sort l lt : starve (l_sort dbl l lt) (l_sort dbl l lt). Proof. unfold l_sort. starves. Qed.
  Lemma r_merge l o lt : starve (l_merge dbl l o lt) (l_merge dbl l o lt). Proof. unfold l_merge. starves. Qed.
  Lemma r_merge_rv l o lt : starve (l_merge_rv dbl l o lt) (l_merge_rv dbl l o lt). Proof. unfold l_merge_rv. starves. Qed.
  Hint Resolve r_sort r_merge r_merge_rv : starve.
  Lemma r_into_run calls : forall l, starve (into_run dbl l calls) (into_run dbl l calls).
  Proof.
    induction calls; intros l; cbn [into_run]; [prim|]. unfold into_next, into_prev. starves.
  Qed.
  Hint Resolve r_into_run : starve.
  Lemma r_into_iter l calls : starve (l_into_iter dbl l calls) (l_into_iter dbl l calls). Proof. unfold l_into_iter, l_move. starves. Qed.
  Hint Resolve r_into_iter : starve.
  Lemma r_print_loop f : forall lo hi i n,
    starve (print_loop f lo hi i n) (print_loop f lo hi i n).
  Proof. loop f. cbn [print_loop]. starves; try apply IH. Qed.
  Hint Resolve r_print_loop : starve.
  Lemma r_print l : starve (l_print dbl l) (l_print dbl l). Proof. unfold l_print. starves. Qed.
  Lemma r_pos_loop q f : forall p n, starve (pos_loop f p q n) (pos_loop f p q n).
  Proof. loop f. cbn [pos_loop]. starves; try apply IH. Qed.
  Hint Resolve r_print r_pos_loop : starve.
  Lemma r_pos l p : starve (l_pos l p) (l_pos l p). Proof. unfold l_pos. starves. Qed.
  Hint Resolve r_pos : starve.


  (** Whatever the state, and whichever requests fail: the operation does what
      it does with enough memory if every request it makes is met, and is
      undefined otherwise. *)
  Lemma step_starve o : wstarve (list_step (mem := mm) dbl o) (list_step dbl o).
  Proof.
    destruct o; cbn [list_step]; unfold l_obs, l_upd, l_at, l_at2, l_updo, l_mk, l_two_ne, l_two, l_move, l_swap,
      l_new, l_copy, l_copy_alloc;
      repeat (first [apply ws_ret | apply ws_fail | apply ws_get | apply ws_set | apply ws_new | apply ws_del
        | apply ws_bind; intros | apply ws_lift
        | match goal with |- Oom.wstarve _ (match ?x with _ => _ end) _ => destruct x end]); starves.
  Qed.
End ListOom.
