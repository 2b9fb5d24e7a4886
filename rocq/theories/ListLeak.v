(** * ListLeak: memory nobody points to does not change what list programs do

    An exception can leave blocks behind that no list owns ([ListThrow]).  Here:
    every function of [ListModel] and [ListStep] that returns does the same
    thing, step for step, when there are further blocks in memory. *)
From Verif Require Import Base World Machine IterSpec ListModel ListSeg ListOps ListStep ListSpec ListRefine ListNodes.
Local Open Scope N_scope.

Section Leak.
  Context {T : Type} (dbl : bool).
  Notation H := (heap (cell T)).
  Notation HM := (M H).
  Implicit Types (h : H) (g : gmap N (cell T)).

  (** The memory [h] and the blocks [g] besides. *)
  Definition plus h g : H := Heap (hmap h ∪ g) (hnext h) (hmoves h).
  (** They are other blocks, and allocated before. *)
  Definition besides g h : Prop := hmap h ##ₘ g /\ forall a, is_Some (g !! a) -> a < hnext h.

  (** What [m] returns, [m'] returns with the blocks besides. *)
  Definition rides {A} (m m' : HM A) : Prop :=
    forall h g x h', besides g h -> m h = Ok (x, h') -> besides g h' /\ m' (plus h g) = Ok (x, plus h' g).

  Lemma rides_ret {A} (x : A) : rides (ret x) (ret x).
  Proof. intros h g y h' Hb [= <- <-]. done. Qed.
  Lemma rides_fail {A} e (m : HM A) : rides (fail e) m.
  Proof. by intros h g y h' Hb [=]. Qed.
  Lemma rides_bind {A B} (m m' : HM A) (k k' : A -> HM B) :
    rides m m' -> (forall x, rides (k x) (k' x)) -> rides (bind m k) (bind m' k').
  Proof.
    intros Hm Hk h g y h' Hb. unfold bind. destruct (m h) as [[x h1]|] eqn:E; [|done]. intros E2.
    destruct (Hm _ _ _ _ Hb E) as [Hb1 ->]. by apply Hk.
  Qed.
  Lemma rides_read a : rides (hread a) (hread a).
  Proof.
    intros h g c h' Hb. unfold hread, plus. simpl. destruct (hmap h !! a) as [d|] eqn:E; [|done].
    intros [= <- <-]. split; [done|]. by rewrite (lookup_union_Some_l _ _ _ _ E).
  Qed.
  Lemma rides_write a c : rides (hwrite a c) (hwrite a c).
  Proof.
    intros h g [] h' [Hd Hn]. unfold hwrite, plus. simpl. destruct (hmap h !! a) as [d|] eqn:E; [|done].
    intros [= <-]. simpl. rewrite (lookup_union_Some_l _ _ _ _ E). split; [split; [|done]|].
    - simpl. apply map_disjoint_insert_l_2; [|done]. by eapply map_disjoint_Some_l.
    - by rewrite insert_union_l.
  Qed.
  Lemma rides_free a : rides (hfree a) (hfree a).
  Proof.
    intros h g [] h' [Hd Hn]. unfold hfree, plus. simpl. destruct (hmap h !! a) as [d|] eqn:E; [|done].
    intros [= <-]. simpl. rewrite (lookup_union_Some_l _ _ _ _ E). split; [split; [|done]|].
    - simpl. by apply map_disjoint_delete_l.
    - rewrite delete_union, (delete_notin g); [done|]. by eapply map_disjoint_Some_l.
  Qed.
  Lemma rides_alloc c : rides (halloc c) (halloc c).
  Proof.
    intros h g a h' [Hd Hn]. unfold halloc, plus. intros [= <- <-]. simpl. split; [split|].
    - simpl. apply map_disjoint_insert_l_2; [|done]. destruct (g !! hnext h) as [d|] eqn:E; [|done].
      pose proof (Hn (hnext h) (mk_is_Some _ _ E)). lia.
    - intros a Ha. simpl. pose proof (Hn a Ha). lia.
    - by rewrite insert_union_l.
  Qed.
  Lemma rides_tick : rides htick htick.
  Proof. intros h g [] h' [Hd Hn]. unfold htick. intros [= <-]. done. Qed.
  Lemma rides_fuel {A} (k k' : nat -> HM A) :
    (forall f f', (f <= f')%nat -> rides (k f) (k' f')) ->
    rides (bind nodes_in_memory k) (bind nodes_in_memory k').
  Proof.
    intros Hk h g y h' Hb. unfold bind, nodes_in_memory. apply Hk; [|done].
    simpl. apply le_n_S. rewrite <-!size_dom. apply subseteq_size. rewrite dom_union_L. set_solver.
  Qed.

  Ltac prim := first
    [ apply rides_ret | apply rides_fail | apply rides_read | apply rides_write | apply rides_free
    | apply rides_alloc | apply rides_tick ].
  Ltac ride := repeat (
    try prim; eauto 2 with rides;
    match goal with
    | |- rides (bind nodes_in_memory _) (bind nodes_in_memory _) => apply rides_fuel; intros
    | |- rides (bind _ _) (bind _ _) => apply rides_bind; intros
    | |- context [match ?x with _ => _ end] => destruct x
    | |- rides (match ?x with _ => _ end) _ => destruct x
    end).
  Create HintDb rides.
  Local Notation auto_rides m := (rides m m).

  Lemma r_rd p : auto_rides (rd p). Proof. destruct p; prim. Qed.
  Lemma r_wr p c : auto_rides (wr p c). Proof. destruct p; prim. Qed.
  Hint Resolve r_rd r_wr : rides.
  Lemma r_defd p : auto_rides (defd (T := T) p). Proof. destruct p; prim. Qed.
  Hint Resolve r_defd : rides.
  Lemma r_get_next p : auto_rides (get_next p). Proof. unfold get_next. ride. Qed.
  Lemma r_get_prev p : auto_rides (get_prev p). Proof. unfold get_prev. ride. Qed.
  Lemma r_put_next p q : auto_rides (put_next p q). Proof. unfold put_next. ride. Qed.
  Lemma r_put_prev p q : auto_rides (put_prev p q). Proof. unfold put_prev. ride. Qed.
  Lemma r_put_data p d : auto_rides (put_data p d). Proof. unfold put_data. ride. Qed.
  Lemma r_no_data p : auto_rides (no_data p). Proof. unfold no_data. ride. Qed.
  Lemma r_value p : auto_rides (value p). Proof. unfold value. ride. Qed.
  Hint Resolve r_get_next r_get_prev r_put_next r_put_prev r_put_data r_no_data r_value : rides.
  Lemma r_set_next p q : auto_rides (set_next dbl p q). Proof. unfold set_next. ride. Qed.
  Hint Resolve r_set_next : rides.
  Lemma r_alloc_node al : auto_rides (alloc_node al). Proof. unfold alloc_node. rewrite hnew_endless. ride. Qed.
  Lemma r_alloc_data al : auto_rides (alloc_node_with_data al). Proof. unfold alloc_node_with_data. rewrite hnew_endless. ride. Qed.
  Hint Resolve r_alloc_node r_alloc_data : rides.
  Lemma r_build al : auto_rides (build_virtual_node dbl al). Proof. unfold build_virtual_node. ride. Qed.
  Lemma r_construct al v : auto_rides (construct_node al v). Proof. unfold construct_node. ride. Qed.
  Lemma r_dealloc al ly p : auto_rides (dealloc al ly p). Proof. unfold dealloc. ride. Qed.
  Hint Resolve r_build r_construct r_dealloc : rides.
  Lemma r_destroy_node al p : auto_rides (destroy_node al p). Proof. unfold destroy_node. ride. Qed.
  Lemma r_init al : auto_rides (init_empty_list dbl al). Proof. unfold init_empty_list. ride. Qed.
  Hint Resolve r_destroy_node r_init : rides.
  Lemma r_append al vs : forall p, auto_rides (append dbl al p vs).
  Proof. induction vs; intros p; cbn [append]; ride. Qed.
  Hint Resolve r_append : rides.
  Lemma r_range al vs : auto_rides (l_range dbl al vs). Proof. unfold l_range. ride. Qed.
  Lemma r_count al n v : auto_rides (l_count dbl al n v). Proof. unfold l_count. ride. Qed.
  Lemma r_from vs : auto_rides (l_from_iter dbl vs). Proof. unfold l_from_iter. ride. Qed.
  Hint Resolve r_range r_count r_from : rides.

  Ltac loop f f' := induction f as [|f IH]; intros f'; intros; [prim|];
    destruct f' as [|f']; [lia|].
  Lemma r_copy_loop al f : forall f' rp stop p n, (f <= f')%nat ->
    rides (copy_loop dbl f al rp stop p n) (copy_loop dbl f' al rp stop p n).
  Proof. loop f f'. cbn [copy_loop]. ride. apply IH. lia. Qed.
  Hint Resolve r_copy_loop : rides.
  Lemma r_copy_impl al o : auto_rides (copy_impl dbl al o). Proof. unfold copy_impl. ride. Qed.
  Hint Resolve r_copy_impl : rides.
  Lemma r_destroy_run al f : forall f' cur stop n, (f <= f')%nat ->
    rides (destroy_run f al cur stop n) (destroy_run f' al cur stop n).
  Proof. loop f f'. cbn [destroy_run]. ride. apply IH. lia. Qed.
  Hint Resolve r_destroy_run : rides.
  Lemma r_clear l : auto_rides (l_clear dbl l). Proof. unfold l_clear. ride. Qed.
  Hint Resolve r_clear : rides.
  Lemma r_destroy l : auto_rides (l_destroy dbl l). Proof. unfold l_destroy. ride. Qed.
  Hint Resolve r_destroy : rides.
  Lemma r_move_loop al al' f : forall f' rp p n, (f <= f')%nat ->
    rides (move_loop dbl f al al' rp p n) (move_loop dbl f' al al' rp p n).
  Proof. loop f f'. cbn [move_loop]. ride. apply IH. lia. Qed.
  Hint Resolve r_move_loop : rides.
  Lemma r_move_alloc al o : auto_rides (l_move_alloc dbl al o). Proof. unfold l_move_alloc. ride. Qed.
  Lemma r_copy_assign l o : auto_rides (l_copy_assign dbl l o). Proof. unfold l_copy_assign. ride. Qed.
  Lemma r_move_assign l o : auto_rides (l_move_assign dbl l o). Proof. unfold l_move_assign. ride. Qed.
  Lemma r_ilist l vs : auto_rides (l_ilist_assign dbl l vs). Proof. unfold l_ilist_assign. ride. Qed.
  Lemma r_front l : auto_rides (l_front l). Proof. unfold l_front. ride. Qed.
  Lemma r_front_u l : auto_rides (l_front_unchecked l). Proof. unfold l_front_unchecked. ride. Qed.
  Lemma r_front_uc l : auto_rides (l_front_unchecked_const dbl l). Proof. unfold l_front_unchecked_const. ride. Qed.
  Lemma r_back l : auto_rides (l_back l). Proof. unfold l_back. ride. Qed.
  Lemma r_back_u l : auto_rides (l_back_unchecked l). Proof. unfold l_back_unchecked. ride. Qed.
  Hint Resolve r_move_alloc r_copy_assign r_move_assign r_ilist r_front r_front_u r_front_uc r_back r_back_u : rides.
  Lemma r_it_next it : auto_rides (it_next it). Proof. unfold it_next. ride. Qed.
  Lemma r_it_prev it : auto_rides (it_prev it). Proof. unfold it_prev. ride. Qed.
  Hint Resolve r_it_next r_it_prev : rides.
  Lemma r_it_run calls : forall it, auto_rides (it_run it calls).
  Proof. induction calls; intros it; cbn [it_run]; ride. Qed.
  Hint Resolve r_it_run : rides.
  Lemma r_iter l calls : auto_rides (l_iter l calls). Proof. unfold l_iter, it_new. ride. Qed.
  Lemma r_advance k : forall p, auto_rides (stl_advance k p).
  Proof. induction k; intros p; cbn [stl_advance]; ride. Qed.
  Lemma r_collect f : forall f' p stop, (f <= f')%nat -> rides (stl_collect f p stop) (stl_collect f' p stop).
  Proof. loop f f'. cbn [stl_collect]. ride. apply IH. lia. Qed.
  Lemma r_collect_back f : forall f' p stop, (f <= f')%nat ->
    rides (stl_collect_back f p stop) (stl_collect_back f' p stop).
  Proof. loop f f'. cbn [stl_collect_back]. ride. apply IH. lia. Qed.
  Hint Resolve r_iter r_advance r_collect r_collect_back : rides.
  Lemma r_to_list l : auto_rides (l_to_list l). Proof. unfold l_to_list. ride. Qed.
  Lemma r_to_list_back l : auto_rides (l_to_list_back l). Proof. unfold l_to_list_back. ride. Qed.
  Hint Resolve r_to_list r_to_list_back : rides.
  Lemma r_emplace_after l p v : auto_rides (l_emplace_after dbl l p v). Proof. unfold l_emplace_after. ride. Qed.
  Lemma r_insert_after l p vs : auto_rides (l_insert_after dbl l p vs). Proof. unfold l_insert_after. ride. Qed.
  Lemma r_erase_after l p : auto_rides (l_erase_after dbl l p). Proof. unfold l_erase_after. ride. Qed.
  Hint Resolve r_emplace_after r_insert_after r_erase_after : rides.
  Lemma r_erase_after_loop f : forall f' l p q, (f <= f')%nat ->
    rides (erase_after_loop dbl f l p q) (erase_after_loop dbl f' l p q).
  Proof. loop f f'. cbn [erase_after_loop]. ride. apply IH. lia. Qed.
  Hint Resolve r_erase_after_loop : rides.
  Lemma r_erase_after_range l p q : auto_rides (l_erase_after_range dbl l p q).
  Proof. unfold l_erase_after_range. ride. Qed.
  Lemma r_emplace l p v : auto_rides (l_emplace dbl l p v). Proof. unfold l_emplace. ride. Qed.
  Lemma r_insert l p vs : auto_rides (l_insert dbl l p vs). Proof. unfold l_insert. ride. Qed.
  Lemma r_erase l p : auto_rides (l_erase dbl l p). Proof. unfold l_erase. ride. Qed.
  Lemma r_erase_range l p q : auto_rides (l_erase_range dbl l p q). Proof. unfold l_erase_range. ride. Qed.
  Lemma r_push_front l v : auto_rides (l_push_front dbl l v). Proof. unfold l_push_front. ride. Qed.
  Lemma r_pop_front l : auto_rides (l_pop_front dbl l). Proof. unfold l_pop_front. ride. Qed.
  Lemma r_push_back l v : auto_rides (l_push_back dbl l v). Proof. unfold l_push_back. ride. Qed.
  Lemma r_pop_back l : auto_rides (l_pop_back dbl l). Proof. unfold l_pop_back. ride. Qed.
  Hint Resolve r_erase_after_range r_emplace r_insert r_erase r_erase_range r_push_front r_pop_front
    r_push_back r_pop_back : rides.
  Lemma r_back_advance k : forall p, auto_rides (back_advance k p).
  Proof. induction k; intros p; cbn [back_advance]; ride. Qed.
  Hint Resolve r_back_advance : rides.
  Lemma r_shorten l n : auto_rides (l_shorten dbl l n). Proof. unfold l_shorten. ride. Qed.
  Lemma r_extend_loop al tl vs : forall p, auto_rides (extend_loop dbl al p tl vs).
  Proof. induction vs; intros p; cbn [extend_loop]; ride. Qed.
  Hint Resolve r_shorten r_extend_loop : rides.
  Lemma r_extend l n v : auto_rides (l_extend dbl l n v). Proof. unfold l_extend. ride. Qed.
  Hint Resolve r_extend : rides.
  Lemma r_resize l n v : auto_rides (l_resize dbl l n v). Proof. unfold l_resize. ride. Qed.
  Hint Resolve r_resize : rides.
  Lemma r_real_tail_loop f : forall f' p tl, (f <= f')%nat -> rides (real_tail_loop f p tl) (real_tail_loop f' p tl).
  Proof. loop f f'. cbn [real_tail_loop]. ride. apply IH. lia. Qed.
  Hint Resolve r_real_tail_loop : rides.
  Lemma r_real_tail l : auto_rides (real_tail dbl l). Proof. unfold real_tail. ride. Qed.
  Hint Resolve r_real_tail : rides.
  Lemma r_splice_after l p o : auto_rides (l_splice_after dbl l p o). Proof. unfold l_splice_after. ride. Qed.
  Lemma r_splice_after_rv l p o : auto_rides (l_splice_after_rv dbl l p o). Proof. unfold l_splice_after_rv. ride. Qed.
  Lemma r_splice l p o : auto_rides (l_splice dbl l p o). Proof. unfold l_splice. ride. Qed.
  Lemma r_splice_rv l p o : auto_rides (l_splice_rv dbl l p o). Proof. unfold l_splice_rv. ride. Qed.
  Hint Resolve r_splice_after r_splice_after_rv r_splice r_splice_rv : rides.
  Lemma r_remove_loop p f : (forall v, auto_rides (p v)) -> forall f' l last cur n, (f <= f')%nat ->
    rides (remove_loop dbl f l p last cur n) (remove_loop dbl f' l p last cur n).
  Proof. intros Hp. loop f f'. cbn [remove_loop]. ride; apply IH; lia. Qed.
  Lemma r_remove_if l p : auto_rides (l_remove_if dbl l p).
  Proof. unfold l_remove_if, remove_if_m. ride. apply r_remove_loop; [|done]. intros. prim. Qed.
  Hint Resolve r_remove_if : rides.
  Lemma r_rev_fwd_loop f : forall f' p pr tl, (f <= f')%nat ->
    rides (rev_fwd_loop dbl f p pr tl) (rev_fwd_loop dbl f' p pr tl).
  Proof. loop f f'. cbn [rev_fwd_loop]. ride. apply IH. lia. Qed.
  Hint Resolve r_rev_fwd_loop : rides.
  Lemma r_swap p : auto_rides (swap_links p). Proof. unfold swap_links. ride. Qed.
  Hint Resolve r_swap : rides.
  Lemma r_rev_dbl_loop f : forall f' p ap, (f <= f')%nat -> rides (rev_dbl_loop f p ap) (rev_dbl_loop f' p ap).
  Proof. loop f f'. cbn [rev_dbl_loop]. ride; apply IH; lia. Qed.
  Hint Resolve r_rev_dbl_loop : rides.
  Lemma r_rev_fwd l : auto_rides (rev_fwd dbl l). Proof. unfold rev_fwd. ride. Qed.
  Lemma r_rev_dbl l : auto_rides (rev_dbl l). Proof. unfold rev_dbl. ride. Qed.
  Lemma r_reverse l : auto_rides (l_reverse dbl l).
  Proof. unfold l_reverse. destruct dbl eqn:E; [apply r_rev_dbl|]. rewrite <-E. apply r_rev_fwd. Qed.
  Hint Resolve r_reverse : rides.
  Lemma r_unique_loop r f : forall f' l bc last cur n, (f <= f')%nat ->
    rides (unique_loop dbl f l r bc last cur n) (unique_loop dbl f' l r bc last cur n).
  Proof. loop f f'. cbn [unique_loop]. ride; apply IH; lia. Qed.
  Hint Resolve r_unique_loop : rides.
  Lemma r_unique l r : auto_rides (l_unique dbl l r). Proof. unfold l_unique. ride. Qed.
  Hint Resolve r_unique : rides.
  Lemma r_m_end p : auto_rides (m_end p). Proof. unfold m_end. ride. Qed.
  Hint Resolve r_m_end : rides.
  Lemma r_merge_loop lt f : forall f' a b p, (f <= f')%nat ->
    rides (merge_loop dbl f lt a b p) (merge_loop dbl f' lt a b p).
  Proof. loop f f'. cbn [merge_loop]. ride; apply IH; lia. Qed.
  Lemma r_last_loop f : forall f' p, (f <= f')%nat -> rides (last_loop f p) (last_loop f' p).
  Proof. loop f f'. cbn [last_loop]. ride; apply IH; lia. Qed.
  Hint Resolve r_merge_loop r_last_loop : rides.
  Lemma r_merge_nodes lt a b : auto_rides (merge_nodes dbl lt a b). Proof. unfold merge_nodes. ride. Qed.
  Hint Resolve r_merge_nodes : rides.
  Lemma r_s_end p : auto_rides (s_end p). Proof. unfold s_end. ride. Qed.
  Hint Resolve r_s_end : rides.
  Lemma r_mid_loop f : forall f' a b, (f <= f')%nat -> rides (mid_loop f a b) (mid_loop f' a b).
  Proof. loop f f'. cbn [mid_loop]. ride; apply IH; lia. Qed.
  Hint Resolve r_mid_loop : rides.
  Lemma r_merge_sort lt f : forall f' p, (f <= f')%nat -> rides (merge_sort dbl f lt p) (merge_sort dbl f' lt p).
  Proof. loop f f'. cbn [merge_sort]. ride; apply IH; lia. Qed.
  Hint Resolve r_merge_sort : rides.
  Lemma r_sort l lt : auto_rides (l_sort dbl l lt). Proof. unfold l_sort. ride. Qed.
  Lemma r_merge l o lt : auto_rides (l_merge dbl l o lt). Proof. unfold l_merge. ride. Qed.
  Lemma r_merge_rv l o lt : auto_rides (l_merge_rv dbl l o lt). Proof. unfold l_merge_rv. ride. Qed.
  Hint Resolve r_sort r_merge r_merge_rv : rides.
  Lemma r_into_run calls : forall l, auto_rides (into_run dbl l calls).
  Proof.
    induction calls; intros l; cbn [into_run]; [prim|]. unfold into_next, into_prev. ride.
  Qed.
  Hint Resolve r_into_run : rides.
  Lemma r_into_iter l calls : auto_rides (l_into_iter dbl l calls). Proof. unfold l_into_iter, l_move. ride. Qed.
  Hint Resolve r_into_iter : rides.
  Lemma r_print_loop f : forall f' lo hi i n, (f <= f')%nat ->
    rides (print_loop f lo hi i n) (print_loop f' lo hi i n).
  Proof. loop f f'. cbn [print_loop]. ride; apply IH; lia. Qed.
  Hint Resolve r_print_loop : rides.
  Lemma r_print l : auto_rides (l_print dbl l). Proof. unfold l_print. ride. Qed.
  Lemma r_pos_loop q f : forall f' p n, (f <= f')%nat -> rides (pos_loop f p q n) (pos_loop f' p q n).
  Proof. loop f f'. cbn [pos_loop]. ride; apply IH; lia. Qed.
  Hint Resolve r_print r_pos_loop : rides.
  Lemma r_pos l p : auto_rides (l_pos l p). Proof. unfold l_pos. ride. Qed.
  Hint Resolve r_pos : rides.

  (** ** Programs *)
  Notation World' := (world (cell T) lst).
  Definition wplus (w : World') g : World' := World (plus (w_heap w) g) (w_vars w).
  Definition wrides {A} (m : M World' A) : Prop :=
    forall w g x w', besides g (w_heap w) -> m w = Ok (x, w') ->
      besides g (w_heap w') /\ m (wplus w g) = Ok (x, wplus w' g).
  Lemma wr_ret {A} (x : A) : wrides (ret x).
  Proof. intros w g y w' Hb [= <- <-]. done. Qed.
  Lemma wr_bind {A B} (m : M World' A) (k : A -> M World' B) :
    wrides m -> (forall x, wrides (k x)) -> wrides (bind m k).
  Proof.
    intros Hm Hk w g y w' Hb. unfold bind. destruct (m w) as [[x w1]|] eqn:E; [|done]. intros E2.
    destruct (Hm _ _ _ _ Hb E) as [Hb1 ->]. by apply Hk.
  Qed.
  Lemma wr_lift {A} (m : HM A) : auto_rides m -> wrides (lift m).
  Proof.
    intros Hm w g x w' Hb. unfold lift, wplus. simpl. destruct (m (w_heap w)) as [[y h']|] eqn:E; [|done].
    intros [= <- <-]. destruct (Hm _ _ _ _ Hb E) as [Hb1 ->]. done.
  Qed.
  Lemma wr_get i : wrides (wget i).
  Proof. intros w g x w' Hb. unfold wget, wplus. simpl. destruct (w_vars w !! i); [|done]. by intros [= <- <-]. Qed.
  Lemma wr_set i l : wrides (wset i l).
  Proof. intros w g x w' Hb. unfold wset, wplus. by intros [= <- <-]. Qed.
  Lemma wr_new i : wrides (wnew i).
  Proof. intros w g x w' Hb. unfold wnew, wplus. simpl. destruct (w_vars w !! i); [done|]. by intros [= <- <-]. Qed.
  Lemma wr_del i : wrides (wdel i).
  Proof. intros w g x w' Hb. unfold wdel, wplus. by intros [= <- <-]. Qed.
  Lemma step_rides o : wrides (list_step dbl o).
  Proof.
    destruct o; cbn [list_step]; unfold l_obs, l_upd, l_at, l_at2, l_updo, l_mk, l_two_ne, l_two, l_move, l_swap,
      l_new, l_copy, l_copy_alloc;
      repeat (first [apply wr_ret | apply wr_get | apply wr_set | apply wr_new | apply wr_del
        | apply wr_bind; intros | apply wr_lift
        | match goal with |- wrides (match ?x with _ => _ end) => destruct x end]); ride.
  Qed.
  Lemma run_rides ops : wrides (run_ops (list_step dbl) ops).
  Proof.
    induction ops as [|o ops IH]; cbn [run_ops]; [apply wr_ret|].
    apply wr_bind; [apply step_rides|]. intros x. apply wr_bind; [done|]. intros xs. apply wr_ret.
  Qed.

  (** The variables hold the sequences [sp], and [g] is lost. *)
  Definition lrel g sp (w : World') : Prop := exists w0, w = wplus w0 g /\ besides g (w_heap w0) /\ rel dbl sp w0.
  Lemma leak_hist ops : Forall ordered ops -> forall g sp w, lrel g sp w ->
    agrees (lrel g) (run_ops (list_step dbl) ops w) (srun (gspec dbl) sp ops).
  Proof.
    intros Ho g sp w (w0 & -> & Hb & Hr). pose proof (hist dbl ops Ho sp w0 Hr) as Ha.
    unfold agrees in *. destruct (srun (gspec dbl) sp ops) as [sp' outs| |] eqn:E; [| |done].
    - destruct Ha as (w1 & E1 & Hr1). destruct (run_rides ops _ g _ _ Hb E1) as [Hb1 E2].
      rewrite E2. exists (wplus w1 g). split; [done|]. by exists w1.
    - exfalso. clear Ha Ho Hr. revert E. generalize sp.
      induction ops as [|o ops IH]; intros s; simpl; [done|].
      assert (Hn : gspec dbl s o <> SPanic).
      { clear. unfold gspec. destruct (safe dbl s o); [|done].
        destruct o; cbn [lspec]; unfold fresh, look, live, need, take_over, give; repeat case_match; done. }
      destruct (gspec dbl s o) as [s1 x| |] eqn:E1; [|done|done].
      specialize (IH s1). destruct (srun _ s1 ops); [done| |done]. intros _. by apply IH.
  Qed.
End Leak.
