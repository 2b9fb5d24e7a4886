(** * VecOom: vectors when memory runs out

    [allocate] (include/mstl/collection/vector.h:798-803) and
    [allocate_reserve] (805-816) store what the allocator answers without
    looking at it.  A request that failed leaves a vector with the null pointer
    and the capacity that was asked for.  Here: every function of the model
    under a memory [mm] in which some requests fail is compared with the same
    function under the endless memory. *)
From stdpp Require Import prelude gmap.
From Verif Require Import Base World Oom VecModel VecSpec VecFacts VecProofs VecProofs2 VecRefine VecMore VecBreaks.
Local Open Scope N_scope.

Section Thin.
  Context {A : Type} (mm : N -> bool).
  Notation heap := (heap (block A)).
  Notation VM := (M heap).
  Implicit Types (h : heap) (v : vec) (p : option N).

  (** What is left of a pointer, of a heap and of a vector when the requests
      that [mm] turns down are not there. *)
  Definition thin_p p : option N :=
    match p with Some a => if mm a then Some a else None | None => None end.
  Definition thin h : heap :=
    Heap (filter (fun kv => mm kv.1 = true) (hmap h)) (hnext h) (hmoves h).
  Definition thin_v v : vec := Vec (v_len v) (v_cap v) (thin_p (v_ptr v)) (v_alloc v).

  (** In a block that is not there, nothing was ever constructed. *)
  Definition unused h : Prop :=
    hwf h /\ forall a b, hmap h !! a = Some b -> mm a = false -> forallb is_raw (b_cells b) = true.

  (** [m] under [mm] against [m'] under the endless memory: undefined, and then
      some request was turned down; or else the same but for what is not there. *)
  Definition sim {X} (t : X -> X) (m m' : VM X) : Prop :=
    forall h x h1, m' h = Ok (x, h1) ->
      hnext h <= hnext h1 /\
      (unused h -> (m (thin h) = Err UB /\ roomy mm 0 (hnext h1) = false) \/
                   (m (thin h) = Ok (t x, thin h1) /\ unused h1)).

  Lemma lookup_thin h a b : hmap (thin h) !! a = Some b <-> hmap h !! a = Some b /\ mm a = true.
  Proof. simpl. by rewrite map_filter_lookup_Some. Qed.
  Lemma lookup_thin_there h a : mm a = true -> hmap (thin h) !! a = hmap h !! a.
  Proof.
    intros Hm. destruct (hmap h !! a) as [b|] eqn:E; [by apply lookup_thin|].
    destruct (hmap (thin h) !! a) as [b|] eqn:E'; [|done]. apply lookup_thin in E' as [? _]. congruence.
  Qed.
  Lemma roomy_false k n : k < n -> mm k = false -> roomy mm 0 n = false.
  Proof.
    intros Hk Hm. apply not_true_iff_false. rewrite roomy_true. intros H. rewrite H in Hm by lia. done.
  Qed.
  Lemma roomy_false_le n n' : n <= n' -> roomy mm 0 n = false -> roomy mm 0 n' = false.
  Proof.
    intros Hn. rewrite <- !not_true_iff_false, !roomy_true. intros H H'. apply H. intros k Hk. apply H'. lia.
  Qed.

  Lemma sim_ret {X} (t : X -> X) x y : y = t x -> sim t (ret y) (ret x).
  Proof. intros -> h ? ? [= <- <-]. split; [done|]. by right. Qed.
  Lemma sim_fail {X} (t : X -> X) m e : sim t m (fail e).
  Proof. intros h x h1 [=]. Qed.
  Lemma sim_bind {X Y} (t : X -> X) (u : Y -> Y) (m m' : VM X) (k k' : X -> VM Y) :
    sim t m m' -> (forall x, sim u (k (t x)) (k' x)) -> sim u (bind m k) (bind m' k').
  Proof.
    intros Hm Hk h y h2 Hb. unfold bind in Hb. destruct (m' h) as [[x h1]|] eqn:E; [|done].
    destruct (Hm _ _ _ E) as [Hn Hm1]. destruct (Hk x _ _ _ Hb) as [Hn2 Hk2]. split; [lia|].
    intros Hu. unfold bind. destruct (Hm1 Hu) as [[-> Hr]|[-> Hu1]]; [|by apply Hk2].
    left. split; [done|]. by eapply roomy_false_le.
  Qed.
  Lemma sim_id {X} (m m' : VM X) : sim (fun x => x) m m' -> sim id m m'.
  Proof. done. Qed.

  (** Access to a slot: undefined if the block is not there. *)
  Lemma sim_slot {X} (t : X -> X) p i (k k' : N * block A * cell A -> VM X) :
    (forall a b c, mm a = true -> sim t (k (a, b, c)) (k' (a, b, c))) ->
    (forall a b c h x h1, k' (a, b, c) h = Ok (x, h1) -> hnext h <= hnext h1) ->
    sim t (bind (slot (thin_p p) i) k) (bind (slot p i) k').
  Proof.
    intros Hk Hg h x h1 Hb. destruct p as [a|]; [|done].
    unfold slot, bind, hread in Hb. destruct (hmap h !! a) as [b|] eqn:E; [|done].
    destruct (nlookup (b_cells b) i) as [c|] eqn:Ei; [|done]. simpl in Hb.
    split; [by eapply Hg|]. intros Hu. cbn [thin_p]. destruct (mm a) eqn:Em.
    - destruct (Hk a b c Em _ _ _ Hb) as [_ Hk2]. specialize (Hk2 Hu).
      unfold slot, bind, hread. rewrite lookup_thin_there, E, Ei by done. done.
    - left. split; [done|]. apply Hg in Hb. apply (roomy_false a); [|done].
      enough (a < hnext h) by lia. apply Hu. by eexists.
  Qed.
  Lemma sim_set a b i c : mm a = true -> sim id (set_slot a b i c) (set_slot a b i c).
  Proof.
    intros Hm h x h1 Hb. unfold set_slot, hwrite in *. destruct (hmap h !! a) as [b0|] eqn:E; [|done].
    injection Hb as <- <-. split; [done|]. intros [Hw Hu]. right. rewrite lookup_thin_there, E by done.
    split.
    - do 2 f_equal. unfold thin. cbn [hmap hnext hmoves]. f_equal. by rewrite map_filter_insert_True.
    - split.
      + intros a'. cbn [hmap hnext]. rewrite lookup_insert_is_Some. intros [<-|[_ ?]]; [apply Hw; by eexists|by apply Hw].
      + intros a' b' Ha Hm'. cbn [hmap] in Ha. apply lookup_insert_Some in Ha as [[<- _]|[_ Ha]]; [congruence|by eapply Hu].
  Qed.
  Lemma grow_set a b i c h x h1 : set_slot (A := A) a b i c h = Ok (x, h1) -> hnext h <= hnext h1.
  Proof. unfold set_slot, hwrite. destruct (_ !! _); [|done]. intros [= <- <-]. done. Qed.
  Lemma sim_tick : sim id htick htick.
  Proof.
    intros h x h1 [= <- <-]. split; [done|]. intros Hu. right. done.
  Qed.
  Ltac grow := let H := fresh in intros ? ? [] ? ? ? H; first [done | by eapply grow_set | by injection H as <- <-].

  Lemma sim_vread p i : sim id (vread (thin_p p) i) (vread p i).
  Proof.
    apply sim_slot; [|grow]. intros a b [] Hm; try apply sim_fail. by apply sim_ret.
  Qed.
  Lemma sim_vconstruct p i x : sim id (vconstruct (thin_p p) i x) (vconstruct p i x).
  Proof.
    apply sim_slot; [|grow]. intros a b [] Hm; try apply sim_fail. by apply sim_set.
  Qed.
  Lemma sim_vdestroy p i : sim id (vdestroy (thin_p p) i) (vdestroy p i).
  Proof.
    apply sim_slot; [|grow]. intros a b [] Hm; try apply sim_fail; by apply sim_set.
  Qed.
  Lemma sim_vassign p i x : sim id (vassign (thin_p p) i x) (vassign p i x).
  Proof.
    apply sim_slot; [|grow]. intros a b [] Hm; try apply sim_fail; by apply sim_set.
  Qed.
  Lemma sim_vmove p i : sim id (vmove (thin_p p) i) (vmove p i).
  Proof.
    apply sim_slot.
    - intros a b [] Hm; try apply sim_fail. eapply sim_bind; [by apply sim_set|]. intros [].
      eapply sim_bind; [apply sim_tick|]. intros []. by apply sim_ret.
    - intros a b [] h x h1 H; try done. unfold bind in H. destruct (set_slot _ _ _ _ h) as [[? h2]|] eqn:E; [|done].
      apply grow_set in E. by injection H as <- <-.
  Qed.

  Context (sz : N).
  Lemma forallb_raw n : forallb is_raw (replicate n (@Raw A)) = true.
  Proof. by induction n. Qed.
  Lemma sim_alloc al n : sim thin_p (alloc_raw (A := A) (mem := mm) sz al n) (alloc_raw sz al n).
  Proof.
    unfold alloc_raw. destruct (_ <=? _); [|by apply sim_ret].
    intros h x h1 [= <- <-]. cbn [hnext]. split; [lia|]. intros [Hw Hu]. right. split.
    - unfold hnew, room. cbn [hnext thin thin_p]. destruct (mm (hnext h)) eqn:E; do 2 f_equal; unfold thin; cbn [hmap hnext hmoves]; f_equal.
      + by rewrite map_filter_insert_True.
      + rewrite map_filter_insert_False; [|cbn; by rewrite ?E]. rewrite delete_notin; [done|].
        destruct (hmap h !! hnext h) eqn:E2; [|done]. exfalso. apply (N.lt_irrefl (hnext h)), Hw. by eexists.
    - split.
      + intros a'. cbn [hmap hnext]. rewrite lookup_insert_is_Some. intros [<-|[_ H]]; [lia|]. apply Hw in H. lia.
      + intros a' b' Ha Hm'. cbn [hmap] in Ha. apply lookup_insert_Some in Ha as [[<- <-]|[_ Ha]]; [apply forallb_raw|by eapply Hu].
  Qed.
  Lemma sim_dealloc al p n : sim id (dealloc_raw (A := A) sz al (thin_p p) n) (dealloc_raw sz al p n).
  Proof.
    destruct p as [a|]; [|by apply sim_ret]. intros h x h1 Hb. unfold dealloc_raw, bind, hread in Hb.
    destruct (hmap h !! a) as [b|] eqn:E; [|done]. destruct (negb (_ =? al)) eqn:E1; [done|].
    destruct (negb (b_bytes b =? _)) eqn:E2; [done|]. destruct (negb (forallb _ _)) eqn:E3; [done|].
    unfold hfree in Hb. rewrite E in Hb. injection Hb as <- <-. split; [done|]. intros [Hw Hu]. right.
    split; [|split].
    - cbn [thin_p]. destruct (mm a) eqn:Em.
      + unfold dealloc_raw, bind, hread, hfree. rewrite lookup_thin_there, E by done. rewrite E1, E2, E3.
        rewrite lookup_thin_there, E by done. unfold thin. cbn [hmap hnext hmoves]. by rewrite map_filter_delete.
      + unfold dealloc_raw, ret. do 2 f_equal. unfold thin. cbn [hmap hnext hmoves]. f_equal.
        rewrite map_filter_delete. rewrite delete_notin; [done|]. apply map_filter_lookup_None. right.
        intros ? _. simpl. by rewrite Em.
    - intros a'. cbn [hmap hnext]. rewrite lookup_delete_is_Some. intros [_ ?]. by apply Hw.
    - intros a' b' Ha Hm'. cbn [hmap] in Ha. apply lookup_delete_Some in Ha as [_ Ha]. by eapply Hu.
  Qed.

  (** ** One lemma per function *)
  Definition thin_vx {X} (r : vec * X) : vec * X := (thin_v r.1, r.2).
  Definition thin_vv (r : vec * vec) : vec * vec := (thin_v r.1, thin_v r.2).
  Definition thin_xv {X} (r : X * vec) : X * vec := (r.1, thin_v r.2).

  Lemma sim_for n (f f' : N -> VM unit) : (forall i, sim id (f i) (f' i)) ->
    forall i, sim id (for_up n i f) (for_up n i f').
  Proof.
    intros Hf. induction n as [|n IH]; intros i; cbn [for_up]; [by apply sim_ret|].
    eapply sim_bind; [apply Hf|]. intros []. apply IH.
  Qed.
  Lemma sim_repeat {X} (t : X -> X) n (f f' : X -> VM X) : (forall x, sim t (f (t x)) (f' x)) ->
    forall x, sim t (repeat_m n f (t x)) (repeat_m n f' x).
  Proof.
    intros Hf. induction n as [|n IH]; intros i; cbn [repeat_m]; [by apply sim_ret|].
    eapply sim_bind; [apply Hf|]. intros x. apply IH.
  Qed.

  Hint Resolve sim_vread sim_vconstruct sim_vdestroy sim_vassign sim_vmove sim_alloc sim_dealloc
    sim_tick : simdb.
  Ltac simp := cbn [thin_v v_len v_cap v_ptr v_alloc id set_len thin_vx thin_vv thin_xv fst snd ii_vec ii_pos ii_len].
  Ltac go1 :=
    simp;
    match goal with
    | |- sim _ (if ?c then _ else _) (if ?c then _ else _) => destruct c
    | |- sim _ (match ?c with _ => _ end) (match ?c with _ => _ end) => destruct c
    | |- sim _ _ (fail _) => apply sim_fail
    | |- sim _ (ret _) (ret _) => apply sim_ret; done
    | |- sim _ (for_up _ _ _) (for_up _ _ _) => apply sim_for; intros ?
    | |- sim _ (repeat_m _ _ _) (repeat_m _ _ _) => apply (sim_repeat thin_v); intros ?
    | |- sim _ (bind (if ?c then _ else _) _) _ => destruct c
    | |- sim _ (bind (for_up _ _ _) _) _ => apply (sim_bind id); [apply sim_for; intros ?|intros []]
    | |- sim _ (bind (repeat_m _ _ _) _) _ => apply (sim_bind thin_v); [apply (sim_repeat thin_v); intros ?|intros ?]
    | |- sim _ (bind (ret _) _) _ => first [apply (sim_bind thin_v); [apply sim_ret; done|intros ?] | apply (sim_bind id); [apply sim_ret; done|intros []]]
    | |- sim _ (bind _ _) (bind _ _) => eapply sim_bind; [solve [eauto 2 with simdb]|intros ?]
    | |- sim _ _ _ => solve [eauto 2 with simdb]
    end.
  Ltac go := repeat go1.

  Lemma sim_destroy_all v : sim thin_v (destroy_all (A := A) (thin_v v)) (destroy_all v).
  Proof. unfold destroy_all. go. Qed.
  Hint Resolve sim_destroy_all : simdb.
  Lemma sim_deallocate v : sim thin_v (deallocate (A := A) sz (thin_v v)) (deallocate sz v).
  Proof. unfold deallocate. go. Qed.
  Hint Resolve sim_deallocate : simdb.
  Lemma sim_clear v : sim thin_v (clear (A := A) sz (thin_v v)) (clear sz v).
  Proof. unfold clear. go. Qed.
  Hint Resolve sim_clear : simdb.
  Lemma sim_allocate v n : sim thin_v (allocate (A := A) (mem := mm) sz (thin_v v) n) (allocate sz v n).
  Proof. unfold allocate. go. Qed.
  Hint Resolve sim_allocate : simdb.
  Lemma sim_allocate_reserve v n :
    sim thin_v (allocate_reserve (A := A) (mem := mm) sz (thin_v v) n) (allocate_reserve sz v n).
  Proof. unfold allocate_reserve. go. Qed.
  Hint Resolve sim_allocate_reserve : simdb.
  Lemma sim_reserve v n : sim thin_v (reserve (A := A) (mem := mm) sz (thin_v v) n) (reserve sz v n).
  Proof. unfold reserve. go. Qed.
  Hint Resolve sim_reserve : simdb.
  Lemma sim_extend v : sim thin_v (extend_space (A := A) (mem := mm) sz (thin_v v)) (extend_space sz v).
  Proof. unfold extend_space. go. Qed.
  Hint Resolve sim_extend : simdb.
  Lemma sim_push_back_m v rd rd' : sim id rd rd' ->
    sim thin_v (push_back_m (A := A) (mem := mm) sz (thin_v v) rd) (push_back_m sz v rd').
  Proof. intros Hrd. unfold push_back_m. go. Qed.
  Lemma sim_rd x : sim id (ret x : VM A) (ret x).
  Proof. by apply sim_ret. Qed.
  Hint Resolve sim_push_back_m sim_rd : simdb.
  Lemma sim_push_back v x : sim thin_v (push_back (A := A) (mem := mm) sz (thin_v v) x) (push_back sz v x).
  Proof. unfold push_back. go. Qed.
  Hint Resolve sim_push_back : simdb.
  Lemma sim_emplace_back v x :
    sim thin_vx (emplace_back (A := A) (mem := mm) sz (thin_v v) x) (emplace_back sz v x).
  Proof. unfold emplace_back. go. Qed.
  Lemma sim_pop_back v : sim thin_v (pop_back (A := A) (thin_v v)) (pop_back v).
  Proof. unfold pop_back. go. Qed.
  Hint Resolve sim_pop_back sim_emplace_back : simdb.
  Lemma sim_resize_m v n rd rd' : sim id rd rd' ->
    sim thin_v (resize_m (A := A) (mem := mm) sz (thin_v v) n rd) (resize_m sz v n rd').
  Proof. intros Hrd. unfold resize_m. go. Qed.
  Lemma sim_assign_fill v n rd rd' : sim id rd rd' ->
    sim thin_v (assign_fill_m (A := A) (mem := mm) sz (thin_v v) n rd) (assign_fill_m sz v n rd').
  Proof. intros Hrd. unfold assign_fill_m. go. Qed.
  Hint Resolve sim_resize_m sim_assign_fill : simdb.
  Lemma sim_push_all xs : forall v,
    sim thin_v (push_all (A := A) (mem := mm) sz xs (thin_v v)) (push_all sz xs v).
  Proof. induction xs as [|x xs IH]; intros v; cbn [push_all]; go; apply IH. Qed.
  Hint Resolve sim_push_all : simdb.
  Lemma sim_assign_list v xs :
    sim thin_v (assign_list (A := A) (mem := mm) sz (thin_v v) xs) (assign_list sz v xs).
  Proof. unfold assign_list. go. Qed.
  Lemma sim_construct_all p xs : forall i,
    sim id (construct_all (A := A) (thin_p p) i xs) (construct_all p i xs).
  Proof. induction xs as [|x xs IH]; intros i; cbn [construct_all]; go; apply IH. Qed.
  Lemma sim_assign_all p xs : forall i, sim id (assign_all (A := A) (thin_p p) i xs) (assign_all p i xs).
  Proof. induction xs as [|x xs IH]; intros i; cbn [assign_all]; go; apply IH. Qed.
  Hint Resolve sim_assign_list sim_construct_all sim_assign_all : simdb.
  Lemma thin_null c l al : Vec l c None al = thin_v (Vec l c None al).
  Proof. done. Qed.
  Lemma sim_new_list al xs : sim thin_v (new_list (A := A) (mem := mm) sz al xs) (new_list sz al xs).
  Proof. unfold new_list. rewrite thin_null at 1. go. Qed.
  Lemma sim_new_default : sim thin_v (new_default (A := A) (mem := mm) sz) (new_default sz).
  Proof. unfold new_default. rewrite thin_null at 1. go. Qed.
  Lemma sim_new_alloc al : sim thin_v (new_alloc (A := A) al) (new_alloc al).
  Proof. unfold new_alloc. go. Qed.
  Lemma sim_new_fill al n x : sim thin_v (new_fill (A := A) (mem := mm) sz al n x) (new_fill sz al n x).
  Proof. unfold new_fill. rewrite thin_null at 1. go. Qed.
  Hint Resolve sim_new_list sim_new_default sim_new_alloc sim_new_fill : simdb.
  Lemma sim_construct_back xs : forall v,
    sim thin_v (construct_back (A := A) (thin_v v) xs) (construct_back v xs).
  Proof. induction xs as [|x xs IH]; intros v; cbn [construct_back]; go; apply (IH (set_len v _)). Qed.
  Hint Resolve sim_construct_back : simdb.
  Lemma sim_new_range al xs : sim thin_v (new_range (A := A) (mem := mm) sz al xs) (new_range sz al xs).
  Proof. unfold new_range. rewrite thin_null at 1. go. Qed.
  Lemma sim_copy_impl v r :
    sim thin_v (copy_impl (A := A) (mem := mm) sz (thin_v v) (thin_v r)) (copy_impl sz v r).
  Proof. unfold copy_impl. go. Qed.
  Hint Resolve sim_new_range sim_copy_impl : simdb.
  Lemma sim_new_copy al r : sim thin_v (new_copy (A := A) (mem := mm) sz al (thin_v r)) (new_copy sz al r).
  Proof. unfold new_copy. rewrite thin_null at 1. go. Qed.
  Lemma sim_from_iter xs : sim thin_v (from_iter (A := A) (mem := mm) sz xs) (from_iter sz xs).
  Proof. unfold from_iter. go. Qed.
  Hint Resolve sim_new_copy sim_from_iter : simdb.
  Lemma sim_copy_assign v r :
    sim thin_v (copy_assign (A := A) (mem := mm) sz (thin_v v) (thin_v r)) (copy_assign sz v r).
  Proof. unfold copy_assign. go. Qed.
  Lemma sim_move_assign v r :
    sim thin_vv (move_assign (A := A) sz (thin_v v) (thin_v r)) (move_assign sz v r).
  Proof. unfold move_assign. go. Qed.
  Lemma sim_assign_ilist strict v xs :
    sim thin_v (assign_ilist (A := A) (mem := mm) sz strict (thin_v v) xs) (assign_ilist sz strict v xs).
  Proof. unfold assign_ilist. go. Qed.
  Hint Resolve sim_copy_assign sim_move_assign sim_assign_ilist : simdb.
  Lemma sim_meb n p pos count : forall hi,
    sim id (meb_loop (A := A) n (thin_p p) pos count hi) (meb_loop n p pos count hi).
  Proof. induction n as [|n IH]; intros hi; cbn [meb_loop]; go; apply IH. Qed.
  Hint Resolve sim_meb : simdb.
  Lemma sim_back v pos count :
    sim thin_v (move_elements_back (A := A) (mem := mm) sz (thin_v v) pos count) (move_elements_back sz v pos count).
  Proof. unfold move_elements_back. go. Qed.
  Hint Resolve sim_back : simdb.
  Lemma sim_emplace v (p : N) x :
    sim thin_v (emplace (A := A) (mem := mm) sz (thin_v v) p x) (emplace sz v p x).
  Proof. unfold emplace. go. Qed.
  Hint Resolve sim_emplace : simdb.
  Lemma sim_insert1 v (p : N) x :
    sim thin_vx (insert1 (A := A) (mem := mm) sz (thin_v v) p x) (insert1 sz v p x).
  Proof. unfold insert1. go. Qed.
  Lemma sim_insert_fill v (p : N) n rd rd' : sim id rd rd' ->
    sim thin_vx (insert_fill_m (A := A) (mem := mm) sz (thin_v v) p n rd) (insert_fill_m sz v p n rd').
  Proof. intros Hrd. unfold insert_fill_m. go. Qed.
  Lemma sim_insert_range v (p : N) xs :
    sim thin_vx (insert_range (A := A) (mem := mm) sz (thin_v v) p xs) (insert_range sz v p xs).
  Proof. unfold insert_range. go. Qed.
  Lemma sim_std_move p a b c : sim id (std_move (A := A) (thin_p p) a b c) (std_move p a b c).
  Proof. unfold std_move. go. Qed.
  Hint Resolve sim_insert1 sim_insert_fill sim_insert_range sim_std_move : simdb.
  Lemma sim_erase1 v (p : N) : sim thin_vx (erase1 (A := A) (thin_v v) p) (erase1 v p).
  Proof. unfold erase1. go. Qed.
  Lemma sim_erase_range v (p q : N) : sim thin_vx (erase_range (A := A) (thin_v v) p q) (erase_range v p q).
  Proof. unfold erase_range. go. Qed.
  Hint Resolve sim_erase1 sim_erase_range : simdb.
  Lemma sim_at v i : sim id (at_ (A := A) (thin_v v) i) (at_ v i).
  Proof. unfold at_. go. Qed.
  Lemma sim_front v : sim id (front (A := A) (thin_v v)) (front v).
  Proof. unfold front. go. Qed.
  Lemma sim_back_ v : sim id (back (A := A) (thin_v v)) (back v).
  Proof. unfold back. go. Qed.
  Definition thin_it {X} (r : X * viter) : X * viter :=
    (r.1, VIter (thin_p (vi_ptr r.2)) (vi_cur r.2) (vi_end r.2)).
  Lemma sim_viter_next it :
    sim thin_it (viter_next (A := A) (VIter (thin_p (vi_ptr it)) (vi_cur it) (vi_end it))) (viter_next it).
  Proof. unfold viter_next. cbn [vi_ptr vi_cur vi_end]. go. Qed.
  Hint Resolve sim_at sim_front sim_back_ sim_viter_next : simdb.
  Lemma sim_viter_collect n : forall it,
    sim id (viter_collect (A := A) n (VIter (thin_p (vi_ptr it)) (vi_cur it) (vi_end it))) (viter_collect n it).
  Proof.
    induction n as [|n IH]; intros it; cbn [viter_collect]; [go|].
    eapply sim_bind; [apply sim_viter_next|]. intros [[x|] it1]; cbn [thin_it fst snd]; [|go].
    eapply sim_bind; [apply IH|]. intros xs. go.
  Qed.
  Lemma sim_collect v : sim id (collect (A := A) (thin_v v)) (collect v).
  Proof. unfold collect, iter. apply (sim_viter_collect _ (VIter (v_ptr v) 0 (v_len v))). Qed.
  Lemma sim_eq_loop eqb n p q : forall i,
    sim id (eq_loop (A := A) eqb n i (thin_p p) (thin_p q)) (eq_loop eqb n i p q).
  Proof. induction n as [|n IH]; intros i; cbn [eq_loop]; go; apply IH. Qed.
  Hint Resolve sim_collect sim_eq_loop : simdb.
  Lemma sim_vec_eq eqb v r : sim id (vec_eq (A := A) eqb (thin_v v) (thin_v r)) (vec_eq eqb v r).
  Proof. unfold vec_eq. go. Qed.
  Lemma sim_cmp_loop cmp n p q c : forall i,
    sim id (cmp_loop (A := A) cmp n i (thin_p p) (thin_p q) c) (cmp_loop cmp n i p q c).
  Proof. induction n as [|n IH]; intros i; cbn [cmp_loop]; go; apply IH. Qed.
  Hint Resolve sim_vec_eq sim_cmp_loop : simdb.
  Lemma sim_vec_cmp cmp v r : sim id (vec_cmp (A := A) cmp (thin_v v) (thin_v r)) (vec_cmp cmp v r).
  Proof. unfold vec_cmp. go. Qed.
  Lemma sim_print_loop n v : forall i, sim id (print_loop (A := A) n i (thin_v v)) (print_loop n i v).
  Proof.
    induction n as [|n IH]; intros i; cbn [print_loop]; [go|]. go1. eapply sim_bind; [apply IH|]. intros ?. go.
  Qed.
  Hint Resolve sim_vec_cmp sim_print_loop : simdb.
  Lemma sim_print v : sim id (print (A := A) (thin_v v)) (print v).
  Proof. unfold print. go. Qed.
  Hint Resolve sim_print : simdb.
  Lemma sim_set_index v i x : sim id (set_index (A := A) (thin_v v) i x) (set_index v i x).
  Proof. unfold set_index. go. Qed.
  Lemma sim_index v i : sim id (index (A := A) (thin_v v) i) (index v i).
  Proof. unfold index. go. Qed.
  Hint Resolve sim_set_index sim_index : simdb.

  (** ** Programs over variables *)
  Notation World_ := (world (block A) vec).
  Definition wthin (w : World_) : World_ := World (thin (w_heap w)) (thin_v <$> w_vars w).
  Definition wsim {X} (t : X -> X) (m m' : M World_ X) : Prop :=
    forall w x w1, m' w = Ok (x, w1) ->
      hnext (w_heap w) <= hnext (w_heap w1) /\
      (unused (w_heap w) ->
       (m (wthin w) = Err UB /\ roomy mm 0 (hnext (w_heap w1)) = false) \/
       (m (wthin w) = Ok (t x, wthin w1) /\ unused (w_heap w1))).
  Lemma ws_ret {X} (t : X -> X) x y : y = t x -> wsim t (ret y) (ret x).
  Proof. intros -> h ? ? [= <- <-]. split; [done|]. by right. Qed.
  Lemma ws_bind {X Y} (t : X -> X) (u : Y -> Y) (m m' : M World_ X) (k k' : X -> M World_ Y) :
    wsim t m m' -> (forall x, wsim u (k (t x)) (k' x)) -> wsim u (bind m k) (bind m' k').
  Proof.
    intros Hm Hk h y h2 Hb. unfold bind in Hb. destruct (m' h) as [[x h1]|] eqn:E; [|done].
    destruct (Hm _ _ _ E) as [Hn Hm1]. destruct (Hk x _ _ _ Hb) as [Hn2 Hk2]. split; [lia|].
    intros Hu. unfold bind. destruct (Hm1 Hu) as [[-> Hr]|[-> Hu1]]; [|by apply Hk2].
    left. split; [done|]. by eapply roomy_false_le.
  Qed.
  Lemma ws_lift {X} (t : X -> X) (m m' : VM X) : sim t m m' -> wsim t (lift m) (lift m').
  Proof.
    intros Hm w x w1 Hb. unfold lift in Hb. destruct (m' (w_heap w)) as [[y h1]|] eqn:E; [|done].
    injection Hb as <- <-. destruct (Hm _ _ _ E) as [Hn H]. split; [done|]. intros Hu. unfold lift. cbn [wthin w_heap].
    destruct (H Hu) as [[-> Hr]|[-> Hu1]]; [by left|by right].
  Qed.
  Lemma ws_get i : wsim thin_v (wget i) (wget i).
  Proof.
    intros w x w1 Hb. unfold wget in *. cbn [wthin w_vars]. rewrite lookup_fmap.
    destruct (w_vars w !! i); [|done]. injection Hb as <- <-. split; [done|]. by right.
  Qed.
  Lemma ws_set i v : wsim id (wset i (thin_v v)) (wset i v).
  Proof.
    intros w x w1 [= <- <-]. split; [done|]. intros Hu. right. split; [|done]. unfold wset, wthin. cbn [w_vars w_heap].
    by rewrite fmap_insert.
  Qed.
  Lemma ws_new i : wsim id (wnew i) (wnew i).
  Proof.
    intros w x w1 Hb. unfold wnew in *. cbn [wthin w_vars]. rewrite lookup_fmap.
    destruct (w_vars w !! i); [done|]. injection Hb as <- <-. split; [done|]. by right.
  Qed.
  Lemma ws_del i : wsim id (wdel i) (wdel i).
  Proof.
    intros w x w1 [= <- <-]. split; [done|]. intros Hu. right. split; [|done]. unfold wdel, wthin. cbn [w_vars w_heap].
    by rewrite fmap_delete.
  Qed.
  Lemma ws_set_unit i v (m m' : M World_ (vout A)) : wsim id m m' ->
    wsim id (wset i (thin_v v) ;;; m) (wset i v ;;; m').
  Proof. intros H. eapply ws_bind; [apply ws_set|]. by intros _. Qed.

  Lemma ws_mk i m m' : sim thin_v m m' -> wsim id (mk i m) (mk i m').
  Proof.
    intros H. eapply ws_bind; [apply ws_new|]. intros _. eapply ws_bind; [by apply ws_lift|]. intros v.
    apply ws_set_unit. by apply ws_ret.
  Qed.
  Lemma ws_upd1 i f f' : (forall v, sim thin_v (f (thin_v v)) (f' v)) -> wsim id (upd1 i f) (upd1 i f').
  Proof.
    intros H. eapply ws_bind; [apply ws_get|]. intros v. eapply ws_bind; [apply ws_lift, H|]. intros v1.
    apply ws_set_unit. by apply ws_ret.
  Qed.
  Lemma ws_upd1o {X} i (f f' : vec -> VM (vec * X)) g :
    (forall v, sim thin_vx (f (thin_v v)) (f' v)) -> wsim id (upd1o i f g) (upd1o i f' g).
  Proof.
    intros H. eapply ws_bind; [apply ws_get|]. intros v. eapply ws_bind; [apply ws_lift, H|]. intros [v1 x].
    cbn [thin_vx fst snd]. apply ws_set_unit. by apply ws_ret.
  Qed.
  Lemma ws_obs {X} i (f f' : vec -> VM X) g :
    (forall v, sim id (f (thin_v v)) (f' v)) -> wsim id (obs i f g) (obs i f' g).
  Proof.
    intros H. eapply ws_bind; [apply ws_get|]. intros v. eapply ws_bind; [apply ws_lift, H|]. intros x.
    by apply ws_ret.
  Qed.

  Context (dflt : A) (eqb : A -> A -> bool) (cmp : A -> A -> comparison).
  Notation step := (vec_step (mem := endless) sz dflt eqb cmp).
  Notation step_mm := (vec_step (mem := mm) sz dflt eqb cmp).
  Theorem step_sim o : wsim id (step_mm o) (step o).
  Proof.
    destruct o; cbn [vec_step];
      try solve [apply ws_mk; eauto 3 with simdb
                |apply ws_upd1; intros ?; eauto 3 with simdb
                |apply ws_upd1o; intros ?; eauto 3 with simdb
                |apply ws_obs; intros ?; first [by apply sim_ret | eauto 3 with simdb]
                |eapply ws_bind; [apply ws_get|]; intros ?; apply ws_mk; eauto 3 with simdb
                |eapply ws_bind; [apply ws_get|]; intros ?; apply ws_obs; intros ?; eauto 3 with simdb].
    - eapply ws_bind; [apply ws_new|]. intros _. eapply ws_bind; [apply ws_get|]. intros r. cbn [move_impl].
      apply (ws_set_unit _ (Vec 0 0 None (v_alloc r))). apply (ws_set_unit _ (Vec (v_len r) (v_cap r) (v_ptr r) (v_alloc r))). by apply ws_ret.
    - eapply ws_bind; [apply ws_get|]. intros v. eapply ws_bind; [apply ws_lift, sim_clear|]. intros _.
      eapply ws_bind; [apply ws_del|]. intros _. by apply ws_ret.
    - eapply ws_bind; [apply ws_get|]. intros v. eapply ws_bind; [apply ws_get|]. intros r.
      destruct (Nat.eqb i j); [by apply ws_ret|]. eapply ws_bind; [apply ws_lift, sim_copy_assign|]. intros v1.
      apply ws_set_unit. by apply ws_ret.
    - eapply ws_bind; [apply ws_get|]. intros v. eapply ws_bind; [apply ws_get|]. intros r.
      destruct (Nat.eqb i j); [by apply ws_ret|]. eapply ws_bind; [apply ws_lift, sim_move_assign|]. intros [v1 r1].
      cbn [thin_vv fst snd]. apply ws_set_unit, ws_set_unit. by apply ws_ret.
    - eapply ws_bind; [apply ws_get|]. intros v. eapply ws_bind; [apply ws_get|]. intros r.
      cbn [swap]. apply ws_set_unit, ws_set_unit. by apply ws_ret.
  Qed.
  Lemma run_sim ops : wsim id (run_ops step_mm ops) (run_ops step ops).
  Proof.
    induction ops as [|o ops IH]; cbn [run_ops]; [by apply ws_ret|].
    eapply ws_bind; [apply step_sim|]. intros x. eapply ws_bind; [apply IH|]. intros xs. by apply ws_ret.
  Qed.

  Lemma unused_init : unused hempty.
  Proof. split; [intros a []; done|]. intros a b. simpl. by rewrite lookup_empty. Qed.
  Lemma wthin_init : wthin winit = winit.
  Proof.
    unfold wthin, winit, thin, hempty. cbn [w_heap w_vars hmap hnext hmoves].
    by rewrite map_filter_empty, fmap_empty.
  Qed.

  (** ** Histories *)
  Context (lmax : N) (Hsz : 1 <= sz) (Hlim : sz * (2 * lmax + 2) <= alloc_max).
  Notation wok := (world_ok (@vrep A sz lmax)).

  Lemma thin_there v : (forall a, v_ptr v = Some a -> mm a = true) -> thin_v v = v.
  Proof.
    intros H. destruct v as [l c [a|] al]; [|done]. unfold thin_v, thin_p. cbn in *. by rewrite H.
  Qed.
  Lemma thin_heap_there h : hwf h -> roomy mm 0 (hnext h) = true -> thin h = h.
  Proof.
    intros Hw Hr. rewrite roomy_true in Hr. destruct h as [m n k]. unfold thin. cbn [hmap hnext hmoves]. f_equal.
    apply map_filter_id. intros a b Ha. cbn. apply Hr. split; [lia|]. apply Hw. by eexists.
  Qed.
  Lemma thin_world_there w sp : wok w sp -> roomy mm 0 (hnext (w_heap w)) = true -> wthin w = w.
  Proof.
    intros [m Hw] Hr. destruct w as [h vs]. unfold wthin. cbn [w_heap w_vars] in *. f_equal.
    - apply thin_heap_there; [apply Hw|done].
    - apply map_eq. intros i. rewrite lookup_fmap. destruct (vs !! i) as [v|] eqn:E; [|done]. cbn. f_equal.
      apply thin_there. intros a Ha. destruct (world_ok_lookup _ _ _ _ _ _ Hw E) as (e & He & <- & Hs).
      apply (wo_rep _ _ _ _ Hw) in He as (_&_&_&Hp). rewrite Ha in Hp. destruct Hp as [_ Hp].
      rewrite roomy_true in Hr. apply Hr. split; [lia|]. apply (wo_wf _ _ _ _ Hw). by eexists.
  Qed.

  Notation good := (good dflt eqb cmp lmax).
  Notation run := (vec_run (mem := endless) sz dflt eqb cmp).
  Notation run_mm := (vec_run (mem := mm) sz dflt eqb cmp).

  Lemma good_sim ops s outs : good ops s outs -> exists w, run ops = Ok (outs, w) /\ wok w s /\
    ((run_mm ops = Err UB /\ roomy mm 0 (hnext (w_heap w)) = false) \/
     (run_mm ops = Ok (outs, wthin w) /\ unused (w_heap w))).
  Proof using Hsz Hlim.
    intros Hg. destruct (good_run sz lmax dflt eqb cmp Hsz Hlim _ _ _ Hg) as (w & E & Hw).
    exists w. split; [done|]. split; [done|]. destruct (run_sim ops _ _ _ E) as [_ H].
    rewrite wthin_init in H. by apply H, unused_init.
  Qed.

  (** A vector that holds elements has its storage. *)
  Lemma unused_empty w s i v xs a : wok w s -> unused (w_heap w) -> w_vars w !! i = Some v ->
    s !! i = Some xs -> v_ptr v = Some a -> mm a = false -> xs = [].
  Proof using Type. clear Hsz Hlim.
    intros [m Hw] [_ Hu] Hv Hs Ha Hm. destruct (world_ok_lookup_spec _ _ _ _ _ _ Hw Hs) as (e & He & <- & Hv' & Hr).
    rewrite Hv in Hv'. injection Hv' as ->. destruct Hr as (_&_&_&Hp). rewrite Ha in Hp. destruct Hp as [_ Hp].
    specialize (Hu _ _ Hp Hm). cbn [b_cells] in Hu. unfold vcells in Hu. destruct (e_s e); [done|]. done.
  Qed.

  (** *** C70 for vectors *)
  (** With room for every request nothing changes.  Otherwise the program is
      undefined, or it goes on and nobody can tell: every call returns what it
      would have returned, sizes and capacities are as they would have been,
      and the vectors whose storage is missing are empty ones. *)
  Theorem C70_vec_partial ops s outs : good ops s outs -> exists w, run ops = Ok (outs, w) /\
    (roomy mm 0 (hnext (w_heap w)) = true -> run_mm ops = Ok (outs, w)) /\
    (run_mm ops = Err UB \/
     exists w1, run_mm ops = Ok (outs, w1) /\ forall i v xs, w_vars w !! i = Some v -> s !! i = Some xs ->
       exists v1, w_vars w1 !! i = Some v1 /\ size v1 = nlen xs /\ capacity v1 = capacity v /\
         v_alloc v1 = v_alloc v /\
         ((v_ptr v1 = v_ptr v /\ forall a, v_ptr v = Some a -> mm a = true /\ hmap (w_heap w1) !! a = hmap (w_heap w) !! a) \/
          (v_ptr v1 = None /\ xs = [] /\ exists a, v_ptr v = Some a /\ mm a = false))).
  Proof using Hsz Hlim.
    intros Hg. destruct (good_sim _ _ _ Hg) as (w & E & Hw & Hm). exists w. split; [done|]. split.
    - intros Hr. destruct Hm as [[_ Hf]|[-> _]]; [congruence|]. by rewrite (thin_world_there w s).
    - destruct Hm as [[-> _]|[-> Hu]]; [by left|]. right. eexists. split; [done|]. intros i v xs Hv Hs.
      exists (thin_v v). split; [unfold wthin; cbn; by rewrite lookup_fmap, Hv|].
      assert (v_len v = nlen xs) as Hl.
      { destruct Hw as [m Hw]. destruct (world_ok_lookup_spec _ _ _ _ _ _ Hw Hs) as (e & He & <- & Hv' & Hr).
        rewrite Hv in Hv'. injection Hv' as ->. apply Hr. }
      split; [done|]. split; [done|]. split; [done|]. cbn [thin_v v_ptr]. destruct (v_ptr v) as [a|] eqn:Ea.
      + cbn [thin_p]. destruct (mm a) eqn:Em.
        * left. split; [done|]. intros a' [= <-]. split; [done|]. by apply lookup_thin_there.
        * right. split; [done|]. split; [by eapply unused_empty|]. eauto.
      + left. split; [done|]. intros a [=].
  Qed.

  (** A vector that is to hold elements in storage that was turned down: the
      program is undefined, whatever follows. *)
  Lemma run_ub ops os : run_mm ops = Err UB -> run_mm (ops ++ os) = Err UB.
  Proof using Type. clear Hsz Hlim.
    unfold vec_run. generalize (@winit (block A) vec). induction ops as [|o ops IH]; intros w; [done|].
    cbn [run_ops app]. unfold bind. destruct (step_mm o w) as [[x w1]|]; [|done].
    destruct (run_ops step_mm ops w1) as [[xs w2]|] eqn:E; [done|]. intros [= ->]. by rewrite IH.
  Qed.
  Theorem C70_vec_undefined ops s outs w i v x xs a os : good ops s outs -> run ops = Ok (outs, w) ->
    w_vars w !! i = Some v -> s !! i = Some (x :: xs) -> v_ptr v = Some a -> mm a = false ->
    run_mm (ops ++ os) = Err UB.
  Proof using Hsz Hlim.
    intros Hg E Hv Hs Ha Hm. apply run_ub. destruct (good_sim _ _ _ Hg) as (w' & E' & Hw & Hc).
    rewrite E in E'. injection E' as <-. destruct Hc as [[-> _]|[-> Hu]]; [done|].
    by pose proof (unused_empty _ _ _ _ _ _ Hw Hu Hv Hs Ha Hm).
  Qed.

  (** A default constructor whose request fails, and [reserve] on an empty
      vector, return as if nothing had happened; the capacity is a lie. *)
  Lemma alloc_none al n h : sz * n <= alloc_max -> mm (hnext h) = false ->
    alloc_raw (A := A) (mem := mm) sz al n h = Ok (None, Heap (hmap h) (hnext h + 1) (hmoves h)).
  Proof using Type. clear Hsz Hlim.
    intros Hn Hm. unfold alloc_raw. rewrite umul_small by (eapply N.le_lt_trans; [exact Hn|done]).
    rewrite (proj2 (N.leb_le _ _) Hn). unfold hnew, room. by rewrite Hm.
  Qed.
  Theorem C70_vec_silent_default ops s outs w i : good ops s outs -> run_mm ops = Ok (outs, w) ->
    s !! i = None -> mm (hnext (w_heap w)) = false ->
    exists w1 v, run_mm (ops ++ [VNew i; VSize i; VIterAll i]) = Ok (outs ++ [ONone; ONum 0; OSeq []], w1) /\
      w_vars w1 !! i = Some v /\ capacity v = 2 /\ hmap (w_heap w1) = hmap (w_heap w) /\
      forall x os, run_mm (ops ++ VNew i :: VPush i x :: os) = Err UB.
  Proof using Hsz Hlim.
    intros Hg E Hi Hm. assert (w_vars w !! i = None) as Hv.
    { destruct (good_sim _ _ _ Hg) as (w' & E' & [m Hw] & Hc). rewrite E in Hc.
      destruct Hc as [[? _]|[[= ->] _]]; [done|]. destruct (world_ok_none _ _ _ _ _ Hw Hi) as [_ Hv].
      unfold wthin. cbn. by rewrite lookup_fmap, Hv. }
    set (v0 := Vec 0 2 None 0).
    assert (Hst : step_mm (VNew i) w = Ok (ONone, World (Heap (hmap (w_heap w)) (hnext (w_heap w) + 1) (hmoves (w_heap w))) (<[i := v0]> (w_vars w)))).
    { cbn [vec_step]. unfold mk, bind, wnew. rewrite Hv. unfold lift, new_default, allocate, bind. cbn [v_alloc].
      rewrite alloc_none; [done|nia|done]. }
    unfold vec_run in *. eexists _, v0. split.
    - rewrite (run_app _ _ _ _ _ _ E). cbn [run_ops]. unfold bind at 1. rewrite Hst.
      cbn [vec_step]. unfold obs, bind, wget, lift, ret. cbn [w_vars w_heap]. rewrite lookup_insert. cbn [w_vars w_heap].
      rewrite lookup_insert. cbn. done.
    - cbn [w_vars w_heap]. rewrite lookup_insert. split; [done|]. split; [done|]. split; [done|]. intros x os.
      rewrite (run_app _ _ _ _ _ _ E). cbn [run_ops]. unfold bind at 1. rewrite Hst.
      cbn [vec_step]. unfold upd1, bind, wget, lift. cbn [w_vars w_heap]. rewrite lookup_insert. done.
  Qed.
  Theorem C70_vec_silent_reserve ops s outs w i n : good ops s outs -> run_mm ops = Ok (outs, w) ->
    s !! i = Some [] -> (forall v, w_vars w !! i = Some v -> capacity v < n) -> n <= lmax ->
    mm (hnext (w_heap w)) = false ->
    exists w1 v, run_mm (ops ++ [VReserve i n; VSize i; VIterAll i]) = Ok (outs ++ [ONone; ONum 0; OSeq []], w1) /\
      w_vars w1 !! i = Some v /\ capacity v = n /\
      forall x os, run_mm (ops ++ VReserve i n :: VPush i x :: os) = Err UB.
  Proof using Hsz Hlim.
    intros Hg E Hi Hcap Hn Hm. destruct (good_sim _ _ _ Hg) as (w' & E' & [m Hw] & Hc). rewrite E in Hc.
    destruct Hc as [[? _]|[[= ->] Hu]]; [done|].
    destruct (world_ok_lookup_spec _ _ _ _ _ _ Hw Hi) as (e & He & Hes & Hv & Hr).
    assert (Hv1 : w_vars (wthin w') !! i = Some (thin_v (e_o e))).
    { unfold wthin. cbn. by rewrite lookup_fmap, Hv. }
    specialize (Hcap _ Hv1). cbn [capacity thin_v v_cap] in Hcap. set (al := v_alloc (e_o e)).
    destruct Hr as (Hl & _ & _ & Hp). change (nlen (@nil A)) with 0 in Hl.
    set (h1 := Heap (hmap (thin (w_heap w'))) (hnext (w_heap w') + 1) (hmoves (w_heap w'))).
    assert (exists h2, dealloc_raw sz al (thin_p (v_ptr (e_o e))) (v_cap (e_o e)) h1 = Ok (tt, h2)) as [h2 Hd].
    { destruct (v_ptr (e_o e)) as [a|] eqn:Ea; [|by eexists]. cbn [thin_p]. destruct (mm a) eqn:Em; [|by eexists].
      destruct Hp as [_ Hp]. unfold dealloc_raw, bind, hread. unfold h1. cbn [hmap].
      rewrite <-(lookup_thin_there _ _ Em) in Hp. rewrite Hp. cbn [b_alloc b_bytes b_cells].
      rewrite N.eqb_refl. cbn [negb]. assert (v_cap (e_o e) <= 2 * lmax + 2) as Hc2 by lia.
      apply (cmax_W sz lmax Hsz Hlim) in Hc2 as (_ & Hc2 & _).
      unfold umul. rewrite (N.mul_comm (v_cap _)), N.mod_small by done. rewrite N.eqb_refl. cbn [negb].
      unfold vcells. cbn [fmap list_fmap app]. rewrite forallb_raw. cbn [negb]. unfold hfree. cbn [hmap]. rewrite Hp. by eexists. }
    set (v0 := Vec 0 n None al).
    assert (Hst : step_mm (VReserve i n) (wthin w') = Ok (ONone, World h2 (<[i := v0]> (w_vars (wthin w'))))).
    { cbn [vec_step]. unfold upd1, bind at 1, wget. rewrite Hv1. unfold lift, reserve. cbn [thin_v v_cap].
      destruct (N.ltb_spec (v_cap (e_o e)) n); [|lia].
      assert (allocate_reserve (mem := mm) sz (thin_v (e_o e)) n (thin (w_heap w')) = Ok (v0, h2)) as Ha.
      { unfold allocate_reserve, clear, destroy_all, deallocate. cbn [thin_v v_len v_ptr v_alloc v_cap].
        rewrite Hl. unfold bind. rewrite alloc_none; [|nia|done]. cbn [for_up N.to_nat]. unfold ret.
        cbn [v_len v_ptr v_alloc v_cap]. fold al. change (Heap _ _ _) with h1. rewrite Hd. done. }
      unfold bind. cbn [wthin w_heap]. rewrite Ha. done. }
    unfold vec_run in *. eexists _, v0. split.
    - rewrite (run_app _ _ _ _ _ _ E). cbn [run_ops]. unfold bind at 1. rewrite Hst.
      cbn [vec_step]. unfold obs, bind, wget, lift, ret. cbn [w_vars w_heap]. rewrite lookup_insert. cbn [w_vars w_heap].
      rewrite lookup_insert. cbn. done.
    - cbn [w_vars w_heap]. rewrite lookup_insert. split; [done|]. split; [done|]. intros x os.
      rewrite (run_app _ _ _ _ _ _ E). cbn [run_ops]. unfold bind at 1. rewrite Hst.
      cbn [vec_step]. unfold upd1, bind, wget, lift. cbn [w_vars w_heap]. rewrite lookup_insert.
      unfold push_back, push_back_m, bind, v0. cbn [v_cap v_len]. destruct (N.leb_spec n 0); [lia|]. done.
  Qed.
End Thin.

(** The claim as a user would have it: running out of memory is never
    undefined behaviour. *)
Theorem C70_vec_refuted {A} (sz lmax : N) (x : A) eqb cmp : 1 <= lmax ->
  ~ (forall (mm : N -> bool) ops s outs, good x eqb cmp lmax ops s outs ->
       vec_run (mem := mm) sz x eqb cmp ops <> Err UB).
Proof.
  intros Hl Hc. apply (Hc (fun _ => false) [VNew 0; VPush 0 x] (<[0%nat := [x]]> (<[0%nat := []]> ∅)) [ONone; ONone]).
  - split; [reflexivity|]. cbn. repeat split; intros i xs [[_ <-]|[_ H]]%lookup_insert_Some;
      first [apply lookup_insert_Some in H as [[_ <-]|[_ H]]; [cbn; lia|by rewrite lookup_empty in H]
            |by rewrite lookup_empty in H|cbn; lia].
  - unfold vec_run, run_ops, bind, vec_step, mk, bind, wnew. cbn [winit w_vars]. rewrite lookup_empty.
    unfold lift, new_default, allocate, alloc_raw, bind. cbn [w_heap].
    destruct (_ <=? _); [unfold hnew, room|]; done.
Qed.

(** Two vectors in a memory that has room for two requests. *)
Example C70_vec_ex :
  let run mm := vec_run (mem := mm) 4 0%nat Nat.eqb Nat.compare in
  let m2 := fun k => k <? 2 in
  let outs r := match r with Ok (o, _) => Some o | Err _ => None end in
  outs (run m2 [VNew 0; VPush 0 7%nat; VNew 1; VPush 1 8%nat; VPush 0 9%nat; VNew 2; VReserve 2 9; VSize 2; VClear 2; VIterAll 0; VDestroy 2; VNewCopy 2 1])
    = None /\
  outs (run m2 [VNew 0; VPush 0 7%nat; VNew 1; VPush 1 8%nat; VPush 0 9%nat; VNew 2; VReserve 2 9; VSize 2; VClear 2; VIterAll 0; VDestroy 2; VSwap 0 1; VIterAll 1])
    = Some [ONone; ONone; ONone; ONone; ONone; ONone; ONone; ONum 0; ONone; OSeq [7; 9]%nat; ONone; ONone; OSeq [7; 9]%nat] /\
  run m2 [VNew 0; VPush 0 7%nat; VPush 0 8%nat; VPush 0 9%nat; VPush 0 1%nat; VPush 0 2%nat] = Err UB.
Proof. vm_compute. done. Qed.

Print Assumptions C70_vec_partial.
Print Assumptions C70_vec_undefined.
Print Assumptions C70_vec_silent_default.
Print Assumptions C70_vec_silent_reserve.
Print Assumptions C70_vec_refuted.
