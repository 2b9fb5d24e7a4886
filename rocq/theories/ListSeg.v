(** * ListSeg: chains of nodes in memory *)
From Verif Require Import Base World ListModel.
Local Open Scope N_scope.
Notation nlen l := (N.of_nat (length l)).

Lemma bind_ok {S A B} (m : M S A) (k : A -> M S B) s a s' :
  m s = Ok (a, s') -> bind m k s = k a s'.
Proof. intros E. unfold bind. by rewrite E. Qed.
Lemma bind_bind {S A B C} (m : M S A) (k : A -> M S B) (k' : B -> M S C) s :
  bind (bind m k) k' s = bind m (fun a => bind (k a) k') s.
Proof. unfold bind. by destruct (m s) as [[? ?]|]. Qed.
Lemma bind_ret {S A B} (a : A) (k : A -> M S B) s : bind (ret a) k s = k a s.
Proof. done. Qed.

Section Seg.
  Context {T : Type} (dbl : bool).
  Notation H := (heap (cell T)).
  Implicit Types (h : H) (a p q : N) (ns : list (N * T)).

  (** ** What memory says about an address *)
  Definition nx h a : option lptr := n_next <$> (hmap h !! a).
  Definition pv h a : option lptr := n_prev <$> (hmap h !! a).
  Definition dt h a : option (lay * N * ldat T) :=
    (fun c => (n_lay c, n_al c, n_dat c)) <$> (hmap h !! a).
  Definition has h a : Prop := is_Some (hmap h !! a).

  Lemma has_nx h a x : nx h a = Some x -> has h a.
  Proof. unfold nx, has. destruct (hmap h !! a); [eauto|done]. Qed.
  Lemma has_pv h a x : pv h a = Some x -> has h a.
  Proof. unfold pv, has. destruct (hmap h !! a); [eauto|done]. Qed.
  Lemma has_dt h a x : dt h a = Some x -> has h a.
  Proof. unfold dt, has. destruct (hmap h !! a); [eauto|done]. Qed.

  (** ** The updates *)
  Definition upn h p n : H :=
    Heap (alter (fun c => Cell (n_lay c) (n_al c) (n_prev c) n (n_dat c)) p (hmap h)) (hnext h) (hmoves h).
  Definition upp h p n : H :=
    Heap (alter (fun c => Cell (n_lay c) (n_al c) n (n_next c) (n_dat c)) p (hmap h)) (hnext h) (hmoves h).
  Definition sn h p q : H :=
    if dbl then upp (upn h p (PAddr q)) q (PAddr p) else upn h p (PAddr q).
  Definition ins h (c : cell T) : H :=
    Heap (<[hnext h := c]> (hmap h)) (hnext h + 1) (hmoves h).
  Definition fr h a : H := Heap (delete a (hmap h)) (hnext h) (hmoves h).
  (** A call of a user-supplied function is counted. *)
  Definition tk h : H := Heap (hmap h) (hnext h) (hmoves h + 1).
  Lemma tk_bind {A} (k : unit -> M H A) h : bind htick k h = k tt (tk h).
  Proof. done. Qed.
  Definition vcell al : cell T := Cell LNode al (if dbl then PNull else PUndef) PNull DNull.
  Definition dcell al v : cell T := Cell LData al PUndef PUndef (DVal v).

  Lemma alter_alt (m : gmap N (cell T)) f a c : m !! a = Some c -> alter f a m = <[a := f c]> m.
  Proof.
    intros Ha. apply map_eq. intros b. destruct (decide (a = b)) as [->|Hne].
    - by rewrite lookup_alter, lookup_insert, Ha.
    - by rewrite lookup_alter_ne, lookup_insert_ne.
  Qed.

  Lemma rd_ok h a c : hmap h !! a = Some c -> rd (PAddr a) h = Ok (c, h).
  Proof. intros E. unfold rd, hread. by rewrite E. Qed.
  Lemma wr_ok h a c c' : hmap h !! a = Some c ->
    wr (PAddr a) c' h = Ok (tt, Heap (<[a := c']> (hmap h)) (hnext h) (hmoves h)).
  Proof. intros E. unfold wr, hwrite. by rewrite E. Qed.

  Lemma put_next_ok h a n : has h a -> put_next (PAddr a) n h = Ok (tt, upn h a n).
  Proof.
    intros [c E]. unfold put_next, upn. rewrite (bind_ok _ _ _ _ _ (rd_ok h a c E)).
    rewrite (wr_ok h a c _ E). by rewrite (alter_alt _ _ a c E).
  Qed.
  Lemma put_prev_ok h a n : has h a -> put_prev (PAddr a) n h = Ok (tt, upp h a n).
  Proof.
    intros [c E]. unfold put_prev, upp. rewrite (bind_ok _ _ _ _ _ (rd_ok h a c E)).
    rewrite (wr_ok h a c _ E). by rewrite (alter_alt _ _ a c E).
  Qed.
  Lemma has_upn h p n a : has (upn h p n) a <-> has h a.
  Proof. unfold has, upn. simpl. by rewrite lookup_alter_is_Some. Qed.
  Lemma has_upp h p n a : has (upp h p n) a <-> has h a.
  Proof. unfold has, upp. simpl. by rewrite lookup_alter_is_Some. Qed.
  Lemma has_sn h p q a : has (sn h p q) a <-> has h a.
  Proof. unfold sn. destruct dbl; rewrite ?has_upp, ?has_upn; done. Qed.
  Lemma has_ins h c a : has (ins h c) a <-> a = hnext h \/ has h a.
  Proof.
    unfold has, ins. simpl. rewrite lookup_insert_is_Some.
    destruct (decide (hnext h = a)) as [<-|]; naive_solver.
  Qed.
  Lemma has_fr h b a : has (fr h b) a <-> a <> b /\ has h a.
  Proof. unfold has, fr. simpl. rewrite lookup_delete_is_Some. naive_solver. Qed.

  Lemma set_next_ok h p q : has h p -> has h q ->
    set_next dbl (PAddr p) (PAddr q) h = Ok (tt, sn h p q).
  Proof.
    intros Hp Hq. unfold set_next, sn. rewrite (bind_ok _ _ _ _ _ (put_next_ok h p _ Hp)).
    destruct dbl; [|done]. destruct (decide _); [done|]. apply put_prev_ok. by apply has_upn.
  Qed.
  Lemma set_next_null_ok h p : has h p -> set_next dbl (PAddr p) PNull h = Ok (tt, upn h p PNull).
  Proof.
    intros Hp. unfold set_next. rewrite (bind_ok _ _ _ _ _ (put_next_ok h p _ Hp)). by destruct dbl.
  Qed.

  Lemma nx_upn h p n a : has h p -> nx (upn h p n) a = if decide (a = p) then Some n else nx h a.
  Proof.
    intros [c E]. unfold nx, upn. simpl. destruct (decide (a = p)) as [->|].
    - by rewrite lookup_alter, E.
    - by rewrite lookup_alter_ne.
  Qed.
  Lemma nx_upp h p n a : nx (upp h p n) a = nx h a.
  Proof.
    unfold nx, upp. simpl. destruct (decide (p = a)) as [->|].
    - rewrite lookup_alter. by destruct (hmap h !! a).
    - by rewrite lookup_alter_ne.
  Qed.
  Lemma pv_upp h p n a : has h p -> pv (upp h p n) a = if decide (a = p) then Some n else pv h a.
  Proof.
    intros [c E]. unfold pv, upp. simpl. destruct (decide (a = p)) as [->|].
    - by rewrite lookup_alter, E.
    - by rewrite lookup_alter_ne.
  Qed.
  Lemma pv_upn h p n a : pv (upn h p n) a = pv h a.
  Proof.
    unfold pv, upn. simpl. destruct (decide (p = a)) as [->|].
    - rewrite lookup_alter. by destruct (hmap h !! a).
    - by rewrite lookup_alter_ne.
  Qed.
  Lemma dt_upn h p n a : dt (upn h p n) a = dt h a.
  Proof.
    unfold dt, upn. simpl. destruct (decide (p = a)) as [->|].
    - rewrite lookup_alter. by destruct (hmap h !! a).
    - by rewrite lookup_alter_ne.
  Qed.
  Lemma dt_upp h p n a : dt (upp h p n) a = dt h a.
  Proof.
    unfold dt, upp. simpl. destruct (decide (p = a)) as [->|].
    - rewrite lookup_alter. by destruct (hmap h !! a).
    - by rewrite lookup_alter_ne.
  Qed.
  Lemma nx_sn h p q a : has h p ->
    nx (sn h p q) a = if decide (a = p) then Some (PAddr q) else nx h a.
  Proof. intros Hp. unfold sn. destruct dbl; rewrite ?nx_upp; by apply nx_upn. Qed.
  Lemma pv_sn h p q a : has h q ->
    pv (sn h p q) a = if dbl then if decide (a = q) then Some (PAddr p) else pv h a else pv h a.
  Proof.
    intros Hq. unfold sn. destruct dbl; [|apply pv_upn].
    rewrite pv_upp by by apply has_upn. by rewrite pv_upn.
  Qed.
  Lemma dt_sn h p q a : dt (sn h p q) a = dt h a.
  Proof. unfold sn. destruct dbl; by rewrite ?dt_upp, dt_upn. Qed.
  Lemma hm_sn h p q : hmoves (sn h p q) = hmoves h.
  Proof. unfold sn. by destruct dbl. Qed.
  Lemma hm_fr h a : hmoves (fr h a) = hmoves h.
  Proof. done. Qed.
  Lemma hnext_sn h p q : hnext (sn h p q) = hnext h.
  Proof. unfold sn. by destruct dbl. Qed.
  Lemma nx_ins h c a : nx (ins h c) a = if decide (a = hnext h) then Some (n_next c) else nx h a.
  Proof.
    unfold nx, ins. simpl. destruct (decide (a = hnext h)) as [->|].
    - by rewrite lookup_insert.
    - by rewrite lookup_insert_ne.
  Qed.
  Lemma pv_ins h c a : pv (ins h c) a = if decide (a = hnext h) then Some (n_prev c) else pv h a.
  Proof.
    unfold pv, ins. simpl. destruct (decide (a = hnext h)) as [->|].
    - by rewrite lookup_insert.
    - by rewrite lookup_insert_ne.
  Qed.
  Lemma dt_ins h c a :
    dt (ins h c) a = if decide (a = hnext h) then Some (n_lay c, n_al c, n_dat c) else dt h a.
  Proof.
    unfold dt, ins. simpl. destruct (decide (a = hnext h)) as [->|].
    - by rewrite lookup_insert.
    - by rewrite lookup_insert_ne.
  Qed.
  Lemma nx_fr h b a : a <> b -> nx (fr h b) a = nx h a.
  Proof. intros. unfold nx, fr. simpl. by rewrite lookup_delete_ne. Qed.
  Lemma pv_fr h b a : a <> b -> pv (fr h b) a = pv h a.
  Proof. intros. unfold pv, fr. simpl. by rewrite lookup_delete_ne. Qed.
  Lemma dt_fr h b a : a <> b -> dt (fr h b) a = dt h a.
  Proof. intros. unfold dt, fr. simpl. by rewrite lookup_delete_ne. Qed.

  (** ** Reading and allocating *)
  Lemma get_next_ok h a x : nx h a = Some x -> x <> PUndef -> get_next (PAddr a) h = Ok (x, h).
  Proof.
    unfold nx. destruct (hmap h !! a) as [c|] eqn:E; [|done]. intros [= <-] Hx.
    unfold get_next. rewrite (bind_ok _ _ _ _ _ (rd_ok h a c E)). by destruct (n_next c).
  Qed.
  Lemma get_prev_ok h a x : pv h a = Some x -> x <> PUndef -> get_prev (PAddr a) h = Ok (x, h).
  Proof.
    unfold pv. destruct (hmap h !! a) as [c|] eqn:E; [|done]. intros [= <-] Hx.
    unfold get_prev. rewrite (bind_ok _ _ _ _ _ (rd_ok h a c E)). by destruct (n_prev c).
  Qed.
  Definition node h al a (v : T) : Prop := dt h a = Some (LData, al, DVal v).
  Definition virt h al a : Prop := dt h a = Some (LNode, al, DNull).
  Lemma node_has h al a v : node h al a v -> has h a.
  Proof. apply has_dt. Qed.
  Lemma virt_has h al a : virt h al a -> has h a.
  Proof. apply has_dt. Qed.

  Lemma value_ok h al a v : node h al a v -> value (PAddr a) h = Ok (v, h).
  Proof.
    unfold node, dt. destruct (hmap h !! a) as [c|] eqn:E; [|done]. intros [= _ _ Ed].
    unfold value. rewrite (bind_ok _ _ _ _ _ (rd_ok h a c E)). by rewrite Ed.
  Qed.
  Lemma value_virt h al a : virt h al a -> value (PAddr a) h = Err UB.
  Proof.
    unfold virt, dt. destruct (hmap h !! a) as [c|] eqn:E; [|done]. intros [= _ _ Ed].
    unfold value. rewrite (bind_ok _ _ _ _ _ (rd_ok h a c E)). by rewrite Ed.
  Qed.
  Lemma no_data_node h al a v : node h al a v -> no_data (PAddr a) h = Ok (false, h).
  Proof.
    unfold node, dt. destruct (hmap h !! a) as [c|] eqn:E; [|done]. intros [= _ _ Ed].
    unfold no_data. rewrite (bind_ok _ _ _ _ _ (rd_ok h a c E)). by rewrite Ed.
  Qed.
  Lemma no_data_virt h al a : virt h al a -> no_data (PAddr a) h = Ok (true, h).
  Proof.
    unfold virt, dt. destruct (hmap h !! a) as [c|] eqn:E; [|done]. intros [= _ _ Ed].
    unfold no_data. rewrite (bind_ok _ _ _ _ _ (rd_ok h a c E)). by rewrite Ed.
  Qed.

  Lemma construct_ok h al v :
    construct_node al v h = Ok (PAddr (hnext h), ins h (dcell al v)).
  Proof.
    unfold construct_node, alloc_node_with_data. rewrite hnew_endless, !bind_bind.
    unfold bind at 1, halloc. rewrite bind_ret. simpl to_ptr. rewrite bind_bind.
    unfold put_data at 1. rewrite bind_bind. erewrite bind_ok; [|apply rd_ok; simpl; apply lookup_insert].
    erewrite bind_ok; [|eapply wr_ok; simpl; apply lookup_insert]. rewrite bind_ret.
    unfold no_data. rewrite bind_bind.
    erewrite bind_ok; [|apply rd_ok; simpl; apply lookup_insert]. simpl. rewrite bind_ret.
    unfold put_data. rewrite bind_bind.
    erewrite bind_ok; [|apply rd_ok; simpl; apply lookup_insert].
    erewrite bind_ok; [|eapply wr_ok; simpl; apply lookup_insert]. simpl.
    unfold ret, ins. by rewrite !insert_insert.
  Qed.
  Lemma build_virtual_ok h al :
    build_virtual_node dbl al h = Ok (PAddr (hnext h), ins h (vcell al)).
  Proof.
    unfold build_virtual_node, alloc_node. rewrite hnew_endless, !bind_bind.
    unfold bind at 1, halloc. rewrite !bind_ret. simpl to_ptr.
    unfold put_next. rewrite bind_bind. erewrite bind_ok; [|apply rd_ok; simpl; apply lookup_insert].
    erewrite bind_ok; [|eapply wr_ok; simpl; apply lookup_insert].
    unfold put_data. rewrite bind_bind.
    erewrite bind_ok; [|apply rd_ok; simpl; apply lookup_insert].
    erewrite bind_ok; [|eapply wr_ok; simpl; apply lookup_insert]. simpl.
    unfold vcell, ins. destruct dbl.
    - unfold put_prev. rewrite bind_bind.
      erewrite bind_ok; [|apply rd_ok; simpl; apply lookup_insert].
      erewrite bind_ok; [|eapply wr_ok; simpl; apply lookup_insert]. simpl.
      unfold ret. by rewrite !insert_insert.
    - rewrite bind_ret. unfold ret. by rewrite !insert_insert.
  Qed.
  Lemma destroy_node_ok h al a v : node h al a v -> destroy_node al (PAddr a) h = Ok (tt, fr h a).
  Proof.
    intros Hn. unfold destroy_node. rewrite (bind_ok _ _ _ _ _ (no_data_node h al a v Hn)).
    rewrite (bind_ok _ _ _ _ _ (value_ok h al a v Hn)).
    revert Hn. unfold node, dt. destruct (hmap h !! a) as [c|] eqn:E; [|done]. intros [= E1 E2 Ed].
    unfold put_data. rewrite bind_bind. rewrite (bind_ok _ _ _ _ _ (rd_ok h a c E)).
    rewrite (bind_ok _ _ _ _ _ (wr_ok h a c _ E)). unfold dealloc, bind, hread. simpl. rewrite lookup_insert. simpl.
    destruct (decide _) as [_|Hn]; [|by destruct Hn]. unfold hfree. simpl. rewrite lookup_insert.
    unfold fr. by rewrite delete_insert_delete.
  Qed.
  Lemma destroy_virt_ok h al a : virt h al a -> destroy_node al (PAddr a) h = Ok (tt, fr h a).
  Proof.
    intros Hn. unfold destroy_node. rewrite (bind_ok _ _ _ _ _ (no_data_virt h al a Hn)).
    revert Hn. unfold virt, dt. destruct (hmap h !! a) as [c|] eqn:E; [|done]. intros [= E1 E2 Ed].
    unfold dealloc, bind, hread. rewrite E. destruct (decide _) as [_|Hn]; [|by destruct Hn].
    rewrite Ed. unfold hfree. rewrite E. done.
  Qed.

  (** ** Chains *)
  Definition ads ns : list N := fst <$> ns.
  Definition vls ns : list T := snd <$> ns.
  Definition link h p q : Prop :=
    nx h p = Some (PAddr q) /\ (dbl = true -> pv h q = Some (PAddr p)).
  Fixpoint endp p ns : N := match ns with [] => p | (a, _) :: r => endp a r end.
  Definition startp ns q : N := match ns with [] => q | (a, _) :: _ => a end.
  (** The links from [p] through the nodes [ns]; not the one out of the last. *)
  Fixpoint oseg h al p ns : Prop :=
    match ns with
    | [] => True
    | (a, v) :: r => link h p a /\ node h al a v /\ oseg h al a r
    end.
  (** ... and on to [q]. *)
  Definition seg h al p ns q : Prop := oseg h al p ns /\ link h (endp p ns) q.
  (** The nodes [ns] and on to [q]; not the link into the first. *)
  Definition cseg h al ns q : Prop :=
    match ns with
    | [] => True
    | (a, v) :: r => node h al a v /\ seg h al a r q
    end.

  Lemma ads_cons a v ns : ads ((a, v) :: ns) = a :: ads ns.
  Proof. done. Qed.
  Lemma ads_app n1 n2 : ads (n1 ++ n2) = ads n1 ++ ads n2.
  Proof. apply fmap_app. Qed.
  Lemma vls_app n1 n2 : vls (n1 ++ n2) = vls n1 ++ vls n2.
  Proof. apply fmap_app. Qed.
  Lemma endp_app p n1 n2 : endp p (n1 ++ n2) = endp (endp p n1) n2.
  Proof. revert p. induction n1 as [|[a v] n1 IH]; intros p; simpl; [done|apply IH]. Qed.
  Lemma oseg_app h al p n1 n2 : oseg h al p (n1 ++ n2) <-> oseg h al p n1 /\ oseg h al (endp p n1) n2.
  Proof.
    revert p. induction n1 as [|[a v] n1 IH]; intros p; simpl; [naive_solver|]. rewrite IH. naive_solver.
  Qed.
  Lemma endp_in p ns : endp p ns ∈ p :: ads ns.
  Proof.
    revert p. induction ns as [|[a v] ns IH]; intros p; [by left|].
    cbn [endp]. right. exact (IH a).
  Qed.
  Lemma endp_in_ne p ns : ns <> [] -> endp p ns ∈ ads ns.
  Proof. destruct ns as [|[a v] ns]; [done|]. intros _. exact (endp_in a ns). Qed.
  Lemma startp_in ns q : startp ns q ∈ ads ns ++ [q].
  Proof. destruct ns as [|[a v] ns]; by left. Qed.
  Lemma startp_in_ne ns q : ns <> [] -> startp ns q ∈ ads ns.
  Proof. destruct ns as [|[a v] ns]; [done|]. by left. Qed.
  Lemma startp_app n1 n2 q : startp (n1 ++ n2) q = startp n1 (startp n2 q).
  Proof. by destruct n1 as [|[a v] n1]. Qed.
  Lemma seg_app h al p n1 n2 q : seg h al p (n1 ++ n2) q <->
    oseg h al p n1 /\ link h (endp p n1) (startp n2 q) /\ cseg h al n2 q.
  Proof.
    unfold seg. rewrite oseg_app, endp_app. destruct n2 as [|[a v] n2]; simpl; [naive_solver|].
    unfold seg. naive_solver.
  Qed.
  Lemma seg_cseg h al p ns q : seg h al p ns q <-> link h p (startp ns q) /\ cseg h al ns q.
  Proof. rewrite <-(app_nil_l ns), seg_app. simpl. naive_solver. Qed.
  Lemma cseg_app h al n1 n2 q : cseg h al (n1 ++ n2) q <->
    cseg h al n1 (startp n2 q) /\ cseg h al n2 q.
  Proof.
    destruct n1 as [|[a v] n1]; simpl; [naive_solver|]. rewrite seg_app. unfold seg. naive_solver.
  Qed.
  Lemma oseg_node h al p ns a v : oseg h al p ns -> (a, v) ∈ ns -> node h al a v.
  Proof.
    revert p. induction ns as [|[b w] ns IH]; intros p; simpl; [by intros _ ?%elem_of_nil|].
    intros (_ & Hn & Ho) [[= -> ->]|Hin]%elem_of_cons; eauto.
  Qed.
  Lemma oseg_has h al p ns a : oseg h al p ns -> a ∈ ads ns -> has h a.
  Proof.
    intros Ho Ha. apply elem_of_list_fmap in Ha as ([b v] & -> & Ha). simpl.
    eapply node_has. by eapply oseg_node.
  Qed.
  Lemma cseg_has h al ns q a : cseg h al ns q -> a ∈ ads ns -> has h a.
  Proof.
    destruct ns as [|[b v] ns]; simpl; [by intros _ ?%elem_of_nil|].
    intros [Hn [Ho _]] [->|Ha]%elem_of_cons; [by eapply node_has|]. by eapply oseg_has.
  Qed.

  Lemma link_frame h h' p q :
    nx h' p = nx h p -> (dbl = true -> pv h' q = pv h q) -> link h p q -> link h' p q.
  Proof. intros E1 E2 [L1 L2]. split; [by rewrite E1|]. intros Hd. rewrite E2; auto. Qed.
  Lemma oseg_frame h h' al p ns :
    NoDup (p :: ads ns) ->
    (forall a, a ∈ p :: ads ns -> a <> endp p ns -> nx h' a = nx h a) ->
    (forall a, a ∈ ads ns -> dbl = true -> pv h' a = pv h a) ->
    (forall a, a ∈ ads ns -> dt h' a = dt h a) ->
    oseg h al p ns -> oseg h' al p ns.
  Proof.
    revert p. induction ns as [|[a v] ns IH]; intros p; simpl; [done|].
    intros Hnd Hn Hp Hd (Hl & Hv & Ho). split; [|split].
    - eapply link_frame; [| |done].
      + apply Hn; [by left|]. intros Heq. apply NoDup_cons in Hnd as [Hnd _].
        apply Hnd. rewrite Heq. exact (endp_in a ns).
      + intros ?. apply Hp; [by left|done].
    - unfold node in *. rewrite Hd; [done|by left].
    - apply IH; [|intros; apply Hn; [by right|done]|intros; apply Hp; [by right|done]|
        intros; apply Hd; by right|done].
      by apply NoDup_cons in Hnd as [_ Hnd].
  Qed.
  Lemma seg_frame h h' al p ns q :
    (forall a, a ∈ p :: ads ns -> nx h' a = nx h a) ->
    (forall a, a ∈ ads ns ++ [q] -> dbl = true -> pv h' a = pv h a) ->
    (forall a, a ∈ ads ns -> dt h' a = dt h a) ->
    seg h al p ns q -> seg h' al p ns q.
  Proof.
    intros Hn Hp Hd [Ho Hl]. split.
    - clear Hl. revert p Hn Ho Hp. induction ns as [|[a v] ns IH]; intros p Hn; simpl; [done|].
      intros (Hl & Hv & Ho) Hp. split; [|split].
      + eapply link_frame; [| |done]; [apply Hn; by left|]. apply Hp. by left.
      + unfold node in *. rewrite Hd; [done|by left].
      + apply IH; [intros; apply Hd; by right|intros; apply Hn; by right|done|intros; apply Hp; [by right|done]].
    - eapply link_frame; [| |done].
      + apply Hn. apply endp_in.
      + apply Hp. apply elem_of_app. right. by left.
  Qed.
  Lemma cseg_frame h h' al ns q :
    NoDup (ads ns ++ [q]) ->
    (forall a, a ∈ ads ns -> nx h' a = nx h a) ->
    (forall a, a ∈ ads ns ++ [q] -> a <> startp ns q -> dbl = true -> pv h' a = pv h a) ->
    (forall a, a ∈ ads ns -> dt h' a = dt h a) ->
    cseg h al ns q -> cseg h' al ns q.
  Proof.
    destruct ns as [|[a v] ns]; simpl; [done|].
    intros Hnd Hn Hp Hd [Hv Hs]. apply NoDup_cons in Hnd as [Ha Hnd]. split.
    - unfold node in *. rewrite Hd; [done|by left].
    - eapply seg_frame; [| | |done].
      + done.
      + intros b Hb. apply Hp; [by right|]. by intros ->.
      + intros b Hb. apply Hd. by right.
  Qed.

  Lemma link_sn h p q : has h p -> has h q -> link (sn h p q) p q.
  Proof.
    intros Hp Hq. split.
    - rewrite nx_sn by done. by rewrite decide_True.
    - intros Hd. rewrite pv_sn by done. rewrite Hd. by rewrite decide_True.
  Qed.
  Lemma link_sn_ne h p q x y : has h x -> has h y -> p <> x -> q <> y -> link h p q -> link (sn h x y) p q.
  Proof.
    intros Hx Hy Hp Hq. apply link_frame.
    - rewrite nx_sn by done. by rewrite decide_False.
    - intros Hd. rewrite pv_sn by done. rewrite Hd. by rewrite decide_False.
  Qed.
  Lemma oseg_sn h al p ns x y : has h x -> has h y ->
    NoDup (p :: ads ns) -> (x ∈ p :: ads ns -> x = endp p ns) -> y ∉ ads ns ->
    oseg h al p ns -> oseg (sn h x y) al p ns.
  Proof.
    intros Hx Hy Hnd Hxe Hye. apply oseg_frame; [done| | |].
    - intros a Ha Hne. rewrite nx_sn by done. rewrite decide_False; [done|]. intros ->. auto.
    - intros a Ha Hd. rewrite pv_sn by done. rewrite Hd, decide_False; [done|]. by intros ->.
    - intros a Ha. apply dt_sn.
  Qed.
  Lemma cseg_sn h al ns q x y : has h x -> has h y ->
    NoDup (ads ns ++ [q]) -> x ∉ ads ns -> (y ∈ ads ns ++ [q] -> y = startp ns q) ->
    cseg h al ns q -> cseg (sn h x y) al ns q.
  Proof.
    intros Hx Hy Hnd Hxe Hye. apply cseg_frame; [done| | |].
    - intros a Ha. rewrite nx_sn by done. rewrite decide_False; [done|]. by intros ->.
    - intros a Ha Hne Hd. rewrite pv_sn by done. rewrite Hd, decide_False; [done|]. intros ->. auto.
    - intros a Ha. apply dt_sn.
  Qed.
  Lemma seg_sn h al p ns q x y : has h x -> has h y ->
    x ∉ p :: ads ns -> y ∉ ads ns ++ [q] -> seg h al p ns q -> seg (sn h x y) al p ns q.
  Proof.
    intros Hx Hy Hxe Hye. apply seg_frame.
    - intros a Ha. rewrite nx_sn by done. rewrite decide_False; [done|]. by intros ->.
    - intros a Ha Hd. rewrite pv_sn by done. rewrite Hd, decide_False; [done|]. by intros ->.
    - intros a Ha. apply dt_sn.
  Qed.

  (** ** A list in memory *)
  Record lok h al hd ns tl : Prop := Lok {
    lk_nd : NoDup (hd :: ads ns ++ [tl]);
    lk_hd : virt h al hd;
    lk_tl : virt h al tl;
    lk_seg : seg h al hd ns tl;
    lk_tn : nx h tl = Some PNull;
    lk_hp : dbl = true -> pv h hd = Some PNull;
  }.
  Definition lfp hd ns tl : list N := hd :: ads ns ++ [tl].

  Lemma lok_has h al hd ns tl a : lok h al hd ns tl -> a ∈ lfp hd ns tl -> has h a.
  Proof.
    intros L [->|[Ha|Ha]%elem_of_app]%elem_of_cons.
    - by eapply virt_has, L.
    - eapply oseg_has; [|done]. apply L.
    - apply elem_of_list_singleton in Ha as ->. by eapply virt_has, L.
  Qed.
  Lemma has_eq h h' a : hmap h' !! a = hmap h !! a -> nx h' a = nx h a /\ pv h' a = pv h a /\ dt h' a = dt h a.
  Proof. intros E. unfold nx, pv, dt. by rewrite E. Qed.
  Lemma lok_frame h h' al hd ns tl :
    (forall a, a ∈ lfp hd ns tl -> hmap h' !! a = hmap h !! a) ->
    lok h al hd ns tl -> lok h' al hd ns tl.
  Proof.
    intros Hf L. assert (Hf' : forall a, a ∈ lfp hd ns tl -> nx h' a = nx h a /\ pv h' a = pv h a /\ dt h' a = dt h a)
      by (intros; by apply has_eq, Hf).
    assert (Hh : hd ∈ lfp hd ns tl) by by left.
    assert (Ht : tl ∈ lfp hd ns tl) by (right; apply elem_of_app; right; by left).
    split.
    - apply L.
    - unfold virt. rewrite (proj2 (proj2 (Hf' hd Hh))). apply L.
    - unfold virt. rewrite (proj2 (proj2 (Hf' tl Ht))). apply L.
    - eapply seg_frame; [| | |apply L].
      + intros a Ha. apply Hf'. unfold lfp. set_solver.
      + intros a Ha _. apply Hf'. unfold lfp. set_solver.
      + intros a Ha. apply Hf'. unfold lfp. set_solver.
    - rewrite (proj1 (Hf' tl Ht)). apply L.
    - rewrite (proj1 (proj2 (Hf' hd Hh))). apply L.
  Qed.

  (** ** Framing *)
  Lemma hwf_sn h p q : hwf h -> hwf (sn h p q).
  Proof. intros Hw a Ha. rewrite hnext_sn. apply Hw. by apply (has_sn h p q). Qed.
  Lemma hwf_ins h c : hwf h -> hwf (ins h c).
  Proof. intros Hw a [->|Ha]%has_ins; simpl; [lia|]. pose proof (Hw a Ha). lia. Qed.
  Lemma hwf_fr h a : hwf h -> hwf (fr h a).
  Proof. intros Hw b [_ Hb]%has_fr. by apply Hw. Qed.
  Lemma hmap_sn h p q a : a <> p -> a <> q -> hmap (sn h p q) !! a = hmap h !! a.
  Proof. intros. unfold sn. destruct dbl; simpl; by rewrite ?lookup_alter_ne by done. Qed.
  Lemma lok_tk h al hd ns tl : lok h al hd ns tl -> lok (tk h) al hd ns tl.
  Proof. by apply lok_frame. Qed.
  Lemma upd_sn h p q fp : hwf h -> (forall a, a ∈ fp -> has h a) -> p ∈ fp -> q ∈ fp -> upd h (sn h p q) fp fp.
  Proof.
    intros Hw Hfp Hp Hq. split.
    - by rewrite hnext_sn.
    - intros a _ Ha. apply hmap_sn; by intros ->.
    - by left.
    - intros a. change (has (sn h p q) a <-> has h a /\ a ∉ fp \/ a ∈ fp). rewrite has_sn.
      destruct (decide (a ∈ fp)); naive_solver.
    - by apply hwf_sn.
  Qed.
  Lemma upd_ins h c fp : hwf h -> (forall a, a ∈ fp -> has h a) -> upd h (ins h c) fp (hnext h :: fp).
  Proof.
    intros Hw Hfp. split.
    - simpl. lia.
    - intros a Ha _. simpl. rewrite lookup_insert_ne; [done|lia].
    - intros a [->|Ha]%elem_of_cons; [right; lia|by left].
    - intros a. change (has (ins h c) a <-> has h a /\ a ∉ fp \/ a ∈ hnext h :: fp). rewrite has_ins, elem_of_cons.
      destruct (decide (a ∈ fp)); naive_solver.
    - by apply hwf_ins.
  Qed.
  Lemma upd_fr h b fp fp' : hwf h -> (forall a, a ∈ fp -> has h a) -> b ∈ fp ->
    (forall a, a ∈ fp' <-> a ∈ fp /\ a <> b) -> upd h (fr h b) fp fp'.
  Proof.
    intros Hw Hfp Hb Hfp'. split.
    - simpl. lia.
    - intros a _ Ha. simpl. rewrite lookup_delete_ne; [done|]. by intros ->.
    - intros a Ha. left. by apply Hfp'.
    - intros a. change (has (fr h b) a <-> has h a /\ a ∉ fp \/ a ∈ fp'). rewrite has_fr, Hfp'.
      destruct (decide (a ∈ fp)); naive_solver.
    - by apply hwf_fr.
  Qed.

  (** ** Fuel *)
  Lemma size_ge h (l : list N) : NoDup l -> (forall a, a ∈ l -> has h a) -> (length l <= size (hmap h))%nat.
  Proof.
    intros Hnd Hh. rewrite <-size_dom, <-(size_list_to_set (C := gset N) l) by done.
    apply subseteq_size. intros a Ha. apply elem_of_list_to_set in Ha. apply elem_of_dom. by apply Hh.
  Qed.
  Lemma fuel_ok h : nodes_in_memory h = Ok (S (size (hmap h)), h).
  Proof. done. Qed.
End Seg.
Global Arguments nx {T} _ _.
Global Arguments pv {T} _ _.
Global Arguments dt {T} _ _.
