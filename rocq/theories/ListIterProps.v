(** * ListIterProps: iterators kept while lists change (C60) *)
From Verif Require Import Base World Machine IterSpec ListModel ListSeg SortSpec ListSort ListStep ListSpec ListRefine
  ListIterModel ListIterRel ListIterStep.
Local Open Scope N_scope.

(** ** C60 *)
Section Props.
  Context {T : Type} (dbl : bool).
  Notation kst := (kst T).
  Notation kop := (kop T).
  Implicit Types (s : kst) (o : kop) (ops : list kop).

  Lemma krun_agrees ops : Forall kordered ops -> forall s st, krel dbl s st ->
    agrees (krel dbl) (run_ops (kstep dbl) ops st) (srun (kspec dbl) s ops).
  Proof.
    induction 1 as [|o ops Ho Hos IH]; intros s st Hr; cbn [run_ops srun]; [by exists st|].
    pose proof (kstep_refines dbl s st o Ho Hr) as H0. unfold agrees, bind, ret in *.
    destruct (kspec dbl s o) as [s1 x| |]; [|by rewrite H0|done].
    destruct H0 as (st1 & -> & Hr1). pose proof (IH s1 st1 Hr1) as H2.
    destruct (srun (kspec dbl) s1 ops) as [s2 xs| |]; [|by rewrite H2|done].
    destruct H2 as (st2 & -> & Hr2). by exists st2.
  Qed.
  Lemma krel_init : krel dbl (kinit (T := T)) iinit.
  Proof. exists (fun n => n). split; [|done]. apply world_ok_init. Qed.

  (** Every history the specification allows runs without a fault, and all
      values read through iterators, all comparisons of iterators and all
      contents are the ones the specification says. *)
  Theorem C60_iterators_partial ops s outs : Forall kordered ops -> srun (kspec dbl) kinit ops = SOk s outs ->
    exists st, run_ops (kstep dbl) ops iinit = Ok (outs, st).
  Proof.
    intros Ho E. pose proof (krun_agrees ops Ho _ _ krel_init) as H0. rewrite E in H0.
    destruct H0 as (st & E' & _). by exists st.
  Qed.

  (** *** Without names: the element under a kept iterator *)
  (** Operations that remove no element and assign to none. *)
  Definition keeps o : bool :=
    match o with
    | KDel _ | KClear _ | KPopF _ | KPopB _ | KRemIf _ _ | KUniq _ _ | KEraA _ _ _ | KEraAR _ _ _ _ | KEra _ _ _
    | KEraR _ _ _ _ | KSet _ _ _ => false
    | _ => true
    end.
  (** Operations that assign the iterator [t]. *)
  Definition assigns (t : nat) o : bool :=
    match o with
    | KEmpA _ _ _ u | KInsA _ _ _ u | KEraA _ _ u | KEraAR _ _ _ u | KEmp _ _ _ u | KIns _ _ _ u | KEra _ _ u
    | KEraR _ _ _ u | KBefore u _ | KBegin u _ | KEnd u _ | KCopy u _ | KInc _ u | KDec _ u => (t =? u)%nat
    | KIncP _ u v | KDecP _ u v => (t =? u)%nat || (t =? v)%nat
    | _ => false
    end.
  Definition has_el s (x : N * T) : Prop := exists i al l, k_ls s !! i = Some (al, Some l) /\ x ∈ k_els l.

  Lemma has_put s i al l e al' x : k_ls s !! i = Some (al, Some l) -> (x ∈ k_els l -> x ∈ e) ->
    has_el s x -> has_el (put s i al' (with_els l e)) x.
  Proof.
    intros Hi Hx (j & aj & lj & Hj & Hin). destruct (decide (i = j)) as [<-|Hij].
    - rewrite Hi in Hj. injection Hj as <- <-. exists i, al', (with_els l e). cbn [put set_ls k_ls].
      rewrite lookup_insert. split; [done|]. by apply Hx.
    - exists j, aj, lj. cbn [put set_ls k_ls]. rewrite lookup_insert_ne by done. done.
  Qed.
  Lemma in_split (e mid : list (N * T)) p x : x ∈ e -> x ∈ take p e ++ mid ++ drop p e.
  Proof. rewrite <-(take_drop p e) at 1. rewrite !elem_of_app. tauto. Qed.

  Lemma live_inv s i k s' y : live s i k = SOk s' y -> exists al l, k_ls s !! i = Some (al, Some l) /\ k al l = SOk s' y.
  Proof. unfold live. destruct (k_ls s !! i) as [[al [l|]]|]; [|done|done]. eauto. Qed.
  Lemma need_inv b (k : sres kst (kout T)) s' y : need b k = SOk s' y -> b = true /\ k = SOk s' y.
  Proof. unfold need. by destruct b. Qed.
  Lemma pos_inv s t l k s' y : at_pos s t l k = SOk s' y -> exists p, k p = SOk s' y.
  Proof. unfold at_pos. destruct (k_it s !! t); [|done]. destruct (where_is _ _); [eauto|done]. Qed.
  Lemma give_inv s i al l e x s' y : give s i al l e x = SOk s' y -> s' = put s i al (with_els l e).
  Proof. unfold give. destruct (_ <? _); [|done]. by intros [= <- <-]. Qed.
  Lemma give_it_inv s i al l e u p s' y : give_it s i al l e u p = SOk s' y ->
    s' = set_it (put s i al (with_els l e)) u (name_at (with_els l e) p).
  Proof. unfold give_it. destruct (_ <? _); [|done]. by intros [= <- <-]. Qed.

  Lemma keeps_el s o s' y x : keeps o = true -> kspec dbl s o = SOk s' y -> has_el s x -> has_el s' x.
  Proof.
    intros Hk E Hx. destruct o; try discriminate Hk; cbn [kspec] in E.
    - (* KRange *)
      destruct (k_ls s !! i) eqn:Ei; [done|]. apply need_inv in E as [_ [= <- _]].
      destruct Hx as (j & aj & lj & Hj & Hin). exists j, aj, lj. cbn [used put set_ls k_ls].
      rewrite lookup_insert_ne by congruence. done.
    - (* KMove *)
      destruct (k_ls s !! i) eqn:Ei; [done|]. destruct (k_ls s !! j) as [[al l]|] eqn:Ej; [|done]. injection E as <- _.
      destruct Hx as (m & am & lm & Hm & Hin). destruct (decide (m = j)) as [->|Hmj].
      + rewrite Ej in Hm. injection Hm as -> ->. exists i, am, lm. cbn. by rewrite lookup_insert.
      + exists m, am, lm. cbn. rewrite lookup_insert_ne by congruence. by rewrite lookup_insert_ne.
    - (* KSwap *)
      destruct (k_ls s !! i) as [a|] eqn:Ei; [|done]. destruct (k_ls s !! j) as [b|] eqn:Ej; [|done]. injection E as <- _.
      destruct Hx as (m & am & lm & Hm & Hin). destruct (decide (m = j)) as [->|Hmj].
      + exists i, am, lm. cbn. rewrite lookup_insert. rewrite Ej in Hm. by injection Hm as ->.
      + destruct (decide (m = i)) as [->|Hmi].
        * exists j, am, lm. cbn. rewrite lookup_insert_ne, lookup_insert by done. by rewrite Ei in Hm.
        * exists m, am, lm. cbn. by rewrite !lookup_insert_ne.
    - (* KPushF *)
      apply live_inv in E as (al & l & Ei & E%give_inv). subst s'. eapply (has_put (used s 1)); [exact Ei| |exact Hx].
      intros Hin. by right.
    - (* KPushB *)
      apply need_inv in E as [_ E]. apply live_inv in E as (al & l & Ei & E%give_inv). subst s'.
      eapply (has_put (used s 1)); [exact Ei| |exact Hx]. intros Hin. apply elem_of_app. by left.
    - (* KSrt *)
      apply live_inv in E as (al & l & Ei & E). apply need_inv in E as [_ E%give_inv]. subst s'.
      eapply has_put; [exact Ei| |exact Hx]. intros Hin. by rewrite (ssort_perm (val_lt lt)), reverse_Permutation.
    - (* KMer *)
      apply live_inv in E as (al & l & Ei & E). apply live_inv in E as (al' & l' & Ej & E).
      apply need_inv in E as [Hc E%give_inv]. subst s'.
      apply andb_true_iff in Hc as [Hc _]. apply andb_true_iff in Hc as [Hc _]. apply andb_true_iff in Hc as [Hc _].
      apply andb_true_iff in Hc as [Hc _]. apply andb_true_iff in Hc as [Hij%negb_true_iff%Nat.eqb_neq _].
      assert (Hall : forall z, z ∈ k_els l' \/ z ∈ k_els l -> z ∈ ssort (val_lt lt) (k_els l' ++ k_els l)).
      { intros z. by rewrite (ssort_perm (val_lt lt)), elem_of_app. }
      destruct Hx as (m & am & lm & Hm & Hin). destruct (decide (m = i)) as [->|Hmi].
      { rewrite Ei in Hm. injection Hm as <- <-. eexists i, _, _. cbn. rewrite lookup_insert. split; [done|]. apply Hall. by right. }
      destruct (decide (m = j)) as [->|Hmj].
      { rewrite Ej in Hm. injection Hm as <- <-. eexists i, _, _. cbn. rewrite lookup_insert. split; [done|]. apply Hall. by left. }
      exists m, am, lm. cbn. by rewrite !lookup_insert_ne.
    - (* KRev *)
      apply live_inv in E as (al & l & Ei & [= <- _]).
      destruct Hx as (m & am & lm & Hm & Hin). destruct (decide (m = i)) as [->|Hmi].
      + rewrite Ei in Hm. injection Hm as <- <-. eexists i, _, _. cbn [put set_ls k_ls]. rewrite lookup_insert. split; [done|].
        destruct dbl; cbn; by rewrite elem_of_reverse.
      + exists m, am, lm. cbn. by rewrite lookup_insert_ne.
    - (* KItems *) apply live_inv in E as (al & l & Ei & [= <- _]). done.
    - (* KEmpA *)
      apply live_inv in E as (al & l & Ei & E). apply pos_inv in E as [p E]. apply need_inv in E as [_ E%give_it_inv].
      subst s'. eapply (has_put (used s 1)); [exact Ei| |exact Hx]. apply in_split.
    - (* KInsA *)
      apply live_inv in E as (al & l & Ei & E). apply pos_inv in E as [p E]. apply need_inv in E as [_ E%give_it_inv].
      subst s'. eapply (has_put (used s (length vs))); [exact Ei| |exact Hx]. apply in_split.
    - (* KEmp *)
      apply need_inv in E as [_ E].
      apply live_inv in E as (al & l & Ei & E). apply pos_inv in E as [p E]. apply need_inv in E as [_ E%give_it_inv].
      subst s'. eapply (has_put (used s 1)); [exact Ei| |exact Hx]. apply in_split.
    - (* KIns *)
      apply need_inv in E as [_ E].
      apply live_inv in E as (al & l & Ei & E). apply pos_inv in E as [p E]. apply need_inv in E as [_ E%give_it_inv].
      subst s'. eapply (has_put (used s (length vs))); [exact Ei| |exact Hx]. apply in_split.
    - (* KSplA *)
      apply live_inv in E as (al & l & Ei & E). apply live_inv in E as (al' & l' & Ej & E). apply pos_inv in E as [p E].
      apply need_inv in E as [Hc E%give_inv]. subst s'.
      apply andb_true_iff in Hc as [Hc _]. apply andb_true_iff in Hc as [Hc _]. apply andb_true_iff in Hc as [Hij%negb_true_iff%Nat.eqb_neq _].
      destruct Hx as (m & am & lm & Hm & Hin). destruct (decide (m = i)) as [->|Hmi].
      { rewrite Ei in Hm. injection Hm as <- <-. eexists i, _, _. cbn. rewrite lookup_insert. split; [done|]. by apply in_split. }
      destruct (decide (m = j)) as [->|Hmj].
      { rewrite Ej in Hm. injection Hm as <- <-. eexists i, _, _. cbn. rewrite lookup_insert. split; [done|]. cbn.
        rewrite !elem_of_app. tauto. }
      exists m, am, lm. cbn. by rewrite !lookup_insert_ne.
    - (* KSpl *)
      apply need_inv in E as [_ E].
      apply live_inv in E as (al & l & Ei & E). apply live_inv in E as (al' & l' & Ej & E). apply pos_inv in E as [p E].
      apply need_inv in E as [Hc E%give_inv]. subst s'.
      apply andb_true_iff in Hc as [Hc _]. apply andb_true_iff in Hc as [Hc _]. apply andb_true_iff in Hc as [Hij%negb_true_iff%Nat.eqb_neq _].
      destruct Hx as (m & am & lm & Hm & Hin). destruct (decide (m = i)) as [->|Hmi].
      { rewrite Ei in Hm. injection Hm as <- <-. eexists i, _, _. cbn. rewrite lookup_insert. split; [done|]. by apply in_split. }
      destruct (decide (m = j)) as [->|Hmj].
      { rewrite Ej in Hm. injection Hm as <- <-. eexists i, _, _. cbn. rewrite lookup_insert. split; [done|]. cbn.
        rewrite !elem_of_app. tauto. }
      exists m, am, lm. cbn. by rewrite !lookup_insert_ne.
    - by apply live_inv in E as (al & l & Ei & [= <- _]).
    - by apply live_inv in E as (al & l & Ei & [= <- _]).
    - by apply live_inv in E as (al & l & Ei & [= <- _]).
    - match type of E with context [k_it s !! ?z] => destruct (k_it s !! z); [|done] end. by injection E as <- _.
    - apply live_inv in E as (al & l & Ei & E). apply pos_inv in E as [p E]. by apply need_inv in E as [_ [= <- _]].
    - apply live_inv in E as (al & l & Ei & E). apply pos_inv in E as [p E]. by apply need_inv in E as [_ [= <- _]].
    - apply need_inv in E as [_ E]. apply live_inv in E as (al & l & Ei & E). apply pos_inv in E as [p E].
      by apply need_inv in E as [_ [= <- _]].
    - apply need_inv in E as [_ E]. apply live_inv in E as (al & l & Ei & E). apply pos_inv in E as [p E].
      by apply need_inv in E as [_ [= <- _]].
    - apply live_inv in E as (al & l & Ei & E). apply pos_inv in E as [p E]. apply need_inv in E as [_ E].
      destruct (k_els l !! _) as [[? ?]|]; [|done]. by injection E as <- _.
    - apply live_inv in E as (al & l & Ei & E). apply live_inv in E as (al' & l' & Ej & E).
      apply pos_inv in E as [p E]. apply pos_inv in E as [q E]. by injection E as <- _.
  Qed.
  Lemma keeps_it s o s' y t : assigns t o = false -> kspec dbl s o = SOk s' y -> k_it s' !! t = k_it s !! t.
  Proof.
    intros Ha E. destruct o; cbn [assigns kspec] in Ha, E.
    all: try (apply Nat.eqb_neq in Ha); try (apply orb_false_iff in Ha as [Ha1%Nat.eqb_neq Ha2%Nat.eqb_neq]).
    all: repeat lazymatch type of E with
        | need _ _ = _ => apply need_inv in E as [_ E]
        | live _ _ _ = _ => apply live_inv in E as (? & ? & _ & E)
        | at_pos _ _ _ _ = _ => apply pos_inv in E as [? E]
        | give _ _ _ _ _ _ = _ => apply give_inv in E
        | give_it _ _ _ _ _ _ _ = _ => apply give_it_inv in E
        | match ?x with _ => _ end = _ => destruct x; try discriminate E
        end.
    all: try (injection E as <- _); try subst s'; cbn [set_it put set_ls used k_it]; rewrite ?lookup_insert_ne by done; reflexivity.
  Qed.

  Lemma srun_split ops1 ops2 s s2 outs : srun (kspec dbl) s (ops1 ++ ops2) = SOk s2 outs ->
    exists s1 y1 y2, srun (kspec dbl) s ops1 = SOk s1 y1 /\ srun (kspec dbl) s1 ops2 = SOk s2 y2 /\ outs = y1 ++ y2.
  Proof.
    revert s outs. induction ops1 as [|o ops1 IH]; intros s outs; cbn [srun app]; [intros E; by exists s, [], outs|].
    destruct (kspec dbl s o) as [s0 x| |]; try done.
    destruct (srun (kspec dbl) s0 (ops1 ++ ops2)) as [s' o'| |] eqn:E; try done. intros [= -> <-].
    apply IH in E as (s1 & o1 & o2 & -> & E2 & ->). by exists s1, (x :: o1), o2.
  Qed.
  Lemma srun_keeps ops t x s s' outs : Forall (fun o => keeps o = true /\ assigns t o = false) ops ->
    srun (kspec dbl) s ops = SOk s' outs -> has_el s x -> has_el s' x /\ k_it s' !! t = k_it s !! t.
  Proof.
    intros Hf. revert s outs. induction Hf as [|o ops [Hk Ha] Hf IH]; intros s outs; cbn [srun]; [by intros [= -> _]|].
    destruct (kspec dbl s o) as [s0 y| |] eqn:E0; try done.
    destruct (srun (kspec dbl) s0 ops) as [s1 ys| |] eqn:E1; try done. intros [= -> _] Hx.
    destruct (IH _ _ E1 (keeps_el _ _ _ _ _ Hk E0 Hx)) as [H1 H2]. split; [done|]. rewrite H2. by eapply keeps_it.
  Qed.
  Lemma els_name (l : kls T) p n v : k_els l !! p = Some (n, v) -> names l !! S p = Some n.
  Proof.
    intros Hp. unfold names. change (((k_els l).*1 ++ [k_end l]) !! p = Some n).
    apply lookup_app_l_Some. by rewrite list_lookup_fmap, Hp.
  Qed.
  Lemma name_els (l : kls T) p n : names l !! S p = Some n -> (p < length (k_els l))%nat -> exists v, k_els l !! p = Some (n, v).
  Proof.
    unfold names. change (((k_els l).*1 ++ [k_end l]) !! p = Some n -> (p < length (k_els l))%nat -> exists v, k_els l !! p = Some (n, v)).
    intros Hp Hl. rewrite lookup_app_l in Hp by (by rewrite fmap_length). rewrite list_lookup_fmap in Hp.
    destruct (k_els l !! p) as [[m v]|]; [|done]. injection Hp as ->. by exists v.
  Qed.
  Lemma get_el s i t s' x : kspec dbl s (KGet i t) = SOk s' x ->
    exists n v, k_it s !! t = Some n /\ x = KV v /\ has_el s (n, v).
  Proof.
    cbn [kspec]. intros E. apply live_inv in E as (al & l & Ei & E). unfold at_pos in E.
    destruct (k_it s !! t) as [n|] eqn:Et; [|done]. destruct (where_is n (names l)) as [p|] eqn:Ep; [|done].
    apply where_is_lookup in Ep. apply need_inv in E as [Hp%Nat.leb_le E].
    destruct (k_els l !! (p - 1)%nat) as [[m v]|] eqn:Ev; [|done]. injection E as <- <-.
    pose proof (els_name _ _ _ _ Ev) as Hn. replace (S (p - 1)) with p in Hn by lia. rewrite Hn in Ep. injection Ep as ->.
    exists n, v. split; [done|]. split; [done|]. exists i, al, l. split; [done|]. by eapply elem_of_list_lookup_2.
  Qed.
  Lemma el_get s st t n v : krel dbl s st -> k_it s !! t = Some n -> has_el s (n, v) ->
    exists i, kspec dbl s (KGet i t) = SOk s (KV v).
  Proof.
    intros [ρ HR] Ht (i & al & l & Hi & Hin). exists i. cbn [kspec]. unfold live, at_pos. rewrite Hi, Ht.
    apply elem_of_list_lookup in Hin as [p Hp]. pose proof (els_name _ _ _ _ Hp) as Hn.
    destruct (R_live _ _ _ _ _ _ _ HR Hi) as (_ & Lk & _).
    pose proof (lok_nd dbl _ _ _ _ _ Lk) as Hnd. rewrite rn_names in Hnd. apply NoDup_fmap_1 in Hnd.
    unfold where_is. rewrite (proj2 (list_find_Some (fun m => m = n) (names l) (S p) n)).
    - cbn. by rewrite Nat.sub_0_r, Hp.
    - split; [done|]. split; [done|]. intros j y Hj Hlt ->. pose proof (NoDup_lookup _ _ _ _ Hnd Hj Hn). lia.
  Qed.

  (** An iterator to an element with value [v], kept while anything happens
      that removes no element and assigns to none: it can still be
      dereferenced and gives [v], wherever the element is now. *)
  Theorem C60_value_stays ops ops' i j t v s s' outs outs' : Forall kordered (ops ++ ops') ->
    srun (kspec dbl) kinit (ops ++ [KGet i t]) = SOk s (outs ++ [KV v]) ->
    srun (kspec dbl) kinit (ops ++ ops') = SOk s' outs' ->
    Forall (fun o => keeps o = true /\ assigns t o = false) ops' ->
    exists st, run_ops (kstep dbl) (ops ++ ops' ++ [KGet j t]) iinit = Ok (outs' ++ [KV v], st).
  Proof.
    intros Ho E1 E2 Hk.
    apply srun_split in E1 as (s1 & o1 & o2 & E1 & E3 & Eo). apply srun_split in E2 as (s1' & p1 & p2 & E2 & E4 & ->).
    rewrite E1 in E2. injection E2 as <- <-.
    cbn [srun] in E3. destruct (kspec dbl s1 (KGet i t)) as [s3 x| |] eqn:E5; [|done|done]. injection E3 as <- <-.
    apply app_inj_tail in Eo as [-> Hx]. subst x.
    apply get_el in E5 as (n & v' & Ht & [= <-] & Hin).
    destruct (srun_keeps _ _ _ _ _ _ Hk E4 Hin) as [Hin' Ht'].
    assert (E6 : srun (kspec dbl) kinit (ops ++ ops') = SOk s' (o1 ++ p2)).
    { by rewrite (srun_app _ _ _ _ _ _ E1), E4. }
    pose proof (krun_agrees _ Ho _ _ krel_init) as H0. rewrite E6 in H0. destruct H0 as (st & E7 & Hr).
    destruct (el_get s' st t n v Hr (eq_trans Ht' Ht) Hin') as [m Hm].
    destruct (C60_iterators_partial ((ops ++ ops') ++ [KGet m t]) s' ((o1 ++ p2) ++ [KV v])) as [st' E8].
    - apply Forall_app. split; [done|]. by constructor.
    - rewrite (srun_app _ _ _ _ _ _ E6). cbn [srun]. by rewrite Hm.
    - exists st'. rewrite <-E8, app_assoc. clear. generalize (@iinit T) as st. generalize (ops ++ ops') as os.
      induction os as [|o os IH]; intros st; [done|]. cbn [app run_ops]. unfold bind. destruct (kstep dbl o st) as [[y st1]|]; [|done].
      by rewrite IH.
  Qed.

  (** *** Kept [before_begin()] and [end()] *)
  (** Operations that leave list [i] in its variable and do not exchange its
      ends. *)
  Definition stays (i : nat) o : bool :=
    match o with
    | KMove _ j | KDel j => negb (i =? j)%nat
    | KSwap j m => negb (i =? j)%nat && negb (i =? m)%nat
    | KSplA _ _ j rv | KSpl _ _ j rv => negb (rv && (i =? j)%nat)
    | KRev j => negb (dbl && (i =? j)%nat)
    | _ => true
    end.
  Lemma put_ends s i al l e al' j a b : k_ls s !! i = Some (al, Some l) ->
    (exists x y, k_ls s !! j = Some (x, Some y) /\ k_front y = a /\ k_end y = b) ->
    exists x y, k_ls (put s i al' (with_els l e)) !! j = Some (x, Some y) /\ k_front y = a /\ k_end y = b.
  Proof.
    intros Hi (x & y & Hj & Ha & Hb). cbn [put set_ls k_ls]. destruct (decide (i = j)) as [<-|Hij].
    - rewrite Hi in Hj. injection Hj as <- <-. exists al', (with_els l e). by rewrite lookup_insert.
    - exists x, y. by rewrite lookup_insert_ne.
  Qed.
  Lemma stays_ends s o s' x i a b : stays i o = true -> kspec dbl s o = SOk s' x ->
    (exists al l, k_ls s !! i = Some (al, Some l) /\ k_front l = a /\ k_end l = b) ->
    exists al l, k_ls s' !! i = Some (al, Some l) /\ k_front l = a /\ k_end l = b.
  Proof.
    intros Hs E Hl. destruct o; cbn [stays kspec] in Hs, E.
    all: repeat lazymatch type of E with
        | need _ _ = _ => apply need_inv in E as [? E]
        | live _ _ _ = _ => apply live_inv in E as (? & ? & ? & E)
        | at_pos _ _ _ _ = _ => apply pos_inv in E as [? E]
        | give _ _ _ _ _ _ = _ => apply give_inv in E
        | give_it _ _ _ _ _ _ _ = _ => apply give_it_inv in E
        | match ?x with _ => _ end = _ => destruct x eqn:?; try discriminate E
        end.
    all: try (injection E as <- _); try subst s'; cbn [k_ls set_it]; try exact Hl.
    all: try (eapply put_ends; [eassumption|exact Hl]).
    all: destruct Hl as (al1 & l1 & Hi & Ha & Hb); cbn [set_ls put used k_ls].
    all: repeat match goal with
         | H : _ && _ = true |- _ => apply andb_true_iff in H as [? ?]
         | H : negb (_ =? _)%nat = true |- _ => apply negb_true_iff, Nat.eqb_neq in H
         end.
    - exists al1, l1. by rewrite lookup_insert_ne by congruence.
    - exists al1, l1. rewrite !lookup_insert_ne by congruence. done.
    - exists al1, l1. by rewrite !lookup_insert_ne by done.
    - exists al1, l1. by rewrite lookup_delete_ne by done.
    - destruct (decide (i0 = i)) as [->|]; [|rewrite lookup_insert_ne by done; destruct (decide (j = i)) as [->|]].
      + rewrite lookup_insert. eexists _, _. split; [done|]. cbn. naive_solver.
      + rewrite lookup_insert. eexists _, _. split; [done|]. cbn. naive_solver.
      + rewrite lookup_insert_ne by done. by exists al1, l1.
    - destruct (decide (i0 = i)) as [->|].
      + rewrite lookup_insert, Nat.eqb_refl in *. destruct dbl; [done|]. eexists _, _. split; [done|]. cbn. naive_solver.
      + rewrite lookup_insert_ne by done. by exists al1, l1.
    - destruct (decide (i0 = i)) as [->|]; [|rewrite lookup_insert_ne by done; destruct (decide (j = i)) as [->|]].
      + rewrite lookup_insert. eexists _, _. split; [done|]. cbn. naive_solver.
      + rewrite lookup_insert, Nat.eqb_refl in *. destruct rv; [done|]. eexists _, _. split; [done|]. cbn. naive_solver.
      + rewrite lookup_insert_ne by done. by exists al1, l1.
    - destruct (decide (i0 = i)) as [->|]; [|rewrite lookup_insert_ne by done; destruct (decide (j = i)) as [->|]].
      + rewrite lookup_insert. eexists _, _. split; [done|]. cbn. naive_solver.
      + rewrite lookup_insert, Nat.eqb_refl in *. destruct rv; [done|]. eexists _, _. split; [done|]. cbn. naive_solver.
      + rewrite lookup_insert_ne by done. by exists al1, l1.
  Qed.
  Lemma srun_stays ops i t s s' outs a b : Forall (fun o => stays i o = true /\ assigns t o = false) ops ->
    srun (kspec dbl) s ops = SOk s' outs ->
    (exists al l, k_ls s !! i = Some (al, Some l) /\ k_front l = a /\ k_end l = b) ->
    (exists al l, k_ls s' !! i = Some (al, Some l) /\ k_front l = a /\ k_end l = b) /\ k_it s' !! t = k_it s !! t.
  Proof.
    intros Hf. revert s outs. induction Hf as [|o ops [Hk Ha] Hf IH]; intros s outs; cbn [srun]; [by intros [= -> _]|].
    destruct (kspec dbl s o) as [s0 y| |] eqn:E0; try done.
    destruct (srun (kspec dbl) s0 ops) as [s1 ys| |] eqn:E1; try done. intros [= -> _] Hx.
    destruct (IH _ _ E1 (stays_ends _ _ _ _ _ _ _ Hk E0 Hx)) as [H1 H2]. split; [done|]. rewrite H2. by eapply keeps_it.
  Qed.

  (** An iterator that was [before_begin()] or [end()] of list [i] still is,
      unless the list went to another variable or was destroyed or (doubly
      linked) reversed. *)
  Definition edge (e : bool) (t i : nat) : kop := if e then KEnd t i else KBefore t i.
  Theorem C60_ends_stay_partial e ops ops' i t u s outs : Forall kordered (ops ++ edge e t i :: ops') ->
    srun (kspec dbl) kinit (ops ++ edge e t i :: ops') = SOk s outs ->
    Forall (fun o => stays i o = true /\ assigns t o = false) ops' -> t <> u ->
    exists st, run_ops (kstep dbl) (ops ++ edge e t i :: ops' ++ [edge e u i; KEq i t i u]) iinit =
      Ok (outs ++ [KU; KB true], st).
  Proof.
    intros Ho E Hk Htu.
    pose proof (krun_agrees _ Ho _ _ krel_init) as H0. rewrite E in H0. destruct H0 as (st & _ & [ρ HR]).
    pose proof E as E'. apply srun_split in E' as (s1 & y1 & y2 & E1 & E2 & ->). cbn [srun] in E2.
    destruct (kspec dbl s1 (edge e t i)) as [s2 x| |] eqn:E3; try done.
    destruct (srun (kspec dbl) s2 ops') as [s3 y3| |] eqn:E4; try done. injection E2 as -> <-.
    assert (Hs : exists al l, k_ls s2 !! i = Some (al, Some l) /\ k_it s2 !! t = Some (if e then k_end l else k_front l)).
    { unfold edge in E3. destruct e; cbn [kspec] in E3; apply live_inv in E3 as (al & l & Hi & [= <- _]);
        exists al, l; cbn; by rewrite lookup_insert. }
    destruct Hs as (al & l & Hi & Ht).
    destruct (srun_stays _ _ _ _ _ _ (k_front l) (k_end l) Hk E4) as [(al' & l' & Hi' & Hf & He) Ht']; [by exists al, l|].
    rewrite Ht in Ht'. set (n := if e then k_end l else k_front l) in *.
    assert (Hin : n ∈ names l').
    { unfold n, names. rewrite Hf, He. destruct e; [|left]. right. apply elem_of_app. right. by left. }
    assert (Hw : exists p, where_is n (names l') = Some p /\ name_at l' p = n).
    { unfold where_is. destruct (list_find (fun m => m = n) (names l')) as [[p m]|] eqn:F.
      - exists p. split; [done|]. apply list_find_Some in F as (Hp & -> & _). by apply name_at_lookup.
      - apply list_find_None in F. rewrite Forall_forall in F. by destruct (F n Hin). }
    destruct Hw as (p & Hp & Hn).
    assert (Eu : kspec dbl s (edge e u i) = SOk (set_it s u n) KU).
    { unfold n. rewrite <-Hf, <-He. unfold edge. destruct e; cbn [kspec]; unfold live; by rewrite Hi'. }
    assert (Ee : kspec dbl (set_it s u n) (KEq i t i u) = SOk (set_it s u n) (KB true)).
    { cbn [kspec]. unfold live, at_pos. cbn [set_it k_ls k_it]. rewrite Hi', lookup_insert, lookup_insert_ne, Ht', Hp by done.
      by rewrite bool_decide_eq_true_2. }
    replace (ops ++ edge e t i :: ops' ++ [edge e u i; KEq i t i u])
      with ((ops ++ edge e t i :: ops') ++ [edge e u i; KEq i t i u]) by (by rewrite <-app_assoc).
    apply (C60_iterators_partial _ (set_it s u n)).
    - apply Forall_app. split; [done|]. constructor; [by destruct e|]. by constructor.
    - rewrite (srun_app _ _ _ _ _ _ E). cbn [srun]. by rewrite Eu, Ee.
  Qed.
End Props.

(** *** A case that meets the hypotheses
    Two lists; iterators to an element of each, then sort, splice, reverse,
    insert, swap and erase of other elements around them. *)
Definition C60_ops : list (kop N) :=
  [KRange 0 0 [5; 1; 3]; KRange 1 0 [8; 9];
   KBegin 0 0; KInc 0 0;                       (* t0 -> the 1 in list 0 *)
   KBegin 1 1; KIncP 1 1 2;                    (* t1 -> the 9, t2 -> the 8 in list 1 *)
   KEnd 3 0].
Definition C60_ops' : list (kop N) :=
  [KSrt 0 N.ltb; KItems 0; KSplA 0 0 1 false; KItems 0; KItems 1; KPushF 1 7; KSwap 0 1; KItems 1;
   KGet 1 0; KEmpA 1 0 6 4; KRev 1; KItems 1; KInc 1 0; KEq 1 0 1 3].
Example C60_ex :
  exists s, srun (kspec false) kinit (C60_ops ++ C60_ops') =
    SOk s [KU; KU; KU; KU; KU; KU; KU; KU; KL [1; 3; 5]; KU; KL [1; 8; 9; 3; 5]; KL []; KU; KU; KL [1; 8; 9; 3; 5];
           KV 1; KU; KU; KL [5; 3; 9; 8; 6; 1]; KU; KB true].
Proof. eexists. vm_compute. reflexivity. Qed.
Example C60_ex_keeps : Forall (fun o => keeps o = true /\ assigns 1 o = false) C60_ops'.
Proof. repeat constructor. Qed.
Example C60_ex_run :
  match run_ops (kstep false) (C60_ops ++ C60_ops' ++ [KGet 1 1; KSet 1 1 4; KItems 1; KGet 1 2]) iinit with
  | Ok (outs, _) => drop 21 outs = [KV 9; KU; KL [5; 3; 4; 8; 6; 1]; KV 8]
  | Err _ => False
  end.
Proof. vm_compute. reflexivity. Qed.
(** ... and its last part, where iterator 3 is [end()] throughout. *)
Example C60_ex_ends : Forall (fun o => stays false 1 o = true /\ assigns 3 o = false) (drop 7 C60_ops').
Proof. repeat constructor. Qed.

(** [end()] of a doubly linked list does not survive [reverse()]: it is
    [before_begin()] afterwards. *)
Theorem C60_refuted :
  match run_ops (kstep true) [KRange 0 0 [1; 2]; KEnd 0 0; KRev 0; KEnd 1 0; KEq 0 0 0 1; KBefore 2 0; KEq 0 0 0 2] (iinit (T := N))
  with
  | Ok (outs, _) => outs = [KU; KU; KU; KU; KB false; KU; KB true]
  | Err _ => False
  end.
Proof. vm_compute. reflexivity. Qed.

Print Assumptions C60_iterators_partial.
Print Assumptions C60_value_stays.
Print Assumptions C60_ends_stay_partial.
Print Assumptions C60_refuted.
