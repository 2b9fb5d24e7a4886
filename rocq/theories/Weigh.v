(** * Weigh: adding up what is in memory

    Proof infrastructure and the notions C88 is stated with (no model
    content): the sum over all blocks in memory is the sum over all variables
    of what they own. *)
From Verif Require Import Base World.
Local Open Scope N_scope.

(** ** Sums *)
Fixpoint sumN (l : list N) : N := match l with [] => 0 | x :: r => x + sumN r end.
Lemma sumN_app l k : sumN (l ++ k) = sumN l + sumN k.
Proof. induction l as [|x l IH]; simpl; [done|]. rewrite IH. lia. Qed.
Lemma sumN_perm l k : l ≡ₚ k -> sumN l = sumN k.
Proof. induction 1; simpl; lia. Qed.

(** What is in memory, each block counted with weight [g]. *)
Definition weigh {C} (g : C -> N) (h : heap C) : N := sumN (g <$> (map_to_list (hmap h)).*2).
(** The number of blocks of a kind. *)
Definition blocks {C} (p : C -> bool) (h : heap C) : N := N.of_nat (length (List.filter p (map_to_list (hmap h)).*2)).
(** The sum over all variables. *)
Definition over {S} (f : S -> N) (sp : gmap nat S) : N := sumN (f <$> (map_to_list sp).*2).

Lemma blocks_weigh {C} (p : C -> bool) h : blocks p h = weigh (fun c => if p c then 1 else 0) h.
Proof.
  unfold blocks, weigh. induction (map_to_list (hmap h)).*2 as [|c l IH]; [done|].
  cbn [List.filter fmap list_fmap sumN]. fold (list_fmap _ _ (fun c => if p c then 1 else 0)) in *.
  destruct (p c); cbn [length]; lia.
Qed.
Lemma size_weigh {C} (h : heap C) : N.of_nat (size (hmap h)) = weigh (fun _ => 1) h.
Proof.
  unfold weigh, size, map_size. rewrite <-(fmap_length snd (map_to_list (hmap h))).
  induction (map_to_list (hmap h)).*2 as [|c l IH]; [done|]. rewrite fmap_cons. cbn [sumN length]. lia.
Qed.
Lemma over_fmap {S U} (k : S -> U) (f : U -> N) (m : gmap nat S) : over f (k <$> m) = over (fun s => f (k s)) m.
Proof.
  unfold over. rewrite (sumN_perm _ (f <$> (prod_map id k <$> map_to_list m).*2)).
  - f_equal. rewrite <-!list_fmap_compose. apply list_fmap_ext. by intros ? [].
  - by rewrite map_to_list_fmap.
Qed.

Section Weigh.
  Context {C O Sp : Type} (rep : heap C -> O -> Sp -> list N -> Prop).
  Context (rep_dom : forall h o s fp a, rep h o s fp -> a ∈ fp -> is_Some (hmap h !! a)).
  Implicit Types (w : world C O) (m : gmap nat (entry (O := O) (Sp := Sp))).

  Definition at_ (g : C -> N) (h : heap C) (a : N) : N := match hmap h !! a with Some c => g c | None => 0 end.
  Lemma weigh_addrs g h : weigh g h = sumN (at_ g h <$> (map_to_list (hmap h)).*1).
  Proof using Type.
    unfold weigh. f_equal. rewrite <-!list_fmap_compose. apply list_fmap_ext.
    intros i [a c] Hi. simpl. unfold at_.
    assert (hmap h !! a = Some c) as -> by (apply elem_of_map_to_list; by eapply elem_of_list_lookup_2). done.
  Qed.
  Lemma sum_fps g h (f : O -> Sp -> N) (l : list (nat * entry)) :
    (forall i e, (i, e) ∈ l -> sumN (at_ g h <$> e_fp e) = f (e_o e) (e_s e)) ->
    sumN (at_ g h <$> mjoin (e_fp <$> l.*2)) = sumN ((fun e => f (e_o e) (e_s e)) <$> l.*2).
  Proof using Type.
    induction l as [|[i e] l IH]; intros Hl; [done|]. cbn [fmap list_fmap mjoin list_join sumN snd].
    rewrite fmap_app, sumN_app. f_equal.
    - apply (Hl i e). by left.
    - apply IH. intros j e' Hin. apply (Hl j e'). by right.
  Qed.
  Lemma nodup_fps m (l : list (nat * entry)) : NoDup l.*1 ->
    (forall i e, (i, e) ∈ l -> m !! i = Some e) -> (forall i e, m !! i = Some e -> NoDup (e_fp e)) ->
    (forall i j e f a, m !! i = Some e -> m !! j = Some f -> i <> j -> a ∈ e_fp e -> a ∈ e_fp f -> False) ->
    NoDup (mjoin (e_fp <$> l.*2)).
  Proof using Type.
    intros Hk Hm Hn Hd. induction l as [|[i e] l IH]; [constructor|]. cbn [fmap list_fmap mjoin list_join snd].
    cbn [fmap list_fmap fst] in Hk. apply NoDup_cons in Hk as [Hi Hk]. apply NoDup_app. split; [|split].
    - apply (Hn i). apply Hm. by left.
    - intros a Ha Ha'. apply elem_of_list_join in Ha' as (fp & Ha' & Hfp).
      apply elem_of_list_fmap in Hfp as (e' & -> & He'). apply elem_of_list_fmap in He' as ([j e2] & -> & Hj).
      apply (Hd i j e e2 a); [apply Hm; by left|apply Hm; by right| |done|done].
      intros ->. apply Hi. apply elem_of_list_fmap. by exists (j, e2).
    - apply IH; [done|]. intros j e' Hin. apply Hm. by right.
  Qed.

  (** Everything in memory belongs to exactly one variable. *)
  Lemma weigh_world g w sp m (f : O -> Sp -> N) : world_ok_with rep w sp m ->
    (forall o s fp, rep (w_heap w) o s fp -> NoDup fp /\ sumN (at_ g (w_heap w) <$> fp) = f o s) ->
    weigh g (w_heap w) = over (fun e => f (e_o e) (e_s e)) m.
  Proof using rep_dom.
    intros Hw Hf. rewrite weigh_addrs. unfold over. rewrite <-(sum_fps g (w_heap w)).
    2:{ intros i e Hin%elem_of_map_to_list. apply (Hf _ _ _ (wo_rep _ _ _ _ Hw i e Hin)). }
    apply sumN_perm, fmap_Permutation, NoDup_Permutation.
    - apply NoDup_fst_map_to_list.
    - apply (nodup_fps m); [apply NoDup_fst_map_to_list| | |apply Hw].
      + intros i e. by rewrite elem_of_map_to_list.
      + intros i e Hm. apply (Hf _ _ _ (wo_rep _ _ _ _ Hw i e Hm)).
    - intros a. rewrite elem_of_list_fmap. split.
      + intros ([b c] & -> & Hin%elem_of_map_to_list). cbn [fst].
        destruct (wo_cover _ _ _ _ Hw b (mk_is_Some _ _ Hin)) as (i & e & Hm & Ha).
        apply elem_of_list_join. exists (e_fp e). split; [done|]. apply elem_of_list_fmap. exists e. split; [done|].
        apply elem_of_list_fmap. exists (i, e). split; [done|]. by apply elem_of_map_to_list.
      + intros (fp & Ha & Hfp)%elem_of_list_join. apply elem_of_list_fmap in Hfp as (e & -> & He).
        apply elem_of_list_fmap in He as ([i e'] & -> & Hin%elem_of_map_to_list).
        destruct (rep_dom _ _ _ _ _ (wo_rep _ _ _ _ Hw i e' Hin) Ha) as [c Hc].
        exists (a, c). split; [done|]. by apply elem_of_map_to_list.
  Qed.
End Weigh.

(** Changing one variable changes the sum by what it counted and counts. *)
Lemma over_new {S} (f : S -> N) sp i x : sp !! i = None -> over f (<[i := x]> sp) = f x + over f sp.
Proof.
  intros Hi. unfold over. rewrite (sumN_perm _ (f <$> ((i, x) :: map_to_list sp).*2)); [done|].
  by rewrite map_to_list_insert.
Qed.
Lemma over_put {S} (f : S -> N) sp i x y : sp !! i = Some y -> over f (<[i := x]> sp) + f y = over f sp + f x.
Proof.
  intros Hi. rewrite <-insert_delete_insert, over_new by apply lookup_delete.
  rewrite <-(insert_delete sp i y Hi) at 2. rewrite over_new by apply lookup_delete. lia.
Qed.
Lemma over_ext {S} (f g : S -> N) sp : (forall s, f s = g s) -> over f sp = over g sp.
Proof. intros H. unfold over. f_equal. apply list_fmap_ext. intros i s _. apply H. Qed.
