(** * VecFacts: lemmas about the storage primitives of VecModel *)
From Verif Require Import Base World VecModel.
Local Open Scope N_scope.

Lemma bind_ok {S A B} (m : M S A) (k : A -> M S B) s a s' :
  m s = Ok (a, s') -> bind m k s = k a s'.
Proof. unfold bind. by intros ->. Qed.

Lemma bind_err {S A B} (m : M S A) (k : A -> M S B) s e :
  m s = Err e -> bind m k s = Err e.
Proof. unfold bind. by intros ->. Qed.

Lemma bind_bind {S A B D} (m : M S A) (k : A -> M S B) (l : B -> M S D) s :
  bind (bind m k) l s = bind m (fun x => bind (k x) l) s.
Proof. unfold bind. destruct (m s) as [[a s']|]; done. Qed.

Lemma bind_ret {S A B} (a : A) (k : A -> M S B) s : bind (ret a) k s = k a s.
Proof. done. Qed.

(** Words that do not wrap. *)
Lemma uadd_small a b : a + b < W -> uadd a b = a + b.
Proof. unfold uadd. intros. by apply N.mod_small. Qed.
Lemma usub_small a b : b <= a -> a < W -> usub a b = a - b.
Proof.
  unfold usub. intros. replace (a + W - b) with ((a - b) + 1 * W) by lia.
  rewrite N.mod_add by (unfold W; lia). apply N.mod_small. lia.
Qed.
Lemma umul_small a b : a * b < W -> umul a b = a * b.
Proof. unfold umul. intros. by apply N.mod_small. Qed.
Lemma usub_0_1 : usub 0 1 = 18446744073709551615.
Proof. done. Qed.

Lemma nlookup_mid {A} (c1 c2 : list A) c i :
  i = N.of_nat (length c1) -> nlookup (c1 ++ c :: c2) i = Some c.
Proof.
  intros ->. unfold nlookup.
  destruct (N.ltb_spec (N.of_nat (length c1)) (N.of_nat (length (c1 ++ c :: c2)))) as [_|Hge].
  - rewrite Nat2N.id. by apply list_lookup_middle.
  - rewrite app_length in Hge. simpl in Hge. lia.
Qed.

Lemma nlookup_lookup {A} (l : list A) i : nlookup l i = l !! N.to_nat i.
Proof.
  unfold nlookup. destruct (N.ltb_spec i (N.of_nat (length l))); [done|].
  symmetry. apply lookup_ge_None. lia.
Qed.

Lemma ninsert_mid {A} (c1 c2 : list A) c d i :
  i = N.of_nat (length c1) -> ninsert (c1 ++ c :: c2) i d = c1 ++ d :: c2.
Proof.
  intros ->. unfold ninsert. rewrite Nat2N.id.
  rewrite insert_app_r_alt by lia. by rewrite Nat.sub_diag.
Qed.

(** [hput h a b k]: heap [h] with cell [a] set to [b] and [k] more relocations. *)
Definition hput {C} (h : heap C) (a : N) (b : C) (k : N) : heap C :=
  Heap (<[a := b]> (hmap h)) (hnext h) (hmoves h + k).

Section Facts.
  Context {A : Type}.
  Implicit Types (h : heap (block A)) (c : list (cell A)).

  Lemma hput_hput h a (b b' : block A) k k' : hput (hput h a b k) a b' k' = hput h a b' (k + k').
  Proof. unfold hput; simpl. rewrite insert_insert. f_equal. lia. Qed.

  Lemma hput_lookup h a (b : block A) k : hmap (hput h a b k) !! a = Some b.
  Proof. simpl. by rewrite lookup_insert. Qed.

  Lemma hput_lookup_ne h a a' (b : block A) k :
    a <> a' -> hmap (hput h a b k) !! a' = hmap h !! a'.
  Proof. intros. simpl. by rewrite lookup_insert_ne. Qed.

  Lemma hput_id h a (b : block A) : hmap h !! a = Some b -> hput h a b 0 = h.
  Proof.
    intros Hb. unfold hput. rewrite insert_id by done. rewrite N.add_0_r. by destruct h.
  Qed.

  Lemma hput_comm h a a' (b b' : block A) k k' :
    a <> a' -> hput (hput h a b k) a' b' k' = hput (hput h a' b' k') a b k.
  Proof. intros. unfold hput; simpl. rewrite insert_commute by done. f_equal. lia. Qed.

  Lemma slot_ok h a al by_ c1 x c2 i :
    hmap h !! a = Some (Blk al by_ (c1 ++ x :: c2)) -> i = N.of_nat (length c1) ->
    slot (Some a) i h = Ok ((a, Blk al by_ (c1 ++ x :: c2), x), h).
  Proof.
    intros Hb Hi. unfold slot, bind, hread. rewrite Hb. simpl.
    by rewrite (nlookup_mid _ _ _ _ Hi).
  Qed.

  Lemma set_slot_ok h a al by_ c1 x y c2 i :
    hmap h !! a = Some (Blk al by_ (c1 ++ x :: c2)) -> i = N.of_nat (length c1) ->
    set_slot a (Blk al by_ (c1 ++ x :: c2)) i y h =
      Ok (tt, hput h a (Blk al by_ (c1 ++ y :: c2)) 0).
  Proof.
    intros Hb Hi. unfold set_slot, hwrite. rewrite Hb. simpl.
    rewrite (ninsert_mid _ _ _ _ _ Hi). unfold hput. by rewrite N.add_0_r.
  Qed.

  Lemma vread_ok h a al by_ c1 x c2 i :
    hmap h !! a = Some (Blk al by_ (c1 ++ Live x :: c2)) -> i = N.of_nat (length c1) ->
    vread (Some a) i h = Ok (x, h).
  Proof.
    intros Hb Hi. unfold vread. by rewrite (bind_ok _ _ _ _ _ (slot_ok _ _ _ _ _ _ _ _ Hb Hi)).
  Qed.

  Lemma vconstruct_ok h a al by_ c1 x c2 i :
    hmap h !! a = Some (Blk al by_ (c1 ++ Raw :: c2)) -> i = N.of_nat (length c1) ->
    vconstruct (Some a) i x h = Ok (tt, hput h a (Blk al by_ (c1 ++ Live x :: c2)) 0).
  Proof.
    intros Hb Hi. unfold vconstruct.
    rewrite (bind_ok _ _ _ _ _ (slot_ok _ _ _ _ _ _ _ _ Hb Hi)).
    by apply set_slot_ok.
  Qed.

  Lemma vdestroy_ok h a al by_ c1 x c2 i :
    hmap h !! a = Some (Blk al by_ (c1 ++ x :: c2)) -> i = N.of_nat (length c1) ->
    x <> Raw ->
    vdestroy (Some a) i h = Ok (tt, hput h a (Blk al by_ (c1 ++ Raw :: c2)) 0).
  Proof.
    intros Hb Hi Hx. unfold vdestroy.
    rewrite (bind_ok _ _ _ _ _ (slot_ok _ _ _ _ _ _ _ _ Hb Hi)).
    destruct x; try done; by apply set_slot_ok.
  Qed.

  Lemma vmove_ok h a al by_ c1 x c2 i :
    hmap h !! a = Some (Blk al by_ (c1 ++ Live x :: c2)) -> i = N.of_nat (length c1) ->
    vmove (Some a) i h = Ok (x, hput h a (Blk al by_ (c1 ++ Moved :: c2)) 1).
  Proof.
    intros Hb Hi. unfold vmove.
    rewrite (bind_ok _ _ _ _ _ (slot_ok _ _ _ _ _ _ _ _ Hb Hi)).
    rewrite (bind_ok _ _ _ _ _ (set_slot_ok _ _ _ _ _ _ _ _ _ Hb Hi)).
    unfold bind, htick, ret, hput. simpl. by rewrite N.add_0_r.
  Qed.

  Lemma vassign_ok h a al by_ c1 x y c2 i :
    hmap h !! a = Some (Blk al by_ (c1 ++ x :: c2)) -> i = N.of_nat (length c1) ->
    x <> Raw ->
    vassign (Some a) i y h = Ok (tt, hput h a (Blk al by_ (c1 ++ Live y :: c2)) 0).
  Proof.
    intros Hb Hi Hx. unfold vassign.
    rewrite (bind_ok _ _ _ _ _ (slot_ok _ _ _ _ _ _ _ _ Hb Hi)).
    destruct x; try done; by apply set_slot_ok.
  Qed.

  (** Out of bounds. *)
  Lemma slot_oob h a b i :
    hmap h !! a = Some b -> N.of_nat (length (b_cells b)) <= i ->
    slot (Some a) i h = Err UB.
  Proof.
    intros Hb Hi. unfold slot, bind, hread. rewrite Hb. simpl. unfold nlookup.
    by rewrite (proj2 (N.ltb_ge _ _) Hi).
  Qed.

  (** Destroying a run of non-raw cells. *)
  Lemma destroy_run a al by_ cs : forall h c1 c2 i,
    Forall (fun x => x <> Raw) cs ->
    hmap h !! a = Some (Blk al by_ (c1 ++ cs ++ c2)) -> i = N.of_nat (length c1) ->
    for_up (length cs) i (vdestroy (Some a)) h =
      Ok (tt, hput h a (Blk al by_ (c1 ++ replicate (length cs) Raw ++ c2)) 0).
  Proof.
    induction cs as [|x cs IH]; intros h c1 c2 i Hf Hb Hi; simpl.
    - by rewrite hput_id.
    - inversion Hf as [|? ? Hx Hf']; subst.
      rewrite (bind_ok _ _ _ _ _ (vdestroy_ok _ _ _ _ _ _ _ _ Hb eq_refl Hx)).
      erewrite (IH _ (c1 ++ [Raw]) c2).
      + rewrite hput_hput. by rewrite <-(assoc_L app).
      + done.
      + rewrite hput_lookup. by rewrite <-(assoc_L app).
      + rewrite app_length. simpl. lia.
  Qed.

  (** Constructing a run of elements in raw storage. *)
  Lemma construct_run a al by_ xs : forall h c1 c2 i,
    hmap h !! a = Some (Blk al by_ (c1 ++ replicate (length xs) Raw ++ c2)) ->
    i = N.of_nat (length c1) ->
    construct_all (Some a) i xs h =
      Ok (tt, hput h a (Blk al by_ (c1 ++ (Live <$> xs) ++ c2)) 0).
  Proof.
    induction xs as [|x xs IH]; intros h c1 c2 i Hb Hi; simpl.
    - by rewrite hput_id.
    - simpl in Hb.
      rewrite (bind_ok _ _ _ _ _ (vconstruct_ok _ _ _ _ _ _ _ _ Hb Hi)).
      erewrite (IH _ (c1 ++ [Live x]) c2).
      + rewrite hput_hput. by rewrite <-(assoc_L app).
      + rewrite hput_lookup. by rewrite <-(assoc_L app).
      + rewrite app_length. simpl. lia.
  Qed.

  (** Overwriting a run of live elements. *)
  Lemma assign_run a al by_ xs : forall h cs c1 c2 i,
    length cs = length xs -> Forall (fun x => x <> Raw) cs ->
    hmap h !! a = Some (Blk al by_ (c1 ++ cs ++ c2)) ->
    i = N.of_nat (length c1) ->
    assign_all (Some a) i xs h =
      Ok (tt, hput h a (Blk al by_ (c1 ++ (Live <$> xs) ++ c2)) 0).
  Proof.
    induction xs as [|x xs IH]; intros h cs c1 c2 i Hl Hf Hb Hi; simpl.
    - destruct cs; [|done]. by rewrite hput_id.
    - destruct cs as [|y cs]; [done|]. inversion Hf as [|? ? Hy Hf']; subst.
      rewrite (bind_ok _ _ _ _ _ (vassign_ok _ _ _ _ _ _ _ _ _ Hb eq_refl Hy)).
      erewrite (IH _ cs (c1 ++ [Live x]) c2).
      + rewrite hput_hput. by rewrite <-(assoc_L app).
      + simpl in Hl. lia.
      + done.
      + rewrite hput_lookup. by rewrite <-(assoc_L app).
      + rewrite app_length. simpl. lia.
  Qed.

  (** Copy-constructing elements of one block into another (copy_impl). *)
  Lemma copy_run a b al by_ al' by' xs : forall h c1 c2 d1 d2 i,
    a <> b ->
    hmap h !! b = Some (Blk al' by' (d1 ++ (Live <$> xs) ++ d2)) ->
    hmap h !! a = Some (Blk al by_ (c1 ++ replicate (length xs) Raw ++ c2)) ->
    i = N.of_nat (length c1) -> length c1 = length d1 ->
    for_up (length xs) i (fun i => x <-- vread (Some b) i ;; vconstruct (Some a) i x) h =
      Ok (tt, hput h a (Blk al by_ (c1 ++ (Live <$> xs) ++ c2)) 0).
  Proof.
    induction xs as [|x xs IH]; intros h c1 c2 d1 d2 i Hab Hd Hb Hi Hl; simpl.
    - by rewrite hput_id.
    - simpl in Hb, Hd. rewrite bind_bind.
      rewrite (bind_ok _ _ _ _ _ (vread_ok _ _ _ _ _ _ _ i Hd ltac:(lia))).
      rewrite (bind_ok _ _ _ _ _ (vconstruct_ok _ _ _ _ _ _ _ _ Hb Hi)).
      erewrite (IH _ (c1 ++ [Live x]) c2 (d1 ++ [Live x]) d2).
      + rewrite hput_hput. by rewrite <-(assoc_L app).
      + done.
      + rewrite hput_lookup_ne by done. by rewrite <-(assoc_L app).
      + rewrite hput_lookup. by rewrite <-(assoc_L app).
      + rewrite app_length. simpl. lia.
      + rewrite !app_length. simpl. lia.
  Qed.

  (** Copy-assigning elements of one block over another (copy_assign). *)
  Lemma copy_assign_run a b al by_ al' by' xs : forall h cs c1 c2 d1 d2 i,
    a <> b -> length cs = length xs -> Forall (fun x => x <> Raw) cs ->
    hmap h !! b = Some (Blk al' by' (d1 ++ (Live <$> xs) ++ d2)) ->
    hmap h !! a = Some (Blk al by_ (c1 ++ cs ++ c2)) ->
    i = N.of_nat (length c1) -> length c1 = length d1 ->
    for_up (length xs) i (fun i => x <-- vread (Some b) i ;; vassign (Some a) i x) h =
      Ok (tt, hput h a (Blk al by_ (c1 ++ (Live <$> xs) ++ c2)) 0).
  Proof.
    induction xs as [|x xs IH]; intros h cs c1 c2 d1 d2 i Hab Hcl Hf Hd Hb Hi Hl; simpl.
    - destruct cs; [|done]. by rewrite hput_id.
    - destruct cs as [|y cs]; [done|]. apply Forall_cons in Hf as [Hy Hf'].
      simpl in Hb, Hd. rewrite bind_bind.
      rewrite (bind_ok _ _ _ _ _ (vread_ok _ _ _ _ _ _ _ i Hd ltac:(lia))).
      rewrite (bind_ok _ _ _ _ _ (vassign_ok _ _ _ _ _ _ _ _ _ Hb Hi Hy)).
      erewrite (IH _ cs (c1 ++ [Live x]) c2 (d1 ++ [Live x]) d2).
      + rewrite hput_hput. by rewrite <-(assoc_L app).
      + done.
      + simpl in Hcl. lia.
      + done.
      + rewrite hput_lookup_ne by done. by rewrite <-(assoc_L app).
      + rewrite hput_lookup. by rewrite <-(assoc_L app).
      + rewrite app_length. simpl. lia.
      + rewrite !app_length. simpl. lia.
  Qed.

  (** Moving elements from one block into another (allocate_reserve). *)
  Lemma move_run a b al by_ al' by' xs : forall h c1 c2 d1 d2 i,
    a <> b ->
    hmap h !! b = Some (Blk al' by' (d1 ++ (Live <$> xs) ++ d2)) ->
    hmap h !! a = Some (Blk al by_ (c1 ++ replicate (length xs) Raw ++ c2)) ->
    i = N.of_nat (length c1) -> length c1 = length d1 ->
    for_up (length xs) i (fun i => x <-- vmove (Some b) i ;; vconstruct (Some a) i x) h =
      Ok (tt, hput (hput h a (Blk al by_ (c1 ++ (Live <$> xs) ++ c2)) 0)
                b (Blk al' by' (d1 ++ replicate (length xs) Moved ++ d2)) (N.of_nat (length xs))).
  Proof.
    induction xs as [|x xs IH]; intros h c1 c2 d1 d2 i Hab Hd Hb Hi Hl; simpl.
    - simpl in Hd. rewrite (hput_id h a) by done. by rewrite hput_id.
    - simpl in Hb, Hd. rewrite bind_bind.
      rewrite (bind_ok _ _ _ _ _ (vmove_ok _ _ _ _ _ _ _ i Hd ltac:(lia))).
      assert (Hb' : hmap (hput h b (Blk al' by' (d1 ++ Moved :: (Live <$> xs) ++ d2)) 1) !! a =
               Some (Blk al by_ (c1 ++ Raw :: replicate (length xs) Raw ++ c2))).
      { by rewrite hput_lookup_ne. }
      rewrite (bind_ok _ _ _ _ _ (vconstruct_ok _ _ _ _ _ x _ _ Hb' Hi)).
      erewrite (IH _ (c1 ++ [Live x]) c2 (d1 ++ [Moved]) d2).
      + rewrite hput_hput. rewrite (hput_comm _ b a) by done. rewrite hput_hput.
        rewrite <-!(assoc_L app). simpl. do 3 f_equal. lia.
      + done.
      + rewrite hput_lookup_ne by done. rewrite hput_lookup. by rewrite <-(assoc_L app).
      + rewrite hput_lookup. by rewrite <-(assoc_L app).
      + rewrite app_length. simpl. lia.
      + rewrite !app_length. simpl. lia.
  Qed.

  (** Reading a run of elements. *)
  Lemma collect_run a al by_ xs : forall h c1 c2 i e fuel,
    hmap h !! a = Some (Blk al by_ (c1 ++ (Live <$> xs) ++ c2)) ->
    i = N.of_nat (length c1) -> e = i + N.of_nat (length xs) ->
    (length xs < fuel)%nat ->
    viter_collect fuel (VIter (Some a) i e) h = Ok (xs, h).
  Proof.
    induction xs as [|x xs IH]; intros h c1 c2 i e fuel Hb Hi He Hf;
      (destruct fuel as [|fuel]; [simpl in Hf; lia|]); simpl.
    - unfold viter_next. simpl. simpl in He.
      replace (i =? e) with true by lia. done.
    - unfold viter_next. simpl in *.
      replace (i =? e) with false by lia. simpl. rewrite bind_bind.
      rewrite (bind_ok _ _ _ _ _ (vread_ok _ _ _ _ _ _ _ _ Hb Hi)).
      rewrite bind_ret.
      erewrite (bind_ok _ _ _ _ _ (IH h (c1 ++ [Live x]) c2 (i + 1) e fuel _ _ _ _)).
      + done.
      Unshelve. all: try lia.
      * by rewrite <-(assoc_L app).
      * rewrite app_length; simpl; lia.
  Qed.

  Lemma Forall_live_not_raw (xs : list A) : Forall (fun x => x <> Raw) (Live <$> xs).
  Proof. induction xs; constructor; auto; done. Qed.
  Lemma Forall_moved_not_raw n : Forall (fun x : cell A => x <> Raw) (replicate n Moved).
  Proof. induction n; constructor; auto; done. Qed.
  Lemma forallb_raw n : forallb (@is_raw A) (replicate n Raw) = true.
  Proof. induction n; auto. Qed.
End Facts.
