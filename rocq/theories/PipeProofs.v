(** * PipeProofs: what whole pipelines do, for any source and any collection

    Proof infrastructure: the assumptions about the source iterator and the
    collection are section variables, discharged in [ListPipe] and
    [VecPipe]. *)
From Verif Require Import Base World IterProps PipeModel Tri.

Section Pipe.
  Context {H Ad V It : Type} {MM : mem H Ad}.
  Notation HM := (M H).
  Notation asn := (H -> list Ad -> Prop).
  Context (rd : list Ad) (rdp : H -> Prop).
  Context (rdp_frame : forall h h', rdp h -> (forall a, a ∈ rd -> mlook h' a = mlook h a) -> rdp h').
  Context (rdp_dom : forall h a, rdp h -> a ∈ rd -> is_Some (mlook h a)).
  Notation tri := (tri rd rdp).
  Notation asn_ok := (asn_ok rd rdp).
  Context (inext : It -> HM (It * option V)) (icopy : It -> HM It) (imove : It -> It * It) (idel : It -> HM unit).
  Notation stages := (list (padapt (V := V))).

  (** The source: [Sr it xs], the iterator [it] has [xs] to come. *)
  Context (Sr : It -> list V -> asn) (Sr_ok : forall it xs, asn_ok (Sr it xs)).
  Context (next_tri : forall it xs,
    tri (Sr it xs) (inext it) (fun r => pur (snd r = head xs) (Sr (fst r) (tail xs)))).
  Context (del_tri : forall it xs, tri (Sr it xs) (idel it) (fun _ => emp)).

  Notation bindT := (tri_bind rd rdp rdp_frame rdp_dom).
  Notation frameT := (tri_frame rd rdp rdp_frame rdp_dom).

  (** ** Asking for an element *)
  Definition nexted (D : list V -> list V) (it : It) (xs : list V) (r : It * option V) : asn :=
    ex (fun xs' => pur (snd r = head (D xs) /\ D xs' = tail (D xs) /\ length xs' <= length xs /\
                        (D xs <> [] -> length xs' < length xs)) (Sr (fst r) xs')).
  Lemma nexted_ok D it xs r : asn_ok (nexted D it xs r).
  Proof. apply ex_ok. intros xs'. apply pur_ok, Sr_ok. Qed.
  Definition nexts (D : list V -> list V) (b : nat) (nx : It -> HM (It * option V)) : Prop :=
    forall it xs, length xs <= b -> tri (Sr it xs) (nx it) (nexted D it xs).

  Lemma tri_nexted {A} D it xs r (m : HM A) Q :
    (forall xs', snd r = head (D xs) -> D xs' = tail (D xs) -> length xs' <= length xs ->
                 (D xs <> [] -> length xs' < length xs) -> tri (Sr (fst r) xs') m Q) ->
    tri (nexted D it xs r) m Q.
  Proof. intros Hm. apply tri_ex. intros xs'. apply tri_pur. intros (H1 & H2 & H3 & H4). by apply Hm. Qed.

  (** What [find] leaves: the elements behind the one found. *)
  Definition found (D : list V -> list V) (q : V -> bool) (xs : list V) (r : It * option V) : asn :=
    ex (fun xs' => pur (snd r = List.find q (D xs) /\ List.filter q (D xs') = tail (List.filter q (D xs)) /\
                        length xs' <= length xs /\ (List.filter q (D xs) <> [] -> length xs' < length xs))
                       (Sr (fst r) xs')).
  Lemma find_tri D b nx q : nexts D b nx -> forall fuel it xs, length xs <= b -> length xs < fuel ->
    tri (Sr it xs) (find_from fuel nx q it) (found D q xs).
  Proof.
    intros Hnx. induction fuel as [|fuel IH]; intros it xs Hb Hf; [lia|]. cbn [find_from].
    eapply bindT; [by apply Hnx|]. intros [it' o]. apply tri_nexted. cbn [fst snd]. intros xs' -> HD Hl Hlt.
    destruct (D xs) as [|x ys] eqn:E; cbn [head].
    - apply tri_ret; [apply Sr_ok|]. intros h fp Hp. exists fp. split; [done|]. exists xs'. split; [|done].
      cbn [fst snd List.find List.filter]. rewrite E. cbn. by rewrite HD.
    - cbn [tail] in HD. specialize (Hlt ltac:(done)). destruct (q x) eqn:Eq.
      + apply tri_ret; [apply Sr_ok|]. intros h fp Hp. exists fp. split; [done|]. exists xs'. split; [|done].
        cbn [fst snd]. rewrite E. cbn [List.find List.filter]. rewrite Eq. cbn [tail]. rewrite HD. done.
      + eapply tri_post; [apply IH; lia|]. intros [it2 o2] h fp (xs2 & (H1 & H2 & H3 & H4) & Hp).
        exists fp. split; [done|]. exists xs2. split; [|done]. cbn [fst snd] in *.
        rewrite E. cbn [List.find List.filter]. rewrite Eq. rewrite HD in H1, H2, H4.
        split; [done|]. split; [done|]. split; [lia|]. intros Hn. specialize (H4 Hn). lia.
  Qed.
  Lemma head_filter q (l : list V) : head (List.filter q l) = List.find q l.
  Proof. induction l as [|x l IH]; [done|]. simpl. by destruct (q x). Qed.

  Lemma pnext_tri ps : forall fuel b, b < fuel -> nexts (denote ps) b (pnext inext fuel ps).
  Proof.
    induction ps as [|[g|q] r IH]; intros fuel b Hf it xs Hb; cbn [pnext denote].
    - eapply tri_post; [apply next_tri|]. intros [it' o] h fp [Ho Hp]. exists fp. split; [done|].
      exists (tail xs). split; [|done]. split; [done|]. split; [done|].
      destruct xs; cbn; split; try lia; done.
    - eapply bindT; [by apply (IH fuel b)|]. intros [it' o]. apply tri_nexted. cbn [fst snd].
      intros xs' -> HD Hl Hlt. apply tri_ret; [apply Sr_ok|]. intros h fp Hp. exists fp. split; [done|].
      exists xs'. split; [|done]. cbn [fst snd denote]. rewrite HD. destruct (denote r xs); cbn; [done|].
      split; [done|]. split; [done|]. split; [done|]. intros ?; cbn beta. by apply Hlt.
    - eapply tri_post; [apply (find_tri (denote r) b); [by apply IH|done|lia]|].
      intros [it' o] h fp (xs' & (H1 & H2 & H3 & H4) & Hp). exists fp. split; [done|]. exists xs'. split; [|done].
      cbn [denote]. rewrite head_filter. done.
  Qed.

  (** ** Terminals
      [B] describes the result of a terminal that was given an iterator with
      [xs] to come; the iterator is left with something. *)
  Definition leaves {R} (Q : R -> asn) (r : It * R) : asn := ex (fun ys => star (Sr (fst r) ys) (Q (snd r))).
  Definition body {R} (xs : list V) (Q : R -> asn) (b : It -> HM (It * R)) : Prop :=
    forall it, tri (Sr it xs) (b it) (leaves Q).
  Definition pureQ {R} (x : R) : R -> asn := fun r => pur (r = x) emp.
  Lemma pureQ_ok {R} (x r : R) : asn_ok (pureQ x r).
  Proof. apply pur_ok, emp_ok. Qed.
  Lemma leaves_pure {R} (x : R) it ys h fp : Sr it ys h fp -> exists fp', same fp fp' /\ leaves (pureQ x) (it, x) h fp'.
  Proof.
    intros Hp. destruct (star_emp_r (Sr it ys) h fp Hp) as (fp' & Hs & f & g & -> & Hs2 & Hp2 & Hg).
    exists (f ++ g). split; [done|]. exists ys, f, g. split; [done|]. split; [done|]. split; [done|]. done.
  Qed.

  Lemma fold_tri {A} D b nx (k : A -> V -> A) : nexts D b nx -> forall n it xs a,
    length xs <= b -> length xs < n ->
    tri (Sr it xs) (fold_body nx n k a it) (leaves (pureQ (fold_left k (D xs) a))).
  Proof.
    intros Hnx. induction n as [|n IH]; intros it xs a Hb Hf; [lia|]. cbn [fold_body].
    eapply bindT; [by apply Hnx|]. intros [it' o]. apply tri_nexted. cbn [fst snd]. intros xs' -> HD Hl Hlt.
    destruct (D xs) as [|x ys] eqn:E; cbn [head].
    - apply tri_ret; [apply Sr_ok|]. intros h fp Hp. by eapply leaves_pure.
    - specialize (Hlt ltac:(done)). cbn [tail] in HD. cbn [fold_left]. rewrite <-HD. apply IH; lia.
  Qed.
  Lemma take_tri D b nx : nexts D b nx -> forall n it xs, length xs <= b ->
    tri (Sr it xs) (take_body nx n it) (leaves (pureQ ((fun i => D xs !! i) <$> seq 0 n))).
  Proof.
    intros Hnx. induction n as [|n IH]; intros it xs Hb; cbn [take_body].
    - apply tri_ret; [apply Sr_ok|]. intros h fp Hp. by eapply leaves_pure.
    - eapply bindT; [by apply Hnx|]. intros [it' o]. apply tri_nexted. cbn [fst snd]. intros xs' Ho HD Hl Hlt.
      eapply bindT; [apply IH; lia|]. intros [it2 os]. apply tri_ex. intros ys.
      apply tri_ret; [apply star_ok; [apply Sr_ok|apply pureQ_ok]|].
      intros h fp (f & g & -> & Hs & Hp & Hos & Hg). cbn [fst snd] in *. exists (f ++ g). split; [done|].
      exists ys, f, g. split; [done|]. split; [done|]. split; [done|]. split; [|done]. cbn [snd].
      rewrite Hos, Ho. cbn [seq]. rewrite fmap_cons. f_equal.
      + by destruct (D xs).
      + rewrite HD. rewrite <-fmap_S_seq, <-list_fmap_compose. apply list_fmap_ext. intros i j _. cbn.
        by destruct (D xs).
  Qed.

  (** ** Passing the iterator along *)
  Lemma tri_true_frame {A} P (m : HM A) (Q : A -> asn) G : asn_ok G -> tri P m Q -> tri (star P G) m (fun a => star (Q a) G).
  Proof. intros. by apply frameT. Qed.
  Lemma del_frame it xs G : asn_ok G -> tri (star (Sr it xs) G) (idel it) (fun _ => G).
  Proof.
    intros HG. eapply tri_post; [apply frameT; [done|apply del_tri]|]. intros ?; cbn beta.
    eapply ent_trans; [apply star_comm|apply star_emp_r'].
  Qed.
  Lemma del_frame_l it xs G : asn_ok G -> tri (star G (Sr it xs)) (idel it) (fun _ => G).
  Proof. intros HG. eapply tri_pre; [apply star_comm|by apply del_frame]. Qed.

  Section Result.
    Context {R : Type} (Q : R -> asn) (Q_ok : forall r, asn_ok (Q r)).
    Lemma leaves_ok r : asn_ok (leaves Q r).
    Proof. apply ex_ok. intros ys. apply star_ok; [apply Sr_ok|apply Q_ok]. Qed.
    Lemma drop_tri it (r : R) : tri (leaves Q (it, r)) (idel it ;;; ret r) Q.
    Proof.
      apply tri_ex. intros ys. eapply bindT; [apply del_frame, Q_ok|]. intros ?; cbn beta.
      apply tri_ret; [apply Q_ok|apply ent_refl].
    Qed.
    Lemma by_ref_tri b xs : body xs Q b -> forall it, tri (Sr it xs) (by_ref idel b it) Q.
    Proof.
      intros Hb it. unfold by_ref. eapply bindT; [apply Hb|]. intros [it' r]. apply drop_tri.
    Qed.

    Context (move_ent : forall it xs, ent (Sr it xs) (Sr (fst (imove it)) xs)).
    Context (left_tri : forall it, tri emp (idel (snd (imove it))) (fun _ => emp)).
    Lemma left_frame it G : asn_ok G -> tri G (idel (snd (imove it))) (fun _ => G).
    Proof.
      intros HG. eapply tri_ent; [|apply frameT; [exact HG|apply (left_tri it)]|].
      - eapply ent_trans; [apply star_emp_r|apply star_comm].
      - intros ?; cbn beta. eapply ent_trans; [apply star_comm|apply star_emp_r'].
    Qed.
    Lemma by_move_tri b xs : body xs Q b -> forall it, tri (Sr it xs) (by_move imove idel b it) Q.
    Proof.
      intros Hb it. unfold by_move. pose proof (move_ent it xs) as Hm. pose proof (left_frame it) as Hl.
      destruct (imove it) as [p it0]. cbn [fst snd] in *. eapply tri_pre; [exact Hm|].
      eapply bindT; [apply Hb|]. intros [p' r]. apply tri_ex. intros ys.
      eapply bindT; [apply del_frame, Q_ok|]. intros ?; cbn beta. eapply bindT; [apply Hl, Q_ok|]. intros ?; cbn beta.
      apply tri_ret; [apply Q_ok|apply ent_refl].
    Qed.

    Context (copy_tri : forall it xs, tri (Sr it xs) (icopy it) (fun it' => star (Sr it' xs) (Sr it xs))).
    Lemma by_copy_tri b xs : body xs Q b -> forall it, tri (Sr it xs) (by_copy icopy idel b it) Q.
    Proof.
      intros Hb it. unfold by_copy. eapply bindT; [apply copy_tri|]. intros p.
      eapply bindT; [apply frameT; [apply Sr_ok|apply Hb]|]. intros [p' r].
      eapply tri_pre; [|apply (tri_ex rd rdp (fun ys => star (star (Sr p' ys) (Q r)) (Sr it xs))); intros ys].
      { intros h fp (f & g & -> & Hs & (ys & Hp) & Hg). exists (f ++ g). split; [done|]. exists ys, f, g. done. }
      eapply tri_pre; [apply star_assoc'|].
      eapply bindT; [apply del_frame, star_ok; [apply Q_ok|apply Sr_ok]|]. intros ?; cbn beta.
      eapply bindT; [apply del_frame_l, Q_ok|]. intros ?; cbn beta. apply tri_ret; [apply Q_ok|apply ent_refl].
    Qed.
    Lemma by_copy_move_tri b xs : body xs Q b -> forall it, tri (Sr it xs) (by_copy_move icopy imove idel b it) Q.
    Proof.
      intros Hb it. unfold by_copy_move. eapply bindT; [apply copy_tri|]. intros p.
      pose proof (move_ent p xs) as Hm. pose proof (left_frame p) as Hl.
      destruct (imove p) as [p1 p0]. cbn [fst snd] in *.
      eapply tri_pre; [apply ent_star; [exact Hm|apply ent_refl]|].
      eapply bindT; [apply frameT; [apply Sr_ok|apply Hb]|]. intros [p' r].
      eapply tri_pre; [|apply (tri_ex rd rdp (fun ys => star (star (Sr p' ys) (Q r)) (Sr it xs))); intros ys].
      { intros h fp (f & g & -> & Hs & (ys & Hp) & Hg). exists (f ++ g). split; [done|]. exists ys, f, g. done. }
      eapply tri_pre; [apply star_assoc'|].
      eapply bindT; [apply del_frame, star_ok; [apply Q_ok|apply Sr_ok]|]. intros ?; cbn beta.
      eapply bindT; [apply Hl, star_ok; [apply Q_ok|apply Sr_ok]|]. intros ?; cbn beta.
      eapply bindT; [apply del_frame_l, Q_ok|]. intros ?; cbn beta. apply tri_ret; [apply Q_ok|apply ent_refl].
    Qed.

    (** Building stages. *)
    Lemma bar_stage_tri it xs : tri (Sr it xs) (bar_stage icopy imove idel it) (fun m => Sr m xs).
    Proof.
      unfold bar_stage. pose proof (move_ent it xs) as Hm. pose proof (left_frame it) as Hl.
      destruct (imove it) as [p1 it0]. cbn [fst snd] in *. eapply tri_pre; [exact Hm|].
      pose proof (move_ent p1 xs) as Hm1. pose proof (left_frame p1) as Hl1.
      destruct (imove p1) as [p2 p10]. cbn [fst snd] in *. eapply tri_pre; [exact Hm1|].
      eapply bindT; [apply copy_tri|]. intros m. eapply bindT; [apply del_frame_l, Sr_ok|]. intros ?; cbn beta.
      eapply bindT; [apply Hl1, Sr_ok|]. intros ?; cbn beta. eapply bindT; [apply Hl, Sr_ok|]. intros ?; cbn beta.
      apply tri_ret; [apply Sr_ok|apply ent_refl].
    Qed.
    Lemma bar_stages_tri n : forall it xs, tri (Sr it xs) (bar_stages icopy imove idel n it) (fun m => Sr m xs).
    Proof.
      induction n as [|n IH]; intros it xs; cbn [bar_stages].
      - apply tri_ret; [apply Sr_ok|apply ent_refl].
      - eapply bindT; [apply bar_stage_tri|]. intros m. apply IH.
    Qed.
    Lemma com_tri xs (t : It -> HM R) : (forall it, tri (Sr it xs) (t it) Q) ->
      forall n it, tri (Sr it xs) (com icopy idel n it t) Q.
    Proof.
      intros Ht. induction n as [|n IH]; intros it; cbn [com]; [apply Ht|].
      eapply bindT; [apply copy_tri|]. intros p1.
      eapply bindT; [apply frameT; [apply Sr_ok|apply copy_tri]|]. intros p2.
      eapply tri_pre; [apply star_assoc'|].
      eapply bindT; [apply frameT; [apply star_ok; apply Sr_ok|apply copy_tri]|]. intros m.
      eapply tri_pre; [apply ent_star; [apply star_comm|apply ent_refl]|].
      eapply tri_pre; [apply star_assoc'|].
      eapply bindT; [apply del_frame, star_ok; [apply Sr_ok|apply star_ok; apply Sr_ok]|]. intros ?; cbn beta.
      eapply tri_pre; [apply star_comm|]. eapply tri_pre; [apply star_assoc'|].
      eapply bindT; [apply del_frame, star_ok; apply Sr_ok|]. intros ?; cbn beta.
      eapply tri_pre; [apply star_comm|].
      eapply bindT; [apply frameT; [apply Sr_ok|apply IH]|]. intros r.
      eapply bindT; [apply del_frame_l, Q_ok|]. intros ?; cbn beta. apply tri_ret; [apply Q_ok|apply ent_refl].
    Qed.
    Lemma build_tri bar (ps : stages) xs (t : It -> HM R) : (forall it, tri (Sr it xs) (t it) Q) ->
      forall it, tri (Sr it xs) (build icopy imove idel bar ps t it) Q.
    Proof.
      intros Ht it. unfold build. destruct bar; [|by apply com_tri].
      eapply bindT; [apply bar_stages_tri|]. intros m. apply Ht.
    Qed.
  End Result.

  (** ** Whole pipelines *)
  Section Whole.
    Context (move_ent : forall it xs, ent (Sr it xs) (Sr (fst (imove it)) xs)).
    Context (left_tri : forall it, tri emp (idel (snd (imove it))) (fun _ => emp)).
    Context (copy_tri : forall it xs, tri (Sr it xs) (icopy it) (fun it' => star (Sr it' xs) (Sr it xs))).
    Context (bar : bool) (fuel : nat) (ps : stages) (xs : list V) (Hf : length xs < fuel).

    Theorem run_fold_tri {A} (k : A -> V -> A) a it :
      tri (Sr it xs) (run_fold inext icopy imove idel bar fuel ps k a it) (pureQ (fold_left k (denote ps xs) a)).
    Proof.
      unfold run_fold. apply build_tri; [apply pureQ_ok|done..|]. intros it'.
      assert (Hb : body xs (pureQ (fold_left k (denote ps xs) a)) (fold_body (pnext inext fuel ps) fuel k a)).
      { intros it2. by apply (fold_tri _ (length xs)); [apply pnext_tri| |]. }
      destruct bar; [apply by_move_tri|apply by_copy_tri]; try done; apply pureQ_ok.
    Qed.
    Theorem run_find_tri (q : V -> bool) it :
      tri (Sr it xs) (run_find inext icopy imove idel bar fuel ps q it) (pureQ (List.find q (denote ps xs))).
    Proof.
      unfold run_find. apply build_tri; [apply pureQ_ok|done..|]. intros it'.
      eapply by_ref_tri; [apply pureQ_ok|]. intros it2. unfold find_body.
      eapply tri_post; [apply (find_tri (denote ps) (length xs)); [by apply pnext_tri|done|done]|].
      intros [it3 o] h fp (ys & (Ho & _) & Hp). cbn [fst snd] in *. subst o. by eapply leaves_pure.
    Qed.
    Theorem run_take_tri n it :
      tri (Sr it xs) (run_take inext icopy imove idel bar fuel ps n it)
        (pureQ ((fun i => denote ps xs !! i) <$> seq 0 n)).
    Proof.
      unfold run_take. eapply bindT.
      { apply (build_tri (fun m => Sr m xs)); [intros; apply Sr_ok|done..|].
        intros it'. apply tri_ret; [apply Sr_ok|apply ent_refl]. }
      intros m. apply by_ref_tri; [apply pureQ_ok|]. intros it2. by apply (take_tri _ (length xs)); [apply pnext_tri|].
    Qed.
    Theorem run_reduce_tri (k : V -> V -> V) it :
      tri (Sr it xs) (run_reduce inext icopy imove idel bar fuel ps k it)
        (pureQ (match denote ps xs with [] => None | y :: ys => Some (fold_left k ys y) end)).
    Proof.
      unfold run_reduce. apply build_tri; [apply pureQ_ok|done..|]. intros it'.
      apply by_move_tri; [apply pureQ_ok|done|done|]. intros it2. unfold reduce_body.
      assert (Hnx : nexts (denote ps) (length xs) (pnext inext fuel ps)) by by apply pnext_tri.
      eapply bindT; [by apply Hnx|]. intros [it3 o]. apply tri_nexted. cbn [fst snd]. intros xs' -> HD Hl Hlt.
      destruct (denote ps xs) as [|x ys] eqn:E; cbn [head].
      { apply tri_ret; [apply Sr_ok|]. intros h fp Hp. by eapply leaves_pure. }
      cbn [tail] in HD. eapply bindT; [apply copy_tri|]. intros p.
      eapply bindT; [apply frameT; [apply Sr_ok|apply (fold_tri (denote ps) (length xs)); [done|lia|lia]]|].
      intros [p' r]. rewrite HD.
      eapply tri_pre; [|apply (tri_ex rd rdp (fun zs => star (star (Sr p' zs) (pureQ (fold_left k ys x) r)) (Sr it3 xs'))); intros zs].
      { intros h fp (f & g & -> & Hs & (zs & Hp) & Hg). exists (f ++ g). split; [done|]. exists zs, f, g. done. }
      eapply tri_pre; [apply star_assoc'|].
      eapply bindT; [apply del_frame, star_ok; [apply pureQ_ok|apply Sr_ok]|]. intros ?; cbn beta.
      apply tri_ret; [apply star_ok; [apply pureQ_ok|apply Sr_ok]|].
      intros h fp (f & g & -> & Hs & (Hr & Hem) & Hg). unfold emp in Hem. subst f r. cbn [app].
      by eapply leaves_pure.
    Qed.

    Section Collect.
      Context {K R : Type} (knew : HM K) (kput : K -> V -> HM K) (kend : K -> HM R).
      Context (Kp : K -> list V -> asn) (Rp : R -> list V -> asn) (room : nat -> Prop).
      Context (Kp_ok : forall k vs, asn_ok (Kp k vs)) (Rp_ok : forall r vs, asn_ok (Rp r vs)).
      Context (room_le : forall m n, m <= n -> room n -> room m).
      Context (new_tri : tri emp knew (fun k => Kp k [])).
      Context (put_tri : forall k vs v, room (S (length vs)) -> tri (Kp k vs) (kput k v) (fun k' => Kp k' (vs ++ [v]))).
      Context (end_tri : forall k vs, tri (Kp k vs) (kend k) (fun r => Rp r vs)).

      Lemma collect_loop_tri D b nx : nexts D b nx -> forall n it k vs ys, length ys <= b -> length ys < n ->
        room (length (vs ++ D ys)) ->
        tri (star (Sr it ys) (Kp k vs)) (collect_loop nx kput n k it)
          (fun r => ex (fun zs => star (Sr (fst r) zs) (Kp (snd r) (vs ++ D ys)))).
      Proof.
        clear move_ent left_tri copy_tri.
        intros Hnx. induction n as [|n IH]; intros it k vs ys Hb Hn Hroom; [lia|]. cbn [collect_loop].
        eapply bindT; [apply frameT; [apply Kp_ok|by apply Hnx]|]. intros [it' o].
        eapply tri_pre; [|apply (tri_ex rd rdp (fun zs => pur (o = head (D ys) /\ D zs = tail (D ys) /\
            length zs <= length ys /\ (D ys <> [] -> length zs < length ys)) (star (Sr it' zs) (Kp k vs))))].
        { intros h fp (f & g & -> & Hs & (zs & Hz & Hp) & Hg). exists (f ++ g). split; [done|]. exists zs.
          split; [done|]. by exists f, g. }
        intros zs. apply tri_pur. intros (-> & HD & Hl & Hlt). destruct (D ys) as [|x us] eqn:E; cbn [head].
        - apply tri_ret; [apply star_ok; [apply Sr_ok|apply Kp_ok]|]. intros h fp Hp. exists fp. split; [done|].
          exists zs. by rewrite app_nil_r.
        - cbn [tail] in HD. specialize (Hlt ltac:(done)).
          eapply bindT; [apply (tri_frame_l rd rdp rdp_frame rdp_dom); [apply Sr_ok|apply put_tri]|].
          { eapply room_le; [|exact Hroom]. rewrite app_length. simpl. lia. }
          intros k'. eapply tri_post; [apply IH; [lia|lia|]|].
          { rewrite HD. by rewrite <-app_assoc. }
          intros [it2 k2] h fp (ws & Hw). exists fp. split; [done|]. exists ws. rewrite HD, <-app_assoc in Hw. done.
      Qed.
      Lemma collect_body_tri (Hroom : room (length (denote ps xs))) it :
        tri (Sr it xs) (collect_body fuel (pnext inext fuel ps) knew kput kend it)
          (leaves (fun r => Rp r (denote ps xs))).
      Proof.
        clear move_ent left_tri copy_tri.
        unfold collect_body.
        eapply tri_pre; [eapply ent_trans; [apply star_emp_r|apply ent_refl]|].
        eapply bindT; [apply (tri_frame_l rd rdp rdp_frame rdp_dom); [apply Sr_ok|apply new_tri]|]. intros k.
        eapply bindT; [apply (collect_loop_tri (denote ps) (length xs)); [by apply pnext_tri|done|done|done]|].
        intros [it' k']. apply tri_ex. intros zs. cbn [fst snd app].
        eapply bindT; [apply (tri_frame_l rd rdp rdp_frame rdp_dom); [apply Sr_ok|apply end_tri]|]. intros r.
        apply tri_ret; [apply star_ok; [apply Sr_ok|apply Rp_ok]|]. intros h fp Hp. exists fp. split; [done|].
        exists zs. done.
      Qed.
      Theorem run_collect_tri (Hroom : room (length (denote ps xs))) it :
        tri (Sr it xs) (run_collect inext icopy imove idel bar fuel ps knew kput kend it)
          (fun r => Rp r (denote ps xs)).
      Proof.
        unfold run_collect. apply build_tri; [intros; apply Rp_ok|done..|]. intros it'.
        apply by_copy_move_tri; [intros; apply Rp_ok|done|done|done|]. intros it2. by apply collect_body_tri.
      Qed.
    End Collect.
  End Whole.
End Pipe.
