(** * ListRefine: every history of list operations follows the specification *)
From Verif Require Import Base World Machine ListModel ListSeg ListOps ListOps2 ListOps3 ListOps4 ListOps5
  SortSpec ListSort ListStep ListSpec.
Local Open Scope N_scope.

(** ** The specification's own notions and those of the proofs about nodes *)
Section Facts.
  Context {T : Type}.
  Implicit Types (ns : list (N * T)) (xs : list T).

  Lemma vls_length ns : length (vls ns) = length ns.
  Proof. apply fmap_length. Qed.
  Lemma rest_kept f ns : vls (kept f ns) = rest f (vls ns).
  Proof.
    unfold kept. induction ns as [|[a v] ns IH]; [done|].
    rewrite filter_cons. cbn [snd]. unfold rest. cbn [vls fmap list_fmap List.filter snd].
    destruct (f v) eqn:E; [rewrite decide_False by congruence; exact IH|].
    rewrite decide_True by done. cbn. f_equal. exact IH.
  Qed.
  Lemma rest_count f xs : (length (rest f xs) + length (List.filter f xs) = length xs)%nat.
  Proof. unfold rest. induction xs as [|x xs IH]; [done|]. simpl. destruct (f x); simpl; lia. Qed.
  Lemma runs_uniq r ns : forall w, vls (uniq r w ns) = runs r w (vls ns).
  Proof.
    induction ns as [|[a v] ns IH]; intros w; [done|]. cbn [uniq vls fmap list_fmap runs snd].
    destruct (r v w); [apply IH|]. cbn. f_equal. apply IH.
  Qed.
  Lemma firsts_unique r ns : vls (unique_of r ns) = firsts r (vls ns).
  Proof. destruct ns as [|[a v] ns]; [done|]. cbn. f_equal. apply runs_uniq. Qed.
  Lemma runs_length r xs : forall w, (length (runs r w xs) <= length xs)%nat.
  Proof. induction xs as [|x xs IH]; intros w; [done|]. simpl. destruct (r x w); simpl; [|]; [specialize (IH w)|specialize (IH x)]; lia. Qed.
  Lemma firsts_length r xs : (length (firsts r xs) <= length xs)%nat.
  Proof. destruct xs as [|x xs]; [done|]. simpl. pose proof (runs_length r xs x). lia. Qed.
  Lemma removelast_take xs : removelast xs = take (length xs - 1) xs.
  Proof.
    destruct xs as [|x xs _] using rev_ind; [done|]. rewrite removelast_last, app_length. simpl.
    rewrite take_app_alt; [done|lia].
  Qed.
  Lemma taken_ends xs calls : ends_run xs calls = taken xs calls.
  Proof.
    revert xs. induction calls as [|[] r IH]; intros xs; simpl; [done| |]; f_equal; try apply IH.
    rewrite removelast_take. apply IH.
  Qed.
  Lemma forward_all calls : forward calls = true -> Forall (fun c => c = true) calls.
  Proof. unfold forward. rewrite forallb_forall, Forall_forall. intros H c Hc. apply H. by apply elem_of_list_In. Qed.
  Lemma sortedb_srt (lt : T -> T -> bool) xs : sortedb lt xs = true <-> srt lt xs.
  Proof.
    induction xs as [|x xs IH].
    - split; [intros _|done]. apply srt_nil.
    - cbn [sortedb]. rewrite andb_true_iff, srt_cons, IH, forallb_forall, Forall_forall.
      split; intros [H1 H2]; (split; [|done]); intros y Hy.
      + apply negb_true_iff. apply H1. by apply elem_of_list_In.
      + apply negb_true_iff. apply H1. by apply elem_of_list_In.
  Qed.
  Lemma isnil_true xs : isnil xs = true <-> xs = [].
  Proof. by destruct xs. Qed.
  Lemma isnil_false xs : isnil xs = false <-> xs <> [].
  Proof. by destruct xs. Qed.
  Lemma split_at ns k : (k <= length ns)%nat -> exists n1 n2, ns = n1 ++ n2 /\ length n1 = k /\
    vls n1 = take k (vls ns) /\ vls n2 = drop k (vls ns).
  Proof.
    intros Hk. exists (take k ns), (drop k ns). rewrite take_drop, take_length. split; [done|].
    split; [lia|]. unfold vls. by rewrite fmap_take, fmap_drop.
  Qed.

  (** Positions: the addresses from [before_begin()] to [end()] in order. *)
  Lemma lfp_end hd (n1 n2 : list (N * T)) tl : lfp hd (n1 ++ n2) tl !! length n1 = Some (endp hd n1).
  Proof.
    revert hd. induction n1 as [|[a v] n1 IH]; intros hd; [done|].
    cbn [app length endp]. change (lfp hd ((a, v) :: n1 ++ n2) tl) with (hd :: lfp a (n1 ++ n2) tl). apply IH.
  Qed.
  Lemma lfp_start hd (n1 n2 : list (N * T)) tl : lfp hd (n1 ++ n2) tl !! S (length n1) = Some (startp n2 tl).
  Proof.
    revert hd. induction n1 as [|[a v] n1 IH]; intros hd.
    - by destruct n2 as [|[a v] n2].
    - cbn [app length endp]. change (lfp hd ((a, v) :: n1 ++ n2) tl) with (hd :: lfp a (n1 ++ n2) tl). apply IH.
  Qed.
  Lemma lfp_length hd ns tl : length (lfp hd ns tl) = (length ns + 2)%nat.
  Proof. unfold lfp, ads. simpl. rewrite app_length, fmap_length. simpl. lia. Qed.
End Facts.

Section Refine.
  Context {T : Type} (dbl : bool).
  Notation H := (heap (cell T)).
  Notation lok := (lok dbl).
  Notation became := (became dbl).
  Notation made := (made dbl).
  Notation lstate := (gmap nat (N * option (list T))).
  Implicit Types (h : H) (ns : list (N * T)) (xs : list T).

  Lemma pos_next h al hd ns tl k p : lok h al hd ns tl -> (k <= length ns)%nat -> lfp hd ns tl !! k = Some p ->
    exists q, lfp hd ns tl !! S k = Some q /\ get_next (PAddr p) h = Ok (PAddr q, h).
  Proof.
    intros Lk Hk Hp. destruct (split_at ns k Hk) as (n1 & n2 & -> & <- & _).
    rewrite lfp_end in Hp. injection Hp as <-. exists (startp n2 tl). rewrite lfp_start. split; [done|].
    exact (next_at dbl _ _ _ _ _ _ Lk).
  Qed.
  Lemma advance_pos h al hd ns tl k p : lok h al hd ns tl -> lfp hd ns tl !! k = Some p ->
    stl_advance k (PAddr hd) h = Ok (PAddr p, h).
  Proof.
    intros Lk Hp. pose proof (lookup_lt_Some _ _ _ Hp) as Hlt. rewrite lfp_length in Hlt.
    destruct k as [|k].
    - injection Hp as <-. done.
    - destruct (split_at ns k) as (n1 & n2 & -> & <- & _); [lia|].
      rewrite lfp_start in Hp. injection Hp as <-. exact (advance_start dbl _ _ _ _ _ _ Lk).
  Qed.
  Lemma lok_nd h al hd ns tl : lok h al hd ns tl -> NoDup (lfp hd ns tl).
  Proof. intros Lk. destruct (lok_nd2 dbl _ _ _ _ _ Lk) as [H1 H2]. by apply NoDup_cons. Qed.
  Lemma pos_loop_ok h al hd ns tl k p : lok h al hd ns tl -> lfp hd ns tl !! k = Some p ->
    forall d j fuel q, (j + d = k)%nat -> (d < fuel)%nat -> lfp hd ns tl !! j = Some q ->
    pos_loop fuel (PAddr q) (PAddr p) j h = Ok (k, h).
  Proof.
    intros Lk Hp. pose proof (lookup_lt_Some _ _ _ Hp) as Hlt. rewrite lfp_length in Hlt.
    induction d as [|d IH]; intros j fuel q Hj Hf Hq; (destruct fuel as [|fuel]; [lia|]); cbn [pos_loop].
    - assert (j = k) as -> by lia. rewrite Hp in Hq. injection Hq as ->. by rewrite decide_True.
    - rewrite decide_False.
      2:{ intros [= ->]. pose proof (NoDup_lookup _ _ _ _ (lok_nd _ _ _ _ _ Lk) Hp Hq). lia. }
      destruct (pos_next _ _ _ _ _ j q Lk) as (q' & Hq' & E); [lia|done|].
      rewrite (bind_ok _ _ _ _ _ E). apply IH; [lia|lia|done].
  Qed.
  Lemma pos_ok h al hd ns tl k p : lok h al hd ns tl -> lfp hd ns tl !! k = Some p ->
    l_pos (L al hd tl ns) (PAddr p) h = Ok (k, h).
  Proof.
    intros Lk Hp. unfold l_pos. rewrite (bind_ok _ _ _ _ _ (fuel_ok h)).
    pose proof (lookup_lt_Some _ _ _ Hp) as Hlt. rewrite lfp_length in Hlt.
    pose proof (lok_fuel dbl _ _ _ _ _ Lk).
    eapply (pos_loop_ok _ _ _ _ _ k p Lk Hp k 0); [lia|lia|done].
  Qed.

  (** ** Printing *)
  Lemma print_loop_ok h al hd tl n2 : forall n1 fuel, lok h al hd (n1 ++ n2) tl -> nlen (n1 ++ n2) < W ->
    (length n2 < fuel)%nat ->
    print_loop fuel (PAddr (startp n2 tl)) (PAddr tl) (nlen n1) (nlen (n1 ++ n2)) h =
      Ok (match vls n2 with
          | [] => []
          | x :: r => PElem x :: flat_map (fun y => [PSep; PElem y]) r
          end ++ [PClose], h).
  Proof.
    induction n2 as [|[a v] n2 IH]; intros n1 fuel Lk HW Hf; (destruct fuel as [|fuel]; [simpl in Hf; lia|]);
      cbn [print_loop startp].
    - by rewrite decide_True.
    - rewrite decide_False by exact (ne_tl dbl _ _ _ _ _ _ _ _ Lk).
      rewrite (bind_ok _ _ _ _ _ (value_at dbl _ _ _ _ _ _ _ _ Lk)).
      rewrite (bind_ok _ _ _ _ _ (next_of dbl _ _ _ _ _ _ _ _ Lk)).
      assert (Hl : (length (n1 ++ (a, v) :: n2) = S (length n1 + length n2))%nat) by (rewrite app_length; simpl; lia).
      replace (uadd (nlen n1) 1) with (nlen (n1 ++ [(a, v)])).
      2:{ unfold uadd. rewrite app_length. simpl. rewrite N.mod_small by lia. lia. }
      assert (Hs : n1 ++ (a, v) :: n2 = (n1 ++ [(a, v)]) ++ n2) by by rewrite <-app_assoc.
      rewrite Hs in Lk, HW |- *. simpl in Hf.
      rewrite (bind_ok _ _ _ _ _ (IH (n1 ++ [(a, v)]) fuel Lk HW ltac:(lia))). cbn [vls fmap list_fmap snd].
      fold (vls n2). rewrite <-Hs in *. unfold ret. do 2 f_equal.
      replace (usub (nlen (n1 ++ (a, v) :: n2)) 1) with (nlen n1 + nlen n2).
      2:{ unfold usub. rewrite Hl. replace (_ + W - _) with (nlen n1 + nlen n2 + 1 * W) by lia.
          rewrite N.mod_add by done. rewrite N.mod_small; lia. }
      cbn [app]. f_equal. destruct n2 as [|[b w] n2].
      + cbn [vls fmap list_fmap length]. destruct (N.eqb_spec (nlen n1) (nlen n1 + N.of_nat 0)); [done|lia].
      + cbn [vls fmap list_fmap length flat_map app snd]. destruct (N.eqb_spec (nlen n1) (nlen n1 + N.of_nat (S (length n2)))); [lia|].
        done.
  Qed.
  Lemma print_ok h al hd ns tl : lok h al hd ns tl -> nlen ns < W ->
    l_print dbl (L al hd tl ns) h = Ok ([POpen dbl] ++ shown (vls ns) ++ [PClose], h).
  Proof.
    intros Lk HW. unfold l_print. cbn [l_head l_tail l_len L].
    rewrite (bind_ok _ _ _ _ _ (next_at dbl h al hd [] ns tl Lk)).
    rewrite (bind_ok _ _ _ _ _ (fuel_ok h)). pose proof (lok_fuel dbl _ _ _ _ _ Lk).
    rewrite (bind_ok _ _ _ _ _ (print_loop_ok h al hd tl ns [] (S (size (hmap h))) Lk HW ltac:(lia))). done.
  Qed.

  (** ** Representation of one variable *)
  Inductive lrep h : lst -> N * option (list T) -> list N -> Prop :=
  | lrep_some al hd tl ns : lok h al hd ns tl -> nlen ns < W ->
      lrep h (L al hd tl ns) (al, Some (vls ns)) (lfp hd ns tl)
  | lrep_none al : lrep h (Lst PNull PNull 0 al) (al, None) [].
  Lemma lrep_frame h h' o s fp : lrep h o s fp ->
    (forall a, a ∈ fp -> hmap h' !! a = hmap h !! a) -> lrep h' o s fp.
  Proof. intros [] Hf; constructor; try done. by eapply lok_frame. Qed.
  Lemma lrep_dom h o s fp a : lrep h o s fp -> a ∈ fp -> is_Some (hmap h !! a).
  Proof. intros [] Ha; [by eapply lok_has|set_solver]. Qed.
  Lemma lrep_inv h o al xs fp : lrep h o (al, Some xs) fp ->
    exists hd tl ns, o = L al hd tl ns /\ vls ns = xs /\ lok h al hd ns tl /\ nlen ns < W /\ fp = lfp hd ns tl.
  Proof. intros Hr. inversion Hr; subst. eexists _, _, _. done. Qed.
  Lemma lrep_inv_none h o al fp : lrep h o (al, None) fp -> o = Lst PNull PNull 0 al /\ fp = [].
  Proof. intros Hr. by inversion Hr. Qed.
  Lemma lrep_al h o s fp : lrep h o s fp -> l_al o = fst s.
  Proof. by intros []. Qed.
  Lemma lrep_len h o s fp : lrep h o s fp -> l_len o = nlen (default [] (snd s)).
  Proof. intros []; [|done]. simpl. by rewrite vls_length. Qed.
  Lemma lrep_moved h o s fp : lrep h o s fp -> moved_from o = Lst PNull PNull 0 (fst s).
  Proof. by intros []. Qed.
  Lemma rep_now h al hd tl ns xs : lok h al hd ns tl -> nlen ns < W -> vls ns = xs ->
    lrep h (L al hd tl ns) (al, Some xs) (lfp hd ns tl).
  Proof. intros ? ? <-. by constructor. Qed.
  Lemma W_vls ns xs : vls ns = xs -> nlen xs < W -> nlen ns < W.
  Proof. intros <-. by rewrite vls_length. Qed.

  Notation wok := (world_ok lrep).
  Notation wokw := (world_ok_with lrep).
  Definition rel (sp : lstate) (w : world (cell T) lst) : Prop := wok w sp.

  Lemma ok_mk w sp m i f al xs : wokw w sp m -> sp !! i = None -> nlen xs < W ->
    made (w_heap w) al xs (f (w_heap w)) ->
    agrees rel (l_mk i f w) (SOk (<[i := (al, Some xs)]> sp) OUnit).
  Proof.
    intros Hw Hi HW (hd & tl & ms & h' & E & Hv & Lk & Hu).
    destruct (world_ok_none _ _ _ _ _ Hw Hi) as [Hmi Hwi].
    unfold l_mk, bind, wnew. rewrite Hwi. unfold lift. rewrite E. simpl.
    eexists. split; [done|]. eexists. simpl. eapply (world_new _ lrep_frame lrep_dom); [exact Hw|done|exact Hu|].
    apply rep_now; [done| |done]. by eapply W_vls.
  Qed.
  Lemma ok_updo w sp m i f al xs s' x : wokw w sp m -> sp !! i = Some (al, Some xs) ->
    (forall hd tl ns, vls ns = xs -> lok (w_heap w) al hd ns tl -> nlen ns < W ->
       exists l' h' fp', f (L al hd tl ns) (w_heap w) = Ok ((l', x), h') /\ lrep h' l' s' fp' /\
         upd (w_heap w) h' (lfp hd ns tl) fp') ->
    agrees rel (l_updo i f w) (SOk (<[i := s']> sp) x).
  Proof.
    intros Hw Hi Hf. destruct (world_ok_lookup_spec _ _ _ _ _ _ Hw Hi) as (e & Hm & He & Hv & Hr).
    destruct (lrep_inv _ _ _ _ _ Hr) as (hd & tl & ns & Ho & Hx & Lk & HW & Hfp).
    destruct (Hf hd tl ns Hx Lk HW) as (l' & h' & fp' & E & Hr' & Hu).
    unfold l_updo, bind, wget. rewrite Hv, Ho. unfold lift. rewrite E. simpl.
    eexists. split; [done|]. eexists. simpl. eapply (world_upd1 _ lrep_frame lrep_dom); [exact Hw|done| |exact Hr'].
    by rewrite Hfp.
  Qed.
  (** The common case: a member that leaves the allocator and the virtual
      nodes. *)
  Lemma ok_became w sp m i f al xs xs' : wokw w sp m -> sp !! i = Some (al, Some xs) -> nlen xs' < W ->
    (forall hd tl ns, vls ns = xs -> lok (w_heap w) al hd ns tl -> nlen ns < W ->
       exists h' ns', f (L al hd tl ns) (w_heap w) = Ok (L al hd tl ns', h') /\ vls ns' = xs' /\
         became (w_heap w) h' al hd tl ns ns') ->
    agrees rel (l_upd i f w) (SOk (<[i := (al, Some xs')]> sp) OUnit).
  Proof.
    intros Hw Hi HW Hf. eapply ok_updo; [exact Hw|exact Hi|]. intros hd tl ns Hx Lk HW1.
    destruct (Hf hd tl ns Hx Lk HW1) as (h' & ns' & E & Hx' & Lk' & Hu).
    eexists _, h', _. rewrite (bind_ok _ _ _ _ _ E). split; [done|]. split; [|exact Hu].
    apply rep_now; [done| |done]. by eapply W_vls.
  Qed.
  Lemma ok_obs w sp m i f s x : wokw w sp m -> sp !! i = Some s ->
    (forall l fp, lrep (w_heap w) l s fp -> f l (w_heap w) = Ok (x, w_heap w)) ->
    agrees rel (l_obs i f w) (SOk sp x).
  Proof.
    intros Hw Hi Hf. destruct (world_ok_lookup_spec _ _ _ _ _ _ Hw Hi) as (e & Hm & He & Hv & Hr).
    unfold l_obs, bind, wget. rewrite Hv. unfold lift. rewrite (Hf _ _ Hr). simpl.
    eexists. split; [done|]. exists m. by destruct w.
  Qed.
  Lemma ok_live w sp m i f al xs x : wokw w sp m -> sp !! i = Some (al, Some xs) ->
    (forall hd tl ns, vls ns = xs -> lok (w_heap w) al hd ns tl -> nlen ns < W ->
       f (L al hd tl ns) (w_heap w) = Ok (x, w_heap w)) ->
    agrees rel (l_obs i f w) (SOk sp x).
  Proof.
    intros Hw Hi Hf. eapply ok_obs; [exact Hw|exact Hi|]. intros l fp Hr.
    destruct (lrep_inv _ _ _ _ _ Hr) as (hd & tl & ns & -> & Hx & Lk & HW & Hfp). by apply Hf.
  Qed.
  Lemma ok_two w sp m i j f si sj si' sj' : wokw w sp m -> i <> j ->
    sp !! i = Some si -> sp !! j = Some sj ->
    (forall l fi o fj, lrep (w_heap w) l si fi -> lrep (w_heap w) o sj fj -> apart fi fj ->
       exists l' o' h' fi' fj', f l o (w_heap w) = Ok ((l', o'), h') /\ lrep h' l' si' fi' /\ lrep h' o' sj' fj' /\
         apart fi' fj' /\ upd (w_heap w) h' (fi ++ fj) (fi' ++ fj')) ->
    agrees rel (l_two i j f w) (SOk (<[i := si']> (<[j := sj']> sp)) OUnit).
  Proof.
    intros Hw Hij Hi Hj Hf.
    destruct (world_ok_lookup_spec _ _ _ _ _ _ Hw Hi) as (ei & Hmi & Hei & Hvi & Hri).
    destruct (world_ok_lookup_spec _ _ _ _ _ _ Hw Hj) as (ej & Hmj & Hej & Hvj & Hrj).
    destruct (Hf _ _ _ _ Hri Hrj) as (l' & o' & h' & fi' & fj' & E & H1 & H2 & Hap & Hu).
    { intros a Ha Ha'. exact (wo_disj _ _ _ _ Hw i j _ _ a Hmi Hmj Hij Ha Ha'). }
    unfold l_two, bind, wget. rewrite Hvi, Hvj. unfold lift. rewrite E. simpl.
    eexists. split; [done|]. eexists. simpl.
    exact (world_upd2 _ lrep_frame lrep_dom w sp m i j ei ej _ _ _ _ _ fi' fj' Hw Hmi Hmj Hij Hu Hap H1 H2).
  Qed.
  Lemma ok_two_ne w sp m i j f si sj si' sj' : wokw w sp m -> i <> j ->
    sp !! i = Some si -> sp !! j = Some sj ->
    (forall l fi o fj, lrep (w_heap w) l si fi -> lrep (w_heap w) o sj fj -> apart fi fj ->
       exists l' o' h' fi' fj', f l o (w_heap w) = Ok ((l', o'), h') /\ lrep h' l' si' fi' /\ lrep h' o' sj' fj' /\
         apart fi' fj' /\ upd (w_heap w) h' (fi ++ fj) (fi' ++ fj')) ->
    agrees rel (l_two_ne i j f w) (SOk (<[i := si']> (<[j := sj']> sp)) OUnit).
  Proof.
    intros Hw Hij Hi Hj Hf. unfold l_two_ne. destruct (Nat.eqb_spec i j); [done|]. by eapply ok_two.
  Qed.
  Lemma ok_same w sp m i f s : wokw w sp m -> sp !! i = Some s -> agrees rel (l_two_ne i i f w) (SOk sp OUnit).
  Proof.
    intros Hw Hi. destruct (world_ok_lookup_spec _ _ _ _ _ _ Hw Hi) as (e & Hm & He & Hv & Hr).
    unfold l_two_ne. rewrite Nat.eqb_refl. unfold bind, wget. rewrite Hv. eexists. split; [done|]. by exists m.
  Qed.
  Lemma ok_at w sp m i k f al xs xs' n : wokw w sp m -> sp !! i = Some (al, Some xs) -> nlen xs' < W ->
    (k <= length xs + 1)%nat ->
    (forall hd tl ns p, vls ns = xs -> lok (w_heap w) al hd ns tl -> nlen ns < W -> lfp hd ns tl !! k = Some p ->
       exists h' ns' q, f (L al hd tl ns) (PAddr p) (w_heap w) = Ok ((L al hd tl ns', PAddr q), h') /\
         vls ns' = xs' /\ lfp hd ns' tl !! n = Some q /\ became (w_heap w) h' al hd tl ns ns') ->
    agrees rel (l_at i k f w) (SOk (<[i := (al, Some xs')]> sp) (OPos n)).
  Proof.
    intros Hw Hi HW Hk Hf. eapply ok_updo; [exact Hw|exact Hi|]. intros hd tl ns Hx Lk HW1.
    destruct (lookup_lt_is_Some_2 (lfp hd ns tl) k) as [p Hp].
    { rewrite lfp_length. rewrite <-Hx, vls_length in Hk. lia. }
    destruct (Hf hd tl ns p Hx Lk HW1 Hp) as (h' & ns' & q & E & Hx' & Hq & Lk' & Hu).
    eexists _, h', _. split; [|split; [|exact Hu]].
    - cbn [l_head L]. rewrite (bind_ok _ _ _ _ _ (advance_pos _ _ _ _ _ _ _ Lk Hp)).
      rewrite (bind_ok _ _ _ _ _ E). rewrite (bind_ok _ _ _ _ _ (pos_ok _ _ _ _ _ _ _ Lk' Hq)). done.
    - apply rep_now; [done| |done]. by eapply W_vls.
  Qed.
  Lemma ok_at2 w sp m i k1 k2 f al xs xs' n : wokw w sp m -> sp !! i = Some (al, Some xs) -> nlen xs' < W ->
    (k1 <= length xs + 1)%nat -> (k2 <= length xs + 1)%nat ->
    (forall hd tl ns p1 p2, vls ns = xs -> lok (w_heap w) al hd ns tl -> nlen ns < W ->
       lfp hd ns tl !! k1 = Some p1 -> lfp hd ns tl !! k2 = Some p2 ->
       exists h' ns' q, f (L al hd tl ns) (PAddr p1) (PAddr p2) (w_heap w) = Ok ((L al hd tl ns', PAddr q), h') /\
         vls ns' = xs' /\ lfp hd ns' tl !! n = Some q /\ became (w_heap w) h' al hd tl ns ns') ->
    agrees rel (l_at2 i k1 k2 f w) (SOk (<[i := (al, Some xs')]> sp) (OPos n)).
  Proof.
    intros Hw Hi HW Hk1 Hk2 Hf. eapply ok_updo; [exact Hw|exact Hi|]. intros hd tl ns Hx Lk HW1.
    rewrite <-Hx, vls_length in Hk1, Hk2.
    destruct (lookup_lt_is_Some_2 (lfp hd ns tl) k1) as [p1 Hp1]; [rewrite lfp_length; lia|].
    destruct (lookup_lt_is_Some_2 (lfp hd ns tl) k2) as [p2 Hp2]; [rewrite lfp_length; lia|].
    destruct (Hf hd tl ns p1 p2 Hx Lk HW1 Hp1 Hp2) as (h' & ns' & q & E & Hx' & Hq & Lk' & Hu).
    eexists _, h', _. split; [|split; [|exact Hu]].
    - cbn [l_head L]. rewrite (bind_ok _ _ _ _ _ (advance_pos _ _ _ _ _ _ _ Lk Hp1)).
      rewrite (bind_ok _ _ _ _ _ (advance_pos _ _ _ _ _ _ _ Lk Hp2)).
      rewrite (bind_ok _ _ _ _ _ E). rewrite (bind_ok _ _ _ _ _ (pos_ok _ _ _ _ _ _ _ Lk' Hq)). done.
    - apply rep_now; [done| |done]. by eapply W_vls.
  Qed.

  (** ** Members taking two lists *)
  Lemma frame_other h h' fi fi' o sj fj : hwf h -> upd h h' fi fi' -> lrep h o sj fj -> apart fi fj ->
    lrep h' o sj fj /\ apart fi' fj /\ upd h h' (fi ++ fj) (fi' ++ fj).
  Proof.
    intros Hwf Hu Hr Hap. split; [|split].
    - eapply lrep_frame; [exact Hr|]. intros a Ha. apply (upd_frame _ _ _ _ Hu).
      + apply Hwf. by eapply lrep_dom.
      + intros Hi. exact (Hap a Hi Ha).
    - intros a Hi Hj. destruct (upd_new _ _ _ _ Hu a Hi) as [Hi'|Hge]; [exact (Hap a Hi' Hj)|].
      assert (a < hnext h) by (apply Hwf; by eapply lrep_dom). lia.
    - apply upd_frame_r; [done|done|]. intros a Ha. split; [by eapply lrep_dom|]. intros Hi. exact (Hap a Hi Ha).
  Qed.
  Lemma destroy_rep h l s fp : hwf h -> lrep h l s fp ->
    exists l' h', l_destroy dbl l h = Ok (l', h') /\ upd h h' fp [].
  Proof.
    intros Hwf [al hd tl ns Lk HW|al].
    - by eapply destroy_ok.
    - eexists _, h. split; [done|]. apply upd_refl; [done|]. intros a Ha. set_solver.
  Qed.
  Lemma copy_rep h o s fp al : hwf h -> lrep h o s fp -> made h al (default [] (snd s)) (copy_impl dbl al o h).
  Proof.
    intros Hwf [al' hd tl ns Lk HW|al'].
    - by eapply copy_impl_ok.
    - unfold copy_impl. cbn [l_len N.eqb]. by apply new_ok.
  Qed.
  Lemma copy_assign_rep h l si fi o sj fj : hwf h -> lrep h l si fi -> lrep h o sj fj -> apart fi fj ->
    nlen (default [] (snd sj)) < W ->
    exists l' h' fi', l_copy_assign dbl l o h = Ok (l', h') /\ lrep h' l' (fst sj, Some (default [] (snd sj))) fi' /\
      lrep h' o sj fj /\ apart fi' fj /\ upd h h' (fi ++ fj) (fi' ++ fj).
  Proof.
    intros Hwf Hi Hj Hap HW. destruct (destroy_rep _ _ _ _ Hwf Hi) as (l1 & h1 & E1 & Hu1).
    destruct (frame_other _ _ _ _ _ _ _ Hwf Hu1 Hj Hap) as (Hj1 & _ & _).
    destruct (copy_rep _ _ _ _ (fst sj) (upd_wf _ _ _ _ Hu1) Hj1) as (hd & tl & ms & h2 & E2 & Hx & Lk & Hu2).
    pose proof (upd_trans _ _ _ _ _ _ Hwf Hu1 Hu2) as Hu.
    exists (L (fst sj) hd tl ms), h2, (lfp hd ms tl). split.
    - unfold l_copy_assign. rewrite (bind_ok _ _ _ _ _ E1). by rewrite (lrep_al _ _ _ _ Hj).
    - split; [apply rep_now; [done| |done]; by eapply W_vls|]. by apply (frame_other h h2 fi _ o sj fj).
  Qed.
  Lemma move_assign_rep h l si fi o sj fj : hwf h -> lrep h l si fi -> lrep h o sj fj -> apart fi fj ->
    exists l' o' h', l_move_assign dbl l o h = Ok ((l', o'), h') /\ lrep h' l' sj fj /\
      lrep h' o' (fst sj, None) [] /\ upd h h' (fi ++ fj) (fj ++ []).
  Proof.
    intros Hwf Hi Hj Hap. destruct (destroy_rep _ _ _ _ Hwf Hi) as (l1 & h1 & E1 & Hu1).
    destruct (frame_other _ _ _ _ _ _ _ Hwf Hu1 Hj Hap) as (Hj1 & _ & Hu).
    exists o, (moved_from o), h1. split; [unfold l_move_assign; by rewrite (bind_ok _ _ _ _ _ E1)|].
    split; [done|]. split; [|by rewrite app_nil_r].
    rewrite (lrep_moved _ _ _ _ Hj). constructor.
  Qed.
  Lemma apart_nil_r (f : list N) : apart f [].
  Proof. intros a _ Ha. set_solver. Qed.

  (** ** Every step *)
  Section Conts.
    Context (sp : lstate) (r : outcome (lout T * world (cell T) lst)).
    Lemma a_fresh i k : (sp !! i = None -> agrees rel r k) -> agrees rel r (fresh sp i k).
    Proof. unfold fresh. intros H. destruct (sp !! i); [done|]. by apply H. Qed.
    Lemma a_look i k : (forall al o, sp !! i = Some (al, o) -> agrees rel r (k al o)) -> agrees rel r (look sp i k).
    Proof. unfold look. intros H. destruct (sp !! i) as [[al o]|]; [|done]. by apply H. Qed.
    Lemma a_live i k : (forall al xs, sp !! i = Some (al, Some xs) -> agrees rel r (k al xs)) -> agrees rel r (live sp i k).
    Proof. unfold live. intros H. destruct (sp !! i) as [[al [xs|]]|]; [|done|done]. by apply H. Qed.
    Lemma a_need b k : (b = true -> agrees rel r k) -> agrees rel r (need b k).
    Proof. unfold need. intros H. destruct b; [|done]. by apply H. Qed.
    Lemma a_give i al xs o : (nlen xs < W -> agrees rel r (SOk (<[i := (al, Some xs)]> sp) o)) ->
      agrees rel r (give sp i al xs o).
    Proof. unfold give. intros H. destruct (N.ltb_spec (nlen xs) W); [|done]. by apply H. Qed.
  End Conts.

  Lemma list_step_refines sp w o : ordered o -> rel sp w -> agrees rel (list_step dbl o w) (gspec dbl sp o).
  Proof.
    intros Hord [m Hw]. assert (Hwf : hwf (w_heap w)) by apply Hw.
    unfold gspec. destruct (safe dbl sp o) eqn:Hsafe; [|done].
    destruct o; cbn [safe] in Hsafe; cbn [list_step lspec].
    - (* LNew *)
      apply a_fresh; intros Ei. apply a_give; intros HW. eapply ok_mk; eauto. by apply new_ok.
    - (* LRange *)
      apply a_fresh; intros Ei. apply a_give; intros HW. eapply ok_mk; eauto. by apply range_ok.
    - (* LCount *)
      apply a_fresh; intros Ei. apply a_need; intros Hn%N.ltb_lt. apply a_give; intros HW.
      eapply ok_mk; eauto. by apply count_ok.
    - (* LFrom *)
      apply a_fresh; intros Ei. apply a_give; intros HW. eapply ok_mk; eauto. by apply from_iter_ok.
    - (* LCopy *)
      apply a_fresh; intros Ei. apply a_look; intros al o Ej. apply a_give; intros HW.
      destruct (world_ok_lookup_spec _ _ _ _ _ _ Hw Ej) as (e & Hm & He & Hv & Hr).
      rewrite (bind_ok (wget j) _ w (e_o e) w) by (unfold wget; by rewrite Hv).
      eapply ok_mk; eauto. unfold l_copy. rewrite (lrep_al _ _ _ _ Hr).
      exact (copy_rep _ _ _ _ al Hwf Hr).
    - (* LCopyAl *)
      apply a_fresh; intros Ei. apply a_look; intros al' o Ej. apply a_give; intros HW.
      destruct (world_ok_lookup_spec _ _ _ _ _ _ Hw Ej) as (e & Hm & He & Hv & Hr).
      rewrite (bind_ok (wget j) _ w (e_o e) w) by (unfold wget; by rewrite Hv).
      eapply ok_mk; eauto. exact (copy_rep _ _ _ _ al Hwf Hr).
    - (* LMove *)
      apply a_fresh; intros Ei. apply a_look; intros al o Ej.
      destruct (world_ok_lookup_spec _ _ _ _ _ _ Hw Ej) as (e & Hm & He & Hv & Hr).
      destruct (world_ok_none _ _ _ _ _ Hw Ei) as [Hmi Hwi].
      unfold bind, wnew, wget. rewrite Hwi, Hv. simpl. eexists. split; [done|]. eexists. simpl.
      eapply (world_new2 _ lrep_frame lrep_dom w sp m i j e _ _ _ _ _ (e_fp e) []);
        [exact Hw|done|done| |apply apart_nil_r|exact Hr|].
      + rewrite app_nil_r. apply upd_refl; [done|]. intros a Ha. exact (lrep_dom _ _ _ _ a Hr Ha).
      + rewrite (lrep_moved _ _ _ _ Hr). constructor.
    - (* LMoveAl *)
      apply a_fresh; intros Ei. apply a_look; intros al' o Ej. unfold alloc_of in Hsafe.
      rewrite Ej in Hsafe. apply N.eqb_eq in Hsafe as ->.
      destruct (world_ok_lookup_spec _ _ _ _ _ _ Hw Ej) as (e & Hm & He & Hv & Hr).
      destruct (world_ok_none _ _ _ _ _ Hw Ei) as [Hmi Hwi].
      unfold bind, wnew, wget. rewrite Hwi, Hv. unfold lift, l_move_alloc.
      rewrite (lrep_al _ _ _ _ Hr). cbn [fst]. rewrite N.eqb_refl. simpl.
      eexists. split; [done|]. eexists. simpl.
      eapply (world_new2 _ lrep_frame lrep_dom w sp m i j e _ _ _ _ _ (e_fp e) []);
        [exact Hw|done|done| |apply apart_nil_r| |].
      + rewrite app_nil_r. apply upd_refl; [done|]. intros a Ha. exact (lrep_dom _ _ _ _ a Hr Ha).
      + pose proof (lrep_al _ _ _ _ Hr) as Hal. cbn [fst] in Hal.
        replace (Lst (l_head (e_o e)) (l_tail (e_o e)) (l_len (e_o e)) al') with (e_o e); [exact Hr|].
        rewrite <-Hal. by destruct (e_o e).
      + rewrite (lrep_moved _ _ _ _ Hr). constructor.
    - (* LCopyAsg *)
      apply a_look; intros al1 o1 Ei. apply a_look; intros al o Ej.
      destruct (Nat.eqb_spec i j) as [<-|Hij]; [by eapply ok_same|]. apply a_give; intros HW.
      assert (<[j := (al, o)]> sp = sp) as Hsp by by apply insert_id.
      rewrite <-Hsp at 1.
      eapply ok_two_ne; [exact Hw|done|exact Ei|exact Ej|].
      intros l fi o' fj Hi Hj Hap.
      destruct (copy_assign_rep _ _ _ _ _ _ _ Hwf Hi Hj Hap) as (l' & h' & fi' & E & H1 & H2 & H3 & H4); [done|].
      exists l', o', h', fi', fj. by rewrite (bind_ok _ _ _ _ _ E).
    - (* LMoveAsg *)
      apply a_look; intros al1 o1 Ei. apply a_look; intros al o Ej.
      destruct (Nat.eqb_spec i j) as [<-|Hij]; [by eapply ok_same|].
      eapply ok_two_ne; [exact Hw|done|exact Ei|exact Ej|].
      intros l fi o' fj Hi Hj Hap.
      destruct (move_assign_rep _ _ _ _ _ _ _ Hwf Hi Hj Hap) as (l' & o2 & h' & E & H1 & H2 & H3).
      exists l', o2, h', fj, []. split; [done|]. split; [done|]. split; [done|]. split; [apply apart_nil_r|done].
    - (* LIlist *)
      apply a_live; intros al xs Ei. apply a_give; intros HW'.
      eapply ok_became; eauto. intros hd tl ns Hx Lk HW.
      destruct (ilist_assign_ok dbl _ _ _ _ _ vs Hwf Lk) as (ms & h' & E & Hv & Lk' & Hu); [done|].
      exists h', ms. done.
    - (* LSwap *)
      apply a_look; intros al o Ei. apply a_look; intros al' o' Ej.
      destruct (decide (i = j)) as [<-|Hij].
      + rewrite Ei in Ej. injection Ej as -> ->. rewrite insert_insert, insert_id by done.
        destruct (world_ok_lookup_spec _ _ _ _ _ _ Hw Ei) as (e & Hm & He & Hv & Hr).
        unfold l_two, bind, wget. rewrite Hv. cbn. rewrite ?Hv. cbn. eexists. split; [done|]. exists m.
        rewrite insert_insert. rewrite insert_id by (rewrite Hv; by destruct (e_o e)). by destruct w.
      + eapply ok_two; [exact Hw|done|exact Ei|exact Ej|]. intros l fi o2 fj Hi Hj Hap.
        exists o2, l, (w_heap w), fj, fi. split; [by destruct l, o2|]. split; [done|]. split; [done|].
        split; [intros a Ha Ha'; exact (Hap a Ha' Ha)|].
        eapply upd_equiv; [intros a; reflexivity| |apply upd_refl; [done|]].
        * intros a. rewrite !elem_of_app. naive_solver.
        * intros a [Ha|Ha]%elem_of_app; [exact (lrep_dom _ _ _ _ a Hi Ha)|exact (lrep_dom _ _ _ _ a Hj Ha)].
    - (* LDel *)
      apply a_look; intros al o Ei.
      destruct (world_ok_lookup_spec _ _ _ _ _ _ Hw Ei) as (e & Hm & He & Hv & Hr).
      destruct (destroy_rep _ _ _ _ Hwf Hr) as (l' & h' & E & Hu).
      unfold bind, wget. rewrite Hv. unfold lift. rewrite E. simpl.
      eexists. split; [done|]. eexists. simpl. eapply (world_del _ lrep_frame lrep_dom); eauto.
    - (* LClear *)
      apply a_live; intros al xs Ei. apply a_give; intros HW'.
      eapply ok_became; eauto. intros hd tl ns Hx Lk HW.
      destruct (clear_ok dbl _ _ _ _ _ Hwf Lk) as (h' & E & Lk' & Hu).
      exists h', []. done.
    - (* LResize *)
      apply a_live; intros al xs Ei. apply a_need; intros Hn%N.ltb_lt. apply a_give; intros HW'.
      eapply ok_became; eauto. intros hd tl ns Hx Lk HW.
      destruct (resize_ok dbl _ _ _ _ _ n v Hwf Lk) as (h' & ns' & E & Hv & _ & Hb); [done|done|].
      exists h', ns'. split; [done|]. split; [|done]. rewrite Hv, <-Hx. unfold resized. do 2 f_equal.
      rewrite vls_length. lia.
    - (* LPushF *)
      apply a_live; intros al xs Ei. apply a_give; intros HW'.
      eapply ok_became; eauto. intros hd tl ns Hx Lk HW. simpl in HW'. rewrite <-Hx, vls_length in HW'.
      destruct (push_front_ok dbl _ _ _ _ _ v Hwf Lk) as (h' & b & E & Hb); [lia|].
      eexists h', _. split; [exact E|]. split; [|done]. rewrite <-Hx. done.
    - (* LPopF *)
      apply a_live; intros al xs Ei. destruct xs as [|x xs]; [done|]. apply a_give; intros HW'.
      eapply ok_became; eauto. intros hd tl ns Hx Lk HW. destruct ns as [|[a v] ns]; [done|].
      injection Hx as <- <-. destruct (pop_front_ok dbl _ _ _ _ _ _ _ Hwf Lk HW) as (h' & E & Hb).
      by eexists h', _.
    - (* LPushB *)
      apply a_need; intros Hd. apply a_live; intros al xs Ei. apply a_give; intros HW'.
      eapply ok_became; eauto. intros hd tl ns Hx Lk HW. rewrite app_length in HW'. simpl in HW'.
      rewrite <-Hx, vls_length in HW'.
      destruct (push_back_ok dbl _ _ _ _ _ v Hd Hwf Lk) as (h' & b & E & Hb); [lia|].
      eexists h', _. split; [exact E|]. split; [|done]. rewrite <-Hx. apply vls_snoc.
    - (* LPopB *)
      apply a_need; intros Hd. apply a_live; intros al xs Ei.
      apply a_need; intros Hne%negb_true_iff%isnil_false. apply a_give; intros HW'.
      eapply ok_became; eauto. intros hd tl ns Hx Lk HW.
      destruct ns as [|[a v] ns _] using rev_ind; [by rewrite <-Hx in Hne|].
      destruct (pop_back_ok dbl _ _ _ _ _ _ _ Hd Hwf Lk HW) as (h' & E & Hb).
      eexists h', _. split; [exact E|]. split; [|done]. rewrite <-Hx, vls_snoc, app_length. simpl.
      rewrite take_app_alt; [done|lia].
    - (* LEmpA *)
      apply a_live; intros al xs Ei. apply a_need; intros Hk%Nat.leb_le. apply a_give; intros HW'.
      eapply ok_at; [exact Hw|exact Ei|exact HW'|lia|]. intros hd tl ns p Hx Lk HW Hp.
      destruct (split_at ns k) as (n1 & n2 & -> & Hl & H1 & H2); [rewrite <-Hx, vls_length in Hk; lia|].
      rewrite <-Hl, lfp_end in Hp. injection Hp as <-.
      destruct (emplace_after_ok dbl _ _ _ _ _ _ v Hwf Lk) as (h' & b & E & Hb).
      { rewrite <-Hx, !app_length, take_length, drop_length, vls_length in HW'. simpl in HW'. lia. }
      eexists h', _, b. split; [exact E|]. split; [|split; [|done]].
      + rewrite vls_app. rewrite <-Hx, H1 at 1. f_equal. cbn. f_equal. by rewrite <-Hx.
      + rewrite <-Hl, Nat.add_1_r. apply lfp_start.
    - (* LInsA *)
      apply a_live; intros al xs Ei. apply a_need; intros Hk%Nat.leb_le. apply a_give; intros HW'.
      eapply ok_at; [exact Hw|exact Ei|exact HW'|lia|]. intros hd tl ns p Hx Lk HW Hp.
      destruct (split_at ns k) as (n1 & n2 & -> & Hl & H1 & H2); [rewrite <-Hx, vls_length in Hk; lia|].
      rewrite Hx in H1, H2.
      rewrite <-Hl, lfp_end in Hp. injection Hp as <-.
      destruct vs as [|v0 vs0] eqn:Hvs.
      + exists (w_heap w), (n1 ++ n2), (endp hd n1). split; [done|]. split; [by rewrite vls_app, H1, H2|].
        split; [simpl; rewrite <-Hl; apply lfp_end|]. by apply became_refl.
      + rewrite <-Hvs in *. destruct (insert_after_ok dbl _ _ _ _ _ _ vs Hwf Lk) as (h' & ms & E & Hms & Hb); [|by subst|].
        { rewrite !app_length, <-H1, <-H2, !vls_length in HW'. rewrite app_length. lia. }
        eexists h', _, _. split; [exact E|]. split; [|split; [|done]].
        * by rewrite !vls_app, H1, H2, Hms.
        * replace (isnil vs) with false by by subst. rewrite <-Hl, Nat.add_1_r, lfp_start.
          rewrite startp_app. destruct ms as [|[c u] ms]; [|done]. by subst.
    - (* LEraA *)
      apply a_live; intros al xs Ei. apply a_need; intros Hk%Nat.leb_le. apply a_give; intros HW'.
      eapply ok_at; [exact Hw|exact Ei|exact HW'|lia|]. intros hd tl ns p Hx Lk HW Hp.
      destruct (split_at ns k) as (n1 & n2 & -> & Hl & H1 & H2); [rewrite <-Hx, vls_length in Hk; lia|].
      rewrite Hx in H1, H2.
      rewrite <-Hl, lfp_end in Hp. injection Hp as <-. rewrite Nat.add_1_r.
      destruct n2 as [|[a v] n2].
      + rewrite app_nil_r in *. exists (w_heap w), n1, tl. rewrite (erase_after_none dbl _ _ _ _ _ Lk).
        split; [done|]. split; [|split; [|by apply became_refl]].
        * rewrite (drop_ge xs (S k)); [by rewrite app_nil_r|].
          rewrite <-Hx, vls_length. lia.
        * rewrite <-Hl. pose proof (lfp_start hd n1 [] tl) as Hs. rewrite app_nil_r in Hs. exact Hs.
      + destruct (erase_after_ok dbl _ _ _ _ _ _ _ _ Hwf Lk HW) as (h' & E & Hb).
        eexists h', _, _. split; [exact E|]. split; [|split; [|done]].
        * rewrite vls_app, H1. f_equal. rewrite <-Nat.add_1_r, <-drop_drop, <-H2. done.
        * rewrite <-Hl. apply lfp_start.
    - (* LEraAR *)
      apply a_live; intros al xs Ei. apply a_need; intros [Hk1%Nat.leb_le Hk2%Nat.leb_le]%andb_true_iff.
      destruct (Nat.eqb_spec k1 k2) as [<-|Hne].
      + assert (<[i := (al, Some xs)]> sp = sp) as Hsp by (by apply insert_id); rewrite <-Hsp at 1.
        assert (HWx : nlen xs < W).
        { destruct (world_ok_lookup_spec _ _ _ _ _ _ Hw Ei) as (e & _ & _ & _ & Hr).
          destruct (lrep_inv _ _ _ _ _ Hr) as (? & ? & ns & _ & <- & _ & ? & _). by rewrite vls_length. }
        eapply ok_at2; [exact Hw|exact Ei|done|lia|lia|]. intros hd tl ns p1 p2 Hx Lk HW Hp1 Hp2.
        rewrite Hp1 in Hp2. injection Hp2 as <-. exists (w_heap w), ns, p1.
        rewrite erase_after_range_same. split; [done|]. split; [done|]. split; [done|]. by apply became_refl.
      + apply a_give; intros HW'.
        eapply ok_at2; [exact Hw|exact Ei|done|lia|lia|]. intros hd tl ns p1 p2 Hx Lk HW Hp1 Hp2.
        assert (Hlen : length ns = length xs) by by rewrite <-Hx, vls_length.
        destruct (split_at ns k1) as (n1 & n2 & -> & Hl & H1 & H2); [lia|].
        destruct (split_at n2 (k2 - 1 - k1)) as (mid & n3 & -> & Hl2 & _ & H3); [rewrite app_length in Hlen; lia|].
        rewrite <-Hl, lfp_end in Hp1. injection Hp1 as <-.
        replace k2 with (S (length (n1 ++ mid))) in Hp2 by (rewrite app_length; lia).
        rewrite (assoc_L app), lfp_start in Hp2. injection Hp2 as <-.
        destruct (erase_after_range_ok dbl _ _ _ _ _ _ _ Hwf Lk HW) as (h' & E & Hb).
        eexists h', _, _. split; [exact E|]. split; [|split; [|done]].
        * rewrite vls_app, H1, H3, H2, Hx. f_equal. rewrite drop_drop. f_equal. lia.
        * rewrite <-Hl, Nat.add_1_r. apply lfp_start.
    - (* LEmp *)
      apply a_need; intros Hd. apply a_live; intros al xs Ei.
      apply a_need; intros [Hk1%Nat.leb_le Hk2%Nat.leb_le]%andb_true_iff. apply a_give; intros HW'.
      eapply ok_at; [exact Hw|exact Ei|exact HW'|lia|]. intros hd tl ns p Hx Lk HW Hp.
      assert (Hlen : length ns = length xs) by by rewrite <-Hx, vls_length.
      destruct (split_at ns (k - 1)) as (n1 & n2 & -> & Hl & H1 & H2); [lia|]. rewrite Hx in H1, H2.
      replace k with (S (length n1)) in Hp by lia. rewrite lfp_start in Hp. injection Hp as <-.
      destruct (emplace_ok dbl _ _ _ _ _ _ v Hd Hwf Lk) as (h' & b & E & Hb).
      { rewrite !app_length, <-H1, <-H2, !vls_length in HW'. simpl in HW'. rewrite app_length. lia. }
      eexists h', _, b. split; [exact E|]. split; [|split; [|done]].
      + rewrite vls_app, H1. f_equal. cbn. f_equal. exact H2.
      + replace k with (S (length n1)) by lia. apply lfp_start.
    - (* LIns *)
      apply a_need; intros Hd. apply a_live; intros al xs Ei.
      apply a_need; intros [Hk1%Nat.leb_le Hk2%Nat.leb_le]%andb_true_iff. apply a_give; intros HW'.
      eapply ok_at; [exact Hw|exact Ei|exact HW'|lia|]. intros hd tl ns p Hx Lk HW Hp.
      assert (Hlen : length ns = length xs) by by rewrite <-Hx, vls_length.
      destruct (split_at ns (k - 1)) as (n1 & n2 & -> & Hl & H1 & H2); [lia|]. rewrite Hx in H1, H2.
      replace k with (S (length n1)) in Hp |- * by lia. rewrite lfp_start in Hp. injection Hp as <-.
      replace (S (length n1) - 1)%nat with (k - 1)%nat by lia.
      destruct vs as [|v0 vs0] eqn:Hvs.
      + exists (w_heap w), (n1 ++ n2), (startp n2 tl). split; [done|]. split; [by rewrite vls_app, H1, H2|].
        split; [apply lfp_start|]. by apply became_refl.
      + rewrite <-Hvs in *. destruct (insert_ok dbl _ _ _ _ _ _ vs Hd Hwf Lk) as (h' & ms & E & Hms & Hb); [|by subst|].
        { rewrite !app_length, <-H1, <-H2, !vls_length in HW'. rewrite app_length. lia. }
        eexists h', _, _. split; [exact E|]. split; [|split; [|done]].
        * by rewrite !vls_app, H1, H2, Hms.
        * rewrite lfp_start, startp_app. destruct ms as [|[c u] ms]; [|done]. by subst.
    - (* LEra *)
      apply a_need; intros Hd. apply a_live; intros al xs Ei.
      apply a_need; intros [Hk1%Nat.leb_le Hk2%Nat.leb_le]%andb_true_iff. apply a_give; intros HW'.
      eapply ok_at; [exact Hw|exact Ei|exact HW'|lia|]. intros hd tl ns p Hx Lk HW Hp.
      assert (Hlen : length ns = length xs) by by rewrite <-Hx, vls_length.
      destruct (split_at ns (k - 1)) as (n1 & n2 & -> & Hl & H1 & H2); [lia|]. rewrite Hx in H1, H2.
      replace k with (S (length n1)) in Hp by lia. rewrite lfp_start in Hp. injection Hp as <-.
      destruct n2 as [|[a v] n2].
      + rewrite app_nil_r in *. exists (w_heap w), n1, tl. cbn [startp]. rewrite erase_end.
        split; [done|]. split; [|split; [|by apply became_refl]].
        * rewrite (drop_ge xs k); [by rewrite app_nil_r|]. lia.
        * replace k with (S (length n1)) by lia. pose proof (lfp_start hd n1 [] tl) as Hs. rewrite app_nil_r in Hs. exact Hs.
      + destruct (erase_ok dbl _ _ _ _ _ _ _ _ Hd Hwf Lk HW) as (h' & E & Hb).
        eexists h', _, _. split; [exact E|]. split; [|split; [|done]].
        * rewrite vls_app, H1. f_equal. replace k with (k - 1 + 1)%nat by lia. rewrite <-drop_drop, <-H2. done.
        * replace k with (S (length n1)) by lia. apply lfp_start.
    - (* LEraR *)
      apply a_need; intros Hd. apply a_live; intros al xs Ei.
      apply a_need; intros [[Hk1%Nat.leb_le Hk2%Nat.leb_le]%andb_true_iff Hk3%Nat.leb_le]%andb_true_iff.
      apply a_give; intros HW'.
      eapply ok_at2; [exact Hw|exact Ei|done|lia|lia|]. intros hd tl ns p1 p2 Hx Lk HW Hp1 Hp2.
      assert (Hlen : length ns = length xs) by by rewrite <-Hx, vls_length.
      destruct (split_at ns (k1 - 1)) as (n1 & n2 & -> & Hl & H1 & H2); [lia|].
      destruct (split_at n2 (k2 - k1)) as (mid & n3 & -> & Hl2 & _ & H3); [rewrite app_length in Hlen; lia|].
      replace k1 with (S (length n1)) in Hp1 by lia. rewrite lfp_start in Hp1. injection Hp1 as <-.
      replace k2 with (S (length (n1 ++ mid))) in Hp2 by (rewrite app_length; lia).
      rewrite (assoc_L app), lfp_start in Hp2. injection Hp2 as <-.
      destruct (erase_range_ok dbl _ _ _ _ _ _ _ Hd Hwf Lk HW) as (h' & E & Hb).
      eexists h', _, _. split; [exact E|]. split; [|split; [|done]].
      * rewrite vls_app, H1, H3, H2, Hx. f_equal. rewrite drop_drop. f_equal. lia.
      * replace k1 with (S (length n1)) by lia. apply lfp_start.
    - (* LSplA *)
      apply a_live; intros al xs Ei. apply a_live; intros al' ys Ej.
      apply a_need; intros [[Hij%negb_true_iff%Nat.eqb_neq <-%N.eqb_eq]%andb_true_iff Hk%Nat.leb_le]%andb_true_iff.
      unfold contents in Hsafe. rewrite Ej in Hsafe. apply negb_true_iff, isnil_false in Hsafe. cbn in Hsafe.
      apply a_give; intros HW'.
      eapply ok_two; [exact Hw|done|exact Ei|exact Ej|]. intros l fi o fj Hi Hj Hap.
      destruct (lrep_inv _ _ _ _ _ Hi) as (hd & tl & ns & -> & Hx & Lk & HW & ->).
      destruct (lrep_inv _ _ _ _ _ Hj) as (hd2 & tl2 & ms & -> & Hy & Lk2 & HW2 & ->).
      assert (Hlen : length ns = length xs) by by rewrite <-Hx, vls_length.
      destruct (split_at ns k) as (n1 & n2 & -> & Hl & H1 & H2); [lia|]. rewrite Hx in H1, H2.
      assert (Hms : ms <> []) by (intros ->; by rewrite <-Hy in Hsafe).
      assert (HWs : nlen (n1 ++ n2) + nlen ms < W).
      { rewrite !app_length, <-H1, <-H2, <-Hy, !vls_length in HW'. rewrite app_length. lia. }
      destruct (splice_after_ok dbl _ _ _ _ _ _ _ _ _ Hwf Lk Lk2 Hms Hap HWs) as [(h1 & E1 & A1 & A2 & A3) (h2 & E2 & B1 & B2)].
      assert (Hv : vls (n1 ++ ms ++ n2) = take k xs ++ ys ++ drop k xs) by by rewrite !vls_app, H1, H2, Hy.
      assert (Hwn : nlen (n1 ++ ms ++ n2) < W) by (rewrite !app_length in *; lia).
      assert (Ha : stl_advance k (PAddr hd) (w_heap w) = Ok (PAddr (endp hd n1), w_heap w)).
      { rewrite <-Hl. exact (advance_ok dbl _ _ _ _ _ _ Lk). }
      destruct rv.
      + eexists _, _, h2, _, []. split; [|split; [|split; [|split; [apply apart_nil_r|exact B2]]]].
        * cbn [l_head L]. rewrite (bind_ok _ _ _ _ _ Ha). exact E2.
        * by apply rep_now.
        * constructor.
      + eexists _, _, h1, _, _. split; [|split; [|split; [|split; [|exact A3]]]].
        * cbn [l_head L]. rewrite (bind_ok _ _ _ _ _ Ha). exact E1.
        * by apply rep_now.
        * apply rep_now; [done|done|done].
        * apply apart_mid; [by eapply lok_nd|done].
    - (* LSpl *)
      apply a_need; intros Hd. apply a_live; intros al xs Ei. apply a_live; intros al' ys Ej.
      apply a_need; intros [[[Hij%negb_true_iff%Nat.eqb_neq <-%N.eqb_eq]%andb_true_iff Hk1%Nat.leb_le]%andb_true_iff Hk%Nat.leb_le]%andb_true_iff.
      unfold contents in Hsafe. rewrite Ej in Hsafe. apply negb_true_iff, isnil_false in Hsafe. cbn in Hsafe.
      apply a_give; intros HW'.
      eapply ok_two; [exact Hw|done|exact Ei|exact Ej|]. intros l fi o fj Hi Hj Hap.
      destruct (lrep_inv _ _ _ _ _ Hi) as (hd & tl & ns & -> & Hx & Lk & HW & ->).
      destruct (lrep_inv _ _ _ _ _ Hj) as (hd2 & tl2 & ms & -> & Hy & Lk2 & HW2 & ->).
      assert (Hlen : length ns = length xs) by by rewrite <-Hx, vls_length.
      destruct (split_at ns (k - 1)) as (n1 & n2 & -> & Hl & H1 & H2); [lia|]. rewrite Hx in H1, H2.
      assert (Hms : ms <> []) by (intros ->; by rewrite <-Hy in Hsafe).
      assert (HWs : nlen (n1 ++ n2) + nlen ms < W).
      { rewrite !app_length, <-H1, <-H2, <-Hy, !vls_length in HW'. rewrite app_length. lia. }
      destruct (splice_ok dbl _ _ _ _ _ _ _ _ _ Hd Hwf Lk Lk2 Hms Hap HWs) as [(h1 & E1 & A1 & A2 & A3) (h2 & E2 & B1 & B2)].
      assert (Hv : vls (n1 ++ ms ++ n2) = take (k - 1) xs ++ ys ++ drop (k - 1) xs) by by rewrite !vls_app, H1, H2, Hy.
      assert (Hwn : nlen (n1 ++ ms ++ n2) < W) by (rewrite !app_length in *; lia).
      assert (Ha : stl_advance k (PAddr hd) (w_heap w) = Ok (PAddr (startp n2 tl), w_heap w)).
      { replace k with (S (length n1)) by lia. exact (advance_start dbl _ _ _ _ _ _ Lk). }
      destruct rv.
      + eexists _, _, h2, _, []. split; [|split; [|split; [|split; [apply apart_nil_r|exact B2]]]].
        * cbn [l_head L]. rewrite (bind_ok _ _ _ _ _ Ha). exact E2.
        * by apply rep_now.
        * constructor.
      + eexists _, _, h1, _, _. split; [|split; [|split; [|split; [|exact A3]]]].
        * cbn [l_head L]. rewrite (bind_ok _ _ _ _ _ Ha). exact E1.
        * by apply rep_now.
        * apply rep_now; [done|done|done].
        * apply apart_mid; [by eapply lok_nd|done].
    - (* LMer *)
      apply a_live; intros al xs Ei. apply a_live; intros al' ys Ej.
      destruct (Nat.eqb_spec i j) as [<-|Hij]; cbn [orb]; [by eapply ok_same|]. cbn [orb] in Hsafe.
      unfold contents in Hsafe. rewrite Ei, Ej in Hsafe. cbn in Hsafe.
      destruct (isnil ys) eqn:Hn; cbn [orb] in Hsafe.
      + apply isnil_true in Hn as ->.
        assert (<[i := (al, Some xs)]> (<[j := (al', Some [])]> sp) = sp) as Hsp.
        { rewrite (insert_id sp j) by done. by apply insert_id. }
        rewrite <-Hsp at 1. eapply ok_two_ne; [exact Hw|done|exact Ei|exact Ej|]. intros l fi o fj Hi Hj Hap.
        exists l, o, (w_heap w), fi, fj. split; [|split; [done|split; [done|split; [done|]]]].
        * destruct (lrep_inv _ _ _ _ _ Hj) as (hd2 & tl2 & ms & -> & Hy & _).
          destruct ms as [|[a v] ms]; [|done]. destruct (merge_empty_ok dbl l al' hd2 tl2 lt (w_heap w)) as [M1 M2].
          destruct rv; [exact M2|exact M1].
        * apply upd_refl; [done|].
          intros a [Ha|Ha]%elem_of_app; [exact (lrep_dom _ _ _ _ a Hi Ha)|exact (lrep_dom _ _ _ _ a Hj Ha)].
      + apply andb_true_iff in Hsafe as [->%negb_true_iff Hx0%negb_true_iff%isnil_false].
        apply isnil_false in Hn.
        apply a_need; intros [[<-%N.eqb_eq Hs1%sortedb_srt]%andb_true_iff Hs2%sortedb_srt]%andb_true_iff.
        apply a_give; intros HW'.
        eapply ok_two_ne; [exact Hw|done|exact Ei|exact Ej|]. intros l fi o fj Hi Hj Hap.
        destruct (lrep_inv _ _ _ _ _ Hi) as (hd & tl & ns & -> & Hx & Lk & HW & ->).
        destruct (lrep_inv _ _ _ _ _ Hj) as (hd2 & tl2 & ms & -> & Hy & Lk2 & HW2 & ->).
        assert (Hns : ns <> []) by (intros ->; by rewrite <-Hx in Hx0).
        assert (Hms : ms <> []) by (intros ->; by rewrite <-Hy in Hn).
        assert (HWs : nlen ns + nlen ms < W).
        { rewrite (ssort_perm lt), app_length, <-Hx, <-Hy, !vls_length in HW'. lia. }
        destruct (merge_ok dbl _ _ _ _ _ _ _ _ lt Hwf Lk Lk2 Hap Hns Hms HWs) as (h' & E & A1 & A2 & A3).
        assert (Hv : vls (mrg (on snd lt) ns ms) = ssort lt (ys ++ xs)).
        { unfold vls. rewrite mrg_map. fold (vls ns) (vls ms). rewrite Hx, Hy. by apply mrg_ssort. }
        eexists _, _, h', _, _. split; [exact E|]. split; [|split; [|split; [|exact A3]]].
        * apply rep_now; [done| |done]. by eapply W_vls.
        * apply rep_now; done.
        * intros a Ha Ha2. assert (Hp : forall b, b ∈ lfp hd (mrg (on snd lt) ns ms) tl ->
            b ∈ lfp hd ns tl \/ b ∈ ads ms).
          { intros b. unfold lfp. rewrite !elem_of_cons, !elem_of_app. unfold ads.
            rewrite (fmap_Permutation fst _ _ (mrg_perm (on snd lt) ns ms)), fmap_app, elem_of_app. tauto. }
          pose proof (lok_nd _ _ _ _ _ Lk2) as Hnd. unfold lfp in Hnd.
          apply NoDup_cons in Hnd as [Hn1 Hnd]. apply NoDup_app in Hnd as (_ & Hn2 & _).
          assert (Ha3 : a = hd2 \/ a = tl2).
          { unfold lfp in Ha2. apply elem_of_cons in Ha2 as [->|Ha2]; [by left|]. right. by apply elem_of_list_singleton in Ha2. }
          destruct (Hp a Ha) as [H1|H1].
          -- apply (Hap a H1). unfold lfp. rewrite elem_of_cons, elem_of_app, elem_of_list_singleton. tauto.
          -- destruct Ha3 as [->| ->]; [apply Hn1; by apply elem_of_app; left|]. apply (Hn2 _ H1). by apply elem_of_list_singleton.
    - (* LSrt *)
      apply a_live; intros al xs Ei. apply a_give; intros HW'.
      unfold contents in Hsafe. rewrite Ei in Hsafe. apply negb_true_iff, Nat.eqb_neq in Hsafe. cbn in Hsafe.
      eapply ok_became; eauto. intros hd tl ns Hx Lk HW.
      destruct (sort_ok dbl _ _ _ _ _ lt Hwf Lk) as (h' & zs & E & Hs & Hb); [by rewrite <-Hx, vls_length in Hsafe|].
      exists h', zs. split; [done|]. split; [|done].
      apply sorted_as_map in Hs. apply (sorted_as_ssort lt Hord) in Hs. unfold vls. rewrite Hs. by fold (vls ns); rewrite Hx.
    - (* LRev *)
      apply a_live; intros al xs Ei. apply a_give; intros HW'.
      eapply ok_updo; [exact Hw|exact Ei|]. intros hd tl ns Hx Lk HW.
      destruct (reverse_ok dbl _ _ _ _ _ Hwf Lk) as (h' & hd' & tl' & E & Lk' & Hu).
      eexists _, h', _. rewrite (bind_ok _ _ _ _ _ E). split; [done|]. split; [|exact Hu].
      apply rep_now; [done|by rewrite reverse_length|by rewrite vls_reverse, Hx].
    - (* LRemIf *)
      apply a_live; intros al xs Ei. apply a_give; intros HW'.
      eapply ok_updo; [exact Hw|exact Ei|]. intros hd tl ns Hx Lk HW.
      destruct (remove_if_ok dbl _ _ _ _ _ f Hwf Lk HW) as (h' & E & Lk' & Hu).
      eexists _, h', _. rewrite (bind_ok _ _ _ _ _ E). split; [|split; [|exact Hu]].
      + unfold ret. do 4 f_equal. rewrite <-(vls_length ns), <-(vls_length (kept f ns)), rest_kept, Hx.
        pose proof (rest_count f xs). lia.
      + apply rep_now; [done| |by rewrite rest_kept, Hx]. eapply W_vls; [by rewrite rest_kept, Hx|done].
    - (* LUniq *)
      apply a_live; intros al xs Ei. apply a_give; intros HW'.
      eapply ok_updo; [exact Hw|exact Ei|]. intros hd tl ns Hx Lk HW.
      destruct (unique_ok dbl _ _ _ _ _ r Hwf Lk HW) as (h' & E & Lk' & Hu).
      eexists _, h', _. rewrite (bind_ok _ _ _ _ _ E). split; [|split; [|exact Hu]].
      + unfold ret. do 4 f_equal. by rewrite <-(vls_length ns), <-(vls_length (unique_of r ns)), firsts_unique, Hx.
      + apply rep_now; [done| |by rewrite firsts_unique, Hx]. eapply W_vls; [by rewrite firsts_unique, Hx|done].
    - (* LSize *)
      apply a_look; intros al o Ei. eapply ok_obs; [exact Hw|exact Ei|]. intros l fp Hr. unfold ret.
      by rewrite (lrep_len _ _ _ _ Hr).
    - (* LEmptyQ *)
      apply a_look; intros al o Ei. eapply ok_obs; [exact Hw|exact Ei|]. intros l fp Hr. unfold ret, l_empty.
      rewrite (lrep_len _ _ _ _ Hr). cbn. by destruct (default [] o).
    - (* LMovedQ *)
      apply a_look; intros al o Ei. eapply ok_obs; [exact Hw|exact Ei|]. intros l fp Hr. unfold ret, l_moved.
      inversion Hr; subst; done.
    - (* LAlloc *)
      apply a_look; intros al o Ei. eapply ok_obs; [exact Hw|exact Ei|]. intros l fp Hr. unfold ret.
      by rewrite (lrep_al _ _ _ _ Hr).
    - (* LFront *)
      apply a_look; intros al o Ei. eapply ok_obs; [exact Hw|exact Ei|]. intros l fp Hr.
      inversion Hr as [al0 hd tl ns Lk HW|]; subst; [|done]. by rewrite (bind_ok _ _ _ _ _ (front_ok dbl _ _ _ _ _ Lk)).
    - (* LBack *)
      apply a_need; intros Hd. apply a_look; intros al o Ei. eapply ok_obs; [exact Hw|exact Ei|]. intros l fp Hr.
      inversion Hr as [al0 hd tl ns Lk HW|]; subst; [|done]. by rewrite (bind_ok _ _ _ _ _ (back_ok dbl _ _ _ _ _ Hd Lk)).
    - (* LFrontU *)
      apply a_live; intros al xs Ei. destruct xs as [|x xs]; [done|]. eapply ok_live; [exact Hw|exact Ei|].
      intros hd tl ns Hx Lk HW. destruct ns as [|[a v] ns]; [done|]. injection Hx as <- <-.
      by rewrite (bind_ok _ _ _ _ _ (front_unchecked_ok dbl _ _ _ _ _ _ _ Lk)).
    - (* LFrontUC *)
      apply a_live; intros al xs Ei. destruct xs as [|x xs]; [done|]. eapply ok_live; [exact Hw|exact Ei|].
      unfold contents in Hsafe. rewrite Ei in Hsafe.
      intros hd tl ns Hx Lk HW. destruct ns as [|[a v] ns]; [done|]. injection Hx as <- <-.
      destruct (bool_dec dbl true) as [Hd|Hd%not_true_is_false].
      + rewrite Hd in Hsafe. cbn in Hsafe. apply Nat.eqb_eq in Hsafe. destruct ns as [|? ns]; [|done].
        by rewrite (bind_ok _ _ _ _ _ (front_unchecked_const_dbl dbl _ _ _ _ _ [] _ Hd Lk)).
      + by rewrite (bind_ok _ _ _ _ _ (front_unchecked_const_fwd dbl _ _ _ _ _ _ _ Hd Lk)).
    - (* LBackU *)
      apply a_need; intros Hd. apply a_live; intros al xs Ei. destruct (last xs) as [x|] eqn:Hl; [|done].
      apply last_Some in Hl as [ys ->]. eapply ok_live; [exact Hw|exact Ei|]. intros hd tl ns Hx Lk HW.
      destruct ns as [|[a v] ns _] using rev_ind; [by destruct ys|]. rewrite vls_snoc in Hx.
      apply app_inj_tail in Hx as [_ ->].
      by rewrite (bind_ok _ _ _ _ _ (back_unchecked_ok dbl _ _ _ _ _ _ _ Hd Lk)).
    - (* LItems *)
      apply a_live; intros al xs Ei. eapply ok_live; [exact Hw|exact Ei|]. intros hd tl ns Hx Lk HW.
      rewrite (bind_ok _ _ _ _ _ (to_list_ok dbl _ _ _ _ _ Lk)). by rewrite Hx.
    - (* LItemsBack *)
      apply a_need; intros Hd. apply a_live; intros al xs Ei. eapply ok_live; [exact Hw|exact Ei|].
      intros hd tl ns Hx Lk HW. rewrite (bind_ok _ _ _ _ _ (to_list_back_ok dbl _ _ _ _ _ Hd Lk)). by rewrite Hx.
    - (* LIter *)
      apply a_need; intros Hc%orb_true_iff. apply a_live; intros al xs Ei. eapply ok_live; [exact Hw|exact Ei|].
      intros hd tl ns Hx Lk HW. assert (Hc' : dbl = true \/ Forall (fun c => c = true) calls).
      { destruct Hc as [->|Hc]; [by left|right; by apply forward_all]. }
      rewrite (bind_ok _ _ _ _ _ (iter_ok dbl _ _ _ _ _ calls Lk Hc')). by rewrite taken_ends, Hx.
    - (* LInto *)
      apply a_need; intros Hc%orb_true_iff. apply a_live; intros al xs Ei. eapply ok_updo; [exact Hw|exact Ei|].
      intros hd tl ns Hx Lk HW. assert (Hc' : dbl = true \/ Forall (fun c => c = true) calls).
      { destruct Hc as [->|Hc]; [by left|right; by apply forward_all]. }
      destruct (into_iter_ok dbl _ _ _ _ _ calls Hwf Lk HW Hc') as (h' & E & Hu).
      eexists _, h', _. rewrite (bind_ok _ _ _ _ _ E). split; [by rewrite taken_ends, Hx|]. split; [constructor|done].
    - (* LPrint *)
      apply a_live; intros al xs Ei. eapply ok_live; [exact Hw|exact Ei|]. intros hd tl ns Hx Lk HW.
      rewrite (bind_ok _ _ _ _ _ (print_ok _ _ _ _ _ Lk HW)). by rewrite Hx.
  Qed.
End Refine.
