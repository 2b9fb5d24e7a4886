(** * ListPipeProofs: programs with pipelines over lists follow their specification *)
From Verif Require Import Base World Machine IterProps ListModel ListSeg ListOps ListOps2 ListOps3 ListOps4 ListOps5
  SortSpec ListSort ListStep ListSpec ListRefine PipeModel Tri PipeProofs ListPipe.
Local Open Scope N_scope.

Section Proofs.
  Context {T : Type} (dbl : bool).
  Notation H := (heap (cell T)).
  Notation HM := (M H).
  Notation lok := (lok dbl).
  Notation lrep := (lrep dbl).
  Notation rel := (rel dbl).
  Notation asn := (H -> list N -> Prop).
  Implicit Types (h : H) (ns : list (N * T)) (xs : list T).

  (** ** The collection *)
  Definition Kp (k : lst * lptr) (vs : list T) : asn := fun h fp =>
    exists hd tl ms, k = (L 0 hd tl ms, PAddr (endp hd ms)) /\ vls ms = vs /\ lpre dbl h 0 hd ms [] tl /\
      nlen ms < W /\ fp = lfp hd ms tl.
  Definition Rp (l : lst) (vs : list T) : asn := fun h fp => lrep h l (0, Some vs) fp.
  Section Any.
    Context (rd : list N) (rdp : H -> Prop).
    Lemma Kp_ok k vs : asn_ok rd rdp (Kp k vs).
    Proof.
      split.
      - intros h h' fp _ (hd & tl & ms & -> & Hv & Lp & HW & ->) Hf. exists hd, tl, ms.
        do 2 (split; [done|]). split; [|done]. eapply lpre_frame; [|exact Lp]. intros a Ha. apply Hf.
        rewrite app_nil_r in Ha. apply elem_of_app. by left.
      - intros h fp a (hd & tl & ms & -> & Hv & Lp & HW & ->) Ha. eapply lpre_has; [exact Lp|].
        by rewrite app_nil_r.
    Qed.
    Lemma Rp_ok l vs : asn_ok rd rdp (Rp l vs).
    Proof.
      split.
      - intros h h' fp _ Hr Hf. eapply lrep_frame; [exact Hr|]. intros a Ha. apply Hf, elem_of_app. by left.
      - intros h fp a Hr Ha. by eapply lrep_dom.
    Qed.
    Definition room (n : nat) : Prop := N.of_nat n < W.
    Lemma room_le m n : (m <= n)%nat -> room n -> room m.
    Proof. unfold room. lia. Qed.
    Lemma new_tri : tri rd rdp emp (fi_new dbl) (fun k => Kp k []).
    Proof.
      intros h fp Hw _ _ Hem. unfold emp in Hem. subst fp. destruct (init_ok dbl h 0 Hw) as (hd & tl & h1 & E & Lk & U).
      eexists _, h1, _. unfold fi_new. rewrite (bind_ok _ _ _ _ _ E). split; [done|]. split; [|exact U].
      exists hd, tl, []. split; [done|]. split; [done|]. split; [by apply (lok_lpre dbl h1 0 hd [] [] tl)|]. by split.
    Qed.
    Lemma put_tri k vs v : room (S (length vs)) -> tri rd rdp (Kp k vs) (fi_put dbl k v) (fun k' => Kp k' (vs ++ [v])).
    Proof.
      intros Hroom h fp Hw _ _ (hd & tl & ms & -> & Hv & Lp & HW & ->).
      assert (Hp : has h (endp hd ms)) by (eapply lpre_has; [exact Lp|apply end_in]).
      destruct (append_ok dbl 0 [v] h (endp hd ms) Hw Hp) as (h' & ns & E & Hn & G).
      pose proof (lpre_grow dbl h h' 0 hd ms [] tl ns Hw Lp G) as Lp'.
      cbn [append] in E. rewrite (bind_ok _ _ _ _ _ (construct_ok h 0 v)) in E.
      destruct ns as [|[b w] [|? ?]]; try done. injection Hn as ->. cbn [endp] in E.
      eexists (L 0 hd tl (ms ++ [(b, v)]), PAddr b), h', (lfp hd (ms ++ [(b, v)]) tl). split; [|split].
      - unfold fi_put. rewrite (bind_ok _ _ _ _ _ (construct_ok h 0 v)).
        unfold bind in E |- *. destruct (set_next _ _ _ _) as [[[] h2]|]; [|done].
        unfold ret in E |- *. injection E as -> ->. f_equal. f_equal. f_equal.
        unfold L, set_len. cbn [l_head l_tail l_len l_al]. f_equal.
        assert (length ms = length vs) by (rewrite <-Hv; by rewrite vls_length). unfold room in Hroom.
        rewrite uadd_small by lia. rewrite app_length. simpl. lia.
      - exists hd, tl, (ms ++ [(b, v)]). rewrite endp_app. split; [done|]. rewrite vls_snoc, Hv. split; [done|].
        split; [done|]. split; [|done]. assert (length ms = length vs) by (rewrite <-Hv; by rewrite vls_length).
        unfold room in Hroom. rewrite app_length. simpl. lia.
      - eapply upd_equiv; [| |eapply (grow_upd dbl h h' 0 (endp hd ms) _ (lfp hd ms tl)); [done|exact G| |]].
        + done.
        + intros a. unfold lfp. rewrite ads_app. set_solver.
        + intros a Ha. eapply lpre_has; [exact Lp|]. by rewrite app_nil_r.
        + rewrite <-(app_nil_r ms) at 2. apply end_in.
    Qed.
    Lemma end_tri k vs : tri rd rdp (Kp k vs) (fi_end dbl k) (fun l => Rp l vs).
    Proof.
      intros h fp Hw _ _ (hd & tl & ms & -> & Hv & Lp & HW & ->).
      assert (Hp : has h (endp hd ms)) by (eapply lpre_has; [exact Lp|apply end_in]).
      assert (Ht : has h tl) by (eapply lpre_has; [exact Lp|apply tl_in]).
      eexists _, _, _. unfold fi_end. cbn [l_tail L].
      rewrite (bind_ok _ _ _ _ _ (set_next_ok dbl h _ _ Hp Ht)). split; [done|].
      pose proof (lpre_close dbl _ _ _ _ _ _ Lp) as Lk. cbn [startp] in Lk. rewrite app_nil_r in Lk.
      split; [by apply rep_now|].
      apply (lpre_upd dbl h 0 hd ms [] tl); [done|done| |]; intros a Ha; [|by rewrite app_nil_r in Ha].
      eapply lpre_has; [exact Lp|]. by rewrite app_nil_r.
    Qed.
  End Any.

  (** ** A list that is consumed *)
  Definition So (it : lst) (xs : list T) : asn := fun h fp =>
    exists al o, lrep h it (al, o) fp /\ xs = default [] o.
  Definition none : H -> Prop := fun _ => True.
  Lemma none_frame h h' : none h -> (forall a, a ∈ @nil N -> hmap h' !! a = hmap h !! a) -> none h'.
  Proof. done. Qed.
  Lemma none_dom h a : none h -> a ∈ @nil N -> is_Some (hmap h !! a).
  Proof. by intros _ ?%elem_of_nil. Qed.
  Lemma So_ok it xs : asn_ok [] none (So it xs).
  Proof.
    split.
    - intros h h' fp _ (al & o & Hr & Hx) Hf. exists al, o. split; [|done]. eapply lrep_frame; [exact Hr|].
      intros a Ha. apply Hf, elem_of_app. by left.
    - intros h fp a (al & o & Hr & Hx) Ha. by eapply lrep_dom.
  Qed.
  Lemma onext_tri it xs :
    tri [] none (So it xs) (into_next dbl it) (fun r => pur (snd r = head xs) (So (fst r) (tail xs))).
  Proof.
    intros h fp Hw _ _ (al & o & Hr & ->). unfold into_next. destruct o as [xs|].
    - destruct (lrep_inv dbl _ _ _ _ _ Hr) as (hd & tl & ns & -> & <- & Lk & HW & ->). cbn [l_len L default from_option id].
      destruct ns as [|[a v] ns].
      + eexists (_, _), h, _. split; [done|]. split.
        * split; [done|]. exists al, (Some []). by split.
        * apply upd_refl; [done|]. intros b Hb. by eapply lok_has.
      + destruct (N.eqb_spec (nlen ((a, v) :: ns)) 0) as [E0|_]; [done|].
        destruct (pop_front_ok dbl _ _ _ _ _ _ _ Hw Lk HW) as (h1 & E1 & Lk1 & U1).
        rewrite (bind_ok _ _ _ _ _ (front_ok dbl _ _ _ _ _ Lk)).
        rewrite (bind_ok _ _ _ _ _ E1). eexists (_, _), h1, _. split; [done|]. split; [|exact U1].
        split; [done|]. exists al, (Some (vls ns)). split; [|done]. constructor; [done|]. cbn [length] in HW. lia.
    - destruct (lrep_inv_none dbl _ _ _ _ Hr) as [-> ->]. cbn [l_len N.eqb].
      eexists (_, _), h, []. split; [done|]. split.
      + split; [done|]. exists al, None. by split.
      + apply upd_refl; [done|]. by intros b ?%elem_of_nil.
  Qed.
  Lemma odel_tri it xs : tri [] none (So it xs) (odel dbl it) (fun _ => emp).
  Proof.
    intros h fp Hw _ _ (al & o & Hr & ->). destruct (destroy_rep dbl _ _ _ _ Hw Hr) as (l' & h' & E & U).
    eexists _, h', []. unfold odel. rewrite (bind_ok _ _ _ _ _ E). by split.
  Qed.
  Lemma ocopy_tri it xs : tri [] none (So it xs) (l_copy dbl it) (fun it' => star (So it' xs) (So it xs)).
  Proof.
    intros h fp Hw _ _ (al & o & Hr & ->).
    destruct (copy_rep dbl _ _ _ _ (l_al it) Hw Hr) as (hd & tl & ms & h' & E & Hv & Lk & U).
    exists (L (l_al it) hd tl ms), h', (lfp hd ms tl ++ fp). split; [done|].
    assert (Hd : forall a, a ∈ fp -> is_Some (hmap h !! a)) by (intros a Ha; by eapply lrep_dom).
    split.
    - exists (lfp hd ms tl), fp. split; [done|]. split; [|split].
      + intros a Ha Hb. destruct (upd_new _ _ _ _ U a Ha) as [Hi|Hi]; [by apply elem_of_nil in Hi|].
        assert (a < hnext h) by by apply Hw, Hd. lia.
      + exists (l_al it), (Some (default [] o)). split; [|done]. apply rep_now; [done| |done].
        apply (W_vls ms (default [] o)); [done|]. pose proof (lrep_len dbl _ _ _ _ Hr) as HL. cbn [snd] in HL.
        destruct o as [xs|]; [|done]. destruct (lrep_inv dbl _ _ _ _ _ Hr) as (? & ? & ns & _ & <- & _ & HW & _).
        cbn [default from_option id]. by rewrite vls_length.
      + exists al, o. split; [|done]. eapply lrep_frame; [exact Hr|]. intros a Ha.
        apply (upd_frame _ _ _ _ U); [by apply Hw, Hd|]. by intros ?%elem_of_nil.
    - eapply (upd_frame_r h h' [] (lfp hd ms tl) fp Hw U). intros a Ha. split; [by apply Hd|]. by intros ?%elem_of_nil.
  Qed.
  Lemma omove_ent it xs : ent (So it xs) (So (fst (l_move it)) xs).
  Proof. apply ent_refl. Qed.
  Lemma oleft_tri it : tri [] none emp (odel dbl (snd (l_move it))) (fun _ => emp).
  Proof.
    intros h fp Hw _ _ Hem. unfold emp in Hem. subst fp. eexists _, h, []. split; [done|]. split; [done|].
    apply upd_refl; [done|]. by intros b ?%elem_of_nil.
  Qed.

  (** ** A list that is looked at *)
  Section Borrow.
    Context (al hd tl : N) (ns : list (N * T)).
    Notation rd := (lfp hd ns tl).
    Notation rdp := (fun h => lok h al hd ns tl).
    Definition Sb (it : lptr * lptr) (xs : list T) : asn := fun h fp =>
      fp = [] /\ exists n1 n2, ns = n1 ++ n2 /\ it = (PAddr (startp n2 tl), PAddr tl) /\ xs = vls n2.
    Lemma b_frame h h' : lok h al hd ns tl -> (forall a, a ∈ rd -> hmap h' !! a = hmap h !! a) -> lok h' al hd ns tl.
    Proof. intros Lk Hf. by eapply lok_frame. Qed.
    Lemma b_dom h a : lok h al hd ns tl -> a ∈ rd -> is_Some (hmap h !! a).
    Proof. intros. by eapply lok_has. Qed.
    Lemma Sb_ok it xs : asn_ok rd rdp (Sb it xs).
    Proof.
      split.
      - intros h h' fp _ Hs _. exact Hs.
      - intros h fp a [-> _]. by intros ?%elem_of_nil.
    Qed.
    Lemma refl_nil h : hwf h -> upd h h [] [].
    Proof. intros Hw. apply upd_refl; [done|]. by intros b ?%elem_of_nil. Qed.
    Lemma bnext_tri it xs :
      tri rd rdp (Sb it xs) (it_next it) (fun r => pur (snd r = head xs) (Sb (fst r) (tail xs))).
    Proof.
      intros h fp Hw Lk _ [-> (n1 & n2 & Hn & -> & ->)].
      assert (Lk2 : lok h al hd (n1 ++ n2 ++ []) tl) by (by rewrite app_nil_r, <-Hn).
      pose proof (it_next_ok dbl h al hd n1 n2 [] tl Lk2) as E. rewrite app_nil_r in E. cbn [startp] in E.
      destruct n2 as [|[a v] n2].
      - eexists _, h, []. split; [exact E|]. split; [|by apply refl_nil]. split; [done|]. split; [done|].
        exists n1, []. by rewrite Hn.
      - eexists _, h, []. split; [exact E|]. split; [|by apply refl_nil]. split; [done|]. split; [done|].
        exists (n1 ++ [(a, v)]), n2. cbn [fst]. rewrite app_nil_r, <-app_assoc. by rewrite Hn.
    Qed.
    Lemma bdel_tri it xs : tri rd rdp (Sb it xs) (bdel it) (fun _ => emp).
    Proof. intros h fp Hw Lk _ [-> _]. eexists _, h, []. split; [done|]. split; [done|by apply refl_nil]. Qed.
    Lemma bcopy_tri it xs : tri rd rdp (Sb it xs) (bcopy it) (fun it' => star (Sb it' xs) (Sb it xs)).
    Proof.
      intros h fp Hw Lk _ [-> Hs]. eexists _, h, []. split; [done|]. split; [|by apply refl_nil].
      exists [], []. split; [done|]. split; [by intros a ?%elem_of_nil|]. by split.
    Qed.
    Lemma bmove_ent it xs : ent (Sb it xs) (Sb (fst (bmove it)) xs).
    Proof. apply ent_refl. Qed.
    Lemma bleft_tri it : tri rd rdp emp (bdel (snd (bmove it))) (fun _ => emp).
    Proof. intros h fp Hw Lk _ Hem. unfold emp in Hem. subst fp. eexists _, h, []. split; [done|]. split; [done|by apply refl_nil]. Qed.
  End Borrow.

  (** ** The terminals, whatever the source *)
  Section Src.
    Context {It : Type} (rd : list N) (rdp : H -> Prop).
    Context (rdp_frame : forall h h', rdp h -> (forall a, a ∈ rd -> hmap h' !! a = hmap h !! a) -> rdp h').
    Context (rdp_dom : forall h a, rdp h -> a ∈ rd -> is_Some (hmap h !! a)).
    Context (inext : It -> HM (It * option T)) (icopy : It -> HM It) (imove : It -> It * It) (idel : It -> HM unit).
    Context (Sr : It -> list T -> asn) (Sr_ok : forall it xs, asn_ok rd rdp (Sr it xs)).
    Context (next_tri : forall it xs,
      tri rd rdp (Sr it xs) (inext it) (fun r => pur (snd r = head xs) (Sr (fst r) (tail xs)))).
    Context (del_tri : forall it xs, tri rd rdp (Sr it xs) (idel it) (fun _ => emp)).
    Context (move_ent : forall it xs, ent (Sr it xs) (Sr (fst (imove it)) xs)).
    Context (left_tri : forall it, tri rd rdp emp (idel (snd (imove it))) (fun _ => emp)).
    Context (copy_tri : forall it xs, tri rd rdp (Sr it xs) (icopy it) (fun it' => star (Sr it' xs) (Sr it xs))).
    Context (bar : bool) (ps : list (padapt (V := T))).

    Lemma run_term_ok t it xs h fp : hwf h -> rdp h -> sep fp rd -> Sr it xs h fp -> (length xs <= size (hmap h))%nat ->
      exists h', run_term inext icopy imove idel bar ps t it h = Ok (value_of t (denote ps xs), h') /\ upd h h' fp [].
    Proof.
      intros Hw Hr Hs Hp Hl. unfold run_term. rewrite (bind_ok _ _ _ _ _ (fuel_ok h)).
      assert (Hf : (length xs < S (size (hmap h)))%nat) by lia.
      destruct t as [k a|k|q|n]; cbn [value_of].
      - edestruct (run_fold_tri (MM := heap_mem) rd rdp rdp_frame rdp_dom inext icopy imove idel Sr Sr_ok next_tri del_tri move_ent left_tri copy_tri
          bar _ ps xs Hf k a it h fp Hw Hr Hs Hp) as (r & h' & fp' & E & [-> Hem] & U). unfold emp in Hem. subst fp'.
        exists h'. by rewrite (bind_ok _ _ _ _ _ E).
      - edestruct (run_reduce_tri (MM := heap_mem) rd rdp rdp_frame rdp_dom inext icopy imove idel Sr Sr_ok next_tri del_tri move_ent left_tri copy_tri
          bar _ ps xs Hf k it h fp Hw Hr Hs Hp) as (r & h' & fp' & E & [-> Hem] & U). unfold emp in Hem. subst fp'.
        exists h'. by rewrite (bind_ok _ _ _ _ _ E).
      - edestruct (run_find_tri (MM := heap_mem) rd rdp rdp_frame rdp_dom inext icopy imove idel Sr Sr_ok next_tri del_tri move_ent left_tri copy_tri
          bar _ ps xs Hf q it h fp Hw Hr Hs Hp) as (r & h' & fp' & E & [-> Hem] & U). unfold emp in Hem. subst fp'.
        exists h'. by rewrite (bind_ok _ _ _ _ _ E).
      - edestruct (run_take_tri (MM := heap_mem) rd rdp rdp_frame rdp_dom inext icopy imove idel Sr Sr_ok next_tri del_tri move_ent left_tri copy_tri
          bar _ ps xs Hf n it h fp Hw Hr Hs Hp) as (r & h' & fp' & E & [-> Hem] & U). unfold emp in Hem. subst fp'.
        exists h'. by rewrite (bind_ok _ _ _ _ _ E).
    Qed.
    Lemma run_coll_ok it xs h fp : hwf h -> rdp h -> sep fp rd -> Sr it xs h fp -> (length xs <= size (hmap h))%nat ->
      nlen (denote ps xs) < W ->
      exists l h' fp', run_coll dbl inext icopy imove idel bar ps it h = Ok (l, h') /\
        lrep h' l (0, Some (denote ps xs)) fp' /\ upd h h' fp fp'.
    Proof.
      intros Hw Hr Hs Hp Hl HW. unfold run_coll. rewrite (bind_ok _ _ _ _ _ (fuel_ok h)).
      assert (Hf : (length xs < S (size (hmap h)))%nat) by lia.
      exact (run_collect_tri (MM := heap_mem) rd rdp rdp_frame rdp_dom inext icopy imove idel Sr Sr_ok next_tri del_tri move_ent left_tri copy_tri
          bar _ ps xs Hf (fi_new dbl) (fi_put dbl) (fi_end dbl) Kp Rp room (Kp_ok rd rdp) (Rp_ok rd rdp) room_le
          (new_tri rd rdp) (put_tri rd rdp) (end_tri rd rdp) HW it h fp Hw Hr Hs Hp).
    Qed.
  End Src.

  Lemma So_size it al o h fp : lrep h it (al, o) fp -> (length (default [] o) <= size (hmap h))%nat.
  Proof.
    intros Hr. destruct o as [xs|]; [|simpl; lia].
    destruct (lrep_inv dbl _ _ _ _ _ Hr) as (hd & tl & ns & _ & <- & Lk & _ & _). cbn [default from_option id].
    rewrite vls_length. pose proof (lok_fuel dbl _ _ _ _ _ Lk). lia.
  Qed.

  (** ** Programs *)
  Lemma it_new_ok h al hd ns tl : lok h al hd ns tl -> it_new (L al hd tl ns) h = Ok ((PAddr (startp ns tl), PAddr tl), h).
  Proof. intros Lk. unfold it_new. cbn [l_head l_tail L]. by rewrite (bind_ok _ _ _ _ _ (next_at dbl h al hd [] ns tl Lk)). Qed.
  Lemma Sb_new tl ns h : Sb tl ns (PAddr (startp ns tl), PAddr tl) (vls ns) h [].
  Proof. split; [done|]. by exists [], ns. Qed.
  (** Nothing was allocated that is still there, and nothing that was there
      was touched. *)
  Lemma ok_obs_upd w sp m i f al xs x : world_ok_with lrep w sp m -> sp !! i = Some (al, Some xs) ->
    (forall hd tl ns, vls ns = xs -> lok (w_heap w) al hd ns tl -> nlen ns < W ->
       exists h', f (L al hd tl ns) (w_heap w) = Ok (x, h') /\ upd (w_heap w) h' [] []) ->
    agrees rel (l_obs i f w) (SOk sp x).
  Proof.
    intros Hw Hi Hf. destruct (world_ok_lookup_spec _ _ _ _ _ _ Hw Hi) as (e & Hm & He & Hv & Hr).
    destruct (lrep_inv dbl _ _ _ _ _ Hr) as (hd & tl & ns & Ho & Hx & Lk & HW & Hfp).
    destruct (Hf hd tl ns Hx Lk HW) as (h' & E & Hu).
    unfold l_obs, bind, wget. rewrite Hv, Ho. unfold lift. rewrite E. simpl.
    assert (Hd : forall a, a ∈ e_fp e -> is_Some (hmap (w_heap w) !! a)) by (intros a Ha; by eapply lrep_dom).
    assert (Hwf : hwf (w_heap w)) by apply Hw.
    eexists. split; [done|].
    pose proof (world_upd1 _ (lrep_frame dbl) (lrep_dom dbl) w sp m i e h' (e_o e) (al, Some xs) (e_fp e) Hw Hm) as Hnew.
    assert (Hsp : <[i := (al, Some xs)]> sp = sp) by by apply insert_id.
    assert (Hvs : <[i := e_o e]> (w_vars w) = w_vars w) by by apply insert_id.
    rewrite Hsp, Hvs in Hnew. eexists. apply Hnew.
    - pose proof (upd_frame_r _ _ _ _ (e_fp e) Hwf Hu) as Hu2. apply Hu2.
      intros a Ha. split; [by apply Hd|]. by intros ?%elem_of_nil.
    - eapply lrep_frame; [exact Hr|]. intros a Ha. apply (upd_frame _ _ _ _ Hu); [by apply Hwf, Hd|].
      by intros ?%elem_of_nil.
  Qed.

  Lemma pipe_step_refines (sp : gmap nat (N * option (list T))) w o : pordered o -> rel sp w -> agrees rel (pipe_step dbl o w) (pspec dbl sp o).
  Proof.
    intros Hord Hrel. destruct o as [o|i bar ps t|i bar ps j|i bar ps t|i bar ps j|i j]; cbn [pipe_step pspec pordered] in *.
    { by apply list_step_refines. }
    all: destruct Hrel as [m Hw]; assert (Hwf : hwf (w_heap w)) by apply Hw.
    - apply a_live; intros al xs Ei. eapply ok_obs_upd; [exact Hw|exact Ei|]. intros hd tl ns <- Lk HW.
      rewrite (bind_ok _ _ _ _ _ (it_new_ok _ _ _ _ _ Lk)).
      eapply (run_term_ok (lfp hd ns tl) (fun h => lok h al hd ns tl) (b_frame al hd tl ns) (b_dom al hd tl ns)
        it_next bcopy bmove bdel (Sb tl ns) (Sb_ok al hd tl ns) (bnext_tri al hd tl ns) (bdel_tri al hd tl ns)
        (bmove_ent tl ns) (bleft_tri al hd tl ns) (bcopy_tri al hd tl ns)); [done|done| |by apply Sb_new|].
      + by intros a ?%elem_of_nil.
      + rewrite vls_length. pose proof (lok_fuel dbl _ _ _ _ _ Lk). lia.
    - apply a_fresh; intros Ej. apply a_live; intros al xs Ei. apply a_give; intros HWd.
      destruct (world_ok_lookup_spec _ _ _ _ _ _ Hw Ei) as (e & Hm & He & Hv & Hr).
      destruct (lrep_inv dbl _ _ _ _ _ Hr) as (hd & tl & ns & Ho & <- & Lk & HW & Hfp).
      destruct (world_ok_none _ _ _ _ _ Hw Ej) as [Hmj Hwj].
      edestruct (run_coll_ok (lfp hd ns tl) (fun h => lok h al hd ns tl) (b_frame al hd tl ns) (b_dom al hd tl ns)
        it_next bcopy bmove bdel (Sb tl ns) (Sb_ok al hd tl ns) (bnext_tri al hd tl ns) (bdel_tri al hd tl ns)
        (bmove_ent tl ns) (bleft_tri al hd tl ns) (bcopy_tri al hd tl ns) bar ps
        (PAddr (startp ns tl), PAddr tl) (vls ns) (w_heap w) [] Hwf Lk) as (l & h' & fp' & E & Hr' & Hu);
        [by intros a ?%elem_of_nil|by apply Sb_new| |done|].
      { rewrite vls_length. pose proof (lok_fuel dbl _ _ _ _ _ Lk). lia. }
      unfold bind at 1, wget. rewrite Hv, Ho. unfold l_mk, bind, wnew. rewrite Hwj. unfold lift.
      fold (@bind H). rewrite (it_new_ok _ _ _ _ _ Lk). rewrite E. simpl.
      eexists. split; [done|]. eexists. simpl.
      eapply (world_new _ (lrep_frame dbl) (lrep_dom dbl)); [exact Hw|done|exact Hu|done].
    - apply a_look; intros al o Ei.
      destruct (world_ok_lookup_spec _ _ _ _ _ _ Hw Ei) as (e & Hm & He & Hv & Hr).
      edestruct (run_term_ok [] none none_frame none_dom (into_next dbl) (l_copy dbl) l_move (odel dbl)
        So So_ok onext_tri odel_tri omove_ent oleft_tri ocopy_tri bar ps t (e_o e) (default [] o) (w_heap w) (e_fp e)
        Hwf I) as (h' & E & Hu).
      { by intros a _ ?%elem_of_nil. } { by exists al, o. } { by eapply So_size. }
      unfold l_updo, bind, wget. rewrite Hv. unfold lift, l_move. unfold l_move in E. rewrite E. simpl.
      eexists. split; [done|]. eexists. simpl.
      eapply (world_upd1 _ (lrep_frame dbl) (lrep_dom dbl)); [exact Hw|done|exact Hu|].
      rewrite (lrep_moved dbl _ _ _ _ Hr). constructor.
    - apply a_fresh; intros Ej. apply a_look; intros al o Ei. apply a_give; intros HWd.
      destruct (world_ok_lookup_spec _ _ _ _ _ _ Hw Ei) as (e & Hm & He & Hv & Hr).
      destruct (world_ok_none _ _ _ _ _ Hw Ej) as [Hmj Hwj].
      edestruct (run_coll_ok [] none none_frame none_dom (into_next dbl) (l_copy dbl) l_move (odel dbl)
        So So_ok onext_tri odel_tri omove_ent oleft_tri ocopy_tri bar ps (e_o e) (default [] o) (w_heap w) (e_fp e)
        Hwf I) as (l & h' & fp' & E & Hr' & Hu).
      { by intros a _ ?%elem_of_nil. } { by exists al, o. } { by eapply So_size. } { done. }
      unfold bind at 1, wnew. rewrite Hwj. unfold bind, wget. rewrite Hv. unfold lift, l_move. unfold l_move in E.
      rewrite E. simpl.
      eexists. split; [done|]. eexists. simpl.
      eapply (world_new2 _ (lrep_frame dbl) (lrep_dom dbl)); [exact Hw|done|exact Hm| | |exact Hr'|].
      3:{ rewrite (lrep_moved dbl _ _ _ _ Hr). constructor. }
      + by rewrite app_nil_r.
      + by intros a _ ?%elem_of_nil.
    - apply a_fresh; intros Ej. apply a_look; intros al o Ei. apply a_give; intros HWd.
      destruct (world_ok_lookup_spec _ _ _ _ _ _ Hw Ei) as (e & Hm & He & Hv & Hr).
      destruct (world_ok_none _ _ _ _ _ Hw Ej) as [Hmj Hwj].
      assert (Hl : (length (default [] o) < S (size (hmap (w_heap w))))%nat).
      { pose proof (So_size _ _ _ _ _ Hr). lia. }
      edestruct (by_ref_tri (MM := heap_mem) [] none none_frame none_dom (odel dbl) So odel_tri (fun r => Rp r (denote [] (default [] o)))
        (fun r => Rp_ok [] none r _) _ (default [] o)
        (collect_body_tri (MM := heap_mem) [] none none_frame none_dom (into_next dbl) (l_copy dbl) l_move (odel dbl) So So_ok onext_tri
          odel_tri _ [] (default [] o) Hl
          (fi_new dbl) (fi_put dbl) (fi_end dbl) Kp Rp room (Kp_ok [] none) (Rp_ok [] none) room_le
          (new_tri [] none) (put_tri [] none) (end_tri [] none) HWd) (e_o e) (w_heap w) (e_fp e) Hwf I)
        as (l & h' & fp' & E & Hr' & Hu).
      { by intros a _ ?%elem_of_nil. } { by exists al, o. }
      unfold bind at 1, wnew. rewrite Hwj. unfold bind at 1, wget. rewrite Hv. cbn [l_move].
      unfold bind at 1, lift. rewrite (bind_ok _ _ _ _ _ (fuel_ok (w_heap w))). change (pnext (into_next dbl) (S (size (hmap (w_heap w)))) []) with (into_next (T := T) dbl) in E.
      rewrite E. simpl.
      eexists. split; [done|]. eexists. simpl.
      eapply (world_new2 _ (lrep_frame dbl) (lrep_dom dbl)); [exact Hw|done|exact Hm| | |exact Hr'|].
      3:{ rewrite (lrep_moved dbl _ _ _ _ Hr). constructor. }
      + by rewrite app_nil_r.
      + by intros a _ ?%elem_of_nil.
  Qed.
End Proofs.
