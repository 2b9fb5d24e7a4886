(** * AllProps: C80, programs with lists, vectors and arrays and pipelines
      between them; C30 for any iterator *)
From Verif Require Import Base World Machine IterSpec IterProps ListModel ListSeg ListStep ListSpec ListRefine PipeModel Tri
  PipeProofs ListPipe ListPipeProofs.
From Verif Require VecModel VecSpec VecProofs VecRefine VecProps.
From Verif Require Import MixPipe MixProofs MixProps RangeModel RangeProps Utf8Model Utf8Spec Utf8Props AllPipe.
Local Open Scope N_scope.

(** ** C30, [Array::from_iter] over any iterator *)
Section Any.
  Context {St V It : Type} (nn : nat) (vinit : V) (nx : It -> M St (It * option V)).
  (** Calling [next()] until it gives nothing, at most [n] times. *)
  Fixpoint calls (n : nat) (it : It) : M St (It * list V) :=
    match n with
    | O => ret (it, [])
    | S n =>
        '(it', o) <-- nx it ;;
        match o with None => ret (it', []) | Some x => '(it2, xs) <-- calls n it' ;; ret (it2, x :: xs) end
    end.
  Notation cells ds m := ((AVal <$> ds) ++ replicate m (AVal vinit)).
  Lemma cells_set ds m pos x : length ds = pos -> (pos + S m = nn)%nat ->
    a_set nn (cells ds (S m)) (N.of_nat pos) x = Ok (cells (ds ++ [x]) m).
  Proof.
    intros Hd Hp. unfold a_set. destruct (N.leb_spec (N.of_nat nn) (N.of_nat pos)); [lia|]. rewrite Nat2N.id.
    rewrite lookup_app_r by (rewrite fmap_length; lia). rewrite fmap_length, Hd, Nat.sub_diag. cbn [replicate lookup list_lookup].
    f_equal. rewrite insert_app_r_alt by (rewrite fmap_length; lia). rewrite fmap_length, Hd, Nat.sub_diag. cbn [list_insert insert].
    by rewrite fmap_app, <-(assoc_L app).
  Qed.
  Lemma arr_loop_calls : forall m fuel pos next it ds h, (m < fuel)%nat -> (pos + m = nn)%nat -> length ds = pos ->
    arr_loop nn nx fuel pos next it (cells ds m) h =
      match next with
      | None => Ok ((it, cells ds m), h)
      | Some x => ('(it', xs) <-- calls m it ;; ret (it', cells (ds ++ take m (x :: xs)) (m - S (length xs)))) h
      end.
  Proof.
    induction m as [|m IH]; intros fuel pos next it ds h Hf Hp Hd; (destruct fuel as [|fuel]; [lia|]); cbn [arr_loop];
      (destruct next as [x|]; [|done]).
    - destruct (Nat.ltb_spec pos nn); [lia|]. cbv [bind ret calls]. cbn [take]. by rewrite (app_nil_r ds).
    - destruct (Nat.ltb_spec pos nn); [|lia]. rewrite (cells_set ds m pos x Hd Hp). cbn [calls]. cbv [bind lift_o].
      destruct (nx it h) as [[[it' o] h']|e]; [|done].
      rewrite IH by (rewrite ?app_length; cbn [length]; lia). destruct o as [y|].
      + cbv [bind]. destruct (calls m it' h') as [[[it2 xs] h2]|e]; [|done]. cbv [ret]. cbn [take length].
        rewrite <-(assoc_L app). done.
      + unfold ret. cbn [take length]. rewrite take_nil. by rewrite Nat.sub_succ, Nat.sub_0_r.
  Qed.
  (** What [Array<T, N>::from_iter(it)] does with any iterator whatsoever,
      finite or not, whatever its [next()] does: [next()] is called until it
      gives nothing, at most [N + 1] times; the first [N] items are in the
      array, in order, and the elements behind them are value-initialised. *)
  Theorem C30_any_iterator it h :
    arr_collect nn vinit nx it h =
      ('(it', xs) <-- calls (S nn) it ;;
       ret (it', (AVal <$> take nn xs) ++ replicate (nn - length xs) (AVal vinit))) h.
  Proof.
    unfold arr_collect. cbn [calls]. cbv [bind]. destruct (nx it h) as [[[it' o] h']|e]; [|done].
    unfold a_value. rewrite (arr_loop_calls nn (S (S nn)) 0 o it' []) by (cbn; lia). destruct o as [x|].
    - cbv [bind]. destruct (calls nn it' h') as [[[it2 xs] h2]|e]; done.
    - unfold ret. rewrite take_nil. cbn [length app fmap list_fmap]. by rewrite Nat.sub_0_r.
  Qed.
End Any.
(** An iterator without an end, that counts its calls: after an [Array<_, 3>]
    was made of it, four calls were made. *)
Example C30_any_iterator_ex :
  arr_collect 3 0 (fun it : N => (fun h : N => Ok ((it + 1, Some (10 * it)), h + 1))) 5 0 =
    Ok ((9, [AVal 50; AVal 60; AVal 70]), 4).
Proof. rewrite C30_any_iterator. reflexivity. Qed.

(** ** Sources that own no memory *)
Section Plain.
  Context {H Ad V It : Type} {MM : mem H Ad}.
  Context (nx : It -> outcome (It * option V)) (cp : It -> outcome It) (mv : It -> It * It) (G : It -> list V -> Prop).
  Context (Hn : forall it xs, G it xs -> exists it', nx it = Ok (it', head xs) /\ G it' (tail xs)).
  Context (Hc : forall it xs, G it xs -> cp it = Ok it).
  Context (Hm : forall it xs, G it xs -> G (fst (mv it)) xs).
  Definition Sp (it : It) (xs : list V) : H -> list Ad -> Prop := fun h fp => fp = [] /\ G it xs.
  Lemma refl_nil (h : H) : mwf h -> mupd h h [] [].
  Proof using. intros Hw. apply mupd_refl; [done|]. by intros b ?%elem_of_nil. Qed.
  Lemma plain_src : is_src (H := H) [] (fun _ => True) (fun i => lift_o (nx i)) (fun i => lift_o (cp i)) mv (fun _ => ret tt) Sp.
  Proof using Hn Hc Hm.
    split; [split|..].
    - done.
    - by intros h a _ ?%elem_of_nil.
    - intros it xs. split.
      + intros h h' fp _ Hs _. exact Hs.
      + intros h fp a [-> _]. by intros ?%elem_of_nil.
    - intros it xs h fp Hw _ _ [-> Hg]. destruct (Hn _ _ Hg) as (it' & E & Hg'). unfold lift_o. rewrite E.
      eexists (_, _), h, []. split; [done|]. split; [|by apply refl_nil]. by split.
    - intros it xs h fp Hw _ _ [-> _]. eexists _, h, []. split; [done|]. split; [done|by apply refl_nil].
    - intros it xs h fp [-> Hg]. exists []. split; [done|]. split; [done|]. by apply Hm.
    - intros it h fp Hw _ _ Hem. unfold emp in Hem. subst fp. eexists _, h, []. split; [done|]. split; [done|by apply refl_nil].
    - intros it xs h fp Hw _ _ [-> Hg]. unfold lift_o. rewrite (Hc _ _ Hg). eexists _, h, []. split; [done|].
      split; [|by apply refl_nil]. exists [], []. split; [done|]. split; [by intros a ?%elem_of_nil|]. by split.
  Qed.
End Plain.

(** ** A pipeline into an array *)
Section ArrTri.
  Context {H Ad V It : Type} {MM : mem H Ad}.
  Notation asn := (H -> list Ad -> Prop).
  Context (rd : list Ad) (rdp : H -> Prop) (nx : It -> M H (It * option V)) (cp : It -> M H It) (mv : It -> It * It)
    (dl : It -> M H unit) (Sr : It -> list V -> asn).
  Context (HS : is_src rd rdp nx cp mv dl Sr) (nn : nat) (vinit : V).
  Notation cells ds m := ((AVal <$> ds) ++ replicate m (AVal vinit)).
  Lemma arr_loop_tri D b nx' : nexts rd rdp Sr D b nx' -> forall m fuel pos next it xs ds,
    (m < fuel)%nat -> (pos + m = nn)%nat -> length ds = pos -> (length xs <= b)%nat ->
    tri rd rdp (Sr it xs) (arr_loop nn nx' fuel pos next it (cells ds m))
      (leaves Sr (pureQ (match next with
                         | None => cells ds m
                         | Some x => cells (ds ++ take m (x :: D xs)) (m - S (length (D xs)))
                         end))).
  Proof using HS.
    destruct HS as [[Hfr Hd Hok Hnx Hdl] Hmv Hl Hcp].
    intros Hnx'. induction m as [|m IH]; intros fuel pos next it xs ds Hf Hp Hds Hb; (destruct fuel as [|fuel]; [lia|]);
      cbn [arr_loop]; (destruct next as [x|]; [|apply tri_ret; [apply Hok|]; intros h fp Hs; by eapply leaves_pure]).
    - destruct (Nat.ltb_spec pos nn); [lia|]. cbn [take]. rewrite (app_nil_r ds).
      apply tri_ret; [apply Hok|]. intros h fp Hs. by eapply leaves_pure.
    - destruct (Nat.ltb_spec pos nn); [|lia]. rewrite (cells_set nn vinit ds m pos x Hds Hp).
      eapply (tri_bind rd rdp Hfr Hd _ _ (fun r => pur (r = cells (ds ++ [x]) m) (Sr it xs))).
      { apply (tri_ret rd rdp (Sr it xs) (cells (ds ++ [x]) m)); [apply Hok|]. intros h fp Hs. exists fp. by split. }
      intros r. apply tri_pur. intros ->.
      eapply (tri_bind rd rdp Hfr Hd); [by apply Hnx'|]. intros [it' o]. apply tri_nexted. cbn [fst snd]. intros xs' -> HD Hl' Hlt.
      eapply tri_post; [apply (IH fuel (S pos)); [lia|lia|rewrite app_length; cbn; lia|lia]|].
      intros r. rewrite HD. destruct (D xs) as [|y ys]; cbn [head tail take length].
      + rewrite take_nil, Nat.sub_succ, Nat.sub_0_r. apply ent_refl.
      + rewrite <-(assoc_L app). apply ent_refl.
  Qed.
  Lemma array_tri bar ps fuel xs it : (length xs < fuel)%nat ->
    tri rd rdp (Sr it xs) (run_array nn vinit nx cp mv dl fuel bar ps it)
      (pureQ ((AVal <$> take nn (denote ps xs)) ++ replicate (nn - length (denote ps xs)) (AVal vinit))).
  Proof using HS.
    intros Hf. pose proof HS as [[Hfr Hd Hok Hnx Hdl] Hmv Hl Hcp]. unfold run_array.
    apply (build_tri rd rdp Hfr Hd cp mv dl Sr Hok Hdl); [apply pureQ_ok|done..|]. intros it'.
    apply (by_copy_move_tri rd rdp Hfr Hd cp mv dl Sr Hok Hdl); [intros; apply pureQ_ok|done..|]. intros it2.
    assert (Hp : nexts rd rdp Sr (denote ps) (length xs) (pnext nx fuel ps)).
    { apply (pnext_tri rd rdp Hfr Hd nx cp mv dl Sr Hok Hnx Hdl). lia. }
    unfold arr_collect. eapply (tri_bind rd rdp Hfr Hd); [by apply Hp|]. intros [it3 o]. apply tri_nexted. cbn [fst snd].
    intros xs' -> HD Hle Hlt.
    eapply tri_post; [apply (arr_loop_tri (denote ps) (length xs) _ Hp nn (S (S nn)) 0%nat _ it3 xs' []); cbn; lia|].
    intros r. rewrite HD. destruct (denote ps xs) as [|y ys]; cbn [head tail length app].
    - rewrite take_nil, Nat.sub_0_r. apply ent_refl.
    - apply ent_refl.
  Qed.
End ArrTri.

(** ** Programs *)
Section Main.
  Context {T : Type} (dbl : bool) (sz lmax : N) (dflt : T) (eqb : T -> T -> bool) (cmp : T -> T -> comparison).
  Context (nn : nat) (dinit : acell T) (vinit : T).
  Context (Hsz : 1 <= sz) (Hlim : sz * (2 * lmax + 2) <= alloc_max) (Hnn : (Z.of_nat nn <= imax usize_t)%Z).
  Notation H1 := (heap (ListModel.cell T)).
  Notation H2 := (heap (VecModel.block T)).
  Notation HM := (M (H1 * H2)).
  Notation lstate := (gmap nat (N * option (list T))).
  Notation vstate := (gmap nat (list T)).
  Notation astate := (gmap nat (list (option T))).
  Notation state := ((lstate * vstate) * astate)%type.
  Notation W1 := (world (ListModel.cell T) lst).
  Notation W2 := (world (VecModel.block T) VecModel.vec).
  Notation arrays := (gmap nat (list (acell T))).
  Notation asn := (H1 * H2 -> list (N + N) -> Prop).
  Notation mrel := (mrel (T := T) dbl sz lmax).
  Notation mloose := (mloose (T := T) dbl sz lmax).
  Implicit Types (sp : state) (w : (W1 * W2) * arrays).
  Definition xrel sp w : Prop := mrel (fst sp) (fst w) /\ awrep nn (snd w) (snd sp).

  (** *** The members of the plain iterators *)
  Lemma r_next_ok t r xs : rrep t r xs -> exists r', r_next t r = Ok (head xs, r') /\ rrep t r' (tail xs).
  Proof.
    intros Hr. destruct (r_step_ok t DNext r xs (or_introl eq_refl) Hr) as (r' & E & Hr'). exists r'.
    cbn [r_step] in E. unfold bind in E. destruct (r_next t r) as [[o r2]|e]; [|done]. unfold ret in E.
    injection E as -> ->. by destruct xs.
  Qed.
  Lemma ar_next_ok (a : list (acell T)) it xs : srep a it xs -> exists it', ar_next a it = Ok (head xs, it') /\ srep a it' (tail xs).
  Proof.
    intros Hr. destruct (ar_step_ok a DNext it xs) as (r' & E & Hr'); [done|done|]. exists r'.
    cbn [ar_step] in E. unfold bind at 1 in E. destruct (ar_next a it) as [[o r2]|e]; [|done]. unfold ret in E.
    injection E as -> ->. by destruct xs.
  Qed.
  Lemma s_next_ok (a : list (acell T)) it xs : srep a it xs -> exists it', s_next a it = Ok (head xs, it') /\ srep a it' (tail xs).
  Proof.
    intros Hr. destruct (s_step_ok a DNext it xs Hr) as (r' & E & Hr'). exists r'.
    cbn [s_step] in E. unfold bind at 1 in E. destruct (s_next a it) as [[o r2]|e]; [|done]. unfold ret in E.
    injection E as -> ->. by destruct xs.
  Qed.
  Lemma ai_next_ok it xs : airep nn it xs -> exists it', ai_next it = Ok (head xs, it') /\ airep nn it' (tail (xs : list T)).
  Proof.
    intros Hr. destruct (ai_step_ok nn vinit eqb DNext it xs Hnn (or_introl eq_refl) Hr) as (r' & E & Hr'). exists r'.
    cbn [ai_step] in E. unfold bind at 1 in E. destruct (ai_next it) as [[o r2]|e]; [|done]. unfold ret in E.
    injection E as -> ->. by destruct xs.
  Qed.
  Definition Gr t (f : Z -> T) (r : range) (xs : list T) : Prop := exists zs, xs = f <$> zs /\ rrep t r zs.
  Definition Ga (a : list (acell T)) (it : siter) (xs : list T) : Prop := srep a it (AVal <$> xs).
  Definition Gu (f : list N -> T) (bs : list N) (xs : list T) : Prop :=
    exists cs, forallb a_char cs = true /\ bs = encs cs /\ xs = (fun c => f (enc c)) <$> cs.
  Lemma Gr_next t f r xs : Gr t f r xs -> exists r', xr_next t f r = Ok (r', head xs) /\ Gr t f r' (tail xs).
  Proof.
    intros (zs & -> & Hr). destruct (r_next_ok _ _ _ Hr) as (r' & E & Hr'). exists r'. unfold xr_next. rewrite E.
    split; [by destruct zs|]. exists (tail zs). split; [by destruct zs|done].
  Qed.
  Lemma Ga_next a m it xs : (forall xs, srep a it xs -> exists it', m it = Ok (head xs, it') /\ srep a it' (tail xs)) ->
    Ga a it xs -> exists it', xc_next m it = Ok (it', head xs) /\ Ga a it' (tail xs).
  Proof.
    intros Hm Hg. destruct (Hm _ Hg) as (it' & E & Hg'). exists it'. unfold xc_next. rewrite E. by destruct xs.
  Qed.
  Lemma a_char_ok c : a_char c = true -> scalar c /\ c <> 0x7F.
  Proof.
    unfold a_char, scalar. rewrite andb_true_iff, orb_true_iff, andb_true_iff, negb_true_iff, N.eqb_neq, !N.ltb_lt, N.leb_le. tauto.
  Qed.
  Lemma Gu_next f bs xs : Gu f bs xs -> exists bs', xu_next f bs = Ok (bs', head xs) /\ Gu f bs' (tail xs).
  Proof.
    intros (cs & Hc & -> & ->). destruct cs as [|c cs].
    - exists []. split; [done|]. by exists [].
    - cbn [forallb] in Hc. apply andb_true_iff in Hc as [Hc Hcs]. destruct (a_char_ok c Hc) as [H1 H2].
      exists (encs cs). unfold xu_next. rewrite encs_cons, utf8_next_enc by done. split; [done|]. by exists cs.
  Qed.
  Lemma Gi_next it xs : airep nn it xs -> exists it', xa_next it = Ok (it', head xs) /\ airep nn it' (tail (xs : list T)).
  Proof. intros Hg. destruct (ai_next_ok _ _ Hg) as (it' & E & Hg'). exists it'. unfold xa_next. by rewrite E. Qed.
  Lemma Gi_copy it (xs : list T) : airep nn it xs -> xa_copy it = Ok it.
  Proof.
    intros (k & _ & _ & Hd). unfold xa_copy. rewrite Hd, forallb_app. rewrite (proj2 (forallb_forall _ (replicate k AMoved))).
    - rewrite (proj2 (forallb_forall _ (AVal <$> xs))); [done|]. intros c Hc.
      apply elem_of_list_In, elem_of_list_fmap in Hc as (x & -> & _). done.
    - intros c Hc. apply elem_of_list_In, elem_of_replicate_inv in Hc as ->. done.
  Qed.
  Lemma Gi_move it (xs : list T) : airep nn it xs -> airep nn (fst (xa_move nn dinit it)) xs.
  Proof. intros Hg. unfold xa_move. by rewrite (ai_move_ok nn dinit vinit eqb it xs Hg). Qed.

  (** *** What a source gives, and what is left *)
  Definition xgives sp (s : xsrc T) (sp' : state) (xs : list T) : Prop :=
    match s with
    | XS s => gives (fst sp) s (fst sp') xs /\ snd sp' = snd sp
    | XP s => pitems (snd sp) s = Some (snd sp', xs) /\ fst sp' = fst sp
    end.
  Lemma xitems_case sp s k : xitems sp s k = SPre \/ exists sp' xs, xgives sp s sp' xs /\ xitems sp s k = k sp' xs.
  Proof.
    destruct s as [[i|i|i]|s]; cbn [xitems].
    - destruct (fst (fst sp) !! i) as [[al [xs|]]|] eqn:E; [right|by left..]. exists sp, xs. split; [|done]. split; [by econstructor|done].
    - destruct (fst (fst sp) !! i) as [[al o]|] eqn:E; [right|by left]. eexists _, _. split; [|done]. split; [by econstructor|done].
    - destruct (snd (fst sp) !! i) as [xs|] eqn:E; [right|by left]. exists sp, xs. split; [|done]. split; [by econstructor|done].
    - destruct (pitems (snd sp) s) as [[ar xs]|] eqn:E; [right|by left]. exists (fst sp, ar), xs. by split.
  Qed.
  Lemma xgives_l sp s sp' xs j : xgives sp s sp' xs -> fst (fst sp) !! j = None -> fst (fst sp') !! j = None.
  Proof. destruct s as [s|s]; [intros [Hg _]; by eapply gives_fresh_l|by intros [_ ->]]. Qed.
  Lemma xgives_v sp s sp' xs j : xgives sp s sp' xs -> snd (fst sp) !! j = None -> snd (fst sp') !! j = None.
  Proof. destruct s as [s|s]; [intros [Hg _]; by eapply gives_fresh_v|by intros [_ ->]]. Qed.
  Lemma xgives_a sp s sp' xs j : xgives sp s sp' xs -> snd sp !! j = None -> snd sp' !! j = None.
  Proof.
    destruct s as [s|s]; [by intros [_ ->]|]. intros [E _] Hj. destruct s as [t lo hi f|i|i p n|i|cs f]; cbn [pitems] in E.
    - destruct (_ && _ && _)%bool; [|done]. by apply (inj Some), pair_equal_spec in E as [<- _].
    - destruct (snd sp !! i) as [c|]; [|done]. destruct (mapM id c); [|done]. by apply (inj Some), pair_equal_spec in E as [<- _].
    - destruct (snd sp !! i) as [c|]; [|done]. destruct (p + n <=? N.of_nat (length c)); [|done].
      destruct (mapM id _); [|done]. by apply (inj Some), pair_equal_spec in E as [<- _].
    - destruct (snd sp !! i) as [c|] eqn:Ei; [|done]. destruct (mapM id c); [|done].
      apply (inj Some), pair_equal_spec in E as [<- _]. rewrite lookup_insert_ne; [done|]. congruence.
    - destruct (forallb a_char cs); [|done]. by apply (inj Some), pair_equal_spec in E as [<- _].
  Qed.

  Notation bodyT R := (forall It, (It -> HM (It * option T)) -> (It -> HM It) -> (It -> It * It) -> (It -> HM unit) -> nat -> It -> HM R).
  Definition body_ok {R} (body : bodyT R) (xs : list T) (Q : R -> asn) : Prop :=
    forall It rd rdp nx cp mv dl Sr fuel (it : It), is_src (H := H1 * H2) (V := T) rd rdp nx cp mv dl Sr -> (length xs < fuel)%nat ->
      tri (MM := both_mem) rd rdp (Sr it xs) (body It nx cp mv dl fuel it) Q.
  Lemma pure_ok {R It} (body : bodyT R) (nx : It -> outcome (It * option T)) cp mv fuel it xs (G : It -> list T -> Prop) (Q : R -> asn) sp w :
    (forall it xs, G it xs -> exists it', nx it = Ok (it', head xs) /\ G it' (tail xs)) ->
    (forall it xs, G it xs -> cp it = Ok it) -> (forall it xs, G it xs -> G (fst (mv it)) xs) ->
    G it xs -> (length xs < fuel)%nat -> body_ok body xs Q -> mrel (fst sp) (fst w) ->
    exists r (w1 : W1 * W2) fp', pure_m body nx cp mv fuel it w = Ok (r, (w1, snd w)) /\ Q r (heaps w1) fp' /\ mloose (fst sp) w1 fp'.
  Proof.
    intros Hn Hc Hm Hg Hf Hb Hrel. pose proof Hrel as ([m1 Hw1] & [m2 Hw2] & Hin).
    assert (Hwf : mwf (mem := both_mem) (heaps (fst w))) by (split; [apply Hw1|apply Hw2]).
    destruct (Hb _ _ _ _ _ _ _ _ fuel it (plain_src (H := H1 * H2) nx cp mv G Hn Hc Hm) Hf) with (h := heaps (fst w)) (fp := @nil (N + N))
      as (r & h' & fp' & E & Hq & Hu).
    { exact Hwf. } { exact I. } { by intros a ?%elem_of_nil. } { by split. }
    exists r, (World (fst h') (w_vars (fst (fst w))), World (snd h') (w_vars (snd (fst w)))), fp'.
    split; [|split; [by destruct h'|by apply rest_borrow]].
    unfold pure_m, inl_m, on_heaps. unfold heaps in E. cbn [fst snd] in *. rewrite E. by destruct h'.
  Qed.
  Lemma mapM_id (c : list (option T)) xs : mapM id c = Some xs -> c = Some <$> xs.
  Proof. intros E. apply mapM_Some in E. induction E as [|x y l k Hx _ IH]; [done|]. cbn in Hx. subst x. cbn. by f_equal. Qed.
  Lemma abs_vals (a : list (acell T)) (xs : list T) : abs <$> a = Some <$> xs -> a = AVal <$> xs.
  Proof.
    revert xs. induction a as [|c a IH]; intros [|x xs] E; try done. cbn in E. injection E as E1 E2.
    rewrite (IH _ E2). destruct c; [done| |done]. cbn in E1. by injection E1 as ->.
  Qed.
  Lemma on_any_ok {R} s (body : bodyT R) sp w sp' xs (Q : R -> asn) : xrel sp w -> xgives sp s sp' xs -> body_ok body xs Q ->
    exists r w' fp', on_any dbl nn dinit s body w = Ok (r, w') /\ Q r (heaps (fst w')) fp' /\ mloose (fst sp') (fst w') fp' /\
      awrep nn (snd w') (snd sp').
  Proof.
    intros [Hrel Har] Hg Hb. destruct s as [s|s].
    - destruct Hg as [Hg Hs]. cbn [on_any].
      destruct (on_src_ok dbl sz lmax dflt eqb cmp Hsz Hlim s body (fst sp) (fst w) (fst sp') xs Q Hrel Hg) as (r & w1 & fp' & E & Hq & Hlo & _).
      { intros. by apply Hb. }
      exists r, (w1, snd w), fp'. unfold inl_m. rewrite E. rewrite Hs. by split.
    - destruct Hg as [Hg Hs]. destruct s as [t lo hi f|i|i p n|i|cs f]; cbn [pitems on_any] in *.
      + destruct (_ && _ && _)%bool eqn:Eb; [|done]. apply (inj Some), pair_equal_spec in Hg as [<- <-].
        apply andb_true_iff in Eb as [[Eb1 Eb2]%andb_true_iff Eb3]. unfold in_range in *. apply Z.leb_le in Eb1.
        apply andb_true_iff in Eb2 as [E21%Z.leb_le E22%Z.leb_le]. apply andb_true_iff in Eb3 as [E31%Z.leb_le E32%Z.leb_le].
        destruct (pure_ok body (xr_next t f) cp0 mv0 (S (Z.to_nat (hi - lo))) (Range lo hi)
          ((fun k => f (lo + Z.of_nat k)%Z) <$> seq 0 (Z.to_nat (hi - lo))) (Gr t f) Q sp w) as (r & w1 & fp' & E & Hq & Hlo); try done.
        * intros. by apply Gr_next.
        * exists (zrange lo hi). split.
          -- unfold zrange, seqZ. rewrite <-list_fmap_compose. apply list_fmap_ext. intros j k _. cbn. f_equal. lia.
          -- split; [done|]. split; [by split|]. by split.
        * rewrite fmap_length, seq_length. lia.
        * exists r, (w1, snd w), fp'. rewrite Hs. done.
      + destruct (snd sp !! i) as [c|] eqn:Ei; [|done]. destruct (mapM id c) as [ys|] eqn:Em; [|done].
        apply (inj Some), pair_equal_spec in Hg as [<- <-]. apply mapM_id in Em as ->.
        destruct (awrep_some _ _ _ _ _ Har Ei) as (a & Ha & Hl & Habs). apply abs_vals in Habs. subst a.
        destruct (pure_ok body (xc_next (ar_next (AVal <$> ys))) cp0 mv0 (S nn) (siter_new 0 (N.of_nat nn)) ys (Ga (AVal <$> ys)) Q sp w)
          as (r & w1 & fp' & E & Hq & Hlo); try done.
        * intros it xs. apply Ga_next. intros zs. apply ar_next_ok.
        * rewrite fmap_length in Hl. unfold Ga, srep, siter_new. cbn [s_start s_end]. rewrite fmap_length.
          split; [lia|]. split; [lia|]. rewrite drop_0, take_ge; [done|]. rewrite fmap_length. lia.
        * rewrite fmap_length in Hl. lia.
        * exists r, (w1, snd w), fp'. unfold bind, inr_m, aget. rewrite Ha. destruct w as [w0 wa]. cbn [fst snd] in *.
          rewrite E, Hs. done.
      + destruct (snd sp !! i) as [c|] eqn:Ei; [|done]. destruct (N.leb_spec (p + n) (N.of_nat (length c))) as [Hpn|]; [|done].
        destruct (mapM id _) as [ys|] eqn:Em; [|done].
        apply (inj Some), pair_equal_spec in Hg as [<- <-]. apply mapM_id in Em.
        destruct (awrep_some _ _ _ _ _ Har Ei) as (a & Ha & Hl & <-). rewrite fmap_length in Hpn.
        rewrite <-fmap_drop, <-fmap_take in Em. apply abs_vals in Em.
        destruct (pure_ok body (xc_next (s_next a)) cp0 mv0 (S (N.to_nat n)) (siter_new p n) ys (Ga a) Q sp w)
          as (r & w1 & fp' & E & Hq & Hlo); try done.
        * intros it xs. apply Ga_next. intros zs. apply s_next_ok.
        * unfold Ga, srep, siter_new. cbn [s_start s_end]. split; [lia|]. split; [lia|]. rewrite <-Em. f_equal. lia.
        * apply (f_equal length) in Em. rewrite fmap_length, take_length in Em. lia.
        * exists r, (w1, snd w), fp'. unfold bind, inr_m, aget. rewrite Ha. destruct w as [w0 wa]. cbn [fst snd] in *.
          rewrite E, Hs. done.
      + destruct (snd sp !! i) as [c|] eqn:Ei; [|done]. destruct (mapM id c) as [ys|] eqn:Em; [|done].
        apply (inj Some), pair_equal_spec in Hg as [Hsp <-]. apply mapM_id in Em as ->.
        destruct (awrep_some _ _ _ _ _ Har Ei) as (a & Ha & Hl & Habs). apply abs_vals in Habs. subst a. rewrite fmap_length in Hl.
        destruct (pure_ok body xa_next xa_copy (xa_move nn dinit) (S nn) (AIter (AVal <$> ys) (Range 0 (Z.of_nat nn))) ys (airep nn) Q sp w)
          as (r & w1 & fp' & E & Hq & Hlo); try done.
        * intros it xs. apply Gi_next.
        * intros it xs. apply Gi_copy.
        * intros it xs. apply Gi_move.
        * exists 0%nat. done.
        * lia.
        * exists r, (w1, <[i := replicate nn AMoved]> (snd w)), fp'. unfold bind, inr_m, aget, aput. rewrite Ha. destruct w as [w0 wa].
          cbn [fst snd] in *. unfold ai_new. rewrite (a_move_ok nn vinit eqb) by (rewrite ?replicate_length; done). cbn [lift_o]. unfold lift_o.
          rewrite E, Hs. cbn [fst snd]. split; [done|]. split; [done|]. split; [done|]. rewrite <-Hsp. apply awrep_set; [done|].
          rewrite fmap_length, Hl. split; [by rewrite replicate_length|]. by rewrite fmap_replicate.
      + destruct (forallb a_char cs) eqn:Eb; [|done]. apply (inj Some), pair_equal_spec in Hg as [<- <-].
        destruct (pure_ok body (xu_next f) cp0 mv0 (S (length cs)) (encs cs) ((fun c => f (enc c)) <$> cs) (Gu f) Q sp w)
          as (r & w1 & fp' & E & Hq & Hlo); try done.
        * intros. by apply Gu_next.
        * by exists cs.
        * rewrite fmap_length. lia.
        * exists r, (w1, snd w), fp'. rewrite Hs. done.
  Qed.

  Notation step := (all_step dbl sz dflt eqb cmp nn dinit vinit).
  Notation spec := (xspec dbl lmax dflt eqb cmp nn dinit vinit).
  Lemma a_spec_ok (s : astate) (a : arrays) o : awrep nn a s ->
    agrees (fun s a => awrep nn a s) (arr_step nn dinit vinit eqb o a) (a_spec eqb nn dinit vinit s o).
  Proof.
    intros Ha. unfold a_spec. destruct (arr_spec nn (abs dinit) vinit eqb s o) as [[s' x]|] eqn:E.
    - destruct (arr_step_ok nn dinit vinit eqb a s o s' x Ha E) as (a' & E' & Ha'). cbn [agrees]. by exists a'.
    - destruct o as [ | |i xs| | | | | |i k|i k x| | ]; try done.
      + destruct (s !! i) eqn:Ei; [done|]. destruct (Nat.ltb_spec nn (length xs)); [|done]. cbn [agrees arr_step].
        unfold bind, afresh. rewrite (awrep_none _ _ _ _ Ha Ei). unfold a_list. by destruct (Nat.ltb_spec nn (length xs)); [|lia].
      + destruct (s !! i) eqn:Ei; [|done]. destruct (N.leb_spec (N.of_nat nn) k); [|done]. cbn [agrees arr_step].
        destruct (awrep_some _ _ _ _ _ Ha Ei) as (c & Hc & _). unfold bind, aget. rewrite Hc. unfold a_get.
        by destruct (N.leb_spec (N.of_nat nn) k); [|lia].
      + destruct (s !! i) eqn:Ei; [|done]. destruct (N.leb_spec (N.of_nat nn) k); [|done]. cbn [agrees arr_step].
        destruct (awrep_some _ _ _ _ _ Ha Ei) as (c & Hc & _). unfold bind, aget. rewrite Hc. unfold a_set.
        by destruct (N.leb_spec (N.of_nat nn) k); [|lia].
  Qed.

  Theorem all_step_refines sp w o : xordered o -> xrel sp w -> agrees xrel (step o w) (spec sp o).
  Proof.
    intros Hord Hrel. pose proof Hrel as [R1 R2]. destruct o as [o|o|s bar ps [t|j|j|j]]; cbn [all_step xspec xordered] in *.
    - pose proof (mix_step_refines dbl sz lmax dflt eqb cmp Hsz Hlim (fst sp) (fst w) o Hord R1) as Ha.
      unfold bind, inl_m. destruct (mspec dbl lmax dflt eqb cmp (fst sp) o) as [s x| |]; cbn [agrees] in *; [|by rewrite Ha|done].
      destruct Ha as (w' & -> & R1'). by eexists.
    - pose proof (a_spec_ok (snd sp) (snd w) o R2) as Ha. unfold bind, inr_m.
      destruct (a_spec eqb nn dinit vinit (snd sp) o) as [s x| |]; cbn [agrees] in *; [|by rewrite Ha|done].
      destruct Ha as (w' & -> & R2'). by eexists.
    - destruct (xitems_case sp s (fun sp xs => SOk sp (OM (OL (value_of t (denote ps xs)))))) as [->|(sp' & xs & Hg & ->)]; [done|].
      edestruct (on_any_ok s (fun _ nx cp mv dl fuel it => term_m nx cp mv dl fuel bar ps t it) sp w sp' xs
        (pureQ (value_of t (denote ps xs))) Hrel Hg) as (r & w' & fp' & E & [-> Hem] & Hlo & Har).
      { intros It rd rdp nx cp mv dl Sr fuel it HS Hf. by apply term_tri. }
      unfold emp in Hem. subst fp'. cbn [agrees]. unfold bind. rewrite E. eexists. split; [done|]. split; [by apply loose_done|done].
    - destruct (fst (fst sp) !! j) eqn:Hj; [done|].
      match goal with |- agrees _ _ (xitems _ _ ?k) => destruct (xitems_case sp s k) as [->|(sp' & xs & Hg & ->)]; [done|] end.
      destruct (N.ltb_spec (N.of_nat (length (denote ps xs))) W) as [HW|]; [|done].
      edestruct (on_any_ok s (fun _ nx cp mv dl fuel it => run_collect nx cp mv dl bar fuel ps (l_new dbl) (l_put dbl) (l_end dbl) it)
        sp w sp' xs (fun r => onl (Rp dbl r (denote ps xs))) Hrel Hg) as (r & w' & fp' & E & Hq & Hlo & Har).
      { intros It rd rdp nx cp mv dl Sr fuel it HS Hf.
        by eapply (pipe_collect _ _ _ _ _ _ _ HS _ _ _ _ _ _ _ _ _ _ _ (sink_inl _ _ _ _ _ _ (l_sink dbl))). }
      cbn [agrees]. unfold bind, inl_m at 1 2, wnew. rewrite (no_var_l _ _ _ _ _ _ R1 Hj).
      destruct w as [[w1 w2] wa]. cbn [fst snd] in *. rewrite E. eexists. split; [done|]. split; [|done].
      eapply put_list; [done| |done]. by eapply xgives_l.
    - destruct (snd (fst sp) !! j) eqn:Hj; [done|].
      match goal with |- agrees _ _ (xitems _ _ ?k) => destruct (xitems_case sp s k) as [->|(sp' & xs & Hg & ->)]; [done|] end.
      destruct (N.leb_spec (N.of_nat (length (denote ps xs))) lmax) as [HW|]; [|done].
      edestruct (on_any_ok s (fun _ nx cp mv dl fuel it => run_collect nx cp mv dl bar fuel ps (w_new sz) (w_put sz) w_end it)
        sp w sp' xs (fun r => onr (Kv sz lmax r (denote ps xs))) Hrel Hg) as (r & w' & fp' & E & Hq & Hlo & Har).
      { intros It rd rdp nx cp mv dl Sr fuel it HS Hf.
        by eapply (pipe_collect _ _ _ _ _ _ _ HS _ _ _ _ _ _ _ _ _ _ _ (sink_inr _ _ _ _ _ _ (v_sink sz lmax Hsz Hlim))). }
      cbn [agrees]. unfold bind, inl_m at 1, inr_m at 1, wnew. cbn [fst snd]. rewrite (no_var_v _ _ _ _ _ _ R1 Hj).
      destruct w as [[w1 w2] wa]. cbn [fst snd] in *. rewrite E. eexists. split; [done|]. split; [|done].
      eapply put_vec; [done| |done|done]. by eapply xgives_v.
    - destruct (snd sp !! j) eqn:Hj; [done|].
      match goal with |- agrees _ _ (xitems _ _ ?k) => destruct (xitems_case sp s k) as [->|(sp' & xs & Hg & ->)]; [done|] end.
      edestruct (on_any_ok s (fun _ nx cp mv dl fuel it => run_array nn vinit nx cp mv dl fuel bar ps it) sp w sp' xs
        (pureQ ((AVal <$> take nn (denote ps xs)) ++ replicate (nn - length (denote ps xs)) (AVal vinit))) Hrel Hg)
        as (r & w' & fp' & E & [-> Hem] & Hlo & Har).
      { intros It rd rdp nx cp mv dl Sr fuel it HS Hf. by eapply array_tri. }
      unfold emp in Hem. subst fp'. cbn [agrees]. unfold bind, inr_m at 1, afresh. rewrite (awrep_none _ _ _ _ R2 Hj).
      destruct w as [w0 wa]. cbn [fst snd] in *. rewrite E. eexists. split; [done|]. split; [by apply loose_done|].
      cbn [snd]. apply awrep_set; [done|]. split.
      + rewrite app_length, fmap_length, take_length, replicate_length. lia.
      + by rewrite fmap_app, fmap_replicate, <-list_fmap_compose.
    Unshelve. all: done.
  Qed.

  Notation start := ((@winit (ListModel.cell T) lst, @winit (VecModel.block T) VecModel.vec), (∅ : arrays)).
  Notation none := (((∅, ∅), ∅) : state).
  Lemma xrel_init : xrel none start.
  Proof. split; [apply mrel_init|apply awrep_init]. Qed.
  Lemma all_run ops : Forall xordered ops -> forall sp w, xrel sp w -> agrees xrel (run_ops step ops w) (srun spec sp ops).
  Proof.
    induction 1 as [|o ops Ho _ IH]; intros sp w Hr; cbn [run_ops srun].
    { by exists w. }
    pose proof (all_step_refines sp w o Ho Hr) as Hs. unfold agrees, bind, ret in *.
    destruct (spec sp o) as [sp1 x| |]; [|by rewrite Hs|done]. destruct Hs as (w1 & -> & Hr1).
    pose proof (IH sp1 w1 Hr1) as H2. destruct (srun spec sp1 ops) as [sp2 xs| |]; [|by rewrite H2|done].
    destruct H2 as (w2 & -> & Hr2). by exists w2.
  Qed.

  (** *** C80
      Any program over lists, vectors and arrays, with pipelines from any
      source into any collection, gives what it gives on sequences; the
      collections then hold these sequences, an array element without a value
      is never read, and where an index is out of bounds the program panics. *)
  Theorem C80_programs ops sp outs : Forall xordered ops -> srun spec none ops = SOk sp outs ->
    exists w, run_ops step ops start = Ok (outs, w) /\
      (forall i al xs, fst (fst sp) !! i = Some (al, Some xs) ->
         exists w', step (XMix (MList (PStep (LItems i)))) w = Ok (OM (OL (OList xs)), w')) /\
      (forall i xs, snd (fst sp) !! i = Some xs ->
         exists w', step (XMix (MVec (VecModel.VIterAll i))) w = Ok (OM (OV (VecModel.OSeq xs)), w')) /\
      (forall i c k x, snd sp !! i = Some c -> nlookup c k = Some (Some x) ->
         exists w', step (XA (AGet i k)) w = Ok (OA (AOElem x), w')).
  Proof.
    intros Ho E. pose proof (all_run ops Ho none start xrel_init) as Ha. rewrite E in Ha.
    destruct Ha as (w & E2 & R1 & R2). exists w. split; [done|]. split; [|split].
    - intros i al xs Hi. destruct (list_reads dbl sz lmax dflt eqb cmp Hsz Hlim _ _ _ _ _ R1 Hi) as [w' E3].
      exists (w', snd w). cbn [all_step]. unfold bind, inl_m at 1. by rewrite E3.
    - intros i xs Hi. destruct (vec_reads dbl sz lmax dflt eqb cmp Hsz Hlim _ _ _ _ R1 Hi) as [w' E3].
      exists (w', snd w). cbn [all_step]. unfold bind, inl_m at 1. by rewrite E3.
    - intros i c k x Hi Hk. destruct (arr_step_ok nn dinit vinit eqb (snd w) (snd sp) (AGet i k) (snd sp) (AOElem x) R2) as (a & E3 & _).
      { cbn [arr_spec]. by rewrite Hi, Hk. }
      exists (fst w, a). cbn [all_step]. unfold bind, inr_m at 1. by rewrite E3.
  Qed.
  Theorem C80_panics ops : Forall xordered ops -> srun spec none ops = SPanic -> run_ops step ops start = Err Panic.
  Proof. intros Ho E. pose proof (all_run ops Ho none start xrel_init) as Ha. by rewrite E in Ha. Qed.
  (** Once the lists and the vectors are gone, nothing is left, whatever went
      through the pipelines. *)
  Theorem C80_storage ops sp outs : Forall xordered ops -> srun spec none ops = SOk sp outs -> fst sp = (∅, ∅) ->
    exists w, run_ops step ops start = Ok (outs, w) /\
      hmap (w_heap (fst (fst w))) = ∅ /\ hmap (w_heap (snd (fst w))) = ∅.
  Proof.
    intros Ho E Hs. pose proof (all_run ops Ho none start xrel_init) as Ha. rewrite E in Ha.
    destruct Ha as (w & E2 & R1 & _). exists w. split; [done|]. rewrite Hs in R1. destruct R1 as (L1 & L2 & _).
    destruct (world_ok_empty _ _ L1), (world_ok_empty _ _ L2). done.
  Qed.
End Main.

(** ** Concrete programs *)
Definition all_ops (bar : bool) : list (xop N) :=
  [ XPipe (XP (PRange int_t (-1) 4 (fun z => Z.to_N (z + 1)))) bar [double] (XList 0);   (* 0 2 4 6 8 *)
    XPipe (XS (SL 0)) bar [small] (XArr 0);                                               (* 0 2 4, of 5 *)
    XPipe (XP (PArr 0)) bar [double] (XVec 0);                                            (* 0 4 8 *)
    XMix (MVec (VecModel.VIterAll 0));
    XPipe (XP (PSlice 0 1 2)) bar [] (XTerm (TFold (fun l x => l ++ [x]) []));            (* 2 4 *)
    XPipe (XP (PInto 0)) bar [double; small] (XArr 1);                                    (* 0 4 8 *)
    XA (ASet 0 1 7); XPipe (XP (PSlice 0 1 1)) bar [] (XTerm (TTake 3));                  (* 7 *)
    XPipe (XP (PChars [0x41; 0xE9; 0x20AC] (fun b => N.of_nat (length b)))) bar [] (XArr 2);  (* 1 2 3 *)
    XA (AGet 2 2); XA (AGet 1 1);
    XPipe (XP (PChars [0x41; 0xE9] (fun b => N.of_nat (length b)))) bar [] (XArr 3);      (* 1 2 0 *)
    XA (AGet 3 2);
    XPipe (XS (SLInto 0)) bar [double] (XTerm (TReduce N.add));
    XMix (MList (PStep (LDel 0))); XMix (MVec (VecModel.VDestroy 0)) ].
Definition all_outs : list (xout N) :=
  [ OM (OL OUnit); OA AONone; OM (OV VecModel.ONone); OM (OV (VecModel.OSeq [0; 4; 8])); OM (OL (OList [2; 4])); OA AONone;
    OA AONone; OM (OL (OOpts [Some 7; None; None])); OA AONone; OA (AOElem 3); OA (AOElem 4); OA AONone; OA (AOElem 0);
    OM (OL (OOpt (Some 40))); OM (OL OUnit); OM (OV VecModel.ONone) ].
Notation xstep dbl := (all_step dbl 8 0 N.eqb N.compare 3 AUndef 0).
Notation xspc dbl := (xspec dbl 100 0 N.eqb N.compare 3 AUndef 0).
Notation xstart := (mstart, (∅ : gmap nat (list (acell N)))).
Lemma all_ordered bar : Forall xordered (all_ops bar).
Proof. repeat constructor. Qed.
Example C80_spec_ex dbl bar : exists sp, srun (xspc dbl) ((∅, ∅), ∅) (all_ops bar) = SOk sp all_outs /\ fst sp = (∅, ∅) /\
  snd sp !! 0%nat = Some [None; Some 7; None] /\ snd sp !! 1%nat = Some [Some 0; Some 4; Some 8].
Proof.
  assert (Hx : forall r : sres ((gmap nat (N * option (list N)) * gmap nat (list N)) * gmap nat (list (option N))) (list (xout N)),
    match r with
    | SOk sp o => map_to_list (fst (fst sp)) = [] /\ map_to_list (snd (fst sp)) = [] /\ o = all_outs /\
        snd sp !! 0%nat = Some [None; Some 7; None] /\ snd sp !! 1%nat = Some [Some 0; Some 4; Some 8]
    | _ => False end ->
    exists sp, r = SOk sp all_outs /\ fst sp = (∅, ∅) /\
      snd sp !! 0%nat = Some [None; Some 7; None] /\ snd sp !! 1%nat = Some [Some 0; Some 4; Some 8]).
  { intros [[[a b] c] o| |]; [|done|done]. cbn [fst snd]. intros (H1 & H2 & -> & H3 & H4).
    apply map_to_list_empty_iff in H1 as ->. apply map_to_list_empty_iff in H2 as ->. by exists ((∅, ∅), c). }
  apply Hx. clear Hx. destruct dbl, bar; vm_compute; do 4 (split; [reflexivity|]); reflexivity.
Qed.
Lemma ex_nn : (Z.of_nat 3 <= imax usize_t)%Z. Proof. done. Qed.
Example C80_programs_ex dbl bar : exists w w', run_ops (xstep dbl) (all_ops bar) xstart = Ok (all_outs, w) /\
  hmap (w_heap (fst (fst w))) = ∅ /\ hmap (w_heap (snd (fst w))) = ∅ /\ xstep dbl (XA (AGet 1 2)) w = Ok (OA (AOElem 8), w').
Proof.
  destruct (C80_spec_ex dbl bar) as (sp & E & Hs & _ & H1).
  destruct (C80_storage dbl 8 100 0 N.eqb N.compare 3 AUndef 0 ex_sz ex_lim ex_nn _ _ _ (all_ordered bar) E Hs) as (w & Ew & E1 & E2).
  destruct (C80_programs dbl 8 100 0 N.eqb N.compare 3 AUndef 0 ex_sz ex_lim ex_nn _ _ _ (all_ordered bar) E) as (w2 & Ew2 & _ & _ & Hg).
  rewrite Ew in Ew2. injection Ew2 as <-. destruct (Hg 1%nat [Some 0; Some 4; Some 8] 2 8 H1 eq_refl) as [w' E3].
  exists w, w'. split; [exact Ew|]. split; [exact E1|]. split; [exact E2|exact E3].
Qed.
(** Run, not deduced. *)
Example C80_run dbl bar :
  match run_ops (xstep dbl) (all_ops bar) xstart with
  | Ok (r, w) => Some (r, size (hmap (w_heap (fst (fst w)))), size (hmap (w_heap (snd (fst w)))), snd w !! 0%nat) | Err _ => None
  end = Some (all_outs, 0%nat, 0%nat, Some [AMoved; AVal 7; AMoved]).
Proof. destruct dbl, bar; vm_compute; reflexivity. Qed.
Example C80_panics_ex dbl bar : run_ops (xstep dbl) (all_ops bar ++ [XA (AGet 1 3)]) xstart = Err Panic.
Proof.
  apply (C80_panics dbl 8 100 0 N.eqb N.compare 3 AUndef 0 ex_sz ex_lim ex_nn).
  - apply Forall_app. split; [apply all_ordered|by repeat constructor].
  - by destruct dbl, bar; vm_compute.
Qed.
(** Not allowed by the specification: the elements of an array that was
    iterated by value are gone. *)
Example C80_moved_ex dbl bar : run_ops (xstep dbl) (all_ops bar ++ [XPipe (XP (PArr 0)) bar [] (XVec 1)]) xstart = Err UB.
Proof. by destruct dbl, bar; vm_compute. Qed.

Print Assumptions C30_any_iterator.
Print Assumptions C80_programs.
Print Assumptions C80_panics.
Print Assumptions C80_storage.
