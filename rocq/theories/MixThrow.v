(** * MixThrow: C71, programs with pipelines whose closures throw

    The programs of [MixPipe], in which any pipeline over any collection may
    have closures that throw ([PipeThrow]); the program catches the exception
    and goes on. *)
From Verif Require Import Base World Machine IterProps ListModel ListSeg ListOps ListOps2 ListStep ListSpec ListRefine
  ListNodes ListProps PipeModel Tri PipeProofs ListPipe ListPipeProofs.
From Verif Require VecModel VecSpec VecProofs VecProofs2 VecRefine VecMore VecProps.
From Verif Require Import MixPipe MixProofs MixProps.
From Verif Require OptThrow.
From Verif Require Import PipeThrow.
Local Open Scope N_scope.

Section Model.
  Context {T : Type} (dbl : bool) (sz lmax : N) (dflt : T) (eqb : T -> T -> bool) (cmp : T -> T -> comparison).
  Notation H1 := (heap (ListModel.cell T)).
  Notation H2 := (heap (VecModel.block T)).
  Notation HM := (M (H1 * H2)).
  Notation TM := (OptThrow.TM (H1 * H2)).
  Notation W1 := (world (ListModel.cell T) lst).
  Notation W2 := (world (VecModel.block T) VecModel.vec).
  Notation WM := (M (W1 * W2)).
  Notation stages := (list (padapt (V := T))).

  (** The terminals of [ListPipe], and for_each.h:15-21. *)
  Inductive xterm := XT (t : pterm T) | XForEach (f : list T -> T -> list T) (a : list T).
  Inductive xsink := XTerm (t : xterm) | XList (j : nat) | XVec (j : nat).
  (** In [XPipe] the first [k] calls of closures return. *)
  Inductive xop := XOp (o : mop T) | XPipe (s : msrc) (bar : bool) (ps : stages) (t : xsink) (k : nat).

  Definition x_term_m {It} (inext : It -> HM (It * option T)) (icopy : It -> HM It) (imove : It -> It * It)
      (idel : It -> HM unit) (fuel : nat) (bar : bool) (ps : stages) (t : xterm) (it : It) : TM (lout T) :=
    match t with
    | XT (TFold f a) => OptThrow.tbind (x_run_fold inext icopy imove idel bar fuel ps f a it) (fun r => OptThrow.tret (OList r))
    | XForEach f a => OptThrow.tbind (x_run_for_each inext icopy imove idel bar fuel ps f a it) (fun r => OptThrow.tret (OList r))
    | XT (TReduce f) => OptThrow.tbind (x_run_reduce inext icopy imove idel bar fuel ps f it) (fun r => OptThrow.tret (OOpt r))
    | XT (TFind q) => OptThrow.tbind (x_run_find inext icopy imove idel bar fuel ps q it) (fun r => OptThrow.tret (OOpt r))
    | XT (TTake n) => OptThrow.tbind (x_run_take inext icopy imove idel bar fuel ps n it) (fun r => OptThrow.tret (OOpts r))
    end.
  Definition xmix_step (o : xop) : WM (option (mout T)) :=
    match o with
    | XOp o => r <-- mix_step dbl sz dflt eqb cmp o ;; ret (Some r)
    | XPipe s bar ps (XTerm t) k =>
        r <-- on_src dbl s (fun _ nx cp mv dl fuel it => OptThrow.with_k k (x_term_m nx cp mv dl fuel bar ps t it)) ;;
        ret (OL <$> r)
    | XPipe s bar ps (XList j) k =>
        inl_m (wnew j) ;;;
        r <-- on_src dbl s (fun _ nx cp mv dl fuel it =>
               OptThrow.with_k k (x_run_collect nx cp mv dl bar fuel ps (l_new dbl) (l_put dbl) (l_end dbl) it)) ;;
        match r with Some l => inl_m (wset j l) ;;; ret (Some (OL OUnit)) | None => ret None end
    | XPipe s bar ps (XVec j) k =>
        inr_m (wnew j) ;;;
        r <-- on_src dbl s (fun _ nx cp mv dl fuel it =>
               OptThrow.with_k k (x_run_collect nx cp mv dl bar fuel ps (w_new sz) (w_put sz) w_end it)) ;;
        match r with Some v => inr_m (wset j v) ;;; ret (Some (OV VecModel.ONone)) | None => ret None end
    end.

  (** ** What they should do, in terms of sequences *)
  Notation lstate := (gmap nat (N * option (list T))).
  Notation vstate := (gmap nat (list T)).
  Notation res := (sres (lstate * vstate) (option (mout T))).
  Definition xitems (sp : lstate * vstate) (s : msrc) (k : lstate * vstate -> list T -> res) : res :=
    match s with
    | SL i => match fst sp !! i with Some (_, Some xs) => k sp xs | _ => SPre end
    | SLInto i => match fst sp !! i with
                  | Some (al, o) => k (<[i := (al, None)]> (fst sp), snd sp) (default [] o) | None => SPre end
    | SV i => match snd sp !! i with Some xs => k sp xs | None => SPre end
    end.
  Definition habits_of (t : xterm) : habits T :=
    match t with
    | XT (TFold _ _) | XForEach _ _ => h_fold
    | XT (TReduce _) => h_reduce
    | XT (TFind q) => h_find q
    | XT (TTake n) => h_take n
    end.
  Definition xvalue (t : xterm) (ys : list T) : lout T :=
    match t with XT t => value_of t ys | XForEach f a => OList (fold_left f ys a) end.
  (** Whose exceptions get out. *)
  Definition escapes (bar : bool) (t : xterm) : bool :=
    match t with XT (TFold _ _) | XT (TReduce _) => bar | _ => false end.
  (** The call with number [k] throws, if there is one. *)
  Definition at_call (cs : list who) (k : nat) (esc : bool) (sp : lstate * vstate) (fine : res) : res :=
    match cs !! k with
    | None => fine
    | Some OfTerminal => if esc then SOk sp None else SPanic
    | Some OfStage => SPanic
    end.
  Definition xspec (sp : lstate * vstate) (o : xop) : res :=
    match o with
    | XOp o => match mspec dbl lmax dflt eqb cmp sp o with SOk s x => SOk s (Some x) | SPanic => SPanic | SPre => SPre end
    | XPipe s bar ps (XTerm t) k => xitems sp s (fun sp xs =>
        at_call (calls (habits_of t) ps [] xs) k (escapes bar t) sp (SOk sp (Some (OL (xvalue t (denote ps xs))))))
    | XPipe s bar ps (XList j) k =>
        match fst sp !! j with Some _ => SPre | None => xitems sp s (fun sp xs =>
          if N.of_nat (length (denote ps xs)) <? W then
            at_call (calls h_collect ps [] xs) k false sp
              (SOk (<[j := (0, Some (denote ps xs))]> (fst sp), snd sp) (Some (OL OUnit)))
          else SPre) end
    | XPipe s bar ps (XVec j) k =>
        match snd sp !! j with Some _ => SPre | None => xitems sp s (fun sp xs =>
          if N.of_nat (length (denote ps xs)) <=? lmax then
            at_call (calls h_collect ps [] xs) k false sp
              (SOk (fst sp, <[j := denote ps xs]> (snd sp)) (Some (OV VecModel.ONone)))
          else SPre) end
    end.
  Definition xordered (o : xop) : Prop := match o with XOp o => mordered o | _ => True end.
End Model.
Global Arguments xterm : clear implicits.
Global Arguments xsink : clear implicits.
Global Arguments xop : clear implicits.

Section Proofs.
  Context {T : Type} (dbl : bool) (sz lmax : N) (dflt : T) (eqb : T -> T -> bool) (cmp : T -> T -> comparison).
  Context (Hsz : 1 <= sz) (Hlim : sz * (2 * lmax + 2) <= alloc_max).
  Notation H1 := (heap (ListModel.cell T)).
  Notation H2 := (heap (VecModel.block T)).
  Notation HM := (M (H1 * H2)).
  Notation TM := (OptThrow.TM (H1 * H2)).
  Notation lstate := (gmap nat (N * option (list T))).
  Notation vstate := (gmap nat (list T)).
  Notation state := (lstate * vstate)%type.
  Notation W1 := (world (ListModel.cell T) lst).
  Notation W2 := (world (VecModel.block T) VecModel.vec).
  Notation asn := (H1 * H2 -> list (N + N) -> Prop).
  Notation mrel := (mrel (T := T) dbl sz lmax).
  Notation step := (xmix_step dbl sz dflt eqb cmp).
  Notation spec := (xspec dbl lmax dflt eqb cmp).
  Implicit Types (sp : state) (w : W1 * W2).

  Lemma xitems_case sp s k : xitems sp s k = SPre \/ exists sp' xs, gives sp s sp' xs /\ xitems sp s k = k sp' xs.
  Proof.
    destruct s as [i|i|i]; cbn [xitems].
    - destruct (fst sp !! i) as [[al [xs|]]|] eqn:E; [right|by left..]. exists sp, xs. split; [by econstructor|done].
    - destruct (fst sp !! i) as [[al o]|] eqn:E; [right|by left]. eexists _, _. split; [by econstructor|done].
    - destruct (snd sp !! i) as [xs|] eqn:E; [right|by left]. exists sp, xs. split; [by econstructor|done].
  Qed.

  (** What ends the program ends it from every source. *)
  Lemma on_src_ends {R} s (body : forall It, (It -> HM (It * option T)) -> (It -> HM It) -> (It -> It * It) -> (It -> HM unit) -> nat -> It -> HM R)
      sp w sp' xs : mrel sp w -> gives sp s sp' xs ->
    (forall It rd rdp nx cp mv dl Sr fuel (it : It), is_src (H := H1 * H2) (V := T) (MM := both_mem) rd rdp nx cp mv dl Sr -> (length xs < fuel)%nat ->
       forall h fp, mwf (mem := both_mem) h -> rdp h -> sep fp rd -> Sr it xs h fp -> body It nx cp mv dl fuel it h = Err Panic /\ True) ->
    on_src dbl s body w = Err Panic.
  Proof.
    intros Hrel Hg Hb. pose proof Hrel as ([m1 Hw1] & [m2 Hw2] & Hin).
    assert (Hwf : mwf (mem := both_mem) (heaps w)) by (split; [apply Hw1|apply Hw2]).
    destruct Hg as [i al xs Hi|i al o Hi|i xs Hi]; cbn [on_src].
    - destruct (world_ok_lookup_spec _ _ _ _ _ _ Hw1 Hi) as (e & Hm & He & Hv & Hr).
      destruct (lrep_inv dbl _ _ _ _ _ Hr) as (hd & tl & ns & Ho & <- & Lk & HW & Hfp).
      destruct (Hb _ _ _ _ _ _ _ _ (S (size (hmap (w_heap (fst w))))) (PAddr (startp ns tl), PAddr tl)
        (src_inl _ _ _ _ _ _ _ (lb_src dbl al hd tl ns))) with (h := heaps w) (fp := @nil (N + N))
        as [E _].
      { rewrite vls_length. pose proof (lok_fuel dbl _ _ _ _ _ Lk). lia. }
      { exact Hwf. } { exact Lk. } { by intros a ?%elem_of_nil. }
      { exists []. split; [done|]. apply Sb_new. }
      unfold bind at 1, inl_m at 1, wget. rewrite Hv, Ho. unfold on_heaps. cbn [fst snd].
      unfold bind at 1, inl_m at 1. cbn [fst snd]. rewrite (fuel_ok (w_heap (fst w))). cbn [fst snd].
      unfold bind at 1, inl_m at 1. cbn [fst snd]. rewrite (it_new_ok dbl _ _ _ _ _ Lk).
      unfold heaps in E. by rewrite E.
    - destruct (world_ok_lookup_spec _ _ _ _ _ _ Hw1 Hi) as (e & Hm & He & Hv & Hr).
      destruct (Hb _ _ _ _ _ _ _ _ (S (size (hmap (w_heap (fst w))))) (fst (l_move (e_o e)))
        (src_inl _ _ _ _ _ _ _ (l_src dbl))) with (h := heaps w) (fp := (inl <$> e_fp e) : list (N + N))
        as [E _].
      { pose proof (So_size dbl _ _ _ _ _ Hr). lia. }
      { exact Hwf. } { exact I. } { by intros a _ ?%elem_of_nil. }
      { exists (e_fp e). split; [done|]. by exists al, o. }
      unfold bind at 1, inl_m at 1, wget. rewrite Hv. destruct (l_move (e_o e)) as [it l']. cbn [fst snd] in *.
      unfold bind at 1, on_heaps. cbn [fst snd].
      unfold bind at 1, inl_m at 1. cbn [fst snd]. rewrite (fuel_ok (w_heap (fst w))). cbn [fst snd].
      unfold heaps in E. by rewrite E.
    - destruct (world_ok_lookup_spec _ _ _ _ _ _ Hw2 Hi) as (e & Hm & He & Hv & Hr).
      destruct (Hb _ _ _ _ _ _ _ _ (S (N.to_nat (VecModel.v_len (e_o e)))) (VecModel.iter (e_o e))
        (src_inr _ _ _ _ _ _ _ (v_src sz lmax (e_o e) xs (e_fp e)))) with (h := heaps w) (fp := @nil (N + N))
        as [E _].
      { assert (VecModel.v_len (e_o e) = VecSpec.nlen xs) as -> by apply Hr. unfold VecSpec.nlen. lia. }
      { exact Hwf. } { exact Hr. } { by intros a ?%elem_of_nil. }
      { exists []. split; [done|]. eapply Sv_new. exact Hr. }
      unfold bind at 1, inr_m at 1, wget. rewrite Hv. unfold on_heaps. cbn [fst snd].
      unfold heaps in E. by rewrite E.
  Qed.

  (** From every source, under what is asked of a source. *)
  Definition anywhere {R} (xs : list T) (k : nat) (out : bool) (cs : list who) (Q : R -> asn)
      (body : forall It, (It -> HM (It * option T)) -> (It -> HM It) -> (It -> It * It) -> (It -> HM unit) -> nat -> It -> TM R) : Prop :=
    forall It rd rdp nx cp mv dl Sr fuel (it : It),
      is_src (H := H1 * H2) (V := T) (MM := both_mem) rd rdp nx cp mv dl Sr -> (length xs < fuel)%nat ->
      xtri (MM := both_mem) rd rdp (Sr it xs) (body It nx cp mv dl fuel it) k (verdict out cs k emp Q).
  Lemma on_src_x {R} s body sp w sp' xs k out cs (Q : R -> asn) : mrel sp w -> gives sp s sp' xs -> anywhere xs k out cs Q body ->
    let run := on_src dbl s (fun It nx cp mv dl fuel it => OptThrow.with_k k (body It nx cp mv dl fuel it)) w in
    match cs !! k with
    | None => exists r w' fp', run = Ok (Some r, w') /\ Q r (heaps w') fp' /\ mloose dbl sz lmax sp' w' fp' /\ untouched s w w' fp'
    | Some OfTerminal => if out then exists w', run = Ok (None, w') /\ mrel sp' w' /\ untouched s w w' [] else run = Err Panic
    | Some OfStage => run = Err Panic
    end.
  Proof.
    intros Hrel Hg Ha run. unfold anywhere, verdict in Ha.
    assert (Hend : (forall It rd rdp nx cp mv dl Sr fuel (it : It),
      is_src (H := H1 * H2) (V := T) (MM := both_mem) rd rdp nx cp mv dl Sr -> (length xs < fuel)%nat ->
      xtri (MM := both_mem) rd rdp (Sr it xs) (body It nx cp mv dl fuel it) k Ends) -> run = Err Panic).
    { intros He. eapply (on_src_ends s _ sp w sp' xs Hrel Hg). intros It rd rdp nx cp mv dl Sr fuel it HS Hf h fp Hw Hr Hs Hp.
      split; [|done]. unfold OptThrow.with_k. by rewrite (He _ _ _ _ _ _ _ _ _ _ HS Hf h fp Hw Hr Hs Hp). }
    destruct (cs !! k) as [[]|]; [by apply Hend|destruct out; [|by apply Hend]|].
    - edestruct (on_src_ok dbl sz lmax dflt eqb cmp Hsz Hlim s
        (fun It nx cp mv dl fuel it => OptThrow.with_k k (body It nx cp mv dl fuel it)) sp w sp' xs
        (pureQ None) Hrel Hg) as (r & w' & fp' & E & [-> Hem] & Hlo & Hu).
      { intros It rd rdp nx cp mv dl Sr fuel it HS Hf h fp Hw Hr Hs Hp.
        destruct (Ha _ _ _ _ _ _ _ _ _ _ HS Hf h fp Hw Hr Hs Hp) as (h' & k' & fp' & E & Hq & Hu).
        exists None, h', fp'. unfold OptThrow.with_k. rewrite E. split; [done|]. done. }
      unfold emp in Hem. subst fp'. exists w'. split; [done|]. split; [by apply loose_done|done].
    - edestruct (on_src_ok dbl sz lmax dflt eqb cmp Hsz Hlim s
        (fun It nx cp mv dl fuel it => OptThrow.with_k k (body It nx cp mv dl fuel it)) sp w sp' xs
        (fun o => match o with Some r => Q r | None => fun _ _ => False end) Hrel Hg) as (r & w' & fp' & E & Hq & Hlo & Hu).
      { intros It rd rdp nx cp mv dl Sr fuel it HS Hf h fp Hw Hr Hs Hp.
        destruct (Ha _ _ _ _ _ _ _ _ _ _ HS Hf h fp Hw Hr Hs Hp) as (x & h' & k' & fp' & E & Hq & Hu).
        exists (Some x), h', fp'. unfold OptThrow.with_k. by rewrite E. }
      destruct r as [r|]; [|done]. by exists r, w', fp'.
  Qed.

  Lemma term_anywhere bar ps t xs k :
    anywhere xs k (escapes bar t) (calls (habits_of t) ps [] xs) (pureQ (xvalue t (denote ps xs)))
      (fun _ nx cp mv dl fuel it => x_term_m nx cp mv dl fuel bar ps t it).
  Proof.
    intros It rd rdp nx cp mv dl Sr fuel it HS Hf. destruct HS as [[Hfr Hd Hok Hn Hdl] Hm Hl Hc].
    assert (Hgo : forall R out cs (m : TM R) (x : R) (c : R -> lout T),
      xtri (MM := both_mem) rd rdp (Sr it xs) m k (verdict out cs k emp (pureQ x)) ->
      xtri (MM := both_mem) rd rdp (Sr it xs) (OptThrow.tbind m (fun r => OptThrow.tret (c r))) k (verdict out cs k emp (pureQ (c x)))).
    { intros R out cs m x c Hx. unfold verdict in *. destruct (cs !! k) as [[]|].
      - by apply x_bind_ends.
      - destruct out; [by apply x_bind_throws|by apply x_bind_ends].
      - eapply (x_bind rd rdp Hfr Hd); [exact Hx|]. intros r k1. apply x_ret; [apply pureQ_ok|].
        intros h fp [-> Hp]. exists fp. by split. }
    destruct t as [[f a|f|q|n]|f a]; cbn [x_term_m xvalue value_of habits_of escapes]; apply Hgo.
    - by apply (x_run_fold_tri rd rdp Hfr Hd nx cp mv dl Sr Hok Hn Hdl Hm Hl Hc bar fuel ps xs Hf).
    - by apply (x_run_reduce_tri rd rdp Hfr Hd nx cp mv dl Sr Hok Hn Hdl Hm Hl Hc bar fuel ps xs Hf).
    - by apply (x_run_find_tri rd rdp Hfr Hd nx cp mv dl Sr Hok Hn Hdl Hm Hl Hc bar fuel ps xs Hf).
    - by apply (x_run_take_tri rd rdp Hfr Hd nx cp mv dl Sr Hok Hn Hdl Hm Hl Hc bar fuel ps xs Hf).
    - by apply (x_run_for_each_tri rd rdp Hfr Hd nx cp mv dl Sr Hok Hn Hdl Hm Hl Hc bar fuel ps xs Hf).
  Qed.
  Lemma collect_anywhere {K R} (kn : HM K) (kp : K -> T -> HM K) (ke : K -> HM R) room Kp Rp bar ps xs k :
    is_sink (MM := both_mem) kn kp ke room Kp Rp -> room (length (denote ps xs)) ->
    anywhere xs k false (calls h_collect ps [] xs) (fun r => Rp r (denote ps xs))
      (fun _ nx cp mv dl fuel it => x_run_collect nx cp mv dl bar fuel ps kn kp ke it).
  Proof.
    intros [K1 K2 K3 K4 K5 K6] Hroom It rd rdp nx cp mv dl Sr fuel it HS Hf. destruct HS as [[Hfr Hd Hok Hn Hdl] Hm Hl Hc].
    apply (x_run_collect_tri rd rdp Hfr Hd nx cp mv dl Sr Hok Hn Hdl Hm Hl Hc bar fuel ps xs Hf kn kp ke Kp Rp room); try done.
    - intros c vs. apply ok_rd, K1.
    - intros c vs. apply ok_rd, K2.
    - apply tri_rd, K4.
    - intros c vs v Hv. by apply tri_rd, K5.
    - intros c vs. apply tri_rd, K6.
  Qed.

  Theorem xmix_step_refines sp w o : xordered o -> mrel sp w -> agrees mrel (step o w) (spec sp o).
  Proof.
    intros Hord Hrel. destruct o as [o|s bar ps [t|j|j] k]; cbn [xmix_step xspec xordered] in *.
    - pose proof (mix_step_refines dbl sz lmax dflt eqb cmp Hsz Hlim sp w o Hord Hrel) as Ha. unfold bind.
      destruct (mspec dbl lmax dflt eqb cmp sp o) as [s x| |]; cbn [agrees] in *; [|by rewrite Ha|done].
      destruct Ha as (w' & -> & Hr). by eexists.
    - match goal with |- agrees _ _ (xitems sp s ?k) => destruct (xitems_case sp s k) as [->|(sp' & xs & Hg & ->)]; [done|] end.
      pose proof (on_src_x s _ sp w sp' xs k _ _ _ Hrel Hg (term_anywhere bar ps t xs k)) as Hx. cbn zeta in Hx.
      unfold at_call, bind. destruct (calls (habits_of t) ps [] xs !! k) as [[]|].
      + cbn [agrees]. by rewrite Hx.
      + destruct (escapes bar t); cbn [agrees]; [|by rewrite Hx]. destruct Hx as (w' & -> & Hr & _). by eexists.
      + destruct Hx as (r & w' & fp' & -> & [-> Hem] & Hlo & _). unfold emp in Hem. subst fp'. eexists. split; [done|].
        by apply loose_done.
    - destruct (fst sp !! j) eqn:Hj; [done|].
      match goal with |- agrees _ _ (xitems sp s ?k) => destruct (xitems_case sp s k) as [->|(sp' & xs & Hg & ->)]; [done|] end.
      destruct (N.ltb_spec (N.of_nat (length (denote ps xs))) W) as [HW|]; [|done].
      pose proof (on_src_x s _ sp w sp' xs k _ _ _ Hrel Hg
        (collect_anywhere _ _ _ _ _ _ bar ps xs k (sink_inl _ _ _ _ _ _ (l_sink dbl)) HW)) as Hx. cbn zeta in Hx.
      unfold at_call, bind, inl_m at 1, wnew. rewrite (no_var_l _ _ _ _ _ _ Hrel Hj). destruct w as [w1 w2]. cbn [fst snd] in *.
      unfold l_new, l_put, l_end. destruct (calls h_collect ps [] xs !! k) as [[]|]; cbn [agrees]; [by rewrite Hx..|].
      destruct Hx as (r & w' & fp' & -> & Hq & Hlo & _). eexists. split; [done|].
      eapply put_list; [done| |done]. by eapply gives_fresh_l.
    - destruct (snd sp !! j) eqn:Hj; [done|].
      match goal with |- agrees _ _ (xitems sp s ?k) => destruct (xitems_case sp s k) as [->|(sp' & xs & Hg & ->)]; [done|] end.
      destruct (N.leb_spec (N.of_nat (length (denote ps xs))) lmax) as [HW|]; [|done].
      pose proof (on_src_x s _ sp w sp' xs k _ _ _ Hrel Hg
        (collect_anywhere _ _ _ _ _ _ bar ps xs k (sink_inr _ _ _ _ _ _ (v_sink sz lmax Hsz Hlim)) HW)) as Hx. cbn zeta in Hx.
      unfold at_call, bind, inr_m at 1, wnew. rewrite (no_var_v _ _ _ _ _ _ Hrel Hj). destruct w as [w1 w2]. cbn [fst snd] in *.
      unfold w_new, w_put, w_end. destruct (calls h_collect ps [] xs !! k) as [[]|]; cbn [agrees]; [by rewrite Hx..|].
      destruct Hx as (r & w' & fp' & -> & Hq & Hlo & _). eexists. split; [done|].
      eapply put_vec; [done| |done|done]. by eapply gives_fresh_v.
  Qed.
End Proofs.

(** ** The properties *)
Section Props.
  Context {T : Type} (dbl : bool) (sz lmax : N) (dflt : T) (eqb : T -> T -> bool) (cmp : T -> T -> comparison).
  Context (Hsz : 1 <= sz) (Hlim : sz * (2 * lmax + 2) <= alloc_max).
  Notation step := (xmix_step dbl sz dflt eqb cmp).
  Notation spec := (xspec dbl lmax dflt eqb cmp).
  Notation mrel := (mrel (T := T) dbl sz lmax).
  Notation start := (@winit (ListModel.cell T) lst, @winit (VecModel.block T) VecModel.vec).
  Notation none := ((∅, ∅) : gmap nat (N * option (list T)) * gmap nat (list T)).

  Lemma xmix_run ops : Forall xordered ops -> forall sp w, mrel sp w -> agrees mrel (run_ops step ops w) (srun spec sp ops).
  Proof.
    induction 1 as [|o ops Ho _ IH]; intros sp w Hr; cbn [run_ops srun].
    { by exists w. }
    pose proof (xmix_step_refines dbl sz lmax dflt eqb cmp Hsz Hlim sp w o Ho Hr) as Hs. unfold agrees, bind, ret in *.
    destruct (spec sp o) as [sp1 x| |]; [|by rewrite Hs|done]. destruct Hs as (w1 & -> & Hr1).
    pose proof (IH sp1 w1 Hr1) as H2. destruct (srun spec sp1 ops) as [sp2 xs| |]; [|by rewrite H2|done].
    destruct H2 as (w2 & -> & Hr2). by exists w2.
  Qed.

  (** Any program whose closures throw, that catches what it can and goes on:
      each expression gives its value, or throws, as the record of the calls
      says; the collections hold the sequences they should.  Where the record
      says so the program is terminated. *)
  Theorem C71_programs_partial ops : Forall xordered ops ->
    (forall sp outs, srun spec none ops = SOk sp outs ->
       exists w, run_ops step ops start = Ok (outs, w) /\
         (forall i al xs, fst sp !! i = Some (al, Some xs) ->
            exists w', step (XOp (MList (PStep (LItems i)))) w = Ok (Some (OL (OList xs)), w')) /\
         (forall i al, fst sp !! i = Some (al, None) ->
            exists w', step (XOp (MList (PStep (LMovedQ i)))) w = Ok (Some (OL (OBool true)), w')) /\
         (forall i xs, snd sp !! i = Some xs ->
            exists w', step (XOp (MVec (VecModel.VIterAll i))) w = Ok (Some (OV (VecModel.OSeq xs)), w'))) /\
    (srun spec none ops = SPanic -> run_ops step ops start = Err Panic).
  Proof.
    intros Ho. pose proof (xmix_run ops Ho none start (mrel_init dbl sz lmax)) as Ha. split.
    - intros sp outs E. rewrite E in Ha. destruct Ha as (w & E2 & Hr). exists w. split; [done|]. cbn [xmix_step]. unfold bind at 1 2 3.
      split; [|split].
      + intros i al xs Hi. destruct (list_reads dbl sz lmax dflt eqb cmp Hsz Hlim sp w i al xs Hr Hi) as (w' & ->). by exists w'.
      + intros i al Hi.
        pose proof (mix_step_refines dbl sz lmax dflt eqb cmp Hsz Hlim sp w (MList (PStep (LMovedQ i))) I Hr) as Hs.
        cbn [mspec pspec] in Hs. unfold gspec in Hs. cbn [safe lspec] in Hs. unfold look in Hs. rewrite Hi in Hs.
        destruct Hs as (w' & -> & _). by exists w'.
      + intros i xs Hi. destruct (vec_reads dbl sz lmax dflt eqb cmp Hsz Hlim sp w i xs Hr Hi) as (w' & ->). by exists w'.
    - intros E. by rewrite E in Ha.
  Qed.
  (** Once the lists and the vectors are gone, nothing is left, whatever was thrown. *)
  Theorem C71_storage ops outs : Forall xordered ops -> srun spec none ops = SOk none outs ->
    exists w, run_ops step ops start = Ok (outs, w) /\
      hmap (w_heap (fst w)) = ∅ /\ w_vars (fst w) = ∅ /\ hmap (w_heap (snd w)) = ∅ /\ w_vars (snd w) = ∅.
  Proof.
    intros Ho E. pose proof (xmix_run ops Ho none start (mrel_init dbl sz lmax)) as Ha. rewrite E in Ha.
    destruct Ha as (w & E2 & R1 & R2 & _). exists w. split; [done|].
    destruct (world_ok_empty _ _ R1), (world_ok_empty _ _ R2). done.
  Qed.

  (** What a pipeline over a vector or a borrowed list does in any state a
      program can reach. *)
  Definition holds (sp : gmap nat (N * option (list T)) * gmap nat (list T)) (s : msrc) (xs : list T) : Prop :=
    match s with
    | SL i => exists al, fst sp !! i = Some (al, Some xs)
    | SV i => snd sp !! i = Some xs
    | SLInto _ => False
    end.
  (** It throws to the caller exactly when the lambda of a fold or reduce written
      with [|] throws, and then nothing that exists has changed; it ends the
      program exactly when another closure throws; otherwise it gives the value. *)
  Theorem C71_exact_partial ops sp outs s xs bar ps t k : Forall xordered ops -> srun spec none ops = SOk sp outs -> holds sp s xs ->
    exists w, run_ops step ops start = Ok (outs, w) /\
      let o := step (XPipe s bar ps (XTerm t) k) w in
      let c := calls (habits_of t) ps [] xs !! k in
      ((exists w', o = Ok (None, w')) <-> c = Some OfTerminal /\ escapes bar t = true) /\
      (forall w', o = Ok (None, w') -> kept (fst w) (fst w') /\ kept (snd w) (snd w')) /\
      (o = Err Panic <-> c = Some OfStage \/ c = Some OfTerminal /\ escapes bar t = false) /\
      ((exists w', o = Ok (Some (OL (xvalue t (denote ps xs))), w')) <-> c = None).
  Proof.
    intros Ho E Hh. pose proof (xmix_run ops Ho none start (mrel_init dbl sz lmax)) as Ha. rewrite E in Ha.
    destruct Ha as (w & E2 & Hr). exists w. split; [done|].
    assert (Hg : gives sp s sp xs) by (destruct s; [destruct Hh; by econstructor|done|by econstructor]).
    pose proof (on_src_x dbl sz lmax dflt eqb cmp Hsz Hlim s _ sp w sp xs k _ _ _ Hr Hg (term_anywhere bar ps t xs k)) as Hx.
    cbn zeta in Hx |- *. cbn [xmix_step]. unfold bind.
    destruct (calls (habits_of t) ps [] xs !! k) as [[]|] eqn:Hc.
    - rewrite Hx. split_and!; [split; [by intros []|by intros []]|done|split; [by left|done]|split; [by intros []|done]].
    - destruct (escapes bar t) eqn:He.
      + destruct Hx as (w' & -> & _ & Hu). split_and!; [split; [done|by exists w']| |split; [done|by intros [|[]]]|split; [by intros []|done]].
        intros w2 [= <-]. pose proof Hr as ([m1 Hw1] & [m2 Hw2] & _).
        assert (Hu' : mupd (heaps w) (heaps w') [] [] /\ w_vars (fst w') = w_vars (fst w) /\ w_vars (snd w') = w_vars (snd w))
          by (by destruct s). destruct Hu' as ([U1 U2] & V1 & V2). unfold kept. rewrite V1, V2. split; (split; [|done]).
        * eapply upd_nil_keeps; [apply Hw1|exact U1].
        * eapply upd_nil_keeps; [apply Hw2|exact U2].
      + rewrite Hx. split_and!; [split; [by intros []|by intros []]|done|split; [by right|done]|split; [by intros []|done]].
    - destruct Hx as (r & w' & fp' & -> & [-> _] & _).
      split_and!; [split; [by intros []|by intros []]|done|split; [done|by intros [|[]]]|split; [done|by exists w']].
  Qed.
End Props.

(** ** Concrete programs *)
Notation xstep dbl := (xmix_step dbl 8 0 N.eqb N.compare).
Notation xspc dbl := (xspec dbl 100 0 N.eqb N.compare).
(** A fold and a reduce that throw, on a list, a vector and a list moved into
    the pipeline; all three are used afterwards.  With numbers of calls large
    enough the same expressions return. *)
Definition catch_ops : list (xop N) :=
  [ XOp (MList (PStep (LFrom 0 [1; 2; 3; 4; 5]))); XPipe (SL 0) true [double; small] (XVec 0) 10;
    XPipe (SL 0) true [double; small] (XTerm (XT (TFold (fun a x => a ++ [x]) []))) 5;
    XPipe (SL 0) true [double; small] (XTerm (XT (TFold (fun a x => a ++ [x]) []))) 15;
    XPipe (SV 0) true [small] (XTerm (XT (TReduce N.add))) 2;
    XPipe (SV 0) false [small] (XTerm (XForEach (fun a x => x :: a) [])) 9;
    XOp (MVec (VecModel.VIterAll 0));
    XPipe (SLInto 0) true [] (XTerm (XT (TReduce N.add))) 0; XOp (MList (PStep (LMovedQ 0)));
    XOp (MList (PStep (LDel 0))); XOp (MVec (VecModel.VDestroy 0)) ].
Definition catch_outs : list (option (mout N)) :=
  [ Some (OL OUnit); Some (OV VecModel.ONone); None; Some (OL (OList [2; 4; 6; 8; 10])); None;
    Some (OL (OList [8; 6; 4; 2])); Some (OV (VecModel.OSeq [2; 4; 6; 8; 10]));
    None; Some (OL (OBool true)); Some (OL OUnit); Some (OV VecModel.ONone) ].
Lemma catch_ordered : Forall xordered catch_ops.
Proof. repeat constructor. Qed.
Lemma xended2 (r : sres (gmap nat (N * option (list N)) * gmap nat (list N)) (list (option (mout N)))) outs :
  match r with SOk sp o => map_to_list (fst sp) = [] /\ map_to_list (snd sp) = [] /\ o = outs | _ => False end ->
  r = SOk (∅, ∅) outs.
Proof.
  destruct r as [[a b] o| |]; [|done|done]. cbn [fst snd]. intros (H1 & H2 & ->).
  by apply map_to_list_empty_iff in H1 as ->; apply map_to_list_empty_iff in H2 as ->.
Qed.
Example C71_spec_ex dbl : srun (xspc dbl) (∅, ∅) catch_ops = SOk (∅, ∅) catch_outs.
Proof. destruct dbl; (apply xended2; vm_compute; split; [|split]; reflexivity). Qed.
Example C71_storage_ex dbl : exists w, run_ops (xstep dbl) catch_ops mstart = Ok (catch_outs, w) /\
  hmap (w_heap (fst w)) = ∅ /\ hmap (w_heap (snd w)) = ∅.
Proof.
  destruct (C71_storage dbl 8 100 0 N.eqb N.compare ex_sz ex_lim _ _ catch_ordered (C71_spec_ex dbl))
    as (w & E & H1 & _ & H2 & _). by exists w.
Qed.
(** Run, not deduced. *)
Example C71_run dbl :
  match run_ops (xstep dbl) catch_ops mstart with
  | Ok (r, w) => Some (r, size (hmap (w_heap (fst w))), size (hmap (w_heap (snd w)))) | Err _ => None
  end = Some (catch_outs, 0%nat, 0%nat).
Proof. destruct dbl; vm_compute; reflexivity. Qed.

Definition x_start : list (xop N) := XOp <$> mix_start.
Lemma x_start_run dbl : srun (xspc dbl) (∅, ∅) x_start =
  SOk ({[0%nat := (0, Some [1; 2; 3])]}, {[0%nat := [4; 5]]}) [Some (OL OUnit); Some (OV VecModel.ONone)].
Proof. by destruct dbl; vm_compute. Qed.
Lemma x_start_ordered : Forall xordered x_start.
Proof. repeat constructor. Qed.
Notation sum := (XTerm (XT (TFold (fun a x => x :: a) []))).
(** A thrown fold: the list keeps its elements. *)
Example C71_programs_ex dbl : exists w w1,
  run_ops (xstep dbl) (x_start ++ [XPipe (SL 0) true [double] sum 3]) mstart = Ok ([Some (OL OUnit); Some (OV VecModel.ONone); None], w) /\
  xstep dbl (XOp (MList (PStep (LItems 0)))) w = Ok (Some (OL (OList [1; 2; 3])), w1).
Proof.
  destruct (C71_programs_partial dbl 8 100 0 N.eqb N.compare ex_sz ex_lim (x_start ++ [XPipe (SL 0) true [double] sum 3])
    ltac:(repeat constructor)) as [H _].
  destruct (H ({[0%nat := (0, Some [1; 2; 3])]}, {[0%nat := [4; 5]]}) [Some (OL OUnit); Some (OV VecModel.ONone); None])
    as (w & E & H1 & _); [by destruct dbl; vm_compute|].
  destruct (H1 0%nat 0 [1; 2; 3]) as [w1 E1]; [done|]. by exists w, w1.
Qed.
(** With the lambda of a map instead: terminated.  The same when the fold is
    written with [combine]. *)
Example C71_terminated_ex dbl :
  run_ops (xstep dbl) (x_start ++ [XPipe (SL 0) true [double] sum 2]) mstart = Err Panic /\
  run_ops (xstep dbl) (x_start ++ [XPipe (SL 0) false [double] sum 3]) mstart = Err Panic.
Proof.
  assert (H := fun o Ho => proj2 (C71_programs_partial dbl 8 100 0 N.eqb N.compare ex_sz ex_lim (x_start ++ [o]) Ho)).
  split; (apply H; [repeat constructor|by destruct dbl; vm_compute]).
Qed.
Example C71_exact_ex dbl : exists w w', run_ops (xstep dbl) x_start mstart = Ok ([Some (OL OUnit); Some (OV VecModel.ONone)], w) /\
  xstep dbl (XPipe (SV 0) true [double] sum 1) w = Ok (None, w') /\ kept (fst w) (fst w') /\ kept (snd w) (snd w') /\
  xstep dbl (XPipe (SV 0) true [double] sum 2) w = Err Panic /\
  exists w2, xstep dbl (XPipe (SV 0) true [double] sum 4) w = Ok (Some (OL (OList [10; 8])), w2).
Proof.
  assert (H := fun k => C71_exact_partial dbl 8 100 0 N.eqb N.compare ex_sz ex_lim _ _ _ (SV 0) [4; 5] true [double] (XT (TFold (fun a x => x :: a) [])) k
    x_start_ordered (x_start_run dbl) ltac:(done)).
  destruct (H 1%nat) as (w & E & [_ H1] & H2 & _). destruct H1 as [w' E1]; [done|]. exists w, w'. split; [done|]. split; [done|].
  split; [by apply (H2 w')|]. split; [by apply (H2 w')|].
  destruct (H 2%nat) as (w0 & E0 & _ & _ & [_ H3] & _). rewrite E in E0. injection E0 as <-. split; [apply H3; by left|].
  destruct (H 4%nat) as (w0 & E0 & _ & _ & _ & [_ H4]). rewrite E in E0. injection E0 as <-. by apply H4.
Qed.

(** So "an exception of a closure reaches the caller" is false.  An expression
    that returns when its closures do should either return or throw when they
    do not: it ends the program instead, with [|] because of the lambda of a
    [map], and without [|] already for a [fold] alone. *)
Definition reaches_caller (bar : bool) (allowed : list (padapt (V := N)) -> Prop) : Prop :=
  forall (ops : list (xop N)) s ps t k k' outs w x w', allowed ps ->
    run_ops (xstep true) ops mstart = Ok (outs, w) ->
    xstep true (XPipe s bar ps (XTerm t) k') w = Ok (Some x, w') ->
    exists y w2, xstep true (XPipe s bar ps (XTerm t) k) w = Ok (y, w2).
Theorem C71_refuted : ~ reaches_caller true (fun _ => True) /\ ~ reaches_caller false (fun ps => ps = []).
Proof.
  assert (Hgo : forall bar (allowed : list (padapt (V := N)) -> Prop) ps k, allowed ps ->
    (calls h_fold ps [] [1; 2; 3] !! k = Some OfStage \/ calls h_fold ps [] [1; 2; 3] !! k = Some OfTerminal /\ bar = false) ->
    calls h_fold ps [] [1; 2; 3] !! 6%nat = None -> ~ reaches_caller bar allowed).
  { intros bar allowed ps k Ha Hk H6 H.
    assert (Hx := fun k => C71_exact_partial true 8 100 0 N.eqb N.compare ex_sz ex_lim _ _ _ (SL 0) [1; 2; 3] bar ps (XT (TFold (fun a x => x :: a) [])) k
      x_start_ordered (x_start_run true) ltac:(by exists 0)).
    destruct (Hx 6%nat) as (w & E & _ & _ & _ & [_ Hv]). destruct (Hv H6) as [w' E6].
    destruct (Hx k) as (w1 & E1 & _ & _ & [_ Hp] & _). rewrite E in E1. injection E1 as <-. specialize (Hp Hk).
    destruct (H x_start (SL 0) ps _ k 6%nat _ w _ w' Ha E E6) as (y & w2 & Ey). by rewrite Hp in Ey. }
  split.
  - apply (Hgo true (fun _ => True) [double] 4%nat); [done|by left|done].
  - apply (Hgo false (fun ps => ps = []) [] 2%nat); [done|by right|done].
Qed.

Print Assumptions C71_programs_partial.
Print Assumptions C71_storage.
Print Assumptions C71_exact_partial.
Print Assumptions C71_refuted.
