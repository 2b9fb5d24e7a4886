(** * Tri: triples with footprints

    Proof infrastructure only (no model content).  [P h fp]: in the memory [h]
    the addresses [fp] are owned and [P] holds of them.  A triple says that a
    program runs without an error and only touches what it owns.  [rd] are
    addresses that are only read (a collection that is iterated over without
    being consumed), [rdp] what is known about them.

    A memory is one heap, or several side by side. *)
From Verif Require Import Base World PipeModel.
Local Open Scope N_scope.

Class mem (St Ad : Type) := Mem {
  mcell : Type;
  mlook : St -> Ad -> option mcell;
  mwf : St -> Prop;
  mupd : St -> St -> list Ad -> list Ad -> Prop;
  mupd_wf : forall h h' f f', mupd h h' f f' -> mwf h';
  mupd_refl : forall h f, mwf h -> (forall a, a ∈ f -> is_Some (mlook h a)) -> mupd h h f f;
  mupd_trans : forall h h1 h2 f f1 f2, mwf h -> mupd h h1 f f1 -> mupd h1 h2 f1 f2 -> mupd h h2 f f2;
  mupd_equiv : forall h h' f f' g g', (forall a, a ∈ f <-> a ∈ g) -> (forall a, a ∈ f' <-> a ∈ g') ->
    mupd h h' f f' -> mupd h h' g g';
  mupd_frame : forall h h' f f' a, mwf h -> mupd h h' f f' -> is_Some (mlook h a) -> a ∉ f -> mlook h' a = mlook h a;
  mupd_new : forall h h' f f' a, mwf h -> mupd h h' f f' -> a ∈ f' -> a ∈ f \/ mlook h a = None;
  mupd_frame_r : forall h h' f f' g, mwf h -> mupd h h' f f' ->
    (forall a, a ∈ g -> is_Some (mlook h a) /\ a ∉ f) -> mupd h h' (f ++ g) (f' ++ g);
}.

Lemma heap_frame {C} (h h' : heap C) f f' a : hwf h -> upd h h' f f' -> is_Some (hmap h !! a) -> a ∉ f ->
  hmap h' !! a = hmap h !! a.
Proof. intros Hw Hu Ha Hn. apply (upd_frame _ _ _ _ Hu); [by apply Hw|done]. Qed.
Lemma heap_new {C} (h h' : heap C) f f' a : hwf h -> upd h h' f f' -> a ∈ f' -> a ∈ f \/ hmap h !! a = None.
Proof.
  intros Hw Hu Ha. destruct (upd_new _ _ _ _ Hu a Ha) as [Hi|Hi]; [by left|right].
  destruct (hmap h !! a) eqn:E; [|done]. assert (a < hnext h) by (apply Hw; by rewrite E). lia.
Qed.
Global Instance heap_mem {C : Type} : mem (heap C) N :=
  Mem _ _ C (fun h a => hmap h !! a) hwf upd upd_wf upd_refl upd_trans upd_equiv heap_frame heap_new upd_frame_r.

(** Two memories. *)
Section Both.
  Context {S1 A1 S2 A2 : Type} {M1 : mem S1 A1} {M2 : mem S2 A2}.
  Notation St := (S1 * S2)%type.
  Notation Ad := (A1 + A2)%type.
  Definition lefts (f : list Ad) : list A1 := omap (fun x => match x with inl a => Some a | inr _ => None end) f.
  Definition rights (f : list Ad) : list A2 := omap (fun x => match x with inl _ => None | inr a => Some a end) f.
  Lemma elem_lefts f a : a ∈ lefts f <-> inl a ∈ f.
  Proof.
    unfold lefts. rewrite elem_of_list_omap. split.
    - intros ([b|b] & Hb & E); [|done]. by injection E as ->.
    - intros Ha. by exists (inl a).
  Qed.
  Lemma elem_rights f a : a ∈ rights f <-> inr a ∈ f.
  Proof.
    unfold rights. rewrite elem_of_list_omap. split.
    - intros ([b|b] & Hb & E); [done|]. by injection E as ->.
    - intros Ha. by exists (inr a).
  Qed.
  Lemma lefts_app f g : lefts (f ++ g) = lefts f ++ lefts g.
  Proof. apply omap_app. Qed.
  Lemma rights_app f g : rights (f ++ g) = rights f ++ rights g.
  Proof. apply omap_app. Qed.
  Lemma lefts_inl f : lefts (inl <$> f) = f.
  Proof. induction f as [|a f IH]; [done|]. cbn. by f_equal. Qed.
  Lemma lefts_inr f : lefts (inr <$> f) = [].
  Proof. by induction f. Qed.
  Lemma rights_inr f : rights (inr <$> f) = f.
  Proof. induction f as [|a f IH]; [done|]. cbn. by f_equal. Qed.
  Lemma rights_inl f : rights (inl <$> f) = [].
  Proof. by induction f. Qed.
  Definition both_look (h : St) (a : Ad) : option (mcell (mem := M1) + mcell (mem := M2)) :=
    match a with inl a => inl <$> mlook (fst h) a | inr a => inr <$> mlook (snd h) a end.
  Definition both_wf (h : St) : Prop := mwf (fst h) /\ mwf (snd h).
  Definition both_upd (h h' : St) (f f' : list Ad) : Prop :=
    mupd (fst h) (fst h') (lefts f) (lefts f') /\ mupd (snd h) (snd h') (rights f) (rights f').
  Lemma both_upd_wf h h' f f' : both_upd h h' f f' -> both_wf h'.
  Proof. intros [H1 H2]. split; by eapply mupd_wf. Qed.
  Lemma both_upd_refl h f : both_wf h -> (forall a, a ∈ f -> is_Some (both_look h a)) -> both_upd h h f f.
  Proof.
    intros [H1 H2] Hf. split; apply mupd_refl; try done; intros a Ha.
    - apply elem_lefts, Hf in Ha. cbn in Ha. by apply fmap_is_Some in Ha.
    - apply elem_rights, Hf in Ha. cbn in Ha. by apply fmap_is_Some in Ha.
  Qed.
  Lemma both_upd_trans h h1 h2 f f1 f2 : both_wf h -> both_upd h h1 f f1 -> both_upd h1 h2 f1 f2 -> both_upd h h2 f f2.
  Proof. intros [W1 W2] [H1 H2] [H3 H4]. split; by eapply mupd_trans. Qed.
  Lemma both_upd_equiv h h' f f' g g' : (forall a, a ∈ f <-> a ∈ g) -> (forall a, a ∈ f' <-> a ∈ g') ->
    both_upd h h' f f' -> both_upd h h' g g'.
  Proof.
    intros Hf Hg [H1 H2]. split.
    - eapply mupd_equiv; [| |exact H1]; intros a; rewrite !elem_lefts; naive_solver.
    - eapply mupd_equiv; [| |exact H2]; intros a; rewrite !elem_rights; naive_solver.
  Qed.
  Lemma both_frame h h' f f' a : both_wf h -> both_upd h h' f f' -> is_Some (both_look h a) -> a ∉ f ->
    both_look h' a = both_look h a.
  Proof.
    intros [W1 W2] [H1 H2] Ha Hn. destruct a as [a|a]; cbn in *; apply fmap_is_Some in Ha; f_equal.
    - eapply mupd_frame; [exact W1|exact H1|done|]. by rewrite elem_lefts.
    - eapply mupd_frame; [exact W2|exact H2|done|]. by rewrite elem_rights.
  Qed.
  Lemma both_new h h' f f' a : both_wf h -> both_upd h h' f f' -> a ∈ f' -> a ∈ f \/ both_look h a = None.
  Proof.
    intros [W1 W2] [H1 H2] Ha. destruct a as [a|a]; cbn in *.
    - apply elem_lefts in Ha. destruct (mupd_new _ _ _ _ _ W1 H1 Ha) as [Hi|Hi]; [left; by apply elem_lefts|right; by rewrite Hi].
    - apply elem_rights in Ha. destruct (mupd_new _ _ _ _ _ W2 H2 Ha) as [Hi|Hi]; [left; by apply elem_rights|right; by rewrite Hi].
  Qed.
  Lemma both_frame_r h h' f f' g : both_wf h -> both_upd h h' f f' ->
    (forall a, a ∈ g -> is_Some (both_look h a) /\ a ∉ f) -> both_upd h h' (f ++ g) (f' ++ g).
  Proof.
    intros [W1 W2] [H1 H2] Hg. split; rewrite ?lefts_app, ?rights_app; apply mupd_frame_r; try done; intros a Ha.
    - apply elem_lefts in Ha. destruct (Hg _ Ha) as [Hs Hn]. cbn in Hs. rewrite elem_lefts.
      split; [by apply fmap_is_Some in Hs|done].
    - apply elem_rights in Ha. destruct (Hg _ Ha) as [Hs Hn]. cbn in Hs. rewrite elem_rights.
      split; [by apply fmap_is_Some in Hs|done].
  Qed.
  Global Instance both_mem : mem St Ad :=
    Mem _ _ _ both_look both_wf both_upd both_upd_wf both_upd_refl both_upd_trans both_upd_equiv both_frame both_new
      both_frame_r.
End Both.

Section Tri.
  Context {H Ad : Type} {MM : mem H Ad}.
  Notation HM := (M H).
  Notation asn := (H -> list Ad -> Prop).
  Context (rd : list Ad) (rdp : H -> Prop).
  Context (rdp_frame : forall h h', rdp h -> (forall a, a ∈ rd -> mlook h' a = mlook h a) -> rdp h').
  Context (rdp_dom : forall h a, rdp h -> a ∈ rd -> is_Some (mlook h a)).

  Definition sep (f g : list Ad) : Prop := forall a, a ∈ f -> a ∈ g -> False.
  Definition same (f g : list Ad) : Prop := forall a, a ∈ f <-> a ∈ g.
  Record asn_ok (P : asn) : Prop := AsnOk {
    ao_frame : forall h h' fp, rdp h -> P h fp -> (forall a, a ∈ fp ++ rd -> mlook h' a = mlook h a) -> P h' fp;
    ao_dom : forall h fp a, P h fp -> a ∈ fp -> is_Some (mlook h a);
  }.
  Definition ent (P Q : asn) : Prop := forall h fp, P h fp -> exists fp', same fp fp' /\ Q h fp'.
  Definition emp : asn := fun _ fp => fp = [].
  Definition star (P Q : asn) : asn := fun h fp =>
    exists f g, fp = f ++ g /\ sep f g /\ P h f /\ Q h g.
  Definition pur (p : Prop) (P : asn) : asn := fun h fp => p /\ P h fp.

  Definition tri {A} (P : asn) (m : HM A) (Q : A -> asn) : Prop :=
    forall h fp, mwf h -> rdp h -> sep fp rd -> P h fp ->
      exists a h' fp', m h = Ok (a, h') /\ Q a h' fp' /\ mupd h h' fp fp'.

  Lemma upd_rd h h' fp fp' : mwf h -> rdp h -> sep fp rd -> mupd h h' fp fp' ->
    rdp h' /\ sep fp' rd /\ (forall a, a ∈ rd -> mlook h' a = mlook h a).
  Proof using rdp_frame rdp_dom.
    intros Hw Hr Hs Hu.
    assert (Hf : forall a, a ∈ rd -> mlook h' a = mlook h a).
    { intros a Ha. apply (mupd_frame _ _ _ _ _ Hw Hu); [by apply rdp_dom|]. intros Hi. by eapply Hs. }
    split; [by eapply rdp_frame|]. split; [|done]. intros a Ha Hr2.
    destruct (mupd_new _ _ _ _ _ Hw Hu Ha) as [Hi|Hi]; [by eapply Hs|].
    destruct (rdp_dom h a Hr Hr2) as [c Hc]. by rewrite Hi in Hc.
  Qed.

  Lemma tri_ret {A} (P : asn) (a : A) (Q : A -> asn) : asn_ok P -> ent P (Q a) -> tri P (ret a) Q.
  Proof using.
    intros HP He h fp Hw Hr Hs Hp. destruct (He h fp Hp) as (fp' & Hsame & Hq).
    exists a, h, fp'. split; [done|]. split; [done|].
    eapply mupd_equiv; [|exact Hsame|]; [done|]. apply mupd_refl; [done|]. intros b Hb. by eapply ao_dom.
  Qed.
  Lemma tri_bind {A B} (P : asn) (m : HM A) (Q : A -> asn) (f : A -> HM B) (R : B -> asn) :
    tri P m Q -> (forall a, tri (Q a) (f a) R) -> tri P (bind m f) R.
  Proof using rdp_frame rdp_dom.
    intros Hm Hf h fp Hw Hr Hs Hp. destruct (Hm h fp Hw Hr Hs Hp) as (a & h1 & fp1 & E & Hq & Hu).
    destruct (upd_rd _ _ _ _ Hw Hr Hs Hu) as (Hr1 & Hs1 & _).
    destruct (Hf a h1 fp1 (mupd_wf _ _ _ _ Hu) Hr1 Hs1 Hq) as (b & h2 & fp2 & E2 & Hq2 & Hu2).
    exists b, h2, fp2. unfold bind. rewrite E. split; [done|]. split; [done|]. by eapply mupd_trans.
  Qed.
  Lemma tri_ent {A} (P P' : asn) (m : HM A) (Q Q' : A -> asn) :
    ent P P' -> tri P' m Q' -> (forall a, ent (Q' a) (Q a)) -> tri P m Q.
  Proof using.
    intros HP Hm HQ h fp Hw Hr Hs Hp. destruct (HP h fp Hp) as (fp1 & S1 & Hp1).
    destruct (Hm h fp1 Hw Hr) as (a & h1 & fp2 & E & Hq & Hu).
    { intros b Hb. apply Hs. by apply S1. } { done. }
    destruct (HQ a h1 fp2 Hq) as (fp3 & S3 & Hq3). exists a, h1, fp3. split; [done|]. split; [done|].
    eapply mupd_equiv; [| |exact Hu]; [|done]. intros b. symmetry. apply S1.
  Qed.
  Lemma ent_refl (P : asn) : ent P P.
  Proof using. intros h fp Hp. by exists fp. Qed.
  Lemma tri_pre {A} (P P' : asn) (m : HM A) (Q : A -> asn) : ent P P' -> tri P' m Q -> tri P m Q.
  Proof using. intros H1 H2. eapply tri_ent; [exact H1|exact H2|]. intros a. apply ent_refl. Qed.
  Lemma tri_post {A} (P : asn) (m : HM A) (Q Q' : A -> asn) : tri P m Q' -> (forall a, ent (Q' a) (Q a)) -> tri P m Q.
  Proof using. intros H1 H2. eapply tri_ent; [apply ent_refl|exact H1|done]. Qed.
  Lemma tri_pur {A} (p : Prop) (P : asn) (m : HM A) (Q : A -> asn) : (p -> tri P m Q) -> tri (pur p P) m Q.
  Proof using. intros Hm h fp Hw Hr Hs [Hp HP]. by apply Hm. Qed.
  Lemma tri_pure_post {A} (p : Prop) (P : asn) (m : HM A) (Q : A -> asn) : p -> tri P m Q -> tri P m (fun a => pur p (Q a)).
  Proof using. intros Hp Hm. eapply tri_post; [exact Hm|]. intros a h fp Hq. by exists fp. Qed.

  Lemma frame_upd h h' f g fp' (G : asn) : asn_ok G -> mwf h -> rdp h -> sep (f ++ g) rd -> sep f g -> G h g ->
    mupd h h' f fp' -> G h' g /\ sep fp' g /\ mupd h h' (f ++ g) (fp' ++ g).
  Proof using rdp_frame rdp_dom.
    intros HG Hw Hr Hs Hfg Hg Hu. split; [|split].
    - eapply ao_frame; [done|exact Hr|exact Hg|]. intros a [Ha|Ha]%elem_of_app.
      + apply (mupd_frame _ _ _ _ _ Hw Hu); [by eapply ao_dom|]. intros Hi. by eapply Hfg.
      + apply (upd_rd _ _ f fp' Hw Hr); [|done|done]. intros b Hb. apply Hs. apply elem_of_app. by left.
    - intros a Ha Hga. destruct (mupd_new _ _ _ _ _ Hw Hu Ha) as [Hi|Hi]; [by eapply Hfg|].
      destruct (ao_dom _ HG _ _ a Hg Hga) as [c Hc]. by rewrite Hi in Hc.
    - apply mupd_frame_r; [done|done|]. intros a Ha. split; [by eapply ao_dom|]. intros Hi. by eapply Hfg.
  Qed.
  Lemma tri_frame {A} (P : asn) (m : HM A) (Q : A -> asn) (G : asn) : asn_ok G -> tri P m Q ->
    tri (star P G) m (fun a => star (Q a) G).
  Proof using rdp_frame rdp_dom.
    intros HG Hm h fp Hw Hr Hs (f & g & -> & Hfg & Hp & Hg).
    destruct (Hm h f Hw Hr) as (a & h' & fp' & E & Hq & Hu); [|done|].
    { intros b Hb. apply Hs, elem_of_app. by left. }
    destruct (frame_upd _ _ _ _ _ _ HG Hw Hr Hs Hfg Hg Hu) as (Hg' & Hs' & Hu').
    exists a, h', (fp' ++ g). split; [done|]. split; [|done]. by exists fp', g.
  Qed.
  Lemma tri_frame_l {A} (P : asn) (m : HM A) (Q : A -> asn) (G : asn) : asn_ok G -> tri P m Q ->
    tri (star G P) m (fun a => star G (Q a)).
  Proof using rdp_frame rdp_dom.
    assert (Hc : forall X Y, ent (star X Y) (star Y X)).
    { intros X Y h fp (f & g & -> & Hfg & Hx & Hy). exists (g ++ f). split.
      - intros a. rewrite !elem_of_app. naive_solver.
      - exists g, f. split; [done|]. split; [|done]. intros a Ha Hb. by eapply Hfg. }
    intros HG Hm. eapply tri_ent; [apply Hc|by apply tri_frame|]. intros a. apply Hc.
  Qed.

  Lemma star_comm (P Q : asn) : ent (star P Q) (star Q P).
  Proof using.
    intros h fp (f & g & -> & Hfg & Hx & Hy). exists (g ++ f). split.
    - intros a. rewrite !elem_of_app. naive_solver.
    - exists g, f. split; [done|]. split; [|done]. intros a Ha Hb. by eapply Hfg.
  Qed.
  Lemma star_assoc (P Q R : asn) : ent (star P (star Q R)) (star (star P Q) R).
  Proof using.
    intros h fp (f & gr & -> & Hs & Hp & g & r & -> & Hs2 & Hq & Hr). exists (f ++ g ++ r). split; [done|].
    exists (f ++ g), r. rewrite app_assoc. split; [done|]. split.
    - intros a [Ha|Ha]%elem_of_app Hb; [eapply (Hs a); [done|]; apply elem_of_app; by right|by eapply (Hs2 a)].
    - split; [|done]. exists f, g. split; [done|]. split; [|done].
      intros a Ha Hb. apply (Hs a); [done|]. apply elem_of_app. by left.
  Qed.
  Lemma star_assoc' (P Q R : asn) : ent (star (star P Q) R) (star P (star Q R)).
  Proof using.
    intros h fp (fg & r & -> & Hs & (f & g & -> & Hs2 & Hp & Hq) & Hr). exists (f ++ g ++ r).
    split; [by rewrite app_assoc|]. exists f, (g ++ r). split; [done|]. split.
    - intros a Ha [Hb|Hb]%elem_of_app; [by eapply (Hs2 a)|]. eapply (Hs a); [|done]. apply elem_of_app. by left.
    - split; [done|]. exists g, r. split; [done|]. split; [|done].
      intros a Ha Hb. apply (Hs a); [|done]. apply elem_of_app. by right.
  Qed.
  Lemma star_emp_r (P : asn) : ent P (star P emp).
  Proof using.
    intros h fp Hp. exists fp. split; [done|]. exists fp, []. split; [by rewrite app_nil_r|].
    split; [|done]. intros a _ Ha. by apply elem_of_nil in Ha.
  Qed.
  Lemma star_emp_r' (P : asn) : ent (star P emp) P.
  Proof using.
    intros h fp (f & g & Hfp & _ & Hp & Hg). unfold emp in Hg. subst. rewrite app_nil_r. by exists f.
  Qed.
  Lemma ent_trans (P Q R : asn) : ent P Q -> ent Q R -> ent P R.
  Proof using.
    intros H1 H2 h fp Hp. destruct (H1 h fp Hp) as (f1 & S1 & H1'). destruct (H2 h f1 H1') as (f2 & S2 & H2').
    exists f2. split; [|done]. intros a. by rewrite (S1 a).
  Qed.
  Lemma ent_star (P P' Q Q' : asn) : ent P P' -> ent Q Q' -> ent (star P Q) (star P' Q').
  Proof using.
    intros H1 H2 h fp (f & g & -> & Hs & Hp & Hq). destruct (H1 h f Hp) as (f1 & S1 & Hp1).
    destruct (H2 h g Hq) as (g1 & S2 & Hq1). exists (f1 ++ g1). split.
    - intros a. rewrite !elem_of_app. by rewrite (S1 a), (S2 a).
    - exists f1, g1. split; [done|]. split; [|done]. intros a Ha Hb. apply (Hs a); [by apply S1|by apply S2].
  Qed.
  Lemma emp_ok : asn_ok emp.
  Proof using.
    split; [done|]. unfold emp. intros h fp a Hfp Ha. rewrite Hfp in Ha. by apply elem_of_nil in Ha.
  Qed.
  Lemma star_ok (P Q : asn) : asn_ok P -> asn_ok Q -> asn_ok (star P Q).
  Proof using.
    intros HP HQ. split.
    - intros h h' fp Hr (f & g & -> & Hs & Hp & Hq) Hf. exists f, g. split; [done|]. split; [done|]. split.
      + eapply ao_frame; [done|exact Hr|exact Hp|]. intros a Ha. apply Hf. rewrite !elem_of_app in *. naive_solver.
      + eapply ao_frame; [done|exact Hr|exact Hq|]. intros a Ha. apply Hf. rewrite !elem_of_app in *. naive_solver.
    - intros h fp a (f & g & -> & Hs & Hp & Hq) [Ha|Ha]%elem_of_app.
      + exact (ao_dom _ HP _ _ _ Hp Ha).
      + exact (ao_dom _ HQ _ _ _ Hq Ha).
  Qed.
  Lemma pur_ok (p : Prop) (P : asn) : asn_ok P -> asn_ok (pur p P).
  Proof using.
    intros HP. split.
    - intros h h' fp Hr [Hp HPh] Hf. split; [done|]. by eapply ao_frame.
    - intros h fp a [_ HPh]. by eapply ao_dom.
  Qed.
  Definition ex {X} (P : X -> asn) : asn := fun h fp => exists x, P x h fp.
  Lemma ex_ok {X} (P : X -> asn) : (forall x, asn_ok (P x)) -> asn_ok (ex P).
  Proof using.
    intros HP. split.
    - intros h h' fp Hr [x Hx] Hf. exists x. by eapply ao_frame.
    - intros h fp a [x Hx]. by eapply ao_dom.
  Qed.
  Lemma tri_ex {A X} (P : X -> asn) (m : HM A) (Q : A -> asn) : (forall x, tri (P x) m Q) -> tri (ex P) m Q.
  Proof using. intros Hm h fp Hw Hr Hs [x Hx]. by apply (Hm x). Qed.
End Tri.

(** What needs no reading may be done next to something that is read. *)
Section More.
  Context {H Ad : Type} {MM : mem H Ad}.
  Notation asn := (H -> list Ad -> Prop).
  Lemma tri_rd {A} (rd : list Ad) (rdp : H -> Prop) (P : asn) (m : M H A) (Q : A -> asn) :
    tri [] (fun _ => True) P m Q -> tri rd rdp P m Q.
  Proof. intros Hm h fp Hw _ _ Hp. apply Hm; [done|done| |done]. by intros a _ ?%elem_of_nil. Qed.
  Lemma ok_rd (rd : list Ad) (rdp : H -> Prop) (P : asn) : asn_ok [] (fun _ => True) P -> asn_ok rd rdp P.
  Proof.
    intros HP. split; [|apply HP]. intros h h' fp _ Hp Hf. eapply ao_frame; [exact HP|done|exact Hp|].
    intros a. rewrite app_nil_r. intros Ha. apply Hf, elem_of_app. by left.
  Qed.
End More.

(** Working in one of two memories. *)
Section Sides.
  Context {S1 A1 S2 A2 : Type} {M1 : mem S1 A1} {M2 : mem S2 A2}.
  Notation St := (S1 * S2)%type.
  Notation Ad := (A1 + A2)%type.
  Definition onl (P : S1 -> list A1 -> Prop) : St -> list Ad -> Prop := fun h fp => exists f, fp = inl <$> f /\ P (fst h) f.
  Definition onr (P : S2 -> list A2 -> Prop) : St -> list Ad -> Prop := fun h fp => exists f, fp = inr <$> f /\ P (snd h) f.
  Lemma elem_inl (a : A1) (f : list A1) : inl a ∈ (inl <$> f : list Ad) <-> a ∈ f.
  Proof. rewrite <-elem_lefts. by rewrite lefts_inl. Qed.
  Lemma elem_inr (a : A2) (f : list A2) : inr a ∈ (inr <$> f : list Ad) <-> a ∈ f.
  Proof. rewrite <-elem_rights. by rewrite rights_inr. Qed.
  Lemma tri_inl {A} rd rdp P (m : M S1 A) Q : tri rd rdp P m Q ->
    tri (inl <$> rd) (fun h => rdp (fst h)) (onl P) (inl_m m) (fun a => onl (Q a)).
  Proof.
    intros Hm h fp [W1 W2] Hr Hs (f & -> & Hp).
    destruct (Hm (fst h) f W1 Hr) as (a & h1 & f' & E & Hq & Hu); [|done|].
    { intros b Hb Hc. apply (Hs (inl b)); by apply elem_inl. }
    exists a, (h1, snd h), (inl <$> f'). unfold inl_m. rewrite E. split; [done|]. split; [by exists f'|].
    split; cbn [fst snd]; [by rewrite !lefts_inl|]. rewrite !rights_inl. apply mupd_refl; [done|].
    by intros b ?%elem_of_nil.
  Qed.
  Lemma tri_inr {A} rd rdp P (m : M S2 A) Q : tri rd rdp P m Q ->
    tri (inr <$> rd) (fun h => rdp (snd h)) (onr P) (inr_m m) (fun a => onr (Q a)).
  Proof.
    intros Hm h fp [W1 W2] Hr Hs (f & -> & Hp).
    destruct (Hm (snd h) f W2 Hr) as (a & h1 & f' & E & Hq & Hu); [|done|].
    { intros b Hb Hc. apply (Hs (inr b)); by apply elem_inr. }
    exists a, (fst h, h1), (inr <$> f'). unfold inr_m. rewrite E. split; [done|]. split; [by exists f'|].
    split; cbn [fst snd]; [|by rewrite !rights_inr]. rewrite !lefts_inr. apply mupd_refl; [done|].
    by intros b ?%elem_of_nil.
  Qed.
  Lemma ok_inl rd rdp P : asn_ok rd rdp P -> asn_ok (inl <$> rd) (fun h : St => rdp (fst h)) (onl P).
  Proof.
    intros HP. split.
    - intros h h' fp Hr (f & -> & Hp) Hf. exists f. split; [done|]. eapply ao_frame; [exact HP|exact Hr|exact Hp|].
      intros a Ha. specialize (Hf (inl a)). cbn in Hf. rewrite <-fmap_app in Hf. rewrite elem_inl in Hf.
      specialize (Hf Ha). destruct (mlook (fst h') a), (mlook (fst h) a); cbn in Hf; naive_solver.
    - intros h fp a (f & -> & Hp) Ha. apply elem_of_list_fmap in Ha as (b & -> & Hb). cbn.
      apply fmap_is_Some. by eapply ao_dom.
  Qed.
  Lemma ok_inr rd rdp P : asn_ok rd rdp P -> asn_ok (inr <$> rd) (fun h : St => rdp (snd h)) (onr P).
  Proof.
    intros HP. split.
    - intros h h' fp Hr (f & -> & Hp) Hf. exists f. split; [done|]. eapply ao_frame; [exact HP|exact Hr|exact Hp|].
      intros a Ha. specialize (Hf (inr a)). cbn in Hf. rewrite <-fmap_app in Hf. rewrite elem_inr in Hf.
      specialize (Hf Ha). destruct (mlook (snd h') a), (mlook (snd h) a); cbn in Hf; naive_solver.
    - intros h fp a (f & -> & Hp) Ha. apply elem_of_list_fmap in Ha as (b & -> & Hb). cbn.
      apply fmap_is_Some. by eapply ao_dom.
  Qed.
  Lemma onl_emp h fp : onl emp h fp <-> fp = [].
  Proof. split; [intros (f & -> & Hf); unfold emp in Hf; by subst f|intros ->; by exists []]. Qed.
  Lemma onr_emp h fp : onr emp h fp <-> fp = [].
  Proof. split; [intros (f & -> & Hf); unfold emp in Hf; by subst f|intros ->; by exists []]. Qed.
  Lemma ent_inl P Q : ent P Q -> ent (onl P) (onl Q).
  Proof.
    intros He h fp (f & -> & Hp). destruct (He _ _ Hp) as (f' & Hs & Hq). exists (inl <$> f'). split.
    - intros a. rewrite !elem_of_list_fmap. split; intros (b & -> & Hb); exists b; (split; [done|by apply Hs]).
    - by exists f'.
  Qed.
  Lemma ent_inr P Q : ent P Q -> ent (onr P) (onr Q).
  Proof.
    intros He h fp (f & -> & Hp). destruct (He _ _ Hp) as (f' & Hs & Hq). exists (inr <$> f'). split.
    - intros a. rewrite !elem_of_list_fmap. split; intros (b & -> & Hb); exists b; (split; [done|by apply Hs]).
    - by exists f'.
  Qed.
  Lemma onl_star P Q : ent (onl (star P Q)) (star (onl P) (onl Q)).
  Proof.
    intros h fp (f & -> & f1 & f2 & -> & Hs & Hp & Hq). rewrite fmap_app. eexists. split; [done|].
    eexists _, _. split; [done|]. split; [|by split; [exists f1|exists f2]].
    intros a (b & -> & Hb)%elem_of_list_fmap. rewrite elem_inl. by apply Hs.
  Qed.
  Lemma onr_star P Q : ent (onr (star P Q)) (star (onr P) (onr Q)).
  Proof.
    intros h fp (f & -> & f1 & f2 & -> & Hs & Hp & Hq). rewrite fmap_app. eexists. split; [done|].
    eexists _, _. split; [done|]. split; [|by split; [exists f1|exists f2]].
    intros a (b & -> & Hb)%elem_of_list_fmap. rewrite elem_inr. by apply Hs.
  Qed.
End Sides.
