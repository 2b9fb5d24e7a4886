(** * World: several objects sharing one heap — generic framing lemmas

    Proof infrastructure only (no model content).  An object of type [O] (a
    C++ variable) represents an abstract value of type [Sp] and owns a
    footprint: the list of heap addresses it is responsible for. *)
From Verif Require Import Base.
Local Open Scope N_scope.

Section Upd.
  Context {C : Type}.
  Implicit Types h : heap C.

  Definition hwf h : Prop := forall a, is_Some (hmap h !! a) -> a < hnext h.

  (** [upd h h' fp fp']: going from [h] to [h'] only touched the footprint
      [fp], which became [fp'] (possibly with fresh addresses). *)
  Record upd h h' (fp fp' : list N) : Prop := Upd {
    upd_next : hnext h <= hnext h';
    upd_frame : forall a, a < hnext h -> a ∉ fp -> hmap h' !! a = hmap h !! a;
    upd_new : forall a, a ∈ fp' -> a ∈ fp \/ hnext h <= a;
    upd_dom : forall a, is_Some (hmap h' !! a) <->
                        (is_Some (hmap h !! a) /\ a ∉ fp) \/ a ∈ fp';
    upd_wf : hwf h';
  }.

  Lemma upd_refl h fp :
    hwf h -> (forall a, a ∈ fp -> is_Some (hmap h !! a)) -> upd h h fp fp.
  Proof.
    intros Hwf Hfp. split; try done; try lia.
    - intros a Ha. by left.
    - intros a. split.
      + intros Ha. destruct (decide (a ∈ fp)); [by right|by left].
      + intros [[Ha _]|Ha]; auto.
  Qed.

  Lemma upd_trans h h1 h2 fp fp1 fp2 :
    hwf h -> upd h h1 fp fp1 -> upd h1 h2 fp1 fp2 -> upd h h2 fp fp2.
  Proof.
    intros Hwf [N1 F1 E1 D1 W1] [N2 F2 E2 D2 W2]. split.
    - lia.
    - intros a Ha Hfp. rewrite F2, F1; try done; try lia.
      intros Hin. destruct (E1 a Hin); [done|lia].
    - intros a Ha. destruct (E2 a Ha) as [H1|H1]; [|right; lia].
      by apply E1.
    - intros a. rewrite D2, D1. split.
      + intros [[[[? ?]|?] ?]|?]; try (by left); try (by right); done.
      + intros [[Hs Hn]|?]; [|by right]. left. split; [by left|].
        intros Hin. destruct (E1 a Hin) as [|Hle]; [done|].
        specialize (Hwf a Hs). lia.
    - done.
  Qed.

  (** Footprints are used as sets. *)
  Lemma upd_equiv h h' fp fp' gp gp' :
    (forall a, a ∈ fp <-> a ∈ gp) -> (forall a, a ∈ fp' <-> a ∈ gp') ->
    upd h h' fp fp' -> upd h h' gp gp'.
  Proof.
    intros Hf Hf' [N1 F1 E1 D1 W1]. split; try done.
    - intros a ? Hn. apply F1; [done|]. by rewrite Hf.
    - intros a. rewrite <-Hf', <-Hf. apply E1.
    - intros a. rewrite D1, Hf, Hf'. done.
  Qed.

  (** Framing: extend a footprint by addresses that are left alone. *)
  Lemma upd_frame_r h h' fp fp' gp :
    hwf h -> upd h h' fp fp' ->
    (forall a, a ∈ gp -> is_Some (hmap h !! a) /\ a ∉ fp) ->
    upd h h' (fp ++ gp) (fp' ++ gp).
  Proof.
    intros Hwf [N1 F1 E1 D1 W1] Hgp. split; try done.
    - intros a ? Hn. apply F1; [done|]. set_solver.
    - intros a [Ha|Ha]%elem_of_app.
      + destruct (E1 a Ha); [left; set_solver|by right].
      + left. set_solver.
    - intros a. rewrite D1. split.
      + intros [[Hs Hn]|Hin].
        * destruct (decide (a ∈ gp)); [right; set_solver|left; set_solver].
        * right; set_solver.
      + intros [[Hs Hn]|[Hin|Hin]%elem_of_app].
        * left; set_solver.
        * by right.
        * left. apply Hgp in Hin. done.
  Qed.

  Lemma upd_alloc h c h' a :
    hwf h -> halloc c h = Ok (a, h') -> upd h h' [] [a] /\ a = hnext h /\
      hmap h' = <[a := c]> (hmap h).
  Proof.
    unfold halloc. intros Hwf [= <- <-]. split; [|done].
    split; simpl; try lia.
    - intros a Ha _. rewrite lookup_insert_ne by lia. done.
    - intros a Ha. right. set_solver by lia.
    - intros a. rewrite lookup_insert_is_Some. split.
      + intros [->|[? ?]]; [right; set_solver|left; set_solver].
      + intros [[? _]|Ha]; [|left; set_solver].
        destruct (decide (hnext h = a)); [by left|by right].
    - intros a. simpl. rewrite lookup_insert_is_Some. intros [->|[? Hs]]; [lia|].
      specialize (Hwf a Hs). lia.
  Qed.

  Lemma upd_write_map h h' c a :
    hwf h -> is_Some (hmap h !! a) ->
    hmap h' = <[a := c]> (hmap h) -> hnext h' = hnext h ->
    upd h h' [a] [a].
  Proof.
    intros Hwf Ha Hm Hn.
    assert (forall b, is_Some (<[a := c]> (hmap h) !! b) <->
                      b = a \/ is_Some (hmap h !! b)) as Hd.
    { intros b. rewrite lookup_insert_is_Some. split.
      - intros [->|[? ?]]; auto.
      - intros [->|?]; [by left|]. destruct (decide (a = b)); auto. }
    split; rewrite ?Hm, ?Hn; try lia.
    - intros b ? Hb. rewrite lookup_insert_ne; [done|]. set_solver.
    - intros b Hb. by left.
    - intros b. rewrite Hd. split.
      + intros [->|?]; [right; set_solver|].
        destruct (decide (b = a)); [right; set_solver|left; set_solver].
      + intros [[? ?]|Hb]; [by right|left; set_solver].
    - intros b. rewrite Hm, Hd, Hn. intros [->|?]; by apply Hwf.
  Qed.

  Lemma upd_free_map h h' a :
    hwf h -> hmap h' = delete a (hmap h) -> hnext h' = hnext h ->
    upd h h' [a] [].
  Proof.
    intros Hwf Hm Hn.
    split; rewrite ?Hm, ?Hn; try lia.
    - intros b ? Hb. rewrite lookup_delete_ne; [done|]. set_solver.
    - intros b Hb. set_solver.
    - intros b. rewrite lookup_delete_is_Some. split.
      + intros [? ?]. left. set_solver.
      + intros [[? ?]|?]; [|set_solver]. split; [set_solver|done].
    - intros b. rewrite Hm, Hn, lookup_delete_is_Some. intros [? ?]. by apply Hwf.
  Qed.
End Upd.

Section WorldRep.
  Context {C O Sp : Type}.
  Context (rep : heap C -> O -> Sp -> list N -> Prop).
  Context (rep_frame : forall h h' o s fp, rep h o s fp ->
             (forall a, a ∈ fp -> hmap h' !! a = hmap h !! a) -> rep h' o s fp).
  Context (rep_dom : forall h o s fp a, rep h o s fp -> a ∈ fp -> is_Some (hmap h !! a)).
  Implicit Types h : heap C.

  Record entry := Entry { e_o : O; e_s : Sp; e_fp : list N }.

  Record world_ok_with (w : world C O) (sp : gmap nat Sp) (m : gmap nat entry) : Prop := {
    wo_wf : hwf (w_heap w);
    wo_vars : w_vars w = e_o <$> m;
    wo_spec : sp = e_s <$> m;
    wo_rep : forall i e, m !! i = Some e -> rep (w_heap w) (e_o e) (e_s e) (e_fp e);
    wo_disj : forall i j e f a, m !! i = Some e -> m !! j = Some f -> i <> j ->
                a ∈ e_fp e -> a ∈ e_fp f -> False;
    wo_cover : forall a, is_Some (hmap (w_heap w) !! a) ->
                 exists i e, m !! i = Some e /\ a ∈ e_fp e;
  }.

  Definition world_ok (w : world C O) (sp : gmap nat Sp) : Prop :=
    exists m, world_ok_with w sp m.

  Lemma world_ok_init : world_ok winit ∅.
  Proof.
    exists ∅. split; simpl; try done.
    - intros a. simpl. rewrite lookup_empty. intros [? ?]; done.
    - by rewrite fmap_empty.
    - by rewrite fmap_empty.
    - intros a. rewrite lookup_empty. intros [? ?]; done.
  Qed.

  Lemma world_ok_lookup w sp m i o :
    world_ok_with w sp m -> w_vars w !! i = Some o ->
    exists e, m !! i = Some e /\ e_o e = o /\ sp !! i = Some (e_s e).
  Proof.
    intros Hw. rewrite (wo_vars _ _ _ Hw), lookup_fmap.
    destruct (m !! i) as [e|] eqn:E; simpl; [|done]. intros [= <-].
    exists e. rewrite (wo_spec _ _ _ Hw), lookup_fmap, E. done.
  Qed.

  Lemma world_ok_lookup_spec w sp m i s :
    world_ok_with w sp m -> sp !! i = Some s ->
    exists e, m !! i = Some e /\ e_s e = s /\ w_vars w !! i = Some (e_o e) /\
      rep (w_heap w) (e_o e) s (e_fp e).
  Proof.
    intros Hw. rewrite (wo_spec _ _ _ Hw), lookup_fmap.
    destruct (m !! i) as [e|] eqn:E; simpl; [|done]. intros [= <-].
    exists e. rewrite (wo_vars _ _ _ Hw), lookup_fmap, E.
    split; [done|]. split; [done|]. split; [done|]. by eapply wo_rep.
  Qed.

  Lemma world_ok_none w sp m i :
    world_ok_with w sp m -> sp !! i = None -> m !! i = None /\ w_vars w !! i = None.
  Proof.
    intros Hw. rewrite (wo_spec _ _ _ Hw), (wo_vars _ _ _ Hw), !lookup_fmap.
    by destruct (m !! i).
  Qed.

  Lemma wo_dom w sp m i e a :
    world_ok_with w sp m -> m !! i = Some e -> a ∈ e_fp e -> a < hnext (w_heap w).
  Proof.
    intros Hw Hi Ha. apply (wo_wf _ _ _ Hw). eapply rep_dom; [|done].
    by eapply wo_rep.
  Qed.

  Lemma world_other_rep w sp m h' fp fp' j e :
    world_ok_with w sp m -> upd (w_heap w) h' fp fp' -> m !! j = Some e ->
    (forall a, a ∈ e_fp e -> a ∉ fp) -> rep h' (e_o e) (e_s e) (e_fp e).
  Proof.
    intros Hw Hu Hj Hd. eapply rep_frame; [by eapply wo_rep|].
    intros a Ha. apply (upd_frame _ _ _ _ Hu); [|by apply Hd].
    by eapply wo_dom.
  Qed.

  (** One existing variable changes. *)
  Lemma world_upd1 w sp m i e h' o' s' fp' :
    world_ok_with w sp m -> m !! i = Some e ->
    upd (w_heap w) h' (e_fp e) fp' -> rep h' o' s' fp' ->
    world_ok_with (World h' (<[i := o']> (w_vars w))) (<[i := s']> sp)
      (<[i := Entry o' s' fp']> m).
  Proof.
    intros Hw Hi Hu Hr.
    assert (Hfresh : forall j f a, m !! j = Some f -> i <> j -> a ∈ e_fp f -> a ∈ fp' -> False).
    { intros j f a Hj Hij Haf Ha. destruct (upd_new _ _ _ _ Hu a Ha) as [Hae|Hae].
      - by eapply (wo_disj _ _ _ Hw i j e f a).
      - assert (a < hnext (w_heap w)) by by eapply wo_dom. lia. }
    split; simpl.
    - apply Hu.
    - by rewrite fmap_insert, (wo_vars _ _ _ Hw).
    - by rewrite fmap_insert, (wo_spec _ _ _ Hw).
    - intros j f. destruct (decide (i = j)) as [<-|Hij].
      + rewrite lookup_insert. intros [= <-]. done.
      + rewrite lookup_insert_ne by done. intros Hj.
        eapply world_other_rep; [done..|]. intros a Ha Ha'.
        by eapply (wo_disj _ _ _ Hw i j e f a).
    - intros j k f g a. destruct (decide (i = j)) as [<-|Hij], (decide (i = k)) as [<-|Hik];
        rewrite ?lookup_insert, ?lookup_insert_ne by done.
      + done.
      + intros [= <-] Hk _ Ha Hag. simpl in Ha. by eapply Hfresh.
      + intros Hj [= <-] _ Ha Hag. simpl in Hag. by eapply Hfresh.
      + intros Hj Hk. by eapply (wo_disj _ _ _ Hw).
    - intros a Ha. apply (upd_dom _ _ _ _ Hu) in Ha as [[Ha Hn]|Ha].
      + destruct (wo_cover _ _ _ Hw a Ha) as (j & f & Hj & Hf).
        exists j, f. split; [|done]. rewrite lookup_insert_ne; [done|].
        intros ->. naive_solver.
      + exists i, (Entry o' s' fp'). by rewrite lookup_insert.
  Qed.

  (** A new variable appears. *)
  Lemma world_new w sp m i h' o' s' fp' :
    world_ok_with w sp m -> m !! i = None ->
    upd (w_heap w) h' [] fp' -> rep h' o' s' fp' ->
    world_ok_with (World h' (<[i := o']> (w_vars w))) (<[i := s']> sp)
      (<[i := Entry o' s' fp']> m).
  Proof.
    intros Hw Hi Hu Hr.
    assert (Hfresh : forall j f a, m !! j = Some f -> a ∈ e_fp f -> a ∈ fp' -> False).
    { intros j f a Hj Haf Ha. destruct (upd_new _ _ _ _ Hu a Ha) as [Hae|Hae].
      - set_solver.
      - assert (a < hnext (w_heap w)) by by eapply wo_dom. lia. }
    split; simpl.
    - apply Hu.
    - by rewrite fmap_insert, (wo_vars _ _ _ Hw).
    - by rewrite fmap_insert, (wo_spec _ _ _ Hw).
    - intros j f. destruct (decide (i = j)) as [<-|Hij].
      + rewrite lookup_insert. intros [= <-]. done.
      + rewrite lookup_insert_ne by done. intros Hj.
        eapply world_other_rep; [done..|]. set_solver.
    - intros j k f g a. destruct (decide (i = j)) as [<-|Hij], (decide (i = k)) as [<-|Hik];
        rewrite ?lookup_insert, ?lookup_insert_ne by done.
      + done.
      + intros [= <-] Hk _ Ha Hag. simpl in Ha. by eapply Hfresh.
      + intros Hj [= <-] _ Ha Hag. simpl in Hag. by eapply Hfresh.
      + intros Hj Hk. by eapply (wo_disj _ _ _ Hw).
    - intros a Ha. apply (upd_dom _ _ _ _ Hu) in Ha as [[Ha Hn]|Ha].
      + destruct (wo_cover _ _ _ Hw a Ha) as (j & f & Hj & Hf).
        exists j, f. split; [|done]. rewrite lookup_insert_ne; [done|].
        intros ->. naive_solver.
      + exists i, (Entry o' s' fp'). by rewrite lookup_insert.
  Qed.

  (** A variable is destroyed. *)
  Lemma world_del w sp m i e h' :
    world_ok_with w sp m -> m !! i = Some e ->
    upd (w_heap w) h' (e_fp e) [] ->
    world_ok_with (World h' (delete i (w_vars w))) (delete i sp) (delete i m).
  Proof.
    intros Hw Hi Hu. split; simpl.
    - apply Hu.
    - by rewrite fmap_delete, (wo_vars _ _ _ Hw).
    - by rewrite fmap_delete, (wo_spec _ _ _ Hw).
    - intros j f [Hij Hj]%lookup_delete_Some.
      eapply world_other_rep; [done..|]. intros a Ha Ha'.
      by eapply (wo_disj _ _ _ Hw i j e f a).
    - intros j k f g a [Hij Hj]%lookup_delete_Some [Hik Hk]%lookup_delete_Some.
      by eapply (wo_disj _ _ _ Hw).
    - intros a Ha. apply (upd_dom _ _ _ _ Hu) in Ha as [[Ha Hn]|Ha]; [|set_solver].
      destruct (wo_cover _ _ _ Hw a Ha) as (j & f & Hj & Hf).
      exists j, f. split; [|done]. rewrite lookup_delete_ne; [done|].
      intros ->. naive_solver.
  Qed.

  (** Two distinct variables change together. *)
  Lemma world_upd2 w sp m i j ei ej h' oi oj si sj fpi fpj :
    world_ok_with w sp m -> m !! i = Some ei -> m !! j = Some ej -> i <> j ->
    upd (w_heap w) h' (e_fp ei ++ e_fp ej) (fpi ++ fpj) ->
    (forall a, a ∈ fpi -> a ∈ fpj -> False) ->
    rep h' oi si fpi -> rep h' oj sj fpj ->
    world_ok_with (World h' (<[i := oi]> (<[j := oj]> (w_vars w))))
      (<[i := si]> (<[j := sj]> sp))
      (<[i := Entry oi si fpi]> (<[j := Entry oj sj fpj]> m)).
  Proof.
    intros Hw Hi Hj Hne Hu Hdij Hri Hrj.
    assert (Hfresh : forall k f a, m !! k = Some f -> i <> k -> j <> k ->
              a ∈ e_fp f -> a ∈ fpi ++ fpj -> False).
    { intros k f a Hk Hik Hjk Haf Ha.
      destruct (upd_new _ _ _ _ Hu a Ha) as [[Hae|Hae]%elem_of_app|Hae].
      - by eapply (wo_disj _ _ _ Hw i k ei f a).
      - by eapply (wo_disj _ _ _ Hw j k ej f a).
      - assert (a < hnext (w_heap w)) by by eapply wo_dom. lia. }
    split; simpl.
    - apply Hu.
    - by rewrite !fmap_insert, (wo_vars _ _ _ Hw).
    - by rewrite !fmap_insert, (wo_spec _ _ _ Hw).
    - intros k f. destruct (decide (i = k)) as [<-|Hik].
      { rewrite lookup_insert. intros [= <-]. done. }
      rewrite lookup_insert_ne by done. destruct (decide (j = k)) as [<-|Hjk].
      { rewrite lookup_insert. intros [= <-]. done. }
      rewrite lookup_insert_ne by done. intros Hk.
      eapply world_other_rep; [done..|]. intros a Ha [Ha'|Ha']%elem_of_app.
      + by eapply (wo_disj _ _ _ Hw i k ei f a).
      + by eapply (wo_disj _ _ _ Hw j k ej f a).
    - intros k l f g a Hk Hl Hkl Haf Hag.
      assert (forall k f, <[i := Entry oi si fpi]> (<[j := Entry oj sj fpj]> m) !! k = Some f ->
         (k = i /\ e_fp f = fpi) \/ (k = j /\ e_fp f = fpj) \/
         (k <> i /\ k <> j /\ m !! k = Some f)) as Hc.
      { clear -Hne. intros k f. destruct (decide (i = k)) as [<-|Hik].
        { rewrite lookup_insert. intros [= <-]. auto. }
        rewrite lookup_insert_ne by done. destruct (decide (j = k)) as [<-|Hjk].
        { rewrite lookup_insert. intros [= <-]. auto. }
        rewrite lookup_insert_ne by done. auto. }
      destruct (Hc k f Hk) as [[-> Hef]|[[-> Hef]|(?&?&Hek)]],
               (Hc l g Hl) as [[-> Heg]|[[-> Heg]|(?&?&Hel)]];
        try (by rewrite ?Hef, ?Heg in *; eauto).
      + rewrite Hef in *. eapply (Hfresh l g a); eauto. set_solver.
      + rewrite Hef in *. eapply (Hfresh l g a); eauto. set_solver.
      + rewrite Heg in *. eapply (Hfresh k f a); eauto. set_solver.
      + rewrite Heg in *. eapply (Hfresh k f a); eauto. set_solver.
      + by eapply (wo_disj _ _ _ Hw k l).
    - intros a Ha. apply (upd_dom _ _ _ _ Hu) in Ha as [[Ha Hn]|[Ha|Ha]%elem_of_app].
      + destruct (wo_cover _ _ _ Hw a Ha) as (k & f & Hk & Hf).
        exists k, f. split; [|done].
        rewrite !lookup_insert_ne; [done| |]; intros ->; set_solver.
      + exists i, (Entry oi si fpi). by rewrite lookup_insert.
      + exists j, (Entry oj sj fpj). by rewrite lookup_insert_ne, lookup_insert by done.
  Qed.

  (** A fresh variable [i] takes (part of) what variable [j] owned. *)
  Lemma world_new2 w sp m i j ej h' oi oj si sj fpi fpj :
    world_ok_with w sp m -> m !! i = None -> m !! j = Some ej ->
    upd (w_heap w) h' (e_fp ej) (fpi ++ fpj) ->
    (forall a, a ∈ fpi -> a ∈ fpj -> False) ->
    rep h' oi si fpi -> rep h' oj sj fpj ->
    world_ok_with (World h' (<[i := oi]> (<[j := oj]> (w_vars w))))
      (<[i := si]> (<[j := sj]> sp))
      (<[i := Entry oi si fpi]> (<[j := Entry oj sj fpj]> m)).
  Proof.
    intros Hw Hi Hj Hu Hdij Hri Hrj.
    assert (Hne : i <> j) by congruence.
    assert (Hfresh : forall k f a, m !! k = Some f -> j <> k ->
              a ∈ e_fp f -> a ∈ fpi ++ fpj -> False).
    { intros k f a Hk Hjk Haf Ha.
      destruct (upd_new _ _ _ _ Hu a Ha) as [Hae|Hae].
      - by eapply (wo_disj _ _ _ Hw j k ej f a).
      - assert (a < hnext (w_heap w)) by by eapply wo_dom. lia. }
    split; simpl.
    - apply Hu.
    - by rewrite !fmap_insert, (wo_vars _ _ _ Hw).
    - by rewrite !fmap_insert, (wo_spec _ _ _ Hw).
    - intros k f. destruct (decide (i = k)) as [<-|Hik].
      { rewrite lookup_insert. intros [= <-]. done. }
      rewrite lookup_insert_ne by done. destruct (decide (j = k)) as [<-|Hjk].
      { rewrite lookup_insert. intros [= <-]. done. }
      rewrite lookup_insert_ne by done. intros Hk.
      eapply world_other_rep; [done..|]. intros a Ha Ha'.
      by eapply (wo_disj _ _ _ Hw j k ej f a).
    - intros k l f g a Hk Hl Hkl Haf Hag.
      assert (forall k f, <[i := Entry oi si fpi]> (<[j := Entry oj sj fpj]> m) !! k = Some f ->
         (k = i /\ e_fp f = fpi) \/ (k = j /\ e_fp f = fpj) \/
         (k <> i /\ k <> j /\ m !! k = Some f)) as Hc.
      { clear -Hne. intros k f. destruct (decide (i = k)) as [<-|Hik].
        { rewrite lookup_insert. intros [= <-]. auto. }
        rewrite lookup_insert_ne by done. destruct (decide (j = k)) as [<-|Hjk].
        { rewrite lookup_insert. intros [= <-]. auto. }
        rewrite lookup_insert_ne by done. auto. }
      destruct (Hc k f Hk) as [[-> Hef]|[[-> Hef]|(?&?&Hek)]],
               (Hc l g Hl) as [[-> Heg]|[[-> Heg]|(?&?&Hel)]];
        try (by rewrite ?Hef, ?Heg in *; eauto).
      + rewrite Hef in *. eapply (Hfresh l g a); eauto. set_solver.
      + rewrite Hef in *. eapply (Hfresh l g a); eauto. set_solver.
      + rewrite Heg in *. eapply (Hfresh k f a); eauto. set_solver.
      + rewrite Heg in *. eapply (Hfresh k f a); eauto. set_solver.
      + by eapply (wo_disj _ _ _ Hw k l).
    - intros a Ha. apply (upd_dom _ _ _ _ Hu) in Ha as [[Ha Hn]|[Ha|Ha]%elem_of_app].
      + destruct (wo_cover _ _ _ Hw a Ha) as (k & f & Hk & Hf).
        exists k, f. split; [|done].
        rewrite !lookup_insert_ne; [done| |]; intros ->; naive_solver.
      + exists i, (Entry oi si fpi). by rewrite lookup_insert.
      + exists j, (Entry oj sj fpj). by rewrite lookup_insert_ne, lookup_insert by done.
  Qed.

  (** No variable left: no storage left. *)
  Lemma world_ok_empty w : world_ok w ∅ -> hmap (w_heap w) = ∅ /\ w_vars w = ∅.
  Proof.
    intros [m Hw]. assert (m = ∅) as ->.
    { apply map_eq. intros i. rewrite lookup_empty.
      pose proof (wo_spec _ _ _ Hw) as Hs.
      assert ((∅ : gmap nat Sp) !! i = (e_s <$> m) !! i) as Hi by by rewrite Hs.
      rewrite lookup_empty, lookup_fmap in Hi. by destruct (m !! i). }
    split.
    - apply map_eq. intros a. rewrite lookup_empty.
      destruct (hmap (w_heap w) !! a) eqn:E; [|done].
      destruct (wo_cover _ _ _ Hw a) as (i & e & Hi & _); [eauto|].
      by rewrite lookup_empty in Hi.
    - by rewrite (wo_vars _ _ _ Hw), fmap_empty.
  Qed.
End WorldRep.
