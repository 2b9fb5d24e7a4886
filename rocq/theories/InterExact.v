(** * InterExact: every program that is right on sequences, run with a vector
    and with a list (C90)

    No new model content.  With List the program does what it should.  With
    Vector it does so too, or it has a first call that is an insertion or a
    range erasure of the kind C02 and C03 exclude, and that call goes wrong. *)
From Verif Require Import Base World Machine VecModel VecSpec VecProofs VecRefine VecMore VecProps VecExact.
From Verif Require Import ListModel ListStep ListSpec ListRefine ListNodes Interchange.
Local Open Scope N_scope.

Section Exact.
  Context {A : Type} (dflt : A) (eqb : A -> A -> bool) (cmp : A -> A -> comparison).
  Notation cstate := (gmap nat (option (list A))).

  Local Ltac looks := unfold made, having, with_, now in *; repeat match goal with
    | H : context [match ?s !! ?i with _ => _ end] |- _ =>
        let E := fresh "E" in destruct (s !! i) as [[?|]|] eqn:E; cbv beta iota in H; try discriminate H
    | H : (if ?b then _ else _) = Some _ |- _ => let E := fresh "B" in destruct b eqn:E; try discriminate H
    end.
  Local Ltac seev := unfold create, modify, observe, on_var, ntake, ndrop, nrep, nlen in *; rewrite ?vs_look;
    repeat match goal with E : _ !! _ = _ |- _ => rewrite E end; cbn [fmap option_fmap option_map default from_option id].
  Lemma step_any s (o : cop A) s' x : cspec s o = Some (s', x) ->
    exists y, vspec_step dflt eqb cmp (vs s) (vec_of o) = Some (vs s', y) /\ seen_v y = Some x.
  Proof using Type.
    intros H. destruct (cpos s o) eqn:Hp.
    { destruct (step_v dflt eqb cmp s o s' x H Hp) as (y & E1 & E2 & _). by exists y. }
    destruct o; cbn [cspec cpos] in H, Hp; try done; cbn [vec_of vspec_step]; looks; seev; try done.
    - injection H as <- <-. rewrite vs_ins, Nat2N.id. replace (N.of_nat p <=? N.of_nat (length l)) with true by lia.
      eexists; split; [done|cbn; by rewrite Nat2N.id].
    - injection H as <- <-. rewrite vs_ins, !Nat2N.id. replace ((N.of_nat p <=? N.of_nat q) && (N.of_nat q <=? N.of_nat (length l))) with true by lia.
      eexists; split; [done|cbn; by rewrite Nat2N.id].
  Qed.

  Lemma crun_split pre o post : forall (s : cstate) s' outs, crun s (pre ++ o :: post) = Some (s', outs) ->
    exists s1 outs1 s2 x, crun s pre = Some (s1, outs1) /\ cspec s1 o = Some (s2, x).
  Proof using Type.
    induction pre as [|p pre IH]; intros s s' outs; cbn [app crun].
    - destruct (cspec s o) as [[s2 x]|] eqn:E; [|done]. intros _. by exists s, [], s2, x.
    - destruct (cspec s p) as [[s1 y]|] eqn:E; [|done]. destruct (crun s1 (pre ++ o :: post)) as [[s2 ys]|] eqn:E2; [|done].
      intros _. destruct (IH s1 s2 ys E2) as (t1 & os1 & t2 & x & E3 & E4). exists t1, (y :: os1), t2, x. by rewrite E3.
  Qed.

  Section Run.
  Context (sz lmax : N) (Hsz : 1 <= sz) (Hlim : sz * (2 * lmax + 2) <= alloc_max).
  Lemma vec_any (ops : list (cop A)) : forall s s' outs, crun s ops = Some (s', outs) ->
    exists vouts, spec_run (vspec_step dflt eqb cmp) (vs s) (vec_of <$> ops) = Some (vs s', vouts) /\ seen_v <$> vouts = Some <$> outs.
  Proof using Type.
    induction ops as [|o ops IH]; intros s s' outs E.
    { injection E as <- <-. by exists []. }
    cbn [crun] in E. destruct (cspec s o) as [[s1 x]|] eqn:Es; [|done].
    destruct (crun s1 ops) as [[s2 xs]|] eqn:Er; [|done]. injection E as <- <-.
    destruct (step_any _ _ _ _ Es) as (y & E1 & Hy). destruct (IH s1 s2 xs Er) as (ys & E2 & Hys).
    exists (y :: ys). rewrite fmap_cons. cbn [spec_run]. rewrite E1, E2. split; [done|]. by rewrite !fmap_cons, Hy, Hys.
  Qed.
  Lemma vec_limits (ops : list (cop A)) : forall s, cfits lmax s ops ->
    along (vspec_step dflt eqb cmp) (fun _ o s' => vlimit lmax o s') (vs s) (vec_of <$> ops).
  Proof using Type.
    clear Hsz Hlim. induction ops as [|o ops IH]; intros s F; [done|]. cbn [cfits] in F. destruct (cspec s o) as [[s1 x]|] eqn:Es; [|done].
    destruct F as [Fs F]. destruct (step_any _ _ _ _ Es) as (y & E1 & _). rewrite fmap_cons. cbn [along]. rewrite E1.
    split; [|by apply IH]. split; [|by destruct o].
    intros i zs. rewrite vs_look. destruct (s1 !! i) as [[ws|]|] eqn:Ei; cbn; intros [= <-]; [by apply (Fs i)|cbn; lia].
  Qed.
  Lemma list_any (ops : list (cop A)) : lmax < W -> forall s s' outs, small lmax s -> crun s ops = Some (s', outs) -> cfits lmax s ops ->
    exists louts, srun (gspec true) (ls s) (list_of <$> ops) = SOk (ls s') louts /\ seen_l <$> louts = Some <$> outs.
  Proof using dflt eqb cmp.
    clear Hsz Hlim. intros HW. induction ops as [|o ops IH]; intros s s' outs Hs E F.
    { injection E as <- <-. by exists []. }
    cbn [crun cfits] in E, F. destruct (cspec s o) as [[s1 x]|] eqn:Es; [|done]. destruct F as (Fs & F).
    destruct (crun s1 ops) as [[s2 xs]|] eqn:Er; [|done]. injection E as <- <-.
    assert (HWs : forall s : cstate, small lmax s -> small (W - 1) s) by (intros t Ht i zs Hi; specialize (Ht i zs Hi); lia).
    destruct (step_l dflt eqb cmp _ _ _ _ Es (HWs _ Hs) (HWs _ Fs)) as (y & E1 & Hy). destruct (IH s1 s2 xs Fs Er F) as (ys & E2 & Hys).
    exists (y :: ys). rewrite fmap_cons. cbn [srun]. rewrite E1, E2. split; [done|]. by rewrite !fmap_cons, Hy, Hys.
  Qed.

  Theorem C90_histories_exact (ops : list (cop A)) s outs : crun ∅ ops = Some (s, outs) -> cfits lmax ∅ ops ->
    (exists louts w, run_ops (list_step true) (list_of <$> ops) winit = Ok (louts, w) /\ seen_l <$> louts = Some <$> outs) /\
    ((exists vouts w, vec_run sz dflt eqb cmp (vec_of <$> ops) = Ok (vouts, w) /\ seen_v <$> vouts = Some <$> outs) \/
     (exists pre o post s1 outs1 vouts1 w1 s2 x, ops = pre ++ o :: post /\ crun ∅ pre = Some (s1, outs1) /\
        vec_run sz dflt eqb cmp (vec_of <$> pre) = Ok (vouts1, w1) /\ seen_v <$> vouts1 = Some <$> outs1 /\
        cspec s1 o = Some (s2, x) /\ cpos s1 o = false /\
        goes_wrong dflt eqb cmp sz (vs s2) w1 (vec_of o))).
  Proof using Hsz Hlim.
    intros E F. assert (H0 : small lmax (∅ : cstate)) by (intros i xs Hi; by rewrite lookup_empty in Hi).
    assert (HW : lmax < W).
    { assert (alloc_max < W) by done. assert (1 * (2 * lmax + 2) <= sz * (2 * lmax + 2)) by (apply N.mul_le_mono_r; lia). lia. }
    assert (Ev : vs (A := A) ∅ = ∅) by apply fmap_empty. assert (El : ls (A := A) ∅ = ∅) by apply fmap_empty.
    split.
    - destruct (list_any _ HW _ _ _ H0 E F) as (louts & E2 & Hl). rewrite El in E2.
      destruct (reach true (list_of <$> ops) (ls s) louts) as (w' & R2 & _); [|done|by exists louts, w'].
      apply Forall_fmap, Forall_true. by intros [].
    - destruct (vec_any _ _ _ _ E) as (vouts & E1 & Hv). pose proof (vec_limits _ _ F) as Ha. rewrite Ev in E1, Ha.
      destruct (C02_exact dflt eqb cmp sz lmax Hsz Hlim _ _ _ E1 Ha)
        as [(w & R & _)|(vpre & vo & vpost & t1 & os1 & t2 & y & w1 & Eo & Ep & Er & Et & Hf & Hg)].
      + left. by exists vouts, w.
      + right. apply fmap_app_inv in Eo as (pre & rest & -> & E3 & ->).
        symmetry in E3. apply fmap_cons_inv in E3 as (o & post & -> & -> & ->).
        destruct (crun_split pre o post ∅ s outs E) as (s1 & outs1 & s2 & x & Ec & Es).
        destruct (vec_any _ _ _ _ Ec) as (vouts1 & Ev1 & Hv1). rewrite Ev, Ep in Ev1. injection Ev1 as -> ->.
        destruct (step_any _ _ _ _ Es) as (y' & Ey & _). rewrite Et in Ey. injection Ey as -> ->.
        exists pre, o, post, s1, outs1, vouts1, w1, s2, x. repeat (split; [done|]). split; [|done].
        destruct (cpos s1 o) eqn:Hp; [|done]. destruct (step_v dflt eqb cmp s1 o s2 x Es Hp) as (_ & _ & _ & Hs).
        exfalso. apply Hf. by left.
  Qed.
  End Run.
End Exact.

(** A program of each kind that meets the hypotheses. *)
Fixpoint cfitsb (lmax : N) (s : gmap nat (option (list N))) (ops : list (cop N)) : bool :=
  match ops with
  | [] => true
  | o :: r => match cspec s o with
              | None => false
              | Some (s1, _) => forallb (fun p : nat * option (list N) => match p.2 with Some xs => N.of_nat (length xs) <=? lmax | None => true end)
                                  (map_to_list s1) && cfitsb lmax s1 r
              end
  end.
Lemma cfitsb_fits lmax ops : forall s, cfitsb lmax s ops = true -> cfits lmax s ops.
Proof.
  induction ops as [|o r IH]; intros s H; [done|]. cbn [cfitsb cfits] in *. destruct (cspec s o) as [[s1 x]|]; [|done].
  apply andb_prop in H as [H1 H2]. split; [|by apply IH]. intros i xs Hi. rewrite forallb_forall in H1.
  specialize (H1 (i, Some xs)). cbn in H1. apply N.leb_le, H1, elem_of_list_In. by apply elem_of_map_to_list.
Qed.
Example C90_exact_ex :
  (match crun ∅ ex_prog with Some _ => True | None => False end /\ cfits 1000 ∅ ex_prog /\
   exists w, vec_run 8 0 N.eqb N.compare (vec_of <$> firstn 6 ex_prog) =
     Ok ([VecModel.ONone; VecModel.ONone; VecModel.ONone; VecModel.OIdx (Some 2); VecModel.OIdx (Some 0); VecModel.OSeq [6; 9; 9; 7; 8]], w)) /\
  match crun ∅ ex_front with Some _ => True | None => False end /\ cfits 1000 ∅ ex_front /\
  vec_run 8 0 N.eqb N.compare (vec_of <$> ex_front) = Err UB.
Proof.
  split; [split; [by vm_compute|]; split; [apply cfitsb_fits; by vm_compute|]; eexists; vm_compute; reflexivity|].
  split; [by vm_compute|]. split; [apply cfitsb_fits; by vm_compute|by vm_compute].
Qed.

Print Assumptions C90_histories_exact.
