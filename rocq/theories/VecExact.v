(** * VecExact: the calls C02 and C03 exclude are exactly those that go wrong

    No new model content; the code is that of VecModel (vector.h:543-551,
    586-668, 861-875).  VecBreaks.v shows what an excluded call does at the
    end of a history without excluded calls; here every history that is right
    on sequences is covered: it is carried out faithfully, or there is a first
    call that goes wrong, and that is an excluded one. *)
From Verif Require Import Base World VecModel VecSpec VecFacts VecProofs VecProofs2 VecRefine
  VecMore VecProps VecBreaks.
Local Open Scope N_scope.

Section Exact.
  Context {A : Type} (dflt : A) (eqb : A -> A -> bool) (cmp : A -> A -> comparison).
  Context (sz lmax : N) (Hsz : 1 <= sz) (Hlim : sz * (2 * lmax + 2) <= alloc_max).
  Notation vrun := (vec_run sz dflt eqb cmp).
  Notation step := (vec_step sz dflt eqb cmp).
  Notation vspec := (gmap nat (list A)).
  Notation sstep := (vspec_step dflt eqb cmp).
  Notation wok := (world_ok (vrep (A := A) sz lmax)).
  Implicit Types (s : vspec) (o : vop A) (xs ys : list A) (w : world (block A) vec).

  (** ** The calls that are all right *)
  (** Inserting nothing into an empty vector. *)
  Definition idle s o : Prop :=
    match o with
    | VInsertFill i _ n _ => s !! i = Some [] /\ n = 0
    | VInsertRange i _ ys => s !! i = Some [] /\ ys = []
    | _ => False
    end.
  Definition fine s o : Prop := vop_safe s o \/ idle s o.

  (** The call is undefined; or the vector it was for is empty afterwards
      although it should not be, and its end leaks. *)
  Inductive goes_wrong s' w o : Prop :=
  | G_undefined : step o w = Err UB -> goes_wrong s' w o
  | G_lost i xs x w' : s' !! i = Some xs -> xs <> [] -> step o w = Ok (x, w') ->
      step (VIterAll i) w' = Ok (OSeq [], w') -> step (VDestroy i) w' = Err Leak -> goes_wrong s' w o.

  (** An insertion into vector [i] at [p]. *)
  Definition ins_of o : option (nat * N * list A * vout A) :=
    match o with
    | VInsert i p x => Some (i, p, [x], OIdx (Some p))
    | VEmplace i p x => Some (i, p, [x], ONone)
    | VInsertFill i p n x => Some (i, p, nrep n x, OIdx (Some p))
    | VInsertRange i p ys => Some (i, p, ys, OIdx (Some p))
    | _ => None
    end.
  Lemma ins_of_insertion o i p ys out : ins_of o = Some (i, p, ys, out) -> insertion i p o ys out.
  Proof using Type. destruct o; intros [= <- <- <- <-]; constructor. Qed.
  Lemma ins_spec o i p ys out s s' y : ins_of o = Some (i, p, ys, out) -> sstep s o = Some (s', y) ->
    exists xs, s !! i = Some xs /\ p <= nlen xs /\ y = out /\ s' = <[i := ntake p xs ++ ys ++ ndrop p xs]> s.
  Proof using Type.
    destruct o; intros [= <- <- <- <-]; cbn [vspec_step]; unfold modify; case_match; try done; case_match; try done;
      match goal with H : (_ <=? _) = true |- _ => apply N.leb_le in H end || (case_match; try done);
      try match goal with H : (_ <=? _) = true |- _ => apply N.leb_le in H end; intros; simplify_eq; eexists; eauto.
  Qed.
  Lemma nrep_nil n (x : A) : nrep n x = [] -> n = 0.
  Proof using Type. clear -A. intros H. apply (f_equal length) in H. unfold nrep in H. rewrite replicate_length in H. cbn in H. lia. Qed.

  Theorem vec_step_exact w s o s' y : wok w s -> within lmax s -> sstep s o = Some (s', y) -> vlimit lmax o s' ->
    (fine s o -> exists w', step o w = Ok (y, w') /\ wok w' s') /\
    (fine s o \/ goes_wrong s' w o).
  Proof using Hsz Hlim.
    intros Hw Hin Hs Hl. pose proof Hw as [m Hm].
    split.
    { intros [Hf|Hf]; [by eapply vec_step_refines|]. destruct (ins_of o) as [[[[i p] ys] out]|] eqn:Eo; [|by destruct o].
      destruct (ins_spec _ _ _ _ _ _ _ _ Eo Hs) as (xs & Hi & Hp & -> & ->).
      assert (xs = [] /\ ys = []) as [-> ->].
      { destruct o; try done; destruct Hf as [Hf ->]; injection Eo as <- <- <- <-; rewrite Hi in Hf; by injection Hf as ->. }
      change (nlen (@nil A)) with 0 in Hp. assert (p = 0) as -> by lia. change (ntake 0 [] ++ [] ++ ndrop 0 []) with (@nil A).
      assert (<[i := []]> s = s) as -> by by apply insert_id.
      exists w. split; [|done].
      destruct (world_ok_lookup_spec _ _ _ _ _ _ Hm Hi) as (e & _ & _ & Hv & Hr). set (v := e_o e) in *.
      assert (Hlen : v_len v = 0) by apply Hr.
      assert (Hsame : World (w_heap w) (<[i := v]> (w_vars w)) = w).
      { rewrite (insert_id _ _ _ Hv). by destruct w. }
      rewrite <-Hsame at 2. destruct o; try done; destruct Hf as [_ ->]; injection Eo as <- -> <-.
      - apply (upd1o_run i0 _ (fun k => OIdx (Some k)) w v v 0 _ Hv). unfold insert_fill_m.
        by rewrite (bind_ok _ _ _ _ _ (meb_empty sz _ _ _ _ Hlen)).
      - apply (upd1o_run i0 _ (fun k => OIdx (Some k)) w v v 0 _ Hv). unfold insert_range.
        rewrite Hlen. change (uadd 0 (N.of_nat (length []))) with 0.
        rewrite (proj2 (N.ltb_ge _ _)) by lia. rewrite bind_ret.
        by rewrite (bind_ok _ _ _ _ _ (meb_empty sz _ _ _ _ Hlen)). }
    destruct (ins_of o) as [[[[i p] ys] out]|] eqn:Eo.
    - destruct (ins_spec _ _ _ _ _ _ _ _ Eo Hs) as (xs & Hi & Hp & -> & ->).
      destruct (world_ok_lookup_spec _ _ _ _ _ _ Hm Hi) as (e & _ & _ & Hv & Hr). set (v := e_o e) in *.
      assert (Hwf : hwf (w_heap w)) by apply Hm.
      assert (Hlen : nlen xs + nlen ys <= lmax).
      { destruct Hl as [Hl _]. specialize (Hl i _ (lookup_insert _ _ _)). rewrite !nlen_app in Hl.
        unfold nlen, ntake, ndrop in *. rewrite take_length, drop_length in Hl. lia. }
      pose proof (ins_of_insertion _ _ _ _ _ Eo) as Hio.
      destruct xs as [|x0 xs0] eqn:Exs.
      + change (nlen (@nil A)) with 0 in *. assert (p = 0) as -> by lia. destruct ys as [|y ys].
        { left. right. destruct o; try done; injection Eo; intros; subst; (split; [done|]); [by eapply nrep_nil|done]. }
        right. destruct (insertion_stray dflt eqb cmp sz lmax Hsz Hlim _ _ _ _ _ _ _ _ Hv Hwf Hr Hio ltac:(done) eq_refl) as
          [(n&x&_&_&E)|(v'&h'&E&Hst)]; [lia|by apply G_undefined|].
        eapply (G_lost _ _ _ i); [by rewrite lookup_insert|by destruct ys|exact E| |].
        * cbn [vec_step]. unfold obs, bind, wget, lift, ret. cbn [w_vars w_heap]. rewrite lookup_insert. cbn [w_vars w_heap].
          by rewrite (stray_iter _ _ _ _ Hst).
        * cbn [vec_step]. unfold bind, wget, lift, ret. cbn [w_vars w_heap]. rewrite lookup_insert. cbn [w_vars w_heap].
          by rewrite (stray_clear sz lmax Hsz Hlim _ _ Hst).
      + destruct (decide (p = 0 \/ (ys = [] /\ p < nlen xs))) as [Hd|Hd].
        { right. apply G_undefined. rewrite <-Exs in *. eapply (insertion_ub dflt eqb cmp sz lmax Hsz Hlim); eauto. by rewrite Exs. }
        left. left. assert (1 <= p) as H1 by (destruct (N.eq_dec p 0); [naive_solver|lia]).
        destruct o; try done; injection Eo as <- <- <- <-; cbn [vop_safe]; unfold on_var; rewrite Hi; (split; [done|]; split; [done|]).
        * left. lia.
        * left. lia.
        * rewrite Exs in Hd. destruct (N.eq_dec n 0) as [->|]; [right|left; lia]. destruct (N.eq_dec p0 (nlen (x0 :: xs0))); [done|].
          exfalso. apply Hd. right. split; [done|]. lia.
        * rewrite Exs in Hd. destruct xs1 as [|z zs] eqn:Ez; [right|left; unfold nlen; cbn; lia]. destruct (N.eq_dec p0 (nlen (x0 :: xs0))); [done|].
          exfalso. apply Hd. right. split; [done|]. lia.
    - destruct o; try done; try (left; left; exact I). cbn [vspec_step] in Hs. unfold modify in Hs.
      destruct (s !! i) as [xs|] eqn:Hi; [|done].
      destruct ((p <=? q) && (q <=? nlen xs)) eqn:Eb; [|done]. apply andb_true_iff in Eb as [Hpq%N.leb_le Hq%N.leb_le].
      injection Hs as <- <-.
      destruct (world_ok_lookup_spec _ _ _ _ _ _ Hm Hi) as (e & _ & _ & Hv & Hr). set (v := e_o e) in *.
      destruct (N.lt_ge_cases p q); [left; left; cbn [vop_safe]; unfold on_var; rewrite Hi; by left|].
      destruct (N.eq_dec q (nlen xs)); [left; left; cbn [vop_safe]; unfold on_var; rewrite Hi; by right|].
      right. apply G_undefined. assert (q = p) as -> by lia. cbn [vec_step]. eapply upd1o_fails; [done|].
      eapply (erase_empty sz lmax); [done|lia|by eapply Hin].
  Qed.

  (** The two exclude each other. *)
  Lemma fine_not_wrong w s o s' y : wok w s -> within lmax s -> sstep s o = Some (s', y) -> vlimit lmax o s' ->
    goes_wrong s' w o -> ~ fine s o.
  Proof using Hsz Hlim.
    intros Hw Hin Hs Hl Hg Hf. destruct (proj1 (vec_step_exact w s o s' y Hw Hin Hs Hl) Hf) as (w' & E & Hw').
    destruct Hg as [Hg|i xs x w1 Hi Hne E1 Hit _]; [congruence|]. rewrite E in E1. injection E1 as <- <-.
    destruct (vec_step_refines sz lmax dflt eqb cmp Hsz Hlim w' s' (VIterAll i) s' (OSeq xs) Hw' (proj1 Hl)) as (w2 & E2 & _);
      [cbn [vspec_step]; unfold observe; by rewrite Hi|done|split; [apply Hl|done]|].
    rewrite Hit in E2. congruence.
  Qed.

  Lemma exact_gen ops : forall w s s' outs, wok w s -> within lmax s ->
    spec_run sstep s ops = Some (s', outs) -> along sstep (fun _ o s' => vlimit lmax o s') s ops ->
    (exists w', run_ops step ops w = Ok (outs, w') /\ along sstep (fun s o _ => fine s o) s ops) \/
    (exists pre o post s1 outs1 s2 y w1, ops = pre ++ o :: post /\
       spec_run sstep s pre = Some (s1, outs1) /\ run_ops step pre w = Ok (outs1, w1) /\
       sstep s1 o = Some (s2, y) /\ ~ fine s1 o /\ goes_wrong s2 w1 o).
  Proof using Hsz Hlim.
    induction ops as [|o ops IH]; intros w s s' outs Hw Hin Hs Ha; cbn [spec_run along run_ops] in *.
    { injection Hs as <- <-. left. by exists w. }
    destruct (sstep s o) as [[s1 x]|] eqn:E1; [|done]. destruct Ha as [Hl Ha].
    destruct (spec_run sstep s1 ops) as [[s2 xs]|] eqn:E2; [|done]. injection Hs as <- <-.
    destruct (vec_step_exact w s o s1 x Hw Hin E1 Hl) as [Hf Hd].
    destruct Hd as [Hfine|Hg].
    - destruct (Hf Hfine) as (w1 & Ew & Hw1).
      destruct (IH w1 s1 s2 xs Hw1 (proj1 Hl) E2 Ha) as [(w2 & Ew2 & Hal)|(pre&o'&post&t1&os1&t2&y&w2&->&Ep&Er&Eo&Hn&Hg)].
      + left. exists w2. rewrite (bind_ok _ _ _ _ _ Ew), (bind_ok _ _ _ _ _ Ew2). done.
      + right. exists (o :: pre), o', post, t1, (x :: os1), t2, y, w2. split; [done|]. cbn [spec_run run_ops].
        rewrite E1, Ep. split; [done|]. rewrite (bind_ok _ _ _ _ _ Ew), (bind_ok _ _ _ _ _ Er). done.
    - right. exists [], o, ops, s, [], s1, x, w. repeat (split; [done|]). split; [|done].
      by eapply fine_not_wrong.
  Qed.

  (** Every history that is right on sequences (and stays within the size
      limit) is carried out faithfully, or has a first call that goes wrong,
      up to which everything was carried out faithfully. *)
  Theorem C02_exact ops s outs : spec_run sstep ∅ ops = Some (s, outs) ->
    along sstep (fun _ o s' => vlimit lmax o s') ∅ ops ->
    (exists w, vrun ops = Ok (outs, w) /\ along sstep (fun s o _ => fine s o) ∅ ops) \/
    (exists pre o post s1 outs1 s2 y w1, ops = pre ++ o :: post /\
       spec_run sstep ∅ pre = Some (s1, outs1) /\ vrun pre = Ok (outs1, w1) /\
       sstep s1 o = Some (s2, y) /\ ~ fine s1 o /\ goes_wrong s2 w1 o).
  Proof using Hsz Hlim.
    intros Hs Ha. eapply exact_gen; [apply world_ok_init| |exact Hs|exact Ha]. intros i xs. by rewrite lookup_empty.
  Qed.
  (** A history of calls that are all right is carried out faithfully. *)
  Theorem C02_fine_histories_partial ops s outs : spec_run sstep ∅ ops = Some (s, outs) ->
    along sstep (fun s o s' => fine s o /\ vlimit lmax o s') ∅ ops -> exists w, vrun ops = Ok (outs, w).
  Proof using Hsz Hlim.
    intros Hs Ha. destruct (C02_exact ops s outs Hs) as [(w & E & _)|(pre&o&post&s1&os1&s2&y&w1&->&Ep&_&Eo&Hn&_)].
    - eapply along_mono; [|exact Ha]. by intros ??? [_ ?].
    - by exists w.
    - rewrite (along_app _ _ _ _ _ _ _ Ep) in Ha. destruct Ha as [_ Ha]. cbn [along] in Ha. rewrite Eo in Ha.
      by destruct Ha as [[? _] _].
  Qed.
End Exact.

(** Both happen: a history with an idle call, and one that inserts into an
    empty vector after some calls. *)
Definition ex_fine : list (vop N) := [VNew 0; VInsertRange 0 0 []; VPush 0 5; VInsertFill 0 1 2 7; VEraseRange 0 0 1; VIterAll 0].
Example C02_exact_ex :
  match vec_run 4 0 N.eqb N.compare ex_fine, vec_run 4 0 N.eqb N.compare (ex_fine ++ [VClear 0; VInsert 0 0 1; VIterAll 0]) with
  | Ok (outs, _), Ok (outs', _) => last outs = Some (OSeq [7; 7]) /\ last outs' = Some (OSeq [])
  | _, _ => False
  end /\
  vec_run 4 0 N.eqb N.compare (ex_fine ++ [VClear 0; VInsert 0 0 1; VDestroy 0]) = Err Leak /\
  vec_run 4 0 N.eqb N.compare (ex_fine ++ [VInsert 0 0 1]) = Err UB.
Proof. vm_compute. repeat split. Qed.
Example C02_exact_ex_hyps :
  match spec_run (vspec_step 0 N.eqb N.compare) ∅ ex_fine with Some (_, outs) => last outs = Some (OSeq [7; 7]) | None => False end /\
  along (vspec_step 0 N.eqb N.compare) (fun s o s' => fine s o) ∅ ex_fine.
Proof.
  split; [by vm_compute|]. repeat (split; [first [left; exact I|right; by vm_compute|left; vm_compute; intuition congruence]|]). done.
Qed.

Print Assumptions C02_exact.
Print Assumptions C02_fine_histories_partial.

