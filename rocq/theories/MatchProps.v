(** * MatchProps: C48 *)
From Verif Require Import Base MatchModel.

Section Props.
  Context {R Wd : Type}.

  (** What the tests of the branches [bs] do to the world when they are all
      made in order and all fail. *)
  Fixpoint all_fail (bs : list (branch R Wd)) (w : Wd) : option Wd :=
    match bs with
    | [] => Some w
    | b :: r =>
        match b_test b with
        | None => None
        | Some t => match t w with (false, w1) => all_fail r w1 | (true, _) => None end
        end
    end.
  (** Branch [b] matches in world [w], after which the world is [w1]. *)
  Definition matches (b : branch R Wd) (w w1 : Wd) : Prop :=
    match b_test b with
    | None => w1 = w
    | Some t => t w = (true, w1)
    end.

  (** The meaning of a match expression with branches [bs], evaluated in [w]:
      the branches before the selected one were tested and failed, then the
      selected one matched, then its body ran - and nothing else; or no branch
      matches. *)
  Definition selects (bs : list (branch R Wd)) (w : Wd) (r : R) (w' : Wd) : Prop :=
    exists pre b post w1 w2,
      bs = pre ++ b :: post /\ all_fail pre w = Some w1 /\ matches b w1 w2 /\
      b_body b w2 = (r, w').
  Definition selects_none (bs : list (branch R Wd)) (w : Wd) : Prop :=
    exists w', all_fail bs w = Some w'.

  Lemma mid_done r (bs : list (branch R Wd)) w : mid_branches (Some r) bs w = Ok (Some r, w).
  Proof.
    induction bs as [|b bs IH]; [done|]. simpl. unfold bind, mid_branch, mid_when, mid_rest, ret.
    by destruct (b_test b).
  Qed.

  Lemma mid_ok (bs : list (branch R Wd)) : forall w,
    (exists r w', mid_branches None bs w = Ok (Some r, w') /\ selects bs w r w') \/
    (exists w', mid_branches None bs w = Ok (None, w') /\ all_fail bs w = Some w').
  Proof.
    induction bs as [|[t body] bs IH]; intros w; simpl.
    { right. by exists w. }
    unfold bind, mid_branch, mid_when, mid_rest, run_test, run_body, ret. simpl.
    destruct t as [t|]; simpl.
    - destruct (t w) as [[|] w1] eqn:Et; simpl.
      + destruct (body w1) as [r w2] eqn:Eb. left. exists r, w2.
        unfold bind. rewrite Et, Eb, mid_done. split; [done|]. exists [], (Branch (Some t) body), bs, w, w1. done.
      + unfold bind. rewrite Et. destruct (IH w1) as [(r & w' & E & pre & b & post & u1 & u2 & -> & H1 & H2 & H3)|(w' & E & H)].
        * left. exists r, w'. split; [done|].
          exists (Branch (Some t) body :: pre), b, post, u1, u2. simpl. by rewrite Et.
        * right. exists w'. done.
    - destruct (body w) as [r w2] eqn:Eb. left. exists r, w2. unfold bind. rewrite Eb, mid_done. split; [done|].
      exists [], (Branch None body), bs, w, w. done.
  Qed.

  Lemma selects_det bs w r w' r2 w2 : selects bs w r w' -> selects bs w r2 w2 -> r = r2 /\ w' = w2.
  Proof.
    intros (pre & b & post & u1 & u2 & -> & H1 & H2 & H3) (pre' & b' & post' & v1 & v2 & E & G1 & G2 & G3).
    revert pre' w E H1 G1. induction pre as [|c pre IH]; intros pre' w E H1 G1.
    - destruct pre' as [|c' pre']; simpl in *.
      + injection E as <- <-. injection H1 as ->. injection G1 as ->. unfold matches in *.
        destruct (b_test b) as [t|]; [|subst u2; subst v2; by rewrite H3 in G3; injection G3 as -> ->].
        rewrite H2 in G2. injection G2 as ->. rewrite H3 in G3. by injection G3 as -> ->.
      + injection E as <- ->. injection H1 as ->. exfalso. unfold matches in H2.
        destruct (b_test b) as [t|]; [|done]. by rewrite H2 in G1.
    - destruct pre' as [|c' pre']; simpl in *.
      + injection E as <- <-. injection G1 as ->. exfalso. unfold matches in G2.
        destruct (b_test c) as [t|]; [|done]. by rewrite G2 in H1.
      + injection E as <- E. destruct (b_test c) as [t|]; [|done].
        destruct (t w) as [[|] w1]; [done|]. by apply (IH pre' w1).
  Qed.

  Lemma none_not_selects bs w r w' : selects_none bs w -> selects bs w r w' -> False.
  Proof.
    intros [v H] (pre & b & post & u1 & u2 & -> & H1 & H2 & H3).
    revert w H H1. induction pre as [|c pre IH]; intros w H H1; simpl in *.
    - injection H1 as ->. unfold matches in H2. destruct (b_test b) as [t|]; [|done].
      by rewrite H2 in H.
    - destruct (b_test c) as [t|]; [|done]. destruct (t w) as [[|] w1]; [done|]. by apply (IH w1).
  Qed.

  (** C48: the expression returns [r] exactly when the first matching branch
      returns [r], having had exactly the effects of the tests up to that
      branch and of its body, in that order; it panics exactly when no branch
      matches; and there is no other outcome. *)
  Theorem C48_first_match_wins (t : Wd -> bool * Wd) (body : Wd -> R * Wd) (bs : list (branch R Wd)) (w : Wd) :
    let all := Branch (Some t) body :: bs in
    (forall r w', match_expr t body bs w = Ok (r, w') <-> selects all w r w') /\
    (match_expr t body bs w = Err Panic <-> selects_none all w) /\
    (forall e, match_expr t body bs w = Err e -> e = Panic).
  Proof.
    intros all.
    assert (mid_branches None all w = bind (first_when t body) (fun res => mid_branches res bs) w) as E0.
    { unfold all. simpl. unfold bind, mid_branch, mid_when, first_when, run_test, run_body, ret. simpl. done. }
    assert (match_expr t body bs w =
      match mid_branches None all w with
      | Ok (Some r, w') => Ok (r, w') | Ok (None, _) => Err Panic | Err e => Err e end) as E1.
    { rewrite E0. unfold match_expr, bind, finale, ret.
      destruct (first_when t body w) as [[res w1]|]; [|done].
      destruct (mid_branches res bs w1) as [[[r|] w2]|]; done. }
    rewrite E1. destruct (mid_ok all w) as [(r0 & w0 & -> & Hs)|(w0 & -> & Hn)]; split_and!.
    - intros r w'. split; [by intros [= <- <-]|]. intros Hs'.
      by destruct (selects_det _ _ _ _ _ _ Hs Hs') as [-> ->].
    - split; [done|]. intros Hn. by destruct (none_not_selects _ _ _ _ Hn Hs).
    - done.
    - intros r w'. split; [done|]. intros Hs.
      destruct (none_not_selects all w r w'); [by exists w0|done].
    - split; [|done]. intros _. by exists w0.
    - by intros e [= <-].
  Qed.
End Props.

(** A match on 7 with the branches 1, [2, 10), rest; the world is the log of
    client calls. *)
Definition ex_test (n : nat) (b : bool) : list nat -> bool * list nat := fun w => (b, w ++ [n]).
Definition ex_body (n r : nat) : list nat -> nat * list nat := fun w => (r, w ++ [n]).
Definition ex_bs : list (branch nat (list nat)) :=
  [Branch (Some (ex_test 2 (bool_decide (2 <= 7 < 10)))) (ex_body 20 10); Branch None (ex_body 30 20)].
Example C48_ex :
  match_expr (ex_test 1 (bool_decide (7 = 1))) (ex_body 10 5) ex_bs [] = Ok (10, [1; 2; 20]) /\
  match_expr (ex_test 1 false) (ex_body 10 5) [Branch (Some (ex_test 2 false)) (ex_body 20 10)] [] = Err Panic.
Proof. split; reflexivity. Qed.

(** The void specialisation, if it could be instantiated, would run the body
    of a matching range branch and of [rest] and still panic, and would run
    several bodies. *)
Definition vt (n : nat) (b : bool) : list nat -> bool * list nat := fun w => (b, w ++ [n]).
Definition vb (n : nat) : list nat -> list nat := fun w => w ++ [n].
Definition vbs : list (vbranch (list nat)) :=
  [VBranch (VRange (vt 2 true)) (vb 20); VBranch VRest (vb 30)].
Theorem C48_void_specialisation_refuted :
  (** both bodies are run... *)
  vm_branches false vbs [] = Ok (false, [2; 20; 30]) /\
  (** ...and [finale] then panics although a branch matched. *)
  vm_expr (vt 1 false) (vb 10) vbs [] = Err Panic.
Proof. split; reflexivity. Qed.

(** What the void specialisation would do for every list of branches. *)
Section Void.
  Context {Wd : Type}.

  (** The branches [bs] are passed from world [w] to world [w'] without ending
      the match: a value branch is passed when its test fails; a range branch
      always, having run its body if the test held; [rest] always, having run
      its body. *)
  Inductive passes : list (vbranch Wd) -> Wd -> Wd -> Prop :=
    | pass_nil w : passes [] w w
    | pass_eq t body bs w w1 w' :
        t w = (false, w1) -> passes bs w1 w' -> passes (VBranch (VEq t) body :: bs) w w'
    | pass_out t body bs w w1 w' :
        t w = (false, w1) -> passes bs w1 w' -> passes (VBranch (VRange t) body :: bs) w w'
    | pass_in t body bs w w1 w' :
        t w = (true, w1) -> passes bs (body w1) w' -> passes (VBranch (VRange t) body :: bs) w w'
    | pass_rest body bs w w' :
        passes bs (body w) w' -> passes (VBranch VRest body :: bs) w w'.
  (** The match ends normally in [w'] at a value branch. *)
  Definition ends (bs : list (vbranch Wd)) (w w' : Wd) : Prop :=
    exists pre t body post w1 w2,
      bs = pre ++ VBranch (VEq t) body :: post /\ passes pre w w1 /\ t w1 = (true, w2) /\ w' = body w2.

  Lemma vm_reached (bs : list (vbranch Wd)) w : vm_branches true bs w = Ok (true, w).
  Proof. induction bs as [|b bs IH]; [done|]. exact IH. Qed.

  Lemma vm_exact bs : forall w,
    (exists w', vm_branches false bs w = Ok (true, w') /\ ends bs w w' /\ forall u, ~ passes bs w u) \/
    (exists w', vm_branches false bs w = Ok (false, w') /\ passes bs w w' /\ forall u, ~ ends bs w u).
  Proof.
    revert bs. assert (forall b bs w w1,
      (forall pre u, passes (b :: pre) w u -> passes pre w1 u) ->
      (forall pre u, passes pre w1 u -> passes (b :: pre) w u) ->
      (forall t body u, b = VBranch (VEq t) body -> t w <> (true, u)) ->
      forall u, ends (b :: bs) w u <-> ends bs w1 u) as Hends.
    { intros b bs w w1 H1 H2 H3 u. split.
      - intros (pre & t & body & post & u1 & u2 & E & Hp & Ht & ->).
        destruct pre as [|c pre]; simpl in E; injection E as E1 E2.
        + inversion Hp; subst. by destruct (H3 t body u2).
        + subst c. exists pre, t, body, post, u1, u2. eauto.
      - intros (pre & t & body & post & u1 & u2 & -> & Hp & Ht & ->).
        exists (b :: pre), t, body, post, u1, u2. eauto. }
    intros bs. induction bs as [|[p body] bs IH]; intros w.
    { right. exists w. split; [done|]. split; [constructor|].
      intros u (pre & t & body & post & u1 & u2 & E & _). by destruct pre. }
    destruct p as [t|t|].
    - destruct (t w) as [[|] w1] eqn:Et.
      + left. exists (body w1). split_and!.
        * cbn. unfold bind, vm_branch, run_test, run_void, ret. cbn. cbv [bind]. rewrite Et. apply vm_reached.
        * exists [], t, body, bs, w, w1. split; [done|]. split; [constructor|done].
        * intros u Hu. inversion Hu; subst. congruence.
      + assert (vm_branches false (VBranch (VEq t) body :: bs) w = vm_branches false bs w1) as ->.
        { cbn. unfold bind, vm_branch, run_test, run_void, ret. cbn. cbv [bind]. by rewrite Et. }
        assert (forall q u, passes (VBranch (VEq t) body :: q) w u <-> passes q w1 u) as Hp.
        { intros q u. split; [intros Hu; inversion Hu; subst; congruence|]. by apply pass_eq. }
        assert (forall u, ends (VBranch (VEq t) body :: bs) w u <-> ends bs w1 u) as He.
        { apply Hends; try (intros; by apply Hp). intros t' b' u [= <- <-]. congruence. }
        destruct (IH w1) as [(w' & -> & H1 & H2)|(w' & -> & H1 & H2)]; [left|right]; exists w';
          (split; [done|]); (split; [first [by apply He|by apply Hp]|]); intros u; [rewrite Hp|rewrite He]; auto.
    - destruct (t w) as [[|] w1] eqn:Et.
      + assert (vm_branches false (VBranch (VRange t) body :: bs) w = vm_branches false bs (body w1)) as ->.
        { cbn. unfold bind, vm_branch, run_test, run_void, ret. cbn. cbv [bind]. by rewrite Et. }
        assert (forall q u, passes (VBranch (VRange t) body :: q) w u <-> passes q (body w1) u) as Hp.
        { intros q u. split; [intros Hu; inversion Hu; subst; congruence|]. by apply pass_in. }
        assert (forall u, ends (VBranch (VRange t) body :: bs) w u <-> ends bs (body w1) u) as He.
        { apply Hends; try (intros; by apply Hp). intros t' b' u [=]. }
        destruct (IH (body w1)) as [(w' & -> & H1 & H2)|(w' & -> & H1 & H2)]; [left|right]; exists w';
          (split; [done|]); (split; [first [by apply He|by apply Hp]|]); intros u; [rewrite Hp|rewrite He]; auto.
      + assert (vm_branches false (VBranch (VRange t) body :: bs) w = vm_branches false bs w1) as ->.
        { cbn. unfold bind, vm_branch, run_test, run_void, ret. cbn. cbv [bind]. by rewrite Et. }
        assert (forall q u, passes (VBranch (VRange t) body :: q) w u <-> passes q w1 u) as Hp.
        { intros q u. split; [intros Hu; inversion Hu; subst; congruence|]. by apply pass_out. }
        assert (forall u, ends (VBranch (VRange t) body :: bs) w u <-> ends bs w1 u) as He.
        { apply Hends; try (intros; by apply Hp). intros t' b' u [=]. }
        destruct (IH w1) as [(w' & -> & H1 & H2)|(w' & -> & H1 & H2)]; [left|right]; exists w';
          (split; [done|]); (split; [first [by apply He|by apply Hp]|]); intros u; [rewrite Hp|rewrite He]; auto.
    - assert (vm_branches false (VBranch VRest body :: bs) w = vm_branches false bs (body w)) as -> by done.
      assert (forall q u, passes (VBranch VRest body :: q) w u <-> passes q (body w) u) as Hp.
      { intros q u. split; [by intros Hu; inversion Hu; subst|]. by apply pass_rest. }
      assert (forall u, ends (VBranch VRest body :: bs) w u <-> ends bs (body w) u) as He.
      { apply Hends; try (intros; by apply Hp). intros t' b' u [=]. }
      destruct (IH (body w)) as [(w' & -> & H1 & H2)|(w' & -> & H1 & H2)]; [left|right]; exists w';
        (split; [done|]); (split; [first [by apply He|by apply Hp]|]); intros u; [rewrite Hp|rewrite He]; auto.
  Qed.

  Lemma ends_det bs w u u' : ends bs w u -> ends bs w u' -> u = u'.
  Proof.
    intros (pre & t & body & post & u1 & u2 & -> & Hp & Ht & ->) (pre' & t' & body' & post' & v1 & v2 & E & Hp' & Ht' & ->).
    revert w pre' E Hp Hp'. induction pre as [|c pre IH]; intros w pre' E Hp Hp'.
    - inversion Hp; subst. destruct pre' as [|c' pre']; simpl in E.
      + injection E as <- <- <-. inversion Hp'; subst. congruence.
      + injection E as <- ->. inversion Hp'; subst; congruence.
    - destruct pre' as [|c' pre']; simpl in E.
      + injection E as -> <-. inversion Hp'; subst. inversion Hp; subst; congruence.
      + injection E as <- E. inversion Hp; subst; inversion Hp'; subst; try congruence;
          repeat match goal with H1 : ?t ?w = (?b, ?x), H2 : ?t ?w = (?b, ?y) |- _ =>
            rewrite H1 in H2; injection H2 as -> end; by eapply IH.
  Qed.

  (** The void form ends normally exactly when the first branch matches, after
      its body, or when a later value branch matches, after the bodies of all
      matching range branches and all [rest]s before it and its own; it panics
      exactly when no value branch matches - whatever ranges and [rest]s
      did. *)
  Theorem C48_void_specialisation (t : Wd -> bool * Wd) (body : Wd -> Wd) (bs : list (vbranch Wd)) (w : Wd) :
    (forall w', vm_expr t body bs w = Ok (tt, w') <->
      exists w1, (t w = (true, w1) /\ w' = body w1) \/ (t w = (false, w1) /\ ends bs w1 w')) /\
    (vm_expr t body bs w = Err Panic <-> exists w1 w2, t w = (false, w1) /\ passes bs w1 w2) /\
    (forall e, vm_expr t body bs w = Err e -> e = Panic).
  Proof.
    unfold vm_expr, run_test, run_void, ret. cbv [bind].
    destruct (t w) as [[|] w1] eqn:Et.
    - rewrite vm_reached. cbn. unfold ret. split_and!.
      + intros w'. split; [intros [= <-]; exists w1; by left|].
        intros (u & [[[= <-] ->]|[[=] _]]). done.
      + split; [done|]. intros (u & v & [=] & _).
      + done.
    - destruct (vm_exact bs w1) as [(w2 & -> & H1 & H2)|(w2 & -> & H1 & H2)]; cbn; unfold ret, fail; split_and!.
      + intros w'. split; [intros [= <-]; exists w1; by right|].
        intros (u & [[[=] _]|[[= <-] H]]). by rewrite (ends_det _ _ _ _ H1 H).
      + split; [done|]. intros (u & v & [= <-] & H). by destruct (H2 v).
      + done.
      + intros w'. split; [done|]. intros (u & [[[=] _]|[[= <-] H]]). by destruct (H2 w').
      + split; [|done]. intros _. by exists w1, w2.
      + by intros e [= <-].
  Qed.
End Void.

(** A matching range, then a matching value: both bodies run, the value ends
    the match. *)
Example C48_void_ex :
  vm_expr (vt 1 false) (vb 10)
    [VBranch (VRange (vt 2 true)) (vb 20); VBranch (VEq (vt 3 true)) (vb 30); VBranch VRest (vb 40)] []
  = Ok (tt, [1; 2; 20; 3; 30]) /\
  ends [VBranch (VRange (vt 2 true)) (vb 20); VBranch (VEq (vt 3 true)) (vb 30); VBranch VRest (vb 40)]
    [1] [1; 2; 20; 3; 30].
Proof.
  split; [done|].
  exists [VBranch (VRange (vt 2 true)) (vb 20)], (vt 3 true), (vb 30), [VBranch VRest (vb 40)], [1; 2; 20], [1; 2; 20; 3].
  split; [done|]. split; [|done]. by eapply pass_in; [done|constructor].
Qed.

Print Assumptions C48_first_match_wins.
Print Assumptions C48_void_specialisation_refuted.
Print Assumptions C48_void_specialisation.
