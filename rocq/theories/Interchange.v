(** * Interchange: the same program with Vector, List and ForwardList (C90)

    A program that uses only members which [Vector] (vector.h) and [List]
    (linked_list.h) both have can be run with either.  [cop] are those members,
    [vec_of] and [list_of] the operations of [VecModel] and [ListStep] they
    stand for; [cspec] says what the program is to do, on sequences.  A
    variable that has been moved from holds [None]: it may be assigned to,
    destroyed, swapped, copied, and asked for size, emptiness, front and back. *)
From Verif Require Import Base World Machine VecModel VecSpec VecProofs VecRefine VecMore VecProps.
From Verif Require Import ListModel ListStep ListSpec ListRefine ListNodes.
Local Open Scope N_scope.

Inductive cop (A : Type) :=
| CNew (i : nat) | COf (i : nat) (xs : list A) | CFill (i : nat) (n : nat) (x : A)
| CCopy (i j : nat) | CMove (i j : nat) | CAssign (i j : nat) | CMoveAssign (i j : nat)
| CSwap (i j : nat) | CEnd (i : nat)
| CClear (i : nat) | CPush (i : nat) (x : A) | CPop (i : nat) | CResize (i : nat) (n : nat) (x : A)
| CInsert (i p : nat) (xs : list A) | CErase (i p : nat) | CEraseRange (i p q : nat)
| CSize (i : nat) | CEmpty (i : nat) | CFront (i : nat) | CBack (i : nat) | CItems (i : nat) | CPrint (i : nat).
Global Arguments CNew {A}. Global Arguments COf {A}. Global Arguments CFill {A}. Global Arguments CCopy {A}.
Global Arguments CMove {A}. Global Arguments CAssign {A}. Global Arguments CMoveAssign {A}. Global Arguments CSwap {A}.
Global Arguments CEnd {A}. Global Arguments CClear {A}. Global Arguments CPush {A}. Global Arguments CPop {A}.
Global Arguments CResize {A}. Global Arguments CInsert {A}. Global Arguments CErase {A}. Global Arguments CEraseRange {A}.
Global Arguments CSize {A}. Global Arguments CEmpty {A}. Global Arguments CFront {A}. Global Arguments CBack {A}.
Global Arguments CItems {A}. Global Arguments CPrint {A}.

(** What the program sees.  An iterator is its distance from [begin()]; of a
    printed text, what follows the name of the type ([None] separates). *)
Inductive cout (A : Type) :=
| UNone | UNum (n : N) | UBool (b : bool) | UOpt (o : option A) | USeq (xs : list A) | UPos (p : nat)
| UText (ts : list (option A)).
Global Arguments UNone {A}. Global Arguments UNum {A}. Global Arguments UBool {A}. Global Arguments UOpt {A}.
Global Arguments USeq {A}. Global Arguments UPos {A}. Global Arguments UText {A}.

Section Spec.
  Context {A : Type}.
  Notation cstate := (gmap nat (option (list A))).
  Definition made (s : cstate) (i : nat) (xs : list A) : option (cstate * cout A) :=
    match s !! i with Some _ => None | None => Some (<[i := Some xs]> s, UNone) end.
  Definition having (s : cstate) (i : nat) (k : option (list A) -> option (cstate * cout A)) : option (cstate * cout A) :=
    match s !! i with Some o => k o | None => None end.
  Definition with_ (s : cstate) (i : nat) (k : list A -> option (cstate * cout A)) : option (cstate * cout A) :=
    match s !! i with Some (Some xs) => k xs | _ => None end.
  Definition now (s : cstate) (i : nat) (xs : list A) (o : cout A) : option (cstate * cout A) := Some (<[i := Some xs]> s, o).
  Fixpoint separated (xs : list A) : list (option A) :=
    match xs with [] => [] | [x] => [Some x] | x :: r => Some x :: None :: separated r end.

  Definition cspec (s : cstate) (o : cop A) : option (cstate * cout A) :=
    match o with
    | CNew i => made s i []
    | COf i xs => made s i xs
    | CFill i n x => made s i (replicate n x)
    | CCopy i j => having s j (fun o => made s i (default [] o))
    | CMove i j => having s j (fun o =>
        match s !! i with Some _ => None | None => Some (<[i := o]> (<[j := None]> s), UNone) end)
    | CAssign i j => having s i (fun _ => having s j (fun o =>
        if (i =? j)%nat then Some (s, UNone) else now s i (default [] o) UNone))
    | CMoveAssign i j => having s i (fun _ => having s j (fun o =>
        if (i =? j)%nat then Some (s, UNone) else Some (<[i := o]> (<[j := None]> s), UNone)))
    | CSwap i j => having s i (fun o => having s j (fun o' => Some (<[i := o']> (<[j := o]> s), UNone)))
    | CEnd i => having s i (fun _ => Some (delete i s, UNone))
    | CClear i => with_ s i (fun _ => now s i [] UNone)
    | CPush i x => with_ s i (fun xs => now s i (xs ++ [x]) UNone)
    | CPop i => with_ s i (fun xs => match xs with [] => None | _ => now s i (removelast xs) UNone end)
    | CResize i n x => with_ s i (fun xs => now s i (take n xs ++ replicate (n - length xs) x) UNone)
    | CInsert i p ys => with_ s i (fun xs =>
        if (p <=? length xs)%nat then now s i (take p xs ++ ys ++ drop p xs) (UPos p) else None)
    | CErase i p => with_ s i (fun xs =>
        if (p <? length xs)%nat then now s i (take p xs ++ drop (p + 1) xs) (UPos p) else None)
    | CEraseRange i p q => with_ s i (fun xs =>
        if ((p <=? q) && (q <=? length xs))%nat then now s i (take p xs ++ drop q xs) (UPos p) else None)
    | CSize i => having s i (fun o => Some (s, UNum (N.of_nat (length (default [] o)))))
    | CEmpty i => having s i (fun o => Some (s, UBool (match default [] o with [] => true | _ => false end)))
    | CFront i => having s i (fun o => Some (s, UOpt (head (default [] o))))
    | CBack i => having s i (fun o => Some (s, UOpt (last (default [] o))))
    | CItems i => with_ s i (fun xs => Some (s, USeq xs))
    | CPrint i => with_ s i (fun xs => Some (s, UText (separated xs)))
    end.
  Fixpoint crun (s : cstate) (ops : list (cop A)) : option (cstate * list (cout A)) :=
    match ops with
    | [] => Some (s, [])
    | o :: r =>
        match cspec s o with
        | None => None
        | Some (s1, x) => match crun s1 r with None => None | Some (s2, xs) => Some (s2, x :: xs) end
        end
    end.

  (** What keeps away from C02 and C03, and the size limit. *)
  Definition cpos (s : cstate) (o : cop A) : bool :=
    match o with
    | CInsert i p ys =>
        match s !! i with
        | Some (Some xs) => (1 <=? length xs)%nat && (1 <=? p)%nat && ((1 <=? length ys)%nat || (p =? length xs)%nat)
        | _ => false
        end
    | CEraseRange i p q => match s !! i with Some (Some xs) => (p <? q)%nat || (q =? length xs)%nat | _ => false end
    | _ => true
    end.
  Definition small (lmax : N) (s : cstate) : Prop := forall i xs, s !! i = Some (Some xs) -> N.of_nat (length xs) <= lmax.
  Fixpoint cfine (lmax : N) (s : cstate) (ops : list (cop A)) : Prop :=
    match ops with
    | [] => True
    | o :: r => match cspec s o with None => False | Some (s1, _) => cpos s o = true /\ small lmax s1 /\ cfine lmax s1 r end
    end.

  (** The operations of the two models; vector.h and linked_list.h have the
      same names for them.  Position 0 of the list model is [before_begin()]. *)
  Definition vec_of (o : cop A) : vop A :=
    match o with
    | CNew i => VNew i | COf i xs => VNewList i 0 xs | CFill i n x => VNewFill i 0 (N.of_nat n) x
    | CCopy i j => VNewCopy i j | CMove i j => VNewMove i j | CAssign i j => VCopyAsg i j | CMoveAssign i j => VMoveAsg i j
    | CSwap i j => VSwap i j | CEnd i => VDestroy i | CClear i => VClear i | CPush i x => VPush i x | CPop i => VPop i
    | CResize i n x => VResizeVal i (N.of_nat n) x
    | CInsert i p ys => VInsertRange i (N.of_nat p) ys
    | CErase i p => VErase i (N.of_nat p) | CEraseRange i p q => VEraseRange i (N.of_nat p) (N.of_nat q)
    | CSize i => VSize i | CEmpty i => VEmpty i | CFront i => VFront i | CBack i => VBack i
    | CItems i => VIterAll i | CPrint i => VPrint i
    end.
  Definition list_of (o : cop A) : lop A :=
    match o with
    | CNew i => LNew i 0 | COf i xs => LRange i 0 xs | CFill i n x => LCount i 0 (N.of_nat n) x
    | CCopy i j => LCopy i j | CMove i j => LMove i j | CAssign i j => LCopyAsg i j | CMoveAssign i j => LMoveAsg i j
    | CSwap i j => LSwap i j | CEnd i => LDel i | CClear i => LClear i | CPush i x => LPushB i x | CPop i => LPopB i
    | CResize i n x => LResize i (N.of_nat n) x
    | CInsert i p ys => LIns i (p + 1) ys
    | CErase i p => LEra i (p + 1) | CEraseRange i p q => LEraR i (p + 1) (q + 1)
    | CSize i => LSize i | CEmpty i => LEmptyQ i | CFront i => LFront i | CBack i => LBack i
    | CItems i => LItems i | CPrint i => LPrint i
    end.
  Definition piece_v (t : nat + A) : list (option A) :=
    match t with inr x => [Some x] | inl 1%nat => [None] | _ => [] end.
  Definition piece_l (t : ptok A) : list (option A) :=
    match t with PElem x => [Some x] | PSep => [None] | _ => [] end.
  Definition seen_v (o : vout A) : option (cout A) :=
    match o with
    | VecModel.ONone => Some UNone | VecModel.ONum n => Some (UNum n) | VecModel.OBool b => Some (UBool b)
    | VecModel.OOpt o => Some (UOpt o) | VecModel.OSeq xs => Some (USeq xs)
    | VecModel.OIdx (Some p) => Some (UPos (N.to_nat p)) | VecModel.OToks ts => Some (UText (flat_map piece_v ts))
    | _ => None
    end.
  Definition seen_l (o : lout A) : option (cout A) :=
    match o with
    | OUnit => Some UNone | ONum n => Some (UNum n) | OBool b => Some (UBool b)
    | OOpt o => Some (UOpt o) | OList xs => Some (USeq xs)
    | OPos k => Some (UPos (k - 1)) | OToks ts => Some (UText (flat_map piece_l ts))
    | _ => None
    end.
End Spec.

Section Proofs.
  Context {A : Type} (dflt : A) (eqb : A -> A -> bool) (cmp : A -> A -> comparison).
  Notation cstate := (gmap nat (option (list A))).
  Definition vs (s : cstate) : gmap nat (list A) := default [] <$> s.
  Definition ls (s : cstate) : gmap nat (N * option (list A)) := (fun o => (0, o)) <$> s.

  Lemma vs_look s i : vs s !! i = default [] <$> s !! i.
  Proof. apply lookup_fmap. Qed.
  Lemma ls_look s i : ls s !! i = (fun o => (0, o)) <$> s !! i.
  Proof. apply lookup_fmap. Qed.
  Lemma vs_ins s i o : vs (<[i := o]> s) = <[i := default [] o]> (vs s).
  Proof. apply fmap_insert. Qed.
  Lemma ls_ins s i o : ls (<[i := o]> s) = <[i := (0, o)]> (ls s).
  Proof. apply fmap_insert. Qed.
  Lemma vs_del s i : vs (delete i s) = delete i (vs s).
  Proof. apply fmap_delete. Qed.
  Lemma ls_del s i : ls (delete i s) = delete i (ls s).
  Proof. apply fmap_delete. Qed.

  Lemma text_v (xs : list A) : flat_map piece_v (seq_print xs) = separated xs.
  Proof.
    unfold seq_print. cbn [flat_map piece_v app]. rewrite flat_map_app. cbn [flat_map piece_v app]. rewrite app_nil_r.
    induction xs as [|x [|y r] IH]; [done|done|]. cbn [seq_items flat_map piece_v app separated]. f_equal. f_equal. exact IH.
  Qed.
  Lemma text_l dbl (xs : list A) : flat_map piece_l ([POpen dbl] ++ shown xs ++ [PClose]) = separated xs.
  Proof.
    cbn [app flat_map piece_l]. rewrite flat_map_app. cbn [flat_map piece_l app]. rewrite app_nil_r.
    destruct xs as [|x r]; [done|]. revert x. induction r as [|y r IH]; intros x; [done|].
    cbn [shown flat_map piece_l app separated]. f_equal. f_equal. exact (IH y).
  Qed.
  Lemma removelast_take (x : A) xs : removelast (x :: xs) = take (length (x :: xs) - 1) (x :: xs).
  Proof. revert x. induction xs as [|y xs IH]; intros x; [done|].
    change (removelast (x :: y :: xs)) with (x :: removelast (y :: xs)). rewrite IH. cbn. by rewrite Nat.sub_0_r. Qed.

  Local Ltac looks := unfold made, having, with_, now in *; repeat match goal with
    | H : context [match ?s !! ?i with _ => _ end] |- _ =>
        let E := fresh "E" in destruct (s !! i) as [[?|]|] eqn:E; cbv beta iota in H; try discriminate H
    | H : (if ?b then _ else _) = Some _ |- _ => let E := fresh "B" in destruct b eqn:E; try discriminate H
    end.
  Local Ltac seev := unfold create, modify, observe, on_var, ntake, ndrop, nrep, nlen in *; rewrite ?vs_look;
    repeat match goal with E : _ !! _ = _ |- _ => rewrite E end; cbn [fmap option_fmap option_map default from_option id].
  Lemma step_v s o s' x : cspec s o = Some (s', x) -> cpos s o = true ->
    exists y, vspec_step dflt eqb cmp (vs s) (vec_of o) = Some (vs s', y) /\ seen_v y = Some x /\ vop_safe (vs s) (vec_of o).
  Proof.
    intros H Hp. destruct o; cbn [cspec cpos] in H, Hp; cbn [vec_of vspec_step vop_safe]; looks; seev; try done.
    all: try (injection H as <- <-; rewrite ?vs_ins, ?vs_del; eexists; split_and!; by (try done)).
    (* self-assignment *)
    all: try match goal with B : (_ =? _)%nat = true |- _ => apply Nat.eqb_eq in B as ->; injection H as <- <-;
      eexists; split_and!; [rewrite insert_id; [reflexivity|rewrite vs_look; by simplify_option_eq]|done|done] end.
    - injection H as <- <-. rewrite vs_ins, Nat2N.id. eexists; by split_and!.
    - rewrite <-removelast_take. injection H as <- <-. rewrite vs_ins. eexists; by split_and!.
    - injection H as <- <-. rewrite vs_ins, Nat2N.id. exists VecModel.ONone. split_and!; [|done|done]. cbn.
      by replace (N.to_nat (N.of_nat n - N.of_nat (length l))) with (n - length l)%nat by lia.
    - injection H as <- <-. rewrite vs_ins, Nat2N.id. replace (N.of_nat p <=? N.of_nat (length l)) with true by lia.
      eexists; split_and!; [done|cbn; by rewrite Nat2N.id|]. unfold ins_safe, nlen.
      split_and!; [|lia|lia]. intros ->. cbn in Hp. lia.
    - injection H as <- <-. rewrite vs_ins, Nat2N.id. replace (N.of_nat p <? N.of_nat (length l)) with true by lia.
      replace (N.to_nat (N.of_nat p + 1)) with (p + 1)%nat by lia. eexists; split_and!; [done|cbn; by rewrite Nat2N.id|done].
    - injection H as <- <-. rewrite vs_ins, !Nat2N.id. replace ((N.of_nat p <=? N.of_nat q) && (N.of_nat q <=? N.of_nat (length l))) with true by lia.
      eexists; split_and!; [done|cbn; by rewrite Nat2N.id|lia].
    - injection H as <- <-. eexists; split_and!; [done| |done]. cbn. by destruct l.
    - injection H as <- <-. eexists; split_and!; [done| |done]. cbn [seen_v]. by rewrite text_v.
  Qed.

  Local Ltac seel := unfold fresh, look, live, give, need in *; rewrite ?ls_look;
    repeat match goal with E : _ !! _ = _ |- _ => rewrite E end; cbn [fmap option_fmap option_map default from_option id].
  Lemma step_l s o s' x : cspec s o = Some (s', x) -> small (W - 1) s -> small (W - 1) s' ->
    exists y, gspec true (ls s) (list_of o) = SOk (ls s') y /\ seen_l y = Some x.
  Proof.
    intros H Hs Hs'. unfold gspec. destruct o; cbn [cspec] in H; cbn [list_of safe lspec]; looks; seel; try done.
    all: try (injection H as <- <-; rewrite ?ls_ins, ?ls_del; eexists; split_and!; by (try done)).
    all: assert (HW : 1 <= W) by done.
    all: repeat match goal with
      | |- context [(?p + 1 - 1)%nat] => replace (p + 1 - 1)%nat with p by lia
      | |- context [N.to_nat (N.of_nat ?n)] => rewrite Nat2N.id
      end.
    all: try rewrite <-removelast_take; cbn [negb isnil].
    all: try match goal with
      | |- context [if (?a && ?b && ?c) then _ else SPre] => replace (a && b && c) with true by lia
      | |- context [if (?a && ?b) then _ else SPre] => replace (a && b) with true by lia
      end.
    all: try match goal with
      | |- context [N.of_nat (length ?xs) <? W] =>
          match type of H with Some (<[?i := Some ?ys]> _, _) = _ =>
            change xs with ys;
            assert (Hl : N.of_nat (length ys) <= W - 1)
              by (apply (Hs' i); injection H as <- <-; apply lookup_insert)
          end
      end.
    all: try (injection H as <- <-; rewrite ls_ins; replace (_ <? W) with true by lia; eexists; split; [reflexivity|cbn; by rewrite ?Nat.add_sub]).
    - injection H as <- <-. rewrite replicate_length in *. rewrite ls_ins. replace (N.of_nat n <? W) with true by lia. by eexists.
    - injection H as <- <-. rewrite ls_ins.
      assert (N.of_nat n <= W - 1) by (rewrite app_length, take_length, replicate_length in Hl; lia).
      replace (N.of_nat n <? W) with true by lia. replace (_ <? W) with true by lia. by eexists.
    - injection H as <- <-. eexists; split; [done|]. cbn [seen_l]. by rewrite text_l.
  Qed.

  Section Run.
  Context (sz lmax : N) (Hsz : 1 <= sz) (Hlim : sz * (2 * lmax + 2) <= alloc_max).
  Lemma vec_hist s ops s' outs : small lmax s -> crun s ops = Some (s', outs) -> cfine lmax s ops ->
    exists vouts, spec_run (vspec_step dflt eqb cmp) (vs s) (vec_of <$> ops) = Some (vs s', vouts) /\
      along (vspec_step dflt eqb cmp) (hist_ok lmax) (vs s) (vec_of <$> ops) /\ seen_v <$> vouts = Some <$> outs.
  Proof using.
    clear Hsz Hlim. revert s outs. induction ops as [|o ops IH]; intros s outs Hs E F.
    { injection E as <- <-. by exists []. }
    cbn [crun cfine] in E, F. destruct (cspec s o) as [[s1 x]|] eqn:Es; [|done]. destruct F as (Fp & Fs & F).
    destruct (crun s1 ops) as [[s2 xs]|] eqn:Er; [|done]. injection E as <- <-.
    destruct (step_v _ _ _ _ Es Fp) as (y & E1 & Hy & Hsafe). destruct (IH s1 xs Fs Er F) as (ys & E2 & Ha & Hys).
    exists (y :: ys). rewrite fmap_cons. cbn [spec_run along]. rewrite E1, E2. split; [done|]. split; [|by rewrite !fmap_cons, Hy, Hys].
    split; [|done]. split; [done|]. split; [|by destruct o].
    intros i zs. rewrite vs_look. destruct (s1 !! i) as [[ws|]|] eqn:Ei; cbn; intros [= <-]; [by apply (Fs i)|cbn; lia].
  Qed.
  Lemma list_hist s ops s' outs : lmax < W -> small lmax s -> crun s ops = Some (s', outs) -> cfine lmax s ops ->
    exists louts, srun (gspec true) (ls s) (list_of <$> ops) = SOk (ls s') louts /\ seen_l <$> louts = Some <$> outs.
  Proof using dflt eqb cmp.
    clear Hsz Hlim. intros HW. revert s outs. induction ops as [|o ops IH]; intros s outs Hs E F.
    { injection E as <- <-. by exists []. }
    cbn [crun cfine] in E, F. destruct (cspec s o) as [[s1 x]|] eqn:Es; [|done]. destruct F as (Fp & Fs & F).
    destruct (crun s1 ops) as [[s2 xs]|] eqn:Er; [|done]. injection E as <- <-.
    assert (HWs : forall s : cstate, small lmax s -> small (W - 1) s) by (intros t Ht i zs Hi; specialize (Ht i zs Hi); lia).
    destruct (step_l _ _ _ _ Es (HWs _ Hs) (HWs _ Fs)) as (y & E1 & Hy). destruct (IH s1 xs Fs Er F) as (ys & E2 & Hys).
    exists (y :: ys). rewrite fmap_cons. cbn [srun]. rewrite E1, E2. split; [done|]. by rewrite !fmap_cons, Hy, Hys.
  Qed.

  (** A program that is right on sequences gives the same results with both. *)
  Theorem C90_vector_or_list_partial ops s outs : crun ∅ ops = Some (s, outs) -> cfine lmax ∅ ops ->
    exists vouts w louts w',
      vec_run sz dflt eqb cmp (vec_of <$> ops) = Ok (vouts, w) /\ seen_v <$> vouts = Some <$> outs /\
      run_ops (list_step true) (list_of <$> ops) winit = Ok (louts, w') /\ seen_l <$> louts = Some <$> outs.
  Proof using Hsz Hlim.
    intros E F. assert (H0 : small lmax (∅ : cstate)) by (intros i xs Hi; by rewrite lookup_empty in Hi).
    assert (HW : lmax < W).
    { assert (alloc_max < W) by done. assert (1 * (2 * lmax + 2) <= sz * (2 * lmax + 2)) by (apply N.mul_le_mono_r; lia). lia. }
    destruct (vec_hist _ _ _ _ H0 E F) as (vouts & E1 & Ha & Hv). destruct (list_hist _ _ _ _ HW H0 E F) as (louts & E2 & Hl).
    assert (Ev : vs ∅ = ∅) by apply fmap_empty. assert (El : ls ∅ = ∅) by apply fmap_empty. rewrite Ev in E1, Ha. rewrite El in E2.
    destruct (vec_history sz lmax dflt eqb cmp Hsz Hlim _ _ _ E1 Ha) as (w & R1 & _).
    destruct (reach true (list_of <$> ops) (ls s) louts) as (w' & R2 & _); [|done|].
    { apply Forall_fmap, Forall_true. by intros []. }
    by exists vouts, w, louts, w'.
  Qed.
  End Run.
End Proofs.

(** ** List and ForwardList *)
(** A list's name is the only difference between the two in what is printed. *)
Definition renamed {T} (o : lout T) : lout T :=
  match o with OToks (POpen _ :: ts) => OToks (POpen true :: ts) | _ => o end.
Section Lists.
  Context {T : Type}.
  Notation lstate := (gmap nat (N * option (list T))).
  (** The [const] [front_unchecked] of a List is defective (C26). *)
  Definition not_const_front (o : lop T) : bool := match o with LFrontUC _ => false | _ => true end.
  Lemma step_lists (sp sp' : lstate) o x : not_const_front o = true ->
    gspec false sp o = SOk sp' x -> gspec true sp o = SOk sp' (renamed x).
  Proof.
    intros Hn. unfold gspec.
    replace (safe true sp o) with (safe false sp o) by (by destruct o). destruct (safe false sp o); [|done].
    destruct o; cbn [lspec]; try done; unfold fresh, look, live, need, take_over, give; cbn [orb];
      repeat case_match; try done; intros [= <- <-]; try done.
  Qed.
  (** Every program that is right with ForwardList does the same with List. *)
  Theorem C90_forward_to_list_partial ops (sp : lstate) outs : Forall ordered ops -> forallb not_const_front ops = true ->
    srun (gspec false) ∅ ops = SOk sp outs ->
    exists w w', run_ops (list_step false) ops winit = Ok (outs, w) /\
      run_ops (list_step true) ops winit = Ok (renamed <$> outs, w').
  Proof.
    intros Ho Hf E. destruct (reach false ops sp outs Ho E) as (w & R & _).
    assert (E' : srun (gspec true) ∅ ops = SOk sp (renamed <$> outs)).
    { clear Ho R. revert outs E. generalize (∅ : lstate). induction ops as [|o ops IH]; intros s outs E; [by injection E as <- <-|].
      cbn [forallb] in Hf. apply andb_prop in Hf as [Hn Hf]. cbn [srun] in *.
      destruct (gspec false s o) as [s1 x| |] eqn:E1; try done. rewrite (step_lists _ _ _ _ Hn E1).
      destruct (srun (gspec false) s1 ops) as [s2 xs| |] eqn:E2; try done. injection E as <- <-. by rewrite (IH Hf _ _ E2). }
    destruct (reach true ops sp _ Ho E') as (w' & R' & _). by exists w, w'.
  Qed.
End Lists.

(** ** What is not interchangeable *)
Fixpoint cfits {A} (lmax : N) (s : gmap nat (option (list A))) (ops : list (cop A)) : Prop :=
  match ops with
  | [] => True
  | o :: r => match cspec s o with None => False | Some (s1, _) => small lmax s1 /\ cfits lmax s1 r end
  end.
Definition C90_full : Prop := forall ops s outs, crun (A := N) ∅ ops = Some (s, outs) -> cfits 1000 ∅ ops ->
  exists vouts w louts w',
    vec_run 8 0 N.eqb N.compare (vec_of <$> ops) = Ok (vouts, w) /\ seen_v <$> vouts = Some <$> outs /\
    run_ops (list_step true) (list_of <$> ops) winit = Ok (louts, w') /\ seen_l <$> louts = Some <$> outs.
Definition ex_front : list (cop N) := [COf 0 [1]; CInsert 0 0 [2]; CItems 0].
Lemma small_one (s : gmap nat (option (list N))) i o : small 1000 s -> match o with Some xs => N.of_nat (length xs) <= 1000 | None => True end ->
  small 1000 (<[i := o]> s).
Proof. intros Hs Ho j ys. rewrite lookup_insert_Some. intros [[-> ->]|[_ Hj]]; [done|by apply (Hs j)]. Qed.
Lemma small_empty : small (A := N) 1000 ∅.
Proof. intros i xs Hi. by rewrite lookup_empty in Hi. Qed.
(** Inserting at the front works for a list, and is undefined for a vector (C02). *)
Theorem C90_front_breaks : (exists w, run_ops (list_step true) (list_of <$> ex_front) winit = Ok ([OUnit; OPos 1; OList [2; 1]], w)) /\
  vec_run 8 0 N.eqb N.compare (vec_of <$> ex_front) = Err UB.
Proof. split; [eexists; vm_compute; reflexivity|vm_compute; reflexivity]. Qed.
Theorem C90_refuted : ~ C90_full.
Proof.
  intros H. destruct (H ex_front (<[0%nat := Some [2; 1]]> (<[0%nat := Some [1]]> ∅)) [UNone; UPos 0; USeq [2; 1]]) as (vouts & w & _ & _ & E & _).
  - reflexivity.
  - cbn. split; [|split; [|split; [|done]]].
    + apply small_one; [apply small_empty|done].
    + apply small_one; [apply small_one; [apply small_empty|done]|done].
    + apply small_one; [apply small_one; [apply small_empty|done]|done].
  - destruct C90_front_breaks as [_ E2]. by rewrite E2 in E.
Qed.
(** A vector that has been moved from is empty and can be filled again; with a list this is undefined (C76). *)
Definition ex_moved : list (cop N) := [COf 0 [1; 2]; CMove 1 0; CPush 0 3; CItems 0; CItems 1].
Theorem C90_moved_breaks : (exists w, vec_run 8 0 N.eqb N.compare (vec_of <$> ex_moved) =
    Ok ([VecModel.ONone; VecModel.ONone; VecModel.ONone; VecModel.OSeq [3]; VecModel.OSeq [1; 2]], w)) /\
  run_ops (list_step true) (list_of <$> ex_moved) winit = Err UB.
Proof. split; [eexists; vm_compute; reflexivity|vm_compute; reflexivity]. Qed.

(** ** Examples *)
Definition ex_prog : list (cop N) :=
  [COf 0 [5; 6; 7]; CCopy 1 0; CPush 1 8; CInsert 1 2 [9; 9]; CErase 1 0; CItems 1; CMove 2 1; CSize 1; CEraseRange 2 1 3;
   CSwap 0 2; CResize 0 5 4; CAssign 1 0; CPop 1; CPrint 1; CBack 0; CFront 2; CClear 2; CEmpty 2; CMoveAssign 0 1; CEnd 1].
Example C90_ex : match crun ∅ ex_prog with
  | Some (s, outs) => outs = [UNone; UNone; UNone; UPos 2; UPos 0; USeq [6; 9; 9; 7; 8]; UNone; UNum 0; UPos 1; UNone; UNone; UNone; UNone;
      UText [Some 6; None; Some 7; None; Some 8; None; Some 4]; UOpt (Some 4); UOpt (Some 5); UNone; UBool true; UNone; UNone]
  | None => False
  end.
Proof. vm_compute. reflexivity. Qed.
(** The guard holds for it. *)
Fixpoint cfineb (lmax : N) (s : gmap nat (option (list N))) (ops : list (cop N)) : bool :=
  match ops with
  | [] => true
  | o :: r => match cspec s o with
              | None => false
              | Some (s1, _) => cpos s o && forallb (fun p => match snd p with Some xs => N.of_nat (length xs) <=? lmax | None => true end) (map_to_list s1) && cfineb lmax s1 r
              end
  end.
Lemma cfineb_ok lmax s ops : cfineb lmax s ops = true -> cfine lmax s ops.
Proof.
  revert s. induction ops as [|o ops IH]; intros s; [done|]. cbn [cfineb cfine]. destruct (cspec s o) as [[s1 x]|]; [|done].
  intros H. apply andb_prop in H as [H H3]. apply andb_prop in H as [H1 H2]. split; [done|]. split; [|by apply IH].
  intros i xs Hi. rewrite forallb_forall in H2. specialize (H2 (i, Some xs)). apply N.leb_le, H2.
  apply elem_of_list_In, elem_of_map_to_list. done.
Qed.
Example C90_ex_fine : cfine 1000 ∅ ex_prog.
Proof. apply cfineb_ok. vm_compute. reflexivity. Qed.
Definition ex_lists : list (lop N) :=
  [LRange 0 0 [3; 1; 2]; LPushF 0 7; LInsA 0 2 [8; 8]; LSrt 0 N.ltb; LUniq 0 N.eqb; LCopy 1 0; LRev 1; LItems 1; LPrint 0; LEraA 0 1; LFront 0].
Example C90_ex_lists : match srun (gspec false) ∅ ex_lists with
  | SOk _ outs => List.last outs OUnit = OOpt (Some 1) /\ forallb not_const_front ex_lists = true
  | _ => False
  end.
Proof. vm_compute. done. Qed.

Print Assumptions C90_vector_or_list_partial.
Print Assumptions C90_forward_to_list_partial.
Print Assumptions C90_front_breaks.
Print Assumptions C90_moved_breaks.
Print Assumptions C90_refuted.
