(** * OptThrow: Option when an operation of the payload throws

    include/mstl/option/option.h.  OptModel takes payload operations to be
    total.  Here constructing a payload
    (from arguments, by copying, by moving), assigning one, and the lambda of
    [map] may throw; destructors may not.  In each operation the first [k] of
    them succeed and the next one throws.  A throwing construction constructs
    nothing, a throwing assignment leaves its target; a throwing *move* leaves
    its source untouched or moved-from ([wrecks]).  An exception that reaches a
    [noexcept] function ends the program ([std::terminate]); that is
    [Err Panic]. *)
From Verif Require Import Base Machine OptModel OptProps.

(** ** Functions that may throw, over any state *)
Section TM.
  Context {St : Type}.
  Definition TM (X : Type) : Type := St * nat -> outcome (option X * (St * nat)).
  Definition tret {X} (x : X) : TM X := fun s => Ok (Some x, s).
  Definition tbind {X Y} (m : TM X) (k : X -> TM Y) : TM Y := fun s =>
    match m s with
    | Ok (Some x, s') => k x s'
    | Ok (None, s') => Ok (None, s')
    | Err e => Err e
    end.
  (** A step that cannot throw. *)
  Definition calm {X} (m : M St X) : TM X := fun '(s, k) =>
    match m s with Ok (x, s') => Ok (Some x, (s', k)) | Err e => Err e end.
  (** A payload operation: [m] if it succeeds, [bad] if it throws. *)
  Definition elem {X} (bad : M St unit) (m : M St X) : TM X := fun '(s, k) =>
    match k with
    | O => match bad s with Ok (_, s') => Ok (None, (s', O)) | Err e => Err e end
    | S k => match m s with Ok (x, s') => Ok (Some x, (s', k)) | Err e => Err e end
    end.
  (** What is done on the way out when an exception leaves [m]. *)
  Definition unwinding {X} (m : TM X) (c : M St unit) : TM X := fun s =>
    match m s with
    | Ok (None, (s', k)) => match c s' with Ok (_, s2) => Ok (None, (s2, k)) | Err e => Err e end
    | r => r
    end.
  Definition noexcept {X} (m : TM X) : TM X := fun s =>
    match m s with Ok (None, _) => Err Panic | r => r end.
  (** One operation in which [k] payload operations succeed. *)
  Definition with_k {X} (k : nat) (m : TM X) : M St (option X) := fun s =>
    match m (s, k) with Ok (r, (s', _)) => Ok (r, s') | Err e => Err e end.
End TM.
Global Arguments TM : clear implicits.
Notation "x <~ m ;; k" := (tbind m (fun x => k)) (at level 100, m at next level, right associativity).
Notation "m ~;; k" := (tbind m (fun _ => k)) (at level 100, right associativity).

Section OptModel.
  Context {V : Type} (triv wrecks : bool).
  Notation st := (ost V).
  Notation TM := (TM st).
  Definition nothing : M st unit := ret tt.
  (** A move out of [value] that throws. *)
  Definition wreck (i : nat) : M st unit :=
    if wrecks then _ <-- omove_out triv i ;; ret tt else ret tt.

  (** option.h:24-27, 181-182: the constructor throws, so the variable never
      exists. *)
  Definition t_some (i : nat) (p : pay V) : TM unit :=
    calm (onew i) ~;; unwinding (elem nothing (construct_val i p)) (odel i) ~;; calm (set_hold i true).
  (** option.h:19-23: the temporary, then the move into the Option. *)
  Definition t_emplace (i : nat) (p : pay V) : TM unit :=
    elem nothing octick ~;; unwinding (t_some i p) odtick ~;; calm odtick.
  (** option.h:34-48: [T res = std::move(value)] comes before [reset]. *)
  Definition t_unwrap_unchecked (i : nat) : TM (pay V) :=
    p <~ elem (wreck i) (p <-- omove_out triv i ;; octick ;;; ret p) ;;
    calm (reset i ;;; odtick) ~;; tret p.
  Definition t_unwrap (i : nat) : TM (pay V) :=
    b <~ calm (o_is_some i) ;;
    if b : bool then t_unwrap_unchecked i else calm (fail Panic).
  (** option.h:50-57 [as_ref() = p] in the client. *)
  Definition t_as_ref_set (i : nat) (p : pay V) : TM unit :=
    b <~ calm (o_is_some i) ;;
    if b : bool then elem nothing (owrite i p) else calm (fail Panic).
  (** option.h:78-89: the parameter (by value), the lambda's result, the move
      into the new Option. *)
  Definition t_map (byval : bool) (f : V -> V) (i j : nat) : TM unit :=
    b <~ calm (o_is_some i) ;;
    if b : bool then
      x <~ (if byval then elem (wreck i) (p <-- omove_out triv i ;; octick ;;; ret p)
            else calm (oread i)) ;;
      unwinding (elem nothing octick) (if byval then odtick else ret tt) ~;;
      calm (if byval then odtick else ret tt) ~;;
      unwinding (t_some j (pmap f x)) odtick ~;; calm odtick
    else calm (o_none j).
  (** option.h:94-104, 109-131: [noexcept]. *)
  Definition t_move_ctor (i j : nat) : TM unit := noexcept (
    calm (onew i) ~;;
    o <~ calm (oget j) ;;
    calm (set_hold i (ohold o)) ~;;
    if ohold o then
      p <~ elem (wreck j) (p <-- omove_out triv j ;; construct_val i p ;;; ret p) ;; calm (reset j)
    else calm (construct_non i)).
  Definition t_move_assign (i j : nat) : TM unit := noexcept (
    if (i =? j)%nat then calm (_ <-- oget i ;; ret tt) else
    a <~ calm (oget i) ;; b <~ calm (oget j) ;;
    if eqb (ohold a) (ohold b) then
      if ohold a then elem (wreck j) (p <-- omove_out triv j ;; owrite i p) else tret tt
    else
      calm (set_hold i (ohold b)) ~;;
      if ohold b then
        calm (destroy_non i) ~;;
        elem (wreck j) (p <-- omove_out triv j ;; construct_val i p) ~;;
        calm (reset j)
      else
        calm (destroy_val i ;;; construct_non i)).
  (** option.h:136-145. *)
  Definition t_copy_ctor (i j : nat) : TM unit :=
    calm (onew i) ~;;
    o <~ calm (oget j) ;;
    calm (set_hold i (ohold o)) ~;;
    if ohold o then unwinding (elem nothing (p <-- oread j ;; construct_val i p)) (odel i)
    else calm (construct_non i).
  (** option.h:150-170: [hold_value] is assigned before the value is
      constructed. *)
  Definition t_copy_assign (i j : nat) : TM unit :=
    if (i =? j)%nat then calm (_ <-- oget i ;; ret tt) else
    a <~ calm (oget i) ;; b <~ calm (oget j) ;;
    if eqb (ohold a) (ohold b) then
      if ohold a then elem nothing (p <-- oread j ;; owrite i p) else tret tt
    else
      calm (set_hold i (ohold b)) ~;;
      if ohold b then
        calm (destroy_non i) ~;; elem nothing (p <-- oread j ;; construct_val i p)
      else
        calm (destroy_val i ;;; construct_non i).

  Definition t_out {X} (f : X -> oout V) (m : TM X) : TM (oout V) := x <~ m ;; tret (f x).
  (** One operation and the number of payload operations that succeed. *)
  Definition opt_tstep (ok : oop V * nat) : M st (option (oout V)) :=
    with_k (snd ok)
      match fst ok with
      | OSome i v => t_out (fun _ => OutU) (t_some i (PVal v))
      | OEmplace i v => t_out (fun _ => OutU) (t_emplace i (PVal v))
      | OUnwrap i => t_out OutP (t_unwrap i)
      | OUnwrapU i => t_out OutP (t_unwrap_unchecked i)
      | OAsRefSet i v => t_out (fun _ => OutU) (t_as_ref_set i (PVal v))
      | OMap b f i j => t_out (fun _ => OutU) (t_map b f i j)
      | OMoveCtor i j => t_out (fun _ => OutU) (t_move_ctor i j)
      | OMoveAssign i j => t_out (fun _ => OutU) (t_move_assign i j)
      | OCopyCtor i j => t_out (fun _ => OutU) (t_copy_ctor i j)
      | OCopyAssign i j => t_out (fun _ => OutU) (t_copy_assign i j)
      | o => calm (opt_step triv o)
      end.
End OptModel.

(** ** Specification *)
Section Spec.
  Context {V : Type} (triv wrecks : bool).
  Notation sp := (gmap nat (option (pay V))).

  (** How many payload operations the call needs: one for each value made,
      moved or assigned, and one for calling a lambda. *)
  Definition needs (s : sp) (o : oop V) : nat :=
    let holds i := match s !! i with Some (Some _) => 1%nat | _ => 0%nat end in
    match o with
    | OSome _ _ => 1
    | OEmplace _ _ => 2
    | OUnwrap i | OUnwrapU i | OAsRefSet i _ => holds i
    | OMap b _ i _ => (if b then 3 else 2) * holds i
    | OCopyCtor _ j | OMoveCtor _ j => holds j
    | OCopyAssign i j | OMoveAssign i j => if (i =? j)%nat then 0 else holds j
    | _ => 0
    end.
  (** A value somebody began to move away. *)
  Definition taken (s : sp) (i : nat) : sp := alter (fmap (left_behind triv)) i s.
  (** After an exception in the payload operation number [k]: everything is as
      before, but for a value that was being moved out.  Moves of Options do
      not let exceptions out.  Copying a value into an empty Option is left
      open ([full = false]) or treated like the rest ([full = true]). *)
  Definition opt_threw (full : bool) (s : sp) (o : oop V) (k : nat) : sres sp (option (oout V)) :=
    match o with
    | OMoveCtor _ _ | OMoveAssign _ _ => SPanic
    | OUnwrap i | OUnwrapU i => SOk (if wrecks then taken s i else s) None
    | OMap true _ i _ => SOk (if (wrecks || negb (k =? 0)%nat) then taken s i else s) None
    | OCopyAssign i _ =>
        match s !! i with Some None => if full then SOk s None else SPre | _ => SOk s None end
    | _ => SOk s None
    end.
  Definition opt_tspec (full : bool) (s : sp) (ok : oop V * nat) : sres sp (option (oout V)) :=
    match opt_spec triv s (fst ok) with
    | SOk s' x => if (needs s (fst ok) <=? snd ok)%nat then SOk s' (Some x) else opt_threw full s (fst ok) (snd ok)
    | SPanic => SPanic
    | SPre => SPre
    end.
End Spec.

Ltac crunch :=
  cbv beta iota zeta delta [opt_step ret fail unit_out bool_out pay_out oget oput onew odel octick
        odtick oread owrite omove_out set_hold construct_val destroy_val construct_non
        destroy_non reset o_some o_emplace o_none o_is_some o_is_none
        o_unwrap_unchecked o_unwrap o_as_ref_uncheck o_as_ref o_as_ref_set o_map
        o_move_ctor o_move_assign o_copy_ctor o_copy_assign o_destroy bind
        t_out t_some t_emplace t_unwrap t_unwrap_unchecked t_as_ref_set t_map
        t_move_ctor t_move_assign t_copy_ctor t_copy_assign noexcept unwinding elem calm
        tbind tret with_k wreck nothing];
  repeat (first
    [ progress csimpl
    | match goal with
      | H : ?s !! ?i = _ |- context [?s !! ?i] => rewrite H
      | |- context [<[?i:=_]> _ !! ?i] => rewrite lookup_insert
      | H : ?i <> ?j |- context [<[?i:=_]> _ !! ?j] => rewrite (lookup_insert_ne _ i j) by done
      | H : ?j <> ?i |- context [<[?i:=_]> _ !! ?j] => rewrite (lookup_insert_ne _ i j) by done
      | |- context [(_ <$> _) !! _] => rewrite lookup_fmap
      | H : (?i =? ?j)%nat = _ |- context [(?i =? ?j)%nat] => rewrite H
      end ]).

Section Proofs.
  Context {V : Type} (triv wrecks : bool).
  Notation sp := (gmap nat (option (pay V))).

  (** When nothing throws, the operation is that of OptModel. *)
  Lemma calm_same (s : sp) (st : ost V) (o : oop V) k : orel s st -> opt_spec triv s o <> SPre -> (needs s o <= k)%nat ->
    opt_tstep triv wrecks (o, k) st = (x <-- opt_step triv o ;; ret (Some x)) st.
  Proof.
    intros [Hv Hc] Hp Hk. destruct st as [vars c d]; simpl in Hv, Hc; subst vars c.
    destruct o as [i v|i v|i|i|i|i|i|i|i|i v|b f i j|i j|i j|i j|i j|i]; unfold opt_spec in Hp;
      cbn [needs] in Hk; unfold opt_tstep; cbn [fst snd].
    - destruct (s !! i) as [o|] eqn:Ei; [done|]. destruct k as [|k]; [lia|]. by crunch.
    - destruct (s !! i) as [o|] eqn:Ei; [done|]. destruct k as [|[|k]]; [lia..|]. by crunch.
    - destruct (s !! i) as [o|] eqn:Ei; [done|]. by crunch.
    - destruct (s !! i) as [o|] eqn:Ei; [|done]. by crunch.
    - destruct (s !! i) as [o|] eqn:Ei; [|done]. by crunch.
    - destruct (s !! i) as [[p|]|] eqn:Ei; [| |done]; [destruct k as [|k]; [lia|]|]; by crunch.
    - destruct (s !! i) as [[p|]|] eqn:Ei; [|done|done]; destruct k as [|k]; [lia|]; by crunch.
    - destruct (s !! i) as [[p|]|] eqn:Ei; [| |done]; by crunch.
    - destruct (s !! i) as [[p|]|] eqn:Ei; [|done|done]; by crunch.
    - destruct (s !! i) as [[p|]|] eqn:Ei; [| |done]; [destruct k as [|k]; [lia|]|]; by crunch.
    - destruct (s !! i) as [o|] eqn:Ei; [|done]. destruct (s !! j) eqn:Ej; [done|].
      assert (i <> j) by congruence.
      destruct o as [p|], b; cbn in Hk; [destruct k as [|[|[|k]]]; [lia..|]|destruct k as [|[|k]]; [lia..|]| |]; by crunch.
    - destruct (s !! i) as [|] eqn:Ei; [done|]. destruct (s !! j) as [o|] eqn:Ej; [|done].
      assert (i <> j) by congruence.
      destruct o as [p|]; [destruct k as [|k]; [lia|]|]; by crunch.
    - destruct (s !! i) as [a|] eqn:Ei; [|done]. destruct (s !! j) as [o|] eqn:Ej; [|done].
      destruct (i =? j)%nat eqn:E; [by crunch|]. apply Nat.eqb_neq in E as Hne.
      destruct o as [p|], a as [q|]; [destruct k as [|k]; [lia|]..| |]; by crunch.
    - destruct (s !! i) as [|] eqn:Ei; [done|]. destruct (s !! j) as [o|] eqn:Ej; [|done].
      assert (i <> j) by congruence.
      destruct o as [p|]; [destruct k as [|k]; [lia|]|]; by crunch.
    - destruct (s !! i) as [a|] eqn:Ei; [|done]. destruct (s !! j) as [o|] eqn:Ej; [|done].
      destruct (i =? j)%nat eqn:E; [by crunch|]. apply Nat.eqb_neq in E as Hne.
      destruct o as [p|], a as [q|]; [destruct k as [|k]; [lia|]..| |]; by crunch.
    - destruct (s !! i) as [[p|]|] eqn:Ei; [| |done]; by crunch.
  Qed.

  Ltac mapeq :=
    apply map_eq; intros ?k; rewrite ?lookup_fmap; unfold taken;
    repeat match goal with
           | |- context [<[?i:=_]> _ !! ?k] =>
               destruct (decide (i = k)); [subst; rewrite ?lookup_insert|rewrite ?(lookup_insert_ne _ i k) by done]
           | |- context [delete ?i _ !! ?k] =>
               destruct (decide (i = k)); [subst; rewrite ?lookup_delete|rewrite ?(lookup_delete_ne _ i k) by done]
           | |- context [alter _ ?i _ !! ?k] =>
               destruct (decide (i = k)); [subst; rewrite ?lookup_alter|rewrite ?(lookup_alter_ne _ _ i k) by done]
           end; rewrite ?lookup_fmap;
    repeat match goal with H : ?s !! ?i = _ |- context [?s !! ?i] => rewrite H end;
    csimpl; try done; try congruence.

  Lemma taken_count (s : sp) i : mcount is_someb (taken triv s i) = mcount is_someb s.
  Proof.
    unfold taken. destruct (s !! i) as [o|] eqn:Ei.
    - assert (alter (fmap (left_behind triv)) i s = <[i := left_behind triv <$> o]> s) as ->.
      { apply map_eq. intros k. destruct (decide (i = k)) as [->|Hne].
        - by rewrite lookup_alter, lookup_insert, Ei.
        - by rewrite lookup_alter_ne, lookup_insert_ne. }
      pose proof (mcount_insert is_someb s i o (left_behind triv <$> o) Ei). destruct o; simpl in *; lia.
    - assert (alter (fmap (left_behind triv)) i s = s) as ->; [|done].
      apply map_eq. intros k. destruct (decide (i = k)) as [->|Hne].
      + by rewrite lookup_alter, Ei.
      + by rewrite lookup_alter_ne.
  Qed.

  Ltac finish :=
    eexists; split; [reflexivity|]; split; simpl; [try done; mapeq | rewrite ?taken_count; try lia].

  Lemma threw_ok (s : sp) (st : ost V) (o : oop V) k s' x : orel s st -> opt_spec triv s o = SOk s' x ->
    (k < needs s o)%nat -> agrees orel (opt_tstep triv wrecks (o, k) st) (opt_threw triv wrecks false s o k).
  Proof.
    intros [Hv Hc] Hp Hk. destruct st as [vars c d]; simpl in Hv, Hc; subst vars c.
    destruct o as [i v|i v|i|i|i|i|i|i|i|i v|b f i j|i j|i j|i j|i j|i]; unfold opt_spec in Hp;
      cbn [needs] in Hk; try lia; unfold opt_tstep, agrees, opt_threw; cbn [fst snd].
    - destruct (s !! i) as [o|] eqn:Ei; [done|]. destruct k as [|k]; [|lia]. crunch. finish.
    - destruct (s !! i) as [o|] eqn:Ei; [done|]. destruct k as [|[|k]]; [| |lia]; crunch; finish.
    - destruct (s !! i) as [[p|]|] eqn:Ei; [|lia..]. destruct k as [|k]; [|lia]. destruct wrecks; crunch; finish.
    - destruct (s !! i) as [[p|]|] eqn:Ei; [|lia..]. destruct k as [|k]; [|lia]. destruct wrecks; crunch; finish.
    - destruct (s !! i) as [[p|]|] eqn:Ei; [|lia..]. destruct k as [|k]; [|lia]. crunch; finish.
    - destruct (s !! i) as [o|] eqn:Ei; [|done]. destruct (s !! j) eqn:Ej; [done|].
      assert (i <> j) by congruence.
      destruct o as [p|], b; cbn in Hk; try lia.
      + destruct k as [|[|[|k]]]; [| | |lia]; destruct wrecks; crunch; finish.
      + destruct k as [|[|k]]; [| |lia]; crunch; finish.
    - destruct (s !! i) as [|] eqn:Ei; [done|]. destruct (s !! j) as [[p|]|] eqn:Ej; [|lia..].
      assert (i <> j) by congruence. destruct k as [|k]; [|lia]. destruct wrecks; by crunch.
    - destruct (s !! i) as [a|] eqn:Ei; [|done]. destruct (i =? j)%nat eqn:E; [lia|]. apply Nat.eqb_neq in E as Hne.
      destruct (s !! j) as [[p|]|] eqn:Ej; [|lia..]. destruct k as [|k]; [|lia].
      destruct a as [q|], wrecks; by crunch.
    - destruct (s !! i) as [|] eqn:Ei; [done|]. destruct (s !! j) as [[p|]|] eqn:Ej; [|lia..].
      assert (i <> j) by congruence. destruct k as [|k]; [|lia]. crunch; finish.
    - destruct (s !! i) as [a|] eqn:Ei; [|done]. destruct (i =? j)%nat eqn:E; [lia|]. apply Nat.eqb_neq in E as Hne.
      destruct (s !! j) as [[p|]|] eqn:Ej; [|lia..]. destruct k as [|k]; [|lia].
      destruct a as [q|]; [|done]. crunch; finish.
  Qed.

  Lemma tstep_ok (s : sp) (st : ost V) (ok : oop V * nat) : orel s st -> agrees orel (opt_tstep triv wrecks ok st) (opt_tspec triv wrecks false s ok).
  Proof.
    intros Hr. destruct ok as [o k]. unfold opt_tspec. cbn [fst snd].
    pose proof (opt_step_ok triv s st o Hr) as H.
    destruct (opt_spec triv s o) as [s' x| |] eqn:E; [| |done].
    - destruct (Nat.leb_spec (needs s o) k) as [Hk|Hk]; [|by eapply threw_ok].
      rewrite (calm_same s) by (by rewrite ?E). unfold agrees, bind, ret in *.
      destruct H as (st' & -> & Hr'). by exists st'.
    - destruct (Nat.leb_spec (needs s o) k) as [Hk|Hk].
      + rewrite (calm_same s) by (by rewrite ?E). unfold agrees, bind in *. by rewrite H.
      + exfalso. destruct o as [i v|i v|i|i|i|i|i|i|i|i v|b f i j|i j|i j|i j|i j|i]; cbn in E, Hk; try lia;
          repeat match goal with H : context [match ?x with _ => _ end] |- _ => destruct x eqn:?; try done; try lia end.
  Qed.
End Proofs.

(** ** C67, Option *)
Section C67.
  Context {V : Type} (triv wrecks : bool).
  Notation sp := (gmap nat (option (pay V))).
  Notation run := (run_ops (opt_tstep triv wrecks)).
  Notation spec := (opt_tspec triv wrecks).
  Notation step := (opt_tstep (V := V) triv wrecks).

  Lemma trun_ok (ops : list (oop V * nat)) :
    agrees orel (run ops oinit) (srun (spec false) ∅ ops).
  Proof. apply (srun_refines (spec false) step orel); [intros; by apply tstep_ok|apply orel_init]. Qed.

  (** Programs whose operations throw at any point and go on: they do what the
      specification says, and every payload made is destroyed or held. *)
  Theorem C67_histories_partial (ops : list (oop V * nat)) :
    match srun (spec false) ∅ ops with
    | SOk s outs => exists st, run ops oinit = Ok (outs, st) /\ octor st = (odtor st + mcount is_someb s)%N
    | SPanic => run ops oinit = Err Panic
    | SPre => True
    end.
  Proof.
    pose proof (trun_ok ops) as H. unfold agrees in H.
    destruct (srun _ ∅ ops) as [s outs| |]; [|done|done]. destruct H as (st & ? & _ & ?). by exists st.
  Qed.

  (** An operation that does not throw is the operation of C34. *)
  Theorem C67_no_throw (ops : list (oop V * nat)) s outs st o k :
    srun (spec false) ∅ ops = SOk s outs -> run ops oinit = Ok (outs, st) ->
    opt_spec triv s o <> SPre -> (needs s o <= k)%nat ->
    step (o, k) st = (x <-- opt_step triv o ;; ret (Some x)) st.
  Proof.
    intros H E Hp Hk. pose proof (trun_ok ops) as A. rewrite H in A. destruct A as (st' & E' & Hr).
    rewrite E in E'. injection E' as <-. by apply (calm_same triv wrecks s).
  Qed.

  (** An exception leaves every Option as it was. *)
  Definition moves_out (o : oop V) : bool :=
    match o with OUnwrap _ | OUnwrapU _ | OMap true _ _ _ | OMoveCtor _ _ | OMoveAssign _ _ => true | _ => false end.
  Theorem C67_unchanged_partial (ops : list (oop V * nat)) s outs st o k s' x :
    srun (spec false) ∅ ops = SOk s outs -> run ops oinit = Ok (outs, st) ->
    opt_spec triv s o = SOk s' x -> (k < needs s o)%nat -> moves_out o = false ->
    (forall i j, o = OCopyAssign i j -> s !! i <> Some None) ->
    exists st', step (o, k) st = Ok (None, st') /\ ovars st' = ovars st.
  Proof.
    intros H E Hp Hk Hm Hc. pose proof (trun_ok ops) as A. rewrite H in A. destruct A as (st' & E' & Hr).
    rewrite E in E'. injection E' as <-.
    pose proof (threw_ok triv wrecks s st o k s' x Hr Hp Hk) as T.
    assert (opt_threw triv wrecks false s o k = SOk s None) as Et.
    { destruct o as [i v|i v|i|i|i|i|i|i|i|i v|[] f i j|i j|i j|i j|i j|i]; try done. cbn.
      destruct (s !! i) as [[]|] eqn:Es; try done. by destruct (Hc i j). }
    rewrite Et in T. destruct T as (st' & E2 & [Hv' _]). exists st'. split; [done|].
    destruct Hr as [Hv _]. by rewrite Hv, Hv'.
  Qed.

  (** The operations that use the value of [i]. *)
  Definition uses (i : nat) (o : oop V) : bool :=
    match o with
    | OUnwrap a | OUnwrapU a | OAsRef a | OAsRefU a | OAsRefSet a _ | ODestroy a => (a =? i)%nat
    | OMap _ _ a j => (a =? i)%nat
    | OMoveCtor j a | OCopyCtor j a => (a =? i)%nat
    | OMoveAssign j a | OCopyAssign j a => negb (a =? j)%nat && ((a =? i) || (j =? i))%nat
    | _ => false
    end.
  (** Copying a value into an empty Option, when the copy throws: the Option
      says that it holds a value, and has none.  Everything that uses it, its
      destructor included, is undefined; the other Options are as they were. *)
  Theorem C67_assign_breaks (ops : list (oop V * nat)) s outs st i j p :
    srun (spec false) ∅ ops = SOk s outs -> run ops oinit = Ok (outs, st) ->
    s !! i = Some None -> s !! j = Some (Some p) ->
    exists st', step (OCopyAssign i j, 0%nat) st = Ok (None, st') /\
      (forall k, step (OIsSome i, k) st' = Ok (Some (OutB true), st')) /\
      (forall o k, uses i o = true -> opt_spec triv s o <> SPre \/ o = OUnwrapU i \/ o = OAsRefU i ->
         (1 <= k)%nat -> step (o, k) st' = Err UB) /\
      (forall n o, n <> i -> s !! n = Some o ->
         (forall k, step (OIsSome n, k) st' = Ok (Some (OutB (is_someb o)), st')) /\
         (forall k q, o = Some q -> step (OAsRef n, k) st' = Ok (Some (OutP q), st'))).
  Proof.
    intros H E Hi Hj. pose proof (trun_ok ops) as A. rewrite H in A. destruct A as (st' & E' & [Hv _]).
    rewrite E in E'. injection E' as <-. destruct st as [vars c d]; simpl in Hv; subst vars. clear E H.
    assert (Hne : i <> j) by congruence. assert (Hb : (i =? j)%nat = false) by by apply Nat.eqb_neq.
    exists (OSt (<[i := OObj true OsRaw]> (conc <$> s)) c d). split; [|split; [|split]].
    - unfold opt_tstep. cbn [fst snd]. crunch. by rewrite !insert_insert.
    - intros k. unfold opt_tstep. cbn [fst snd]. by crunch.
    - intros o k Hu Hp Hk. destruct k as [|k]; [lia|]. clear Hk.
      assert (Hp' : (opt_spec triv s o <> SPre) \/ o = OUnwrapU i \/ o = OAsRefU i) by done. clear Hp.
      unfold opt_tstep; cbn [fst snd].
      destruct o as [a v|a v|a|a|a|a|a|a|a|a v|b f a n|n a|n a|n a|n a|a]; try done; cbn [uses] in Hu.
      1-5: apply Nat.eqb_eq in Hu as ->; by crunch.
      + apply Nat.eqb_eq in Hu as ->. destruct b; by crunch.
      + apply Nat.eqb_eq in Hu as ->. destruct Hp' as [Hp|[|]]; [|done..]. unfold opt_spec in Hp.
        destruct (s !! n) eqn:En; [done|]. assert (n <> i) by congruence. by crunch.
      + apply andb_true_iff in Hu as [Hna Hu]. apply negb_true_iff in Hna. rewrite Nat.eqb_sym in Hna.
        apply Nat.eqb_neq in Hna as Hna'. destruct Hp' as [Hp|[|]]; [|done..]. unfold opt_spec in Hp.
        apply orb_true_iff in Hu as [->%Nat.eqb_eq| ->%Nat.eqb_eq].
        * destruct (s !! n) as [[q|]|] eqn:En; [| |done]; by crunch.
        * rewrite Hi in Hp. destruct (s !! a) as [[q|]|] eqn:En; [| |done]; by crunch.
      + apply Nat.eqb_eq in Hu as ->. destruct Hp' as [Hp|[|]]; [|done..]. unfold opt_spec in Hp.
        destruct (s !! n) eqn:En; [done|]. assert (n <> i) by congruence. by crunch.
      + apply andb_true_iff in Hu as [Hna Hu]. apply negb_true_iff in Hna. rewrite Nat.eqb_sym in Hna.
        apply Nat.eqb_neq in Hna as Hna'. destruct Hp' as [Hp|[|]]; [|done..]. unfold opt_spec in Hp.
        apply orb_true_iff in Hu as [->%Nat.eqb_eq| ->%Nat.eqb_eq].
        * destruct (s !! n) as [[q|]|] eqn:En; [| |done]; by crunch.
        * rewrite Hi in Hp. destruct (s !! a) as [[q|]|] eqn:En; [| |done]; by crunch.
      + apply Nat.eqb_eq in Hu as ->. by crunch.
    - intros n o Hn Ho. split.
      + intros k. unfold opt_tstep. cbn [fst snd]. crunch. by destruct o.
      + intros k q ->. unfold opt_tstep. cbn [fst snd]. by crunch.
  Qed.
End C67.

(** The claim without the exception for empty targets is false. *)
Definition C67_claim : Prop := forall triv wrecks (ops : list (oop N * nat)),
  match srun (opt_tspec triv wrecks true) ∅ ops with
  | SOk s outs => exists st, run_ops (opt_tstep triv wrecks) ops oinit = Ok (outs, st)
  | SPanic => run_ops (opt_tstep triv wrecks) ops oinit = Err Panic
  | SPre => True
  end.
Definition C67_bad : list (oop N * nat) :=
  [(OSome 0 7%N, 9%nat); (ONone 1, 9%nat); (OCopyAssign 1 0, 0%nat); (OIsSome 1, 9%nat)].
Theorem C67_refuted : ~ C67_claim.
Proof.
  intros H. specialize (H false false C67_bad). vm_compute in H. destruct H as (st & E). discriminate E.
Qed.
(** Even leaving the scope is undefined then. *)
Theorem C67_refuted_destroy : exists st,
  run_ops (opt_tstep (V := N) false false) [(OSome 0 7%N, 9%nat); (ONone 1, 9%nat)] oinit = Ok ([Some OutU; Some OutU], st) /\
  run_ops (opt_tstep false false) [(OCopyAssign 1 0, 0%nat); (ODestroy 1, 9%nat)] st = Err UB /\
  run_ops (opt_tstep false false) [(OCopyAssign 1 0, 9%nat); (ODestroy 1, 9%nat)] st <> Err UB.
Proof. eexists. split; [vm_compute; reflexivity|]. split; vm_compute; [reflexivity|discriminate]. Qed.

(** A run with exceptions in many places that ends with everything released. *)
Definition C67_ops : list (oop N * nat) :=
  [(OSome 0 7%N, 0%nat); (OSome 0 7%N, 1%nat); (OEmplace 1 8%N, 0%nat); (OEmplace 1 8%N, 1%nat); (OEmplace 1 8%N, 2%nat);
   (OCopyCtor 2 0, 0%nat); (OCopyAssign 0 1, 0%nat); (OAsRef 0, 0%nat); (OCopyAssign 0 1, 1%nat); (OAsRef 0, 0%nat);
   (OAsRefSet 0 3%N, 0%nat); (OMap false (N.add 1) 0 3, 1%nat); (OMap true (N.add 1) 0 3, 2%nat); (OAsRef 0, 0%nat);
   (OUnwrap 1, 0%nat); (OIsSome 1, 0%nat); (OUnwrap 1, 1%nat); (OIsSome 1, 0%nat); (ODestroy 0, 0%nat); (ODestroy 1, 0%nat)].
Example C67_ex : exists st, run_ops (opt_tstep false false) C67_ops oinit =
  Ok ([None; Some OutU; None; None; Some OutU; None; None; Some (OutP (PVal 7%N)); Some OutU; Some (OutP (PVal 8%N));
       None; None; None; Some (OutP PMoved); None; Some (OutB true); Some (OutP (PVal 8%N)); Some (OutB false);
       Some OutU; Some OutU], st) /\ octor st = odtor st /\
  srun (opt_tspec false false false) ∅ C67_ops <> SPre.
Proof. eexists. split; [vm_compute; reflexivity|]. split; [vm_compute; reflexivity|vm_compute; discriminate]. Qed.

Print Assumptions C67_histories_partial.
Print Assumptions C67_no_throw.
Print Assumptions C67_unchanged_partial.
Print Assumptions C67_assign_breaks.
Print Assumptions C67_refuted.
Print Assumptions C67_refuted_destroy.
