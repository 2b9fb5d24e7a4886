(** * ResThrow: Result when an operation of the payload throws

    include/mstl/result/result.h.  As in OptThrow: the first [k] payload
    operations of a call succeed and the next one throws. *)
From Verif Require Import Base Machine OptModel ResModel ResProps OptThrow.

Section ResModel.
  Context {V F : Type} (clsT clsE : bool) (eqT : V -> V -> bool) (eqE : F -> F -> bool) (wrecks : bool).
  Notation st := (rst V F).
  Notation TM := (TM st).
  Definition rnothing : M st unit := ret tt.
  Definition wreck_t (i : nat) : M st unit := if wrecks then _ <-- move_t clsT i ;; ret tt else ret tt.
  Definition wreck_e (i : nat) : M st unit := if wrecks then _ <-- move_e clsE i ;; ret tt else ret tt.
  Definition wreck_r (j : nat) : M st unit :=
    r <-- res_get j ;; if rtag r then wreck_t j else wreck_e j.

  (** result.h:28-44, 129-149: not [noexcept]. *)
  Definition tr_ok (i : nat) (p : pay V) : TM unit :=
    calm (res_new i true) ~;; unwinding (elem rnothing (construct_t clsT clsE i p)) (res_del i).
  Definition tr_err (i : nat) (q : pay F) : TM unit :=
    calm (res_new i false) ~;; unwinding (elem rnothing (construct_e clsT clsE i q)) (res_del i).
  (** result.h:46-53: [noexcept], the copy constructor too. *)
  Definition tr_copy_ctor (i j : nat) : TM unit := noexcept (
    r <~ calm (res_get j) ;; calm (res_new i (rtag r)) ~;; elem rnothing (copy_impl clsT clsE i j)).
  Definition tr_move_ctor (i j : nat) : TM unit := noexcept (
    r <~ calm (res_get j) ;; calm (res_new i (rtag r)) ~;; elem (wreck_r j) (move_impl clsT clsE i j)).
  (** result.h:63-104: [noexcept]. *)
  Definition tr_move_assign (i j : nat) : TM unit := noexcept (
    if (i =? j)%nat then calm (_ <-- res_get i ;; ret tt) else
    a <~ calm (res_get i) ;; b <~ calm (res_get j) ;;
    if eqb (rtag a) (rtag b) then
      elem (wreck_r j) (if rtag a then p <-- res_unwrap clsT j ;; write_t i p
                        else q <-- res_unwrap_err clsE j ;; write_e i q)
    else
      calm (if rtag a then destroy_t clsT i else destroy_e clsE i) ~;; elem (wreck_r j) (move_impl clsT clsE i j)).
  Definition tr_copy_assign (i j : nat) : TM unit := noexcept (
    if (i =? j)%nat then calm (_ <-- res_get i ;; ret tt) else
    a <~ calm (res_get i) ;; b <~ calm (res_get j) ;;
    if eqb (rtag a) (rtag b) then
      elem rnothing (if rtag a then p <-- read_t j ;; write_t i p else q <-- read_e j ;; write_e i q)
    else
      calm (if rtag a then destroy_t clsT i else destroy_e clsE i) ~;; elem rnothing (copy_impl clsT clsE i j)).
  (** result.h:200-267: they return [T&&]; it is the client's own object that is
      constructed from it. *)
  Definition tr_unwrap (i : nat) : TM (pay V) :=
    r <~ calm (res_get i) ;; if rtag r then elem (wreck_t i) (move_t clsT i) else calm (fail Panic).
  Definition tr_unwrap_err (i : nat) : TM (pay F) :=
    r <~ calm (res_get i) ;; if rtag r then calm (fail Panic) else elem (wreck_e i) (move_e clsE i).
  (** result.h:282-288, 328-334: a copy inside an Option. *)
  Definition tr_ok_opt (i : nat) : TM (option (pay V)) :=
    r <~ calm (res_get i) ;; if rtag r then elem rnothing (p <-- read_t i ;; ret (Some p)) else tret None.
  Definition tr_err_opt (i : nat) : TM (option (pay F)) :=
    r <~ calm (res_get i) ;; if rtag r then tret None else elem rnothing (q <-- read_e i ;; ret (Some q)).
  (** result.h:106-116: the payload's own [==] may throw. *)
  Definition tr_eq (i j : nat) : TM bool :=
    a <~ calm (res_get i) ;; b <~ calm (res_get j) ;;
    if eqb (rtag a) (rtag b) then elem rnothing (res_eq eqT eqE i j) else tret false.

  Definition t_via {X} (f : X -> eout V F) (m : TM X) : TM (eout V F) := x <~ m ;; tret (f x).
  Definition res_tstep (ok : eop V F * nat) : M st (option (eout V F)) :=
    with_k (snd ok)
      match fst ok with
      | EOk i v => t_via (fun _ => EU) (tr_ok i (PVal v))
      | EErr i e => t_via (fun _ => EU) (tr_err i (PVal e))
      | ECopyCtor i j => t_via (fun _ => EU) (tr_copy_ctor i j)
      | EMoveCtor i j => t_via (fun _ => EU) (tr_move_ctor i j)
      | ECopyAssign i j => t_via (fun _ => EU) (tr_copy_assign i j)
      | EMoveAssign i j => t_via (fun _ => EU) (tr_move_assign i j)
      | EUnwrap i => t_via EV (tr_unwrap i)
      | EUnwrapU i => t_via EV (elem (wreck_t i) (res_unwrap_unchecked clsT i))
      | EUnwrapErr i => t_via EF (tr_unwrap_err i)
      | EUnwrapErrU i => t_via EF (elem (wreck_e i) (res_unwrap_err_unchecked clsE i))
      | EOkOpt i => t_via EOV (tr_ok_opt i)
      | EErrOpt i => t_via EOF (tr_err_opt i)
      | EOkU i => t_via EV (elem rnothing (res_ok_unchecked i))
      | EErrU i => t_via EF (elem rnothing (res_err_unchecked i))
      | EEq i j => t_via EB (tr_eq i j)
      | o => calm (res_step clsT clsE eqT eqE o)
      end.

  Notation val := (pay V + pay F)%type.
  Notation sp := (gmap nat val).
  (** Does the call operate on a payload? *)
  Definition rneeds (s : sp) (o : eop V F) : nat :=
    match o with
    | EIsOk _ | EIsErr _ | EDestroy _ => 0
    | EOkOpt i => match s !! i with Some (inl _) => 1 | _ => 0 end
    | EErrOpt i => match s !! i with Some (inr _) => 1 | _ => 0 end
    | ECopyAssign i j | EMoveAssign i j => if (i =? j)%nat then 0 else 1
    | EEq i j =>
        match s !! i, s !! j with Some (inl _), Some (inl _) | Some (inr _), Some (inr _) => 1 | _, _ => 0 end
    | _ => 1
    end.
  (** After an exception: copies, moves and assignments of Results end the
      program; everything else leaves all Results as they were, but for a value
      the client was moving out. *)
  Definition res_threw (s : sp) (o : eop V F) : sres sp (option (eout V F)) :=
    match o with
    | ECopyCtor _ _ | EMoveCtor _ _ | ECopyAssign _ _ | EMoveAssign _ _ => SPanic
    | EUnwrap i | EUnwrapU i | EUnwrapErr i | EUnwrapErrU i =>
        SOk (if wrecks then alter (v_moved clsT clsE) i s else s) None
    | _ => SOk s None
    end.
  Definition res_tspec (s : sp) (ok : eop V F * nat) : sres sp (option (eout V F)) :=
    match res_spec clsT clsE eqT eqE true s (fst ok) with
    | SPanic => SPanic
    | SPre => SPre
    | SOk _ _ =>
        if (rneeds s (fst ok) <=? snd ok)%nat then
          match res_spec clsT clsE eqT eqE false s (fst ok) with
          | SOk s' x => SOk s' (Some x)
          | SPanic => SPanic
          | SPre => SPre
          end
        else res_threw s (fst ok)
    end.
End ResModel.

Ltac crunch :=
  cbv beta iota zeta delta [res_step ret fail via res_get res_put res_new res_del rctick rdtick
        construct_t construct_e read_t read_e write_t write_e move_t move_e destroy_t
        destroy_e move_impl copy_impl res_ok res_err res_copy_ctor res_move_ctor
        res_copy_assign res_move_assign
        res_destroy res_is_ok res_is_err res_unwrap res_unwrap_unchecked res_unwrap_err
        res_unwrap_err_unchecked res_ok_opt res_err_opt res_ok_unchecked res_err_unchecked
        res_eq bind tr_ok tr_err tr_copy_ctor tr_move_ctor tr_copy_assign tr_move_assign tr_unwrap
        tr_unwrap_err tr_ok_opt tr_err_opt tr_eq t_via noexcept unwinding elem calm tbind tret
        with_k wreck_t wreck_e wreck_r rnothing];
  repeat (first
    [ progress csimpl
    | match goal with
      | H : ?s !! ?i = _ |- context [?s !! ?i] => rewrite H
      | |- context [<[?i:=_]> _ !! ?i] => rewrite lookup_insert
      | H : ?i <> ?j |- context [<[?i:=_]> _ !! ?j] => rewrite (lookup_insert_ne _ i j) by done
      | H : ?j <> ?i |- context [<[?i:=_]> _ !! ?j] => rewrite (lookup_insert_ne _ i j) by done
      | |- context [(_ <$> _) !! _] => rewrite lookup_fmap
      | H : (?i =? ?j)%nat = _ |- context [(?i =? ?j)%nat] => rewrite H
      end ]).

Section Proofs.
  Context {V F : Type} (clsT clsE : bool) (eqT : V -> V -> bool) (eqE : F -> F -> bool) (wrecks : bool).
  Notation val := (pay V + pay F)%type.
  Notation sp := (gmap nat val).
  Notation step := (res_tstep clsT clsE eqT eqE wrecks).
  Notation rel := (rrel clsT clsE).

  Lemma calm_same (s : sp) (st : rst V F) (o : eop V F) k : rel s st ->
    res_spec clsT clsE eqT eqE false s o <> SPre -> (rneeds s o <= k)%nat ->
    step (o, k) st = (x <-- res_step clsT clsE eqT eqE o ;; ret (Some x)) st.
  Proof.
    intros [Hv Hc] Hp Hk. destruct st as [vars c d]; simpl in Hv, Hc; subst vars c.
    destruct o as [i v|i v|i j|i j|i j|i j|i|i|i|i|i|i|i|i|i|i|i j|i]; unfold res_spec in Hp;
      cbn [rneeds] in Hk; unfold res_tstep; cbn [fst snd].
    1,2: destruct (s !! i) as [o|] eqn:Ei; [done|]; destruct k as [|k]; [lia|]; by crunch.
    1,2: destruct (s !! j) as [o|] eqn:Ej; [|done]; destruct (s !! i) eqn:Ei; [done|];
      destruct k as [|k]; [lia|]; assert (i <> j) by congruence; destruct o as [p|q];
      [destruct clsT, clsE|destruct clsT, clsE]; by crunch.
    1,2: destruct (s !! i) as [a|] eqn:Ei; [|done]; destruct (s !! j) as [o|] eqn:Ej; [|done];
      (destruct (i =? j)%nat eqn:E; [by crunch|]); apply Nat.eqb_neq in E as Hne;
      destruct k as [|k]; [lia|]; destruct a as [p|p], o as [q|q]; try done; by crunch.
    1,2: destruct (s !! i) as [[p|p]|] eqn:Ei; [| |done]; by crunch.
    1-4: destruct k as [|k]; [lia|]; destruct (s !! i) as [[p|p]|] eqn:Ei; try done; by crunch.
    1,2: destruct (s !! i) as [[p|p]|] eqn:Ei; [| |done]; try (destruct k as [|k]; [lia|]); by crunch.
    1,2: destruct k as [|k]; [lia|]; destruct (s !! i) as [[p|p]|] eqn:Ei; try done; by crunch.
    - destruct (s !! i) as [[p|p]|] eqn:Ei; [| |done]; (destruct (s !! j) as [[q|q]|] eqn:Ej; [| |done]);
        try (destruct k as [|k]; [lia|]); by crunch.
    - destruct (s !! i) as [[p|p]|] eqn:Ei; [| |done]; [destruct clsT|destruct clsE]; by crunch.
  Qed.

  Ltac mapeq :=
    apply map_eq; intros ?k; rewrite ?lookup_fmap;
    repeat match goal with
           | |- context [<[?i:=_]> _ !! ?k] =>
               destruct (decide (i = k)); [subst; rewrite ?lookup_insert|rewrite ?(lookup_insert_ne _ i k) by done]
           | |- context [delete ?i _ !! ?k] =>
               destruct (decide (i = k)); [subst; rewrite ?lookup_delete|rewrite ?(lookup_delete_ne _ i k) by done]
           | |- context [alter _ ?i _ !! ?k] =>
               destruct (decide (i = k)); [subst; rewrite ?lookup_alter|rewrite ?(lookup_alter_ne _ _ i k) by done]
           end; rewrite ?lookup_fmap;
    repeat match goal with H : ?s !! ?i = _ |- context [?s !! ?i] => rewrite H end;
    csimpl; try done; try congruence.
  Lemma moved_count (s : sp) i :
    mcount (v_cls clsT clsE) (alter (v_moved clsT clsE) i s) = mcount (v_cls clsT clsE) s.
  Proof.
    destruct (s !! i) as [o|] eqn:Ei.
    - assert (alter (v_moved clsT clsE) i s = <[i := v_moved clsT clsE o]> s) as ->.
      { apply map_eq. intros k. destruct (decide (i = k)) as [->|Hne].
        - by rewrite lookup_alter, lookup_insert, Ei.
        - by rewrite lookup_alter_ne, lookup_insert_ne. }
      pose proof (mcount_insert (v_cls clsT clsE) s i o (v_moved clsT clsE o) Ei). destruct o; simpl in *; lia.
    - assert (alter (v_moved clsT clsE) i s = s) as ->; [|done].
      apply map_eq. intros k. destruct (decide (i = k)) as [->|Hne].
      + by rewrite lookup_alter, Ei.
      + by rewrite lookup_alter_ne.
  Qed.
  Ltac finish :=
    eexists; split; [reflexivity|]; split; simpl; [try done; mapeq | rewrite ?moved_count; try lia].

  Lemma threw_ok (s : sp) (st : rst V F) (o : eop V F) k s' x : rel s st ->
    res_spec clsT clsE eqT eqE true s o = SOk s' x -> (k < rneeds s o)%nat ->
    agrees rel (step (o, k) st) (res_threw clsT clsE wrecks s o).
  Proof.
    intros [Hv Hc] Hp Hk. destruct st as [vars c d]; simpl in Hv, Hc; subst vars c.
    destruct o as [i v|i v|i j|i j|i j|i j|i|i|i|i|i|i|i|i|i|i|i j|i]; unfold res_spec in Hp;
      cbn [rneeds] in Hk; try lia; unfold res_tstep, agrees, res_threw; cbn [fst snd].
    1,2: destruct (s !! i) as [o|] eqn:Ei; [done|]; destruct k as [|k]; [|lia]; crunch; finish.
    1,2: destruct (s !! j) as [o|] eqn:Ej; [|done]; destruct (s !! i) eqn:Ei; [done|];
      destruct k as [|k]; [|lia]; assert (i <> j) by congruence; destruct o as [p|q], wrecks; by crunch.
    1,2: destruct (s !! i) as [a|] eqn:Ei; [|done]; destruct (s !! j) as [o|] eqn:Ej; [|done];
      (destruct (i =? j)%nat eqn:E; [lia|]); apply Nat.eqb_neq in E as Hne;
      destruct k as [|k]; [|lia]; destruct a as [p|p], o as [q|q], wrecks, clsT, clsE; by crunch.
    1-4: destruct k as [|k]; [|lia]; destruct (s !! i) as [[p|p]|] eqn:Ei; try done; destruct wrecks; crunch; finish.
    1,2: destruct (s !! i) as [[p|p]|] eqn:Ei; [| |done]; try lia; destruct k as [|k]; [|lia]; crunch; finish.
    1,2: destruct k as [|k]; [|lia]; destruct (s !! i) as [[p|p]|] eqn:Ei; try done; crunch; finish.
    destruct (s !! i) as [[p|p]|] eqn:Ei; [| |done]; (destruct (s !! j) as [[q|q]|] eqn:Ej; [| |done]); try lia;
      destruct k as [|k]; try lia; crunch; finish.
  Qed.

  Lemma needs_more (s : sp) o : res_spec clsT clsE eqT eqE false s o = SPanic ->
    res_spec clsT clsE eqT eqE true s o = SPanic.
  Proof.
    destruct o; cbn; intros H;
      repeat match goal with H : context [match ?x with _ => _ end] |- _ => destruct x eqn:?; try done end.
  Qed.
  Lemma needs_ok (s : sp) o : res_spec clsT clsE eqT eqE true s o = SPanic ->
    res_spec clsT clsE eqT eqE false s o = SPanic /\ exists i, o = EUnwrap i \/ o = EUnwrapErr i.
  Proof.
    destruct o; cbn; intros H;
      repeat match goal with H : context [match ?x with _ => _ end] |- _ => destruct x eqn:?; try done end; eauto.
  Qed.

  Lemma tstep_ok (s : sp) (st : rst V F) (ok : eop V F * nat) : rel s st ->
    agrees rel (step ok st) (res_tspec clsT clsE eqT eqE wrecks s ok).
  Proof.
    intros Hr. destruct ok as [o k]. unfold res_tspec. cbn [fst snd].
    pose proof (res_step_ok clsT clsE eqT eqE s st o Hr) as H.
    destruct (res_spec clsT clsE eqT eqE true s o) as [s' x| |] eqn:E; [| |done].
    - destruct (Nat.leb_spec (rneeds s o) k) as [Hk|Hk]; [|by eapply threw_ok].
      destruct (res_spec clsT clsE eqT eqE false s o) as [s2 y| |] eqn:E2; [| |done];
        rewrite (calm_same s) by (by rewrite ?E2); unfold agrees, bind, ret in *.
      + destruct H as (st' & -> & Hr'). by exists st'.
      + by rewrite H.
    - destruct (needs_ok s o E) as [E2 [i [-> | ->]]]; clear H; unfold agrees; destruct Hr as [Hv _];
        destruct st as [vars c d]; simpl in Hv; subst vars; cbn in E2;
        (destruct (s !! i) as [[p|p]|] eqn:Ei; try done); unfold res_tstep; cbn [fst snd]; by crunch.
  Qed.

  (** Programs whose operations throw at any point: the program ends, or all
      Results are as they were, but for a value the client was moving out; every
      payload is destroyed once or held. *)
  Theorem C67_result_histories (ops : list (eop V F * nat)) :
    match srun (res_tspec clsT clsE eqT eqE wrecks) ∅ ops with
    | SOk s outs => exists st, run_ops step ops rinit = Ok (outs, st) /\
        rctor st = (rdtor st + mcount (v_cls clsT clsE) s)%N
    | SPanic => run_ops step ops rinit = Err Panic
    | SPre => True
    end.
  Proof.
    pose proof (srun_refines (res_tspec clsT clsE eqT eqE wrecks) step rel (fun s st o => tstep_ok s st o)
      ops ∅ rinit (rrel_init clsT clsE)) as H. unfold agrees in H.
    destruct (srun _ ∅ ops) as [s outs| |]; [|done|done]. destruct H as (st & ? & _ & ?). by exists st.
  Qed.
  (** An operation that does not throw is the operation of C37. *)
  Theorem C67_result_no_throw (ops : list (eop V F * nat)) s outs st o k :
    srun (res_tspec clsT clsE eqT eqE wrecks) ∅ ops = SOk s outs -> run_ops step ops rinit = Ok (outs, st) ->
    res_spec clsT clsE eqT eqE false s o <> SPre -> (rneeds s o <= k)%nat ->
    step (o, k) st = (x <-- res_step clsT clsE eqT eqE o ;; ret (Some x)) st.
  Proof.
    intros H E Hp Hk.
    pose proof (srun_refines (res_tspec clsT clsE eqT eqE wrecks) step rel (fun s st o => tstep_ok s st o)
      ops ∅ rinit (rrel_init clsT clsE)) as A. rewrite H in A. destruct A as (st' & E' & Hr).
    rewrite E in E'. injection E' as <-. by apply (calm_same s).
  Qed.
  (** Copying, moving and assigning Results never lets an exception out: the
      program ends. *)
  Theorem C67_result_terminates (ops : list (eop V F * nat)) s outs o s' x :
    srun (res_tspec clsT clsE eqT eqE wrecks) ∅ ops = SOk s outs ->
    res_spec clsT clsE eqT eqE true s o = SOk s' x ->
    match o with ECopyCtor _ _ | EMoveCtor _ _ => True | ECopyAssign i j | EMoveAssign i j => i <> j | _ => False end ->
    run_ops step (ops ++ [(o, 0%nat)]) rinit = Err Panic.
  Proof.
    intros H E Ho. pose proof (C67_result_histories (ops ++ [(o, 0%nat)])) as A.
    rewrite (srun_app _ _ _ _ _ _ H) in A. simpl srun in A. unfold res_tspec in A. cbn [fst snd] in A. rewrite E in A.
    destruct o as [| |i j|i j|i j|i j| | | | | | | | | | | |]; try done; cbn [rneeds] in A; try exact A;
      rewrite (proj2 (Nat.eqb_neq i j) Ho) in A; exact A.
  Qed.
End Proofs.

Definition C67_res_ops : list (eop N N * nat) :=
  [(EOk 0 7%N, 0%nat); (EOk 0 7%N, 1%nat); (EErr 1 8%N, 1%nat); (ECopyCtor 2 0, 1%nat); (EOkOpt 2, 0%nat); (EOkOpt 2, 1%nat);
   (EEq 0 2, 0%nat); (EEq 0 2, 1%nat); (EUnwrap 0, 0%nat); (EOkU 0, 1%nat); (EIsOk 0, 0%nat);
   (EDestroy 0, 0%nat); (EDestroy 1, 0%nat); (EDestroy 2, 0%nat)].
Example C67_result_ex : exists st, run_ops (res_tstep true true N.eqb N.eqb true) C67_res_ops rinit =
  Ok ([None; Some EU; Some EU; Some EU; None; Some (EOV (Some (PVal 7%N))); None; Some (EB true); None;
       Some (EV PMoved); Some (EB true); Some EU; Some EU; Some EU], st) /\ rctor st = rdtor st /\
  srun (res_tspec true true N.eqb N.eqb true) ∅ C67_res_ops <> SPre.
Proof. eexists. split; [vm_compute; reflexivity|]. split; [vm_compute; reflexivity|vm_compute; discriminate]. Qed.

Print Assumptions C67_result_histories.
Print Assumptions C67_result_no_throw.
Print Assumptions C67_result_terminates.
