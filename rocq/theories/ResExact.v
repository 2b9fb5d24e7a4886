(** * ResExact: every history of Results, exactly

    No new model content; the code is that of ResModel (result.h).  C37 is
    proved for histories without assignments between different variants, and
    C36 says what such an assignment does.  Here both are put together: every
    history that is right on tagged sums is carried out, or panics, as it
    should, or has a first assignment between different variants, and from that
    call on the target cannot be used. *)
From Verif Require Import Base Machine OptModel ResModel ResProps.

(** A history of [f] is one of its restriction [g], or leaves it somewhere. *)
Lemma srun_split {S O X} (f g : S -> O -> sres S X) ops :
  (forall s o, g s o = f s o \/ g s o = SPre) -> forall s,
  srun g s ops = srun f s ops \/
  exists pre o post s1 outs1, ops = pre ++ o :: post /\ srun g s pre = SOk s1 outs1 /\ g s1 o = SPre /\ f s1 o <> SPre.
Proof.
  intros H. induction ops as [|o ops IH]; intros s; [by left|]. cbn [srun].
  destruct (f s o) as [s1 y| |] eqn:Ef.
  - destruct (H s o) as [E|E]; [rewrite Ef in E|right; exists [], o, ops, s, []; by rewrite Ef].
    destruct (IH s1) as [E2|(pre&o'&post&t1&outs1&->&E2&Eg&En)]; [left; by rewrite E, E2|].
    right. exists (o :: pre), o', post, t1, (y :: outs1). cbn [srun]. by rewrite E, E2.
  - destruct (H s o) as [E|E]; [left; by rewrite E, Ef|right; exists [], o, ops, s, []; by rewrite Ef].
  - left. destruct (H s o) as [E|E]; rewrite E; [by rewrite Ef|done].
Qed.

Section Exact.
  Context {V F : Type} (clsT clsE : bool) (eqT : V -> V -> bool) (eqE : F -> F -> bool).
  Notation spec m := (res_spec (V := V) (F := F) clsT clsE eqT eqE m).
  Notation srun_ m := (res_srun (V := V) (F := F) clsT clsE eqT eqE m).
  Notation run := (res_run clsT clsE eqT eqE).

  Lemma spec_restricts s (o : eop V F) : spec false s o = spec true s o \/ spec false s o = SPre.
  Proof using Type.
    destruct o; try by left.
    - cbn. case_match; [|by left]. case_match; [|by left]. rewrite orb_true_r, orb_false_r. case_match; auto.
    - cbn. case_match; [|by left]. case_match; [|by left]. rewrite orb_true_r, orb_false_r. case_match; [by left|]. case_match; auto.
  Qed.
  Lemma spec_mixed s (o : eop V F) : spec false s o = SPre -> spec true s o <> SPre ->
    exists i j a b, (o = ECopyAssign i j \/ o = EMoveAssign i j) /\ s !! i = Some a /\ s !! j = Some b /\ v_ok a <> v_ok b.
  Proof using Type.
    destruct o; cbn; intros H1 H2; try done.
    - destruct (s !! i) as [a|] eqn:Ei; [|done]. destruct (s !! j) as [b|] eqn:Ej; [|done].
      rewrite orb_false_r in H1. destruct (eqb (v_ok a) (v_ok b)) eqn:E; [done|]. apply eqb_false_iff in E. eauto 10.
    - destruct (s !! i) as [a|] eqn:Ei; [|done]. destruct (s !! j) as [b|] eqn:Ej; [|done].
      destruct (i =? j)%nat; [done|].
      rewrite orb_false_r in H1. destruct (eqb (v_ok a) (v_ok b)) eqn:E; [done|]. apply eqb_false_iff in E. eauto 10.
  Qed.

  Theorem C36_histories_exact (ops : list (eop V F)) :
    match srun_ true ∅ ops with
    | SOk s outs => exists st, run ops rinit = Ok (outs, st)
    | SPanic => run ops rinit = Err Panic
    | SPre => True
    end \/
    exists pre o post s outs i j a b, ops = pre ++ o :: post /\ srun_ false ∅ pre = SOk s outs /\
      (o = ECopyAssign i j \/ o = EMoveAssign i j) /\ s !! i = Some a /\ s !! j = Some b /\ v_ok a <> v_ok b /\
      wrong_after clsT clsE eqT eqE pre outs i a o.
  Proof using Type.
    destruct (srun_split (spec true) (spec false) ops spec_restricts ∅) as [E|(pre&o&post&s&outs&->&E&Eg&En)].
    - left. pose proof (C37_result_histories clsT clsE eqT eqE ops) as H. unfold res_srun in *. rewrite E in H.
      destruct (srun (spec true) ∅ ops); [|done|done]. destruct H as (st & ? & _). by exists st.
    - right. destruct (spec_mixed s o Eg En) as (i & j & a & b & Ho & Hi & Hj & Hab).
      exists pre, o, post, s, outs, i, j, a, b. repeat (split; [done|]). by eapply C36_mixed_assignment_exact.
  Qed.
End Exact.

(** A history with assignments of both kinds, and what is left of it when the
    mixed one comes first. *)
Example C36_histories_ex :
  (match res_srun true true N.eqb N.eqb true ∅ [EOk 0 1%N; EErr 1 2%N; EOk 2 3%N; ECopyAssign 0 2; EMoveAssign 0 1; EUnwrapErr 0] with
   | SOk _ outs => last outs = Some (EF (PVal 2%N)) | _ => False end) /\
  res_run true true N.eqb N.eqb [EOk 0 1%N; EErr 1 2%N; EOk 2 3%N; ECopyAssign 0 2; EMoveAssign 0 1; EUnwrap 0] rinit = Err UB /\
  (match res_run true true N.eqb N.eqb [EOk 0 1%N; EErr 1 2%N; EOk 2 3%N; ECopyAssign 0 2; EUnwrap 0] rinit with
   | Ok (outs, _) => last outs = Some (EV (PVal 3%N)) | _ => False end).
Proof. vm_compute. repeat split. Qed.

Print Assumptions C36_histories_exact.
