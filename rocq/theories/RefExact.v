(** * RefExact: every history of Options, Results and references, exactly

    No new model content; the code is that of OptModel, ResModel and RefViews
    (option.h, result.h).  C85 is proved for histories without assignments
    between different variants of a Result.  Here every history is covered: it
    is carried out, or panics, as it should, or has a first such assignment,
    after which the Result assigned to cannot be used. *)
From Verif Require Import Base Machine OptModel ResModel OptProps ResProps ResExact RefViews.

(** An assignment between variants, in any state: the payload of the source
    lies under the tag of the target. *)
Lemma mixed_at {V F : Type} clsT clsE (eqT : V -> V -> bool) (eqE : F -> F -> bool) s st i j a b op :
  rrel clsT clsE s st -> s !! i = Some a -> s !! j = Some b -> v_ok a <> v_ok b ->
  op = ECopyAssign i j \/ op = EMoveAssign i j ->
  exists st', res_step clsT clsE eqT eqE op st = Ok (EU, st') /\
    rvars st' !! i = Some (RObj (v_ok a) (match b with inl p => RsT p | inr q => RsE q end)).
Proof.
  intros [Hv Hc] Hi Hj Hab Hop. assert (Hne : i <> j) by congruence. destruct st as [vars c d]; simpl in Hv, Hc.
  assert (Hi' : vars !! i = Some (rconc a)) by (by rewrite Hv, lookup_fmap, Hi).
  assert (Hj' : vars !! j = Some (rconc b)) by (by rewrite Hv, lookup_fmap, Hj). clear Hv Hc Hi Hj s.
  assert (Hb : (i =? j)%nat = false) by by apply Nat.eqb_neq.
  destruct a as [p|p], b as [q|q]; simpl in Hab; try done; destruct Hop as [-> | ->];
    unfold res_step, via, res_copy_assign, res_move_assign; rewrite Hb; destruct clsT, clsE;
    unfold res_destroy, copy_impl, move_impl, destroy_t, destroy_e, move_t, move_e, construct_t, construct_e,
      read_t, read_e, write_t, write_e, rctick, rdtick, res_get, res_put, res_del, ret, fail, bind;
    repeat (csimpl; first [rewrite Hi' | rewrite Hj' | rewrite lookup_insert |
            rewrite (lookup_insert_ne _ i j) by done | rewrite (lookup_insert_ne _ j i) by done]);
    csimpl; eexists; (split; [done|]); csimpl; by rewrite ?lookup_insert.
Qed.

Section Exact.
  Context {V F : Type} (clsT clsE : bool) (eqT : V -> V -> bool) (eqE : F -> F -> bool).
  Notation spec m := (vsp_step (V := V) (F := F) clsT clsE eqT eqE m).
  Notation srun_ m := (vsp_run (V := V) (F := F) clsT clsE eqT eqE m ss_init).
  Notation step := (vstep clsT clsE eqT eqE).
  Notation run := (vrun clsT clsE eqT eqE).

  (** [o] assigns Result [i] a Result of the other variant: it returns, the
      Result keeps saying what it said, and what it says it holds cannot be had. *)
  Inductive unusable (st : vst V F) (o : vop V F) : Prop :=
  | U_owner i b st' : step o st = Ok (XR EU, st') -> step (VR (EIsOk i)) st' = Ok (XR (EB b), st') ->
      step (VR (if b then EUnwrap i else EUnwrapErr i)) st' = Err UB -> unusable st o
  | U_ref i b st' : step o st = Ok (XW EU, st') -> step (VW (EIsOk i)) st' = Ok (XW (EB b), st') ->
      step (if b then VUnwrapW i else VW (EUnwrapErr i)) st' = Err UB -> unusable st o.

  Definition mixes {X Y : Type} (m : gmap nat (pay X + pay Y)) (o : eop X Y) : Prop :=
    exists i j a b, (o = ECopyAssign i j \/ o = EMoveAssign i j) /\ m !! i = Some a /\ m !! j = Some b /\ v_ok a <> v_ok b.
  Definition mixing (s : vspec V F) (o : vop V F) : Prop :=
    match o with VR e => mixes (ss_res s) e | VW e => mixes (ss_rr s) e | _ => False end.

  Lemma vspec_restricts s o : spec false s o = spec true s o \/ spec false s o = SPre.
  Proof using Type.
    destruct s as [x op r q w e], o; try by left.
    - cbn [vsp_step]. destruct (spec_restricts clsT clsE eqT eqE r e0) as [-> | ->]; auto.
    - cbn [vsp_step]. destruct (_ || _); [by left|].
      destruct (spec_restricts false clsE (fun _ _ => false) eqE w e0) as [-> | ->]; auto.
  Qed.
  Lemma vspec_mixing s o : spec false s o = SPre -> spec true s o <> SPre -> mixing s o.
  Proof using Type.
    destruct s as [x op r q w e], o; try done; cbn [vsp_step mixing ss_res ss_rr].
    - intros H1 H2. apply (spec_mixed clsT clsE eqT eqE); [revert H1; cbn [ss_res ss_rr]; by destruct (res_spec _ _ _ _ false r e0)|].
      intros E. by rewrite E in H2.
    - destruct (_ || _); [done|]. intros H1 H2.
      apply (spec_mixed false clsE (fun _ _ => false) eqE); [revert H1; cbn [ss_res ss_rr]; by destruct (res_spec _ _ _ _ false w e0)|].
      intros E. by rewrite E in H2.
  Qed.
  Lemma mixing_unusable s st o : vrel clsT clsE s st -> mixing s o -> unusable st o.
  Proof using Type.
    intros (_ & _ & Hr & _ & Hw & _) Hm. destruct o; try done; destruct Hm as (i & j & a & b & Ho & Hi & Hj & Hab).
    - destruct (mixed_at clsT clsE eqT eqE _ _ _ _ _ _ _ Hr Hi Hj Hab Ho) as (st' & E & Hv).
      eapply (U_owner _ _ i (v_ok a)).
      + cbn [vstep]. unfold bind, on_res. by rewrite E.
      + cbn [vstep]. unfold bind, on_res. cbn [vres]. unfold res_step, via, res_is_ok, bind, res_get. rewrite Hv. done.
      + destruct a as [a|a], b as [b|b]; try done; cbn [vstep v_ok]; unfold bind, on_res; cbn [vres];
          unfold res_step, via, res_unwrap, res_unwrap_err, move_t, move_e, read_t, read_e, bind, res_get; rewrite Hv; cbn;
          try rewrite Hv; done.
    - destruct (mixed_at false clsE (fun _ _ => false) eqE _ _ _ _ _ _ _ Hw Hi Hj Hab Ho) as (st' & E & Hv).
      eapply (U_ref _ _ i (v_ok a)).
      + cbn [vstep]. unfold bind, on_rr. by rewrite E.
      + cbn [vstep]. unfold bind, on_rr. cbn [vrr]. unfold res_step, via, res_is_ok, bind, res_get. rewrite Hv. done.
      + destruct a as [a|a], b as [b|b]; try done; cbn [vstep v_ok]; unfold bind, on_rr; cbn [vrr];
          unfold rr_unwrap, res_step, via, res_unwrap_err, move_t, move_e, read_t, read_e, bind, res_get; rewrite Hv; cbn;
          try rewrite Hv; done.
  Qed.

  Theorem C85_histories_exact ops :
    match srun_ true ops with
    | SOk s outs => exists st, run ops vinit = Ok (outs, st)
    | SPanic => run ops vinit = Err Panic
    | SPre => True
    end \/
    exists pre o post s outs st, ops = pre ++ o :: post /\ srun_ false pre = SOk s outs /\
      run pre vinit = Ok (outs, st) /\ mixing s o /\ unusable st o.
  Proof using Type.
    destruct (srun_split (spec true) (spec false) ops vspec_restricts ss_init) as [E|(pre&o&post&s&outs&->&E&Eg&En)].
    - left. pose proof (C85_histories_partial clsT clsE eqT eqE ops) as H. unfold vsp_run in *. rewrite E in H.
      destruct (srun (spec true) ss_init ops); [|done|done]. destruct H as (st & ? & _). by exists st.
    - right. pose proof (vrun_ok clsT clsE eqT eqE pre) as H. unfold vsp_run in H. rewrite E in H.
      destruct H as (st & Er & Hrel). pose proof (vspec_mixing s o Eg En) as Hm.
      exists pre, o, post, s, outs, st. repeat (split; [done|]). by eapply mixing_unusable.
  Qed.
End Exact.

(** A Result<T&, E> is assigned a Result of the other variant: told apart from
    the same program with one of the same variant. *)
Definition C85_exact_ops (k : nat) : list (vop N N) :=
  [VNew 0%nat 5%N; VNew 1%nat 6%N; VW (EOk 0%nat (PlVar 0)); VW (EErr 1%nat 7%N); VW (EOk 2%nat (PlVar 1));
   VW (ECopyAssign 0%nat k); VReadW 0%nat].
Example C85_exact_ex :
  (match vsp_run false false N.eqb N.eqb true ss_init (C85_exact_ops 2), vrun false false N.eqb N.eqb (C85_exact_ops 2) vinit with
   | SOk _ outs, Ok (outs', _) => outs = outs' /\ last outs = Some (XP (PVal 6%N)) | _, _ => False end) /\
  (match vsp_run false false N.eqb N.eqb true ss_init (take 6 (C85_exact_ops 1)) with SOk _ _ => True | _ => False end) /\
  vrun false false N.eqb N.eqb (C85_exact_ops 1) vinit = Err UB.
Proof. vm_compute. repeat split. Qed.

Print Assumptions C85_histories_exact.
