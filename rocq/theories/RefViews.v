(** * RefViews: references held by Option<T&> and Result<T&, E> (C85)

    Programs with plain variables of type T, [Option<T>] and [Result<T, E>]
    variables, and beside them [Option<T&>], [Result<T&, E>] and [Option<E&>]
    variables whose referents are those variables or the payloads inside those
    Options and Results.  The owners are the models of OptModel and ResModel;
    a reference is the place of an object, and using it looks at the union
    member stored there at that moment, so a reference to a payload that has
    been destroyed is [UB] to use until a new payload is constructed in the
    same place.

    Assigning through a reference replaces the value of the live object (it
    runs T's copy assignment; a moved-from object is given a value again).

    Not modelled: references to subobjects of T, the const overload of
    [ResultBase::ok_ref] (it does not compile when used), and
    [Result<T&, E>::unwrap_unchecked], which is inherited (result.h:225-227)
    and gives a pointer instead of a reference. *)
From Verif Require Import Base Machine OptModel OptProps ResModel ResProps.

(** Where an object of type T lies: a variable, or the payload of an Option or
    of a Result. *)
Inductive place := PlVar (k : nat) | PlOpt (i : nat) | PlRes (i : nat).
Global Instance place_eq_dec : EqDecision place.
Proof. solve_decision. Defined.

Record vst (V F : Type) := VSt {
  vvar : gmap nat (pay V);
  vopt : ost V;
  vres : rst V F;
  (* Option<T&>: option.h:333 the member [ptr] *)
  vref : gmap nat (option place);
  (* Result<T&, E>: result.h:477-479 a Result holding a pointer *)
  vrr : rst place F;
  (* Option<E&>, the referent being the error inside a Result *)
  veref : gmap nat (option nat) }.
Global Arguments VSt {V F} _ _ _ _ _ _.
Global Arguments vvar {V F} _.
Global Arguments vopt {V F} _.
Global Arguments vres {V F} _.
Global Arguments vref {V F} _.
Global Arguments vrr {V F} _.
Global Arguments veref {V F} _.
Definition vinit {V F} : vst V F := VSt ∅ oinit rinit ∅ rinit ∅.

Section Model.
  Context {V F : Type} (clsT clsE : bool) (eqT : V -> V -> bool) (eqE : F -> F -> bool).
  Notation st := (vst V F).

  Definition on_opt {A} (m : M (ost V) A) : M st A := fun s =>
    match m (vopt s) with
    | Ok (a, o) => Ok (a, VSt (vvar s) o (vres s) (vref s) (vrr s) (veref s))
    | Err e => Err e
    end.
  Definition on_res {A} (m : M (rst V F) A) : M st A := fun s =>
    match m (vres s) with
    | Ok (a, o) => Ok (a, VSt (vvar s) (vopt s) o (vref s) (vrr s) (veref s))
    | Err e => Err e
    end.
  Definition on_ref {A} (m : M (gmap nat (option place)) A) : M st A := fun s =>
    match m (vref s) with
    | Ok (a, o) => Ok (a, VSt (vvar s) (vopt s) (vres s) o (vrr s) (veref s))
    | Err e => Err e
    end.
  Definition on_rr {A} (m : M (rst place F) A) : M st A := fun s =>
    match m (vrr s) with
    | Ok (a, o) => Ok (a, VSt (vvar s) (vopt s) (vres s) (vref s) o (veref s))
    | Err e => Err e
    end.
  Definition on_eref {A} (m : M (gmap nat (option nat)) A) : M st A := fun s =>
    match m (veref s) with
    | Ok (a, o) => Ok (a, VSt (vvar s) (vopt s) (vres s) (vref s) (vrr s) o)
    | Err e => Err e
    end.

  (** A plain variable of type T: declared, read, assigned, gone. *)
  Definition var_new (k : nat) (v : V) : M st unit := fun s =>
    match vvar s !! k with
    | Some _ => Err UB
    | None => Ok (tt, VSt (<[k := PVal v]> (vvar s)) (vopt s) (vres s) (vref s) (vrr s) (veref s))
    end.
  Definition var_read (k : nat) : M st (pay V) := fun s =>
    match vvar s !! k with Some p => Ok (p, s) | None => Err UB end.
  Definition var_write (k : nat) (p : pay V) : M st unit := fun s =>
    match vvar s !! k with
    | Some _ => Ok (tt, VSt (<[k := p]> (vvar s)) (vopt s) (vres s) (vref s) (vrr s) (veref s))
    | None => Err UB
    end.
  Definition var_del (k : nat) : M st unit := fun s =>
    match vvar s !! k with
    | Some _ => Ok (tt, VSt (delete k (vvar s)) (vopt s) (vres s) (vref s) (vrr s) (veref s))
    | None => Err UB
    end.

  (** Reading and assigning the object at a place. *)
  Definition pl_read (a : place) : M st (pay V) :=
    match a with
    | PlVar k => var_read k
    | PlOpt i => on_opt (oread i)
    | PlRes i => on_res (read_t i)
    end.
  Definition pl_write (a : place) (p : pay V) : M st unit :=
    match a with
    | PlVar k => var_write k p
    | PlOpt i => on_opt (owrite i p)
    | PlRes i => on_res (write_t i p)
    end.

  (** option.h:50-66 [as_ref]: a reference to [value]; panics on None. *)
  Definition opt_as_ref (i : nat) : M (ost V) place :=
    b <-- o_is_some i ;; if b : bool then ret (PlOpt i) else fail Panic.
  (** result.h:306-312 [ok_ref]: a reference to the member [t]. *)
  Definition res_ok_ref (i : nat) : M (rst V F) (option place) :=
    r <-- res_get i ;; ret (if rtag r then Some (PlRes i) else None).
  (** result.h:352-366 [err_ref]: a reference to the member [e]. *)
  Definition res_err_ref (i : nat) : M (rst V F) (option nat) :=
    r <-- res_get i ;; ret (if rtag r then None else Some i).

  (** result.h:524-529 [Result<T&, E>::unwrap]: the referent; panics on Err. *)
  Definition rr_unwrap (w : nat) : M (rst place F) place :=
    r <-- res_get w ;;
    if rtag r then
      p <-- read_t w ;; match p with PVal a => ret a | PMoved => fail UB end
    else fail Panic.
  (** result.h:561-567 [ok_ref_unchecked], 539-545 [ok_unchecked]. *)
  Definition rr_ok_ref_unchecked (w : nat) : M (rst place F) place :=
    p <-- read_t w ;; match p with PVal a => ret a | PMoved => fail UB end.
  (** result.h:547-559 [ok_ref], 531-537 [ok]. *)
  Definition rr_ok_ref (w : nat) : M (rst place F) (option place) :=
    r <-- res_get w ;;
    if rtag r then a <-- rr_ok_ref_unchecked w ;; ret (Some a) else ret None.
  (** result.h:507-517 [operator==]: the referents are compared, not the
      addresses. *)
  Definition rr_eq (w x : nat) : M st bool :=
    a <-- on_rr (res_get w) ;; b <-- on_rr (res_get x) ;;
    if eqb (rtag a) (rtag b) then
      if rtag a then
        p <-- on_rr (rr_ok_ref_unchecked w) ;; q <-- on_rr (rr_ok_ref_unchecked x) ;;
        u <-- pl_read p ;; v <-- pl_read q ;; ret (peq eqT u v)
      else p <-- on_rr (read_e w) ;; q <-- on_rr (read_e x) ;; ret (peq eqE p q)
    else ret false.
End Model.

(** [VW] is restricted to what Result<T&, E> inherits unchanged. *)
Inductive vop (V F : Type) :=
| VNew (k : nat) (v : V) | VGet (k : nat) | VSet (k : nat) (v : V) | VKill (k : nat)
| VO (o : oop V) | VR (e : eop V F)
| VQ (r : rop place) | VW (e : eop place F)
| VAsRef (q i : nat) | VOkRef (q i : nat) | VErrRef (q i : nat) | VOkRefW (q w : nat)
| VReadQ (q : nat) | VWriteQ (q : nat) (v : V)
| VReadE (q : nat) | VWriteE (q : nat) (e : F)
| VUnwrapW (w : nat) | VReadW (w : nat) | VWriteW (w : nat) (v : V) | VEqW (w x : nat).
Global Arguments VNew {V F} _ _.
Global Arguments VGet {V F} _.
Global Arguments VSet {V F} _ _.
Global Arguments VKill {V F} _.
Global Arguments VO {V F} _.
Global Arguments VR {V F} _.
Global Arguments VQ {V F} _.
Global Arguments VW {V F} _.
Global Arguments VAsRef {V F} _ _.
Global Arguments VOkRef {V F} _ _.
Global Arguments VErrRef {V F} _ _.
Global Arguments VOkRefW {V F} _ _.
Global Arguments VReadQ {V F} _.
Global Arguments VWriteQ {V F} _ _.
Global Arguments VReadE {V F} _.
Global Arguments VWriteE {V F} _ _.
Global Arguments VUnwrapW {V F} _.
Global Arguments VReadW {V F} _.
Global Arguments VWriteW {V F} _ _.
Global Arguments VEqW {V F} _ _.

Inductive vout (V F : Type) :=
| XU | XB (b : bool) | XP (p : pay V) | XE (q : pay F) | XA (a : place)
| XO (o : oout V) | XR (o : eout V F) | XQ (o : rout place) | XW (o : eout place F).
Global Arguments XU {V F}.
Global Arguments XB {V F} _.
Global Arguments XP {V F} _.
Global Arguments XE {V F} _.
Global Arguments XA {V F} _.
Global Arguments XO {V F} _.
Global Arguments XR {V F} _.
Global Arguments XQ {V F} _.
Global Arguments XW {V F} _.

(** What Result<T&, E> hides by members of its own (result.h:507-567). *)
Definition hidden {V F} (e : eop V F) : bool :=
  match e with
  | EEq _ _ | EOkOpt _ | EOkU _ | EUnwrap _ | EUnwrapU _ => true
  | _ => false
  end.

Section Step.
  Context {V F : Type} (clsT clsE : bool) (eqT : V -> V -> bool) (eqE : F -> F -> bool).
  Definition vstep (o : vop V F) : M (vst V F) (vout V F) :=
    match o with
    | VNew k v => var_new k v ;;; ret XU
    | VGet k => p <-- var_read k ;; ret (XP p)
    | VSet k v => var_write k (PVal v) ;;; ret XU
    | VKill k => var_del k ;;; ret XU
    | VO o => x <-- on_opt (opt_step (negb clsT) o) ;; ret (XO x)
    | VR e => x <-- on_res (res_step clsT clsE eqT eqE e) ;; ret (XR x)
    | VQ r => x <-- on_ref (ro_step r) ;; ret (XQ x)
    (* result.h:481-505: everything else is the base class's, the payload
       being a pointer *)
    | VW e => x <-- on_rr (res_step false clsE (fun _ _ => false) eqE e) ;; ret (XW x)
    | VAsRef q i => a <-- on_opt (opt_as_ref i) ;; on_ref (rnew q (Some a)) ;;; ret XU
    | VOkRef q i => a <-- on_res (res_ok_ref i) ;; on_ref (rnew q a) ;;; ret XU
    | VErrRef q i => a <-- on_res (res_err_ref i) ;; on_eref (rnew q a) ;;; ret XU
    | VOkRefW q w => a <-- on_rr (rr_ok_ref w) ;; on_ref (rnew q a) ;;; ret XU
    | VReadQ q => a <-- on_ref (ro_as_ref q) ;; p <-- pl_read a ;; ret (XP p)
    | VWriteQ q v => a <-- on_ref (ro_as_ref q) ;; pl_write a (PVal v) ;;; ret XU
    | VReadE q => i <-- on_eref (ro_as_ref q) ;; p <-- on_res (read_e i) ;; ret (XE p)
    | VWriteE q e => i <-- on_eref (ro_as_ref q) ;; on_res (write_e i (PVal e)) ;;; ret XU
    | VUnwrapW w => a <-- on_rr (rr_unwrap w) ;; ret (XA a)
    | VReadW w => a <-- on_rr (rr_unwrap w) ;; p <-- pl_read a ;; ret (XP p)
    | VWriteW w v => a <-- on_rr (rr_ok_ref_unchecked w) ;; pl_write a (PVal v) ;;; ret XU
    | VEqW w x => b <-- rr_eq eqT eqE w x ;; ret (XB b)
    end.
  Definition vrun := run_ops vstep.
End Step.

(** ** Specification: owners are values, references are names of owners.

    [vs_res] and [vs_rr] are tagged sums, [mixed] as in ResProps: whether
    assigning a Result of the other variant is part of the history. *)
Record vspec (V F : Type) := VSpec {
  ss_var : gmap nat (pay V);
  ss_opt : gmap nat (option (pay V));
  ss_res : gmap nat (pay V + pay F);
  ss_ref : gmap nat (option place);
  ss_rr : gmap nat (pay place + pay F);
  ss_eref : gmap nat (option nat) }.
Global Arguments VSpec {V F} _ _ _ _ _ _.
Global Arguments ss_var {V F} _.
Global Arguments ss_opt {V F} _.
Global Arguments ss_res {V F} _.
Global Arguments ss_ref {V F} _.
Global Arguments ss_rr {V F} _.
Global Arguments ss_eref {V F} _.
Definition ss_init {V F} : vspec V F := VSpec ∅ ∅ ∅ ∅ ∅ ∅.

Section Spec.
  Context {V F : Type} (clsT clsE : bool) (eqT : V -> V -> bool) (eqE : F -> F -> bool) (mixed : bool).
  Notation sp := (vspec V F).

  (** The value of the object a reference names, if there is one now. *)
  Definition value_at (s : sp) (a : place) : option (pay V) :=
    match a with
    | PlVar k => ss_var s !! k
    | PlOpt i => match ss_opt s !! i with Some (Some p) => Some p | _ => None end
    | PlRes i => match ss_res s !! i with Some (inl p) => Some p | _ => None end
    end.
  (** The same program state but for the value of that object. *)
  Definition with_value (s : sp) (a : place) (v : V) : sp :=
    let '(VSpec x o r q w e) := s in
    match a with
    | PlVar k => VSpec (<[k := PVal v]> x) o r q w e
    | PlOpt i => VSpec x (<[i := Some (PVal v)]> o) r q w e
    | PlRes i => VSpec x o (<[i := inl (PVal v)]> r) q w e
    end.

  (** To name an object for a reference it must exist. *)
  Definition binds_ok (s : sp) (a : place) : bool := match value_at s a with Some _ => true | None => false end.

  Definition referent (s : sp) (q : nat) (k : place -> sres sp (vout V F)) : sres sp (vout V F) :=
    match ss_ref s !! q with Some (Some a) => k a | Some None => SPanic | None => SPre end.
  Definition new_ref (s : sp) (q : nat) (a : option place) : sres sp (vout V F) :=
    match ss_ref s !! q with
    | None => SOk (VSpec (ss_var s) (ss_opt s) (ss_res s) (<[q := a]> (ss_ref s)) (ss_rr s) (ss_eref s)) XU
    | Some _ => SPre
    end.
  Definition reading (s : sp) (a : place) : sres sp (vout V F) :=
    match value_at s a with Some p => SOk s (XP p) | None => SPre end.
  Definition writing (s : sp) (a : place) (v : V) : sres sp (vout V F) :=
    match value_at s a with Some _ => SOk (with_value s a v) XU | None => SPre end.

  Definition vsp_step (s : sp) (o : vop V F) : sres sp (vout V F) :=
    let '(VSpec x op r q w e) := s in
    match o with
    | VNew k v => match x !! k with None => SOk (VSpec (<[k := PVal v]> x) op r q w e) XU | _ => SPre end
    | VGet k => match x !! k with Some p => SOk s (XP p) | None => SPre end
    | VSet k v => match x !! k with Some _ => SOk (VSpec (<[k := PVal v]> x) op r q w e) XU | None => SPre end
    | VKill k => match x !! k with Some _ => SOk (VSpec (delete k x) op r q w e) XU | None => SPre end
    | VO o =>
        match opt_spec (negb clsT) op o with
        | SOk op' y => SOk (VSpec x op' r q w e) (XO y) | SPanic => SPanic | SPre => SPre
        end
    | VR o =>
        match res_spec clsT clsE eqT eqE mixed r o with
        | SOk r' y => SOk (VSpec x op r' q w e) (XR y) | SPanic => SPanic | SPre => SPre
        end
    | VQ o =>
        match o with
        | RSome _ a => if binds_ok s a then
            match ref_spec q o with
            | SOk q' y => SOk (VSpec x op r q' w e) (XQ y) | SPanic => SPanic | SPre => SPre
            end else SPre
        | _ =>
            match ref_spec q o with
            | SOk q' y => SOk (VSpec x op r q' w e) (XQ y) | SPanic => SPanic | SPre => SPre
            end
        end
    | VW o =>
        if hidden o || match o with EOk _ a => negb (binds_ok s a) | _ => false end then SPre else
        match res_spec false clsE (fun _ _ => false) eqE mixed w o with
        | SOk w' y => SOk (VSpec x op r q w' e) (XW y) | SPanic => SPanic | SPre => SPre
        end
    | VAsRef k i =>
        match op !! i with
        | Some (Some _) => new_ref s k (Some (PlOpt i)) | Some None => SPanic | None => SPre
        end
    | VOkRef k i =>
        match r !! i with
        | Some (inl _) => new_ref s k (Some (PlRes i)) | Some (inr _) => new_ref s k None | None => SPre
        end
    | VErrRef k i =>
        match r !! i, e !! k with
        | Some (inr _), None => SOk (VSpec x op r q w (<[k := Some i]> e)) XU
        | Some (inl _), None => SOk (VSpec x op r q w (<[k := None]> e)) XU
        | _, _ => SPre
        end
    | VOkRefW k i =>
        match w !! i with
        | Some (inl (PVal a)) => new_ref s k (Some a)
        | Some (inr _) => new_ref s k None
        | _ => SPre
        end
    | VReadQ k => referent s k (reading s)
    | VWriteQ k v => referent s k (fun a => writing s a v)
    | VReadE k =>
        match e !! k with
        | Some (Some i) => match r !! i with Some (inr y) => SOk s (XE y) | _ => SPre end
        | Some None => SPanic
        | None => SPre
        end
    | VWriteE k y =>
        match e !! k with
        | Some (Some i) =>
            match r !! i with
            | Some (inr _) => SOk (VSpec x op (<[i := inr (PVal y)]> r) q w e) XU | _ => SPre
            end
        | Some None => SPanic
        | None => SPre
        end
    | VUnwrapW i =>
        match w !! i with Some (inl (PVal a)) => SOk s (XA a) | Some (inr _) => SPanic | _ => SPre end
    | VReadW i =>
        match w !! i with Some (inl (PVal a)) => reading s a | Some (inr _) => SPanic | _ => SPre end
    | VWriteW i v =>
        match w !! i with Some (inl (PVal a)) => writing s a v | _ => SPre end
    | VEqW i j =>
        match w !! i, w !! j with
        | Some (inl (PVal a)), Some (inl (PVal b)) =>
            match value_at s a, value_at s b with
            | Some (PVal u), Some (PVal v) => SOk s (XB (eqT u v))
            | _, _ => SPre
            end
        | Some (inr (PVal u)), Some (inr (PVal v)) => SOk s (XB (eqE u v))
        | Some (inl _), Some (inr _) | Some (inr _), Some (inl _) => SOk s (XB false)
        | _, _ => SPre
        end
    end.
  Definition vsp_run := srun vsp_step.
End Spec.

Section Proofs.
  Context {V F : Type} (clsT clsE : bool) (eqT : V -> V -> bool) (eqE : F -> F -> bool).
  Notation sp := (vspec V F).
  Notation step := (vstep clsT clsE eqT eqE).
  Notation spec := (vsp_step clsT clsE eqT eqE false).

  Definition vrel (s : sp) (st : vst V F) : Prop :=
    vvar st = ss_var s /\ orel (ss_opt s) (vopt st) /\ rrel clsT clsE (ss_res s) (vres st) /\
    vref st = ss_ref s /\ rrel false clsE (ss_rr s) (vrr st) /\ veref st = ss_eref s.

  Lemma ref_step_ok {A} (q : gmap nat (option A)) o : agrees eq (ro_step o q) (ref_spec q o).
  Proof.
    destruct o; simpl;
      unfold agrees, rnew, rget, rput, ro_unwrap, ro_unwrap_unchecked, ro_as_ref, ro_as_ref_uncheck,
        ro_map, ro_copy_ctor, ro_copy_assign, ro_move_ctor, ro_move_assign, rget, rput, rnew, bind,
        ret, fail.
    all: try (destruct (q !! i) as [[]|] eqn:Ei; simpl; try done; eauto; fail).
    - destruct (q !! i) eqn:Ei; simpl; [|done]. destruct (q !! j); simpl; eauto.
    - destruct (q !! j) eqn:Ej; simpl; [|done]. destruct (q !! i); simpl; eauto.
    - destruct (q !! i) eqn:Ei; simpl; [|done]. destruct (q !! j); simpl; eauto.
    - destruct (q !! j) eqn:Ej; simpl; [|done]. destruct (q !! i); simpl; eauto.
    - destruct (q !! i) eqn:Ei; simpl; [|done]. destruct (q !! j) eqn:Ej; simpl; [|done].
      destruct (i =? j)%nat eqn:E; simpl; [eauto|]. rewrite Ej. eauto.
  Qed.

  (** The owners' relations give what is stored at a place. *)
  Lemma orel_get (s : gmap nat (option (pay V))) st i : orel s st -> ovars st !! i = conc <$> s !! i.
  Proof. intros [-> _]. apply lookup_fmap. Qed.
  Lemma rrel_get {X} ct ce (s : gmap nat (pay X + pay F)) st i :
    rrel ct ce s st -> rvars st !! i = rconc <$> s !! i.
  Proof. intros [-> _]. apply lookup_fmap. Qed.

  Lemma pl_read_ok s st a p : vrel s st -> value_at s a = Some p -> pl_read a st = Ok (p, st).
  Proof.
    intros (Hx & Ho & Hr & _) Ha. destruct st as [x o r q w e]; simpl in *.
    destruct a as [k|i|i]; simpl in *.
    - unfold var_read. simpl. by rewrite Hx, Ha.
    - destruct (ss_opt s !! i) as [[p'|]|] eqn:E; try done. injection Ha as ->.
      unfold on_opt, oread, oget, bind, ret. simpl.
      rewrite (orel_get _ _ _ Ho), E. simpl. by destruct o.
    - destruct (ss_res s !! i) as [[p'|]|] eqn:E; try done. injection Ha as ->.
      unfold on_res, read_t, res_get, bind, ret. simpl.
      rewrite (rrel_get _ _ _ _ _ Hr), E. simpl. by destruct r.
  Qed.
  Lemma pl_write_ok s st a p v : vrel s st -> value_at s a = Some p ->
    exists st', pl_write a (PVal v) st = Ok (tt, st') /\ vrel (with_value s a v) st'.
  Proof.
    intros (Hx & Ho & Hr & Hq & Hw & He) Ha. destruct st as [x o r q w e], s as [sx so sr sq sw se]; simpl in *.
    destruct a as [k|i|i]; simpl in *.
    - unfold var_write. simpl. rewrite Hx, Ha. eexists. split; [done|].
      repeat split; simpl; try done; try apply Ho; try apply Hr; try apply Hw.
    - destruct (so !! i) as [[p'|]|] eqn:E; try done.
      unfold on_opt, owrite, oget, oput, bind, ret. simpl.
      rewrite (orel_get _ _ _ Ho), E. simpl. eexists. split; [done|].
      split; [done|]. split; [|done]. destruct Ho as [Ho1 Ho2]. split; simpl.
      + rewrite Ho1, fmap_insert. done.
      + pose proof (mcount_insert is_someb so i _ (Some (PVal v)) E). simpl in *. lia.
    - destruct (sr !! i) as [[p'|]|] eqn:E; try done.
      unfold on_res, write_t, res_get, res_put, bind, ret. simpl.
      rewrite (rrel_get _ _ _ _ _ Hr), E. simpl. eexists. split; [done|].
      split; [done|]. split; [done|]. split; [|done]. destruct Hr as [Hr1 Hr2]. split; simpl.
      + rewrite Hr1, fmap_insert. done.
      + pose proof (mcount_insert (v_cls clsT clsE) sr i _ (inl (PVal v)) E). simpl in *. lia.
  Qed.

  (** Reading state without changing it, for each group of variables. *)
  Lemma on_opt_ok {A} (m : M (ost V) A) (st : vst V F) a : m (vopt st) = Ok (a, vopt st) -> on_opt m st = Ok (a, st).
  Proof. intros H. unfold on_opt. rewrite H. by destruct st. Qed.
  Lemma on_res_ok {A} (m : M (rst V F) A) (st : vst V F) a : m (vres st) = Ok (a, vres st) -> on_res m st = Ok (a, st).
  Proof. intros H. unfold on_res. rewrite H. by destruct st. Qed.
  Lemma on_ref_ok {A} (m : M (gmap nat (option place)) A) (st : vst V F) a :
    m (vref st) = Ok (a, vref st) -> on_ref m st = Ok (a, st).
  Proof. intros H. unfold on_ref. rewrite H. by destruct st. Qed.
  Lemma on_rr_ok {A} (m : M (rst place F) A) (st : vst V F) a : m (vrr st) = Ok (a, vrr st) -> on_rr m st = Ok (a, st).
  Proof. intros H. unfold on_rr. rewrite H. by destruct st. Qed.
  Lemma on_eref_ok {A} (m : M (gmap nat (option nat)) A) (st : vst V F) a :
    m (veref st) = Ok (a, veref st) -> on_eref m st = Ok (a, st).
  Proof. intros H. unfold on_eref. rewrite H. by destruct st. Qed.

  Lemma new_ref_ok s st q a : vrel s st ->
    agrees vrel ((on_ref (rnew q a) ;;; ret XU) st) (new_ref s q a).
  Proof.
    intros (Hx & Ho & Hr & Hq & Hw & He). destruct st as [x o r qq w e], s as [sx so sr sq sw se]; simpl in *.
    unfold agrees, new_ref, on_ref, rnew, bind, ret. simpl. rewrite Hq.
    destruct (sq !! q); [done|]. eexists. split; [done|]. split; [done|]. split; [done|]. split; [done|]. by split.
  Qed.

  Lemma rr_get (s : sp) (st : vst V F) w : rrel false clsE (ss_rr s) (vrr st) ->
    res_get w (vrr st) = match ss_rr s !! w with Some x => Ok (rconc x, vrr st) | None => Err UB end.
  Proof. intros H. unfold res_get. rewrite (rrel_get _ _ _ _ _ H). by destruct (ss_rr s !! w). Qed.
  Lemma rr_unchecked_ok (s : sp) (st : vst V F) w a : rrel false clsE (ss_rr s) (vrr st) -> ss_rr s !! w = Some (inl (PVal a)) ->
    rr_ok_ref_unchecked w (vrr st) = Ok (a, vrr st).
  Proof.
    intros H E. unfold rr_ok_ref_unchecked, read_t, bind. rewrite (rr_get _ _ _ H), E. done.
  Qed.
  Lemma rr_unwrap_ok (s : sp) (st : vst V F) w a : rrel false clsE (ss_rr s) (vrr st) -> ss_rr s !! w = Some (inl (PVal a)) ->
    rr_unwrap w (vrr st) = Ok (a, vrr st).
  Proof.
    intros H E. unfold rr_unwrap, read_t, bind. rewrite (rr_get _ _ _ H), E. simpl.
    by rewrite (rr_get _ _ _ H), E.
  Qed.
  Lemma rr_unwrap_panics (s : sp) (st : vst V F) w q : rrel false clsE (ss_rr s) (vrr st) -> ss_rr s !! w = Some (inr q) ->
    rr_unwrap w (vrr st) = Err Panic.
  Proof. intros H E. unfold rr_unwrap, bind. by rewrite (rr_get _ _ _ H), E. Qed.

  Lemma reading_ok s st a : vrel s st ->
    agrees vrel ((p <-- pl_read a ;; ret (XP p)) st) (reading s a).
  Proof.
    intros H. unfold reading, agrees. destruct (value_at s a) eqn:E; [|done].
    exists st. split; [|done]. unfold bind. by rewrite (pl_read_ok _ _ _ _ H E).
  Qed.
  Lemma writing_ok s st a v : vrel s st ->
    agrees vrel ((pl_write a (PVal v) ;;; ret XU) st) (writing s a v).
  Proof.
    intros H. unfold writing, agrees. destruct (value_at s a) eqn:E; [|done].
    destruct (pl_write_ok _ _ _ _ v H E) as (st' & E' & H'). exists st'. split; [|done].
    unfold bind. by rewrite E'.
  Qed.

  Lemma vstep_ok s st o : vrel s st -> agrees vrel (step o st) (spec s o).
  Proof.
    intros H. pose proof H as (Hx & Ho & Hr & Hq & Hw & He).
    destruct s as [sx so sr sq sw se]. simpl in *.
    destruct o as [k v|k|k v|k|o|o|o|o|q i|q i|q i|q w|q|q v|q|q y|w|w|w v|w x].
    - simpl. unfold var_new, bind. rewrite Hx. destruct (sx !! k); [done|]. eexists. by split.
    - simpl. unfold var_read, bind. rewrite Hx. destruct (sx !! k); [|done]. eexists. by split.
    - simpl. unfold var_write, bind. rewrite Hx. destruct (sx !! k); [|done]. eexists. by split.
    - simpl. unfold var_del, bind. rewrite Hx. destruct (sx !! k); [|done]. eexists. by split.
    - simpl. pose proof (opt_step_ok (negb clsT) so (vopt st) o Ho) as K. unfold agrees, bind, on_opt in *.
      destruct (opt_spec _ so o) as [so' y| |]; [|by rewrite K|done].
      destruct K as (o' & -> & K). eexists. by split.
    - simpl. pose proof (res_step_ok clsT clsE eqT eqE sr (vres st) o Hr) as K. unfold agrees, bind, on_res in *.
      destruct (res_spec _ _ _ _ _ sr o) as [sr' y| |]; [|by rewrite K|done].
      destruct K as (o' & -> & K). eexists. by split.
    - assert (K : agrees vrel ((x <-- on_ref (ro_step o) ;; ret (XQ x)) st)
        (match ref_spec sq o with
         | SOk q' y => SOk (VSpec sx so sr q' sw se) (XQ y) | SPanic => SPanic | SPre => SPre
         end : sres sp (vout V F))).
      { pose proof (ref_step_ok sq o) as K. unfold agrees, bind, on_ref in *. rewrite Hq.
        destruct (ref_spec sq o) as [sq' y| |]; [|by rewrite K|done].
        destruct K as (o' & -> & <-). eexists. by split. }
      simpl vstep. destruct o; try exact K. simpl vsp_step.
      destruct (binds_ok _ a); [exact K|done].
    - simpl. destruct (hidden o || _) eqn:Eh; [done|].
      pose proof (res_step_ok false clsE (fun _ _ => false) eqE sw (vrr st) o Hw) as K. unfold agrees, bind, on_rr in *.
      destruct (res_spec _ _ _ _ _ sw o) as [sw' y| |]; [|by rewrite K|done].
      destruct K as (o' & -> & K). eexists. by split.
    - simpl. pose proof (orel_get _ _ i Ho) as G. simpl in G.
      destruct (so !! i) as [[p|]|] eqn:E; [| |done]; simpl in G.
      + assert (K : on_opt (opt_as_ref i) st = Ok (PlOpt i, st)).
        { apply on_opt_ok. unfold opt_as_ref, o_is_some, oget, bind. by rewrite G. }
        unfold bind at 1. rewrite K. by apply new_ref_ok.
      + unfold agrees, bind, on_opt, opt_as_ref, o_is_some, oget, bind. by rewrite G.
    - simpl. pose proof (rrel_get _ _ _ _ i Hr) as G. simpl in G.
      destruct (sr !! i) as [[p|p]|] eqn:E; [| |done]; simpl in G;
        [assert (K : on_res (res_ok_ref i) st = Ok (Some (PlRes i), st))
        |assert (K : on_res (res_ok_ref i) st = Ok (None, st))];
        try (apply on_res_ok; unfold res_ok_ref, res_get, bind; by rewrite G);
        unfold bind at 1; rewrite K; by apply new_ref_ok.
    - simpl. pose proof (rrel_get _ _ _ _ i Hr) as G. simpl in G.
      destruct (sr !! i) as [[p|p]|] eqn:E; [| |done]; simpl in G;
        (destruct (se !! q) eqn:Eq; [done|]);
        [assert (K : on_res (res_err_ref i) st = Ok (None, st))
        |assert (K : on_res (res_err_ref i) st = Ok (Some i, st))];
        try (apply on_res_ok; unfold res_err_ref, res_get, bind; by rewrite G);
        unfold bind at 1; rewrite K; unfold on_eref, rnew, bind; simpl; rewrite He, Eq;
        (eexists; split; [done|]); repeat (split; [done|]); done.
    - simpl. destruct (sw !! w) as [[[a|]|p]|] eqn:E; [|done| |done].
      + assert (K : on_rr (rr_ok_ref w) st = Ok (Some a, st)).
        { apply on_rr_ok. unfold rr_ok_ref, bind.
          rewrite (rr_get (VSpec sx so sr sq sw se) st w Hw). simpl. rewrite E. simpl.
          by rewrite (rr_unchecked_ok (VSpec sx so sr sq sw se) st w a Hw E). }
        unfold bind at 1. rewrite K. by apply new_ref_ok.
      + assert (K : on_rr (rr_ok_ref w) st = Ok (None, st)).
        { apply on_rr_ok. unfold rr_ok_ref, bind.
          rewrite (rr_get (VSpec sx so sr sq sw se) st w Hw). simpl. by rewrite E. }
        unfold bind at 1. rewrite K. by apply new_ref_ok.
    - simpl. unfold referent. simpl. destruct (sq !! q) as [[a|]|] eqn:E; [| |done].
      + assert (K : on_ref (ro_as_ref q) st = Ok (a, st)).
        { apply on_ref_ok. unfold ro_as_ref, rget, bind. by rewrite Hq, E. }
        unfold bind at 1. rewrite K. by apply reading_ok.
      + unfold agrees, bind, on_ref, ro_as_ref, rget, bind. by rewrite Hq, E.
    - simpl. unfold referent. simpl. destruct (sq !! q) as [[a|]|] eqn:E; [| |done].
      + assert (K : on_ref (ro_as_ref q) st = Ok (a, st)).
        { apply on_ref_ok. unfold ro_as_ref, rget, bind. by rewrite Hq, E. }
        unfold bind at 1. rewrite K. by apply writing_ok.
      + unfold agrees, bind, on_ref, ro_as_ref, rget, bind. by rewrite Hq, E.
    - simpl. destruct (se !! q) as [[i|]|] eqn:E; [| |done].
      + assert (K : on_eref (ro_as_ref q) st = Ok (i, st)).
        { apply on_eref_ok. unfold ro_as_ref, rget, bind. by rewrite He, E. }
        unfold bind at 1. rewrite K. pose proof (rrel_get _ _ _ _ i Hr) as G. simpl in G.
        destruct (sr !! i) as [[p|p]|] eqn:Ei; try done. simpl in G.
        assert (K2 : on_res (read_e i) st = Ok (p, st)).
        { apply on_res_ok. unfold read_e, res_get, bind. by rewrite G. }
        unfold bind. rewrite K2. exists st. by split.
      + unfold agrees, bind, on_eref, ro_as_ref, rget, bind. by rewrite He, E.
    - simpl. destruct (se !! q) as [[i|]|] eqn:E; [| |done].
      + assert (K : on_eref (ro_as_ref q) st = Ok (i, st)).
        { apply on_eref_ok. unfold ro_as_ref, rget, bind. by rewrite He, E. }
        unfold bind at 1. rewrite K. pose proof (rrel_get _ _ _ _ i Hr) as G. simpl in G.
        destruct (sr !! i) as [[p|p]|] eqn:Ei; try done. simpl in G.
        unfold agrees, bind, on_res, write_e, res_get, res_put, bind. rewrite G. simpl.
        eexists. split; [done|]. split; [done|]. split; [done|]. split; [|by split].
        destruct Hr as [Hr1 Hr2]. split; simpl.
        * rewrite Hr1, fmap_insert. done.
        * pose proof (mcount_insert (v_cls clsT clsE) sr i _ (inr (PVal y)) Ei). simpl in *. lia.
      + unfold agrees, bind, on_eref, ro_as_ref, rget, bind. by rewrite He, E.
    - simpl. destruct (sw !! w) as [[[a|]|p]|] eqn:E; [|done| |done].
      + unfold bind. rewrite (on_rr_ok _ _ _ (rr_unwrap_ok (VSpec sx so sr sq sw se) st w a Hw E)).
        exists st. by split.
      + unfold agrees, bind, on_rr. by rewrite (rr_unwrap_panics (VSpec sx so sr sq sw se) st w p Hw E).
    - simpl. destruct (sw !! w) as [[[a|]|p]|] eqn:E; [|done| |done].
      + unfold bind at 1. rewrite (on_rr_ok _ _ _ (rr_unwrap_ok (VSpec sx so sr sq sw se) st w a Hw E)).
        by apply reading_ok.
      + unfold agrees, bind, on_rr. by rewrite (rr_unwrap_panics (VSpec sx so sr sq sw se) st w p Hw E).
    - simpl. destruct (sw !! w) as [[[a|]|p]|] eqn:E; try done.
      unfold bind at 1. rewrite (on_rr_ok _ _ _ (rr_unchecked_ok (VSpec sx so sr sq sw se) st w a Hw E)).
      by apply writing_ok.
    - pose (S := VSpec sx so sr sq sw se). simpl vstep. simpl vsp_step.
      assert (G : forall k z, sw !! k = Some z -> on_rr (res_get k) st = Ok (rconc z, st)).
      { intros k z Ek. apply on_rr_ok. rewrite (rr_get S st k Hw). simpl. by rewrite Ek. }
      assert (GE : forall k z, sw !! k = Some (inr z) -> on_rr (read_e k) st = Ok (z, st)).
      { intros k z Ek. apply on_rr_ok. unfold read_e, bind. rewrite (rr_get S st k Hw). simpl. by rewrite Ek. }
      destruct (sw !! w) as [a|] eqn:Ea; [|done]. destruct (sw !! x) as [b|] eqn:Eb; [|by destruct a as [[]|[]]].
      unfold bind at 1. unfold rr_eq. unfold bind at 1. rewrite (G _ _ Ea). unfold bind at 1. rewrite (G _ _ Eb).
      destruct a as [[a|]|[a|]], b as [[b|]|[b|]]; try done; try (exists st; by split); simpl.
      + change (VSpec sx so sr sq sw se) with S.
        destruct (value_at S a) as [[u|]|] eqn:Va; [|done|done].
        destruct (value_at S b) as [[v|]|] eqn:Vb; [|done|done].
        unfold bind at 1. rewrite (on_rr_ok _ _ _ (rr_unchecked_ok S st w a Hw Ea)).
        unfold bind at 1. rewrite (on_rr_ok _ _ _ (rr_unchecked_ok S st x b Hw Eb)).
        unfold bind at 1. rewrite (pl_read_ok S st a _ H Va).
        unfold bind at 1. rewrite (pl_read_ok S st b _ H Vb). simpl.
        exists st. by split.
      + unfold bind at 1. rewrite (GE _ _ Ea). unfold bind at 1. rewrite (GE _ _ Eb). simpl.
        exists st. by split.
  Qed.

  Lemma vrun_ok ops : agrees vrel (vrun clsT clsE eqT eqE ops vinit) (vsp_run clsT clsE eqT eqE false ss_init ops).
  Proof.
    apply srun_refines; [intros; by apply vstep_ok|].
    split; [done|]. split; [split; simpl; [by rewrite fmap_empty|by rewrite mcount_empty]|].
    split; [apply rrel_init|]. split; [done|]. split; [apply rrel_init|done].
  Qed.
End Proofs.

(** ** C85: references held in an Option or a Result are references *)
Definition C85_full (V F : Type) : Prop :=
  forall clsT clsE (eqT : V -> V -> bool) (eqE : F -> F -> bool) ops,
    match vsp_run clsT clsE eqT eqE true ss_init ops with
    | SOk _ outs => exists st, vrun clsT clsE eqT eqE ops vinit = Ok (outs, st)
    | SPanic => vrun clsT clsE eqT eqE ops vinit = Err Panic
    | SPre => True
    end.

Section C85.
  Context {V F : Type} (clsT clsE : bool) (eqT : V -> V -> bool) (eqE : F -> F -> bool).
  Notation run ops := (vrun clsT clsE eqT eqE ops vinit).
  Notation spec ops := (vsp_run clsT clsE eqT eqE false ss_init ops).
  Implicit Types ops : list (vop V F).

  (** Every history in which no Result is assigned one of the other variant:
      what the program sees is what the specification says, and the payloads
      of the owners are destroyed exactly once. *)
  Theorem C85_histories_partial ops :
    match spec ops with
    | SOk s outs =>
        exists st, run ops = Ok (outs, st) /\
          octor (vopt st) = (odtor (vopt st) + mcount is_someb (ss_opt s))%N /\
          rctor (vres st) = (rdtor (vres st) + mcount (v_cls clsT clsE) (ss_res s))%N
    | SPanic => run ops = Err Panic
    | SPre => True
    end.
  Proof using Type.
    pose proof (vrun_ok clsT clsE eqT eqE ops) as H. unfold agrees in H.
    destruct (spec ops) as [s outs| |]; [|done|done].
    destruct H as (st & E & _ & [_ Ho] & [_ Hr] & _). exists st. auto.
  Qed.

  Lemma spec_then ops l s outs : spec ops = SOk s outs ->
    match srun (vsp_step clsT clsE eqT eqE false) s l with
    | SOk _ o2 => exists st, run (ops ++ l) = Ok (outs ++ o2, st)
    | SPanic => run (ops ++ l) = Err Panic
    | SPre => True
    end.
  Proof using Type.
    intros H. pose proof (C85_histories_partial (ops ++ l)) as K. unfold vsp_run in *.
    rewrite (srun_app _ _ _ _ _ _ H) in K. destruct (srun _ s l); [|done|done].
    destruct K as (st & ? & _). by exists st.
  Qed.

  Lemma vrun_then ops o st0 st outs : vrun clsT clsE eqT eqE ops st0 = Ok (outs, st) ->
    vrun clsT clsE eqT eqE (ops ++ [o]) st0 =
      match vstep clsT clsE eqT eqE o st with Ok (y, st') => Ok (outs ++ [y], st') | Err e => Err e end.
  Proof using Type.
    revert st0 st outs. induction ops as [|x ops IH]; intros st0 st outs; unfold vrun; simpl; unfold bind, ret.
    - intros [= <- <-]. by destruct (vstep _ _ _ _ o st0) as [[]|].
    - destruct (vstep _ _ _ _ x st0) as [[y st1]|]; [|done].
      destruct (run_ops _ ops st1) as [[ys st2]|] eqn:E; [|done]. intros [= <- <-].
      fold (vrun clsT clsE eqT eqE) in *. rewrite (IH _ _ _ E).
      by destruct (vstep _ _ _ _ o st2) as [[]|].
  Qed.

  (** How the owner itself shows its object. *)
  Definition owner_read (a : place) : vop V F :=
    match a with PlVar k => VGet k | PlOpt i => VO (OAsRef i) | PlRes i => VR (EOkU i) end.
  Definition owner_shows (a : place) (p : pay V) : vout V F :=
    match a with PlVar _ => XP p | PlOpt _ => XO (OutP p) | PlRes _ => XR (EV p) end.

  Lemma owner_read_ok s a p : value_at s a = Some p ->
    vsp_step clsT clsE eqT eqE false s (owner_read a) = SOk s (owner_shows a p).
  Proof using Type.
    destruct s as [x o r q w e]. destruct a as [k|i|i]; simpl; intros H.
    - by rewrite H.
    - destruct (o !! i) as [[]|]; try done. by injection H as ->.
    - destruct (r !! i) as [[]|]; try done. by injection H as ->.
  Qed.
  Lemma value_with (s : vspec V F) a b v p : value_at s a = Some p ->
    value_at (with_value s a v) b = if decide (b = a) then Some (PVal v) else value_at s b.
  Proof using Type.
    destruct s as [x o r q w e]. intros H.
    destruct a as [k|k|k], b as [j|j|j]; simpl in *; repeat case_decide; simplify_eq; try done;
      rewrite ?lookup_insert; try done; rewrite lookup_insert_ne by congruence; done.
  Qed.
  Lemma refs_with (s : vspec V F) a v : ss_ref (with_value s a v) = ss_ref s /\ ss_rr (with_value s a v) = ss_rr s.
  Proof using Type. by destruct s, a. Qed.

  Lemma step_readq s q a p : ss_ref s !! q = Some (Some a) -> value_at s a = Some p ->
    vsp_step clsT clsE eqT eqE false s (VReadQ q) = SOk s (XP p).
  Proof using Type.
    intros Hq Hv. destruct s. simpl in *. unfold referent, reading. simpl. by rewrite Hq, Hv.
  Qed.
  Lemma step_writeq s q a p v : ss_ref s !! q = Some (Some a) -> value_at s a = Some p ->
    vsp_step clsT clsE eqT eqE false s (VWriteQ q v) = SOk (with_value s a v) XU.
  Proof using Type.
    intros Hq Hv. destruct s. simpl in *. unfold referent, writing. simpl. by rewrite Hq, Hv.
  Qed.
  Lemma step_readw s w a p : ss_rr s !! w = Some (inl (PVal a)) -> value_at s a = Some p ->
    vsp_step clsT clsE eqT eqE false s (VReadW w) = SOk s (XP p).
  Proof using Type.
    intros Hq Hv. destruct s. simpl in *. unfold reading. by rewrite Hq, Hv.
  Qed.
  Lemma step_writew s w a p v : ss_rr s !! w = Some (inl (PVal a)) -> value_at s a = Some p ->
    vsp_step clsT clsE eqT eqE false s (VWriteW w v) = SOk (with_value s a v) XU.
  Proof using Type.
    intros Hq Hv. destruct s. simpl in *. unfold writing. by rewrite Hq, Hv.
  Qed.

  Definition with_ref (s : vspec V F) (q : nat) (a : place) : vspec V F :=
    VSpec (ss_var s) (ss_opt s) (ss_res s) (<[q := Some a]> (ss_ref s)) (ss_rr s) (ss_eref s).
  Lemma step_asref s q i p : ss_opt s !! i = Some (Some p) -> ss_ref s !! q = None ->
    vsp_step clsT clsE eqT eqE false s (VAsRef q i) = SOk (with_ref s q (PlOpt i)) XU /\
    value_at (with_ref s q (PlOpt i)) (PlOpt i) = Some p /\
    ss_ref (with_ref s q (PlOpt i)) !! q = Some (Some (PlOpt i)).
  Proof using Type.
    intros Hi Hq. unfold with_ref. destruct s. simpl in *. rewrite Hi. unfold new_ref. simpl. rewrite Hq.
    by rewrite lookup_insert.
  Qed.
  Lemma step_okref s q i p : ss_res s !! i = Some (inl p) -> ss_ref s !! q = None ->
    vsp_step clsT clsE eqT eqE false s (VOkRef q i) = SOk (with_ref s q (PlRes i)) XU /\
    value_at (with_ref s q (PlRes i)) (PlRes i) = Some p /\
    ss_ref (with_ref s q (PlRes i)) !! q = Some (Some (PlRes i)).
  Proof using Type.
    intros Hi Hq. unfold with_ref. destruct s. simpl in *. rewrite Hi. unfold new_ref. simpl. rewrite Hq.
    by rewrite lookup_insert.
  Qed.

  (** A value assigned through an [Option<T&>] is the owner's value, is what
      every other reference to the same object reads, and changes no other
      object. *)
  Theorem C85_option_ref_partial ops s outs q a p v :
    spec ops = SOk s outs -> ss_ref s !! q = Some (Some a) -> value_at s a = Some p ->
    (exists st, run (ops ++ [VReadQ q; owner_read a]) = Ok (outs ++ [XP p; owner_shows a p], st)) /\
    (exists st, run (ops ++ [VWriteQ q v; VReadQ q; owner_read a]) =
                Ok (outs ++ [XU; XP (PVal v); owner_shows a (PVal v)], st)) /\
    (forall b p', b <> a -> value_at s b = Some p' ->
       exists st, run (ops ++ [VWriteQ q v; owner_read b]) = Ok (outs ++ [XU; owner_shows b p'], st)) /\
    (forall w b p', ss_rr s !! w = Some (inl (PVal b)) -> value_at s b = Some p' ->
       exists st, run (ops ++ [VWriteQ q v; VReadW w]) =
                  Ok (outs ++ [XU; XP (if decide (b = a) then PVal v else p')], st)).
  Proof using Type.
    intros H Hq Hv.
    assert (Hw : value_at (with_value s a v) a = Some (PVal v)).
    { rewrite (value_with _ _ _ _ _ Hv). by rewrite decide_True. }
    assert (Hq' : ss_ref (with_value s a v) !! q = Some (Some a)).
    { by rewrite (proj1 (refs_with s a v)). }
    split_and!.
    - pose proof (spec_then _ [VReadQ q; owner_read a] _ _ H) as K. cbn [srun] in K.
      rewrite (step_readq _ _ _ _ Hq Hv), (owner_read_ok _ _ _ Hv) in K. exact K.
    - pose proof (spec_then _ [VWriteQ q v; VReadQ q; owner_read a] _ _ H) as K. cbn [srun] in K.
      rewrite (step_writeq _ _ _ _ v Hq Hv), (step_readq _ _ _ _ Hq' Hw), (owner_read_ok _ _ _ Hw) in K.
      exact K.
    - intros b p' Hb Hp.
      assert (Hb' : value_at (with_value s a v) b = Some p').
      { rewrite (value_with _ _ _ _ _ Hv). by rewrite decide_False. }
      pose proof (spec_then _ [VWriteQ q v; owner_read b] _ _ H) as K. cbn [srun] in K.
      rewrite (step_writeq _ _ _ _ v Hq Hv), (owner_read_ok _ _ _ Hb') in K. exact K.
    - intros w b p' Hb Hp.
      assert (Hb' : value_at (with_value s a v) b = Some (if decide (b = a) then PVal v else p')).
      { rewrite (value_with _ _ _ _ _ Hv). by case_decide. }
      pose proof (spec_then _ [VWriteQ q v; VReadW w] _ _ H) as K. cbn [srun] in K.
      rewrite (step_writeq _ _ _ _ v Hq Hv) in K.
      rewrite (step_readw _ w b (if decide (b = a) then PVal v else p')) in K; [exact K| |done].
      by rewrite (proj2 (refs_with s a v)).
  Qed.

  (** The same for a [Result<T&, E>]. *)
  Theorem C85_result_ref_partial ops s outs w a p v :
    spec ops = SOk s outs -> ss_rr s !! w = Some (inl (PVal a)) -> value_at s a = Some p ->
    (exists st, run (ops ++ [VUnwrapW w; VReadW w; owner_read a]) =
                Ok (outs ++ [XA a; XP p; owner_shows a p], st)) /\
    (exists st, run (ops ++ [VWriteW w v; VReadW w; owner_read a]) =
                Ok (outs ++ [XU; XP (PVal v); owner_shows a (PVal v)], st)) /\
    (forall b p', b <> a -> value_at s b = Some p' ->
       exists st, run (ops ++ [VWriteW w v; owner_read b]) = Ok (outs ++ [XU; owner_shows b p'], st)) /\
    (forall q b p', ss_ref s !! q = Some (Some b) -> value_at s b = Some p' ->
       exists st, run (ops ++ [VWriteW w v; VReadQ q]) =
                  Ok (outs ++ [XU; XP (if decide (b = a) then PVal v else p')], st)).
  Proof using Type.
    intros H Hq Hv.
    assert (Hw : value_at (with_value s a v) a = Some (PVal v)).
    { rewrite (value_with _ _ _ _ _ Hv). by rewrite decide_True. }
    assert (Hq' : ss_rr (with_value s a v) !! w = Some (inl (PVal a))).
    { by rewrite (proj2 (refs_with s a v)). }
    assert (Hu : vsp_step clsT clsE eqT eqE false s (VUnwrapW w) = SOk s (XA a)).
    { destruct s. simpl in *. by rewrite Hq. }
    split_and!.
    - pose proof (spec_then _ [VUnwrapW w; VReadW w; owner_read a] _ _ H) as K. cbn [srun] in K.
      rewrite Hu, (step_readw _ _ _ _ Hq Hv), (owner_read_ok _ _ _ Hv) in K. exact K.
    - pose proof (spec_then _ [VWriteW w v; VReadW w; owner_read a] _ _ H) as K. cbn [srun] in K.
      rewrite (step_writew _ _ _ _ v Hq Hv), (step_readw _ _ _ _ Hq' Hw), (owner_read_ok _ _ _ Hw) in K.
      exact K.
    - intros b p' Hb Hp.
      assert (Hb' : value_at (with_value s a v) b = Some p').
      { rewrite (value_with _ _ _ _ _ Hv). by rewrite decide_False. }
      pose proof (spec_then _ [VWriteW w v; owner_read b] _ _ H) as K. cbn [srun] in K.
      rewrite (step_writew _ _ _ _ v Hq Hv), (owner_read_ok _ _ _ Hb') in K. exact K.
    - intros q b p' Hb Hp.
      assert (Hb' : value_at (with_value s a v) b = Some (if decide (b = a) then PVal v else p')).
      { rewrite (value_with _ _ _ _ _ Hv). by case_decide. }
      pose proof (spec_then _ [VWriteW w v; VReadQ q] _ _ H) as K. cbn [srun] in K.
      rewrite (step_writew _ _ _ _ v Hq Hv) in K.
      rewrite (step_readq _ q b (if decide (b = a) then PVal v else p')) in K; [exact K| |done].
      by rewrite (proj1 (refs_with s a v)).
  Qed.

  (** [as_ref], [ok_ref]: the reference obtained names the payload inside. *)
  Theorem C85_payload_partial ops s outs q i p v :
    spec ops = SOk s outs -> ss_ref s !! q = None ->
    (ss_opt s !! i = Some (Some p) ->
       exists st, run (ops ++ [VAsRef q i; VWriteQ q v; VO (OAsRef i)]) =
                  Ok (outs ++ [XU; XU; XO (OutP (PVal v))], st)) /\
    (ss_res s !! i = Some (inl p) ->
       exists st, run (ops ++ [VOkRef q i; VWriteQ q v; VR (EOkU i)]) =
                  Ok (outs ++ [XU; XU; XR (EV (PVal v))], st)).
  Proof using Type.
    intros H Hq. split; intros Hi.
    - pose proof (spec_then _ [VAsRef q i; VWriteQ q v; owner_read (PlOpt i)] _ _ H) as K. cbn [srun] in K.
      destruct (step_asref _ _ _ _ Hi Hq) as (Es & Ev & Er).
      rewrite Es, (step_writeq _ _ _ _ v Er Ev), (owner_read_ok _ (PlOpt i) (PVal v)) in K; [exact K|].
      rewrite (value_with _ _ _ _ _ Ev). by rewrite decide_True.
    - pose proof (spec_then _ [VOkRef q i; VWriteQ q v; owner_read (PlRes i)] _ _ H) as K. cbn [srun] in K.
      destruct (step_okref _ _ _ _ Hi Hq) as (Es & Ev & Er).
      rewrite Es, (step_writeq _ _ _ _ v Er Ev), (owner_read_ok _ (PlRes i) (PVal v)) in K; [exact K|].
      rewrite (value_with _ _ _ _ _ Ev). by rewrite decide_True.
  Qed.

  (** [err_ref] likewise names the error inside. *)
  Theorem C85_error_partial ops s outs q i y z :
    spec ops = SOk s outs -> ss_eref s !! q = None -> ss_res s !! i = Some (inr y) ->
    exists st, run (ops ++ [VErrRef q i; VReadE q; VWriteE q z; VReadE q; VR (EErrU i)]) =
               Ok (outs ++ [XU; XE y; XU; XE (PVal z); XR (EF (PVal z))], st).
  Proof using Type.
    intros H Hq Hi. destruct s as [x o r qq w e]. simpl in *.
    pose proof (spec_then _ [VErrRef q i; VReadE q; VWriteE q z; VReadE q; VR (EErrU i)] _ _ H) as K.
    cbn [srun vsp_step] in K.
    repeat (first [rewrite Hi in K | rewrite Hq in K | rewrite lookup_insert in K]; simpl in K). exact K.
  Qed.

  (** A reference is good exactly while its object is alive: used when the
      payload it named is gone, it is undefined behaviour. *)
  Theorem C85_dangling_partial ops s outs q a :
    spec ops = SOk s outs -> ss_ref s !! q = Some (Some a) ->
    (value_at s a = None <-> run (ops ++ [VReadQ q]) = Err UB).
  Proof using Type.
    intros H Hq.
    assert (Hlive : forall p, value_at s a = Some p -> run (ops ++ [VReadQ q]) <> Err UB).
    { intros p Hv. pose proof (spec_then _ [VReadQ q] _ _ H) as K. cbn [srun] in K.
      rewrite (step_readq _ _ _ _ Hq Hv) in K. destruct K as (st & ->). done. }
    split; [|intros E; destruct (value_at s a) eqn:Hv; [by destruct (Hlive _ eq_refl)|done]].
    intros Hv. pose proof (vrun_ok clsT clsE eqT eqE ops) as K. rewrite H in K.
    destruct K as (st & E & Hx & Ho & Hr & Hrf & _).
    rewrite (vrun_then _ _ _ _ _ E). clear Hlive H E.
    simpl. unfold bind at 1 2. rewrite (on_ref_ok (ro_as_ref q) st a).
    2:{ unfold ro_as_ref, rget, bind. by rewrite Hrf, Hq. }
    destruct a as [k|i|i]; simpl in *; unfold bind.
    - unfold var_read. by rewrite Hx, Hv.
    - unfold on_opt, oread, oget, bind. rewrite (orel_get _ _ i Ho).
      destruct (ss_opt s !! i) as [[]|]; done.
    - unfold on_res, read_t, res_get, bind. rewrite (rrel_get _ _ _ _ i Hr).
      destruct (ss_res s !! i) as [[]|]; done.
  Qed.

  (** Copying, moving, assigning, unwrapping or destroying an [Option<T&>] or
      a [Result<T&, E>] copies pointers only: no object of type T is touched,
      from whatever state. *)
  Theorem C85_rebinds o (st st' : vst V F) y :
    match o with VQ _ | VW _ | VAsRef _ _ | VOkRef _ _ | VErrRef _ _ | VOkRefW _ _ => True | _ => False end ->
    vstep clsT clsE eqT eqE o st = Ok (y, st') ->
    vvar st' = vvar st /\ vopt st' = vopt st /\ vres st' = vres st.
  Proof using Type.
    intros Hk E. destruct o; try done; simpl in E; unfold bind, on_ref, on_rr, on_opt, on_res, on_eref in E.
    - destruct (ro_step _ _) as [[]|]; [|done]. by injection E as <- <-.
    - destruct (res_step _ _ _ _ _ _) as [[]|]; [|done]. by injection E as <- <-.
    - destruct (opt_as_ref i (vopt st)) as [[a o]|] eqn:Ea; [|done]. simpl in E.
      destruct (rnew _ _ _) as [[]|]; [|done]. injection E as <- <-. simpl.
      unfold opt_as_ref, o_is_some, oget, bind in Ea. destruct (ovars (vopt st) !! i) as [x|]; [|done].
      simpl in Ea. destruct (ohold x); [|done]. by injection Ea as <- <-.
    - destruct (res_ok_ref i (vres st)) as [[a o]|] eqn:Ea; [|done]. simpl in E.
      destruct (rnew _ _ _) as [[]|]; [|done]. injection E as <- <-. simpl.
      unfold res_ok_ref, res_get, bind in Ea. destruct (rvars (vres st) !! i) as [x|]; [|done].
      by injection Ea as <- <-.
    - destruct (res_err_ref i (vres st)) as [[a o]|] eqn:Ea; [|done]. simpl in E.
      destruct (rnew _ _ _) as [[]|]; [|done]. injection E as <- <-. simpl.
      unfold res_err_ref, res_get, bind in Ea. destruct (rvars (vres st) !! i) as [x|]; [|done].
      by injection Ea as <- <-.
    - destruct (rr_ok_ref w (vrr st)) as [[a o]|]; [|done]. simpl in E.
      destruct (rnew _ _ _) as [[]|]; [|done]. by injection E as <- <-.
  Qed.

  (** Two [Result<T&, E>] are equal when the objects they refer to are equal
      now, wherever they are. *)
  Theorem C85_equality_partial ops s outs w x a b u v :
    spec ops = SOk s outs ->
    ss_rr s !! w = Some (inl (PVal a)) -> ss_rr s !! x = Some (inl (PVal b)) ->
    value_at s a = Some (PVal u) -> value_at s b = Some (PVal v) ->
    exists st, run (ops ++ [VEqW w x]) = Ok (outs ++ [XB (eqT u v)], st).
  Proof using Type.
    intros H Hw Hx Ha Hb. pose proof (spec_then _ [VEqW w x] _ _ H) as K.
    destruct s as [xx o r q ww e]. cbn [srun vsp_step] in K. simpl in *.
    rewrite Hw, Hx, Ha, Hb in K. exact K.
  Qed.
End C85.

(** With assignments between variants the claim is false: [w] refers to a
    variable, then it is assigned a Result that holds an error.  [w] still
    says it is Ok, and unwrapping it dereferences the bytes of the error as a
    pointer. *)
Theorem C85_refuted : ~ C85_full N N.
Proof.
  intros H.
  specialize (H false false N.eqb N.eqb
    [VNew 0%nat 5%N; VW (EOk 0%nat (PlVar 0)); VW (EErr 1%nat 7%N); VW (ECopyAssign 0%nat 1%nat); VReadW 0%nat]).
  vm_compute in H. discriminate H.
Qed.

(** A variable, an Option and a Result are written through references taken
    by [some], [as_ref], [ok_ref], copied and moved between Option<T&> and
    Result<T&, E>; equality follows the current values; the reference into the
    Option dangles after [unwrap] and is good again after a new payload. *)
Definition C85_ops : list (vop N N) :=
  [VNew 0%nat 5; VO (OSome 0%nat 6); VR (EOk 0%nat 7); VR (EErr 1%nat 9);
   VQ (RSome 0%nat (PlVar 0)); VAsRef 1%nat 0%nat; VOkRef 2%nat 0%nat; VErrRef 0%nat 1%nat;
   VWriteQ 0%nat 15; VWriteQ 1%nat 16; VWriteQ 2%nat 15; VWriteE 0%nat 19;
   VGet 0%nat; VO (OAsRef 0%nat); VR (EOkU 0%nat); VR (EErrU 1%nat);
   VW (EOk 0%nat (PlVar 0)); VW (EOk 1%nat (PlRes 0)); VEqW 0%nat 1%nat; VWriteW 0%nat 3; VEqW 0%nat 1%nat;
   VW (ECopyAssign 0%nat 1%nat); VGet 0%nat; VReadW 0%nat; VOkRefW 3%nat 0%nat; VQ (RMoveAssign 1%nat 3%nat);
   VWriteQ 1%nat 4; VR (EOkU 0%nat); VO (OAsRef 0%nat); VUnwrapW 0%nat;
   VAsRef 5%nat 0%nat; VO (OUnwrap 0%nat); VO (ONone 1%nat); VO (OSome 2%nat 8); VO (OMoveAssign 0%nat 2%nat);
   VReadQ 5%nat]%N.
Example C85_ex :
  match vsp_run true true N.eqb N.eqb false ss_init C85_ops with
  | SOk _ outs => outs = [XU; XO OutU; XR EU; XR EU; XQ ROutU; XU; XU; XU; XU; XU; XU; XU;
      XP (PVal 15%N); XO (OutP (PVal 16%N)); XR (EV (PVal 15%N)); XR (EF (PVal 19%N));
      XW EU; XW EU; XB true; XU; XB false; XW EU; XP (PVal 3%N); XP (PVal 15%N); XU; XQ ROutU;
      XU; XR (EV (PVal 4%N)); XO (OutP (PVal 16%N)); XA (PlRes 0); XU; XO (OutP (PVal 16%N)); XO OutU; XO OutU;
      XO OutU; XP (PVal 8%N)]
  | _ => False
  end.
Proof. by vm_compute. Qed.
(** The reference into the Option dangles right after [unwrap]. *)
Example C85_dangling_ex :
  match vsp_run true true N.eqb N.eqb false ss_init
    ([VO (OSome 0%nat 6%N); VAsRef 1%nat 0%nat; VO (OUnwrap 0%nat)] : list (vop N N)) with
  | SOk s _ => ss_ref s !! 1%nat = Some (Some (PlOpt 0)) /\ value_at s (PlOpt 0) = None
  | _ => False
  end.
Proof. by vm_compute. Qed.

Print Assumptions C85_histories_partial.
Print Assumptions C85_option_ref_partial.
Print Assumptions C85_result_ref_partial.
Print Assumptions C85_payload_partial.
Print Assumptions C85_error_partial.
Print Assumptions C85_dangling_partial.
Print Assumptions C85_rebinds.
Print Assumptions C85_equality_partial.
Print Assumptions C85_refuted.
