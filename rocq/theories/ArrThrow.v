(** * ArrThrow: arrays when an operation of the elements throws (C93)

    include/mstl/collection/array.h:147-298.  RangeModel takes element
    operations to be total.  Here making an element (by default, by copying) and
    assigning one (by copying or moving) may throw; destructors may not.  In
    each call the first [k] of them succeed and the next one throws.  The
    conventions are those of OptThrow: a throwing construction makes nothing, a
    throwing assignment leaves its target, a throwing move leaves its source
    untouched or moved-from ([wrecks]); an exception that reaches a [noexcept]
    function ends the program, [Err Panic].

    The storage of an array is a row of slots, each empty or holding an element.
    What the language does when a constructor throws is written out: the
    elements made so far are destroyed, in reverse order ([x_build]); when the
    body of a constructor throws, all elements are ([built]).

    A type whose operations throw is a class, so default-initialising an element
    gives it a value ([dflt]); the indeterminate scalars of C28 do not occur.

    Simplified: [from_iter] and the owning iterator are not here; the elements of
    an initializer list and of a raw array exist in the caller, who made them. *)
From Verif Require Import Base Machine OptModel OptProps OptThrow.

Record xst (A : Type) := XSt { xarr : gmap nat (list (option (pay A))); xctor : N; xdtor : N }.
Global Arguments XSt {A} _ _ _.
Global Arguments xarr {A} _.
Global Arguments xctor {A} _.
Global Arguments xdtor {A} _.
Definition xinit {A} : xst A := XSt ∅ 0 0.

Section Model.
  Context {A : Type} (nn : nat) (dflt : A) (triv wrecks : bool).
  Notation st := (xst A).
  Notation TM := (TM st).

  (** ** Slots of [values], array.h:297: making, destroying, reading and assigning
      one element *)
  Definition x_slot (i pos : nat) (s : st) : option (option (pay A)) :=
    match xarr s !! i with Some sl => sl !! pos | None => None end.
  Definition x_put (i pos : nat) (p : option (pay A)) (s : st) : gmap nat (list (option (pay A))) :=
    match xarr s !! i with Some sl => <[i := <[pos := p]> sl]> (xarr s) | None => xarr s end.
  Definition x_cons (i pos : nat) (p : pay A) : M st unit := fun s =>
    match x_slot i pos s with
    | Some None => Ok (tt, XSt (x_put i pos (Some p) s) (xctor s + 1) (xdtor s))
    | _ => Err UB
    end.
  Definition x_dest (i pos : nat) : M st unit := fun s =>
    match x_slot i pos s with
    | Some (Some _) => Ok (tt, XSt (x_put i pos None s) (xctor s) (xdtor s + 1))
    | _ => Err UB
    end.
  Definition x_read (i pos : nat) : M st (pay A) := fun s =>
    match x_slot i pos s with Some (Some p) => Ok (p, s) | _ => Err UB end.
  Definition x_write (i pos : nat) (p : pay A) : M st unit := fun s =>
    match x_slot i pos s with
    | Some (Some _) => Ok (tt, XSt (x_put i pos (Some p) s) (xctor s) (xdtor s))
    | _ => Err UB
    end.
  (** The temporary [ele] of line 172. *)
  Definition x_tick : M st unit := fun s => Ok (tt, XSt (xarr s) (xctor s + 1) (xdtor s)).
  Definition x_untick : M st unit := fun s => Ok (tt, XSt (xarr s) (xctor s) (xdtor s + 1)).
  (** Storage for an array, without elements; and its end. *)
  Definition x_new (i : nat) : M st unit := fun s =>
    match xarr s !! i with
    | None => Ok (tt, XSt (<[i := replicate nn None]> (xarr s)) (xctor s) (xdtor s))
    | Some _ => Err UB
    end.
  Definition x_del (i : nat) : M st unit := fun s =>
    match xarr s !! i with
    | Some _ => Ok (tt, XSt (delete i (xarr s)) (xctor s) (xdtor s))
    | None => Err UB
    end.
  Definition x_nothing : M st unit := ret tt.

  (** ** What the language does *)
  (** array.h:297 [T values[N]]: made in order; if one throws, those made are
      destroyed in reverse order. *)
  Fixpoint x_build (n pos i : nat) (mk : nat -> TM unit) : TM unit :=
    match n with
    | O => tret tt
    | S n' => mk pos ~;; unwinding (x_build n' (S pos) i mk) (x_dest i pos)
    end.
  Fixpoint x_destroy (n i : nat) : M st unit :=
    match n with O => ret tt | S n' => x_dest i n' ;;; x_destroy n' i end.
  Definition x_default (i pos : nat) : TM unit := elem x_nothing (x_cons i pos (PVal dflt)).
  (** A constructor (164-183, 185, 201-206): the elements by [mk], then [body]. *)
  Definition built (i : nat) (mk : nat -> TM unit) (body : TM unit) : TM unit :=
    calm (x_new i) ~;;
    unwinding (x_build nn 0 i mk ~;; unwinding body (x_destroy nn i)) (x_del i).

  (** ** array.h *)
  (** 180-182, 192-194: [values[i] = raw[i]], [values[pos] = other.values[pos]]. *)
  Fixpoint x_assign (n pos i : nat) (rd : nat -> M st (pay A)) : TM unit :=
    match n with
    | O => tret tt
    | S n' => p <~ calm (rd pos) ;; elem x_nothing (x_write i pos p) ~;; x_assign n' (S pos) i rd
    end.
  (** 171-178: [for (T ele: list)] copies the element, moves it in, destroys it. *)
  Fixpoint x_list_loop (xs : list A) (pos i : nat) : TM unit :=
    match xs with
    | [] => tret tt
    | x :: r =>
        elem x_nothing x_tick ~;;
        unwinding (elem x_nothing (x_write i pos (PVal x))) x_untick ~;;
        calm x_untick ~;;
        if (nn <=? S pos)%nat then tret tt else x_list_loop r (S pos) i
    end.
  (** 203-205, 213-215: [values[pos] = std::move(other.values[pos])]. *)
  Definition x_wreck (j pos : nat) : M st unit :=
    if wrecks then p <-- x_read j pos ;; x_write j pos (left_behind triv p) else ret tt.
  Fixpoint x_move_loop (n pos i j : nat) : TM unit :=
    match n with
    | O => tret tt
    | S n' =>
        elem (x_wreck j pos) (p <-- x_read j pos ;; x_write j pos (left_behind triv p) ;;; x_write i pos p) ~;;
        x_move_loop n' (S pos) i j
    end.

  (** 164 [Array() = default] *)
  Definition x_dflt (i : nat) : TM unit := built i (x_default i) (tret tt).
  (** 165-178 *)
  Definition x_list (i : nat) (xs : list A) : TM unit :=
    built i (x_default i) (if (nn <? length xs)%nat then calm (fail Panic) else x_list_loop xs 0 i).
  (** 179-183; [raw] has exactly N elements. *)
  Definition x_raw (i : nat) (raw : list A) : TM unit :=
    built i (x_default i)
      (x_assign nn 0 i (fun pos => match raw !! pos with Some x => ret (PVal x) | None => fail UB end)).
  (** 185 [= default]: element by element. *)
  Definition x_copy (i j : nat) : TM unit :=
    built i (fun pos => p <~ calm (x_read j pos) ;; elem x_nothing (x_cons i pos p)) (tret tt).
  (** 186-196 *)
  Definition x_copy_assign (i j : nat) : TM unit :=
    if (i =? j)%nat then tret tt else x_assign nn 0 i (x_read j).
  (** 201-206 [noexcept] *)
  Definition x_move (i j : nat) : TM unit := noexcept (built i (x_default i) (x_move_loop nn 0 i j)).
  (** 207-218 [noexcept] *)
  Definition x_move_assign (i j : nat) : TM unit :=
    noexcept (if (i =? j)%nat then tret tt else x_move_loop nn 0 i j).
  (** 258-271: [a[pos] = x], [a[pos]]. *)
  Definition x_set (i : nat) (pos : nat) (x : A) : TM unit :=
    if (nn <=? pos)%nat then calm (fail Panic) else elem x_nothing (x_write i pos (PVal x)).
  Definition x_get (i : nat) (pos : nat) : TM (pay A) :=
    if (nn <=? pos)%nat then calm (fail Panic) else calm (x_read i pos).
  (** The implicit destructor: the elements in reverse order, then the storage. *)
  Definition x_end (i : nat) : TM unit := calm (x_destroy nn i ;;; x_del i).
End Model.

Inductive xop (A : Type) :=
| XNew (i : nat) | XList (i : nat) (xs : list A) | XRaw (i : nat) (xs : list A)
| XCopy (i j : nat) | XCopyAsg (i j : nat) | XMove (i j : nat) | XMoveAsg (i j : nat)
| XSet (i pos : nat) (x : A) | XGet (i pos : nat) | XEnd (i : nat).
Global Arguments XNew {A} _.
Global Arguments XList {A} _ _.
Global Arguments XRaw {A} _ _.
Global Arguments XCopy {A} _ _.
Global Arguments XCopyAsg {A} _ _.
Global Arguments XMove {A} _ _.
Global Arguments XMoveAsg {A} _ _.
Global Arguments XSet {A} _ _ _.
Global Arguments XGet {A} _ _.
Global Arguments XEnd {A} _.

Section Step.
  Context {A : Type} (nn : nat) (dflt : A) (triv wrecks : bool).
  Definition x_unit (m : TM (xst A) unit) : TM (xst A) (option (pay A)) := m ~;; tret None.
  (** One call in which [k] element operations succeed; [None] if it throws. *)
  Definition xa_step (ok : xop A * nat) : M (xst A) (option (option (pay A))) :=
    let '(o, k) := ok in with_k k
    match o with
    | XNew i => x_unit (x_dflt nn dflt i)
    | XList i xs => x_unit (x_list nn dflt i xs)
    | XRaw i xs => x_unit (x_raw nn dflt i xs)
    | XCopy i j => x_unit (x_copy nn i j)
    | XCopyAsg i j => x_unit (x_copy_assign nn i j)
    | XMove i j => x_unit (x_move nn dflt triv wrecks i j)
    | XMoveAsg i j => x_unit (x_move_assign nn triv wrecks i j)
    | XSet i pos x => x_unit (x_set nn i pos x)
    | XGet i pos => p <~ x_get nn i pos ;; tret (Some p)
    | XEnd i => x_unit (x_end nn i)
    end.
End Step.

(** ** Specification: an array is a sequence of [nn] values *)
Section Spec.
  Context {A : Type} (nn : nat) (dflt : A) (triv : bool).
  Notation sp := (gmap nat (list (pay A))).
  Notation res := (sres sp (option (option (pay A)))).
  Definition filled (xs : list A) : list (pay A) := (PVal <$> xs) ++ replicate (nn - length xs) (PVal dflt).
  (** A constructor with [n] element operations: all or nothing. *)
  Definition making (s : sp) (i : nat) (k n : nat) (v : list (pay A)) : res :=
    match s !! i with
    | Some _ => SPre
    | None => if (n <=? k)%nat then SOk (<[i := v]> s) (Some None) else SOk s None
    end.
  Definition xa_spec (s : sp) (ok : xop A * nat) : res :=
    let '(o, k) := ok in
    match o with
    | XNew i => making s i k nn (replicate nn (PVal dflt))
    | XList i xs =>
        if (nn <? length xs)%nat then
          match s !! i with Some _ => SPre | None => if (nn <=? k)%nat then SPanic else SOk s None end
        else making s i k (nn + 2 * length xs) (filled xs)
    | XRaw i xs => if (length xs =? nn)%nat then making s i k (nn + nn) (PVal <$> xs) else SPre
    | XCopy i j => match s !! j with Some b => making s i k nn b | None => SPre end
    | XCopyAsg i j =>
        match s !! i, s !! j with
        | Some a, Some b =>
            if (i =? j)%nat then SOk s (Some None)
            else if (nn <=? k)%nat then SOk (<[i := b]> s) (Some None)
            else SOk (<[i := take k b ++ drop k a]> s) None
        | _, _ => SPre
        end
    | XMove i j =>
        match s !! j, s !! i with
        | Some b, None =>
            if (nn + nn <=? k)%nat then SOk (<[i := b]> (<[j := left_behind triv <$> b]> s)) (Some None) else SPanic
        | _, _ => SPre
        end
    | XMoveAsg i j =>
        match s !! i, s !! j with
        | Some a, Some b =>
            if (i =? j)%nat then SOk s (Some None)
            else if (nn <=? k)%nat then SOk (<[i := b]> (<[j := left_behind triv <$> b]> s)) (Some None) else SPanic
        | _, _ => SPre
        end
    | XSet i pos x =>
        match s !! i with
        | Some a => if (nn <=? pos)%nat then SPanic
                    else match k with O => SOk s None | S _ => SOk (<[i := <[pos := PVal x]> a]> s) (Some None) end
        | None => SPre
        end
    | XGet i pos =>
        match s !! i with
        | Some a => if (nn <=? pos)%nat then SPanic else SOk s (Some (a !! pos))
        | None => SPre
        end
    | XEnd i => match s !! i with Some _ => SOk (delete i s) (Some None) | None => SPre end
    end.
End Spec.

Section Proofs.
  Context {A : Type} (nn : nat) (dflt : A) (triv wrecks : bool).
  Notation st := (xst A).
  Notation sp := (gmap nat (list (pay A))).
  Notation slots := (list (option (pay A))).
  Implicit Types (vars v : gmap nat slots) (c d : N) (ys : list (pay A)).

  Lemma slot_at vars c d i sl pos : vars !! i = Some sl -> x_slot i pos (XSt vars c d) = sl !! pos.
  Proof using Type. intros H. unfold x_slot. cbn. by rewrite H. Qed.
  Lemma put_at vars c d i sl pos p : vars !! i = Some sl -> x_put i pos p (XSt vars c d) = <[i := <[pos := p]> sl]> vars.
  Proof using Type. intros H. unfold x_put. cbn. by rewrite H. Qed.

  Lemma cons_at vars c d i ys n pos p : vars !! i = Some ((Some <$> ys) ++ replicate (S n) None) -> pos = length ys ->
    x_cons i pos p (XSt vars c d) = Ok (tt, XSt (<[i := (Some <$> (ys ++ [p])) ++ replicate n None]> vars) (c + 1) d).
  Proof using Type.
    intros H ->. unfold x_cons. rewrite (slot_at _ _ _ _ _ _ H), (put_at _ _ _ _ _ _ _ H). cbn [xctor xdtor].
    rewrite lookup_app_r by (by rewrite fmap_length). rewrite fmap_length, Nat.sub_diag. cbn [replicate lookup list_lookup].
    do 4 f_equal. replace (length ys) with (length (Some <$> ys) + 0)%nat at 1 by (rewrite fmap_length; lia).
    rewrite insert_app_r. cbn. by rewrite fmap_app, <-app_assoc.
  Qed.
  Lemma dest_at vars c d i ys n pos p : vars !! i = Some ((Some <$> (ys ++ [p])) ++ replicate n None) -> pos = length ys ->
    x_dest i pos (XSt vars c d) = Ok (tt, XSt (<[i := (Some <$> ys) ++ replicate (S n) None]> vars) c (d + 1)).
  Proof using Type.
    intros H ->. unfold x_dest. rewrite (slot_at _ _ _ _ _ _ H), (put_at _ _ _ _ _ _ _ H). cbn [xctor xdtor].
    rewrite fmap_app, <-app_assoc.
    rewrite lookup_app_r by (by rewrite fmap_length). rewrite fmap_length, Nat.sub_diag. cbn.
    do 4 f_equal. replace (length ys) with (length (Some <$> ys) + 0)%nat at 1 by (rewrite fmap_length; lia).
    rewrite insert_app_r. done.
  Qed.
  Lemma read_at vars c d i ys pos p : vars !! i = Some (Some <$> ys) -> ys !! pos = Some p ->
    x_read i pos (XSt vars c d) = Ok (p, XSt vars c d).
  Proof using Type. intros H Hp. unfold x_read. rewrite (slot_at _ _ _ _ _ _ H), list_lookup_fmap, Hp. done. Qed.
  Lemma write_at vars c d i ys pos p : vars !! i = Some (Some <$> ys) -> (pos < length ys)%nat ->
    x_write i pos p (XSt vars c d) = Ok (tt, XSt (<[i := Some <$> <[pos := p]> ys]> vars) c d).
  Proof using Type.
    intros H Hp. unfold x_write. rewrite (slot_at _ _ _ _ _ _ H), (put_at _ _ _ _ _ _ _ H), list_lookup_fmap.
    destruct (lookup_lt_is_Some_2 ys pos Hp) as [q ->]. cbn. by rewrite list_fmap_insert.
  Qed.

  (** Making elements: all, or none is left. *)
  Lemma build_ok i v0 mk f : (forall pos vars c d k, (forall m, m <> i -> vars !! m = v0 !! m) -> (pos < nn)%nat ->
      mk pos (XSt vars c d, k) = elem x_nothing (x_cons i pos (f pos)) (XSt vars c d, k)) ->
    forall n pos k vars c d ys, (pos + n <= nn)%nat -> (forall m, m <> i -> vars !! m = v0 !! m) ->
    vars !! i = Some ((Some <$> ys) ++ replicate n None) -> length ys = pos ->
    x_build n pos i mk (XSt vars c d, k) =
      if (n <=? k)%nat then Ok (Some tt, (XSt (<[i := Some <$> (ys ++ (f <$> seq pos n))]> vars) (c + N.of_nat n) d, (k - n)%nat))
      else Ok (None, (XSt vars (c + N.of_nat k) (d + N.of_nat k), O)).
  Proof using Type.
    intros Hmk. induction n as [|n IH]; intros pos k vars c d ys Hle Hv0 Hi Hpos.
    { cbn. unfold tret. rewrite N.add_0_r, Nat.sub_0_r. rewrite app_nil_r. cbn in Hi. rewrite app_nil_r in Hi. by rewrite insert_id. }
    cbn [x_build]. unfold tbind at 1. rewrite Hmk by (done || lia). destruct k as [|k].
    { cbn. by rewrite !N.add_0_r. }
    cbn [elem]. rewrite (cons_at _ _ _ _ _ _ _ _ Hi (eq_sym Hpos)). unfold unwinding.
    set (vars1 := <[i := _]> vars).
    rewrite (IH (S pos) k vars1 (c + 1)%N d (ys ++ [f pos])); [|lia|..].
    - cbn [Nat.leb]. destruct (Nat.leb_spec n k).
      + unfold vars1. rewrite insert_insert. cbn [seq fmap list_fmap]. rewrite <-app_assoc. cbn [app].
        replace (c + 1 + N.of_nat n)%N with (c + N.of_nat (S n))%N by lia. done.
      + erewrite (dest_at vars1 _ _ i ys n pos (f pos)); [|unfold vars1; by rewrite lookup_insert|done].
        unfold vars1. rewrite insert_insert, insert_id by done.
        replace (c + 1 + N.of_nat k)%N with (c + N.of_nat (S k))%N by lia.
        replace (d + N.of_nat k + 1)%N with (d + N.of_nat (S k))%N by lia. done.
    - intros m Hm. unfold vars1. rewrite lookup_insert_ne by done. by apply Hv0.
    - unfold vars1. by rewrite lookup_insert.
    - rewrite app_length. cbn. lia.
  Qed.
  Lemma destroy_ok i : forall n vars c d ys m, vars !! i = Some ((Some <$> ys) ++ replicate m None) -> length ys = n ->
    x_destroy n i (XSt vars c d) = Ok (tt, XSt (<[i := replicate (n + m) None]> vars) c (d + N.of_nat n)).
  Proof using Type.
    induction n as [|n IH]; intros vars c d ys m Hi Hl.
    { destruct ys; [|done]. cbn in Hi. cbn. unfold ret. by rewrite insert_id, N.add_0_r. }
    destruct ys as [|p ys _] using rev_ind; [done|]. rewrite app_length in Hl. cbn in Hl.
    cbn [x_destroy]. unfold bind at 1. rewrite (dest_at _ _ _ _ _ _ n p Hi) by lia.
    rewrite (IH _ _ _ ys (S m)); [|by rewrite lookup_insert|lia]. rewrite insert_insert.
    replace (d + 1 + N.of_nat n)%N with (d + N.of_nat (S n))%N by lia. replace (n + S m)%nat with (S n + m)%nat by lia. done.
  Qed.

  (** Assigning elements: the first [k] are assigned. *)
  Lemma assign_ok i v0 rd f : (forall pos vars c d, (forall m, m <> i -> vars !! m = v0 !! m) -> (pos < nn)%nat ->
      rd pos (XSt vars c d) = Ok (f pos, XSt vars c d)) ->
    forall n pos k vars c d ys zs, (pos + n = nn)%nat -> (forall m, m <> i -> vars !! m = v0 !! m) ->
    vars !! i = Some (Some <$> ys ++ zs) -> length ys = pos -> length zs = n ->
    x_assign n pos i rd (XSt vars c d, k) =
      if (n <=? k)%nat then Ok (Some tt, (XSt (<[i := Some <$> (ys ++ (f <$> seq pos n))]> vars) c d, (k - n)%nat))
      else Ok (None, (XSt (<[i := Some <$> (ys ++ (f <$> seq pos k) ++ drop k zs)]> vars) c d, O)).
  Proof using Type.
    intros Hrd. induction n as [|n IH]; intros pos k vars c d ys zs Hle Hv0 Hi Hpos Hz.
    { destruct zs; [|done]. cbn. unfold tret. rewrite Nat.sub_0_r. by rewrite insert_id. }
    destruct zs as [|z zs]; [done|]. cbn [x_assign]. unfold tbind at 1. unfold calm at 1. rewrite Hrd by (done || lia).
    unfold tbind at 1. destruct k as [|k].
    { cbn. by rewrite insert_id. }
    cbn [elem]. rewrite (write_at _ _ _ _ _ pos (f pos) Hi) by (rewrite app_length; cbn; lia).
    assert (E : <[pos := f pos]> (ys ++ z :: zs) = (ys ++ [f pos]) ++ zs).
    { subst pos. rewrite <-(Nat.add_0_r (length ys)) at 1. rewrite insert_app_r. cbn. by rewrite <-app_assoc. }
    rewrite E. set (vars1 := <[i := _]> vars).
    rewrite (IH (S pos) k vars1 c d (ys ++ [f pos]) zs); [|lia| | | |by injection Hz].
    - cbn [Nat.leb]. unfold vars1. rewrite !insert_insert. cbn [seq fmap list_fmap drop]. rewrite <-!app_assoc. cbn [app]. done.
    - intros m Hm. unfold vars1. rewrite lookup_insert_ne by done. by apply Hv0.
    - unfold vars1. by rewrite lookup_insert.
    - rewrite app_length. cbn. lia.
  Qed.
  Lemma list_ok i : forall xs pos k vars c d ys zs, vars !! i = Some (Some <$> ys ++ zs) -> length ys = pos ->
    (length xs <= length zs)%nat -> (pos + length zs = nn)%nat ->
    if (2 * length xs <=? k)%nat then
      x_list_loop nn xs pos i (XSt vars c d, k) =
        Ok (Some tt, (XSt (<[i := Some <$> (ys ++ (PVal <$> xs) ++ drop (length xs) zs)]> vars)
                        (c + N.of_nat (length xs)) (d + N.of_nat (length xs)), (k - 2 * length xs)%nat))
    else exists ws e, length ws = nn /\
      x_list_loop nn xs pos i (XSt vars c d, k) = Ok (None, (XSt (<[i := Some <$> ws]> vars) (c + e)%N (d + e)%N, O)).
  Proof using Type.
    induction xs as [|x xs IH]; intros pos k vars c d ys zs Hi Hpos Hle Hn.
    { cbn. unfold tret. rewrite !N.add_0_r, Nat.sub_0_r, insert_id by done. done. }
    destruct zs as [|z zs]; [cbn in Hle; lia|]. cbn [length] in *.
    assert (Hw : length (ys ++ z :: zs) = nn) by (rewrite app_length; cbn; lia).
    cbn [x_list_loop]. unfold tbind, elem, x_tick, x_untick, unwinding, calm. cbn [xarr xctor xdtor].
    destruct k as [|[|k]].
    - cbn. exists (ys ++ z :: zs), 0%N. split; [done|]. rewrite insert_id, !N.add_0_r by done. done.
    - destruct (Nat.leb_spec (2 * S (length xs)) 1); [lia|]. cbn. exists (ys ++ z :: zs), 1%N. split; [done|]. by rewrite insert_id.
    - rewrite (write_at _ _ _ _ _ pos (PVal x) Hi) by lia. cbn [xarr xctor xdtor].
      assert (E : <[pos := PVal x]> (ys ++ z :: zs) = (ys ++ [PVal x]) ++ zs).
      { subst pos. rewrite <-(Nat.add_0_r (length ys)) at 1. rewrite insert_app_r. cbn. by rewrite <-app_assoc. }
      rewrite E. set (vars1 := <[i := _]> vars).
      assert (Hi1 : vars1 !! i = Some (Some <$> (ys ++ [PVal x]) ++ zs)) by (unfold vars1; by rewrite lookup_insert).
      specialize (IH (S pos) k vars1 (c + 1)%N (d + 1)%N (ys ++ [PVal x]) zs Hi1).
      assert (IH' := IH ltac:(rewrite app_length; cbn; lia) ltac:(lia) ltac:(lia)). clear IH.
      assert (El : forall st, (if (nn <=? S pos)%nat then tret tt else x_list_loop nn xs (S pos) i) (st, k) = x_list_loop nn xs (S pos) i (st, k)).
      { intros s0. destruct (Nat.leb_spec nn (S pos)); [|done]. destruct xs; [done|cbn in Hle; lia]. }
      rewrite El. replace (2 * S (length xs) <=? S (S k))%nat with (2 * length xs <=? k)%nat
        by (destruct (Nat.leb_spec (2 * length xs) k), (Nat.leb_spec (2 * S (length xs)) (S (S k))); done || lia).
      destruct (Nat.leb_spec (2 * length xs) k).
      + rewrite IH'. unfold vars1. rewrite insert_insert. cbn [fmap list_fmap drop]. rewrite <-!app_assoc. cbn [app].
        replace (c + 1 + N.of_nat (length xs))%N with (c + N.of_nat (S (length xs)))%N by lia.
        replace (d + 1 + N.of_nat (length xs))%N with (d + N.of_nat (S (length xs)))%N by lia.
        replace (S (S k) - 2 * S (length xs))%nat with (k - 2 * length xs)%nat by lia. done.
      + destruct IH' as (ws & e & Hws & ->). exists ws, (e + 1)%N. split; [done|]. unfold vars1. rewrite insert_insert.
        replace (c + 1 + e)%N with (c + (e + 1))%N by lia. replace (d + 1 + e)%N with (d + (e + 1))%N by lia. done.
  Qed.

  Lemma move_ok i j : i <> j -> forall n pos k vars c d ys zs xs bs,
    vars !! i = Some (Some <$> ys ++ zs) -> vars !! j = Some (Some <$> xs ++ bs) ->
    length ys = pos -> length xs = pos -> length zs = n -> length bs = n ->
    if (n <=? k)%nat then
      x_move_loop triv wrecks n pos i j (XSt vars c d, k) =
        Ok (Some tt, (XSt (<[i := Some <$> ys ++ bs]> (<[j := Some <$> xs ++ (left_behind triv <$> bs)]> vars)) c d, (k - n)%nat))
    else exists ws us, length ws = (pos + n)%nat /\
      x_move_loop triv wrecks n pos i j (XSt vars c d, k) =
        Ok (None, (XSt (<[i := Some <$> ws]> (<[j := Some <$> us]> vars)) c d, O)).
  Proof using Type.
    intros Hij. induction n as [|n IH]; intros pos k vars c d ys zs xs bs Hi Hj Hy Hx Hz Hb.
    { destruct zs, bs; try done. cbn. unfold tret. rewrite Nat.sub_0_r. rewrite app_nil_r in Hi, Hj. rewrite !app_nil_r. rewrite (insert_id _ j), insert_id by done. done. }
    destruct zs as [|z zs], bs as [|b bs]; try done. cbn [length] in *.
    assert (Hrd : (xs ++ b :: bs) !! pos = Some b) by (rewrite lookup_app_r by lia; by replace (pos - length xs)%nat with 0%nat by lia).
    cbn [x_move_loop]. unfold tbind, elem. destruct k as [|k].
    { cbn [Nat.leb]. unfold x_wreck. exists (ys ++ z :: zs). destruct wrecks.
      - unfold bind. rewrite (read_at _ _ _ _ _ _ _ Hj Hrd), (write_at _ _ _ _ _ _ _ Hj) by (rewrite app_length; cbn; lia).
        eexists. split; [rewrite app_length; cbn; lia|]. rewrite (insert_id _ i) by (by rewrite lookup_insert_ne). done.
      - exists (xs ++ b :: bs). split; [rewrite app_length; cbn; lia|]. rewrite (insert_id _ j), insert_id by done. done. }
    unfold bind. rewrite (read_at _ _ _ _ _ _ _ Hj Hrd), (write_at _ _ _ _ _ _ _ Hj) by (rewrite app_length; cbn; lia).
    rewrite (write_at _ _ _ i (ys ++ z :: zs) pos b); [|by rewrite lookup_insert_ne|rewrite app_length; cbn; lia].
    assert (E : forall (us : list (pay A)) u w r, length us = pos -> <[pos := w]> (us ++ u :: r) = (us ++ [w]) ++ r).
    { intros us u w r <-. rewrite <-(Nat.add_0_r (length us)) at 1. rewrite insert_app_r. cbn. by rewrite <-app_assoc. }
    rewrite !E by done. set (vars1 := <[i := _]> (<[j := _]> vars)). cbn [Nat.leb].
    specialize (IH (S pos) k vars1 c d (ys ++ [b]) zs (xs ++ [left_behind triv b]) bs).
    assert (H1 : vars1 !! i = Some (Some <$> (ys ++ [b]) ++ zs)) by (unfold vars1; by rewrite lookup_insert).
    assert (H2 : vars1 !! j = Some (Some <$> (xs ++ [left_behind triv b]) ++ bs)) by (unfold vars1; by rewrite lookup_insert_ne, lookup_insert by done).
    specialize (IH H1 H2 ltac:(rewrite app_length; cbn; lia) ltac:(rewrite app_length; cbn; lia) ltac:(lia) ltac:(lia)).
    destruct (n <=? k)%nat.
    2:{ destruct IH as (ws & us & Hws & E2). exists ws, us. split; [lia|]. rewrite E2. unfold vars1.
        rewrite (insert_commute _ j i), !insert_insert by done. done. }
    rewrite IH. unfold vars1.
    rewrite (insert_commute _ j i), !insert_insert by done. rewrite <-!app_assoc. cbn [app fmap list_fmap].
    done.
  Qed.

  (** Constructors. *)
  Lemma built_ok i v0 c d k mk f body : v0 !! i = None ->
    (forall pos vars c d k, (forall m, m <> i -> vars !! m = v0 !! m) -> (pos < nn)%nat ->
      mk pos (XSt vars c d, k) = elem x_nothing (x_cons i pos (f pos)) (XSt vars c d, k)) ->
    built nn i mk body (XSt v0 c d, k) =
      if (nn <=? k)%nat then
        unwinding (unwinding body (x_destroy nn i)) (x_del i)
          (XSt (<[i := Some <$> (f <$> seq 0 nn)]> v0) (c + N.of_nat nn) d, (k - nn)%nat)
      else Ok (None, (XSt v0 (c + N.of_nat k) (d + N.of_nat k), O)).
  Proof using Type.
    intros Hi Hmk. unfold built. unfold tbind at 1. unfold calm, x_new. cbn [xarr]. rewrite Hi. cbn [xctor xdtor].
    unfold unwinding at 1. unfold tbind.
    rewrite (build_ok i v0 mk f Hmk nn 0 k _ c d []);
      [|lia|intros m Hm; by rewrite lookup_insert_ne|by rewrite lookup_insert|done].
    rewrite insert_insert. destruct (nn <=? k)%nat; [done|]. unfold x_del. cbn [xarr]. rewrite lookup_insert.
    cbn [xctor xdtor]. by rewrite delete_insert.
  Qed.
  Lemma body_throws i v0 ws c d k (body : TM st unit) s : v0 !! i = None -> length ws = nn ->
    body s = Ok (None, (XSt (<[i := Some <$> ws]> v0) c d, k)) ->
    unwinding (unwinding body (x_destroy nn i)) (x_del i) s = Ok (None, (XSt v0 c (d + N.of_nat nn), k)).
  Proof using Type.
    intros Hi Hw E. unfold unwinding. rewrite E.
    rewrite (destroy_ok i nn _ c d ws 0); [|by rewrite lookup_insert, app_nil_r|done].
    unfold x_del. cbn [xarr]. rewrite insert_insert, lookup_insert. cbn [xctor xdtor]. by rewrite delete_insert.
  Qed.
  Lemma body_done (body : TM st unit) i s r : body s = Ok (Some tt, r) ->
    unwinding (unwinding body (x_destroy nn i)) (x_del i) s = Ok (Some tt, r).
  Proof using Type. intros E. unfold unwinding. by rewrite E. Qed.

  (** Reading a whole array. *)
  Definition at_or (b : list (pay A)) (pos : nat) : pay A := match b !! pos with Some p => p | None => PVal dflt end.
  Lemma at_or_seq b : forall n, (n <= length b)%nat -> (at_or b <$> seq 0 n) = take n b.
  Proof using Type.
    intros n Hn. apply list_eq. intros m. rewrite list_lookup_fmap. destruct (decide (m < n)%nat) as [Hm|Hm].
    - rewrite lookup_seq_lt, lookup_take by done. cbn. unfold at_or. destruct (lookup_lt_is_Some_2 b m) as [p ->]; [lia|done].
    - rewrite lookup_seq_ge, lookup_take_ge by lia. done.
  Qed.
  Lemma at_or_all b n : length b = n -> (at_or b <$> seq 0 n) = b.
  Proof using Type. intros <-. rewrite at_or_seq by done. by rewrite firstn_all. Qed.
  Lemma same_seq (x : pay A) n : ((fun _ => x) <$> seq 0 n) = replicate n x.
  Proof using Type.
    apply list_eq. intros m. rewrite list_lookup_fmap. destruct (decide (m < n)%nat).
    - by rewrite lookup_seq_lt, lookup_replicate_2.
    - rewrite lookup_seq_ge by lia. cbn. symmetry. apply lookup_ge_None. rewrite replicate_length. lia.
  Qed.
  Lemma read_from v0 i j b : i <> j -> v0 !! j = Some (Some <$> b) -> length b = nn ->
    forall pos vars c d, (forall m, m <> i -> vars !! m = v0 !! m) -> (pos < nn)%nat ->
    x_read j pos (XSt vars c d) = Ok (at_or b pos, XSt vars c d).
  Proof using Type.
    intros Hij Hj Hb pos vars c d Hv Hp. apply (read_at _ _ _ _ b); [by rewrite Hv|].
    unfold at_or. destruct (lookup_lt_is_Some_2 b pos) as [p ->]; [lia|done].
  Qed.

  (** ** The abstraction *)
  Definition conc (s : sp) : gmap nat slots := (fun a : list (pay A) => Some <$> a) <$> s.
  Definition arel (s : sp) (w : st) : Prop :=
    xarr w = conc s /\ (forall i a, s !! i = Some a -> length a = nn) /\ xctor w = (xdtor w + N.of_nat (nn * size s))%N.
  Lemma conc_at s i : conc s !! i = (fun a : list (pay A) => Some <$> a) <$> s !! i.
  Proof using Type. unfold conc. by rewrite lookup_fmap. Qed.
  Lemma conc_insert s i a : <[i := Some <$> a]> (conc s) = conc (<[i := a]> s).
  Proof using Type. unfold conc. by rewrite fmap_insert. Qed.
  Lemma arel_insert s i a c d : s !! i = None -> (forall i a, s !! i = Some a -> length a = nn) -> length a = nn ->
    c = (d + N.of_nat (nn * size s) + N.of_nat nn)%N -> arel (<[i := a]> s) (XSt (conc (<[i := a]> s)) c d).
  Proof using Type.
    intros Hi Hl Ha ->. split; [done|]. split; cbn.
    - intros m b. rewrite lookup_insert_Some. intros [[_ <-]|[_ H]]; [done|by eapply Hl].
    - rewrite map_size_insert_None by done. lia.
  Qed.
  Lemma arel_update s i a a' c d : s !! i = Some a' -> (forall i a, s !! i = Some a -> length a = nn) -> length a = nn ->
    c = (d + N.of_nat (nn * size s))%N -> arel (<[i := a]> s) (XSt (conc (<[i := a]> s)) c d).
  Proof using Type.
    intros Hi Hl Ha ->. split; [done|]. split; cbn.
    - intros m b. rewrite lookup_insert_Some. intros [[_ <-]|[_ H]]; [done|by eapply Hl].
    - rewrite map_size_insert_Some by done. lia.
  Qed.
  Lemma arel_same s c d : (forall i a, s !! i = Some a -> length a = nn) ->
    c = (d + N.of_nat (nn * size s))%N -> arel s (XSt (conc s) c d).
  Proof using Type. intros Hl ->. by split. Qed.

  Lemma unit_ok (m : TM st unit) w k w' k' : m (w, k) = Ok (Some tt, (w', k')) -> with_k k (x_unit m) w = Ok (Some None, w').
  Proof using Type. intros H. unfold with_k, x_unit, tbind. by rewrite H. Qed.
  Lemma unit_throw (m : TM st unit) w k w' k' : m (w, k) = Ok (None, (w', k')) -> with_k k (x_unit m) w = Ok (None, w').
  Proof using Type. intros H. unfold with_k, x_unit, tbind. by rewrite H. Qed.
  Lemma unit_err (m : TM st unit) w k e : m (w, k) = Err e -> with_k k (x_unit m) w = Err e.
  Proof using Type. intros H. unfold with_k, x_unit, tbind. by rewrite H. Qed.
  Lemma default_mk i v0 : forall pos vars c d k, (forall m, m <> i -> vars !! m = v0 !! m) -> (pos < nn)%nat ->
    x_default dflt i pos (XSt vars c d, k) = elem x_nothing (x_cons i pos ((fun _ => PVal dflt) pos)) (XSt vars c d, k).
  Proof using Type. done. Qed.

  (** A constructor whose body performs [n] element operations and either
      finishes with [v] or throws leaving the elements in place. *)
  Lemma making_ok s w i k n out (mk : nat -> TM st unit) f body : arel s w -> length out = nn ->
    (forall pos vars c d k, (forall m, m <> i -> vars !! m = conc s !! m) -> (pos < nn)%nat ->
      mk pos (XSt vars c d, k) = elem x_nothing (x_cons i pos (f pos)) (XSt vars c d, k)) ->
    (s !! i = None -> forall c d k, let w1 := XSt (<[i := Some <$> (f <$> seq 0 nn)]> (conc s)) c d in
      if (n <=? k)%nat then exists e k', body (w1, k) = Ok (Some tt, (XSt (<[i := Some <$> out]> (conc s)) (c + e) (d + e), k'))
      else exists ws e, length ws = nn /\ body (w1, k) = Ok (None, (XSt (<[i := Some <$> ws]> (conc s)) (c + e) (d + e), O))%N) ->
    agrees arel (with_k k (x_unit (built nn i mk body)) w) (making s i k (nn + n) out).
  Proof using Type.
    destruct w as [vars c d]. intros (Hw & Hl & Hc) Hv Hmk Hbody. cbn in Hw, Hc. subst vars. unfold making.
    destruct (s !! i) as [a|] eqn:Hi; [done|]. specialize (Hbody eq_refl).
    assert (Hci : conc s !! i = None) by (by rewrite conc_at, Hi).
    pose proof (built_ok i (conc s) c d k mk f body Hci Hmk) as E.
    destruct (Nat.leb_spec nn k) as [Hk|Hk].
    - specialize (Hbody (c + N.of_nat nn)%N d (k - nn)%nat). cbn zeta in Hbody.
      destruct (Nat.leb_spec n (k - nn)) as [Hn|Hn]; destruct (Nat.leb_spec (nn + n) k); try lia.
      + destruct Hbody as (e & k' & Hb). apply (body_done body i) in Hb. rewrite Hb in E. apply unit_ok in E.
        eexists. split; [exact E|]. rewrite conc_insert. apply arel_insert; [done..|lia].
      + destruct Hbody as (ws & e & Hws & Hb). apply body_throws in Hb; [|done|done]. rewrite Hb in E. apply unit_throw in E.
        eexists. split; [exact E|]. apply arel_same; [done|lia].
    - destruct (Nat.leb_spec (nn + n) k); [lia|]. apply unit_throw in E. eexists. split; [exact E|]. apply arel_same; [done|lia].
  Qed.

  Lemma xa_step_ok s w o : arel s w -> agrees arel (xa_step nn dflt triv wrecks o w) (xa_spec nn dflt triv s o).
  Proof using Type.
    intros HR. destruct o as [o k]. destruct o as [i|i xs|i xs|i j|i j|i j|i j|i pos x|i pos|i]; cbn [xa_step xa_spec].
    - (* Array() *)
      replace nn with (nn + 0)%nat at 2 by lia. eapply (making_ok _ _ _ _ 0); [done|by rewrite replicate_length|apply default_mk|].
      intros _ c d k'. cbn. exists 0%N, k'. rewrite same_seq, !N.add_0_r. done.
    - (* from a list *)
      unfold x_list. destruct (Nat.ltb_spec nn (length xs)) as [Hx|Hx].
      + destruct w as [vars c d], HR as (Hw & Hl & Hc). cbn in Hw, Hc. subst vars.
        destruct (s !! i) as [a|] eqn:Hi; [done|].
        assert (Hci : conc s !! i = None) by (by rewrite conc_at, Hi).
        pose proof (built_ok i (conc s) c d k _ _ (calm (fail Panic)) Hci (default_mk i (conc s))) as E.
        destruct (nn <=? k)%nat.
        * by apply unit_err in E.
        * apply unit_throw in E. eexists. split; [exact E|]. apply arel_same; [done|lia].
      + assert (Hfl : length (filled nn dflt xs) = nn) by (unfold filled; rewrite app_length, fmap_length, replicate_length; lia).
        eapply making_ok; [done|done|apply default_mk|]. intros _ c d k'. cbn zeta. rewrite same_seq.
        pose proof (list_ok i xs 0 k' (<[i := Some <$> replicate nn (PVal dflt)]> (conc s)) c d [] (replicate nn (PVal dflt))) as E.
        specialize (E ltac:(by rewrite lookup_insert) eq_refl ltac:(by rewrite replicate_length) ltac:(by rewrite replicate_length)).
        rewrite insert_insert in E. destruct (2 * length xs <=? k')%nat.
        * eexists _, _. rewrite E. unfold filled. cbn [app]. by rewrite drop_replicate.
        * destruct E as (ws & e & Hws & E). exists ws, e. rewrite insert_insert in E. done.
    - (* from a raw array *)
      destruct (Nat.eqb_spec (length xs) nn) as [Hx|Hx]; [|done].
      eapply making_ok; [done|by rewrite fmap_length|apply default_mk|]. intros Hi c d k'. cbn zeta. rewrite same_seq.
      pose proof (assign_ok i (conc s) (fun pos => match xs !! pos with Some x => ret (PVal x) | None => fail UB end)
                    (at_or (PVal <$> xs))) as E.
      specialize (E ltac:(intros pos vars c0 d0 _ Hp; unfold at_or; rewrite list_lookup_fmap; destruct (lookup_lt_is_Some_2 xs pos) as [x ->]; [lia|done])).
      specialize (E nn 0%nat k' (<[i := Some <$> replicate nn (PVal dflt)]> (conc s)) c d [] (replicate nn (PVal dflt))).
      specialize (E ltac:(lia) ltac:(intros m Hm; by rewrite lookup_insert_ne) ltac:(by rewrite lookup_insert) eq_refl ltac:(by rewrite replicate_length)).
      rewrite insert_insert in E. destruct (Nat.leb_spec nn k').
      + exists 0%N. eexists. etransitivity; [exact E|]. rewrite !N.add_0_r. cbn [app]. rewrite at_or_all by (by rewrite fmap_length). done.
      + eexists _, 0%N. rewrite !N.add_0_r. rewrite insert_insert in E. split; [|exact E].
        cbn [app]. rewrite app_length, fmap_length, seq_length, drop_length, replicate_length. lia.
    - (* copy *)
      destruct (s !! j) as [b|] eqn:Hj; [|done]. destruct (s !! i) as [a|] eqn:Hi.
      { unfold making. by rewrite Hi. }
      assert (Hij : i <> j) by congruence. destruct HR as (Hw & Hl & Hc).
      replace nn with (nn + 0)%nat at 2 by lia.
      apply (making_ok _ _ _ _ 0 b _ (at_or b)); [done|by eapply Hl|..].
      + intros pos vars c d k' Hv Hp. unfold tbind, calm.
        rewrite (read_from (conc s) i j b Hij) by (first [by rewrite conc_at, Hj | by eapply Hl | done]). done.
      + intros _ c d k'. cbn. exists 0%N, k'. rewrite at_or_all, !N.add_0_r by (by eapply Hl). done.
    - (* copy assignment *)
      destruct (s !! i) as [a|] eqn:Hi; [|done]. destruct (s !! j) as [b|] eqn:Hj; [|done].
      unfold x_copy_assign. destruct (Nat.eqb_spec i j) as [->|Hij]; [by exists w|].
      destruct w as [vars c d], HR as (Hw & Hl & Hc). cbn in Hw, Hc. subst vars.
      pose proof (Hl i a Hi) as Ha. pose proof (Hl j b Hj) as Hb.
      pose proof (assign_ok i (conc s) (x_read j) (at_or b) (read_from (conc s) i j b Hij ltac:(by rewrite conc_at, Hj) Hb)
        nn 0 k (conc s) c d [] a ltac:(lia) ltac:(done) ltac:(by rewrite conc_at, Hi) eq_refl Ha) as E.
      cbn [app] in E. destruct (Nat.leb_spec nn k) as [Hk|Hk].
      + rewrite at_or_all, conc_insert in E by done. apply unit_ok in E. eexists. split; [exact E|]. by eapply arel_update.
      + rewrite at_or_seq, conc_insert in E by lia. apply unit_throw in E. eexists. split; [exact E|].
        eapply arel_update; [done|done| |done]. rewrite app_length, take_length, drop_length. lia.
    - (* move *)
      destruct (s !! j) as [b|] eqn:Hj; [|done]. destruct (s !! i) as [a|] eqn:Hi; [done|].
      assert (Hij : i <> j) by congruence.
      destruct w as [vars c d], HR as (Hw & Hl & Hc). cbn in Hw, Hc. subst vars. pose proof (Hl j b Hj) as Hb.
      assert (Hci : conc s !! i = None) by (by rewrite conc_at, Hi).
      pose proof (built_ok i (conc s) c d k _ _ (x_move_loop triv wrecks nn 0 i j) Hci (default_mk i (conc s))) as E.
      rewrite same_seq in E. destruct (Nat.leb_spec nn k) as [Hk|Hk].
      + pose proof (move_ok i j Hij nn 0 (k - nn) (<[i := Some <$> replicate nn (PVal dflt)]> (conc s)) (c + N.of_nat nn)%N d
          [] (replicate nn (PVal dflt)) [] b) as E2.
        specialize (E2 ltac:(by rewrite lookup_insert) ltac:(by rewrite lookup_insert_ne, conc_at, Hj) eq_refl eq_refl
          ltac:(by rewrite replicate_length) Hb).
        destruct (Nat.leb_spec nn (k - nn)); destruct (Nat.leb_spec (nn + nn) k); try lia.
        * apply (body_done _ i) in E2. rewrite E2 in E. cbn [app] in E.
          rewrite (insert_commute _ j i), insert_insert, conc_insert in E by done. rewrite conc_insert in E.
          assert (E3 : x_move nn dflt triv wrecks i j (XSt (conc s) c d, k) = Ok (Some tt,
            (XSt (conc (<[i := b]> (<[j := left_behind triv <$> b]> s))) (c + N.of_nat nn) d, (k - nn - nn)%nat))).
          { unfold x_move, noexcept. by rewrite E. }
          apply unit_ok in E3. eexists. split; [exact E3|].
          apply arel_insert; [by rewrite lookup_insert_ne|..|done|].
          { intros m a. rewrite lookup_insert_Some. intros [[_ <-]|[_ H']]; [by rewrite fmap_length|by eapply Hl]. }
          rewrite map_size_insert_Some by done. lia.
        * destruct E2 as (ws & us & Hws & E2). rewrite (insert_commute _ j i), insert_insert in E2 by done.
          assert (E3 := body_throws i (<[j := Some <$> us]> (conc s)) ws (c + N.of_nat nn) d 0 (x_move_loop triv wrecks nn 0 i j)
            (XSt (<[i := Some <$> replicate nn (PVal dflt)]> (conc s)) (c + N.of_nat nn) d, (k - nn)%nat)).
          rewrite E3 in E; [|by rewrite lookup_insert_ne|done|done].
          eapply unit_err. unfold x_move, noexcept. by rewrite E.
      + destruct (Nat.leb_spec (nn + nn) k); [lia|]. eapply unit_err. unfold x_move, noexcept. by rewrite E.
    - (* move assignment *)
      destruct (s !! i) as [a|] eqn:Hi; [|done]. destruct (s !! j) as [b|] eqn:Hj; [|done].
      unfold x_move_assign. destruct (Nat.eqb_spec i j) as [->|Hij]; [by exists w|].
      destruct w as [vars c d], HR as (Hw & Hl & Hc). cbn in Hw, Hc. subst vars.
      pose proof (Hl i a Hi) as Ha. pose proof (Hl j b Hj) as Hb.
      pose proof (move_ok i j Hij nn 0 k (conc s) c d [] a [] b) as E.
      specialize (E ltac:(by rewrite conc_at, Hi) ltac:(by rewrite conc_at, Hj) eq_refl eq_refl Ha Hb).
      destruct (nn <=? k)%nat.
      + cbn [app] in E. rewrite conc_insert, conc_insert in E.
        eexists. split; [eapply unit_ok; unfold noexcept; by rewrite E|].
        eapply arel_update; [by rewrite lookup_insert_ne|..|done|].
        { intros m a'. rewrite lookup_insert_Some. intros [[_ <-]|[_ H']]; [by rewrite fmap_length|by eapply Hl]. }
        rewrite map_size_insert_Some by done. done.
      + destruct E as (ws & us & _ & E). eapply unit_err. unfold noexcept. by rewrite E.
    - (* a[pos] = x *)
      destruct (s !! i) as [a|] eqn:Hi; [|done]. unfold x_set. destruct (Nat.leb_spec nn pos); [done|].
      destruct w as [vars c d], HR as (Hw & Hl & Hc). cbn in Hw, Hc. subst vars. pose proof (Hl i a Hi) as Ha.
      destruct k as [|k]; [by eexists|].
      eexists. split.
      + eapply unit_ok. cbn [elem]. rewrite (write_at _ _ _ _ a) by (by rewrite conc_at, Hi || lia). rewrite conc_insert. done.
      + eapply arel_update; [done|done|by rewrite insert_length|done].
    - (* a[pos] *)
      destruct (s !! i) as [a|] eqn:Hi; [|done]. unfold x_get. destruct (Nat.leb_spec nn pos); [done|].
      destruct w as [vars c d], HR as (Hw & Hl & Hc). cbn in Hw, Hc. subst vars. pose proof (Hl i a Hi) as Ha.
      destruct (lookup_lt_is_Some_2 a pos) as [p Hp]; [lia|].
      unfold with_k, tbind, calm. rewrite (read_at _ _ _ _ a _ p) by (by rewrite ?conc_at, ?Hi). rewrite Hp. eexists. split; [done|].
      by apply arel_same.
    - (* the end *)
      destruct (s !! i) as [a|] eqn:Hi; [|done].
      destruct w as [vars c d], HR as (Hw & Hl & Hc). cbn in Hw, Hc. subst vars. pose proof (Hl i a Hi) as Ha.
      eexists. split.
      + eapply unit_ok. unfold x_end, calm. unfold bind.
        rewrite (destroy_ok i nn _ c d a 0) by (rewrite ?conc_at, ?Hi, ?app_nil_r; done).
        unfold x_del. cbn [xarr]. rewrite lookup_insert. cbn [xctor xdtor]. rewrite delete_insert_delete. done.
      + split; [cbn; unfold conc; by rewrite fmap_delete|]. split; cbn.
        * intros m b Hb. apply lookup_delete_Some in Hb as [_ Hb]. by eapply Hl.
        * rewrite map_size_delete_Some by (by rewrite Hi).
          assert (size s <> 0%nat) by (intros H; apply map_size_empty_inv in H; by subst s). rewrite Hc. 
          destruct (size s) as [|z]; [done|]. cbn [pred]. lia.
  Qed.

  (** C93. Every history of calls, in any of which element operations may throw:
      every array holds what the specification says, all of its [nn] elements
      and no others are alive, and the program ends only where a list is too
      long, an index is out of range or a move throws. *)
  Theorem C93_histories (ops : list (xop A * nat)) :
    match srun (xa_spec nn dflt triv) ∅ ops with
    | SOk s outs => exists w, run_ops (xa_step nn dflt triv wrecks) ops xinit = Ok (outs, w) /\
        (forall i, xarr w !! i = (fun a : list (pay A) => Some <$> a) <$> s !! i) /\
        (forall i a, s !! i = Some a -> length a = nn) /\
        xctor w = (xdtor w + N.of_nat (nn * size s))%N
    | SPanic => run_ops (xa_step nn dflt triv wrecks) ops xinit = Err Panic
    | SPre => True
    end.
  Proof using Type.
    pose proof (srun_refines (xa_spec nn dflt triv) (xa_step nn dflt triv wrecks) arel xa_step_ok ops ∅ xinit) as H.
    assert (H0 : arel ∅ xinit).
    { split; [unfold conc; by rewrite fmap_empty|]. split; [done|]. rewrite map_size_empty. cbn. lia. }
    specialize (H H0). unfold agrees in H. destruct (srun (xa_spec nn dflt triv) ∅ ops) as [s outs| |]; [|done|done].
    destruct H as (w & Hr & Hw & Hl & Hc). exists w. split; [done|]. split; [|done]. intros i. by rewrite Hw, conc_at.
  Qed.

  (** Nothing is alive, and nothing has been destroyed twice, when all arrays
      have ended, whatever has been thrown on the way. *)
  Theorem C93_balance (ops : list (xop A * nat)) outs : srun (xa_spec nn dflt triv) ∅ ops = SOk ∅ outs ->
    exists w, run_ops (xa_step nn dflt triv wrecks) ops xinit = Ok (outs, w) /\ xarr w = ∅ /\ xctor w = xdtor w.
  Proof using Type.
    intros H. pose proof (C93_histories ops) as Hh. rewrite H in Hh. destruct Hh as (w & Hr & Hw & _ & Hc).
    exists w. split; [done|]. split; [apply map_eq; intros i; by rewrite Hw, !lookup_empty|].
    rewrite map_size_empty in Hc. rewrite Hc. lia.
  Qed.

  (** A call that throws after a history.  Either nothing has changed and as many
      elements are alive as before, or it was a copy assignment: the first [k]
      elements are those of the source, the others are what they were. *)
  Theorem C93_throws (ops : list (xop A * nat)) o k s outs w w' :
    srun (xa_spec nn dflt triv) ∅ ops = SOk s outs -> xa_spec nn dflt triv s (o, k) <> SPre ->
    run_ops (xa_step nn dflt triv wrecks) ops xinit = Ok (outs, w) ->
    xa_step nn dflt triv wrecks (o, k) w = Ok (None, w') ->
    (xctor w' - xdtor w' = xctor w - xdtor w)%N /\
    match o with
    | XCopyAsg i j => i <> j /\ (k < nn)%nat /\ (forall m, m <> i -> xarr w' !! m = xarr w !! m) /\
        exists a b, xarr w !! i = Some a /\ xarr w !! j = Some b /\ xarr w' !! i = Some (take k b ++ drop k a)
    | XMove _ _ | XMoveAsg _ _ | XGet _ _ | XEnd _ => False
    | _ => xarr w' = xarr w
    end.
  Proof using Type.
    intros Hs Hp Hr Ht. pose proof (C93_histories ops) as Hh. rewrite Hs in Hh. destruct Hh as (w2 & Hr2 & Hw & Hl & Hc).
    rewrite Hr in Hr2. injection Hr2 as <-.
    assert (HR : arel s w).
    { split; [|done]. apply map_eq. intros i. by rewrite Hw, conc_at. }
    pose proof (xa_step_ok s w (o, k) HR) as H. rewrite Ht in H. unfold agrees in H.
    destruct (xa_spec nn dflt triv s (o, k)) as [s' r| |] eqn:E; [|done|done].
    destruct H as (w3 & Hw3 & HR3). injection Hw3 as <- <-.
    destruct HR as (Ew & _ & _), HR3 as (Ew' & Hl' & Hc').
    assert (Hsame : s' = s -> (xctor w' - xdtor w' = xctor w - xdtor w)%N /\ xarr w' = xarr w).
    { intros ->. rewrite Ew, Ew'. split; [lia|done]. }
    destruct o as [i|i xs|i xs|i j|i j|i j|i j|i pos x|i pos|i]; cbn [xa_spec] in E; unfold making in E;
      try (apply Hsame; repeat case_match; congruence); try (exfalso; repeat case_match; congruence).
    destruct (s !! i) as [a|] eqn:Hi; [|done]. destruct (s !! j) as [b|] eqn:Hj; [|done].
    destruct (Nat.eqb_spec i j) as [->|Hij]; [done|]. destruct (Nat.leb_spec nn k) as [Hk|Hk]; [done|].
    injection E as <-. rewrite map_size_insert_Some in Hc' by done.
    split; [lia|]. split; [done|]. split; [done|]. rewrite Ew, Ew', <-conc_insert. split.
    - intros m Hm. by rewrite lookup_insert_ne.
    - exists (Some <$> a), (Some <$> b). rewrite !conc_at, Hi, Hj, lookup_insert. split; [done|]. split; [done|].
      by rewrite fmap_app, fmap_take, fmap_drop.
  Qed.
End Proofs.

(** Non-vacuity: arrays of three numbers, by default 9.  A copy assignment throws
    at the third element, a copy at the second, a list constructor at an element
    and at its temporary; a move that throws ends the program. *)
Definition xa_ops : list (xop N * nat) :=
  [(XList 0 [1; 2]%N, 7%nat); (XNew 1, 3%nat); (XCopyAsg 1 0, 2%nat); (XCopy 2 0, 1%nat); (XList 2 [4; 5; 6]%N, 6%nat);
   (XRaw 3 [7; 8; 9]%N, 6%nat); (XSet 3 1 5%N, 0%nat); (XGet 1 1, 0%nat); (XGet 1 2, 0%nat); (XGet 3 1, 0%nat); (XMove 4 3, 6%nat)].
Example C93_histories_case :
  match srun (xa_spec 3 9%N false) ∅ xa_ops, run_ops (xa_step 3 9%N false true) xa_ops xinit with
  | SOk s outs, Ok (outs', w) => outs = outs' /\ s !! 1%nat = Some [PVal 1%N; PVal 2%N; PVal 9%N] /\ s !! 2%nat = None /\
      outs = [Some None; Some None; None; None; None; Some None; None; Some (Some (PVal 2)); Some (Some (PVal 9)); Some (Some (PVal 8)); Some None]%N /\
      (xctor w, xdtor w) = (20, 8)%N
  | _, _ => False
  end.
Proof. vm_compute. repeat split. Qed.
Example C93_histories_panics :
  run_ops (xa_step 3 9%N false true) (xa_ops ++ [(XMoveAsg 0 4, 2%nat)]) xinit = Err Panic /\
  srun (xa_spec 3 9%N false) ∅ (xa_ops ++ [(XMoveAsg 0 4, 2%nat)]) = SPanic /\
  run_ops (xa_step 3 9%N false true) (xa_ops ++ [(XMove 5 0, 5%nat)]) xinit = Err Panic /\
  run_ops (xa_step 3 9%N false true) [(XList 0 [1; 2; 3; 4]%N, 20%nat)] xinit = Err Panic.
Proof. vm_compute. repeat split. Qed.
Example C93_balance_case :
  match srun (xa_spec 3 9%N false) ∅ (xa_ops ++ [(XEnd 0, 0); (XEnd 1, 0); (XEnd 3, 0); (XEnd 4, 0)])%nat with SOk s _ => size s = 0%nat | _ => False end.
Proof. vm_compute. reflexivity. Qed.
Example C93_throws_case :
  match run_ops (xa_step 3 9%N false true) (firstn 2 xa_ops) xinit with
  | Ok (_, w) => match xa_step 3 9%N false true (XCopyAsg 1 0, 2%nat) w with
                 | Ok (r, w') => r = None /\ xarr w' !! 1%nat = Some [Some (PVal 1%N); Some (PVal 2%N); Some (PVal 9%N)]
                 | _ => False end
  | _ => False
  end.
Proof. vm_compute. repeat split. Qed.

Print Assumptions C93_histories.
Print Assumptions C93_balance.
Print Assumptions C93_throws.
