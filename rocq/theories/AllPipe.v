(** * AllPipe: programs with lists, vectors and arrays, and pipelines from
      every kind of source into every kind of collection

    [MixPipe] once more, with the sources that own no heap memory: ranges
    (ops/range.h:109-117), slices (slice.h:21-30), [Array::iter()]
    (collection/array.h:100-144), [Array::into_iter()] (array.h:16-98) and the
    characters of a string (str/basic_string.h:23-38); and with [Array] as a
    collection (array.h:242-256 [from_iter]).

    Simplifications: all arrays of a program have the same length [nn] (the
    template argument); the elements of ranges and characters are turned into
    elements of the program by a closure [f] in front of the other stages,
    i.e. by a first [map] (adapters/map.h:29-38). *)
From Verif Require Import Base Machine IterSpec IterProps ListModel ListStep ListSpec PipeModel ListPipe VecModel VecSpec
  VecProps MixPipe RangeModel RangeProps Utf8Model Utf8Spec.
Local Open Scope N_scope.

(** ** [Array::from_iter] over any iterator *)
Section From.
  Context {St V It : Type} (nn : nat) (vinit : V).
  Notation HM := (M St).
  (** array.h:248-252: the loop, with [next] the item already taken. *)
  Fixpoint arr_loop (nx : It -> HM (It * option V)) (fuel pos : nat) (next : option V) (it : It) (a : list (acell V)) : HM (It * list (acell V)) :=
    match fuel with
    | O => fail Fuel
    | S fuel =>
        match next with
        | None => ret (it, a)
        | Some x =>
            if (pos <? nn)%nat then
              a1 <-- lift_o (a_set nn a (N.of_nat pos) x) ;;
              '(it', next') <-- nx it ;;
              arr_loop nx fuel (S pos) next' it' a1
            else ret (it, a)
        end
    end.
  (** array.h:242-256. *)
  Definition arr_collect (nx : It -> HM (It * option V)) (it : It) : HM (It * list (acell V)) :=
    '(it', next) <-- nx it ;; arr_loop nx (S (S nn)) 0 next it' (a_value nn vinit).
  (** A whole pipeline into an array (collect.h:15-28 moves a copy into
      [from_iter]). *)
  Definition run_array (nx : It -> HM (It * option V)) (cp : It -> HM It) (mv : It -> It * It) (dl : It -> HM unit) (fuel : nat) (bar : bool)
      (ps : list (padapt (V := V))) (it : It) : HM (list (acell V)) :=
    build cp mv dl bar ps (by_copy_move cp mv dl (arr_collect (pnext nx fuel ps))) it.
End From.

Section AllPipe.
  Context {T : Type} (dbl : bool) (sz lmax : N) (dflt : T) (eqb : T -> T -> bool) (cmp : T -> T -> comparison).
  Context (nn : nat) (dinit : acell T) (vinit : T).
  Notation H1 := (heap (ListModel.cell T)).
  Notation H2 := (heap (block T)).
  Notation HM := (M (H1 * H2)).
  Notation W1 := (world (ListModel.cell T) lst).
  Notation W2 := (world (block T) vec).
  Notation arrays := (gmap nat (list (acell T))).
  Notation XM := (M ((W1 * W2) * arrays)).
  Notation stages := (list (padapt (V := T))).

  (** ** Sources *)
  (** range.h:109-117, with the first stage. *)
  Definition xr_next (t : ity) (f : Z -> T) (r : range) : outcome (range * option T) :=
    match r_next t r with Ok (o, r') => Ok (r', f <$> o) | Err e => Err e end.
  (** array.h:112-117 and slice.h:21-30 over the cells of an array. *)
  Definition xc_next (m : M siter (option (acell T))) (it : siter) : outcome (siter * option T) :=
    match m it with
    | Ok (None, it') => Ok (it', None)
    | Ok (Some (AVal x), it') => Ok (it', Some x)
    | Ok (Some _, _) => Err UB
    | Err e => Err e
    end.
  (** array.h:67-73. *)
  Definition xa_next (it : aiter (A := T)) : outcome (aiter (A := T) * option T) :=
    match ai_next it with Ok (o, it') => Ok (it', o) | Err e => Err e end.
  (** array.h:27, the defaulted copy constructor: every element is copied,
      those already handed out (moved-from) too; copying an indeterminate one
      is undefined. *)
  Definition xa_copy (it : aiter (A := T)) : outcome (aiter (A := T)) :=
    if forallb (fun c => match c with AUndef => false | _ => true end) (ai_data it) then Ok it else Err UB.
  (** array.h:43-51, the move constructor; where [ai_move] is undefined the
      iterator has no elements, and the next use is undefined. *)
  Definition xa_move (it : aiter (A := T)) : aiter (A := T) * aiter (A := T) :=
    match ai_move nn dinit it with Ok r => r | Err _ => (AIter [] (ai_range it), it) end.
  (** basic_string.h:30-34; the iterator is what is left of the bytes. *)
  Definition xu_next (f : list N -> T) (bs : list N) : outcome (list N * option T) :=
    match utf8_next bs with Ok (o, bs') => Ok (bs', f <$> o) | Err e => Err e end.

  Inductive psrc :=
  | PRange (t : ity) (lo hi : Z) (f : Z -> T)   (* Range(lo, hi) | map(f) *)
  | PArr (i : nat)                              (* a.iter() *)
  | PSlice (i : nat) (p n : N)                  (* Slice(&a[p], n).iter() *)
  | PInto (i : nat)                             (* a.into_iter() *)
  | PChars (cs : list N) (f : list N -> T).     (* s.chars() | map(f), [s] the string of these characters *)
  Inductive xsrc := XS (s : msrc) | XP (s : psrc).

  Definition pure_m {R} (body : forall It, (It -> HM (It * option T)) -> (It -> HM It) -> (It -> It * It) -> (It -> HM unit) ->
        nat -> It -> HM R)
      {It} (nx : It -> outcome (It * option T)) (cp : It -> outcome It) (mv : It -> It * It) (fuel : nat) (it : It) : XM R :=
    inl_m (on_heaps (body It (fun i => lift_o (nx i)) (fun i => lift_o (cp i)) mv (fun _ => ret tt) fuel it)).
  (** Iterators that are numbers or pointers. *)
  Definition cp0 {It} (it : It) : outcome It := Ok it.
  Definition mv0 {It} (it : It) : It * It := (it, it).

  Definition on_any {R} (s : xsrc)
      (body : forall It, (It -> HM (It * option T)) -> (It -> HM It) -> (It -> It * It) -> (It -> HM unit) -> nat -> It -> HM R)
      : XM R :=
    match s with
    | XS s => inl_m (on_src dbl s body)
    | XP (PRange t lo hi f) => pure_m body (xr_next t f) cp0 mv0 (S (Z.to_nat (hi - lo))) (Range lo hi)
    | XP (PArr i) =>
        a <-- inr_m (aget i) ;;
        pure_m body (xc_next (ar_next a)) cp0 mv0 (S nn) (siter_new 0 (N.of_nat nn))
    | XP (PSlice i p n) =>
        a <-- inr_m (aget i) ;;
        pure_m body (xc_next (s_next a)) cp0 mv0 (S (N.to_nat n)) (siter_new p n)
    | XP (PInto i) =>
        a <-- inr_m (aget i) ;;
        '(it, a') <-- lift_o (ai_new nn dinit a) ;;
        r <-- pure_m body xa_next xa_copy xa_move (S nn) it ;;
        inr_m (aput i a') ;;; ret r
    | XP (PChars cs f) => pure_m body (xu_next f) cp0 mv0 (S (length cs)) (encs cs)
    end.

  (** ** Programs *)
  Inductive xsink := XTerm (t : pterm T) | XList (j : nat) | XVec (j : nat) | XArr (j : nat).
  Inductive xop :=
  | XMix (o : mop T)
  | XA (o : aop T)
  | XPipe (s : xsrc) (bar : bool) (ps : stages) (k : xsink).
  Inductive xout := OM (o : mout T) | OA (o : aout T).

  Definition all_step (o : xop) : XM xout :=
    match o with
    | XMix o => r <-- inl_m (mix_step dbl sz dflt eqb cmp o) ;; ret (OM r)
    | XA o => r <-- inr_m (arr_step nn dinit vinit eqb o) ;; ret (OA r)
    | XPipe s bar ps (XTerm t) =>
        r <-- on_any s (fun _ nx cp mv dl fuel it => term_m nx cp mv dl fuel bar ps t it) ;; ret (OM (OL r))
    | XPipe s bar ps (XList j) =>
        inl_m (inl_m (wnew j)) ;;;
        l <-- on_any s (fun _ nx cp mv dl fuel it => run_collect nx cp mv dl bar fuel ps (l_new dbl) (l_put dbl) (l_end dbl) it) ;;
        inl_m (inl_m (wset j l)) ;;; ret (OM (OL OUnit))
    | XPipe s bar ps (XVec j) =>
        inl_m (inr_m (wnew j)) ;;;
        v <-- on_any s (fun _ nx cp mv dl fuel it => run_collect nx cp mv dl bar fuel ps (w_new sz) (w_put sz) w_end it) ;;
        inl_m (inr_m (wset j v)) ;;; ret (OM (OV ONone))
    | XPipe s bar ps (XArr j) =>
        inr_m (afresh j) ;;;
        a <-- on_any s (fun _ nx cp mv dl fuel it => run_array nn vinit nx cp mv dl fuel bar ps it) ;;
        inr_m (aput j a) ;;; ret (OA AONone)
    end.

  (** ** What they should do, in terms of sequences
      [None]: an element that has no value (moved away, or never given one). *)
  Notation lstate := (gmap nat (N * option (list T))).
  Notation vstate := (gmap nat (list T)).
  Notation astate := (gmap nat (list (option T))).
  Notation xstate := ((lstate * vstate) * astate)%type.
  Definition in_range (t : ity) (x : Z) : bool := ((imin t <=? x) && (x <=? imax t))%Z.
  Definition a_char (c : N) : bool := ((c <? 0xD800) || ((0xE000 <=? c) && (c <? 0x110000))) && negb (c =? 0x7F).
  (** What comes out of a source, and what is left. *)
  Definition pitems (sp : astate) (s : psrc) : option (astate * list T) :=
    match s with
    | PRange t lo hi f =>
        if ((lo <=? hi)%Z && in_range t lo && in_range t hi)%bool
        then Some (sp, (fun k => f (lo + Z.of_nat k)%Z) <$> seq 0 (Z.to_nat (hi - lo))) else None
    | PArr i => match sp !! i with Some c => match mapM id c with Some xs => Some (sp, xs) | None => None end | None => None end
    | PSlice i p n =>
        match sp !! i with
        | Some c =>
            if p + n <=? N.of_nat (length c) then
              match mapM id (take (N.to_nat n) (drop (N.to_nat p) c)) with Some xs => Some (sp, xs) | None => None end
            else None
        | None => None
        end
    | PInto i =>
        match sp !! i with
        | Some c => match mapM id c with Some xs => Some (<[i := replicate (length c) None]> sp, xs) | None => None end
        | None => None
        end
    | PChars cs f => if forallb a_char cs then Some (sp, (fun c => f (enc c)) <$> cs) else None
    end.
  Definition xitems (sp : xstate) (s : xsrc) (k : xstate -> list T -> sres xstate xout) : sres xstate xout :=
    match s with
    | XS (SL i) => match fst (fst sp) !! i with Some (_, Some xs) => k sp xs | _ => SPre end
    | XS (SLInto i) =>
        match fst (fst sp) !! i with
        | Some (al, o) => k ((<[i := (al, None)]> (fst (fst sp)), snd (fst sp)), snd sp) (default [] o) | None => SPre end
    | XS (SV i) => match snd (fst sp) !! i with Some xs => k sp xs | None => SPre end
    | XP s => match pitems (snd sp) s with Some (ar, xs) => k (fst sp, ar) xs | None => SPre end
    end.
  Definition a_spec (s : astate) (o : aop T) : sres astate (aout T) :=
    match arr_spec nn (abs dinit) vinit eqb s o with
    | Some (s', x) => SOk s' x
    | None =>
        match o with
        | AGet i k | ASet i k _ => match s !! i with Some _ => if N.of_nat nn <=? k then SPanic else SPre | None => SPre end
        | AList i xs => match s !! i with None => if (nn <? length xs)%nat then SPanic else SPre | Some _ => SPre end
        | _ => SPre
        end
    end.
  Definition xspec (sp : xstate) (o : xop) : sres xstate xout :=
    match o with
    | XMix o =>
        match mspec dbl lmax dflt eqb cmp (fst sp) o with
        | SOk s x => SOk (s, snd sp) (OM x) | SPanic => SPanic | SPre => SPre end
    | XA o =>
        match a_spec (snd sp) o with SOk s x => SOk (fst sp, s) (OA x) | SPanic => SPanic | SPre => SPre end
    | XPipe s bar ps (XTerm t) => xitems sp s (fun sp xs => SOk sp (OM (OL (value_of t (denote ps xs)))))
    | XPipe s bar ps (XList j) =>
        match fst (fst sp) !! j with
        | Some _ => SPre
        | None => xitems sp s (fun sp xs =>
            if N.of_nat (length (denote ps xs)) <? W
            then SOk ((<[j := (0, Some (denote ps xs))]> (fst (fst sp)), snd (fst sp)), snd sp) (OM (OL OUnit)) else SPre)
        end
    | XPipe s bar ps (XVec j) =>
        match snd (fst sp) !! j with
        | Some _ => SPre
        | None => xitems sp s (fun sp xs =>
            if N.of_nat (length (denote ps xs)) <=? lmax
            then SOk ((fst (fst sp), <[j := denote ps xs]> (snd (fst sp))), snd sp) (OM (OV ONone)) else SPre)
        end
    | XPipe s bar ps (XArr j) =>
        match snd sp !! j with
        | Some _ => SPre
        | None => xitems sp s (fun sp xs =>
            SOk (fst sp, <[j := (Some <$> take nn (denote ps xs)) ++ replicate (nn - length (denote ps xs)) (Some vinit)]> (snd sp))
              (OA AONone))
        end
    end.
  Definition xordered (o : xop) : Prop := match o with XMix o => mordered o | _ => True end.
End AllPipe.
Global Arguments psrc : clear implicits.
Global Arguments xsrc : clear implicits.
Global Arguments xsink : clear implicits.
Global Arguments xop : clear implicits.
Global Arguments xout : clear implicits.
