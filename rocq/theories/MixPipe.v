(** * MixPipe: programs with lists, vectors and pipelines between them

    vector.h:896-992 [VectorIter], 994-1026 [VectorIntoIter], linked_list.h:97-127
    [ListIter] and 1983-2015 [ListIntoIter] as sources of the pipelines of
    [PipeModel]; vector.h:460-469 [Vector::from_iter] and linked_list.h:753-767
    [BaseList::from_iter] as collections.  Programs consist of all operations
    of [ListPipe] and [VecModel] and of pipelines from any collection into any
    other.

    Simplifications: nodes and buffers live in separate heaps (neither class
    ever looks at the memory of the other). *)
From Verif Require Import Base Machine IterProps ListModel ListStep ListSpec PipeModel ListPipe VecModel VecSpec VecProps.
Local Open Scope N_scope.

Section MixPipe.
  Context {T : Type} (dbl : bool) (sz lmax : N) (dflt : T) (eqb : T -> T -> bool) (cmp : T -> T -> comparison).
  Notation H1 := (heap (ListModel.cell T)).
  Notation H2 := (heap (block T)).
  Notation HM := (M (H1 * H2)).
  Notation W1 := (world (ListModel.cell T) lst).
  Notation W2 := (world (block T) vec).
  Notation WM := (M (W1 * W2)).
  Notation stages := (list (padapt (V := T))).

  (** vector.h:911-917 as the source of a pipeline; 907 [VectorIter] is
      pointers, copying (and moving) it is copying them. *)
  Definition v_next (it : viter) : M H2 (viter * option T) := '(o, it') <-- viter_next it ;; ret (it', o).
  Definition v_copy (it : viter) : M H2 viter := ret it.
  Definition v_move (it : viter) : viter * viter := (it, it).
  Definition v_del (it : viter) : M H2 unit := ret tt.
  (** vector.h:1009-1020.  The copy constructor is deleted (1000), so a
      [VectorIntoIter] only goes directly into a [from_iter]. *)
  Definition vi_next (it : into_iter) : M H2 (into_iter * option T) :=
    '(o, it') <-- into_iter_next sz it ;; ret (it', o).
  (** vector.h:460-469: the vector; one round of the loop; the last line. *)
  Definition fv_new : M H2 vec := new_default sz.
  Definition fv_put (v : vec) (x : T) : M H2 vec := push_back sz v x.
  Definition fv_end (v : vec) : M H2 vec := ret v.

  Definition on_heaps {A} (m : HM A) : WM A := fun w =>
    match m (w_heap (fst w), w_heap (snd w)) with
    | Ok (a, (h1, h2)) => Ok (a, (World h1 (w_vars (fst w)), World h2 (w_vars (snd w))))
    | Err e => Err e
    end.

  (** ** Sources *)
  Inductive msrc := SL (i : nat) (* l.iter() *) | SLInto (i : nat) (* l.into_iter() *) | SV (i : nat) (* v.iter() *).
  Definition on_src {R} (s : msrc)
      (body : forall It, (It -> HM (It * option T)) -> (It -> HM It) -> (It -> It * It) -> (It -> HM unit) -> nat -> It -> HM R)
      : WM R :=
    match s with
    | SL i =>
        l <-- inl_m (wget i) ;;
        on_heaps (fuel <-- inl_m nodes_in_memory ;; it <-- inl_m (it_new l) ;;
          body _ (fun it => inl_m (it_next it)) (fun it => inl_m (bcopy it)) bmove (fun it => inl_m (bdel it)) fuel it)
    | SLInto i =>
        l <-- inl_m (wget i) ;;
        let '(it, l') := l_move l in
        r <-- on_heaps (fuel <-- inl_m nodes_in_memory ;;
          body _ (fun it => inl_m (into_next dbl it)) (fun it => inl_m (l_copy dbl it)) l_move
               (fun it => inl_m (odel dbl it)) fuel it) ;;
        inl_m (wset i l') ;;; ret r
    | SV i =>
        v <-- inr_m (wget i) ;;
        on_heaps (body _ (fun it => inr_m (v_next it)) (fun it => inr_m (v_copy it)) v_move (fun it => inr_m (v_del it))
          (S (N.to_nat (v_len v))) (iter v))
    end.
  (** An iterator used once, in place: no copy, no move. *)
  Inductive isrc := IL (i : nat) | IV (i : nat).
  Definition on_into {R} (s : isrc)
      (body : forall It, (It -> HM (It * option T)) -> (It -> HM unit) -> nat -> It -> HM R) : WM R :=
    match s with
    | IL i =>
        l <-- inl_m (wget i) ;;
        let '(it, l') := l_move l in
        r <-- on_heaps (fuel <-- inl_m nodes_in_memory ;;
          body _ (fun it => inl_m (into_next dbl it)) (fun it => inl_m (odel dbl it)) fuel it) ;;
        inl_m (wset i l') ;;; ret r
    | IV i =>
        v <-- inr_m (wget i) ;;
        let '(it, v') := into_iter_new v in
        r <-- on_heaps (body _ (fun it => inr_m (vi_next it)) (fun it => inr_m (into_iter_drop sz it))
                          (S (N.to_nat (v_len v))) it) ;;
        inr_m (wset i v') ;;; ret r
    end.

  (** ** Programs *)
  Inductive msink := KTerm (t : pterm T) | KList (j : nat) | KVec (j : nat).
  Inductive mop :=
  | MList (o : pop T)
  | MVec (o : vop T)
  (* source | stages | terminal, or combine(source, stages..., terminal) *)
  | MPipe (s : msrc) (bar : bool) (ps : stages) (k : msink)
  (* List::from_iter(source), Vector::from_iter(source) *)
  | MIntoL (s : isrc) (j : nat)
  | MIntoV (s : isrc) (j : nat)
  (* [n] calls of [next()] on the iterator, which is then dropped *)
  | MTake (s : isrc) (n : nat).
  Inductive mout := OL (o : lout T) | OV (o : vout T).

  Definition term_m {It} (inext : It -> HM (It * option T)) (icopy : It -> HM It) (imove : It -> It * It)
      (idel : It -> HM unit) (fuel : nat) (bar : bool) (ps : stages) (t : pterm T) (it : It) : HM (lout T) :=
    match t with
    | TFold k a => r <-- run_fold inext icopy imove idel bar fuel ps k a it ;; ret (OList r)
    | TReduce k => r <-- run_reduce inext icopy imove idel bar fuel ps k it ;; ret (ListStep.OOpt r)
    | TFind q => r <-- run_find inext icopy imove idel bar fuel ps q it ;; ret (ListStep.OOpt r)
    | TTake n => r <-- run_take inext icopy imove idel bar fuel ps n it ;; ret (OOpts r)
    end.
  Definition l_new : HM (lst * lptr) := inl_m (fi_new dbl).
  Definition l_put (k : lst * lptr) (x : T) : HM (lst * lptr) := inl_m (fi_put dbl k x).
  Definition l_end (k : lst * lptr) : HM lst := inl_m (fi_end dbl k).
  Definition w_new : HM vec := inr_m fv_new.
  Definition w_put (k : vec) (x : T) : HM vec := inr_m (fv_put k x).
  Definition w_end (k : vec) : HM vec := inr_m (fv_end k).

  Definition mix_step (o : mop) : WM mout :=
    match o with
    | MList o => r <-- inl_m (pipe_step dbl o) ;; ret (OL r)
    | MVec o => r <-- inr_m (vec_step sz dflt eqb cmp o) ;; ret (OV r)
    | MPipe s bar ps (KTerm t) =>
        r <-- on_src s (fun _ nx cp mv dl fuel it => term_m nx cp mv dl fuel bar ps t it) ;; ret (OL r)
    | MPipe s bar ps (KList j) =>
        inl_m (wnew j) ;;;
        l <-- on_src s (fun _ nx cp mv dl fuel it => run_collect nx cp mv dl bar fuel ps l_new l_put l_end it) ;;
        inl_m (wset j l) ;;; ret (OL OUnit)
    | MPipe s bar ps (KVec j) =>
        inr_m (wnew j) ;;;
        v <-- on_src s (fun _ nx cp mv dl fuel it => run_collect nx cp mv dl bar fuel ps w_new w_put w_end it) ;;
        inr_m (wset j v) ;;; ret (OV ONone)
    | MIntoL s j =>
        inl_m (wnew j) ;;;
        l <-- on_into s (fun _ nx dl fuel it => by_ref dl (collect_body fuel nx l_new l_put l_end) it) ;;
        inl_m (wset j l) ;;; ret (OL OUnit)
    | MIntoV s j =>
        inr_m (wnew j) ;;;
        v <-- on_into s (fun _ nx dl fuel it => by_ref dl (collect_body fuel nx w_new w_put w_end) it) ;;
        inr_m (wset j v) ;;; ret (OV ONone)
    | MTake s n =>
        r <-- on_into s (fun _ nx dl fuel it => by_ref dl (take_body nx n) it) ;; ret (OL (OOpts r))
    end.

  (** ** What they should do, in terms of sequences *)
  Notation lstate := (gmap nat (N * option (list T))).
  Notation vstate := (gmap nat (list T)).
  Notation res := (sres (lstate * vstate) mout).
  (** What comes out of a source, and what is left of the collection. *)
  Definition items (sp : lstate * vstate) (s : msrc) (k : lstate * vstate -> list T -> res) : res :=
    match s with
    | SL i => match fst sp !! i with Some (_, Some xs) => k sp xs | _ => SPre end
    | SLInto i => match fst sp !! i with
                  | Some (al, o) => k (<[i := (al, None)]> (fst sp), snd sp) (default [] o) | None => SPre end
    | SV i => match snd sp !! i with Some xs => k sp xs | None => SPre end
    end.
  Definition into_items (sp : lstate * vstate) (s : isrc) (k : lstate * vstate -> list T -> res) : res :=
    match s with
    | IL i => match fst sp !! i with
              | Some (al, o) => k (<[i := (al, None)]> (fst sp), snd sp) (default [] o) | None => SPre end
    | IV i => match snd sp !! i with Some xs => k (fst sp, <[i := []]> (snd sp)) xs | None => SPre end
    end.
  (** A new collection; [lmax] bounds the vectors. *)
  Definition new_list_var (sp : lstate * vstate) (j : nat) (xs : list T) : res :=
    if N.of_nat (length xs) <? W then SOk (<[j := (0, Some xs)]> (fst sp), snd sp) (OL OUnit) else SPre.
  Definition new_vec_var (sp : lstate * vstate) (j : nat) (xs : list T) : res :=
    if N.of_nat (length xs) <=? lmax then SOk (fst sp, <[j := xs]> (snd sp)) (OV ONone) else SPre.
  Definition unused {V R} (m : gmap nat V) (j : nat) (k : sres R mout) : sres R mout :=
    match m !! j with Some _ => SPre | None => k end.
  Definition mspec (sp : lstate * vstate) (o : mop) : res :=
    match o with
    | MList o => match pspec dbl (fst sp) o with SOk s x => SOk (s, snd sp) (OL x) | SPanic => SPanic | SPre => SPre end
    | MVec o =>
        match vspec_step dflt eqb cmp (snd sp) o with
        | Some (s, x) => if vop_safeb (snd sp) o && vlimitb lmax o s then SOk (fst sp, s) (OV x) else SPre
        | None => SPre
        end
    | MPipe s bar ps (KTerm t) => items sp s (fun sp xs => SOk sp (OL (value_of t (denote ps xs))))
    | MPipe s bar ps (KList j) => unused (fst sp) j (items sp s (fun sp xs => new_list_var sp j (denote ps xs)))
    | MPipe s bar ps (KVec j) => unused (snd sp) j (items sp s (fun sp xs => new_vec_var sp j (denote ps xs)))
    | MIntoL s j => unused (fst sp) j (into_items sp s (fun sp xs => new_list_var sp j xs))
    | MIntoV s j => unused (snd sp) j (into_items sp s (fun sp xs => new_vec_var sp j xs))
    | MTake s n => into_items sp s (fun sp xs => SOk sp (OL (OOpts ((fun i => xs !! i) <$> seq 0 n))))
    end.
  Definition mordered (o : mop) : Prop := match o with MList o => pordered o | _ => True end.
End MixPipe.
Global Arguments mop : clear implicits.
Global Arguments mout : clear implicits.
Global Arguments msink : clear implicits.
