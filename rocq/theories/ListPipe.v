(** * ListPipe: programs with pipelines over lists

    linked_list.h:97-127 [ListIter], 1983-2015 [ListIntoIter] as sources of
    the pipelines of [PipeModel]; 753-767 [BaseList::from_iter] as the
    collection.  Programs consist of all operations of [ListStep] and of
    pipelines over any of the lists. *)
From Verif Require Import Base Machine IterProps ListModel ListStep ListSpec PipeModel.
Local Open Scope N_scope.

Section ListPipe.
  Context {T : Type} (dbl : bool).
  Notation H := (heap (cell T)).
  Notation HM := (M H).
  Notation WM := (M (world (cell T) lst)).
  Notation stages := (list (padapt (V := T))).

  (** linked_list.h:753-767 [from_iter]: the list and [p]; one round of the
      loop; the last line. *)
  Definition fi_new : HM (lst * lptr) := l <-- init_empty_list dbl 0 ;; ret (l, l_head l).
  Definition fi_put (k : lst * lptr) (v : T) : HM (lst * lptr) :=
    let '(l, p) := k in
    tmp <-- construct_node 0 v ;;
    set_next dbl p tmp ;;; ret (set_len l (uadd (l_len l) 1), tmp).
  Definition fi_end (k : lst * lptr) : HM lst :=
    let '(l, p) := k in set_next dbl p (l_tail l) ;;; ret l.

  (** A [ListIter] is two pointers; copying it is copying them. *)
  Definition bcopy (it : lptr * lptr) : HM (lptr * lptr) := ret it.
  Definition bmove (it : lptr * lptr) : (lptr * lptr) * (lptr * lptr) := (it, it).
  Definition bdel (it : lptr * lptr) : HM unit := ret tt.
  (** A [ListIntoIter] is a list. *)
  Definition odel (l : lst) : HM unit := l_destroy dbl l ;;; ret tt.

  (** The terminals with a value; [fold] with a sequence as accumulator (so
      that one can see which elements came, and in which order). *)
  Inductive pterm :=
  | TFold (k : list T -> T -> list T) (a : list T)
  | TReduce (k : T -> T -> T)
  | TFind (q : T -> bool)
  | TTake (n : nat).
  Section Run.
    Context {It : Type} (inext : It -> HM (It * option T)) (icopy : It -> HM It) (imove : It -> It * It)
            (idel : It -> HM unit) (bar : bool) (ps : stages).
    Definition run_term (t : pterm) (it : It) : HM (lout T) :=
      fuel <-- nodes_in_memory ;;
      match t with
      | TFold k a => r <-- run_fold inext icopy imove idel bar fuel ps k a it ;; ret (OList r)
      | TReduce k => r <-- run_reduce inext icopy imove idel bar fuel ps k it ;; ret (OOpt r)
      | TFind q => r <-- run_find inext icopy imove idel bar fuel ps q it ;; ret (OOpt r)
      | TTake n => r <-- run_take inext icopy imove idel bar fuel ps n it ;; ret (OOpts r)
      end.
    Definition run_coll (it : It) : HM lst :=
      fuel <-- nodes_in_memory ;; run_collect inext icopy imove idel bar fuel ps fi_new fi_put fi_end it.
  End Run.

  (** ** Programs *)
  Inductive pop :=
  | PStep (o : lop T)
  (* l.iter() | stages | terminal *)
  | PIter (i : nat) (bar : bool) (ps : stages) (t : pterm)
  | PIterC (i : nat) (bar : bool) (ps : stages) (j : nat)
  (* l.into_iter() | stages | terminal *)
  | PInto (i : nat) (bar : bool) (ps : stages) (t : pterm)
  | PIntoC (i : nat) (bar : bool) (ps : stages) (j : nat)
  (* [j = List::from_iter(l.into_iter())] *)
  | PFromInto (i j : nat).
  Definition pipe_step (o : pop) : WM (lout T) :=
    match o with
    | PStep o => list_step dbl o
    | PIter i bar ps t => l_obs i (fun l => it <-- it_new l ;; run_term it_next bcopy bmove bdel bar ps t it)
    | PIterC i bar ps j =>
        o <-- wget i ;; l_mk j (it <-- it_new o ;; run_coll it_next bcopy bmove bdel bar ps it)
    | PInto i bar ps t =>
        l_updo i (fun l => let '(it, l') := l_move l in
          r <-- run_term (into_next dbl) (l_copy dbl) l_move odel bar ps t it ;; ret (l', r))
    | PIntoC i bar ps j =>
        wnew j ;;; o <-- wget i ;;
        let '(it, o') := l_move o in
        l <-- lift (run_coll (into_next dbl) (l_copy dbl) l_move odel bar ps it) ;;
        wset i o' ;;; wset j l ;;; ret OUnit
    | PFromInto i j =>
        wnew j ;;; o <-- wget i ;;
        let '(it, o') := l_move o in
        l <-- lift (fuel <-- nodes_in_memory ;;
                    by_ref odel (collect_body fuel (into_next dbl) fi_new fi_put fi_end) it) ;;
        wset i o' ;;; wset j l ;;; ret OUnit
    end.

  (** ** What they should do, in terms of sequences *)
  Notation lstate := (gmap nat (N * option (list T))).
  Notation res := (sres lstate (lout T)).
  (** The value of a terminal on the elements that come out of the stages. *)
  Definition value_of (t : pterm) (ys : list T) : lout T :=
    match t with
    | TFold k a => OList (fold_left k ys a)
    | TReduce k => OOpt (match ys with [] => None | y :: r => Some (fold_left k r y) end)
    | TFind q => OOpt (List.find q ys)
    | TTake n => OOpts ((fun i => ys !! i) <$> seq 0 n)
    end.
  Definition pspec (sp : lstate) (o : pop) : res :=
    match o with
    | PStep o => gspec dbl sp o
    | PIter i bar ps t => live sp i (fun _ xs => SOk sp (value_of t (denote ps xs)))
    | PIterC i bar ps j => fresh sp j (live sp i (fun _ xs => give sp j 0 (denote ps xs) OUnit))
    | PInto i bar ps t =>
        look sp i (fun al o => SOk (<[i := (al, None)]> sp) (value_of t (denote ps (default [] o))))
    | PIntoC i bar ps j =>
        fresh sp j (look sp i (fun al o =>
          give (<[i := (al, None)]> sp) j 0 (denote ps (default [] o)) OUnit))
    | PFromInto i j =>
        fresh sp j (look sp i (fun al o => give (<[i := (al, None)]> sp) j 0 (default [] o) OUnit))
    end.
  (** The orders passed to [sort] and [merge] have to be orders. *)
  Definition pordered (o : pop) : Prop := match o with PStep o => ordered o | _ => True end.
End ListPipe.
Global Arguments pop : clear implicits.
Global Arguments pterm : clear implicits.
