(** * MatchModel: include/mstl/utility/match.h

    [match(t).when(..).when(..).rest(..).finale()].  Comparing with a pattern
    and running a branch are client code: each is an arbitrary transformation
    of a client world [Wd], so that the order and number of the calls is
    visible.  The result slot is the [Option<R>] proved in C34 (here [option R]).

    Overloads that do not compile and are therefore not modelled:
    [Match::rest] as first branch (match.h:110-114 passes the *result* of the
    branch where a callable is required).  The [MatchMid<T, void>]
    specialisation (match.h:206-254) has private constructors and, unlike the
    primary template, no [friend class Match<T>], so a first branch returning
    void does not compile; its member functions are modelled anyway
    ([vm_*] below) as the code that would run. *)
From Verif Require Import Base.

Section Match.
  Context {R Wd : Type}.

  (** One branch: the test against the target ([u == target] or
      [range.contains(target)], [None] for [rest]), with its effect, and the
      body. *)
  Record branch := Branch {
    b_test : option (Wd -> bool * Wd);
    b_body : Wd -> R * Wd;
  }.

  (** match.h:120-123 the state of a [MatchMid]: [res]. *)
  Notation MM := (M Wd).
  Definition run_test (t : Wd -> bool * Wd) : MM bool := fun w => Ok (t w).
  Definition run_body (b : Wd -> R * Wd) : MM R := fun w => Ok (b w).

  (** match.h:69-77 (value) and 94-103 (range): the first [when], on [Match]. *)
  Definition first_when (t : Wd -> bool * Wd) (body : Wd -> R * Wd) : MM (option R) :=
    b <-- run_test t ;;
    if b : bool then r <-- run_body body ;; ret (Some r) else ret None.

  (** match.h:143-150 and 167-175 [MatchMid::when]. *)
  Definition mid_when (res : option R) (t : Wd -> bool * Wd) (body : Wd -> R * Wd) : MM (option R) :=
    match res with
    | Some _ => ret res
    | None =>
        b <-- run_test t ;;
        if b : bool then r <-- run_body body ;; ret (Some r) else ret None
    end.
  (** match.h:182-189 [MatchMid::rest]. *)
  Definition mid_rest (res : option R) (body : Wd -> R * Wd) : MM (option R) :=
    match res with
    | Some _ => ret res
    | None => r <-- run_body body ;; ret (Some r)
    end.
  Definition mid_branch (res : option R) (b : branch) : MM (option R) :=
    match b_test b with
    | Some t => mid_when res t (b_body b)
    | None => mid_rest res (b_body b)
    end.
  Fixpoint mid_branches (res : option R) (bs : list branch) : MM (option R) :=
    match bs with
    | [] => ret res
    | b :: r => res' <-- mid_branch res b ;; mid_branches res' r
    end.
  (** match.h:194-196 [finale]: [res.unwrap()], which empties [res]. *)
  Definition finale (res : option R) : MM (R * option R) :=
    match res with Some r => ret (r, None) | None => fail Panic end.

  (** The whole expression; match.h:260-262 [match], 307-320 the pipe forms
      call the same members. *)
  Definition match_expr (t : Wd -> bool * Wd) (body : Wd -> R * Wd) (bs : list branch) : MM R :=
    res <-- first_when t body ;;
    res' <-- mid_branches res bs ;;
    '(r, _) <-- finale res' ;;
    ret r.
End Match.
Arguments branch : clear implicits.

(** ** The void specialisation *)
Section VoidMatch.
  Context {Wd : Type}.
  Notation MM := (M Wd).
  Inductive vpat := VEq (t : Wd -> bool * Wd) | VRange (t : Wd -> bool * Wd) | VRest.
  Record vbranch := VBranch { v_pat : vpat; v_body : Wd -> Wd }.
  Definition run_void (b : Wd -> Wd) : MM unit := fun w => Ok (tt, b w).
  (** match.h:212-239: only the value overload of [when] sets [reach]. *)
  Definition vm_branch (reach : bool) (b : vbranch) : MM bool :=
    if reach then ret true
    else
      match v_pat b with
      | VEq t =>
          c <-- run_test t ;;
          if c : bool then run_void (v_body b) ;;; ret true else ret false
      | VRange t =>
          c <-- run_test t ;;
          if c : bool then run_void (v_body b) ;;; ret reach else ret reach
      | VRest => run_void (v_body b) ;;; ret reach
      end.
  Fixpoint vm_branches (reach : bool) (bs : list vbranch) : MM bool :=
    match bs with
    | [] => ret reach
    | b :: r => reach' <-- vm_branch reach b ;; vm_branches reach' r
    end.
  (** match.h:241-245 [finale]. *)
  Definition vm_finale (reach : bool) : MM unit := if reach then ret tt else fail Panic.
  (** match.h:248-253 the constructors used by the first [when]. *)
  Definition vm_expr (t : Wd -> bool * Wd) (body : Wd -> Wd) (bs : list vbranch) : MM unit :=
    c <-- run_test t ;;
    reach <-- (if c : bool then run_void body ;;; ret true else ret false) ;;
    reach' <-- vm_branches reach bs ;;
    vm_finale reach'.
End VoidMatch.
Arguments vpat : clear implicits.
Arguments vbranch : clear implicits.
