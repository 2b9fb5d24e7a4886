(** * ListSpec: lists as sequences

    The specification of a history of list operations: a variable holds an
    allocator and either a sequence or nothing (moved from).  No pointers, no
    nodes. *)
From Verif Require Import Base Machine SortSpec ListStep.
Local Open Scope N_scope.
Local Notation nlen l := (N.of_nat (length l)).

Section Spec.
  Context {T : Type} (dbl : bool).
  Notation lstate := (gmap nat (N * option (list T))).
  Notation res := (sres lstate (lout T)).

  Definition look (sp : lstate) (i : nat) (k : N -> option (list T) -> res) : res :=
    match sp !! i with Some (al, o) => k al o | None => SPre end.
  (** The list has not been moved from. *)
  Definition live (sp : lstate) (i : nat) (k : N -> list T -> res) : res :=
    match sp !! i with Some (al, Some xs) => k al xs | _ => SPre end.
  Definition fresh (sp : lstate) (i : nat) (k : res) : res :=
    match sp !! i with Some _ => SPre | None => k end.
  Definition need (b : bool) (k : res) : res := if b then k else SPre.
  (** A list gets new contents; they have to be countable in a [usize]. *)
  Definition give (sp : lstate) (i : nat) (al : N) (xs : list T) (o : lout T) : res :=
    if nlen xs <? W then SOk (<[i := (al, Some xs)]> sp) o else SPre.

  (** The first of every run of elements related to the last one kept. *)
  Fixpoint runs (r : T -> T -> bool) (w : T) (xs : list T) : list T :=
    match xs with
    | [] => []
    | x :: m => if r x w then runs r w m else x :: runs r x m
    end.
  Definition firsts (r : T -> T -> bool) (xs : list T) : list T :=
    match xs with [] => [] | x :: m => x :: runs r x m end.
  Definition rest (f : T -> bool) (xs : list T) : list T := List.filter (fun x => negb (f x)) xs.

  (** [next] (true) takes from the front, [prev] (false) from the back. *)
  Fixpoint taken (xs : list T) (calls : list bool) : list (option T) :=
    match calls with
    | [] => []
    | true :: r => head xs :: taken (tail xs) r
    | false :: r => last xs :: taken (take (length xs - 1) xs) r
    end.
  Definition forward (calls : list bool) : bool := forallb (fun c => c) calls.

  Definition shown (xs : list T) : list (ptok T) :=
    match xs with
    | [] => []
    | x :: r => PElem x :: flat_map (fun y => [PSep; PElem y]) r
    end.

  Fixpoint sortedb (lt : T -> T -> bool) (xs : list T) : bool :=
    match xs with [] => true | x :: r => forallb (fun y => negb (lt y x)) r && sortedb lt r end.

  Definition isnil (xs : list T) : bool := match xs with [] => true | _ => false end.

  (** Both lists afterwards when [i] takes over the contents of [j]. *)
  Definition take_over (sp : lstate) (i j : nat) (al : N) (xs : list T) (rv : bool) : res :=
    give (<[j := (al, if rv then None else Some [])]> sp) i al xs OUnit.

  (** [sort] and [merge] are described as they are: among equivalent elements
      the last comes first, and those of [other] come before those of [this]
      (see C21). *)
  Definition lspec (sp : lstate) (o : lop T) : res :=
    match o with
    | LNew i al => fresh sp i (give sp i al [] OUnit)
    | LRange i al vs => fresh sp i (give sp i al vs OUnit)
    | LCount i al n v => fresh sp i (need (n <? W) (give sp i al (replicate (N.to_nat n) v) OUnit))
    | LFrom i vs => fresh sp i (give sp i 0 vs OUnit)
    | LCopy i j => fresh sp i (look sp j (fun al o => give sp i al (default [] o) OUnit))
    | LCopyAl i j al => fresh sp i (look sp j (fun _ o => give sp i al (default [] o) OUnit))
    | LMove i j =>
        fresh sp i (look sp j (fun al o => SOk (<[i := (al, o)]> (<[j := (al, None)]> sp)) OUnit))
    | LMoveAl i j al =>
        fresh sp i (look sp j (fun al' o => SOk (<[i := (al, o)]> (<[j := (al', None)]> sp)) OUnit))
    | LCopyAsg i j =>
        look sp i (fun _ _ => look sp j (fun al o =>
          if (i =? j)%nat then SOk sp OUnit else give sp i al (default [] o) OUnit))
    | LMoveAsg i j =>
        look sp i (fun _ _ => look sp j (fun al o =>
          if (i =? j)%nat then SOk sp OUnit
          else SOk (<[i := (al, o)]> (<[j := (al, None)]> sp)) OUnit))
    | LIlist i vs => live sp i (fun al _ => give sp i al vs OUnit)
    | LSwap i j =>
        look sp i (fun al o => look sp j (fun al' o' =>
          SOk (<[i := (al', o')]> (<[j := (al, o)]> sp)) OUnit))
    | LDel i => look sp i (fun _ _ => SOk (delete i sp) OUnit)
    | LClear i => live sp i (fun al _ => give sp i al [] OUnit)
    | LResize i n v =>
        live sp i (fun al xs => need (n <? W)
          (give sp i al (take (N.to_nat n) xs ++ replicate (N.to_nat n - length xs) v) OUnit))
    | LPushF i v => live sp i (fun al xs => give sp i al (v :: xs) OUnit)
    | LPopF i =>
        live sp i (fun al xs => match xs with [] => SPre | _ :: r => give sp i al r OUnit end)
    | LPushB i v => need dbl (live sp i (fun al xs => give sp i al (xs ++ [v]) OUnit))
    | LPopB i =>
        need dbl (live sp i (fun al xs => need (negb (isnil xs))
          (give sp i al (take (length xs - 1) xs) OUnit)))
    | LEmpA i k v =>
        live sp i (fun al xs => need (k <=? length xs)%nat
          (give sp i al (take k xs ++ [v] ++ drop k xs) (OPos (k + 1))))
    | LInsA i k vs =>
        live sp i (fun al xs => need (k <=? length xs)%nat
          (give sp i al (take k xs ++ vs ++ drop k xs) (OPos (if isnil vs then k else k + 1)%nat)))
    | LEraA i k =>
        live sp i (fun al xs => need (k <=? length xs)%nat
          (give sp i al (take k xs ++ drop (k + 1) xs) (OPos (k + 1))))
    | LEraAR i k1 k2 =>
        live sp i (fun al xs => need ((k1 <=? k2) && (k2 <=? length xs + 1))%nat
          (if (k1 =? k2)%nat then SOk sp (OPos k1)
           else give sp i al (take k1 xs ++ drop (k2 - 1) xs) (OPos (k1 + 1))))
    | LEmp i k v =>
        need dbl (live sp i (fun al xs => need ((1 <=? k) && (k <=? length xs + 1))%nat
          (give sp i al (take (k - 1) xs ++ [v] ++ drop (k - 1) xs) (OPos k))))
    | LIns i k vs =>
        need dbl (live sp i (fun al xs => need ((1 <=? k) && (k <=? length xs + 1))%nat
          (give sp i al (take (k - 1) xs ++ vs ++ drop (k - 1) xs) (OPos k))))
    | LEra i k =>
        need dbl (live sp i (fun al xs => need ((1 <=? k) && (k <=? length xs + 1))%nat
          (give sp i al (take (k - 1) xs ++ drop k xs) (OPos k))))
    | LEraR i k1 k2 =>
        need dbl (live sp i (fun al xs => need ((1 <=? k1) && (k1 <=? k2) && (k2 <=? length xs + 1))%nat
          (give sp i al (take (k1 - 1) xs ++ drop (k2 - 1) xs) (OPos k1))))
    | LSplA i k j rv =>
        live sp i (fun al xs => live sp j (fun al' ys =>
          need (negb (i =? j)%nat && (al =? al') && (k <=? length xs)%nat)
            (take_over sp i j al (take k xs ++ ys ++ drop k xs) rv)))
    | LSpl i k j rv =>
        need dbl (live sp i (fun al xs => live sp j (fun al' ys =>
          need (negb (i =? j)%nat && (al =? al') && (1 <=? k)%nat && (k <=? length xs + 1)%nat)
            (take_over sp i j al (take (k - 1) xs ++ ys ++ drop (k - 1) xs) rv))))
    | LMer i j rv lt =>
        live sp i (fun al xs => live sp j (fun al' ys =>
          if (i =? j)%nat || isnil ys then SOk sp OUnit
          else need ((al =? al') && sortedb lt xs && sortedb lt ys)
                 (take_over sp i j al (ssort lt (ys ++ xs)) rv)))
    | LSrt i lt => live sp i (fun al xs => give sp i al (ssort lt (reverse xs)) OUnit)
    | LRev i => live sp i (fun al xs => give sp i al (reverse xs) OUnit)
    | LRemIf i f =>
        live sp i (fun al xs => give sp i al (rest f xs) (ONum (nlen (List.filter f xs))))
    | LUniq i r =>
        live sp i (fun al xs => give sp i al (firsts r xs) (ONum (nlen xs - nlen (firsts r xs))))
    | LSize i => look sp i (fun _ o => SOk sp (ONum (nlen (default [] o))))
    | LEmptyQ i => look sp i (fun _ o => SOk sp (OBool (isnil (default [] o))))
    | LMovedQ i => look sp i (fun _ o => SOk sp (OBool (match o with None => true | _ => false end)))
    | LAlloc i => look sp i (fun al _ => SOk sp (ONum al))
    | LFront i => look sp i (fun _ o => SOk sp (OOpt (head (default [] o))))
    | LBack i => need dbl (look sp i (fun _ o => SOk sp (OOpt (last (default [] o)))))
    | LFrontU i | LFrontUC i =>
        live sp i (fun _ xs => match xs with [] => SPre | x :: _ => SOk sp (OVal x) end)
    | LBackU i =>
        need dbl (live sp i (fun _ xs => match last xs with None => SPre | Some x => SOk sp (OVal x) end))
    | LItems i => live sp i (fun _ xs => SOk sp (OList xs))
    | LItemsBack i => need dbl (live sp i (fun _ xs => SOk sp (OList (reverse xs))))
    | LIter i calls =>
        need (dbl || forward calls) (live sp i (fun _ xs => SOk sp (OOpts (taken xs calls))))
    | LInto i calls =>
        need (dbl || forward calls) (live sp i (fun al xs =>
          SOk (<[i := (al, None)]> sp) (OOpts (taken xs calls))))
    | LPrint i => live sp i (fun _ xs => SOk sp (OToks ([POpen dbl] ++ shown xs ++ [PClose])))
    end.

  (** The operations that go wrong, in terms of the sequences: merging into an
      empty list or from an rvalue, splicing in an empty list, sorting a list
      of one element, moving to another allocator, and the [const]
      [front_unchecked] of a doubly linked list. *)
  Definition contents (sp : lstate) (i : nat) : list T :=
    match sp !! i with Some (_, o) => default [] o | None => [] end.
  Definition alloc_of (sp : lstate) (i : nat) : N := match sp !! i with Some (al, _) => al | None => 0 end.
  Definition safe (sp : lstate) (o : lop T) : bool :=
    match o with
    | LMoveAl _ j al => al =? alloc_of sp j
    | LSplA _ _ j _ | LSpl _ _ j _ => negb (isnil (contents sp j))
    | LMer i j rv _ =>
        (i =? j)%nat || isnil (contents sp j) || (negb rv && negb (isnil (contents sp i)))
    | LSrt i _ => negb (length (contents sp i) =? 1)%nat
    | LFrontUC i => negb dbl || (length (contents sp i) =? 1)%nat
    | _ => true
    end.
  Definition gspec (sp : lstate) (o : lop T) : res :=
    if safe sp o then lspec sp o else SPre.

  (** What the client has to bring: orders that are strict weak orders. *)
  Definition ordered (o : lop T) : Prop :=
    match o with LMer _ _ _ lt | LSrt _ lt => swo lt | _ => True end.
End Spec.
