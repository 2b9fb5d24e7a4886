(** * StringModel: include/mstl/str/basic_string.h BasicString

    A string object is [len], the union [storage] (16 inline bytes or the
    capacity) and [alloc.bytes].  A heap block records the size it was
    requested with; its bytes, and the inline bytes, may be indeterminate
    ([None]).  The allocator is the stateless default one.

    A [BasicChar] (basic_char.h:54-107) is the list of the bytes it holds; it
    is a separate object, so no copy from it overlaps the string.

    Undefined: reading an indeterminate byte, outside a block or through a
    null or dangling pointer; reading [storage.cap] while the inline bytes are
    stored, or inline bytes while the capacity is; sized deallocation with
    another size than was requested.

    [strict] says whether flowing off the end of [Allocate::operator=]
    (basic_string.h:439-450, no return statement) is undefined, as the
    standard has it, or returns with an unused result ([false]).

    Not modelled because it does not compile when used: [reserve]
    (basic_string.h:294-314: members that do not exist); [pop_back] for UTF-8
    ([UTF8::last] does not compile), [insert] for Ascii.  [shrink_to_fit] is
    empty. *)
From Verif Require Import Base Utf8Model.
Local Open Scope N_scope.

Record sblk := SBlk { sb_cap : N; sb_data : list (option N) }.
(** basic_string.h:458-461 *)
Inductive store := ULocal (l : list (option N)) | UCap (c : N).
(** basic_string.h:457-462 *)
Record str := Str { s_len : N; s_store : store; s_ptr : option N }.
(** basic_string.h:455 *)
Definition LOCAL : N := 16.

Section Str.
  Context `{mem : memory} (strict : bool).
  Notation HM := (M (heap sblk)).

  (** ** Bytes *)
  Definition write_at (l : list (option N)) (off : N) (bs : list N) : option (list (option N)) :=
    if off + N.of_nat (length bs) <=? N.of_nat (length l) then
      Some (take (N.to_nat off) l ++ (Some <$> bs) ++ drop (N.to_nat off + length bs) l)
    else None.
  Definition read_at (l : list (option N)) (off n : N) : option (list N) :=
    if off + n <=? N.of_nat (length l) then
      mapM id (take (N.to_nat n) (drop (N.to_nat off) l))
    else None.
  Definition or_ub {A} (o : option A) : HM A :=
    match o with Some x => ret x | None => fail UB end.

  (** Where [info.src] and [info.des] point to. *)
  Inductive loc := LLocal | LHeap (p : option N).

  (** [memcpy]/[memmove] split into reading and writing (basic_string.h:359-370). *)
  Definition read_loc (s : str) (p : loc) (off n : N) : HM (list N) :=
    if n =? 0 then ret []
    else match p with
         | LLocal => match s_store s with ULocal l => or_ub (read_at l off n) | UCap _ => fail UB end
         | LHeap None => fail UB
         | LHeap (Some a) => b <-- hread a ;; or_ub (read_at (sb_data b) off n)
         end.
  (** Writing bytes over the capacity makes the inline bytes the stored member. *)
  Definition inline (u : store) : list (option N) :=
    match u with ULocal l => l | UCap _ => replicate 16 None end.
  Definition write_loc (s : str) (p : loc) (off : N) (bs : list N) : HM str :=
    match p with
    | LLocal => l <-- or_ub (write_at (inline (s_store s)) off bs) ;;
                ret (Str (s_len s) (ULocal l) (s_ptr s))
    | LHeap None => fail UB
    | LHeap (Some a) =>
        b <-- hread a ;;
        d <-- or_ub (write_at (sb_data b) off bs) ;;
        hwrite a (SBlk (sb_cap b) d) ;;; ret s
    end.
  Definition get_cap (s : str) : HM N :=
    match s_store s with UCap c => ret c | ULocal _ => fail UB end.

  (** allocator.h:24-31, 50-57 for bytes: [nullptr] when there is no memory. *)
  Definition s_alloc (n : N) : HM (option N) :=
    if n <=? alloc_max then hnew (SBlk n (replicate (N.to_nat n) None))
    else ret None.
  Definition s_free (p : option N) (cap : N) : HM unit :=
    match p with
    | None => ret tt
    | Some a => b <-- hread a ;; if sb_cap b =? cap then hfree a else fail UB
    end.
  (** basic_string.h:439-450 [Allocate::operator=] between different strings. *)
  Definition alloc_assign : HM unit := if strict then fail UB else ret tt.

  (** ** Construction and destruction *)
  (** basic_string.h:55 *)
  Definition str_new : str := Str 0 (ULocal (replicate 16 None)) None.
  (** basic_string.h:57-61 [~BasicString] *)
  Definition str_destroy (s : str) : HM unit :=
    if LOCAL <? s_len s then c <-- get_cap s ;; s_free (s_ptr s) c else ret tt.
  (** basic_string.h:63-76, from a literal of [N] bytes. *)
  Definition str_literal (bs : list N) : HM str :=
    let n := N.of_nat (length bs) in
    let s := Str n (ULocal (replicate 16 None)) None in
    if n <=? LOCAL then write_loc s LLocal 0 bs
    else
      let cap := uadd n (n / 2) in
      p <-- s_alloc cap ;;
      write_loc (Str n (UCap cap) p) (LHeap p) 0 bs.
  (** basic_string.h:78-89 *)
  Definition str_copy (o : str) : HM str :=
    if LOCAL <? s_len o then
      cap <-- get_cap o ;;
      p <-- s_alloc cap ;;
      bs <-- read_loc o (LHeap (s_ptr o)) 0 (s_len o) ;;
      write_loc (Str (s_len o) (UCap cap) p) (LHeap p) 0 bs
    else ret (Str (s_len o) (s_store o) None).
  (** basic_string.h:145-154: the new string and the source. *)
  Definition str_move (o : str) : HM (str * str) :=
    alloc_assign ;;;
    ret (Str (s_len o) (s_store o) (s_ptr o), Str 0 (UCap 0) None).

  (** ** Assignment, [this != &other] *)
  (** basic_string.h:92-143 *)
  Definition str_copy_assign (t o : str) : HM str :=
    if (s_len t <? LOCAL) && (s_len o <? LOCAL) then
      alloc_assign ;;; ret (Str (s_len o) (s_store o) (s_ptr t))
    else if (s_len t <? LOCAL) && (LOCAL <? s_len o) then
      alloc_assign ;;;
      cap <-- get_cap o ;;
      p <-- s_alloc cap ;;
      bs <-- read_loc o (LHeap (s_ptr o)) 0 (s_len o) ;;
      write_loc (Str (s_len o) (UCap cap) p) (LHeap p) 0 bs
    else if (LOCAL <? s_len t) && (s_len o <? LOCAL) then
      cap <-- get_cap t ;;
      s_free (s_ptr t) cap ;;;
      alloc_assign ;;;
      ret (Str (s_len o) (s_store o) (s_ptr t))
    else
      let len := s_len o in
      cap <-- get_cap t ;;
      t' <-- (if cap <? len then
                s_free (s_ptr t) cap ;;;
                alloc_assign ;;;
                let cap' := uadd len (len / 2) in
                p <-- s_alloc cap' ;;
                ret (Str len (UCap cap') p)
              else ret (Str len (s_store t) (s_ptr t))) ;;
      bs <-- read_loc o (LHeap (s_ptr o)) 0 len ;;
      write_loc t' (LHeap (s_ptr t')) 0 bs.
  (** basic_string.h:157-213: this and the source. *)
  Definition str_move_assign (t o : str) : HM (str * str) :=
    if (s_len t <? LOCAL) && (s_len o <? LOCAL) then
      alloc_assign ;;;
      ret (Str (s_len o) (s_store o) (s_ptr t), Str 0 (s_store o) (s_ptr o))
    else if (s_len t <? LOCAL) && (LOCAL <? s_len o) then
      alloc_assign ;;;
      cap <-- get_cap o ;;
      ret (Str (s_len o) (UCap cap) (s_ptr o), Str 0 (UCap 0) None)
    else if (LOCAL <? s_len t) && (s_len o <? LOCAL) then
      cap <-- get_cap t ;;
      s_free (s_ptr t) cap ;;;
      alloc_assign ;;;
      ret (Str (s_len o) (s_store o) (s_ptr t), Str 0 (s_store o) (s_ptr o))
    else
      cap <-- get_cap t ;;
      s_free (s_ptr t) cap ;;;
      alloc_assign ;;;
      cap' <-- get_cap o ;;
      ret (Str (s_len o) (UCap cap') (s_ptr o), Str 0 (UCap 0) None).

  (** ** Growing *)
  (** basic_string.h:372-425 [AllocateInfo], [try_allocate_new_space]: the
      string with its new [alloc.bytes], and the info. *)
  Record ainfo := AInfo { ai_src : loc; ai_des : loc; ai_cap : N; ai_new : bool; ai_dealloc : bool }.
  Definition try_alloc (s : str) (new_len : N) : HM (str * ainfo) :=
    if LOCAL <? s_len s then
      let src := LHeap (s_ptr s) in
      cap <-- get_cap s ;;
      if cap <? new_len then
        let nc := uadd new_len (new_len / 2) in
        p <-- s_alloc nc ;;
        ret (Str (s_len s) (s_store s) p, AInfo src (LHeap p) nc true true)
      else ret (s, AInfo src src 0 false false)
    else
      if LOCAL <? new_len then
        let nc := uadd new_len (new_len / 2) in
        p <-- s_alloc nc ;;
        ret (Str (s_len s) (s_store s) p, AInfo LLocal (LHeap p) nc true false)
      else ret (s, AInfo LLocal LLocal 0 false false).
  (** The pointer to release is [info.src]. *)
  Definition free_src (s : str) (i : ainfo) : HM unit :=
    if ai_dealloc i then
      cap <-- get_cap s ;;
      match ai_src i with LHeap p => s_free p cap | LLocal => fail UB end
    else ret tt.
  (** basic_string.h:215-236 [push_back] *)
  Definition str_push (s : str) (ch : list N) : HM str :=
    let n := N.of_nat (length ch) in
    let new_len := uadd (s_len s) n in
    '(s1, i) <-- try_alloc s new_len ;;
    s2 <-- (if ai_new i then
              bs <-- read_loc s1 (ai_src i) 0 (s_len s1) ;;
              s2 <-- write_loc s1 (ai_des i) 0 bs ;;
              free_src s2 i ;;;
              ret (Str (s_len s2) (UCap (ai_cap i)) (s_ptr s2))
            else ret s1) ;;
    s3 <-- write_loc s2 (ai_des i) (s_len s2) ch ;;
    ret (Str new_len (s_store s3) (s_ptr s3)).

  (** basic_string.h:316-338 [is_char_boundary] *)
  Definition here (s : str) : loc := if LOCAL <? s_len s then LHeap (s_ptr s) else LLocal.
  Definition str_boundary (s : str) (idx : N) : HM bool :=
    if idx =? 0 then ret true
    else if s_len s <=? idx then ret (idx =? s_len s)
    else
      let start := if 4 <? idx then idx - 4 else 0 in
      let slice_len := idx + 1 - start in
      bs <-- read_loc s (here s) start slice_len ;;
      match utf8_is_boundary bs with Ok b => ret b | Err e => fail e end.
  (** basic_string.h:250-288 [insert] *)
  Definition str_insert (s : str) (ch : list N) (idx : N) : HM str :=
    b <-- str_boundary s idx ;;
    if negb b then fail Panic else
    let n := N.of_nat (length ch) in
    let new_len := uadd (s_len s) n in
    '(s1, i) <-- try_alloc s new_len ;;
    s2 <-- (if ai_new i then
              b1 <-- read_loc s1 (ai_src i) 0 idx ;;
              t1 <-- write_loc s1 (ai_des i) 0 b1 ;;
              t2 <-- write_loc t1 (ai_des i) idx ch ;;
              b2 <-- read_loc t2 (ai_src i) idx (usub (s_len s) idx) ;;
              t3 <-- write_loc t2 (ai_des i) (idx + n) b2 ;;
              free_src t3 i ;;;
              ret (Str (s_len t3) (UCap (ai_cap i)) (s_ptr t3))
            else
              b2 <-- read_loc s1 (ai_src i) idx (usub (s_len s) idx) ;;
              t1 <-- write_loc s1 (ai_des i) (idx + n) b2 ;;
              write_loc t1 (ai_des i) idx ch) ;;
    ret (Str new_len (s_store s2) (s_ptr s2)).

  (** basic_string.h:238-248 [pop_back] with ascii.h:38-46 [Ascii::last]. *)
  Definition str_pop (s : str) : HM (str * option N) :=
    if s_len s =? 0 then ret (s, None)
    else
      bs <-- read_loc s (here s) (s_len s - 1) 1 ;;
      match bs with
      | [b] => ret (Str (s_len s - 1) (s_store s) (s_ptr s), Some b)
      | _ => fail UB
      end.

  (** ** Looking *)
  (** basic_string.h:42-49 [operator<<] *)
  Definition str_print (s : str) : HM (list N) :=
    if s_len s <? LOCAL then read_loc s LLocal 0 (s_len s)
    else read_loc s (LHeap (s_ptr s)) 0 (s_len s).
  (** basic_string.h:344-347, 350-357 [chars()]: all the bytes the iterator
      over [make_slice()] walks over. *)
  Definition str_bytes (s : str) : HM (list N) := read_loc s (here s) 0 (s_len s).

  (** ** Histories *)
  Inductive sop :=
  | SEmpty (i : nat) | SLit (i : nat) (bs : list N)
  | SCopy (i j : nat) | SMove (i j : nat)
  | SCopyAsg (i j : nat) | SMoveAsg (i j : nat)
  | SPush (i : nat) (ch : list N) | SInsert (i : nat) (ch : list N) (idx : N) | SPop (i : nat)
  | SSize (i : nat) | SPrint (i : nat) | SBytes (i : nat) | SBoundary (i : nat) (idx : N)
  | SDel (i : nat).
  Inductive sout := YUnit | YBytes (bs : list N) | YNum (n : N) | YOpt (o : option N) | YBool (b : bool).

  Notation WM := (M (world sblk str)).
  Definition s_mk (i : nat) (f : HM str) : WM sout :=
    wnew i ;;; s <-- lift f ;; wset i s ;;; ret YUnit.
  Definition s_upd (i : nat) (f : str -> HM str) : WM sout :=
    s <-- wget i ;; s' <-- lift (f s) ;; wset i s' ;;; ret YUnit.
  Definition s_obs {X} (i : nat) (f : str -> HM X) (g : X -> sout) : WM sout :=
    s <-- wget i ;; x <-- lift (f s) ;; ret (g x).

  Definition str_step (o : sop) : WM sout :=
    match o with
    | SEmpty i => s_mk i (ret str_new)
    | SLit i bs => s_mk i (str_literal bs)
    | SCopy i j => o <-- wget j ;; s_mk i (str_copy o)
    | SMove i j =>
        wnew i ;;; o <-- wget j ;; '(s, o') <-- lift (str_move o) ;;
        wset j o' ;;; wset i s ;;; ret YUnit
    | SCopyAsg i j =>
        t <-- wget i ;; o <-- wget j ;;
        if (i =? j)%nat then ret YUnit
        else t' <-- lift (str_copy_assign t o) ;; wset i t' ;;; ret YUnit
    | SMoveAsg i j =>
        t <-- wget i ;; o <-- wget j ;;
        if (i =? j)%nat then ret YUnit
        else '(t', o') <-- lift (str_move_assign t o) ;; wset j o' ;;; wset i t' ;;; ret YUnit
    | SPush i ch => s_upd i (fun s => str_push s ch)
    | SInsert i ch idx => s_upd i (fun s => str_insert s ch idx)
    | SPop i =>
        s <-- wget i ;; '(s', x) <-- lift (str_pop s) ;; wset i s' ;;; ret (YOpt x)
    | SSize i => s_obs i (fun s => ret (s_len s)) YNum
    | SPrint i => s_obs i str_print YBytes
    | SBytes i => s_obs i str_bytes YBytes
    | SBoundary i idx => s_obs i (fun s => str_boundary s idx) YBool
    | SDel i => s <-- wget i ;; lift (str_destroy s) ;;; wdel i ;;; ret YUnit
    end.
End Str.
