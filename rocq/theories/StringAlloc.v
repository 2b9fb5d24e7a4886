(** * StringAlloc: C82, which allocator a string asks for memory

    StringModel.v has the one stateless default allocator.  Here every string
    owns an allocator (basic_string.h:429-453 [Allocate], 464 [alloc]); they
    are numbered, and a default-constructed one is number 0.  Every call of
    [allocate] and [deallocate] is recorded, with the allocator it was made
    on, and giving a block to another allocator than the one that made it is
    undefined.

    Simplifications: copying, moving or assigning an [Allocator] yields one
    with the same number; the second destruction of the base
    (basic_string.h:430) has no effect (AllocatorLife.v, C84).  [operator<<]
    (41-48) accepts strings with the default allocator class only; [SPrint]
    stands for what it would write. *)
From Verif Require Import Base World Machine Utf8Model StringModel StringProofs StringProps StringExact StringIter.
Local Open Scope N_scope.

(** A call received by allocator [al]. *)
Inductive acall := Asked (al n : N) | Returned (al n : N).
Record amem := AMem { am_heap : heap sblk; am_made : gmap N N; am_log : list acall }.
(** basic_string.h:457-464: a string and the number of its allocator. *)
Notation astr := (str * N)%type.

Section Code.
  Context (strict : bool).
  Notation AM := (M amem).

  (** What does not call the allocator. *)
  Definition up {X} (m : M (heap sblk) X) : AM X := fun s =>
    match m (am_heap s) with
    | Ok (x, h') => Ok (x, AMem h' (am_made s) (am_log s))
    | Err e => Err e
    end.
  (** memory/allocators/allocator.h:24-31, called on [al]. *)
  Definition a_alloc (al n : N) : AM (option N) := fun s =>
    match s_alloc n (am_heap s) with
    | Ok (p, h') =>
        Ok (p, AMem h' (match p with Some a => <[a := al]> (am_made s) | None => am_made s end)
                 (am_log s ++ [Asked al n]))
    | Err e => Err e
    end.
  (** memory/allocators/allocator.h:50-57, called on [al]. *)
  Definition a_free (al : N) (p : option N) (cap : N) : AM unit := fun s =>
    if match p with Some a => bool_decide (am_made s !! a = Some al) | None => true end then
      match s_free p cap (am_heap s) with
      | Ok (x, h') => Ok (x, AMem h' (am_made s) (am_log s ++ [Returned al cap]))
      | Err e => Err e
      end
    else Err UB.

  (** basic_string.h:55-56, 432-433 *)
  Definition a_new (al : N) : AM astr := ret (str_new, al).
  (** basic_string.h:57-61 *)
  Definition a_destroy (x : astr) : AM unit :=
    let '(s, al) := x in
    if LOCAL <? s_len s then c <-- up (get_cap s) ;; a_free al (s_ptr s) c else ret tt.
  (** basic_string.h:63-76, 434 *)
  Definition a_literal (al : N) (bs : list N) : AM astr :=
    let n := N.of_nat (length bs) in
    let s := Str n (ULocal (replicate 16 None)) None in
    if n <=? LOCAL then s' <-- up (write_loc s LLocal 0 bs) ;; ret (s', al)
    else
      let cap := uadd n (n / 2) in
      p <-- a_alloc al cap ;;
      s' <-- up (write_loc (Str n (UCap cap) p) (LHeap p) 0 bs) ;;
      ret (s', al).
  (** basic_string.h:78-89: [alloc] is not in the initialiser list, so it is
      default-constructed. *)
  Definition a_copy (x : astr) : AM astr :=
    let o := fst x in
    if LOCAL <? s_len o then
      cap <-- up (get_cap o) ;;
      p <-- a_alloc 0 cap ;;
      bs <-- up (read_loc o (LHeap (s_ptr o)) 0 (s_len o)) ;;
      s' <-- up (write_loc (Str (s_len o) (UCap cap) p) (LHeap p) 0 bs) ;;
      ret (s', 0)
    else ret (Str (s_len o) (s_store o) None, 0).
  (** basic_string.h:145-154: default-constructed, then assigned (446-450). *)
  Definition a_move (x : astr) : AM (astr * astr) :=
    let '(o, al) := x in
    up (alloc_assign strict) ;;;
    ret ((Str (s_len o) (s_store o) (s_ptr o), al), (Str 0 (UCap 0) None, al)).
  (** basic_string.h:92-143, 440-445 *)
  Definition a_copy_assign (x y : astr) : AM astr :=
    let '(t, al) := x in
    let '(o, bl) := y in
    if (s_len t <? LOCAL) && (s_len o <? LOCAL) then
      up (alloc_assign strict) ;;; ret (Str (s_len o) (s_store o) (s_ptr t), bl)
    else if (s_len t <? LOCAL) && (LOCAL <? s_len o) then
      up (alloc_assign strict) ;;;
      cap <-- up (get_cap o) ;;
      p <-- a_alloc bl cap ;;
      bs <-- up (read_loc o (LHeap (s_ptr o)) 0 (s_len o)) ;;
      s' <-- up (write_loc (Str (s_len o) (UCap cap) p) (LHeap p) 0 bs) ;;
      ret (s', bl)
    else if (LOCAL <? s_len t) && (s_len o <? LOCAL) then
      cap <-- up (get_cap t) ;;
      a_free al (s_ptr t) cap ;;;
      up (alloc_assign strict) ;;;
      ret (Str (s_len o) (s_store o) (s_ptr t), bl)
    else
      let len := s_len o in
      cap <-- up (get_cap t) ;;
      '(t', cl) <-- (if cap <? len then
                a_free al (s_ptr t) cap ;;;
                up (alloc_assign strict) ;;;
                let cap' := uadd len (len / 2) in
                p <-- a_alloc bl cap' ;;
                ret (Str len (UCap cap') p, bl)
              else ret (Str len (s_store t) (s_ptr t), al)) ;;
      bs <-- up (read_loc o (LHeap (s_ptr o)) 0 len) ;;
      s' <-- up (write_loc t' (LHeap (s_ptr t')) 0 bs) ;;
      ret (s', cl).
  (** basic_string.h:157-213, 446-450 *)
  Definition a_move_assign (x y : astr) : AM (astr * astr) :=
    let '(t, al) := x in
    let '(o, bl) := y in
    if (s_len t <? LOCAL) && (s_len o <? LOCAL) then
      up (alloc_assign strict) ;;;
      ret ((Str (s_len o) (s_store o) (s_ptr t), bl), (Str 0 (s_store o) (s_ptr o), bl))
    else if (s_len t <? LOCAL) && (LOCAL <? s_len o) then
      up (alloc_assign strict) ;;;
      cap <-- up (get_cap o) ;;
      ret ((Str (s_len o) (UCap cap) (s_ptr o), bl), (Str 0 (UCap 0) None, bl))
    else if (LOCAL <? s_len t) && (s_len o <? LOCAL) then
      cap <-- up (get_cap t) ;;
      a_free al (s_ptr t) cap ;;;
      up (alloc_assign strict) ;;;
      ret ((Str (s_len o) (s_store o) (s_ptr t), bl), (Str 0 (s_store o) (s_ptr o), bl))
    else
      cap <-- up (get_cap t) ;;
      a_free al (s_ptr t) cap ;;;
      up (alloc_assign strict) ;;;
      cap' <-- up (get_cap o) ;;
      ret ((Str (s_len o) (UCap cap') (s_ptr o), bl), (Str 0 (UCap 0) None, bl)).
  (** basic_string.h:388-425 *)
  Definition a_try_alloc (al : N) (s : str) (new_len : N) : AM (str * ainfo) :=
    if LOCAL <? s_len s then
      let src := LHeap (s_ptr s) in
      cap <-- up (get_cap s) ;;
      if cap <? new_len then
        let nc := uadd new_len (new_len / 2) in
        p <-- a_alloc al nc ;;
        ret (Str (s_len s) (s_store s) p, AInfo src (LHeap p) nc true true)
      else ret (s, AInfo src src 0 false false)
    else
      if LOCAL <? new_len then
        let nc := uadd new_len (new_len / 2) in
        p <-- a_alloc al nc ;;
        ret (Str (s_len s) (s_store s) p, AInfo LLocal (LHeap p) nc true false)
      else ret (s, AInfo LLocal LLocal 0 false false).
  (** basic_string.h:224-227, 272-275 *)
  Definition a_free_src (al : N) (s : str) (i : ainfo) : AM unit :=
    if ai_dealloc i then
      cap <-- up (get_cap s) ;;
      match ai_src i with LHeap p => a_free al p cap | LLocal => fail UB end
    else ret tt.
  (** basic_string.h:215-236 *)
  Definition a_push (x : astr) (ch : list N) : AM astr :=
    let '(s, al) := x in
    let n := N.of_nat (length ch) in
    let new_len := uadd (s_len s) n in
    '(s1, i) <-- a_try_alloc al s new_len ;;
    s2 <-- (if ai_new i then
              bs <-- up (read_loc s1 (ai_src i) 0 (s_len s1)) ;;
              s2 <-- up (write_loc s1 (ai_des i) 0 bs) ;;
              a_free_src al s2 i ;;;
              ret (Str (s_len s2) (UCap (ai_cap i)) (s_ptr s2))
            else ret s1) ;;
    s3 <-- up (write_loc s2 (ai_des i) (s_len s2) ch) ;;
    ret (Str new_len (s_store s3) (s_ptr s3), al).
  (** basic_string.h:250-288 *)
  Definition a_insert (x : astr) (ch : list N) (idx : N) : AM astr :=
    let '(s, al) := x in
    b <-- up (str_boundary s idx) ;;
    if negb b then fail Panic else
    let n := N.of_nat (length ch) in
    let new_len := uadd (s_len s) n in
    '(s1, i) <-- a_try_alloc al s new_len ;;
    s2 <-- (if ai_new i then
              b1 <-- up (read_loc s1 (ai_src i) 0 idx) ;;
              t1 <-- up (write_loc s1 (ai_des i) 0 b1) ;;
              t2 <-- up (write_loc t1 (ai_des i) idx ch) ;;
              b2 <-- up (read_loc t2 (ai_src i) idx (usub (s_len s) idx)) ;;
              t3 <-- up (write_loc t2 (ai_des i) (idx + n) b2) ;;
              a_free_src al t3 i ;;;
              ret (Str (s_len t3) (UCap (ai_cap i)) (s_ptr t3))
            else
              b2 <-- up (read_loc s1 (ai_src i) idx (usub (s_len s) idx)) ;;
              t1 <-- up (write_loc s1 (ai_des i) (idx + n) b2) ;;
              up (write_loc t1 (ai_des i) idx ch)) ;;
    ret (Str new_len (s_store s2) (s_ptr s2), al).

  (** ** Programs *)
  Inductive aop :=
  | ANew (i : nat) (al : N)                  (* BasicString i(std::move(a)) *)
  | ALit (i : nat) (al : N) (bs : list N)    (* BasicString i(literal, a) *)
  | AOp (o : sop).                           (* anything else; no allocator given *)
  Record aworld := AWorld { aw_mem : amem; aw_vars : gmap nat astr }.
  Definition ainit : aworld := AWorld (AMem hempty ∅ []) ∅.
  Notation WM := (M aworld).
  Definition a_lift {X} (m : AM X) : WM X := fun w =>
    match m (aw_mem w) with Ok (x, s) => Ok (x, AWorld s (aw_vars w)) | Err e => Err e end.
  Definition a_get (i : nat) : WM astr := fun w =>
    match aw_vars w !! i with Some x => Ok (x, w) | None => Err UB end.
  Definition a_set (i : nat) (x : astr) : WM unit := fun w =>
    Ok (tt, AWorld (aw_mem w) (<[i := x]> (aw_vars w))).
  Definition a_fresh (i : nat) : WM unit := fun w =>
    match aw_vars w !! i with Some _ => Err UB | None => Ok (tt, w) end.
  Definition a_del (i : nat) : WM unit := fun w =>
    Ok (tt, AWorld (aw_mem w) (delete i (aw_vars w))).

  Definition a_mk (i : nat) (f : AM astr) : WM sout :=
    a_fresh i ;;; x <-- a_lift f ;; a_set i x ;;; ret YUnit.
  Definition a_upd (i : nat) (f : astr -> AM astr) : WM sout :=
    x <-- a_get i ;; x' <-- a_lift (f x) ;; a_set i x' ;;; ret YUnit.
  Definition a_obs {X} (i : nat) (f : str -> M (heap sblk) X) (g : X -> sout) : WM sout :=
    x <-- a_get i ;; y <-- a_lift (up (f (fst x))) ;; ret (g y).
  Definition a_step (o : aop) : WM sout :=
    match o with
    | ANew i al => a_mk i (a_new al)
    | ALit i al bs => a_mk i (a_literal al bs)
    | AOp (SEmpty i) => a_mk i (a_new 0)
    | AOp (SLit i bs) => a_mk i (a_literal 0 bs)
    | AOp (SCopy i j) => o <-- a_get j ;; a_mk i (a_copy o)
    | AOp (SMove i j) =>
        a_fresh i ;;; o <-- a_get j ;; '(s, o') <-- a_lift (a_move o) ;;
        a_set j o' ;;; a_set i s ;;; ret YUnit
    | AOp (SCopyAsg i j) =>
        t <-- a_get i ;; o <-- a_get j ;;
        if (i =? j)%nat then ret YUnit
        else t' <-- a_lift (a_copy_assign t o) ;; a_set i t' ;;; ret YUnit
    | AOp (SMoveAsg i j) =>
        t <-- a_get i ;; o <-- a_get j ;;
        if (i =? j)%nat then ret YUnit
        else '(t', o') <-- a_lift (a_move_assign t o) ;; a_set j o' ;;; a_set i t' ;;; ret YUnit
    | AOp (SPush i ch) => a_upd i (fun s => a_push s ch)
    | AOp (SInsert i ch idx) => a_upd i (fun s => a_insert s ch idx)
    | AOp (SPop i) =>
        x <-- a_get i ;; '(s', y) <-- a_lift (up (str_pop (fst x))) ;; a_set i (s', snd x) ;;; ret (YOpt y)
    | AOp (SSize i) => a_obs i (fun s => ret (s_len s)) YNum
    | AOp (SPrint i) => a_obs i str_print YBytes
    | AOp (SBytes i) => a_obs i str_bytes YBytes
    | AOp (SBoundary i idx) => a_obs i (fun s => str_boundary s idx) YBool
    | AOp (SDel i) => x <-- a_get i ;; a_lift (a_destroy x) ;;; a_del i ;;; ret YUnit
    end.

  (** ** The specification

      What a string holds does not depend on allocators.  [spec_cap] is how
      many bytes the buffer of a string of more than 16 bytes holds, [spec_al]
      which allocator a string uses, [spec_log] the calls made so far. *)
  Definition plain (o : aop) : sop :=
    match o with ANew i _ => SEmpty i | ALit i _ bs => SLit i bs | AOp o => o end.
  Record aspec := ASpec { spec_str : sstate; spec_cap : gmap nat N; spec_al : gmap nat N; spec_log : list acall }.
  Definition al_of (m : gmap nat N) (i : nat) : N := default 0 (m !! i).
  (** A copy uses the default allocator.  Moving and assigning take over the
      allocator of the source, except that a string that already has a large
      enough buffer keeps its own when it is assigned to. *)
  Definition al_after (s : aspec) (o : aop) : gmap nat N :=
    let '(ASpec sp c al _) := s in
    match o with
    | ANew i a | ALit i a _ => <[i := a]> al
    | AOp (SEmpty i) | AOp (SLit i _) | AOp (SCopy i _) => <[i := 0]> al
    | AOp (SMove i j) | AOp (SMoveAsg i j) => <[i := al_of al j]> al
    | AOp (SCopyAsg i j) =>
        if (16 <? size_of sp i) && (16 <? size_of sp j) && (size_of sp j <=? cap_of c i) then al
        else <[i := al_of al j]> al
    | AOp _ => al
    end.
  (** The calls an operation makes. *)
  Definition calls (s : aspec) (o : aop) : list acall :=
    let '(ASpec sp c al _) := s in
    let new a n := if 16 <? n then [Asked a (half_more n)] else [] in
    let drop i := if 16 <? size_of sp i then [Returned (al_of al i) (cap_of c i)] else [] in
    let grow i n :=
      if 16 <? size_of sp i then
        if n <=? cap_of c i then []
        else [Asked (al_of al i) (half_more n); Returned (al_of al i) (cap_of c i)]
      else new (al_of al i) n in
    match o with
    | ALit _ a bs => new a (nlen bs)
    | AOp (SLit _ bs) => new 0 (nlen bs)
    | AOp (SCopy _ j) => if 16 <? size_of sp j then [Asked 0 (cap_of c j)] else []
    | AOp (SCopyAsg i j) =>
        if (i =? j)%nat then []
        else if 16 <? size_of sp j then
          if 16 <? size_of sp i then
            if size_of sp j <=? cap_of c i then []
            else [Returned (al_of al i) (cap_of c i); Asked (al_of al j) (half_more (size_of sp j))]
          else [Asked (al_of al j) (cap_of c j)]
        else drop i
    | AOp (SMoveAsg i j) => if (i =? j)%nat then [] else drop i
    | AOp (SPush i ch) | AOp (SInsert i ch _) => grow i (size_of sp i + nlen ch)
    | AOp (SDel i) => drop i
    | _ => []
    end.
  Definition a_spec (s : aspec) (o : aop) : sres aspec sout :=
    match gspec strict (spec_str s) (plain o) with
    | SOk sp' x =>
        SOk (ASpec sp' (caps_after (spec_cap s) (spec_str s) (plain o)) (al_after s o) (spec_log s ++ calls s o)) x
    | SPanic => SPanic
    | SPre => SPre
    end.
  Definition aspec0 : aspec := ASpec ∅ ∅ ∅ [].
End Code.

(** ** Each function against the model without allocators *)
Section Follow.
  Context (strict : bool).
  Definition good (h : heap sblk) (t : gmap N N) (s : str) (al : N) : Prop :=
    16 < s_len s -> forall a, s_ptr s = Some a -> t !! a = Some al /\ a < hnext h.
  Definition same (h : heap sblk) (t t' : gmap N N) : Prop := forall a, a < hnext h -> t' !! a = t !! a.

  Lemma same_refl h t : same h t t.
  Proof. by intros a. Qed.
  Lemma good_keep h h' t t' s al : same h t t' -> hnext h <= hnext h' -> good h t s al -> good h' t' s al.
  Proof. intros Hs Hn Hg Hl a Ha. destruct (Hg Hl a Ha). split; [by rewrite Hs|lia]. Qed.
  Lemma s_alloc_next n h p h' : s_alloc n h = Ok (p, h') -> is_Some p ->
    p = Some (hnext h) /\ hnext h' = hnext h + 1.
  Proof.
    unfold s_alloc. intros E Hn. destruct (n <=? alloc_max); [|by injection E as <- <-; destruct Hn].
    unfold hnew in E. simpl in E. injection E as <- <-. done.
  Qed.
  Lemma a_alloc_ok al n h t l p h' : s_alloc n h = Ok (p, h') -> is_Some p ->
    a_alloc al n (AMem h t l) = Ok (p, AMem h' (<[hnext h := al]> t) (l ++ [Asked al n])).
  Proof. intros E Hn. unfold a_alloc. cbn [am_heap]. rewrite E. by destruct (s_alloc_next _ _ _ _ E Hn) as [-> _]. Qed.
  Lemma write_some s p off bs h s' h' : write_loc s (LHeap p) off bs h = Ok (s', h') -> is_Some p.
  Proof. destruct p; [by eexists|done]. Qed.
  Lemma a_free_ok al p c h t l x h' : s_free p c h = Ok (x, h') -> (forall a, p = Some a -> t !! a = Some al) ->
    a_free al p c (AMem h t l) = Ok (x, AMem h' t (l ++ [Returned al c])).
  Proof.
    intros E Ht. unfold a_free. cbn [am_heap am_made am_log]. rewrite E. destruct p as [a|]; [|done].
    by rewrite bool_decide_eq_true_2 by auto.
  Qed.
  Lemma up_ok {X} (m : M (heap sblk) X) h t l x h' : m h = Ok (x, h') -> up m (AMem h t l) = Ok (x, AMem h' t l).
  Proof. unfold up. cbn [am_heap]. by intros ->. Qed.
  Lemma same_put h t al : same h t (<[hnext h := al]> t).
  Proof. intros a Ha. rewrite lookup_insert_ne; [done|lia]. Qed.

  Lemma f_literal al bs h t l s h' : fits bs -> str_literal bs h = Ok (s, h') ->
    exists t', a_literal al bs (AMem h t l) =
        Ok ((s, al), AMem h' t' (l ++ if 16 <? nlen bs then [Asked al (half_more (nlen bs))] else [])) /\
      same h t t' /\ (s_len s = nlen bs -> good h' t' s al).
  Proof.
    intros Hf E. unfold str_literal, LOCAL in E. unfold a_literal, LOCAL. unfold fits in Hf.
    destruct (N.leb_spec (nlen bs) 16), (N.ltb_spec 16 (nlen bs)); try lia.
    - exists t. erewrite bind_ok by (by apply up_ok). rewrite app_nil_r. split; [done|]. split; [apply same_refl|].
      intros Hl Hl2. lia.
    - apply bind_inv in E as (p & h1 & E1 & E). rewrite uadd_cap in * by done.
      pose proof (write_some _ _ _ _ _ _ _ E) as Hp.
      erewrite bind_ok by (by apply a_alloc_ok). erewrite bind_ok by (by apply up_ok).
      destruct (s_alloc_next _ _ _ _ E1 Hp) as [-> En]. pose proof (kp_write_loc _ _ _ _ _ _ _ E) as [K _].
      apply write_heap_same in E as ->. eexists. split; [done|]. split; [apply same_put|].
      intros _ _ a [= <-]. rewrite lookup_insert. split; [done|lia].
  Qed.
  Lemma f_copy x h t l s h' c : (16 < s_len (fst x) -> s_store (fst x) = UCap c) -> str_copy (fst x) h = Ok (s, h') ->
    exists t', a_copy x (AMem h t l) =
        Ok ((s, 0), AMem h' t' (l ++ if 16 <? s_len (fst x) then [Asked 0 c] else [])) /\
      same h t t' /\ good h' t' s 0.
  Proof.
    intros Hc E. unfold str_copy, LOCAL in E. unfold a_copy, LOCAL.
    destruct (N.ltb_spec 16 (s_len (fst x))).
    - apply bind_inv in E as (c' & h1 & E1 & E). apply bind_inv in E as (p & h2 & E2 & E). apply bind_inv in E as (bs & h3 & E3 & E).
      pose proof (write_some _ _ _ _ _ _ _ E) as Hp.
      erewrite bind_ok by (by apply up_ok). erewrite bind_ok by (by apply a_alloc_ok).
      erewrite bind_ok by (by apply up_ok). erewrite bind_ok by (by apply up_ok).
      apply get_cap_inv in E1 as [E1 ->]. rewrite Hc in E1 by done. injection E1 as <-.
      destruct (s_alloc_next _ _ _ _ E2 Hp) as [-> En]. pose proof (kp_write_loc _ _ _ _ _ _ _ E) as [K _].
      pose proof (kp_read_loc _ _ _ _ _ _ _ E3) as [K2 _].
      apply write_heap_same in E as ->. eexists. split; [done|]. split; [apply same_put|].
      intros _ a [= <-]. rewrite lookup_insert. split; [done|lia].
    - injection E as <- <-. exists t. rewrite app_nil_r. split; [done|]. split; [apply same_refl|]. by intros _ a [=].
  Qed.
  Lemma f_move x al h t l s o' h' : good h t x al -> str_move strict x h = Ok ((s, o'), h') ->
    a_move strict (x, al) (AMem h t l) = Ok (((s, al), (o', al)), AMem h' t l) /\ h' = h /\ good h t s al /\ s_len o' = 0.
  Proof.
    intros Hg E. unfold str_move in E. unfold a_move. apply bind_inv in E as (? & h1 & E1 & [= <- <- <-]).
    erewrite bind_ok by (by apply up_ok). apply alloc_assign_inv in E1 as ->. done.
  Qed.
  Lemma f_copy_assign x al y bl h t l s h' c d xl yl : s_len x = xl -> s_len y = yl ->
    xl <> 16 -> yl <> 16 -> half_more yl <= alloc_max ->
    (16 < xl -> s_store x = UCap c) -> (16 < yl -> s_store y = UCap d) ->
    good h t x al -> str_copy_assign strict x y h = Ok (s, h') ->
    exists t', a_copy_assign strict (x, al) (y, bl) (AMem h t l) =
        Ok ((s, if (16 <? xl) && (16 <? yl) && (yl <=? c) then al else bl), AMem h' t' (l ++
          if 16 <? yl then
            if 16 <? xl then
              if yl <=? c then [] else [Returned al c; Asked bl (half_more yl)]
            else [Asked bl d]
          else if 16 <? xl then [Returned al c] else [])) /\
      same h t t' /\ (s_len s = yl -> good h' t' s (if (16 <? xl) && (16 <? yl) && (yl <=? c) then al else bl)).
  Proof.
    intros Hxl Hyl Hx Hy Hf Hc Hd Hg E. unfold str_copy_assign, LOCAL in E. unfold a_copy_assign, LOCAL. rewrite Hxl, Hyl in *.
    destruct (N.ltb_spec xl 16), (N.ltb_spec yl 16), (N.ltb_spec 16 xl), (N.ltb_spec 16 yl); try lia; cbn [andb] in *.
    - apply bind_inv in E as (? & h1 & E1 & [= <- <-]). erewrite bind_ok by (by apply up_ok).
      apply alloc_assign_inv in E1 as ->. rewrite app_nil_r. exists t. split; [done|]. split; [apply same_refl|]. intros Hs Hl. lia.
    - apply bind_inv in E as (? & h1 & E1 & E). apply bind_inv in E as (c' & h2 & E2 & E).
      apply bind_inv in E as (p & h3 & E3 & E). apply bind_inv in E as (bs & h4 & E4 & E).
      pose proof (write_some _ _ _ _ _ _ _ E) as Hp.
      erewrite bind_ok by (by apply up_ok). erewrite bind_ok by (by apply up_ok). erewrite bind_ok by (by apply a_alloc_ok).
      erewrite bind_ok by (by apply up_ok). erewrite bind_ok by (by apply up_ok).
      apply alloc_assign_inv in E1 as ->. apply get_cap_inv in E2 as [E2 ->]. rewrite Hd in E2 by done. injection E2 as <-.
      destruct (s_alloc_next _ _ _ _ E3 Hp) as [-> En]. pose proof (kp_write_loc _ _ _ _ _ _ _ E) as [K _].
      pose proof (kp_read_loc _ _ _ _ _ _ _ E4) as [K2 _].
      apply write_heap_same in E as ->. eexists. split; [done|]. split; [apply same_put|].
      intros _ _ a [= <-]. rewrite lookup_insert. split; [done|lia].
    - apply bind_inv in E as (c' & h1 & E1 & E). apply bind_inv in E as (? & h2 & E2 & E).
      apply bind_inv in E as (? & h3 & E3 & [= <- <-]).
      erewrite bind_ok by (by apply up_ok). apply get_cap_inv in E1 as [E1 ->]. rewrite Hc in E1 by done. injection E1 as <-.
      erewrite bind_ok by (apply a_free_ok; [done|]; intros a Ha; by apply (Hg ltac:(lia))). erewrite bind_ok by (by apply up_ok).
      apply alloc_assign_inv in E3 as ->. exists t. split; [done|]. split; [apply same_refl|]. intros Hs Hl. lia.
    - apply bind_inv in E as (c' & h1 & E1 & E). apply bind_inv in E as (t1 & h2 & E2 & E).
      apply bind_inv in E as (bs & h4 & E4 & E).
      pose proof (write_some _ _ _ _ _ _ _ E) as Hp.
      erewrite bind_ok by (by apply up_ok). apply get_cap_inv in E1 as [E1 ->]. rewrite Hc in E1 by done. injection E1 as <-.
      pose proof (kp_read_loc _ _ _ _ _ _ _ E4) as [K2 _]. pose proof (kp_write_loc _ _ _ _ _ _ _ E) as [K _].
      destruct (N.ltb_spec c yl), (N.leb_spec yl c); try lia.
      + apply bind_inv in E2 as (? & h5 & E5 & E2). apply bind_inv in E2 as (? & h6 & E6 & E2).
        rewrite uadd_cap in * by done. apply bind_inv in E2 as (p & h7 & E7 & [= <- <-]). cbn [s_ptr] in *.
        erewrite bind_ok.
        2:{ erewrite bind_ok by (apply a_free_ok; [done|]; intros a Ha; by apply (Hg ltac:(lia))). erewrite bind_ok by (by apply up_ok).
            erewrite bind_ok by (by apply a_alloc_ok). done. }
        cbn [s_ptr]. erewrite bind_ok by (by apply up_ok). erewrite bind_ok by (by apply up_ok).
        apply alloc_assign_inv in E6 as ->. destruct (s_alloc_next _ _ _ _ E7 Hp) as [-> En].
        apply write_heap_same in E as ->. apply kp_s_free in E5 as [K3 _]. eexists. split; [by rewrite <-app_assoc|].
        split; [|intros _ _ a [= <-]; rewrite lookup_insert; split; [done|lia]].
        intros a Ha. rewrite lookup_insert_ne; [done|lia].
      + injection E2 as <- <-. cbn [s_ptr] in *. rewrite (bind_ok _ _ _ _ _ (eq_refl _)).
        cbn [s_ptr]. erewrite bind_ok by (by apply up_ok). erewrite bind_ok by (by apply up_ok).
        apply write_heap_same in E as ->. exists t. rewrite app_nil_r. split; [done|]. split; [apply same_refl|].
        intros _ _ a Ha. destruct (Hg ltac:(lia) a Ha). split; [done|lia].
  Qed.
  Lemma f_move_assign x al y bl h t l s o' h' c xl yl : s_len x = xl -> s_len y = yl ->
    xl <> 16 -> yl <> 16 ->
    (16 < xl -> s_store x = UCap c) ->
    good h t x al -> good h t y bl -> str_move_assign strict x y h = Ok ((s, o'), h') ->
    a_move_assign strict (x, al) (y, bl) (AMem h t l) =
        Ok (((s, bl), (o', bl)), AMem h' t (l ++ if 16 <? xl then [Returned al c] else [])) /\
      good h' t s bl /\ s_len o' = 0.
  Proof.
    intros Hxl Hyl Hx Hy Hc Hg Hg2 E. unfold str_move_assign, LOCAL in E. unfold a_move_assign, LOCAL. rewrite Hxl, Hyl in *.
    destruct (N.ltb_spec xl 16), (N.ltb_spec yl 16), (N.ltb_spec 16 xl), (N.ltb_spec 16 yl); try lia; cbn [andb] in *.
    - apply bind_inv in E as (? & h1 & E1 & [= <- <- <-]). erewrite bind_ok by (by apply up_ok).
      apply alloc_assign_inv in E1 as ->. rewrite app_nil_r. split; [done|]. split; [|done]. intros Hl. simpl in Hl. lia.
    - apply bind_inv in E as (? & h1 & E1 & E). apply bind_inv in E as (c' & h2 & E2 & [= <- <- <-]).
      erewrite bind_ok by (by apply up_ok). erewrite bind_ok by (by apply up_ok).
      apply alloc_assign_inv in E1 as ->. apply get_cap_inv in E2 as [E2 ->].
      rewrite app_nil_r. split; [done|]. split; [|done]. intros _. apply Hg2. lia.
    - apply bind_inv in E as (c' & h1 & E1 & E). apply bind_inv in E as (? & h2 & E2 & E).
      apply bind_inv in E as (? & h3 & E3 & [= <- <- <-]).
      erewrite bind_ok by (by apply up_ok). apply get_cap_inv in E1 as [E1 ->]. rewrite Hc in E1 by done. injection E1 as <-.
      erewrite bind_ok by (apply a_free_ok; [done|]; intros a Ha; by apply (Hg ltac:(lia))). erewrite bind_ok by (by apply up_ok).
      apply alloc_assign_inv in E3 as ->. split; [done|]. split; [|done]. intros Hl. simpl in Hl. lia.
    - apply bind_inv in E as (c' & h1 & E1 & E). apply bind_inv in E as (? & h2 & E2 & E).
      apply bind_inv in E as (? & h3 & E3 & E). apply bind_inv in E as (d' & h4 & E4 & [= <- <- <-]).
      erewrite bind_ok by (by apply up_ok). apply get_cap_inv in E1 as [E1 ->]. rewrite Hc in E1 by done. injection E1 as <-.
      erewrite bind_ok by (apply a_free_ok; [done|]; intros a Ha; by apply (Hg ltac:(lia))). erewrite bind_ok by (by apply up_ok).
      erewrite bind_ok by (by apply up_ok). apply kp_s_free in E2 as [K _].
      apply alloc_assign_inv in E3 as ->. apply get_cap_inv in E4 as [E4 ->]. split; [done|]. split; [|done].
      intros _ a Ha. destruct (Hg2 ltac:(lia) a Ha). split; [done|lia].
  Qed.
  Lemma f_destroy s al h t l h' c u : (16 < s_len s -> s_store s = UCap c) -> good h t s al -> str_destroy s h = Ok (u, h') ->
    a_destroy (s, al) (AMem h t l) = Ok (u, AMem h' t (l ++ if 16 <? s_len s then [Returned al c] else [])).
  Proof.
    intros Hc Hg E. unfold str_destroy, LOCAL in E. unfold a_destroy, LOCAL. destruct (N.ltb_spec 16 (s_len s)).
    - apply bind_inv in E as (c' & h1 & E1 & E). erewrite bind_ok by (by apply up_ok).
      apply get_cap_inv in E1 as [E1 ->]. rewrite Hc in E1 by done. injection E1 as <-.
      apply a_free_ok; [done|]. intros a Ha. by apply (Hg ltac:(lia)).
    - injection E as <- <-. by rewrite app_nil_r.
  Qed.
  Definition grow_calls (al c old n : N) : list acall :=
    if 16 <? old then if n <=? c then [] else [Asked al (half_more n); Returned al c]
    else if 16 <? n then [Asked al (half_more n)] else [].
  Lemma f_try_alloc al s n h t l s1 i h1 c : (16 < s_len s -> s_store s = UCap c) -> half_more n <= alloc_max ->
    (ai_new i = true -> exists p, ai_des i = LHeap p /\ is_Some p) ->
    try_alloc s n h = Ok ((s1, i), h1) ->
    exists t', a_try_alloc al s n (AMem h t l) =
        Ok ((s1, i), AMem h1 t' (l ++ if ai_new i then [Asked al (half_more n)] else [])) /\
      same h t t' /\ hnext h <= hnext h1 /\ s_store s1 = s_store s /\ s_len s1 = s_len s /\
      (if ai_new i then forall a, s_ptr s1 = Some a -> t' !! a = Some al /\ a < hnext h1 else t' = t /\ s1 = s) /\
      ai_new i = (if 16 <? s_len s then c <? n else 16 <? n) /\
      ai_dealloc i = (16 <? s_len s) && (c <? n) /\
      (16 < s_len s -> ai_src i = LHeap (s_ptr s)).
  Proof.
    intros Hc Hn Hi E. unfold try_alloc, LOCAL in E. unfold a_try_alloc, LOCAL.
    destruct (N.ltb_spec 16 (s_len s)).
    - apply bind_inv in E as (c' & h2 & E1 & E). erewrite bind_ok by (by apply up_ok).
      apply get_cap_inv in E1 as [E1 ->]. rewrite Hc in E1 by done. injection E1 as <-.
      destruct (N.ltb_spec c n).
      + rewrite uadd_cap in * by done. apply bind_inv in E as (p & h2 & E1 & [= <- <- <-]). cbn [ai_new ai_des ai_dealloc ai_src s_ptr] in *.
        destruct (Hi eq_refl) as (p' & [= <-] & Hp). erewrite bind_ok by (by apply a_alloc_ok).
        destruct (s_alloc_next _ _ _ _ E1 Hp) as [-> En]. eexists. split; [done|]. split; [apply same_put|]. split; [lia|].
        split_and!; try done. intros a [= <-]. rewrite lookup_insert. split; [done|lia].
      + injection E as <- <- <-. exists t. cbn [ai_new ai_des ai_dealloc ai_src]. rewrite app_nil_r.
        split_and!; try done; lia.
    - destruct (N.ltb_spec 16 n).
      + rewrite uadd_cap in * by done. apply bind_inv in E as (p & h2 & E1 & [= <- <- <-]). cbn [ai_new ai_des ai_dealloc ai_src s_ptr] in *.
        destruct (Hi eq_refl) as (p' & [= <-] & Hp). erewrite bind_ok by (by apply a_alloc_ok).
        destruct (s_alloc_next _ _ _ _ E1 Hp) as [-> En]. eexists. split; [done|]. split; [apply same_put|]. split; [lia|].
        split_and!; try done; [|lia]. intros a [= <-]. rewrite lookup_insert. split; [done|lia].
      + injection E as <- <- <-. exists t. cbn [ai_new ai_des ai_dealloc ai_src]. rewrite app_nil_r.
        split_and!; try done; lia.
  Qed.
  Lemma f_free_src al s i h t l x h' c : s_store s = UCap c \/ ai_dealloc i = false ->
    (forall p a, ai_dealloc i = true -> ai_src i = LHeap p -> p = Some a -> t !! a = Some al) ->
    free_src s i h = Ok (x, h') ->
    a_free_src al s i (AMem h t l) = Ok (x, AMem h' t (l ++ if ai_dealloc i then [Returned al c] else [])).
  Proof.
    intros Hc Ht E. unfold free_src in E. unfold a_free_src. destruct (ai_dealloc i).
    - destruct Hc as [Hc|]; [|done]. apply bind_inv in E as (c' & h1 & E1 & E). erewrite bind_ok by (by apply up_ok).
      apply get_cap_inv in E1 as [E1 ->]. rewrite Hc in E1. injection E1 as <-.
      destruct (ai_src i) as [|p] eqn:Es; [done|]. apply a_free_ok; [done|]. intros a ->. by eapply Ht.
    - injection E as <- <-. by rewrite app_nil_r.
  Qed.
  Lemma try_alloc_des s n h s1 i h1 : try_alloc s n h = Ok ((s1, i), h1) -> ai_new i = true -> exists p, ai_des i = LHeap p /\ s_ptr s1 = p.
  Proof.
    unfold try_alloc. intros E Hi. destruct (_ <? s_len s).
    - apply bind_inv in E as (c' & h2 & E1 & E). destruct (_ <? n).
      + apply bind_inv in E as (p & h3 & E2 & [= <- <- <-]). eauto.
      + by injection E as <- <- <-.
    - destruct (_ <? n); [|by injection E as <- <- <-]. apply bind_inv in E as (p & h3 & E2 & [= <- <- <-]). eauto.
  Qed.
  Lemma log_grow al c n old : grow_calls al c old n =
    (if (if 16 <? old then c <? n else 16 <? n) then [Asked al (half_more n)] else []) ++
    (if (16 <? old) && (c <? n) then [Returned al c] else []).
  Proof.
    unfold grow_calls. destruct (16 <? old); cbn [andb].
    - destruct (N.leb_spec n c), (N.ltb_spec c n); try lia; done.
    - by rewrite app_nil_r.
  Qed.
  Lemma f_push s al ch h t l s' h' c n : s_len s + nlen ch = n -> (16 < s_len s -> s_store s = UCap c) ->
    half_more n <= alloc_max -> good h t s al -> str_push s ch h = Ok (s', h') ->
    exists t', a_push (s, al) ch (AMem h t l) = Ok ((s', al), AMem h' t' (l ++ grow_calls al c (s_len s) n)) /\
      same h t t' /\ good h' t' s' al.
  Proof.
    intros Hn Hc Hm Hg E. unfold str_push in E. unfold a_push. rewrite uadd_fits, Hn in * by (by rewrite Hn).
    apply bind_inv in E as ([s1 i] & h1 & E1 & E). apply bind_inv in E as (s2 & h2 & E2 & E).
    apply bind_inv in E as (s3 & h3 & E3 & [= <- <-]).
    assert (Hi : ai_new i = true -> exists p, ai_des i = LHeap p /\ is_Some p).
    { intros Hi. destruct (try_alloc_des _ _ _ _ _ _ E1 Hi) as (p & Hd & _). exists p. split; [done|].
      rewrite Hd in E3. by eapply write_some. }
    destruct (f_try_alloc al s n h t l s1 i h1 c Hc Hm Hi E1) as (t' & A1 & Hs & Hh & St & Ln & Own & Hnew & Hde & Src).
    erewrite bind_ok by exact A1. rewrite log_grow, <-Hnew, <-Hde, app_assoc.
    pose proof (kp_write_loc _ _ _ _ _ _ _ E3) as [K3 _].
    destruct (ai_new i) eqn:Hin.
    - destruct (try_alloc_des _ _ _ _ _ _ E1 Hin) as (p & Hd & Hp). rewrite Hd in *.
      apply bind_inv in E2 as (bs & h4 & E4 & E2). apply bind_inv in E2 as (t1 & h5 & E5 & E2).
      apply bind_inv in E2 as (? & h6 & E6 & [= <- <-]).
      pose proof (kp_read_loc _ _ _ _ _ _ _ E4) as [K4 _]. pose proof (kp_write_loc _ _ _ _ _ _ _ E5) as [K5 _].
      pose proof (kp_free_src _ _ _ _ _ E6) as [K6 _].
      assert (t1 = s1) as -> by (by eapply write_heap_same).
      erewrite bind_ok.
      2:{ erewrite bind_ok by (by apply up_ok). erewrite bind_ok by (by apply up_ok).
          erewrite bind_ok; [done|]. eapply (f_free_src _ _ _ _ _ _ _ _ c); [| |exact E6].
          - destruct (N.ltb_spec 16 (s_len s)); [left; rewrite St; by apply Hc|by right].
          - intros q a Hq Hsrc ->. rewrite Hde in Hq. apply andb_true_iff in Hq as [Hq%N.ltb_lt _].
            rewrite (Src Hq) in Hsrc. injection Hsrc as Hsrc. destruct (Hg Hq a Hsrc) as [Ht Ha]. by rewrite Hs. }
      erewrite bind_ok by (by apply up_ok). apply write_heap_same in E3 as ->. exists t'. split; [done|]. split; [done|].
      intros _ a Ha. cbn [s_ptr] in Ha. destruct (Own a Ha). split; [done|lia].
    - injection E2 as <- <-. destruct Own as [-> ->]. erewrite bind_ok by done. erewrite bind_ok by (by apply up_ok).
      assert (Hdf : ai_dealloc i = false). { rewrite Hde. destruct (16 <? s_len s); [by rewrite <-Hnew|done]. }
      rewrite Hdf, !app_nil_r. exists t. split; [done|]. split; [done|].
      intros Hl a Ha. cbn [s_len s_ptr] in *. destruct (N.ltb_spec 16 (s_len s)) as [Hb|Hb].
      + assert (s_ptr s3 = s_ptr s) as Ep.
        { assert (exists q, ai_des i = LHeap q) as [q Hq].
          { unfold try_alloc, LOCAL in E1. destruct (N.ltb_spec 16 (s_len s)); [|lia]. apply bind_inv in E1 as (c' & ? & ? & E1).
            destruct (c' <? n); [apply bind_inv in E1 as (? & ? & ? & E1)|]; injection E1; intros; subst; eauto. }
          rewrite Hq in E3. by apply write_heap_same in E3 as ->. }
        rewrite Ep in Ha. destruct (Hg Hb a Ha). split; [done|]. lia.
      + symmetry in Hnew. apply N.ltb_ge in Hnew. lia.
  Qed.
  Lemma try_alloc_src s n h s1 i h1 : 16 < s_len s -> try_alloc s n h = Ok ((s1, i), h1) -> exists q, ai_des i = LHeap q.
  Proof.
    unfold try_alloc, LOCAL. intros Hl E1. destruct (N.ltb_spec 16 (s_len s)); [|lia]. apply bind_inv in E1 as (c' & ? & ? & E1).
    destruct (c' <? n); [apply bind_inv in E1 as (? & ? & ? & E1)|]; injection E1; intros; subst; eauto.
  Qed.
  Lemma f_insert s al ch idx h t l s' h' c n : s_len s + nlen ch = n -> (16 < s_len s -> s_store s = UCap c) ->
    half_more n <= alloc_max -> good h t s al -> str_insert s ch idx h = Ok (s', h') ->
    exists t', a_insert (s, al) ch idx (AMem h t l) = Ok ((s', al), AMem h' t' (l ++ grow_calls al c (s_len s) n)) /\
      same h t t' /\ good h' t' s' al.
  Proof.
    intros Hn Hc Hm Hg E. unfold str_insert in E. unfold a_insert. rewrite uadd_fits, Hn in * by (by rewrite Hn).
    apply bind_inv in E as (b & h7 & E7 & E). destruct b; [|done]. cbn [negb] in E.
    erewrite bind_ok by (by apply up_ok). cbn [negb].
    pose proof (kp_boundary _ _ _ _ _ E7) as [K7 _].
    apply bind_inv in E as ([s1 i] & h1 & E1 & E). apply bind_inv in E as (s2 & h2 & E2 & [= <- <-]).
    assert (Hi : ai_new i = true -> exists p, ai_des i = LHeap p /\ is_Some p).
    { intros Hi. destruct (try_alloc_des _ _ _ _ _ _ E1 Hi) as (p & Hd & _). exists p. split; [done|].
      rewrite Hi in E2. apply bind_inv in E2 as (bs & h4 & E4 & E2). apply bind_inv in E2 as (t1 & h5 & E5 & E2).
      rewrite Hd in E5. by eapply write_some. }
    destruct (f_try_alloc al s n h7 t l s1 i h1 c Hc Hm Hi E1) as (t' & A1 & Hs & Hh & St & Ln & Own & Hnew & Hde & Src).
    erewrite bind_ok by exact A1. rewrite log_grow, <-Hnew, <-Hde, app_assoc.
    assert (Hs' : same h t t') by (intros a Ha; apply Hs; lia).
    destruct (ai_new i) eqn:Hin.
    - destruct (try_alloc_des _ _ _ _ _ _ E1 Hin) as (p & Hd & Hp). rewrite Hd in *.
      apply bind_inv in E2 as (b1 & h4 & E4 & E2). apply bind_inv in E2 as (t1 & h5 & E5 & E2).
      apply bind_inv in E2 as (t2 & h6 & E6 & E2). apply bind_inv in E2 as (b2 & h8 & E8 & E2).
      apply bind_inv in E2 as (t3 & h9 & E9 & E2). apply bind_inv in E2 as (? & h10 & E10 & [= <- <-]).
      pose proof (kp_read_loc _ _ _ _ _ _ _ E4) as [K4 _]. pose proof (kp_write_loc _ _ _ _ _ _ _ E5) as [K5 _].
      pose proof (kp_write_loc _ _ _ _ _ _ _ E6) as [K6 _]. pose proof (kp_read_loc _ _ _ _ _ _ _ E8) as [K8 _].
      pose proof (kp_write_loc _ _ _ _ _ _ _ E9) as [K9 _]. pose proof (kp_free_src _ _ _ _ _ E10) as [K10 _].
      assert (t1 = s1) as -> by (by eapply write_heap_same). assert (t2 = s1) as -> by (by eapply write_heap_same).
      assert (t3 = s1) as -> by (by eapply write_heap_same).
      erewrite bind_ok.
      2:{ erewrite bind_ok by (by apply up_ok). erewrite bind_ok by (by apply up_ok). erewrite bind_ok by (by apply up_ok).
          erewrite bind_ok by (by apply up_ok). erewrite bind_ok by (by apply up_ok).
          erewrite bind_ok; [done|]. eapply (f_free_src _ _ _ _ _ _ _ _ c); [| |exact E10].
          - destruct (N.ltb_spec 16 (s_len s)); [left; rewrite St; by apply Hc|by right].
          - intros q a Hq Hsrc ->. rewrite Hde in Hq. apply andb_true_iff in Hq as [Hq%N.ltb_lt _].
            rewrite (Src Hq) in Hsrc. injection Hsrc as Hsrc. destruct (Hg Hq a Hsrc) as [Ht Ha]. by rewrite Hs'. }
      exists t'. split; [done|]. split; [done|].
      intros _ a Ha. cbn [s_ptr] in Ha. destruct (Own a Ha). split; [done|lia].
    - apply bind_inv in E2 as (b2 & h4 & E4 & E2). apply bind_inv in E2 as (t1 & h5 & E5 & E2).
      destruct Own as [-> ->].
      pose proof (kp_read_loc _ _ _ _ _ _ _ E4) as [K4 _]. pose proof (kp_write_loc _ _ _ _ _ _ _ E5) as [K5 _].
      pose proof (kp_write_loc _ _ _ _ _ _ _ E2) as [K6 _].
      erewrite bind_ok.
      2:{ erewrite bind_ok by (by apply up_ok). erewrite bind_ok by (by apply up_ok). by apply up_ok. }
      assert (Hdf : ai_dealloc i = false). { rewrite Hde. destruct (16 <? s_len s); [by rewrite <-Hnew|done]. }
      rewrite Hdf, !app_nil_r. exists t. split; [done|]. split; [done|].
      intros Hl a Ha. cbn [s_len s_ptr] in *. destruct (N.ltb_spec 16 (s_len s)) as [Hb|Hb].
      + destruct (try_alloc_src _ _ _ _ _ _ Hb E1) as [q Hq]. rewrite Hq in *.
        apply write_heap_same in E5 as ->. apply write_heap_same in E2 as ->.
        destruct (Hg Hb a Ha). split; [done|]. lia.
      + symmetry in Hnew. apply N.ltb_ge in Hnew. lia.
  Qed.
  Lemma f_insert_panic s al ch idx h t l bs fp : srep h s bs fp -> cut_ok bs idx = false ->
    a_insert (s, al) ch idx (AMem h t l) = Err Panic.
  Proof.
    intros Hr Hc. unfold a_insert. erewrite bind_ok by (apply up_ok; by eapply boundary_ok). by rewrite Hc.
  Qed.

  (** ** Worlds *)
  Definition forget (w : aworld) : world sblk str := World (am_heap (aw_mem w)) (fst <$> aw_vars w).
  Record arel (s : aspec) (w : aworld) : Prop := {
    ar_rel : rel (spec_str s) (forget w);
    ar_cap : caps_ok (spec_str s) (spec_cap s) (w_vars (forget w));
    ar_al : forall i x, aw_vars w !! i = Some x -> snd x = al_of (spec_al s) i;
    ar_good : forall i x, aw_vars w !! i = Some x -> good (am_heap (aw_mem w)) (am_made (aw_mem w)) (fst x) (snd x);
    ar_log : am_log (aw_mem w) = spec_log s;
  }.
  Lemma al_put m i n k : al_of (<[i := n]> m) k = if decide (i = k) then n else al_of m k.
  Proof. unfold al_of. destruct (decide (i = k)) as [->|Hne]; [by rewrite lookup_insert|by rewrite lookup_insert_ne]. Qed.

  (** The parts of [arel] that concern allocators. *)
  Definition als_ok (m : gmap nat N) (vs : gmap nat astr) : Prop := forall i x, vs !! i = Some x -> snd x = al_of m i.
  Definition goods (h : heap sblk) (t : gmap N N) (vs : gmap nat astr) : Prop :=
    forall i x, vs !! i = Some x -> good h t (fst x) (snd x).
  Lemma als_put m vs i x a : als_ok m vs -> snd x = a -> als_ok (<[i := a]> m) (<[i := x]> vs).
  Proof.
    intros H Hx k y. rewrite al_put. destruct (decide (i = k)) as [->|Hne].
    - rewrite lookup_insert. by intros [= <-].
    - rewrite lookup_insert_ne by done. apply H.
  Qed.
  Lemma als_same m vs i x : als_ok m vs -> snd x = al_of m i -> als_ok m (<[i := x]> vs).
  Proof.
    intros H Hx k y. destruct (decide (i = k)) as [->|Hne].
    - rewrite lookup_insert. by intros [= <-].
    - rewrite lookup_insert_ne by done. apply H.
  Qed.
  Lemma goods_put h h' t t' vs i x : goods h t vs -> same h t t' -> hnext h <= hnext h' -> good h' t' (fst x) (snd x) ->
    goods h' t' (<[i := x]> vs).
  Proof.
    intros H Hs Hn Hx k y. destruct (decide (i = k)) as [->|Hne].
    - rewrite lookup_insert. by intros [= <-].
    - rewrite lookup_insert_ne by done. intros Hy. eapply good_keep; eauto.
  Qed.
  Lemma goods_keep h h' t vs : goods h t vs -> hnext h <= hnext h' -> goods h' t vs.
  Proof. intros H Hn k y Hy. eapply good_keep; [apply same_refl|done|]. by eapply H. Qed.
  Lemma good_short h t s al : s_len s <= 16 -> good h t s al.
  Proof. intros Hs Hl. lia. Qed.

  Definition done_ok (vs' : gmap nat str) (h' : heap sblk) (al' : gmap nat N) (log' : list acall) (y : sout)
      (r : outcome (sout * aworld)) : Prop :=
    exists w', r = Ok (y, w') /\ forget w' = World h' vs' /\ als_ok al' (aw_vars w') /\
      goods (am_heap (aw_mem w')) (am_made (aw_mem w')) (aw_vars w') /\ am_log (aw_mem w') = log'.
  Lemma done_intro vs' h' al' log' y t' vs2 r : r = Ok (y, AWorld (AMem h' t' log') vs2) ->
    fst <$> vs2 = vs' -> als_ok al' vs2 -> goods h' t' vs2 -> done_ok vs' h' al' log' y r.
  Proof. intros -> <- Ha Hg. eexists. split; [done|]. done. Qed.

  Lemma mk_done i f h t log vs (m : M (heap sblk) str) x w' al a cs : 
    als_ok al vs -> goods h t vs ->
    s_mk i m (World h (fst <$> vs)) = Ok (x, w') ->
    (forall s h', m h = Ok (s, h') -> hnext h <= hnext h' /\ exists t', f (AMem h t log) = Ok ((s, a), AMem h' t' (log ++ cs)) /\
      same h t t' /\ good h' t' s a) ->
    done_ok (w_vars w') (w_heap w') (<[i := a]> al) (log ++ cs) x (a_mk i f (AWorld (AMem h t log) vs)).
  Proof.
    intros Ha Hg E Hf. unfold s_mk in E. apply bind_inv in E as (? & w1 & E0 & E). pose proof (wnew_inv _ _ _ _ E0) as ->.
    assert (Hi : vs !! i = None).
    { unfold wnew in E0. simpl in E0. rewrite lookup_fmap in E0. by destruct (vs !! i). }
    apply bind_inv in E as (s & w1 & E & E2).
    apply lift_inv in E as (h' & E & ->). injection E2 as <- <-. cbn [w_heap] in E.
    destruct (Hf s h' E) as (Hn & t' & E1 & Hs & Hgd).
    eapply done_intro.
    - unfold a_mk, a_fresh, a_lift, a_set, bind, ret. cbn [aw_vars]. rewrite Hi. cbn [aw_mem]. rewrite E1. done.
    - cbn [w_vars]. by rewrite fmap_insert.
    - by apply als_put.
    - cbn [w_heap]. by eapply goods_put.
  Qed.
  Lemma upd_done i f (m : str -> M (heap sblk) str) h t log vs x w' al cs :
    als_ok al vs -> goods h t vs ->
    s_upd i m (World h (fst <$> vs)) = Ok (x, w') ->
    (forall s a s' h', vs !! i = Some (s, a) -> m s h = Ok (s', h') -> hnext h <= hnext h' /\ exists t', f (s, a) (AMem h t log) = Ok ((s', a), AMem h' t' (log ++ cs)) /\
      same h t t' /\ good h' t' s' a) ->
    done_ok (w_vars w') (w_heap w') al (log ++ cs) x (a_upd i f (AWorld (AMem h t log) vs)).
  Proof.
    intros Ha Hg E Hf. assert (x = YUnit) as ->.
    { unfold s_upd in E. apply bind_inv in E as (? & ? & _ & E). apply bind_inv in E as (? & ? & _ & E). by injection E as <- _. }
    apply upd_inv in E as (s & s' & h' & Hv & E & ->). cbn [w_vars w_heap] in *.
    rewrite lookup_fmap in Hv. destruct (vs !! i) as [[s0 a]|] eqn:Hi; [|done]. injection Hv as ->.
    destruct (Hf s a s' h' eq_refl E) as (Hn & t' & E1 & Hs & Hgd).
    eapply done_intro.
    - unfold a_upd, a_get, a_lift, a_set, bind, ret. cbn [aw_vars]. rewrite Hi. cbn [aw_mem]. rewrite E1. done.
    - by rewrite fmap_insert.
    - apply als_same; [done|]. by apply (Ha i (s, a)).
    - by eapply goods_put.
  Qed.
  Lemma obs_done {X} i (f : str -> M (heap sblk) X) g h t log vs x w' al : (forall s, kp (f s)) ->
    als_ok al vs -> goods h t vs ->
    s_obs i f g (World h (fst <$> vs)) = Ok (x, w') ->
    done_ok (w_vars w') (w_heap w') al log x (a_obs i f g (AWorld (AMem h t log) vs)).
  Proof.
    intros Hk Ha Hg E. unfold s_obs in E. apply bind_inv in E as (s & w1 & [Hv ->]%wget_inv & E).
    apply bind_inv in E as (y & w1 & E & [= <- <-]). apply lift_inv in E as (h' & E & ->). cbn [w_vars w_heap] in *.
    rewrite lookup_fmap in Hv. destruct (vs !! i) as [[s0 a]|] eqn:Hi; [|done]. injection Hv as ->.
    eapply done_intro.
    - unfold a_obs, a_get, a_lift, up, bind, ret. cbn [aw_vars]. rewrite Hi. cbn [aw_mem fst am_heap]. rewrite E. done.
    - done.
    - done.
    - eapply goods_keep; [done|]. by apply (Hk s _ _ _ E).
  Qed.

  Lemma copy_assign_len x o h t' h' : str_copy_assign strict x o h = Ok (t', h') -> s_len t' = s_len o.
  Proof.
    unfold str_copy_assign. intros E. destruct (_ && _); [|destruct (_ && _); [|destruct (_ && _)]].
    - by apply bind_inv in E as (? & ? & _ & [= <- _]).
    - apply bind_inv in E as (? & ? & _ & E). apply bind_inv in E as (? & ? & _ & E). apply bind_inv in E as (? & ? & _ & E).
      by apply bind_inv in E as (? & ? & _ & ->%write_heap_same).
    - apply bind_inv in E as (? & ? & _ & E). apply bind_inv in E as (? & ? & _ & E). by apply bind_inv in E as (? & ? & _ & [= <- _]).
    - apply bind_inv in E as (c & ? & _ & E). apply bind_inv in E as (t1 & ? & E1 & E).
      apply bind_inv in E as (? & ? & _ & ->%write_heap_same). destruct (c <? _); [|by injection E1 as <- _].
      apply bind_inv in E1 as (? & ? & _ & E). apply bind_inv in E as (? & ? & _ & E). by apply bind_inv in E as (? & ? & _ & [= <- _]).
  Qed.
  Lemma a_step_ok sp c al log h t vs o sp' y u :
    rel sp (World h (fst <$> vs)) -> caps_ok sp c (fst <$> vs) -> als_ok al vs -> goods h t vs ->
    gspec strict sp (plain o) = SOk sp' y -> str_step strict (plain o) (World h (fst <$> vs)) = Ok (y, u) ->
    done_ok (w_vars u) (w_heap u) (al_after (ASpec sp c al log) o) (log ++ calls (ASpec sp c al log) o) y
      (a_step strict o (AWorld (AMem h t log) vs)).
  Proof.
    intros Hr Hc Ha Hg G E.
    assert (Hrep : forall i x, vs !! i = Some x -> exists bs fp, sp !! i = Some bs /\ srep h (fst x) bs fp).
    { intros i x Hi. destruct Hr as [m Hw]. assert (Hv : (fst <$> vs) !! i = Some (fst x)) by (by rewrite lookup_fmap, Hi).
      destruct (world_ok_lookup _ _ _ _ _ _ Hw Hv) as (e & Hm & He & Hsp). exists (e_s e), (e_fp e). split; [done|].
      rewrite <-He. by eapply (wo_rep _ _ _ _ Hw). }
    assert (Hcap : forall i x, vs !! i = Some x -> s_len (fst x) = size_of sp i /\
      (16 < s_len (fst x) -> s_store (fst x) = UCap (cap_of c i)) /\ half_more (size_of sp i) <= alloc_max).
    { intros i x Hi. destruct (Hrep i x Hi) as (bs & fp & Hb & R). rewrite (size_at _ _ _ Hb), (srep_len _ _ _ _ R).
      split; [done|]. split; [|by apply (srep_fits _ _ _ _ R)]. intros Hl.
      eapply Hc; [exact Hb|done|by rewrite lookup_fmap, Hi]. }
    unfold gspec in G. destruct (safe strict sp (plain o)) eqn:Hsafe; [|done].
    destruct o as [i a|i a bs|o]; [| |destruct o]; cbn [plain sspec str_step a_step] in *; cbn [al_after calls].
    - (* ANew *)
      eapply mk_done; [done|done|exact E|]. intros s h' [= <- <-]. split; [done|]. exists t. rewrite app_nil_r.
      split; [done|]. split; [apply same_refl|]. by apply good_short.
    - (* ALit *)
      apply fresh_inv in G as [Hi G]. apply give_inv in G as [Hf ->].
      eapply mk_done; [done|done|exact E|]. intros s h' El. split; [apply (kp_literal _ _ _ _ El)|].
      destruct (f_literal a bs h t log s h' Hf El) as (t' & A & B & C). exists t'. split; [done|]. split; [done|]. apply C.
      unfold str_literal in El. destruct (_ <=? LOCAL).
      + unfold write_loc in El. apply bind_inv in El as (? & ? & _ & [= <- <-]). done.
      + apply bind_inv in El as (? & ? & _ & ->%write_heap_same). done.
    - eapply mk_done; [done|done|exact E|]. intros s h' [= <- <-]. split; [done|]. exists t. rewrite app_nil_r.
      split; [done|]. split; [apply same_refl|]. by apply good_short.
    - apply fresh_inv in G as [Hi G]. apply give_inv in G as [Hf ->].
      eapply mk_done; [done|done|exact E|]. intros s h' El. split; [apply (kp_literal _ _ _ _ El)|].
      destruct (f_literal 0 bs h t log s h' Hf El) as (t' & A & B & C). exists t'. split; [done|]. split; [done|]. apply C.
      unfold str_literal in El. destruct (_ <=? LOCAL).
      + unfold write_loc in El. apply bind_inv in El as (? & ? & _ & [= <- <-]). done.
      + apply bind_inv in El as (? & ? & _ & ->%write_heap_same). done.
    - (* SCopy *)
      apply bind_inv in E as (o & w1 & [Ho ->]%wget_inv & E). cbn [w_vars] in Ho. rewrite lookup_fmap in Ho.
      destruct (vs !! j) as [[o' b]|] eqn:Hj; [|done]. injection Ho as ->.
      destruct (Hcap j _ Hj) as (L & S & _). cbn [fst] in L, S. rewrite <-L.
      assert (Eg : a_get j (AWorld (AMem h t log) vs) = Ok ((o, b), AWorld (AMem h t log) vs)) by (unfold a_get; cbn [aw_vars]; by rewrite Hj).
      erewrite bind_ok by exact Eg.
      eapply mk_done; [done|done|exact E|]. intros s h' El. split; [apply (kp_copy _ _ _ _ El)|].
      by apply (f_copy (o, b)).
    - (* SMove *)
      apply fresh_inv in G as [Hni G]. apply look_inv in G as (bs & Hj0 & G).
      apply bind_inv in E as (? & w1 & E0 & E). pose proof (wnew_inv _ _ _ _ E0) as ->.
      assert (Hi : vs !! i = None). { unfold wnew in E0. simpl in E0. rewrite lookup_fmap in E0. by destruct (vs !! i). }
      apply bind_inv in E as (o & w1 & [Ho ->]%wget_inv & E). cbn [w_vars] in Ho. rewrite lookup_fmap in Ho.
      destruct (vs !! j) as [[o' b]|] eqn:Hj; [|done]. injection Ho as ->.
      apply bind_inv in E as ([s o1] & w1 & E1 & E). apply lift_inv in E1 as (h' & E1 & ->). injection E as <- <-. cbn [w_heap w_vars] in *.
      destruct (f_move o b h t log s o1 h' (Hg j _ Hj) E1) as (A & -> & Gs & L0).
      rewrite <-(Ha j _ Hj). cbn [snd].
      eapply done_intro.
      + unfold a_fresh, a_get, a_lift, a_set, bind, ret. cbn [aw_vars]. rewrite Hi. cbn [aw_vars aw_mem]. rewrite Hj. cbn [aw_vars aw_mem]. rewrite A, app_nil_r. done.
      + by rewrite !fmap_insert.
      + apply als_put; [|done]. apply als_same; [done|]. by apply (Ha j _ Hj).
      + eapply goods_put; [|apply same_refl|done|done]. eapply goods_put; [done|apply same_refl|done|]. apply good_short. cbn [fst]. lia.
    - (* SCopyAsg *)
      apply bind_inv in E as (x & w1 & [Hx ->]%wget_inv & E). cbn [w_vars] in Hx. rewrite lookup_fmap in Hx.
      destruct (vs !! i) as [[x' a]|] eqn:Hi; [|done]. injection Hx as ->.
      apply bind_inv in E as (o & w1 & [Ho ->]%wget_inv & E). cbn [w_vars] in Ho. rewrite lookup_fmap in Ho.
      destruct (vs !! j) as [[o' b]|] eqn:Hj; [|done]. injection Ho as ->.
      destruct (Hcap i _ Hi) as (Li & Si & _). destruct (Hcap j _ Hj) as (Lj & Sj & Fj). cbn [fst] in *.
      assert (Eg : a_get i (AWorld (AMem h t log) vs) = Ok ((x, a), AWorld (AMem h t log) vs)) by (unfold a_get; cbn [aw_vars]; by rewrite Hi).
      assert (Eg2 : a_get j (AWorld (AMem h t log) vs) = Ok ((o, b), AWorld (AMem h t log) vs)) by (unfold a_get; cbn [aw_vars]; by rewrite Hj).
      erewrite bind_ok by exact Eg. erewrite bind_ok by exact Eg2.
      destruct (Nat.eqb_spec i j) as [->|Hij].
      { injection E as <- <-. rewrite Hi in Hj. injection Hj as <- <-. rewrite app_nil_r.
        eapply done_intro; [done|done| |done]. case_match; [done|]. intros k z Hz. rewrite al_put.
        destruct (decide (j = k)) as [->|]; by apply Ha. }
      apply bind_inv in E as (t' & w1 & E1 & E). apply lift_inv in E1 as (h' & E1 & ->). injection E as <- <-. cbn [w_heap w_vars] in *.
      assert (s_len x <> 16 /\ s_len o <> 16) as [N1 N2].
      { destruct (Hrep i _ Hi) as (bs & fp & Hb & R). destruct (Hrep j _ Hj) as (bs2 & fp2 & Hb2 & R2).
        pose proof (srep_len _ _ _ _ R). pose proof (srep_len _ _ _ _ R2). cbn [fst] in *.
        simpl in Hsafe. unfold covers, is16 in Hsafe. rewrite Hb, Hb2 in Hsafe.
        destruct (Nat.eqb_spec i j); [done|]. cbn [orb] in Hsafe.
        apply orb_true_iff in Hsafe as [Hs|Hs]; apply andb_true_iff in Hs as [H1 H2].
        - apply andb_true_iff in H1 as [HN0 H1]. apply negb_true_iff, Nat.eqb_neq in H1, H2. lia.
        - apply Nat.ltb_lt in H1. apply Nat.leb_le in H2. lia. }
      destruct (f_copy_assign x a o b h t log t' h' (cap_of c i) (cap_of c j) _ _ Li Lj) as (t1 & A & B & C);
        [congruence|congruence|done|by rewrite <-Li|by rewrite <-Lj|by apply (Hg i _ Hi)|done|].
      assert (Lt : s_len t' = size_of sp j).
      { rewrite <-Lj. by eapply copy_assign_len. }
      specialize (C Lt).
      eapply done_intro.
      + unfold a_lift, a_set, bind, ret. cbn [aw_mem]. rewrite A. rewrite <-(Ha i _ Hi), <-(Ha j _ Hj). cbn [snd]. done.
      + by rewrite fmap_insert.
      + rewrite <-(Ha j _ Hj). cbn [snd]. destruct (_ && _ && _); [apply als_same; [done|]; by apply (Ha i _ Hi)|]. by apply als_put.
      + eapply goods_put; [done|done|by apply (kp_copy_assign _ _ _ _ _ _ E1)|done].
    - (* SMoveAsg *)
      apply bind_inv in E as (x & w1 & [Hx ->]%wget_inv & E). cbn [w_vars] in Hx. rewrite lookup_fmap in Hx.
      destruct (vs !! i) as [[x' a]|] eqn:Hi; [|done]. injection Hx as ->.
      apply bind_inv in E as (o & w1 & [Ho ->]%wget_inv & E). cbn [w_vars] in Ho. rewrite lookup_fmap in Ho.
      destruct (vs !! j) as [[o' b]|] eqn:Hj; [|done]. injection Ho as ->.
      destruct (Hcap i _ Hi) as (Li & Si & _). destruct (Hcap j _ Hj) as (Lj & Sj & Fj). cbn [fst] in *.
      assert (Eg : a_get i (AWorld (AMem h t log) vs) = Ok ((x, a), AWorld (AMem h t log) vs)) by (unfold a_get; cbn [aw_vars]; by rewrite Hi).
      assert (Eg2 : a_get j (AWorld (AMem h t log) vs) = Ok ((o, b), AWorld (AMem h t log) vs)) by (unfold a_get; cbn [aw_vars]; by rewrite Hj).
      erewrite bind_ok by exact Eg. erewrite bind_ok by exact Eg2.
      destruct (Nat.eqb_spec i j) as [->|Hij].
      { injection E as <- <-. rewrite Hi in Hj. injection Hj as <- <-. rewrite app_nil_r.
        eapply done_intro; [done|done| |done]. intros k z Hz. rewrite al_put.
        destruct (decide (j = k)) as [->|]; by apply Ha. }
      apply bind_inv in E as ([t' o1] & w1 & E1 & E). apply lift_inv in E1 as (h' & E1 & ->). injection E as <- <-. cbn [w_heap w_vars] in *.
      assert (s_len x <> 16 /\ s_len o <> 16) as [N1 N2].
      { destruct (Hrep i _ Hi) as (bs & fp & Hb & R). destruct (Hrep j _ Hj) as (bs2 & fp2 & Hb2 & R2).
        pose proof (srep_len _ _ _ _ R). pose proof (srep_len _ _ _ _ R2). cbn [fst] in *.
        simpl in Hsafe. unfold is16 in Hsafe. rewrite Hb, Hb2 in Hsafe.
        destruct (Nat.eqb_spec i j); [done|]. cbn [orb] in Hsafe. apply andb_true_iff in Hsafe as [H1 H2].
        apply andb_true_iff in H1 as [HN0 H1]. apply negb_true_iff, Nat.eqb_neq in H1, H2. lia. }
      destruct (f_move_assign x a o b h t log t' o1 h' (cap_of c i) _ _ Li Lj) as (A & B & C);
        [congruence|congruence|by rewrite <-Li|by apply (Hg i _ Hi)|by apply (Hg j _ Hj)|done|].
      eapply done_intro.
      + unfold a_lift, a_set, bind, ret. cbn [aw_mem]. rewrite A. rewrite <-(Ha i _ Hi). cbn [snd]. done.
      + cbn [aw_vars]. by rewrite !fmap_insert.
      + cbn [aw_vars]. apply als_put; [|by apply (Ha j _ Hj)]. apply als_same; [done|]. by apply (Ha j _ Hj).
      + cbn [aw_vars]. pose proof (kp_move_assign _ _ _ _ _ _ E1) as [K _]. eapply goods_put; [|apply same_refl|reflexivity|done].
        eapply goods_put; [done|apply same_refl|done|]. apply good_short. cbn [fst]. lia.
    - (* SPush *)
      apply look_inv in G as (xs & Hi0 & G). apply give_inv in G as [Hf ->].
      eapply upd_done; [done|done|exact E|]. intros s a s' h' Hi El. split; [apply (kp_push _ _ _ _ _ El)|].
      destruct (Hcap i _ Hi) as (Li & Si & _). cbn [fst] in *. rewrite <-(Ha i _ Hi), <-Li. cbn [snd].
      eapply f_push; [done|done| |by apply (Hg i _ Hi)|done].
      rewrite Li, (size_at _ _ _ Hi0). unfold fits in Hf. rewrite app_length, Nat2N.inj_add in Hf. exact Hf.
    - (* SInsert *)
      apply look_inv in G as (xs & Hi0 & G). destruct (cut_ok xs idx); [|done]. apply give_inv in G as [Hf ->].
      eapply upd_done; [done|done|exact E|]. intros s a s' h' Hi El. split; [apply (kp_insert _ _ _ _ _ _ El)|].
      destruct (Hcap i _ Hi) as (Li & Si & _). cbn [fst] in *. rewrite <-(Ha i _ Hi), <-Li. cbn [snd].
      eapply f_insert; [done|done| |by apply (Hg i _ Hi)|done].
      rewrite Li, (size_at _ _ _ Hi0). pose proof (fits_le _ _ Hf (ins_len xs ch (N.to_nat idx))) as Hf2.
      unfold fits in Hf2. rewrite app_length, Nat2N.inj_add in Hf2. exact Hf2.
    - (* SPop *)
      apply bind_inv in E as (s & w1 & [Hv ->]%wget_inv & E). cbn [w_vars] in Hv. rewrite lookup_fmap in Hv.
      destruct (vs !! i) as [[s0 a]|] eqn:Hi; [|done]. injection Hv as ->.
      apply bind_inv in E as ([s' z] & w1 & E1 & E). apply lift_inv in E1 as (h' & E1 & ->). injection E as <- <-. cbn [w_heap w_vars] in *.
      pose proof (kp_pop _ _ _ _ E1) as [K _].
      assert (Lp : s_len s' <= s_len s /\ s_ptr s' = s_ptr s).
      { split; [|by apply (pop_buf _ _ _ _ _ E1)]. unfold str_pop in E1. destruct (s_len s =? 0); [by injection E1 as <- _ _|].
        apply bind_inv in E1 as (bs & ? & _ & E1). destruct bs as [|b [|]]; try done. injection E1 as <- _ _. simpl. lia. }
      eapply done_intro.
      + unfold a_get, a_lift, a_set, up, bind, ret. cbn [aw_vars]. rewrite Hi. cbn [aw_mem fst am_heap]. rewrite E1, app_nil_r. done.
      + by rewrite fmap_insert.
      + apply als_same; [done|]. by apply (Ha i _ Hi).
      + eapply goods_put; [done|apply same_refl|done|]. cbn [fst snd]. destruct Lp as [L1 L2]. intros Hl b Hb. rewrite L2 in Hb.
        destruct (Hg i _ Hi ltac:(cbn [fst]; lia) b Hb). split; [done|lia].
    - rewrite app_nil_r. eapply obs_done; [intros; apply kp_ret|done|done|exact E].
    - rewrite app_nil_r. eapply obs_done; [apply kp_print|done|done|exact E].
    - rewrite app_nil_r. eapply obs_done; [apply kp_bytes|done|done|exact E].
    - rewrite app_nil_r. eapply (obs_done i (fun s => str_boundary s idx)); [intros; apply kp_boundary|done|done|exact E].
    - (* SDel *)
      apply bind_inv in E as (s & w1 & [Hv ->]%wget_inv & E). cbn [w_vars] in Hv. rewrite lookup_fmap in Hv.
      destruct (vs !! i) as [[s0 a]|] eqn:Hi; [|done]. injection Hv as ->.
      apply bind_inv in E as (z & w1 & E1 & E). apply lift_inv in E1 as (h' & E1 & ->). injection E as <- <-. cbn [w_heap w_vars] in *.
      destruct (Hcap i _ Hi) as (Li & Si & _). cbn [fst] in *. rewrite <-(Ha i _ Hi), <-Li. cbn [snd].
      pose proof (f_destroy s a h t log h' _ z Si (Hg i _ Hi) E1) as A.
      eapply done_intro.
      + unfold a_get, a_lift, a_del, bind, ret. cbn [aw_vars]. rewrite Hi. cbn [aw_mem]. rewrite A. done.
      + by rewrite fmap_delete.
      + intros k q. rewrite lookup_delete_Some. intros [_ Hq]. by apply Ha.
      + intros k q. rewrite lookup_delete_Some. intros [_ Hq]. eapply good_keep; [apply same_refl|by apply (kp_destroy _ _ _ _ E1)|by eapply Hg].
  Qed.
End Follow.

Section Claims.
  Context (strict : bool).
  Lemma step_refines s w o : arel s w -> agrees arel (a_step strict o w) (a_spec strict s o).
  Proof.
    intros [Hr Hc Ha Hg Hl]. pose proof (str_step_refines strict _ _ (plain o) Hr) as R.
    destruct s as [sp c al log]. destruct w as [[h t l] vs]. unfold forget in *. unfold a_spec.
    cbn [spec_str spec_cap spec_al spec_log aw_mem am_heap am_made am_log aw_vars w_vars] in *. subst l.
    destruct (gspec strict sp (plain o)) as [sp' y| |] eqn:G; [| |done].
    - destruct R as (u & E & Ru).
      destruct (a_step_ok strict sp c al log h t vs o sp' y u Hr Hc Ha Hg G E) as (w' & E' & Ef & A & B & C).
      exists w'. split; [done|]. pose proof (track strict sp c _ _ sp' y y u Hr Hc G E) as T.
      split; cbn [spec_str spec_cap spec_al spec_log]; [| |done|done|done].
      + rewrite Ef. by destruct u.
      + rewrite Ef. apply (tk_caps _ _ _ _ _ _ T).
    - simpl. unfold gspec in G. destruct (safe strict sp (plain o)); [|done].
      destruct o as [i a|i a bs|o]; [| |destruct o]; cbn [plain sspec] in G;
        unfold fresh, look, give in G; repeat case_match; try done.
      cbn [a_step]. unfold a_upd, bind, a_get. cbn [aw_vars].
      destruct Hr as [m Hw]. match goal with H : sp !! _ = Some _ |- _ => destruct (world_ok_lookup_spec _ _ _ _ _ _ Hw H) as (e & Hm & He & Hv & Hrp) end.
      cbn [w_vars w_heap] in Hv, Hrp. rewrite lookup_fmap in Hv. destruct (vs !! i) as [[s a]|] eqn:Hi; [|done]. injection Hv as Hv.
      unfold a_lift. cbn [aw_mem]. rewrite Hv. by erewrite f_insert_panic.
  Qed.
  Lemma arel_init : arel aspec0 ainit.
  Proof.
    split; simpl; try done.
    - unfold forget, ainit. simpl. rewrite fmap_empty. apply (world_ok_init srep).
  Qed.
  Lemma runs ops : agrees arel (run_ops (a_step strict) ops ainit) (srun (a_spec strict) aspec0 ops).
  Proof. apply (srun_refines (a_spec strict) (a_step strict) arel step_refines ops aspec0 ainit arel_init). Qed.

  (** C82: in every history of the specification the calls received by the
      allocators are those it lists, in that order, and each string uses the
      allocator it says. *)
  Theorem C82_calls_partial ops :
    match srun (a_spec strict) aspec0 ops with
    | SOk s outs => exists w, run_ops (a_step strict) ops ainit = Ok (outs, w) /\
        am_log (aw_mem w) = spec_log s /\
        (forall i, is_Some (aw_vars w !! i) <-> is_Some (spec_str s !! i)) /\
        (forall i x, aw_vars w !! i = Some x -> snd x = al_of (spec_al s) i)
    | SPanic => run_ops (a_step strict) ops ainit = Err Panic
    | SPre => True
    end.
  Proof.
    pose proof (runs ops) as H. destruct (srun (a_spec strict) aspec0 ops) as [s outs| |]; [|done|done].
    destruct H as (w & E & [Hr Hc Ha Hg Hl]). exists w. split; [done|]. split; [done|]. split; [|done].
    intros i. destruct Hr as [m Hw]. pose proof (wo_spec _ _ _ _ Hw) as Es. pose proof (wo_vars _ _ _ _ Hw) as Ev.
    rewrite <-(fmap_is_Some fst), <-lookup_fmap. change (fst <$> aw_vars w) with (w_vars (forget w)).
    rewrite Es, Ev, !lookup_fmap, !fmap_is_Some. done.
  Qed.
  Lemma same_strings ops :
    match srun (gspec strict) ∅ (plain <$> ops), srun (a_spec strict) aspec0 ops with
    | SOk sp outs, SOk s outs' => spec_str s = sp /\ outs' = outs
    | SPanic, SPanic => True
    | SPre, SPre => True
    | _, _ => False
    end.
  Proof.
    assert (G : forall ops s, match srun (gspec strict) (spec_str s) (plain <$> ops), srun (a_spec strict) s ops with
      | SOk sp outs, SOk s' outs' => spec_str s' = sp /\ outs' = outs
      | SPanic, SPanic => True | SPre, SPre => True | _, _ => False end); [|apply (G ops aspec0)].
    clear ops. induction ops as [|o ops IH]; intros s; [done|]. simpl.
    assert (Ea : a_spec strict s o = match gspec strict (spec_str s) (plain o) with
      | SOk sp' x => SOk (ASpec sp' (caps_after (spec_cap s) (spec_str s) (plain o)) (al_after s o) (spec_log s ++ calls s o)) x
      | SPanic => SPanic | SPre => SPre end) by done. rewrite Ea. clear Ea.
    destruct (gspec strict (spec_str s) (plain o)) as [sp' y| |]; [|done|done].
    specialize (IH (ASpec sp' (caps_after (spec_cap s) (spec_str s) (plain o)) (al_after s o) (spec_log s ++ calls s o))).
    cbn [spec_str] in IH. change (list_fmap aop sop plain ops) with (plain <$> ops). destruct (srun (gspec strict) sp' (plain <$> ops)); destruct (srun (a_spec strict) _ ops); try done.
    by destruct IH; subst.
  Qed.

  (** Which allocators are used changes nothing else a program can see. *)
  Theorem C82_transparent_partial ops :
    match srun (gspec strict) ∅ (plain <$> ops) with
    | SOk sp outs => exists w u, run_ops (a_step strict) ops ainit = Ok (outs, w) /\
        run_ops (str_step strict) (plain <$> ops) winit = Ok (outs, u)
    | SPanic => run_ops (a_step strict) ops ainit = Err Panic /\ run_ops (str_step strict) (plain <$> ops) winit = Err Panic
    | SPre => True
    end.
  Proof.
    pose proof (same_strings ops) as H. pose proof (C82_calls_partial ops) as A. pose proof (C43_histories_partial strict (plain <$> ops)) as B.
    destruct (srun (gspec strict) ∅ (plain <$> ops)) as [sp outs| |]; [| |done];
      (destruct (srun (a_spec strict) aspec0 ops) as [s outs'| |]; try done).
    destruct H as [_ ->]. destruct A as (w & A & _), B as (u & B & _). eauto.
  Qed.

  (** *** Every allocator gets back what it gave out *)
  Definition asked (a n : N) (x : acall) : bool := match x with Asked b m => (b =? a) && (m =? n) | _ => false end.
  Definition returned (a n : N) (x : acall) : bool := match x with Returned b m => (b =? a) && (m =? n) | _ => false end.
  Definition times (f : acall -> bool) (l : list acall) : N := nlen (List.filter f l).
  (** How many strings keep their bytes in a buffer of [n] bytes made by [a]. *)
  Definition bufs (sp : sstate) (c al : gmap nat N) : gmap nat (N * N * N) :=
    map_imap (fun i xs => Some (al_of al i, cap_of c i, nlen xs)) sp.
  Definition is_buf (a n : N) (x : N * N * N) : bool := let '(b, m, l) := x in (16 <? l) && ((b =? a) && (m =? n)).
  Definition in_use (a n : N) (s : aspec) : N := mcount (is_buf a n) (bufs (spec_str s) (spec_cap s) (spec_al s)).

  Lemma times_app f l k : times f (l ++ k) = times f l + times f k.
  Proof. unfold times. rewrite List.filter_app, app_length. lia. Qed.
  Lemma times_nil f : times f [] = 0.
  Proof. done. Qed.
  Lemma times_cons f x l : times f (x :: l) = (if f x then 1 else 0) + times f l.
  Proof. unfold times. simpl. destruct (f x); [|done]. simpl length. lia. Qed.
  Lemma bufs_at sp c al i : bufs sp c al !! i = (fun xs => (al_of al i, cap_of c i, nlen xs)) <$> (sp !! i).
  Proof. unfold bufs. rewrite map_lookup_imap. by destruct (sp !! i). Qed.
  Lemma bufs_put sp c al c' al' i bs : (forall k, k <> i -> cap_of c' k = cap_of c k) -> (forall k, k <> i -> al_of al' k = al_of al k) ->
    bufs (<[i := bs]> sp) c' al' = <[i := (al_of al' i, cap_of c' i, nlen bs)]> (bufs sp c al).
  Proof.
    intros Hc Ha. apply map_eq. intros k. rewrite bufs_at. destruct (decide (i = k)) as [->|Hne].
    - by rewrite !lookup_insert.
    - rewrite !lookup_insert_ne, bufs_at by done. rewrite Hc, Ha by done. done.
  Qed.
  Ltac ifs := repeat match goal with |- context [if ?b then _ else _] => destruct b end; lia.
  Lemma grow_balance a n sp c al i xs bs m : sp !! i = Some xs -> nlen bs = m ->
    let c' := if (16 <? nlen xs) && (m <=? cap_of c i) then c else <[i := half_more m]> c in
    (nlen xs <= m) ->
    times (asked a n) (grow_calls (al_of al i) (cap_of c i) (nlen xs) m) + mcount (is_buf a n) (bufs sp c al) =
    times (returned a n) (grow_calls (al_of al i) (cap_of c i) (nlen xs) m) + mcount (is_buf a n) (bufs (<[i := bs]> sp) c' al).
  Proof.
    intros Hi Hb c' Hle. rewrite (bufs_put sp c al c' al); [|intros k Hk; unfold c'; case_match; [done|by rewrite cap_put, decide_False]|done].
    match goal with |- context [<[i := ?v]> (bufs sp c al)] =>
        pose proof (mcount_insert (is_buf a n) (bufs sp c al) i _ v ltac:(rewrite bufs_at, Hi; done)) as M end.
    unfold c', grow_calls in *. cbn [is_buf] in *. rewrite Hb in *.
    destruct (N.ltb_spec 16 (nlen xs)), (N.ltb_spec 16 m); try lia; cbn [andb] in *.
    - destruct (m <=? cap_of c i); rewrite ?cap_put, ?decide_True in * by done; rewrite ?times_cons, ?times_nil; cbn [asked returned]; [lia|]. revert M. ifs.
    - rewrite ?cap_put, ?decide_True in * by done; rewrite ?times_cons, ?times_nil; cbn [asked returned]. revert M. ifs.
    - rewrite ?cap_put, ?decide_True in * by done; rewrite ?times_cons, ?times_nil; cbn [asked returned]. lia.
  Qed.
  Lemma balance_step a n s o s' y : a_spec strict s o = SOk s' y ->
    times (asked a n) (spec_log s) = times (returned a n) (spec_log s) + in_use a n s ->
    times (asked a n) (spec_log s') = times (returned a n) (spec_log s') + in_use a n s'.
  Proof.
    unfold a_spec. destruct (gspec strict (spec_str s) (plain o)) as [sp' y'| |] eqn:G; [|done|done].
    intros [= <- _] B. cbn [spec_log]. rewrite !times_app. unfold in_use in *. cbn [spec_str spec_cap spec_al].
    destruct s as [sp c al log]. cbn [spec_str spec_cap spec_al spec_log] in *.
    enough (times (asked a n) (calls (ASpec sp c al log) o) + mcount (is_buf a n) (bufs sp c al) =
      times (returned a n) (calls (ASpec sp c al log) o) +
      mcount (is_buf a n) (bufs sp' (caps_after c sp (plain o)) (al_after (ASpec sp c al log) o))) by lia.
    clear B. unfold gspec in G. destruct (safe strict sp (plain o)) eqn:Hsafe; [|done].
    destruct o as [i b|i b bs|o]; [| |destruct o]; cbn [plain sspec] in *; cbn [al_after calls caps_after].
    - apply fresh_inv in G as [Hi G]. apply give_inv in G as [_ ->].
      rewrite (bufs_put sp c al); [|done|intros k Hk; by rewrite al_put, decide_False].
      rewrite mcount_fresh by (by rewrite bufs_at, Hi). done.
    - apply fresh_inv in G as [Hi G]. apply give_inv in G as [_ ->].
      rewrite (bufs_put sp c al); [|intros k Hk; by rewrite cap_put, decide_False|intros k Hk; by rewrite al_put, decide_False].
      rewrite mcount_fresh by (by rewrite bufs_at, Hi). rewrite al_put, cap_put, !decide_True by done. cbn [is_buf].
      destruct (16 <? nlen bs); cbn [andb]; rewrite ?times_cons, ?times_nil; cbn [asked returned]; [|lia]. ifs.
    - apply fresh_inv in G as [Hi G]. apply give_inv in G as [_ ->].
      rewrite (bufs_put sp c al); [|done|intros k Hk; by rewrite al_put, decide_False].
      rewrite mcount_fresh by (by rewrite bufs_at, Hi). done.
    - apply fresh_inv in G as [Hi G]. apply give_inv in G as [_ ->].
      rewrite (bufs_put sp c al); [|intros k Hk; by rewrite cap_put, decide_False|intros k Hk; by rewrite al_put, decide_False].
      rewrite mcount_fresh by (by rewrite bufs_at, Hi). rewrite al_put, cap_put, !decide_True by done. cbn [is_buf].
      destruct (16 <? nlen bs); cbn [andb]; rewrite ?times_cons, ?times_nil; cbn [asked returned]; [|lia]. ifs.
    - (* SCopy *)
      apply fresh_inv in G as [Hi G]. apply look_inv in G as (bs & Hj & G). apply give_inv in G as [_ ->].
      rewrite (bufs_put sp c al); [|intros k Hk; by rewrite cap_put, decide_False|intros k Hk; by rewrite al_put, decide_False].
      rewrite mcount_fresh by (by rewrite bufs_at, Hi). rewrite al_put, cap_put, !decide_True by done. cbn [is_buf].
      rewrite (size_at _ _ _ Hj). destruct (16 <? nlen bs); cbn [andb]; rewrite ?times_cons, ?times_nil; cbn [asked returned]; [|lia]. ifs.
    - (* SMove *)
      apply fresh_inv in G as [Hi G]. apply look_inv in G as (bs & Hj & G). apply give_inv in G as [_ ->].
      assert (i <> j) as Hij by congruence.
      rewrite (bufs_put (<[j := []]> sp) c al); [|intros k Hk; by rewrite cap_put, decide_False|intros k Hk; by rewrite al_put, decide_False].
      rewrite al_put, cap_put, !decide_True by done.
      rewrite mcount_fresh by (by rewrite bufs_at, lookup_insert_ne, Hi by done).
      rewrite (bufs_put sp c al) by done.
      pose proof (mcount_insert (is_buf a n) (bufs sp c al) j _ (al_of al j, cap_of c j, nlen (@nil N))
        ltac:(rewrite bufs_at, Hj; done)) as M. cbn [is_buf] in *. change (16 <? nlen (@nil N)) with false in *. cbn [andb] in M. rewrite ?times_cons, ?times_nil; cbn [asked returned]. lia.
    - (* SCopyAsg *)
      apply look_inv in G as (xs & Hi & G). apply look_inv in G as (bs & Hj & G). apply give_inv in G as [_ ->].
      rewrite (size_at _ _ _ Hi), (size_at _ _ _ Hj).
      destruct (Nat.eqb_spec i j) as [->|Hij].
      { rewrite Hi in Hj. injection Hj as ->. rewrite insert_id by done. f_equal. f_equal. apply map_eq. intros k. rewrite !bufs_at.
        case_match; [done|]. rewrite al_put. by destruct (decide (j = k)) as [->|]. }
      match goal with |- _ + _ = _ + mcount _ (bufs _ ?c' ?al') => assert (Hc' : forall k, k <> i -> cap_of c' k = cap_of c k);
        [intros k Hk; repeat case_match; rewrite ?cap_put, ?decide_False by done; done|];
        assert (Ha' : forall k, k <> i -> al_of al' k = al_of al k);
        [intros k Hk; repeat case_match; rewrite ?al_put, ?decide_False by done; done|] end.
      rewrite (bufs_put sp c al _ _ _ _ Hc' Ha').
      match goal with |- context [<[i := ?v]> (bufs sp c al)] =>
        pose proof (mcount_insert (is_buf a n) (bufs sp c al) i _ v ltac:(rewrite bufs_at, Hi; done)) as M end.
      clear Hc' Ha'. cbn [is_buf] in *. destruct (16 <? nlen xs), (16 <? nlen bs); cbn [andb] in *.
      + destruct (nlen bs <=? cap_of c i); rewrite ?al_put, ?cap_put, ?decide_True in * by done; rewrite ?times_cons, ?times_nil; cbn [asked returned]; [lia|].
        revert M. ifs.
      + rewrite ?al_put, ?cap_put, ?decide_True in * by done; rewrite ?times_cons, ?times_nil; cbn [asked returned]. revert M. ifs.
      + rewrite ?al_put, ?cap_put, ?decide_True in * by done; rewrite ?times_cons, ?times_nil; cbn [asked returned]. revert M. ifs.
      + rewrite ?times_cons, ?times_nil; cbn [asked returned]. lia.
    - (* SMoveAsg *)
      apply look_inv in G as (xs & Hi & G). apply look_inv in G as (bs & Hj & G).
      rewrite (size_at _ _ _ Hi).
      destruct (Nat.eqb_spec i j) as [->|Hij].
      { destruct (decide (j = j)); [|done]. injection G as <- _. f_equal. f_equal. apply map_eq. intros k. rewrite !bufs_at.
        rewrite al_put. by destruct (decide (j = k)) as [->|]. }
      destruct (decide (i = j)); [done|]. apply give_inv in G as [_ ->].
      rewrite (bufs_put (<[j := []]> sp) c al); [|intros k Hk; by rewrite cap_put, decide_False|intros k Hk; by rewrite al_put, decide_False].
      rewrite al_put, cap_put, !decide_True by done.
      rewrite (bufs_put sp c al) by done.
      pose proof (mcount_insert (is_buf a n) (bufs sp c al) j _ (al_of al j, cap_of c j, nlen (@nil N))
        ltac:(rewrite bufs_at, Hj; done)) as M.
      match goal with |- context [<[i := ?v]> (<[j := ?u]> (bufs sp c al))] =>
        pose proof (mcount_insert (is_buf a n) (<[j := u]> (bufs sp c al)) i _ v ltac:(rewrite lookup_insert_ne, bufs_at, Hi by done; done)) as M2 end.
      cbn [is_buf] in *. change (16 <? nlen (@nil N)) with false in *. cbn [andb] in M.
      destruct (16 <? nlen xs); cbn [andb] in *; rewrite ?times_cons, ?times_nil; cbn [asked returned]; [|lia].
      revert M2. destruct ((al_of al i =? a) && (cap_of c i =? n)); lia.
    - (* SPush *)
      apply look_inv in G as (xs & Hi & G). apply give_inv in G as [_ ->]. rewrite (size_at _ _ _ Hi).
      eapply (grow_balance a n); [done| |lia]. rewrite app_length, Nat2N.inj_add. done.
    - (* SInsert *)
      apply look_inv in G as (xs & Hi & G). destruct (cut_ok xs idx) eqn:Hcut; [|done]. apply give_inv in G as [_ ->]. rewrite (size_at _ _ _ Hi).
      eapply (grow_balance a n); [done| |lia]. rewrite !app_length, take_length, drop_length. lia.
    - (* SPop *)
      apply look_inv in G as (xs & Hi & G). simpl in Hsafe. rewrite Hi in Hsafe. apply negb_true_iff, Nat.eqb_neq in Hsafe.
      destruct (last xs) eqn:El; injection G as <- _; [|rewrite ?times_cons, ?times_nil; cbn [asked returned]; lia].
      rewrite (bufs_put sp c al) by done.
      match goal with |- context [<[i := ?v]> (bufs sp c al)] =>
        pose proof (mcount_insert (is_buf a n) (bufs sp c al) i _ v ltac:(rewrite bufs_at, Hi; done)) as M end.
      cbn [is_buf] in *. rewrite take_length in M.
      replace (16 <? N.of_nat ((length xs - 1) `min` length xs)) with (16 <? nlen xs) in M; [rewrite !times_nil, take_length; lia|].
      destruct (N.ltb_spec 16 (nlen xs)), (N.ltb_spec 16 (N.of_nat ((length xs - 1) `min` length xs))); try done; lia.
    - apply look_inv in G as (xs & Hi & [= <- _]). rewrite ?times_cons, ?times_nil; cbn [asked returned]; lia.
    - apply look_inv in G as (xs & Hi & [= <- _]). rewrite ?times_cons, ?times_nil; cbn [asked returned]; lia.
    - apply look_inv in G as (xs & Hi & [= <- _]). rewrite ?times_cons, ?times_nil; cbn [asked returned]; lia.
    - apply look_inv in G as (xs & Hi & [= <- _]). rewrite ?times_cons, ?times_nil; cbn [asked returned]; lia.
    - (* SDel *)
      apply look_inv in G as (xs & Hi & [= <- _]). rewrite (size_at _ _ _ Hi).
      assert (bufs (delete i sp) c al = delete i (bufs sp c al)) as ->.
      { apply map_eq. intros k. rewrite bufs_at. destruct (decide (i = k)) as [->|]; [by rewrite !lookup_delete|].
        by rewrite !lookup_delete_ne, bufs_at. }
      rewrite (mcount_delete (is_buf a n) (bufs sp c al) i (al_of al i, cap_of c i, nlen xs)) by (by rewrite bufs_at, Hi).
      cbn [is_buf]. destruct (16 <? nlen xs); cbn [andb]; rewrite ?times_cons, ?times_nil; cbn [asked returned]; [ifs|lia].
  Qed.
  (** C82: at any time an allocator has been asked for as many blocks of each
      size as it got back, plus those in use by strings that use it. *)
  Theorem C82_balance_partial ops s outs a n : srun (a_spec strict) aspec0 ops = SOk s outs ->
    exists w, run_ops (a_step strict) ops ainit = Ok (outs, w) /\
      times (asked a n) (am_log (aw_mem w)) = times (returned a n) (am_log (aw_mem w)) + in_use a n s.
  Proof.
    intros E. pose proof (C82_calls_partial ops) as H. rewrite E in H. destruct H as (w & Ew & El & _).
    exists w. split; [done|]. rewrite El.
    assert (Gen : forall ops s0 outs, srun (a_spec strict) s0 ops = SOk s outs ->
      times (asked a n) (spec_log s0) = times (returned a n) (spec_log s0) + in_use a n s0 ->
      times (asked a n) (spec_log s) = times (returned a n) (spec_log s) + in_use a n s); [|by eapply Gen].
    clear. induction ops as [|o ops IH]; intros s0 outs E B; simpl in E; [by injection E as <- _|].
    destruct (a_spec strict s0 o) as [s1 y| |] eqn:E1; [|done|done].
    destruct (srun (a_spec strict) s1 ops) as [s2 ys| |] eqn:E2; [|done|done]. injection E as -> _.
    eapply IH; [exact E2|]. by eapply balance_step.
  Qed.
  (** Once all strings are gone, everything has been given back. *)
  Theorem C82_all_returned_partial ops s outs a n : srun (a_spec strict) aspec0 ops = SOk s outs -> spec_str s = ∅ ->
    exists w, run_ops (a_step strict) ops ainit = Ok (outs, w) /\ aw_vars w = ∅ /\ hmap (am_heap (aw_mem w)) = ∅ /\
      times (asked a n) (am_log (aw_mem w)) = times (returned a n) (am_log (aw_mem w)).
  Proof.
    intros E Hs. destruct (C82_balance_partial ops s outs a n E) as (w & Ew & B). exists w. split; [done|].
    pose proof (runs ops) as R. rewrite E in R. destruct R as (w' & Ew' & [Hr _ _ _ _]). rewrite Ew in Ew'. injection Ew' as <-.
    rewrite Hs in Hr. apply world_ok_empty in Hr as [Hh Hv]. simpl in Hv, Hh. apply fmap_empty_inv in Hv.
    split; [done|]. split; [done|]. rewrite B. unfold in_use. rewrite Hs. unfold bufs. rewrite map_imap_empty, mcount_empty. lia.
  Qed.

  (** *** Which allocator a string uses after an assignment *)
  (** The claim: after [i = j] or [i = std::move(j)], [i] uses the allocator [j] had. *)
  Definition takes_over : Prop := forall ops i j (mv : bool) s outs s' y,
    let o := AOp (if mv then SMoveAsg i j else SCopyAsg i j) in
    srun (a_spec strict) aspec0 ops = SOk s outs -> a_spec strict s o = SOk s' y ->
    exists w w' x z, run_ops (a_step strict) ops ainit = Ok (outs, w) /\ a_step strict o w = Ok (y, w') /\
      aw_vars w !! j = Some x /\ aw_vars w' !! i = Some z /\ snd z = snd x.
  (** It holds of every assignment, except copying into a string that has
      enough room for a text of more than 16 bytes. *)
  Theorem C82_assign_partial ops i j (mv : bool) s outs s' y :
    let o := AOp (if mv then SMoveAsg i j else SCopyAsg i j) in
    srun (a_spec strict) aspec0 ops = SOk s outs -> a_spec strict s o = SOk s' y ->
    exists w w' x u z, run_ops (a_step strict) ops ainit = Ok (outs, w) /\ a_step strict o w = Ok (y, w') /\
      aw_vars w !! j = Some x /\ aw_vars w !! i = Some u /\ aw_vars w' !! i = Some z /\
      snd z = if negb mv && (16 <? size_of (spec_str s) i) && (16 <? size_of (spec_str s) j) &&
                 (size_of (spec_str s) j <=? cap_of (spec_cap s) i) then snd u else snd x.
  Proof.
    intros o E Eo. pose proof (runs ops) as R. rewrite E in R. destruct R as (w & Ew & A).
    pose proof (step_refines s w o A) as R. rewrite Eo in R. destruct R as (w' & Ew' & A').
    assert (exists x u z, aw_vars w !! j = Some x /\ aw_vars w !! i = Some u /\ aw_vars w' !! i = Some z) as (x & u & z & Hx & Hu & Hz).
    { clear -Ew'. unfold o in Ew'. destruct mv; cbn [a_step] in Ew'.
      - apply bind_inv in Ew' as (u & w1 & E1 & E). unfold a_get in E1. destruct (aw_vars w !! i) eqn:Hi; [|done]. injection E1 as <- <-.
        apply bind_inv in E as (x & w1 & E1 & E). unfold a_get in E1. destruct (aw_vars w !! j) eqn:Hj; [|done]. injection E1 as <- <-.
        destruct (i =? j)%nat; [injection E as _ <-; eauto 7|].
        apply bind_inv in E as ([t' o'] & w1 & E1 & [= _ <-]). eexists _, _, _. cbn [aw_vars]. by rewrite lookup_insert.
      - apply bind_inv in Ew' as (u & w1 & E1 & E). unfold a_get in E1. destruct (aw_vars w !! i) eqn:Hi; [|done]. injection E1 as <- <-.
        apply bind_inv in E as (x & w1 & E1 & E). unfold a_get in E1. destruct (aw_vars w !! j) eqn:Hj; [|done]. injection E1 as <- <-.
        destruct (i =? j)%nat; [injection E as _ <-; eauto 7|].
        apply bind_inv in E as (t' & w1 & E1 & [= _ <-]). eexists _, _, _. cbn [aw_vars]. by rewrite lookup_insert. }
    exists w, w', x, u, z. split_and!; try done.
    rewrite (ar_al _ _ A _ _ Hx), (ar_al _ _ A _ _ Hu), (ar_al _ _ A' _ _ Hz).
    unfold a_spec in Eo. destruct (gspec strict (spec_str s) (plain o)) as [sp' y'| |]; [|done|done]. injection Eo as <- _.
    destruct s as [sp c al log]. unfold o. cbn [spec_str spec_cap spec_al]. destruct mv; cbn [al_after negb andb].
    - by rewrite al_put, decide_True.
    - destruct (_ && _ && _); [done|]. by rewrite al_put, decide_True.
  Qed.
  Theorem C82_assign_refuted : ~ takes_over.
  Proof.
    intros H.
    pose (ops := [ALit 0 1 (replicate 20 65); ALit 1 2 (replicate 20 66)]).
    destruct (srun (a_spec strict) aspec0 ops) as [s outs| |] eqn:E; [|destruct strict; vm_compute in E; discriminate E..].
    destruct (a_spec strict s (AOp (SCopyAsg 0 1))) as [s' y| |] eqn:Eo.
    2,3: destruct strict; vm_compute in E; injection E as <- _; vm_compute in Eo; discriminate Eo.
    destruct (H ops 0%nat 1%nat false s outs s' y E Eo) as (w & w' & x & z & Ew & Ew' & Hx & Hz & Heq).
    destruct strict; vm_compute in Ew; injection Ew as _ <-; vm_compute in Ew'; injection Ew' as _ <-;
      vm_compute in Hx, Hz; injection Hx as <-; injection Hz as <-; vm_compute in Heq; discriminate Heq.
  Qed.
End Claims.

(** ** A program with three allocators *)
Definition C82_ops : list aop :=
  [ALit 0 1 (replicate 20 65); ALit 1 2 (replicate 40 66); ANew 2 3; AOp (SPush 2 [67]); AOp (SCopy 3 0);
   AOp (SCopyAsg 1 0);     (* 20 bytes fit: string 1 keeps allocator 2 *)
   AOp (SCopyAsg 2 1);     (* a short string takes allocator 2 *)
   AOp (SMoveAsg 0 1); AOp (SPush 0 (replicate 60 68)); AOp (SCopyAsg 3 0);
   AOp (SDel 0); AOp (SDel 1); AOp (SDel 2); AOp (SDel 3)].
Example C82_ex :
  match srun (a_spec false) aspec0 C82_ops with
  | SOk s _ => map_to_list (spec_str s) = [] /\
      spec_log s = [Asked 1 30; Asked 2 60; Asked 0 30; Asked 2 60; Returned 1 30; Asked 2 120; Returned 2 60;
                    Returned 0 30; Asked 2 120; Returned 2 120; Returned 2 60; Returned 2 120]
  | _ => False
  end /\
  match run_ops (a_step false) C82_ops ainit with
  | Ok (_, w) => am_log (aw_mem w) = [Asked 1 30; Asked 2 60; Asked 0 30; Asked 2 60; Returned 1 30; Asked 2 120; Returned 2 60;
                    Returned 0 30; Asked 2 120; Returned 2 120; Returned 2 60; Returned 2 120]
  | Err _ => False
  end.
Proof. split; vm_compute; [|done]. split; reflexivity. Qed.
(** Giving a block to the wrong allocator is noticed. *)
Example C82_wrong : forall l, a_free 2 (Some 0) 30 (AMem (Heap {[0 := SBlk 30 []]} 1 0) {[0 := 1]} l) = Err UB.
Proof. done. Qed.

Print Assumptions C82_calls_partial.
Print Assumptions C82_transparent_partial.
Print Assumptions C82_balance_partial.
Print Assumptions C82_all_returned_partial.
Print Assumptions C82_assign_partial.
Print Assumptions C82_assign_refuted.
