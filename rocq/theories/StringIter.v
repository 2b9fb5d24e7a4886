(** * StringIter: C78, iterators of strings that are kept while strings change

    A [Chars] (basic_string.h:21-39) is two pointers into the bytes of the
    string [chars()] was called on.  Here programs keep any number of them
    while they go on using their strings.

    Simplifications: a pointer into the bytes inside a string object is the
    variable and an offset; when the variable is destroyed such pointers are
    marked, so that a later variable of the same name is another object.
    Comparing [start] with [end] (slice.h:23) is allowed after the storage is
    gone.  The strings themselves are those of StringModel.v. *)
From Verif Require Import Base World Machine Utf8Model Utf8Spec StringModel StringProofs StringProps StringExact.
Local Open Scope N_scope.

Section Code.
  Context (strict utf : bool).

  (** ** The code *)
  Inductive cloc := CInline (i : nat) | CHeap (p : option N) | CGone.
  (** slice.h:14-19, 71-73. *)
  Record citer := CIter { ci_loc : cloc; ci_start : N; ci_end : N }.
  Record cst := CSt { c_w : world sblk str; c_it : gmap nat citer }.
  Definition cinit : cst := CSt winit ∅.
  Inductive cop :=
  | CStr (o : sop)        (* any operation on the strings *)
  | CChars (t i : nat)    (* auto t = s.chars() *)
  | CCopy (t u : nat)     (* auto t = u *)
  | CNext (t : nat).      (* t.next() *)
  Inductive cout := YStr (x : sout) | YDone | YChar (c : option (list N)).

  (** basic_string.h:344-347, 350-357 [chars], [make_slice]; slice.h:101-104. *)
  Definition chars (i : nat) (s : str) : citer :=
    if LOCAL <? s_len s then CIter (CHeap (s_ptr s)) 0 (s_len s) else CIter (CInline i) 0 (s_len s).

  (** [*start] *)
  Definition cell_at (l : list (option N)) (k : N) : outcome N :=
    match l !! N.to_nat k with Some (Some b) => Ok b | _ => Err UB end.
  Definition byte_at (w : world sblk str) (p : cloc) (k : N) : outcome N :=
    match p with
    | CInline i =>
        match w_vars w !! i with
        | Some s => match s_store s with ULocal l => cell_at l k | UCap _ => Err UB end
        | None => Err UB
        end
    | CHeap (Some a) => match hmap (w_heap w) !! a with Some b => cell_at (sb_data b) k | None => Err UB end
    | CHeap None | CGone => Err UB
    end.
  (** slice.h:21-30 [SliceRefIter::next] *)
  Definition slice_next (w : world sblk str) : M citer (option N) := fun it =>
    if ci_end it <=? ci_start it then Ok (None, it)
    else match byte_at w (ci_loc it) (ci_start it) with
         | Ok b => Ok (Some b, CIter (ci_loc it) (ci_start it + 1) (ci_end it))
         | Err e => Err e
         end.
  (** [iter.next().unwrap_unchecked()] on none reads through a null pointer. *)
  Definition slice_must (w : world sblk str) : M citer N :=
    o <-- slice_next w ;; match o with Some b => ret b | None => fail UB end.
  (** basic_string.h:29-33 [Chars::next] with utf8.h:26-62, ascii.h:25-33. *)
  Definition chars_next (w : world sblk str) : M citer (option (list N)) :=
    o <-- slice_next w ;;
    match o with
    | None => ret None
    | Some x =>
        if negb utf then ret (Some [x])
        else if x <? 0x7F then ret (Some [x])
        else
          y <-- slice_must w ;;
          if x <? 0xE0 then ret (Some [x; y])
          else
            z <-- slice_must w ;;
            if x <? 0xF0 then ret (Some [x; y; z])
            else v <-- slice_must w ;; ret (Some [x; y; z; v])
    end.

  (** The storage inside the variable ends with it. *)
  Definition end_inline (o : sop) (it : citer) : citer :=
    match o, ci_loc it with
    | SDel i, CInline j => if (i =? j)%nat then CIter CGone (ci_start it) (ci_end it) else it
    | _, _ => it
    end.
  Definition cstep (o : cop) : M cst cout := fun st =>
    match o with
    | CStr o =>
        match str_step strict o (c_w st) with
        | Ok (x, w) => Ok (YStr x, CSt w (end_inline o <$> c_it st))
        | Err e => Err e
        end
    | CChars t i =>
        match w_vars (c_w st) !! i with
        | Some s => Ok (YDone, CSt (c_w st) (<[t := chars i s]> (c_it st)))
        | None => Err UB
        end
    | CCopy t u =>
        match c_it st !! u with
        | Some it => Ok (YDone, CSt (c_w st) (<[t := it]> (c_it st)))
        | None => Err UB
        end
    | CNext t =>
        match c_it st !! t with
        | Some it =>
            match chars_next (c_w st) it with
            | Ok (c, it') => Ok (YChar c, CSt (c_w st) (<[t := it']> (c_it st)))
            | Err e => Err e
            end
        | None => Err UB
        end
    end.

  (** ** The specification

      Strings are byte sequences.  A string of up to 16 bytes keeps them in
      the object, a longer one in a buffer; [caps] gives how many bytes the
      buffers hold. *)
  Notation caps := (gmap nat N).
  Definition size_of (sp : sstate) (i : nat) : N := match sp !! i with Some xs => nlen xs | None => 0 end.
  Definition cap_of (c : caps) (i : nat) : N := default 0 (c !! i).
  Definition half_more (n : N) : N := n + n / 2.
  Definition caps_after (c : caps) (sp : sstate) (o : sop) : caps :=
    let put i n := <[i := n]> c in
    let grow i n := if (16 <? size_of sp i) && (n <=? cap_of c i) then c else put i (half_more n) in
    match o with
    | SLit i bs => put i (half_more (nlen bs))
    | SCopy i j | SMove i j => put i (cap_of c j)
    | SCopyAsg i j =>
        if (i =? j)%nat then c
        else if 16 <? size_of sp j then
          if 16 <? size_of sp i then
            (if size_of sp j <=? cap_of c i then c else put i (half_more (size_of sp j)))
          else put i (cap_of c j)
        else c
    | SMoveAsg i j => if (i =? j)%nat then c else put i (cap_of c j)
    | SPush i ch | SInsert i ch _ => grow i (size_of sp i + nlen ch)
    | _ => c
    end.
  (** Who holds the buffer of the long string [j] after [o]; [None] if it is
      given up. *)
  Definition follow (c : caps) (sp : sstate) (j : nat) (o : sop) : option nat :=
    match o with
    | SDel i => if (i =? j)%nat then None else Some j
    | SMove i k => if (k =? j)%nat then Some i else Some j
    | SCopyAsg i k =>
        if (i =? j)%nat && negb (k =? j)%nat then
          (if (16 <? size_of sp k) && (size_of sp k <=? cap_of c j) then Some j else None)
        else Some j
    | SMoveAsg i k =>
        if (i =? k)%nat then Some j
        else if (k =? j)%nat then Some i
        else if (i =? j)%nat then None else Some j
    | SPush i ch | SInsert i ch _ =>
        if (i =? j)%nat then (if size_of sp j + nlen ch <=? cap_of c j then Some j else None) else Some j
    | _ => Some j
    end.

  (** Where a kept iterator points to: the bytes inside the object [i], the
      buffer that is now [i]'s, or nothing any more. *)
  Inductive home := HObject (i : nat) | HBuffer (i : nat) | HNone.
  Record kept := Kept { k_home : home; k_start : N; k_end : N }.
  Definition home_after (c : caps) (sp : sstate) (o : sop) (h : home) : home :=
    match h with
    | HObject i => match o with SDel j => if (j =? i)%nat then HNone else h | _ => h end
    | HBuffer i => match follow c sp i o with Some j => HBuffer j | None => HNone end
    | HNone => HNone
    end.
  Record kstate := KState { k_sp : sstate; k_caps : caps; k_it : gmap nat kept }.
  Definition kinit : kstate := KState ∅ ∅ ∅.

  (** The bytes an iterator can see: those of the string that keeps its bytes
      where the iterator points to. *)
  Definition seen (sp : sstate) (h : home) : option (list N) :=
    match h with
    | HObject i => xs ← sp !! i; if nlen xs <=? 16 then Some xs else None
    | HBuffer i => sp !! i
    | HNone => None
    end.
  (** The number of bytes of the character that begins with [b]; [None] for
      those that begin none (and for 7F, see C40). *)
  Definition char_len (b : N) : option nat :=
    if utf then
      if b <=? 0x7E then Some 1%nat
      else if (0xC2 <=? b) && (b <=? 0xDF) then Some 2%nat
      else if (0xE0 <=? b) && (b <=? 0xEF) then Some 3%nat
      else if (0xF0 <=? b) && (b <=? 0xF4) then Some 4%nat
      else None
    else Some 1%nat.
  Definition kspec (s : kstate) (o : cop) : sres kstate cout :=
    let '(KState sp c ts) := s in
    match o with
    | CStr o =>
        match gspec strict sp o with
        | SOk sp' x =>
            SOk (KState sp' (caps_after c sp o)
                   ((fun k => Kept (home_after c sp o (k_home k)) (k_start k) (k_end k)) <$> ts)) (YStr x)
        | SPanic => SPanic
        | SPre => SPre
        end
    | CChars t i =>
        match sp !! i with
        | Some xs => SOk (KState sp c (<[t := Kept (if nlen xs <=? 16 then HObject i else HBuffer i) 0 (nlen xs)]> ts)) YDone
        | None => SPre
        end
    | CCopy t u =>
        match ts !! u with Some k => SOk (KState sp c (<[t := k]> ts)) YDone | None => SPre end
    | CNext t =>
        match ts !! t with
        | Some (Kept h a e) =>
            if e <=? a then SOk s (YChar None)
            else
              match seen sp h with
              | Some xs =>
                  let bs := drop (N.to_nat a) (take (N.to_nat e) xs) in
                  match bs with
                  | b :: _ =>
                      match char_len b with
                      | Some n => if (n <=? length bs)%nat
                                  then SOk (KState sp c (<[t := Kept h (a + N.of_nat n) e]> ts)) (YChar (Some (take n bs)))
                                  else SPre
                      | None => SPre
                      end
                  | [] => SPre
                  end
              | None => SPre
              end
        | None => SPre
        end
    end.
End Code.

(** ** What each operation does to the buffers *)
Lemma s_free_gone p c h h' a : s_free p c h = Ok (tt, h') -> p = Some a -> hmap h' !! a = None.
Proof.
  intros E ->. unfold s_free in E. apply bind_inv in E as (b & h1 & E1 & E).
  unfold hread in E1. destruct (hmap h !! a) as [b'|] eqn:Ha; [|done]. injection E1 as -> ->.
  destruct (sb_cap b =? c); [|done]. unfold hfree in E. rewrite Ha in E. injection E as <-. simpl. apply lookup_delete.
Qed.
Lemma get_cap_inv s c h h' : get_cap s h = Ok (c, h') -> s_store s = UCap c /\ h' = h.
Proof. unfold get_cap, ret, fail. destruct (s_store s); [done|]. by intros [= <- <-]. Qed.
Lemma alloc_assign_inv strict x h h' : alloc_assign strict h = Ok (x, h') -> h' = h.
Proof. unfold alloc_assign. destruct strict; [done|]. by intros [= _ <-]. Qed.

Lemma lit_cap bs h s h' : fits bs -> 16 < nlen bs -> str_literal bs h = Ok (s, h') -> s_store s = UCap (half_more (nlen bs)).
Proof.
  intros Hf Hl. unfold str_literal, LOCAL. destruct (N.leb_spec (nlen bs) 16); [lia|].
  intros (p & h1 & _ & ->%write_heap_same)%bind_inv. simpl. by rewrite uadd_cap.
Qed.
Lemma copy_cap o h s h' : 16 < s_len o -> str_copy o h = Ok (s, h') -> s_store s = s_store o.
Proof.
  intros Hl. unfold str_copy, LOCAL. destruct (N.ltb_spec 16 (s_len o)); [|lia].
  intros (c & h1 & [-> ->]%get_cap_inv & (p & h2 & _ & (bs & h3 & _ & ->%write_heap_same)%bind_inv)%bind_inv)%bind_inv. done.
Qed.
(** The two ways of adding bytes. *)
Definition grown (h : heap sblk) (s : str) (old n : N) (s' : str) (h' : heap sblk) : Prop :=
  (16 < old -> forall c a, s_store s = UCap c -> s_ptr s = Some a ->
     if n <=? c then s_store s' = UCap c /\ s_ptr s' = Some a
     else s_store s' = UCap (half_more n) /\ hmap h' !! a = None) /\
  (old <= 16 -> 16 < n -> s_store s' = UCap (half_more n)).
Lemma srep_long h s bs fp : srep h s bs fp -> 16 < nlen bs ->
  exists c a, s = Str (nlen bs) (UCap c) (Some a) /\ fp = [a] /\ nlen bs <= c /\ a ∈ fp.
Proof.
  intros Hr Hl. inversion Hr; subst; [lia|]. eexists _, _. split; [done|]. split; [done|]. split; [|set_solver].
  rewrite app_length, fmap_length. lia.
Qed.
Lemma srep_ulocal h s bs fp : srep h s bs fp -> nlen bs <= 16 -> s_len s <= 16 /\ fp = [].
Proof. intros Hr Hl. inversion Hr; subst; [done|lia]. Qed.
Lemma free_src_gone s src des nc h h' a x : free_src s (AInfo (LHeap src) des nc true true) h = Ok (x, h') ->
  src = Some a -> hmap h' !! a = None.
Proof.
  unfold free_src. cbn [ai_dealloc ai_src]. intros (c & h1 & _ & E)%bind_inv Ha. destruct x. by eapply s_free_gone.
Qed.
(** Later steps do not bring it back. *)
Ltac nexts :=
  repeat match goal with
  | E : s_alloc _ _ = Ok _ |- _ => apply kp_s_alloc in E as [E _]
  | E : read_loc _ _ _ _ _ = Ok _ |- _ => apply kp_read_loc in E as [E _]
  | E : write_loc _ _ _ _ _ = Ok _ |- _ => apply kp_write_loc in E as [E _]
  | E : free_src _ _ _ = Ok _ |- _ => apply kp_free_src in E as [E _]
  | E : s_free _ _ _ = Ok _ |- _ => apply kp_s_free in E as [E _]
  | E : str_boundary _ _ _ = Ok _ |- _ => apply kp_boundary in E as [E _]
  end; lia.
Lemma push_grown h s bs fp ch s' h' : hwf h -> srep h s bs fp -> fits (bs ++ ch) -> str_push s ch h = Ok (s', h') ->
  grown h s (nlen bs) (nlen bs + nlen ch) s' h'.
Proof.
  intros Hwf Hr Hf E. unfold fits in Hf. rewrite app_length in Hf. unfold str_push in E.
  set (n := nlen bs + nlen ch) in *. assert (Hnn : N.of_nat (length bs + length ch) = n) by (unfold n; lia). rewrite Hnn in Hf.
  rewrite (srep_len _ _ _ _ Hr), uadd_fits in E by exact Hf. fold n in E.
  split.
  - intros Hl c a Es Ep. destruct (srep_long _ _ _ _ Hr Hl) as (c' & a' & -> & -> & _). injection Es as ->. injection Ep as ->.
    assert (Hah : a < hnext h) by (apply Hwf; eapply srep_dom; [exact Hr|set_solver]).
    apply bind_inv in E as ([s1 i] & h1 & E1 & E). rewrite try_alloc_heap in E1 by done. rewrite uadd_cap in E1 by done.
    destruct (N.ltb_spec c n), (N.leb_spec n c); try lia.
    + apply bind_inv in E1 as (p & h0 & E1 & [= <- <- <-]). cbn [ai_new ai_src ai_des ai_cap] in E.
      apply bind_inv in E as (s2 & h2 & E2 & E). apply bind_inv in E as (s3 & h3 & E3 & [= <- <-]).
      pose proof (kp_write_loc _ _ _ _ _ _ _ E3) as [_ Hk].
      apply write_heap_same in E3 as ->. cbn [s_store].
      apply bind_inv in E2 as (b & h4 & E6 & E2). apply bind_inv in E2 as (t & h5 & E4 & E2).
      apply bind_inv in E2 as (? & h6 & E5 & [= <- <-]). split; [done|].
      pose proof (free_src_gone _ _ _ _ _ _ _ _ E5 eq_refl) as Hd.
      apply Hk; [|done]. nexts.
    + injection E1 as <- <- <-. cbn [ai_new ai_src ai_des ai_cap] in E.
      apply bind_inv in E as (s2 & h2 & [= <- <-] & E). apply bind_inv in E as (s3 & h3 & ->%write_heap_same & [= <- <-]). done.
  - intros Hl Hn. apply bind_inv in E as ([s1 i] & h1 & E1 & E). destruct s as [sl u p].
    rewrite try_alloc_local in E1 by apply (srep_ulocal _ _ _ _ Hr Hl). rewrite uadd_cap in E1 by done.
    destruct (N.ltb_spec 16 n); [|lia]. apply bind_inv in E1 as (p' & h0 & _ & [= <- <- <-]). cbn [ai_new ai_src ai_des ai_cap] in E.
    apply bind_inv in E as (s2 & h2 & E2 & E). apply bind_inv in E as (s3 & h3 & E3 & [= <- <-]).
    apply write_heap_same in E3 as ->. cbn [s_store].
    apply bind_inv in E2 as (b & h4 & _ & E2). apply bind_inv in E2 as (t & h5 & E4 & E2).
    by apply bind_inv in E2 as (? & h6 & E5 & [= <- <-]).
Qed.
Lemma insert_grown h s bs fp ch idx s' h' : hwf h -> srep h s bs fp -> fits (bs ++ ch) -> str_insert s ch idx h = Ok (s', h') ->
  grown h s (nlen bs) (nlen bs + nlen ch) s' h'.
Proof.
  intros Hwf Hr Hf E. unfold fits in Hf. rewrite app_length in Hf. unfold str_insert in E.
  set (n := nlen bs + nlen ch) in *. assert (Hnn : N.of_nat (length bs + length ch) = n) by (unfold n; lia). rewrite Hnn in Hf.
  rewrite (srep_len _ _ _ _ Hr), uadd_fits in E by exact Hf. fold n in E.
  apply bind_inv in E as (b & h7 & E7 & E). destruct b; [|done]. cbn [negb] in E.
  split.
  - intros Hl c a Es Ep. destruct (srep_long _ _ _ _ Hr Hl) as (c' & a' & -> & -> & _). injection Es as ->. injection Ep as ->.
    assert (Hah : a < hnext h) by (apply Hwf; eapply srep_dom; [exact Hr|set_solver]).
    apply bind_inv in E as ([s1 i] & h1 & E1 & E). rewrite try_alloc_heap in E1 by done. rewrite uadd_cap in E1 by done.
    destruct (N.ltb_spec c n), (N.leb_spec n c); try lia.
    + apply bind_inv in E1 as (p & h0 & E1 & [= <- <- <-]). cbn [ai_new ai_src ai_des ai_cap] in E.
      apply bind_inv in E as (s2 & h2 & E2 & [= <- <-]). cbn [s_store].
      apply bind_inv in E2 as (b1 & h4 & E4 & E2). apply bind_inv in E2 as (t1 & h5 & E5 & E2).
      apply bind_inv in E2 as (t2 & h6 & E6 & E2). apply bind_inv in E2 as (b2 & h8 & E8 & E2).
      apply bind_inv in E2 as (t3 & h9 & E9 & E2). apply bind_inv in E2 as (? & h10 & E10 & [= <- <-]). split; [done|].
      by eapply free_src_gone.
    + injection E1 as <- <- <-. cbn [ai_new ai_src ai_des ai_cap] in E.
      apply bind_inv in E as (s2 & h2 & E2 & [= <- <-]). cbn [s_store s_ptr].
      apply bind_inv in E2 as (b1 & h4 & E4 & E2). apply bind_inv in E2 as (t1 & h5 & ->%write_heap_same & ->%write_heap_same). done.
  - intros Hl Hn. apply bind_inv in E as ([s1 i] & h1 & E1 & E). destruct s as [sl u p].
    rewrite try_alloc_local in E1 by apply (srep_ulocal _ _ _ _ Hr Hl). rewrite uadd_cap in E1 by done.
    destruct (N.ltb_spec 16 n); [|lia]. apply bind_inv in E1 as (p' & h0 & _ & [= <- <- <-]). cbn [ai_new ai_src ai_des ai_cap] in E.
    apply bind_inv in E as (s2 & h2 & E2 & [= <- <-]). cbn [s_store].
    apply bind_inv in E2 as (b1 & h4 & E4 & E2). apply bind_inv in E2 as (t1 & h5 & E5 & E2).
    apply bind_inv in E2 as (t2 & h6 & E6 & E2). apply bind_inv in E2 as (b2 & h8 & E8 & E2).
    apply bind_inv in E2 as (t3 & h9 & E9 & E2). by apply bind_inv in E2 as (? & h10 & E10 & [= <- <-]).
Qed.
Lemma copy_assign_buf strict h t o xs bs fpt fpo t' h' : hwf h -> srep h t xs fpt -> srep h o bs fpo ->
  length xs <> 16%nat -> length bs <> 16%nat -> str_copy_assign strict t o h = Ok (t', h') ->
  (nlen xs <= 16 -> 16 < nlen bs -> s_store t' = s_store o) /\
  (16 < nlen xs -> forall c a, s_store t = UCap c -> s_ptr t = Some a ->
     if (16 <? nlen bs) && (nlen bs <=? c) then s_store t' = UCap c /\ s_ptr t' = Some a
     else (16 < nlen bs -> s_store t' = UCap (half_more (nlen bs))) /\ hmap h' !! a = None).
Proof.
  intros Hwf Ht Ho Hx Hb E. unfold str_copy_assign, LOCAL in E.
  rewrite (srep_len _ _ _ _ Ht), (srep_len _ _ _ _ Ho) in E. split.
  - intros H1 H2. destruct (N.ltb_spec (nlen xs) 16); [|lia]. destruct (N.ltb_spec (nlen bs) 16); [lia|].
    destruct (N.ltb_spec 16 (nlen bs)); [|lia]. cbn [andb] in E.
    apply bind_inv in E as (? & h1 & _ & (c & h2 & [-> ->]%get_cap_inv & (p & h3 & _ & (b & h4 & _ & ->%write_heap_same)%bind_inv)%bind_inv)%bind_inv).
    done.
  - intros H1 c a Es Ep. assert (Hah : a < hnext h).
    { destruct (srep_long _ _ _ _ Ht H1) as (c' & a' & -> & -> & _). injection Ep as ->. apply Hwf. eapply srep_dom; [exact Ht|set_solver]. }
    pose proof (srep_fits _ _ _ _ Ho) as Hfo. unfold fits in Hfo.
    destruct (N.ltb_spec (nlen xs) 16); [lia|]. destruct (N.ltb_spec 16 (nlen xs)); [|lia]. cbn [andb] in E.
    destruct (N.ltb_spec (nlen bs) 16) as [Hs|Hs].
    + destruct (N.ltb_spec 16 (nlen bs)); [lia|]. cbn [andb].
      apply bind_inv in E as (c1 & h1 & [E1 ->]%get_cap_inv & E). rewrite Es in E1. injection E1 as <-.
      apply bind_inv in E as ([] & h2 & E2 & E). apply bind_inv in E as (? & h3 & ->%alloc_assign_inv & [= <- <-]).
      split; [intros; lia|]. by eapply s_free_gone.
    + destruct (N.ltb_spec 16 (nlen bs)); [|lia]. cbn [andb].
      apply bind_inv in E as (c1 & h1 & [E1 ->]%get_cap_inv & E). rewrite Es in E1. injection E1 as <-.
      apply bind_inv in E as (t1 & h2 & E2 & E). apply bind_inv in E as (b & h3 & E3 & E4).
      pose proof (kp_write_loc _ _ _ _ _ _ _ E4) as [K4 K4']. apply write_heap_same in E4 as ->.
      pose proof (kp_read_loc _ _ _ _ _ _ _ E3) as [K3 K3'].
      destruct (N.ltb_spec c (nlen bs)), (N.leb_spec (nlen bs) c); try lia.
      * rewrite uadd_cap in E2 by done.
        apply bind_inv in E2 as ([] & h4 & E5 & E2). apply bind_inv in E2 as (? & h5 & ->%alloc_assign_inv & E2).
        apply bind_inv in E2 as (p & h6 & E6 & [= <- <-]). split; [done|].
        pose proof (s_free_gone _ _ _ _ _ E5 Ep) as Hd. pose proof (kp_s_free _ _ _ _ _ E5) as [K5 _].
        pose proof (kp_s_alloc _ _ _ _ E6) as [K6 K6'].
        apply K4'; [lia|]. apply K3'; [lia|]. apply K6'; [lia|]. done.
      * injection E2 as <- <-. done.
Qed.
Lemma move_assign_buf strict h t o xs bs fpt fpo t' o' h' : srep h t xs fpt -> srep h o bs fpo ->
  length xs <> 16%nat -> length bs <> 16%nat -> str_move_assign strict t o h = Ok ((t', o'), h') ->
  (16 < nlen bs -> s_store t' = s_store o /\ s_ptr t' = s_ptr o) /\
  (16 < nlen xs -> forall a, s_ptr t = Some a -> hmap h' !! a = None).
Proof.
  intros Ht Ho Hx Hb E. unfold str_move_assign, LOCAL in E.
  rewrite (srep_len _ _ _ _ Ht), (srep_len _ _ _ _ Ho) in E.
  destruct (N.ltb_spec (nlen xs) 16), (N.ltb_spec (nlen bs) 16), (N.ltb_spec 16 (nlen bs)), (N.ltb_spec 16 (nlen xs)); try lia; cbn [andb] in E.
  - apply bind_inv in E as (? & h1 & _ & (c & h2 & [-> ->]%get_cap_inv & [= <- <- <-])%bind_inv). split; [done|intros; lia].
  - split; [intros; lia|]. intros _ a Ep. apply bind_inv in E as (c & h1 & [_ ->]%get_cap_inv & E).
    apply bind_inv in E as ([] & h2 & E2 & E). apply bind_inv in E as (? & h3 & ->%alloc_assign_inv & [= <- <- <-]). by eapply s_free_gone.
  - apply bind_inv in E as (c & h1 & [_ ->]%get_cap_inv & E).
    apply bind_inv in E as ([] & h2 & E2 & E). apply bind_inv in E as (? & h3 & ->%alloc_assign_inv & E).
    apply bind_inv in E as (c' & h3 & [-> ->]%get_cap_inv & [= <- <- <-]). split; [done|]. intros _ a Ep. by eapply s_free_gone.
Qed.
Lemma destroy_gone s h x h' a : 16 < s_len s -> str_destroy s h = Ok (x, h') -> s_ptr s = Some a -> hmap h' !! a = None.
Proof.
  intros Hl E Ep. unfold str_destroy, LOCAL in E. destruct (N.ltb_spec 16 (s_len s)); [|lia].
  apply bind_inv in E as (c & h1 & _ & E). destruct x. by eapply s_free_gone.
Qed.
Lemma pop_buf s h s' x h' : str_pop s h = Ok ((s', x), h') -> s_store s' = s_store s /\ s_ptr s' = s_ptr s.
Proof.
  unfold str_pop. destruct (s_len s =? 0); [by intros [= <- _ _]|].
  intros (bs & h1 & _ & E)%bind_inv. destruct bs as [|b [|]]; try done. by injection E as <- _ _.
Qed.

(** ** Where the buffers go *)
Section Track.
  Context (strict : bool).
  Notation step := (str_step strict).
  Definition caps_ok (sp : sstate) (c : gmap nat N) (vs : gmap nat str) : Prop := forall i xs s,
    sp !! i = Some xs -> 16 < nlen xs -> vs !! i = Some s -> s_store s = UCap (cap_of c i).
  Definition holds (sp : sstate) (vs : gmap nat str) (a : N) (i : nat) : Prop :=
    exists xs s, sp !! i = Some xs /\ 16 < nlen xs /\ vs !! i = Some s /\ s_ptr s = Some a.

  Lemma cap_put c i n k : cap_of (<[i := n]> c) k = if decide (i = k) then n else cap_of c k.
  Proof.
    unfold cap_of. destruct (decide (i = k)) as [->|Hne]; [by rewrite lookup_insert|by rewrite lookup_insert_ne].
  Qed.
  Lemma caps_put sp c vs i bs s n : caps_ok sp c vs -> (16 < nlen bs -> s_store s = UCap n) ->
    caps_ok (<[i := bs]> sp) (<[i := n]> c) (<[i := s]> vs).
  Proof.
    intros Hc Hs k xs t. rewrite cap_put. destruct (decide (i = k)) as [->|Hne].
    - rewrite !lookup_insert. intros [= <-] Hl [= <-]. auto.
    - rewrite !lookup_insert_ne by done. apply Hc.
  Qed.
  Lemma caps_same sp c vs i bs s : caps_ok sp c vs -> (16 < nlen bs -> s_store s = UCap (cap_of c i)) ->
    caps_ok (<[i := bs]> sp) c (<[i := s]> vs).
  Proof.
    intros Hc Hs k xs t. destruct (decide (i = k)) as [->|Hne].
    - rewrite !lookup_insert. intros [= <-] Hl [= <-]. auto.
    - rewrite !lookup_insert_ne by done. apply Hc.
  Qed.
  Lemma holds_ne sp vs a i j bs s : holds sp vs a j -> i <> j -> holds (<[i := bs]> sp) (<[i := s]> vs) a j.
  Proof. intros (xs & t & ?) Hne. exists xs, t. by rewrite !lookup_insert_ne. Qed.
  Lemma holds_at sp vs a i bs s : 16 < nlen bs -> s_ptr s = Some a -> holds (<[i := bs]> sp) (<[i := s]> vs) a i.
  Proof. intros Hl Hp. exists bs, s. by rewrite !lookup_insert. Qed.

  Record tracked (sp sp' : sstate) (c : gmap nat N) (w w' : world sblk str) (o : sop) : Prop := {
    tk_caps : caps_ok sp' (caps_after c sp o) (w_vars w');
    tk_keeps : keeps (w_heap w) (w_heap w');
    tk_buf : forall j a, holds sp (w_vars w) a j ->
      match follow c sp j o with
      | Some k => holds sp' (w_vars w') a k
      | None => hmap (w_heap w') !! a = None
      end;
  }.

  Lemma obs_inv {X} i (f : str -> M (heap sblk) X) g w x w' : (forall s, kp (f s)) ->
    s_obs i f g w = Ok (x, w') -> w_vars w' = w_vars w /\ keeps (w_heap w) (w_heap w').
  Proof.
    intros Hk (s & w1 & [_ ->]%wget_inv & E)%bind_inv. apply bind_inv in E as (y & w1 & E & [= _ <-]).
    apply lift_inv in E as (h' & E & ->). split; [done|]. by eapply Hk.
  Qed.
  Lemma mk_inv i f w x w' : s_mk i f w = Ok (x, w') ->
    exists s h', f (w_heap w) = Ok (s, h') /\ w' = World h' (<[i := s]> (w_vars w)).
  Proof.
    intros (? & w1 & ->%wnew_inv & E)%bind_inv. apply bind_inv in E as (s & w1 & E & E2).
    apply lift_inv in E as (h' & E & ->). injection E2 as _ <-. eauto.
  Qed.
  Lemma upd_inv i f w x w' : s_upd i f w = Ok (x, w') ->
    exists s s' h', w_vars w !! i = Some s /\ f s (w_heap w) = Ok (s', h') /\ w' = World h' (<[i := s']> (w_vars w)).
  Proof.
    intros (s & w1 & [Hi ->]%wget_inv & E)%bind_inv. apply bind_inv in E as (s' & w1 & E & E2).
    apply lift_inv in E as (h' & E & ->). injection E2 as _ <-. eauto 6.
  Qed.
  Lemma give_inv sp i bs sp' y : give sp i bs = SOk sp' y -> fits bs /\ sp' = <[i := bs]> sp.
  Proof. unfold give. destruct (decide (fits bs)); [|done]. by intros [= <- _]. Qed.
  Lemma look_inv sp i k sp' y : look sp i k = SOk sp' y -> exists bs, sp !! i = Some bs /\ k bs = SOk sp' y.
  Proof. unfold look. destruct (sp !! i); [eauto|done]. Qed.
  Lemma fresh_inv sp i k sp' y : fresh sp i k = SOk sp' y -> sp !! i = None /\ k = SOk sp' y.
  Proof. unfold fresh. by destruct (sp !! i). Qed.
  Lemma size_at sp i xs : sp !! i = Some xs -> size_of sp i = nlen xs.
  Proof. unfold size_of. by intros ->. Qed.

  (** [push_back] and [insert]. *)
  Lemma grow_tracked sp c w i xs n s s' h' bs' o : 
    caps_ok sp c (w_vars w) -> sp !! i = Some xs -> w_vars w !! i = Some s -> nlen xs <= n -> nlen bs' = n ->
    (exists fp, srep (w_heap w) s xs fp) ->
    keeps (w_heap w) h' -> grown (w_heap w) s (nlen xs) n s' h' ->
    caps_after c sp o = (if (16 <? nlen xs) && (n <=? cap_of c i) then c else <[i := half_more n]> c) ->
    (forall j, 16 < size_of sp j -> follow c sp j o = if (i =? j)%nat then (if n <=? cap_of c j then Some j else None) else Some j) ->
    tracked sp (<[i := bs']> sp) c w (World h' (<[i := s']> (w_vars w))) o.
  Proof.
    intros Hc Hi Hv Hle Hn [fp Hr] Hk [G1 G2] Eo Ef. split; cbn [w_vars w_heap]; [|done|].
    - rewrite Eo. destruct (N.ltb_spec 16 (nlen xs)) as [Hl|Hl]; cbn [andb].
      + destruct (srep_long _ _ _ _ Hr Hl) as (cc & a & -> & _).
        pose proof (Hc i xs _ Hi Hl Hv) as Es. injection Es as ->.
        specialize (G1 Hl _ a eq_refl eq_refl). destruct (n <=? cap_of c i); [apply caps_same|apply caps_put]; try done; intros _; apply G1.
      + apply caps_put; [done|]. intros Hl'. apply G2; [done|lia].
    - intros j a Ha. destruct Ha as (ys & t & Hy & Hl & Ht & Hp) eqn:Hha. clear Hha. rewrite Ef by (by rewrite (size_at _ _ _ Hy)).
      destruct (Nat.eqb_spec i j) as [->|Hne]; [|by apply holds_ne].
      rewrite Hi in Hy. injection Hy as <-. rewrite Hv in Ht. injection Ht as <-.
      pose proof (Hc j xs _ Hi Hl Hv) as Es. specialize (G1 Hl _ a Es Hp).
      destruct (n <=? cap_of c j); [|by apply G1]. destruct G1. apply holds_at; [lia|done].
  Qed.

  Lemma track sp c w o sp' y x w' : rel sp w -> caps_ok sp c (w_vars w) -> gspec strict sp o = SOk sp' y ->
    step o w = Ok (x, w') -> tracked sp sp' c w w' o.
  Proof.
    intros [m Hw] Hc. assert (Hwf : hwf (w_heap w)) by apply Hw.
    assert (Hrep : forall i s, w_vars w !! i = Some s -> exists bs fp, sp !! i = Some bs /\ srep (w_heap w) s bs fp).
    { intros i s Hi. destruct (world_ok_lookup _ _ _ _ _ _ Hw Hi) as (e & Hm & <- & Hsp).
      exists (e_s e), (e_fp e). split; [done|]. by eapply (wo_rep _ _ _ _ Hw). }
    assert (Hobs : forall o, keeps (w_heap w) (w_heap w') -> w_vars w' = w_vars w -> sp' = sp ->
      caps_after c sp o = c -> (forall j, follow c sp j o = Some j) -> tracked sp sp' c w w' o).
    { intros o' K Ev -> Ec Ef. split; [by rewrite Ec, Ev|done|]. intros j a. by rewrite Ef, Ev. }
    assert (Hnew : forall o i bs s h' n, sp !! i = None -> keeps (w_heap w) h' -> (16 < nlen bs -> s_store s = UCap n) ->
      caps_after c sp o = <[i := n]> c -> (forall j, follow c sp j o = Some j) ->
      tracked sp (<[i := bs]> sp) c w (World h' (<[i := s]> (w_vars w))) o).
    { intros o' i bs s h' n Hi K Hs Ec Ef. split; [|done|].
      - rewrite Ec. by apply caps_put.
      - intros j a Ha. rewrite Ef. apply holds_ne; [done|]. intros ->. destruct Ha as (? & ? & Hx & _). congruence. }
    unfold gspec. destruct (safe strict sp o) eqn:Hsafe; [|done].
    destruct o; simpl in Hsafe; cbn [sspec str_step]; intros Hg E.
    - (* SEmpty *)
      apply fresh_inv in Hg as [Hi Hg]. apply give_inv in Hg as [_ ->].
      apply mk_inv in E as (s & h' & [= <- <-] & ->).
      split; [|apply keeps_refl|].
      + cbn [caps_after w_vars]. apply caps_same; [done|]. simpl. lia.
      + intros j a Ha. cbn [follow w_vars]. apply holds_ne; [done|]. intros ->. destruct Ha as (? & ? & Hx & _). congruence.
    - (* SLit *)
      apply fresh_inv in Hg as [Hi Hg]. apply give_inv in Hg as [Hf ->].
      apply mk_inv in E as (s & h' & E & ->).
      eapply Hnew; [done|by eapply kp_literal| |done|done]. intros Hl. by eapply lit_cap.
    - (* SCopy *)
      apply fresh_inv in Hg as [Hi Hg]. apply look_inv in Hg as (bs & Hj & Hg). apply give_inv in Hg as [Hf ->].
      apply bind_inv in E as (o & w1 & [Ho ->]%wget_inv & E).
      apply mk_inv in E as (s & h' & E & ->).
      destruct (Hrep j o Ho) as (bs' & fp & Hb & R). rewrite Hj in Hb. injection Hb as <-.
      eapply Hnew; [done|by eapply kp_copy| |done|done]. intros Hl.
      erewrite copy_cap; [|by rewrite (srep_len _ _ _ _ R)|exact E]. by eapply Hc.
    - (* SMove *)
      apply fresh_inv in Hg as [Hi Hg]. apply look_inv in Hg as (bs & Hj & Hg). apply give_inv in Hg as [Hf ->].
      apply bind_inv in E as (? & w1 & ->%wnew_inv & E). apply bind_inv in E as (o & w1 & [Ho ->]%wget_inv & E).
      apply bind_inv in E as ([s o'] & w1 & E1 & E). apply lift_inv in E1 as (h' & E1 & ->).
      injection E as _ <-. pose proof (kp_move _ _ _ _ _ E1) as Hk.
      apply bind_inv in E1 as (? & h1 & _ & [= <- <- <-]).
      assert (i <> j) as Hij by congruence.
      split; cbn [w_vars w_heap]; [|done|].
      + cbn [caps_after]. apply caps_put; [apply caps_same; [done|simpl; lia]|]. intros Hl. cbn [s_store]. by eapply Hc.
      + intros k a Ha. cbn [follow]. destruct (Nat.eqb_spec j k) as [->|Hne].
        * destruct Ha as (ys & t & Hy & Hl & Ht & Hp). rewrite Hj in Hy. injection Hy as <-. rewrite Ho in Ht. injection Ht as <-.
          by apply holds_at.
        * apply holds_ne; [by apply holds_ne|]. intros ->. destruct Ha as (? & ? & Hx & _). congruence.
    - (* SCopyAsg *)
      apply look_inv in Hg as (xs & Hi & Hg). apply look_inv in Hg as (bs & Hj & Hg). apply give_inv in Hg as [Hf ->].
      apply bind_inv in E as (t & w1 & [Ht ->]%wget_inv & E). apply bind_inv in E as (o & w1 & [Ho ->]%wget_inv & E).
      destruct (Nat.eqb_spec i j) as [->|Hij].
      { injection E as _ <-. apply Hobs; [apply keeps_refl|done|by rewrite insert_id|simpl; by rewrite Nat.eqb_refl|].
        intros k. simpl. by destruct (Nat.eqb_spec j k). }
      apply bind_inv in E as (t' & w1 & E1 & E). apply lift_inv in E1 as (h' & E1 & ->). injection E as _ <-.
      destruct (Hrep i t Ht) as (xs' & fpt & Hxs & Rt), (Hrep j o Ho) as (bs' & fpo & Hbs & Ro).
      rewrite Hi in Hxs. injection Hxs as <-. rewrite Hj in Hbs. injection Hbs as <-.
      simpl in Hsafe. unfold covers, is16 in Hsafe. rewrite Hi, Hj in Hsafe.
      assert (length xs <> 16%nat /\ length bs <> 16%nat) as [H1 H2].
      { apply orb_true_iff in Hsafe as [Hsafe|Hsafe]; apply andb_true_iff in Hsafe as [H1 H2].
        - apply andb_true_iff in H1 as [H0 H1]. apply negb_true_iff, Nat.eqb_neq in H1, H2. done.
        - apply Nat.ltb_lt in H1. apply Nat.leb_le in H2. lia. }
      destruct (copy_assign_buf strict _ t o xs bs _ _ t' h' Hwf Rt Ro H1 H2 E1) as [B1 B2].
      split; cbn [w_vars w_heap]; [|by eapply kp_copy_assign|].
      + cbn [caps_after]. rewrite (proj2 (Nat.eqb_neq i j) Hij), (size_at _ _ _ Hi), (size_at _ _ _ Hj).
        destruct (N.ltb_spec 16 (nlen bs)) as [Hb|Hb].
        * destruct (N.ltb_spec 16 (nlen xs)) as [Hx|Hx].
          -- destruct (srep_long _ _ _ _ Rt Hx) as (cc & a & -> & _).
             pose proof (Hc i xs _ Hi Hx Ht) as Es. injection Es as ->.
             specialize (B2 Hx _ a eq_refl eq_refl). cbn [andb] in B2.
             destruct (nlen bs <=? cap_of c i); [apply caps_same|apply caps_put]; try done; [intros _|]; apply B2.
          -- apply caps_put; [done|]. intros _. rewrite B1 by done. by eapply Hc.
        * apply caps_same; [done|]. lia.
      + intros k a Ha. cbn [follow]. destruct (Nat.eqb_spec i k) as [->|Hne]; cbn [andb]; [|by apply holds_ne].
        destruct (Nat.eqb_spec j k); [congruence|]. cbn [negb andb]. rewrite (size_at _ _ _ Hj).
        destruct Ha as (ys & t2 & Hy & Hl & Ht2 & Hp). rewrite Hi in Hy. injection Hy as <-. rewrite Ht in Ht2. injection Ht2 as <-.
        pose proof (Hc k xs _ Hi Hl Ht) as Es. specialize (B2 Hl _ a Es Hp).
        destruct (N.ltb_spec 16 (nlen bs)); cbn [andb] in *; [|by apply B2].
        destruct (nlen bs <=? cap_of c k); [|by apply B2]. destruct B2. by apply holds_at.
    - (* SMoveAsg *)
      apply look_inv in Hg as (xs & Hi & Hg). apply look_inv in Hg as (bs & Hj & Hg).
      apply bind_inv in E as (t & w1 & [Ht ->]%wget_inv & E). apply bind_inv in E as (o & w1 & [Ho ->]%wget_inv & E).
      destruct (Nat.eqb_spec i j) as [->|Hij].
      { destruct (decide (j = j)); [|done]. injection Hg as <- _. injection E as _ <-.
        apply Hobs; [apply keeps_refl|done|done|simpl; by rewrite Nat.eqb_refl|].
        intros k. simpl. by rewrite Nat.eqb_refl. }
      destruct (decide (i = j)); [done|]. apply give_inv in Hg as [Hf ->].
      apply bind_inv in E as ([t' o'] & w1 & E1 & E). apply lift_inv in E1 as (h' & E1 & ->). injection E as _ <-.
      destruct (Hrep i t Ht) as (xs' & fpt & Hxs & Rt), (Hrep j o Ho) as (bs' & fpo & Hbs & Ro).
      rewrite Hi in Hxs. injection Hxs as <-. rewrite Hj in Hbs. injection Hbs as <-.
      simpl in Hsafe. unfold is16 in Hsafe. rewrite Hi, Hj in Hsafe. apply andb_true_iff in Hsafe as [H1 H2].
      apply andb_true_iff in H1 as [H0 H1]. apply negb_true_iff, Nat.eqb_neq in H1, H2.
      destruct (move_assign_buf strict _ t o xs bs _ _ t' o' h' Rt Ro H1 H2 E1) as [B1 B2].
      split; cbn [w_vars w_heap]; [|by eapply kp_move_assign|].
      + cbn [caps_after]. rewrite (proj2 (Nat.eqb_neq i j) Hij).
        apply caps_put; [apply caps_same; [done|simpl; lia]|]. intros Hl. destruct (B1 Hl) as [-> _]. by eapply Hc.
      + intros k a Ha. cbn [follow]. rewrite (proj2 (Nat.eqb_neq i j) Hij). destruct (Nat.eqb_spec j k) as [->|Hne].
        * destruct Ha as (ys & t2 & Hy & Hl & Ht2 & Hp). rewrite Hj in Hy. injection Hy as <-. rewrite Ho in Ht2. injection Ht2 as <-.
          apply holds_at; [done|]. destruct (B1 Hl) as [_ ->]. done.
        * destruct (Nat.eqb_spec i k) as [->|Hne2]; [|apply holds_ne; [by apply holds_ne|done]].
          destruct Ha as (ys & t2 & Hy & Hl & Ht2 & Hp). rewrite Hi in Hy. injection Hy as <-. rewrite Ht in Ht2. injection Ht2 as <-.
          by apply B2.
    - (* SPush *)
      apply look_inv in Hg as (xs & Hi & Hg). apply give_inv in Hg as [Hf ->].
      apply upd_inv in E as (s & s' & h' & Hv & E & ->).
      destruct (Hrep i s Hv) as (xs' & fp & Hxs & R). rewrite Hi in Hxs. injection Hxs as <-.
      eapply (grow_tracked sp c w i xs (nlen xs + nlen ch)); eauto.
      + lia.
      + rewrite app_length. lia.
      + by eapply kp_push.
      + by eapply push_grown.
      + cbn [caps_after]. by rewrite (size_at _ _ _ Hi).
      + intros j Hl. cbn [follow]. destruct (Nat.eqb_spec i j) as [->|]; [|done]. by rewrite (size_at _ _ _ Hi).
    - (* SInsert *)
      apply look_inv in Hg as (xs & Hi & Hg). destruct (cut_ok xs idx); [|done]. apply give_inv in Hg as [Hf ->].
      apply upd_inv in E as (s & s' & h' & Hv & E & ->).
      destruct (Hrep i s Hv) as (xs' & fp & Hxs & R). rewrite Hi in Hxs. injection Hxs as <-.
      eapply (grow_tracked sp c w i xs (nlen xs + nlen ch)); eauto.
      + lia.
      + rewrite !app_length, take_length, drop_length. lia.
      + by eapply kp_insert.
      + eapply insert_grown; [done|done| |exact E]. eapply fits_le; [exact Hf|]. apply ins_len.
      + cbn [caps_after]. by rewrite (size_at _ _ _ Hi).
      + intros j Hl. cbn [follow]. destruct (Nat.eqb_spec i j) as [->|]; [|done]. by rewrite (size_at _ _ _ Hi).
    - (* SPop *)
      apply look_inv in Hg as (xs & Hi & Hg).
      apply bind_inv in E as (s & w1 & [Hv ->]%wget_inv & E).
      apply bind_inv in E as ([s' z] & w1 & E1 & E). apply lift_inv in E1 as (h' & E1 & ->). injection E as _ <-.
      pose proof (kp_pop _ _ _ _ E1) as Hk. destruct (pop_buf _ _ _ _ _ E1) as [Es Ep].
      assert (exists xs', sp' = <[i := xs']> sp /\ (16 < nlen xs <-> 16 < nlen xs')) as (xs' & -> & Hl).
      { rewrite Hi in Hsafe. apply negb_true_iff, Nat.eqb_neq in Hsafe. destruct (last xs) eqn:El.
        - injection Hg as <- _. eexists. split; [done|]. rewrite take_length. lia.
        - injection Hg as <- _. exists xs. split; [by rewrite insert_id|done]. }
      split; cbn [w_vars w_heap]; [|done|].
      + cbn [caps_after]. apply caps_same; [done|]. intros Hl'. rewrite Es. by eapply Hc; [| apply Hl |].
      + intros j a Ha. cbn [follow]. destruct (decide (i = j)) as [->|Hne]; [|by apply holds_ne].
        destruct Ha as (ys & t2 & Hy & Hly & Ht2 & Hp). rewrite Hi in Hy. injection Hy as <-. rewrite Hv in Ht2. injection Ht2 as <-.
        apply holds_at; [by apply Hl|by rewrite Ep].
    - apply look_inv in Hg as (xs & Hi & [= <- _]). apply obs_inv in E as [Ev K]; [|intros; apply kp_ret]. by apply Hobs.
    - apply look_inv in Hg as (xs & Hi & [= <- _]). apply obs_inv in E as [Ev K]; [|apply kp_print]. by apply Hobs.
    - apply look_inv in Hg as (xs & Hi & [= <- _]). apply obs_inv in E as [Ev K]; [|apply kp_bytes]. by apply Hobs.
    - apply look_inv in Hg as (xs & Hi & [= <- _]). apply obs_inv in E as [Ev K]; [|intros; apply kp_boundary]. by apply Hobs.
    - (* SDel *)
      apply look_inv in Hg as (xs & Hi & [= <- _]).
      apply bind_inv in E as (s & w1 & [Hv ->]%wget_inv & E). apply bind_inv in E as (? & w1 & E1 & E).
      apply lift_inv in E1 as (h' & E1 & ->). injection E as _ <-.
      destruct (Hrep i s Hv) as (xs' & fp & Hxs & R). rewrite Hi in Hxs. injection Hxs as <-.
      split; cbn [w_vars w_heap]; [|by eapply kp_destroy|].
      + cbn [caps_after]. intros k ys t. rewrite !lookup_delete_Some. intros [_ Hy] Hl [_ Ht]. by eapply Hc.
      + intros k a (ys & t & Hy & Hl & Ht & Hp). cbn [follow]. destruct (Nat.eqb_spec i k) as [->|Hne].
        * rewrite Hi in Hy. injection Hy as <-. rewrite Hv in Ht. injection Ht as <-.
          eapply destroy_gone; [|exact E1|done]. by rewrite (srep_len _ _ _ _ R).
        * exists ys, t. by rewrite !lookup_delete_ne.
  Qed.
End Track.

(** ** Iterators *)
Section Refine.
  Context (strict utf : bool).
  Definition at_home (sp : sstate) (w : world sblk str) (h : home) (p : cloc) : Prop :=
    match h, p with
    | HObject i, CInline j => i = j /\ is_Some (sp !! i)
    | HBuffer i, CHeap (Some a) => holds sp (w_vars w) a i
    | HNone, CGone => True
    | HNone, CHeap (Some a) => hmap (w_heap w) !! a = None /\ a < hnext (w_heap w)
    | _, _ => False
    end.
  Definition it_ok (sp : sstate) (w : world sblk str) (k : option kept) (it : option citer) : Prop :=
    match k, it with
    | Some (Kept h a e), Some (CIter p a' e') => a' = a /\ e' = e /\ at_home sp w h p
    | None, None => True
    | _, _ => False
    end.
  Definition krel (s : kstate) (st : cst) : Prop :=
    rel (k_sp s) (c_w st) /\ caps_ok (k_sp s) (k_caps s) (w_vars (c_w st)) /\
    forall t, it_ok (k_sp s) (c_w st) (k_it s !! t) (c_it st !! t).

  Lemma rel_rep sp w i xs : rel sp w -> sp !! i = Some xs ->
    exists s fp, w_vars w !! i = Some s /\ srep (w_heap w) s xs fp.
  Proof.
    intros [m Hw] Hi. destruct (world_ok_lookup_spec _ _ _ _ _ _ Hw Hi) as (e & _ & <- & Hv & Hr). eauto.
  Qed.
  Lemma cell_at_S (xs : list N) r k b : xs !! k = Some b -> cell_at (S_ xs ++ r) (N.of_nat k) = Ok b.
  Proof.
    intros H. unfold cell_at. rewrite Nat2N.id, lookup_app_l by (rewrite fmap_length; by eapply lookup_lt_Some).
    by rewrite list_lookup_fmap, H.
  Qed.
  Lemma byte_ok sp w h p xs k b : rel sp w -> at_home sp w h p -> seen sp h = Some xs -> xs !! k = Some b ->
    byte_at w p (N.of_nat k) = Ok b.
  Proof.
    intros Hw Hh Hs Hb. destruct h as [i|i|]; [| |done].
    - destruct p as [j| |]; [|done|done]. destruct Hh as [<- _]. simpl in Hs. destruct (sp !! i) as [ys|] eqn:Hi; [|done].
      simpl in Hs. destruct (N.leb_spec (nlen ys) 16); [|done]. injection Hs as ->.
      destruct (rel_rep _ _ _ _ Hw Hi) as (s & fp & Hv & Hr). simpl. rewrite Hv.
      inversion Hr as [bs u p r Hf Hle Hu Hl Hne|]; subst; [|lia]. cbn [s_store].
      rewrite Hne by (by intros ->). rewrite Hu. by apply cell_at_S.
    - destruct p as [|[a|]|]; [done| |done|done]. simpl in Hs. destruct Hh as (ys & s & Hi & Hl & Hv & Hp).
      rewrite Hs in Hi. injection Hi as <-. destruct (rel_rep _ _ _ _ Hw Hs) as (s' & fp & Hv' & Hr). rewrite Hv in Hv'. injection Hv' as <-.
      inversion Hr as [|bs a' r Hf Hgt Hc Ha]; subst; [lia|]. injection Hp as ->. simpl. rewrite Ha. cbn [sb_data]. by apply cell_at_S.
  Qed.
  Lemma slice_next_ok sp w h p xs a e b bs : rel sp w -> at_home sp w h p -> seen sp h = Some xs ->
    drop (N.to_nat a) (take (N.to_nat e) xs) = b :: bs ->
    slice_next w (CIter p a e) = Ok (Some b, CIter p (a + 1) e) /\
    drop (N.to_nat (a + 1)) (take (N.to_nat e) xs) = bs.
  Proof.
    intros Hw Hh Hs Hd. assert (Hb : take (N.to_nat e) xs !! N.to_nat a = Some b).
    { rewrite <-(Nat.add_0_r (N.to_nat a)), <-lookup_drop, Hd. done. }
    pose proof (lookup_lt_Some _ _ _ Hb) as Hlt. rewrite take_length in Hlt. split.
    - unfold slice_next. cbn [ci_loc ci_start ci_end]. destruct (N.leb_spec e a); [lia|].
      rewrite <-(N2Nat.id a). rewrite (byte_ok sp w h p xs _ b); try done. by rewrite lookup_take in Hb by lia.
    - replace (N.to_nat (a + 1)) with (N.to_nat a + 1)%nat by lia. rewrite <-drop_drop, Hd. done.
  Qed.
  Lemma slice_must_ok sp w h p xs a e b bs : rel sp w -> at_home sp w h p -> seen sp h = Some xs ->
    drop (N.to_nat a) (take (N.to_nat e) xs) = b :: bs ->
    slice_must w (CIter p a e) = Ok (b, CIter p (a + 1) e) /\
    drop (N.to_nat (a + 1)) (take (N.to_nat e) xs) = bs.
  Proof.
    intros Hw Hh Hs Hd. destruct (slice_next_ok _ _ _ _ _ _ _ _ _ Hw Hh Hs Hd) as [E Hd']. split; [|done].
    unfold slice_must. by rewrite (bind_ok _ _ _ _ _ E).
  Qed.
  Lemma next_ok sp w h p xs a e b bs n : rel sp w -> at_home sp w h p -> seen sp h = Some xs ->
    drop (N.to_nat a) (take (N.to_nat e) xs) = b :: bs -> char_len utf b = Some n -> (n <= length (b :: bs))%nat ->
    chars_next utf w (CIter p a e) = Ok (Some (take n (b :: bs)), CIter p (a + N.of_nat n) e).
  Proof.
    intros Hw Hh Hs Hd Hn Hle. destruct (slice_next_ok _ _ _ _ _ _ _ _ _ Hw Hh Hs Hd) as [E Hd1].
    unfold chars_next. rewrite (bind_ok _ _ _ _ _ E). unfold char_len in Hn. destruct utf; cbn [negb].
    2:{ by injection Hn as <-. }
    destruct (N.leb_spec b 0x7E). { injection Hn as <-. by destruct (N.ltb_spec b 0x7F); [|lia]. }
    destruct (N.ltb_spec b 0x7F); [lia|].
    assert (2 <= n)%nat as Hn2.
    { destruct (_ && _); [injection Hn as <-; lia|]. destruct (_ && _); [injection Hn as <-; lia|].
      destruct (_ && _); [injection Hn as <-; lia|done]. }
    destruct bs as [|y bs]; [simpl in Hle; lia|].
    destruct (slice_must_ok _ _ _ _ _ _ _ _ _ Hw Hh Hs Hd1) as [E2 Hd2]. rewrite (bind_ok _ _ _ _ _ E2).
    destruct (N.leb_spec 0xC2 b), (N.leb_spec b 0xDF), (N.leb_spec 0xE0 b), (N.leb_spec b 0xEF), (N.leb_spec 0xF0 b), (N.leb_spec b 0xF4);
      try lia; cbn [andb] in Hn; try done; injection Hn as <-.
    - destruct (N.ltb_spec b 0xE0); [|lia]. unfold ret. cbn [take]. by replace (a + 1 + 1) with (a + N.of_nat 2) by lia.
    - destruct (N.ltb_spec b 0xE0); [lia|]. destruct bs as [|z bs]; [simpl in Hle; lia|].
      destruct (slice_must_ok _ _ _ _ _ _ _ _ _ Hw Hh Hs Hd2) as [E3 Hd3]. rewrite (bind_ok _ _ _ _ _ E3).
      destruct (N.ltb_spec b 0xF0); [|lia]. unfold ret. cbn [take]. by replace (a + 1 + 1 + 1) with (a + N.of_nat 3) by lia.
    - destruct (N.ltb_spec b 0xE0); [lia|]. destruct bs as [|z bs]; [simpl in Hle; lia|].
      destruct (slice_must_ok _ _ _ _ _ _ _ _ _ Hw Hh Hs Hd2) as [E3 Hd3]. rewrite (bind_ok _ _ _ _ _ E3).
      destruct (N.ltb_spec b 0xF0); [lia|]. destruct bs as [|v bs]; [simpl in Hle; lia|].
      destruct (slice_must_ok _ _ _ _ _ _ _ _ _ Hw Hh Hs Hd3) as [E4 Hd4]. rewrite (bind_ok _ _ _ _ _ E4).
      unfold ret. cbn [take]. by replace (a + 1 + 1 + 1 + 1) with (a + N.of_nat 4) by lia.
  Qed.

  (** An operation on the strings takes the iterators along. *)
  Lemma home_step sp sp' c w w' o h p y : rel sp w -> gspec strict sp o = SOk sp' y -> tracked sp sp' c w w' o ->
    at_home sp w h p ->
    at_home sp' w' (home_after c sp o h) (ci_loc (end_inline o (CIter p 0 0))).
  Proof.
    intros Hw Hg [Tc [K1 K2] Tb] Hh.
    assert (Hend : forall i e, p = CHeap i -> ci_loc (end_inline o (CIter p e e)) = p) by (intros i e ->; by destruct o).
    destruct h as [i|i|].
    - destruct p as [j|?|]; [|done|done]. destruct Hh as [<- Hi].
      assert (Hal : (forall k, o <> SDel k \/ k <> i) -> is_Some (sp' !! i)).
      { intros Hno. unfold gspec in Hg. destruct (safe strict sp o); [|done].
        assert (Hins : forall k (bs : list N), is_Some (<[k := bs]> sp !! i)) by (intros k bs; rewrite lookup_insert_is_Some; destruct (decide (k = i)); [by left|by right]).
        assert (Hins2 : forall k l (bs cs : list N), is_Some (<[k := bs]> (<[l := cs]> sp) !! i)).
        { intros k l bs cs. rewrite lookup_insert_is_Some. destruct (decide (k = i)); [by left|by right]. }
        destruct o; cbn [sspec] in Hg; repeat first [apply fresh_inv in Hg as [? Hg] | apply look_inv in Hg as (? & ? & Hg)];
          try (apply give_inv in Hg as [_ ->]; auto); try (by injection Hg as <- _).
        - destruct (decide _); [by injection Hg as <- _|]. apply give_inv in Hg as [_ ->]. auto.
        - destruct (cut_ok _ _); [|done]. apply give_inv in Hg as [_ ->]. auto.
        - destruct (last _); injection Hg as <- _; auto.
        - injection Hg as <- _. destruct (Hno i0) as [?|?]; [done|]. by rewrite lookup_delete_ne. }
      cbn [home_after]. destruct o; cbn [end_inline ci_loc]; try (split; [done|apply Hal; by left]).
      destruct (Nat.eqb_spec i0 i) as [->|Hne]; [done|]. split; [done|]. apply Hal. intros k.
      destruct (decide (k = i)) as [->|]; [left; by intros [= ?]|by right].
    - destruct p as [|[a|]|]; [done| |done|done]. rewrite (Hend _ _ eq_refl). cbn [home_after].
      specialize (Tb i a Hh). destruct (follow c sp i o); [done|]. cbn [at_home]. split; [done|].
      destruct Hh as (xs & s & Hi & Hl & Hv & Hp). destruct (rel_rep _ _ _ _ Hw Hi) as (s' & fp & Hv' & Hr). rewrite Hv in Hv'. injection Hv' as <-.
      destruct (srep_long _ _ _ _ Hr Hl) as (cc & a' & -> & -> & _ & Hin). injection Hp as ->.
      eapply N.lt_le_trans; [|exact K1]. destruct Hw as [m Hw]. apply (wo_wf _ _ _ _ Hw). eapply srep_dom; [exact Hr|done].
    - destruct p as [|[a|]|]; [done| |done|].
      + rewrite (Hend _ _ eq_refl). destruct Hh. cbn [home_after at_home]. split; [by apply K2|lia].
      + by destruct o.
  Qed.

  Lemma cstep_refines s st o : krel s st -> agrees krel (cstep strict utf o st) (kspec strict utf s o).
  Proof.
    destruct s as [sp c ts]. intros (Hw & Hc & Hit). cbn [k_sp k_caps k_it] in *. destruct o as [o|t i|t u|t]; cbn [kspec cstep].
    - pose proof (str_step_refines strict sp (c_w st) o Hw) as Hs. destruct (gspec strict sp o) as [sp' y| |] eqn:Eg; [|by rewrite Hs|done].
      destruct Hs as (w' & E & Hw'). rewrite E. eexists. split; [done|].
      pose proof (track strict _ _ _ _ _ _ _ _ Hw Hc Eg E) as T. split; [done|]. split; [apply T|].
      intros t. cbn [k_it c_it k_sp c_w]. rewrite !lookup_fmap. specialize (Hit t).
      destruct (ts !! t) as [[h a e]|], (c_it st !! t) as [[p a' e']|]; try done. cbn [fmap option_fmap option_map].
      destruct Hit as (-> & -> & Hh). pose proof (home_step _ _ _ _ _ _ _ _ _ Hw Eg T Hh) as Hh'.
      cbn [k_home k_start k_end it_ok]. revert Hh'.
      destruct p as [q| |], o; cbn [end_inline ci_loc ci_start ci_end]; try done. by destruct (Nat.eqb_spec i q).
    - destruct (sp !! i) as [xs|] eqn:Hi; [|done]. destruct (rel_rep _ _ _ _ Hw Hi) as (s & fp & Hv & Hr). rewrite Hv.
      eexists. split; [done|]. split; [done|]. split; [done|]. intros t'. cbn [k_it c_it k_sp c_w].
      destruct (decide (t = t')) as [->|Hne]; [|rewrite !lookup_insert_ne by done; apply Hit].
      rewrite !lookup_insert. unfold chars, LOCAL. rewrite (srep_len _ _ _ _ Hr).
      destruct (N.ltb_spec 16 (nlen xs)), (N.leb_spec (nlen xs) 16); try lia; split_and!; try done.
      destruct (srep_long _ _ _ _ Hr ltac:(done)) as (cc & a & -> & _). cbn. eexists _, _. split_and!; done.
    - specialize (Hit u) as Hu. destruct (ts !! u) as [k|] eqn:Ek, (c_it st !! u) as [it|] eqn:Ei; try done; [|by destruct k].
      eexists. split; [done|]. split; [done|]. split; [done|]. intros t'. cbn [k_it c_it k_sp c_w].
      destruct (decide (t = t')) as [->|Hne]; [by rewrite !lookup_insert|rewrite !lookup_insert_ne by done; apply Hit].
    - specialize (Hit t) as Ht. destruct (ts !! t) as [[h a e]|] eqn:Ek; [|done].
      destruct (c_it st !! t) as [[p a' e']|] eqn:Ei; [|done]. destruct Ht as (-> & -> & Hh).
      destruct (N.leb_spec e a) as [Hea|Hea].
      { unfold chars_next, slice_next, bind at 1. cbn [ci_start ci_end]. destruct (N.leb_spec e a); [|lia]. unfold ret.
        eexists. split; [done|]. split; [done|]. split; [done|]. cbn [k_it c_it k_sp c_w]. intros t'.
        destruct (decide (t = t')) as [<-|Hne]; [|rewrite !lookup_insert_ne by done; apply Hit].
        by rewrite lookup_insert, Ek. }
      destruct (seen sp h) as [xs|] eqn:Es; [|done].
      destruct (drop (N.to_nat a) (take (N.to_nat e) xs)) as [|b bs] eqn:Ed; [done|].
      destruct (char_len utf b) as [n|] eqn:En; [|done]. destruct (Nat.leb_spec n (length (b :: bs))) as [Hn|Hn]; [|done].
      rewrite (next_ok _ _ _ _ _ _ _ _ _ _ Hw Hh Es Ed En Hn).
      eexists. split; [done|]. split; [done|]. split; [done|]. cbn [k_it c_it k_sp c_w]. intros t'.
      destruct (decide (t = t')) as [<-|Hne]; [by rewrite !lookup_insert|rewrite !lookup_insert_ne by done; apply Hit].
  Qed.
  Lemma krel_init : krel kinit cinit.
  Proof. split; [apply world_ok_init|]. split; [by intros i xs s H|]. intros t. cbn [kinit cinit k_it c_it]. by rewrite !lookup_empty. Qed.
End Refine.

(** ** C78 *)
(** Every history: the characters each kept iterator gives are those of the
    bytes the string has now where the iterator points to. *)
Theorem C78_histories strict utf ops :
  match srun (kspec strict utf) kinit ops with
  | SOk s outs => exists st, run_ops (cstep strict utf) ops cinit = Ok (outs, st)
  | SPanic => run_ops (cstep strict utf) ops cinit = Err Panic
  | SPre => True
  end.
Proof.
  pose proof (srun_refines (kspec strict utf) (cstep strict utf) krel (fun s st o => cstep_refines strict utf s st o) ops _ _ krel_init) as H.
  unfold agrees in H. destruct (srun _ _ _); [|done|done]. destruct H as (st & H & _). eauto.
Qed.
Lemma C78_reached strict utf ops s outs : srun (kspec strict utf) kinit ops = SOk s outs ->
  exists st, run_ops (cstep strict utf) ops cinit = Ok (outs, st) /\ krel s st.
Proof.
  intros E. pose proof (srun_refines (kspec strict utf) (cstep strict utf) krel (fun s st o => cstep_refines strict utf s st o) ops _ _ krel_init) as H.
  rewrite E in H. exact H.
Qed.
Lemma next_bad utf w p a e : a < e -> byte_at w p a = Err UB -> chars_next utf w (CIter p a e) = Err UB.
Proof.
  intros Hlt Hb. unfold chars_next, slice_next, bind at 1. cbn [ci_start ci_end ci_loc].
  destruct (N.leb_spec e a); [lia|]. by rewrite Hb.
Qed.
(** An iterator with something left whose storage is gone, or was inside a
    string that has since moved to a buffer, must not be advanced. *)
Theorem C78_dangling strict utf ops s outs t k :
  srun (kspec strict utf) kinit ops = SOk s outs -> k_it s !! t = Some k -> k_start k < k_end k ->
  (k_home k = HNone \/ exists i xs, k_home k = HObject i /\ k_sp s !! i = Some xs /\ 16 < nlen xs) ->
  exists st, run_ops (cstep strict utf) ops cinit = Ok (outs, st) /\ cstep strict utf (CNext t) st = Err UB.
Proof.
  intros E Hk Hlt Hh. destruct (C78_reached _ _ _ _ _ E) as (st & R & (Hw & Hc & Hit)). exists st. split; [done|].
  cbn [cstep]. specialize (Hit t). rewrite Hk in Hit. destruct k as [h a e]. cbn [k_home k_start k_end] in *.
  destruct (c_it st !! t) as [[p a' e']|]; [|done]. destruct Hit as (-> & -> & Ha).
  rewrite next_bad; [done|done|]. destruct Hh as [->|(i & xs & -> & Hi & Hl)].
  - destruct p as [|[b|]|]; try done. simpl. by destruct Ha as [-> _].
  - destruct p as [j| |]; try done. destruct Ha as [<- _]. destruct (rel_rep _ _ _ _ Hw Hi) as (v & fp & Hv & Hr).
    simpl. rewrite Hv. by rewrite (Hc i xs v Hi Hl Hv).
Qed.
Lemma run_snoc {S O X} (f : O -> M S X) l o : forall s outs s', run_ops f (l ++ [o]) s = Ok (outs, s') ->
  exists o1 s1 x, run_ops f l s = Ok (o1, s1) /\ f o s1 = Ok (x, s').
Proof.
  induction l as [|q l IH]; intros s outs s'; cbn [run_ops app].
  - intros (x & s1 & E1 & (ys & s2 & [= <- <-] & [= _ <-])%bind_inv)%bind_inv. by eexists _, _, _.
  - intros (x & s1 & E1 & (ys & s2 & E2 & [= _ <-])%bind_inv)%bind_inv.
    destruct (IH _ _ _ E2) as (o1 & s3 & y & E3 & E4). exists (x :: o1), s3, y. split; [|done].
    rewrite (bind_ok _ _ _ _ _ E1). by rewrite (bind_ok _ _ _ _ _ E3).
Qed.
(** Moving a string into a new one: the iterators into a buffer go on with the
    new string; those into the object of a short string must not be advanced. *)
Theorem C78_moved utf ops s outs i j t k :
  srun (kspec false utf) kinit (ops ++ [CStr (SMove i j)]) = SOk s outs ->
  k_it s !! t = Some k -> k_home k = HObject j -> k_start k < k_end k ->
  exists st, run_ops (cstep false utf) (ops ++ [CStr (SMove i j)]) cinit = Ok (outs, st) /\ cstep false utf (CNext t) st = Err UB.
Proof.
  intros E Hk Hh Hlt. destruct (C78_reached _ _ _ _ _ E) as (st & R & (Hw & Hc & Hit)). exists st. split; [done|].
  cbn [cstep]. specialize (Hit t). rewrite Hk in Hit. destruct k as [h a e]. cbn [k_home k_start k_end] in *. subst h.
  destruct (c_it st !! t) as [[p a' e']|]; [|done]. destruct Hit as (-> & -> & Ha).
  rewrite next_bad; [done|done|]. destruct p as [j'| |]; try done. destruct Ha as [<- _].
  apply run_snoc in R as (o1 & st1 & y & R1 & R2).
  cbn [cstep] in R2. destruct (str_step false (SMove i j) (c_w st1)) as [[y' w']|] eqn:Es; [|done]. injection R2 as _ <-.
  cbn [c_w byte_at]. cbn [str_step] in Es.
  apply bind_inv in Es as (? & w1 & Hn & Es). unfold wnew in Hn. destruct (w_vars (c_w st1) !! i) eqn:Hvi; [done|]. injection Hn as _ <-.
  apply bind_inv in Es as (o & w1 & [Ho ->]%wget_inv & Es).
  apply bind_inv in Es as ([s' o'] & w1 & E1 & Es). apply lift_inv in E1 as (h' & E1 & ->).
  injection Es as _ <-. apply bind_inv in E1 as (? & h1 & _ & [= <- <- <-]). cbn [w_vars].
  rewrite lookup_insert_ne by congruence. by rewrite lookup_insert.
Qed.
(** When the missing return counts, C43 leaves copies of a longer string over
    one of more than 16 bytes to the capacity; it is decided by [k_caps]. *)
Theorem C78_copy_by_capacity utf ops s outs i j xs bs :
  srun (kspec true utf) kinit ops = SOk s outs -> i <> j ->
  k_sp s !! i = Some xs -> k_sp s !! j = Some bs -> 16 < nlen xs -> nlen xs < nlen bs ->
  exists st, run_ops (cstep true utf) ops cinit = Ok (outs, st) /\
    if nlen bs <=? cap_of (k_caps s) i
    then exists st', cstep true utf (CStr (SCopyAsg i j)) st = Ok (YStr YUnit, st') /\ rel (<[i := bs]> (k_sp s)) (c_w st')
    else cstep true utf (CStr (SCopyAsg i j)) st = Err UB.
Proof.
  intros E Hij Hi Hj Hl Hlb. destruct (C78_reached _ _ _ _ _ E) as (st & R & (Hw & Hc & _)). exists st. split; [done|].
  destruct (rel_rep _ _ _ _ Hw Hi) as (ti & fpi & Hvi & Hri), (rel_rep _ _ _ _ Hw Hj) as (tj & fpj & Hvj & Hrj).
  pose proof (Hc i xs ti Hi Hl Hvi) as Ecap.
  assert (Est : cstep true utf (CStr (SCopyAsg i j)) st =
    match str_copy_assign true ti tj (w_heap (c_w st)) with
    | Ok (t', h') => Ok (YStr YUnit, CSt (World h' (<[i := t']> (w_vars (c_w st)))) (end_inline (SCopyAsg i j) <$> c_it st))
    | Err e => Err e end).
  { cbn [cstep str_step]. unfold bind at 1, wget at 1. rewrite Hvi. unfold bind at 1, wget at 1. rewrite Hvj.
    destruct (Nat.eqb_spec i j); [done|]. unfold bind, lift. by destruct (str_copy_assign _ _ _ _) as [[]|]. }
  rewrite Est. unfold str_copy_assign. rewrite (srep_len _ _ _ _ Hri), (srep_len _ _ _ _ Hrj). unfold LOCAL.
  destruct (N.ltb_spec (nlen xs) 16); [lia|]. destruct (N.ltb_spec (nlen bs) 16); [lia|]. rewrite !andb_false_r. cbn [andb].
  assert (Eg : get_cap ti (w_heap (c_w st)) = Ok (cap_of (k_caps s) i, w_heap (c_w st))) by (unfold get_cap; by rewrite Ecap).
  rewrite (bind_ok _ _ _ _ _ Eg).
  destruct (N.ltb_spec (cap_of (k_caps s) i) (nlen bs)), (N.leb_spec (nlen bs) (cap_of (k_caps s) i)); try lia.
  - destruct (srep_long _ _ _ _ Hri Hl) as (cc & a & -> & -> & _). injection Ecap as ->.
    inversion Hri as [|? a' r ??? Ha E1 E2 E3]. subst. unfold bind, s_free, hread, hfree, bind. cbn [s_ptr].
    by rewrite Ha, N.eqb_refl, Ha.
  - assert (Hf : str_copy_assign false ti tj (w_heap (c_w st)) =
      (bs' <-- read_loc tj (LHeap (s_ptr tj)) 0 (nlen bs) ;;
       write_loc (Str (nlen bs) (s_store ti) (s_ptr ti)) (LHeap (s_ptr ti)) 0 bs') (w_heap (c_w st))).
    { unfold str_copy_assign. rewrite (srep_len _ _ _ _ Hri), (srep_len _ _ _ _ Hrj). unfold LOCAL.
      destruct (N.ltb_spec (nlen xs) 16); [lia|]. destruct (N.ltb_spec (nlen bs) 16); [lia|]. rewrite !andb_false_r. cbn [andb].
      rewrite (bind_ok _ _ _ _ _ Eg). by destruct (N.ltb_spec (cap_of (k_caps s) i) (nlen bs)); [lia|]. }
    destruct Hw as [m Hw].
    destruct (world_ok_lookup_spec _ _ _ _ _ _ Hw Hi) as (ei & Hmi & Ei1 & Hvi' & Hri').
    destruct (world_ok_lookup_spec _ _ _ _ _ _ Hw Hj) as (ej & Hmj & Ej1 & Hvj' & Hrj').
    rewrite Hvi in Hvi'. injection Hvi' as ->. rewrite Hvj in Hvj'. injection Hvj' as ->.
    destruct (copy_assign_ok (w_heap (c_w st)) (e_o ei) (e_o ej) xs bs (e_fp ei) (e_fp ej)) as (s'&h'&fp'&E1&Hr'&Hu);
      [apply Hw|done|done| |lia|lia|].
    { intros a Ha Ha'. by eapply (wo_disj _ _ _ _ Hw i j). }
    rewrite Hf in E1. unfold bind at 1, ret at 1. cbn [s_ptr]. rewrite E1.
    eexists. split; [done|]. eexists. simpl. eapply (world_upd1 _ srep_frame srep_dom); eauto.
Qed.

(** Walking over a string that holds encoded characters gives them one by one,
    then nothing; U+007F is C40's exception. *)
Lemma enc_char_len c : scalar c -> c <> 0x7F ->
  exists b r, enc c = b :: r /\ char_len true b = Some (length (enc c)).
Proof.
  intros Hs Hd. unfold scalar in Hs. unfold enc. destruct (N.ltb_spec c 0x80).
  { exists c, []. split; [done|]. unfold char_len. by destruct (N.leb_spec c 0x7E); [|lia]. }
  destruct (N.ltb_spec c 0x800).
  { eexists _, _. split; [done|]. unfold char_len.
    destruct (N.leb_spec (0xC0 + c / 64) 0x7E); [lia|].
    destruct (N.leb_spec 0xC2 (0xC0 + c / 64)); [|lia]. by destruct (N.leb_spec (0xC0 + c / 64) 0xDF); [|lia]. }
  destruct (N.ltb_spec c 0x10000).
  { eexists _, _. split; [done|]. unfold char_len.
    destruct (N.leb_spec (0xE0 + c / 4096) 0x7E); [lia|].
    destruct (N.leb_spec (0xE0 + c / 4096) 0xDF); [lia|]. rewrite andb_false_r.
    destruct (N.leb_spec 0xE0 (0xE0 + c / 4096)); [|lia]. by destruct (N.leb_spec (0xE0 + c / 4096) 0xEF); [|lia]. }
  eexists _, _. split; [done|]. unfold char_len.
  destruct (N.leb_spec (0xF0 + c / 262144) 0x7E); [lia|].
  destruct (N.leb_spec (0xF0 + c / 262144) 0xDF); [lia|]. rewrite andb_false_r.
  destruct (N.leb_spec (0xF0 + c / 262144) 0xEF); [lia|]. rewrite andb_false_r.
  destruct (N.leb_spec 0xF0 (0xF0 + c / 262144)); [|lia]. by destruct (N.leb_spec (0xF0 + c / 262144) 0xF4); [|lia].
Qed.
Lemma walk_end strict sp c t h e m : forall ts, ts !! t = Some (Kept h e e) ->
  srun (kspec strict true) (KState sp c ts) (replicate m (CNext t)) = SOk (KState sp c ts) (replicate m (YChar None)).
Proof.
  induction m as [|m IH]; intros ts Ht; [done|]. cbn [replicate srun kspec]. rewrite Ht, N.leb_refl. by rewrite IH.
Qed.
Lemma walk_spec strict sp c t h xs m : seen sp h = Some xs ->
  forall cs a ts, Forall scalar cs -> 0x7F ∉ cs -> ts !! t = Some (Kept h a (nlen xs)) ->
    drop (N.to_nat a) xs = encs cs -> a <= nlen xs ->
  exists ts', srun (kspec strict true) (KState sp c ts) (replicate (length cs + m) (CNext t)) =
    SOk (KState sp c ts') ((YChar ∘ Some ∘ enc <$> cs) ++ replicate m (YChar None)).
Proof.
  intros Hs. induction cs as [|ch cs IH]; intros a ts Hcs Hd Ht Hb Ha.
  - exists ts. simpl. apply (walk_end strict sp c t h (nlen xs)). rewrite Ht. do 2 f_equal.
    apply (f_equal length) in Hb. rewrite drop_length in Hb. simpl in Hb. lia.
  - apply Forall_cons in Hcs as [Hch Hcs]. apply not_elem_of_cons in Hd as [Hd1 Hd].
    destruct (enc_char_len ch Hch ltac:(congruence)) as (b & r & Ee & El).
    change (encs (ch :: cs)) with (enc ch ++ encs cs) in Hb.
    cbn [length Nat.add replicate srun kspec]. rewrite Ht.
    assert (Hlen : length (enc ch ++ encs cs) = (length xs - N.to_nat a)%nat) by (rewrite <-Hb; apply drop_length).
    rewrite app_length in Hlen. assert (length (enc ch) = S (length r)) as Hl1 by (by rewrite Ee).
    destruct (N.leb_spec (nlen xs) a) as [Hle|Hlt].
    { exfalso. lia. }
    rewrite Hs. rewrite (take_ge xs) by lia. rewrite Hb.
    assert (Hcons : enc ch ++ encs cs = b :: r ++ encs cs) by (by rewrite Ee).
    rewrite Hcons. cbv beta iota zeta. rewrite El, <-Hcons, app_length.
    destruct (Nat.leb_spec (length (enc ch)) (length (enc ch) + length (encs cs))); [|lia].
    rewrite take_app.
    destruct (IH (a + N.of_nat (length (enc ch))) (<[t := Kept h (a + N.of_nat (length (enc ch))) (nlen xs)]> ts) Hcs Hd) as (ts' & E).
    + apply lookup_insert.
    + replace (N.to_nat (a + N.of_nat (length (enc ch)))) with (N.to_nat a + length (enc ch))%nat by lia.
      by rewrite <-drop_drop, Hb, drop_app.
    + lia.
    + rewrite E. eauto.
Qed.
Theorem C78_walk strict ops s outs i t cs m :
  srun (kspec strict true) kinit ops = SOk s outs -> k_sp s !! i = Some (encs cs) -> Forall scalar cs -> 0x7F ∉ cs ->
  exists st, run_ops (cstep strict true) (ops ++ CChars t i :: replicate (length cs + m) (CNext t)) cinit =
    Ok (outs ++ YDone :: (YChar ∘ Some ∘ enc <$> cs) ++ replicate m (YChar None), st).
Proof.
  intros E Hi Hcs Hd. destruct s as [sp c ts]. cbn [k_sp] in Hi.
  set (h := if nlen (encs cs) <=? 16 then HObject i else HBuffer i).
  assert (seen sp h = Some (encs cs)) as Hseen.
  { unfold h. destruct (nlen (encs cs) <=? 16) eqn:El; simpl; rewrite Hi; simpl; by rewrite ?El. }
  destruct (walk_spec strict sp c t h (encs cs) m Hseen cs 0 (<[t := Kept h 0 (nlen (encs cs))]> ts)) as (ts' & Ew);
    [done|done|apply lookup_insert|done|lia|].
  pose proof (C78_histories strict true (ops ++ CChars t i :: replicate (length cs + m) (CNext t))) as H.
  rewrite (srun_app _ _ _ _ _ _ E) in H. cbn [srun] in H.
  assert (kspec strict true (KState sp c ts) (CChars t i) = SOk (KState sp c (<[t := Kept h 0 (nlen (encs cs))]> ts)) YDone) as Ec
    by (cbn [kspec]; by rewrite Hi).
  rewrite Ec, Ew in H. exact H.
Qed.

(** Programs that meet the hypotheses.  A short string grows in place while it
    is walked; a long one grows within its capacity and is moved; another
    buffer is given up. *)
Definition C78_ops : list cop :=
  [CStr (SLit 0 [65; 0xC3; 0xA4; 66]); CChars 0 0; CNext 0; CStr (SPush 0 [67]); CNext 0; CNext 0; CNext 0;
   CStr (SLit 1 (replicate 20 68)); CChars 1 1; CCopy 2 1; CNext 1; CStr (SPush 1 [69]); CStr (SMove 2 1); CNext 1;
   CStr (SDel 1); CNext 2; CChars 3 0; CNext 3; CStr (SPush 0 (replicate 12 70)); CStr (SPush 2 (replicate 20 70)); CChars 4 2; CNext 4].
Example C78_ex :
  (match srun (kspec false true) kinit C78_ops with SOk _ outs => outs | _ => [] end) =
    [YStr YUnit; YDone; YChar (Some [65]); YStr YUnit; YChar (Some [0xC3; 0xA4]); YChar (Some [66]); YChar None;
     YStr YUnit; YDone; YDone; YChar (Some [68]); YStr YUnit; YStr YUnit; YChar (Some [68]);
     YStr YUnit; YChar (Some [68]); YDone; YChar (Some [65]); YStr YUnit; YStr YUnit; YDone; YChar (Some [68])].
Proof. by vm_compute. Qed.
(** Afterwards iterators 1 and 2 (their buffer was replaced) and 3 (its string
    is no longer in the object) must not be advanced; 0 is at its end. *)
Example C78_dangling_ex :
  (match srun (kspec false true) kinit C78_ops with
   | SOk s _ => map_to_list (k_it s) ≡ₚ [(0%nat, Kept (HObject 0) 4 4); (1%nat, Kept HNone 2 20); (2%nat, Kept HNone 1 20);
                                        (3%nat, Kept (HObject 0) 1 5); (4%nat, Kept (HBuffer 2) 1 41)] /\ size_of (k_sp s) 0 = 17
   | _ => False end) /\
  run_ops (cstep false true) (C78_ops ++ [CNext 1]) cinit = Err UB /\
  run_ops (cstep false true) (C78_ops ++ [CNext 3]) cinit = Err UB /\
  run_ops (cstep false true) (C78_ops ++ [CNext 0; CStr (SMove 5 2); CNext 4]) cinit <> Err UB.
Proof.
  split_and!; [|by vm_compute|by vm_compute|vm_compute; discriminate].
  vm_compute. split; [|done]. solve_Permutation.
Qed.
Example C78_moved_ex :
  (match srun (kspec false true) kinit ([CStr (SLit 0 [65; 66]); CChars 0 0; CNext 0] ++ [CStr (SMove 1 0)]) with
   | SOk s _ => k_it s !! 0%nat = Some (Kept (HObject 0) 1 2) | _ => False end).
Proof. by vm_compute. Qed.
Example C78_copy_by_capacity_ex :
  (match srun (kspec true true) kinit [CStr (SLit 0 (replicate 20 65)); CStr (SLit 1 (replicate 30 66)); CStr (SLit 2 (replicate 31 67))] with
   | SOk s _ => cap_of (k_caps s) 0 = 30 /\ size_of (k_sp s) 1 = 30 /\ size_of (k_sp s) 2 = 31
   | _ => False end).
Proof. by vm_compute. Qed.
Example C78_walk_ex : Forall scalar [0x48; 0xE4; 0x20AC; 0x1F600] /\ 0x7F ∉ [0x48; 0xE4; 0x20AC; 0x1F600] /\
  (match srun (kspec true true) kinit [CStr (SLit 0 (encs [0x48; 0xE4])); CStr (SInsert 0 (encs [0x20AC; 0x1F600]) 3)] with
   | SOk s _ => k_sp s !! 0%nat = Some (encs [0x48; 0xE4; 0x20AC; 0x1F600]) | _ => False end).
Proof.
  split; [|split; [|by vm_compute]].
  - repeat constructor; unfold scalar; lia.
  - set_solver by lia.
Qed.

Print Assumptions C78_histories.
Print Assumptions C78_dangling.
Print Assumptions C78_moved.
Print Assumptions C78_copy_by_capacity.
Print Assumptions C78_walk.
