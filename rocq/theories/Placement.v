(** * Placement: where in memory the elements of lists and vectors lie (C83)

    The list models treat a node and its element as one block and the vector
    models treat a buffer as an array of slots.  Here blocks have byte
    addresses, and the code that computes the place of an element inside a
    block is modelled: the helper structures of linked_list.h:303-332, the
    allocation and deallocation of nodes (1748-1817), and the buffers of
    vectors (vector.h:790-816).  Layouts and the two flavours of [operator
    new] are those of [LayoutModel.v].

    Simplifications: what is stored in the links and the elements is left
    out; only non-constant evaluation; a pointer has 8 bytes and alignment 8;
    the compiler lays out a [struct] as the Itanium C++ ABI says for a
    standard-layout class without base classes. *)
From Verif Require Import Base LayoutModel LayoutProps.
Local Open Scope N_scope.

(** ** How a compiler lays out a [struct]: each member at the next multiple
    of its alignment, the size a multiple of the alignment. *)
Definition round_up (n a : N) : N := (n + a - 1) / a * a.
Fixpoint member_offsets (at_ : N) (ms : list layout) : list N * N :=
  match ms with
  | [] => ([], at_)
  | m :: r =>
      let o := round_up at_ (lalign m) in
      let '(os, e) := member_offsets (o + lsize m) r in (o :: os, e)
  end.
Definition struct_align (ms : list layout) : N := foldr N.max 1 (map lalign ms).
(** layout.h:26-30 [Layout::from_type] of such a [struct]. *)
Definition from_struct (ms : list layout) : layout :=
  Layout (round_up (snd (member_offsets 0 ms)) (struct_align ms)) (struct_align ms).

(** A pointer. *)
Definition pointer : layout := Layout 8 8.
(** linked_list.h:338-344 [ForwardListNode], 368-375 [ListNode]. *)
Definition node_members (dbl : bool) : list layout :=
  if dbl then [pointer; pointer; pointer] else [pointer; pointer].
(** linked_list.h:303-322 [NodeAllocHelper]. *)
Definition helper_members (dbl : bool) (t : layout) : list layout :=
  if dbl then [pointer; pointer; pointer; t] else [pointer; pointer; t].
(** linked_list.h:324-327 [get_layout], 1748-1750 [get_data_node_layout]. *)
Definition get_layout (dbl : bool) (t : layout) : layout := from_struct (helper_members dbl t).
(** linked_list.h:329-332 [get_offset], 1752-1754 [get_data_offset]: the
    offset of the last member. *)
Definition get_offset (dbl : bool) (t : layout) : N :=
  List.last (fst (member_offsets 0 (helper_members dbl t))) 0.

(** ** Memory *)

(** Live blocks by byte address; 0 is the null pointer. *)
Notation bytes := (gmap N ablock).
Notation BM := (M bytes).

Record node := Node { nd_at : N; nd_data : N }.
(** What a variable of the client stands for: a node of a list whose
    elements have type [t], or the buffer of a vector. *)
Inductive hold :=
| HNode (dbl : bool) (t : layout) (n : node)
| HBuf (t : layout) (ptr cap : N).

(** A type as a C++ compiler would admit: its size is a positive multiple of
    its alignment, which is a power of two; the node type exists, too. *)
Definition proper (t : layout) : Prop :=
  power_of_two (lalign t) /\ 0 < lsize t /\ lsize t mod lalign t = 0 /\
  forall dbl, lsize (get_layout dbl t) <= alloc_max.

Inductive pop :=
| PBare (i : nat) (dbl : bool) (t : layout)   (* head and tail of a list *)
| PElem (i : nat) (dbl : bool) (t : layout)   (* a node with an element *)
| PBuf (i : nat) (t : layout) (n : N)         (* Vector's [allocate(n)] *)
| PGrow (i : nat) (n : N)                     (* [allocate_reserve(n)] *)
| PDrop (i : nat).                            (* [destroy_node], [deallocate] *)

Record pworld := PWorld { pw_mem : bytes; pw_vars : gmap nat hold }.
Definition pinit : pworld := PWorld ∅ ∅.

Section Code.
  (** The system's [operator new]: where a block of the given size and
      alignment is put, if anywhere. *)
  Context (pick : bytes -> N -> N -> option N).

  (** [::operator new(bytes, [al,] std::nothrow_t{})] *)
  Definition p_new (n : N) (al : option N) : BM N := fun h =>
    if alloc_max <? n then Ok (0, h)
    else match pick h n (default default_new_alignment al) with
         | Some a => Ok (a, <[a := ABlock n al]> h)
         | None => Ok (0, h)
         end.
  (** [::operator delete(ptr, bytes[, al])] *)
  Definition p_delete (p n : N) (al : option N) : BM unit := fun h =>
    if p =? 0 then Ok (tt, h)
    else match h !! p with
         | Some b => if (ab_bytes b =? n) && bool_decide (ab_align b = al) then Ok (tt, delete p h) else Err UB
         | None => Err UB
         end.
  (** allocator.h:24-31 *)
  Definition p_allocate (l : layout) (length : N) : BM N :=
    if default_new_alignment <? lalign l
    then p_new (umul (lsize l) length) (Some (lalign l))
    else p_new (umul (lsize l) length) None.
  (** allocator.h:50-57 *)
  Definition p_deallocate (p : N) (l : layout) (len : N) : BM unit :=
    if default_new_alignment <? lalign l
    then p_delete p (umul len (lsize l)) (Some (lalign l))
    else p_delete p (umul len (lsize l)) None.

  (** linked_list.h:1757-1760 [alloc_node], 1777-1785 [build_virtual_node]:
      the links are written without looking. *)
  Definition build_virtual_node (dbl : bool) : BM node :=
    p <-- p_allocate (from_struct (node_members dbl)) 1 ;;
    if p =? 0 then fail UB else ret (Node p 0).
  (** linked_list.h:1763-1775 [alloc_node_with_data]. *)
  Definition alloc_node_with_data (dbl : bool) (t : layout) : BM node :=
    p <-- p_allocate (get_layout dbl t) 1 ;;
    if p =? 0 then fail UB else ret (Node p (uadd p (get_offset dbl t))).
  (** linked_list.h:1788-1799 [dealloc_node], [dealloc_node_with_data] in
      1808-1817 [destroy_node]: [data] tells which. *)
  Definition destroy_node (dbl : bool) (t : layout) (n : node) : BM unit :=
    if nd_data n =? 0 then p_deallocate (nd_at n) (from_struct (node_members dbl)) 1
    else p_deallocate (nd_at n) (get_layout dbl t) 1.
  (** vector.h:798-803 [allocate]. *)
  Definition buffer (t : layout) (n : N) : BM N := p_allocate t n.
  (** vector.h:805-816 [allocate_reserve]: the elements are moved over, then
      [clear] (522-525) gives the old buffer back. *)
  Definition grow_buffer (t : layout) (p cap n : N) : BM N :=
    q <-- p_allocate t n ;; p_deallocate p t cap ;;; ret q.

  Definition p_lift {X} (m : BM X) : M pworld X := fun w =>
    match m (pw_mem w) with Ok (x, h) => Ok (x, PWorld h (pw_vars w)) | Err e => Err e end.
  Definition p_set (i : nat) (x : hold) : M pworld unit := fun w =>
    Ok (tt, PWorld (pw_mem w) (<[i := x]> (pw_vars w))).
  Definition p_fresh (i : nat) : M pworld unit := fun w =>
    match pw_vars w !! i with Some _ => Err UB | None => Ok (tt, w) end.
  Definition p_get (i : nat) : M pworld hold := fun w =>
    match pw_vars w !! i with Some x => Ok (x, w) | None => Err UB end.
  Definition p_del (i : nat) : M pworld unit := fun w =>
    Ok (tt, PWorld (pw_mem w) (delete i (pw_vars w))).
  Definition p_step (o : pop) : M pworld unit :=
    match o with
    | PBare i dbl t => p_fresh i ;;; n <-- p_lift (build_virtual_node dbl) ;; p_set i (HNode dbl t n)
    | PElem i dbl t => p_fresh i ;;; n <-- p_lift (alloc_node_with_data dbl t) ;; p_set i (HNode dbl t n)
    | PBuf i t n => p_fresh i ;;; p <-- p_lift (buffer t n) ;; p_set i (HBuf t p n)
    | PGrow i n =>
        x <-- p_get i ;;
        match x with
        | HBuf t p c => q <-- p_lift (grow_buffer t p c n) ;; p_set i (HBuf t q n)
        | HNode _ _ _ => fail UB
        end
    | PDrop i =>
        x <-- p_get i ;;
        match x with
        | HNode dbl t n => p_lift (destroy_node dbl t n) ;;; p_del i
        | HBuf t p c => p_lift (p_deallocate p t c) ;;; p_del i
        end
    end.
  Definition p_run (ops : list pop) := run_ops p_step ops pinit.
End Code.

(** ** Specification *)

(** An object: where it is, and the size and alignment its type demands. *)
Notation obj := (N * layout)%type.
Definition aligned (o : obj) : Prop := (lalign (snd o) | fst o)%N.
Definition apart (o o' : obj) : Prop :=
  fst o + lsize (snd o) <= fst o' \/ fst o' + lsize (snd o') <= fst o.
Definition within (o : obj) (a : N) (b : ablock) : Prop :=
  a <= fst o /\ fst o + lsize (snd o) <= a + ab_bytes b.
(** The pointers of a node, and its element; the slots of a buffer (element
    [k] is [beginPtr + k]). *)
Definition links (dbl : bool) : layout := Layout (if dbl then 24 else 16) 8.
Definition objects (x : hold) : list obj :=
  match x with
  | HNode dbl t n => (nd_at n, links dbl) :: (if nd_data n =? 0 then [] else [(nd_data n, t)])
  | HBuf t p cap =>
      if p =? 0 then [] else map (fun k => (uadd p (umul (N.of_nat k) (lsize t)), t)) (seq 0 (N.to_nat cap))
  end.

(** What the C++ standard demands of [operator new]: the block is not null,
    it is aligned, it ends below 2^64, and it overlaps no live block. *)
Definition honest (pick : bytes -> N -> N -> option N) : Prop := forall h n al a,
  power_of_two al -> pick h n al = Some a ->
  0 < a /\ (al | a) /\ a + n < W /\ h !! a = None /\
  forall a' b', h !! a' = Some b' -> a + n <= a' \/ a' + ab_bytes b' <= a.

(** What a client must observe: names are fresh, what is dropped exists,
    types are proper and the bytes of a buffer can be counted. *)
Definition sort_ok (vars : gmap nat (option layout)) (o : pop) : option (gmap nat (option layout)) :=
  match o with
  | PBare i _ _ | PElem i _ _ => match vars !! i with None => Some (<[i := None]> vars) | _ => None end
  | PBuf i t n => match vars !! i with None => Some (<[i := Some t]> vars) | _ => None end
  | PGrow i n => match vars !! i with Some (Some t) => Some vars | _ => None end
  | PDrop i => match vars !! i with Some _ => Some (delete i vars) | None => None end
  end.
Fixpoint sorts_ok (vars : gmap nat (option layout)) (ops : list pop) : option (gmap nat (option layout)) :=
  match ops with
  | [] => Some vars
  | o :: r => match sort_ok vars o with Some v => sorts_ok v r | None => None end
  end.
Definition proper_op (vars : gmap nat (option layout)) (o : pop) : Prop :=
  match o with
  | PBare _ _ t | PElem _ _ t => proper t
  | PBuf _ t n => proper t /\ lsize t * n < W
  | PGrow i n => forall t, vars !! i = Some (Some t) -> lsize t * n < W
  | PDrop _ => True
  end.
Fixpoint proper_ops (vars : gmap nat (option layout)) (ops : list pop) : Prop :=
  match ops with
  | [] => True
  | o :: r => proper_op vars o /\ match sort_ok vars o with Some v => proper_ops v r | None => False end
  end.

(** ** The numbers *)
Lemma round_up_le n a : 0 < a -> n <= round_up n a.
Proof.
  intros Ha. unfold round_up. pose proof (N.div_mod (n + a - 1) a ltac:(lia)).
  pose proof (N.mod_lt (n + a - 1) a ltac:(lia)). nia.
Qed.
Lemma round_up_div n a : (a | round_up n a).
Proof. unfold round_up. by exists ((n + a - 1) / a). Qed.
Lemma pow2_pos a : power_of_two a -> 0 < a.
Proof. intros [k ->]. pose proof (N.pow_nonzero 2 k). lia. Qed.
Lemma pow2_dvd a b : power_of_two a -> power_of_two b -> a <= b -> (a | b).
Proof.
  intros [k ->] [m ->] H. apply N.pow_le_mono_r_iff in H; [|lia].
  exists (2 ^ (m - k)). rewrite <-N.pow_add_r. f_equal. lia.
Qed.
Lemma pow2_max a b : power_of_two a -> power_of_two b -> power_of_two (N.max a b).
Proof. intros. destruct (N.max_spec a b) as [[_ ->]|[_ ->]]; done. Qed.
Lemma get_offset_eq dbl t : get_offset dbl t = round_up (lsize (links dbl)) (lalign t).
Proof. by destruct dbl. Qed.
Lemma get_layout_eq dbl t :
  get_layout dbl t = Layout (round_up (get_offset dbl t + lsize t) (N.max 8 (N.max (lalign t) 1))) (N.max 8 (N.max (lalign t) 1)).
Proof.
  unfold get_layout, from_struct. destruct dbl; cbn -[N.max round_up]; unfold struct_align; cbn -[N.max round_up].
  - by replace (N.max 8 (N.max 8 (N.max 8 (N.max (lalign t) 1)))) with (N.max 8 (N.max (lalign t) 1)) by lia.
  - by replace (N.max 8 (N.max 8 (N.max (lalign t) 1))) with (N.max 8 (N.max (lalign t) 1)) by lia.
Qed.
Lemma node_layout dbl : from_struct (node_members dbl) = links dbl.
Proof. by destruct dbl. Qed.

Lemma max_pow2 t : power_of_two (lalign t) -> power_of_two (N.max 8 (N.max (lalign t) 1)).
Proof. intros. apply pow2_max; [by exists 3|]. apply pow2_max; [done|]. by exists 0. Qed.

(** Where the element of a node lies in its block. *)
Lemma node_geometry dbl t : proper t ->
  let l := get_layout dbl t in
  lsize (links dbl) <= get_offset dbl t /\ get_offset dbl t + lsize t <= lsize l /\
  (lalign t | get_offset dbl t) /\ (lalign t | lalign l) /\ (8 | lalign l) /\ power_of_two (lalign l).
Proof.
  intros (Hp & Hs & _). pose proof (pow2_pos _ Hp). pose proof (max_pow2 _ Hp).
  rewrite get_layout_eq, get_offset_eq. cbn [lsize lalign]. split_and!.
  - by apply round_up_le.
  - apply round_up_le. lia.
  - apply round_up_div.
  - apply pow2_dvd; [done|done|lia].
  - apply pow2_dvd; [by exists 3|done|lia].
  - done.
Qed.

(** A block is aligned as its layout demands. *)
Lemma block_aligned l n : power_of_two (lalign l) -> (lalign l | block_alignment (block_for (l, n))).
Proof.
  intros Hp. unfold block_alignment, block_for. cbn [ab_align fst snd].
  destruct (default_new_alignment <? lalign l) eqn:E; [by exists 1; lia|].
  unfold default_new_alignment in *. apply pow2_dvd; [done|by exists 4|lia].
Qed.

(** ** The invariant *)
Definition block_of (x : hold) : option (N * ablock) :=
  match x with
  | HNode dbl t n => Some (nd_at n, block_for (if nd_data n =? 0 then links dbl else get_layout dbl t, 1))
  | HBuf t p cap => if p =? 0 then None else Some (p, block_for (t, cap))
  end.
Definition hold_ok (x : hold) : Prop :=
  match x with
  | HNode dbl t n => proper t /\ (nd_data n = 0 \/ nd_data n = nd_at n + get_offset dbl t)
  | HBuf t p cap => proper t /\ lsize t * cap < W
  end.
Definition sort_of (x : hold) : option layout :=
  match x with HNode _ _ _ => None | HBuf t _ _ => Some t end.
Definition sound (a : N) (b : ablock) : Prop :=
  0 < a /\ (block_alignment b | a) /\ a + ab_bytes b < W.

Record inv (w : pworld) : Prop := Inv {
  inv_hold : forall i x, pw_vars w !! i = Some x -> hold_ok x;
  inv_block : forall i x a b, pw_vars w !! i = Some x -> block_of x = Some (a, b) -> pw_mem w !! a = Some b;
  inv_own : forall i j x y a b c, pw_vars w !! i = Some x -> pw_vars w !! j = Some y ->
    block_of x = Some (a, b) -> block_of y = Some (a, c) -> i = j;
  inv_all : forall a b, pw_mem w !! a = Some b -> exists i x, pw_vars w !! i = Some x /\ block_of x = Some (a, b);
  inv_sound : forall a b, pw_mem w !! a = Some b -> sound a b;
  inv_apart : forall a b a' b', pw_mem w !! a = Some b -> pw_mem w !! a' = Some b' -> a <> a' ->
    a + ab_bytes b <= a' \/ a' + ab_bytes b' <= a;
}.
Lemma inv_init : inv pinit.
Proof. split; simpl; intros; rewrite ?lookup_empty in *; done. Qed.

(** A variable is bound to a fresh block, or to none. *)
Lemma inv_add w i x h' : inv w -> pw_vars w !! i = None -> hold_ok x ->
  (block_of x = None /\ h' = pw_mem w \/
   exists a b, block_of x = Some (a, b) /\ h' = <[a := b]> (pw_mem w) /\ pw_mem w !! a = None /\ sound a b /\
     forall a' b', pw_mem w !! a' = Some b' -> a + ab_bytes b <= a' \/ a' + ab_bytes b' <= a) ->
  inv (PWorld h' (<[i := x]> (pw_vars w))).
Proof.
  intros [H1 H2 H3 H4 H5 H6] Hi Hx [[Hb ->]|(a & b & Hb & -> & Ha & Hs & Hd)]; split; simpl.
  - intros j y. destruct (decide (i = j)) as [->|]; [rewrite lookup_insert; by intros [= <-]|].
    rewrite lookup_insert_ne by done. apply H1.
  - intros j y c d. destruct (decide (i = j)) as [->|]; [rewrite lookup_insert; intros [= <-]; congruence|].
    rewrite lookup_insert_ne by done. apply H2.
  - intros j k y z c d e.
    destruct (decide (i = j)) as [->|]; [rewrite lookup_insert; intros [= <-]; congruence|].
    destruct (decide (i = k)) as [->|]; [rewrite (lookup_insert _ k); intros ? [= <-]; congruence|].
    rewrite !lookup_insert_ne by done. apply H3.
  - intros c d H. destruct (H4 _ _ H) as (j & y & Hj & Hy). exists j, y. split; [|done].
    rewrite lookup_insert_ne; [done|]. intros ->. by rewrite Hi in Hj.
  - apply H5.
  - apply H6.
  - intros j y. destruct (decide (i = j)) as [->|]; [rewrite lookup_insert; by intros [= <-]|].
    rewrite lookup_insert_ne by done. apply H1.
  - intros j y c d. destruct (decide (i = j)) as [->|].
    { rewrite lookup_insert. intros [= <-] E. rewrite Hb in E. injection E as <- <-. apply lookup_insert. }
    rewrite lookup_insert_ne by done. intros Hj Hy. pose proof (H2 _ _ _ _ Hj Hy) as H.
    rewrite lookup_insert_ne; [done|]. intros ->. by rewrite Ha in H.
  - intros j k y z c d e Hj Hk Hy Hz.
    destruct (decide (i = j)) as [->|]; destruct (decide (j = k)) as [->|]; try done.
    + rewrite lookup_insert in Hj. injection Hj as <-. rewrite Hb in Hy. injection Hy as <- <-.
      rewrite lookup_insert_ne in Hk by done. pose proof (H2 _ _ _ _ Hk Hz) as H. by rewrite Ha in H.
    + destruct (decide (i = k)) as [->|].
      * rewrite lookup_insert in Hk. injection Hk as <-. rewrite Hb in Hz. injection Hz as <- <-.
        rewrite lookup_insert_ne in Hj by done. pose proof (H2 _ _ _ _ Hj Hy) as H. by rewrite Ha in H.
      * rewrite lookup_insert_ne in Hj by done. rewrite lookup_insert_ne in Hk by done.
        by apply (H3 j k y z c d e).
  - intros c d. destruct (decide (a = c)) as [->|].
    { rewrite lookup_insert. intros [= <-]. exists i, x. by rewrite lookup_insert. }
    rewrite lookup_insert_ne by done. intros H. destruct (H4 _ _ H) as (j & y & Hj & Hy). exists j, y.
    split; [|done]. rewrite lookup_insert_ne; [done|]. intros ->. by rewrite Hi in Hj.
  - intros c d. destruct (decide (a = c)) as [->|]; [rewrite lookup_insert; by intros [= <-]|].
    rewrite lookup_insert_ne by done. apply H5.
  - intros c d c' d' Hc Hc' Hne.
    destruct (decide (a = c)) as [->|]; [rewrite lookup_insert in Hc; injection Hc as <-|rewrite lookup_insert_ne in Hc by done];
      (destruct (decide (a = c')) as [->|] || destruct (decide (c = c')) as [->|]); try done;
      try (rewrite lookup_insert_ne in Hc' by done).
    + by apply Hd.
    + rewrite lookup_insert in Hc'. injection Hc' as <-. destruct (Hd _ _ Hc); lia.
    + by apply (H6 c d c' d').
Qed.

(** A variable goes, and its block with it. *)
Lemma inv_drop w i x h' : inv w -> pw_vars w !! i = Some x ->
  h' = match block_of x with Some (a, _) => delete a (pw_mem w) | None => pw_mem w end ->
  inv (PWorld h' (delete i (pw_vars w))).
Proof.
  intros [H1 H2 H3 H4 H5 H6] Hi ->.
  assert (forall a b, (match block_of x with Some (a, _) => delete a (pw_mem w) | None => pw_mem w end) !! a = Some b ->
            pw_mem w !! a = Some b) as Hsub.
  { intros a b. destruct (block_of x) as [[c d]|]; [|done]. rewrite lookup_delete_Some. by intros []. }
  split; simpl.
  - intros j y. rewrite lookup_delete_Some. intros [_ Hj]. by apply (H1 j).
  - intros j y a b. rewrite lookup_delete_Some. intros [Hne Hj] Hy. pose proof (H2 _ _ _ _ Hj Hy) as H.
    destruct (block_of x) as [[c d]|] eqn:E; [|done]. rewrite lookup_delete_ne; [done|].
    intros ->. apply Hne. by eapply H3.
  - intros j k y z a b c. rewrite !lookup_delete_Some. intros [_ Hj] [_ Hk]. by apply (H3 j k y z a b c).
  - intros a b Ha. destruct (H4 _ _ (Hsub _ _ Ha)) as (j & y & Hj & Hy). exists j, y. split; [|done].
    rewrite lookup_delete_ne; [done|]. intros ->. rewrite Hi in Hj. injection Hj as ->.
    rewrite Hy, lookup_delete in Ha. done.
  - intros a b Ha. by apply H5, Hsub.
  - intros a b a' b' Ha Ha'. apply (H6 a b a' b'); by apply Hsub.
Qed.

Section Proofs.
  Context (pick : bytes -> N -> N -> option N) (Hpick : honest pick).

  Lemma p_allocate_cases l len h : power_of_two (lalign l) -> lsize l * len < W ->
    (p_allocate pick l len h = Ok (0, h) /\
     (lsize l * len <= alloc_max -> exists n al, pick h n al = None)) \/
    exists a, p_allocate pick l len h = Ok (a, <[a := block_for (l, len)]> h) /\
      h !! a = None /\ sound a (block_for (l, len)) /\
      forall a' b', h !! a' = Some b' -> a + ab_bytes (block_for (l, len)) <= a' \/ a' + ab_bytes b' <= a.
  Proof using Hpick.
    intros Hp Hw.
    assert (p_allocate pick l len h =
      if alloc_max <? lsize l * len then Ok (0, h)
      else match pick h (lsize l * len) (block_alignment (block_for (l, len))) with
           | Some a => Ok (a, <[a := block_for (l, len)]> h) | None => Ok (0, h) end) as ->.
    { unfold p_allocate, p_new, block_for, block_alignment, umul. cbn [fst snd ab_align].
      rewrite N.mod_small by done. by destruct (_ <? lalign l). }
    destruct (alloc_max <? _) eqn:E; [left; split; [done|lia]|].
    destruct (pick h _ _) as [a|] eqn:Ea; [right|left; split; [done|by eauto]].
    exists a. split; [done|].
    apply Hpick in Ea as (H0 & Hd & Hl & Hf & Ho).
    - assert (ab_bytes (block_for (l, len)) = lsize l * len) as Eb.
      { unfold block_for. cbn [ab_bytes fst snd]. by rewrite N.mod_small. }
      rewrite Eb. split_and!; try done. unfold sound. rewrite Eb. done.
    - unfold block_alignment, block_for. cbn [ab_align fst snd].
      destruct (_ <? lalign l); [done|by exists 4].
  Qed.

  Lemma p_deallocate_eq p l len h : p <> 0 -> h !! p = Some (block_for (l, len)) ->
    p_deallocate p l len h = Ok (tt, delete p h).
  Proof.
    intros Hp Hb. unfold p_deallocate, p_delete, umul. rewrite (N.mul_comm len).
    unfold block_for in Hb. cbn [fst snd] in Hb.
    destruct (_ <? lalign l); rewrite (proj2 (N.eqb_neq p 0)), Hb by done; cbn [ab_bytes ab_align];
      by rewrite N.eqb_refl, bool_decide_true by done.
  Qed.
  Lemma p_deallocate_null l len h : p_deallocate 0 l len h = Ok (tt, h).
  Proof. unfold p_deallocate, p_delete. by destruct (_ <? lalign l). Qed.

  Definition tracks (vars : gmap nat (option layout)) (w : pworld) : Prop :=
    forall i, vars !! i = (sort_of <$> pw_vars w !! i).

  Lemma tracks_add vars w i x h' : tracks vars w ->
    tracks (<[i := sort_of x]> vars) (PWorld h' (<[i := x]> (pw_vars w))).
  Proof.
    intros H j. simpl. destruct (decide (i = j)) as [->|]; [by rewrite !lookup_insert|].
    rewrite !lookup_insert_ne by done. apply H.
  Qed.
  Lemma tracks_del vars w i h' : tracks vars w ->
    tracks (delete i vars) (PWorld h' (delete i (pw_vars w))).
  Proof.
    intros H j. simpl. destruct (decide (i = j)) as [->|]; [by rewrite !lookup_delete|].
    rewrite !lookup_delete_ne by done. apply H.
  Qed.

  Lemma links_pow2 dbl : power_of_two (lalign (links dbl)).
  Proof. by exists 3. Qed.

  Lemma p_step_ok vars w o : inv w -> tracks vars w -> proper_op vars o ->
    forall vars', sort_ok vars o = Some vars' ->
    (exists w', p_step pick o w = Ok (tt, w') /\ inv w' /\ tracks vars' w') \/
    (p_step pick o w = Err UB /\ exists n al, pick (pw_mem w) n al = None).
  Proof using Hpick.
    intros Hi Ht Hp vars' Hs.
    destruct o as [i dbl t|i dbl t|i t n|i n|i]; cbn [sort_ok proper_op] in *.
    - destruct (vars !! i) eqn:Ei; [done|]. injection Hs as <-. rewrite Ht in Ei.
      destruct (pw_vars w !! i) eqn:Ew; [done|].
      assert (lsize (links dbl) * 1 < W) as Hw by (destruct dbl; unfold W; simpl; lia).
      unfold p_step, bind, p_fresh, p_lift, p_set, build_virtual_node. rewrite Ew, node_layout. cbv [bind].
      destruct (p_allocate_cases _ _ (pw_mem w) (links_pow2 dbl) Hw)
        as [[-> Hn]|(a & -> & Hf & Hso & Hd)].
      + right. split; [done|]. apply Hn. destruct dbl; unfold alloc_max; simpl; lia.
      + left. pose proof (proj1 Hso) as Ha. rewrite (proj2 (N.eqb_neq a 0)) by lia. simpl.
        eexists. split; [reflexivity|]. split; [|by apply (tracks_add _ _ _ (HNode dbl t (Node a 0)))].
        apply (inv_add w i (HNode dbl t (Node a 0)) _ Hi Ew); [by split; [|left]|].
        right. by exists a, (block_for (links dbl, 1)).
    - destruct (vars !! i) eqn:Ei; [done|]. injection Hs as <-. rewrite Ht in Ei.
      destruct (pw_vars w !! i) eqn:Ew; [done|].
      pose proof Hp as (Hp2 & Hs0 & _ & Hmax). specialize (Hmax dbl).
      destruct (node_geometry dbl t Hp) as (G1 & G2 & G3 & G4 & G5 & G6).
      assert (lsize (get_layout dbl t) * 1 < W) as Hw by (unfold alloc_max, W in *; lia).
      unfold p_step, bind, p_fresh, p_lift, p_set, alloc_node_with_data. rewrite Ew. cbv [bind].
      destruct (p_allocate_cases _ _ (pw_mem w) G6 Hw)
        as [[-> Hn]|(a & -> & Hf & Hso & Hd)].
      + right. split; [done|]. apply Hn. lia.
      + left. pose proof Hso as (Ha & _ & Hl). rewrite (proj2 (N.eqb_neq a 0)) by lia. simpl.
        eexists. split; [reflexivity|].
        assert (ab_bytes (block_for (get_layout dbl t, 1)) = lsize (get_layout dbl t)) as Eb.
        { unfold block_for. cbn [ab_bytes fst snd]. rewrite N.mod_small; lia. }
        assert (uadd a (get_offset dbl t) = a + get_offset dbl t) as Eu.
        { unfold uadd. apply N.mod_small. lia. }
        rewrite Eu.
        split; [|by apply (tracks_add _ _ _ (HNode dbl t (Node a (a + get_offset dbl t))))].
        apply (inv_add w i (HNode dbl t (Node a (a + get_offset dbl t))) _ Hi Ew); [by split; [|right]|].
        right. exists a, (block_for (get_layout dbl t, 1)). split; [|done].
        cbn [block_of nd_at nd_data]. by rewrite (proj2 (N.eqb_neq _ 0)) by lia.
    - destruct (vars !! i) eqn:Ei; [done|]. injection Hs as <-. rewrite Ht in Ei.
      destruct (pw_vars w !! i) eqn:Ew; [done|]. destruct Hp as [Hp Hw].
      unfold p_step, bind, p_fresh, p_lift, p_set, buffer. rewrite Ew. left.
      destruct (p_allocate_cases _ _ (pw_mem w) (proj1 Hp) Hw)
        as [[-> Hn]|(a & -> & Hf & Hso & Hd)]; simpl; (eexists; split; [reflexivity|]).
      + split; [|by apply (tracks_add _ _ _ (HBuf t 0 n))].
        apply (inv_add w i (HBuf t 0 n) _ Hi Ew); [done|by left].
      + split; [|by apply (tracks_add _ _ _ (HBuf t a n))].
        apply (inv_add w i (HBuf t a n) _ Hi Ew); [done|]. right. exists a, (block_for (t, n)).
        split; [|done]. cbn [block_of]. by rewrite (proj2 (N.eqb_neq a 0)) by (pose proof (proj1 Hso); lia).
    - destruct (vars !! i) as [[t|]|] eqn:Ei; [|done|done]. injection Hs as <-.
      pose proof (Hp t eq_refl) as Hw. pose proof Ei as Ei'. rewrite Ht in Ei'.
      destruct (pw_vars w !! i) as [[|t' p c]|] eqn:Ew; [done| |done]. injection Ei' as ->.
      destruct (inv_hold _ Hi _ _ Ew) as [Hpr Hc].
      unfold p_step, bind, p_get, p_lift, p_set, grow_buffer. rewrite Ew. cbv [bind]. left.
      (* release the old block, then bind the new one *)
      set (h1 := match block_of (HBuf t p c) with Some (a, _) => delete a (pw_mem w) | None => pw_mem w end).
      pose proof (inv_drop w i _ h1 Hi Ew eq_refl) as Hi1.
      assert (forall x h', hold_ok x -> sort_of x = Some t ->
        (block_of x = None /\ h' = h1 \/
         exists a b, block_of x = Some (a, b) /\ h' = <[a := b]> h1 /\ h1 !! a = None /\ sound a b /\
           forall a' b', h1 !! a' = Some b' -> a + ab_bytes b <= a' \/ a' + ab_bytes b' <= a) ->
        inv (PWorld h' (<[i := x]> (pw_vars w))) /\ tracks vars (PWorld h' (<[i := x]> (pw_vars w)))) as Hfin.
      { intros x h' Hx Hsx Hb. split.
        - pose proof (inv_add _ i x h' Hi1) as H. cbn [pw_vars pw_mem] in H.
          rewrite insert_delete_insert in H. apply H; [apply lookup_delete|done|done].
        - rewrite <-(insert_id vars i (Some t) Ei), <-Hsx. by apply tracks_add. }
      destruct (p_allocate_cases _ _ (pw_mem w) (proj1 Hpr) Hw)
        as [[-> Hn]|(a & -> & Hf & Hso & Hd)].
      + assert (p_deallocate p t c (pw_mem w) = Ok (tt, h1)) as ->.
        { unfold h1. cbn [block_of]. destruct (p =? 0) eqn:E0.
          - apply N.eqb_eq in E0 as ->. apply p_deallocate_null.
          - apply p_deallocate_eq; [lia|]. eapply (inv_block _ Hi); [exact Ew|]. cbn [block_of]. by rewrite E0. }
        simpl. eexists. split; [reflexivity|]. apply (Hfin (HBuf t 0 n)); [done|done|by left].
      + assert (p_deallocate p t c (<[a:=block_for (t, n)]> (pw_mem w)) = Ok (tt, <[a := block_for (t, n)]> h1)) as ->.
        { unfold h1. cbn [block_of]. destruct (p =? 0) eqn:E0.
          - apply N.eqb_eq in E0 as ->. apply p_deallocate_null.
          - assert (pw_mem w !! p = Some (block_for (t, c))) as Hpb.
            { eapply (inv_block _ Hi); [exact Ew|]. cbn [block_of]. by rewrite E0. }
            assert (a <> p) as Hap by (intros ->; by rewrite Hf in Hpb).
            rewrite p_deallocate_eq; [|lia|by rewrite lookup_insert_ne].
            by rewrite delete_insert_ne. }
        simpl. eexists. split; [reflexivity|].
        assert (forall a' b', h1 !! a' = Some b' -> pw_mem w !! a' = Some b') as Hsub.
        { unfold h1. intros a' b'. destruct (block_of _) as [[q ?]|]; [|done].
          rewrite lookup_delete_Some. by intros []. }
        apply (Hfin (HBuf t a n)); [done|done|]. right. exists a, (block_for (t, n)).
        split_and!.
        * cbn [block_of]. by rewrite (proj2 (N.eqb_neq a 0)) by (pose proof (proj1 Hso); lia).
        * done.
        * destruct (h1 !! a) eqn:E; [|done]. apply Hsub in E. by rewrite Hf in E.
        * done.
        * intros a' b' H. by apply Hd, Hsub.
    - destruct (vars !! i) as [s|] eqn:Ei; [|done]. injection Hs as <-. rewrite Ht in Ei.
      destruct (pw_vars w !! i) as [x|] eqn:Ew; [|done]. left.
      unfold p_step, bind, p_get, p_lift, p_del. rewrite Ew.
      pose proof (inv_drop w i x _ Hi Ew eq_refl) as Hi1.
      destruct x as [dbl t n|t p c].
      + assert (destroy_node dbl t n (pw_mem w) = Ok (tt, delete (nd_at n) (pw_mem w))) as ->.
        { pose proof (inv_block _ Hi i _ _ _ Ew eq_refl) as Hb.
          pose proof (inv_sound _ Hi _ _ Hb) as (H0 & _).
          unfold destroy_node. rewrite node_layout.
          destruct (nd_data n =? 0); apply p_deallocate_eq; (lia || done). }
        eexists. split; [reflexivity|]. split; [exact Hi1|by apply tracks_del].
      + assert (p_deallocate p t c (pw_mem w) =
          Ok (tt, match block_of (HBuf t p c) with Some (a, _) => delete a (pw_mem w) | None => pw_mem w end)) as ->.
        { cbn [block_of]. destruct (p =? 0) eqn:E0.
          - apply N.eqb_eq in E0 as ->. apply p_deallocate_null.
          - apply p_deallocate_eq; [lia|]. eapply (inv_block _ Hi); [exact Ew|]. cbn [block_of]. by rewrite E0. }
        eexists. split; [reflexivity|]. split; [exact Hi1|by apply tracks_del].
  Qed.

  Lemma p_run_ok ops : forall vars w, inv w -> tracks vars w -> proper_ops vars ops ->
    (exists outs w' vars', run_ops (p_step pick) ops w = Ok (outs, w') /\ sorts_ok vars ops = Some vars' /\
       inv w' /\ tracks vars' w') \/
    (run_ops (p_step pick) ops w = Err UB /\
     exists ops1 ops2 outs w' n al, ops = ops1 ++ ops2 /\ run_ops (p_step pick) ops1 w = Ok (outs, w') /\
       pick (pw_mem w') n al = None).
  Proof using Hpick.
    induction ops as [|o ops IH]; intros vars w Hi Ht Hp.
    { left. by exists [], w, vars. }
    destruct Hp as [Hp Hr]. cbn [sorts_ok run_ops]. destruct (sort_ok vars o) as [v|] eqn:Es; [|done].
    cbv [bind].
    destruct (p_step_ok _ _ _ Hi Ht Hp _ Es) as [(w1 & E1 & Hi1 & Ht1)|(E1 & n & al & Hn)]; rewrite E1.
    2:{ right. split; [done|]. by exists [], (o :: ops), [], w, n, al. }
    destruct (IH _ _ Hi1 Ht1 Hr) as [(outs & w2 & v2 & -> & Hs & Hi2 & Ht2)|(-> & o1 & o2 & outs & w2 & n & al & -> & H1 & Hn)].
    - left. by exists (tt :: outs), w2, v2.
    - right. split; [done|]. exists (o :: o1), o2, (tt :: outs), w2, n, al. split; [done|]. split; [|done].
      cbn [run_ops]. cbv [bind]. by rewrite E1, H1.
  Qed.

  (** Where the objects of a variable lie. *)
  Lemma objects_ok w i x : inv w -> pw_vars w !! i = Some x ->
    forall k o, objects x !! k = Some o ->
    aligned o /\ exists a b, block_of x = Some (a, b) /\ pw_mem w !! a = Some b /\ within o a b.
  Proof.
    intros Hi Hx k o Hk. pose proof (inv_hold _ Hi _ _ Hx) as Hh.
    destruct x as [dbl t n|t p cap]; cbn [objects hold_ok] in *.
    - destruct Hh as [Hp Hd]. destruct (node_geometry dbl t Hp) as (G1 & G2 & G3 & G4 & G5 & G6).
      pose proof (inv_block _ Hi i _ _ _ Hx eq_refl) as Hb. pose proof (inv_sound _ Hi _ _ Hb) as (S1 & S2 & S3).
      pose proof Hp as (Hp2 & Hs0 & _ & Hmax). specialize (Hmax dbl).
      destruct (nd_data n =? 0) eqn:E0.
      + destruct k as [|k]; [|done]. injection Hk as <-.
        assert (ab_bytes (block_for (links dbl, 1)) = lsize (links dbl)) as Eb by (by destruct dbl).
        split.
        * unfold aligned. cbn [fst snd]. etrans; [apply (block_aligned (links dbl) 1), links_pow2|exact S2].
        * eexists _, _. split; [cbn [block_of]; rewrite E0; reflexivity|]. split; [exact Hb|].
          unfold within. cbn [fst snd]. rewrite Eb. lia.
      + assert (ab_bytes (block_for (get_layout dbl t, 1)) = lsize (get_layout dbl t)) as Eb.
        { unfold block_for. cbn [ab_bytes fst snd]. rewrite N.mod_small; unfold alloc_max, W in *; lia. }
        pose proof (block_aligned (get_layout dbl t) 1 G6) as G7.
        destruct Hd as [Hd|Hd]; [lia|].
        destruct k as [|[|k]]; [| |done]; injection Hk as <-; (split; [unfold aligned; cbn [fst snd]|]).
        * etrans; [exact G5|]. by etrans.
        * eexists _, _. split; [cbn [block_of]; rewrite E0; reflexivity|]. split; [exact Hb|].
          unfold within. cbn [fst snd]. rewrite Eb. lia.
        * rewrite Hd. apply N.divide_add_r; [|done]. etrans; [exact G4|]. by etrans.
        * eexists _, _. split; [cbn [block_of]; rewrite E0; reflexivity|]. split; [exact Hb|].
          unfold within. cbn [fst snd]. rewrite Eb. lia.
    - destruct Hh as [Hp Hc]. destruct (p =? 0) eqn:E0; [done|].
      assert (block_of (HBuf t p cap) = Some (p, block_for (t, cap))) as Hbo by (cbn [block_of]; by rewrite E0).
      pose proof (inv_block _ Hi i _ _ _ Hx Hbo) as Hb. pose proof (inv_sound _ Hi _ _ Hb) as (S1 & S2 & S3).
      assert (ab_bytes (block_for (t, cap)) = lsize t * cap) as Eb.
      { unfold block_for. cbn [ab_bytes fst snd]. by rewrite N.mod_small. }
      rewrite Eb in S3.
      apply list_lookup_fmap_inv in Hk as (m & -> & Hm). apply lookup_seq in Hm as [-> Hm]. cbn [plus].
      assert (umul (N.of_nat k) (lsize t) = N.of_nat k * lsize t) as Em.
      { unfold umul. apply N.mod_small. nia. }
      assert (uadd p (N.of_nat k * lsize t) = p + N.of_nat k * lsize t) as Ea.
      { unfold uadd. apply N.mod_small. nia. }
      rewrite Em, Ea. split.
      + unfold aligned. cbn [fst snd]. apply N.divide_add_r.
        * etrans; [apply (block_aligned t cap), Hp|exact S2].
        * destruct Hp as (Hp & _ & Hm2 & _). apply N.divide_mul_r.
          apply N.mod_divide in Hm2; [done|]. pose proof (pow2_pos _ Hp). lia.
      + eexists _, _. split; [exact Hbo|]. split; [exact Hb|]. unfold within. cbn [fst snd]. rewrite Eb. nia.
  Qed.

  Lemma objects_apart w i x : inv w -> pw_vars w !! i = Some x ->
    forall k k' o o', objects x !! k = Some o -> objects x !! k' = Some o' -> k <> k' -> apart o o'.
  Proof.
    intros Hi Hx k k' o o' Hk Hk' Hne. pose proof (inv_hold _ Hi _ _ Hx) as Hh.
    destruct x as [dbl t n|t p cap]; cbn [objects hold_ok] in *.
    - destruct Hh as [Hp Hd]. destruct (node_geometry dbl t Hp) as (G1 & _).
      destruct (nd_data n =? 0) eqn:E0; [by destruct k, k'|]. destruct Hd as [Hd|Hd]; [lia|].
      unfold apart. destruct k as [|[|k]], k' as [|[|k']]; try done; injection Hk as <-; injection Hk' as <-; cbn [fst snd]; lia.
    - destruct Hh as [Hp Hc]. destruct (p =? 0) eqn:E0; [done|].
      assert (block_of (HBuf t p cap) = Some (p, block_for (t, cap))) as Hbo by (cbn [block_of]; by rewrite E0).
      pose proof (inv_block _ Hi i _ _ _ Hx Hbo) as Hb. pose proof (inv_sound _ Hi _ _ Hb) as (S1 & S2 & S3).
      assert (ab_bytes (block_for (t, cap)) = lsize t * cap) as Eb.
      { unfold block_for. cbn [ab_bytes fst snd]. by rewrite N.mod_small. }
      rewrite Eb in S3.
      assert (forall k o, map (fun k : nat => (uadd p (umul (N.of_nat k) (lsize t)), t)) (seq 0 (N.to_nat cap)) !! k = Some o ->
        o = (p + N.of_nat k * lsize t, t)) as Ho.
      { intros m q Hm. apply list_lookup_fmap_inv in Hm as (m' & -> & Hm). apply lookup_seq in Hm as [-> Hm].
        rewrite Nat.add_0_l. f_equal.
        assert (umul (N.of_nat m) (lsize t) = N.of_nat m * lsize t) as -> by (unfold umul; apply N.mod_small; nia).
        unfold uadd. apply N.mod_small. nia. }
      apply Ho in Hk as ->. apply Ho in Hk' as ->. unfold apart. cbn [fst snd]. nia.
  Qed.
End Proofs.

(** ** C83 *)

(** Every object of every list and vector is aligned, lies in a live block
    and shares no byte with any other object. *)
Theorem C83_placed_partial pick : honest pick -> forall ops outs w,
  proper_ops ∅ ops -> p_run pick ops = Ok (outs, w) ->
  forall i x k o, pw_vars w !! i = Some x -> objects x !! k = Some o ->
  aligned o /\ fst o <> 0 /\ (exists a b, pw_mem w !! a = Some b /\ within o a b) /\
  forall j y m o', pw_vars w !! j = Some y -> objects y !! m = Some o' -> (i, k) <> (j, m) -> apart o o'.
Proof.
  intros Hh ops outs w Hp Hr i x k o Hx Hk. unfold p_run in Hr.
  destruct (p_run_ok pick Hh ops ∅ pinit inv_init) as [(outs' & w' & v & E & _ & Hi & _)|[E _]];
    [intros j; by rewrite !lookup_empty|done| |congruence].
  assert (w' = w) as -> by congruence. clear E Hr Hp.
  destruct (objects_ok _ _ _ Hi Hx _ _ Hk) as (Ha & a & b & Hb & Hm & Hw).
  pose proof (inv_sound _ Hi _ _ Hm) as (S1 & _).
  split; [done|]. split; [destruct Hw; lia|]. split; [by eauto|].
  intros j y m o' Hy Hm' Hne. destruct (decide (i = j)) as [->|Hij].
  - assert (y = x) as -> by congruence. eapply objects_apart; [exact Hi|exact Hx|exact Hk|exact Hm'|]. congruence.
  - destruct (objects_ok _ _ _ Hi Hy _ _ Hm') as (_ & a' & b' & Hb' & Hm2 & Hw').
    assert (a <> a') as Hne'.
    { intros ->. apply Hij. by eapply (inv_own _ Hi i j x y). }
    destruct (inv_apart _ Hi _ _ _ _ Hm Hm2 Hne'); unfold apart, within in *; lia.
Qed.

(** No history is undefined unless the system had no room for a node, every
    block goes back with the size and alignment it was asked for, and when
    all variables are gone no block is left. *)
Theorem C83_returned_partial pick : honest pick -> forall ops, proper_ops ∅ ops ->
  (exists outs w, p_run pick ops = Ok (outs, w) /\ (sorts_ok ∅ ops = Some ∅ -> pw_mem w = ∅)) \/
  (p_run pick ops = Err UB /\
   exists ops1 ops2 outs w n al, ops = ops1 ++ ops2 /\ p_run pick ops1 = Ok (outs, w) /\ pick (pw_mem w) n al = None).
Proof.
  intros Hh ops Hp. unfold p_run.
  destruct (p_run_ok pick Hh ops ∅ pinit inv_init) as [(outs & w & v & E & Hs & Hi & Ht)|H];
    [intros j; by rewrite !lookup_empty|done| |by right].
  left. exists outs, w. split; [done|]. intros Hv. rewrite Hs in Hv. injection Hv as ->.
  apply map_empty. intros a. destruct (pw_mem w !! a) as [b|] eqn:Ea; [|done].
  destruct (inv_all _ Hi _ _ Ea) as (i & x & Hx & _). pose proof (Ht i) as H. by rewrite lookup_empty, Hx in H.
Qed.

(** ** A system that meets the demands: blocks above everything live. *)
Definition top (h : bytes) : N := map_fold (fun a b m => N.max m (a + ab_bytes b)) 0 h.
Definition bump (h : bytes) (n al : N) : option N :=
  let a := round_up (top h + 1) al in if a + n <? W then Some a else None.
Lemma top_above h a b : h !! a = Some b -> a + ab_bytes b <= top h.
Proof.
  revert a b. unfold top.
  apply (map_fold_ind (fun r m => forall a b, m !! a = Some b -> a + ab_bytes b <= r)).
  - intros a b H. by rewrite lookup_empty in H.
  - intros i x m r Hi IH a b. rewrite lookup_insert_Some. intros [[<- <-]|[_ H]]; [lia|]. apply IH in H. lia.
Qed.
Lemma bump_honest : honest bump.
Proof.
  intros h n al a Hal. unfold bump. destruct (_ <? W) eqn:E; [|done]. intros [= <-].
  pose proof (round_up_le (top h + 1) al (pow2_pos _ Hal)) as Hr.
  split_and!; [lia|apply round_up_div|lia| |].
  - destruct (h !! _) as [b|] eqn:Eb; [|done]. apply top_above in Eb. lia.
  - intros a' b' H. apply top_above in H. lia.
Qed.

(** The statement without the bound on the bytes of a buffer is false: a
    vector of 2^61 + 1 elements of 8 bytes gets a block of 8 bytes. *)
Definition client_ok (vars : gmap nat (option layout)) (ops : list pop) : Prop :=
  is_Some (sorts_ok vars ops) /\ forall o, o ∈ ops ->
    match o with PBare _ _ t | PElem _ _ t => proper t | PBuf _ t n => proper t /\ n < W | PGrow _ n => n < W | PDrop _ => True end.
Definition C83_full : Prop := forall pick, honest pick -> forall ops outs w,
  client_ok ∅ ops -> p_run pick ops = Ok (outs, w) ->
  forall i x k o, pw_vars w !! i = Some x -> objects x !! k = Some o ->
  aligned o /\ fst o <> 0 /\ (exists a b, pw_mem w !! a = Some b /\ within o a b) /\
  forall j y m o', pw_vars w !! j = Some y -> objects y !! m = Some o' -> (i, k) <> (j, m) -> apart o o'.
Lemma proper_word : proper (Layout 8 8).
Proof. split; [by exists 3|]. split; [done|]. split; [done|]. intros []; by vm_compute. Qed.
Lemma slot_lookup t p cap k : p <> 0 -> N.of_nat k < cap ->
  objects (HBuf t p cap) !! k = Some (uadd p (umul (N.of_nat k) (lsize t)), t).
Proof.
  intros Hp Hk. cbn [objects]. rewrite (proj2 (N.eqb_neq p 0)) by done.
  match goal with |- map ?f ?l !! _ = _ => change (map f l) with (f <$> l) end.
  rewrite list_lookup_fmap, lookup_seq_lt by lia. done.
Qed.
Theorem C83_refuted : ~ C83_full.
Proof.
  intros H. remember 2305843009213693953 as n eqn:En.
  assert (p_run bump [PBuf 0 (Layout 8 8) n] =
    Ok ([tt], PWorld (<[16 := ABlock 8 None]> ∅) (<[0%nat := HBuf (Layout 8 8) 16 n]> ∅))) as E by (by subst n).
  assert (client_ok ∅ [PBuf 0 (Layout 8 8) n]) as Hc.
  { split; [by eexists|]. intros o ->%elem_of_list_singleton. split; [apply proper_word|by subst n]. }
  destruct (H bump bump_honest _ _ _ Hc E 0%nat (HBuf (Layout 8 8) 16 n) 1%nat (24, Layout 8 8))
    as (_ & _ & (a & b & Ha & Hw) & _).
  - apply lookup_insert.
  - rewrite slot_lookup; [done|done|]. subst n. done.
  - cbn [pw_mem] in Ha. rewrite lookup_insert_Some in Ha.
    destruct Ha as [[<- <-]|[_ Ha]]; [|by rewrite lookup_empty in Ha].
    destruct Hw as [_ Hw]. vm_compute in Hw. done.
Qed.

(** Non-trivial cases: the ends of a doubly linked list, two nodes for an
    over-aligned type, one for a single byte, and a vector that grows. *)
Definition ex_pops : list pop :=
  [PBare 0 true (Layout 96 32); PBare 1 true (Layout 96 32); PElem 2 true (Layout 96 32);
   PElem 3 true (Layout 96 32); PElem 4 false (Layout 1 1); PBuf 5 (Layout 12 4) 3; PGrow 5 5; PDrop 2].
Lemma proper_step vars v o r : sort_ok vars o = Some v -> proper_op vars o -> proper_ops v r -> proper_ops vars (o :: r).
Proof. intros E H1 H2. cbn [proper_ops]. by rewrite E. Qed.
Example C83_ex :
  honest bump /\ proper_ops ∅ ex_pops /\
  (exists w, p_run bump ex_pops = Ok ([tt; tt; tt; tt; tt; tt; tt; tt], w) /\
     (objects <$> pw_vars w !! 3%nat) = Some [(256, Layout 24 8); (288, Layout 96 32)] /\
     (objects <$> pw_vars w !! 4%nat) = Some [(400, Layout 16 8); (416, Layout 1 1)]) /\
  (exists w, p_run bump (ex_pops ++ [PDrop 0; PDrop 1; PDrop 3; PDrop 4; PDrop 5]) = Ok (repeat tt 13, w) /\
     map_to_list (pw_mem w) = []).
Proof.
  split; [apply bump_honest|]. split.
  { assert (proper (Layout 96 32)) by (split; [by exists 5|]; split; [done|]; split; [done|]; intros []; by vm_compute).
    assert (proper (Layout 1 1)) by (split; [by exists 0|]; split; [done|]; split; [done|]; intros []; by vm_compute).
    assert (proper (Layout 12 4)) by (split; [by exists 2|]; split; [done|]; split; [done|]; intros []; by vm_compute).
    unfold ex_pops.
    repeat (eapply proper_step; [vm_compute; reflexivity|cbn [proper_op]; try done|]); [|done].
    intros t Ht. vm_compute in Ht. injection Ht as <-. done. }
  split; eexists; (split; [vm_compute; reflexivity|]); vm_compute; try split; reflexivity.
Qed.
Print Assumptions C83_placed_partial.
Print Assumptions C83_returned_partial.
Print Assumptions C83_refuted.
