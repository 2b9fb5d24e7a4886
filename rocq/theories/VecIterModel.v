(** * VecIterModel: include/mstl/collection/vector.h [VectorIter] as a
      random-access iterator

    Line numbers refer to vector.h.  An iterator is the record [viter] of
    VecModel: [beg] is the block, [cur] and [end] are offsets from it.
    Copy assignment is deleted ([beg] and [end] are const, 989-991), so
    iterators are only created and moved along.  Pointer arithmetic that leaves
    the block, or uses a freed one, is undefined. *)
From Verif Require Import Base VecModel.
Local Open Scope N_scope.

Section VecIter.
  Context {A : Type} (sz : N).
  Notation VM := (M (heap (block A))).

  (** 429-435 [begin], [end]; [iter()] (414-416) is [begin()]. *)
  Definition it_begin (v : vec) : viter := VIter (v_ptr v) 0 (v_len v).
  Definition it_end (v : vec) : viter := VIter (v_ptr v) (v_len v) (v_len v).

  (** The pointer [p + k]. *)
  Definition ptr_at (p : option N) (k : Z) : VM N :=
    match p with
    | None => if (k =? 0)%Z then ret 0 else fail UB
    | Some a =>
        b <-- hread a ;;
        if (0 <=? k)%Z && (k <=? Z.of_nat (length (b_cells b)))%Z then ret (Z.to_N k) else fail UB
    end.
  Definition it_goto (it : viter) (k : Z) : VM viter :=
    c <-- ptr_at (vi_ptr it) k ;; ret (VIter (vi_ptr it) c (vi_end it)).

  (** 927-936 [++], 938-947 [--]. *)
  Definition it_inc (it : viter) : VM viter := it_goto it (Z.of_N (vi_cur it) + 1).
  Definition it_dec (it : viter) : VM viter := it_goto it (Z.of_N (vi_cur it) - 1).
  (** 949-959 [+ n], [- n]; 965-973 [+= n], [-= n]. *)
  Definition it_add (it : viter) (n : N) : VM viter := it_goto it (Z.of_N (vi_cur it) + Z.of_N n).
  Definition it_sub (it : viter) (n : N) : VM viter := it_goto it (Z.of_N (vi_cur it) - Z.of_N n).
  (** 961-963 [a - b], as [usize]; only within one block. *)
  Definition it_diff (a b : viter) : VM N :=
    if decide (vi_ptr a = vi_ptr b) then ret (usub (vi_cur a) (vi_cur b)) else fail UB.
  (** 975-979 [==] compares all three pointers. *)
  Definition it_eq (a b : viter) : bool :=
    bool_decide (vi_ptr a = vi_ptr b) && (vi_cur a =? vi_cur b) && (vi_end a =? vi_end b).
  (** 981-983 [<=>]; only within one block. *)
  Definition it_cmp (a b : viter) : VM comparison :=
    if decide (vi_ptr a = vi_ptr b) then ret (N.compare (vi_cur a) (vi_cur b)) else fail UB.
  (** 985-987 [pos]. *)
  Definition it_pos (it : viter) : N := vi_cur it.
  (** 919-925 [*it], and writing through it. *)
  Definition it_read (it : viter) : VM A := vread (vi_ptr it) (vi_cur it).
  Definition it_write (it : viter) (x : A) : VM unit := vassign (vi_ptr it) (vi_cur it) x.

  (** ** Client programs with any number of iterators into one vector *)
  Inductive iop :=
  | IBegin (k : nat)                (* auto k = v.begin() *)
  | IEnd (k : nat)                  (* auto k = v.end() *)
  | IPlus (k j : nat) (n : N)       (* auto k = j + n *)
  | IMinus (k j : nat) (n : N)      (* auto k = j - n *)
  | IInc (k : nat)                  (* ++k *)
  | IDec (k : nat)                  (* --k *)
  | IPostInc (t k : nat)            (* auto t = k++ *)
  | IPostDec (t k : nat)            (* auto t = k-- *)
  | IAddA (k : nat) (n : N)         (* k += n *)
  | ISubA (k : nat) (n : N)         (* k -= n *)
  | INext (k : nat)                 (* k.next() *)
  | IRead (k : nat)                 (* *k *)
  | IWrite (k : nat) (x : A)        (* *k = x *)
  | IPos (k : nat)                  (* k.pos() *)
  | IDiff (k j : nat)               (* k - j *)
  | IEq (k j : nat)                 (* k == j *)
  | ICmp (k j : nat).               (* k <=> j *)

  Notation IM := (M (world (block A) viter)).
  Definition upd_it (k j : nat) (f : viter -> VM viter) : IM (vout A) :=
    it <-- wget j ;; it1 <-- lift (f it) ;; wset k it1 ;;; ret ONone.
  Definition iter_step (v : vec) (o : iop) : IM (vout A) :=
    match o with
    | IBegin k => wset k (it_begin v) ;;; ret ONone
    | IEnd k => wset k (it_end v) ;;; ret ONone
    | IPlus k j n => upd_it k j (fun it => it_add it n)
    | IMinus k j n => upd_it k j (fun it => it_sub it n)
    | IInc k => upd_it k k it_inc
    | IDec k => upd_it k k it_dec
    | IPostInc t k =>
        old <-- wget k ;; it1 <-- lift (it_inc old) ;; wset k it1 ;;; wset t old ;;; ret ONone
    | IPostDec t k =>
        old <-- wget k ;; it1 <-- lift (it_dec old) ;; wset k it1 ;;; wset t old ;;; ret ONone
    | IAddA k n => upd_it k k (fun it => it_add it n)
    | ISubA k n => upd_it k k (fun it => it_sub it n)
    | INext k =>
        it <-- wget k ;; '(x, it1) <-- lift (viter_next it) ;; wset k it1 ;;; ret (OOpt x)
    | IRead k => it <-- wget k ;; x <-- lift (it_read it) ;; ret (OElem x)
    | IWrite k x => it <-- wget k ;; lift (it_write it x) ;;; ret ONone
    | IPos k => it <-- wget k ;; ret (ONum (it_pos it))
    | IDiff k j => a <-- wget k ;; b <-- wget j ;; d <-- lift (it_diff a b) ;; ret (ONum d)
    | IEq k j => a <-- wget k ;; b <-- wget j ;; ret (OBool (it_eq a b))
    | ICmp k j => a <-- wget k ;; b <-- wget j ;; c <-- lift (it_cmp a b) ;; ret (OCmp c)
    end.
End VecIter.
Global Arguments iop A : clear implicits.
