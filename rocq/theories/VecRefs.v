(** * VecRefs: C64, references and iterators into vectors while vectors change

    A reference, a pointer or a [VectorIter] (vector.h:896-992) is an address in
    the buffer it was taken from: [beginPtr + k] as it was then.  Programs here
    keep any number of them while any operation of VecModel runs on any of the
    vectors.  Line numbers refer to include/mstl/collection/vector.h. *)
From Verif Require Import Base VecModel VecIterModel VecSpec.
Local Open Scope N_scope.

Section Refs.
  Context {A : Type} (sz : N) (dflt : A).
  Context (eqb : A -> A -> bool) (cmp : A -> A -> comparison).

  (** ** The code *)

  Inductive rop :=
  | RVec (o : vop A)            (* any operation on the vectors *)
  | RAt (t i : nat) (k : N)     (* auto &t = v[k];  auto t = v.begin() + k; auto t = v.data() + k *)
  | RGet (t : nat)              (* read t / *t *)
  | RSet (t : nat) (x : A)      (* t = x / *t = x *)
  | RMove (t : nat) (d : Z)     (* t += d, t -= d, ++t, --t *)
  | RNext (t : nat)             (* t.next() *)
  | REq (t u : nat).            (* t == u *)

  Record rst := RSt { r_w : world (block A) vec; r_t : gmap nat viter }.
  Definition rinit : rst := RSt winit ∅.

  Definition hrun {X} (st : rst) (m : M (heap (block A)) X) : outcome (X * rst) :=
    match lift m (r_w st) with Ok (x, w) => Ok (x, RSt w (r_t st)) | Err e => Err e end.
  Definition with_t (t : nat) (f : viter -> M rst (vout A)) : M rst (vout A) :=
    fun st => match r_t st !! t with Some it => f it st | None => Err UB end.
  Definition set_t (t : nat) (it : viter) : M rst unit :=
    fun st => Ok (tt, RSt (r_w st) (<[t := it]> (r_t st))).
  Definition in_heap {X} (m : M (heap (block A)) X) : M rst X := fun st => hrun st m.

  (** 188-196 [operator[]], 275-281 [at_unchecked], 315-321 [front_unchecked]
      ([k = 0]), 355-361 [back_unchecked] ([k = size() - 1]), 373-379 [data],
      429-443 [begin], [end] give addresses; 919-925 [operator*], 927-973
      [++], [--], [+=], [-=], 911-917 [next], 975-979 [==] as in VecIterModel. *)
  Definition rstep (o : rop) : M rst (vout A) :=
    match o with
    | RVec o => fun st =>
        match vec_step sz dflt eqb cmp o (r_w st) with
        | Ok (x, w) => Ok (x, RSt w (r_t st))
        | Err e => Err e
        end
    | RAt t i k => fun st =>
        match w_vars (r_w st) !! i with
        | Some v => Ok (ONone, RSt (r_w st) (<[t := VIter (v_ptr v) k (v_len v)]> (r_t st)))
        | None => Err UB
        end
    | RGet t => with_t t (fun it => x <-- in_heap (it_read it) ;; ret (OElem x))
    | RSet t x => with_t t (fun it => in_heap (it_write it x) ;;; ret ONone)
    | RMove t d => with_t t (fun it =>
        it1 <-- in_heap (it_goto (A := A) it (Z.of_N (vi_cur it) + d)) ;; set_t t it1 ;;; ret ONone)
    | RNext t => with_t t (fun it => '(x, it1) <-- in_heap (viter_next it) ;; set_t t it1 ;;; ret (OOpt x))
    | REq t u => with_t t (fun a => with_t u (fun b => ret (OBool (it_eq a b))))
    end.

  (** ** The specification

      [caps] gives [capacity()] and the allocator of each vector.  A kept
      address is an index together with the vector whose elements it denotes
      now, if any. *)
  Notation vspec := (gmap nat (list A)).
  Notation caps := (gmap nat (N * N)).

  Definition len_of (s : vspec) (i : nat) : N := match s !! i with Some xs => nlen xs | None => 0 end.
  Definition cap_of (c : caps) (i : nat) : N := match c !! i with Some (n, _) => n | None => 0 end.
  Definition al_of (c : caps) (i : nat) : N := match c !! i with Some (_, a) => a | None => 0 end.

  (** The capacity after [n] more [push_back]: double when full. *)
  Definition pushed (len cap : N) : N := if len <? cap then cap else if cap =? 0 then 2 else 2 * cap.
  Fixpoint grown (n : nat) (len cap : N) : N :=
    match n with O => cap | S n => grown n (len + 1) (pushed len cap) end.

  Definition caps_after (c : caps) (s : vspec) (o : vop A) : caps :=
    let put i cap al := <[i := (cap, al)]> c in
    let set i cap := <[i := (cap, al_of c i)]> c in
    let room i n := set i (N.max (cap_of c i) n) in
    match o with
    | VNew i => put i 2 0
    | VNewAlloc i al => put i 0 al
    | VNewFill i al n _ | VNewCount i al n => put i n al
    | VNewList i al xs | VNewRange i al xs => put i (nlen xs) al
    | VFromIter i xs => put i (grown (length xs) 0 2) 0
    | VNewCopy i j => put i (len_of s j) 0
    | VNewCopyAl i j al => put i (len_of s j) al
    | VNewMove i j => <[i := (cap_of c j, al_of c j)]> (<[j := (0, al_of c j)]> c)
    | VDestroy i => delete i c
    | VCopyAsg i j =>
        if Nat.eqb i j then c
        else if al_of c i =? al_of c j then room i (cap_of c j) else set i (len_of s j)
    | VMoveAsg i j =>
        if Nat.eqb i j then c else <[i := (cap_of c j, al_of c j)]> (<[j := (0, al_of c j)]> c)
    | VAssignFill i n _ | VReserve i n | VResize i n | VResizeVal i n _ => room i n
    | VAssignList i xs => room i (nlen xs)
    | VClear i => set i 0
    | VPush i _ | VEmplaceBack i _ | VEmplace i _ _ | VInsert i _ _ => set i (pushed (len_of s i) (cap_of c i))
    | VInsertFill i _ n _ => room i (len_of s i + n)
    | VInsertRange i _ ys => room i (len_of s i + nlen ys)
    | VSwap i j => <[i := (cap_of c j, al_of c j)]> (<[j := (cap_of c i, al_of c i)]> c)
    | _ => c
    end.

  (** [follow c s j o]: who holds the buffer of [j] after [o]; [None] if [o]
      gives it up. *)
  Definition follow (c : caps) (s : vspec) (j : nat) (o : vop A) : option nat :=
    let len := len_of s j in let cap := cap_of c j in
    let at_j (i : nat) (b : bool) := if Nat.eqb i j then (if b then Some j else None) else Some j in
    match o with
    | VDestroy i | VClear i => at_j i false
    | VCopyAsg i k => at_j i (Nat.eqb i k || ((al_of c j =? al_of c k) && (cap_of c k <=? cap)))
    | VMoveAsg i k => if Nat.eqb i k then Some j else if Nat.eqb k j then Some i else at_j i false
    | VNewMove i k => if Nat.eqb k j then Some i else Some j
    | VSwap i k => if Nat.eqb i j then Some k else if Nat.eqb k j then Some i else Some j
    | VAssignFill i n _ | VReserve i n | VResize i n | VResizeVal i n _ => at_j i (n <=? cap)
    | VAssignList i xs => at_j i (nlen xs <=? cap)
    | VPush i _ | VEmplaceBack i _ | VEmplace i _ _ | VInsert i _ _ => at_j i (len <? cap)
    | VInsertFill i _ n _ => at_j i (len + n <=? cap)
    | VInsertRange i _ ys => at_j i (len + nlen ys <=? cap)
    | _ => Some j
    end.

  (** An address: the vector it belongs to, the index, and the index at which
      [next] stops. *)
  Record addr := Addr { a_own : option nat; a_cur : N; a_end : N }.
  Record qst := QSt { q_s : vspec; q_c : caps; q_t : gmap nat addr }.
  Definition qinit : qst := QSt ∅ ∅ ∅.

  Definition carry (c : caps) (s : vspec) (o : vop A) (a : addr) : addr :=
    Addr (match a_own a with Some j => follow c s j o | None => None end) (a_cur a) (a_end a).

  (** What [*t] denotes. *)
  Definition denotes (s : vspec) (a : addr) : option A :=
    match a_own a with
    | Some j => match s !! j with Some xs => nlookup xs (a_cur a) | None => None end
    | None => None
    end.

  Definition rspec (q : qst) (o : rop) : option (qst * vout A) :=
    match o with
    | RVec o =>
        match vspec_step dflt eqb cmp (q_s q) o with
        | Some (s', x) => Some (QSt s' (caps_after (q_c q) (q_s q) o) (carry (q_c q) (q_s q) o <$> q_t q), x)
        | None => None
        end
    | RAt t i k =>
        match q_s q !! i with
        | Some xs => if k <=? nlen xs then Some (QSt (q_s q) (q_c q) (<[t := Addr (Some i) k (nlen xs)]> (q_t q)), ONone)
                     else None
        | None => None
        end
    | RGet t =>
        match q_t q !! t with
        | Some a => match denotes (q_s q) a with Some x => Some (q, OElem x) | None => None end
        | None => None
        end
    | RSet t x =>
        match q_t q !! t with
        | Some a =>
            match a_own a with
            | Some j => match vspec_step dflt eqb cmp (q_s q) (VSet j (a_cur a) x) with
                        | Some (s', _) => Some (QSt s' (q_c q) (q_t q), ONone)
                        | None => None
                        end
            | None => None
            end
        | None => None
        end
    | RMove t d =>
        match q_t q !! t with
        | Some a =>
            match a_own a with
            | Some j =>
                let k := (Z.of_N (a_cur a) + d)%Z in
                if (0 <=? k)%Z && (Z.to_N k <=? len_of (q_s q) j)
                then Some (QSt (q_s q) (q_c q) (<[t := Addr (Some j) (Z.to_N k) (a_end a)]> (q_t q)), ONone) else None
            | None => None
            end
        | None => None
        end
    | RNext t =>
        match q_t q !! t with
        | Some a =>
            match a_own a with
            | Some j =>
                if a_cur a =? a_end a then Some (q, OOpt None)
                else match denotes (q_s q) a with
                     | Some x => Some (QSt (q_s q) (q_c q) (<[t := Addr (Some j) (a_cur a + 1) (a_end a)]> (q_t q)), OOpt (Some x))
                     | None => None
                     end
            | None => None
            end
        | None => None
        end
    | REq t u =>
        match q_t q !! t, q_t q !! u with
        | Some a, Some b =>
            if decide (a_own a = a_own b /\ is_Some (a_own a))
            then Some (q, OBool ((a_cur a =? a_cur b) && (a_end a =? a_end b))) else None
        | _, _ => None
        end
    end.

  (** As [hist_ok] of VecSpec, for the operations on vectors. *)
  Definition ref_ok (lmax : N) (q : qst) (o : rop) (q' : qst) : Prop :=
    match o with RVec o => hist_ok lmax (q_s q) o (q_s q') | _ => True end.
End Refs.
Global Arguments rop A : clear implicits.
Global Arguments rst A : clear implicits.
Global Arguments qst A : clear implicits.
