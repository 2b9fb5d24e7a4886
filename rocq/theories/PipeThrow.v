(** * PipeThrow: pipelines whose closures throw

    include/mstl/iter/utility.h, adapters/map.h, adapters/filter.h,
    termnals/{collect,find,fold,reduce,for_each}.h once more, as in
    [PipeModel], where every call of a closure may throw.  In each expression
    the first [k] calls return and the next one throws.

    An exception that reaches a [noexcept] function ends the program
    ([Err Panic]; whether anything is destroyed before that is up to the
    implementation).  [noexcept] are: [MapIter::next] (map.h:30),
    [FilterIter::next] (filter.h:31, 53), [find] (find.h:16, 33), [for_each]
    (for_each.h:15), [collect] (collect.h:15) and all forms of [combine]
    (utility.h:22, 35, 87).  Not [noexcept] are [fold] (fold.h:16), [reduce]
    (reduce.h:18), [operator|] (utility.h:123, 130) and the [call] of the
    holders.  A function left by an exception destroys its parameters. *)
From Verif Require Import Base World IterProps PipeModel Tri PipeProofs.
From Verif Require Import OptThrow.

Section Model.
  Context {St V It : Type}.
  Notation HM := (M St).
  Notation TM := (OptThrow.TM St).
  Context (inext : It -> HM (It * option V)) (icopy : It -> HM It) (imove : It -> It * It) (idel : It -> HM unit).
  Notation stages := (list (padapt (V := V))).

  (** A call of a closure with the value [x]. *)
  Definition call {X} (x : X) : TM X := elem (ret tt) (ret x).

  (** find.h:12-27 *)
  Fixpoint x_find (fuel : nat) (nx : It -> TM (It * option V)) (q : V -> bool) (it : It) : TM (It * option V) :=
    match fuel with
    | O => calm (fail Fuel)
    | S fuel =>
        r <~ nx it ;;
        match snd r with
        | None => tret (fst r, None)
        | Some x => b <~ call (q x) ;; if b : bool then tret (fst r, Some x) else x_find fuel nx q (fst r)
        end
    end.
  (** map.h:29-38, filter.h:30-33, 52-55: [noexcept]. *)
  Fixpoint x_next (fuel : nat) (ps : stages) (it : It) : TM (It * option V) :=
    match ps with
    | [] => calm (inext it)
    | PMap g :: r => noexcept (
        r <~ x_next fuel r it ;;
        match snd r with
        | None => tret (fst r, None)
        | Some x => y <~ call (g x) ;; tret (fst r, Some y)
        end)
    | PFilter q :: r => noexcept (noexcept (x_find fuel (x_next fuel r) q it))
    end.

  Section Pass.
    Context {R : Type} (body : It -> TM (It * R)).
    (** utility.h:127-132 with find.h:57-62 *)
    Definition x_by_ref (it : It) : TM R :=
      r <~ body it ;; calm (idel (fst r)) ~;; tret (snd r).
    (** utility.h:127-132 with fold.h:36-39, for_each.h:29-34, reduce.h:33-41;
        an exception leaves the body after it destroyed its parameter. *)
    Definition x_by_move (it : It) : TM R :=
      let '(p, it0) := imove it in
      r <~ unwinding (body p) (idel it0) ;; calm (idel (fst r)) ~;; calm (idel it0) ~;; tret (snd r).
    (** utility.h:31-39 *)
    Definition x_by_copy (it : It) : TM R :=
      p <~ calm (icopy it) ;; r <~ unwinding (body p) (idel it) ;;
      calm (idel (fst r)) ~;; calm (idel it) ~;; tret (snd r).
    (** collect.h:15-17, 23-28; utility.h:31-39 *)
    Definition x_by_copy_move (it : It) : TM R :=
      p <~ calm (icopy it) ;;
      let '(p1, p0) := imove p in
      r <~ body p1 ;; calm (idel (fst r)) ~;; calm (idel p0) ~;; calm (idel it) ~;; tret (snd r).
  End Pass.

  Section Body.
    Context (fuel : nat) (nx : It -> TM (It * option V)).
    (** fold.h:16-27: not [noexcept]; the parameter [iter] is destroyed with
        the exception. *)
    Fixpoint x_fold {A} (n : nat) (f : A -> V -> A) (a : A) (it : It) : TM (It * A) :=
      match n with
      | O => calm (fail Fuel)
      | S n =>
          r <~ nx it ;;
          match snd r with
          | None => tret (fst r, a)
          | Some x => a' <~ unwinding (call (f a x)) (idel (fst r)) ;; x_fold n f a' (fst r)
          end
      end.
    (** for_each.h:15-21: [noexcept]; what the closure does to the outside is
        the accumulator. *)
    Definition x_for_each {A} (f : A -> V -> A) (a : A) (it : It) : TM (It * A) := noexcept (x_fold fuel f a it).
    (** reduce.h:14-26: not [noexcept]. *)
    Definition x_reduce (f : V -> V -> V) (it : It) : TM (It * option V) :=
      r <~ nx it ;;
      match snd r with
      | None => tret (fst r, None)
      | Some x =>
          p <~ calm (icopy (fst r)) ;; r2 <~ unwinding (x_fold fuel f x p) (idel (fst r)) ;;
          calm (idel (fst r2)) ~;; tret (fst r, Some (snd r2))
      end.
    Definition x_find_first (q : V -> bool) (it : It) : TM (It * option V) := noexcept (x_find fuel nx q it).
    Fixpoint x_take (n : nat) (it : It) : TM (It * list (option V)) :=
      match n with
      | O => tret (it, [])
      | S n => r <~ nx it ;; r2 <~ x_take n (fst r) ;; tret (fst r2, snd r :: snd r2)
      end.
    (** vector.h:460-469, linked_list.h:753-767, inside [collect]: [noexcept]. *)
    Section Collect.
      Context {K R : Type} (knew : HM K) (kput : K -> V -> HM K) (kend : K -> HM R).
      Fixpoint x_collect_loop (n : nat) (k : K) (it : It) : TM (It * K) :=
        match n with
        | O => calm (fail Fuel)
        | S n =>
            r <~ nx it ;;
            match snd r with
            | None => tret (fst r, k)
            | Some x => k' <~ calm (kput k x) ;; x_collect_loop n k' (fst r)
            end
        end.
      Definition x_collect (it : It) : TM (It * R) :=
        k <~ calm knew ;; r <~ x_collect_loop fuel k it ;; e <~ calm (kend (snd r)) ;; tret (fst r, e).
    End Collect.
  End Body.

  (** utility.h:82-93, 31-39: [noexcept]. *)
  Fixpoint x_com {R} (n : nat) (it : It) (t : It -> TM R) : TM R :=
    match n with
    | O => noexcept (t it)
    | S n => noexcept (
        m <~ calm (p1 <-- icopy it ;; p2 <-- icopy p1 ;; m <-- icopy p2 ;; idel p2 ;;; idel p1 ;;; ret m) ;;
        r <~ x_com n m t ;; calm (idel it) ~;; tret r)
    end.
  Section Whole.
    Context (bar : bool) (fuel : nat) (ps : stages).
    Notation nx := (x_next fuel ps).
    Notation len := (length ps).
    Definition x_build {R} (t : It -> TM R) (it : It) : TM R :=
      if bar then m <~ calm (bar_stages icopy imove idel len it) ;; t m else x_com len it t.
    Definition x_run_fold {A} (f : A -> V -> A) (a : A) : It -> TM A :=
      x_build (if bar then x_by_move (x_fold nx fuel f a) else x_by_copy (x_fold nx fuel f a)).
    Definition x_run_for_each {A} (f : A -> V -> A) (a : A) : It -> TM A :=
      x_build (if bar then x_by_move (x_for_each fuel nx f a) else x_by_copy (x_for_each fuel nx f a)).
    Definition x_run_reduce (f : V -> V -> V) : It -> TM (option V) := x_build (x_by_move (x_reduce fuel nx f)).
    Definition x_run_find (q : V -> bool) : It -> TM (option V) := x_build (x_by_ref (x_find_first fuel nx q)).
    Definition x_run_collect {K R} (knew : HM K) (kput : K -> V -> HM K) (kend : K -> HM R) : It -> TM R :=
      x_build (fun it => noexcept (x_by_copy_move (x_collect fuel nx knew kput kend) it)).
    Definition x_run_take (n : nat) (it : It) : TM (list (option V)) :=
      m <~ calm (build icopy imove idel bar ps ret it) ;; x_by_ref (x_take nx n) m.
  End Whole.
End Model.

(** ** Which closure is called when, in terms of sequences *)
Section Spec.
  Context {V : Type}.
  Notation stages := (list (padapt (V := V))).
  (** One element on its way through the stages: how many closures see it, and
      what comes out. *)
  Fixpoint journey (ps : stages) (x : V) : nat * option V :=
    match ps with
    | [] => (O, Some x)
    | PMap g :: r => match journey r x with (n, Some y) => (S n, Some (g y)) | (n, None) => (n, None) end
    | PFilter q :: r =>
        match journey r x with (n, Some y) => (S n, if q y then Some y else None) | (n, None) => (n, None) end
    end.
  (** A terminal: does it ask for more after the outputs [ys], and does it call
      a closure of its own on the next one? *)
  Record habits := Habits { wants : list V -> bool; own : list V -> bool }.
  Definition h_fold : habits := Habits (fun _ => true) (fun _ => true).
  Definition h_reduce : habits := Habits (fun _ => true) (fun ys => match ys with [] => false | _ => true end).
  Definition h_find (q : V -> bool) : habits := Habits (fun ys => negb (existsb q ys)) (fun _ => true).
  Definition h_take (n : nat) : habits := Habits (fun ys => Nat.ltb (length ys) n) (fun _ => false).
  Definition h_collect : habits := Habits (fun _ => true) (fun _ => false).
  (** The closures called, in order. *)
  Inductive who := OfStage | OfTerminal.
  Fixpoint calls (t : habits) (ps : stages) (ys : list V) (xs : list V) : list who :=
    if wants t ys then
      match xs with
      | [] => []
      | x :: xs' =>
          let '(n, o) := journey ps x in
          replicate n OfStage ++
          match o with
          | None => calls t ps ys xs'
          | Some y => (if own t ys then [OfTerminal] else []) ++ calls t ps (ys ++ [y]) xs'
          end
      end
    else [].
End Spec.
Global Arguments habits : clear implicits.

Section Proofs.
  Context {H Ad V It : Type} {MM : mem H Ad}.
  Notation HM := (M H).
  Notation TM := (OptThrow.TM H).
  Notation asn := (H -> list Ad -> Prop).
  Context (rd : list Ad) (rdp : H -> Prop).
  Context (rdp_frame : forall h h', rdp h -> (forall a, a ∈ rd -> mlook h' a = mlook h a) -> rdp h').
  Context (rdp_dom : forall h a, rdp h -> a ∈ rd -> is_Some (mlook h a)).
  Notation tri := (tri rd rdp).
  Notation asn_ok := (asn_ok rd rdp).

  (** ** Triples for what ends the program, throws, or returns *)
  Inductive fate (X : Type) := Ends | Throws (E : asn) | Returns (Q : X -> nat -> asn).
  Global Arguments Ends {X}.
  Global Arguments Throws {X} _.
  Global Arguments Returns {X} _.
  Definition xtri {X} (P : asn) (m : TM X) (k : nat) (F : fate X) : Prop :=
    forall h fp, mwf h -> rdp h -> sep fp rd -> P h fp ->
      match F with
      | Ends => m (h, k) = Err Panic
      | Throws E => exists h' k' fp', m (h, k) = Ok (None, (h', k')) /\ E h' fp' /\ mupd h h' fp fp'
      | Returns Q => exists x h' k' fp', m (h, k) = Ok (Some x, (h', k')) /\ Q x k' h' fp' /\ mupd h h' fp fp'
      end.
  Definition then_nothing {X Y} (F : fate X) (G : fate Y) : Prop :=
    match F, G with Ends, Ends => True | Throws E, Throws E' => E = E' | _, _ => False end.

  Lemma x_bind {X Y} P (m : TM X) k Q (f : X -> TM Y) F :
    xtri P m k (Returns Q) -> (forall x k1, xtri (Q x k1) (f x) k1 F) -> xtri P (tbind m f) k F.
  Proof.
    intros Hm Hf h fp Hw Hr Hs Hp. destruct (Hm h fp Hw Hr Hs Hp) as (x & h1 & k1 & fp1 & E & Hq & Hu).
    destruct (upd_rd rd rdp rdp_frame rdp_dom _ _ _ _ Hw Hr Hs Hu) as (Hr1 & Hs1 & _).
    pose proof (Hf x k1 h1 fp1 (mupd_wf _ _ _ _ Hu) Hr1 Hs1 Hq) as H2. unfold tbind. rewrite E.
    destruct F as [|E2|Q2]; [done| |].
    - destruct H2 as (h2 & k2 & fp2 & -> & He & Hu2). exists h2, k2, fp2. split; [done|]. split; [done|]. by eapply mupd_trans.
    - destruct H2 as (y & h2 & k2 & fp2 & -> & He & Hu2). exists y, h2, k2, fp2. split; [done|]. split; [done|]. by eapply mupd_trans.
  Qed.
  Lemma x_bind_ends {X Y} P (m : TM X) k (f : X -> TM Y) : xtri P m k Ends -> xtri P (tbind m f) k Ends.
  Proof. intros Hm h fp Hw Hr Hs Hp. unfold tbind. by rewrite (Hm h fp Hw Hr Hs Hp). Qed.
  Lemma x_bind_throws {X Y} P (m : TM X) k E (f : X -> TM Y) : xtri P m k (Throws E) -> xtri P (tbind m f) k (Throws E).
  Proof.
    intros Hm h fp Hw Hr Hs Hp. destruct (Hm h fp Hw Hr Hs Hp) as (h1 & k1 & fp1 & E1 & Hq & Hu).
    exists h1, k1, fp1. unfold tbind. by rewrite E1.
  Qed.
  Lemma x_calm {X} P (m : HM X) k Q : tri P m Q -> xtri P (calm m) k (Returns (fun x k' => pur (k' = k) (Q x))).
  Proof.
    intros Hm h fp Hw Hr Hs Hp. destruct (Hm h fp Hw Hr Hs Hp) as (x & h1 & fp1 & E & Hq & Hu).
    exists x, h1, k, fp1. unfold calm. rewrite E. split; [done|]. split; [done|done].
  Qed.
  Lemma x_ret {X} P (x : X) k (Q : X -> nat -> asn) : asn_ok P -> ent P (Q x k) -> xtri P (tret x) k (Returns Q).
  Proof.
    intros HP He h fp Hw Hr Hs Hp.
    destruct (tri_ret rd rdp P x (fun x => Q x k) HP He h fp Hw Hr Hs Hp) as (y & h1 & fp1 & [= <- <-] & Hq & Hu).
    by exists x, h, k, fp1.
  Qed.
  Lemma x_call_ok {X} P (x : X) k : asn_ok P ->
    xtri P (call x) (S k) (Returns (fun y k' => pur (y = x /\ k' = k) P)).
  Proof.
    intros HP h fp Hw Hr Hs Hp. exists x, h, k, fp. split; [done|]. split; [done|].
    apply mupd_refl; [done|]. intros b Hb. by eapply ao_dom.
  Qed.
  Lemma x_call_throws {X} P (x : X) : asn_ok P -> xtri P (call x) 0 (Throws P).
  Proof.
    intros HP h fp Hw Hr Hs Hp. exists h, O, fp. split; [done|]. split; [done|].
    apply mupd_refl; [done|]. intros b Hb. by eapply ao_dom.
  Qed.
  Definition nox {X} (F : fate X) : fate X := match F with Throws _ => Ends | F => F end.
  Lemma x_nox {X} P (m : TM X) k F : xtri P m k F -> xtri P (noexcept m) k (nox F).
  Proof.
    intros Hm h fp Hw Hr Hs Hp. specialize (Hm h fp Hw Hr Hs Hp). unfold noexcept. destruct F as [|E|Q]; cbn [nox].
    - by rewrite Hm.
    - by destruct Hm as (h1 & k1 & fp1 & -> & _).
    - destruct Hm as (x & h1 & k1 & fp1 & -> & Hq). by exists x, h1, k1, fp1.
  Qed.
  Lemma x_unwind {X} P (m : TM X) k E E' c : xtri P m k (Throws E) -> tri E c (fun _ => E') ->
    xtri P (unwinding m c) k (Throws E').
  Proof.
    intros Hm Hc h fp Hw Hr Hs Hp. destruct (Hm h fp Hw Hr Hs Hp) as (h1 & k1 & fp1 & E1 & Hq & Hu).
    destruct (upd_rd rd rdp rdp_frame rdp_dom _ _ _ _ Hw Hr Hs Hu) as (Hr1 & Hs1 & _).
    destruct (Hc h1 fp1 (mupd_wf _ _ _ _ Hu) Hr1 Hs1 Hq) as (u & h2 & fp2 & E2 & Hq2 & Hu2).
    exists h2, k1, fp2. unfold unwinding. rewrite E1, E2. split; [done|]. split; [done|]. by eapply mupd_trans.
  Qed.
  Lemma x_unwind_returns {X} P (m : TM X) k Q c : xtri P m k (Returns Q) -> xtri P (unwinding m c) k (Returns Q).
  Proof.
    intros Hm h fp Hw Hr Hs Hp. destruct (Hm h fp Hw Hr Hs Hp) as (x & h1 & k1 & fp1 & E1 & Hq & Hu).
    exists x, h1, k1, fp1. unfold unwinding. by rewrite E1.
  Qed.
  Lemma x_unwind_ends {X} P (m : TM X) k c : xtri P m k Ends -> xtri P (unwinding m c) k Ends.
  Proof. intros Hm h fp Hw Hr Hs Hp. unfold unwinding. by rewrite (Hm h fp Hw Hr Hs Hp). Qed.
  Definition framed {X} (F : fate X) (G : asn) : fate X :=
    match F with Ends => Ends | Throws E => Throws (star E G) | Returns Q => Returns (fun x k => star (Q x k) G) end.
  Lemma x_frame {X} P (m : TM X) k F G : asn_ok G -> xtri P m k F -> xtri (star P G) m k (framed F G).
  Proof.
    intros HG Hm h fp Hw Hr Hs (f & g & -> & Hfg & Hp & Hg).
    assert (Hm' := Hm h f Hw Hr). clear Hm.
    assert (Hsf : sep f rd) by (intros b Hb; apply Hs, elem_of_app; by left). specialize (Hm' Hsf Hp).
    destruct F as [|E|Q]; cbn [framed]; [done| |].
    - destruct Hm' as (h' & k' & fp' & E1 & Hq & Hu).
      destruct (frame_upd rd rdp rdp_frame rdp_dom _ _ _ _ _ _ HG Hw Hr Hs Hfg Hg Hu) as (Hg' & Hs' & Hu').
      exists h', k', (fp' ++ g). split; [done|]. split; [|done]. by exists fp', g.
    - destruct Hm' as (x & h' & k' & fp' & E1 & Hq & Hu).
      destruct (frame_upd rd rdp rdp_frame rdp_dom _ _ _ _ _ _ HG Hw Hr Hs Hfg Hg Hu) as (Hg' & Hs' & Hu').
      exists x, h', k', (fp' ++ g). split; [done|]. split; [|done]. by exists fp', g.
  Qed.
  Definition fent {X} (F G : fate X) : Prop :=
    match F, G with
    | Ends, Ends => True
    | Throws E, Throws E' => ent E E'
    | Returns Q, Returns Q' => forall x k, ent (Q x k) (Q' x k)
    | _, _ => False
    end.
  Lemma fent_refl {X} (F : fate X) : fent F F.
  Proof. destruct F; cbn; [done|apply ent_refl|intros; apply ent_refl]. Qed.
  Lemma x_pre {X} P P' (m : TM X) k F : ent P P' -> xtri P' m k F -> xtri P m k F.
  Proof.
    intros HP Hm h fp Hw Hr Hs Hp. destruct (HP h fp Hp) as (fp1 & S1 & Hp1).
    assert (Hs1 : sep fp1 rd) by (intros b Hb; apply Hs; by apply S1).
    specialize (Hm h fp1 Hw Hr Hs1 Hp1). destruct F as [|E|Q]; [done| |].
    - destruct Hm as (h' & k' & fp' & E1 & Hq & Hu). exists h', k', fp'. split; [done|]. split; [done|].
      eapply mupd_equiv; [| |exact Hu]; [|done]. intros b. symmetry. apply S1.
    - destruct Hm as (x & h' & k' & fp' & E1 & Hq & Hu). exists x, h', k', fp'. split; [done|]. split; [done|].
      eapply mupd_equiv; [| |exact Hu]; [|done]. intros b. symmetry. apply S1.
  Qed.
  Lemma x_post {X} P (m : TM X) k F G : xtri P m k F -> fent F G -> xtri P m k G.
  Proof.
    intros Hm HF h fp Hw Hr Hs Hp. specialize (Hm h fp Hw Hr Hs Hp). destruct F as [|E|Q], G as [|E'|Q']; try done; cbn [fent] in HF.
    - destruct Hm as (h' & k' & fp' & E1 & Hq & Hu). destruct (HF h' fp' Hq) as (fp3 & S3 & Hq3).
      exists h', k', fp3. split; [done|]. split; [done|]. eapply mupd_equiv; [|exact S3|exact Hu]. done.
    - destruct Hm as (x & h' & k' & fp' & E1 & Hq & Hu). destruct (HF x k' h' fp' Hq) as (fp3 & S3 & Hq3).
      exists x, h', k', fp3. split; [done|]. split; [done|]. eapply mupd_equiv; [|exact S3|exact Hu]. done.
  Qed.
  Lemma x_pur {X} (p : Prop) P (m : TM X) k F : (p -> xtri P m k F) -> xtri (pur p P) m k F.
  Proof. intros Hm h fp Hw Hr Hs [Hp HP]. by apply Hm. Qed.
  Lemma x_ex {X Y} (P : Y -> asn) (m : TM X) k F : (forall y, xtri (P y) m k F) -> xtri (ex P) m k F.
  Proof. intros Hm h fp Hw Hr Hs [y HP]. by apply (Hm y). Qed.

  (** ** The source *)
  Context (inext : It -> HM (It * option V)) (icopy : It -> HM It) (imove : It -> It * It) (idel : It -> HM unit).
  Notation stages := (list (padapt (V := V))).
  Context (Sr : It -> list V -> asn) (Sr_ok : forall it xs, asn_ok (Sr it xs)).
  Context (next_tri : forall it xs,
    tri (Sr it xs) (inext it) (fun r => pur (snd r = head xs) (Sr (fst r) (tail xs)))).
  Context (del_tri : forall it xs, tri (Sr it xs) (idel it) (fun _ => emp)).

  (** ** Asking for an element: the elements used up until one comes out *)
  Fixpoint adv (ps : stages) (k : nat) (xs : list V) : option (nat * option V * list V) :=
    match xs with
    | [] => Some (k, None, [])
    | x :: xs' =>
        if Nat.ltb k (fst (journey ps x)) then None else
        match snd (journey ps x) with
        | Some y => Some (k - fst (journey ps x), Some y, xs')
        | None => adv ps (k - fst (journey ps x)) xs'
        end
    end.
  Lemma adv_len (ps : stages) : forall xs k k' o xs', adv ps k xs = Some (k', o, xs') ->
    length xs' <= length xs /\ (is_Some o -> length xs' < length xs).
  Proof.
    clear. induction xs as [|x xs IH]; intros k k' o xs'; cbn [adv].
    { intros [= <- <- <-]. split; [done|]. by intros []. }
    destruct (Nat.ltb_spec k (fst (journey ps x))); [done|]. destruct (snd (journey ps x)).
    - intros [= <- <- <-]. cbn. split; lia.
    - intros E%IH. destruct E as [E1 E2]. cbn. split; [lia|]. intros Ho. specialize (E2 Ho). lia.
  Qed.
  Lemma adv_nil k xs : adv [] k xs = Some (k, head xs, tail xs).
  Proof. clear. destruct xs; [done|]. cbn. by rewrite Nat.sub_0_r. Qed.
  Lemma adv_map g r : forall xs k, adv (PMap g :: r) k xs =
    match adv r k xs with
    | Some (S k', Some y, xs') => Some (k', Some (g y), xs')
    | Some (0, Some y, xs') => None
    | o => o
    end.
  Proof.
    clear. induction xs as [|x xs IH]; intros k; cbn [adv]; [by destruct k|]. cbn [journey].
    destruct (journey r x) as [n [y|]]; cbn [fst snd].
    - destruct (Nat.ltb_spec k (S n)), (Nat.ltb_spec k n); try lia; [done| |].
      + replace (k - n) with 0 by lia. done.
      + destruct (k - n) as [|k'] eqn:E; [lia|]. by replace (k - S n) with k' by lia.
    - destruct (Nat.ltb_spec k n); [done|]. apply IH.
  Qed.
  Lemma adv_filter q r : forall xs k, adv (PFilter q :: r) k xs =
    match adv r k xs with
    | Some (S k', Some y, xs') => if q y then Some (k', Some y, xs') else adv (PFilter q :: r) k' xs'
    | Some (0, Some y, xs') => None
    | o => o
    end.
  Proof.
    clear. induction xs as [|x xs IH]; intros k; cbn [adv]; [by destruct k|]. cbn [journey].
    destruct (journey r x) as [n [y|]]; cbn [fst snd].
    - destruct (Nat.ltb_spec k (S n)), (Nat.ltb_spec k n); try lia; [done| |].
      + replace (k - n) with 0 by lia. done.
      + destruct (k - n) as [|k'] eqn:E; [lia|]. replace (k - S n) with k' by lia. by destruct (q y).
    - destruct (Nat.ltb_spec k n); [done|]. apply IH.
  Qed.
  Lemma denote_cons (ps : stages) x xs : denote ps (x :: xs) = match snd (journey ps x) with Some y => y :: denote ps xs | None => denote ps xs end.
  Proof.
    clear. induction ps as [|[g|q] r IH]; cbn [denote journey]; [done|..]; rewrite IH; destruct (journey r x) as [n [y|]]; cbn; try done.
    by destruct (q y).
  Qed.
  Lemma denote_nil (ps : stages) : denote ps [] = [].
  Proof. clear. induction ps as [|[g|q] r IH]; cbn; [done|by rewrite IH..]. Qed.
  (** What the next request does to the record of calls. *)
  Lemma calls_adv (t : habits V) (ps : stages) ys : wants t ys = true -> forall xs k,
    match adv ps k xs with
    | None => calls t ps ys xs !! k = Some OfStage
    | Some (k', None, xs') => calls t ps ys xs !! k = None /\ denote ps xs = []
    | Some (k', Some y, xs') =>
        calls t ps ys xs !! k = ((if own t ys then [OfTerminal] else []) ++ calls t ps (ys ++ [y]) xs') !! k' /\
        denote ps xs = y :: denote ps xs' /\ length xs' < length xs
    end.
  Proof.
    clear. intros Hw. induction xs as [|x xs IH]; intros k; cbn [adv calls]; rewrite Hw.
    { split; [done|]. apply denote_nil. }
    pose proof (denote_cons ps x xs) as Hd. destruct (journey ps x) as [n o]. cbn [fst snd] in *.
    destruct (Nat.ltb_spec k n) as [Hk|Hk].
    { rewrite lookup_app_l by (by rewrite replicate_length). by apply lookup_replicate_2. }
    rewrite lookup_app_r by (by rewrite replicate_length). rewrite replicate_length.
    destruct o as [y|]; [split; [done|split; [done|cbn; lia]]|].
    specialize (IH (k - n)). destruct (adv ps (k - n) xs) as [[[k' [y|]] xs']|]; [|by rewrite Hd|done].
    destruct IH as (I1 & I2 & I3). rewrite Hd. split; [done|]. split; [done|]. cbn. lia.
  Qed.

  (** ** [next()] of a pipeline *)
  Definition steps (r : option (nat * option V * list V)) : fate (It * option V) :=
    match r with
    | None => Ends
    | Some (k', o, xs') => Returns (fun r k => pur (k = k' /\ snd r = o) (Sr (fst r) xs'))
    end.
  Definition nexts_t (b : nat) (ps : stages) (nx : It -> TM (It * option V)) : Prop :=
    forall it xs k, length xs <= b -> xtri (Sr it xs) (nx it) k (steps (adv ps k xs)).
  Lemma x_step {X} ps b nx it xs k (f : It * option V -> TM X) F : nexts_t b ps nx -> length xs <= b ->
    match adv ps k xs with
    | None => F = Ends
    | Some (k', o, xs') => forall it', xtri (Sr it' xs') (f (it', o)) k' F
    end -> xtri (Sr it xs) (tbind (nx it) f) k F.
  Proof.
    intros Hn Hb Hf. specialize (Hn it xs k Hb). destruct (adv ps k xs) as [[[k' o] xs']|]; cbn [steps] in Hn.
    - eapply x_bind; [exact Hn|]. intros [it' o'] k1. apply x_pur. cbn [fst snd]. intros [-> ->]. apply Hf.
    - subst F. by apply x_bind_ends.
  Qed.
  Lemma x_ret_src {X} it xs (x : X) k Q : ent (Sr it xs) (Q x k) -> xtri (Sr it xs) (tret x) k (Returns Q).
  Proof. apply x_ret, Sr_ok. Qed.
  Lemma nox_nox {X} (F : fate X) : nox (nox F) = nox F.
  Proof. by destruct F. Qed.

  (** [find] is one more filter; what throws ends the program. *)
  Lemma x_find_some b ps nx q : nexts_t b ps nx -> forall fuel xs k, length xs <= b -> length xs < fuel ->
    exists F, nox F = steps (adv (PFilter q :: ps) k xs) /\ forall it, xtri (Sr it xs) (x_find fuel nx q it) k F.
  Proof.
    intros Hnx. induction fuel as [|fuel IH]; intros xs k Hb Hf; [lia|]. cbn [x_find]. rewrite adv_filter.
    pose proof (adv_len ps xs k) as Hl. destruct (adv ps k xs) as [[[k1 [y|]] xs1]|] eqn:E.
    - destruct (Hl _ _ _ eq_refl) as [L1 L2]. specialize (L2 ltac:(done)). destruct k1 as [|k1].
      + exists (Throws (ex (fun i => Sr i xs1))). split; [done|]. intros it.
        eapply x_step; [exact Hnx|done|]. rewrite E. intros it'. cbn [fst snd]. apply x_bind_throws.
        eapply x_post; [apply x_call_throws, Sr_ok|]. intros h fp Hp. exists fp. split; [done|]. by exists it'.
      + destruct (q y) eqn:Eq.
        * exists (steps (Some (k1, Some y, xs1))). split; [done|]. intros it.
          eapply x_step; [exact Hnx|done|]. rewrite E. intros it'. cbn [fst snd].
          eapply x_bind; [apply x_call_ok, Sr_ok|]. intros c k'. apply x_pur. intros [-> ->]. rewrite Eq.
          apply x_ret_src. intros h fp Hp. by exists fp.
        * destruct (IH xs1 k1 ltac:(lia) ltac:(lia)) as (F & HF & Hall). exists F. split; [done|]. intros it.
          eapply x_step; [exact Hnx|done|]. rewrite E. intros it'. cbn [fst snd].
          eapply x_bind; [apply x_call_ok, Sr_ok|]. intros c k'. apply x_pur. intros [-> ->]. rewrite Eq. apply Hall.
    - exists (steps (Some (k1, None, xs1))). split; [by destruct k1|]. intros it.
      eapply x_step; [exact Hnx|done|]. rewrite E. intros it'. cbn [fst snd].
      apply x_ret_src. intros h fp Hp. by exists fp.
    - exists Ends. split; [done|]. intros it. eapply x_step; [exact Hnx|done|]. by rewrite E.
  Qed.
  Lemma x_find_tri b ps nx q fuel it xs k : nexts_t b ps nx -> length xs <= b -> length xs < fuel ->
    xtri (Sr it xs) (noexcept (x_find fuel nx q it)) k (steps (adv (PFilter q :: ps) k xs)).
  Proof.
    intros Hnx Hb Hf. destruct (x_find_some b ps nx q Hnx fuel xs k Hb Hf) as (F & <- & HF). apply x_nox, HF.
  Qed.
  Lemma steps_nox r : nox (steps r) = steps r.
  Proof. by destruct r as [[[??]?]|]. Qed.
  Lemma x_next_tri fuel b : b < fuel -> forall ps, nexts_t b ps (x_next inext fuel ps).
  Proof.
    intros Hf. induction ps as [|[g|q] r IH]; intros it xs k Hb; cbn [x_next].
    - rewrite adv_nil. cbn [steps]. eapply x_post; [apply x_calm, next_tri|]. intros [it' o] k' h fp [-> [Ho Hp]]. by exists fp.
    - rewrite <-steps_nox. destruct (adv (PMap g :: r) k xs) as [[[k2 o2] xs2]|] eqn:E2; rewrite adv_map in E2.
      + apply x_nox. eapply x_step; [exact IH|done|].
        destruct (adv r k xs) as [[[k1 [y|]] xs1]|] eqn:E; [| |done]; intros it'; cbn [fst snd].
        * destruct k1 as [|k1]; [done|]. injection E2 as <- <- <-.
          eapply x_bind; [apply x_call_ok, Sr_ok|]. intros c k'. apply x_pur. intros [-> ->].
          apply x_ret_src. intros h fp Hp. by exists fp.
        * assert (k1 = k2 /\ None = o2 /\ xs1 = xs2) as (<- & <- & <-) by (by destruct k1; injection E2).
          apply x_ret_src. intros h fp Hp. by exists fp.
      + destruct (adv r k xs) as [[[k1 [y|]] xs1]|] eqn:E.
        * destruct k1 as [|k1]; [|done]. apply (x_nox _ _ _ (Throws (ex (fun i => Sr i xs1)))).
          eapply x_step; [exact IH|done|]. rewrite E. intros it'. cbn [fst snd]. apply x_bind_throws.
          eapply x_post; [apply x_call_throws, Sr_ok|]. intros h fp Hp. exists fp. split; [done|]. by exists it'.
        * by destruct k1.
        * apply (x_nox _ _ _ Ends). eapply x_step; [exact IH|done|]. by rewrite E.
    - rewrite <-steps_nox. apply x_nox. by apply (x_find_tri b); [|done|lia].
  Qed.

  (** ** Terminals *)
  Definition verdict {X} (out : bool) (cs : list who) (k : nat) (E : asn) (Q : X -> asn) : fate X :=
    match cs !! k with
    | None => Returns (fun x _ => Q x)
    | Some OfStage => Ends
    | Some OfTerminal => if out then Throws E else Ends
    end.
  Lemma verdict_nox {X} cs k E (Q : X -> asn) : nox (verdict true cs k E Q) = verdict false cs k E Q.
  Proof. clear. unfold verdict. by destruct (cs !! k) as [[]|]. Qed.
  Notation leaves := (leaves Sr).
  Lemma x_fold_tri {A} b ps nx (f : A -> V -> A) (t : habits V) : nexts_t b ps nx -> forall n ys xs a k it,
    length xs <= b -> length xs < n ->
    (forall zs, wants t (ys ++ zs) = true) -> (forall zs, own t (ys ++ zs) = true) ->
    xtri (Sr it xs) (x_fold idel nx n f a it) k
      (verdict true (calls t ps ys xs) k emp (leaves (pureQ (fold_left f (denote ps xs) a)))).
  Proof.
    intros Hnx. induction n as [|n IH]; intros ys xs a k it Hb Hn Hw Ho; [lia|]. cbn [x_fold].
    pose proof (Hw []) as Hw0. pose proof (Ho []) as Ho0. rewrite app_nil_r in Hw0, Ho0.
    pose proof (calls_adv t ps ys Hw0 xs k) as Hc. eapply x_step; [exact Hnx|done|].
    destruct (adv ps k xs) as [[[k1 [y|]] xs1]|] eqn:E.
    - destruct Hc as (Hc & Hd & Hl). intros it'. cbn [fst snd]. unfold verdict. rewrite Hc, Hd, Ho0. cbn [fold_left app].
      destruct k1 as [|k1]; cbn [lookup list_lookup].
      + apply x_bind_throws. eapply x_unwind; [apply x_call_throws, Sr_ok|]. apply del_tri.
      + eapply x_bind; [apply x_unwind_returns, x_call_ok, Sr_ok|]. intros a' k'. apply x_pur. intros [-> ->].
        apply IH; [lia|lia|intros zs; rewrite <-app_assoc; apply Hw|intros zs; rewrite <-app_assoc; apply Ho].
    - destruct Hc as (Hc & Hd). intros it'. unfold verdict. rewrite Hc, Hd. cbn [fst snd].
      apply x_ret_src. intros h fp Hp. by eapply leaves_pure.
    - unfold verdict. by rewrite Hc.
  Qed.
  Lemma calls_nil (t : habits V) ps ys : calls t ps ys [] = [].
  Proof. clear. cbn. by destruct (wants t ys). Qed.
  Lemma adv_none ps : forall xs k k' xs', adv ps k xs = Some (k', None, xs') -> xs' = [].
  Proof.
    clear. induction xs as [|x xs IH]; intros k k' xs'; cbn [adv]; [by intros [= <- <-]|].
    destruct (Nat.ltb_spec k (fst (journey ps x))); [done|]. destruct (snd (journey ps x)); [done|]. apply IH.
  Qed.
  Lemma x_take_tri b ps nx m : nexts_t b ps nx -> forall n ys xs k it, length xs <= b -> xs = [] \/ length ys + n = m ->
    xtri (Sr it xs) (x_take nx n it) k
      (verdict true (calls (h_take m) ps ys xs) k emp (leaves (pureQ ((fun i => denote ps xs !! i) <$> seq 0 n)))).
  Proof.
    intros Hnx. induction n as [|n IH]; intros ys xs k it Hb Hm; cbn [x_take].
    { assert (calls (h_take m) ps ys xs = []) as ->.
      { destruct xs; [apply calls_nil|]. destruct Hm as [Hm|Hm]; [done|].
        cbn [calls h_take wants]; destruct (Nat.ltb_spec (length ys) m); try done; lia. }
      apply x_ret_src. intros h fp Hp. by eapply leaves_pure. }
    assert (Hgo : forall it' o xs1 ys1 k1, length xs1 <= b -> xs1 = [] \/ length ys1 + n = m ->
      o = denote ps xs !! 0 -> (forall i, denote ps xs !! S i = denote ps xs1 !! i) ->
      calls (h_take m) ps ys xs !! k = calls (h_take m) ps ys1 xs1 !! k1 ->
      xtri (Sr it' xs1) (r2 <~ x_take nx n it' ;; tret (fst r2, o :: snd r2)) k1
        (verdict true (calls (h_take m) ps ys xs) k emp (leaves (pureQ ((fun i => denote ps xs !! i) <$> seq 0 (S n)))))).
    { intros it' o xs1 ys1 k1 Hb1 Hm1 Ho Hd Hc. specialize (IH ys1 xs1 k1 it' Hb1 Hm1). unfold verdict in *. rewrite Hc.
      destruct (calls (h_take m) ps ys1 xs1 !! k1) as [[]|].
      - by apply x_bind_ends.
      - by apply x_bind_throws.
      - eapply x_bind; [exact IH|]. intros [it2 os] k2. cbn [fst snd]. apply x_ex. intros zs. cbn [fst snd].
        apply x_ret; [apply star_ok; [apply Sr_ok|apply pureQ_ok]|].
        intros h fp (f & g & -> & Hs & Hp & Hos & Hg). exists (f ++ g). split; [done|].
        exists zs, f, g. split; [done|]. split; [done|]. split; [done|]. split; [|done]. cbn [snd].
        rewrite Hos, Ho. cbn [seq]. rewrite fmap_cons. f_equal.
        rewrite <-fmap_S_seq, <-list_fmap_compose. apply list_fmap_ext. intros i j _. cbn. symmetry. apply Hd. }
    destruct (decide (xs = [])) as [->|Hne].
    { eapply x_step; [exact Hnx|done|]. cbn [adv]. intros it'. cbn [fst snd]. apply (Hgo it' None [] ys k).
      - done.
      - by left.
      - by rewrite denote_nil.
      - intros i. by rewrite denote_nil.
      - done. }
    destruct Hm as [Hm|Hm]; [done|].
    assert (Hw : wants (h_take m) ys = true) by (cbn; apply Nat.ltb_lt; lia).
    pose proof (calls_adv (h_take m) ps ys Hw xs k) as Hc. pose proof (adv_len ps xs k) as Hlen. pose proof (adv_none ps xs k) as Hnone.
    eapply x_step; [exact Hnx|done|]. destruct (adv ps k xs) as [[[k1 [y|]] xs1]|] eqn:E.
    - destruct Hc as (Hc & Hd & Hl). intros it'. cbn [fst snd]. apply (Hgo it' (Some y) xs1 (ys ++ [y]) k1).
      + lia.
      + right. rewrite app_length. cbn. lia.
      + by rewrite Hd.
      + intros i. by rewrite Hd.
      + exact Hc.
    - destruct Hc as (Hc & Hd). specialize (Hnone _ _ eq_refl) as ->. intros it'. cbn [fst snd].
      apply (Hgo it' None [] ys k1).
      + cbn. lia.
      + by left.
      + by rewrite Hd.
      + intros i. by rewrite Hd, denote_nil.
      + by rewrite Hc, calls_nil.
    - unfold verdict. by rewrite Hc.
  Qed.
  (** [find]: the predicate is called on one output after the other. *)
  Lemma find_calls q ps ys : forall xs k, existsb q ys = false ->
    match adv (PFilter q :: ps) k xs with
    | None => is_Some (calls (h_find q) ps ys xs !! k)
    | Some (_, o, _) => calls (h_find q) ps ys xs !! k = None /\ o = List.find q (denote ps xs)
    end.
  Proof.
    clear. intros xs. remember (length xs) as n eqn:En. assert (Hn : length xs <= n) by lia. clear En. revert ys xs Hn.
    induction n as [|n IH]; intros ys xs Hn k He; rewrite adv_filter;
      pose proof (calls_adv (h_find q) ps ys ltac:(cbn; by rewrite He) xs k) as Hc;
      destruct (adv ps k xs) as [[[k1 [y|]] xs1]|] eqn:E.
    - destruct Hc as (_ & _ & Hl). lia.
    - destruct Hc as [Hc Hd]. rewrite Hd. by destruct k1.
    - by rewrite Hc.
    - destruct Hc as (Hc & Hd & Hl). rewrite Hc, Hd. cbn [h_find own app List.find]. destruct k1 as [|k1]; [by eexists|].
      cbn [lookup list_lookup]. destruct (q y) eqn:Eq.
      + assert (calls (h_find q) ps (ys ++ [y]) xs1 = []) as ->; [|done].
        assert (wants (h_find q) (ys ++ [y]) = false) as Hw.
        { cbn. rewrite existsb_app. cbn. by rewrite Eq, orb_true_r. }
        destruct xs1; cbn [calls]; by rewrite Hw.
      + apply IH; [lia|]. rewrite existsb_app. cbn. by rewrite He, Eq.
    - destruct Hc as [Hc Hd]. rewrite Hd. by destruct k1.
    - by rewrite Hc.
  Qed.
  Lemma x_find_first_tri b ps nx q fuel it xs k : nexts_t b ps nx -> length xs <= b -> length xs < fuel ->
    xtri (Sr it xs) (x_find_first fuel nx q it) k
      (verdict false (calls (h_find q) ps [] xs) k emp (leaves (pureQ (List.find q (denote ps xs))))).
  Proof.
    intros Hnx Hb Hf. pose proof (find_calls q ps [] xs k eq_refl) as Hc. unfold x_find_first.
    eapply x_post; [by apply (x_find_tri b ps)|]. destruct (adv (PFilter q :: ps) k xs) as [[[k1 o] xs1]|]; unfold verdict; cbn [steps].
    - destruct Hc as [-> ->]. intros [it' o] k' h fp [[-> Ho] Hp]. cbn [fst snd] in *. subst o. by eapply leaves_pure.
    - by destruct Hc as [[] ->].
  Qed.

  (** ** Passing the iterator along *)
  Context (move_ent : forall it xs, ent (Sr it xs) (Sr (fst (imove it)) xs)).
  Context (left_tri : forall it, tri emp (idel (snd (imove it))) (fun _ => emp)).
  Context (copy_tri : forall it xs, tri (Sr it xs) (icopy it) (fun it' => star (Sr it' xs) (Sr it xs))).
  Notation delT := (del_frame rd rdp rdp_frame rdp_dom idel Sr del_tri).
  Notation delL := (del_frame_l rd rdp rdp_frame rdp_dom idel Sr del_tri).
  Notation leftT := (left_frame rd rdp rdp_frame rdp_dom imove idel left_tri).

  Lemma x_then {X Y} P (m : HM X) k (Q : X -> asn) (f : X -> TM Y) F : tri P m Q -> (forall x, xtri (Q x) (f x) k F) ->
    xtri P (tbind (calm m) f) k F.
  Proof. intros Hm Hf. eapply x_bind; [by apply x_calm|]. intros x k'. apply x_pur. intros ->. apply Hf. Qed.

  Section Result.
    Context {R : Type} (Q : R -> asn) (Q_ok : forall r, asn_ok (Q r)).
    Definition bodies (out : bool) (cs : list who) (k : nat) (xs : list V) (b : It -> TM (It * R)) : Prop :=
      forall it, xtri (Sr it xs) (b it) k (verdict out cs k emp (leaves Q)).
    Lemma x_drop it (r : R) G k (f : TM R) F : asn_ok G ->
      xtri (star (Q r) G) f k F -> xtri (star (leaves Q (it, r)) G) (calm (idel it) ~;; f) k F.
    Proof using Q_ok Sr_ok del_tri rdp_dom rdp_frame.
      intros HG Hf. eapply x_pre; [|apply (x_ex (fun ys => star (Sr it ys) (star (Q r) G)))].
      { intros h fp (f1 & g & -> & Hs & (ys & Hp) & Hg).
        destruct (star_assoc' (Sr it ys) (Q r) G h (f1 ++ g)) as (fp' & S1 & Hp1); [by exists f1, g|].
        exists fp'. split; [done|]. by exists ys. }
      intros ys. eapply x_then; [apply delT, star_ok; [apply Q_ok|done]|]. intros ?; cbn beta. exact Hf.
    Qed.
    Lemma x_drop0 it (r : R) k (f : TM R) F :
      xtri (Q r) f k F -> xtri (leaves Q (it, r)) (calm (idel it) ~;; f) k F.
    Proof using Q_ok Sr_ok del_tri rdp_dom rdp_frame.
      intros Hf. eapply x_pre; [apply star_emp_r|]. apply x_drop; [apply emp_ok|].
      eapply x_pre; [apply star_emp_r'|done].
    Qed.
    Lemma x_by_ref_tri out cs k xs b : bodies out cs k xs b ->
      forall it, xtri (Sr it xs) (x_by_ref idel b it) k (verdict out cs k emp Q).
    Proof using Q_ok Sr_ok del_tri rdp_dom rdp_frame.
      intros Hb it. specialize (Hb it). unfold x_by_ref, verdict in *. destruct (cs !! k) as [[]|].
      - by apply x_bind_ends.
      - destruct out; [by apply x_bind_throws|by apply x_bind_ends].
      - eapply x_bind; [exact Hb|]. intros [it' r] k1. cbn [fst snd]. apply x_drop0.
        apply x_ret; [apply Q_ok|apply ent_refl].
    Qed.
    Lemma x_by_move_tri out cs k xs b : bodies out cs k xs b ->
      forall it, xtri (Sr it xs) (x_by_move imove idel b it) k (verdict out cs k emp Q).
    Proof using Q_ok Sr_ok del_tri rdp_dom rdp_frame move_ent left_tri.
      intros Hb it. unfold x_by_move. pose proof (move_ent it xs) as Hm. pose proof (leftT it) as Hl.
      destruct (imove it) as [p it0]. cbn [fst snd] in *. eapply x_pre; [exact Hm|]. specialize (Hb p).
      unfold verdict in *. destruct (cs !! k) as [[]|].
      - by apply x_bind_ends, x_unwind_ends.
      - destruct out; [|by apply x_bind_ends, x_unwind_ends].
        apply x_bind_throws. eapply x_unwind; [exact Hb|]. apply Hl, emp_ok.
      - eapply x_bind; [apply x_unwind_returns, Hb|]. intros [it' r] k1. cbn [fst snd]. apply x_drop0.
        eapply x_then; [apply Hl, Q_ok|]. intros ?; cbn beta. apply x_ret; [apply Q_ok|apply ent_refl].
    Qed.
    Lemma x_by_copy_tri out cs k xs b : bodies out cs k xs b ->
      forall it, xtri (Sr it xs) (x_by_copy icopy idel b it) k (verdict out cs k emp Q).
    Proof using Q_ok Sr_ok del_tri rdp_dom rdp_frame copy_tri.
      intros Hb it. unfold x_by_copy. eapply x_then; [apply copy_tri|]. intros p.
      pose proof (x_frame _ _ _ _ (Sr it xs) (Sr_ok it xs) (Hb p)) as Hf.
      unfold verdict in *. destruct (cs !! k) as [[]|].
      - by apply x_bind_ends, x_unwind_ends.
      - destruct out; [|by apply x_bind_ends, x_unwind_ends].
        apply x_bind_throws. eapply x_unwind; [exact Hf|]. apply delL, emp_ok.
      - eapply x_bind; [apply x_unwind_returns, Hf|]. intros [it' r] k1. cbn [fst snd]. apply x_drop; [apply Sr_ok|].
        eapply x_then; [apply delL, Q_ok|]. intros ?; cbn beta. apply x_ret; [apply Q_ok|apply ent_refl].
    Qed.
    Lemma x_by_copy_move_tri cs k xs b : bodies false cs k xs b ->
      forall it, xtri (Sr it xs) (x_by_copy_move icopy imove idel b it) k (verdict false cs k emp Q).
    Proof using Q_ok Sr_ok del_tri rdp_dom rdp_frame move_ent left_tri copy_tri.
      intros Hb it. unfold x_by_copy_move. eapply x_then; [apply copy_tri|]. intros p.
      pose proof (move_ent p xs) as Hm. pose proof (leftT p) as Hl. destruct (imove p) as [p1 p0]. cbn [fst snd] in *.
      eapply x_pre; [apply ent_star; [exact Hm|apply ent_refl]|].
      pose proof (x_frame _ _ _ _ (Sr it xs) (Sr_ok it xs) (Hb p1)) as Hf.
      unfold verdict in *. destruct (cs !! k) as [[]|].
      - by apply x_bind_ends.
      - by apply x_bind_ends.
      - eapply x_bind; [exact Hf|]. intros [it' r] k1. cbn [fst snd]. apply x_drop; [apply Sr_ok|].
        eapply x_then; [apply Hl, star_ok; [apply Q_ok|apply Sr_ok]|]. intros ?; cbn beta.
        eapply x_then; [apply delL, Q_ok|]. intros ?; cbn beta. apply x_ret; [apply Q_ok|apply ent_refl].
    Qed.

    (** Building stages. *)
    Lemma three_copies it xs : tri (Sr it xs)
      (p1 <-- icopy it ;; p2 <-- icopy p1 ;; m <-- icopy p2 ;; idel p2 ;;; idel p1 ;;; ret m)
      (fun m => star (Sr m xs) (Sr it xs)).
    Proof using Sr_ok del_tri rdp_dom rdp_frame copy_tri.
      eapply (tri_bind rd rdp rdp_frame rdp_dom); [apply copy_tri|]. intros p1.
      eapply (tri_bind rd rdp rdp_frame rdp_dom); [apply (tri_frame rd rdp rdp_frame rdp_dom); [apply Sr_ok|apply copy_tri]|].
      intros p2. eapply tri_pre; [apply star_assoc'|].
      eapply (tri_bind rd rdp rdp_frame rdp_dom); [apply (tri_frame rd rdp rdp_frame rdp_dom); [apply star_ok; apply Sr_ok|apply copy_tri]|].
      intros m. eapply tri_pre; [apply ent_star; [apply star_comm|apply ent_refl]|].
      eapply tri_pre; [apply star_assoc'|].
      eapply (tri_bind rd rdp rdp_frame rdp_dom); [apply delT, star_ok; [apply Sr_ok|apply star_ok; apply Sr_ok]|]. intros ?; cbn beta.
      eapply tri_pre; [apply star_comm|]. eapply tri_pre; [apply star_assoc'|].
      eapply (tri_bind rd rdp rdp_frame rdp_dom); [apply delT, star_ok; apply Sr_ok|]. intros ?; cbn beta.
      apply tri_ret; [apply star_ok; apply Sr_ok|apply star_comm].
    Qed.
    Lemma x_com_tri out cs k xs (t : It -> TM R) : (forall it, xtri (Sr it xs) (t it) k (verdict out cs k emp Q)) ->
      forall n it, xtri (Sr it xs) (x_com icopy idel n it t) k (verdict false cs k emp Q).
    Proof using Q_ok Sr_ok del_tri rdp_dom rdp_frame copy_tri.
      intros Ht. assert (Hv : forall o, nox (verdict o cs k emp Q) = verdict false cs k emp Q).
      { intros o. unfold verdict. destruct (cs !! k) as [[]|]; try done. by destruct o. }
      induction n as [|n IH]; intros it; cbn [x_com]; rewrite <-(Hv out); [apply x_nox, Ht|]. rewrite Hv, <-(Hv false).
      apply x_nox. eapply x_then; [apply three_copies|]. intros m.
      pose proof (x_frame _ _ _ _ (Sr it xs) (Sr_ok it xs) (IH m)) as Hf.
      unfold verdict in *. destruct (cs !! k) as [[]|].
      - by apply x_bind_ends.
      - by apply x_bind_ends.
      - eapply x_bind; [exact Hf|]. intros r k1. eapply x_then; [apply delL, Q_ok|]. intros ?; cbn beta.
        apply x_ret; [apply Q_ok|apply ent_refl].
    Qed.
    Lemma x_build_tri out' out cs k xs bar (ps : stages) (t : It -> TM R) : out' = (bar && out) ->
      (forall it, xtri (Sr it xs) (t it) k (verdict out cs k emp Q)) ->
      forall it, xtri (Sr it xs) (x_build icopy imove idel bar ps t it) k (verdict out' cs k emp Q).
    Proof using Q_ok Sr_ok del_tri rdp_dom rdp_frame copy_tri move_ent left_tri.
      intros -> Ht it. unfold x_build. destruct bar; cbn [andb]; [|by eapply x_com_tri].
      eapply x_then; [by apply (bar_stages_tri rd rdp rdp_frame rdp_dom icopy imove idel Sr Sr_ok del_tri)|]. intros m. apply Ht.
    Qed.
  End Result.

  (** ** Whole expressions *)
  Section Whole.
    Context (bar : bool) (fuel : nat) (ps : stages) (xs : list V) (Hf : length xs < fuel).
    Notation nxT := (x_next_tri fuel (length xs) Hf ps).
    Theorem x_run_fold_tri {A} (f : A -> V -> A) a it k :
      xtri (Sr it xs) (x_run_fold inext icopy imove idel bar fuel ps f a it) k
        (verdict bar (calls h_fold ps [] xs) k emp (pureQ (fold_left f (denote ps xs) a))).
    Proof.
      unfold x_run_fold. eapply (x_build_tri _ ltac:(intros; apply pureQ_ok) _ true); [by destruct bar|]. intros it'.
      assert (Hb : bodies (pureQ (fold_left f (denote ps xs) a)) true (calls h_fold ps [] xs) k xs
        (x_fold idel (x_next inext fuel ps) fuel f a)).
      { intros it2. by apply (x_fold_tri (length xs) ps _ _ _ nxT). }
      destruct bar; [apply x_by_move_tri|apply x_by_copy_tri]; try done; intros; apply pureQ_ok.
    Qed.
    Theorem x_run_for_each_tri {A} (f : A -> V -> A) a it k :
      xtri (Sr it xs) (x_run_for_each inext icopy imove idel bar fuel ps f a it) k
        (verdict false (calls h_fold ps [] xs) k emp (pureQ (fold_left f (denote ps xs) a))).
    Proof.
      unfold x_run_for_each. eapply (x_build_tri _ ltac:(intros; apply pureQ_ok) _ false); [by destruct bar|]. intros it'.
      assert (Hb : bodies (pureQ (fold_left f (denote ps xs) a)) false (calls h_fold ps [] xs) k xs
        (x_for_each idel fuel (x_next inext fuel ps) f a)).
      { intros it2. rewrite <-verdict_nox. apply x_nox. by apply (x_fold_tri (length xs) ps _ _ _ nxT). }
      destruct bar; [apply x_by_move_tri|apply x_by_copy_tri]; try done; intros; apply pureQ_ok.
    Qed.
    Theorem x_run_find_tri (q : V -> bool) it k :
      xtri (Sr it xs) (x_run_find inext icopy imove idel bar fuel ps q it) k
        (verdict false (calls (h_find q) ps [] xs) k emp (pureQ (List.find q (denote ps xs)))).
    Proof.
      unfold x_run_find. eapply (x_build_tri _ ltac:(intros; apply pureQ_ok) _ false); [by destruct bar|]. intros it'.
      apply x_by_ref_tri; [intros; apply pureQ_ok|]. intros it2. by apply (x_find_first_tri (length xs) ps); [apply nxT| |].
    Qed.
    Lemma calls_no_own (t : habits V) : (forall zs, own t zs = false) -> forall zs ys k, calls t ps ys zs !! k <> Some OfTerminal.
    Proof.
      clear. intros Ho. induction zs as [|x zs IH]; intros ys k; cbn [calls]; destruct (wants t ys); try done.
      destruct (journey ps x) as [n o]. destruct (decide (k < n)) as [Hk|Hk].
      { rewrite lookup_app_l by (by rewrite replicate_length). by rewrite lookup_replicate_2. }
      rewrite lookup_app_r by (rewrite replicate_length; lia). destruct o as [y|]; [|apply IH].
      rewrite Ho. apply IH.
    Qed.
    Lemma verdict_no_own {X} (t : habits V) out ys k E (Q : X -> asn) : (forall zs, own t zs = false) ->
      verdict out (calls t ps ys xs) k E Q = verdict false (calls t ps ys xs) k E Q.
    Proof.
      clear. intros Ho. unfold verdict. pose proof (calls_no_own t Ho xs ys k) as Hc.
      by destruct (calls t ps ys xs !! k) as [[]|].
    Qed.
    Theorem x_run_take_tri n it k :
      xtri (Sr it xs) (x_run_take inext icopy imove idel bar fuel ps n it) k
        (verdict false (calls (h_take n) ps [] xs) k emp (pureQ ((fun i => denote ps xs !! i) <$> seq 0 n))).
    Proof.
      unfold x_run_take. eapply x_then.
      { apply (build_tri rd rdp rdp_frame rdp_dom icopy imove idel Sr Sr_ok del_tri (fun m => Sr m xs)); [intros; apply Sr_ok|done..|].
        intros it'. apply tri_ret; [apply Sr_ok|apply ent_refl]. }
      intros m. rewrite <-(verdict_no_own (h_take n) true) by done.
      apply x_by_ref_tri; [intros; apply pureQ_ok|]. intros it2. apply (x_take_tri (length xs) ps _ _ nxT); [done|by right].
    Qed.
    Theorem x_run_reduce_tri (f : V -> V -> V) it k :
      xtri (Sr it xs) (x_run_reduce inext icopy imove idel bar fuel ps f it) k
        (verdict bar (calls h_reduce ps [] xs) k emp
           (pureQ (match denote ps xs with [] => None | y :: ys => Some (fold_left f ys y) end))).
    Proof.
      unfold x_run_reduce. eapply (x_build_tri _ ltac:(intros; apply pureQ_ok) _ true); [by destruct bar|]. intros it'.
      apply x_by_move_tri; [intros; apply pureQ_ok|]. intros it2. unfold x_reduce.
      pose proof (calls_adv h_reduce ps [] eq_refl xs k) as Hc. eapply x_step; [apply nxT|done|].
      destruct (adv ps k xs) as [[[k1 [y|]] xs1]|] eqn:E.
      - destruct Hc as (Hc & Hd & Hl). intros it3. cbn [fst snd]. cbn [h_reduce own app] in Hc.
        eapply x_then; [apply copy_tri|]. intros p.
        pose proof (x_frame _ _ _ _ (Sr it3 xs1) (Sr_ok it3 xs1) (x_fold_tri (length xs) ps _ f h_reduce nxT fuel [y] xs1 y k1 p
          ltac:(lia) ltac:(lia) ltac:(done) ltac:(done))) as Hr.
        unfold verdict in *. rewrite Hc. destruct (calls h_reduce ps [y] xs1 !! k1) as [[]|].
        + by apply x_bind_ends, x_unwind_ends.
        + apply x_bind_throws. eapply x_unwind; [exact Hr|]. apply delL, emp_ok.
        + eapply x_bind; [apply x_unwind_returns, Hr|]. intros [p' r] k2. cbn [fst snd].
          eapply x_pre; [|apply (x_ex (fun zs => star (Sr p' zs) (star (pureQ (fold_left f (denote ps xs1) y) r) (Sr it3 xs1))))].
          { intros h fp (f1 & g & -> & Hs & (ys & Hp) & Hg).
            destruct (star_assoc' (Sr p' ys) (pureQ (fold_left f (denote ps xs1) y) r) (Sr it3 xs1) h (f1 ++ g)) as (fp' & S1 & Hp1); [by exists f1, g|].
            exists fp'. split; [done|]. by exists ys. }
          intros zs. eapply x_then; [apply delT, star_ok; [apply pureQ_ok|apply Sr_ok]|]. intros ?; cbn beta.
          apply x_ret; [apply star_ok; [apply pureQ_ok|apply Sr_ok]|].
          intros h fp (f1 & g & -> & Hs & (Hr1 & Hem) & Hg). unfold emp in Hem. subst f1 r. cbn [app]. rewrite Hd.
          by eapply leaves_pure.
      - destruct Hc as (Hc & Hd). intros it3. unfold verdict. rewrite Hc, Hd. cbn [fst snd].
        apply x_ret_src. intros h fp Hp. by eapply leaves_pure.
      - unfold verdict. by rewrite Hc.
    Qed.

    Section Collect.
      Context {K R : Type} (knew : HM K) (kput : K -> V -> HM K) (kend : K -> HM R).
      Context (Kp : K -> list V -> asn) (Rp : R -> list V -> asn) (room : nat -> Prop).
      Context (Kp_ok : forall k vs, asn_ok (Kp k vs)) (Rp_ok : forall r vs, asn_ok (Rp r vs)).
      Context (room_le : forall m n, m <= n -> room n -> room m).
      Context (new_tri : tri emp knew (fun k => Kp k [])).
      Context (put_tri : forall k vs v, room (S (length vs)) -> tri (Kp k vs) (kput k v) (fun k' => Kp k' (vs ++ [v]))).
      Context (end_tri : forall k vs, tri (Kp k vs) (kend k) (fun r => Rp r vs)).
      Lemma x_collect_loop_tri b nx : nexts_t b ps nx -> forall n us c zs k it, length zs <= b -> length zs < n ->
        room (length (us ++ denote ps zs)) ->
        xtri (star (Sr it zs) (Kp c us)) (x_collect_loop nx kput n c it) k
          (verdict false (calls h_collect ps us zs) k emp
             (fun r => ex (fun ws => star (Sr (fst r) ws) (Kp (snd r) (us ++ denote ps zs))))).
      Proof.
        intros Hnx. induction n as [|n IH]; intros us c zs k it Hb Hn Hroom; [lia|]. cbn [x_collect_loop].
        pose proof (calls_adv h_collect ps us eq_refl zs k) as Hc.
        pose proof (x_frame _ _ _ _ (Kp c us) (Kp_ok c us) (Hnx it zs k Hb)) as Hs. unfold steps in Hs.
        destruct (adv ps k zs) as [[[k1 [y|]] xs1]|] eqn:E; cbn [framed] in Hs.
        - destruct Hc as (Hc & Hd & Hl). eapply x_bind; [exact Hs|]. intros [it' o'] k'. cbn [fst snd].
          eapply x_pre; [|apply (x_pur (k' = k1 /\ o' = Some y) (star (Sr it' xs1) (Kp c us)))].
          { intros h fp (f & g & -> & Hsep & [Hp1 Hp2] & Hg). exists (f ++ g). split; [done|]. split; [done|]. by exists f, g. }
          intros [-> ->]. eapply x_then; [apply (tri_frame_l rd rdp rdp_frame rdp_dom); [apply Sr_ok|apply put_tri]|].
          { eapply room_le; [|exact Hroom]. rewrite Hd, app_length. cbn. lia. }
          intros c'. cbn beta. specialize (IH (us ++ [y]) c' xs1 k1 it' ltac:(lia) ltac:(lia)).
          rewrite <-app_assoc in IH. cbn [app] in IH. unfold verdict in *. rewrite Hc, Hd. rewrite Hd in Hroom.
          cbn [h_collect own app]. by apply IH.
        - destruct Hc as (Hc & Hd). eapply x_bind; [exact Hs|]. intros [it' o'] k'. cbn [fst snd].
          eapply x_pre; [|apply (x_pur (k' = k1 /\ o' = None) (star (Sr it' xs1) (Kp c us)))].
          { intros h fp (f & g & -> & Hsep & [Hp1 Hp2] & Hg). exists (f ++ g). split; [done|]. split; [done|]. by exists f, g. }
          intros [-> ->]. unfold verdict. rewrite Hc, Hd, app_nil_r. apply x_ret; [apply star_ok; [apply Sr_ok|apply Kp_ok]|].
          intros h fp Hp. exists fp. split; [done|]. by exists xs1.
        - unfold verdict. rewrite Hc. by apply x_bind_ends.
      Qed.
      Theorem x_run_collect_tri (Hroom : room (length (denote ps xs))) it k :
        xtri (Sr it xs) (x_run_collect inext icopy imove idel bar fuel ps knew kput kend it) k
          (verdict false (calls h_collect ps [] xs) k emp (fun r => Rp r (denote ps xs))).
      Proof.
        unfold x_run_collect. eapply (x_build_tri _ ltac:(intros; apply Rp_ok) _ false); [by destruct bar|]. intros it'.
        assert (forall Q, nox (verdict (X := R) false (calls h_collect ps [] xs) k emp Q) = verdict false (calls h_collect ps [] xs) k emp Q) as Hv.
        { intros Q. unfold verdict. by destruct (calls _ _ _ _ !! k) as [[]|]. }
        rewrite <-Hv. apply x_nox. apply x_by_copy_move_tri; [intros; apply Rp_ok|]. intros it2. unfold x_collect.
        eapply x_pre; [apply star_emp_r|].
        eapply x_then; [apply (tri_frame_l rd rdp rdp_frame rdp_dom); [apply Sr_ok|apply new_tri]|]. intros c. cbn beta.
        pose proof (x_collect_loop_tri (length xs) _ nxT fuel [] c xs k it2 ltac:(done) Hf Hroom) as Hl.
        unfold verdict in *. destruct (calls h_collect ps [] xs !! k) as [[]|].
        - by apply x_bind_ends.
        - by apply x_bind_ends.
        - eapply x_bind; [exact Hl|]. intros [it3 c'] k'. cbn [fst snd app]. apply x_ex. intros ws.
          eapply x_then; [apply (tri_frame_l rd rdp rdp_frame rdp_dom); [apply Sr_ok|apply end_tri]|]. intros r. cbn beta.
          apply x_ret; [apply star_ok; [apply Sr_ok|apply Rp_ok]|]. intros h fp Hp. exists fp. split; [done|]. by exists ws.
      Qed.
    End Collect.
  End Whole.
End Proofs.
