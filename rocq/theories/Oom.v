(** Running out of memory (include/mstl/memory/allocators/allocator.h:13-31):
    the allocator answers a request it cannot satisfy with the null pointer.
    Here: how a piece of code that never looks at that answer before using it
    compares with the same code under a memory that never ends. *)
From stdpp Require Import prelude gmap.
From Verif Require Import Base.
Local Open Scope N_scope.

(** All requests for the addresses from [a] up to [b] find room. *)
Definition roomy (mm : N -> bool) (a b : N) : bool :=
  forallb (fun i => mm (a + N.of_nat i)) (seq 0 (N.to_nat (b - a))).
Lemma roomy_true mm a b : roomy mm a b = true <-> forall k, a <= k < b -> mm k = true.
Proof.
  unfold roomy. rewrite forallb_forall. split; intros H k Hk.
  - replace k with (a + N.of_nat (N.to_nat (k - a))) by lia. apply H, in_seq. lia.
  - apply in_seq in Hk. apply H. lia.
Qed.
Lemma roomy_nil mm a : roomy mm a a = true.
Proof. apply roomy_true. lia. Qed.
Lemma roomy_one mm a : roomy mm a (a + 1) = mm a.
Proof.
  apply eq_true_iff_eq. rewrite roomy_true. split; intros H; [apply H; lia|].
  intros k Hk. replace k with a by lia. done.
Qed.
Lemma roomy_app mm a b c : a <= b -> b <= c -> roomy mm a c = roomy mm a b && roomy mm b c.
Proof.
  intros H1 H2. apply eq_true_iff_eq. rewrite andb_true_iff, !roomy_true. split.
  - intros H. split; intros k Hk; apply H; lia.
  - intros [Ha Hb] k Hk. destruct (N.lt_ge_cases k b); [apply Ha|apply Hb]; lia.
Qed.
Lemma roomy_endless a b : roomy endless a b = true.
Proof. by apply roomy_true. Qed.

Section Starve.
  Context {C : Type} (mm : N -> bool).
  Notation HM := (M (heap C)).
  (** [m'] is the code under the endless memory, [m] the same code under
      [mm]: the two agree as long as [mm] has room for everything asked for,
      and otherwise [m] is undefined. *)
  Definition starve {A} (m m' : HM A) : Prop :=
    forall h, match m' h with
              | Ok (x, h') => hnext h <= hnext h' /\
                  m h = if roomy mm (hnext h) (hnext h') then Ok (x, h') else Err UB
              | Err e => m h = Err e \/ m h = Err UB
              end.
  Lemma st_ret {A} (x : A) : starve (ret x) (ret x).
  Proof. intros h. simpl. by rewrite roomy_nil. Qed.
  Lemma st_fail {A} e : starve (A := A) (fail e) (fail e).
  Proof. intros h. by left. Qed.
  Lemma st_bind {A B} (m m' : HM A) (k k' : A -> HM B) :
    starve m m' -> (forall x, starve (k x) (k' x)) -> starve (bind m k) (bind m' k').
  Proof.
    intros Hm Hk h. specialize (Hm h). unfold bind. destruct (m' h) as [[x h1]|e].
    - destruct Hm as [Hn ->]. specialize (Hk x h1). destruct (roomy mm (hnext h) (hnext h1)) eqn:E.
      + destruct (k' x h1) as [[y h2]|e]; [|done]. destruct Hk as [Hn2 ->]. split; [lia|].
        by rewrite (roomy_app _ (hnext h) (hnext h1) (hnext h2)), E by lia.
      + destruct (k' x h1) as [[y h2]|e]; [|by right]. destruct Hk as [Hn2 _]. split; [lia|].
        by rewrite (roomy_app _ (hnext h) (hnext h1) (hnext h2)), E by lia.
    - destruct Hm as [-> | ->]; [by left|by right].
  Qed.
  Lemma st_assoc {A B D} (m m' : HM A) (k k' : A -> HM B) (j j' : B -> HM D) :
    starve (bind m (fun x => bind (k x) j)) (bind m' (fun x => bind (k' x) j')) ->
    starve (bind (bind m k) j) (bind (bind m' k') j').
  Proof.
    intros H h. specialize (H h). unfold bind in *. destruct (m h) as [[]|], (m' h) as [[]|]; done.
  Qed.
  (** Code that requests nothing. *)
  Lemma st_read a : starve (hread a) (hread a).
  Proof. intros h. unfold hread. destruct (_ !! _); [|by left]. by rewrite roomy_nil. Qed.
  Lemma st_write a c : starve (hwrite a c) (hwrite a c).
  Proof. intros h. unfold hwrite. destruct (_ !! _); [|by left]. simpl. by rewrite roomy_nil. Qed.
  Lemma st_free a : starve (hfree a) (hfree a).
  Proof. intros h. unfold hfree. destruct (_ !! _); [|by left]. simpl. by rewrite roomy_nil. Qed.
  Lemma st_tick : starve htick htick.
  Proof. intros h. unfold htick. simpl. by rewrite roomy_nil. Qed.
  (** A request whose answer is used at once, in a way null does not allow. *)
  Lemma st_new {A} c (k k' : option N -> HM A) :
    (forall a, starve (k (Some a)) (k' (Some a))) -> (forall h, k None h = Err UB) ->
    starve (a <-- hnew (H := mm) c ;; k a) (a <-- hnew (H := endless) c ;; k' a).
  Proof.
    intros Hk Hn h. unfold bind, hnew, room, endless.
    destruct (mm (hnext h)) eqn:E.
    - specialize (Hk (hnext h) (Heap (<[hnext h := c]> (hmap h)) (hnext h + 1) (hmoves h))).
      destruct (k' _ _) as [[x h']|e]; [|done]. simpl in Hk. destruct Hk as [Hl ->]. split; [lia|].
      by rewrite (roomy_app _ (hnext h) (hnext h + 1) (hnext h')), roomy_one, E by lia.
    - rewrite Hn. specialize (Hk (hnext h) (Heap (<[hnext h := c]> (hmap h)) (hnext h + 1) (hmoves h))).
      destruct (k' _ _) as [[x h']|e]; [|by right]. simpl in Hk. destruct Hk as [Hl _]. split; [lia|].
      by rewrite (roomy_app _ (hnext h) (hnext h + 1) (hnext h')), roomy_one, E by lia.
  Qed.

  (** The same for programs over variables. *)
  Context {V : Type}.
  Notation World := (world C V).
  Definition wstarve {A} (m m' : M World A) : Prop :=
    forall w, match m' w with
              | Ok (x, w') => hnext (w_heap w) <= hnext (w_heap w') /\
                  m w = if roomy mm (hnext (w_heap w)) (hnext (w_heap w')) then Ok (x, w') else Err UB
              | Err e => m w = Err e \/ m w = Err UB
              end.
  Lemma ws_ret {A} (x : A) : wstarve (ret x) (ret x).
  Proof. intros h. simpl. by rewrite roomy_nil. Qed.
  Lemma ws_fail {A} e : wstarve (A := A) (fail e) (fail e).
  Proof. intros h. by left. Qed.
  Lemma ws_bind {A B} (m m' : M World A) (k k' : A -> M World B) :
    wstarve m m' -> (forall x, wstarve (k x) (k' x)) -> wstarve (bind m k) (bind m' k').
  Proof.
    intros Hm Hk h. specialize (Hm h). unfold bind. destruct (m' h) as [[x h1]|e].
    - destruct Hm as [Hn ->]. specialize (Hk x h1). destruct (roomy mm (hnext (w_heap h)) _) eqn:E.
      + destruct (k' x h1) as [[y h2]|e]; [|done]. destruct Hk as [Hn2 ->]. split; [lia|].
        by rewrite (roomy_app _ (hnext (w_heap h)) (hnext (w_heap h1)) (hnext (w_heap h2))), E by lia.
      + destruct (k' x h1) as [[y h2]|e]; [|by right]. destruct Hk as [Hn2 _]. split; [lia|].
        by rewrite (roomy_app _ (hnext (w_heap h)) (hnext (w_heap h1)) (hnext (w_heap h2))), E by lia.
    - destruct Hm as [-> | ->]; [by left|by right].
  Qed.
  Lemma ws_lift {A} (m m' : HM A) : starve m m' -> wstarve (lift m) (lift m').
  Proof.
    intros Hm w. specialize (Hm (w_heap w)). unfold lift. destruct (m' (w_heap w)) as [[x h']|e].
    - destruct Hm as [Hn ->]. split; [done|]. simpl. by destruct (roomy _ _ _).
    - destruct Hm as [-> | ->]; [by left|by right].
  Qed.
  Lemma ws_get i : wstarve (wget i) (wget i).
  Proof. intros w. unfold wget. destruct (_ !! _); [|by left]. by rewrite roomy_nil. Qed.
  Lemma ws_set i l : wstarve (wset i l) (wset i l).
  Proof. intros w. unfold wset. simpl. by rewrite roomy_nil. Qed.
  Lemma ws_new i : wstarve (wnew i) (wnew i).
  Proof. intros w. unfold wnew. destruct (_ !! _); [by left|]. by rewrite roomy_nil. Qed.
  Lemma ws_del i : wstarve (wdel i) (wdel i).
  Proof. intros w. unfold wdel. simpl. by rewrite roomy_nil. Qed.
  Lemma ws_run {O X} (f f' : O -> M World X) ops :
    (forall o, wstarve (f o) (f' o)) -> wstarve (run_ops f ops) (run_ops f' ops).
  Proof.
    intros Hf. induction ops as [|o ops IH]; cbn [run_ops]; [apply ws_ret|].
    apply ws_bind; [apply Hf|]. intros x. apply ws_bind; [done|]. intros xs. apply ws_ret.
  Qed.
End Starve.
