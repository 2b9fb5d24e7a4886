(** * StrRoom: C91, how much memory a string keeps

    [capacity] of a string is private (basic_string.h:455-462), but the allocator
    sees it.  Here: a rule that computes from the lengths alone how large the block of
    each string is at any moment, so that the bytes strings hold are known exactly;
    what bounds follow, and what does not. *)
From Verif Require Import Base World Machine Utf8Model StringModel StringProofs StringProps StringExact StringCost Weigh.
Local Open Scope N_scope.
Ltac Zify.zify_post_hook ::= Z.to_euclidean_division_equations.

(** ** Specification: lengths and rooms *)
(** A variable is a length and the size of its block, 0 if there is none.  A
    string that becomes [n] bytes long: up to 16 bytes need no block; what fits
    stays where it is; else the new block is half as large again. *)
Definition grow (room n : N) : N := if n <=? 16 then 0 else if n <=? room then room else n + n / 2.
Notation rstate := (gmap nat (N * N)).
Definition at_i (r : rstate) (i : nat) : N * N := default (0, 0) (r !! i).
Definition room_step (r : rstate) (o : sop) : rstate :=
  match o with
  | SEmpty i => <[i := (0, 0)]> r
  | SLit i bs => <[i := (nlen bs, grow 0 (nlen bs))]> r
  | SCopy i j => <[i := at_i r j]> r
  | SMove i j => <[i := at_i r j]> (<[j := (0, 0)]> r)
  | SCopyAsg i j =>
      if decide (i = j) then r
      else let n := fst (at_i r j) in
           <[i := (n, if snd (at_i r i) =? 0 then snd (at_i r j) else grow (snd (at_i r i)) n)]> r
  | SMoveAsg i j => if decide (i = j) then r else <[i := at_i r j]> (<[j := (0, 0)]> r)
  | SPush i ch | SInsert i ch _ =>
      let n := fst (at_i r i) + nlen ch in <[i := (n, grow (snd (at_i r i)) n)]> r
  | SPop i => <[i := (fst (at_i r i) - 1, snd (at_i r i))]> r
  | SSize _ | SPrint _ | SBytes _ | SBoundary _ _ => r
  | SDel i => delete i r
  end.
Definition rooms (ops : list sop) : rstate := foldl room_step ∅ ops.

(** ** What the objects say *)
Definition room (s : str) : N := if 16 <? s_len s then match s_store s with UCap c => c | ULocal _ => 0 end else 0.
Definition lr (s : str) : N * N := (s_len s, room s).
Definition view (w : world sblk str) : rstate := lr <$> w_vars w.

Lemma lr_short s : s_len s <= 16 -> lr s = (s_len s, 0).
Proof. intros H. unfold lr, room. by destruct (N.ltb_spec 16 (s_len s)); [lia|]. Qed.
Lemma lr_heap n c p : 16 < n -> lr (Str n (UCap c) p) = (n, c).
Proof. intros H. unfold lr, room. cbn. by destruct (N.ltb_spec 16 n); [|lia]. Qed.
Lemma grow_long r n : 16 < n -> n <= r -> grow r n = r.
Proof. intros. unfold grow. destruct (N.leb_spec n 16), (N.leb_spec n r); done || lia. Qed.
Lemma grow_new r n : 16 < n -> r < n -> grow r n = n + n / 2.
Proof. intros. unfold grow. destruct (N.leb_spec n 16), (N.leb_spec n r); done || lia. Qed.
Lemma grow_short r n : n <= 16 -> grow r n = 0.
Proof. intros. unfold grow. destruct (N.leb_spec n 16); done || lia. Qed.
Lemma room_ge h s bs fp : srep h s bs fp -> 16 < nlen bs ->
  exists c, s_store s = UCap c /\ nlen bs <= c /\ lr s = (nlen bs, c).
Proof.
  intros [bs' u p r Hf Hle|bs' a r Hf Hgt Hc Ha] H16; [lia|]. eexists. split; [done|].
  split; [rewrite app_length, fmap_length; lia|]. by apply lr_heap.
Qed.
Lemma room_le h s bs fp : srep h s bs fp -> nlen bs <= 16 -> lr s = (nlen bs, 0).
Proof. intros H Hle. rewrite lr_short; rewrite (srep_len _ _ _ _ H); done. Qed.
Lemma room_lr h s bs fp : srep h s bs fp -> lr s = (nlen bs, room s).
Proof. intros H. unfold lr. by rewrite (srep_len _ _ _ _ H). Qed.
Lemma room_cases h s bs fp : srep h s bs fp ->
  (nlen bs <= 16 /\ room s = 0) \/ (16 < nlen bs /\ nlen bs <= room s /\ s_store s = UCap (room s)).
Proof.
  intros H. destruct (N.le_gt_cases (nlen bs) 16) as [Hle|Hgt].
  - left. split; [done|]. pose proof (room_le _ _ _ _ H Hle) as E. unfold lr in E. by injection E.
  - right. destruct (room_ge _ _ _ _ H Hgt) as (c & Es & Hc & E). unfold lr in E. injection E as _ E. by rewrite E.
Qed.

(** ** Each call *)
Lemma how_room h s h' s' bs fp bs' fp' : srep h s bs fp -> srep h' s' bs' fp' -> how s h s' h' ->
  lr s' = (nlen bs', grow (room s) (nlen bs')).
Proof.
  intros Hr Hr' Hh. rewrite (room_lr _ _ _ _ Hr'). f_equal.
  pose proof (srep_len _ _ _ _ Hr) as Hl. pose proof (srep_len _ _ _ _ Hr') as Hl'.
  pose proof (srep_fits _ _ _ _ Hr') as Hf.
  destruct (room_cases _ _ _ _ Hr) as [[H1 E1]|(H1 & H2 & E1)], (room_cases _ _ _ _ Hr') as [[H1' E1']|(H1' & H2' & E1')].
  - by rewrite grow_short.
  - rewrite E1, grow_new by lia. destruct Hh as [_ _ _ Hh|_ _ Es _]; [lia|].
    rewrite Es, Hl', uadd_cap in E1' by apply Hf. by injection E1' as <-.
  - by rewrite grow_short.
  - destruct Hh as [_ _ Hh _|_ _ Es Hh].
    + destruct Hh as [_ (c & Ec & Ec')]; [lia|].
      rewrite E1 in Ec. rewrite E1' in Ec'. assert (Er : room s' = room s) by congruence.
      rewrite Er in *. by rewrite grow_long.
    + rewrite Es, Hl', uadd_cap in E1' by apply Hf.
      destruct Hh as (c & Ec & Hc); [lia|]. assert (c = room s) as -> by congruence.
      rewrite grow_new by lia. by injection E1' as <-.
Qed.
Lemma literal_room bs h s h' : fits bs -> str_literal bs h = Ok (s, h') -> lr s = (nlen bs, grow 0 (nlen bs)).
Proof.
  intros Hf. unfold str_literal, LOCAL. destruct (N.leb_spec (nlen bs) 16) as [Hle|Hgt].
  - intros (l & h1 & E1 & [= <- <-])%bind_inv. rewrite lr_short by done. by rewrite grow_short.
  - intros (p & h1 & E1 & E)%bind_inv. apply write_heap_same in E as ->.
    rewrite uadd_cap by apply Hf. rewrite lr_heap by done. by rewrite grow_new by lia.
Qed.
Lemma copy_room o bs fp h s h' : srep h o bs fp -> str_copy o h = Ok (s, h') -> lr s = lr o.
Proof.
  intros Hr. unfold str_copy, LOCAL. rewrite (srep_len _ _ _ _ Hr).
  destruct (N.ltb_spec 16 (nlen bs)) as [Hgt|Hle].
  - destruct (room_ge _ _ _ _ Hr Hgt) as (c & Es & Hc & E). rewrite E.
    intros (c' & h1 & E1 & E2)%bind_inv. unfold get_cap in E1. rewrite Es in E1. injection E1 as <- <-.
    apply bind_inv in E2 as (p & h2 & _ & E2). apply bind_inv in E2 as (b & h3 & _ & E2).
    apply write_heap_same in E2 as ->. by apply lr_heap.
  - intros [= <- <-]. rewrite (room_le _ _ _ _ Hr Hle). by rewrite lr_short.
Qed.
Lemma copy_assign_room strict t o xs bs fpt fpo h t' h' : srep h t xs fpt -> srep h o bs fpo ->
  length xs <> 16%nat -> length bs <> 16%nat -> fits bs -> str_copy_assign strict t o h = Ok (t', h') ->
  lr t' = (nlen bs, if room t =? 0 then room o else grow (room t) (nlen bs)).
Proof.
  intros Ht Ho Hx Hb Hf. unfold str_copy_assign, LOCAL.
  rewrite (srep_len _ _ _ _ Ht), (srep_len _ _ _ _ Ho).
  destruct (room_cases _ _ _ _ Ht) as [[H1 E1]|(H1 & H2 & E1)], (room_cases _ _ _ _ Ho) as [[H1' E1']|(H1' & H2' & E1')].
  - destruct (N.ltb_spec (nlen xs) 16); [|lia]. destruct (N.ltb_spec (nlen bs) 16); [|lia]. cbn [andb].
    intros (? & h1 & _ & [= <- <-])%bind_inv. rewrite E1, E1'. cbn. by rewrite lr_short.
  - destruct (N.ltb_spec (nlen xs) 16); [|lia]. destruct (N.ltb_spec (nlen bs) 16); [lia|].
    destruct (N.ltb_spec 16 (nlen bs)); [|lia]. cbn [andb].
    intros (? & h1 & _ & E)%bind_inv. apply bind_inv in E as (c & h2 & Ec & E).
    unfold get_cap in Ec. rewrite E1' in Ec. injection Ec as <- <-.
    apply bind_inv in E as (p & h3 & _ & E). apply bind_inv in E as (b & h4 & _ & E).
    apply write_heap_same in E as ->. rewrite lr_heap by done. by rewrite E1.
  - destruct (N.ltb_spec (nlen xs) 16); [lia|]. destruct (N.ltb_spec (nlen bs) 16); [|lia].
    destruct (N.ltb_spec 16 (nlen xs)); [|lia]. cbn [andb].
    intros (c & h1 & _ & E)%bind_inv. apply bind_inv in E as (? & h2 & _ & E).
    apply bind_inv in E as (? & h3 & _ & [= <- <-]).
    destruct (N.eqb_spec (room t) 0); [lia|]. rewrite grow_short by done. by rewrite lr_short.
  - destruct (N.ltb_spec (nlen xs) 16); [lia|]. destruct (N.ltb_spec (nlen bs) 16); [lia|].
    rewrite !andb_false_r. cbn [andb].
    intros (c & h1 & Ec & E)%bind_inv. unfold get_cap in Ec. rewrite E1 in Ec. injection Ec as <- <-.
    apply bind_inv in E as (t1 & h2 & Et & E). apply bind_inv in E as (b & h3 & _ & E).
    apply write_heap_same in E as ->. destruct (N.eqb_spec (room t) 0); [lia|].
    destruct (N.ltb_spec (room t) (nlen bs)) as [Hlt|Hge].
    + apply bind_inv in Et as (? & h4 & _ & Et). apply bind_inv in Et as (? & h5 & _ & Et).
      apply bind_inv in Et as (p & h6 & _ & [= <- <-]).
      rewrite uadd_cap by apply Hf. rewrite lr_heap by done. by rewrite grow_new.
    + injection Et as <- <-. rewrite E1, lr_heap by done. by rewrite grow_long.
Qed.
Lemma move_assign_room strict t o xs bs fpt fpo h t' o' h' : srep h t xs fpt -> srep h o bs fpo ->
  length xs <> 16%nat -> length bs <> 16%nat -> str_move_assign strict t o h = Ok ((t', o'), h') ->
  lr t' = lr o /\ lr o' = (0, 0).
Proof.
  intros Ht Ho Hx Hb. unfold str_move_assign, LOCAL.
  rewrite (srep_len _ _ _ _ Ht), (srep_len _ _ _ _ Ho).
  rewrite (room_lr _ _ _ _ Ho).
  destruct (room_cases _ _ _ _ Ht) as [[H1 E1]|(H1 & H2 & E1)], (room_cases _ _ _ _ Ho) as [[H1' E1']|(H1' & H2' & E1')].
  - destruct (N.ltb_spec (nlen xs) 16); [|lia]. destruct (N.ltb_spec (nlen bs) 16); [|lia]. cbn [andb].
    intros (? & h1 & _ & [= <- <- <-])%bind_inv. rewrite E1'. by rewrite lr_short.
  - destruct (N.ltb_spec (nlen xs) 16); [|lia]. destruct (N.ltb_spec (nlen bs) 16); [lia|].
    destruct (N.ltb_spec 16 (nlen bs)); [|lia]. cbn [andb].
    intros (? & h1 & _ & E)%bind_inv. apply bind_inv in E as (c & h2 & Ec & [= <- <- <-]).
    unfold get_cap in Ec. rewrite E1' in Ec. injection Ec as <- <-. by rewrite lr_heap.
  - destruct (N.ltb_spec (nlen xs) 16); [lia|]. destruct (N.ltb_spec (nlen bs) 16); [|lia].
    destruct (N.ltb_spec 16 (nlen xs)); [|lia]. cbn [andb].
    intros (c & h1 & _ & E)%bind_inv. apply bind_inv in E as (? & h2 & _ & E).
    apply bind_inv in E as (? & h3 & _ & [= <- <- <-]). rewrite E1'. by rewrite lr_short.
  - destruct (N.ltb_spec (nlen xs) 16); [lia|]. destruct (N.ltb_spec (nlen bs) 16); [lia|].
    rewrite !andb_false_r. cbn [andb].
    intros (c & h1 & _ & E)%bind_inv. apply bind_inv in E as (? & h2 & _ & E).
    apply bind_inv in E as (? & h3 & _ & E). apply bind_inv in E as (c' & h4 & Ec & [= <- <- <-]).
    unfold get_cap in Ec. rewrite E1' in Ec. injection Ec as <- <-. by rewrite lr_heap.
Qed.

(** ** Every step *)
Lemma rel_look sp w i s : rel sp w -> w_vars w !! i = Some s ->
  exists bs fp, sp !! i = Some bs /\ srep (w_heap w) s bs fp.
Proof.
  intros [m Hw] Hi. rewrite (wo_vars _ _ _ _ Hw), lookup_fmap in Hi.
  destruct (m !! i) as [e|] eqn:E; [|done]. injection Hi as <-.
  exists (e_s e), (e_fp e). split; [rewrite (wo_spec _ _ _ _ Hw), lookup_fmap; by rewrite E|].
  by apply (wo_rep _ _ _ _ Hw i).
Qed.
Lemma view_at w i s : w_vars w !! i = Some s -> at_i (view w) i = lr s.
Proof. intros H. unfold at_i, view. by rewrite lookup_fmap, H. Qed.
Lemma view_set w h i s : view (World h (<[i := s]> (w_vars w))) = <[i := lr s]> (view w).
Proof. unfold view. cbn. by rewrite fmap_insert. Qed.
Lemma wget_inv i (w : world sblk str) x w' : wget i w = Ok (x, w') -> w' = w /\ w_vars w !! i = Some x.
Proof. unfold wget. destruct (w_vars w !! i); [|done]. by intros [= <- <-]. Qed.
Lemma lift_inv {X} (f : M (heap sblk) X) (w : world sblk str) x w' : lift f w = Ok (x, w') ->
  exists h', f (w_heap w) = Ok (x, h') /\ w' = World h' (w_vars w).
Proof. unfold lift. destruct (f (w_heap w)) as [[y h']|]; [|done]. intros [= <- <-]. eauto. Qed.
Lemma wset_inv i s (w : world sblk str) x w' : wset i s w = Ok (x, w') -> w' = World (w_heap w) (<[i := s]> (w_vars w)).
Proof. unfold wset. by intros [= <- <-]. Qed.
Lemma wnew_inv i (w : world sblk str) x w' : wnew i w = Ok (x, w') -> w' = w /\ w_vars w !! i = None.
Proof. unfold wnew. destruct (w_vars w !! i); [done|]. by intros [= <- <-]. Qed.
Lemma s_mk_inv i f (w : world sblk str) x w' : s_mk i f w = Ok (x, w') ->
  exists s h', f (w_heap w) = Ok (s, h') /\ w' = World h' (<[i := s]> (w_vars w)).
Proof.
  intros (? & w1 & [-> _]%wnew_inv & E)%bind_inv. apply bind_inv in E as (s & w2 & (h' & E & ->)%lift_inv & E2).
  apply bind_inv in E2 as (? & w3 & ->%wset_inv & [= <- <-]). eauto.
Qed.
Lemma s_upd_inv i f (w : world sblk str) x w' : s_upd i f w = Ok (x, w') ->
  exists s s' h', w_vars w !! i = Some s /\ f s (w_heap w) = Ok (s', h') /\ w' = World h' (<[i := s']> (w_vars w)).
Proof.
  intros (s & w1 & [-> Hs]%wget_inv & E)%bind_inv. apply bind_inv in E as (s' & w2 & (h' & E & ->)%lift_inv & E2).
  apply bind_inv in E2 as (? & w3 & ->%wset_inv & [= <- <-]). eauto 6.
Qed.
Lemma s_obs_inv {X} i (f : str -> M (heap sblk) X) g (w : world sblk str) x w' : s_obs i f g w = Ok (x, w') ->
  w_vars w' = w_vars w.
Proof.
  intros (s & w1 & [-> Hs]%wget_inv & E)%bind_inv. apply bind_inv in E as (s' & w2 & (h' & E & ->)%lift_inv & [= <- <-]). done.
Qed.
Lemma give_inv sp i bs sp' y : give sp i bs = SOk sp' y -> fits bs /\ sp' = <[i := bs]> sp.
Proof. unfold give. destruct (decide (fits bs)); [|done]. by intros [= <- <-]. Qed.
Lemma is16_no sp i bs : is16 sp i = false -> sp !! i = Some bs -> length bs <> 16%nat.
Proof. unfold is16. intros H E. rewrite E in H. by apply Nat.eqb_neq in H. Qed.

Lemma room_grows strict sp w sp' w' y o i s s' h' ch :
  rel sp w -> rel sp' w' -> w_vars w !! i = Some s -> w' = World h' (<[i := s']> (w_vars w)) ->
  how s (w_heap w) s' h' -> s_len s' = uadd (s_len s) (nlen ch) ->
  gspec strict sp o = SOk sp' y -> (o = SPush i ch \/ exists k, o = SInsert i ch k) ->
  view w' = <[i := (fst (at_i (view w) i) + nlen ch, grow (snd (at_i (view w) i)) (fst (at_i (view w) i) + nlen ch))]> (view w).
Proof.
  intros Hr Hr' Hs -> Hh Hl Eg Ho. rewrite (view_at _ _ _ Hs), view_set.
  destruct (rel_look _ _ _ _ Hr Hs) as (bs & fp & Hi & Hsr).
  destruct (rel_look sp' _ i s' Hr') as (bs' & fp' & Hi' & Hsr'); [cbn; by rewrite lookup_insert|]. cbn [w_heap] in Hsr'.
  f_equal. rewrite (how_room _ _ _ _ _ _ _ _ Hsr Hsr' Hh), (room_lr _ _ _ _ Hsr). cbn [fst snd].
  assert (Hn : nlen bs' = nlen bs + nlen ch); [|by rewrite Hn].
  unfold gspec in Eg. destruct (safe strict sp o); [|done].
  destruct Ho as [->|[k ->]]; cbn [sspec] in Eg; unfold look in Eg; rewrite Hi in Eg.
  - apply give_inv in Eg as [_ ->]. rewrite lookup_insert in Hi'. injection Hi' as <-. rewrite app_length. lia.
  - destruct (cut_ok bs k); [|done]. apply give_inv in Eg as [_ ->].
    rewrite lookup_insert in Hi'. injection Hi' as <-. rewrite !app_length, take_length, drop_length. lia.
Qed.

Lemma room_step_ok strict sp w o sp' y y' w' : rel sp w -> gspec strict sp o = SOk sp' y ->
  str_step strict o w = Ok (y', w') -> rel sp' w' -> view w' = room_step (view w) o.
Proof.
  intros Hr Eg Es Hr'. assert (Eg0 := Eg). unfold gspec in Eg.
  destruct (safe strict sp o) eqn:Hsafe; [|done].
  destruct o; cbn [str_step] in Es; cbn [room_step].
  - apply s_mk_inv in Es as (s & h' & [= <- <-] & ->). by rewrite view_set.
  - apply s_mk_inv in Es as (s & h' & E & ->). rewrite view_set.
    cbn [sspec] in Eg. unfold fresh in Eg. destruct (sp !! i); [done|]. apply give_inv in Eg as [Hf _].
    by rewrite (literal_room _ _ _ _ Hf E).
  - apply bind_inv in Es as (o & w1 & [-> Ho]%wget_inv & Es). apply s_mk_inv in Es as (s & h' & E & ->).
    rewrite view_set, (view_at _ _ _ Ho). destruct (rel_look _ _ _ _ Hr Ho) as (bs & fp & _ & Hsr).
    by rewrite (copy_room _ _ _ _ _ _ Hsr E).
  - apply bind_inv in Es as (? & w1 & [-> Hn]%wnew_inv & Es). apply bind_inv in Es as (o & w1 & [-> Ho]%wget_inv & Es).
    apply bind_inv in Es as ([s o'] & w1 & (h' & E & ->)%lift_inv & Es).
    apply bind_inv in Es as (? & w1 & ->%wset_inv & Es). apply bind_inv in Es as (? & w2 & ->%wset_inv & [= <- <-]).
    unfold str_move in E. apply bind_inv in E as (? & h1 & _ & [= <- <- <-]). cbn [w_vars w_heap].
    rewrite (view_at _ _ _ Ho). unfold view. cbn [w_vars]. rewrite !fmap_insert. by destruct o.
  - apply bind_inv in Es as (t & w1 & [-> Ht]%wget_inv & Es). apply bind_inv in Es as (o & w1 & [-> Ho]%wget_inv & Es).
    destruct (Nat.eqb_spec i j) as [<-|Hij].
    { injection Es as <- <-. by destruct (decide (i = i)). }
    destruct (decide (i = j)); [done|].
    apply bind_inv in Es as (t' & w1 & (h' & E & ->)%lift_inv & Es). apply bind_inv in Es as (? & w2 & ->%wset_inv & [= <- <-]).
    cbn [w_heap w_vars]. rewrite view_set, (view_at _ _ _ Ht), (view_at _ _ _ Ho). f_equal.
    destruct (rel_look _ _ _ _ Hr Ht) as (xs & fpt & Hi & Hst). destruct (rel_look _ _ _ _ Hr Ho) as (bs & fpo & Hj & Hso).
    rewrite (room_lr _ _ _ _ Hso), (room_lr _ _ _ _ Hst). cbn [fst snd].
    assert (H16 : length xs <> 16%nat /\ length bs <> 16%nat).
    { cbn [safe] in Hsafe. unfold covers in Hsafe. rewrite Hi, Hj in Hsafe.
      destruct (Nat.eqb_spec i j); [done|]. cbn [orb] in Hsafe.
      apply orb_true_iff in Hsafe as [H|H]; apply andb_true_iff in H as [H1 H2].
      - apply andb_true_iff in H1 as [_ H1]. apply negb_true_iff in H1, H2.
        split; [exact (is16_no _ _ _ H1 Hi)|exact (is16_no _ _ _ H2 Hj)].
      - apply Nat.ltb_lt in H1. apply Nat.leb_le in H2. lia. }
    destruct H16 as [Hx Hb]. eapply copy_assign_room; eauto. by eapply srep_fits.
  - apply bind_inv in Es as (t & w1 & [-> Ht]%wget_inv & Es). apply bind_inv in Es as (o & w1 & [-> Ho]%wget_inv & Es).
    destruct (Nat.eqb_spec i j) as [<-|Hij].
    { injection Es as <- <-. by destruct (decide (i = i)). }
    destruct (decide (i = j)); [done|].
    apply bind_inv in Es as ([t' o'] & w1 & (h' & E & ->)%lift_inv & Es). apply bind_inv in Es as (? & w2 & ->%wset_inv & Es).
    apply bind_inv in Es as (? & w2 & ->%wset_inv & [= <- <-]).
    cbn [w_heap w_vars]. rewrite (view_at _ _ _ Ho).
    destruct (rel_look _ _ _ _ Hr Ht) as (xs & fpt & Hi & Hst). destruct (rel_look _ _ _ _ Hr Ho) as (bs & fpo & Hj & Hso).
    assert (H16 : length xs <> 16%nat /\ length bs <> 16%nat).
    { cbn [safe] in Hsafe. destruct (Nat.eqb_spec i j); [done|]. cbn [orb] in Hsafe.
      apply andb_true_iff in Hsafe as [H1 H2]. apply andb_true_iff in H1 as [_ H1]. apply negb_true_iff in H1, H2.
      split; [exact (is16_no _ _ _ H1 Hi)|exact (is16_no _ _ _ H2 Hj)]. }
    destruct H16 as [Hx Hb]. destruct (move_assign_room _ _ _ _ _ _ _ _ _ _ _ Hst Hso Hx Hb E) as [E1 E2].
    unfold view. cbn [w_vars]. by rewrite !fmap_insert, E1, E2.
  - apply s_upd_inv in Es as (s & s' & h' & Hs & E & ->).
    assert (Hle : s_len s <= uadd (s_len s) (nlen ch)).
    { destruct (rel_look _ _ _ _ Hr Hs) as (bs & fp & Hi & Hsr). rewrite (srep_len _ _ _ _ Hsr).
      cbn [sspec] in Eg. unfold look in Eg. rewrite Hi in Eg. apply give_inv in Eg as [Hf _].
      unfold fits in Hf. rewrite app_length, Nat2N.inj_add in Hf. rewrite uadd_fits by done. lia. }
    destruct (push_shape _ _ _ _ _ Hle E) as [Hl Hh]. eapply room_grows; eauto.
  - apply s_upd_inv in Es as (s & s' & h' & Hs & E & ->).
    assert (Hle : s_len s <= uadd (s_len s) (nlen ch)).
    { destruct (rel_look _ _ _ _ Hr Hs) as (bs & fp & Hi & Hsr). rewrite (srep_len _ _ _ _ Hsr).
      cbn [sspec] in Eg. unfold look in Eg. rewrite Hi in Eg. destruct (cut_ok bs idx); [|done].
      apply give_inv in Eg as [Hf _].
      unfold fits in Hf. rewrite !app_length, take_length, drop_length in Hf. rewrite uadd_fits; lia. }
    destruct (insert_shape _ _ _ _ _ _ Hle E) as [Hl Hh]. eapply room_grows; eauto.
  - apply bind_inv in Es as (s & w1 & [-> Hs]%wget_inv & Es).
    apply bind_inv in Es as ([s' x] & w1 & (h' & E & ->)%lift_inv & Es). apply bind_inv in Es as (? & w2 & ->%wset_inv & [= <- <-]).
    cbn [w_heap w_vars]. rewrite view_set, (view_at _ _ _ Hs). f_equal.
    destruct (rel_look _ _ _ _ Hr Hs) as (bs & fp & Hi & Hsr). pose proof (srep_len _ _ _ _ Hsr) as Hl.
    cbn [safe] in Hsafe. rewrite Hi in Hsafe. apply negb_true_iff, Nat.eqb_neq in Hsafe.
    unfold str_pop in E. destruct (N.eqb_spec (s_len s) 0) as [H0|H0].
    { injection E as <- <- <-. unfold lr. cbn [fst snd]. by rewrite H0. }
    apply bind_inv in E as (b & h1 & _ & E). destruct b as [|b [|]]; try done. injection E as <- <- <-.
    unfold lr, room. cbn [fst snd s_len s_store]. f_equal.
    destruct (N.ltb_spec 16 (s_len s - 1)), (N.ltb_spec 16 (s_len s)); done || lia.
  - apply s_obs_inv in Es. unfold view. by rewrite Es.
  - apply s_obs_inv in Es. unfold view. by rewrite Es.
  - apply s_obs_inv in Es. unfold view. by rewrite Es.
  - apply s_obs_inv in Es. unfold view. by rewrite Es.
  - apply bind_inv in Es as (s & w1 & [-> Hs]%wget_inv & Es).
    apply bind_inv in Es as (? & w1 & (h' & E & ->)%lift_inv & Es).
    apply bind_inv in Es as (? & w2 & E2 & [= <- <-]). unfold wdel in E2. injection E2 as <- <-.
    unfold view. cbn [w_vars]. by rewrite fmap_delete.
Qed.

Lemma rooms_ok strict ops sp w sp' outs : rel sp w -> srun (gspec strict) sp ops = SOk sp' outs ->
  exists w', run_ops (str_step strict) ops w = Ok (outs, w') /\ rel sp' w' /\
    view w' = foldl room_step (view w) ops.
Proof.
  revert sp w outs. induction ops as [|o ops IH]; intros sp w outs Hr E; cbn [srun run_ops] in *.
  { injection E as <- <-. by exists w. }
  pose proof (str_step_refines strict sp w o Hr) as Hs.
  destruct (gspec strict sp o) as [sp1 y| |] eqn:Eg; [|done|done].
  destruct Hs as (w1 & E1 & Hr1).
  destruct (srun (gspec strict) sp1 ops) as [sp2 outs2| |] eqn:E2; [|done|done]. injection E as <- <-.
  destruct (IH _ _ _ Hr1 E2) as (w2 & E3 & Hr2 & Ev).
  exists w2. rewrite (bind_ok _ _ _ _ _ E1), (bind_ok _ _ _ _ _ E3). split; [done|]. split; [done|].
  cbn [foldl]. by rewrite Ev, (room_step_ok _ _ _ _ _ _ _ _ Hr Eg E1 Hr1).
Qed.

(** ** The memory of strings at any moment *)
Lemma over_ext_in {S} (f g : S -> N) (m : gmap nat S) :
  (forall i s, m !! i = Some s -> f s = g s) -> over f m = over g m.
Proof.
  intros H. unfold over.
  assert (Hin : forall i s, (i, s) ∈ map_to_list m -> f s = g s) by (intros i s Hi%elem_of_map_to_list; eauto).
  revert Hin. generalize (map_to_list m). induction l as [|[i s] l IH]; intros Hin; [done|].
  rewrite !fmap_cons. cbn [sumN snd]. f_equal; [apply (Hin i); by left|]. apply IH. intros j s' Hj. apply (Hin j). by right.
Qed.
Lemma over_le_in {S} (f g : S -> N) (m : gmap nat S) :
  (forall i s, m !! i = Some s -> f s <= g s) -> over f m <= over g m.
Proof.
  intros H. unfold over.
  assert (Hin : forall i s, (i, s) ∈ map_to_list m -> f s <= g s) by (intros i s Hi%elem_of_map_to_list; eauto).
  revert Hin. generalize (map_to_list m). induction l as [|[i s] l IH]; intros Hin; [done|].
  rewrite !fmap_cons. cbn [sumN snd]. apply N.add_le_mono; [apply (Hin i); by left|]. apply IH. intros j s' Hj. apply (Hin j). by right.
Qed.
Lemma over_mul {S} (f : S -> N) k (m : gmap nat S) : over (fun s => k * f s) m = k * over f m.
Proof.
  unfold over. generalize (map_to_list m). induction l as [|[i s] l IH]; [simpl; lia|].
  rewrite !fmap_cons. cbn [sumN snd]. rewrite IH. lia.
Qed.

Lemma over_two {S} (f : S -> N) (i j : nat) (a b : S) : i <> j -> over f (<[i := a]> {[j := b]}) = f a + f b.
Proof.
  intros Hij. unfold over. rewrite (sumN_perm _ (f <$> [(i, a); (j, b)].*2)).
  - cbn. lia.
  - apply fmap_Permutation, fmap_Permutation. rewrite map_to_list_insert by (by rewrite lookup_singleton_ne).
    by rewrite map_to_list_singleton.
Qed.

Lemma world_rooms sp w g : rel sp w ->
  weigh (fun b => g (sb_cap b)) (w_heap w) = over (fun x => if 16 <? fst x then g (snd x) else 0) (view w).
Proof.
  intros [m Hw]. unfold view. rewrite over_fmap, (wo_vars _ _ _ _ Hw), over_fmap.
  apply (weigh_world srep srep_dom _ w sp m (fun s _ => if 16 <? fst (lr s) then g (snd (lr s)) else 0) Hw).
  intros s bs fp Hr. destruct (room_cases _ _ _ _ Hr) as [[H1 E1]|(H1 & H2 & E1)];
    unfold lr; cbn [fst snd]; rewrite (srep_len _ _ _ _ Hr).
  - rewrite (srep_local _ _ _ _ Hr H1). split; [constructor|]. by destruct (N.ltb_spec 16 (nlen bs)); [lia|].
  - destruct (N.ltb_spec 16 (nlen bs)); [|lia].
    inversion Hr as [|bs' a r Hf Hgt Hc Ha]; subst; [lia|]. split; [apply NoDup_singleton|].
    cbn [fmap list_fmap sumN]. unfold at_. rewrite Ha. cbn [sb_cap]. cbn [s_store] in E1. injection E1 as <-. lia.
Qed.
Lemma rel_lens sp w : rel sp w -> fst <$> view w = (fun bs => nlen bs) <$> sp.
Proof.
  intros [m Hw]. unfold view. rewrite (wo_vars _ _ _ _ Hw), (wo_spec _ _ _ _ Hw), <-!map_fmap_compose.
  apply map_eq. intros i. rewrite !lookup_fmap. destruct (m !! i) as [e|] eqn:E; [|done]. simpl. f_equal.
  exact (srep_len _ _ _ _ (wo_rep _ _ _ _ Hw i e E)).
Qed.

(** The blocks in memory are exactly those of the rule, with their sizes. *)
Theorem C91_blocks_partial strict ops sp outs : srun (gspec strict) ∅ ops = SOk sp outs ->
  exists w, run_ops (str_step strict) ops winit = Ok (outs, w) /\
    fst <$> rooms ops = (fun bs => nlen bs) <$> sp /\
    forall g, weigh (fun b => g (sb_cap b)) (w_heap w) = over (fun x => if 16 <? fst x then g (snd x) else 0) (rooms ops).
Proof.
  intros E. destruct (rooms_ok strict ops ∅ winit sp outs (world_ok_init srep) E) as (w & E1 & Hr & Ev).
  assert (Ev' : view w = rooms ops) by (rewrite Ev; unfold view; simpl; by rewrite fmap_empty).
  exists w. split; [done|]. rewrite <-Ev'. split; [by apply rel_lens|]. intros g. by apply (world_rooms sp).
Qed.
Lemma rooms_short strict ops sp outs i n r : srun (gspec strict) ∅ ops = SOk sp outs ->
  rooms ops !! i = Some (n, r) -> (n <= 16 /\ r = 0) \/ (16 < n /\ n <= r).
Proof.
  intros E Hi. destruct (rooms_ok strict ops ∅ winit sp outs (world_ok_init srep) E) as (w & E1 & Hr & Ev).
  assert (Ev' : view w = rooms ops) by (rewrite Ev; unfold view; simpl; by rewrite fmap_empty). rewrite <-Ev' in Hi. unfold view in Hi. rewrite lookup_fmap in Hi.
  destruct (w_vars w !! i) as [s|] eqn:Es; [|done]. injection Hi as <- <-.
  destruct (rel_look _ _ _ _ Hr Es) as (bs & fp & _ & Hs). rewrite (srep_len _ _ _ _ Hs).
  destruct (room_cases _ _ _ _ Hs) as [?|(? & ? & ?)]; auto.
Qed.
(** Hence the bytes in memory are the sum of the rooms, *)
Theorem C91_bytes_partial strict ops sp outs : srun (gspec strict) ∅ ops = SOk sp outs ->
  exists w, run_ops (str_step strict) ops winit = Ok (outs, w) /\ weigh sb_cap (w_heap w) = over snd (rooms ops).
Proof.
  intros E. destruct (C91_blocks_partial strict ops sp outs E) as (w & E1 & _ & Hg). exists w. split; [done|].
  pose proof (Hg (fun x => x)) as H. cbn beta in H. etransitivity; [exact H|]. apply over_ext_in. intros i [n r] Hi. cbn [fst snd].
  destruct (rooms_short _ _ _ _ _ _ _ E Hi) as [[H1 ->]|[H1 _]]; destruct (N.ltb_spec 16 n); done || lia.
Qed.

(** ** Bounds *)
Lemma srun_app_inv strict p q sp sp' outs : srun (gspec strict) sp (p ++ q) = SOk sp' outs ->
  exists sp1 o1 o2, srun (gspec strict) sp p = SOk sp1 o1 /\ srun (gspec strict) sp1 q = SOk sp' o2.
Proof.
  revert sp outs. induction p as [|o p IH]; intros sp outs E; cbn [app srun] in *; [eauto|].
  destruct (gspec strict sp o) as [sp1 y| |]; [|done|done].
  destruct (srun (gspec strict) sp1 (p ++ q)) as [sp2 o2| |] eqn:E2; [|done|done]. injection E as <- <-.
  destruct (IH _ _ E2) as (sp3 & o3 & o4 & E3 & E4). rewrite E3. eauto.
Qed.
Lemma at_i_some (r : rstate) i P : P (0, 0) -> (forall x, r !! i = Some x -> P x) -> P (at_i r i).
Proof. intros H0 H. unfold at_i. destruct (r !! i); [by apply H|done]. Qed.
Lemma grow_le r n : n <= r \/ n <= 16 \/ grow r n = n + n / 2.
Proof. unfold grow. destruct (N.leb_spec n 16); [lia|]. destruct (N.leb_spec n r); [lia|]. auto. Qed.

(** No string ever keeps more than half as much again as the longest string there has been. *)
Theorem C91_bound_partial strict ops sp outs L : srun (gspec strict) ∅ ops = SOk sp outs ->
  (forall p q sp1 o1, ops = p ++ q -> srun (gspec strict) ∅ p = SOk sp1 o1 ->
     forall i bs, sp1 !! i = Some bs -> nlen bs <= L) ->
  exists w, run_ops (str_step strict) ops winit = Ok (outs, w) /\
    (forall a b, hmap (w_heap w) !! a = Some b -> sb_cap b <= L + L / 2) /\
    weigh sb_cap (w_heap w) <= (L + L / 2) * over (fun bs => if 16 <? nlen bs then 1 else 0) sp.
Proof.
  intros E HL.
  assert (Hroom : forall i x, rooms ops !! i = Some x -> snd x <= L + L / 2).
  { revert sp outs E HL. induction ops as [|o ops IH] using rev_ind; intros sp outs E HL; [done|].
    destruct (srun_app_inv _ _ _ _ _ _ E) as (sp1 & o1 & o2 & E1 & E2).
    assert (IH' : forall i x, rooms ops !! i = Some x -> snd x <= L + L / 2).
    { eapply IH; [done|]. intros p q sp2 o3 Ep. apply (HL p (q ++ [o])). by rewrite Ep, <-app_assoc. }
    assert (Hlen : forall i x, rooms (ops ++ [o]) !! i = Some x -> fst x <= L).
    { intros i x Hi. destruct (C91_blocks_partial strict _ _ _ E) as (w & _ & Hl & _).
      assert (Hs : (fst <$> rooms (ops ++ [o])) !! i = Some (fst x)) by (rewrite lookup_fmap; by rewrite Hi).
      rewrite Hl, lookup_fmap in Hs. destruct (sp !! i) as [bs|] eqn:Eb; [|done]. injection Hs as <-.
      eapply (HL _ [] sp outs); [by rewrite app_nil_r|done|done]. }
    clear IH HL E E1 E2. unfold rooms in *. rewrite foldl_app in *. cbn [foldl] in *.
    set (r := foldl room_step ∅ ops) in *.
    assert (Hat : forall i, snd (at_i r i) <= L + L / 2).
    { intros i. apply (at_i_some r i (fun x => snd x <= L + L / 2)); [cbn; lia|apply IH']. }
    assert (Hgr : forall c n, c <= L + L / 2 -> n <= L -> grow c n <= L + L / 2).
    { intros c n Hc Hn. unfold grow. destruct (n <=? 16); [lia|]. destruct (n <=? c); [done|].
      assert (n / 2 <= L / 2) by (apply N.div_le_mono; lia). lia. }
    intros k x Hk.
    destruct o; cbn [room_step] in *; try (by eapply IH').
    - apply lookup_insert_Some in Hk as [[<- <-]|[_ Hk]]; [cbn; lia|by eapply IH'].
    - pose proof (Hlen i (nlen bs, grow 0 (nlen bs)) (lookup_insert _ _ _)) as Hl. cbn [fst] in Hl.
      apply lookup_insert_Some in Hk as [[<- <-]|[_ Hk]]; [apply Hgr; lia|by eapply IH'].
    - apply lookup_insert_Some in Hk as [[<- <-]|[_ Hk]]; [apply Hat|by eapply IH'].
    - apply lookup_insert_Some in Hk as [[<- <-]|[_ Hk]]; [apply Hat|].
      apply lookup_insert_Some in Hk as [[<- <-]|[_ Hk]]; [cbn; lia|by eapply IH'].
    - destruct (decide (i = j)); [by eapply IH'|].
      pose proof (Hlen i _ (lookup_insert _ _ _)) as Hl. cbn [fst] in Hl.
      apply lookup_insert_Some in Hk as [[<- <-]|[_ Hk]]; [|by eapply IH']. cbn [snd].
      destruct (snd (at_i r i) =? 0); [apply Hat|]. apply Hgr; [apply Hat|done].
    - destruct (decide (i = j)); [by eapply IH'|].
      apply lookup_insert_Some in Hk as [[<- <-]|[_ Hk]]; [apply Hat|].
      apply lookup_insert_Some in Hk as [[<- <-]|[_ Hk]]; [cbn; lia|by eapply IH'].
    - pose proof (Hlen i _ (lookup_insert _ _ _)) as Hl. cbn [fst] in Hl.
      apply lookup_insert_Some in Hk as [[<- <-]|[_ Hk]]; [|by eapply IH']. cbn [snd]. apply Hgr; [apply Hat|done].
    - pose proof (Hlen i _ (lookup_insert _ _ _)) as Hl. cbn [fst] in Hl.
      apply lookup_insert_Some in Hk as [[<- <-]|[_ Hk]]; [|by eapply IH']. cbn [snd]. apply Hgr; [apply Hat|done].
    - apply lookup_insert_Some in Hk as [[<- <-]|[_ Hk]]; [|by eapply IH']. cbn [snd]. apply Hat.
    - apply lookup_delete_Some in Hk as [_ Hk]. by eapply IH'. }
  destruct (C91_blocks_partial strict ops sp outs E) as (w & E1 & Hl & Hg). exists w. split; [done|].
  assert (Hb : weigh sb_cap (w_heap w) <= (L + L / 2) * over (fun bs => if 16 <? nlen bs then 1 else 0) sp).
  { pose proof (Hg (fun x => x)) as H. cbn beta in H. etransitivity; [apply N.eq_le_incl; exact H|].
    rewrite <-(over_fmap (fun bs : list N => nlen bs) (fun n => if 16 <? n then 1 else 0)), <-Hl, over_fmap, <-over_mul.
    apply over_le_in. intros i [n r] Hi. apply Hroom in Hi. cbn [fst snd] in *. destruct (16 <? n); lia. }
  split; [|done]. intros a b Ha. destruct (N.le_gt_cases (sb_cap b) (L + L / 2)) as [?|Hgt]; [done|exfalso].
  pose proof (Hg (fun c => if c <=? L + L / 2 then 0 else 1)) as H.
  assert (H0 : over (fun x => if 16 <? fst x then if snd x <=? L + L / 2 then 0 else 1 else 0) (rooms ops) = 0).
  { rewrite (over_ext_in _ (fun _ => 0)).
    - unfold over. generalize (map_to_list (rooms ops)). induction l as [|? ? IHl]; [done|]. rewrite !fmap_cons. exact IHl.
    - intros i [n r] Hi. apply Hroom in Hi. cbn [fst snd] in *. destruct (16 <? n); [|done].
      by destruct (N.leb_spec r (L + L / 2)); [|lia]. }
  apply (fun e => eq_trans e H0) in H. unfold weigh in H.
  apply elem_of_map_to_list in Ha. revert H Ha. generalize (map_to_list (hmap (w_heap w))).
  induction l as [|[a' b'] l IHl]; [by intros _ ?%elem_of_nil|]. rewrite !fmap_cons. cbn [sumN snd].
  intros H [[= <- <-]|Hin]%elem_of_cons; [|apply IHl; [lia|done]].
  destruct (N.leb_spec (sb_cap b) (L + L / 2)); lia.
Qed.

(** While nothing is taken out and no string is copied over another, what is held
    is at most half as much again as the contents, copies and moved strings included. *)
Definition only_grows (o : sop) : bool :=
  match o with SPop _ | SCopyAsg _ _ => false | _ => true end.
Theorem C91_close_partial strict ops sp outs : srun (gspec strict) ∅ ops = SOk sp outs ->
  forallb only_grows ops = true ->
  exists w, run_ops (str_step strict) ops winit = Ok (outs, w) /\
    2 * weigh sb_cap (w_heap w) <= 3 * over (fun bs => nlen bs) sp.
Proof.
  intros E Ho. destruct (C91_bytes_partial strict ops sp outs E) as (w & E1 & Hb). exists w. split; [done|].
  destruct (C91_blocks_partial strict ops sp outs E) as (_ & _ & Hl & _).
  assert (Hroom : forall i x, rooms ops !! i = Some x -> 2 * snd x <= 3 * fst x).
  { clear E E1 Hb Hl. unfold rooms.
    assert (H0 : forall i x, (∅ : rstate) !! i = Some x -> 2 * snd x <= 3 * fst x) by done.
    revert H0. generalize (∅ : rstate). revert Ho.
    induction ops as [|o ops IH]; intros Ho r Hr; cbn [foldl]; [exact Hr|].
    cbn [forallb] in Ho. apply andb_true_iff in Ho as [Ho1 Ho]. apply (IH Ho).
    assert (Hat : forall i, 2 * snd (at_i r i) <= 3 * fst (at_i r i)).
    { intros i. apply (at_i_some r i (fun x => 2 * snd x <= 3 * fst x)); [cbn; lia|apply Hr]. }
    assert (Hgr : forall c n m, 2 * c <= 3 * m -> m <= n -> 2 * grow c n <= 3 * n).
    { intros c n m Hc Hn. unfold grow. destruct (n <=? 16); [lia|]. destruct (n <=? c); lia. }
    intros k x Hk. destruct o; try done; cbn [room_step] in Hk; try (by eapply Hr).
    - apply lookup_insert_Some in Hk as [[<- <-]|[_ Hk]]; [cbn; lia|by eapply Hr].
    - apply lookup_insert_Some in Hk as [[<- <-]|[_ Hk]]; [cbn [fst snd]; eapply (Hgr 0 _ 0); lia|by eapply Hr].
    - apply lookup_insert_Some in Hk as [[<- <-]|[_ Hk]]; [apply Hat|by eapply Hr].
    - apply lookup_insert_Some in Hk as [[<- <-]|[_ Hk]]; [apply Hat|].
      apply lookup_insert_Some in Hk as [[<- <-]|[_ Hk]]; [cbn; lia|by eapply Hr].
    - destruct (decide (i = j)); [by eapply Hr|].
      apply lookup_insert_Some in Hk as [[<- <-]|[_ Hk]]; [apply Hat|].
      apply lookup_insert_Some in Hk as [[<- <-]|[_ Hk]]; [cbn; lia|by eapply Hr].
    - apply lookup_insert_Some in Hk as [[<- <-]|[_ Hk]]; [|by eapply Hr]. cbn [fst snd].
      eapply Hgr; [apply Hat|lia].
    - apply lookup_insert_Some in Hk as [[<- <-]|[_ Hk]]; [|by eapply Hr]. cbn [fst snd].
      eapply Hgr; [apply Hat|lia].
    - apply lookup_delete_Some in Hk as [_ Hk]. by eapply Hr. }
  rewrite Hb, <-(over_fmap (fun bs : list N => nlen bs) (fun n => n)), <-Hl, over_fmap, <-!over_mul.
  apply over_le_in. exact Hroom.
Qed.

(** The full claim: a constant factor relates the memory to the contents. *)
Definition C91_full (strict : bool) : Prop := forall ops sp outs w,
  srun (gspec strict) ∅ ops = SOk sp outs -> run_ops (str_step strict) ops winit = Ok (outs, w) ->
  2 * weigh sb_cap (w_heap w) <= 3 * over (fun bs => nlen bs) sp.

(** pop_back gives nothing back, and a copy is as large as its original: two
    strings of 17 bytes hold any amount of memory. *)
Definition popped (n : nat) : list sop :=
  SLit 0 (replicate (n + 17) 65) :: replicate n (SPop 0) ++ [SCopy 1 0].
Lemma pops_run strict n : fits (replicate 17 65) ->
  srun (gspec strict) {[0%nat := replicate (n + 17) 65]} (replicate n (SPop 0) ++ [SCopy 1 0]) =
  SOk {[1%nat := replicate 17 65; 0%nat := replicate 17 65]} (replicate n (YOpt (Some 65)) ++ [YUnit]).
Proof.
  intros Hf. induction n as [|n IH].
  - cbn [replicate app srun]. unfold gspec, safe, sspec, fresh, look, give.
    rewrite lookup_singleton_ne by done. rewrite lookup_singleton.
    destruct (decide (fits (replicate (0 + 17) 65))); [done|done].
  - cbn [replicate app srun Nat.add]. unfold gspec at 1, safe, sspec, look. rewrite !lookup_singleton.
    assert (Hl : length (65 :: replicate (n + 17) 65) = S (n + 17)) by (cbn; by rewrite replicate_length).
    rewrite Hl. destruct (Nat.eqb_spec (S (n + 17)) 17); [lia|]. cbn [negb].
    assert (Hlast : last (65 :: replicate (n + 17) 65) = Some 65).
    { change (65 :: replicate (n + 17) 65) with (replicate (S (n + 17)) 65).
      replace (S (n + 17)) with (n + 17 + 1)%nat by lia. rewrite replicate_add. apply last_snoc. }
    rewrite Hlast. replace (S (n + 17) - 1)%nat with (n + 17)%nat by lia.
    assert (Ht : take (n + 17) (65 :: replicate (n + 17) 65) = replicate (n + 17) 65).
    { change (65 :: replicate (n + 17) 65) with (replicate (S (n + 17)) 65). rewrite take_replicate. f_equal. lia. }
    rewrite Ht, insert_singleton, IH. done.
Qed.
Theorem C91_popped strict n : fits (replicate (n + 17) 65) ->
  exists w outs, srun (gspec strict) ∅ (popped n) = SOk {[1%nat := replicate 17 65; 0%nat := replicate 17 65]} outs /\
    run_ops (str_step strict) (popped n) winit = Ok (outs, w) /\
    weigh sb_cap (w_heap w) = 2 * (N.of_nat n + 17 + (N.of_nat n + 17) / 2).
Proof.
  intros Hf.
  assert (Hf17 : fits (replicate 17 65)).
  { eapply fits_le; [exact Hf|]. rewrite !replicate_length. lia. }
  assert (E : srun (gspec strict) ∅ (popped n) =
    SOk {[1%nat := replicate 17 65; 0%nat := replicate 17 65]} (YUnit :: replicate n (YOpt (Some 65)) ++ [YUnit])).
  { unfold popped. cbn [srun]. unfold gspec at 1, safe, sspec, fresh, give. rewrite lookup_empty.
    destruct (decide (fits (replicate (n + 17) 65))); [|done]. rewrite insert_empty, pops_run by done. done. }
  destruct (C91_bytes_partial strict _ _ _ E) as (w & E1 & Hb). exists w. eexists. split; [exact E|]. split; [exact E1|].
  rewrite Hb. clear Hb E1 E w. unfold rooms, popped. cbn [foldl room_step].
  rewrite replicate_length, Nat2N.inj_add. change (N.of_nat 17) with 17. rewrite insert_empty, grow_new by lia.
  set (c := N.of_nat n + 17 + (N.of_nat n + 17) / 2). rewrite foldl_app. cbn [foldl].
  assert (H : forall m (k : N), foldl room_step {[0%nat := (N.of_nat m + k, c)]} (replicate m (SPop 0)) = {[0%nat := (k, c)]}).
  { induction m as [|m IH]; intros k; cbn [replicate foldl]; [done|].
    cbn [room_step]. unfold at_i. rewrite lookup_singleton, insert_singleton. cbn [default from_option id fst snd].
    replace (N.of_nat (S m) + k - 1) with (N.of_nat m + k) by lia. apply IH. }
  rewrite H. cbn [room_step]. unfold at_i. rewrite lookup_singleton. cbn [default from_option id].
  rewrite over_two by done. cbn [snd]. clearbody c. lia.
Qed.
Theorem C91_refuted strict : ~ C91_full strict.
Proof.
  intros H. destruct (C91_popped strict 20) as (w & outs & E & E1 & Hb).
  { unfold fits. rewrite replicate_length. unfold alloc_max, W. vm_compute. done. }
  pose proof (H _ _ _ _ E E1) as H1. rewrite Hb in H1. revert H1.
  rewrite over_two by done. vm_compute. auto.
Qed.

(** Four strings: a long literal; a copy; a short one that outgrows its 16 bytes;
    one taken over from another. *)
Definition C91_strs : list sop :=
  [SLit 0 (replicate 20 65); SCopy 1 0; SLit 2 [66; 67]; SPush 2 (replicate 16 68); SPush 0 (replicate 11 69);
   SPop 0; SMove 3 1; SCopyAsg 3 0; SInsert 1 [70] 0].
Example C91_ex : match srun (gspec false) ∅ C91_strs with
  | SOk sp outs => (map_to_list (rooms C91_strs) : list (nat * (N * N))) ≡ₚ
      [(0%nat, (30, 46)); (1%nat, (1, 0)); (2%nat, (18, 27)); (3%nat, (30, 30))] /\ over snd (rooms C91_strs) = 103
  | _ => False end.
Proof. vm_compute. split; [|done]. apply (bool_decide_unpack _). vm_compute. done. Qed.
Example C91_run_ex : match run_ops (str_step false) C91_strs winit with
  | Ok (_, w) => weigh sb_cap (w_heap w) = 103 /\ size (hmap (w_heap w)) = 3%nat
  | _ => False end.
Proof. vm_compute. repeat split. Qed.
Example C91_grow_ex : forallb only_grows (take 5 C91_strs) = true /\
  match srun (gspec false) ∅ (take 5 C91_strs) with
  | SOk sp outs => over (fun bs => nlen bs) sp = 69 /\ over snd (rooms (take 5 C91_strs)) = 103
  | _ => False end.
Proof. vm_compute. repeat split. Qed.

Print Assumptions C91_blocks_partial.
Print Assumptions C91_bytes_partial.
Print Assumptions C91_bound_partial.
Print Assumptions C91_close_partial.
Print Assumptions C91_popped.
Print Assumptions C91_refuted.
