(** * ListIterRel: the specification of kept list iterators, and how states represent it *)
From Verif Require Import Base World Machine IterSpec ListModel ListSeg ListOps ListOps2 ListOps3 ListOps4 ListOps5
  SortSpec ListSort ListStep ListSpec ListRefine ListIterModel.
Local Open Scope N_scope.

(** ** Specification

    Every element gets a name when it is inserted and keeps it until it is
    removed; so do the two ends of a list.  A list is a sequence of named
    values between two named ends, an iterator is a name.  No pointers, no
    nodes. *)
Section Spec.
  Context {T : Type} (dbl : bool).
  Record kls := Kls { k_front : N; k_els : list (N * T); k_end : N }.
  Record kst := KSt { k_ls : gmap nat (N * option kls); k_it : gmap nat N; k_next : N }.
  Notation res := (sres kst (kout T)).
  Definition kinit : kst := KSt ∅ ∅ 0.

  Definition names (l : kls) : list N := k_front l :: (k_els l).*1 ++ [k_end l].
  Definition where_is (n : N) (ns : list N) : option nat := fst <$> list_find (fun m => m = n) ns.

  Definition live (s : kst) (i : nat) (k : N -> kls -> res) : res :=
    match k_ls s !! i with Some (al, Some l) => k al l | _ => SPre end.
  Definition need (b : bool) (k : res) : res := if b then k else SPre.
  (** Iterator [t] points into list [i], at position [p] (0 is
      [before_begin()], 1 is [begin()], [size() + 1] is [end()]). *)
  Definition at_pos (s : kst) (t : nat) (l : kls) (k : nat -> res) : res :=
    match k_it s !! t with
    | Some n => match where_is n (names l) with Some p => k p | None => SPre end
    | None => SPre
    end.
  Definition set_ls (s : kst) (m : gmap nat (N * option kls)) : kst := KSt m (k_it s) (k_next s).
  Definition set_it (s : kst) (t : nat) (n : N) : kst := KSt (k_ls s) (<[t := n]> (k_it s)) (k_next s).
  Definition used (s : kst) (n : nat) : kst := KSt (k_ls s) (k_it s) (k_next s + N.of_nat n).
  Definition put (s : kst) (i : nat) (al : N) (l : kls) : kst := set_ls s (<[i := (al, Some l)]> (k_ls s)).
  (** New names for new elements. *)
  Definition number (c : N) (vs : list T) : list (N * T) := imap (fun j v => (c + N.of_nat j, v)) vs.
  (** The name at a position. *)
  Definition name_at (l : kls) (p : nat) : N := nth p (names l) 0.
  Definition with_els (l : kls) (e : list (N * T)) : kls := Kls (k_front l) e (k_end l).
  (** [list i] gets the elements [e]. *)
  Definition give (s : kst) (i : nat) (al : N) (l : kls) (e : list (N * T)) (x : kout T) : res :=
    if nlen e <? W then SOk (put s i al (with_els l e)) x else SPre.
  (** ... and iterator [u] points to position [p] of it. *)
  Definition give_it (s : kst) (i : nat) (al : N) (l : kls) (e : list (N * T)) (u p : nat) : res :=
    if nlen e <? W then SOk (set_it (put s i al (with_els l e)) u (name_at (with_els l e) p)) KU else SPre.
  Definition val_lt (lt : T -> T -> bool) : N * T -> N * T -> bool := fun x y => lt (snd x) (snd y).

  Definition kspec (s : kst) (o : kop T) : res :=
    match o with
    | KRange i al vs =>
        match k_ls s !! i with
        | Some _ => SPre
        | None => need (nlen vs <? W)
            (SOk (used (put s i al (Kls (k_next s) (number (k_next s + 2) vs) (k_next s + 1))) (2 + length vs)) KU)
        end
    | KMove i j =>
        match k_ls s !! i, k_ls s !! j with
        | None, Some (al, l) => SOk (set_ls s (<[i := (al, l)]> (<[j := (al, None)]> (k_ls s)))) KU
        | _, _ => SPre
        end
    | KSwap i j =>
        match k_ls s !! i, k_ls s !! j with
        | Some x, Some y => SOk (set_ls s (<[i := y]> (<[j := x]> (k_ls s)))) KU
        | _, _ => SPre
        end
    | KDel i => match k_ls s !! i with Some _ => SOk (set_ls s (delete i (k_ls s))) KU | None => SPre end
    | KClear i => live s i (fun al l => give s i al l [] KU)
    | KPushF i v => live s i (fun al l => give (used s 1) i al l ((k_next s, v) :: k_els l) KU)
    | KPopF i => live s i (fun al l => match k_els l with [] => SPre | _ :: r => give s i al l r KU end)
    | KPushB i v => need dbl (live s i (fun al l => give (used s 1) i al l (k_els l ++ [(k_next s, v)]) KU))
    | KPopB i =>
        need dbl (live s i (fun al l => match k_els l with [] => SPre | _ => give s i al l (removelast (k_els l)) KU end))
    (* A list of one element is excluded because of C20. *)
    | KSrt i lt =>
        live s i (fun al l => need (negb (length (k_els l) =? 1)%nat)
          (give s i al l (ssort (val_lt lt) (reverse (k_els l))) KU))
    (* Empty lists are excluded because of C19. *)
    | KMer i j lt =>
        live s i (fun al l => live s j (fun al' l' =>
          need (negb (i =? j)%nat && (al =? al') && negb (isnil (k_els l)) && negb (isnil (k_els l')) &&
                sortedb lt (k_els l).*2 && sortedb lt (k_els l').*2)
            (give (put s j al' (with_els l' [])) i al l (ssort (val_lt lt) (k_els l' ++ k_els l)) KU)))
    (* The ends of a doubly linked list change places. *)
    | KRev i =>
        live s i (fun al l =>
          SOk (put s i al (if dbl then Kls (k_end l) (reverse (k_els l)) (k_front l)
                           else with_els l (reverse (k_els l)))) KU)
    | KRemIf i f =>
        live s i (fun al l => give s i al l (rest (fun x => f (snd x)) (k_els l))
          (KN (nlen (List.filter f (k_els l).*2))))
    | KUniq i r =>
        live s i (fun al l =>
          let e := firsts (fun x y => r (snd x) (snd y)) (k_els l) in
          give s i al l e (KN (nlen (k_els l) - nlen e)))
    | KItems i => live s i (fun _ l => SOk s (KL (k_els l).*2))
    | KEmpA i t v u =>
        live s i (fun al l => at_pos s t l (fun p => need (p <=? length (k_els l))%nat
          (give_it (used s 1) i al l (take p (k_els l) ++ [(k_next s, v)] ++ drop p (k_els l)) u (p + 1))))
    | KInsA i t vs u =>
        live s i (fun al l => at_pos s t l (fun p => need (p <=? length (k_els l))%nat
          (give_it (used s (length vs)) i al l
             (take p (k_els l) ++ number (k_next s) vs ++ drop p (k_els l)) u (if isnil vs then p else p + 1)%nat)))
    | KEraA i t u =>
        live s i (fun al l => at_pos s t l (fun p => need (p <=? length (k_els l))%nat
          (give_it s i al l (take p (k_els l) ++ drop (p + 1) (k_els l)) u (p + 1))))
    | KEraAR i t1 t2 u =>
        live s i (fun al l => at_pos s t1 l (fun p => at_pos s t2 l (fun q => need (p <=? q)%nat
          (if (p =? q)%nat then SOk (set_it s u (name_at l p)) KU
           else give_it s i al l (take p (k_els l) ++ drop (q - 1) (k_els l)) u (p + 1)))))
    | KEmp i t v u =>
        need dbl (live s i (fun al l => at_pos s t l (fun p => need (1 <=? p)%nat
          (give_it (used s 1) i al l (take (p - 1) (k_els l) ++ [(k_next s, v)] ++ drop (p - 1) (k_els l)) u p))))
    | KIns i t vs u =>
        need dbl (live s i (fun al l => at_pos s t l (fun p => need (1 <=? p)%nat
          (give_it (used s (length vs)) i al l
             (take (p - 1) (k_els l) ++ number (k_next s) vs ++ drop (p - 1) (k_els l)) u p))))
    | KEra i t u =>
        need dbl (live s i (fun al l => at_pos s t l (fun p => need (1 <=? p)%nat
          (give_it s i al l (take (p - 1) (k_els l) ++ drop p (k_els l)) u p))))
    | KEraR i t1 t2 u =>
        need dbl (live s i (fun al l => at_pos s t1 l (fun p => at_pos s t2 l (fun q => need ((1 <=? p) && (p <=? q))%nat
          (give_it s i al l (take (p - 1) (k_els l) ++ drop (q - 1) (k_els l)) u p)))))
    (* An empty list is excluded because of C18. *)
    | KSplA i t j rv =>
        live s i (fun al l => live s j (fun al' l' => at_pos s t l (fun p =>
          need (negb (i =? j)%nat && (al =? al') && negb (isnil (k_els l')) && (p <=? length (k_els l))%nat)
            (give (set_ls s (<[j := (al', if rv then None else Some (with_els l' []))]> (k_ls s))) i al l
               (take p (k_els l) ++ k_els l' ++ drop p (k_els l)) KU))))
    | KSpl i t j rv =>
        need dbl (live s i (fun al l => live s j (fun al' l' => at_pos s t l (fun p =>
          need (negb (i =? j)%nat && (al =? al') && negb (isnil (k_els l')) && (1 <=? p)%nat)
            (give (set_ls s (<[j := (al', if rv then None else Some (with_els l' []))]> (k_ls s))) i al l
               (take (p - 1) (k_els l) ++ k_els l' ++ drop (p - 1) (k_els l)) KU)))))
    | KBefore t i => live s i (fun _ l => SOk (set_it s t (k_front l)) KU)
    | KBegin t i => live s i (fun _ l => SOk (set_it s t (name_at l 1)) KU)
    | KEnd t i => live s i (fun _ l => SOk (set_it s t (k_end l)) KU)
    | KCopy t r => match k_it s !! r with Some n => SOk (set_it s t n) KU | None => SPre end
    | KInc i t =>
        live s i (fun _ l => at_pos s t l (fun p => need (p <=? length (k_els l))%nat
          (SOk (set_it s t (name_at l (p + 1))) KU)))
    | KIncP i t u =>
        live s i (fun _ l => at_pos s t l (fun p => need (p <=? length (k_els l))%nat
          (SOk (set_it (set_it s t (name_at l (p + 1))) u (name_at l p)) KU)))
    | KDec i t =>
        need dbl (live s i (fun _ l => at_pos s t l (fun p => need (1 <=? p)%nat
          (SOk (set_it s t (name_at l (p - 1))) KU))))
    | KDecP i t u =>
        need dbl (live s i (fun _ l => at_pos s t l (fun p => need (1 <=? p)%nat
          (SOk (set_it (set_it s t (name_at l (p - 1))) u (name_at l p)) KU))))
    | KGet i t =>
        live s i (fun _ l => at_pos s t l (fun p => need (1 <=? p)%nat
          (match k_els l !! (p - 1)%nat with Some (_, v) => SOk s (KV v) | None => SPre end)))
    | KSet i t v =>
        live s i (fun al l => at_pos s t l (fun p => need (1 <=? p)%nat
          (match k_els l !! (p - 1)%nat with
           | Some (n, _) => SOk (put s i al (with_els l (<[(p - 1)%nat := (n, v)]> (k_els l)))) KU
           | None => SPre
           end)))
    | KEq i t j r =>
        live s i (fun _ l => live s j (fun _ l' => at_pos s t l (fun p => at_pos s r l' (fun q =>
          SOk s (KB (bool_decide (name_at l p = name_at l' q)))))))
    end.
  Definition kordered (o : kop T) : Prop :=
    match o with KSrt _ lt | KMer _ _ lt => swo lt | _ => True end.
End Spec.
Global Arguments kls : clear implicits.
Global Arguments kst : clear implicits.

(** ** The code does what the specification says *)
Section Ref.
  Context {T : Type} (dbl : bool).
  Notation lok := (lok dbl).
  Notation became := (became dbl).
  Notation H := (heap (cell T)).
  Notation kst := (kst T).
  Notation kls := (kls T).
  Notation ist := (ist T).
  Implicit Types (h : H) (s : kst) (st : ist) (l : kls) (e : list (N * T)) (ρ : N -> N) (c al : N).

  (** [ρ] gives the address of the node a name stands for. *)
  Definition rn ρ e : list (N * T) := prod_map ρ id <$> e.
  Lemma rn_app ρ e1 e2 : rn ρ (e1 ++ e2) = rn ρ e1 ++ rn ρ e2.
  Proof. apply fmap_app. Qed.
  Lemma rn_length ρ e : length (rn ρ e) = length e.
  Proof. apply fmap_length. Qed.
  Lemma rn_vls ρ e : vls (rn ρ e) = e.*2.
  Proof. unfold vls, rn. rewrite <-list_fmap_compose. apply list_fmap_ext. by intros ? []. Qed.
  Lemma rn_ads ρ e : ads (rn ρ e) = ρ <$> e.*1.
  Proof. unfold ads, rn. rewrite <-!list_fmap_compose. apply list_fmap_ext. by intros ? []. Qed.
  Lemma rn_same ρ ρ' c e : (forall n, n < c -> ρ' n = ρ n) -> Forall (fun n => n < c) e.*1 -> rn ρ' e = rn ρ e.
  Proof.
    intros Hr Hf. unfold rn. induction e as [|[n v] e IH]; [done|]. rewrite fmap_cons in Hf.
    apply Forall_cons in Hf as [Hn Hf]. rewrite !fmap_cons, IH by done. unfold prod_map. simpl. by rewrite Hr.
  Qed.
  Lemma rn_names ρ l : lfp (ρ (k_front l)) (rn ρ (k_els l)) (ρ (k_end l)) = ρ <$> names l.
  Proof. unfold lfp, names. rewrite rn_ads. cbn. by rewrite fmap_app. Qed.

  Definition addr ρ al l : lst := L al (ρ (k_front l)) (ρ (k_end l)) (rn ρ (k_els l)).
  Inductive nrep ρ c h : lst -> N * option kls -> list N -> Prop :=
  | nrep_some al l : lok h al (ρ (k_front l)) (rn ρ (k_els l)) (ρ (k_end l)) -> nlen (k_els l) < W ->
      Forall (fun n => n < c) (names l) -> nrep ρ c h (addr ρ al l) (al, Some l) (ρ <$> names l)
  | nrep_none al : nrep ρ c h (Lst PNull PNull 0 al) (al, None) [].
  Lemma nrep_frame ρ c h h' o x fp : nrep ρ c h o x fp ->
    (forall a, a ∈ fp -> hmap h' !! a = hmap h !! a) -> nrep ρ c h' o x fp.
  Proof.
    intros [al l Lk HW Hn|] Hf; constructor; try done. eapply lok_frame; [|done]. intros a Ha. apply Hf. by rewrite <-rn_names.
  Qed.
  Lemma nrep_dom ρ c h o x fp a : nrep ρ c h o x fp -> a ∈ fp -> is_Some (hmap h !! a).
  Proof. intros [al l Lk HW Hn|] Ha; [|set_solver]. rewrite <-rn_names in Ha. by eapply lok_has. Qed.
  Lemma nrep_inv ρ c h o al l fp : nrep ρ c h o (al, Some l) fp ->
    o = addr ρ al l /\ lok h al (ρ (k_front l)) (rn ρ (k_els l)) (ρ (k_end l)) /\ nlen (k_els l) < W /\
    Forall (fun n => n < c) (names l) /\ fp = lfp (ρ (k_front l)) (rn ρ (k_els l)) (ρ (k_end l)).
  Proof. intros Hr. inversion Hr; subst. by rewrite rn_names. Qed.
  Lemma nrep_more ρ ρ' c c' h o x fp : (forall n, n < c -> ρ' n = ρ n) -> c <= c' ->
    nrep ρ c h o x fp -> nrep ρ' c' h o x fp.
  Proof.
    intros Hr Hc [al l Lk HW Hn|]; [|constructor].
    assert (Hn' := Hn). unfold names in Hn'. apply Forall_cons in Hn' as [H1 Hn']. apply Forall_app in Hn' as [H2 H3].
    apply Forall_cons in H3 as [H3 _].
    assert (addr ρ al l = addr ρ' al l) as ->.
    { unfold addr. by rewrite (rn_same ρ ρ' c), !Hr. }
    assert (ρ <$> names l = ρ' <$> names l) as ->.
    { apply Forall_fmap_ext_1. eapply Forall_impl; [exact Hn|]. intros n Hin. symmetry. by apply Hr. }
    constructor; [by rewrite (rn_same ρ ρ' c), !Hr|done|].
    eapply Forall_impl; [exact Hn|]. cbv beta. lia.
  Qed.

  Definition R ρ s st : Prop :=
    world_ok (nrep ρ (k_next s)) (i_w st) (k_ls s) /\
    forall t n, k_it s !! t = Some n -> n < k_next s /\ i_it st !! t = Some (PAddr (ρ n)).
  Definition krel s st : Prop := exists ρ, R ρ s st.

  Lemma R_wf ρ s st : R ρ s st -> hwf (w_heap (i_w st)).
  Proof. intros [[m Hw] _]. apply Hw. Qed.
  Lemma R_live ρ s st i al l : R ρ s st -> k_ls s !! i = Some (al, Some l) ->
    w_vars (i_w st) !! i = Some (addr ρ al l) /\
    lok (w_heap (i_w st)) al (ρ (k_front l)) (rn ρ (k_els l)) (ρ (k_end l)) /\ nlen (k_els l) < W /\
    Forall (fun n => n < k_next s) (names l).
  Proof.
    intros [[m Hw] _] Hi. destruct (world_ok_lookup_spec _ _ _ _ _ _ Hw Hi) as (x & Hm & He & Hv & Hr).
    apply nrep_inv in Hr as (Ho & Lk & HW & Hn & _). by rewrite Hv, Ho.
  Qed.
  Lemma R_more ρ ρ' s st k : (forall n, n < k_next s -> ρ' n = ρ n) -> R ρ s st -> R ρ' (used s k) st.
  Proof.
    intros Hr [[m Hw] Hi]. split.
    - exists m. destruct Hw as [A1 A2 A3 A4 A5 A6]. split; try done. intros j x Hj. cbn [used k_next].
      eapply nrep_more; [exact Hr|lia|exact (A4 j x Hj)].
    - cbn [used k_it k_next]. intros t n Ht. destruct (Hi t n Ht) as [Hn Ha]. split; [lia|]. by rewrite Hr.
  Qed.
  Lemma R_one ρ s st i al l h' o' x' fp' : R ρ s st -> k_ls s !! i = Some (al, Some l) ->
    upd (w_heap (i_w st)) h' (lfp (ρ (k_front l)) (rn ρ (k_els l)) (ρ (k_end l))) fp' ->
    nrep ρ (k_next s) h' o' x' fp' ->
    R ρ (set_ls s (<[i := x']> (k_ls s))) (ISt (World h' (<[i := o']> (w_vars (i_w st)))) (i_it st)).
  Proof.
    intros [[m Hw] Hit] Hi Hu Hr. destruct (world_ok_lookup_spec _ _ _ _ _ _ Hw Hi) as (x & Hm & He & Hv & Hr0).
    apply nrep_inv in Hr0 as (_ & _ & _ & _ & Hfp). split; [|done]. eexists. cbn [set_ls k_ls k_next i_w].
    eapply (world_upd1 _ (nrep_frame ρ (k_next s)) (nrep_dom ρ (k_next s))); [exact Hw|exact Hm| |exact Hr].
    by rewrite Hfp.
  Qed.
  Lemma R_it ρ s st t n : R ρ s st -> n < k_next s ->
    R ρ (set_it s t n) (ISt (i_w st) (<[t := PAddr (ρ n)]> (i_it st))).
  Proof.
    intros [Hw Hit] Hn. split; [done|]. cbn [set_it k_it k_next i_it]. intros t' n'.
    destruct (decide (t = t')) as [<-|Hne].
    - rewrite !lookup_insert. intros [= <-]. done.
    - rewrite !lookup_insert_ne by done. apply Hit.
  Qed.
  Lemma one_run {A} st i (f : lst -> M H (lst * A)) o o' x h' : w_vars (i_w st) !! i = Some o ->
    f o (w_heap (i_w st)) = Ok ((o', x), h') ->
    one i f st = Ok (x, ISt (World h' (<[i := o']> (w_vars (i_w st)))) (i_it st)).
  Proof. intros Hv E. unfold one, onw, bind, wget. rewrite Hv. unfold lift. by rewrite E. Qed.

  Lemma names_with l e : names (with_els l e) = k_front l :: e.*1 ++ [k_end l].
  Proof. done. Qed.
  Lemma names_ends l c : Forall (fun n => n < c) (names l) -> k_front l < c /\ Forall (fun n => n < c) (k_els l).*1 /\ k_end l < c.
  Proof.
    unfold names. intros [H1 [H2 H3]%Forall_app]%Forall_cons. apply Forall_cons in H3 as [H3 _]. done.
  Qed.
  Lemma ok_became {A} ρ ρ' s st i al l (f : lst -> M H (lst * A)) x ms h' e k :
    R ρ s st -> k_ls s !! i = Some (al, Some l) -> (forall n, n < k_next s -> ρ' n = ρ n) ->
    f (addr ρ al l) (w_heap (i_w st)) = Ok ((L al (ρ (k_front l)) (ρ (k_end l)) ms, x), h') ->
    became (w_heap (i_w st)) h' al (ρ (k_front l)) (ρ (k_end l)) (rn ρ (k_els l)) ms ->
    rn ρ' e = ms -> Forall (fun n => n < k_next s + N.of_nat k) e.*1 -> nlen e < W ->
    exists st', one i f st = Ok (x, st') /\ R ρ' (put (used s k) i al (with_els l e)) st' /\ i_it st' = i_it st.
  Proof.
    intros HR Hi Hr E [Lk' Hu] <- He HW. destruct (R_live _ _ _ _ _ _ HR Hi) as (Hv & Lk & _ & Hn).
    eexists. split; [by eapply one_run|]. split; [|done].
    pose proof (R_more ρ ρ' s st k Hr HR) as HR'.
    destruct (names_ends _ _ Hn) as (H1 & H2 & H3).
    unfold put. change (k_ls (used s k)) with (k_ls s).
    eapply (R_one ρ' (used s k) st i al l); [exact HR'|exact Hi| |].
    - rewrite (rn_same ρ ρ' (k_next s)), !Hr by done. exact Hu.
    - rewrite <-!(Hr (k_front l)), <-!(Hr (k_end l)) by done.
      change (L al (ρ' (k_front l)) (ρ' (k_end l)) (rn ρ' e)) with (addr ρ' al (with_els l e)).
      change (k_front l) with (k_front (with_els l e)) at 1.
      change (k_end l) with (k_end (with_els l e)) at 1. change e with (k_els (with_els l e)) at 4. rewrite rn_names.
      constructor; [|done|].
      + cbn [k_front k_end k_els with_els]. by rewrite !Hr.
      + rewrite names_with. apply Forall_cons. cbn [used k_next]. split; [lia|]. apply Forall_app. split; [done|].
        apply Forall_cons. split; [lia|done].
  Qed.
  Lemma used_0 s : used s 0 = s.
  Proof. destruct s as [a b c]. unfold used. cbn. by rewrite N.add_0_r. Qed.
  Lemma ok_became0 {A} ρ s st i al l (f : lst -> M H (lst * A)) x h' e :
    R ρ s st -> k_ls s !! i = Some (al, Some l) ->
    f (addr ρ al l) (w_heap (i_w st)) = Ok ((L al (ρ (k_front l)) (ρ (k_end l)) (rn ρ e), x), h') ->
    became (w_heap (i_w st)) h' al (ρ (k_front l)) (ρ (k_end l)) (rn ρ (k_els l)) (rn ρ e) ->
    (forall n, n ∈ e.*1 -> n ∈ (k_els l).*1) -> nlen e < W ->
    exists st', one i f st = Ok (x, st') /\ R ρ (put s i al (with_els l e)) st' /\ i_it st' = i_it st.
  Proof.
    intros HR Hi E Hb He HW. destruct (R_live _ _ _ _ _ _ HR Hi) as (_ & _ & _ & Hn).
    destruct (names_ends _ _ Hn) as (_ & H2 & _).
    destruct (ok_became ρ ρ s st i al l f x (rn ρ e) h' e 0 HR Hi) as (st' & E' & HR' & Hit); try done.
    { apply Forall_forall. intros n Hin%He. rewrite Forall_forall in H2. specialize (H2 n Hin). lia. }
    exists st'. split; [done|]. split; [|done]. by rewrite used_0 in HR'.
  Qed.

  (** Positions. *)
  Lemma where_is_lookup n ns p : where_is n ns = Some p -> ns !! p = Some n.
  Proof.
    unfold where_is. destruct (list_find _ ns) as [[q m]|] eqn:E; [|done]. intros [= <-].
    apply list_find_Some in E as (Hl & -> & _). done.
  Qed.
  Lemma name_at_lookup l p n : names l !! p = Some n -> name_at l p = n.
  Proof. intros Hp. unfold name_at. by apply nth_lookup_Some. Qed.
  Lemma at_pos_ok {St} s t l k (rel : kst -> St -> Prop) (r : outcome (kout T * St)) :
    (forall n p, k_it s !! t = Some n -> names l !! p = Some n -> agrees rel r (k p)) ->
    agrees rel r (at_pos s t l k).
  Proof.
    intros Hk. unfold at_pos. destruct (k_it s !! t) as [n|] eqn:E; [|done].
    destruct (where_is n (names l)) as [p|] eqn:E2; [|done]. eapply Hk; [done|]. by apply where_is_lookup.
  Qed.

  (** Names for new nodes. *)
  Definition ext ρ c (xs : list N) : N -> N := fun n => if n <? c then ρ n else nth (N.to_nat (n - c)) xs 0.
  Lemma ext_old ρ c xs n : n < c -> ext ρ c xs n = ρ n.
  Proof. intros Hn. unfold ext. by apply N.ltb_lt in Hn as ->. Qed.
  Lemma ext_new ρ c xs j a : xs !! j = Some a -> ext ρ c xs (c + N.of_nat j) = a.
  Proof.
    intros Hj. unfold ext. destruct (N.ltb_spec (c + N.of_nat j) c); [lia|].
    replace (N.to_nat (c + N.of_nat j - c)) with j by lia. by apply nth_lookup_Some.
  Qed.
  Lemma number_names c (vs : list T) k : N.of_nat (length vs) <= k -> Forall (fun n => n < c + k) (number c vs).*1.
  Proof.
    intros Hk. apply Forall_lookup. intros j n Hj. rewrite list_lookup_fmap in Hj. unfold number in Hj.
    rewrite list_lookup_imap in Hj. destruct (vs !! j) eqn:E; [|done]. injection Hj as <-.
    apply lookup_lt_Some in E. lia.
  Qed.
  Lemma number_length c (vs : list T) : length (number c vs) = length vs.
  Proof. apply imap_length. Qed.
  Lemma number_1 c (v : T) : number c [v] = [(c, v)].
  Proof. unfold number. cbn. by rewrite N.add_0_r. Qed.
  Lemma number_vals c (vs : list T) : (number c vs).*2 = vs.
  Proof.
    apply list_eq. intros j. rewrite list_lookup_fmap. unfold number. rewrite list_lookup_imap. by destruct (vs !! j).
  Qed.
  Lemma rn_number ρ c c' xs ms k : k + c = c' -> (forall j a, ads ms !! j = Some a -> xs !! (N.to_nat k + j)%nat = Some a) ->
    rn (ext ρ c xs) (number c' (vls ms)) = ms.
  Proof.
    intros <- Hx. apply list_eq. intros j. unfold rn, number. rewrite list_lookup_fmap, list_lookup_imap. unfold vls.
    rewrite list_lookup_fmap. destruct (ms !! j) as [[a v]|] eqn:E; [|done]. cbn. f_equal. f_equal.
    replace (k + c + N.of_nat j) with (c + N.of_nat (N.to_nat k + j)) by lia. apply ext_new. apply Hx.
    unfold ads. by rewrite list_lookup_fmap, E.
  Qed.
  Lemma Forall_take_names c e p : Forall (fun n => n < c) e.*1 -> Forall (fun n => n < c) (take p e).*1.
  Proof. intros Hf. rewrite fmap_take. by apply Forall_take. Qed.
  Lemma Forall_drop_names c e p : Forall (fun n => n < c) e.*1 -> Forall (fun n => n < c) (drop p e).*1.
  Proof. intros Hf. rewrite fmap_drop. by apply Forall_drop. Qed.
  Lemma rn_ins ρ c e1 e2 ms : Forall (fun n => n < c) e1.*1 -> Forall (fun n => n < c) e2.*1 ->
    rn (ext ρ c (ads ms)) (e1 ++ number c (vls ms) ++ e2) = rn ρ e1 ++ ms ++ rn ρ e2.
  Proof.
    intros H1 H2. assert (Ho : forall n, n < c -> ext ρ c (ads ms) n = ρ n) by apply ext_old.
    rewrite !rn_app, (rn_same ρ _ c e1 Ho), (rn_same ρ _ c e2 Ho) by done.
    rewrite (rn_number ρ c c (ads ms) ms 0); [done|done|]. intros j a Hj. exact Hj.
  Qed.
  Lemma ins_names c (vs : list T) e1 e2 : Forall (fun n => n < c) e1.*1 -> Forall (fun n => n < c) e2.*1 ->
    Forall (fun n => n < c + N.of_nat (length vs)) (e1 ++ number c vs ++ e2).*1.
  Proof.
    intros H1 H2. rewrite !fmap_app. apply Forall_app. split; [eapply Forall_impl; [exact H1|]; cbv beta; lia|].
    apply Forall_app. split; [by apply number_names|eapply Forall_impl; [exact H2|]; cbv beta; lia].
  Qed.

  Lemma cut ρ e p : rn ρ e = rn ρ (take p e) ++ rn ρ (drop p e).
  Proof. by rewrite <-rn_app, take_drop. Qed.
  Lemma cut_len ρ e p : (p <= length e)%nat -> length (rn ρ (take p e)) = p.
  Proof. intros. rewrite rn_length, take_length. lia. Qed.
  Lemma names_length l : length (names l) = (length (k_els l) + 2)%nat.
  Proof. unfold names. cbn. rewrite app_length, fmap_length. cbn. lia. Qed.
  Lemma pos_end ρ l p n : names l !! p = Some n -> (p <= length (k_els l))%nat ->
    ρ n = endp (ρ (k_front l)) (rn ρ (take p (k_els l))).
  Proof.
    intros Hn Hp. pose proof (lfp_end (ρ (k_front l)) (rn ρ (take p (k_els l))) (rn ρ (drop p (k_els l))) (ρ (k_end l))) as E.
    rewrite <-cut, cut_len, rn_names, list_lookup_fmap, Hn in E by done. by injection E.
  Qed.
  Lemma pos_start ρ l p n : names l !! p = Some n -> (1 <= p)%nat ->
    ρ n = startp (rn ρ (drop (p - 1) (k_els l))) (ρ (k_end l)).
  Proof.
    intros Hn Hp. pose proof (lookup_lt_Some _ _ _ Hn) as Hlt. rewrite names_length in Hlt.
    pose proof (lfp_start (ρ (k_front l)) (rn ρ (take (p - 1) (k_els l))) (rn ρ (drop (p - 1) (k_els l))) (ρ (k_end l))) as E.
    rewrite <-cut, cut_len, rn_names, list_lookup_fmap in E by lia. replace (S (p - 1)) with p in E by lia.
    rewrite Hn in E. by injection E.
  Qed.
  Lemma gett_ok ρ s st t n : R ρ s st -> k_it s !! t = Some n -> gett t st = Ok (PAddr (ρ n), st).
  Proof. intros [_ Hi] Ht. destruct (Hi t n Ht) as [_ E]. unfold gett. by rewrite E. Qed.

  Lemma lfp_name ρ l q p : lfp (ρ (k_front l)) (rn ρ (k_els l)) (ρ (k_end l)) !! p = Some q ->
    exists n, names l !! p = Some n /\ ρ n = q /\ name_at l p = n.
  Proof.
    rewrite rn_names, list_lookup_fmap. destruct (names l !! p) as [n|] eqn:E; [|done]. intros [= <-].
    exists n. split; [done|]. split; [done|]. by apply name_at_lookup.
  Qed.
  Lemma ok_set ρ s st i al l u p q : R ρ s st -> k_ls s !! i = Some (al, Some l) ->
    lfp (ρ (k_front l)) (rn ρ (k_els l)) (ρ (k_end l)) !! p = Some q ->
    R ρ (set_it s u (name_at l p)) (ISt (i_w st) (<[u := PAddr q]> (i_it st))).
  Proof.
    intros HR Hi Hq. destruct (lfp_name _ _ _ _ Hq) as (n & Hn & <- & ->). apply R_it; [done|].
    destruct (R_live _ _ _ _ _ _ HR Hi) as (_ & _ & _ & Hf). rewrite Forall_lookup in Hf. by eapply Hf.
  Qed.
  Lemma ok_at1 ρ ρ' s st i t u n al l (f : lst -> lptr -> M H (lst * lptr)) ms h' e k p q :
    R ρ s st -> k_ls s !! i = Some (al, Some l) -> k_it s !! t = Some n ->
    (forall n, n < k_next s -> ρ' n = ρ n) ->
    f (addr ρ al l) (PAddr (ρ n)) (w_heap (i_w st)) = Ok ((L al (ρ (k_front l)) (ρ (k_end l)) ms, PAddr q), h') ->
    became (w_heap (i_w st)) h' al (ρ (k_front l)) (ρ (k_end l)) (rn ρ (k_els l)) ms ->
    rn ρ' e = ms -> Forall (fun n => n < k_next s + N.of_nat k) e.*1 -> nlen e < W ->
    lfp (ρ (k_front l)) ms (ρ (k_end l)) !! p = Some q ->
    agrees krel (at1 i t u f st) (SOk (set_it (put (used s k) i al (with_els l e)) u (name_at (with_els l e) p)) KU).
  Proof.
    intros HR Hi Ht Hr E Hb <- He HW Hq. unfold at1. rewrite (bind_ok _ _ _ _ _ (gett_ok _ _ _ _ _ HR Ht)).
    destruct (ok_became ρ ρ' s st i al l (fun o => f o (PAddr (ρ n))) _ _ h' e k HR Hi Hr E Hb eq_refl He HW) as (st' & E' & HR' & Hit).
    rewrite (bind_ok _ _ _ _ _ E'). eexists. split; [done|]. exists ρ'.
    destruct (R_live _ _ _ _ _ _ HR Hi) as (_ & _ & _ & Hn). destruct (names_ends _ _ Hn) as (H1 & _ & H3).
    eapply ok_set; [exact HR'|apply lookup_insert|]. cbn [with_els k_front k_els k_end]. by rewrite !Hr.
  Qed.
  Lemma ok_at2 ρ s st i t1 t2 u n1 n2 al l (f : lst -> lptr -> lptr -> M H (lst * lptr)) h' e p q :
    R ρ s st -> k_ls s !! i = Some (al, Some l) -> k_it s !! t1 = Some n1 -> k_it s !! t2 = Some n2 ->
    f (addr ρ al l) (PAddr (ρ n1)) (PAddr (ρ n2)) (w_heap (i_w st)) = Ok ((L al (ρ (k_front l)) (ρ (k_end l)) (rn ρ e), PAddr q), h') ->
    became (w_heap (i_w st)) h' al (ρ (k_front l)) (ρ (k_end l)) (rn ρ (k_els l)) (rn ρ e) ->
    (forall n, n ∈ e.*1 -> n ∈ (k_els l).*1) -> nlen e < W ->
    lfp (ρ (k_front l)) (rn ρ e) (ρ (k_end l)) !! p = Some q ->
    agrees krel (at2 i t1 t2 u f st) (SOk (set_it (put s i al (with_els l e)) u (name_at (with_els l e) p)) KU).
  Proof.
    intros HR Hi Ht1 Ht2 E Hb He HW Hq. unfold at2. rewrite (bind_ok _ _ _ _ _ (gett_ok _ _ _ _ _ HR Ht1)).
    rewrite (bind_ok _ _ _ _ _ (gett_ok _ _ _ _ _ HR Ht2)).
    destruct (ok_became0 ρ s st i al l (fun o => f o (PAddr (ρ n1)) (PAddr (ρ n2))) _ h' e HR Hi E Hb He HW) as (st' & E' & HR' & Hit).
    rewrite (bind_ok _ _ _ _ _ E'). eexists. split; [done|]. exists ρ.
    eapply ok_set; [exact HR'|apply lookup_insert|]. done.
  Qed.
  Lemma ok_at1_0 ρ s st i t u n al l (f : lst -> lptr -> M H (lst * lptr)) h' e p q :
    R ρ s st -> k_ls s !! i = Some (al, Some l) -> k_it s !! t = Some n ->
    f (addr ρ al l) (PAddr (ρ n)) (w_heap (i_w st)) = Ok ((L al (ρ (k_front l)) (ρ (k_end l)) (rn ρ e), PAddr q), h') ->
    became (w_heap (i_w st)) h' al (ρ (k_front l)) (ρ (k_end l)) (rn ρ (k_els l)) (rn ρ e) ->
    (forall n, n ∈ e.*1 -> n ∈ (k_els l).*1) -> nlen e < W ->
    lfp (ρ (k_front l)) (rn ρ e) (ρ (k_end l)) !! p = Some q ->
    agrees krel (at1 i t u f st) (SOk (set_it (put s i al (with_els l e)) u (name_at (with_els l e) p)) KU).
  Proof.
    intros HR Hi Ht E Hb He HW Hq. unfold at1. rewrite (bind_ok _ _ _ _ _ (gett_ok _ _ _ _ _ HR Ht)).
    destruct (ok_became0 ρ s st i al l (fun o => f o (PAddr (ρ n))) _ h' e HR Hi E Hb He HW) as (st' & E' & HR' & Hit).
    rewrite (bind_ok _ _ _ _ _ E'). eexists. split; [done|]. exists ρ.
    eapply ok_set; [exact HR'|apply lookup_insert|]. done.
  Qed.

  (** ** Members that give no iterator *)
  Lemma ok_one_ ρ ρ' s st i al l (f : lst -> M H lst) ms h' e k :
    R ρ s st -> k_ls s !! i = Some (al, Some l) -> (forall n, n < k_next s -> ρ' n = ρ n) ->
    f (addr ρ al l) (w_heap (i_w st)) = Ok (L al (ρ (k_front l)) (ρ (k_end l)) ms, h') ->
    became (w_heap (i_w st)) h' al (ρ (k_front l)) (ρ (k_end l)) (rn ρ (k_els l)) ms ->
    rn ρ' e = ms -> Forall (fun n => n < k_next s + N.of_nat k) e.*1 -> nlen e < W ->
    agrees krel (one_ i f st) (SOk (put (used s k) i al (with_els l e)) KU).
  Proof.
    intros HR Hi Hr E Hb Hm He HW. unfold one_.
    destruct (ok_became ρ ρ' s st i al l (fun o => o' <-- f o ;; ret (o', (KU : kout T))) KU ms h' e k HR Hi Hr) as (st' & E' & HR' & _); try done.
    { by rewrite (bind_ok _ _ _ _ _ E). }
    exists st'. split; [done|]. by exists ρ'.
  Qed.
  Lemma ok_one_0 ρ s st i al l (f : lst -> M H lst) h' e :
    R ρ s st -> k_ls s !! i = Some (al, Some l) ->
    f (addr ρ al l) (w_heap (i_w st)) = Ok (L al (ρ (k_front l)) (ρ (k_end l)) (rn ρ e), h') ->
    became (w_heap (i_w st)) h' al (ρ (k_front l)) (ρ (k_end l)) (rn ρ (k_els l)) (rn ρ e) ->
    (forall n, n ∈ e.*1 -> n ∈ (k_els l).*1) -> nlen e < W ->
    agrees krel (one_ i f st) (SOk (put s i al (with_els l e)) KU).
  Proof.
    intros HR Hi E Hb He HW. unfold one_.
    destruct (ok_became0 ρ s st i al l (fun o => o' <-- f o ;; ret (o', (KU : kout T))) KU h' e HR Hi) as (st' & E' & HR' & _); try done.
    { by rewrite (bind_ok _ _ _ _ _ E). }
    exists st'. split; [done|]. by exists ρ.
  Qed.
  Lemma rn_ins1 ρ c e1 e2 b v : Forall (fun n => n < c) e1.*1 -> Forall (fun n => n < c) e2.*1 ->
    rn (ext ρ c [b]) (e1 ++ (c, v) :: e2) = rn ρ e1 ++ (b, v) :: rn ρ e2.
  Proof.
    intros H1 H2. pose proof (rn_ins ρ c e1 e2 [(b, v)] H1 H2) as E. cbn [ads vls fmap list_fmap fst snd] in E.
    rewrite number_1 in E. exact E.
  Qed.
  Lemma ins_names1 c (v : T) e1 e2 : Forall (fun n => n < c) e1.*1 -> Forall (fun n => n < c) e2.*1 ->
    Forall (fun n => n < c + N.of_nat 1) (e1 ++ (c, v) :: e2).*1.
  Proof.
    intros H1 H2. pose proof (ins_names c [v] e1 e2 H1 H2) as E. rewrite number_1 in E. exact E.
  Qed.
  Lemma ok_two ρ s st i j f si sj si' sj' : R ρ s st -> i <> j ->
    k_ls s !! i = Some si -> k_ls s !! j = Some sj ->
    (forall (l : lst) fi (o : lst) fj, nrep ρ (k_next s) (w_heap (i_w st)) l si fi -> nrep ρ (k_next s) (w_heap (i_w st)) o sj fj -> apart fi fj ->
       exists (l' o' : lst) h' fi' fj', f l o (w_heap (i_w st)) = Ok ((l', o'), h') /\ nrep ρ (k_next s) h' l' si' fi' /\
         nrep ρ (k_next s) h' o' sj' fj' /\ apart fi' fj' /\ upd (w_heap (i_w st)) h' (fi ++ fj) (fi' ++ fj')) ->
    agrees krel (two i j f st) (SOk (set_ls s (<[i := si']> (<[j := sj']> (k_ls s)))) KU).
  Proof.
    intros [[m Hw] Hit] Hij Hi Hj Hf.
    destruct (world_ok_lookup_spec _ _ _ _ _ _ Hw Hi) as (ei & Hmi & Hei & Hvi & Hri).
    destruct (world_ok_lookup_spec _ _ _ _ _ _ Hw Hj) as (ej & Hmj & Hej & Hvj & Hrj).
    destruct (Hf _ _ _ _ Hri Hrj) as (l' & o' & h' & fi' & fj' & E & H1 & H2 & Hap & Hu).
    { intros a Ha Ha'. exact (wo_disj _ _ _ _ Hw i j _ _ a Hmi Hmj Hij Ha Ha'). }
    unfold two, onw, bind, wget. rewrite Hvi, Hvj. unfold lift. rewrite E. cbn.
    eexists. split; [done|]. exists ρ. split; [|done]. eexists. cbn [set_ls k_ls k_next i_w].
    exact (world_upd2 _ (nrep_frame ρ (k_next s)) (nrep_dom ρ (k_next s)) (i_w st) (k_ls s) m i j ei ej _ _ _ _ _ fi' fj' Hw Hmi Hmj Hij Hu Hap H1 H2).
  Qed.
  Lemma nrep_moved ρ c h o x fp : nrep ρ c h o x fp -> nrep ρ c h (moved_from o) (fst x, None) [].
  Proof. intros []; constructor. Qed.
  Lemma nrep_destroy ρ c h o x fp : hwf h -> nrep ρ c h o x fp -> exists o' h', l_destroy dbl o h = Ok (o', h') /\ upd h h' fp [].
  Proof.
    intros Hwf [al l Lk HW Hn|al].
    - rewrite <-rn_names. by eapply destroy_ok.
    - eexists _, h. split; [done|]. apply upd_refl; [done|]. intros a Ha. set_solver.
  Qed.
  (** Different names have different addresses. *)
  Lemma R_inj ρ s st i j al al' l l' n m : R ρ s st -> k_ls s !! i = Some (al, Some l) -> k_ls s !! j = Some (al', Some l') ->
    n ∈ names l -> m ∈ names l' -> ρ n = ρ m -> n = m.
  Proof.
    intros HR Hi Hj Hn Hm E. destruct (decide (i = j)) as [<-|Hij].
    - rewrite Hi in Hj. injection Hj as <- <-. destruct (R_live _ _ _ _ _ _ HR Hi) as (_ & Lk & _).
      pose proof (lok_nd dbl _ _ _ _ _ Lk) as Hnd. rewrite rn_names in Hnd.
      apply elem_of_list_lookup in Hn as [p Hp]. apply elem_of_list_lookup in Hm as [q Hq].
      assert (p = q); [|congruence].
      eapply (NoDup_lookup (ρ <$> names l)); [exact Hnd| |]; rewrite list_lookup_fmap; [by rewrite Hp|by rewrite Hq, E].
    - destruct HR as [[w Hw] _].
      destruct (world_ok_lookup_spec _ _ _ _ _ _ Hw Hi) as (ei & Hmi & _ & _ & Hri).
      destruct (world_ok_lookup_spec _ _ _ _ _ _ Hw Hj) as (ej & Hmj & _ & _ & Hrj).
      apply nrep_inv in Hri as (_ & _ & _ & _ & Hfi). apply nrep_inv in Hrj as (_ & _ & _ & _ & Hfj).
      destruct (wo_disj _ _ _ _ Hw i j _ _ (ρ n) Hmi Hmj Hij).
      + rewrite Hfi, rn_names. apply elem_of_list_fmap. by exists n.
      + rewrite Hfj, rn_names. apply elem_of_list_fmap. by exists m.
  Qed.

  (** ** Operations on sequences do not depend on the addresses *)
  Lemma rn_reverse ρ e : rn ρ (reverse e) = reverse (rn ρ e).
  Proof. apply fmap_reverse. Qed.
  Lemma rn_rest ρ f e : rn ρ (rest (fun x => f (snd x)) e) = kept f (rn ρ e).
  Proof.
    unfold kept, rest. induction e as [|[n v] e IH]; [done|]. cbn. cbn [prod_map snd] in *.
    destruct (f v) eqn:E; cbn [negb]; [rewrite decide_False by congruence; exact IH|].
    rewrite decide_True by done. cbn. f_equal. exact IH.
  Qed.
  Lemma rn_firsts ρ r e : rn ρ (firsts (fun x y => r (snd x) (snd y)) e) = unique_of r (rn ρ e).
  Proof.
    destruct e as [|[n v] e]; [done|]. cbn. f_equal. revert n v.
    induction e as [|[m w] e IH]; intros n v; [done|]. cbn. destruct (r w v); [apply (IH n)|]. cbn. f_equal. apply (IH m).
  Qed.
  Lemma rn_ssort ρ lt e : rn ρ (ssort (val_lt lt) e) = ssort (on snd lt) (rn ρ e).
  Proof.
    assert (Hs : forall x e, rn ρ (sins (val_lt lt) x e) = sins (on snd lt) (prod_map ρ id x) (rn ρ e)).
    { intros x e0. induction e0 as [|y e0 IH]; [done|]. cbn. unfold val_lt, on in *. cbn in *.
      destruct x as [n v], y as [m w]. cbn in *. destruct (lt w v); cbn; [f_equal; apply IH|done]. }
    induction e as [|x e IH]; [done|].
    change (ssort (val_lt lt) (x :: e)) with (sins (val_lt lt) x (ssort (val_lt lt) e)). rewrite Hs, IH. done.
  Qed.
  Lemma swo_on lt : swo lt -> swo (on (snd : N * T -> T) lt).
  Proof.
    intros [A B C]. unfold on. split; [intros x; apply A|intros x y z; apply B|intros x y z; apply C].
  Qed.
  Lemma srt_on lt (ns : list (N * T)) : srt lt ns.*2 -> srt (on snd lt) ns.
  Proof.
    intros Hs i j x y Hij Hx Hy. unfold on. apply (Hs i j); [done| |]; rewrite list_lookup_fmap; [by rewrite Hx|by rewrite Hy].
  Qed.

  (** ** Assigning through an iterator *)
  Lemma it_set_ok h al hd n1 a v v' n2 tl : hwf h -> lok h al hd (n1 ++ (a, v) :: n2) tl ->
    exists h', it_set (PAddr a) v' h = Ok (tt, h') /\ became h h' al hd tl (n1 ++ (a, v) :: n2) (n1 ++ (a, v') :: n2).
  Proof.
    intros Hwf Lk. pose proof (node_at dbl _ _ _ _ _ _ _ _ Lk) as Hn. pose proof (node_has _ _ _ _ Hn) as [c Hc].
    unfold it_set. rewrite (bind_ok _ _ _ _ _ (value_ok _ _ _ _ Hn)). unfold put_data.
    rewrite (bind_ok _ _ _ _ _ (rd_ok _ _ _ Hc)). rewrite (wr_ok _ _ _ _ Hc). eexists. split; [done|].
    set (h' := Heap _ _ _).
    assert (Hnx : forall b, nx h' b = nx h b).
    { intros b. unfold nx, h'. cbn. destruct (decide (a = b)) as [<-|Hne]; [by rewrite lookup_insert, Hc|by rewrite lookup_insert_ne]. }
    assert (Hpv : forall b, pv h' b = pv h b).
    { intros b. unfold pv, h'. cbn. destruct (decide (a = b)) as [<-|Hne]; [by rewrite lookup_insert, Hc|by rewrite lookup_insert_ne]. }
    assert (Hdt : forall b, b <> a -> dt h' b = dt h b).
    { intros b Hb. unfold dt, h'. cbn. by rewrite lookup_insert_ne. }
    assert (Hda : node h' al a v').
    { unfold node, dt, h' in *. cbn. rewrite lookup_insert. rewrite Hc in Hn. cbn in *. by injection Hn as -> -> _. }
    pose proof (lk_nd _ _ _ _ _ _ Lk) as Hnd. rewrite ads_app, ads_cons in Hnd.
    assert (Ha : a ∈ ads n1 ++ a :: ads n2) by (apply elem_of_app; right; by left).
    assert (Hlfp : lfp hd (n1 ++ (a, v') :: n2) tl = lfp hd (n1 ++ (a, v) :: n2) tl) by (unfold lfp; by rewrite !ads_app, !ads_cons).
    assert (Hhd : hd <> a). { intros ->. apply NoDup_cons in Hnd as [Hx _]. apply Hx. apply elem_of_app. by left. }
    assert (Htl : tl <> a).
    { intros ->. apply NoDup_cons in Hnd as [_ Hnd]. apply NoDup_app in Hnd as (_ & Hx & _). apply (Hx a Ha). by left. }
    split.
    - destruct Lk as [A1 A2 A3 A4 A5 A6]. split.
      + by rewrite ads_app, ads_cons.
      + unfold virt. by rewrite Hdt.
      + unfold virt. by rewrite Hdt.
      + assert (G : forall p ns, a ∉ ads ns -> oseg dbl h al p ns -> oseg dbl h' al p ns).
        { intros p ns. revert p. induction ns as [|[b u] ns IH]; intros p Hna; [done|].
          rewrite ads_cons in Hna. apply not_elem_of_cons in Hna as [Hb Hna]. cbn [oseg].
          intros ([G1 G2] & G3 & G4). split; [split; [by rewrite Hnx|intros Hd; rewrite Hpv; auto]|].
          split; [unfold node; by rewrite Hdt by done|]. by apply IH. }
        destruct A4 as [S1 S2]. rewrite endp_app in S2. apply oseg_app in S1 as [S1 S3]. cbn [oseg endp] in S2, S3.
        destruct S3 as (S3 & _ & S4).
        apply NoDup_cons in Hnd as [_ Hnd]. apply NoDup_app in Hnd as (Hnd & _ & _).
        apply NoDup_app in Hnd as (_ & H1 & Hnd). apply NoDup_cons in Hnd as [H2 _].
        split; [apply oseg_app; split; [apply G; [|done]|cbn [oseg]; split; [|split; [done|by apply G]]]|rewrite endp_app; cbn [endp]].
        * intros Hin. apply (H1 a Hin). by left.
        * destruct S3 as [G1 G2]. split; [by rewrite Hnx|intros Hd; rewrite Hpv; auto].
        * destruct S2 as [G1 G2]. split; [by rewrite Hnx|intros Hd; rewrite Hpv; auto].
      + by rewrite Hnx.
      + intros Hd. rewrite Hpv. auto.
    - rewrite Hlfp. assert (Hin : a ∈ lfp hd (n1 ++ (a, v) :: n2) tl).
      { unfold lfp. right. apply elem_of_app. left. rewrite ads_app, ads_cons. done. }
      assert (Hdom : forall b, is_Some (hmap h' !! b) <-> is_Some (hmap h !! b)).
      { intros b. unfold h'. cbn. destruct (decide (a = b)) as [<-|Hne]; [rewrite lookup_insert, Hc; naive_solver|by rewrite lookup_insert_ne]. }
      pose proof (upd_refl h (lfp hd (n1 ++ (a, v) :: n2) tl) Hwf (fun b Hb => lok_has dbl _ _ _ _ _ b Lk Hb)) as [U1 U2 U3 U4 U5].
      split; [done| |done| |].
      + intros b Hb Hnb. unfold h'. cbn. rewrite lookup_insert_ne; [done|]. by intros <-.
      + intros b. rewrite Hdom. apply U4.
      + intros b Hb. apply Hwf. by apply Hdom.
  Qed.
End Ref.
