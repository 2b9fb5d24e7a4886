(** * Printed: the text [operator<<] writes, and what can be read back from it (C89)

    [VecModel.print], [ListStep.l_print] and [StringModel.str_print] give what
    goes to the stream piece by piece.  Here the pieces are bytes, so that
    vectors of lists of vectors can be printed, and whole texts compared.

    Simplifications: the stream has its default flags (decimal, no width), and
    an integer is written as an optional minus sign and its decimal digits
    without leading zeros, which is what the C++ standard library does.
    [Layout] and [BasicChar] have their [operator<<] in the global namespace
    (layout.h:64, basic_char.h:110), where the templates of [mstl] do not look
    for it: they are printed by themselves only. *)
From Coq Require Import Ascii String Decimal DecimalN.
From Verif Require Import Base World Machine VecModel VecSpec VecProofs VecRefine VecMore.
From Verif Require Import ListModel ListStep ListSpec ListRefine ListNodes ListProps.
Local Open Scope N_scope.

Definition text := list N.
Definition lit (s : string) : text := N_of_ascii <$> list_ascii_of_string s.

(** ** Integers *)
Fixpoint digits (u : uint) : text :=
  match u with
  | Nil => []
  | D0 u => 48 :: digits u | D1 u => 49 :: digits u | D2 u => 50 :: digits u | D3 u => 51 :: digits u
  | D4 u => 52 :: digits u | D5 u => 53 :: digits u | D6 u => 54 :: digits u | D7 u => 55 :: digits u
  | D8 u => 56 :: digits u | D9 u => 57 :: digits u
  end.
Definition dec (n : N) : text := digits (N.to_uint n).
Definition int_text (z : Z) : text := if (z <? 0)%Z then 45 :: dec (Z.abs_N z) else dec (Z.abs_N z).

(** ** The model *)
Section Model.
  Context {A : Type} (show : A -> text).
  (** vector.h:1073-1084: the pieces of [VecModel.print]. *)
  Definition vec_piece (t : nat + A) : text :=
    match t with
    | inl O => lit "Vec [" | inl 1%nat => lit ", " | inl _ => lit "]"
    | inr x => show x
    end.
  Definition vec_bytes (ts : list (nat + A)) : text := flat_map vec_piece ts.
  (** linked_list.h:1947-1981: the pieces of [ListStep.l_print]. *)
  Definition list_piece (t : ptok A) : text :=
    match t with
    | POpen true => lit "List [" | POpen false => lit "ForwardList ["
    | PElem x => show x | PSep => lit ", " | PClose => lit "]"
    end.
  Definition list_bytes (ts : list (ptok A)) : text := flat_map list_piece ts.
End Model.

(** layout.h:64-67 *)
Definition layout_text (size align : N) : text :=
  lit "Layout [size: " ++ dec size ++ lit ", align: " ++ dec align ++ lit "]".
(** layout_error.h:13-15 *)
Definition layout_error_text : text := lit "Invalid parameters to Layout::from_size_align".
(** decode_error.h:18-22 *)
Definition decode_error_text (valid_up_to : N) : text := lit "Decode Error: valid_up_to " ++ dec valid_up_to.
(** global.h:47-54 [print]: each argument and a line feed. *)
Fixpoint print_args (args : list text) : text :=
  match args with [] => [] | a :: r => a ++ [10] ++ print_args r end.

(** ** The specification *)
Inductive kind := KVec | KList | KFwd.
Definition opening (k : kind) : text :=
  lit (match k with KVec => "Vec [" | KList => "List [" | KFwd => "ForwardList [" end).
(** The elements' texts with a comma and a space between them. *)
Fixpoint joined (xs : list text) : text :=
  match xs with [] => [] | [x] => x | x :: r => x ++ [44; 32] ++ joined r end.
Definition seq_text {A} (k : kind) (show : A -> text) (xs : list A) : text :=
  opening k ++ joined (show <$> xs) ++ [93].

(** The types that can be printed inside each other: integers, the two error
    types, strings, and sequences of all these. *)
Inductive ty := TInt | TDecErr | TLayErr | TStr | TSeq (k : kind) (t : ty).
Fixpoint den (t : ty) : Type :=
  match t with TInt => Z | TDecErr => N | TLayErr => unit | TStr => list N | TSeq _ t => list (den t) end.
Fixpoint show (t : ty) : den t -> text :=
  match t with
  | TInt => int_text
  | TDecErr => decode_error_text
  | TLayErr => fun _ => layout_error_text
  | TStr => fun bs => bs
  | TSeq k t => seq_text k (show t)
  end.
Fixpoint no_strings (t : ty) : bool := match t with TStr => false | TSeq _ t => no_strings t | _ => true end.
(** Every string in the value is not empty and has no comma and no closing bracket. *)
Definition plain_str (bs : list N) : Prop := bs <> [] /\ Forall (fun b => b <> 44 /\ b <> 93) bs.
Fixpoint plain (t : ty) : den t -> Prop :=
  match t with TStr => plain_str | TSeq _ t => fun xs => Forall (plain t) xs | _ => fun _ => True end.

(** ** What is written in reachable states *)
Section Vec.
  Context {A : Type} (dflt : A) (eqb : A -> A -> bool) (cmp : A -> A -> comparison).
  Context (sz lmax : N) (Hsz : 1 <= sz) (Hlim : sz * (2 * lmax + 2) <= alloc_max).
  Context (sh : A -> text).

  Lemma vec_items_text xs : flat_map (vec_piece sh) (seq_items xs) = joined (sh <$> xs).
  Proof using. clear Hsz Hlim. induction xs as [|x [|y r] IH]; [done|cbn; by rewrite app_nil_r|].
    change (sh x ++ [44; 32] ++ flat_map (vec_piece sh) (seq_items (y :: r)) = joined (sh <$> x :: y :: r)).
    rewrite IH. done.
  Qed.
  Theorem C89_vector ops s outs i xs :
    good dflt eqb cmp lmax ops s outs -> s !! i = Some xs ->
    exists ts w, vec_run sz dflt eqb cmp (ops ++ [VPrint i]) = Ok (outs ++ [VecModel.OToks ts], w) /\
      vec_bytes sh ts = seq_text KVec sh xs.
  Proof using Hsz Hlim.
    intros Hg Hi. destruct (good_run sz lmax dflt eqb cmp Hsz Hlim (ops ++ [VPrint i]) s (outs ++ [VecModel.OToks (seq_print xs)])) as (w & E & _).
    { eapply good_snoc; [done| |done|done|by eapply good_within]. cbn. unfold observe. by rewrite Hi. }
    exists (seq_print xs), w. split; [done|]. unfold vec_bytes, seq_print, seq_text.
    cbn [flat_map]. rewrite flat_map_app, vec_items_text. done.
  Qed.
End Vec.
Section Lst.
  Context {T : Type} (dbl : bool) (sh : T -> text).
  Lemma list_items_text (xs : list T) : flat_map (list_piece sh) (shown xs) = joined (sh <$> xs).
  Proof.
    destruct xs as [|x r]; [done|]. cbn [shown flat_map list_piece]. revert x.
    induction r as [|y r IH]; intros x; [cbn; by rewrite app_nil_r|]. cbn [flat_map app]. 
    change (sh x ++ [44; 32] ++ sh y ++ flat_map (list_piece sh) (flat_map (fun y => [PSep; PElem y]) r) = joined (sh <$> x :: y :: r)).
    rewrite IH. done.
  Qed.
  Theorem C89_list sp w i al xs : reached dbl sp w -> sp !! i = Some (al, Some xs) ->
    exists ts w', list_step dbl (LPrint i) w = Ok (OToks ts, w') /\
      list_bytes sh ts = seq_text (if dbl then KList else KFwd) sh xs.
  Proof.
    intros Hr Hi. destruct (C53_print dbl sp w i al xs Hr Hi) as (w' & E & _).
    eexists _, w'. split; [exact E|]. unfold list_bytes, seq_text. cbn [flat_map].
    rewrite flat_map_app, list_items_text. by destruct dbl.
  Qed.
End Lst.

(** ** Reading back *)
Definition delim (r : text) : Prop := match r with [] => True | c :: _ => c = 44 \/ c = 93 end.
Definition reads {A} (P : A -> Prop) (sh : A -> text) : Prop := forall x y r r',
  P x -> P y -> delim r -> delim r' -> sh x ++ r = sh y ++ r' -> x = y /\ r = r'.
Definition starts {A} (P : A -> Prop) (sh : A -> text) : Prop := forall x,
  P x -> match sh x with [] => False | c :: _ => c <> 93 end.

Lemma digits_reads u : forall v r r', delim r -> delim r' -> digits u ++ r = digits v ++ r' -> u = v /\ r = r'.
Proof.
  assert (Hd : forall u, match digits u with [] => True | c :: _ => 48 <= c <= 57 end) by (intros []; cbn; lia).
  induction u; intros v r r' Hr Hr' E; destruct v; cbn [digits app] in E; try discriminate E;
    try (injection E as E; destruct (IHu _ _ _ Hr Hr' E) as [-> ->]; done);
    try (split; [done|exact E]); exfalso;
    try (rewrite E in Hr; cbn in Hr; lia); rewrite <-E in Hr'; cbn in Hr'; lia.
Qed.
Lemma dec_reads : reads (fun _ => True) dec.
Proof.
  intros x y r r' _ _ Hr Hr' E. unfold dec in E. destruct (digits_reads _ _ _ _ Hr Hr' E) as [E1 ->].
  split; [by apply Unsigned.to_uint_inj|done].
Qed.
Lemma dec_head n : match dec n with [] => False | c :: _ => 48 <= c <= 57 end.
Proof.
  unfold dec. destruct (N.to_uint n) eqn:E; cbn; try lia.
  assert (n = 0) as -> by (rewrite <-(Unsigned.of_to n), E; done). discriminate E.
Qed.
Lemma int_reads : reads (fun _ => True) int_text.
Proof.
  intros x y r r' _ _ Hr Hr' E. unfold int_text in E. pose proof (dec_head (Z.abs_N x)) as Hx. pose proof (dec_head (Z.abs_N y)) as Hy.
  destruct (Z.ltb_spec x 0), (Z.ltb_spec y 0).
  - injection E as E. destruct (dec_reads _ _ _ _ I I Hr Hr' E) as [? ->]. split; [lia|done].
  - exfalso. destruct (dec (Z.abs_N y)) as [|c d]; [done|]. injection E as E _. lia.
  - exfalso. destruct (dec (Z.abs_N x)) as [|c d]; [done|]. injection E as E _. lia.
  - destruct (dec_reads _ _ _ _ I I Hr Hr' E) as [? ->]. split; [lia|done].
Qed.
Lemma int_starts : starts (fun _ => True) int_text.
Proof.
  intros x _. unfold int_text. destruct (x <? 0)%Z; [cbn; lia|]. pose proof (dec_head (Z.abs_N x)).
  destruct (dec _); [done|lia].
Qed.

Lemma plain_reads : reads plain_str (fun bs => bs).
Proof.
  intros x y r r' [_ Hx] [_ Hy] Hr Hr'. revert y Hy. induction Hx as [|a x [] Hx IH]; intros y Hy E; destruct Hy as [|b y [] Hy].
  - done.
  - exfalso. cbn in E. rewrite E in Hr. cbn in Hr. lia.
  - exfalso. cbn in E. rewrite <-E in Hr'. cbn in Hr'. lia.
  - injection E as -> E. by destruct (IH y Hy E) as [-> ->].
Qed.
Lemma plain_starts : starts plain_str (fun bs => bs).
Proof. intros x [Hn Hx]. destruct Hx as [|a x []]; done. Qed.

(** Sequences of readable things are readable. *)
Fixpoint more {A} (sh : A -> text) (xs : list A) (r : text) : text :=
  match xs with [] => 93 :: r | x :: xs => 44 :: 32 :: sh x ++ more sh xs r end.
Lemma joined_more {A} (sh : A -> text) x xs r : joined (sh <$> x :: xs) ++ 93 :: r = sh x ++ more sh xs r.
Proof.
  revert x. induction xs as [|y xs IH]; intros x; [done|].
  change (joined (sh <$> x :: y :: xs)) with (sh x ++ 44 :: 32 :: joined (sh <$> y :: xs)).
  rewrite <-app_assoc. cbn [app]. rewrite IH. done.
Qed.
Lemma more_delim {A} (sh : A -> text) xs r : delim (more sh xs r).
Proof. destruct xs; cbn; lia. Qed.
Lemma more_reads {A} (P : A -> Prop) (sh : A -> text) : reads P sh ->
  forall xs ys r r', Forall P xs -> Forall P ys -> more sh xs r = more sh ys r' -> xs = ys /\ r = r'.
Proof.
  intros H. induction xs as [|x xs IH]; intros ys r r' Hx Hy E; destruct ys as [|y ys]; cbn [more] in E; try discriminate E.
  - by injection E as ->.
  - injection E as E. inversion Hx; inversion Hy; subst.
    destruct (H x y _ _ ltac:(done) ltac:(done) (more_delim _ _ _) (more_delim _ _ _) E) as [-> E'].
    by destruct (IH _ _ _ ltac:(done) ltac:(done) E') as [-> ->].
Qed.
Lemma seq_reads {A} (P : A -> Prop) (sh : A -> text) k : reads P sh -> starts P sh -> reads (Forall P) (seq_text k sh).
Proof.
  intros H S xs ys r r' Hx Hy _ _ E. unfold seq_text in E. rewrite <-!app_assoc in E. apply app_inv_head in E. cbn [app] in E.
  destruct xs as [|x xs], ys as [|y ys].
  - cbn in E. by injection E as ->.
  - exfalso. rewrite joined_more in E. cbn in E. inversion Hy as [|? ? Py]; subst. pose proof (S y Py) as Sy.
    destruct (sh y); [done|]. injection E as E _. done.
  - exfalso. rewrite joined_more in E. cbn in E. inversion Hx as [|? ? Px]; subst. pose proof (S x Px) as Sx.
    destruct (sh x); [done|]. injection E as E _. done.
  - rewrite !joined_more in E. inversion Hx; inversion Hy; subst.
    destruct (H x y _ _ ltac:(done) ltac:(done) (more_delim _ _ _) (more_delim _ _ _) E) as [-> E'].
    assert (xs = ys /\ r = r') as [-> ->]; [|done]. by eapply more_reads.
Qed.
Lemma seq_starts {A} (P : A -> Prop) (sh : A -> text) k : starts (Forall P) (seq_text k sh).
Proof. intros xs _. destruct k; done. Qed.

Lemma show_reads t : reads (plain t) (show t) /\ starts (plain t) (show t).
Proof.
  induction t as [| | | |k t [IH1 IH2]]; cbn [plain show].
  - split; [apply int_reads|apply int_starts].
  - split; [|by intros ? _].
    intros x y r r' _ _ Hr Hr' E. unfold decode_error_text in E. rewrite <-!app_assoc in E. apply app_inv_head in E.
    by apply dec_reads.
  - split; [|by intros ? _]. intros [] [] r r' _ _ Hr Hr' E. split; [done|]. by apply app_inv_head in E.
  - split; [apply plain_reads|apply plain_starts].
  - split; [by apply seq_reads|apply seq_starts].
Qed.

(** The text of a value tells the value, however deep the nesting. *)
Theorem C89_readable_partial t x y : plain t x -> plain t y -> show t x = show t y -> x = y.
Proof.
  intros Px Py E. destruct (show_reads t) as [H _].
  apply (H x y [] [] Px Py I I). by rewrite E.
Qed.
Lemma no_strings_plain t : no_strings t = true -> forall x, plain t x.
Proof. induction t as [| | | |k t IH]; cbn; try done. intros Hs xs. apply Forall_true. by apply IH. Qed.
Theorem C89_readable t x y : no_strings t = true -> show t x = show t y -> x = y.
Proof. intros Hs. apply C89_readable_partial; by apply no_strings_plain. Qed.

(** The text tells the kind of sequence, whatever the element types are. *)
Theorem C89_kinds {A B} k k' (f : A -> text) (g : B -> text) xs ys : seq_text k f xs = seq_text k' g ys -> k = k'.
Proof. destruct k, k'; try done; intros E; discriminate E. Qed.

(** [u8] is written as a character, not as a number.  The text of a vector or
    list of such bytes still tells the bytes, also if they are commas, blanks
    or brackets. *)
Theorem C89_bytes k (xs ys : list N) :
  seq_text k (fun b => [b]) xs = seq_text k (fun b => [b]) ys -> xs = ys.
Proof.
  unfold seq_text. intros E. apply app_inv_head in E.
  assert (H : forall xs ys : list N, more (fun b => [b]) xs [] = more (fun b => [b]) ys [] -> xs = ys).
  { clear. induction xs as [|x xs IH]; intros [|y ys] E; cbn in E; try discriminate E; [done|].
    injection E as -> E. f_equal. by apply IH. }
  destruct xs as [|x xs], ys as [|y ys]; [done| | |].
  - rewrite joined_more in E. by destruct ys.
  - rewrite joined_more in E. by destruct xs.
  - rewrite !joined_more in E. injection E as -> E. f_equal. by apply H.
Qed.

(** [Layout]. *)
Theorem C89_layout s a s' a' : layout_text s a = layout_text s' a' -> s = s' /\ a = a'.
Proof.
  unfold layout_text. intros E. apply app_inv_head in E.
  destruct (fun H H' => dec_reads s s' _ _ I I H H' E) as [-> E1]; [by left|by left|]. apply app_inv_head in E1.
  destruct (fun H H' => dec_reads a a' _ _ I I H H' E1) as [-> _]; [by right|by right|done].
Qed.

(** [print(os, a, b, ...)]: the lines tell the arguments. *)
Theorem C89_lines xs ys : Forall (fun a => 10 ∉ a) xs -> Forall (fun a => 10 ∉ a) ys ->
  print_args xs = print_args ys -> xs = ys.
Proof.
  assert (H : forall a b r r' : text, 10 ∉ a -> 10 ∉ b -> a ++ 10 :: r = b ++ 10 :: r' -> a = b /\ r = r').
  { induction a as [|c a IH]; intros [|d b] r r' Ha Hb E; cbn in E.
    - by injection E as ->.
    - injection E as <- _. exfalso. apply Hb. by left.
    - injection E as -> _. exfalso. apply Ha. by left.
    - injection E as -> E. apply not_elem_of_cons in Ha as [_ Ha]. apply not_elem_of_cons in Hb as [_ Hb].
      by destruct (IH _ _ _ Ha Hb E) as [-> ->]. }
  intros Hx. revert ys. induction Hx as [|x xs Px Hx IH]; intros ys Hy E; destruct Hy as [|y ys Py Hy]; [done| | |]; cbn [print_args] in E.
  - by destruct y.
  - by destruct x.
  - destruct (H _ _ _ _ Px Py E) as [-> E']. f_equal. by apply IH.
Qed.

Lemma digits_line u : 10 ∉ digits u.
Proof. induction u; cbn; rewrite ?not_elem_of_cons; try done. apply not_elem_of_nil. Qed.
Lemma joined_line xs : Forall (fun a => 10 ∉ a) xs -> 10 ∉ joined xs.
Proof.
  induction 1 as [|x [|y r] Hx Hr IH]; [apply not_elem_of_nil|done|].
  change (10 ∉ x ++ 44 :: 32 :: joined (y :: r)). by rewrite not_elem_of_app, !not_elem_of_cons.
Qed.
Lemma show_line t x : no_strings t = true -> 10 ∉ show t x.
Proof.
  induction t as [| | | |k t IH]; cbn [show no_strings]; intros Hs.
  - unfold int_text. destruct (x <? 0)%Z; rewrite ?not_elem_of_cons; [split; [done|]|]; apply digits_line.
  - unfold decode_error_text. rewrite not_elem_of_app. split; [|apply digits_line]. apply (bool_decide_unpack _). vm_compute. done.
  - apply (bool_decide_unpack _). vm_compute. done.
  - done.
  - unfold seq_text. rewrite !not_elem_of_app. split_and!.
    + apply (bool_decide_unpack _). destruct k; vm_compute; done.
    + apply joined_line, Forall_fmap, Forall_true. intros y. by apply IH.
    + apply (bool_decide_unpack _). vm_compute. done.
Qed.
(** So the arguments of [print] can be read back, whatever their number. *)
Theorem C89_print_args t xs ys : no_strings t = true ->
  print_args (show t <$> xs) = print_args (show t <$> ys) -> xs = ys.
Proof.
  intros Hs E. apply C89_lines in E; [|apply Forall_fmap, Forall_true; intros y; by apply show_line..].
  revert ys E. induction xs as [|x xs IH]; intros [|y ys] E; try done. injection E as E1 E2.
  apply C89_readable in E1 as ->; [|done]. f_equal. by apply IH.
Qed.

(** ** Strings *)
Definition C89_full : Prop := forall t x y, show t x = show t y -> x = y.
Theorem C89_refuted : ~ C89_full.
Proof. intros H. discriminate (H (TSeq KVec TStr) [] [[]] eq_refl). Qed.
(** Any two strings with a comma and a blank between them pass for one. *)
Theorem C89_strings_merge k a b xs : show (TSeq k TStr) (a :: b :: xs) = show (TSeq k TStr) ((a ++ lit ", " ++ b) :: xs).
Proof.
  cbn [show]. unfold seq_text. f_equal. change (fmap (fun bs : list N => bs)) with (fmap (M := list) (@id (list N))). rewrite !list_fmap_id.
  destruct xs as [|c xs]; cbn [joined]; rewrite <-!app_assoc; done.
Qed.

(** ** Examples *)
Example C89_ex_text : show (TSeq KVec (TSeq KList TInt)) [[1; -20]; []; [300]]%Z = lit "Vec [List [1, -20], List [], List [300]]" /\
  show (TSeq KFwd TDecErr) [7; 10] = lit "ForwardList [Decode Error: valid_up_to 7, Decode Error: valid_up_to 10]" /\
  layout_text 24 8 = lit "Layout [size: 24, align: 8]".
Proof. done. Qed.
Example C89_ex_nest : (exists ts w, vec_run 24 [] (fun _ _ => true) (fun _ _ => Eq) [VNewList 0 0 [[1; -20]; []; [300]]%Z; VPrint 0] =
    Ok ([VecModel.ONone; VecModel.OToks ts], w) /\
    vec_bytes (show (TSeq KList TInt)) ts = lit "Vec [List [1, -20], List [], List [300]]").
Proof. eexists _, _. split; [vm_compute; reflexivity|reflexivity]. Qed.
Example C89_ex_lines : print_args (show TInt <$> [5; -6]%Z) = [53; 10; 45; 54; 10].
Proof. done. Qed.
Example C89_ex_plain : plain (TSeq KVec TStr) [lit "a b"; lit "[c"] /\ ~ plain (TSeq KVec TStr) [lit "a, b"].
Proof.
  split.
  - cbn. repeat (constructor; try done).
  - cbn. intros H. inversion H as [|? ? [_ Hf]]; subst. inversion Hf as [|? ? _ Hf2]; subst. by inversion Hf2 as [|? ? []].
Qed.
Example C89_ex_bytes : seq_text KVec (fun b => [b]) [44; 93; 32] = lit "Vec [,, ],  ]" /\
  show (TSeq KVec TStr) [lit "a"; lit "b"] = show (TSeq KVec TStr) [lit "a, b"].
Proof. done. Qed.

Print Assumptions C89_vector.
Print Assumptions C89_list.
Print Assumptions C89_readable_partial.
Print Assumptions C89_readable.
Print Assumptions C89_kinds.
Print Assumptions C89_bytes.
Print Assumptions C89_layout.
Print Assumptions C89_lines.
Print Assumptions C89_print_args.
Print Assumptions C89_refuted.
Print Assumptions C89_strings_merge.
