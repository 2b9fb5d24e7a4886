(** * CharModel: include/mstl/str/basic_char.h,
      include/mstl/str/encoding/utility/compile_time_validation.h and the
      character functions of include/mstl/str/encoding/ascii.h

    A string literal is the list of its code units as [u8], with the
    terminating zero.  What is rejected at compile time is [None].

    Not modelled: [bit_cast], [CharType] and [Bytes] (basic_char.h:14-49),
    which nothing uses. *)
From Verif Require Import Base IterSpec Utf8Model.
Local Open Scope N_scope.

(** compile_time_validation.h:31-43 [CharsWrap]: all code units but the last. *)
Definition chars_wrap (s : list N) : list N := take (length s - 1) s.
(** compile_time_validation.h:11-23 the literal operators: the bytes of the
    [ValidBytes] they make. *)
Definition literal (validate : list N -> outcome (option N)) (s : list N) : option (list N) :=
  if (length s - 1 =? 0)%nat then None
  else match validate (chars_wrap s) with
       | Ok None => Some (chars_wrap s)
       | _ => None
       end.
(** ascii.h:71, utf8.h:243. *)
Definition ascii_literal : list N -> option (list N) := literal (fun bs => Ok (ascii_validate bs)).
Definition utf8_literal : list N -> option (list N) := literal utf8_validate.

(** basic_char.h:58-81 [BasicChar] of a block code, 83-107 of a variable-length
    code; [c_len] is what [get_len()] returns. *)
Record chr := Chr { c_len : N; c_bytes : list N }.
(** The loop 67-69, 92-95 over the zero-initialised array. *)
Fixpoint fill (i : nat) (src dst : list N) : list N :=
  match src with [] => dst | b :: r => fill (S i) r (<[i := b]> dst) end.
Definition chr_new (max : nat) (variable : bool) (valid : list N) : option chr :=
  if (0 <? length valid)%nat && (length valid <=? max)%nat then
    Some (Chr (if variable then N.of_nat (length valid) else N.of_nat max) (fill 0 valid (replicate max 0)))
  else None.
(** ascii.h:17-19, utf8.h:19-21. *)
Definition ascii_chr : list N -> option chr := chr_new 1 false.
Definition utf8_chr : list N -> option chr := chr_new 4 true.
(** basic_char.h:110-114 [operator<<]: the bytes written; reading outside the
    array is undefined. *)
Definition chr_print (c : chr) : outcome (list N) :=
  if c_len c <=? N.of_nat (length (c_bytes c)) then Ok (take (N.to_nat (c_len c)) (c_bytes c)) else Err UB.

(** Printing a sequence of characters one after the other. *)
Fixpoint print_all (cs : list (option chr)) : outcome (list N) :=
  match cs with
  | [] => Ok []
  | None :: _ => Err UB
  | Some c :: r =>
      match chr_print c, print_all r with
      | Ok a, Ok b => Ok (a ++ b)
      | Err e, _ => Err e
      | _, Err e => Err e
      end
  end.

(** basic_string.h:22-38 [Chars<Ascii>] over the remaining bytes, and
    ascii.h:38-46 called on the same kind of iterator. *)
Definition ascii_step (o : de_op) : M (list N) (de_out (list N)) :=
  match o with
  | DNext => fun bs => let '(c, bs') := ascii_next bs in Ok (EItem c, bs')
  | DPrev => fun bs => let '(c, bs') := ascii_last bs in Ok (EItem c, bs')
  | _ => fail UB
  end.
