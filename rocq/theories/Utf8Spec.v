(** * Utf8Spec: UTF-8 as RFC 3629 defines it

    Scalar values and the encoding function of section 3 of the RFC.  Nothing
    here mentions the implementation. *)
From Verif Require Import Base.
Local Open Scope N_scope.

(** Unicode scalar values: U+0000..U+D7FF and U+E000..U+10FFFF. *)
Definition scalar (c : N) : Prop := c < 0xD800 \/ (0xE000 <= c /\ c < 0x110000).

Definition enc (c : N) : list N :=
  if c <? 0x80 then [c]
  else if c <? 0x800 then [0xC0 + c / 64; 0x80 + c mod 64]
  else if c <? 0x10000 then [0xE0 + c / 4096; 0x80 + (c / 64) mod 64; 0x80 + c mod 64]
  else [0xF0 + c / 262144; 0x80 + (c / 4096) mod 64; 0x80 + (c / 64) mod 64; 0x80 + c mod 64].

Definition encs (cs : list N) : list N := concat (enc <$> cs).

(** A valid string is the encoding of a sequence of scalar values. *)
Definition valid_utf8 (bs : list N) : Prop := exists cs, Forall scalar cs /\ bs = encs cs.

(** [p] is the beginning of some character, but not all of it. *)
Definition begun (p : list N) : Prop := exists c b t, scalar c /\ enc c = p ++ b :: t.
(** [p] is how some character starts (possibly all of it). *)
Definition starts_char (p : list N) : Prop := exists c t, scalar c /\ enc c = p ++ t.
