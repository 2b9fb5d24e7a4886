(** * Utf8Model: include/mstl/str/encoding/utf8.h, ascii.h, and the parts of
      include/mstl/str/basic_string.h that only look at bytes

    A byte is an [N] below 256.  A byte iterator (SliceRefIter, proved in C33
    to hand out its elements in order) is the list of the bytes left.
    [iter.next().unwrap_unchecked()] on an exhausted iterator dereferences a
    null pointer: [UB].

    Not modelled: [UTF8::last] (utf8.h:67-94) — it tests [byte.is_none]
    without calling it and so does not compile when used.  The literal
    operators are in CharModel.v. *)
From Verif Require Import Base.
Local Open Scope N_scope.

Definition byte (b : N) : Prop := b < 256.

(** [std::bit_cast<i8>(byte)]. *)
Definition as_i8 (b : N) : Z := if b <? 128 then Z.of_N b else (Z.of_N b - 256)%Z.

(** utf8.h:209-212 [utf8_is_cont_byte]. *)
Definition is_cont (b : N) : bool := (as_i8 b <? -64)%Z.

(** utf8.h:216-234 the table [UTF8_CHAR_WIDTH], row by row. *)
Definition rep16 (w : N) : list N := replicate 16 w.
Definition width_table : list N :=
  rep16 1 ++ rep16 1 ++ rep16 1 ++ rep16 1 ++ rep16 1 ++ rep16 1 ++ rep16 1 ++ rep16 1 ++
  rep16 0 ++ rep16 0 ++ rep16 0 ++ rep16 0 ++
  [0; 0; 2; 2; 2; 2; 2; 2; 2; 2; 2; 2; 2; 2; 2; 2] ++ rep16 2 ++ rep16 3 ++
  [4; 4; 4; 4; 4; 0; 0; 0; 0; 0; 0; 0; 0; 0; 0; 0].
(** utf8.h:236-240 [utf8_char_width]. *)
Definition char_width (b : N) : N := List.nth (N.to_nat b) width_table 0.

(** utf8.h:26-62 [UTF8::next]: the character's bytes and the advanced iterator. *)
Definition utf8_next (bs : list N) : outcome (option (list N) * list N) :=
  match bs with
  | [] => Ok (None, [])
  | x :: r1 =>
      if x <? 0x7F then Ok (Some [x], r1)
      else
        match r1 with
        | [] => Err UB
        | y :: r2 =>
            if x <? 0xE0 then Ok (Some [x; y], r2)
            else
              match r2 with
              | [] => Err UB
              | z :: r3 =>
                  if x <? 0xF0 then Ok (Some [x; y; z], r3)
                  else
                    match r3 with
                    | [] => Err UB
                    | w :: r4 => Ok (Some [x; y; z; w], r4)
                    end
              end
        end
  end.

(** basic_string.h:22-38, 344-347 [chars()]: [n] calls of [next()]. *)
Fixpoint utf8_chars (n : nat) (bs : list N) : outcome (list (option (list N)) * list N) :=
  match n with
  | O => Ok ([], bs)
  | S n' =>
      match utf8_next bs with
      | Ok (c, bs') =>
          match utf8_chars n' bs' with
          | Ok (cs, r) => Ok (c :: cs, r)
          | Err e => Err e
          end
      | Err e => Err e
      end
  end.

(** utf8.h:117-192 one turn of the loop of [validate]: [first] has been read
    and [r] are the bytes after it.  [VOk k r'] accepts [k] further bytes;
    [VErr k] is an error after [offset] was advanced by [k]. *)
Inductive vres := VOk (k : N) (r : list N) | VErr (k : N).
(** utf8.h:103-110 the macro [get_next], with [offset] advanced by [k] so far. *)
Definition get_next (k : N) (r : list N) (cont : N -> list N -> vres) : vres :=
  match r with [] => VErr k | b :: r' => cont b r' end.
Definition check3 (first b : N) : bool :=
  ((0xE0 =? first) && (0xA0 <=? b) && (b <=? 0xBF)) ||
  ((0xE1 <=? first) && (first <=? 0xEC) && (0x80 <=? b) && (b <=? 0xBF)) ||
  ((0xED =? first) && (0x80 <=? b) && (b <=? 0x9F)) ||
  ((0xEE <=? first) && (first <=? 0xEF) && (0x80 <=? b) && (b <=? 0xBF)).
Definition check4 (first b : N) : bool :=
  ((0xF0 =? first) && (0x90 <=? b) && (b <=? 0xBF)) ||
  ((0xF1 <=? first) && (first <=? 0xF3) && (0x80 <=? b) && (b <=? 0xBF)) ||
  ((0xF4 =? first) && (0x80 <=? b) && (b <=? 0x8F)).
Definition vchar (first : N) (r : list N) : vres :=
  let width := char_width first in
  if width =? 1 then VOk 0 r
  else if width =? 2 then
    get_next 0 r (fun b r =>
      if negb (is_cont b) then VErr 1 else VOk 1 r)
  else if width =? 3 then
    get_next 0 r (fun b r =>
      if negb (check3 first b) then VErr 1 else
      get_next 1 r (fun b r =>
        if negb (is_cont b) then VErr 2 else VOk 2 r))
  else if width =? 4 then
    get_next 0 r (fun b r =>
      if negb (check4 first b) then VErr 1 else
      get_next 1 r (fun b r =>
        if negb (is_cont b) then VErr 2 else
        get_next 2 r (fun b r =>
          if negb (is_cont b) then VErr 3 else VOk 3 r)))
  else VErr 0.

(** utf8.h:100-196 [validate]: [None] is "no error", [Some offset] is
    [DecodeError{offset}].  The [while] loop, with fuel for the number of
    characters; the length of the input is enough (C38_validate_terminates). *)
Fixpoint utf8_loop (fuel : nat) (offset : N) (bs : list N) : outcome (option N) :=
  match bs with
  | [] => Ok None
  | x :: r =>
      match fuel with
      | O => Err Fuel
      | S fuel' =>
          match vchar x r with
          | VOk k r' => utf8_loop fuel' (offset + k + 1) r'
          | VErr k => Ok (Some (offset + k))
          end
      end
  end.
Definition utf8_validate (bs : list N) : outcome (option N) := utf8_loop (length bs) 0 bs.

(** utf8.h:202-205 [UTF8::is_char_boundary] on the bytes of a slice (the last
    one decides; [unwrap] of none panics). *)
Definition utf8_is_boundary (bs : list N) : outcome bool :=
  match last bs with
  | None => Err Panic
  | Some b => Ok (-0x40 <=? as_i8 b)%Z
  end.
(** basic_string.h:316-338 [BasicString<UTF8>::is_char_boundary(idx)] on a
    string whose bytes are [bs]. *)
Definition str_is_boundary (bs : list N) (idx : N) : outcome bool :=
  let len := N.of_nat (length bs) in
  if idx =? 0 then Ok true
  else if len <=? idx then Ok (idx =? len)
  else
    let start := if 4 <? idx then idx - 4 else 0 in
    let slice_len := idx + 1 - start in
    utf8_is_boundary (take (N.to_nat slice_len) (drop (N.to_nat start) bs)).

(** ascii.h:25-33 [Ascii::next]; 38-46 [Ascii::last]. *)
Definition ascii_next (bs : list N) : option (list N) * list N :=
  match bs with [] => (None, []) | x :: r => (Some [x], r) end.
Definition ascii_last (bs : list N) : option (list N) * list N :=
  match last bs with None => (None, []) | Some x => (Some [x], take (length bs - 1) bs) end.
(** ascii.h:52-61 [Ascii::validate]. *)
Fixpoint ascii_loop (pos : N) (bs : list N) : option N :=
  match bs with
  | [] => None
  | x :: r => if 128 <? x then Some pos else ascii_loop (pos + 1) r
  end.
Definition ascii_validate (bs : list N) : option N := ascii_loop 0 bs.
