(** * Model of src/utf8.rs and of the UTF-8 functions of the Rust standard library *)

From Verif Require Import Base.

(** [MAX_BYTES_PER_CHAR] (src/utf8.rs:4) *)
Definition MAX_BYTES_PER_CHAR : nat := 4.

(** src/utf8.rs:7-9 *)
Definition is_1byte (b : byte) : bool := b <=? 0x7F.

(** src/utf8.rs:11-19 *)
Definition is_2byte_start (b : byte) : bool := N.land b 0xE0 =? 0xC0.

(** src/utf8.rs:21-29 *)
Definition is_3byte_start (b : byte) : bool := N.land b 0xF0 =? 0xE0.

(** src/utf8.rs:31-39 *)
Definition is_4byte_start (b : byte) : bool := N.land b 0xF8 =? 0xF0.

(** src/utf8.rs:41-50 *)
Definition is_continuation (b : byte) : bool := N.land b 0xC0 =? 0x80.

(** src/utf8.rs:53-59.  [_2BYTE_MASK_VAL] is [!0xE0 = 0x1F], [CONT_MASK_VAL]
    is [!0xC0 = 0x3F].  The [debug_assert!] is modelled at the caller
    ([ReaderModel.read_utf8_multibyte]). *)
Definition is_valid_2bytes (b0 b1 : byte) : bool :=
  let code_point := N.lor (N.shiftl (N.land b0 0x1F) 6) (N.land b1 0x3F) in
  0x80 <=? code_point.

(** src/utf8.rs:62-70 *)
Definition is_valid_3bytes (b0 b1 b2 : byte) : bool :=
  let code_point :=
    N.lor (N.lor (N.shiftl (N.land b0 0x0F) 12) (N.shiftl (N.land b1 0x3F) 6))
          (N.land b2 0x3F) in
  (0x800 <=? code_point) && negb ((0xD800 <=? code_point) && (code_point <=? 0xDFFF)).

(** src/utf8.rs:73-86 *)
Definition is_valid_4bytes (b0 b1 b2 b3 : byte) : bool :=
  let code_point :=
    N.lor (N.lor (N.lor (N.shiftl (N.land b0 0x07) 18) (N.shiftl (N.land b1 0x3F) 12))
                 (N.shiftl (N.land b2 0x3F) 6))
          (N.land b3 0x3F) in
  (0x10000 <=? code_point) && (code_point <=? 0x10FFFF).

(** ** Rust standard library *)

(** [char::len_utf8] *)
Definition len_utf8 (c : char) : nat :=
  if c <? 0x80 then 1%nat
  else if c <? 0x800 then 2%nat
  else if c <? 0x10000 then 3%nat
  else 4%nat.

(** [char::encode_utf8] *)
Definition encode_char (c : char) : bytes :=
  if c <? 0x80 then [c]
  else if c <? 0x800 then [0xC0 + c / 0x40; 0x80 + c mod 0x40]
  else if c <? 0x10000 then
    [0xE0 + c / 0x1000; 0x80 + (c / 0x40) mod 0x40; 0x80 + c mod 0x40]
  else
    [0xF0 + c / 0x40000; 0x80 + (c / 0x1000) mod 0x40; 0x80 + (c / 0x40) mod 0x40;
     0x80 + c mod 0x40].

(** [str::as_bytes] *)
Definition encode_utf8 (s : str) : bytes := flat_map encode_char s.

(** [std::str::from_utf8]: table 3-7 (well-formed UTF-8 byte sequences) of the
    Unicode standard, which is also what core::str::validations implements.
    [None] is the [Utf8Error]. *)
Definition in_range (lo hi b : N) : bool := (lo <=? b) && (b <=? hi).

Fixpoint from_utf8 (bs : bytes) : option str :=
  match bs with
  | [] => Some []
  | b0 :: r0 =>
    if b0 <=? 0x7F then option_map (cons b0) (from_utf8 r0)
    else match r0 with
    | [] => None
    | b1 :: r1 =>
      if in_range 0xC2 0xDF b0 then
        if in_range 0x80 0xBF b1
        then option_map (cons ((b0 - 0xC0) * 0x40 + (b1 - 0x80))) (from_utf8 r1)
        else None
      else match r1 with
      | [] => None
      | b2 :: r2 =>
        if in_range 0xE0 0xEF b0 then
          if (if b0 =? 0xE0 then in_range 0xA0 0xBF b1
              else if b0 =? 0xED then in_range 0x80 0x9F b1
              else in_range 0x80 0xBF b1) && in_range 0x80 0xBF b2
          then option_map (cons ((b0 - 0xE0) * 0x1000 + (b1 - 0x80) * 0x40 + (b2 - 0x80)))
                          (from_utf8 r2)
          else None
        else match r2 with
        | [] => None
        | b3 :: r3 =>
          if in_range 0xF0 0xF4 b0 then
            if (if b0 =? 0xF0 then in_range 0x90 0xBF b1
                else if b0 =? 0xF4 then in_range 0x80 0x8F b1
                else in_range 0x80 0xBF b1) && in_range 0x80 0xBF b2 && in_range 0x80 0xBF b3
            then option_map (cons ((b0 - 0xF0) * 0x40000 + (b1 - 0x80) * 0x1000
                                   + (b2 - 0x80) * 0x40 + (b3 - 0x80)))
                            (from_utf8 r3)
            else None
          else None
        end
      end
    end
  end.

(** [char::is_control]: general category Cc *)
Definition is_control (c : char) : bool :=
  (c <=? 0x1F) || ((0x7F <=? c) && (c <=? 0x9F)).

(** [char::is_ascii] *)
Definition is_ascii (c : char) : bool := c <=? 0x7F.
