(** * Basic types shared by all parts of the model

    Bytes ([u8]) and Unicode characters ([char]) are represented by natural
    numbers of type [N]; that a byte is below 256, or that a character is a
    Unicode scalar value, is stated by predicates where it matters. *)

From Coq Require Export List NArith ZArith Lia Bool.
From Coq Require Import String Ascii.
From Coq Require Export ZifyBool ZifyNat ZifyN.
Export ListNotations.
Open Scope N_scope.
Open Scope list_scope.

Arguments N.add : simpl never.
Arguments N.sub : simpl never.
Arguments N.mul : simpl never.
Arguments N.div : simpl never.
Arguments N.modulo : simpl never.
Arguments N.eqb : simpl never.
Arguments N.leb : simpl never.
Arguments N.ltb : simpl never.
Arguments N.land : simpl never.
Arguments N.lor : simpl never.
Arguments N.shiftl : simpl never.
Arguments N.shiftr : simpl never.
Arguments N.of_nat : simpl never.

(** [u8] *)
Notation byte := N (only parsing).
(** [Vec<u8>], [&[u8]] *)
Notation bytes := (list N) (only parsing).
(** [char] *)
Notation char := N (only parsing).
(** [str], [String]: a sequence of characters; the bytes are [encode_utf8] of
    it (see [Utf8Model]).  Rust guarantees that a [str] is valid UTF-8, that
    is, that it is such an encoding. *)
Notation str := (list N) (only parsing).

Definition is_byte (b : N) : Prop := b < 256.

(** A Unicode scalar value, i.e. a value of Rust's type [char]. *)
Definition is_char (c : N) : Prop := c < 0xD800 \/ (0xE000 <= c /\ c < 0x110000).
Definition is_charb (c : N) : bool := (c <? 0xD800) || ((0xE000 <=? c) && (c <? 0x110000)).

(** ASCII text to bytes, to keep literals such as [b"null"] readable. *)
Fixpoint bytes_of_string (s : string) : bytes :=
  match s with
  | EmptyString => []
  | String a s' => N_of_ascii a :: bytes_of_string s'
  end.

Definition lit_null : bytes := Eval compute in bytes_of_string "null".
Definition lit_true : bytes := Eval compute in bytes_of_string "true".
Definition lit_false : bytes := Eval compute in bytes_of_string "false".

(** Names for the ASCII characters with a meaning in JSON. *)
Notation B_TAB := 0x09.      (* \t *)
Notation B_LF := 0x0A.       (* \n *)
Notation B_CR := 0x0D.       (* \r *)
Notation B_SPACE := 0x20.
Notation B_QUOTE := 0x22.    (* double quote *)
Notation B_STAR := 0x2A.
Notation B_PLUS := 0x2B.
Notation B_COMMA := 0x2C.
Notation B_MINUS := 0x2D.
Notation B_DOT := 0x2E.
Notation B_SLASH := 0x2F.
Notation B_0 := 0x30.
Notation B_1 := 0x31.
Notation B_9 := 0x39.
Notation B_COLON := 0x3A.
Notation B_E := 0x45.        (* E *)
Notation B_LBRACKET := 0x5B. (* [ *)
Notation B_BACKSLASH := 0x5C.
Notation B_RBRACKET := 0x5D. (* ] *)
Notation B_b := 0x62.
Notation B_e := 0x65.
Notation B_f := 0x66.
Notation B_n := 0x6E.
Notation B_r := 0x72.
Notation B_t := 0x74.
Notation B_u := 0x75.
Notation B_LBRACE := 0x7B.   (* { *)
Notation B_RBRACE := 0x7D.   (* } *)

(** [u8::is_ascii_digit] *)
Definition is_digit (b : byte) : bool := (B_0 <=? b) && (b <=? B_9).
(** [b'1'..=b'9'] *)
Definition is_digit19 (b : byte) : bool := (B_1 <=? b) && (b <=? B_9).

(** ** Outcomes of calls *)

(** The two kinds of panics: [Misuse] is a documented panic (message "Incorrect
    reader usage" or "Incorrect writer usage"), [Bug] everything else ([unwrap]
    on [None], [unreachable!], index out of range, arithmetic underflow, failed
    [debug_assert!], ...). *)
Inductive panic : Type := Misuse | Bug.

(** Outcome of a call: [Ok] and [Err] of Rust's [Result], a panic, or the
    marker for a loop that has used up its fuel, which the theorems exclude. *)
Inductive res (E A : Type) : Type :=
| Ok (a : A)
| Err (e : E)
| Panic (k : panic)
| OutOfFuel.
Arguments Ok {E A} a.
Arguments Err {E A} e.
Arguments Panic {E A} k.
Arguments OutOfFuel {E A}.

(** [&l[a..b]] for [a <= b <= l.len()] *)
Definition slice {A} (l : list A) (a b : nat) : list A := firstn (b - a) (skipn a l).
