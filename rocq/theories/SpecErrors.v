(** * Specification: how reading fails *)

From Verif Require Import Base Utf8Model SpecNumber SpecJson SourceModel ReaderModel SpecCursor SpecText.

(** Why reading fails.  [FEnd k]: the input has ended too early.  If its source
    reports the end of the input, this is the syntax error [k], and if the source
    fails, its error is reported.  [FSource]: the source fails at a place where
    the input may end. *)
Inductive failure : Type :=
| FSyntax (k : syntax_error)
| FUtf8
| FEnd (k : syntax_error)
| FSource
| FUnsupported (n : bytes).

(** The error [e] reports the failure; [t] tells how the input ends *)
Definition reports (t : tail_end) (F : failure) (e : reader_error) : Prop :=
  match F, e with
  | FSyntax k, ESyntax k' _ => k' = k
  | FUtf8, EIo IoInvalidUtf8 _ => True
  | FEnd k, ESyntax k' _ => t = TEof /\ k' = k
  | FEnd _, EIo (IoSource x) _ => t = TErr x
  | FSource, EIo (IoSource x) _ => t = TErr x
  | FUnsupported n, EUnsupportedNumber n' _ => n' = n
  | _, _ => False
  end.

(** ** Characters *)

(** Text which ends within a character: [b0] announces this many further bytes
    (for bytes which cannot start a character the reader looks at two) *)
Definition announced (b0 : byte) : nat :=
  if (0xC0 <=? b0) && (b0 <=? 0xDF) then 1 else if (0xF0 <=? b0) && (b0 <=? 0xF7) then 3 else 2.
Definition truncated (t : bytes) : Prop :=
  exists b0 l, t = b0 :: l /\ (length l < announced b0)%nat /\ Forall (fun b => 0x80 <= b <= 0xBF) l.

(** The text neither starts with an ASCII character nor with another well-formed
    character *)
Inductive utf8_error : bytes -> failure -> Prop :=
| UE_truncated b r : 0x80 <= b -> truncated (b :: r) -> utf8_error (b :: r) (FEnd IncompleteDocument)
| UE_malformed b r : 0x80 <= b -> ~ truncated (b :: r) ->
    (forall c r', is_char c -> b :: r <> encode_char c ++ r') -> utf8_error (b :: r) FUtf8.

(** ** Strings *)

Definition is_hex (b : byte) : Prop := exists v, hex_value b v.

(** The text behind [\u] does not start with four hexadecimal digits *)
Inductive hex_error : bytes -> failure -> Prop :=
| HE_end ds : (length ds < 4)%nat -> Forall is_hex ds -> hex_error ds (FEnd MalformedEscapeSequence)
| HE_digit ds b r : (length ds < 4)%nat -> Forall is_hex ds -> ~ is_hex b ->
    hex_error (ds ++ b :: r) (FSyntax MalformedEscapeSequence).

(** The text behind the escape sequence of a high surrogate does not start with
    the escape sequence of a low surrogate *)
Inductive low_error : bytes -> failure -> Prop :=
| LE_end : low_error [] (FEnd UnpairedSurrogatePairEscapeSequence)
| LE_backslash b r : b <> 0x5C -> low_error (b :: r) (FSyntax UnpairedSurrogatePairEscapeSequence)
| LE_backslash_end : low_error [0x5C] (FEnd UnpairedSurrogatePairEscapeSequence)
| LE_u b r : b <> 0x75 -> low_error (0x5C :: b :: r) (FSyntax UnpairedSurrogatePairEscapeSequence)
| LE_hex r F : hex_error r F -> low_error ([0x5C; 0x75] ++ r) F
| LE_not_low hs v r : hex4 hs v -> ~ (0xDC00 <= v <= 0xDFFF) ->
    low_error ([0x5C; 0x75] ++ hs ++ r) (FSyntax UnpairedSurrogatePairEscapeSequence).

(** [string_error t F]: [t] is the remaining text of a string literal, and
    neither starts with the closing quote nor with something which stands for a
    character *)
Inductive string_error : bytes -> failure -> Prop :=
| SE_end : string_error [] (FEnd IncompleteDocument)
| SE_control b r : b < 0x20 -> string_error (b :: r) (FSyntax NotEscapedControlCharacter)
| SE_escape_end : string_error [0x5C] (FEnd MalformedEscapeSequence)
| SE_unknown e r : e <> 0x75 -> (forall c, ~ simple_escape e c) ->
    string_error (0x5C :: e :: r) (FSyntax UnknownEscapeSequence)
| SE_hex r F : hex_error r F -> string_error ([0x5C; 0x75] ++ r) F
| SE_low hs v r : hex4 hs v -> 0xDC00 <= v <= 0xDFFF ->
    string_error ([0x5C; 0x75] ++ hs ++ r) (FSyntax UnpairedSurrogatePairEscapeSequence)
| SE_high hs v r F : hex4 hs v -> 0xD800 <= v <= 0xDBFF -> low_error r F ->
    string_error ([0x5C; 0x75] ++ hs ++ r) F
| SE_char t F : utf8_error t F -> string_error t F.

(** The text [t] of a string literal or member name, up to the end of the input:
    behind [t1] it has an error *)
Inductive literal_string_error : bytes -> bytes -> failure -> Prop :=
| LSE body v bad F : str_text body v -> string_error bad F -> literal_string_error (0x22 :: body ++ bad) (0x22 :: body) F.

(** ** Numbers *)

(** The text is over or starts with a byte without the property [P] *)
Definition ends_before (P : byte -> Prop) (r : bytes) : Prop :=
  match r with [] => True | b :: _ => ~ P b end.

(** Bytes which may follow a number or literal *)
Definition separator (b : byte) : Prop :=
  In b [0x2C; 0x5D; 0x7D; 0x20; 0x09; 0x0A; 0x0D; 0x2F; 0x3A].

(** [number_error t restricted x t1 F]: [x] starts with a number which cannot be
    read.  The number consists of as many characters as possible which occur in
    numbers.  If the number or the end of the input is malformed, the error is
    reported at the start of the number. *)
Inductive number_error (t : tail_end) (restricted : bool) : bytes -> bytes -> failure -> Prop :=
| NE_malformed x r : Forall number_char x -> ends_before number_char r -> ~ number_text x ->
    r <> [] \/ ~ (exists y, number_text (x ++ y)) -> number_error t restricted (x ++ r) [] (FSyntax MalformedNumber)
| NE_end x y : Forall number_char x -> ~ number_text x -> number_text (x ++ y) ->
    number_error t restricted x [] (FEnd MalformedNumber)
| NE_source x : number_text x -> t <> TEof -> number_error t restricted x [] FSource
| NE_unsupported x r : number_text x -> ends_before number_char r -> (r = [] -> t = TEof) ->
    restricted = true -> unsupported_number x = true -> number_error t restricted (x ++ r) [] (FUnsupported x)
| NE_trailing x b r : number_text x -> ~ number_char b -> ~ separator b ->
    (restricted = true -> unsupported_number x = false) ->
    number_error t restricted (x ++ b :: r) x (FSyntax TrailingDataAfterNumber).

(** ** Whitespace and comments *)

Inductive comment_error : bytes -> failure -> Prop :=
| CE_control b r : b < 0x20 -> b <> 0x09 -> b <> 0x0A -> b <> 0x0D ->
    comment_error (b :: r) (FSyntax NotEscapedControlCharacter)
| CE_char t F : utf8_error t F -> comment_error t F.

(** [k]: the error if the input ends; [None]: it may end here *)
Definition end_failure (k : option syntax_error) : failure :=
  match k with Some k => FEnd k | None => FSource end.

(** [ws_error sx k x t1 F]: behind [t1] the whitespace and comments at the start
    of [x] have an error *)
Inductive ws_error (sx : syntax) (k : option syntax_error) : bytes -> bytes -> failure -> Prop :=
| WE_end w : final_ws_text sx w -> ws_error sx k w w (end_failure k)
| WE_disabled w r : ws_text sx w -> comments sx = false ->
    ws_error sx k (w ++ 0x2F :: r) w (FSyntax CommentsNotEnabled)
| WE_slash_end w : ws_text sx w -> comments sx = true ->
    ws_error sx k (w ++ [0x2F]) (w ++ [0x2F]) (FEnd IncompleteComment)
| WE_slash w b r : ws_text sx w -> comments sx = true -> b <> 0x2A -> b <> 0x2F ->
    ws_error sx k (w ++ 0x2F :: b :: r) (w ++ [0x2F]) (FSyntax IncompleteComment)
| WE_block_end w body : ws_text sx w -> comments sx = true -> block_comment_body body ->
    ws_error sx k (w ++ [0x2F; 0x2A] ++ body) (w ++ [0x2F; 0x2A] ++ body) (FEnd BlockCommentNotClosed)
| WE_block w body bad F : ws_text sx w -> comments sx = true -> block_comment_body body -> comment_error bad F ->
    ws_error sx k (w ++ [0x2F; 0x2A] ++ body ++ bad) (w ++ [0x2F; 0x2A] ++ body) F
| WE_line w body bad F : ws_text sx w -> comments sx = true -> line_comment_body body -> comment_error bad F ->
    ws_error sx k (w ++ [0x2F; 0x2F] ++ body ++ bad) (w ++ [0x2F; 0x2F] ++ body) F.

(** ** Tokens *)

(** What has to follow: a top-level value, an array item, a member name or a
    member value, or the end of the array or object.  [first]: it is the first
    one. *)
Inductive place : Type :=
| AtTop (first : bool)
| AtItem (first : bool)
| AtName (first : bool)
| AtMember.

(** [x] has the first character of the literal [lit], but the literal does not
    follow *)
Inductive literal_error (lit : bytes) : bytes -> failure -> Prop :=
| LE_cut c u d v : lit = c :: u ++ d :: v -> literal_error lit (c :: u) (FEnd InvalidLiteral)
| LE_other c u d v b r : lit = c :: u ++ d :: v -> b <> d -> literal_error lit (c :: u ++ b :: r) (FSyntax InvalidLiteral)
| LE_trailing b r : ~ separator b -> literal_error lit (lit ++ b :: r) (FSyntax TrailingDataAfterLiteral)
| LE_source : literal_error lit lit FSource.

(** [token_error pl x F]: [x] does not start with a token which may follow *)
Inductive token_error : place -> bytes -> failure -> Prop :=
| TE_name first b r : b <> 0x22 -> b <> 0x7D ->
    token_error (AtName first) (b :: r) (FSyntax ExpectingMemberNameOrObjectEnd)
| TE_bracket pl r : (forall f, pl <> AtItem f) -> (forall f, pl <> AtName f) ->
    token_error pl (0x5D :: r) (FSyntax UnexpectedClosingBracket)
| TE_brace pl r : (forall f, pl <> AtName f) -> token_error pl (0x7D :: r) (FSyntax UnexpectedClosingBracket)
| TE_comma pl r : (forall f, pl <> AtName f) -> token_error pl (0x2C :: r) (FSyntax UnexpectedComma)
| TE_colon pl r : (forall f, pl <> AtName f) -> token_error pl (0x3A :: r) (FSyntax UnexpectedColon)
| TE_literal pl lit x F : (forall f, pl <> AtName f) -> In lit [lit_null; lit_true; lit_false] -> literal_error lit x F ->
    token_error pl x F
| TE_other pl b r : (forall f, pl <> AtName f) ->
    ~ digit b -> ~ In b [0x5B; 0x5D; 0x7B; 0x7D; 0x22; 0x2D; 0x6E; 0x74; 0x66; 0x2C; 0x3A] ->
    token_error pl (b :: r) (FSyntax MalformedJson).

(** The start of a token (possibly not a valid one) *)
Definition token_start (x : bytes) : Prop :=
  exists b r, x = b :: r /\ ~ ws_byte b /\ b <> 0x2F.

Definition closes (pl : place) (b : byte) : Prop :=
  match pl with AtItem _ => b = 0x5D | AtName _ => b = 0x7D | _ => False end.

(** Places where a comma precedes the next item or member *)
Definition behind_element (pl : place) : Prop :=
  pl = AtItem false \/ pl = AtName false.

(** The error if the input ends; behind a top-level value it may end (this is
    only possible if multiple top-level values are allowed) *)
Definition end_kind (pl : place) : option syntax_error :=
  match pl with AtTop false => None | _ => Some IncompleteDocument end.

(** [element_error t sx pl x t1 F]: [x] is the remaining input (behind the colon
    for member values), and [t] tells how it ends.  Behind [t1] is an error because of which the next
    element cannot be started. *)
Inductive element_error (t : tail_end) (sx : syntax) (pl : place) : bytes -> bytes -> failure -> Prop :=
| EE_ws x t1 F : ws_error sx (end_kind pl) x t1 F -> element_error t sx pl x t1 F
| EE_token w x F : ws_text sx w -> token_start x -> hd_error x <> Some 0x2C -> token_error pl x F ->
    element_error t sx pl (w ++ x) w F
| EE_unexpected_comma w r : ws_text sx w -> ~ behind_element pl ->
    element_error t sx pl (w ++ 0x2C :: r) w (FSyntax UnexpectedComma)
| EE_missing_comma w b r : ws_text sx w -> behind_element pl -> token_start (b :: r) -> b <> 0x2C ->
    ~ closes pl b -> ~ (exists F, token_error pl (b :: r) F /\ (F = FSource -> t <> TEof)) ->
    element_error t sx pl (w ++ b :: r) w (FSyntax MissingComma)
| EE_comma_ws w x t1 F : ws_text sx w -> behind_element pl -> ws_error sx (Some IncompleteDocument) x t1 F ->
    element_error t sx pl (w ++ 0x2C :: x) (w ++ 0x2C :: t1) F
| EE_comma_token w w2 x F : ws_text sx w -> behind_element pl -> ws_text sx w2 -> token_start x -> token_error pl x F ->
    element_error t sx pl (w ++ 0x2C :: w2 ++ x) (w ++ 0x2C :: w2) F
| EE_trailing w w2 b r : ws_text sx w -> behind_element pl -> ws_text sx w2 -> closes pl b -> trailing_commas sx = false ->
    element_error t sx pl (w ++ 0x2C :: w2 ++ b :: r) w (FSyntax TrailingCommaNotEnabled).

(** The same, where the remaining input is directly behind the previous element *)
Inductive next_error (t : tail_end) (sx : syntax) : place -> bytes -> bytes -> failure -> Prop :=
| XE_element pl x t1 F : pl <> AtMember -> element_error t sx pl x t1 F -> next_error t sx pl x t1 F
| XE_colon_ws x t1 F : ws_error sx (Some MissingColon) x t1 F -> next_error t sx AtMember x t1 F
| XE_colon w x : ws_text sx w -> token_start x -> hd_error x <> Some 0x3A ->
    next_error t sx AtMember (w ++ x) w (FSyntax MissingColon)
| XE_value w x t1 F : ws_text sx w -> element_error t sx AtMember x t1 F ->
    next_error t sx AtMember (w ++ 0x3A :: x) (w ++ 0x3A :: t1) F.

(** ** Where a reader is *)

(** The open arrays ([true]) and objects ([false]), innermost first, and what has
    to follow *)
Definition spot : Type := list bool * place.

Definition behind_value (open : list bool) : place :=
  match open with
  | [] => AtTop false
  | true :: _ => AtItem false
  | false :: _ => AtName false
  end.

(** The spot behind a call with this outcome; [None]: not known.  Errors behind
    which a client may continue leave the reader where it is, except for calls
    which read more than one token. *)
Definition spot_after (c : rcall) (o : outcome) (sp : spot) : option spot :=
  let (open, pl) := sp in
  match o with
  | OOk _ =>
    match c with
    | CPeek | CHasNext | CPosition _ => Some (open, pl)
    | CBeginArray => Some (true :: open, AtItem true)
    | CBeginObject => Some (false :: open, AtName true)
    | CEndArray | CEndObject => Some (tl open, behind_value (tl open))
    | CNextName | CNextNameOwned | CSkipName => Some (open, AtMember)
    | CNextString | CNextStr | CNextNumberStr | CNextNumberString | CNextBool | CNextNull | CSkipValue =>
      Some (open, behind_value open)
    | _ => None
    end
  | OErr e =>
    match c with
    | CSkipValue | CSeekTo _ | CSeekBack _ | CSkipToTopLevel | CConsumeTrailingWhitespace => None
    | _ => if recoverable e then Some (open, pl) else None
    end
  | _ => None
  end.

Fixpoint spot_behind (cs : list rcall) (os : list outcome) (sp : spot) : option spot :=
  match cs, os with
  | [], [] => Some sp
  | c :: cs', o :: os' =>
    match spot_after c o sp with
    | Some sp' => spot_behind cs' os' sp'
    | None => None
    end
  | _, _ => None
  end.

(** A new reader *)
Definition first_spot : spot := ([], AtTop true).
