(** * Model of src/reader/stream_reader.rs and of the provided methods of
      src/reader/mod.rs

    All line numbers refer to src/reader/stream_reader.rs unless another file is
    named.  Simplification throughout: the counters ([line], [column],
    [byte_pos]: [u64]; array indices, [depth], [consumed_bytes]: [u32]) are
    unbounded. *)

From Verif Require Import Base Utf8Model NumberModel SourceModel.

(** ** Types of src/reader/mod.rs *)

(** [ValueType], src/reader/mod.rs:222-244 *)
Inductive value_type : Type := TArray | TObject | TString | TNumber | TBoolean | TNull.

(** [JsonPathPiece], src/reader/mod.rs:29-43 *)
Inductive piece : Type :=
| PIndex (i : N)
| PName (s : str).

(** [JsonReaderPosition], src/reader/mod.rs:300-365; [line_pos] and [data_pos]
    are always [Some] for this reader. *)
Record position : Type := Position {
  p_path : option (list piece);
  p_line : N;
  p_column : N;
  p_byte : N
}.

(** [SyntaxErrorKind], src/reader/mod.rs:400-472 *)
Inductive syntax_error : Type :=
| CommentsNotEnabled | IncompleteComment | BlockCommentNotClosed
| InvalidLiteral | TrailingDataAfterLiteral | UnexpectedClosingBracket | UnexpectedComma
| MissingComma | TrailingCommaNotEnabled | UnexpectedColon | MissingColon | MalformedNumber
| TrailingDataAfterNumber | ExpectingMemberNameOrObjectEnd | MalformedJson
| NotEscapedControlCharacter | UnknownEscapeSequence | MalformedEscapeSequence
| UnpairedSurrogatePairEscapeSequence | IncompleteDocument | TrailingData.

(** [UnexpectedStructureKind], src/reader/mod.rs:475-505 *)
Inductive structure_error : Type :=
| TooShortArray (expected_index : N)
| MissingObjectMember (member_name : str)
| FewerElementsThanExpected
| MoreElementsThanExpected.

(** The [std::io::Error] of [ReaderError::IoError]: an error of the underlying
    [Read], or the one for invalid UTF-8 data (lines 1007-1012) *)
Inductive io_error : Type :=
| IoSource (e : N)
| IoInvalidUtf8.

(** [ReaderError], src/reader/mod.rs:507-592.  [ReaderIoError] and
    [StringReadingError] (lines 74-121) are converted to it without loss. *)
Inductive reader_error : Type :=
| ESyntax (kind : syntax_error) (loc : position)
| EUnexpectedType (expected actual : value_type) (loc : position)
| EUnexpectedStructure (kind : structure_error) (loc : position)
| EMaxNestingDepth (max_nesting_depth : N) (loc : position)
| EUnsupportedNumber (number : str) (loc : position)
| EIo (error : io_error) (loc : position).

(** ** State *)

(** [PeekedValue], lines 22-34 *)
Inductive peeked_value : Type :=
| PkNull | PkTrue | PkFalse | PkNumberStart | PkStringStart | PkArrayStart | PkArrayEnd
| PkObjectStart | PkObjectEnd | PkNameStart.

(** [StackValue], lines 36-40 *)
Inductive stack_value : Type := SArray | SObject.

(** [ReaderSettings], lines 236-371 *)
Record settings : Type := Settings {
  allow_comments : bool;
  allow_trailing_comma : bool;
  allow_multiple_top_level : bool;
  track_path : bool;
  max_nesting_depth : option N;
  restrict_number_values : bool
}.

(** [ReaderSettings::default], lines 358-371 *)
Definition default_settings : settings := Settings false false false true (Some 128) true.

(** What every function of the model gets: the settings, which do not change,
    and the fuel of its loops. *)
Record env : Type := Env {
  cfg : settings;
  fuel : nat
}.

(** The remaining fields of [JsonStreamReader], lines 138-152.  [stack] and
    [json_path] are kept with the innermost element first. *)
Record rstate : Type := RState {
  peeked : option peeked_value;
  is_empty : bool;
  expects_member_name : bool;
  stack : list stack_value;
  string_reader_active : bool;
  line : N;
  column : N;
  byte_pos : N;
  json_path : option (list piece)
}.

(** [new_custom], lines 384-409 *)
Definition rstate_new (s : settings) : rstate :=
  RState None true false [] false 0 0 0 (if track_path s then Some [] else None).

Definition set_peeked (p : option peeked_value) (s : rstate) : rstate :=
  RState p (is_empty s) (expects_member_name s) (stack s) (string_reader_active s)
         (line s) (column s) (byte_pos s) (json_path s).
Definition set_empty (b : bool) (s : rstate) : rstate :=
  RState (peeked s) b (expects_member_name s) (stack s) (string_reader_active s)
         (line s) (column s) (byte_pos s) (json_path s).
Definition set_expects_name (b : bool) (s : rstate) : rstate :=
  RState (peeked s) (is_empty s) b (stack s) (string_reader_active s)
         (line s) (column s) (byte_pos s) (json_path s).
Definition set_stack (l : list stack_value) (s : rstate) : rstate :=
  RState (peeked s) (is_empty s) (expects_member_name s) l (string_reader_active s)
         (line s) (column s) (byte_pos s) (json_path s).
Definition set_active (b : bool) (s : rstate) : rstate :=
  RState (peeked s) (is_empty s) (expects_member_name s) (stack s) b
         (line s) (column s) (byte_pos s) (json_path s).
Definition set_position (l c b : N) (s : rstate) : rstate :=
  RState (peeked s) (is_empty s) (expects_member_name s) (stack s) (string_reader_active s)
         l c b (json_path s).
Definition set_path (p : option (list piece)) (s : rstate) : rstate :=
  RState (peeked s) (is_empty s) (expects_member_name s) (stack s) (string_reader_active s)
         (line s) (column s) (byte_pos s) p.

(** [self.column += c; self.byte_pos += b] *)
Definition advance (c b : N) (s : rstate) : rstate :=
  set_position (line s) (column s + c) (byte_pos s + b) s.

(** [current_position], lines 2359-2373 *)
Definition current_position (include_path : bool) (s : rstate) : position :=
  Position (if include_path then option_map (@rev piece) (json_path s) else None)
           (line s) (column s) (byte_pos s).

(** [create_error_location], lines 427-429 *)
Definition location (s : rstate) : position := current_position true s.

(** [is_behind_top_level], [is_in_array], [is_in_object],
    [expects_member_value], lines 444-460 *)
Definition is_behind_top_level (s : rstate) : bool :=
  negb (is_empty s) && match stack s with [] => true | _ => false end.
Definition is_in_array (s : rstate) : bool :=
  match stack s with SArray :: _ => true | _ => false end.
Definition is_in_object (s : rstate) : bool :=
  match stack s with SObject :: _ => true | _ => false end.
Definition expects_member_value (s : rstate) : bool :=
  is_in_object s && negb (expects_member_name s).

(** ** The monad: a function of the reader *)

Definition M (A : Type) : Type := rstate -> prog (res reader_error A * rstate).

Definition ret {A : Type} (a : A) : M A := fun s => Ret (Ok a, s).
Definition bind {A B : Type} (m : M A) (f : A -> M B) : M B := fun s =>
  pbind (m s) (fun rs =>
    match rs with
    | (Ok a, s') => f a s'
    | (Err e, s') => Ret (Err e, s')
    | (Panic k, s') => Ret (Panic k, s')
    | (OutOfFuel, s') => Ret (OutOfFuel, s')
    end).
Definition get_state : M rstate := fun s => Ret (Ok s, s).
Definition update (f : rstate -> rstate) : M unit := fun s => Ret (Ok tt, f s).
Definition fail {A : Type} (e : position -> reader_error) : M A :=
  fun s => Ret (Err (e (location s)), s).
Definition panics {A : Type} (k : panic) : M A := fun s => Ret (Panic k, s).
Definition no_fuel {A : Type} : M A := fun s => Ret (OutOfFuel, s).

Declare Scope rmonad_scope.
Delimit Scope rmonad_scope with rm.
Notation "x <- m ;; k" := (bind m (fun x => k))
  (at level 61, m at next level, right associativity) : rmonad_scope.
Notation "m ;; k" := (bind m (fun _ => k)) (at level 61, right associativity) : rmonad_scope.
Open Scope rmonad_scope.

Definition syntax_err {A : Type} (kind : syntax_error) : M A := fail (ESyntax kind).
Definition structure_err {A : Type} (kind : structure_error) : M A := fail (EUnexpectedStructure kind).

(** [assert] for documented panics *)
Definition misuse_if (b : bool) : M unit := if b then panics Misuse else ret tt.

(** ** Bytes *)

Definition from_peek (s : rstate) (r : peek_res) : prog (res reader_error (option byte) * rstate) :=
  match r with
  | PkErr e => Ret (Err (EIo (IoSource e) (location s)), s)
  | PkEof => Ret (Ok None, s)
  | PkByte b => Ret (Ok (Some b), s)
  end.

(** [peek_byte], lines 515-521 *)
Definition peek_byte : M (option byte) := fun s => DPeek (from_peek s).

(** [skip_peeked_byte], lines 524-527 *)
Definition skip_peeked_byte : M unit := fun s => DSkip (Ret (Ok tt, s)).

(** [read_byte], lines 531-541 *)
Definition read_byte (eof_error_kind : syntax_error) : M byte :=
  ob <- peek_byte ;;
  match ob with
  | Some b => skip_peeked_byte ;; ret b
  | None => syntax_err eof_error_kind
  end.

(** [read_utf8_multibyte], lines 1019-1075, for either implementation of
    [read_byte].  The [debug_assert!]s of [is_valid_2bytes] etc.
    (src/utf8.rs:55, 64, 75) hold since the conditions have just been checked. *)
Definition read_utf8_multibyte (rb : syntax_error -> M byte) (byte0 : byte) : M bytes :=
  byte1 <- rb IncompleteDocument ;;
  if negb (is_continuation byte1) then fail (EIo IoInvalidUtf8)
  else if is_2byte_start byte0 then
    if negb (is_valid_2bytes byte0 byte1) then fail (EIo IoInvalidUtf8)
    else ret [byte0; byte1]
  else
    byte2 <- rb IncompleteDocument ;;
    if negb (is_continuation byte2) then fail (EIo IoInvalidUtf8)
    else if is_3byte_start byte0 then
      if negb (is_valid_3bytes byte0 byte1 byte2) then fail (EIo IoInvalidUtf8)
      else ret [byte0; byte1; byte2]
    else if is_4byte_start byte0 then
      byte3 <- rb IncompleteDocument ;;
      if negb (is_continuation byte3) then fail (EIo IoInvalidUtf8)
      else if negb (is_valid_4bytes byte0 byte1 byte2 byte3) then fail (EIo IoInvalidUtf8)
      else ret [byte0; byte1; byte2; byte3]
    else fail (EIo IoInvalidUtf8).

(** [len() as u64] *)
Definition len64 (bs : bytes) : N := N.of_nat (length bs).

(** ** Whitespace and comments *)

(** Control characters rejected by [skip_to], line 557 *)
Definition rejected_control (b : byte) : bool :=
  (b <=? 0x1F) && negb ((b =? B_TAB) || (b =? B_LF) || (b =? B_CR)).

Definition eof_result (eof_error_kind : option syntax_error) : M unit :=
  match eof_error_kind with None => ret tt | Some k => syntax_err k end.

(** [skip_to], lines 546-603; [f] is the fuel of the loop *)
Fixpoint skip_to_loop (f : nat) (stop : byte -> bool) (eof_error_kind : option syntax_error)
    (has_cr : bool) : M unit :=
  match f with
  | O => no_fuel
  | S f' =>
    ob <- peek_byte ;;
    match ob with
    | None => eof_result eof_error_kind
    | Some b =>
      if stop b then ret tt
      else if rejected_control b then syntax_err NotEscapedControlCharacter
      else
        skip_peeked_byte ;;
        (if b =? B_LF then
           update (fun s => if has_cr then advance 0 1 s
                            else set_position (line s + 1) 0 (byte_pos s + 1) s)
         else if b =? B_CR then
           update (fun s => set_position (line s + 1) 0 (byte_pos s + 1) s)
         else if is_1byte b then update (advance 1 1)
         else
           bs <- read_utf8_multibyte read_byte b ;;
           update (advance 1 (len64 bs))) ;;
        skip_to_loop f' stop eof_error_kind (b =? B_CR)
    end
  end.

Definition skip_to (E : env) (stop : byte -> bool) (eof_error_kind : option syntax_error) : M unit :=
  skip_to_loop (fuel E) stop eof_error_kind false.

(** [skip_to_line_comment_end], lines 605-611 *)
Definition skip_to_line_comment_end (E : env) (eof_error_kind : option syntax_error) : M unit :=
  skip_to E (fun b => (b =? B_LF) || (b =? B_CR)) eof_error_kind.

(** [skip_to_block_comment_end], lines 613-640 *)
Fixpoint skip_to_block_comment_end_loop (E : env) (f : nat) : M unit :=
  match f with
  | O => no_fuel
  | S f' =>
    skip_to E (fun b => b =? B_STAR) (Some BlockCommentNotClosed) ;;
    update (advance 1 1) ;;
    skip_peeked_byte ;;
    ob <- peek_byte ;;
    match ob with
    | None => syntax_err BlockCommentNotClosed
    | Some b =>
      if b =? B_SLASH then skip_peeked_byte ;; update (advance 1 1)
      else skip_to_block_comment_end_loop E f'
    end
  end.
Definition skip_to_block_comment_end (E : env) : M unit :=
  skip_to_block_comment_end_loop E (fuel E).

(** JSON whitespace, lines 651 *)
Definition is_ws (b : byte) : bool :=
  (b =? B_SPACE) || (b =? B_TAB) || (b =? B_LF) || (b =? B_CR).

(** [skip_whitespace], lines 642-691 *)
Fixpoint skip_whitespace_loop (E : env) (f : nat) (eof_error_kind : option syntax_error)
  : M (option byte) :=
  match f with
  | O => no_fuel
  | S f' =>
    skip_to E (fun b => negb (is_ws b)) None ;;
    ob <- peek_byte ;;
    match ob with
    | None => eof_result eof_error_kind ;; ret None
    | Some b =>
      if b =? B_SLASH then
        if negb (allow_comments (cfg E)) then syntax_err CommentsNotEnabled
        else
          skip_peeked_byte ;;
          update (advance 1 1) ;;
          b2 <- read_byte IncompleteComment ;;
          if b2 =? B_STAR then
            update (advance 1 1) ;;
            skip_to_block_comment_end E ;;
            skip_whitespace_loop E f' eof_error_kind
          else if b2 =? B_SLASH then
            update (advance 1 1) ;;
            skip_to_line_comment_end E eof_error_kind ;;
            skip_whitespace_loop E f' eof_error_kind
          else syntax_err IncompleteComment
      else ret (Some b)
    end
  end.
Definition skip_whitespace (E : env) (eof_error_kind : option syntax_error) : M (option byte) :=
  skip_whitespace_loop E (fuel E) eof_error_kind.

(** [skip_whitespace_no_eof], lines 693-699; [Bug] is the [unwrap] *)
Definition skip_whitespace_no_eof (E : env) (eof_error_kind : syntax_error) : M byte :=
  ob <- skip_whitespace E (Some eof_error_kind) ;;
  match ob with Some b => ret b | None => panics Bug end.

(** ** Peeking *)

(** [verify_value_separator], lines 704-717 *)
Definition is_value_separator (b : byte) : bool :=
  (b =? B_COMMA) || (b =? B_RBRACKET) || (b =? B_RBRACE) || (b =? B_SPACE) || (b =? B_TAB)
  || (b =? B_LF) || (b =? B_CR) || (b =? B_SLASH) || (b =? B_COLON).
Definition verify_value_separator (b : byte) (kind : syntax_error) : M unit :=
  if is_value_separator b then ret tt else syntax_err kind.

(** Lines 727-730 and 1838-1841 *)
Definition verify_next_separator (kind : syntax_error) : M unit :=
  ob <- peek_byte ;;
  match ob with Some b => verify_value_separator b kind | None => ret tt end.

(** [consume_literal], lines 719-734 *)
Fixpoint consume_literal (literal : bytes) : M unit :=
  match literal with
  | [] => verify_next_separator TrailingDataAfterLiteral
  | e :: l =>
    b <- read_byte InvalidLiteral ;;
    if negb (b =? e) then syntax_err InvalidLiteral else consume_literal l
  end.

(** [after_name], lines 1785-1795 *)
Definition after_name (E : env) : M unit :=
  b <- skip_whitespace_no_eof E MissingColon ;;
  if b =? B_COLON then skip_peeked_byte ;; update (advance 1 1)
  else syntax_err MissingColon.

Definition is_end_token (p : peeked_value) : bool :=
  match p with PkArrayEnd | PkObjectEnd => true | _ => false end.

(** Lines 778-836: the token which starts with [b], and [advance_reader] *)
Definition peek_token (s : rstate) (b : byte) : M (peeked_value * bool) :=
  if expects_member_name s then
    if b =? B_RBRACE then ret (PkObjectEnd, true)
    else if b =? B_QUOTE then ret (PkNameStart, true)
    else syntax_err ExpectingMemberNameOrObjectEnd
  else if b =? B_LBRACKET then ret (PkArrayStart, true)
  else if b =? B_RBRACKET then
    if negb (is_in_array s) then syntax_err UnexpectedClosingBracket else ret (PkArrayEnd, true)
  else if b =? B_LBRACE then ret (PkObjectStart, true)
  else if b =? B_RBRACE then syntax_err UnexpectedClosingBracket
  else if b =? B_QUOTE then ret (PkStringStart, true)
  else if (b =? B_MINUS) || is_digit b then ret (PkNumberStart, false)
  else if b =? B_n then consume_literal lit_null ;; ret (PkNull, false)
  else if b =? B_t then consume_literal lit_true ;; ret (PkTrue, false)
  else if b =? B_f then consume_literal lit_false ;; ret (PkFalse, false)
  else if b =? B_COMMA then syntax_err UnexpectedComma
  else if b =? B_COLON then syntax_err UnexpectedColon
  else syntax_err MalformedJson.

(** Lines 838-857: commas, and storing the peeked value; [comma] is the
    position of the comma, if there was one *)
Definition finish_peek (E : env) (can_have_comma : bool) (comma : option (N * N * N))
    (p : peeked_value) (advance_reader : bool) : M (option peeked_value) :=
  (if is_end_token p then
     match comma with
     | Some (l, c, b) =>
       if negb (allow_trailing_comma (cfg E))
       then update (set_position l c b) ;; syntax_err TrailingCommaNotEnabled
       else ret tt
     | None => ret tt
     end
   else
     match comma with
     | None => if can_have_comma then syntax_err MissingComma else ret tt
     | Some _ => ret tt
     end) ;;
  (if advance_reader then skip_peeked_byte else ret tt) ;;
  update (set_peeked (Some p)) ;;
  ret (Some p).

(** Lines 754-857, after the whitespace *)
Definition peek_after_ws (E : env) (b : byte) : M (option peeked_value) :=
  s <- get_state ;;
  let can_have_comma := negb (is_empty s) && (is_in_array s || expects_member_name s) in
  if b =? B_COMMA then
    if negb can_have_comma then syntax_err UnexpectedComma
    else
      skip_peeked_byte ;;
      update (advance 1 1) ;;
      b' <- skip_whitespace_no_eof E IncompleteDocument ;;
      pa <- peek_token s b' ;;
      finish_peek E can_have_comma (Some (line s, column s, byte_pos s)) (fst pa) (snd pa)
  else
    pa <- peek_token s b ;;
    finish_peek E can_have_comma None (fst pa) (snd pa).

(** [peek_internal_optional], lines 736-858 *)
Definition peek_internal_optional (E : env) : M (option peeked_value) :=
  s <- get_state ;;
  misuse_if (string_reader_active s) ;;
  match peeked s with
  | Some p => ret (Some p)
  | None =>
    misuse_if (is_behind_top_level s && negb (allow_multiple_top_level (cfg E))) ;;
    (if expects_member_value s then after_name E else ret tt) ;;
    ob <- skip_whitespace E None ;;
    match ob with
    | None => ret None
    | Some b => peek_after_ws E b
    end
  end.

(** [peek_internal], lines 860-877 *)
Definition peek_internal (E : env) : M peeked_value :=
  op <- peek_internal_optional E ;;
  match op with
  | Some p => ret p
  | None =>
    s <- get_state ;;
    if is_behind_top_level s && allow_multiple_top_level (cfg E)
    then structure_err FewerElementsThanExpected
    else syntax_err IncompleteDocument
  end.

(** [map_peeked], lines 879-899 *)
Definition map_peeked (p : peeked_value) : M value_type :=
  match p with
  | PkObjectStart => ret TObject
  | PkObjectEnd | PkNameStart => panics Bug
  | PkArrayStart => ret TArray
  | PkArrayEnd => structure_err FewerElementsThanExpected
  | PkStringStart => ret TString
  | PkNumberStart => ret TNumber
  | PkNull => ret TNull
  | PkTrue | PkFalse => ret TBoolean
  end.

(** Lines 902-911 *)
Definition peeked_length (p : peeked_value) : N :=
  match p with
  | PkObjectStart | PkObjectEnd | PkArrayStart | PkArrayEnd | PkStringStart | PkNameStart => 1
  | PkNumberStart => 0
  | PkNull | PkTrue => 4
  | PkFalse => 5
  end.

(** [consume_peeked], lines 901-916; [Bug] is the [unwrap] *)
Definition consume_peeked : M unit :=
  s <- get_state ;;
  match peeked s with
  | None => panics Bug
  | Some p => update (fun s => advance (peeked_length p) (peeked_length p) (set_peeked None s))
  end.

(** ** Values and containers *)

Definition value_type_eqb (a b : value_type) : bool :=
  match a, b with
  | TArray, TArray | TObject, TObject | TString, TString | TNumber, TNumber
  | TBoolean, TBoolean | TNull, TNull => true
  | _, _ => false
  end.

(** Lines 937-944 *)
Definition depth_exceeded (E : env) (s : rstate) : option N :=
  match max_nesting_depth (cfg E) with
  | Some m => if m <=? N.of_nat (length (stack s)) then Some m else None
  | None => None
  end.

(** [start_expected_value_type], lines 921-956 *)
Definition start_expected_value_type (E : env) (expected : value_type) (check_depth : bool)
  : M peeked_value :=
  s <- get_state ;;
  misuse_if (expects_member_name s) ;;
  p <- peek_internal E ;;
  actual <- map_peeked p ;;
  if value_type_eqb actual expected then
    s <- get_state ;;
    match (if check_depth then depth_exceeded E s else None) with
    | Some m => fail (EMaxNestingDepth m)
    | None => consume_peeked ;; ret p
    end
  else fail (EUnexpectedType expected actual).

(** [on_container_start], lines 958-969 *)
Definition on_container_start (E : env) (expected : value_type) (v : stack_value) : M unit :=
  start_expected_value_type E expected true ;;
  update (fun s => set_empty true (set_stack (v :: stack s) s)).

(** [on_value_end], lines 980-998 *)
Definition on_value_end : M unit :=
  s <- get_state ;;
  (if is_in_array s then
     match json_path s with
     | None => ret tt
     | Some (PIndex i :: l) => update (set_path (Some (PIndex (i + 1) :: l)))
     | Some _ => panics Bug
     end
   else ret tt) ;;
  update (fun s => set_empty false (if is_in_object s then set_expects_name true s else s)).

(** [on_container_end], lines 971-978 *)
Definition on_container_end : M unit :=
  update (fun s => set_path (option_map (@tl piece) (json_path s)) (set_stack (tl (stack s)) s)) ;;
  on_value_end.

(** ** Strings *)

(** [parse_unicode_escape_hex_digit], lines 1110-1121 *)
Definition hex_digit (b : byte) : option N :=
  if (0x30 <=? b) && (b <=? 0x39) then Some (b - 0x30)
  else if (0x61 <=? b) && (b <=? 0x66) then Some (b - 0x61 + 10)
  else if (0x41 <=? b) && (b <=? 0x46) then Some (b - 0x41 + 10)
  else None.

(** [read_hex_byte], lines 1123-1126 *)
Definition read_hex_byte (rb : syntax_error -> M byte) : M N :=
  b <- rb MalformedEscapeSequence ;;
  match hex_digit b with Some d => ret d | None => syntax_err MalformedEscapeSequence end.

(** [read_unicode_escape], lines 1128-1135 *)
Definition read_unicode_escape (rb : syntax_error -> M byte) : M N :=
  d1 <- read_hex_byte rb ;;
  d2 <- read_hex_byte rb ;;
  d3 <- read_hex_byte rb ;;
  d4 <- read_hex_byte rb ;;
  ret (N.lor d4 (N.lor (N.shiftl d3 4) (N.lor (N.shiftl d2 8) (N.shiftl d1 12)))).

(** [char::from_u32(c).unwrap()], line 1169 *)
Definition char_from_u32 (c : N) : M char := if is_charb c then ret c else panics Bug.

(** [read_unicode_escape_char], lines 1137-1174: the character and
    [consumed_chars_count] *)
Definition read_unicode_escape_char (rb : syntax_error -> M byte) : M (char * N) :=
  c <- read_unicode_escape rb ;;
  if (0xDC00 <=? c) && (c <=? 0xDFFF) then syntax_err UnpairedSurrogatePairEscapeSequence
  else if (0xD800 <=? c) && (c <=? 0xDBFF) then
    b1 <- rb UnpairedSurrogatePairEscapeSequence ;;
    if negb (b1 =? B_BACKSLASH) then syntax_err UnpairedSurrogatePairEscapeSequence
    else
      b2 <- rb UnpairedSurrogatePairEscapeSequence ;;
      if negb (b2 =? B_u) then syntax_err UnpairedSurrogatePairEscapeSequence
      else
        c2 <- read_unicode_escape rb ;;
        if negb ((0xDC00 <=? c2) && (c2 <=? 0xDFFF))
        then syntax_err UnpairedSurrogatePairEscapeSequence
        else
          ch <- char_from_u32 (N.lor (N.shiftl (c - 0xD800) 10) (c2 - 0xDC00) + 0x10000) ;;
          ret (ch, 10)
  else
    ch <- char_from_u32 c ;;
    ret (ch, 4).

(** The escapes which stand for another character, lines 1570-1575 and
    1668-1692: [None] if [b] is not one of them *)
Definition escape_replacement (b : byte) : option byte :=
  if b =? B_b then Some 0x08
  else if b =? B_f then Some 0x0C
  else if b =? B_n then Some 0x0A
  else if b =? B_r then Some 0x0D
  else if b =? B_t then Some 0x09
  else None.

(** Escapes which stand for the escaped character itself *)
Definition escape_literal (b : byte) : bool :=
  (b =? B_QUOTE) || (b =? B_BACKSLASH) || (b =? B_SLASH).

(** [read_string_bytes], lines 1554-1630.  Returns [reached_end] and the bytes
    passed to the consumer; the consumer is only called once the character has
    been read completely, so nothing is passed to it in case of an error. *)
Definition read_string_bytes : M (bool * bytes) :=
  b <- read_byte IncompleteDocument ;;
  if b =? B_BACKSLASH then
    e <- read_byte MalformedEscapeSequence ;;
    if escape_literal e then update (advance 2 2) ;; ret (false, [e])
    else
      match escape_replacement e with
      | Some r => update (advance 2 2) ;; ret (false, [r])
      | None =>
        if e =? B_u then
          cn <- read_unicode_escape_char read_byte ;;
          update (advance (2 + snd cn) (2 + snd cn)) ;;
          ret (false, encode_char (fst cn))
        else syntax_err UnknownEscapeSequence
      end
  else if b =? B_QUOTE then update (advance 1 1) ;; ret (true, [])
  else if b <=? 0x1F then syntax_err NotEscapedControlCharacter
  else if b <=? 0x7F then update (advance 1 1) ;; ret (false, [b])
  else
    bs <- read_utf8_multibyte read_byte b ;;
    update (advance 1 (len64 bs)) ;;
    ret (false, bs).

(** [skip_all_string_bytes] and [read_all_string_bytes], lines 1632-1646 *)
Fixpoint skip_all_string_bytes_loop (f : nat) : M unit :=
  match f with
  | O => no_fuel
  | S f' =>
    r <- read_string_bytes ;;
    if fst r then ret tt else skip_all_string_bytes_loop f'
  end.
Definition skip_all_string_bytes (E : env) : M unit := skip_all_string_bytes_loop (fuel E).

(** The operations of [BytesValueReader] *)
Definition value_reader_new : M unit := fun s => DVNew (Ret (Ok tt, s)).
Definition value_peek : M (option byte) := fun s => DVPeek (from_peek s).
Definition value_consume : M unit := fun s => DVConsume (Ret (Ok tt, s)).
Definition value_skip_previous : M unit := fun s => DVSkipPrev (Ret (Ok tt, s)).
Definition value_skip_final : M unit := fun s => DVSkipFinal (Ret (Ok tt, s)).
Definition value_push (bs : bytes) : M unit := fun s => DVPush bs (Ret (Ok tt, s)).
Definition value_get (requires_borrowed : bool) : M unit :=
  fun s => DVGet requires_borrowed (Ret (Ok tt, s)).
Definition value_str_peek : M str := fun s => DVStrPeek (fun t => Ret (Ok t, s)).
Definition value_str : M str := fun s => DVStr (fun t => Ret (Ok t, s)).
Definition value_string : M str := fun s => DVString (fun t => Ret (Ok t, s)).

(** [BytesValueReader::read_byte], lines 1406-1416 *)
Definition value_read_byte (eof_error_kind : syntax_error) : M byte :=
  ob <- value_peek ;;
  match ob with
  | Some b => value_consume ;; ret b
  | None => syntax_err eof_error_kind
  end.

(** [read_byte] of [AsUnicodeEscapeReader], lines 1534-1545 *)
Definition value_read_skipped_byte (eof_error_kind : syntax_error) : M byte :=
  b <- value_read_byte eof_error_kind ;;
  value_skip_previous ;;
  ret b.

(** The part of [read_string] for an escape sequence, lines 1661-1717 *)
Definition read_string_escape : M unit :=
  value_skip_previous ;;
  e <- value_read_byte MalformedEscapeSequence ;;
  (if escape_literal e then ret tt
   else
     match escape_replacement e with
     | Some r => value_skip_previous ;; value_push [r]
     | None =>
       if e =? B_u then
         value_skip_previous ;;
         cn <- read_unicode_escape_char value_read_skipped_byte ;;
         update (advance (snd cn) (snd cn)) ;;
         value_push (encode_char (fst cn))
       else syntax_err UnknownEscapeSequence
     end) ;;
  update (advance 2 2).

(** [read_string], lines 1653-1760; the resulting [BytesValue] is the current
    value of the source *)
Fixpoint read_string_loop (f : nat) (requires_borrowed : bool) : M unit :=
  match f with
  | O => no_fuel
  | S f' =>
    b <- value_read_byte IncompleteDocument ;;
    if b =? B_BACKSLASH then
      read_string_escape ;;
      read_string_loop f' requires_borrowed
    else if b =? B_QUOTE then
      update (advance 1 1) ;;
      value_skip_final ;;
      value_get requires_borrowed
    else if b <=? 0x1F then syntax_err NotEscapedControlCharacter
    else if b <=? 0x7F then
      update (advance 1 1) ;;
      read_string_loop f' requires_borrowed
    else
      bs <- read_utf8_multibyte value_read_byte b ;;
      update (advance 1 (len64 bs)) ;;
      read_string_loop f' requires_borrowed
  end.
Definition read_string (E : env) (requires_borrowed : bool) : M unit :=
  value_reader_new ;;
  read_string_loop (fuel E) requires_borrowed.

(** ** Numbers *)

(** [consume_json_number] (src/json_number.rs:13-136) with the given
    [consume_current_peek_next], counting its calls ([consumed_bytes]) *)
Fixpoint run_number (next : M (option byte)) (p : nprog) (consumed : N) : M (option N * N) :=
  match p with
  | NRet r => ret (r, consumed)
  | NNext k => ob <- next ;; run_number next (k ob) (consumed + 1)
  | NFuel => no_fuel
  end.

(** [consume_current_peek_next] of [NumberBytesValueReader], lines 1873-1881 *)
Definition number_next : M (option byte) := value_consume ;; value_peek.

(** [consume_current_peek_next] of [SkippingNumberBytesReader], lines 1908-1915 *)
Definition number_skip_next : M (option byte) := skip_peeked_byte ;; peek_byte.

(** The first lines of the macro [collect_next_number_bytes], 1814-1817 *)
Definition number_start (E : env) : M byte :=
  start_expected_value_type E TNumber false ;;
  ob <- peek_byte ;;
  match ob with Some b => ret b | None => panics Bug end.

(** The last lines of the macro, 1835-1843 *)
Definition number_end_checks (consumed : N) : M unit :=
  update (advance consumed consumed) ;;
  verify_next_separator TrailingDataAfterNumber ;;
  on_value_end.

(** [read_number_bytes], lines 1855-1865, with the macro of lines 1812-1847 and
    [get_number_string_for_error], [get_result] (1892-1901) *)
Definition read_number_bytes (E : env) (requires_borrowed : bool) : M unit :=
  first_byte <- number_start E ;;
  value_reader_new ;;
  rc <- run_number number_next (consume_json_number (fuel E) first_byte) 0 ;;
  match fst rc with
  | None => syntax_err MalformedNumber
  | Some exponent_digits_count =>
    if restrict_number_values (cfg E) && ((2 <? exponent_digits_count) || (100 <? snd rc)) then
      value_get false ;;
      number <- value_string ;;
      fail (EUnsupportedNumber number)
    else
      value_get requires_borrowed ;;
      number_end_checks (snd rc)
  end.

(** The macro with [SkippingNumberBytesReader], used by [skip_value] (2140-2145) *)
Definition skip_number (E : env) : M unit :=
  first_byte <- number_start E ;;
  rc <- run_number number_skip_next (consume_json_number (fuel E) first_byte) 0 ;;
  match fst rc with
  | None => syntax_err MalformedNumber
  | Some _ => number_end_checks (snd rc)
  end.

(** ** The methods of [JsonReader] *)

(** [peek], lines 1934-1940 *)
Definition peek (E : env) : M value_type :=
  s <- get_state ;;
  misuse_if (expects_member_name s) ;;
  p <- peek_internal E ;;
  map_peeked p.

(** [begin_array], lines 1942-1952 *)
Definition begin_array (E : env) : M unit :=
  on_container_start E TArray SArray ;;
  update (fun s => set_expects_name false
                     (set_path (option_map (cons (PIndex 0)) (json_path s)) s)).

(** [end_array], lines 1954-1968 *)
Definition end_array (E : env) : M unit :=
  s <- get_state ;;
  misuse_if (negb (is_in_array s)) ;;
  p <- peek_internal E ;;
  match p with
  | PkArrayEnd => consume_peeked ;; on_container_end
  | _ => structure_err MoreElementsThanExpected
  end.

(** [<?>], line 1977 *)
Definition name_placeholder : str := [0x3C; 0x3F; 0x3E].

(** [begin_object], lines 1970-1981 *)
Definition begin_object (E : env) : M unit :=
  on_container_start E TObject SObject ;;
  update (fun s => set_expects_name true
                     (set_path (option_map (cons (PName name_placeholder)) (json_path s)) s)).

(** [end_object], lines 2019-2040 *)
Definition end_object (E : env) : M unit :=
  s <- get_state ;;
  misuse_if (negb (is_in_object s)) ;;
  misuse_if (expects_member_value s) ;;
  p <- peek_internal E ;;
  match p with
  | PkObjectEnd => consume_peeked ;; update (set_expects_name false) ;; on_container_end
  | _ => structure_err MoreElementsThanExpected
  end.

(** [has_next], lines 2059-2086; [Bug] is the [debug_assert!] *)
Definition has_next (E : env) : M bool :=
  s <- get_state ;;
  misuse_if (expects_member_value s) ;;
  op <-
    match stack s with
    | [] =>
      misuse_if (is_empty s) ;;
      misuse_if (negb (allow_multiple_top_level (cfg E))) ;;
      peek_internal_optional E
    | _ => p <- peek_internal E ;; ret (Some p)
    end ;;
  match op with
  | None => ret false
  | Some p =>
    s <- get_state ;;
    if negb (expects_member_name s) ||
       match p with PkNameStart | PkObjectEnd => true | _ => false end
    then ret (negb (is_end_token p))
    else panics Bug
  end.

(** [before_name], lines 1764-1783 *)
Definition before_name (E : env) : M unit :=
  s <- get_state ;;
  misuse_if (negb (expects_member_name s)) ;;
  misuse_if (string_reader_active s) ;;
  h <- has_next E ;;
  if negb h then structure_err FewerElementsThanExpected
  else
    update (set_expects_name false) ;;
    consume_peeked.

(** Lines 1988-1993, 2010-2013, 2099-2102: store the name in the path *)
Definition set_path_name (name : str) : M unit :=
  s <- get_state ;;
  match json_path s with
  | None => ret tt
  | Some (PName _ :: l) => update (set_path (Some (PName name :: l)))
  | Some _ => panics Bug
  end.

(** [next_name_owned], lines 1983-1996 *)
Definition next_name_owned (E : env) : M str :=
  before_name E ;;
  read_string E false ;;
  name <- value_string ;;
  set_path_name name ;;
  ret name.

(** [next_name], lines 1998-2017 *)
Definition next_name (E : env) : M str :=
  before_name E ;;
  read_string E true ;;
  s <- get_state ;;
  match json_path s with
  | Some _ => name <- value_str_peek ;; set_path_name name
  | None => ret tt
  end ;;
  value_str.

(** [skip_name], lines 2088-2107 *)
Definition skip_name (E : env) : M unit :=
  before_name E ;;
  s <- get_state ;;
  match json_path s with
  | Some _ =>
    read_string E false ;;
    name <- value_string ;;
    set_path_name name
  | None => skip_all_string_bytes E
  end.

(** [next_bool], lines 2042-2051 *)
Definition next_bool (E : env) : M bool :=
  p <- start_expected_value_type E TBoolean false ;;
  v <- match p with PkTrue => ret true | PkFalse => ret false | _ => panics Bug end ;;
  on_value_end ;;
  ret v.

(** [next_null], lines 2053-2057 *)
Definition next_null (E : env) : M unit :=
  start_expected_value_type E TNull false ;;
  on_value_end.

(** [next_string], lines 2165-2170 *)
Definition next_string (E : env) : M str :=
  start_expected_value_type E TString false ;;
  read_string E false ;;
  r <- value_string ;;
  on_value_end ;;
  ret r.

(** [next_str], lines 2172-2177 *)
Definition next_str (E : env) : M str :=
  start_expected_value_type E TString false ;;
  read_string E true ;;
  on_value_end ;;
  value_str.

(** [next_number_as_string], [next_number_as_str], lines 2192-2198 *)
Definition next_number_as_string (E : env) : M str := read_number_bytes E false ;; value_string.
Definition next_number_as_str (E : env) : M str := read_number_bytes E true ;; value_str.

(** The [match] of [skip_value], lines 2125-2153: consumes a scalar value, or
    the start of an array or object; the result tells which of the two *)
Definition skip_value_start (E : env) : M bool :=
  t <- peek E ;;
  match t with
  | TArray => begin_array E ;; ret true
  | TObject => begin_object E ;; ret true
  | TString =>
    start_expected_value_type E TString false ;;
    skip_all_string_bytes E ;;
    on_value_end ;;
    ret false
  | TNumber => skip_number E ;; ret false
  | TBoolean => next_bool E ;; ret false
  | TNull => next_null E ;; ret false
  end.

(** Lines 2116-2121 and 2255-2264 (reader part): end the current container *)
Definition end_container (E : env) : M unit :=
  s <- get_state ;;
  if is_in_array s then end_array E else end_object E.

(** [skip_value], lines 2109-2163 *)
Fixpoint skip_value_loop (E : env) (f : nat) (depth : nat) : M unit :=
  match f with
  | O => no_fuel
  | S f' =>
    h <- match depth with O => ret true | _ => has_next E end ;;
    depth' <-
      (if negb h then end_container E ;; ret (pred depth)
       else
         s <- get_state ;;
         (if expects_member_name s then skip_name E else ret tt) ;;
         started <- skip_value_start E ;;
         ret (if started : bool then S depth else depth)) ;;
    match depth' with
    | O => ret tt
    | _ => skip_value_loop E f' depth'
    end
  end.
Definition skip_value (E : env) : M unit :=
  s <- get_state ;;
  misuse_if (expects_member_name s) ;;
  skip_value_loop E (fuel E) 0.

(** [while self.has_next()? { self.skip_value()?; }], src/reader/mod.rs:1588-1590
    and lines 2232-2234 *)
Fixpoint skip_items (E : env) (f : nat) : M unit :=
  match f with
  | O => no_fuel
  | S f' =>
    h <- has_next E ;;
    if h : bool then skip_value E ;; skip_items E f' else ret tt
  end.

(** [while self.has_next()? { self.skip_name()?; self.skip_value()?; }],
    src/reader/mod.rs:1595-1598 and lines 2238-2241 *)
Fixpoint skip_members (E : env) (f : nat) : M unit :=
  match f with
  | O => no_fuel
  | S f' =>
    h <- has_next E ;;
    if h : bool then skip_name E ;; skip_value E ;; skip_members E f' else ret tt
  end.

(** [skip_to_top_level], lines 2217-2246 *)
Fixpoint skip_to_top_level_loop (E : env) (f : nat) : M unit :=
  match f with
  | O => no_fuel
  | S f' =>
    s <- get_state ;;
    match stack s with
    | [] => ret tt
    | SArray :: _ => skip_items E (fuel E) ;; end_array E ;; skip_to_top_level_loop E f'
    | SObject :: _ => skip_members E (fuel E) ;; end_object E ;; skip_to_top_level_loop E f'
    end
  end.
Definition skip_to_top_level (E : env) : M unit :=
  s <- get_state ;;
  misuse_if (string_reader_active s) ;;
  (if expects_member_value s then skip_value E else ret tt) ;;
  skip_to_top_level_loop E (fuel E).

Fixpoint str_eqb (a b : str) : bool :=
  match a, b with
  | [], [] => true
  | x :: a', y :: b' => (x =? y) && str_eqb a' b'
  | _, _ => false
  end.

(** src/reader/mod.rs:1484-1500: [remaining] is [index - i].  The loop is
    bounded by the fuel instead of [index]. *)
Fixpoint seek_item (E : env) (f : nat) (index remaining : N) : M unit :=
  match f with
  | O => no_fuel
  | S f' =>
    h <- has_next E ;;
    if negb h then structure_err (TooShortArray index)
    else if remaining =? 0 then ret tt
    else skip_value E ;; seek_item E f' index (remaining - 1)
  end.

(** src/reader/mod.rs:1504-1520 *)
Fixpoint seek_member (E : env) (f : nat) (name : str) : M unit :=
  match f with
  | O => no_fuel
  | S f' =>
    h <- has_next E ;;
    if negb h then structure_err (MissingObjectMember name)
    else
      n <- next_name E ;;
      if str_eqb n name then ret tt
      else skip_value E ;; seek_member E f' name
  end.

Fixpoint seek_pieces (E : env) (path : list piece) : M unit :=
  match path with
  | [] => ret tt
  | PIndex i :: path' => begin_array E ;; seek_item E (fuel E) i i ;; seek_pieces E path'
  | PName n :: path' => begin_object E ;; seek_member E (fuel E) n ;; seek_pieces E path'
  end.

(** [seek_to], src/reader/mod.rs:1475-1526 *)
Definition seek_to (E : env) (path : list piece) : M unit :=
  peek E ;;
  seek_pieces E path.

Fixpoint seek_back_pieces (E : env) (rev_path : list piece) : M unit :=
  match rev_path with
  | [] => ret tt
  | PIndex _ :: p => skip_items E (fuel E) ;; end_array E ;; seek_back_pieces E p
  | PName _ :: p => skip_members E (fuel E) ;; end_object E ;; seek_back_pieces E p
  end.

(** [seek_back], src/reader/mod.rs:1582-1604 *)
Definition seek_back (E : env) (path : list piece) : M unit := seek_back_pieces E (rev path).

(** [consume_trailing_whitespace], lines 2339-2357 *)
Definition consume_trailing_whitespace (E : env) : M unit :=
  s <- get_state ;;
  misuse_if (string_reader_active s) ;;
  match stack s with
  | [] => misuse_if (is_empty s)
  | _ => panics Misuse
  end ;;
  ob <- skip_whitespace E None ;;
  match ob with
  | Some _ => syntax_err TrailingData
  | None => ret tt
  end.

(** ** The string value reader *)

(** [StringValueReader], lines 2378-2390.  [sv_buf] is the content of
    [utf8_buf] from [utf8_start_pos], of length [utf8_count]. *)
Record sv_state : Type := SvState {
  sv_buf : bytes;
  sv_start : nat;
  sv_reached_end : bool;
  sv_error : bool
}.

(** [next_string_reader], lines 2179-2190 *)
Definition next_string_reader (E : env) : M sv_state :=
  start_expected_value_type E TString false ;;
  update (set_active true) ;;
  ret (SvState [] 0 false false).

(** The error of [read]: the wrapped error of this call, or the repeated
    previous error.  The kind is [Other] in both cases. *)
Inductive sv_read_error : Type :=
| SvError (e : reader_error)
| SvPreviousError.

Definition catch {A : Type} (m : M A) : M (A + reader_error) := fun s =>
  pbind (m s) (fun rs =>
    match rs with
    | (Ok a, s') => Ret (Ok (inl a), s')
    | (Err e, s') => Ret (Ok (inr e), s')
    | (Panic k, s') => Ret (Panic k, s')
    | (OutOfFuel, s') => Ret (OutOfFuel, s')
    end).

(** [STRING_VALUE_READER_BUF_SIZE], line 2376 *)
Definition STRING_VALUE_READER_BUF_SIZE : nat := 3.

(** The loop of [read_impl], lines 2418-2455; [len] is [buf.len()], [out] the
    part of [buf] which has been filled.  [Bug]: [debug_assert!] or an index out
    of range of [utf8_buf]. *)
Fixpoint sv_read_loop (f : nat) (len : nat) (out : bytes) (sv : sv_state)
  : M ((bytes + reader_error) * sv_state) :=
  if Nat.ltb (length out) len then
    match f with
    | O => no_fuel
    | S f' =>
      if negb (Nat.eqb (sv_start sv) 0 && Nat.eqb (length (sv_buf sv)) 0) then panics Bug
      else
        r <- catch read_string_bytes ;;
        match r with
        | inr e => ret (inr e, sv)
        | inl (reached_end, bs) =>
          let extra := skipn (len - length out) bs in
          if Nat.ltb STRING_VALUE_READER_BUF_SIZE (length extra) then panics Bug
          else if reached_end : bool then
            update (set_active false) ;;
            on_value_end ;;
            ret (inl out, SvState (sv_buf sv) (sv_start sv) true (sv_error sv))
          else
            sv_read_loop f' len (out ++ firstn (len - length out) bs)
              (SvState extra (sv_start sv) false (sv_error sv))
        end
    end
  else ret (inl out, sv).

(** [read_impl], lines 2393-2456 *)
Definition sv_read_impl (E : env) (len : nat) (sv : sv_state)
  : M ((bytes + reader_error) * sv_state) :=
  if sv_reached_end sv || Nat.eqb len 0 then ret (inl [], sv)
  else
    let copy_count := Nat.min (length (sv_buf sv)) len in
    let sv1 :=
      if Nat.eqb copy_count (length (sv_buf sv))
      then SvState [] 0 false (sv_error sv)
      else SvState (skipn copy_count (sv_buf sv)) (sv_start sv + copy_count) false (sv_error sv) in
    sv_read_loop (fuel E) len (firstn copy_count (sv_buf sv)) sv1.

(** [read], lines 2469-2480 *)
Definition sv_read (E : env) (len : nat) (sv : sv_state)
  : M ((bytes + sv_read_error) * sv_state) :=
  if sv_error sv then ret (inr SvPreviousError, sv)
  else
    r <- sv_read_impl E len sv ;;
    match r with
    | (inl bs, sv') => ret (inl bs, sv')
    | (inr e, sv') =>
      ret (inr (SvError e), SvState (sv_buf sv') (sv_start sv') (sv_reached_end sv') true)
    end.

(** ** Client programs *)

(** A call of a client.  [CRead len] is [read] with a slice of the given length
    on the reader returned by the previous call of [next_string_reader].
    [next_number] is [next_number_as_str] followed by [str::parse]
    (src/reader/mod.rs:1162-1164); parsing is not modelled. *)
Inductive rcall : Type :=
| CPeek | CHasNext
| CBeginArray | CEndArray | CBeginObject | CEndObject
| CNextName | CNextNameOwned | CSkipName
| CNextString | CNextStr | CNextStringReader | CRead (len : nat)
| CNextNumberStr | CNextNumberString
| CNextBool | CNextNull
| CSkipValue | CSeekTo (path : list piece) | CSeekBack (path : list piece)
| CSkipToTopLevel
| CPosition (include_path : bool)
| CConsumeTrailingWhitespace.

(** What a call returns *)
Inductive rvalue : Type :=
| RUnit
| RBool (b : bool)
| RType (t : value_type)
| RStr (s : str)
| RBytes (bs : bytes)
| RPos (p : position).

(** Outcome of a call as seen by the client.  [OReadErr] is the error of the
    [read] call of a string reader.  [ONotPossible] is a call which the Rust
    compiler rejects ([CRead] without string reader, any call after
    [consume_trailing_whitespace], which takes the reader by value).
    [OStopped]: the client may not make this call, since an earlier call ended
    with a panic or with an error after which processing must be aborted. *)
Inductive outcome : Type :=
| OOk (v : rvalue)
| OErr (e : reader_error)
| OReadErr (e : sv_read_error)
| OPanic (k : panic)
| OFuel
| ONotPossible
| OStopped.

(** Whether the client may continue after the error: "When encountering
    [UnexpectedValueType] or [UnexpectedStructure] ... it might be possible to
    continue processing" (src/reader/mod.rs:729-733); the same is assumed for
    [MaxNestingDepthExceeded], which is reported before anything is consumed. *)
Definition recoverable (e : reader_error) : bool :=
  match e with
  | EUnexpectedType _ _ _ | EUnexpectedStructure _ _ | EMaxNestingDepth _ _ => true
  | ESyntax _ _ | EUnsupportedNumber _ _ | EIo _ _ => false
  end.

Inductive phase : Type := Running | Stopped | Consumed.

(** The reader as held by the client, with the string reader if there is one *)
Record session : Type := Session {
  s_state : rstate;
  s_reader : option sv_state;
  s_phase : phase
}.

Definition session_new (s : settings) : session := Session (rstate_new s) None Running.

(** Runs a function of the reader; a string reader which exists has been
    dropped by the client. *)
Definition call {A : Type} (m : M A) (val : A -> rvalue) (st : session) : prog (outcome * session) :=
  pbind (m (s_state st)) (fun rs =>
    match rs with
    | (Ok a, s) => Ret (OOk (val a), Session s None Running)
    | (Err e, s) => Ret (OErr e, Session s None (if recoverable e then Running else Stopped))
    | (Panic k, s) => Ret (OPanic k, Session s None Stopped)
    | (OutOfFuel, s) => Ret (OFuel, Session s None Stopped)
    end).

Definition to_unit (_ : unit) : rvalue := RUnit.

(** [next_string_reader]: also keeps the string reader *)
Definition call_string_reader (E : env) (st : session) : prog (outcome * session) :=
  pbind (next_string_reader E (s_state st)) (fun rs =>
    match rs with
    | (Ok sv, s) => Ret (OOk RUnit, Session s (Some sv) Running)
    | (Err e, s) => Ret (OErr e, Session s None (if recoverable e then Running else Stopped))
    | (Panic k, s) => Ret (OPanic k, Session s None Stopped)
    | (OutOfFuel, s) => Ret (OFuel, Session s None Stopped)
    end).

(** [read] of the string reader: its errors are sticky, so the client may
    continue to call it *)
Definition call_read (E : env) (len : nat) (st : session) : prog (outcome * session) :=
  match s_reader st with
  | None => Ret (ONotPossible, st)
  | Some sv =>
    pbind (sv_read E len sv (s_state st)) (fun rs =>
      match rs with
      | (Ok (inl bs, sv'), s) => Ret (OOk (RBytes bs), Session s (Some sv') Running)
      | (Ok (inr e, sv'), s) => Ret (OReadErr e, Session s (Some sv') Running)
      | (Err e, s) => Ret (OPanic Bug, Session s None Stopped)
      | (Panic k, s) => Ret (OPanic k, Session s None Stopped)
      | (OutOfFuel, s) => Ret (OFuel, Session s None Stopped)
      end)
  end.

(** [consume_trailing_whitespace] takes the reader by value *)
Definition call_consume (E : env) (st : session) : prog (outcome * session) :=
  pbind (call (consume_trailing_whitespace E) to_unit st) (fun os =>
    Ret (fst os, Session (s_state (snd os)) None Consumed)).

Definition client_call (E : env) (c : rcall) (st : session) : prog (outcome * session) :=
  match s_phase st with
  | Stopped => Ret (OStopped, st)
  | Consumed => Ret (ONotPossible, st)
  | Running =>
    match c with
    | CPeek => call (peek E) RType st
    | CHasNext => call (has_next E) RBool st
    | CBeginArray => call (begin_array E) to_unit st
    | CEndArray => call (end_array E) to_unit st
    | CBeginObject => call (begin_object E) to_unit st
    | CEndObject => call (end_object E) to_unit st
    | CNextName => call (next_name E) RStr st
    | CNextNameOwned => call (next_name_owned E) RStr st
    | CSkipName => call (skip_name E) to_unit st
    | CNextString => call (next_string E) RStr st
    | CNextStr => call (next_str E) RStr st
    | CNextStringReader => call_string_reader E st
    | CRead len => call_read E len st
    | CNextNumberStr => call (next_number_as_str E) RStr st
    | CNextNumberString => call (next_number_as_string E) RStr st
    | CNextBool => call (next_bool E) RBool st
    | CNextNull => call (next_null E) to_unit st
    | CSkipValue => call (skip_value E) to_unit st
    | CSeekTo p => call (seek_to E p) to_unit st
    | CSeekBack p => call (seek_back E p) to_unit st
    | CSkipToTopLevel => call (skip_to_top_level E) to_unit st
    | CPosition b => call (fun s => Ret (Ok (current_position b s), s)) RPos st
    | CConsumeTrailingWhitespace => call_consume E st
    end
  end.

Fixpoint client_calls (E : env) (cs : list rcall) (st : session) : prog (list outcome * session) :=
  match cs with
  | [] => Ret ([], st)
  | c :: cs' =>
    pbind (client_call E c st) (fun os =>
      pbind (client_calls E cs' (snd os)) (fun osl =>
        Ret (fst os :: fst osl, snd osl)))
  end.

(** A client program run on a reader over the given [Read] implementation.  The
    fuel is larger than the number of bytes which the implementation supplies;
    the theorems show that it is never exhausted. *)
Definition enough_fuel (input : bytes) : nat := S (S (length input)).

Definition read_session (s : settings) (evs : list event) (cs : list rcall) : list outcome :=
  match crun (client_calls (Env s (enough_fuel (fst (supplied evs)))) cs (session_new s))
             (csrc_new evs) with
  | Some (os, _, _) => os
  | None => [OPanic Bug]
  end.
