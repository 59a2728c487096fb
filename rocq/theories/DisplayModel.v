(** * Model of the texts of positions and errors of the reader

    The [Display] implementations of src/reader/mod.rs; the format strings are
    those of [thiserror] and [strum].  Decimal numbers are formatted like the
    writer does ([nat_to_string]). *)

From Coq Require Import String.
From Verif Require Import Base Utf8Model WriterModel SourceModel ReaderModel.
Local Open Scope list_scope.

Definition text (s : string) : str := bytes_of_string s.
Arguments text s%string_scope.

(** [format_abs_json_path], src/reader/mod.rs:72-82 *)
Definition piece_text (p : piece) : str :=
  match p with
  | PIndex i => text "[" ++ nat_to_string i ++ text "]"
  | PName n => text "." ++ n
  end.
Definition path_text (path : list piece) : str := text "$" ++ flat_map piece_text path.

(** [JsonReaderPosition] with all its options, src/reader/mod.rs:300-354;
    [line_pos] are line and column *)
Record location : Type := Location {
  l_path : option (list piece);
  l_line_pos : option (N * N);
  l_data_pos : option N
}.

(** The positions of [JsonStreamReader], and [unknown_position],
    src/reader/mod.rs:355-365 *)
Definition location_of (p : position) : location :=
  Location (p_path p) (Some (p_line p, p_column p)) (Some (p_byte p)).
Definition unknown_position : location := Location None None None.

(** [Display] of [LinePosition], src/reader/mod.rs:277-281 *)
Definition line_text (l : N * N) : str :=
  text "line " ++ nat_to_string (fst l) ++ text ", column " ++ nat_to_string (snd l).

(** [Display] of [JsonReaderPosition], src/reader/mod.rs:367-395 *)
Definition location_text (l : location) : str :=
  match l_path l with
  | Some path =>
    text "path '" ++ path_text path ++ text "'" ++
    match l_line_pos l with
    | Some line_pos =>
      text ", " ++ line_text line_pos ++
      match l_data_pos l with
      | Some data_pos => text " (data pos " ++ nat_to_string data_pos ++ text ")"
      | None => []
      end
    | None =>
      match l_data_pos l with
      | Some data_pos => text ", data pos " ++ nat_to_string data_pos
      | None => []
      end
    end
  | None =>
    match l_line_pos l with
    | Some line_pos =>
      line_text line_pos ++
      match l_data_pos l with
      | Some data_pos => text " (data pos " ++ nat_to_string data_pos ++ text ")"
      | None => []
      end
    | None =>
      match l_data_pos l with
      | Some data_pos => text "data pos " ++ nat_to_string data_pos
      | None => text "<location unavailable>"
      end
    end
  end.

(** [strum::Display] of [SyntaxErrorKind], src/reader/mod.rs:413-472 *)
Definition syntax_error_text (k : syntax_error) : str :=
  match k with
  | CommentsNotEnabled => text "CommentsNotEnabled"
  | IncompleteComment => text "IncompleteComment"
  | BlockCommentNotClosed => text "BlockCommentNotClosed"
  | InvalidLiteral => text "InvalidLiteral"
  | TrailingDataAfterLiteral => text "TrailingDataAfterLiteral"
  | UnexpectedClosingBracket => text "UnexpectedClosingBracket"
  | UnexpectedComma => text "UnexpectedComma"
  | MissingComma => text "MissingComma"
  | TrailingCommaNotEnabled => text "TrailingCommaNotEnabled"
  | UnexpectedColon => text "UnexpectedColon"
  | MissingColon => text "MissingColon"
  | MalformedNumber => text "MalformedNumber"
  | TrailingDataAfterNumber => text "TrailingDataAfterNumber"
  | ExpectingMemberNameOrObjectEnd => text "ExpectingMemberNameOrObjectEnd"
  | MalformedJson => text "MalformedJson"
  | NotEscapedControlCharacter => text "NotEscapedControlCharacter"
  | UnknownEscapeSequence => text "UnknownEscapeSequence"
  | MalformedEscapeSequence => text "MalformedEscapeSequence"
  | UnpairedSurrogatePairEscapeSequence => text "UnpairedSurrogatePairEscapeSequence"
  | IncompleteDocument => text "IncompleteDocument"
  | TrailingData => text "TrailingData"
  end.

(** [strum::Display] of [ValueType], src/reader/mod.rs:225-243 *)
Definition value_type_text (t : value_type) : str :=
  match t with
  | TArray => text "Array"
  | TObject => text "Object"
  | TString => text "String"
  | TNumber => text "Number"
  | TBoolean => text "Boolean"
  | TNull => text "Null"
  end.

(** [strum::Display] of [UnexpectedStructureKind], src/reader/mod.rs:475-505 *)
Definition structure_error_text (k : structure_error) : str :=
  match k with
  | TooShortArray i => text "TooShortArray(expected_index = " ++ nat_to_string i ++ text ")"
  | MissingObjectMember n => text "MissingObjectMember(""" ++ n ++ text """)"
  | FewerElementsThanExpected => text "FewerElementsThanExpected"
  | MoreElementsThanExpected => text "MoreElementsThanExpected"
  end.

(** [Display] of [ReaderError] and [JsonSyntaxError], src/reader/mod.rs:397-410
    and 507-592.  [io_text] is the text of the [std::io::Error]. *)
Definition error_text (io_text : io_error -> str) (e : reader_error) : str :=
  match e with
  | ESyntax k l =>
    text "syntax error: JSON syntax error " ++ syntax_error_text k ++ text " at " ++ location_text (location_of l)
  | EUnexpectedType expected actual l =>
    text "expected JSON value type " ++ value_type_text expected ++ text " but got " ++ value_type_text actual
      ++ text " at " ++ location_text (location_of l)
  | EUnexpectedStructure k l =>
    text "unexpected JSON structure " ++ structure_error_text k ++ text " at " ++ location_text (location_of l)
  | EMaxNestingDepth d l =>
    text "maximum nesting depth " ++ nat_to_string d ++ text " exceeded at " ++ location_text (location_of l)
  | EUnsupportedNumber n l =>
    text "unsupported number value '" ++ n ++ text "' at " ++ location_text (location_of l)
  | EIo e l =>
    text "IO error '" ++ io_text e ++ text "' at (roughly) " ++ location_text (location_of l)
  end.
