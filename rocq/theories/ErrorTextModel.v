(** * Model of the texts of the errors of copying, serializing and deserializing

    The format strings are those of [thiserror]. *)

From Coq Require Import String.
From Verif Require Import Base Utf8Model WriterModel SourceModel ReaderModel DisplayModel.
From Verif Require TransferModel SerModel DeModel.
Local Open Scope list_scope.

(** [Display] of [TransferError], src/reader/mod.rs:636-645.  [io_text] and
    [write_text] are the texts of the [std::io::Error]s of reader and writer. *)
Definition transfer_error_text {F : Type} (io_text : io_error -> str) (write_text : F -> str)
  (e : TransferModel.transfer_error F) : str :=
  match e with
  | inl e => text "reader error: " ++ error_text io_text e
  | inr e => text "writer error: " ++ write_text e
  end.

(** [Display] of [SerializerError], src/serde/ser.rs:17-62.  The messages of
    custom errors and of invalid numbers are parameters, and the texts of the
    [std::io::Error]s. *)
Definition serializer_error_text (custom : N -> str) (write_text : werr -> str) (number_message : str)
  (e : SerModel.serr) : str :=
  match e with
  | SerModel.SeCustom n => custom n
  | SerModel.SeIo e => text "IO error: " ++ write_text e
  | SerModel.SeInvalidNumber => text "invalid number: " ++ number_message
  | SerModel.SeCount expected actual =>
    text "incorrect elements count, expected " ++ nat_to_string expected ++ text " but got " ++ nat_to_string actual
  | SerModel.SeKeyNotString => text "map key cannot be converted to string"
  end.

(** [Display] of [DeserializerError], src/serde/de.rs:33-54.  The messages of
    custom errors (among them those which serde makes for [invalid_type] and
    [invalid_length]) and of invalid numbers are parameters. *)
Definition deserializer_error_text (io_text : io_error -> str) (custom : DeModel.derr -> str) (number_message : str)
  (e : DeModel.derr) : str :=
  match e with
  | DeModel.DeCustom _ | DeModel.DeInvalidType _ | DeModel.DeInvalidLength _ _ => custom e
  | DeModel.DeMaxNesting d => text "maximum nesting depth " ++ nat_to_string d ++ text " exceeded"
  | DeModel.DeReader e => error_text io_text e
  | DeModel.DeInvalidNumber => number_message
  end.
