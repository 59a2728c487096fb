(** * Specification of the [Debug] output (C55) *)

From Verif Require Import Base Utf8Model WriterModel SpecWriter SourceModel ReaderModel SpecCost DebugModel.

(** [bs] does not begin with a character *)
Definition no_char (bs : bytes) : Prop := forall c r, is_char c -> bs <> encode_char c ++ r.

(** What the reader shows about bytes which it has fetched and not consumed:
    their number; the text if it has at most 45 characters; otherwise the first
    45 characters, or those in front of the first bytes which are not a
    character, and an ellipsis.  Then, if this text has less than 15 bytes, up to
    30 bytes from the place where the text is malformed. *)
Definition reader_shows (d : reader_debug) (fetched : bytes) : Prop :=
  match d with
  | RdEof => fetched = []
  | RdBuf count shown more =>
    count = length fetched /\
    exists s rest, fetched = encode_utf8 s ++ rest /\ Forall is_char s /\ (length s <= 45)%nat /\
      ((rest = [] /\ shown = s /\ more = None) \/
       (rest <> [] /\ shown = s ++ ellipsis /\ (length s = 45%nat \/ no_char rest) /\
        match more with
        | None => (15 <= length (encode_utf8 s))%nat
        | Some bs => (length (encode_utf8 s) < 15)%nat /\ no_char rest /\ bs = firstn 30 rest
        end))
  end.

(** [{:?}] of the reader after a client program; [None] is a panic *)
Definition session_debug (s : settings) (evs : list event) (cs : list rcall) : option reader_debug :=
  match crun (session_program s evs cs) (csrc_new evs) with
  | Some (_, c) => debug_reader c
  | None => None
  end.

(** Text of up to 55 characters is shown as it is, longer one without its middle *)
Definition shows_ends (s shown : str) : Prop :=
  ((length s <= 55)%nat /\ shown = s) \/
  ((55 < length s)%nat /\ exists first middle last, s = first ++ middle ++ last /\
     length first = 25%nat /\ length last = 25%nat /\ shown = first ++ [0x20] ++ ellipsis ++ [0x20] ++ last).

(** What the writer shows about the bytes which it holds back: their number, bytes
    in front which are not shown as text (if any), and the text *)
Definition writer_shows (d : writer_debug) (held_back : bytes) : Prop :=
  wd_count d = length held_back /\
  match wd_buf d with
  | None => exists s, held_back = encode_utf8 s /\ Forall is_char s /\ shows_ends s (wd_str d)
  | Some bs =>
    from_utf8 held_back = None /\
    exists s shown, held_back = bs ++ encode_utf8 s /\ Forall is_char s /\ shows_ends s shown /\
      wd_str d = ellipsis ++ shown
  end.

(** Text of UTF-8 characters *)
Definition utf8_text (bs : bytes) : Prop := exists s, bs = encode_utf8 s /\ Forall is_char s.
(** The separator is text (as Rust guarantees for a [String]) *)
Definition valid_wsettings (cfg : wsettings) : Prop :=
  match multi_top_level_value_separator cfg with Some s => Forall is_char s | None => True end.

(** The bytes of the input which the reader has not requested from the source yet *)
Definition session_not_fetched (s : settings) (evs : list event) (cs : list rcall) : bytes :=
  match crun (session_program s evs cs) (csrc_new evs) with
  | Some (_, c) => if c_eof c then [] else fst (supplied (c_events c))
  | None => []
  end.
