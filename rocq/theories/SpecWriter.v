(** * Specification: what a sequence of writer calls describes

    A sequence of calls builds a document tree step by step.  Only the types of
    the settings and of the calls are taken from the model. *)

From Verif Require Import Base Utf8Model SpecNumber SpecJson WriterModel.

(** ** The document under construction *)

(** An unfinished container; for an object [pending] is the name of the member
    whose value comes next. *)
Inductive open_container : Type :=
| OpenArr (items : list json)
| OpenObj (members : list (str * json)) (pending : option str).

(** Finished top-level values, unfinished containers (innermost first), and the
    bytes written so far to an unfinished string value writer. *)
Record wdoc : Type := Wdoc {
  d_top : list json;
  d_open : list open_container;
  d_string : option bytes
}.

Definition empty_doc : wdoc := Wdoc [] [] None.

(** Is a value allowed at this point? *)
Definition value_allowed (multi_top_level : bool) (d : wdoc) : Prop :=
  d_string d = None /\
  match d_open d with
  | [] => d_top d = [] \/ multi_top_level = true
  | OpenArr _ :: _ => True
  | OpenObj _ pending :: _ => pending <> None
  end.

(** The document after adding a finished value. *)
Definition add_value (v : json) (d : wdoc) : wdoc :=
  match d_open d with
  | [] => Wdoc (d_top d ++ [v]) [] None
  | OpenArr items :: o => Wdoc (d_top d) (OpenArr (items ++ [v]) :: o) None
  | OpenObj ms (Some n) :: o => Wdoc (d_top d) (OpenObj (ms ++ [(n, v)]) None :: o) None
  | OpenObj ms None :: o => d
  end.

Definition open_container_in (c : open_container) (d : wdoc) : wdoc :=
  Wdoc (d_top d) (c :: d_open d) None.

(** Numbers as decimal text *)
Definition digits_value (ds : bytes) : N := fold_left (fun acc d => acc * 10 + (d - 0x30)) ds 0.
Definition decimal_text (z : Z) (t : bytes) : Prop :=
  (int_text t /\ z = Z.of_N (digits_value t)) \/
  (exists ds, t = 0x2D :: ds /\ int_text ds /\ digits_value ds <> 0 /\ z = (- Z.of_N (digits_value ds))%Z).

(** [describes multi d c d']: call [c] is allowed for document [d] and turns it
    into [d'].  Bytes for a string value may be split anywhere, but together
    they have to be UTF-8. *)
Inductive describes (multi : bool) (d : wdoc) : wcall -> wdoc -> Prop :=
| D_null : value_allowed multi d -> describes multi d CNull (add_value JNull d)
| D_bool b : value_allowed multi d -> describes multi d (CBool b) (add_value (JBool b) d)
| D_string s : value_allowed multi d -> describes multi d (CString s) (add_value (JStr s) d)
| D_number z t : value_allowed multi d -> decimal_text z t ->
    describes multi d (CNumber z) (add_value (JNum t) d)
| D_number_str s : value_allowed multi d -> number_text (encode_utf8 s) ->
    describes multi d (CNumberFromString s) (add_value (JNum (encode_utf8 s)) d)
| D_number_invalid s : ~ number_text (encode_utf8 s) -> d_string d = None ->
    describes multi d (CNumberFromString s) d
| D_float s : value_allowed multi d -> number_text (encode_utf8 s) ->
    describes multi d (CFloat (Some s)) (add_value (JNum (encode_utf8 s)) d)
| D_float_invalid : d_string d = None -> describes multi d (CFloat None) d
| D_begin_array : value_allowed multi d ->
    describes multi d CBeginArray (open_container_in (OpenArr []) d)
| D_begin_object : value_allowed multi d ->
    describes multi d CBeginObject (open_container_in (OpenObj [] None) d)
| D_end_array items o : d_string d = None -> d_open d = OpenArr items :: o ->
    describes multi d CEndArray (add_value (JArr items) (Wdoc (d_top d) o None))
| D_end_object ms o : d_string d = None -> d_open d = OpenObj ms None :: o ->
    describes multi d CEndObject (add_value (JObj ms) (Wdoc (d_top d) o None))
| D_name n ms o : d_string d = None -> d_open d = OpenObj ms None :: o ->
    describes multi d (CName n) (Wdoc (d_top d) (OpenObj ms (Some n) :: o) None)
| D_string_writer : value_allowed multi d ->
    describes multi d CStringWriter (Wdoc (d_top d) (d_open d) (Some []))
| D_write acc bs : d_string d = Some acc ->
    describes multi d (CWrite bs) (Wdoc (d_top d) (d_open d) (Some (acc ++ bs)))
| D_write_str acc s : d_string d = Some acc -> from_utf8 acc <> None ->
    describes multi d (CWriteStr s) (Wdoc (d_top d) (d_open d) (Some (acc ++ encode_utf8 s)))
| D_flush acc : d_string d = Some acc -> describes multi d CFlush d
| D_finish_value acc s : d_string d = Some acc -> from_utf8 acc = Some s ->
    describes multi d CFinishValue (add_value (JStr s) (Wdoc (d_top d) (d_open d) None)).

Inductive describes_all (multi : bool) : wdoc -> list wcall -> wdoc -> Prop :=
| DA_nil d : describes_all multi d [] d
| DA_cons d c d' cs d'' : describes multi d c d' -> describes_all multi d' cs d'' ->
    describes_all multi d (c :: cs) d''.

(** The document is complete: nothing is unfinished and there is a value. *)
Definition complete (d : wdoc) : Prop := d_open d = [] /\ d_string d = None /\ d_top d <> [].

(** Calls of the JSON writer (as opposed to those of a string value writer) *)
Definition json_writer_call (c : wcall) : Prop :=
  match c with CWrite _ | CWriteStr _ | CFlush | CFinishValue => False | _ => True end.

(** Incorrect use: a call of the JSON writer which is not allowed at this point
    of the document.  [CNumberFromString] with an invalid number, and a floating
    point number which is not finite, are reported as errors instead. *)
Definition misuse (multi : bool) (d : wdoc) (c : wcall) : Prop :=
  match c with
  | CNull | CBool _ | CString _ | CNumber _ | CFloat (Some _) | CStringWriter
  | CBeginArray | CBeginObject => ~ value_allowed multi d
  | CNumberFromString s => number_text (encode_utf8 s) /\ ~ value_allowed multi d
  | CFloat None => False
  | CEndArray => d_string d <> None \/ ~ exists items o, d_open d = OpenArr items :: o
  | CEndObject => d_string d <> None \/ ~ exists ms o, d_open d = OpenObj ms None :: o
  | CName _ => d_string d <> None \/ ~ exists ms o, d_open d = OpenObj ms None :: o
  | CWrite _ | CWriteStr _ | CFlush | CFinishValue => False
  end.

(** Arguments which Rust guarantees: text consists of characters, slices of
    bytes.  That the text of a finite floating point number is a JSON number is
    an assumption on the standard library (see [fp_number_value]). *)
Definition valid_call (c : wcall) : Prop :=
  match c with
  | CName s | CString s | CNumberFromString s | CWriteStr s => Forall is_char s
  | CFloat (Some s) => Forall is_char s /\ number_text (encode_utf8 s)
  | CWrite bs => Forall is_byte bs
  | _ => True
  end.

(** Result of a successful call *)
Definition success (c : wcall) (r : wresult) : Prop :=
  match c with
  | CWrite bs => r = RCount (length bs)
  | CNumberFromString s => (number_text (encode_utf8 s) /\ r = RDone) \/ (~ number_text (encode_utf8 s) /\ r = RInvalidNumber)
  | CFloat None => r = RInvalidNumber
  | _ => r = RDone
  end.

(** Bytes which more bytes can complete to UTF-8 *)
Definition utf8_prefix (bs : bytes) : Prop := exists more, from_utf8 (bs ++ more) <> None.

(** A call of the string value writer which cannot lead to a string *)
Definition malformed (d : wdoc) (c : wcall) : Prop :=
  exists acc, d_string d = Some acc /\
  match c with
  | CWrite bs => ~ utf8_prefix (acc ++ bs)
  | CWriteStr _ | CFinishValue => from_utf8 acc = None
  | _ => False
  end.

(** ** Layout of the output *)

(** Which characters are escaped *)
Definition must_escape (cfg : wsettings) (c : char) : bool :=
  (c =? 0x22) || (c =? 0x5C) || (c <? 0x20)
  || (escape_all_non_ascii cfg && (0x80 <=? c))
  || (escape_all_control_chars cfg && is_control c).

Definition hex_digit (n : N) : byte := if n <? 10 then 0x30 + n else 0x41 + (n - 10).
Definition u_escape (v : N) : bytes :=
  [0x5C; 0x75; hex_digit (v / 0x1000); hex_digit ((v / 0x100) mod 16);
   hex_digit ((v / 0x10) mod 16); hex_digit (v mod 16)].
Definition escape_seq (c : char) : bytes :=
  if c =? 0x22 then [0x5C; 0x22]
  else if c =? 0x5C then [0x5C; 0x5C]
  else if c =? 0x08 then [0x5C; 0x62]
  else if c =? 0x0C then [0x5C; 0x66]
  else if c =? 0x0A then [0x5C; 0x6E]
  else if c =? 0x0D then [0x5C; 0x72]
  else if c =? 0x09 then [0x5C; 0x74]
  else if c <? 0x10000 then u_escape c
  else u_escape (0xD800 + (c - 0x10000) / 0x400) ++ u_escape (0xDC00 + (c - 0x10000) mod 0x400).
Definition char_text (cfg : wsettings) (c : char) : bytes :=
  if must_escape cfg c then escape_seq c else encode_char c.
Definition string_content (cfg : wsettings) (s : str) : bytes := flat_map (char_text cfg) s.
Definition string_text (cfg : wsettings) (s : str) : bytes :=
  [0x22] ++ string_content cfg s ++ [0x22].

(** Line break and indentation (two spaces per level) *)
Definition new_line (level : nat) : bytes := 0x0A :: concat (repeat [0x20; 0x20] level).
(** What precedes an item or member at the given level *)
Definition before_element (cfg : wsettings) (first : bool) (level : nat) : bytes :=
  (if first then [] else [0x2C]) ++ (if pretty_print cfg then new_line level else []).
(** What precedes the end of a container at the given level *)
Definition before_end (cfg : wsettings) (empty : bool) (level : nat) : bytes :=
  if pretty_print cfg && negb empty then new_line level else [].
Definition colon (cfg : wsettings) : bytes := if pretty_print cfg then [0x3A; 0x20] else [0x3A].

Definition is_nil {A} (l : list A) : bool := match l with [] => true | _ => false end.

Fixpoint layout (cfg : wsettings) (level : nat) (v : json) : bytes :=
  match v with
  | JNull => lit_null
  | JBool b => if b then lit_true else lit_false
  | JNum t => t
  | JStr s => string_text cfg s
  | JArr items =>
    [0x5B] ++
    (fix go (first : bool) (l : list json) : bytes :=
       match l with
       | [] => []
       | x :: l' => before_element cfg first (S level) ++ layout cfg (S level) x ++ go false l'
       end) true items
    ++ before_end cfg (is_nil items) level ++ [0x5D]
  | JObj members =>
    [0x7B] ++
    (fix go (first : bool) (l : list (str * json)) : bytes :=
       match l with
       | [] => []
       | (n, x) :: l' =>
         before_element cfg first (S level) ++ string_text cfg n ++ colon cfg
         ++ layout cfg (S level) x ++ go false l'
       end) true members
    ++ before_end cfg (is_nil members) level ++ [0x7D]
  end.

(** The top-level values, with the separator between them *)
Definition separator (cfg : wsettings) : bytes :=
  match multi_top_level_value_separator cfg with Some s => encode_utf8 s | None => [] end.
Fixpoint documents_layout (cfg : wsettings) (vs : list json) : bytes :=
  match vs with
  | [] => []
  | [v] => layout cfg 0 v
  | v :: vs' => layout cfg 0 v ++ separator cfg ++ documents_layout cfg vs'
  end.

(** [allow_multiple] of the settings *)
Definition multi_top_level (cfg : wsettings) : bool :=
  match multi_top_level_value_separator cfg with Some _ => true | None => false end.

(** ** Pieces of a string value *)

(** Calls which write a part of a string value, and the bytes they write *)
Definition string_piece (c : wcall) : Prop :=
  match c with CWrite _ | CWriteStr _ | CFlush => True | _ => False end.
Definition piece_bytes (c : wcall) : bytes :=
  match c with CWrite bs => bs | CWriteStr s => encode_utf8 s | _ => [] end.
Definition written (ws : list wcall) : bytes := concat (map piece_bytes ws).
(** [write_str] is not used in the middle of a character. *)
Definition write_str_between_chars (ws : list wcall) : Prop :=
  forall ws1 s ws2, ws = ws1 ++ CWriteStr s :: ws2 -> from_utf8 (written ws1) <> None.

(** ** Insignificant whitespace *)

(** Removes whitespace outside of string literals *)
Inductive lex_state : Type := LOutside | LString | LEscape.
Definition is_ws (b : byte) : bool := (b =? 0x20) || (b =? 0x09) || (b =? 0x0A) || (b =? 0x0D).
Definition lex_next (s : lex_state) (b : byte) : lex_state :=
  match s with
  | LOutside => if b =? 0x22 then LString else LOutside
  | LString => if b =? 0x22 then LOutside else if b =? 0x5C then LEscape else LString
  | LEscape => LString
  end.
Fixpoint strip_from (s : lex_state) (t : bytes) : bytes :=
  match t with
  | [] => []
  | b :: t' =>
    match s with
    | LOutside => if is_ws b then strip_from s t' else b :: strip_from (lex_next s b) t'
    | _ => b :: strip_from (lex_next s b) t'
    end
  end.
Definition strip_ws (t : bytes) : bytes := strip_from LOutside t.

(** ** The sink *)

(** The sink never fails and always makes progress. *)
Definition reliable (s : sink) : Prop :=
  Forall (fun r => match r with SAccept n => n <> 0 | SInterrupted => True | SErr _ => False end) (write_resps s) /\
  Forall (fun r => r = None) (flush_resps s).

(** Texts joined by a separator *)
Fixpoint join (sep : bytes) (ts : list bytes) : bytes :=
  match ts with [] => [] | [t] => t | t :: ts' => t ++ sep ++ join sep ts' end.
