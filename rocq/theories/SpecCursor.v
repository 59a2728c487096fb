(** * Specification: reading as a walk through the data

    What a client sees when it reads documents whose data is already known as
    trees: a cursor moves through the trees, and every call returns what is found
    there.  No text, no token and no state of the reader occurs here; only the
    types of the API (calls, results, settings) are shared with the model. *)

From Verif Require Import Base Utf8Model SpecNumber SpecJson ReaderModel.

(** ** The cursor *)

(** An open array or object:
    - [InArray index items]: [items] are still to be read, the next one has the
      index [index]
    - [InObject name members]: [members] are still to be read; [name] is the name
      of the last member which has been read, if any
    - [AtValue name v members]: the name of a member has been read, but not yet
      its value [v]; [members] follow *)
Inductive frame : Type :=
| InArray (index : N) (items : list json)
| InObject (name : option str) (members : list (str * json))
| AtValue (name : str) (v : json) (members : list (str * json)).

(** The reader for a string value:
    - [NotReading]: there is none
    - [Reading rest held]: it has not reached its end, [rest] is still to be
      delivered; [held]: the client still has it
    - [ReadAll]: it has reached its end, and the client still has it *)
Inductive string_reading : Type :=
| NotReading
| Reading (rest : bytes) (held : bool)
| ReadAll.

(** [frames]: the open containers, the innermost first.  [top]: the top-level
    values which are still to be read.  [started]: whether reading of the first
    top-level value has started. *)
Record cursor : Type := Cursor {
  frames : list frame;
  top : list json;
  started : bool;
  reading : string_reading
}.

Definition cursor_start (vs : list json) : cursor := Cursor [] vs false NotReading.

(** The path of the cursor, from the outermost to the innermost container; "<?>"
    is the documented placeholder for the name if no name has been read yet *)
Definition frame_piece (f : frame) : piece :=
  match f with
  | InArray i _ => PIndex i
  | InObject (Some n) _ => PName n
  | InObject None _ => PName [0x3C; 0x3F; 0x3E]
  | AtValue n _ _ => PName n
  end.
Definition cursor_path (c : cursor) : list piece := rev (map frame_piece (frames c)).

(** The value which is next *)
Definition next_value (c : cursor) : option json :=
  match frames c with
  | [] => hd_error (top c)
  | InArray _ items :: _ => hd_error items
  | InObject _ _ :: _ => None
  | AtValue _ v _ :: _ => Some v
  end.

(** The cursor inside or behind the next value, as long as that value is not
    completed *)
Definition enter_value (c : cursor) : cursor :=
  match frames c with
  | [] => Cursor [] (tl (top c)) true (reading c)
  | InArray i items :: fs => Cursor (InArray i (tl items) :: fs) (top c) (started c) (reading c)
  | AtValue n _ ms :: fs => Cursor (InObject (Some n) ms :: fs) (top c) (started c) (reading c)
  | InObject n ms :: fs => c
  end.

(** A value has been completed *)
Definition value_done (c : cursor) : cursor :=
  match frames c with
  | InArray i items :: fs => Cursor (InArray (i + 1) items :: fs) (top c) (started c) (reading c)
  | _ => c
  end.

Definition open_frame (f : frame) (c : cursor) : cursor :=
  Cursor (f :: frames c) (top c) (started c) (reading c).
Definition close_frame (c : cursor) : cursor :=
  value_done (Cursor (tl (frames c)) (top c) (started c) (reading c)).
Definition set_frames (fs : list frame) (c : cursor) : cursor :=
  Cursor fs (top c) (started c) (reading c).
Definition set_reading (r : string_reading) (c : cursor) : cursor :=
  Cursor (frames c) (top c) (started c) r.

(** The client makes a call other than reading from the string reader, so it
    does not have it any more *)
Definition drop_reader (c : cursor) : cursor :=
  match reading c with
  | Reading rest _ => set_reading (Reading rest false) c
  | _ => set_reading NotReading c
  end.

(** ** Results *)

(** What a call returns; errors carry the path of the cursor.
    [XTrailing]: [consume_trailing_whitespace] although there are further
    top-level values (see the property about it). *)
Inductive expected : Type :=
| XOk (v : rvalue)
| XPosition (path : option (list piece))
| XType (expected actual : value_type) (path : list piece)
| XStructure (kind : structure_error) (path : list piece)
| XUnsupportedNumber (text : bytes)
| XMisuse
| XNotPossible
| XStopped
| XTrailing.

Definition json_type (v : json) : value_type :=
  match v with
  | JNull => TNull
  | JBool _ => TBoolean
  | JNum _ => TNumber
  | JStr _ => TString
  | JArr _ => TArray
  | JObj _ => TObject
  end.

Definition value_type_dec (a b : value_type) : {a = b} + {a <> b}.
Proof. decide equality. Defined.

(** Number of significant digits of the exponent of a number *)
Fixpoint exponent_part (t : bytes) : bytes :=
  match t with
  | [] => []
  | b :: t' => if (b =? 0x65) || (b =? 0x45) then t' else exponent_part t'
  end.
Definition without_sign (t : bytes) : bytes :=
  match t with
  | b :: t' => if (b =? 0x2D) || (b =? 0x2B) then t' else t
  | [] => []
  end.
Definition exponent_digits (t : bytes) : nat := significant (without_sign (exponent_part t)).

(** The numbers which are rejected by [restrict_number_values]: more than two
    exponent digits, or longer than 100 *)
Definition unsupported_number (t : bytes) : bool :=
  Nat.ltb 2 (exponent_digits t) || (100 <? N.of_nat (length t)).

(** A string reader prevents the other calls until it has reached its end *)
Definition is_reading (c : cursor) : bool :=
  match reading c with Reading _ _ => true | _ => false end.

(** [inr v]: a value can be read and [v] is the next one; [inl x]: any call
    reading a value ends with [x].  Reading a value is a misuse where a member
    name is expected, and at top level after the first value, unless multiple
    top-level values are allowed. *)
Definition at_value (s : settings) (c : cursor) : expected + json :=
  if is_reading c then inl XMisuse
  else
    match frames c with
    | InObject _ _ :: _ => inl XMisuse
    | [] =>
      if started c && negb (allow_multiple_top_level s) then inl XMisuse
      else match top c with
           | [] => inl (XStructure FewerElementsThanExpected (cursor_path c))
           | v :: _ => inr v
           end
    | InArray _ [] :: _ => inl (XStructure FewerElementsThanExpected (cursor_path c))
    | InArray _ (v :: _) :: _ => inr v
    | AtValue _ v _ :: _ => inr v
    end.

(** [inr (n, v, ms, fs)]: a name can be read, it is [n] *)
Definition at_name (c : cursor) : expected + (str * json * list (str * json) * list frame) :=
  if is_reading c then inl XMisuse
  else
    match frames c with
    | InObject _ [] :: _ => inl (XStructure FewerElementsThanExpected (cursor_path c))
    | InObject _ ((n, v) :: ms) :: fs => inr (n, v, ms, fs)
    | _ => inl XMisuse
    end.

(** Whether there is another item, member or top-level value *)
Definition more (s : settings) (c : cursor) : expected + bool :=
  if is_reading c then inl XMisuse
  else
    match frames c with
    | [] =>
      if negb (started c) || negb (allow_multiple_top_level s) then inl XMisuse
      else inr match top c with [] => false | _ => true end
    | InArray _ items :: _ => inr match items with [] => false | _ => true end
    | InObject _ ms :: _ => inr match ms with [] => false | _ => true end
    | AtValue _ _ _ :: _ => inl XMisuse
    end.

(** ** Seeking *)

(** The member with the name [n]: the members read before it (the last first),
    its value, and the members behind it *)
Fixpoint find_member (n : str) (ms : list (str * json)) : option (json * list (str * json)) :=
  match ms with
  | [] => None
  | (m, v) :: ms' => if list_eq_dec N.eq_dec m n then Some (v, ms') else find_member n ms'
  end.

Definition last_name (ms : list (str * json)) : option str :=
  match rev ms with [] => None | (n, _) :: _ => Some n end.

(** Moves the cursor from a value to the value with the given relative path *)
Fixpoint seek (path : list piece) (c : cursor) : expected * cursor :=
  match path with
  | [] => (XOk RUnit, c)
  | PIndex i :: path' =>
    match next_value c with
    | Some (JArr items) =>
      if i <? N.of_nat (length items)
      then seek path' (open_frame (InArray i (skipn (N.to_nat i) items)) (enter_value c))
      else
        let c' := open_frame (InArray (N.of_nat (length items)) []) (enter_value c) in
        (XStructure (TooShortArray i) (cursor_path c'), c')
    | Some v => (XType TArray (json_type v) (cursor_path c), c)
    | None => (XMisuse, c)
    end
  | PName n :: path' =>
    match next_value c with
    | Some (JObj ms) =>
      match find_member n ms with
      | Some (v, ms') => seek path' (open_frame (AtValue n v ms') (enter_value c))
      | None =>
        let c' := open_frame (InObject (last_name ms) []) (enter_value c) in
        (XStructure (MissingObjectMember n) (cursor_path c'), c')
      end
    | Some v => (XType TObject (json_type v) (cursor_path c), c)
    | None => (XMisuse, c)
    end
  end.

(** Leaves the containers which [seek] has entered; the pieces are given from the
    innermost to the outermost *)
Fixpoint seek_up (rev_path : list piece) (c : cursor) : expected * cursor :=
  match rev_path with
  | [] => (XOk RUnit, c)
  | p :: path' =>
    if is_reading c then (XMisuse, c)
    else
      match p, frames c with
      | PIndex _, InArray _ _ :: _ => seek_up path' (close_frame c)
      | PName _, InObject _ _ :: _ => seek_up path' (close_frame c)
      | _, _ => (XMisuse, c)
      end
  end.

(** ** Calls *)

(** State of the client: after a panic, or an error after which processing must
    be aborted, it stops; [consume_trailing_whitespace] consumes the reader. *)
Inductive walk : Type :=
| AtCursor (c : cursor)
| Halted
| GivenAway.

Definition continue (x : expected) (c : cursor) : expected * walk :=
  match x with
  | XMisuse | XUnsupportedNumber _ => (x, Halted)
  | _ => (x, AtCursor c)
  end.

(** A call which reads a value of the type [t] *)
Definition on_value (s : settings) (t : value_type) (c : cursor) (f : json -> expected * walk)
  : expected * walk :=
  match at_value s c with
  | inl x => continue x c
  | inr v =>
    if value_type_dec (json_type v) t then f v
    else continue (XType t (json_type v) (cursor_path c)) c
  end.

(** The cursor behind the next value *)
Definition behind_value (c : cursor) : cursor := value_done (enter_value c).

Definition on_name (c : cursor) (result : str -> rvalue) : expected * walk :=
  match at_name c with
  | inl x => continue x c
  | inr (n, v, ms, fs) => (XOk (result n), AtCursor (set_frames (AtValue n v ms :: fs) c))
  end.

(** [read] with a buffer of the given length *)
Definition read_string (len : nat) (c : cursor) : expected * walk :=
  match reading c with
  | Reading rest true =>
    if Nat.leb len (length rest)
    then (XOk (RBytes (firstn len rest)), AtCursor (set_reading (Reading (skipn len rest) true) c))
    else (XOk (RBytes rest), AtCursor (value_done (set_reading ReadAll c)))
  | ReadAll => (XOk (RBytes []), AtCursor c)
  | _ => (XNotPossible, AtCursor c)
  end.

Definition call_at (s : settings) (call : rcall) (c : cursor) : expected * walk :=
  match call with
  | CPeek =>
    match at_value s c with
    | inl x => continue x c
    | inr v => (XOk (RType (json_type v)), AtCursor c)
    end
  | CHasNext =>
    match more s c with
    | inl x => continue x c
    | inr b => (XOk (RBool b), AtCursor c)
    end
  | CBeginArray =>
    on_value s TArray c (fun v =>
      match v with
      | JArr items => (XOk RUnit, AtCursor (open_frame (InArray 0 items) (enter_value c)))
      | _ => (XMisuse, Halted)
      end)
  | CEndArray =>
    match is_reading c, frames c with
    | false, InArray _ [] :: _ => (XOk RUnit, AtCursor (close_frame c))
    | false, InArray _ _ :: _ => continue (XStructure MoreElementsThanExpected (cursor_path c)) c
    | _, _ => (XMisuse, Halted)
    end
  | CBeginObject =>
    on_value s TObject c (fun v =>
      match v with
      | JObj ms => (XOk RUnit, AtCursor (open_frame (InObject None ms) (enter_value c)))
      | _ => (XMisuse, Halted)
      end)
  | CEndObject =>
    match is_reading c, frames c with
    | false, InObject _ [] :: _ => (XOk RUnit, AtCursor (close_frame c))
    | false, InObject _ _ :: _ => continue (XStructure MoreElementsThanExpected (cursor_path c)) c
    | _, _ => (XMisuse, Halted)
    end
  | CNextName | CNextNameOwned => on_name c RStr
  | CSkipName => on_name c (fun _ => RUnit)
  | CNextString | CNextStr =>
    on_value s TString c (fun v =>
      match v with
      | JStr t => (XOk (RStr t), AtCursor (behind_value c))
      | _ => (XMisuse, Halted)
      end)
  | CNextStringReader =>
    on_value s TString c (fun v =>
      match v with
      | JStr t => (XOk RUnit, AtCursor (set_reading (Reading (encode_utf8 t) true) (enter_value c)))
      | _ => (XMisuse, Halted)
      end)
  | CRead len => read_string len c
  | CNextNumberStr | CNextNumberString =>
    on_value s TNumber c (fun v =>
      match v with
      | JNum t =>
        if restrict_number_values s && unsupported_number t
        then continue (XUnsupportedNumber t) c
        else (XOk (RStr t), AtCursor (behind_value c))
      | _ => (XMisuse, Halted)
      end)
  | CNextBool =>
    on_value s TBoolean c (fun v =>
      match v with
      | JBool b => (XOk (RBool b), AtCursor (behind_value c))
      | _ => (XMisuse, Halted)
      end)
  | CNextNull => on_value s TNull c (fun _ => (XOk RUnit, AtCursor (behind_value c)))
  | CSkipValue =>
    match at_value s c with
    | inl x => continue x c
    | inr _ => (XOk RUnit, AtCursor (behind_value c))
    end
  | CSeekTo path =>
    match at_value s c with
    | inl x => continue x c
    | inr _ => let (x, c') := seek path c in continue x c'
    end
  | CSeekBack path => let (x, c') := seek_up (rev path) c in continue x c'
  | CSkipToTopLevel =>
    if is_reading c then (XMisuse, Halted)
    else (XOk RUnit, AtCursor (set_frames [] c))
  | CPosition include_path =>
    (XPosition (if include_path && track_path s then Some (cursor_path c) else None), AtCursor c)
  | CConsumeTrailingWhitespace =>
    match is_reading c, frames c, started c, top c with
    | false, [], true, [] => (XOk RUnit, GivenAway)
    | false, [], true, _ :: _ => (XTrailing, GivenAway)
    | _, _, _, _ => (XMisuse, GivenAway)
    end
  end.

(** A call other than [CRead] ends the use of a string reader *)
Definition before_call (call : rcall) (c : cursor) : cursor :=
  match call with CRead _ => c | _ => drop_reader c end.

Definition walk_call (s : settings) (call : rcall) (w : walk) : expected * walk :=
  match w with
  | AtCursor c => call_at s call (before_call call c)
  | Halted => (XStopped, Halted)
  | GivenAway => (XNotPossible, GivenAway)
  end.

Fixpoint walk_calls (s : settings) (calls : list rcall) (w : walk) : list expected * walk :=
  match calls with
  | [] => ([], w)
  | call :: calls' =>
    let (x, w1) := walk_call s call w in
    let (xs, w2) := walk_calls s calls' w1 in (x :: xs, w2)
  end.

(** ** Results of the reader *)

(** The location of an error has the path of the cursor, if it is tracked *)
Definition at_path (s : settings) (path : list piece) (loc : position) : Prop :=
  p_path loc = if track_path s then Some path else None.

(** [o] is the result [x] *)
Definition is_result (s : settings) (x : expected) (o : outcome) : Prop :=
  match x with
  | XOk v => o = OOk v
  | XPosition path => exists p, o = OOk (RPos p) /\ p_path p = path
  | XType e a path => exists loc, o = OErr (EUnexpectedType e a loc) /\ at_path s path loc
  | XStructure k path => exists loc, o = OErr (EUnexpectedStructure k loc) /\ at_path s path loc
  | XUnsupportedNumber t => exists loc, o = OErr (EUnsupportedNumber t loc)
  | XMisuse => o = OPanic Misuse
  | XNotPossible => o = ONotPossible
  | XStopped => o = OStopped
  | XTrailing => True
  end.

(** ** Texts of several top-level values *)

(** A number or literal must be separated from what follows: by whitespace, a
    comment, or the end *)
Definition is_word (v : json) : Prop :=
  match v with JNull | JBool _ | JNum _ => True | _ => False end.
Definition starts_gap (t : bytes) : Prop :=
  match t with [] => True | b :: _ => ws_byte b \/ b = 0x2F end.

Inductive stream_text (sx : syntax) : list json -> bytes -> Prop :=
| ST_end t : final_ws_text sx t -> stream_text sx [] t
| ST_value w v tv vs t : ws_text sx w -> value_text sx v tv -> stream_text sx vs t ->
    (is_word v -> starts_gap t) -> stream_text sx (v :: vs) (w ++ tv ++ t).

(** What the reader is documented to accept: one value, or any positive number of
    values if [allow_multiple_top_level] is set; comments and trailing commas
    if they are enabled *)
Definition syntax_of (s : settings) : syntax := Syntax (allow_comments s) (allow_trailing_comma s).

Definition input_text (s : settings) (vs : list json) (t : bytes) : Prop :=
  if allow_multiple_top_level s then vs <> [] /\ stream_text (syntax_of s) vs t
  else exists v, vs = [v] /\ document_text (syntax_of s) v t.

(** The nesting limit is respected *)
Definition within_limit (s : settings) (vs : list json) : Prop :=
  match max_nesting_depth s with
  | None => True
  | Some m => Forall (fun v => N.of_nat (nesting v) <= m) vs
  end.
