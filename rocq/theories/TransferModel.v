(** * Model of [transfer_to]

    [JsonReader::transfer_to] of [JsonStreamReader]
    (src/reader/stream_reader.rs:2248-2337, declared in src/reader/mod.rs:1714):
    the next value is read and passed on to a JSON writer.  The writer is any
    implementation of [JsonWriter]: a state of type [W] and a function which
    says how a call of the writer ends and what it does to the state. *)

From Verif Require Import Base Utf8Model NumberModel WriterModel SourceModel ReaderModel.

(** The calls which [transfer_to] makes on a [JsonWriter].  [PutNumber] is
    [number_value] with a [TransferredNumber] (src/writer/mod.rs:786-803), whose
    text is used as it is. *)
Inductive put : Type :=
| PutBeginArray | PutEndArray | PutBeginObject | PutEndObject
| PutName (n : str)
| PutStringWriter | PutWriteStr (s : str) | PutFinishValue
| PutNumber (n : str)
| PutBool (b : bool)
| PutNull.

(** A JSON writer whose errors are of type [F] and whose state is of type [W] *)
Definition handler (F W : Type) : Type := put -> W -> res F unit * W.

(** [TransferError] (src/reader/mod.rs:637-645): an error of the reader or of
    the writer *)
Definition transfer_error (F : Type) : Type := (reader_error + F)%type.

(** Code which uses both the reader and the writer *)
Definition T (F W A : Type) : Type := rstate -> W -> prog (res (transfer_error F) A * rstate * W).

Definition tret {F W A : Type} (a : A) : T F W A := fun s w => Ret (Ok a, s, w).
Definition tbind {F W A B : Type} (m : T F W A) (f : A -> T F W B) : T F W B := fun s w =>
  pbind (m s w) (fun o =>
    match o with
    | (Ok a, s', w') => f a s' w'
    | (Err e, s', w') => Ret (Err e, s', w')
    | (Panic k, s', w') => Ret (Panic k, s', w')
    | (OutOfFuel, s', w') => Ret (OutOfFuel, s', w')
    end).

(** A call of a method of the reader, with [?] *)
Definition on_reader {F W A : Type} (m : M A) : T F W A := fun s w =>
  pbind (m s) (fun o =>
    match o with
    | (Ok a, s') => Ret (Ok a, s', w)
    | (Err e, s') => Ret (Err (inl e), s', w)
    | (Panic k, s') => Ret (Panic k, s', w)
    | (OutOfFuel, s') => Ret (OutOfFuel, s', w)
    end).

(** A call of a method of the writer, with [?] *)
Definition on_writer {F W : Type} (h : handler F W) (e : put) : T F W unit := fun s w =>
  match h e w with
  | (Ok a, w') => Ret (Ok a, s, w')
  | (Err e, w') => Ret (Err (inr e), s, w')
  | (Panic k, w') => Ret (Panic k, s, w')
  | (OutOfFuel, w') => Ret (OutOfFuel, s, w')
  end.

Declare Scope tmonad_scope.
Notation "x <- m ;; f" := (tbind m (fun x => f)) (at level 61, m at next level, right associativity) : tmonad_scope.
Notation "m ;; f" := (tbind m (fun _ => f)) (at level 61, right associativity) : tmonad_scope.
Delimit Scope tmonad_scope with tm.

(** Size of the buffer, line 2286, and [utf8::MAX_BYTES_PER_CHAR]
    (src/utf8.rs) *)
Definition TRANSFER_BUF_SIZE : nat := 64.
Definition MAX_BYTES_PER_CHAR : nat := 4.

(** Lines 2288-2302: fills the buffer with the bytes of complete characters;
    [buf] is the part filled so far.  Writing behind the end of the buffer would
    be a panic.  Every call of [read_string_bytes] which does not reach the end
    provides at least one byte, so 64 rounds are enough. *)
Fixpoint fill_buffer (f : nat) (buf : bytes) : M (bool * bytes) :=
  (if Nat.leb MAX_BYTES_PER_CHAR (TRANSFER_BUF_SIZE - length buf) then
     match f with
     | O => no_fuel
     | S f' =>
       r <- read_string_bytes ;;
       if Nat.ltb TRANSFER_BUF_SIZE (length (buf ++ snd r)) then panics Bug
       else if fst r : bool then ret (true, buf ++ snd r)
       else fill_buffer f' (buf ++ snd r)
     end
   else ret (false, buf))%rm.

(** [utf8::to_str_unchecked], line 2306: undefined behaviour unless the bytes
    are valid UTF-8 *)
Definition to_str_unchecked {F W : Type} (bs : bytes) : T F W str := fun s w =>
  match from_utf8 bs with
  | Some v => Ret (Ok v, s, w)
  | None => Ret (Panic Bug, s, w)
  end.

(** Lines 2287-2311: copies the text of a string value *)
Fixpoint transfer_string {F W : Type} (h : handler F W) (f : nat) : T F W unit :=
  match f with
  | O => fun s w => Ret (OutOfFuel, s, w)
  | S f' =>
    (r <- on_reader (fill_buffer TRANSFER_BUF_SIZE []) ;;
     string <- to_str_unchecked (snd r) ;;
     on_writer h (PutWriteStr string) ;;
     if fst r : bool then tret tt else transfer_string h f')%tm
  end.

(** Lines 2256-2262: the end of an array or object *)
Definition transfer_end {F W : Type} (E : env) (h : handler F W) : T F W unit :=
  (s <- on_reader get_state ;;
   if is_in_array s
   then on_reader (end_array E) ;; on_writer h PutEndArray
   else on_reader (end_object E) ;; on_writer h PutEndObject)%tm.

(** Lines 2265-2268: the name of a member, if there is one *)
Definition transfer_name {F W : Type} (E : env) (h : handler F W) : T F W unit :=
  (s <- on_reader get_state ;;
   if expects_member_name s then
     name <- on_reader (next_name E) ;;
     on_writer h (PutName name)
   else tret tt)%tm.

(** Lines 2270-2328: a value, or the start of an array or object; returns
    whether [depth] has to be increased *)
Definition transfer_start {F W : Type} (E : env) (h : handler F W) : T F W bool :=
  (t <- on_reader (peek E) ;;
   match t with
   | TArray => on_reader (begin_array E) ;; on_writer h PutBeginArray ;; tret true
   | TObject => on_reader (begin_object E) ;; on_writer h PutBeginObject ;; tret true
   | TString =>
     on_reader (start_expected_value_type E TString false) ;;
     on_writer h PutStringWriter ;;
     transfer_string h (fuel E) ;;
     on_writer h PutFinishValue ;;
     on_reader on_value_end ;;
     tret false
   | TNumber =>
     number <- on_reader (next_number_as_str E) ;;
     on_writer h (PutNumber number) ;;
     tret false
   | TBoolean =>
     b <- on_reader (next_bool E) ;;
     on_writer h (PutBool b) ;;
     tret false
   | TNull =>
     on_reader (next_null E) ;;
     on_writer h PutNull ;;
     tret false
   end)%tm.

(** The loop, lines 2253-2334.  [depth] is a [u32] in the code and unbounded here;
    the nesting of the input would have to exceed its range. *)
Fixpoint transfer_loop {F W : Type} (E : env) (h : handler F W) (f : nat) (depth : nat) : T F W unit :=
  match f with
  | O => fun s w => Ret (OutOfFuel, s, w)
  | S f' =>
    (more <- match depth with O => tret true | _ => on_reader (has_next E) end ;;
     depth' <-
       (if negb more then transfer_end E h ;; tret (pred depth)
        else
          transfer_name E h ;;
          started <- transfer_start E h ;;
          tret (if started : bool then S depth else depth)) ;;
     match depth' with
     | O => tret tt
     | _ => transfer_loop E h f' depth'
     end)%tm
  end.

Definition transfer_to {F W : Type} (E : env) (h : handler F W) : T F W unit :=
  (s <- on_reader get_state ;;
   on_reader (misuse_if (expects_member_name s)) ;;
   transfer_loop E h (fuel E) 0)%tm.

(** ** [JsonStreamWriter] as target *)

(** The calls on a [JsonStreamWriter]; a string value writer which exists is
    part of the state. *)
Definition stream_writer (cfg : wsettings) : handler wresult wsession := fun e s =>
  let (r, s') :=
    match e with
    | PutBeginArray => wstep cfg WriterModel.CBeginArray s
    | PutEndArray => wstep cfg WriterModel.CEndArray s
    | PutBeginObject => wstep cfg WriterModel.CBeginObject s
    | PutEndObject => wstep cfg WriterModel.CEndObject s
    | PutName n => wstep cfg (CName n) s
    | PutStringWriter => wstep cfg CStringWriter s
    | PutWriteStr v => wstep cfg (CWriteStr v) s
    | PutFinishValue => wstep cfg CFinishValue s
    | PutNumber n => json_call (number_str_value cfg (encode_utf8 n)) s
    | PutBool b => wstep cfg (CBool b) s
    | PutNull => wstep cfg CNull s
    end in
  match r with
  | RDone => (Ok tt, s')
  | RPanic k => (Panic k, s')
  | other => (Err other, s')
  end.

(** ** Client programs

    The client calls the methods [before], then [transfer_to], and if this
    succeeds the methods [after].  After an error of [transfer_to] processing
    is aborted. *)
Definition call_transfer {F W : Type} (E : env) (h : handler F W) (w : W) (st : session)
  : prog (option (res (transfer_error F) unit) * W * session) :=
  match s_phase st with
  | Running =>
    pbind (transfer_to E h (s_state st) w) (fun o =>
      match o with
      | (r, s', w') => Ret (Some r, w', Session s' None (match r with Ok _ => Running | _ => Stopped end))
      end)
  | _ => Ret (None, w, st)
  end.

Definition client_transfer {F W : Type} (E : env) (h : handler F W) (w : W) (before after : list rcall) (st : session)
  : prog (list outcome * option (res (transfer_error F) unit) * W * list outcome) :=
  pbind (client_calls E before st) (fun osl =>
    pbind (call_transfer E h w (snd osl)) (fun o =>
      match o with
      | (r, w', st') => pbind (client_calls E after st') (fun osl' => Ret (fst osl, r, w', fst osl'))
      end)).

(** What the client observes: the results of [before], how [transfer_to] ends
    (if it is called at all), the writer afterwards, and the results of
    [after] *)
Definition transfer_session {F W : Type} (s : settings) (evs : list event) (h : handler F W) (w : W) (before after : list rcall)
  : option (list outcome * option (res (transfer_error F) unit) * W * list outcome) :=
  match crun (client_transfer (Env s (enough_fuel (fst (supplied evs)))) h w before after (session_new s)) (csrc_new evs) with
  | Some (o, _) => Some o
  | None => None
  end.
