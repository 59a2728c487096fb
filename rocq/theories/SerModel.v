(** * Model of the serde serializer

    src/serde/ser.rs: [JsonWriterSerializer], the serializers for compound values and
    the serializer for map keys.  They use a [JsonWriter] only through its API, so
    they are modelled as programs which make calls of [WriterModel.wcall] and continue
    with their results ([WClientModel.prog]).  [JsonWriter::serialize_value]
    (src/writer/stream_writer.rs:505-516) is [ser_value].

    Not modelled: the message of errors, the [Debug] implementations. *)

From Verif Require Import Base Utf8Model NumberModel WriterModel WClientModel.

(** [SerializerError], lines 15-61; [SeCustom] without the message, which is
    represented by a number *)
Inductive serr : Type :=
| SeCustom (n : N)
| SeIo (e : werr)
| SeInvalidNumber
| SeCount (expected actual : N)
| SeKeyNotString.

(** [Result<A, SerializerError>] *)
Inductive sres (A : Type) : Type :=
| SrOk (a : A)
| SrErr (e : serr).
Arguments SrOk {A} a.
Arguments SrErr {A} e.

(** Code which uses a [JsonWriter] and returns a [Result], or ends otherwise
    (see [wend]) *)
Definition ser (A : Type) : Type := prog (wend (sres A)).

Definition sret {A : Type} (a : A) : ser A := PDone (ERet (SrOk a)).
Definition sfail {A : Type} (e : serr) : ser A := PDone (ERet (SrErr e)).
Definition spanic {A : Type} : ser A := PDone (EPanic Misuse).

(** [f] is called with the [Result] of [m] *)
Definition sthen {A B : Type} (m : ser A) (f : sres A -> ser B) : ser B :=
  pbind m (fun x =>
    match x with
    | ERet r => f r
    | EPanic k => PDone (EPanic k)
    | EFuel => PDone EFuel
    | EInvalid => PDone EInvalid
    end).

(** The operator [?] *)
Definition sbind {A B : Type} (m : ser A) (f : A -> ser B) : ser B :=
  sthen m (fun r => match r with SrOk a => f a | SrErr e => sfail e end).

(** A call of the [JsonWriter], with the conversion of its error to
    [SerializerError]: lines 25-26 ([IoError]) and 143-148 ([map_number_err]) *)
Definition wuse (c : wcall) : ser unit :=
  PCall c (fun r =>
    match r with
    | RDone => sret tt
    | RInvalidNumber => if number_method c then sfail SeInvalidNumber else PDone EInvalid
    | RError e => sfail (SeIo e)
    | RPanic k => PDone (EPanic k)
    | RNoFuel => PDone EFuel
    | RCount _ | RInexpressible => PDone EInvalid
    end).

(** ** Values which can be serialized

    A value with its [Serialize] implementation is represented by what [serialize]
    does with the [Serializer] it is given.  The [Serializer] is passed by value and
    every method consumes it, so at most one method is called; and [Ok] can only be
    returned if that method has returned [Ok].
    - [SvFails]: no method is called
    - [SvThen v f]: does what [v] does, but returns an error of its own if [f] says so
      for the result
    The serializers for compound values are used by a program ([elems], [entries] or
    [fields]), which continues with the results of the calls.  It ends with the
    result of [end], or with an error.
    [i] is the variant index; integers are of any width. *)
Inductive sval : Type :=
| SvBool (b : bool)
| SvInt (z : Z)
| SvFloat (v : option str)            (* see [fp_number_value] *)
| SvChar (c : char)
| SvStr (s : str)
| SvBytes (bs : bytes)
| SvNone
| SvSome (v : sval)
| SvUnit
| SvUnitStruct (name : str)
| SvUnitVariant (name : str) (i : N) (variant : str)
| SvNewtypeStruct (name : str) (v : sval)
| SvNewtypeVariant (name : str) (i : N) (variant : str) (v : sval)
| SvSeq (len : option N) (b : elems)
| SvTuple (len : N) (b : elems)
| SvTupleStruct (name : str) (len : N) (b : elems)
| SvTupleVariant (name : str) (i : N) (variant : str) (len : N) (b : elems)
| SvMap (len : option N) (b : entries)
| SvStruct (name : str) (len : N) (b : fields)
| SvStructVariant (name : str) (i : N) (variant : str) (len : N) (b : fields)
| SvFails (n : N)
| SvThen (v : sval) (f : option serr -> option N)
with elems : Type :=
| ElEnd
| ElAbort (e : serr)
| ElNext (v : sval) (k : option serr -> elems)
with entries : Type :=
| EnEnd
| EnAbort (e : serr)
| EnKey (v : sval) (k : option serr -> entries)
| EnValue (v : sval) (k : option serr -> entries)
with fields : Type :=
| FiEnd
| FiAbort (e : serr)
| FiNext (key : str) (v : sval) (k : option serr -> fields).

(** The result which the caller of a method sees *)
Definition seen (r : sres unit) : option serr :=
  match r with SrOk _ => None | SrErr e => Some e end.

(** [SvThen] *)
Definition then_own_error (f : option serr -> option N) (r : sres unit) : ser unit :=
  match f (seen r) with
  | Some n => sfail (SeCustom n)
  | None => PDone (ERet r)
  end.

(** ** Map keys: [MapKeyStringSerializer], lines 854-1059 *)

(** [serialize_finite_number_key] and [serialize_fp_number_key], lines 865-885, with
    [use_json_number] (src/writer/mod.rs:727-738, 756-775) and its [debug_assert!]; and the methods,
    lines 891-1059.  Those for compound values fail, so that nothing is done with them. *)
Fixpoint ser_key (v : sval) : ser unit :=
  match v with
  | SvBool b => wuse (CName (if b then lit_true else lit_false))
  | SvInt z =>
    if negb (is_valid_json_number (int_to_string z)) then PDone (EPanic Bug) else
    wuse (CName (int_to_string z))
  | SvFloat None => sfail SeInvalidNumber
  | SvFloat (Some s) =>
    if negb (is_valid_json_number s) then PDone (EPanic Bug) else
    wuse (CName s)
  | SvChar c => wuse (CName [c])
  | SvStr s => wuse (CName s)
  | SvSome v => ser_key v
  | SvUnitVariant _ _ variant => wuse (CName variant)
  | SvNewtypeStruct _ v => ser_key v
  | SvBytes _ | SvNone | SvUnit | SvUnitStruct _ | SvNewtypeVariant _ _ _ _
  | SvSeq _ _ | SvTuple _ _ | SvTupleStruct _ _ _ | SvTupleVariant _ _ _ _ _
  | SvMap _ _ | SvStruct _ _ _ | SvStructVariant _ _ _ _ _ => sfail SeKeyNotString
  | SvFails n => sfail (SeCustom n)
  | SvThen v f => sthen (ser_key v) (then_own_error f)
  end.

(** ** Values *)

(** The loop of [serialize_bytes], lines 315-324 *)
Fixpoint ser_bytes (bs : bytes) : ser unit :=
  match bs with
  | [] => sret tt
  | b :: bs' => sbind (wuse (CNumber (Z.of_N b))) (fun _ => ser_bytes bs')
  end.

(** The check at the beginning of [serialize_element], [serialize_field] and
    [serialize_key]: lines 568-577, 608-615, 645-652, 682-689, 727-736, 786-793, 828-835 in
    order of the serializers.  Returns the new [len].  [expected] is [None] if the
    length is unknown, which is possible for [SerializeSeq] and [SerializeMap].
    [len] is less than [expected] when it is incremented, so it does not overflow. *)
Definition count_element (expected : option N) (len : N) : sres N :=
  match expected with
  | None => SrOk len
  | Some n => if n <=? len then SrErr (SeCount n (len + 1)) else SrOk (len + 1)
  end.

(** The check at the beginning of [end], lines 582-589, 621-626, 658-663, 695-700, 756-763,
    800-805, 842-847 *)
Definition check_count (expected : option N) (len : N) : ser unit :=
  match expected with
  | None => sret tt
  | Some n => if len <? n then sfail (SeCount n len) else sret tt
  end.

(** The methods of [JsonWriterSerializer], lines 202-553, and of the serializers for
    compound values.  For these, [close] are the calls of [end] after the check.
    - [ser_elems]: [SerializeSeq], lines 555-593, [SerializeTuple], 595-630,
      [SerializeTupleStruct], 632-667, [SerializeTupleVariant], 669-707; they differ only in
      [expected] and [close]
    - [ser_entries]: [SerializeMap], lines 709-767
    - [ser_fields]: [SerializeStruct], lines 769-809, and [SerializeStructVariant], 811-854 *)
Fixpoint ser_value (v : sval) : ser unit :=
  match v with
  | SvBool b => wuse (CBool b)
  | SvInt z => wuse (CNumber z)
  | SvFloat v => wuse (CFloat v)
  | SvChar c => wuse (CString [c])
  | SvStr s => wuse (CString s)
  | SvBytes bs =>
    sbind (wuse CBeginArray) (fun _ =>
    sbind (ser_bytes bs) (fun _ =>
    wuse CEndArray))
  | SvNone => wuse CNull
  | SvSome v => ser_value v
  | SvUnit => wuse CNull
  | SvUnitStruct _ => wuse CNull
  | SvUnitVariant _ _ variant => wuse (CString variant)
  | SvNewtypeStruct _ v => ser_value v
  | SvNewtypeVariant _ _ variant v =>
    sbind (wuse CBeginObject) (fun _ =>
    sbind (wuse (CName variant)) (fun _ =>
    sbind (ser_value v) (fun _ =>
    wuse CEndObject)))
  | SvSeq len b =>
    sbind (wuse CBeginArray) (fun _ =>
    ser_elems len 0 (wuse CEndArray) b)
  | SvTuple len b =>
    sbind (wuse CBeginArray) (fun _ =>
    ser_elems (Some len) 0 (wuse CEndArray) b)
  | SvTupleStruct _ len b =>
    sbind (wuse CBeginArray) (fun _ =>
    ser_elems (Some len) 0 (wuse CEndArray) b)
  | SvTupleVariant _ _ variant len b =>
    sbind (wuse CBeginObject) (fun _ =>
    sbind (wuse (CName variant)) (fun _ =>
    sbind (wuse CBeginArray) (fun _ =>
    ser_elems (Some len) 0 (sbind (wuse CEndArray) (fun _ => wuse CEndObject)) b)))
  | SvMap len b =>
    sbind (wuse CBeginObject) (fun _ =>
    ser_entries len 0 false b)
  | SvStruct _ len b =>
    sbind (wuse CBeginObject) (fun _ =>
    ser_fields len 0 (wuse CEndObject) b)
  | SvStructVariant _ _ variant len b =>
    sbind (wuse CBeginObject) (fun _ =>
    sbind (wuse (CName variant)) (fun _ =>
    sbind (wuse CBeginObject) (fun _ =>
    ser_fields len 0 (sbind (wuse CEndObject) (fun _ => wuse CEndObject)) b)))
  | SvFails n => sfail (SeCustom n)
  | SvThen v f => sthen (ser_value v) (then_own_error f)
  end
with ser_elems (expected : option N) (len : N) (close : ser unit) (b : elems) : ser unit :=
  match b with
  | ElEnd => sbind (check_count expected len) (fun _ => close)
  | ElAbort e => sfail e
  | ElNext v k =>
    match count_element expected len with
    | SrErr e => ser_elems expected len close (k (Some e))
    | SrOk len' => sthen (ser_value v) (fun r => ser_elems expected len' close (k (seen r)))
    end
  end
with ser_entries (expected : option N) (len : N) (expects_value : bool) (b : entries) : ser unit :=
  match b with
  | EnEnd =>
    if expects_value then spanic else
    sbind (check_count expected len) (fun _ => wuse CEndObject)
  | EnAbort e => sfail e
  | EnKey v k =>
    if expects_value then spanic else
    match count_element expected len with
    | SrErr e => ser_entries expected len expects_value (k (Some e))
    | SrOk len' => sthen (ser_key v) (fun r => ser_entries expected len' true (k (seen r)))
    end
  | EnValue v k =>
    if negb expects_value then spanic else
    sthen (ser_value v) (fun r => ser_entries expected len false (k (seen r)))
  end
with ser_fields (expected len : N) (close : ser unit) (b : fields) : ser unit :=
  match b with
  | FiEnd => sbind (check_count (Some expected) len) (fun _ => close)
  | FiAbort e => sfail e
  | FiNext key v k =>
    match count_element (Some expected) len with
    | SrErr e => ser_fields expected len close (k (Some e))
    | SrOk len' =>
      sthen (sbind (wuse (CName key)) (fun _ => ser_value v))
        (fun r => ser_fields expected len' close (k (seen r)))
    end
  end.

(** ** Use with a [JsonStreamWriter] *)

Fixpoint ser_run {A : Type} (cfg : wsettings) (m : prog A) (s : wsession) : A * wsession :=
  match m with
  | PDone a => (a, s)
  | PCall c k => let (r, s') := wstep cfg c s in ser_run cfg (k r) s'
  end.

(** A client which makes some calls, then serializes a value, then makes further
    calls and finishes the document, all with the same writer *)
Definition serialize_between (cfg : wsettings) (out : sink) (before : list wcall) (v : sval) (after : list wcall)
  : list wresult * wend (sres unit) * list wresult * wresult * sink :=
  let (rs1, s1) := wrun cfg before (new_session out) in
  let (x, s2) := ser_run cfg (ser_value v) s1 in
  let (rs2, s3) := wrun cfg after s2 in
  let (r, out') := wfinish s3 in
  (rs1, x, rs2, r, out').
