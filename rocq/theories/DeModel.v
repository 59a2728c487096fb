(** * Model of the serde deserializer

    src/serde/de.rs: [JsonReaderDeserializer], its access types and the deserializer
    for map keys.  They use a [JsonReader] only through its API, so they are modelled
    as programs ([ClientModel.client]).

    Not modelled: messages of errors, [Debug] implementations.  The arguments which
    the deserializer ignores (names of structs, enums, fields and variants) are
    left out. *)

From Verif Require Import Base Utf8Model NumberModel SourceModel ReaderModel.
From Verif Require Export ClientModel.

(** ** Errors *)

(** [serde::de::Unexpected] as used by [map_to_unexpected], lines 241-251, and in lines
    925-928, 1036-1066 *)
Inductive unexpected : Type :=
| UnType (t : value_type)
| UnStr (s : str)
| UnUnitVariant.

(** [DeserializerError], lines 33-54.  Its variant [Custom] (lines 56-60) is represented by
    - [DeInvalidType], [DeInvalidLength]: made by the deserializer itself (with
      [invalid_type] and [invalid_length] of serde)
    - [DeCustom]: made by a visitor or by an implementation of [Deserialize] *)
Inductive derr : Type :=
| DeCustom (n : N)
| DeInvalidType (u : unexpected)
| DeInvalidLength (len expected : N)
| DeMaxNesting (limit : N)
| DeReader (e : reader_error)
| DeInvalidNumber.

(** ** Numbers *)

Inductive int_type : Type := I8 | I16 | I32 | I64 | I128 | U8 | U16 | U32 | U64 | U128.
Inductive float_type : Type := F32 | F64.

Definition int_bits (t : int_type) : Z :=
  match t with
  | I8 | U8 => 8 | I16 | U16 => 16 | I32 | U32 => 32 | I64 | U64 => 64 | I128 | U128 => 128
  end%Z.
Definition int_signed (t : int_type) : bool :=
  match t with I8 | I16 | I32 | I64 | I128 => true | _ => false end.

(** [MIN..=MAX] of the type *)
Definition in_range (t : int_type) (z : Z) : bool :=
  (if int_signed t then (- 2 ^ (int_bits t - 1) <=? z) && (z <? 2 ^ (int_bits t - 1))
   else (0 <=? z) && (z <? 2 ^ int_bits t))%Z.

(** [FromStr] of the integer types (standard library): an optional sign, [-] only for
    signed types, followed by at least one digit; no overflow *)
Fixpoint parse_digits (acc : Z) (s : str) : option Z :=
  match s with
  | [] => Some acc
  | c :: s' => if is_digit c then parse_digits (acc * 10 + Z.of_N (c - 0x30)) s' else None
  end.
Definition parse_int (t : int_type) (s : str) : option Z :=
  let checked (sign : Z) (ds : str) :=
    match ds with
    | [] => None
    | _ =>
      match parse_digits 0 ds with
      | Some z => if in_range t (sign * z)%Z then Some (sign * z)%Z else None
      | None => None
      end
    end in
  match s with
  | c :: s' =>
    if c =? 0x2B then checked 1%Z s'
    else if (c =? 0x2D) && int_signed t then checked (-1)%Z s'
    else checked 1%Z s
  | [] => None
  end.

(** ** Implementations of [Deserialize] and [Visitor]

    They are given as a transition system, whose states [S] stand for seeds (a
    [DeserializeSeed], that is, something which is deserialized), for visitors and for
    visitors which are using an access type.  Values have the type [V].  A [Deserializer], an
    [EnumAccess] and a [VariantAccess] are passed by value, so at most one of their methods is
    called; [SeqAccess] and [MapAccess] can be used any number of times.  The code gets the
    [Result] of each call and decides how to go on; [inl] is [Err]. *)

(** The methods of [Deserializer] *)
Inductive method : Type :=
| MAny | MBool | MInt (t : int_type) | MFloat (t : float_type)
| MChar | MStr | MString | MBytes | MByteBuf
| MOption | MUnit | MUnitStruct | MNewtypeStruct
| MSeq | MTuple (len : N) | MTupleStruct (len : N) | MMap | MStruct
| MEnum | MIdentifier | MIgnoredAny.

(** The data with which a visitor is called.  A floating-point number is represented by the
    text which [FromStr] parses; that never fails for JSON numbers. *)
Inductive visit : Type :=
| ViBool (b : bool)
| ViInt (t : int_type) (z : Z)
| ViFloat (t : float_type) (text : str)
| ViStr (s : str)
| ViString (s : str)
| ViBytes (bs : bytes)
| ViByteBuf (bs : bytes)
| ViUnit
| ViNone.

(** [DeserializeSeed::deserialize]: returns without using the deserializer, or calls a method
    with a visitor and then turns its result into its own *)
Inductive seed_act (V S : Type) : Type :=
| SaResult (r : derr + V)
| SaCall (m : method) (vis : S) (after : derr + V -> derr + V).
Arguments SaResult {V S} r.
Arguments SaCall {V S} m vis after.

(** [Visitor::visit_seq] and what it does next *)
Inductive seq_act (V S : Type) : Type :=
| SqDone (r : derr + V)
| SqNext (seed : S) (k : derr + option V -> S).
Arguments SqDone {V S} r.
Arguments SqNext {V S} seed k.

(** [Visitor::visit_map] and what it does next *)
Inductive map_act (V S : Type) : Type :=
| MpDone (r : derr + V)
| MpKey (seed : S) (k : derr + option V -> S)
| MpValue (seed : S) (k : derr + V -> S).
Arguments MpDone {V S} r.
Arguments MpKey {V S} seed k.
Arguments MpValue {V S} seed k.

(** [Visitor::visit_enum]: if reading the variant fails there is no [VariantAccess] *)
Inductive enum_act (V S : Type) : Type :=
| EnDone (r : derr + V)
| EnVariant (seed : S) (k : V -> S) (failed : derr -> derr + V).
Arguments EnDone {V S} r.
Arguments EnVariant {V S} seed k failed.

(** ... and what it does with the [VariantAccess] *)
Inductive variant_act (V S : Type) : Type :=
| VaDone (r : derr + V)
| VaUnit (after : derr + unit -> derr + V)
| VaNewtype (seed : S) (after : derr + V -> derr + V)
| VaTuple (len : N) (vis : S) (after : derr + V -> derr + V)
| VaStruct (vis : S) (after : derr + V -> derr + V).
Arguments VaDone {V S} r.
Arguments VaUnit {V S} after.
Arguments VaNewtype {V S} seed after.
Arguments VaTuple {V S} len vis after.
Arguments VaStruct {V S} vis after.

Record code (V S : Type) : Type := Code {
  deserialize : S -> seed_act V S;
  visit_data : S -> visit -> derr + V;
  (** the seed which [visit_some] and [visit_newtype_struct] use *)
  visit_some : S -> S;
  visit_newtype : S -> S;
  visit_seq : S -> seq_act V S;
  visit_map : S -> map_act V S;
  visit_enum : S -> enum_act V S;
  with_variant : S -> variant_act V S
}.
Arguments deserialize {V S} _ _.
Arguments visit_data {V S} _ _ _.
Arguments visit_some {V S} _ _.
Arguments visit_newtype {V S} _ _.
Arguments visit_seq {V S} _ _.
Arguments visit_map {V S} _ _.
Arguments visit_enum {V S} _ _.
Arguments with_variant {V S} _ _.

(** ** Programs *)

(** How a method ends: it returns a [Result], or it panics; [DFuel] and [DInvalid] as
    for [SimpleModel.sres] *)
Inductive dend (A : Type) : Type :=
| DRet (r : derr + A)
| DPanic (k : panic)
| DFuel
| DInvalid.
Arguments DRet {A} r.
Arguments DPanic {A} k.
Arguments DFuel {A}.
Arguments DInvalid {A}.

(** Code using the deserializer: it gets the field [depth] and returns its new value *)
Definition de (A : Type) : Type := N -> client (dend A * N).

Definition dend_now {A : Type} (x : dend A) : de A := fun d => Done (x, d).
Definition dret {A : Type} (a : A) : de A := dend_now (DRet (inr a)).
Definition dfail {A : Type} (e : derr) : de A := dend_now (DRet (inl e)).
Definition dpanic {A : Type} (k : panic) : de A := dend_now (DPanic k).

(** [f] continues with the [Result] of [m] *)
Definition dthen {A B : Type} (m : de A) (f : derr + A -> de B) : de B := fun d =>
  cbind (m d) (fun re =>
    match re with
    | (DRet r, d') => f r d'
    | (DPanic k, d') => Done (DPanic k, d')
    | (DFuel, d') => Done (DFuel, d')
    | (DInvalid, d') => Done (DInvalid, d')
    end).

(** The operator [?] *)
Definition dbind {A B : Type} (m : de A) (f : A -> de B) : de B :=
  dthen m (fun r => match r with inr a => f a | inl e => dfail e end).

(** A call of the [JsonReader]; lines 45-48 convert the error *)
Definition duse (c : rcall) : de rvalue := fun d =>
  Call c (fun o =>
    match o with
    | OOk v => Done (DRet (inr v), d)
    | OErr e => Done (DRet (inl (DeReader e)), d)
    | OReadErr _ => Done (DPanic Bug, d)
    | OPanic k => Done (DPanic k, d)
    | OFuel => Done (DFuel, d)
    | ONotPossible | OStopped => Done (DInvalid, d)
    end).

Definition use_unit (c : rcall) : de unit := dbind (duse c) (fun _ => dret tt).
Definition use_bool (c : rcall) : de bool :=
  dbind (duse c) (fun v => match v with RBool b => dret b | _ => dpanic Bug end).
Definition use_str (c : rcall) : de str :=
  dbind (duse c) (fun v => match v with RStr s => dret s | _ => dpanic Bug end).
Definition use_peek : de value_type :=
  dbind (duse CPeek) (fun v => match v with RType t => dret t | _ => dpanic Bug end).

(** ** Deserializers for text *)

Definition as_option {A B : Type} (r : A + B) : A + option B :=
  match r with inl e => inl e | inr a => inr (Some a) end.

(** The access types for a variant without value: [UnitVariantAccess], lines 1005-1066, and
    [serde::de::value::private::UnitOnly].  Also returns [consumed_variant_value]. *)
Definition unit_variant_only {V S : Type} (a : variant_act V S) : (derr + V) * bool :=
  match a with
  | VaDone r => (r, false)
  | VaUnit after => (after (inr tt), true)
  | VaNewtype _ after | VaTuple _ _ after | VaStruct _ after =>
    (after (inl (DeInvalidType UnUnitVariant)), false)
  end.

(** [serde::de::value::StrDeserializer] (serde 1): all methods call [visit_str], except
    [deserialize_enum].  [fuel] limits the nesting of calls. *)
Fixpoint str_seed {V S : Type} (C : code V S) (fuel : nat) (s : str) (seed : S) : dend V :=
  match fuel with
  | O => DFuel
  | S n =>
    match deserialize C seed with
    | SaResult r => DRet r
    | SaCall MEnum vis after =>
      match str_enum C n s vis with DRet r => DRet (after r) | x => x end
    | SaCall _ vis after => DRet (after (visit_data C vis (ViStr s)))
    end
  end
with str_enum {V S : Type} (C : code V S) (fuel : nat) (s : str) (vis : S) : dend V :=
  match fuel with
  | O => DFuel
  | S n =>
    match visit_enum C vis with
    | EnDone r => DRet r
    | EnVariant seed k failed =>
      match str_seed C n s seed with
      | DRet (inr v) => DRet (fst (unit_variant_only (with_variant C (k v))))
      | DRet (inl e) => DRet (failed e)
      | x => x
      end
    end
  end.

(** [deserialize_number_key!], lines 840-861 *)
Definition key_number {V : Type} (key : str) (parsed : option visit) (f : visit -> derr + V) : derr + V :=
  if is_valid_json_number key then
    match parsed with
    | Some x => f x
    | None => inl DeInvalidNumber
    end
  else inl DeInvalidNumber.

(** [MapKeyDeserializer], lines 835-838, 863-938 *)
Fixpoint key_seed {V S : Type} (C : code V S) (fuel : nat) (key : str) (seed : S) : dend V :=
  match fuel with
  | O => DFuel
  | S n =>
    match deserialize C seed with
    | SaResult r => DRet r
    | SaCall m vis after =>
      let direct (r : derr + V) := DRet (after r) in
      let nested (x : dend V) := match x with DRet r => DRet (after r) | x => x end in
      match m with
      | MInt t =>
        direct (key_number key (option_map (ViInt t) (parse_int t key)) (visit_data C vis))
      | MFloat t => direct (key_number key (Some (ViFloat t key)) (visit_data C vis))
      | MOption => nested (key_seed C n key (visit_some C vis))
      | MNewtypeStruct => nested (key_seed C n key (visit_newtype C vis))
      | MEnum => nested (str_enum C n key vis)
      | MBytes | MByteBuf => direct (visit_data C vis (ViBytes (encode_utf8 key)))
      | MBool =>
        if list_eq_dec N.eq_dec key lit_true then direct (visit_data C vis (ViBool true))
        else if list_eq_dec N.eq_dec key lit_false then direct (visit_data C vis (ViBool false))
        else direct (inl (DeInvalidType (UnStr key)))
      | MAny | MChar | MStr | MString | MUnit | MUnitStruct | MSeq | MTuple _ | MTupleStruct _
      | MMap | MStruct | MIdentifier | MIgnoredAny => direct (visit_data C vis (ViStr key))
      end
    end
  end.

(** ** [JsonReaderDeserializer] *)

(** [check_nesting!], lines 263-276.  An error which [body] returns with [?] or [return] leaves
    the method before [depth] is decremented. *)
Definition check_nesting {A : Type} (limit : N) (body : de A) : de A := fun d =>
  if limit <=? d then Done (DRet (inl (DeMaxNesting limit)), d)
  else
    cbind (body (d + 1)) (fun re =>
      match re with
      | (DRet (inr a), d') =>
        if d' =? 0 then Done (DPanic Bug, d') else Done (DRet (inr a), d' - 1)
      | x => Done x
      end).

(** [deserialize_seq_with_length], lines 278-306; [body] is the call of [visit_seq], it also
    returns the number of elements *)
Definition de_array {V : Type} (limit : N) (expected : option N) (body : de (V * N)) : de V :=
  check_nesting limit
    (dbind (use_unit CBeginArray) (fun _ =>
     dbind body (fun al =>
     dbind (match expected with
            | Some n => if snd al <? n then dfail (DeInvalidLength (snd al) n) else dret tt
            | None => dret tt
            end) (fun _ =>
     dbind (use_unit CEndArray) (fun _ =>
     dret (fst al)))))).

(** [deserialize_map], lines 642-661; [body] is the call of [visit_map], it also returns
    [expects_entry_value].  And [deserialize_enum] for an object, lines 708-728; there
    [body] is the call of [visit_enum], and it returns the negation of
    [consumed_variant_value]. *)
Definition de_object {V : Type} (limit : N) (body : de (V * bool)) : de V :=
  check_nesting limit
    (dbind (use_unit CBeginObject) (fun _ =>
     dbind body (fun ab =>
     dbind (if snd ab then dpanic Misuse else dret tt) (fun _ =>
     dbind (use_unit CEndObject) (fun _ =>
     dret (fst ab)))))).

(** The number in [deserialize_any], lines 385-402 *)
Definition visit_number {V S : Type} (C : code V S) (vis : S) (t : str) : de V :=
  let int (small large : int_type) :=
    match parse_int small t with
    | Some z => dend_now (DRet (visit_data C vis (ViInt small z)))
    | None =>
      match parse_int large t with
      | Some z => dend_now (DRet (visit_data C vis (ViInt large z)))
      | None => dfail DeInvalidNumber
      end
    end in
  if existsb (fun c => (c =? 0x2E) || (c =? 0x65) || (c =? 0x45)) t
  then dend_now (DRet (visit_data C vis (ViFloat F64 t)))
  else
    match t with
    | [] => dpanic Bug
    | c :: _ => if c =? 0x2D then int I64 I128 else int U64 U128
    end.

(** [r] paired with the second component *)
Definition with_flag {V B : Type} (b : B) (r : derr + V) : de (V * B) :=
  dend_now (DRet (match r with inr a => inr (a, b) | inl e => inl e end)).

(** - [run_seed]: [seed.deserialize(&mut JsonReaderDeserializer)]
    - [run_method]: the methods, lines 374-760
    - [run_seq]: [visit_seq] with the [SeqAccess], lines 762-794
    - [run_map]: [visit_map] with the [MapAccess], lines 796-833
    - [run_enum]: [visit_enum] with the [VariantAccess], lines 940-1003, or, if
      [is_string], with the [UnitVariantAccess], lines 1005-1066; the second result as for
      [de_object]
    [fuel] limits the nesting and the number of calls. *)
Fixpoint run_seed {V S : Type} (C : code V S) (limit : N) (fuel : nat) (seed : S) : de V :=
  match fuel with
  | O => dend_now DFuel
  | S n =>
    match deserialize C seed with
    | SaResult r => dend_now (DRet r)
    | SaCall m vis after => dthen (run_method C limit n m vis) (fun r => dend_now (DRet (after r)))
    end
  end
with run_method {V S : Type} (C : code V S) (limit : N) (fuel : nat) (m : method) (vis : S) : de V :=
  match fuel with
  | O => dend_now DFuel
  | S n =>
    let data (x : visit) : de V := dend_now (DRet (visit_data C vis x)) in
    let array (expected : option N) := de_array limit expected (run_seq C limit n expected 0 vis) in
    let object := de_object limit (run_map C limit n false vis) in
    let unexpected (t : value_type) : de V := dfail (DeInvalidType (UnType t)) in
    match m with
    | MAny =>
      dbind use_peek (fun t =>
        match t with
        | TArray => array None
        | TObject => object
        | TString => dbind (use_str CNextString) (fun s => data (ViString s))
        | TBoolean => dbind (use_bool CNextBool) (fun b => data (ViBool b))
        | TNull => dbind (use_unit CNextNull) (fun _ => data ViUnit)
        | TNumber => dbind (use_str CNextNumberStr) (fun t => visit_number C vis t)
        end)
    | MBool => dbind (use_bool CNextBool) (fun b => data (ViBool b))
    | MInt ty =>
      dbind (use_str CNextNumberStr) (fun t =>
        match parse_int ty t with
        | Some z => data (ViInt ty z)
        | None => dfail DeInvalidNumber
        end)
    | MFloat ty => dbind (use_str CNextNumberStr) (fun t => data (ViFloat ty t))
    | MChar | MStr | MIdentifier => dbind (use_str CNextStr) (fun s => data (ViStr s))
    | MString => dbind (use_str CNextString) (fun s => data (ViString s))
    | MBytes =>
      dbind use_peek (fun t =>
        match t with
        | TString => dbind (use_str CNextStr) (fun s => data (ViBytes (encode_utf8 s)))
        | TArray => array None
        | t => unexpected t
        end)
    | MByteBuf =>
      dbind use_peek (fun t =>
        match t with
        | TString => dbind (use_str CNextString) (fun s => data (ViByteBuf (encode_utf8 s)))
        | TArray => array None
        | t => unexpected t
        end)
    | MOption =>
      dbind use_peek (fun t =>
        match t with
        | TNull => dbind (use_unit CNextNull) (fun _ => data ViNone)
        | _ => run_seed C limit n (visit_some C vis)
        end)
    | MUnit | MUnitStruct => dbind (use_unit CNextNull) (fun _ => data ViUnit)
    | MNewtypeStruct => run_seed C limit n (visit_newtype C vis)
    | MSeq => array None
    | MTuple len | MTupleStruct len => array (Some len)
    | MMap => object
    | MStruct =>
      dbind use_peek (fun t =>
        match t with
        | TArray => array None
        | TObject => object
        | t => unexpected t
        end)
    | MEnum =>
      dbind use_peek (fun t =>
        match t with
        | TObject => de_object limit (run_enum C limit n false vis)
        | TString =>
          dbind (run_enum C limit n true vis) (fun ab =>
            if snd ab then dpanic Misuse else dret (fst ab))
        | t => unexpected t
        end)
    | MIgnoredAny => dbind (use_unit CSkipValue) (fun _ => data ViUnit)
    end
  end
with run_seq {V S : Type} (C : code V S) (limit : N) (fuel : nat) (expected : option N) (len : N) (st : S)
  : de (V * N) :=
  match visit_seq C st with
  | SqDone r => with_flag len r
  | SqNext seed k =>
    match fuel with
    | O => dend_now DFuel
    | S n =>
      dthen (use_bool CHasNext) (fun x =>
        match x with
        | inl e => run_seq C limit n expected len (k (inl e))
        | inr false => run_seq C limit n expected len (k (inr None))
        | inr true =>
          let element (len' : N) :=
            dthen (run_seed C limit n seed) (fun r =>
              run_seq C limit n expected len' (k (as_option r))) in
          match expected with
          | Some m =>
            if m <=? len then run_seq C limit n expected len (k (inl (DeInvalidLength (len + 1) m)))
            else element (len + 1)
          | None => element len
          end
        end)
    end
  end
with run_map {V S : Type} (C : code V S) (limit : N) (fuel : nat) (expects_value : bool) (st : S)
  : de (V * bool) :=
  match visit_map C st with
  | MpDone r => with_flag expects_value r
  | MpKey seed k =>
    if expects_value then dpanic Misuse else
    match fuel with
    | O => dend_now DFuel
    | S n =>
      dthen (use_bool CHasNext) (fun x =>
        match x with
        | inl e => run_map C limit n false (k (inl e))
        | inr false => run_map C limit n false (k (inr None))
        | inr true =>
          dthen (dbind (use_str CNextName) (fun key => dend_now (key_seed C n key seed))) (fun r =>
            match r with
            | inl e => run_map C limit n false (k (inl e))
            | inr v => run_map C limit n true (k (inr (Some v)))
            end)
        end)
    end
  | MpValue seed k =>
    if negb expects_value then dpanic Misuse else
    match fuel with
    | O => dend_now DFuel
    | S n => dthen (run_seed C limit n seed) (fun r => run_map C limit n false (k r))
    end
  end
with run_enum {V S : Type} (C : code V S) (limit : N) (fuel : nat) (is_string : bool) (vis : S)
  : de (V * bool) :=
  match fuel with
  | O => dend_now DFuel
  | S n =>
    match visit_enum C vis with
    | EnDone r => with_flag true r
    | EnVariant seed k failed =>
      dthen (if is_string then run_seed C limit n seed
             else dbind (use_str CNextName) (fun name => dend_now (str_seed C n name seed))) (fun r =>
        match r with
        | inl e => with_flag true (failed e)
        | inr v =>
          if is_string then
            let (r, consumed) := unit_variant_only (with_variant C (k v)) in
            with_flag (negb consumed) r
          else
            match with_variant C (k v) with
            | VaDone r => with_flag true r
            | VaUnit after =>
              dthen (use_unit CNextNull) (fun r => with_flag false (after r))
            | VaNewtype seed after =>
              dthen (run_seed C limit n seed) (fun r => with_flag false (after r))
            | VaTuple len vis' after =>
              dthen (run_method C limit n (MTuple len) vis') (fun r => with_flag false (after r))
            | VaStruct vis' after =>
              dthen (run_method C limit n MStruct vis') (fun r => with_flag false (after r))
            end
        end)
    end
  end.

(** [JsonReaderDeserializer::new_with_custom_nesting_limit], lines 230-238, used by
    [DeserializeSeed::deserialize] *)
Definition deserialize_with_limit {V S : Type} (C : code V S) (fuel : nat) (limit : N) (seed : S)
  : client (dend V) :=
  cbind (run_seed C limit fuel seed 0) (fun re => Done (fst re)).

(** [JsonReader::deserialize_next], src/reader/stream_reader.rs:2200-2215, with
    [DEFAULT_MAX_NESTING_DEPTH], line 183 *)
Definition deserialize_next {V S : Type} (C : code V S) (fuel : nat) (seed : S) : client (dend V) :=
  cbind (dbind use_peek (fun _ => run_seed C 128 fuel seed) 0) (fun re => Done (fst re)).

(** ** Use with a [JsonStreamReader] *)

Fixpoint make_calls (cs : list rcall) : client (list outcome) :=
  match cs with
  | [] => Done []
  | c :: cs' => Call c (fun o => cbind (make_calls cs') (fun os => Done (o :: os)))
  end.

(** A client which makes some calls, then deserializes a value, then makes further calls *)
Definition around {A : Type} (before : list rcall) (m : client A) (after : list rcall)
  : client (list outcome * A * list outcome) :=
  cbind (make_calls before) (fun os1 =>
  cbind m (fun a =>
  cbind (make_calls after) (fun os2 => Done (os1, a, os2)))).

Definition client_session {A : Type} (s : settings) (evs : list event) (m : client A) : option A :=
  match crun (client_run (Env s (enough_fuel (fst (supplied evs)))) m (session_new s)) (csrc_new evs) with
  | Some (a, _, _) => Some a
  | None => None
  end.
