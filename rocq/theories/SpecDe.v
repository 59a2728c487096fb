(** * What the serde deserializer does with known data

    The result of deserializing a value which is known as a tree, according to the
    documentation of [JsonReaderDeserializer] and of the traits of serde.  No [JsonReader]
    is involved: containers are lists, and an access type is the list of what is still to
    be visited.  The types of the code, of errors and of settings are taken from the
    model. *)

From Verif Require Import Base Utf8Model NumberModel SpecNumber SpecJson SourceModel ReaderModel SpecCursor
  DeModel.

(** ** Results *)

(** Reasons for which deserializing fails; the location in the text is left open *)
Inductive failure : Type :=
| FType (expected actual : value_type)
| FStructure (kind : structure_error)
| FUnsupportedNumber (t : bytes)
| FError (e : derr).

(** [e] is an error for the reason [x] *)
Definition is_failure (x : failure) (e : derr) : Prop :=
  match x with
  | FType t u => exists loc, e = DeReader (EUnexpectedType t u loc)
  | FStructure k => exists loc, e = DeReader (EUnexpectedStructure k loc)
  | FUnsupportedNumber t => exists loc, e = DeReader (EUnsupportedNumber t loc)
  | FError e' => e = e'
  end.

(** - [Gives a]: [Ok(a)], and the value has been consumed
    - [Keeps a]: [Ok(a)], and nothing has been consumed, since the code has not used the
      deserializer
    - [Fails x]: [Err] for the reason [x]
    - [Panics]: the code has used an access type in a wrong way
    - [Unfinished]: the code makes more than the given number of steps *)
Inductive verdict (A : Type) : Type :=
| Gives (a : A)
| Keeps (a : A)
| Fails (x : failure)
| Panics
| Unfinished.
Arguments Gives {A} a.
Arguments Keeps {A} a.
Arguments Fails {A} x.
Arguments Panics {A}.
Arguments Unfinished {A}.

(** The result of a visitor to which consumed data has been given *)
Definition given {A : Type} (r : derr + A) : verdict A :=
  match r with inr a => Gives a | inl e => Fails (FError e) end.

(** The code turns the result of a successful call into its own *)
Definition then_code {A B : Type} (x : verdict A) (f : A -> derr + B) : verdict B :=
  match x with
  | Gives a => match f a with inr b => Gives b | inl e => Fails (FError e) end
  | Keeps a => match f a with inr b => Keeps b | inl e => Fails (FError e) end
  | Fails y => Fails y
  | Panics => Panics
  | Unfinished => Unfinished
  end.

(** ** Integers *)

(** Value of a sequence of decimal digits *)
Fixpoint decimal (ds : bytes) : option N :=
  match ds with
  | [] => Some 0
  | c :: ds' =>
    if (0x30 <=? c) && (c <=? 0x39)
    then option_map (fun n => (c - 0x30) * 10 ^ N.of_nat (length ds') + n) (decimal ds')
    else None
  end.

(** The integer of the given type which a JSON number denotes.  There is none if the number
    has a fraction or an exponent, if it has a minus sign and the type is unsigned, or if it is
    out of range. *)
Definition min_int (t : int_type) : Z :=
  match t with
  | I8 => -128
  | I16 => -32768
  | I32 => -2147483648
  | I64 => -9223372036854775808
  | I128 => -170141183460469231731687303715884105728
  | _ => 0
  end.
Definition max_int (t : int_type) : Z :=
  match t with
  | I8 => 127
  | I16 => 32767
  | I32 => 2147483647
  | I64 => 9223372036854775807
  | I128 => 170141183460469231731687303715884105727
  | U8 => 255
  | U16 => 65535
  | U32 => 4294967295
  | U64 => 18446744073709551615
  | U128 => 340282366920938463463374607431768211455
  end.
Definition signed (t : int_type) : bool := (min_int t <? 0)%Z.

Definition integer (t : int_type) (text : bytes) : option Z :=
  let limit (z : Z) := if ((min_int t <=? z) && (z <=? max_int t))%Z then Some z else None in
  match text with
  | 0x2D :: ds =>
    if signed t then match decimal ds with Some n => limit (- Z.of_N n)%Z | None => None end else None
  | ds => match decimal ds with Some n => limit (Z.of_N n) | None => None end
  end.

(** [deserialize_any] for a number *)
Definition number_visit (t : bytes) : option visit :=
  let int small large :=
    match integer small t with
    | Some z => Some (ViInt small z)
    | None => option_map (ViInt large) (integer large t)
    end in
  if in_dec N.eq_dec 0x2E t then Some (ViFloat F64 t)
  else if in_dec N.eq_dec 0x65 t then Some (ViFloat F64 t)
  else if in_dec N.eq_dec 0x45 t then Some (ViFloat F64 t)
  else match t with 0x2D :: _ => int I64 I128 | _ => int U64 U128 end.

(** ** Names *)

(** The name of a variant, or a name used as an enum: it is visited as string, whatever type is
    requested; an enum has only a variant without value *)
Definition sem_unit_variant {V S : Type} (a : variant_act V S) : verdict V :=
  match a with
  | VaDone (inr _) => Panics
  | VaDone (inl e) => Fails (FError e)
  | VaUnit after => given (after (inr tt))
  | VaNewtype _ _ | VaTuple _ _ _ | VaStruct _ _ => Fails (FError (DeInvalidType UnUnitVariant))
  end.

Fixpoint sem_text {V S : Type} (C : code V S) (fuel : nat) (s : str) (seed : S) : verdict V :=
  match fuel with
  | O => Unfinished
  | S n =>
    match deserialize C seed with
    | SaResult r => given r
    | SaCall m vis after =>
      then_code
        (match m with
         | MEnum => sem_text_enum C n s vis
         | _ => given (visit_data C vis (ViStr s))
         end)
        (fun a => after (inr a))
    end
  end
with sem_text_enum {V S : Type} (C : code V S) (fuel : nat) (s : str) (vis : S) : verdict V :=
  match fuel with
  | O => Unfinished
  | S n =>
    match visit_enum C vis with
    | EnDone r => given r
    | EnVariant seed k _ =>
      match sem_text C n s seed with
      | Gives v =>
        match with_variant C (k v) with
        | VaDone r => given r
        | a => sem_unit_variant a
        end
      | x => x
      end
    end
  end.

(** Map keys: numbers and booleans are parsed *)
Fixpoint sem_key {V S : Type} (C : code V S) (fuel : nat) (key : str) (seed : S) : verdict V :=
  match fuel with
  | O => Unfinished
  | S n =>
    match deserialize C seed with
    | SaResult r => given r
    | SaCall m vis after =>
      let number (x : option visit) :=
        match is_valid_json_number key, x with
        | true, Some y => given (visit_data C vis y)
        | _, _ => Fails (FError DeInvalidNumber)
        end in
      then_code
        (match m with
         | MInt t => number (option_map (ViInt t) (integer t key))
         | MFloat t => number (Some (ViFloat t key))
         | MBool =>
           if list_eq_dec N.eq_dec key lit_true then given (visit_data C vis (ViBool true))
           else if list_eq_dec N.eq_dec key lit_false then given (visit_data C vis (ViBool false))
           else Fails (FError (DeInvalidType (UnStr key)))
         | MBytes | MByteBuf => given (visit_data C vis (ViBytes (encode_utf8 key)))
         | MOption => sem_key C n key (visit_some C vis)
         | MNewtypeStruct => sem_key C n key (visit_newtype C vis)
         | MEnum => sem_text_enum C n key vis
         | _ => given (visit_data C vis (ViStr key))
         end)
        (fun a => after (inr a))
    end
  end.

(** ** Values *)

(** Where a visitor of a map is: before a member; behind the name of a member with the given
    value; behind a name whose value has been deserialized without consuming it *)
Inductive map_position : Type :=
| AtNames (ms : list (str * json))
| BeforeValue (v : json) (ms : list (str * json))
| ValueIgnored.

(** An array or object is entered, unless there are already [limit] of them open.  The visitor
    has to visit all its elements. *)
Definition enter {A : Type} (limit open : N) (inside : verdict A) : verdict A :=
  if open <? limit then inside else Fails (FError (DeMaxNesting limit)).
Definition leave {A B : Type} (rest : list B) (a : A) : verdict A :=
  match rest with [] => Gives a | _ => Fails (FStructure MoreElementsThanExpected) end.

(** [open]: the number of containers which the deserializer has open.
    - [sem_seed], [sem_method]: for the value [v]
    - [sem_items]: a visitor of an array of which [items] are left; [len] have been visited.  Also
      gives the final values of these
    - [sem_members]: a visitor of an object
    - [sem_variant]: a visitor of an enum, given as an object with the members [ms] *)
Fixpoint sem_seed {V S : Type} (C : code V S) (s : settings) (limit : N) (fuel : nat) (seed : S)
  (v : json) (open : N) : verdict V :=
  match fuel with
  | O => Unfinished
  | S n =>
    match deserialize C seed with
    | SaResult (inr a) => Keeps a
    | SaResult (inl e) => Fails (FError e)
    | SaCall m vis after =>
      then_code (sem_method C s limit n m vis v open) (fun a => after (inr a))
    end
  end
with sem_method {V S : Type} (C : code V S) (s : settings) (limit : N) (fuel : nat) (m : method) (vis : S)
  (v : json) (open : N) : verdict V :=
  match fuel with
  | O => Unfinished
  | S n =>
    let array (expected : option N) (items : list json) :=
      enter limit open
        match sem_items C s limit n expected 0 vis items (open + 1) with
        | Gives (a, len, rest) | Keeps (a, len, rest) =>
          match expected with
          | Some m => if len <? m then Fails (FError (DeInvalidLength len m)) else leave rest a
          | None => leave rest a
          end
        | Fails x => Fails x
        | Panics => Panics
        | Unfinished => Unfinished
        end in
    let object (ms : list (str * json)) :=
      enter limit open (sem_members C s limit n (AtNames ms) vis (open + 1)) in
    let number (t : bytes) (x : option visit) :=
      if restrict_number_values s && unsupported_number t then Fails (FUnsupportedNumber t)
      else match x with
           | Some y => given (visit_data C vis y)
           | None => Fails (FError DeInvalidNumber)
           end in
    let expects (t : value_type) := enter limit open (Fails (FType t (json_type v))) in
    match m, v with
    | MAny, JNull => given (visit_data C vis ViUnit)
    | MAny, JBool b => given (visit_data C vis (ViBool b))
    | MAny, JNum t => number t (number_visit t)
    | MAny, JStr t => given (visit_data C vis (ViString t))
    | MAny, JArr items => array None items
    | MAny, JObj ms => object ms
    | MBool, JBool b => given (visit_data C vis (ViBool b))
    | MBool, _ => Fails (FType TBoolean (json_type v))
    | MInt ty, JNum t => number t (option_map (ViInt ty) (integer ty t))
    | MFloat ty, JNum t => number t (Some (ViFloat ty t))
    | (MInt _ | MFloat _), _ => Fails (FType TNumber (json_type v))
    | (MChar | MStr | MIdentifier), JStr t => given (visit_data C vis (ViStr t))
    | MString, JStr t => given (visit_data C vis (ViString t))
    | (MChar | MStr | MIdentifier | MString), _ => Fails (FType TString (json_type v))
    | MBytes, JStr t => given (visit_data C vis (ViBytes (encode_utf8 t)))
    | MByteBuf, JStr t => given (visit_data C vis (ViByteBuf (encode_utf8 t)))
    | (MBytes | MByteBuf), JArr items => array None items
    | (MBytes | MByteBuf), _ => Fails (FError (DeInvalidType (UnType (json_type v))))
    | MOption, JNull => given (visit_data C vis ViNone)
    | MOption, _ => sem_seed C s limit n (visit_some C vis) v open
    | (MUnit | MUnitStruct), JNull => given (visit_data C vis ViUnit)
    | (MUnit | MUnitStruct), _ => Fails (FType TNull (json_type v))
    | MNewtypeStruct, _ => sem_seed C s limit n (visit_newtype C vis) v open
    | MSeq, JArr items => array None items
    | (MTuple len | MTupleStruct len), JArr items => array (Some len) items
    | (MSeq | MTuple _ | MTupleStruct _), _ => expects TArray
    | MMap, JObj ms => object ms
    | MMap, _ => expects TObject
    | MStruct, JArr items => array None items
    | MStruct, JObj ms => object ms
    | MStruct, _ => Fails (FError (DeInvalidType (UnType (json_type v))))
    | MEnum, JObj ms => enter limit open (sem_variant C s limit n vis ms (open + 1))
    | MEnum, JStr t =>
      match n with
      | O => Unfinished
      | S n' =>
        match visit_enum C vis with
        | EnDone (inr _) => Panics
        | EnDone (inl e) => Fails (FError e)
        | EnVariant seed k _ =>
          match sem_seed C s limit n' seed v open with
          | Gives a => sem_unit_variant (with_variant C (k a))
          | Keeps a => match sem_unit_variant (with_variant C (k a)) with Gives b => Keeps b | x => x end
          | x => x
          end
        end
      end
    | MEnum, _ => Fails (FError (DeInvalidType (UnType (json_type v))))
    | MIgnoredAny, _ => given (visit_data C vis ViUnit)
    end
  end
with sem_items {V S : Type} (C : code V S) (s : settings) (limit : N) (fuel : nat) (expected : option N) (len : N)
  (st : S) (items : list json) (open : N) : verdict (V * N * list json) :=
  match visit_seq C st, fuel with
  | SqDone (inr a), _ => Gives (a, len, items)
  | SqDone (inl e), _ => Fails (FError e)
  | SqNext _ _, O => Unfinished
  | SqNext seed k, S n =>
    match items with
    | [] => sem_items C s limit n expected len (k (inr None)) [] open
    | v :: items' =>
      let element (len' : N) :=
        match sem_seed C s limit n seed v open with
        | Gives a => sem_items C s limit n expected len' (k (inr (Some a))) items' open
        | Keeps a => sem_items C s limit n expected len' (k (inr (Some a))) items open
        | Fails x => Fails x
        | Panics => Panics
        | Unfinished => Unfinished
        end in
      match expected with
      | Some m => if len <? m then element (len + 1) else Fails (FError (DeInvalidLength (len + 1) m))
      | None => element len
      end
    end
  end
with sem_members {V S : Type} (C : code V S) (s : settings) (limit : N) (fuel : nat) (pos : map_position)
  (st : S) (open : N) : verdict V :=
  match visit_map C st, pos with
  | MpDone (inl e), _ => Fails (FError e)
  | MpDone (inr a), AtNames ms => leave ms a
  | MpDone (inr a), _ => Panics
  | MpKey seed k, AtNames ms =>
    match fuel, ms with
    | O, _ => Unfinished
    | S n, [] => sem_members C s limit n pos (k (inr None)) open
    | S n, (name, v) :: ms' =>
      match sem_key C n name seed with
      | Gives a | Keeps a => sem_members C s limit n (BeforeValue v ms') (k (inr (Some a))) open
      | x => x
      end
    end
  | MpKey _ _, BeforeValue _ _ => Panics
  | MpKey _ _, ValueIgnored => match fuel with O => Unfinished | S _ => Panics end
  | MpValue seed k, BeforeValue v ms =>
    match fuel with
    | O => Unfinished
    | S n =>
      match sem_seed C s limit n seed v open with
      | Gives a => sem_members C s limit n (AtNames ms) (k (inr a)) open
      | Keeps a => sem_members C s limit n ValueIgnored (k (inr a)) open
      | x => x
      end
    end
  | MpValue _ _, _ => Panics
  end
with sem_variant {V S : Type} (C : code V S) (s : settings) (limit : N) (fuel : nat) (vis : S)
  (ms : list (str * json)) (open : N) : verdict V :=
  match fuel with
  | O => Unfinished
  | S n =>
    match visit_enum C vis with
    | EnDone (inr _) => Panics
    | EnDone (inl e) => Fails (FError e)
    | EnVariant seed k _ =>
      match ms with
      | [] => Fails (FStructure FewerElementsThanExpected)
      | (name, v) :: ms' =>
        match sem_text C n name seed with
        | Gives a | Keeps a =>
          let value (x : verdict V) (after : derr + V -> derr + V) :=
            match then_code x (fun b => after (inr b)) with
            | Gives b => leave ms' b
            | Keeps _ => Panics
            | x => x
            end in
          match with_variant C (k a) with
          | VaDone (inr _) => Panics
          | VaDone (inl e) => Fails (FError e)
          | VaUnit after =>
            match v with
            | JNull => match after (inr tt) with inr b => leave ms' b | inl e => Fails (FError e) end
            | _ => Fails (FType TNull (json_type v))
            end
          | VaNewtype seed' after => value (sem_seed C s limit n seed' v open) after
          | VaTuple len vis' after => value (sem_method C s limit n (MTuple len) vis' v open) after
          | VaStruct vis' after => value (sem_method C s limit n MStruct vis' v open) after
          end
        | x => x
        end
      end
    end
  end.

(** ** Code *)

(** The documentation requires that deserialization is aborted after an error.  Code which does
    this returns each error as it is, like the operator [?]: *)
Definition returns_errors {V S : Type} (C : code V S) : Prop :=
  (forall st m vis after e, deserialize C st = SaCall m vis after -> after (inl e) = inl e) /\
  (forall st seed k e, visit_seq C st = SqNext seed k -> visit_seq C (k (inl e)) = SqDone (inl e)) /\
  (forall st seed k e, visit_map C st = MpKey seed k -> visit_map C (k (inl e)) = MpDone (inl e)) /\
  (forall st seed k e, visit_map C st = MpValue seed k -> visit_map C (k (inl e)) = MpDone (inl e)) /\
  (forall st seed k failed e, visit_enum C st = EnVariant seed k failed -> failed e = inl e) /\
  (forall st, match with_variant C st with
              | VaDone _ => True
              | VaUnit after => forall e, after (inl e) = inl e
              | VaNewtype _ after | VaTuple _ _ after | VaStruct _ after => forall e, after (inl e) = inl e
              end).

(** ** Results of the deserializer *)

Definition agrees {V : Type} (x : verdict V) (r : dend V) : Prop :=
  match x with
  | Gives a | Keeps a => r = DRet (inr a)
  | Fails y => exists e, r = DRet (inl e) /\ is_failure y e
  | Panics => r = DPanic Misuse
  | Unfinished => r = DFuel
  end.

(** Number of arrays and objects which the calls of [log] have opened and not closed *)
Definition open_after (log : list (rcall * outcome)) : Z :=
  fold_left (fun n co =>
    match co with
    | ((CBeginArray | CBeginObject), OOk _) => n + 1
    | ((CEndArray | CEndObject), OOk _) => n - 1
    | _ => n
    end%Z) log 0%Z.
