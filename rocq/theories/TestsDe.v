(** * The tests of src/serde/de.rs, as tests of the model

    Not proofs of properties, see TestsReader.v.  Messages of errors are not
    modelled.  Instead of the value of a float the text is compared from which it
    is parsed.  The locations of errors are compared too, although the tests
    ignore them.  For [nesting_limit] the derived implementation is written down. *)

From Coq Require Import String.
From Verif Require Import Base Utf8Model NumberModel SourceModel ReaderModel DeModel.
Local Open Scope list_scope.

Notation txt := bytes_of_string (only parsing).
Definition rep {A : Type} (n : N) (l : list A) : list A := concat (repeat l (N.to_nat n)).

(** [Visited], lines 1083-1115 *)
Inductive visited : Type :=
| Vis (x : visit)
| SomeStart | SomeEnd | NewtypeStructStart | NewtypeStructEnd | SeqStart | SeqEnd | MapStart | MapEnd | EnumStart | EnumEnd.

(** [EnumVariantHandling], lines 1117-1122 *)
Inductive variant_handling : Type := HUnit | HNewtype | HTuple (len : N) | HStruct.

(** [TrackingVisitor] and [VisitingDeserialize], lines 1125-1319, and the visitors of
    the other tests: [TKeys m] reads the keys with the method [m] (lines 2054-2099);
    [TOnlyValue], [TTwoKeys] and [TOnlyKey] are used by [use_map_access!]
    (2434-2488); [TIgnoresEnum] is the visitor of [assert_ignored_enum_variant_panic]
    (2717-2753); [TNestedStruct] deserializes the struct [Nested] of [nesting_limit].
    The value is the list of all calls. *)
Inductive tstate : Type :=
| TSeed (m : method)
| TVisitor
| TBetween (first last : visited)
| TSeq (so_far : list visited)
| TMap (so_far : list visited)
| TMapValue (so_far : list visited)
| TVariant (so_far : list visited)
| TReturn (r : derr + list visited)
| TKeys (m : method)
| TKeysValue (key : list visited)
| TKeysLast (key : list visited)
| TOnlyValue | TTwoKeys | TSecondKey | TOnlyKey
| TIgnoresEnum (consume_variant_name : bool)
| TWith (m : method) (vis : tstate)
| TVecVec | TVec (inner : tstate) (so_far : list visited)
| TNestedStruct | TNestedFields (so_far : list visited) | TNestedValue (so_far : list visited) | TNestedOption.

Definition between (first last : visited) (r : derr + list visited) : derr + list visited :=
  match r with inr l => inr (first :: l ++ [last]) | inl e => inl e end.
Definition go_on {A : Type} (f : A -> tstate) (r : derr + A) : tstate :=
  match r with inr a => f a | inl e => TReturn (inl e) end.

Definition tracking (h : variant_handling) : code (list visited) tstate := {|
  deserialize st :=
    match st with
    | TSeed m => SaCall m TVisitor id
    | TBetween a b => SaCall MAny TVisitor (between a b)
    | TWith m vis => SaCall m vis id
    | TVecVec => SaCall MSeq (TVec (TWith MSeq (TVec TNestedStruct [])) []) id
    | TNestedStruct => SaCall MStruct (TNestedFields []) id
    | TNestedOption => SaCall MOption TNestedOption id
    | _ => SaResult (inl (DeCustom 0))
    end;
  visit_data st x := inr [Vis x];
  visit_some st := match st with TNestedOption => TNestedStruct | _ => TBetween SomeStart SomeEnd end;
  visit_newtype st := TBetween NewtypeStructStart NewtypeStructEnd;
  visit_seq st :=
    let next inner (go : list visited -> tstate) so_far :=
      SqNext inner (go_on (fun o =>
        match o with
        | Some l => go (so_far ++ l)
        | None => TReturn (inr (SeqStart :: so_far ++ [SeqEnd]))
        end)) in
    match st with
    | TVisitor => next (TSeed MAny) TSeq []
    | TSeq so_far => next (TSeed MAny) TSeq so_far
    | TVec inner so_far => next inner (TVec inner) so_far
    | TReturn r => SqDone r
    | _ => SqDone (inl (DeCustom 0))
    end;
  visit_map st :=
    let key seed (go : list visited -> tstate) so_far :=
      MpKey seed (go_on (fun o =>
        match o with
        | Some l => go (so_far ++ l)
        | None => TReturn (inr (MapStart :: so_far ++ [MapEnd]))
        end)) in
    match st with
    | TVisitor => key (TSeed MAny) TMapValue []
    | TMap so_far => key (TSeed MAny) TMapValue so_far
    | TMapValue so_far => MpValue (TSeed MAny) (go_on (fun l => TMap (so_far ++ l)))
    | TKeys m => MpKey (TSeed m) (go_on (fun o => match o with Some l => TKeysValue l | None => TReturn (inl (DeCustom 0)) end))
    | TKeysValue l => MpValue (TSeed MBool) (go_on (fun _ => TKeysLast l))
    | TKeysLast l => MpKey (TSeed MString) (go_on (fun o => match o with Some _ => TReturn (inl (DeCustom 0)) | None => TReturn (inr l) end))
    | TOnlyValue => MpValue (TSeed MString) TReturn
    | TTwoKeys => MpKey (TSeed MString) (go_on (fun _ => TSecondKey))
    | TSecondKey => MpKey (TSeed MString) (go_on (fun _ => TReturn (inr [])))
    | TOnlyKey => MpKey (TSeed MString) (go_on (fun _ => TReturn (inr [])))
    | TNestedFields so_far => key (TSeed MIdentifier) TNestedValue so_far
    | TNestedValue so_far => MpValue TNestedOption (go_on (fun l => TNestedFields (so_far ++ l)))
    | TReturn r => MpDone r
    | _ => MpDone (inl (DeCustom 0))
    end;
  visit_enum st :=
    match st with
    | TVisitor => EnVariant (TSeed MAny) TVariant inl
    | TIgnoresEnum true => EnVariant (TSeed MString) (fun _ => TReturn (inr [])) inl
    | TIgnoresEnum false => EnDone (inr [])
    | _ => EnDone (inl (DeCustom 0))
    end;
  with_variant st :=
    match st with
    | TVariant l =>
      match h with
      | HUnit => VaUnit (fun r => match r with inr _ => inr (EnumStart :: l ++ [EnumEnd]) | inl e => inl e end)
      | HNewtype => VaNewtype (TSeed MAny) (fun r => match r with inr x => inr (EnumStart :: l ++ x ++ [EnumEnd]) | inl e => inl e end)
      | HTuple len => VaTuple len TVisitor (fun r => match r with inr x => inr (EnumStart :: l ++ x ++ [EnumEnd]) | inl e => inl e end)
      | HStruct => VaStruct TVisitor (fun r => match r with inr x => inr (EnumStart :: l ++ x ++ [EnumEnd]) | inl e => inl e end)
      end
    | TReturn r => VaDone r
    | _ => VaDone (inl (DeCustom 0))
    end
|}.

(** How deserializing ends *)
Definition ends_with (h : variant_handling) (limit : N) (json : bytes) (seed : tstate) (x : dend (list visited)) : Prop :=
  match client_session default_settings [EvData json] (around [] (deserialize_with_limit (tracking h) 1000 limit seed) [CConsumeTrailingWhitespace]) with
  | Some (_, y, os) => y = x /\ match x with DRet (inr _) => os = [OOk RUnit] | _ => True end
  | None => False
  end.
(** [assert_deserialized_enum!], lines 1336-1361; [assert_deserialize_error!], 1451-1468 *)
Definition deserialized_enum (h : variant_handling) (json : bytes) (m : method) (calls : list visited) : Prop :=
  ends_with h 128 json (TSeed m) (DRet (inr calls)).
Definition error_enum (h : variant_handling) (json : bytes) (m : method) (e : derr) : Prop :=
  ends_with h 128 json (TSeed m) (DRet (inl e)).
Definition deserialized (json : string) (m : method) (calls : list visited) : Prop := deserialized_enum HUnit (txt json) m calls.
Definition error (json : string) (m : method) (e : derr) : Prop := error_enum HUnit (txt json) m e.
Definition start : position := Position (Some []) 0 0 0.

Ltac run_test :=
  lazymatch goal with |- _ /\ _ => apply conj; run_test | |- _ => vm_compute; first [reflexivity|repeat (apply conj); first [reflexivity|exact I]] end.

(** [deserialize_any], lines 1480-1533 *)
Example test_deserialize_any :
  deserialized "[1]" MAny [SeqStart; Vis (ViInt U64 1); SeqEnd] /\
  deserialized "{""a"": 1}" MAny [MapStart; Vis (ViStr (txt "a")); Vis (ViInt U64 1); MapEnd] /\
  deserialized """test""" MAny [Vis (ViString (txt "test"))] /\
  deserialized "true" MAny [Vis (ViBool true)] /\
  deserialized "null" MAny [Vis ViUnit] /\
  deserialized "-1" MAny [Vis (ViInt I64 (-1))] /\
  deserialized "1" MAny [Vis (ViInt U64 1)] /\
  deserialized "-9223372036854775809" MAny [Vis (ViInt I128 (-9223372036854775809))] /\
  deserialized "18446744073709551616" MAny [Vis (ViInt U128 18446744073709551616)] /\
  deserialized "1.0" MAny [Vis (ViFloat F64 (txt "1.0"))] /\
  deserialized "1e1" MAny [Vis (ViFloat F64 (txt "1e1"))] /\
  deserialized "1E1" MAny [Vis (ViFloat F64 (txt "1E1"))] /\
  error "-170141183460469231731687303715884105729" MAny DeInvalidNumber /\
  error "340282366920938463463374607431768211456" MAny DeInvalidNumber.
Proof. run_test. Qed.

(** [deserialize_bool], lines 1535-1548 *)
Example test_deserialize_bool :
  deserialized "true" MBool [Vis (ViBool true)] /\ deserialized "false" MBool [Vis (ViBool false)] /\
  error "1" MBool (DeReader (EUnexpectedType TBoolean TNumber start)).
Proof. run_test. Qed.

(** [assert_min_max_deserialization!] and the tests of integers, lines 1550-1691 *)
Definition min_max (t : int_type) (min max below above : string) (zmin zmax : Z) : Prop :=
  deserialized min (MInt t) [Vis (ViInt t zmin)] /\ deserialized max (MInt t) [Vis (ViInt t zmax)] /\
  error below (MInt t) DeInvalidNumber /\ error above (MInt t) DeInvalidNumber /\
  error "true" (MInt t) (DeReader (EUnexpectedType TNumber TBoolean start)).
Example test_deserialize_int :
  min_max I8 "-128" "127" "-129" "128" (-128) 127 /\
  min_max I16 "-32768" "32767" "-32769" "32768" (-32768) 32767 /\
  min_max I32 "-2147483648" "2147483647" "-2147483649" "2147483648" (-2147483648) 2147483647 /\
  min_max I64 "-9223372036854775808" "9223372036854775807" "-9223372036854775809" "9223372036854775808" (-9223372036854775808) 9223372036854775807 /\
  deserialized "-3" (MInt I64) [Vis (ViInt I64 (-3))] /\
  min_max I128 "-170141183460469231731687303715884105728" "170141183460469231731687303715884105727"
    "-170141183460469231731687303715884105729" "170141183460469231731687303715884105728"
    (-170141183460469231731687303715884105728) 170141183460469231731687303715884105727 /\
  min_max U8 "0" "255" "-1" "256" 0 255 /\
  min_max U16 "0" "65535" "-1" "65536" 0 65535 /\
  min_max U32 "0" "4294967295" "-1" "4294967296" 0 4294967295 /\
  min_max U64 "0" "18446744073709551615" "-1" "18446744073709551616" 0 18446744073709551615 /\
  deserialized "3" (MInt U64) [Vis (ViInt U64 3)] /\
  min_max U128 "0" "340282366920938463463374607431768211455" "-1" "340282366920938463463374607431768211456"
    0 340282366920938463463374607431768211455.
Proof. unfold min_max. run_test. Qed.

(** [deserialize_f32] and [deserialize_f64], lines 1693-1767 *)
Example test_deserialize_float :
  deserialized "-0.0" (MFloat F32) [Vis (ViFloat F32 (txt "-0.0"))] /\
  deserialized "123e-45" (MFloat F32) [Vis (ViFloat F32 (txt "123e-45"))] /\
  error "true" (MFloat F32) (DeReader (EUnexpectedType TNumber TBoolean start)) /\
  deserialized "-0.0" (MFloat F64) [Vis (ViFloat F64 (txt "-0.0"))] /\
  deserialized "123e-45" (MFloat F64) [Vis (ViFloat F64 (txt "123e-45"))] /\
  error "true" (MFloat F64) (DeReader (EUnexpectedType TNumber TBoolean start)).
Proof. run_test. Qed.

(** [deserialize_char], [deserialize_str], [deserialize_string] and
    [deserialize_identifier], lines 1769-1802 *)
Definition string_method (m : method) (vis : str -> visit) : Prop :=
  deserialized """""" m [Vis (vis [])] /\ deserialized """a""" m [Vis (vis (txt "a"))] /\
  deserialized """\u0000""" m [Vis (vis [0])] /\
  deserialized_enum HUnit (encode_utf8 [0x22; 0x10FFFF; 0x22]) m [Vis (vis [0x10FFFF])] /\
  error "true" m (DeReader (EUnexpectedType TString TBoolean start)).
Example test_deserialize_string :
  string_method MChar ViStr /\ string_method MStr ViStr /\ string_method MString ViString /\ string_method MIdentifier ViStr.
Proof. unfold string_method. run_test. Qed.

(** [deserialize_bytes] and [deserialize_byte_buf], lines 1804-1855 *)
Definition bytes_method (m : method) (vis : bytes -> visit) : Prop :=
  deserialized """""" m [Vis (vis [])] /\ deserialized """a""" m [Vis (vis (txt "a"))] /\
  deserialized """\u0000""" m [Vis (vis [0])] /\
  deserialized_enum HUnit (encode_utf8 [0x22; 0x10FFFF; 0x22]) m [Vis (vis (encode_utf8 [0x10FFFF]))] /\
  deserialized "[1, 2]" m [SeqStart; Vis (ViInt U64 1); Vis (ViInt U64 2); SeqEnd] /\
  deserialized "[true]" m [SeqStart; Vis (ViBool true); SeqEnd] /\
  error """\uD800""" m (DeReader (ESyntax UnpairedSurrogatePairEscapeSequence (Position (Some []) 0 1 1))) /\
  error_enum HUnit [0x22; 0x80; 0x22] m (DeReader (EIo IoInvalidUtf8 (Position (Some []) 0 1 1))) /\
  error "true" m (DeInvalidType (UnType TBoolean)).
Example test_deserialize_bytes : bytes_method MBytes ViBytes /\ bytes_method MByteBuf ViByteBuf.
Proof. unfold bytes_method. run_test. Qed.

(** [deserialize_option] to [deserialize_newtype_struct], lines 1857-1915 *)
Example test_deserialize_option :
  deserialized "null" MOption [Vis ViNone] /\ deserialized "true" MOption [SomeStart; Vis (ViBool true); SomeEnd].
Proof. run_test. Qed.
Example test_deserialize_unit :
  deserialized "null" MUnit [Vis ViUnit] /\ error "true" MUnit (DeReader (EUnexpectedType TNull TBoolean start)) /\
  deserialized "null" MUnitStruct [Vis ViUnit] /\ error "true" MUnitStruct (DeReader (EUnexpectedType TNull TBoolean start)).
Proof. run_test. Qed.
Example test_deserialize_newtype_struct :
  deserialized "true" MNewtypeStruct [NewtypeStructStart; Vis (ViBool true); NewtypeStructEnd].
Proof. run_test. Qed.

(** [deserialize_seq], lines 1917-1944 *)
Example test_deserialize_seq :
  deserialized "[]" MSeq [SeqStart; SeqEnd] /\
  deserialized "[1]" MSeq [SeqStart; Vis (ViInt U64 1); SeqEnd] /\
  deserialized "[1, 2]" MSeq [SeqStart; Vis (ViInt U64 1); Vis (ViInt U64 2); SeqEnd] /\
  error "true" MSeq (DeReader (EUnexpectedType TArray TBoolean start)).
Proof. run_test. Qed.

(** [deserialize_tuple] and [deserialize_tuple_struct], lines 1946-2050 *)
Definition tuple_method (m : N -> method) : Prop :=
  deserialized "[]" (m 0) [SeqStart; SeqEnd] /\
  deserialized "[1]" (m 1) [SeqStart; Vis (ViInt U64 1); SeqEnd] /\
  deserialized "[1, 2]" (m 2) [SeqStart; Vis (ViInt U64 1); Vis (ViInt U64 2); SeqEnd] /\
  error "[1]" (m 0) (DeInvalidLength 1 0) /\
  error "[]" (m 1) (DeInvalidLength 0 1) /\
  error "true" (m 1) (DeReader (EUnexpectedType TArray TBoolean start)).
Example test_deserialize_tuple : tuple_method MTuple /\ tuple_method MTupleStruct.
Proof. unfold tuple_method. run_test. Qed.

(** [deserialize_map::deserialize], lines 2057-2104 *)
Example test_deserialize_map :
  deserialized "{}" MMap [MapStart; MapEnd] /\
  deserialized "{""a"": 1}" MMap [MapStart; Vis (ViStr (txt "a")); Vis (ViInt U64 1); MapEnd] /\
  deserialized "{""1"": 1, ""true"": 2}" MMap
    [MapStart; Vis (ViStr (txt "1")); Vis (ViInt U64 1); Vis (ViStr (txt "true")); Vis (ViInt U64 2); MapEnd] /\
  deserialized "{""a"": 1, ""a"": 2}" MMap
    [MapStart; Vis (ViStr (txt "a")); Vis (ViInt U64 1); Vis (ViStr (txt "a")); Vis (ViInt U64 2); MapEnd] /\
  error "true" MMap (DeReader (EUnexpectedType TObject TBoolean start)).
Proof. run_test. Qed.

(** [deserialize_map::string_key_conversion], lines 2106-2432 *)
Definition key_ends (key : string) (m : method) (x : derr + list visited) : Prop :=
  ends_with HUnit 128 (txt "{""" ++ txt key ++ txt """: true}") (TWith MMap (TKeys m)) (DRet x).
Example test_string_key_conversion :
  key_ends "true" MBool (inr [Vis (ViBool true)]) /\
  key_ends "false" MBool (inr [Vis (ViBool false)]) /\
  key_ends "1" (MInt I8) (inr [Vis (ViInt I8 1)]) /\
  key_ends "5" (MInt U128) (inr [Vis (ViInt U128 5)]) /\
  key_ends "1.2" (MFloat F32) (inr [Vis (ViFloat F32 (txt "1.2"))]) /\
  key_ends "4.5e-6" (MFloat F64) (inr [Vis (ViFloat F64 (txt "4.5e-6"))]) /\
  key_ends "true" MOption (inr [SomeStart; Vis (ViStr (txt "true")); SomeEnd]) /\
  key_ends "abc" MBytes (inr [Vis (ViBytes (txt "abc"))]) /\
  key_ends "abc" MByteBuf (inr [Vis (ViBytes (txt "abc"))]) /\
  key_ends "abc" MNewtypeStruct (inr [NewtypeStructStart; Vis (ViStr (txt "abc")); NewtypeStructEnd]) /\
  key_ends "abc" MEnum (inr [EnumStart; Vis (ViStr (txt "abc")); EnumEnd]) /\
  key_ends "abc" MSeq (inr [Vis (ViStr (txt "abc"))]) /\
  key_ends "abc" MMap (inr [Vis (ViStr (txt "abc"))]) /\
  key_ends "abc" MIgnoredAny (inr [Vis (ViStr (txt "abc"))]) /\
  key_ends "text" MBool (inl (DeInvalidType (UnStr (txt "text")))) /\
  key_ends "text" (MInt I32) (inl DeInvalidNumber) /\
  key_ends "NaN" (MFloat F32) (inl DeInvalidNumber) /\
  key_ends "-5" (MInt U128) (inl DeInvalidNumber) /\
  key_ends "001" (MInt U32) (inl DeInvalidNumber) /\
  key_ends ".1" (MFloat F32) (inl DeInvalidNumber).
Proof. run_test. Qed.

(** [deserialize_map::unexpected_value], [unexpected_key] and [end_missing_value], lines 2463-2488 *)
Example test_map_misuse :
  let json := txt "{""key"": ""value""}" in
  ends_with HUnit 128 json (TWith MMap TOnlyValue) (DPanic Misuse) /\
  ends_with HUnit 128 json (TWith MMap TTwoKeys) (DPanic Misuse) /\
  ends_with HUnit 128 json (TWith MMap TOnlyKey) (DPanic Misuse).
Proof. cbv zeta. run_test. Qed.

(** [deserialize_struct], lines 2491-2554 *)
Example test_deserialize_struct :
  deserialized "[]" MStruct [SeqStart; SeqEnd] /\
  deserialized "[1]" MStruct [SeqStart; Vis (ViInt U64 1); SeqEnd] /\
  deserialized "{}" MStruct [MapStart; MapEnd] /\
  deserialized "{""a"": 1}" MStruct [MapStart; Vis (ViStr (txt "a")); Vis (ViInt U64 1); MapEnd] /\
  deserialized "{""a"": 1, ""a"": 2}" MStruct
    [MapStart; Vis (ViStr (txt "a")); Vis (ViInt U64 1); Vis (ViStr (txt "a")); Vis (ViInt U64 2); MapEnd] /\
  deserialized "{""unknown"": 1}" MStruct [MapStart; Vis (ViStr (txt "unknown")); Vis (ViInt U64 1); MapEnd] /\
  error "true" MStruct (DeInvalidType (UnType TBoolean)).
Proof. run_test. Qed.

(** [deserialize_enum_object], lines 2556-2715 *)
Example test_deserialize_enum_object :
  deserialized "{""a"": null}" MEnum [EnumStart; Vis (ViStr (txt "a")); EnumEnd] /\
  deserialized "{""unknown"": null}" MEnum [EnumStart; Vis (ViStr (txt "unknown")); EnumEnd] /\
  error "{}" MEnum (DeReader (EUnexpectedStructure FewerElementsThanExpected (Position (Some [PName (txt "<?>")]) 0 1 1))) /\
  error "{""a"": null, ""a"": 1}" MEnum (DeReader (EUnexpectedStructure MoreElementsThanExpected (Position (Some [PName (txt "a")]) 0 12 12))) /\
  error "{""a"": 1}" MEnum (DeReader (EUnexpectedType TNull TNumber (Position (Some [PName (txt "a")]) 0 6 6))) /\
  deserialized_enum HNewtype (txt "{""a"": 1}") MEnum [EnumStart; Vis (ViStr (txt "a")); Vis (ViInt U64 1); EnumEnd] /\
  deserialized_enum (HTuple 1) (txt "{""a"": [1]}") MEnum
    [EnumStart; Vis (ViStr (txt "a")); SeqStart; Vis (ViInt U64 1); SeqEnd; EnumEnd] /\
  error_enum (HTuple 1) (txt "{""a"": []}") MEnum (DeInvalidLength 0 1) /\
  error_enum (HTuple 1) (txt "{""a"": 1}") MEnum (DeReader (EUnexpectedType TArray TNumber (Position (Some [PName (txt "a")]) 0 6 6))) /\
  deserialized_enum HStruct (txt "{""a"": [1]}") MEnum
    [EnumStart; Vis (ViStr (txt "a")); SeqStart; Vis (ViInt U64 1); SeqEnd; EnumEnd] /\
  deserialized_enum HStruct (txt "{""a"": {""f"": 1}}") MEnum
    [EnumStart; Vis (ViStr (txt "a")); MapStart; Vis (ViStr (txt "f")); Vis (ViInt U64 1); MapEnd; EnumEnd] /\
  deserialized_enum HStruct (txt "{""a"": {""unknown"": 1}}") MEnum
    [EnumStart; Vis (ViStr (txt "a")); MapStart; Vis (ViStr (txt "unknown")); Vis (ViInt U64 1); MapEnd; EnumEnd] /\
  error_enum HStruct (txt "{""a"": 1}") MEnum (DeInvalidType (UnType TNumber)) /\
  error "true" MEnum (DeInvalidType (UnType TBoolean)).
Proof. run_test. Qed.

(** [deserialize_enum_object_variant_ignored] and others, lines 2755-2765, 2816-2826 *)
Example test_enum_variant_ignored :
  let ignores json consume := ends_with HUnit 128 (txt json) (TWith MEnum (TIgnoresEnum consume)) (DPanic Misuse) in
  ignores "{""a"": 1}"%string false /\ ignores "{""a"": 1}"%string true /\
  ignores """a"""%string false /\ ignores """a"""%string true.
Proof. cbv zeta. run_test. Qed.

(** [deserialize_enum_unit], lines 2767-2814 *)
Example test_deserialize_enum_unit :
  deserialized """a""" MEnum [EnumStart; Vis (ViString (txt "a")); EnumEnd] /\
  deserialized """unknown""" MEnum [EnumStart; Vis (ViString (txt "unknown")); EnumEnd] /\
  error_enum HNewtype (txt """a""") MEnum (DeInvalidType UnUnitVariant) /\
  error_enum (HTuple 1) (txt """a""") MEnum (DeInvalidType UnUnitVariant) /\
  error_enum HStruct (txt """a""") MEnum (DeInvalidType UnUnitVariant).
Proof. run_test. Qed.

(** [deserialize_ignored_any], lines 2828-2834 *)
Example test_deserialize_ignored_any :
  deserialized "null" MIgnoredAny [Vis ViUnit] /\ deserialized "true" MIgnoredAny [Vis ViUnit] /\
  deserialized "1" MIgnoredAny [Vis ViUnit] /\ deserialized """test""" MIgnoredAny [Vis ViUnit] /\
  deserialized "[]" MIgnoredAny [Vis ViUnit] /\ deserialized "{}" MIgnoredAny [Vis ViUnit].
Proof. run_test. Qed.

(** [nesting_limit], lines 2836-2905 *)
Definition nested (inner : list visited) : list visited := [MapStart; Vis (ViStr (txt "n"))] ++ inner ++ [MapEnd].
Example test_nesting_limit :
  ends_with HUnit 4 (txt "[[], [{""n"": null}], [{""n"": {""n"": null}}]]") TVecVec
    (DRet (inr ([SeqStart; SeqStart; SeqEnd; SeqStart] ++ nested [Vis ViNone] ++ [SeqEnd; SeqStart] ++ nested (nested [Vis ViNone]) ++ [SeqEnd; SeqEnd]))) /\
  ends_with HUnit 4 (txt "[[{""n"": {""n"": {""n"": null}}}]]") TVecVec (DRet (inl (DeMaxNesting 4))) /\
  ends_with HUnit 128 (rep 128 (txt "{""n"":") ++ txt "null" ++ rep 128 (txt "}")) TNestedStruct
    (DRet (inr (rep 128 [MapStart; Vis (ViStr (txt "n"))] ++ [Vis ViNone] ++ rep 128 [MapEnd]))) /\
  ends_with HUnit 128 (rep 129 (txt "{""n"":") ++ txt "null" ++ rep 129 (txt "}")) TNestedStruct (DRet (inl (DeMaxNesting 128))).
Proof. run_test. Qed.
