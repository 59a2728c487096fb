(** * The tests of src/serde/ser.rs, as tests of the model

    Not proofs of properties, see TestsReader.v.  Messages of errors are not
    modelled; the text of a float is what [to_string] of it returns.
    [skip_field] is the method of [serde], which does nothing. *)

From Coq Require Import String.
From Verif Require Import Base Utf8Model NumberModel WriterModel WClientModel SerModel SpecSer.
Local Open Scope list_scope.

Notation txt := bytes_of_string (only parsing).
Definition vec_sink : sink := Sink [] [] [] 0.

(** [assert_serialized], lines 1075-1093 *)
Definition serialized (v : sval) (json : bytes) : Prop :=
  let '(_, x, _, r, out) := serialize_between default_wsettings vec_sink [] v [] in
  (x, r, received out) = (ERet (SrOk tt), RDone, json).

(** [assert_number_error] and others: how serializing fails *)
Definition ends (v : sval) (x : wend (sres unit)) : Prop :=
  fst (ser_run default_wsettings (ser_value v) (new_session vec_sink)) = x.

(** [assert_elements_count_error], lines 1174-1218 *)
Definition count_errors (serialize_none serialize_one : sval) : Prop :=
  ends serialize_none (ERet (SrErr (SeCount 1 0))) /\ ends serialize_one (ERet (SrErr (SeCount 0 1))).

Ltac run_test :=
  lazymatch goal with
  | |- _ /\ _ => apply conj; run_test
  | |- count_errors _ _ => unfold count_errors; run_test
  | |- let _ := _ in _ => intro; run_test
  | |- _ => vm_compute; reflexivity
  end.

(** [serialize_bool], lines 1220-1225 *)
Example test_serialize_bool : serialized (SvBool true) (txt "true") /\ serialized (SvBool false) (txt "false").
Proof. run_test. Qed.

(** [serialize_bytes], lines 1227-1232 *)
Example test_serialize_bytes : serialized (SvBytes []) (txt "[]") /\ serialized (SvBytes [0; 127; 255]) (txt "[0,127,255]").
Proof. run_test. Qed.

(** [serialize_char], lines 1234-1241 *)
Example test_serialize_char :
  serialized (SvChar 0x61) (txt """a""") /\ serialized (SvChar 0) (txt """\u0000""") /\
  serialized (SvChar 0x10FFFF) (encode_utf8 [0x22; 0x10FFFF; 0x22]).
Proof. run_test. Qed.

(** [serialize_f32] and [serialize_f64], lines 1243-1277 *)
Example test_serialize_float :
  serialized (SvFloat (Some (txt "0"))) (txt "0") /\
  serialized (SvFloat (Some (txt "-0"))) (txt "-0") /\
  serialized (SvFloat (Some (txt "123.45"))) (txt "123.45") /\
  ends (SvFloat None) (ERet (SrErr SeInvalidNumber)).
Proof. run_test. Qed.

(** [serialize_i8] to [serialize_u128], lines 1279-1349 *)
Example test_serialize_int :
  serialized (SvInt (-3)) (txt "-3") /\
  serialized (SvInt 3) (txt "3") /\
  serialized (SvInt (-128)) (txt "-128") /\
  serialized (SvInt 127) (txt "127") /\
  serialized (SvInt (-32768)) (txt "-32768") /\
  serialized (SvInt 32767) (txt "32767") /\
  serialized (SvInt (-2147483648)) (txt "-2147483648") /\
  serialized (SvInt 2147483647) (txt "2147483647") /\
  serialized (SvInt (-9223372036854775808)) (txt "-9223372036854775808") /\
  serialized (SvInt 9223372036854775807) (txt "9223372036854775807") /\
  serialized (SvInt (-170141183460469231731687303715884105728)) (txt "-170141183460469231731687303715884105728") /\
  serialized (SvInt 170141183460469231731687303715884105727) (txt "170141183460469231731687303715884105727") /\
  serialized (SvInt 255) (txt "255") /\
  serialized (SvInt 65535) (txt "65535") /\
  serialized (SvInt 4294967295) (txt "4294967295") /\
  serialized (SvInt 18446744073709551615) (txt "18446744073709551615") /\
  serialized (SvInt 340282366920938463463374607431768211455) (txt "340282366920938463463374607431768211455").
Proof. run_test. Qed.

(** [serialize_key] or another method fails and the result is returned *)
Definition last_key (v : sval) : entries :=
  EnKey v (fun r => match r with Some e => EnAbort e | None => EnEnd end).
Definition last_value (v : sval) : entries :=
  EnValue v (fun r => match r with Some e => EnAbort e | None => EnEnd end).
Definition map_of (len : option N) (es : list (sval * sval)) : sval := SvMap len (entries_then es EnEnd).

(** [serialize_map::serialize], lines 1354-1441 *)
Example test_serialize_map :
  serialized (map_of None []) (txt "{}") /\
  serialized (map_of None [(SvStr (txt "a"), SvInt 1)]) (txt "{""a"":1}") /\
  serialized (map_of (Some 1) [(SvStr (txt "a"), SvInt 1)]) (txt "{""a"":1}") /\
  serialized (map_of None [(SvStr (txt "a"), SvInt 1); (SvStr (txt "a"), SvInt 2)]) (txt "{""a"":1,""a"":2}") /\
  serialized (map_of None [(SvStr (txt "a"), map_of None [(SvStr (txt "b"), SvInt 1)])]) (txt "{""a"":{""b"":1}}") /\
  count_errors (map_of (Some 1) []) (SvMap (Some 0) (last_key (SvStr (txt "a")))).
Proof. run_test. Qed.

(** [serialize_map::string_key_conversion], lines 1443-1503 *)
Example test_string_key_conversion :
  serialized (map_of None
    [(SvBool true, SvInt 0); (SvBool false, SvInt 0); (SvInt 2, SvInt 0); (SvInt 3, SvInt 0); (SvFloat (Some (txt "1.23")), SvInt 0);
     (SvChar 0x61, SvInt 0); (SvSome (SvStr (txt "value")), SvInt 0); (SvUnitVariant (txt "name") 1 (txt "UnitVariant"), SvInt 0);
     (SvNewtypeStruct (txt "name") (SvStr (txt "NewtypeStruct")), SvInt 0)])
    (txt "{""true"":0,""false"":0,""2"":0,""3"":0,""1.23"":0,""a"":0,""value"":0,""UnitVariant"":0,""NewtypeStruct"":0}").
Proof. run_test. Qed.

(** [serialize_map::string_key_error], lines 1505-1555; [[1_u8]] is serialized as tuple *)
Example test_string_key_error :
  let vec := SvSeq (Some 1) (elems_of [SvStr (txt "a")]) in
  ends (SvMap None (last_key (SvFloat None))) (ERet (SrErr SeInvalidNumber)) /\
  ends (SvMap None (last_key (SvTuple 1 (elems_of [SvInt 1])))) (ERet (SrErr SeKeyNotString)) /\
  ends (SvMap None (last_key vec)) (ERet (SrErr SeKeyNotString)) /\
  ends (SvMap None (last_key (SvNewtypeStruct (txt "name") vec))) (ERet (SrErr SeKeyNotString)).
Proof. run_test. Qed.

(** [serialize_map::unexpected_value], [unexpected_key] and [end_missing_value], lines 1571-1595 *)
Example test_map_misuse :
  ends (SvMap None (last_value (SvInt 1))) (EPanic Misuse) /\
  ends (SvMap None (EnKey (SvStr (txt "a")) (fun r => match r with Some e => EnAbort e | None => last_key (SvStr (txt "b")) end))) (EPanic Misuse) /\
  ends (SvMap None (EnKey (SvStr (txt "a")) (fun r => match r with Some e => EnAbort e | None => EnEnd end))) (EPanic Misuse).
Proof. run_test. Qed.

(** [serialize_newtype_struct] to [serialize_some], lines 1598-1621 *)
Example test_serialize_newtype :
  serialized (SvNewtypeStruct (txt "name") (SvStr (txt "value"))) (txt """value""") /\
  serialized (SvNewtypeVariant (txt "name") 1 (txt "variant") (SvStr (txt "value"))) (txt "{""variant"":""value""}") /\
  serialized SvNone (txt "null") /\
  serialized (SvSome (SvStr (txt "value"))) (txt """value""").
Proof. run_test. Qed.

Definition last_elem (v : sval) : elems :=
  ElNext v (fun r => match r with Some e => ElAbort e | None => ElEnd end).
Definition last_field (key : str) (v : sval) : fields :=
  FiNext key v (fun r => match r with Some e => FiAbort e | None => FiEnd end).

(** [serialize_seq], lines 1623-1691 *)
Example test_serialize_seq :
  serialized (SvSeq None (elems_of [])) (txt "[]") /\
  serialized (SvSeq None (elems_of [SvInt 1])) (txt "[1]") /\
  serialized (SvSeq (Some 1) (elems_of [SvInt 1])) (txt "[1]") /\
  serialized (SvSeq None (elems_of [SvInt 1; SvInt 2])) (txt "[1,2]") /\
  serialized (SvSeq None (elems_of [SvSeq None (elems_of [SvInt 1; SvInt 2])])) (txt "[[1,2]]") /\
  count_errors (SvSeq (Some 1) ElEnd) (SvSeq (Some 0) (last_elem (SvInt 1))).
Proof. run_test. Qed.

(** [serialize_str], lines 1693-1702 *)
Example test_serialize_str :
  serialized (SvStr []) (txt """""") /\
  serialized (SvStr (txt "test")) (txt """test""") /\
  serialized (SvStr [0]) (txt """\u0000""") /\
  serialized (SvStr [0x10FFFF]) (encode_utf8 [0x22; 0x10FFFF; 0x22]).
Proof. run_test. Qed.

(** [serialize_struct], lines 1704-1744 *)
Example test_serialize_struct :
  serialized (SvStruct (txt "name") 0 (fields_of [])) (txt "{}") /\
  serialized (SvStruct (txt "name") 1 (fields_of [(txt "key", SvInt 1)])) (txt "{""key"":1}") /\
  serialized (SvStruct (txt "name") 2 (fields_of [(txt "key1", SvInt 1); (txt "key2", SvInt 2)])) (txt "{""key1"":1,""key2"":2}") /\
  count_errors (SvStruct (txt "name") 1 FiEnd) (SvStruct (txt "name") 0 (last_field (txt "key1") (SvInt 1))).
Proof. run_test. Qed.

(** [serialize_struct_variant], lines 1746-1786 *)
Example test_serialize_struct_variant :
  serialized (SvStructVariant (txt "name") 1 (txt "variant") 0 (fields_of [])) (txt "{""variant"":{}}") /\
  serialized (SvStructVariant (txt "name") 1 (txt "variant") 1 (fields_of [(txt "key", SvInt 1)])) (txt "{""variant"":{""key"":1}}") /\
  serialized (SvStructVariant (txt "name") 1 (txt "variant") 2 (fields_of [(txt "key1", SvInt 1); (txt "key2", SvInt 2)]))
    (txt "{""variant"":{""key1"":1,""key2"":2}}") /\
  count_errors (SvStructVariant (txt "name") 1 (txt "variant") 1 FiEnd)
    (SvStructVariant (txt "name") 1 (txt "variant") 0 (last_field (txt "key1") (SvInt 1))).
Proof. run_test. Qed.

(** [serialize_tuple], [serialize_tuple_struct] and [serialize_tuple_variant], lines 1788-1902 *)
Example test_serialize_tuple :
  serialized (SvTuple 0 (elems_of [])) (txt "[]") /\
  serialized (SvTuple 1 (elems_of [SvInt 1])) (txt "[1]") /\
  serialized (SvTuple 2 (elems_of [SvInt 1; SvInt 2])) (txt "[1,2]") /\
  count_errors (SvTuple 1 ElEnd) (SvTuple 0 (last_elem (SvInt 1))).
Proof. run_test. Qed.
Example test_serialize_tuple_struct :
  serialized (SvTupleStruct (txt "name") 0 (elems_of [])) (txt "[]") /\
  serialized (SvTupleStruct (txt "name") 1 (elems_of [SvInt 1])) (txt "[1]") /\
  serialized (SvTupleStruct (txt "name") 2 (elems_of [SvInt 1; SvInt 2])) (txt "[1,2]") /\
  count_errors (SvTupleStruct (txt "name") 1 ElEnd) (SvTupleStruct (txt "name") 0 (last_elem (SvInt 1))).
Proof. run_test. Qed.
Example test_serialize_tuple_variant :
  serialized (SvTupleVariant (txt "name") 0 (txt "variant") 0 (elems_of [])) (txt "{""variant"":[]}") /\
  serialized (SvTupleVariant (txt "name") 0 (txt "variant") 1 (elems_of [SvInt 1])) (txt "{""variant"":[1]}") /\
  serialized (SvTupleVariant (txt "name") 0 (txt "variant") 2 (elems_of [SvInt 1; SvInt 2])) (txt "{""variant"":[1,2]}") /\
  count_errors (SvTupleVariant (txt "name") 0 (txt "variant") 1 ElEnd) (SvTupleVariant (txt "name") 0 (txt "variant") 0 (last_elem (SvInt 1))).
Proof. run_test. Qed.

(** [serialize_unit], [serialize_unit_struct] and [serialize_unit_variant], lines 1904-1920 *)
Example test_serialize_unit :
  serialized SvUnit (txt "null") /\
  serialized (SvUnitStruct (txt "name")) (txt "null") /\
  serialized (SvUnitVariant (txt "name") 0 (txt "variant")) (txt """variant""").
Proof. run_test. Qed.

(** ** The tests of [serialize_value], src/writer/stream_writer.rs:1817-1872 *)

(** [serialize_value] *)
Example test_serialize_value :
  let v := SvStruct (txt "name") 3 (fields_of
    [(txt "a", SvInt 1); (txt "b", map_of (Some 1) [(SvStr (txt "key"), SvStr (txt "value"))]); (txt "c", SvTuple 2 (elems_of [SvInt 1; SvInt 2]))]) in
  let '(rs1, x, rs2, r, out) := serialize_between default_wsettings vec_sink [CBeginObject; CName (txt "outer")] v [CEndObject] in
  (rs1, x, rs2, r, received out) =
    ([RDone; RDone], ERet (SrOk tt), [RDone], RDone, txt "{""outer"":{""a"":1,""b"":{""key"":""value""},""c"":[1,2]}}").
Proof. run_test. Qed.
(** [serialize_value_invalid] is among the floats above; [serialize_value_no_value_expected] *)
Example test_serialize_value_no_value_expected :
  let '(rs1, x, _, _, _) := serialize_between default_wsettings vec_sink [CBeginObject] (SvStr (txt "test")) [] in
  (rs1, x) = ([RDone], EPanic Misuse).
Proof. run_test. Qed.
