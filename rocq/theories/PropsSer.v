(** * Properties of the serde serializer (C42 - C44) *)

From Coq Require Import String.
From Verif Require Import Base Utf8Model SpecNumber SpecJson WriterModel SpecWriter WClientModel SerModel SpecSer
  SerFinal PropsWriter.

(** C42: the serializer writes exactly the data which the value stands for, at any place
of a document where a value is allowed; the writer can be used normally before and
afterwards. *)
Theorem C42_serializer_writes_the_data : forall (cfg : wsettings) (out : sink) (before after : list wcall) (d d' : wdoc) (v : sval) (j : json),
  received out = [] -> reliable out -> Forall valid_call before -> Forall valid_call after -> valid_sval v ->
  value_means v (Gives j) ->
  describes_all (multi_top_level cfg) empty_doc before d -> value_allowed (multi_top_level cfg) d ->
  describes_all (multi_top_level cfg) (add_value j d) after d' -> complete d' ->
  exists rs1 rs2 out', serialize_between cfg out before v after = (rs1, ERet (SrOk tt), rs2, RDone, out') /\
    Forall2 success before rs1 /\ Forall2 success after rs2 /\ received out' = documents_layout cfg (d_top d').
Proof. exact C42_serializer_writes_the_data_holds. Qed.
Print Assumptions C42_serializer_writes_the_data.
Example C42_case : (* a struct with an option, a byte array and an enum, inside of an array *)
  let v := SvStruct [0x53] 3 (fields_of [([0x61], SvSome (SvFloat (Some [0x30; 0x2E; 0x35]))); ([0x62], SvBytes [0; 255]);
             ([0x63], SvStructVariant [0x45] 1 [0x56] 1 (fields_of [([0x78], SvNone)]))]) in
  valid_sval v /\ careful v /\ reliable fast_sink /\
  let '(rs1, x, rs2, r, out') := serialize_between compact_cfg fast_sink [CBeginArray; CNull] v [CBool true; CEndArray] in
  (rs1, x, rs2, r) = ([RDone; RDone], ERet (SrOk tt), [RDone; RDone], RDone) /\
  received out' = bytes_of_string "[null,{""a"":0.5,""b"":[0,255],""c"":{""V"":{""x"":null}}},true]"%string.
Proof.
  intros v. split; [|split; [|split]].
  - assert (Hn : number_text (encode_utf8 [0x30; 0x2E; 0x35])).
    { exists 0%nat, [], [0x30], [0x2E; 0x35], []. repeat split; auto.
      - left. reflexivity.
      - right. exists [0x35]. repeat split; [discriminate|]. repeat constructor; discriminate.
      - left. auto. }
    unfold v. repeat (cbn -[encode_utf8 number_text]; match goal with |- _ /\ _ => split | |- forall _ : option serr, _ => intros [] end);
      try exact Hn; try exact I; repeat (apply Forall_cons; [first [reflexivity|left; reflexivity]|]); apply Forall_nil.
  - unfold v. repeat (cbn; match goal with |- _ /\ _ => split | |- True => exact I | |- forall e, exists _, _ => intros e; exists e; reflexivity end).
  - split; repeat constructor.
  - vm_compute. auto.
Qed.

(** C42: the result is always the one which the value stands for: [Ok], the error, or the
panic. *)
Theorem C42_result_is_the_meaning : forall (cfg : wsettings) (out : sink) (before : list wcall) (d : wdoc) (v : sval) (o : outcome json),
  received out = [] -> reliable out -> Forall valid_call before -> valid_sval v ->
  describes_all (multi_top_level cfg) empty_doc before d -> value_allowed (multi_top_level cfg) d ->
  value_means v o ->
  exists rs s x s', wrun cfg before (new_session out) = (rs, s) /\ ser_run cfg (ser_value v) s = (x, s') /\ agrees o x.
Proof. exact C42_result_is_the_meaning_holds. Qed.
Print Assumptions C42_result_is_the_meaning.
(** C42: whatever the sink does, if all calls succeed then the document has been written
completely and contains the data of the value.  The implementations of [Serialize] have to
return when they get an error ([careful]). *)
Theorem C42_success_means_written : forall (cfg : wsettings) (out out' : sink) (before after : list wcall) (v : sval) (rs1 rs2 : list wresult),
  received out = [] -> Forall valid_call before -> Forall valid_call after -> valid_sval v -> careful v ->
  serialize_between cfg out before v after = (rs1, ERet (SrOk tt), rs2, RDone, out') ->
  Forall2 success before rs1 -> Forall2 success after rs2 ->
  exists d j d', describes_all (multi_top_level cfg) empty_doc before d /\ value_means v (Gives j) /\
    describes_all (multi_top_level cfg) (add_value j d) after d' /\ complete d' /\ received out' = documents_layout cfg (d_top d').
Proof. exact C42_success_means_written_holds. Qed.
Print Assumptions C42_success_means_written.
(** C42: every value whose implementation of [Serialize] returns when it gets an error has
exactly one meaning.  If the sink fails, then the result is either the same or an error. *)
Theorem C42_result_with_failing_sink : forall (cfg : wsettings) (out : sink) (before : list wcall) (d : wdoc) (v : sval) (rs : list wresult) (s : wsession),
  received out = [] -> Forall valid_call before -> valid_sval v -> careful v ->
  wrun cfg before (new_session out) = (rs, s) -> Forall2 success before rs ->
  describes_all (multi_top_level cfg) empty_doc before d -> value_allowed (multi_top_level cfg) d ->
  exists o, value_means v o /\ (forall o', value_means v o' -> o' = o) /\
    (agrees o (fst (ser_run cfg (ser_value v) s)) \/ (~ reliable out /\ exists e, fst (ser_run cfg (ser_value v) s) = ERet (SrErr e))).
Proof. exact C42_result_with_failing_sink_holds. Qed.
Print Assumptions C42_result_with_failing_sink.
(** C43: a value which announces [n] elements and serializes the elements [vs]: the result is
[Ok] exactly if there are [n], otherwise an error with the expected and the actual
number; one element too many is reported immediately, so the actual number is [n + 1] then. *)
Theorem C43_number_of_elements : forall (cfg : wsettings) (out : sink) (before : list wcall) (d : wdoc) (v : sval) (n : N) (vs : list sval) (wrap : list json -> json) (js : list json),
  received out = [] -> reliable out -> Forall valid_call before -> valid_sval v ->
  describes_all (multi_top_level cfg) empty_doc before d -> value_allowed (multi_top_level cfg) d ->
  announces_elements v n (elems_of vs) wrap ->
  Forall2 (fun v j => value_means v (Gives j)) vs js ->
  value_means v (counted_outcome n (N.of_nat (length vs)) (wrap js)) /\
  exists rs s x s', wrun cfg before (new_session out) = (rs, s) /\ ser_run cfg (ser_value v) s = (x, s') /\
    agrees (counted_outcome n (N.of_nat (length vs)) (wrap js)) x.
Proof. exact C43_number_of_elements_holds. Qed.
Print Assumptions C43_number_of_elements.
(** C43: the same for the fields of a struct or struct variant. *)
Theorem C43_number_of_fields : forall (cfg : wsettings) (out : sink) (before : list wcall) (d : wdoc) (v : sval) (n : N) (fs : list (str * sval)) (wrap : list (str * json) -> json)
    (ms : list (str * json)),
  received out = [] -> reliable out -> Forall valid_call before -> valid_sval v ->
  describes_all (multi_top_level cfg) empty_doc before d -> value_allowed (multi_top_level cfg) d ->
  announces_fields v n (fields_of fs) wrap ->
  Forall2 (fun f m => fst m = fst f /\ value_means (snd f) (Gives (snd m))) fs ms ->
  value_means v (counted_outcome n (N.of_nat (length fs)) (wrap ms)) /\
  exists rs s x s', wrun cfg before (new_session out) = (rs, s) /\ ser_run cfg (ser_value v) s = (x, s') /\
    agrees (counted_outcome n (N.of_nat (length fs)) (wrap ms)) x.
Proof. exact C43_number_of_fields_holds. Qed.
Print Assumptions C43_number_of_fields.
(** C43: the same for the entries of a map. *)
Theorem C43_number_of_entries : forall (cfg : wsettings) (out : sink) (before : list wcall) (d : wdoc) (v : sval) (n : N) (es : list (sval * sval)) (wrap : list (str * json) -> json)
    (ms : list (str * json)),
  received out = [] -> reliable out -> Forall valid_call before -> valid_sval v ->
  describes_all (multi_top_level cfg) empty_doc before d -> value_allowed (multi_top_level cfg) d ->
  announces_entries v n (entries_then es EnEnd) wrap ->
  Forall2 (fun e m => key_means (fst e) (Gives (fst m)) /\ value_means (snd e) (Gives (snd m))) es ms ->
  value_means v (counted_outcome n (N.of_nat (length es)) (wrap ms)) /\
  exists rs s x s', wrun cfg before (new_session out) = (rs, s) /\ ser_run cfg (ser_value v) s = (x, s') /\
    agrees (counted_outcome n (N.of_nat (length es)) (wrap ms)) x.
Proof. exact C43_number_of_entries_holds. Qed.
Print Assumptions C43_number_of_entries.
Example C43_case : (* a tuple of two elements which announces more, less, or the right number *)
  let vs := [SvInt (-5); SvTuple 1 (elems_of [SvStr [0x61]])] in
  let run n := let '(_, x, _, r, out') := serialize_between compact_cfg fast_sink [] (SvTuple n (elems_of vs)) [] in (x, r, received out') in
  run 3 = (ERet (SrErr (SeCount 3 2)), RPanic Misuse, []) /\
  run 1 = (ERet (SrErr (SeCount 1 2)), RPanic Misuse, []) /\
  run 2 = (ERet (SrOk tt), RDone, bytes_of_string "[-5,[""a""]]"%string).
Proof. vm_compute. auto. Qed.
Example C43_meaning_case : forall n, announces_elements (SvTuple n (elems_of [SvNone; SvBool true])) n (elems_of [SvNone; SvBool true]) JArr /\
  Forall2 (fun v j => value_means v (Gives j)) [SvNone; SvBool true] [JNull; JBool true].
Proof. repeat constructor. Qed.

(** C43: whatever the implementation of [Serialize] does, what has been serialized successfully
has the announced number of elements. *)
Theorem C43_success_means_announced_number : forall (cfg : wsettings) (out out' : sink) (before after : list wcall) (v : sval) (n : N) (rs1 rs2 : list wresult),
  received out = [] -> Forall valid_call before -> Forall valid_call after -> valid_sval v -> careful v ->
  serialize_between cfg out before v after = (rs1, ERet (SrOk tt), rs2, RDone, out') ->
  Forall2 success before rs1 -> Forall2 success after rs2 ->
  (forall b wrap, announces_elements v n b wrap -> exists js, value_means v (Gives (wrap js)) /\ N.of_nat (length js) = n) /\
  (forall b wrap, announces_entries v n b wrap -> exists ms, value_means v (Gives (wrap ms)) /\ N.of_nat (length ms) = n) /\
  (forall b wrap, announces_fields v n b wrap -> exists ms, value_means v (Gives (wrap ms)) /\ N.of_nat (length ms) = n).
Proof. exact C43_success_means_announced_number_holds. Qed.
Print Assumptions C43_success_means_announced_number.
(** C44: a map is written as an object with a member for each entry, in order and including
duplicate names, whose name is that of the key. *)
Theorem C44_map_is_written_as_object : forall (cfg : wsettings) (out : sink) (es : list (sval * sval)) (ms : list (str * json)) (len : option N),
  received out = [] -> reliable out -> valid_sval (SvMap len (entries_then es EnEnd)) ->
  len = None \/ len = Some (N.of_nat (length es)) ->
  Forall2 (fun e m => key_means (fst e) (Gives (fst m)) /\ value_means (snd e) (Gives (snd m))) es ms ->
  exists out', serialize_between cfg out [] (SvMap len (entries_then es EnEnd)) [] = ([], ERet (SrOk tt), [], RDone, out') /\
    received out' = layout cfg 0 (JObj ms).
Proof. exact C44_map_is_written_as_object_holds. Qed.
Print Assumptions C44_map_is_written_as_object.
(** C44: a key which has no name is reported as an error, whatever follows. *)
Theorem C44_unsuitable_key_is_an_error : forall (cfg : wsettings) (out : sink) (before : list wcall) (d : wdoc) (len : option N) (es : list (sval * sval)) (ms : list (str * json))
    (key v : sval) (rest : list (sval * sval)) (e : serr),
  received out = [] -> reliable out -> Forall valid_call before -> valid_sval (SvMap len (entries_then (es ++ (key, v) :: rest) EnEnd)) ->
  describes_all (multi_top_level cfg) empty_doc before d -> value_allowed (multi_top_level cfg) d ->
  len = None \/ len = Some (N.of_nat (length (es ++ (key, v) :: rest))) ->
  Forall2 (fun e m => key_means (fst e) (Gives (fst m)) /\ value_means (snd e) (Gives (snd m))) es ms ->
  key_means key (Fails e) ->
  exists rs s s', wrun cfg before (new_session out) = (rs, s) /\
    ser_run cfg (ser_value (SvMap len (entries_then (es ++ (key, v) :: rest) EnEnd))) s = (ERet (SrErr e), s').
Proof. exact C44_unsuitable_key_is_an_error_holds. Qed.
Print Assumptions C44_unsuitable_key_is_an_error.
(** C44: after complete entries, calling [serialize_value] without [serialize_key], or
[serialize_key] or [end] where the value is missing, panics. *)
Theorem C44_key_and_value_alternate : forall (cfg : wsettings) (out : sink) (before : list wcall) (d : wdoc) (len : option N) (es : list (sval * sval)) (ms : list (str * json)) (b : entries),
  received out = [] -> reliable out -> Forall valid_call before -> valid_sval (SvMap len (entries_then es b)) ->
  describes_all (multi_top_level cfg) empty_doc before d -> value_allowed (multi_top_level cfg) d ->
  (forall n, len = Some n -> N.of_nat (length es) < n) ->
  Forall2 (fun e m => key_means (fst e) (Gives (fst m)) /\ value_means (snd e) (Gives (snd m))) es ms ->
  (exists v k, b = EnValue v k) \/
  (exists v k name, b = EnKey v k /\ key_means v (Gives name) /\ (k None = EnEnd \/ exists v' k', k None = EnKey v' k')) ->
  exists rs s s', wrun cfg before (new_session out) = (rs, s) /\
    ser_run cfg (ser_value (SvMap len (entries_then es b))) s = (EPanic Misuse, s').
Proof. exact C44_key_and_value_alternate_holds. Qed.
Print Assumptions C44_key_and_value_alternate.
Example C44_case : (* keys of several kinds *)
  let es := [(SvInt (-5), SvUnit); (SvBool true, SvBool false); (SvSome (SvChar 0x61), SvInt 1); (SvUnitVariant [] 0 [0x42], SvInt 2)] in
  let run b := let '(_, x, _, r, out') := serialize_between compact_cfg fast_sink [] (SvMap None (entries_then es b)) [] in (x, r, received out') in
  run EnEnd = (ERet (SrOk tt), RDone, bytes_of_string "{""-5"":null,""true"":false,""a"":1,""B"":2}"%string) /\
  run (entries_then [(SvUnit, SvUnit)] EnEnd) =
    (ERet (SrErr SeKeyNotString), RPanic Misuse, []) /\
  run (EnKey (SvStr []) (fun _ => EnEnd)) = (EPanic Misuse, RPanic Misuse, []).
Proof. vm_compute. auto. Qed.

