(** * Properties of the writer: C01, C02, C08 to C14 and C16 *)

From Verif Require Import Base Utf8Model SpecNumber SpecJson WriterModel SpecWriter WriterFinal.

(** A sink which accepts at most [k] bytes per call, and is interrupted *)
Definition slow_sink : sink := Sink [] [SAccept 1; SInterrupted; SAccept 3; SInterrupted; SAccept 2] [] 0.
Definition fast_sink : sink := Sink [] [] [] 0.
Definition pretty_cfg : wsettings := WSettings true true true None.
Definition compact_cfg : wsettings := WSettings false true true None.


(** C01: [number_value_from_string] reports InvalidNumber exactly for the
    strings which are not a number of the JSON grammar, in every state. *)
Theorem C01_number_validation_exact : forall (cfg : wsettings) (s : wsession) (v : str), Forall is_char v ->
  (fst (wstep cfg (CNumberFromString v) s) = RInvalidNumber <-> ~ number_text (encode_utf8 v)).
Proof. exact C01_number_validation_exact_holds. Qed.
Print Assumptions C01_number_validation_exact.
Example C01_examples :
  fst (wstep compact_cfg (CNumberFromString [0x2D; 0x30; 0x2E; 0x35]) (new_session fast_sink)) = RDone /\
  fst (wstep compact_cfg (CNumberFromString [0x30; 0x31]) (new_session fast_sink)) = RInvalidNumber /\
  fst (wstep compact_cfg (CNumberFromString []) (new_session fast_sink)) = RInvalidNumber.
Proof. vm_compute. auto. Qed.


(** C01: where a value is allowed, a number string is written verbatim: it
    becomes a number with exactly this text (how the text is embedded in the
    document is C12). *)
Theorem C01_number_written_verbatim : forall (cfg : wsettings) (out : sink) (v : str), Forall is_char v -> received out = [] -> reliable out ->
  number_text (encode_utf8 v) ->
  exists s out', wrun cfg [CNumberFromString v] (new_session out) = ([RDone], s) /\
    wfinish s = (RDone, out') /\ received out' = encode_utf8 v.
Proof. exact C01_number_written_verbatim_holds. Qed.
Print Assumptions C01_number_written_verbatim.
Example C01_verbatim_case : number_text (encode_utf8 [0x2D; 0x30; 0x2E; 0x35; 0x45; 0x2B; 0x30; 0x37]) /\ reliable slow_sink.
Proof.
  split; [|split; repeat constructor; discriminate].
  exists 1%nat, [0x2D], [0x30], [0x2E; 0x35], [0x45; 0x2B; 0x30; 0x37]. repeat split; auto.
  - left. reflexivity.
  - right. exists [0x35]. repeat split; [discriminate|]. repeat constructor; discriminate.
  - right. exists 0x45, [0x2B], [0x30; 0x37]. repeat split; auto; [discriminate|]. repeat constructor; discriminate.
Qed.


(** C02: an invalid number string leaves the writer unchanged, whatever its
    state is and wherever in the document it is. *)
Theorem C02_invalid_number_no_effect : forall (cfg : wsettings) (s : wsession) (v : str), ~ number_text (encode_utf8 v) ->
  wstep cfg (CNumberFromString v) s = (RInvalidNumber, Wsession (ws_writer s) None).
Proof. exact C02_invalid_number_no_effect_holds. Qed.
Print Assumptions C02_invalid_number_no_effect.
(** C02: all later calls have the results they have without it. *)
Theorem C02_invalid_number_skippable : forall (cfg : wsettings) (s : wsession) (v : str) (cs : list wcall),
  ~ number_text (encode_utf8 v) -> ws_string s = None ->
  wrun cfg (CNumberFromString v :: cs) s = (RInvalidNumber :: fst (wrun cfg cs s), snd (wrun cfg cs s)).
Proof. exact C02_invalid_number_skippable_holds. Qed.
Print Assumptions C02_invalid_number_skippable.
Example C02_case : (* inside an object where a name is expected *)
  let s := snd (wrun compact_cfg [CBeginObject] (new_session fast_sink)) in
  ws_string s = None /\
  fst (wrun compact_cfg [CNumberFromString [0x2E]; CName [0x61]; CNull; CEndObject] s) = [RInvalidNumber; RDone; RDone; RDone] /\
  fst (wstep compact_cfg (CNumberFromString [0x31]) s) = RPanic Misuse.
Proof. vm_compute. auto. Qed.


(** C08 (writer): when a write (or flush) on a string value writer has failed,
    every later write fails without anything being written, and so does finishing it. *)
Theorem C08_string_writer_errors_sticky : forall (cfg : wsettings) (s s1 : wsession) (c : wcall) (e : werr) (cs : list wcall),
  string_piece c -> wstep cfg c s = (RError e, s1) -> Forall string_piece cs ->
  exists rs, wrun cfg cs s1 = (rs, s1) /\ length rs = length cs /\ Forall (fun r => exists e', r = RError e') rs /\
  exists e', wstep cfg CFinishValue s1 = (RError e', Wsession (ws_writer s1) None).
Proof. exact C08_string_writer_errors_sticky_holds. Qed.
Print Assumptions C08_string_writer_errors_sticky.
Example C08_writer_case : (* an invalid byte, then valid ones *)
  let s := snd (wrun compact_cfg [CStringWriter; CWrite [0x61; 0xC3]] (new_session fast_sink)) in
  fst (wstep compact_cfg (CWrite [0x28]) s) = RError WInvalidData /\
  fst (wrun compact_cfg [CWrite [0x62]; CWriteStr [0x63]; CFlush; CFinishValue] (snd (wstep compact_cfg (CWrite [0x28]) s)))
    = [RError (WPrevious WInvalidData); RError (WPrevious WInvalidData); RError (WPrevious WInvalidData); RError (WPrevious WInvalidData)].
Proof. vm_compute. auto. Qed.


(** C08 (writer): then the document cannot be finished either; [finish_document] panics. *)
Theorem C08_failed_string_not_finished : forall (cfg : wsettings) (out : sink) (cs : list wcall) (c : wcall) (e : werr) (s1 : wsession),
  Forall valid_call cs -> valid_call c -> string_piece c ->
  Forall (fun r => forall k, r <> RPanic k) (fst (wrun cfg cs (new_session out))) ->
  wstep cfg c (snd (wrun cfg cs (new_session out))) = (RError e, s1) ->
  fst (wfinish s1) = RPanic Misuse /\ fst (wfinish (snd (wstep cfg CFinishValue s1))) = RPanic Misuse.
Proof. exact C08_failed_string_not_finished_holds. Qed.
Print Assumptions C08_failed_string_not_finished.
Example C08_not_finished_case :
  let s := snd (wrun compact_cfg [CStringWriter; CWrite [0x61; 0xC3]; CWrite [0x28]; CFinishValue] (new_session fast_sink)) in
  fst (wfinish s) = RPanic Misuse.
Proof. vm_compute. reflexivity. Qed.


(** C09: the literal written for a string denotes this string by the JSON
    grammar, for every combination of settings. *)
Theorem C09_written_string_denotes_string : forall (cfg : wsettings) (out : sink) (v : str), Forall is_char v -> received out = [] -> reliable out ->
  exists s out', wrun cfg [CString v] (new_session out) = ([RDone], s) /\ wfinish s = (RDone, out') /\
    value_text rfc8259 (JStr v) (received out').
Proof. exact C09_written_string_denotes_string_holds. Qed.
Print Assumptions C09_written_string_denotes_string.
Example C09_case : Forall is_char [0x61; 0x22; 0x5C; 0x0A; 0x01; 0x7F; 0xE9; 0x2028; 0x1F600] /\ reliable slow_sink.
Proof.
  split; [repeat (apply Forall_cons; [unfold is_char; lia|]); constructor|].
  split; repeat (constructor; try discriminate).
Qed.


(** C10: the output for a string is a quote, one piece for each character and a
    quote.  A piece is the UTF-8 encoding of the character itself exactly if the
    character needs no escape under the given settings; otherwise it is an escape
    sequence of ASCII characters which starts with a backslash. *)
Theorem C10_escape_settings_respected : forall (cfg : wsettings) (out : sink) (v : str), Forall is_char v -> received out = [] -> reliable out ->
  exists s out' pieces, wrun cfg [CString v] (new_session out) = ([RDone], s) /\ wfinish s = (RDone, out') /\
    received out' = [0x22] ++ concat pieces ++ [0x22] /\
    Forall2 (fun (c : char) (piece : bytes) =>
      let needs_escape := c = 0x22 \/ c = 0x5C \/ c < 0x20 \/
          (escape_all_non_ascii cfg = true /\ 0x80 <= c) \/
          (escape_all_control_chars cfg = true /\ (c = 0x7F \/ 0x80 <= c < 0xA0)) in
      (~ needs_escape -> piece = encode_char c) /\
      (needs_escape -> exists b rest, piece = 0x5C :: b :: rest /\ Forall (fun x => 0x20 < x < 0x7F) piece /\
         (rest = [] \/ b = 0x75))) v pieces.
Proof. exact C10_escape_settings_respected_holds. Qed.
Print Assumptions C10_escape_settings_respected.
Example C10_case :
  received (snd (wfinish (snd (wrun pretty_cfg [CString [0x61; 0x22; 0x7F; 0x1F600]] (new_session slow_sink)))))
  = [0x22; 0x61; 0x5C; 0x22; 0x5C; 0x75; 0x30; 0x30; 0x37; 0x46; 0x5C; 0x75; 0x44; 0x38; 0x33; 0x44; 0x5C; 0x75; 0x44; 0x45; 0x30; 0x30; 0x22].
Proof. vm_compute. reflexivity. Qed.


(** C11: however the UTF-8 bytes of a string are split into calls of the string
    value writer (in the middle of characters, empty pieces and flushes included),
    all calls succeed and the finished document is that of one [string_value]
    call.  The string can be anywhere in a document. *)
Theorem C11_string_writer_chunks : forall (cfg : wsettings) (out1 out2 : sink) (cs1 cs2 ws : list wcall) (v : str) (d : wdoc),
  received out1 = [] -> reliable out1 -> received out2 = [] -> reliable out2 ->
  Forall valid_call cs1 -> Forall valid_call cs2 -> Forall valid_call ws ->
  Forall string_piece ws -> write_str_between_chars ws -> written ws = encode_utf8 v -> Forall is_char v ->
  describes_all (multi_top_level cfg) empty_doc (cs1 ++ [CString v] ++ cs2) d -> complete d ->
  exists rs1 rs2 s1 s2 out1' out2',
    wrun cfg (cs1 ++ [CString v] ++ cs2) (new_session out1) = (rs1, s1) /\
    wrun cfg (cs1 ++ (CStringWriter :: ws ++ [CFinishValue]) ++ cs2) (new_session out2) = (rs2, s2) /\
    Forall2 success (cs1 ++ [CString v] ++ cs2) rs1 /\
    Forall2 success (cs1 ++ (CStringWriter :: ws ++ [CFinishValue]) ++ cs2) rs2 /\
    wfinish s1 = (RDone, out1') /\ wfinish s2 = (RDone, out2') /\ received out1' = received out2'.
Proof. exact C11_string_writer_chunks_holds. Qed.
Print Assumptions C11_string_writer_chunks.
Example C11_case : (* [1, "a<e9><1F600>"], the characters split *)
  let ws := [CWrite [0x61; 0xC3]; CWrite []; CFlush; CWrite [0xA9]; CWriteStr []; CWrite [0xF0; 0x9F]; CWrite [0x98]; CWrite [0x80]] in
  written ws = encode_utf8 [0x61; 0xE9; 0x1F600] /\ write_str_between_chars ws /\
  describes_all false empty_doc ([CBeginArray; CNull] ++ [CString [0x61; 0xE9; 0x1F600]] ++ [CEndArray])
    (Wdoc [JArr [JNull; JStr [0x61; 0xE9; 0x1F600]]] [] None).
Proof.
  cbv zeta. split; [reflexivity|split].
  - intros ws1 s ws2 E.
    repeat (destruct ws1 as [|? ws1]; [try discriminate; injection E as <- <-; vm_compute; discriminate|injection E as <- E]).
    destruct ws1; discriminate.
  - econstructor; [apply D_begin_array; split; cbn; auto|]. econstructor; [apply D_null; split; cbn; auto|].
    econstructor; [apply D_string; split; cbn; auto|]. econstructor; [eapply D_end_array; reflexivity|]. constructor.
Qed.


(** C11: if the bytes written to a string value writer are not UTF-8, then the
    calls including [finish_value] are never all successful, for every sink. *)
Theorem C11_invalid_utf8_never_finished : forall (cfg : wsettings) (out : sink) (ws : list wcall) (rs : list wresult) (s : wsession),
  received out = [] -> Forall valid_call ws -> Forall string_piece ws -> from_utf8 (written ws) = None ->
  wrun cfg (CStringWriter :: ws ++ [CFinishValue]) (new_session out) = (rs, s) ->
  ~ Forall2 success (CStringWriter :: ws ++ [CFinishValue]) rs.
Proof. exact C11_invalid_utf8_never_finished_holds. Qed.
Print Assumptions C11_invalid_utf8_never_finished.
Example C11_invalid_case : from_utf8 (written [CWrite [0xE2; 0x82]; CWrite [0x61]]) = None /\
  fst (wrun compact_cfg [CStringWriter; CWrite [0xE2; 0x82]; CWrite [0x61]] (new_session fast_sink)) = [RDone; RCount 2; RError WInvalidData].
Proof. vm_compute. auto. Qed.


(** C12: if all calls and [finish_document] succeed, the calls describe a
    complete document, and what the sink received (and was flushed) is a valid
    RFC 8259 document for its data; with a separator for multiple top-level values,
    it is one valid text for each of them, joined by the separator. *)
Theorem C12_finished_document_valid : forall (cfg : wsettings) (out out' : sink) (cs : list wcall) (rs : list wresult) (s : wsession),
  received out = [] -> Forall valid_call cs ->
  wrun cfg cs (new_session out) = (rs, s) -> Forall2 success cs rs -> wfinish s = (RDone, out') ->
  exists d, describes_all (multi_top_level cfg) empty_doc cs d /\ complete d /\
    (exists texts, received out' = join (separator cfg) texts /\ Forall2 (value_text rfc8259) (d_top d) texts) /\
    (multi_top_level cfg = false -> exists v, d_top d = [v] /\ rfc8259_document v (received out')) /\
    flushes out' > 0.
Proof. exact C12_finished_document_valid_holds. Qed.
Print Assumptions C12_finished_document_valid.
(** C12: the data described by calls is unique. *)
Theorem C12_described_data_unique : forall (multi : bool) (cs : list wcall) (d1 d2 : wdoc),
  describes_all multi empty_doc cs d1 -> describes_all multi empty_doc cs d2 -> d1 = d2.
Proof. exact C12_described_data_unique_holds. Qed.
Print Assumptions C12_described_data_unique.
Example C12_case :
  let cs := [CBeginObject; CName [0x61]; CBeginArray; CNumber (-12); CBool true; CEndArray; CName [0x62];
             CStringWriter; CWrite [0xC3]; CWrite [0xA9]; CFinishValue; CEndObject] in
  let (rs, s) := wrun pretty_cfg cs (new_session slow_sink) in
  let (r, out) := wfinish s in
  r = RDone /\ rs = [RDone; RDone; RDone; RDone; RDone; RDone; RDone; RDone; RCount 1; RCount 1; RDone; RDone] /\
  length (received out) = 51%nat.
Proof. vm_compute. auto. Qed.


(** C13: when all calls so far were successful, the next call of the JSON writer
    panics exactly if it is not allowed at this point of the document; no call
    panics otherwise.  This is independent of the sink. *)
Theorem C13_panics_exactly_for_misuse : forall (cfg : wsettings) (out : sink) (cs : list wcall) (rs : list wresult) (s : wsession) (d : wdoc) (c : wcall),
  received out = [] -> Forall valid_call cs -> valid_call c ->
  wrun cfg cs (new_session out) = (rs, s) -> Forall2 success cs rs ->
  describes_all (multi_top_level cfg) empty_doc cs d ->
  (fst (wstep cfg c s) = RPanic Misuse <-> misuse (multi_top_level cfg) d c) /\
  fst (wstep cfg c s) <> RPanic Bug /\
  (fst (wfinish s) = RPanic Misuse <-> ~ complete d).
Proof. exact C13_panics_exactly_for_misuse_holds. Qed.
Print Assumptions C13_panics_exactly_for_misuse.
Example C13_case : (* a name is expected: values and the end of an array are rejected *)
  let s := snd (wrun compact_cfg [CBeginArray; CBeginObject] (new_session fast_sink)) in
  fst (wstep compact_cfg CNull s) = RPanic Misuse /\ fst (wstep compact_cfg CEndArray s) = RPanic Misuse /\
  fst (wstep compact_cfg CEndObject s) = RDone /\ fst (wfinish s) = RPanic Misuse.
Proof. vm_compute. auto. Qed.


(** C13: calls which are allowed succeed, and the document can be finished when it is complete. *)
Theorem C13_correct_usage_succeeds : forall (cfg : wsettings) (out : sink) (cs : list wcall) (d : wdoc),
  received out = [] -> reliable out -> Forall valid_call cs ->
  describes_all (multi_top_level cfg) empty_doc cs d -> complete d ->
  exists rs s out', wrun cfg cs (new_session out) = (rs, s) /\ Forall2 success cs rs /\ wfinish s = (RDone, out').
Proof. exact C13_correct_usage_succeeds_holds. Qed.
Print Assumptions C13_correct_usage_succeeds.
(** C13: calls which all succeed describe a document, except when a string value
    writer was dropped unfinished (which only an invalid number shows without a
    panic); then the document can not be finished and no value be added. *)
Theorem C13_success_is_described : forall (cfg : wsettings) (out : sink) (cs : list wcall) (rs : list wresult) (s : wsession),
  received out = [] -> Forall valid_call cs ->
  wrun cfg cs (new_session out) = (rs, s) -> Forall2 success cs rs ->
  (exists d, describes_all (multi_top_level cfg) empty_doc cs d) \/
  (fst (wfinish s) = RPanic Misuse /\
   forall c, valid_call c -> In (fst (wstep cfg c s)) [RPanic Misuse; RInvalidNumber; RInexpressible]).
Proof. exact C13_success_is_described_holds. Qed.
Print Assumptions C13_success_is_described.
Example C13_success_case :
  let (rs, s) := wrun compact_cfg [CBeginArray; CStringWriter; CNumberFromString [0x2E]] (new_session fast_sink) in
  rs = [RDone; RDone; RInvalidNumber] /\ fst (wfinish s) = RPanic Misuse.
Proof. vm_compute. auto. Qed.


(** C13: for every history of calls, also after errors, and every sink, there is
    no other panic (failing assertion, index out of range, [unreachable]). *)
Theorem C13_no_internal_panic : forall (cfg : wsettings) (out : sink) (cs : list wcall), Forall valid_call cs ->
  Forall (fun r => r <> RPanic Bug /\ r <> RNoFuel) (fst (wrun cfg cs (new_session out))) /\
  fst (wfinish (snd (wrun cfg cs (new_session out)))) <> RPanic Bug /\
  fst (wfinish (snd (wrun cfg cs (new_session out)))) <> RNoFuel.
Proof. exact C13_no_internal_panic_holds. Qed.
Print Assumptions C13_no_internal_panic.
Example C13_no_internal_case : (* also with a failing sink and calls after the failure *)
  fst (wrun pretty_cfg [CBeginArray; CStringWriter; CFlush; CWrite [0x61]; CFinishValue; CNull]
         (new_session (Sink [] [SErr 7] [] 0)))
  = [RDone; RDone; RError (WSink 7); RError (WPrevious (WSink 7)); RError (WPrevious (WSink 7)); RPanic Misuse].
Proof. vm_compute. reflexivity. Qed.


(** C14: for two reliable sinks (short writes, interruptions) all results and
    the finished documents are the same, for every sequence of calls. *)
Theorem C14_sink_independent : forall (cfg : wsettings) (out1 out2 : sink) (cs : list wcall),
  received out1 = [] -> reliable out1 -> received out2 = [] -> reliable out2 ->
  fst (wrun cfg cs (new_session out1)) = fst (wrun cfg cs (new_session out2)) /\
  (let s1 := snd (wrun cfg cs (new_session out1)) in
   let s2 := snd (wrun cfg cs (new_session out2)) in
   fst (wfinish s1) = fst (wfinish s2) /\
   (fst (wfinish s1) = RDone -> received (snd (wfinish s1)) = received (snd (wfinish s2)))).
Proof. exact C14_sink_independent_holds. Qed.
Print Assumptions C14_sink_independent.
Example C14_case : reliable slow_sink /\ reliable fast_sink /\
  let cs := [CBeginArray; CNull; CStringWriter; CWrite [0x61]; CFlush; CFinishValue; CBool true; CEndArray] in
  received (snd (wfinish (snd (wrun compact_cfg cs (new_session slow_sink))))) = received (snd (wfinish (snd (wrun compact_cfg cs (new_session fast_sink))))) /\
  write_resps (snd (wfinish (snd (wrun compact_cfg cs (new_session slow_sink))))) = [].
Proof. split; [split; repeat (constructor; try discriminate)|split; [split; constructor|vm_compute; auto]]. Qed.


(** C14: if a call, or finishing, fails because of the sink, what the sink
    received is a prefix of the document, for every way the document could have
    been completed. *)
Theorem C14_sink_failure_prefix : forall (cfg : wsettings) (out : sink) (cs cs2 : list wcall) (c : wcall) (rs : list wresult) (s s1 : wsession) (e : werr) (d d2 : wdoc),
  received out = [] -> Forall valid_call cs -> valid_call c -> Forall valid_call cs2 ->
  wrun cfg cs (new_session out) = (rs, s) -> Forall2 success cs rs ->
  describes_all (multi_top_level cfg) empty_doc cs d ->
  wstep cfg c s = (RError e, s1) ->
  describes_all (multi_top_level cfg) d (c :: cs2) d2 -> complete d2 ->
  exists rest, received (w_sink (ws_writer s1)) ++ rest = documents_layout cfg (d_top d2).
Proof. exact C14_sink_failure_prefix_holds. Qed.
Print Assumptions C14_sink_failure_prefix.
(** C14: the same for a failing [finish_document]. *)
Theorem C14_finish_failure_prefix : forall (cfg : wsettings) (out out' : sink) (cs : list wcall) (rs : list wresult) (s : wsession) (e : werr),
  received out = [] -> Forall valid_call cs ->
  wrun cfg cs (new_session out) = (rs, s) -> Forall2 success cs rs -> wfinish s = (RError e, out') ->
  exists d rest, describes_all (multi_top_level cfg) empty_doc cs d /\ complete d /\
    received out' ++ rest = documents_layout cfg (d_top d).
Proof. exact C14_finish_failure_prefix_holds. Qed.
Print Assumptions C14_finish_failure_prefix.
(** C14: and a successful [finish_document] delivered exactly the document. *)
Theorem C14_success_exact : forall (cfg : wsettings) (out out' : sink) (cs : list wcall) (rs : list wresult) (s : wsession),
  received out = [] -> Forall valid_call cs ->
  wrun cfg cs (new_session out) = (rs, s) -> Forall2 success cs rs -> wfinish s = (RDone, out') ->
  exists d, describes_all (multi_top_level cfg) empty_doc cs d /\ complete d /\
    received out' = documents_layout cfg (d_top d).
Proof. exact C14_success_exact_holds. Qed.
Print Assumptions C14_success_exact.
Example C14_failure_case : (* the sink accepts two bytes and then fails *)
  let (rs, s) := wrun compact_cfg [CBeginArray; CNull; CStringWriter; CWrite [0x61]] (new_session (Sink [] [SAccept 2; SErr 7] [] 0)) in
  rs = [RDone; RDone; RDone; RCount 1] /\
  fst (wstep compact_cfg CFlush s) = RError (WSink 7) /\
  received (w_sink (ws_writer (snd (wstep compact_cfg CFlush s)))) = [0x5B; 0x6E].
Proof. vm_compute. auto. Qed.


(** C16: the same calls with and without pretty printing (all other settings
    equal): for each top-level value, removing the whitespace outside of string
    literals from the pretty printed text gives the compact text, which contains no
    such whitespace; both texts denote the same data. *)
Theorem C16_pretty_print_only_whitespace : forall (cfg1 cfg2 : wsettings) (out1 out2 out1' out2' : sink) (cs : list wcall) (rs1 rs2 : list wresult) (s1 s2 : wsession),
  cfg2 = WSettings false (escape_all_control_chars cfg1) (escape_all_non_ascii cfg1) (multi_top_level_value_separator cfg1) ->
  received out1 = [] -> received out2 = [] -> Forall valid_call cs ->
  wrun cfg1 cs (new_session out1) = (rs1, s1) -> Forall2 success cs rs1 -> wfinish s1 = (RDone, out1') ->
  wrun cfg2 cs (new_session out2) = (rs2, s2) -> Forall2 success cs rs2 -> wfinish s2 = (RDone, out2') ->
  exists values texts1 texts2,
    received out1' = join (separator cfg1) texts1 /\ received out2' = join (separator cfg1) texts2 /\
    Forall2 (value_text rfc8259) values texts1 /\ Forall2 (value_text rfc8259) values texts2 /\
    Forall2 (fun t1 t2 => strip_ws t1 = t2 /\ strip_ws t2 = t2) texts1 texts2.
Proof. exact C16_pretty_print_only_whitespace_holds. Qed.
Print Assumptions C16_pretty_print_only_whitespace.
Example C16_case :
  let cs := [CBeginObject; CName [0x61; 0x20]; CBeginArray; CNull; CBool true; CEndArray; CEndObject] in
  let o1 := received (snd (wfinish (snd (wrun pretty_cfg cs (new_session slow_sink))))) in
  let o2 := received (snd (wfinish (snd (wrun compact_cfg cs (new_session fast_sink))))) in
  (length o2 < length o1)%nat /\ strip_ws o1 = o2.
Proof. vm_compute. split; [repeat constructor|reflexivity]. Qed.

