(** * Properties of the underlying [Write], for programs (C14) *)

From Verif Require Import Base Utf8Model SpecJson WriterModel SpecWriter WClientModel SimpleWriterModel SpecSimpleWriter SpecSinks SinksFinal.
From Verif Require SerModel PropsWriter PropsSimpleWriter PropsSer.

(** C14, for programs which decide on each call by the results so far: as long as the [Write] does not fail, its behaviour (how many
bytes it accepts at once, [Interrupted]) has no influence on the result. *)
Theorem C14_programs_are_independent_of_the_sink : forall (A : Type) (cfg : wsettings) (out1 out2 : sink) (m : wclient A),
  received out1 = [] -> reliable out1 -> received out2 = [] -> reliable out2 ->
  fst (wclient_run cfg m (new_session out1)) = fst (wclient_run cfg m (new_session out2)).
Proof. exact C14_programs_are_independent_of_the_sink_holds. Qed.
Print Assumptions C14_programs_are_independent_of_the_sink.
(** C14, for programs, if the [Write] may fail: then one of the calls of the program reports an error which the [Write] has returned (or that it does not accept bytes), or the program has the same
result as with a [Write] which does not fail. *)
Theorem C14_programs_get_the_error_or_the_same_result : forall (A : Type) (cfg : wsettings) (out1 out2 : sink) (m : wclient A),
  received out1 = [] -> received out2 = [] -> reliable out2 ->
  fst (wclient_run cfg m (new_session out1)) = fst (wclient_run cfg m (new_session out2)) \/
  exists log u e, uses m log (fst (wclient_run cfg m (new_session out1))) /\ happens cfg (new_session out1) log /\
    In (u, RError e) log /\ error_of_the_sink out1 e.
Proof. exact C14_programs_get_the_error_or_the_same_result_holds. Qed.
Print Assumptions C14_programs_get_the_error_or_the_same_result.
(** The [Write] fails when the document is finished *)
Example C14_failing_case : let m := WCall CNull (fun _ => WFinish (fun r => r)) in let out := Sink [] [SErr 5] [] 0 in
  received out = [] /\ fst (wclient_run PropsWriter.compact_cfg m (new_session out)) = RError (WSink 5) /\
  fst (wclient_run PropsWriter.compact_cfg m (new_session PropsWriter.fast_sink)) = RDone.
Proof. split; [reflexivity|]. split; vm_compute; reflexivity. Qed.

(** C14, for the simple API, whatever the closures do: the result is the same, and if it is a success, so is what is written. *)
Theorem C14_closures_are_independent_of_the_sink : forall (R : Type) (cfg : wsettings) (out1 out2 : sink) (o : wop R),
  received out1 = [] -> reliable out1 -> received out2 = [] -> reliable out2 ->
  fst (simple_write cfg out1 o) = fst (simple_write cfg out2 o) /\
  forall x, fst (simple_write cfg out1 o) = ERet (x, None) -> received (snd (simple_write cfg out1 o)) = received (snd (simple_write cfg out2 o)).
Proof. exact C14_closures_are_independent_of_the_sink_holds. Qed.
Print Assumptions C14_closures_are_independent_of_the_sink.
(** C14, for the simple API, if the [Write] may fail: closures (which hand on the errors of the serializer) succeed only if what the
[Write] has received is what a [Write] receives which does not fail. *)
Theorem C14_closures_succeed_only_without_sink_error : forall (R : Type) (cfg : wsettings) (out1 out2 : sink) (o : wop R) (x : option R),
  received out1 = [] -> received out2 = [] -> reliable out2 -> careful_wop o ->
  fst (simple_write cfg out1 o) = ERet (x, None) ->
  fst (simple_write cfg out2 o) = ERet (x, None) /\ received (snd (simple_write cfg out1 o)) = received (snd (simple_write cfg out2 o)).
Proof. exact C14_closures_succeed_only_without_sink_error_holds. Qed.
Print Assumptions C14_closures_succeed_only_without_sink_error.
(** A [Write] which is interrupted, accepts few bytes, and would fail later *)
Example C14_closures_case : let out := Sink [] [SInterrupted; SAccept 3; SAccept 5000; SErr 5] [None; Some 6] 0 in
  received out = [] /\ ~ reliable out /\ careful_wop PropsSimpleWriter.some_object /\
  fst (simple_write PropsWriter.compact_cfg out PropsSimpleWriter.some_object) = ERet (Some O, None).
Proof.
  split; [reflexivity|]. split.
  - intros [H _]. cbn in H. do 3 apply Forall_inv_tail in H. apply Forall_inv in H. exact H.
  - split; [exact (proj1 (proj2 (proj2 PropsSimpleWriter.C40_success_case)))|vm_compute; reflexivity].
Qed.

(** C14, for [serialize_value] with other calls before and after it, for every value (also for implementations of [Serialize] which break
the rules): the results of all calls are the same, and if the document can be finished, so is what is written. *)
Theorem C14_serializing_is_independent_of_the_sink : forall (cfg : wsettings) (out1 out2 out1' out2' : sink) (before after : list wcall) (v : SerModel.sval) (rs1 rs1' rs2 rs2' : list wresult)
    (x x' : wend (SerModel.sres unit)) (r r' : wresult),
  received out1 = [] -> reliable out1 -> received out2 = [] -> reliable out2 ->
  SerModel.serialize_between cfg out1 before v after = (rs1, x, rs2, r, out1') ->
  SerModel.serialize_between cfg out2 before v after = (rs1', x', rs2', r', out2') ->
  rs1 = rs1' /\ x = x' /\ rs2 = rs2' /\ r = r' /\ (r = RDone -> received out1' = received out2').
Proof. exact C14_serializing_is_independent_of_the_sink_holds. Qed.
Print Assumptions C14_serializing_is_independent_of_the_sink.
Example C14_programs_case : received PropsWriter.slow_sink = [] /\ reliable PropsWriter.slow_sink /\ received PropsWriter.fast_sink = [] /\ reliable PropsWriter.fast_sink /\
  fst (simple_write PropsWriter.compact_cfg PropsWriter.slow_sink PropsSimpleWriter.some_object) = ERet (Some O, None) /\
  received (snd (simple_write PropsWriter.compact_cfg PropsWriter.slow_sink PropsSimpleWriter.some_object)) <> [].
Proof.
  split; [reflexivity|]. split; [split; repeat constructor; discriminate|]. split; [reflexivity|]. split; [split; constructor|].
  split; [vm_compute; reflexivity|vm_compute; discriminate].
Qed.
(** A sequence with fewer elements than announced *)
Example C14_serializing_case :
  let v := SerModel.SvSeq (Some 2) (SerModel.ElNext (SerModel.SvBool true) (fun _ => SerModel.ElEnd)) in
  exists out', SerModel.serialize_between PropsWriter.compact_cfg PropsWriter.slow_sink [] v [] = ([], ERet (SerModel.SrErr (SerModel.SeCount 2 1)), [], RPanic Misuse, out').
Proof. eexists. vm_compute. reflexivity. Qed.

