(** * Properties of orderly closures of the simple writer and implementations of [Serialize] (C62) *)

From Coq Require Import String.
From Verif Require Import Base Utf8Model SpecJson WriterModel SpecWriter SimpleWriterModel SpecSimpleWriter SpecOrderlyWriter
  OrderlyWriterFinal.
From Verif Require SerModel SpecSer.
Local Open Scope list_scope.


(** C62: whatever the underlying Write does (short writes, errors at any point), with all
settings, every method of the simple writer returns if its closures follow the rules of
SpecOrderlyWriter: it does not panic.  The closures need not care about errors of the writer,
they may ignore them and continue. *)
Theorem C62_orderly_closures_never_panic : forall (R : Type) (cfg : wsettings) (out : sink) (o : wop R),
  received out = [] -> valid_wop o -> orderly_write o ->
  exists (x : option R) (e : wresulting), fst (simple_write cfg out o) = ERet (x, e).
Proof. exact C62_orderly_closures_never_panic_holds. Qed.
Print Assumptions C62_orderly_closures_never_panic.
(** A closure which ignores all errors: of a number which is not valid, of an inner string
    whose closure passes on the errors of the writer, and of a map *)
Definition ignoring_closure : wop nat :=
  WObject
    (OWrite (MMember [0x61] (MWrite
       (WArray (AWrite (WNumberString [0x31]) (fun _ _ => AWrite WNull (fun _ _ => ADone 1%nat None)))) (fun _ _ => (2%nat, None))))
     (fun _ _ => OWrite (MValue [0x62] (WStringWith (SWWriteStr [0x78] (fun e => SWDone 3%nat e))))
     (fun _ _ => OWrite (MValue [0x63] (WSerialize (SerModel.SvMap None (SpecSer.entries_then [(SerModel.SvInt 1, SerModel.SvNone)] SerModel.EnEnd))))
     (fun _ _ => ODone 4%nat None)))).
(** Sinks which accept everything, fail at once, or fail when they are flushed *)
Definition some_sinks : list sink := [Sink [] [] [] 0; Sink [] [SErr 5] [] 0; Sink [] [] [Some 6] 0].
Example C62_case :
  valid_wop ignoring_closure /\ orderly_write ignoring_closure /\ Forall (fun out => received out = []) some_sinks /\
  map (fun out => let (x, out') := simple_write default_wsettings out ignoring_closure in (x, received out')) some_sinks =
  [(ERet (Some 4%nat, None), bytes_of_string "{""a"":[1,null],""b"":""x"",""c"":{""1"":null}}"%string);
   (ERet (Some 4%nat, Some (WeIo (WSink 5))), []);
   (ERet (Some 4%nat, Some (WeIo (WSink 6))), bytes_of_string "{""a"":[1,null],""b"":""x"",""c"":{""1"":null}}"%string)].
Proof.
  assert (Hc : forall c, c < 0x80 -> Forall is_char [c]) by (intros c Hc; constructor; [left; lia|constructor]).
  split; [|split; [|split]].
  - cbn. repeat match goal with
    | |- _ /\ _ => split
    | |- forall _, _ => intros
    | |- Forall is_char _ => apply Hc; reflexivity
    | |- True => exact I
    | |- SpecSer.valid_entries match ?r with _ => _ end => destruct r; cbn
    end.
  - cbn. repeat match goal with
    | |- _ /\ _ => split
    | |- exists _, _ => eexists; reflexivity
    | |- _ \/ _ => left
    | |- orderly_value _ => split; cbn
    | |- forall _, _ => intros; cbn
    | |- _ = _ => reflexivity
    | |- True => exact I
    end.
  - repeat constructor.
  - vm_compute. reflexivity.
Qed.


(** C62: the rule about the errors of closures is needed.  The closure for the member ends with an
error of its own, the closure of the object ignores it: the call which closes the object panics,
although the Write never fails.  (If the error was ignored by a closure for an array instead, the document
would become incomplete, see C40_later_calls_fail_refuted.) *)
Theorem C62_ignoring_own_errors_refuted : exists (m : member nat) (f : obody nat) (cfg : wsettings) (out : sink),
  m = MMember [0x61] (MDone 1%nat (Some (WeCustom 7))) /\
  f = OWrite m (fun _ _ => ODone 2%nat None) /\
  valid_wop (WObject f) /\ orderly_member m /\ reliable out /\ received out = [] /\
  fst (simple_write cfg out (WObject f)) = EPanic Misuse /\
  fst (simple_write cfg out (WObject (OWrite m (fun _ e => ODone 2%nat e)))) = ERet (Some 2%nat, Some (WeCustom 7)).
Proof. exact C62_ignoring_own_errors_refuted_holds. Qed.
Print Assumptions C62_ignoring_own_errors_refuted.
(** C62: a value whose Serialize implementation follows the rules can be serialized wherever a value is
allowed, whatever the Write does: serialize_value returns Ok or an error.  After Ok the writer can be used as after
any other value: calls which are allowed then do not panic. *)
Theorem C62_orderly_values_never_panic : forall (cfg : wsettings) (out : sink) (before : list wcall) (rs : list wresult) (s : wsession) (d : wdoc) (v : SerModel.sval),
  received out = [] -> Forall valid_call before -> wrun cfg before (new_session out) = (rs, s) -> Forall2 success before rs ->
  describes_all (multi_top_level cfg) empty_doc before d -> value_allowed (multi_top_level cfg) d ->
  SpecSer.valid_sval v -> orderly_value v ->
  exists (r : SerModel.sres unit) (s' : wsession), SerModel.ser_run cfg (SerModel.ser_value v) s = (ERet r, s') /\
    forall (c : wcall) (k : panic), r = SerModel.SrOk tt -> valid_call c ->
      (exists j, SpecSer.value_means v (SpecSer.Gives j) /\ ~ misuse (multi_top_level cfg) (add_value j d) c) ->
      fst (wstep cfg c s') <> RPanic k.
Proof. exact C62_orderly_values_never_panic_holds. Qed.
Print Assumptions C62_orderly_values_never_panic.
(** A map with a struct as value, inside of an array; afterwards the array can be closed *)
Definition small_map : SerModel.sval :=
  SerModel.SvMap None (SpecSer.entries_then [(SerModel.SvInt 1, SerModel.SvUnit)] SerModel.EnEnd).
Definition in_array : list wresult * wsession := wrun default_wsettings [CBeginArray; CNull] (new_session (Sink [] [] [] 0)).
Definition map_written : wend (SerModel.sres unit) * wsession :=
  SerModel.ser_run default_wsettings (SerModel.ser_value small_map) (snd in_array).
Example C62_value_case :
  SpecSer.valid_sval small_map /\ orderly_value small_map /\ fst in_array = [RDone; RDone] /\
  describes_all false empty_doc [CBeginArray; CNull] (Wdoc [] [OpenArr [JNull]] None) /\
  value_allowed false (Wdoc [] [OpenArr [JNull]] None) /\
  fst map_written = ERet (SerModel.SrOk tt) /\ fst (wstep default_wsettings CEndArray (snd map_written)) = RDone.
Proof.
  split; [|split; [|split; [|split; [|split; [|split]]]]].
  - cbn. split; [exact I|]. intros [e|]; cbn; [exact I|]. split; [exact I|]. intros [e|]; cbn; exact I.
  - split; cbn; repeat match goal with
    | |- _ /\ _ => split
    | |- exists _, _ => eexists; reflexivity
    | |- forall _, _ => intros; cbn
    | |- _ = _ => reflexivity
    | |- True => exact I
    end.
  - vm_compute. reflexivity.
  - econstructor; [apply D_begin_array; split; [reflexivity|left; reflexivity]|].
    econstructor; [apply D_null; split; [reflexivity|exact I]|]. constructor.
  - split; [reflexivity|exact I].
  - vm_compute. reflexivity.
  - vm_compute. reflexivity.
Qed.


(** C62: both rules for values are needed.  A map whose implementation serializes a value without a key, and one which
ignores that the key is not possible, cause a panic at the start of a document. *)
Theorem C62_disorderly_values_refuted : exists (v w : SerModel.sval) (cfg : wsettings) (out : sink),
  v = SerModel.SvMap None (SerModel.EnValue (SerModel.SvBool true) (fun r => match r with None => SerModel.EnEnd | Some e => SerModel.EnAbort e end)) /\
  w = SerModel.SvMap None (SerModel.EnKey SerModel.SvUnit (fun _ => SerModel.EnValue (SerModel.SvBool true) (fun r => match r with None => SerModel.EnEnd | Some e => SerModel.EnAbort e end))) /\
  SpecSer.valid_sval v /\ SpecSer.valid_sval w /\ SpecSer.careful v /\ alternates w /\ received out = [] /\ reliable out /\
  fst (SerModel.ser_run cfg (SerModel.ser_value v) (new_session out)) = EPanic Misuse /\
  fst (SerModel.ser_run cfg (SerModel.ser_value w) (new_session out)) = EPanic Misuse.
Proof. exact C62_disorderly_values_refuted_holds. Qed.
Print Assumptions C62_disorderly_values_refuted.
