(** * Properties of copying between a reader and a writer which are in use (C63) *)

From Coq Require Import String.
From Verif Require Import Base Utf8Model SpecJson WriterModel SourceModel ReaderModel TransferModel SpecReformat SpecWriter SpecCopy CopyUsageFinal.
From Verif Require SpecUsage.
Import SpecUsage(usage, usage_start, usage_of, value_done, correct_usage, u_open).
Local Open Scope list_scope.


(** C63: copying a value to a JSON writer in use.  The reader has made the calls
before, which led to u, and a value may be read; the stream writer has made the
calls wbefore, which describe the document d, and a value may be written.  Then
transfer_to does not panic, for every input (also bytes which are no JSON, and IO
errors), and for every behaviour of the Write.  If it succeeds, then the reader
counts the value as read: calls after which are a correct usage do not panic; and
the writer counts a value as written: a call which is allowed for d with one more
value does not panic. *)
Theorem C63_copying_never_panics : forall (s : settings) (evs : list event) (before after : list rcall)
    (cfg : wsettings) (out : sink) (wbefore : list wcall) (rs : list wresult) (ws : wsession) (d : wdoc),
  Forall is_byte (fst (supplied evs)) -> received out = [] -> Forall valid_call wbefore ->
  wrun cfg wbefore (new_session out) = (rs, ws) -> Forall2 success wbefore rs ->
  describes_all (multi_top_level cfg) empty_doc wbefore d -> value_allowed (multi_top_level cfg) d ->
  exists (os1 : list outcome) (r : option (res (transfer_error wresult) unit)) (w' : wsession) (os2 : list outcome),
  transfer_session s evs (stream_writer cfg) ws before after = Some (os1, r, w', os2) /\
  forall u : usage, usage_of before os1 usage_start = Some u -> SpecUsage.value_allowed s u = true ->
  (forall k, r <> Some (Panic k)) /\ r <> Some OutOfFuel /\ r <> None /\
  (r = Some (Ok tt) ->
    (correct_usage s after os2 (value_done (u_open u) u) -> forall o k, In o os2 -> o <> OPanic k) /\
    (exists v, forall c k, valid_call c -> ~ misuse (multi_top_level cfg) (add_value v d) c -> fst (wstep cfg c w') <> RPanic k)).
Proof. exact C63_copying_never_panics_holds. Qed.
Print Assumptions C63_copying_never_panics.
(** The value of a member is copied behind a name in an object; the second input
    ends early, the third contains something else than a value *)
Definition copy_before : list rcall := [ReaderModel.CBeginObject; CNextName].
Definition copy_inputs : list (list event) :=
  [[EvData (bytes_of_string "{""a"":[""bc"",{""d"":1}],""e"":0}"%string)];
   [EvData (bytes_of_string "{""a"":[""bc"",{""d"""%string); EvErr 3];
   [EvData (bytes_of_string "{""a"":[""bc"",],""e"":0}"%string)]].
Definition copy_wbefore : list wcall := [WriterModel.CBeginObject; CName [0x7A]].
Definition copy_target : wsession := snd (wrun default_wsettings copy_wbefore (new_session (Sink [] [] [] 0))).
Definition copy_results (evs : list event) : option (usage * bool * list outcome) :=
  match transfer_session default_settings evs (stream_writer default_wsettings) copy_target copy_before [CNextNameOwned; CNextNumberStr] with
  | Some (os1, Some r, w, os2) =>
    match usage_of copy_before os1 usage_start with
    | Some u => Some (u, match r with Ok _ => true | _ => false end, os2)
    | None => None
    end
  | _ => None
  end.
Example C63_copying_case :
  Forall2 success copy_wbefore (fst (wrun default_wsettings copy_wbefore (new_session (Sink [] [] [] 0)))) /\
  describes_all (multi_top_level default_wsettings) empty_doc copy_wbefore (Wdoc [] [OpenObj [] (Some [0x7A])] None) /\
  value_allowed (multi_top_level default_wsettings) (Wdoc [] [OpenObj [] (Some [0x7A])] None) /\
  map copy_results copy_inputs =
    [Some (SpecUsage.Usage [SObject] false false false, true, [OOk (RStr [0x65]); OOk (RStr [0x30])]);
     Some (SpecUsage.Usage [SObject] false false false, false, [OStopped; OStopped]);
     Some (SpecUsage.Usage [SObject] false false false, false, [OStopped; OStopped])] /\
  SpecUsage.value_allowed default_settings (SpecUsage.Usage [SObject] false false false) = true.
Proof.
  split; [repeat constructor|]. split.
  { econstructor; [apply D_begin_object; split; [reflexivity|left; reflexivity]|]. econstructor; [eapply D_name; reflexivity|]. constructor. }
  split; [split; [reflexivity|discriminate]|]. split; vm_compute; reflexivity.
Qed.


(** C63: the same for every implementation of JsonWriter.  The calls which transfer_to
makes are recorded.  For every document d for which a value is allowed, every input,
and whatever the writer returns: the calls which it receives are allowed, one after
the other, for d, also if the copying ends early; the text of names, strings and
numbers is valid; and if transfer_to succeeds then exactly one value has been added.
transfer_to panics only if a method of the writer does. *)
Theorem C63_copying_makes_only_allowed_calls : forall (F W : Type) (h : handler F W) (s : settings) (evs : list event) (before after : list rcall) (os1 os2 : list outcome) (u : usage)
    (w w' : W) (l : list put) (r : option (res (transfer_error F) unit)) (multi : bool) (d : wdoc),
  Forall is_byte (fst (supplied evs)) -> value_allowed multi d ->
  transfer_session s evs (recording h) (w, []) before after = Some (os1, r, (w', l), os2) ->
  usage_of before os1 usage_start = Some u -> SpecUsage.value_allowed s u = true ->
  exists d', describes_all multi d (map target_call l) d' /\ Forall valid_call (map target_call l) /\
    (r = Some (Ok tt) -> exists v, d' = add_value v d) /\
    ((forall p w, fst (h p w) <> Panic Misuse) -> r <> Some (Panic Misuse)).
Proof. exact C63_copying_makes_only_allowed_calls_holds. Qed.
Print Assumptions C63_copying_makes_only_allowed_calls.
(** A writer which fails at the fourth call *)
Definition failing : handler unit nat := fun _ n => match n with O => (Err tt, O) | S n' => (Ok tt, n') end.
Example C63_allowed_calls_case :
  match transfer_session default_settings (nth 0 copy_inputs []) (recording failing) (100%nat, []) copy_before [] with
  | Some (_, r, (_, l), _) => r = Some (Ok tt) /\
      l = [PutBeginArray; PutStringWriter; PutWriteStr [0x62; 0x63]; PutFinishValue; PutBeginObject; PutName [0x64]; PutNumber [0x31]; PutEndObject; PutEndArray]
  | None => False
  end /\
  match transfer_session default_settings (nth 0 copy_inputs []) (recording failing) (3%nat, []) copy_before [] with
  | Some (_, r, (_, l), _) => r = Some (Err (inr tt)) /\ l = [PutBeginArray; PutStringWriter; PutWriteStr [0x62; 0x63]; PutFinishValue]
  | None => False
  end /\
  (forall p n, fst (failing p n) <> Panic Misuse).
Proof. split; [vm_compute; auto|]. split; [vm_compute; auto|]. intros p [|n]; discriminate. Qed.


(** C63: where no value may be read (a member name is next, a string reader has not been
read to its end, or the only top-level value has been read), transfer_to panics and
makes no call of the writer. *)
Theorem C63_copying_from_wrong_position_panics : forall (F W : Type) (h : handler F W) (s : settings) (evs : list event) (before after : list rcall) (os1 os2 : list outcome) (u : usage)
    (w w' : W) (r : option (res (transfer_error F) unit)),
  Forall is_byte (fst (supplied evs)) ->
  transfer_session s evs h w before after = Some (os1, r, w', os2) ->
  usage_of before os1 usage_start = Some u -> SpecUsage.value_allowed s u = false ->
  r = Some (Panic Misuse) /\ w' = w.
Proof. exact C63_copying_from_wrong_position_panics_holds. Qed.
Print Assumptions C63_copying_from_wrong_position_panics.
(** A name is next; a string reader has not been read to its end *)
Example C63_wrong_position_case :
  let run before := transfer_session default_settings (nth 0 copy_inputs []) (recording failing) (9%nat, []) before [CNextNull] in
  run [ReaderModel.CBeginObject] = Some ([OOk RUnit], Some (Panic Misuse), (9%nat, []), [OStopped]) /\
  usage_of [ReaderModel.CBeginObject] [OOk RUnit] usage_start = Some (SpecUsage.Usage [SObject] true false false) /\
  SpecUsage.value_allowed default_settings (SpecUsage.Usage [SObject] true false false) = false /\
  match run (copy_before ++ [ReaderModel.CBeginArray; CNextStringReader; CRead 1]) with
  | Some (os, r, _, _) => r = Some (Panic Misuse) /\
      usage_of (copy_before ++ [ReaderModel.CBeginArray; CNextStringReader; CRead 1]) os usage_start = Some (SpecUsage.Usage [SArray; SObject] false false true)
  | None => False
  end.
Proof. vm_compute. auto 10. Qed.


(** C63: where a value may be read but none may be written (a string value writer has not
been finished, a member name is missing, or there is already a top-level value), the
copying panics, unless the reader reports an error before anything is written. *)
Theorem C63_copying_to_wrong_position_panics : forall (s : settings) (evs : list event) (before after : list rcall) (os1 os2 : list outcome) (u : usage)
    (cfg : wsettings) (out : sink) (wbefore : list wcall) (rs : list wresult) (ws w' : wsession) (d : wdoc)
    (r : option (res (transfer_error wresult) unit)),
  Forall is_byte (fst (supplied evs)) -> received out = [] -> Forall valid_call wbefore ->
  wrun cfg wbefore (new_session out) = (rs, ws) -> Forall2 success wbefore rs ->
  describes_all (multi_top_level cfg) empty_doc wbefore d -> ~ value_allowed (multi_top_level cfg) d ->
  transfer_session s evs (stream_writer cfg) ws before after = Some (os1, r, w', os2) ->
  usage_of before os1 usage_start = Some u -> SpecUsage.value_allowed s u = true ->
  r = Some (Panic Misuse) \/ (exists e, r = Some (Err (inl e)) /\ w' = ws).
Proof. exact C63_copying_to_wrong_position_panics_holds. Qed.
Print Assumptions C63_copying_to_wrong_position_panics.
(** The name of a member is missing; for the second input there is no value *)
Definition no_name : list wcall := [WriterModel.CBeginObject].
Example C63_wrong_target_case :
  let w := snd (wrun default_wsettings no_name (new_session (Sink [] [] [] 0))) in
  describes_all (multi_top_level default_wsettings) empty_doc no_name (Wdoc [] [OpenObj [] None] None) /\
  ~ value_allowed (multi_top_level default_wsettings) (Wdoc [] [OpenObj [] None] None) /\
  match transfer_session default_settings (nth 0 copy_inputs []) (stream_writer default_wsettings) w copy_before [] with
  | Some (_, r, _, _) => r = Some (Panic Misuse)
  | None => False
  end /\
  match transfer_session default_settings [EvData (bytes_of_string "]"%string)] (stream_writer default_wsettings) w [] [] with
  | Some (_, Some (Err (inl _)), w', _) => w' = w
  | _ => False
  end.
Proof.
  intros w. split.
  { econstructor; [apply D_begin_object; split; [reflexivity|left; reflexivity]|]. constructor. }
  split; [intros [_ H]; apply H; reflexivity|]. split; vm_compute; reflexivity.
Qed.

