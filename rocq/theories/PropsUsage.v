(** * Properties of correct and incorrect usage of a reader (C59) *)

From Coq Require Import String.
From Verif Require Import Base Utf8Model SourceModel ReaderModel SpecUsage UsageFinal.
Local Open Scope list_scope.


(** C59: a program which makes only calls which are allowed by SpecUsage never
panics, whatever the input is (also bytes which are no JSON at all), however the
bytes are delivered and wherever an IO error occurs.  The calls of the program may
depend on the results of the calls before: the list cs contains the calls which it
has made. *)
Theorem C59_correct_usage_never_panics : forall (s : settings) (evs : list event) (cs : list rcall),
  Forall is_byte (fst (supplied evs)) -> correct_usage s cs (read_session s evs cs) usage_start ->
  forall o k, In o (read_session s evs cs) -> o <> OPanic k.
Proof. exact C59_correct_usage_never_panics_holds. Qed.
Print Assumptions C59_correct_usage_never_panics.
(** A program which reads an object with an unknown member; the input is first a
    document, then malformed, then ends early, then fails with an IO error *)
Definition usage_calls : list rcall :=
  [CBeginObject; CHasNext; CNextName; CPeek; CBeginArray; CHasNext; CNextStringReader; CRead 2; CRead 2; CNextBool; CNextNull; CEndArray;
   CSkipName; CSkipValue; CHasNext; CEndObject; CConsumeTrailingWhitespace].
Definition usage_inputs : list (list event) :=
  [[EvData (bytes_of_string "{""a"":[""abc"",null],""b"":{""c"":[1]}} "%string)];
   [EvData (bytes_of_string "{""a"":[""abc"",nul],""b"":1}"%string)];
   [EvData (bytes_of_string "{""a"":[""a"%string)];
   [EvData (bytes_of_string "{""a"":[""abc"",null],""b"""%string); EvErr 7]].
(** How many of the calls the program makes for each of the inputs *)
Definition usage_lengths : list nat := [17; 10; 9; 14]%nat.
Example C59_correct_case :
  Forall2 (fun evs n => correct_usage default_settings (firstn n usage_calls) (read_session default_settings evs (firstn n usage_calls)) usage_start)
    usage_inputs usage_lengths /\
  map (fun evs => length (filter (fun o => match o with OOk _ => true | _ => false end) (read_session default_settings evs usage_calls))) usage_inputs =
    [16; 9; 7; 12]%nat.
Proof.
  split; [|vm_compute; reflexivity].
  repeat (apply Forall2_cons; [vm_compute; repeat (split || reflexivity)|]). apply Forall2_nil.
Qed.


(** C59: the same for a single call.  cs are the calls made so far and os their
outcomes, which lead to u; then the call c is made.  If it is allowed, it does not
panic. *)
Theorem C59_allowed_call_does_not_panic : forall (s : settings) (evs : list event) (cs : list rcall) (c : rcall) (os : list outcome) (o : outcome) (u : usage),
  Forall is_byte (fst (supplied evs)) -> read_session s evs (cs ++ [c]) = os ++ [o] ->
  usage_of cs os usage_start = Some u -> allowed s u c = true ->
  forall k, o <> OPanic k.
Proof. exact C59_allowed_call_does_not_panic_holds. Qed.
Print Assumptions C59_allowed_call_does_not_panic.
(** [null] has the wrong type for [next_bool], after which it can still be
    read; the string has been read to its end with two calls *)
Example C59_allowed_case :
  usage_of (firstn 11 usage_calls) (read_session default_settings (nth 0 usage_inputs []) (firstn 11 usage_calls)) usage_start =
    Some (Usage [SArray; SObject] false false false) /\
  usage_of (firstn 8 usage_calls) (read_session default_settings (nth 0 usage_inputs []) (firstn 8 usage_calls)) usage_start =
    Some (Usage [SArray; SObject] false false true) /\
  usage_of [CSeekTo [PName [0x61]; PIndex 1]; CNextNull; CSeekBack [PName [0x61]; PIndex 1]]
    (read_session default_settings (nth 0 usage_inputs []) [CSeekTo [PName [0x61]; PIndex 1]; CNextNull; CSeekBack [PName [0x61]; PIndex 1]]) usage_start =
    Some (Usage [] false true false).
Proof. vm_compute. auto. Qed.


(** C59: a call which is not allowed panics, whatever the input is; it is never
mistaken for something else.  Only seek_back, which consists of several steps, may
report an error of the input first if it is called for containers which are not the
innermost open ones; it does not succeed. *)
Theorem C59_incorrect_usage_panics : forall (s : settings) (evs : list event) (cs : list rcall) (c : rcall) (os : list outcome) (o : outcome) (u : usage),
  Forall is_byte (fst (supplied evs)) -> read_session s evs (cs ++ [c]) = os ++ [o] ->
  usage_of cs os usage_start = Some u -> allowed s u c = false ->
  o = OPanic Misuse \/ (exists path e, c = CSeekBack path /\ o = OErr e).
Proof. exact C59_incorrect_usage_panics_holds. Qed.
Print Assumptions C59_incorrect_usage_panics.
(** The string is not finished; [seek_back] for an object, although an array has
    been opened: an error of the input comes first *)
Example C59_incorrect_case :
  allowed default_settings (Usage [SArray; SObject] false false true) CEndArray = false /\
  read_session default_settings (nth 2 usage_inputs []) (firstn 7 usage_calls ++ [CEndArray]) =
    read_session default_settings (nth 2 usage_inputs []) (firstn 7 usage_calls) ++ [OPanic Misuse] /\
  allowed default_settings (Usage [SArray] false false false) (CSeekBack [PName [0x61]]) = false /\
  read_session default_settings [EvData (bytes_of_string "[1]"%string)] [CBeginArray; CSeekBack [PName [0x61]]] = [OOk RUnit; OPanic Misuse] /\
  exists e, read_session default_settings [EvData (bytes_of_string "[a"%string)] [CBeginArray; CSeekBack [PName [0x61]]] = [OOk RUnit; OErr e].
Proof.
  split; [reflexivity|]. split; [vm_compute; reflexivity|]. split; [reflexivity|]. split; [vm_compute; reflexivity|]. eexists. vm_compute. reflexivity.
Qed.

