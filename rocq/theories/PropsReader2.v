(** * Properties of reading: C19, C24, C31, C32 *)

From Verif Require Import Base Utf8Model SpecNumber SpecJson SourceModel ReaderModel SpecCursor SpecRead ReaderFinal ReaderFinal2
  PropsReader.


(** C19: if [consume_trailing_whitespace] succeeds after any calls, then the
    input is a document, in the JSON grammar extended by the enabled settings,
    and all calls have returned what is found in the data denoted by that
    document. *)
Theorem C19_accepted_input_is_a_document : forall (s : settings) (evs : list event) (cs : list rcall), Forall is_byte (fst (supplied evs)) ->
  allow_multiple_top_level s = false ->
  nth_error (read_session s evs (cs ++ [CConsumeTrailingWhitespace])) (length cs) = Some (OOk RUnit) ->
  exists v, document_input s [v] evs /\
    Forall2 (is_result s) (fst (walk_calls s (cs ++ [CConsumeTrailingWhitespace]) (AtCursor (cursor_start [v]))))
      (read_session s evs (cs ++ [CConsumeTrailingWhitespace])).
Proof. exact C19_accepted_input_is_a_document_holds. Qed.
Print Assumptions C19_accepted_input_is_a_document.
(** C19, several top-level values: the same if the client asks for another value
    before, and there is none. *)
Theorem C19_accepted_input_is_a_sequence : forall (s : settings) (evs : list event) (cs : list rcall), Forall is_byte (fst (supplied evs)) ->
  allow_multiple_top_level s = true ->
  let calls := cs ++ [CHasNext; CConsumeTrailingWhitespace] in
  nth_error (read_session s evs calls) (length cs) = Some (OOk (RBool false)) ->
  nth_error (read_session s evs calls) (S (length cs)) = Some (OOk RUnit) ->
  exists vs, document_input s vs evs /\
    Forall2 (is_result s) (fst (walk_calls s calls (AtCursor (cursor_start vs)))) (read_session s evs calls).
Proof. exact C19_accepted_input_is_a_sequence_holds. Qed.
Print Assumptions C19_accepted_input_is_a_sequence.
(** C19: with the default settings only RFC 8259 documents are accepted. *)
Theorem C19_default_settings_accept_only_rfc8259 : forall (evs : list event) (cs : list rcall), Forall is_byte (fst (supplied evs)) ->
  nth_error (read_session default_settings evs (cs ++ [CConsumeTrailingWhitespace])) (length cs) = Some (OOk RUnit) ->
  exists v, rfc8259_document v (fst (supplied evs)) /\ snd (supplied evs) = TEof /\ N.of_nat (nesting v) <= 128.
Proof. exact C19_default_settings_accept_only_rfc8259_holds. Qed.
Print Assumptions C19_default_settings_accept_only_rfc8259.
(** C19: skipping accepts exactly the documents, within the nesting limit. *)
Theorem C19_skipping_accepts_exactly_the_documents : forall (s : settings) (evs : list event), Forall is_byte (fst (supplied evs)) -> allow_multiple_top_level s = false ->
  read_session s evs [CSkipValue; CConsumeTrailingWhitespace] = [OOk RUnit; OOk RUnit] <->
  exists v, document_input s [v] evs.
Proof. exact C19_skipping_accepts_exactly_the_documents_holds. Qed.
Print Assumptions C19_skipping_accepts_exactly_the_documents.
(** [{"a":[1,true], "b":"x"} ] is accepted, and so is reading it *)
Example C19_case :
  nth_error (read_session default_settings sample_events (read_calls sample_tree ++ [CConsumeTrailingWhitespace]))
    (length (read_calls sample_tree)) = Some (OOk RUnit) /\
  Forall is_byte (fst (supplied sample_events)) /\
  read_session default_settings sample_events [CSkipValue; CConsumeTrailingWhitespace] = [OOk RUnit; OOk RUnit] /\
  read_session multi_settings [EvData [0x31; 0x20; 0x32]] [CSkipValue; CSkipValue; CHasNext; CConsumeTrailingWhitespace] =
    [OOk RUnit; OOk RUnit; OOk (RBool false); OOk RUnit].
Proof. vm_compute. repeat split; repeat constructor. Qed.


(** C32: [consume_trailing_whitespace] succeeds exactly if the input is a
    document (so only whitespace, and comments if enabled, follows its value)
    and the calls before it have consumed that value completely.
    Partial: with several top-level values this is false, see C32_refuted_after_has_next. *)
Theorem C32_exactly_at_the_end_partial : forall (s : settings) (evs : list event) (cs : list rcall), Forall is_byte (fst (supplied evs)) ->
  allow_multiple_top_level s = false ->
  nth_error (read_session s evs (cs ++ [CConsumeTrailingWhitespace])) (length cs) = Some (OOk RUnit) <->
  exists v c, document_input s [v] evs /\
    snd (walk_calls s cs (AtCursor (cursor_start [v]))) = AtCursor c /\
    frames c = [] /\ started c = true /\ is_reading c = false.
Proof. exact C32_exactly_at_the_end_partial_holds. Qed.
Print Assumptions C32_exactly_at_the_end_partial.
(** C32: otherwise, if all calls before it were successful, it fails with a syntax
    error or I/O error, or panics because the value has not been consumed
    completely.  Partial: it does not say that success means that nothing follows, see
    C32_refuted_after_has_next. *)
Theorem C32_otherwise_an_error_partial : forall (s : settings) (evs : list event) (cs : list rcall) (o : outcome), Forall is_byte (fst (supplied evs)) ->
  nth_error (read_session s evs (cs ++ [CConsumeTrailingWhitespace])) (length cs) = Some o ->
  match o with
  | OOk v => v = RUnit
  | OErr (ESyntax _ _) | OErr (EIo _ _) | OPanic Misuse | OStopped | ONotPossible => True
  | _ => False
  end.
Proof. exact C32_otherwise_an_error_partial_holds. Qed.
Print Assumptions C32_otherwise_an_error_partial.
(** C32 is refuted if multiple top-level values are allowed and the client has
    asked whether there is another value: [1 \[] is read as [1], then
    [has_next] returns [true], yet [consume_trailing_whitespace] succeeds.  The
    bracket which [has_next] has read is lost. *)
Theorem C32_refuted_after_has_next : exists (s : settings) (evs : list event) (cs : list rcall),
  allow_multiple_top_level s = true /\
  fst (supplied evs) = [0x31; 0x20; 0x5B] /\
  cs = [CNextNumberStr; CHasNext; CConsumeTrailingWhitespace] /\
  read_session s evs cs = [OOk (RStr [0x31]); OOk (RBool true); OOk RUnit].
Proof. exact C32_refuted_after_has_next_holds. Qed.
Print Assumptions C32_refuted_after_has_next.
Example C32_case :
  read_session default_settings sample_events [CSkipValue; CConsumeTrailingWhitespace] = [OOk RUnit; OOk RUnit] /\
  (exists l, read_session default_settings [EvData [0x31; 0x20; 0x32]] [CSkipValue; CConsumeTrailingWhitespace] =
     [OOk RUnit; OErr (ESyntax TrailingData l)]) /\
  read_session default_settings sample_events [CBeginObject; CConsumeTrailingWhitespace] = [OOk RUnit; OPanic Misuse].
Proof. vm_compute. repeat split. eexists. reflexivity. Qed.


(** C31: [skip_to_top_level] never fails with an unexpected value or structure;
    the only error besides syntax and I/O errors is the nesting limit.
    Partial: the documentation excludes the nesting limit too, see C31_refuted. *)
Theorem C31_errors_of_skip_to_top_level_partial : forall (s : settings) (evs : list event) (cs1 cs2 : list rcall) (o : outcome), Forall is_byte (fst (supplied evs)) ->
  nth_error (read_session s evs (cs1 ++ CSkipToTopLevel :: cs2)) (length cs1) = Some o ->
  match o with
  | OErr (ESyntax _ _) | OErr (EIo _ _) => True
  | OErr (EMaxNestingDepth m _) => max_nesting_depth s = Some m
  | OErr _ => False
  | _ => True
  end.
Proof. exact C31_errors_of_skip_to_top_level_partial_holds. Qed.
Print Assumptions C31_errors_of_skip_to_top_level_partial.
(** C31: without nesting limit only syntax and I/O errors occur.
    Partial: restricted to readers without nesting limit, see C31_refuted. *)
Theorem C31_only_syntax_and_io_errors_without_limit_partial : forall (s : settings) (evs : list event) (cs1 cs2 : list rcall) (e : reader_error), Forall is_byte (fst (supplied evs)) ->
  max_nesting_depth s = None ->
  nth_error (read_session s evs (cs1 ++ CSkipToTopLevel :: cs2)) (length cs1) = Some (OErr e) ->
  (exists k l, e = ESyntax k l) \/ (exists k l, e = EIo k l).
Proof. exact C31_only_syntax_and_io_errors_without_limit_partial_holds. Qed.
Print Assumptions C31_only_syntax_and_io_errors_without_limit_partial.
(** C31 as documented is refuted: with a nesting limit there is a third error.
    Input [[[1]]], limit 1. *)
Theorem C31_refuted : exists (s : settings) (evs : list event) (m : N) (l : position),
  fst (supplied evs) = [0x5B; 0x5B; 0x31; 0x5D; 0x5D] /\
  read_session s evs [CBeginArray; CSkipToTopLevel] = [OOk RUnit; OErr (EMaxNestingDepth m l)].
Proof. exact C31_refuted_holds. Qed.
Print Assumptions C31_refuted.
Example C31_case : exists l,
  read_session default_settings [EvData [0x5B; 0x31; 0x7D]] [CBeginArray; CSkipToTopLevel] = [OOk RUnit; OErr (ESyntax UnexpectedClosingBracket l)].
Proof. vm_compute. eexists. reflexivity. Qed.


(** C24: the number of open containers, that is, the length of the path, never
    exceeds the limit, neither between two calls nor where an error occurs
    during a call. *)
Theorem C24_limit_is_never_exceeded : forall (s : settings) (evs : list event) (cs1 cs2 : list rcall) (c : rcall) (o : outcome) (m : N), Forall is_byte (fst (supplied evs)) ->
  max_nesting_depth s = Some m ->
  nth_error (read_session s evs (cs1 ++ c :: cs2)) (length cs1) = Some o ->
  (forall e, ~ In (OReadErr e) (firstn (length cs1) (read_session s evs (cs1 ++ c :: cs2)))) ->
  match o with
  | OOk (RPos p) | OErr (EUnexpectedType _ _ p) | OErr (EUnexpectedStructure _ p) | OErr (EMaxNestingDepth _ p) =>
    forall path, p_path p = Some path -> N.of_nat (length path) <= m
  | _ => True
  end.
Proof. exact C24_limit_is_never_exceeded_holds. Qed.
Print Assumptions C24_limit_is_never_exceeded.
(** C24: [MaxNestingDepthExceeded] is reported by any call only where as many
    containers as the limit are open. *)
Theorem C24_reported_only_at_the_limit : forall (s : settings) (evs : list event) (cs1 cs2 : list rcall) (c : rcall) (k : N) (p : position), Forall is_byte (fst (supplied evs)) ->
  nth_error (read_session s evs (cs1 ++ c :: cs2)) (length cs1) = Some (OErr (EMaxNestingDepth k p)) ->
  max_nesting_depth s = Some k /\
  if track_path s then exists path, p_path p = Some path /\ N.of_nat (length path) = k else p_path p = None.
Proof. exact C24_reported_only_at_the_limit_holds. Qed.
Print Assumptions C24_reported_only_at_the_limit.
(** C24: [begin_array] and [begin_object] are exact.  The client looks at the
    position, sees by [peek] that an array (or object) is next, and opens it:
    this succeeds if fewer containers than the limit are open, and otherwise
    as many as the limit are open and the error is [MaxNestingDepthExceeded]. *)
Theorem C24_limit_is_exact : forall (s : settings) (evs : list event) (cs1 cs2 : list rcall) (os os2 : list outcome) (p : position) (path : list piece) (o : outcome)
    (t : value_type) (c : rcall), Forall is_byte (fst (supplied evs)) ->
  t = TArray /\ c = CBeginArray \/ t = TObject /\ c = CBeginObject ->
  length os = length cs1 -> p_path p = Some path ->
  read_session s evs (cs1 ++ [CPosition true; CPeek; c] ++ cs2) = os ++ [OOk (RPos p); OOk (RType t); o] ++ os2 ->
  match max_nesting_depth s with
  | None => o = OOk RUnit
  | Some m =>
    N.of_nat (length path) < m /\ o = OOk RUnit \/
    N.of_nat (length path) = m /\ exists loc, o = OErr (EMaxNestingDepth m loc) /\ p_path loc = Some path
  end.
Proof. exact C24_limit_is_exact_holds. Qed.
Print Assumptions C24_limit_is_exact.
(** [[[1]]]; the limits 1 and 2 *)
Example C24_case : exists p1 p2 p3,
  let evs := [EvData [0x5B; 0x5B; 0x31; 0x5D; 0x5D]] in
  let calls := [CBeginArray; CPosition true; CPeek; CBeginArray] in
  read_session (Settings false false false true (Some 1) true) evs calls =
    [OOk RUnit; OOk (RPos p1); OOk (RType TArray); OErr (EMaxNestingDepth 1 p2)] /\ p_path p1 = Some [PIndex 0] /\
  read_session (Settings false false false true (Some 2) true) evs calls =
    [OOk RUnit; OOk (RPos p3); OOk (RType TArray); OOk RUnit] /\ p_path p3 = Some [PIndex 0].
Proof. vm_compute. do 3 eexists. repeat split; reflexivity. Qed.

