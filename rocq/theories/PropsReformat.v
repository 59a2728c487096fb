(** * Properties of copying a document from any input (C33, C58) *)

From Coq Require Import String.
From Verif Require Import Base Utf8Model SpecNumber SpecJson WriterModel SpecWriter SourceModel ReaderModel SpecCursor SpecRead TransferModel SpecTransfer SpecReformat
  ReformatFinal PropsWriter PropsReader PropsTransfer.
Local Open Scope list_scope.


(** C33: the document may contain numbers which [restrict_number_values] rejects.
    The calls made on the writer are those which write the value up to the first
    such number [n], and if the writer accepts all of them, [transfer_to] fails
    with an error for this number; nothing behind it is written. *)
Theorem C33_unsupported_number_is_reported : forall (F W : Type) (h : handler F W) (s : settings) (vs : list json) (evs : list event) (before : list rcall) (c : cursor) (v : json) (n : bytes),
  document_input s vs evs -> snd (walk_calls s before (AtCursor (cursor_start vs))) = AtCursor c ->
  at_value s (drop_reader c) = inr v ->
  restrict_number_values s = true -> find unsupported_number (numbers v) = Some n ->
  exists ps qs, copies v (ps ++ PutNumber n :: qs) /\
  forall after w, exists os1 r os2, transfer_session s evs h w before after = Some (os1, Some r, snd (feed h ps w), os2) /\
    match fst (feed h ps w) with
    | Ok _ => exists loc, r = Err (inl (EUnsupportedNumber n loc))
    | other => r = transferred other
    end.
Proof. exact C33_unsupported_number_is_reported_holds. Qed.
Print Assumptions C33_unsupported_number_is_reported.
(** The third element is rejected; the first two have been copied *)
Definition big_exponent : bytes := bytes_of_string "1e999999"%string.
Definition big_exponent_tree : json := JArr [JNull; JNum [0x31]; JNum big_exponent; JNum [0x32]].
Example C33_unsupported_case :
  find unsupported_number (numbers big_exponent_tree) = Some big_exponent /\
  (exists loc, transfer_session default_settings [EvData (bytes_of_string "[null,1,1e999999,2]"%string)] recorder [] [] [CNextNull] =
    Some ([], Some (Err (inl (EUnsupportedNumber big_exponent loc))), [PutBeginArray; PutNull; PutNumber [0x31]], [OStopped])).
Proof. split; [vm_compute; reflexivity|]. eexists. vm_compute. reflexivity. Qed.


(** C58: whatever the input is (bytes which are no JSON at all, IO errors at any
    place, any way of delivering the bytes), whatever has been read before and
    whatever the writer does: [transfer_to] ends, and neither [transfer_to] nor a
    call before or after it ends with an internal panic (it may report an error
    or, for incorrect usage, panic).  The only condition is that the methods of
    the writer themselves end and do not have internal panics. *)
Theorem C58_transfer_always_ends : forall (F W : Type) (h : handler F W) (s : settings) (evs : list event) (before after : list rcall) (w : W),
  tame h -> Forall is_byte (fst (supplied evs)) ->
  exists os1 r w' os2, transfer_session s evs h w before after = Some (os1, r, w', os2) /\
    match r with Some r => settled r | None => True end /\ (forall o, In o (os1 ++ os2) -> o <> OPanic Bug /\ o <> OFuel).
Proof. exact C58_transfer_always_ends_holds. Qed.
Print Assumptions C58_transfer_always_ends.
(** Input which ends in the middle of a string; the writer fails at the second call *)
Definition fragile : handler unit (list put) := fun p w => match w with [] => (Ok tt, [p]) | _ => (Err tt, w ++ [p]) end.
Example C58_ends_case :
  tame recorder /\ tame fragile /\
  (exists loc, transfer_session default_settings [EvData (bytes_of_string "[1, ""ab"%string)] recorder [] [] [CHasNext] =
    Some ([], Some (Err (inl (ESyntax IncompleteDocument loc))), [PutBeginArray; PutNumber [0x31]; PutStringWriter], [OStopped])) /\
  transfer_session default_settings sample_events fragile [] [] [CHasNext] =
    Some ([], Some (Err (inr tt)), [PutBeginObject; PutName [0x61]], [OStopped]).
Proof.
  split; [intros p w; exact I|]. split; [intros p [|x w]; exact I|]. split; [eexists; vm_compute; reflexivity|]. vm_compute. reflexivity.
Qed.


(** C58: a document is not accepted by mistake.  If a single top-level value is
    allowed, and at the end of a client program with a [transfer_to] somewhere
    [consume_trailing_whitespace] succeeds, then the whole input is a text of one
    document (by the grammar of SpecJson and in the enabled syntax), however the
    bytes were delivered, and the nesting limit is respected. *)
Theorem C58_transfer_accepts_only_documents : forall (F W : Type) (h : handler F W) (s : settings) (evs : list event) (before after : list rcall) (w : W)
    (os1 : list outcome) (r : option (res (transfer_error F) unit)) (w' : W) (os2 : list outcome),
  Forall is_byte (fst (supplied evs)) -> allow_multiple_top_level s = false ->
  transfer_session s evs h w before (after ++ [CConsumeTrailingWhitespace]) = Some (os1, r, w', os2 ++ [OOk RUnit]) ->
  exists v, document_input s [v] evs.
Proof. exact C58_transfer_accepts_only_documents_holds. Qed.
Print Assumptions C58_transfer_accepts_only_documents.
Example C58_accepts_case :
  transfer_session default_settings sample_events recorder [] [CBeginObject; CNextName] ([CSkipName; CSkipValue; CEndObject] ++ [CConsumeTrailingWhitespace]) =
    Some ([OOk RUnit; OOk (RStr [0x61])], Some (Ok tt), [PutBeginArray; PutNumber [0x31]; PutBool true; PutEndArray],
      [OOk RUnit; OOk RUnit; OOk RUnit] ++ [OOk RUnit]).
Proof. vm_compute. reflexivity. Qed.


(** C58: a program which reformats a document (copies it with [transfer_to] to a
    [JsonStreamWriter], consumes the trailing whitespace and finishes the writer)
    is exact.  For every input it succeeds if and only if the input is a text of
    a document whose numbers are not rejected, and the output is then the layout
    of this document. *)
Theorem C58_reformat_exact : forall (s : settings) (cfg : wsettings) (evs : list event) (out : sink) (t : bytes),
  Forall is_byte (fst (supplied evs)) -> allow_multiple_top_level s = false -> received out = [] -> reliable out ->
  (reformat s cfg evs out = Some t <-> exists v, document_input s [v] evs /\ readable s v /\ t = layout cfg 0 v).
Proof. exact C58_reformat_exact_holds. Qed.
Print Assumptions C58_reformat_exact.
(** Comments and whitespace are removed; a document followed by something else is
    not reformatted *)
Definition commented : bytes := bytes_of_string "/* c */ [1 , ""A"" ]"%string.
Example C58_reformat_case :
  let lenient := Settings true false false false None true in
  reliable fast_sink /\ reliable slow_sink /\ received slow_sink = [] /\
  reformat lenient compact_cfg [EvData commented] fast_sink = Some (bytes_of_string "[1,""A""]"%string) /\
  reformat default_settings compact_cfg [EvData commented] fast_sink = None /\
  reformat lenient compact_cfg [EvData (commented ++ [0x31])] fast_sink = None.
Proof. cbv zeta. split; [split; repeat constructor; discriminate|]. split; [split; repeat constructor; discriminate|]. vm_compute. auto 6. Qed.


(** C58: reformatting does not lose or change anything.  If a document has been
    reformatted, reformatting the output once more (in any layout) gives the same
    as reformatting the original document in this layout.  The output is in the
    JSON syntax even if extensions are enabled for the original document, so the
    second time they need not be enabled. *)
Theorem C58_reformat_again : forall (s s' : settings) (cfg cfg' : wsettings) (evs evs' : list event) (out out1 out2 : sink) (t : bytes),
  Forall is_byte (fst (supplied evs)) -> allow_multiple_top_level s = false -> allow_multiple_top_level s' = false ->
  max_nesting_depth s' = max_nesting_depth s -> restrict_number_values s' = restrict_number_values s ->
  received out = [] -> reliable out -> received out1 = [] -> reliable out1 -> received out2 = [] -> reliable out2 ->
  reformat s cfg evs out = Some t -> supplied evs' = (t, TEof) ->
  exists t', reformat s' cfg' evs' out1 = Some t' /\ reformat s cfg' evs out2 = Some t'.
Proof. exact C58_reformat_again_holds. Qed.
Print Assumptions C58_reformat_again.
Example C58_again_case :
  let lenient := Settings true false false false None true in
  let strict := Settings false false false false None true in
  let text := bytes_of_string "[1,""A""]"%string in
  reformat lenient compact_cfg [EvData commented] fast_sink = Some text /\ supplied [EvData text] = (text, TEof) /\
  reformat strict pretty_cfg [EvData text] slow_sink = reformat lenient pretty_cfg [EvData commented] fast_sink.
Proof. cbv zeta. vm_compute. auto. Qed.

