(** * Properties of copying a value to a writer (C33) *)

From Verif Require Import Base Utf8Model SpecNumber SpecJson WriterModel SpecWriter SourceModel ReaderModel SpecCursor SpecRead TransferModel SpecTransfer
  TransferFinal PropsWriter PropsReader.


(** C33: wherever the reader is in a document, [transfer_to] makes the calls of the
    writer which copy the next value [v]: its structure, its names, the text of
    its strings and numbers, in the order of the document and nothing else.  If
    the writer reports an error or panics, [transfer_to] ends at once in this way.
    If it succeeds, the reader goes on as after reading the value.  (The text of
    a string may be passed to the writer in several parts.)  For any
    implementation of the writer, with any behaviour. *)
Theorem C33_transfer_copies_the_value : forall (F W : Type) (h : handler F W) (s : settings) (vs : list json) (evs : list event) (before : list rcall) (c : cursor) (v : json),
  document_input s vs evs -> snd (walk_calls s before (AtCursor (cursor_start vs))) = AtCursor c ->
  at_value s (drop_reader c) = inr v -> readable s v ->
  exists ps, copies v ps /\
  forall (after : list rcall) (w : W), let (r, w') := feed h ps w in
  exists os1 os2, transfer_session s evs h w before after = Some (os1, Some (transferred r), w', os2) /\
    Forall2 (is_result s) (fst (walk_calls s before (AtCursor (cursor_start vs)))) os1 /\
    Forall2 (is_result s) (fst (walk_calls s after match r with Ok _ => AtCursor (behind_value (drop_reader c)) | _ => Halted end)) os2.
Proof. exact C33_transfer_copies_the_value_holds. Qed.
Print Assumptions C33_transfer_copies_the_value.
(** The array of the member "a" is copied to a writer which only records the calls *)
Definition recorder : handler unit (list put) := fun p w => (Ok tt, w ++ [p]).
Example C33_copies_case :
  document_input default_settings [sample_tree] sample_events /\
  (exists c, snd (walk_calls default_settings [CBeginObject; CNextName] (AtCursor (cursor_start [sample_tree]))) = AtCursor c /\
    at_value default_settings (drop_reader c) = inr (JArr [JNum [0x31]; JBool true])) /\
  readable default_settings (JArr [JNum [0x31]; JBool true]) /\
  transfer_session default_settings sample_events recorder [] [CBeginObject; CNextName] [CNextName; CNextString; CEndObject] =
    Some ([OOk RUnit; OOk (RStr [0x61])], Some (Ok tt), [PutBeginArray; PutNumber [0x31]; PutBool true; PutEndArray],
      [OOk (RStr [0x62]); OOk (RStr [0x78]); OOk RUnit]).
Proof.
  split; [exact (proj1 C20_case)|]. split; [eexists; split; vm_compute; reflexivity|]. split; [intros _; repeat constructor|].
  vm_compute. reflexivity.
Qed.


(** C33: with a [JsonStreamWriter] for which a value is allowed, the effect on
    the output is that of writing the value [v]: whatever is written afterwards,
    the output is the layout of the document to which [v] has been added at this
    place. *)
Theorem C33_transfer_to_stream_writer : forall (s : settings) (vs : list json) (evs : list event) (before : list rcall) (c : cursor) (v : json)
    (cfg : wsettings) (out : sink) (wcs1 : list wcall) (d : wdoc),
  document_input s vs evs -> snd (walk_calls s before (AtCursor (cursor_start vs))) = AtCursor c ->
  at_value s (drop_reader c) = inr v -> readable s v ->
  received out = [] -> reliable out -> Forall valid_call wcs1 ->
  describes_all (multi_top_level cfg) empty_doc wcs1 d -> value_allowed (multi_top_level cfg) d ->
  exists w', (forall after, exists os1 os2,
    transfer_session s evs (stream_writer cfg) (snd (wrun cfg wcs1 (new_session out))) before after = Some (os1, Some (Ok tt), w', os2)) /\
  forall wcs2 d2, Forall valid_call wcs2 -> describes_all (multi_top_level cfg) (add_value v d) wcs2 d2 -> complete d2 ->
  exists rs2 w2 out', wrun cfg wcs2 w' = (rs2, w2) /\ Forall2 success wcs2 rs2 /\ wfinish w2 = (RDone, out') /\
    received out' = documents_layout cfg (d_top d2).
Proof. exact C33_transfer_to_stream_writer_holds. Qed.
Print Assumptions C33_transfer_to_stream_writer.
(** The whole document is copied to a place in an array *)
Example C33_stream_writer_case :
  readable default_settings sample_tree /\ reliable fast_sink /\
  describes_all (multi_top_level compact_cfg) empty_doc [WriterModel.CBeginArray; CNull] (Wdoc [] [OpenArr [JNull]] None) /\
  value_allowed (multi_top_level compact_cfg) (Wdoc [] [OpenArr [JNull]] None) /\
  match transfer_session default_settings sample_events (stream_writer compact_cfg)
    (snd (wrun compact_cfg [WriterModel.CBeginArray; CNull] (new_session fast_sink))) [] [CConsumeTrailingWhitespace] with
  | Some (_, r, w, _) => r = Some (Ok tt) /\ received (snd (wfinish (snd (wrun compact_cfg [WriterModel.CEndArray] w)))) =
      [0x5B; 0x6E; 0x75; 0x6C; 0x6C; 0x2C] ++ firstn 14 sample_text ++ firstn 8 (skipn 15 sample_text) ++ [0x5D]
  | None => False
  end.
Proof.
  split; [intros _; repeat constructor|]. split; [split; repeat constructor; discriminate|]. split.
  { econstructor; [apply D_begin_array; split; [reflexivity|left; reflexivity]|]. econstructor; [apply D_null; split; [reflexivity|exact I]|]. constructor. }
  split; [split; [reflexivity|exact I]|]. vm_compute. auto.
Qed.


(** C33: if there is no value which could be copied, [transfer_to] panics
    (incorrect usage) or reports that there are fewer elements than expected, as
    the other methods which read a value; the writer is not used at all. *)
Theorem C33_nothing_to_transfer : forall (F W : Type) (h : handler F W) (s : settings) (vs : list json) (evs : list event) (before after : list rcall) (c : cursor) (x : expected) (w : W),
  document_input s vs evs -> snd (walk_calls s before (AtCursor (cursor_start vs))) = AtCursor c ->
  at_value s (drop_reader c) = inl x ->
  exists os1 r os2, transfer_session s evs h w before after = Some (os1, Some r, w, os2) /\
    match x with
    | XMisuse => r = Panic Misuse
    | XStructure k path => exists loc, r = Err (inl (EUnexpectedStructure k loc)) /\ at_path s path loc
    | _ => False
    end.
Proof. exact C33_nothing_to_transfer_holds. Qed.
Print Assumptions C33_nothing_to_transfer.
Example C33_nothing_case :
  (exists c, snd (walk_calls default_settings [CBeginObject; CNextName; CBeginArray; CNextNumberStr; CNextBool] (AtCursor (cursor_start [sample_tree]))) = AtCursor c /\
    at_value default_settings (drop_reader c) = inl (XStructure FewerElementsThanExpected [PName [0x61]; PIndex 2])) /\
  (exists c, snd (walk_calls default_settings [CBeginObject] (AtCursor (cursor_start [sample_tree]))) = AtCursor c /\
    at_value default_settings (drop_reader c) = inl XMisuse) /\
  transfer_session default_settings sample_events recorder [] [CBeginObject] [] = Some ([OOk RUnit], Some (Panic Misuse), [], []).
Proof. split; [eexists; split; vm_compute; reflexivity|]. split; [eexists; split; vm_compute; reflexivity|]. vm_compute. reflexivity. Qed.

