(** * Properties of reading: C07, C09, C15, C17, C20, C21, C26 to C30, C34 *)

From Verif Require Import Base Utf8Model SpecNumber SpecJson WriterModel SpecWriter
  SourceModel ReaderModel SpecCursor SpecRead ReaderFinal.

(** [{"a":[1,true], "b":"x"} ] in pieces, with interruptions *)
Definition sample_text : bytes :=
  [0x7B; 0x22; 0x61; 0x22; 0x3A; 0x5B; 0x31; 0x2C; 0x74; 0x72; 0x75; 0x65; 0x5D; 0x2C; 0x20;
   0x22; 0x62; 0x22; 0x3A; 0x22; 0x78; 0x22; 0x7D; 0x20].
Definition sample_events : list event :=
  [EvData (firstn 7 sample_text); EvInterrupted; EvData (firstn 3 (skipn 7 sample_text)); EvInterrupted;
   EvInterrupted; EvData (skipn 10 sample_text)].
Definition sample_tree : json :=
  JObj [([0x61], JArr [JNum [0x31]; JBool true]); ([0x62], JStr [0x78])].


(** C20: for every input which is a text of the documents [vs] (by the grammar of
    SpecJson, in the syntax enabled by the settings and within the nesting limit),
    however it is delivered, and for every client program, the results are those of
    the walk through the trees [vs] (SpecCursor). *)
Theorem C20_reader_walks_the_document : forall (s : settings) (vs : list json) (evs : list event) (cs : list rcall), document_input s vs evs ->
  Forall2 (is_result s) (fst (walk_calls s cs (AtCursor (cursor_start vs)))) (read_session s evs cs).
Proof. exact C20_reader_walks_the_document_holds. Qed.
Print Assumptions C20_reader_walks_the_document.
(** C20: two inputs with the same data are indistinguishable apart from line,
    column and byte position, whatever their layout (and whichever comments or
    trailing commas they use).  [consume_trailing_whitespace] before the last of several
    top-level values is excluded, see C32. *)
Theorem C20_layout_is_invisible : forall (s1 s2 : settings) (vs : list json) (evs1 evs2 : list event) (cs : list rcall),
  document_input s1 vs evs1 -> document_input s2 vs evs2 ->
  allow_multiple_top_level s1 = allow_multiple_top_level s2 -> track_path s1 = track_path s2 ->
  restrict_number_values s1 = restrict_number_values s2 ->
  allow_multiple_top_level s1 = false \/ ~ In CConsumeTrailingWhitespace cs ->
  map forget (read_session s1 evs1 cs) = map forget (read_session s2 evs2 cs).
Proof. exact C20_layout_is_invisible_holds. Qed.
Print Assumptions C20_layout_is_invisible.
(** C20: reading a document completely returns its data. *)
Theorem C20_complete_reading : forall (s : settings) (v : json) (evs : list event), document_input s [v] evs -> readable s v ->
  read_session s evs (read_calls v ++ [CConsumeTrailingWhitespace]) = map OOk (read_values v ++ [RUnit]).
Proof. exact C20_complete_reading_holds. Qed.
Print Assumptions C20_complete_reading.
Lemma sample_document : document_text rfc8259 sample_tree sample_text.
Proof.
  exists [], (firstn 23 sample_text), [0x20]. split; [reflexivity|]. split; [constructor|]. split.
  2:{ left. apply WS_ws; [left; reflexivity|constructor]. }
  change (firstn 23 sample_text) with ([0x7B] ++ [] ++ ([0x22] ++ [0x61] ++ [0x22]) ++ [] ++ [0x3A] ++ [] ++
    ([0x5B] ++ [] ++ [0x31] ++ ([] ++ [0x2C] ++ [] ++ lit_true ++ ([] ++ [0x5D]))) ++
    [] ++ [0x2C] ++ [0x20] ++ ([0x22] ++ [0x62] ++ [0x22]) ++ [] ++ [0x3A] ++ [] ++ ([0x22] ++ [0x78] ++ [0x22]) ++ ([] ++ [0x7D])).
  assert (Hq : forall c, 0x61 <= c -> c <= 0x7A -> quoted ([0x22] ++ [c] ++ [0x22]) [c]).
  { intros c H1 H2. exists [c]. split; [reflexivity|]. replace [c] with (encode_char c ++ []) at 1.
    - apply ST_raw; [unfold unescaped, is_char; lia|constructor].
    - unfold encode_char. rewrite (proj2 (N.ltb_lt c 0x80)) by lia. reflexivity. }
  constructor. apply MT_first; try apply WS_nil.
  - apply Hq; lia.
  - constructor. apply IT_first; [constructor| |].
    + constructor. exists 0%nat, [], [0x31], [], []. repeat split; auto; try (left; reflexivity).
      * right. exists 0x31, []. repeat split; try lia. constructor.
      * left. auto.
    + apply IT_next; try apply WS_nil; [constructor|]. apply IT_end. constructor.
  - apply MT_next; try apply WS_nil.
    + apply WS_ws; [left; reflexivity|constructor].
    + apply Hq; lia.
    + constructor. apply Hq; lia.
    + apply MT_end. constructor.
Qed.
Example C20_case : document_input default_settings [sample_tree] sample_events /\ readable default_settings sample_tree /\
  read_session default_settings sample_events (read_calls sample_tree ++ [CConsumeTrailingWhitespace]) =
  map OOk [RUnit; RStr [0x61]; RUnit; RStr [0x31]; RBool true; RUnit; RStr [0x62]; RStr [0x78]; RUnit; RUnit].
Proof.
  split; [|split].
  - split; [reflexivity|]. split.
    + exists sample_tree. split; [reflexivity|]. exact sample_document.
    + cbn. repeat constructor. discriminate.
  - intros _. repeat constructor.
  - vm_compute. reflexivity.
Qed.


(** C17: all results of a program (values, errors, positions) depend only on the
    bytes which the source supplies until the end or the first error, not on how
    they are split or on interruptions. *)
Theorem C17_independent_of_delivery : forall (s : settings) (evs1 evs2 : list event) (cs : list rcall), Forall is_byte (fst (supplied evs1)) ->
  supplied evs1 = supplied evs2 -> read_session s evs1 cs = read_session s evs2 cs.
Proof. exact C17_independent_of_delivery_holds. Qed.
Print Assumptions C17_independent_of_delivery.
Example C17_case : supplied sample_events = supplied [EvData sample_text] /\
  supplied (sample_events ++ [EvErr 5; EvData [1]]) = supplied [EvInterrupted; EvData sample_text; EvErr 5].
Proof. vm_compute. auto. Qed.


(** C21: for every input (valid or not), every way it is delivered (including
    errors of the source) and every program, no call ends with a failed internal
    check: the only panics are those of documented misuse. *)
Theorem C21_only_misuse_panics : forall (s : settings) (evs : list event) (cs : list rcall) (o : outcome), Forall is_byte (fst (supplied evs)) ->
  In o (read_session s evs cs) -> o <> OPanic Bug.
Proof. exact C21_only_misuse_panics_holds. Qed.
Print Assumptions C21_only_misuse_panics.
Example C21_case : exists o, In o (read_session default_settings
  [EvData [0x5B; 0x22]; EvInterrupted; EvData [0xFF; 0x5D]] [CBeginArray; CNextString; CEndArray]) /\
  o = OErr (EIo IoInvalidUtf8 (Position (Some [PIndex 0]) 0 2 2)).
Proof. eexists. split; [|reflexivity]. vm_compute. auto. Qed.


(** C27: turning path tracking off changes nothing but the path: every result of
    every program is the same, including the kind and location of errors, except
    that positions and errors have no path. *)
Theorem C27_path_tracking_has_no_influence : forall (s : settings) (evs : list event) (cs : list rcall), Forall is_byte (fst (supplied evs)) ->
  read_session (without_path s) evs cs = map no_path_outcome (read_session s evs cs).
Proof. exact C27_path_tracking_has_no_influence_holds. Qed.
Print Assumptions C27_path_tracking_has_no_influence.
Example C27_case :
  read_session default_settings sample_events [CBeginObject; CSkipName; CBeginArray; CNextBool; CPosition true; CEndObject] =
    [OOk RUnit; OOk RUnit; OOk RUnit;
     OErr (EUnexpectedType TBoolean TNumber (Position (Some [PName [0x61]; PIndex 0]) 0 6 6));
     OOk (RPos (Position (Some [PName [0x61]; PIndex 0]) 0 6 6)); OPanic Misuse].
Proof. vm_compute. reflexivity. Qed.


(** C26: the path of [current_position] at any point of any program is the path of
    the cursor: one piece per open container, the index of the next item, or the
    last name which was read. *)
Theorem C26_reported_path : forall (s : settings) (vs : list json) (evs : list event) (cs : list rcall) (xs : list expected) (c : cursor),
  document_input s vs evs -> track_path s = true ->
  walk_calls s cs (AtCursor (cursor_start vs)) = (xs, AtCursor c) ->
  exists os p, read_session s evs (cs ++ [CPosition true]) = os ++ [OOk (RPos p)] /\ length os = length cs /\
    p_path p = Some (cursor_path c).
Proof. exact C26_reported_path_holds. Qed.
Print Assumptions C26_reported_path.
Example C26_case : exists xs c,
  walk_calls default_settings [CBeginObject; CNextName; CBeginArray; CNextNumberStr] (AtCursor (cursor_start [sample_tree])) = (xs, AtCursor c) /\
  cursor_path c = [PName [0x61]; PIndex 1].
Proof. eexists _, _. split; vm_compute; reflexivity. Qed.


(** C28: wherever a value is next in a valid document, [skip_value] succeeds, and
    all further results are the same as after reading the value completely. *)
Theorem C28_skipping_is_reading : forall (s : settings) (vs : list json) (evs : list event) (cs1 cs2 : list rcall) (xs : list expected) (c : cursor) (v : json),
  document_input s vs evs -> walk_calls s cs1 (AtCursor (cursor_start vs)) = (xs, AtCursor c) ->
  at_value s (drop_reader c) = inr v ->
  exists ys,
    Forall2 (is_result s) (xs ++ [XOk RUnit] ++ ys) (read_session s evs (cs1 ++ [CSkipValue] ++ cs2)) /\
    (readable s v ->
     Forall2 (is_result s) (xs ++ map XOk (read_values v) ++ ys) (read_session s evs (cs1 ++ read_calls v ++ cs2))).
Proof. exact C28_skipping_is_reading_holds. Qed.
Print Assumptions C28_skipping_is_reading.
Example C28_case : exists xs c, walk_calls default_settings [CBeginObject; CNextName] (AtCursor (cursor_start [sample_tree])) = (xs, AtCursor c) /\
  at_value default_settings (drop_reader c) = inr (JArr [JNum [0x31]; JBool true]).
Proof. eexists _, _. split; vm_compute; reflexivity. Qed.


(** C29: [seek_to] succeeds if the path leads to a value; then that value is next,
    and [seek_back] after reading it returns behind the value at which [seek_to] started. *)
Theorem C29_seek_finds_the_value : forall (s : settings) (vs : list json) (evs : list event) (cs1 cs2 : list rcall) (xs : list expected) (c : cursor) (v u : json)
    (path : list piece),
  document_input s vs evs -> walk_calls s cs1 (AtCursor (cursor_start vs)) = (xs, AtCursor c) ->
  at_value s (drop_reader c) = inr v -> lookup path v = Some u -> readable s u ->
  exists ys,
    Forall2 (is_result s) (xs ++ [XOk RUnit] ++ map XOk (read_values u) ++ [XOk RUnit] ++ ys)
      (read_session s evs (cs1 ++ [CSeekTo path] ++ read_calls u ++ [CSeekBack path] ++ cs2)) /\
    Forall2 (is_result s) (xs ++ [XOk RUnit] ++ ys) (read_session s evs (cs1 ++ [CSkipValue] ++ cs2)).
Proof. exact C29_seek_finds_the_value_holds. Qed.
Print Assumptions C29_seek_finds_the_value.
(** C29: otherwise [seek_to] fails with UnexpectedStructure or UnexpectedValueType. *)
Theorem C29_seek_fails_otherwise : forall (s : settings) (vs : list json) (evs : list event) (cs : list rcall) (xs : list expected) (c : cursor) (v : json)
    (path : list piece),
  document_input s vs evs -> walk_calls s cs (AtCursor (cursor_start vs)) = (xs, AtCursor c) ->
  at_value s (drop_reader c) = inr v -> lookup path v = None ->
  exists os o, read_session s evs (cs ++ [CSeekTo path]) = os ++ [o] /\
    ((exists k loc, o = OErr (EUnexpectedStructure k loc)) \/ (exists e a loc, o = OErr (EUnexpectedType e a loc))).
Proof. exact C29_seek_fails_otherwise_holds. Qed.
Print Assumptions C29_seek_fails_otherwise.
Example C29_case : lookup [PName [0x61]; PIndex 1] sample_tree = Some (JBool true) /\
  lookup [PName [0x61]; PIndex 2] sample_tree = None /\ at_value default_settings (drop_reader (cursor_start [sample_tree])) = inr sample_tree.
Proof. vm_compute. auto. Qed.


(** C30: at any point of a valid document [skip_to_top_level] succeeds, and further
    calls behave as if everything that was open had been closed. *)
Theorem C30_skip_to_top_level_closes_everything : forall (s : settings) (vs : list json) (evs : list event) (cs1 cs2 : list rcall) (xs : list expected) (c : cursor),
  document_input s vs evs -> walk_calls s cs1 (AtCursor (cursor_start vs)) = (xs, AtCursor c) ->
  is_reading c = false ->
  Forall2 (is_result s)
    (xs ++ [XOk RUnit] ++ fst (walk_calls s cs2 (AtCursor (Cursor [] (top c) (started c) NotReading))))
    (read_session s evs (cs1 ++ [CSkipToTopLevel] ++ cs2)).
Proof. exact C30_skip_to_top_level_closes_everything_holds. Qed.
Print Assumptions C30_skip_to_top_level_closes_everything.
Example C30_case : exists xs c, walk_calls default_settings [CBeginObject; CNextName; CBeginArray] (AtCursor (cursor_start [sample_tree])) = (xs, AtCursor c) /\
  is_reading c = false /\ length (frames c) = 2%nat.
Proof. eexists _, _. split; vm_compute; auto. Qed.


(** C34: with [allow_multiple_top_level] all top-level values are returned in order,
    and [has_next] tells whether another one follows; then [peek] fails with
    UnexpectedStructure(FewerElementsThanExpected). *)
Theorem C34_all_top_level_values : forall (s : settings) (vs : list json) (evs : list event), document_input s vs evs ->
  allow_multiple_top_level s = true -> Forall (readable s) vs ->
  exists o, read_session s evs (read_all_calls vs ++ [CPeek]) = map OOk (read_all_values vs) ++ [o] /\
    exists loc, o = OErr (EUnexpectedStructure FewerElementsThanExpected loc).
Proof. exact C34_all_top_level_values_holds. Qed.
Print Assumptions C34_all_top_level_values.
(** C34: and [consume_trailing_whitespace] succeeds at the end. *)
Theorem C34_end_of_all_values : forall (s : settings) (vs : list json) (evs : list event), document_input s vs evs ->
  allow_multiple_top_level s = true -> Forall (readable s) vs ->
  read_session s evs (read_all_calls vs ++ [CConsumeTrailingWhitespace]) = map OOk (read_all_values vs ++ [RUnit]).
Proof. exact C34_end_of_all_values_holds. Qed.
Print Assumptions C34_end_of_all_values.
(** C34: without the setting a second value can not be read: every call which needs a
    value (or asks for one) is a misuse. *)
Theorem C34_single_value_only : forall (s : settings) (v : json) (evs : list event) (c : rcall), document_input s [v] evs ->
  allow_multiple_top_level s = false -> readable s v ->
  In c [CPeek; CHasNext; CBeginArray; CBeginObject; CNextString; CNextStr; CNextStringReader; CNextNumberStr;
        CNextNumberString; CNextBool; CNextNull; CSkipValue] ->
  read_session s evs (read_calls v ++ [c]) = map OOk (read_values v) ++ [OPanic Misuse].
Proof. exact C34_single_value_only_holds. Qed.
Print Assumptions C34_single_value_only.
Definition multi_settings : settings := Settings false false true true (Some 128) true.
Example C34_case :
  document_input multi_settings [JNull; JNum [0x32]] [EvData (lit_null ++ [0x20; 0x32])] /\
  read_session multi_settings [EvData (lit_null ++ [0x20; 0x32])] (read_all_calls [JNull; JNum [0x32]] ++ [CConsumeTrailingWhitespace]) =
    map OOk [RUnit; RBool true; RStr [0x32]; RBool false; RUnit].
Proof.
  split; [|vm_compute; reflexivity]. split; [reflexivity|]. split.
  - split; [discriminate|]. change (fst (supplied [EvData (lit_null ++ [0x20; 0x32])])) with ([] ++ lit_null ++ ([0x20] ++ [0x32] ++ [])).
    apply ST_value; [constructor|constructor| |left; left; reflexivity].
    apply ST_value; [apply WS_ws; [left; reflexivity|constructor]| |apply ST_end; left; constructor|intros _; exact I].
    constructor. exists 0%nat, [], [0x32], [], []. repeat split; auto; try (left; reflexivity).
    + right. exists 0x32, []. repeat split; try lia. constructor.
    + left. auto.
  - repeat constructor; discriminate.
Qed.


(** C07: the string reader delivers the UTF-8 encoding of the string, cut into
    pieces of the sizes of the buffers; once a buffer was not filled completely, the JSON reader
    continues as after [next_string]. *)
Theorem C07_buffer_sizes_do_not_matter : forall (s : settings) (vs : list json) (evs : list event) (cs1 cs2 : list rcall) (xs : list expected) (c : cursor) (t : str)
    (lens : list nat),
  document_input s vs evs -> walk_calls s cs1 (AtCursor (cursor_start vs)) = (xs, AtCursor c) ->
  at_value s (drop_reader c) = inr (JStr t) ->
  match cs2 with CRead _ :: _ => False | _ => True end ->
  exists ys,
    Forall2 (is_result s) (xs ++ [XOk RUnit] ++ map (fun d => XOk (RBytes d)) (chunks lens (encode_utf8 t)) ++ ys)
      (read_session s evs (cs1 ++ [CNextStringReader] ++ map CRead lens ++ cs2)) /\
    ((length (encode_utf8 t) < fold_right Nat.add 0 lens)%nat ->
     Forall2 (is_result s) (xs ++ [XOk (RStr t)] ++ ys) (read_session s evs (cs1 ++ [CNextString] ++ cs2))).
Proof. exact C07_buffer_sizes_do_not_matter_holds. Qed.
Print Assumptions C07_buffer_sizes_do_not_matter.
(** C07: the pieces together are the data, as far as the buffers suffice; a piece is
    empty only for an empty buffer or at the end. *)
Theorem C07_pieces : forall (lens : list nat) (data : bytes),
  concat (chunks lens data) = firstn (fold_right Nat.add 0%nat lens) data /\
  forall i n, nth_error lens i = Some n -> nth_error (chunks lens data) i = Some [] ->
    n = 0%nat \/ (length data <= fold_right Nat.add 0 (firstn i lens))%nat.
Proof. exact C07_pieces_holds. Qed.
Print Assumptions C07_pieces.
Example C07_case : chunks [2; 0; 1; 5; 3]%nat [1; 2; 3; 4] = [[1; 2]; []; [3]; [4]; []] /\
  exists xs c, walk_calls default_settings [CBeginObject; CNextName; CSkipValue; CSkipName] (AtCursor (cursor_start [sample_tree])) = (xs, AtCursor c) /\
  at_value default_settings (drop_reader c) = inr (JStr [0x78]).
Proof. split; [reflexivity|]. eexists _, _. split; vm_compute; reflexivity. Qed.


(** C15: a document which was written by the calls [cs] with any writer settings is
    read back by every program as the tree described by these calls, however the bytes
    are delivered and whichever extensions the reader allows; in particular reading it
    completely returns its data. *)
Theorem C15_written_document_reads_back : forall (cfg : wsettings) (out out' : sink) (cs : list wcall) (rs : list wresult) (ws : wsession) (v : json)
    (s : settings) (evs : list event),
  received out = [] -> Forall valid_call cs -> multi_top_level cfg = false ->
  describes_all false empty_doc cs (Wdoc [v] [] None) ->
  wrun cfg cs (new_session out) = (rs, ws) -> Forall2 success cs rs -> wfinish ws = (RDone, out') ->
  supplied evs = (received out', TEof) -> allow_multiple_top_level s = false -> within_limit s [v] ->
  (forall rcs, Forall2 (is_result s) (fst (walk_calls s rcs (AtCursor (cursor_start [v])))) (read_session s evs rcs)) /\
  (readable s v -> read_session s evs (read_calls v ++ [CConsumeTrailingWhitespace]) = map OOk (read_values v ++ [RUnit])).
Proof. exact C15_written_document_reads_back_holds. Qed.
Print Assumptions C15_written_document_reads_back.
(** C15: the same for several top-level values which are separated by whitespace. *)
Theorem C15_written_values_read_back : forall (cfg : wsettings) (out out' : sink) (cs : list wcall) (rs : list wresult) (ws : wsession) (d : wdoc)
    (s : settings) (evs : list event),
  received out = [] -> Forall valid_call cs -> multi_top_level cfg = true ->
  separator cfg <> [] -> Forall ws_byte (separator cfg) ->
  describes_all true empty_doc cs d ->
  wrun cfg cs (new_session out) = (rs, ws) -> Forall2 success cs rs -> wfinish ws = (RDone, out') ->
  supplied evs = (received out', TEof) -> allow_multiple_top_level s = true -> within_limit s (d_top d) ->
  (forall rcs, Forall2 (is_result s) (fst (walk_calls s rcs (AtCursor (cursor_start (d_top d))))) (read_session s evs rcs)) /\
  (Forall (readable s) (d_top d) ->
   read_session s evs (read_all_calls (d_top d) ++ [CConsumeTrailingWhitespace]) = map OOk (read_all_values (d_top d) ++ [RUnit])).
Proof. exact C15_written_values_read_back_holds. Qed.
Print Assumptions C15_written_values_read_back.
Example C15_case :
  let cs := [WriterModel.CBeginObject; CName [0x61]; WriterModel.CBeginArray; CNumber (-12); CBool true;
    WriterModel.CEndArray; WriterModel.CEndObject] in
  let v := JObj [([0x61], JArr [JNum [0x2D; 0x31; 0x32]; JBool true])] in
  let (rs, ws) := wrun (WSettings true true true None) cs (new_session (Sink [] [] [] 0)) in
  let (r, out) := wfinish ws in
  r = RDone /\ Forall (eq RDone) rs /\
  read_session default_settings [EvData (received out)] (read_calls v ++ [CConsumeTrailingWhitespace]) = map OOk (read_values v ++ [RUnit]).
Proof. vm_compute. repeat constructor. Qed.


(** C09: a string which was written with any settings is read back unchanged. *)
Theorem C09_written_string_reads_back : forall (cfg : wsettings) (out : sink) (v : str) (s : settings) (evs : list event),
  Forall is_char v -> received out = [] -> reliable out ->
  exists ws out', wrun cfg [CString v] (new_session out) = ([RDone], ws) /\ wfinish ws = (RDone, out') /\
    (supplied evs = (received out', TEof) ->
     read_session s evs [CNextString; CConsumeTrailingWhitespace] = [OOk (RStr v); OOk RUnit]).
Proof. exact C09_written_string_reads_back_holds. Qed.
Print Assumptions C09_written_string_reads_back.
