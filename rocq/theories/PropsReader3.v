(** * Properties of reading: C06, C18, C22, C23, C35, C41 *)

From Verif Require Import Base Utf8Model SpecNumber SpecJson SourceModel ReaderModel SpecCursor SpecRead SpecSessions ReaderFinal3
  PropsReader.


(** C22: a successful [peek] or [has_next] can be inserted anywhere without an
    effect on the other calls.  (A position which is asked for afterwards is
    behind skipped whitespace; its path is the same.)  Partial: with several
    top-level values, a later [consume_trailing_whitespace] is excluded, see
    C22_refuted_before_consume_trailing_whitespace. *)
Theorem C22_looking_has_no_effect_partial : forall (s : settings) (evs : list event) (cs1 cs2 : list rcall) (q : rcall), Forall is_byte (fst (supplied evs)) ->
  q = CPeek \/ q = CHasNext ->
  first_not_read cs2 ->
  allow_multiple_top_level s = false \/ ~ In CConsumeTrailingWhitespace cs2 ->
  exists os1 o os2 os2',
    read_session s evs (cs1 ++ q :: cs2) = os1 ++ o :: os2 /\
    read_session s evs (cs1 ++ cs2) = os1 ++ os2' /\
    length os1 = length cs1 /\ length os2 = length cs2 /\ length os2' = length cs2 /\
    ((exists v, o = OOk v) -> Forall2 same_result os2' os2).
Proof. exact C22_looking_has_no_effect_partial_holds. Qed.
Print Assumptions C22_looking_has_no_effect_partial.
(** C22: repeated calls have the same result. *)
Theorem C22_repeated_calls_agree : forall (s : settings) (evs : list event) (cs : list rcall) (q : rcall) (os : list outcome) (v : rvalue) (n : nat),
  Forall is_byte (fst (supplied evs)) ->
  q = CPeek \/ q = CHasNext ->
  read_session s evs (cs ++ [q]) = os ++ [OOk v] ->
  read_session s evs (cs ++ repeat q n) = os ++ repeat (OOk v) n.
Proof. exact C22_repeated_calls_agree_holds. Qed.
Print Assumptions C22_repeated_calls_agree.
(** C22 is refuted for [consume_trailing_whitespace] if multiple top-level values
    are allowed: with the input [1 \[] it fails; after [has_next] it succeeds. *)
Theorem C22_refuted_before_consume_trailing_whitespace : exists (s : settings) (evs : list event) (l : position),
  allow_multiple_top_level s = true /\
  read_session s evs [CNextNumberStr; CConsumeTrailingWhitespace] = [OOk (RStr [0x31]); OErr (ESyntax TrailingData l)] /\
  read_session s evs [CNextNumberStr; CHasNext; CConsumeTrailingWhitespace] = [OOk (RStr [0x31]); OOk (RBool true); OOk RUnit].
Proof. exact C22_refuted_before_consume_trailing_whitespace_holds. Qed.
Print Assumptions C22_refuted_before_consume_trailing_whitespace.
(** [{"a":[1,true], "b":"x"} ]: looking before reading the second member *)
Example C22_case :
  read_session default_settings sample_events [CBeginObject; CNextName; CPeek] = [OOk RUnit; OOk (RStr [0x61])] ++ [OOk (RType TArray)] /\
  read_session default_settings sample_events ([CBeginObject; CNextName; CSkipValue] ++ CHasNext :: [CNextName; CNextString; CEndObject; CConsumeTrailingWhitespace]) =
    map OOk [RUnit; RStr [0x61]; RUnit; RBool true; RStr [0x62]; RStr [0x78]; RUnit; RUnit] /\
  read_session default_settings sample_events ([CBeginObject; CNextName; CSkipValue] ++ [CNextName; CNextString; CEndObject; CConsumeTrailingWhitespace]) =
    map OOk [RUnit; RStr [0x61]; RUnit; RStr [0x62]; RStr [0x78]; RUnit; RUnit] /\
  Forall is_byte (fst (supplied sample_events)).
Proof. vm_compute. repeat split; repeat constructor. Qed.


(** C23: a call which fails with [UnexpectedValueType], [UnexpectedStructure] or
    [MaxNestingDepthExceeded] has no effect on the calls after it.  This holds
    for all functions except those which make several steps ([skip_value],
    [seek_to], [seek_back], [skip_to_top_level]).  Partial: for those it is false, see
    C23_refuted_for_seek_to and C23_refuted_for_skip_value. *)
Theorem C23_failed_call_has_no_effect_partial : forall (s : settings) (evs : list event) (cs1 cs2 : list rcall) (c : rcall), Forall is_byte (fst (supplied evs)) ->
  ~ composite c ->
  first_not_read cs2 ->
  allow_multiple_top_level s = false \/ ~ In CConsumeTrailingWhitespace cs2 ->
  exists os1 o os2 os2',
    read_session s evs (cs1 ++ c :: cs2) = os1 ++ o :: os2 /\
    read_session s evs (cs1 ++ cs2) = os1 ++ os2' /\
    length os1 = length cs1 /\ length os2 = length cs2 /\ length os2' = length cs2 /\
    ((exists x y p, o = OErr (EUnexpectedType x y p)) \/ (exists k p, o = OErr (EUnexpectedStructure k p)) \/
     (exists m p, o = OErr (EMaxNestingDepth m p)) -> Forall2 same_result os2' os2).
Proof. exact C23_failed_call_has_no_effect_partial_holds. Qed.
Print Assumptions C23_failed_call_has_no_effect_partial.
(** C23 is refuted for [seek_to]: with the input [\[1\]] it fails because there is
    no item 5, and the reader is then in the array. *)
Theorem C23_refuted_for_seek_to : exists (s : settings) (evs : list event) (l l' : position),
  read_session s evs [CPeek] = [OOk (RType TArray)] /\
  read_session s evs [CSeekTo [PIndex 5]; CPeek] = [OErr (EUnexpectedStructure (TooShortArray 5) l); OErr (EUnexpectedStructure FewerElementsThanExpected l')].
Proof. exact C23_refuted_for_seek_to_holds. Qed.
Print Assumptions C23_refuted_for_seek_to.
(** C23 is refuted for [skip_value]: with the input [\[\[1\]\]] and a nesting limit
    of 1 it fails, and the reader is then in the outer array. *)
Theorem C23_refuted_for_skip_value : exists (s : settings) (evs : list event) (l : position),
  read_session s evs [CEndArray] = [OPanic Misuse] /\
  read_session s evs [CSkipValue; CHasNext; CEndArray] =
    [OErr (EMaxNestingDepth 1 l); OOk (RBool true); OErr (EUnexpectedStructure MoreElementsThanExpected l)].
Proof. exact C23_refuted_for_skip_value_holds. Qed.
Print Assumptions C23_refuted_for_skip_value.
Example C23_case : exists l l',
  read_session default_settings sample_events ([CBeginObject; CNextName] ++ CNextString :: [CSkipValue; CNextName]) =
    [OOk RUnit; OOk (RStr [0x61]); OErr (EUnexpectedType TString TArray l); OOk RUnit; OOk (RStr [0x62])] /\
  read_session default_settings sample_events ([CBeginObject] ++ CEndObject :: [CNextName; CSkipValue; CNextName]) =
    [OOk RUnit; OErr (EUnexpectedStructure MoreElementsThanExpected l'); OOk (RStr [0x61]); OOk RUnit; OOk (RStr [0x62])].
Proof. vm_compute. eexists _, _. split; reflexivity. Qed.


(** C06: replacing every [next_string] by [next_str], every [next_name_owned] and
    [skip_name] by [next_name], and every [next_number_as_string] by
    [next_number_as_str], at any places, changes no result, except that
    [skip_name] does not return the name. *)
Theorem C06_ways_to_read_agree : forall (s : settings) (evs : list event) (cs : list rcall), Forall is_byte (fst (supplied evs)) ->
  read_session s evs cs = results_as cs (read_session s evs (map canonical cs)).
Proof. exact C06_ways_to_read_agree_holds. Qed.
Print Assumptions C06_ways_to_read_agree.
(** C06: the string reader.  If [next_string] returns [v] then [next_string_reader]
    succeeds, reading from it returns the bytes of [v] (in buffers of any sizes),
    and if it has been read to its end, that is, if a read has returned fewer
    bytes than asked for, then the remaining calls have the same results as after
    [next_string].  If [next_string] fails then [next_string_reader] fails with
    the same error, and the remaining calls have the same results; or the reads
    never report the end of the string. *)
Theorem C06_string_reader_agrees : forall (s : settings) (evs : list event) (cs1 : list rcall) (lens : list nat) (cs2 : list rcall), Forall is_byte (fst (supplied evs)) ->
  exists os1 o os2 o' rs os2',
    read_session s evs (cs1 ++ CNextString :: cs2) = os1 ++ o :: os2 /\
    read_session s evs (cs1 ++ CNextStringReader :: map CRead lens ++ cs2) = os1 ++ o' :: rs ++ os2' /\
    length os1 = length cs1 /\ length rs = length lens /\
    match o with
    | OOk (RStr v) => o' = OOk RUnit /\ rs = map (fun bs => OOk (RBytes bs)) (chunks lens (encode_utf8 v)) /\
        ((length (encode_utf8 v) < list_sum lens)%nat -> first_not_read cs2 -> os2' = os2)
    | OOk _ => False
    | _ => (o' = o /\ os2' = os2) \/
        (exists e, o = OErr e /\ recoverable e = false /\ o' = OOk RUnit /\ Forall2 full_or_error lens rs)
    end.
Proof. exact C06_string_reader_agrees_holds. Qed.
Print Assumptions C06_string_reader_agrees.
(** [\["aé", "b"\]] *)
Definition strings_events : list event :=
  [EvData [0x5B; 0x22; 0x61; 0x5C; 0x75; 0x30]; EvData [0x30; 0x65; 0x39; 0x22; 0x2C; 0x22; 0x62; 0x22; 0x5D]].
Example C06_case :
  read_session default_settings strings_events ([CBeginArray] ++ CNextString :: [CNextStr]) = map OOk [RUnit; RStr [0x61; 0xE9]; RStr [0x62]] /\
  read_session default_settings strings_events ([CBeginArray] ++ CNextStringReader :: map CRead [2; 2]%nat ++ [CNextString]) =
    map OOk [RUnit; RUnit; RBytes [0x61; 0xC3]; RBytes [0xA9]; RStr [0x62]] /\
  read_session default_settings sample_events [CBeginObject; CSkipName; CSkipValue; CNextNameOwned] = map OOk [RUnit; RUnit; RUnit; RStr [0x62]] /\
  (exists l, read_session default_settings [EvData [0x22; 0x61; 0x5C; 0x78; 0x22]] [CNextString] = [OErr (ESyntax UnknownEscapeSequence l)] /\
   read_session default_settings [EvData [0x22; 0x61; 0x5C; 0x78; 0x22]] [CNextStringReader; CRead 2] =
     [OOk RUnit; OReadErr (SvError (ESyntax UnknownEscapeSequence l))]).
Proof. vm_compute. repeat split. eexists. split; reflexivity. Qed.


(** C18: the input breaks off with an I/O error; the results are those of the
    complete input (with any continuation, and any end), until a call reports
    this I/O error. *)
Theorem C18_io_error_reported_or_same_result : forall (s : settings) (evs evs' : list event) (e : N) (more : bytes) (cs : list rcall),
  snd (supplied evs) = TErr e ->
  fst (supplied evs') = fst (supplied evs) ++ more ->
  Forall is_byte (fst (supplied evs')) ->
  same_until (hit_outcome (fun err => exists p, err = EIo (IoSource e) p)) (read_session s evs cs) (read_session s evs' cs).
Proof. exact C18_io_error_reported_or_same_result_holds. Qed.
Print Assumptions C18_io_error_reported_or_same_result.
(** [\[1, ] and then an I/O error *)
Example C18_case : exists p,
  read_session default_settings [EvData [0x5B; 0x31]; EvInterrupted; EvData [0x2C; 0x20]; EvErr 7] [CBeginArray; CNextNumberStr; CHasNext; CEndArray] =
    [OOk RUnit; OOk (RStr [0x31]); OErr (EIo (IoSource 7) p); OStopped] /\
  read_session default_settings [EvData [0x5B; 0x31; 0x2C; 0x20; 0x5D]] [CBeginArray; CNextNumberStr; CHasNext; CEndArray] <>
  read_session default_settings [EvData [0x5B; 0x31; 0x2C; 0x20; 0x32; 0x5D]] [CBeginArray; CNextNumberStr; CHasNext; CEndArray].
Proof. vm_compute. eexists. split; [reflexivity|discriminate]. Qed.


(** C35: without comments enabled the results are the same as with comments
    enabled, until a call fails with [CommentsNotEnabled]. *)
Theorem C35_comments_not_enabled : forall (s : settings) (evs : list event) (cs : list rcall), Forall is_byte (fst (supplied evs)) ->
  same_until (hit_outcome (fun e => exists p, e = ESyntax CommentsNotEnabled p))
    (read_session (set_comments false s) evs cs) (read_session (set_comments true s) evs cs).
Proof. exact C35_comments_not_enabled_holds. Qed.
Print Assumptions C35_comments_not_enabled.
(** C35: the same for trailing commas. *)
Theorem C35_trailing_comma_not_enabled : forall (s : settings) (evs : list event) (cs : list rcall), Forall is_byte (fst (supplied evs)) ->
  same_until (hit_outcome (fun e => exists p, e = ESyntax TrailingCommaNotEnabled p))
    (read_session (set_trailing_comma false s) evs cs) (read_session (set_trailing_comma true s) evs cs).
Proof. exact C35_trailing_comma_not_enabled_holds. Qed.
Print Assumptions C35_trailing_comma_not_enabled.
(** C35: a document which is only a document because of its comments is rejected
    with [CommentsNotEnabled]. *)
Theorem C35_document_with_comments_rejected : forall (s : settings) (evs : list event) (v : json), Forall is_byte (fst (supplied evs)) ->
  allow_multiple_top_level s = false ->
  document_input (set_comments true s) [v] evs ->
  ~ (exists v', document_input (set_comments false s) [v'] evs) ->
  exists p, In (OErr (ESyntax CommentsNotEnabled p)) (read_session (set_comments false s) evs [CSkipValue; CConsumeTrailingWhitespace]).
Proof. exact C35_document_with_comments_rejected_holds. Qed.
Print Assumptions C35_document_with_comments_rejected.
(** C35: the same for trailing commas. *)
Theorem C35_document_with_trailing_comma_rejected : forall (s : settings) (evs : list event) (v : json), Forall is_byte (fst (supplied evs)) ->
  allow_multiple_top_level s = false ->
  document_input (set_trailing_comma true s) [v] evs ->
  ~ (exists v', document_input (set_trailing_comma false s) [v'] evs) ->
  exists p, In (OErr (ESyntax TrailingCommaNotEnabled p)) (read_session (set_trailing_comma false s) evs [CSkipValue; CConsumeTrailingWhitespace]).
Proof. exact C35_document_with_trailing_comma_rejected_holds. Qed.
Print Assumptions C35_document_with_trailing_comma_rejected.
(** [\[1/**/,\]] *)
Definition comment_events : list event := [EvData [0x5B; 0x31; 0x2F; 0x2A; 0x2A; 0x2F; 0x2C; 0x5D]].
Example C35_case : exists p p',
  read_session (set_comments false (set_trailing_comma true default_settings)) comment_events [CBeginArray; CNextNumberStr; CEndArray; CConsumeTrailingWhitespace] =
    [OOk RUnit; OOk (RStr [0x31]); OErr (ESyntax CommentsNotEnabled p); OStopped] /\
  read_session (set_comments true (set_trailing_comma false default_settings)) comment_events [CBeginArray; CNextNumberStr; CEndArray; CConsumeTrailingWhitespace] =
    [OOk RUnit; OOk (RStr [0x31]); OErr (ESyntax TrailingCommaNotEnabled p'); OStopped] /\
  read_session (set_comments true (set_trailing_comma true default_settings)) comment_events [CBeginArray; CNextNumberStr; CEndArray; CConsumeTrailingWhitespace] =
    map OOk [RUnit; RStr [0x31]; RUnit; RUnit].
Proof. vm_compute. eexists _, _. repeat (split; try reflexivity). Qed.


(** C41: a larger nesting limit, or none, gives the same results until a call
    fails because of the smaller limit. *)
Theorem C41_larger_nesting_limit : forall (s : settings) (evs : list event) (cs : list rcall) (m : N) (d : option N), Forall is_byte (fst (supplied evs)) ->
  (forall m', d = Some m' -> m <= m') ->
  same_until (hit_outcome (fun e => exists p, e = EMaxNestingDepth m p))
    (read_session (set_max_nesting_depth (Some m) s) evs cs) (read_session (set_max_nesting_depth d s) evs cs).
Proof. exact C41_larger_nesting_limit_holds. Qed.
Print Assumptions C41_larger_nesting_limit.
(** C41: without restriction of numbers the results are the same until a call
    fails with [UnsupportedNumberValue]. *)
Theorem C41_unrestricted_numbers : forall (s : settings) (evs : list event) (cs : list rcall), Forall is_byte (fst (supplied evs)) ->
  same_until (hit_outcome (fun e => exists n p, e = EUnsupportedNumber n p))
    (read_session (set_restrict_numbers true s) evs cs) (read_session (set_restrict_numbers false s) evs cs).
Proof. exact C41_unrestricted_numbers_holds. Qed.
Print Assumptions C41_unrestricted_numbers.
Example C41_case : exists p p',
  read_session (set_max_nesting_depth (Some 1) default_settings) sample_events [CBeginObject; CNextName; CBeginArray; CNextNumberStr] =
    [OOk RUnit; OOk (RStr [0x61]); OErr (EMaxNestingDepth 1 p); OErr (EUnexpectedType TNumber TArray p)] /\
  read_session (set_max_nesting_depth None default_settings) sample_events [CBeginObject; CNextName; CBeginArray; CNextNumberStr] =
    map OOk [RUnit; RStr [0x61]; RUnit; RStr [0x31]] /\
  read_session (set_restrict_numbers true default_settings) [EvData [0x31; 0x65; 0x31; 0x30; 0x30]] [CNextNumberStr] =
    [OErr (EUnsupportedNumber [0x31; 0x65; 0x31; 0x30; 0x30] p')] /\
  read_session (set_restrict_numbers false default_settings) [EvData [0x31; 0x65; 0x31; 0x30; 0x30]] [CNextNumberStr] =
    [OOk (RStr [0x31; 0x65; 0x31; 0x30; 0x30])].
Proof. vm_compute. eexists _, _. repeat (split; try reflexivity). Qed.

