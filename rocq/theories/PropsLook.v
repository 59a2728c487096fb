(** * Properties of reading: input behind what has been consumed (C52) *)

From Verif Require Import Base Utf8Model NumberModel SpecJson SourceModel ReaderModel SpecCursor SpecRead SpecText SpecLook LookFinal PropsReader.


(** C52: directly behind a string, a name or the start or end of an array or object, the reader has needed no further input.  The
outcomes of a program which ends with such a call depend only on the bytes which have been consumed: with any other source
which supplies the same bytes up to that position, whatever follows, the outcomes are the same.  In particular the source may
end, fail or block there. *)
Theorem C52_outcomes_depend_on_the_consumed_bytes : forall (s : settings) (evs evs' : list event) (cs ends : list rcall) (os oends : list outcome) (b : bool) (p : position),
  Forall is_byte (fst (supplied evs)) -> Forall is_byte (fst (supplied evs')) ->
  delimited_end ends oends ->
  read_session s evs (cs ++ ends ++ [CPosition b]) = os ++ oends ++ [OOk (RPos p)] ->
  (forall e, ~ In (OReadErr e) os) ->
  firstn (N.to_nat (p_byte p)) (fst (supplied evs')) = firstn (N.to_nat (p_byte p)) (fst (supplied evs)) ->
  read_session s evs' (cs ++ ends ++ [CPosition b]) = os ++ oends ++ [OOk (RPos p)].
Proof. exact C52_outcomes_depend_on_the_consumed_bytes_holds. Qed.
Print Assumptions C52_outcomes_depend_on_the_consumed_bytes.
(** [[\"a\",{\"b\":] followed by anything, or by an error of the source *)
Example C52_case : forall more : list event, Forall is_byte (fst (supplied more)) ->
  read_session default_settings (EvData [0x5B; 0x22; 0x61; 0x22; 0x2C; 0x7B; 0x22; 0x62; 0x22; 0x3A] :: more)
    [CBeginArray; CNextString; CBeginObject; CNextName; CPosition false] =
  [OOk RUnit; OOk (RStr [0x61]); OOk RUnit; OOk (RStr [0x62]); OOk (RPos (Position None 0 9 9))].
Proof.
  intros more Hm. set (bs := [0x5B; 0x22; 0x61; 0x22; 0x2C; 0x7B; 0x22; 0x62; 0x22; 0x3A]).
  assert (Hb : Forall is_byte bs) by (repeat constructor).
  assert (Hs : fst (supplied (EvData bs :: more)) = bs ++ fst (supplied more)) by (cbn [supplied bs]; destruct (supplied more); reflexivity).
  refine (C52_outcomes_depend_on_the_consumed_bytes default_settings [EvData bs] _ [CBeginArray; CNextString; CBeginObject] [CNextName]
    [OOk RUnit; OOk (RStr [0x61]); OOk RUnit] [OOk (RStr [0x62])] false _ _ _ _ _ _ _).
  - exact Hb.
  - rewrite Hs. apply Forall_app. split; assumption.
  - constructor. reflexivity.
  - reflexivity.
  - intros e H. cbn in H. intuition discriminate.
  - rewrite Hs. reflexivity.
Qed.
(** a number does not show its end: it can not be read when the source fails behind it, and what follows makes a difference *)
Example C52_numbers_need_a_byte :
  read_session default_settings [EvData [0x31; 0x32]; EvErr 7] [CNextNumberStr] = [OErr (EIo (IoSource 7) (Position (Some []) 0 0 0))] /\
  read_session default_settings [EvData [0x31; 0x32; 0x33]] [CNextNumberStr] = [OOk (RStr [0x31; 0x32; 0x33])] /\
  read_session default_settings [EvData [0x31; 0x32]] [CNextNumberStr] = [OOk (RStr [0x31; 0x32])].
Proof. vm_compute. auto. Qed.


(** C52: such a program does not ask the source for more: if the source supplies the consumed bytes with its first results [evs1] of
[read], it is not called again to get one of the results [evs2] which follow.  So a client which reads from a connection does
not wait for bytes which the other side sends only later. *)
Theorem C52_source_is_not_read_ahead : forall (s : settings) (evs1 evs2 : list event) (cs ends : list rcall) (os oends : list outcome) (b : bool) (p : position),
  Forall is_byte (fst (supplied (evs1 ++ evs2))) ->
  delimited_end ends oends ->
  read_session s (evs1 ++ evs2) (cs ++ ends ++ [CPosition b]) = os ++ oends ++ [OOk (RPos p)] ->
  (forall e, ~ In (OReadErr e) os) ->
  (N.to_nat (p_byte p) <= length (fst (supplied evs1)))%nat ->
  exists rest, events_left s (evs1 ++ evs2) (cs ++ ends) = rest ++ evs2.
Proof. exact C52_source_is_not_read_ahead_holds. Qed.
Print Assumptions C52_source_is_not_read_ahead.
(** the bytes of [[\"a\"] arrive in pieces; what follows has not been asked for *)
Example C52_read_ahead_case :
  let evs1 := [EvData [0x5B; 0x22]; EvInterrupted; EvData [0x61; 0x22]] in
  let evs2 := [EvData [0x2C]; EvErr 3] in
  read_session default_settings (evs1 ++ evs2) ([CBeginArray] ++ [CNextString] ++ [CPosition false]) = [OOk RUnit] ++ [OOk (RStr [0x61])] ++ [OOk (RPos (Position None 0 4 4))] /\
  length (fst (supplied evs1)) = 4%nat /\
  events_left default_settings (evs1 ++ evs2) ([CBeginArray] ++ [CNextString]) = evs2 /\
  (* [has_next] does ask *)
  events_left default_settings (evs1 ++ evs2) ([CBeginArray] ++ [CNextString] ++ [CHasNext]) = [].
Proof. vm_compute. auto. Qed.


(** C52: a string, array or object is read completely as soon as its text is there.  If reading works on a source which supplies just
this document, it gives the same values on every source which supplies its text and then anything else: more values, garbage,
an error. *)
Theorem C52_complete_value_without_what_follows : forall (s : settings) (v : json) (evs evs' : list event) (more : bytes),
  match v with JStr _ | JArr _ | JObj _ => True | _ => False end ->
  document_input s [v] evs -> readable s v ->
  Forall is_byte (fst (supplied evs')) -> fst (supplied evs') = fst (supplied evs) ++ more ->
  read_session s evs' (read_calls v) = map OOk (read_values v).
Proof. exact C52_complete_value_without_what_follows_holds. Qed.
Print Assumptions C52_complete_value_without_what_follows.
Example C52_value_case : forall more : bytes, Forall is_byte more ->
  read_session default_settings [EvData (sample_text ++ more); EvErr 1] (read_calls sample_tree) = map OOk (read_values sample_tree).
Proof.
  intros more Hm.
  assert (Hs : fst (supplied [EvData (sample_text ++ more); EvErr 1]) = fst (supplied sample_events) ++ more)
    by (cbn [supplied sample_text app]; cbn [fst]; rewrite app_nil_r; reflexivity).
  destruct C20_case as (Hd & Hr & _).
  refine (C52_complete_value_without_what_follows default_settings sample_tree sample_events _ more _ Hd Hr _ Hs).
  - exact I.
  - rewrite Hs. apply Forall_app. split; [repeat constructor|exact Hm].
Qed.


(** C52: and the source is not read ahead: when its first results of [read] supply the document, it is not called again. *)
Theorem C52_complete_value_is_not_read_ahead : forall (s : settings) (v : json) (evs1 evs2 : list event),
  match v with JStr _ | JArr _ | JObj _ => True | _ => False end ->
  input_text s [v] (fst (supplied evs1)) -> within_limit s [v] -> readable s v ->
  (exists more, fst (supplied (evs1 ++ evs2)) = fst (supplied evs1) ++ more) -> Forall is_byte (fst (supplied (evs1 ++ evs2))) ->
  read_session s (evs1 ++ evs2) (read_calls v) = map OOk (read_values v) /\
  exists rest, events_left s (evs1 ++ evs2) (read_calls v) = rest ++ evs2.
Proof. exact C52_complete_value_is_not_read_ahead_holds. Qed.
Print Assumptions C52_complete_value_is_not_read_ahead.
Example C52_value_read_ahead_case :
  input_text default_settings [sample_tree] (fst (supplied sample_events)) /\ within_limit default_settings [sample_tree] /\ readable default_settings sample_tree /\
  fst (supplied (sample_events ++ [EvErr 4; EvData [0x31]])) = fst (supplied sample_events) ++ [] /\
  events_left default_settings (sample_events ++ [EvErr 4; EvData [0x31]]) (read_calls sample_tree) = [EvErr 4; EvData [0x31]].
Proof. destruct C20_case as ((_ & H1 & H2) & H3 & _). split; [exact H1|]. split; [exact H2|]. split; [exact H3|]. vm_compute. auto. Qed.


(** C52: at any other point at most six bytes behind the reported position have been looked at (a literal such as [false] which has been
peeked, and the byte behind it).  The outcomes of any program up to this point are the same on every source which agrees on the
bytes up to there; if the input ends before, the source must also end in the same way. *)
Theorem C52_lookahead_is_bounded : forall (s : settings) (evs evs' : list event) (cs : list rcall) (os : list outcome) (b : bool) (p : position),
  let n := (N.to_nat (p_byte p) + 6)%nat in
  Forall is_byte (fst (supplied evs)) -> Forall is_byte (fst (supplied evs')) ->
  read_session s evs (cs ++ [CPosition b]) = os ++ [OOk (RPos p)] ->
  (forall e, ~ In (OReadErr e) os) ->
  firstn n (fst (supplied evs')) = firstn n (fst (supplied evs)) ->
  ((length (fst (supplied evs)) < n)%nat -> snd (supplied evs') = snd (supplied evs)) ->
  read_session s evs' (cs ++ [CPosition b]) = os ++ [OOk (RPos p)].
Proof. exact C52_lookahead_is_bounded_holds. Qed.
Print Assumptions C52_lookahead_is_bounded.
(** [false] has been peeked at position 1: the six bytes behind it have been looked at, and all of them matter *)
Example C52_lookahead_case :
  let run t := read_session default_settings [EvData t] ([CBeginArray; CPeek] ++ [CPosition false]) in
  let ok := [OOk RUnit; OOk (RType TBoolean); OOk (RPos (Position None 0 1 1))] in
  run [0x5B; 0x66; 0x61; 0x6C; 0x73; 0x65; 0x20; 0x5D] = ok /\
  run [0x5B; 0x66; 0x61; 0x6C; 0x73; 0x65; 0x20; 0x00] = ok /\
  run [0x5B; 0x66; 0x61; 0x6C; 0x73; 0x65; 0x61; 0x5D] <> ok.
Proof. vm_compute. repeat split; discriminate. Qed.

