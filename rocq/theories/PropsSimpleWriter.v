(** * Properties of the simple writer API (C40, C50) *)

From Verif Require Import Base Utf8Model SpecNumber SpecJson WriterModel SpecWriter SimpleWriterModel SpecSimpleWriter
  SimpleWriterFinal PropsWriter.
From Verif Require SerModel SpecSer.

(** C40: if every call and every closure returns [Ok] ([value_described]), and the
    underlying [Write] does not fail, then the outermost method succeeds, the
    underlying [Write] has received the complete text of the described value, and has
    been flushed. *)
Theorem C40_closures_write_their_data : forall (R : Type) (cfg : wsettings) (out : sink) (o : wop R) (v : json) (x : option R),
  received out = [] -> reliable out -> valid_wop o -> value_described o v x ->
  exists out', simple_write cfg out o = (ERet (x, None), out') /\
    received out' = layout cfg 0 v /\ rfc8259_document v (received out') /\ flushes out' > 0.
Proof. exact C40_closures_write_their_data_holds. Qed.
Print Assumptions C40_closures_write_their_data.
(** An object with a member which is written as string in two parts, one for which
    nothing is written, and an array whose length depends on captured variables *)
Definition some_object : wop nat :=
  WObject (OWrite (MMember [0x61] (MWrite (WStringWith (SWWrite [0xC3] (fun _ => SWWrite [0xA4] (fun _ => SWDone 2%nat None)))) (fun x e => (match x with Some n => n | None => O end, e))))
    (fun x e => OWrite (MMember [0x62] (MDone O None))
    (fun _ _ => OWrite (MValue [0x63] (WArray (match x with Some 2%nat => AWrite (WBool true) (fun _ e' => ADone O e') | _ => ADone O None end)))
    (fun _ e' => ODone O e')))).
Definition some_object_value : json :=
  JObj [([0x61], JStr [0xE4]); ([0x62], JNull); ([0x63], JArr [JBool true])].
Example C40_case : valid_wop some_object /\ value_described some_object some_object_value (Some O) /\ received fast_sink = [] /\ reliable fast_sink.
Proof.
  split; [|split; [|split; [reflexivity|split; constructor]]].
  - assert (Hn : forall c, c < 0x80 -> Forall is_char [c]) by (intros c Hc; constructor; [unfold is_char; lia|constructor]).
    assert (Hb : forall b, b < 0x100 -> Forall is_byte [b]) by (intros b Hb; constructor; [exact Hb|constructor]).
    split; [split; [apply Hn; lia|]|].
    + split; [apply Hb; lia|]. intros _. split; [apply Hb; lia|]. intros _. exact I.
    + intros x e. split; [split; [apply Hn; lia|exact I]|]. intros _ _. split; [split; [apply Hn; lia|]|intros; exact I].
      destruct x as [[|[|[|n]]]|]; repeat split.
  - apply VD_object. eapply OD_write.
    + eapply MD_closure; [|reflexivity]. apply (VD_string_with _ [0xC3; 0xA4] [0xE4]); [repeat constructor|reflexivity].
    + eapply OD_write; [constructor|]. eapply OD_write; [|constructor].
      apply MD_value, VD_array. cbn. eapply ID_write; constructor.
Qed.
Example C40_case_output : fst (simple_write default_wsettings fast_sink some_object) = ERet (Some O, None) /\
  received (snd (simple_write default_wsettings fast_sink some_object)) =
    [0x7B; 0x22; 0x61; 0x22; 0x3A; 0x22; 0xC3; 0xA4; 0x22; 0x2C; 0x22; 0x62; 0x22; 0x3A; 0x6E; 0x75; 0x6C; 0x6C; 0x2C; 0x22; 0x63; 0x22; 0x3A; 0x5B; 0x74; 0x72; 0x75; 0x65; 0x5D; 0x7D].
Proof. split; vm_compute; reflexivity. Qed.


(** C40: whatever the closures do and whatever the underlying [Write] does (the [Serialize]
    implementations of values for [write_serialize] abort after an error): if the
    outermost method succeeds, then the text which has been written is complete and
    is the one of the value which the closures describe. *)
Theorem C40_success_means_complete : forall (R : Type) (cfg : wsettings) (out : sink) (o : wop R) (x : option R) (out' : sink),
  received out = [] -> valid_wop o -> careful_wop o -> simple_write cfg out o = (ERet (x, None), out') ->
  exists v, value_described o v x /\ received out' = layout cfg 0 v /\ rfc8259_document v (received out') /\ flushes out' > 0.
Proof. exact C40_success_means_complete_holds. Qed.
Print Assumptions C40_success_means_complete.
Example C40_success_case : received slow_sink = [] /\ valid_wop some_object /\ careful_wop some_object /\
  simple_write pretty_cfg slow_sink some_object = (ERet (Some O, None), snd (simple_write pretty_cfg slow_sink some_object)).
Proof.
  split; [reflexivity|]. split; [exact (proj1 C40_case)|]. split; [|vm_compute; reflexivity].
  repeat split. destruct x as [[|[|[|n]]]|]; repeat split.
Qed.


(** C40: a member whose closure does not write a value gets the value [null], for every
    name and whatever comes before and after it. *)
Theorem C40_member_without_value_is_null : forall (cfg : wsettings) (out : sink) (names : list str), received out = [] -> reliable out -> Forall (Forall is_char) names ->
  exists out', simple_write cfg out
      (WObject (fold_right (fun n b => OWrite (MMember n (MDone tt None)) (fun _ _ => b)) (ODone tt None) names)) =
    (ERet (Some tt, None), out') /\
    rfc8259_document (JObj (map (fun n => (n, JNull)) names)) (received out').
Proof. exact C40_member_without_value_is_null_holds. Qed.
Print Assumptions C40_member_without_value_is_null.
Example C40_null_case : Forall (Forall is_char) [[0x61]; [0x62]].
Proof. repeat constructor; unfold is_char; lia. Qed.


(** C40: whatever the underlying [JsonWriter] returns and whatever the closures do (but see
    [C50_errors_are_sticky_refuted] for values with [Serialize]): after
    a method of the [JsonWriter] has failed, no further ones are used, and the outermost
    method returns an error. *)
Theorem C40_errors_are_sticky : forall (R : Type) (o : wop R) (before after : list (used * wresult)) (c : wcall) (r : wresult) (x : wend (option R * wresulting)),
  careful_wop o -> uses (simple_writer o) (before ++ (UCall c, r) :: after) x -> failed_use c r -> after = [] /\ wfails x.
Proof. exact C40_errors_are_sticky_holds. Qed.
Print Assumptions C40_errors_are_sticky.
(** A closure which ignores that a number is not valid, and writes something else *)
Definition ignores_invalid_number : wop unit :=
  WArray (AWrite (WNumberString [0x2B]) (fun _ _ => AWrite WNull (fun _ _ => ADone tt None))).
Example C40_sticky_case : careful_wop ignores_invalid_number /\
  uses (simple_writer ignores_invalid_number) ([(UCall CBeginArray, RDone)] ++ (UCall (CNumberFromString [0x2B]), RInvalidNumber) :: [])
    (ERet (Some tt, Some (WePrevious KInvalidNumber))) /\
  failed_use (CNumberFromString [0x2B]) RInvalidNumber.
Proof. split; [repeat split|]. split; [repeat constructor|exact I]. Qed.


(** ... the same for [finish_document]. *)
Theorem C40_finish_error_is_reported : forall (R : Type) (o : wop R) (before after : list (used * wresult)) (e : werr) (x : wend (option R * wresulting)),
  uses (simple_writer o) (before ++ (UFinish, RError e) :: after) x -> after = [] /\ wfails x.
Proof. exact C40_finish_error_is_reported_holds. Qed.
Print Assumptions C40_finish_error_is_reported.
Example C40_finish_case :
  uses (simple_writer (@WNull unit)) ([(UCall CNull, RDone)] ++ (UFinish, RError (WSink 3)) :: []) (ERet (None, Some (WeIo (WSink 3)))).
Proof.
  apply Uses_call. cbn. match goal with |- uses (WFinish ?k) _ _ => exact (Uses_finish k (RError (WSink 3))) end.
Qed.


(** C40: `write` of a string value writer reports how many of the bytes the underlying
    writer has taken, and the error of the underlying writer; without an error before,
    there is exactly one call of the underlying writer. *)
Theorem C40_write_reports_the_count : forall (R : Type) (bs : bytes) (k : swerr + nat -> sbody R) (r : wresult) (log : list (wcall * wresult)) (y : wend (R * wresulting) * option stored_error),
  (forall n, r = RCount n ->
    (calls (run_sbody (SWWrite bs k) None) ((CWrite bs, r) :: log) y <-> calls (run_sbody (k (inr n)) None) log y)) /\
  (forall e, r = RError e ->
    (calls (run_sbody (SWWrite bs k) None) ((CWrite bs, r) :: log) y <->
     calls (run_sbody (k (inl (WeIo e))) (Some (KIoError e))) log y)).
Proof. exact C40_write_reports_the_count_holds. Qed.
Print Assumptions C40_write_reports_the_count.
(** A writer which takes two of three bytes: the closure sees 2 *)
Example C40_write_case :
  calls (run_sbody (SWWrite [0x61; 0x62; 0x63] (fun x => SWDone x None)) None) [(CWrite [0x61; 0x62; 0x63], RCount 2)]
    (ERet (inr 2%nat, None), None).
Proof. repeat constructor. Qed.


(** C40: a method which writes a value, called after an error: it does not use the
    [JsonWriter], it returns an error, and the error stays. *)
Theorem C40_later_calls_fail : forall (R : Type) (o : wop R) (e : stored_error) (log : list (wcall * wresult)) (x : wend (option R * wresulting)) (err : option stored_error),
  calls (run_wop o (Some e)) log (x, err) -> log = [] /\ wfails x /\ err = Some e.
Proof. exact C40_later_calls_fail_holds. Qed.
Print Assumptions C40_later_calls_fail.
Example C40_later_case : calls (run_wop some_object (Some KInvalidNumber)) [] (ERet (None, Some (WePrevious KInvalidNumber)), Some KInvalidNumber).
Proof. constructor. Qed.


(** ... the same for the methods which write a member. *)
Theorem C40_later_members_fail : forall (R : Type) (m : member R) (e : stored_error) (log : list (wcall * wresult)) (x : wend (option R * wresulting)) (err : option stored_error),
  calls (run_member m (Some e)) log (x, err) -> log = [] /\ wfails x /\ err = Some e.
Proof. exact C40_later_members_fail_holds. Qed.
Print Assumptions C40_later_members_fail.
Example C40_later_member_case :
  calls (run_member (MMember [0x61] (MDone tt None)) (Some KInvalidNumber)) [] (ERet (None, Some (WePrevious KInvalidNumber)), Some KInvalidNumber).
Proof. constructor. Qed.


(** C40: a method called before any error: if one of its uses of the [JsonWriter] fails, then
    it is the last one, the method returns an error, and the error is kept. *)
Theorem C40_errors_are_kept : forall (R : Type) (o : wop R) (before after : list (wcall * wresult)) (c : wcall) (r : wresult)
    (x : wend (option R * wresulting)) (err : option stored_error),
  careful_wop o -> calls (run_wop o None) (before ++ (c, r) :: after) (x, err) -> failed_use c r -> after = [] /\ wfails x /\ err <> None.
Proof. exact C40_errors_are_kept_holds. Qed.
Print Assumptions C40_errors_are_kept.
Example C40_kept_case : careful_wop ignores_invalid_number /\
  calls (run_wop ignores_invalid_number None) ([(CBeginArray, RDone)] ++ (CNumberFromString [0x2B], RInvalidNumber) :: [])
    (ERet (Some tt, Some (WePrevious KInvalidNumber)), Some KInvalidNumber).
Proof. split; [repeat split|repeat constructor]. Qed.


(** The claim that every later write fails does not hold for errors which a closure makes
    itself: if the outer closure ignores it, a later write may succeed, and goes to the
    array which has not been closed.  The outermost method then panics, so by
    [C40_success_means_complete] an incomplete document is not reported as success. *)
Theorem C40_later_calls_fail_refuted : exists (f : abody nat) (o : wop nat) (cfg : wsettings) (out : sink),
    f = ADone O (Some (WeCustom 7)) /\
    o = WArray (AWrite (WArray f) (fun _ e => match e with Some (WeCustom 7) => AWrite (WBool true) (fun _ e' => match e' with None => ADone 1%nat None | Some _ => ADone O None end) | _ => ADone O None end)) /\
    reliable out /\ (exists s, calls (run_wop o None) s (ERet (Some 1%nat, None), None)) /\
    fst (simple_write cfg out o) = EPanic Misuse.
Proof. exact C40_later_calls_fail_refuted_holds. Qed.
Print Assumptions C40_later_calls_fail_refuted.
(** C50: [write_serialize] as outermost method with a [Write] which does not fail, for every
    value and every outcome of its serialization: the text of the data is written and flushed; or
    the error of the serialization is returned; or it panics. *)
Theorem C50_write_serialize_gives_the_outcome : forall (R : Type) (cfg : wsettings) (out : sink) (v : SerModel.sval) (o : SpecSer.outcome json),
  received out = [] -> reliable out -> SpecSer.valid_sval v -> SpecSer.value_means v o ->
  match o with
  | SpecSer.Gives j => exists out', @simple_write R cfg out (WSerialize v) = (ERet (None, None), out') /\
      received out' = layout cfg 0 j /\ rfc8259_document j (received out') /\ flushes out' > 0
  | SpecSer.Fails e => exists out' e', @simple_write R cfg out (WSerialize v) = (ERet (None, Some e'), out') /\ reports_error e' e
  | SpecSer.Panics => exists out', @simple_write R cfg out (WSerialize v) = (EPanic Misuse, out')
  end.
Proof. exact C50_write_serialize_gives_the_outcome_holds. Qed.
Print Assumptions C50_write_serialize_gives_the_outcome.
(** A struct with two fields, and a sequence which says that it has two elements but has one *)
Definition some_struct : SerModel.sval :=
  SerModel.SvStruct [0x53] 2 (SpecSer.fields_of [([0x61], SerModel.SvInt 5); ([0x62], SerModel.SvNone)]).
Definition short_seq : SerModel.sval := SerModel.SvSeq (Some 2) (SpecSer.elems_of [SerModel.SvBool true]).
Example C50_case : SpecSer.valid_sval some_struct /\ SpecSer.careful some_struct /\
  SpecSer.value_means some_struct (SpecSer.Gives (JObj [([0x61], JNum [0x35]); ([0x62], JNull)])) /\
  SpecSer.valid_sval short_seq /\ SpecSer.careful short_seq /\ SpecSer.value_means short_seq (SpecSer.Fails (SerModel.SeCount 2 1)).
Proof.
  assert (Hc : forall c, c < 0x80 -> Forall is_char [c]) by (intros c Hc; constructor; [left; lia|constructor]).
  repeat match goal with |- _ /\ _ => split end.
  - split; [apply Hc; lia|]. split; [exact I|]. intros [e|]; [exact I|]. split; [apply Hc; lia|]. split; [exact I|]. intros [e|]; exact I.
  - split; [exact I|]. split; [|intros e; eexists; reflexivity]. split; [exact I|]. split; [exact I|]. intros e; eexists; reflexivity.
  - apply (SpecSer.VM_struct [0x53] 2 _ (SpecSer.Gives [([0x61], JNum [0x35]); ([0x62], JNull)])).
    apply (SpecSer.FM_next 2 0 [0x61] _ _ (JNum [0x35]) (SpecSer.Gives [([0x62], JNull)])); [reflexivity| |].
    + constructor. left. split; [|split; reflexivity]. right. exists 0x35, []. repeat split; try constructor; lia.
    + apply (SpecSer.FM_next 2 1 [0x62] _ _ JNull (SpecSer.Gives [])); [reflexivity|constructor|]. constructor. reflexivity.
  - split; [exact I|]. intros [e|]; exact I.
  - split; [exact I|]. split; [exact I|]. intros e; eexists; reflexivity.
  - apply (SpecSer.VM_seq (Some 2) _ (SpecSer.Fails (SerModel.SeCount 2 1))).
    apply (SpecSer.EM_next (Some 2) 0 _ _ (JBool true) (SpecSer.Fails (SerModel.SeCount 2 1))); [intros n E; injection E as <-; reflexivity|constructor|].
    constructor. reflexivity.
Qed.

(** As member of an object: the data of [C40_closures_write_their_data] *)
Definition object_with_struct : wop unit :=
  WObject (OWrite (MValue [0x78] (WSerialize some_struct)) (fun _ e => OWrite (MValue [0x79] WNull) (fun _ e' => ODone tt e'))).
Example C50_nested_case : valid_wop object_with_struct /\ careful_wop object_with_struct /\
  value_described object_with_struct (JObj [([0x78], JObj [([0x61], JNum [0x35]); ([0x62], JNull)]); ([0x79], JNull)]) (Some tt) /\
  received (snd (simple_write default_wsettings fast_sink object_with_struct)) =
    [0x7B; 0x22; 0x78; 0x22; 0x3A; 0x7B; 0x22; 0x61; 0x22; 0x3A; 0x35; 0x2C; 0x22; 0x62; 0x22; 0x3A; 0x6E; 0x75; 0x6C; 0x6C; 0x7D; 0x2C; 0x22; 0x79; 0x22; 0x3A; 0x6E; 0x75; 0x6C; 0x6C; 0x7D].
Proof.
  assert (Hc : forall c, c < 0x80 -> Forall is_char [c]) by (intros c Hc; constructor; [left; lia|constructor]).
  destruct C50_case as (H1 & H2 & H3 & _). split; [|split; [|split; [|vm_compute; reflexivity]]].
  - split; [split; [apply Hc; lia|exact H1]|]. intros x e. split; [split; [apply Hc; lia|exact I]|]. intros x' e'. exact I.
  - split; [exact H2|]. intros x e. split; [exact I|]. intros x' e'. exact I.
  - apply VD_object. eapply OD_write; [apply MD_value, VD_serialize, H3|]. eapply OD_write; [apply MD_value, VD_null|]. constructor.
Qed.


(** C50: [write_serialize] used anywhere and before any error, with any [JsonWriter] and any
    [Serialize] implementation: if it returns an error, also one which the [JsonWriter] has not
    reported, then the error is kept: by [C40_later_calls_fail] all later methods fail without
    using the [JsonWriter]. *)
Theorem C50_serialize_error_is_kept : forall (R : Type) (v : SerModel.sval) (log : list (wcall * wresult)) (x : wend (option R * wresulting)) (err : option stored_error),
  calls (run_wop (WSerialize v) None) log (x, err) -> wfails x -> err <> None.
Proof. exact C50_serialize_error_is_kept_holds. Qed.
Print Assumptions C50_serialize_error_is_kept.
(** One element is written, then the number of elements turns out to be wrong *)
Example C50_kept_case :
  calls (run_wop (@WSerialize unit short_seq) None) [(CBeginArray, RDone); (CBool true, RDone)]
    (ERet (None, Some (WeSerialize (SerModel.SeCount 2 1))), Some (KSerialize (SerModel.SeCount 2 1))).
Proof. repeat constructor. Qed.


(** C50: whatever the closures around it do with the error: if [write_serialize] has failed in a
    method, then the method fails.  That is, a method which ends with a stored error returns one. *)
Theorem C50_method_with_stored_error_fails : forall (R : Type) (o : wop R) (log : list (wcall * wresult)) (x : wend (option R * wresulting)) (err : option stored_error),
  calls (run_wop o None) log (x, err) -> err <> None -> wfails x.
Proof. exact C50_method_with_stored_error_fails_holds. Qed.
Print Assumptions C50_method_with_stored_error_fails.
(** The closure ignores the error and writes something else *)
Example C50_ignored_case :
  calls (run_wop (WArray (AWrite (WSerialize short_seq) (fun _ _ => AWrite WNull (fun _ _ => ADone tt None)))) None)
    [(CBeginArray, RDone); (CBeginArray, RDone); (CBool true, RDone)]
    (ERet (Some tt, Some (WePrevious (KSerialize (SerModel.SeCount 2 1)))), Some (KSerialize (SerModel.SeCount 2 1))).
Proof. repeat constructor. Qed.


(** C50: the claim of [C40_errors_are_sticky] does not hold for values whose [Serialize]
    implementation ignores errors, which the documentation of [SerializerError] forbids: here
    a number which is not finite is left out, and the outermost method succeeds. *)
Theorem C50_errors_are_sticky_refuted : exists (v : SerModel.sval) (log : list (used * wresult)),
    v = SerModel.SvSeq None (SerModel.ElNext (SerModel.SvFloat None) (fun _ => SerModel.ElEnd)) /\
    log = [(UCall CBeginArray, RDone); (UCall (CFloat None), RInvalidNumber); (UCall CEndArray, RDone); (UFinish, RDone)] /\
    uses (simple_writer (@WSerialize unit v)) log (ERet (None, None)) /\ failed_use (CFloat None) RInvalidNumber.
Proof. exact C50_errors_are_sticky_refuted_holds. Qed.
Print Assumptions C50_errors_are_sticky_refuted.
