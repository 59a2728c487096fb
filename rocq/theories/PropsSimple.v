(** * Properties of the simple reader API (C37, C38, C39, C49) *)

From Verif Require Import Base Utf8Model SpecNumber SpecJson SourceModel ReaderModel SpecCursor SpecRead SimpleModel SpecSimple
  SimpleFinal PropsReader.
From Verif Require DeModel SpecDe.

(** C37: whatever the underlying [JsonReader] returns and whatever the closures do, as
    long as the implementations of [Deserialize] for [read_deserialize] return errors:
    after a call of the reader has failed there are no further calls which read
    from it, and the outermost method does not succeed. *)
Theorem C37_errors_are_sticky : forall (R : Type) (fuel : nat) (u : use R) (before after : list (rcall * outcome)) (c : rcall) (o : outcome) (r : sres (reply R)),
  returns_errors_use u -> plays (simple_client fuel u) (before ++ (c, o) :: after) r -> failed_call c o ->
  Forall (fun co => position_call (fst co)) after /\ ~ success r.
Proof. exact C37_errors_are_sticky_holds. Qed.
Print Assumptions C37_errors_are_sticky.
(** A closure which ignores the error of [read_bool] and then tries to read a string
    as well: the second call does not reach the reader. *)
Definition ignores_errors : use unit :=
  URead (OpArray (BRead OpBool (fun _ => BRead OpString (fun _ => BDone (inr tt))))).
Definition some_position : position := Position None 0 0 0.
Example C37_sticky_case :
  plays (simple_client 10 ignores_errors)
    ([(CBeginArray, OOk RUnit)] ++ (CNextBool, OErr (EUnexpectedType TBoolean TNumber some_position)) :: [])
    (SErr (SPrevious (KDummy (Some some_position)))) /\
  failed_call CNextBool (OErr (EUnexpectedType TBoolean TNumber some_position)).
Proof.
  split.
  - repeat constructor.
  - split; [intros [b H]; discriminate|exact I].
Qed.


(** ... in particular: if the outermost method succeeds for a [JsonStreamReader], no
    call has failed. *)
Theorem C37_success_means_no_error : forall (R : Type) (fuel : nat) (s : settings) (evs : list event) (u : use R) (x : reply R),
  returns_errors_use u -> simple_session fuel s evs u = SOk x ->
  exists log, plays (simple_client fuel u) log (SOk x) /\ Forall (fun co => ~ failed_call (fst co) (snd co)) log.
Proof. exact C37_success_means_no_error_holds. Qed.
Print Assumptions C37_success_means_no_error.
Definition first_and_skip : use str :=
  URead (OpMembers (fun _ => BReadName (fun x =>
    match x with inr n => BDone (inr n) | inl e => BDone (inl e) end)) []).
Example C37_success_case : simple_session 30 default_settings sample_events first_and_skip = SOk (VResult [0x62]).
Proof. vm_compute. reflexivity. Qed.


(** A method called on a reader which has already failed: it makes no call which
    reads, it does not succeed, and the error stays, so that this also holds for all
    further calls.  The exception is [read_seeked_multi] with the empty path. *)
Theorem C37_later_calls_fail : forall (R : Type) (fuel : nat) (o : op R) (e : kept_error) (log : list (rcall * outcome)) (r : sres (reply R)) (err : option kept_error),
  ~ empty_multi o -> plays (run_op fuel o (Some e)) log (r, err) ->
  Forall (fun co => position_call (fst co)) log /\ ~ success r /\ err = Some e.
Proof. exact C37_later_calls_fail_holds. Qed.
Print Assumptions C37_later_calls_fail.
Example C37_later_case : plays (run_op 5 (@OpString unit) (Some KIo)) [] (SErr (SPrevious KIo), Some KIo).
Proof. constructor. Qed.


(** A method called on a reader which has not failed: if one of its calls fails, then
    it makes no further ones, it does not succeed, and the error is kept, unless the
    program ends with a panic. *)
Theorem C37_errors_are_kept : forall (R : Type) (fuel : nat) (o : op R) (before after : list (rcall * outcome)) (c : rcall) (oc : outcome) (r : sres (reply R)) (err : option kept_error),
  returns_errors_op o -> ~ empty_multi o -> plays (run_op fuel o None) (before ++ (c, oc) :: after) (r, err) -> failed_call c oc ->
  Forall (fun co => position_call (fst co)) after /\ ~ success r /\
  (err <> None \/ match r with SPanic _ | SFuel | SInvalid => True | _ => False end).
Proof. exact C37_errors_are_kept_holds. Qed.
Print Assumptions C37_errors_are_kept.
Example C37_kept_case :
  plays (run_op 5 (@OpString unit) None) ([] ++ (CNextString, OErr (EUnexpectedType TString TNumber some_position)) :: [])
    (SErr (SError (EUnexpectedType TString TNumber some_position)), Some (KDummy (Some some_position))).
Proof. repeat constructor. Qed.


(** The claim for every method is false: [read_seeked_multi] with the empty path only
    calls the closure, which can ignore the error. *)
Theorem C37_later_calls_fail_refuted : exists (o : op unit) (fuel : nat) (e : kept_error) (x : reply unit) (err : option kept_error),
  plays (run_op fuel o (Some e)) [] (SOk x, err).
Proof. exact C37_later_calls_fail_refuted_holds. Qed.
Print Assumptions C37_later_calls_fail_refuted.

(** ... and C37 is false for programs whose implementations of [Deserialize] ignore
    errors: here an item of an array is deserialized as boolean, the error is ignored,
    and the item is deserialized again *)
Theorem C37_errors_are_sticky_refuted : exists (fuel : nat) (u : use unit) (before after : list (rcall * outcome)) (c : rcall) (o : outcome) (r : sres (reply unit)),
  plays (simple_client fuel u) (before ++ (c, o) :: after) r /\ failed_call c o /\
  success r /\ In CSkipValue (map fst after).
Proof. exact C37_errors_are_sticky_refuted_holds. Qed.
Print Assumptions C37_errors_are_sticky_refuted.

(** C38, C39: the result for a valid document is what the closures are documented to
    get from its data (SpecSimple): each item and member exactly once and in order,
    for a path the selected values; what a closure does not read is skipped; the
    methods succeed only if all data has been read.  [fl] limits the rounds of
    loops; there is always enough of it. *)
Theorem C38_closures_get_the_data : forall (R : Type) (s : settings) (v : json) (evs : list event) (u : use R), document_input s [v] evs -> returns_errors_use u ->
  exists n, forall fl, (n <= fl)%nat -> ends_with (sem_use s u v) (simple_session fl s evs u).
Proof. exact C38_closures_get_the_data_holds. Qed.
Print Assumptions C38_closures_get_the_data.
(** Reads the numbers of the array "a" and skips the rest of it, ignores the member "b" *)
Definition first_number : use str :=
  URead (OpMembers (fun acc => BReadName (fun x =>
    match x with
    | inr [0x61] =>
      BRead (OpItems (fun acc' => BPeek (fun t =>
               match t with
               | inr TNumber => BRead OpNumber (fun y => match y with inr (VStr n) => BDone (inr (acc' ++ n)) | _ => BDone (inr acc') end)
               | _ => BDone (inr acc')
               end)) acc)
            (fun y => match y with inr (VResult r) => BDone (inr r) | inr _ => BDone (inr []) | inl e => BDone (inl e) end)
    | inr _ => BDone (inr acc)
    | inl e => BDone (inl e)
    end)) []).
Example C38_case : document_input default_settings [sample_tree] sample_events /\
  sem_use default_settings first_number sample_tree = Gives (VResult [0x31]) /\
  simple_session 30 default_settings sample_events first_number = SOk (VResult [0x31]).
Proof. split; [exact (proj1 C20_case)|]. split; vm_compute; reflexivity. Qed.


(** Each item exactly once and in order: a closure which collects strings *)
Theorem C38_items_in_order : forall (s : settings) (ts : list str) (evs : list event), document_input s [JArr (map JStr ts)] evs ->
  exists n, forall fl, (n <= fl)%nat ->
  simple_session fl s evs
    (URead (OpItems (fun acc => BRead OpString (fun x =>
       match x with
       | inr (VStr t) => BDone (inr (acc ++ [t]))
       | inr _ => BDone (inr acc)
       | inl e => BDone (inl e)
       end)) [])) = SOk (VResult ts).
Proof. exact C38_items_in_order_holds. Qed.
Print Assumptions C38_items_in_order.
Example C38_items_case : document_input default_settings [JArr (map JStr [[0x78]; [0x79]])]
  [EvData [0x5B; 0x22; 0x78; 0x22; 0x2C; 0x22]; EvData [0x79; 0x22; 0x5D]].
Proof.
  split; [reflexivity|]. split; [|repeat constructor; discriminate].
  exists (JArr (map JStr [[0x78]; [0x79]])). split; [reflexivity|].
  exists [], ([0x5B] ++ [] ++ ([0x22] ++ [0x78] ++ [0x22]) ++ ([] ++ [0x2C] ++ [] ++ ([0x22] ++ [0x79] ++ [0x22]) ++ ([] ++ [0x5D]))), [].
  split; [reflexivity|]. split; [constructor|]. split; [|left; constructor].
  assert (Hq : forall c, 0x61 <= c -> c <= 0x7A -> quoted ([0x22] ++ [c] ++ [0x22]) [c]).
  { intros c H1 H2. exists [c]. split; [reflexivity|]. replace [c] with (encode_char c ++ []) at 1.
    - apply ST_raw; [unfold unescaped, is_char; lia|constructor].
    - unfold encode_char. rewrite (proj2 (N.ltb_lt c 0x80)) by lia. reflexivity. }
  apply VT_arr. apply IT_first; [constructor|constructor; apply Hq; lia|].
  apply IT_next; [constructor|constructor|constructor; apply Hq; lia|]. apply IT_end. constructor.
Qed.


(** Items which are not read are skipped: a closure which only counts, for an array of
    any values *)
Theorem C38_unread_items_are_skipped : forall (s : settings) (items : list json) (evs : list event), document_input s [JArr items] evs ->
  exists n, forall fl, (n <= fl)%nat ->
  simple_session fl s evs (URead (OpItems (fun count => BDone (inr (S count))) O)) = SOk (VResult (length items)).
Proof. exact C38_unread_items_are_skipped_holds. Qed.
Print Assumptions C38_unread_items_are_skipped.
Example C38_unread_case : document_input default_settings [JArr (map JStr [[0x78]; [0x79]])]
  [EvData [0x5B; 0x22; 0x78; 0x22; 0x2C; 0x22]; EvData [0x79; 0x22; 0x5D]].
Proof. exact C38_items_case. Qed.


(** Each member exactly once and in order, also those with the same name; values which
    are not read are skipped *)
Theorem C38_members_in_order : forall (s : settings) (ms : list (str * json)) (evs : list event), document_input s [JObj ms] evs ->
  exists n, forall fl, (n <= fl)%nat ->
  simple_session fl s evs
    (URead (OpMembers (fun acc => BReadName (fun x =>
       match x with
       | inr t => BDone (inr (acc ++ [t]))
       | inl e => BDone (inl e)
       end)) [])) = SOk (VResult (map fst ms)) /\
  simple_session fl s evs (URead (OpMembersOwned (fun n acc => BDone (inr (acc ++ [n]))) [])) = SOk (VResult (map fst ms)).
Proof. exact C38_members_in_order_holds. Qed.
Print Assumptions C38_members_in_order.
Example C38_members_case : document_input default_settings [JObj [([0x61], JArr [JNum [0x31]; JBool true]); ([0x62], JStr [0x78])]] sample_events.
Proof. exact (proj1 C20_case). Qed.


(** [read_array] instead requires that the closure reads all items *)
Theorem C38_read_array_needs_all_items : forall (s : settings) (items : list json) (evs : list event), document_input s [JArr items] evs ->
  exists n, forall fl, (n <= fl)%nat ->
  let r := simple_session fl s evs (URead (OpArray (BDone (inr tt)))) in
  match items with [] => r = SOk (VResult tt) | _ :: _ => ~ success r end.
Proof. exact C38_read_array_needs_all_items_holds. Qed.
Print Assumptions C38_read_array_needs_all_items.
(** A closure which leaves an item *)
Example C38_needs_all_case :
  simple_session 30 default_settings [EvData [0x5B; 0x22; 0x78; 0x22; 0x2C; 0x22]; EvData [0x79; 0x22; 0x5D]]
    (URead (OpArray (BRead OpString (fun _ => BDone (inr tt))))) =
  SErr (SError (EUnexpectedStructure MoreElementsThanExpected (Position (Some [PIndex 1]) 0 5 5))).
Proof. vm_compute. reflexivity. Qed.


(** C39: [read_seeked_multi] calls the closure for the values selected by the path, in
    the order of the document *)
Theorem C39_visits_selected_values : forall (R : Type) (s : settings) (v : json) (evs : list event) (path : list multi_piece) (at_least_one_match : bool) (f : R -> body R) (r : R),
  document_input s [v] evs -> (forall r', returns_errors_body (f r')) ->
  exists n, forall fl, (n <= fl)%nat ->
  ends_with (sem_result (sem_multi (fun r' u => sem_any (sem_body s (f r') (AtSingle u))) (select path v) at_least_one_match r))
    (simple_session fl s evs (URead (OpMulti path at_least_one_match f r))).
Proof. exact C39_visits_selected_values_holds. Qed.
Print Assumptions C39_visits_selected_values.

(** ... exactly these values and in this order: a closure which collects strings *)
Theorem C39_collects_selected_strings : forall (s : settings) (v : json) (evs : list event) (path : list multi_piece) (at_least_one_match : bool) (ts : list str),
  document_input s [v] evs -> select path v = (map JStr ts, true) ->
  exists n, forall fl, (n <= fl)%nat ->
  let r := simple_session fl s evs
    (URead (OpMulti path at_least_one_match (fun acc => BRead OpString (fun x =>
       match x with
       | inr (VStr t) => BDone (inr (acc ++ [t]))
       | inr _ => BDone (inr acc)
       | inl e => BDone (inl e)
       end)) [])) in
  if at_least_one_match && is_nil ts then ~ success r else r = SOk (VResult ts).
Proof. exact C39_collects_selected_strings_holds. Qed.
Print Assumptions C39_collects_selected_strings.

(** ... and no others: a closure which only counts, for any values *)
Theorem C39_counts_selected_values : forall (s : settings) (v : json) (evs : list event) (path : list multi_piece) (at_least_one_match : bool),
  document_input s [v] evs ->
  exists n, forall fl, (n <= fl)%nat ->
  let r := simple_session fl s evs (URead (OpMulti path at_least_one_match (fun count => BDone (inr (S count))) O)) in
  if snd (select path v) && negb (at_least_one_match && is_nil (fst (select path v)))
  then r = SOk (VResult (length (fst (select path v)))) else ~ success r.
Proof. exact C39_counts_selected_values_holds. Qed.
Print Assumptions C39_counts_selected_values.
(** All members, of which the first is an array and the second a string: the path with
    all items does not match the second *)
Example C39_case : document_input default_settings [sample_tree] sample_events /\
  select [MName [0x61]; MAllItems false] sample_tree = ([JNum [0x31]; JBool true], true) /\
  select [MAllMembers true; MAllItems true] sample_tree = ([JNum [0x31]; JBool true], false) /\
  select [MOptionalName [0x63]; MIndex 0] sample_tree = ([], true) /\
  select [MName [0x62]] sample_tree = (map JStr [[0x78]], true) /\
  simple_session 30 default_settings sample_events
    (URead (OpMulti [MName [0x61]; MAllItems false] true (fun count => BDone (inr (S count))) O)) = SOk (VResult 2%nat).
Proof. split; [exact (proj1 C20_case)|]. repeat split; vm_compute; reflexivity. Qed.


(** C49: [read_deserialize] for a whole document, with an implementation of [Deserialize]
    which returns errors: the result is the one which SpecDe derives from the data
    [v] of the document, with the nesting limit 128 *)
Theorem C49_read_deserialize_gives_the_data : forall (R S : Type) (C : DeModel.code R S) (s : settings) (v : json) (evs : list event) (steps : nat) (seed : S),
  document_input s [v] evs -> SpecDe.returns_errors C ->
  exists n, forall fl, (n <= fl)%nat ->
  let r := simple_session fl s evs (URead (OpDeserialize C steps seed)) in
  match SpecDe.sem_seed C s 128 steps seed v 0 with
  | SpecDe.Gives x => r = SOk (VResult x)
  | SpecDe.Fails _ => ~ success r
  | _ => True
  end.
Proof. exact C49_read_deserialize_gives_the_data_holds. Qed.
Print Assumptions C49_read_deserialize_gives_the_data.
(** Deserializes numbers and arrays of numbers: the list of the numbers *)
Inductive numbers_state := NuAny | NuList (l : list Z) | NuEnd (r : DeModel.derr + list Z).
Definition numbers : DeModel.code (list Z) numbers_state := {|
  DeModel.deserialize := fun _ => DeModel.SaCall DeModel.MAny NuAny (fun r => r);
  DeModel.visit_data := fun _ x => match x with DeModel.ViInt _ z => inr [z] | _ => inl (DeModel.DeCustom 1) end;
  DeModel.visit_some := fun st => st;
  DeModel.visit_newtype := fun st => st;
  DeModel.visit_seq := fun st =>
    let next l := DeModel.SqNext NuAny (fun r =>
      match r with
      | inl e => NuEnd (inl e)
      | inr (Some x) => NuList (l ++ x)
      | inr None => NuEnd (inr l)
      end) in
    match st with NuAny => next [] | NuList l => next l | NuEnd r => DeModel.SqDone r end;
  DeModel.visit_map := fun _ => DeModel.MpDone (inl (DeModel.DeCustom 1));
  DeModel.visit_enum := fun _ => DeModel.EnDone (inl (DeModel.DeCustom 1));
  DeModel.with_variant := fun _ => DeModel.VaDone (inl (DeModel.DeCustom 1))
|}.
Example numbers_return_errors : SpecDe.returns_errors numbers.
Proof.
  unfold SpecDe.returns_errors, numbers. cbn. repeat split; intros; try discriminate.
  - injection H as <- <- <-. reflexivity.
  - destruct st; try discriminate; injection H as <- <-; reflexivity.
Qed.
(** The sample document is an object, with an array of a number and a boolean as
    first member; in [[1,[2,3]]] there are only numbers *)
Definition numbers_events : list event := [EvData [0x5B; 0x31; 0x2C]; EvData [0x5B; 0x32; 0x2C; 0x33; 0x5D; 0x5D]].
Definition numbers_tree : json := JArr [JNum [0x31]; JArr [JNum [0x32]; JNum [0x33]]].
Example numbers_input : document_input default_settings [numbers_tree] numbers_events.
Proof.
  split; [reflexivity|]. split; [|repeat constructor; discriminate].
  exists numbers_tree. split; [reflexivity|].
  exists [], ([0x5B] ++ [] ++ [0x31] ++ ([] ++ [0x2C] ++ [] ++
    ([0x5B] ++ [] ++ [0x32] ++ ([] ++ [0x2C] ++ [] ++ [0x33] ++ ([] ++ [0x5D]))) ++ ([] ++ [0x5D]))), [].
  split; [reflexivity|]. split; [constructor|]. split; [|left; constructor].
  assert (Hn : forall c, 0x31 <= c -> c <= 0x39 -> number_text [c]).
  { intros c H1 H2. exists 0%nat, [], [c], [], []. split; [reflexivity|]. split; [left; reflexivity|].
    split; [right; exists c, []; repeat split; auto; lia|]. split; left; auto. }
  apply VT_arr. apply IT_first; [constructor|constructor; apply Hn; lia|].
  apply IT_next; [constructor|constructor| |apply IT_end; constructor].
  apply VT_arr. apply IT_first; [constructor|constructor; apply Hn; lia|].
  apply IT_next; [constructor|constructor|constructor; apply Hn; lia|]. apply IT_end. constructor.
Qed.
Example C49_case :
  SpecDe.sem_seed numbers default_settings 128 20 NuAny numbers_tree 0 = SpecDe.Gives [1%Z; 2%Z; 3%Z] /\
  simple_session 30 default_settings numbers_events (URead (OpDeserialize numbers 20 NuAny)) = SOk (VResult [1%Z; 2%Z; 3%Z]) /\
  SpecDe.sem_seed numbers default_settings 128 20 NuAny sample_tree 0 = SpecDe.Fails (SpecDe.FError (DeModel.DeCustom 1)).
Proof. repeat split; vm_compute; reflexivity. Qed.


(** ... and for each item of an array on its own, in order: the closure of
    [read_array_items] calls [read_deserialize] and collects the results, which are
    lists here *)
Theorem C49_items_are_deserialized_in_order : forall (T S : Type) (C : DeModel.code (list T) S) (s : settings) (items : list json) (results : list (list T)) (evs : list event) (steps : nat) (seed : S),
  document_input s [JArr items] evs -> SpecDe.returns_errors C ->
  Forall2 (fun v x => SpecDe.sem_seed C s 128 steps seed v 0 = SpecDe.Gives x) items results ->
  exists n, forall fl, (n <= fl)%nat ->
  simple_session fl s evs
    (URead (OpItems (fun acc => BRead (OpDeserialize C steps seed) (fun x =>
       match x with
       | inr (VResult l) => BDone (inr (acc ++ l))
       | inr _ => BDone (inr acc)
       | inl e => BDone (inl e)
       end)) [])) = SOk (VResult (concat results)).
Proof. exact C49_items_are_deserialized_in_order_holds. Qed.
Print Assumptions C49_items_are_deserialized_in_order.
Example C49_items_case :
  Forall2 (fun v x => SpecDe.sem_seed numbers default_settings 128 20 NuAny v 0 = SpecDe.Gives x)
    [JNum [0x31]; JArr [JNum [0x32]; JNum [0x33]]] [[1%Z]; [2%Z; 3%Z]].
Proof. repeat constructor. Qed.


(** ... wherever a closure calls it: the value is consumed completely if it is a success,
    so that the closure goes on behind it; after an error the reader cannot be used.
    Here a closure of [read_array] deserializes the first item, ignores errors, reads
    the second item as string, and combines the results. *)
Theorem C49_reader_is_behind_the_value : forall (R S : Type) (C : DeModel.code R S) (s : settings) (v : json) (t : str) (combine : R -> str -> R) (other : R)
    (evs : list event) (steps : nat) (seed : S),
  document_input s [JArr [v; JStr t]] evs -> SpecDe.returns_errors C ->
  exists n, forall fl, (n <= fl)%nat ->
  let r := simple_session fl s evs
    (URead (OpArray (BRead (OpDeserialize C steps seed) (fun x => BRead OpString (fun y =>
       match x, y with
       | inr (VResult a), inr (VStr t') => BDone (inr (combine a t'))
       | _, _ => BDone (inr other)
       end))))) in
  match SpecDe.sem_seed C s 128 steps seed v 0 with
  | SpecDe.Gives a => r = SOk (VResult (combine a t))
  | SpecDe.Fails _ => ~ success r
  | _ => True
  end.
Proof. exact C49_reader_is_behind_the_value_holds. Qed.
Print Assumptions C49_reader_is_behind_the_value.
(** [[1,"x"]]: the number and the length of the string *)
Example C49_behind_case :
  simple_session 30 default_settings [EvData [0x5B; 0x31; 0x2C; 0x22; 0x78; 0x22; 0x5D]]
    (URead (OpArray (BRead (OpDeserialize numbers 20 NuAny) (fun x => BRead OpString (fun y =>
       match x, y with
       | inr (VResult a), inr (VStr t') => BDone (inr (a ++ [Z.of_nat (length t')]))
       | _, _ => BDone (inr [])
       end))))) = SOk (VResult [1%Z; 1%Z]).
Proof. vm_compute. reflexivity. Qed.

