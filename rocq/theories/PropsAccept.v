(** * Properties of the input which closures and programs accept *)

From Verif Require Import Base Utf8Model SpecJson SpecText SourceModel ReaderModel SpecCursor SpecRead SpecSessions ClientModel SimpleModel SpecSimple
  DeModel SpecPrograms AcceptFinal.
From Verif Require SpecDe PropsReader PropsSimple PropsDe.

(** C19, for the simple API: whatever closures do, also if they ignore errors, reading succeeds only if the whole input is a valid
document: everything which they have not read has been checked as well, and nothing follows the value. *)
Theorem C19_closures_accept_only_documents : forall (R : Type) (fuel : nat) (s : settings) (evs : list event) (u : use R) (x : reply R), Forall is_byte (fst (supplied evs)) ->
  allow_multiple_top_level s = false -> simple_session fuel s evs u = SOk x -> exists v, document_input s [v] evs.
Proof. exact C19_closures_accept_only_documents_holds. Qed.
Print Assumptions C19_closures_accept_only_documents.
(** [{"a":1}] is a document, and all of it is checked although nothing of it is read; a comma at the end is noticed *)
Example C19_closures_case : let u := URead (OpMembers (fun n => BDone (inr (S n))) O) in
  simple_session 30 default_settings [EvData [0x7B; 0x22; 0x61; 0x22; 0x3A; 0x31; 0x7D]] u = SOk (VResult 1%nat) /\
  (forall x, simple_session 30 default_settings [EvData [0x7B; 0x22; 0x61; 0x22; 0x3A; 0x31; 0x7D; 0x2C]] u <> SOk x) /\
  (forall x, simple_session 30 default_settings [EvData [0x7B; 0x22; 0x61; 0x22; 0x3A; 0x2B; 0x7D]] u <> SOk x).
Proof. cbv zeta. split; [vm_compute; reflexivity|]. split; vm_compute; discriminate. Qed.

(** C19: with the default settings closures succeed only for RFC 8259 documents whose nesting is at most 128. *)
Theorem C19_closures_accept_only_rfc8259 : forall (R : Type) (fuel : nat) (evs : list event) (u : use R) (x : reply R), Forall is_byte (fst (supplied evs)) ->
  simple_session fuel default_settings evs u = SOk x ->
  exists v, rfc8259_document v (fst (supplied evs)) /\ snd (supplied evs) = TEof /\ N.of_nat (nesting v) <= 128.
Proof. exact C19_closures_accept_only_rfc8259_holds. Qed.
Print Assumptions C19_closures_accept_only_rfc8259.
(** C38: the number of rounds which the loops of the model may make does not matter, for any input: if the limit is not reached, a
larger one has the same result. *)
Theorem C38_rounds_do_not_matter : forall (R : Type) (s : settings) (evs : list event) (u : use R) (fl fl' : nat), Forall is_byte (fst (supplied evs)) ->
  (fl <= fl')%nat -> simple_session fl s evs u <> SFuel -> simple_session fl' s evs u = simple_session fl s evs u.
Proof. exact C38_rounds_do_not_matter_holds. Qed.
Print Assumptions C38_rounds_do_not_matter.
(** The input ends within an array: two rounds, and an error in the second one *)
Example C38_rounds_case : let evs := [EvData [0x5B; 0x31; 0x2C]] in let u := URead (OpItems (fun n => BDone (inr (S n))) O) in
  simple_session 1 default_settings evs u = SFuel /\ simple_session 2 default_settings evs u <> SFuel /\
  (exists e, simple_session 9 default_settings evs u = SErr e).
Proof. cbv zeta. split; [vm_compute; reflexivity|]. split; [vm_compute; discriminate|]. eexists. vm_compute. reflexivity. Qed.

(** C38, the converse for any input: if reading succeeds, then the input is a valid document, and the result is what the closures are
documented to get from its data (unless the specification leaves that open). *)
Theorem C38_success_means_the_data : forall (R : Type) (fuel : nat) (s : settings) (evs : list event) (u : use R) (x : reply R), Forall is_byte (fst (supplied evs)) ->
  allow_multiple_top_level s = false -> returns_errors_use u -> simple_session fuel s evs u = SOk x ->
  exists v, document_input s [v] evs /\ (sem_use s u v = Gives x \/ sem_use s u v = Unspecified).
Proof. exact C38_success_means_the_data_holds. Qed.
Print Assumptions C38_success_means_the_data.
(** The name of the member of [{"a":1}] *)
Example C38_success_case : let u := URead (OpMembers (fun _ => BReadName (fun x => match x with inr n => BDone (inr n) | inl e => BDone (inl e) end)) []) in
  returns_errors_use u /\
  simple_session 30 default_settings [EvData [0x7B; 0x22; 0x61; 0x22; 0x3A; 0x31; 0x7D]] u = SOk (VResult [0x61]) /\
  sem_use default_settings u (JObj [([0x61], JNum [0x31])]) = Gives (VResult [0x61]).
Proof. cbv zeta. split; [cbn; intros; repeat (constructor; intros); destruct x; constructor|]. split; vm_compute; reflexivity. Qed.

(** C38: so reading succeeds exactly for the documents from whose data the closures are documented to get a result, and with this
result. The condition is that the specification says for all data
what the closures get. *)
Theorem C38_success_exactly : forall (R : Type) (s : settings) (evs : list event) (u : use R) (x : reply R), Forall is_byte (fst (supplied evs)) ->
  allow_multiple_top_level s = false -> returns_errors_use u -> (forall v, sem_use s u v <> Unspecified) ->
  ((exists fuel, simple_session fuel s evs u = SOk x) <-> exists v, document_input s [v] evs /\ sem_use s u v = Gives x).
Proof. exact C38_success_exactly_holds. Qed.
Print Assumptions C38_success_exactly.
(** Counting the members of an object; [null] has no members *)
Example C38_exactly_case : let u := URead (OpMembers (fun n => BDone (inr (S n))) O) in
  returns_errors_use u /\ (forall v, sem_use default_settings u v <> Unspecified) /\
  sem_use default_settings u (JObj [([0x61], JNum [0x31])]) = Gives (VResult 1%nat) /\ sem_use default_settings u JNull = Fails.
Proof.
  cbv zeta. split; [cbn; intros; constructor|]. split; [|split; reflexivity].
  intros v. destruct v as [| | | | |ms]; cbn; try discriminate. generalize 0%nat as n. induction ms as [|[k v] ms IH]; intros n; cbn in *; [discriminate|apply IH].
Qed.

(** C45: the number of steps which the model of the deserializer may make does not matter, for any input and any implementation of
[Deserialize]: if the limit is not reached, a larger one has the same result, and the calls afterwards have the same results. *)
Theorem C45_steps_do_not_matter : forall (V S : Type) (C : code V S) (s : settings) (evs : list event) (before after : list rcall) (limit : N) (n n' : nat) (seed : S)
    (os1 : list outcome) (r : dend V) (os2 : list outcome),
  Forall is_byte (fst (supplied evs)) -> (n <= n')%nat -> r <> DFuel ->
  client_session s evs (around before (deserialize_with_limit C n limit seed) after) = Some (os1, r, os2) ->
  client_session s evs (around before (deserialize_with_limit C n' limit seed) after) = Some (os1, r, os2).
Proof. exact C45_steps_do_not_matter_holds. Qed.
Print Assumptions C45_steps_do_not_matter.
(** [[1,]: an error after some steps *)
Example C45_steps_case : let run n := client_session default_settings [EvData [0x5B; 0x31; 0x2C]]
    (around [] (deserialize_with_limit PropsDe.tree_code n 128 PropsDe.TsNew) [CPosition false]) in
  (exists os, run 3%nat = Some ([], DFuel, os)) /\ (exists e os, run 9%nat = Some ([], DRet (inl (DeReader e)), os)).
Proof. cbv zeta. split; [eexists; vm_compute; reflexivity|]. do 2 eexists. vm_compute. reflexivity. Qed.

(** C45: the same for [deserialize_next]. *)
Theorem C45_steps_of_deserialize_next_do_not_matter : forall (V S : Type) (C : code V S) (s : settings) (evs : list event) (before after : list rcall) (n n' : nat) (seed : S)
    (os1 : list outcome) (r : dend V) (os2 : list outcome),
  Forall is_byte (fst (supplied evs)) -> (n <= n')%nat -> r <> DFuel ->
  client_session s evs (around before (deserialize_next C n seed) after) = Some (os1, r, os2) ->
  client_session s evs (around before (deserialize_next C n' seed) after) = Some (os1, r, os2).
Proof. exact C45_steps_of_deserialize_next_do_not_matter_holds. Qed.
Print Assumptions C45_steps_of_deserialize_next_do_not_matter.
Example C45_next_steps_case : let run n := client_session default_settings [EvData [0x5B; 0x31; 0x5D]]
    (around [] (deserialize_next PropsDe.tree_code n PropsDe.TsNew) [CConsumeTrailingWhitespace]) in
  (exists os, run 3%nat = Some ([], DFuel, os)) /\ run 9%nat = Some ([], DRet (inr (PropsDe.TrList [PropsDe.TrInt 1])), [OOk RUnit]).
Proof. cbv zeta. split; [eexists; vm_compute; reflexivity|]. vm_compute. reflexivity. Qed.

(** C46: so deserializing the whole input succeeds exactly for the documents from whose data the implementation of [Deserialize] makes
a value, and with this value. *)
Theorem C46_success_exactly : forall (V S : Type) (C : code V S) (s : settings) (evs : list event) (limit : N) (fuel : nat) (seed : S) (a : V),
  SpecDe.returns_errors C -> Forall is_byte (fst (supplied evs)) -> allow_multiple_top_level s = false ->
  (client_session s evs (around [] (deserialize_with_limit C fuel limit seed) [CConsumeTrailingWhitespace]) =
     Some ([], DRet (inr a), [OOk RUnit]) <->
   exists v, document_input s [v] evs /\ SpecDe.sem_seed C s limit fuel seed v 0 = SpecDe.Gives a).
Proof. exact C46_success_exactly_holds. Qed.
Print Assumptions C46_success_exactly.
Example C46_exactly_case : SpecDe.returns_errors PropsDe.tree_code /\ document_input default_settings [PropsReader.sample_tree] PropsReader.sample_events /\
  SpecDe.sem_seed PropsDe.tree_code default_settings 128 20 PropsDe.TsNew PropsReader.sample_tree 0 = SpecDe.Gives PropsDe.sample_data.
Proof. split; [exact PropsDe.tree_code_returns_errors|]. split; [exact (proj1 PropsReader.C20_case)|vm_compute; reflexivity]. Qed.

(** C52, for programs: the result of a program does not depend on the input more than six bytes behind the position at its end, neither
on the bytes nor on whether there are any. *)
Theorem C52_lookahead_of_programs_is_bounded : forall (A : Type) (s : settings) (evs evs' : list event) (m : client A) (log : list (rcall * outcome)) (a : A) (b : bool) (p : position),
  let n := (N.to_nat (p_byte p) + 6)%nat in
  Forall is_byte (fst (supplied evs)) -> Forall is_byte (fst (supplied evs')) ->
  plays m log a -> really_happens s evs (log ++ [(CPosition b, OOk (RPos p))]) ->
  (forall e, ~ In (OReadErr e) (map snd log)) ->
  firstn n (fst (supplied evs')) = firstn n (fst (supplied evs)) ->
  ((length (fst (supplied evs)) < n)%nat -> snd (supplied evs') = snd (supplied evs)) ->
  client_session s evs' m = Some a.
Proof. exact C52_lookahead_of_programs_is_bounded_holds. Qed.
Print Assumptions C52_lookahead_of_programs_is_bounded.
(** The first name of [{"a":1}], whatever comes behind the value; here the source fails *)
Example C52_programs_case :
  let name := Call CBeginObject (fun _ => Call CNextName (fun o => Done o)) in
  let log := [(CBeginObject, OOk RUnit); (CNextName, OOk (RStr [0x61]))] in
  let t := [0x7B; 0x22; 0x61; 0x22; 0x3A; 0x31; 0x7D; 0x20; 0x20; 0x20; 0x20] in
  plays name log (OOk (RStr [0x61])) /\
  really_happens default_settings [EvData t] (log ++ [(CPosition false, OOk (RPos (Position None 0 4 4)))]) /\
  client_session default_settings [EvData t; EvErr 3] name = Some (OOk (RStr [0x61])).
Proof. cbv zeta. split; [repeat constructor|]. split; vm_compute; reflexivity. Qed.

(** C61, for code which ignores the rules: if an enum is represented by a JSON string, there is no value for the variant. An
implementation which requests an enum and never asks for a unit variant gets no result, also if it ignores the errors: deserializing
fails or panics, but it does not succeed. *)
Theorem C61_string_is_only_a_unit_variant : forall (V S : Type) (C : code V S) (fuel : nat) (limit : N) (seed vis : S) (log : list (rcall * outcome)) (r : dend V),
  deserialize C seed = SaCall MEnum vis (fun x => x) ->
  (forall st after, with_variant C st <> VaUnit after) ->
  plays (deserialize_with_limit C fuel limit seed) ((CPeek, OOk (RType TString)) :: log) r ->
  forall a, r <> DRet (inr a).
Proof. exact C61_string_is_only_a_unit_variant_holds. Qed.
Print Assumptions C61_string_is_only_a_unit_variant.
(** An implementation which asks for the value of the variant and makes 7 of the error it gets; the state tells whether the name of
    the variant is requested *)
Definition ignoring_code : code nat bool :=
  Code nat bool (fun name => SaCall (if name then MStr else MEnum) name (fun x => x)) (fun _ _ => inr 0%nat) (fun st => st) (fun st => st)
    (fun _ => SqDone (inr 0%nat)) (fun _ => MpDone (inr 0%nat)) (fun _ => EnVariant true (fun _ => true) (fun e => inl e))
    (fun _ => VaNewtype true (fun _ => inr 7%nat)).

Example C61_string_case :
  deserialize ignoring_code false = SaCall MEnum false (fun x => x) /\ (forall st after, with_variant ignoring_code st <> VaUnit after) /\
  plays (deserialize_with_limit ignoring_code 5 128 false)
    [(CPeek, OOk (RType TString)); (CNextStr, OOk (RStr [0x61]))] (DPanic Misuse) /\
  client_session default_settings [EvData [0x22; 0x61; 0x22]] (around [] (deserialize_with_limit ignoring_code 5 128 false) []) =
    Some ([], DPanic Misuse, []).
Proof. split; [reflexivity|]. split; [discriminate|]. split; [|vm_compute; reflexivity].
  apply Plays_call. apply Plays_call. apply Plays_done. Qed.

