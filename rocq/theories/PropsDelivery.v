(** * Properties of the delivery of the input, for programs (C17) *)

From Verif Require Import Base Utf8Model SpecJson SourceModel ReaderModel SimpleModel TransferModel DeModel DeliveryFinal.
From Verif Require PropsReader PropsSimple.

(** C17, for every program which uses the reader, where each call may depend on the results of the calls before it
(in particular deserializing with any implementation of [Deserialize]): how the source delivers the bytes makes no
difference for the result of the program, whatever the input is; there always is a result. *)
Theorem C17_programs_are_independent_of_delivery : forall (A : Type) (s : settings) (evs1 evs2 : list event) (m : client A), Forall is_byte (fst (supplied evs1)) ->
  supplied evs1 = supplied evs2 -> client_session s evs1 m = client_session s evs2 m /\ client_session s evs1 m <> None.
Proof. exact C17_programs_are_independent_of_delivery_holds. Qed.
Print Assumptions C17_programs_are_independent_of_delivery.
(** C17, the same for every use of the simple API. *)
Theorem C17_closures_are_independent_of_delivery : forall (R : Type) (fuel : nat) (s : settings) (evs1 evs2 : list event) (u : use R), Forall is_byte (fst (supplied evs1)) ->
  supplied evs1 = supplied evs2 -> simple_session fuel s evs1 u = simple_session fuel s evs2 u.
Proof. exact C17_closures_are_independent_of_delivery_holds. Qed.
Print Assumptions C17_closures_are_independent_of_delivery.
(** C17, the same for [transfer_to] with every implementation of [JsonWriter] ([h] with the state [w]): its result, what happens to
the writer, and the results of the calls afterwards. *)
Theorem C17_copying_is_independent_of_delivery : forall (F W : Type) (h : handler F W) (w : W) (s : settings) (evs1 evs2 : list event) (before after : list rcall), Forall is_byte (fst (supplied evs1)) ->
  supplied evs1 = supplied evs2 ->
  transfer_session s evs1 h w before after = transfer_session s evs2 h w before after /\ transfer_session s evs1 h w before after <> None.
Proof. exact C17_copying_is_independent_of_delivery_holds. Qed.
Print Assumptions C17_copying_is_independent_of_delivery.
(** The bytes of the sample document, as delivered there and all at once *)
Example C17_programs_case : let evs := [EvInterrupted; EvData (fst (supplied PropsReader.sample_events))] in
  Forall is_byte (fst (supplied evs)) /\ supplied evs = supplied PropsReader.sample_events /\ evs <> PropsReader.sample_events /\
  simple_session 30 default_settings evs PropsSimple.first_number = SOk (VResult [0x31]).
Proof. split; [vm_compute; repeat constructor|]. split; [vm_compute; reflexivity|]. split; [vm_compute; discriminate|]. vm_compute. reflexivity. Qed.

