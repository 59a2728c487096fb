(** * Properties of writing and reading with the simple API (C64) *)

From Coq Require Import String.
From Verif Require Import Base Utf8Model SpecNumber SpecJson WriterModel SpecWriter SimpleWriterModel SpecSimpleWriter.
From Verif Require Import SourceModel ReaderModel SpecCursor SpecRead SimpleModel SpecSimple SpecSimpleTrip SpecTypes SimpleTripFinal.
From Verif Require PropsWriter PropsSimpleWriter PropsSerde.
From Verif Require SpecDe SpecSer.
Local Open Scope list_scope.

(** C64: data which closures have written with any settings to a [Write] which does not fail,
and which closures then read with any settings whose nesting limit is not exceeded,
delivered in any pieces: the writing succeeds, and the reading closures get exactly the data which the
writing closures have described. *)
Theorem C64_closures_get_what_closures_wrote : forall (W R : Type) (cfg : wsettings) (out : sink) (o : wop W) (v : json) (x : option W) (s : settings) (u : use R),
  received out = [] -> reliable out -> valid_wop o -> value_described o v x -> within_limit s [v] -> returns_errors_use u ->
  exists out', simple_write cfg out o = (ERet (x, None), out') /\
    forall evs, supplied evs = (received out', TEof) ->
    exists n, forall fl, (n <= fl)%nat -> ends_with (sem_use s u v) (simple_session fl s evs u).
Proof. exact C64_closures_get_what_closures_wrote_holds. Qed.
Print Assumptions C64_closures_get_what_closures_wrote.
(** C64: in particular a program which asks for the type of each value and builds a tree ([SpecSimpleTrip.read_tree])
gets the tree of the described data: nothing is lost, added or reordered, also not members with the same name.
For this the numbers must be permitted by the settings of the reader. *)
Theorem C64_trees_are_read_back : forall (W : Type) (cfg : wsettings) (out : sink) (o : wop W) (v : json) (x : option W) (s : settings) (depth : nat),
  received out = [] -> reliable out -> valid_wop o -> value_described o v x ->
  within_limit s [v] -> readable s v -> (nesting v <= depth)%nat ->
  exists out', simple_write cfg out o = (ERet (x, None), out') /\
    forall evs, supplied evs = (received out', TEof) ->
    exists n, forall fl, (n <= fl)%nat -> simple_session fl s evs (read_tree depth) = SOk (VResult v).
Proof. exact C64_trees_are_read_back_holds. Qed.
Print Assumptions C64_trees_are_read_back.
(** The object of [PropsSimpleWriter.C40_case], written and read with the default settings
    in two pieces *)
Example C64_case : valid_wop PropsSimpleWriter.some_object /\
  value_described PropsSimpleWriter.some_object PropsSimpleWriter.some_object_value (Some O) /\
  within_limit default_settings [PropsSimpleWriter.some_object_value] /\ readable default_settings PropsSimpleWriter.some_object_value /\
  nesting PropsSimpleWriter.some_object_value = 2%nat.
Proof.
  split; [exact (proj1 PropsSimpleWriter.C40_case)|]. split; [exact (proj1 (proj2 PropsSimpleWriter.C40_case))|].
  split; [repeat constructor; discriminate|]. split; [intros _; constructor|reflexivity].
Qed.
Definition written : bytes := received (snd (simple_write PropsWriter.compact_cfg PropsWriter.fast_sink PropsSimpleWriter.some_object)).
Example C64_trees_case : written = bytes_of_string "{""a"":""\u00E4"",""b"":null,""c"":[true]}"%string /\
  simple_session 100 default_settings [EvData (firstn 5 written); EvInterrupted; EvData (skipn 5 written)] (read_tree 2) =
    SOk (VResult PropsSimpleWriter.some_object_value).
Proof. split; vm_compute; reflexivity. Qed.

(** C64: a value of a Rust type with derived [Serialize] and [Deserialize] (SpecTypes) which is written with [write_serialize]
is given back by [read_deserialize]; the default nesting limit of the deserializer applies. *)
Theorem C64_serialized_values_are_deserialized : forall (W : Type) (types : N -> rty) (t : rty) (v : rval) (cfg : wsettings) (out : sink) (s : settings),
  has_type types t v -> representable v = true -> received out = [] -> reliable out ->
  exists j out', SpecSer.value_means (to_sval v) (SpecSer.Gives j) /\
    @simple_write W cfg out (WSerialize (to_sval v)) = (ERet (None, None), out') /\
    (floats_readable s v -> (nesting j <= 128)%nat -> within_limit s [j] ->
     exists enough, forall fuel evs, (enough <= fuel)%nat -> supplied evs = (received out', TEof) ->
     exists n, forall fl, (n <= fl)%nat ->
       simple_session fl s evs (URead (OpDeserialize (derived types) fuel (Seed t))) = SOk (VResult v)).
Proof. exact C64_serialized_values_are_deserialized_holds. Qed.
Print Assumptions C64_serialized_values_are_deserialized.
(** The value of [PropsSerde.C48_case], a list of two elements *)
Example C64_serde_case :
  has_type PropsSerde.sample_types (TyNamed 0) PropsSerde.sample_value /\ representable PropsSerde.sample_value = true /\ floats_readable default_settings PropsSerde.sample_value /\ (exists j, SpecSer.value_means (to_sval PropsSerde.sample_value) (SpecSer.Gives j) /\ (nesting j <= 128)%nat /\ within_limit default_settings [j]).
Proof.
  destruct PropsSerde.C48_case as (H1 & H2 & H3 & (j & H4 & H5 & H6) & _).
  split; [exact H1|]. split; [exact H2|]. split; [exact H3|]. exists j. split; [exact H4|]. split; [rewrite H5; repeat constructor|exact H6].
Qed.

