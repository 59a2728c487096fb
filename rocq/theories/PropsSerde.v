(** * Serializing and deserializing values of Rust types (C48) *)

From Coq Require Import String.
From Verif Require Import Base Utf8Model SpecNumber SpecJson WriterModel SpecWriter WClientModel SerModel SpecSer.
From Verif Require Import SourceModel ReaderModel SpecCursor SpecRead SimpleModel DeModel SpecDe SpecTypes RoundTrip SerdeFinal PropsReader.
From Verif Require PropsWriter.

(** C48: a value which has been serialized can be deserialized as a value of the same type, and is the same value.
This is for any value of a type composed of standard types, structs and enums (also recursive ones); its
data occurs anywhere in the documents which are read.  The nesting limit of the deserializer must not be exceeded, and the
number restrictions of the reader must not concern the floating point numbers. *)
Theorem C48_deserializing_the_data_gives_the_value : forall (types : N -> rty) (t : rty) (v : rval) (j : json) (s : settings) (limit : N),
  has_type types t v -> representable v = true -> value_means (to_sval v) (SpecSer.Gives j) ->
  floats_readable s v -> N.of_nat (nesting j) <= limit ->
  exists enough, forall (fuel : nat) (vs : list json) (evs : list event) (before after : list rcall) (c : cursor),
    (enough <= fuel)%nat -> document_input s vs evs ->
    snd (walk_calls s before (AtCursor (cursor_start vs))) = AtCursor c -> at_value s (drop_reader c) = inr j ->
    match after with CRead _ :: _ => False | _ => True end ->
    exists os1 os2,
      client_session s evs (around before (deserialize_with_limit (derived types) fuel limit (Seed t)) after) = Some (os1, DRet (inr v), os2) /\
      Forall2 (is_result s) (fst (walk_calls s before (AtCursor (cursor_start vs)))) os1 /\
      Forall2 (is_result s) (fst (walk_calls s after (snd (walk_calls s (before ++ [CSkipValue]) (AtCursor (cursor_start vs)))))) os2.
Proof. exact C48_deserializing_the_data_gives_the_value_holds. Qed.
Print Assumptions C48_deserializing_the_data_gives_the_value.
(** C48: the same for [deserialize_next], whose limit is 128. *)
Theorem C48_deserialize_next_gives_the_value : forall (types : N -> rty) (t : rty) (v : rval) (j : json) (s : settings),
  has_type types t v -> representable v = true -> value_means (to_sval v) (SpecSer.Gives j) ->
  floats_readable s v -> N.of_nat (nesting j) <= 128 ->
  exists enough, forall (fuel : nat) (vs : list json) (evs : list event) (before after : list rcall) (c : cursor),
    (enough <= fuel)%nat -> document_input s vs evs ->
    snd (walk_calls s before (AtCursor (cursor_start vs))) = AtCursor c -> at_value s (drop_reader c) = inr j ->
    match after with CRead _ :: _ => False | _ => True end ->
    exists os1 os2,
      client_session s evs (around before (deserialize_next (derived types) fuel (Seed t)) after) = Some (os1, DRet (inr v), os2) /\
      Forall2 (is_result s) (fst (walk_calls s before (AtCursor (cursor_start vs)))) os1 /\
      Forall2 (is_result s) (fst (walk_calls s after (snd (walk_calls s (before ++ [CSkipValue]) (AtCursor (cursor_start vs)))))) os2.
Proof. exact C48_deserialize_next_gives_the_value_holds. Qed.
Print Assumptions C48_deserialize_next_gives_the_value.
(** C48: serializing a value to a sink which does not fail, with any settings of the writer, and deserializing the bytes, which the source
delivers in any pieces and with any settings of the reader, gives the value; nothing follows it. *)
Theorem C48_serde_round_trip : forall (types : N -> rty) (t : rty) (v : rval) (cfg : wsettings) (out : sink) (s : settings) (limit : N),
  has_type types t v -> representable v = true -> received out = [] -> reliable out ->
  exists j out', value_means (to_sval v) (SpecSer.Gives j) /\
    serialize_between cfg out [] (to_sval v) [] = ([], ERet (SrOk tt), [], RDone, out') /\
    (floats_readable s v -> N.of_nat (nesting j) <= limit -> within_limit s [j] ->
     exists enough, forall (fuel : nat) (evs : list event), (enough <= fuel)%nat -> supplied evs = (received out', TEof) ->
       client_session s evs (around [] (deserialize_with_limit (derived types) fuel limit (Seed t)) [CConsumeTrailingWhitespace]) =
         Some ([], DRet (inr v), [OOk RUnit])).
Proof. exact C48_serde_round_trip_holds. Qed.
Print Assumptions C48_serde_round_trip.
(** A recursive type, like
    [enum List { Nil, Cons { head: Head, tail: Box<List> } }] with
    [struct Head(Option<char>, HashMap<i8, f32>, (u64, Bytes, Unit))] *)
Definition sample_types (n : N) : rty :=
  if n =? 0 then
    TyEnum [0x4C] [([0x4E], VrUnit); ([0x43], VrStruct [([0x68], TyNamed 1); ([0x74], TyNamed 0)])]
  else TyTupleStruct [0x48] [TyOption TyChar; TyMap (TyInt I8) (TyFloat F32); TyTuple [TyInt U64; TyBytes; TyUnitStruct [0x55]]].
Definition sample_value : rval :=
  let head c n := RvTupleStruct [0x48] [c; RvMap [(RvInt (-128), RvFloat [0x31; 0x2E; 0x35])]; RvTuple [RvInt n; RvBytes [0; 255]; RvUnitStruct [0x55]]] in
  let cons h t := RvStructVariant [0x4C] 1 [0x43] [([0x68], h); ([0x74], t)] in
  cons (head (RvSome (RvChar 0x1F600)) 18446744073709551615%Z) (cons (head RvNone 0%Z) (RvUnitVariant [0x4C] 0 [0x4E])).
Example C48_case :
  has_type sample_types (TyNamed 0) sample_value /\ representable sample_value = true /\ floats_readable default_settings sample_value /\
  (exists j, value_means (to_sval sample_value) (SpecSer.Gives j) /\ nesting j = 7%nat /\ within_limit default_settings [j]) /\
  let '(rs1, x, rs2, r, out') := serialize_between PropsWriter.compact_cfg PropsWriter.fast_sink [] (to_sval sample_value) [] in
  (rs1, x, rs2, r) = ([], ERet (SrOk tt), [], RDone) /\
  received out' = bytes_of_string "{""C"":{""h"":[""\uD83D\uDE00"",{""-128"":1.5},[18446744073709551615,[0,255],null]],""t"":{""C"":{""h"":[null,{""-128"":1.5},[0,[0,255],null]],""t"":""N""}}}}"%string /\
  client_session default_settings [EvData (received out')] (around [] (deserialize_with_limit (derived sample_types) 40 7 (Seed (TyNamed 0))) [CConsumeTrailingWhitespace]) =
    Some ([], DRet (inr sample_value), [OOk RUnit]).
Proof.
  assert (Hn : number_text [0x31; 0x2E; 0x35]).
  { exists 0%nat, [], [0x31], [0x2E; 0x35], []. repeat split; auto.
    - right. exists 0x31, []. repeat split; try discriminate. constructor.
    - right. exists [0x35]. repeat split; [discriminate|]. repeat constructor; discriminate.
    - left. auto. }
  assert (Hc : forall c, c < 0xD800 -> is_char c) by (intros c Hc; left; exact Hc).
  assert (Hh : forall c n, has_type sample_types (TyOption TyChar) c -> (0 <= n <= 18446744073709551615)%Z ->
    has_type sample_types (TyNamed 1) (RvTupleStruct [0x48] [c; RvMap [(RvInt (-128), RvFloat [0x31; 0x2E; 0x35])]; RvTuple [RvInt n; RvBytes [0; 255]; RvUnitStruct [0x55]]])).
  { intros c n Hx Hz. apply HT_named; [discriminate|]. cbn. apply HT_tuple_struct. repeat apply Forall2_cons; [exact Hx| | |constructor].
    - apply HT_map. apply Forall_cons; [split; [apply HT_int; cbn; lia|apply HT_float, Hn]|constructor].
    - apply HT_tuple. repeat apply Forall2_cons; [apply HT_int; cbn; lia|apply HT_bytes; repeat constructor; reflexivity|apply HT_unit_struct|constructor]. }
  assert (Hcons : forall h t, has_type sample_types (TyNamed 1) h -> has_type sample_types (TyNamed 0) t ->
    has_type sample_types (TyNamed 0) (RvStructVariant [0x4C] 1 [0x43] [([0x68], h); ([0x74], t)])).
  { intros h t H1 H2. apply HT_named; [discriminate|]. cbn. eapply HT_struct_variant; [repeat constructor; apply Hc; reflexivity|reflexivity|].
    constructor.
    - repeat constructor; cbn; intros H; repeat destruct H as [H|H]; try discriminate; exact H.
    - repeat constructor; cbn; apply Hc; reflexivity.
    - repeat apply Forall2_cons; cbn; auto. }
  split; [|split; [|split; [|split]]].
  - apply Hcons; [apply Hh; [apply HT_some, HT_char; right; lia|lia]|]. apply Hcons; [apply Hh; [apply HT_none|lia]|].
    apply HT_named; [discriminate|]. cbn. apply HT_unit_variant; [repeat constructor; apply Hc; reflexivity|reflexivity].
  - reflexivity.
  - intros _. repeat constructor.
  - exists (json_of sample_value). split; [apply json_of_means; reflexivity|]. split; [reflexivity|]. repeat constructor. discriminate.
  - vm_compute. auto.
Qed.

(** C48: [Some] of something which is written as [null] is not preserved; it becomes [None]. *)
Theorem C48_some_of_null_refuted : exists (types : N -> rty) (t : rty) (v v' : rval) (cfg : wsettings) (out out' : sink),
  has_type types t v /\ v' <> v /\ received out = [] /\ reliable out /\
  serialize_between cfg out [] (to_sval v) [] = ([], ERet (SrOk tt), [], RDone, out') /\
  forall s limit fuel evs, (5 <= fuel)%nat -> supplied evs = (received out', TEof) ->
    client_session s evs (around [] (deserialize_with_limit (derived types) fuel limit (Seed t)) [CConsumeTrailingWhitespace]) =
      Some ([], DRet (inr v'), [OOk RUnit]).
Proof. exact C48_some_of_null_refuted_holds. Qed.
Print Assumptions C48_some_of_null_refuted.
(** C48: floating point numbers which are written with more than 100 characters (the text of 1e100 in [f64] has 101) cannot be deserialized
with the default settings of the reader. *)
Theorem C48_long_float_refuted : exists (types : N -> rty) (t : rty) (v : rval) (cfg : wsettings) (out out' : sink),
  has_type types t v /\ representable v = true /\ received out = [] /\ reliable out /\
  serialize_between cfg out [] (to_sval v) [] = ([], ERet (SrOk tt), [], RDone, out') /\
  forall limit fuel evs, (5 <= fuel)%nat -> supplied evs = (received out', TEof) ->
    exists text loc os, client_session default_settings evs (around [] (deserialize_with_limit (derived types) fuel limit (Seed t)) []) =
      Some ([], DRet (inl (DeReader (EUnsupportedNumber text loc))), os).
Proof. exact C48_long_float_refuted_holds. Qed.
Print Assumptions C48_long_float_refuted.

