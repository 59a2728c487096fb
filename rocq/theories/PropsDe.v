(** * Properties of the serde deserializer (C45 - C47) *)

From Coq Require Import String.
From Verif Require Import Base Utf8Model SpecNumber SpecJson SourceModel ReaderModel SpecCursor SpecRead SimpleModel DeModel SpecDe
  DeFinal PropsReader.
From Verif Require SpecSimple ClientErrors.

(** C45: what a value deserializes to.  The client reads documents whose data [vs] is known,
with any calls [before], and then deserializes the next value [v] with any code which
passes errors on: the result is the one which is described in terms of [v] alone.  If this is a
success, later calls have the results which they would have after [skip_value]. *)
Theorem C45_deserializing_visits_the_data : forall (V S : Type) (C : code V S) (s : settings) (vs : list json) (evs : list event) (before after : list rcall)
    (limit : N) (fuel : nat) (seed : S) (c : cursor) (v : json),
  returns_errors C -> document_input s vs evs ->
  snd (walk_calls s before (AtCursor (cursor_start vs))) = AtCursor c -> at_value s (drop_reader c) = inr v ->
  match after with CRead _ :: _ => False | _ => True end ->
  let x := sem_seed C s limit fuel seed v 0 in
  exists os1 r os2,
    client_session s evs (around before (deserialize_with_limit C fuel limit seed) after) = Some (os1, r, os2) /\
    Forall2 (is_result s) (fst (walk_calls s before (AtCursor (cursor_start vs)))) os1 /\
    agrees x r /\
    match x with
    | Gives _ =>
      Forall2 (is_result s) (fst (walk_calls s after (snd (walk_calls s (before ++ [CSkipValue]) (AtCursor (cursor_start vs)))))) os2
    | Keeps _ =>
      Forall2 (is_result s) (fst (walk_calls s after (snd (walk_calls s before (AtCursor (cursor_start vs)))))) os2
    | _ => True
    end.
Proof. exact C45_deserializing_visits_the_data_holds. Qed.
Print Assumptions C45_deserializing_visits_the_data.
(** An implementation of [Deserialize] for a type of arbitrary data: it calls [deserialize_any] for
    everything.  It returns errors as they are. *)
Inductive tree : Type :=
| TrNull
| TrBool (b : bool)
| TrInt (z : Z)
| TrText (t : str)
| TrList (l : list tree)
| TrMap (l : list (tree * tree)).
Inductive tree_state : Type :=
| TsNew
| TsItems (l : list tree)
| TsMembers (l : list (tree * tree))
| TsValue (key : tree) (l : list (tree * tree))
| TsError (e : derr).

Definition tree_code : code tree tree_state := {|
  deserialize := fun _ => SaCall MAny TsNew (fun r => r);
  visit_data := fun _ x =>
    match x with
    | ViBool b => inr (TrBool b)
    | ViInt _ z => inr (TrInt z)
    | ViStr t | ViString t => inr (TrText t)
    | ViUnit | ViNone => inr TrNull
    | _ => inl (DeCustom 1)
    end;
  visit_some := fun _ => TsNew;
  visit_newtype := fun _ => TsNew;
  visit_seq := fun st =>
    let next l := SqNext TsNew (fun r =>
      match r with
      | inl e => TsError e
      | inr (Some x) => TsItems (l ++ [x])
      | inr None => TsValue (TrList l) []
      end) in
    match st with
    | TsItems l => next l
    | TsValue x _ => SqDone (inr x)
    | TsError e => SqDone (inl e)
    | _ => next []
    end;
  visit_map := fun st =>
    let next l := MpKey TsNew (fun r =>
      match r with
      | inl e => TsError e
      | inr (Some x) => TsValue x l
      | inr None => TsItems [TrMap l]
      end) in
    match st with
    | TsMembers l => next l
    | TsValue key l => MpValue TsNew (fun r =>
      match r with
      | inl e => TsError e
      | inr x => TsMembers (l ++ [(key, x)])
      end)
    | TsItems [x] => MpDone (inr x)
    | TsError e => MpDone (inl e)
    | _ => next []
    end;
  visit_enum := fun _ => EnDone (inl (DeCustom 2));
  with_variant := fun _ => VaDone (inl (DeCustom 2))
|}.

Example tree_code_returns_errors : returns_errors tree_code.
Proof.
  unfold returns_errors, tree_code. cbn. repeat split; intros.
  - injection H as <- <- <-. reflexivity.
  - destruct st; try discriminate H; injection H as <- <-; reflexivity.
  - destruct st as [|[|x [|y l]]| | |]; try discriminate H; injection H as <- <-; reflexivity.
  - destruct st as [|[|x [|y l]]| | |]; try discriminate H; injection H as <- <-; reflexivity.
  - discriminate.
Qed.

(** The sample document deserialized as such data *)
Definition sample_data : tree :=
  TrMap [(TrText (bytes_of_string "a"%string), TrList [TrInt 1; TrBool true]);
         (TrText (bytes_of_string "b"%string), TrText (bytes_of_string "x"%string))].

Example C45_case :
  document_input default_settings [sample_tree] sample_events /\
  snd (walk_calls default_settings [] (AtCursor (cursor_start [sample_tree]))) = AtCursor (cursor_start [sample_tree]) /\
  at_value default_settings (drop_reader (cursor_start [sample_tree])) = inr sample_tree /\
  sem_seed tree_code default_settings 128 20 TsNew sample_tree 0 = Gives sample_data /\
  client_session default_settings sample_events
    (around [] (deserialize_with_limit tree_code 20 128 TsNew) [CConsumeTrailingWhitespace]) =
    Some ([], DRet (inr sample_data), [OOk RUnit]).
Proof. split; [exact (proj1 C20_case)|]. repeat split; vm_compute; reflexivity. Qed.

(** A value inside the document; the reader goes on behind it *)
Example C45_nested_case :
  sem_seed tree_code default_settings 128 20 TsNew (JArr [JNum [0x31]; JBool true]) 0 = Gives (TrList [TrInt 1; TrBool true]) /\
  client_session default_settings sample_events
    (around [CBeginObject; CNextName] (deserialize_with_limit tree_code 20 128 TsNew) [CNextName; CNextStr; CEndObject]) =
    Some ([OOk RUnit; OOk (RStr (bytes_of_string "a"%string))], DRet (inr (TrList [TrInt 1; TrBool true])),
          [OOk (RStr (bytes_of_string "b"%string)); OOk (RStr (bytes_of_string "x"%string)); OOk RUnit]).
Proof. split; vm_compute; reflexivity. Qed.

(** Too deep for the limit *)
Example C45_limit_case :
  sem_seed tree_code default_settings 1 20 TsNew sample_tree 0 = Fails (FError (DeMaxNesting 1)) /\
  client_session default_settings sample_events (around [] (deserialize_with_limit tree_code 20 1 TsNew) []) =
    Some ([], DRet (inl (DeMaxNesting 1)), []).
Proof. split; vm_compute; reflexivity. Qed.

(** C45: [JsonReader::deserialize_next] is the same, with the limit 128. *)
Theorem C45_deserialize_next_visits_the_data : forall (V S : Type) (C : code V S) (s : settings) (vs : list json) (evs : list event) (before after : list rcall)
    (fuel : nat) (seed : S) (c : cursor) (v : json),
  returns_errors C -> document_input s vs evs ->
  snd (walk_calls s before (AtCursor (cursor_start vs))) = AtCursor c -> at_value s (drop_reader c) = inr v ->
  match after with CRead _ :: _ => False | _ => True end ->
  let x := sem_seed C s 128 fuel seed v 0 in
  exists os1 r os2,
    client_session s evs (around before (deserialize_next C fuel seed) after) = Some (os1, r, os2) /\
    Forall2 (is_result s) (fst (walk_calls s before (AtCursor (cursor_start vs)))) os1 /\
    agrees x r /\
    match x with
    | Gives _ =>
      Forall2 (is_result s) (fst (walk_calls s after (snd (walk_calls s (before ++ [CSkipValue]) (AtCursor (cursor_start vs)))))) os2
    | Keeps _ =>
      Forall2 (is_result s) (fst (walk_calls s after (snd (walk_calls s before (AtCursor (cursor_start vs)))))) os2
    | _ => True
    end.
Proof. exact C45_deserialize_next_visits_the_data_holds. Qed.
Print Assumptions C45_deserialize_next_visits_the_data.
Example C45_next_case :
  sem_seed tree_code default_settings 128 20 TsNew sample_tree 0 = Gives sample_data /\
  client_session default_settings sample_events (around [] (deserialize_next tree_code 20 TsNew) [CConsumeTrailingWhitespace]) =
    Some ([], DRet (inr sample_data), [OOk RUnit]).
Proof. split; vm_compute; reflexivity. Qed.

(** C45: if there is no next value (the input or the array ends), [deserialize_next] fails with the
error of [peek]; where no value may be read it panics like every misuse. *)
Theorem C45_no_value_to_deserialize : forall (V S : Type) (C : code V S) (s : settings) (vs : list json) (evs : list event) (before : list rcall)
    (fuel : nat) (seed : S) (c : cursor) (x : expected),
  document_input s vs evs ->
  snd (walk_calls s before (AtCursor (cursor_start vs))) = AtCursor c -> at_value s (drop_reader c) = inl x ->
  exists os1 r,
    client_session s evs (around before (deserialize_next C fuel seed) []) = Some (os1, r, []) /\
    (r = DPanic Misuse /\ x = XMisuse \/
     exists e p, r = DRet (inl (DeReader e)) /\ x = XStructure FewerElementsThanExpected p /\ is_result s x (OErr e)).
Proof. exact C45_no_value_to_deserialize_holds. Qed.
Print Assumptions C45_no_value_to_deserialize.
(** Behind the last value there is none; before a name there is none either *)
Example C45_no_value_case :
  (exists e, client_session default_settings sample_events
     (around [CBeginObject; CNextName; CBeginArray; CNextNumberStr; CNextBool] (deserialize_next tree_code 20 TsNew) []) =
     Some ([OOk RUnit; OOk (RStr (bytes_of_string "a"%string)); OOk RUnit; OOk (RStr [0x31]); OOk (RBool true)],
           DRet (inl (DeReader e)), [])) /\
  (exists os, client_session default_settings sample_events
     (around [CBeginObject] (deserialize_next tree_code 20 TsNew) []) = Some (os, DPanic Misuse, [])).
Proof. split; eexists; vm_compute; reflexivity. Qed.

(** C46: if deserializing the input succeeds and nothing but whitespace follows, then the input is
a document, and the value is the one which its data deserializes to.  The input is arbitrary. *)
Theorem C46_deserialized_input_is_a_document : forall (V S : Type) (C : code V S) (s : settings) (evs : list event) (limit : N) (fuel : nat) (seed : S) (a : V),
  returns_errors C -> Forall is_byte (fst (supplied evs)) -> allow_multiple_top_level s = false ->
  client_session s evs (around [] (deserialize_with_limit C fuel limit seed) [CConsumeTrailingWhitespace]) =
    Some ([], DRet (inr a), [OOk RUnit]) ->
  exists v, document_input s [v] evs /\ sem_seed C s limit fuel seed v 0 = Gives a.
Proof. exact C46_deserialized_input_is_a_document_holds. Qed.
Print Assumptions C46_deserialized_input_is_a_document.
Example C46_case :
  Forall is_byte (fst (supplied sample_events)) /\ allow_multiple_top_level default_settings = false /\
  client_session default_settings sample_events
    (around [] (deserialize_with_limit tree_code 20 128 TsNew) [CConsumeTrailingWhitespace]) =
    Some ([], DRet (inr sample_data), [OOk RUnit]).
Proof.
  split; [|split; vm_compute; reflexivity].
  apply Forall_forall. intros x Hx. vm_compute in Hx. unfold is_byte. repeat destruct Hx as [<-|Hx]; try lia.
Qed.

(** C47: the deserializer never has more arrays and objects open than its limit, at no point of any run:
for arbitrary code, also if it goes on after errors, and whatever the calls of the reader
return. *)
Theorem C47_nesting_limit : forall (V S : Type) (C : code V S) (limit : N) (fuel : nat) (seed : S) (log1 log2 : list (rcall * outcome)) (r : dend V),
  SpecSimple.plays (deserialize_with_limit C fuel limit seed) (log1 ++ log2) r -> (open_after log1 <= Z.of_N limit)%Z.
Proof. exact C47_nesting_limit_holds. Qed.
Print Assumptions C47_nesting_limit.
(** The run of [C45_case] has two open containers after six calls *)
Definition sample_log1 : list (rcall * outcome) :=
  [(CPeek, OOk (RType TObject)); (CBeginObject, OOk RUnit); (CHasNext, OOk (RBool true));
   (CNextName, OOk (RStr (bytes_of_string "a"%string))); (CPeek, OOk (RType TArray)); (CBeginArray, OOk RUnit)].
Definition sample_log2 : list (rcall * outcome) :=
  [(CHasNext, OOk (RBool true)); (CPeek, OOk (RType TNumber)); (CNextNumberStr, OOk (RStr [0x31]));
   (CHasNext, OOk (RBool true)); (CPeek, OOk (RType TBoolean)); (CNextBool, OOk (RBool true));
   (CHasNext, OOk (RBool false)); (CEndArray, OOk RUnit); (CHasNext, OOk (RBool true));
   (CNextName, OOk (RStr (bytes_of_string "b"%string))); (CPeek, OOk (RType TString));
   (CNextString, OOk (RStr (bytes_of_string "x"%string))); (CHasNext, OOk (RBool false)); (CEndObject, OOk RUnit)].
Example C47_case :
  SpecSimple.plays (deserialize_with_limit tree_code 20 128 TsNew) (sample_log1 ++ sample_log2) (DRet (inr sample_data)) /\
  open_after sample_log1 = 2%Z.
Proof. split; [|reflexivity]. apply (ClientErrors.replay_plays _ _ (map snd (sample_log1 ++ sample_log2))). vm_compute. reflexivity. Qed.

(** C47: the same for [deserialize_next], whose limit is 128. *)
Theorem C47_nesting_limit_of_deserialize_next : forall (V S : Type) (C : code V S) (fuel : nat) (seed : S) (log1 log2 : list (rcall * outcome)) (r : dend V),
  SpecSimple.plays (deserialize_next C fuel seed) (log1 ++ log2) r -> (open_after log1 <= 128)%Z.
Proof. exact C47_nesting_limit_of_deserialize_next_holds. Qed.
Print Assumptions C47_nesting_limit_of_deserialize_next.
(** C47: for every input and every code, deserializing ends without a failed internal check; the only
panics are those of documented misuse. *)
Theorem C47_only_misuse_panics : forall (V S : Type) (C : code V S) (s : settings) (evs : list event) (before after : list rcall) (limit : N) (fuel : nat) (seed : S),
  Forall is_byte (fst (supplied evs)) ->
  exists os1 r os2, client_session s evs (around before (deserialize_with_limit C fuel limit seed) after) = Some (os1, r, os2) /\
    r <> DPanic Bug.
Proof. exact C47_only_misuse_panics_holds. Qed.
Print Assumptions C47_only_misuse_panics.
(** Input which is not valid *)
Example C47_panics_case :
  Forall is_byte (fst (supplied [EvData [0x5B; 0x31; 0xFF]])) /\
  exists e, client_session default_settings [EvData [0x5B; 0x31; 0xFF]]
    (around [] (deserialize_with_limit tree_code 20 128 TsNew) []) = Some ([], DRet (inl (DeReader e)), []).
Proof. split; [repeat constructor|]. eexists. vm_compute. reflexivity. Qed.

(** C47: the same for [deserialize_next]. *)
Theorem C47_only_misuse_panics_in_deserialize_next : forall (V S : Type) (C : code V S) (s : settings) (evs : list event) (before after : list rcall) (fuel : nat) (seed : S),
  Forall is_byte (fst (supplied evs)) ->
  exists os1 r os2, client_session s evs (around before (deserialize_next C fuel seed) after) = Some (os1, r, os2) /\
    r <> DPanic Bug.
Proof. exact C47_only_misuse_panics_in_deserialize_next_holds. Qed.
Print Assumptions C47_only_misuse_panics_in_deserialize_next.
(** C47: for data which is not nested deeper than the limit, the limit does not matter: what can be
deserialized with one such limit can be deserialized with every other, with the same result. *)
Theorem C47_limit_matters_only_for_deeper_data : forall (V S : Type) (C : code V S) (s : settings) (vs : list json) (evs : list event) (before : list rcall)
    (limit1 limit2 : N) (fuel : nat) (seed : S) (c : cursor) (v : json) (os : list outcome) (a : V),
  returns_errors C -> document_input s vs evs ->
  snd (walk_calls s before (AtCursor (cursor_start vs))) = AtCursor c -> at_value s (drop_reader c) = inr v ->
  (nesting v <= N.to_nat limit1)%nat -> (nesting v <= N.to_nat limit2)%nat ->
  client_session s evs (around before (deserialize_with_limit C fuel limit1 seed) []) = Some (os, DRet (inr a), []) ->
  client_session s evs (around before (deserialize_with_limit C fuel limit2 seed) []) = Some (os, DRet (inr a), []).
Proof. exact C47_limit_matters_only_for_deeper_data_holds. Qed.
Print Assumptions C47_limit_matters_only_for_deeper_data.
Example C47_limit_case :
  nesting sample_tree = 2%nat /\
  client_session default_settings sample_events (around [] (deserialize_with_limit tree_code 20 2 TsNew) []) =
    Some ([], DRet (inr sample_data), []).
Proof. split; vm_compute; reflexivity. Qed.

(** C47: for code which goes on after an error the previous theorem is false: an error of
[deserialize_seq] and others leaves the depth incremented, so a later value can fail because of a
limit which the data does not reach. *)
Theorem C47_limit_after_errors_refuted : exists (V S : Type) (C : code V S) (s : settings) (v : json) (evs : list event) (limit1 limit2 : N) (fuel : nat) (seed : S) (a : V),
  document_input s [v] evs /\ (nesting v <= N.to_nat limit1)%nat /\ (nesting v <= N.to_nat limit2)%nat /\
  client_session s evs (deserialize_with_limit C fuel limit1 seed) = Some (DRet (inr a)) /\
  client_session s evs (deserialize_with_limit C fuel limit2 seed) = Some (DRet (inl (DeMaxNesting limit2))).
Proof. exact C47_limit_after_errors_refuted_holds. Qed.
Print Assumptions C47_limit_after_errors_refuted.
