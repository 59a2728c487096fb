(** * Properties of orderly closures and implementations of [Deserialize] (C60, C61) *)

From Coq Require Import String.
From Verif Require Import Base Utf8Model SourceModel ReaderModel SpecUsage SpecOrderly OrderlyFinal.
From Verif Require DeModel SimpleModel SpecDe PropsDe.
Local Open Scope list_scope.


(** C60: whatever the input is (also bytes which are no JSON at all), however it is
delivered and wherever an IO error occurs, no use of the simple reader panics whose
closures follow the rules of SpecOrderly: the closures need not care about the
errors of the reader, they may ignore them and continue. *)
Theorem C60_orderly_use_never_panics : forall (R : Type) (s : settings) (evs : list event) (fuel : nat) (w : SimpleModel.use R),
  Forall is_byte (fst (supplied evs)) -> orderly_use w ->
  forall k, SimpleModel.simple_session fuel s evs w <> SimpleModel.SPanic k.
Proof. exact C60_orderly_use_never_panics_holds. Qed.
Print Assumptions C60_orderly_use_never_panics.
(** For each member of an object: counts the items of an array, and ignores all
    errors of the reader: it peeks, reads the items as numbers, and then pretends
    that everything was fine *)
Definition count_use : SimpleModel.use nat :=
  let items := fun r : nat => SimpleModel.BRead SimpleModel.OpNumber (fun _ => SimpleModel.BDone (inr (S r))) in
  let member := fun r : nat =>
    SimpleModel.BReadName (fun _ => SimpleModel.BPeek (fun _ =>
    SimpleModel.BRead (SimpleModel.OpItems items r) (fun x =>
      SimpleModel.BDone (inr match x with inr (SimpleModel.VResult r') => r' | _ => r end)))) in
  SimpleModel.UPeek (fun _ => SimpleModel.URead (SimpleModel.OpMembers member 0%nat)).
Definition orderly_inputs : list (list event) :=
  [[EvData (bytes_of_string "{""a"":[1,2],""b"":[3]} "%string)];
   [EvData (bytes_of_string "{""a"":[1,2],""b"":{}} "%string)];
   [EvData (bytes_of_string "{""a"":[1,2]"%string)];
   [EvData (bytes_of_string "{""a"":[1,2"%string); EvErr 7];
   [EvData (bytes_of_string "]"%string)]].
Example C60_case :
  orderly_use count_use /\
  Forall (fun evs => Forall is_byte (fst (supplied evs))) orderly_inputs /\
  map (fun evs => match SimpleModel.simple_session 20 default_settings evs count_use with
                  | SimpleModel.SOk (SimpleModel.VResult r) => Some r
                  | SimpleModel.SErr _ => None
                  | _ => Some 99%nat
                  end) orderly_inputs = [Some 3; None; None; None; None]%nat.
Proof.
  split; [|split].
  - intros x r. cbn. split; [reflexivity|]. intros y z. split; [|split].
    + intros r'. split; [exact I|]. split; [intros; exact I|left; exact I].
    + intros; exact I.
    + left. intros r' x'. eexists. reflexivity.
  - repeat constructor; vm_compute; reflexivity.
  - vm_compute. reflexivity.
Qed.


(** C60: the rule about the errors of closures is needed.  The inner closure has read
the name of a member and then ends with an error of its own; the surrounding
closure ignores this error and calls has_next.  This panics for a valid document,
although only an error was ignored, and no other rule is violated. *)
Theorem C60_ignoring_own_errors_refuted : exists (member outer : SimpleModel.body nat) (evs : list event),
  orderly_body true member /\
  outer = SimpleModel.BRead (SimpleModel.OpMembers (fun _ => member) 0%nat)
            (fun _ => SimpleModel.BHasNext (fun _ => SimpleModel.BDone (inr 1%nat))) /\
  evs = [EvData [0x5B; 0x7B; 0x22; 0x61; 0x22; 0x3A; 0x31; 0x7D; 0x5D]] /\
  SimpleModel.simple_session 20 default_settings evs (SimpleModel.URead (SimpleModel.OpArray outer)) =
    SimpleModel.SPanic Misuse.
Proof. exact C60_ignoring_own_errors_refuted_holds. Qed.
Print Assumptions C60_ignoring_own_errors_refuted.
(** If the surrounding closure passes on the error, the user gets it *)
Example C60_passed_on_case :
  SimpleModel.simple_session 20 default_settings [EvData (bytes_of_string "[{""a"":1}]"%string)]
    (SimpleModel.URead (SimpleModel.OpArray
      (SimpleModel.BRead
        (SimpleModel.OpMembers (fun _ : nat => SimpleModel.BReadName (fun _ => SimpleModel.BDone (inl (SimpleModel.SCustom 1)))) 0%nat)
        (fun x => match x with inl e => SimpleModel.BDone (inl e) | inr _ => SimpleModel.BDone (inr 1%nat) end)))) =
  SimpleModel.SErr (SimpleModel.SCustom 1).
Proof. vm_compute. reflexivity. Qed.


(** C60: the rule about peeking is needed as well.  The documentation of read_name only
says that it panics if it is called more than once.  But it also panics if it is
called once for each member, after peek_value.  Here the closure passes on all errors. *)
Theorem C60_read_name_after_peek_refuted : exists (member : nat -> SimpleModel.body nat) (evs : list event),
  member = (fun _ =>
    SimpleModel.BPeek (fun x =>
      match x with
      | inl e => SimpleModel.BDone (inl e)
      | inr _ =>
        SimpleModel.BReadName (fun y =>
          match y with
          | inl e => SimpleModel.BDone (inl e)
          | inr _ => SimpleModel.BDone (inr 1%nat)
          end)
      end)) /\
  evs = [EvData [0x7B; 0x22; 0x61; 0x22; 0x3A; 0x31; 0x7D]] /\
  SimpleModel.simple_session 20 default_settings evs (SimpleModel.URead (SimpleModel.OpMembers member 0%nat)) =
    SimpleModel.SPanic Misuse.
Proof. exact C60_read_name_after_peek_refuted_holds. Qed.
Print Assumptions C60_read_name_after_peek_refuted.
(** The other order is fine *)
Example C60_peek_after_name_case :
  SimpleModel.simple_session 20 default_settings [EvData (bytes_of_string "{""a"":1}"%string)]
    (SimpleModel.URead (SimpleModel.OpMembers (fun _ : nat =>
      SimpleModel.BReadName (fun _ => SimpleModel.BPeek (fun _ => SimpleModel.BDone (inr 1%nat)))) 0%nat)) =
  SimpleModel.SOk (SimpleModel.VResult 1%nat).
Proof. vm_compute. reflexivity. Qed.


(** C61: deserializing a value with code which follows the rules of Serde never
panics, whatever the input is, for every nesting limit, and after every sequence
of calls before it after which a value may be read (SpecUsage).  If it succeeds,
then the value counts as read: the calls which may be made after it do not panic
either. *)
Theorem C61_orderly_code_never_panics : forall (V S : Type) (C : DeModel.code V S) (fuel : nat) (limit : N) (seed : S) (s : settings) (evs : list event)
    (before after : list rcall) (os1 os2 : list outcome) (r : DeModel.dend V) (u : usage),
  Forall is_byte (fst (supplied evs)) -> orderly_code C seed ->
  DeModel.client_session s evs (DeModel.around before (DeModel.deserialize_with_limit C fuel limit seed) after) = Some (os1, r, os2) ->
  usage_of before os1 usage_start = Some u -> value_allowed s u = true ->
  (forall k, r <> DeModel.DPanic k) /\
  (forall a, r = DeModel.DRet (inr a) -> correct_usage s after os2 (value_done (u_open u) u) ->
   forall o k, In o os2 -> o <> OPanic k).
Proof. exact C61_orderly_code_never_panics_holds. Qed.
Print Assumptions C61_orderly_code_never_panics.
Import DeModel PropsDe.
Example tree_code_orderly : orderly_code tree_code TsNew.
Proof.
  split; [exact tree_code_returns_errors|].
  exists (fun st => st = TsNew), (fun st => st = TsNew), (fun _ => True),
    (fun (value : bool) st => match st with TsValue _ _ => value = true | _ => value = false end).
  split; [|reflexivity]. split; cbn.
  - auto.
  - intros st ->. repeat split; try reflexivity. exists (DeCustom 2). reflexivity.
  - intros [| | | |]; cbn; auto.
  - intros st Hst. destruct st as [|[|x [|y l]]| | |]; cbn; auto. discriminate.
  - intros st Hst. destruct st; try discriminate. split; auto.
Qed.
Definition orderly_before : list rcall := [CBeginObject; CNextName].
Definition orderly_after : list rcall := [CHasNext; CSkipName; CPeek].
Example C61_case :
  map (fun evs =>
    match client_session default_settings evs (around orderly_before (deserialize_with_limit tree_code 20 128 TsNew) orderly_after) with
    | Some (os1, r, os2) =>
      match usage_of orderly_before os1 usage_start with
      | Some u =>
        if value_allowed default_settings u
        then match r with
             | DRet (inr t) => Some (Some t, map (fun o => match o with OOk _ => true | _ => false end) os2)
             | DRet (inl _) => Some (None, [])
             | _ => None
             end
        else None
      | None => None
      end
    | None => None
    end) orderly_inputs =
  [Some (Some (TrList [TrInt 1; TrInt 2]), [true; true; true]); Some (Some (TrList [TrInt 1; TrInt 2]), [true; true; true]);
   Some (Some (TrList [TrInt 1; TrInt 2]), [false; false; false]); Some (None, []); None].
Proof. vm_compute. reflexivity. Qed.
Example C61_after_case :
  exists os1 r os2 u,
    client_session default_settings [EvData (bytes_of_string "{""a"":[1,2],""b"":[3]} "%string)]
      (around orderly_before (deserialize_with_limit tree_code 20 128 TsNew) orderly_after) = Some (os1, DRet (inr r), os2) /\
    usage_of orderly_before os1 usage_start = Some u /\ value_allowed default_settings u = true /\
    correct_usage default_settings orderly_after os2 (value_done (u_open u) u).
Proof. do 4 eexists. split; [vm_compute; reflexivity|]. split; [vm_compute; reflexivity|]. split; [reflexivity|]. vm_compute. repeat (split || reflexivity). Qed.


(** C61: the same for the method deserialize_next of a reader. *)
Theorem C61_deserialize_next_never_panics : forall (V S : Type) (C : DeModel.code V S) (fuel : nat) (seed : S) (s : settings) (evs : list event)
    (before after : list rcall) (os1 os2 : list outcome) (r : DeModel.dend V) (u : usage),
  Forall is_byte (fst (supplied evs)) -> orderly_code C seed ->
  DeModel.client_session s evs (DeModel.around before (DeModel.deserialize_next C fuel seed) after) = Some (os1, r, os2) ->
  usage_of before os1 usage_start = Some u -> value_allowed s u = true ->
  (forall k, r <> DeModel.DPanic k) /\
  (forall a, r = DeModel.DRet (inr a) -> correct_usage s after os2 (value_done (u_open u) u) ->
   forall o k, In o os2 -> o <> OPanic k).
Proof. exact C61_deserialize_next_never_panics_holds. Qed.
Print Assumptions C61_deserialize_next_never_panics.
Example C61_next_case :
  map (fun evs =>
    match client_session default_settings evs (around [] (deserialize_next tree_code 20 TsNew) [CConsumeTrailingWhitespace]) with
    | Some (_, DRet (inr t), _) => Some true
    | Some (_, DRet (inl _), _) => Some false
    | _ => None
    end) orderly_inputs = [Some true; Some true; Some false; Some false; Some false].
Proof. vm_compute. reflexivity. Qed.


(** C61: the rules of Serde are needed.  This code asks for the key of a member and
then for the next key instead of the value, and returns every error it gets: it
panics for a valid document. *)
Theorem C61_disorderly_code_refuted : exists (C : DeModel.code nat (option DeModel.derr)) (evs : list event) (os : list outcome),
  SpecDe.returns_errors C /\ (forall st, DeModel.deserialize C st = DeModel.SaCall DeModel.MMap None (fun r => r)) /\
  (exists k, DeModel.visit_map C None = DeModel.MpKey None k /\ forall x, k (inr x) = None) /\
  evs = [EvData [0x7B; 0x22; 0x61; 0x22; 0x3A; 0x31; 0x7D]] /\
  DeModel.client_session default_settings evs (DeModel.around [] (DeModel.deserialize_with_limit C 20 128 None) []) =
    Some ([], DeModel.DPanic Misuse, os).
Proof. exact C61_disorderly_code_refuted_holds. Qed.
Print Assumptions C61_disorderly_code_refuted.
