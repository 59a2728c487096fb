(** * Properties of programs which decide by the results so far *)

From Verif Require Import Base Utf8Model SpecJson SourceModel ReaderModel SpecCursor SpecRead SpecSessions ClientModel SimpleModel SpecSimple
  DeModel SpecPrograms ProgramsFinal.
From Verif Require PropsReader PropsSimple.

(** C65: a program gets a result exactly if that is what it makes of the results which its calls have when they are made one after
the other, without regard to the program.  So all theorems about sequences of calls are theorems about programs as well. *)
Theorem C65_programs_get_the_results_of_their_calls : forall (A : Type) (s : settings) (evs : list event) (m : client A) (a : A), Forall is_byte (fst (supplied evs)) ->
  (client_session s evs m = Some a <-> exists log, plays m log a /\ really_happens s evs log).
Proof. exact C65_programs_get_the_results_of_their_calls_holds. Qed.
Print Assumptions C65_programs_get_the_results_of_their_calls.
(** The first name of an object, and nothing for other values *)
Definition first_name : client (option str) :=
  Call CPeek (fun o =>
    match o with
    | OOk (RType TObject) => Call CBeginObject (fun _ => Call CNextName (fun o => match o with OOk (RStr n) => Done (Some n) | _ => Done None end))
    | _ => Done None
    end).
(** [{"a":1}] *)
Definition small_object : bytes := [0x7B; 0x22; 0x61; 0x22; 0x3A; 0x31; 0x7D].
Example C65_case : Forall is_byte (fst (supplied [EvData small_object])) /\
  client_session default_settings [EvData small_object] first_name = Some (Some [0x61]) /\
  plays first_name [(CPeek, OOk (RType TObject)); (CBeginObject, OOk RUnit); (CNextName, OOk (RStr [0x61]))] (Some [0x61]) /\
  really_happens default_settings [EvData small_object] [(CPeek, OOk (RType TObject)); (CBeginObject, OOk RUnit); (CNextName, OOk (RStr [0x61]))].
Proof. split; [vm_compute; repeat constructor|]. split; [vm_compute; reflexivity|]. split; [repeat constructor|vm_compute; reflexivity]. Qed.

(** C65: in particular, the results of calls do not depend on the calls made afterwards. *)
Theorem C65_later_calls_do_not_matter : forall (s : settings) (evs : list event) (cs later : list rcall), Forall is_byte (fst (supplied evs)) ->
  exists os, read_session s evs (cs ++ later) = read_session s evs cs ++ os.
Proof. exact C65_later_calls_do_not_matter_holds. Qed.
Print Assumptions C65_later_calls_do_not_matter.
Example C65_later_case : read_session default_settings [EvData small_object] ([CPeek; CBeginObject] ++ [CNextNull]) =
  read_session default_settings [EvData small_object] [CPeek; CBeginObject] ++ [OPanic Misuse].
Proof. vm_compute. reflexivity. Qed.

(** C18, for programs: if the source fails, a program gets the error of the source in one of its calls, or it has the result which
it would have if the source did not fail. *)
Theorem C18_programs_get_the_error_or_the_same_result : forall (A : Type) (s : settings) (evs evs' : list event) (e : N) (more : bytes) (m : client A),
  snd (supplied evs) = TErr e -> fst (supplied evs') = fst (supplied evs) ++ more -> Forall is_byte (fst (supplied evs')) ->
  client_session s evs m = client_session s evs' m \/
  encounters (hit_outcome (fun err => exists p, err = EIo (IoSource e) p)) s evs m.
Proof. exact C18_programs_get_the_error_or_the_same_result_holds. Qed.
Print Assumptions C18_programs_get_the_error_or_the_same_result.
(** The source fails within the name *)
Example C18_programs_case : let evs := [EvData (firstn 3 small_object); EvErr 5] in
  snd (supplied evs) = TErr 5 /\ fst (supplied [EvData small_object]) = fst (supplied evs) ++ skipn 3 small_object /\
  client_session default_settings evs first_name = Some None /\ client_session default_settings [EvData small_object] first_name = Some (Some [0x61]) /\
  exists p, read_session default_settings evs [CPeek; CBeginObject; CNextName] = [OOk (RType TObject); OOk RUnit; OErr (EIo (IoSource 5) p)].
Proof. repeat (split; [vm_compute; reflexivity|]). eexists. vm_compute. reflexivity. Qed.

(** C18, for the simple API: what closures (which hand on the errors of [Deserialize] implementations) get from a source which fails
is what they get if it does not fail, and then supplies anything else. *)
Theorem C18_closures_succeed_only_without_io_error : forall (R : Type) (fuel : nat) (s : settings) (evs evs' : list event) (e : N) (more : bytes) (u : use R) (x : reply R),
  snd (supplied evs) = TErr e -> fst (supplied evs') = fst (supplied evs) ++ more -> Forall is_byte (fst (supplied evs')) ->
  returns_errors_use u -> simple_session fuel s evs u = SOk x -> simple_session fuel s evs' u = SOk x.
Proof. exact C18_closures_succeed_only_without_io_error_holds. Qed.
Print Assumptions C18_closures_succeed_only_without_io_error.
(** The source fails behind the object, and closures have to read all of it *)
Example C18_closures_case : let evs := [EvData (small_object ++ [0x20]); EvErr 5] in
  snd (supplied evs) = TErr 5 /\ (forall x, simple_session 20 default_settings evs (@URead unit OpNumber) <> SOk x) /\
  returns_errors_use (@URead unit OpNumber) /\
  simple_session 20 default_settings [EvData [0x31; 0x20]] (@URead unit OpNumber) = SOk (VStr [0x31]).
Proof. split; [vm_compute; reflexivity|]. split; [vm_compute; discriminate|]. split; [exact I|vm_compute; reflexivity]. Qed.

(** C20, for programs: a program which ignores lines, columns and byte positions cannot distinguish two inputs with the same data. *)
Theorem C20_layout_is_invisible_to_programs : forall (A : Type) (s1 s2 : settings) (vs : list json) (evs1 evs2 : list event) (m : client A),
  Forall is_byte (fst (supplied evs1)) -> Forall is_byte (fst (supplied evs2)) ->
  document_input s1 vs evs1 -> document_input s2 vs evs2 ->
  allow_multiple_top_level s1 = allow_multiple_top_level s2 -> track_path s1 = track_path s2 ->
  restrict_number_values s1 = restrict_number_values s2 ->
  allow_multiple_top_level s1 = false \/ avoids (fun c => c = CConsumeTrailingWhitespace) m ->
  ignores forget m -> client_session s1 evs1 m = client_session s2 evs2 m.
Proof. exact C20_layout_is_invisible_to_programs_holds. Qed.
Print Assumptions C20_layout_is_invisible_to_programs.
Lemma first_name_ignores : ignores forget first_name.
Proof.
  constructor.
  - intros o1 o2 H12. destruct o1 as [[]| | | | | |], o2 as [[]| | | | | |]; cbn in H12; try discriminate; try reflexivity. injection H12 as ->. reflexivity.
  - intros o. destruct o as [[| |[]| | |]| | | | | |]; try apply Ig_done. apply Ig_call; [reflexivity|]. intros _. constructor.
    + intros o1 o2 H12. destruct o1 as [[]| | | | | |], o2 as [[]| | | | | |]; cbn in H12; try discriminate; try reflexivity. injection H12 as ->. reflexivity.
    + intros o. destruct o as [[]| | | | | |]; constructor.
Qed.

(** C27, for programs: path tracking has no influence on a program which ignores the paths. *)
Theorem C27_path_tracking_has_no_influence_on_programs : forall (A : Type) (s : settings) (evs : list event) (m : client A), Forall is_byte (fst (supplied evs)) ->
  ignores no_path_outcome m -> client_session (without_path s) evs m = client_session s evs m.
Proof. exact C27_path_tracking_has_no_influence_on_programs_holds. Qed.
Print Assumptions C27_path_tracking_has_no_influence_on_programs.
(** C35, for programs: without comments being enabled a program gets the error about that, or its result is the same as if they were
enabled. *)
Theorem C35_programs_without_comments_enabled : forall (A : Type) (s : settings) (evs : list event) (m : client A), Forall is_byte (fst (supplied evs)) ->
  client_session (set_comments false s) evs m = client_session (set_comments true s) evs m \/
  encounters (hit_outcome (fun e => exists p, e = ESyntax CommentsNotEnabled p)) (set_comments false s) evs m.
Proof. exact C35_programs_without_comments_enabled_holds. Qed.
Print Assumptions C35_programs_without_comments_enabled.
(** An empty comment before the object *)
Example C35_programs_case : let evs := [EvData ([0x2F; 0x2A; 0x2A; 0x2F] ++ small_object)] in
  client_session (set_comments false default_settings) evs first_name = Some None /\
  client_session (set_comments true default_settings) evs first_name = Some (Some [0x61]).
Proof. split; vm_compute; reflexivity. Qed.

(** C35, for programs: the same for trailing commas. *)
Theorem C35_programs_without_trailing_comma_enabled : forall (A : Type) (s : settings) (evs : list event) (m : client A), Forall is_byte (fst (supplied evs)) ->
  client_session (set_trailing_comma false s) evs m = client_session (set_trailing_comma true s) evs m \/
  encounters (hit_outcome (fun e => exists p, e = ESyntax TrailingCommaNotEnabled p)) (set_trailing_comma false s) evs m.
Proof. exact C35_programs_without_trailing_comma_enabled_holds. Qed.
Print Assumptions C35_programs_without_trailing_comma_enabled.
(** C41, for programs: a larger nesting limit changes the result only of programs which get the error about the smaller one. *)
Theorem C41_programs_with_larger_nesting_limit : forall (A : Type) (s : settings) (evs : list event) (m : client A) (n : N) (d : option N), Forall is_byte (fst (supplied evs)) ->
  (forall n', d = Some n' -> n <= n') ->
  client_session (set_max_nesting_depth (Some n) s) evs m = client_session (set_max_nesting_depth d s) evs m \/
  encounters (hit_outcome (fun e => exists p, e = EMaxNestingDepth n p)) (set_max_nesting_depth (Some n) s) evs m.
Proof. exact C41_programs_with_larger_nesting_limit_holds. Qed.
Print Assumptions C41_programs_with_larger_nesting_limit.
Example C41_programs_case :
  client_session (set_max_nesting_depth (Some 0) default_settings) [EvData small_object] first_name = Some None /\
  client_session (set_max_nesting_depth (Some 1) default_settings) [EvData small_object] first_name = Some (Some [0x61]).
Proof. split; vm_compute; reflexivity. Qed.

(** C41, for programs: the same for the restriction of numbers. *)
Theorem C41_programs_with_unrestricted_numbers : forall (A : Type) (s : settings) (evs : list event) (m : client A), Forall is_byte (fst (supplied evs)) ->
  client_session (set_restrict_numbers true s) evs m = client_session (set_restrict_numbers false s) evs m \/
  encounters (hit_outcome (fun e => exists n p, e = EUnsupportedNumber n p)) (set_restrict_numbers true s) evs m.
Proof. exact C41_programs_with_unrestricted_numbers_holds. Qed.
Print Assumptions C41_programs_with_unrestricted_numbers.
(** C41, for the simple API: closures which succeed with the limits have the same result without them. *)
Theorem C41_closures_succeed_without_limits : forall (R : Type) (fuel : nat) (s : settings) (evs : list event) (n : N) (u : use R) (x : reply R), Forall is_byte (fst (supplied evs)) ->
  returns_errors_use u -> simple_session fuel (set_max_nesting_depth (Some n) (set_restrict_numbers true s)) evs u = SOk x ->
  simple_session fuel (set_max_nesting_depth None (set_restrict_numbers false s)) evs u = SOk x.
Proof. exact C41_closures_succeed_without_limits_holds. Qed.
Print Assumptions C41_closures_succeed_without_limits.
