(** * Writer: sequences of calls *)

From Verif Require Import Base Utf8Model Utf8Proofs NumberModel SpecNumber NumberProofs SpecJson
  WriterModel SpecWriter Utf8Prefix WriterProofs WriterDocProofs WriterStringProofs.

(** ** Text of numbers *)

Lemma ascii_encode t : Forall (fun b => b < 0x80) t -> encode_utf8 t = t.
Proof.
  induction 1 as [|b t Hb Ht IH]; [reflexivity|].
  rewrite encode_utf8_cons, IH. unfold encode_char. destruct (N.ltb_spec b 0x80); [reflexivity|lia].
Qed.

Lemma digits_value_app ds d : digits_value (ds ++ [d]) = digits_value ds * 10 + (d - 0x30).
Proof. unfold digits_value. rewrite fold_left_app. reflexivity. Qed.

Lemma decimal_digits_spec fuel : forall n acc, n < 10 ^ N.of_nat fuel ->
  exists ds, decimal_digits fuel n acc = ds ++ acc /\ (fuel <> O -> int_text ds) /\ digits_value ds = n.
Proof.
  induction fuel as [|fuel IH]; intros n acc Hn.
  - cbn in Hn. exists []. assert (n = 0) by lia. splits; auto. contradiction.
  - cbn [decimal_digits]. destruct (N.ltb_spec n 10) as [Hlt|Hge].
    + exists [0x30 + n]. splits; auto.
      * intros _. destruct (N.eq_dec n 0) as [->|Hz]; [left; reflexivity|].
        right. exists (0x30 + n), []. splits; auto; lia.
      * cbn. lia.
    + assert (Hq : n / 10 < 10 ^ N.of_nat fuel).
      { apply N.div_lt_upper_bound; [discriminate|]. rewrite Nat2N.inj_succ, N.pow_succ_r in Hn by lia. exact Hn. }
      destruct (IH (n / 10) ((0x30 + n mod 10) :: acc) Hq) as (ds & E & Hi & Hv).
      exists (ds ++ [0x30 + n mod 10]). splits.
      * rewrite E, <- app_assoc. reflexivity.
      * intros _. assert (Hf : fuel <> O).
        { intros ->. cbn in Hq. assert (1 <= n / 10) by (apply N.div_le_lower_bound; lia). lia. }
        destruct (Hi Hf) as [->|(d & ds' & -> & Hd & Hds)].
        -- cbn in Hv. exfalso. assert (1 <= n / 10) by (apply N.div_le_lower_bound; lia). lia.
        -- right. exists d, (ds' ++ [0x30 + n mod 10]). splits; auto; [lia|lia|].
           apply Forall_app. split; [exact Hds|]. constructor; [|constructor].
           assert (n mod 10 < 10) by (apply N.mod_lt; discriminate). unfold digit. lia.
      * rewrite digits_value_app, Hv. pose proof (N.div_mod n 10 ltac:(discriminate)).
        lia.
Qed.

Lemma nat_to_string_spec n : int_text (nat_to_string n) /\ digits_value (nat_to_string n) = n.
Proof.
  unfold nat_to_string.
  destruct (decimal_digits_spec (S (N.to_nat (N.size n))) n []) as (ds & E & Hi & Hv).
  - assert (H1 : n < 2 ^ N.size n) by apply N.size_gt.
    assert (H2 : 2 ^ N.size n <= 10 ^ N.size n) by (apply N.pow_le_mono_l; lia).
    assert (H3 : 10 ^ N.size n <= 10 ^ N.of_nat (S (N.to_nat (N.size n)))) by (apply N.pow_le_mono_r; lia).
    lia.
  - rewrite app_nil_r in E. rewrite E. split; [apply Hi; discriminate|exact Hv].
Qed.

Lemma int_text_number t : int_text t -> number_text t /\ number_text (0x2D :: t).
Proof.
  intros Ht. split; exists O.
  - exists [], t, [], []. rewrite !app_nil_r. splits; auto; left; auto.
  - exists [0x2D], t, [], []. rewrite !app_nil_r. splits; auto; left; auto.
Qed.

Lemma int_text_ascii t : int_text t -> Forall (fun b => b < 0x80) t.
Proof.
  intros [->|(d & ds & -> & Hd & Hds)]; [repeat constructor|]. constructor; [lia|].
  eapply Forall_impl; [|exact Hds]. unfold digit. intros; lia.
Qed.

Lemma int_to_string_spec z : decimal_text z (int_to_string z) /\ number_text (int_to_string z) /\
  is_valid_json_number (int_to_string z) = true.
Proof.
  assert (H : decimal_text z (int_to_string z) /\ number_text (int_to_string z) /\ Forall (fun b => b < 0x80) (int_to_string z)).
  { destruct z as [|p|p]; unfold int_to_string.
    - destruct (nat_to_string_spec (Z.to_N 0)) as [Hi Hv]. splits.
      + left. split; [exact Hi|]. rewrite Hv. reflexivity.
      + apply int_text_number, Hi.
      + apply int_text_ascii, Hi.
    - destruct (nat_to_string_spec (Z.to_N (Z.pos p))) as [Hi Hv]. splits.
      + left. split; [exact Hi|]. rewrite Hv. lia.
      + apply int_text_number, Hi.
      + apply int_text_ascii, Hi.
    - destruct (nat_to_string_spec (N.pos p)) as [Hi Hv]. splits.
      + right. exists (nat_to_string (N.pos p)). splits; auto; rewrite Hv; lia.
      + apply int_text_number, Hi.
      + constructor; [lia|]. apply int_text_ascii, Hi. }
  destruct H as (H1 & H2 & H3). splits; auto.
  apply is_valid_json_number_spec. rewrite ascii_encode by exact H3. exact H2.
Qed.

(** ** Invariant *)

Definition no_string (d : wdoc) : wdoc := Wdoc (d_top d) (d_open d) None.

(** Text produced for the document so far *)
Definition text_of (cfg : wsettings) (d : wdoc) (t : bytes) : Prop :=
  match d_string d with
  | None => t = doc_text cfg d
  | Some acc => exists s tail, Forall is_char s /\ acc = encode_utf8 s ++ tail /\
      t = doc_text cfg d ++ child_sep cfg (d_top d) (d_open d) ++ [0x22] ++ string_content cfg s
  end.

Definition sess_ok (cfg : wsettings) (d : wdoc) (s : wsession) : Prop :=
  buf_ok (ws_writer s) /\ Forall pending_frame (tl (d_open d)) /\
  match d_string d with
  | None => ws_string s = None /\ core_of (ws_writer s) = core_for cfg d /\
      emitted (ws_writer s) = doc_text cfg d
  | Some acc => value_allowed (multi_top_level cfg) (no_string d) /\
      core_of (ws_writer s) = k_set_active true (core_for cfg (add_value JNull (no_string d))) /\
      exists sv s0, ws_string s = Some sv /\ sv_ok sv /\ sv_error sv = None /\ Forall is_char s0 /\
        acc = encode_utf8 s0 ++ sv_buf sv /\
        emitted (ws_writer s) = doc_text cfg d ++ child_sep cfg (d_top d) (d_open d) ++ [0x22] ++ string_content cfg s0
  end.

Lemma sess_ok_text cfg d s : sess_ok cfg d s -> text_of cfg d (emitted (ws_writer s)).
Proof.
  intros (_ & _ & H). unfold text_of. destruct (d_string d).
  - destruct H as (_ & _ & sv & s0 & _ & _ & _ & Hs & Hacc & He). exists s0, (sv_buf sv). auto.
  - apply H.
Qed.

Definition sess_good (s : wsession) : Prop := good_sink (w_sink (ws_writer s)).

(** What a described call may do *)
Definition call_ok (cfg : wsettings) (c : wcall) (d' : wdoc) (s : wsession) (o : wresult * wsession) : Prop :=
  (success c (fst o) /\ sess_ok cfg d' (snd o) /\ (sess_good s -> sess_good (snd o))) \/
  (exists e, fst o = RError e /\ sink_error e /\ ~ sess_good s /\
   exists rest, text_of cfg d' (received (w_sink (ws_writer (snd o))) ++ rest)).

Lemma new_session_ok cfg s : received s = [] -> sess_ok cfg empty_doc (new_session s).
Proof.
  intros E. unfold sess_ok, empty_doc. cbn [d_open d_string d_top ws_writer ws_string new_session tl]. splits; auto.
  - unfold core_for, core_of. cbn. f_equal. destruct (pretty_print cfg); reflexivity.
  - unfold emitted; cbn; rewrite E; reflexivity.
Qed.

Lemma add_value_pending v top o : Forall pending_frame (tl o) -> Forall pending_frame (tl (d_open (add_value v (Wdoc top o None)))).
Proof. intros H. unfold add_value. destruct o as [|[|ms []] o]; cbn in *; auto. Qed.

Lemma doc_step_json cfg m d d' s c : (forall r, success c r <-> r = RDone) ->
  d_string d = None -> sess_ok cfg d s -> d_string d' = None -> Forall pending_frame (tl (d_open d')) ->
  doc_step cfg m tt d d' -> call_ok cfg c d' s (json_call m s).
Proof.
  intros Hsc Hd (Hb & Hp & H) Hd' Hp' (t & Ht & Hw). rewrite Hd in H. destruct H as (Hs & Hk & He).
  specialize (Hw _ Hk Hb). unfold json_call. destruct (m (ws_writer s)) as [r st'].
  destruct Hw as [(-> & He' & Hk' & Hb' & Hg)|(e & -> & Hse & Hg & rest & Hr)].
  - left. cbn [fst snd]. splits; [apply Hsc; reflexivity| |exact Hg].
    unfold sess_ok. splits; auto. rewrite Hd'. cbn. splits; auto. rewrite He', He, Ht. reflexivity.
  - right. exists e. cbn [fst snd]. splits; auto. exists rest. unfold text_of. rewrite Hd'. cbn. rewrite Hr, He, Ht. reflexivity.
Qed.

Lemma doc_step_bind_ret cfg {A} m (a : A) d d' : doc_step cfg m tt d d' ->
  doc_step cfg (wbind m (fun _ => wret a)) a d d'.
Proof.
  intros (t & Ht & Hw). exists t. split; [exact Ht|]. eapply wr_bind_r; [exact Hw|apply wr_ret].
Qed.

Lemma doc_step_number cfg m d d' s c n : 
  success c (match n with NumberWritten => RDone | InvalidNumber => RInvalidNumber end) ->
  d_string d = None -> sess_ok cfg d s -> d_string d' = None -> Forall pending_frame (tl (d_open d')) ->
  doc_step cfg m n d d' -> call_ok cfg c d' s (number_call m s).
Proof.
  intros Hsc Hd (Hb & Hp & H) Hd' Hp' (t & Ht & Hw). rewrite Hd in H. destruct H as (Hs & Hk & He).
  specialize (Hw _ Hk Hb). unfold number_call. destruct (m (ws_writer s)) as [r st'].
  destruct Hw as [(-> & He' & Hk' & Hb' & Hg)|(e & -> & Hse & Hg & rest & Hr)].
  - left. cbn [fst snd]. splits; [exact Hsc| |exact Hg].
    unfold sess_ok. splits; auto. rewrite Hd'. cbn. splits; auto. rewrite He', He, Ht. reflexivity.
  - right. exists e. cbn [fst snd]. splits; auto. exists rest. unfold text_of. rewrite Hd'. cbn. rewrite Hr, He, Ht. reflexivity.
Qed.

Lemma value_allowed_no_string multi d : value_allowed multi d -> d = no_string d.
Proof. destruct d as [top o st]. intros [H _]. cbn in H. subst. reflexivity. Qed.

Lemma add_value_string v d : d_string d = None -> d_string (add_value v d) = None.
Proof. intros H. unfold add_value. destruct (d_open d) as [|[|ms []]]; cbn; auto. Qed.

Lemma add_value_pending' v d : d_string d = None -> Forall pending_frame (tl (d_open d)) ->
  Forall pending_frame (tl (d_open (add_value v d))).
Proof. destruct d as [top o st]. cbn. intros -> H. apply add_value_pending, H. Qed.

(** ** Misuse *)

Lemma value_allowed_dec multi d : value_allowed multi d \/ ~ value_allowed multi d.
Proof.
  unfold value_allowed. destruct (d_string d); [right; intros [H _]; discriminate|].
  destruct (d_open d) as [|[items|ms [n|]] o]; try (left; split; [reflexivity|]; discriminate || exact I).
  - destruct (d_top d); [left; auto|]. destruct multi; [left; auto|]. right. intros [_ [H|H]]; discriminate.
  - right. intros [_ H]. contradiction.
Qed.

Lemma before_value_panics_string cfg st k : core_of st = k_set_active true k ->
  before_value cfg st = (Panic Misuse, st).
Proof.
  intros H. apply (f_equal k_active) in H. cbn in H.
  unfold before_value, wbind, wget. rewrite H. reflexivity.
Qed.

Lemma before_value_panics cfg d st : core_of st = core_for cfg d -> d_string d = None ->
  ~ value_allowed (multi_top_level cfg) d -> before_value cfg st = (Panic Misuse, st).
Proof.
  intros H Hd Hn. unfold core_of, core_for in H. injection H as He Hx Hs Ha Hi.
  unfold before_value, wbind, wget. rewrite Ha. cbn beta iota.
  unfold value_allowed in Hn. rewrite Hd in Hn.
  destruct (d_open d) as [|[items|ms [n|]] o].
  - rewrite Hx, He, Hs. cbn.
    destruct (d_top d) as [|v top]; [exfalso; apply Hn; auto|]. cbn.
    unfold multi_top_level in Hn. destruct (multi_top_level_value_separator cfg); [exfalso; apply Hn; auto|]. reflexivity.
  - exfalso. apply Hn. auto.
  - exfalso. apply Hn. split; [reflexivity|discriminate].
  - rewrite Hx. reflexivity.
Qed.

Lemma sess_before_value_panics cfg d s : sess_ok cfg d s -> ~ value_allowed (multi_top_level cfg) d ->
  before_value cfg (ws_writer s) = (Panic Misuse, ws_writer s).
Proof.
  intros (_ & _ & H) Hn. destruct (d_string d) as [acc|] eqn:Ed.
  - destruct H as (_ & H & _). eapply before_value_panics_string, H.
  - destruct H as (_ & H & _). eapply before_value_panics; eauto.
Qed.

Lemma bind_panics {A B} (m : W A) (f : A -> W B) st : m st = (Panic Misuse, st) -> wbind m f st = (Panic Misuse, st).
Proof. intros H. unfold wbind. rewrite H. reflexivity. Qed.

(** A misused call panics and leaves the writer untouched *)
Lemma misuse_panics cfg d s c : sess_ok cfg d s -> valid_call c -> misuse (multi_top_level cfg) d c ->
  wstep cfg c s = (RPanic Misuse, Wsession (ws_writer s) None).
Proof.
  intros Hok Hvc Hm.
  assert (Hbv : ~ value_allowed (multi_top_level cfg) d -> forall B (f : unit -> W B),
    wbind (before_value cfg) f (ws_writer s) = (Panic Misuse, ws_writer s)).
  { intros Hn B f. apply bind_panics. eapply sess_before_value_panics; eauto. }
  assert (Hfields : forall k, core_of (ws_writer s) = k ->
     w_expects_member_name (ws_writer s) = k_expects k /\ w_stack (ws_writer s) = k_stack k /\
     w_string_active (ws_writer s) = k_active k) by (intros k <-; auto).
  destruct c as [| | | |n|v|b| |z|[v|]|v| |bs|v| |]; cbn [misuse wstep] in *; try contradiction.
  - unfold json_call, begin_object. rewrite Hbv by exact Hm. reflexivity.
  - (* end_object *)
    unfold json_call, end_object, wbind, wget, w_is_in_object.
    destruct Hok as (_ & _ & Hok). destruct (d_string d) as [acc|] eqn:Ed.
    + destruct Hok as (_ & Hk & _). destruct (Hfields _ Hk) as (Fx & Fs & Fa). 
      destruct (w_stack (ws_writer s)) as [|[]]; cbn; rewrite ?Fa; reflexivity.
    + destruct Hm as [Hm|Hm]; [contradiction|].
      destruct Hok as (_ & Hk & _). destruct (Hfields _ Hk) as (Fx & Fs & Fa). rewrite Fs. cbn in Fx |- *.
      destruct (d_open d) as [|[items|ms [n|]] o]; cbn; rewrite ?Fa; cbn; rewrite ?Fx; try reflexivity. exfalso. apply Hm. eauto.
  - unfold json_call, begin_array. rewrite Hbv by exact Hm. reflexivity.
  - unfold json_call, end_array, wbind, wget, w_is_in_array.
    destruct Hok as (_ & _ & Hok). destruct (d_string d) as [acc|] eqn:Ed.
    + destruct Hok as (_ & Hk & _). destruct (Hfields _ Hk) as (Fx & Fs & Fa). 
      destruct (w_stack (ws_writer s)) as [|[]]; cbn; rewrite ?Fa; reflexivity.
    + destruct Hm as [Hm|Hm]; [contradiction|].
      destruct Hok as (_ & Hk & _). destruct (Hfields _ Hk) as (Fx & Fs & Fa). rewrite Fs. cbn.
      destruct (d_open d) as [|[items|ms n] o]; cbn; try reflexivity. exfalso. apply Hm. eauto.
  - unfold json_call, name, wbind, wget.
    destruct Hok as (_ & _ & Hok). destruct (d_string d) as [acc|] eqn:Ed.
    + destruct Hok as (_ & Hk & _). destruct (Hfields _ Hk) as (Fx & Fs & Fa). 
      destruct (w_expects_member_name (ws_writer s)); cbn; rewrite ?Fa; reflexivity.
    + destruct Hm as [Hm|Hm]; [contradiction|].
      destruct Hok as (_ & Hk & _). destruct (Hfields _ Hk) as (Fx & Fs & Fa). rewrite Fx. cbn.
      destruct (d_open d) as [|[items|ms [m|]] o]; try reflexivity. exfalso. apply Hm. eauto.
  - unfold json_call, string_value. rewrite Hbv by exact Hm. reflexivity.
  - unfold json_call, bool_value. rewrite Hbv by exact Hm. reflexivity.
  - unfold json_call, null_value. rewrite Hbv by exact Hm. reflexivity.
  - unfold json_call, number_value. destruct (int_to_string_spec z) as (_ & _ & ->). cbn [negb].
    unfold number_str_value. rewrite Hbv by exact Hm. reflexivity.
  - unfold number_call, fp_number_value. destruct Hvc as [_ Hv]. apply is_valid_json_number_spec in Hv. rewrite Hv. cbn [negb].
    unfold number_str_value. rewrite bind_panics by (apply Hbv, Hm). reflexivity.
  - unfold number_call, number_value_from_string. destruct Hm as [Hv Hm].
    apply is_valid_json_number_spec in Hv. rewrite Hv. rewrite Hbv by exact Hm. reflexivity.
  - unfold string_value_writer. rewrite Hbv by exact Hm. reflexivity.
Qed.

(** ** Described calls *)

Lemma wr_number_str cfg d t : value_allowed (multi_top_level cfg) d ->
  doc_step cfg (number_str_value cfg t) tt d (add_value (JNum t) d).
Proof. intros Hv. apply value_step; [exact Hv|]. intros k. apply wr_bytes. Qed.

Lemma is_valid_false s : ~ number_text (encode_utf8 s) -> is_valid_json_number s = false.
Proof.
  intros H. destruct (is_valid_json_number s) eqn:E; [|reflexivity].
  apply is_valid_json_number_spec in E. contradiction.
Qed.

(** String calls *)
Definition string_state (cfg : wsettings) (d : wdoc) (acc : bytes) (s : wsession) sv s0 : Prop :=
  buf_ok (ws_writer s) /\ Forall pending_frame (tl (d_open d)) /\ value_allowed (multi_top_level cfg) (no_string d) /\
  core_of (ws_writer s) = k_set_active true (core_for cfg (add_value JNull (no_string d))) /\
  ws_string s = Some sv /\ sv_ok sv /\ sv_error sv = None /\ Forall is_char s0 /\
  acc = encode_utf8 s0 ++ sv_buf sv /\
  emitted (ws_writer s) = doc_text cfg d ++ child_sep cfg (d_top d) (d_open d) ++ [0x22] ++ string_content cfg s0.

Lemma sess_ok_string cfg d acc s : sess_ok cfg d s -> d_string d = Some acc ->
  exists sv s0, string_state cfg d acc s sv s0.
Proof.
  intros (Hb & Hp & H) Hd. rewrite Hd in H. destruct H as (Hv & Hk & sv & s0 & H).
  exists sv, s0. unfold string_state. tauto.
Qed.

(** A call of the string value writer which appends [s1] *)
Lemma string_append cfg d acc s sv s0 {A} (f : A -> wresult) (m : SV A) a sv' s1 more c :
  string_state cfg d acc s sv s0 ->
  svwr m sv (k_set_active true (core_for cfg (add_value JNull (no_string d)))) (string_content cfg s1) a sv'
    (k_set_active true (core_for cfg (add_value JNull (no_string d)))) ->
  Forall is_char s1 -> sv_ok sv' -> sv_error sv' = None -> sv_buf sv ++ more = encode_utf8 s1 ++ sv_buf sv' ->
  success c (f a) ->
  call_ok cfg c (Wdoc (d_top d) (d_open d) (Some (acc ++ more))) s (string_call f m s).
Proof.
  intros (Hb & Hp & Hv & Hk & Hs & Hok & He & Hs0 & Hacc & Hem) Hw Hs1 Hok' He' Hmore Hsucc.
  unfold string_call. rewrite Hs. specialize (Hw _ Hk Hb).
  destruct (m sv (ws_writer s)) as [[r sv1] st1].
  assert (Hacc' : acc ++ more = encode_utf8 (s0 ++ s1) ++ sv_buf sv').
  { rewrite Hacc, encode_utf8_app, <- !app_assoc, Hmore. reflexivity. }
  assert (Hs01 : Forall is_char (s0 ++ s1)) by (apply Forall_app; auto).
  destruct Hw as [(-> & -> & He2 & Hk2 & Hb2 & Hg)|(e & -> & Hse & Hg & rest & Hr)].
  - left. cbn [fst snd]. splits; [exact Hsucc| |exact Hg].
    unfold sess_ok. cbn [d_string ws_writer ws_string d_open]. splits; auto.
    exists sv', (s0 ++ s1). splits; auto.
    unfold doc_text in *. cbn [d_top d_open]. rewrite He2, Hem, string_content_app, <- !app_assoc. reflexivity.
  - right. exists e. cbn [fst snd]. splits; auto. exists rest. unfold text_of. cbn [d_string ws_writer].
    exists (s0 ++ s1), (sv_buf sv'). splits; auto.
    unfold doc_text in *. cbn [d_top d_open]. rewrite Hr, Hem, string_content_app, <- !app_assoc. reflexivity.
Qed.

Lemma core_active_undo cfg d : k_set_active false (k_set_active true (core_for cfg d)) = core_for cfg d.
Proof. reflexivity. Qed.

(** The outcome of every call *)
Definition call_outcome (cfg : wsettings) (d : wdoc) (c : wcall) (s : wsession) (o : wresult * wsession) : Prop :=
  (exists d', describes (multi_top_level cfg) d c d' /\ call_ok cfg c d' s o) \/
  (misuse (multi_top_level cfg) d c /\ o = (RPanic Misuse, Wsession (ws_writer s) None)) \/
  (malformed d c /\ exists e, fst o = RError e /\ (e = WInvalidData \/ (sink_error e /\ ~ sess_good s))) \/
  (~ json_writer_call c /\ d_string d = None /\ o = (RInexpressible, s)) \/
  (d_string d <> None /\ o = (RInvalidNumber, Wsession (ws_writer s) None) /\
   match c with CNumberFromString v => ~ number_text (encode_utf8 v) | CFloat None => True | _ => False end).

Lemma d_string_dec d : d_string d = None \/ exists acc, d_string d = Some acc.
Proof. destruct (d_string d); eauto. Qed.

Lemma obj_open_dec d : (d_string d = None /\ exists ms o, d_open d = OpenObj ms None :: o) \/
  (d_string d <> None \/ ~ exists ms o, d_open d = OpenObj ms None :: o).
Proof.
  destruct (d_string d); [right; left; discriminate|].
  destruct (d_open d) as [|[items|ms [n|]] o]; try (right; right; intros (a & b & E); discriminate).
  left. eauto.
Qed.
Lemma arr_open_dec d : (d_string d = None /\ exists ms o, d_open d = OpenArr ms :: o) \/
  (d_string d <> None \/ ~ exists ms o, d_open d = OpenArr ms :: o).
Proof.
  destruct (d_string d); [right; left; discriminate|].
  destruct (d_open d) as [|[items|ms n] o]; try (right; right; intros (a & b & E); discriminate).
  left. eauto.
Qed.

Lemma number_text_dec s : number_text (encode_utf8 s) \/ ~ number_text (encode_utf8 s).
Proof.
  destruct (is_valid_json_number s) eqn:E; [left; apply is_valid_json_number_spec, E|].
  right. intros H. apply is_valid_json_number_spec in H. congruence.
Qed.

Lemma Forall_tl {A} (P : A -> Prop) l : Forall P l -> Forall P (tl l).
Proof. intros H. destruct H; cbn; auto. Qed.

Lemma step_outcome cfg d s c : sess_ok cfg d s -> valid_call c -> call_outcome cfg d c s (wstep cfg c s).
Proof.
  intros Hok Hvc.
  assert (Hmis : misuse (multi_top_level cfg) d c -> call_outcome cfg d c s (wstep cfg c s)).
  { intros Hm. right; left. split; [exact Hm|]. apply (misuse_panics cfg d); assumption. }
  assert (Hpend : Forall pending_frame (tl (d_open d))) by apply Hok.
  (* values written by one call *)
  assert (Hval : forall v m, (forall k, wr m k (layout cfg (length (d_open d)) v) tt k) ->
     value_allowed (multi_top_level cfg) d -> (forall r, success c r <-> r = RDone) ->
     call_ok cfg c (add_value v d) s (json_call (wbind (before_value cfg) (fun _ => m)) s)).
  { intros v m Hm Hv Hsc. assert (Hds : d_string d = None) by apply Hv.
    eapply doc_step_json; eauto using add_value_string, add_value_pending'. apply value_step; assumption. }
  destruct c as [| | | |n|v|b| |z|[v|]|v| |bs|v| |]; cbn [wstep] in *; cbn [misuse] in Hmis.
  - (* begin_object *)
    destruct (value_allowed_dec (multi_top_level cfg) d) as [Hv|Hn]; [left|auto].
    eexists. split; [apply D_begin_object, Hv|]. assert (Hds : d_string d = None) by apply Hv.
    eapply doc_step_json; eauto; [reflexivity| |apply begin_step; auto].
    cbn. destruct d as [top o st]. cbn in *. subst st. apply value_allowed_pending in Hv.
    destruct o as [|f o]; [constructor|]. constructor; [apply Forall_inv in Hv; exact Hv|exact Hpend].
  - (* end_object *)
    destruct (obj_open_dec d) as [(Hds & ms & o & Ho)|Hm]; [left|auto].
    eexists. split; [eapply D_end_object; eauto|].
    destruct d as [top o' st]. cbn in *. subst.
    eapply doc_step_json; [reflexivity| |exact Hok|apply add_value_string; reflexivity| |]; [reflexivity| |].
    + apply add_value_pending, Forall_tl, Hpend.
    + apply end_object_step, Hpend.
  - (* begin_array *)
    destruct (value_allowed_dec (multi_top_level cfg) d) as [Hv|Hn]; [left|auto].
    eexists. split; [apply D_begin_array, Hv|]. assert (Hds : d_string d = None) by apply Hv.
    eapply doc_step_json; eauto; [reflexivity| |apply begin_step; auto].
    cbn. destruct d as [top o st]. cbn in *. subst st. apply value_allowed_pending in Hv.
    destruct o as [|f o]; [constructor|]. constructor; [apply Forall_inv in Hv; exact Hv|exact Hpend].
  - (* end_array *)
    destruct (arr_open_dec d) as [(Hds & ms & o & Ho)|Hm]; [left|auto].
    eexists. split; [eapply D_end_array; eauto|].
    destruct d as [top o' st]. cbn in *. subst.
    eapply doc_step_json; [reflexivity| |exact Hok|apply add_value_string; reflexivity| |]; [reflexivity| |].
    + apply add_value_pending, Forall_tl, Hpend.
    + apply end_array_step, Hpend.
  - (* name *)
    destruct (obj_open_dec d) as [(Hds & ms & o & Ho)|Hm]; [left|auto].
    eexists. split; [eapply D_name; eauto|].
    destruct d as [top o' st]. cbn in *. subst.
    eapply doc_step_json; eauto; [reflexivity|reflexivity|]. apply name_step, Hvc.
  - destruct (value_allowed_dec (multi_top_level cfg) d) as [Hv|Hn]; [left|auto].
    eexists. split; [apply D_string, Hv|]. apply Hval; auto; [|reflexivity]. intros k. apply wr_string, Hvc.
  - destruct (value_allowed_dec (multi_top_level cfg) d) as [Hv|Hn]; [left|auto].
    eexists. split; [apply D_bool, Hv|]. apply Hval; auto; [|reflexivity]. intros k. apply wr_bytes.
  - destruct (value_allowed_dec (multi_top_level cfg) d) as [Hv|Hn]; [left|auto].
    eexists. split; [apply D_null, Hv|]. apply Hval; auto; [|reflexivity]. intros k. apply wr_bytes.
  - destruct (value_allowed_dec (multi_top_level cfg) d) as [Hv|Hn]; [left|auto].
    destruct (int_to_string_spec z) as (Hd & _ & Hvalid).
    eexists. split; [apply D_number; [exact Hv|exact Hd]|]. unfold number_value. rewrite Hvalid. cbn [negb].
    apply Hval; auto; [|reflexivity]. intros k. apply wr_bytes.
  - (* float *)
    destruct (value_allowed_dec (multi_top_level cfg) d) as [Hv|Hn]; [left|auto].
    destruct Hvc as [_ Hvc].
    eexists. split; [apply D_float; [exact Hv|exact Hvc]|]. unfold fp_number_value.
    apply is_valid_json_number_spec in Hvc. rewrite Hvc. cbn [negb]. assert (Hds : d_string d = None) by apply Hv.
    eapply (doc_step_number _ _ _ _ _ _ NumberWritten); eauto using add_value_string, add_value_pending'; [reflexivity|].
    apply doc_step_bind_ret, wr_number_str, Hv.
  - destruct (d_string_dec d) as [Hds|[acc Hds]].
    + left. exists d. split; [apply D_float_invalid, Hds|].
      eapply (doc_step_number _ _ _ _ _ _ InvalidNumber); eauto; [reflexivity|].
      exists []. rewrite app_nil_r. split; [reflexivity|apply wr_ret].
    + do 4 right. splits; auto. congruence.
  - (* number from string *)
    destruct (number_text_dec v) as [Hn|Hn].
    + destruct (value_allowed_dec (multi_top_level cfg) d) as [Hv|Hnv]; [left|auto].
      eexists. split; [apply D_number_str; [exact Hv|exact Hn]|]. unfold number_value_from_string.
      pose proof Hn as Hn'. apply is_valid_json_number_spec in Hn'. rewrite Hn'. assert (Hds : d_string d = None) by apply Hv.
      eapply (doc_step_number _ _ _ _ _ _ NumberWritten); eauto using add_value_string, add_value_pending'; [left; auto|].
      destruct (value_step cfg d (JNum (encode_utf8 v)) (write_bytes (encode_utf8 v) ;;! wret NumberWritten ;;! wret tt) Hv) as (t & Ht & Hw).
      { intros k. eapply wr_bind_r; [apply wr_bytes|]. eapply wr_bind0; [apply wr_ret|apply wr_ret]. }
      clear Ht Hw. exists (child_sep cfg (d_top d) (d_open d) ++ layout cfg (length (d_open d)) (JNum (encode_utf8 v))).
      split; [apply doc_text_add, Hv|]. eapply wr_bind; [apply wr_before_value, Hv|].
      eapply wr_bind_r; [apply wr_bytes|apply wr_ret].
    + destruct (d_string_dec d) as [Hds|[acc Hds]].
      * left. exists d. split; [apply D_number_invalid; assumption|].
        unfold number_value_from_string. rewrite is_valid_false by exact Hn.
        eapply (doc_step_number _ _ _ _ _ _ InvalidNumber); eauto; [right; auto|].
        exists []. rewrite app_nil_r. split; [reflexivity|apply wr_ret].
      * do 4 right. splits; auto; [congruence|]. unfold number_call, number_value_from_string. rewrite is_valid_false by exact Hn. reflexivity.
  - (* string_value_writer *)
    destruct (value_allowed_dec (multi_top_level cfg) d) as [Hv|Hn]; [left|auto].
    assert (Hds : d_string d = None) by apply Hv.
    eexists. split; [apply D_string_writer, Hv|].
    pose proof (value_allowed_no_string _ _ Hv) as Hnos.
    destruct Hok as (Hb & Hp & Hok). rewrite Hds in Hok. destruct Hok as (_ & Hk & He).
    assert (Hw : wr (string_value_writer cfg) (core_for cfg d) (child_sep cfg (d_top d) (d_open d) ++ [0x22]) (Svw [] 0 None)
       (k_set_active true (core_for cfg (add_value JNull d)))).
    { eapply wr_bind; [apply wr_before_value, Hv|]. eapply wr_bind_r; [apply wr_bytes|].
      mod_step (k_set_active true). apply wr_ret. }
    specialize (Hw _ Hk Hb). destruct (string_value_writer cfg (ws_writer s)) as [r st'].
    destruct Hw as [(-> & He' & Hk' & Hb' & Hg)|(e & -> & Hse & Hg & rest & Hr)].
    + left. cbn [fst snd]. splits; [reflexivity| |exact Hg]. unfold sess_ok. cbn [d_string ws_writer ws_string d_open d_top].
      unfold no_string. cbn [d_open d_top].
      splits; auto; [unfold no_string in Hnos; rewrite <- Hnos; exact Hv|unfold no_string in Hnos; rewrite <- Hnos; exact Hk'|].
      exists (Svw [] 0 None), []. splits; auto; [left; reflexivity|].
      rewrite He', He. cbn. unfold doc_text. cbn. reflexivity.
    + right. exists e. cbn [fst snd]. splits; auto. exists rest. unfold text_of. cbn [d_string ws_writer].
      exists [], []. splits; auto. rewrite Hr, He. cbn. unfold doc_text. cbn. reflexivity.
  - (* write *)
    destruct (d_string_dec d) as [Hds|[acc Hds]].
    { right; right; right; left. splits; auto. destruct Hok as (_ & _ & Hok). rewrite Hds in Hok.
      destruct Hok as (Hs & _). unfold string_call. rewrite Hs. reflexivity. }
    destruct (sess_ok_string _ _ _ _ Hok Hds) as (sv & s0 & Hst).
    pose proof Hst as (Hb & Hp & Hv & Hk & Hs & Hsv & He & Hs0 & Hacc & Hem).
    destruct (sv_write_spec cfg bs sv (k_set_active true (core_for cfg (add_value JNull (no_string d)))) Hsv He)
      as [(s1 & sv' & Hs1 & E & Hsv' & He' & Hw)|[Hbad Hpre]].
    + left. eexists. split; [eapply D_write, Hds|]. eapply string_append; eauto. reflexivity.
    + right; right; left. split.
      * exists acc. split; [exact Hds|]. rewrite Hacc, <- app_assoc. intros H. apply Hpre.
        eapply utf8_prefix_encode; eassumption.
      * specialize (Hbad _ Hk Hb). unfold string_call. rewrite Hs.
        destruct (sv_write cfg bs sv (ws_writer s)) as [[r sv1] st1]. destruct Hbad as (e & -> & H). exists e. auto.
  - (* write_str *)
    destruct (d_string_dec d) as [Hds|[acc Hds]].
    { right; right; right; left. splits; auto. destruct Hok as (_ & _ & Hok). rewrite Hds in Hok.
      destruct Hok as (Hs & _). unfold string_call. rewrite Hs. reflexivity. }
    destruct (sess_ok_string _ _ _ _ Hok Hds) as (sv & s0 & Hst).
    pose proof Hst as (Hb & Hp & Hv & Hk & Hs & Hsv & He & Hs0 & Hacc & Hem).
    destruct (sv_write_str_spec cfg v sv (k_set_active true (core_for cfg (add_value JNull (no_string d)))) Hvc He) as [[Hnil Hw]|[Hne Hbad]].
    + left. eexists. split.
      * eapply D_write_str; [exact Hds|]. rewrite Hacc, Hnil, app_nil_r, from_utf8_encode by exact Hs0. discriminate.
      * eapply string_append; eauto; [rewrite Hnil, app_nil_r; reflexivity|reflexivity].
    + right; right; left. split.
      * exists acc. split; [exact Hds|]. rewrite Hacc. apply sv_ok_not_utf8; assumption.
      * specialize (Hbad _ Hk Hb). unfold string_call. rewrite Hs.
        destruct (sv_write_str cfg v sv (ws_writer s)) as [[r sv1] st1]. destruct Hbad as (e & -> & H). exists e. auto.
  - (* flush *)
    destruct (d_string_dec d) as [Hds|[acc Hds]].
    { right; right; right; left. splits; auto. destruct Hok as (_ & _ & Hok). rewrite Hds in Hok.
      destruct Hok as (Hs & _). unfold string_call. rewrite Hs. reflexivity. }
    destruct (sess_ok_string _ _ _ _ Hok Hds) as (sv & s0 & Hst).
    pose proof Hst as (Hb & Hp & Hv & Hk & Hs & Hsv & He & Hs0 & Hacc & Hem).
    left. eexists. split; [eapply D_flush, Hds|].
    replace d with (Wdoc (d_top d) (d_open d) (Some (acc ++ []))) by (rewrite app_nil_r, <- Hds; destruct d; reflexivity).
    apply (string_append cfg d acc s sv s0 (fun _ : unit => RDone) sv_flush tt sv [] []); auto; [|rewrite app_nil_r; reflexivity|reflexivity].
    apply svwr_flush, He.
  - (* finish_value *)
    destruct (d_string_dec d) as [Hds|[acc Hds]].
    { right; right; right; left. splits; auto. destruct Hok as (_ & _ & Hok). rewrite Hds in Hok.
      destruct Hok as (Hs & _). unfold string_call. rewrite Hs. destruct s; cbn in *; subst; reflexivity. }
    destruct (sess_ok_string _ _ _ _ Hok Hds) as (sv & s0 & Hst).
    pose proof Hst as (Hb & Hp & Hv & Hk & Hs & Hsv & He & Hs0 & Hacc & Hem).
    destruct (sv_finish_spec sv (k_set_active true (core_for cfg (add_value JNull (no_string d)))) He) as [[Hnil Hw]|[Hne Hbad]].
    + left. rewrite Hnil, app_nil_r in Hacc. eexists. split.
      * eapply D_finish_value; [exact Hds|]. rewrite Hacc. apply from_utf8_encode, Hs0.
      * assert (Htext : doc_text cfg (add_value (JStr s0) (no_string d)) = emitted (ws_writer s) ++ [0x22]).
        { rewrite doc_text_add by exact Hv. rewrite Hem. cbn [layout]. unfold string_text, doc_text, no_string. cbn [d_top d_open].
          rewrite <- !app_assoc. reflexivity. }
        specialize (Hw _ Hk Hb). unfold string_call. rewrite Hs.
        destruct (sv_finish_value sv (ws_writer s)) as [[r sv1] st1].
        destruct Hw as [(-> & -> & He2 & Hk2 & Hb2 & Hg)|(e & -> & Hse & Hg & rest & Hr)].
        -- left. cbn [fst snd]. splits; [reflexivity| |exact Hg]. unfold sess_ok.
           rewrite add_value_string by reflexivity. cbn [ws_writer ws_string]. splits; auto.
           ++ apply add_value_pending'; auto.
           ++ rewrite Hk2, core_active_undo. apply core_for_add_any.
           ++ rewrite He2. symmetry. exact Htext.
        -- right. exists e. cbn [fst snd]. splits; auto. exists rest. unfold text_of.
           rewrite add_value_string by reflexivity. cbn [ws_writer]. rewrite Hr. symmetry. exact Htext.
    + right; right; left. split.
      * exists acc. split; [exact Hds|]. rewrite Hacc. apply sv_ok_not_utf8; assumption.
      * specialize (Hbad _ Hk Hb). unfold string_call. rewrite Hs.
        destruct (sv_finish_value sv (ws_writer s)) as [[r sv1] st1]. destruct Hbad as (e & -> & H). exists e. auto.
Qed.
