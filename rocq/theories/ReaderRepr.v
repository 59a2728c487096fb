(** * The texts which belong to a cursor

    Auxiliary: the text which is still to be read, for a given cursor of
    [SpecCursor], and the relation between the cursor and the state of the
    reader. *)

From Verif Require Import Base Utf8Model Utf8Proofs NumberModel SpecNumber NumberProofs SpecJson SourceModel ReaderModel
  ReaderScan ReaderLex ReaderLexStr ReaderMid ReaderAgree ReaderSess ReaderGrammar ReaderSafe SpecCursor.

(** ** Texts *)

(** The text behind the current value *)
Inductive outer (sx : syntax) : list frame -> list json -> bytes -> Prop :=
| O_top vs t : stream_text sx vs t -> outer sx [] vs t
| O_arr i l fs vs t1 t2 : items_text sx false l t1 -> outer sx fs vs t2 -> outer sx (InArray i l :: fs) vs (t1 ++ t2)
| O_obj n l fs vs t1 t2 : members_text sx false l t1 -> outer sx fs vs t2 -> outer sx (InObject (Some n) l :: fs) vs (t1 ++ t2).

Definition value_then (sx : syntax) (v : json) (fs : list frame) (vs : list json) (t : bytes) : Prop :=
  exists tv t', t = tv ++ t' /\ value_text sx v tv /\ outer sx fs vs t' /\ (is_word v -> sep_text t').

(** What precedes the next token *)
Definition is_nil {A : Type} (l : list A) : bool := match l with [] => true | _ => false end.

Definition comma_lead (sx : syntax) (at_end : bool) (w : bytes) : Prop :=
  (exists w1 w2, w = w1 ++ [0x2C] ++ w2 /\ ws_text sx w1 /\ ws_text sx w2 /\
     (at_end = true -> trailing_commas sx = true)) \/
  (at_end = true /\ ws_text sx w).

Definition colon_lead (sx : syntax) (w : bytes) : Prop :=
  exists w1 w2, w = w1 ++ [0x3A] ++ w2 /\ ws_text sx w1 /\ ws_text sx w2.

Definition lead_text (sx : syntax) (fs : list frame) (w : bytes) : Prop :=
  match fs with
  | [] => ws_text sx w
  | InArray i l :: _ => if i =? 0 then ws_text sx w else comma_lead sx (is_nil l) w
  | InObject None _ :: _ => ws_text sx w
  | InObject (Some _) l :: _ => comma_lead sx (is_nil l) w
  | AtValue _ _ _ :: _ => colon_lead sx w
  end.

(** From the next token *)
Definition body_text (sx : syntax) (fs : list frame) (vs : list json) (t : bytes) : Prop :=
  match fs with
  | [] => match vs with [] => False | v :: vs' => value_then sx v [] vs' t end
  | InArray _ [] :: fs' => exists t', t = 0x5D :: t' /\ outer sx fs' vs t'
  | InArray i (v :: l) :: fs' => value_then sx v (InArray i l :: fs') vs t
  | InObject _ [] :: fs' => exists t', t = 0x7D :: t' /\ outer sx fs' vs t'
  | InObject _ ((n, v) :: l) :: fs' => exists tn w t', t = tn ++ w ++ t' /\ quoted tn n /\ colon_lead sx w /\
      value_then sx v (InObject (Some n) l :: fs') vs t'
  | AtValue n v l :: fs' => value_then sx v (InObject (Some n) l :: fs') vs t
  end.

Definition cur_text (sx : syntax) (fs : list frame) (vs : list json) (t : bytes) : Prop :=
  (exists w b, t = w ++ b /\ lead_text sx fs w /\ body_text sx fs vs b) \/
  (fs = [] /\ vs = [] /\ final_ws_text sx t).

(** *** From the grammar *)

Lemma value_head sx v tv : value_text sx v tv -> exists b l, tv = b :: l /\ ~ ws_byte b /\ b <> 0x2F /\ b <> 0x2C /\
  b <> 0x5D /\ b <> 0x7D /\ b <> 0x3A.
Proof.
  intros H. unfold ws_byte.
  destruct H as [ | | |t (m & H)|t s (body & -> & _)|vs t H|ms t H];
    try (eexists _, _; split; [reflexivity|]; lia).
  destruct (number_first _ _ H) as (b & l & -> & Hb). exists b, l. split; [reflexivity|].
  apply orb_true_iff in Hb. rewrite is_digit_iff, N.eqb_eq in Hb. unfold digit in Hb. lia.
Qed.

Lemma ws_head sx w t : ws_text sx w -> w ++ t <> [] ->
  (exists b l, w ++ t = b :: l /\ (ws_byte b \/ b = 0x2F)) \/ (w = [] /\ t <> []).
Proof.
  intros H Hn. destruct H as [|b w Hb Hw|body b w Hc Hbody Hb Hw|body w Hc Hbody Hw].
  - right. auto.
  - left. exists b, (w ++ t). auto.
  - left. eexists _, _. split; [reflexivity|]. auto.
  - left. eexists _, _. split; [reflexivity|]. auto.
Qed.

Lemma ws_head_sep b : ws_byte b \/ b = 0x2F -> is_value_separator b = true.
Proof. unfold ws_byte, is_value_separator. intros [[-> |[-> |[-> | ->]]]| ->]; reflexivity. Qed.

(** Text after whitespace which is a separator *)
Lemma ws_sep sx w b t : ws_text sx w -> is_value_separator b = true -> sep_text (w ++ b :: t).
Proof.
  intros Hw Hb. destruct (ws_head sx w (b :: t) Hw) as [(b' & l & -> & H)|[-> _]]; [destruct w; discriminate| |].
  - apply ws_head_sep. exact H.
  - exact Hb.
Qed.

Lemma items_sep sx vs t t2 : items_text sx false vs t -> sep_text (t ++ t2).
Proof.
  intros H. inversion H; subst; rewrite <- ?app_assoc; cbn [app]; apply (ws_sep sx); auto.
Qed.
Lemma members_sep sx vs t t2 : members_text sx false vs t -> sep_text (t ++ t2).
Proof.
  intros H. inversion H; subst; rewrite <- ?app_assoc; cbn [app]; apply (ws_sep sx); auto.
Qed.

Lemma gap_sep t : starts_gap t -> sep_text t.
Proof. destruct t as [|b t]; [trivial|]. apply ws_head_sep. Qed.

Lemma outer_sep sx f fs vs t : outer sx (f :: fs) vs t -> sep_text t.
Proof. intros H. inversion H; subst; eauto using items_sep, members_sep. Qed.

Lemma items_cur sx first i l fs vs t1 t2 : first = (i =? 0) -> items_text sx first l t1 -> outer sx fs vs t2 ->
  cur_text sx (InArray i l :: fs) vs (t1 ++ t2).
Proof.
  intros Hf H Ho. left.
  inversion H as [f w Hw|w1 w2 Htc Hw1 Hw2|w v tv vs' t' Hw Hv Hr|w1 w2 v tv vs' t' Hw1 Hw2 Hv Hr]; subst.
  - exists w, (0x5D :: t2). rewrite <- app_assoc. splits; auto; [|cbn; eauto]. cbn. destruct (i =? 0); [exact Hw|right; auto].
  - exists (w1 ++ [0x2C] ++ w2), (0x5D :: t2). rewrite <- !app_assoc. splits; auto; [|cbn; eauto]. cbn. rewrite <- H0.
    left. exists w1, w2. auto.
  - exists w, ((tv ++ t') ++ t2). rewrite <- !app_assoc. splits; auto; [cbn; rewrite <- H0; exact Hw|].
    cbn. exists tv, (t' ++ t2). splits; auto; [constructor; auto|]. intros _. eapply items_sep; eauto.
  - exists (w1 ++ [0x2C] ++ w2), (tv ++ t' ++ t2). rewrite <- !app_assoc. splits; auto.
    + cbn. rewrite <- H0. left. exists w1, w2. splits; auto. discriminate.
    + cbn. exists tv, (t' ++ t2). splits; auto; [constructor; auto|]. intros _. eapply items_sep; eauto.
Qed.

Lemma members_cur sx n l fs vs t1 t2 : members_text sx (match n with None => true | Some _ => false end) l t1 -> outer sx fs vs t2 ->
  cur_text sx (InObject n l :: fs) vs (t1 ++ t2).
Proof.
  intros H Ho. left.
  inversion H as [f w Hw|w1 w2 Htc Hw1 Hw2 Hf|w m tn w1 w2 v tv vs' t' Hw Hn Hw1 Hw2 Hv Hr Hf|w0 w m tn w1 w2 v tv vs' t' Hw0 Hw Hn Hw1 Hw2 Hv Hr Hf]; subst.
  - exists w, (0x7D :: t2). rewrite <- app_assoc. splits; auto; [|cbn; eauto]. cbn. destruct n; [right; auto|exact Hw].
  - exists (w1 ++ [0x2C] ++ w2), (0x7D :: t2). rewrite <- !app_assoc. splits; auto; [|cbn; eauto]. cbn. destruct n; [|discriminate].
    left. exists w1, w2. auto.
  - exists w, (tn ++ (w1 ++ [0x3A] ++ w2) ++ tv ++ t' ++ t2). rewrite <- !app_assoc. destruct n; [discriminate|]. splits; auto.
    cbn. exists tn, (w1 ++ [0x3A] ++ w2), (tv ++ t' ++ t2). rewrite <- !app_assoc. splits; auto; [exists w1, w2; auto|].
    exists tv, (t' ++ t2). splits; auto; [constructor; auto|]. intros _. eapply members_sep; eauto.
  - exists (w0 ++ [0x2C] ++ w), (tn ++ (w1 ++ [0x3A] ++ w2) ++ tv ++ t' ++ t2). rewrite <- !app_assoc. destruct n; [|discriminate].
    splits; auto.
    + cbn. left. exists w0, w. splits; auto. discriminate.
    + cbn. exists tn, (w1 ++ [0x3A] ++ w2), (tv ++ t' ++ t2). rewrite <- !app_assoc. splits; auto; [exists w1, w2; auto|].
      exists tv, (t' ++ t2). splits; auto; [constructor; auto|]. intros _. eapply members_sep; eauto.
Qed.

Lemma stream_cur sx vs t : stream_text sx vs t -> cur_text sx [] vs t.
Proof.
  intros H. destruct H as [t H|w v tv vs t Hw Hv H Hg]; [right; auto|]. left. exists w, (tv ++ t). splits; auto.
  cbn. exists tv, t. splits; auto; [constructor; exact H|]. intros Hx. apply gap_sep. auto.
Qed.

(** After the end of a value *)
Definition frames_done (fs : list frame) : list frame :=
  match fs with InArray i l :: fs' => InArray (i + 1) l :: fs' | _ => fs end.

Lemma outer_cur sx fs vs t : outer sx fs vs t -> cur_text sx (frames_done fs) vs t.
Proof.
  intros H. destruct H as [vs t H|i l fs vs t1 t2 H Ho|n l fs vs t1 t2 H Ho]; cbn [frames_done].
  - exact (stream_cur _ _ _ H).
  - apply (items_cur sx false); auto. symmetry. apply N.eqb_neq. lia.
  - apply members_cur; auto.
Qed.

(** *** Tokens *)

Definition value_token (v : json) : peeked_value :=
  match v with
  | JNull => PkNull
  | JBool true => PkTrue
  | JBool false => PkFalse
  | JNum _ => PkNumberStart
  | JStr _ => PkStringStart
  | JArr _ => PkArrayStart
  | JObj _ => PkObjectStart
  end.

Definition cur_token (fs : list frame) (vs : list json) : option peeked_value :=
  match fs with
  | [] => option_map value_token (hd_error vs)
  | InArray _ [] :: _ => Some PkArrayEnd
  | InArray _ (v :: _) :: _ => Some (value_token v)
  | InObject _ [] :: _ => Some PkObjectEnd
  | InObject _ _ :: _ => Some PkNameStart
  | AtValue _ v _ :: _ => Some (value_token v)
  end.

Lemma strip_app lit t : strip lit (lit ++ t) = Some t.
Proof. induction lit as [|b lit IH]; [reflexivity|]. cbn. rewrite N.eqb_refl. exact IH. Qed.

Lemma sep_text_ok t : sep_text t -> sep_ok true t = true.
Proof. destruct t; [reflexivity|]. auto. Qed.

Lemma lit_token_ok lit p t : sep_text t -> lit_token lit p true (lit ++ t) = Some (p, t).
Proof. intros H. unfold lit_token. rewrite strip_app, (sep_text_ok _ H). reflexivity. Qed.

Lemma value_token_ok sx v tv t arr : value_text sx v tv -> (is_word v -> sep_text t) ->
  exists r, token false arr true (tv ++ t) = Some (value_token v, r) /\ tv ++ t = tok (value_token v) ++ r.
Proof.
  intros H Hs. destruct H as [ | | |x (m & H)|x s (body & -> & _)|vs x H|ms x H].
  - exists t. split; [|reflexivity]. exact (lit_token_ok lit_null PkNull t (Hs I)).
  - exists t. split; [|reflexivity]. exact (lit_token_ok lit_true PkTrue t (Hs I)).
  - exists t. split; [|reflexivity]. exact (lit_token_ok lit_false PkFalse t (Hs I)).
  - exists (x ++ t). split; [|reflexivity]. destruct (number_first _ _ H) as (b & l & -> & Hb). cbn [app token].
    assert (Hx : b = 0x2D \/ 0x30 <= b <= 0x39).
    { apply orb_true_iff in Hb. rewrite is_digit_iff, N.eqb_eq in Hb. exact Hb. }
    rewrite Hb. repeat (match goal with |- context[b =? ?k] => destruct (N.eqb_spec b k); [lia|] end). reflexivity.
  - eexists. split; reflexivity.
  - eexists. split; reflexivity.
  - eexists. split; reflexivity.
Qed.

Definition in_object (fs : list frame) : bool := match fs with InObject _ _ :: _ => true | _ => false end.
Definition in_array (fs : list frame) : bool := match fs with InArray _ _ :: _ => true | _ => false end.

(** The start of the token *)
Definition token_start (t : bytes) : Prop :=
  match t with [] => False | b :: _ => ~ ws_byte b /\ b <> 0x2F /\ b <> 0x2C /\ b <> 0x3A end.

Lemma token_start_stop t : token_start t -> ws_stop t.
Proof. destruct t as [|b t]; [contradiction|]. cbn. tauto. Qed.

Lemma value_then_start sx v fs vs t : value_then sx v fs vs t -> token_start t.
Proof.
  intros (tv & t' & -> & Hv & _). destruct (value_head _ _ _ Hv) as (b & l & -> & H). cbn. tauto.
Qed.

Lemma body_start sx fs vs t : body_text sx fs vs t -> token_start t.
Proof.
  unfold ws_byte, token_start. intros H. destruct fs as [|[i [|v l]|n [|[m v] l]|n v l] fs]; cbn in H.
  - destruct vs; [contradiction|]. eapply value_then_start; exact H.
  - destruct H as (t' & -> & _). unfold ws_byte. lia.
  - eapply value_then_start; exact H.
  - destruct H as (t' & -> & _). unfold ws_byte. lia.
  - destruct H as (tn & w & t' & -> & (body & -> & _) & _). cbn. unfold ws_byte. lia.
  - eapply value_then_start; exact H.
Qed.

Lemma body_token sx fs vs t : body_text sx fs vs t ->
  exists p r, cur_token fs vs = Some p /\ token (in_object fs) (in_array fs) true t = Some (p, r) /\ t = tok p ++ r.
Proof.
  assert (Hval : forall v fs' arr, value_then sx v fs' (tl vs) t \/ value_then sx v fs' vs t ->
    exists p r, Some (value_token v) = Some p /\ token false arr true t = Some (p, r) /\ t = tok p ++ r).
  { intros v fs' arr H.
    assert (exists tv t', t = tv ++ t' /\ value_text sx v tv /\ (is_word v -> sep_text t')) as (tv & t' & -> & Hv & Hs).
    { destruct H as [(tv & t' & H1 & H2 & _ & H3)|(tv & t' & H1 & H2 & _ & H3)]; exists tv, t'; auto. }
    destruct (value_token_ok sx v tv t' arr Hv Hs) as (r & H1 & H2). exists (value_token v), r. auto. }
  intros H. destruct fs as [|[i [|v l]|n [|[m v] l]|n v l] fs]; cbn in H.
  - destruct vs; [contradiction|]. eapply Hval. left. exact H.
  - destruct H as (t' & -> & _). eexists _, _. splits; reflexivity.
  - eapply Hval. right. exact H.
  - destruct H as (t' & -> & _). eexists _, _. splits; reflexivity.
  - destruct H as (tn & w & t' & -> & (body & -> & _) & _). eexists _, _. splits; reflexivity.
  - eapply Hval. right. exact H.
Qed.

Lemma cur_token_end fs vs p : cur_token fs vs = Some p -> is_end_token p = true ->
  match fs with InArray _ [] :: _ | InObject _ [] :: _ => True | _ => False end.
Proof.
  assert (Hv : forall v, is_end_token (value_token v) = false) by (destruct v as [|[]| | | |]; reflexivity).
  destruct fs as [|[i [|v l]|n [|[m v] l]|n v l] fs]; cbn; try (intros [= <-]; rewrite ?Hv; auto; discriminate).
  destruct vs; [discriminate|]. intros [= <-]. rewrite Hv. discriminate.
Qed.

(** ** The relation *)

Definition frame_kind (f : frame) : stack_value := match f with InArray _ _ => SArray | _ => SObject end.

Definition frame_values (f : frame) : list json :=
  match f with
  | InArray _ l => l
  | InObject _ l => map snd l
  | AtValue _ v l => v :: map snd l
  end.
Fixpoint frames_fit (m : N) (fs : list frame) : Prop :=
  match fs with
  | [] => True
  | f :: fs' => Forall (fun v => N.of_nat (length fs + nesting v) <= m) (frame_values f) /\ frames_fit m fs'
  end.
Definition fits (E : env) (fs : list frame) (vs : list json) : Prop :=
  match max_nesting_depth (cfg E) with
  | None => True
  | Some m => frames_fit m fs /\ Forall (fun v => N.of_nat (nesting v) <= m) vs
  end.

Definition tracked (E : env) (fs : list frame) : option (list piece) :=
  if track_path (cfg E) then Some (map frame_piece fs) else None.

Record base (E : env) (inp : bytes) (fs : list frame) (vs : list json) (s : rstate) (r : bytes) : Prop := Base {
  b_inv : inv E inp s r;
  b_stack : stack s = map frame_kind fs;
  b_path : json_path s = tracked E fs;
  b_fits : fits E fs vs
}.

Definition names_ok (fs : list frame) (st : bool) (s : rstate) : Prop :=
  expects_member_name s = in_object fs /\
  match fs with
  | [] => is_empty s = negb st
  | InArray i _ :: _ => is_empty s = (i =? 0)
  | InObject n _ :: _ => is_empty s = match n with None => true | Some _ => false end
  | AtValue _ _ _ :: _ => True
  end.

Definition text_ok (sx : syntax) (fs : list frame) (vs : list json) (s : rstate) (r : bytes) : Prop :=
  match peeked s with
  | None => cur_text sx fs vs r
  | Some p => cur_token fs vs = Some p /\ body_text sx fs vs (tok p ++ r)
  end.

(** Without [allow_multiple_top_level] there is one top-level value *)
Definition top_ok (E : env) (fs : list frame) (vs : list json) (st : bool) : Prop :=
  if st then allow_multiple_top_level (cfg E) = false -> vs = []
  else fs = [] /\ vs <> [] /\ (allow_multiple_top_level (cfg E) = false -> tl vs = []).

Record repr (E : env) (inp : bytes) (fs : list frame) (vs : list json) (st : bool) (s : rstate) (r : bytes) : Prop := Repr {
  r_base : base E inp fs vs s r;
  r_active : string_reader_active s = false;
  r_names : names_ok fs st s;
  r_top : top_ok E fs vs st;
  r_text : text_ok (reader_syntax (cfg E)) fs vs s r
}.

(** Inside a value, or behind it but before its end has been noted *)
Record inside (E : env) (inp : bytes) (fs : list frame) (vs : list json) (s : rstate) (r : bytes) : Prop := Inside {
  n_base : base E inp fs vs s r;
  n_peeked : peeked s = None;
  n_expects : expects_member_name s = false;
  n_top : allow_multiple_top_level (cfg E) = false -> vs = []
}.

Lemma base_same E inp fs vs s r s' r' : base E inp fs vs s r -> same s s' -> inv E inp s' r' -> base E inp fs vs s' r'.
Proof.
  intros [] Hs Hi. destruct Hs as (_ & _ & H1 & _ & H2). split; auto; congruence.
Qed.
Lemma names_same fs st s s' : names_ok fs st s -> same s s' -> names_ok fs st s'.
Proof.
  intros [H1 H2] (H3 & H4 & _). unfold names_ok. rewrite H3, H4. auto.
Qed.

Lemma kind_in_array E inp fs vs s r : base E inp fs vs s r -> is_in_array s = in_array fs.
Proof. intros []. unfold is_in_array, in_array. rewrite b_stack0. destruct fs as [|[]]; reflexivity. Qed.
Lemma kind_in_object E inp fs vs s r : base E inp fs vs s r ->
  is_in_object s = match fs with InObject _ _ :: _ | AtValue _ _ _ :: _ => true | _ => false end.
Proof. intros []. unfold is_in_object. rewrite b_stack0. destruct fs as [|[]]; reflexivity. Qed.
Definition at_member_value (fs : list frame) : bool := match fs with AtValue _ _ _ :: _ => true | _ => false end.
Lemma repr_expects_value E inp fs vs st s r : repr E inp fs vs st s r -> expects_member_value s = at_member_value fs.
Proof.
  intros []. unfold expects_member_value. rewrite (kind_in_object _ _ _ _ _ _ r_base0). destruct r_names0 as [-> _].
  destruct fs as [|[]]; reflexivity.
Qed.

(** Scanning whitespace *)
Lemma ws_scan_forward E inp s r w b k : (length inp < fuel E)%nat -> inv E inp s r -> r = w ++ b -> ws_text (reader_syntax (cfg E)) w ->
  ws_stop b -> (b = [] -> eof_ok k = true) -> ws_scan E TEof k r = SOk (w, b).
Proof.
  intros Hf Hi -> Hw Hs Hk. pose proof (mu_bound _ _ _ _ Hi) as Hm. unfold mu, ahead in Hm. rewrite app_length in Hm.
  unfold ws_scan. change (allow_comments (cfg E)) with (comments (reader_syntax (cfg E))).
  apply scan_ws_complete; auto; lia.
Qed.

Lemma ws_scan_final E inp s r : (length inp < fuel E)%nat -> inv E inp s r -> final_ws_text (reader_syntax (cfg E)) r ->
  ws_scan E TEof None r = SOk (r, []).
Proof.
  intros Hf Hi Hw. pose proof (mu_bound _ _ _ _ Hi) as Hm. unfold mu, ahead in Hm. rewrite app_length in Hm.
  rewrite <- (app_nil_r r) at 1. unfold ws_scan. change (allow_comments (cfg E)) with (comments (reader_syntax (cfg E))).
  apply scan_ws_complete; auto; rewrite ?app_nil_r; try lia. exact I.
Qed.

(** ** Peeking *)

Lemma can_have_comma_lead E inp fs vs st s r : repr E inp fs vs st s r ->
  can_have_comma s = match fs with
                     | InArray i _ :: _ => negb (i =? 0)
                     | InObject (Some _) _ :: _ => true
                     | _ => false
                     end.
Proof.
  intros []. unfold can_have_comma. rewrite (kind_in_array _ _ _ _ _ _ r_base0). destruct r_names0 as [-> H].
  destruct fs as [|[i l|[n|] l|n v l]]; cbn in *; try rewrite H; rewrite ?andb_false_r, ?andb_true_r; reflexivity.
Qed.

(** The lead without the part which is consumed by [d_after_name] *)
Definition fresh_lead (sx : syntax) (fs : list frame) (w : bytes) : Prop :=
  match fs with AtValue _ _ _ :: _ => ws_text sx w | _ => lead_text sx fs w end.

Lemma fresh_forward E inp fs vs s w b c : (length inp < fuel E)%nat -> inv E inp s (w ++ b) ->
  c = match fs with
      | InArray i _ :: _ => negb (i =? 0)
      | InObject (Some _) _ :: _ => true
      | _ => false
      end ->
  can_have_comma s = c -> expects_member_name s = in_object fs -> is_in_array s = in_array fs ->
  fresh_lead (reader_syntax (cfg E)) fs w -> body_text (reader_syntax (cfg E)) fs vs b ->
  exists p s' r', cur_token fs vs = Some p /\ d_fresh E TEof s (w ++ b) = MOk (Some p) s' r' /\ b = tok p ++ r'.
Proof.
  intros Hf Hi Hc Hcan Hnames Harr Hlead Hbody.
  pose proof (body_start _ _ _ _ Hbody) as Hstart.
  destruct (body_token _ _ _ _ Hbody) as (p & r3 & Hp & Htok & Hb).
  assert (Hplain : ws_text (reader_syntax (cfg E)) w -> (c = true -> is_end_token p = true) ->
    exists s' r', d_fresh E TEof s (w ++ b) = MOk (Some p) s' r' /\ b = tok p ++ r').
  { intros Hw Hend. unfold d_fresh.
    rewrite (ws_scan_forward E inp s _ w b None Hf Hi eq_refl Hw (token_start_stop _ Hstart) (fun _ => eq_refl)).
    destruct b as [|x b]; [contradiction|]. destruct Hstart as (H1 & H2 & H3 & H4).
    destruct (N.eqb_spec x B_COMMA) as [|_]; [contradiction|]. rewrite Hnames, Harr. change (is_eof TEof) with true. rewrite Htok.
    rewrite Hcan. destruct c; [rewrite (Hend eq_refl)|rewrite andb_false_r]; cbn [negb andb]; eauto. }
  assert (Hcomma : c = true -> comma_lead (reader_syntax (cfg E)) (is_end_token p) w ->
    exists s' r', d_fresh E TEof s (w ++ b) = MOk (Some p) s' r' /\ b = tok p ++ r').
  { intros -> [(w1 & w2 & -> & Hw1 & Hw2 & Htr)|[He Hw]]; [|apply Hplain; auto].
    unfold d_fresh. rewrite <- !app_assoc in *. cbn [app] in *.
    rewrite (ws_scan_forward E inp s _ w1 (0x2C :: w2 ++ b) None Hf Hi eq_refl Hw1) by (auto; cbn; unfold ws_byte; lia).
    cbn [N.eqb]. change (0x2C =? B_COMMA) with true. cbn iota. rewrite Hcan. cbn [negb].
    assert (Hlen : (length (w2 ++ b) < fuel E)%nat).
    { pose proof (mu_bound _ _ _ _ Hi) as Hm. unfold mu, ahead in Hm. rewrite !app_length in Hm. cbn in Hm. rewrite !app_length in *. lia. }
    unfold ws_scan. change (allow_comments (cfg E)) with (comments (reader_syntax (cfg E))).
    rewrite scan_ws_complete; auto using token_start_stop; [|destruct b; [contradiction|discriminate]].
    rewrite Hnames, Harr. change (is_eof TEof) with true. rewrite Htok.
    change (allow_trailing_comma (cfg E)) with (trailing_commas (reader_syntax (cfg E))).
    destruct (is_end_token p); [rewrite (Htr eq_refl)|]; cbn [andb negb]; eauto. }
  enough (exists s' r', d_fresh E TEof s (w ++ b) = MOk (Some p) s' r' /\ b = tok p ++ r') as (s' & r' & H1 & H2).
  { exists p, s', r'. auto. }
  assert (Hnoend : forall v, is_end_token (value_token v) = false) by (destruct v as [|[]| | | |]; reflexivity).
  destruct fs as [|[i l|[n|] l|n v l] fs]; cbn [fresh_lead lead_text] in Hlead.
  - apply Hplain; auto. congruence.
  - destruct (N.eqb_spec i 0) as [->|Hne].
    + apply Hplain; auto. intros ->. discriminate.
    + apply Hcomma; [rewrite Hc; reflexivity|]. destruct l as [|v l]; cbn in Hp; injection Hp as <-; [exact Hlead|]. rewrite Hnoend. exact Hlead.
  - apply Hcomma; [rewrite Hc; reflexivity|]. destruct l as [|[m v] l]; cbn in Hp; injection Hp as <-; exact Hlead.
  - apply Hplain; auto. congruence.
  - apply Hplain; auto. congruence.
Qed.

Lemma after_name_forward E inp s r w1 b : (length inp < fuel E)%nat -> inv E inp s r -> r = w1 ++ 0x3A :: b ->
  ws_text (reader_syntax (cfg E)) w1 ->
  exists s', d_after_name E TEof s r = MOk tt s' b.
Proof.
  intros Hf Hi -> Hw. unfold d_after_name.
  rewrite (ws_scan_forward E inp s _ w1 (0x3A :: b) (Some MissingColon) Hf Hi eq_refl Hw); [eexists; reflexivity| |discriminate].
  split; [unfold ws_byte|]; lia.
Qed.

(** Whether peeking is allowed *)
Definition may_peek (E : env) (fs : list frame) (st : bool) : Prop :=
  fs = [] -> st && negb (allow_multiple_top_level (cfg E)) = false.

Lemma behind_top E inp fs vs st s r : repr E inp fs vs st s r ->
  is_behind_top_level s = match fs with [] => st | _ => false end.
Proof.
  intros [[] _ [_ He] _ _]. unfold is_behind_top_level. rewrite b_stack0. destruct fs as [|f fs]; [|apply andb_false_r].
  rewrite He. destruct st; reflexivity.
Qed.

Lemma peek_optional_forward E inp fs vs st s r : (length inp < fuel E)%nat -> repr E inp fs vs st s r -> may_peek E fs st ->
  exists s' r', d_peek_optional E TEof s r = MOk (cur_token fs vs) s' r' /\ repr E inp fs vs st s' r' /\
    peeked s' = cur_token fs vs.
Proof.
  intros Hf Hr Hm. pose proof (b_inv _ _ _ _ _ _ (r_base _ _ _ _ _ _ _ Hr)) as Hi.
  enough (exists s' r', d_peek_optional E TEof s r = MOk (cur_token fs vs) s' r' /\
    (peeked s = None -> match cur_token fs vs with
                        | None => cur_text (reader_syntax (cfg E)) fs vs r'
                        | Some p => body_text (reader_syntax (cfg E)) fs vs (tok p ++ r')
                        end) /\ (peeked s <> None -> s' = s /\ r' = r)) as (s' & r' & He & Ht & Hsame).
  { exists s', r'. split; [exact He|]. pose proof (peek_optional_good E inp TEof s r Hf Hi) as Hg. rewrite He in Hg.
    destruct Hg as (Hi' & Hs & Ha & Hmu & Hpk). split; [|exact Hpk].
    destruct (peeked s) as [p|] eqn:Ep.
    { destruct (Hsame ltac:(discriminate)) as [-> ->]. exact Hr. }
    destruct Hr. split.
    - exact (base_same _ _ _ _ _ _ _ _ r_base0 Hs Hi').
    - destruct Hs as (_ & _ & _ & -> & _). exact Ha.
    - exact (names_same _ _ _ _ r_names0 Hs).
    - exact r_top0.
    - unfold text_ok. rewrite Hpk. specialize (Ht eq_refl). destruct (cur_token fs vs) as [p|]; auto. }
  unfold d_peek_optional, dbind at 1, dget. rewrite (r_active _ _ _ _ _ _ _ Hr). unfold dmisuse_if at 1, dbind at 1, dret at 1.
  pose proof (r_text _ _ _ _ _ _ _ Hr) as Htext. unfold text_ok in Htext.
  destruct (peeked s) as [p|] eqn:Ep.
  { destruct Htext as [-> Hb]. exists s, r. splits; auto; discriminate. }
  assert (Hnb : is_behind_top_level s && negb (allow_multiple_top_level (cfg E)) = false).
  { rewrite (behind_top _ _ _ _ _ _ _ Hr). destruct fs; [apply (Hm eq_refl)|reflexivity]. }
  rewrite Hnb. unfold dmisuse_if, dbind at 1, dret at 1. rewrite (repr_expects_value _ _ _ _ _ _ _ Hr).
  destruct Htext as [(w & b & -> & Hlead & Hbody)|(-> & -> & Hfin)].
  - assert (Hfr : exists s1 w1, (if at_member_value fs then d_after_name E TEof else dret tt) s (w ++ b) = MOk tt s1 (w1 ++ b) /\
        fresh_lead (reader_syntax (cfg E)) fs w1 /\ same s s1 /\ inv E inp s1 (w1 ++ b)).
    { destruct fs as [|[i l|n l|n v l] fs]; try (exists s, w; splits; auto using same_refl; fail).
      destruct Hlead as (w1 & w2 & -> & Hw1 & Hw2). rewrite <- !app_assoc in *. cbn [app at_member_value] in *.
      destruct (after_name_forward E inp s _ w1 (w2 ++ b) Hf Hi eq_refl Hw1) as (s1 & He). exists s1, w2. split; [exact He|].
      pose proof (after_name_good E inp TEof s _ Hf Hi Ep) as Hg. rewrite He in Hg. destruct Hg as (Hi1 & Hs1 & _).
      splits; auto. }
    destruct Hfr as (s1 & w1 & He1 & Hl1 & Hs1 & Hi1). unfold dbind. rewrite He1.
    pose proof (can_have_comma_lead _ _ _ _ _ _ _ Hr) as Hcan.
    assert (Hcan1 : can_have_comma s1 = can_have_comma s).
    { unfold can_have_comma, is_in_array. destruct Hs1 as (-> & -> & -> & _). reflexivity. }
    pose proof (r_names _ _ _ _ _ _ _ Hr) as [Hnames _].
    destruct (fresh_forward E inp fs vs s1 w1 b _ Hf Hi1 eq_refl) as (p & s' & r' & Hp & He & Hb); auto.
    + rewrite Hcan1. exact Hcan.
    + destruct Hs1 as (_ & -> & _). exact Hnames.
    + rewrite (in_array_same _ _ Hs1). exact (kind_in_array _ _ _ _ _ _ (r_base _ _ _ _ _ _ _ Hr)).
    + exists s', r'. rewrite Hp, He. splits; auto; [|congruence]. intros _. rewrite <- Hb. exact Hbody.
  - cbn [at_member_value cur_token hd_error option_map]. unfold dbind, dret, d_fresh. rewrite (ws_scan_final E inp s r Hf Hi Hfin).
    eexists _, _. splits; [reflexivity| |congruence]. intros _. right. splits; auto. left. constructor.
Qed.
