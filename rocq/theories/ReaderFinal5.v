(** * Proofs of the property theorems about errors *)

From Verif Require Import Base Utf8Model Utf8Proofs NumberModel SpecNumber NumberProofs SpecJson SourceModel SourceProofs
  ReaderModel ReaderScan ReaderLex ReaderLexStr ReaderMid ReaderAgree ReaderSess ReaderGrammar ReaderSafe SpecCursor ReaderRepr ReaderForward
  ReaderBack ReaderErrs SpecText ReaderText SpecErrors ReaderKinds ReaderKinds2 ReaderKinds3 ReaderKinds4 ReaderKinds5 ReaderKinds6 ReaderFinal ReaderFinal3 ReaderFinal4.


(** ** Sessions *)
Lemma forall2_tail {A B : Type} (P : A -> B -> Prop) l1 l2 m1 m2 : length l2 = length m2 -> Forall2 P (l1 ++ l2) (m1 ++ m2) -> Forall2 P l1 m1 /\ Forall2 P l2 m2.
Proof.
  intros Hl H. pose proof (forall2_length _ _ _ H) as Hlen. rewrite !app_length in Hlen. assert (Hl1 : length l1 = length m1) by lia.
  clear Hl Hlen. revert m1 H Hl1. induction l1 as [|x l1 IH]; intros [|y m1] H Hl; try discriminate.
  - split; [constructor|exact H].
  - cbn in H. inversion H; subst. destruct (IH m1 ltac:(assumption) ltac:(cbn in Hl; lia)) as [H1 H2]. split; [constructor; assumption|exact H2].
Qed.

Lemma session_two s evs cs b c os p o : Forall is_byte (fst (supplied evs)) ->
  read_session s evs (cs ++ [CPosition b; c]) = os ++ [OOk (RPos p); o] ->
  let E := Env s (enough_fuel (fst (supplied evs))) in
  let t := snd (supplied evs) in
  let ds := d_calls E t cs (DRun (rstate_new s) None (fst (supplied evs))) in
  dinv E (fst (supplied evs)) (snd ds) /\ Forall2 matches os (fst ds) /\
  forall s1 rd r, snd ds = DRun s1 rd r -> p = current_position b s1 /\
  exists kn st' a', arun (client_call E c (Session s1 None Running)) (At r t kn) = Some ((o, st'), a') /\
    matches o (fst (d_call E t c (DRun s1 None r))).
Proof.
  intros Hb Hos E t ds.
  change (cs ++ [CPosition b; c]) with (cs ++ [CPosition b] ++ [c]) in Hos. change (os ++ [OOk (RPos p); o]) with (os ++ [OOk (RPos p)] ++ [o]) in Hos.
  rewrite !app_assoc in Hos. destruct (session_exec s evs _ c _ o Hb Hos) as (H1 & H2 & st & a & st' & a' & Hs & Hrun & Hm).
  fold E t in H1, H2, Hs, Hrun, Hm. rewrite d_calls_app in H1, H2, Hs, Hm. fold ds in H1, H2, Hs, Hm. cbn [fst snd d_calls] in *.
  destruct (d_call E t (CPosition b) (snd ds)) as [o1 d1] eqn:E1. cbn [fst snd] in *.
  destruct (forall2_tail matches os [OOk (RPos p)] (fst ds) [o1] eq_refl H2) as (Hos1 & Hp).
  pose proof (session_tail s evs (cs ++ [CPosition b]) [c] (os ++ [OOk (RPos p)]) [o] Hb Hos eq_refl) as Htail.
  assert (Hd : dinv E (fst (supplied evs)) (snd ds)).
  { apply calls_good; [cbn; unfold enough_fuel; lia|]. split; [apply inv_start; exact Hb|exact I]. }
  splits; [exact Hd|exact Hos1|]. intros s1 rd r Hds. rewrite Hds in E1. cbn in E1. injection E1 as <- <-.
  inversion Hp as [|? ? ? ? Hp1 _]; subst. cbn in Hp1. injection Hp1 as ->. split; [reflexivity|].
  cbn [srel] in Hs. destruct Hs as (-> & (kn & ->) & _). exists kn, st', a'. auto.
Qed.

Lemma peek_found E inp t d ty : (length inp < fuel E)%nat -> dinv E inp d -> matches (OOk (RType ty)) (fst (d_call E t CPeek d)) ->
  exists s' r' p, snd (d_call E t CPeek d) = DRun s' None r' /\ inv E inp s' r' /\ peeked s' = Some p /\ type_of p = Some ty /\
    expects_member_name s' = false /\ string_reader_active s' = false.
Proof.
  intros Hf Hd Hm. destruct d as [s rd r|h| | |]; try (cbn in Hm; discriminate || contradiction). cbn [d_call d_call_run] in *. destruct Hd as (Hi & _).
  pose proof (peek_good E inp t s r Hf Hi) as Hg. unfold d_run in *. destruct (d_peek E t s r) as [x s' r'|e s' r'|[n|]| |]; cbn in Hm.
  - injection Hm as ->. cbn in Hg. destruct Hg as (Hi' & Hs & Hn & Ha & _ & p & Hp & Ht). exists s', r', p. destruct Hs as (_ & Hs2 & _ & Hs4 & _).
    splits; auto; congruence.
  - discriminate.
  - destruct Hm as (l & Hm). discriminate.
  - destruct Hm as (l & Hm & _). discriminate.
  - discriminate.
  - contradiction.
Qed.
Lemma name_found E inp t d : (length inp < fuel E)%nat -> dinv E inp d -> matches (OOk (RBool true)) (fst (d_call E t CHasNext d)) ->
  exists s' r' p, snd (d_call E t CHasNext d) = DRun s' None r' /\ inv E inp s' r' /\ peeked s' = Some p /\ is_end_token p = false /\ string_reader_active s' = false.
Proof.
  intros Hf Hd Hm. destruct d as [s rd r|h| | |]; try (cbn in Hm; discriminate || contradiction). cbn [d_call d_call_run] in *. destruct Hd as (Hi & _).
  pose proof (has_next_good E inp t s r Hf Hi) as Hg. unfold d_run in *. destruct (d_has_next E t s r) as [x s' r'|e s' r'|[n|]| |]; cbn in Hm.
  - injection Hm as <-. cbn in Hg. destruct Hg as (Hi' & Hs & Ha & _ & _ & Hp). destruct (peeked s') as [p|] eqn:Ep; [|destruct Hp; discriminate].
    exists s', r', p. destruct Hs as (_ & Hs2 & _ & Hs4 & _). splits; auto; [|congruence]. destruct (is_end_token p); [discriminate|reflexivity].
  - discriminate.
  - destruct Hm as (l & Hm). discriminate.
  - destruct Hm as (l & Hm & _). discriminate.
  - discriminate.
  - contradiction.
Qed.

(** A look, the position and a call *)
Lemma session_three s evs cs q b c os v p o : Forall is_byte (fst (supplied evs)) ->
  read_session s evs (cs ++ [q; CPosition b; c]) = os ++ [OOk v; OOk (RPos p); o] ->
  let E := Env s (enough_fuel (fst (supplied evs))) in
  let t := snd (supplied evs) in
  exists d, dinv E (fst (supplied evs)) d /\ matches (OOk v) (fst (d_call E t q d)) /\
  forall s1 rd r, snd (d_call E t q d) = DRun s1 rd r -> p = current_position b s1 /\
  exists kn st' a', arun (client_call E c (Session s1 None Running)) (At r t kn) = Some ((o, st'), a') /\
    matches o (fst (d_call E t c (DRun s1 None r))).
Proof.
  intros Hb Hos E t.
  change (cs ++ [q; CPosition b; c]) with (cs ++ [q] ++ [CPosition b; c]) in Hos. change (os ++ [OOk v; OOk (RPos p); o]) with (os ++ [OOk v] ++ [OOk (RPos p); o]) in Hos.
  rewrite !app_assoc in Hos. destruct (session_two s evs _ b c _ p o Hb Hos) as (H1 & H2 & H3). fold E t in H1, H2, H3.
  rewrite d_calls_app in H1, H2, H3. cbn [fst snd d_calls] in *.
  exists (snd (d_calls E t cs (DRun (rstate_new s) None (fst (supplied evs))))).
  destruct (d_call E t q _) as [o1 d1] eqn:E1. cbn [fst snd] in *. destruct (forall2_tail matches os [OOk v] _ [o1] eq_refl H2) as (Hos1 & Hp).
  inversion Hp as [|? ? ? ? Hp1 _]; subst. splits; [|exact Hp1|exact H3].
  apply calls_good; [cbn; unfold enough_fuel; lia|]. split; [apply inv_start; exact Hb|exact I].
Qed.

(** What is reported, and where *)
Lemma located_at inp s r E b : inv E inp s r -> exists pre, inp = pre ++ ahead s r /\ is_behind (current_position b s) pre /\
  forall t1 rest, ahead s r = t1 ++ rest -> valid_text t1 -> is_behind (location (move t1 s)) (pre ++ t1).
Proof.
  intros Hi. destruct (i_pos _ _ _ _ Hi) as (c & Hl). exists c. splits; [exact (proj1 Hl)|exact (located_behind _ _ _ _ b Hl)|].
  intros t1 rest Ha Hv. apply (error_behind inp c s rest t1 true); [|exact Hv]. rewrite <- Ha. exact Hl.
Qed.
Lemma same_place p pre pre' (inp rest rest' : bytes) : inp = pre ++ rest -> inp = pre' ++ rest' -> is_behind p pre -> is_behind p pre' -> pre = pre' /\ rest = rest'.
Proof.
  intros H1 H2 (Hb & _) (Hb' & _). assert (Hl : length pre = length pre') by lia. subst inp. symmetry in H2.
  assert (H3 : firstn (length pre) (pre ++ rest) = firstn (length pre) (pre' ++ rest')) by congruence.
  rewrite Hl in H3 at 2. rewrite !firstn_app, !Nat.sub_diag, !firstn_all in H3. cbn in H3. rewrite !app_nil_r in H3. subst pre'.
  split; [reflexivity|]. apply app_inv_head in H2. congruence.
Qed.

Lemma literal_valid x t1 F : literal_string_error x t1 F -> valid_text t1 /\ exists rest, x = t1 ++ rest.
Proof.
  intros H. destruct H as [body v bad F Hb He]. split; [|eexists; reflexivity]. apply valid_cons; [lia|]. eapply str_text_valid; eassumption.
Qed.

Lemma string_outcome E inp t s r kn c o st' a' : (length inp < fuel E)%nat -> inv E inp s r -> peeked s = Some PkStringStart -> expects_member_name s = false ->
  string_reader_active s = false -> In c [CNextString; CNextStr; CSkipValue] ->
  arun (client_call E c (Session s None Running)) (At r t kn) = Some ((o, st'), a') -> matches o (fst (d_call E t c (DRun s None r))) ->
  (forall e, o = OErr e -> exists t1 F, literal_string_error (0x22 :: r) t1 F) /\
  forall t1 F, literal_string_error (0x22 :: r) t1 F -> exists e, o = OErr e /\ reports t F e /\ error_position e = location (move t1 s).
Proof.
  intros Hf Hi Hp Hn Ha Hc Hrun Hm. pose proof (i_bytes _ _ _ _ Hi) as Hb. pose proof (inv_length _ _ _ _ Hi Hf) as Hl. split.
  - intros e ->. destruct (string_decided (S (length r)) r Hb ltac:(lia)) as [(body & v & rest & Hr & Hbody)|(body & v & bad & F & -> & Hbody & Hbad)].
    + destruct (lucky_string_call E t s None r body v rest c e Hp Hn Ha Hr Hbody Hl Hc Hm).
    + exists (0x22 :: body), F. econstructor; eassumption.
  - intros t1 F HF. inversion HF as [body v bad F' Hbody Hbad Hx Ht1 HF']; subst. 
    pose proof (string_call_stops E t body v bad F s kn c Hbody Hbad Hb Hl Hp Hn Ha) as Hst. cbv zeta in Hst.
    rewrite <- (quote_location body s (set_peeked None s) eq_refl eq_refl).
    destruct Hc as [<-|[<-|[<-|[]]]]; cbn [client_call s_phase] in Hrun; exact (stops_call _ _ _ _ _ _ _ _ _ _ _ Hst Hrun).
Qed.
Lemma name_outcome E inp t s r kn c o st' a' : (length inp < fuel E)%nat -> inv E inp s r -> peeked s = Some PkNameStart -> expects_member_name s = true ->
  string_reader_active s = false -> In c [CNextName; CNextNameOwned; CSkipName] ->
  arun (client_call E c (Session s None Running)) (At r t kn) = Some ((o, st'), a') -> matches o (fst (d_call E t c (DRun s None r))) ->
  (forall e, o = OErr e -> exists t1 F, literal_string_error (0x22 :: r) t1 F) /\
  forall t1 F, literal_string_error (0x22 :: r) t1 F -> exists e, o = OErr e /\ reports t F e /\ error_position e = location (move t1 s).
Proof.
  intros Hf Hi Hp Hn Ha Hc Hrun Hm. pose proof (i_bytes _ _ _ _ Hi) as Hb. pose proof (inv_length _ _ _ _ Hi Hf) as Hl. pose proof (i_name _ _ _ _ Hi Hn) as Ho. split.
  - intros e ->. destruct (string_decided (S (length r)) r Hb ltac:(lia)) as [(body & v & rest & Hr & Hbody)|(body & v & bad & F & -> & Hbody & Hbad)].
    + destruct (lucky_name_call E t s None r body v rest c e Hp Hn Ha Ho Hr Hbody Hl Hc Hm).
    + exists (0x22 :: body), F. econstructor; eassumption.
  - intros t1 F HF. inversion HF as [body v bad F' Hbody Hbad Hx Ht1 HF']; subst.
    pose proof (name_call_stops E t body v bad F s kn c Hbody Hbad Hb Hl Hp Hn Ha Ho) as Hst. cbv zeta in Hst.
    rewrite <- (quote_location body s (set_peeked None (set_expects_name false s)) eq_refl eq_refl).
    destruct Hc as [<-|[<-|[<-|[]]]]; cbn [client_call s_phase] in Hrun; exact (stops_call _ _ _ _ _ _ _ _ _ _ _ Hst Hrun).
Qed.
Lemma number_outcome E inp t s r kn c o st' a' : (length inp < fuel E)%nat -> inv E inp s r -> peeked s = Some PkNumberStart -> expects_member_name s = false ->
  string_reader_active s = false -> In c [CNextNumberStr; CNextNumberString; CSkipValue] ->
  arun (client_call E c (Session s None Running)) (At r t kn) = Some ((o, st'), a') -> matches o (fst (d_call E t c (DRun s None r))) ->
  forall e, o = OErr e -> exists t1 F, number_error t (match c with CSkipValue => false | _ => restrict_number_values (cfg E) end) r t1 F /\
    reports t F e /\ error_position e = location (move t1 s).
Proof.
  intros Hf Hi Hp Hn Ha Hc Hrun Hm e ->. pose proof (inv_length _ _ _ _ Hi Hf) as Hl.
  pose proof (i_peek _ _ _ _ Hi) as Hpk. unfold peek_ok in Hpk. rewrite Hp in Hpk. destruct Hpk as (_ & _ & _ & Hns & _). specialize (Hns eq_refl).
  destruct r as [|b l]; [contradiction|]. 
  destruct (number_decided E t (match c with CSkipValue => false | _ => restrict_number_values (cfg E) end) b l Hl) as (res & w & rest & Hs & Hgood).
  destruct (number_result t (match c with CSkipValue => false | _ => restrict_number_values (cfg E) end) res w rest) as [F|] eqn:ER.
  - exists (match F with FSyntax TrailingDataAfterNumber => w | _ => [] end), F.
    split; [exact (number_diagnosis E t _ b l res w rest F Hl Hns Hs ER)|].
    pose proof (number_call_stops E t b l res w rest F s kn c Hl Hns Hs ER Hp Hn Ha) as Hst. cbv zeta in Hst.
    assert (Hloc : location (move (match F with FSyntax TrailingDataAfterNumber => w | _ => [] end) (set_peeked None s)) =
      location (move (match F with FSyntax TrailingDataAfterNumber => w | _ => [] end) s)).
    { apply location_eq; [apply pos3_move; reflexivity|rewrite !move_path; reflexivity]. }
    rewrite <- Hloc.
    assert (Hfin : exists e', OErr e = OErr e' /\ reports t F e' /\ error_position e' = location (move (match F with FSyntax TrailingDataAfterNumber => w | _ => [] end) (set_peeked None s))).
    { destruct Hc as [<-|[<-|[<-|[]]]]; cbn [client_call s_phase] in Hrun; exact (stops_call _ _ _ _ _ _ _ _ _ _ _ Hst Hrun). }
    destruct Hfin as (e' & He & Hr). injection He as ->. exact Hr.
  - destruct (Hgood eq_refl) as (n & v & Hn1 & Hv & Hh & Hre & Hsep).
    destruct (lucky_number_call E t s None b l res w rest n v c e Hl Hs Hn1 Hv Hh Hre Hsep Hp Hn Ha Hc Hm).
Qed.
Lemma number_error_valid t re x t1 F : number_error t re x t1 F -> valid_text t1 /\ exists rest, x = t1 ++ rest.
Proof.
  intros H. destruct H; (split; [|eexists; reflexivity]); try apply valid_nil.
  match goal with H : number_text _ |- _ => destruct H as (m & H); apply valid_text_ascii; eapply Forall_impl; [|exact (number_chars _ _ H)] end.
  intros y Hy. unfold number_char, digit in Hy. lia.
Qed.


(** Calls which read a member name panic where no name is expected *)
Lemma no_name_panic E t s rd r c o : expects_member_name s = false -> In c [CNextName; CNextNameOwned; CSkipName] ->
  matches o (fst (d_call E t c (DRun s rd r))) -> o = OPanic Misuse.
Proof.
  intros Hn Hc Hm. assert (Hd : d_before_name E t s r = MMisuse) by (unfold d_before_name, dbind at 1, dget; rewrite Hn; reflexivity).
  destruct Hc as [<-|[<-|[<-|[]]]]; cbn [d_call d_call_run] in Hm; unfold d_run, d_next_name, d_skip_name, dbind at 1 in Hm; rewrite Hd in Hm; exact Hm.
Qed.
Lemma no_name E t s rd r c e : expects_member_name s = false -> In c [CNextName; CNextNameOwned; CSkipName] ->
  ~ matches (OErr e) (fst (d_call E t c (DRun s rd r))).
Proof. intros Hn Hc Hm. discriminate (no_name_panic E t s rd r c _ Hn Hc Hm). Qed.

(** ** The end of the input *)
Lemma scalar_clear {A : Type} E inp t ty (k : peeked_value -> D A) s r (x : A) s' r' :
  (length inp < fuel E)%nat -> inv E inp s r -> dbind (d_start E t ty false) k s r = MOk x s' r' ->
  (forall p s1 r1, inv E inp s1 r1 -> peeked s1 = None -> (ty = TNumber -> ReaderSafe.number_start r1) -> k p s1 r1 = MOk x s' r' -> peeked s' = None) ->
  peeked s' = None.
Proof.
  intros Hf Hi He Hk. unfold dbind at 1 in He. pose proof (start_good E inp t ty false s r Hf Hi) as Hg.
  destruct (d_start E t ty false s r) as [p s1 r1| | | |] eqn:Es; try discriminate.
  destruct Hg as (Hi1 & _ & _ & _ & Hpk & Hty & _ & Hn & _). exact (Hk p s1 r1 Hi1 Hpk Hn He).
Qed.
Lemma next_null_clear E inp t s r u s' r' : (length inp < fuel E)%nat -> inv E inp s r -> d_next_null E t s r = MOk u s' r' -> peeked s' = None.
Proof.
  intros Hf Hi He. apply (scalar_clear E inp t TNull _ s r u s' r' Hf Hi He). intros p s1 r1 Hi1 Hpk _ H. apply value_end_text in H as [_ H]. congruence.
Qed.
Lemma next_bool_clear E inp t s r u s' r' : (length inp < fuel E)%nat -> inv E inp s r -> d_next_bool E t s r = MOk u s' r' -> peeked s' = None.
Proof.
  intros Hf Hi He. apply (scalar_clear E inp t TBoolean _ s r u s' r' Hf Hi He). intros p s1 r1 Hi1 Hpk _ H. unfold dbind at 1 in H.
  destruct p; try discriminate; unfold dret at 1 in H; unfold dbind in H;
    destruct (d_on_value_end s1 r1) as [x s2 r2| | | |] eqn:Ev; try discriminate; injection H as <- <- <-; apply value_end_text in Ev as [_ H]; congruence.
Qed.
Lemma next_string_clear E inp t s r u s' r' : (length inp < fuel E)%nat -> inv E inp s r -> d_next_string E t s r = MOk u s' r' -> peeked s' = None.
Proof.
  intros Hf Hi He. apply (scalar_clear E inp t TString _ s r u s' r' Hf Hi He). intros p s1 r1 Hi1 Hpk _ H. unfold dbind at 1 in H.
  destruct (d_string E s1 r1) as [x s2 r2| | | |] eqn:Es; try discriminate.
  destruct (string_text E inp s1 r1 x s2 r2 Hf Hi1 Es) as (body & -> & Hb & Hp2). unfold dbind in H.
  destruct (d_on_value_end s2 r2) as [y s3 r3| | | |] eqn:Ev; try discriminate. injection H as <- <- <-. apply value_end_text in Ev as [_ H]. congruence.
Qed.
Lemma number_clear E inp t restrict s r u s' r' : (length inp < fuel E)%nat -> inv E inp s r -> d_number E t restrict s r = MOk u s' r' -> peeked s' = None.
Proof.
  intros Hf Hi He. apply (scalar_clear E inp t TNumber _ s r u s' r' Hf Hi He). intros p s1 r1 Hi1 Hpk Hn H. unfold dbind at 1 in H.
  pose proof (number_body_good E inp t restrict s1 r1 Hf Hi1 Hpk (Hn eq_refl)) as Hg.
  destruct (d_number_body E t restrict s1 r1) as [x s2 r2| | | |] eqn:Es; try discriminate. destruct Hg as (_ & _ & Hp2 & _). unfold dbind in H.
  destruct (d_on_value_end s2 r2) as [y s3 r3| | | |] eqn:Ev; try discriminate. injection H as <- <- <-. apply value_end_text in Ev as [_ H]. congruence.
Qed.
Lemma end_array_clear E inp t s r u s' r' : (length inp < fuel E)%nat -> inv E inp s r -> d_end_array E t s r = MOk u s' r' -> peeked s' = None.
Proof.
  intros Hf Hi He. unfold d_end_array, dbind at 1, dget in He. unfold dmisuse_if, dbind at 1 in He.
  destruct (negb (is_in_array s)); [discriminate|]. unfold dret at 1, dbind at 1 in He.
  pose proof (peek_internal_good E inp t s r Hf Hi) as Hg.
  destruct (d_peek_internal E t s r) as [q s1 r1| | | |] eqn:Ep; try discriminate. destruct Hg as (Hi1 & _ & _ & _ & Hpk). destruct q; try discriminate.
  destruct (consume_peeked_good E inp s1 r1 _ Hi1 Hpk) as (Hc & _ & _ & Hpk2 & _). unfold dbind in He. rewrite Hc in He.
  apply container_end_text in He as [_ He]. congruence.
Qed.
Lemma end_object_clear E inp t s r u s' r' : (length inp < fuel E)%nat -> inv E inp s r -> d_end_object E t s r = MOk u s' r' -> peeked s' = None.
Proof.
  intros Hf Hi He. unfold d_end_object, dbind at 1, dget in He. unfold dmisuse_if, dbind at 1 in He.
  destruct (negb (is_in_object s)); [discriminate|]. unfold dret at 1, dbind at 1 in He.
  unfold dbind at 1 in He. destruct (expects_member_value s); [discriminate|]. unfold dret at 1 in He.
  pose proof (peek_internal_good E inp t s r Hf Hi) as Hg. unfold dbind at 1 in He.
  destruct (d_peek_internal E t s r) as [q s1 r1| | | |] eqn:Ep; try discriminate. destruct Hg as (Hi1 & _ & _ & _ & Hpk). destruct q; try discriminate.
  destruct (consume_peeked_good E inp s1 r1 _ Hi1 Hpk) as (Hc & _ & _ & Hpk2 & _). unfold dbind in He. rewrite Hc in He.
  unfold dupdate in He. apply container_end_text in He as [_ He]. rewrite He. exact Hpk2.
Qed.
Lemma nothing_peeked E inp t d c v : (length inp < fuel E)%nat -> dinv E inp d ->
  In c [CEndArray; CEndObject; CNextString; CNextStr; CNextNumberStr; CNextNumberString; CNextBool; CNextNull] ->
  matches (OOk v) (fst (d_call E t c d)) ->
  exists s' r', snd (d_call E t c d) = DRun s' None r' /\ inv E inp s' r' /\ peeked s' = None.
Proof.
  intros Hf Hd Hc Hm. pose proof (call_good E inp t c d Hf Hd) as Hg.
  destruct d as [s rd r|h| | |]; try (repeat (destruct Hc as [<-|Hc]; [cbn in Hm; try discriminate; contradiction|]); contradiction).
  destruct Hd as (Hi & _).
  assert (Hrun : forall (A : Type) (m : D A) val, d_call E t c (DRun s rd r) = d_run m val s r ->
    (forall x s' r', m s r = MOk x s' r' -> peeked s' = None) ->
    exists s' r', snd (d_call E t c (DRun s rd r)) = DRun s' None r' /\ inv E inp s' r' /\ peeked s' = None).
  { intros A m val Hcall Hm0. rewrite Hcall in *. unfold d_run in *. destruct (m s r) as [x s' r'|e s' r'|[n|]| |]; cbn in Hm, Hg.
    - exists s', r'. splits; [reflexivity|apply Hg|]. exact (Hm0 _ _ _ eq_refl).
    - discriminate.
    - destruct Hm as (l & Hm). discriminate.
    - destruct Hm as (l & Hm & _). discriminate.
    - discriminate.
    - contradiction. }
  destruct Hc as [<-|[<-|[<-|[<-|[<-|[<-|[<-|[<-|[]]]]]]]]]; eapply Hrun; try reflexivity; intros x s' r' Hx.
  - eapply end_array_clear; eassumption.
  - eapply end_object_clear; eassumption.
  - eapply next_string_clear; eassumption.
  - eapply next_string_clear; eassumption.
  - eapply number_clear; eassumption.
  - eapply number_clear; eassumption.
  - eapply next_bool_clear; eassumption.
  - eapply next_null_clear; eassumption.
Qed.

Lemma misuse_ok s a : exec (misuse_if false) s a = Some ((Ok tt, s), a).
Proof. reflexivity. Qed.
Lemma consume_outcome E inp t s r kn e st' a' : (length inp < fuel E)%nat -> inv E inp s r ->
  arun (client_call E CConsumeTrailingWhitespace (Session s None Running)) (At r t kn) = Some ((OErr e, st'), a') ->
  exists t1 F, (ws_error (the_syntax E) None r t1 F \/
     ws_text (the_syntax E) t1 /\ F = FSyntax TrailingData /\ exists x, r = t1 ++ x /\ token_start x) /\
    (valid_text t1 /\ exists rest, r = t1 ++ rest) /\
    reports t F e /\ error_position e = location (move t1 s).
Proof.
  intros Hf Hi Hrun. pose proof (i_bytes _ _ _ _ Hi) as Hb. pose proof (inv_length _ _ _ _ Hi Hf) as Hl.
  cbn [client_call s_phase] in Hrun. unfold call_consume in Hrun. rewrite arun_bind in Hrun.
  destruct (arun (call (consume_trailing_whitespace E) to_unit (Session s None Running)) (At r t kn)) as [[[o1 st1] a1]|] eqn:Ec; [|discriminate].
  cbn in Hrun. injection Hrun as -> _ _.
  assert (Hpre : string_reader_active s = false /\ stack s = [] /\ is_empty s = false).
  { unfold call in Ec. rewrite arun_bind in Ec. cbn [s_state] in Ec. change (arun (consume_trailing_whitespace E s)) with (exec (consume_trailing_whitespace E) s) in Ec.
    unfold consume_trailing_whitespace in Ec. rewrite exec_bind, get_ok in Ec. destruct (string_reader_active s); [cbn in Ec; discriminate|].
    rewrite exec_bind, misuse_ok in Ec. destruct (stack s); [|cbn in Ec; discriminate]. destruct (is_empty s); [cbn in Ec; discriminate|]. auto. }
  destruct Hpre as (Ha & Hst & Hem).
  assert (Hgo : forall t1 F, stops t F (ob <- skip_whitespace E None ;; match ob with Some _ => syntax_err TrailingData | None => ret tt end)%rm s (move t1 s) (At r t kn) ->
    reports t F e /\ error_position e = location (move t1 s)).
  { intros t1 F Hs. assert (Hs' : stops t F (consume_trailing_whitespace E) s (move t1 s) (At r t kn)).
    { unfold consume_trailing_whitespace. eapply stops_bind_ok; [apply get_ok|]. rewrite Ha. eapply stops_bind_ok; [apply misuse_ok|]. rewrite Hst, Hem.
      eapply stops_bind_ok; [apply misuse_ok|]. exact Hs. }
    destruct (stops_call _ _ _ _ _ _ _ _ _ _ _ Hs' Ec) as (e' & He & H). injection He as <-. exact H. }
  pose proof (skip_whitespace_ex E None s r t kn) as Hex. destruct (ws_scan E t None r) as [[w rest]| |] eqn:Ew.
  - pose proof Ew as Ew'. apply ws_scan_sound in Ew' as (-> & Hws & Heof & Hw); [|exact Hb]. destruct rest as [|b rest].
    + exfalso. unfold call in Ec. rewrite arun_bind in Ec. cbn [s_state] in Ec. change (arun (consume_trailing_whitespace E s)) with (exec (consume_trailing_whitespace E) s) in Ec.
      unfold consume_trailing_whitespace in Ec. rewrite exec_bind, get_ok, Ha, exec_bind, misuse_ok, Hst, Hem, exec_bind, misuse_ok, exec_bind, Hex in Ec. cbn in Ec. discriminate.
    + exists w, (FSyntax TrailingData). split; [right|].
      * split; [destruct Hw as [Hw|[? _]]; [exact Hw|discriminate]|]. split; [reflexivity|]. exists (b :: rest). split; [reflexivity|]. apply ws_stop_start. exact Hws.
      * split; [split; [|eauto]|].
        -- destruct Hw as [Hw|[? _]]; [|discriminate]. eapply ws_text_valid; eassumption.
        -- apply Hgo. eapply stops_bind_ok; [exact Hex|]. cbn [hd_error]. apply stops_syntax.
  - destruct (skip_whitespace_stops E None s r t kn Hb Ew) as (t1 & F & HF & Hs). exists t1, F.
    split; [left; exact HF|]. split; [split; [exact (ws_error_valid _ _ _ _ _ HF)|exact (ws_error_text _ _ _ _ _ HF)]|]. apply Hgo. apply stops_bind. exact Hs.
  - destruct (scan_ws_fuel _ _ _ _ _ r Hl Hl Ew).
Qed.

(** ** Examples *)
Lemma plain_a : str_text [0x61] [0x61].
Proof. apply (ST_raw 0x61 [] []); [|constructor]. unfold unescaped, is_char. lia. Qed.
Lemma not_char_C0 c r' : is_char c -> [0xC0; 0x80; 0x22] <> encode_char c ++ r'.
Proof.
  intros Hc H. destruct (N.lt_ge_cases c 0x80) as [H1|H1].
  - rewrite encode_char_1 in H by assumption. injection H as H _. lia.
  - destruct (N.lt_ge_cases c 0x800) as [H2|H2].
    + rewrite encode_char_2 in H by assumption. injection H as H _. lia.
    + destruct (N.lt_ge_cases c 0x10000) as [H3|H3].
      * rewrite encode_char_3 in H by assumption. injection H as H _. lia.
      * rewrite encode_char_4 in H by assumption. injection H as H _. lia.
Qed.


(** ** What is returned *)
Lemma string_read E t s rd r body v rest c o : peeked s = Some PkStringStart -> expects_member_name s = false -> string_reader_active s = false ->
  r = body ++ 0x22 :: rest -> str_text body v -> (length r < fuel E)%nat -> In c [CNextString; CNextStr] ->
  matches o (fst (d_call E t c (DRun s rd r))) -> o = OOk (RStr v).
Proof.
  intros Hp Hn Ha Hr Hb Hl Hc Hm. pose proof (scan_string_complete body v Hb (fuel E) rest) as Hsc. change B_QUOTE with 0x22 in Hsc. rewrite <- Hr in Hsc. specialize (Hsc Hl).
  assert (Hd : d_next_string E t s r = match d_on_value_end (move (body ++ [0x22]) (move [0x22] (set_peeked None s))) rest with
    | MOk _ s' r' => MOk v s' r' | MErr e s' r' => MErr e s' r' | MFail f => MFail f | MMisuse => MMisuse | MBug => MBug end).
  { unfold d_next_string, dbind. rewrite (d_start_ok E t s r _ TString Hp eq_refl Hn Ha). unfold d_string. rewrite Hsc.
    rewrite from_utf8_encode by (eapply str_text_chars; eassumption). reflexivity. }
  assert (Hv := lucky_value_end (move (body ++ [0x22]) (move [0x22] (set_peeked None s))) rest).
  destruct Hc as [<-|[<-|[]]]; cbn [d_call d_call_run] in Hm; unfold d_run in Hm; rewrite Hd in Hm;
    destruct (d_on_value_end _ rest); cbn in Hv, Hm; contradiction || exact Hm.
Qed.
Lemma name_read E t s rd r body v rest c o : peeked s = Some PkNameStart -> expects_member_name s = true -> string_reader_active s = false ->
  is_in_object s = true -> r = body ++ 0x22 :: rest -> str_text body v -> (length r < fuel E)%nat -> In c [CNextName; CNextNameOwned] ->
  matches o (fst (d_call E t c (DRun s rd r))) -> o = OOk (RStr v).
Proof.
  intros Hp Hn Ha Ho Hr Hb Hl Hc Hm. pose proof (scan_string_complete body v Hb (fuel E) rest) as Hsc. change B_QUOTE with 0x22 in Hsc. rewrite <- Hr in Hsc. specialize (Hsc Hl).
  assert (Hd : exists s1, d_next_name E t s r = match d_set_path_name v s1 rest with
    | MOk _ s' r' => MOk v s' r' | MErr e s' r' => MErr e s' r' | MFail f => MFail f | MMisuse => MMisuse | MBug => MBug end).
  { unfold d_next_name, dbind. rewrite (d_name_ok E t s r Hp Hn Ha Ho). unfold d_string. rewrite Hsc.
    rewrite from_utf8_encode by (eapply str_text_chars; eassumption). eexists. reflexivity. }
  destruct Hd as (s1 & Hd). assert (Hv := lucky_set_path_name v s1 rest).
  destruct Hc as [<-|[<-|[]]]; cbn [d_call d_call_run] in Hm; unfold d_run in Hm; rewrite Hd in Hm;
    destruct (d_set_path_name v s1 rest); cbn in Hv, Hm; contradiction || exact Hm.
Qed.

Lemma munch w r w' r' : Forall number_char w -> ends_before number_char r -> Forall number_char w' -> ends_before number_char r' ->
  w ++ r = w' ++ r' -> w = w' /\ r = r'.
Proof.
  intros Hw. revert w'. induction Hw as [|b w Hb Hw IH]; intros w' Hr Hw' Hr' H.
  - destruct Hw' as [|b' w' Hb' Hw']; [auto|]. cbn in H. rewrite H in Hr. contradiction.
  - destruct Hw' as [|b' w' Hb' Hw']; [cbn in H; rewrite <- H in Hr'; contradiction|]. injection H as -> H.
    destruct (IH w' Hr Hw' Hr' H) as [-> ->]. auto.
Qed.
Lemma number_text_chars x : number_text x -> Forall number_char x.
Proof. intros (m & Hm). exact (number_chars _ _ Hm). Qed.

(** The errors of a number, for its maximal extent *)
Inductive diagnosis (t : tail_end) (re : bool) (w r : bytes) : bytes -> failure -> Prop :=
| DG_malformed : ~ number_text w -> r <> [] \/ ~ (exists y, number_text (w ++ y)) -> diagnosis t re w r [] (FSyntax MalformedNumber)
| DG_end y : ~ number_text w -> number_text (w ++ y) -> r = [] -> diagnosis t re w r [] (FEnd MalformedNumber)
| DG_source : number_text w -> t <> TEof -> r = [] -> diagnosis t re w r [] FSource
| DG_unsupported : number_text w -> (r = [] -> t = TEof) -> re = true -> unsupported_number w = true -> diagnosis t re w r [] (FUnsupported w)
| DG_trailing b l : number_text w -> r = b :: l -> ~ separator b -> (re = true -> unsupported_number w = false) ->
    diagnosis t re w r w (FSyntax TrailingDataAfterNumber).
Lemma diagnose t re x t1 F : number_error t re x t1 F -> exists w r, x = w ++ r /\ Forall number_char w /\ ends_before number_char r /\ diagnosis t re w r t1 F.
Proof.
  intros H. destruct H as [x r Hx Hr Hn Hor|x y Hx Hn Hy|x Hx Ht|x r Hx Hr Ht Hre Hu|x b r Hx Hb Hs Hre].
  - exists x, r. splits; auto. constructor; auto.
  - exists x, []. rewrite app_nil_r. splits; auto; [exact I|]. econstructor; eauto.
  - exists x, []. rewrite app_nil_r. splits; auto; [apply number_text_chars; exact Hx|exact I|]. apply DG_source; auto.
  - exists x, r. splits; auto; [apply number_text_chars; exact Hx|]. apply DG_unsupported; auto.
  - exists x, (b :: r). splits; auto; [apply number_text_chars; exact Hx|]. eapply DG_trailing; eauto.
Qed.
Lemma number_error_unique t re x t1 F t1' F' : number_error t re x t1 F -> number_error t re x t1' F' -> t1 = t1' /\ F = F'.
Proof.
  intros H H'. destruct (diagnose _ _ _ _ _ H) as (w & r & Hx & Hw & Hr & D). destruct (diagnose _ _ _ _ _ H') as (w' & r' & Hx' & Hw' & Hr' & D').
  destruct (munch w r w' r' Hw Hr Hw' Hr' ltac:(congruence)) as (<- & <-). clear - D D'.
  destruct D as [Hn Ho|y Hn Hy Hr|Hn Ht Hr|Hn Ht Hre Hu|b l Hn Hr Hs Hre];
    destruct D' as [Hn' Ho'|y' Hn' Hy' Hr'|Hn' Ht' Hr'|Hn' Ht' Hre' Hu'|b' l' Hn' Hr' Hs' Hre']; try contradiction; auto; exfalso.
  - destruct Ho as [Ho|Ho]; [contradiction|]. apply Ho. eauto.
  - destruct Ho' as [Ho'|Ho']; [contradiction|]. apply Ho'. eauto.
  - auto.
  - congruence.
  - auto.
  - rewrite Hre' in Hu; [discriminate|exact Hre].
  - congruence.
  - rewrite Hre in Hu'; [discriminate|exact Hre'].
Qed.
Lemma unsupported_iff w m : number_text_exp w m -> (2 <? N.of_nat m) || (100 <? len64 w) = unsupported_number w.
Proof.
  intros Hm. unfold unsupported_number. rewrite (number_exponent _ _ Hm). unfold len64.
  assert (Hlt : (2 <? N.of_nat m) = Nat.ltb 2 m) by (apply eq_true_iff_eq; rewrite N.ltb_lt, Nat.ltb_lt; lia).
  rewrite Hlt. reflexivity.
Qed.

Lemma number_fails E inp t s r kn c o st' a' t1 F : (length inp < fuel E)%nat -> inv E inp s r -> peeked s = Some PkNumberStart -> expects_member_name s = false ->
  string_reader_active s = false -> In c [CNextNumberStr; CNextNumberString; CSkipValue] ->
  arun (client_call E c (Session s None Running)) (At r t kn) = Some ((o, st'), a') -> matches o (fst (d_call E t c (DRun s None r))) ->
  number_error t (match c with CSkipValue => false | _ => restrict_number_values (cfg E) end) r t1 F ->
  exists e, o = OErr e /\ reports t F e /\ error_position e = location (move t1 s).
Proof.
  intros Hf Hi Hp Hn Ha Hc Hrun Hm HF. pose proof (inv_length _ _ _ _ Hi Hf) as Hl.
  pose proof (i_peek _ _ _ _ Hi) as Hpk. unfold peek_ok in Hpk. rewrite Hp in Hpk. destruct Hpk as (_ & _ & _ & Hns & _). specialize (Hns eq_refl).
  destruct r as [|b l]; [contradiction|]. set (re := match c with CSkipValue => false | _ => restrict_number_values (cfg E) end) in *.
  destruct (number_decided E t re b l Hl) as (res & w & rest & Hs & Hgood).
  destruct (number_result t re res w rest) as [F'|] eqn:ER.
  - pose proof (number_diagnosis E t _ b l res w rest F' Hl Hns Hs ER) as HF'. destruct (number_error_unique _ _ _ _ _ _ _ HF HF') as [-> ->].
    pose proof (number_call_stops E t b l res w rest F' s kn c Hl Hns Hs ER Hp Hn Ha) as Hst. cbv zeta in Hst.
    assert (Hloc : location (move (match F' with FSyntax TrailingDataAfterNumber => w | _ => [] end) (set_peeked None s)) =
      location (move (match F' with FSyntax TrailingDataAfterNumber => w | _ => [] end) s)).
    { apply location_eq; [apply pos3_move; reflexivity|rewrite !move_path; reflexivity]. }
    rewrite <- Hloc. clear Hgood HF HF' ER Hloc. subst re.
    destruct Hc as [<-|[<-|[<-|[]]]]; cbn [client_call s_phase] in Hrun; exact (stops_call _ _ _ _ _ _ _ _ _ _ _ Hst Hrun).
  - exfalso. destruct (Hgood eq_refl) as (n & v & -> & Hv & Hh & Hre & Hsep).
    apply number_scan_sound in Hs as (Hx & Hends & m & Hm' & ->). rewrite (unsupported_iff _ _ Hm') in Hre. assert (Hw : number_text w) by (exists m; exact Hm').
    destruct (diagnose _ _ _ _ _ HF) as (w' & r' & Hx' & Hw' & Hr' & D).
    destruct (munch w rest w' r' (number_text_chars _ Hw) Hends Hw' Hr' ltac:(congruence)) as (<- & <-).
    destruct D as [Hn' _|y Hn' _ _|_ Ht ->|_ _ Hre' Hu|b' l' _ -> Hsx _]; try contradiction.
    + cbn in Hh. destruct t; [contradiction|discriminate].
    + rewrite Hre', Hu in Hre. discriminate.
    + cbn in Hsep. apply is_separator_iff in Hsep. contradiction.
Qed.
Lemma number_not_empty m : ~ number_text_exp [] m.
Proof.
  intros (minus & int & frac & exp & H & _ & Hi & _). symmetry in H. apply app_eq_nil in H as [_ H]. apply app_eq_nil in H as [H _]. subst int.
  destruct Hi as [Hi|(d & ds & Hi & _)]; discriminate.
Qed.
Lemma number_read E inp t s rd r w rest c o : (length inp < fuel E)%nat -> inv E inp s r -> peeked s = Some PkNumberStart -> expects_member_name s = false ->
  string_reader_active s = false -> In c [CNextNumberStr; CNextNumberString] ->
  r = w ++ rest -> number_text w -> match rest with [] => t = TEof | b :: _ => separator b end ->
  (restrict_number_values (cfg E) = true -> unsupported_number w = false) ->
  matches o (fst (d_call E t c (DRun s rd r))) -> o = OOk (RStr w).
Proof.
  intros Hf Hi Hp Hn Ha Hc -> (m & Hw) Hrest Hun Hm. pose proof (inv_length _ _ _ _ Hi Hf) as Hl.
  assert (Hends : ends_number rest).
  { destruct rest as [|b rest]; [exact I|]. cbn. intros Hb. unfold separator in Hrest. unfold number_char, digit in Hb. cbn in Hrest. lia. }
  assert (Hs : number_scan E (w ++ rest) = SOk (Some (N.of_nat m), w, rest)).
  { apply (number_scan_complete E w m rest Hw Hends). rewrite app_length in Hl. lia. }
  assert (Hne : w ++ rest <> []) by (destruct w; [destruct (number_not_empty _ Hw)|discriminate]).
  assert (Hbody : forall s0, d_number_body E t (restrict_number_values (cfg E)) s0 (w ++ rest) = MOk w (advance (len64 w) (len64 w) s0) rest).
  { intros s0. unfold d_number_body. destruct (w ++ rest) as [|b l] eqn:Er; [contradiction|]. rewrite Hs.
    assert (Hh : hits_error t rest = false) by (destruct rest; [cbn; rewrite Hrest|]; reflexivity). rewrite Hh, (number_utf8 _ _ Hw), (unsupported_iff _ _ Hw).
    assert (Hre : restrict_number_values (cfg E) && unsupported_number w = false) by (destruct (restrict_number_values (cfg E)); [rewrite Hun|]; reflexivity).
    rewrite Hre. assert (Hsep : sep_ok (is_eof t) rest = true) by (destruct rest; [cbn; rewrite Hrest; reflexivity|cbn; apply is_separator_iff; exact Hrest]).
    rewrite Hsep. reflexivity. }
  assert (Hd : exists s1, d_next_number E t s (w ++ rest) = match d_on_value_end s1 rest with
    | MOk _ s' r' => MOk w s' r' | MErr e s' r' => MErr e s' r' | MFail f => MFail f | MMisuse => MMisuse | MBug => MBug end).
  { unfold d_next_number, d_number, dbind. rewrite (d_start_ok E t s _ _ TNumber Hp eq_refl Hn Ha). rewrite Hbody. eexists. reflexivity. }
  destruct Hd as (s1 & Hd). assert (Hv := lucky_value_end s1 rest).
  destruct Hc as [<-|[<-|[]]]; cbn [d_call d_call_run] in Hm; unfold d_run in Hm; rewrite Hd in Hm;
    destruct (d_on_value_end s1 rest); cbn in Hv, Hm; contradiction || exact Hm.
Qed.

Lemma number_1_5 : number_text [0x31; 0x2E; 0x35].
Proof.
  exists 0%nat, [], [0x31], [0x2E; 0x35], []. splits; auto.
  - right. exists 0x31, []. splits; auto; lia.
  - right. exists [0x35]. splits; auto. split; [discriminate|]. repeat constructor; unfold digit; lia.
  - left. auto.
Qed.
Lemma number_1e100 : number_text [0x31; 0x65; 0x31; 0x30; 0x30].
Proof.
  exists 3%nat, [], [0x31], [], [0x65; 0x31; 0x30; 0x30]. splits; auto.
  - right. exists 0x31, []. splits; auto; lia.
  - left. reflexivity.
  - right. exists 0x65, [], [0x31; 0x30; 0x30]. splits; auto. split; [discriminate|]. repeat constructor; unfold digit; lia.
Qed.

(** Strings without escape sequences *)
Definition ordinary (b : byte) : Prop := 0x20 <= b /\ b <> 0x22 /\ b <> 0x5C.
Lemma ordinary_text body0 v bad : str_text body0 v -> forall body rest, Forall ordinary body -> body0 ++ bad = body ++ 0x22 :: rest ->
  exists tl, body = body0 ++ tl /\ body0 = encode_utf8 v /\ bad = tl ++ 0x22 :: rest.
Proof.
  intros H. induction H as [|c t s Hu Ht IH|b c t s He Ht IH|hs v t s Hh Hc Ht IH|hs1 hi hs2 lo t s Hh1 Hh2 Hhi Hlo Ht IH]; intros body rest Hb Heq.
  - exists body. auto.
  - rewrite <- app_assoc in Heq. destruct Hu as (Hc & Hu).
    assert (Hcase : exists b1, body = encode_char c ++ b1 /\ t ++ bad = b1 ++ 0x22 :: rest).
    { assert (Hno : ~ In 0x22 (encode_char c)).
      { intros Hin. destruct (N.lt_ge_cases c 0x80) as [H1|H1]; [rewrite encode_char_1 in Hin by assumption; destruct Hin as [Hin|[]]; lia|].
        pose proof (encode_char_high c Hc H1) as Hh. rewrite Forall_forall in Hh. specialize (Hh _ Hin). lia. }
      clear - Heq Hno. revert body Heq. induction (encode_char c) as [|x l IH]; intros body Heq; [exists body; auto|].
      destruct body as [|y body]; [injection Heq as -> _; destruct Hno; left; reflexivity|]. injection Heq as -> Heq.
      destruct (IH (fun H => Hno (or_intror H)) _ Heq) as (b1 & -> & H2). exists b1. auto. }
    destruct Hcase as (b1 & -> & Heq1). apply Forall_app in Hb as [_ Hb]. destruct (IH b1 rest Hb Heq1) as (tl & -> & -> & ->).
    exists tl. cbn. rewrite <- app_assoc. auto.
  - destruct body as [|y body]; [discriminate|]. injection Heq as <- _. inversion Hb as [|? ? (_ & _ & Hno) _]. congruence.
  - destruct body as [|y body]; [discriminate|]. injection Heq as <- _. inversion Hb as [|? ? (_ & _ & Hno) _]. congruence.
  - destruct body as [|y body]; [discriminate|]. injection Heq as <- _. inversion Hb as [|? ? (_ & _ & Hno) _]. congruence.
Qed.
Lemma ordinary_encoded v : Forall unescaped v -> Forall ordinary (encode_utf8 v).
Proof.
  intros H. induction H as [|c v (Hc & H1 & H2 & H3) _ IH]; [constructor|]. cbn. apply Forall_app. split; [|exact IH].
  destruct (N.lt_ge_cases c 0x80) as [H4|H4].
  - rewrite encode_char_1 by assumption. repeat constructor; auto.
  - eapply Forall_impl; [|exact (encode_char_high c Hc H4)]. unfold ordinary. intros x Hx. lia.
Qed.
Lemma encoded_text v : Forall is_char v -> Forall ordinary (encode_utf8 v) -> str_text (encode_utf8 v) v.
Proof.
  intros H. induction H as [|c v Hc _ IH]; [constructor|]. cbn. intros Ho. apply Forall_app in Ho as [Ho1 Ho2]. apply ST_raw; [|auto]. split; [exact Hc|].
  destruct (N.lt_ge_cases c 0x80) as [H4|H4]; [|lia]. rewrite encode_char_1 in Ho1 by assumption. inversion Ho1; subst. assumption.
Qed.
Lemma ordinary_error body rest F : Forall ordinary body -> string_error (body ++ 0x22 :: rest) F -> F = FUtf8.
Proof.
  intros Hb H. assert (Hu : utf8_error (body ++ 0x22 :: rest) F).
  { destruct body as [|b body].
    - exfalso. inversion H; subst; try lia.
      match goal with Hu : utf8_error _ _ |- _ => inversion Hu; lia end.
    - inversion Hb as [|? ? (H1 & H2 & H3) _]. inversion H; subst; try lia; try congruence; try assumption. }
  inversion Hu as [b r Hb0 Htr|]; [|reflexivity]. exfalso. subst. destruct Htr as (b0 & l & Heq & Hlen & Hcont). injection Heq as -> ->.
  destruct body as [|y body]; match goal with H : _ :: _ = _ |- _ => injection H as -> Heq2 end; [lia|]. subst l.
  apply Forall_app in Hcont as [_ Hcont]. inversion Hcont; subst. lia.
Qed.


Lemma C05_string_errors_holds : forall (s : settings) (evs : list event) (cs : list rcall) (b : bool) (c : rcall) (os : list outcome) (p : position) (e : reader_error),
  Forall is_byte (fst (supplied evs)) ->
  In c [CNextString; CNextStr; CSkipValue] ->
  read_session s evs (cs ++ [CPeek; CPosition b; c]) = os ++ [OOk (RType TString); OOk (RPos p); OErr e] ->
  exists pre rest t1 F, fst (supplied evs) = pre ++ rest /\ is_behind p pre /\
    literal_string_error rest t1 F /\ reports (snd (supplied evs)) F e /\ is_behind (error_position e) (pre ++ t1).
Proof.
  intros s evs cs b c os p e Hb Hc Hos. destruct (session_three s evs cs CPeek b c os _ p _ Hb Hos) as (d & Hd & Hm & Hnext).
  set (E := Env s (enough_fuel (fst (supplied evs)))) in *. assert (Hf : (length (fst (supplied evs)) < fuel E)%nat) by (cbn; unfold enough_fuel; lia).
  destruct (peek_found E _ _ d TString Hf Hd Hm) as (s1 & r1 & pk & Hd1 & Hi & Hp & Ht & Hn & Ha).
  assert (pk = PkStringStart) as -> by (destruct pk; try discriminate Ht; reflexivity).
  destruct (Hnext _ _ _ Hd1) as (-> & kn & st' & a' & Hrun & Hmo).
  destruct (string_outcome E _ _ s1 r1 kn c _ st' a' Hf Hi Hp Hn Ha Hc Hrun Hmo) as (H1 & H2). destruct (H1 e eq_refl) as (t1 & F & HF).
  destruct (H2 _ _ HF) as (e' & He & Hr & Hpos). injection He as <-. destruct (located_at _ s1 r1 E b Hi) as (pre & Hpre & Hbeh & Herr).
  rewrite (ahead_some _ _ _ Hp) in *. exists pre, (0x22 :: r1), t1, F. splits; auto.
  destruct (literal_valid _ _ _ HF) as (Hv & rest & Hrest). rewrite Hpos. exact (Herr t1 rest Hrest Hv).
Qed.

Lemma C05_malformed_strings_fail_holds : forall (s : settings) (evs : list event) (cs : list rcall) (b : bool) (c : rcall) (os : list outcome) (p : position) (o : outcome)
    (pre rest t1 : bytes) (F : failure),
  Forall is_byte (fst (supplied evs)) ->
  In c [CNextString; CNextStr; CSkipValue] ->
  read_session s evs (cs ++ [CPeek; CPosition b; c]) = os ++ [OOk (RType TString); OOk (RPos p); o] ->
  fst (supplied evs) = pre ++ rest -> is_behind p pre -> literal_string_error rest t1 F ->
  exists e, o = OErr e /\ reports (snd (supplied evs)) F e /\ is_behind (error_position e) (pre ++ t1).
Proof.
  intros s evs cs b c os p o pre rest t1 F Hb Hc Hos Hpre Hbeh HF. destruct (session_three s evs cs CPeek b c os _ p _ Hb Hos) as (d & Hd & Hm & Hnext).
  set (E := Env s (enough_fuel (fst (supplied evs)))) in *. assert (Hf : (length (fst (supplied evs)) < fuel E)%nat) by (cbn; unfold enough_fuel; lia).
  destruct (peek_found E _ _ d TString Hf Hd Hm) as (s1 & r1 & pk & Hd1 & Hi & Hp & Ht & Hn & Ha).
  assert (pk = PkStringStart) as -> by (destruct pk; try discriminate Ht; reflexivity).
  destruct (Hnext _ _ _ Hd1) as (-> & kn & st' & a' & Hrun & Hmo).
  destruct (located_at _ s1 r1 E b Hi) as (pre' & Hpre' & Hbeh' & Herr). destruct (same_place _ _ _ _ _ _ Hpre Hpre' Hbeh Hbeh') as (<- & ->).
  rewrite (ahead_some _ _ _ Hp) in HF, Herr.
  destruct (string_outcome E _ _ s1 r1 kn c _ st' a' Hf Hi Hp Hn Ha Hc Hrun Hmo) as (_ & H2).
  destruct (H2 _ _ HF) as (e & -> & Hr & Hpos). exists e. splits; auto.
  destruct (literal_valid _ _ _ HF) as (Hv & rest & Hrest). rewrite Hpos. exact (Herr t1 rest Hrest Hv).
Qed.

Lemma C05_well_formed_strings_are_decoded_holds : forall (s : settings) (evs : list event) (cs : list rcall) (b : bool) (c : rcall) (os : list outcome) (p : position) (o : outcome)
    (pre lit rest : bytes) (v : str),
  Forall is_byte (fst (supplied evs)) ->
  In c [CNextString; CNextStr] ->
  read_session s evs (cs ++ [CPeek; CPosition b; c]) = os ++ [OOk (RType TString); OOk (RPos p); o] ->
  fst (supplied evs) = pre ++ lit ++ rest -> is_behind p pre -> quoted lit v ->
  o = OOk (RStr v).
Proof.
  intros s evs cs b c os p o pre lit rest v Hb Hc Hos Hpre Hbeh (body & -> & Hbody). destruct (session_three s evs cs CPeek b c os _ p _ Hb Hos) as (d & Hd & Hm & Hnext).
  set (E := Env s (enough_fuel (fst (supplied evs)))) in *. assert (Hf : (length (fst (supplied evs)) < fuel E)%nat) by (cbn; unfold enough_fuel; lia).
  destruct (peek_found E _ _ d TString Hf Hd Hm) as (s1 & r1 & pk & Hd1 & Hi & Hp & Ht & Hn & Ha).
  assert (pk = PkStringStart) as -> by (destruct pk; try discriminate Ht; reflexivity).
  destruct (Hnext _ _ _ Hd1) as (-> & kn & st' & a' & Hrun & Hmo).
  destruct (located_at _ s1 r1 E b Hi) as (pre' & Hpre' & Hbeh' & Herr). destruct (same_place _ _ _ _ _ _ Hpre Hpre' Hbeh Hbeh') as (<- & Hr).
  rewrite (ahead_some _ _ _ Hp) in Hr. cbn in Hr. injection Hr as Hr. rewrite <- app_assoc in Hr. cbn in Hr.
  exact (string_read E _ s1 None r1 body v rest c o Hp Hn Ha (eq_sym Hr) Hbody (inv_length _ _ _ _ Hi Hf) Hc Hmo).
Qed.

Lemma C04_utf8_validation_is_exact_holds : forall (s : settings) (evs : list event) (cs : list rcall) (b : bool) (c : rcall) (os : list outcome) (p : position) (o : outcome)
    (pre body rest : bytes),
  Forall is_byte (fst (supplied evs)) ->
  In c [CNextString; CNextStr] ->
  read_session s evs (cs ++ [CPeek; CPosition b; c]) = os ++ [OOk (RType TString); OOk (RPos p); o] ->
  fst (supplied evs) = pre ++ [0x22] ++ body ++ [0x22] ++ rest -> is_behind p pre ->
  Forall (fun x => 0x20 <= x /\ x <> 0x22 /\ x <> 0x5C) body ->
  (forall v, o = OOk (RStr v) <-> body = encode_utf8 v /\ Forall is_char v) /\
  (~ (exists v, body = encode_utf8 v /\ Forall is_char v) -> exists q, o = OErr (EIo IoInvalidUtf8 q)).
Proof.
  intros s evs cs b c os p o pre body rest Hb Hc Hos Hpre Hbeh Hord. destruct (session_three s evs cs CPeek b c os _ p _ Hb Hos) as (d & Hd & Hm & Hnext).
  set (E := Env s (enough_fuel (fst (supplied evs)))) in *. assert (Hf : (length (fst (supplied evs)) < fuel E)%nat) by (cbn; unfold enough_fuel; lia).
  destruct (peek_found E _ _ d TString Hf Hd Hm) as (s1 & r1 & pk & Hd1 & Hi & Hp & Ht & Hn & Ha).
  assert (pk = PkStringStart) as -> by (destruct pk; try discriminate Ht; reflexivity).
  destruct (Hnext _ _ _ Hd1) as (-> & kn & st' & a' & Hrun & Hmo).
  destruct (located_at _ s1 r1 E b Hi) as (pre' & Hpre' & Hbeh' & Herr). destruct (same_place _ _ _ _ _ _ Hpre Hpre' Hbeh Hbeh') as (<- & Hr).
  rewrite (ahead_some _ _ _ Hp) in Hr. cbn in Hr. injection Hr as <-.
  pose proof (i_bytes _ _ _ _ Hi) as Hby. pose proof (inv_length _ _ _ _ Hi Hf) as Hl.
  destruct (string_decided _ _ Hby (Nat.lt_succ_diag_r _)) as [(body0 & v & rest0 & Hr0 & Hbody)|(body0 & v & bad & F & Hr0 & Hbody & Hbad)].
  - pose proof (string_read E _ s1 None _ body0 v rest0 c o Hp Hn Ha Hr0 Hbody Hl Hc Hmo) as ->.
    destruct (ordinary_text body0 v (0x22 :: rest0) Hbody body rest Hord (eq_sym Hr0)) as (tl & -> & Hv & Htl).
    assert (tl = []) as ->. { destruct tl as [|y tl]; [reflexivity|]. injection Htl as <- _. apply Forall_app in Hord as [_ Hord]. inversion Hord as [|? ? (_ & Hno & _) _]. congruence. }
    rewrite app_nil_r in *. pose proof (str_text_chars _ _ Hbody) as Hch. split.
    + intros v'. split; [intros [= <-]; auto|]. intros (H1 & H2). assert (Hsame : Some v = Some v') by (rewrite <- (from_utf8_encode v Hch), <- (from_utf8_encode v' H2); congruence).
      congruence.
    + intros Hno. destruct Hno. eauto.
  - destruct (ordinary_text body0 v bad Hbody body rest Hord (eq_sym Hr0)) as (tl & -> & Hv & Htl). subst bad.
    apply Forall_app in Hord as [Hord1 Hord]. pose proof (ordinary_error tl rest F Hord Hbad) as ->.
    destruct (string_outcome E _ _ s1 _ kn c _ st' a' Hf Hi Hp Hn Ha ltac:(destruct Hc as [<-|[<-|[]]]; cbn; auto) Hrun Hmo) as (_ & H2).
    destruct (H2 (0x22 :: body0) FUtf8) as (e & -> & Hr & _). { rewrite Hr0. econstructor; eassumption. }
    destruct e; try contradiction. destruct error; try contradiction. split; [|eauto]. intros v'. split; [discriminate|]. intros (H1 & H3). exfalso.
    assert (Hst : str_text (body0 ++ tl) v'). { rewrite H1. apply encoded_text; [exact H3|]. rewrite <- H1. apply Forall_app. split; [exact Hord1|exact Hord]. }
    discriminate (string_read E _ s1 None _ (body0 ++ tl) v' rest c _ Hp Hn Ha eq_refl Hst Hl Hc Hmo).
Qed.

Lemma C05_name_errors_holds : forall (s : settings) (evs : list event) (cs : list rcall) (b : bool) (c : rcall) (os : list outcome) (p : position) (e : reader_error),
  Forall is_byte (fst (supplied evs)) ->
  In c [CNextName; CNextNameOwned; CSkipName] ->
  read_session s evs (cs ++ [CHasNext; CPosition b; c]) = os ++ [OOk (RBool true); OOk (RPos p); OErr e] ->
  exists pre rest t1 F, fst (supplied evs) = pre ++ rest /\ is_behind p pre /\
    literal_string_error rest t1 F /\ reports (snd (supplied evs)) F e /\ is_behind (error_position e) (pre ++ t1).
Proof.
  intros s evs cs b c os p e Hb Hc Hos. destruct (session_three s evs cs CHasNext b c os _ p _ Hb Hos) as (d & Hd & Hm & Hnext).
  set (E := Env s (enough_fuel (fst (supplied evs)))) in *. assert (Hf : (length (fst (supplied evs)) < fuel E)%nat) by (cbn; unfold enough_fuel; lia).
  destruct (name_found E _ _ d Hf Hd Hm) as (s1 & r1 & pk & Hd1 & Hi & Hp & Ht & Ha).
  destruct (Hnext _ _ _ Hd1) as (-> & kn & st' & a' & Hrun & Hmo).
  destruct (expects_member_name s1) eqn:Hn; [|destruct (no_name E (snd (supplied evs)) s1 None r1 c e Hn Hc Hmo)].
  assert (pk = PkNameStart) as ->.
  { pose proof (i_peek _ _ _ _ Hi) as Hpk. unfold peek_ok in Hpk. rewrite Hp, Hn in Hpk. destruct Hpk as (_ & [-> | ->] & _); [reflexivity|discriminate]. }
  destruct (name_outcome E _ _ s1 r1 kn c _ st' a' Hf Hi Hp Hn Ha Hc Hrun Hmo) as (H1 & H2). destruct (H1 e eq_refl) as (t1 & F & HF).
  destruct (H2 _ _ HF) as (e' & He & Hr & Hpos). injection He as <-. destruct (located_at _ s1 r1 E b Hi) as (pre & Hpre & Hbeh & Herr).
  rewrite (ahead_some _ _ _ Hp) in *. exists pre, (0x22 :: r1), t1, F. splits; auto.
  destruct (literal_valid _ _ _ HF) as (Hv & rest & Hrest). rewrite Hpos. exact (Herr t1 rest Hrest Hv).
Qed.

Lemma C05_malformed_names_fail_holds : forall (s : settings) (evs : list event) (cs : list rcall) (b : bool) (c : rcall) (os : list outcome) (p : position) (o : outcome)
    (pre rest t1 : bytes) (F : failure),
  Forall is_byte (fst (supplied evs)) ->
  In c [CNextName; CNextNameOwned; CSkipName] ->
  read_session s evs (cs ++ [CHasNext; CPosition b; c]) = os ++ [OOk (RBool true); OOk (RPos p); o] ->
  fst (supplied evs) = pre ++ rest -> is_behind p pre -> literal_string_error rest t1 F ->
  o = OPanic Misuse \/ exists e, o = OErr e /\ reports (snd (supplied evs)) F e /\ is_behind (error_position e) (pre ++ t1).
Proof.
  intros s evs cs b c os p o pre rest t1 F Hb Hc Hos Hpre Hbeh HF. destruct (session_three s evs cs CHasNext b c os _ p _ Hb Hos) as (d & Hd & Hm & Hnext).
  set (E := Env s (enough_fuel (fst (supplied evs)))) in *. assert (Hf : (length (fst (supplied evs)) < fuel E)%nat) by (cbn; unfold enough_fuel; lia).
  destruct (name_found E _ _ d Hf Hd Hm) as (s1 & r1 & pk & Hd1 & Hi & Hp & Ht & Ha).
  destruct (Hnext _ _ _ Hd1) as (-> & kn & st' & a' & Hrun & Hmo).
  destruct (expects_member_name s1) eqn:Hn; [right|left; exact (no_name_panic E (snd (supplied evs)) s1 None r1 c o Hn Hc Hmo)].
  assert (pk = PkNameStart) as ->.
  { pose proof (i_peek _ _ _ _ Hi) as Hpk. unfold peek_ok in Hpk. rewrite Hp, Hn in Hpk. destruct Hpk as (_ & [-> | ->] & _); [reflexivity|discriminate]. }
  destruct (located_at _ s1 r1 E b Hi) as (pre' & Hpre' & Hbeh' & Herr). destruct (same_place _ _ _ _ _ _ Hpre Hpre' Hbeh Hbeh') as (<- & ->).
  rewrite (ahead_some _ _ _ Hp) in HF, Herr.
  destruct (name_outcome E _ _ s1 r1 kn c _ st' a' Hf Hi Hp Hn Ha Hc Hrun Hmo) as (_ & H2).
  destruct (H2 _ _ HF) as (e & -> & Hr & Hpos). exists e. splits; auto.
  destruct (literal_valid _ _ _ HF) as (Hv & rest & Hrest). rewrite Hpos. exact (Herr t1 rest Hrest Hv).
Qed.

Lemma C03_number_errors_holds : forall (s : settings) (evs : list event) (cs : list rcall) (b : bool) (c : rcall) (os : list outcome) (p : position) (e : reader_error),
  Forall is_byte (fst (supplied evs)) ->
  In c [CNextNumberStr; CNextNumberString; CSkipValue] ->
  read_session s evs (cs ++ [CPeek; CPosition b; c]) = os ++ [OOk (RType TNumber); OOk (RPos p); OErr e] ->
  exists pre rest t1 F, fst (supplied evs) = pre ++ rest /\ is_behind p pre /\
    number_error (snd (supplied evs)) (match c with CSkipValue => false | _ => restrict_number_values s end) rest t1 F /\
    reports (snd (supplied evs)) F e /\ is_behind (error_position e) (pre ++ t1).
Proof.
  intros s evs cs b c os p e Hb Hc Hos. destruct (session_three s evs cs CPeek b c os _ p _ Hb Hos) as (d & Hd & Hm & Hnext).
  set (E := Env s (enough_fuel (fst (supplied evs)))) in *. assert (Hf : (length (fst (supplied evs)) < fuel E)%nat) by (cbn; unfold enough_fuel; lia).
  destruct (peek_found E _ _ d TNumber Hf Hd Hm) as (s1 & r1 & pk & Hd1 & Hi & Hp & Ht & Hn & Ha).
  assert (pk = PkNumberStart) as -> by (destruct pk; try discriminate Ht; reflexivity).
  destruct (Hnext _ _ _ Hd1) as (-> & kn & st' & a' & Hrun & Hmo).
  destruct (number_outcome E _ _ s1 r1 kn c _ st' a' Hf Hi Hp Hn Ha Hc Hrun Hmo e eq_refl) as (t1 & F & HF & Hr & Hpos).
  destruct (located_at _ s1 r1 E b Hi) as (pre & Hpre & Hbeh & Herr).
  rewrite (ahead_some _ _ _ Hp) in *. cbn [tok app] in *. exists pre, r1, t1, F. splits; auto.
  destruct (number_error_valid _ _ _ _ _ HF) as (Hv & rest & Hrest). rewrite Hpos. exact (Herr t1 rest Hrest Hv).
Qed.

Lemma C03_malformed_numbers_fail_holds : forall (s : settings) (evs : list event) (cs : list rcall) (b : bool) (c : rcall) (os : list outcome) (p : position) (o : outcome)
    (pre rest t1 : bytes) (F : failure),
  Forall is_byte (fst (supplied evs)) ->
  In c [CNextNumberStr; CNextNumberString; CSkipValue] ->
  read_session s evs (cs ++ [CPeek; CPosition b; c]) = os ++ [OOk (RType TNumber); OOk (RPos p); o] ->
  fst (supplied evs) = pre ++ rest -> is_behind p pre ->
  number_error (snd (supplied evs)) (match c with CSkipValue => false | _ => restrict_number_values s end) rest t1 F ->
  exists e, o = OErr e /\ reports (snd (supplied evs)) F e /\ is_behind (error_position e) (pre ++ t1).
Proof.
  intros s evs cs b c os p o pre rest t1 F Hb Hc Hos Hpre Hbeh HF. destruct (session_three s evs cs CPeek b c os _ p _ Hb Hos) as (d & Hd & Hm & Hnext).
  set (E := Env s (enough_fuel (fst (supplied evs)))) in *. assert (Hf : (length (fst (supplied evs)) < fuel E)%nat) by (cbn; unfold enough_fuel; lia).
  destruct (peek_found E _ _ d TNumber Hf Hd Hm) as (s1 & r1 & pk & Hd1 & Hi & Hp & Ht & Hn & Ha).
  assert (pk = PkNumberStart) as -> by (destruct pk; try discriminate Ht; reflexivity).
  destruct (Hnext _ _ _ Hd1) as (-> & kn & st' & a' & Hrun & Hmo).
  destruct (located_at _ s1 r1 E b Hi) as (pre' & Hpre' & Hbeh' & Herr). destruct (same_place _ _ _ _ _ _ Hpre Hpre' Hbeh Hbeh') as (<- & ->).
  rewrite (ahead_some _ _ _ Hp) in HF, Herr. cbn [tok app] in HF, Herr.
  destruct (number_fails E _ _ s1 r1 kn c o st' a' t1 F Hf Hi Hp Hn Ha Hc Hrun Hmo HF) as (e & -> & Hr & Hpos). exists e. splits; auto.
  destruct (number_error_valid _ _ _ _ _ HF) as (Hv & rest & Hrest). rewrite Hpos. exact (Herr t1 rest Hrest Hv).
Qed.

Lemma C03_numbers_are_returned_verbatim_holds : forall (s : settings) (evs : list event) (cs : list rcall) (b : bool) (c : rcall) (os : list outcome) (p : position) (o : outcome)
    (pre n rest : bytes),
  Forall is_byte (fst (supplied evs)) ->
  In c [CNextNumberStr; CNextNumberString] ->
  read_session s evs (cs ++ [CPeek; CPosition b; c]) = os ++ [OOk (RType TNumber); OOk (RPos p); o] ->
  fst (supplied evs) = pre ++ n ++ rest -> is_behind p pre ->
  number_text n -> match rest with [] => snd (supplied evs) = TEof | x :: _ => separator x end ->
  (restrict_number_values s = true -> unsupported_number n = false) ->
  o = OOk (RStr n).
Proof.
  intros s evs cs b c os p o pre n rest Hb Hc Hos Hpre Hbeh Hnum Hrest Hun. destruct (session_three s evs cs CPeek b c os _ p _ Hb Hos) as (d & Hd & Hm & Hnext).
  set (E := Env s (enough_fuel (fst (supplied evs)))) in *. assert (Hf : (length (fst (supplied evs)) < fuel E)%nat) by (cbn; unfold enough_fuel; lia).
  destruct (peek_found E _ _ d TNumber Hf Hd Hm) as (s1 & r1 & pk & Hd1 & Hi & Hp & Ht & Hn & Ha).
  assert (pk = PkNumberStart) as -> by (destruct pk; try discriminate Ht; reflexivity).
  destruct (Hnext _ _ _ Hd1) as (-> & kn & st' & a' & Hrun & Hmo).
  destruct (located_at _ s1 r1 E b Hi) as (pre' & Hpre' & Hbeh' & Herr). destruct (same_place _ _ _ _ _ _ Hpre Hpre' Hbeh Hbeh') as (<- & Hr).
  rewrite (ahead_some _ _ _ Hp) in Hr. cbn [tok app] in Hr.
  exact (number_read E _ _ s1 None r1 n rest c o Hf Hi Hp Hn Ha Hc (eq_sym Hr) Hnum Hrest Hun Hmo).
Qed.

Lemma C35_structure_errors_holds : forall (s : settings) (evs : list event) (cs : list rcall) (b : bool) (q : rcall) (os : list outcome) (p : position) (e : reader_error)
    (open : list bool) (pl : place),
  Forall is_byte (fst (supplied evs)) ->
  q = CPeek \/ q = CHasNext ->
  read_session s evs (cs ++ [CPosition b; q]) = os ++ [OOk (RPos p); OErr e] ->
  recoverable e = false ->
  spot_behind cs os first_spot = Some (open, pl) ->
  exists pre rest t1 F, fst (supplied evs) = pre ++ rest /\ is_behind p pre /\
    next_error (snd (supplied evs)) (Syntax (allow_comments s) (allow_trailing_comma s)) pl rest t1 F /\
    reports (snd (supplied evs)) F e /\ is_behind (error_position e) (pre ++ t1).
Proof.
  intros s evs cs b q os p e open pl Hb Hq Hos He Hsp. destruct (session_two s evs cs b q os p _ Hb Hos) as (Hd & Hm & Hnext).
  set (E := Env s (enough_fuel (fst (supplied evs)))) in *. assert (Hf : (length (fst (supplied evs)) < fuel E)%nat) by (cbn; unfold enough_fuel; lia).
  assert (Hspot : d_spot (snd (d_calls E (snd (supplied evs)) cs (DRun (rstate_new s) None (fst (supplied evs))))) (Some (open, pl))).
  { apply (spot_calls E (snd (supplied evs)) cs _ first_spot os (open, pl)); [|exact Hm|exact Hsp]. cbn. unfold at_spot. cbn. auto. }
  destruct (snd (d_calls E (snd (supplied evs)) cs (DRun (rstate_new s) None (fst (supplied evs))))) as [s1 rd r1|h| | |] eqn:Eds; try contradiction.
  destruct Hd as (Hi & _). destruct Hspot as (_ & Hpl). cbn [snd] in Hpl. destruct (Hnext s1 rd r1 eq_refl) as (-> & kn & st' & a' & Hrun & Hmo).
  destruct (look_failed E _ _ q s1 None r1 kn pl e _ st' a' Hf Hi Hpl Hq Hmo He Hrun) as (Hpk & t1 & F & e' & He' & HF & Hr & Hpos). injection He' as <-.
  destruct (located_at _ s1 r1 E b Hi) as (pre & Hpre & Hbeh & Herr). rewrite (ahead_none _ _ Hpk) in *.
  exists pre, r1, t1, F. splits; auto. destruct (next_error_text _ _ _ _ _ _ HF) as (rest & Hrest). rewrite Hpos. exact (Herr t1 rest Hrest (next_error_valid _ _ _ _ _ _ HF)).
Qed.

Lemma C32_trailing_data_errors_holds : forall (s : settings) (evs : list event) (cs : list rcall) (b : bool) (c : rcall) (os : list outcome) (v : rvalue) (p : position) (e : reader_error),
  Forall is_byte (fst (supplied evs)) ->
  In c [CEndArray; CEndObject; CNextString; CNextStr; CNextNumberStr; CNextNumberString; CNextBool; CNextNull] ->
  read_session s evs (cs ++ [c; CPosition b; CConsumeTrailingWhitespace]) = os ++ [OOk v; OOk (RPos p); OErr e] ->
  exists pre rest t1 F, fst (supplied evs) = pre ++ rest /\ is_behind p pre /\
    (let sx := Syntax (allow_comments s) (allow_trailing_comma s) in
     ws_error sx None rest t1 F \/
     ws_text sx t1 /\ F = FSyntax TrailingData /\ exists x, rest = t1 ++ x /\ token_start x) /\
    reports (snd (supplied evs)) F e /\ is_behind (error_position e) (pre ++ t1).
Proof.
  intros s evs cs b c os v p e Hb Hc Hos. destruct (session_three s evs cs c b _ os v p _ Hb Hos) as (d & Hd & Hm & Hnext).
  set (E := Env s (enough_fuel (fst (supplied evs)))) in *. assert (Hf : (length (fst (supplied evs)) < fuel E)%nat) by (cbn; unfold enough_fuel; lia).
  destruct (nothing_peeked E _ (snd (supplied evs)) d c v Hf Hd Hc Hm) as (s1 & r1 & Hd1 & Hi & Hp).
  destruct (Hnext _ _ _ Hd1) as (-> & kn & st' & a' & Hrun & Hmo).
  destruct (consume_outcome E _ _ s1 r1 kn e st' a' Hf Hi Hrun) as (t1 & F & HF & Hv & Hr & Hpos).
  destruct (located_at _ s1 r1 E b Hi) as (pre & Hpre & Hbeh & Herr). rewrite (ahead_none _ _ Hp) in *.
  exists pre, r1, t1, F. splits; auto. rewrite Hpos. destruct Hv as (Hv & rest & Hrest). exact (Herr t1 rest Hrest Hv).
Qed.

(** ** Failed string readers *)
Lemma dead_after_read_error E t len d e : matches (OReadErr e) (fst (d_call E t (CRead len) d)) -> snd (d_call E t (CRead len) d) = DDead true.
Proof.
  destruct d as [s1 rd r|held| | |]; cbn [d_call d_call_run d_call_dead].
  - unfold d_run_read. destruct rd as [sv|]; [|discriminate]. destruct (d_sv_read E len sv s1 r) as [[bs sv'] s' r'|e' s' r'|[n|]| |]; cbn; try discriminate; try contradiction.
    reflexivity.
  - destruct held; cbn; [reflexivity|discriminate].
  - discriminate.
  - discriminate.
  - contradiction.
Qed.

Lemma dead_reads E t lens : d_calls E t (map CRead lens) (DDead true) = (map (fun _ => DOut (OReadErr SvPreviousError)) lens, DDead true).
Proof. induction lens as [|n lens IH]; [reflexivity|]. cbn [map d_calls d_call d_call_dead]. rewrite IH. reflexivity. Qed.

Lemma matches_previous (A : Type) os (lens : list A) : Forall2 matches os (map (fun _ => DOut (OReadErr SvPreviousError)) lens) ->
  os = map (fun _ => OReadErr SvPreviousError) lens.
Proof.
  revert os. induction lens as [|n lens IH]; intros os H; inversion H; subst; cbn [map]; [reflexivity|]. f_equal; [assumption|]. apply IH. assumption.
Qed.


Lemma C08_string_reader_errors_sticky_holds : forall (s : settings) (evs : list event) (cs : list rcall) (len : nat) (os : list outcome) (e : ReaderModel.sv_read_error) (lens : list nat),
  Forall is_byte (fst (supplied evs)) ->
  read_session s evs (cs ++ [CRead len]) = os ++ [OReadErr e] ->
  let failed := os ++ OReadErr e :: map (fun _ => OReadErr SvPreviousError) lens in
  read_session s evs (cs ++ CRead len :: map CRead lens) = failed /\
  forall c, (forall n, c <> CRead n) -> (forall b, c <> CPosition b) -> c <> CSeekBack [] ->
    read_session s evs (cs ++ CRead len :: map CRead lens ++ [c]) = failed ++ [OPanic Misuse].
Proof.
  intros s evs cs len os e lens Hb Hos. cbv zeta.
  assert (Hlen : length os = length cs).
  { destruct (session_split s evs cs [CRead len] _ Hb Hos) as (_ & _ & Hl). rewrite !app_length in Hl. cbn in Hl. lia. }
  assert (Hdead : snd (d_calls (Env s (enough_fuel (fst (supplied evs)))) (snd (supplied evs)) (cs ++ [CRead len])
    (DRun (rstate_new s) None (fst (supplied evs)))) = DDead true).
  { destruct (session_tail s evs cs [CRead len] os [OReadErr e] Hb Hos eq_refl) as (_ & Hm).
    rewrite d_calls_app. cbn [snd d_calls] in *. set (d := snd (d_calls _ _ cs _)) in *. set (E := Env _ _) in *.
    pose proof (dead_after_read_error E (snd (supplied evs)) len d e) as Hx. destruct (d_call E (snd (supplied evs)) (CRead len) d) as [o d1].
    cbn [fst snd d_calls] in *. inversion Hm; subst. apply Hx. assumption. }
  assert (Hgen : forall more, exists rs, read_session s evs (cs ++ CRead len :: more) = os ++ OReadErr e :: rs /\
    Forall2 matches rs (fst (d_calls (Env s (enough_fuel (fst (supplied evs)))) (snd (supplied evs)) more (DDead true)))).
  { intros more. destruct (session_prefix s evs (cs ++ [CRead len]) more Hb) as (rs & Hrs). rewrite Hos in Hrs.
    exists rs. pose proof Hrs as Hrs'. rewrite <- !app_assoc in Hrs'. cbn [app] in Hrs'. split; [exact Hrs'|].
    assert (Hl : length rs = length more).
    { destruct (session_split s evs (cs ++ [CRead len]) more _ Hb Hrs) as (_ & _ & Hl). rewrite !app_length in Hl. cbn in Hl. lia. }
    destruct (session_tail s evs (cs ++ [CRead len]) more _ rs Hb Hrs Hl) as (_ & Hm). rewrite Hdead in Hm. exact Hm. }
  split.
  - destruct (Hgen (map CRead lens)) as (rs & Hrs & Hm). rewrite dead_reads in Hm. rewrite Hrs. rewrite (matches_previous _ _ _ Hm). reflexivity.
  - intros c H1 H2 H3. destruct (Hgen (map CRead lens ++ [c])) as (rs & Hrs & Hm). rewrite d_calls_app, dead_reads in Hm. cbn [fst snd] in Hm.
    apply Forall2_app_inv_r in Hm as (r1 & r2 & Hm1 & Hm2 & ->). rewrite Hrs, (matches_previous _ _ _ Hm1).
    assert (Hr2 : r2 = [OPanic Misuse]).
    { cbn [d_calls d_call] in Hm2. destruct (d_call_dead c true) as [o d1] eqn:Ec. cbn [fst] in Hm2. inversion Hm2 as [|x y l l' Hxy Hl]; subst. inversion Hl; subst.
      f_equal. destruct c as [ | | | | | | | | | | | |n| | | | | |p|p| |b| ]; cbn in Ec; try (injection Ec as <- <-; exact Hxy).
      - destruct (H1 n eq_refl).
      - destruct p; [destruct (H3 eq_refl)|]. injection Ec as <- <-. exact Hxy.
      - destruct (H2 b eq_refl). }
    subst r2. rewrite <- app_assoc. reflexivity.
Qed.
