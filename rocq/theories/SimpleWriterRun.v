(** * Simple writer: which document is written *)

From Verif Require Import Base Utf8Model Utf8Proofs SpecNumber SpecJson WriterModel SpecWriter Utf8Prefix WriterSession WriterRun WriterMore
  SimpleWriterModel SpecSimpleWriter SimpleWriterErrors.
From Verif Require SerModel SpecSer SerRun.

Fixpoint prog_run {A} (cfg : wsettings) (m : prog A) (s : wsession) : A * wsession :=
  match m with
  | PDone a => (a, s)
  | PCall c k => let (r, s') := wstep cfg c s in prog_run cfg (k r) s'
  end.

Lemma prog_run_bind {A B} cfg (m : prog A) (f : A -> prog B) : forall s,
  prog_run cfg (pbind m f) s = prog_run cfg (f (fst (prog_run cfg m s))) (snd (prog_run cfg m s)).
Proof.
  induction m as [a|c k IH]; intros s; [reflexivity|]. cbn [pbind prog_run]. destruct (wstep cfg c s) as [r s']. apply IH.
Qed.

(** If the code ends normally and without stored error, then [Q] *)
Definition wp {A} (cfg : wsettings) (m : sw A) (s : wsession) (Q : A -> wsession -> Prop) : Prop :=
  match prog_run cfg (m None) s with
  | (ERet a, None, s') => Q a s'
  | _ => True
  end.
(** The code ends normally and without stored error, and [Q] *)
Definition twp {A} (cfg : wsettings) (m : sw A) (s : wsession) (Q : A -> wsession -> Prop) : Prop :=
  exists a s', prog_run cfg (m None) s = (ERet a, None, s') /\ Q a s'.

Lemma wp_ret {A} cfg (a : A) s (Q : A -> wsession -> Prop) : Q a s -> wp cfg (swret a) s Q.
Proof. intros H. exact H. Qed.
Lemma wp_bind {A B} cfg (m : sw A) (f : A -> sw B) s (Q : B -> wsession -> Prop) : (forall a, quiet anything (f a)) ->
  wp cfg m s (fun a s' => wp cfg (f a) s' Q) -> wp cfg (swbind m f) s Q.
Proof.
  intros Hq H. unfold wp, swbind in *. rewrite prog_run_bind. destruct (prog_run cfg (m None) s) as [[x err] s']. cbn [fst snd].
  destruct x as [a| | |]; try exact I. destruct err as [e|].
  - destruct (Hq a e) as (b & E & _). rewrite E. exact I.
  - exact H.
Qed.
Lemma wp_mono {A} cfg (m : sw A) s (Q Q' : A -> wsession -> Prop) : wp cfg m s Q -> (forall a s', Q a s' -> Q' a s') -> wp cfg m s Q'.
Proof. unfold wp. destruct (prog_run cfg (m None) s) as [[[a| | |] [e|]] s']; auto. Qed.
Lemma twp_ret {A} cfg (a : A) s (Q : A -> wsession -> Prop) : Q a s -> twp cfg (swret a) s Q.
Proof. intros H. exists a, s. split; [reflexivity|exact H]. Qed.
Lemma twp_bind {A B} cfg (m : sw A) (f : A -> sw B) s (Q : B -> wsession -> Prop) :
  twp cfg m s (fun a s' => twp cfg (f a) s' Q) -> twp cfg (swbind m f) s Q.
Proof.
  intros (a & s' & E & b & s'' & E2 & H). exists b, s''. split; [|exact H]. unfold swbind. rewrite prog_run_bind, E. exact E2.
Qed.
Lemma twp_mono {A} cfg (m : sw A) s (Q Q' : A -> wsession -> Prop) : twp cfg m s Q -> (forall a s', Q a s' -> Q' a s') -> twp cfg m s Q'.
Proof. intros (a & s' & E & H) H2. exists a, s'. auto. Qed.

(** ** Single calls *)

Lemma wp_delegate cfg c d s (Q : wresulting -> wsession -> Prop) : sess_ok cfg d s -> valid_call c ->
  (forall d' s', describes (multi_top_level cfg) d c d' -> success c RDone -> sess_ok cfg d' s' -> Q None s') ->
  wp cfg (delegate c) s Q.
Proof.
  intros Hok Hv H. unfold wp, delegate. cbn [prog_run]. pose proof (step_outcome cfg d s c Hok Hv) as Ho.
  destruct (wstep cfg c s) as [r s'].
  destruct r; cbn [prog_run]; try exact I.
  - destruct Ho as [(d' & Hd & [(Hs & Hk & _)|(e & He & _)])|[(_ & Ho)|[(_ & e & Ho & _)|[(_ & _ & Ho)|(_ & Ho & _)]]]]; try discriminate.
    eapply H; eauto.
  - destruct (number_method c); exact I.
Qed.
Lemma wp_delegate_write cfg bs d s (Q : swerr + nat -> wsession -> Prop) : sess_ok cfg d s -> Forall is_byte bs ->
  (forall d' s', describes (multi_top_level cfg) d (CWrite bs) d' -> sess_ok cfg d' s' -> Q (inr (length bs)) s') ->
  wp cfg (delegate_write bs) s Q.
Proof.
  intros Hok Hv H. unfold wp, delegate_write. cbn [prog_run]. pose proof (step_outcome cfg d s (CWrite bs) Hok Hv) as Ho.
  destruct (wstep cfg (CWrite bs) s) as [r s'].
  destruct r; cbn [prog_run]; try exact I.
  destruct Ho as [(d' & Hd & [(Hs & Hk & _)|(e & He & _)])|[(_ & Ho)|[(_ & e & Ho & _)|[(_ & _ & Ho)|(_ & Ho & _)]]]]; try discriminate.
  cbn in Hs. injection Hs as ->. eapply H; eauto.
Qed.

(** A described call succeeds. *)
Definition fine (cfg : wsettings) (d : wdoc) (s : wsession) : Prop := sess_ok cfg d s /\ sess_good s.

Lemma twp_delegate cfg c d d' s (Q : wresulting -> wsession -> Prop) : fine cfg d s -> valid_call c ->
  describes (multi_top_level cfg) d c d' -> ~ malformed d c -> success c RDone ->
  (forall s', fine cfg d' s' -> Q None s') -> twp cfg (delegate c) s Q.
Proof.
  intros [Hok Hg] Hv Hd Hm Hs H.
  destruct (step_described cfg d s c d' Hok Hv Hd Hm) as [(Hs' & Hk & Hg')|(e & _ & _ & Hb & _)]; [|contradiction].
  unfold twp, delegate. cbn [prog_run]. destruct (wstep cfg c s) as [r s']. cbn [fst snd] in *.
  assert (r = RDone) as ->.
  { destruct c as [| | | | | | | | |[v|]| | | | | |]; cbn in Hs, Hs'; try congruence. destruct Hs' as [[_ E]|[Hn _]]; [exact E|].
    destruct Hs as [[Hy _]|[_ E]]; [contradiction|discriminate]. }
  cbn. exists None, s'. split; [reflexivity|]. apply H. split; auto.
Qed.
Lemma twp_delegate_write cfg bs d d' s (Q : swerr + nat -> wsession -> Prop) : fine cfg d s -> Forall is_byte bs ->
  describes (multi_top_level cfg) d (CWrite bs) d' -> ~ malformed d (CWrite bs) ->
  (forall s', fine cfg d' s' -> Q (inr (length bs)) s') -> twp cfg (delegate_write bs) s Q.
Proof.
  intros [Hok Hg] Hv Hd Hm H.
  destruct (step_described cfg d s (CWrite bs) d' Hok Hv Hd Hm) as [(Hs' & Hk & Hg')|(e & _ & _ & Hb & _)]; [|contradiction].
  unfold twp, delegate_write. cbn [prog_run]. destruct (wstep cfg (CWrite bs) s) as [r s']. cbn [fst snd] in *.
  cbn in Hs'. subst r. cbn. exists (inr (length bs)), s'. split; [reflexivity|]. apply H. split; auto.
Qed.

(** ** What runs without stored error describes a document *)

(** A state from which the containers outside of level [L] cannot be completed *)
Definition lost (L : nat) (d : wdoc) : Prop := (L < length (d_open d))%nat \/ d_string d <> None.

Lemma add_value_open v d : length (d_open (add_value v d)) = length (d_open d).
Proof. unfold add_value. destruct (d_open d) as [|[items|ms [n|]] o] eqn:E; cbn; try reflexivity. rewrite E. reflexivity. Qed.
Lemma lost_less L L' d : (L' <= L)%nat -> lost L d -> lost L' d.
Proof. unfold lost. intros H [H1|H1]; [left; lia|right; exact H1]. Qed.

Ltac quiets := intros; try (eapply quiet_bind; [apply delegate_strict|]); intros;
  repeat match goal with
  | |- quiet _ (match ?x with _ => _ end) => destruct x
  | |- quiet _ (swret _) => apply quiet_ret; exact I
  | |- quiet _ (swbind (delegate _) _) => eapply quiet_bind; [apply delegate_strict|intros]
  | |- quiet _ (swbind not_propagated _) => eapply quiet_bind; [apply not_propagated_strict|intros]
  end.

Lemma quiet_sbody {R} (b : sbody R) : quiet anything (run_sbody b).
Proof. apply run_sbody_strict. Qed.
Lemma quiet_abody {R} (b : abody R) : quiet anything (run_abody b).
Proof. apply run_quiet. Qed.
Lemma quiet_obody {R} (b : obody R) : quiet anything (run_obody b).
Proof. apply run_quiet. Qed.
Lemma quiet_wop {R} (o : wop R) : quiet anything (run_wop o).
Proof. intros e. destruct (run_wop_quiet o e) as (a & E & _). exists a. split; [exact E|exact I]. Qed.

Lemma wp_sbody {R} cfg top o (f : sbody R) : forall acc s, valid_sbody f -> sess_ok cfg (Wdoc top o (Some acc)) s ->
  wp cfg (run_sbody f) s (fun x s' => exists acc', string_described acc f acc' (fst x) (snd x) /\ sess_ok cfg (Wdoc top o (Some acc')) s').
Proof.
  induction f as [r e|bs k IH|t k IH|k IH]; intros acc s Hv Hok; cbn [run_sbody].
  - apply wp_ret. exists acc. split; [constructor|exact Hok].
  - destruct Hv as [Hb Hv]. apply wp_bind; [intros; apply quiet_sbody|]. eapply wp_delegate_write; [exact Hok|exact Hb|].
    intros d' s' Hd Hok'. inversion Hd; subst. cbn in *. injection H0 as <-.
    eapply wp_mono; [apply IH; [apply Hv|exact Hok']|]. intros x s2 (acc2 & Hx1 & Hx2). exists acc2. split; [constructor; exact Hx1|exact Hx2].
  - destruct Hv as [Hb Hv]. apply wp_bind; [intros; apply quiet_sbody|]. eapply wp_delegate; [exact Hok|exact Hb|].
    intros d' s' Hd _ Hok'. inversion Hd; subst. cbn in *. injection H0 as <-.
    eapply wp_mono; [apply IH; [apply Hv|exact Hok']|]. intros x s2 (acc2 & Hx1 & Hx2). exists acc2. split; [constructor; assumption|exact Hx2].
  - apply wp_bind; [intros; apply quiet_sbody|]. eapply wp_delegate; [exact Hok|exact I|].
    intros d' s' Hd _ Hok'. inversion Hd; subst. cbn in *.
    eapply wp_mono; [apply IH; [apply Hv|exact Hok']|]. intros x s2 (acc2 & Hx1 & Hx2). exists acc2. split; [constructor; assumption|exact Hx2].
Qed.

(** The serializer *)
Lemma prog_run_ser {A} cfg (m : prog A) : forall s, prog_run cfg m s = SerModel.ser_run cfg m s.
Proof. induction m as [a|c k IH]; intros s; [reflexivity|]. cbn. destruct (wstep cfg c s) as [r s']. apply IH. Qed.

Lemma wp_serialize cfg v d s (Q : wresulting -> wsession -> Prop) : SpecSer.valid_sval v -> SpecSer.careful v -> sess_ok cfg d s ->
  (forall j s', SpecSer.value_means v (SpecSer.Gives j) -> value_allowed (multi_top_level cfg) d -> sess_ok cfg (add_value j d) s' -> Q None s') ->
  wp cfg (delegate_serialize v) s Q.
Proof.
  intros Hv Hc Hok H. unfold wp, delegate_serialize. rewrite prog_run_bind, (prog_run_ser cfg (SerModel.ser_value v)).
  destruct (SerRun.value_allowed_dec (multi_top_level cfg) d) as [Ha|Ha].
  - destruct (proj1 SerRun.means_total v Hc) as (o & Ho).
    destruct (proj1 (SerRun.run_means cfg) v o Ho Hv d s Ha Hok (or_introl Hc)) as [Hit|(_ & e & s' & E)].
    + destruct o as [j|e|].
      * destruct Hit as (s' & E & Hok' & _). rewrite E. cbn [fst snd prog_run]. eapply H; eauto.
      * destruct Hit as (s' & E). rewrite E. exact I.
      * destruct Hit as (s' & E). rewrite E. exact I.
    + rewrite E. exact I.
  - pose proof (SerRun.blocked_not_done cfg v Hv s (SerRun.not_allowed_blocked cfg d s Hok Ha)) as Hn. unfold SerRun.not_done in Hn.
    destruct (SerModel.ser_run cfg (SerModel.ser_value v) s) as [x s']. cbn [fst snd] in *.
    destruct x as [[[]|e]| | |]; cbn [prog_run]; try exact I. contradiction Hn. reflexivity.
Qed.

Lemma twp_serialize cfg v j d s (Q : wresulting -> wsession -> Prop) : SpecSer.valid_sval v -> SpecSer.value_means v (SpecSer.Gives j) ->
  value_allowed (multi_top_level cfg) d -> sess_ok cfg d s -> sess_good s ->
  (forall s', sess_ok cfg (add_value j d) s' -> sess_good s' -> Q None s') -> twp cfg (delegate_serialize v) s Q.
Proof.
  intros Hv Hm Ha Hok Hg H. unfold twp, delegate_serialize. rewrite prog_run_bind, (prog_run_ser cfg (SerModel.ser_value v)).
  destruct (proj1 (SerRun.run_means cfg) v _ Hm Hv d s Ha Hok (or_intror Hg)) as [(s' & E & Hok' & Hg')|(Hb & _)]; [|contradiction].
  rewrite E. cbn [fst snd prog_run]. do 2 eexists. split; [reflexivity|]. eauto.
Qed.

(** The string as a whole *)
Lemma wp_string_with {R} cfg (f : sbody R) d s : valid_sbody f -> sess_ok cfg d s ->
  wp cfg (write_string_with f) s (fun x s' => value_allowed (multi_top_level cfg) d /\
    ((snd x = None /\ exists v, value_described (WStringWith f) v (fst x) /\ sess_ok cfg (add_value v d) s') \/
     (snd x <> None /\ exists acc, sess_ok cfg (Wdoc (d_top d) (d_open d) (Some acc)) s'))).
Proof.
  intros Hv Hok. unfold write_string_with. apply wp_bind.
  { intros [e|]; [apply quiet_ret; exact I|]. eapply quiet_bind; [apply quiet_sbody|]. intros. quiets. }
  eapply wp_delegate; [exact Hok|exact I|]. intros d' s' Hd _ Hok'. inversion Hd as [| | | | | | | | | | | | |Ha| | | |]; subst.
  apply wp_bind. { intros. quiets. }
  eapply wp_mono; [eapply wp_sbody; [exact Hv|exact Hok']|]. intros [r e] s2 (acc & Hs & Hok2). cbn [fst snd] in *.
  destruct e as [e|].
  - apply wp_ret. split; [exact Ha|]. right. split; [discriminate|]. exists acc. exact Hok2.
  - change (wp cfg (swbind (delegate CFinishValue) (fun e'' => swret (Some r, e''))) s2
      (fun x s' => value_allowed (multi_top_level cfg) d /\
        ((snd x = None /\ exists v, value_described (WStringWith f) v (fst x) /\ sess_ok cfg (add_value v d) s') \/
         (snd x <> None /\ exists acc, sess_ok cfg (Wdoc (d_top d) (d_open d) (Some acc)) s')))).
    apply wp_bind; [intros; quiets|]. eapply wp_delegate; [exact Hok2|exact I|].
    intros d' s3 Hd3 _ Hok3. inversion Hd3 as [| | | | | | | | | | | | | | | | |acc0 t E1 E2]; subst. cbn in E1. injection E1 as <-. apply wp_ret.
    split; [exact Ha|]. left. split; [reflexivity|]. exists (JStr t). split; [econstructor; eassumption|].
    cbn [d_top d_open] in Hok3. destruct d as [top o st]. destruct Ha as [Hst Ha]. cbn in Hst, Hok3 |- *. subst st. exact Hok3.
Qed.

(** Values which are written with one call *)
Lemma wp_simple {R} cfg (o : wop R) c d s : sess_ok cfg d s -> valid_call c ->
  (forall d', describes (multi_top_level cfg) d c d' -> success c RDone ->
     exists v, value_described o v None /\ value_allowed (multi_top_level cfg) d /\ d' = add_value v d) ->
  wp cfg (@write_simple R c) s (fun x s' => value_allowed (multi_top_level cfg) d /\
    snd x = None /\ exists v, value_described o v (fst x) /\ sess_ok cfg (add_value v d) s').
Proof.
  intros Hok Hv H. unfold write_simple. apply wp_bind; [intros; quiets|]. eapply wp_delegate; [exact Hok|exact Hv|].
  intros d' s' Hd Hs Hok'. destruct (H d' Hd Hs) as (v & Hdv & Ha & ->). apply wp_ret. splits; auto. exists v. auto.
Qed.

Lemma lost_value L v d : lost L d -> d_string d = None -> lost L (add_value v d).
Proof. intros [H|H] E; [left; rewrite add_value_open; exact H|contradiction]. Qed.

Lemma wp_container {R} cfg c c' (m : sw (R * wresulting)) s (Q : option R * wresulting -> wsession -> Prop) : quiet anything m ->
  wp cfg (delegate c) s (fun e s1 => e = None /\ wp cfg m s1 (fun re s2 =>
     match snd re with
     | Some e => Q (Some (fst re), Some e) s2
     | None => wp cfg (delegate c') s2 (fun e s3 => Q (Some (fst re), e) s3)
     end)) -> wp cfg (write_container c c' m) s Q.
Proof.
  intros Hm H. unfold write_container. apply wp_bind.
  { intros [e|]; [apply quiet_ret; exact I|]. eapply quiet_bind; [exact Hm|]. intros. quiets. }
  eapply wp_mono; [exact H|]. intros e s1 [-> H1]. apply wp_bind; [intros; quiets|].
  eapply wp_mono; [exact H1|]. intros [r [e|]] s2 H2; cbn [fst snd] in *; [exact H2|].
  apply wp_bind; [intros; quiets|]. exact H2.
Qed.

Definition simple_cases {R} (o : wop R) (c : wcall) : Prop :=
  forall multi d d', describes multi d c d' -> success c RDone ->
     exists v, value_described o v None /\ value_allowed multi d /\ d' = add_value v d.
Lemma simple_null {R} : simple_cases (@WNull R) CNull.
Proof. intros multi d d' H _. inversion H; subst. exists JNull. splits; auto. constructor. Qed.
Lemma simple_bool {R} b : simple_cases (@WBool R b) (CBool b).
Proof. intros multi d d' H _. inversion H; subst. exists (JBool b). splits; auto. constructor. Qed.
Lemma simple_string {R} t : simple_cases (@WString R t) (CString t).
Proof. intros multi d d' H _. inversion H; subst. exists (JStr t). splits; auto. constructor. Qed.
Lemma simple_number {R} z : simple_cases (@WNumber R z) (CNumber z).
Proof. intros multi d d' H _. inversion H; subst. exists (JNum t). splits; auto. constructor. assumption. Qed.
Lemma simple_float {R} v : simple_cases (@WFloat R v) (CFloat v).
Proof.
  intros multi d d' H Hs. inversion H; subst; [|discriminate]. exists (JNum (encode_utf8 s)). splits; auto. constructor. assumption.
Qed.
Lemma simple_number_string {R} v : simple_cases (@WNumberString R v) (CNumberFromString v).
Proof.
  intros multi d d' H Hs. inversion H; subst.
  - exists (JNum (encode_utf8 v)). splits; auto. constructor. assumption.
  - destruct Hs as [[Hn _]|[_ E]]; [contradiction|discriminate].
Qed.

(** From a lost state there is no way back. *)
Definition stays_lost {R X} (cfg : wsettings) (m : sw (X * R)) : Prop := forall L d s, sess_ok cfg d s -> lost L d ->
  wp cfg m s (fun _ s' => exists d', sess_ok cfg d' s' /\ lost L d').

Lemma simple_lost {R} cfg (o : wop R) c : valid_call c -> simple_cases o c -> stays_lost cfg (@write_simple R c).
Proof.
  intros Hv Hc L d s Hok Hl. eapply wp_mono; [eapply (wp_simple cfg o); eauto|].
  intros x s' (Ha & _ & v & _ & Hok'). exists (add_value v d). split; [exact Hok'|]. apply lost_value; [exact Hl|apply Ha].
Qed.

Lemma container_lost {R} cfg c c' (m : sw (R * wresulting)) : (c = CBeginArray /\ c' = CEndArray \/ c = CBeginObject /\ c' = CEndObject) ->
  quiet anything m -> stays_lost cfg m -> stays_lost cfg (write_container c c' m).
Proof.
  intros Hc Hq Hm L d s Hok Hl. apply wp_container; [exact Hq|].
  assert (Hvc : valid_call c) by (destruct Hc as [[-> ->]|[-> ->]]; exact I).
  assert (Hvc' : valid_call c') by (destruct Hc as [[-> ->]|[-> ->]]; exact I).
  eapply wp_delegate; [exact Hok|exact Hvc|]. intros d1 s1 Hd _ Hok1. split; [reflexivity|].
  assert (H1 : lost (S L) d1).
  { assert (Hn : d_string d = None) by (destruct Hc as [[-> ->]|[-> ->]]; inversion Hd as [| | | | | | | |Ha|Ha| | | | | | | |]; subst; apply Ha).
    destruct Hl as [Hl|Hl]; [|contradiction]. left. destruct Hc as [[-> ->]|[-> ->]]; inversion Hd; subst; cbn; lia. }
  eapply wp_mono; [eapply Hm; eauto|]. intros [r [e|]] s2 (d2 & Hok2 & Hl2); cbn [fst snd].
  - exists d2. split; [exact Hok2|]. eapply lost_less; [|exact Hl2]. lia.
  - eapply wp_delegate; [exact Hok2|exact Hvc'|]. intros d3 s3 Hd3 _ Hok3. exists d3. split; [exact Hok3|].
    left. destruct Hc as [[-> ->]|[-> ->]]; inversion Hd3; subst; rewrite add_value_open; cbn [d_open].
    + destruct Hl2 as [Hl2|Hl2]; [|contradiction]. rewrite H0 in Hl2. cbn in Hl2. lia.
    + destruct Hl2 as [Hl2|Hl2]; [|contradiction]. rewrite H0 in Hl2. cbn in Hl2. lia.
Qed.

Lemma run_lost R cfg :
  (forall o : wop R, valid_wop o -> careful_wop o -> stays_lost cfg (run_wop o)) /\
  (forall b : abody R, valid_abody b -> careful_abody b -> stays_lost cfg (run_abody b)) /\
  (forall b : obody R, valid_obody b -> careful_obody b -> stays_lost cfg (run_obody b)) /\
  (forall m : member R, valid_member m -> careful_member m -> stays_lost cfg (run_member m)) /\
  (forall b : mbody R, valid_mbody b -> careful_mbody b -> stays_lost cfg (run_mbody b)).
Proof.
  apply wop_all_ind; cbn [run_wop run_abody run_obody run_member run_mbody valid_wop valid_abody valid_obody valid_member valid_mbody
    careful_wop careful_abody careful_obody careful_member careful_mbody].
  - intros _ _. apply (simple_lost cfg WNull); [exact I|apply simple_null].
  - intros b _ _. apply (simple_lost cfg (WBool b)); [exact I|apply simple_bool].
  - intros t Hv _. apply (simple_lost cfg (WString t)); [exact Hv|apply simple_string].
  - intros z _ _. apply (simple_lost cfg (WNumber z)); [exact I|apply simple_number].
  - intros v Hv _. apply (simple_lost cfg (WFloat v)); [exact Hv|apply simple_float].
  - intros t Hv _. apply (simple_lost cfg (WNumberString t)); [exact Hv|apply simple_number_string].
  - intros f Hv _ L d s Hok Hl. eapply wp_mono; [eapply wp_string_with; eauto|].
    intros x s' (Ha & [(_ & v & _ & Hok')|(_ & acc & Hok')]).
    + exists (add_value v d). split; [exact Hok'|]. apply lost_value; [exact Hl|apply Ha].
    + eexists. split; [exact Hok'|]. right. discriminate.
  - intros f IH Hv Hc. apply container_lost; [auto|apply quiet_abody|auto].
  - intros f IH Hv Hc. apply container_lost; [auto|apply quiet_obody|auto].
  - intros v Hv Hc L d s Hok Hl. apply wp_bind; [intros; quiets|]. eapply wp_serialize; [exact Hv|exact Hc|exact Hok|].
    intros j s' _ Ha Hok'. apply wp_ret. exists (add_value j d). split; [exact Hok'|]. apply lost_value; [exact Hl|apply Ha].
  - intros r e _ _ L d s Hok Hl. apply wp_ret. eauto.
  - intros o IHo k IHk [Hv Hk] [Hc Hkc] L d s Hok Hl. apply wp_bind; [intros; apply quiet_abody|].
    eapply wp_mono; [eapply IHo; eauto|]. intros [x e] s' (d' & Hok' & Hl'). eapply IHk; eauto.
  - intros r e _ _ L d s Hok Hl. apply wp_ret. eauto.
  - intros o IHo k IHk [Hv Hk] [Hc Hkc] L d s Hok Hl. apply wp_bind; [intros; apply quiet_obody|].
    eapply wp_mono; [eapply IHo; eauto|]. intros [x e] s' (d' & Hok' & Hl'). eapply IHk; eauto.
  - intros n o IHo [Hn Hv] Hc L d s Hok Hl. apply wp_bind. { intros [e|]; [apply quiet_ret; exact I|apply quiet_wop]. }
    eapply wp_delegate; [exact Hok|exact Hn|]. intros d' s' Hd _ Hok'. eapply IHo; eauto.
    inversion Hd; subst. destruct Hl as [Hl|Hl]; [|contradiction]. left. rewrite H1 in Hl. exact Hl.
  - intros n f IHf [Hn Hv] Hc L d s Hok Hl. apply wp_bind.
    { intros [e|]; [apply quiet_ret; exact I|]. eapply quiet_bind; [apply run_quiet|]. intros. quiets. }
    eapply wp_delegate; [exact Hok|exact Hn|]. intros d' s' Hd _ Hok'. apply wp_bind; [intros; quiets|].
    eapply wp_mono; [eapply IHf; [exact Hv|exact Hc|exact Hok'|]|].
    { inversion Hd; subst. destruct Hl as [Hl|Hl]; [|contradiction]. left. rewrite H1 in Hl. exact Hl. }
    intros [[r [e|]] w] s2 (d2 & Hok2 & Hl2); cbn [fst snd].
    + apply wp_ret. eauto.
    + destruct w; cbn [negb]; [apply wp_ret; eauto|]. apply wp_bind; [intros; quiets|]. eapply wp_delegate; [exact Hok2|exact I|].
      intros d3 s3 Hd3 _ Hok3. apply wp_ret. exists d3. split; [exact Hok3|]. inversion Hd3 as [Ha| | | | | | | | | | | | | | | | |]; subst.
      apply lost_value; [exact Hl2|apply Ha].
  - intros r e _ _ L d s Hok Hl. apply wp_ret. eauto.
  - intros o IHo k Hv Hc L d s Hok Hl. apply wp_bind; [intros; quiets|]. eapply wp_mono; [eapply IHo; eauto|].
    intros x s' H. apply wp_ret. exact H.
Qed.

(** ** A method run in a sound state *)

Definition value_post {R} (cfg : wsettings) (o : wop R) (d : wdoc) (x : option R * wresulting) (s' : wsession) : Prop :=
  value_allowed (multi_top_level cfg) d /\
  ((snd x = None /\ exists v, value_described o v (fst x) /\ sess_ok cfg (add_value v d) s') \/
   (exists d', sess_ok cfg d' s' /\ lost (length (d_open d)) d')).
Definition items_post {R} (cfg : wsettings) (b : abody R) top items o (x : R * wresulting) (s' : wsession) : Prop :=
  (exists vs, items_described b vs (fst x) (snd x) /\ sess_ok cfg (Wdoc top (OpenArr (items ++ vs) :: o) None) s') \/
  (exists d', sess_ok cfg d' s' /\ lost (S (length o)) d').
Definition pending_state (cfg : wsettings) top o (s' : wsession) : Prop :=
  exists ms n, sess_ok cfg (Wdoc top (OpenObj ms (Some n) :: o) None) s'.
Definition members_post {R} (cfg : wsettings) (b : obody R) top ms o (x : R * wresulting) (s' : wsession) : Prop :=
  (exists ms', members_described b ms' (fst x) (snd x) /\ sess_ok cfg (Wdoc top (OpenObj (ms ++ ms') None :: o) None) s') \/
  (exists d', sess_ok cfg d' s' /\ lost (S (length o)) d') \/ pending_state cfg top o s'.
Definition member_post {R} (cfg : wsettings) (m : member R) top ms o (x : option R * wresulting) (s' : wsession) : Prop :=
  (exists n v, member_described m n v (fst x) (snd x) /\ sess_ok cfg (Wdoc top (OpenObj (ms ++ [(n, v)]) None :: o) None) s') \/
  (exists d', sess_ok cfg d' s' /\ lost (S (length o)) d') \/ pending_state cfg top o s'.

Lemma simple_post {R} cfg (o : wop R) c d s : valid_call c -> simple_cases o c -> sess_ok cfg d s ->
  wp cfg (@write_simple R c) s (value_post cfg o d).
Proof.
  intros Hv Hc Hok. eapply wp_mono; [eapply (wp_simple cfg o); eauto|].
  intros x s' (Ha & E & v & Hd & Hok'). split; [exact Ha|]. left. split; [exact E|]. exists v. auto.
Qed.

Lemma members_pending {R} cfg (b : obody R) top o s : valid_obody b -> pending_state cfg top o s ->
  wp cfg (run_obody b) s (fun _ s' => pending_state cfg top o s').
Proof.
  intros Hv (ms & n & Hok). destruct b as [r e|m k].
  - apply wp_ret. exists ms, n. exact Hok.
  - cbn [run_obody]. destruct Hv as [Hm _]. apply wp_bind; [intros; apply quiet_obody|].
    destruct m as [n' o'|n' f]; cbn [run_member]; destruct Hm as [Hn Hm].
    + apply wp_bind. { intros [e|]; [apply quiet_ret; exact I|apply quiet_wop]. }
      eapply wp_delegate; [exact Hok|exact Hn|]. intros d' s' Hd. inversion Hd; subst. discriminate.
    + apply wp_bind. { intros [e|]; [apply quiet_ret; exact I|]. eapply quiet_bind; [apply run_quiet|]. intros. quiets. }
      eapply wp_delegate; [exact Hok|exact Hn|]. intros d' s' Hd. inversion Hd; subst. discriminate.
Qed.

Lemma run_sound_simple R cfg :
  (forall o : wop R, valid_wop o -> careful_wop o -> forall d s, sess_ok cfg d s -> wp cfg (run_wop o) s (value_post cfg o d)) /\
  (forall b : abody R, valid_abody b -> careful_abody b -> forall top items o s, sess_ok cfg (Wdoc top (OpenArr items :: o) None) s ->
     wp cfg (run_abody b) s (items_post cfg b top items o)) /\
  (forall b : obody R, valid_obody b -> careful_obody b -> forall top ms o s, sess_ok cfg (Wdoc top (OpenObj ms None :: o) None) s ->
     wp cfg (run_obody b) s (members_post cfg b top ms o)) /\
  (forall m : member R, valid_member m -> careful_member m -> forall top ms o s, sess_ok cfg (Wdoc top (OpenObj ms None :: o) None) s ->
     wp cfg (run_member m) s (member_post cfg m top ms o)) /\
  (forall b : mbody R, valid_mbody b -> careful_mbody b -> forall n top ms o s, sess_ok cfg (Wdoc top (OpenObj ms (Some n) :: o) None) s ->
     wp cfg (run_mbody b) s (fun x s' =>
       match b with
       | MDone r e => x = (r, e, false) /\ s' = s
       | MWrite _ _ => snd x = true /\
           ((exists v, member_described (MMember n b) n v (Some (fst (fst x))) (snd (fst x)) /\
              sess_ok cfg (Wdoc top (OpenObj (ms ++ [(n, v)]) None :: o) None) s') \/
            (exists d', sess_ok cfg d' s' /\ lost (S (length o)) d'))
       end)).
Proof.
  apply wop_all_ind; cbn [run_wop run_abody run_obody run_member run_mbody valid_wop valid_abody valid_obody valid_member valid_mbody
    careful_wop careful_abody careful_obody careful_member careful_mbody].
  - intros _ _ d s. apply simple_post; [exact I|apply simple_null].
  - intros b _ _ d s. apply simple_post; [exact I|apply simple_bool].
  - intros t Hv _ d s. apply simple_post; [exact Hv|apply simple_string].
  - intros z _ _ d s. apply simple_post; [exact I|apply simple_number].
  - intros v Hv _ d s. apply simple_post; [exact Hv|apply simple_float].
  - intros t Hv _ d s. apply simple_post; [exact Hv|apply simple_number_string].
  - intros f Hv _ d s Hok. eapply wp_mono; [eapply wp_string_with; eauto|].
    intros x s' (Ha & [H|(He & acc & Hok')]); (split; [exact Ha|]); [left; exact H|right].
    eexists. split; [exact Hok'|]. right. discriminate.
  - intros f IH Hv Hc d s Hok. apply wp_container; [apply quiet_abody|]. eapply wp_delegate; [exact Hok|exact I|].
    intros d1 s1 Hd _ Hok1. split; [reflexivity|]. inversion Hd as [| | | | | | | |Ha| | | | | | | | |]; subst.
    eapply wp_mono; [eapply IH; [exact Hv|exact Hc|exact Hok1]|].
    intros [r [e|]] s2 [(vs & Hvs & Hok2)|(d2 & Hok2 & Hl2)]; cbn [fst snd] in *.
    + split; [exact Ha|]. right. eexists. split; [exact Hok2|]. left. cbn. lia.
    + split; [exact Ha|]. right. eexists. split; [exact Hok2|]. eapply lost_less; [|exact Hl2]. lia.
    + eapply wp_delegate; [exact Hok2|exact I|]. intros d3 s3 Hd3 _ Hok3. split; [exact Ha|]. left. split; [reflexivity|].
      inversion Hd3 as [| | | | | | | | | |items o E1 E2| | | | | | |]; subst. cbn in E2. injection E2 as <- <-.
      exists (JArr vs). split; [constructor; exact Hvs|]. destruct d as [top o st]. destruct Ha as [Hst _]. cbn in Hst. subst st. exact Hok3.
    + eapply wp_delegate; [exact Hok2|exact I|]. intros d3 s3 Hd3 _ Hok3. split; [exact Ha|]. right. eexists. split; [exact Hok3|]. left.
      inversion Hd3 as [| | | | | | | | | |items o E1 E2| | | | | | |]; subst. rewrite add_value_open. cbn [d_open].
      destruct Hl2 as [Hl2|Hl2]; [|contradiction]. rewrite E2 in Hl2. cbn in Hl2. lia.
  - intros f IH Hv Hc d s Hok. apply wp_container; [apply quiet_obody|]. eapply wp_delegate; [exact Hok|exact I|].
    intros d1 s1 Hd _ Hok1. split; [reflexivity|]. inversion Hd as [| | | | | | | | |Ha| | | | | | | |]; subst.
    eapply wp_mono; [eapply IH; [exact Hv|exact Hc|exact Hok1]|].
    intros [r [e|]] s2 [(vs & Hvs & Hok2)|[(d2 & Hok2 & Hl2)|(ms & n & Hok2)]]; cbn [fst snd] in *.
    + split; [exact Ha|]. right. eexists. split; [exact Hok2|]. left. cbn. lia.
    + split; [exact Ha|]. right. eexists. split; [exact Hok2|]. eapply lost_less; [|exact Hl2]. lia.
    + split; [exact Ha|]. right. eexists. split; [exact Hok2|]. left. cbn. lia.
    + eapply wp_delegate; [exact Hok2|exact I|]. intros d3 s3 Hd3 _ Hok3. split; [exact Ha|]. left. split; [reflexivity|].
      inversion Hd3 as [| | | | | | | | | | |ms o E1 E2| | | | | |]; subst. cbn in E2. injection E2 as <- <-.
      exists (JObj vs). split; [constructor; exact Hvs|]. destruct d as [top o st]. destruct Ha as [Hst _]. cbn in Hst. subst st. exact Hok3.
    + eapply wp_delegate; [exact Hok2|exact I|]. intros d3 s3 Hd3 _ Hok3. split; [exact Ha|]. right. eexists. split; [exact Hok3|]. left.
      inversion Hd3 as [| | | | | | | | | | |ms o E1 E2| | | | | |]; subst. rewrite add_value_open. cbn [d_open].
      destruct Hl2 as [Hl2|Hl2]; [|contradiction]. rewrite E2 in Hl2. cbn in Hl2. lia.
    + eapply wp_delegate; [exact Hok2|exact I|]. intros d3 s3 Hd3 _ Hok3. inversion Hd3; subst. discriminate.
  - intros v Hv Hc d s Hok. apply wp_bind; [intros; quiets|]. eapply wp_serialize; [exact Hv|exact Hc|exact Hok|].
    intros j s' Hm Ha Hok'. apply wp_ret. split; [exact Ha|]. left. split; [reflexivity|]. exists j. split; [constructor; exact Hm|exact Hok'].
  - intros r e _ _ top items o s Hok. apply wp_ret. left. exists []. rewrite app_nil_r. split; [constructor|exact Hok].
  - intros o IHo k IHk [Hv Hk] [Hc Hkc] top items o' s Hok. apply wp_bind; [intros; apply quiet_abody|].
    eapply wp_mono; [eapply IHo; eauto|]. intros [x e] s' (Ha & [(E & v & Hdv & Hok')|(d' & Hok' & Hl)]); cbn [fst snd] in *.
    + subst e. eapply wp_mono; [eapply IHk; [apply Hk|apply Hkc|exact Hok']|]. intros y s2 [(vs & Hvs & Hok2)|H2]; [left|right; exact H2].
      exists (v :: vs). split; [econstructor; eassumption|]. rewrite <- app_assoc in Hok2. exact Hok2.
    + eapply wp_mono; [eapply (proj1 (proj2 (run_lost R cfg))); [apply Hk|apply Hkc|exact Hok'|exact Hl]|]. intros y s2 H2. right. exact H2.
  - intros r e _ _ top items o s Hok. apply wp_ret. left. exists []. rewrite app_nil_r. split; [constructor|exact Hok].
  - intros m IHm k IHk [Hv Hk] [Hc Hkc] top ms o s Hok. apply wp_bind; [intros; apply quiet_obody|].
    eapply wp_mono; [eapply IHm; eauto|]. intros [x e] s' [(n & v & Hm & Hok')|[(d' & Hok' & Hl)|Hp]]; cbn [fst snd] in *.
    + eapply wp_mono; [eapply IHk; [apply Hk|apply Hkc|exact Hok']|]. intros y s2 [(ms' & Hms & Hok2)|H2]; [left|right; exact H2].
      exists ((n, v) :: ms'). split; [econstructor; eassumption|]. rewrite <- app_assoc in Hok2. exact Hok2.
    + eapply wp_mono; [eapply (proj1 (proj2 (proj2 (run_lost R cfg)))); [apply Hk|apply Hkc|exact Hok'|exact Hl]|]. intros y s2 H2. right. left. exact H2.
    + eapply wp_mono; [eapply members_pending; [apply Hk|exact Hp]|]. intros y s2 H2. right. right. exact H2.
  - intros n o IHo [Hn Hv] Hc top ms o' s Hok. apply wp_bind. { intros [e|]; [apply quiet_ret; exact I|apply quiet_wop]. }
    eapply wp_delegate; [exact Hok|exact Hn|]. intros d' s' Hd _ Hok'. inversion Hd as [| | | | | | | | | | | |n0 ms0 o0 E1 E2| | | | |]; subst.
    cbn in E2. injection E2 as <- <-. cbn [d_top] in Hok'.
    eapply wp_mono; [eapply IHo; eauto|]. intros [x e] s2 (Ha & [(E & v & Hdv & Hok2)|(d2 & Hok2 & Hl)]); cbn [fst snd] in *.
    + subst e. left. exists n, v. split; [constructor; exact Hdv|exact Hok2].
    + right. left. exists d2. auto.
  - intros n f IHf [Hn Hv] Hc top ms o s Hok. apply wp_bind.
    { intros [e|]; [apply quiet_ret; exact I|]. eapply quiet_bind; [apply run_quiet|]. intros. quiets. }
    eapply wp_delegate; [exact Hok|exact Hn|]. intros d' s' Hd _ Hok'. inversion Hd as [| | | | | | | | | | | |n0 ms0 o0 E1 E2| | | | |]; subst.
    cbn in E2. injection E2 as <- <-. cbn [d_top] in Hok'. apply wp_bind; [intros; quiets|].
    eapply wp_mono; [eapply IHf; [exact Hv|exact Hc|exact Hok']|]. intros x s2 H. destruct f as [r e|o' k].
    + destruct H as [-> ->]. cbn [fst snd negb]. destruct e as [e|].
      * apply wp_ret. right. right. exists ms, n. exact Hok'.
      * apply wp_bind; [intros; quiets|]. eapply wp_delegate; [exact Hok'|exact I|]. intros d3 s3 Hd3 _ Hok3. apply wp_ret. left.
        inversion Hd3; subst. exists n, JNull. split; [constructor|exact Hok3].
    + destruct x as [[r e] w]. cbn [fst snd] in *. destruct H as [-> H].
      assert (Hpost : member_post cfg (MMember n (MWrite o' k)) top ms o (Some r, e) s2).
      { destruct H as [(v & Hm & Hok2)|H2]; [left; exists n, v; auto|right; left; exact H2]. }
      destruct e as [e|]; cbn [negb]; apply wp_ret; exact Hpost.
  - intros r e _ _ n top ms o s Hok. apply wp_ret. auto.
  - intros o IHo k Hv Hc n top ms o' s Hok. apply wp_bind; [intros; quiets|]. eapply wp_mono; [eapply IHo; eauto|].
    intros [x e] s' (Ha & H). apply wp_ret. cbn [fst snd] in *. split; [reflexivity|].
    destruct H as [(E & v & Hdv & Hok')|(d' & Hok' & Hl)]; [left|right; eauto].
    subst e. exists v. split; [|exact Hok']. destruct (k x None) as [r e] eqn:Ek. econstructor; eassumption.
Qed.

(** ** Described data is written *)

Lemma string_described_prefix {R} acc (f : sbody R) acc' r e : string_described acc f acc' r e -> exists more, acc' = acc ++ more.
Proof.
  induction 1 as [bs r e|bs t k bs' r e H [more IH]|bs s k bs' r e Hu H [more IH]|bs k bs' r e H [more IH]].
  - exists []. rewrite app_nil_r. reflexivity.
  - exists (t ++ more). rewrite IH, app_assoc. reflexivity.
  - exists (encode_utf8 s ++ more). rewrite IH, app_assoc. reflexivity.
  - exists more. exact IH.
Qed.

Lemma twp_sbody {R} cfg top o acc (f : sbody R) acc' r e : string_described acc f acc' r e -> from_utf8 acc' <> None ->
  valid_sbody f -> forall s, fine cfg (Wdoc top o (Some acc)) s ->
  twp cfg (run_sbody f) s (fun x s' => x = (r, e) /\ fine cfg (Wdoc top o (Some acc')) s').
Proof.
  induction 1 as [bs r e|bs t k bs' r e H IH|bs t k bs' r e Hu H IH|bs k bs' r e H IH]; intros Ht Hv s Hs; cbn [run_sbody].
  - apply twp_ret. auto.
  - destruct Hv as [Hb Hv]. apply twp_bind. destruct (string_described_prefix _ _ _ _ _ H) as [more Em].
    eapply twp_delegate_write; [exact Hs|exact Hb|apply D_write; reflexivity| |].
    + intros (acc & E & Hm). injection E as <-. apply Hm. exists more. rewrite <- Em. exact Ht.
    + intros s' Hs'. apply IH; auto.
  - destruct Hv as [Hb Hv]. apply twp_bind.
    eapply twp_delegate; [exact Hs|exact Hb|apply D_write_str; [reflexivity|exact Hu]| |reflexivity|].
    + intros (acc & E & Hm). injection E as <-. contradiction.
    + intros s' Hs'. apply IH; auto.
  - apply twp_bind. eapply twp_delegate; [exact Hs|exact I|eapply D_flush; reflexivity| |reflexivity|].
    + intros (acc & E & Hm). exact Hm.
    + intros s' Hs'. apply IH; auto.
Qed.

Lemma not_malformed d c : d_string d = None -> ~ malformed d c.
Proof. intros E (acc & E2 & _). congruence. Qed.

Lemma twp_simple {R} cfg c d v s : fine cfg d s -> valid_call c -> value_allowed (multi_top_level cfg) d ->
  describes (multi_top_level cfg) d c (add_value v d) -> success c RDone ->
  twp cfg (@write_simple R c) s (fun x s' => x = (None, None) /\ fine cfg (add_value v d) s').
Proof.
  intros Hs Hv Ha Hd Hsu. apply twp_bind. eapply twp_delegate; eauto; [apply not_malformed, Ha|].
  intros s' Hs'. apply twp_ret. auto.
Qed.

Scheme vd_ind2 := Minimality for value_described Sort Prop
  with id_ind2 := Minimality for items_described Sort Prop
  with od_ind2 := Minimality for members_described Sort Prop
  with md_ind2 := Minimality for member_described Sort Prop.
Combined Scheme described_ind from vd_ind2, id_ind2, od_ind2, md_ind2.

Lemma run_described_simple R cfg :
  (forall (o : wop R) v x, value_described o v x -> valid_wop o -> forall d s, value_allowed (multi_top_level cfg) d -> fine cfg d s ->
     twp cfg (run_wop o) s (fun y s' => y = (x, None) /\ fine cfg (add_value v d) s')) /\
  (forall (b : abody R) vs r e, items_described b vs r e -> valid_abody b -> forall top items o s, fine cfg (Wdoc top (OpenArr items :: o) None) s ->
     twp cfg (run_abody b) s (fun y s' => y = (r, e) /\ fine cfg (Wdoc top (OpenArr (items ++ vs) :: o) None) s')) /\
  (forall (b : obody R) vs r e, members_described b vs r e -> valid_obody b -> forall top ms o s, fine cfg (Wdoc top (OpenObj ms None :: o) None) s ->
     twp cfg (run_obody b) s (fun y s' => y = (r, e) /\ fine cfg (Wdoc top (OpenObj (ms ++ vs) None :: o) None) s')) /\
  (forall (m : member R) n v x e, member_described m n v x e -> valid_member m -> forall top ms o s, fine cfg (Wdoc top (OpenObj ms None :: o) None) s ->
     twp cfg (run_member m) s (fun y s' => y = (x, e) /\ fine cfg (Wdoc top (OpenObj (ms ++ [(n, v)]) None :: o) None) s')).
Proof.
  assert (Hname : forall n top ms o, describes (multi_top_level cfg) (Wdoc top (OpenObj ms None :: o) None) (CName n) (Wdoc top (OpenObj ms (Some n) :: o) None))
    by (intros; apply (D_name _ (Wdoc top (OpenObj ms None :: o) None)); reflexivity).
  apply described_ind; cbn [run_wop run_abody run_obody run_member valid_wop valid_abody valid_obody valid_member valid_mbody
    careful_wop careful_abody careful_obody careful_member careful_mbody].
  - intros _ d s Ha Hs. eapply twp_simple; eauto; [exact I|constructor; exact Ha|reflexivity].
  - intros b _ d s Ha Hs. eapply twp_simple; eauto; [exact I|constructor; exact Ha|reflexivity].
  - intros t Hv d s Ha Hs. eapply twp_simple; eauto; [constructor; exact Ha|reflexivity].
  - intros z t Ht _ d s Ha Hs. eapply twp_simple; eauto; [exact I|constructor; assumption|reflexivity].
  - intros t Ht Hv d s Ha Hs. eapply twp_simple; eauto; [constructor; assumption|reflexivity].
  - intros t Ht Hv d s Ha Hs. eapply twp_simple; eauto; [constructor; assumption|left; auto].
  - intros f bs t r Hf Ht Hv d s Ha Hs. apply twp_bind.
    eapply twp_delegate; [exact Hs|exact I|apply D_string_writer, Ha|apply not_malformed, Ha|reflexivity|].
    intros s1 Hs1. apply twp_bind. eapply twp_mono; [eapply twp_sbody; [exact Hf|congruence|exact Hv|exact Hs1]|].
    intros x s2 [-> Hs2]. cbn [fst snd].
    eapply (twp_bind cfg not_propagated). exists None, s2. split; [reflexivity|].
    apply twp_bind. eapply twp_delegate; [exact Hs2|exact I|eapply D_finish_value; [reflexivity|exact Ht]| |reflexivity|].
    + intros (acc & E & Hm). injection E as <-. congruence.
    + intros s3 Hs3. apply twp_ret. split; [reflexivity|]. cbn [d_top d_open] in Hs3.
      destruct d as [top o st]. destruct Ha as [Hst Ha]. cbn in Hst, Hs3 |- *. subst st. exact Hs3.
  - intros f vs r Hf IH Hv d s Ha Hs. apply twp_bind.
    eapply twp_delegate; [exact Hs|exact I|apply D_begin_array, Ha|apply not_malformed, Ha|reflexivity|].
    intros s1 Hs1. apply twp_bind. eapply twp_mono; [eapply IH; [exact Hv|exact Hs1]|].
    intros x s2 [-> Hs2]. cbn [fst snd app] in *. apply twp_bind.
    eapply twp_delegate; [exact Hs2|exact I|eapply D_end_array; reflexivity|apply not_malformed; reflexivity|reflexivity|].
    intros s3 Hs3. apply twp_ret. split; [reflexivity|]. destruct d as [top o st]. destruct Ha as [Hst Ha]. cbn in Hst. subst st. exact Hs3.
  - intros f vs r Hf IH Hv d s Ha Hs. apply twp_bind.
    eapply twp_delegate; [exact Hs|exact I|apply D_begin_object, Ha|apply not_malformed, Ha|reflexivity|].
    intros s1 Hs1. apply twp_bind. eapply twp_mono; [eapply IH; [exact Hv|exact Hs1]|].
    intros x s2 [-> Hs2]. cbn [fst snd app] in *. apply twp_bind.
    eapply twp_delegate; [exact Hs2|exact I|eapply D_end_object; reflexivity|apply not_malformed; reflexivity|reflexivity|].
    intros s3 Hs3. apply twp_ret. split; [reflexivity|]. destruct d as [top o st]. destruct Ha as [Hst Ha]. cbn in Hst. subst st. exact Hs3.
  - intros v j Hm Hv d s Ha [Hok Hg]. apply twp_bind. eapply twp_serialize; eauto.
    intros s' Hok' Hg'. apply twp_ret. split; [reflexivity|split; assumption].
  - intros r e _ top items o s Hs. apply twp_ret. rewrite app_nil_r. auto.
  - intros o k v x vs r e Ho IHo Hk IHk [Hv Hvk] top items o' s Hs. apply twp_bind.
    eapply twp_mono; [eapply IHo; [exact Hv| |exact Hs]; split; [reflexivity|exact I]|]. intros y s1 [-> Hs1]. cbn [fst snd].
    eapply twp_mono; [eapply IHk; [apply Hvk|exact Hs1]|]. intros y s2 [-> Hs2]. split; [reflexivity|].
    rewrite <- app_assoc in Hs2. exact Hs2.
  - intros r e _ top items o s Hs. apply twp_ret. rewrite app_nil_r. auto.
  - intros m k n v x e' ms r e Hm IHm Hk IHk [Hv Hvk] top ms0 o s Hs. apply twp_bind.
    eapply twp_mono; [eapply IHm; [exact Hv|exact Hs]|]. intros y s1 [-> Hs1]. cbn [fst snd].
    eapply twp_mono; [eapply IHk; [apply Hvk|exact Hs1]|]. intros y s2 [-> Hs2]. split; [reflexivity|].
    rewrite <- app_assoc in Hs2. exact Hs2.
  - intros n o v x Ho IHo [Hn Hv] top ms o' s Hs. apply twp_bind.
    eapply twp_delegate; [exact Hs|exact Hn|apply Hname|apply not_malformed; reflexivity|reflexivity|].
    intros s1 Hs1. eapply twp_mono; [eapply IHo; [exact Hv| |exact Hs1]; split; [reflexivity|discriminate]|].
    intros y s2 [-> Hs2]. split; [reflexivity|exact Hs2].
  - intros n r [Hn Hv] top ms o s Hs. apply twp_bind.
    eapply twp_delegate; [exact Hs|exact Hn|apply Hname|apply not_malformed; reflexivity|reflexivity|].
    intros s1 Hs1. apply twp_bind. apply twp_ret. cbn [fst snd negb]. apply twp_bind.
    eapply twp_delegate; [exact Hs1|exact I|apply D_null; split; [reflexivity|discriminate]|apply not_malformed; reflexivity|reflexivity|].
    intros s2 Hs2. apply twp_ret. split; [reflexivity|exact Hs2].
  - intros n o k v x r e Ho IHo Hk [Hn Hv] top ms o' s Hs. apply twp_bind.
    eapply twp_delegate; [exact Hs|exact Hn|apply Hname|apply not_malformed; reflexivity|reflexivity|].
    intros s1 Hs1. apply twp_bind. cbn [run_mbody]. apply twp_bind.
    eapply twp_mono; [eapply IHo; [exact Hv| |exact Hs1]; split; [reflexivity|discriminate]|].
    intros y s2 [-> Hs2]. apply twp_ret. cbn [fst snd]. rewrite Hk. cbn [fst snd].
    destruct e as [e|]; apply twp_ret; (split; [reflexivity|exact Hs2]).
Qed.

(** ** The outermost method *)

Lemma run_then_finish {R} cfg (m : prog (wend (option R * wresulting) * option stored_error)) : forall s,
  wclient_run cfg (then_finish m) s = wclient_run cfg (then_finish (PDone (fst (prog_run cfg m s)))) (snd (prog_run cfg m s)).
Proof.
  induction m as [a|c k IH]; intros s; [reflexivity|]. cbn [then_finish wclient_run prog_run]. destruct (wstep cfg c s) as [r s']. apply IH.
Qed.

Lemma simple_write_sound {R} cfg out (o : wop R) x out' : received out = [] -> valid_wop o -> careful_wop o ->
  simple_write cfg out o = (ERet (x, None), out') ->
  exists v, value_described o v x /\ received out' = documents_layout cfg [v] /\ flushes out' > 0.
Proof.
  intros Ho Hv Hca E. unfold simple_write, simple_writer in E. rewrite run_then_finish in E.
  pose proof (proj1 (run_sound_simple R cfg) o Hv Hca empty_doc (new_session out) (new_session_ok cfg out Ho)) as H. unfold wp in H.
  destruct (prog_run cfg (run_wop o None) (new_session out)) as [[y err] s']. cbn [fst snd] in E.
  destruct y as [[z [e|]]| | |]; cbn in E; try discriminate E. destruct err as [e|]; cbn in E; [discriminate E|].
  destruct (wfinish s') as [r out2] eqn:Ef. injection E as E ->.
  assert (r = RDone /\ z = x) as [-> ->] by (destruct r; try discriminate E; injection E as ->; auto).
  destruct H as (Ha & [(_ & v & Hdv & Hok)|(d' & Hok & Hl)]).
  - cbn in Hok. exists v. split; [exact Hdv|].
    destruct (wfinish_ok cfg _ s' Hok) as [(_ & [(o2 & E2 & Hl & Hfl)|(e & o2 & E2 & _)])|(_ & E2)]; rewrite Ef in E2; try discriminate.
    injection E2 as ->. auto.
  - destruct (wfinish_ok cfg _ s' Hok) as [(Hc & _)|(_ & E2)].
    + destruct Hc as (H1 & H2 & _). destruct Hl as [Hl|Hl]; [|contradiction]. rewrite H1 in Hl. cbn in Hl. lia.
    + rewrite Ef in E2. discriminate.
Qed.

Lemma simple_write_described {R} cfg out (o : wop R) v x : received out = [] -> reliable out -> valid_wop o ->
  value_described o v x ->
  exists out', simple_write cfg out o = (ERet (x, None), out') /\ received out' = documents_layout cfg [v] /\ flushes out' > 0.
Proof.
  intros Ho Hr Hv Hd. unfold simple_write, simple_writer. rewrite run_then_finish.
  assert (Ha : value_allowed (multi_top_level cfg) empty_doc) by (split; [reflexivity|left; reflexivity]).
  destruct (proj1 (run_described_simple R cfg) o v x Hd Hv empty_doc (new_session out) Ha) as (y & s' & E & -> & Hok & Hg).
  { split; [apply new_session_ok, Ho|exact Hr]. }
  rewrite E. cbn [fst snd then_finish wclient_run]. cbn in Hok.
  destruct (wfinish_ok cfg _ s' Hok) as [(_ & [(o2 & E2 & Hl & Hfl)|(e & o2 & E2 & _ & Hb & _)])|(Hn & _)].
  - rewrite E2. exists o2. auto.
  - contradiction.
  - contradiction Hn. repeat split; discriminate.
Qed.
