(** * Proofs: the serde deserializer on known data, by induction on the number of calls *)

From Verif Require Import Base Utf8Model Utf8Proofs NumberModel SpecNumber NumberProofs SpecJson SourceModel ReaderModel ReaderGrammar SpecCursor SpecRead ReaderCursor
  SimpleModel SimpleWp SimpleRun SimpleRun2 TransferWriter DeModel SpecDe DeRun.
From Verif Require SpecSimple.

Definition seed_ok {V S : Type} (C : code V S) (s : settings) (limit : N) (n : nat) : Prop :=
  forall seed c w v d, at_ c w -> at_value s c = inr v -> sound v ->
  wp s (run_seed C limit n seed d) w (ends (sem_seed C s limit n seed v d) d (value_end c)).

Definition method_ok {V S : Type} (C : code V S) (s : settings) (limit : N) (n : nat) : Prop :=
  forall m vis c w v d, at_ c w -> at_value s c = inr v -> sound v ->
  wp s (run_method C limit n m vis d) w (ends (sem_method C s limit n m vis v d) d (value_end c)).

Definition map_stands (pos : map_position) (expects : bool) (c : cursor) : Prop :=
  match pos with
  | AtNames ms => expects = false /\ (exists nm fs, frames c = InObject nm ms :: fs) /\ Forall sound (map snd ms)
  | BeforeValue v ms => expects = true /\ (exists n fs, frames c = AtValue n v ms :: fs) /\ sound v /\ Forall sound (map snd ms)
  | ValueIgnored => expects = false /\ exists n v ms fs, frames c = AtValue n v ms :: fs
  end.

Definition members_ok {V S : Type} (C : code V S) (s : settings) (limit : N) (n : nat) : Prop :=
  forall expects pos st c w d, at_ c w -> map_stands pos expects c ->
  wp s (run_map C limit n expects st d) w (object_post s c (sem_members C s limit n pos st d) d).

Definition variant_ok {V S : Type} (C : code V S) (s : settings) (limit : N) (n : nat) : Prop :=
  forall vis c w nm ms fs d, at_ c w -> frames c = InObject nm ms :: fs -> Forall sound (map snd ms) ->
  wp s (run_enum C limit n false vis d) w (object_post s c (sem_variant C s limit n vis ms d) d).

(** [deserialize_enum] for a string *)
Definition sem_string {V S : Type} (C : code V S) (s : settings) (limit : N) (n : nat) (vis : S) (v : json) (open : N) : verdict V :=
  match n with
  | O => Unfinished
  | S n' =>
    match visit_enum C vis with
    | EnDone (inr _) => Panics
    | EnDone (inl e) => Fails (FError e)
    | EnVariant seed k _ =>
      match sem_seed C s limit n' seed v open with
      | Gives a => sem_unit_variant (with_variant C (k a))
      | Keeps a => match sem_unit_variant (with_variant C (k a)) with Gives b => Keeps b | x => x end
      | x => x
      end
    end
  end.
Definition string_ok {V S : Type} (C : code V S) (s : settings) (limit : N) (n : nat) : Prop :=
  forall vis c w v d, at_ c w -> at_value s c = inr v -> sound v ->
  wp s (dbind (run_enum C limit n true vis) (fun ab => if snd ab then dpanic Misuse else dret (fst ab)) d) w
    (ends (sem_string C s limit n vis v d) d (value_end c)).

(** A program which ends as a verdict says, followed by other code *)
Ltac ends_cases H :=
  match type of H with
  | ends ?x _ _ ?re _ =>
    destruct x as [?a|?a|?y| |]; cbn [ends] in H;
    [ destruct H as (?b & -> & H)
    | destruct H as (?b & -> & H)
    | let re' := fresh "r" in let d' := fresh "d'" in let E := fresh "E" in let e := fresh "e" in
      destruct re as [re' d']; destruct H as (e & E & H); cbn [fst] in E; subst re'
    | let re' := fresh "r" in let d' := fresh "d'" in destruct re as [re' d']; cbn [fst] in H; subst re'
    | let re' := fresh "r" in let d' := fresh "d'" in destruct re as [re' d']; cbn [fst] in H; subst re' ]
  end.

Lemma wp_then V s (m : de V) (after : derr + V -> derr + V) x c w d : (forall e, after (inl e) = inl e) ->
  wp s (m d) w (ends x d (value_end c)) ->
  wp s (dthen m (fun r => dend_now (DRet (after r))) d) w (ends (then_code x (fun a => after (inr a))) d (value_end c)).
Proof.
  intros He H. apply wp_dthen. eapply wp_weaken; [|exact H]. clear H. intros re w' H. ends_cases H; cbn.
  - destruct H as [<- H]. destruct (after (inr a)) as [e|b]; cbn.
    + exists e. split; reflexivity.
    + exists b. split; [reflexivity|]. split; [reflexivity|exact H].
  - destruct H as [<- H]. destruct (after (inr a)) as [e|b]; cbn.
    + exists e. split; reflexivity.
    + exists b. split; [reflexivity|]. split; [reflexivity|exact H].
  - rewrite He. exists e. auto.
  - reflexivity.
  - reflexivity.
Qed.

Lemma seed_step V S (C : code V S) s limit n : returns_errors C -> method_ok C s limit n -> seed_ok C s limit (1 + n).
Proof.
  intros HC Hm seed c w v d Hat Hv Hs. cbn [run_seed sem_seed Nat.add].
  destruct (deserialize C seed) as [[e|a]|m vis after] eqn:E.
  - cbn. exists e. split; reflexivity.
  - cbn. exists a. split; [reflexivity|]. split; [reflexivity|exact Hat].
  - apply wp_then; [exact (fun e => proj1 HC _ _ _ _ e E)|]. apply Hm; auto.
Qed.

Lemma string_step V S (C : code V S) s limit n : returns_errors C -> seed_ok C s limit n -> string_ok C s limit (1 + n).
Proof.
  intros HC Hm vis c w v d Hat Hv Hs. cbn [run_enum sem_string Nat.add]. apply wp_dbind.
  destruct (visit_enum C vis) as [[e|a]|seed k failed] eqn:E.
  - cbn. exists e. split; reflexivity.
  - cbn. reflexivity.
  - apply wp_dthen. eapply wp_weaken; [|exact (Hm seed c w v d Hat Hv Hs)].
    destruct HC as (_ & _ & _ & _ & H5 & H6). intros re w' H. ends_cases H; cbn [fst].
    + destruct H as [<- H]. specialize (H6 (k a)).
      destruct (with_variant C (k a)) as [[e|b]|after|seed' after|len vis' after|vis' after]; cbn.
      * exists e. split; reflexivity.
      * reflexivity.
      * destruct (after (inr tt)) as [e|b]; cbn; eexists; (split; [reflexivity|]); [reflexivity|]. split; [reflexivity|exact H].
      * rewrite H6. cbn. eexists. split; reflexivity.
      * rewrite H6. cbn. eexists. split; reflexivity.
      * rewrite H6. cbn. eexists. split; reflexivity.
    + destruct H as [<- H]. specialize (H6 (k a)).
      destruct (with_variant C (k a)) as [[e|b]|after|seed' after|len vis' after|vis' after]; cbn.
      * exists e. split; reflexivity.
      * reflexivity.
      * destruct (after (inr tt)) as [e|b]; cbn; eexists; (split; [reflexivity|]); [reflexivity|]. split; [reflexivity|exact H].
      * rewrite H6. cbn. eexists. split; reflexivity.
      * rewrite H6. cbn. eexists. split; reflexivity.
      * rewrite H6. cbn. eexists. split; reflexivity.
    + rewrite (H5 _ _ _ _ e E). cbn. exists e. auto.
    + reflexivity.
    + reflexivity.
Qed.

Lemma items_step V S (C : code V S) s limit n : returns_errors C -> seed_ok C s limit n -> items_ok C s limit n -> items_ok C s limit (1 + n).
Proof.
  intros HC Hseed Hitems expected len st c w i items fs d Hat Hf Hs. cbn [run_seq sem_items Nat.add].
  pose proof (proj1 (proj2 HC)) as H2. pose proof (proj1 Hat) as Hr.
  assert (Hsame : set_frames (InArray i items :: fs) c = c) by (rewrite <- Hf; destruct c; reflexivity).
  destruct (visit_seq C st) as [[e|a]|seed k] eqn:E.
  - cbn. exists e. split; reflexivity.
  - cbn. exists (a, len). split; [reflexivity|]. split; [reflexivity|]. exists i. cbn. rewrite Hsame. exact Hat.
  - assert (Herr : forall e y w1 d1 len', is_failure y e ->
      wp s (run_seq C limit n expected len' (k (inl e)) d1) w1 (ends (Fails y) d (fun _ (x : V * N * list json) b w' => fst x = b /\ exists i', at_ (set_frames (InArray i' (snd x) :: fs) c) w'))).
    { intros e y w1 d1 len' Hy. destruct n; cbn [run_seq]; rewrite (H2 _ _ _ e E); cbn; exists e; auto. }
    apply wp_dthen. eapply use_gives with (v := RBool (negb (SpecSimple.is_nil items))) (c1 := c); [exact Hat|exact I| |exact Hr|reflexivity|].
    { cbn [call_at]. rewrite (more_array s c i items fs Hr Hf). reflexivity. }
    intros w1 Hat1. destruct items as [|v items]; cbn [SpecSimple.is_nil negb].
    + exact (Hitems expected len (k (inr None)) c w1 i [] fs d Hat1 Hf Hs).
    + assert (Hel : forall len', wp s (dthen (run_seed C limit n seed) (fun r => run_seq C limit n expected len' (k (as_option r))) d) w1
        (ends match sem_seed C s limit n seed v d with
        | Gives a => sem_items C s limit n expected len' (k (inr (Some a))) items d
        | Keeps a => sem_items C s limit n expected len' (k (inr (Some a))) (v :: items) d
        | Fails x => Fails x
        | Panics => Panics
        | Unfinished => Unfinished
        end d (fun _ x b w' => fst x = b /\ exists i', at_ (set_frames (InArray i' (snd x) :: fs) c) w'))).
      { intros len'. apply wp_dthen. inversion Hs; subst.
        eapply wp_weaken; [|exact (Hseed seed c w1 v d Hat1 (at_value_array s c i v items fs Hr Hf) ltac:(assumption))].
        intros re w2 H. ends_cases H; cbn [as_option].
        - destruct H as [<- H]. rewrite (behind_array c i v items fs Hf) in H.
          eapply wp_weaken; [|exact (Hitems expected len' (k (inr (Some a))) _ w2 (i + 1) items fs d H eq_refl ltac:(assumption))].
          intros re w3. cbn. auto.
        - destruct H as [<- H]. exact (Hitems expected len' (k (inr (Some a))) c w2 i (v :: items) fs d H Hf Hs).
        - apply Herr. exact H.
        - reflexivity.
        - reflexivity. }
      destruct expected as [m|]; [|apply Hel].
      rewrite N.ltb_antisym. destruct (m <=? len); cbn [negb]; [|apply Hel].
      apply Herr. reflexivity.
Qed.

(** ** Objects *)

Lemma post_error V s c (x : verdict V) d e d' w y : x = Fails y -> is_failure y e -> object_post s c x d (DRet (inl e), d') w.
Proof. intros -> H. cbn. exists e. auto. Qed.

Lemma post_close V s c (x : verdict V) d re w c' : close_frame c' = close_frame c -> object_post s c' x d re w -> object_post s c x d re w.
Proof. unfold object_post. intros ->. auto. Qed.

Lemma post_done V s c (a : V) d w nm ms fs : at_ c w -> frames c = InObject nm ms :: fs ->
  object_post s c (leave ms a) d (DRet (inr (a, false)), d) w.
Proof.
  intros Hat Hf. unfold object_post, finish_object. cbn [snd fst]. apply wp_dbind. cbn [dret dend_now wp]. apply wp_dbind.
  pose proof (end_object_call s c nm ms fs (proj1 Hat) Hf) as Hx. destruct ms as [|m ms].
  - eapply use_gives; [exact Hat|exact I|exact Hx|rewrite close_reading; apply Hat|reflexivity|].
    intros w' Hw'. cbn. exists a. splits; auto.
  - eapply use_fails with (y := FStructure MoreElementsThanExpected); [exact Hat|exact I|rewrite Hx; reflexivity|].
    intros w' e He. cbn. exists e. auto.
Qed.

Lemma post_ignored V s c (a : V) d w n v ms fs : at_ c w -> frames c = AtValue n v ms :: fs ->
  object_post s c Panics d (DRet (inr (a, false)), d) w.
Proof.
  intros Hat Hf. unfold object_post, finish_object. cbn [snd fst]. apply wp_dbind. cbn [dret dend_now wp]. apply wp_dbind.
  eapply use_panics; [exact Hat|exact I| |].
  { cbn [call_at]. rewrite (not_reading c (proj1 Hat)), Hf. reflexivity. }
  intros w'. reflexivity.
Qed.

Lemma members_step V S (C : code V S) s limit n : returns_errors C -> (match n with O => True | Datatypes.S m => seed_ok C s limit m /\ members_ok C s limit m end) ->
  members_ok C s limit n.
Proof.
  intros HC IH expects pos st c w d Hat Hst.
  pose proof (proj1 (proj2 (proj2 HC))) as H3. pose proof (proj1 (proj2 (proj2 (proj2 HC)))) as H4.
  pose proof (proj1 Hat) as Hr.
  destruct n as [|n].
  - cbn [run_map sem_members]. destruct (visit_map C st) as [[e|a]|seed k|seed k] eqn:E.
    + eapply post_error; reflexivity.
    + destruct pos as [ms|v ms|]; cbn in Hst.
      * destruct Hst as (-> & (nm & fs & Hf) & _). exact (post_done V s c a d w nm ms fs Hat Hf).
      * destruct Hst as (-> & _). reflexivity.
      * destruct Hst as (-> & n & v & ms & fs & Hf). exact (post_ignored V s c a d w n v ms fs Hat Hf).
    + destruct pos as [ms|v ms|]; cbn in Hst; destruct Hst as (-> & _); reflexivity.
    + destruct pos as [ms|v ms|]; cbn in Hst; destruct Hst as (-> & _); reflexivity.
  - destruct IH as (Hseed & Hmem). cbn [run_map sem_members].
    destruct (visit_map C st) as [[e|a]|seed k|seed k] eqn:E.
    + eapply post_error; reflexivity.
    + destruct pos as [ms|v ms|]; cbn in Hst.
      * destruct Hst as (-> & (nm & fs & Hf) & _). exact (post_done V s c a d w nm ms fs Hat Hf).
      * destruct Hst as (-> & _). reflexivity.
      * destruct Hst as (-> & n' & v & ms & fs & Hf). exact (post_ignored V s c a d w n' v ms fs Hat Hf).
    + assert (Herr : forall e y w1 d1 b, is_failure y e ->
        wp s (run_map C limit n b (k (inl e)) d1) w1 (object_post s c (Fails y) d)).
      { intros e y w1 d1 b Hy. destruct n; cbn [run_map]; rewrite (H3 _ _ _ e E); cbn [with_flag dend_now wp]; eapply post_error; eauto. }
      destruct pos as [ms|v ms|]; cbn in Hst.
      * destruct Hst as (-> & (nm & fs & Hf) & Hms). cbn [negb].
        apply wp_dthen. eapply use_gives with (v := RBool (negb (SpecSimple.is_nil ms))) (c1 := c); [exact Hat|exact I| |exact Hr|reflexivity|].
        { cbn [call_at]. rewrite (more_object s c nm ms fs Hr Hf). reflexivity. }
        intros w1 Hat1. destruct ms as [|[name v] ms]; cbn [SpecSimple.is_nil negb].
        -- apply Hmem; [exact Hat1|]. cbn. splits; eauto.
        -- apply wp_dthen. apply wp_dbind.
           eapply use_gives with (b := name); [exact Hat1|exact I|cbn [call_at]; exact (name_call c nm name v ms fs RStr Hr Hf)|exact Hr|reflexivity|].
           intros w2 Hat2. cbn [dend_now wp]. pose proof (key_settled V S C HC n name seed) as Hk.
           destruct (sem_key C n name seed) as [a|a|[| | |e]| |]; cbn [settled] in Hk; try contradiction; rewrite Hk.
           ++ cbn in Hms. inversion Hms; subst.
              eapply wp_weaken; [|apply (Hmem true (BeforeValue v ms)); [exact Hat2|cbn; splits; eauto]].
              intros re w3. apply post_close. exact (close_set _ _ _ _ Hf).
           ++ apply Herr. reflexivity.
           ++ reflexivity.
      * destruct Hst as (-> & _). reflexivity.
      * destruct Hst as (-> & n' & v & ms & fs & Hf). cbn [negb]. apply wp_dthen.
        eapply use_panics; [exact Hat|exact I| |].
        { cbn [call_at]. unfold more. rewrite (not_reading c Hr), Hf. reflexivity. }
        intros w1. reflexivity.
    + assert (Herr : forall e y w1 d1 b, is_failure y e ->
        wp s (run_map C limit n b (k (inl e)) d1) w1 (object_post s c (Fails y) d)).
      { intros e y w1 d1 b Hy. destruct n; cbn [run_map]; rewrite (H4 _ _ _ e E); cbn [with_flag dend_now wp]; eapply post_error; eauto. }
      destruct pos as [ms|v ms|]; cbn in Hst.
      * destruct Hst as (-> & _). reflexivity.
      * destruct Hst as (-> & (n' & fs & Hf) & Hv & Hms). cbn [negb].
        apply wp_dthen. eapply wp_weaken; [|exact (Hseed seed c w v d Hat (at_value_member s c n' v ms fs Hr Hf) Hv)].
        intros re w1 H. ends_cases H.
        -- destruct H as [<- H]. rewrite (behind_member c n' v ms fs Hf) in H.
           eapply wp_weaken; [|apply (Hmem false (AtNames ms)); [exact H|cbn; splits; eauto]].
           intros re w3. apply post_close. exact (close_set _ _ _ _ Hf).
        -- destruct H as [<- H]. apply (Hmem false ValueIgnored); [exact H|]. cbn. split; [reflexivity|]. eauto.
        -- apply Herr. exact H.
        -- reflexivity.
        -- reflexivity.
      * destruct Hst as (-> & _). reflexivity.
Qed.

Lemma variant_step V S (C : code V S) s limit n : returns_errors C -> seed_ok C s limit n -> method_ok C s limit n -> variant_ok C s limit (1 + n).
Proof.
  intros HC Hseed Hmethod vis c w nm ms fs d Hat Hf Hms. cbn [run_enum sem_variant Nat.add].
  pose proof (proj1 Hat) as Hr.
  destruct (visit_enum C vis) as [[e|a]|seed k failed] eqn:E.
  - eapply post_error; reflexivity.
  - reflexivity.
  - pose proof (text_settled V S C HC n) as Htext.
    destruct HC as (_ & _ & _ & _ & H5 & H6). apply wp_dthen. apply wp_dbind.
    destruct ms as [|[name v] ms].
    + eapply use_fails with (y := FStructure FewerElementsThanExpected); [exact Hat|exact I| |].
      { cbn [call_at]. unfold on_name, at_name. rewrite (not_reading c Hr), Hf. reflexivity. }
      intros w1 e He. cbn. rewrite (H5 _ _ _ _ e E). eapply post_error; eauto.
    + eapply use_gives with (b := name); [exact Hat|exact I|cbn [call_at]; exact (name_call c nm name v ms fs RStr Hr Hf)|exact Hr|reflexivity|].
      intros w1 Hat1. cbn [dend_now wp]. pose proof (proj1 (Htext name) seed) as Hk.
      destruct (sem_text C n name seed) as [a|a|[| | |e]| |]; cbn [settled] in Hk; try contradiction; rewrite Hk.
      * set (c1 := set_frames (AtValue name v ms :: fs) c) in *.
        assert (Hv1 : at_value s c1 = inr v) by (apply (at_value_member s c1 name v ms fs Hr); reflexivity).
        assert (Hb1 : behind_value c1 = set_frames (InObject (Some name) ms :: fs) c) by (rewrite (behind_member c1 name v ms fs) by reflexivity; reflexivity).
        assert (Hclose : forall re w' (x : verdict V), object_post s (set_frames (InObject (Some name) ms :: fs) c) x d re w' -> object_post s c x d re w').
        { intros re w' x. apply post_close. exact (close_set _ _ _ _ Hf). }
        assert (Hclose1 : forall re w' (x : verdict V), object_post s c1 x d re w' -> object_post s c x d re w').
        { intros re w' x. apply post_close. exact (close_set _ _ _ _ Hf). }
        cbn in Hms. inversion Hms; subst.
        assert (Hval : forall (m : de V) (x : verdict V) (after : derr + V -> derr + V), (forall e, after (inl e) = inl e) -> wp s (m d) w1 (ends x d (value_end c1)) ->
          wp s (dthen m (fun r => with_flag false (after r)) d) w1
            (object_post s c (match then_code x (fun b => after (inr b)) with
            | Gives b => leave ms b
            | Keeps _ => Panics
            | x => x
            end) d)).
        { intros m x after Ha Hm. apply wp_dthen. eapply wp_weaken; [|exact Hm]. intros re w2 H. ends_cases H; cbn [then_code].
          - destruct H as [<- H]. rewrite Hb1 in H. destruct (after (inr a0)) as [e|b]; cbn [with_flag dend_now wp].
            + eapply post_error; reflexivity.
            + apply Hclose. eapply post_done; [exact H|reflexivity].
          - destruct H as [<- H]. destruct (after (inr a0)) as [e|b]; cbn [with_flag dend_now wp].
            + eapply post_error; reflexivity.
            + apply Hclose1. eapply post_ignored; [exact H|reflexivity].
          - rewrite Ha. eapply post_error; eauto.
          - reflexivity.
          - reflexivity. }
        specialize (H6 (k a)).
        destruct (with_variant C (k a)) as [[e|b]|after|seed' after|len vis' after|vis' after].
        -- eapply post_error; reflexivity.
        -- reflexivity.
        -- apply wp_dthen. destruct (value_type_dec (json_type v) TNull) as [Ht|Ht].
           ++ destruct v; try discriminate. eapply use_gives with (b := tt); [exact Hat1|exact I|exact (read_call s CNextNull c1 JNull RUnit Hv1 eq_refl)|apply behind_reading_none; exact Hr|reflexivity|].
              intros w2 Hat2. rewrite Hb1 in Hat2. destruct (after (inr tt)) as [e|b]; cbn [with_flag dend_now wp].
              ** eapply post_error; reflexivity.
              ** apply Hclose. eapply post_done; [exact Hat2|reflexivity].
           ++ replace (match v with JNull => match after (inr tt) with inl e => Fails (FError e) | inr b => leave ms b end | _ => Fails (FType TNull (json_type v)) end)
                with (@Fails V (FType TNull (json_type v))) by (destruct v; try reflexivity; contradiction).
              eapply use_fails; [exact Hat1|exact I|exact (wrong_call s CNextNull c1 v TNull Hv1 eq_refl Ht)|].
              intros w2 e He. rewrite H6. eapply post_error; eauto.
        -- apply Hval; [exact H6|]. apply Hseed; auto.
        -- apply Hval; [exact H6|]. apply Hmethod; auto.
        -- apply Hval; [exact H6|]. apply Hmethod; auto.
      * cbn. rewrite (H5 _ _ _ _ e E). eapply post_error; reflexivity.
      * reflexivity.
Qed.

(** ** Methods *)

Lemma wp_peek A s (f : value_type -> de A) c w v d Q : at_ c w -> at_value s c = inr v ->
  (forall w', at_ c w' -> wp s (f (json_type v) d) w' Q) -> wp s (dbind use_peek f d) w Q.
Proof.
  intros Hat Hv H. apply wp_dbind.
  eapply use_gives; [exact Hat|exact I|exact (read_call s CPeek c v _ Hv eq_refl)|apply Hat|reflexivity|exact H].
Qed.

Lemma wp_read A B s call (g : rvalue -> de A) (f : A -> de B) c w v r b d Q : at_ c w -> at_value s c = inr v ->
  call <> CPeek -> reads call v = Some r -> g r = dret b ->
  (forall w', at_ (behind_value c) w' -> wp s (f b d) w' Q) -> wp s (dbind (dbind (duse call) g) f d) w Q.
Proof.
  intros Hat Hv Hn Hr Hg H. apply wp_dbind.
  assert (Hc : calm call) by (destruct call; try discriminate; exact I).
  pose proof (read_call s call c v r Hv Hr) as Hx.
  replace (match call with CPeek => c | _ => behind_value c end) with (behind_value c) in Hx by (destruct call; congruence).
  eapply use_gives; [exact Hat|exact Hc|exact Hx|apply behind_reading_none, Hat|exact Hg|exact H].
Qed.

Lemma wp_wrong A B V s call ty (g : rvalue -> de A) (f : A -> de B) c w v d (P : bool -> V -> B -> walk -> Prop) : at_ c w -> at_value s c = inr v ->
  wants call = Some ty -> json_type v <> ty -> wp s (dbind (dbind (duse call) g) f d) w (ends (Fails (FType ty (json_type v))) d P).
Proof.
  intros Hat Hv Hw Ht. apply wp_dbind.
  assert (Hc : calm call) by (destruct call; try discriminate; exact I).
  eapply use_fails; [exact Hat|exact Hc|exact (wrong_call s call c v ty Hv Hw Ht)|].
  intros w' e He. cbn. exists e. auto.
Qed.

Lemma wp_number V s (f : str -> de V) (x : option visit) (k : visit -> derr + V) c w t d : at_ c w -> at_value s c = inr (JNum t) ->
  f t = match x with Some y => dend_now (DRet (k y)) | None => dfail DeInvalidNumber end ->
  wp s (dbind (use_str CNextNumberStr) f d) w
    (ends (if restrict_number_values s && unsupported_number t then Fails (FUnsupportedNumber t)
           else match x with Some y => given (k y) | None => Fails (FError DeInvalidNumber) end) d (value_end c)).
Proof.
  intros Hat Hv Hf. apply wp_dbind.
  assert (Hx : call_at s CNextNumberStr c = if restrict_number_values s && unsupported_number t
        then (XUnsupportedNumber t, Halted) else (XOk (RStr t), AtCursor (behind_value c))).
  { cbn [call_at]. unfold on_value. rewrite Hv. cbn [json_type]. destruct (value_type_dec TNumber TNumber); [|congruence].
    destruct (restrict_number_values s && unsupported_number t); reflexivity. }
  destruct (restrict_number_values s && unsupported_number t).
  - eapply use_fails with (y := FUnsupportedNumber t); [exact Hat|exact I|rewrite Hx; reflexivity|].
    intros w' e He. cbn. exists e. auto.
  - eapply use_gives; [exact Hat|exact I|exact Hx|apply behind_reading_none, Hat|reflexivity|].
    intros w' Hw'. rewrite Hf. destruct x as [y|].
    + apply wp_given. exact Hw'.
    + cbn. eexists. split; reflexivity.
Qed.

Lemma method_step V S (C : code V S) s limit n : seed_ok C s limit n -> items_ok C s limit n ->
  members_ok C s limit n -> variant_ok C s limit n -> string_ok C s limit n -> method_ok C s limit (1 + n).
Proof.
  intros Hseed Hitems Hmembers Hvariant Hstring m vis c w v d Hat Hv Hs.
  assert (Harr : forall expected items w', v = JArr items -> at_ c w' ->
    wp s (de_array limit expected (run_seq C limit n expected 0 vis) d) w'
    (ends (enter limit d
        match sem_items C s limit n expected 0 vis items (d + 1) with
        | Gives (a, len, rest) | Keeps (a, len, rest) =>
          match expected with
          | Some m => if len <? m then Fails (FError (DeInvalidLength len m)) else leave rest a
          | None => leave rest a
          end
        | Fails x => Fails x
        | Panics => Panics
        | Unfinished => Unfinished
        end) d (value_end c))).
  { intros expected items w' -> Hat'. inversion Hs; subst. apply wp_array; auto. }
  assert (Hobj : forall ms w', v = JObj ms -> at_ c w' ->
    wp s (de_object limit (run_map C limit n false vis) d) w'
      (ends (enter limit d (sem_members C s limit n (AtNames ms) vis (d + 1))) d (value_end c))).
  { intros ms w' -> Hat'. inversion Hs; subst. eapply wp_object; [exact Hat'|exact Hv|].
    intros w1 Hw1. apply Hmembers; [exact Hw1|]. cbn. splits; eauto. }
  assert (Hvar : forall ms w', v = JObj ms -> at_ c w' ->
    wp s (de_object limit (run_enum C limit n false vis) d) w'
      (ends (enter limit d (sem_variant C s limit n vis ms (d + 1))) d (value_end c))).
  { intros ms w' -> Hat'. inversion Hs; subst. eapply wp_object; [exact Hat'|exact Hv|].
    intros w1 Hw1. eapply Hvariant; [exact Hw1|reflexivity|assumption]. }
  assert (Hdata : forall y w', at_ (behind_value c) w' ->
    wp s (dend_now (DRet (visit_data C vis y)) d) w' (ends (given (visit_data C vis y)) d (value_end c))).
  { intros y w' Hw'. apply wp_given. exact Hw'. }
  assert (Hint : forall t, v = JNum t -> number_text t) by (intros t ->; inversion Hs; assumption).
  cbn [Nat.add]. destruct m.
  - (* any *) cbn [run_method]. eapply wp_peek; [exact Hat|exact Hv|]. intros w' Hat'.
    destruct v as [|b|t|t|items|ms]; cbn [json_type sem_method].
    + eapply wp_read; [exact Hat'|exact Hv|discriminate|reflexivity|reflexivity|]. intros w2 H2. apply Hdata, H2.
    + eapply wp_read; [exact Hat'|exact Hv|discriminate|reflexivity|reflexivity|]. intros w2 H2. apply Hdata, H2.
    + apply wp_number; [exact Hat'|exact Hv|]. apply visit_number_ok, Hint. reflexivity.
    + eapply wp_read; [exact Hat'|exact Hv|discriminate|reflexivity|reflexivity|]. intros w2 H2. apply Hdata, H2.
    + apply Harr; auto.
    + apply Hobj; auto.
  - (* bool *) cbn [run_method]. destruct v as [|b|t|t|items|ms]; cbn [sem_method];
      try (eapply wp_wrong; [exact Hat|exact Hv|reflexivity|discriminate]).
    eapply wp_read; [exact Hat|exact Hv|discriminate|reflexivity|reflexivity|]. intros w2 H2. apply Hdata, H2.
  - (* int *) cbn [run_method]. destruct v as [|b|t0|t0|items|ms]; cbn [sem_method];
      try (eapply wp_wrong; [exact Hat|exact Hv|reflexivity|discriminate]).
    apply wp_number; [exact Hat|exact Hv|]. cbv beta. rewrite (parse_int_integer _ _ (Hint t0 eq_refl)).
    destruct (integer t t0); reflexivity.
  - (* float *) cbn [run_method]. destruct v as [|b|t0|t0|items|ms]; cbn [sem_method];
      try (eapply wp_wrong; [exact Hat|exact Hv|reflexivity|discriminate]).
    apply (wp_number V s _ (Some (ViFloat t t0)) (visit_data C vis)); [exact Hat|exact Hv|]. reflexivity.
  - cbn [run_method]. destruct v as [|b|t|t|items|ms]; cbn [sem_method];
      try (eapply wp_wrong; [exact Hat|exact Hv|reflexivity|discriminate]).
    eapply wp_read; [exact Hat|exact Hv|discriminate|reflexivity|reflexivity|]. intros w2 H2. apply Hdata, H2.
  - cbn [run_method]. destruct v as [|b|t|t|items|ms]; cbn [sem_method];
      try (eapply wp_wrong; [exact Hat|exact Hv|reflexivity|discriminate]).
    eapply wp_read; [exact Hat|exact Hv|discriminate|reflexivity|reflexivity|]. intros w2 H2. apply Hdata, H2.
  - cbn [run_method]. destruct v as [|b|t|t|items|ms]; cbn [sem_method];
      try (eapply wp_wrong; [exact Hat|exact Hv|reflexivity|discriminate]).
    eapply wp_read; [exact Hat|exact Hv|discriminate|reflexivity|reflexivity|]. intros w2 H2. apply Hdata, H2.
  - (* bytes *) cbn [run_method]. eapply wp_peek; [exact Hat|exact Hv|]. intros w' Hat'.
    destruct v as [|b|t|t|items|ms]; cbn [json_type sem_method]; try (cbn; eexists; split; reflexivity).
    + eapply wp_read; [exact Hat'|exact Hv|discriminate|reflexivity|reflexivity|]. intros w2 H2. apply Hdata, H2.
    + apply Harr; auto.
  - (* byte buf *) cbn [run_method]. eapply wp_peek; [exact Hat|exact Hv|]. intros w' Hat'.
    destruct v as [|b|t|t|items|ms]; cbn [json_type sem_method]; try (cbn; eexists; split; reflexivity).
    + eapply wp_read; [exact Hat'|exact Hv|discriminate|reflexivity|reflexivity|]. intros w2 H2. apply Hdata, H2.
    + apply Harr; auto.
  - (* option *) cbn [run_method]. eapply wp_peek; [exact Hat|exact Hv|]. intros w' Hat'.
    destruct v as [|b|t|t|items|ms]; cbn [json_type sem_method]; try (apply Hseed; assumption).
    eapply wp_read; [exact Hat'|exact Hv|discriminate|reflexivity|reflexivity|]. intros w2 H2. apply Hdata, H2.
  - cbn [run_method]. destruct v as [|b|t|t|items|ms]; cbn [sem_method];
      try (eapply wp_wrong; [exact Hat|exact Hv|reflexivity|discriminate]).
    eapply wp_read; [exact Hat|exact Hv|discriminate|reflexivity|reflexivity|]. intros w2 H2. apply Hdata, H2.
  - cbn [run_method]. destruct v as [|b|t|t|items|ms]; cbn [sem_method];
      try (eapply wp_wrong; [exact Hat|exact Hv|reflexivity|discriminate]).
    eapply wp_read; [exact Hat|exact Hv|discriminate|reflexivity|reflexivity|]. intros w2 H2. apply Hdata, H2.
  - (* newtype *) cbn [run_method].
    replace (sem_method C s limit (Datatypes.S n) MNewtypeStruct vis v d) with (sem_seed C s limit n (visit_newtype C vis) v d) by (destruct v; reflexivity).
    apply Hseed; assumption.
  - cbn [run_method]. destruct v as [|b|t|t|items|ms]; cbn [sem_method]; try (apply wp_wrong_array; [exact Hat|exact Hv|discriminate]).
    apply Harr; auto.
  - cbn [run_method]. destruct v as [|b|t|t|items|ms]; cbn [sem_method]; try (apply wp_wrong_array; [exact Hat|exact Hv|discriminate]).
    apply (Harr (Some len)); auto.
  - cbn [run_method]. destruct v as [|b|t|t|items|ms]; cbn [sem_method]; try (apply wp_wrong_array; [exact Hat|exact Hv|discriminate]).
    apply (Harr (Some len)); auto.
  - cbn [run_method]. destruct v as [|b|t|t|items|ms]; cbn [sem_method]; try (apply wp_wrong_object; [exact Hat|exact Hv|discriminate]).
    apply Hobj; auto.
  - (* struct *) cbn [run_method]. eapply wp_peek; [exact Hat|exact Hv|]. intros w' Hat'.
    destruct v as [|b|t|t|items|ms]; cbn [json_type sem_method]; try (cbn; eexists; split; reflexivity).
    + apply Harr; auto.
    + apply Hobj; auto.
  - (* enum *) cbn [run_method]. eapply wp_peek; [exact Hat|exact Hv|]. intros w' Hat'.
    destruct v as [|b|t|t|items|ms]; cbn [json_type]; try (cbn; eexists; split; reflexivity).
    + exact (Hstring vis c w' (JStr t) d Hat' Hv Hs).
    + cbn [sem_method]. apply Hvar; auto.
  - cbn [run_method]. destruct v as [|b|t|t|items|ms]; cbn [sem_method];
      try (eapply wp_wrong; [exact Hat|exact Hv|reflexivity|discriminate]).
    eapply wp_read; [exact Hat|exact Hv|discriminate|reflexivity|reflexivity|]. intros w2 H2. apply Hdata, H2.
  - (* ignored any *) cbn [run_method].
    replace (sem_method C s limit (Datatypes.S n) MIgnoredAny vis v d) with (given (visit_data C vis ViUnit)) by (destruct v; reflexivity).
    eapply wp_read; [exact Hat|exact Hv|discriminate|reflexivity|reflexivity|]. intros w2 H2. apply Hdata, H2.
Qed.

Lemma all_ok V S (C : code V S) s limit : returns_errors C -> forall n,
  seed_ok C s limit n /\ method_ok C s limit n /\ items_ok C s limit n /\ members_ok C s limit n /\
  variant_ok C s limit n /\ string_ok C s limit n.
Proof.
  intros HC. induction n as [|n (H1 & H2 & H3 & H4 & H5 & H6)].
  - assert (Hitems : items_ok C s limit 0).
    { intros expected len st c w i items fs d Hat Hf Hs. cbn [run_seq sem_items].
      assert (Hsame : set_frames (InArray i items :: fs) c = c) by (rewrite <- Hf; destruct c; reflexivity).
      destruct (visit_seq C st) as [[e|a]|seed k]; cbn.
      - exists e. split; reflexivity.
      - exists (a, len). split; [reflexivity|]. split; [reflexivity|]. exists i. cbn. rewrite Hsame. exact Hat.
      - reflexivity. }
    splits; try assumption; try (intros until d; intros; reflexivity).
    apply members_step; auto.
  - splits.
    + apply seed_step; auto.
    + apply method_step; auto.
    + apply items_step; auto.
    + apply members_step; auto.
    + apply variant_step; auto.
    + apply string_step; auto.
Qed.

(** ** [deserialize_next] *)

Definition verdict_end {V : Type} (c : cursor) (x : verdict V) (r : dend V) (w : walk) : Prop :=
  agrees x r /\ match x with
  | Gives _ => at_ (behind_value c) w
  | Keeps _ => at_ c w
  | _ => True
  end.

Lemma ends_verdict V s (m : client (dend V * N)) c w (x : verdict V) d :
  wp s m w (ends x d (value_end c)) -> wp s (cbind m (fun re => Done (fst re))) w (verdict_end c x).
Proof.
  intros H. apply wp_cbind. eapply wp_weaken; [|exact H]. clear H. intros re w' H. cbn [wp]. unfold verdict_end.
  destruct x; cbn in *.
  - destruct H as (b & -> & <- & H). auto.
  - destruct H as (b & -> & <- & H). auto.
  - destruct H as (e & H1 & H2). split; [|exact I]. exists e. auto.
  - auto.
  - auto.
Qed.

Lemma next_ok V S (C : code V S) s steps seed c w v : returns_errors C -> at_ c w -> at_value s c = inr v ->
  wp s (deserialize_next C steps seed) w (verdict_end c (sem_seed C s 128 steps seed v 0)).
Proof.
  intros HC Hat Hv. apply wp_sound; [exact I|]. intros Hs.
  assert (Hsv : sound v).
  { destruct Hat as (_ & c' & -> & <-). exact (Hs v Hv). }
  apply (ends_verdict V s _ _ _ _ 0). eapply wp_peek; [exact Hat|exact Hv|].
  intros w' Hw'. apply (all_ok V S C s 128 HC steps); auto.
Qed.
