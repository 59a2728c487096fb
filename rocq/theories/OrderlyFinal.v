(** * Proofs of the property theorems about orderly closures and implementations of [Deserialize] *)

From Verif Require Import Base Utf8Model SourceModel ReaderModel SpecUsage ClientUsage SpecOrderly DeOrderly.
From Verif Require DeModel SimpleModel SimpleOrderly.


Lemma C60_orderly_use_never_panics_holds : forall (R : Type) (s : settings) (evs : list event) (fuel : nat) (w : SimpleModel.use R),
  Forall is_byte (fst (supplied evs)) -> orderly_use w ->
  forall k, SimpleModel.simple_session fuel s evs w <> SimpleModel.SPanic k.
Proof.
  intros R s evs fuel w Hb Ho. apply SimpleOrderly.simple_never_panics; assumption.
Qed.

Lemma C60_ignoring_own_errors_refuted_holds : exists (member outer : SimpleModel.body nat) (evs : list event),
  orderly_body true member /\
  outer = SimpleModel.BRead (SimpleModel.OpMembers (fun _ => member) 0%nat)
            (fun _ => SimpleModel.BHasNext (fun _ => SimpleModel.BDone (inr 1%nat))) /\
  evs = [EvData [0x5B; 0x7B; 0x22; 0x61; 0x22; 0x3A; 0x31; 0x7D; 0x5D]] /\
  SimpleModel.simple_session 20 default_settings evs (SimpleModel.URead (SimpleModel.OpArray outer)) =
    SimpleModel.SPanic Misuse.
Proof.
  exists (SimpleModel.BReadName (fun _ => SimpleModel.BDone (inl (SimpleModel.SCustom 1)))). do 2 eexists.
  split; [split; [reflexivity|intros; exact I]|]. split; [reflexivity|]. split; [reflexivity|]. vm_compute. reflexivity.
Qed.

Lemma C60_read_name_after_peek_refuted_holds : exists (member : nat -> SimpleModel.body nat) (evs : list event),
  member = (fun _ =>
    SimpleModel.BPeek (fun x =>
      match x with
      | inl e => SimpleModel.BDone (inl e)
      | inr _ =>
        SimpleModel.BReadName (fun y =>
          match y with
          | inl e => SimpleModel.BDone (inl e)
          | inr _ => SimpleModel.BDone (inr 1%nat)
          end)
      end)) /\
  evs = [EvData [0x7B; 0x22; 0x61; 0x22; 0x3A; 0x31; 0x7D]] /\
  SimpleModel.simple_session 20 default_settings evs (SimpleModel.URead (SimpleModel.OpMembers member 0%nat)) =
    SimpleModel.SPanic Misuse.
Proof.
  do 2 eexists. split; [reflexivity|]. split; [reflexivity|]. vm_compute. reflexivity.
Qed.

Lemma limit_uses V S s (C : DeModel.code V S) fuel limit seed o b : orderly_code C seed -> value_allowed s (vu o b) = true ->
  uses s (DeModel.deserialize_with_limit C fuel limit seed) (Some (vu o b)) false
    (fun r u' => match r with DeModel.DPanic _ => False | DeModel.DRet (inr _) => u' = Some (fin o b) | _ => True end).
Proof.
  intros [HC (seeds & visitors & elements & members & HO & Hs)] Ha. unfold DeModel.deserialize_with_limit.
  apply uses_cbind. eapply uses_weaken; [|apply (proj1 (all_orderly V S s limit C seeds visitors elements members HC HO fuel) seed o b Hs Ha)].
  intros [x d] u' [_ H]. cbn [fst snd uses] in *. destruct x as [[er|a]|k| |]; cbn in *; auto.
  destruct H as (v & -> & ->). reflexivity.
Qed.
Lemma next_uses V S s (C : DeModel.code V S) fuel seed o b : orderly_code C seed -> value_allowed s (vu o b) = true ->
  uses s (DeModel.deserialize_next C fuel seed) (Some (vu o b)) false
    (fun r u' => match r with DeModel.DPanic _ => False | DeModel.DRet (inr _) => u' = Some (fin o b) | _ => True end).
Proof.
  intros [HC (seeds & visitors & elements & members & HO & Hs)] Ha. unfold DeModel.deserialize_next.
  apply uses_cbind. eapply uses_weaken; [|apply (dok_bind _ _ s (vu o b) DeModel.use_peek (fun _ => DeModel.run_seed C 128 fuel seed) _ (fun _ v => v = fin o b) (dok_peek s _ Ha))].
  - intros [x d] u' [_ H]. cbn [fst snd uses] in *. destruct x as [[er|a]|k| |]; cbn in *; auto.
    destruct H as (v & -> & ->). reflexivity.
  - intros t v ->. apply (all_orderly V S s 128 C seeds visitors elements members HC HO fuel); assumption.
Qed.
Lemma value_usage s u : value_allowed s u = true -> u = vu (u_open u) (u_some u).
Proof. destruct u as [o n b a]. unfold value_allowed, vu. cbn. destruct a, n; cbn; try discriminate. reflexivity. Qed.


Lemma C61_orderly_code_never_panics_holds : forall (V S : Type) (C : DeModel.code V S) (fuel : nat) (limit : N) (seed : S) (s : settings) (evs : list event)
    (before after : list rcall) (os1 os2 : list outcome) (r : DeModel.dend V) (u : usage),
  Forall is_byte (fst (supplied evs)) -> orderly_code C seed ->
  DeModel.client_session s evs (DeModel.around before (DeModel.deserialize_with_limit C fuel limit seed) after) = Some (os1, r, os2) ->
  usage_of before os1 usage_start = Some u -> value_allowed s u = true ->
  (forall k, r <> DeModel.DPanic k) /\
  (forall a, r = DeModel.DRet (inr a) -> correct_usage s after os2 (value_done (u_open u) u) ->
   forall o k, In o os2 -> o <> OPanic k).
Proof.
  intros V S C fuel limit seed s evs before after os1 os2 r u Hb HC Hs Hu Ha.
  pose proof (value_usage s u Ha) as Eu. rewrite Eu in Ha.
  pose proof (limit_uses V S s C fuel limit seed _ _ HC Ha) as H. rewrite <- Eu in H.
  destruct (uses_around _ s evs before _ after os1 r os2 u _ Hb Hs Hu H) as (u' & HQ & Hafter). split.
  - intros k ->. exact HQ.
  - intros a -> Hc. apply (Hafter _ HQ). exact Hc.
Qed.

Lemma C61_deserialize_next_never_panics_holds : forall (V S : Type) (C : DeModel.code V S) (fuel : nat) (seed : S) (s : settings) (evs : list event)
    (before after : list rcall) (os1 os2 : list outcome) (r : DeModel.dend V) (u : usage),
  Forall is_byte (fst (supplied evs)) -> orderly_code C seed ->
  DeModel.client_session s evs (DeModel.around before (DeModel.deserialize_next C fuel seed) after) = Some (os1, r, os2) ->
  usage_of before os1 usage_start = Some u -> value_allowed s u = true ->
  (forall k, r <> DeModel.DPanic k) /\
  (forall a, r = DeModel.DRet (inr a) -> correct_usage s after os2 (value_done (u_open u) u) ->
   forall o k, In o os2 -> o <> OPanic k).
Proof.
  intros V S C fuel seed s evs before after os1 os2 r u Hb HC Hs Hu Ha.
  pose proof (value_usage s u Ha) as Eu. rewrite Eu in Ha.
  pose proof (next_uses V S s C fuel seed _ _ HC Ha) as H. rewrite <- Eu in H.
  destruct (uses_around _ s evs before _ after os1 r os2 u _ Hb Hs Hu H) as (u' & HQ & Hafter). split.
  - intros k ->. exact HQ.
  - intros a -> Hc. apply (Hafter _ HQ). exact Hc.
Qed.

Lemma C61_disorderly_code_refuted_holds : exists (C : DeModel.code nat (option DeModel.derr)) (evs : list event) (os : list outcome),
  SpecDe.returns_errors C /\ (forall st, DeModel.deserialize C st = DeModel.SaCall DeModel.MMap None (fun r => r)) /\
  (exists k, DeModel.visit_map C None = DeModel.MpKey None k /\ forall x, k (inr x) = None) /\
  evs = [EvData [0x7B; 0x22; 0x61; 0x22; 0x3A; 0x31; 0x7D]] /\
  DeModel.client_session default_settings evs (DeModel.around [] (DeModel.deserialize_with_limit C 20 128 None) []) =
    Some ([], DeModel.DPanic Misuse, os).
Proof.
  exists {| DeModel.deserialize := fun _ => DeModel.SaCall DeModel.MMap None (fun r => r);
            DeModel.visit_data := fun _ _ => inr 1%nat;
            DeModel.visit_some := fun _ => None;
            DeModel.visit_newtype := fun _ => None;
            DeModel.visit_seq := fun _ => DeModel.SqDone (inr 1%nat);
            DeModel.visit_map := fun st : option DeModel.derr =>
              match st with
              | Some e => DeModel.MpDone (inl e)
              | None => DeModel.MpKey None (fun r => match r with inl e => Some e | inr _ => None end)
              end;
            DeModel.visit_enum := fun _ => DeModel.EnDone (inl (DeModel.DeCustom 1));
            DeModel.with_variant := fun _ => DeModel.VaDone (inl (DeModel.DeCustom 1)) |}.
  do 2 eexists. split; [|split; [reflexivity|]; split; [eexists; split; [reflexivity|reflexivity]|]; split; [reflexivity|vm_compute; reflexivity]].
  unfold SpecDe.returns_errors. cbn. repeat split; intros; try discriminate; auto.
  - injection H as <- <- <-. reflexivity.
  - destruct st; [discriminate|]. injection H as <- <-. reflexivity.
  - destruct st; discriminate.
Qed.
