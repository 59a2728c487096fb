(** * Programs which use a [JsonReader]

    The simple reader API (src/reader/simple.rs) and the serde deserializer
    (src/serde/de.rs) use a [JsonReader] only through its API.  They are modelled as
    programs which make calls of [ReaderModel.rcall] and continue with their outcomes. *)

From Verif Require Import Base Utf8Model SourceModel ReaderModel.

Inductive client (A : Type) : Type :=
| Done (a : A)
| Call (c : rcall) (k : outcome -> client A).
Arguments Done {A} a.
Arguments Call {A} c k.

Fixpoint cbind {A B : Type} (m : client A) (f : A -> client B) : client B :=
  match m with
  | Done a => f a
  | Call c k => Call c (fun o => cbind (k o) f)
  end.

(** The program run on a [JsonStreamReader] *)
Fixpoint client_run {A : Type} (E : env) (m : client A) (st : session) : prog (A * session) :=
  match m with
  | Done a => Ret (a, st)
  | Call c k => pbind (client_call E c st) (fun os => client_run E (k (fst os)) (snd os))
  end.
