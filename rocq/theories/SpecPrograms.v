(** * Specification: programs which decide on the next call by the results so far

    A [client] is such a program; [plays m log a] says that it makes the calls of [log] if they have the results of
    [log], and then returns [a] (SpecSimple.v). *)

From Verif Require Import Base Utf8Model SpecJson SourceModel ReaderModel SpecCursor SpecRead SpecSessions ClientModel SpecSimple.

(** The calls of [log], made one after the other on a new reader, have the results of [log] *)
Definition really_happens (s : settings) (evs : list event) (log : list (rcall * outcome)) : Prop :=
  read_session s evs (map fst log) = map snd log.

(** Running the program, one of its calls has a result with the property [P] *)
Definition encounters {A : Type} (P : outcome -> Prop) (s : settings) (evs : list event) (m : client A) : Prop :=
  exists log a, plays m log a /\ really_happens s evs log /\ Exists (fun co => P (snd co)) log.

(** The program does not make use of what [f] removes from the results *)
Inductive ignores {A : Type} (f : outcome -> outcome) : client A -> Prop :=
| Ig_done a : ignores f (Done a)
| Ig_call c k : (forall o1 o2, f o1 = f o2 -> k o1 = k o2) -> (forall o, ignores f (k o)) -> ignores f (Call c k).

(** The program does not make calls with the property [P] *)
Inductive avoids {A : Type} (P : rcall -> Prop) : client A -> Prop :=
| Av_done a : avoids P (Done a)
| Av_call c k : ~ P c -> (forall o, avoids P (k o)) -> avoids P (Call c k).
