(** * Specification: programs which use a writer whose [Write] may fail

    [uses m log x] says that the program [m] makes the calls of [log] if they have the results of [log], and then
    returns [x] (SpecSimpleWriter.v). *)

From Verif Require Import Base WriterModel SimpleWriterModel SpecSimpleWriter.

(** The calls of [log], made one after the other with the writer, have the results of [log] *)
Inductive happens (cfg : wsettings) : wsession -> list (used * wresult) -> Prop :=
| Ha_nil s : happens cfg s []
| Ha_call c r s s' log : wstep cfg c s = (r, s') -> happens cfg s' log -> happens cfg s ((UCall c, r) :: log)
| Ha_finish r s : fst (wfinish s) = r -> happens cfg s [(UFinish, r)].

(** The error comes from the underlying [Write]: one of its responses is this error, or it has accepted no bytes *)
Definition error_of_the_sink (out : sink) (e : werr) : Prop :=
  match e with
  | WSink n => In (SErr n) (write_resps out) \/ In (Some n) (flush_resps out)
  | WWriteZero => In (SAccept 0) (write_resps out)
  | _ => False
  end.
