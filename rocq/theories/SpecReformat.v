(** * Specification: copying a document from any input *)

From Verif Require Import Base SourceModel WriterModel ReaderModel TransferModel.

(** The call has ended, and not with an internal panic *)
Definition settled {F A : Type} (r : res F A) : Prop :=
  match r with OutOfFuel => False | Panic Bug => False | _ => True end.

(** A writer none of whose methods runs forever or has an internal panic; it may
    fail and panic in other ways *)
Definition tame {F W : Type} (h : handler F W) : Prop := forall p w, settled (fst (h p w)).

(** A program which reformats a document: it creates a writer, copies the
    document with [transfer_to], makes sure that nothing follows it and finishes
    the writer.  The output if all calls succeed. *)
Definition reformat (s : settings) (cfg : wsettings) (evs : list event) (out : sink) : option bytes :=
  match transfer_session s evs (stream_writer cfg) (new_session out) [] [CConsumeTrailingWhitespace] with
  | Some (_, Some (Ok _), w, [OOk RUnit]) =>
    match wfinish w with
    | (RDone, out') => Some (received out')
    | _ => None
    end
  | _ => None
  end.
