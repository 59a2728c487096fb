(** * Specification: copying to a writer which is in use *)

From Verif Require Import Base Utf8Model WriterModel SourceModel ReaderModel TransferModel.

(** The call of a [JsonWriter] in the terms of SpecWriter; a transferred number
    is a number with this text *)
Definition target_call (p : put) : wcall :=
  match p with
  | PutBeginArray => WriterModel.CBeginArray
  | PutEndArray => WriterModel.CEndArray
  | PutBeginObject => WriterModel.CBeginObject
  | PutEndObject => WriterModel.CEndObject
  | PutName n => CName n
  | PutStringWriter => CStringWriter
  | PutWriteStr s => CWriteStr s
  | PutFinishValue => CFinishValue
  | PutNumber n => CFloat (Some n)
  | PutBool b => CBool b
  | PutNull => CNull
  end.

(** The writer [h], together with a list of all calls which it has received *)
Definition recording {F W : Type} (h : handler F W) : handler F (W * list put) := fun p wl =>
  let (r, w') := h p (fst wl) in (r, (w', snd wl ++ [p])).
