(** * Specification: the integer which the text of a number denotes *)

From Verif Require Import Base WriterModel ReaderModel SpecNumber SpecWriter SpecCursor DeModel SpecDe IntegersModel.

(** Digits without superfluous zeros, possibly behind a minus sign; neither
    fraction nor exponent.  A text with minus sign has no value of an unsigned type, not even [-0]. *)
Definition integer_text (t : int_type) (text : bytes) (z : Z) : Prop :=
  (int_text text /\ z = Z.of_N (digits_value text)) \/
  (exists ds, text = 0x2D :: ds /\ int_text ds /\ z = (- Z.of_N (digits_value ds))%Z /\ (min_int t < 0)%Z).

(** The smallest and the largest value of each type are listed in SpecDe.v *)
Definition int_fits (t : int_type) (z : Z) : Prop := (min_int t <= z <= max_int t)%Z.

(** The result of a call if the specification of the reader says [x] *)
Definition is_integer_result (s : settings) (cx : icall * expected) (o : ioutcome) : Prop :=
  match cx with
  | (INextNumber t, XOk (RStr text)) => exists r, o = IParsed r /\ forall z, r = Some z <-> integer_text t text z /\ int_fits t z
  | (_, XTrailing) => True
  | (_, x) => exists o', o = IOut o' /\ is_result s x o'
  end.
