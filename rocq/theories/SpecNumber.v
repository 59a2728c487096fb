(** * Specification: JSON numbers (RFC 8259, section 6)

    [number = [ minus ] int [ frac ] [ exp ]].  Independent of the model. *)

From Verif Require Import Base.

(** DIGIT *)
Definition digit (b : byte) : Prop := 0x30 <= b <= 0x39.

(** [int = zero / ( digit1-9 *DIGIT )] *)
Definition int_text (t : bytes) : Prop :=
  t = [0x30] \/ exists d ds, t = d :: ds /\ 0x31 <= d <= 0x39 /\ Forall digit ds.

(** [1*DIGIT] *)
Definition digits1 (t : bytes) : Prop := t <> [] /\ Forall digit t.

(** [[ frac ]] with [frac = decimal-point 1*DIGIT] *)
Definition opt_frac_text (t : bytes) : Prop :=
  t = [] \/ exists ds, t = 0x2E :: ds /\ digits1 ds.

(** Number of digits without leading zeros. *)
Fixpoint significant (ds : bytes) : nat :=
  match ds with
  | [] => 0%nat
  | d :: ds' => if d =? 0x30 then significant ds' else length ds
  end.

(** [[ exp ]] with [exp = e [ minus / plus ] 1*DIGIT]; [n] is the number of
    exponent digits without leading zeros (0 if there is no exponent). *)
Definition opt_exp_text (t : bytes) (n : nat) : Prop :=
  (t = [] /\ n = 0%nat) \/
  exists e sign ds, t = e :: sign ++ ds
    /\ (e = 0x65 \/ e = 0x45)
    /\ (sign = [] \/ sign = [0x2D] \/ sign = [0x2B])
    /\ digits1 ds /\ n = significant ds.

(** [t] is a number whose exponent has [n] significant digits. *)
Definition number_text_exp (t : bytes) (n : nat) : Prop :=
  exists minus int frac exp, t = minus ++ int ++ frac ++ exp
    /\ (minus = [] \/ minus = [0x2D])
    /\ int_text int /\ opt_frac_text frac /\ opt_exp_text exp n.

Definition number_text (t : bytes) : Prop := exists n, number_text_exp t n.

(** Characters that can occur in a number; a number token ends before the
    first other character. *)
Definition number_char (b : byte) : Prop :=
  digit b \/ b = 0x2D \/ b = 0x2B \/ b = 0x2E \/ b = 0x65 \/ b = 0x45.
