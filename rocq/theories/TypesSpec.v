(** Decimal numerals, as the typed accessors understand them. *)
From Verif Require Import Base Value TextSpec.

(** [s] is the decimal text of the 64-bit integer [z], possibly with a sign. *)
Inductive numeral : bytes -> Z -> Prop :=
| num_plain s : digits s -> number_of s < 2 ^ 63 -> numeral s (number_of s)
| num_plus s : digits s -> number_of s < 2 ^ 63 -> numeral ("+"%byte :: s) (number_of s)
| num_minus s : digits s -> number_of s <= 2 ^ 63 -> numeral ("-"%byte :: s) (- number_of s).

(** A text made of one or more blanks only. *)
Definition blank (s : bytes) : Prop := s <> [] /\ Forall (fun c => c = x20 \/ c = x09) s.

(** [float_parts f s a b]: the absolute value of the finite float [f] is the fraction a / b,
    negative if s. *)
Definition float_parts (f : spec_float) (s : bool) (a b : Z) : Prop :=
  match f with
  | S754_zero s' => s = s' /\ a = 0 /\ b = 1
  | S754_finite s' m e => s = s' /\ a = Z.pos m * 2 ^ Z.max e 0 /\ b = 2 ^ Z.max (- e) 0
  | _ => False
  end.
(** The float is the integer z. *)
Definition float_is (f : spec_float) (z : Z) : Prop := exists s a b, float_parts f s a b /\ Z.abs z * b = a /\ (s = true -> z <= 0) /\ (s = false -> 0 <= z).
(** The integer z is what is left of the float without its decimals. *)
Definition integer_part (f : spec_float) (z : Z) : Prop :=
  exists s a b, float_parts f s a b /\ Z.abs z * b <= a < (Z.abs z + 1) * b /\ (s = true -> z <= 0) /\ (s = false -> 0 <= z).
