(** Rounding to float64 (IEEE 754, to nearest, ties to even), stated on integers: every finite
    float64 is a multiple of 2^-1074. *)
From Verif Require Import Base Value TypesSpec.

(** A float64, as a number of units of 2^-1074 *)
Definition double (x : spec_float) : Prop :=
  match x with S754_finite _ _ _ => valid_binary 53 1024 x = true | S754_zero _ => True | _ => False end.
Definition in_units (x : spec_float) : Z :=
  match x with S754_finite s m e => (if s then -1 else 1) * (Z.pos m * 2 ^ (e + 1074)) | _ => 0 end.
(** The last bit of the significand is 0. *)
Definition even_float (x : spec_float) : Prop :=
  match x with S754_finite _ m _ => Z.even (Z.pos m) = true | _ => True end.

(** x is the float64 for P/Q units: the nearest one and, if two are equally near, the even one;
    infinity from half a step beyond the largest one on. *)
Definition float_top : Z := (2 ^ 54 - 1) * 2 ^ 2044.
Definition nearest (P Q : Z) (x : spec_float) : Prop :=
  forall y, double y -> Z.abs (in_units x * Q - P) <= Z.abs (in_units y * Q - P) /\
    (Z.abs (in_units x * Q - P) = Z.abs (in_units y * Q - P) -> in_units x = in_units y \/ even_float x).
Definition rounds (P Q : Z) (x : spec_float) : Prop :=
  (Z.abs P < float_top * Q /\ double x /\ nearest P Q x) \/
  (float_top * Q <= P /\ x = S754_infinity false) \/ (P <= - (float_top * Q) /\ x = S754_infinity true).

(** A finite float32 *)
Definition single (x : spec_float) : Prop :=
  match x with S754_finite _ _ _ => valid_binary 24 128 x = true | S754_zero _ => True | _ => False end.
(** [as_number v x]: the float64 for the number v.  A float32 is a float64 of the same value; an
    integer that is not a float64 is rounded. *)
Inductive as_number {P} : value P -> spec_float -> Prop :=
| num_int k z x : in64 z -> rounds (z * 2 ^ 1074) 1 x -> as_number (VInt k z) x
| num_f32 f x : single f -> double x -> in_units x = in_units f -> as_number (VF32 f) x
| num_f64 x : double x -> as_number (VF64 x) x.
Definition int_value {P} (v : value P) : Prop := match v with VInt _ _ => True | _ => False end.
