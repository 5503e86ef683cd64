(** Concrete objects used by the non-vacuity examples. *)
From Verif Require Import Base Value.

(** A library environment; only used in examples. *)
Definition env0 : env := {|
  sprint_f32 _ := bs "0.5"; sprint_f64 _ := bs "0.5"; sprint_fun _ := bs "0xf"; sprint_obj _ := bs "0xc0";
  sprint_other _ := bs "{}"; parse_float _ := None; f2i_out _ := - 2 ^ 63; ptr_eq _ _ := false;
  hi_letter _ := false; hi_digit _ := false |}.

Definition nd (s : string) (k : list graph) : graph := Node (VStr (bs s)) (map Some k).
Arguments nd s%string_scope k.
Definition tr (s : string) (k : list tree) : tree := T (bs s) k.
Arguments tr s%string_scope k.
