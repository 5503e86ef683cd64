(** Model of the getters of gettypes.go that are not in Value.v, Views.v and Eval.v. *)
From Verif Require Import Base Value Views.

Section Getters.
Variable E : env.

(** g.This: a nil receiver panics *)
Definition This (g : option graph) : res (value graph) := match g with None => Panic | Some g => Ok (this g) end.

(** gettypes.go:188-191 Bytes.  A nil slice is []. *)
Definition Bytes (g : option graph) : res bytes := let* v := Interface g in vbytes E v.
(** gettypes.go:193-196 ThisBytes *)
Definition ThisBytes (g : option graph) : res bytes := let* v := This g in vbytes E v.
(** gettypes.go:198-201 Number *)
Definition Number (g : option graph) : res (value graph) := let* v := Interface g in number E v.
(** gettypes.go:203-206 ThisNumber *)
Definition ThisNumber (g : option graph) : res (value graph) := let* v := This g in number E v.
(** gettypes.go:208-211 ThisInt64; None: false *)
Definition ThisInt64 (g : option graph) : res (option Z) := let* v := This g in v_int64f E v.
(** gettypes.go:213-216 ThisFloat64 *)
Definition ThisFloat64 (g : option graph) : res (option spec_float) := let* v := This g in v_float64f E v.
(** gettypes.go:53-62 Float64(def...); _float64f is called with a string *)
Definition Float64_def (g : option graph) (def : option spec_float) : res spec_float :=
  let* s := String_def E g None in
  let* n := v_float64f E (VStr s) in
  Ok match n with Some f => f | None => match def with Some d => d | None => S754_nan end end.
(** gettypes.go:175-186 ThisString(def...) *)
Definition ThisString_def (g : option graph) (def : option bytes) : res bytes :=
  match g with
  | None => Ok match def with Some d => d | None => [] end
  | Some g => vstring E (this g)
  end.
End Getters.
