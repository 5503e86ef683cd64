(** What a schema demands, stated on positions and contents only. *)
From Verif Require Import Base Value TypesSpec.

(** Contents that stand for an integer, a float, a boolean. *)
Inductive integral : value graph -> Prop :=
| int_int k z : integral (VInt k z)
| int_f32 f : integral (VF32 f)
| int_f64 f : integral (VF64 f)
| int_str s z : numeral s z -> integral (VStr s)
| int_bytes s z : numeral s z -> integral (VBytes s).
Inductive floating (E : env) : value graph -> Prop :=
| fl_int k z : floating E (VInt k z)
| fl_f32 f : floating E (VF32 f)
| fl_f64 f : floating E (VF64 f)
| fl_text v s f : vstring E v = Ok s -> parse_float E s = Some f -> floating E v.
Inductive boolean : value graph -> Prop :=
| bo_bool b : boolean (VBool b)
| bo_int z : boolean (VInt KInt z)
| bo_int64 z : boolean (VInt KInt64 z)
| bo_str s : s = bs "true" \/ s = bs "false" -> boolean (VStr s)
| bo_bytes s : s = bs "true" \/ s = bs "false" -> boolean (VBytes s).

(** The content [v] is what the schema text [sc] asks for: that text itself, or a value of the
    type named after the exclamation mark. *)
Inductive suits (E : env) : bytes -> value graph -> Prop :=
| su_literal sc v : hd_error sc <> Some "!"%byte -> vstring E v = Ok sc -> suits E sc v
| su_float v : floating E v -> suits E (bs "!float") v
| su_int v : integral v -> suits E (bs "!int") v
| su_bool v : boolean v -> suits E (bs "!bool") v
| su_string s : suits E (bs "!string") (VStr s)
| su_binary s : suits E (bs "!binary") (VBytes s).

(** The children [xs] contain, position by position, what the schema's children ask for.
    Positions beyond those of the schema, or left open by it, are free. *)
Inductive conforms (E : env) : list (option graph) -> list (option graph) -> Prop :=
| co_nil xs : conforms E [] xs
| co_open gs xs : conforms E gs (tl xs) -> conforms E (None :: gs) xs
| co_cons g gs x xs sc :
    vstring E (this g) = Ok sc -> suits E sc (this x) ->
    conforms E (out g) (out x) -> conforms E gs xs ->
    conforms E (Some g :: gs) (Some x :: xs).

(** The first position, parents before children, that does not conform: the schema asks for
    [w], the graph has [y] there (nothing when there is no node). *)
Inductive misfit (E : env) : list (option graph) -> list (option graph) -> bytes -> bytes -> Prop :=
| mi_open gs xs w y : misfit E gs (tl xs) w y -> misfit E (None :: gs) xs w y
| mi_absent g gs xs w : vstring E (this g) = Ok w -> hd None xs = None -> misfit E (Some g :: gs) xs w []
| mi_here g gs x xs w y :
    vstring E (this g) = Ok w -> vstring E (this x) = Ok y -> ~ suits E w (this x) ->
    misfit E (Some g :: gs) (Some x :: xs) w y
| mi_below g gs x xs sc w y :
    vstring E (this g) = Ok sc -> suits E sc (this x) -> misfit E (out g) (out x) w y ->
    misfit E (Some g :: gs) (Some x :: xs) w y
| mi_after g gs x xs sc w y :
    vstring E (this g) = Ok sc -> suits E sc (this x) -> conforms E (out g) (out x) -> misfit E gs xs w y ->
    misfit E (Some g :: gs) (Some x :: xs) w y.

(** Every node of the schema that is present has a non-empty text, other than the type
    !binary. *)
Inductive usable (E : env) : option graph -> Prop :=
| us_none : usable E None
| us_some v k sc : vstring E v = Ok sc -> sc <> [] -> sc <> bs "!binary" -> Forall (usable E) k ->
    usable E (Some (Node v k)).
(** Every node of the graph that is present holds a value, not a pointer to another graph. *)
Inductive filled : option graph -> Prop :=
| fi_none : filled None
| fi_some v k : (match v with VNil | VPtr _ => False | _ => True end) -> Forall filled k -> filled (Some (Node v k)).
