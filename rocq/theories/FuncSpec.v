(** Calls of functions and methods in paths, written independently of the parser and the
    evaluator. *)
From Verif Require Import Base Value GraphSpec TextSpec PathSpec TypesSpec AccessSpec EvalSpec Views Func.

(** An argument, with the blanks before it *)
Record actual : Type := mkActual { pad : bytes; what : operand }.
Definition actual_ok (E : env) (a : actual) : Prop := blanks (pad a) /\ operand_ok E (what a).
Definition actual_text (a : actual) : bytes := pad a ++ operand_text (what a).
Fixpoint actuals_text (l : list actual) : bytes :=
  match l with
  | [] => []
  | a :: [] => actual_text a
  | a :: l => actual_text a ++ ","%byte :: actuals_text l
  end.
(** p(a, b, c).q *)
Definition call_text (es : list elem) (l : list actual) (es2 : list elem) : bytes :=
  path_text es ++ "("%byte :: actuals_text l ++ ")"%byte :: flat_map (elem_text false) es2.
Definition actual_tree (a : actual) : tree := T (bs "!e") [operand_tree (what a)].
Definition actuals_tree (l : list actual) : tree := T (bs "!a") (map actual_tree l).

(** ** What is handed over *)

(** The value of an argument: a number as int64, a string, and for a path what its node holds
    (the node itself unless a single value is all there is below it) *)
Inductive worth (E : env) (g : graph) : operand -> value graph -> Prop :=
| worth_num z : in64 z -> worth E g (ONum (format_int z)) (VInt KInt64 z)
| worth_str q s : worth E g (OStr q s) (VStr s)
| worth_value ns n v : ns <> [] -> Forall (name E) ns -> Forall ordinary ns -> walk E (map Name ns) g n -> out n = [Some (Node v [])] ->
    worth E g (OPath (map Name ns)) v
| worth_node ns n : ns <> [] -> Forall (name E) ns -> Forall ordinary ns -> walk E (map Name ns) g n -> (forall v, out n <> [Some (Node v [])]) ->
    worth E g (OPath (map Name ns)) (VPtr (Some n)).
(** For methods a path is always its node. *)
Inductive worth_m (E : env) (g : graph) : operand -> value graph -> Prop :=
| worthm_num z : in64 z -> worth_m E g (ONum (format_int z)) (VInt KInt64 z)
| worthm_str q s : worth_m E g (OStr q s) (VStr s)
| worthm_node ns n : ns <> [] -> Forall (name E) ns -> Forall ordinary ns -> walk E (map Name ns) g n ->
    worth_m E g (OPath (map Name ns)) (VPtr (Some n)).

(** The type of a value handed over *)
Inductive has_type : value graph -> bytes -> Prop :=
| ty_string s : has_type (VStr s) (bs "string")
| ty_bytes s : has_type (VBytes s) (bs "[]uint8")
| ty_bool b : has_type (VBool b) (bs "bool")
| ty_int64 z : has_type (VInt KInt64 z) (bs "int64")
| ty_int z : has_type (VInt KInt z) (bs "int")
| ty_int32 z : has_type (VInt KInt32 z) (bs "int32")
| ty_f32 f : has_type (VF32 f) (bs "float32")
| ty_f64 f : has_type (VF64 f) (bs "float64")
| ty_graph n : has_type (VPtr n) (bs "*ogdl.Graph").

(** A function of the type func( *Graph) ( *Graph, error) is taken for a remote one. *)
Definition looks_remote (s : signature) : Prop := params s = [bs "*ogdl.Graph"] /\ results s = [bs "*ogdl.Graph"; bs "error"].

(** A graph as a result: the value it holds if a single value is all there is below it *)
Definition plain (r w : value graph) : Prop :=
  (exists t v, r = VPtr (Some (Node t [Some (Node v [])])) /\ w = v) \/
  ((forall t v, r <> VPtr (Some (Node t [Some (Node v [])]))) /\ w = r).

(** [becomes v t a]: a method with a parameter of type t gets a for the argument v. *)
Inductive becomes (E : env) : value graph -> bytes -> argument -> Prop :=
| bec_same v t : has_type v t -> becomes E v t (AVal v)
| bec_int z : becomes E (VInt KInt64 z) (bs "int") (AVal (VInt KInt z))
| bec_text z : in64 z -> becomes E (VStr (format_int z)) (bs "int64") (AVal (VInt KInt64 z))
| bec_node_int64 z t o r : in64 z -> becomes E (VPtr (Some (Node t (Some (Node (VInt KInt64 z) o) :: r)))) (bs "int64") (AVal (VInt KInt64 z))
| bec_node_int z t o r : in64 z -> becomes E (VPtr (Some (Node t (Some (Node (VInt KInt64 z) o) :: r)))) (bs "int") (AVal (VInt KInt z))
| bec_node_text t s : becomes E (VPtr (Some (Node t [Some (Node (VStr s) [])]))) (bs "string") (AVal (VStr s))
| bec_node_bool t b o r : becomes E (VPtr (Some (Node t (Some (Node (VBool b) o) :: r)))) (bs "bool") (AVal (VBool b)).
(** What the parameters get: zero values for missing arguments; arguments in excess are dropped. *)
Inductive adapted (E : env) : list bytes -> list (value graph) -> list passed -> Prop :=
| ad_end vs : adapted E [] vs []
| ad_zero t ts xs : adapted E ts [] xs -> adapted E (t :: ts) [] (Zero t :: xs)
| ad_arg t ts v vs a xs : becomes E v t a -> adapted E ts vs xs -> adapted E (t :: ts) (v :: vs) (Arg a :: xs).

(** An argument as a node of the graph that goes to a remote function *)
Definition sent_as (v : value graph) (n : graph) : Prop := v = VPtr (Some n) \/ (data v /\ v <> VNil /\ n = Node v []).

(** The first result of a call *)
Definition outcome (rs : list (value graph)) (r : value graph) : Prop := (rs = [] /\ r = VNil) \/ exists l, rs = r :: l.
(** What the elements after the call lead to: a node of the graph that the call returned *)
Definition reached (E : env) (qs : list bytes) (r r' : value graph) : Prop :=
  (qs = [] /\ r' = r) \/ exists n m, r = VPtr (Some n) /\ whole E n /\ walk E (map Name qs) n m /\ r' = VPtr (Some m).
