(** Specifications of the graph operations, in terms of children lists and positions only. *)
From Verif Require Import Base Value.
From Coq Require Import SpecFloat.

(** The child [c] exists and prints as [s]. *)
Definition named (E : env) (s : bytes) (c : option graph) : Prop :=
  exists n, c = Some n /\ vstring E (this n) = Ok s.
(** Every child exists and prints as something. *)
Definition printable (E : env) (o : list (option graph)) : Prop :=
  Forall (fun c => exists s, named E s c) o.
(** [n], at index [i], is the first child printing as [s]. *)
Definition first_named (E : env) (s : bytes) (o : list (option graph)) (i : nat) (n : graph) : Prop :=
  nth_error o i = Some (Some n) /\ named E s (Some n) /\
  forall j c, (j < i)%nat -> nth_error o j = Some c -> ~ named E s c.
Definition none_named (E : env) (s : bytes) (o : list (option graph)) : Prop :=
  Forall (fun c => ~ named E s c) o.

(** The subnode that a value becomes: a graph is itself the subnode. *)
Definition subnode (v : value graph) (o : list (option graph)) : Prop :=
  match v with
  | VNil => o = []
  | VPtr (Some c) => o = [Some c]
  | v => o = [Some (Node v [])]
  end.

(** Go's == between contents of comparable types: same dynamic type and equal values. *)
Inductive go_equal : value graph -> value graph -> Prop :=
| eq_nil : go_equal VNil VNil
| eq_str s : go_equal (VStr s) (VStr s)
| eq_bool b : go_equal (VBool b) (VBool b)
| eq_int k z : go_equal (VInt k z) (VInt k z)
| eq_f32 x y : SFeqb x y = true -> go_equal (VF32 x) (VF32 y)
| eq_f64 x y : SFeqb x y = true -> go_equal (VF64 x) (VF64 y)
| eq_nilptr : go_equal (VPtr None) (VPtr None)
| eq_obj i : go_equal (VObj i) (VObj i)
| eq_other i : go_equal (VOther i) (VOther i).
(** Contents of comparable types; pointers to graphs are left out. *)
Definition comparable (v : value graph) : Prop :=
  match v with VBytes _ | VFun _ | VPtr (Some _) => False | _ => True end.
Definition not_nan (v : value graph) : Prop :=
  match v with VF32 S754_nan | VF64 S754_nan => False | _ => True end.
Definition no_float (v : value graph) : Prop :=
  match v with VF32 _ | VF64 _ => False | _ => True end.

(** Every node of the graph exists and its content satisfies P. *)
Inductive all_nodes (P : value graph -> Prop) : graph -> Prop :=
| all_node v k : P v -> Forall (all_nodes P) k -> all_nodes P (Node v (map Some k)).

(** Same shape, same order, equal contents. *)
Inductive same : graph -> graph -> Prop :=
| same_node v w k l : go_equal v w -> Forall2 same k l -> same (Node v (map Some k)) (Node w (map Some l)).

(** [deleted n o o']: [o'] is [o] without the children whose content equals [n]. *)
Inductive deleted (n : value graph) : list (option graph) -> list (option graph) -> Prop :=
| del_nil : deleted n [] []
| del_drop c o o' : go_equal (this c) n -> deleted n o o' -> deleted n (Some c :: o) o'
| del_keep c o o' : ~ go_equal (this c) n -> deleted n o o' -> deleted n (Some c :: o) (Some c :: o').

(** The node at a position (the child indices on the way down). *)
Fixpoint node_at (g : graph) (p : list nat) : option graph :=
  match p with
  | [] => Some g
  | i :: p' => match nth_error (out g) i with Some (Some c) => node_at c p' | _ => None end
  end.

(** Every content of the graph has a string form and no node is missing. *)
Definition whole (E : env) (g : graph) : Prop := all_nodes (fun v => exists s, vstring E v = Ok s) g.

(** Replacing the subnodes of the first child named s (or of a new last child). *)
Definition put (E : env) (s : bytes) (k : list (option graph)) (o o' : list (option graph)) : Prop :=
  exists i n, first_named E s o' i n /\ out n = k /\
    ((exists m, first_named E s o i m /\ this n = this m /\ List.length o' = List.length o) \/
     (none_named E s o /\ i = List.length o /\ List.length o' = S i /\ this n = VStr s)) /\
    forall j, j <> i -> nth_error o' j = nth_error o j.

(** Contents that Copy copies: neither nil nor a pointer to a graph. *)
Definition copyable (v : value graph) : Prop := match v with VNil | VPtr (Some _) => False | _ => True end.

(** No child of [o] prints as what String() gives for a child of [k]. *)
Definition no_match (E : env) (k : list graph) (o : list (option graph)) : Prop :=
  Forall (fun n => exists s, String_ E (Some n) = Ok s /\ none_named E s o) k.
