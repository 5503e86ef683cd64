(** Indexes that are expressions, a[i] and a[i + 1], names that are, a.(n), and selectors, a{} and
    a{i}, written independently of the parser and the evaluator. *)
From Verif Require Import Base Value GraphSpec TextSpec PathSpec AccessSpec EvalSpec FuncSpec.
From Verif Require SelSpec.

(** A name or quoted string, an expression in brackets, parentheses or braces - operands with
    operators between them -, or empty braces *)
Inductive hop : Type := Go (e : elem) | At (pad : bytes) (a : operand) (l : list step) | By (pad : bytes) (a : operand) (l : list step)
| Of (pad : bytes) (a : operand) (l : list step) | All.
Definition hop_text (first : bool) (h : hop) : bytes :=
  match h with
  | Go e => elem_text first e
  | At pad a l => "["%byte :: pad ++ expr_text a l ++ ["]"%byte]
  | By pad a l => (if first then [] else ["."%byte]) ++ "("%byte :: pad ++ expr_text a l ++ [")"%byte]
  | Of pad a l => "{"%byte :: pad ++ expr_text a l ++ ["}"%byte]
  | All => bs "{}"
  end.
Definition hops_text (l : list hop) : bytes := match l with [] => [] | h :: l => hop_text true h ++ flat_map (hop_text false) l end.
Definition hop_ok (E : env) (h : hop) : Prop :=
  match h with
  | Go e => elem_ok E e /\ unmarked e /\ key e <> None
  | All => True
  | At pad a l | By pad a l | Of pad a l => blanks pad /\ operand_ok E a /\ Forall (step_ok E) l
  end.
Definition starts_with_name (l : list hop) : Prop := match l with Go e :: _ => starts_with_letter [e] | _ => False end.
Definition hop_free (h : hop) : Prop := match h with Go e => match key e with Some s => ordinary s | None => True end | _ => True end.

(** [position g a z]: the operand a is the integer z, with the values that the graph g holds *)
Inductive position (E : env) (g : graph) : operand -> Z -> Prop :=
| pos_number d : digits d -> number_of d < 2 ^ 63 -> position E g (ONum d) (number_of d)
| pos_variable ns n k z : ns <> [] -> Forall (name E) ns -> Forall ordinary ns -> walk E (map Name ns) g n -> out n = [Some (Node (VInt k z) [])] -> 0 <= z < 2 ^ 63 ->
    position E g (OPath (map Name ns)) z.
(** What is not a position: negative numbers, texts, nodes; what is not there; numbers that are
    too large; what has no value because of such a number *)
Inductive no_position (E : env) (g : graph) : operand -> Prop :=
| np_value a v : worth E g a v -> (forall k z, v = VInt k z -> z < 0 /\ in64 z) -> no_position E g a
| np_missing ns : Forall (name E) ns -> Forall ordinary ns -> all_nodes data g -> lost E (map Name ns) g -> no_position E g (OPath (map Name ns))
| np_large d : digits d -> 2 ^ 63 <= number_of d -> no_position E g (ONum d)
| np_fails ns n d es : ns <> [] -> Forall (name E) ns -> Forall ordinary ns -> walk E (map Name ns) g n -> digits d -> 2 ^ 63 <= number_of d ->
    no_position E g (OPath (map Name ns ++ Index d :: es)).

(** [called g a s]: the text of the operand a, with the values that the graph g holds, is s.  The
    text of a node is that of its first subnode. *)
Inductive reads : value graph -> bytes -> Prop :=
| reads_str s : reads (VStr s) s
| reads_bytes s : reads (VBytes s) s
| reads_int k z : reads (VInt k z) (format_int z)
| reads_bool (b : bool) : reads (VBool b) (if b then bs "true" else bs "false").
Inductive called (E : env) (g : graph) (a : operand) (s : bytes) : Prop :=
| called_value v : worth E g a v -> reads v s -> called E g a s
| called_node n c k : worth E g a (VPtr (Some n)) -> out n = Some c :: k -> reads (this c) s -> called E g a s.

(** The name that a hop stands for *)
Definition spells (E : env) (g0 : graph) (h : hop) (s : bytes) : Prop :=
  s <> [] /\ match h with Go e => key e = Some s | By _ a _ => called E g0 a s | _ => False end.
(** The subnodes of the one at that position, if there is one *)
Definition taken (z : Z) (cs : list graph) : list (option graph) := match nth_error cs (Z.to_nat z) with Some c => out c | None => [] end.
(** [hops w g0 l g n]: the hops lead from g to n, with [w c] for the child c that an index
    selects.  Only the first operand of an expression counts.  A selector takes among the children
    of the name before it. *)
Inductive hops (E : env) (w : graph -> graph) (g0 : graph) : list hop -> graph -> graph -> Prop :=
| hops_here g : hops E w g0 [] g g
| hops_go e s l g i c n : key e = Some s -> first_named E s (out g) i c -> hops E w g0 l c n -> hops E w g0 (Go e :: l) g n
| hops_at pad a x l g z c n : position E g0 a z -> nth_error (out g) (Z.to_nat z) = Some (Some c) -> hops E w g0 l (w c) n -> hops E w g0 (At pad a x :: l) g n
| hops_by pad a x s l g i c n : called E g0 a s -> s <> [] -> first_named E s (out g) i c -> hops E w g0 l c n -> hops E w g0 (By pad a x :: l) g n
| hops_all h s l g cs n : spells E g0 h s -> SelSpec.those E s (out g) cs -> cs <> [] ->
    hops E w g0 l (Node (VStr (bs "{")) (flat_map out cs)) n -> hops E w g0 (h :: All :: l) g n
| hops_of h s pad a x z l g cs n : spells E g0 h s -> SelSpec.those E s (out g) cs -> cs <> [] -> position E g0 a z -> z < 2 ^ 63 - 1 ->
    hops E w g0 l (Node (VStr (bs "{")) (taken z cs)) n -> hops E w g0 (h :: Of pad a x :: l) g n.
Definition boxed (c : graph) : graph := Node (VStr (bs "[")) [Some c].
Definition bare (c : graph) : graph := c.
(** Texts that fit the lexer's buffer, with enough steps to read and evaluate them *)
Definition fits3 (f : nat) (s : bytes) : Prop := Z.of_nat (List.length s) <= 4094 /\ (2 * List.length s + 16 <= f)%nat.
