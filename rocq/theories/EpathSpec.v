(** Paths in expressions: indexes, selectors and the names with a meaning of their own, written
    independently of the parser and the evaluator. *)
From Verif Require Import Base Value Graph Encoding GraphSpec TextSpec PathSpec AccessSpec EvalSpec SelSpec.

(** Names that only look for a child *)
Definition free (st : step) : Prop := match key (elem_of st) with Some s => ordinary s | None => True end.
(** [arrives l g n]: in an expression the steps lead from g to n.  An index leads to the child
    at that position. *)
Inductive arrives (E : env) : list step -> graph -> graph -> Prop :=
| arr_here g : arrives E [] g g
| arr_key e s l g i c n : key e = Some s -> first_named E s (out g) i c -> arrives E l c n -> arrives E (Plain e :: l) g n
| arr_index d l g c n : number_of d < 2 ^ 63 -> nth_error (out g) (Z.to_nat (number_of d)) = Some (Some c) -> arrives E l c n -> arrives E (Plain (Index d) :: l) g n
| arr_pick e s x l cs g n : key e = Some s -> those E s (out g) cs -> cs <> [] ->
    arrives E l (Node (VStr (bs "{")) (chosen x cs)) n -> arrives E (Pick e x :: l) g n.
(** [misses l g]: a name on the way is not there, or an index is beyond the last child. *)
Inductive misses (E : env) : list step -> graph -> Prop :=
| mis_name st s l g : key (elem_of st) = Some s -> none_named E s (out g) -> misses E (st :: l) g
| mis_index d l g : Z.of_nat (List.length (out g)) <= number_of d < 2 ^ 63 -> misses E (Plain (Index d) :: l) g
| mis_key e s l g i c : key e = Some s -> first_named E s (out g) i c -> misses E l c -> misses E (Plain e :: l) g
| mis_at d l g c : number_of d < 2 ^ 63 -> nth_error (out g) (Z.to_nat (number_of d)) = Some (Some c) -> misses E l c -> misses E (Plain (Index d) :: l) g
| mis_pick e s x l cs g : key e = Some s -> those E s (out g) cs -> cs <> [] ->
    misses E l (Node (VStr (bs "{")) (chosen x cs)) -> misses E (Pick e x :: l) g.
Definition nothing (v : value graph) : Prop := v = VNil \/ v = VPtr None.

(** The node that stands for what the path arrives at: after an index, a node with the child
    as its only subnode *)
Definition indexed (l : list step) : Prop := exists l' d, l = l' ++ [Plain (Index d)].
Definition shown (l : list step) (n m : graph) : Prop := (indexed l /\ m = Node (VStr (bs "[")) [Some n]) \/ (~ indexed l /\ m = n).

(** What the reserved names tell about a node: how many subnodes it has, the node itself, its
    content as text, the content of its first subnode as text, and its JSON *)
Inductive asked (E : env) (J : spec_float -> bytes) : bytes -> graph -> value graph -> Prop :=
| ask_len n : asked E J (bs "_len") n (VInt KInt (Z.of_nat (List.length (out n))))
| ask_this n : asked E J (bs "_this") n (VPtr (Some n))
| ask_thisString n s : vstring E (this n) = Ok s -> asked E J (bs "_thisString") n (VStr s)
| ask_string_none n : out n = [] -> asked E J (bs "_string") n (VStr [])
| ask_string n c o s : out n = Some c :: o -> vstring E (this c) = Ok s -> asked E J (bs "_string") n (VStr s)
| ask_json n t : snd (JSON E J (Some n)) = Ok (Some t) -> asked E J (bs "_json") n (VBytes t).
