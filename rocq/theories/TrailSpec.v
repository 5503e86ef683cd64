(** Paths in which selectors may stand anywhere, written independently of the parser and the evaluator. *)
From Verif Require Import Base Value GraphSpec TextSpec PathSpec AccessSpec EvalSpec FuncSpec IndexSpec.
From Verif Require SelSpec.

(** The last name in the path, and the node from which the last hop started *)
Definition memory : Type := option (graph * bytes).
Definition moved (M : memory) (g : graph) : memory := match M with Some (_, s) => Some (g, s) | None => None end.
(** [trail w g0 l M g n]: the hops lead from g to n, with [w c] for the child c that an index selects.  A selector takes among the children
    of the node from which the last hop - name, index or selector - started, those with the last name of the path. *)
Inductive trail (E : env) (w : graph -> graph) (g0 : graph) : list hop -> memory -> graph -> graph -> Prop :=
| trail_here M g : trail E w g0 [] M g g
| trail_name h s l M g i c n : spells E g0 h s -> first_named E s (out g) i c -> trail E w g0 l (Some (g, s)) c n -> trail E w g0 (h :: l) M g n
| trail_at pad a x l M g z c n : position E g0 a z -> nth_error (out g) (Z.to_nat z) = Some (Some c) -> trail E w g0 l (moved M g) (w c) n -> trail E w g0 (At pad a x :: l) M g n
| trail_all l m s g cs n : SelSpec.those E s (out m) cs -> trail E w g0 l (Some (g, s)) (Node (VStr (bs "{")) (flat_map out cs)) n -> trail E w g0 (All :: l) (Some (m, s)) g n
| trail_of pad a x z l m s g cs n : SelSpec.those E s (out m) cs -> position E g0 a z -> z < 2 ^ 63 - 1 ->
    trail E w g0 l (Some (g, s)) (Node (VStr (bs "{")) (taken z cs)) n -> trail E w g0 (Of pad a x :: l) (Some (m, s)) g n.
