(** What paths lead to, and what storing at a path changes, in terms of children and names. *)
From Verif Require Import Base Value GraphSpec TextSpec PathSpec.

(** Contents that are data: not functions, objects or pointers. *)
Definition data (v : value graph) : Prop := match v with VPtr _ | VFun _ | VObj _ => False | _ => True end.

(** The name that an element looks for.  The parser marks indexes, selectors, arguments and
    groups by the names !i, !s, !a, !g, so quoted strings of that form are excluded. *)
Definition key (e : elem) : option bytes := match e with Name s | Quote _ s => Some s | Index _ => None end.
Definition unmarked (e : elem) : Prop := match e with Quote _ s => ~ In s [bs "!i"; bs "!s"; bs "!a"; bs "!g"] | _ => True end.

(** [walk es g n]: from g the elements lead to n.  A name leads to the first child that prints
    so; an index to a node that has the child at that position as its only subnode. *)
Inductive walk (E : env) : list elem -> graph -> graph -> Prop :=
| walk_here g : walk E [] g g
| walk_key e s es g i c n : key e = Some s -> first_named E s (out g) i c -> walk E es c n -> walk E (e :: es) g n
| walk_index d es g c n : number_of d < 2 ^ 63 -> nth_error (out g) (Z.to_nat (number_of d)) = Some (Some c) ->
    walk E es (Node (VStr (bs "[")) [Some c]) n -> walk E (Index d :: es) g n.
(** [lost es g]: some name on the way is not there. *)
Inductive lost (E : env) : list elem -> graph -> Prop :=
| lost_here e s es g : key e = Some s -> none_named E s (out g) -> lost E (e :: es) g
| lost_key e s es g i c : key e = Some s -> first_named E s (out g) i c -> lost E es c -> lost E (e :: es) g
| lost_index d es g c : number_of d < 2 ^ 63 -> nth_error (out g) (Z.to_nat (number_of d)) = Some (Some c) ->
    lost E es (Node (VStr (bs "[")) [Some c]) -> lost E (Index d :: es) g.

(** [changed ps R g g']: g' is g with the node at the names ps changed as R says; names that
    are missing are added as last children; everything else is the same. *)
Inductive changed (E : env) (R : graph -> graph -> Prop) : list bytes -> graph -> graph -> Prop :=
| changed_here g g' : R g g' -> changed E R [] g g'
| changed_found s ps t o o' i c c' : first_named E s o i c -> changed E R ps c c' ->
    List.length o' = List.length o -> nth_error o' i = Some (Some c') -> (forall j, j <> i -> nth_error o' j = nth_error o j) ->
    changed E R (s :: ps) (Node t o) (Node t o')
| changed_new s ps t o c' : none_named E s o -> changed E R ps (Node (VStr s) []) c' ->
    changed E R (s :: ps) (Node t o) (Node t (o ++ [Some c'])).

(** The subnodes that a stored value becomes: of a graph, its subnodes. *)
Definition contents (v : value graph) : list (option graph) :=
  match v with VNil => [] | VPtr (Some c) => out c | v => [Some (Node v [])] end.
Definition replaced (v : value graph) (n n' : graph) : Prop := this n' = this n /\ out n' = contents v.
(** v stored at position i; nil subnodes in between if there were fewer *)
Definition placed (i : nat) (v : value graph) (n n' : graph) : Prop :=
  this n' = this n /\ List.length (out n') = Nat.max (List.length (out n)) (S i) /\
  nth_error (out n') i = Some (Some (Node v [])) /\
  forall j, j <> i -> (j < List.length (out n'))%nat ->
    nth_error (out n') j = Some (match nth_error (out n) j with Some c => c | None => None end).

Definition prefix (p q : list bytes) : Prop := exists r, q = p ++ r.
Definition path (ps : list bytes) : bytes := path_text (map Name ps).
(** Paths that fit the lexer's buffer, with enough steps to read them *)
Definition fits (f : nat) (s : bytes) : Prop := Z.of_nat (List.length s) <= 4094 /\ (List.length s + 4 <= f)%nat.
