(** Selectors in paths, a{} and a{n}, written independently of the parser and the evaluator. *)
From Verif Require Import Base Value GraphSpec TextSpec PathSpec AccessSpec.

Inductive sel : Type := Every | Nth (d : bytes).
(** A step of a path: an element, or a name with a selector *)
Inductive step : Type := Plain (e : elem) | Pick (e : elem) (s : sel).
Definition sel_text (s : sel) : bytes := match s with Every => bs "{}" | Nth d => "{"%byte :: d ++ ["}"%byte] end.
Definition step_text (first : bool) (st : step) : bytes :=
  match st with Plain e => elem_text first e | Pick e s => elem_text first e ++ sel_text s end.
Definition steps_text (l : list step) : bytes :=
  match l with [] => [] | st :: l => step_text true st ++ flat_map (step_text false) l end.
Definition sel_ok (s : sel) : Prop := match s with Every => True | Nth d => digits d /\ number_of d < 2 ^ 63 - 1 end.
Definition elem_of (st : step) : elem := match st with Plain e | Pick e _ => e end.
Definition step_ok (E : env) (st : step) : Prop :=
  elem_ok E (elem_of st) /\ unmarked (elem_of st) /\ match st with Plain _ => True | Pick e s => key e <> None /\ key e <> Some [] /\ sel_ok s end.
Definition sel_tree (s : sel) : tree := T (bs "!s") (match s with Every => [] | Nth d => [T d []] end).
Definition step_trees (st : step) : list tree := match st with Plain e => [elem_tree e] | Pick e s => [elem_tree e; sel_tree s] end.

(** The children of that name, in order *)
Inductive those (E : env) (s : bytes) : list (option graph) -> list graph -> Prop :=
| those_nil : those E s [] []
| those_this c o l : named E s (Some c) -> those E s o l -> those E s (Some c :: o) (c :: l)
| those_not c o l : ~ named E s c -> those E s o l -> those E s (c :: o) l.
(** What the selector takes of them: the subnodes of all, or those of the one at that
    position, if there is one *)
Definition chosen (s : sel) (l : list graph) : list (option graph) :=
  match s with
  | Every => flat_map out l
  | Nth d => match nth_error l (Z.to_nat (number_of d)) with Some c => out c | None => [] end
  end.

(** [leads l g n]: from g the steps lead to n.  A selector makes a node of what it takes. *)
Inductive leads (E : env) : list step -> graph -> graph -> Prop :=
| leads_here g : leads E [] g g
| leads_plain e l g m n : walk E [e] g m -> leads E l m n -> leads E (Plain e :: l) g n
| leads_pick e s x l cs g n : key e = Some s -> those E s (out g) cs -> cs <> [] ->
    leads E l (Node (VStr (bs "{")) (chosen x cs)) n -> leads E (Pick e x :: l) g n.
(** [strays l g]: a name on the way is not there. *)
Inductive strays (E : env) : list step -> graph -> Prop :=
| strays_here st l g : lost E [elem_of st] g -> strays E (st :: l) g
| strays_plain e l g m : walk E [e] g m -> strays E l m -> strays E (Plain e :: l) g
| strays_pick e s x l cs g : key e = Some s -> those E s (out g) cs -> cs <> [] ->
    strays E l (Node (VStr (bs "{")) (chosen x cs)) -> strays E (Pick e x :: l) g.

(** Texts that fit the lexer's buffer, with enough steps to read and evaluate them *)
Definition fits2 (f : nat) (s : bytes) : Prop := Z.of_nat (List.length s) <= 4094 /\ (2 * List.length s + 12 <= f)%nat.
