(** When evaluation panics: specification. *)
From Verif Require Import Base Value Graph Eval.

(** Trees of parsed expressions, with the operands in place: all contents are texts, an operator has two
    operands and does not assign, ! and !e have something below them, and what ! applies to is not a text
    of blanks.  Below !string is a text, below !p are the elements of a path, among them indexes (!i), selectors
    (!s) and names in parentheses (!g) with expressions. *)
Definition operator_text (s : bytes) : Prop :=
  match s with c :: r => is_operator c = true /\ match r with [] => True | [d] => is_operator d = true | _ => False end | [] => False end.
(** A text of blanks only, which is not a scalar to ThisScalar (C37) *)
Definition blank_leaf (g : graph) : Prop := match g with Node (VStr s) [] => s <> [] /\ forallb is_space s = true | _ => False end.
Inductive wordy : graph -> Prop :=
| wordy_node s k : Forall wordy k -> wordy (Node (VStr s) (map Some k)).
Inductive formed : graph -> Prop :=
| formed_string k : Forall wordy k -> formed (Node (VStr (bs "!string")) (map Some k))
| formed_path k : Forall element k -> formed (Node (VStr (bs "!p")) (map Some k))
| formed_node s k : ~ In s [bs "!string"; bs "!p"] -> Forall formed k ->
    (In s [bs "!"; bs "!e"] -> k <> [] /\ Forall (fun c => ~ blank_leaf c) k) ->
    (operator_text s -> s <> bs "!" -> (2 <= List.length k)%nat /\ ~ In s [bs "="; bs "+="; bs "-="; bs "*="; bs "/="; bs "%="]) ->
    formed (Node (VStr s) (map Some k))
with element : graph -> Prop :=
| element_name s k : ~ In s [bs "!i"; bs "!s"; bs "!g"] -> Forall wordy k -> element (Node (VStr s) (map Some k))
| element_expr s k : In s [bs "!i"; bs "!s"; bs "!g"] -> Forall formed k -> (s = bs "!g" -> k <> [] /\ Forall (fun c => ~ blank_leaf c) k) ->
    element (Node (VStr s) (map Some k)).

(** [p] is a node of [e]. *)
Inductive part_of : graph -> graph -> Prop :=
| part_refl e : part_of e e
| part_kid p c v o : In (Some c) o -> part_of p c -> part_of p (Node v o).

(** The number that a divisor counts as when the division is not one of integers: a text that is not a number counts
    as 0. *)
Inductive divisor (E : env) : value graph -> spec_float -> Prop :=
| div_int k z : divisor E (VInt k z) (f64_of_Z (wrap64 z))
| div_f64 x : divisor E (VF64 x) x
| div_f32 x : divisor E (VF32 x) (f64_of_f32 x)
| div_text v s x : v_int64 v = None -> v_float64 v = None -> vstring E v = Ok s -> parse_float E s = Some x -> divisor E v x
| div_none v s : v_int64 v = None -> v_float64 v = None -> vstring E v = Ok s -> parse_float E s = None -> divisor E v (S754_zero false).
Definition numeric (v : value graph) : Prop := match v with VInt _ _ | VF32 _ | VF64 _ => True | _ => False end.
Definition integral (v : value graph) : Prop := match v with VInt _ _ => True | _ => False end.

(** The operands with which an operator panics: an integer is divided by the integer 0; the remainder of a number and
    of something whose whole part is 0, texts that are no numbers included; an integer is compared with a node that
    is not there. *)
Inductive faulty (E : env) : bytes -> value graph -> value graph -> Prop :=
| fault_div op k a k' b : In op [bs "/"; bs "%"] -> wrap64 b = 0 -> faulty E op (VInt k a) (VInt k' b)
| fault_rem v w d : numeric v -> ~ (integral v /\ integral w) -> divisor E w d -> f2i E d = 0 -> faulty E (bs "%") v w
| fault_nil op k a : In op [bs "=="; bs "!="; bs ">="; bs "<="; bs ">"; bs "<"] -> faulty E op (VInt k a) (VPtr None).

(** ** Templates without loops: texts, paths, expressions, conditions and their alternatives *)
Inductive page : graph -> Prop :=
| page_node v k : Forall item k -> page (Node v (map Some k))
with item : graph -> Prop :=
| item_text s o : ~ In s [bs "!p"; bs "!e"; bs "!if"; bs "!elseif"; bs "!else"; bs "!for"] -> item (Node (VStr s) o)
| item_expr s o : In s [bs "!p"; bs "!e"] -> formed (Node (VStr s) o) -> item (Node (VStr s) o)
| item_if s v e o body o' : In s [bs "!if"; bs "!elseif"] -> formed e -> ~ blank_leaf e -> page body -> item (Node (VStr s) (Some (Node v (Some e :: o)) :: Some body :: o'))
| item_else body o : page body -> item (Node (VStr (bs "!else")) (Some body :: o)).

(** ** Templates with loops.  The variable of a loop is a name, and what it runs over is a path, not to the context
    itself, which the loop changes. *)
Inductive path_expr : graph -> Prop :=
| pe_path o : (forall k o', o <> Some (Node (VStr (bs "_this")) k) :: o') -> path_expr (Node (VStr (bs "!p")) o)
| pe_expr e o : path_expr e -> path_expr (Node (VStr (bs "!e")) (Some e :: o)).
(** [xs]: the names of the variables *)
Inductive sheet (xs : list bytes) : graph -> Prop :=
| sheet_node v k : Forall (entry xs) k -> sheet xs (Node v (map Some k))
with entry (xs : list bytes) : graph -> Prop :=
| entry_text s o : ~ In s [bs "!p"; bs "!e"; bs "!if"; bs "!elseif"; bs "!else"; bs "!for"] -> entry xs (Node (VStr s) o)
| entry_expr s o : In s [bs "!p"; bs "!e"] -> formed (Node (VStr s) o) -> entry xs (Node (VStr s) o)
| entry_if s v e o body o' : In s [bs "!if"; bs "!elseif"] -> formed e -> ~ blank_leaf e -> sheet xs body -> entry xs (Node (VStr s) (Some (Node v (Some e :: o)) :: Some body :: o'))
| entry_else body o : sheet xs body -> entry xs (Node (VStr (bs "!else")) (Some body :: o))
| entry_for x v w w' q e o body o' : In x xs -> formed e -> path_expr e -> sheet xs body ->
    entry xs (Node (VStr (bs "!for")) (Some (Node v (Some (Node w (Some (Node w' [Some (Node (VStr x) [])]) :: q)) :: Some e :: o)) :: Some body :: o')).
(** [c] is [g], apart from the subnodes of the root with these names. *)
Definition unnamed (xs : list bytes) (o : list (option graph)) : list (option graph) :=
  filter (fun c => match c with Some (Node (VStr s) _) => negb (existsb (bseq s) xs) | _ => true end) o.
Definition apart_from (xs : list bytes) (g c : graph) : Prop := this c = this g /\ unnamed xs (out c) = unnamed xs (out g).
