(** What expressions denote, written independently of the evaluator. *)
From Verif Require Import Base Value GraphSpec TextSpec PathSpec AccessSpec.

(** The 64-bit two's complement integer congruent to z *)
Definition int64_of (z r : Z) : Prop := in64 r /\ exists k, r = z + k * 2 ^ 64.
(** a divided by b: quotient q truncated toward zero, remainder r with the sign of a *)
Definition truncated (a b q r : Z) : Prop := a = b * q + r /\ Z.abs r < Z.abs b /\ (r = 0 \/ Z.sgn r = Z.sgn a).
(** Arithmetic; None is failure *)
Inductive arith (a b : Z) : optor -> option Z -> Prop :=
| ar_plus z : int64_of (a + b) z -> arith a b Plus (Some z)
| ar_minus z : int64_of (a - b) z -> arith a b Minus (Some z)
| ar_mul z : int64_of (a * b) z -> arith a b Mul (Some z)
| ar_div q r z : truncated a b q r -> int64_of q z -> arith a b Div (Some z)
| ar_mod q r : truncated a b q r -> arith a b Mod (Some r)
| ar_div_zero : b = 0 -> arith a b Div None
| ar_mod_zero : b = 0 -> arith a b Mod None.

(** Order *)
Definition ordered (op : optor) (a b : Z) (c : bool) : Prop :=
  match op with
  | EqEq => c = true <-> a = b
  | Ne => c = true <-> a <> b
  | Lt => c = true <-> a < b
  | Gt => c = true <-> a > b
  | Le => c = true <-> a <= b
  | Ge => c = true <-> a >= b
  | _ => False
  end.
Definition text_equal (op : optor) (a b : bytes) (c : bool) : Prop :=
  match op with EqEq => c = true <-> a = b | Ne => c = true <-> a <> b | _ => False end.

(** Values of expressions *)
Inductive dval : Type := DI (z : Z) | DB (b : bool) | DS (s : bytes).
(** Names with a meaning of their own in expressions *)
Definition ordinary (s : bytes) : Prop := ~ In s [bs "_len"; bs "_this"; bs "_thisString"; bs "_string"; bs "_json"].
Definition holds (v : value graph) (d : dval) : Prop :=
  match d with DI z => in64 z /\ exists k, v = VInt k z | DB b => v = VBool b | DS s => v = VStr s end.

(** [den E g t x]: in the graph g the tree t has the value x; None is failure (division by
    zero somewhere). *)
Inductive den (E : env) (g : graph) : etree -> option dval -> Prop :=
| den_num z : in64 z -> den E g (Leaf (ONum (format_int z))) (Some (DI z))
| den_str q s : den E g (Leaf (OStr q s)) (Some (DS s))
| den_path ns n v d : ns <> [] -> Forall (name E) ns -> Forall ordinary ns -> walk E (map Name ns) g n -> out n = [Some (Node v [])] -> holds v d ->
    den E g (Leaf (OPath (map Name ns))) (Some d)
| den_arith op l r a b x : den E g l (Some (DI a)) -> den E g r (Some (DI b)) -> arith a b op x -> den E g (Bin op l r) (option_map DI x)
| den_concat l r a b : den E g l (Some (DS a)) -> den E g r (Some (DS b)) -> den E g (Bin Plus l r) (Some (DS (a ++ b)))
| den_order op l r a b c : den E g l (Some (DI a)) -> den E g r (Some (DI b)) -> ordered op a b c -> den E g (Bin op l r) (Some (DB c))
| den_text op l r a b c : den E g l (Some (DS a)) -> den E g r (Some (DS b)) -> text_equal op a b c -> den E g (Bin op l r) (Some (DB c))
| den_and l r a b : den E g l (Some (DB a)) -> den E g r (Some (DB b)) -> den E g (Bin And l r) (Some (DB (a && b)))
| den_or l r a b : den E g l (Some (DB a)) -> den E g r (Some (DB b)) -> den E g (Bin Or l r) (Some (DB (a || b)))
| den_fail_right op l r : den E g r None -> den E g (Bin op l r) None
| den_fail_left op l r y : 0 < prec op -> den E g r (Some y) -> den E g l None -> den E g (Bin op l r) None.

Fixpoint height (t : etree) : nat := match t with Leaf _ => 2 | Bin _ l r => S (Nat.max (height l) (height r)) end.

(** ** Assignments *)

(** The operator that an assignment applies first *)
Definition plain_op (op : optor) : option optor :=
  match op with PlusAsg => Some Plus | MinusAsg => Some Minus | MulAsg => Some Mul | DivAsg => Some Div | ModAsg => Some Mod | _ => None end.
(** [updated op old d x]: a variable that holds [old] (None: there is no such variable) is
    assigned d with op; it holds x afterwards, or the assignment fails (None). *)
Inductive updated : optor -> option dval -> dval -> option dval -> Prop :=
| up_set o d : updated Asg o d (Some d)
| up_arith op op' a b x : plain_op op = Some op' -> arith a b op' x -> updated op (Some (DI a)) (DI b) (option_map DI x)
| up_concat a b : updated PlusAsg (Some (DS a)) (DS b) (Some (DS (a ++ b)))
| up_new d : updated PlusAsg None d (Some d)
| up_minus b z : int64_of (- b) z -> updated MinusAsg None (DI b) (Some (DI z))
| up_mul d : updated MulAsg None d (Some (DI 0))
| up_div d : updated DivAsg None d (Some (DS (bs "infinity")))
| up_mod d : updated ModAsg None d (Some (DS (bs "undefined"))).
(** What the variable at the names ps holds: the content of its first subnode *)
Inductive variable (E : env) (ps : list bytes) (g : graph) : option dval -> Prop :=
| var_held n v k l d : walk E (map Name ps) g n -> out n = Some (Node v k) :: l -> holds v d -> variable E ps g (Some d)
| var_missing : lost E (map Name ps) g -> variable E ps g None.
