(** What paths and expressions are, written independently of the parser. *)
From Verif Require Import Base Value EventSpec TextSpec.

(** ** Paths *)
Definition name_char (c : byte) : bool :=
  ((65 <=? bz c) && (bz c <=? 90)) || ((97 <=? bz c) && (bz c <=? 122)) || ((48 <=? bz c) && (bz c <=? 57)) || (bz c =? 95).
(** [utf8 r w]: w is the code point r in UTF-8 (The Unicode Standard, table 3-6: the shortest form,
    no surrogates). *)
Inductive utf8 : Z -> bytes -> Prop :=
| utf8_1 a : bz a < 0x80 -> utf8 (bz a) [a]
| utf8_2 r a b : 0x80 <= r < 0x800 -> 0x80 <= bz b < 0xC0 -> r = (bz a - 0xC0) * 0x40 + (bz b - 0x80) -> utf8 r [a; b]
| utf8_3 r a b c : 0x800 <= r < 0x10000 -> ~ (0xD800 <= r < 0xE000) -> 0x80 <= bz b < 0xC0 -> 0x80 <= bz c < 0xC0 ->
    r = (bz a - 0xE0) * 0x1000 + (bz b - 0x80) * 0x40 + (bz c - 0x80) -> utf8 r [a; b; c]
| utf8_4 r a b c d : 0x10000 <= r < 0x110000 -> 0x80 <= bz b < 0xC0 -> 0x80 <= bz c < 0xC0 -> 0x80 <= bz d < 0xC0 ->
    r = (bz a - 0xF0) * 0x40000 + (bz b - 0x80) * 0x1000 + (bz c - 0x80) * 0x40 + (bz d - 0x80) -> utf8 r [a; b; c; d].
(** Unicode letters and digits, and the underscore: up to U+00FF they are listed, above it the
    environment says which they are. *)
Definition name_rune (E : env) (r : Z) : bool :=
  ((65 <=? r) && (r <=? 90)) || ((97 <=? r) && (r <=? 122)) || ((48 <=? r) && (r <=? 57)) || (r =? 95) ||
  (r =? 0xAA) || (r =? 0xB5) || (r =? 0xBA) || ((0xC0 <=? r) && (r <=? 0xFF) && negb (r =? 0xD7) && negb (r =? 0xF7)) ||
  ((0xFF <? r) && (hi_letter E r || hi_digit E r)).
Inductive letters (E : env) : bytes -> Prop :=
| letters_nil : letters E []
| letters_cons r w s : utf8 r w -> name_rune E r = true -> letters E s -> letters E (w ++ s).
Definition name (E : env) (s : bytes) : Prop := s <> [] /\ letters E s.
(** A text that does not continue a name: it is empty or begins with another character. *)
Definition ends_name (E : env) (s : bytes) : Prop := s = [] \/ exists r w s', s = w ++ s' /\ utf8 r w /\ name_rune E r = false.
(** Bytes that stand for themselves inside quotes q *)
Definition quotable (q c : byte) : Prop := control c = false /\ c <> q /\ c <> "\"%byte /\ c <> x0a.
Definition quote_mark (q : byte) : Prop := q = x22 \/ q = "'"%byte \/ q = "`"%byte.

Inductive elem : Type := Name (s : bytes) | Quote (q : byte) (s : bytes) | Index (n : bytes).
Definition elem_ok (E : env) (e : elem) : Prop :=
  match e with
  | Name s => name E s
  | Quote q s => quote_mark q /\ Forall (quotable q) s
  | Index n => digits n
  end.
(** An element as text; a dot goes before a name or quoted string that is not the first *)
Definition elem_text (first : bool) (e : elem) : bytes :=
  match e with
  | Name s => (if first then [] else ["."%byte]) ++ s
  | Quote q s => (if first then [] else ["."%byte]) ++ q :: s ++ [q]
  | Index n => "["%byte :: n ++ ["]"%byte]
  end.
Definition path_text (es : list elem) : bytes :=
  match es with [] => [] | e :: r => elem_text true e ++ flat_map (elem_text false) r end.
Definition elem_tree (e : elem) : tree :=
  match e with
  | Name s | Quote _ s => T s []
  | Index n => T (bs "!i") [T n []]
  end.

(** ** Expressions *)
Inductive operand : Type :=
| ONum (s : bytes)                  (* a number *)
| OStr (q : byte) (s : bytes)       (* a quoted string *)
| OPath (es : list elem).           (* a path *)

(** digits, with a decimal point or not, with a minus sign or not *)
Definition number_text (s : bytes) : Prop :=
  exists sign a b, s = sign ++ a ++ b /\ (sign = [] \/ sign = ["-"%byte]) /\ digits a /\
  (b = [] \/ exists d, b = "."%byte :: d /\ Forall (fun c => 48 <= bz c <= 57) d).
(** The parser looks at the first byte alone, as a Latin-1 character: it must be a letter.  Of the bytes
    that begin a character in UTF-8 only 0xD7 (U+05C0 to U+05FF, Hebrew) is not: see C40_hebrew_refuted. *)
Definition starts_with_letter (es : list elem) : Prop :=
  match es with Name (c :: _) :: _ => (name_char c = true \/ 0xC2 <= bz c) /\ ~ (48 <= bz c <= 57) /\ c <> xd7 | _ => False end.
Definition operand_ok (E : env) (o : operand) : Prop :=
  match o with
  | ONum s => number_text s
  | OStr q s => quote_mark q /\ Forall (quotable q) s
  | OPath es => Forall (elem_ok E) es /\ starts_with_letter es
  end.
Definition operand_text (o : operand) : bytes :=
  match o with ONum s => s | OStr q s => q :: s ++ [q] | OPath es => path_text es end.
Definition operand_tree (o : operand) : tree :=
  match o with
  | ONum s => T s []
  | OStr _ s => T (bs "!string") [T s []]
  | OPath es => T (bs "!p") (map elem_tree es)
  end.

Inductive optor : Type := Mul | Div | Mod | Plus | Minus | EqEq | Ne | Ge | Le | Gt | Lt | And | Or | Asg | PlusAsg | MinusAsg | MulAsg | DivAsg | ModAsg.
Definition op_text (o : optor) : bytes :=
  match o with
  | Mul => bs "*" | Div => bs "/" | Mod => bs "%" | Plus => bs "+" | Minus => bs "-"
  | EqEq => bs "==" | Ne => bs "!=" | Ge => bs ">=" | Le => bs "<=" | Gt => bs ">" | Lt => bs "<"
  | And => bs "&&" | Or => bs "||"
  | Asg => bs "=" | PlusAsg => bs "+=" | MinusAsg => bs "-=" | MulAsg => bs "*=" | DivAsg => bs "/=" | ModAsg => bs "%="
  end.
(** As documented in expression.go: Go's precedence, assignment lowest *)
Definition prec (o : optor) : Z :=
  match o with
  | Mul | Div | Mod => 5
  | Plus | Minus => 4
  | EqEq | Ne | Ge | Le | Gt | Lt => 3
  | And => 2
  | Or => 1
  | Asg | PlusAsg | MinusAsg | MulAsg | DivAsg | ModAsg => 0
  end.

(** Operators between operands, each with the blanks before and after it *)
Record step : Type := mkStep { before : bytes; oper : optor; after : bytes; rand : operand }.
Definition step_ok (E : env) (x : step) : Prop :=
  blanks (before x) /\ blanks (after x) /\ operand_ok E (rand x) /\
  (* a sign must not touch the operator *)
  (match operand_text (rand x) with c :: _ => c = "-"%byte -> after x <> [] | [] => True end).
Definition step_text (x : step) : bytes := before x ++ op_text (oper x) ++ after x ++ operand_text (rand x).
Definition expr_text (a : operand) (l : list step) : bytes := operand_text a ++ flat_map step_text l.

(** Syntax trees *)
Inductive etree : Type := Leaf (o : operand) | Bin (op : optor) (l r : etree).
(** The in-order reading: the first operand, then operators and operands *)
Fixpoint first (t : etree) : operand := match t with Leaf o => o | Bin _ l _ => first l end.
Fixpoint others (t : etree) : list (optor * operand) :=
  match t with Leaf _ => [] | Bin op l r => others l ++ (op, first r) :: others r end.
(** Grouped by precedence, from left to right *)
Definition root_ge (p : Z) (t : etree) : Prop := match t with Leaf _ => True | Bin o _ _ => p <= prec o end.
Fixpoint grouped (t : etree) : Prop :=
  match t with
  | Leaf _ => True
  | Bin op l r => root_ge (prec op) l /\ root_ge (prec op + 1) r /\ grouped l /\ grouped r
  end.
Fixpoint etree_tree (t : etree) : tree :=
  match t with
  | Leaf o => operand_tree o
  | Bin op l r => T (op_text op) [etree_tree l; etree_tree r]
  end.

(** Names of nodes for the special cases *)
Definition ascii (s : bytes) : Prop := Forall (fun c => bz c < 128) s.
