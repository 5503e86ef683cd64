(** What templates are and what they yield, written independently of the parser. *)
From Verif Require Import Base Value GraphSpec TextSpec PathSpec.

(** An expression: its text (first operand, then operators and operands) and its tree *)
Record expr : Type := mkE { lead : operand; steps : list step; etr : etree }.
Definition expr_ok (E : env) (e : expr) : Prop :=
  operand_ok E (lead e) /\ Forall (step_ok E) (steps e) /\ first (etr e) = lead e /\
  others (etr e) = map (fun s => (oper s, rand s)) (steps e) /\ grouped (etr e).
Definition expr_src (e : expr) : bytes := expr_text (lead e) (steps e).

Inductive tmpl : Type :=
| TEnd
| TText (s : bytes) (t : tmpl)
| TDollar (t : tmpl)                                     (* $\ stands for a dollar sign *)
| TVar (es : list elem) (t : tmpl)                       (* $path *)
| TBraces (es : list elem) (t : tmpl)                    (* ${path} *)
| TExpr (e : expr) (t : tmpl)                            (* $(expression) *)
| TIf (e : expr) (body : tmpl) (r : tail) (t : tmpl)     (* $if(expression) body ... $end *)
| TFor (x : bytes) (e : expr) (body : tmpl) (t : tmpl)   (* $for(name,expression) body $end *)
| TBreak (t : tmpl)
with tail : Type :=
| Fi
| Else (body : tmpl)
| ElseIf (e : expr) (body : tmpl) (r : tail).

Fixpoint source (t : tmpl) : bytes :=
  match t with
  | TEnd => []
  | TText s t => s ++ source t
  | TDollar t => bs "$\" ++ source t
  | TVar es t => bs "$" ++ path_text es ++ source t
  | TBraces es t => bs "${" ++ path_text es ++ bs "}" ++ source t
  | TExpr e t => bs "$(" ++ expr_src e ++ bs ")" ++ source t
  | TIf e b r t => bs "$if(" ++ expr_src e ++ bs ")" ++ source b ++ tail_source r ++ bs "$end" ++ source t
  | TFor x e b t => bs "$for(" ++ x ++ bs "," ++ expr_src e ++ bs ")" ++ source b ++ bs "$end" ++ source t
  | TBreak t => bs "$break" ++ source t
  end
with tail_source (r : tail) : bytes :=
  match r with
  | Fi => []
  | Else b => bs "$else" ++ source b
  | ElseIf e b r => bs "$elseif(" ++ expr_src e ++ bs ")" ++ source b ++ tail_source r
  end.

(** Text: no dollar sign, no control characters, and not one of the words by which the parsed
    template marks its parts (see C45_marker_refuted). *)
Definition template_char (c : byte) : Prop := control c = false /\ c <> "$"%byte.
Definition markers : list bytes := [bs "!p"; bs "!e"; bs "!if"; bs "!elseif"; bs "!else"; bs "!for"; bs "!break"; bs "!end"].
Definition text_ok (s : bytes) : Prop := s <> [] /\ Forall template_char s /\ ~ In s markers.
(** Names that are directives *)
Definition keywords : list bytes := [bs "if"; bs "end"; bs "else"; bs "elseif"; bs "for"; bs "break"].
Definition var_ok (E : env) (es : list elem) : Prop :=
  Forall (elem_ok E) es /\ match es with [] => False | (Name s | Quote _ s) :: _ => ~ In s keywords | Index _ :: _ => True end.
(** Text after a path must not continue it. *)
Definition apart (E : env) (t : tmpl) : Prop :=
  match t with TText s _ => ends_name E s /\ (forall c s', s = c :: s' -> ~ In c (bs ".[({")) | _ => True end.
Definition no_text (t : tmpl) : Prop := match t with TText _ _ => False | _ => True end.
Definition var_name (E : env) (x : bytes) : Prop := name E x /\ starts_with_letter [Name x].

Fixpoint wf (E : env) (t : tmpl) : Prop :=
  match t with
  | TEnd => True
  | TText s t => text_ok s /\ no_text t /\ wf E t
  | TDollar t => wf E t
  | TVar es t => var_ok E es /\ apart E t /\ wf E t
  | TBraces es t => var_ok E es /\ wf E t
  | TExpr e t => expr_ok E e /\ wf E t
  | TIf e b r t => expr_ok E e /\ apart E b /\ wf E b /\ wf_tail E r /\ apart E t /\ wf E t
  | TFor x e b t => var_name E x /\ expr_ok E e /\ apart E b /\ wf E b /\ apart E t /\ wf E t
  | TBreak t => apart E t /\ wf E t
  end
with wf_tail (E : env) (r : tail) : Prop :=
  match r with
  | Fi => True
  | Else b => apart E b /\ wf E b
  | ElseIf e b r => expr_ok E e /\ apart E b /\ wf E b /\ wf_tail E r
  end.

(** Operators that assign; templates in which no expression assigns and no loop is over the context
    itself *)
Definition assigning (o : optor) : Prop := match o with Asg | PlusAsg | MinusAsg | MulAsg | DivAsg | ModAsg => True | _ => False end.
Definition calm (e : expr) : Prop := Forall (fun s => ~ assigning (oper s)) (steps e).
Definition elsewhere (e : expr) : Prop := match lead e with OPath (Name s :: _) => s <> bs "_this" | _ => True end.
Fixpoint silent (t : tmpl) : Prop :=
  match t with
  | TEnd => True
  | TText _ t | TDollar t | TVar _ t | TBraces _ t | TBreak t => silent t
  | TExpr e t => calm e /\ silent t
  | TIf e b r t => calm e /\ silent b /\ silent_tail r /\ silent t
  | TFor _ e b t => calm e /\ elsewhere e /\ silent b /\ silent t
  end
with silent_tail (r : tail) : Prop :=
  match r with
  | Fi => True
  | Else b => silent b
  | ElseIf e b r => calm e /\ silent b /\ silent_tail r
  end.

(** The branches of a conditional, and the last resort *)
Fixpoint branches (r : tail) : list (expr * tmpl) :=
  match r with ElseIf e b r => (e, b) :: branches r | _ => [] end.
Fixpoint otherwise (r : tail) : tmpl :=
  match r with Fi => TEnd | Else b => b | ElseIf _ _ r => otherwise r end.

(** Nesting depth *)
Fixpoint depth (t : tmpl) : nat :=
  match t with
  | TEnd => 1
  | TText _ t | TDollar t | TVar _ t | TBraces _ t | TExpr _ t | TBreak t => depth t
  | TIf _ b r t => Nat.max (S (depth b)) (Nat.max (tail_depth r) (depth t))
  | TFor _ _ b t => Nat.max (S (depth b)) (depth t)
  end
with tail_depth (r : tail) : nat :=
  match r with Fi => 1 | Else b => S (depth b) | ElseIf _ b r => Nat.max (S (depth b)) (tail_depth r) end.

(** The variables of the loops *)
Fixpoint loop_vars (t : tmpl) : list bytes :=
  match t with
  | TEnd => []
  | TText _ t | TDollar t | TVar _ t | TBraces _ t | TExpr _ t | TBreak t => loop_vars t
  | TIf _ b r t => loop_vars b ++ tail_vars r ++ loop_vars t
  | TFor x _ b t => x :: loop_vars b ++ loop_vars t
  end
with tail_vars (r : tail) : list bytes :=
  match r with Fi => [] | Else b => loop_vars b | ElseIf _ b r => loop_vars b ++ tail_vars r end.

(** $break among the parts of the template itself, not inside a conditional or another loop *)
Fixpoint broken (t : tmpl) : bool :=
  match t with
  | TEnd => false
  | TText _ t | TDollar t | TVar _ t | TBraces _ t | TExpr _ t | TIf _ _ _ t | TFor _ _ _ t => broken t
  | TBreak _ => true
  end.

(** *** What is asked of templates longer than the buffer

    The names in them are ASCII, the text right after a path or directive begins with an ASCII
    character, and (when [top], that is when nothing follows) a path or directive is not the last thing. *)
Definition ascii_elem (e : elem) : Prop := match e with Name s => Forall (fun c => name_char c = true) s | _ => True end.
Definition ascii_operand (o : operand) : Prop := match o with OPath es => Forall ascii_elem es | _ => True end.
Definition ascii_expr (e : expr) : Prop := ascii_operand (lead e) /\ Forall (fun s => ascii_operand (rand s)) (steps e).
Definition stopped (top : bool) (t : tmpl) : Prop :=
  match t with TEnd => top = false | TText (c :: _) _ => bz c < 128 | _ => True end.
Fixpoint plain_names (top : bool) (t : tmpl) : Prop :=
  match t with
  | TEnd => True
  | TText _ t | TDollar t => plain_names top t
  | TVar es t => Forall ascii_elem es /\ stopped top t /\ plain_names top t
  | TBraces es t => Forall ascii_elem es /\ plain_names top t
  | TExpr e t => ascii_expr e /\ plain_names top t
  | TIf e b r t => ascii_expr e /\ stopped false b /\ plain_names false b /\ tail_names r /\ stopped top t /\ plain_names top t
  | TFor x e b t => Forall (fun c => name_char c = true) x /\ ascii_expr e /\ stopped false b /\ plain_names false b /\ stopped top t /\ plain_names top t
  | TBreak t => stopped top t /\ plain_names top t
  end
with tail_names (r : tail) : Prop :=
  match r with
  | Fi => True
  | Else b => stopped false b /\ plain_names false b
  | ElseIf e b r => ascii_expr e /\ stopped false b /\ plain_names false b /\ tail_names r
  end.
(** A template is read when it fits in the buffer or keeps to the above, and so are, when they
    are taken for themselves, the conditions and bodies in it. *)
Local Notation short w := (Z.of_nat (List.length w) <= 4094).
Fixpoint parts (t : tmpl) : Prop :=
  match t with
  | TEnd => True
  | TText _ t | TDollar t | TVar _ t | TBraces _ t | TExpr _ t | TBreak t => parts t
  | TIf e b r t => short (expr_src e) /\ (short (source b) \/ plain_names true b /\ parts b) /\ tail_parts r /\ parts t
  | TFor _ e b t => short (expr_src e) /\ (short (source b) \/ plain_names true b /\ parts b) /\ parts t
  end
with tail_parts (r : tail) : Prop :=
  match r with
  | Fi => True
  | Else b => short (source b) \/ plain_names true b /\ parts b
  | ElseIf e b r => short (expr_src e) /\ (short (source b) \/ plain_names true b /\ parts b) /\ tail_parts r
  end.
Definition legible (t : tmpl) : Prop := short (source t) \/ plain_names true t /\ parts t.
