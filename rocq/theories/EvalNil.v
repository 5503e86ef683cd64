(** Model of Eval and Process on a nil graph, which gtemplate has when it gets no data file or cannot read the first. *)
From Verif Require Import Base Value Graph PathParser Eval Template.

Section Nil.
Variable E : env.

(** eval.go:550-576 assign on a nil receiver: getPath returns nil, and set (graph.go:287-343) comes to node.Out or node.Out[i] with a nil
    node, whatever the path, so it panics *)
Definition assign_nil (p : option graph) (v : value graph) : res (value graph) := Panic.

Section Expr.
(** evalExpression for subexpressions *)
Variable ev : bool -> option graph -> res eres.

(** eval.go:11-28 Eval *)
Definition Eval_nil_with (e : option graph) : res eres :=
  let* s := ThisString E e in
  if bseq s TypePath || bseq s TypeExpression then ev true e
  else match e with
       | Some (Node v []) => let* r := ThisScalar E (Node v []) in Ok (EVal r)
       | _ => Ok (EVal (VPtr e))
       end.
(** eval.go:32-39 evalBool *)
Definition evalBool_nil_with (e : option graph) : res bool :=
  let* r := Eval_nil_with e in
  Ok match r with EErr _ => false | EVal v => match v_boolf v with Some b => b | None => false end end.

(** eval.go:395-458 evalBinary *)
Definition evalBinary_nil (p : graph) : res (value graph) :=
  let* n1 := Out_ p 0 in
  let* n2 := Out_ p 1 in
  let* r2 := ev true n2 in
  match r2 with
  | EErr e => Ok (VObj e)
  | EVal i2 =>
      let* s := ThisString E (Some p) in
      if existsb (bseq s) [bs "="; bs "+="; bs "-="; bs "*="; bs "/="; bs "%="] then assign_nil n1 i2
      else
        let* r1 := ev true n1 in
        match r1 with
        | EErr e => Ok (VObj e)
        | EVal i1 =>
            let compare op := let* b := compare_ E i1 i2 op in Ok (VBool b) in
            if bseq s (bs "+") then calc E i1 i2 "+"
            else if bseq s (bs "-") then calc E i1 i2 "-"
            else if bseq s (bs "*") then calc E i1 i2 "*"
            else if bseq s (bs "/") then calc E i1 i2 "/"
            else if bseq s (bs "%") then calc E i1 i2 "%"
            else if bseq s (bs "==") then compare "="%byte
            else if bseq s (bs ">=") then compare "+"%byte
            else if bseq s (bs "<=") then compare "-"%byte
            else if bseq s (bs "!=") then compare "!"%byte
            else if bseq s (bs ">") then compare ">"%byte
            else if bseq s (bs "<") then compare "<"%byte
            else if bseq s (bs "&&") then Ok (VBool (logic i1 i2 "&"))
            else if bseq s (bs "||") then Ok (VBool (logic i1 i2 "|"))
            else Ok VNil
        end
  end.

(** eval.go:348-357 *)
Fixpoint group_nil (simpl : bool) (l : list (option graph)) : res (list (option graph)) :=
  match l with
  | [] => Ok []
  | e :: l =>
      let* r := ev simpl e in
      let* o := group_nil simpl l in
      Ok (match r with EVal v => add_out v | EErr _ => [] end ++ o)
  end.

(** eval.go:321-393 evalExpression; a path (eval.go:167-171 evalPath) is an error *)
Definition eval_nil_body (simpl : bool) (p : option graph) : res eres :=
  match p with
  | None => Panic
  | Some p =>
      match this p with
      | VNil => Ok (EErr ErrNilReceiver)
      | _ =>
          let* s := ThisString E (Some p) in
          match s with
          | [] => Ok (EVal (VStr []))
          | c :: rest =>
              if isNumber s then let* n := number E (this p) in Ok (EVal n)
              else if bseq s (bs "!") then
                let* e := Out_ p 0 in
                let* b := evalBool_nil_with e in Ok (EVal (VBool (negb b)))
              else if bseq s TypeExpression then let* e := GetAt (Some p) 0 in ev simpl e
              else if bseq s TypePath then Ok (EErr ErrInvalidArgs)
              else if bseq s TypeGroup then
                let* o := group_nil simpl (out p) in Ok (EVal (VPtr (Some (Node (VStr TypeGroup) o))))
              else if bseq s TypeString then
                match out p with
                | [] => Ok (EVal (VStr []))
                | e :: _ => let* t := ThisString E e in Ok (EVal (VStr t))
                end
              else if is_operator c && (match rest with [] => true | [d] => is_operator d | _ => false end) then
                let* v := evalBinary_nil p in Ok (EVal v)
              else if beq c x22 || beq c "'" then Ok (EVal (VStr s))
              else if is_letter c then
                Ok (EVal (if bseq s (bs "false") then VBool false else if bseq s (bs "true") then VBool true else VStr s))
              else Ok (EVal (VPtr (Some p)))
          end
      end
  end.
End Expr.

(** The evaluators; fuel bounds the depth of the expression *)
Fixpoint evalExpression_nil (f : nat) (simpl : bool) (p : option graph) : res eres :=
  match f with
  | O => NoFuel
  | S f => eval_nil_body (evalExpression_nil f) simpl p
  end.
Definition Eval_nil (f : nat) (e : option graph) : res eres := Eval_nil_with (evalExpression_nil f) e.
Definition evalBool_nil (f : nat) (e : option graph) : res bool := evalBool_nil_with (evalExpression_nil f) e.

Variable f : nat.   (* fuel of the evaluator *)
Section With.
Variable rec : option graph -> res (bytes * bool).

(** template.go:119-160: Delete and Add do nothing on nil, so [it] is nil and it.Out panics if there is anything to loop over *)
Definition do_for_nil (n : graph) : res bytes :=
  let* a := GetAt (Some n) 0 in
  let* e := GetAt a 1 in
  let* r := Eval_nil f e in
  match r with
  | EVal (VPtr (Some gi)) =>
      match out gi with
      | [] => Ok []
      | first :: _ =>
          let* s := ThisString E (Some gi) in
          let* l := (if bseq s (bs "[") then match first with Some g => Ok (out g) | None => Panic end else Ok (out gi)) in
          let* b := GetAt a 0 in
          let* p := GetAt b 0 in
          let* x := String_ E p in
          match l with [] => Ok [] | _ => Panic end
      end
  | _ => Ok []
  end.

(** template.go:98-113: the condition of $if and $elseif *)
Definition do_if_nil (n : graph) : res (bytes * bool) :=
  let* a := GetAt (Some n) 0 in
  let* e := GetAt a 0 in
  let* yes := evalBool_nil f e in
  if yes : bool then
    let* body := GetAt (Some n) 1 in
    let* (o, _) := rec body in Ok (o, true)
  else Ok ([], false).

(** template.go:79-169 process: the loop over the subnodes; the text, and whether $break was met *)
Fixpoint process_nodes_nil (l : list (option graph)) (yes : bool) : res (bytes * bool) :=
  match l with
  | [] => Ok ([], false)
  | None :: l => process_nodes_nil l yes
  | Some n :: l =>
      let go (yes : bool) (x : res bytes) : res (bytes * bool) :=
        let* o := x in
        let* (o', brk) := process_nodes_nil l yes in
        Ok (o ++ o', brk) in
      let* s := ThisString E (Some n) in
      if bseq s TypePath then
        go yes (let* r := Eval_nil f (Some n) in text_of E (match r with EVal v => v | EErr _ => VNil end))
      else if bseq s TypeExpression then
        go yes (let* _ := Eval_nil f (Some n) in Ok [])
      else if bseq s TypeIf || (bseq s TypeElseIf && negb yes) then
        let* (o, yes) := do_if_nil n in go yes (Ok o)
      else if bseq s TypeElseIf then go yes (Ok [])
      else if bseq s TypeElse then
        go yes (if yes then Ok [] else
                let* t := GetAt (Some n) 0 in
                let* (o, _) := rec t in Ok o)
      else if bseq s TypeFor then go yes (do_for_nil n)
      else if bseq s TypeBreak then Ok ([], true)
      else go yes (Ok s)
  end.
End With.

(** template.go:79-169 process; [d] bounds the nesting of the template *)
Fixpoint process_nil (d : nat) (g : option graph) : res (bytes * bool) :=
  match d with
  | O => NoFuel
  | S d =>
      match g with
      | None => Ok ([], false)
      | Some g => process_nodes_nil (process_nil d) (out g) false
      end
  end.

(** template.go:70-77 Process(nil) *)
Definition Process_nil (g : graph) : res bytes := let* (o, _) := process_nil f (Some g) in Ok o.
End Nil.
