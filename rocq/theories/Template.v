(** Model of template.go. *)
From Verif Require Import Base Value Event Lexer TextParser Stream Buffer Graph Emit PathParser Eval.

(** vars.go:15-32 *)
Definition TypeTemplate : bytes := bs "!t".
Definition TypeIf : bytes := bs "!if".
Definition TypeEnd : bytes := bs "!end".
Definition TypeElse : bytes := bs "!else".
Definition TypeElseIf : bytes := bs "!elseif".
Definition TypeFor : bytes := bs "!for".
Definition TypeBreak : bytes := bs "!break".

(** ** The parser *)
Section Parser.
Variable F : nat.

(** template.go:313-360 Variable *)
Definition Variable_ : prog bool :=
  do c <- Byte_;
  if negb (beq c "$") then UnB (Ret false) else
  do c <- Byte_;
  if beq c "\" then skip emit (bs "$"); Ret true else
  UnB (
  do i <- Level;
  do c <- Byte_;
  skip (if beq c "(" then
          skip emit TypeExpression; skip ev HInc;
          skip Expression F F;
          skip Space F;
          skip Byte_; Ret tt
        else
          skip emit TypePath; skip ev HInc;
          skip (if beq c "{" then skip Space F; Ret tt else UnB (Ret tt));
          skip Path F F;
          if beq c "{" then skip Space F; skip Byte_; Ret tt else Ret tt);
  skip ev (HSetLevel i);
  Ret true).

(** template.go:292-311 Template and Text *)
Fixpoint Template (f : nat) : prog unit :=
  match f with
  | O => Stop
  | S f =>
      do t <- TemplateText F;
      match t with
      | _ :: _ => skip emit t; Template f
      | [] => do b <- Variable_; if b then Template f else Ret tt
      end
  end.
End Parser.

(** template.go:172-205 simplify, on the subnodes (all contents are strings here) *)
Definition keyword (s : bytes) : option bytes :=
  if bseq s (bs "if") then Some TypeIf
  else if bseq s (bs "end") then Some TypeEnd
  else if bseq s (bs "else") then Some TypeElse
  else if bseq s (bs "elseif") then Some TypeElseIf
  else if bseq s (bs "for") then Some TypeFor
  else if bseq s (bs "break") then Some TypeBreak
  else None.
Definition simplify_node (n : graph) : graph :=
  if bseq (this_string n) TypePath then
    match out n with
    | Some k :: r => match keyword (this_string k) with Some t => Node (VStr t) r | None => n end
    | _ => n
    end
  else n.

(** template.go:212-243 flow.  The nodes from [start] on are the list l; the result is what is
    added to h, what is added to prev, and the nodes after the end that was found.  A node that
    gets a subnode later is built at once with it.  [f] exceeds the length of l. *)
Fixpoint flow (f : nat) (l : list graph) : list graph * list graph * list graph :=
  match f, l with
  | O, _ | _, [] => ([], [], [])
  | S f, n :: l =>
      let s := this_string n in
      if bseq s TypeIf || bseq s TypeFor then
        let '(body, sibs, rest) := flow f l in
        let '(hs, es, rest) := flow f rest in
        (Node (this n) (out n ++ [Some (Node (VStr TypeTemplate) (map Some body))]) :: sibs ++ hs, es, rest)
      else if bseq s TypeElse || bseq s TypeElseIf then
        let '(hs, es, rest) := flow f l in
        ([], Node (this n) (out n ++ [Some (Node (VStr TypeTemplate) (map Some hs))]) :: es, rest)
      else if bseq s TypeEnd then ([], [], l)
      else let '(hs, es, rest) := flow f l in (n :: hs, es, rest)
  end.

(** template.go:38-50, 54-67 NewTemplate and NewTemplateFromBytes, after the parser.  At the top
    both h and prev are the new graph. *)
Definition nest (g : graph) : res graph :=
  let* t := ast_ false (Node (VStr TypeTemplate) (out g)) in
  let l := map simplify_node (strip (out t)) in
  let '(hs, es, _) := flow (S (List.length l)) l in
  Ok (Node (VStr []) (map Some (hs ++ es))).
Definition NewTemplate (E : env) (fuel : nat) (s : bytes) : res graph :=
  let* (_, _, h) := run_buf E fuel (Template fuel fuel) (NewLexer (bytes_reader s)) h_init in
  let* g := Tree h in nest g.

(** ** Processing *)

(** gettypes.go:622-636 _text *)
Definition text_of (E : env) (v : value graph) : res bytes :=
  match v with
  | VNil => Ok []
  | VPtr g => Text E g
  | v => vstring E v
  end.

Section Process.
Variable E : env.
Variable C : calls.
Variable f : nat.   (* fuel of the evaluator *)

(** The context afterwards, the text written, the loop variables that were deleted from the
    context, and whether $break was met. *)
Definition pres_ : Type := graph * bytes * list bytes * bool.

(** template.go:139-140: [it] is the only subnode of the context whose content is the
    variable's name: the others were deleted, and Set does not add a second one.  (An assignment
    to an index of the context itself could; that is left out.) *)
Fixpoint bind_var (x : bytes) (v : list (option graph)) (o : list (option graph)) : list (option graph) :=
  match o with
  | [] => []
  | Some (Node (VStr s) k) :: o =>
      if bseq s x then Some (Node (VStr s) v) :: o else Some (Node (VStr s) k) :: bind_var x v o
  | n :: o => n :: bind_var x v o
  end.

Section With.
Variable rec : option graph -> graph -> res pres_.

(** template.go:151-160; [live] is false when a nested loop has removed [it] from the context *)
Fixpoint for_loop (x : bytes) (body : option graph) (live : bool) (l : list (option graph)) (c : graph) : res (graph * bytes * list bytes) :=
  match l with
  | [] => Ok (c, [], [])
  | e :: l =>
      let c := if live then Node (this c) (bind_var x (add_out (VPtr e)) (out c)) else c in
      let* (c, o, d, brk) := rec body c in
      if brk : bool then Ok (c, o, d)
      else
        let* (c, o', d') := for_loop x body (live && negb (existsb (bseq x) d)) l c in
        Ok (c, o ++ o', d ++ d')
  end.

(** template.go:119-160 *)
Definition do_for (n : graph) (c : graph) : res (graph * bytes * list bytes) :=
  let* a := GetAt (Some n) 0 in
  let* e := GetAt a 1 in
  let* (c, r) := Eval E C f c e in
  match r with
  | EVal (VPtr (Some gi)) =>
      match out gi with
      | [] => Ok (c, [], [])
      | first :: _ =>
          let* s := ThisString E (Some gi) in
          let* l := (if bseq s (bs "[") then match first with Some g => Ok (out g) | None => Panic end else Ok (out gi)) in
          let* b := GetAt a 0 in
          let* p := GetAt b 0 in
          let* x := String_ E p in
          let* c := Delete E (Some c) (VStr x) in
          match c with
          | None => Panic
          | Some c =>
              let* body := GetAt (Some n) 1 in
              let* (c, o, d) := for_loop x body true l (Node (this c) (out c ++ [Some (New (VStr x))])) in
              Ok (c, o, x :: d)
          end
      end
  | _ => Ok (c, [], [])
  end.

(** template.go:92-100: the condition of $if and $elseif *)
Definition do_if (n : graph) (c : graph) : res (graph * bytes * list bytes * bool) :=
  let* a := GetAt (Some n) 0 in
  let* e := GetAt a 0 in
  let* (c, yes) := evalBool E C f c e in
  if yes : bool then
    let* body := GetAt (Some n) 1 in
    let* (c, o, d, _) := rec body c in Ok (c, o, d, true)
  else Ok (c, [], [], false).

(** template.go:79-169 process: the loop over the subnodes *)
Fixpoint process_nodes (l : list (option graph)) (yes : bool) (c : graph) : res pres_ :=
  match l with
  | [] => Ok (c, [], [], false)
  | None :: l => process_nodes l yes c
  | Some n :: l =>
      let go (yes : bool) (x : res (graph * bytes * list bytes)) : res pres_ :=
        let* (c, o, d) := x in
        let* (c, o', d', brk) := process_nodes l yes c in
        Ok (c, o ++ o', d ++ d', brk) in
      let* s := ThisString E (Some n) in
      if bseq s TypePath then
        go yes (let* (c, r) := Eval E C f c (Some n) in
                let* t := text_of E (match r with EVal v => v | EErr _ => VNil end) in Ok (c, t, []))
      else if bseq s TypeExpression then
        go yes (let* (c, _) := Eval E C f c (Some n) in Ok (c, [], []))
      else if bseq s TypeIf || (bseq s TypeElseIf && negb yes) then
        let* (c, o, d, yes) := do_if n c in go yes (Ok (c, o, d))
      else if bseq s TypeElseIf then go yes (Ok (c, [], []))
      else if bseq s TypeElse then
        go yes (if yes then Ok (c, [], []) else
                let* t := GetAt (Some n) 0 in
                let* (c, o, d, _) := rec t c in Ok (c, o, d))
      else if bseq s TypeFor then go yes (do_for n c)
      else if bseq s TypeBreak then Ok (c, [], [], true)
      else go yes (Ok (c, s, []))
  end.
End With.

(** template.go:79-169 process; [d] bounds the nesting of the template *)
Fixpoint process (d : nat) (g : option graph) (c : graph) : res pres_ :=
  match d with
  | O => NoFuel
  | S d =>
      match g with
      | None => Ok (c, [], [], false)
      | Some g => process_nodes (process d) (out g) false c
      end
  end.

(** template.go:70-77 Process on a context that is not nil: the context afterwards and the text *)
Definition Process (g : option graph) (c : graph) : res (graph * bytes) :=
  let* (c, o, _, _) := process f g c in Ok (c, o).
End Process.
