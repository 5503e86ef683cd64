(** Model of eval.go, of the function calls of function.go and of Set / Get (graph.go).

    Graphs are trees, so the nodes that evaluation walks through are snapshots: an
    assignment made while a path is being walked (inside an index, a selector or an
    argument) is not seen by the rest of that walk, and what an assignment stores is a copy.
    Everything else sees the modified context, which is passed along. *)
From Verif Require Import Base Value Graph Lexer PathParser.

(** Results of evaluations: (interface{}, error) *)
Inductive eres : Type := EVal (v : value graph) | EErr (e : N).

(** vars.go:35-54.  An error used as a value is a pointer to a Go object. *)
Definition ErrNotFound : N := 1.
Definition ErrNilReceiver : N := 2.
Definition ErrInvalidIndex : N := 3.
Definition ErrFunctionNoGraph : N := 4.
Definition ErrInvalidArgs : N := 5.
Definition ErrNoMethod : N := 6.

(** What lies outside: Go functions and methods called through reflection, and JSON.  They
    do not modify the context. *)
Record calls : Type := {
  remote : N -> bool;                       (* the function has type func( *Graph) ( *Graph, error) *)
  has_method : value graph -> bytes -> bool;
  call : value graph -> bytes -> list (value graph) -> res eres;
  to_json : graph -> res bytes
}.

(** ** Operators *)
Section Operators.
Variable E : env.

(** eval.go:462-527 compare; op is one of = + - > < !  *)
Definition cmp_int (op : byte) (a b : Z) : bool :=
  if beq op "=" then a =? b else if beq op "+" then b <=? a else if beq op "-" then a <=? b
  else if beq op ">" then b <? a else if beq op "<" then a <? b else if beq op "!" then negb (a =? b) else false.
Definition cmp_float (op : byte) (a b : spec_float) : bool :=
  if beq op "=" then SFeqb a b else if beq op "+" then SFleb b a else if beq op "-" then SFleb a b
  else if beq op ">" then SFltb b a else if beq op "<" then SFltb a b else if beq op "!" then negb (SFeqb a b) else false.
Definition compare_ (v1 v2 : value graph) (op : byte) : res bool :=
  match v_int64 v1 with
  | Some i1 => let* r := v_int64f E v2 in Ok match r with Some i2 => cmp_int op i1 i2 | None => false end
  | None =>
      match v_float64 v1 with
      | Some f1 => let* r := v_float64f E v2 in Ok match r with Some f2 => cmp_float op f1 f2 | None => false end
      | None =>
          let* s1 := vstring E v1 in
          let* s2 := vstring E v2 in
          Ok (if beq op "=" then bseq s1 s2 else if beq op "!" then negb (bseq s1 s2) else false)
      end
  end.

(** eval.go:530-547 logic *)
Definition logic (v1 v2 : value graph) (op : byte) : bool :=
  match v_boolf v1, v_boolf v2 with
  | Some b1, Some b2 => if beq op "&" then b1 && b2 else if beq op "|" then b1 || b2 else false
  | _, _ => false
  end.

(** eval.go:584-656 calc; op is one of + - * / %.  Integer division by zero panics. *)
Definition calc_int (op : byte) (a b : Z) : res (value graph) :=
  let int z := Ok (VInt KInt64 (wrap64 z)) in
  if beq op "+" then int (a + b) else if beq op "-" then int (a - b) else if beq op "*" then int (a * b)
  else if b =? 0 then Panic
  else if beq op "/" then int (Z.quot a b) else int (Z.rem a b).
Definition calc_float (op : byte) (a b : spec_float) : res (value graph) :=
  if beq op "+" then Ok (VF64 (SFadd 53 1024 a b)) else if beq op "-" then Ok (VF64 (SFsub 53 1024 a b))
  else if beq op "*" then Ok (VF64 (SFmul 53 1024 a b)) else if beq op "/" then Ok (VF64 (SFdiv 53 1024 a b))
  else if f2i E b =? 0 then Panic else Ok (VInt KInt (Z.rem (f2i E a) (f2i E b))).
Definition calc (v1 v2 : value graph) (op : byte) : res (value graph) :=
  match v_int64 v1, v_int64 v2 with
  | Some i1, Some i2 => calc_int op i1 i2
  | n1, n2 =>
      let f1 := match n1 with Some i => Some (f64_of_Z i) | None => v_float64 v1 end in
      let f2 := match n2 with Some i => Some (f64_of_Z i) | None => v_float64 v2 end in
      let concat := let* s1 := vstring E v1 in let* s2 := vstring E v2 in Ok (VStr (s1 ++ s2)) in
      match f1, f2 with
      | None, None => if beq op "+" then concat else Ok VNil
      | None, Some _ => concat
      | Some a, Some b => calc_float op a b
      | Some a, None =>
          let* r := v_float64f E v2 in
          calc_float op a (match r with Some b => b | None => S754_zero false end)
      end
  end.

(** gettypes.go:590-604 _simplify on a *Graph *)
Definition simplify (g : option graph) : value graph :=
  match g with
  | Some (Node _ [Some (Node v [])]) => v
  | _ => VPtr g
  end.

(** ** Set (graph.go:287-345) *)

(** graph.go:301-310.  Growing the slice to any index is assumed to find the memory. *)
Definition set_index (node : graph) (i : Z) (v : value graph) : res (graph * option graph) :=
  if i <? 0 then Panic
  else
    let o := out node in
    let o := if Z.of_nat (List.length o) <=? i then o ++ repeat None (Z.to_nat (i + 1) - List.length o) else o in
    Ok (Node (this node) (set_nth (Z.to_nat i) (Some (New v)) o), Some (New v)).

(** graph.go:342-344, with addNodes (73-88) *)
Definition set_here (node : graph) (v : value graph) : res (graph * option graph) :=
  Ok (Node (this node) (addNodes_out v), add_ret v).

(** graph.go:319-339: the remaining elements do not exist and are added *)
Fixpoint set_new (els : list (option graph)) (node : graph) (v : value graph) : res (graph * option graph) :=
  match els with
  | [] => set_here node v
  | e :: els =>
      let* s := ThisString E e in
      if bseq s TypeIndex then let* i := Int64 E e None in set_index node i v
      else
        match e with
        | None => Panic
        | Some e =>
            match add_ret (this e) with
            | None => Panic      (* Add(nil) returns nil, which is dereferenced later *)
            | Some c => let* (c, r) := set_new els c v in Ok (Node (this node) (out node ++ [Some c]), r)
            end
        end
  end.
(** graph.go:295-317 *)
Fixpoint set_els (els : list (option graph)) (node : graph) (v : value graph) : res (graph * option graph) :=
  match els with
  | [] => set_here node v
  | e :: els' =>
      let* s := ThisString E e in
      if bseq s TypeIndex then let* i := Int64 E e None in set_index node i v
      else
        let* i := find_child E s (out node) in
        match i with
        | None => set_new els node v
        | Some i =>
            match child (out node) i with
            | None => Panic
            | Some c => let* (c, r) := set_els els' c v in Ok (Node (this node) (set_nth i (Some c) (out node)), r)
            end
        end
  end.
(** graph.go:288 set: the receiver afterwards and the returned node; a nil path panics *)
Definition set_path (g : graph) (path : option graph) (v : value graph) : res (graph * option graph) :=
  match path with None => Panic | Some p => set_els (out p) g v end.

End Operators.

(** ** Paths (eval.go:41-316), over an evaluator [ev simpl e g] of expressions *)
Section Paths.
Variable E : env.
Variable C : calls.
Variable ev : bool -> option graph -> graph -> res (graph * eres).

(** eval.go:11-28 Eval.  For paths and expressions evalExpression does the same. *)
Definition Eval_with (e : option graph) (g : graph) : res (graph * eres) :=
  let* s := ThisString E e in
  if bseq s TypePath || bseq s TypeExpression then ev true e g
  else match e with
       | Some (Node v []) => let* r := ThisScalar E (Node v []) in Ok (g, EVal r)
       | _ => Ok (g, EVal (VPtr e))
       end.

(** Out[i] of a non-nil node *)
Definition Out_ (g : graph) (i : nat) : res (option graph) :=
  match nth_error (out g) i with Some c => Ok c | None => Panic end.

(** eval.go:658-672 index *)
Definition index_ (n : graph) (g : graph) : res (graph * Z) :=
  match out n with
  | [] => Ok (g, -1)
  | e :: _ =>
      let* (g, r) := ev true e g in
      Ok (g, match r with
             | EErr _ => -2
             | EVal v => match v_int64 v with Some i => if i <? 0 then -3 else i | None => -3 end
             end)
  end.

(** eval.go:81-107, 206-232: the subnodes of "{"; [n] occurrences are skipped.  n + 1 wraps
    around. *)
Fixpoint nth_equal (n : nat) (key : bytes) (o : list (option graph)) : res (list (option graph)) :=
  match o with
  | [] => Ok []
  | c :: o' =>
      let* s := ThisString E c in
      if bseq s key then match n, c with
                         | O, Some c => Ok (out c)
                         | O, None => Ok []
                         | S n, _ => nth_equal n key o'
                         end
      else nth_equal n key o'
  end.
Definition selector (n : graph) (prev : option graph) (key : bytes) (g : graph) : res (graph * (option graph + N)) :=
  match prev with
  | None => Ok (g, inr ErrInvalidIndex)
  | Some p =>
      match key with
      | [] => Ok (g, inr ErrInvalidIndex)
      | _ =>
          let* (g, ix) := index_ n g in
          let ix := wrap64 (ix + 1) in
          if ix <? 0 then Ok (g, inr ErrInvalidIndex)
          else
            let* o := if ix =? 0 then equal_nodes E key (out p) else nth_equal (Z.to_nat (ix - 1)) key (out p) in
            Ok (g, inl (Some (Node (VStr (bs "{")) o)))
      end
  end.

(** function.go:61-65, 71-75, 136-140: arguments; errors are ignored *)
Fixpoint args_ (simpl : bool) (l : list (option graph)) (g : graph) : res (graph * list (value graph)) :=
  match l with
  | [] => Ok (g, [])
  | a :: l =>
      let* (g, r) := ev simpl a g in
      let* (g, rs) := args_ simpl l g in
      Ok (g, match r with EVal v => v | EErr _ => VNil end :: rs)
  end.

(** function.go:23-170 function.  The checks of argument types and the call itself are
    [call]. *)
Definition function (path : graph) (typ : value graph) (g : graph) : res (graph * eres) :=
  match typ with
  | VFun id =>
      if remote C id then
        let* n := Out_ path 1 in
        match n with
        | None => Panic
        | Some n =>
            let* (g, a) := match nth_error (out path) 2 with
                           | None => Ok (g, [])
                           | Some None => Panic
                           | Some (Some l) => args_ true (out l) g
                           end in
            let nn := match add_ret (this n) with
                      | None => []
                      | Some c => [Some (Node (this c) (out c ++ flat_map add_out a))]
                      end in
            let* r := call C typ [] [VPtr (Some (Node (VStr (bs "_")) nn))] in Ok (g, r)
        end
      else
        let* n := Out_ path 1 in
        match n with
        | None => Panic
        | Some n => let* (g, a) := args_ true (out n) g in let* r := call C typ [] a in Ok (g, r)
        end
  | VPtr _ | VObj _ =>
      match child (out path) 1 with
      | None => Ok (g, EErr ErrNoMethod)
      | Some fn =>
          let* name := ThisString E (Some fn) in
          if has_method C typ name then
            let* (g, a) := match nth_error (out path) 2 with
                           | None => Ok (g, [])
                           | Some None => Panic
                           | Some (Some l) => args_ false (out l) g
                           end in
            let* r := call C typ name a in Ok (g, r)
          else Ok (g, EErr ErrNoMethod)
      end
  | _ => Ok (g, EVal VNil)
  end.

(** ctx.GetAt(0).This for a ctx with subnodes *)
Definition first_this (g : graph) : res (value graph) :=
  match out g with Some c :: _ => Ok (this c) | _ => Panic end.

(** eval.go:126-137, 266-277: the name a group evaluates to; inr None is (nil, nil) *)
Definition group_name (n : graph) (g : graph) : res (graph * (bytes + option N)) :=
  let* e := Out_ n 0 in
  let* (g, r) := Eval_with e g in
  match r with
  | EErr x => Ok (g, inr (Some x))
  | EVal v =>
      let* s := vstring E v in
      Ok (g, match s with [] => inr None | _ => inl s end)
  end.

(** eval.go:54-160: the loop of getPath; result: the node or an error *)
Fixpoint get_els (p : graph) (els : list (option graph)) (ctx prev : option graph) (key : bytes) (g : graph) : res (graph * (option graph + N)) :=
  match els with
  | [] => Ok (g, inl ctx)
  | n :: els =>
      match ctx with
      | None => Ok (g, inl None)
      | Some c =>
          let* s := ThisString E n in
          let named (s : bytes) (g : graph) :=
            let* next := Node_ E ctx s in
            match next with
            | Some _ => get_els p els next ctx s g
            | None =>
                match out c with
                | [] => get_els p els None ctx s g
                | _ =>
                    let* t := first_this c in
                    let* (g, r) := function p t g in
                    match r with
                    | EErr e => Ok (g, inr e)
                    | EVal (VPtr next) => get_els p els next ctx s g
                    | EVal _ => Ok (g, inr ErrFunctionNoGraph)
                    end
                end
            end in
          match n with
          | None => named s g
          | Some n =>
              if bseq s TypeIndex then
                let* (g, ix) := index_ n g in
                if ix <? 0 then Ok (g, inr ErrInvalidIndex)
                else
                  let* c' := GetAt ctx ix in
                  get_els p els (Some (Node (VStr (bs "[")) (add_out (VPtr c')))) ctx key g
              else if bseq s TypeSelector then
                let* (g, r) := selector n prev key g in
                match r with
                | inr e => Ok (g, inr e)
                | inl r => get_els p els r ctx key g
                end
              else if bseq s TypeArguments then
                match out c with
                | [] => Ok (g, inr ErrNotFound)
                | _ =>
                    let* t := first_this c in
                    let* (g, r) := function p t g in
                    match r with
                    | EErr e => Ok (g, inr e)
                    | EVal (VPtr next) => get_els p els next ctx key g
                    | EVal _ => Ok (g, inr ErrFunctionNoGraph)
                    end
                end
              else if bseq s TypeGroup then
                let* (g, r) := group_name n g in
                match r with
                | inr None => Ok (g, inl None)
                | inr (Some e) => Ok (g, inr e)
                | inl s => named s g
                end
              else named s g
          end
      end
  end.
(** eval.go:42-163 getPath on a non-nil receiver *)
Definition getPath (p : graph) (g : graph) : res (graph * (option graph + N)) :=
  match out p with
  | [] => Ok (g, inr ErrInvalidArgs)
  | els => get_els p els (Some g) None [] g
  end.

(** eval.go:180-303 evalPath's loop; [root] is addRoot *)
Fixpoint eval_els (p : graph) (simpl root : bool) (els : list (option graph)) (ctx prev : option graph) (key : bytes) (g : graph) : res (graph * eres) :=
  let finish :=
    let r := if root then Some (Node (VStr (bs "[")) (add_out (VPtr ctx))) else ctx in
    Ok (g, EVal (if simpl then simplify r else VPtr r)) in
  match els with
  | [] => finish
  | n :: els =>
      match ctx with
      | None => finish
      | Some c =>
          let* s := ThisString E n in
          let named (s : bytes) (g : graph) :=
            let* next := Node_ E ctx s in
            match next with
            | Some _ => eval_els p simpl false els next ctx s g
            | None =>
                match out c with
                | [] => eval_els p simpl false els None ctx s g
                | _ => let* t := first_this c in function p t g
                end
            end in
          match n with
          | None => named s g
          | Some n =>
              if bseq s TypeIndex then
                let* (g, ix) := index_ n g in
                if ix <? 0 then Ok (g, EErr ErrInvalidIndex)
                else
                  let* c' := GetAt ctx ix in
                  eval_els p simpl true els c' ctx key g
              else if bseq s TypeSelector then
                let* (g, r) := selector n prev key g in
                match r with
                | inr e => Ok (g, EErr e)
                | inl r => eval_els p simpl false els r ctx key g
                end
              else if bseq s (bs "_len") then Ok (g, EVal (VInt KInt (Len ctx)))
              else if bseq s (bs "_this") then Ok (g, EVal (VPtr ctx))
              else if bseq s (bs "_thisString") then let* t := ThisString E ctx in Ok (g, EVal (VStr t))
              else if bseq s (bs "_string") then let* t := String_ E ctx in Ok (g, EVal (VStr t))
              else if bseq s (bs "_json") then let* t := to_json C c in Ok (g, EVal (VBytes t))
              else if bseq s TypeArguments then
                match out c with
                | [] => Ok (g, EVal VNil)
                | _ =>
                    let* t := first_this c in
                    let* (g, r) := function p t g in
                    match r with
                    | EErr e => Ok (g, EErr e)
                    | EVal (VPtr next) => eval_els p simpl false els next ctx key g
                    | EVal v => Ok (g, EVal v)
                    end
                end
              else if bseq s TypeGroup then
                let* (g, r) := group_name n g in
                match r with
                | inr None => Ok (g, EVal VNil)
                | inr (Some e) => Ok (g, EErr e)
                | inl s => named s g
                end
              else named s g
          end
      end
  end.
(** eval.go:167-316 evalPath on a non-nil receiver *)
Definition evalPath (simpl : bool) (p : graph) (g : graph) : res (graph * eres) :=
  match out p with
  | [] => Ok (g, EErr ErrInvalidArgs)
  | els => eval_els p simpl false els (Some g) None [] g
  end.

(** eval.go:550-576 assign *)
Definition assign (p : option graph) (v : value graph) (op : byte) (g : graph) : res (graph * value graph) :=
  let set v g := let* (g, r) := set_path E g p v in Ok (g, VPtr r) in
  if beq op "=" then set v g
  else
    let* (g, lhs) := match p with Some p => getPath p g | None => Panic end in
    match lhs with
    | inl (Some l) =>
        let* c := Out_ l 0 in
        match c with
        | None => Panic
        | Some c => let* w := calc E (this c) v op in set w g
        end
    | _ =>
        if beq op "+" then set v g
        else if beq op "-" then let* w := calc E (VInt KInt 0) v "-" in set w g
        else if beq op "*" then set (VInt KInt 0) g
        else if beq op "/" then set (VStr (bs "infinity")) g
        else set (VStr (bs "undefined")) g
    end.

(** eval.go:395-458 evalBinary; an error is returned as a value *)
Definition evalBinary (p : graph) (g : graph) : res (graph * value graph) :=
  let* n1 := Out_ p 0 in
  let* n2 := Out_ p 1 in
  let* (g, r2) := ev true n2 g in
  match r2 with
  | EErr e => Ok (g, VObj e)
  | EVal i2 =>
      let* s := ThisString E (Some p) in
      if bseq s (bs "=") then assign n1 i2 "=" g
      else if bseq s (bs "+=") then assign n1 i2 "+" g
      else if bseq s (bs "-=") then assign n1 i2 "-" g
      else if bseq s (bs "*=") then assign n1 i2 "*" g
      else if bseq s (bs "/=") then assign n1 i2 "/" g
      else if bseq s (bs "%=") then assign n1 i2 "%" g
      else
        let* (g, r1) := ev true n1 g in
        match r1 with
        | EErr e => Ok (g, VObj e)
        | EVal i1 =>
            let calc op := let* v := calc E i1 i2 op in Ok (g, v) in
            let compare op := let* b := compare_ E i1 i2 op in Ok (g, VBool b) in
            if bseq s (bs "+") then calc "+"%byte
            else if bseq s (bs "-") then calc "-"%byte
            else if bseq s (bs "*") then calc "*"%byte
            else if bseq s (bs "/") then calc "/"%byte
            else if bseq s (bs "%") then calc "%"%byte
            else if bseq s (bs "==") then compare "="%byte
            else if bseq s (bs ">=") then compare "+"%byte
            else if bseq s (bs "<=") then compare "-"%byte
            else if bseq s (bs "!=") then compare "!"%byte
            else if bseq s (bs ">") then compare ">"%byte
            else if bseq s (bs "<") then compare "<"%byte
            else if bseq s (bs "&&") then Ok (g, VBool (logic i1 i2 "&"))
            else if bseq s (bs "||") then Ok (g, VBool (logic i1 i2 "|"))
            else Ok (g, VNil)
        end
  end.

(** eval.go:32-39 evalBool *)
Definition evalBool_with (e : option graph) (g : graph) : res (graph * bool) :=
  let* (g, r) := Eval_with e g in
  Ok (g, match r with EErr _ => false | EVal v => match v_boolf v with Some b => b | None => false end end).

(** eval.go:348-357 *)
Fixpoint group_ (simpl : bool) (l : list (option graph)) (g : graph) : res (graph * list (option graph)) :=
  match l with
  | [] => Ok (g, [])
  | e :: l =>
      let* (g, r) := ev simpl e g in
      let* (g, o) := group_ simpl l g in
      Ok (g, match r with EVal v => add_out v | EErr _ => [] end ++ o)
  end.

(** eval.go:321-393 evalExpression *)
Definition eval_body (simpl : bool) (p : option graph) (g : graph) : res (graph * eres) :=
  match p with
  | None => Panic
  | Some p =>
      match this p with
      | VNil => Ok (g, EErr ErrNilReceiver)
      | _ =>
          let* s := ThisString E (Some p) in
          match s with
          | [] => Ok (g, EVal (VStr []))
          | c :: rest =>
              if isNumber s then let* n := number E (this p) in Ok (g, EVal n)
              else if bseq s (bs "!") then
                let* e := Out_ p 0 in
                let* (g, b) := evalBool_with e g in Ok (g, EVal (VBool (negb b)))
              else if bseq s TypeExpression then let* e := GetAt (Some p) 0 in ev simpl e g
              else if bseq s TypePath then evalPath simpl p g
              else if bseq s TypeGroup then
                let* (g, o) := group_ simpl (out p) g in Ok (g, EVal (VPtr (Some (Node (VStr TypeGroup) o))))
              else if bseq s TypeString then
                match out p with
                | [] => Ok (g, EVal (VStr []))
                | e :: _ => let* t := ThisString E e in Ok (g, EVal (VStr t))
                end
              else if is_operator c && (match rest with [] => true | [d] => is_operator d | _ => false end) then
                let* (g, v) := evalBinary p g in Ok (g, EVal v)
              else if beq c x22 || beq c "'" then Ok (g, EVal (VStr s))
              else if is_letter c then
                Ok (g, EVal (if bseq s (bs "false") then VBool false else if bseq s (bs "true") then VBool true else VStr s))
              else Ok (g, EVal (VPtr (Some p)))
          end
      end
  end.
End Paths.

(** ** The evaluators; fuel bounds the depth of the expression *)
Section Eval.
Variable E : env.
Variable C : calls.

Fixpoint evalExpression (f : nat) (simpl : bool) (p : option graph) (g : graph) : res (graph * eres) :=
  match f with
  | O => NoFuel
  | S f => eval_body E C (evalExpression f) simpl p g
  end.
(** eval.go:11 Eval on a non-nil receiver *)
Definition Eval (f : nat) (g : graph) (e : option graph) : res (graph * eres) :=
  Eval_with E (evalExpression f) e g.
Definition evalBool (f : nat) (g : graph) (e : option graph) : res (graph * bool) :=
  evalBool_with E (evalExpression f) e g.

(** graph.go:224-231 Get: the context afterwards and the node *)
Definition Get (f : nat) (g : option graph) (s : bytes) : res (option graph * option graph) :=
  match g with
  | None => Ok (None, None)
  | Some g =>
      let* p := NewPath E f s in
      let* (g, r) := getPath E C (evalExpression f) p g in
      Ok (Some g, match r with inl n => n | inr _ => None end)
  end.

(** graph.go:273-285 Set: the receiver afterwards and the returned node *)
Definition Set_ (f : nat) (g : option graph) (s : bytes) (v : value graph) : res (option graph * option graph) :=
  match g with
  | None => Ok (None, None)
  | Some g =>
      let* p := NewPath E f s in
      let* (g, r) := set_path E g (Some p) v in
      Ok (Some g, r)
  end.

(** gettypes.go:328-430: the typed getters.  None is an error. *)
Definition get_with {A} (f : nat) (g : option graph) (path : bytes) (direct : option graph -> res A) (conv : value graph -> res (option A)) : res (option A) :=
  match path with
  | [] => let* r := direct g in Ok (Some r)
  | _ =>
      let* (_, n) := Get f g path in
      match n with
      | None | Some (Node _ []) => Ok None
      | Some (Node _ (None :: _)) => Panic
      | Some (Node _ (Some c :: _)) => conv (this c)
      end
  end.
Definition GetString (f : nat) (g : option graph) (path : bytes) : res (option bytes) :=
  get_with f g path (String_ E) (fun v => let* s := vstring E v in Ok (Some s)).
Definition GetBytes (f : nat) (g : option graph) (path : bytes) : res (option bytes) :=
  get_with f g path (fun g => let* v := Interface g in vbytes E v) (fun v => let* s := vbytes E v in Ok (Some s)).
Definition GetInt64 (f : nat) (g : option graph) (path : bytes) : res (option Z) :=
  get_with f g path (fun g => Int64 E g None) (v_int64f E).
Definition GetBool (f : nat) (g : option graph) (path : bytes) : res (option bool) :=
  get_with f g path (fun g => Bool_ E g None) (fun v => Ok (v_boolf v)).
Definition GetFloat64 (f : nat) (g : option graph) (path : bytes) : res (option spec_float) :=
  get_with f g path
    (fun g => let* s := String_ E g in let* r := v_float64f E (VStr s) in Ok match r with Some x => x | None => S754_nan end)
    (v_float64f E).

End Eval.
