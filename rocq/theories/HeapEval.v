(** eval.go and template.go on a heap: evaluation returns the nodes of the context themselves, an
    assignment stores nodes, and the variable of a loop holds the element itself.  Eval.v and
    Template.v copy instead.

    Expressions, paths and templates stay trees (nothing modifies them); when an evaluation
    returns a part of the expression itself, that part is copied to new nodes.  A slice that is
    ranged over is read once, at the start. *)
From Verif Require Import Base Value Graph Emit PathParser Eval Template Heap.

(** (interface{}, error) *)
Inductive heres : Type := HVal (v : value addr) | HErr (e : N).

(** What lies outside, as in Eval.v: functions and methods called through reflection, and JSON *)
Record hcalls : Type := {
  hremote : N -> bool;
  hhas_method : value addr -> bytes -> bool;
  hcall : value addr -> bytes -> list (value addr) -> M heres;
  hto_json : graph -> res bytes
}.

(** A loop over a list that collects results *)
Fixpoint collect {A B} (body : A -> M B) (l : list A) : M (list B) :=
  match l with [] => ret [] | x :: l => do y <- body x; do ys <- collect body l; ret (y :: ys) end.

(** The graph that a node shows, for the functions that walk over a whole graph.  They do not
    return if a node is below itself; a way down without repetition has at most as many nodes as there are. *)
Fixpoint hread (f : nat) (a : addr) : M graph :=
  match f with
  | O => mfuel
  | S f =>
      do c <- load a;
      do v <- match c_this c with
              | VNil => ret VNil | VStr s => ret (VStr s) | VBytes s => ret (VBytes s) | VBool b => ret (VBool b)
              | VInt k z => ret (VInt k z) | VF32 x => ret (VF32 x) | VF64 x => ret (VF64 x) | VFun i => ret (VFun i)
              | VObj i => ret (VObj i) | VOther i => ret (VOther i) | VPtr None => ret (VPtr None)
              | VPtr (Some b) => do g <- hread f b; ret (VPtr (Some g))
              end;
      do o <- collect (fun b => match b with None => ret None | Some b => do g <- hread f b; ret (Some g) end) (c_out c);
      ret (Node v o)
  end.
Definition hgraph (a : option addr) : M (option graph) :=
  fun h => match a with None => (h, Ok None) | Some a => mbind (hread (S (List.length h)) a) (fun g => ret (Some g)) h end.

(** New nodes for a part of an expression *)
Fixpoint hcopy (g : graph) : M addr :=
  match g with
  | Node v o =>
      do o <- (fix go (o : list (option graph)) : M (list (option addr)) :=
                 match o with
                 | [] => ret []
                 | None :: o => do l <- go o; ret (None :: l)
                 | Some g :: o => do a <- hcopy g; do l <- go o; ret (Some a :: l)
                 end) o;
      alloc {| c_this := match v with
                         | VNil => VNil | VStr s => VStr s | VBytes s => VBytes s | VBool b => VBool b | VInt k z => VInt k z
                         | VF32 x => VF32 x | VF64 x => VF64 x | VFun i => VFun i | VObj i => VObj i | VOther i => VOther i
                         | VPtr _ => VPtr None     (* not in a parsed expression *)
                         end; c_out := o |}
  end.

(** What [Add(v)] appends to a node (graph.go:57-71).  Nodes that evaluation creates are written here
    when all their subnodes are there; nobody sees them before. *)
Definition hadd_out (v : value addr) : M (list (option addr)) :=
  match v with
  | VNil => ret []
  | VPtr (Some n) => ret [Some n]
  | v => do n <- alloc {| c_this := v; c_out := [] |}; ret [Some n]
  end.

Section HeapEval.
Variable E : env.
Variable f : nat.      (* for contents that are graphs, see hstring *)

(** gettypes.go:175-186 [ThisString] *)
Definition hThisString (g : option addr) : M bytes :=
  match g with None => ret [] | Some a => do c <- load a; hstring E f (c_this c) end.
(** gettypes.go:470-494 [_int64f] *)
Definition hint64f (v : value addr) : M (option Z) :=
  do v <- match v with VPtr None => mpanic | VPtr (Some a) => do c <- load a; ret (c_this c) | v => ret v end;
  ret match v with
      | VBytes s | VStr s => parse_int s
      | VF32 x => Some (f2i E (f64_of_f32 x))
      | VF64 x => Some (f2i E x)
      | _ => v_int64 v
      end.
(** gettypes.go:432-451 [_float64f] *)
Definition hfloat64f (v : value addr) : M (option spec_float) :=
  match v_float64 v with
  | Some x => ret (Some x)
  | None =>
      match v_int64 v with
      | Some i => ret (Some (f64_of_Z i))
      | None => do s <- hstring E f v; ret (parse_float E s)
      end
  end.
(** gettypes.go:528-572 [_boolf] *)
Definition hboolf (v : value addr) : M (option bool) :=
  do v <- match v with VPtr None => ret VNil | VPtr (Some a) => do c <- load a; ret (c_this c) | v => ret v end;
  ret match v with
      | VBytes s | VStr s => if bseq s (bs "false") then Some false else if bseq s (bs "true") then Some true else None
      | VBool b => Some b
      | VInt KInt z | VInt KInt64 z => Some (negb (z =? 0))
      | _ => None
      end.

(** eval.go:462-527 compare *)
Definition hcompare (v1 v2 : value addr) (op : byte) : M bool :=
  match v_int64 v1 with
  | Some i1 => do r <- hint64f v2; ret match r with Some i2 => cmp_int op i1 i2 | None => false end
  | None =>
      match v_float64 v1 with
      | Some f1 => do r <- hfloat64f v2; ret match r with Some f2 => cmp_float op f1 f2 | None => false end
      | None =>
          do s1 <- hstring E f v1;
          do s2 <- hstring E f v2;
          ret (if beq op "=" then bseq s1 s2 else if beq op "!" then negb (bseq s1 s2) else false)
      end
  end.
(** eval.go:530-547 logic *)
Definition hlogic (v1 v2 : value addr) (op : byte) : M bool :=
  do b1 <- hboolf v1;
  do b2 <- hboolf v2;
  ret match b1, b2 with
      | Some b1, Some b2 => if beq op "&" then b1 && b2 else if beq op "|" then b1 || b2 else false
      | _, _ => false
      end.
(** A number or a text as a content *)
Definition content (v : value graph) : value addr :=
  match v with
  | VNil => VNil | VStr s => VStr s | VBytes s => VBytes s | VBool b => VBool b | VInt k z => VInt k z
  | VF32 x => VF32 x | VF64 x => VF64 x | VFun i => VFun i | VObj i => VObj i | VOther i => VOther i | VPtr _ => VPtr None
  end.
(** eval.go:584-656 calc *)
Definition hcalc (v1 v2 : value addr) (op : byte) : M (value addr) :=
  let num (r : res (value graph)) : M (value addr) := do v <- lift r; ret (content v) in
  match v_int64 v1, v_int64 v2 with
  | Some i1, Some i2 => num (calc_int op i1 i2)
  | n1, n2 =>
      let f1 := match n1 with Some i => Some (f64_of_Z i) | None => v_float64 v1 end in
      let f2 := match n2 with Some i => Some (f64_of_Z i) | None => v_float64 v2 end in
      let concat := do s1 <- hstring E f v1; do s2 <- hstring E f v2; ret (VStr (s1 ++ s2)) in
      match f1, f2 with
      | None, None => if beq op "+" then concat else ret VNil
      | None, Some _ => concat
      | Some a, Some b => num (calc_float E op a b)
      | Some a, None =>
          do r <- hfloat64f v2;
          num (calc_float E op a (match r with Some b => b | None => S754_zero false end))
      end
  end.
(** gettypes.go:590-604 [_simplify] *)
Definition hsimplify (g : option addr) : M (value addr) :=
  match g with
  | None => ret (VPtr None)
  | Some a =>
      do c <- load a;
      match c_out c with
      | [Some b] => do d <- load b; ret match c_out d with [] => c_this d | _ => VPtr (Some a) end
      | _ => ret (VPtr (Some a))
      end
  end.

(** The elements of a path as [hset] takes them (contents of paths are strings) *)
Fixpoint path_elems (els : list (option graph)) : res (list helem) :=
  match els with
  | [] => Ok []
  | None :: _ => Panic
  | Some e :: els =>
      let* s := ThisString E (Some e) in
      if bseq s TypeIndex then let* i := Int64 E (Some e) None in Ok [HIndex i]
      else let* l := path_elems els in Ok (HName s :: l)
  end.

(** ** Paths, over an evaluator [ev simpl e] of expressions *)
Section Paths.
Variable C : hcalls.
Variable root : addr.      (* the receiver, never nil *)
Variable ev : bool -> option graph -> M heres.

(** eval.go:11-28 Eval *)
Definition hEval_with (e : option graph) : M heres :=
  do s <- lift (ThisString E e);
  if bseq s TypePath || bseq s TypeExpression then ev true e
  else match e with
       | Some (Node v []) => do r <- lift (ThisScalar E (Node v [])); ret (HVal (content r))
       | None => ret (HVal (VPtr None))
       | Some e => do a <- hcopy e; ret (HVal (VPtr (Some a)))
       end.
(** eval.go:658-672 index *)
Definition hindex (n : graph) : M Z :=
  match out n with
  | [] => ret (-1)
  | e :: _ =>
      do r <- ev true e;
      ret match r with
          | HErr _ => -2
          | HVal v => match v_int64 v with Some i => if i <? 0 then -3 else i | None => -3 end
          end
  end.
(** eval.go:81-107, 206-232 *)
Fixpoint hnth_equal (n : nat) (key : bytes) (o : list (option addr)) : M (list (option addr)) :=
  match o with
  | [] => ret []
  | c :: o' =>
      do s <- hThisString c;
      if bseq s key then match n, c with
                         | O, Some c => do d <- load c; ret (c_out d)
                         | O, None => ret []
                         | S n, _ => hnth_equal n key o'
                         end
      else hnth_equal n key o'
  end.
(** graph.go:104-116 addEqualNodes *)
Fixpoint hequal_nodes (key : bytes) (o : list (option addr)) : M (list (option addr)) :=
  match o with
  | [] => ret []
  | c :: o' =>
      do a <- deref c;
      do d <- load a;
      do s <- hstring E f (c_this d);
      do r <- hequal_nodes key o';
      ret ((if bseq key s then c_out d else []) ++ r)
  end.
Definition hselector (n : graph) (prev : option addr) (key : bytes) : M (option addr + N) :=
  match prev with
  | None => ret (inr ErrInvalidIndex)
  | Some p =>
      match key with
      | [] => ret (inr ErrInvalidIndex)
      | _ =>
          do ix <- hindex n;
          let ix := wrap64 (ix + 1) in
          if ix <? 0 then ret (inr ErrInvalidIndex)
          else
            do d <- load p;
            do o <- (if ix =? 0 then hequal_nodes key (c_out d) else hnth_equal (Z.to_nat (ix - 1)) key (c_out d));
            do a <- alloc {| c_this := VStr (bs "{"); c_out := o |};
            ret (inl (Some a))
      end
  end.
(** function.go:23-170 function *)
Definition hargs (simpl : bool) (l : list (option graph)) : M (list (value addr)) :=
  collect (fun a => do r <- ev simpl a; ret match r with HVal v => v | HErr _ => VNil end) l.
Definition hargs_at (simpl : bool) (path : graph) : M (list (value addr)) :=
  match nth_error (out path) 2 with None => ret [] | Some None => mpanic | Some (Some l) => hargs simpl (out l) end.
Definition hfunction (path : graph) (typ : value addr) : M heres :=
  match typ with
  | VFun id =>
      do n <- lift (Out_ path 1);
      match n with
      | None => mpanic
      | Some n =>
          if hremote C id then
            do a <- hargs_at true path;
            do u <- hNew (VStr (bs "_"));
            do nn <- hAdd u (content (this n));
            do _ <- each (fun v => do _ <- hAdd nn v; ret tt) a;
            hcall C typ [] [VPtr u]
          else do a <- hargs true (out n); hcall C typ [] a
      end
  | VPtr _ | VObj _ =>
      match child (out path) 1 with
      | None => ret (HErr ErrNoMethod)
      | Some fn =>
          do name <- lift (ThisString E (Some fn));
          if hhas_method C typ name then do a <- hargs_at false path; hcall C typ name a
          else ret (HErr ErrNoMethod)
      end
  | _ => ret (HVal VNil)
  end.
Definition hfirst_this (o : list (option addr)) : M (value addr) :=
  match o with Some c :: _ => do d <- load c; ret (c_this d) | _ => mpanic end.
(** eval.go:126-137, 266-277 *)
Definition hgroup_name (n : graph) : M (bytes + option N) :=
  do e <- lift (Out_ n 0);
  do r <- hEval_with e;
  match r with
  | HErr x => ret (inr (Some x))
  | HVal v => do s <- hstring E f v; ret match s with [] => inr None | _ => inl s end
  end.
(** r := New("["); r.Add(c) *)
Definition hwrap (c : option addr) : M (option addr) :=
  do o <- hadd_out (VPtr c); do r <- alloc {| c_this := VStr (bs "["); c_out := o |}; ret (Some r).

(** eval.go:54-160: the loop of getPath *)
Fixpoint hget_els (p : graph) (els : list (option graph)) (ctx prev : option addr) (key : bytes) : M (option addr + N) :=
  match els with
  | [] => ret (inl ctx)
  | n :: els =>
      match ctx with
      | None => ret (inl None)
      | Some c =>
          do s <- lift (ThisString E n);
          let called (r : heres) key := match r with
                                    | HErr e => ret (inr e)
                                    | HVal (VPtr next) => hget_els p els next ctx key
                                    | HVal _ => ret (inr ErrFunctionNoGraph)
                                    end in
          let named (s : bytes) :=
            do next <- hNode E f ctx s;
            match next with
            | Some _ => hget_els p els next ctx s
            | None =>
                do d <- load c;
                match c_out d with
                | [] => hget_els p els None ctx s
                | o => do t <- hfirst_this o; do r <- hfunction p t; called r s
                end
            end in
          match n with
          | None => named s
          | Some n =>
              if bseq s TypeIndex then
                do ix <- hindex n;
                if ix <? 0 then ret (inr ErrInvalidIndex)
                else do c' <- hGetAt ctx ix; do r <- hwrap c'; hget_els p els r ctx key
              else if bseq s TypeSelector then
                do r <- hselector n prev key;
                match r with
                | inr e => ret (inr e)
                | inl r => hget_els p els r ctx key
                end
              else if bseq s TypeArguments then
                do d <- load c;
                match c_out d with
                | [] => ret (inr ErrNotFound)
                | o => do t <- hfirst_this o; do r <- hfunction p t; called r key
                end
              else if bseq s TypeGroup then
                do r <- hgroup_name n;
                match r with
                | inr None => ret (inl None)
                | inr (Some e) => ret (inr e)
                | inl s => named s
                end
              else named s
          end
      end
  end.
(** eval.go:42-163 getPath *)
Definition hgetPath (p : graph) : M (option addr + N) :=
  match out p with
  | [] => ret (inr ErrInvalidArgs)
  | els => hget_els p els (Some root) None []
  end.

(** eval.go:180-303 evalPath's loop; [top] is addRoot *)
Fixpoint heval_els (p : graph) (simpl top : bool) (els : list (option graph)) (ctx prev : option addr) (key : bytes) : M heres :=
  let finish :=
    do r <- (if top then hwrap ctx else ret ctx);
    do v <- (if simpl then hsimplify r else ret (VPtr r));
    ret (HVal v) in
  match els with
  | [] => finish
  | n :: els =>
      match ctx with
      | None => finish
      | Some c =>
          do s <- lift (ThisString E n);
          let named (s : bytes) :=
            do next <- hNode E f ctx s;
            match next with
            | Some _ => heval_els p simpl false els next ctx s
            | None =>
                do d <- load c;
                match c_out d with
                | [] => heval_els p simpl false els None ctx s
                | o => do t <- hfirst_this o; hfunction p t
                end
            end in
          match n with
          | None => named s
          | Some n =>
              if bseq s TypeIndex then
                do ix <- hindex n;
                if ix <? 0 then ret (HErr ErrInvalidIndex)
                else do c' <- hGetAt ctx ix; heval_els p simpl true els c' ctx key
              else if bseq s TypeSelector then
                do r <- hselector n prev key;
                match r with
                | inr e => ret (HErr e)
                | inl r => heval_els p simpl false els r ctx key
                end
              else if bseq s (bs "_len") then do d <- load c; ret (HVal (VInt KInt (Z.of_nat (List.length (c_out d)))))
              else if bseq s (bs "_this") then ret (HVal (VPtr ctx))
              else if bseq s (bs "_thisString") then do t <- hThisString ctx; ret (HVal (VStr t))
              else if bseq s (bs "_string") then do t <- hString E f ctx; ret (HVal (VStr t))
              else if bseq s (bs "_json") then
                do g <- hgraph ctx;
                match g with None => mpanic | Some g => do t <- lift (hto_json C g); ret (HVal (VBytes t)) end
              else if bseq s TypeArguments then
                do d <- load c;
                match c_out d with
                | [] => ret (HVal VNil)
                | o =>
                    do t <- hfirst_this o;
                    do r <- hfunction p t;
                    match r with
                    | HErr e => ret (HErr e)
                    | HVal (VPtr next) => heval_els p simpl false els next ctx key
                    | HVal v => ret (HVal v)
                    end
                end
              else if bseq s TypeGroup then
                do r <- hgroup_name n;
                match r with
                | inr None => ret (HVal VNil)
                | inr (Some e) => ret (HErr e)
                | inl s => named s
                end
              else named s
          end
      end
  end.
(** eval.go:167-316 evalPath *)
Definition hevalPath (simpl : bool) (p : graph) : M heres :=
  match out p with
  | [] => ret (HErr ErrInvalidArgs)
  | els => heval_els p simpl false els (Some root) None []
  end.

(** eval.go:550-576 assign *)
Definition hassign (p : option graph) (v : value addr) (op : byte) : M (value addr) :=
  let set v := match p with
               | None => mpanic
               | Some p => do l <- lift (path_elems (out p)); do r <- hSet E f (Some root) l v; ret (VPtr r)
               end in
  if beq op "=" then set v
  else
    do lhs <- match p with Some p => hgetPath p | None => mpanic end;
    match lhs with
    | inl (Some l) =>
        do d <- load l;
        do t <- hfirst_this (c_out d);
        do w <- hcalc t v op;
        set w
    | _ =>
        if beq op "+" then set v
        else if beq op "-" then do w <- hcalc (VInt KInt 0) v "-"; set w
        else if beq op "*" then set (VInt KInt 0)
        else if beq op "/" then set (VStr (bs "infinity"))
        else set (VStr (bs "undefined"))
    end.

(** eval.go:395-458 evalBinary *)
Definition hevalBinary (p : graph) : M (value addr) :=
  do n1 <- lift (Out_ p 0);
  do n2 <- lift (Out_ p 1);
  do r2 <- ev true n2;
  match r2 with
  | HErr e => ret (VObj e)
  | HVal i2 =>
      do s <- lift (ThisString E (Some p));
      if bseq s (bs "=") then hassign n1 i2 "="
      else if bseq s (bs "+=") then hassign n1 i2 "+"
      else if bseq s (bs "-=") then hassign n1 i2 "-"
      else if bseq s (bs "*=") then hassign n1 i2 "*"
      else if bseq s (bs "/=") then hassign n1 i2 "/"
      else if bseq s (bs "%=") then hassign n1 i2 "%"
      else
        do r1 <- ev true n1;
        match r1 with
        | HErr e => ret (VObj e)
        | HVal i1 =>
            let compare op := do b <- hcompare i1 i2 op; ret (VBool b) in
            let logic op := do b <- hlogic i1 i2 op; ret (VBool b) in
            if bseq s (bs "+") then hcalc i1 i2 "+"
            else if bseq s (bs "-") then hcalc i1 i2 "-"
            else if bseq s (bs "*") then hcalc i1 i2 "*"
            else if bseq s (bs "/") then hcalc i1 i2 "/"
            else if bseq s (bs "%") then hcalc i1 i2 "%"
            else if bseq s (bs "==") then compare "="%byte
            else if bseq s (bs ">=") then compare "+"%byte
            else if bseq s (bs "<=") then compare "-"%byte
            else if bseq s (bs "!=") then compare "!"%byte
            else if bseq s (bs ">") then compare ">"%byte
            else if bseq s (bs "<") then compare "<"%byte
            else if bseq s (bs "&&") then logic "&"%byte
            else if bseq s (bs "||") then logic "|"%byte
            else ret VNil
        end
  end.

(** eval.go:32-39 evalBool *)
Definition hevalBool_with (e : option graph) : M bool :=
  do r <- hEval_with e;
  match r with HErr _ => ret false | HVal v => do b <- hboolf v; ret match b with Some b => b | None => false end end.

(** eval.go:348-357 *)
Definition hgroup (simpl : bool) (l : list (option graph)) : M (list (list (option addr))) :=
  collect (fun e => do x <- ev simpl e; match x with HVal v => hadd_out v | HErr _ => ret [] end) l.

(** eval.go:321-393 evalExpression *)
Definition heval_body (simpl : bool) (p : option graph) : M heres :=
  match p with
  | None => mpanic
  | Some p =>
      match this p with
      | VNil => ret (HErr ErrNilReceiver)
      | _ =>
          do s <- lift (ThisString E (Some p));
          match s with
          | [] => ret (HVal (VStr []))
          | c :: rest =>
              if isNumber s then do n <- lift (number E (this p)); ret (HVal (content n))
              else if bseq s (bs "!") then
                do e <- lift (Out_ p 0);
                do b <- hevalBool_with e; ret (HVal (VBool (negb b)))
              else if bseq s TypeExpression then do e <- lift (GetAt (Some p) 0); ev simpl e
              else if bseq s TypePath then hevalPath simpl p
              else if bseq s TypeGroup then
                do o <- hgroup simpl (out p);
                do r <- alloc {| c_this := VStr TypeGroup; c_out := List.concat o |}; ret (HVal (VPtr (Some r)))
              else if bseq s TypeString then
                match out p with
                | [] => ret (HVal (VStr []))
                | e :: _ => do t <- lift (ThisString E e); ret (HVal (VStr t))
                end
              else if is_operator c && (match rest with [] => true | [d] => is_operator d | _ => false end) then
                do v <- hevalBinary p; ret (HVal v)
              else if beq c x22 || beq c "'" then ret (HVal (VStr s))
              else if is_letter c then
                ret (HVal (if bseq s (bs "false") then VBool false else if bseq s (bs "true") then VBool true else VStr s))
              else do a <- hcopy p; ret (HVal (VPtr (Some a)))
          end
      end
  end.
End Paths.

Variable C : hcalls.
Fixpoint hevalExpression (d : nat) (root : addr) (simpl : bool) (p : option graph) : M heres :=
  match d with
  | O => mfuel
  | S d => heval_body C root (hevalExpression d root) simpl p
  end.
(** eval.go:11 Eval, 32 evalBool *)
Definition hEval (root : addr) (e : option graph) : M heres := hEval_with (hevalExpression f root) e.
Definition hevalBool (root : addr) (e : option graph) : M bool := hevalBool_with (hevalExpression f root) e.

(** ** Templates *)

(** gettypes.go:622-636 _text *)
Definition htext_of (v : value addr) : M bytes :=
  match v with
  | VNil => ret []
  | VPtr g => do g <- hgraph g; lift (Text E g)
  | v => hstring E f v
  end.

Section With.
Variable c : addr.                               (* the context *)
Variable rec : option graph -> M (bytes * bool).    (* process of a nested template *)

(** template.go:151-160 *)
Fixpoint hfor_loop (it : option addr) (body : option graph) (l : list (option addr)) : M bytes :=
  match l with
  | [] => ret []
  | e :: l =>
      do _ <- hClear it;
      do _ <- hAdd it (VPtr e);
      do (o, brk) <- rec body;
      if brk : bool then ret o
      else do o' <- hfor_loop it body l; ret (o ++ o')
  end.
(** template.go:119-160: the list is read after the variable was added to the context *)
Definition hdo_for (n : graph) : M bytes :=
  do a <- lift (GetAt (Some n) 0);
  do e <- lift (GetAt a 1);
  do r <- hEval c e;
  match r with
  | HVal (VPtr (Some gi)) =>
      do d <- load gi;
      match c_out d with
      | [] => ret []
      | first :: _ =>
          do s <- hThisString (Some gi);
          do gi <- (if bseq s (bs "[") then deref first else ret gi);
          do b <- lift (GetAt a 0);
          do p <- lift (GetAt b 0);
          do x <- lift (String_ E p);
          do _ <- hDelete (Some c) (VStr x);
          do it <- hAdd (Some c) (VStr x);
          do body <- lift (GetAt (Some n) 1);
          do l <- load gi;
          hfor_loop it body (c_out l)
      end
  | _ => ret []
  end.
(** template.go:92-100 *)
Definition hdo_if (n : graph) : M (bytes * bool) :=
  do a <- lift (GetAt (Some n) 0);
  do e <- lift (GetAt a 0);
  do yes <- hevalBool c e;
  if yes : bool then
    do body <- lift (GetAt (Some n) 1);
    do (o, _) <- rec body; ret (o, true)
  else ret ([], false).
(** template.go:79-169 process: the loop over the subnodes *)
Fixpoint hprocess_nodes (l : list (option graph)) (yes : bool) : M (bytes * bool) :=
  match l with
  | [] => ret ([], false)
  | None :: l => hprocess_nodes l yes
  | Some n :: l =>
      let go (yes : bool) (m : M bytes) : M (bytes * bool) :=
        do o <- m; do (o', brk) <- hprocess_nodes l yes; ret (o ++ o', brk) in
      do s <- lift (ThisString E (Some n));
      if bseq s TypePath then
        go yes (do r <- hEval c (Some n); htext_of (match r with HVal v => v | HErr _ => VNil end))
      else if bseq s TypeExpression then go yes (do _ <- hEval c (Some n); ret [])
      else if bseq s TypeIf || (bseq s TypeElseIf && negb yes) then
        do (o, yes) <- hdo_if n; go yes (ret o)
      else if bseq s TypeElseIf then go yes (ret [])
      else if bseq s TypeElse then
        go yes (if yes then ret [] else
                do t <- lift (GetAt (Some n) 0);
                do (o, _) <- rec t; ret o)
      else if bseq s TypeFor then go yes (hdo_for n)
      else if bseq s TypeBreak then ret ([], true)
      else go yes (ret s)
  end.
End With.
(** template.go:79-169 process *)
Fixpoint hprocess (d : nat) (c : addr) (t : option graph) : M (bytes * bool) :=
  match d with
  | O => mfuel
  | S d =>
      match t with
      | None => ret ([], false)
      | Some t => hprocess_nodes c (hprocess d c) (out t) false
      end
  end.
(** template.go:70-77 Process *)
Definition hProcess (t : option graph) (c : addr) : M bytes := do (o, _) <- hprocess f c t; ret o.
End HeapEval.
