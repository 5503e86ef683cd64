(** Model of flow.go (paths, indexes, selectors, arguments, expressions as event streams)
    and of expression.go (the syntax tree of an expression). *)
From Verif Require Import Base Value Event Lexer TextParser Stream Buffer Graph.

(** vars.go:16-24: names of the special nodes *)
Definition TypePath : bytes := bs "!p".
Definition TypeExpression : bytes := bs "!e".
Definition TypeIndex : bytes := bs "!i".
Definition TypeSelector : bytes := bs "!s".
Definition TypeArguments : bytes := bs "!a".
Definition TypeGroup : bytes := bs "!g".
Definition TypeString : bytes := bs "!string".

Section Flow.
Variable F : nat.

(** The mutually recursive functions of flow.go; [f] bounds the depth of calls plus the
    number of turns of their loops. *)

(** flow.go:152-172 Expression *)
Fixpoint Expression (f : nat) : prog bool :=
  match f with
  | O => Stop
  | S f =>
      do b <- UnaryExpression f;
      if b then expr_loop f else Ret false
  end
(** flow.go:155-169: the loop of Expression *)
with expr_loop (f : nat) : prog bool :=
  match f with
  | O => Stop
  | S f =>
      skip Space F;
      do o <- Operator F;
      match o with
      | [] => Ret true
      | _ =>
          skip emit o;
          skip Space F;
          do b <- UnaryExpression f;
          if b then skip Space F; expr_loop f else Ret false
      end
  end
(** flow.go:175-226 UnaryExpression *)
with UnaryExpression (f : nat) : prog bool :=
  match f with
  | O => Stop
  | S f =>
      do c <- PeekByte;
      if is_letter c then
        skip emit TypePath; skip ev HInc; skip path_loop f true true false; skip ev HDec; Ret true
      else
      do n <- Number_tok F;
      match n with
      | Some b => skip emit b; Ret true
      | None =>
      do q <- Quoted F 0;
      match q with
      | Some b => skip emit TypeString; skip ev HInc; skip emit b; skip ev HDec; Ret true
      | None =>
      do o <- Operator F;
      skip (match o with [] => Ret tt | _ => emit o end);
      do c <- PeekByte;
      if beq c "(" then
        skip Byte_;
        skip emit TypeGroup; skip ev HInc;
        skip Space F;
        skip Expression f;
        skip Space F;
        skip ev HDec;
        do c <- PeekByte;
        if negb (beq c ")") then Ret false
        else skip Byte_; Ret true
      else path_loop f true true false
      end
      end
  end
(** flow.go:247-320: the loop of Path, which starts with begin = dot = true and
    anything = false *)
with path_loop (f : nat) (begin dot anything : bool) : prog bool :=
  match f with
  | O => Stop
  | S f =>
      do go <- (if begin then Ret (Some dot)
                else do c <- Byte_;
                     if beq c "." then Ret (Some true)
                     else UnB (Ret (if beq c "[" || beq c "(" || beq c "{" then Some false else None)));
      match go with
      | None => Ret anything
      | Some dot =>
          do q <- Quoted F 0;
          match q with
          | Some b => skip emit b; path_loop f false dot true
          | None =>
          Tok (fun b =>
          match b with
          | _ :: _ => skip emit b; path_loop f false dot true
          | [] =>
          do i <- bracket f "[" "]" TypeIndex;
          if i then path_loop f false dot true else
          do i <- bracket f "{" "}" TypeSelector;
          if i then path_loop f false dot true else
          do i <- Args f dot;
          if i then path_loop f false dot true else Ret anything
          end)
          end
      end
  end
(** flow.go:23-45 Index and 48-70 Selector *)
with bracket (f : nat) (l r : byte) (type : bytes) : prog bool :=
  match f with
  | O => Stop
  | S f =>
      do c <- PeekByte;
      if negb (beq c l) then Ret false else
      skip Byte_;
      do i <- Level;
      skip emit type; skip ev HInc;
      skip Space F;
      skip Expression f;
      skip Space F;
      do c <- PeekByte;
      if negb (beq c r) then Ret false else
      skip Byte_;
      skip ev (HSetLevel i);
      Ret true
  end
(** flow.go:78-115: the loop of ArgList (without the deferred SetLevel) *)
with arg_loop (f : nat) (level : Z) (something : bool) : prog bool :=
  match f with
  | O => Stop
  | S f =>
      skip WhiteSpace F;
      skip emit TypeExpression; skip ev HInc;
      do b <- Expression f;
      if negb b then skip ev HDec; skip ev HDelete; Ret something
      else
        skip ev HDec;
        skip WhiteSpace F;
        do c <- PeekByte;
        if beq c ")" then Ret true
        else if beq c "," then skip Byte_; skip ev (HSetLevel level); arg_loop f level true
        else skip ev HInc; arg_loop f level true
  end
(** flow.go:121-149 Args *)
with Args (f : nat) (dot : bool) : prog bool :=
  match f with
  | O => Stop
  | S f =>
      do c <- PeekByte;
      if negb (beq c "(") then Ret false else
      skip Byte_;
      do i <- Level;
      skip emit (if dot then TypeGroup else TypeArguments);
      skip ev HInc;
      skip WhiteSpace F;
      do level <- Level;
      skip arg_loop f level false;
      skip ev (HSetLevel level);
      skip WhiteSpace F;
      do c <- PeekByte;
      if negb (beq c ")") then Ret false else
      skip Byte_;
      skip ev (HSetLevel i);
      Ret true
  end.

(** flow.go:247-320 Path *)
Definition Path (f : nat) : prog bool := path_loop f true true false.

End Flow.

(** flow.go:13-19 NewPath *)
Definition NewPath (E : env) (fuel : nat) (s : bytes) : res graph :=
  let* (_, _, h) := run_buf E fuel (Path fuel fuel) (NewLexer (bytes_reader s)) h_init in
  let* g := Tree h in Ok (Node (VStr TypePath) (out g)).

(** ** expression.go *)

(** expression.go:82-130 precedence *)
Definition precedence (s : bytes) : Z :=
  if existsb (bseq s) [bs "*"; bs "/"; bs "%"] then 5
  else if existsb (bseq s) [bs "+"; bs "-"] then 4
  else if existsb (bseq s) [bs "=="; bs "!="; bs ">="; bs "<="; bs ">"; bs "<"] then 3
  else if existsb (bseq s) [bs "&&"] then 2
  else if existsb (bseq s) [bs "||"] then 1
  else if existsb (bseq s) [bs "="; bs "+="; bs "-="; bs "*="; bs "/="; bs "%="] then 0
  else -1.

(** gettypes.go ThisString on a node of a parsed expression, whose contents are strings *)
Definition this_string (g : graph) : bytes := match this g with VStr s => s | _ => [] end.

(** expression.go:63-75, one value of j: [pre] are the nodes before index i (last one
    first), [post] the others.  Panic: index out of range. *)
Fixpoint reduce_at (j : Z) (pre post : list graph) : res (list graph) :=
  match post with
  | [] => Ok (rev pre)
  | n :: post' =>
      if precedence (this_string n) =? j then
        match pre, post' with
        | e1 :: pre', e2 :: post'' =>
            (* the operator now sits at index i-1, i-- and i++ go on with index i *)
            reduce_at j (Node (this n) (out n ++ [Some e1; Some e2]) :: pre') post''
        | _, _ => Panic
        end
      else reduce_at j (n :: pre) post'
  end.
Fixpoint reduce_all (js : list Z) (l : list graph) : res (list graph) :=
  match js with
  | [] => Ok l
  | j :: js => let* l := reduce_at j [] l in reduce_all js l
  end.

(** The subnodes of a parsed expression are never nil *)
Fixpoint strip (l : list (option graph)) : list graph :=
  match l with [] => [] | Some g :: l => g :: strip l | None :: l => strip l end.

(** expression.go:49-76, after the calls of ast on the subnodes *)
Definition ast_top (v : value graph) (l : list graph) : res graph :=
  match l with
  | [a; b] =>
      let a := if bseq (this_string a) (bs "!") then Node (this a) (out a ++ [Some b]) else a in
      Ok (Node v [Some a])
  | _ => let* l := reduce_all [6; 5; 4; 3; 2; 1; 0] l in Ok (Node v (map Some l))
  end.

(** expression.go:24-37 ast (e = false) and 39-77 _ast (e = true) *)
Fixpoint ast_ (e : bool) (g : graph) : res graph :=
  let 'Node v l := g in
  if e && (List.length l <? 2)%nat then Ok g
  else
    let* l' := (fix go (l : list (option graph)) : res (list graph) :=
                  match l with
                  | [] => Ok []
                  | None :: l => go l
                  | Some n :: l =>
                      let* n := ast_ (negb e && bseq (this_string n) TypeExpression) n in
                      let* l := go l in Ok (n :: l)
                  end) l in
    if e then ast_top v l' else Ok (Node v (map Some l')).

(** expression.go:13-21 NewExpression *)
Definition NewExpression (E : env) (fuel : nat) (s : bytes) : res graph :=
  let* (_, _, h) := run_buf E fuel (Expression fuel fuel) (NewLexer (bytes_reader s)) h_init in
  let* g := Tree h in ast_ true (Node (VStr TypeExpression) (out g)).
