(** Model of the text emitter: graph.go Text, Show, _text. *)
From Verif Require Import Base Value.

(** graph.go:447: newline, CR, blank, tab, both quotes, comma, parentheses *)
Definition special (c : byte) : bool :=
  existsb (beq c) [x0a; x0d; " "; x09; "'"; x22; ","; "("; ")"]%byte.

(** graph.go:435-438: two blanks per level *)
Definition indentation (n : Z) : bytes := repeat " "%byte (2 * Z.to_nat n).

(** graph.go:459-478: the loop over the bytes of a special string; [nested] is n > 0,
    [cp] the previous byte (not updated for a CR) *)
Fixpoint text_bytes (nested : bool) (sp : bytes) (cp : byte) (s : bytes) : bytes :=
  match s with
  | [] => []
  | c :: s =>
      if beq c x0d then text_bytes nested sp cp s
      else (if beq c x0a then x0a :: sp
            else if beq c x22 && nested then (if beq cp "\" then [] else ["\"; x22]%byte)
            else [c]) ++ text_bytes nested sp c s
  end.

(** graph.go:446-494: what _text writes for one node, and the level of its subnodes less one *)
Definition text_node (show : bool) (n : Z) (s : bytes) : bytes * Z :=
  let sp := indentation n in
  if existsb special s then
    ((if 0 <? n then sp ++ [x22] else []) ++ text_bytes (0 <? n) sp x00 s ++
     (if 0 <? n then [x22] else []) ++ [x0a], n)
  else match s with
       | [] => if show then (sp ++ bs "_" ++ [x0a], n) else ([], n - 1)
       | _ => (sp ++ s ++ [x0a], n)
       end.

(** graph.go:422-500 _text; a nil node prints as an underscore *)
Fixpoint text_ (E : env) (show : bool) (n : Z) (g : graph) : res bytes :=
  match g with
  | Node v o =>
      let* s := vstring E v in
      let (hd, n) := text_node show n s in
      let* tl := (fix go (o : list (option graph)) : res bytes :=
                    match o with
                    | [] => Ok []
                    | None :: o => let* y := go o in Ok (fst (text_node show (n + 1) (bs "_")) ++ y)
                    | Some c :: o => let* x := text_ E show (n + 1) c in let* y := go o in Ok (x ++ y)
                    end) o in
      Ok (hd ++ tl)
  end.
Fixpoint texts (E : env) (show : bool) (n : Z) (o : list (option graph)) : res bytes :=
  match o with
  | [] => Ok []
  | None :: o => let* y := texts E show n o in Ok (fst (text_node show n (bs "_")) ++ y)
  | Some c :: o => let* x := text_ E show n c in let* y := texts E show n o in Ok (x ++ y)
  end.

(** strings.Replace: every backslash-quote becomes a quote *)
Fixpoint replace_escaped (s : bytes) : bytes :=
  match s with
  | "\"%byte :: ((c :: r) as s') => if beq c x22 then x22 :: replace_escaped r else "\"%byte :: replace_escaped s'
  | c :: r => c :: replace_escaped r
  | [] => []
  end.

(** graph.go:363-383 (and 396-416): remove a trailing newline and the quotes.  s[0] panics
    when only the newline was there, s[1:len(s)-1] when the string is one quote. *)
Definition finish (s : bytes) : res bytes :=
  match s with
  | [] => Ok []
  | _ =>
      let s := if beq (last s x00) x0a then removelast s else s in
      match s with
      | [] => Panic
      | c :: r => if beq c x22 then
                    match r with [] => Panic | _ => Ok (replace_escaped (removelast r)) end
                  else Ok s
      end
  end.

(** graph.go:351-384 Text *)
Definition Text (E : env) (g : option graph) : res bytes :=
  match g with
  | None => Ok []
  | Some g => let* s := texts E false 0 (out g) in finish s
  end.

(** graph.go:387-417 Show *)
Definition Show (E : env) (g : option graph) : res bytes :=
  match g with
  | None => Ok []
  | Some g => let* s := text_ E true 0 g in finish s
  end.
