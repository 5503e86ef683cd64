(** io/gxml/xml.go: XML input. *)
From Verif Require Import Base Value Graph.

(** What the decoder of encoding/xml returns, token by token, until the end of the document or
    the first error.  Names are local names.  Comments, directives and processing instructions
    are [TMisc].  The decoder itself is not modelled. *)
Inductive xtoken : Type :=
| TStart (name : bytes) (attrs : list (bytes * bytes))
| TChars (s : bytes)
| TEnd
| TMisc.

Section Xml.
Variable unaccent : bytes -> bytes.     (* transform.String(tr, s): no combining marks *)
Variable trim : bytes -> bytes.         (* strings.TrimSpace *)

(** strings.Replace(key, "-", "_", -1) *)
Definition undash (s : bytes) : bytes := map (fun c => if beq c "-" then "_"%byte else c) s.

(** The loop state: the nodes on the stack, innermost first, above the root.  A node is in its
    parent from the start in the code; here it is added when it leaves the stack (nothing is
    added to the parent in between).  After one pop too many the stack is empty. *)
Inductive xstate : Type :=
| Open (above : list graph) (root : graph)
| Closed (root : graph).
Definition append (n : graph) (c : graph) : graph := Node (this n) (out n ++ [Some c]).
Definition add_top (st : xstate) (c : graph) : res xstate :=
  match st with
  | Open [] root => Ok (Open [] (append root c))
  | Open (n :: above) root => Ok (Open (append n c :: above) root)
  | Closed _ => Panic
  end.
Definition push (st : xstate) (n : graph) : res xstate :=
  match st with Open above root => Ok (Open (n :: above) root) | Closed _ => Panic end.
Definition pop (st : xstate) : res xstate :=
  match st with
  | Open [] root => Ok (Closed root)
  | Open [n] root => Ok (Open [] (append root n))
  | Open (n :: m :: above) root => Ok (Open (append m n :: above) root)
  | Closed _ => Panic
  end.
(** io/gxml/xml.go:63-79: the new node with its attributes *)
Definition element (name : bytes) (attrs : list (bytes * bytes)) : graph :=
  Node (VStr (undash (unaccent name)))
    (map (fun a => Some (Node (VStr ("@"%byte :: fst a)) [Some (Node (VStr (snd a)) [])])) attrs).
(** io/gxml/xml.go:54-95: one token *)
Definition xstep (t : xtoken) (st : xstate) : res xstate :=
  match t with
  | TStart name attrs => push st (element name attrs)
  | TChars s => match trim s with [] => Ok st | val => add_top st (Node (VStr val) []) end
  | TEnd => pop st
  | TMisc => Ok st
  end.
Fixpoint xloop (ts : list xtoken) (st : xstate) : res xstate :=
  match ts with [] => Ok st | t :: ts' => let* st := xstep t st in xloop ts' st end.
(** The graph as it stands: the open nodes are in their parents. *)
Fixpoint settle (n : graph) (above : list graph) (root : graph) : graph :=
  match above with
  | [] => append root n
  | m :: above' => settle (append m n) above' root
  end.
Definition collapse (above : list graph) (root : graph) : graph :=
  match above with [] => root | n :: above' => settle n above' root end.
(** io/gxml/xml.go:39-98 FromXML on the decoder's tokens *)
Definition FromXML (ts : list xtoken) : res graph :=
  let* st := xloop ts (Open [] (Node VNil [])) in
  Ok match st with Open above root => collapse above root | Closed root => root end.
End Xml.
