(** What the text emitter is meant to preserve. *)
From Verif Require Import Base Value EventSpec TextSpec.

(** [prints E o f]: the children [o] of a node print as the forest of strings [f]; nodes
    whose content prints as the empty string are transparent. *)
Inductive prints (E : env) : list (option graph) -> list tree -> Prop :=
| prints_nil : prints E [] []
| prints_empty v kids rest k r :
    vstring E v = Ok [] -> prints E kids k -> prints E rest r ->
    prints E (Some (Node v kids) :: rest) (k ++ r)
| prints_node v kids rest c s k r :
    vstring E v = Ok (c :: s) -> prints E kids k -> prints E rest r ->
    prints E (Some (Node v kids) :: rest) (T (c :: s) k :: r).

(** Blanks, newlines, quotes, comma, parentheses. *)
Definition separator (c : byte) : Prop := In c [x0a; x0d; " "; x09; "'"; x22; ","; "("; ")"]%byte.

(** Contents that survive, by level: words, and below the top level also texts with
    separators, in which no backslash precedes a backslash, a quote or the end and there is
    no CR or other control character.  Levels that the parser can unread. *)
Definition text_content (l : Z) (s : bytes) : Prop :=
  l <= 1020 /\
  ((plain_ok s /\ Forall (fun c => ~ separator c) s) \/
   (1 <= l /\ Exists separator s /\ quoted_ok 1 s /\ ~ In x0d s)).
