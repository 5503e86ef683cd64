(** When the tree of an expression cannot be built: specification. *)
From Verif Require Import Base Value.

(** How strongly an operator binds; -1 for everything else *)
Definition strength (s : bytes) : Z :=
  if existsb (bseq s) [bs "*"; bs "/"; bs "%"] then 5
  else if existsb (bseq s) [bs "+"; bs "-"] then 4
  else if existsb (bseq s) [bs "=="; bs "!="; bs ">="; bs "<="; bs ">"; bs "<"] then 3
  else if bseq s (bs "&&") then 2 else if bseq s (bs "||") then 1
  else if existsb (bseq s) [bs "="; bs "+="; bs "-="; bs "*="; bs "/="; bs "%="] then 0 else -1.
Definition content (g : graph) : bytes := match this g with VStr s => s | _ => [] end.

(** The number of operators at the beginning that bind more and more strongly *)
Fixpoint rising (low : Z) (l : list Z) : nat :=
  match l with p :: l => if low <? p then S (rising p l) else 0%nat | [] => 0%nat end.
(** The number of operators at the end that do not bind more strongly than the one before, from the end (the list is given
    from the end) *)
Fixpoint climbing (low : Z) (l : list Z) : nat :=
  match l with p :: l => if low <=? p then S (climbing p l) else 0%nat | [] => 0%nat end.
(** An operator at the beginning or at the end remains without its operand. *)
Definition jammed (l : list Z) : Prop := Nat.Odd (rising (-1) l) \/ Nat.Odd (climbing 0 (rev l)).

(** Graphs without nil nodes, such as parsed ones *)
Inductive full : graph -> Prop := full_node v k : Forall full k -> full (Node v (map Some k)).
(** [jam e g]: somewhere in [g], which is taken as an expression if [e], is an expression with such an operator.  Expressions inside of
    others are those with the content !e, but not directly below an expression, and an expression with one or two subnodes is left as it is. *)
Inductive jam : bool -> graph -> Prop :=
| jam_here v k : (3 <= List.length k)%nat -> jammed (map (fun c => strength (content c)) k) -> jam true (Node v (map Some k))
| jam_below (e : bool) v k c : In c k -> (e = true -> (2 <= List.length k)%nat) -> jam (negb e && bseq (content c) (bs "!e")) c -> jam e (Node v (map Some k)).
