(** Texts in which a path or an expression is followed by something else, written independently of the parser. *)
From Verif Require Import Base Value TextSpec PathSpec.

(** A text that does not continue a path: it begins with a character that is no letter, digit or underscore, and not with one of . [ ( { *)
Definition foreign (E : env) (r : bytes) : Prop :=
  (exists x w r', r = w ++ r' /\ utf8 x w /\ name_rune E x = false) /\ match r with [] => False | c :: _ => ~ In c (bs ".[({") end.
(** A text that begins with a byte that is part of no character *)
Definition ill_formed (r : bytes) : Prop := r <> [] /\ forall x w r', r = w ++ r' -> ~ utf8 x w.
(** The replacement character U+FFFD is no letter and no digit *)
Definition replacement_apart (E : env) : Prop := hi_letter E 0xFFFD = false /\ hi_digit E 0xFFFD = false.
(** A text that does not continue an expression: after blanks, or at once if it is a closing bracket or a comma, there is no operator *)
Definition aside (r : bytes) : Prop :=
  exists b c r', r = b ++ c :: r' /\ Forall (fun c => c = x20 \/ c = x09) b /\ (b <> [] \/ In c (bs "),]}")) /\ c <> x20 /\ c <> x09 /\ ~ In c (bs "+-*/%&|!<>=~^").
