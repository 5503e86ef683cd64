(** Model of the rune functions of lexer.go: Rune, UnreadRune and PeekRune. *)
From Verif Require Import Base Value Event Lexer Stream Buffer.

(** The lexer with its field lastRuneSize (last element first). *)
Record rlexer : Type := mkR { lx : lexer; sizes : list Z }.
(** lexer.go:157-168 Rune; the error is always nil *)
Definition Rune (x : rlexer) : res (Z * rlexer) :=
  let* (r, n, x') := b_rune (lx x) in Ok (r, mkR x' (n :: sizes x)).
(** lexer.go:171-180 UnreadRune; false: ErrInvalidUnread *)
Definition UnreadRune (x : rlexer) : bool * rlexer :=
  match sizes x with
  | [] => (false, x)
  | n :: l => (true, mkR (mkX (buf (lx x)) (rd (lx x)) (r_ (lx x) - n) (last (lx x))) l)
  end.
(** lexer.go:121-129 PeekRune; the error is that of UnreadRune *)
Definition PeekRune (x : rlexer) : res (Z * bool * rlexer) :=
  let* (r, x) := Rune x in let '(ok, x) := UnreadRune x in Ok (r, ok, x).
