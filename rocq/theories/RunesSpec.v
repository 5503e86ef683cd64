(** Sessions of a client that reads runes. *)
From Verif Require Import Base Value Event Lexer Stream Buffer TextParser TextSpec PathSpec Runes.

Inductive rcall := RRune | RPeek | RUnrune.
Inductive ranswer := ARune (r : Z) | APeeked (r : Z) (ok : bool) | ADone (ok : bool).
Fixpoint rsession (cs : list rcall) (x : rlexer) : res (list ranswer) :=
  match cs with
  | [] => Ok []
  | RRune :: cs => let* (r, x) := Rune x in let* l := rsession cs x in Ok (ARune r :: l)
  | RPeek :: cs => let* (r, ok, x) := PeekRune x in let* l := rsession cs x in Ok (APeeked r ok :: l)
  | RUnrune :: cs => let '(ok, x) := UnreadRune x in let* l := rsession cs x in Ok (ADone ok :: l)
  end.
(** NewLexer on a text *)
Definition runes_of (s : bytes) (cs : list rcall) : res (list ranswer) := rsession cs (mkR (NewLexer (bytes_reader s)) []).

(** A text of characters *)
Inductive encodes : list Z -> bytes -> Prop :=
| encodes_nil : encodes [] []
| encodes_cons r w rs s : utf8 r w -> encodes rs s -> encodes (r :: rs) (w ++ s).

(** The characters already read (last one first) and those to come *)
Inductive ranswers : list Z -> list Z -> list rcall -> list ranswer -> Prop :=
| ra_nil d t : ranswers d t [] []
| ra_rune d r t cs l : ranswers (r :: d) t cs l -> ranswers d (r :: t) (RRune :: cs) (ARune r :: l)
| ra_peek d r t cs l : ranswers d (r :: t) cs l -> ranswers d (r :: t) (RPeek :: cs) (APeeked r true :: l)
| ra_unread d r t cs l : ranswers d (r :: t) cs l -> ranswers (r :: d) t (RUnrune :: cs) (ADone true :: l)
| ra_first t cs l : ranswers [] t cs l -> ranswers [] t (RUnrune :: cs) (ADone false :: l).

(** The number of bytes of a character, and of a text *)
Definition width (r : Z) : Z := if r <? 0x80 then 1 else if r <? 0x800 then 2 else if r <? 0x10000 then 3 else 4.
Definition total (rs : list Z) : Z := fold_right (fun r n => width r + n) 0 rs.
(** No character lies across the end of a buffer: bytes 4096, 6144, 8192 ... *)
Definition aligned (rs : list Z) : Prop :=
  forall k, 2 <= k -> 2048 * k < total rs -> exists a b, rs = a ++ b /\ total a = 2048 * k.
(** UnreadRune is never more than 2048 bytes behind the furthest position. *)
Inductive within : Z -> list Z -> list Z -> list rcall -> Prop :=
| within_nil b d t : within b d t []
| within_rune b d r t cs : within (Z.max 0 (b - width r)) (r :: d) t cs -> within b d (r :: t) (RRune :: cs)
| within_peek b d t cs : within b d t cs -> within b d t (RPeek :: cs)
| within_unread b d r t cs : b + width r <= 2048 -> within (b + width r) d (r :: t) cs -> within b (r :: d) t (RUnrune :: cs)
| within_first b t cs : within b [] t cs -> within b [] t (RUnrune :: cs).
