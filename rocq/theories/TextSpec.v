(** What an OGDL text document is and which graph it denotes. *)
From Verif Require Import Base Value Event EventSpec Lexer.

(** ** Scalars *)
Inductive scalar :=
| Plain (s : bytes)                 (* written as it is *)
| Quo (q : byte) (s : bytes).       (* written between quotes q *)

Definition content (t : scalar) : bytes := match t with Plain s | Quo _ s => s end.

Definition blank (c : byte) : bool := beq c x20 || beq c x09.
(** Control characters other than tab, newline and carriage return end the stream. *)
Definition control (c : byte) : bool := (bz c <? 32) && negb (beq c x09) && negb (beq c x0a) && negb (beq c x0d).

Definition starts_with (cs : bytes) (s : bytes) : bool :=
  match s with [] => false | c :: _ => existsb (beq c) cs end.

Definition plain_ok (s : bytes) : Prop :=
  s <> [] /\ Forall (fun c => 32 < bz c) s /\
  starts_with [x22; "'"; "`"; ","]%byte s = false /\ s <> bs "#" /\ s <> bs "\".

(** A quoted scalar is written with its quote escaped and, after each newline, the
    indentation of its line. *)
Definition quoted_byte (q : byte) (n : nat) (c : byte) : bytes :=
  if beq c q then ["\"; q]%byte else if beq c x0a then x0a :: repeat x20 n else [c].
Definition quoted_source (q : byte) (n : nat) (s : bytes) : bytes := q :: flat_map (quoted_byte q n) s ++ [q].

(** A backslash only before something that is neither a backslash nor a quote, and (on a
    line without indentation) no blank at the beginning of a line. *)
Fixpoint quoted_ok (n : nat) (s : bytes) : Prop :=
  match s with
  | [] => True
  | c :: r =>
      control c = false /\
      (c = "\"%byte -> r <> [] /\ starts_with ["\"; "'"; x22]%byte r = false) /\
      (c = x0a -> n = O -> starts_with [x20; x09] r = false) /\
      quoted_ok n r
  end.

Definition scalar_ok (n : nat) (t : scalar) : Prop :=
  match t with
  | Plain s => plain_ok s
  | Quo q s => (q = x22 \/ q = "'"%byte) /\ quoted_ok n s
  end.
Definition source (n : nat) (t : scalar) : bytes :=
  match t with Plain s => s | Quo q s => quoted_source q n s end.

(** ** Lines: indentation, scalars (each with the blanks that follow it), ending.
    A block is a backslash at the end of the line, followed by lines (indentation, text);
    [cr]: written with CR LF. *)
Inductive ending := LF | CRLF | Eof | Com (b : byte) (s : bytes) | Blk (cr : bool) (b : list (bytes * bytes)).
Record textline := mkL { ind : bytes; toks : list (scalar * bytes); fin : ending }.

Definition depth (l : textline) : nat := List.length (ind l).
Definition eol (cr : bool) : bytes := if cr then [x0d; x0a] else [x0a].
Definition ending_source (e : ending) : bytes :=
  match e with LF => [x0a] | CRLF => [x0d; x0a] | Eof => [] 
  | Com b s => "#"%byte :: b :: s ++ [x0a]
  | Blk cr b => "\"%byte :: eol cr ++ flat_map (fun l => fst l ++ snd l ++ eol cr) b
  end.
Definition toks_source (n : nat) (ts : list (scalar * bytes)) : bytes :=
  flat_map (fun t => source n (fst t) ++ snd t) ts.
Definition line_source (l : textline) : bytes := ind l ++ toks_source (depth l) (toks l) ++ ending_source (fin l).
Definition doc_source (ls : list textline) : bytes := flat_map line_source ls.

Definition blanks (s : bytes) : Prop := Forall (fun c => blank c = true) s.
Definition needs_gap (e : ending) : bool := match e with Com _ _ | Blk _ _ => true | _ => false end.
Definition uniform (s : bytes) : Prop := Forall (eq x20) s \/ Forall (eq x09) s.

Fixpoint toks_ok (n : nat) (ts : list (scalar * bytes)) (e : ending) : Prop :=
  match ts with
  | [] => True
  | (t, g) :: r =>
      scalar_ok n t /\ blanks g /\ (r <> [] \/ needs_gap e = true -> g <> []) /\ toks_ok n r e
  end.
Definition line_text (s : bytes) : Prop := Forall (fun c => control c = false /\ c <> x0a /\ c <> x0d) s.
Definition ending_ok (n : nat) (e : ending) : Prop :=
  match e with
  | Com b s => blank b = true /\ line_text s
  | Blk _ b => Forall (fun l => uniform (fst l) /\ (n < List.length (fst l))%nat /\ line_text (snd l) /\ starts_with [x20; x09] (snd l) = false) b
  | _ => True
  end.
Definition line_ok (l : textline) : Prop :=
  blanks (ind l) /\ Z.of_nat (depth l) <= 2040 /\ toks_ok (depth l) (toks l) (fin l) /\ ending_ok (depth l) (fin l).

(** Only the last line can end with the document; a block is followed by a line that has
    no indentation and is not empty. *)
Definition block_end (r : list textline) : Prop :=
  match r with [] => True | l :: _ => ind l = [] /\ (toks l <> [] \/ fin l <> LF /\ fin l <> CRLF) end.
Fixpoint follow_ok (ls : list textline) : Prop :=
  match ls with
  | [] => True
  | l :: r => match fin l with Eof => r = [] | Blk _ _ => block_end r | _ => True end /\ follow_ok r
  end.
(** The first line's indentation is not mixed. *)
Definition doc_ok (ls : list textline) : Prop :=
  Forall line_ok ls /\ follow_ok ls /\ match ls with [] => True | l :: _ => uniform (ind l) end.

(** What is read: everything up to the first line that is indented less than the first one. *)
Fixpoint take (n : nat) (ls : list textline) : list textline :=
  match ls with [] => [] | l :: r => if (n <=? depth l)%nat then l :: take n r else [] end.
Definition kept (ls : list textline) : list textline :=
  match ls with [] => [] | l :: _ => take (depth l) ls end.

(** ** Levels
    The parent of a line is the nearest line before it with a smaller indentation; its
    level is one more than its parent's.  [prev]: the indentations of the lines before,
    the nearest one first. *)
Fixpoint level (prev : list nat) (n : nat) : Z :=
  match prev with
  | [] => 0
  | m :: prev' => if (m <? n)%nat then 1 + level prev' m else level prev' n
  end.

(** The scalars of a line are nested from left to right. *)
Fixpoint at_levels {A} (l : Z) (vs : list A) : list (Z * A) :=
  match vs with [] => [] | v :: vs' => (l, v) :: at_levels (l + 1) vs' end.

(** The text of a block: its lines without their indentation and without the newlines at
    the end. *)
Fixpoint strip (s : bytes) : bytes :=
  match s with
  | [] => []
  | c :: r => match strip r with [] => if beq c x0a then [] else [c] | r' => c :: r' end
  end.
Definition block_text (b : list (bytes * bytes)) : bytes := strip (flat_map (fun l => snd l ++ [x0a]) b).

Section Denote.
(** What a scalar becomes. *)
Variable val : scalar -> value graph.
Definition line_vals (l : textline) : list (value graph) :=
  map (fun t => val (fst t)) (toks l) ++ match fin l with Blk _ b => [VStr (block_text b)] | _ => [] end.
Fixpoint doc_events (prev : list nat) (ls : list textline) : list (Z * value graph) :=
  match ls with
  | [] => []
  | l :: r =>
      at_levels (level prev (depth l)) (line_vals l) ++ doc_events (depth l :: prev) r
  end.
Definition doc_graph (ls : list textline) : graph := events_graph (doc_events [] ls).
End Denote.

(** FromString keeps the content of every scalar; FromStringTypes gives unquoted scalars
    their type. *)
Definition untyped (t : scalar) : value graph := VStr (content t).
Definition typed_val (E : env) (t : scalar) : value graph :=
  match t with Plain s => typed E s | Quo _ s => VStr s end.

(** ** Editing documents *)
(** A line without scalars. *)
Definition empty_line (b : textline) : Prop := toks b = [] /\ match fin b with LF | CRLF | Com _ _ => True | _ => False end.
(** The next line, if any, is not indented more than n. *)
Definition next_at_most (n : nat) (ls : list textline) : Prop := match ls with [] => True | l :: _ => (depth l <= n)%nat end.

(** LF replaced by CR LF; on documents made of plain scalars and blocks. *)
Fixpoint crlf (s : bytes) : bytes :=
  match s with [] => [] | c :: r => if beq c x0a then x0d :: x0a :: crlf r else c :: crlf r end.
Definition crlf_line (l : textline) : textline := mkL (ind l) (toks l) (match fin l with LF => CRLF | Blk _ b => Blk true b | e => e end).
Definition simple (l : textline) : Prop :=
  Forall (fun t => match fst t with Plain _ => True | _ => False end) (toks l) /\ (fin l = LF \/ fin l = Eof \/ exists b, fin l = Blk false b).

(** ** Graphs that differ only in the type of scalars; the first one has only strings *)
Inductive vref (E : env) : value graph -> value graph -> Prop :=
| vref_same s : vref E (VStr s) (VStr s)
| vref_typed s : vref E (VStr s) (typed E s).
Inductive gref (E : env) : graph -> graph -> Prop :=
| gref_node v v' k k' : vref E v v' -> Forall2 (gref E) k k' -> gref E (Node v (map Some k)) (Node v' (map Some k')).

(** The number written by a string of decimal digits. *)
Definition digits (s : bytes) : Prop := s <> [] /\ Forall (fun c => 48 <= bz c <= 57) s.
Definition number_of (s : bytes) : Z := fold_left (fun a c => 10 * a + (bz c - 48)) s 0.
