(** The scanning functions of Lexer, told by the text that is left to be read. *)
From Verif Require Import Base Value Event Lexer Stream Buffer BufferSpec TextParser TextSpec PathSpec.

(** ** Calls and answers *)
Inductive call :=
| CByte | CPeek | CString | CStop (stop : bytes) | CWhite | CSpace | CSpaceMax (max : nat) | CInteger | CNumber | COperator
| CTemplateText | CBreak | CEnd | CQuoted (ind : nat) | CComment | CBlock (ind : nat) | CScalar (ind : nat) | CToken.
Inductive answer :=
| AByte (c : option byte)          (* None: an error *)
| APeek (c : byte)
| AText (s : bytes)                (* a string, and true if it is not empty *)
| AFound (s : option bytes)        (* None: false *)
| AYes (b : bool)
| ASpace (n : Z) (kind : byte).

(** One call of a client *)
Definition perform (F : nat) (c : call) : prog answer :=
  match c with
  | CByte => GetB (fun c ok => Ret (AByte (if ok then Some c else None)))
  | CPeek => do c <- PeekByte; Ret (APeek c)
  | CString => do s <- String_tok F; Ret (AText s)
  | CStop stop => do s <- StringStop F stop; Ret (AText s)
  | CWhite => do b <- WhiteSpace F; Ret (AYes b)
  | CSpace => do nk <- Space F; Ret (ASpace (fst nk) (snd nk))
  | CSpaceMax m => do nk <- SpaceMax F (Z.of_nat m); Ret (ASpace (fst nk) (snd nk))
  | CInteger => do s <- Integer F; Ret (AText s)
  | CNumber => do s <- Number_tok F; Ret (AFound s)
  | COperator => do s <- Operator F; Ret (AText s)
  | CTemplateText => do s <- TemplateText F; Ret (AText s)
  | CBreak => do b <- Break; Ret (AYes b)
  | CEnd => do b <- End; Ret (AYes b)
  | CQuoted n => do s <- Quoted F (Z.of_nat n); Ret (AFound s)
  | CComment => do b <- Comment F; Ret (AYes b)
  | CBlock n => do s <- Block F (Z.of_nat n); Ret (AFound s)
  | CScalar n => do s <- Scalar_tok F (Z.of_nat n); Ret (AFound s)
  | CToken => Tok (fun s => Ret (AText s))
  end.
Fixpoint perform_all (F : nat) (cs : list call) : prog (list answer) :=
  match cs with
  | [] => Ret []
  | c :: cs => do a <- perform F c; do l <- perform_all F cs; Ret (a :: l)
  end.
(** The answers to the calls made on a new Lexer *)
Definition session (E : env) (F : nat) (rd : reader) (cs : list call) : res (list answer) :=
  let* r := run_buf E F (perform_all F cs) (NewLexer rd) h_init in Ok (fst (fst r)).

(** ** What is to be answered *)

(** [r] does not begin with a character of the class. *)
Definition past_it (p : byte -> Prop) (r : bytes) : Prop := match r with [] => True | c :: _ => ~ p c end.
(** [w ++ r] begins with exactly [w] characters of the class. *)
Definition longest (p : byte -> Prop) (w r : bytes) : Prop := Forall p w /\ past_it p r.

Definition c_text (c : byte) : Prop := 32 < bz c.
Definition c_blank (c : byte) : Prop := c = x20 \/ c = x09.
Definition c_white (c : byte) : Prop := c = x20 \/ c = x09 \/ c = x0a \/ c = x0d.
Definition c_digit (c : byte) : Prop := 48 <= bz c <= 57.
Definition c_operator (c : byte) : Prop := In c (bs "+-*/%&|!<>=~^").
Definition c_template (c : byte) : Prop := control c = false /\ c <> "$"%byte.
Definition c_quote (c : byte) : Prop := c = x22 \/ c = "'"%byte \/ c = "`"%byte.
Definition c_sign (c : byte) : Prop := c = "+"%byte \/ c = "-"%byte.
Definition c_end (c : byte) : Prop := control c = true \/ c = x0a \/ c = x0d.

Definition is_empty (s : bytes) : bool := match s with [] => true | _ => false end.
(** Space's second result *)
Inductive kind_of (w : bytes) : byte -> Prop :=
| kind_spaces : Forall (eq x20) w -> kind_of w x20
| kind_tabs : w <> [] -> Forall (eq x09) w -> kind_of w x09
| kind_mixed : In x20 w -> In x09 w -> Forall c_blank w -> kind_of w x00.

(** Numbers: digits, with a point among, before or after them *)
Definition digits (s : bytes) : Prop := Forall c_digit s.
Inductive numeral : bytes -> bytes -> Prop :=      (* text, and what may follow *)
| num_int d r : d <> [] -> digits d -> past_it (fun c => c_digit c \/ c = "."%byte) r -> numeral d r
| num_point a b r : a ++ b <> [] -> digits a -> digits b -> past_it c_digit r -> numeral (a ++ "."%byte :: b) r.

(** [reply l c a l']: with [l] left to be read the call c is answered with a, and l' is left. *)
Inductive reply : bytes -> call -> answer -> bytes -> Prop :=
| r_byte c r : reply (c :: r) CByte (AByte (Some c)) r
| r_byte_end : reply [] CByte (AByte None) []
| r_peek c r : reply (c :: r) CPeek (APeek c) (c :: r)
| r_peek_end : reply [] CPeek (APeek x00) []
| r_string w r : longest c_text w r -> reply (w ++ r) CString (AText w) r
| r_stop stop w r : longest (fun c => c_text c /\ ~ In c stop) w r -> reply (w ++ r) (CStop stop) (AText w) r
| r_white w r : longest c_white w r -> reply (w ++ r) CWhite (AYes (negb (is_empty w))) r
| r_space w r k : longest c_blank w r -> kind_of w k -> reply (w ++ r) CSpace (ASpace (Z.of_nat (List.length w)) k) r
| r_max_less m w r k : longest c_blank w r -> (List.length w < m)%nat -> kind_of w k ->
    reply (w ++ r) (CSpaceMax m) (ASpace (Z.of_nat (List.length w)) k) r
| r_max m c r : c_blank c -> reply (repeat c (S m) ++ r) (CSpaceMax (S m)) (ASpace (Z.of_nat (S m)) c) r
| r_integer w r : longest c_digit w r -> reply (w ++ r) CInteger (AText w) r
| r_operator w r : longest c_operator w r -> reply (w ++ r) COperator (AText w) r
| r_template w r : longest c_template w r -> reply (w ++ r) CTemplateText (AText w) r
| r_number n r : numeral n r -> reply (n ++ r) CNumber (AFound (Some n)) r
| r_plus n r : numeral n r -> reply ("+"%byte :: n ++ r) CNumber (AFound (Some n)) r
| r_minus n r : numeral n r -> reply ("-"%byte :: n ++ r) CNumber (AFound (Some ("-"%byte :: n))) r
| r_number_no l : past_it (fun c => c_digit c \/ c = "."%byte \/ c_sign c) l -> reply l CNumber (AFound None) l
| r_lf r : reply (x0a :: r) CBreak (AYes true) r
| r_crlf r : reply (x0d :: x0a :: r) CBreak (AYes true) r
| r_break_no l : past_it (fun c => c = x0a \/ c = x0d) l -> reply l CBreak (AYes false) l
| r_end : reply [] CEnd (AYes true) []
| r_end_char c r : control c = true -> reply (c :: r) CEnd (AYes true) r
| r_end_no c r : control c = false -> reply (c :: r) CEnd (AYes false) (c :: r)
| r_quoted q n t r : q = x22 \/ q = "'"%byte -> quoted_ok n t -> reply (quoted_source q n t ++ r) (CQuoted n) (AFound (Some t)) r
| r_raw n t r : Forall (fun c => control c = false /\ c <> "`"%byte /\ c <> "\"%byte /\ c <> x0a) t ->
    reply ("`"%byte :: t ++ "`"%byte :: r) (CQuoted n) (AFound (Some t)) r
| r_quoted_no n l : past_it c_quote l -> reply l (CQuoted n) (AFound None) l
| r_comment b t e r : c_blank b -> Forall (fun c => ~ c_end c) t -> c_end e -> reply ("#"%byte :: b :: t ++ e :: r) CComment (AYes true) r
| r_comment_end b t : c_blank b -> Forall (fun c => ~ c_end c) t -> reply ("#"%byte :: b :: t) CComment (AYes true) []
| r_comment_no l : (forall b t, l = "#"%byte :: b :: t -> ~ c_blank b) -> reply l CComment (AYes false) l
| r_block cr n b r : ending_ok n (Blk cr b) -> past_it c_blank r -> reply (ending_source (Blk cr b) ++ r) (CBlock n) (AFound (Some (block_text b))) r
| r_block_no n l : (forall c t, l = "\"%byte :: c :: t -> c <> x0a /\ c <> x0d) -> reply l (CBlock n) (AFound None) l
| r_scalar_quoted n l t r : reply l (CQuoted n) (AFound (Some t)) r -> reply l (CScalar n) (AFound (Some t)) r
| r_scalar n w r : longest c_text w r -> w <> [] -> past_it c_quote w -> reply (w ++ r) (CScalar n) (AFound (Some w)) r
| r_scalar_no n l : past_it c_text l -> reply l (CScalar n) (AFound None) l
| r_token w c r : Forall (fun c => name_char c = true) w -> bz c < 128 -> name_char c = false -> reply (w ++ c :: r) CToken (AText w) (c :: r).
Inductive replies : bytes -> list call -> list answer -> Prop :=
| rs_nil l : replies l [] []
| rs_cons l c a l' cs al : reply l c a l' -> replies l' cs al -> replies l (c :: cs) (a :: al).
