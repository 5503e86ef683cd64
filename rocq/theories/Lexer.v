(** Model of lexer.go: the scanning functions, written over the lexer's primitives
    Byte / UnreadByte / Token8 (whose two meanings are in Stream.v and Buffer.v) and the
    event handler's methods. *)
From Verif Require Import Base Value Event.

(** A parser program: a tree of calls to the primitives.  [GetB k] calls Byte() and passes
    the byte and "no error" to k; [UnB] is UnreadByte(); [Tok] is Token8() (its second
    result is "not empty"); [Ev] calls a method of the event handler, [Lvl] reads Level(). *)
Inductive prog (A : Type) : Type :=
| Ret (a : A)
| GetB (k : byte -> bool -> prog A)
| UnB (k : prog A)
| Tok (k : bytes -> prog A)
| Ev (o : hop) (k : prog A)
| Lvl (k : Z -> prog A)
| Stop.
Arguments Ret {A} a. Arguments GetB {A} k. Arguments UnB {A} k. Arguments Tok {A} k.
Arguments Ev {A} o k. Arguments Lvl {A} k. Arguments Stop {A}.

Fixpoint pbind {A B} (m : prog A) (f : A -> prog B) : prog B :=
  match m with
  | Ret a => f a
  | GetB k => GetB (fun c ok => pbind (k c ok) f)
  | UnB k => UnB (pbind k f)
  | Tok k => Tok (fun t => pbind (k t) f)
  | Ev o k => Ev o (pbind k f)
  | Lvl k => Lvl (fun l => pbind (k l) f)
  | Stop => Stop
  end.
Notation "'do' x <- m ; k" := (pbind m (fun x => k))
  (at level 200, x pattern, m at level 100, k at level 200, right associativity).
Notation "'skip' m ; k" := (pbind m (fun _ => k))
  (at level 200, m at level 100, k at level 200, right associativity).

(** lexer.go:133-143 Byte, error ignored *)
Definition Byte_ : prog byte := GetB (fun c _ => Ret c).
(** lexer.go:146-152 UnreadByte *)
Definition Unread : prog unit := UnB (Ret tt).
Fixpoint unread_n (n : nat) : prog unit :=
  match n with O => Ret tt | S n => UnB (unread_n n) end.
(** lexer.go:109-118 PeekByte: at the end of the stream nothing is unread *)
Definition PeekByte : prog byte := GetB (fun c ok => if ok then UnB (Ret c) else Ret x00).
(** event.go methods *)
Definition ev (o : hop) : prog unit := Ev o (Ret tt).
Definition emit (s : bytes) : prog unit := ev (HAdd (VStr s)).
Definition Level : prog Z := Lvl Ret.

Section Lex.
(** Bound on the iterations of the byte loops. *)
Variable F : nat.

(** The loop shared by String, StringStop, WhiteSpace, Space, Integer, Operator and
    TemplateText: read bytes while [p] holds, unread the first other one. *)
Fixpoint span (f : nat) (p : byte -> bool) (acc : bytes) : prog bytes :=
  match f with
  | O => Stop
  | S f => GetB (fun c _ => if p c then span f p (acc ++ [c]) else UnB (Ret acc))
  end.

(** lexer.go:183-197 (the second result is "not empty") *)
Definition String_tok : prog bytes := span F is_text [].
(** lexer.go:200-214 *)
Definition StringStop (stop : bytes) : prog bytes :=
  span F (fun c => is_text c && negb (existsb (beq c) stop)) [].

(** lexer.go:217-230 Break: a CR that is not followed by NL stays consumed *)
Definition Break : prog bool :=
  do c <- Byte_;
  do c <- (if beq c x0d then Byte_ else Ret c);
  if beq c x0a then Ret true else UnB (Ret false).

(** lexer.go:233-245 End *)
Definition End : prog bool :=
  GetB (fun c ok => if negb ok then Ret true else if is_end c then Ret true else UnB (Ret false)).

(** lexer.go:249-262 *)
Definition is_white (c : byte) : bool := is_space c || is_break c.
Definition WhiteSpace : prog bool := do b <- span F is_white []; Ret (match b with [] => false | _ => true end).

(** lexer.go:267-297 Space: the number of blanks, and ' ', tab, or 0 when mixed.
    The counters n and m are computed from the bytes read instead of on the fly. *)
Definition space_kind (sp : bytes) : byte :=
  if forallb (fun c => beq c x20) sp then x20
  else if forallb (fun c => beq c x09) sp then x09 else x00.
Definition Space : prog (Z * byte) :=
  do sp <- span F is_space []; Ret (Z.of_nat (List.length sp), space_kind sp).

(** lexer.go:303-333 SpaceMax *)
Fixpoint space_max (f : nat) (max spaces tabs : Z) : prog (Z * byte) :=
  match f with
  | O => Stop
  | S f =>
      GetB (fun c _ =>
        let stop s t := Ret (s + t, if t =? 0 then x20 else if s =? 0 then x09 else x00) in
        if negb (is_space c) then UnB (stop spaces tabs)
        else
          let '(s, t) := if beq c x20 then (spaces + 1, tabs) else (spaces, tabs + 1) in
          if (s =? max) || (t =? max) then stop s t else space_max f max s t)
  end.
Definition SpaceMax (max : Z) : prog (Z * byte) := space_max F max 0 0.

(** lexer.go:337-392 Quoted.  None: not found or an error (the errors are ignored by all
    callers); Some s: found.  [q] is the quote, [c2] the previous byte (0 initially). *)
Fixpoint quoted_loop (f : nat) (ind : Z) (q c2 : byte) (buf : bytes) : prog (option bytes) :=
  match f with
  | O => Stop
  | S f =>
      GetB (fun c _ =>
        if is_end c then Ret None
        else if beq c q && beq q "`" then Ret (Some buf)
        else if beq c q && negb (beq c2 "\") then Ret (Some buf)
        else if beq c "\" then quoted_loop f ind q c buf
        else
          let buf := if beq c2 "\" && negb (beq c "'") && negb (beq c x22) then buf ++ ["\"%byte] else buf in
          let buf := buf ++ [c] in
          if beq c x0a then
            do nu <- SpaceMax ind;
            if beq (snd nu) x00 then Ret None
            else if fst nu <? ind then Ret (Some buf)
            else quoted_loop f ind q c buf
          else quoted_loop f ind q c buf)
  end.
Definition is_quote (c : byte) : bool := beq c x22 || beq c "'" || beq c "`".
Definition Quoted (ind : Z) : prog (option bytes) :=
  do c <- Byte_;
  if negb (is_quote c) then UnB (Ret None) else quoted_loop F ind c x00 [].

(** lexer.go:415-429 *)
Definition Integer : prog bytes := span F is_digit [].
(** lexer.go:468-482 *)
Definition Operator : prog bytes := span F is_operator [].
(** lexer.go:485-498 *)
Definition TemplateText : prog bytes := span F is_template_text [].

(** lexer.go:434-464 Number; the second result is len(buf) > 0, which does not count the sign *)
Fixpoint number_loop (f : nat) (point : bool) (buf : bytes) : prog bytes :=
  match f with
  | O => Stop
  | S f => GetB (fun c _ =>
      if is_digit c then number_loop f point (buf ++ [c])
      else if negb point && beq c "." then number_loop f true (buf ++ [c])
      else UnB (Ret buf))
  end.
Definition Number_tok : prog (option bytes) :=
  do c <- PeekByte;
  do sign <- (if beq c "-" || beq c "+" then do _ <- Byte_; Ret c else Ret x00);
  do buf <- number_loop F false [];
  Ret (match buf with
       | [] => None
       | _ => Some (if beq sign "-" then "-"%byte :: buf else buf)
       end).

(** lexer.go:501-519 Comment *)
Fixpoint comment_loop (f : nat) : prog bool :=
  match f with
  | O => Stop
  | S f => GetB (fun c _ => if is_end c || is_break c then Ret true else comment_loop f)
  end.
Definition Comment : prog bool :=
  do c <- Byte_;
  if beq c "#" then
    do c <- Byte_;
    if is_space c then comment_loop F else UnB (UnB (Ret false))
  else UnB (Ret false).

(** lexer.go:555-571: one line of a block (without CR, with its NL) *)
Fixpoint block_line (f : nat) (buf : bytes) : prog bytes :=
  match f with
  | O => Stop
  | S f => GetB (fun c _ =>
      if is_end c then Ret buf
      else if beq c x0d then block_line f buf
      else if beq c x0a then Ret (buf ++ [c])
      else block_line f (buf ++ [c]))
  end.
(** lexer.go:545-572 *)
Fixpoint block_lines (f : nat) (nsp : Z) (buf : bytes) : prog bytes :=
  match f with
  | O => Stop
  | S f =>
      do nu <- Space;
      if beq (snd nu) x00 || (fst nu <=? nsp) then Ret buf
      else do buf <- block_line F buf; block_lines f nsp buf
  end.
(** lexer.go:574-587 *)
Fixpoint trim_nl_rev (s : bytes) : bytes :=
  match s with c :: s' => if beq c x0a then trim_nl_rev s' else s | [] => [] end.
Definition trim_nl (s : bytes) : bytes := rev (trim_nl_rev (rev s)).
(** lexer.go:522-590 Block *)
Definition Block (nsp : Z) : prog (option bytes) :=
  do c <- Byte_;
  if negb (beq c "\") then UnB (Ret None)
  else
    do c <- Byte_;
    if negb (beq c x0a) && negb (beq c x0d) then UnB (UnB (Ret None))
    else
      skip (if beq c x0d then do _ <- Byte_; Ret tt else Ret tt);
      do b <- block_lines F nsp [];
      Ret (Some (trim_nl b)).

(** lexer.go:593-599 Scalar; None: not found *)
Definition nonempty (s : bytes) : option bytes := match s with [] => None | _ => Some s end.
Definition Scalar_tok (n : Z) : prog (option bytes) :=
  do q <- Quoted n;
  match q with
  | Some b => Ret (Some b)
  | None => do s <- String_tok; Ret (nonempty s)
  end.

(** lexer.go:602-629 ScalarType *)
Definition typed (E : env) (s : bytes) : value graph :=
  match parse_int s with
  | Some i => VInt KInt64 i
  | None => match parse_float E s with
            | Some f => VF64 f
            | None => if bseq s (bs "true") then VBool true
                      else if bseq s (bs "false") then VBool false
                      else VStr s
            end
  end.
Definition ScalarType (E : env) (n : Z) : prog (option (value graph)) :=
  do q <- Quoted n;
  match q with
  | Some b => Ret (Some (VStr b))
  | None => do s <- String_tok; Ret (match s with [] => None | _ => Some (typed E s) end)
  end.

End Lex.
