(** The ideal lexer: parser programs run over the whole input as a byte sequence.
    (Buffer.v runs the same programs over the real 4096-byte buffer.) *)
From Verif Require Import Base Value Event Lexer TextParser.

(** Bytes already read (last one first), bytes to come, and whether a read past the end
    has happened (lexer.go:134-137 moves the position to lastByte+1). *)
Record stream : Type := mkS { past : bytes; fut : bytes; over : bool }.

Definition s_init (s : bytes) : stream := mkS [] s false.

(** lexer.go:133-143 *)
Definition s_byte (s : stream) : byte * bool * stream :=
  match fut s with
  | c :: r => (c, true, mkS (c :: past s) r false)
  | [] => (x00, false, mkS (past s) [] true)
  end.

(** lexer.go:146-152 *)
Definition s_unread (s : stream) : stream :=
  if over s then mkS (past s) (fut s) false
  else match past s with
       | c :: p => mkS p (c :: fut s) false
       | [] => s
       end.

(** ** UTF-8 (Go's unicode/utf8), used by Token8 *)

(** utf8.DecodeRune: rune and size; (U+FFFD, 1) for an invalid encoding, (U+FFFD, 0) for
    the empty slice. *)
Definition cont (lo hi : Z) (c : byte) : bool := (lo <=? bz c) && (bz c <=? hi).
Definition decode_rune (s : bytes) : Z * Z :=
  match s with
  | [] => (0xFFFD, 0)
  | c0 :: s1 =>
      let b0 := bz c0 in
      if b0 <? 0x80 then (b0, 1)
      else if b0 <? 0xC2 then (0xFFFD, 1)
      else if b0 <? 0xE0 then
        match s1 with
        | c1 :: _ => if cont 0x80 0xBF c1 then ((b0 - 0xC0) * 0x40 + (bz c1 - 0x80), 2) else (0xFFFD, 1)
        | _ => (0xFFFD, 1)
        end
      else if b0 <? 0xF0 then
        match s1 with
        | c1 :: c2 :: _ =>
            if cont (if b0 =? 0xE0 then 0xA0 else 0x80) (if b0 =? 0xED then 0x9F else 0xBF) c1 && cont 0x80 0xBF c2
            then ((b0 - 0xE0) * 0x1000 + (bz c1 - 0x80) * 0x40 + (bz c2 - 0x80), 3) else (0xFFFD, 1)
        | _ => (0xFFFD, 1)
        end
      else if b0 <? 0xF5 then
        match s1 with
        | c1 :: c2 :: c3 :: _ =>
            if cont (if b0 =? 0xF0 then 0x90 else 0x80) (if b0 =? 0xF4 then 0x8F else 0xBF) c1 && cont 0x80 0xBF c2 && cont 0x80 0xBF c3
            then ((b0 - 0xF0) * 0x40000 + (bz c1 - 0x80) * 0x1000 + (bz c2 - 0x80) * 0x40 + (bz c3 - 0x80), 4)
            else (0xFFFD, 1)
        | _ => (0xFFFD, 1)
        end
      else (0xFFFD, 1)
  end.

(** utf8.AppendRune on a rune returned by DecodeRune (never a surrogate, never negative) *)
Definition encode_rune (r : Z) : bytes :=
  if r <? 0x80 then [zb r]
  else if r <? 0x800 then [zb (0xC0 + r / 0x40); zb (0x80 + r mod 0x40)]
  else if r <? 0x10000 then [zb (0xE0 + r / 0x1000); zb (0x80 + r / 0x40 mod 0x40); zb (0x80 + r mod 0x40)]
  else [zb (0xF0 + r / 0x40000); zb (0x80 + r / 0x1000 mod 0x40); zb (0x80 + r / 0x40 mod 0x40); zb (0x80 + r mod 0x40)].

(** lexer.go:686-688 isTokenChar *)
Definition token_rune (E : env) (r : Z) : bool :=
  if r <=? 0xFF then latin1_letter r || latin1_digit r || (r =? 95)
  else hi_letter E r || hi_digit E r.

(** lexer.go:397-411 Token8 on the remaining bytes: the token (re-encoded), the bytes it
    consumed, and what follows.  Past the end Rune() finds byte 0 (see Buffer.v). *)
Fixpoint token_scan (E : env) (f : nat) (s : bytes) (tok eaten : bytes) : bytes * bytes * bytes :=
  match f, s with
  | S f, _ :: _ =>
      let (r, n) := decode_rune s in
      if token_rune E r
      then token_scan E f (skipn (Z.to_nat n) s) (tok ++ encode_rune r) (eaten ++ firstn (Z.to_nat n) s)
      else (tok, eaten, s)
  | _, _ => (tok, eaten, s)
  end.
Definition s_token (E : env) (s : stream) : bytes * stream :=
  let '(tok, eaten, r) := token_scan E (List.length (fut s)) (fut s) [] [] in
  (tok, mkS (rev eaten ++ past s) r (over s)).

(** ** Running a program *)
Fixpoint run {A} (E : env) (m : prog A) (s : stream) (h : handler) : res (A * stream * handler) :=
  match m with
  | Ret a => Ok (a, s, h)
  | GetB k => let '(c, ok, s) := s_byte s in run E (k c ok) s h
  | UnB k => run E k (s_unread s) h
  | Tok k => let (t, s) := s_token E s in run E (k t) s h
  | Ev o k => let* h := h_step o h in run E k s h
  | Lvl k => run E (k (cur h)) s h
  | Stop => NoFuel
  end.

(** parser.go:52-72 FromBytes, FromString and FromStringTypes over the ideal lexer *)
Definition s_ogdl (E : env) (fuel : nat) (types : bool) (s : bytes) : res graph :=
  let* (_, _, h) := run E (Ogdl fuel E fuel types) (s_init s) h_init in Tree h.
