(** Model of the buffering of lexer.go: the real 4096-byte buffer over an io.Reader. *)
From Verif Require Import Base Value Event Lexer TextParser Stream.

(** lexer.go:28-31 *)
Definition bufSize : Z := 4096.
Definition halfSize : Z := 2048.

(** An io.Reader, as what its successive Read calls deliver: each element is (data, error?).
    A Read asking for fewer bytes than the next element holds gets a part of it without
    error; after the last element, or after an error, Read returns (0, EOF).  The behaviour
    of any reader during one parse is of this form, since the sizes asked for are fixed. *)
Definition reader : Type := list (bytes * bool).

Definition rd_read (k : Z) (rd : reader) : bytes * bool * reader :=
  match rd with
  | [] => ([], true, [])
  | (d, e) :: rest =>
      if Z.of_nat (List.length d) <=? k then (d, e, if e then [] else rest)
      else (firstn (Z.to_nat k) d, false, (skipn (Z.to_nat k) d, e) :: rest)
  end.

(** bytes.NewBuffer(s) as a reader: an empty buffer gives EOF at once *)
Definition bytes_reader (s : bytes) : reader := match s with [] => [] | _ => [(s, false)] end.

(** lexer.go:39-46, without lastRuneSize (only its last element is ever used, by the
    UnreadRune that ends Token8) and without err (never consulted by the parser). *)
Record lexer : Type := mkX { buf : bytes; rd : reader; r_ : Z; last : Z }.

(** Go's copy(buf[off:], d) for d that fits *)
Definition put (off : Z) (d buf : bytes) : bytes :=
  firstn (Z.to_nat off) buf ++ d ++ skipn (Z.to_nat off + List.length d) buf.

(** lexer.go:83-97: [i] more reads; result: buffer, reader, offset.  When Read returns an
    error its data is in the buffer but the offset is not advanced. *)
Fixpoint fill_loop (i : nat) (buf : bytes) (rd : reader) (offset : Z) : bytes * reader * Z :=
  match i with
  | O => (buf, rd, offset)
  | S i =>
      let '(d, err, rd) := rd_read (bufSize - offset) rd in
      let buf := put offset d buf in
      if (err : bool) then (buf, rd, offset)
      else
        let offset := offset + Z.of_nat (List.length d) in
        if halfSize <=? offset then (buf, rd, offset) else fill_loop i buf rd offset
  end.

(** lexer.go:66-100 fill *)
Definition fill (x : lexer) : lexer :=
  if (0 <=? r_ x) && (r_ x <? bufSize) then x
  else
    let '(b, r, offset) :=
      if 0 <=? r_ x
      then (let up := skipn (Z.to_nat halfSize) (buf x) in (up ++ up, halfSize, halfSize))
      else (buf x, 0, 0) in
    let '(b, rd, offset) := fill_loop 100 b (rd x) offset in
    mkX b rd r offset.

(** parser.go:20-29 NewParser, lexer.go:51-59 NewLexer *)
Definition NewLexer (rd : reader) : lexer :=
  fill (mkX (repeat x00 (Z.to_nat bufSize)) rd (-1) bufSize).

(** lexer.go:133-143 Byte *)
Definition b_byte (x : lexer) : res (byte * bool * lexer) :=
  if (last x <? bufSize) && (last x <=? r_ x) then Ok (x00, false, mkX (buf x) (rd x) (last x + 1) (last x))
  else
    let* c := zget (buf x) (r_ x) in
    Ok (c, true, fill (mkX (buf x) (rd x) (r_ x + 1) (last x))).

(** lexer.go:146-152 UnreadByte *)
Definition b_unread (x : lexer) : lexer :=
  if r_ x <=? 0 then x else mkX (buf x) (rd x) (r_ x - 1) (last x).

(** lexer.go:157-168 Rune: rune and its size *)
Definition b_rune (x : lexer) : res (Z * Z * lexer) :=
  let x := fill x in
  let* c := zget (buf x) (r_ x) in
  let* (r, size) :=
    (if bz c <? 0x80 then Ok (bz c, 1)
     else if last x <? r_ x then Panic      (* p.buf[p.r:p.lastByte] *)
     else Ok (decode_rune (skipn (Z.to_nat (r_ x)) (firstn (Z.to_nat (last x)) (buf x))))) in
  Ok (r, size, mkX (buf x) (rd x) (r_ x + size) (last x)).

(** lexer.go:397-411 Token8 (the final UnreadRune undoes the last Rune) *)
Fixpoint b_token (E : env) (f : nat) (tok : bytes) (x : lexer) : res (bytes * lexer) :=
  match f with
  | O => NoFuel
  | S f =>
      let* (r, size, x) := b_rune x in
      if token_rune E r then b_token E f (tok ++ encode_rune r) x
      else Ok (tok, mkX (buf x) (rd x) (r_ x - size) (last x))
  end.

(** Running a program; [f] bounds the loop of each Token8. *)
Fixpoint run_buf {A} (E : env) (f : nat) (m : prog A) (x : lexer) (h : handler) : res (A * lexer * handler) :=
  match m with
  | Ret a => Ok (a, x, h)
  | GetB k => let* (c, ok, x) := b_byte x in run_buf E f (k c ok) x h
  | UnB k => run_buf E f k (b_unread x) h
  | Tok k => let* (t, x) := b_token E f [] x in run_buf E f (k t) x h
  | Ev o k => let* h := h_step o h in run_buf E f k x h
  | Lvl k => run_buf E f (k (cur h)) x h
  | Stop => NoFuel
  end.

(** parser.go:75-79 FromReader; types = true is OgdlTypes *)
Definition FromReader (E : env) (fuel : nat) (types : bool) (rd : reader) : res graph :=
  let* (_, _, h) := run_buf E fuel (Ogdl fuel E fuel types) (NewLexer rd) h_init in Tree h.

(** parser.go:52-72 FromBytes, FromString *)
Definition FromString (E : env) (fuel : nat) (s : bytes) : res graph := FromReader E fuel false (bytes_reader s).
(** parser.go:68-72 FromStringTypes *)
Definition FromStringTypes (E : env) (fuel : nat) (s : bytes) : res graph := FromReader E fuel true (bytes_reader s).
