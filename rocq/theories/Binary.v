(** Model of binary.go: the binary OGDL writer and parser. *)
From Verif Require Import Base Value Event.

(** ** Writer *)

(** binary.go:159-196 [newVarInt]; nil is []. *)
Definition newVarInt (i : Z) : bytes :=
  if i <? 0 then []
  else if i <? 0x80 then [zb i]
  else if i <? 0x4000 then [zb (Z.lor (Z.shiftr i 8) 0x80); zb (Z.land i 0xff)]
  else if i <? 0x200000 then
    [zb (Z.lor (Z.shiftr i 16) 0xc0); zb (Z.land (Z.shiftr i 8) 0xff); zb (Z.land i 0xff)]
  else if i <? 0x10000000 then
    [zb (Z.lor (Z.shiftr i 24) 0xe0); zb (Z.lor (Z.shiftr i 16) 0xff);
     zb (Z.land (Z.shiftr i 8) 0xff); zb (Z.land i 0xff)]
  else [].

(** binary.go:114-130 [bin]; a nil receiver panics on g.This.
    The buffer argument is modelled by concatenation. *)
Fixpoint bin (E : env) (level : Z) (g : graph) : res bytes :=
  match g with
  | Node v o =>
      let* b := vbytes E v in
      let '(hd, lv) := match b with
                       | [] => ([], level)
                       | _ => (newVarInt level ++ b ++ [x00], level + 1)
                       end in
      let* tl := (fix go (o : list (option graph)) : res bytes :=
                    match o with
                    | [] => Ok []
                    | None :: _ => Panic
                    | Some c :: o' => let* x := bin E lv c in let* y := go o' in Ok (x ++ y)
                    end) o in
      Ok (hd ++ tl)
  end.

Fixpoint bins (E : env) (level : Z) (o : list (option graph)) : res bytes :=
  match o with
  | [] => Ok []
  | None :: _ => Panic
  | Some c :: o' => let* x := bin E level c in let* y := bins E level o' in Ok (x ++ y)
  end.

(** binary.go:98-101 header bytes *)
Definition header_bytes : bytes := [x01; "G"%byte; x00].

(** binary.go:91-112 [Binary]; a nil receiver gives nil. *)
Definition Binary (E : env) (g : option graph) : res (option bytes) :=
  match g with
  | None => Ok None
  | Some g => let* b := bins E 1 (out g) in Ok (Some (header_bytes ++ b ++ [x00]))
  end.

(** ** Parser *)

(** What the io.Reader does after its last byte: io.EOF, or some other (persistent) error. *)
Inductive tail := TEof | TErr.

(** The parser's view: remaining bytes, how the reader ends, and the byte count p.n. *)
Record rst : Type := mkR { rest : bytes; tl_ : tail; rn : Z }.

(** binary.go:320-334 [read]: io.EOF gives -1; on another error ReadByte's zero byte is
    taken as data and counted. *)
Definition read (s : rst) : Z * rst :=
  match rest s with
  | c :: r => (bz c, mkR r (tl_ s) (rn s + 1))
  | [] => match tl_ s with
          | TEof => (-1, s)
          | TErr => (0, mkR [] TErr (rn s + 1))
          end
  end.

(** binary.go:223-250 [varInt] *)
Definition varInt (s : rst) : Z * rst :=
  let (b0, s) := read s in
  if b0 <? 0x80 then (b0, s)
  else if b0 <? 0xc0 then
    let (b1, s) := read s in
    (Z.lor (Z.shiftl (Z.land b0 0x3f) 8) b1, s)
  else if b0 <? 0xe0 then
    let (b1, s) := read s in
    let (b2, s) := read s in
    (Z.lor (Z.lor (Z.shiftl (Z.land b0 0x1f) 16) (Z.shiftl b1 8)) b2, s)
  else if b0 <? 0xf0 then
    let (b1, s) := read s in
    let (b2, s) := read s in
    let (b3, s) := read s in
    (Z.lor (Z.lor (Z.lor (Z.shiftl (Z.land b0 0x0f) 24) (Z.shiftl b1 16)) (Z.shiftl b2 8)) b3, s)
  else (-1, s).

(** binary.go:201-213 [header] *)
Definition header (s : rst) : bool * rst :=
  let (a, s) := read s in
  if negb (a =? 1) then (false, s) else
  let (b, s) := read s in
  if negb (b =? 71) then (false, s) else
  let (c, s) := read s in
  if negb (c =? 0) then (false, s) else (true, s).

(** binary.go:283-298: the two nested loops of a binary node.  [n] is the number of data
    bytes still to read; 0 means that the outer loop is about to read a length. *)
Fixpoint bin_loop (fuel : nat) (s : rst) (n : Z) (buf : bytes) : res (bytes * rst) :=
  match fuel with
  | O => NoFuel
  | S f =>
      if n =? 0 then
        let (m, s) := varInt s in
        if m <? 0 then Ok (buf, s) else bin_loop f s m buf
      else
        let (c, s) := read s in
        if c <? 0 then Ok (buf, s) else bin_loop f s (n - 1) (buf ++ [zb c])
  end.

(** binary.go:303-316: text node, read bytes until 0 *)
Fixpoint text_loop (fuel : nat) (s : rst) (buf : bytes) : res (bytes * rst) :=
  match fuel with
  | O => NoFuel
  | S f =>
      let (c, s) := read s in
      if c =? 0 then Ok (buf, s) else text_loop f s (buf ++ [zb c])
  end.

(** binary.go:266-316 [line(write)]: level, binary?, content.  When [write] is false the
    content is not accumulated; that only affects the returned bytes. *)
Definition line (fuel : nat) (write : bool) (s : rst) : res (Z * bool * bytes * rst) :=
  let (level, s) := varInt s in
  if level <? 1 then Ok (0, false, [], s) else
  let (n, s) := read s in
  if n =? 1 then
    let* (b, s) := bin_loop fuel s 0 [] in Ok (level, true, if write then b else [], s)
  else
    let* (b, s) := text_loop fuel s [zb n] in Ok (level, false, if write then b else [], s).

(** binary.go:131-152, the loop of [parse] *)
Fixpoint parse_loop (fuel : nat) (s : rst) (h : handler) : res (handler * rst) :=
  match fuel with
  | O => NoFuel
  | S f =>
      let* (lev, isbin, b, s) := line f true s in
      if lev =? 0 then Ok (h, s)
      else parse_loop f s (h_add_at (if isbin then VBytes b else VStr b) (lev - 1) h)
  end.

(** binary.go:133-155 [parse] on a non-nil parser *)
Definition parse (fuel : nat) (s : rst) : res (option graph * rst) :=
  let (ok, s) := header s in
  if negb ok then Ok (None, s) else
  let* (h, s) := parse_loop fuel s h_init in
  let* g := Tree h in
  Ok (Some g, s).

(** binary.go:65-68 [FromBinary] *)
Definition FromBinary (fuel : nat) (b : bytes) : res (option graph) :=
  let* (g, _) := parse fuel (mkR b TEof 0) in Ok g.

(** binary.go:71-74 [FromBinaryReader] (reader delivering b, then ending with t) *)
Definition FromBinaryReader (fuel : nat) (b : bytes) (t : tail) : res (option graph) :=
  let* (g, _) := parse fuel (mkR b t 0) in Ok g.
