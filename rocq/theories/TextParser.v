(** Model of block.go and parser.go: the OGDL text parser. *)
From Verif Require Import Base Value Event Lexer.

Section Text.
Variable F : nat.
Variable E : env.

(** block.go:144-156: a scalar and its event; [types] selects ScalarType *)
Definition scalar_event (types : bool) (n : Z) : prog unit :=
  if types then
    do v <- ScalarType F E n; match v with Some v => ev (HAdd v) | None => Ret tt end
  else
    do s <- Scalar_tok F n; match s with Some s => emit s | None => Ret tt end.

(** block.go:114-164, the loop of [line]; true: left by break, false: End *)
Fixpoint line_loop (f : nat) (types : bool) (n : Z) : prog bool :=
  match f with
  | O => Stop
  | S f =>
      do e <- End;
      if e then Ret false else
      do b <- Break;
      if b then Ret true else
      do c <- Comment F;
      if c then Ret true else
      do s <- Block F n;
      match s with
      | Some s => skip emit s; skip Break; Ret true
      | None =>
          skip scalar_event types n;
          do b <- Break;
          if b then Ret true else
          skip Space F;
          skip ev HInc;
          line_loop f types n
      end
  end.

(** block.go:77-170 [line]; [rec n] stands for p.tree(n, types).  The result is
    b && err == nil, the only thing [tree] looks at. *)
Definition line (rec : Z -> prog unit) (f : nat) (types : bool) (ns : Z) : prog bool :=
  do nu <- Space F;
  let '(n, u) := nu in
  if n <? ns then skip unread_n (Z.to_nat n); Ret false
  else if ns <? n then
    skip unread_n (Z.to_nat n);
    skip ev HInc; skip rec n; skip ev HDec; Ret true
  else
    do level <- Level;
    if beq u x00 && (n =? 0) then Ret false else
    do e <- End;
    if e then Ret false else
    do c <- PeekByte;
    skip (if beq c "," then skip Byte_; skip Space F; Ret tt else Ret tt);
    do b <- line_loop f types n;
    if b then skip ev (HSetLevel level); Ret true else Ret false.

(** block.go:45-53 [tree] *)
Fixpoint tree_ (f : nat) (types : bool) (ns : Z) : prog unit :=
  match f with
  | O => Stop
  | S f =>
      do b <- line (tree_ f types) f types ns;
      if b then tree_ f types ns else skip End; Ret tt
  end.

(** block.go:18-42 [Ogdl], [OgdlTypes] *)
Definition Ogdl (f : nat) (types : bool) : prog unit :=
  do nu <- Space F;
  let '(n, u) := nu in
  if beq u x00 then Ret tt
  else skip unread_n (Z.to_nat n); tree_ f types n.

End Text.
