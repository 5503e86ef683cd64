(** What the buffered lexer lets its user see of a reader. *)
From Verif Require Import Base Value Event Lexer TextParser Stream Buffer.

(** All the bytes a reader has to offer. *)
Fixpoint rd_data (rd : reader) : bytes :=
  match rd with
  | [] => []
  | (d, e) :: rest => d ++ (if (e : bool) then [] else rd_data rest)
  end.

(** ** The part of a reader's data that is seen
    First up to 100 Reads are made until 2048 bytes have arrived; if that does not give
    4096 bytes it is taken to be the end.  Then 2048 bytes are asked for at a time, and the
    first Read that returns less is taken to be the end.  Data returned together with an
    error is lost. *)
Fixpoint first_part (i : nat) (have : bytes) (rd : reader) : bytes * reader :=
  match i with
  | O => (have, rd)
  | S i =>
      let '(d, err, rd) := rd_read (4096 - Z.of_nat (List.length have)) rd in
      if (err : bool) then (have, rd)
      else if 2048 <=? Z.of_nat (List.length (have ++ d)) then (have ++ d, rd)
      else first_part i (have ++ d) rd
  end.
Fixpoint later_parts (n : nat) (rd : reader) : bytes :=
  match n with
  | O => []
  | S n =>
      let '(d, err, rd) := rd_read 2048 rd in
      if (err : bool) then []
      else if Z.of_nat (List.length d) =? 2048 then d ++ later_parts n rd else d
  end.
Definition seen (n : nat) (rd : reader) : bytes :=
  let '(d, rd) := first_part 100 [] rd in
  if Z.of_nat (List.length d) =? 4096 then d ++ later_parts n rd else d.

(** Number of bytes in the pieces: enough for [later_parts]. *)
Definition size (rd : reader) : nat := fold_right (fun de n => (List.length (fst de) + n)%nat) 1%nat rd.

(** ** Readers of which everything is seen *)

(** Readers that deliver in blocks: all pieces but the last are non-empty multiples of
    2048 bytes, no data comes together with an error. *)
Inductive blocks : reader -> bytes -> Prop :=
| blocks_nil : blocks [] []
| blocks_last d : d <> [] -> blocks [(d, false)] d
| blocks_cons d rd data : d <> [] -> Z.of_nat (List.length d) mod 2048 = 0 -> blocks rd data ->
    blocks ((d, false) :: rd) (d ++ data).
(** The first Read fills the buffer, unless there is no more. *)
Definition first_full (rd : reader) : Prop :=
  match rd with (d, _) :: _ :: _ => 4096 <= Z.of_nat (List.length d) | _ => True end.

(** ** Reading and unreading bytes *)
Inductive rop := RByte | RUnread.

(** On the real lexer: the answers to the Byte calls (None: end of stream). *)
Fixpoint x_ops (os : list rop) (x : lexer) : res (list (option byte)) :=
  match os with
  | [] => Ok []
  | RByte :: os =>
      let* (c, ok, x) := b_byte x in
      let* r := x_ops os x in
      Ok ((if ok : bool then Some c else None) :: r)
  | RUnread :: os => x_ops os (b_unread x)
  end.

(** On a position in the data (which can be one past the end). *)
Fixpoint p_ops (data : bytes) (os : list rop) (p : nat) : list (option byte) :=
  match os with
  | [] => []
  | RByte :: os => nth_error data p :: p_ops data os (S (Nat.min p (List.length data)))
  | RUnread :: os => p_ops data os (pred p)
  end.

(** Never more than 2048 bytes behind the furthest position [hi] reached. *)
Fixpoint near (n : nat) (os : list rop) (p hi : nat) : bool :=
  match os with
  | [] => true
  | RByte :: os => let p := S (Nat.min p n) in near n os p (Nat.max p hi)
  | RUnread :: os => (Z.of_nat hi <=? Z.of_nat (pred p) + 2048) && near n os (pred p) hi
  end.
