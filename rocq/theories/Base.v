(** Basic notions shared by the whole model: bytes, Go strings, outcomes,
    fixed-width integers, character classes. *)
From Coq Require Export List ZArith NArith Arith Bool Lia Ascii String.
From Coq Require Export Init.Byte Strings.Byte.
From Coq Require Export ZifyBool ZifyNat ZifyN.
Export ListNotations.
Open Scope list_scope.
Open Scope Z_scope.

(** A Go [string] or [[]byte] is a sequence of bytes. *)
Notation bytes := (list byte).

(** Literals: [bs "abc"] is the byte string of the ASCII literal. *)
Definition bs (s : string) : bytes := list_byte_of_string s.
Arguments bs s%string_scope.

(** Numeric value of a byte, and Go's conversion [byte(i)] (truncation mod 256). *)
Definition bz (b : byte) : Z := Z.of_N (Byte.to_N b).
Definition zb (z : Z) : byte :=
  match Byte.of_N (Z.to_N (z mod 256)) with Some b => b | None => x00 end.

Definition beq (a b : byte) : bool := Byte.eqb a b.

Fixpoint bseq (a b : bytes) : bool :=
  match a, b with
  | [], [] => true
  | x :: a', y :: b' => beq x y && bseq a' b'
  | _, _ => false
  end.

(** Outcome of a Go computation.  [Panic]: a run-time panic.  [NoFuel]: the
    loop bound of the model was exhausted (never a normal result). *)
Inductive res (A : Type) : Type :=
| Ok (a : A)
| Panic
| NoFuel.
Arguments Ok {A} a.
Arguments Panic {A}.
Arguments NoFuel {A}.

Definition rbind {A B} (m : res A) (f : A -> res B) : res B :=
  match m with Ok a => f a | Panic => Panic | NoFuel => NoFuel end.
Notation "'let*' x ':=' m 'in' k" := (rbind m (fun x => k))
  (at level 200, x pattern, right associativity).
Definition rmap {A B} (f : A -> B) (m : res A) : res B :=
  match m with Ok a => Ok (f a) | Panic => Panic | NoFuel => NoFuel end.

Definition is_ok {A} (m : res A) : Prop := exists a, m = Ok a.

(** Go's int64 wrap-around. *)
Definition wrap64 (z : Z) : Z := ((z + 2 ^ 63) mod 2 ^ 64) - 2 ^ 63.
Definition in64 (z : Z) : Prop := - 2 ^ 63 <= z < 2 ^ 63.

(** ** Character classes (lexer.go:631-688) *)

(** lexer.go:633-635 [IsTextChar]: c > 32 *)
Definition is_text (c : byte) : bool := 32 <? bz c.
(** lexer.go:639-641 [IsEndChar] *)
Definition is_end (c : byte) : bool :=
  (bz c <? 32) && negb (bz c =? 9) && negb (bz c =? 10) && negb (bz c =? 13).
(** lexer.go:650-652 [IsBreakChar] *)
Definition is_break (c : byte) : bool := (bz c =? 10) || (bz c =? 13).
(** lexer.go:655-657 [IsSpaceChar] *)
Definition is_space (c : byte) : bool := (bz c =? 32) || (bz c =? 9).
(** lexer.go:660-662 [isTemplateTextChar] *)
Definition is_template_text (c : byte) : bool := negb (is_end c) && negb (beq c "$").
(** lexer.go:666-671 [isOperatorChar] *)
Definition is_operator (c : byte) : bool := existsb (beq c) (bs "+-*/%&|!<>=~^").

(** Unicode classes of runes up to U+00FF, as in Go's unicode tables
    (unicode.IsLetter / unicode.IsDigit consult a Latin-1 table first). *)
Definition latin1_letter (r : Z) : bool :=
  ((65 <=? r) && (r <=? 90)) || ((97 <=? r) && (r <=? 122)) ||
  (r =? 170) || (r =? 181) || (r =? 186) ||
  ((192 <=? r) && (r <=? 214)) || ((216 <=? r) && (r <=? 246)) ||
  ((248 <=? r) && (r <=? 255)).
Definition latin1_digit (r : Z) : bool := (48 <=? r) && (r <=? 57).

(** lexer.go:681-683 [IsDigit] applied to [rune(c)], c a byte *)
Definition is_digit (c : byte) : bool := latin1_digit (bz c).
(** lexer.go:676-678 [IsLetter] applied to [rune(c)], c a byte *)
Definition is_letter (c : byte) : bool := latin1_letter (bz c) || beq c "_".

(** ** Basic facts *)

Lemma bz_range b : 0 <= bz b < 256.
Proof. unfold bz. pose proof (Byte.to_N_bounded b). lia. Qed.

Lemma zb_bz b : zb (bz b) = b.
Proof.
  unfold zb. rewrite Z.mod_small by apply bz_range.
  unfold bz. rewrite N2Z.id, Byte.of_to_N. reflexivity.
Qed.

Lemma bz_zb z : bz (zb z) = z mod 256.
Proof.
  unfold zb, bz.
  pose proof (Z.mod_pos_bound z 256 ltac:(lia)) as H.
  destruct (Byte.of_N (Z.to_N (z mod 256))) eqn:E.
  - apply Byte.to_of_N in E. lia.
  - apply Byte.of_N_None_iff in E. lia.
Qed.

Lemma bz_inj a b : bz a = bz b -> a = b.
Proof. intro H. rewrite <- (zb_bz a), <- (zb_bz b), H. reflexivity. Qed.

Lemma beq_spec a b : reflect (a = b) (beq a b).
Proof.
  unfold beq. destruct (Byte.eqb a b) eqn:E; constructor.
  - apply Byte.byte_dec_bl; exact E.
  - intro H. apply Byte.eqb_false in E. contradiction.
Qed.

Lemma beq_refl a : beq a a = true.
Proof. destruct (beq_spec a a); congruence. Qed.

Lemma beq_eq a b : beq a b = true <-> a = b.
Proof. destruct (beq_spec a b); split; congruence. Qed.
Lemma beq_neq a b : beq a b = false <-> a <> b.
Proof. destruct (beq_spec a b); split; congruence. Qed.

Lemma bseq_eq a b : bseq a b = true <-> a = b.
Proof.
  revert b; induction a as [|x a IH]; intros [|y b]; cbn; try (split; congruence).
  rewrite andb_true_iff, beq_eq, IH. split; [intros [-> ->]|intros [= -> ->]]; auto.
Qed.
Lemma bseq_refl a : bseq a a = true.
Proof. apply bseq_eq; reflexivity. Qed.
Lemma bseq_neq a b : bseq a b = false <-> a <> b.
Proof. rewrite <- bseq_eq. destruct (bseq a b); split; congruence. Qed.
Lemma bseq_spec a b : reflect (a = b) (bseq a b).
Proof. destruct (bseq a b) eqn:E; constructor; [apply bseq_eq|apply bseq_neq]; exact E. Qed.

Lemma wrap64_id z : in64 z -> wrap64 z = z.
Proof. unfold in64, wrap64; intros. rewrite Z.mod_small; lia. Qed.
Lemma wrap64_range z : in64 (wrap64 z).
Proof. unfold in64, wrap64. pose proof (Z.mod_pos_bound (z + 2^63) (2^64)). lia. Qed.

Lemma byte_eq_dec : forall a b : byte, {a = b} + {a <> b}.
Proof. intros a b. destruct (beq_spec a b); auto. Qed.
Lemma bytes_eq_dec : forall a b : bytes, {a = b} + {a <> b}.
Proof. apply list_eq_dec, byte_eq_dec. Qed.
