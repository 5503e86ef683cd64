(** C36, C37: integer contents and Scalar. *)
From Verif Require Import Base Value TextSpec NumFacts TypesSpec TypesFacts Samples.

(** ** C36 A node whose first subnode holds a text (string or []byte) reads as the integer of
    which it is a numeral, and as the default if it is not a numeral. *)
Theorem C36_int64 : forall E t v s k o def, (v = VStr s \/ v = VBytes s) ->
  exists r, Int64 E (Some (Node t (Some (Node v k) :: o))) def = Ok r /\
    (forall z, numeral s z -> r = z) /\
    ((forall z, ~ numeral s z) -> r = match def with Some d => d | None => 0 end).
Proof. exact Int64_text. Qed.
Print Assumptions C36_int64.
(** Every 64-bit integer has exactly one value and a canonical numeral. *)
Theorem C36_numeral : forall z, in64 z -> numeral (format_int z) z.
Proof. exact format_numeral. Qed.
Print Assumptions C36_numeral.
Theorem C36_numeral_unique : forall s z z', numeral s z -> numeral s z' -> z = z'.
Proof. exact numeral_fun. Qed.
Print Assumptions C36_numeral_unique.
Theorem C36_scalar : forall E t v k o z, in64 z -> (v = VStr (format_int z) \/ v = VBytes (format_int z)) ->
  Scalar E (Node t (Some (Node v k) :: o)) = Ok (VInt KInt64 z) /\ number E v = Ok (VInt KInt64 z) /\
  ThisScalar E (Node v k) = Ok (VInt KInt64 z).
Proof. intros E t v k o z Hz Hv. split; [|split]; [apply Scalar_format|apply number_format|apply ThisScalar_format]; assumption. Qed.
Print Assumptions C36_scalar.
(** Contents of integer types that fit in an int64 are exact. *)
Theorem C36_integer_contents : forall E k z, in64 z -> number E (VInt k z) = Ok (VInt KInt64 z) /\ v_int64f E (VInt k z) = Ok (Some z).
Proof. exact number_int. Qed.
Print Assumptions C36_integer_contents.
Example C36_ex : format_int (- 2 ^ 63) = bs "-9223372036854775808" /\
  Int64 env0 (Some (nd "n" [nd "-9223372036854775808" []])) (Some 5) = Ok (- 2 ^ 63) /\
  Int64 env0 (Some (nd "n" [nd "+042" []])) (Some 5) = Ok 42 /\
  Int64 env0 (Some (nd "n" [nd "9223372036854775808" []])) (Some 5) = Ok 5 /\
  Int64 env0 (Some (nd "n" [nd "12x" []])) None = Ok 0 /\
  Scalar env0 (nd "n" [nd "9223372036854775807" []]) = Ok (VInt KInt64 (2 ^ 63 - 1)).
Proof. vm_compute. repeat split; reflexivity. Qed.
(** A uint64 content above 2^63-1 reads as a negative number. *)
Theorem C36_uint64_refuted : exists E z, 0 <= z < 2 ^ 64 /\ Int64 E (Some (Node VNil [Some (Node (VInt KUint64 z) [])])) None = Ok (z - 2 ^ 64) /\ z - 2 ^ 64 <> z.
Proof. exists env0, (2 ^ 63). vm_compute. repeat split; discriminate. Qed.
Print Assumptions C36_uint64_refuted.

(** ** C37 Scalar, Number and the constant case of Eval return.  Full claim: every content;
    texts made of blanks only are excluded. *)
Theorem C37_scalar_partial : forall E v s, vstring E v = Ok s -> ~ blank s -> is_ok (number E v) /\ is_ok (scalar_of E v).
Proof. intros E v s Hs Hb. split; [apply (number_ok E v s)|apply (scalar_of_ok E v s)]; assumption. Qed.
Print Assumptions C37_scalar_partial.
Theorem C37_node_partial : forall E t v k o s, vstring E v = Ok s -> ~ blank s ->
  is_ok (Scalar E (Node t (Some (Node v k) :: o))) /\ is_ok (ThisScalar E (Node v [])).
Proof.
  intros E t v k o s Hs Hb. split; [exact (scalar_of_ok E v s Hs Hb)|]. unfold ThisScalar. cbn [this].
  destruct (scalar_of_ok E v s Hs Hb) as (r & Hr). exists r. destruct v; cbn [rbind Interface]; assumption.
Qed.
Print Assumptions C37_node_partial.
Example C37_ex : vstring env0 (VStr (bs " 5 x")) = Ok (bs " 5 x") /\ ~ blank (bs " 5 x") /\
  Scalar env0 (nd "n" [nd " 5 x" []]) = Ok (VStr (bs " 5 x")) /\
  Scalar env0 (nd "n" [nd "true" []]) = Ok (VBool true).
Proof.
  split; [reflexivity|]. split; [|vm_compute; split; reflexivity]. intros (_ & H). cbn in H.
  inversion H as [|? ? _ H']; subst. inversion H' as [|? ? [H2|H2] _]; discriminate H2.
Qed.
(** On every blank text they panic. *)
Theorem C37_scalar_refuted : forall E t k o s, blank s ->
  Scalar E (Node t (Some (Node (VStr s) k) :: o)) = Panic /\ number E (VStr s) = Panic /\ ThisScalar E (Node (VStr s) k) = Panic.
Proof.
  intros E t k o s Hb. assert (H := number_blank E (VStr s) s (or_introl eq_refl) Hb).
  split; [|split]; [| exact H |]; unfold Scalar, ThisScalar, Interface, scalar_of; cbn [this rbind]; rewrite H; reflexivity.
Qed.
Print Assumptions C37_scalar_refuted.
Example C37_refuted_ex : blank (bs "  ") /\ Scalar env0 (nd "n" [nd "  " []]) = Panic.
Proof. split; [|reflexivity]. split; [discriminate|]. repeat constructor. Qed.
