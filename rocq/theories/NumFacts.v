(** Decimal integers: printing and parsing. *)
From Verif Require Import Base Value Lexer TextSpec.

Lemma bz_digit d : 0 <= d < 10 -> bz (digit_byte d) = 48 + d.
Proof. intro H. unfold digit_byte. rewrite bz_zb. apply Z.mod_small. lia. Qed.

Lemma latin1_digit_iff c : latin1_digit (bz c) = true <-> 48 <= bz c <= 57.
Proof. unfold latin1_digit. rewrite andb_true_iff, !Z.leb_le. lia. Qed.

Lemma parse_digits_val s : Forall (fun c => 48 <= bz c <= 57) s -> forall a, parse_digits s a = Some (fold_left (fun a c => 10 * a + (bz c - 48)) s a).
Proof.
  induction 1 as [|c s H _ IH]; intro a; cbn [parse_digits fold_left]; [reflexivity|].
  apply latin1_digit_iff in H. rewrite H, IH. f_equal. f_equal. lia.
Qed.
Lemma parse_nat_val s : digits s -> parse_nat s = Some (number_of s).
Proof. intros (Hne & H). destruct s; [congruence|]. unfold parse_nat. apply parse_digits_val. exact H. Qed.

Lemma parse_int_val s : digits s -> number_of s < 2 ^ 63 -> parse_int s = Some (number_of s).
Proof.
  intros Hd Hn. pose proof (parse_nat_val s Hd) as Hp. destruct Hd as (Hne & H). destruct s as [|c s]; [congruence|]. inversion H; subst.
  unfold parse_int. destruct (beq_spec c "-"%byte) as [->|_]; [cbn in *; lia|]. destruct (beq_spec c "+"%byte) as [->|_]; [cbn in *; lia|].
  rewrite Hp. apply Z.ltb_lt in Hn. rewrite Hn. reflexivity.
Qed.
Lemma parse_int_neg s : digits s -> number_of s <= 2 ^ 63 -> parse_int ("-"%byte :: s) = Some (- number_of s).
Proof. intros Hd Hn. unfold parse_int. cbn [beq]. change (beq "-" "-") with true. cbv iota. rewrite (parse_nat_val s Hd). apply Z.leb_le in Hn. rewrite Hn. reflexivity. Qed.

Lemma dec_digits_spec fuel : forall n acc, 0 <= n < 10 ^ Z.of_nat fuel -> (0 < fuel)%nat -> Forall (fun c => 48 <= bz c <= 57) acc ->
  digits (dec_digits fuel n acc) /\ forall a, fold_left (fun a c => 10 * a + (bz c - 48)) (dec_digits fuel n acc) 0 = fold_left (fun a c => 10 * a + (bz c - 48)) acc (a * 0 + n).
Proof.
  induction fuel as [|f IH]; intros n acc Hn Hf Ha; [lia|]. cbn [dec_digits]. destruct (Z.ltb_spec n 10).
  - split; [split; [discriminate|]|].
    + constructor; [rewrite bz_digit; lia|exact Ha].
    + intro a. cbn [fold_left]. f_equal. rewrite bz_digit; lia.
  - assert (Hd : 0 <= n / 10 < 10 ^ Z.of_nat f).
    { rewrite Nat2Z.inj_succ, Z.pow_succ_r in Hn by lia. split; [apply Z.div_pos; lia|]. apply Z.div_lt_upper_bound; lia. }
    assert (0 < f)%nat by (destruct f; [cbn in Hd; pose proof (Z.div_le_lower_bound n 10 1 ltac:(lia) ltac:(lia)); lia|lia]).
    pose proof (Z.mod_pos_bound n 10 ltac:(lia)).
    destruct (IH (n / 10) (digit_byte (n mod 10) :: acc) Hd) as (I1 & I2); auto.
    { constructor; [rewrite bz_digit; lia|exact Ha]. }
    split; [exact I1|]. intro a. rewrite (I2 a). cbn [fold_left]. f_equal. rewrite bz_digit by lia. pose proof (Z.div_mod n 10 ltac:(lia)). lia.
Qed.
Lemma format_nat_spec n : 0 <= n -> digits (format_nat n) /\ number_of (format_nat n) = n.
Proof.
  intro Hn. unfold format_nat.
  assert (Hb : 0 <= n < 10 ^ Z.of_nat (S (Z.to_nat (Z.log2 n)))).
  { split; [exact Hn|]. rewrite Nat2Z.inj_succ, Z2Nat.id by apply Z.log2_nonneg. destruct (Z.eq_dec n 0) as [->|]; [apply Z.pow_pos_nonneg; cbn; lia|].
    pose proof (Z.log2_spec n ltac:(lia)) as (_ & H). eapply Z.lt_le_trans; [exact H|]. apply Z.pow_le_mono_l. lia. }
  destruct (dec_digits_spec (S (Z.to_nat (Z.log2 n))) n [] Hb ltac:(lia) (Forall_nil _)) as (H1 & H2). split; [exact H1|].
  unfold number_of. rewrite (H2 0). cbn. lia.
Qed.
Lemma parse_format z : - 2 ^ 63 <= z < 2 ^ 63 -> parse_int (format_int z) = Some z.
Proof.
  intro Hz. unfold format_int. destruct (Z.ltb_spec z 0).
  - destruct (format_nat_spec (- z) ltac:(lia)) as (H1 & H2). rewrite parse_int_neg by (auto; lia). f_equal. lia.
  - destruct (format_nat_spec z ltac:(lia)) as (H1 & H2). rewrite parse_int_val by (auto; lia). f_equal. exact H2.
Qed.
