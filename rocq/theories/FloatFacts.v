(** Floats: integer part and exact integers. *)
From Verif Require Import Base Value TextSpec TypesSpec.

Lemma pow_pos_ge1 p : 0 <= p -> 1 <= 2 ^ p.
Proof. intro H. assert (0 < 2 ^ p) by (apply Z.pow_pos_nonneg; lia). lia. Qed.
Lemma float_is_part f z : float_is f z -> integer_part f z.
Proof.
  intros (s & a & b & Hp & Ha & H1 & H2). exists s, a, b. split; [exact Hp|]. split; [|auto].
  assert (0 < b); [|lia]. destruct f as [| | |s' m e]; cbn in Hp; try contradiction.
  - lia.
  - destruct Hp as (_ & _ & ->). apply Z.pow_pos_nonneg; lia.
Qed.
Lemma integer_part_trunc f z : integer_part f z -> f_trunc f = Some z.
Proof.
  intros (s & a & b & Hp & Ha & H1 & H2). destruct f as [s'| | |s' m e]; cbn [float_parts] in Hp; try contradiction.
  - cbn. f_equal. lia.
  - destruct Hp as (<- & -> & ->). cbn [f_trunc]. f_equal.
    assert (Hq : (match e with Z0 => Z.pos m | Zpos p => Z.pos m * 2 ^ Z.pos p | Zneg p => Z.pos m / 2 ^ Z.pos p end) = Z.abs z).
    { destruct e as [|p|p].
      - cbn in Ha. lia.
      - replace (Z.max (Z.pos p) 0) with (Z.pos p) in Ha by lia. replace (Z.max (- Z.pos p) 0) with 0 in Ha by lia. change (2 ^ 0) with 1 in Ha. lia.
      - replace (Z.max (Z.neg p) 0) with 0 in Ha by lia. replace (Z.max (- Z.neg p) 0) with (Z.pos p) in Ha by lia. change (2 ^ 0) with 1 in Ha.
        assert (0 < 2 ^ Z.pos p) by (apply Z.pow_pos_nonneg; lia).
        symmetry. apply (Z.div_unique _ _ _ (Z.pos m - Z.abs z * 2 ^ Z.pos p)); lia. }
    rewrite Hq. destruct s; [specialize (H1 eq_refl)|specialize (H2 eq_refl)]; lia.
Qed.
Lemma f2i_part E f z : integer_part f z -> in64 z -> f2i E f = z.
Proof.
  intros H Hz. unfold f2i. rewrite (integer_part_trunc f z H). unfold in64 in Hz.
  destruct (Z.leb_spec (- 2 ^ 63) z), (Z.ltb_spec z (2 ^ 63)); cbn [andb]; auto; lia.
Qed.

(** Integers of up to 53 bits *)
Lemma digits2_shift d : forall m, Z.pos (digits2_pos (shift_pos d m)) = Z.pos (digits2_pos m) + Z.pos d.
Proof.
  unfold shift_pos. intro m. rewrite Pos2Z.inj_iff || idtac.
  induction d as [|d IH] using Pos.peano_ind.
  - cbn [Pos.iter]. cbn [digits2_pos]. lia.
  - rewrite Pos.iter_succ. cbn [digits2_pos]. lia.
Qed.
Lemma digits2_bound m p : Z.pos m < 2 ^ Z.of_nat p -> Z.pos (digits2_pos m) <= Z.of_nat p.
Proof.
  revert p. induction m as [m IH|m IH|]; intros p H; (destruct p as [|p]; [cbn in H; lia|]); rewrite Nat2Z.inj_succ, Z.pow_succ_r in H by lia;
    cbn [digits2_pos]; rewrite ?Pos2Z.inj_succ; try lia; specialize (IH p); lia.
Qed.
Lemma fexp_small k : 0 < k <= 53 -> fexp 53 1024 k = k - 53.
Proof. intro H. unfold fexp, emin. lia. Qed.
Lemma round_aux_exact s m e : fexp 53 1024 (Z.pos (digits2_pos m) + e) = e -> e <= 971 ->
  binary_round_aux 53 1024 s (Z.pos m) e loc_Exact = S754_finite s m e.
Proof.
  intros He Hb. unfold binary_round_aux, shr_fexp. cbn [Zdigits2]. rewrite He, Z.sub_diag. cbn [shr shr_record_of_loc shr_m loc_of_shr_record round_nearest_even].
  cbn [Zdigits2]. rewrite He, Z.sub_diag. cbn [shr shr_record_of_loc shr_m].
  replace (Zle_bool e (1024 - 53)) with true; [reflexivity|]. symmetry. apply Zle_imp_le_bool. lia.
Qed.
Lemma shift_value d m : Z.pos (shift_pos d m) = Z.pos m * 2 ^ Z.pos d.
Proof. rewrite shift_pos_correct, Zpower_pos_nat. rewrite Z.mul_comm. f_equal. rewrite <- Zpower_pos_nat. reflexivity. Qed.
Lemma round_exact s m : Z.pos m < 2 ^ 53 -> exists m' e, binary_round 53 1024 s m 0 = S754_finite s m' e /\ e <= 0 /\ Z.pos m' = Z.pos m * 2 ^ (- e).
Proof.
  intro Hm. assert (Hd := digits2_bound m 53 Hm). cbn in Hd. unfold binary_round. rewrite Z.add_0_r, fexp_small by lia.
  unfold shl_align. rewrite Z.sub_0_r. destruct (Z.pos (digits2_pos m) - 53) as [|p|p] eqn:Ep.
  - exists m, 0. split; [|split; [lia|lia]]. apply round_aux_exact; [|lia]. rewrite Z.add_0_r, fexp_small by lia. lia.
  - lia.
  - exists (shift_pos p m), (Z.neg p). split; [|split; [lia|rewrite shift_value; reflexivity]].
    apply round_aux_exact; [|lia]. rewrite digits2_shift, fexp_small by lia. lia.
Qed.
Lemma f64_of_Z_exact z : Z.abs z < 2 ^ 53 -> float_is (f64_of_Z z) z.
Proof.
  intro H. unfold f64_of_Z. destruct z as [|m|m].
  - exists false, 0, 1. repeat split; lia.
  - destruct (round_exact false m) as (m' & e & He & Hle & Hm); [lia|]. cbn [binary_normalize]. rewrite He.
    exists false, (Z.pos m' * 2 ^ Z.max e 0), (2 ^ Z.max (- e) 0). split; [repeat split|].
    replace (Z.max e 0) with 0 by lia. replace (Z.max (- e) 0) with (- e) by lia. change (2 ^ 0) with 1. split; [lia|split; [discriminate|lia]].
  - destruct (round_exact true m) as (m' & e & He & Hle & Hm); [lia|]. cbn [binary_normalize]. rewrite He.
    exists true, (Z.pos m' * 2 ^ Z.max e 0), (2 ^ Z.max (- e) 0). split; [repeat split|].
    replace (Z.max e 0) with 0 by lia. replace (Z.max (- e) 0) with (- e) by lia. change (2 ^ 0) with 1. split; [lia|split; [lia|discriminate]].
Qed.

(** A float32 is the same number as a float64. *)
Lemma round_general s m e : Z.pos (digits2_pos m) <= 53 -> -1074 <= e <= 971 ->
  exists m' e', binary_round 53 1024 s m e = S754_finite s m' e' /\ e' <= e /\ Z.pos m' = Z.pos m * 2 ^ (e - e').
Proof.
  intros Hd He. assert (Hf : fexp 53 1024 (Z.pos (digits2_pos m) + e) <= e) by (unfold fexp, emin; lia).
  unfold binary_round, shl_align. set (e' := fexp 53 1024 (Z.pos (digits2_pos m) + e)) in *.
  destruct (e' - e) as [|p|p] eqn:Ep.
  - exists m, e. split; [|split; [lia|rewrite Z.sub_diag, Z.pow_0_r; lia]]. apply round_aux_exact; [|lia]. fold e'. lia.
  - lia.
  - exists (shift_pos p m), e'. split; [|split; [lia|rewrite shift_value; f_equal; f_equal; lia]].
    apply round_aux_exact; [|lia]. rewrite digits2_shift. replace (Z.pos (digits2_pos m) + Z.pos p + e') with (Z.pos (digits2_pos m) + e) by lia. reflexivity.
Qed.
Lemma f32_valid_range s m e : valid_binary 24 128 (S754_finite s m e) = true -> Z.pos (digits2_pos m) <= 53 /\ -1074 <= e <= 971.
Proof.
  cbn [valid_binary]. unfold bounded, canonical_mantissa. intro H. apply andb_prop in H. destruct H as [H1 H2].
  apply Zeq_bool_eq in H1. apply Zle_bool_imp_le in H2. unfold fexp, emin in H1. lia.
Qed.
Lemma integer_part_f32 f z : valid_binary 24 128 f = true -> integer_part f z -> integer_part (f64_of_f32 f) z.
Proof.
  intros Hv (s & a & b & Hp & Ha & Hs). destruct f as [s'| | |s' m e]; cbn [float_parts] in Hp; try contradiction.
  - exists s, a, b. auto.
  - destruct (f32_valid_range _ _ _ Hv) as [Hd He]. destruct Hp as (<- & -> & ->). cbn [f64_of_f32].
    destruct (round_general s m e Hd He) as (m' & e' & Hr & Hle & Hm).
    replace (binary_normalize 53 1024 (if s then Z.neg m else Z.pos m) e s) with (binary_round 53 1024 s m e) by (destruct s; reflexivity).
    rewrite Hr. exists s, (Z.pos m' * 2 ^ Z.max e' 0), (2 ^ Z.max (- e') 0). split; [repeat split|]. split; [|exact Hs].
    assert (Hb : 0 < 2 ^ Z.max (- e) 0) by (apply Z.pow_pos_nonneg; lia).
    assert (Hb' : 0 < 2 ^ Z.max (- e') 0) by (apply Z.pow_pos_nonneg; lia).
    assert (Heq : Z.pos m' * 2 ^ Z.max e' 0 * 2 ^ Z.max (- e) 0 = Z.pos m * 2 ^ Z.max e 0 * 2 ^ Z.max (- e') 0).
    { rewrite Hm. rewrite <- !Z.mul_assoc. f_equal. rewrite <- !Z.pow_add_r by lia. f_equal. lia. }
    set (B := 2 ^ Z.max (- e) 0) in *. set (B' := 2 ^ Z.max (- e') 0) in *. set (A := Z.pos m * 2 ^ Z.max e 0) in *. set (A' := Z.pos m' * 2 ^ Z.max e' 0) in *.
    destruct Ha as [H1 H2]. split; [apply (Z.mul_le_mono_pos_r _ _ B Hb)|apply (Z.mul_lt_mono_pos_r B _ _ Hb)]; nia.
Qed.
