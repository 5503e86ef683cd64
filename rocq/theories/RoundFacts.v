(** The standard library's SpecFloat rounds correctly. *)
From Verif Require Import Base Value TextSpec TypesSpec NumFacts RoundSpec FloatFacts.

(** ** Digits *)
Lemma digits2_low m : 2 ^ (Z.pos (digits2_pos m) - 1) <= Z.pos m.
Proof.
  induction m as [m IH|m IH|]; cbn [digits2_pos]; [| |cbn; lia]; rewrite Pos2Z.inj_succ; replace (Z.succ (Z.pos (digits2_pos m)) - 1) with (Z.succ (Z.pos (digits2_pos m) - 1)) by lia;
    rewrite Z.pow_succ_r by lia; lia.
Qed.
Lemma digits2_high m : Z.pos m < 2 ^ Z.pos (digits2_pos m).
Proof.
  induction m as [m IH|m IH|]; cbn [digits2_pos]; [| |cbn; lia]; rewrite Pos2Z.inj_succ, Z.pow_succ_r by lia; lia.
Qed.
Lemma Zdigits2_spec z : 0 <= z -> 0 <= Zdigits2 z /\ z < 2 ^ Zdigits2 z /\ (0 < z -> 1 <= Zdigits2 z /\ 2 ^ (Zdigits2 z - 1) <= z).
Proof.
  destruct z as [|m|m]; intro H; cbn [Zdigits2].
  - cbn. lia.
  - pose proof (digits2_low m). pose proof (digits2_high m). lia.
  - lia.
Qed.
Lemma Zdigits2_unique z k : 0 < z -> 1 <= k -> 2 ^ (k - 1) <= z < 2 ^ k -> Zdigits2 z = k.
Proof.
  intros Hz Hk H. destruct (Zdigits2_spec z) as (_ & Hh & Hl); [lia|]. destruct (Hl Hz) as (H1 & H2).
  destruct (Z.lt_trichotomy (Zdigits2 z) k) as [L|[L|L]]; [|exact L|].
  - assert (2 ^ Zdigits2 z <= 2 ^ (k - 1)) by (apply Z.pow_le_mono_r; lia). lia.
  - assert (2 ^ k <= 2 ^ (Zdigits2 z - 1)) by (apply Z.pow_le_mono_r; lia). lia.
Qed.
Lemma Zdigits2_ge z k : 0 <= z -> 0 <= k -> 2 ^ k <= z -> k + 1 <= Zdigits2 z.
Proof.
  intros Hz Hk H. destruct (Zdigits2_spec z) as (_ & Hh & _); [lia|]. destruct (Z_lt_le_dec (Zdigits2 z) (k + 1)); [|lia].
  assert (2 ^ Zdigits2 z <= 2 ^ k) by (apply Z.pow_le_mono_r; lia). lia.
Qed.
Lemma Zdigits2_le z k : 0 <= z -> 0 <= k -> z < 2 ^ k -> Zdigits2 z <= k.
Proof.
  intros Hz Hk H. destruct (Zdigits2_spec z) as (H0 & Hh & Hl); [lia|]. destruct (Z.eq_dec z 0) as [->|]; [cbn; lia|]. destruct (Hl ltac:(lia)) as (H1 & H2).
  destruct (Z_lt_le_dec k (Zdigits2 z)); [|lia]. assert (2 ^ k <= 2 ^ (Zdigits2 z - 1)) by (apply Z.pow_le_mono_r; lia). lia.
Qed.

(** ** Shifting: the record for the number N/D *)
Definition rec_ok (r : shr_record) (N D : Z) : Prop :=
  0 < D /\ 0 <= shr_m r /\ shr_m r * D <= N < (shr_m r + 1) * D /\
  (shr_r r = true <-> (2 * shr_m r + 1) * D <= 2 * N) /\
  (shr_s r = true <-> N <> shr_m r * D /\ 2 * N <> (2 * shr_m r + 1) * D).
Lemma shr_1_ok r N D : rec_ok r N D -> rec_ok (shr_1 r) N (2 * D).
Proof.
  destruct r as [m rr ss]. intros (HD & Hm & Hb & Hr & Hs). cbn [shr_m shr_r shr_s] in *.
  assert (G : forall q b, m = 2 * q + (if b : bool then 1 else 0) -> 0 <= q -> rec_ok {| shr_m := q; shr_r := b; shr_s := rr || ss |} N (2 * D)).
  { intros q b -> Hq. unfold rec_ok. cbn [shr_m shr_r shr_s]. split; [lia|]. split; [lia|]. split; [destruct b; lia|]. split.
    - destruct b; split; intro; try reflexivity; try discriminate; lia.
    - rewrite orb_true_iff, Hr, Hs. destruct b; split; intro; lia. }
  destruct m as [|[p|p|]|p]; cbn [shr_1]; [apply G; lia|apply G; lia|apply G; lia|apply G; lia|lia].
Qed.
Lemma iter_shr p : forall r N D, rec_ok r N D -> rec_ok (iter_pos shr_1 p r) N (2 ^ Z.pos p * D).
Proof.
  induction p as [p IH|p IH|]; intros r N D H; cbn [iter_pos].
  - replace (2 ^ Z.pos p~1) with (2 ^ Z.pos p * 2 ^ Z.pos p * 2 ^ 1) by (rewrite <- !Z.pow_add_r by lia; f_equal; lia).
    replace (2 ^ Z.pos p * 2 ^ Z.pos p * 2 ^ 1 * D) with (2 ^ Z.pos p * (2 ^ Z.pos p * (2 * D))) by ring. apply IH, IH, shr_1_ok, H.
  - replace (2 ^ Z.pos p~0) with (2 ^ Z.pos p * 2 ^ Z.pos p) by (rewrite <- Z.pow_add_r by lia; f_equal; lia). rewrite <- Z.mul_assoc. apply IH, IH, H.
  - apply shr_1_ok, H.
Qed.
Lemma shr_ok r N D e k : rec_ok r N D -> 0 <= k -> exists r', shr r e k = (r', e + k) /\ rec_ok r' N (2 ^ k * D).
Proof.
  intros H Hk. destruct k as [|p|p]; [| |lia]; cbn [shr].
  - exists r. split; [f_equal; lia|]. rewrite Z.pow_0_r, Z.mul_1_l. exact H.
  - eexists. split; [reflexivity|]. apply iter_shr, H.
Qed.
Lemma round_even r N D : rec_ok r N D -> let R := round_nearest_even (shr_m r) (loc_of_shr_record r) in
  shr_m r <= R <= shr_m r + 1 /\ 2 * Z.abs (R * D - N) <= D /\ (2 * Z.abs (R * D - N) = D -> Z.even R = true).
Proof.
  destruct r as [m rr ss]. intros (HD & Hm & Hb & Hr & Hs). cbn [shr_m shr_r shr_s] in *. cbn zeta.
  assert (Hodd : Z.even m = false -> Z.even (m + 1) = true) by (intro Ho; rewrite Z.even_add, Ho; reflexivity).
  destruct rr, ss; cbn [loc_of_shr_record round_nearest_even].
  - split; [lia|]. split; [lia|]. intro He. destruct (proj1 Hs eq_refl). pose proof (proj1 Hr eq_refl). lia.
  - assert (Hx : 2 * N = (2 * m + 1) * D).
    { destruct (Z.eq_dec (2 * N) ((2 * m + 1) * D)) as [|Hn]; [assumption|]. pose proof (proj1 Hr eq_refl).
      assert (false = true) by (apply Hs; split; lia). discriminate. }
    destruct (Z.even m) eqn:Em; (split; [lia|split; [lia|auto]]).
  - assert (Hn : ~ (2 * m + 1) * D <= 2 * N) by (intro Hc; apply Hr in Hc; discriminate). split; [lia|]. split; [lia|]. intro. lia.
  - assert (Hn : ~ (2 * m + 1) * D <= 2 * N) by (intro Hc; apply Hr in Hc; discriminate).
    assert (Hx : N = m * D). { destruct (Z.eq_dec N (m * D)); [assumption|]. assert (false = true) by (apply Hs; split; lia). discriminate. }
    split; [lia|]. split; [lia|]. intro. lia.
Qed.

(** ** Rounding *)
Lemma fexp_def k : fexp 53 1024 k = Z.max (k - 53) (-1074).
Proof. reflexivity. Qed.
Lemma double_bounds s m e : double (S754_finite s m e) -> Z.pos m < 2 ^ 53 /\ -1074 <= e <= 971.
Proof.
  unfold double. cbn [valid_binary]. unfold bounded, canonical_mantissa. intro H. apply andb_prop in H. destruct H as [H1 H2].
  apply Zeq_bool_eq in H1. apply Zle_bool_imp_le in H2. rewrite fexp_def in H1. split; [|lia].
  pose proof (digits2_high m). assert (2 ^ Z.pos (digits2_pos m) <= 2 ^ 53) by (apply Z.pow_le_mono_r; lia). lia.
Qed.
(** A significand R at the exponent e, as the second half of binary_round_aux normalises it *)
Definition round_finish (s : bool) (R e : Z) : spec_float :=
  let '(mrs, e) := shr_fexp 53 1024 R e loc_Exact in
  match shr_m mrs with
  | Z0 => S754_zero s
  | Zpos m => if Zle_bool e (1024 - 53) then S754_finite s m e else S754_infinity s
  | _ => S754_nan
  end.
Lemma finish_ok s R e : 0 <= R <= 2 ^ 53 -> -1074 <= e -> (e = -1074 \/ 2 ^ 52 <= R) ->
  (R = 0 /\ round_finish s R e = S754_zero s) \/
  (exists m e', 0 < R /\ round_finish s R e = (if Zle_bool e' 971 then S754_finite s m e' else S754_infinity s) /\
    Z.pos m * 2 ^ (e' + 1074) = R * 2 ^ (e + 1074) /\ (e' = e /\ Z.pos m = R /\ R < 2 ^ 53 \/ e' = e + 1 /\ R = 2 ^ 53 /\ Z.pos m = 2 ^ 52) /\
    fexp 53 1024 (Z.pos (digits2_pos m) + e') = e').
Proof.
  intros HR He Hn. unfold round_finish, shr_fexp. destruct (Z.eq_dec R 0) as [->|HR0].
  - left. split; [reflexivity|]. cbn [Zdigits2]. rewrite fexp_def. assert (e = -1074) by lia. subst e. reflexivity.
  - right. destruct (Z.eq_dec R (2 ^ 53)) as [Eq|Hne].
    + assert (Hd : Zdigits2 R = 54) by (rewrite Eq; reflexivity). rewrite Hd, fexp_def. replace (Z.max (54 + e - 53) (-1074) - e) with 1 by lia.
      rewrite Eq. exists (2 ^ 52)%positive, (e + 1). change (Z.pos (2 ^ 52)) with (2 ^ 52). split; [lia|]. split; [reflexivity|]. split.
      * replace (e + 1 + 1074) with (1 + (e + 1074)) by lia. rewrite Z.pow_add_r by lia. ring.
      * split; [right; lia|]. change (Z.pos (digits2_pos (2 ^ 52))) with 53. rewrite fexp_def. lia.
    + assert (Hd : Zdigits2 R <= 53) by (apply Zdigits2_le; lia). rewrite fexp_def.
      assert (Hk : shr (shr_record_of_loc R loc_Exact) e (Z.max (Zdigits2 R + e - 53) (-1074) - e) = (shr_record_of_loc R loc_Exact, e)).
      { destruct (Z.max (Zdigits2 R + e - 53) (-1074) - e) eqn:Ek; [reflexivity|lia|reflexivity]. }
      rewrite Hk. cbn [shr_record_of_loc shr_m]. destruct R as [|m|m]; [lia| |lia]. exists m, e. split; [lia|]. split; [reflexivity|]. split; [reflexivity|].
      split; [left; lia|]. rewrite fexp_def. cbn [Zdigits2] in Hd. destruct Hn as [->|Hn]; [lia|].
      assert (Z.pos (digits2_pos m) = 53). { assert (H53 := Zdigits2_ge (Z.pos m) 52 ltac:(lia) ltac:(lia) Hn). cbn [Zdigits2] in H53. lia. } lia.
Qed.
(** Multiples of 2^t, and what else there is if t > 0 *)
Definition floatish (Y : Z) : Prop := exists m f, Z.abs m < 2 ^ 53 /\ 0 <= f /\ Y = m * 2 ^ f.
Lemma floatish_opp Y : floatish Y -> floatish (- Y).
Proof. intros (m & f & Hm & Hf & ->). exists (- m), f. split; [lia|]. split; [lia|ring]. Qed.
Lemma double_floatish y : double y -> floatish (in_units y).
Proof.
  destruct y as [s| | |s m e]; cbn [double]; try contradiction.
  - intros _. exists 0, 0. cbn. lia.
  - intro H. destruct (double_bounds s m e H) as (Hm & He). exists ((if s then -1 else 1) * Z.pos m), (e + 1074). split; [destruct s; lia|]. split; [lia|]. cbn [in_units]. ring.
Qed.
Lemma abs_mul_r a b : 0 <= b -> Z.abs (a * b) = Z.abs a * b.
Proof. intro H. rewrite Z.abs_mul, (Z.abs_eq b) by exact H. reflexivity. Qed.
Lemma core N D R t Y : 0 < D -> 0 <= N -> 0 <= t -> 2 * Z.abs (R * D - N) <= D -> (2 * Z.abs (R * D - N) = D -> Z.even R = true) ->
  (t = 0 \/ 2 ^ 52 * D <= N) -> floatish Y ->
  Z.abs (R * 2 ^ t * D - N * 2 ^ t) <= Z.abs (Y * D - N * 2 ^ t) /\
  (Z.abs (R * 2 ^ t * D - N * 2 ^ t) = Z.abs (Y * D - N * 2 ^ t) -> R * 2 ^ t = Y \/ Z.even R = true).
Proof.
  intros HD HN Ht HR Hev Hn (m & f & Hm & Hf & ->). assert (Hp : 0 < 2 ^ t) by (apply Z.pow_pos_nonneg; lia).
  replace (R * 2 ^ t * D - N * 2 ^ t) with ((R * D - N) * 2 ^ t) by ring. rewrite abs_mul_r by lia.
  destruct (Z_le_gt_dec t f) as [Htf|Htf].
  - (* a multiple *)
    replace (m * 2 ^ f) with (m * 2 ^ (f - t) * 2 ^ t) by (rewrite <- Z.mul_assoc, <- Z.pow_add_r by lia; do 2 f_equal; lia).
    set (Z0 := m * 2 ^ (f - t)). replace (Z0 * 2 ^ t * D - N * 2 ^ t) with ((Z0 * D - N) * 2 ^ t) by ring. rewrite abs_mul_r by lia.
    assert (Hc : Z0 = R \/ D <= Z.abs (Z0 * D - R * D)) by (destruct (Z.eq_dec Z0 R); [left; assumption|right; replace (Z0 * D - R * D) with ((Z0 - R) * D) by ring; rewrite abs_mul_r by lia; nia]).
    destruct Hc as [->|Hc]; [split; [lia|left; reflexivity]|]. assert (Hle : Z.abs (R * D - N) <= Z.abs (Z0 * D - N)) by lia. split; [apply Z.mul_le_mono_nonneg_r; lia|].
    intro He. apply Z.mul_cancel_r in He; [|lia]. right. apply Hev. lia.
  - (* smaller than 2^52 multiples *)
    destruct Hn as [->|Hn]; [lia|]. set (V := 2 ^ 52 * 2 ^ t).
    assert (HY : Z.abs (m * 2 ^ f) < V).
    { rewrite abs_mul_r by (apply Z.pow_nonneg; lia). assert (0 < 2 ^ f) by (apply Z.pow_pos_nonneg; lia).
      assert (2 ^ 53 * 2 ^ f <= V) by (subst V; rewrite <- !Z.pow_add_r by lia; apply Z.pow_le_mono_r; lia). nia. }
    assert (HV : V * D <= N * 2 ^ t) by (subst V; nia).
    assert (HRn : Z.abs (R * D - N) <= N - 2 ^ 52 * D).
    { destruct (Z.eq_dec R (2 ^ 52)) as [->|Hne]; [lia|]. assert (D <= Z.abs (2 ^ 52 * D - R * D)) by (replace (2 ^ 52 * D - R * D) with ((2 ^ 52 - R) * D) by ring; rewrite abs_mul_r by lia; nia). lia. }
    assert (H1 : Z.abs (R * D - N) * 2 ^ t <= N * 2 ^ t - V * D) by (subst V; nia).
    assert (H2 : m * 2 ^ f * D < V * D) by (apply Z.mul_lt_mono_pos_r; lia).
    split; [lia|]. intro. lia.
Qed.

(** ** binary_round_aux *)
Definition sg (s : bool) : Z := if s then -1 else 1.
Lemma even_pos m R : Z.pos m = R -> Z.even R = true -> Z.even (Z.pos m) = true.
Proof. intros ->. auto. Qed.
Lemma top_powers : exists W, 0 < W /\ float_top = (2 ^ 54 - 1) * W /\ forall t, 0 <= t -> (t <= 2044 -> 2 ^ t <= W) /\ (2045 <= t -> 2 * W <= 2 ^ t) /\ (t = 2045 -> 2 ^ t = 2 * W) /\ (2046 <= t -> 4 * W <= 2 ^ t).
Proof.
  exists (2 ^ 2044). split; [apply Z.pow_pos_nonneg; lia|]. split; [reflexivity|]. intros t Ht. split; [|split; [|split]]; intro H.
  - apply Z.pow_le_mono_r; lia.
  - change (2 * 2 ^ 2044) with (2 ^ 1 * 2 ^ 2044). rewrite <- Z.pow_add_r by lia. apply Z.pow_le_mono_r; lia.
  - rewrite H. change 2045 with (1 + 2044). rewrite Z.pow_add_r by lia. reflexivity.
  - change (4 * 2 ^ 2044) with (2 ^ 2 * 2 ^ 2044). rewrite <- Z.pow_add_r by lia. apply Z.pow_le_mono_r; lia.
Qed.
Lemma round_aux_correct s m l e N D a b P Q : 0 <= m -> rec_ok (shr_record_of_loc m l) N D -> e <= fexp 53 1024 (Zdigits2 m + e) ->
  0 <= a -> 0 <= b -> b - a = e + 1074 -> 0 < Q -> P * (D * 2 ^ a) = Q * (N * 2 ^ b) ->
  rounds (sg s * P) Q (binary_round_aux 53 1024 s m e l).
Proof.
  intros Hm Hrec He Ha Hb Hab HQ HP. unfold binary_round_aux, shr_fexp at 1. set (e' := fexp 53 1024 (Zdigits2 m + e)) in *. assert (Hed : e' = Z.max (Zdigits2 m + e - 53) (-1074)) by apply fexp_def. clearbody e'.
  destruct (shr_ok _ _ _ e (e' - e) Hrec ltac:(lia)) as (r & -> & Hr). replace (e + (e' - e)) with e' by lia.
  destruct (round_even _ _ _ Hr) as (HR & Hnear & Heven). set (R := round_nearest_even (shr_m r) (loc_of_shr_record r)) in *. fold (round_finish s R e').
  set (D' := 2 ^ (e' - e) * D) in *. set (t := e' + 1074).
  assert (Ht : 0 <= t) by (subst t; lia).
  destruct Hr as (HD' & Hrm & HND & _ & _). destruct Hrec as (HD & _ & Hmb & _ & _).
  assert (Hmr : shr_m (shr_record_of_loc m l) = m) by (destruct l as [|[]]; reflexivity). rewrite Hmr in Hmb.
  assert (HN : 0 <= N) by nia.
  assert (Hpk : 0 < 2 ^ (e' - e)) by (apply Z.pow_pos_nonneg; lia).
  (* the target in multiples *)
  assert (HPQ : P * D' = Q * (N * 2 ^ t)).
  { assert (Hpa : 0 < 2 ^ a) by (apply Z.pow_pos_nonneg; lia). apply (Z.mul_cancel_r _ _ (2 ^ a)); [lia|]. subst D'.
    replace (P * (2 ^ (e' - e) * D) * 2 ^ a) with (2 ^ (e' - e) * (P * (D * 2 ^ a))) by ring. rewrite HP.
    replace (Q * (N * 2 ^ t) * 2 ^ a) with (Q * N * (2 ^ t * 2 ^ a)) by ring. rewrite <- Z.pow_add_r by lia.
    replace (t + a) with ((e' - e) + b) by (subst t; lia). rewrite Z.pow_add_r by lia. ring. }
  (* how large the significand is *)
  destruct (Zdigits2_spec m Hm) as (Hd0 & Hmh & Hml).
  assert (Hhigh : N < 2 ^ 53 * D').
  { assert (H1 : N < 2 ^ Zdigits2 m * D) by nia. assert (H2 : 2 ^ Zdigits2 m <= 2 ^ 53 * 2 ^ (e' - e)) by (rewrite <- Z.pow_add_r by lia; apply Z.pow_le_mono_r; lia). subst D'. nia. }
  assert (Hlow : e' = -1074 \/ 2 ^ 52 * D' <= N).
  { destruct (Z.eq_dec e' (-1074)) as [|Hne]; [left; assumption|right]. assert (Hee : e' = Zdigits2 m + e - 53) by lia.
    destruct (Z.eq_dec m 0) as [Hm0|Hm0]; [subst m; cbn [Zdigits2] in *; lia|]. destruct (Hml ltac:(lia)) as (Hd1 & Hm1).
    assert (H2 : 2 ^ 52 * 2 ^ (e' - e) = 2 ^ (Zdigits2 m - 1)) by (rewrite <- Z.pow_add_r by lia; f_equal; lia). subst D'. nia. }
  assert (HRb : 0 <= R <= 2 ^ 53) by nia.
  assert (HRl : e' = -1074 \/ 2 ^ 52 <= R) by (destruct Hlow as [|Hlow]; [left; assumption|right; nia]).
  assert (Hpt : 0 < 2 ^ t) by (apply Z.pow_pos_nonneg; lia).
  (* nearness *)
  assert (Hcore : forall x, in_units x = sg s * (R * 2 ^ t) -> (Z.even R = true -> even_float x) -> nearest (sg s * P) Q x).
  { intros x Hx Hxe y Hy. rewrite Hx. assert (HfY : floatish (sg s * in_units y)).
    { destruct s; cbn [sg]; [replace (-1 * in_units y) with (- in_units y) by ring; apply floatish_opp|rewrite Z.mul_1_l]; apply double_floatish, Hy. }
    destruct (core N D' R t (sg s * in_units y) HD' HN Ht Hnear Heven ltac:(destruct Hlow; [left; subst t; lia|right; assumption]) HfY) as (C1 & C2).
    assert (A1 : Z.abs (sg s * (R * 2 ^ t) * Q - sg s * P) * D' = Z.abs (R * 2 ^ t * D' - N * 2 ^ t) * Q).
    { rewrite <- !abs_mul_r by lia. replace ((R * 2 ^ t * D' - N * 2 ^ t) * Q) with (R * 2 ^ t * D' * Q - Q * (N * 2 ^ t)) by ring. rewrite <- HPQ. destruct s; cbn [sg]; [rewrite <- Z.abs_opp|]; f_equal; ring. }
    assert (A2 : Z.abs (in_units y * Q - sg s * P) * D' = Z.abs (sg s * in_units y * D' - N * 2 ^ t) * Q).
    { rewrite <- !abs_mul_r by lia. replace ((sg s * in_units y * D' - N * 2 ^ t) * Q) with (sg s * in_units y * D' * Q - Q * (N * 2 ^ t)) by ring. rewrite <- HPQ. destruct s; cbn [sg]; [rewrite <- Z.abs_opp|]; f_equal; ring. }
    split; [apply (Z.mul_le_mono_pos_r _ _ D' HD'); rewrite A1, A2; apply Z.mul_le_mono_nonneg_r; lia|].
    intro He2. assert (He3 : Z.abs (R * 2 ^ t * D' - N * 2 ^ t) = Z.abs (sg s * in_units y * D' - N * 2 ^ t)).
    { apply (Z.mul_cancel_r _ _ Q); [lia|]. rewrite <- A1, <- A2, He2. reflexivity. }
    destruct (C2 He3) as [C|C]; [left; destruct s; cbn [sg] in *; lia|right; apply Hxe, C]. }
  assert (HP0 : 0 <= P) by (apply (Z.mul_le_mono_pos_r _ _ D' HD'); rewrite HPQ, Z.mul_0_l; apply Z.mul_nonneg_nonneg; [lia|apply Z.mul_nonneg_nonneg; lia]).
  assert (Hlim : Z.abs (sg s * P) * D' = N * 2 ^ t * Q).
  { replace (Z.abs (sg s * P)) with P by (destruct s; cbn [sg]; lia). rewrite HPQ. ring. }
  assert (Htop : forall k, float_top = k -> k * Q * D' = k * D' * Q) by (intros; ring).
  unfold rounds. set (T := float_top) in *. destruct top_powers as (W & HW & HT & Hpow). fold T in HT. clearbody T. destruct (Hpow t Ht) as (Hp1 & Hp2 & Hp3 & Hp4). clear Hpow.
  assert (Hsmall : N * 2 ^ t < T * D' -> Z.abs (sg s * P) < T * Q) by (intro; apply (Z.mul_lt_mono_pos_r D' _ _ HD'); rewrite Hlim, <- (Z.mul_assoc T Q), (Z.mul_comm Q), (Z.mul_assoc T); apply Z.mul_lt_mono_pos_r; lia).
  assert (Hbig : T * D' <= N * 2 ^ t -> T * Q <= Z.abs (sg s * P)) by (intro; apply (Z.mul_le_mono_pos_r _ _ D' HD'); rewrite Hlim, <- (Z.mul_assoc T Q), (Z.mul_comm Q), (Z.mul_assoc T); apply Z.mul_le_mono_nonneg_r; lia).
  assert (Hfin : e' <= 970 \/ e' = 971 /\ R < 2 ^ 53 -> N * 2 ^ t < T * D').
  { intros [Hf|(Hf & HRf)].
    - specialize (Hp1 ltac:(subst t; clear - Hf; lia)). rewrite HT. clear - Hp1 Hhigh HD' HN HW Hpt. nia.
    - rewrite (Hp3 ltac:(subst t; clear - Hf; lia)), HT.
      assert (H2N : 2 * N < (2 ^ 54 - 1) * D'); [|clear - H2N HW; nia]. destruct (Z.eq_dec R (2 ^ 53 - 1)) as [Eq|Hne]; [|clear - Hne HRf HRb Hnear HD'; nia].
      assert (2 * Z.abs (R * D' - N) <> D') by (intro Hc; apply Heven in Hc; rewrite Eq in Hc; discriminate). rewrite Eq in *. lia. }
  destruct (finish_ok s R e' HRb ltac:(lia) HRl) as [(HR0 & ->)|(m' & e2 & HRp & -> & Hval & Hcase & Hcan)].
  - left. split; [apply Hsmall, Hfin; clear - HR0 HRl; lia|]. split; [exact I|]. apply Hcore; [cbn [in_units]; rewrite HR0; ring|intros; exact I].
  - destruct (Zle_bool e2 971) eqn:Ele.
    + left. apply Zle_bool_imp_le in Ele. split; [apply Hsmall, Hfin; clear - Hcase Ele HRb; lia|]. split.
      * cbn [double valid_binary]. unfold bounded, canonical_mantissa. rewrite Hcan. apply andb_true_intro. split; [apply Zeq_is_eq_bool; reflexivity|apply Zle_imp_le_bool; clear - Ele; lia].
      * apply Hcore; [cbn [in_units]; rewrite Hval; reflexivity|]. intro Hev. cbn [even_float]. destruct Hcase as [(_ & -> & _)|(_ & _ & ->)]; [exact Hev|reflexivity].
    + assert (Hgt : 971 < e2) by (destruct (Z_lt_le_dec 971 e2) as [|Hc]; [assumption|apply Zle_imp_le_bool in Hc; congruence]). right.
      assert (Hb2 : T * D' <= N * 2 ^ t).
      { destruct Hcase as [(-> & _ & HRlt)|(-> & HR53 & _)].
        - destruct Hlow as [Hlow|Hlow]; [clear - Hlow Hgt; lia|]. specialize (Hp4 ltac:(subst t; clear - Hgt; lia)). rewrite HT. clear - Hp4 Hlow HD' HW HN Hpt. nia.
        - specialize (Hp2 ltac:(subst t; clear - Hgt; lia)). rewrite HR53 in Hnear. rewrite HT. assert (H2N : (2 ^ 54 - 1) * D' <= 2 * N) by (clear - Hnear; lia). clear - H2N Hp2 HW HN HD' Hpt. nia. }
      specialize (Hbig Hb2). destruct s; cbn [sg] in *; [right; split; [clear - Hbig HP0; lia|reflexivity]|left; split; [clear - Hbig HP0; lia|reflexivity]].
Qed.

(** ** Operations *)
Lemma rec_exact m : 0 <= m -> rec_ok (shr_record_of_loc m loc_Exact) m 1.
Proof.
  intro H. unfold rec_ok. cbn [shr_record_of_loc shr_m shr_r shr_s]. split; [lia|]. split; [lia|]. split; [lia|].
  split; (split; [discriminate|intro; lia]).
Qed.
Lemma double_small x : double x -> Z.abs (in_units x) < float_top.
Proof.
  destruct x as [s| | |s m e]; cbn [double]; try contradiction; intro H.
  - cbn [in_units]. unfold float_top. assert (0 < 2 ^ 2044) by (apply Z.pow_pos_nonneg; lia). lia.
  - destruct (double_bounds s m e H) as (Hm & He). destruct top_powers as (W & HW & -> & Hp). destruct (Hp 2045 ltac:(lia)) as (_ & _ & H45 & _). specialize (H45 eq_refl). clear Hp.
    assert (Hle : 2 ^ (e + 1074) <= 2 * W) by (rewrite <- H45; apply Z.pow_le_mono_r; lia). clear H45. assert (Hpos : 0 < 2 ^ (e + 1074)) by (apply Z.pow_pos_nonneg; lia).
    replace (Z.abs (in_units (S754_finite s m e))) with (Z.pos m * 2 ^ (e + 1074)).
    2:{ cbn [in_units]. rewrite Z.abs_mul. replace (Z.abs (if s then -1 else 1)) with 1 by (destruct s; reflexivity). rewrite Z.abs_eq; [ring|]. apply Z.mul_nonneg_nonneg; lia. }
    clear H He. set (X := 2 ^ (e + 1074)) in *. clearbody X. nia.
Qed.
Lemma double_rounds x : double x -> rounds (in_units x) 1 x.
Proof.
  intro H. left. split; [rewrite Z.mul_1_r; apply double_small, H|]. split; [exact H|]. intros y Hy. rewrite !Z.mul_1_r, Z.sub_diag. split; [lia|]. intro. left. lia.
Qed.
Lemma zero_rounds s Q : 0 < Q -> rounds 0 Q (S754_zero s).
Proof.
  intro HQ. left. split; [unfold float_top; assert (0 < 2 ^ 2044) by (apply Z.pow_pos_nonneg; lia); nia|]. split; [exact I|]. intros y Hy. cbn [in_units]. rewrite Z.mul_0_l, Z.sub_diag. split; [lia|]. right. exact I.
Qed.
Lemma binary_round_correct s m e a b P Q : 0 <= a -> 0 <= b -> b - a = e + 1074 -> 0 < Q -> P * 2 ^ a = Q * (Z.pos m * 2 ^ b) ->
  rounds (sg s * P) Q (binary_round 53 1024 s m e).
Proof.
  intros Ha Hb Hab HQ HP. unfold binary_round. set (e' := fexp 53 1024 (Z.pos (digits2_pos m) + e)).
  assert (Ed : e' = Z.max (Z.pos (digits2_pos m) + e - 53) (-1074)) by apply fexp_def. unfold shl_align. destruct (e' - e) as [|p|p] eqn:Ep.
  - eapply (round_aux_correct s (Z.pos m) loc_Exact e (Z.pos m) 1 a b); try assumption; [lia|apply rec_exact; lia|cbn [Zdigits2]; fold e'; lia|lia].
  - eapply (round_aux_correct s (Z.pos m) loc_Exact e (Z.pos m) 1 a b); try assumption; [lia|apply rec_exact; lia|cbn [Zdigits2]; fold e'; lia|lia].
  - assert (Hs : Z.pos (shift_pos p m) = Z.pos m * 2 ^ Z.pos p) by apply shift_value.
    eapply (round_aux_correct s _ loc_Exact e' (Z.pos (shift_pos p m)) 1 (a + Z.pos p) b); try assumption; [lia|apply rec_exact; lia| |lia|lia|].
    + cbn [Zdigits2]. rewrite digits2_shift. replace (Z.pos (digits2_pos m) + Z.pos p + e') with (Z.pos (digits2_pos m) + e) by lia. fold e'. lia.
    + rewrite Hs, Z.pow_add_r by lia. replace (P * (1 * (2 ^ a * 2 ^ Z.pos p))) with (P * 2 ^ a * 2 ^ Z.pos p) by ring. rewrite HP. ring.
Qed.
Lemma normalize_correct z e sz a b P Q : 0 <= a -> 0 <= b -> b - a = e + 1074 -> 0 < Q -> P * 2 ^ a = Q * (z * 2 ^ b) ->
  rounds P Q (binary_normalize 53 1024 z e sz).
Proof.
  intros Ha Hb Hab HQ HP. assert (Hpa : 0 < 2 ^ a) by (apply Z.pow_pos_nonneg; lia). destruct z as [|m|m]; cbn [binary_normalize].
  - assert (P = 0) by (rewrite Z.mul_0_l, Z.mul_0_r in HP; nia). subst P. apply zero_rounds, HQ.
  - replace P with (sg false * P) by (cbn [sg]; ring). apply (binary_round_correct false m e a b); assumption.
  - replace P with (sg true * (- P)) by (cbn [sg]; ring). apply (binary_round_correct true m e a b); try assumption.
    rewrite Z.mul_opp_l, HP. rewrite <- (Pos2Z.opp_pos m). ring.
Qed.
Lemma of_Z_rounds z : rounds (z * 2 ^ 1074) 1 (f64_of_Z z).
Proof. unfold f64_of_Z. apply (normalize_correct z 0 false 0 1074); lia. Qed.
Lemma align_value m e e' : e' <= e -> Z.pos (fst (shl_align m e e')) = Z.pos m * 2 ^ (e - e').
Proof.
  intro H. unfold shl_align. destruct (e' - e) as [|p|p] eqn:Ep; cbn [fst].
  - replace (e - e') with 0 by lia. rewrite Z.pow_0_r. ring.
  - lia.
  - rewrite shift_value. do 2 f_equal. lia.
Qed.
Lemma units_align s m e e' : -1074 <= e' <= e -> cond_Zopp s (Z.pos (fst (shl_align m e e'))) * 2 ^ (e' + 1074) = in_units (S754_finite s m e).
Proof.
  intro H. rewrite align_value by lia. cbn [in_units]. replace (e + 1074) with ((e - e') + (e' + 1074)) by lia. rewrite (Z.pow_add_r 2 (e - e') (e' + 1074)) by lia. destruct s; cbn [cond_Zopp]; ring.
Qed.
Lemma SFadd_correct x y : double x -> double y -> rounds (in_units x + in_units y) 1 (SFadd 53 1024 x y).
Proof.
  intros Hx Hy. destruct x as [s| | |s m e]; cbn [double] in Hx; try contradiction; destruct y as [s'| | |s' m' e']; cbn [double] in Hy; try contradiction.
  - cbn [SFadd in_units]. destruct (Bool.eqb s s'); apply zero_rounds; lia.
  - cbn [SFadd]. change (in_units (S754_zero s)) with 0. rewrite Z.add_0_l. apply (double_rounds (S754_finite s' m' e')). exact Hy.
  - cbn [SFadd]. change (in_units (S754_zero s')) with 0. rewrite Z.add_0_r. apply (double_rounds (S754_finite s m e)). exact Hx.
  - destruct (double_bounds s m e Hx) as (_ & He). destruct (double_bounds s' m' e' Hy) as (_ & He'). cbn [SFadd].
    apply (normalize_correct _ _ _ 0 (Z.min e e' + 1074)); try lia.
    rewrite Z.pow_0_r, Z.mul_1_r, Z.mul_1_l, Z.mul_add_distr_r, !units_align by lia. reflexivity.
Qed.
Lemma SFsub_correct x y : double x -> double y -> rounds (in_units x - in_units y) 1 (SFsub 53 1024 x y).
Proof.
  intros Hx Hy. destruct x as [s| | |s m e]; cbn [double] in Hx; try contradiction; destruct y as [s'| | |s' m' e']; cbn [double] in Hy; try contradiction.
  - cbn [SFsub in_units]. destruct (Bool.eqb s (negb s')); apply zero_rounds; lia.
  - cbn [SFsub]. replace (in_units (S754_zero s) - in_units (S754_finite s' m' e')) with (in_units (S754_finite (negb s') m' e')) by (cbn [in_units]; destruct s'; cbn [negb]; ring).
    apply double_rounds. exact Hy.
  - cbn [SFsub]. change (in_units (S754_zero s')) with 0. rewrite Z.sub_0_r. apply (double_rounds (S754_finite s m e)). exact Hx.
  - destruct (double_bounds s m e Hx) as (_ & He). destruct (double_bounds s' m' e' Hy) as (_ & He'). cbn [SFsub].
    apply (normalize_correct _ _ _ 0 (Z.min e e' + 1074)); try lia.
    rewrite Z.pow_0_r, Z.mul_1_r, Z.mul_1_l, Z.mul_sub_distr_r, !units_align by lia. reflexivity.
Qed.
Lemma units_finite s m e : in_units (S754_finite s m e) = sg s * (Z.pos m * 2 ^ (e + 1074)).
Proof. destruct s; reflexivity. Qed.
Lemma double_fexp s m e : double (S754_finite s m e) -> e = fexp 53 1024 (Z.pos (digits2_pos m) + e).
Proof.
  cbn [double valid_binary]. unfold bounded, canonical_mantissa. intro H. apply andb_prop in H. destruct H as [H1 _]. apply Zeq_bool_eq in H1. symmetry. exact H1.
Qed.
Lemma SFmul_correct x y : double x -> double y -> rounds (in_units x * in_units y) (2 ^ 1074) (SFmul 53 1024 x y).
Proof.
  intros Hx Hy. assert (HQ : 0 < 2 ^ 1074) by (apply Z.pow_pos_nonneg; lia).
  destruct x as [s| | |s m e]; cbn [double] in Hx; try contradiction; destruct y as [s'| | |s' m' e']; cbn [double] in Hy; try contradiction.
  - apply (zero_rounds (xorb s s')), HQ.
  - cbn [SFmul]. change (in_units (S754_zero s)) with 0. rewrite Z.mul_0_l. apply zero_rounds, HQ.
  - cbn [SFmul]. change (in_units (S754_zero s')) with 0. rewrite Z.mul_0_r. apply zero_rounds, HQ.
  - destruct (double_bounds s m e Hx) as (_ & He). destruct (double_bounds s' m' e' Hy) as (_ & He').
    pose proof (double_fexp s m e Hx) as Hf. pose proof (double_fexp s' m' e' Hy) as Hf'. rewrite fexp_def in Hf, Hf'. cbn [SFmul]. rewrite !units_finite.
    replace (sg s * (Z.pos m * 2 ^ (e + 1074)) * (sg s' * (Z.pos m' * 2 ^ (e' + 1074)))) with (sg (xorb s s') * (Z.pos (m * m') * (2 ^ (e + 1074) * 2 ^ (e' + 1074)))).
    2:{ rewrite Pos2Z.inj_mul. destruct s, s'; cbn [sg xorb]; ring. }
    rewrite <- Z.pow_add_r by lia.
    apply (round_aux_correct (xorb s s') _ loc_Exact (e + e') (Z.pos (m * m')) 1 1074 (e + 1074 + (e' + 1074))); try lia; [apply rec_exact; lia|].
    assert (Hd : Z.pos (digits2_pos m) + Z.pos (digits2_pos m') - 1 <= Zdigits2 (Z.pos (m * m'))).
    { replace (Z.pos (digits2_pos m) + Z.pos (digits2_pos m') - 1) with ((Z.pos (digits2_pos m) - 1) + (Z.pos (digits2_pos m') - 1) + 1) by lia.
      apply Zdigits2_ge; [lia|lia|]. rewrite Z.pow_add_r by lia. rewrite Pos2Z.inj_mul. apply Z.mul_le_mono_nonneg; try apply digits2_low; apply Z.pow_nonneg; lia. }
    rewrite fexp_def. lia.
Qed.
Lemma location_ok q r m : 0 < m -> 0 <= q -> 0 <= r < m -> rec_ok (shr_record_of_loc q (new_location m r)) (q * m + r) m.
Proof.
  intros Hm Hq Hr.
  assert (G : forall c l, (c = Z.compare (2 * r) m) -> l = (if Zeq_bool r 0 then loc_Exact else loc_Inexact c) -> rec_ok (shr_record_of_loc q l) (q * m + r) m).
  { intros c l -> ->. destruct (Zeq_bool r 0) eqn:Ez.
    - apply Zeq_bool_eq in Ez. subst r. rewrite Z.add_0_r. unfold rec_ok. cbn [shr_record_of_loc shr_m shr_r shr_s]. split; [lia|]. split; [lia|]. split; [lia|]. split; (split; [discriminate|intro; lia]).
    - apply Zeq_bool_neq in Ez. destruct (Z.compare_spec (2 * r) m) as [C|C|C]; unfold rec_ok; cbn [shr_record_of_loc shr_m shr_r shr_s]; (split; [lia|]); (split; [lia|]); (split; [lia|]);
        split; split; intro; try reflexivity; try discriminate; lia. }
  unfold new_location. destruct (Z.even m) eqn:Em.
  - eapply G; [reflexivity|]. reflexivity.
  - eapply G; [reflexivity|]. unfold new_location_odd. destruct (Zeq_bool r 0); [reflexivity|]. f_equal.
    assert (Hne : 2 * r <> m) by (intro Hc; rewrite <- Hc, Z.even_mul in Em; discriminate).
    destruct (Z.compare_spec (2 * r + 1) m), (Z.compare_spec (2 * r) m); try reflexivity; lia.
Qed.
Lemma SFdiv_correct x y : double x -> double y -> in_units y <> 0 ->
  rounds (Z.sgn (in_units y) * (in_units x * 2 ^ 1074)) (Z.abs (in_units y)) (SFdiv 53 1024 x y).
Proof.
  intros Hx Hy Hy0. destruct y as [s'| | |s' m' e']; cbn [double] in Hy; try contradiction; try (cbn in Hy0; congruence).
  destruct (double_bounds s' m' e' Hy) as (_ & He'). assert (Hp' : 0 < 2 ^ (e' + 1074)) by (apply Z.pow_pos_nonneg; lia). rewrite units_finite in *.
  replace (Z.abs (sg s' * (Z.pos m' * 2 ^ (e' + 1074)))) with (Z.pos m' * 2 ^ (e' + 1074)) by (destruct s'; cbn [sg]; nia).
  replace (Z.sgn (sg s' * (Z.pos m' * 2 ^ (e' + 1074)))) with (sg s') by (rewrite !Z.sgn_mul, (Z.sgn_pos (2 ^ _)) by lia; destruct s'; reflexivity).
  assert (HQ : 0 < Z.pos m' * 2 ^ (e' + 1074)) by nia.
  destruct x as [s| | |s m e]; cbn [double] in Hx; try contradiction.
  - cbn [SFdiv]. change (in_units (S754_zero s)) with 0. rewrite Z.mul_0_l, Z.mul_0_r. apply zero_rounds, HQ.
  - destruct (double_bounds s m e Hx) as (_ & He). rewrite units_finite. cbn [SFdiv]. unfold SFdiv_core_binary. cbn [Zdigits2].
    set (d := Z.pos (digits2_pos m)). set (d' := Z.pos (digits2_pos m')).
    set (ez := Z.min (fexp 53 1024 (d + e - (d' + e'))) (e - e')). set (k := e - e' - ez). assert (Hk : 0 <= k) by (subst k ez; lia).
    set (M := match k with 0 => Z.pos m | Z.pos _ => Z.shiftl (Z.pos m) k | Z.neg _ => 0 end).
    assert (HM : M = Z.pos m * 2 ^ k) by (subst M; destruct k; [rewrite Z.pow_0_r; ring|rewrite Z.shiftl_mul_pow2 by lia; reflexivity|lia]).
    clearbody M. pose proof (Z_div_mod M (Z.pos m') ltac:(lia)) as Hdm. destruct (Z.div_eucl M (Z.pos m')) as [q r]. destruct Hdm as (HMq & Hr).
    assert (Hpk : 0 < 2 ^ k) by (apply Z.pow_pos_nonneg; lia). assert (Hq : 0 <= q) by nia.
    replace (sg s' * (sg s * (Z.pos m * 2 ^ (e + 1074)) * 2 ^ 1074)) with (sg (xorb s s') * (Z.pos m * 2 ^ (e + 1074) * 2 ^ 1074)) by (destruct s, s'; cbn [sg xorb]; ring).
    apply (round_aux_correct (xorb s s') q _ ez M (Z.pos m') (Z.max 0 (- (ez + 1074))) (Z.max 0 (ez + 1074))); try lia.
    + replace M with (q * Z.pos m' + r) by lia. apply location_ok; lia.
    + (* enough digits *)
      pose proof (digits2_low m) as Hl. pose proof (digits2_high m') as Hh. fold d in Hl. fold d' in Hh.
      assert (Hd : d + e - (d' + e') <= Zdigits2 q + ez).
      { destruct (Z_lt_le_dec (d + k - d') 1) as [Hs|Hs]; [destruct (Zdigits2_spec q Hq) as (Hq0 & _); subst k; lia|].
        assert (Hq2 : 2 ^ (d + k - d' - 1) <= q).
        { assert (H1 : 2 ^ (d - 1) * 2 ^ k <= M) by (rewrite HM; apply Z.mul_le_mono_nonneg_r; lia). rewrite <- Z.pow_add_r in H1 by lia.
          assert (H2 : M < (q + 1) * 2 ^ d') by nia. replace (d - 1 + k) with ((d + k - d' - 1) + d') in H1 by lia. rewrite Z.pow_add_r in H1 by lia.
          assert (Hpd : 0 < 2 ^ d') by (apply Z.pow_pos_nonneg; lia). clear - H1 H2 Hpd. nia. }
        pose proof (Zdigits2_ge q (d + k - d' - 1) Hq ltac:(lia) Hq2). subst k. lia. }
      assert (Hez : ez <= fexp 53 1024 (d + e - (d' + e'))) by (subst ez; lia). rewrite fexp_def in *. lia.
    + rewrite HM. replace (Z.pos m * 2 ^ (e + 1074) * 2 ^ 1074 * (Z.pos m' * 2 ^ Z.max 0 (- (ez + 1074)))) with (Z.pos m * Z.pos m' * (2 ^ (e + 1074) * 2 ^ 1074 * 2 ^ Z.max 0 (- (ez + 1074)))) by ring.
      replace (Z.pos m' * 2 ^ (e' + 1074) * (Z.pos m * 2 ^ k * 2 ^ Z.max 0 (ez + 1074))) with (Z.pos m * Z.pos m' * (2 ^ (e' + 1074) * 2 ^ k * 2 ^ Z.max 0 (ez + 1074))) by ring.
      f_equal. rewrite <- !Z.pow_add_r by lia. f_equal. subst k. lia.
Qed.

(** ** Order, and float32 *)
Lemma units_sign s m e : double (S754_finite s m e) -> (if s then in_units (S754_finite s m e) < 0 else 0 < in_units (S754_finite s m e)).
Proof.
  intro H. destruct (double_bounds s m e H) as (_ & He). assert (0 < 2 ^ (e + 1074)) by (apply Z.pow_pos_nonneg; lia). cbn [in_units]. destruct s; nia.
Qed.
Lemma larger_exponent s m e s' m' e' : double (S754_finite s m e) -> double (S754_finite s' m' e') -> e < e' ->
  Z.pos m * 2 ^ (e + 1074) < Z.pos m' * 2 ^ (e' + 1074).
Proof.
  intros H H' Hlt. destruct (double_bounds _ _ _ H) as (Hm & He). destruct (double_bounds _ _ _ H') as (_ & He').
  pose proof (double_fexp _ _ _ H') as F. rewrite fexp_def in F. assert (Hd : Z.pos (digits2_pos m') = 53) by lia.
  assert (Hl : 2 ^ 52 <= Z.pos m'). { pose proof (digits2_low m') as L. rewrite Hd in L. exact L. }
  assert (Hp : 0 < 2 ^ (e + 1074)) by (apply Z.pow_pos_nonneg; lia).
  assert (Hq : 2 * 2 ^ (e + 1074) <= 2 ^ (e' + 1074)).
  { replace (2 * 2 ^ (e + 1074)) with (2 ^ (1 + (e + 1074))) by (rewrite Z.pow_add_r by lia; reflexivity). apply Z.pow_le_mono_r; lia. }
  clear - Hm Hl Hp Hq. set (a := 2 ^ (e + 1074)) in *. set (b := 2 ^ (e' + 1074)) in *. clearbody a b. change (2 ^ 53) with (2 * 2 ^ 52) in Hm. set (c := 2 ^ 52) in *. clearbody c. nia.
Qed.
Lemma SFcompare_units x y : double x -> double y -> SFcompare x y = Some (in_units x ?= in_units y).
Proof.
  intros Hx Hy. destruct x as [s| | |s m e]; cbn [double] in Hx; try contradiction; destruct y as [s'| | |s' m' e']; cbn [double] in Hy; try contradiction.
  - reflexivity.
  - pose proof (units_sign s' m' e' Hy) as Hs. cbn [SFcompare]. change (in_units (S754_zero s)) with 0. destruct s'; f_equal; symmetry; [apply Z.compare_gt_iff|apply Z.compare_lt_iff]; lia.
  - pose proof (units_sign s m e Hx) as Hs. cbn [SFcompare]. change (in_units (S754_zero s')) with 0. destruct s; f_equal; symmetry; [apply Z.compare_lt_iff|apply Z.compare_gt_iff]; lia.
  - pose proof (units_sign s m e Hx) as Hs. pose proof (units_sign s' m' e' Hy) as Hs'.
    assert (G : forall a b, Z.compare a b = Z.compare (a * 2 ^ (e + 1074)) (b * 2 ^ (e + 1074))).
    { intros a b. apply Zmult_compare_compat_r. apply Z.lt_gt, Z.pow_pos_nonneg; [lia|]. destruct (double_bounds s m e Hx); lia. }
    pose proof (fun H => larger_exponent s m e s' m' e' Hx Hy H) as L. pose proof (fun H => larger_exponent s' m' e' s m e Hy Hx H) as L'.
    cbn [SFcompare]. destruct s, s'.
    + f_equal. rewrite !units_finite in *. cbn [sg] in *. destruct (Z.compare_spec e e') as [->|He|He]; symmetry.
      * change (Pos.compare_cont Eq m m') with (Z.pos m ?= Z.pos m'). rewrite <- Z.compare_antisym, (G (Z.pos m') (Z.pos m)), <- (Z.compare_opp (Z.pos m * 2 ^ (e' + 1074))). generalize (2 ^ (e' + 1074)). clear. intro k. f_equal; ring.
      * apply Z.compare_gt_iff. specialize (L He). lia.
      * apply Z.compare_lt_iff. specialize (L' He). lia.
    + f_equal. symmetry. apply Z.compare_lt_iff. lia.
    + f_equal. symmetry. apply Z.compare_gt_iff. lia.
    + f_equal. rewrite !units_finite in *. cbn [sg] in *. rewrite !Z.mul_1_l in *. destruct (Z.compare_spec e e') as [->|He|He]; symmetry.
      * change (Pos.compare_cont Eq m m') with (Pos.compare m m'). change (Pos.compare m m') with (Z.compare (Z.pos m) (Z.pos m')). rewrite (G (Z.pos m) (Z.pos m')). reflexivity.
      * apply Z.compare_lt_iff. auto.
      * apply Z.compare_gt_iff. auto.
Qed.
Lemma f32_units f : valid_binary 24 128 f = true -> match f with S754_finite _ _ _ | S754_zero _ => True | _ => False end ->
  double (f64_of_f32 f) /\ in_units (f64_of_f32 f) = in_units f.
Proof.
  intros Hv Hf. destruct f as [s| | |s m e]; try contradiction; [split; [exact I|reflexivity]|].
  destruct (f32_valid_range _ _ _ Hv) as [Hd He]. destruct (round_general s m e Hd He) as (m' & e' & Hr & Hle & Hm).
  assert (Hn : f64_of_f32 (S754_finite s m e) = binary_round 53 1024 s m e) by (destruct s; reflexivity).
  assert (R : rounds (sg s * (Z.pos m * 2 ^ (e + 1074))) 1 (binary_round 53 1024 s m e)).
  { apply (binary_round_correct s m e 0 (e + 1074)); try lia. }
  rewrite Hn. rewrite Hr in R |- *. assert (Hdb : double (S754_finite s m' e')). { destruct R as [(_ & R & _)|[(_ & R)|(_ & R)]]; [exact R|discriminate R|discriminate R]. }
  split; [exact Hdb|]. destruct (double_bounds _ _ _ Hdb) as (_ & He'). rewrite !units_finite, Hm. replace (e + 1074) with ((e - e') + (e' + 1074)) by lia. rewrite (Z.pow_add_r 2 (e - e') (e' + 1074)) by lia. ring.
Qed.
(** ** The specification determines the number *)
Lemma between x y : double x -> double y -> even_float x -> even_float y -> 0 <= in_units x < in_units y -> exists z, double z /\ in_units x < in_units z < in_units y.
Proof.
  intros Hx Hy Ex Ey [H0 Hlt]. destruct y as [s'| | |s' m' e']; cbn [double] in Hy; try contradiction; [cbn [in_units] in Hlt; lia|].
  pose proof (units_sign s' m' e' Hy) as Hs'. destruct s'; [lia|]. destruct (double_bounds _ _ _ Hy) as (_ & He').
  destruct x as [s| | |s m e]; cbn [double] in Hx; try contradiction.
  - exists (S754_finite false 1 (-1074)). split; [reflexivity|]. replace (in_units (S754_finite false 1 (-1074))) with 1 by reflexivity. change (in_units (S754_zero s)) with 0 in *. split; [lia|].
    rewrite units_finite in *. cbn [sg even_float] in *. assert (0 < 2 ^ (e' + 1074)) by (apply Z.pow_pos_nonneg; lia). destruct m' as [p|p|]; [discriminate Ey| |discriminate Ey]. nia.
  - pose proof (units_sign s m e Hx) as Hs. destruct s; [lia|]. cbn [even_float] in Ex, Ey. destruct m as [p|p|]; [discriminate Ex| |discriminate Ex]. destruct m' as [p'|p'|]; [discriminate Ey| |discriminate Ey].
    assert (Hz : double (S754_finite false (xI p) e)) by exact Hx. exists (S754_finite false (xI p) e). split; [exact Hz|].
    destruct (double_bounds _ _ _ Hx) as (_ & He). assert (Hp : 0 < 2 ^ (e + 1074)) by (apply Z.pow_pos_nonneg; lia). rewrite !units_finite in *. cbn [sg] in *. rewrite !Z.mul_1_l in *. split; [nia|].
    destruct (Z.lt_trichotomy e e') as [Hl|[<-|Hl]].
    + apply (larger_exponent _ _ _ _ _ _ Hz Hy Hl).
    + clear - Hlt Hp. set (k := 2 ^ (e + 1074)) in *. clearbody k. rewrite (Pos2Z.inj_xI p), (Pos2Z.inj_xO p'). rewrite (Pos2Z.inj_xO p), (Pos2Z.inj_xO p') in Hlt. assert (Z.pos p < Z.pos p') by nia. nia.
    + pose proof (larger_exponent _ _ _ _ _ _ Hy Hx Hl). lia.
Qed.
Lemma opp_double x : double x -> double (SFopp x) /\ in_units (SFopp x) = - in_units x /\ (even_float x -> even_float (SFopp x)).
Proof.
  destruct x as [s| | |s m e]; cbn [double]; try contradiction; intro H; cbn [SFopp double]; (split; [exact H|]); (split; [|auto]); [reflexivity|]. rewrite !units_finite. destruct s; cbn [negb sg]; ring.
Qed.
Lemma between_any x y : double x -> double y -> even_float x -> even_float y -> in_units x < in_units y -> exists z, double z /\ in_units x < in_units z < in_units y.
Proof.
  intros Hx Hy Ex Ey H. destruct (Z_le_gt_dec 0 (in_units x)) as [Hp|Hn]; [apply between; auto|].
  destruct (Z_le_gt_dec (in_units y) 0) as [Hq|Hq].
  - destruct (opp_double x Hx) as (Dx & Ux & Fx). destruct (opp_double y Hy) as (Dy & Uy & Fy).
    destruct (between (SFopp y) (SFopp x)) as (z & Hz & Hb); auto; [lia|]. destruct (opp_double z Hz) as (Dz & Uz & _). exists (SFopp z). split; [exact Dz|lia].
  - exists (S754_zero false). split; [exact I|]. change (in_units (S754_zero false)) with 0. lia.
Qed.
Lemma nearest_units P Q x y : 0 < Q -> double x -> double y -> nearest P Q x -> nearest P Q y -> in_units x <= in_units y -> in_units x = in_units y.
Proof.
  intros HQ Hx Hy Nx Ny Hle. destruct (Z.eq_dec (in_units x) (in_units y)) as [|Hne]; [assumption|]. exfalso.
  destruct (Nx y Hy) as (L1 & T1). destruct (Ny x Hx) as (L2 & T2). assert (Ha : Z.abs (in_units x * Q - P) = Z.abs (in_units y * Q - P)) by lia.
  destruct (T1 Ha) as [?|E1]; [congruence|]. destruct (T2 (eq_sym Ha)) as [?|E2]; [congruence|].
  destruct (between_any x y Hx Hy E1 E2 ltac:(lia)) as (z & Hz & Hb). destruct (Nx z Hz) as (L3 & _). clear - HQ Ha L3 Hb Hne.
  generalize dependent (in_units x). generalize dependent (in_units y). generalize dependent (in_units z). intros c b a Hb Ha Hne Hd.
  assert (a * Q < c * Q < b * Q) by nia. lia.
Qed.
Lemma rounds_fun P Q x y : 0 < Q -> rounds P Q x -> rounds P Q y -> x = y \/ double x /\ double y /\ in_units x = in_units y.
Proof.
  intros HQ Hx Hy. assert (Ht : 0 < float_top * Q). { apply Z.mul_pos_pos; [|exact HQ]. unfold float_top. assert (0 < 2 ^ 2044) by (apply Z.pow_pos_nonneg; lia). lia. }
  set (W := float_top * Q) in *. destruct Hx as [(A & Dx & Nx)|[(A & ->)|(A & ->)]], Hy as [(B & Dy & Ny)|[(B & ->)|(B & ->)]]; try (left; reflexivity); try (exfalso; fold W in A, B; clearbody W; lia).
  right. split; [exact Dx|]. split; [exact Dy|]. destruct (Z_le_gt_dec (in_units x) (in_units y)); [apply (nearest_units P Q x y); assumption|]. symmetry. apply (nearest_units P Q y x); try assumption. clear - g. lia.
Qed.

(** ** The conversion of the operands *)
Lemma of_Z_double z : in64 z -> double (f64_of_Z z).
Proof.
  intro H. assert (Hs : Z.abs (z * 2 ^ 1074) < float_top * 1).
  { unfold float_top. replace (2 ^ 2044) with (2 ^ 970 * 2 ^ 1074) by (rewrite <- Z.pow_add_r by lia; reflexivity).
    assert (Hp : 0 < 2 ^ 1074) by (apply Z.pow_pos_nonneg; lia). assert (Hq : 2048 <= 2 ^ 970) by (apply (Z.pow_le_mono_r 2 11 970); lia).
    rewrite Z.abs_mul, (Z.abs_eq (2 ^ 1074)) by lia. assert (Hz : Z.abs z < 2 ^ 64) by (unfold in64 in H; lia). clear H. rewrite Z.mul_1_r, Z.mul_assoc. apply Z.mul_lt_mono_pos_r; [exact Hp|].
    set (k := 2 ^ 970) in *. clearbody k. lia. }
  destruct (of_Z_rounds z) as [(_ & D & _)|[(L & _)|(L & _)]]; [exact D| |]; exfalso; clear H; set (t := float_top * 1) in *; set (u := z * 2 ^ 1074) in *; clearbody t u; lia.
Qed.
Definition as_float {P} (v : value P) : option spec_float :=
  match v_int64 v with Some i => Some (f64_of_Z i) | None => v_float64 v end.
Lemma as_float_number {P} (v : value P) x : as_number v x -> exists x', as_float v = Some x' /\ double x' /\ double x /\ in_units x' = in_units x.
Proof.
  destruct 1 as [k z x Hz Hr|f x Hf Hx Hu|x Hx]; unfold as_float; cbn [v_int64 v_float64]; eexists; (split; [reflexivity|]).
  - rewrite wrap64_id by exact Hz. split; [apply of_Z_double, Hz|]. destruct (rounds_fun _ 1 _ _ eq_refl (of_Z_rounds z) Hr) as [<-|(_ & Hd & He)]; [|auto]. split; [apply of_Z_double, Hz|reflexivity].
  - destruct (f32_units f) as (D & U); [destruct f; try contradiction; try exact Hf; reflexivity|destruct f; try contradiction; exact I|]. split; [exact D|]. split; [exact Hx|congruence].
  - auto.
Qed.
Lemma number_exists {P} (v : value P) : match v with VInt _ z => in64 z | VF32 f => single f | VF64 x => double x | _ => False end -> exists x, as_number v x.
Proof.
  destruct v as [| | | |k z|f|x| | | |]; try contradiction; intro H.
  - exists (f64_of_Z z). constructor; [exact H|apply of_Z_rounds].
  - destruct (f32_units f) as (D & U); [destruct f; try contradiction; try exact H; reflexivity|destruct f; try contradiction; exact I|]. exists (f64_of_f32 f). constructor; assumption.
  - exists x. constructor. exact H.
Qed.
