(** C71: arithmetic and comparison with floating point numbers and texts. *)
From Verif Require Import Base Value Graph GraphSpec TextSpec TypesSpec TypesFacts NumFacts FloatFacts RoundSpec RoundFacts Eval EvalSpec EvalFacts Samples P_Eval.

Lemma calc_floats {E v w x y x' y'} op : ~ (int_value v /\ int_value w) -> as_float v = Some x' -> as_float w = Some y' -> as_number v x -> as_number w y -> calc E v w op = calc_float E op x' y'.
Proof.
  intros Hw Hv Hw' Nv Nw. destruct Nv, Nw; unfold as_float in *; cbn [v_int64 v_float64] in *; try (exfalso; apply Hw; split; exact I);
    injection Hv as <-; injection Hw' as <-; reflexivity.
Qed.
(** ** C71 A sum, difference, product or quotient with a float is the float64 nearest to the
    exact result of the operands, which are first converted to float64. *)
Theorem C71_floats : forall E v w x y, as_number v x -> as_number w y -> ~ (int_value v /\ int_value w) ->
  (exists r, calc E v w "+" = Ok (VF64 r) /\ rounds (in_units x + in_units y) 1 r) /\
  (exists r, calc E v w "-" = Ok (VF64 r) /\ rounds (in_units x - in_units y) 1 r) /\
  (exists r, calc E v w "*" = Ok (VF64 r) /\ rounds (in_units x * in_units y) (2 ^ 1074) r) /\
  (in_units y <> 0 -> exists r, calc E v w "/" = Ok (VF64 r) /\ rounds (Z.sgn (in_units y) * (in_units x * 2 ^ 1074)) (Z.abs (in_units y)) r).
Proof.
  intros E v w x y Hv Hw Hn. destruct (as_float_number v x Hv) as (x' & Ex & Dx & _ & <-). destruct (as_float_number w y Hw) as (y' & Ey & Dy & _ & <-).
  split; [|split; [|split; [|intro H0]]]; rewrite (calc_floats _ Hn Ex Ey Hv Hw); eexists; (split; [reflexivity|]).
  - apply SFadd_correct; assumption.
  - apply SFsub_correct; assumption.
  - apply SFmul_correct; assumption.
  - apply SFdiv_correct; assumption.
Qed.
Print Assumptions C71_floats.
(** The operands and the results are determined by that, but for the sign of zero. *)
Theorem C71_determined : forall P Q x y, 0 < Q -> rounds P Q x -> rounds P Q y -> x = y \/ double x /\ double y /\ in_units x = in_units y.
Proof. exact rounds_fun. Qed.
Print Assumptions C71_determined.
Theorem C71_operands : forall (v : value graph), match v with VInt _ z => in64 z | VF32 f => single f | VF64 x => double x | _ => False end ->
  exists x, as_number v x /\ double x.
Proof. intros v H. destruct (number_exists v H) as (x & Hx). exists x. split; [exact Hx|]. destruct (as_float_number v x Hx) as (_ & _ & _ & D & _). exact D. Qed.
Print Assumptions C71_operands.
(** Division by zero gives an infinity, or NaN for 0/0; it does not panic. *)
Theorem C71_zero : forall E v w x y, as_number v x -> as_number w y -> ~ (int_value v /\ int_value w) -> in_units y = 0 ->
  exists r, calc E v w "/" = Ok (VF64 r) /\ (in_units x = 0 -> r = S754_nan) /\ (in_units x <> 0 -> exists s, r = S754_infinity s).
Proof.
  intros E v w x y Hv Hw Hn H0. destruct (as_float_number v x Hv) as (x' & Ex & Dx & _ & <-). destruct (as_float_number w y Hw) as (y' & Ey & Dy & _ & Uy). rewrite <- Uy in H0.
  rewrite (calc_floats _ Hn Ex Ey Hv Hw). eexists. split; [reflexivity|]. destruct y' as [s'| | |s' m' e']; cbn [double] in Dy; try contradiction.
  2:{ pose proof (units_sign s' m' e' Dy). destruct s'; lia. }
  destruct x' as [s| | |s m e]; cbn [double] in Dx; try contradiction; cbn [SFdiv].
  - split; [reflexivity|]. intro H. exfalso. apply H. reflexivity.
  - split; [|eauto]. intro H. pose proof (units_sign s m e Dx). destruct s; lia.
Qed.
Print Assumptions C71_zero.
(** The remainder is that of the integer parts. *)
Lemma part_of_units x : double x -> integer_part x (Z.quot (in_units x) (2 ^ 1074)).
Proof.
  intro H. destruct x as [s| | |s m e]; cbn [double] in H; try contradiction.
  - exists s, 0, 1. change (in_units (S754_zero s)) with 0. rewrite Z.quot_0_l by (apply Z.pow_nonzero; lia). repeat split; try reflexivity; lia.
  - destruct (double_bounds s m e H) as (_ & He). exists s, (Z.pos m * 2 ^ Z.max e 0), (2 ^ Z.max (- e) 0). split; [repeat split|].
    assert (HD : 0 < 2 ^ 1074) by (apply Z.pow_pos_nonneg; lia). assert (Hb : 0 < 2 ^ Z.max (- e) 0) by (apply Z.pow_pos_nonneg; lia).
    assert (Hs : Z.pos m * 2 ^ (e + 1074) * 2 ^ Z.max (- e) 0 = Z.pos m * 2 ^ Z.max e 0 * 2 ^ 1074).
    { rewrite <- !Z.mul_assoc. f_equal. rewrite <- !Z.pow_add_r by lia. f_equal. lia. }
    set (N := Z.pos m * 2 ^ (e + 1074)) in *. assert (HN : 0 < N) by (apply Z.mul_pos_pos; [lia|apply Z.pow_pos_nonneg; lia]).
    replace (in_units (S754_finite s m e)) with (sg s * N) by (symmetry; apply units_finite). clearbody N.
    set (D := 2 ^ 1074) in *. set (b := 2 ^ Z.max (- e) 0) in *. set (a := Z.pos m * 2 ^ Z.max e 0) in *. clearbody D a b. clear H He.
    pose proof (Z.quot_pos N D ltac:(lia) HD) as Hq. pose proof (Z.quot_rem' N D) as Hr. pose proof (Z.rem_bound_pos N D ltac:(lia) HD) as Hr'.
    assert (Ha : Z.abs (sg s * N ÷ D) = N ÷ D).
    { destruct s; cbn [sg]; [replace (-1 * N) with (- N) by ring; rewrite Z.quot_opp_l, Z.abs_opp by lia|rewrite Z.mul_1_l]; lia. }
    rewrite Ha. set (q := N ÷ D) in *. split; [|split; intro; subst s; cbn [sg]; [replace (-1 * N) with (- N) by ring; rewrite Z.quot_opp_l by lia; fold q; lia|rewrite Z.mul_1_l; fold q; lia]].
    set (r := Z.rem N D) in *. clearbody q r. clear Ha. split.
    + apply (Z.mul_le_mono_pos_r _ _ D HD). rewrite <- Hs. nia.
    + apply (Z.mul_lt_mono_pos_r D _ _ HD). rewrite <- Hs. nia.
Qed.
Theorem C71_remainder : forall E v w x y a b, as_number v x -> as_number w y -> ~ (int_value v /\ int_value w) ->
  a = Z.quot (in_units x) (2 ^ 1074) -> b = Z.quot (in_units y) (2 ^ 1074) -> in64 a -> in64 b ->
  (b <> 0 -> exists q r, truncated a b q r /\ calc E v w "%" = Ok (VInt KInt r)) /\
  (b = 0 -> calc E v w "%" = Panic).
Proof.
  intros E v w x y a b Hv Hw Hn Ha Hb Ia Ib. destruct (as_float_number v x Hv) as (x' & Ex & Dx & _ & Ux). destruct (as_float_number w y Hw) as (y' & Ey & Dy & _ & Uy).
  rewrite (calc_floats _ Hn Ex Ey Hv Hw).
  change (calc_float E "%" x' y') with (if f2i E y' =? 0 then Panic else Ok (VInt (P:=graph) KInt (Z.rem (f2i E x') (f2i E y')))).
  assert (Fa : f2i E x' = a) by (apply f2i_part; [rewrite Ha, <- Ux; apply part_of_units, Dx|exact Ia]).
  assert (Fb : f2i E y' = b) by (apply f2i_part; [rewrite Hb, <- Uy; apply part_of_units, Dy|exact Ib]).
  rewrite Fa, Fb. split; intro H.
  - exists (Z.quot a b), (Z.rem a b). split; [apply truncated_quot, H|]. replace (b =? 0) with false by lia. reflexivity.
  - rewrite H. reflexivity.
Qed.
Print Assumptions C71_remainder.
(** A float as the divisor that is less than 1 makes % panic: 5 % 0.5. *)
Definition half : spec_float := S754_finite false 4503599627370496 (-53).
Theorem C71_remainder_refuted : exists E v w x y, as_number v x /\ as_number w y /\ in_units y <> 0 /\ calc E v w "%" = Panic.
Proof.
  exists env0, (VInt KInt 5), (VF64 half), (f64_of_Z 5), half. split; [constructor; [unfold in64; lia|apply of_Z_rounds]|].
  split; [constructor; reflexivity|]. split; [intro H; pose proof (units_sign _ _ _ (eq_refl : double half)) as Hs; unfold half in H; rewrite H in Hs; lia|reflexivity].
Qed.
Print Assumptions C71_remainder_refuted.
Example C71_ex : as_number (VF64 half : value graph) half /\ as_number (VInt KInt 7 : value graph) (f64_of_Z 7) /\
  calc env0 (VF64 half) (VInt KInt 7) "+" = Ok (VF64 (S754_finite false 8444249301319680 (-50))) /\
  calc env0 (VInt KInt 7) (VF64 half) "/" = Ok (VF64 (f64_of_Z 14)) /\
  calc env0 (VInt KInt 7) (VF64 (f64_of_Z 4)) "%" = Ok (VInt KInt 3) /\
  (* 2^53 + 1 is no float64: it is rounded to 2^53 before 0.5 is added *)
  calc env0 (VInt KInt 9007199254740993) (VF64 half) "-" = Ok (VF64 (S754_finite false 4503599627370496 1)).
Proof.
  split; [constructor; reflexivity|]. split; [constructor; [unfold in64; lia|apply of_Z_rounds]|]. repeat split; vm_compute; reflexivity.
Qed.

(** Two operands that are no numbers: their texts are joined by +, and nothing else is
    supported. *)
Lemma text_like_none v : text_like v -> v_int64 v = None /\ v_float64 v = None.
Proof. destruct v; try contradiction; split; reflexivity. Qed.
Theorem C71_texts : forall E v w s t op, text_like v -> text_like w -> vstring E v = Ok s -> vstring E w = Ok t ->
  calc E v w "+" = Ok (VStr (s ++ t)) /\ (op <> "+"%byte -> calc E v w op = Ok VNil).
Proof.
  intros E v w s t op Hv Hw Hs Ht.
  assert (G : forall o, calc E v w o = if beq o "+" then Ok (VStr (s ++ t)) else Ok VNil).
  { intro o. unfold calc. destruct (text_like_none v Hv) as [-> ->]. destruct (text_like_none w Hw) as [-> ->]. rewrite Hs. cbn [rbind]. rewrite Ht. reflexivity. }
  rewrite !G. split; [reflexivity|]. intro H. destruct (beq op "+") eqn:Ho; [|reflexivity]. apply beq_eq in Ho. contradiction.
Qed.
Print Assumptions C71_texts.
(** A number and then a text: the text is read as a float64, and as 0 if it is none. *)
Theorem C71_text_second : forall E v w t op x, as_number v x -> text_like w -> vstring E w = Ok t ->
  calc E v w op = calc E v (VF64 (match parse_float E t with Some y => y | None => S754_zero false end)) op.
Proof.
  intros E v w t op x Hv Hw Ht. unfold calc, v_float64f. destruct (text_like_none w Hw) as [-> ->]. rewrite Ht. destruct Hv; reflexivity.
Qed.
Print Assumptions C71_text_second.
(** A text and then a number: whatever the operator, the texts are joined.  The claim that a
    numeric text is converted, as documented, is therefore false. *)
Theorem C71_text_first : forall E v w s t op x, text_like v -> as_number w x -> vstring E v = Ok s -> vstring E w = Ok t ->
  calc E v w op = Ok (VStr (s ++ t)).
Proof.
  intros E v w s t op x Hv Hw Hs Ht. unfold calc. destruct (text_like_none v Hv) as [-> ->]. rewrite Hs. cbn [rbind]. rewrite Ht. destruct Hw; reflexivity.
Qed.
Print Assumptions C71_text_first.
Theorem C71_numeric_text_refuted : exists E s z w, numeral s z /\ calc E (VStr s) (VInt KInt w) "+" <> Ok (VInt KInt64 (z + w)) /\
  (forall x, calc E (VStr s) (VInt KInt w) "+" <> Ok (VF64 x)) /\ calc E (VStr s) (VInt KInt w) "-" = Ok (VStr (bs "31")).
Proof.
  exists env0, (bs "3"), 3, 1. split; [|repeat split; discriminate].
  apply (proj1 (parse_int_iff (bs "3") 3)). reflexivity.
Qed.
Print Assumptions C71_numeric_text_refuted.
Example C71_texts_ex : text_like (VStr (bs "ab")) /\ text_like (VBool true) /\ calc env0 (VStr (bs "ab")) (VBool true) "+" = Ok (VStr (bs "abtrue")) /\
  calc env0 (VStr (bs "ab")) (VBool true) "-" = Ok VNil /\ calc env0 (VInt KInt 4) (VStr (bs "x")) "+" = Ok (VF64 (f64_of_Z 4)) /\
  calc env0 (VStr (bs "ab")) (VInt KInt 4) "*" = Ok (VStr (bs "ab4")).
Proof. repeat split; vm_compute; reflexivity. Qed.

(** ** C42 with floats: if the left operand is a float, the two are compared as float64. *)
Theorem C42_floats : forall E v w x y, as_number v x -> as_number w y -> ~ int_value v ->
  let a := in_units x in let b := in_units y in
  compare_ E v w "=" = Ok (a =? b) /\ compare_ E v w "!" = Ok (negb (a =? b)) /\
  compare_ E v w "<" = Ok (a <? b) /\ compare_ E v w ">" = Ok (b <? a) /\
  compare_ E v w "-" = Ok (a <=? b) /\ compare_ E v w "+" = Ok (b <=? a).
Proof.
  intros E v w x y Hv Hw Hn a b. destruct (as_float_number v x Hv) as (x' & Ex & Dx & _ & Ux). destruct (as_float_number w y Hw) as (y' & Ey & Dy & _ & Uy).
  assert (G : forall op, compare_ E v w op = Ok (cmp_float op x' y')).
  { intro op. destruct Hv; [exfalso; apply Hn; exact I| |]; destruct Hw; unfold as_float in *; cbn [v_int64 v_float64] in *; injection Ex as <-; injection Ey as <-; reflexivity. }
  rewrite !G. change (cmp_float "=" x' y') with (SFeqb x' y'). change (cmp_float "!" x' y') with (negb (SFeqb x' y')). change (cmp_float "<" x' y') with (SFltb x' y').
  change (cmp_float ">" x' y') with (SFltb y' x'). change (cmp_float "-" x' y') with (SFleb x' y'). change (cmp_float "+" x' y') with (SFleb y' x').
  unfold SFeqb, SFltb, SFleb. rewrite (SFcompare_units x' y' Dx Dy), (SFcompare_units y' x' Dy Dx), Ux, Uy. fold a b. clearbody a b.
  unfold Z.ltb, Z.leb. rewrite (Z.eqb_compare a b). destruct (a ?= b); destruct (b ?= a); repeat split; reflexivity.
Qed.
Print Assumptions C42_floats.
Example C42_floats_ex : as_number (VF64 half : value graph) half /\ compare_ env0 (VF64 half) (VInt KInt 1) "<" = Ok true /\ compare_ env0 (VF64 half) (VF64 half) "=" = Ok true.
Proof. split; [constructor; reflexivity|]. split; vm_compute; reflexivity. Qed.

(** ** Operands that are not finite *)
(** A float64, finite or not, or an integer or finite float32 *)
Inductive any_number : value graph -> Prop :=
| any_num v x : as_number v x -> any_number v
| any_inf s : any_number (VF64 (S754_infinity s))
| any_nan : any_number (VF64 S754_nan).
Lemma calc_left {E x w y y'} op : as_float w = Some y' -> as_number w y -> calc E (VF64 x) w op = calc_float E op x y'.
Proof. intros H N. destruct N; unfold as_float in H; cbn [v_int64 v_float64] in H; injection H as <-; reflexivity. Qed.
Lemma calc_right {E x w y y'} op : as_float w = Some y' -> as_number w y -> calc E w (VF64 x) op = calc_float E op y' x.
Proof. intros H N. destruct N; unfold as_float in H; cbn [v_int64 v_float64] in H; injection H as <-; reflexivity. Qed.
Theorem C71_infinite_left : forall E s w y, as_number w y ->
  calc E (VF64 (S754_infinity s)) w "+" = Ok (VF64 (S754_infinity s)) /\ calc E (VF64 (S754_infinity s)) w "-" = Ok (VF64 (S754_infinity s)) /\
  (in_units y <> 0 -> calc E (VF64 (S754_infinity s)) w "*" = Ok (VF64 (S754_infinity (xorb s (in_units y <? 0)))) /\
                      calc E (VF64 (S754_infinity s)) w "/" = Ok (VF64 (S754_infinity (xorb s (in_units y <? 0))))) /\
  (in_units y = 0 -> calc E (VF64 (S754_infinity s)) w "*" = Ok (VF64 S754_nan) /\ exists s', calc E (VF64 (S754_infinity s)) w "/" = Ok (VF64 (S754_infinity s'))).
Proof.
  intros E s w y Hw. destruct (as_float_number w y Hw) as (y' & Ey & Dy & _ & <-). rewrite !(calc_left _ Ey Hw).
  destruct y' as [s'| | |s' m' e']; cbn [double] in Dy; try contradiction; (split; [reflexivity|]); (split; [reflexivity|]).
  - split; [intro H; exfalso; apply H; reflexivity|]. intros _. split; [reflexivity|]. eexists. reflexivity.
  - pose proof (units_sign s' m' e' Dy) as Hs. split; [|intro H; destruct s'; lia]. intros _. replace (in_units (S754_finite s' m' e') <? 0) with s' by (destruct s'; lia). split; reflexivity.
Qed.
Print Assumptions C71_infinite_left.
Theorem C71_infinite_right : forall E s w y, as_number w y ->
  calc E w (VF64 (S754_infinity s)) "+" = Ok (VF64 (S754_infinity s)) /\ calc E w (VF64 (S754_infinity s)) "-" = Ok (VF64 (S754_infinity (negb s))) /\
  (in_units y <> 0 -> calc E w (VF64 (S754_infinity s)) "*" = Ok (VF64 (S754_infinity (xorb s (in_units y <? 0))))) /\
  (in_units y = 0 -> calc E w (VF64 (S754_infinity s)) "*" = Ok (VF64 S754_nan)) /\
  exists r, calc E w (VF64 (S754_infinity s)) "/" = Ok (VF64 r) /\ double r /\ in_units r = 0.
Proof.
  intros E s w y Hw. destruct (as_float_number w y Hw) as (y' & Ey & Dy & _ & <-). rewrite !(calc_right _ Ey Hw).
  destruct y' as [s'| | |s' m' e']; cbn [double] in Dy; try contradiction; (split; [reflexivity|]); (split; [reflexivity|]).
  - split; [intro H; exfalso; apply H; reflexivity|]. split; [reflexivity|]. eexists. split; [reflexivity|]. split; [exact I|reflexivity].
  - pose proof (units_sign s' m' e' Dy) as Hs. split; [intros _; replace (in_units (S754_finite s' m' e') <? 0) with s' by (destruct s'; lia); rewrite Bool.xorb_comm; reflexivity|].
    split; [intro H; destruct s'; lia|]. eexists. split; [reflexivity|]. split; [exact I|reflexivity].
Qed.
Print Assumptions C71_infinite_right.
Theorem C71_infinities : forall E s t, let c := calc E (VF64 (S754_infinity s)) (VF64 (S754_infinity t)) in
  c "+"%byte = Ok (VF64 (if Bool.eqb s t then S754_infinity s else S754_nan)) /\
  c "-"%byte = Ok (VF64 (if Bool.eqb s t then S754_nan else S754_infinity s)) /\
  c "*"%byte = Ok (VF64 (S754_infinity (xorb s t))) /\ c "/"%byte = Ok (VF64 S754_nan).
Proof. intros E [] [] c; repeat split; reflexivity. Qed.
Print Assumptions C71_infinities.
(** NaN: the result is NaN, and of the comparisons only != is true. *)
Theorem C71_nan : forall E v, any_number v ->
  (forall op, In op ["+"; "-"; "*"; "/"]%byte -> calc E (VF64 S754_nan) v op = Ok (VF64 S754_nan) /\ calc E v (VF64 S754_nan) op = Ok (VF64 S754_nan)) /\
  (forall op, In op ["="; "<"; ">"; "-"; "+"]%byte -> compare_ E (VF64 S754_nan) v op = Ok false) /\
  compare_ E (VF64 S754_nan) v "!" = Ok true.
Proof.
  intros E v Hv. assert (G : exists y, as_float v = Some y /\ (forall op, calc E (VF64 S754_nan) v op = calc_float E op S754_nan y) /\ (forall op, calc E v (VF64 S754_nan) op = calc_float E op y S754_nan) /\ (forall op, compare_ E (VF64 S754_nan) v op = Ok (cmp_float op S754_nan y))).
  { destruct Hv as [v x H|s|]; [destruct H as [k z x Hz Hr|f x Hf Hd Hu|x Hd]| |]; eexists; (split; [reflexivity|]); repeat split; reflexivity. }
  destruct G as (y & _ & G1 & G2 & G3). split; [|split].
  - intros op Hop. rewrite G1, G2. repeat (destruct Hop as [<-|Hop]); try contradiction Hop; (split; [reflexivity|destruct y; reflexivity]).
  - intros op Hop. rewrite G3. repeat (destruct Hop as [<-|Hop]); try contradiction Hop; destruct y; reflexivity.
  - rewrite G3. destruct y; reflexivity.
Qed.
Print Assumptions C71_nan.
(** Infinities compare beyond all numbers. *)
Theorem C71_infinite_order : forall E s w y, as_number w y ->
  let c := compare_ E (VF64 (S754_infinity s)) w in
  c "="%byte = Ok false /\ c "!"%byte = Ok true /\ c "<"%byte = Ok s /\ c "-"%byte = Ok s /\ c ">"%byte = Ok (negb s) /\ c "+"%byte = Ok (negb s).
Proof.
  intros E s w y Hw c. destruct (as_float_number w y Hw) as (y' & Ey & Dy & _ & _).
  assert (G : forall op, c op = Ok (cmp_float op (S754_infinity s) y')).
  { intro op. destruct Hw; unfold as_float in Ey; cbn [v_int64 v_float64] in Ey; injection Ey as <-; reflexivity. }
  rewrite !G. destruct y' as [s'| | |s' m' e']; cbn [double] in Dy; try contradiction; destruct s; repeat split; reflexivity.
Qed.
Print Assumptions C71_infinite_order.
Example C71_infinite_ex : calc env0 (VF64 (S754_infinity true)) (VInt KInt (-3)) "*" = Ok (VF64 (S754_infinity false)) /\
  calc env0 (VInt KInt 1) (VF64 (S754_zero false)) "/" = Ok (VF64 (S754_infinity false)) /\
  compare_ env0 (VF64 (S754_infinity true)) (VInt KInt (-3)) "<" = Ok true /\ any_number (VF64 S754_nan).
Proof. repeat split; try (vm_compute; reflexivity). constructor. Qed.
