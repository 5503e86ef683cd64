(** Facts about the conversions of gettypes.go. *)
From Verif Require Import Base Value TextSpec NumFacts TypesSpec.

Lemma parse_digits_some s : forall a z, parse_digits s a = Some z -> Forall (fun c => 48 <= bz c <= 57) s.
Proof.
  induction s as [|c s IH]; intros a z H; cbn in H; [constructor|]. destruct (latin1_digit (bz c)) eqn:Hc; [|discriminate].
  constructor; [apply latin1_digit_iff; exact Hc|]. eapply IH. exact H.
Qed.
Lemma parse_nat_some s z : parse_nat s = Some z -> digits s /\ number_of s = z.
Proof.
  intros H. assert (Hd : digits s).
  { unfold parse_nat in H. destruct s as [|c s]; [discriminate|]. split; [discriminate|]. eapply parse_digits_some. exact H. }
  split; [exact Hd|]. rewrite (parse_nat_val s Hd) in H. congruence.
Qed.
Lemma parse_int_iff s z : parse_int s = Some z <-> numeral s z.
Proof.
  split.
  - destruct s as [|c s]; [discriminate|]. unfold parse_int. destruct (beq_spec c "-"%byte) as [->|Hm].
    + destruct (parse_nat s) as [n|] eqn:Hn; [|discriminate]. destruct (parse_nat_some _ _ Hn) as [Hd <-].
      destruct (Z.leb_spec (number_of s) (2 ^ 63)); [|discriminate]. intros [= <-]. constructor; assumption.
    + destruct (beq_spec c "+"%byte) as [->|Hp].
      * destruct (parse_nat s) as [n|] eqn:Hn; [|discriminate]. destruct (parse_nat_some _ _ Hn) as [Hd <-].
        destruct (Z.ltb_spec (number_of s) (2 ^ 63)); [|discriminate]. intros [= <-]. constructor; assumption.
      * destruct (parse_nat (c :: s)) as [n|] eqn:Hn; [|discriminate]. destruct (parse_nat_some _ _ Hn) as [Hd <-].
        destruct (Z.ltb_spec (number_of (c :: s)) (2 ^ 63)); [|discriminate]. intros [= <-]. constructor; assumption.
  - destruct 1 as [s Hd Hn|s Hd Hn|s Hd Hn].
    + apply parse_int_val; assumption.
    + unfold parse_int. change (beq "+" "-") with false. change (beq "+" "+") with true. cbv iota.
      rewrite (parse_nat_val s Hd). apply Z.ltb_lt in Hn. rewrite Hn. reflexivity.
    + apply parse_int_neg; assumption.
Qed.
Lemma numeral_fun s z z' : numeral s z -> numeral s z' -> z = z'.
Proof. rewrite <- !parse_int_iff. congruence. Qed.
Lemma format_numeral z : in64 z -> numeral (format_int z) z.
Proof. intros H. apply parse_int_iff, parse_format. exact H. Qed.

(** ** Int64 *)
Lemma Int64_text E t v s k o def : (v = VStr s \/ v = VBytes s) ->
  exists r, Int64 E (Some (Node t (Some (Node v k) :: o))) def = Ok r /\
    (forall z, numeral s z -> r = z) /\
    ((forall z, ~ numeral s z) -> r = match def with Some d => d | None => 0 end).
Proof.
  intros Hv. unfold Int64, Interface. cbn [this rbind].
  assert (H : v_int64f E v = Ok (parse_int s)) by (destruct Hv as [-> | ->]; reflexivity). rewrite H. cbn [rbind].
  eexists. split; [reflexivity|]. split.
  - intros z Hz. apply parse_int_iff in Hz. rewrite Hz. reflexivity.
  - intros Hn. destruct (parse_int s) as [z|] eqn:Hp; [|reflexivity]. exfalso. apply (Hn z), parse_int_iff, Hp.
Qed.

(** ** Number and Scalar *)
Lemma drop_digits s : Forall (fun c => 48 <= bz c <= 57) s -> drop_while is_digit s = [].
Proof.
  induction 1 as [|c s H _ IH]; [reflexivity|]. cbn. unfold is_digit. apply latin1_digit_iff in H. rewrite H. exact IH.
Qed.
Lemma digit_not_space c : 48 <= bz c <= 57 -> is_space c = false /\ beq c "-" = false /\ is_digit c = true.
Proof.
  intros H. unfold is_space, is_digit. split; [lia|]. split; [|apply latin1_digit_iff; exact H].
  apply beq_neq. intros ->. cbn in H. lia.
Qed.
Lemma isInteger_format z : isInteger (format_int z) = Ok true.
Proof.
  unfold format_int. destruct (Z.ltb_spec z 0).
  - destruct (format_nat_spec (- z) ltac:(lia)) as ((Hne & Hd) & _). destruct (format_nat (- z)) as [|c s]; [congruence|].
    cbn. inversion Hd as [|? ? Hc Hs]; subst. destruct (digit_not_space c Hc) as (_ & _ & ->). rewrite drop_digits by exact Hs. reflexivity.
  - destruct (format_nat_spec z ltac:(lia)) as ((Hne & Hd) & _). destruct (format_nat z) as [|c s]; [congruence|].
    inversion Hd as [|? ? Hc Hs]; subst. destruct (digit_not_space c Hc) as (H1 & H2 & H3). cbn. rewrite H1, H2, H3, drop_digits by exact Hs. reflexivity.
Qed.
Lemma format_int_cons z : exists c s, format_int z = c :: s.
Proof.
  pose proof (isInteger_format z) as H. destruct (format_int z) as [|c s]; [discriminate H|eauto].
Qed.
Lemma number_format E v z : in64 z -> (v = VStr (format_int z) \/ v = VBytes (format_int z)) -> number E v = Ok (VInt KInt64 z).
Proof.
  intros Hz Hv. assert (H : number E v = (let* s := Ok (format_int z) in match s with
              | [] => Ok VNil
              | _ =>
                  let* b := isInteger s in
                  if b then Ok match parse_int s with Some n => VInt KInt64 n | None => VNil end
                  else Ok match parse_float E s with Some f => VF64 f | None => VNil end
              end)) by (destruct Hv as [-> | ->]; reflexivity).
  rewrite H. cbn [rbind]. rewrite isInteger_format. destruct (format_int_cons z) as (c & s & He). rewrite He. cbn [rbind].
  rewrite <- He, parse_format by exact Hz. reflexivity.
Qed.
Lemma Scalar_format E t v k o z : in64 z -> (v = VStr (format_int z) \/ v = VBytes (format_int z)) ->
  Scalar E (Node t (Some (Node v k) :: o)) = Ok (VInt KInt64 z).
Proof. intros Hz Hv. unfold Scalar, Interface. cbn [this rbind]. unfold scalar_of. rewrite (number_format E v z Hz Hv). reflexivity. Qed.
Lemma ThisScalar_format E v k z : in64 z -> (v = VStr (format_int z) \/ v = VBytes (format_int z)) ->
  ThisScalar E (Node v k) = Ok (VInt KInt64 z).
Proof.
  intros Hz Hv. pose proof (number_format E v z Hz Hv) as H.
  destruct Hv as [-> | ->]; unfold ThisScalar; cbn [this rbind]; unfold scalar_of; rewrite H; reflexivity.
Qed.
Lemma number_int E k z : in64 z -> number E (VInt k z) = Ok (VInt KInt64 z) /\ v_int64f E (VInt k z) = Ok (Some z).
Proof. intros Hz. unfold number, v_int64f. cbn. rewrite wrap64_id by exact Hz. auto. Qed.

(** ** Scalar never fails, blank texts excepted *)
Lemma drop_spaces s : drop_while is_space s = [] -> Forall (fun c => c = x20 \/ c = x09) s.
Proof.
  induction s as [|c s IH]; [constructor|]. cbn. destruct (is_space c) eqn:Hc; [|discriminate]. intros H. constructor; [|auto].
  unfold is_space in Hc. apply orb_true_iff in Hc as [Hc|Hc]; apply Z.eqb_eq in Hc; [left|right]; apply bz_inj; rewrite Hc; reflexivity.
Qed.
Lemma isInteger_ok s : ~ blank s -> is_ok (isInteger s).
Proof.
  intros H. unfold isInteger. destruct s as [|c s]; [eexists; reflexivity|]. destruct (drop_while is_space (c :: s)) as [|d r] eqn:Hd.
  - exfalso. apply H. split; [discriminate|]. apply drop_spaces. exact Hd.
  - destruct (if beq d "-" then r else d :: r) as [|e r']; [eexists; reflexivity|]. destruct (is_digit e); eexists; reflexivity.
Qed.
Lemma isInteger_blank s : blank s -> isInteger s = Panic.
Proof.
  intros (Hn & H). assert (Hd : drop_while is_space s = []).
  { clear Hn. induction H as [|c s Hc _ IH]; [reflexivity|]. cbn. destruct Hc as [-> | ->]; exact IH. }
  unfold isInteger. destruct s; [congruence|]. rewrite Hd. reflexivity.
Qed.
Lemma number_ok E v s : vstring E v = Ok s -> ~ blank s -> is_ok (number E v).
Proof.
  intros Hs Hb. unfold number. destruct v as [| | | | | | |p| | |]; cbn [v_float64 v_int64]; try (eexists; reflexivity);
    rewrite Hs; cbn [rbind]; (destruct s as [|c s]; [eexists; reflexivity|]); destruct (isInteger_ok _ Hb) as (bb & ->); cbn [rbind]; destruct bb; eexists; reflexivity.
Qed.
Lemma scalar_of_ok E v s : vstring E v = Ok s -> ~ blank s -> is_ok (scalar_of E v).
Proof. intros Hs Hb. unfold scalar_of. destruct (number_ok E v s Hs Hb) as (n & ->). cbn [rbind]. destruct n; eexists; reflexivity. Qed.
Lemma number_blank E v s : (v = VStr s \/ v = VBytes s) -> blank s -> number E v = Panic.
Proof.
  intros Hv Hb. pose proof Hb as (Hn & _). destruct s as [|c s]; [congruence|].
  destruct Hv as [-> | ->]; unfold number, vstring, sstring, v_float64, v_int64; cbn [rbind]; rewrite (isInteger_blank _ Hb); reflexivity.
Qed.
