(** C76: the getters of a node. *)
From Verif Require Import Base Value Views TextSpec TypesSpec TypesFacts Getters Samples.

(** ** C76 Full claim: the getters without This in their name return for a node what those with This
    return for its first subnode; a default is returned exactly when there is no value of the type; and
    Number is the integer of every text of an integer, blanks around it allowed. *)

(** [or_default r d x]: the answer of a getter with a default, given that of the getter without *)
Inductive or_default {A} (d : A) : res (option A) -> res A -> Prop :=
| given x : or_default d (Ok (Some x)) (Ok x)
| default : or_default d (Ok None) (Ok d)
| panics : or_default d Panic Panic.
Theorem C76_agree : forall E t c o, let g := Some (Node t (Some c :: o)) in
  Bytes E g = ThisBytes E (Some c) /\ Number E g = ThisNumber E (Some c) /\
  (forall d d', String_def E g d = ThisString_def E (Some c) d') /\
  (forall d, or_default d (ThisInt64 E (Some c)) (Int64 E g (Some d))) /\ or_default 0 (ThisInt64 E (Some c)) (Int64 E g None) /\
  (this c <> VNil -> Scalar E (Node t (Some c :: o)) = ThisScalar E c).
Proof.
  intros E t [v k] o g. split; [reflexivity|]. split; [reflexivity|]. split; [reflexivity|].
  assert (H : forall d, or_default (match d with Some d => d | None => 0 end) (ThisInt64 E (Some (Node v k))) (Int64 E g d)).
  { intro d. unfold ThisInt64, Int64, g. cbn [This Interface this rbind]. destruct (v_int64f E v) as [[z|]| |] eqn:Hv; cbn [rbind]; try constructor.
    exfalso. unfold v_int64f in Hv. destruct v as [| | | | | | |[p|]| | |]; discriminate. }
  split; [intro d; apply (H (Some d))|]. split; [apply (H None)|].
  unfold Scalar, ThisScalar. cbn [this Interface]. destruct v; try reflexivity. intro K. exfalso. apply K. reflexivity.
Qed.
Print Assumptions C76_agree.
Example C76_agree_ex : Int64 env0 (Some (nd "x" [nd "-12" []])) (Some 7) = Ok (-12) /\ Int64 env0 (Some (nd "x" [nd "1 2" []])) (Some 7) = Ok 7 /\
  ThisInt64 env0 (Some (nd "-12" [])) = Ok (Some (-12)) /\ Number env0 (Some (nd "x" [nd "0012" []])) = Ok (VInt KInt64 12).
Proof. repeat split. Qed.
(** Without subnodes, or on nil *)
Theorem C76_nothing : forall E g, g = None \/ (exists v, g = Some (Node v [])) ->
  Bytes E g = Ok [] /\ Number E g = Ok VNil /\ (forall d, Int64 E g (Some d) = Ok d) /\ Int64 E g None = Ok 0 /\
  (forall d, parse_float E [] = None -> Float64_def E g (Some d) = Ok d) /\ (parse_float E [] = None -> Float64_def E g None = Ok S754_nan) /\
  (forall d, Bool_ E g (Some d) = Ok d) /\ Bool_ E g None = Ok false.
Proof.
  intros E g Hg. assert (Hf : forall d, parse_float E [] = None -> Float64_def E g d = Ok match d with Some d => d | None => S754_nan end).
  { intros d H. assert (Hs : String_def E g None = Ok []) by (destruct Hg as [->|(v & ->)]; reflexivity). unfold Float64_def. rewrite Hs. cbn [rbind]. unfold v_float64f. cbn. rewrite H. reflexivity. }
  repeat split; try (destruct Hg as [->|(v & ->)]; reflexivity).
  - intros d H. apply (Hf (Some d) H).
  - intro H. apply (Hf None H).
Qed.
Print Assumptions C76_nothing.

(** On nil String and ThisString return the default, or nothing. *)
Theorem C76_string : forall E, (forall d, String_def E None (Some d) = Ok d /\ ThisString_def E None (Some d) = Ok d) /\ String_def E None None = Ok [] /\ ThisString_def E None None = Ok [].
Proof. intros E. repeat split. Qed.
Print Assumptions C76_string.
(** But String ignores the default when the node is there and its value is not. *)
Theorem C76_string_refuted : forall E v d, String_def E (Some (Node v [])) d = Ok [].
Proof. reflexivity. Qed.
Print Assumptions C76_string_refuted.
(** The other getters with This in their name panic on nil, where those without it do not. *)
Theorem C76_nil_refuted : forall E, ThisBytes E None = Panic /\ ThisNumber E None = Panic /\ ThisInt64 E None = Panic /\ ThisFloat64 E None = Panic.
Proof. intros E. repeat split. Qed.
Print Assumptions C76_nil_refuted.

(** Float64 reads the printed content, ThisFloat64 the content itself. *)
Definition prints_back (E : env) (v : value graph) : Prop :=
  match v with
  | VInt _ z => parse_float E (format_int z) = Some (f64_of_Z (wrap64 z))
  | VF64 f => parse_float E (sprint_f64 E f) = Some f
  | VF32 f => parse_float E (sprint_f32 E f) = Some (f64_of_f32 f)
  | _ => True
  end.
Lemma gstring_fuel E : forall p, gstring E p <> NoFuel.
Proof. fix IH 1. intros [tt oo] K. destruct oo as [|[[w kk]|] oo]; try discriminate. cbn [gstring] in K. destruct w as [| | | | | | |[q|]| | |]; try discriminate. exact (IH q K). Qed.
Theorem C76_float_partial : forall E t c o d, prints_back E (this c) -> let g := Some (Node t (Some c :: o)) in
  or_default d (ThisFloat64 E (Some c)) (Float64_def E g (Some d)) /\ or_default S754_nan (ThisFloat64 E (Some c)) (Float64_def E g None).
Proof.
  intros E t [v k] o d Hb g.
  assert (H : forall d, or_default (match d with Some d => d | None => S754_nan end) (ThisFloat64 E (Some (Node v k))) (Float64_def E g d)).
  { clear d. intro d. unfold ThisFloat64, Float64_def, String_def, g. cbn [This this rbind gstring]. cbn [this prints_back] in Hb.
    assert (Hs : forall s, or_default (match d with Some d => d | None => S754_nan end) (Ok (parse_float E s)) (let* s := Ok s in let* n := v_float64f E (VStr s) in Ok match n with Some f => f | None => match d with Some d => d | None => S754_nan end end)).
    { intro s. cbn [rbind]. unfold v_float64f. cbn. destruct (parse_float E s); constructor. }
    destruct v as [|s|s|b|i z|f|f|[p|]|i|i|i]; try apply Hs.
    - specialize (Hs (format_int z)). rewrite Hb in Hs. exact Hs.
    - specialize (Hs (sprint_f32 E f)). rewrite Hb in Hs. exact Hs.
    - specialize (Hs (sprint_f64 E f)). rewrite Hb in Hs. exact Hs.
    - unfold v_float64f. cbn [v_float64 v_int64 vstring]. destruct (gstring E p) as [s| |] eqn:E0; cbn [rbind]; [apply Hs|constructor|].
      exfalso. exact (gstring_fuel E p E0). }
  split; [apply (H (Some d))|apply (H None)].
Qed.
Print Assumptions C76_float_partial.
Example C76_float_ex : prints_back env0 (VStr (bs "x")).
Proof. exact I. Qed.
(** A float32 is printed with fewer digits: Float64 of the float32 0.1 is the float64 0.1, ThisFloat64 is
    0.10000000149011612.  (Go prints the float32 13421773 / 2^27 as 0.1, and the float64 nearest to 0.1 is
    7205759403792794 / 2^56.) *)
Definition env_tenth : env := {|
  sprint_f32 _ := bs "0.1"; sprint_f64 _ := bs "0.1"; sprint_fun _ := bs "0xf"; sprint_obj _ := bs "0xc0";
  sprint_other _ := bs "{}"; parse_float s := if bseq s (bs "0.1") then Some (S754_finite false 7205759403792794 (-56)) else None; f2i_out _ := - 2 ^ 63; ptr_eq _ _ := false;
  hi_letter _ := false; hi_digit _ := false |}.
Theorem C76_float32_refuted : let c := Node (VF32 (S754_finite false 13421773 (-27))) [] in let g := Some (Node (VStr (bs "x")) [Some c]) in
  exists x y, ThisFloat64 env_tenth (Some c) = Ok (Some x) /\ Float64_def env_tenth g None = Ok y /\ SFcompare y x = Some Lt.
Proof. cbv zeta. eexists _, _. split; [vm_compute; reflexivity|]. split; [vm_compute; reflexivity|vm_compute; reflexivity]. Qed.
Print Assumptions C76_float32_refuted.
(** Bool reads the printed content: it never sees a number as true. *)
Theorem C76_bool_partial : forall E t c o s, vstring E (this c) = Ok s -> let g := Some (Node t (Some c :: o)) in
  (s = bs "true" -> forall d, Bool_ E g d = Ok true) /\ (s = bs "false" -> forall d, Bool_ E g d = Ok false) /\
  (s <> bs "true" -> s <> bs "false" -> (forall d, Bool_ E g (Some d) = Ok d) /\ Bool_ E g None = Ok false).
Proof.
  intros E t [v k] o s Hs g. assert (H : forall d, Bool_ E g d = Ok match v_boolf (VStr s) with Some b => b | None => match d with Some d => d | None => false end end).
  { intro d. unfold Bool_, g. replace (String_ E (Some (Node t (Some (Node v k) :: o)))) with (Ok s) by (symmetry; exact Hs). reflexivity. }
  split; [intros -> d; rewrite H; reflexivity|]. split; [intros -> d; rewrite H; reflexivity|]. intros H1 H2. unfold v_boolf in H.
  destruct (bseq_spec s (bs "false")) as [->|_]; [congruence|]. destruct (bseq_spec s (bs "true")) as [->|_]; [congruence|]. split; [intro d; apply (H (Some d))|apply (H None)].
Qed.
Print Assumptions C76_bool_partial.

(** ** Number on texts *)
Definition blanks (s : bytes) : Prop := Forall (fun c => c = x20 \/ c = x09) s.
(** [s] is a row of digits, perhaps with a minus sign, with the blanks b1 before and b2 after it. *)
Inductive integer_text (b1 b2 : bytes) : bytes -> Z -> Prop :=
| it_plain d : blanks b1 -> blanks b2 -> digits d -> integer_text b1 b2 (b1 ++ d ++ b2) (number_of d)
| it_minus d : blanks b1 -> blanks b2 -> digits d -> integer_text b1 b2 (b1 ++ "-"%byte :: d ++ b2) (- number_of d).
Lemma drop_blanks b : forall s, blanks b -> drop_while is_space (b ++ s) = drop_while is_space s.
Proof. induction b as [|c b IH]; intros s H; [reflexivity|]. inversion H as [|? ? Hc Hb]; subst. cbn [app drop_while]. destruct Hc as [->| ->]; cbn; apply IH, Hb. Qed.
Lemma blanks_forallb b : blanks b -> forallb is_space b = true.
Proof. induction 1 as [|c b [->| ->] H IH]; [reflexivity| |]; cbn; exact IH. Qed.
Lemma drop_digits_app d : forall s, Forall (fun c => 48 <= bz c <= 57) d -> blanks s -> drop_while is_digit (d ++ s) = s.
Proof.
  induction d as [|c d IH]; intros s H Hs.
  - cbn [app]. destruct Hs as [|c s [->| ->] Hs]; reflexivity.
  - inversion H as [|? ? Hc Hd]; subst. cbn [app drop_while]. destruct (digit_not_space c Hc) as (_ & _ & ->). apply IH; assumption.
Qed.
Lemma digits_space d : digits d -> exists c d', d = c :: d' /\ is_space c = false /\ beq c "-" = false /\ is_digit c = true /\ Forall (fun c => 48 <= bz c <= 57) d'.
Proof. intros (H1 & H2). destruct d as [|c d]; [congruence|]. inversion H2 as [|? ? Hc Hd]; subst. destruct (digit_not_space c Hc) as (K1 & K2 & K3). exists c, d. auto. Qed.
Lemma isInteger_text b1 b2 s z : integer_text b1 b2 s z -> isInteger s = Ok true.
Proof.
  intro H. assert (Hs : forall u, isInteger (b1 ++ u) = match b1 ++ u with [] => Ok false | _ => match drop_while is_space (b1 ++ u) with [] => Panic | c :: s' => let body := if beq c "-" then s' else c :: s' in match body with d :: body' => if is_digit d then Ok (forallb is_space (drop_while is_digit body')) else Ok false | [] => Ok false end end end) by reflexivity.
  destruct H as [d H1 H2 H3|d H1 H2 H3]; rewrite Hs, (drop_blanks b1) by exact H1; destruct (digits_space d H3) as (c & d' & -> & K1 & K2 & K3 & K4).
  - cbn [app drop_while]. rewrite K1. cbv zeta. rewrite K2, K3. rewrite (drop_digits_app d' b2 K4 H2), (blanks_forallb b2 H2). destruct (b1 ++ c :: d' ++ b2) eqn:E0; [destruct b1; discriminate|reflexivity].
  - cbn [app drop_while]. cbv zeta. change (is_space "-"%byte) with false. cbv iota. change (beq "-" "-") with true. cbv iota. rewrite K3. rewrite (drop_digits_app d' b2 K4 H2), (blanks_forallb b2 H2).
    destruct (b1 ++ "-"%byte :: c :: d' ++ b2) eqn:E0; [destruct b1; discriminate|reflexivity].
Qed.
Lemma drop_split p : forall s, exists a, s = a ++ drop_while p s /\ Forall (fun c => p c = true) a.
Proof.
  induction s as [|c s (a & IH1 & IH2)]; [exists []; auto|]. cbn [drop_while]. destruct (p c) eqn:Hp; [|exists []; auto]. exists (c :: a). split; [cbn [app]; f_equal; exact IH1|constructor; assumption].
Qed.
Lemma is_space_blank c : is_space c = true -> c = x20 \/ c = x09.
Proof. intro H. assert (K : drop_while is_space [c] = []) by (cbn [drop_while]; rewrite H; reflexivity). apply drop_spaces in K. inversion K; assumption. Qed.
Lemma is_digit_range c : is_digit c = true -> 48 <= bz c <= 57.
Proof. unfold is_digit, latin1_digit. lia. Qed.
Lemma isInteger_true s : isInteger s = Ok true -> exists b1 b2 z, integer_text b1 b2 s z.
Proof.
  intro H. destruct (drop_split is_space s) as (b1 & Es & Hb1). unfold isInteger in H. destruct s as [|x s]; [discriminate|]. set (S := x :: s) in *. destruct (drop_while is_space S) as [|c u] eqn:Ed; [discriminate|]. clearbody S.
  assert (B1 : blanks b1) by (eapply Forall_impl; [|exact Hb1]; intros; apply is_space_blank; assumption).
  assert (K : forall d body', is_digit d = true -> forallb is_space (drop_while is_digit body') = true -> exists ds b2, d :: body' = ds ++ b2 /\ digits ds /\ blanks b2).
  { intros d body' Hd Hf. destruct (drop_split is_digit body') as (a & E1 & E2). exists (d :: a), (drop_while is_digit body'). split; [cbn [app]; f_equal; exact E1|]. split.
    - split; [discriminate|]. constructor; [apply is_digit_range, Hd|]. eapply Forall_impl; [|exact E2]. intros; apply is_digit_range; assumption.
    - rewrite forallb_forall in Hf. apply Forall_forall. intros y Hy. apply is_space_blank, Hf, Hy. }
  cbv zeta in H. destruct (beq_spec c "-") as [->|Hc].
  - destruct u as [|d u]; [discriminate|]. destruct (is_digit d) eqn:Hd; [|discriminate]. injection H as H. destruct (K d u Hd H) as (ds & b2 & E1 & E2 & E3). exists b1, b2, (- number_of ds). rewrite Es, E1. constructor; assumption.
  - destruct (is_digit c) eqn:Hd; [|discriminate]. injection H as H. destruct (K c u Hd H) as (ds & b2 & E1 & E2 & E3). exists b1, b2, (number_of ds). rewrite Es, E1. constructor; assumption.
Qed.
Lemma number_text E v s : v = VStr s \/ v = VBytes s -> s <> [] -> number E v = let* b := isInteger s in
  if b then Ok match parse_int s with Some n => VInt KInt64 n | None => VNil end else Ok match parse_float E s with Some f => VF64 f | None => VNil end.
Proof. intros [->| ->] Hs; unfold number; cbn; destruct s; congruence. Qed.
Lemma number_nonneg d : Forall (fun c => 48 <= bz c <= 57) d -> 0 <= number_of d.
Proof.
  unfold number_of. intro H. assert (K : forall a, 0 <= a -> 0 <= fold_left (fun a c => 10 * a + (bz c - 48)) d a); [|apply K; lia].
  induction H as [|c d Hc Hd IH]; intros a Ha; cbn [fold_left]; [exact Ha|]. apply IH. lia.
Qed.
Lemma numeral_chars s z : numeral s z -> Forall (fun c => c <> x20 /\ c <> x09) s.
Proof.
  assert (K : forall d, digits d -> Forall (fun c => c <> x20 /\ c <> x09) d).
  { intros d (_ & H). eapply Forall_impl; [|exact H]. intros c Hc. split; intros ->; cbn in Hc; lia. }
  destruct 1 as [s H _|s H _|s H _]; [apply K, H| |]; constructor; try (split; discriminate); apply K, H.
Qed.
Theorem C76_number_partial : forall E v s z, v = VStr s \/ v = VBytes s -> integer_text [] [] s z ->
  (in64 z -> number E v = Ok (VInt KInt64 z)) /\ (~ in64 z -> number E v = Ok VNil).
Proof.
  intros E v s z Hv H. assert (Hs : s <> []) by (intros ->; pose proof (isInteger_text _ _ _ _ H) as K; discriminate K).
  rewrite (number_text E v s Hv Hs), (isInteger_text _ _ _ _ H). cbn [rbind].
  assert (Hn : in64 z -> numeral s z).
  { intro Hz. unfold in64 in Hz. inversion H as [d _ _ Hd E1 E2|d _ _ Hd E1 E2]; cbn [app] in *; rewrite app_nil_r in *.
    - apply num_plain; [exact Hd|lia].
    - apply num_minus; [exact Hd|lia]. }
  split; intro Hz.
  - apply Hn, parse_int_iff in Hz. rewrite Hz. reflexivity.
  - destruct (parse_int s) as [z'|] eqn:Hp; [|reflexivity]. exfalso. apply parse_int_iff in Hp. apply Hz. unfold in64. inversion H as [d _ _ Hd E1 E2|d _ _ Hd E1 E2]; cbn [app] in *; rewrite app_nil_r in *; subst s.
    + pose proof (number_nonneg d (proj2 Hd)). inversion Hp as [s' Hd' Hl|s' Hd' Hl E3|s' Hd' Hl E3]; subst; [lia| |]; destruct Hd as (_ & Hd); inversion Hd as [|? ? Hc _]; subst; cbn in Hc; lia.
    + pose proof (number_nonneg d (proj2 Hd)). inversion Hp as [s' Hd' Hl E3|s' Hd' Hl E3|s' Hd' Hl E3]; subst; [|lia]. destruct Hd' as (_ & Hd'). inversion Hd' as [|? ? Hc _]; subst; cbn in Hc; lia.
Qed.
Print Assumptions C76_number_partial.
Theorem C76_number_other : forall E v s, v = VStr s \/ v = VBytes s -> s <> [] -> ~ blank s -> (forall b1 b2 z, ~ integer_text b1 b2 s z) ->
  number E v = Ok match parse_float E s with Some f => VF64 f | None => VNil end.
Proof.
  intros E v s Hv Hs Hb H. rewrite (number_text E v s Hv Hs). destruct (isInteger s) as [[|]| |] eqn:Ei; cbn [rbind].
  - destruct (isInteger_true s Ei) as (b1 & b2 & z & Hi). destruct (H b1 b2 z Hi).
  - reflexivity.
  - pose proof (isInteger_ok s Hb) as K. rewrite Ei in K. destruct K as (? & ?). discriminate.
  - pose proof (isInteger_ok s Hb) as K. rewrite Ei in K. destruct K as (? & ?). discriminate.
Qed.
Print Assumptions C76_number_other.
(** With blanks the text is taken for an integer, but then ParseInt refuses it. *)
Theorem C76_number_blanks_refuted : forall E v s b1 b2 z k, v = VStr s \/ v = VBytes s -> integer_text b1 b2 s z -> b1 ++ b2 <> [] ->
  ThisNumber E (Some (Node v k)) = Ok VNil /\ ThisInt64 E (Some (Node v k)) = Ok None.
Proof.
  intros E v s b1 b2 z k Hv H Hb.
  assert (Hp : parse_int s = None).
  { destruct (parse_int s) as [z'|] eqn:Hp; [|reflexivity]. exfalso. apply parse_int_iff, numeral_chars in Hp.
    assert (K : exists c, In c (b1 ++ b2) /\ (c = x20 \/ c = x09)).
    { assert (Hbl : blanks (b1 ++ b2)) by (unfold blanks; apply Forall_app; inversion H; subst; auto). destruct (b1 ++ b2) as [|c l]; [congruence|]. inversion Hbl; subst. exists c. split; [left; reflexivity|assumption]. }
    destruct K as (c & Hc & Hs). rewrite Forall_forall in Hp. assert (Hin : In c s).
    { apply in_app_or in Hc. inversion H; subst; apply in_or_app; destruct Hc as [Hc|Hc]; auto; right; [|right]; apply in_or_app; auto. }
    destruct (Hp c Hin). tauto. }
  assert (Hs : s <> []) by (intros ->; pose proof (isInteger_text _ _ _ _ H) as K; discriminate K).
  split.
  - unfold ThisNumber. cbn [This this rbind]. rewrite (number_text E v s Hv Hs), (isInteger_text _ _ _ _ H). cbn [rbind]. rewrite Hp. reflexivity.
  - unfold ThisInt64. cbn [This this rbind]. destruct Hv as [->| ->]; cbn [v_int64f rbind]; rewrite Hp; reflexivity.
Qed.
Print Assumptions C76_number_blanks_refuted.
(** A plus sign: an integer for ThisInt64, a float (if the text is one) for ThisNumber *)
Theorem C76_plus_refuted : forall E d k, digits d -> number_of d < 2 ^ 63 -> let n := Some (Node (VStr ("+"%byte :: d)) k) in
  ThisInt64 E n = Ok (Some (number_of d)) /\ ThisNumber E n = Ok match parse_float E ("+"%byte :: d) with Some f => VF64 f | None => VNil end.
Proof.
  intros E d k Hd Hl n. split.
  - unfold ThisInt64, n. cbn [This this rbind v_int64f]. assert (H : numeral ("+"%byte :: d) (number_of d)) by (apply num_plus; assumption). apply parse_int_iff in H. rewrite H. reflexivity.
  - unfold ThisNumber, n. cbn [This this rbind]. rewrite (number_text E _ ("+"%byte :: d)); [reflexivity|auto|discriminate].
Qed.
Print Assumptions C76_plus_refuted.
Example C76_number_ex : integer_text [] [] (bs "-007") (-7) /\ integer_text [x20] [] (bs " 12") 12 /\ digits (bs "34") /\
  ThisNumber env0 (Some (nd "-007" [])) = Ok (VInt KInt64 (-7)) /\ ThisNumber env0 (Some (nd " 12" [])) = Ok VNil /\ ThisNumber env0 (Some (nd "9223372036854775808" [])) = Ok VNil /\
  ThisInt64 env0 (Some (nd "+34" [])) = Ok (Some 34).
Proof.
  assert (Hd : forall s, forallb is_digit s = true -> s <> [] -> digits s).
  { intros s H Hs. split; [exact Hs|]. rewrite forallb_forall in H. apply Forall_forall. intros c Hc. apply is_digit_range, H, Hc. }
  split; [apply (it_minus [] [] (bs "007")); [constructor|constructor|apply Hd; [reflexivity|discriminate]]|].
  split; [apply (it_plain [x20] [] (bs "12")); [repeat constructor|constructor|apply Hd; [reflexivity|discriminate]]|].
  split; [apply Hd; [reflexivity|discriminate]|]. repeat split.
Qed.
