(** Proofs of the answers of LexSpec. *)
From Verif Require Import Base Value Event EventSpec EventFacts Lexer TextParser Stream Buffer BufferSpec BufferFacts BufferFacts2 Wp TextTerm TextSpec TextDoc PathSpec WpLong LexSpec.

Lemma past_stops (p : byte -> Prop) (b : byte -> bool) r : (forall c, b c = true -> p c) -> past_it p r -> stops b r.
Proof. intros H. destruct r as [|c r]; cbn; [auto|]. intros Hp. destruct (b c) eqn:Eb; [|reflexivity]. destruct Hp. apply H, Eb. Qed.
Lemma all_true (p : byte -> Prop) (b : byte -> bool) w : (forall c, p c -> b c = true) -> Forall p w -> Forall (fun c => b c = true) w.
Proof. intro H. apply Forall_impl. exact H. Qed.

Lemma text_iff c : is_text c = true <-> c_text c.
Proof. unfold is_text, c_text. lia. Qed.
Lemma blank_iff c : is_space c = true <-> c_blank c.
Proof. rewrite <- blank_space. unfold blank, c_blank. rewrite orb_true_iff. destruct (beq_spec c x20), (beq_spec c x09); intuition congruence. Qed.
Lemma break_iff c : is_break c = true <-> c = x0a \/ c = x0d.
Proof.
  unfold is_break. change 10 with (bz x0a). change 13 with (bz x0d). rewrite <- !beq_bz, orb_true_iff.
  destruct (beq_spec c x0a), (beq_spec c x0d); intuition congruence.
Qed.
Lemma white_iff c : is_white c = true <-> c_white c.
Proof. unfold is_white. rewrite orb_true_iff, blank_iff, break_iff. unfold c_white, c_blank. tauto. Qed.
Lemma digit_iff c : is_digit c = true <-> c_digit c.
Proof. unfold is_digit, latin1_digit, c_digit. lia. Qed.
Lemma operator_iff c : is_operator c = true <-> c_operator c.
Proof.
  unfold is_operator, c_operator. rewrite existsb_exists. split.
  - intros (d & Hd & He). destruct (beq_spec c d); [congruence|discriminate].
  - intro H. exists c. split; [exact H|]. destruct (beq_spec c c); congruence.
Qed.
Lemma template_iff c : is_template_text c = true <-> c_template c.
Proof. unfold is_template_text, c_template. rewrite andb_true_iff, !negb_true_iff, control_end. destruct (beq_spec c "$"); intuition congruence. Qed.
Lemma quote_iff c : is_quote c = true <-> c_quote c.
Proof. unfold is_quote, c_quote. rewrite !orb_true_iff. destruct (beq_spec c x22), (beq_spec c "'"), (beq_spec c "`"); intuition congruence. Qed.
Lemma end_iff c : is_end c || is_break c = true <-> c_end c.
Proof. rewrite orb_true_iff, break_iff, <- control_end. reflexivity. Qed.
Lemma stop_iff stop c : is_text c && negb (existsb (beq c) stop) = true <-> c_text c /\ ~ In c stop.
Proof.
  rewrite andb_true_iff, text_iff, negb_true_iff. apply and_iff_compat_l. rewrite <- not_true_iff_false, existsb_exists. apply not_iff_compat. split.
  - intros (d & Hd & He). destruct (beq_spec c d); [congruence|discriminate].
  - intro H. exists c. split; [exact H|]. destruct (beq_spec c c); congruence.
Qed.

Lemma kind_space w k : kind_of w k -> space_kind w = k.
Proof.
  unfold space_kind. intros [H|Hn H|H1 H2 _].
  - replace (forallb (fun c => beq c x20) w) with true; [reflexivity|]. symmetry. apply forallb_forall. intros c Hc. rewrite Forall_forall in H. rewrite <- (H c Hc). reflexivity.
  - destruct w as [|c w]; [congruence|]. assert (c = x09) as -> by (inversion H; congruence). change (forallb (fun c => beq c x20) (x09 :: w)) with false. cbv iota.
    replace (forallb (fun c => beq c x09) (x09 :: w)) with true; [reflexivity|]. symmetry. apply forallb_forall. intros c Hc. rewrite Forall_forall in H. rewrite <- (H c Hc). reflexivity.
  - destruct (forallb (fun c => beq c x20) w) eqn:E1; [rewrite forallb_forall in E1; discriminate (E1 _ H2)|].
    destruct (forallb (fun c => beq c x09) w) eqn:E2; [rewrite forallb_forall in E2; discriminate (E2 _ H1)|]. reflexivity.
Qed.

Section Facts.
Variable F : nat.

Lemma l_span p w s r h (Q : bytes -> stream -> handler -> Prop) : p x00 = false -> good s -> fut s = w ++ r -> Forall (fun c => p c = true) w -> stops p r ->
  (List.length w < F)%nat -> (forall s', good s' -> fut s' = r -> Q w s' h) -> wp (span F p []) s h Q.
Proof.
  intros Hp Hg Hf Hw Hr HF HQ. apply (wp_span p w F [] s r); auto. intros s' Hm _. cbn [app]. apply HQ; [apply Hm|].
  destruct Hm as (Hm & _). rewrite Hf in Hm. apply app_inv_head in Hm. congruence.
Qed.
Lemma l_class (p : byte -> Prop) b w r s h (Q : bytes -> stream -> handler -> Prop) : (forall c, b c = true <-> p c) -> b x00 = false -> good s -> fut s = w ++ r -> longest p w r ->
  (List.length w < F)%nat -> (forall s', good s' -> fut s' = r -> Q w s' h) -> wp (span F b []) s h Q.
Proof.
  intros Hb H0 Hg Hf (Hw & Hr) HF HQ. apply (l_span b w s r); auto.
  - eapply all_true; [|exact Hw]. intros c. apply Hb.
  - eapply past_stops; [|exact Hr]. intros c. apply Hb.
Qed.

(** *** SpaceMax *)
Definition count (c : byte) (w : bytes) : Z := Z.of_nat (List.length (filter (beq c) w)).
Definition kind_at (s t : Z) : byte := if t =? 0 then x20 else if s =? 0 then x09 else x00.
Lemma count_cons c d w : count c (d :: w) = (if beq c d then 1 else 0) + count c w.
Proof. unfold count. cbn [filter]. destruct (beq c d); cbn [List.length]; lia. Qed.
Lemma count_blank w : Forall c_blank w -> count x20 w + count x09 w = Z.of_nat (List.length w).
Proof.
  induction w as [|c w IH]; intro H; [reflexivity|]. inversion H as [|? ? Hc Hw]; subst. rewrite !count_cons. specialize (IH Hw). cbn [List.length].
  destruct Hc as [-> | ->]; [change (beq x20 x20) with true; change (beq x09 x20) with false|change (beq x20 x09) with false; change (beq x09 x09) with true]; cbv iota; lia.
Qed.
Lemma count_in c w : In c w -> 0 < count c w.
Proof. induction w as [|d w IH]; [contradiction|]. rewrite count_cons. unfold count in *. intros [->|H]; [destruct (beq_spec c c); [lia|congruence]|specialize (IH H); destruct (beq c d); lia]. Qed.
Lemma count_none c d w : c <> d -> Forall (eq d) w -> count c w = 0.
Proof. intros Hn. induction 1 as [|e w He Hw IH]; [reflexivity|]. subst e. rewrite count_cons, IH. destruct (beq_spec c d); [congruence|reflexivity]. Qed.
Lemma kind_count w k : kind_of w k -> Forall c_blank w -> kind_at (count x20 w) (count x09 w) = k.
Proof.
  unfold kind_at. intros [H|Hn H|H1 H2 _] Hb.
  - rewrite (count_none x09 x20); [reflexivity|discriminate|exact H].
  - rewrite (count_none x20 x09 w); [|discriminate|exact H]. replace (count x09 w =? 0) with false; [reflexivity|]. symmetry. apply Z.eqb_neq.
    destruct w as [|c w]; [congruence|]. assert (c = x09) as -> by (inversion H; congruence). pose proof (count_in x09 (x09 :: w) (or_introl eq_refl)). lia.
  - pose proof (count_in _ _ H1). pose proof (count_in _ _ H2). replace (count x09 w =? 0) with false by lia. replace (count x20 w =? 0) with false by lia. reflexivity.
Qed.
Lemma l_max_less m w : forall f a b s r h (Q : Z * byte -> stream -> handler -> Prop), good s -> fut s = w ++ r -> Forall c_blank w -> past_it c_blank r ->
  0 <= a -> 0 <= b -> a + b + Z.of_nat (List.length w) < m -> (List.length w < f)%nat ->
  (forall s', good s' -> fut s' = r -> Q (a + b + Z.of_nat (List.length w), kind_at (a + count x20 w) (b + count x09 w)) s' h) -> wp (space_max f m a b) s h Q.
Proof.
  induction w as [|c w IH]; intros f a b [P fu o] r h Q Hg Hf Hw Hr Ha Hb Hm HF HQ; (destruct f as [|f]; [cbn in HF; lia|]); cbn [fut space_max app] in *; subst fu.
  - cbn [List.length] in HQ. change (count x20 []) with 0 in HQ. change (count x09 []) with 0 in HQ. rewrite !Z.add_0_r in HQ. destruct r as [|c r].
    + apply wp_get_end. intros k Hk. change (is_space x00) with false. cbn [negb]. cbv zeta. apply wp_un_over. cbn [wp]. apply HQ; [apply good_nil|reflexivity].
    + apply wp_get. intros k Hk. assert (is_space c = false) as -> by (apply not_true_iff_false; rewrite blank_iff; exact Hr). cbn [negb]. cbv zeta.
      apply wp_un. cbn [wp]. apply HQ; [apply good_false|reflexivity].
  - inversion Hw as [|? ? Hc Hw']; subst. apply wp_get. intros k Hk. assert (is_space c = true) as -> by (apply blank_iff; exact Hc). cbn [negb]. cbv zeta. cbn [List.length] in *. rewrite !count_cons in HQ.
    destruct Hc as [-> | ->].
    + change (beq x20 x20) with true. change (beq x09 x20) with false in HQ. change (beq x20 x20) with true in HQ. cbv iota in *. replace ((a + 1 =? m) || (b =? m)) with false by lia.
      apply (IH f (a + 1) b _ r); auto; try lia; try apply good_false. intros s' G L. specialize (HQ s' G L).
      replace (a + 1 + b + Z.of_nat (List.length w)) with (a + b + Z.of_nat (S (List.length w))) by lia. replace (a + 1 + count x20 w) with (a + (1 + count x20 w)) by lia. exact HQ.
    + change (beq x09 x20) with false. change (beq x20 x09) with false in HQ. change (beq x09 x09) with true in HQ. cbv iota in *. replace ((a =? m) || (b + 1 =? m)) with false by lia.
      apply (IH f a (b + 1) _ r); auto; try lia; try apply good_false. intros s' G L. specialize (HQ s' G L).
      replace (a + (b + 1) + Z.of_nat (List.length w)) with (a + b + Z.of_nat (S (List.length w))) by lia. replace (b + 1 + count x09 w) with (b + (1 + count x09 w)) by lia. exact HQ.
Qed.
Lemma l_max_tabs m : forall f a s h r (Q : Z * byte -> stream -> handler -> Prop), fut s = repeat x09 (S m) ++ r -> (S m < f)%nat -> 0 <= a ->
  (forall s', good s' -> fut s' = r -> Q (a + Z.of_nat (S m), x09) s' h) -> wp (space_max f (a + Z.of_nat (S m)) 0 a) s h Q.
Proof.
  induction m as [|m IH]; intros f a [P fu o] h r Q Hf HF Ha HQ; (destruct f as [|f]; [lia|]); cbn [fut repeat app space_max] in *; subst fu.
  - apply wp_get. intros k Hk. change (is_space x09) with true. cbn [negb]. change (beq x09 x20) with false. cbv iota zeta.
    replace ((0 =? a + Z.of_nat 1) || (a + 1 =? a + Z.of_nat 1)) with true by lia. cbn [wp]. replace (a + 1 =? 0) with false by lia. replace (0 + (a + 1)) with (a + Z.of_nat 1) by lia. apply HQ; [apply good_false|reflexivity].
  - apply wp_get. intros k Hk. change (is_space x09) with true. cbn [negb]. change (beq x09 x20) with false. cbv iota zeta.
    replace ((0 =? a + Z.of_nat (S (S m))) || (a + 1 =? a + Z.of_nat (S (S m)))) with false by lia.
    replace (a + Z.of_nat (S (S m))) with (a + 1 + Z.of_nat (S m)) in * by lia. apply (IH f (a + 1) _ h r); auto; lia.
Qed.

(** *** Numbers *)
Lemma l_digits w : forall f pt acc s h (Q : bytes -> stream -> handler -> Prop) r, good s -> fut s = w ++ r -> digits w -> (List.length w <= f)%nat ->
  (forall s', good s' -> fut s' = r -> wp (number_loop (f - List.length w) pt (acc ++ w)) s' h Q) -> wp (number_loop f pt acc) s h Q.
Proof.
  induction w as [|c w IH]; intros f pt acc s h Q r Hg Hf Hw HF HQ.
  - cbn [List.length] in HQ. rewrite Nat.sub_0_r, app_nil_r in HQ. apply HQ; [exact Hg|exact Hf].
  - destruct s as [P fu o]. cbn [fut app] in Hf. subst fu. destruct f as [|f]; [cbn in HF; lia|]. inversion Hw as [|? ? Hc Hw']; subst. cbn [number_loop].
    apply wp_get. intros k Hk. apply digit_iff in Hc. rewrite Hc. apply (IH f pt _ _ h Q r); auto; [apply good_false|cbn in HF; lia|]. intros s' G L. specialize (HQ s' G L).
    cbn [List.length] in HQ. rewrite Nat.sub_succ in HQ. rewrite <- app_assoc. exact HQ.
Qed.
Lemma l_number_stop f (pt : bool) acc s h (Q : bytes -> stream -> handler -> Prop) : (0 < f)%nat -> good s -> past_it (fun c => c_digit c \/ pt = false /\ c = "."%byte) (fut s) ->
  (forall s', good s' -> fut s' = fut s -> Q acc s' h) -> wp (number_loop f pt acc) s h Q.
Proof.
  intros Hf Hg Hp HQ. destruct f as [|f]; [lia|]. destruct s as [P fu o]. cbn [fut number_loop] in *. destruct fu as [|c r].
  - apply wp_get_end. intros k Hk. change (is_digit x00) with false. change (beq x00 ".") with false. rewrite andb_false_r. apply wp_un_over. cbn [wp]. apply HQ; [apply good_nil|reflexivity].
  - cbn [past_it] in Hp. apply wp_get. intros k Hk. assert (is_digit c = false) as -> by (apply not_true_iff_false; rewrite digit_iff; tauto).
    replace (negb pt && beq c ".") with false; [apply wp_un; cbn [wp]; apply HQ; [apply good_false|reflexivity]|]. symmetry. destruct pt; [reflexivity|]. cbn [negb andb].
    destruct (beq_spec c "."); [tauto|reflexivity].
Qed.
Lemma l_numeral n r s h (Q : bytes -> stream -> handler -> Prop) : numeral n r -> good s -> fut s = n ++ r -> (List.length n + 2 <= F)%nat ->
  (forall s', good s' -> fut s' = r -> Q n s' h) -> wp (number_loop F false []) s h Q.
Proof.
  intros [d r0 Hd Hw Hr|a b r0 Hab Ha Hb Hr] Hg Hf HF HQ.
  - apply (l_digits d F false [] s h Q r0); auto; [lia|]. intros s1 G1 F1. apply l_number_stop; auto; [lia| |].
    + rewrite F1. destruct r0; cbn in *; tauto.
    + intros s2 G2 F2. apply HQ; [exact G2|congruence].
  - rewrite app_length in HF. cbn [List.length] in HF. rewrite <- app_assoc in Hf.
    apply (l_digits a F false [] s h Q ("."%byte :: b ++ r0)); auto; [lia|]. intros s1 G1 F1. remember (F - List.length a)%nat as f1 eqn:Ef. destruct f1 as [|f1]; [lia|]. cbn [number_loop app].
    destruct s1 as [P1 fu1 o1]. cbn [fut] in F1. subst fu1. apply wp_get. intros k Hk. change (is_digit ".") with false. change (negb false && beq "." ".") with true. cbv iota.
    apply (l_digits b f1 true _ _ h Q r0); auto; [apply good_false|lia|]. intros s2 G2 F2. apply l_number_stop; auto; [lia| |].
    + rewrite F2. destruct r0; cbn in *; [tauto|]. intros [H|(H & _)]; [tauto|discriminate].
    + intros s3 G3 F3. rewrite <- app_assoc. cbn [app]. apply HQ; [exact G3|congruence].
Qed.
Lemma numeral_head n r : numeral n r -> exists c u, n = c :: u /\ (c_digit c \/ c = "."%byte).
Proof.
  intros [d r0 Hd Hw Hr|a b r0 Hab Ha Hb Hr].
  - destruct d as [|c d]; [congruence|]. inversion Hw; subst. eauto.
  - destruct a as [|c a]; [exists "."%byte, b; auto|]. inversion Ha; subst. cbn [app]. eauto.
Qed.
Lemma sign_not c : c_digit c \/ c = "."%byte -> beq c "-" || beq c "+" = false.
Proof. intros [H|H]; [|subst c; reflexivity]. unfold c_digit in H. destruct (beq_spec c "-") as [->|_]; [cbn in H; lia|]. destruct (beq_spec c "+") as [->|_]; [cbn in H; lia|reflexivity]. Qed.

(** *** Raw strings *)
Lemma l_raw n t : forall f c2 buf s h r (Q : option bytes -> stream -> handler -> Prop), Forall (fun c => control c = false /\ c <> "`"%byte /\ c <> "\"%byte /\ c <> x0a) t -> c2 <> "\"%byte ->
  fut s = t ++ "`"%byte :: r -> (List.length t < f)%nat -> (forall s', good s' -> fut s' = r -> Q (Some (buf ++ t)) s' h) -> wp (quoted_loop F f n "`" c2 buf) s h Q.
Proof.
  induction t as [|c t IH]; intros f c2 buf [P fu o] h r Q Ht Hc2 Hf HF HQ; (destruct f as [|f]; [cbn in HF; lia|]); cbn [fut quoted_loop app] in *; subst fu.
  - apply wp_get. intros k Hk. change (is_end "`") with false. change (beq "`" "`" && beq "`" "`") with true. cbn [wp]. rewrite app_nil_r in HQ. apply HQ; [apply good_false|reflexivity].
  - inversion Ht as [|? ? (H1 & H2 & H3 & H4) Ht']; subst. rewrite control_end in H1. apply beq_neq in H2, H3, H4. assert (Hb : beq c2 "\" = false) by (apply beq_neq; exact Hc2).
    apply wp_get. intros k Hk. rewrite H1, H2, H3, H4, Hb. cbn [andb]. cbv zeta. apply (IH f c _ _ h r); auto; [apply beq_neq in H3; exact H3|cbn in HF; lia|].
    intros s' G L. rewrite <- app_assoc. apply HQ; auto.
Qed.

(** *** Comments *)
Lemma l_comment t : forall f s h (Q : bool -> stream -> handler -> Prop) r, (List.length t < f)%nat -> Forall (fun c => ~ c_end c) t ->
  (fut s = t /\ r = [] \/ exists e, c_end e /\ fut s = t ++ e :: r) -> (forall s', good s' -> fut s' = r -> Q true s' h) -> wp (comment_loop f) s h Q.
Proof.
  induction t as [|c t IH]; intros f [P fu o] h Q r Hf Ht Hs HQ; (destruct f as [|f]; [cbn in Hf; lia|]); cbn [fut comment_loop app] in *.
  - destruct Hs as [(-> & ->)|(e & He & ->)].
    + apply wp_get_end. intros k Hk. change (is_end x00 || is_break x00) with true. cbn [wp]. apply HQ; [apply good_nil|reflexivity].
    + apply wp_get. intros k Hk. apply end_iff in He. rewrite He. cbn [wp]. apply HQ; [apply good_false|reflexivity].
  - inversion Ht as [|? ? Hc Ht']; subst. assert (Hce : is_end c || is_break c = false) by (apply not_true_iff_false; rewrite end_iff; exact Hc).
    destruct Hs as [(-> & ->)|(e & He & ->)]; apply wp_get; intros k Hk; rewrite Hce; (eapply (IH f _ h Q); [cbn in Hf; lia|exact Ht'| |exact HQ]).
    + left. auto.
    + right. exists e. auto.
Qed.

Lemma quoted_raw s h n t r (Q : option bytes -> stream -> handler -> Prop) : Forall (fun c => control c = false /\ c <> "`"%byte /\ c <> "\"%byte /\ c <> x0a) t -> good s ->
  fut s = "`"%byte :: t ++ "`"%byte :: r -> (List.length t < F)%nat -> (forall s', good s' -> fut s' = r -> Q (Some t) s' h) -> wp (Quoted F n) s h Q.
Proof.
  intros Ht Hg Hf HF HQ. destruct s as [P fu o]. cbn [fut] in Hf. subst fu. unfold Quoted, Byte_. cbn [pbind]. apply wp_get. intros k Hk. change (is_quote "`") with true. cbn [negb].
  apply (l_raw n t F x00 [] _ h r); auto. discriminate.
Qed.

Lemma quote_head s : past_it c_quote (fut s) -> is_quote (head s) = false.
Proof. unfold head. destruct (fut s) as [|c r]; [reflexivity|]. cbn. intro H. apply not_true_iff_false. rewrite quote_iff. exact H. Qed.
Lemma cat_len (w r : bytes) : List.length (w ++ r) = (List.length w + List.length r)%nat.
Proof. apply app_length. Qed.

Lemma l_reply l c a l' : reply l c a l' -> forall s h (Q : answer -> stream -> handler -> Prop), good s -> fut s = l -> (List.length l + 3 <= F)%nat ->
  (forall s', good s' -> fut s' = l' -> Q a s' h) -> wpl F (perform F c) s h Q.
Proof.
  induction 1; intros s h Q Hg Hf HF HQ; cbn [perform].
  all: try match goal with |- wpl _ (Tok _) _ _ _ => fail 1 | |- _ => apply wpl_of_wp end.
  - destruct s as [P fu o]. cbn [fut] in Hf. subst fu. apply wp_get. intros k Hk. cbn [wp]. apply HQ; [apply good_false|reflexivity].
  - destruct s as [P fu o]. cbn [fut] in Hf. subst fu. apply wp_get_end. intros k Hk. cbn [wp]. apply HQ; [apply good_nil|reflexivity].
  - apply wp_bind, wp_Peek; auto. intros s' G L. cbn [wp]. unfold head. rewrite Hf. apply HQ; [exact G|congruence].
  - apply wp_bind, wp_Peek; auto. intros s' G L. cbn [wp]. unfold head. rewrite Hf. apply HQ; [exact G|congruence].
  - apply wp_bind. rewrite cat_len in HF. apply (l_class c_text is_text w r); auto using text_iff; lia.
  - apply wp_bind. rewrite cat_len in HF. apply (l_class (fun c => c_text c /\ ~ In c stop) _ w r); auto using stop_iff; lia.
  - apply wp_bind. unfold WhiteSpace. apply wp_bind. rewrite cat_len in HF. apply (l_class c_white is_white w r); auto using white_iff; [lia|]. intros s' G L. cbn [wp].
    replace (match w with [] => false | _ => true end) with (negb (is_empty w)) by (destruct w; reflexivity). apply HQ; auto.
  - apply wp_bind. unfold Space. apply wp_bind. rewrite cat_len in HF. apply (l_class c_blank is_space w r); auto using blank_iff; [lia|]. intros s' G L. cbn [wp fst snd].
    rewrite (kind_space w k) by assumption. apply HQ; auto.
  - apply wp_bind. unfold SpaceMax. rewrite cat_len in HF. destruct H as (Hw & Hr). apply (l_max_less (Z.of_nat m) w F 0 0 s r); auto; try lia. intros s' G L. cbn [wp fst snd].
    rewrite !Z.add_0_l, (kind_count w k) by assumption. apply HQ; auto.
  - apply wp_bind. unfold SpaceMax. rewrite cat_len, repeat_length in HF. destruct H as [-> | ->].
    + apply (wx_smax m F 0 s h r); auto; try lia. all: intros s' G L; cbn [wp fst snd]; apply HQ; auto.
    + apply (l_max_tabs m F 0 s h r); auto; try lia. all: intros s' G L; cbn [wp fst snd]; apply HQ; auto.
  - apply wp_bind. rewrite cat_len in HF. apply (l_class c_digit is_digit w r); auto using digit_iff; lia.
  - apply wp_bind. rewrite cat_len in HF. apply (l_class c_operator is_operator w r); auto using operator_iff; lia.
  - apply wp_bind. rewrite cat_len in HF. apply (l_class c_template is_template_text w r); auto using template_iff; lia.
  - (* a number without sign *)
    apply wp_bind. unfold Number_tok. rewrite cat_len in HF. destruct (numeral_head n r H) as (c & u & Hn & Hc). apply wp_bind, wp_Peek; auto. intros s1 G1 F1.
    unfold head. rewrite Hf, Hn. cbn [app]. rewrite (sign_not c Hc). cbn [pbind]. apply wp_bind. apply (l_numeral n r s1); auto; [congruence|lia|]. intros s2 G2 F2. cbn [wp].
    rewrite Hn in *. cbn [wp]. change (beq x00 "-") with false. cbv iota. apply HQ; auto.
  - apply wp_bind. unfold Number_tok. cbn [List.length] in HF. rewrite cat_len in HF. destruct (numeral_head n r H) as (c & u & Hn & Hc). apply wp_bind, wp_Peek; auto. intros s1 G1 F1.
    unfold head. rewrite Hf. change (beq "+" "-" || beq "+" "+") with true. cbv iota. unfold Byte_. cbn [pbind]. destruct s1 as [P1 fu1 o1]. cbn [fut] in F1. rewrite Hf in F1. subst fu1.
    apply wp_get. intros k Hk. apply wp_bind. apply (l_numeral n r); auto; [apply good_false|lia|]. intros s2 G2 F2. rewrite Hn in *. cbn [wp].
    change (beq "+" "-") with false. cbv iota. apply HQ; auto.
  - apply wp_bind. unfold Number_tok. cbn [List.length] in HF. rewrite cat_len in HF. destruct (numeral_head n r H) as (c & u & Hn & Hc). apply wp_bind, wp_Peek; auto. intros s1 G1 F1.
    unfold head. rewrite Hf. change (beq "-" "-" || beq "-" "+") with true. cbv iota. unfold Byte_. cbn [pbind]. destruct s1 as [P1 fu1 o1]. cbn [fut] in F1. rewrite Hf in F1. subst fu1.
    apply wp_get. intros k Hk. apply wp_bind. apply (l_numeral n r); auto; [apply good_false|lia|]. intros s2 G2 F2. rewrite Hn in *. cbn [wp].
    change (beq "-" "-") with true. cbv iota. apply HQ; auto.
  - apply wp_bind. unfold Number_tok. apply wp_bind, wp_Peek; auto. intros s1 G1 F1.
    assert (Hh : beq (head s) "-" || beq (head s) "+" = false).
    { unfold head. rewrite Hf. destruct l as [|c l]; [reflexivity|]. cbn [past_it] in H. unfold c_sign in H. destruct (beq_spec c "-"), (beq_spec c "+"); tauto || reflexivity. }
    rewrite Hh. cbn [pbind]. apply wp_bind. apply l_number_stop; [lia|exact G1| |].
    + rewrite F1, Hf. destruct l; cbn in *; tauto.
    + intros s2 G2 F2. cbn [wp]. apply HQ; [exact G2|congruence].
  - apply wp_bind. apply (wx_Break_lf s h r); auto. all: intros s' G L; cbn [wp]; apply HQ; auto.
  - apply wp_bind. apply (wx_Break_crlf s h r); auto. all: intros s' G L; cbn [wp]; apply HQ; auto.
  - apply wp_bind. apply (wx_Break_no s h); auto.
    + unfold head. rewrite Hf. destruct l as [|c l]; [reflexivity|]. apply not_true_iff_false. rewrite break_iff. exact H.
    + all: intros s' G L; cbn [wp]; apply HQ; [exact G|congruence].
  - apply wp_bind. apply (wx_End_eof s h); auto. all: intros s' G L; cbn [wp]; apply HQ; auto.
  - apply wp_bind. destruct s as [P fu o]. cbn [fut] in Hf. subst fu. unfold End. apply wp_get. intros k Hk. rewrite control_end in H. rewrite H. cbn [negb wp]. apply HQ; [apply good_false|reflexivity].
  - apply wp_bind. rewrite control_end in H. apply (wx_End_no s h c r); auto. all: intros s' G L; cbn [wp]; apply HQ; auto.
  - apply wp_bind. apply (wx_Quoted_yes F q n t s h r); auto; try (unfold rem; rewrite Hf; lia). all: intros s' G L; cbn [wp]; apply HQ; auto.
  - apply wp_bind. cbn [List.length] in HF. rewrite cat_len in HF. apply (quoted_raw s h _ t r); auto; try lia. all: intros s' G L; cbn [wp]; apply HQ; auto.
  - apply wp_bind. apply wx_Quoted_no; auto; [apply quote_head; rewrite Hf; assumption|]. all: intros s' G L; cbn [wp]; apply HQ; [exact G|congruence].
  - apply wp_bind. cbn [List.length] in HF. rewrite cat_len in HF. destruct s as [P fu o]. cbn [fut] in Hf. subst fu. unfold Comment, Byte_. cbn [pbind]. apply wp_get. intros k Hk.
    change (beq "#" "#") with true. cbv iota. cbn [pbind]. apply wp_get. intros k2 Hk2. apply blank_iff in H. rewrite H. apply (l_comment t F _ h _ r); [lia|assumption|right; exists e; auto|].
    intros s' G L; cbn [wp]; apply HQ; auto.
  - apply wp_bind. cbn [List.length] in HF. destruct s as [P fu o]. cbn [fut] in Hf. subst fu. unfold Comment, Byte_. cbn [pbind]. apply wp_get. intros k Hk.
    change (beq "#" "#") with true. cbv iota. cbn [pbind]. apply wp_get. intros k2 Hk2. apply blank_iff in H. rewrite H. apply (l_comment t F _ h _ []); [lia|assumption|auto|].
    all: intros s' G L; cbn [wp]; apply HQ; auto.
  - apply wp_bind. apply wx_Comment_no; auto.
    + unfold head, second. rewrite Hf. destruct l as [|c [|b t]]; [left; discriminate|right; reflexivity|]. destruct (beq_spec c "#") as [->|Hc]; [|left; exact Hc]. right.
      apply not_true_iff_false. rewrite blank_iff. apply (H b t eq_refl).
    + all: intros s' G L; cbn [wp]; apply HQ; [exact G|congruence].
  - apply wp_bind. apply (wx_Block_yes F cr n b s h r); auto.
    + rewrite Hf. cbn [ending_source app]. rewrite <- app_assoc. reflexivity.
    + eapply past_stops; [|eassumption]. intro c. apply blank_iff.
    + unfold rem. rewrite Hf. lia.
  - apply wp_bind. apply wx_Block_no; auto.
    + unfold head, second. rewrite Hf. destruct l as [|c [|b t]]; [left; discriminate|right; reflexivity|]. destruct (beq_spec c "\") as [->|Hc]; [|left; exact Hc]. right.
      apply not_true_iff_false. rewrite break_iff. specialize (H b t eq_refl). tauto.
    + all: intros s' G L; cbn [wp]; apply HQ; [exact G|congruence].
  - (* a quoted scalar *)
    unfold Scalar_tok. apply wp_bind, wp_bind. clear IHreply. remember (CQuoted n) as cq eqn:Ec. remember (AFound (Some t)) as aq eqn:Ea. destruct H; try discriminate Ec; try discriminate Ea.
    + injection Ec as <-. injection Ea as <-. apply (wx_Quoted_yes F q n0 t0 s h r); auto; try (unfold rem; rewrite Hf; lia). all: intros s' G L; cbn [wp]; apply HQ; auto.
    + injection Ec as <-. injection Ea as <-. cbn [List.length] in HF. rewrite cat_len in HF. apply (quoted_raw s h _ t0 r); auto; try lia. all: intros s' G L; cbn [wp]; apply HQ; auto.
  - unfold Scalar_tok. rewrite cat_len in HF. apply wp_bind, wp_bind. apply wx_Quoted_no; auto.
    + apply quote_head. rewrite Hf. destruct w; [congruence|]. assumption.
    + intros s1 G1 F1. apply wp_bind. apply (l_class c_text is_text w r); auto using text_iff; [congruence|lia|]. intros s' G L. cbn [wp]. destruct w; [congruence|]. cbn [nonempty]. apply HQ; auto.
  - unfold Scalar_tok. apply wp_bind, wp_bind. apply wx_Quoted_no; auto.
    + apply quote_head. rewrite Hf. destruct l as [|c l]; [exact I|]. cbn in *. intro K. apply H. unfold c_text. destruct K as [-> | [-> | ->]]; reflexivity.
    + intros s1 G1 F1. apply wp_bind. apply (l_class c_text is_text [] l); [exact text_iff|reflexivity|exact G1|cbn; congruence|split; [apply Forall_nil|exact H]|cbn; lia|]. intros s' G L; cbn [wp nonempty]; apply HQ; auto.
  - cbn [wpl]. rewrite cat_len in HF. exists w, c, r. split; [exact Hf|]. split; [assumption|]. split; [assumption|]. split; [assumption|]. split; [lia|].
    intros s' L O. apply HQ; [unfold good; congruence|exact L].
Qed.
End Facts.

Lemma reply_shorter l c a l' : reply l c a l' -> (List.length l' <= List.length l)%nat.
Proof. induction 1; cbn [List.length]; rewrite ?app_length; cbn [List.length]; rewrite ?app_length; cbn [List.length]; try lia. Qed.

Lemma l_replies F l cs al : replies l cs al -> forall s h (Q : list answer -> stream -> handler -> Prop), good s -> fut s = l -> (List.length l + 3 <= F)%nat ->
  (forall s', Q al s' h) -> wpl F (perform_all F cs) s h Q.
Proof.
  induction 1 as [l|l c a l' cs al Hr Hrs IH]; intros s h Q Hg Hf HF HQ; cbn [perform_all].
  - apply HQ.
  - apply wpl_bind. apply (l_reply F l c a l' Hr); auto. intros s1 G1 F1. apply wpl_bind. apply reply_shorter in Hr. apply IH; [exact G1|exact F1|lia|]. intros s2. apply HQ.
Qed.
Lemma session_replies E F rd cs al : replies (seen (size rd) rd) cs al -> (List.length (seen (size rd) rd) + 3 <= F)%nat -> session E F rd cs = Ok al.
Proof.
  intros Hr HF. unfold session.
  destruct (wpl_sound E F (perform_all F cs) (NewLexer rd) (s_init (seen (size rd) rd)) h_init (fun a _ _ => a = al) (NewLexer_repr rd)) as (a & x & s & h & -> & _ & ->).
  - apply (l_replies F _ cs al Hr); [discriminate|reflexivity|exact HF|reflexivity].
  - reflexivity.
Qed.
