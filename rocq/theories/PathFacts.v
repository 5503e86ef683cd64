(** The parsers of flow.go on well formed paths and expressions. *)
From Verif Require Import Base Value Event EventSpec EventFacts Lexer TextParser Stream Buffer BufferSpec BufferFacts Wp TextTerm TextSpec PathParser PathTerm PathSpec WpLong.

Local Notation len l := (Z.of_nat (List.length l)).

Section Exact.
Context {L : mode}.
Variable E : env.
Variable F : nat.

(** The stream stands before w. *)
Definition at_ (s : stream) (w : bytes) : Prop := good s /\ fut s = w.

Lemma x_span p w acc s r h : p x00 = false -> at_ s (w ++ r) -> Forall (fun c => p c = true) w -> stops p r -> (List.length w < F)%nat ->
  wpx E (span F p acc) s h (fun a s' h' => a = acc ++ w /\ at_ s' r /\ h' = h).
Proof.
  intros Hp (Hg & Hf) Hw Hr HF. apply wpx_of_wp, (wp_span p w F acc s r); auto.
  intros s' Hm _. repeat split; auto; [apply (moved_good _ _ _ Hm)|]. pose proof (moved_fut _ _ _ Hm) as Hx. rewrite Hf in Hx. apply app_inv_head in Hx. auto.
Qed.

Lemma x_peek s w h : at_ s w -> wpx E PeekByte s h (fun c s' h' => c = match w with [] => x00 | c :: _ => c end /\ at_ s' w /\ h' = h).
Proof.
  intros (Hg & Hf). apply wpx_of_wp, wp_Peek; [exact Hg|]. intros s' Hg' Hf'. unfold head. rewrite Hf. repeat split; auto. congruence.
Qed.
Lemma x_byte s c w h : at_ s (c :: w) -> wpx E Byte_ s h (fun a s' h' => a = c /\ at_ s' w /\ h' = h).
Proof.
  intros (Hg & Hf). apply wpx_of_wp. destruct s as [P f o]. cbn [fut] in Hf. subst f. unfold Byte_. apply wp_get. intros k _. cbn [wp]. repeat split; try apply good_false.
Qed.
Lemma at_mk p w : at_ (mkS p w false) w.
Proof. split; [apply good_false|reflexivity]. Qed.
Lemma x_get {A} (K : byte -> bool -> prog A) s c w h Q : at_ s (c :: w) -> (forall p, wpx E (K c true) (mkS (c :: p) w false) h Q) -> wpx E (GetB K) s h Q.
Proof.
  intros (Hg & Hf) H. change (wpx E (pbind (GetB (fun c ok => Ret (c, ok))) (fun x => K (fst x) (snd x))) s h Q). apply wpx_bind, wpx_of_wp.
  destruct s as [P f o]. cbn [fut] in Hf. subst f. apply wp_get. intros k _. apply H.
Qed.
Lemma x_get_end {A} (K : byte -> bool -> prog A) s h Q : at_ s [] -> (forall p, wpx E (K x00 false) (mkS p [] true) h Q) -> wpx E (GetB K) s h Q.
Proof.
  intros (Hg & Hf) H. change (wpx E (pbind (GetB (fun c ok => Ret (c, ok))) (fun x => K (fst x) (snd x))) s h Q). apply wpx_bind, wpx_of_wp.
  destruct s as [P f o]. cbn [fut] in Hf. subst f. apply wp_get_end. intros k _. apply H.
Qed.
Lemma x_un {A} (K : prog A) p c w h Q : (forall s, at_ s (c :: w) -> wpx E K s h Q) -> wpx E (UnB K) (mkS (c :: p) w false) h Q.
Proof. intro H. apply wpx_un, H, at_mk. Qed.
Lemma x_un_end {A} (K : prog A) p h Q : (forall s, at_ s [] -> wpx E K s h Q) -> wpx E (UnB K) (mkS p [] true) h Q.
Proof. intro H. change (UnB K) with (pbind (UnB (Ret tt)) (fun _ => K)). apply wpx_bind, wpx_of_wp, wp_un_over. apply H, at_mk. Qed.

(** *** Blanks *)
Definition no_blank (r : bytes) : Prop := stops is_space r.
Lemma blank_space c : blank c = true -> is_space c = true.
Proof. unfold blank, is_space. destruct (beq_spec c x20) as [->|]; [reflexivity|]. destruct (beq_spec c x09) as [->|]; [reflexivity|discriminate]. Qed.
Lemma x_Space s w r h : at_ s (w ++ r) -> blanks w -> no_blank r -> (List.length w < F)%nat ->
  wpx E (Space F) s h (fun _ s' h' => at_ s' r /\ h' = h).
Proof.
  intros Ha Hw Hr HF. apply wpx_bind. eapply wpx_mono.
  - apply (x_span is_space w [] s r h); auto. eapply Forall_impl; [|exact Hw]. exact blank_space.
  - cbn beta. intros a s' h' (_ & H1 & H2). apply wpx_ret. auto.
Qed.

(** *** Quoted strings *)
Lemma quote_mark_is q : quote_mark q -> is_quote q = true.
Proof. intros [->|[->| ->]]; reflexivity. Qed.
Lemma x_quoted_loop q c2 w : forall f s r buf h, quote_mark q -> Forall (quotable q) w -> c2 <> "\"%byte -> at_ s (w ++ q :: r) -> (List.length w < f)%nat ->
  wpx E (quoted_loop F f 0 q c2 buf) s h (fun a s' h' => a = Some (buf ++ w) /\ at_ s' r /\ h' = h).
Proof.
  revert c2. induction w as [|c w IH]; intros c2 f s r buf h Hq Hw Hc2 (Hg & Hf) Hl; (destruct f as [|f]; [cbn in Hl; lia|]); cbn [quoted_loop]; cbn [app] in Hf.
  - eapply x_get; [split; [exact Hg|exact Hf]|]. intro p. replace (is_end q) with false by (destruct Hq as [->|[->| ->]]; reflexivity).
    rewrite beq_refl. destruct (beq q "`"); cbn [andb].
    + apply wpx_ret. rewrite app_nil_r. repeat split; try apply good_false.
    + replace (beq c2 "\") with false by (symmetry; apply beq_neq; exact Hc2). cbn [negb]. apply wpx_ret. rewrite app_nil_r. repeat split; try apply good_false.
  - inversion Hw as [|? ? (H1 & H2 & H3 & H4) Hw']; subst. eapply x_get; [split; [exact Hg|exact Hf]|]. intro p.
    replace (is_end c) with false.
    2:{ symmetry. unfold control in H1. unfold is_end. rewrite <- H1. f_equal; [f_equal; [f_equal|]|]; f_equal.
        - destruct (beq_spec c x09) as [->|Hn]; [reflexivity|]. destruct (Z.eqb_spec (bz c) 9) as [Hx|]; [exfalso; apply Hn, bz_inj; exact Hx|reflexivity].
        - destruct (beq_spec c x0a) as [->|Hn]; [reflexivity|]. destruct (Z.eqb_spec (bz c) 10) as [Hx|]; [exfalso; apply Hn, bz_inj; exact Hx|reflexivity].
        - destruct (beq_spec c x0d) as [->|Hn]; [reflexivity|]. destruct (Z.eqb_spec (bz c) 13) as [Hx|]; [exfalso; apply Hn, bz_inj; exact Hx|reflexivity]. }
    apply beq_neq in H2, H3, H4, Hc2. rewrite H2, H3, H4, Hc2. cbn [andb negb].
    replace (buf ++ c :: w) with ((buf ++ [c]) ++ w) by (rewrite <- app_assoc; reflexivity).
    apply IH; auto; [apply beq_neq, H3|split; [apply good_false|reflexivity]|cbn in Hl; lia].
Qed.
Lemma x_Quoted q w s r h : quote_mark q -> Forall (quotable q) w -> at_ s (q :: w ++ q :: r) -> (List.length w < F)%nat ->
  wpx E (Quoted F 0) s h (fun a s' h' => a = Some w /\ at_ s' r /\ h' = h).
Proof.
  intros Hq Hw Ha HF. unfold Quoted. apply wpx_bind. eapply wpx_mono; [apply (x_byte s q (w ++ q :: r)), Ha|]. cbn beta. intros c s1 h1 (-> & H1 & ->).
  rewrite (quote_mark_is q Hq). cbn [negb]. apply (x_quoted_loop q x00 w F s1 r []); auto. discriminate.
Qed.
Definition no_quote (w : bytes) : Prop := match w with [] => True | c :: _ => is_quote c = false end.
Lemma x_no_Quoted s w h : at_ s w -> no_quote w ->
  wpx E (Quoted F 0) s h (fun a s' h' => a = None /\ at_ s' w /\ h' = h).
Proof.
  intros Ha Hn. unfold Quoted, Byte_. cbn [pbind]. destruct w as [|c w].
  - apply x_get_end; [exact Ha|]. intro p. change (negb (is_quote x00)) with true. cbn iota. apply x_un_end. intros s' Ha'. apply wpx_ret. auto.
  - cbn [no_quote] in Hn. eapply x_get; [exact Ha|]. intro p. rewrite Hn. cbn [negb]. apply x_un. intros s' Ha'. apply wpx_ret. auto.
Qed.

(** *** Tokens *)
Lemma name_char_ascii c : name_char c = true -> bz c < 128.
Proof. unfold name_char. lia. Qed.
Lemma name_rune_token r : 0 <= r -> token_rune E r = name_rune E r.
Proof.
  intro H. unfold token_rune, name_rune, latin1_letter, latin1_digit. destruct (Z.leb_spec r 255) as [Hr|Hr].
  - replace (255 <? r) with false by lia. rewrite andb_false_l, orb_false_r. apply eq_iff_eq_true. lia.
  - replace (255 <? r) with true by lia. rewrite andb_true_l.
    match goal with |- _ = ?a || _ => replace a with false by lia end. reflexivity.
Qed.
Lemma name_char_rune c : bz c < 128 -> name_rune E (bz c) = name_char c.
Proof.
  intro H. unfold name_rune, name_char. replace (255 <? bz c) with false by lia. rewrite andb_false_l, orb_false_r. apply eq_iff_eq_true. lia.
Qed.
Lemma name_char_token c : bz c < 128 -> token_rune E (bz c) = name_char c.
Proof. intro H. rewrite name_rune_token by apply bz_range. apply name_char_rune, H. Qed.
Lemma decode_ascii c r : bz c < 128 -> decode_rune (c :: r) = (bz c, 1).
Proof. intro H. unfold decode_rune. replace (bz c <? 128) with true by lia. reflexivity. Qed.
Lemma letters_no_quote c w : (name_char c = true \/ 0xC2 <= bz c <= 0xF4) -> no_quote (c :: w).
Proof.
  intro Hc. cbn [no_quote]. unfold is_quote. destruct (beq_spec c x22) as [->|]; [destruct Hc as [Hc|Hc]; [discriminate|cbn in Hc; lia]|].
  destruct (beq_spec c "'") as [->|]; [destruct Hc as [Hc|Hc]; [discriminate|cbn in Hc; lia]|].
  destruct (beq_spec c "`") as [->|]; [destruct Hc as [Hc|Hc]; [discriminate|cbn in Hc; lia]|reflexivity].
Qed.
Lemma utf8_range r w : utf8 r w -> 0 <= r.
Proof. intro H. inversion H; subst; try lia. pose proof (bz_range a). lia. Qed.
Lemma utf8_head r w : utf8 r w -> exists c w', w = c :: w' /\ (r = bz c /\ bz c < 128 /\ w' = [] \/ 0xC2 <= bz c <= 0xF4).
Proof. intro H. inversion H; subst; eexists _, _; (split; [reflexivity|]); [left; auto|right|right|right]; lia. Qed.
Lemma decode_utf8 r w s : utf8 r w -> decode_rune (w ++ s) = (r, len w).
Proof.
  intro H. inversion H; subst; cbn [app List.length decode_rune].
  - replace (bz a <? 128) with true by lia. reflexivity.
  - replace (bz a <? 128) with false by lia. replace (bz a <? 194) with false by lia. replace (bz a <? 224) with true by lia.
    unfold cont. replace ((128 <=? bz b) && (bz b <=? 191)) with true by lia. reflexivity.
  - replace (bz a <? 128) with false by lia. replace (bz a <? 194) with false by lia. replace (bz a <? 224) with false by lia. replace (bz a <? 240) with true by lia.
    unfold cont. destruct (Z.eqb_spec (bz a) 224), (Z.eqb_spec (bz a) 237); try lia;
    match goal with |- (if ?x then _ else _) = _ => replace x with true by lia end; reflexivity.
  - replace (bz a <? 128) with false by lia. replace (bz a <? 194) with false by lia. replace (bz a <? 224) with false by lia. replace (bz a <? 240) with false by lia.
    replace (bz a <? 245) with true by lia. unfold cont. destruct (Z.eqb_spec (bz a) 240), (Z.eqb_spec (bz a) 244); try lia;
    match goal with |- (if ?x then _ else _) = _ => replace x with true by lia end; reflexivity.
Qed.
Lemma zb_is z c : z = bz c -> zb z = c.
Proof. intros ->. apply zb_bz. Qed.
Lemma encode_utf8 r w : utf8 r w -> encode_rune r = w.
Proof.
  intro H. inversion H; subst; unfold encode_rune.
  - replace (bz a <? 128) with true by lia. rewrite zb_bz. reflexivity.
  - match goal with |- context [if ?r <? 128 then _ else _] => remember r as x eqn:Ex end. clear H. replace (x <? 128) with false by lia. replace (x <? 2048) with true by lia.
    assert (x / 64 = bz a - 192) by (symmetry; apply Z.div_unique with (bz b - 128); lia). pose proof (Z.div_mod x 64). repeat f_equal; apply zb_is; lia.
  - match goal with |- context [if ?r <? 128 then _ else _] => remember r as x eqn:Ex end. clear H. replace (x <? 128) with false by lia. replace (x <? 2048) with false by lia. replace (x <? 65536) with true by lia.
    assert (x / 4096 = bz a - 224) by (symmetry; apply Z.div_unique with ((bz b - 128) * 64 + (bz c - 128)); lia).
    assert (x / 64 = (bz a - 224) * 64 + (bz b - 128)) by (symmetry; apply Z.div_unique with (bz c - 128); lia).
    pose proof (Z.div_mod x 64). assert (x / 64 mod 64 = bz b - 128) by (symmetry; apply Z.mod_unique with (bz a - 224); lia). repeat f_equal; apply zb_is; lia.
  - match goal with |- context [if ?r <? 128 then _ else _] => remember r as x eqn:Ex end. clear H. replace (x <? 128) with false by lia. replace (x <? 2048) with false by lia. replace (x <? 65536) with false by lia.
    assert (x / 262144 = bz a - 240) by (symmetry; apply Z.div_unique with ((bz b - 128) * 4096 + (bz c - 128) * 64 + (bz d - 128)); lia).
    assert (x / 4096 = (bz a - 240) * 64 + (bz b - 128)) by (symmetry; apply Z.div_unique with ((bz c - 128) * 64 + (bz d - 128)); lia).
    assert (x / 64 = (bz a - 240) * 4096 + (bz b - 128) * 64 + (bz c - 128)) by (symmetry; apply Z.div_unique with (bz d - 128); lia).
    pose proof (Z.div_mod x 64). assert (x / 64 mod 64 = bz c - 128) by (symmetry; apply Z.mod_unique with ((bz a - 240) * 64 + (bz b - 128)); lia).
    assert (x / 4096 mod 64 = bz b - 128) by (symmetry; apply Z.mod_unique with (bz a - 240); lia). repeat f_equal; apply zb_is; lia.
Qed.
(** ASCII letters *)
Lemma letters_ascii w : Forall (fun c => name_char c = true) w -> letters E w.
Proof.
  induction 1 as [|c w Hc _ IH]; [constructor|]. pose proof (name_char_ascii c Hc) as Ha. apply (letters_cons E (bz c) [c] w); [constructor; exact Ha| |exact IH].
  rewrite name_char_rune by exact Ha. exact Hc.
Qed.
Lemma letters_head c w : letters E (c :: w) -> name_char c = true \/ 0xC2 <= bz c <= 0xF4.
Proof.
  intro H. inversion H as [|r u s Hu Hr Hs Eq]. destruct (utf8_head r u Hu) as (c' & u' & -> & Hc). cbn [app] in Eq. injection Eq as -> _.
  destruct Hc as [(-> & Hc & _)|Hc]; [left|right; exact Hc]. rewrite <- name_char_rune by exact Hc. exact Hr.
Qed.
Lemma name_ascii w : w <> [] -> Forall (fun c => name_char c = true) w -> name E w.
Proof. intros H1 H2. split; [exact H1|apply letters_ascii, H2]. Qed.

(** What follows a token *)
Definition token_end (r : bytes) : Prop :=
  match L with None => ends_name E r | Some _ => exists c r', r = c :: r' /\ bz c < 128 /\ name_char c = false end.
Lemma token_end_ascii c r : bz c < 128 -> name_char c = false -> token_end (c :: r).
Proof.
  intros H1 H2. unfold token_end. destruct L; [eauto|]. right. exists (bz c), [c], r. split; [reflexivity|]. split; [constructor; exact H1|]. rewrite name_char_rune; auto.
Qed.
Lemma x_token_scan w : forall f r tok eaten, letters E w -> ends_name E r -> (List.length w <= f)%nat ->
  token_scan E f (w ++ r) tok eaten = (tok ++ w, eaten ++ w, r).
Proof.
  intros f r tok eaten Hw Hr. revert f tok eaten. induction Hw as [|x u s Hu Hx Hs IH]; intros f tok eaten Hf.
  - rewrite !app_nil_r. cbn [app]. destruct f as [|f]; [reflexivity|]. destruct r as [|c r]; [reflexivity|]. destruct Hr as [Hr|(x & u & r' & Er & Hu & Hx)]; [discriminate|].
    cbn [token_scan]. rewrite Er, (decode_utf8 x u r' Hu), (name_rune_token x (utf8_range x u Hu)), Hx. reflexivity.
  - destruct (utf8_head x u Hu) as (c & u' & Eu & _). rewrite app_length in Hf. destruct f as [|f]; [rewrite Eu in Hf; cbn in Hf; lia|].
    rewrite <- app_assoc. assert (Ec : exists z, u ++ s ++ r = c :: z) by (rewrite Eu; cbn; eauto). destruct Ec as (z & Ec).
    cbn [token_scan]. rewrite Ec. rewrite <- Ec. rewrite (decode_utf8 x u (s ++ r) Hu), (name_rune_token x (utf8_range x u Hu)), Hx, (encode_utf8 x u Hu), Nat2Z.id.
    rewrite skipn_app, skipn_all, Nat.sub_diag, firstn_app, firstn_all, Nat.sub_diag. cbn [skipn firstn app]. rewrite app_nil_r, IH; [rewrite !app_assoc; reflexivity|rewrite Eu in Hf; cbn in Hf; lia].
Qed.
Definition fit (w : bytes) : Prop :=
  match L with None => True | Some N => Forall (fun c => name_char c = true) w /\ (List.length w <= N)%nat end.
Lemma fit_nil : fit [].
Proof. unfold fit. destruct L; [|exact I]. split; [constructor|cbn; lia]. Qed.
Lemma x_tok {A} (k : bytes -> prog A) w s r h Q : at_ s (w ++ r) -> letters E w -> fit w -> token_end r ->
  (forall s', at_ s' r -> wpx E (k w) s' h Q) -> wpx E (Tok k) s h Q.
Proof.
  intros (Hg & Hf) Hw Hfit Hr H. unfold wpx, fit, token_end in *. destruct L as [N|].
  { cbn [wpl]. destruct Hr as (c & r' & -> & H1 & H2). exists w, c, r'. destruct Hfit as (F1 & F2). split; [exact Hf|]. split; [exact F1|]. split; [exact H1|]. split; [exact H2|]. split; [lia|].
    intros s' Hf' Ho'. apply H. split; [unfold good; congruence|exact Hf']. }
  unfold wpi. cbn [run]. unfold s_token. rewrite Hf, x_token_scan; auto; [|rewrite app_length; lia]. cbn [app].
  apply H. split; [|reflexivity]. intro Ho. cbn [over fut] in *. specialize (Hg Ho). rewrite Hf in Hg. apply app_eq_nil in Hg as (_ & ->). reflexivity.
Qed.

(** *** Numbers *)
Definition num_end (point : bool) (r : bytes) : Prop := match r with [] => True | c :: _ => is_digit c = false /\ (point = true \/ c <> "."%byte) end.
Lemma digit_is c : 48 <= bz c <= 57 -> is_digit c = true.
Proof. unfold is_digit, latin1_digit. lia. Qed.
Lemma x_number_loop w : forall f point buf s r h, Forall (fun c => 48 <= bz c <= 57) w -> num_end point r -> at_ s (w ++ r) -> (List.length w < f)%nat ->
  wpx E (number_loop f point buf) s h (fun a s' h' => a = buf ++ w /\ at_ s' r /\ h' = h).
Proof.
  induction w as [|c w IH]; intros f point buf s r h Hw Hr Ha Hl; (destruct f as [|f]; [cbn in Hl; lia|]); cbn [number_loop]; cbn [app] in *.
  - destruct r as [|c r].
    + apply x_get_end; [exact Ha|]. intro p. change (is_digit x00) with false. replace (negb point && beq x00 ".") with false by (destruct point; reflexivity).
      cbn iota. apply x_un_end. intros s' Ha'. apply wpx_ret. rewrite app_nil_r. auto.
    + destruct Hr as (H1 & H2). eapply x_get; [exact Ha|]. intro p. rewrite H1. replace (negb point && beq c ".") with false.
      * apply x_un. intros s' Ha'. apply wpx_ret. rewrite app_nil_r. auto.
      * destruct H2 as [->|H2]; [reflexivity|]. apply beq_neq in H2. rewrite H2, andb_false_r. reflexivity.
  - inversion Hw as [|? ? Hc Hw']; subst. eapply x_get; [exact Ha|]. intro p. rewrite (digit_is c Hc).
    replace (buf ++ c :: w) with ((buf ++ [c]) ++ w) by (rewrite <- app_assoc; reflexivity). apply IH; auto; [|cbn in Hl; lia].
    split; [apply good_false|reflexivity].
Qed.
Lemma x_number_point w : forall f buf d s r h, Forall (fun c => 48 <= bz c <= 57) w -> Forall (fun c => 48 <= bz c <= 57) d -> num_end true r -> at_ s (w ++ "."%byte :: d ++ r) -> (List.length w + 1 + List.length d < f)%nat ->
  wpx E (number_loop f false buf) s h (fun a s' h' => a = buf ++ w ++ "."%byte :: d /\ at_ s' r /\ h' = h).
Proof.
  induction w as [|c w IH]; intros f buf d s r h Hw Hd Hr Ha Hl; (destruct f as [|f]; [cbn in Hl; lia|]); cbn [number_loop]; cbn [app] in *.
  - eapply x_get; [exact Ha|]. intro p. change (is_digit ".") with false. change (beq "." ".") with true. cbn [negb andb].
    replace (buf ++ "."%byte :: d) with ((buf ++ ["."%byte]) ++ d) by (rewrite <- app_assoc; reflexivity). apply x_number_loop; auto; [|cbn in Hl; lia].
    split; [apply good_false|reflexivity].
  - inversion Hw as [|? ? Hc Hw']; subst. eapply x_get; [exact Ha|]. intro p. rewrite (digit_is c Hc).
    replace (buf ++ c :: w ++ "."%byte :: d) with ((buf ++ [c]) ++ w ++ "."%byte :: d) by (rewrite <- app_assoc; reflexivity). apply IH; auto; [|cbn in Hl; lia].
    split; [apply good_false|reflexivity].
Qed.
Lemma x_Number w s r h : number_text w -> num_end false r -> at_ s (w ++ r) -> (List.length w < F)%nat ->
  wpx E (Number_tok F) s h (fun a s' h' => a = Some w /\ at_ s' r /\ h' = h).
Proof.
  intros (sign & a & b & -> & Hsg & (Hne & Ha) & Hb) Hr Hat HF. unfold Number_tok. apply wpx_bind. eapply wpx_mono; [apply x_peek, Hat|]. cbn beta. intros c s1 h1 (-> & H1 & ->).
  rewrite !app_length in HF.
  assert (Hloop : forall s2, at_ s2 (a ++ b ++ r) -> wpx E (number_loop F false []) s2 h (fun x s' h' => x = a ++ b /\ at_ s' r /\ h' = h)).
  { intros s2 H2. destruct Hb as [->|(d & -> & Hd)].
    - rewrite app_nil_r. apply (x_number_loop a F false [] s2 r h); auto. cbn in HF. lia.
    - apply (x_number_point a F [] d s2 r h); auto.
      + destruct r as [|c r']; [exact I|]. destruct Hr as (Hr1 & _). split; auto.
      + cbn [List.length] in HF. lia. }
  assert (Hnil : a ++ b <> []) by (intro Hx; apply app_eq_nil in Hx as (Hx & _); auto).
  destruct Hsg as [->| ->]; cbn [app] in *.
  - destruct a as [|a0 a']; [congruence|]. cbn [app] in *. assert (Hd0 : 48 <= bz a0 <= 57) by (inversion Ha; auto).
    replace (beq a0 "-" || beq a0 "+") with false.
    2:{ destruct (beq_spec a0 "-") as [->|]; [cbn in Hd0; lia|]. destruct (beq_spec a0 "+") as [->|]; [cbn in Hd0; lia|reflexivity]. }
    apply wpx_bind, wpx_ret, wpx_bind. eapply wpx_mono; [apply Hloop; rewrite app_assoc in *; exact H1|]. cbn beta.
    intros x s' h' (-> & Hx & ->). apply wpx_ret. cbn. auto.
  - cbn [beq]. change (beq "-" "-" || beq "-" "+") with true. apply wpx_bind, wpx_bind. rewrite <- app_assoc in H1. eapply wpx_mono; [apply (x_byte s1 "-" (a ++ b ++ r)); exact H1|].
    cbn beta. intros x s2 h2 (-> & H2 & ->). apply wpx_ret, wpx_bind. eapply wpx_mono; [apply Hloop, H2|]. cbn beta. intros x s3 h3 (-> & H3 & ->). apply wpx_ret.
    destruct (a ++ b); [congruence|]. cbn. auto.
Qed.

(** *** Events *)
Definition adds (h : handler) (f : list tree) (h' : handler) : Prop :=
  h_inv h' /\ cur h' = cur h /\ evs h' = evs h ++ vpre (cur h) f.
Lemma vpre_app l f1 f2 : vpre l (f1 ++ f2) = vpre l f1 ++ vpre l f2.
Proof. unfold vpre, pres. rewrite flat_map_app, map_app. reflexivity. Qed.
Lemma adds_nil h : h_inv h -> adds h [] h.
Proof. intro H. split; [exact H|]. split; [reflexivity|]. cbn. rewrite app_nil_r. reflexivity. Qed.
Lemma adds_app h f1 h1 f2 h2 : adds h f1 h1 -> adds h1 f2 h2 -> adds h (f1 ++ f2) h2.
Proof.
  intros (A1 & A2 & A3) (B1 & B2 & B3). split; [exact B1|]. split; [congruence|]. rewrite B3, A3, A2, vpre_app, app_assoc. reflexivity.
Qed.
Lemma adds_leaf h s : h_inv h -> adds h [T s []] (h_add (VStr s) h).
Proof. intro H. split; [apply h_add_inv, H|]. split; reflexivity. Qed.
Lemma adds_under h s k h1 : adds (h_inc (h_add (VStr s) h)) k h1 -> h_inv h1 /\ cur h1 = cur h + 1 /\ evs h1 = evs h ++ vpre (cur h) [T s k].
Proof.
  intros (A1 & A2 & A3). split; [exact A1|]. cbn in A2. split; [exact A2|]. rewrite A3. cbn [h_inc h_add evs cur]. rewrite vpre_node, app_nil_r, <- app_assoc. reflexivity.
Qed.
Lemma adds_dec h s k h1 : h_inv h -> adds (h_inc (h_add (VStr s) h)) k h1 -> adds h [T s k] (h_dec h1).
Proof.
  intros Hi H. destruct (adds_under h s k h1 H) as (A1 & A2 & A3). split; [apply h_dec_inv, A1|]. split; [|exact A3].
  cbn [h_dec cur]. destruct Hi as (Hi & _). rewrite A2. replace (0 <? cur h + 1) with true by lia. lia.
Qed.
Lemma adds_set h s k h1 : h_inv h -> adds (h_inc (h_add (VStr s) h)) k h1 -> adds h [T s k] (h_set_level (cur h) h1).
Proof.
  intros Hi H. destruct (adds_under h s k h1 H) as (A1 & A2 & A3). split; [apply h_set_inv; [apply Hi|exact A1]|]. split; [reflexivity|exact A3].
Qed.
Lemma under_inv h s : h_inv h -> h_inv (h_inc (h_add (VStr s) h)).
Proof. intro H. apply h_inc_inv, h_add_inv, H. Qed.

(** *** What is asked of the parts of a path: in the real buffer that the names are ASCII and their
    length within the bound on Token8's loop *)
Definition elem_in (e : elem) : Prop :=
  match L with None => elem_ok E e | Some _ => elem_ok E e /\ match e with Name w => fit w | _ => True end end.
Lemma elem_in_ok e : elem_in e -> elem_ok E e.
Proof. unfold elem_in. destruct L; tauto. Qed.
Lemma elem_in_fit w : elem_in (Name w) -> fit w.
Proof. unfold elem_in, fit. destruct L; tauto. Qed.
Lemma elems_in_ok es : Forall elem_in es -> Forall (elem_ok E) es.
Proof. apply Forall_impl. exact elem_in_ok. Qed.

(** *** Indexes with a number *)
Ltac call L := apply wpx_bind; eapply wpx_mono; [apply L|]; cbn beta.

Lemma digits_number n : digits n -> number_text n.
Proof. intro H. exists [], n, []. rewrite app_nil_r. auto. Qed.
Lemma digits_head n : digits n -> exists c r, n = c :: r /\ 48 <= bz c <= 57.
Proof. intros (H1 & H2). destruct n as [|c r]; [congruence|]. inversion H2; subst. eauto. Qed.
Lemma digit_blank c : 48 <= bz c <= 57 -> is_space c = false.
Proof. unfold is_space. lia. Qed.
Lemma digit_letter c : 48 <= bz c <= 57 -> is_letter c = false.
Proof. intro H. unfold is_letter, latin1_letter. destruct (beq_spec c "_") as [->|]; [cbn in H; lia|]. lia. Qed.

Lemma x_number_expr f n s r h : digits n -> at_ s (n ++ "]"%byte :: r) -> h_inv h -> (List.length n < F)%nat -> (2 <= f)%nat ->
  wpx E (Expression F f) s h (fun _ s' h' => at_ s' ("]"%byte :: r) /\ adds h [T n []] h').
Proof.
  intros Hn Ha Hh HF Hf. destruct f as [|[|f]]; try lia. destruct (digits_head n Hn) as (c & n' & En & Hc).
  cbn [Expression UnaryExpression expr_loop]. apply wpx_bind. call x_peek; [exact Ha|]. intros x s1 h1 (-> & H1 & ->).
  rewrite En. cbn [app]. rewrite (digit_letter c Hc). rewrite <- En.
  call (x_Number n s1 ("]"%byte :: r) h); auto; [apply digits_number, Hn|split; [reflexivity|right; discriminate]|]. intros x s2 h2 (-> & H2 & ->).
  apply wpx_emit, wpx_ret.
  call (x_Space s2 [] ("]"%byte :: r)); [exact H2|constructor|reflexivity|cbn; lia|]. intros _ s3 h3 (H3 & ->).
  unfold Operator. call (x_span is_operator [] [] s3 ("]"%byte :: r)); auto; [reflexivity|cbn; lia|]. intros x s4 h4 (-> & H4 & ->). cbn [app].
  apply wpx_ret. split; [exact H4|]. apply adds_leaf, Hh.
Qed.

Lemma x_index f n s r h : digits n -> at_ s ("["%byte :: n ++ "]"%byte :: r) -> h_inv h -> (List.length n < F)%nat -> (3 <= f)%nat ->
  wpx E (bracket F f "[" "]" TypeIndex) s h (fun b s' h' => b = true /\ at_ s' r /\ adds h [elem_tree (Index n)] h').
Proof.
  intros Hn Ha Hh HF Hf. destruct f as [|f]; [lia|]. cbn [bracket]. call x_peek; [exact Ha|]. intros x s1 h1 (-> & H1 & ->).
  change (negb (beq "[" "[")) with false. cbn iota. call x_byte; [exact H1|]. intros ? s2 h2 (_ & H2 & ->).
  apply wpx_Level, wpx_emit, wpx_Inc. destruct (digits_head n Hn) as (c & n' & En & Hc).
  call (x_Space s2 [] (n ++ "]"%byte :: r)); [exact H2|constructor|rewrite En; apply (digit_blank c Hc)|cbn; lia|]. intros _ s3 h3 (H3 & ->).
  call (x_number_expr f n s3 r); auto; [apply under_inv, Hh|lia|]. intros _ s4 h4 (H4 & A4).
  call (x_Space s4 [] ("]"%byte :: r)); [exact H4|constructor|reflexivity|cbn; lia|]. intros _ s5 h5 (H5 & ->).
  call x_peek; [exact H5|]. intros x s6 h6 (-> & H6 & ->). change (negb (beq "]" "]")) with false. cbn iota.
  call x_byte; [exact H6|]. intros ? s7 h7 (_ & H7 & ->). apply wpx_Set, wpx_ret. split; [reflexivity|]. split; [exact H7|].
  exact (adds_set h _ _ _ Hh A4).
Qed.

(** *** Paths *)
Definition path_body (f : nat) (dot anything : bool) : prog bool :=
  do q <- Quoted F 0;
  match q with
  | Some b => skip emit b; path_loop F f false dot true
  | None =>
  Tok (fun b =>
  match b with
  | _ :: _ => skip emit b; path_loop F f false dot true
  | [] =>
  do i <- bracket F f "[" "]" TypeIndex;
  if i then path_loop F f false dot true else
  do i <- bracket F f "{" "}" TypeSelector;
  if i then path_loop F f false dot true else
  do i <- Args F f dot;
  if i then path_loop F f false dot true else Ret anything
  end)
  end.
Lemma path_loop_S f begin dot anything : path_loop F (S f) begin dot anything =
  (do go <- (if begin then Ret (Some dot)
             else do c <- Byte_;
                  if beq c "." then Ret (Some true)
                  else UnB (Ret (if beq c "[" || beq c "(" || beq c "{" then Some false else None)));
   match go with None => Ret anything | Some dot => path_body f dot anything end).
Proof. reflexivity. Qed.

(** What follows a path *)
Definition path_end (r : bytes) : Prop :=
  token_end r /\ match r with [] => True | c :: _ => ~ In c ["."; "["; "("; "{"]%byte end.
Lemma path_end_ascii c r : bz c < 128 -> name_char c = false -> ~ In c ["."; "["; "("; "{"]%byte -> path_end (c :: r).
Proof. intros H1 H2 H3. split; [apply token_end_ascii; assumption|exact H3]. Qed.
Lemma elem_token_end es r : path_end r -> token_end (flat_map (elem_text false) es ++ r).
Proof.
  intro Hr. destruct es as [|[s|q s|n] es]; cbn.
  - exact (proj1 Hr).
  - apply token_end_ascii; [cbn; lia|reflexivity].
  - apply token_end_ascii; [cbn; lia|reflexivity].
  - apply token_end_ascii; [cbn; lia|reflexivity].
Qed.

Lemma x_body f dot a e s r h (Q : bool -> stream -> handler -> Prop) : elem_in e -> at_ s (elem_text true e ++ r) -> token_end r -> h_inv h ->
  (List.length (elem_text true e) < F)%nat -> (3 <= f)%nat ->
  (forall s' h', at_ s' r -> adds h [elem_tree e] h' -> wpx E (path_loop F f false dot true) s' h' Q) ->
  wpx E (path_body f dot a) s h Q.
Proof.
  intros Hin Ha Hr Hh HF Hf HQ. pose proof (elem_in_ok e Hin) as He. unfold path_body. destruct e as [w|q w|n]; cbn [elem_text app elem_ok elem_tree] in *.
  - destruct He as (Hne & Hw). apply elem_in_fit in Hin. destruct w as [|c w]; [congruence|].
    assert (Hq : is_quote c = false).
    { exact (letters_no_quote c w (letters_head c w Hw)). }
    call (x_no_Quoted s ((c :: w) ++ r)); [exact Ha|exact Hq|]. intros x s1 h1 (-> & H1 & ->).
    apply (x_tok _ (c :: w) s1 r); auto. intros s2 H2. apply wpx_emit. apply HQ; [exact H2|]. apply adds_leaf, Hh.
  - destruct He as (Hq & Hw). cbn [List.length] in HF. rewrite app_length in HF. rewrite <- app_assoc in Ha. cbn [app] in Ha.
    call (x_Quoted q w s r); auto; [lia|]. intros x s1 h1 (-> & H1 & ->). apply wpx_emit. apply HQ; [exact H1|]. apply adds_leaf, Hh.
  - cbn [List.length] in HF. rewrite app_length in HF. rewrite <- app_assoc in Ha. cbn [app] in Ha.
    call (x_no_Quoted s ("["%byte :: n ++ "]"%byte :: r)); [exact Ha|reflexivity|]. intros x s1 h1 (-> & H1 & ->).
    apply (x_tok _ [] s1 ("["%byte :: n ++ "]"%byte :: r)); auto; [constructor|apply fit_nil|apply token_end_ascii; [cbn; lia|reflexivity]|]. intros s2 H2.
    call (x_index f n s2 r); auto; [lia|]. intros b s3 h3 (-> & H3 & A3). apply HQ; auto.
Qed.

Lemma adds_inv h f h' : adds h f h' -> h_inv h'.
Proof. intros (H & _). exact H. Qed.

Lemma x_path_rest es : forall f dot s r h, Forall (elem_in) es -> at_ s (flat_map (elem_text false) es ++ r) -> path_end r -> h_inv h ->
  (List.length (flat_map (elem_text false) es) < F)%nat -> (List.length es + 4 <= f)%nat ->
  wpx E (path_loop F f false dot true) s h (fun b s' h' => b = true /\ at_ s' r /\ adds h (map elem_tree es) h').
Proof.
  induction es as [|e es IH]; intros f dot s r h Hes Ha Hr Hh HF Hf; (destruct f as [|f]; [cbn in Hf; lia|]); rewrite path_loop_S; cbn iota.
  - cbn [flat_map app map] in *. apply wpx_bind. unfold Byte_. cbn [pbind]. destruct r as [|c r].
    + apply x_get_end; [exact Ha|]. intro p. change (beq x00 ".") with false. cbn iota. apply x_un_end. intros s' Ha'. apply wpx_ret, wpx_ret.
      split; [reflexivity|]. split; [exact Ha'|]. apply adds_nil, Hh.
    + destruct Hr as (H1 & H3). eapply x_get; [exact Ha|]. intro p. destruct (beq_spec c ".") as [->|N1]; [exfalso; apply H3; cbn; auto|].
      destruct (beq_spec c "[") as [->|N2]; [exfalso; apply H3; cbn; auto|]. destruct (beq_spec c "(") as [->|N3]; [exfalso; apply H3; cbn; auto|].
      destruct (beq_spec c "{") as [->|N4]; [exfalso; apply H3; cbn; auto|]. cbn [orb]. apply x_un. intros s' Ha'. apply wpx_ret, wpx_ret.
      split; [reflexivity|]. split; [exact Ha'|]. apply adds_nil, Hh.
  - inversion Hes as [|? ? He Hes']; subst. cbn [flat_map map] in *. rewrite app_length in HF. cbn [List.length] in Hf.
    assert (Body : forall s1 dot1, at_ s1 (elem_text true e ++ flat_map (elem_text false) es ++ r) ->
       wpx E (path_body f dot1 true) s1 h (fun b s' h' => b = true /\ at_ s' r /\ adds h (elem_tree e :: map elem_tree es) h')).
    { intros s1 dot1 H1. apply (x_body f dot1 true e s1 (flat_map (elem_text false) es ++ r)); auto; [apply elem_token_end; auto| |lia|].
      - destruct e as [w|q w|n]; cbn [elem_text List.length app] in *; lia.
      - intros s2 h2 H2 A2. eapply wpx_mono; [apply (IH f dot1 s2 r h2); auto; [exact (adds_inv _ _ _ A2)|lia|lia]|]. cbn beta. intros b s3 h3 (-> & H3 & A3).
        split; [reflexivity|]. split; [exact H3|]. exact (adds_app _ [elem_tree e] _ _ _ A2 A3). }
    rewrite <- app_assoc in Ha. apply wpx_bind, wpx_bind.
    destruct e as [w|q w|n]; cbn [elem_text app] in Ha.
    + eapply wpx_mono; [apply x_byte, Ha|]. cbn beta. intros c s1 h1 (-> & H1 & ->). change (beq "." ".") with true. cbn iota. apply wpx_ret. apply Body, H1.
    + eapply wpx_mono; [apply x_byte, Ha|]. cbn beta. intros c s1 h1 (-> & H1 & ->). change (beq "." ".") with true. cbn iota. apply wpx_ret. apply Body, H1.
    + unfold Byte_. eapply x_get; [exact Ha|]. intro p. apply wpx_ret. change (beq "[" ".") with false. cbn iota. apply x_un. intros s' Ha'.
      change (beq "[" "[" || beq "[" "(" || beq "[" "{") with true. apply wpx_ret. apply Body. exact Ha'.
Qed.

Lemma x_path es f s r h : Forall (elem_in) es -> at_ s (path_text es ++ r) -> path_end r -> h_inv h -> es <> [] ->
  (List.length (path_text es) < F)%nat -> (List.length es + 4 <= f)%nat ->
  wpx E (path_loop F f true true false) s h (fun b s' h' => b = true /\ at_ s' r /\ adds h (map elem_tree es) h').
Proof.
  intros Hes Ha Hr Hh Hne HF Hf. destruct es as [|e es]; [congruence|]. destruct f as [|f]; [lia|]. rewrite path_loop_S. cbn iota.
  apply wpx_bind, wpx_ret. inversion Hes as [|? ? He Hes']; subst. cbn [path_text] in *. rewrite app_length in HF. rewrite <- app_assoc in Ha. cbn [List.length] in Hf.
  apply (x_body f true false e s (flat_map (elem_text false) es ++ r)); auto; [apply elem_token_end; auto|lia|lia|].
  intros s2 h2 H2 A2. eapply wpx_mono; [apply (x_path_rest es f true s2 r h2); auto; [exact (adds_inv _ _ _ A2)|lia|lia]|]. cbn beta. intros b s3 h3 (-> & H3 & A3).
  split; [reflexivity|]. split; [exact H3|]. exact (adds_app _ [elem_tree e] _ _ _ A2 A3).
Qed.

(** *** Operands *)
Definition operand_in (o : operand) : Prop :=
  match L with None => operand_ok E o | Some _ => operand_ok E o /\ match o with OPath es => Forall elem_in es | _ => True end end.
Lemma operand_in_ok o : operand_in o -> operand_ok E o.
Proof. unfold operand_in. destruct L; tauto. Qed.
Lemma operand_in_path es : operand_in (OPath es) -> Forall elem_in es.
Proof. unfold operand_in, elem_in. destruct L; [tauto|]. intros (H & _). exact H. Qed.

Definition text_end : Prop := match L with None => True | Some _ => False end.
Definition rand_end (r : bytes) : Prop := match r with [] => text_end | c :: _ => is_space c = true \/ is_operator c = true \/ In c (bs "),]}") end.
(** What may follow an expression *)
Definition expr_end (r : bytes) : Prop := match r with [] => text_end | c :: _ => In c (bs "),]}") end.
Lemma operator_cases c : is_operator c = true -> In c (bs "+-*/%&|!<>=~^").
Proof. unfold is_operator. rewrite existsb_exists. intros (x & H1 & H2). apply beq_eq in H2. subst. exact H1. Qed.
Lemma space_cases c : is_space c = true -> In c [x20; x09].
Proof.
  unfold is_space. intro H. apply orb_true_iff in H as [H|H]; apply Z.eqb_eq in H; [left|right; left]; apply bz_inj; rewrite H; reflexivity.
Qed.
Lemma rand_end_cases r : rand_end r -> r = [] /\ text_end \/ exists c r', r = c :: r' /\ In c ([x20; x09] ++ bs "+-*/%&|!<>=~^" ++ bs "),]}").
Proof.
  destruct r as [|c r]; [auto|]. cbn [rand_end]. intro H. right. exists c, r. split; [reflexivity|]. apply in_or_app.
  destruct H as [H|H]; [left; apply space_cases, H|right; apply in_or_app]. destruct H as [H|H]; [left; apply operator_cases, H|right; exact H].
Qed.
Ltac incases H := repeat (destruct H as [<-|H]); [..|destruct H].
Lemma rand_path r : rand_end r -> path_end r.
Proof.
  intro H. destruct (rand_end_cases r H) as [(-> & Ht)|(c & r' & -> & Hc)]; [unfold path_end, token_end, text_end in *; destruct L; [contradiction|]; split; [left; reflexivity|exact I]|]. cbn in Hc.
  incases Hc; (apply path_end_ascii; [cbn; lia|reflexivity|cbn; intuition discriminate]).
Qed.
Lemma rand_num r : rand_end r -> num_end false r.
Proof.
  intro H. destruct (rand_end_cases r H) as [(-> & _)|(c & r' & -> & Hc)]; [exact I|]. cbn in Hc. unfold num_end.
  incases Hc; (split; [reflexivity|right; discriminate]).
Qed.

Lemma elem_text_pos b e : elem_ok E e -> (1 <= List.length (elem_text b e))%nat.
Proof.
  destruct e as [s|q s|n]; cbn [elem_ok elem_text]; intro H.
  - destruct H as (H & _). rewrite app_length. destruct s; [congruence|cbn; lia].
  - rewrite app_length. cbn. lia.
  - cbn. lia.
Qed.
Lemma path_text_length es : Forall (elem_ok E) es -> (List.length es <= List.length (path_text es))%nat.
Proof.
  intro H. destruct es as [|e es]; [cbn; lia|]. inversion H as [|? ? He Hes]; subst. cbn [path_text List.length]. rewrite app_length.
  pose proof (elem_text_pos true e He). enough (List.length es <= List.length (flat_map (elem_text false) es))%nat by lia.
  clear - Hes. induction Hes as [|e es He Hes IH]; [cbn; lia|]. cbn [flat_map List.length]. rewrite app_length. pose proof (elem_text_pos false e He). lia.
Qed.
Lemma name_letter c w : letters E (c :: w) -> ~ (48 <= bz c <= 57) -> c <> xd7 -> is_letter c = true.
Proof.
  intros H1 H2 H3. assert (H3' : bz c <> 215) by (intro Hx; apply H3, bz_inj; exact Hx). apply letters_head in H1. revert H1. unfold name_char, is_letter, latin1_letter. intro H1. destruct (beq_spec c "_") as [->|N]; [rewrite orb_true_r; reflexivity|].
  destruct (Z.eqb_spec (bz c) 95) as [Hx|Hx]; [exfalso; apply N, bz_inj; exact Hx|]. lia.
Qed.

Lemma number_head n : number_text n -> exists c r, n = c :: r /\ (c = "-"%byte \/ 48 <= bz c <= 57).
Proof.
  intros (sign & a & b & -> & [->| ->] & Ha & _); [|cbn; eauto]. destruct (digits_head a Ha) as (c & r & -> & Hc). cbn. eauto.
Qed.

Lemma x_operand o f s r h : operand_in o -> at_ s (operand_text o ++ r) -> rand_end r -> h_inv h ->
  (List.length (operand_text o) < F)%nat -> (List.length (operand_text o) + 5 <= f)%nat ->
  wpx E (UnaryExpression F f) s h (fun b s' h' => b = true /\ at_ s' r /\ adds h [operand_tree o] h').
Proof.
  intros Ho Ha Hr Hh HF Hf. destruct f as [|f]; [lia|]. cbn [UnaryExpression]. call x_peek; [exact Ha|]. intros c s1 h1 (-> & H1 & ->).
  pose proof (operand_in_ok o Ho) as Hin. destruct o as [n|q w|es]; [clear Ho; rename Hin into Ho|clear Ho; rename Hin into Ho|]; cbn [operand_text operand_ok operand_tree] in *.
  - destruct (number_head n Ho) as (c & n' & En & Hc).
    assert (El : match n ++ r with [] => x00 | c :: _ => c end = c) by (rewrite En; reflexivity). rewrite El.
    assert (Hl : is_letter c = false) by (destruct Hc as [->|Hc]; [reflexivity|apply digit_letter, Hc]). rewrite Hl.
    call (x_Number n s1 r h); auto; [apply rand_num, Hr|]. intros x s2 h2 (-> & H2 & ->). apply wpx_emit, wpx_ret.
    split; [reflexivity|]. split; [exact H2|]. apply adds_leaf, Hh.
  - destruct Ho as (Hq & Hw). cbn [app List.length] in *. rewrite app_length in HF. rewrite <- app_assoc in H1. cbn [app] in H1.
    assert (Hl : is_letter q = false) by (destruct Hq as [->|[->| ->]]; reflexivity). rewrite Hl.
    (* no number *)
    apply wpx_bind. eapply (wpx_mono E _ s1 h (fun a s' h' => a = None /\ at_ s' (q :: w ++ q :: r) /\ h' = h)).
    { unfold Number_tok. call x_peek; [exact H1|]. intros c s2 h2 (-> & H2 & ->).
      replace (beq q "-" || beq q "+") with false by (destruct Hq as [->|[->| ->]]; reflexivity).
      apply wpx_bind, wpx_ret, wpx_bind. eapply wpx_mono; [apply (x_number_loop [] F false [] s2 (q :: w ++ q :: r)); auto|].
      - cbn [num_end]. split; [destruct Hq as [->|[->| ->]]; reflexivity|right; destruct Hq as [->|[->| ->]]; discriminate].
      - cbn. lia.
      - cbn beta. intros a s3 h3 (-> & H3 & ->). apply wpx_ret. auto. }
    intros a s2 h2 (-> & H2 & ->). call (x_Quoted q w s2 r); auto; [lia|]. intros x s3 h3 (-> & H3 & ->).
    apply wpx_emit, wpx_Inc, wpx_emit, wpx_Dec, wpx_ret. split; [reflexivity|]. split; [exact H3|].
    apply (adds_dec h (bs "!string") [T w []]); [exact Hh|]. apply adds_leaf, under_inv, Hh.
  - destruct Hin as (Hes' & Hst). pose proof (operand_in_path es Ho) as Hes. pose proof (path_text_length es Hes') as Hpl.
    assert (Hhd : exists c r', path_text es ++ r = c :: r' /\ is_letter c = true).
    { destruct es as [|[[|c w]|q w|n] es]; cbn [starts_with_letter] in Hst; try contradiction. cbn [path_text elem_text app].
      eexists c, _. split; [reflexivity|]. pose proof (Forall_inv Hes') as (_ & Hw). destruct Hst as (_ & Hst1 & Hst2). exact (name_letter c w Hw Hst1 Hst2). }
    destruct Hhd as (c & r' & Ec & Hl). rewrite Ec, Hl.
    apply wpx_emit, wpx_Inc. call (x_path es f s1 r); auto; [apply rand_path, Hr|apply under_inv, Hh|destruct es; [destruct Hst|discriminate]|lia|].
    intros b s2 h2 (-> & H2 & A2). apply wpx_Dec, wpx_ret. split; [reflexivity|]. split; [exact H2|]. exact (adds_dec h _ _ _ Hh A2).
Qed.

(** *** Operators and operands *)
Definition step_in (x : step) : Prop := match L with None => step_ok E x | Some _ => step_ok E x /\ operand_in (rand x) end.
Lemma step_in_ok x : step_in x -> step_ok E x.
Proof. unfold step_in. destruct L; tauto. Qed.
Lemma step_in_rand x : step_in x -> operand_in (rand x).
Proof. unfold step_in, operand_in. destruct L; [tauto|]. intros (_ & _ & H & _). exact H. Qed.
Lemma steps_in_ok l : Forall step_in l -> Forall (step_ok E) l.
Proof. apply Forall_impl. exact step_in_ok. Qed.
Lemma step_in_make x : step_ok E x -> operand_in (rand x) -> step_in x.
Proof. unfold step_in. destruct L; tauto. Qed.
Definition step_trees (x : step) : list tree := [T (op_text (oper x)) []; operand_tree (rand x)].
Definition unpad (l : list step) : list step := match l with [] => [] | x :: l => mkStep [] (oper x) (after x) (rand x) :: l end.

Lemma op_text_ops o : Forall (fun c => is_operator c = true) (op_text o).
Proof. destruct o; repeat constructor. Qed.
Lemma op_text_pos o : (1 <= List.length (op_text o) <= 2)%nat.
Proof. destruct o; cbn; lia. Qed.
Lemma steps_end l r : Forall (step_ok E) l -> expr_end r -> rand_end (flat_map step_text l ++ r).
Proof.
  intros H Hr. destruct l as [|x l]; [destruct r; [exact Hr|right; right; exact Hr]|]. inversion H as [|? ? (Hb & _) _]; subst. cbn [flat_map]. unfold step_text.
  destruct (before x) as [|c b] eqn:Eb.
  - cbn. destruct (oper x); cbn; right; left; reflexivity.
  - cbn. left. inversion Hb; subst. apply blank_space. assumption.
Qed.
Lemma expr_end_stops r : expr_end r -> no_blank r /\ stops is_operator r.
Proof. destruct r as [|c r]; [split; exact I|]. cbn. intro H. incases H; split; reflexivity. Qed.
Lemma steps_unpad_no_blank l r : expr_end r -> no_blank (flat_map step_text (unpad l) ++ r).
Proof. intro Hr. destruct l as [|x l]; [apply expr_end_stops, Hr|]. cbn. destruct (oper x); reflexivity. Qed.
Lemma unpad_ok l : Forall (step_in) l -> Forall (step_in) (unpad l).
Proof. intro H. destruct l as [|x l]; [constructor|]. inversion H as [|? ? Hx Hl]; subst. constructor; [|exact Hl].
  destruct (step_in_ok x Hx) as (H1 & H2 & H3 & H4). apply step_in_make; [|exact (step_in_rand x Hx)]. repeat split; cbn; auto; constructor. Qed.
Lemma unpad_trees l : flat_map step_trees (unpad l) = flat_map step_trees l.
Proof. destruct l; reflexivity. Qed.
Lemma unpad_split l : Forall (step_ok E) l -> exists b, flat_map step_text l = b ++ flat_map step_text (unpad l) /\ blanks b.
Proof.
  destruct l as [|x l]; intro H; [exists []; split; [reflexivity|constructor]|]. inversion H as [|? ? (H1 & _) Hl]; subst. exists (before x). split; [|exact H1].
  cbn [unpad flat_map]. unfold step_text. cbn [before oper after rand app]. rewrite <- !app_assoc. reflexivity.
Qed.
Lemma operand_head o : operand_ok E o -> exists c r, operand_text o = c :: r /\ is_space c = false /\ (c <> "-"%byte -> is_operator c = false).
Proof.
  destruct o as [n|q w|es]; cbn [operand_ok operand_text]; intro H.
  - destruct (number_head n H) as (c & r & -> & Hc). exists c, r. split; [reflexivity|].
    destruct Hc as [->|Hc]; [split; [reflexivity|congruence]|]. split; [apply digit_blank, Hc|]. intros _. destruct (is_operator c) eqn:Eo; [|reflexivity].
    apply operator_cases in Eo. cbn in Eo. incases Eo; cbn in Hc; lia.
  - destruct H as (Hq & _). exists q, (w ++ [q]). split; [reflexivity|]. destruct Hq as [->|[->| ->]]; (split; [reflexivity|intros _; reflexivity]).
  - destruct H as (_ & H). destruct es as [|[[|c w]|q w|n] es]; cbn [starts_with_letter] in H; try contradiction. destruct H as (H1 & H2 & _).
    cbn [path_text elem_text app]. eexists c, _. split; [reflexivity|]. unfold name_char in H1. split; [unfold is_space; lia|]. intros _. destruct (is_operator c) eqn:Eo; [|reflexivity].
    apply operator_cases in Eo. cbn in Eo. incases Eo; cbn in H1; destruct H1 as [H1|H1]; try discriminate; lia.
Qed.

Lemma x_steps : forall n l f s r h, List.length l = n -> Forall (step_in) l -> expr_end r -> at_ s (flat_map step_text l ++ r) -> h_inv h ->
  (List.length (flat_map step_text l) < F)%nat -> (List.length (flat_map step_text l) + 6 <= f)%nat ->
  wpx E (expr_loop F f) s h (fun b s' h' => b = true /\ at_ s' r /\ adds h (flat_map step_trees l) h').
Proof.
  induction n as [|n IH]; intros l f s r h En Hl Hr Ha Hh HF Hf; (destruct f as [|f]; [lia|]); cbn [expr_loop].
  - destruct l as [|? ?]; [|discriminate]. cbn [flat_map app] in *. call (x_Space s [] r); [exact Ha|constructor|apply expr_end_stops, Hr|cbn; lia|]. intros _ s1 h1 (H1 & ->).
    unfold Operator. call (x_span is_operator [] [] s1 r); auto; [apply expr_end_stops, Hr|]. intros x s2 h2 (-> & H2 & ->). cbn [app]. apply wpx_ret.
    split; [reflexivity|]. split; [exact H2|]. apply adds_nil, Hh.
  - destruct l as [|x l]; [discriminate|]. inversion Hl as [|? ? Hx Hl']; subst. pose proof (step_in_rand x Hx) as Hio. destruct (step_in_ok x Hx) as (Hb & Haf & Ho & Hs). clear Hx. pose proof (steps_in_ok l Hl') as Hl2. cbn [flat_map] in *. change (step_text x) with (before x ++ op_text (oper x) ++ after x ++ operand_text (rand x)) in Ha, HF, Hf.
    rewrite !app_length in HF, Hf. rewrite <- !app_assoc in Ha. pose proof (op_text_pos (oper x)) as Hop. destruct (operand_head _ Ho) as (c & rr & Eo & Hc1 & Hc2).
    call (x_Space s (before x) (op_text (oper x) ++ after x ++ operand_text (rand x) ++ flat_map step_text l ++ r)); [exact Ha|exact Hb| |lia|].
    { destruct (oper x); reflexivity. }
    intros _ s1 h1 (H1 & ->). unfold Operator.
    call (x_span is_operator (op_text (oper x)) [] s1 (after x ++ operand_text (rand x) ++ flat_map step_text l ++ r)); auto; [apply op_text_ops| |lia|].
    { destruct (after x) as [|a0 af] eqn:Ea.
      - cbn [app]. rewrite Eo in *. cbn [app stops]. apply Hc2. intro Hx. apply (Hs Hx). reflexivity.
      - cbn. inversion Haf as [|? ? Hx _]; subst. apply blank_space, space_cases in Hx. cbn in Hx. incases Hx; reflexivity. }
    intros x2 s2 h2 (-> & H2 & ->). cbn [app]. destruct (op_text (oper x)) as [|o0 ot] eqn:Eot; [cbn in Hop; lia|]. rewrite <- Eot in *.
    apply wpx_emit. call (x_Space s2 (after x) (operand_text (rand x) ++ flat_map step_text l ++ r)); [exact H2|exact Haf|rewrite Eo; exact Hc1|lia|].
    intros _ s3 h3 (H3 & ->).
    call (x_operand (rand x) f s3 (flat_map step_text l ++ r)); auto; [apply steps_end; [exact Hl2|exact Hr]|apply h_add_inv, Hh|lia|lia|].
    intros b s4 h4 (-> & H4 & A4). destruct (unpad_split l Hl2) as (bl & Ebl & Hbl). rewrite Ebl, <- app_assoc in H4. rewrite Ebl, app_length in HF, Hf.
    call (x_Space s4 bl (flat_map step_text (unpad l) ++ r)); [exact H4|exact Hbl|apply steps_unpad_no_blank, Hr|lia|]. intros _ s5 h5 (H5 & ->).
    eapply wpx_mono; [apply (IH (unpad l) f s5 r h4); auto|].
    + clear - En. injection En as <-. destruct l; reflexivity.
    + apply unpad_ok, Hl'.
    + exact (adds_inv _ _ _ A4).
    + lia.
    + lia.
    + cbn beta. intros b s6 h6 (-> & H6 & A6). rewrite unpad_trees in A6. split; [reflexivity|]. split; [exact H6|].
      exact (adds_app _ [T (op_text (oper x)) []] _ _ _ (adds_leaf h _ Hh) (adds_app _ [operand_tree (rand x)] _ _ _ A4 A6)).
Qed.

Lemma x_expression_r a l f s r h : operand_in a -> Forall (step_in) l -> expr_end r -> at_ s (expr_text a l ++ r) -> h_inv h ->
  (List.length (expr_text a l) < F)%nat -> (List.length (expr_text a l) + 8 <= f)%nat ->
  wpx E (Expression F f) s h (fun b s' h' => b = true /\ at_ s' r /\ adds h (operand_tree a :: flat_map step_trees l) h').
Proof.
  intros Ho Hl Hr Ha Hh HF Hf. destruct f as [|f]; [lia|]. cbn [Expression]. unfold expr_text in *. rewrite app_length in *. rewrite <- app_assoc in Ha.
  call (x_operand a f s (flat_map step_text l ++ r)); auto; [apply steps_end; [apply steps_in_ok, Hl|assumption]|lia|lia|]. intros b s1 h1 (-> & H1 & A1).
  eapply wpx_mono; [apply (x_steps (List.length l) l f s1 r h1); auto; [exact (adds_inv _ _ _ A1)|lia|lia]|]. cbn beta. intros b s2 h2 (-> & H2 & A2).
  split; [reflexivity|]. split; [exact H2|]. exact (adds_app _ [operand_tree a] _ _ _ A1 A2).
Qed.
Lemma x_expression a l f s h : text_end -> operand_in a -> Forall (step_in) l -> at_ s (expr_text a l) -> h_inv h ->
  (List.length (expr_text a l) < F)%nat -> (List.length (expr_text a l) + 8 <= f)%nat ->
  wpx E (Expression F f) s h (fun b s' h' => b = true /\ at_ s' [] /\ adds h (operand_tree a :: flat_map step_trees l) h').
Proof. intros He Ho Hl Ha. apply x_expression_r; auto. rewrite app_nil_r. exact Ha. Qed.

End Exact.
Lemma path_end_nil E : path_end E [].
Proof. split; [left; reflexivity|exact I]. Qed.

Section Loose.
Variable E : env.
Variable F : nat.
Ltac call L := apply wpx_bind; eapply wpx_mono; [apply L|]; cbn beta.
(** A name that begins with the byte 0xD7 is not taken for a path *)
Lemma x_loose w f s h : letters E (xd7 :: w) -> at_ s (xd7 :: w) -> h_inv h -> (List.length w + 2 < F)%nat -> (8 <= f)%nat ->
  wpx E (Expression F f) s h (fun _ s' h' => adds h [T (xd7 :: w) []] h').
Proof.
  intros Hw Ha Hh HF Hf. destruct f as [|[|f]]; [lia|lia|]. cbn [Expression UnaryExpression]. apply wpx_bind. call x_peek; [exact Ha|]. intros c s1 h1 (-> & H1 & ->).
  change (is_letter xd7) with false. cbn iota.
  apply wpx_bind. eapply (wpx_mono E _ s1 h (fun a s' h' => a = None /\ at_ s' (xd7 :: w) /\ h' = h)).
  { unfold Number_tok. call x_peek; [exact H1|]. intros c s2 h2 (-> & H2 & ->). change (beq xd7 "-" || beq xd7 "+") with false. cbn iota.
    apply wpx_bind, wpx_ret, wpx_bind. eapply wpx_mono; [apply (x_number_loop E F [] F false [] s2 (xd7 :: w)); auto|].
    - split; [reflexivity|right; discriminate].
    - cbn. lia.
    - cbn beta. intros a s3 h3 (-> & H3 & ->). apply wpx_ret. auto. }
  intros a s2 h2 (-> & H2 & ->). call (x_no_Quoted E F s2 (xd7 :: w)); [exact H2|reflexivity|]. intros q s3 h3 (-> & H3 & ->).
  unfold Operator. call (x_span E F is_operator [] [] s3 (xd7 :: w)); auto; [reflexivity|cbn; lia|]. intros x s4 h4 (-> & H4 & ->). cbn [app]. apply wpx_bind, wpx_ret.
  call x_peek; [exact H4|]. intros c s5 h5 (-> & H5 & ->). change (beq xd7 "(") with false. cbn iota.
  eapply wpx_mono; [apply (x_path E F [Name (xd7 :: w)] f s5 []); auto|].
  - constructor; [split; [discriminate|exact Hw]|constructor].
  - cbn [path_text elem_text flat_map app]. rewrite !app_nil_r. exact H5.
  - apply path_end_nil.
  - discriminate.
  - cbn [path_text elem_text flat_map app]. rewrite app_nil_r. cbn [List.length]. lia.
  - cbn [List.length]. lia.
  - cbn beta. intros b s6 h6 (-> & H6 & A6).
    eapply wpx_mono; [apply (x_steps E F O [] (S f) s6 [] h6); auto; [exact I|exact (adds_inv _ _ _ A6)|cbn; lia|cbn; lia]|]. cbn beta.
    intros b s7 h7 (_ & _ & A7). exact (adds_app _ [T (xd7 :: w) []] _ [] _ A6 A7).
Qed.

End Loose.

(** ** The results *)
Lemma adds_Tree f h : adds h_init f h -> Tree h = Ok (groot f).
Proof.
  intros (H1 & _ & H3). rewrite (h_inv_Tree h H1), H3. cbn [h_init evs cur app]. rewrite events_graph_vpre. reflexivity.
Qed.

Lemma NewPath_names E es fuel : Forall (elem_ok E) es -> es <> [] -> len (path_text es) <= 4094 -> (List.length (path_text es) + 4 <= fuel)%nat ->
  NewPath E fuel (path_text es) = Ok (Node (VStr TypePath) (gforest (map elem_tree es))).
Proof.
  intros Hes Hne Hl Hf. rewrite NewPath_ideal by lia. unfold s_path. pose proof (path_text_length E es Hes) as Hpl.
  pose proof (x_path E fuel es fuel (s_init (path_text es)) [] h_init Hes) as H.
  assert (Ha : at_ (s_init (path_text es)) (path_text es ++ [])) by (rewrite app_nil_r; split; [apply good_false|reflexivity]).
  specialize (H Ha (path_end_nil E) h_init_inv Hne ltac:(lia) ltac:(lia)). unfold wpx, short, wpi in H. change (Path fuel fuel) with (path_loop fuel fuel true true false).
  destruct (run E _ _ _) as [[[b s'] h']| |]; try contradiction. destruct H as (_ & _ & H). cbn [rbind]. rewrite (adds_Tree _ _ H). reflexivity.
Qed.

(** ** The syntax tree *)
Definition ast_list (e : bool) : list (option graph) -> res (list graph) :=
  fix go (l : list (option graph)) : res (list graph) :=
  match l with
  | [] => Ok []
  | None :: l => go l
  | Some n :: l =>
      let* n := ast_ (negb e && bseq (this_string n) TypeExpression) n in
      let* l := go l in Ok (n :: l)
  end.
Lemma ast_eq e v l : ast_ e (Node v l) =
  if e && (List.length l <? 2)%nat then Ok (Node v l)
  else let* l' := ast_list e l in if e then ast_top v l' else Ok (Node v (map Some l')).
Proof. reflexivity. Qed.

(** Trees without expressions inside *)
Inductive flat : tree -> Prop := flat_T s k : Forall flat k -> (s = TypeExpression -> (List.length k < 2)%nat) -> flat (T s k).

Lemma this_gtree s k : this_string (gtree (T s k)) = s.
Proof. reflexivity. Qed.

Lemma ast_flat t : flat t -> ast_ false (gtree t) = Ok (gtree t).
Proof.
  induction t as [s k IH] using tree_ind'. intro Hf. inversion Hf as [? ? Hk Hs]; subst. rewrite gtree_node, ast_eq. cbn [andb].
  enough (Hl : ast_list false (map Some (map gtree k)) = Ok (map gtree k)) by (rewrite Hl; reflexivity).
  clear Hf Hs. induction k as [|t k IHk]; [reflexivity|]. inversion IH; subst. inversion Hk as [|? ? Ht Hk']; subst. cbn [map ast_list negb andb].
  assert (Et : ast_ (bseq (this_string (gtree t)) TypeExpression) (gtree t) = Ok (gtree t)).
  { destruct (bseq (this_string (gtree t)) TypeExpression) eqn:Eb; [|auto]. destruct t as [s' k']. rewrite this_gtree in Eb. apply bseq_eq in Eb.
    inversion Ht as [? ? _ Hs']; subst. specialize (Hs' eq_refl). rewrite gtree_node, ast_eq, !map_length. cbn [andb].
    destruct (Nat.ltb_spec (List.length k') 2); [reflexivity|lia]. }
  rewrite Et. cbn [rbind]. rewrite IHk; auto.
Qed.
Lemma ast_list_flat f : Forall flat f -> ast_list true (gforest f) = Ok (map gtree f).
Proof.
  rewrite gforest_map. induction 1 as [|t f Ht Hf IH]; [reflexivity|]. cbn [map ast_list negb andb]. rewrite (ast_flat t Ht). cbn [rbind]. rewrite IH. reflexivity.
Qed.

Lemma leaf_flat s : flat (T s []).
Proof. constructor; [constructor|cbn; lia]. Qed.
Lemma elem_flat e : flat (elem_tree e).
Proof. destruct e; cbn; try apply leaf_flat. constructor; [constructor; [apply leaf_flat|constructor]|cbn; lia]. Qed.
Lemma operand_flat o : flat (operand_tree o).
Proof.
  destruct o as [n|q w|es]; cbn; [apply leaf_flat| |].
  - constructor; [constructor; [apply leaf_flat|constructor]|cbn; lia].
  - constructor; [|intro H; discriminate]. apply Forall_forall. intros t Ht. apply in_map_iff in Ht as (e & <- & _). apply elem_flat.
Qed.
Lemma steps_flat l : Forall flat (flat_map step_trees l).
Proof. induction l as [|x l IH]; [constructor|]. cbn. constructor; [apply leaf_flat|]. constructor; [apply operand_flat|exact IH]. Qed.

(** *** Reducing *)
Definition gt (t : etree) : graph := gtree (etree_tree t).
Fixpoint items (l : list (optor * etree)) : list graph :=
  match l with [] => [] | (o, t) :: l => gtree (T (op_text o) []) :: gt t :: items l end.

Lemma precedence_op o : precedence (op_text o) = prec o.
Proof. destruct o; reflexivity. Qed.

Fixpoint etree_ok (t : etree) : Prop := match t with Leaf (ONum s) => number_text s | Leaf _ => True | Bin _ l r => etree_ok l /\ etree_ok r end.

Lemma number_digit n : number_text n -> exists c, In c n /\ 48 <= bz c <= 57.
Proof.
  intros (sign & a & b & -> & _ & Ha & _). destruct (digits_head a Ha) as (c & r & -> & Hc). exists c. split; [|exact Hc].
  apply in_or_app. right. apply in_or_app. left. left. reflexivity.
Qed.
Lemma precedence_number n : number_text n -> precedence n = -1.
Proof.
  intro H. destruct (number_digit n H) as (c & Hin & Hc).
  assert (K : forall l, Forall (Forall (fun c => ~ (48 <= bz c <= 57))) l -> existsb (bseq n) l = false).
  { induction 1 as [|x l Hx _ IH]; [reflexivity|]. cbn. rewrite IH, orb_false_r. apply bseq_neq. intros ->.
    rewrite Forall_forall in Hx. exact (Hx c Hin Hc). }
  unfold precedence. rewrite !K; [reflexivity|..]; repeat constructor; cbn; lia.
Qed.
Lemma precedence_gt t j : etree_ok t -> 0 <= j -> root_ge (j + 1) t -> precedence (this_string (gt t)) =? j = false.
Proof.
  intros Hok Hj H. destruct t as [o|op l r].
  - replace (precedence (this_string (gt (Leaf o)))) with (-1); [lia|].
    destruct o as [n|q w|es]; cbn [etree_ok operand_ok] in Hok; [symmetry; apply precedence_number; exact Hok|reflexivity|reflexivity].
  - unfold gt. cbn [etree_tree]. rewrite this_gtree, precedence_op. cbn [root_ge] in H. lia.
Qed.

Fixpoint merge (j : Z) (t : etree) (l : list (optor * etree)) : etree * list (optor * etree) :=
  match l with
  | [] => (t, [])
  | (o, t1) :: l =>
      if prec o =? j then merge j (Bin o t t1) l
      else let (t', l') := merge j t1 l in (t, (o, t') :: l')
  end.

Definition listed (j : Z) (l : list (optor * etree)) : Prop :=
  Forall (fun x => prec (fst x) <= j /\ etree_ok (snd x) /\ root_ge (j + 1) (snd x) /\ grouped (snd x)) l.

Lemma gt_bin o l r : Node (this (gtree (T (op_text o) []))) (out (gtree (T (op_text o) [])) ++ [Some (gt l); Some (gt r)]) = gt (Bin o l r).
Proof. reflexivity. Qed.

Lemma reduce_merge j l : 0 <= j -> listed j l -> forall t pre,
  reduce_at j (gt t :: pre) (items l) = Ok (rev pre ++ gt (fst (merge j t l)) :: items (snd (merge j t l))).
Proof.
  intros Hj Hl. induction Hl as [|[o t1] l (H1 & H2 & H3 & H4) Hl IH]; intros t pre; cbn [items merge fst snd] in *.
  - reflexivity.
  - cbn [reduce_at]. rewrite this_gtree, precedence_op. destruct (prec o =? j) eqn:Ej.
    + rewrite gt_bin. apply IH.
    + cbn [reduce_at]. rewrite (precedence_gt t1 j H2 Hj H3). rewrite IH. destruct (merge j t1 l) as [t' l']. cbn [fst snd items rev]. rewrite <- !app_assoc. reflexivity.
Qed.
Lemma reduce_start j l t : 0 <= j -> listed j l -> etree_ok t -> root_ge (j + 1) t ->
  reduce_at j [] (gt t :: items l) = Ok (gt (fst (merge j t l)) :: items (snd (merge j t l))).
Proof.
  intros Hj Hl Ht Hr. cbn [reduce_at]. rewrite (precedence_gt t j Ht Hj Hr). rewrite reduce_merge by assumption. reflexivity.
Qed.

Definition reading (t : etree) (l : list (optor * etree)) : list (optor * operand) :=
  others t ++ flat_map (fun x => (fst x, first (snd x)) :: others (snd x)) l.

Lemma root_ge_weaken p q t : q <= p -> root_ge p t -> root_ge q t.
Proof. destruct t; cbn; [auto|lia]. Qed.

Lemma merge_spec j l : listed j l -> forall t, etree_ok t -> root_ge j t -> grouped t ->
  let (t', l') := merge j t l in
  etree_ok t' /\ root_ge j t' /\ grouped t' /\ listed (j - 1) l' /\ first t' = first t /\ reading t' l' = reading t l.
Proof.
  induction 1 as [|[o t1] l (H1 & H2 & H3 & H4) Hl IH]; intros t Ht Hr Hg; cbn [merge fst snd] in *.
  - repeat split; auto. constructor.
  - destruct (Z.eqb_spec (prec o) j) as [Ej|Ej].
    + specialize (IH (Bin o t t1)). cbn [etree_ok root_ge grouped] in IH. rewrite Ej in IH.
      specialize (IH (conj Ht H2) ltac:(lia) ltac:(repeat split; auto)).
      destruct (merge j (Bin o t t1) l) as [t' l']. destruct IH as (A & B & C & D & K1 & K2). repeat split; auto.
      unfold reading in *. rewrite K2. cbn [others flat_map fst snd]. rewrite <- app_assoc. reflexivity.
    + specialize (IH t1 H2 (root_ge_weaken (j + 1) j t1 ltac:(lia) H3) H4). destruct (merge j t1 l) as [t' l']. destruct IH as (A & B & C & D & K1 & K2).
      repeat split; auto.
      * constructor; [|exact D]. cbn [fst snd]. replace (j - 1 + 1) with j by lia. repeat split; auto. lia.
      * unfold reading in *. cbn [flat_map fst snd]. rewrite K1. f_equal. cbn [app]. f_equal. exact K2.
Qed.

Lemma prec_range o : 0 <= prec o <= 5.
Proof. destruct o; cbn; lia. Qed.

Definition state_ok (j : Z) (t : etree) (l : list (optor * etree)) : Prop := etree_ok t /\ root_ge (j + 1) t /\ grouped t /\ listed j l.

Lemma reduce_step j t l js : 0 <= j -> state_ok j t l -> exists t' l', state_ok (j - 1) t' l' /\ first t' = first t /\ reading t' l' = reading t l /\
  reduce_all (j :: js) (gt t :: items l) = reduce_all js (gt t' :: items l').
Proof.
  intros Hj (H1 & H2 & H3 & H4). pose proof (merge_spec j l H4 t H1 (root_ge_weaken (j + 1) j t ltac:(lia) H2) H3) as M.
  destruct (merge j t l) as [t' l'] eqn:Em. destruct M as (A & B & C & D & K1 & K2). exists t', l'. repeat split; auto.
  - replace (j - 1 + 1) with j by lia. exact B.
  - cbn [reduce_all]. rewrite (reduce_start j l t Hj H4 H1 H2), Em. reflexivity.
Qed.

Lemma reduce_ok t l : state_ok 6 t l -> exists t', first t' = first t /\ others t' = reading t l /\ grouped t' /\
  reduce_all [6; 5; 4; 3; 2; 1; 0] (gt t :: items l) = Ok [gt t'].
Proof.
  intro H. 
  destruct (reduce_step 6 t l [5; 4; 3; 2; 1; 0] ltac:(lia) H) as (t1 & l1 & S1 & F1 & R1 & E1).
  destruct (reduce_step 5 t1 l1 [4; 3; 2; 1; 0] ltac:(lia) S1) as (t2 & l2 & S2 & F2 & R2 & E2).
  destruct (reduce_step 4 t2 l2 [3; 2; 1; 0] ltac:(lia) S2) as (t3 & l3 & S3 & F3 & R3 & E3).
  destruct (reduce_step 3 t3 l3 [2; 1; 0] ltac:(lia) S3) as (t4 & l4 & S4 & F4 & R4 & E4).
  destruct (reduce_step 2 t4 l4 [1; 0] ltac:(lia) S4) as (t5 & l5 & S5 & F5 & R5 & E5).
  destruct (reduce_step 1 t5 l5 [0] ltac:(lia) S5) as (t6 & l6 & S6 & F6 & R6 & E6).
  destruct (reduce_step 0 t6 l6 [] ltac:(lia) S6) as (t7 & l7 & S7 & F7 & R7 & E7).
  exists t7. destruct S7 as (_ & _ & G7 & L7).
  assert (El : l7 = []).
  { destruct l7 as [|[o x] l7]; [reflexivity|]. inversion L7 as [|? ? (Hx & _) _]; subst. cbn in Hx. pose proof (prec_range o). lia. }
  subst l7. split; [congruence|]. split.
  { unfold reading in R7 at 1. cbn [flat_map] in R7. rewrite app_nil_r in R7. congruence. }
  split; [exact G7|]. rewrite E1, E2, E3, E4, E5, E6, E7. reflexivity.
Qed.

Definition leaves (l : list step) : list (optor * etree) := map (fun x => (oper x, Leaf (rand x))) l.

Lemma items_leaves l : items (leaves l) = map gtree (flat_map step_trees l).
Proof. induction l as [|x l IH]; [reflexivity|]. cbn [leaves map items flat_map step_trees app]. f_equal. f_equal. exact IH. Qed.

Lemma leaves_ok E l : Forall (step_ok E) l -> listed 6 (leaves l).
Proof.
  induction 1 as [|x l (_ & _ & H & _) _ IH]; [constructor|]. constructor; [|exact IH]. cbn. pose proof (prec_range (oper x)). repeat split; auto; [lia|]. destruct (rand x); [exact H|exact I|exact I].
Qed.
Lemma reading_leaves a l : reading (Leaf a) (leaves l) = map (fun x => (oper x, rand x)) l.
Proof. unfold reading. cbn [others app]. induction l as [|x l IH]; [reflexivity|]. cbn. f_equal. exact IH. Qed.

(** The syntax tree of any sequence of operands and operators, of any length *)
Lemma ast_spec E v a l : operand_ok E a -> Forall (step_ok E) l ->
  exists t, first t = a /\ others t = map (fun x => (oper x, rand x)) l /\ grouped t /\
  ast_ true (Node v (gforest (operand_tree a :: flat_map step_trees l))) = Ok (Node v [Some (gtree (etree_tree t))]).
Proof.
  intros Ha Hl. destruct (reduce_ok (Leaf a) (leaves l)) as (t & F1 & R1 & G1 & E1).
  { repeat split; auto; [destruct a; [exact Ha|exact I|exact I]|]. apply (leaves_ok E), Hl. }
  rewrite reading_leaves in R1. exists t. split; [exact F1|]. split; [exact R1|]. split; [exact G1|].
  rewrite ast_eq. assert (El : ast_list true (gforest (operand_tree a :: flat_map step_trees l)) = Ok (gt (Leaf a) :: items (leaves l))).
  { rewrite ast_list_flat; [rewrite items_leaves; reflexivity|]. constructor; [apply operand_flat|apply steps_flat]. }
  destruct l as [|x l].
  - assert (Et : t = Leaf a).
    { destruct t as [o|op t1 t2]; [cbn in F1; congruence|]. cbn in R1. destruct (others t1); discriminate. }
    subst t. reflexivity.
  - rewrite El. cbn [leaves map items flat_map step_trees app gforest List.length andb rbind] in *.
    change (1 <? 2)%nat with true. cbn [Nat.ltb Nat.leb]. cbn iota. unfold ast_top. rewrite E1. reflexivity.
Qed.

Lemma NewExpression_spec E a l fuel : operand_ok E a -> Forall (step_ok E) l -> len (expr_text a l) <= 4094 -> (List.length (expr_text a l) + 8 <= fuel)%nat ->
  exists t, first t = a /\ others t = map (fun x => (oper x, rand x)) l /\ grouped t /\
  NewExpression E fuel (expr_text a l) = Ok (Node (VStr TypeExpression) [Some (gtree (etree_tree t))]).
Proof.
  intros Ha Hl Hlen Hf. destruct (ast_spec E (VStr TypeExpression) a l Ha Hl) as (t & F1 & R1 & G1 & E1).
  exists t. split; [exact F1|]. split; [exact R1|]. split; [exact G1|].
  rewrite NewExpression_ideal by lia. unfold s_expr.
  pose proof (x_expression E fuel a l fuel (s_init (expr_text a l)) h_init I Ha Hl) as H.
  specialize (H ltac:(split; [apply good_false|reflexivity]) h_init_inv ltac:(lia) ltac:(lia)). unfold wpx, short, wpi in H.
  destruct (run E _ _ _) as [[[b s'] h']| |]; try contradiction. destruct H as (_ & _ & H). cbn [rbind]. rewrite (adds_Tree _ _ H). exact E1.
Qed.

Lemma NewExpression_loose E w fuel : letters E (xd7 :: w) -> len (xd7 :: w) <= 4094 -> (List.length (xd7 :: w) + 8 <= fuel)%nat ->
  NewExpression E fuel (xd7 :: w) = Ok (Node (VStr TypeExpression) [Some (Node (VStr (xd7 :: w)) [])]).
Proof.
  intros Hw Hl Hf. rewrite NewExpression_ideal by lia. unfold s_expr. cbn [List.length] in Hf.
  pose proof (x_loose E fuel w fuel (s_init (xd7 :: w)) h_init Hw) as H.
  specialize (H ltac:(split; [apply good_false|reflexivity]) h_init_inv ltac:(lia) ltac:(lia)). unfold wpx, short, wpi in H.
  destruct (run E _ _ _) as [[[b s'] h']| |]; try contradiction. cbn [rbind]. rewrite (adds_Tree _ _ H). reflexivity.
Qed.

(** The conditions determine the tree. *)
Fixpoint ops_ge (p : Z) (t : etree) : Prop := match t with Leaf _ => True | Bin o l r => p <= prec o /\ ops_ge p l /\ ops_ge p r end.
Lemma grouped_ops t : forall p, grouped t -> root_ge p t -> ops_ge p t.
Proof.
  induction t as [o|op l IHl r IHr]; intros p Hg Hr; [exact I|]. destruct Hg as (H1 & H2 & H3 & H4). cbn [root_ge] in Hr. split; [exact Hr|].
  split; [apply IHl; [exact H3|exact (root_ge_weaken _ _ _ Hr H1)]|apply IHr; [exact H4|refine (root_ge_weaken _ _ _ _ H2); lia]].
Qed.
Lemma ops_ge_others p t : ops_ge p t -> Forall (fun x => p <= prec (fst x)) (others t).
Proof.
  induction t as [o|op l IHl r IHr]; intro H; [constructor|]. destruct H as (H1 & H2 & H3). cbn [others]. apply Forall_app. split; [auto|]. constructor; auto.
Qed.
Lemma app_split {A} (a b c d : list A) x y : a ++ x :: b = c ++ y :: d ->
  (a = c /\ x = y /\ b = d) \/ (In y b /\ In x c) \/ (In x d /\ In y a).
Proof.
  revert c. induction a as [|z a IH]; intros [|w c] H; cbn in H; inversion H; subst.
  - left. auto.
  - right. left. split; [apply in_or_app; right; left; reflexivity|left; reflexivity].
  - right. right. split; [apply in_or_app; right; left; reflexivity|left; reflexivity].
  - destruct (IH _ H2) as [(-> & -> & ->)|[(H3 & H4)|(H3 & H4)]]; [left; auto|right; left|right; right]; (split; [assumption|right; assumption]).
Qed.
Lemma grouped_unique t : forall t', grouped t -> grouped t' -> first t = first t' -> others t = others t' -> t = t'.
Proof.
  induction t as [o|op l IHl r IHr]; intros [o'|op' l' r'] Hg Hg' Hf Ho; cbn [first others] in *.
  - congruence.
  - exfalso. destruct (others l'); discriminate.
  - exfalso. destruct (others l); discriminate.
  - destruct Hg as (H1 & H2 & H3 & H4). destruct Hg' as (H1' & H2' & H3' & H4').
    pose proof (ops_ge_others _ _ (grouped_ops l _ H3 H1)) as Ll. pose proof (ops_ge_others _ _ (grouped_ops r _ H4 H2)) as Lr.
    pose proof (ops_ge_others _ _ (grouped_ops l' _ H3' H1')) as Ll'. pose proof (ops_ge_others _ _ (grouped_ops r' _ H4' H2')) as Lr'.
    rewrite Forall_forall in Ll, Lr, Ll', Lr'.
    destruct (app_split _ _ _ _ _ _ Ho) as [(K1 & K2 & K3)|[(K1 & K2)|(K1 & K2)]].
    + inversion K2; subst. f_equal; auto.
    + exfalso. apply Lr in K1. apply Ll' in K2. cbn in *. lia.
    + exfalso. apply Lr' in K1. apply Ll in K2. cbn in *. lia.
Qed.

(** For concrete paths: names of ASCII letters *)
Ltac ascii_names :=
  repeat match goal with
  | |- Forall _ [] => constructor
  | |- Forall _ (_ :: _) => constructor
  | |- name _ _ => apply name_ascii; [discriminate|repeat constructor]
  | |- elem_ok _ (Name _) => apply name_ascii; [discriminate|repeat constructor]
  | |- elem_ok _ _ => repeat constructor; try discriminate; cbn; lia
  end.
