(** C78: indexes that are expressions; C79: names that are. *)
From Verif Require Import Base Value Event EventSpec EventFacts Lexer TextParser Stream Buffer BufferSpec BufferFacts Wp TextTerm TextSpec TextDoc Graph GraphSpec GraphFacts Emit PathParser PathTerm WpLong PathSpec PathFacts NumFacts TypesSpec TypesFacts Eval Template TemplateSpec TemplateFacts AccessSpec AccessFacts EvalSpec EvalFacts FuncSpec IndexSpec Samples P_Access CallFacts P_Func P_Epath EpathSpec.
From Verif Require SelSpec SelFacts.

Local Notation len l := (Z.of_nat (List.length l)).

Definition hop_tree (h : hop) : tree := match h with Go e => elem_tree e | At _ a l => T (bs "!i") (operand_tree a :: flat_map step_trees l)
  | By _ a l => T (bs "!g") [T (bs "!e") (operand_tree a :: flat_map step_trees l)] | Of _ a l => T (bs "!s") (operand_tree a :: flat_map step_trees l) | All => T (bs "!s") [] end.

(** ** Parsing *)
Section Parse.
Variable E : env.
Variable F : nat.

Lemma x_enclosed f op cl ty pad a l s r h : In (op, cl) [("[", "]"); ("{", "}")]%byte -> blanks pad -> operand_ok E a -> Forall (step_ok E) l -> at_ s (op :: pad ++ expr_text a l ++ cl :: r) -> h_inv h ->
  (List.length (pad ++ expr_text a l) + 1 < F)%nat -> (List.length (pad ++ expr_text a l) + 9 <= f)%nat ->
  wpx E (bracket F f op cl ty) s h (fun b s' h' => b = true /\ at_ s' r /\ adds h [T ty (operand_tree a :: flat_map step_trees l)] h').
Proof.
  intros Hoc Hp Ho Hl Ha Hh HF Hf. destruct f as [|f]; [lia|]. rewrite !app_length in HF, Hf.
  assert (Eo1 : negb (beq op op) = false /\ negb (beq cl cl) = false /\ In cl (bs "),]}") /\ is_space cl = false) by (destruct Hoc as [[= <- <-]|[[= <- <-]|[]]]; repeat split; cbn; tauto).
  destruct Eo1 as (Eop & Ecl & Hin & Hnb).
  cbn [bracket]. call (x_peek E); [exact Ha|]. intros x s1 h1 (-> & H1 & ->).
  rewrite Eop. call (x_byte E); [exact H1|]. intros ? s2 h2 (_ & H2 & ->).
  apply wpx_Level, wpx_emit, wpx_Inc. destruct (operand_head E a Ho) as (c & rr & Eo & Hc1 & _).
  call (x_Space E F s2 pad (expr_text a l ++ cl :: r)); [exact H2|exact Hp|unfold expr_text; rewrite Eo; exact Hc1|lia|]. intros _ s3 h3 (H3 & ->).
  call (x_expression_r E F a l f s3 (cl :: r) (h_inc (h_add (VStr ty) h))); auto; [apply under_inv, Hh|lia|lia|]. intros _ s4 h4 (_ & H4 & A4).
  call (x_Space E F s4 [] (cl :: r)); [exact H4|constructor|exact Hnb|cbn; lia|]. intros _ s5 h5 (H5 & ->).
  call (x_peek E); [exact H5|]. intros x s6 h6 (-> & H6 & ->). rewrite Ecl.
  call (x_byte E); [exact H6|]. intros ? s7 h7 (_ & H7 & ->). apply wpx_Set, wpx_ret. split; [reflexivity|]. split; [exact H7|].
  exact (adds_set h _ _ _ Hh A4).
Qed.
Lemma x_bracket f pad a l s r h : blanks pad -> operand_ok E a -> Forall (step_ok E) l -> at_ s (hop_text false (At pad a l) ++ r) -> h_inv h ->
  (List.length (hop_text false (At pad a l)) < F)%nat -> (List.length (hop_text false (At pad a l)) + 7 <= f)%nat ->
  wpx E (bracket F f "[" "]" TypeIndex) s h (fun b s' h' => b = true /\ at_ s' r /\ adds h [hop_tree (At pad a l)] h').
Proof.
  intros Hp Ho Hl Ha Hh HF Hf. cbn [hop_text List.length app] in *. rewrite <- !app_assoc in Ha. cbn [app] in Ha. rewrite app_assoc, app_length in HF, Hf. cbn [List.length] in HF, Hf.
  apply x_enclosed with (pad := pad); auto; [left; reflexivity|lia|lia].
Qed.
Lemma x_braces f h0 s r h : (exists pad a l, h0 = Of pad a l) \/ h0 = All -> hop_ok E h0 -> at_ s (hop_text false h0 ++ r) -> h_inv h ->
  (List.length (hop_text false h0) < F)%nat -> (List.length (hop_text false h0) + 7 <= f)%nat ->
  wpx E (bracket F f "{" "}" TypeSelector) s h (fun b s' h' => b = true /\ at_ s' r /\ adds h [hop_tree h0] h').
Proof.
  intros [(pad & a & l & ->)| ->] Hok Ha Hh HF Hf.
  - destruct Hok as (Hp & Ho & Hl). cbn [hop_text List.length app] in *. rewrite <- !app_assoc in Ha. cbn [app] in Ha. rewrite app_assoc, app_length in HF, Hf. cbn [List.length] in HF, Hf.
    apply x_enclosed with (pad := pad); auto; [right; left; reflexivity|lia|lia].
  - apply (SelFacts.x_selector E F f SelSpec.Every s r h); auto. cbn in Hf. lia.
Qed.
Lemma x_inner f any a l s r h : operand_ok E a -> Forall (step_ok E) l -> at_ s (expr_text a l ++ ")"%byte :: r) -> h_inv h ->
  (List.length (expr_text a l) < F)%nat -> (List.length (expr_text a l) + 9 <= f)%nat ->
  wpx E (arg_loop F f (cur h) any) s h (fun _ s' h' => at_ s' (")"%byte :: r) /\ adds h [T (bs "!e") (operand_tree a :: flat_map step_trees l)] h').
Proof.
  intros Ho Hl Ha Hh HF Hf. destruct f as [|f]; try lia. cbn [arg_loop]. destruct (operand_white E a Ho) as (c & w & Ec & Hc).
  assert (Et : expr_text a l ++ ")"%byte :: r = [] ++ c :: w ++ flat_map step_text l ++ ")"%byte :: r) by (unfold expr_text; rewrite Ec; cbn [app]; rewrite <- app_assoc; reflexivity).
  rewrite Et in Ha. call (x_White E F [] s c (w ++ flat_map step_text l ++ ")"%byte :: r)); [exact Ha|constructor|exact Hc|cbn; lia|]. intros _ s4 h4 (H4 & ->).
  apply wpx_emit, wpx_Inc. cbn [app] in Et. rewrite <- Et in H4.
  call (x_expression_r E F a l f s4 (")"%byte :: r) (h_inc (h_add (VStr TypeExpression) h))); auto; [cbn; tauto|apply under_inv, Hh|lia|]. intros b s5 h5 (-> & H5 & A5).
  cbn [negb]. apply wpx_Dec. pose proof (adds_dec h _ _ _ Hh A5) as A6.
  call (x_White0 E F s5 ")"%byte r); auto; [lia|]. intros _ s6 h6 (H6 & ->). call (x_peek E); [exact H6|]. intros x s7 h7 (-> & H7 & ->).
  change (beq ")" ")") with true. cbn iota. apply wpx_ret. split; [exact H7|exact A6].
Qed.
Lemma x_group f pad a l s r h : blanks pad -> operand_ok E a -> Forall (step_ok E) l -> at_ s (hop_text true (By pad a l) ++ r) -> h_inv h ->
  (List.length (hop_text true (By pad a l)) < F)%nat -> (List.length (hop_text true (By pad a l)) + 10 <= f)%nat ->
  wpx E (Args F f true) s h (fun b s' h' => b = true /\ at_ s' r /\ adds h [hop_tree (By pad a l)] h').
Proof.
  intros Hp Ho Hl Ha Hh HF Hf. destruct f as [|f]; try lia. cbn [hop_text List.length app] in *. rewrite !app_length in HF, Hf. cbn [List.length app] in *. rewrite <- !app_assoc in Ha. cbn [app] in Ha.
  cbn [Args]. call (x_peek E); [exact Ha|]. intros x s1 h1 (-> & H1 & ->).
  change (negb (beq "(" "(")) with false. cbn iota. call (x_byte E); [exact H1|]. intros ? s2 h2 (_ & H2 & ->).
  apply wpx_Level, wpx_emit, wpx_Inc. destruct (operand_white E a Ho) as (c & w & Ec & Hc).
  assert (Et : expr_text a l ++ ")"%byte :: r = c :: w ++ flat_map step_text l ++ ")"%byte :: r) by (unfold expr_text; rewrite Ec; cbn [app]; rewrite <- app_assoc; reflexivity).
  rewrite Et in H2.
  call (x_White E F pad s2 c (w ++ flat_map step_text l ++ ")"%byte :: r)); [exact H2|exact Hp|exact Hc|lia|]. intros _ s3 h3 (H3 & ->).
  apply wpx_Level. rewrite <- Et in H3. set (h0 := h_inc (h_add (VStr TypeGroup) h)). assert (Hh0 : h_inv h0) by (apply under_inv, Hh).
  apply wpx_bind. eapply wpx_mono; [apply (x_inner f false a l s3 r h0); auto; lia|]. cbn beta. intros _ s7 h7 (H7 & A7).
  apply wpx_Set. call (x_White0 E F s7 ")"%byte r); auto; [lia|]. intros _ s8 h8 (H8 & ->). call (x_peek E); [exact H8|]. intros x s9 h9 (-> & H9 & ->).
  change (negb (beq ")" ")")) with false. cbn iota. call (x_byte E); [exact H9|]. intros ? s10 h10 (_ & H10 & ->). apply wpx_Set, wpx_ret.
  split; [reflexivity|]. split; [exact H10|]. exact (adds_set h _ _ _ Hh (set_level_adds _ _ _ A7)).
Qed.
Lemma x_hop f dot a h0 s r h (Q : bool -> stream -> handler -> Prop) : hop_ok E h0 -> (forall pad o l, h0 = By pad o l -> dot = true) -> at_ s (hop_text true h0 ++ r) -> token_end E r -> h_inv h ->
  (List.length (hop_text true h0) < F)%nat -> (List.length (hop_text true h0) + 10 <= f)%nat ->
  (forall s' h', at_ s' r -> adds h [hop_tree h0] h' -> wpx E (path_loop F f false dot true) s' h' Q) ->
  wpx E (path_body F f dot a) s h Q.
Proof.
  intros Hok Hdot Ha Hr Hh HF Hf HQ. destruct h0 as [e|pad o l|pad o l|pad o l|] eqn:Eh0.
  - apply (x_body E F f dot a e s r); auto; [apply Hok|lia].
  - destruct Hok as (H1 & H2 & H3). unfold path_body. pose proof Ha as Ha'. cbn [hop_text app] in Ha. remember ((pad ++ expr_text o l ++ ["]"%byte]) ++ r) as w eqn:Ew.
    call (x_no_Quoted E F s ("["%byte :: w)); [exact Ha|reflexivity|]. intros x s1 h1 (-> & G1 & ->).
    apply (x_tok E F _ [] s1 ("["%byte :: w)); auto; [constructor|apply fit_nil|apply token_end_ascii; [cbn; lia|reflexivity]|]. intros s2 G2.
    call (x_bracket f pad o l s2 r h); auto; [rewrite Ew in G2; exact G2|change (hop_text false (At pad o l)) with (hop_text true (At pad o l)); lia|]. intros b s3 h3 (-> & G3 & A3). apply HQ; auto.
  - pose proof (Hdot pad o l eq_refl) as Ed. subst dot. destruct Hok as (H1 & H2 & H3). unfold path_body. pose proof Ha as Ha'. cbn [hop_text app] in Ha. remember ((pad ++ expr_text o l ++ [")"%byte]) ++ r) as w eqn:Ew.
    call (x_no_Quoted E F s ("("%byte :: w)); [exact Ha|reflexivity|]. intros x s1 h1 (-> & G1 & ->).
    apply (x_tok E F _ [] s1 ("("%byte :: w)); auto; [constructor|apply fit_nil|apply token_end_ascii; [cbn; lia|reflexivity]|]. intros s2 G2.
    call (bracket_no E F f "[" "]" TypeIndex "("%byte w s2); [exact G2|reflexivity|lia|]. intros b s3 h3 (-> & G3 & ->).
    call (bracket_no E F f "{" "}" TypeSelector "("%byte w s3); [exact G3|reflexivity|lia|]. intros b s4 h4 (-> & G4 & ->).
    call (x_group f pad o l s4 r h); auto; [rewrite Ew in G4; exact G4|]. intros b s5 h5 (-> & G5 & A5). apply HQ; auto.
  - rewrite <- Eh0 in *. assert (Hw : exists w, hop_text true h0 ++ r = "{"%byte :: w) by (subst h0; eexists; reflexivity). destruct Hw as (w & Ew). assert (Et : hop_text false h0 = hop_text true h0) by (subst h0; reflexivity).
    unfold path_body. rewrite Ew in Ha. call (x_no_Quoted E F s ("{"%byte :: w)); [exact Ha|reflexivity|]. intros x s1 h1 (-> & G1 & ->).
    apply (x_tok E F _ [] s1 ("{"%byte :: w)); auto; [constructor|apply fit_nil|apply token_end_ascii; [cbn; lia|reflexivity]|]. intros s2 G2.
    call (bracket_no E F f "[" "]" TypeIndex "{"%byte w s2); [exact G2|reflexivity|lia|]. intros b s3 h3 (-> & G3 & ->). rewrite <- Ew, <- Et in G3.
    call (x_braces f h0 s3 r h); auto; [left; eauto|rewrite Et; lia|rewrite Et; lia|]. intros b s4 h4 (-> & G4 & A4). apply HQ; auto.
  - rewrite <- Eh0 in *. assert (Hw : exists w, hop_text true h0 ++ r = "{"%byte :: w) by (subst h0; eexists; reflexivity). destruct Hw as (w & Ew). assert (Et : hop_text false h0 = hop_text true h0) by (subst h0; reflexivity).
    unfold path_body. rewrite Ew in Ha. call (x_no_Quoted E F s ("{"%byte :: w)); [exact Ha|reflexivity|]. intros x s1 h1 (-> & G1 & ->).
    apply (x_tok E F _ [] s1 ("{"%byte :: w)); auto; [constructor|apply fit_nil|apply token_end_ascii; [cbn; lia|reflexivity]|]. intros s2 G2.
    call (bracket_no E F f "[" "]" TypeIndex "{"%byte w s2); [exact G2|reflexivity|lia|]. intros b s3 h3 (-> & G3 & ->). rewrite <- Ew, <- Et in G3.
    call (x_braces f h0 s3 r h); auto; [rewrite Et; lia|rewrite Et; lia|]. intros b s4 h4 (-> & G4 & A4). apply HQ; auto.
Qed.
Lemma hops_token_end l r : path_end E r -> token_end E (flat_map (hop_text false) l ++ r).
Proof. intro Hr. destruct l as [|[[s|q s|n]|pad a x|pad a x|pad a x|] l]; cbn [flat_map hop_text elem_text app]; [exact (proj1 Hr)|..]; (apply token_end_ascii; [cbn; lia|reflexivity]). Qed.
Lemma hop_text_true h : (List.length (hop_text true h) <= List.length (hop_text false h))%nat.
Proof. destruct h as [[s|q s|n]|pad a l|pad a l|pad a l|]; cbn [hop_text elem_text app List.length]; lia. Qed.
Lemma hop_text_pos h : hop_ok E h -> (1 <= List.length (hop_text true h))%nat.
Proof. destruct h as [e|pad a l|pad a l|pad a l|]; intros H; [apply (elem_text_pos E true e), H|cbn; lia..]. Qed.

Lemma x_hops_rest l : forall f dot s r h, Forall (hop_ok E) l -> at_ s (flat_map (hop_text false) l ++ r) -> path_end E r -> h_inv h ->
  (List.length (flat_map (hop_text false) l) < F)%nat -> (List.length (flat_map (hop_text false) l) + 11 <= f)%nat ->
  wpx E (path_loop F f false dot true) s h (fun b s' h' => b = true /\ at_ s' r /\ adds h (map hop_tree l) h').
Proof.
  induction l as [|x l IH]; intros f dot s r h Hl Ha Hr Hh HF Hf.
  - apply (x_path_rest E F [] f dot s r h); auto; cbn in Hf |- *; lia.
  - destruct f as [|f]; [lia|]. rewrite path_loop_S; cbn iota. inversion Hl as [|? ? Hx Hl']; subst. cbn [flat_map map] in *. rewrite app_length in HF, Hf. rewrite <- app_assoc in Ha.
    pose proof (hop_text_true x) as Ht. pose proof (hop_text_pos x Hx) as Hpos.
    assert (Body : forall s1 dot1, (forall pad o l, x = By pad o l -> dot1 = true) -> at_ s1 (hop_text true x ++ flat_map (hop_text false) l ++ r) ->
       wpx E (path_body F f dot1 true) s1 h (fun b s' h' => b = true /\ at_ s' r /\ adds h (hop_tree x :: map hop_tree l) h')).
    { intros s1 dot1 Hdot H1. apply (x_hop f dot1 true x s1 (flat_map (hop_text false) l ++ r)); auto; [apply hops_token_end, Hr|lia|lia|].
      intros s2 h2 H2 A2. eapply wpx_mono; [apply (IH f dot1 s2 r h2); auto; [exact (adds_inv _ _ _ A2)|lia|lia]|]. cbn beta. intros b s3 h3 (-> & H3 & A3).
      split; [reflexivity|]. split; [exact H3|]. exact (adds_app _ [hop_tree x] _ _ _ A2 A3). }
    apply wpx_bind, wpx_bind. destruct x as [[w|q w|n]|pad a y|pad a y|pad a y|]; cbn [hop_text elem_text app] in Ha, Body.
    + eapply wpx_mono; [apply x_byte, Ha|]. cbn beta. intros c s1 h1 (-> & H1 & ->). change (beq "." ".") with true. cbn iota. apply wpx_ret. apply Body; [discriminate|exact H1].
    + eapply wpx_mono; [apply x_byte, Ha|]. cbn beta. intros c s1 h1 (-> & H1 & ->). change (beq "." ".") with true. cbn iota. apply wpx_ret. apply Body; [discriminate|exact H1].
    + exfalso. apply Hx. reflexivity.
    + unfold Byte_. eapply x_get; [exact Ha|]. intro p. apply wpx_ret. change (beq "[" ".") with false. cbn iota. apply x_un. intros s' Ha'.
      change (beq "[" "[" || beq "[" "(" || beq "[" "{") with true. apply wpx_ret. apply Body; [discriminate|exact Ha'].
    + eapply wpx_mono; [apply x_byte, Ha|]. cbn beta. intros c s1 h1 (-> & H1 & ->). change (beq "." ".") with true. cbn iota. apply wpx_ret. apply Body; [reflexivity|exact H1].
    + unfold Byte_. eapply x_get; [exact Ha|]. intro p. apply wpx_ret. change (beq "{" ".") with false. cbn iota. apply x_un. intros s' Ha'.
      change (beq "{" "[" || beq "{" "(" || beq "{" "{") with true. apply wpx_ret. apply Body; [discriminate|exact Ha'].
    + change (bs "{}") with ["{"; "}"]%byte in *. cbn [app] in Ha, Body. unfold Byte_. eapply x_get; [exact Ha|]. intro p. apply wpx_ret. change (beq "{" ".") with false. cbn iota. apply x_un. intros s' Ha'.
      change (beq "{" "[" || beq "{" "(" || beq "{" "{") with true. apply wpx_ret. apply Body; [discriminate|exact Ha'].
Qed.
Lemma x_hops l f s r h : Forall (hop_ok E) l -> l <> [] -> at_ s (hops_text l ++ r) -> path_end E r -> h_inv h ->
  (List.length (hops_text l) < F)%nat -> (List.length (hops_text l) + 12 <= f)%nat ->
  wpx E (path_loop F f true true false) s h (fun b s' h' => b = true /\ at_ s' r /\ adds h (map hop_tree l) h').
Proof.
  intros Hl Hne Ha Hr Hh HF Hf. destruct l as [|x l]; [congruence|]. destruct f as [|f]; [lia|]. rewrite path_loop_S. cbn iota.
  apply wpx_bind, wpx_ret. inversion Hl as [|? ? Hx Hl']; subst. cbn [hops_text map] in *. rewrite app_length in HF, Hf. rewrite <- app_assoc in Ha. pose proof (hop_text_pos x Hx) as Hpos.
  apply (x_hop f true false x s (flat_map (hop_text false) l ++ r)); auto; [apply hops_token_end, Hr|lia|lia|].
  intros s2 h2 H2 A2. eapply wpx_mono; [apply (x_hops_rest l f true s2 r h2); auto; [exact (adds_inv _ _ _ A2)|lia|lia]|]. cbn beta. intros b s3 h3 (-> & H3 & A3).
  split; [reflexivity|]. split; [exact H3|]. exact (adds_app _ [hop_tree x] _ _ _ A2 A3).
Qed.
End Parse.

Definition hops_tree (l : list hop) : tree := T (bs "!p") (map hop_tree l).
Lemma NewPath_hops E l fuel : Forall (hop_ok E) l -> l <> [] -> fits3 fuel (hops_text l) -> NewPath E fuel (hops_text l) = Ok (gtree (hops_tree l)).
Proof.
  intros Hl Hne [Hlen Hf]. rewrite NewPath_ideal by lia. unfold s_path.
  pose proof (x_hops E fuel l fuel (s_init (hops_text l)) [] h_init Hl Hne) as H1.
  assert (Ha : at_ (s_init (hops_text l)) (hops_text l ++ [])) by (rewrite app_nil_r; split; [apply good_false|reflexivity]).
  specialize (H1 Ha (path_end_nil E) h_init_inv ltac:(lia) ltac:(lia)). unfold wpx, short, wpi in H1. change (Path fuel fuel) with (path_loop fuel fuel true true false).
  destruct (run E _ _ _) as [[[b s'] h']| |]; try contradiction. destruct H1 as (_ & _ & H1). cbn [rbind]. rewrite (adds_Tree _ _ H1). reflexivity.
Qed.
Lemma NewExpression_hops E l fuel : Forall (hop_ok E) l -> starts_with_name l -> fits3 fuel (hops_text l) ->
  NewExpression E fuel (hops_text l) = Ok (Node (VStr TypeExpression) [Some (gtree (hops_tree l))]).
Proof.
  intros Hl Hst [Hlen Hf]. assert (Hne : l <> []) by (intros ->; exact Hst). rewrite NewExpression_ideal by lia. unfold s_expr.
  assert (H1 : wpx E (Expression fuel fuel) (s_init (hops_text l)) h_init (fun b s' h' => adds h_init [hops_tree l] h')).
  { destruct fuel as [|[|f]] eqn:Ef; try lia. rewrite <- Ef in *. assert (Ha : at_ (s_init (hops_text l)) (hops_text l)) by (split; [apply good_false|reflexivity]).
    replace (Expression fuel fuel) with (Expression fuel (S (S f))) by (rewrite Ef; reflexivity). cbn [Expression UnaryExpression]. apply wpx_bind.
    call (x_peek E); [exact Ha|]. intros c s1 h1 (-> & Hs1 & ->).
    assert (Hhd : exists c r', hops_text l = c :: r' /\ is_letter c = true).
    { destruct l as [|[e|pad a x|pad a x|pad a x|] l]; [congruence| |contradiction..]. cbn [hops_text hop_text]. pose proof (Forall_inv Hl) as (Hw & _). cbn [starts_with_name] in Hst. destruct e as [[|c w]|q w|n]; cbn [starts_with_letter] in Hst; try contradiction. cbn [elem_text app].
      eexists c, _. split; [reflexivity|]. destruct Hw as (_ & Hw). destruct Hst as (_ & Hst1 & Hst2). exact (name_letter E c w Hw Hst1 Hst2). }
    destruct Hhd as (c & r' & Ec & Hlt). assert (El : match hops_text l with [] => x00 | c :: _ => c end = c) by (rewrite Ec; reflexivity). rewrite El, Hlt.
    apply wpx_emit, wpx_Inc. call (x_hops E fuel l f s1 [] (h_inc (h_add (VStr TypePath) h_init))); auto; try lia; [rewrite app_nil_r; exact Hs1|apply path_end_nil|apply under_inv, h_init_inv|].
    intros b s2 h2 (_ & Hs2 & A2). apply wpx_Dec, wpx_ret. pose proof (adds_dec h_init _ _ _ h_init_inv A2) as A3.
    eapply wpx_mono; [apply (x_steps E fuel O [] (S f) s2 [] (h_dec h2)); auto; try lia; [exact I|exact (adds_inv _ _ _ A3)|cbn; lia|cbn; lia]|]. cbn beta.
    intros b' s3 h3 (_ & _ & A4). exact (adds_app _ [hops_tree l] _ [] _ A3 A4). }
  unfold wpx, short, wpi in H1. destruct (run E _ _ _) as [[[b s'] h']| |]; try contradiction. cbn [rbind]. rewrite (adds_Tree _ _ H1). reflexivity.
Qed.

(** ** Evaluation *)
Section Ev.
Variable E : env.
Variable C : calls.
Variable f : nat.
Variable g0 : graph.
Hypothesis Hg0 : whole E g0.
Local Notation ev := (evalExpression E C (S (S f))).

Lemma reads_vstring v s : reads v s -> vstring E v = Ok s.
Proof. intros [t|t|k z|b]; reflexivity. Qed.
Lemma called_text a s : called E g0 a s -> exists v, worth E g0 a v /\ vstring E v = Ok s.
Proof.
  intros [v H1 H2|n c k H1 H2 H3]; [exists v; split; [exact H1|apply reads_vstring, H2]|]. exists (VPtr (Some n)). split; [exact H1|]. destruct n as [t o]. cbn [out] in H2. subst o.
  destruct c as [w o]. cbn [this] in H3. destruct H3; reflexivity.
Qed.
Lemma group_text pad a x v s : worth E g0 a v -> vstring E v = Ok s -> group_name E ev (gtree (hop_tree (By pad a x))) g0 = Ok (g0, match s with [] => inr None | _ => inl s end).
Proof.
  intros Hv Hs. unfold group_name. change (Out_ (gtree (hop_tree (By pad a x))) 0) with (Ok (Some (Node (VStr TypeExpression) (Some (gtree (operand_tree a)) :: gforest (flat_map step_trees x))))). cbn [rbind].
  unfold Eval_with. cbn [ThisString this vstring sstring rbind]. change (bseq TypeExpression TypePath || bseq TypeExpression TypeExpression) with true. cbn iota.
  change (ev true (Some (Node (VStr TypeExpression) (Some (gtree (operand_tree a)) :: gforest (flat_map step_trees x)))) g0) with (evalExpression E C (S f) true (Some (gtree (operand_tree a))) g0).
  rewrite (eval_worth E C f a v g0 Hg0 Hv). cbn [rbind]. rewrite Hs. reflexivity.
Qed.

Lemma eval_position a z : position E g0 a z -> exists k, ev true (Some (gtree (operand_tree a))) g0 = Ok (g0, EVal (VInt k z)) /\ 0 <= z < 2 ^ 63.
Proof.
  intros [d Hd Hl|ns n k y Hne Hns Ho Hw Hn Hz].
  - exists KInt64. split; [apply (eval_number E C (S f) d g0 Hd Hl true [])|]. pose proof (number_of_nonneg d (proj2 Hd)). lia.
  - exists k. split; [|exact Hz]. apply (eval_worth E C (S f) _ _ g0 Hg0). eapply worth_value; eassumption.
Qed.
Lemma index_at pad a x z : position E g0 a z -> index_ ev (gtree (hop_tree (At pad a x))) g0 = Ok (g0, z) /\ 0 <= z < 2 ^ 63.
Proof.
  intros H. destruct (eval_position a z H) as (k & He & Hz). split; [|exact Hz]. unfold index_.
  change (out (gtree (hop_tree (At pad a x)))) with (Some (gtree (operand_tree a)) :: gforest (flat_map step_trees x)). cbn iota. rewrite He. cbn [rbind v_int64].
  rewrite wrap64_id by (unfold in64; lia). replace (z <? 0) with false by lia. reflexivity.
Qed.
Lemma eval_large f' d k : digits d -> 2 ^ 63 <= number_of d -> evalExpression E C (S f') true (Some (Node (VStr d) k)) g0 = Ok (g0, EVal VNil).
Proof.
  intros Hd Hl. cbn [evalExpression]. unfold eval_body. cbn [this ThisString vstring sstring rbind].
  pose proof (isInteger_digits d Hd) as Hi. assert (Hp : parse_int d = None).
  { destruct (parse_int d) as [z|] eqn:Ep; [|reflexivity]. exfalso. apply parse_int_iff in Ep. destruct Ep as [t _ Ht|t _ _|t _ _]; [lia|..]; destruct Hd as [_ Hd]; inversion Hd as [|? ? Hc _]; subst; cbn in Hc; lia. }
  destruct d as [|c d]; [destruct Hd; congruence|].
  assert (Hc : isNumber (c :: d) = true) by (destruct Hd as [_ Hd]; inversion Hd as [|? ? Hc _]; subst; destruct (digit_not_space c Hc) as (_ & _ & H3); unfold isNumber; rewrite H3; reflexivity).
  rewrite Hc. unfold number. cbn [v_float64 v_int64 vstring sstring rbind]. rewrite Hi. cbn [rbind]. rewrite Hp. reflexivity.
Qed.
Lemma lost_misses ns m : lost E (map Name ns) m -> misses E (map (fun s => SelSpec.Plain (Name s)) ns) m.
Proof.
  intros H. remember (map Name ns) as es eqn:Ee. revert ns Ee. induction H as [e s es m Hk Hn|e s es m i c Hk Hf _ IH|d es m c Hd Hc _ IH]; intros [|t ns] Ee; try discriminate; injection Ee as -> ->.
  - eapply mis_name; [exact Hk|exact Hn].
  - eapply mis_key; [exact Hk|exact Hf|apply IH; reflexivity].
Qed.
Lemma eval_lost f' ns : Forall (name E) ns -> Forall ordinary ns -> all_nodes data g0 -> lost E (map Name ns) g0 ->
  exists v, evalExpression E C (S (S f')) true (Some (gtree (operand_tree (OPath (map Name ns))))) g0 = Ok (g0, EVal v) /\ nothing v.
Proof.
  intros Hns Ho Hg Hl. cbn [evalExpression operand_tree]. unfold eval_body. change (gtree (T (bs "!p") (map elem_tree (map Name ns)))) with (Node (VStr TypePath) (gforest (map elem_tree (map Name ns)))).
  cbn - [evalPath gforest simplify evalExpression]. unfold evalPath. cbn [out]. apply lost_misses in Hl.
  assert (Et : gforest (map elem_tree (map Name ns)) = gforest (flat_map SelSpec.step_trees (map (fun s => SelSpec.Plain (Name s)) ns)) ++ []).
  { rewrite app_nil_r. f_equal. clear. induction ns as [|s ns IH]; [reflexivity|]. cbn [map flat_map SelSpec.step_trees app]. rewrite IH. reflexivity. }
  destruct (eval_els_misses E C (evalExpression E C (S f')) (fun d g Hd Hl => eval_number E C f' d g Hd Hl true []) (Node (VStr TypePath) (gforest (map elem_tree (map Name ns)))) _ g0 Hl) with (root := false) (tl := @nil (option graph)) (prev := @None graph) (k := @nil byte) (g := g0) as (v & H & Hv).
  - clear - Hns. induction Hns; constructor; auto. split; [assumption|]. split; [exact I|exact I].
  - clear - Ho. induction Ho; constructor; auto.
  - exact Hg.
  - exists v. split; [|exact Hv]. rewrite <- Et in H. destruct ns as [|s ns]; [inversion Hl|exact H].
Qed.
Lemma eval_fails f' ns n d es : ns <> [] -> Forall (name E) ns -> Forall ordinary ns -> walk E (map Name ns) g0 n -> digits d -> 2 ^ 63 <= number_of d ->
  evalExpression E C (S (S f')) true (Some (gtree (operand_tree (OPath (map Name ns ++ Index d :: es))))) g0 = Ok (g0, EErr ErrInvalidIndex).
Proof.
  intros Hne Hns Ho Hw Hd Hl. apply walk_cwalk in Hw; [|exact Hg0]. remember (S f') as f1 eqn:Ef. cbn [evalExpression operand_tree]. unfold eval_body.
  change (gtree (T (bs "!p") (map elem_tree (map Name ns ++ Index d :: es)))) with (Node (VStr TypePath) (gforest (map elem_tree (map Name ns ++ Index d :: es)))).
  cbn - [evalPath gforest simplify evalExpression]. unfold evalPath. cbn [out]. unfold gforest at 1. rewrite !map_app. fold (gforest (map elem_tree (map Name ns))). fold (gforest (map elem_tree (Index d :: es))).
  assert (H : forall p l m, cwalk E l m n -> forall ns, l = map Name ns -> Forall (name E) ns -> Forall ordinary ns -> forall prev k,
    eval_els E C (evalExpression E C f1) p true false (gforest (map elem_tree l) ++ gforest (map elem_tree (Index d :: es))) (Some m) prev k g0 = Ok (g0, EErr ErrInvalidIndex)).
  { clear - Hd Hl Ef Hg0. intros p l m Hw. induction Hw as [m|e s es' m i c n Hk Hf Hc _ IH|d' es' m c n Hd' Hc _ IH]; intros ns He Hns Ho prev k.
    - cbn [map gforest app]. unfold gforest. cbn [map eval_els]. cbn [ThisString elem_tree gtree this vstring sstring rbind]. change (bseq (bs "!i") TypeIndex) with true. cbn iota. unfold index_.
      cbn [out map]. subst f1. change (gtree (T d [])) with (Node (VStr d) []). rewrite (eval_large f' d [] Hd Hl). reflexivity.
    - destruct ns as [|s' ns]; [discriminate|]. injection He as -> ->. injection Hk as ->. inversion Hns as [|? ? Hs Hns']; subst. inversion Ho as [|? ? Hs' Ho']; subst.
      destruct (key_unmarked E (Name s) s Hs I eq_refl) as [Hm _]. unfold marked in Hm. rewrite !orb_false_iff in Hm. destruct Hm as [[[M1 M2] M3] M4].
      destruct (ordinary_not s Hs') as (O1 & O2 & O3 & O4 & O5).
      cbn [map gforest elem_tree gtree app]. cbn [eval_els]. cbn [ThisString this vstring sstring rbind]. rewrite M1, M2, M3, M4, O1, O2, O3, O4, O5.
      rewrite (Node_found E _ _ _ _ Hf Hc). cbn [rbind]. apply (IH ns eq_refl Hns' Ho').
    - destruct ns as [|s' ns]; discriminate. }
  specialize (H (Node (VStr TypePath) (gforest (map elem_tree (map Name ns) ++ map elem_tree (Index d :: es)))) _ _ Hw ns eq_refl Hns Ho None []). destruct ns as [|s ns]; [congruence|exact H].
Qed.
Lemma index_not pad a x : no_position E g0 a -> exists z, index_ ev (gtree (hop_tree (At pad a x))) g0 = Ok (g0, z) /\ -3 <= z <= -2.
Proof.
  intros H. unfold index_. change (out (gtree (hop_tree (At pad a x)))) with (Some (gtree (operand_tree a)) :: gforest (flat_map step_trees x)). cbn iota. destruct H as [a v Hv Hn|ns Hns Ho Hg Hl|d Hd Hl|ns n d es Hne Hns Ho Hw Hd Hl].
  - exists (-3). split; [|lia]. rewrite (eval_worth E C (S f) a v g0 Hg0 Hv). cbn [rbind]. destruct v; try reflexivity. destruct (Hn k z eq_refl) as [H1 H2]. cbn [v_int64]. rewrite wrap64_id by exact H2. replace (z <? 0) with true by lia. reflexivity.
  - exists (-3). split; [|lia]. destruct (eval_lost f ns Hns Ho Hg Hl) as (v & H & Hv). rewrite H. cbn [rbind]. destruct Hv as [-> | ->]; reflexivity.
  - exists (-3). split; [|lia]. change (gtree (operand_tree (ONum d))) with (Node (VStr d) []). rewrite (eval_large (S f) d [] Hd Hl). reflexivity.
  - exists (-2). split; [|lia]. rewrite (eval_fails f ns n d es) by assumption. reflexivity.
Qed.

Lemma selector_all s m cs : s <> [] -> whole E m -> SelSpec.those E s (out m) cs ->
  selector E ev (gtree (hop_tree All)) (Some m) s g0 = Ok (g0, inl (Some (Node (VStr (bs "{")) (flat_map out cs)))).
Proof.
  intros Hs Hm Ht. destruct (whole_inv E m Hm) as (kk & Hkk & Hp & _). unfold selector. destruct s as [|c0 s0] eqn:Es; [congruence|]. rewrite <- Es in *.
  unfold index_. cbn [hop_tree gtree map out rbind]. change (wrap64 (-1 + 1)) with 0. cbn [Z.ltb Z.eqb Z.compare]. rewrite (SelFacts.equal_nodes_those E s _ cs Hp Ht). reflexivity.
Qed.
Lemma selector_of pad a x z s m cs : s <> [] -> whole E m -> SelSpec.those E s (out m) cs -> position E g0 a z -> z < 2 ^ 63 - 1 ->
  selector E ev (gtree (hop_tree (Of pad a x))) (Some m) s g0 = Ok (g0, inl (Some (Node (VStr (bs "{")) (taken z cs)))).
Proof.
  intros Hs Hm Ht Hz Hlt. destruct (whole_inv E m Hm) as (kk & Hkk & Hp & _). unfold selector. destruct s as [|c0 s0] eqn:Es; [congruence|]. rewrite <- Es in *.
  destruct (index_at pad a x z Hz) as [Hi Hr]. change (index_ ev (gtree (hop_tree (Of pad a x))) g0) with (index_ ev (gtree (hop_tree (At pad a x))) g0). rewrite Hi. cbn [rbind].
  rewrite wrap64_id by (unfold in64; lia). replace (z + 1 <? 0) with false by lia. replace (z + 1 =? 0) with false by lia.
  replace (z + 1 - 1) with z by lia. rewrite (SelFacts.nth_equal_those E s _ cs Hp Ht). reflexivity.
Qed.
Lemma selector_not pad a x s m : s <> [] -> no_position E g0 a -> selector E ev (gtree (hop_tree (Of pad a x))) (Some m) s g0 = Ok (g0, inr ErrInvalidIndex).
Proof.
  intros Hs H. unfold selector. destruct s as [|c0 s0]; [congruence|]. change (index_ ev (gtree (hop_tree (Of pad a x))) g0) with (index_ ev (gtree (hop_tree (At pad a x))) g0).
  destruct (index_not pad a x H) as (z & Hz & Hr). rewrite Hz. cbn [rbind]. rewrite wrap64_id by (unfold in64; lia). replace (z + 1 <? 0) with true by lia. reflexivity.
Qed.
Lemma taken_nodes P g s z cs : all_nodes P g -> P (VStr (bs "{")) -> SelSpec.those E s (out g) cs -> all_nodes P (Node (VStr (bs "{")) (taken z cs)).
Proof.
  intros Hg HP H. destruct (all_nodes_inv _ _ Hg) as (v & k & -> & _ & Hk). cbn [out] in H. pose proof (SelFacts.those_nodes E P s _ cs H k eq_refl Hk) as Hc. unfold taken.
  destruct (nth_error cs _) as [c|] eqn:En; [|apply (all_node _ _ []); [exact HP|constructor]]. apply nth_error_In in En. rewrite Forall_forall in Hc.
  destruct (all_nodes_inv _ _ (Hc c En)) as (w & kc & -> & _ & Hkc). constructor; assumption.
Qed.
(** A hop that stands for a name *)
Lemma get_els_spells p h s m i c tl prev k : hop_ok E h -> spells E g0 h s -> first_named E s (out m) i c -> whole E m ->
  get_els E C ev p (Some (gtree (hop_tree h)) :: tl) (Some m) prev k g0 = get_els E C ev p tl (Some c) (Some m) s g0.
Proof.
  intros Hok [Hs0 Hs] Hf Hm. destruct (whole_inv E m Hm) as (kk & Hkk & Hp & _). destruct h as [e|pad a x|pad a x|pad a x|]; try contradiction.
  - destruct Hok as (H1 & H2 & _). destruct (key_unmarked E e s H1 H2 Hs) as [Hmk Het]. cbn [hop_tree]. rewrite Het. change (gtree (T s [])) with (Node (VStr s) []). rewrite get_els_key by exact Hmk.
    rewrite (Node_found E m s i c (find_child_some _ _ _ _ _ Hf Hp) (proj1 Hf)). reflexivity.
  - destruct (called_text a s Hs) as (v & Hv1 & Hv2). cbn [get_els].
    change (ThisString E (Some (gtree (hop_tree (By pad a x))))) with (Ok TypeGroup). cbn [rbind].
    change (bseq TypeGroup TypeIndex) with false. change (bseq TypeGroup TypeSelector) with false. change (bseq TypeGroup TypeArguments) with false. change (bseq TypeGroup TypeGroup) with true. cbn iota.
    rewrite (group_text pad a x v s Hv1 Hv2). cbn [rbind]. destruct s as [|b s]; [congruence|]. cbn iota.
    rewrite (Node_found E m (b :: s) i c (find_child_some _ _ _ _ _ Hf Hp) (proj1 Hf)). reflexivity.
Qed.
Lemma eval_els_spells p simpl root h s m i c tl prev k : hop_ok E h -> hop_free h -> spells E g0 h s -> first_named E s (out m) i c -> whole E m ->
  eval_els E C ev p simpl root (Some (gtree (hop_tree h)) :: tl) (Some m) prev k g0 = eval_els E C ev p simpl false tl (Some c) (Some m) s g0.
Proof.
  intros Hok Hfr [Hs0 Hs] Hf Hm. destruct (whole_inv E m Hm) as (kk & Hkk & Hp & _). destruct h as [e|pad a x|pad a x|pad a x|]; try contradiction.
  - destruct Hok as (H1 & H2 & _). cbn [hop_free] in Hfr. rewrite Hs in Hfr. cbn [hop_tree]. apply (eval_els_found E C ev p simpl root _ m prev k g0 e s i c); assumption.
  - destruct (called_text a s Hs) as (v & Hv1 & Hv2). cbn [eval_els].
    change (ThisString E (Some (gtree (hop_tree (By pad a x))))) with (Ok TypeGroup). cbn [rbind].
    change (bseq TypeGroup TypeIndex) with false. change (bseq TypeGroup TypeSelector) with false. change (bseq TypeGroup TypeArguments) with false. change (bseq TypeGroup TypeGroup) with true.
    change (bseq TypeGroup (bs "_len")) with false. change (bseq TypeGroup (bs "_this")) with false. change (bseq TypeGroup (bs "_thisString")) with false. change (bseq TypeGroup (bs "_string")) with false. change (bseq TypeGroup (bs "_json")) with false. cbn iota.
    rewrite (group_text pad a x v s Hv1 Hv2). cbn [rbind]. destruct s as [|b s]; [congruence|]. cbn iota.
    rewrite (Node_found E m (b :: s) i c (find_child_some _ _ _ _ _ Hf Hp) (proj1 Hf)). reflexivity.
Qed.
Lemma get_els_braces p h tl m c k r : hop_tree h = T (bs "!s") r -> forall res, selector E ev (gtree (hop_tree h)) (Some m) k g0 = Ok (g0, res) ->
  get_els E C ev p (Some (gtree (hop_tree h)) :: tl) (Some c) (Some m) k g0 = match res with inl n => get_els E C ev p tl n (Some c) k g0 | inr e => Ok (g0, inr e) end.
Proof.
  intros Eh res Hs. cbn [get_els]. assert (Et : ThisString E (Some (gtree (hop_tree h))) = Ok TypeSelector) by (rewrite Eh; reflexivity). rewrite Et. cbn [rbind].
  change (bseq TypeSelector TypeIndex) with false. change (bseq TypeSelector TypeSelector) with true. cbn iota. rewrite Hs. reflexivity.
Qed.
Lemma eval_els_braces p simpl root h tl m c k r : hop_tree h = T (bs "!s") r -> forall res, selector E ev (gtree (hop_tree h)) (Some m) k g0 = Ok (g0, res) ->
  eval_els E C ev p simpl root (Some (gtree (hop_tree h)) :: tl) (Some c) (Some m) k g0 = match res with inl n => eval_els E C ev p simpl false tl n (Some c) k g0 | inr e => Ok (g0, EErr e) end.
Proof.
  intros Eh res Hs. cbn [eval_els]. assert (Et : ThisString E (Some (gtree (hop_tree h))) = Ok TypeSelector) by (rewrite Eh; reflexivity). rewrite Et. cbn [rbind].
  change (bseq TypeSelector TypeIndex) with false. change (bseq TypeSelector TypeSelector) with true. cbn iota. rewrite Hs. destruct res; reflexivity.
Qed.

Lemma get_els_hops p l m n : hops E boxed g0 l m n -> Forall (hop_ok E) l -> whole E m -> forall tl prev k,
  exists prev' k', get_els E C ev p (gforest (map hop_tree l) ++ tl) (Some m) prev k g0 = get_els E C ev p tl (Some n) prev' k' g0 /\ whole E n.
Proof.
  induction 1 as [m|e s l m i c n Hk Hf _ IH|pad a x l m z c n Hz Hc _ IH|pad a x s l m i c n Hs Hs0 Hf _ IH|h s l m cs n Hs Ht Hne _ IH|h s pad a x z l m cs n Hs Ht Hne Hz Hlt _ IH]; intros Hok Hm tl prev k.
  - exists prev, k. split; [reflexivity|exact Hm].
  - inversion Hok as [|? ? Hst1 Hok']; subst. destruct Hst1 as (H1 & H2 & _). destruct (key_unmarked E e s H1 H2 Hk) as [Hmk Het]. destruct (whole_inv E m Hm) as (kk & Hkk & Hp & _).
    cbn [map hop_tree]. unfold gforest. cbn [map app]. rewrite Het. change (gtree (T s [])) with (Node (VStr s) []). rewrite get_els_key by exact Hmk.
    rewrite (Node_found E m s i c (find_child_some _ _ _ _ _ Hf Hp) (proj1 Hf)). cbn [rbind]. apply (IH Hok'). eapply all_nodes_child; [exact Hm|apply Hf].
  - inversion Hok as [|? ? _ Hok']; subst. destruct (index_at pad a x z Hz) as [Hi Hr]. cbn [map]. unfold gforest. cbn [map app]. cbn [get_els]. change (ThisString E (Some (gtree (hop_tree (At pad a x))))) with (Ok TypeIndex). cbn [rbind].
    change (bseq TypeIndex TypeIndex) with true. cbn iota. rewrite Hi. cbn [rbind]. replace (z <? 0) with false by lia. rewrite (GetAt_nth m z (Some c) ltac:(lia) Hc). cbn [rbind add_out].
    apply (IH Hok'). apply whole_bracket. eapply all_nodes_child; eassumption.
  - inversion Hok as [|? ? _ Hok']; subst. destruct (called_text a s Hs) as (v & Hv1 & Hv2). destruct (whole_inv E m Hm) as (kk & Hkk & Hp & _). cbn [map]. unfold gforest. cbn [map app]. cbn [get_els].
    change (ThisString E (Some (gtree (hop_tree (By pad a x))))) with (Ok TypeGroup). cbn [rbind].
    change (bseq TypeGroup TypeIndex) with false. change (bseq TypeGroup TypeSelector) with false. change (bseq TypeGroup TypeArguments) with false. change (bseq TypeGroup TypeGroup) with true. cbn iota.
    rewrite (group_text pad a x v s Hv1 Hv2). cbn [rbind]. destruct s as [|b s]; [congruence|]. cbn iota.
    rewrite (Node_found E m (b :: s) i c (find_child_some _ _ _ _ _ Hf Hp) (proj1 Hf)). cbn [rbind]. apply (IH Hok'). eapply all_nodes_child; [exact Hm|apply Hf].
  - inversion Hok as [|? ? Hok1 Hok2]; subst. inversion Hok2 as [|? ? _ Hok']; subst. destruct cs as [|c cs]; [congruence|]. destruct (SelFacts.those_first E s _ c cs Ht) as (i & Hf).
    cbn [map]. unfold gforest. cbn [map app]. rewrite (get_els_spells p h s m i c) by assumption. erewrite (get_els_braces p All) by (first [reflexivity|apply (selector_all s m _ (proj1 Hs) Hm Ht)]).
    apply (IH Hok'). apply (SelFacts.chosen_nodes E _ m s SelSpec.Every (c :: cs)); [exact Hm|eexists; reflexivity|exact Ht].
  - inversion Hok as [|? ? Hok1 Hok2]; subst. inversion Hok2 as [|? ? _ Hok']; subst. destruct cs as [|c cs]; [congruence|]. destruct (SelFacts.those_first E s _ c cs Ht) as (i & Hf).
    cbn [map]. unfold gforest. cbn [map app]. rewrite (get_els_spells p h s m i c) by assumption. erewrite (get_els_braces p (Of pad a x)) by (first [reflexivity|apply (selector_of pad a x z s m _ (proj1 Hs) Hm Ht Hz Hlt)]).
    apply (IH Hok'). eapply taken_nodes; [exact Hm|eexists; reflexivity|exact Ht].
Qed.
Lemma get_els_bad p m pad a x tl prev k : no_position E g0 a -> get_els E C ev p (Some (gtree (hop_tree (At pad a x))) :: tl) (Some m) prev k g0 = Ok (g0, inr ErrInvalidIndex).
Proof.
  intros H. cbn [get_els]. change (ThisString E (Some (gtree (hop_tree (At pad a x))))) with (Ok TypeIndex). cbn [rbind].
  change (bseq TypeIndex TypeIndex) with true. cbn iota. destruct (index_not pad a x H) as (z & Hz & Hr). rewrite Hz. cbn [rbind]. replace (z <? 0) with true by lia. reflexivity.
Qed.

Definition hop_index (root : bool) (l : list hop) : bool := fold_left (fun _ h => match h with At _ _ _ => true | _ => false end) l root.
Lemma eval_els_hops p simpl l m n : hops E bare g0 l m n -> Forall (hop_ok E) l -> Forall hop_free l -> whole E m -> forall root tl prev k,
  exists prev' k', eval_els E C ev p simpl root (gforest (map hop_tree l) ++ tl) (Some m) prev k g0 = eval_els E C ev p simpl (hop_index root l) tl (Some n) prev' k' g0.
Proof.
  induction 1 as [m|e s l m i c n Hk Hf _ IH|pad a x l m z c n Hz Hc _ IH|pad a x s l m i c n Hs Hs0 Hf _ IH|h s l m cs n Hs Ht Hne _ IH|h s pad a x z l m cs n Hs Ht Hne Hz Hlt _ IH]; intros Hok Hfr Hm root tl prev k.
  - exists prev, k. reflexivity.
  - inversion Hok as [|? ? Hst1 Hok']; subst. destruct Hst1 as (H1 & H2 & _). inversion Hfr as [|? ? F1 Hfr']; subst. cbn [hop_free] in F1. rewrite Hk in F1. cbn [map hop_tree gforest app].
    rewrite (eval_els_found E C ev p simpl root _ m prev k g0 e s i c) by assumption. apply IH; auto. eapply all_nodes_child; [exact Hm|apply Hf].
  - inversion Hok as [|? ? _ Hok']; subst. inversion Hfr as [|? ? _ Hfr']; subst. destruct (index_at pad a x z Hz) as [Hi Hr]. cbn [map]. unfold gforest. cbn [map app]. cbn [eval_els]. change (ThisString E (Some (gtree (hop_tree (At pad a x))))) with (Ok TypeIndex). cbn [rbind].
    change (bseq TypeIndex TypeIndex) with true. cbn iota. rewrite Hi. cbn [rbind]. replace (z <? 0) with false by lia. rewrite (GetAt_nth m z (Some c) ltac:(lia) Hc). cbn [rbind].
    apply (IH Hok' Hfr'). eapply all_nodes_child; eassumption.
  - inversion Hok as [|? ? _ Hok']; subst. inversion Hfr as [|? ? _ Hfr']; subst. destruct (called_text a s Hs) as (v & Hv1 & Hv2). destruct (whole_inv E m Hm) as (kk & Hkk & Hp & _). cbn [map]. unfold gforest. cbn [map app]. cbn [eval_els].
    change (ThisString E (Some (gtree (hop_tree (By pad a x))))) with (Ok TypeGroup). cbn [rbind].
    change (bseq TypeGroup TypeIndex) with false. change (bseq TypeGroup TypeSelector) with false. change (bseq TypeGroup TypeArguments) with false. change (bseq TypeGroup TypeGroup) with true.
    change (bseq TypeGroup (bs "_len")) with false. change (bseq TypeGroup (bs "_this")) with false. change (bseq TypeGroup (bs "_thisString")) with false. change (bseq TypeGroup (bs "_string")) with false. change (bseq TypeGroup (bs "_json")) with false. cbn iota.
    rewrite (group_text pad a x v s Hv1 Hv2). cbn [rbind]. destruct s as [|b s]; [congruence|]. cbn iota.
    rewrite (Node_found E m (b :: s) i c (find_child_some _ _ _ _ _ Hf Hp) (proj1 Hf)). cbn [rbind]. apply (IH Hok' Hfr'). eapply all_nodes_child; [exact Hm|apply Hf].
  - inversion Hok as [|? ? Hok1 Hok2]; subst. inversion Hok2 as [|? ? _ Hok']; subst. inversion Hfr as [|? ? F1 F2]; subst. inversion F2 as [|? ? _ Hfr']; subst. destruct cs as [|c cs]; [congruence|]. destruct (SelFacts.those_first E s _ c cs Ht) as (i & Hf).
    cbn [map]. unfold gforest. cbn [map app]. rewrite (eval_els_spells p simpl root h s m i c) by assumption. erewrite (eval_els_braces p simpl false All) by (first [reflexivity|apply (selector_all s m _ (proj1 Hs) Hm Ht)]).
    apply (IH Hok' Hfr'). apply (SelFacts.chosen_nodes E _ m s SelSpec.Every (c :: cs)); [exact Hm|eexists; reflexivity|exact Ht].
  - inversion Hok as [|? ? Hok1 Hok2]; subst. inversion Hok2 as [|? ? _ Hok']; subst. inversion Hfr as [|? ? F1 F2]; subst. inversion F2 as [|? ? _ Hfr']; subst. destruct cs as [|c cs]; [congruence|]. destruct (SelFacts.those_first E s _ c cs Ht) as (i & Hf).
    cbn [map]. unfold gforest. cbn [map app]. rewrite (eval_els_spells p simpl root h s m i c) by assumption. erewrite (eval_els_braces p simpl false (Of pad a x)) by (first [reflexivity|apply (selector_of pad a x z s m _ (proj1 Hs) Hm Ht Hz Hlt)]).
    apply (IH Hok' Hfr'). eapply taken_nodes; [exact Hm|eexists; reflexivity|exact Ht].
Qed.
Lemma eval_els_bad p simpl root m pad a x tl prev k : no_position E g0 a -> eval_els E C ev p simpl root (Some (gtree (hop_tree (At pad a x))) :: tl) (Some m) prev k g0 = Ok (g0, EErr ErrInvalidIndex).
Proof.
  intros H. cbn [eval_els]. change (ThisString E (Some (gtree (hop_tree (At pad a x))))) with (Ok TypeIndex). cbn [rbind].
  change (bseq TypeIndex TypeIndex) with true. cbn iota. destruct (index_not pad a x H) as (z & Hz & Hr). rewrite Hz. cbn [rbind]. replace (z <? 0) with true by lia. reflexivity.
Qed.
End Ev.

Lemma Get_hops_eq E C l f g : Forall (hop_ok E) l -> l <> [] -> fits3 f (hops_text l) ->
  Get E C f (Some g) (hops_text l) =
  let* (g, r) := get_els E C (evalExpression E C f) (gtree (hops_tree l)) (gforest (map hop_tree l)) (Some g) None [] g in
  Ok (Some g, match r with inl n => n | inr _ => None end).
Proof.
  intros Hok Hn Hf. cbn [Get]. rewrite NewPath_hops by assumption. cbn [rbind]. unfold getPath. cbn [out gtree hops_tree].
  destruct l as [|x l]; [congruence|reflexivity].
Qed.
Lemma Eval_hops E C f l g : l <> [] -> Eval E C (S (S (S (S f)))) g (Some (Node (VStr TypeExpression) [Some (gtree (hops_tree l))])) =
  eval_els E C (evalExpression E C (S (S f))) (gtree (hops_tree l)) true false (gforest (map hop_tree l)) (Some g) None [] g.
Proof.
  intros Hl. unfold Eval, Eval_with. cbn [ThisString this vstring sstring rbind]. change (bseq TypeExpression TypePath || bseq TypeExpression TypeExpression) with true. cbn iota.
  change (evalExpression E C (S (S (S (S f)))) true (Some (Node (VStr TypeExpression) [Some (gtree (hops_tree l))])) g) with (evalExpression E C (S (S (S f))) true (Some (gtree (hops_tree l))) g).
  cbn [evalExpression hops_tree]. unfold eval_body. change (gtree (T (bs "!p") (map hop_tree l))) with (Node (VStr TypePath) (gforest (map hop_tree l))).
  cbn - [evalPath gforest simplify map]. unfold evalPath. cbn [out]. destruct l as [|x l]; [congruence|reflexivity].
Qed.

(** ** C78 a[e] is the child of a at the position that e evaluates to.  Full claim: any
    expression e.  Proved: e is a number or a variable that holds an integer; operators after it
    have no effect, so that with them the claim is false. *)
Theorem C78_get_partial : forall E C l f g n, Forall (hop_ok E) l -> l <> [] -> fits3 f (hops_text l) -> whole E g -> hops E boxed g l g n ->
  Get E C f (Some g) (hops_text l) = Ok (Some g, Some n).
Proof.
  intros E C l f g n Hok Hn Hf Hg Hw. rewrite Get_hops_eq by assumption. destruct f as [|[|f]]; [destruct Hf; lia..|].
  destruct (get_els_hops E C f g Hg (gtree (hops_tree l)) l g n Hw Hok Hg [] None []) as (prev & k & H & _). rewrite app_nil_r in H. rewrite H. reflexivity.
Qed.
Print Assumptions C78_get_partial.
Theorem C78_eval_partial : forall E C l f g n w, Forall (hop_ok E) l -> Forall hop_free l -> starts_with_name l -> fits3 f (hops_text l) -> whole E g -> hops E bare g l g n ->
  plain (VPtr (Some (match List.last l (Go (Index [])) with At _ _ _ => boxed n | _ => n end))) w ->
  exists e, NewExpression E f (hops_text l) = Ok e /\ Eval E C f g (Some e) = Ok (g, EVal w).
Proof.
  intros E C l f g n w Hok Hfr Hst Hf Hg Ha Hw. eexists. split; [apply NewExpression_hops; assumption|]. assert (Hlne : l <> []) by (intros ->; exact Hst). destruct Hf as [_ Hf].
  destruct f as [|[|[|[|f]]]]; try lia. rewrite Eval_hops by exact Hlne.
  destruct (eval_els_hops E C f g Hg (gtree (hops_tree l)) true l g n Ha Hok Hfr Hg false [] None []) as (prev & k & H).
  rewrite app_nil_r in H. rewrite H. cbn [eval_els]. rewrite (plain_fun _ _ _ Hw (plain_simplify _)).
  destruct (exists_last Hlne) as (l' & x & ->). rewrite last_last. unfold hop_index. rewrite fold_left_app. destruct x; reflexivity.
Qed.
Print Assumptions C78_eval_partial.
(** What is not a position: Get finds nothing, an expression fails. *)
Theorem C78_invalid : forall E C l pad a x tl f g n, let p := l ++ At pad a x :: tl in
  Forall (hop_ok E) p -> fits3 f (hops_text p) -> whole E g -> no_position E g a ->
  (hops E boxed g l g n -> Get E C f (Some g) (hops_text p) = Ok (Some g, None)) /\
  (starts_with_name p -> Forall hop_free l -> hops E bare g l g n ->
   exists e, NewExpression E f (hops_text p) = Ok e /\ Eval E C f g (Some e) = Ok (g, EErr ErrInvalidIndex)).
Proof.
  intros E C l pad a x tl f g n p Hok Hf Hg Hno. assert (Hp : p <> []) by (unfold p; destruct l; discriminate). assert (Hokl : Forall (hop_ok E) l) by (apply Forall_app in Hok; apply Hok).
  assert (Ep : gforest (map hop_tree p) = gforest (map hop_tree l) ++ Some (gtree (hop_tree (At pad a x))) :: gforest (map hop_tree tl)) by (unfold p, gforest; rewrite map_app, map_app; reflexivity).
  split.
  - intros Hw. rewrite Get_hops_eq by assumption. destruct f as [|[|f]]; [destruct Hf; lia..|]. rewrite Ep.
    destruct (get_els_hops E C f g Hg (gtree (hops_tree p)) l g n Hw Hokl Hg (Some (gtree (hop_tree (At pad a x))) :: gforest (map hop_tree tl)) None []) as (prev & k & H & _). rewrite H.
    rewrite (get_els_bad E C f g Hg) by exact Hno. reflexivity.
  - intros Hst Hfr Hw. eexists. split; [apply NewExpression_hops; assumption|]. destruct Hf as [_ Hf]. destruct f as [|[|[|[|f]]]]; try lia. rewrite Eval_hops by exact Hp. rewrite Ep.
    destruct (eval_els_hops E C f g Hg (gtree (hops_tree p)) true l g n Hw Hokl Hfr Hg false (Some (gtree (hop_tree (At pad a x))) :: gforest (map hop_tree tl)) None []) as (prev & k & H). rewrite H.
    apply (eval_els_bad E C f g Hg). exact Hno.
Qed.
Print Assumptions C78_invalid.

(** ** Examples *)
Definition ex_vars : graph := Node (VStr (bs "r"))
  [Some (Node (VStr (bs "i")) [Some (Node (VInt KInt 1) [])]); Some (nd "j" [nd "1" []]); Some (nd "a" [nd "x" []; nd "y" []; nd "z" []])].
Lemma ex_vars_data : all_nodes data ex_vars.
Proof. unfold ex_vars, nd. repeat first [apply (all_node _ _ []) | apply (all_node _ _ [_]) | apply (all_node _ _ [_; _]) | apply (all_node _ _ [_; _; _]) | constructor]. Qed.
Lemma ex_a_first : first_named env0 (bs "a") (out ex_vars) 2 (nd "a" [nd "x" []; nd "y" []; nd "z" []]).
Proof.
  split; [reflexivity|]. split; [eexists; split; reflexivity|]. intros [|[|j]] c Hj Hc; try lia; injection Hc as <-; intros (n & [= <-] & H); discriminate H.
Qed.
Lemma ex_go s : s <> [] -> Forall (fun c => name_char c = true) s -> hop_ok env0 (Go (Name s)).
Proof. intros H1 H2. split; [apply name_ascii; assumption|]. split; [exact I|discriminate]. Qed.
Lemma ex_name s : s <> [] -> Forall (fun c => name_char c = true) s -> name env0 s.
Proof. intros H1 H2. apply (name_ascii env0 s H1 H2). Qed.
Definition ex_a_at (pad : bytes) (a : operand) (l : list step) : list hop := [Go (Name (bs "a")); At pad a l].
Lemma ex_at_ok pad a l : blanks pad -> operand_ok env0 a -> Forall (step_ok env0) l -> Forall (hop_ok env0) (ex_a_at pad a l).
Proof. intros H1 H2 H3. apply Forall_cons; [apply ex_go; [discriminate|repeat constructor]|]. apply Forall_cons; [|constructor]. split; [exact H1|]. split; assumption. Qed.
Lemma ex_var_ok c : is_true (name_char c) -> 97 <= bz c -> operand_ok env0 (OPath (map Name [[c]])).
Proof.
  intros H1 H2. split; [apply Forall_cons; [apply (name_ascii env0 [c]); [discriminate|repeat constructor; exact H1]|constructor]|]. cbn. repeat split; [left; exact H1|lia|]. intros ->. cbn in H1. discriminate H1.
Qed.
Lemma ex_position : position env0 ex_vars (OPath (map Name [bs "i"])) 1.
Proof.
  assert (Hn : Forall (name env0) [bs "i"]) by (apply Forall_cons; [apply ex_name; [discriminate|repeat constructor]|constructor]).
  assert (Ho : Forall ordinary [bs "i"]) by (apply Forall_cons; [unfold ordinary; cbn; intuition discriminate|constructor]).
  eapply pos_variable; [discriminate|exact Hn|exact Ho|eapply walk_key with (i := O); [reflexivity|first_here|constructor]|reflexivity|lia].
Qed.
Lemma ex_hops w pad a l z c : position env0 ex_vars a z -> nth_error (out (nd "a" [nd "x" []; nd "y" []; nd "z" []])) (Z.to_nat z) = Some (Some c) -> hops env0 w ex_vars (ex_a_at pad a l) ex_vars (w c).
Proof. intros Hz Hc. eapply hops_go; [reflexivity|exact ex_a_first|]. eapply hops_at; [exact Hz|exact Hc|constructor]. Qed.
Example C78_ex : hops_text (ex_a_at (bs " ") (OPath (map Name [bs "i"])) []) = bs "a[ i]" /\
  Get env0 calls0 40 (Some ex_vars) (bs "a[ i]") = Ok (Some ex_vars, Some (boxed (nd "y" []))) /\
  exists e, NewExpression env0 40 (bs "a[ i]") = Ok e /\ Eval env0 calls0 40 ex_vars (Some e) = Ok (ex_vars, EVal (VStr (bs "y"))).
Proof.
  assert (Hb : blanks (bs " ")) by (repeat constructor). assert (Hok : operand_ok env0 (OPath (map Name [bs "i"]))) by (apply (ex_var_ok "i"%byte); [reflexivity|cbn; lia]).
  change (bs "a[ i]") with (hops_text (ex_a_at (bs " ") (OPath (map Name [bs "i"])) [])). split; [reflexivity|]. split.
  - apply C78_get_partial; [apply ex_at_ok; auto|discriminate|split; cbn; lia|apply data_whole, ex_vars_data|]. apply (ex_hops boxed _ _ _ 1 (nd "y" []) ex_position eq_refl).
  - apply C78_eval_partial with (n := nd "y" []); [apply ex_at_ok; auto| | |split; cbn; lia|apply data_whole, ex_vars_data| |].
    + apply Forall_cons; [cbn; unfold ordinary; cbn; intuition discriminate|apply Forall_cons; [exact I|constructor]].
    + cbn. repeat split; cbn; try lia; discriminate.
    + apply (ex_hops bare _ _ _ 1 (nd "y" []) ex_position eq_refl).
    + left. exists (VStr (bs "[")), (VStr (bs "y")). auto.
Qed.
(** A variable that holds the number as text, as in every graph that was parsed, is no position. *)
Theorem C78_variable_refuted : exists E C f g n v, all_nodes data g /\ walk E [Name (bs "j")] g n /\ Int64 E (Some n) None = Ok 1 /\
  (exists c, walk E [Name (bs "a")] g v /\ nth_error (out v) 1 = Some (Some c)) /\
  Get E C f (Some g) (bs "a[j]") = Ok (Some g, None) /\
  exists e, NewExpression E f (bs "a[j]") = Ok e /\ Eval E C f g (Some e) = Ok (g, EErr ErrInvalidIndex).
Proof.
  exists env0, calls0, 40%nat, ex_vars, (nd "j" [nd "1" []]), (nd "a" [nd "x" []; nd "y" []; nd "z" []]). split; [exact ex_vars_data|].
  assert (Hj : walk env0 [Name (bs "j")] ex_vars (nd "j" [nd "1" []])).
  { eapply walk_key with (i := 1%nat); [reflexivity| |constructor]. split; [reflexivity|]. split; [eexists; split; reflexivity|]. intros [|j] c Hj Hc; try lia; injection Hc as <-; intros (n & [= <-] & H); discriminate H. }
  split; [exact Hj|]. split; [reflexivity|]. split; [exists (nd "y" []); split; [eapply walk_key; [reflexivity|exact ex_a_first|constructor]|reflexivity]|].
  assert (Hno : no_position env0 ex_vars (OPath (map Name [bs "j"]))).
  { apply (np_value _ _ _ (VStr (bs "1"))); [|discriminate]. assert (Hn : Forall (name env0) [bs "j"]) by (apply Forall_cons; [apply ex_name; [discriminate|repeat constructor]|constructor]).
    eapply worth_value; [discriminate|exact Hn| |exact Hj|reflexivity]. apply Forall_cons; [unfold ordinary; cbn; intuition discriminate|constructor]. }
  change (bs "a[j]") with (hops_text ([Go (Name (bs "a"))] ++ At [] (OPath (map Name [bs "j"])) [] :: [])).
  destruct (C78_invalid env0 calls0 [Go (Name (bs "a"))] [] (OPath (map Name [bs "j"])) [] [] 40 ex_vars (nd "a" [nd "x" []; nd "y" []; nd "z" []])) as [H1 H2].
  - apply (ex_at_ok [] (OPath (map Name [bs "j"])) []); [constructor|apply (ex_var_ok "j"%byte); [reflexivity|cbn; lia]|constructor].
  - split; cbn; lia.
  - apply data_whole, ex_vars_data.
  - exact Hno.
  - split; [apply H1|apply H2].
    + eapply hops_go; [reflexivity|exact ex_a_first|constructor].
    + cbn. repeat split; cbn; try lia; discriminate.
    + apply Forall_cons; [cbn; unfold ordinary; cbn; intuition discriminate|constructor].
    + eapply hops_go; [reflexivity|exact ex_a_first|constructor].
Qed.
Print Assumptions C78_variable_refuted.
(** The value of 1+1 is 2, but a[1+1] is the child at position 1. *)
Theorem C78_operators_refuted : exists E C f g v c1 c2, all_nodes data g /\ walk E [Name (bs "a")] g v /\ nth_error (out v) 1 = Some (Some c1) /\ nth_error (out v) 2 = Some (Some c2) /\ c1 <> c2 /\
  den E g (Bin Plus (Leaf (ONum (bs "1"))) (Leaf (ONum (bs "1")))) (Some (DI 2)) /\
  Get E C f (Some g) (bs "a[1+1]") = Ok (Some g, Some (boxed c1)) /\
  exists e, NewExpression E f (bs "a[1+1]") = Ok e /\ Eval E C f g (Some e) = Ok (g, EVal (this c1)).
Proof.
  exists env0, calls0, 40%nat, ex_vars, (nd "a" [nd "x" []; nd "y" []; nd "z" []]), (nd "y" []), (nd "z" []). split; [exact ex_vars_data|].
  split; [eapply walk_key; [reflexivity|exact ex_a_first|constructor]|]. split; [reflexivity|]. split; [reflexivity|]. split; [discriminate|].
  assert (H1 : operand_ok env0 (ONum (bs "1"))).
  { exists [], (bs "1"), []. repeat split; auto; [discriminate|repeat constructor; cbn; lia]. }
  split.
  { apply (den_arith env0 ex_vars Plus _ _ 1 1 (Some 2)); [exact (den_num env0 ex_vars 1 ltac:(unfold in64; lia))|exact (den_num env0 ex_vars 1 ltac:(unfold in64; lia))|]. constructor. split; [unfold in64; lia|exists 0; lia]. }
  assert (Hs : Forall (step_ok env0) [mkStep [] Plus [] (ONum (bs "1"))]).
  { apply Forall_cons; [|constructor]. split; [constructor|]. split; [constructor|]. split; [exact H1|]. cbn. discriminate. }
  assert (Hp : position env0 ex_vars (ONum (bs "1")) 1) by (apply (pos_number env0 ex_vars (bs "1")); [split; [discriminate|repeat constructor; cbn; lia]|cbn; lia]).
  change (bs "a[1+1]") with (hops_text (ex_a_at [] (ONum (bs "1")) [mkStep [] Plus [] (ONum (bs "1"))])). split.
  - apply C78_get_partial; [apply ex_at_ok; auto; constructor|discriminate|split; cbn; lia|apply data_whole, ex_vars_data|]. apply (ex_hops boxed _ _ _ 1 (nd "y" []) Hp eq_refl).
  - apply C78_eval_partial with (n := nd "y" []); [apply ex_at_ok; auto; constructor| | |split; cbn; lia|apply data_whole, ex_vars_data| |].
    + apply Forall_cons; [cbn; unfold ordinary; cbn; intuition discriminate|apply Forall_cons; [exact I|constructor]].
    + cbn. repeat split; cbn; try lia; discriminate.
    + apply (ex_hops bare _ _ _ 1 (nd "y" []) Hp eq_refl).
    + left. exists (VStr (bs "[")), (VStr (bs "y")). auto.
Qed.
Print Assumptions C78_operators_refuted.
