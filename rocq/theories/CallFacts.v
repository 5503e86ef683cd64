(** Parsing of calls: a path, and arguments in parentheses. *)
From Verif Require Import Base Value Event EventSpec EventFacts Lexer TextParser Stream Buffer BufferSpec BufferFacts Wp TextTerm TextSpec TextDoc Graph GraphSpec GraphFacts Emit PathParser PathTerm WpLong PathSpec PathFacts Eval Template TemplateSpec TemplateFacts Views Func FuncSpec.

Local Notation len l := (Z.of_nat (List.length l)).

Section Parse.
Variable E : env.
Variable F : nat.

Lemma blank_white c : blank c = true -> is_white c = true.
Proof. intros H. rewrite TextDoc.blank_space in H. unfold is_white. rewrite H. apply orb_true_r || reflexivity. Qed.

Lemma x_White b s c r h : at_ s (b ++ c :: r) -> blanks b -> is_white c = false -> (List.length b < F)%nat ->
  wpx E (WhiteSpace F) s h (fun _ s' h' => at_ s' (c :: r) /\ h' = h).
Proof.
  intros Ha Hb Hc HF. unfold WhiteSpace. call (x_span E F is_white b [] s (c :: r)); auto.
  - eapply Forall_impl; [|exact Hb]. intros a. apply blank_white.
  - intros x s1 h1 (_ & H1 & ->). apply wpx_ret. auto.
Qed.

Lemma operand_white o : operand_ok E o -> exists c r, operand_text o = c :: r /\ is_white c = false.
Proof.
  intros H. destruct (expr_head E (mkE o [] (Leaf o))) as (c & r & Ec & _ & Hc).
  - repeat split; auto; constructor.
  - unfold expr_src, expr_text in Ec. cbn [lead steps flat_map] in Ec. rewrite app_nil_r in Ec. eauto.
Qed.

(** No argument *)
Lemma x_nothing s r h f : at_ s (")"%byte :: r) -> (4 <= f)%nat -> (1 < F)%nat ->
  wpx E (Expression F f) s h (fun b s' h' => b = false /\ at_ s' (")"%byte :: r) /\ h' = h).
Proof.
  intros Ha Hf HF. destruct f as [|[|[|f]]]; try lia. cbn [Expression UnaryExpression]. apply wpx_bind. call (x_peek E); [exact Ha|]. intros c s1 h1 (-> & H1 & ->).
  change (is_letter ")") with false. cbn iota.
  apply wpx_bind. eapply (wpx_mono E _ s1 h (fun a s' h' => a = None /\ at_ s' (")"%byte :: r) /\ h' = h)).
  { unfold Number_tok. call (x_peek E); [exact H1|]. intros c s2 h2 (-> & H2 & ->). change (beq ")" "-" || beq ")" "+") with false. cbn iota.
    apply wpx_bind, wpx_ret, wpx_bind. eapply wpx_mono; [apply (x_number_loop E F [] F false [] s2 (")"%byte :: r)); auto|].
    - split; [reflexivity|right; discriminate].
    - cbn. lia.
    - cbn beta. intros a s3 h3 (-> & H3 & ->). apply wpx_ret. auto. }
  intros a s2 h2 (-> & H2 & ->). call (x_no_Quoted E F s2 (")"%byte :: r)); [exact H2|reflexivity|]. intros q s3 h3 (-> & H3 & ->).
  unfold Operator. call (x_span E F is_operator [] [] s3 (")"%byte :: r)); auto; [reflexivity|cbn; lia|]. intros x s4 h4 (-> & H4 & ->). cbn [app]. apply wpx_bind, wpx_ret.
  call (x_peek E); [exact H4|]. intros c s5 h5 (-> & H5 & ->). change (beq ")" "(") with false. cbn iota.
  change (path_loop F (S f) true true false) with (do go <- Ret (Some true); match go with None => Ret false | Some dot => path_body F f dot false end).
  apply wpx_bind, wpx_ret. unfold path_body.
  call (x_no_Quoted E F s5 (")"%byte :: r)); [exact H5|reflexivity|]. intros q s6 h6 (-> & H6 & ->).
  apply (x_tok E F _ [] s6 (")"%byte :: r)); auto; [constructor|apply fit_nil|apply token_end_ascii; [cbn; lia|reflexivity]|]. intros s7 H7.
  call (bracket_no E F f "[" "]" TypeIndex ")"%byte r s7); [exact H7|reflexivity|lia|]. intros b s8 h8 (-> & H8 & ->).
  call (bracket_no E F f "{" "}" TypeSelector ")"%byte r s8); [exact H8|reflexivity|lia|]. intros b s9 h9 (-> & H9 & ->).
  destruct f as [|f]; [lia|]. cbn [Args]. apply wpx_bind. call (x_peek E); [exact H9|]. intros c s10 h10 (-> & H10 & ->).
  change (negb (beq ")" "(")) with true. cbn iota. apply wpx_ret. apply wpx_ret. apply wpx_ret. auto.
Qed.

Lemma x_actuals l : forall f s r h any, Forall (actual_ok E) l -> l <> [] -> at_ s (actuals_text l ++ ")"%byte :: r) -> h_inv h ->
  (List.length (actuals_text l) < F)%nat -> (List.length (actuals_text l) + List.length l + 9 <= f)%nat ->
  wpx E (arg_loop F f (cur h) any) s h (fun _ s' h' => at_ s' (")"%byte :: r) /\ adds h (map actual_tree l) h').
Proof.
  induction l as [|a l IH]; intros f s r h any Hl Hne Ha Hh HF Hf; [congruence|]. inversion Hl as [|? ? (Hp & Ho) Hl']; subst.
  destruct f as [|f]; [lia|]. cbn [arg_loop]. destruct (operand_white (what a) Ho) as (c & w & Ec & Hc).
  assert (Hlen : (List.length (actual_text a) <= List.length (actuals_text (a :: l)))%nat) by (destruct l; cbn [actuals_text]; rewrite ?app_length; lia).
  unfold actual_text in Hlen. rewrite app_length in Hlen.
  assert (Hsp : exists r', actuals_text (a :: l) ++ ")"%byte :: r = pad a ++ operand_text (what a) ++ r' /\ expr_end r' /\
     match l with [] => r' = ")"%byte :: r | _ => r' = ","%byte :: actuals_text l ++ ")"%byte :: r end).
  { destruct l as [|a2 l]; cbn [actuals_text]; unfold actual_text at 1; rewrite <- !app_assoc; eexists; (split; [reflexivity|]); (split; [cbn; tauto|reflexivity]). }
  destruct Hsp as (r' & Er & Hend & Hr'). rewrite Er, Ec in Ha. cbn [app] in Ha.
  call (x_White (pad a) s c (w ++ r')); [exact Ha|exact Hp|exact Hc|lia|]. intros _ s1 h1 (H1 & ->).
  apply wpx_emit, wpx_Inc. change (c :: w ++ r') with ((c :: w) ++ r') in H1. rewrite <- Ec in H1. cbn [List.length] in Hf.
  assert (Ex : expr_text (what a) [] = operand_text (what a)) by (unfold expr_text; cbn [flat_map]; apply app_nil_r).
  call (x_expression_r E F (what a) [] f s1 r'); auto; [rewrite Ex; exact H1|apply under_inv, Hh|rewrite Ex; lia|rewrite Ex; lia|]. intros b s2 h2 (-> & H2 & A2).
  cbn [negb]. apply wpx_Dec. pose proof (adds_dec h _ _ _ Hh A2) as A3. cbn [flat_map] in A3. destruct l as [|a2 l].
  - subst r'. call (x_White0 E F s2 ")"%byte r); auto; [lia|]. intros _ s3 h3 (H3 & ->). call (x_peek E); [exact H3|]. intros x s4 h4 (-> & H4 & ->).
    change (beq ")" ")") with true. cbn iota. apply wpx_ret. split; [exact H4|exact A3].
  - subst r'. call (x_White0 E F s2 ","%byte (actuals_text (a2 :: l) ++ ")"%byte :: r)); auto; [lia|]. intros _ s3 h3 (H3 & ->).
    call (x_peek E); [exact H3|]. intros x s4 h4 (-> & H4 & ->). change (beq "," ")") with false. change (beq "," ",") with true. cbn iota.
    call (x_byte E); [exact H4|]. intros ? s5 h5 (_ & H5 & ->). apply wpx_Set. pose proof (set_level_adds _ _ _ A3) as A4.
    assert (Hl2 : (List.length (pad a) + List.length (operand_text (what a)) + 1 + List.length (actuals_text (a2 :: l)) = List.length (actuals_text (a :: a2 :: l)))%nat).
    { change (actuals_text (a :: a2 :: l)) with (actual_text a ++ ","%byte :: actuals_text (a2 :: l)). rewrite app_length. cbn [List.length]. unfold actual_text. rewrite app_length. lia. }
    change (cur h) with (cur (h_set_level (cur h) (h_dec h2))) at 1.
    eapply wpx_mono; [apply (IH f s5 r (h_set_level (cur h) (h_dec h2)) true); auto; [discriminate|exact (adds_inv _ _ _ A4)|lia|cbn [List.length] in *; lia]|].
    cbn beta. intros _ s6 h6 (H6 & A6). split; [exact H6|]. exact (adds_app _ [_] _ _ _ A4 A6).
Qed.

Lemma x_no_actuals f s r h : at_ s (")"%byte :: r) -> h_inv h -> (6 <= f)%nat -> (1 < F)%nat ->
  wpx E (arg_loop F f (cur h) false) s h (fun _ s' h' => at_ s' (")"%byte :: r) /\ adds h [] h').
Proof.
  intros Ha Hh Hf HF. destruct f as [|f]; [lia|]. cbn [arg_loop]. call (x_White0 E F s ")"%byte r); auto; [lia|]. intros _ s1 h1 (H1 & ->).
  apply wpx_emit, wpx_Inc. call (x_nothing s1 r (h_inc (h_add (VStr TypeExpression) h)) f); auto; [lia|]. intros b s2 h2 (-> & H2 & ->). cbn [negb].
  apply wpx_Dec. pose proof (adds_dec h TypeExpression [] _ Hh (adds_nil _ (under_inv h TypeExpression Hh))) as A.
  assert (Hd : exists h3, h_delete (h_dec (h_inc (h_add (VStr TypeExpression) h))) = Ok h3 /\ adds h [] h3).
  { unfold h_delete. assert (Ev : evs (h_dec (h_inc (h_add (VStr TypeExpression) h))) = evs h ++ [(cur h, VStr TypeExpression)]) by reflexivity.
    destruct A as (A1 & A2 & A3). rewrite Ev. destruct (evs h ++ [(cur h, VStr TypeExpression)]) as [|e l] eqn:El; [destruct (evs h); discriminate|]. eexists. split; [reflexivity|].
    split; [|split; [exact A2|]].
    - apply (h_step_inv HDelete (h_dec (h_inc (h_add (VStr TypeExpression) h)))); [exact I|exact A1|]. cbn [h_step]. unfold h_delete. rewrite ?Ev, ?El. reflexivity.
    - cbn [evs]. rewrite <- El, removelast_last. cbn. rewrite app_nil_r. reflexivity. }
  destruct Hd as (h3 & Hd & A3). unfold ev. cbn [pbind]. eapply wpx_ev; [exact Hd|]. apply wpx_ret. auto.
Qed.

Lemma x_Actuals f l s r h : Forall (actual_ok E) l -> at_ s ("("%byte :: actuals_text l ++ ")"%byte :: r) -> h_inv h ->
  (List.length (actuals_text l) + 1 < F)%nat -> (List.length (actuals_text l) + List.length l + 10 <= f)%nat ->
  wpx E (Args F f false) s h (fun b s' h' => b = true /\ at_ s' r /\ adds h [actuals_tree l] h').
Proof.
  intros Hl Ha Hh HF Hf. destruct f as [|f]; [lia|]. cbn [Args]. call (x_peek E); [exact Ha|]. intros x s1 h1 (-> & H1 & ->).
  change (negb (beq "(" "(")) with false. cbn iota. call (x_byte E); [exact H1|]. intros z2 s2 h2 (_ & H2 & ->).
  apply wpx_Level, wpx_emit, wpx_Inc.
  (* the blanks before the first argument are skipped here *)
  assert (Hs : exists b c w l', actuals_text l ++ ")"%byte :: r = b ++ c :: w /\ blanks b /\ is_white c = false /\ (List.length b <= List.length (actuals_text l))%nat /\
     c :: w = actuals_text l' ++ ")"%byte :: r /\ Forall (actual_ok E) l' /\ map actual_tree l' = map actual_tree l /\ List.length l' = List.length l /\
     (List.length (actuals_text l') <= List.length (actuals_text l))%nat).
  { destruct l as [|a l].
    - exists [], ")"%byte, r, []. repeat split; auto. constructor.
    - inversion Hl as [|? ? (Hp & Ho) Hl']; subst. destruct (operand_white (what a) Ho) as (c & w & Ec & Hc).
      exists (pad a), c. destruct l as [|a2 l]; cbn [actuals_text]; unfold actual_text at 1; rewrite Ec.
      + exists (w ++ ")"%byte :: r), [mkActual [] (what a)]. rewrite <- app_assoc. split; [reflexivity|]. split; [exact Hp|]. split; [exact Hc|]. split; [unfold actual_text; rewrite app_length; lia|].
        split; [cbn [actuals_text]; unfold actual_text; cbn [pad what app]; rewrite Ec; reflexivity|]. split; [constructor; [split; [constructor|exact Ho]|constructor]|].
        split; [reflexivity|]. split; [reflexivity|]. cbn [actuals_text]. unfold actual_text. cbn [pad what app]. rewrite app_length. lia.
      + exists (w ++ ","%byte :: actuals_text (a2 :: l) ++ ")"%byte :: r), (mkActual [] (what a) :: a2 :: l). rewrite <- !app_assoc. split; [cbn [app]; rewrite <- ?app_assoc; reflexivity|]. split; [exact Hp|]. split; [exact Hc|].
        split; [unfold actual_text; rewrite !app_length; lia|].
        split; [change (actuals_text (mkActual [] (what a) :: a2 :: l)) with (actual_text (mkActual [] (what a)) ++ ","%byte :: actuals_text (a2 :: l)); unfold actual_text at 1; cbn [pad what app]; rewrite Ec; cbn [app]; rewrite <- app_assoc; reflexivity|].
        split; [constructor; [split; [constructor|exact Ho]|exact Hl']|].
        split; [reflexivity|]. split; [reflexivity|].
        change (actuals_text (mkActual [] (what a) :: a2 :: l)) with (actual_text (mkActual [] (what a)) ++ ","%byte :: actuals_text (a2 :: l)). unfold actual_text. cbn [pad what app]. rewrite ?Ec, !app_length. cbn [List.length]. cbn [actuals_text]. unfold actual_text. lia. }
  destruct Hs as (b & c & w & l' & E1 & Hb & Hc & Hlb & E2 & Hl' & Em & En & Hlt).
  call (x_White b s2 c w); [rewrite E1 in H2; exact H2|exact Hb|exact Hc|lia|]. intros _ s3 h3 (H3 & ->).
  apply wpx_Level. rewrite E2 in H3.
  assert (Hloop : wpx E (arg_loop F f (cur (h_inc (h_add (VStr TypeArguments) h))) false) s3 (h_inc (h_add (VStr TypeArguments) h))
     (fun _ s' h' => at_ s' (")"%byte :: r) /\ adds (h_inc (h_add (VStr TypeArguments) h)) (map actual_tree l') h')).
  { destruct l' as [|a' l'].
    - apply x_no_actuals; auto; [apply under_inv, Hh|lia|lia].
    - apply x_actuals; auto; [discriminate|apply under_inv, Hh|lia|lia]. }
  apply wpx_bind. eapply wpx_mono; [exact Hloop|]. cbn beta. intros _ s4 h4 (H4 & A4). rewrite Em in A4.
  apply wpx_Set. call (x_White0 E F s4 ")"%byte r); auto; [lia|]. intros _ s5 h5 (H5 & ->). call (x_peek E); [exact H5|]. intros x s6 h6 (-> & H6 & ->).
  change (negb (beq ")" ")")) with false. cbn iota. call (x_byte E); [exact H6|]. intros ? s7 h7 (_ & H7 & ->). apply wpx_Set, wpx_ret.
  split; [reflexivity|]. split; [exact H7|]. exact (adds_set h _ _ _ Hh (set_level_adds _ _ _ A4)).
Qed.

(** The arguments, from within a path, and what follows them *)
Lemma x_call_here f dot l es s r h : Forall (actual_ok E) l -> Forall (elem_ok E) es -> at_ s ("("%byte :: actuals_text l ++ ")"%byte :: flat_map (elem_text false) es ++ r) -> path_end E r -> h_inv h ->
  (List.length (actuals_text l) + 1 < F)%nat -> (List.length (flat_map (elem_text false) es) < F)%nat -> (List.length (actuals_text l) + List.length l + List.length es + 12 <= f)%nat ->
  wpx E (path_loop F f false dot true) s h (fun b s' h' => b = true /\ at_ s' r /\ adds h (actuals_tree l :: map elem_tree es) h').
Proof.
  intros Hl Hes Ha Hr Hh HF HF2 Hf. destruct f as [|f]; [lia|]. rewrite path_loop_S. cbn iota. remember (flat_map (elem_text false) es ++ r) as r' eqn:Er.
  call (x_open E s (actuals_text l ++ ")"%byte :: r')); [exact Ha|]. intros go s3 h3 (-> & H3 & ->).
  unfold path_body. call (x_no_Quoted E F s3 ("("%byte :: actuals_text l ++ ")"%byte :: r')); [exact H3|reflexivity|]. intros q s4 h4 (-> & H4 & ->).
  apply (x_tok E F _ [] s4 ("("%byte :: actuals_text l ++ ")"%byte :: r')); auto; [constructor|apply fit_nil|apply token_end_ascii; [cbn; lia|reflexivity]|]. intros s5 H5.
  call (bracket_no E F f "[" "]" TypeIndex "("%byte (actuals_text l ++ ")"%byte :: r') s5); [exact H5|reflexivity|lia|]. intros b s6 h6 (-> & H6 & ->).
  call (bracket_no E F f "{" "}" TypeSelector "("%byte (actuals_text l ++ ")"%byte :: r') s6); [exact H6|reflexivity|lia|]. intros b s7 h7 (-> & H7 & ->).
  call (x_Actuals f l s7 r' h); auto; [lia|]. intros b s8 h8 (-> & H8 & A8). subst r'.
  eapply wpx_mono; [apply (x_path_rest E F es f false s8 r h8); auto; [exact (adds_inv _ _ _ A8)|lia]|]. cbn beta. intros b s9 h9 (-> & H9 & A9).
  split; [reflexivity|]. split; [exact H9|]. exact (adds_app _ [actuals_tree l] _ _ _ A8 A9).
Qed.

Lemma token_end_elems es w : token_end E (flat_map (elem_text false) es ++ "("%byte :: w).
Proof. destruct es as [|[s|q s|n] es]; cbn [flat_map elem_text app]; (apply token_end_ascii; [cbn; lia|reflexivity]). Qed.

Lemma x_call_rest es l es2 : Forall (actual_ok E) l -> Forall (elem_ok E) es2 -> forall f dot s r h, Forall (elem_ok E) es ->
  at_ s (flat_map (elem_text false) es ++ "("%byte :: actuals_text l ++ ")"%byte :: flat_map (elem_text false) es2 ++ r) -> path_end E r -> h_inv h ->
  (List.length (flat_map (elem_text false) es) < F)%nat -> (List.length (actuals_text l) + 1 < F)%nat -> (List.length (flat_map (elem_text false) es2) < F)%nat ->
  (List.length es + List.length (actuals_text l) + List.length l + List.length es2 + 12 <= f)%nat ->
  wpx E (path_loop F f false dot true) s h (fun b s' h' => b = true /\ at_ s' r /\ adds h (map elem_tree es ++ actuals_tree l :: map elem_tree es2) h').
Proof.
  intros Hl Hes2. induction es as [|e es IH]; intros f dot s r h Hes Ha Hr Hh HF HF2 HF3 Hf.
  - apply x_call_here; auto.
  - destruct f as [|f]; [cbn in Hf; lia|]. rewrite path_loop_S; cbn iota.
    inversion Hes as [|? ? He Hes']; subst. cbn [flat_map map] in *. rewrite app_length in HF. cbn [List.length] in Hf.
    remember ("("%byte :: actuals_text l ++ ")"%byte :: flat_map (elem_text false) es2 ++ r) as w0 eqn:Ew.
    assert (Body : forall s1 dot1, at_ s1 (elem_text true e ++ flat_map (elem_text false) es ++ w0) ->
       wpx E (path_body F f dot1 true) s1 h (fun b s' h' => b = true /\ at_ s' r /\ adds h ((elem_tree e :: map elem_tree es) ++ actuals_tree l :: map elem_tree es2) h')).
    { intros s1 dot1 H1. apply (x_body E F f dot1 true e s1 (flat_map (elem_text false) es ++ w0)); auto; [subst w0; apply token_end_elems| |lia|].
      - destruct e as [w|q w|n]; cbn [elem_text List.length app] in *; lia.
      - intros s2 h2 H2 A2. eapply wpx_mono; [apply (IH f dot1 s2 r h2); auto; [rewrite <- Ew; exact H2|exact (adds_inv _ _ _ A2)|lia|lia]|]. cbn beta. intros b s3 h3 (-> & H3 & A3).
        split; [reflexivity|]. split; [exact H3|]. exact (adds_app _ [elem_tree e] _ _ _ A2 A3). }
    rewrite <- app_assoc in Ha. apply wpx_bind, wpx_bind.
    destruct e as [w|q w|n]; cbn [elem_text app] in Ha.
    + eapply wpx_mono; [apply x_byte, Ha|]. cbn beta. intros c s1 h1 (-> & H1 & ->). change (beq "." ".") with true. cbn iota. apply wpx_ret. apply Body, H1.
    + eapply wpx_mono; [apply x_byte, Ha|]. cbn beta. intros c s1 h1 (-> & H1 & ->). change (beq "." ".") with true. cbn iota. apply wpx_ret. apply Body, H1.
    + destruct Ha as (Hg & Ef). unfold Byte_, wpx, short, wpi. cbn [run]. unfold s_byte. rewrite Ef. cbn [run s_unread over past].
      change (beq "[" ".") with false. cbn [run s_unread over past]. change (beq "[" "[" || beq "[" "(" || beq "[" "{") with true. cbn iota.
      apply Body. split; [apply good_false|reflexivity].
Qed.

Lemma x_call_path es l es2 f s r h : Forall (elem_ok E) es -> es <> [] -> Forall (actual_ok E) l -> Forall (elem_ok E) es2 -> at_ s (call_text es l es2 ++ r) -> path_end E r -> h_inv h ->
  (List.length (call_text es l es2) < F)%nat -> (List.length es + List.length (actuals_text l) + List.length l + List.length es2 + 12 <= f)%nat ->
  wpx E (path_loop F f true true false) s h (fun b s' h' => b = true /\ at_ s' r /\ adds h (map elem_tree es ++ actuals_tree l :: map elem_tree es2) h').
Proof.
  intros Hes Hne Hl Hes2 Ha Hr Hh HF Hf. destruct es as [|e es]; [congruence|]. destruct f as [|f]; [lia|]. rewrite path_loop_S. cbn iota.
  apply wpx_bind, wpx_ret. inversion Hes as [|? ? He Hes']; subst. unfold call_text in *. cbn [path_text] in *. rewrite !app_length in HF. cbn [List.length] in HF, Hf. rewrite app_length in HF. cbn [List.length] in HF.
  rewrite <- !app_assoc in Ha. cbn [app] in Ha. rewrite <- app_assoc in Ha. cbn [app] in Ha.
  apply (x_body E F f true false e s (flat_map (elem_text false) es ++ "("%byte :: actuals_text l ++ ")"%byte :: flat_map (elem_text false) es2 ++ r)); auto; [apply token_end_elems|lia|lia|].
  intros s2 h2 H2 A2. eapply wpx_mono; [apply (x_call_rest es l es2 Hl Hes2 f true s2 r h2); auto; [exact (adds_inv _ _ _ A2)|lia|lia|lia|lia]|]. cbn beta. intros b s3 h3 (-> & H3 & A3).
  split; [reflexivity|]. split; [exact H3|]. exact (adds_app _ [elem_tree e] _ _ _ A2 A3).
Qed.
End Parse.

Definition call_tree_of (es : list elem) (l : list actual) (es2 : list elem) : tree := T (bs "!p") (map elem_tree es ++ actuals_tree l :: map elem_tree es2).

Lemma actuals_count E l : Forall (actual_ok E) l -> (List.length l <= List.length (actuals_text l))%nat.
Proof.
  induction 1 as [|a l (Hp & Ho) Hl IH]; [cbn; lia|]. destruct (operand_white E (what a) Ho) as (c & w & Ec & _).
  destruct l as [|a2 l]; cbn [actuals_text] in *; unfold actual_text at 1; rewrite ?app_length, ?Ec; cbn [List.length] in *; rewrite ?app_length; cbn [List.length] in *; lia.
Qed.
Lemma rest_length E es : Forall (elem_ok E) es -> (List.length es <= List.length (flat_map (elem_text false) es))%nat.
Proof. induction 1 as [|e es He _ IH]; [cbn; lia|]. cbn [flat_map List.length]. rewrite app_length. pose proof (elem_text_pos E false e He). lia. Qed.
Lemma call_lengths E es l es2 : Forall (elem_ok E) es -> Forall (actual_ok E) l -> Forall (elem_ok E) es2 ->
  (List.length es + List.length (actuals_text l) + List.length es2 + 2 <= List.length (call_text es l es2))%nat.
Proof. intros H1 H2 H3. pose proof (path_text_length E es H1). pose proof (rest_length E es2 H3). unfold call_text. rewrite app_length. cbn [List.length]. rewrite app_length. cbn [List.length]. lia. Qed.

Lemma NewPath_call E es l es2 fuel : Forall (elem_ok E) es -> es <> [] -> Forall (actual_ok E) l -> Forall (elem_ok E) es2 -> len (call_text es l es2) <= 4094 -> (2 * List.length (call_text es l es2) + 12 <= fuel)%nat ->
  NewPath E fuel (call_text es l es2) = Ok (gtree (call_tree_of es l es2)).
Proof.
  intros Hes Hne Hl Hes2 Hlen Hf. rewrite NewPath_ideal by lia. unfold s_path. pose proof (call_lengths E es l es2 Hes Hl Hes2). pose proof (actuals_count E l Hl).
  pose proof (x_call_path E fuel es l es2 fuel (s_init (call_text es l es2)) [] h_init Hes Hne Hl Hes2) as H1.
  assert (Ha : at_ (s_init (call_text es l es2)) (call_text es l es2 ++ [])) by (rewrite app_nil_r; split; [apply good_false|reflexivity]).
  specialize (H1 Ha (path_end_nil E) h_init_inv ltac:(lia) ltac:(lia)). unfold wpx, short, wpi in H1. change (Path fuel fuel) with (path_loop fuel fuel true true false).
  destruct (run E _ _ _) as [[[b s'] h']| |]; try contradiction. destruct H1 as (_ & _ & H1). cbn [rbind]. rewrite (adds_Tree _ _ H1). reflexivity.
Qed.

Lemma NewExpression_call E es l es2 fuel : Forall (elem_ok E) es -> starts_with_letter es -> Forall (actual_ok E) l -> Forall (elem_ok E) es2 -> len (call_text es l es2) <= 4094 -> (2 * List.length (call_text es l es2) + 16 <= fuel)%nat ->
  NewExpression E fuel (call_text es l es2) = Ok (Node (VStr TypeExpression) [Some (gtree (call_tree_of es l es2))]).
Proof.
  intros Hes Hst Hl Hes2 Hlen Hf. assert (Hne : es <> []) by (intros ->; exact Hst). rewrite NewExpression_ideal by lia. unfold s_expr.
  pose proof (call_lengths E es l es2 Hes Hl Hes2). pose proof (actuals_count E l Hl).
  assert (H1 : wpx E (Expression fuel fuel) (s_init (call_text es l es2)) h_init (fun b s' h' => adds h_init [call_tree_of es l es2] h')).
  { destruct fuel as [|[|f]] eqn:Ef; try lia. rewrite <- Ef in *. assert (Ha : at_ (s_init (call_text es l es2)) (call_text es l es2)) by (split; [apply good_false|reflexivity]).
    replace (Expression fuel fuel) with (Expression fuel (S (S f))) by (rewrite Ef; reflexivity). cbn [Expression UnaryExpression]. apply wpx_bind.
    call (x_peek E); [exact Ha|]. intros c s1 h1 (-> & Hs1 & ->).
    assert (Hhd : exists c r', call_text es l es2 = c :: r' /\ is_letter c = true).
    { destruct es as [|[[|c w]|q w|n] es]; cbn [starts_with_letter] in Hst; try contradiction. unfold call_text. cbn [path_text elem_text app].
      eexists c, _. split; [reflexivity|]. pose proof (Forall_inv Hes) as (_ & Hw). destruct Hst as (_ & Hst1 & Hst2). exact (name_letter E c w Hw Hst1 Hst2). }
    destruct Hhd as (c & r' & Ec & Hlt). assert (El : match call_text es l es2 with [] => x00 | c :: _ => c end = c) by (rewrite Ec; reflexivity). rewrite El, Hlt.
    apply wpx_emit, wpx_Inc. call (x_call_path E fuel es l es2 f s1 [] (h_inc (h_add (VStr TypePath) h_init))); auto; try lia; [rewrite app_nil_r; exact Hs1|apply path_end_nil|apply under_inv, h_init_inv|].
    intros b s2 h2 (_ & Hs2 & A2). apply wpx_Dec, wpx_ret. pose proof (adds_dec h_init _ _ _ h_init_inv A2) as A3.
    eapply wpx_mono; [apply (x_steps E fuel O [] (S f) s2 [] (h_dec h2)); auto; try lia; [exact I|exact (adds_inv _ _ _ A3)|cbn; lia|cbn; lia]|]. cbn beta.
    intros b' s3 h3 (_ & _ & A4). exact (adds_app _ [call_tree_of es l es2] _ [] _ A3 A4). }
  unfold wpx, short, wpi in H1. destruct (run E _ _ _) as [[[b s'] h']| |]; try contradiction. cbn [rbind]. rewrite (adds_Tree _ _ H1). reflexivity.
Qed.
