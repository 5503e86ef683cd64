(** Templates: parsing, nesting, processing. *)
From Verif Require Import Base Value Event EventSpec EventFacts Lexer TextParser Stream Buffer BufferSpec BufferFacts BufferFacts2 Wp TextTerm TextSpec TextDoc Graph GraphSpec GraphFacts Emit PathParser PathTerm PathSpec WpLong PathFacts Eval Template TemplateSpec.

Local Notation len l := (Z.of_nat (List.length l)).

(** ** What the parser makes of a template, before nesting *)
Definition expr_forest (e : expr) : list tree := operand_tree (lead e) :: flat_map step_trees (steps e).
Definition args_tree (es : list expr) : tree := T (bs "!a") (map (fun e => T (bs "!e") (expr_forest e)) es).
Definition call_tree (k : bytes) (es : list expr) : tree := T (bs "!p") [T k []; args_tree es].
Definition kw_tree (k : bytes) : tree := T (bs "!p") [T k []].
Definition var_expr (x : bytes) : expr := mkE (OPath [Name x]) [] (Leaf (OPath [Name x])).

Fixpoint flat_t (t : tmpl) : list tree :=
  match t with
  | TEnd => []
  | TText s t => T s [] :: flat_t t
  | TDollar t => T (bs "$") [] :: flat_t t
  | TVar es t | TBraces es t => T (bs "!p") (map elem_tree es) :: flat_t t
  | TExpr e t => T (bs "!e") (expr_forest e) :: flat_t t
  | TIf e b r t => call_tree (bs "if") [e] :: flat_t b ++ flat_tail r ++ kw_tree (bs "end") :: flat_t t
  | TFor x e b t => call_tree (bs "for") [var_expr x; e] :: flat_t b ++ kw_tree (bs "end") :: flat_t t
  | TBreak t => kw_tree (bs "break") :: flat_t t
  end
with flat_tail (r : tail) : list tree :=
  match r with
  | Fi => []
  | Else b => kw_tree (bs "else") :: flat_t b
  | ElseIf e b r => call_tree (bs "elseif") [e] :: flat_t b ++ flat_tail r
  end.

Ltac call L := apply wpx_bind; eapply wpx_mono; [apply L|]; cbn beta.
Ltac incases H := repeat (destruct H as [<-|H]); [..|destruct H].

Section Parse.
Context {L : mode}.
Variable E : env.
Variable F : nat.

(** In the real buffer the names must be ASCII. *)
Definition expr_in (e : expr) : Prop :=
  match L with None => expr_ok E e | Some _ => expr_ok E e /\ operand_in E (lead e) /\ Forall (step_in E) (steps e) end.
Lemma expr_in_ok e : expr_in e -> expr_ok E e.
Proof. unfold expr_in. destruct L; tauto. Qed.
Lemma expr_in_parts e : expr_in e -> operand_in E (lead e) /\ Forall (step_in E) (steps e).
Proof. unfold expr_in, operand_in, step_in. destruct L; [tauto|]. intros (H1 & H2 & _). auto. Qed.

(** *** Arguments *)
Fixpoint args_src (es : list expr) : bytes :=
  match es with [] => [] | [e] => expr_src e | e :: es => expr_src e ++ ","%byte :: args_src es end.

Lemma expr_head e : expr_ok E e -> exists c r, expr_src e = c :: r /\ is_space c = false /\ is_white c = false.
Proof.
  intros (H & _). unfold expr_src, expr_text. destruct (lead e) as [n|q w|es]; cbn [operand_ok operand_text] in *.
  - destruct (number_head n H) as (c & r & -> & Hc). cbn [app]. eexists c, _. split; [reflexivity|].
    destruct Hc as [->|Hc]; [split; reflexivity|]. unfold is_white, is_break, is_space. lia.
  - destruct H as (Hq & _). cbn [app]. eexists q, _. split; [reflexivity|]. destruct Hq as [->|[->| ->]]; split; reflexivity.
  - destruct H as (_ & H). destruct es as [|[[|c w]|q w|n] es]; cbn [starts_with_letter] in H; try contradiction. destruct H as (H1 & H2 & _).
    cbn [path_text elem_text app]. eexists c, _. split; [reflexivity|]. unfold name_char in H1. unfold is_white, is_break, is_space. lia.
Qed.

Lemma x_White0 s c r h : at_ s (c :: r) -> is_white c = false -> (0 < F)%nat ->
  wpx E (WhiteSpace F) s h (fun _ s' h' => at_ s' (c :: r) /\ h' = h).
Proof.
  intros Ha Hc HF. unfold WhiteSpace. call (x_span E F is_white [] [] s (c :: r)); auto. intros x s1 h1 (-> & H1 & ->). apply wpx_ret. auto.
Qed.

Lemma set_level_adds h f h' : adds h f h' -> adds h f (h_set_level (cur h) h').
Proof.
  intros (A1 & A2 & A3). split; [apply h_set_inv; [rewrite <- A2; apply A1|exact A1]|]. split; [reflexivity|exact A3].
Qed.

Lemma x_arg_loop es : forall f s r h any, Forall expr_in es -> es <> [] -> at_ s (args_src es ++ ")"%byte :: r) -> h_inv h ->
  (List.length (args_src es) < F)%nat -> (List.length (args_src es) + List.length es + 9 <= f)%nat ->
  wpx E (arg_loop F f (cur h) any) s h (fun _ s' h' => at_ s' (")"%byte :: r) /\ adds h (map (fun e => T (bs "!e") (expr_forest e)) es) h').
Proof.
  induction es as [|e es IH]; intros f s r h any Hes Hne Ha Hh HF Hf; [congruence|]. inversion Hes as [|? ? He Hes']; subst.
  destruct f as [|f]; [lia|]. cbn [arg_loop]. destruct (expr_head e (expr_in_ok e He)) as (c & w & Ec & Hc1 & Hc2).
  assert (Hlen : (List.length (expr_src e) <= List.length (args_src (e :: es)))%nat) by (destruct es; cbn [args_src]; rewrite ?app_length; lia).
  assert (Hsp : exists r', args_src (e :: es) ++ ")"%byte :: r = expr_src e ++ r' /\ expr_end r' /\
     match es with [] => r' = ")"%byte :: r | _ => r' = ","%byte :: args_src es ++ ")"%byte :: r end).
  { destruct es as [|e2 es]; cbn [args_src].
    - eexists; split; [reflexivity|]. split; [cbn; tauto|reflexivity].
    - rewrite <- app_assoc. eexists; split; [reflexivity|]. split; [cbn; tauto|reflexivity]. }
  destruct Hsp as (r' & Er & Hend & Hr'). rewrite Er in Ha. destruct (expr_in_parts e He) as (Ho & Hst).
  call (x_White0 s c (w ++ r')); [rewrite Ec in Ha; exact Ha|exact Hc2|lia|]. intros _ s1 h1 (H1 & ->).
  apply wpx_emit, wpx_Inc. change (c :: w ++ r') with ((c :: w) ++ r') in H1. rewrite <- Ec in H1.
  cbn [List.length] in Hf. unfold expr_src in *.
  call (x_expression_r E F (lead e) (steps e) f s1 r'); auto; [apply under_inv, Hh|lia|lia|]. intros b s2 h2 (-> & H2 & A2).
  cbn [negb]. apply wpx_Dec. pose proof (adds_dec h _ _ _ Hh A2) as A3. destruct es as [|e2 es].
  - subst r'. call (x_White0 s2 ")"%byte r); auto; [lia|]. intros _ s3 h3 (H3 & ->). call (x_peek E); [exact H3|]. intros x s4 h4 (-> & H4 & ->).
    change (beq ")" ")") with true. cbn iota. apply wpx_ret. split; [exact H4|exact A3].
  - subst r'. call (x_White0 s2 ","%byte (args_src (e2 :: es) ++ ")"%byte :: r)); auto; [lia|]. intros _ s3 h3 (H3 & ->).
    call (x_peek E); [exact H3|]. intros x s4 h4 (-> & H4 & ->). change (beq "," ")") with false. change (beq "," ",") with true. cbn iota.
    call (x_byte E); [exact H4|]. intros ? s5 h5 (_ & H5 & ->). apply wpx_Set. pose proof (set_level_adds _ _ _ A3) as A4.
    assert (Hl2 : (List.length (expr_text (lead e) (steps e)) + 1 + List.length (args_src (e2 :: es)) = List.length (args_src (e :: e2 :: es)))%nat).
    { change (args_src (e :: e2 :: es)) with (expr_src e ++ ","%byte :: args_src (e2 :: es)). rewrite app_length. cbn [List.length]. unfold expr_src. lia. }
    change (cur h) with (cur (h_set_level (cur h) (h_dec h2))) at 1.
    eapply wpx_mono; [apply (IH f s5 r (h_set_level (cur h) (h_dec h2)) true); auto; [discriminate|exact (adds_inv _ _ _ A4)|lia|cbn [List.length] in *; lia]|].
    cbn beta. intros _ s6 h6 (H6 & A6). split; [exact H6|]. exact (adds_app _ [_] _ _ _ A4 A6).
Qed.

Lemma x_Args f es s r h : Forall expr_in es -> es <> [] -> at_ s ("("%byte :: args_src es ++ ")"%byte :: r) -> h_inv h ->
  (List.length (args_src es) < F)%nat -> (List.length (args_src es) + List.length es + 10 <= f)%nat ->
  wpx E (Args F f false) s h (fun b s' h' => b = true /\ at_ s' r /\ adds h [args_tree es] h').
Proof.
  intros Hes Hne Ha Hh HF Hf. destruct f as [|f]; [lia|]. cbn [Args]. call (x_peek E); [exact Ha|]. intros x s1 h1 (-> & H1 & ->).
  change (negb (beq "(" "(")) with false. cbn iota. call (x_byte E); [exact H1|]. intros ? s2 h2 (_ & H2 & ->).
  apply wpx_Level, wpx_emit, wpx_Inc.
  assert (Hh2 : exists c w, args_src es ++ ")"%byte :: r = c :: w /\ is_white c = false).
  { destruct es as [|e es]; [congruence|]. inversion Hes as [|? ? He _]; subst. destruct (expr_head e (expr_in_ok e He)) as (c & w & Ec & _ & Hc).
    destruct es; cbn [args_src]; rewrite Ec; cbn [app]; eauto. }
  destruct Hh2 as (c & w & Ec & Hc). call (x_White0 s2 c w); [rewrite Ec in H2; exact H2|exact Hc|lia|]. intros _ s3 h3 (H3 & ->).
  apply wpx_Level. rewrite <- Ec in H3.
  call (x_arg_loop es f s3 r (h_inc (h_add (VStr TypeArguments) h)) false); auto; [apply under_inv, Hh|lia|]. intros _ s4 h4 (H4 & A4).
  apply wpx_Set. call (x_White0 s4 ")"%byte r); auto; [lia|]. intros _ s5 h5 (H5 & ->). call (x_peek E); [exact H5|]. intros x s6 h6 (-> & H6 & ->).
  change (negb (beq ")" ")")) with false. cbn iota. call (x_byte E); [exact H6|]. intros ? s7 h7 (_ & H7 & ->). apply wpx_Set, wpx_ret.
  split; [reflexivity|]. split; [exact H7|]. exact (adds_set h _ _ _ Hh (set_level_adds _ _ _ A4)).
Qed.

Lemma bracket_no f l r t c w s h : at_ s (c :: w) -> beq c l = false -> (0 < f)%nat ->
  wpx E (bracket F f l r t) s h (fun b s' h' => b = false /\ at_ s' (c :: w) /\ h' = h).
Proof.
  intros Ha Hc Hf. destruct f as [|f]; [lia|]. cbn [bracket]. call (x_peek E); [exact Ha|]. intros x s1 h1 (-> & H1 & ->). rewrite Hc. cbn [negb].
  apply wpx_ret. auto.
Qed.

Lemma x_open s w h : at_ s ("("%byte :: w) ->
  wpx E (do c <- Byte_; if beq c "." then Ret (Some true) else UnB (Ret (if beq c "[" || beq c "(" || beq c "{" then Some false else None))) s h
    (fun go s' h' => go = Some false /\ at_ s' ("("%byte :: w) /\ h' = h).
Proof.
  intros Ha. unfold Byte_. cbn [pbind]. eapply x_get; [exact Ha|]. intro p. change (beq "(" ".") with false. cbn iota. apply x_un. intros s' Ha'. apply wpx_ret.
  split; [reflexivity|]. split; [exact Ha'|reflexivity].
Qed.
(** A name with arguments *)
Lemma x_call k es f s r h : elem_in E (Name k) -> Forall expr_in es -> es <> [] -> at_ s (k ++ "("%byte :: args_src es ++ ")"%byte :: r) -> path_end E r -> h_inv h ->
  (List.length k + List.length (args_src es) < F)%nat -> (List.length (args_src es) + List.length es + 14 <= f)%nat ->
  wpx E (path_loop F f true true false) s h (fun b s' h' => b = true /\ at_ s' r /\ adds h [T k []; args_tree es] h').
Proof.
  intros Hk Hes Hne Ha Hr Hh HF Hf. destruct f as [|f]; [lia|]. rewrite path_loop_S. cbn iota. apply wpx_bind, wpx_ret.
  apply (x_body E F f true false (Name k) s ("("%byte :: args_src es ++ ")"%byte :: r)); auto; [apply token_end_ascii; [cbn; lia|reflexivity]|cbn [elem_text app]; lia|lia|].
  intros s2 h2 H2 A2. destruct f as [|f]; [lia|]. rewrite path_loop_S. cbn iota. call (x_open s2 (args_src es ++ ")"%byte :: r)); [exact H2|]. intros go s3 h3 (-> & H3 & ->).
  unfold path_body. call (x_no_Quoted E F s3 ("("%byte :: args_src es ++ ")"%byte :: r)); [exact H3|reflexivity|]. intros q s4 h4 (-> & H4 & ->).
  apply (x_tok E F _ [] s4 ("("%byte :: args_src es ++ ")"%byte :: r)); auto; [constructor|apply fit_nil|apply token_end_ascii; [cbn; lia|reflexivity]|]. intros s5 H5.
  call (bracket_no f "[" "]" TypeIndex "("%byte (args_src es ++ ")"%byte :: r) s5); [exact H5|reflexivity|lia|]. intros b s6 h6 (-> & H6 & ->). 
  call (bracket_no f "{" "}" TypeSelector "("%byte (args_src es ++ ")"%byte :: r) s6); [exact H6|reflexivity|lia|]. intros b s7 h7 (-> & H7 & ->). 
  call (x_Args f es s7 r h2); auto; [exact (adds_inv _ _ _ A2)|lia|lia|]. intros b s8 h8 (-> & H8 & A8).
  eapply wpx_mono; [apply (x_path_rest E F [] f false s8 r h8); auto; [exact (adds_inv _ _ _ A8)|cbn; lia|cbn; lia]|]. cbn beta. intros b s9 h9 (-> & H9 & A9).
  split; [reflexivity|]. split; [exact H9|]. exact (adds_app _ [T k []] _ _ _ A2 (adds_app _ [args_tree es] _ [] _ A8 A9)).
Qed.

(** *** Variables *)
Lemma x_byte_then {A} (k : byte -> prog A) s c w h Q : at_ s (c :: w) -> (forall p, wpx E (k c) (mkS (c :: p) w false) h Q) -> wpx E (pbind Byte_ k) s h Q.
Proof. intros Ha H. unfold Byte_. cbn [pbind]. eapply x_get; [exact Ha|]. intro p. apply H. Qed.

Definition var_post (h : handler) (t : tree) (r : bytes) (b : bool) (s' : stream) (h' : handler) : Prop := b = true /\ at_ s' r /\ adds h [t] h'.

Lemma v_dollar s r h : at_ s ("$" :: "\" :: r)%byte -> h_inv h -> wpx E (Variable_ F) s h (var_post h (T (bs "$") []) r).
Proof.
  intros Ha Hh. unfold Variable_. eapply x_byte_then; [exact Ha|]. intro p. change (negb (beq "$" "$")) with false. cbn iota.
  eapply x_byte_then; [apply at_mk|]. intro p2. change (beq "\" "\") with true. cbn iota. apply wpx_emit, wpx_ret. split; [reflexivity|]. split; [apply at_mk|].
  apply adds_leaf, Hh.
Qed.

Lemma v_path c w k s r h : at_ s ("$" :: c :: w)%byte -> h_inv h -> ~ In c (bs "\({") ->
  (forall s' h', at_ s' (c :: w) -> h_inv h' -> wpx E (path_loop F F true true false) s' h' (fun b s' h'' => b = true /\ at_ s' r /\ adds h' k h'')) ->
  wpx E (Variable_ F) s h (var_post h (T (bs "!p") k) r).
Proof.
  intros Ha Hh Hc Hp. unfold Variable_. eapply x_byte_then; [exact Ha|]. intro p. change (negb (beq "$" "$")) with false. cbn iota.
  eapply x_byte_then; [apply at_mk|]. intro p2. destruct (beq_spec c "\") as [->|_]; [exfalso; apply Hc; cbn; auto|]. apply x_un. intros s0 Ha0. apply wpx_Level.
  eapply x_byte_then; [exact Ha0|]. intro p3. destruct (beq_spec c "(") as [->|_]; [exfalso; apply Hc; cbn; auto|]. destruct (beq_spec c "{") as [->|_]; [exfalso; apply Hc; cbn; auto|].
  apply wpx_bind. apply wpx_emit, wpx_Inc. apply wpx_bind, x_un. intros s4 Ha4. apply wpx_ret. apply wpx_bind. unfold Path.
  eapply wpx_mono; [apply Hp; [exact Ha4|apply under_inv, Hh]|]. cbn beta. intros b s1 h1 (_ & H1 & A1). apply wpx_ret. apply wpx_Set, wpx_ret.
  split; [reflexivity|]. split; [exact H1|]. exact (adds_set h _ _ _ Hh A1).
Qed.

Lemma path_head es : Forall (elem_ok E) es -> es <> [] -> exists c w, path_text es = c :: w /\ ~ In c (bs "\({") /\ is_space c = false.
Proof.
  intros H Hne. destruct es as [|e es]; [congruence|]. inversion H as [|? ? He _]; subst. destruct e as [n|q n|n]; cbn [path_text elem_text elem_ok app] in *.
  - destruct He as (Hn & Hc). destruct n as [|c n]; [congruence|]. pose proof (letters_head E c n Hc) as Hc'. cbn [app]. eexists c, _. split; [reflexivity|].
    split; [intro Hx; cbn in Hx; incases Hx; (destruct Hc' as [Hc'|Hc']; [discriminate Hc'|cbn in Hc'; lia])|]. destruct (is_space c) eqn:Es; [|reflexivity]. apply space_cases in Es. cbn in Es. incases Es; (destruct Hc' as [Hc'|Hc']; [discriminate Hc'|cbn in Hc'; lia]).
  - destruct He as (Hq & _). eexists q, _. split; [reflexivity|]. destruct Hq as [->|[->| ->]]; (split; [cbn; intuition discriminate|reflexivity]).
  - eexists "["%byte, _. split; [reflexivity|]. split; [cbn; intuition discriminate|reflexivity].
Qed.

Lemma v_var es s r h : Forall (elem_in E) es -> es <> [] -> at_ s ("$"%byte :: path_text es ++ r) -> path_end E r -> h_inv h -> (List.length (path_text es) + 4 <= F)%nat ->
  wpx E (Variable_ F) s h (var_post h (T (bs "!p") (map elem_tree es)) r).
Proof.
  intros Hes Hne Ha Hr Hh HF. destruct (path_head es (elems_in_ok E es Hes) Hne) as (c & w & Ec & Hc & _). rewrite Ec in Ha. cbn [app] in Ha. apply (v_path c (w ++ r)); auto.
  intros s' h' H' Hh'. change (c :: w ++ r) with ((c :: w) ++ r) in H'. rewrite <- Ec in H'. pose proof (path_text_length E es (elems_in_ok E es Hes)).
  apply x_path; auto; lia.
Qed.

Lemma v_call k es s r h : elem_in E (Name k) -> Forall expr_in es -> es <> [] -> at_ s ("$"%byte :: k ++ "("%byte :: args_src es ++ ")"%byte :: r) -> path_end E r -> h_inv h ->
  (List.length k + List.length (args_src es) + List.length es + 14 <= F)%nat ->
  wpx E (Variable_ F) s h (var_post h (call_tree k es) r).
Proof.
  intros Hk Hes Hne Ha Hr Hh HF. destruct (path_head [Name k]) as (c & w & Ec & Hc & _); [constructor; [exact (elem_in_ok E _ Hk)|constructor]|discriminate|].
  cbn [path_text elem_text app] in Ec. rewrite app_nil_r in Ec. subst k. cbn [app] in Ha. apply (v_path c (w ++ "("%byte :: args_src es ++ ")"%byte :: r)); auto.
  intros s' h' H' Hh'. apply (x_call (c :: w) es F s' r h'); auto; lia.
Qed.

Lemma v_braces es s r h : Forall (elem_in E) es -> es <> [] -> at_ s ("$" :: "{" :: path_text es ++ "}" :: r)%byte -> h_inv h -> (List.length (path_text es) + 4 <= F)%nat ->
  wpx E (Variable_ F) s h (var_post h (T (bs "!p") (map elem_tree es)) r).
Proof.
  intros Hes Hne Ha Hh HF. destruct (path_head es (elems_in_ok E es Hes) Hne) as (c & w & Ec & _ & Hc). pose proof (path_text_length E es (elems_in_ok E es Hes)).
  unfold Variable_. eapply x_byte_then; [exact Ha|]. intro p. change (negb (beq "$" "$")) with false. cbn iota.
  eapply x_byte_then; [apply at_mk|]. intro p2. change (beq "{" "\") with false. cbn iota. apply x_un. intros s0 Ha0. apply wpx_Level.
  eapply x_byte_then; [exact Ha0|]. intro p3. change (beq "{" "(") with false. change (beq "{" "{") with true. cbn iota.
  apply wpx_bind. apply wpx_emit, wpx_Inc. apply wpx_bind.
  call (x_Space E F (mkS ("{"%byte :: p3) (path_text es ++ "}"%byte :: r) false) [] (path_text es ++ "}"%byte :: r)); [apply at_mk|constructor|rewrite Ec; exact Hc|cbn; lia|].
  intros _ s1 h1 (H1 & ->). apply wpx_ret. call (x_path E F es F s1 ("}"%byte :: r)); auto; [apply path_end_ascii; [cbn; lia|reflexivity|cbn; intuition discriminate]|apply under_inv, Hh|lia|lia|].
  intros b s2 h2 (_ & H2 & A2). call (x_Space E F s2 [] ("}"%byte :: r)); [exact H2|constructor|reflexivity|cbn; lia|]. intros _ s3 h3 (H3 & ->).
  call (x_byte E); [exact H3|]. intros ? s4 h4 (_ & H4 & ->). apply wpx_ret, wpx_Set, wpx_ret. split; [reflexivity|]. split; [exact H4|]. exact (adds_set h _ _ _ Hh A2).
Qed.

Lemma v_expr e s r h : expr_in e -> at_ s ("$" :: "(" :: expr_src e ++ ")" :: r)%byte -> h_inv h -> (List.length (expr_src e) + 8 <= F)%nat ->
  wpx E (Variable_ F) s h (var_post h (T (bs "!e") (expr_forest e)) r).
Proof.
  intros He Ha Hh HF. destruct (expr_in_parts e He) as (Ho & Hs). unfold expr_src in *.
  unfold Variable_. eapply x_byte_then; [exact Ha|]. intro p. change (negb (beq "$" "$")) with false. cbn iota.
  eapply x_byte_then; [apply at_mk|]. intro p2. change (beq "(" "\") with false. cbn iota. apply x_un. intros s0 Ha0. apply wpx_Level.
  eapply x_byte_then; [exact Ha0|]. intro p3. change (beq "(" "(") with true. cbn iota.
  apply wpx_bind. apply wpx_emit, wpx_Inc. call (x_expression_r E F (lead e) (steps e) F (mkS ("("%byte :: p3) (expr_text (lead e) (steps e) ++ ")"%byte :: r) false) (")"%byte :: r)); auto; [cbn; tauto|apply at_mk|apply under_inv, Hh|lia|].
  intros b s2 h2 (_ & H2 & A2). call (x_Space E F s2 [] (")"%byte :: r)); [exact H2|constructor|reflexivity|cbn; lia|]. intros _ s3 h3 (H3 & ->).
  call (x_byte E); [exact H3|]. intros ? s4 h4 (_ & H4 & ->). apply wpx_ret, wpx_Set, wpx_ret. split; [reflexivity|]. split; [exact H4|]. exact (adds_set h _ _ _ Hh A2).
Qed.

(** *** The loop *)
Lemma template_text c : is_template_text c = true <-> template_char c.
Proof.
  unfold is_template_text, template_char. rewrite control_end. destruct (is_end c), (beq_spec c "$") as [->|H]; cbn; intuition congruence.
Qed.
Lemma t_text w s r h m Q : at_ s (w ++ r) -> Forall template_char w -> w <> [] -> stops is_template_text r -> (List.length w < F)%nat -> h_inv h ->
  (forall s' h', at_ s' r -> adds h [T w []] h' -> wpx E (Template F m) s' h' Q) -> wpx E (Template F (S m)) s h Q.
Proof.
  intros Ha Hw Hne Hr HF Hh HQ. cbn [Template]. unfold TemplateText.
  call (x_span E F is_template_text w [] s r); auto; [eapply Forall_impl; [|exact Hw]; intros c; apply template_text|]. intros x s1 h1 (-> & H1 & ->). cbn [app].
  destruct w as [|c w]; [congruence|]. apply wpx_emit. apply HQ; [exact H1|]. apply adds_leaf, Hh.
Qed.
Lemma t_var w t s r h m Q : at_ s ("$"%byte :: w) -> (0 < F)%nat ->
  (forall s', at_ s' ("$"%byte :: w) -> wpx E (Variable_ F) s' h (var_post h t r)) ->
  (forall s' h', at_ s' r -> adds h [t] h' -> wpx E (Template F m) s' h' Q) -> wpx E (Template F (S m)) s h Q.
Proof.
  intros Ha HF Hv HQ. cbn [Template]. unfold TemplateText.
  call (x_span E F is_template_text [] [] s ("$"%byte :: w)); auto; [reflexivity|]. intros x s1 h1 (-> & H1 & ->). cbn [app].
  apply wpx_bind. eapply wpx_mono; [apply Hv, H1|]. cbn beta. intros b s2 h2 (-> & H2 & A2). apply HQ; assumption.
Qed.
Lemma t_end s h m : at_ s [] -> (0 < F)%nat -> wpx E (Template F (S m)) s h (fun _ _ h' => h' = h).
Proof.
  intros Ha HF. cbn [Template]. unfold TemplateText. call (x_span E F is_template_text [] [] s []); auto; [exact I|]. intros x s1 h1 (-> & H1 & ->). cbn [app].
  apply wpx_bind. unfold Variable_, Byte_. cbn [pbind]. apply x_get_end; [exact H1|]. intro p. change (negb (beq x00 "$")) with true. cbn iota. apply x_un_end. intros s' Ha'.
  apply wpx_ret, wpx_ret. reflexivity.
Qed.

(** Asked for in the real buffer only *)
Definition tight (P : Prop) : Prop := match L with None => False | Some _ => True end -> P.
Lemma tight_and P Q : tight (P /\ Q) -> tight P /\ tight Q.
Proof. unfold tight. intuition. Qed.
Hypothesis HL : match L with None => True | Some N => (F <= S N)%nat end.

Lemma name_length w es : In (Name w) es -> (List.length w <= List.length (path_text es))%nat.
Proof.
  assert (K : forall es, In (Name w) es -> (List.length w <= List.length (flat_map (elem_text false) es))%nat).
  { induction es0 as [|e es0 IH]; intros H; [destruct H|]. cbn [flat_map]. rewrite app_length. destruct H as [->|H]; [cbn; lia|]. apply IH in H. lia. }
  destruct es as [|e es]; intro H; [destruct H|]. cbn [path_text]. rewrite app_length. destruct H as [->|H]; [cbn; lia|]. apply K in H. lia.
Qed.
Lemma elems_in_make es : Forall (elem_ok E) es -> tight (Forall ascii_elem es) -> (List.length (path_text es) < F)%nat -> Forall (elem_in E) es.
Proof.
  intros H1 H2 H3. apply Forall_forall. intros e He. rewrite Forall_forall in H1. specialize (H1 e He). unfold elem_in, fit, tight in *. destruct L as [N|]; [|exact H1].
  split; [exact H1|]. destruct e as [w|q w|n]; try exact I. pose proof (name_length w es He). specialize (H2 I). rewrite Forall_forall in H2. specialize (H2 _ He).
  split; [exact H2|lia].
Qed.
Lemma operand_in_make o : operand_ok E o -> tight (ascii_operand o) -> (List.length (operand_text o) < F)%nat -> operand_in E o.
Proof.
  intros H1 H2 H3. assert (K : match o with OPath es => Forall (elem_in E) es | _ => True end).
  { destruct o as [n|q w|es]; try exact I. destruct H1 as (H1 & _). apply elems_in_make; assumption. }
  unfold operand_in. destruct L; auto.
Qed.
Lemma expr_in_make e : expr_ok E e -> tight (ascii_expr e) -> (List.length (expr_src e) < F)%nat -> expr_in e.
Proof.
  intros H0 H2 H3. enough (K : operand_in E (lead e) /\ Forall (step_in E) (steps e)) by (unfold expr_in; destruct L; auto).
  destruct H0 as (H1 & H4 & _). unfold expr_src, expr_text in H3. rewrite app_length in H3.
  split; [apply operand_in_make; [exact H1|intro n; apply (H2 n)|lia]|].
  assert (K : tight (Forall (fun s => ascii_operand (rand s)) (steps e))) by (intro n; apply (H2 n)). clear H1 H2. assert (H5 : (List.length (flat_map step_text (steps e)) < F)%nat) by lia. clear H3.
  induction (steps e) as [|x l IH]; constructor.
  - cbn [flat_map] in H5. unfold step_text in H5. rewrite !app_length in H5. pose proof (Forall_inv H4) as Hx. apply step_in_make; [exact Hx|]. apply operand_in_make; [apply Hx|intro n; exact (Forall_inv (K n))|lia].
  - cbn [flat_map] in H5. rewrite app_length in H5. apply IH; [exact (Forall_inv_tail H4)|intro n; exact (Forall_inv_tail (K n))|lia].
Qed.

(** What follows a template inside another one, or nothing *)
Definition dollar (r : bytes) : Prop := match r with [] => True | c :: _ => c = "$"%byte end.
Lemma dollar_path r : dollar r -> tight (r <> []) -> path_end E r.
Proof.
  destruct r as [|c r].
  { intros _ Hn. split; [|exact I]. unfold token_end. unfold tight in Hn. destruct L; [destruct (Hn I eq_refl)|left; reflexivity]. }
  cbn [dollar]. intros -> _. apply path_end_ascii; [cbn; lia|reflexivity|cbn; intuition discriminate]. Qed.
Lemma dollar_stops r : dollar r -> stops is_template_text r.
Proof. destruct r as [|c r]; [auto|]. cbn [dollar]. intros ->. reflexivity. Qed.
Lemma dollar_src t r : no_text t -> dollar r -> dollar (source t ++ r).
Proof. destruct t; cbn; try contradiction; auto. Qed.
Lemma dollar_tail k r : dollar r -> dollar (tail_source k ++ r).
Proof. destruct k; cbn; auto. Qed.
Lemma apart_src top t r : wf E t -> apart E t -> dollar r -> tight (stopped top t) -> tight (r = [] -> top = true) -> path_end E (source t ++ r).
Proof.
  intros Hw Ha Hr Hs Ht. destruct t as [|s t|t|es t|es t|e t|e b k t|x e b t|t];
    try (apply dollar_path; [reflexivity|intros _; discriminate]).
  { apply dollar_path; [exact Hr|]. intros n Hx. specialize (Ht n Hx). specialize (Hs n). cbn in Hs. congruence. } cbn [wf] in Hw. destruct Hw as ((Hne & _) & _). destruct s as [|c s]; [congruence|].
  destruct Ha as ([Ha|(x & w & s' & Es & Hu & Hx)] & Hc); [discriminate|]. cbn [source]. rewrite <- app_assoc. split.
  - unfold token_end, tight in *. destruct L as [N|].
    + specialize (Hs I). cbn [stopped] in Hs. exists c, (s ++ source t ++ r). split; [reflexivity|]. split; [exact Hs|].
      destruct (utf8_head x w Hu) as (c' & u' & Ew & Hc'). rewrite Ew in Es. cbn [app] in Es. injection Es as <- _.
      destruct Hc' as [(-> & _)|Hc']; [|lia]. rewrite <- (name_char_rune E) by exact Hs. exact Hx.
    + right. exists x, w, (s' ++ source t ++ r). split; [rewrite Es, <- app_assoc; reflexivity|auto].
  - exact (Hc c s eq_refl).
Qed.

Scheme tmpl_mind := Induction for tmpl Sort Prop with tail_mind := Induction for tail Sort Prop.
Combined Scheme tmpl_tail_ind from tmpl_mind, tail_mind.

Lemma var_expr_ok x : var_name E x -> expr_ok E (var_expr x).
Proof.
  intros (Hx & Hl). split; [split; [repeat constructor; apply Hx|exact Hl]|]. split; [constructor|]. split; [reflexivity|]. split; [reflexivity|exact I].
Qed.
Lemma var_expr_in x : var_name E x -> tight (Forall (fun c => name_char c = true) x) -> (List.length x < F)%nat -> expr_in (var_expr x).
Proof.
  intros H1 H2 H3. apply expr_in_make; [apply var_expr_ok, H1| |].
  - intro n. split; [|constructor]. cbn. repeat constructor. exact (H2 n).
  - unfold expr_src, expr_text. cbn. rewrite !app_nil_r. exact H3.
Qed.
Lemma var_expr_src x : expr_src (var_expr x) = x.
Proof. unfold expr_src, expr_text. cbn. rewrite !app_nil_r. reflexivity. Qed.
Lemma kw_ok k : In k keywords -> name E k.
Proof. cbn. intro H. incases H; (apply name_ascii; [discriminate|repeat constructor]). Qed.

Lemma kw_in k : In k keywords -> (12 <= F)%nat -> elem_in E (Name k).
Proof.
  intros Hk HF. pose proof (kw_ok k Hk) as H. unfold elem_in, fit. destruct L as [N|]; [|exact H]. split; [exact H|].
  cbn in Hk. incases Hk; (split; [repeat constructor|cbn; lia]).
Qed.
(** A directive without arguments *)
Lemma t_kw k s r h m Q : In k keywords -> at_ s ("$"%byte :: k ++ r) -> path_end E r -> h_inv h -> (12 <= F)%nat ->
  (forall s' h', at_ s' r -> adds h [kw_tree k] h' -> wpx E (Template F m) s' h' Q) -> wpx E (Template F (S m)) s h Q.
Proof.
  intros Hk Ha Hr Hh HF HQ. eapply (t_var _ _ _ r); [exact Ha|lia| |exact HQ]. intros s' H'.
  apply (v_var [Name k] s' r); auto; [constructor; [apply kw_in; [exact Hk|lia]|constructor]|discriminate| | ]; cbn [path_text elem_text flat_map app]; rewrite ?app_nil_r; auto.
  assert (List.length k <= 6)%nat by (cbn in Hk; incases Hk; cbn; lia). lia.
Qed.
(** and with *)
Lemma t_call k es s r h m Q : In k keywords -> Forall expr_in es -> es <> [] -> at_ s ("$"%byte :: k ++ "("%byte :: args_src es ++ ")"%byte :: r) -> path_end E r -> h_inv h ->
  (List.length (args_src es) + List.length es + 20 <= F)%nat ->
  (forall s' h', at_ s' r -> adds h [call_tree k es] h' -> wpx E (Template F m) s' h' Q) -> wpx E (Template F (S m)) s h Q.
Proof.
  intros Hk Hes Hne Ha Hr Hh HF HQ. eapply (t_var _ _ _ r); [exact Ha|lia| |exact HQ]. intros s' H'.
  assert (List.length k <= 6)%nat by (cbn in Hk; incases Hk; cbn; lia).
  apply (v_call k es s' r); auto; [apply kw_in; [exact Hk|lia]|lia].
Qed.

Definition t_ok (t : tmpl) : Prop := forall top s r h m (Q : unit -> stream -> handler -> Prop), wf E t -> tight (plain_names top t) -> tight (r = [] -> top = true) -> dollar r -> at_ s (source t ++ r) -> h_inv h -> (List.length (source t) + 24 <= F)%nat ->
  (forall s' h', at_ s' r -> adds h (flat_t t) h' -> wpx E (Template F m) s' h' Q) -> wpx E (Template F (List.length (flat_t t) + m)) s h Q.
Definition tail_ok (t : tail) : Prop := forall s r h m (Q : unit -> stream -> handler -> Prop), wf_tail E t -> tight (tail_names t) -> tight (r <> []) -> dollar r -> at_ s (tail_source t ++ r) -> h_inv h -> (List.length (tail_source t) + 24 <= F)%nat ->
  (forall s' h', at_ s' r -> adds h (flat_tail t) h' -> wpx E (Template F m) s' h' Q) -> wpx E (Template F (List.length (flat_tail t) + m)) s h Q.

Ltac norm := cbn [bs list_byte_of_string byte_of_ascii map app] in *; repeat rewrite <- app_assoc in *; cbn [app] in *.

Lemma x_templates : (forall t, t_ok t) /\ (forall r, tail_ok r).
Proof.
  apply tmpl_tail_ind; unfold t_ok, tail_ok.
  - intros top s r h m Q _ _ _ _ Ha Hh HF HQ. apply HQ; [exact Ha|apply adds_nil, Hh].
  - intros w t IH top s r h m Q (Hw & Hn & Ht) Hpn Hrt Hr Ha Hh HF HQ. cbn [plain_names] in Hpn. cbn [source flat_t List.length plus] in *. rewrite <- app_assoc in Ha. rewrite app_length in HF. destruct Hw as (H1 & H2 & _).
    apply (t_text w s (source t ++ r)); auto; [apply dollar_stops, dollar_src; auto|lia|]. intros s1 h1 H3 A1.
    apply (IH top s1 r h1); auto; [exact (adds_inv _ _ _ A1)|lia|]. intros s2 h2 H4 A2. apply HQ; [exact H4|]. exact (adds_app _ [_] _ _ _ A1 A2).
  - intros t IH top s r h m Q Ht Hpn Hrt Hr Ha Hh HF HQ. cbn [source flat_t List.length plus] in *. rewrite app_length in HF. 
    apply (t_var ("\"%byte :: source t ++ r) (T (bs "$") []) s (source t ++ r)); [exact Ha|lia|intros; apply v_dollar; auto|]. intros s1 h1 H3 A1.
    apply (IH top s1 r h1); auto; [exact (adds_inv _ _ _ A1)|lia|]. intros s2 h2 H4 A2. apply HQ; [exact H4|]. exact (adds_app _ [_] _ _ _ A1 A2).
  - intros es t IH top s r h m Q ((Hes & Hv) & Hap & Ht) Hpn Hrt Hr Ha Hh HF HQ. cbn [plain_names] in Hpn. cbn [source flat_t List.length plus wf] in *. rewrite !app_length in HF. change (bs "$") with ["$"%byte] in Ha. cbn [app] in Ha. rewrite <- app_assoc in Ha.
    apply tight_and in Hpn as (Hasc & Hpn). apply tight_and in Hpn as (Hstop & Hpn).
    apply (t_var (path_text es ++ source t ++ r) (T (bs "!p") (map elem_tree es)) s (source t ++ r)); [exact Ha|lia| |].
    { intros. apply v_var; auto; [apply elems_in_make; auto; lia|destruct es; [destruct Hv|discriminate]|apply (apart_src top); auto|lia]. }
    intros s1 h1 H3 A1. apply (IH top s1 r h1); auto; [exact (adds_inv _ _ _ A1)|lia|]. intros s2 h2 H4 A2. apply HQ; [exact H4|]. exact (adds_app _ [_] _ _ _ A1 A2).
  - intros es t IH top s r h m Q ((Hes & Hv) & Ht) Hpn Hrt Hr Ha Hh HF HQ. cbn [plain_names] in Hpn. cbn [source flat_t List.length plus wf] in *. rewrite !app_length in HF. change (bs "${") with ["$"; "{"]%byte in Ha. change (bs "}") with ["}"]%byte in Ha. cbn [app] in Ha. rewrite <- !app_assoc in Ha. cbn [app] in Ha.
    apply tight_and in Hpn as (Hasc & Hpn).
    apply (t_var ("{"%byte :: path_text es ++ "}"%byte :: source t ++ r) (T (bs "!p") (map elem_tree es)) s (source t ++ r)); [exact Ha|lia| |].
    { intros. apply v_braces; auto; [apply elems_in_make; auto; lia|destruct es; [destruct Hv|discriminate]|lia]. }
    intros s1 h1 H3 A1. apply (IH top s1 r h1); auto; [exact (adds_inv _ _ _ A1)|lia|]. intros s2 h2 H4 A2. apply HQ; [exact H4|]. exact (adds_app _ [_] _ _ _ A1 A2).
  - intros e t IH top s r h m Q (He & Ht) Hpn Hrt Hr Ha Hh HF HQ. cbn [plain_names] in Hpn. cbn [source flat_t List.length plus wf] in *. rewrite !app_length in HF. change (bs "$(") with ["$"; "("]%byte in Ha. change (bs ")") with [")"]%byte in Ha. cbn [app] in Ha. rewrite <- !app_assoc in Ha. cbn [app] in Ha.
    apply tight_and in Hpn as (Hasc & Hpn).
    apply (t_var ("("%byte :: expr_src e ++ ")"%byte :: source t ++ r) (T (bs "!e") (expr_forest e)) s (source t ++ r)); [exact Ha|lia| |].
    { intros. apply v_expr; auto; [apply expr_in_make; auto; lia|lia]. }
    intros s1 h1 H3 A1. apply (IH top s1 r h1); auto; [exact (adds_inv _ _ _ A1)|lia|]. intros s2 h2 H4 A2. apply HQ; [exact H4|]. exact (adds_app _ [_] _ _ _ A1 A2).
  - intros e b IHb k IHk t IHt top s r h m Q (He & Hab & Hb & Hk & Hat & Ht) Hpn Hrt Hr Ha Hh HF HQ. cbn [plain_names] in Hpn. cbn [source flat_t wf] in *. rewrite !app_length in HF.
    change (bs "$if(") with ("$"%byte :: bs "if" ++ ["("%byte]) in Ha. change (bs ")") with [")"]%byte in Ha. change (bs "$end") with ("$"%byte :: bs "end") in Ha.
    repeat (cbn [app] in Ha; rewrite <- app_assoc in Ha). cbn [app] in Ha.
    assert (Hd : dollar (tail_source k ++ "$"%byte :: bs "end" ++ source t ++ r)) by (apply dollar_tail; reflexivity).
    cbn [List.length plus] in *. rewrite app_length. cbn [List.length]. rewrite !app_length. cbn [List.length].
    apply tight_and in Hpn as (Hasc & Hpn). apply tight_and in Hpn as (Hsb & Hpn). apply tight_and in Hpn as (Hpb & Hpn). apply tight_and in Hpn as (Hpk & Hpn). apply tight_and in Hpn as (Hst & Hpn).
    assert (Hno : forall z, tail_source k ++ "$"%byte :: z <> []) by (intros z Hz; apply app_eq_nil in Hz as (_ & Hz); discriminate Hz).
    apply (t_call (bs "if") [e] s (source b ++ tail_source k ++ "$"%byte :: bs "end" ++ source t ++ r)); auto; [cbn; tauto|constructor; [apply expr_in_make; auto; lia|constructor]|discriminate|apply (apart_src false); auto; intros _ Hz; destruct (Hno _ Hz)|cbn [args_src List.length]; lia|].
    intros s1 h1 H1 A1. replace (List.length (flat_t b) + (List.length (flat_tail k) + S (List.length (flat_t t))) + m)%nat with (List.length (flat_t b) + (List.length (flat_tail k) + S (List.length (flat_t t) + m)))%nat by lia.
    apply (IHb false s1 (tail_source k ++ "$"%byte :: bs "end" ++ source t ++ r)); auto; [intros _ Hz; destruct (Hno _ Hz)|exact (adds_inv _ _ _ A1)|lia|]. intros s2 h2 H2 A2.
    apply (IHk s2 ("$"%byte :: bs "end" ++ source t ++ r)); auto; [intros _ Hz; discriminate Hz|reflexivity|exact (adds_inv _ _ _ A2)|lia|]. intros s3 h3 H3 A3.
    apply (t_kw (bs "end") s3 (source t ++ r)); auto; [cbn; tauto|apply (apart_src top); auto|exact (adds_inv _ _ _ A3)|lia|]. intros s4 h4 H4 A4.
    apply (IHt top s4 r); auto; [exact (adds_inv _ _ _ A4)|lia|]. intros s5 h5 H5 A5. apply HQ; [exact H5|].
    exact (adds_app _ [_] _ _ _ A1 (adds_app _ _ _ _ _ A2 (adds_app _ _ _ _ _ A3 (adds_app _ [_] _ _ _ A4 A5)))).
  - intros x e b IHb t IHt top s r h m Q (Hx & He & Hab & Hb & Hat & Ht) Hpn Hrt Hr Ha Hh HF HQ. cbn [plain_names] in Hpn. cbn [source flat_t wf] in *. rewrite !app_length in HF.
    change (bs "$for(") with ("$"%byte :: bs "for" ++ ["("%byte]) in Ha. change (bs ",") with [","%byte] in Ha. change (bs ")") with [")"]%byte in Ha. change (bs "$end") with ("$"%byte :: bs "end") in Ha.
    repeat (cbn [app] in Ha; rewrite <- app_assoc in Ha). cbn [app] in Ha.
    cbn [List.length plus] in *. rewrite app_length. cbn [List.length].
    apply tight_and in Hpn as (Hax & Hpn). apply tight_and in Hpn as (Hasc & Hpn). apply tight_and in Hpn as (Hsb & Hpn). apply tight_and in Hpn as (Hpb & Hpn). apply tight_and in Hpn as (Hst & Hpn).
    apply (t_call (bs "for") [var_expr x; e] s (source b ++ "$"%byte :: bs "end" ++ source t ++ r)); auto; [cbn; tauto|constructor; [apply var_expr_in; auto; lia|constructor; [apply expr_in_make; auto; lia|constructor]]|discriminate| |apply (apart_src false); auto; [reflexivity|intros _ Hz; discriminate Hz]| |].
    { cbn [args_src]. rewrite var_expr_src, <- app_assoc. exact Ha. }
    { cbn [args_src]. rewrite var_expr_src, app_length. cbn [List.length]. lia. }
    intros s1 h1 H1 A1. replace (List.length (flat_t b) + S (List.length (flat_t t)) + m)%nat with (List.length (flat_t b) + S (List.length (flat_t t) + m))%nat by lia.
    apply (IHb false s1 ("$"%byte :: bs "end" ++ source t ++ r)); auto; [intros _ Hz; discriminate Hz|reflexivity|exact (adds_inv _ _ _ A1)|lia|]. intros s2 h2 H2 A2.
    apply (t_kw (bs "end") s2 (source t ++ r)); auto; [cbn; tauto|apply (apart_src top); auto|exact (adds_inv _ _ _ A2)|lia|]. intros s4 h4 H4 A4.
    apply (IHt top s4 r); auto; [exact (adds_inv _ _ _ A4)|lia|]. intros s5 h5 H5 A5. apply HQ; [exact H5|].
    exact (adds_app _ [_] _ _ _ A1 (adds_app _ _ _ _ _ A2 (adds_app _ [_] _ _ _ A4 A5))).
  - intros t IH top s r h m Q (Hat & Ht) Hpn Hrt Hr Ha Hh HF HQ. cbn [plain_names] in Hpn. cbn [source flat_t List.length plus wf] in *. rewrite !app_length in HF. rewrite <- app_assoc in Ha.
    apply tight_and in Hpn as (Hst & Hpn).
    apply (t_kw (bs "break") s (source t ++ r)); auto; [cbn; tauto|apply (apart_src top); auto|lia|].
    intros s1 h1 H3 A1. apply (IH top s1 r h1); auto; [exact (adds_inv _ _ _ A1)|lia|]. intros s2 h2 H4 A2. apply HQ; [exact H4|]. exact (adds_app _ [_] _ _ _ A1 A2).
  - intros s r h m Q _ _ _ _ Ha Hh HF HQ. apply HQ; [exact Ha|apply adds_nil, Hh].
  - intros b IH s r h m Q (Hat & Ht) Hpn Hrt Hr Ha Hh HF HQ. cbn [tail_names] in Hpn. cbn [tail_source flat_tail List.length plus wf_tail] in *. rewrite !app_length in HF. rewrite <- app_assoc in Ha.
    apply tight_and in Hpn as (Hst & Hpn). assert (Hnr : tight (r = [] -> false = true)) by (intros n Hz; destruct (Hrt n Hz)).
    apply (t_kw (bs "else") s (source b ++ r)); auto; [cbn; tauto|apply (apart_src false); auto|lia|].
    intros s1 h1 H3 A1. apply (IH false s1 r h1); auto; [exact (adds_inv _ _ _ A1)|lia|]. intros s2 h2 H4 A2. apply HQ; [exact H4|]. exact (adds_app _ [_] _ _ _ A1 A2).
  - intros e b IHb k IHk s r h m Q (He & Hab & Hb & Hk) Hpn Hrt Hr Ha Hh HF HQ. cbn [tail_names] in Hpn. cbn [tail_source flat_tail wf_tail] in *. rewrite !app_length in HF.
    change (bs "$elseif(") with ("$"%byte :: bs "elseif" ++ ["("%byte]) in Ha. change (bs ")") with [")"]%byte in Ha.
    cbn [app] in Ha. rewrite <- !app_assoc in Ha. cbn [app] in Ha. rewrite <- !app_assoc in Ha. cbn [app] in Ha.
    cbn [List.length plus] in *. rewrite app_length.
    apply tight_and in Hpn as (Hasc & Hpn). apply tight_and in Hpn as (Hsb & Hpn). apply tight_and in Hpn as (Hpb & Hpk).
    assert (Hnr : tight (tail_source k ++ r = [] -> false = true)) by (intros n Hz; apply app_eq_nil in Hz as (_ & Hz); destruct (Hrt n Hz)).
    apply (t_call (bs "elseif") [e] s (source b ++ tail_source k ++ r)); auto; [cbn; tauto|constructor; [apply expr_in_make; auto; lia|constructor]|discriminate|apply (apart_src false); auto; apply dollar_tail; auto|cbn [args_src List.length]; lia|].
    intros s1 h1 H1 A1. rewrite <- Nat.add_assoc.
    apply (IHb false s1 (tail_source k ++ r)); auto; [apply dollar_tail; auto|exact (adds_inv _ _ _ A1)|lia|]. intros s2 h2 H2 A2.
    apply (IHk s2 r); auto; [exact (adds_inv _ _ _ A2)|lia|]. intros s3 h3 H3 A3. apply HQ; [exact H3|].
    exact (adds_app _ [_] _ _ _ A1 (adds_app _ _ _ _ _ A2 A3)).
Qed.
End Parse.

(** ** Nesting *)
Definition texpr (e : expr) : tree := T (bs "!e") [etree_tree (etr e)].
Fixpoint flat2 (t : tmpl) : list tree :=
  match t with
  | TEnd => []
  | TText s t => T s [] :: flat2 t
  | TDollar t => T (bs "$") [] :: flat2 t
  | TVar es t | TBraces es t => T (bs "!p") (map elem_tree es) :: flat2 t
  | TExpr e t => texpr e :: flat2 t
  | TIf e b r t => T (bs "!if") [T (bs "!a") [texpr e]] :: flat2 b ++ flat2_tail r ++ T (bs "!end") [] :: flat2 t
  | TFor x e b t => T (bs "!for") [T (bs "!a") [texpr (var_expr x); texpr e]] :: flat2 b ++ T (bs "!end") [] :: flat2 t
  | TBreak t => T (bs "!break") [] :: flat2 t
  end
with flat2_tail (r : tail) : list tree :=
  match r with
  | Fi => []
  | Else b => T (bs "!else") [] :: flat2 b
  | ElseIf e b r => T (bs "!elseif") [T (bs "!a") [texpr e]] :: flat2 b ++ flat2_tail r
  end.
Fixpoint nodes (t : tmpl) : list tree :=
  match t with
  | TEnd => []
  | TText s t => T s [] :: nodes t
  | TDollar t => T (bs "$") [] :: nodes t
  | TVar es t | TBraces es t => T (bs "!p") (map elem_tree es) :: nodes t
  | TExpr e t => texpr e :: nodes t
  | TIf e b r t => T (bs "!if") [T (bs "!a") [texpr e]; T (bs "!t") (nodes b)] :: tail_nodes r ++ nodes t
  | TFor x e b t => T (bs "!for") [T (bs "!a") [texpr (var_expr x); texpr e]; T (bs "!t") (nodes b)] :: nodes t
  | TBreak t => T (bs "!break") [] :: nodes t
  end
with tail_nodes (r : tail) : list tree :=
  match r with
  | Fi => []
  | Else b => [T (bs "!else") [T (bs "!t") (nodes b)]]
  | ElseIf e b r => T (bs "!elseif") [T (bs "!a") [texpr e]; T (bs "!t") (nodes b)] :: tail_nodes r
  end.

(** *** The syntax trees of the expressions; directives *)
Definition root_label (u : tree) : bytes := match u with T s _ => s end.
Definition ready (u w : tree) : Prop := exists n, ast_ (bseq (root_label u) TypeExpression) (gtree u) = Ok n /\ simplify_node n = gtree w.

Lemma ast_leaf b s : ast_ b (gtree (T s [])) = Ok (gtree (T s [])).
Proof. destruct b; reflexivity. Qed.
Lemma simplify_other s k : s <> TypePath -> simplify_node (gtree (T s k)) = gtree (T s k).
Proof. intro H. unfold simplify_node. rewrite this_gtree. apply bseq_neq in H. rewrite H. reflexivity. Qed.
Lemma ready_leaf s : s <> TypePath -> ready (T s []) (T s []).
Proof. intro H. eexists. split; [apply ast_leaf|apply simplify_other, H]. Qed.
Lemma ast_expr E e : expr_ok E e -> ast_ true (gtree (T (bs "!e") (expr_forest e))) = Ok (gtree (texpr e)).
Proof.
  intros (H1 & H2 & H3 & H4 & H5). rewrite gtree_node, <- gforest_map.
  destruct (ast_spec E (VStr (bs "!e")) (lead e) (steps e) H1 H2) as (t & F1 & R1 & G1 & E1).
  pose proof (grouped_unique (etr e) t H5 G1 (eq_trans H3 (eq_sym F1)) (eq_trans H4 (eq_sym R1))) as Et. subst t.
  unfold expr_forest. rewrite E1. unfold texpr. rewrite gtree_node. reflexivity.
Qed.
Lemma ready_expr E e : expr_ok E e -> ready (T (bs "!e") (expr_forest e)) (texpr e).
Proof. intro He. eexists. split; [apply (ast_expr E e He)|apply simplify_other; discriminate]. Qed.
Lemma keyword_none s : ~ In s keywords -> keyword s = None.
Proof.
  intro H. unfold keyword. cbn [keywords In] in H. repeat (match goal with |- context [bseq s ?x] => let K := fresh in destruct (bseq s x) eqn:K; [apply bseq_eq in K; subst; exfalso; tauto|clear K] end).
  reflexivity.
Qed.
Lemma ready_path E es : var_ok E es -> ready (T (bs "!p") (map elem_tree es)) (T (bs "!p") (map elem_tree es)).
Proof.
  intros (_ & H). exists (gtree (T (bs "!p") (map elem_tree es))). split; [exact (ast_flat _ (operand_flat (OPath es)))|]. unfold simplify_node. rewrite this_gtree. change (bseq (bs "!p") TypePath) with true. cbn iota.
  destruct es as [|e es]; [destruct H|]. cbn [map]. rewrite gtree_node. cbn [map out].
  replace (keyword _) with (@None bytes); [reflexivity|]. destruct e as [s|q s|n]; cbn [elem_tree]; rewrite this_gtree; [symmetry; apply keyword_none, H|symmetry; apply keyword_none, H|reflexivity].
Qed.
Lemma ast_args E es : Forall (expr_ok E) es -> ast_ false (gtree (args_tree es)) = Ok (gtree (T (bs "!a") (map texpr es))).
Proof.
  intro H. unfold args_tree. rewrite !gtree_node, ast_eq. cbn [andb].
  enough (K : ast_list false (map Some (map gtree (map (fun e => T (bs "!e") (expr_forest e)) es))) = Ok (map gtree (map texpr es))) by (rewrite K; reflexivity).
  induction H as [|e es He _ IH]; [reflexivity|]. cbn [map ast_list negb andb]. rewrite this_gtree. change (bseq (bs "!e") TypeExpression) with true.
  rewrite (ast_expr E e He). cbn [rbind]. rewrite IH. reflexivity.
Qed.
Lemma ready_call E k t es : keyword k = Some t -> Forall (expr_ok E) es -> ready (call_tree k es) (T t [T (bs "!a") (map texpr es)]).
Proof.
  intros Hk H. exists (gtree (T (bs "!p") [T k []; T (bs "!a") (map texpr es)])). split.
  - unfold call_tree. cbn [root_label]. change (bseq (bs "!p") TypeExpression) with false. rewrite !(gtree_node (bs "!p")), ast_eq. cbn [andb map ast_list negb].
    rewrite ast_leaf. cbn [rbind]. unfold args_tree at 1. rewrite this_gtree. change (bseq (bs "!a") TypeExpression) with false. rewrite (ast_args E) by exact H. reflexivity.
  - unfold simplify_node. rewrite this_gtree. change (bseq (bs "!p") TypePath) with true. cbn iota. rewrite !gtree_node. cbn [map out]. rewrite this_gtree, Hk. reflexivity.
Qed.
Lemma ready_kw k t : keyword k = Some t -> ready (kw_tree k) (T t []).
Proof.
  intros Hk. exists (gtree (kw_tree k)). split; [exact (ast_flat _ (operand_flat (OPath [Name k])))|].
  unfold simplify_node, kw_tree. rewrite this_gtree. change (bseq (bs "!p") TypePath) with true. cbn iota. rewrite !gtree_node. cbn [map out]. rewrite this_gtree, Hk. reflexivity.
Qed.

Lemma ready_all E : (forall t, wf E t -> Forall2 ready (flat_t t) (flat2 t)) /\ (forall r, wf_tail E r -> Forall2 ready (flat_tail r) (flat2_tail r)).
Proof.
  apply tmpl_tail_ind; cbn [wf wf_tail flat_t flat_tail flat2 flat2_tail].
  - constructor.
  - intros s t IH ((_ & _ & H) & _ & Ht). constructor; auto. apply ready_leaf. intros ->. apply H. cbn. tauto.
  - intros t IH Ht. constructor; auto. apply ready_leaf. discriminate.
  - intros es t IH (H & _ & Ht). constructor; eauto using ready_path.
  - intros es t IH (H & Ht). constructor; eauto using ready_path.
  - intros e t IH (H & Ht). constructor; eauto using ready_expr.
  - intros e b IHb k IHk t IHt (He & _ & Hb & Hk & _ & Ht). constructor; [apply (ready_call E); auto|].
    apply Forall2_app; auto. apply Forall2_app; auto. constructor; auto. apply ready_kw. reflexivity.
  - intros x e b IHb t IHt (Hx & He & _ & Hb & _ & Ht). constructor; [apply (ready_call E (bs "for") _ [_; _]); auto using var_expr_ok|].
    apply Forall2_app; auto. constructor; auto. apply ready_kw. reflexivity.
  - intros t IH (_ & Ht). constructor; auto. apply ready_kw. reflexivity.
  - constructor.
  - intros b IH (_ & Hb). constructor; auto. apply ready_kw. reflexivity.
  - intros e b IHb k IHk (He & _ & Hb & Hk). constructor; [apply (ready_call E); auto|]. apply Forall2_app; auto.
Qed.
Lemma ready_list l m : Forall2 ready l m -> exists ns, ast_list false (gforest l) = Ok ns /\ map simplify_node ns = map gtree m.
Proof.
  rewrite gforest_map. induction 1 as [|u w l m (n & H1 & H2) _ (ns & H3 & H4)]; [exists []; auto|]. exists (n :: ns). cbn [map ast_list negb andb].
  destruct u as [s k]. rewrite this_gtree. cbn [root_label] in H1. rewrite H1. cbn [rbind]. rewrite H3, H2, H4. auto.
Qed.

(** *** The nested list *)
Lemma flow_rest f : forall l, (List.length (snd (flow f l)) <= List.length l)%nat.
Proof.
  induction f as [|f IH]; intros [|n l]; cbn [flow snd List.length]; try lia.
  destruct (_ || _); [|destruct (_ || _)].
  - pose proof (IH l) as H1. destruct (flow f l) as [[b s] r]. pose proof (IH r) as H2. destruct (flow f r) as [[hs es] r2]. cbn [snd] in *. lia.
  - pose proof (IH l) as H1. destruct (flow f l) as [[b s] r]. cbn [snd] in *. lia.
  - destruct (bseq _ _); [cbn [snd]; lia|]. pose proof (IH l) as H1. destruct (flow f l) as [[b s] r]. cbn [snd] in *. lia.
Qed.
Lemma flow_fuel f : forall f' l, (List.length l < f)%nat -> (List.length l < f')%nat -> flow f l = flow f' l.
Proof.
  induction f as [|f IH]; intros [|f'] [|n l] H H'; cbn [List.length] in *; try lia; [reflexivity|]. cbn [flow].
  rewrite (IH f' l) by lia. pose proof (flow_rest f' l) as Hr. destruct (flow f' l) as [[b s] r]. cbn [snd] in Hr. rewrite (IH f' r) by lia. reflexivity.
Qed.
Lemma flow_step f n l : flow (S f) (n :: l) =
      let s := this_string n in
      if bseq s TypeIf || bseq s TypeFor then
        let '(body, sibs, rest) := flow f l in
        let '(hs, es, rest) := flow f rest in
        (Node (this n) (out n ++ [Some (Node (VStr TypeTemplate) (map Some body))]) :: sibs ++ hs, es, rest)
      else if bseq s TypeElse || bseq s TypeElseIf then
        let '(hs, es, rest) := flow f l in
        ([], Node (this n) (out n ++ [Some (Node (VStr TypeTemplate) (map Some hs))]) :: es, rest)
      else if bseq s TypeEnd then ([], [], l)
      else let '(hs, es, rest) := flow f l in (n :: hs, es, rest).
Proof. reflexivity. Qed.
Definition flows (l : list graph) := flow (S (List.length l)) l.
Lemma flows_eq n l : flows (n :: l) =
      let s := this_string n in
      if bseq s TypeIf || bseq s TypeFor then
        let '(body, sibs, rest) := flows l in
        let '(hs, es, rest) := flows rest in
        (Node (this n) (out n ++ [Some (Node (VStr TypeTemplate) (map Some body))]) :: sibs ++ hs, es, rest)
      else if bseq s TypeElse || bseq s TypeElseIf then
        let '(hs, es, rest) := flows l in
        ([], Node (this n) (out n ++ [Some (Node (VStr TypeTemplate) (map Some hs))]) :: es, rest)
      else if bseq s TypeEnd then ([], [], l)
      else let '(hs, es, rest) := flows l in (n :: hs, es, rest).
Proof.
  unfold flows at 1. cbn [List.length]. rewrite flow_step. change (flow (S (List.length l)) l) with (flows l). cbn zeta.
  pose proof (flow_rest (S (List.length l)) l) as Hr. change (flow (S (List.length l)) l) with (flows l) in Hr.
  destruct (flows l) as [[b s] r]. cbn [snd] in Hr. unfold flows. rewrite (flow_fuel (S (List.length l)) (S (List.length r)) r) by lia. reflexivity.
Qed.
Lemma flows_node s k l : ~ In s [TypeIf; TypeFor; TypeElse; TypeElseIf; TypeEnd] ->
  flows (gtree (T s k) :: l) = let '(hs, es, rest) := flows l in (gtree (T s k) :: hs, es, rest).
Proof.
  intro H. rewrite flows_eq, this_gtree. cbn zeta. cbn [In] in H.
  repeat (match goal with |- context [bseq s ?x] => let K := fresh in destruct (bseq s x) eqn:K; [apply bseq_eq in K; subst; exfalso; tauto|clear K] end). reflexivity.
Qed.

Lemma flows_all E : (forall t, wf E t -> forall l, flows (map gtree (flat2 t) ++ l) = let '(hs, es, rest) := flows l in (map gtree (nodes t) ++ hs, es, rest)) /\
  (forall r, wf_tail E r -> forall l, flows (map gtree (flat2_tail r) ++ gtree (T (bs "!end") []) :: l) = ([], map gtree (tail_nodes r), l)).
Proof.
  assert (Hend : forall l, flows (gtree (T (bs "!end") []) :: l) = ([], [], l)) by (intro l; rewrite flows_eq; reflexivity).
  assert (Hif : forall k l, flows (gtree (T (bs "!if") k) :: l) = let '(body, sibs, rest) := flows l in
        let '(hs, es, rest) := flows rest in (Node (VStr (bs "!if")) (map Some (map gtree k) ++ [Some (Node (VStr (bs "!t")) (map Some body))]) :: sibs ++ hs, es, rest)).
  { intros k l. rewrite flows_eq. rewrite gtree_node. reflexivity. }
  assert (Hfor : forall k l, flows (gtree (T (bs "!for") k) :: l) = let '(body, sibs, rest) := flows l in
        let '(hs, es, rest) := flows rest in (Node (VStr (bs "!for")) (map Some (map gtree k) ++ [Some (Node (VStr (bs "!t")) (map Some body))]) :: sibs ++ hs, es, rest)).
  { intros k l. rewrite flows_eq. rewrite gtree_node. reflexivity. }
  assert (Hei : forall k l, flows (gtree (T (bs "!elseif") k) :: l) = let '(hs, es, rest) := flows l in
        ([], Node (VStr (bs "!elseif")) (map Some (map gtree k) ++ [Some (Node (VStr (bs "!t")) (map Some hs))]) :: es, rest)).
  { intros k l. rewrite flows_eq. rewrite gtree_node. reflexivity. }
  assert (Hel : forall k l, flows (gtree (T (bs "!else") k) :: l) = let '(hs, es, rest) := flows l in
        ([], Node (VStr (bs "!else")) (map Some (map gtree k) ++ [Some (Node (VStr (bs "!t")) (map Some hs))]) :: es, rest)).
  { intros k l. rewrite flows_eq. rewrite gtree_node. reflexivity. }
  apply tmpl_tail_ind; cbn [wf wf_tail flat2 flat2_tail nodes tail_nodes map app].
  - intros _ l. destruct (flows l) as [[? ?] ?]. reflexivity.
  - intros s t IH ((_ & _ & H) & _ & Ht) l. rewrite flows_node, IH by (auto; intro K; apply H; cbn in K |- *; tauto). destruct (flows l) as [[? ?] ?]. reflexivity.
  - intros t IH Ht l. rewrite flows_node, IH by (auto; cbn; intuition discriminate). destruct (flows l) as [[? ?] ?]. reflexivity.
  - intros es t IH (_ & _ & Ht) l. rewrite flows_node, IH by (auto; cbn; intuition discriminate). destruct (flows l) as [[? ?] ?]. reflexivity.
  - intros es t IH (_ & Ht) l. rewrite flows_node, IH by (auto; cbn; intuition discriminate). destruct (flows l) as [[? ?] ?]. reflexivity.
  - intros e t IH (_ & Ht) l. unfold texpr at 1. rewrite flows_node, IH by (auto; cbn; intuition discriminate). destruct (flows l) as [[? ?] ?]. reflexivity.
  - intros e b IHb k IHk t IHt (He & _ & Hb & Hk & _ & Ht) l. rewrite Hif, !map_app, <- !app_assoc. cbn [map app]. rewrite IHb, IHk, app_nil_r, IHt by auto.
    destruct (flows l) as [[hs es] rest]. rewrite (gtree_node (bs "!if")). cbn [map app]. rewrite (gtree_node (bs "!t")). rewrite <- app_assoc. reflexivity.
  - intros x e b IHb t IHt (Hx & He & _ & Hb & _ & Ht) l. rewrite Hfor, !map_app, <- !app_assoc. cbn [map app]. rewrite IHb, Hend, app_nil_r, IHt by auto.
    destruct (flows l) as [[hs es] rest]. rewrite (gtree_node (bs "!for")). cbn [map app]. rewrite (gtree_node (bs "!t")). reflexivity.
  - intros t IH (_ & Ht) l. rewrite flows_node, IH by (auto; cbn; intuition discriminate). destruct (flows l) as [[? ?] ?]. reflexivity.
  - intros _ l. apply Hend.
  - intros b IH (_ & Hb) l. rewrite Hel, IH, Hend, app_nil_r by auto. rewrite (gtree_node (bs "!else")). cbn [map app]. rewrite (gtree_node (bs "!t")). reflexivity.
  - intros e b IHb k IHk (He & _ & Hb & Hk) l. rewrite Hei, map_app, <- app_assoc, IHb, IHk, app_nil_r by auto. rewrite (gtree_node (bs "!elseif")). cbn [map app]. rewrite (gtree_node (bs "!t")). reflexivity.
Qed.

Lemma flat2_length E : (forall t, wf E t -> List.length (flat_t t) <= List.length (source t))%nat /\ (forall r, wf_tail E r -> List.length (flat_tail r) <= List.length (tail_source r))%nat.
Proof.
  apply tmpl_tail_ind; cbn [wf wf_tail flat_t flat_tail source tail_source List.length]; intros; rewrite ?app_length; cbn [List.length]; rewrite ?app_length; cbn [List.length];
  repeat match goal with |- context [List.length (bs ?s)] => let n := eval vm_compute in (List.length (bs s)) in change (List.length (bs s)) with n end;
  repeat match goal with H : _ -> (_ <= _)%nat |- _ => specialize (H ltac:(tauto)) end; try lia.
  destruct H0 as ((H0 & _) & _). destruct s; [congruence|]. cbn [List.length]. lia.
Qed.

Lemma strip_map l : PathParser.strip (map Some l) = l.
Proof. induction l as [|x l IH]; [reflexivity|]. cbn. rewrite IH. reflexivity. Qed.
Lemma nest_spec E t : wf E t -> nest (groot (flat_t t)) = Ok (Node (VStr []) (gforest (nodes t))).
Proof.
  intro Ht. destruct (ready_list _ _ (proj1 (ready_all E) t Ht)) as (ns & H1 & H2). unfold nest. cbn [groot out]. rewrite ast_eq. cbn [andb]. rewrite H1. cbn [rbind out].
  rewrite strip_map, H2. pose proof (proj1 (flows_all E) t Ht []) as H3. rewrite app_nil_r in H3. unfold flows in H3. rewrite H3. cbn. rewrite !app_nil_r, gforest_map. reflexivity.
Qed.

(** ** A template *)
Lemma x_template {L : mode} E t fuel s : match L with None => True | Some N => (fuel <= S N)%nat end -> wf E t -> @tight L (plain_names true t) -> at_ s (source t) ->
  (List.length (source t) + 25 <= fuel)%nat -> wpx E (Template fuel fuel) s h_init (fun _ _ h => adds h_init (flat_t t) h).
Proof.
  intros HL Ht Hp Hs Hf. pose proof (proj1 (x_templates E fuel HL) t true s [] h_init (fuel - List.length (flat_t t))%nat) as H. pose proof (proj1 (flat2_length E) t Ht) as Hle.
  replace (List.length (flat_t t) + (fuel - List.length (flat_t t)))%nat with fuel in H by lia.
  specialize (H (fun _ s h => adds h_init (flat_t t) h) Ht Hp ltac:(intros _ _; reflexivity) I ltac:(rewrite app_nil_r; exact Hs) h_init_inv ltac:(lia)).
  apply H. intros s' h' Hs' Ha. replace (fuel - List.length (flat_t t))%nat with (S (fuel - List.length (flat_t t) - 1)) by lia.
  eapply wpx_mono; [apply t_end; [exact Hs'|lia]|]. cbn beta. intros _ s2 h2 ->. exact Ha.
Qed.

Lemma NewTemplate_spec E t fuel : wf E t -> len (source t) <= 4094 -> (List.length (source t) + 25 <= fuel)%nat ->
  NewTemplate E fuel (source t) = Ok (Node (VStr []) (gforest (nodes t))).
Proof.
  intros Ht Hl Hf. unfold NewTemplate. rewrite (run_ideal E fuel (Template fuel fuel) (fun h => let* g := Tree h in nest g)) by lia.
  assert (K : wpx E (Template fuel fuel) (s_init (source t)) h_init (fun _ s h => adds h_init (flat_t t) h)).
  { apply (x_template E t fuel); [exact I|exact Ht|intros []|split; [apply good_false|reflexivity]|exact Hf]. }
  unfold wpx, short, wpi in K. destruct (run E _ _ _) as [[[b s'] h']| |]; try contradiction. cbn [rbind]. rewrite (adds_Tree _ _ K). cbn [rbind]. apply (nest_spec E), Ht.
Qed.

(** The same for a text of any length, over the buffer of the lexer, when the
    names are ASCII and each is stopped by a character of the text. *)
Lemma NewTemplate_long E t fuel : wf E t -> plain_names true t -> (List.length (source t) + 25 <= fuel)%nat ->
  NewTemplate E fuel (source t) = Ok (Node (VStr []) (gforest (nodes t))).
Proof.
  intros Ht Hp Hf. unfold NewTemplate.
  destruct (wpl_sound E fuel (Template fuel fuel) (NewLexer (bytes_reader (source t))) (s_init (source t)) h_init (fun _ _ h => adds h_init (flat_t t) h)) as (b & x & s & h & R & _ & K).
  - pose proof (NewLexer_repr (bytes_reader (source t))) as R. rewrite seen_bytes in R. exact R.
  - assert (K : @wpx (Some (pred fuel)) E _ (Template fuel fuel) (s_init (source t)) h_init (fun _ s h => adds h_init (flat_t t) h)).
    { apply x_template; [cbn; lia|exact Ht|intros _; exact Hp|split; [apply good_false|reflexivity]|exact Hf]. }
    unfold wpx in K. replace (S (pred fuel)) with fuel in K by lia. exact K.
  - rewrite R. cbn [rbind]. rewrite (adds_Tree _ _ K). cbn [rbind]. apply (nest_spec E), Ht.
Qed.
