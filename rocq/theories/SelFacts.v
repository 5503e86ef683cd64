(** Parsing and evaluation of paths with selectors. *)
From Verif Require Import Base Value Event EventSpec EventFacts Lexer TextParser Stream Buffer BufferSpec BufferFacts Wp TextTerm TextSpec TextDoc Graph GraphSpec GraphFacts Emit PathParser PathTerm WpLong PathSpec PathFacts NumFacts TypesSpec TypesFacts Eval Template TemplateSpec TemplateFacts AccessSpec AccessFacts SelSpec.

Local Notation len l := (Z.of_nat (List.length l)).

Section Parse.
Variable E : env.
Variable F : nat.

(** Nothing between the braces *)
Lemma x_empty s r h f : at_ s ("}"%byte :: r) -> (4 <= f)%nat -> (1 < F)%nat ->
  wpx E (Expression F f) s h (fun b s' h' => b = false /\ at_ s' ("}"%byte :: r) /\ h' = h).
Proof.
  intros Ha Hf HF. destruct f as [|[|[|f]]]; try lia. cbn [Expression UnaryExpression]. apply wpx_bind. call (x_peek E); [exact Ha|]. intros c s1 h1 (-> & H1 & ->).
  change (is_letter "}") with false. cbn iota.
  apply wpx_bind. eapply (wpx_mono E _ s1 h (fun a s' h' => a = None /\ at_ s' ("}"%byte :: r) /\ h' = h)).
  { unfold Number_tok. call (x_peek E); [exact H1|]. intros c s2 h2 (-> & H2 & ->). change (beq "}" "-" || beq "}" "+") with false. cbn iota.
    apply wpx_bind, wpx_ret, wpx_bind. eapply wpx_mono; [apply (x_number_loop E F [] F false [] s2 ("}"%byte :: r)); auto|].
    - split; [reflexivity|right; discriminate].
    - cbn. lia.
    - cbn beta. intros a s3 h3 (-> & H3 & ->). apply wpx_ret. auto. }
  intros a s2 h2 (-> & H2 & ->). call (x_no_Quoted E F s2 ("}"%byte :: r)); [exact H2|reflexivity|]. intros q s3 h3 (-> & H3 & ->).
  unfold Operator. call (x_span E F is_operator [] [] s3 ("}"%byte :: r)); auto; [reflexivity|cbn; lia|]. intros x s4 h4 (-> & H4 & ->). cbn [app]. apply wpx_bind, wpx_ret.
  call (x_peek E); [exact H4|]. intros c s5 h5 (-> & H5 & ->). change (beq "}" "(") with false. cbn iota.
  change (path_loop F (S f) true true false) with (do go <- Ret (Some true); match go with None => Ret false | Some dot => path_body F f dot false end).
  apply wpx_bind, wpx_ret. unfold path_body.
  call (x_no_Quoted E F s5 ("}"%byte :: r)); [exact H5|reflexivity|]. intros q s6 h6 (-> & H6 & ->).
  apply (x_tok E F _ [] s6 ("}"%byte :: r)); auto; [constructor|apply fit_nil|apply token_end_ascii; [cbn; lia|reflexivity]|]. intros s7 H7.
  call (bracket_no E F f "[" "]" TypeIndex "}"%byte r s7); [exact H7|reflexivity|lia|]. intros b s8 h8 (-> & H8 & ->).
  call (bracket_no E F f "{" "}" TypeSelector "}"%byte r s8); [exact H8|reflexivity|lia|]. intros b s9 h9 (-> & H9 & ->).
  destruct f as [|f]; [lia|]. cbn [Args]. apply wpx_bind. call (x_peek E); [exact H9|]. intros c s10 h10 (-> & H10 & ->).
  change (negb (beq "}" "(")) with true. cbn iota. apply wpx_ret. apply wpx_ret. apply wpx_ret. auto.
Qed.
Lemma x_brace_number f n s r h : digits n -> at_ s (n ++ "}"%byte :: r) -> h_inv h -> (List.length n < F)%nat -> (2 <= f)%nat ->
  wpx E (Expression F f) s h (fun _ s' h' => at_ s' ("}"%byte :: r) /\ adds h [T n []] h').
Proof.
  intros Hn Ha Hh HF Hf. destruct f as [|[|f]]; try lia. destruct (digits_head n Hn) as (c & n' & En & Hc).
  cbn [Expression UnaryExpression expr_loop]. apply wpx_bind. call (x_peek E); [exact Ha|]. intros x s1 h1 (-> & H1 & ->).
  rewrite En. cbn [app]. rewrite (digit_letter c Hc). rewrite <- En.
  call (x_Number E F n s1 ("}"%byte :: r) h); auto; [apply digits_number, Hn|split; [reflexivity|right; discriminate]|]. intros x s2 h2 (-> & H2 & ->).
  apply wpx_bind. unfold emit, ev. eapply wpx_ev; [reflexivity|]. apply wpx_ret, wpx_ret.
  call (x_Space E F s2 [] ("}"%byte :: r)); [exact H2|constructor|reflexivity|cbn; lia|]. intros _ s3 h3 (H3 & ->).
  unfold Operator. call (x_span E F is_operator [] [] s3 ("}"%byte :: r)); auto; [reflexivity|cbn; lia|]. intros x s4 h4 (-> & H4 & ->). cbn [app].
  apply wpx_ret. split; [exact H4|]. apply adds_leaf, Hh.
Qed.
Lemma x_selector f x s r h : sel_ok x -> at_ s (sel_text x ++ r) -> h_inv h -> (List.length (sel_text x) < F)%nat -> (5 <= f)%nat ->
  wpx E (bracket F f "{" "}" TypeSelector) s h (fun b s' h' => b = true /\ at_ s' r /\ adds h [sel_tree x] h').
Proof.
  intros Hx Ha Hh HF Hf. destruct f as [|f]; [lia|]. cbn [bracket].
  assert (Hs : exists w, sel_text x ++ r = "{"%byte :: w ++ "}"%byte :: r /\ (List.length w + 2 = List.length (sel_text x))%nat /\
     match x with Every => w = [] | Nth d => w = d end).
  { destruct x as [|d]; cbn [sel_text]; [exists []; repeat split|]. exists d. cbn [app List.length]. rewrite <- app_assoc, app_length. repeat split; cbn; lia. }
  destruct Hs as (w & Es & El & Hw). rewrite Es in Ha.
  call (x_peek E); [exact Ha|]. intros c s1 h1 (-> & H1 & ->).
  change (negb (beq "{" "{")) with false. cbn iota. call (x_byte E); [exact H1|]. intros ? s2 h2 (_ & H2 & ->).
  apply wpx_Level, wpx_emit, wpx_Inc.
  call (x_Space E F s2 [] (w ++ "}"%byte :: r)); [exact H2|constructor| |cbn; lia|].
  { destruct x as [|d]; subst w; [reflexivity|]. destruct (digits_head d (proj1 Hx)) as (c & n' & En & Hc). rewrite En. apply (digit_blank c Hc). }
  intros _ s3 h3 (H3 & ->).
  apply wpx_bind. eapply (wpx_mono E _ s3 _ (fun _ s' h' => at_ s' ("}"%byte :: r) /\ adds (h_inc (h_add (VStr TypeSelector) h)) (match x with Every => [] | Nth d => [T d []] end) h')).
  { destruct x as [|d]; subst w.
    - eapply wpx_mono; [apply (x_empty s3 r); [exact H3|lia|lia]|]. cbn beta. intros b s4 h4 (_ & H4 & ->). split; [exact H4|]. apply adds_nil, under_inv, Hh.
    - apply x_brace_number; [apply Hx|exact H3|apply under_inv, Hh|lia|lia]. }
  cbn beta. intros _ s4 h4 (H4 & A4).
  call (x_Space E F s4 [] ("}"%byte :: r)); [exact H4|constructor|reflexivity|cbn; lia|]. intros _ s5 h5 (H5 & ->).
  call (x_peek E); [exact H5|]. intros c s6 h6 (-> & H6 & ->). change (negb (beq "}" "}")) with false. cbn iota.
  call (x_byte E); [exact H6|]. intros ? s7 h7 (_ & H7 & ->). apply wpx_Set, wpx_ret. split; [reflexivity|]. split; [exact H7|].
  exact (adds_set h _ _ _ Hh A4).
Qed.

(** The selector, from within a path *)
Lemma x_pick f dot x s r h (Q : bool -> stream -> handler -> Prop) : sel_ok x -> at_ s (sel_text x ++ r) -> h_inv h -> (List.length (sel_text x) < F)%nat -> (6 <= f)%nat ->
  (forall s' h', at_ s' r -> adds h [sel_tree x] h' -> wpx E (path_loop F f false false true) s' h' Q) ->
  wpx E (path_loop F (S f) false dot true) s h Q.
Proof.
  intros Hx Ha Hh HF Hf HQ. rewrite path_loop_S. cbn iota.
  assert (Hw : exists w, sel_text x ++ r = "{"%byte :: w) by (destruct x; eexists; reflexivity). destruct Hw as (w & Ew).
  apply wpx_bind. eapply (wpx_mono E _ s h (fun go s' h' => go = Some false /\ at_ s' ("{"%byte :: w) /\ h' = h)).
  { rewrite Ew in Ha. destruct Ha as (Hg & Ef). unfold wpx, short, wpi, Byte_. cbn [pbind run]. unfold s_byte. rewrite Ef. change (beq "{" ".") with false. cbn [run s_unread over past].
    split; [reflexivity|]. split; [split; [apply good_false|reflexivity]|reflexivity]. }
  cbn beta. intros go s3 h3 (-> & H3 & ->).
  unfold path_body. call (x_no_Quoted E F s3 ("{"%byte :: w)); [exact H3|reflexivity|]. intros q s4 h4 (-> & H4 & ->).
  apply (x_tok E F _ [] s4 ("{"%byte :: w)); auto; [constructor|apply fit_nil|apply token_end_ascii; [cbn; lia|reflexivity]|]. intros s5 H5.
  call (bracket_no E F f "[" "]" TypeIndex "{"%byte w s5); [exact H5|reflexivity|lia|]. intros b s6 h6 (-> & H6 & ->). rewrite <- Ew in H6.
  call (x_selector f x s6 r h); auto; [lia|]. intros b s7 h7 (-> & H7 & A7). apply HQ; assumption.
Qed.

Lemma sel_text_head x r : exists w, sel_text x ++ r = "{"%byte :: w.
Proof. destruct x; eexists; reflexivity. Qed.
Lemma steps_token_end l r : path_end E r -> token_end E (flat_map (step_text false) l ++ r).
Proof.
  intros Hr. destruct l as [|[[s|q s|n]|[s|q s|n] x] l]; cbn [flat_map step_text elem_text app]; [exact (proj1 Hr)|..]; (apply token_end_ascii; [cbn; lia|reflexivity]).
Qed.
Definition fuel_of (l : list step) : nat := (2 * List.length l + 8)%nat.

(** After an element: its selector, if it has one, and the remaining steps *)
Lemma x_after l : (forall f dot s r h, Forall (step_ok E) l -> at_ s (flat_map (step_text false) l ++ r) -> path_end E r -> h_inv h ->
    (List.length (flat_map (step_text false) l) < F)%nat -> (fuel_of l <= f)%nat ->
    wpx E (path_loop F f false dot true) s h (fun b s' h' => b = true /\ at_ s' r /\ adds h (flat_map step_trees l) h')) ->
  forall st f dot s r h0 h, step_ok E st -> Forall (step_ok E) l ->
    at_ s (match st with Plain _ => [] | Pick _ x => sel_text x end ++ flat_map (step_text false) l ++ r) -> path_end E r -> h_inv h0 -> adds h0 [elem_tree (elem_of st)] h ->
    (List.length (step_text true st) + List.length (flat_map (step_text false) l) < F)%nat -> (fuel_of l + 1 <= f)%nat ->
    wpx E (path_loop F f false dot true) s h (fun b s' h' => b = true /\ at_ s' r /\ adds h0 (step_trees st ++ flat_map step_trees l) h').
Proof.
  intros IH st f dot s r h0 h Hst Hl Ha Hr Hh0 A HF Hf. destruct st as [e|e x]; cbn [step_text step_trees elem_of] in *.
  - cbn [app] in Ha. eapply wpx_mono; [apply (IH f dot s r h); auto; [exact (adds_inv _ _ _ A)|lia|lia]|]. cbn beta. intros b s3 h3 (-> & H3 & A3).
    split; [reflexivity|]. split; [exact H3|]. exact (adds_app _ [elem_tree e] _ _ _ A A3).
  - rewrite app_length in HF. destruct f as [|f]; [lia|]. destruct Hst as (_ & _ & _ & _ & Hx).
    apply (x_pick f dot x s (flat_map (step_text false) l ++ r)); auto; [exact (adds_inv _ _ _ A)|lia|unfold fuel_of in Hf; lia|].
    intros s2 h2 H2 A2. eapply wpx_mono; [apply (IH f false s2 r h2); auto; [exact (adds_inv _ _ _ A2)|lia|lia]|]. cbn beta. intros b s3 h3 (-> & H3 & A3).
    split; [reflexivity|]. split; [exact H3|]. exact (adds_app _ [elem_tree e] _ _ _ A (adds_app _ [sel_tree x] _ _ _ A2 A3)).
Qed.
Lemma step_text_split first st r : step_text first st ++ r = elem_text first (elem_of st) ++ match st with Plain _ => [] | Pick _ x => sel_text x end ++ r.
Proof. destruct st as [e|e x]; cbn [step_text elem_of app]; [reflexivity|rewrite <- app_assoc; reflexivity]. Qed.
Lemma after_token_end st l r : path_end E r -> token_end E (match st with Plain _ => [] | Pick _ x => sel_text x end ++ flat_map (step_text false) l ++ r).
Proof.
  intros Hr. destruct st as [e|e x]; [apply steps_token_end, Hr|]. destruct (sel_text_head x (flat_map (step_text false) l ++ r)) as (w & ->). apply token_end_ascii; [cbn; lia|reflexivity].
Qed.
Lemma elem_step_length first st : (List.length (elem_text first (elem_of st)) <= List.length (step_text first st))%nat.
Proof. destruct st; cbn [step_text elem_of]; rewrite ?app_length; lia. Qed.
Lemma step_text_true st : (List.length (step_text true st) <= List.length (step_text false st))%nat.
Proof. destruct st as [[s|q s|n]|[s|q s|n] x]; cbn [step_text elem_text app List.length]; rewrite ?app_length; cbn [List.length]; rewrite ?app_length; lia. Qed.

Lemma x_steps_rest l : forall f dot s r h, Forall (step_ok E) l -> at_ s (flat_map (step_text false) l ++ r) -> path_end E r -> h_inv h ->
  (List.length (flat_map (step_text false) l) < F)%nat -> (fuel_of l <= f)%nat ->
  wpx E (path_loop F f false dot true) s h (fun b s' h' => b = true /\ at_ s' r /\ adds h (flat_map step_trees l) h').
Proof.
  induction l as [|st l IH]; intros f dot s r h Hl Ha Hr Hh HF Hf.
  - apply (x_path_rest E F [] f dot s r h); auto; unfold fuel_of in Hf; cbn in Hf |- *; lia.
  - destruct f as [|f]; [unfold fuel_of in Hf; lia|]. rewrite path_loop_S; cbn iota. unfold fuel_of in Hf; cbn [List.length] in Hf.
    inversion Hl as [|? ? Hst Hl']; subst. cbn [flat_map] in *. rewrite app_length in HF. rewrite <- app_assoc, step_text_split in Ha.
    pose proof (step_text_true st) as Ht. pose proof (elem_step_length true st) as He.
    remember (match st with Plain _ => [] | Pick _ x => sel_text x end ++ flat_map (step_text false) l ++ r) as w0 eqn:Ew.
    assert (Body : forall s1 dot1, at_ s1 (elem_text true (elem_of st) ++ w0) ->
       wpx E (path_body F f dot1 true) s1 h (fun b s' h' => b = true /\ at_ s' r /\ adds h (step_trees st ++ flat_map step_trees l) h')).
    { intros s1 dot1 H1. apply (x_body E F f dot1 true (elem_of st) s1 w0); auto; [apply Hst|subst w0; apply after_token_end, Hr|lia|lia|].
      intros s2 h2 H2 A2. rewrite Ew in H2. apply (x_after l IH st f dot1 s2 r h h2); auto; [lia|unfold fuel_of; lia]. }
    apply wpx_bind, wpx_bind.
    destruct (elem_of st) as [w|q w|n]; cbn [elem_text app] in Ha.
    + eapply wpx_mono; [apply x_byte, Ha|]. cbn beta. intros c s1 h1 (-> & H1 & ->). change (beq "." ".") with true. cbn iota. apply wpx_ret. apply Body, H1.
    + eapply wpx_mono; [apply x_byte, Ha|]. cbn beta. intros c s1 h1 (-> & H1 & ->). change (beq "." ".") with true. cbn iota. apply wpx_ret. apply Body, H1.
    + destruct Ha as (Hg & Ef). unfold Byte_, wpx, short, wpi. cbn [run]. unfold s_byte. rewrite Ef. cbn [run s_unread over past].
      change (beq "[" ".") with false. cbn [run s_unread over past]. change (beq "[" "[" || beq "[" "(" || beq "[" "{") with true. cbn iota.
      apply Body. split; [apply good_false|reflexivity].
Qed.
Lemma x_steps_path l f s r h : Forall (step_ok E) l -> l <> [] -> at_ s (steps_text l ++ r) -> path_end E r -> h_inv h ->
  (List.length (steps_text l) < F)%nat -> (fuel_of l <= f)%nat ->
  wpx E (path_loop F f true true false) s h (fun b s' h' => b = true /\ at_ s' r /\ adds h (flat_map step_trees l) h').
Proof.
  intros Hl Hne Ha Hr Hh HF Hf. destruct l as [|st l]; [congruence|]. unfold fuel_of in Hf; cbn [List.length] in Hf. destruct f as [|f]; [lia|]. rewrite path_loop_S. cbn iota.
  apply wpx_bind, wpx_ret. inversion Hl as [|? ? Hst Hl']; subst. cbn [steps_text flat_map] in *. rewrite app_length in HF. rewrite <- app_assoc, step_text_split in Ha.
  pose proof (elem_step_length true st) as He.
  apply (x_body E F f true false (elem_of st) s (match st with Plain _ => [] | Pick _ x => sel_text x end ++ flat_map (step_text false) l ++ r)); auto; [apply Hst|apply after_token_end, Hr|lia|lia|].
  intros s2 h2 H2 A2. apply (x_after l (x_steps_rest l) st f true s2 r h h2); auto; unfold fuel_of; lia.
Qed.
End Parse.

Definition steps_tree (l : list step) : tree := T (bs "!p") (flat_map step_trees l).
Lemma steps_length E l : Forall (step_ok E) l -> (List.length l <= List.length (steps_text l))%nat.
Proof.
  assert (H1 : forall first st, step_ok E st -> (1 <= List.length (step_text first st))%nat).
  { intros first st (Hok & _). pose proof (elem_text_pos E first _ Hok). pose proof (elem_step_length first st). lia. }
  assert (H2 : forall l, Forall (step_ok E) l -> (List.length l <= List.length (flat_map (step_text false) l))%nat).
  { induction 1 as [|st k Hst _ IH]; [cbn; lia|]. cbn [flat_map List.length]. rewrite app_length. specialize (H1 false st Hst). lia. }
  intros Hl. destruct Hl as [|st k Hst Hk]; [cbn; lia|]. cbn [steps_text List.length]. rewrite app_length. specialize (H1 true st Hst). specialize (H2 k Hk). lia.
Qed.
Lemma NewPath_steps E l fuel : Forall (step_ok E) l -> l <> [] -> len (steps_text l) <= 4094 -> (2 * List.length (steps_text l) + 8 <= fuel)%nat ->
  NewPath E fuel (steps_text l) = Ok (gtree (steps_tree l)).
Proof.
  intros Hl Hne Hlen Hf. rewrite NewPath_ideal by lia. unfold s_path. pose proof (steps_length E l Hl).
  pose proof (x_steps_path E fuel l fuel (s_init (steps_text l)) [] h_init Hl Hne) as H1.
  assert (Ha : at_ (s_init (steps_text l)) (steps_text l ++ [])) by (rewrite app_nil_r; split; [apply good_false|reflexivity]).
  specialize (H1 Ha (path_end_nil E) h_init_inv ltac:(lia) ltac:(unfold fuel_of; lia)). unfold wpx, short, wpi in H1. change (Path fuel fuel) with (path_loop fuel fuel true true false).
  destruct (run E _ _ _) as [[[b s'] h']| |]; try contradiction. destruct H1 as (_ & _ & H1). cbn [rbind]. rewrite (adds_Tree _ _ H1). reflexivity.
Qed.

Lemma NewExpression_steps E l fuel : Forall (step_ok E) l -> starts_with_letter (map elem_of l) -> len (steps_text l) <= 4094 -> (2 * List.length (steps_text l) + 12 <= fuel)%nat ->
  NewExpression E fuel (steps_text l) = Ok (Node (VStr TypeExpression) [Some (gtree (steps_tree l))]).
Proof.
  intros Hl Hst Hlen Hf. assert (Hne : l <> []) by (intros ->; exact Hst). rewrite NewExpression_ideal by lia. unfold s_expr. pose proof (steps_length E l Hl).
  assert (H1 : wpx E (Expression fuel fuel) (s_init (steps_text l)) h_init (fun b s' h' => adds h_init [steps_tree l] h')).
  { destruct fuel as [|[|f]] eqn:Ef; try lia. rewrite <- Ef in *. assert (Ha : at_ (s_init (steps_text l)) (steps_text l)) by (split; [apply good_false|reflexivity]).
    replace (Expression fuel fuel) with (Expression fuel (S (S f))) by (rewrite Ef; reflexivity). cbn [Expression UnaryExpression]. apply wpx_bind.
    call (x_peek E); [exact Ha|]. intros c s1 h1 (-> & Hs1 & ->).
    assert (Hhd : exists c r', steps_text l = c :: r' /\ is_letter c = true).
    { destruct l as [|st l]; [congruence|]. cbn [steps_text]. rewrite step_text_split. pose proof (Forall_inv Hl) as (Hw & _). cbn [map] in Hst. destruct (elem_of st) as [[|c w]|q w|n]; cbn [starts_with_letter] in Hst; try contradiction. cbn [elem_text app].
      eexists c, _. split; [reflexivity|]. destruct Hw as (_ & Hw). destruct Hst as (_ & Hst1 & Hst2). exact (name_letter E c w Hw Hst1 Hst2). }
    destruct Hhd as (c & r' & Ec & Hlt). assert (El : match steps_text l with [] => x00 | c :: _ => c end = c) by (rewrite Ec; reflexivity). rewrite El, Hlt.
    apply wpx_emit, wpx_Inc. call (x_steps_path E fuel l f s1 [] (h_inc (h_add (VStr TypePath) h_init))); auto; try (unfold fuel_of; lia); [rewrite app_nil_r; exact Hs1|apply path_end_nil|apply under_inv, h_init_inv|].
    intros b s2 h2 (_ & Hs2 & A2). apply wpx_Dec, wpx_ret. pose proof (adds_dec h_init _ _ _ h_init_inv A2) as A3.
    eapply wpx_mono; [apply (x_steps E fuel O [] (S f) s2 [] (h_dec h2)); auto; try lia; [exact I|exact (adds_inv _ _ _ A3)|cbn; lia|cbn; lia]|]. cbn beta.
    intros b' s3 h3 (_ & _ & A4). exact (adds_app _ [steps_tree l] _ [] _ A3 A4). }
  unfold wpx, short, wpi in H1. destruct (run E _ _ _) as [[[b s'] h']| |]; try contradiction. cbn [rbind]. rewrite (adds_Tree _ _ H1). reflexivity.
Qed.

(** ** What the selectors take *)
Section Those.
Variable E : env.
Lemma named_fun s s' c : named E s c -> named E s' c -> s = s'.
Proof. intros (n & -> & H) (n' & [= <-] & H'). congruence. Qed.
Lemma named_dec s c : (exists t, named E t c) -> named E s c \/ ~ named E s c.
Proof.
  intros (t & Ht). destruct (bseq_spec s t) as [->|Hn]; [left; exact Ht|right]. intros Hs. apply Hn. eapply named_fun; eassumption.
Qed.
Lemma those_total s o : printable E o -> exists cs, those E s o cs.
Proof.
  induction 1 as [|c o Hc _ (cs & IH)]; [exists []; constructor|]. destruct (named_dec s c Hc) as [H|H].
  - pose proof H as (n & -> & _). exists (n :: cs). constructor; assumption.
  - exists cs. constructor; assumption.
Qed.
Lemma those_fun s o cs : those E s o cs -> forall cs', those E s o cs' -> cs = cs'.
Proof.
  induction 1 as [|c o l H _ IH|c o l H _ IH]; intros cs' H'; inversion H'; subst; try reflexivity; try contradiction; [f_equal|]; auto.
Qed.
Lemma those_none s o : those E s o [] <-> none_named E s o.
Proof.
  split.
  - intros H. remember [] as cs eqn:Ec. induction H as [|c o l Hc _ _|c o l Hc _ IH]; [constructor|discriminate|]. constructor; [exact Hc|exact (IH Ec)].
  - induction 1; [constructor|]. apply those_not; assumption.
Qed.
Lemma those_first s o c cs : those E s o (c :: cs) -> exists i, first_named E s o i c.
Proof.
  intros H. remember (c :: cs) as l eqn:El. induction H as [|c' o l Hc H IH|c' o l Hc H IH]; [discriminate| |].
  - injection El as -> ->. exists O. split; [reflexivity|]. split; [exact Hc|]. intros j x Hj. lia.
  - destruct (IH El) as (i & H1 & H2 & H3). exists (S i). split; [exact H1|]. split; [exact H2|]. intros [|j] x Hj Hx; [injection Hx as <-; exact Hc|]. apply (H3 j x); [lia|exact Hx].
Qed.
Lemma first_those s o i c : printable E o -> first_named E s o i c -> exists cs, those E s o (c :: cs).
Proof.
  intros Hp (H1 & H2 & H3). destruct (those_total s o Hp) as ([|c' cs] & H).
  - apply those_none in H. exfalso. unfold none_named in H. rewrite Forall_forall in H. apply (H (Some c)); [eapply nth_error_In; exact H1|exact H2].
  - destruct (those_first s o c' cs H) as (j & J1 & J2 & J3). exists cs. replace c with c'; [exact H|].
    destruct (Nat.lt_trichotomy i j) as [L|[->|L]]; [exfalso; exact (J3 i _ L H1 H2)|congruence|exfalso; exact (H3 j _ L J1 J2)].
Qed.

Lemma equal_nodes_those s o cs : printable E o -> those E s o cs -> equal_nodes E s o = Ok (flat_map out cs).
Proof.
  intros Hp H. induction H as [|c o l Hc _ IH|c o l Hc _ IH]; [reflexivity| |]; inversion Hp as [|? ? Hc' Hp']; subst.
  - destruct Hc as (n & [= <-] & Hn). cbn [equal_nodes]. rewrite Hn. cbn [rbind]. rewrite (IH Hp'). cbn [rbind]. rewrite bseq_refl. reflexivity.
  - destruct Hc' as (t & n & -> & Hn). cbn [equal_nodes]. rewrite Hn. cbn [rbind]. rewrite (IH Hp'). cbn [rbind].
    replace (bseq s t) with false; [reflexivity|]. symmetry. apply bseq_neq. intros ->. apply Hc. exists n. auto.
Qed.
Lemma nth_equal_those s o cs : printable E o -> those E s o cs -> forall k, nth_equal E k s o = Ok (match nth_error cs k with Some c => out c | None => [] end).
Proof.
  intros Hp H. induction H as [|c o l Hc _ IH|c o l Hc _ IH]; intros k; [destruct k; reflexivity| |]; inversion Hp as [|? ? Hc' Hp']; subst.
  - destruct Hc as (n & [= <-] & Hn). cbn [nth_equal ThisString]. rewrite Hn. cbn [rbind]. rewrite bseq_refl. destruct k as [|k]; [reflexivity|]. apply (IH Hp').
  - destruct Hc' as (t & n & -> & Hn). cbn [nth_equal ThisString]. rewrite Hn. cbn [rbind].
    replace (bseq t s) with false; [apply (IH Hp')|]. symmetry. apply bseq_neq. intros ->. apply Hc. exists n. auto.
Qed.
Lemma those_nodes P s o cs : those E s o cs -> forall k, o = map Some k -> Forall (all_nodes P) k -> Forall (all_nodes P) cs.
Proof.
  induction 1 as [|c o l Hc _ IH|c o l Hc _ IH]; intros [|d k] Hk Hf; try discriminate Hk; [constructor| |]; injection Hk as -> Hk; inversion Hf; subst; eauto.
Qed.
Lemma chosen_nodes P g s x cs : all_nodes P g -> P (VStr (bs "{")) -> those E s (out g) cs -> all_nodes P (Node (VStr (bs "{")) (chosen x cs)).
Proof.
  intros Hg HP H. destruct (all_nodes_inv _ _ Hg) as (v & k & -> & _ & Hk). cbn [out] in H. pose proof (those_nodes P s _ cs H k eq_refl Hk) as Hc.
  assert (Hx : exists k', chosen x cs = map Some k' /\ Forall (all_nodes P) k').
  { destruct x as [|d]; cbn [chosen].
    - clear H. induction Hc as [|c cs Hc _ (k' & IH1 & IH2)]; [exists []; split; [reflexivity|constructor]|].
      destruct (all_nodes_inv _ _ Hc) as (w & kc & -> & _ & Hkc). exists (kc ++ k'). cbn [flat_map out]. rewrite IH1, map_app. split; [reflexivity|]. apply Forall_app. auto.
    - destruct (nth_error cs _) as [c|] eqn:En; [|exists []; split; [reflexivity|constructor]]. apply nth_error_In in En. rewrite Forall_forall in Hc.
      destruct (all_nodes_inv _ _ (Hc c En)) as (w & kc & -> & _ & Hkc). exists kc. auto. }
  destruct Hx as (k' & -> & Hk'). constructor; assumption.
Qed.
End Those.

(** ** getPath and evalPath *)
Section G.
Variable E : env.
Variable C : calls.
Variable ev : bool -> option graph -> graph -> res (graph * eres).
Hypothesis ev_num : forall d g, digits d -> number_of d < 2 ^ 63 -> ev true (Some (gtree (T d []))) g = Ok (g, EVal (VInt KInt64 (number_of d))).

Lemma selector_chosen x m s cs g : sel_ok x -> s <> [] -> printable E (out m) -> those E s (out m) cs ->
  selector E ev (gtree (sel_tree x)) (Some m) s g = Ok (g, inl (Some (Node (VStr (bs "{")) (chosen x cs)))).
Proof.
  intros Hx Hs Hp Ht. unfold selector. destruct s as [|c0 s0] eqn:Es; [congruence|]. rewrite <- Es in *. destruct x as [|d].
  - unfold index_. cbn [sel_tree gtree map out rbind]. change (wrap64 (-1 + 1)) with 0. cbn [Z.ltb Z.eqb Z.compare]. rewrite (equal_nodes_those E s _ cs Hp Ht). reflexivity.
  - destruct Hx as [Hd Hl]. pose proof (number_of_nonneg d (proj2 Hd)) as Hn. assert (Hi : index_ ev (gtree (sel_tree (Nth d))) g = Ok (g, number_of d)).
    { unfold index_. change (out (gtree (sel_tree (Nth d)))) with [Some (gtree (T d []))]. cbn iota. rewrite (ev_num d g Hd) by lia. cbn [rbind v_int64].
      rewrite wrap64_id by (unfold in64; lia). replace (number_of d <? 0) with false by lia. reflexivity. }
    rewrite Hi. cbn [rbind]. rewrite wrap64_id by (unfold in64; lia). replace (number_of d + 1 <? 0) with false by lia. replace (number_of d + 1 =? 0) with false by lia.
    replace (number_of d + 1 - 1) with (number_of d) by lia. rewrite (nth_equal_those E s _ cs Hp Ht). reflexivity.
Qed.

Lemma get_els_steps p l m n : leads E l m n -> Forall (step_ok E) l -> whole E m -> forall tl prev k g,
  exists prev' k', get_els E C ev p (gforest (flat_map step_trees l) ++ tl) (Some m) prev k g = get_els E C ev p tl (Some n) prev' k' g.
Proof.
  induction 1 as [m|e l m m1 n Hw _ IH|e s x l cs m n Hk Ht Hne _ IH]; intros Hok Hm tl prev k g.
  - exists prev, k. reflexivity.
  - inversion Hok as [|? ? (H1 & H2 & _) Hok']; subst. cbn [elem_of] in *. assert (Hm1 : whole E m1).
    { inversion Hw as [|? ? ? ? ? ? ? ? Hf Hw1|? ? ? ? ? ? Hc Hw1]; subst; inversion Hw1; subst; [eapply all_nodes_child; [exact Hm|apply Hf]|].
      apply whole_bracket. eapply all_nodes_child; eassumption. }
    destruct (get_els_walk E C ev ev_num p [e] m m1 (walk_cwalk E _ _ _ Hw Hm) ltac:(auto) ltac:(auto) (gforest (flat_map step_trees l) ++ tl) prev k g) as (prev1 & k1 & H).
    cbn [map] in H. cbn [flat_map step_trees]. unfold gforest in *. rewrite map_app, <- app_assoc. rewrite H. apply IH; assumption.
  - inversion Hok as [|? ? Hst Hok']; subst. destruct Hst as (H1 & H2 & H3). destruct H3 as (H3 & H4 & H5). cbn [elem_of] in *. destruct (whole_inv E m Hm) as (kk & Hkk & Hp & _).
    destruct cs as [|c cs]; [congruence|]. destruct (those_first E s _ c cs Ht) as (i & Hf). destruct (key_unmarked E e s H1 H2 Hk) as [Hmk Het].
    cbn [flat_map step_trees app]. unfold gforest. cbn [map app]. rewrite Het. change (gtree (T s [])) with (Node (VStr s) []). rewrite get_els_key by exact Hmk.
    rewrite (Node_found E m s i c (find_child_some _ _ _ _ _ Hf Hp) (proj1 Hf)). cbn [rbind]. cbn [get_els].
    change (ThisString E (Some (gtree (sel_tree x)))) with (Ok TypeSelector). cbn [rbind]. change (bseq TypeSelector TypeIndex) with false. change (bseq TypeSelector TypeSelector) with true. cbn iota.
    rewrite (selector_chosen x m s (c :: cs) g H5 ltac:(congruence) Hp Ht). cbn [rbind]. apply (IH Hok'). eapply chosen_nodes; [exact Hm|eexists; reflexivity|exact Ht].
Qed.
Lemma get_els_strays p l m : strays E l m -> Forall (step_ok E) l -> all_nodes data m -> forall tl prev k g,
  exists r, get_els E C ev p (gforest (flat_map step_trees l) ++ tl) (Some m) prev k g = Ok (g, r) /\ match r with inl n => n = None | inr _ => True end.
Proof.
  induction 1 as [st l m Hl|e l m m1 Hw _ IH|e s x l cs m Hk Ht Hne _ IH]; intros Hok Hm tl prev k g.
  - inversion Hok as [|? ? (H1 & H2 & _) Hok']; subst.
    assert (Es : exists tl', gforest (flat_map step_trees (st :: l)) ++ tl = gforest (map elem_tree [elem_of st]) ++ tl').
    { destruct st as [e|e x]; cbn [flat_map step_trees map gforest app elem_of]; eexists; reflexivity. }
    destruct Es as (tl' & ->). apply (get_els_lost E C ev ev_num p [elem_of st] m (lost_clost E _ _ Hl Hm)); auto.
  - inversion Hok as [|? ? (H1 & H2 & _) Hok']; subst. cbn [elem_of] in *.
    destruct (get_els_walk E C ev ev_num p [e] m m1 (walk_cwalk E _ _ _ Hw (data_whole E m Hm)) ltac:(auto) ltac:(auto) (gforest (flat_map step_trees l) ++ tl) prev k g) as (prev1 & k1 & H).
    cbn [map] in H. cbn [flat_map step_trees]. unfold gforest in *. rewrite map_app, <- app_assoc. rewrite H. apply IH; [assumption|]. eapply walk_data; eassumption.
  - inversion Hok as [|? ? Hst Hok']; subst. destruct Hst as (H1 & H2 & H3). destruct H3 as (H3 & H4 & H5). cbn [elem_of] in *. destruct (whole_inv E m (data_whole E m Hm)) as (kk & Hkk & Hp & _).
    destruct cs as [|c cs]; [congruence|]. destruct (those_first E s _ c cs Ht) as (i & Hf). destruct (key_unmarked E e s H1 H2 Hk) as [Hmk Het].
    cbn [flat_map step_trees app]. unfold gforest. cbn [map app]. rewrite Het. change (gtree (T s [])) with (Node (VStr s) []). rewrite get_els_key by exact Hmk.
    rewrite (Node_found E m s i c (find_child_some _ _ _ _ _ Hf Hp) (proj1 Hf)). cbn [rbind]. cbn [get_els].
    change (ThisString E (Some (gtree (sel_tree x)))) with (Ok TypeSelector). cbn [rbind]. change (bseq TypeSelector TypeIndex) with false. change (bseq TypeSelector TypeSelector) with true. cbn iota.
    rewrite (selector_chosen x m s (c :: cs) g H5 ltac:(congruence) Hp Ht). cbn [rbind]. apply (IH Hok'). eapply chosen_nodes; [exact Hm|exact I|exact Ht].
Qed.
End G.

Section Top.
Variable E : env.
Variable C : calls.
Lemma Get_steps_eq l f g : Forall (step_ok E) l -> l <> [] -> fits2 f (steps_text l) ->
  Get E C f (Some g) (steps_text l) =
  let* (g, r) := get_els E C (evalExpression E C f) (Node (VStr TypePath) (gforest (flat_map step_trees l))) (gforest (flat_map step_trees l)) (Some g) None [] g in
  Ok (Some g, match r with inl n => n | inr _ => None end).
Proof.
  intros Hok Hn [H1 H2]. cbn [Get]. rewrite NewPath_steps by (try assumption; lia). cbn [rbind]. unfold getPath. cbn [out gtree steps_tree].
  destruct l as [|[e|e x] l]; [congruence| |]; reflexivity.
Qed.
Lemma Get_steps l f g n : Forall (step_ok E) l -> l <> [] -> fits2 f (steps_text l) -> whole E g -> leads E l g n ->
  Get E C f (Some g) (steps_text l) = Ok (Some g, Some n).
Proof.
  intros Hok Hn Hf Hg Hw. rewrite Get_steps_eq by assumption. destruct f as [|f]; [destruct Hf; lia|].
  destruct (get_els_steps E C (evalExpression E C (S f)) (fun d g Hd Hl => eval_number E C f d g Hd Hl true []) (Node (VStr TypePath) (gforest (flat_map step_trees l)))
    l g n Hw Hok Hg [] None [] g) as (prev & k & H). rewrite app_nil_r in H. rewrite H. reflexivity.
Qed.
Lemma Get_steps_missing l f g : Forall (step_ok E) l -> l <> [] -> fits2 f (steps_text l) -> all_nodes data g -> strays E l g ->
  Get E C f (Some g) (steps_text l) = Ok (Some g, None).
Proof.
  intros Hok Hn Hf Hg Hw. rewrite Get_steps_eq by assumption. destruct f as [|f]; [destruct Hf; lia|].
  destruct (get_els_strays E C (evalExpression E C (S f)) (fun d g Hd Hl => eval_number E C f d g Hd Hl true []) (Node (VStr TypePath) (gforest (flat_map step_trees l)))
    l g Hw Hok Hg [] None [] g) as (r & H & Hr). rewrite app_nil_r in H. rewrite H. destruct r as [r|e]; [subst r|]; reflexivity.
Qed.
Lemma leads_or_strays l : Forall (fun st => key (elem_of st) <> None) l -> forall g, whole E g -> (exists n, leads E l g n) \/ strays E l g.
Proof.
  induction 1 as [|st l Hst _ IH]; intros g Hg; [left; exists g; constructor|].
  assert (Hk1 : Forall (fun e => key e <> None) [elem_of st]) by (constructor; [exact Hst|constructor]).
  destruct (walk_or_lost E [elem_of st] Hk1 g Hg) as [(m & Hw)|Hl]; [|right; constructor; exact Hl].
  assert (Hm : exists s i, key (elem_of st) = Some s /\ first_named E s (out g) i m).
  { inversion Hw as [|? s ? ? i ? ? Hk Hf Hw1|? ? ? ? ? ? Hc Hw1]; subst; [inversion Hw1; subst; eauto|]. match goal with H : Index _ = elem_of st |- _ => rewrite <- H in Hst end. cbn in Hst. congruence. }
  destruct Hm as (s & i & Hk & Hf). destruct st as [e|e x]; cbn [elem_of] in *.
  - destruct (IH m) as [(n & Hn)|Hn]; [eapply all_nodes_child; [exact Hg|apply Hf]| |].
    + left. exists n. eapply leads_plain; eassumption.
    + right. eapply strays_plain; eassumption.
  - destruct (whole_inv E g Hg) as (kk & _ & Hp & _). destruct (first_those E s _ i m Hp Hf) as (cs & Ht).
    destruct (IH (Node (VStr (bs "{")) (chosen x (m :: cs)))) as [(n & Hn)|Hn]; [eapply chosen_nodes; [exact Hg|eexists; reflexivity|exact Ht]| |].
    + left. exists n. eapply leads_pick; [exact Hk|exact Ht|discriminate|exact Hn].
    + right. eapply strays_pick; [exact Hk|exact Ht|discriminate|exact Hn].
Qed.
Lemma leads_data l g n : leads E l g n -> all_nodes data g -> all_nodes data n.
Proof.
  induction 1 as [g|e l g m n Hw _ IH|e s x l cs g n Hk Ht Hne _ IH]; intros Hg; [exact Hg|apply IH; eapply walk_data; eassumption|]. apply IH. eapply chosen_nodes; [exact Hg|exact I|exact Ht].
Qed.
End Top.
