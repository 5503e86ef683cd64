(** C92: what follows a path or an expression in its text. *)
From Verif Require Import Base Value Event EventSpec EventFacts Lexer TextParser Stream Buffer BufferSpec BufferFacts Wp TextTerm TextSpec Graph GraphSpec PathParser PathTerm WpLong PathSpec PathFacts Eval RestSpec Samples P_Access.

Local Notation len l := (Z.of_nat (List.length l)).

Lemma foreign_end E r : foreign E r -> path_end E r.
Proof.
  intros ((x & w & r' & -> & Hu & Hx) & H). split; [right; exists x, w, r'; auto|]. destruct (w ++ r') as [|c z]; [exact I|exact H].
Qed.

(** A path of names, quoted strings and indexes is read up to the first character that is no part of it; the rest, whatever it is, is ignored. *)
Theorem C92_path : forall E es r fuel, Forall (elem_ok E) es -> es <> [] -> foreign E r -> len (path_text es ++ r) <= 4094 -> (List.length (path_text es ++ r) + 4 <= fuel)%nat ->
  NewPath E fuel (path_text es ++ r) = Ok (Node (VStr (bs "!p")) (gforest (map elem_tree es))).
Proof.
  intros E es r fuel Hes Hne Hr Hl Hf. rewrite NewPath_ideal by lia. unfold s_path. pose proof (path_text_length E es Hes) as Hpl. rewrite app_length in Hf.
  pose proof (x_path E fuel es fuel (s_init (path_text es ++ r)) r h_init Hes) as H.
  specialize (H ltac:(split; [apply good_false|reflexivity]) (foreign_end E r Hr) h_init_inv Hne ltac:(lia) ltac:(lia)). unfold wpx, short, wpi in H. change (Path fuel fuel) with (path_loop fuel fuel true true false).
  destruct (run E _ _ _) as [[[b s'] h']| |]; try contradiction. destruct H as (_ & _ & H). cbn [rbind]. rewrite (adds_Tree _ _ H). reflexivity.
Qed.
Print Assumptions C92_path.

(** So Get and Set do with p+r what they do with p *)
Theorem C92_get : forall E C es r fuel g, Forall (elem_ok E) es -> es <> [] -> foreign E r -> len (path_text es ++ r) <= 4094 -> (List.length (path_text es ++ r) + 4 <= fuel)%nat ->
  Get E C fuel g (path_text es ++ r) = Get E C fuel g (path_text es).
Proof.
  intros E C es r fuel g Hes Hne Hr Hl Hf. destruct g as [g|]; [|reflexivity]. cbn [Get]. rewrite (C92_path E es r fuel) by assumption. rewrite app_length in *.
  rewrite (NewPath_names E es fuel) by (assumption || lia). reflexivity.
Qed.
Print Assumptions C92_get.
Theorem C92_set : forall E es r fuel g v, Forall (elem_ok E) es -> es <> [] -> foreign E r -> len (path_text es ++ r) <= 4094 -> (List.length (path_text es ++ r) + 4 <= fuel)%nat ->
  Set_ E fuel g (path_text es ++ r) v = Set_ E fuel g (path_text es) v.
Proof.
  intros E es r fuel g v Hes Hne Hr Hl Hf. destruct g as [g|]; [|reflexivity]. cbn [Set_]. rewrite (C92_path E es r fuel) by assumption. rewrite app_length in *.
  rewrite (NewPath_names E es fuel) by (assumption || lia). reflexivity.
Qed.
Print Assumptions C92_set.

(** ** Bytes that are part of no character *)
Lemma decode_ill r : ill_formed r -> decode_rune r = (0xFFFD, 1).
Proof.
  intros (Hne & H). destruct r as [|a r]; [congruence|]. clear Hne. pose proof (bz_range a) as Ra. unfold decode_rune.
  destruct (Z.ltb_spec (bz a) 128) as [H1|H1]; [exfalso; apply (H (bz a) [a] r eq_refl); constructor; exact H1|].
  destruct (Z.ltb_spec (bz a) 194) as [H2|H2]; [reflexivity|].
  destruct (Z.ltb_spec (bz a) 224) as [H3|H3].
  { destruct r as [|b r]; [reflexivity|]. destruct (cont 128 191 b) eqn:Eb; [|reflexivity]. unfold cont in Eb. exfalso. eapply (H _ [a; b] r eq_refl). eapply utf8_2; [|lia|reflexivity]. lia. }
  destruct (Z.ltb_spec (bz a) 240) as [H4|H4].
  { destruct r as [|b [|c r]]; try reflexivity. destruct (cont _ _ b && cont 128 191 c) eqn:Eb; [|reflexivity]. unfold cont in Eb. exfalso.
    eapply (H _ [a; b; c] r eq_refl). eapply utf8_3; [| | | |reflexivity]; destruct (Z.eqb_spec (bz a) 224), (Z.eqb_spec (bz a) 237); lia. }
  destruct (Z.ltb_spec (bz a) 245) as [H5|H5]; [|reflexivity].
  destruct r as [|b [|c [|d r]]]; try reflexivity. destruct (cont _ _ b && cont 128 191 c && cont 128 191 d) eqn:Eb; [|reflexivity]. unfold cont in Eb. exfalso.
  eapply (H _ [a; b; c; d] r eq_refl). eapply utf8_4; [| | | |reflexivity]; destruct (Z.eqb_spec (bz a) 240), (Z.eqb_spec (bz a) 244); lia.
Qed.
Lemma ill_head c r : ill_formed (c :: r) -> 128 <= bz c.
Proof. intros (_ & H). destruct (Z.ltb_spec (bz c) 128) as [H1|H1]; [|exact H1]. exfalso. apply (H (bz c) [c] r eq_refl). constructor. exact H1. Qed.
Lemma scan_ill E w : forall f r tok eaten, letters E w -> ill_formed r -> replacement_apart E -> (List.length w <= f)%nat ->
  token_scan E f (w ++ r) tok eaten = (tok ++ w, eaten ++ w, r).
Proof.
  intros f r tok eaten Hw Hr (Ha & Hb). revert f tok eaten. induction Hw as [|x u s Hu Hx Hs IH]; intros f tok eaten Hf.
  - rewrite !app_nil_r. cbn [app]. destruct f as [|f]; [reflexivity|]. destruct r as [|c r]; [reflexivity|].
    cbn [token_scan]. rewrite (decode_ill _ Hr). unfold token_rune. change (65533 <=? 255) with false. cbn iota. rewrite Ha, Hb. reflexivity.
  - destruct (utf8_head x u Hu) as (c & u' & Eu & _). rewrite app_length in Hf. destruct f as [|f]; [rewrite Eu in Hf; cbn in Hf; lia|].
    rewrite <- app_assoc. assert (Ec : exists z, u ++ s ++ r = c :: z) by (rewrite Eu; cbn; eauto). destruct Ec as (z & Ec).
    cbn [token_scan]. rewrite Ec. rewrite <- Ec. rewrite (decode_utf8 x u (s ++ r) Hu), (name_rune_token E x (utf8_range x u Hu)), Hx, (encode_utf8 x u Hu), Nat2Z.id.
    rewrite skipn_app, skipn_all, Nat.sub_diag, firstn_app, firstn_all, Nat.sub_diag. cbn [skipn firstn app]. rewrite app_nil_r, IH; [rewrite !app_assoc; reflexivity|rewrite Eu in Hf; cbn in Hf; lia].
Qed.

(** A name followed by such a byte ends there, and the rest is ignored as well. *)
Theorem C92_ill_formed : forall E w r fuel, name E w -> ill_formed r -> replacement_apart E -> len (w ++ r) <= 4094 -> (List.length (w ++ r) + 4 <= fuel)%nat ->
  NewPath E fuel (w ++ r) = Ok (Node (VStr (bs "!p")) [Some (Node (VStr w) [])]).
Proof.
  intros E w r fuel (Hne & Hw) Hr HE Hl Hf. rewrite NewPath_ideal by lia. unfold s_path. rewrite app_length in Hf. destruct w as [|c w]; [congruence|]. cbn [List.length] in Hf.
  assert (H : wpx E (path_loop fuel fuel true true false) (s_init ((c :: w) ++ r)) h_init (fun b s' h' => adds h_init [T (c :: w) []] h')).
  { destruct fuel as [|[|f]]; [lia|lia|]. remember (S (S f)) as F eqn:EF. rewrite EF at 2. rewrite (path_loop_S F). cbn iota. apply wpx_bind, wpx_ret. unfold path_body.
    apply wpx_bind. eapply wpx_mono; [apply (x_no_Quoted E F (s_init ((c :: w) ++ r)) ((c :: w) ++ r) h_init); [split; [apply good_false|reflexivity]|]|].
    - exact (letters_no_quote c w (letters_head E c w Hw)).
    - cbn beta. intros q s1 h1 (-> & (Hg & H1) & ->). unfold wpx, short, wpi. cbn [run]. unfold s_token. rewrite H1, (scan_ill E (c :: w)) by (auto; rewrite app_length; lia). cbn [app].
      match goal with |- context [run E _ ?s _] => set (s2 := s) end.
      assert (H2 : at_ s2 r) by (split; [|reflexivity]; intro Ho; specialize (Hg Ho); rewrite H1 in Hg; discriminate).
      clearbody s2. clear Hg H1 s1. match goal with |- match run E ?m ?s ?h with _ => _ end => change (@wpx short E _ m s h (fun _ _ h' => adds h_init [T (c :: w) []] h')) end.
      apply wpx_emit. rewrite (path_loop_S F). cbn iota. apply wpx_bind. unfold Byte_. cbn [pbind]. destruct r as [|d r]; [destruct Hr; congruence|]. pose proof (ill_head d r Hr) as Hd.
      eapply x_get; [exact H2|]. intro p.
      assert (N : forall k, bz k < 128 -> beq d k = false) by (intros k Hk; apply beq_neq; intros ->; lia).
      rewrite !N by reflexivity. cbn [orb]. apply x_un. intros s3 H3. apply wpx_ret, wpx_ret. apply adds_leaf, h_init_inv. }
  unfold wpx, short, wpi in H. change (Path fuel fuel) with (path_loop fuel fuel true true false).
  destruct (run E _ _ _) as [[[b s'] h']| |]; try contradiction. cbn [rbind]. rewrite (adds_Tree _ _ H). reflexivity.
Qed.
Print Assumptions C92_ill_formed.

(** ** Expressions *)
Lemma aside_split r : aside r -> rand_end (L := short) r /\ exists b r', r = b ++ r' /\ blanks b /\ no_blank r' /\ stops is_operator r'.
Proof.
  intros (b & c & r' & -> & Hb & Hc & N1 & N2 & N3).
  assert (S1 : is_space c = false) by (destruct (is_space c) eqn:Es; [|reflexivity]; apply space_cases in Es; cbn in Es; intuition congruence).
  assert (S2 : is_operator c = false) by (destruct (is_operator c) eqn:Es; [|reflexivity]; apply operator_cases in Es; contradiction).
  split.
  - destruct b as [|x b]; [destruct Hc as [Hc|Hc]; [congruence|]; right; right; exact Hc|]. left. inversion Hb as [|? ? [->| ->] _]; subst; reflexivity.
  - exists b, (c :: r'). split; [reflexivity|]. split; [|split; assumption]. eapply Forall_impl; [|exact Hb]. intros x [->| ->]; reflexivity.
Qed.

Section Steps.
Variable E : env.
Variable F : nat.
Ltac incases H := repeat (destruct H as [<-|H]); [..|destruct H].
Ltac call L := apply wpx_bind; eapply wpx_mono; [apply L|]; cbn beta.
Lemma steps_over l r : Forall (step_ok E) l -> rand_end r -> rand_end (flat_map step_text l ++ r).
Proof.
  intros H Hr. destruct l as [|x l]; [exact Hr|]. inversion H as [|? ? (Hb & _) _]; subst. cbn [flat_map]. unfold step_text.
  destruct (before x) as [|c b] eqn:Eb.
  - cbn. destruct (oper x); cbn; right; left; reflexivity.
  - cbn. left. inversion Hb; subst. apply blank_space. assumption.
Qed.
(** as [x_steps], with blanks [z] after the last operand *)
Lemma x_steps_z : forall n l f s z r h, List.length l = n -> Forall (step_ok E) l -> blanks z -> no_blank r -> stops is_operator r -> (l <> [] -> rand_end (z ++ r)) -> at_ s (flat_map step_text l ++ z ++ r) -> h_inv h ->
  (List.length (flat_map step_text l) + List.length z < F)%nat -> (List.length (flat_map step_text l) + 6 <= f)%nat ->
  wpx E (expr_loop F f) s h (fun b s' h' => b = true /\ at_ s' r /\ adds h (flat_map step_trees l) h').
Proof.
  induction n as [|n IH]; intros l f s z r h En Hl Hz Hr1 Hr2 Hre Ha Hh HF Hf; (destruct f as [|f]; [lia|]); cbn [expr_loop].
  - destruct l as [|? ?]; [|discriminate]. cbn [flat_map app] in *. call (x_Space E F s z r); [exact Ha|exact Hz|exact Hr1|cbn in HF; lia|]. intros _ s1 h1 (H1 & ->).
    unfold Operator. call (x_span E F is_operator [] [] s1 r); auto; [cbn in *; lia|]. intros x s2 h2 (-> & H2 & ->). cbn [app]. apply wpx_ret.
    split; [reflexivity|]. split; [exact H2|]. apply adds_nil, Hh.
  - destruct l as [|x l]; [discriminate|]. inversion Hl as [|? ? Hx Hl']; subst. destruct Hx as (Hb & Haf & Ho & Hs). cbn [flat_map] in *. change (step_text x) with (before x ++ op_text (oper x) ++ after x ++ operand_text (rand x)) in Ha, HF, Hf.
    specialize (Hre ltac:(discriminate)).
    repeat rewrite app_length in HF, Hf. rewrite <- !app_assoc in Ha. pose proof (op_text_pos (oper x)) as Hop. destruct (operand_head E _ Ho) as (c & rr & Eo & Hc1 & Hc2).
    call (x_Space E F s (before x) (op_text (oper x) ++ after x ++ operand_text (rand x) ++ flat_map step_text l ++ z ++ r)); [exact Ha|exact Hb| |lia|].
    { destruct (oper x); reflexivity. }
    intros _ s1 h1 (H1 & ->). unfold Operator.
    call (x_span E F is_operator (op_text (oper x)) [] s1 (after x ++ operand_text (rand x) ++ flat_map step_text l ++ z ++ r)); auto; [apply op_text_ops| |lia|].
    { destruct (after x) as [|a0 af] eqn:Ea.
      - cbn [app]. rewrite Eo in *. cbn [app stops]. apply Hc2. intro Hx. apply (Hs Hx). reflexivity.
      - cbn. inversion Haf as [|? ? Hx _]; subst. apply blank_space, space_cases in Hx. cbn in Hx. incases Hx; reflexivity. }
    intros x2 s2 h2 (-> & H2 & ->). cbn [app]. destruct (op_text (oper x)) as [|o0 ot] eqn:Eot; [cbn in Hop; lia|]. rewrite <- Eot in *.
    apply wpx_emit. call (x_Space E F s2 (after x) (operand_text (rand x) ++ flat_map step_text l ++ z ++ r)); [exact H2|exact Haf|rewrite Eo; exact Hc1|lia|].
    intros _ s3 h3 (H3 & ->).
    call (x_operand E F (rand x) f s3 (flat_map step_text l ++ z ++ r)); auto; [apply steps_over; [exact Hl'|exact Hre]|apply h_add_inv, Hh|lia|lia|].
    intros b s4 h4 (-> & H4 & A4). destruct l as [|y l].
    + cbn [flat_map app List.length] in *. call (x_Space E F s4 z r); [exact H4|exact Hz|exact Hr1|lia|]. intros _ s5 h5 (H5 & ->).
      eapply wpx_mono; [apply (IH [] f s5 [] r h4); auto|].
      * constructor.
      * congruence.
      * exact (adds_inv _ _ _ A4).
      * cbn. lia.
      * cbn. lia.
      * cbn beta. intros b s6 h6 (-> & H6 & A6). split; [reflexivity|]. split; [exact H6|].
        exact (adds_app _ [T (op_text (oper x)) []] _ _ _ (adds_leaf h _ Hh) (adds_app _ [operand_tree (rand x)] _ _ _ A4 A6)).
    + destruct (unpad_split E (y :: l) Hl') as (bl & Ebl & Hbl). rewrite Ebl, <- app_assoc in H4. rewrite Ebl, app_length in HF, Hf.
      call (x_Space E F s4 bl (flat_map step_text (unpad (y :: l)) ++ z ++ r)); [exact H4|exact Hbl|cbn; destruct (oper y); reflexivity|lia|]. intros _ s5 h5 (H5 & ->).
      eapply wpx_mono; [apply (IH (unpad (y :: l)) f s5 z r h4); auto|].
      * exact (unpad_ok (L := short) E (y :: l) Hl').
      * exact (adds_inv _ _ _ A4).
      * lia.
      * lia.
      * cbn beta. intros b s6 h6 (-> & H6 & A6). rewrite unpad_trees in A6. split; [reflexivity|]. split; [exact H6|].
        exact (adds_app _ [T (op_text (oper x)) []] _ _ _ (adds_leaf h _ Hh) (adds_app _ [operand_tree (rand x)] _ _ _ A4 A6)).
Qed.
End Steps.

(** An expression is read up to something that cannot go on with it; the rest is ignored. *)
Theorem C92_expression : forall E a l r fuel, operand_ok E a -> Forall (step_ok E) l -> aside r -> len (expr_text a l ++ r) <= 4094 -> (List.length (expr_text a l ++ r) + 8 <= fuel)%nat ->
  NewExpression E fuel (expr_text a l ++ r) = NewExpression E fuel (expr_text a l) /\ exists e, NewExpression E fuel (expr_text a l) = Ok e.
Proof.
  intros E a l r fuel Ha Hl Hr Hlen Hf. rewrite app_length in *.
  destruct (ast_spec E (VStr TypeExpression) a l Ha Hl) as (t & F1 & R1 & G1 & E1).
  assert (K : forall e, NewExpression E fuel (expr_text a l) = Ok e -> NewExpression E fuel (expr_text a l ++ r) = Ok e).
  { intros e. rewrite (NewExpression_ideal E fuel (expr_text a l)), (NewExpression_ideal E fuel (expr_text a l ++ r)) by (rewrite ?app_length; lia). unfold s_expr.
    pose proof (x_expression E fuel a l fuel (s_init (expr_text a l)) h_init I Ha Hl) as H.
    specialize (H ltac:(split; [apply good_false|reflexivity]) h_init_inv ltac:(lia) ltac:(lia)). unfold wpx, short, wpi in H.
    destruct (run E (Expression fuel fuel) (s_init (expr_text a l)) h_init) as [[[b s'] h']| |]; try contradiction. destruct H as (_ & _ & H). cbn [rbind]. rewrite (adds_Tree _ _ H).
    destruct (aside_split r Hr) as (Hre & z & r' & -> & Hz & Hb & Ho). rewrite app_length in *.
    assert (K : wpx E (Expression fuel fuel) (s_init (expr_text a l ++ z ++ r')) h_init (fun _ _ h' => adds h_init (operand_tree a :: flat_map step_trees l) h')).
    { unfold expr_text in *. rewrite app_length in *. destruct fuel as [|f]; [lia|]. remember (S f) as F eqn:EF. rewrite EF at 2. cbn [Expression].
      apply wpx_bind. eapply wpx_mono; [apply (x_operand E F a f (s_init ((operand_text a ++ flat_map step_text l) ++ z ++ r')) (flat_map step_text l ++ z ++ r') h_init); auto|].
      - split; [apply good_false|]. cbn [fut s_init]. rewrite <- app_assoc. reflexivity.
      - apply (steps_over E); assumption.
      - apply h_init_inv.
      - lia.
      - lia.
      - cbn beta. intros b1 s1 h1 (-> & H1 & A1).
        eapply wpx_mono; [apply (x_steps_z E F (List.length l) l f s1 z r' h1); auto; [exact (adds_inv _ _ _ A1)|lia|lia]|]. cbn beta. intros b2 s2 h2 (-> & H2 & A2).
        exact (adds_app _ [operand_tree a] _ _ _ A1 A2). }
    unfold wpx, short, wpi in K. destruct (run E (Expression fuel fuel) (s_init (expr_text a l ++ z ++ r')) h_init) as [[[b2 s2] h2]| |]; try contradiction. cbn [rbind]. rewrite (adds_Tree _ _ K). exact (fun x => x). }
  destruct (NewExpression_spec E a l fuel Ha Hl ltac:(lia) ltac:(lia)) as (t' & _ & _ & _ & Et). rewrite Et. split; [|eauto]. apply K. exact Et.
Qed.
Print Assumptions C92_expression.
Example C92_expression_ex : let a := ONum (bs "1") in let l := [mkStep (bs " ") Plus (bs " ") (OPath [Name (bs "b")])] in let r := bs " c=4" in
  operand_ok env0 a /\ Forall (step_ok env0) l /\ aside r /\ expr_text a l ++ r = bs "1 + b c=4" /\
  exists e, NewExpression env0 20 (bs "1 + b c=4") = Ok e /\ NewExpression env0 20 (bs "1 + b") = Ok e.
Proof.
  intros a l r.
  assert (H1 : operand_ok env0 a).
  { exists [], (bs "1"), []. split; [reflexivity|]. split; [auto|]. split; [split; [discriminate|]|auto]. constructor; [cbn; lia|constructor]. }
  assert (H2 : Forall (step_ok env0) l).
  { constructor; [|constructor]. split; [repeat constructor|]. split; [repeat constructor|]. split; [|discriminate]. split; [ascii_names|]. cbn. split; [left; reflexivity|]. split; [lia|discriminate]. }
  assert (H3 : aside r).
  { exists (bs " "), "c"%byte, (bs "=4"). split; [reflexivity|]. split; [repeat constructor|]. split; [left; discriminate|]. split; [discriminate|]. split; [discriminate|]. cbn. intuition discriminate. }
  split; [exact H1|]. split; [exact H2|]. split; [exact H3|]. split; [reflexivity|].
  destruct (C92_expression env0 a l r 20 H1 H2 H3) as (K1 & e & K2); [cbn; lia|cbn; lia|]. exists e. change (bs "1 + b c=4") with (expr_text a l ++ r). change (bs "1 + b") with (expr_text a l). rewrite K1. split; exact K2.
Qed.
Example C92_ex : let es := [Name (bs "a"); Name (bs "b")] in let r := bs " or else c" in let g := nd "" [nd "a" [nd "b" [nd "7" []]]] in
  Forall (elem_ok env0) es /\ foreign env0 r /\ path_text es ++ r = bs "a.b or else c" /\
  Get env0 calls0 20 (Some g) (bs "a.b or else c") = Ok (Some g, Some (nd "b" [nd "7" []])).
Proof.
  intros es r g. assert (H1 : Forall (elem_ok env0) es) by (unfold es; ascii_names).
  assert (H2 : foreign env0 r).
  { split; [exists 32, (bs " "), (bs "or else c"); split; [reflexivity|]; split; [apply (utf8_1 " "%byte); cbn; lia|reflexivity]|]. cbn. intuition discriminate. }
  split; [exact H1|]. split; [exact H2|]. split; [reflexivity|].
  change (bs "a.b or else c") with (path_text es ++ r). rewrite (C92_get env0 calls0 es r 20 (Some g) H1); [|discriminate|exact H2|cbn; lia|cbn; lia].
  unfold Get. rewrite NewPath_ideal by (cbn; lia). vm_compute. reflexivity.
Qed.
(** A lone byte 0xFF *)
Example C92_ill_formed_ex : ill_formed [xff] /\ replacement_apart env0 /\ NewPath env0 10 (bs "ab" ++ xff :: bs "c") = Ok (nd "!p" [nd "ab" []]).
Proof.
  assert (H1 : forall r, ill_formed (xff :: r)).
  { intro r. split; [discriminate|]. intros x w r' He Hu. inversion Hu as [a Ha|? a b Ha Hb Hx|? a b c Ha Hs Hb Hc Hx|? a b c d Ha Hb Hc Hd Hx]; subst; cbn [app] in He; injection He as Hq _; subst a; change (bz xff) with 255 in *; lia. }
  assert (H2 : replacement_apart env0) by (split; reflexivity).
  split; [apply H1|]. split; [exact H2|].
  assert (N : name env0 (bs "ab")) by (apply name_ascii; [discriminate|repeat constructor]).
  rewrite (C92_ill_formed env0 (bs "ab") (xff :: bs "c") 10 N (H1 _) H2) by (cbn; lia).
  reflexivity.
Qed.
