(** C41 - C44: evaluation of expressions. *)
From Verif Require Import Base Value Graph GraphSpec GraphFacts TextSpec PathSpec PathParser PathFacts PathTerm TypesSpec NumFacts Eval AccessSpec AccessFacts EvalSpec EvalFacts Samples P_Access.

(** ** C41 Integer arithmetic *)
Theorem C41_calc : forall E k k' a b op x, in64 a -> in64 b -> arith a b op x ->
  calc E (VInt k a) (VInt k' b) (match op with Plus => "+" | Minus => "-" | Mul => "*" | Div => "/" | _ => "%" end)%byte =
  match x with Some z => Ok (VInt KInt64 z) | None => Panic end.
Proof. intros E k k' a b op x Ha Hb H. rewrite <- (calc_ints E k k' a b op x Ha Hb H). destruct H; reflexivity. Qed.
Print Assumptions C41_calc.
(** The specification determines the result, and gives one to every pair. *)
Theorem C41_determined : forall a b op, (op = Plus \/ op = Minus \/ op = Mul \/ op = Div \/ op = Mod) ->
  exists x, arith a b op x /\ forall y, arith a b op y -> y = x.
Proof.
  intros a b op Hop. destruct (arith_total a b op) as (x & Hx); [destruct Hop as [->|[->|[->|[->| ->]]]]; exact I|]. exists x. split; [exact Hx|]. intros y Hy.
  destruct Hx as [z H|z H|z H|q r z Ht H|q r Ht|H|H]; inversion Hy as [z' H'|z' H'|z' H'|q' r' z' Ht' H'|q' r' Ht'|H'|H']; subst;
    try (f_equal; eapply int64_of_fun; eassumption); try reflexivity;
    try (exfalso; match goal with H : truncated _ 0 _ _ |- _ => destruct H as (_ & H & _); lia end).
  - destruct (truncated_fun _ _ _ _ _ _ Ht Ht') as [-> _]. f_equal. eapply int64_of_fun; eassumption.
  - destruct (truncated_fun _ _ _ _ _ _ Ht Ht') as [_ ->]. reflexivity.
Qed.
Print Assumptions C41_determined.
(** It fails exactly on division by zero. *)
Theorem C41_fails : forall E k k' a b (op : byte), In op ["+"; "-"; "*"; "/"; "%"]%byte -> in64 a -> in64 b ->
  (calc E (VInt k a) (VInt k' b) op = Panic <-> (op = "/"%byte \/ op = "%"%byte) /\ b = 0).
Proof.
  intros E k k' a b op Hop Ha Hb. unfold calc. cbn [v_int64]. rewrite !wrap64_id by assumption.
  destruct (Z.eqb_spec b 0) as [->|Hn]; repeat (destruct Hop as [<-|Hop]); try contradiction Hop; unfold calc_int; cbn; try replace (b =? 0) with false by lia;
    (split; [intros H; try discriminate H; auto|intros [[H|H] H0]; try discriminate H; try congruence; reflexivity]).
Qed.
Print Assumptions C41_fails.
Example C41_ex : in64 (- 2 ^ 63) /\ arith (- 2 ^ 63) (-1) Div (Some (- 2 ^ 63)) /\ arith (-7) 2 Div (Some (-3)) /\ arith (-7) 2 Mod (Some (-1)) /\
  arith (2 ^ 63 - 1) 1 Plus (Some (- 2 ^ 63)) /\ arith 5 0 Mod None /\ calc env0 (VInt KInt (-7)) (VInt KInt64 2) "%" = Ok (VInt KInt64 (-1)).
Proof.
  assert (Hi : forall z r k, in64 r -> r = z + k * 2 ^ 64 -> int64_of z r) by (intros z r k H1 H2; split; [exact H1|exists k; exact H2]).
  split; [unfold in64; lia|]. split; [eapply (ar_div _ _ (2 ^ 63) 0); [split; [lia|split; [lia|left; reflexivity]]|apply (Hi _ _ (-1)); unfold in64; lia]|].
  split; [eapply (ar_div _ _ (-3) (-1)); [split; [lia|split; [lia|right; reflexivity]]|apply (Hi _ _ 0); unfold in64; lia]|].
  split; [eapply (ar_mod _ _ (-3) (-1)); split; [lia|split; [lia|right; reflexivity]]|].
  split; [apply ar_plus, (Hi _ _ (-1)); unfold in64; lia|]. split; [constructor; reflexivity|reflexivity].
Qed.

(** From the text to the value.  [t] is the tree of the expression (its operands and
    operators read in order, grouped by precedence); [x] what it denotes in the graph g. *)
Theorem C41_text_partial : forall E C a l t x g f, operand_ok E a -> Forall (step_ok E) l -> Z.of_nat (List.length (expr_text a l)) <= 4094 ->
  first t = a -> others t = map (fun s => (oper s, rand s)) l -> grouped t -> whole E g -> den E g t x ->
  (List.length (expr_text a l) + 8 <= f)%nat -> (S (height t) <= f)%nat ->
  exists e, NewExpression E f (expr_text a l) = Ok e /\
    match x with
    | Some d => exists v, Eval E C f g (Some e) = Ok (g, EVal v) /\ holds v d
    | None => Eval E C f g (Some e) = Panic
    end.
Proof.
  intros E C a l t x g f Ha Hl Hlen Hft Hot Hgt Hg Hd Hf Hh. destruct (NewExpression_spec E a l f Ha Hl Hlen Hf) as (t' & F & O & G & He).
  rewrite <- (grouped_unique t t' Hgt G ltac:(congruence) ltac:(congruence)) in He. eexists; split; [exact He|].
  destruct f as [|f]; [lia|]. rewrite Eval_expression. exact (eval_den E C g t x Hg Hd f ltac:(lia)).
Qed.
Print Assumptions C41_text_partial.
Definition ex_steps : list step := [mkStep [] Mul (bs " ") (ONum (bs "-3")); mkStep (bs " ") Plus (bs " ") (OPath [Name (bs "n")]); mkStep [] Gt [] (ONum (bs "0"))].
Definition ex_etree : etree := Bin Gt (Bin Plus (Bin Mul (Leaf (ONum (bs "2"))) (Leaf (ONum (bs "-3")))) (Leaf (OPath [Name (bs "n")]))) (Leaf (ONum (bs "0"))).
Definition ex_ctx : graph := nd "r" [nd "n" [Node (VInt KInt 7) []]].
Example C41_text_ex : expr_text (ONum (bs "2")) ex_steps = bs "2* -3 + n>0" /\ operand_ok env0 (ONum (bs "2")) /\ Forall (step_ok env0) ex_steps /\
  first ex_etree = ONum (bs "2") /\ others ex_etree = map (fun s => (oper s, rand s)) ex_steps /\ grouped ex_etree /\ whole env0 ex_ctx /\
  den env0 ex_ctx ex_etree (Some (DB true)).
Proof.
  assert (Hd : forall s, s <> [] -> Forall (fun c => 48 <= bz c <= 57) s -> number_text s).
  { intros s H1 H2. exists [], s, []. rewrite app_nil_r. split; [reflexivity|]. split; [left; reflexivity|]. split; [split; assumption|left; reflexivity]. }
  split; [reflexivity|]. split; [apply Hd; [discriminate|repeat constructor; cbn; lia]|].
  split.
  { constructor; [|constructor; [|constructor; [|constructor]]].
    - split; [constructor|]. split; [repeat constructor|]. split; [|cbn; discriminate].
      exists ["-"%byte], (bs "3"), []. split; [reflexivity|]. split; [right; reflexivity|]. split; [split; [discriminate|repeat constructor; cbn; lia]|left; reflexivity].
    - split; [repeat constructor|]. split; [repeat constructor|]. split; [|cbn; discriminate]. split; [ascii_names|]. split; [left; reflexivity|split; [cbn; lia|discriminate]].
    - split; [constructor|]. split; [constructor|]. split; [|cbn; discriminate]. apply Hd; [discriminate|repeat constructor; cbn; lia]. }
  split; [reflexivity|]. split; [reflexivity|]. split; [cbn; lia|].
  split.
  { apply (all_node _ _ [_]); [eexists; reflexivity|]. constructor; [|constructor]. apply (all_node _ _ [_]); [eexists; reflexivity|].
    constructor; [|constructor]. apply (all_node _ _ []); [eexists; reflexivity|constructor]. }
  eapply den_order with (a := 1) (b := 0).
  - change (Some (DI 1)) with (option_map DI (Some 1)). eapply den_arith with (a := -6) (b := 7).
    + change (Some (DI (-6))) with (option_map DI (Some (-6))). eapply den_arith with (a := 2) (b := -3).
      * apply (den_num env0 ex_ctx 2). unfold in64; lia.
      * apply (den_num env0 ex_ctx (-3)). unfold in64; lia.
      * apply ar_mul. split; [unfold in64; lia|exists 0; lia].
    + apply (den_path env0 ex_ctx [bs "n"] (nd "n" [Node (VInt KInt 7) []]) (VInt KInt 7) (DI 7)); [discriminate|ascii_names| | |reflexivity|].
      * constructor; [|constructor]. intros H. repeat (destruct H as [H|H]; [discriminate H|]). exact H.
      * eapply walk_key with (i := O); [reflexivity|split; [reflexivity|split; [eexists; split; reflexivity|intros j c Hj; lia]]|constructor].
      * split; [unfold in64; lia|eexists; reflexivity].
    + apply ar_plus. split; [unfold in64; lia|exists 0; lia].
  - apply (den_num env0 ex_ctx 0). unfold in64; lia.
  - cbn. lia.
Qed.

(** ** C42 Comparison laws.  On integers: the usual order. *)
Theorem C42_integers : forall E k k' a b, in64 a -> in64 b ->
  compare_ E (VInt k a) (VInt k' b) "=" = Ok (a =? b) /\ compare_ E (VInt k a) (VInt k' b) "!" = Ok (negb (a =? b)) /\
  compare_ E (VInt k a) (VInt k' b) "<" = Ok (a <? b) /\ compare_ E (VInt k a) (VInt k' b) ">" = Ok (b <? a) /\
  compare_ E (VInt k a) (VInt k' b) "-" = Ok (a <=? b) /\ compare_ E (VInt k a) (VInt k' b) "+" = Ok (b <=? a).
Proof. intros E k k' a b Ha Hb. unfold compare_, v_int64f. cbn [v_int64 rbind]. rewrite !wrap64_id by assumption. repeat split; reflexivity. Qed.
Print Assumptions C42_integers.
(** == and != are complementary when the left operand is not a number, or the right operand
    converts.  Full claim: always. *)
Definition text_like (v : value graph) : Prop := match v with VInt _ _ | VF32 _ | VF64 _ => False | _ => True end.
Theorem C42_complement_partial : forall E v w, text_like v \/ (text_like v -> False) /\ is_ok (v_int64f E w) /\ v_int64f E w <> Ok None /\ v_float64f E w <> Ok None ->
  forall b, compare_ E v w "=" = Ok b -> compare_ E v w "!" = Ok (negb b).
Proof.
  intros E v w H b. unfold compare_. destruct (v_int64 v) as [i|] eqn:Hi.
  - destruct H as [H|(_ & _ & H & _)]; [destruct v; cbn in Hi; try discriminate; contradiction|].
    destruct (v_int64f E w) as [[j|]| |]; cbn [rbind]; try congruence; try discriminate. intros [= <-]. reflexivity.
  - destruct (v_float64 v) as [x|] eqn:Hx.
    + destruct H as [H|(_ & _ & _ & H)]; [destruct v; cbn in Hx; try discriminate; contradiction|].
      destruct (v_float64f E w) as [[y|]| |]; cbn [rbind]; try congruence; try discriminate. intros [= <-]. reflexivity.
    + destruct (vstring E v) as [s| |]; cbn [rbind]; try discriminate. destruct (vstring E w) as [u| |]; cbn [rbind]; try discriminate. intros [= <-]. reflexivity.
Qed.
Print Assumptions C42_complement_partial.
(** == is symmetric between integers (above), and when neither operand is a number. *)
Theorem C42_symmetric_partial : forall E v w s u, text_like v -> text_like w -> vstring E v = Ok s -> vstring E w = Ok u ->
  exists b, compare_ E v w "=" = Ok b /\ compare_ E w v "=" = Ok b /\ (b = true <-> s = u).
Proof.
  intros E v w s u Hv Hw Hs Hu. exists (bseq s u). assert (Hsym : bseq u s = bseq s u) by (destruct (bseq_spec s u) as [->|Hn]; [apply bseq_refl|apply bseq_neq; congruence]).
  assert (H : forall x y t r, text_like x -> vstring E x = Ok t -> vstring E y = Ok r -> compare_ E x y "=" = Ok (bseq t r)).
  { intros x y t r Hx Ht Hr. unfold compare_. destruct x; cbn in Hx; try contradiction; cbn [v_int64 v_float64]; rewrite Ht; cbn [rbind]; rewrite Hr; reflexivity. }
  split; [apply H; assumption|]. split; [rewrite <- Hsym; apply H; assumption|apply bseq_eq].
Qed.
Print Assumptions C42_symmetric_partial.
Example C42_ex : text_like (VStr (bs "a")) /\ text_like (VBool true) /\ compare_ env0 (VBool true) (VStr (bs "true")) "=" = Ok true /\
  compare_ env0 (VInt KInt 3) (VStr (bs "3")) "=" = Ok true /\ compare_ env0 (VInt KInt 3) (VStr (bs "3")) "!" = Ok false.
Proof. repeat split; reflexivity. Qed.
(** In general they are neither. *)
Theorem C42_complement_refuted : exists E v w, compare_ E v w "=" = Ok false /\ compare_ E v w "!" = Ok false.
Proof. exists env0, (VInt KInt 1), (VStr (bs "a")). split; reflexivity. Qed.
Print Assumptions C42_complement_refuted.
Theorem C42_symmetric_refuted : exists E v w, compare_ E v w "=" = Ok true /\ compare_ E w v "=" = Ok false.
Proof. (* 1 and 1.5 *) exists env0, (VInt KInt64 1), (VF64 (S754_finite false 6755399441055744 (-52))). split; vm_compute; reflexivity. Qed.
Print Assumptions C42_symmetric_refuted.
(** Comparing an integer with a nil *Graph panics. *)
Theorem C42_nil_refuted : exists E v w, compare_ E v w "=" = Panic.
Proof. exists env0, (VInt KInt 1), (VPtr None). reflexivity. Qed.
Print Assumptions C42_nil_refuted.

(** ** C43 Boolean operators.  [truth v b]: v denotes the boolean b. *)
Inductive truth : value graph -> bool -> Prop :=
| truth_bool b : truth (VBool b) b
| truth_str s (b : bool) : s = (if b then bs "true" else bs "false") -> truth (VStr s) b
| truth_bytes s (b : bool) : s = (if b then bs "true" else bs "false") -> truth (VBytes s) b
| truth_int k z b : (k = KInt \/ k = KInt64) -> (b = true <-> z <> 0) -> truth (VInt k z) b
| truth_node w o b : (forall p, w <> VPtr p) -> truth w b -> truth (VPtr (Some (Node w o))) b.
Lemma truth_boolf v b : truth v b <-> v_boolf v = Some b.
Proof.
  assert (Hs : forall s (b : bool), (if bseq s (bs "false") then Some false else if bseq s (bs "true") then Some true else None) = Some b <-> s = (if b then bs "true" else bs "false")).
  { clear. intros s b. destruct (bseq_spec s (bs "false")) as [->|H1]; [destruct b; split; intros; try reflexivity; discriminate|].
    destruct (bseq_spec s (bs "true")) as [->|H2]; [destruct b; split; intros; try reflexivity; try congruence; discriminate|]. destruct b; split; intros; congruence. }
  assert (Hi : forall z (b : bool), Some (negb (z =? 0)) = Some b <-> (b = true <-> z <> 0)).
  { clear. intros z b. split; [intros [= <-]; lia|]. intros H. f_equal. destruct b; lia. }
  split.
  - induction 1 as [b|s b H|s b H|k z b H1 H2|w o b Hw H IH]; [reflexivity| | | |].
    1,2: apply Hs; exact H.
    + destruct H1 as [->| ->]; apply Hi; exact H2.
    + unfold v_boolf in *. cbn [this]. destruct w; try exact IH. exfalso. exact (Hw p eq_refl).
  - assert (Hb : forall w, (forall p, w <> VPtr p) -> v_boolf w = Some b -> truth w b).
    { intros w Hw H. destruct w as [|s|s|b0|[] z|x|x|p|i|i|i]; cbn - [bs] in H; try discriminate H; try (exfalso; exact (Hw p eq_refl)).
      - constructor. apply Hs; exact H.
      - constructor. apply Hs; exact H.
      - injection H as ->. constructor.
      - constructor; [left; reflexivity|apply Hi; exact H].
      - constructor; [right; reflexivity|apply Hi; exact H]. }
    destruct v as [| | | | | | |[[w o]|]| | |]; intros H; try discriminate H; try (apply Hb; [discriminate|exact H]).
    assert (Hw : forall p, w <> VPtr p) by (intros p ->; discriminate H).
    apply truth_node; [exact Hw|]. apply Hb; [exact Hw|]. destruct w; try exact H. exfalso; exact (Hw _ eq_refl).
Qed.
Theorem C43_and_or : forall v w,
  (forall a b, truth v a -> truth w b -> logic v w "&" = a && b /\ logic v w "|" = a || b) /\
  ((forall a, ~ truth v a) \/ (forall b, ~ truth w b) -> logic v w "&" = false /\ logic v w "|" = false).
Proof.
  intros v w. unfold logic. split.
  - intros a b Ha Hb. apply truth_boolf in Ha. apply truth_boolf in Hb. rewrite Ha, Hb. split; reflexivity.
  - intros H. destruct (v_boolf v) as [a|] eqn:Ha; [|split; reflexivity]. destruct (v_boolf w) as [b|] eqn:Hb; [|split; reflexivity].
    exfalso. destruct H as [H|H]; [apply (H a), truth_boolf, Ha|apply (H b), truth_boolf, Hb].
Qed.
Print Assumptions C43_and_or.
(** ! negates what its operand evaluates to (false if it denotes no boolean). *)
Theorem C43_not_partial : forall E C f simpl e o g g' v b, Eval E C f g e = Ok (g', EVal v) -> truth v b ->
  evalExpression E C (S f) simpl (Some (Node (VStr (bs "!")) (e :: o))) g = Ok (g', EVal (VBool (negb b))).
Proof.
  intros E C f simpl e o g g' v b He Hb. apply truth_boolf in Hb. unfold Eval in He. cbn [evalExpression]. unfold eval_body. cbn - [evalBool_with].
  unfold evalBool_with. rewrite He. cbn [rbind]. rewrite Hb. reflexivity.
Qed.
Print Assumptions C43_not_partial.
Example C43_ex : truth (VStr (bs "true")) true /\ truth (VInt KInt 0) false /\ logic (VStr (bs "true")) (VInt KInt 0) "|" = true /\
  (forall b, ~ truth (VStr (bs "yes")) b) /\ Eval env0 calls0 3 ex_ctx (Some (nd "true" [])) = Ok (ex_ctx, EVal (VBool true)).
Proof.
  split; [constructor; reflexivity|]. split; [constructor; [left; reflexivity|]; split; [discriminate|congruence]|]. split; [reflexivity|].
  split; [intros b H; apply truth_boolf in H; discriminate H|reflexivity].
Qed.
(** The parser gives ! the name itself instead of the path: !a is true although a is true. *)
Theorem C43_not_refuted : exists E C f g e, NewExpression E f (bs "!a") = Ok e /\
  Get E C f (Some g) (bs "a") = Ok (Some g, Some (nd "a" [Node (VBool true) []])) /\ Eval E C f g (Some e) = Ok (g, EVal (VBool true)).
Proof.
  exists env0, calls0, 12%nat, (nd "r" [nd "a" [Node (VBool true) []]]), (nd "!e" [nd "!" [nd "a" []]]).
  split; [rewrite NewExpression_ideal by (cbn; lia); vm_compute; reflexivity|]. split; [|reflexivity].
  change (bs "a") with (path_text [Name (bs "a")]). rewrite Get_eq; [reflexivity|ascii_names|discriminate|split; cbn; lia].
Qed.
Print Assumptions C43_not_refuted.

(** ** C44 Parenthesised expressions.  What the evaluator does with parentheses around one
    operand: a graph that contains the value. *)
Theorem C44_group_partial : forall E C f simpl e g g' v, evalExpression E C f simpl e g = Ok (g', EVal v) -> v <> VNil -> (forall c, v <> VPtr (Some c)) ->
  evalExpression E C (S f) simpl (Some (Node (VStr (bs "!g")) [e])) g = Ok (g', EVal (VPtr (Some (Node (VStr (bs "!g")) [Some (Node v [])])))).
Proof.
  intros E C f simpl e g g' v H Hv1 Hv2. cbn [evalExpression]. unfold eval_body. cbn - [group_]. cbn [group_]. rewrite H. cbn [rbind].
  destruct v as [| | | | | | |[c|]| | |]; try reflexivity; [congruence|exfalso; exact (Hv2 c eq_refl)].
Qed.
Print Assumptions C44_group_partial.
(** With more than one expression inside, the values come in their order. *)
Theorem C44_values_partial : forall E C f simpl es vs g, Forall2 (fun e v => evalExpression E C f simpl e g = Ok (g, EVal v)) es vs ->
  Forall (fun v => v <> VNil /\ forall c, v <> VPtr (Some c)) vs ->
  evalExpression E C (S f) simpl (Some (Node (VStr (bs "!g")) es)) g = Ok (g, EVal (VPtr (Some (Node (VStr (bs "!g")) (map (fun v => Some (Node v [])) vs))))).
Proof.
  intros E C f simpl es vs g H Hv. cbn [evalExpression]. unfold eval_body. cbn - [group_].
  enough (K : group_ (evalExpression E C f) simpl es g = Ok (g, map (fun v => Some (Node v [])) vs)) by (rewrite K; reflexivity).
  induction H as [|e v es vs He _ IH]; [reflexivity|]. inversion Hv as [|? ? (Hn & Hp) Hv']; subst. cbn [group_ map]. rewrite He. cbn [rbind]. rewrite (IH Hv'). cbn [rbind].
  destruct v as [| | | | | | |[c|]| | |]; try reflexivity; [congruence|exfalso; exact (Hp c eq_refl)].
Qed.
Print Assumptions C44_values_partial.
Example C44_values_ex : Forall2 (fun e v => evalExpression env0 calls0 3 true e ex_ctx = Ok (ex_ctx, EVal v)) [Some (nd "1" []); Some (nd "x" [])] [VInt KInt64 1; VStr (bs "x")].
Proof. repeat constructor. Qed.
Example C44_ex : evalExpression env0 calls0 1 true (Some (nd "5" [])) ex_ctx = Ok (ex_ctx, EVal (VInt KInt64 5)).
Proof. reflexivity. Qed.
(** The claim fails: (5) is not 5, *)
Theorem C44_value_refuted : exists E C f g e v, NewExpression E f (bs "(5)") = Ok e /\ Eval E C f g (Some e) = Ok (g, EVal v) /\ v_int64 v = None.
Proof.
  exists env0, calls0, 12%nat, ex_ctx, (nd "!e" [nd "!g" [nd "5" []]]), (VPtr (Some (nd "!g" [Node (VInt KInt64 5) []]))).
  split; [rewrite NewExpression_ideal by (cbn; lia); vm_compute; reflexivity|]. split; reflexivity.
Qed.
Print Assumptions C44_value_refuted.
(** and evaluating (1+2) panics, in every context. *)
Theorem C44_panic_refuted : exists E f e, NewExpression E f (bs "(1+2)") = Ok e /\ forall C g, Eval E C f g (Some e) = Panic.
Proof.
  exists env0, 12%nat, (nd "!e" [nd "!g" [nd "1" []; nd "+" []; nd "2" []]]).
  split; [rewrite NewExpression_ideal by (cbn; lia); vm_compute; reflexivity|]. intros. reflexivity.
Qed.
Print Assumptions C44_panic_refuted.
