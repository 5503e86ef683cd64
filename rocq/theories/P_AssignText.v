(** C87 from the text of an assignment. *)
From Verif Require Import Base Value Graph GraphSpec GraphFacts TextSpec PathSpec PathParser PathFacts PathTerm TypesSpec TypesFacts NumFacts Eval AccessSpec AccessFacts EvalSpec EvalFacts Samples P_Access P_Assign.
From Verif Require Import Heap HeapSpec HeapFacts RefineSpec RefineFacts HeapEval Quiet HeapEvalFacts PanicSpec AssignNodes P_HeapEval P_AssignNodes Fuel.

(** From the text: p op e as in C64 (names, operators without parentheses), on nodes. *)
Lemma quiet_tree E t : Forall (fun x => 0 < prec (fst x)) (others t) -> quiet E (Some (gtree (etree_tree t))).
Proof.
  assert (Hleaf : forall s, quiet E (Some (Node (VStr s) []))) by (intros s; constructor; [intros u H _; exfalso; apply H; reflexivity|constructor]).
  assert (Hmark : forall s k, ~ In s assigns -> Forall (quiet E) k -> quiet E (Some (Node (VStr s) k))).
  { intros s k Hs Hk. constructor; [|exact Hk]. intros u _ H. injection H as <-. exact Hs. }
  induction t as [[s|q s|es]|op l IHl r IHr]; intros H; cbn [etree_tree operand_tree gtree map].
  - apply Hleaf.
  - apply Hmark; [cbn; intros K; decompose [or] K; try discriminate; contradiction|]. constructor; [apply Hleaf|constructor].
  - apply Hmark; [cbn; intros K; decompose [or] K; try discriminate; contradiction|]. rewrite map_map. apply Forall_forall. intros x Hx. apply in_map_iff in Hx. destruct Hx as (e & <- & _).
    destruct e as [s|q s|n]; cbn [elem_tree gtree map]; [apply Hleaf|apply Hleaf|]. apply Hmark; [cbn; intros K; decompose [or] K; try discriminate; contradiction|]. constructor; [apply Hleaf|constructor].
  - cbn [others] in H. apply Forall_app in H. destruct H as (H1 & H2). inversion H2 as [|? ? H3 H4]; subst. cbn [fst] in H3.
    apply Hmark; [|constructor; [apply IHl, H1|constructor; [apply IHr, H4|constructor]]].
    destruct op; cbn in H3; try lia; cbn; intros K; decompose [or] K; try discriminate; contradiction.
Qed.
Lemma worded_gtree : forall t, worded (Some (gtree t)).
Proof. fix F 1. intros [s k]. cbn [gtree]. constructor. induction k as [|t k IH]; cbn [map]; constructor; [apply F|exact IH]. Qed.
Lemma data_stored g : all_nodes data g -> stored true (Some g).
Proof.
  induction g as [v o _ IH'] using graph_ind'. intros H. inversion H as [v' k Hv Hk]; subst. constructor; [exact Hv|]. rewrite Forall_forall in *. intros x Hx. pose proof Hx as Hx'. apply in_map_iff in Hx'. destruct Hx' as (c & <- & Hc). specialize (IH' _ Hx). apply IH', Hk, Hc.
Qed.
Lemma names_path E ps : Forall (name E) ps -> path_ok (gtree (operand_tree (OPath (map Name ps)))) /\ Forall named_elem (out (gtree (operand_tree (OPath (map Name ps))))).
Proof.
  intros H. unfold path_ok. cbn [operand_tree gtree out]. rewrite !map_map. split; apply Forall_forall; intros x Hx; apply in_map_iff in Hx; destruct Hx as (s & <- & Hs); cbn [elem_tree gtree map].
  - eexists. split; [reflexivity|]. apply (wordy_node s []). constructor.
  - exists s, []. split; [reflexivity|]. rewrite Forall_forall in H. specialize (H s Hs). pose proof (name_not_marked E s H) as K. intros I0. cbn in I0. decompose [or] I0; subst; try discriminate K; contradiction.
Qed.

(** The context is in memory without sharing; after the text p op e is evaluated, the variable p of it holds the value that C64 says,
    the rest of it is as before, and so is every node that is not part of it. *)
Theorem C87_text : forall E C hC ps b1 op b2 a l t old d x g f h r lr, (forall y, hto_json hC y = to_json C y) ->
  Forall (name E) ps -> starts_with_letter (map Name ps) -> prec op = 0 -> step_ok E (mkStep b1 op b2 a) -> Forall (step_ok E) l -> Forall (fun s => 0 < prec (oper s)) l ->
  let s := expr_text (OPath (map Name ps)) (mkStep b1 op b2 a :: l) in
  Z.of_nat (List.length s) <= 4094 -> first t = a -> others t = map (fun s => (oper s, rand s)) l -> grouped t ->
  all_nodes data g -> den E g t (Some d) -> (op = Asg \/ variable E ps g old) -> updated op old d x ->
  (List.length s + 8 <= f)%nat -> (height t + 2 <= f)%nat -> spread h r g lr ->
  exists e, NewExpression E f s = Ok e /\
    match x with
    | Some d' => exists h' y g' l' v, hEval E f hC r (Some e) h = (h', Ok y) /\ spread h' r g' l' /\ holds v d' /\ changed E (replaced v) ps g g' /\
        (forall b, (b < List.length h)%nat -> ~ In b lr -> nth_error h' b = nth_error h b)
    | None => exists h', hEval E f hC r (Some e) h = (h', Panic)
    end.
Proof.
  intros E C hC ps b1 op b2 a l t old d x g f h r lr Hj Hps Hsl Hop Hst Hl Hpl s Hlen Hft Hot Hgt Hg Hd Hvar Hu Hf Hh Sp.
  destruct (C64_assign_partial E C ps b1 op b2 a l t old d x g f Hps Hsl Hop Hst Hl Hpl Hlen Hft Hot Hgt Hg Hd Hvar Hu Hf Hh) as (e & He & K). fold s in He. exists e. split; [exact He|].
  assert (Ea : assignment E C g e).
  { destruct (names_ok E ps Hps) as [Hok Hum].
    destruct (NewExpression_spec E (OPath (map Name ps)) (mkStep b1 op b2 a :: l) f) as (t' & F & O & G & He'); [split; assumption|constructor; assumption|exact Hlen|exact Hf|].
    assert (Et : t' = Bin op (Leaf (OPath (map Name ps))) t).
    { apply grouped_unique; [exact G| |exact F|cbn [others first app]; rewrite O, Hft, Hot; reflexivity].
      cbn [grouped root_ge]. split; [exact I|]. split; [|split; [exact I|exact Hgt]]. rewrite Hop. apply root_ge_one. rewrite Hot, Forall_map. exact Hpl. }
    subst t'. fold s in He'. rewrite He in He'. injection He' as ->. destruct (names_path E ps Hps) as (P1 & P2).
    apply (assignment_of E C g (op_text op) (gtree (operand_tree (OPath (map Name ps)))) (gtree (etree_tree t)) [] []).
    - destruct op; cbn in Hop; try lia; cbn; tauto.
    - exact P1.
    - right. exact P2.
    - apply quiet_tree. rewrite Hot, Forall_map. exact Hpl.
    - apply worded_gtree.
    - intros n g' v Hn. destruct (eval_den E C g t (Some d) (data_whole E g Hg) Hd (Nat.max n (height t)) ltac:(lia)) as (w & Hw & Hhw).
      destruct (expr_mono E C n (Nat.max n (height t)) true (Some (gtree (etree_tree t))) g ltac:(lia)) as [M|M]; [congruence|]. rewrite Hn, Hw in M. injection M as _ ->. destruct d; cbn in Hhw; [destruct Hhw as (_ & k & ->)|subst w|subst w]; exact I. }
  destruct (C87_assign E C hC f h r lr g e ltac:(lia) Hj Sp (data_stored g Hg) Ea) as (T & _). destruct x as [d'|].
  - destruct K as (g' & q & v & n & H1 & H2 & H3 & _). rewrite H1 in T. destruct T as (h' & y & l' & T1 & T2 & T3). exists h', y, g', l', v. repeat (split; [assumption|]). intros b Hb Hn. apply (ev_out _ _ _ _ T3); assumption.
  - rewrite K in T. exact T.
Qed.
Print Assumptions C87_text.
(** For example a += 2, where a holds 5 *)
Example C87_ex_text : let s := expr_text (OPath [Name (bs "a")]) [mkStep (bs " ") PlusAsg (bs " ") (ONum (bs "2"))] in s = bs "a += 2" /\
  all_nodes data ex_ctx_tree /\ den env0 ex_ctx_tree (Leaf (ONum (bs "2"))) (Some (DI 2)) /\ updated PlusAsg (Some (DI 5)) (DI 2) (Some (DI 7)) /\ variable env0 [bs "a"] ex_ctx_tree (Some (DI 5)) /\
  spread ex_ctx 0%nat ex_ctx_tree [0; 1; 2]%nat /\ exists h' y, (let* e := NewExpression env0 40 s in Ok (hEval env0 40 hcalls0 0%nat (Some e) ex_ctx)) = Ok (h', Ok y) /\ shows h' 0%nat ex_after.
Proof.
  intros s. split; [reflexivity|]. split; [|split; [|split; [|split; [|split; [apply C87_ex|]]]]].
  - apply (all_node _ (VStr (bs "r")) [nd "a" [Node (VInt KInt64 5) []]]); [exact I|]. constructor; [|constructor].
    apply (all_node _ (VStr (bs "a")) [Node (VInt KInt64 5) []]); [exact I|]. constructor; [|constructor]. apply (all_node _ (VInt KInt64 5) []); [exact I|constructor].
  - apply (den_num env0 ex_ctx_tree 2). unfold in64. lia.
  - apply (up_arith PlusAsg Plus 5 2 (Some 7)); [reflexivity|]. apply ar_plus. split; [unfold in64; lia|exists 0; lia].
  - apply (var_held env0 [bs "a"] ex_ctx_tree (nd "a" [Node (VInt KInt64 5) []]) (VInt KInt64 5) [] []); [|reflexivity|split; [unfold in64; lia|eexists; reflexivity]]. eapply walk_key with (i := O); [reflexivity|split; [reflexivity|split; [eexists; split; reflexivity|intros j c Hj; lia]]|constructor].
  - rewrite NewExpression_ideal by (cbn; lia). eexists. eexists. split; [vm_compute; reflexivity|]. repeat (econstructor; try reflexivity).
Qed.
