(** C82: looking up and evaluating do not modify the graph. *)
From Verif Require Import Base Value Event EventSpec EventFacts Lexer TextParser Stream Buffer Graph PathParser PathTerm PathSpec PathFacts Eval Template TemplateSpec TemplateFacts Quiet QuietFacts Samples P_Path P_Access P_Template.

(** ** C82 Get leaves the graph as it was: any text, any graph.  (The functions called by a path are
    taken not to modify it.) *)
Theorem C82_get : forall E C f g s g' n, Get E C f (Some g) s = Ok (g', n) -> g' = Some g.
Proof.
  intros E C f g s g' n H. cbn [Get] in H. destruct (NewPath E f s) as [p| |] eqn:Ep; cbn [rbind] in H; try discriminate.
  assert (Hp : quiet E (Some p)). { eapply tame_quiet. eapply (NewPath_tame false); [|exact Ep]. apply Forall_forall. intros c _ Hc. discriminate. }
  destruct (getPath E C (evalExpression E C f) p g) as [[g1 r]| |] eqn:Eg; cbn [rbind] in H; try discriminate. injection H as <- _. f_equal. eapply quiet_getPath; eassumption.
Qed.
Print Assumptions C82_get.

(** So does evaluating an expression in which nothing is assigned, *)
Theorem C82_eval : forall E C f g e g', quiet E e ->
  (forall r, Eval E C f g e = Ok (g', r) -> g' = g) /\ (forall b, evalBool E C f g e = Ok (g', b) -> g' = g).
Proof. intros E C f g e g' He. split; intros r H; [eapply quiet_Eval|eapply quiet_evalBool]; eassumption. Qed.
Print Assumptions C82_eval.
(** such as that of any text without the character =, *)
Theorem C82_text : forall E C f f' g s e g' r, ~ In "="%byte s -> NewExpression E f s = Ok e -> Eval E C f' g (Some e) = Ok (g', r) -> g' = g.
Proof.
  intros E C f f' g s e g' r Hs He H. eapply quiet_Eval; [|exact H]. apply clean_quiet. eapply NewExpression_clean; [|exact He].
  apply Forall_forall. intros c Hc _ ->. auto.
Qed.
Print Assumptions C82_text.
(** or a text with other operators, which may contain that character. *)

Lemma others_bin op l r t : t = Bin op l r -> forall o, In o (map fst (others l)) \/ o = op \/ In o (map fst (others r)) -> In o (map fst (others t)).
Proof. intros -> o H. cbn [others]. rewrite map_app, in_app_iff. cbn. destruct H as [H|[->|H]]; auto. Qed.
Lemma quiet_leaf E s : quiet E (Some (gtree (T s []))).
Proof. cbn. constructor; [congruence|constructor]. Qed.
Lemma quiet_typed E s k : In s types -> Forall (quiet E) (map (fun t => Some (gtree t)) k) -> quiet E (Some (gtree (T s k))).
Proof.
  intros Hs Hk. rewrite gtree_node, map_map. constructor; [|exact Hk]. intros t _ Ht Hin. injection Ht as <-. cbn in Hs, Hin.
  decompose [or] Hs; subst; decompose [or] Hin; try discriminate; contradiction.
Qed.
Lemma quiet_operand E a : quiet E (Some (gtree (operand_tree a))).
Proof.
  destruct a as [s|q s|es]; cbn [operand_tree].
  - apply quiet_leaf.
  - apply quiet_typed; [cbn; tauto|]. constructor; [apply quiet_leaf|constructor].
  - apply quiet_typed; [cbn; tauto|]. rewrite map_map. apply Forall_forall. intros o Ho. apply in_map_iff in Ho. destruct Ho as (e & <- & _).
    destruct e; cbn [elem_tree]; try apply quiet_leaf. apply quiet_typed; [cbn; tauto|]. constructor; [apply quiet_leaf|constructor].
Qed.
Lemma quiet_etree E t : (forall o, In o (map fst (others t)) -> ~ assigning o) -> quiet E (Some (gtree (etree_tree t))).
Proof.
  induction t as [a|op l IHl r IHr]; intros H; cbn [etree_tree]; [apply quiet_operand|]. rewrite gtree_node. cbn [map].
  assert (Hop : ~ assigning op) by (apply H; eapply others_bin; [reflexivity|]; auto).
  constructor.
  - intros s _ Hs Hin. injection Hs as <-. destruct op; try (apply Hop; exact I); cbn in Hin; decompose [or] Hin; try discriminate; contradiction.
  - constructor; [apply IHl|constructor; [apply IHr|constructor]]; intros o Ho; apply H; (eapply others_bin; [reflexivity|]); auto.
Qed.
Theorem C82_operators : forall E C f f' a l e g g' r, operand_ok E a -> Forall (step_ok E) l -> (Z.of_nat (List.length (expr_text a l))) <= 4094 -> (List.length (expr_text a l) + 8 <= f)%nat ->
  Forall (fun x => ~ assigning (oper x)) l -> NewExpression E f (expr_text a l) = Ok e -> Eval E C f' g (Some e) = Ok (g', r) -> g' = g.
Proof.
  intros E C f f' a l e g g' r Ha Hl Hlen Hf Hn He H. destruct (C40_expression_partial E a l f Ha Hl Hlen Hf) as (t & _ & Ho & _ & Ht). rewrite Ht in He. injection He as <-.
  eapply quiet_Eval; [|exact H]. constructor.
  - intros s _ Hs Hin. injection Hs as <-. cbn in Hin. decompose [or] Hin; try discriminate; contradiction.
  - constructor; [|constructor]. apply quiet_etree. rewrite Ho, map_map. cbn [fst]. intros o Hin. apply in_map_iff in Hin. destruct Hin as (x & <- & Hx). rewrite Forall_forall in Hn. apply Hn, Hx.
Qed.
Print Assumptions C82_operators.

(** Templates without assignments and loops.  (A loop leaves its variable in the context.) *)
Inductive unlooped (E : env) : option graph -> Prop :=
| unlooped_nil : unlooped E None
| unlooped_node v o : ThisString E (Some (Node v o)) <> Ok (bs "!for") -> Forall (unlooped E) o -> unlooped E (Some (Node v o)).

Definition keeps4 (m : res pres_) (c : graph) : Prop := forall c' o d b, m = Ok (c', o, d, b) -> c' = c.
Lemma unlooped_all E n : unlooped E (Some n) -> Forall (unlooped E) (out n).
Proof. intros H. inversion H; subst. assumption. Qed.
Lemma unlooped_GetAt E n i e : unlooped E n -> GetAt n i = Ok e -> unlooped E e.
Proof.
  destruct n as [[v o]|]; [|discriminate]. intros H Hi. cbn [GetAt] in Hi. destruct (_ || _); injection Hi as <-; [constructor|].
  unfold child. destruct (nth_error o (Z.to_nat i)) eqn:En; [|constructor]. apply unlooped_all in H. rewrite Forall_forall in H. apply H. eapply nth_error_In. exact En.
Qed.
Lemma keeps_nodes E C f rec l : (forall t c, quiet E t -> unlooped E t -> keeps4 (rec t c) c) -> Forall (quiet E) l -> Forall (unlooped E) l ->
  forall yes c, keeps4 (process_nodes E C f rec l yes c) c.
Proof.
  intros Hrec. induction l as [|[n|] l IH]; intros Hq Hu yes c; cbn [process_nodes].
  - intros c' o d b H. injection H as <- _ _ _. reflexivity.
  - inversion Hq as [|? ? Hn Hq']; inversion Hu as [|? ? Hun Hu']; subst. specialize (IH Hq' Hu').
    assert (Hgo : forall yes (x : res (graph * bytes * list bytes)), (forall c1 o1 d1, x = Ok (c1, o1, d1) -> c1 = c) ->
      keeps4 (let* (c, o, d) := x in let* (c, o', d', brk) := process_nodes E C f rec l yes c in Ok (c, o ++ o', d ++ d', brk)) c).
    { intros y x Hx c' o d b H. destruct x as [[[c1 o1] d1]| |]; cbn [rbind] in H; try discriminate. assert (c1 = c) by (eapply Hx; reflexivity). subst.
      destruct (process_nodes E C f rec l y c) as [[[[c2 o2] d2] b2]| |] eqn:E2; cbn [rbind] in H; try discriminate. injection H as <- _ _ _. eapply IH. exact E2. }
    assert (Hev : forall c' r, Eval E C f c (Some n) = Ok (c', r) -> c' = c) by (intros; eapply quiet_Eval; eassumption).
    destruct (ThisString E (Some n)) as [s| |] eqn:Es; cbn [rbind]; try discriminate.
    destruct (bseq s TypePath).
    { apply Hgo. intros c1 o1 d1 H. destruct (Eval E C f c (Some n)) as [[c2 r]| |] eqn:E2; cbn [rbind] in H; try discriminate. destruct (text_of _ _); cbn [rbind] in H; try discriminate. injection H as <- _ _. eapply Hev. reflexivity. }
    destruct (bseq s TypeExpression).
    { apply Hgo. intros c1 o1 d1 H. destruct (Eval E C f c (Some n)) as [[c2 r]| |] eqn:E2; cbn [rbind] in H; try discriminate. injection H as <- _ _. eapply Hev. reflexivity. }
    destruct (_ || _).
    { intros c' o d b H. destruct (do_if E C f rec n c) as [[[[c1 o1] d1] y]| |] eqn:Ei; cbn [rbind] in H; try discriminate.
      assert (c1 = c).
      { unfold do_if in Ei. destruct (GetAt (Some n) 0) as [a| |] eqn:Ea; cbn [rbind] in Ei; try discriminate. destruct (GetAt a 0) as [e| |] eqn:Ee; cbn [rbind] in Ei; try discriminate.
        assert (He : quiet E e) by (eapply quiet_GetAt; [|exact Ee]; eapply quiet_GetAt; eassumption).
        destruct (evalBool E C f c e) as [[c2 yy]| |] eqn:Eb; cbn [rbind] in Ei; try discriminate. assert (c2 = c) by (eapply quiet_evalBool; eassumption). subst.
        destruct yy; [|injection Ei as <- _ _ _; reflexivity]. destruct (GetAt (Some n) 1) as [body| |] eqn:Eo; cbn [rbind] in Ei; try discriminate.
        destruct (rec body c) as [[[[c3 o3] d3] b3]| |] eqn:Er; cbn [rbind] in Ei; try discriminate. injection Ei as <- _ _ _.
        eapply (Hrec body); [exact (quiet_GetAt _ _ _ _ Hn Eo)|exact (unlooped_GetAt _ _ _ _ Hun Eo)|exact Er]. }
      subst. revert H. apply (Hgo y (Ok (c, o1, d1))). intros ? ? ? [= <- _ _]. reflexivity. }
    destruct (bseq s TypeElseIf); [apply (Hgo yes (Ok (c, [], []))); intros ? ? ? [= <- _ _]; reflexivity|].
    destruct (bseq s TypeElse).
    { apply Hgo. intros c1 o1 d1 H. destruct yes; [injection H as <- _ _; reflexivity|]. destruct (GetAt (Some n) 0) as [t| |] eqn:Et; cbn [rbind] in H; try discriminate.
      destruct (rec t c) as [[[[c3 o3] d3] b3]| |] eqn:Er; cbn [rbind] in H; try discriminate. injection H as <- _ _. eapply (Hrec t); [exact (quiet_GetAt _ _ _ _ Hn Et)|exact (unlooped_GetAt _ _ _ _ Hun Et)|exact Er]. }
    destruct (bseq s TypeFor) eqn:Ef.
    { apply bseq_eq in Ef. subst s. inversion Hun as [|v o Hno _]; subst. contradiction. }
    destruct (bseq s TypeBreak); [intros ? ? ? ? [= <- _ _ _]; reflexivity|]. apply (Hgo yes (Ok (c, s, []))). intros ? ? ? [= <- _ _]. reflexivity.
  - inversion Hq; inversion Hu; subst. auto.
Qed.
Lemma keeps_process E C f d : forall t c, quiet E t -> unlooped E t -> keeps4 (process E C f d t c) c.
Proof.
  induction d as [|d IH]; intros t c Hq Hu; [discriminate|]. cbn [process]. destruct t as [t|]; [|intros ? ? ? ? [= <- _ _ _]; reflexivity].
  apply keeps_nodes; [exact IH|apply quiet_all, Hq|apply unlooped_all, Hu].
Qed.
Theorem C82_template : forall E C f t c c' o, quiet E t -> unlooped E t -> Process E C f t c = Ok (c', o) -> c' = c.
Proof.
  intros E C f t c c' o Hq Hu H. unfold Process in H. destruct (process E C f f t c) as [[[[c1 o1] d1] b1]| |] eqn:Ep; cbn [rbind] in H; try discriminate. injection H as <- _.
  eapply keeps_process; eassumption.
Qed.
Print Assumptions C82_template.
Theorem C82_template_text : forall E C f f' s t c c' o, ~ In "="%byte s -> NewTemplate E f s = Ok t -> unlooped E (Some t) -> Process E C f' (Some t) c = Ok (c', o) -> c' = c.
Proof.
  intros E C f f' s t c c' o Hs Ht Hu H. eapply C82_template; [|exact Hu|exact H]. apply clean_quiet. eapply NewTemplate_clean; [|exact Ht].
  apply Forall_forall. intros b Hb _ ->. auto.
Qed.
Print Assumptions C82_template_text.

Definition ex_quiet : graph := nd "r" [nd "a" [nd "b" [nd "x" []]]; nd "n" [Node (VInt KInt64 0) []]; nd "l" [nd "1" []; nd "2" []]].
(** Even with an assignment as an index, which a path does not make: *)
Example C82_ex_get : Get env0 calls0 40 (Some ex_quiet) (bs "a[n=1].b") = Ok (Some ex_quiet, Some (nd "b" [nd "x" []])).
Proof. unfold Get. rewrite NewPath_ideal by (cbn; lia). vm_compute. reflexivity. Qed.

Example C82_ex_text : ~ In "="%byte (bs "a.b+n*2") /\ exists e, NewExpression env0 40 (bs "a.b+n*2") = Ok e /\ quiet env0 (Some e) /\
  Eval env0 calls0 40 ex_quiet (Some e) = Ok (ex_quiet, EVal (VStr (bs "x0"))).
Proof.
  assert (Hs : ~ In "="%byte (bs "a.b+n*2")) by (intros H; cbn in H; decompose [or] H; try discriminate; contradiction). split; [exact Hs|].
  destruct (NewExpression env0 40 (bs "a.b+n*2")) as [e| |] eqn:He.
  2, 3: exfalso; rewrite NewExpression_ideal in He by (cbn; lia); vm_compute in He; discriminate.
  exists e. split; [reflexivity|]. split; [apply clean_quiet; eapply NewExpression_clean; [|exact He]; apply Forall_forall; intros c Hc _ ->; auto|].
  rewrite NewExpression_ideal in He by (cbn; lia). vm_compute in He. injection He as <-. vm_compute. reflexivity.
Qed.
(** The operators that compare may be there, *)
Example C82_ex_compare : exists e, NewExpression env0 40 (bs "n==0&&n>=0") = Ok e /\ Eval env0 calls0 40 ex_quiet (Some e) = Ok (ex_quiet, EVal (VBool true)).
Proof. rewrite NewExpression_ideal by (cbn; lia). eexists. split; [vm_compute; reflexivity|]. vm_compute. reflexivity. Qed.
(** those that assign may not. *)
Example C82_ex_assign : exists e g', NewExpression env0 40 (bs "n+=1") = Ok e /\ Eval env0 calls0 40 ex_quiet (Some e) = Ok (g', EVal (VPtr (Some (Node (VInt KInt64 1) [])))) /\ g' <> ex_quiet.
Proof. rewrite NewExpression_ideal by (cbn; lia). eexists. eexists. split; [vm_compute; reflexivity|]. split; [vm_compute; reflexivity|]. discriminate. Qed.
Example C82_ex_template : let s := bs "Dear $a.b$if(n<1), hello$else bye$end" in ~ In "="%byte s /\ exists t, NewTemplate env0 60 s = Ok t /\ unlooped env0 (Some t) /\
  Process env0 calls0 60 (Some t) ex_quiet = Ok (ex_quiet, bs "Dear x, hello").
Proof.
  cbv zeta. split; [intros H; cbn in H; decompose [or] H; try discriminate; contradiction|]. rewrite NewTemplate_ideal by (cbn; lia). eexists. split; [vm_compute; reflexivity|].
  split; [repeat (constructor; [discriminate|]); repeat (constructor; try discriminate)|vm_compute; reflexivity].
Qed.
(** A loop is not unlooped, and it does modify the context. *)
Example C82_ex_loop : exists t c', NewTemplate env0 60 (bs "$for(v,l)$v$end") = Ok t /\ Process env0 calls0 60 (Some t) ex_quiet = Ok (c', bs "12") /\ c' <> ex_quiet.
Proof. rewrite NewTemplate_ideal by (cbn; lia). eexists. eexists. split; [vm_compute; reflexivity|]. split; [vm_compute; reflexivity|]. discriminate. Qed.
