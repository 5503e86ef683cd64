(** C46: indexes, selectors and names that are expressions, in the variables of templates. *)
From Verif Require Import Base Value Event EventSpec EventFacts Lexer TextParser Stream Buffer BufferSpec BufferFacts Wp TextTerm TextSpec TextDoc Graph GraphSpec GraphFacts Emit PathParser PathTerm WpLong PathSpec PathFacts NumFacts TypesSpec TypesFacts Eval Template TemplateSpec TemplateFacts TemplateProc AccessSpec AccessFacts EvalSpec EvalFacts FuncSpec IndexSpec Samples P_Access CallFacts P_Func P_Epath EpathSpec P_Template P_Index.
From Verif Require SelSpec SelFacts.

Local Notation len l := (Z.of_nat (List.length l)).

(** No operators in names that are expressions (see C79_operators_refuted) *)
Definition single (h : hop) : Prop := match h with By _ _ (_ :: _) => False | _ => True end.

(** ** Parsing *)
Lemma steps_flat l : Forall flat (flat_map step_trees l).
Proof. induction l as [|x l IH]; [constructor|]. cbn [flat_map step_trees app]. constructor; [apply leaf_flat|]. constructor; [apply operand_flat|exact IH]. Qed.
Lemma hop_flat h : single h -> flat (hop_tree h).
Proof.
  destruct h as [e|pad a l|pad a l|pad a l|]; cbn [hop_tree single]; intros H.
  - apply elem_flat.
  - constructor; [constructor; [apply operand_flat|apply steps_flat]|discriminate].
  - destruct l; [|contradiction]. constructor; [constructor; [constructor; [constructor; [apply operand_flat|constructor]|cbn; lia]|constructor]|discriminate].
  - constructor; [constructor; [apply operand_flat|apply steps_flat]|discriminate].
  - apply leaf_flat.
Qed.
Lemma ready_hops E e l : var_ok E [e] -> Forall single (Go e :: l) -> ready (hops_tree (Go e :: l)) (hops_tree (Go e :: l)).
Proof.
  intros (_ & H) Hs. exists (gtree (hops_tree (Go e :: l))). split.
  - apply ast_flat. constructor; [|discriminate]. apply Forall_map. eapply Forall_impl; [|exact Hs]. exact hop_flat.
  - unfold simplify_node, hops_tree. rewrite this_gtree. change (bseq (bs "!p") TypePath) with true. cbn iota. cbn [map]. rewrite gtree_node. cbn [map out].
    replace (keyword _) with (@None bytes); [reflexivity|]. destruct e as [s|q s|n]; cbn [hop_tree elem_tree]; rewrite this_gtree; [symmetry; apply keyword_none, H|symmetry; apply keyword_none, H|reflexivity].
Qed.
Lemma nest_hops E pre e l t : pre = [] \/ text_ok pre -> var_ok E [e] -> Forall single (Go e :: l) -> wf E t ->
  let a := match pre with [] => [] | _ => [T pre []] end in
  nest (groot (a ++ hops_tree (Go e :: l) :: flat_t t)) = Ok (Node (VStr []) (gforest (a ++ hops_tree (Go e :: l) :: nodes t))).
Proof.
  intros Hp He Hs Ht a.
  assert (Ra : Forall2 ready a a).
  { subst a. destruct pre as [|c pre]; [constructor|]. constructor; [|constructor]. apply ready_leaf. destruct Hp as [Hp|(_ & _ & Hp)]; [discriminate|]. intros K. apply Hp. rewrite K. cbn. tauto. }
  assert (Fa : forall x, flows (map gtree a ++ x) = let '(hs, es, rest) := flows x in (map gtree a ++ hs, es, rest)).
  { intros x. subst a. destruct pre as [|c pre]; [cbn [map app]; destruct (flows x) as [[? ?] ?]; reflexivity|]. destruct Hp as [Hp|(_ & _ & Hp)]; [discriminate|].
    cbn [map app]. apply flows_node. intros K. apply Hp. cbn in K |- *. tauto. }
  destruct (ready_list _ _ (Forall2_app Ra (Forall2_cons _ _ (ready_hops E e l He Hs) (proj1 (ready_all E) t Ht)))) as (ns & H1 & H2).
  unfold nest. cbn [groot out]. rewrite ast_eq. cbn [andb]. rewrite H1. cbn [rbind out]. rewrite strip_map, H2. change (flow (S (List.length ?x)) ?x) with (flows x).
  pose proof (proj1 (flows_all E) t Ht []) as H3. rewrite app_nil_r in H3. rewrite map_app. cbn [map]. rewrite Fa. unfold hops_tree. rewrite flows_node by (cbn; intuition discriminate). rewrite H3. cbn. rewrite !app_nil_r, (gforest_map (a ++ _)), !map_app. reflexivity.
Qed.

Section Parse.
Variable E : env.
Variable F : nat.
Lemma v_hops e l s r h : Forall (hop_ok E) (Go e :: l) -> at_ s ("$"%byte :: hops_text (Go e :: l) ++ r) -> path_end E r -> h_inv h -> (List.length (hops_text (Go e :: l)) + 12 <= F)%nat ->
  wpx E (Variable_ F) s h (var_post h (hops_tree (Go e :: l)) r).
Proof.
  intros Hok Ha Hr Hh HF. destruct (path_head E [e]) as (c & w & Ec & Hc & _); [constructor; [apply (Forall_inv Hok)|constructor]|discriminate|].
  cbn [path_text flat_map] in Ec. rewrite app_nil_r in Ec.
  assert (Et : hops_text (Go e :: l) = c :: w ++ flat_map (hop_text false) l) by (cbn [hops_text hop_text]; rewrite Ec; reflexivity).
  rewrite Et in Ha. cbn [app] in Ha. apply (v_path E F c ((w ++ flat_map (hop_text false) l) ++ r)); auto.
  intros s' h' H' Hh'. apply (x_hops E F (Go e :: l)); auto; [discriminate|rewrite Et; exact H'|lia].
Qed.
Lemma v_hops_braces e l s r h : Forall (hop_ok E) (Go e :: l) -> at_ s ("$" :: "{" :: hops_text (Go e :: l) ++ "}" :: r)%byte -> h_inv h -> (List.length (hops_text (Go e :: l)) + 12 <= F)%nat ->
  wpx E (Variable_ F) s h (var_post h (hops_tree (Go e :: l)) r).
Proof.
  intros Hok Ha Hh HF. destruct (path_head E [e]) as (c & w & Ec & _ & Hc); [constructor; [apply (Forall_inv Hok)|constructor]|discriminate|].
  cbn [path_text flat_map] in Ec. rewrite app_nil_r in Ec. set (tx := hops_text (Go e :: l)) in *.
  assert (Et : exists w', tx = c :: w') by (unfold tx; cbn [hops_text hop_text]; rewrite Ec; eexists; reflexivity). destruct Et as (w' & Et).
  unfold Variable_. eapply x_byte_then; [exact Ha|]. intro p. change (negb (beq "$" "$")) with false. cbn iota.
  eapply x_byte_then; [apply at_mk|]. intro p2. change (beq "{" "\") with false. cbn iota. apply x_un. intros s0 Ha0. apply wpx_Level.
  eapply x_byte_then; [exact Ha0|]. intro p3. change (beq "{" "(") with false. change (beq "{" "{") with true. cbn iota.
  apply wpx_bind. apply wpx_emit, wpx_Inc. apply wpx_bind.
  call (x_Space E F (mkS ("{"%byte :: p3) (tx ++ "}"%byte :: r) false) [] (tx ++ "}"%byte :: r)); [apply at_mk|constructor|rewrite Et; exact Hc|cbn; lia|].
  intros _ s1 h1 (H1 & ->). apply wpx_ret. call (x_hops E F (Go e :: l) F s1 ("}"%byte :: r)); auto; [discriminate|apply path_end_ascii; [cbn; lia|reflexivity|cbn; intuition discriminate]|apply under_inv, Hh|fold tx; lia|].
  intros b s2 h2 (_ & H2 & A2). call (x_Space E F s2 [] ("}"%byte :: r)); [exact H2|constructor|reflexivity|cbn; lia|]. intros _ s3 h3 (H3 & ->).
  call (x_byte E); [exact H3|]. intros ? s4 h4 (_ & H4 & ->). apply wpx_ret, wpx_Set, wpx_ret. split; [reflexivity|]. split; [exact H4|]. exact (adds_set h _ _ _ Hh A2).
Qed.
End Parse.

(** The text of the variable, with braces or without *)
Definition variable (braces : bool) (l : list hop) : bytes := if braces then bs "${" ++ hops_text l ++ bs "}" else bs "$" ++ hops_text l.
Lemma NewTemplate_hops E (b : bool) pre e l t fuel : pre = [] \/ text_ok pre -> Forall (hop_ok E) (Go e :: l) -> var_ok E [e] -> Forall single (Go e :: l) -> wf E t -> (b = false -> TemplateSpec.apart E t) ->
  len (pre ++ variable b (Go e :: l) ++ source t) <= 4094 -> (List.length (pre ++ variable b (Go e :: l) ++ source t) + 25 <= fuel)%nat ->
  NewTemplate E fuel (pre ++ variable b (Go e :: l) ++ source t) =
  Ok (Node (VStr []) (gforest (match pre with [] => [] | _ => [T pre []] end ++ hops_tree (Go e :: l) :: nodes t))).
Proof.
  intros Hp Hok He Hs Ht Hap Hl Hf. unfold NewTemplate. rewrite (run_ideal E fuel (Template fuel fuel) (fun h => let* g := Tree h in nest g)) by lia.
  set (a := match pre with [] => [] | _ => [T pre []] end).
  set (v := variable b (Go e :: l)) in *. repeat rewrite app_length in Hf.
  assert (Hlv : (List.length (hops_text (Go e :: l)) + 1 <= List.length v)%nat) by (unfold v, variable; destruct b; rewrite ?app_length; cbn [List.length bs list_byte_of_string byte_of_ascii map]; cbn; lia).
  assert (V : forall s h w, at_ s (v ++ w) -> (b = false -> path_end E w) -> h_inv h -> wpx E (Variable_ fuel) s h (var_post h (hops_tree (Go e :: l)) w)).
  { intros s h w Hw Hpe Hh. unfold v, variable in *. destruct b.
    - rewrite <- !app_assoc in Hw. apply v_hops_braces; [exact Hok|exact Hw|exact Hh|lia].
    - rewrite <- !app_assoc in Hw. apply v_hops; [exact Hok|exact Hw|apply Hpe; reflexivity|exact Hh|lia]. }
  assert (Hd : exists w0, v = "$"%byte :: w0) by (unfold v, variable; destruct b; eexists; reflexivity). destruct Hd as (w0 & Hd).
  pose proof (proj1 (flat2_length E) t Ht) as Hle.
  assert (W : forall s h m, at_ s (v ++ source t) -> h_inv h -> (List.length (flat_t t) + 1 <= m)%nat -> wpx E (Template fuel (S m)) s h (fun _ _ h' => adds h (hops_tree (Go e :: l) :: flat_t t) h')).
  { intros s h m Ha Hh Hm. rewrite Hd in Ha. cbn [app] in Ha. apply (t_var E fuel (w0 ++ source t) (hops_tree (Go e :: l)) s (source t)); [exact Ha|lia| |].
    - intros s' Ha'. apply V; [rewrite Hd; exact Ha'| |exact Hh]. intros Hb. pose proof (@apart_src None E fuel I true t [] Ht (Hap Hb) I ltac:(intros []) ltac:(intros [])) as K. rewrite app_nil_r in K. exact K.
    - intros s1 h1 H1 A1. replace m with (List.length (flat_t t) + (m - List.length (flat_t t)))%nat by lia.
      apply (proj1 (@x_templates None E fuel I) t true s1 [] h1 (m - List.length (flat_t t))%nat); [exact Ht|intros []|intros []|exact I|rewrite app_nil_r; exact H1|exact (adds_inv _ _ _ A1)|lia|].
      intros s2 h2 H2 A2. replace (m - List.length (flat_t t))%nat with (S (m - List.length (flat_t t) - 1)) by lia. eapply wpx_mono; [apply t_end; [exact H2|lia]|]. cbn beta. intros _ s3 h3 ->. exact (adds_app _ [_] _ _ _ A1 A2). }
  assert (K : wpx E (Template fuel fuel) (s_init (pre ++ v ++ source t)) h_init (fun _ s h => adds h_init (a ++ hops_tree (Go e :: l) :: flat_t t) h)).
  { assert (Ha : at_ (s_init (pre ++ v ++ source t)) (pre ++ v ++ source t)) by (split; [apply good_false|reflexivity]). unfold a. destruct pre as [|c0 pre0] eqn:Ep.
    - cbn [app]. destruct fuel as [|m] eqn:Em; [lia|]. rewrite <- Em in *. replace (Template fuel fuel) with (Template fuel (S m)) by (rewrite Em; reflexivity). apply W; [exact Ha|exact h_init_inv|lia].
    - rewrite <- Ep in *. assert (Hp' : text_ok pre) by (destruct Hp as [Hp|Hp]; [congruence|exact Hp]). destruct Hp' as (Hp1 & Hp2 & _).
      assert (1 <= List.length pre)%nat by (rewrite Ep; cbn; lia).
      destruct fuel as [|[|m]] eqn:Em; [lia|lia|]. rewrite <- Em in *. replace (Template fuel fuel) with (Template fuel (S (S m))) by (rewrite Em; reflexivity).
      apply (t_text E fuel pre _ (v ++ source t)); auto; [rewrite Hd; reflexivity|lia|exact h_init_inv|]. intros s1 h1 H1 A1. eapply wpx_mono; [apply W; [exact H1|exact (adds_inv _ _ _ A1)|lia]|]. cbn beta.
      intros _ s2 h2 A2. exact (adds_app _ [_] _ _ _ A1 A2). }
  unfold wpx, short, wpi in K. destruct (run E _ _ _) as [[[u s'] h']| |]; try contradiction. cbn [rbind]. rewrite (adds_Tree _ _ K). cbn [rbind]. apply (nest_hops E); assumption.
Qed.

(** ** Processing *)
Lemma Eval_tpath E C f l g : l <> [] -> Eval E C (S f) g (Some (gtree (hops_tree l))) =
  eval_els E C (evalExpression E C f) (gtree (hops_tree l)) true false (gforest (map hop_tree l)) (Some g) None [] g.
Proof.
  intros Hl. unfold Eval, Eval_with. change (ThisString E (Some (gtree (hops_tree l)))) with (Ok TypePath). cbn [rbind]. change (bseq TypePath TypePath || bseq TypePath TypeExpression) with true. cbn iota.
  cbn [evalExpression hops_tree]. unfold eval_body. change (gtree (T (bs "!p") (map hop_tree l))) with (Node (VStr TypePath) (gforest (map hop_tree l))).
  cbn - [evalPath gforest simplify map]. unfold evalPath. cbn [out]. destruct l as [|x l]; [congruence|reflexivity].
Qed.
(** What a variable shows: its value, or nothing *)
Lemma yields_hops E C f b pre e l t c r o c' o' : pre = [] \/ text_ok pre -> Forall (hop_ok E) (Go e :: l) -> var_ok E [e] -> Forall single (Go e :: l) -> wf E t -> (b = false -> TemplateSpec.apart E t) ->
  len (pre ++ variable b (Go e :: l) ++ source t) <= 4094 -> (List.length (pre ++ variable b (Go e :: l) ++ source t) + 25 <= f)%nat ->
  Eval E C f c (Some (gtree (hops_tree (Go e :: l)))) = Ok (c, r) -> text_of E (match r with EVal v => v | EErr _ => VNil end) = Ok o ->
  yields E C f (source t) c c' o' -> yields E C f (pre ++ variable b (Go e :: l) ++ source t) c c' (pre ++ o ++ o').
Proof.
  intros Hp Hok He Hs Ht Hap Hl Hf Hev Hto Hy. eexists. split; [apply NewTemplate_hops; assumption|].
  assert (Hft : fits_t f t).
  { repeat rewrite app_length in Hl, Hf. split; [left; cbv beta; repeat rewrite app_length in Hl; lia|repeat rewrite app_length in Hf; lia]. }
  apply yields_sem in Hy; [|exact Ht|exact Hft]. destruct Hy as (d & brk & Hy). unfold Process. destruct f as [|f'] eqn:Ef; [lia|]. rewrite <- Ef in *. replace (process E C f f) with (process E C f (S f')) by (rewrite Ef; reflexivity).
  cbn [process out].
  assert (Hn : forall yes, process_nodes E C f (process E C f f') (gforest (nodes t)) yes c = Ok (c', o', d, brk)).
  { intros yes. rewrite <- Hy. apply (proj1 (process_sem E C f) t Ht). pose proof (proj1 depth_length t). repeat rewrite app_length in Hf. lia. }
  assert (Hv : forall yes, process_nodes E C f (process E C f f') (gforest (hops_tree (Go e :: l) :: nodes t)) yes c = Ok (c', o ++ o', d, brk)).
  { intros yes. rewrite gforest_cons, pn_eq. cbn zeta. change (ThisString E (Some (gtree (hops_tree (Go e :: l))))) with (Ok (bs "!p")). cbn [rbind].
    change (bseq (bs "!p") TypePath) with true. cbn iota. rewrite Hev. cbn [rbind]. rewrite Hto. cbn [rbind]. unfold TemplateProc.after. cbn [rbind]. rewrite Hn. reflexivity. }
  destruct pre as [|c0 pre0] eqn:Ep.
  - cbn [app]. rewrite Hv. reflexivity.
  - rewrite <- Ep in *. cbn [app]. rewrite gforest_cons, pn_text by (destruct Hp as [Hp|(_ & _ & Hp)]; [congruence|exact Hp]). unfold TemplateProc.after. cbn [rbind]. rewrite Hv. reflexivity.
Qed.

(** ** C46 with indexes, names and selectors that are expressions (C78, C79, C81).  What the hops lead to is shown; if the last one is an
    index, as the only subnode of a node.  Full claim: any path.  Missing: operators within parentheses, calls. *)
Theorem C46_hops_partial : forall E C f b pre e l t c n o c' o', let hs := Go e :: l in
  pre = [] \/ text_ok pre -> Forall (hop_ok E) hs -> Forall hop_free hs -> Forall single hs -> var_ok E [e] -> wf E t -> (b = false -> TemplateSpec.apart E t) ->
  len (pre ++ variable b hs ++ source t) <= 4094 -> (List.length (pre ++ variable b hs ++ source t) + 25 <= f)%nat ->
  whole E c -> hops E bare c hs c n -> P_Template.shown E (match List.last hs (Go (Index [])) with At _ _ _ => boxed n | _ => n end) o ->
  yields E C f (source t) c c' o' -> yields E C f (pre ++ variable b hs ++ source t) c c' (pre ++ o ++ o').
Proof.
  intros E C f b pre e l t c n o c' o' hs Hp Hok Hfr Hs He Ht Hap Hl Hf Hc Hh Hsh Hy.
  assert (Hne : hs <> []) by discriminate.
  eapply (yields_hops E C f b pre e l t c (EVal (simplify (Some (match List.last hs (Go (Index [])) with At _ _ _ => boxed n | _ => n end))))); eauto; [|apply shown_text, Hsh]. fold hs.
  destruct f as [|[|[|f]]]; [lia..|]. rewrite Eval_tpath by exact Hne.
  destruct (eval_els_hops E C f c Hc (gtree (hops_tree hs)) true hs c n Hh Hok Hfr Hc false [] None []) as (prev & k & H).
  rewrite app_nil_r in H. rewrite H. cbn [eval_els].
  destruct (exists_last Hne) as (l' & x & El). rewrite El, last_last. unfold hop_index. rewrite fold_left_app. destruct x; reflexivity.
Qed.
Print Assumptions C46_hops_partial.
(** An index that is no position shows nothing, whatever follows it in the path. *)
Theorem C46_hops_invalid_partial : forall E C f b pre e l pad a x tl t c n c' o', let hs := Go e :: l ++ At pad a x :: tl in
  pre = [] \/ text_ok pre -> Forall (hop_ok E) hs -> Forall hop_free (Go e :: l) -> Forall single hs -> var_ok E [e] -> wf E t -> (b = false -> TemplateSpec.apart E t) ->
  len (pre ++ variable b hs ++ source t) <= 4094 -> (List.length (pre ++ variable b hs ++ source t) + 25 <= f)%nat ->
  whole E c -> hops E bare c (Go e :: l) c n -> no_position E c a ->
  yields E C f (source t) c c' o' -> yields E C f (pre ++ variable b hs ++ source t) c c' (pre ++ o').
Proof.
  intros E C f b pre e l pad a x tl t c n c' o' hs Hp Hok Hfr Hs He Ht Hap Hl Hf Hc Hh Hno Hy.
  apply (yields_hops E C f b pre e (l ++ At pad a x :: tl) t c (EErr ErrInvalidIndex) []); auto. fold hs.
  destruct f as [|[|[|f]]]; [lia..|]. rewrite Eval_tpath by discriminate.
  assert (Hokl : Forall (hop_ok E) (Go e :: l)) by (change hs with ((Go e :: l) ++ At pad a x :: tl) in Hok; apply Forall_app in Hok; apply Hok).
  assert (Ep : gforest (map hop_tree hs) = gforest (map hop_tree (Go e :: l)) ++ Some (gtree (hop_tree (At pad a x))) :: gforest (map hop_tree tl)) by (change hs with ((Go e :: l) ++ At pad a x :: tl); unfold gforest; rewrite map_app, map_app; reflexivity).
  rewrite Ep. destruct (eval_els_hops E C f c Hc (gtree (hops_tree hs)) true (Go e :: l) c n Hh Hokl Hfr Hc false (Some (gtree (hop_tree (At pad a x))) :: gforest (map hop_tree tl)) None []) as (prev & k & H). rewrite H.
  apply (eval_els_bad E C f c Hc). exact Hno.
Qed.
Print Assumptions C46_hops_invalid_partial.

(** ** Examples *)
Lemma ex_tail_ok : wf env0 (TText (bs "!") TEnd) /\ TemplateSpec.apart env0 (TText (bs "!") TEnd).
Proof. destruct (ex_texts_ok (bs "!")) as [H1 H2]; [cbn; tauto|]. split; [split; [exact H1|split; exact I]|exact H2]. Qed.
Lemma ex_tail_yields : yields env0 calls0 60 (source (TText (bs "!") TEnd)) ex_vars ex_vars (bs "!").
Proof. apply (yields_sem env0 calls0 60 (TText (bs "!") TEnd)); [apply ex_tail_ok|split; [left|]; cbn; lia|]. eexists. eexists. reflexivity. Qed.
Lemma ex_a_var : var_ok env0 [Name (bs "a")].
Proof. split; [apply Forall_cons; [apply (ex_go (bs "a")); [discriminate|repeat constructor]|constructor]|cbn; intuition discriminate]. Qed.
Example C46_hops_ex : bs "; " ++ variable true (ex_a_at [] (OPath (map Name [bs "i"])) []) ++ bs "!" = bs "; ${a[i]}!" /\
  bs "; " ++ variable false (ex_a_at [] (OPath (map Name [bs "i"])) []) ++ bs "!" = bs "; $a[i]!" /\
  yields env0 calls0 60 (bs "; ${a[i]}!") ex_vars ex_vars (bs "; y!") /\ yields env0 calls0 60 (bs "; $a[i]!") ex_vars ex_vars (bs "; y!").
Proof.
  split; [reflexivity|]. split; [reflexivity|].
  assert (K : forall b, yields env0 calls0 60 (bs "; " ++ variable b (ex_a_at [] (OPath (map Name [bs "i"])) []) ++ source (TText (bs "!") TEnd)) ex_vars ex_vars (bs "; " ++ bs "y" ++ bs "!")).
  { intros b. unfold ex_a_at. apply (C46_hops_partial env0 calls0 60 b (bs "; ") (Name (bs "a")) [At [] (OPath (map Name [bs "i"])) []] (TText (bs "!") TEnd) ex_vars (nd "y" [])).
    - right. apply (ex_texts_ok (bs "; ")). cbn; tauto.
    - apply ex_at_ok; [constructor|apply (ex_var_ok "i"%byte); [reflexivity|cbn; lia]|constructor].
    - apply Forall_cons; [cbn; unfold ordinary; cbn; intuition discriminate|apply Forall_cons; [exact I|constructor]].
    - repeat constructor.
    - exact ex_a_var.
    - apply ex_tail_ok.
    - intros _. apply ex_tail_ok.
    - destruct b; cbn; lia.
    - destruct b; cbn; lia.
    - apply data_whole, ex_vars_data.
    - apply (ex_hops bare [] _ [] 1 (nd "y" []) ex_position eq_refl).
    - apply (shown_leaf _ _ _ (VStr (bs "y"))); [reflexivity|exact I|reflexivity].
    - exact ex_tail_yields. }
  split; [exact (K true)|exact (K false)].
Qed.
(** j holds the text 1, which is no position: nothing is shown. *)
Example C46_hops_invalid_ex : yields env0 calls0 60 (bs "; ${a[j]}!") ex_vars ex_vars (bs "; !").
Proof.
  assert (Hj : walk env0 [Name (bs "j")] ex_vars (nd "j" [nd "1" []])).
  { eapply walk_key with (i := 1%nat); [reflexivity| |constructor]. split; [reflexivity|]. split; [eexists; split; reflexivity|]. intros [|j] c Hj Hc; try lia; injection Hc as <-; intros (n & [= <-] & H); discriminate H. }
  assert (Hno : no_position env0 ex_vars (OPath (map Name [bs "j"]))).
  { apply (np_value _ _ _ (VStr (bs "1"))); [|discriminate]. assert (Hn : Forall (name env0) [bs "j"]) by (apply Forall_cons; [apply ex_name; [discriminate|repeat constructor]|constructor]).
    eapply worth_value; [discriminate|exact Hn| |exact Hj|reflexivity]. apply Forall_cons; [unfold ordinary; cbn; intuition discriminate|constructor]. }
  apply (C46_hops_invalid_partial env0 calls0 60 true (bs "; ") (Name (bs "a")) [] [] (OPath (map Name [bs "j"])) [] [] (TText (bs "!") TEnd) ex_vars (nd "a" [nd "x" []; nd "y" []; nd "z" []]) ex_vars (bs "!")).
  - right. apply (ex_texts_ok (bs "; ")). cbn; tauto.
  - apply (ex_at_ok [] (OPath (map Name [bs "j"])) []); [constructor|apply (ex_var_ok "j"%byte); [reflexivity|cbn; lia]|constructor].
  - apply Forall_cons; [cbn; unfold ordinary; cbn; intuition discriminate|constructor].
  - repeat constructor.
  - exact ex_a_var.
  - apply ex_tail_ok.
  - intros _. apply ex_tail_ok.
  - cbn; lia.
  - cbn; lia.
  - apply data_whole, ex_vars_data.
  - eapply hops_go; [reflexivity|exact ex_a_first|constructor].
  - exact Hno.
  - exact ex_tail_yields.
Qed.
