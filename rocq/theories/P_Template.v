(** C45 - C48: templates; C39 for templates. *)
From Verif Require Import Base Value Event EventSpec EventFacts Lexer TextParser Stream Buffer BufferSpec BufferFacts BufferFacts2 Wp TextTerm TextSpec TextDoc Graph GraphSpec GraphFacts Emit PathParser PathTerm WpLong PathSpec PathFacts TypesSpec TypesFacts Eval AccessSpec AccessFacts EvalSpec EvalFacts Template TemplateSpec TemplateFacts StaleFacts TemplateProc TemplateTerm PathLimits P_Graph P_Access Samples.

(** NewTemplate(s).Process(c) writes o and leaves the context as c'. *)
Definition yields (E : env) (C : calls) (f : nat) (s : bytes) (c c' : graph) (o : bytes) : Prop :=
  exists g, NewTemplate E f s = Ok g /\ Process E C f (Some g) c = Ok (c', o).

Lemma yields_sem E C f t c c' o : wf E t -> fits_t f t -> (yields E C f (source t) c c' o <-> exists d b, sem E C f t c = Ok (c', o, d, b)).
Proof.
  intros Hw Hf. destruct (Process_sem E C f t c Hw Hf) as (g & Hn & Hp). split.
  - intros (g' & Hn' & Hp'). rewrite Hn in Hn'. injection Hn' as <-. rewrite Hp in Hp'. destruct (sem E C f t c) as [[[[c1 o1] d1] b1]| |]; try discriminate Hp'.
    cbn [rbind] in Hp'. injection Hp' as <- <-. eexists. eexists. reflexivity.
  - intros (d & b & Hs). exists g. split; [exact Hn|]. rewrite Hp, Hs. reflexivity.
Qed.
Lemma yields_after E C f t t1 c c1 o1 d1 c' o : wf E t -> fits_t f t -> wf E t1 -> fits_t f t1 ->
  sem E C f t c = after (Ok (c1, o1, d1)) (sem E C f t1) -> yields E C f (source t1) c1 c' o -> yields E C f (source t) c c' (o1 ++ o).
Proof.
  intros Hw Hf Hw1 Hf1 Hs Hy. apply yields_sem in Hy; auto. destruct Hy as (d & b & Hy). apply yields_sem; auto. rewrite Hs. unfold after. cbn [rbind]. rewrite Hy.
  eexists. eexists. reflexivity.
Qed.
Definition fits_tail (f : nat) (r : tail) : Prop := (Z.of_nat (List.length (tail_source r)) <= 4094 \/ tail_parts r) /\ (List.length (tail_source r) + 25 <= f)%nat.
Ltac lens0 := cbn [source tail_source] in *; repeat rewrite app_length in *;
  repeat match goal with |- context [List.length (bs ?s)] => let n := eval vm_compute in (List.length (bs s)) in change (List.length (bs s)) with n
         | H : context [List.length (bs ?s)] |- _ => let n := eval vm_compute in (List.length (bs s)) in change (List.length (bs s)) with n in H end; lia.
Ltac lens := match goal with Hf : fits_t _ _ |- _ => revert Hf | Hf : fits_tail _ _ |- _ => revert Hf end; clear; unfold fits_t, fits_tail, legible;
  let Hl := fresh in let Hf := fresh in intros (Hl & Hf);
  match goal with |- _ /\ _ => split; [|clear Hl; lens0] | _ => idtac end;
  try (clear Hl; lens0);
  (destruct Hl as [Hl|Hl]; [try left; lens0|]; cbn [plain_names parts tail_parts] in *; cbn [source tail_source expr_src] in *; tauto).

(** ** C45 Text is copied.  Full claim: every text without dollar signs and control
    characters.  False for the eight words in [markers]. *)
Lemma wp_text F s m h (Q : unit -> stream -> handler -> Prop) : s <> [] -> Forall template_char s -> (List.length s + 2 <= F)%nat -> h_inv h ->
  (forall s' h', adds h [T s []] h' -> Q tt s' h') -> wp (Template F (S (S m))) (s_init s) h Q.
Proof.
  intros Hne Hs HF Hh HQ. cbn [Template]. apply wp_bind. unfold TemplateText.
  apply (wp_span is_template_text s F [] (s_init s) []); [reflexivity|unfold s_init; apply good_false|unfold s_init; cbn [fut]; rewrite app_nil_r; reflexivity|eapply Forall_impl; [|exact Hs]; intros a; apply template_text|exact I|lia|].
  intros s1 H1 _. cbn [app]. destruct s as [|b s]; [congruence|]. cbn [emit pbind]. eapply wp_ev; [reflexivity|]. cbn [pbind].
  apply wp_bind. pose proof (moved_fut _ _ _ H1) as Hf1. unfold s_init in Hf1. cbn [fut] in Hf1. pose proof (moved_good _ _ _ H1) as G1.
  assert (E1 : fut s1 = []) by (destruct (fut s1) as [|c r]; [reflexivity|]; exfalso; apply (f_equal (@List.length byte)) in Hf1; rewrite app_length in Hf1; cbn in Hf1; lia).
  apply (wp_span is_template_text [] F [] s1 []); [reflexivity|exact G1|exact E1|constructor|exact I|cbn; lia|]. intros s2 H2 _. cbn [app].
  pose proof (moved_fut _ _ _ H2) as Hf2. cbn [app] in Hf2. rewrite E1 in Hf2. destruct s2 as [P2 f2 o2]. cbn [fut] in Hf2. subst f2.
  unfold Variable_, Byte_. cbn [pbind]. apply wp_get_end. intros k _. change (negb (beq x00 "$")) with true. cbn [pbind]. apply wp_un_over. cbn [wp].
  apply HQ. apply adds_leaf, Hh.
Qed.
Lemma adds_leaf_graph (E : env) s : text_ok s -> nest (groot [T s []]) = Ok (Node (VStr []) [Some (Node (VStr s) [])]).
Proof. intros (Hn & Hc & Hm). exact (nest_spec E (TText s TEnd) (conj (conj Hn (conj Hc Hm)) (conj I I))). Qed.

Theorem C45_text_partial : forall E C f s c, Forall template_char s -> ~ In s markers -> (List.length s + 2 <= f)%nat -> yields E C f s c c s.
Proof.
  intros E C f s c Hs Hm Hf. destruct s as [|b s].
  { destruct f as [|f]; [cbn in Hf; lia|]. exists (Node (VStr []) []). split; [|reflexivity]. unfold NewTemplate.
    rewrite (run_ideal E (S f) (Template (S f) (S f)) (fun h => let* g := Tree h in nest g)) by (cbn [List.length] in *; lia).
    pose proof (t_end E (S f) (s_init []) h_init f (conj (good_false _ _) eq_refl) ltac:(lia)) as K. unfold wpx, short, wpi in K.
    destruct (run E _ _ _) as [[[b s'] h']| |]; try contradiction. subst h'. reflexivity. }
  assert (Hok : text_ok (b :: s)) by (split; [discriminate|split; assumption]).
  exists (Node (VStr []) [Some (Node (VStr (b :: s)) [])]). split.
  - unfold NewTemplate. destruct f as [|[|f]]; cbn [List.length] in Hf; try lia.
    pose proof (NewLexer_repr (bytes_reader (b :: s))) as Hr. rewrite seen_bytes in Hr.
    destruct (wp_sound E (S (S f)) (Template (S (S f)) (S (S f))) _ _ h_init (fun _ _ h => adds h_init [T (b :: s) []] h) Hr) as (a & x' & s' & h' & Hrun & _ & Hh).
    { apply wp_text; [discriminate|exact Hs|cbn [List.length]; lia|apply h_init_inv|auto]. }
    rewrite Hrun. cbn [rbind]. rewrite (adds_Tree _ _ Hh). cbn [rbind]. apply (adds_leaf_graph E), Hok.
  - unfold Process. destruct f as [|f]; [cbn in Hf; lia|]. cbn [process out].
    pose proof (pn_text E C (S f) (process E C (S f) f) (b :: s) [] false c Hm) as K. change (gtree (T (b :: s) [])) with (Node (VStr (b :: s)) []) in K. rewrite K.
    unfold after. cbn [rbind process_nodes]. rewrite app_nil_r. reflexivity.
Qed.
Print Assumptions C45_text_partial.
(** Text before another part, which may not be text. *)
Theorem C45_text_before_partial : forall E C f s t c c' o, wf E (TText s t) -> fits_t f (TText s t) ->
  yields E C f (source t) c c' o -> yields E C f (s ++ source t) c c' (s ++ o).
Proof.
  intros E C f s t c c' o Hw Hf Hy. apply (yields_after E C f (TText s t) t c c s [] c' o); auto; [apply Hw|lens].
Qed.
Print Assumptions C45_text_before_partial.
(** $\ stands for a dollar sign. *)
Theorem C45_dollar_partial : forall E C f t c c' o, wf E (TDollar t) -> fits_t f (TDollar t) ->
  yields E C f (source t) c c' o -> yields E C f (bs "$\" ++ source t) c c' (bs "$" ++ o).
Proof. intros E C f t c c' o Hw Hf Hy. apply (yields_after E C f (TDollar t) t c c (bs "$") [] c' o); auto; lens. Qed.
Print Assumptions C45_dollar_partial.
Example C45_ex : Forall template_char (bs "a.(b) [c] {d}!") /\ ~ In (bs "a.(b) [c] {d}!") markers /\
  source (TDollar (TText (bs "5, a") TEnd)) = bs "$\5, a" /\ wf env0 (TDollar (TText (bs "5, a") TEnd)) /\ fits_t 40 (TDollar (TText (bs "5, a") TEnd)).
Proof.
  split; [repeat constructor; try discriminate; reflexivity|]. split; [cbn; intuition discriminate|]. split; [reflexivity|].
  split; [|split; [left|]; cbn; lia]. split; [|split; exact I]. split; [discriminate|]. split; [|cbn; intuition discriminate].
  repeat constructor; try discriminate; reflexivity.
Qed.
Lemma NewTemplate_ideal E fuel s : Z.of_nat (List.length s) <= 4094 -> (List.length s < fuel)%nat ->
  NewTemplate E fuel s = let* (_, _, h) := run E (Template fuel fuel) (s_init s) h_init in let* g := Tree h in nest g.
Proof. apply (run_ideal E fuel (Template fuel fuel) (fun h => let* g := Tree h in nest g)). Qed.
Theorem C45_marker_refuted : exists s, Forall template_char s /\ s <> [] /\ forall E C c, yields E C 9 s c c [].
Proof.
  exists (bs "!end"). split; [repeat constructor; try discriminate; reflexivity|]. split; [discriminate|]. intros E C c. exists (Node (VStr []) []). split; [|reflexivity].
  rewrite NewTemplate_ideal by (cbn; lia). reflexivity.
Qed.
Print Assumptions C45_marker_refuted.

(** ** C46 Variables.  Full claim: every name, context and text.  Here: ordinary names (not
    _len and the like, not directives), the text after the name does not continue it, contexts
    without nil children; missing names in contexts whose contents are plain data. *)
Inductive shown (E : env) (n : graph) (o : bytes) : Prop :=
| shown_leaf v : out n = [Some (Node v [])] -> data v -> String_ E (Some n) = Ok o -> shown E n o
| shown_tree : (forall v, out n <> [Some (Node v [])]) -> Text E (Some n) = Ok o -> shown E n o.

Lemma eval_path_any E C f ns c n : ns <> [] -> Forall (name E) ns -> Forall ordinary ns -> cwalk E (map Name ns) c n -> (0 < f)%nat ->
  Eval E C f c (Some (gtree (T (bs "!p") (map elem_tree (map Name ns))))) = Ok (c, EVal (simplify (Some n))).
Proof.
  intros Hne Hns Ho Hw Hf. destruct f as [|f]; [lia|]. unfold Eval, Eval_with.
  change (ThisString E (Some (gtree (T (bs "!p") (map elem_tree (map Name ns)))))) with (Ok TypePath). cbn [rbind]. change (bseq TypePath TypePath || bseq TypePath TypeExpression) with true. cbn iota.
  cbn [evalExpression]. unfold eval_body. rewrite gtree_node, <- gforest_map. cbn - [evalPath gforest]. unfold evalPath. cbn [out].
  pose proof (eval_els_walk E C (evalExpression E C f) (Node (VStr TypePath) (gforest (map elem_tree (map Name ns)))) true (map Name ns) c n Hw ns eq_refl Hns Ho None [] c) as H.
  destruct ns as [|s ns]; [congruence|]. exact H.
Qed.
Lemma shown_text E n o : shown E n o -> text_of E (simplify (Some n)) = Ok o.
Proof.
  destruct n as [t k]. intros [v Hv Hd Hs|Hv Ht]; cbn [out] in Hv.
  - subst k. cbn [simplify]. cbn in Hs. destruct v; cbn in *; try contradiction; exact Hs.
  - destruct k as [|[[v l]|] k]; cbn [simplify]; try exact Ht. destruct k as [|x k]; [|destruct l; exact Ht]. destruct l as [|y l]; [|exact Ht]. exfalso. exact (Hv v eq_refl).
Qed.
Lemma eval_els_none E C ev p els prev k g : eval_els E C ev p true false els None prev k g = Ok (g, EVal (VPtr None)).
Proof. destruct els; reflexivity. Qed.
Lemma eval_els_lost E C ev p es m : clost E es m -> forall ns, es = map Name ns -> Forall (name E) ns -> Forall ordinary ns -> forall prev k g,
  exists v, eval_els E C ev p true false (gforest (map elem_tree es)) (Some m) prev k g = Ok (g, EVal v) /\ (v = VNil \/ v = VPtr None).
Proof.
  induction 1 as [e s es m Hk Hf Hh|e s es m i c Hk Hf Hc _ IH|d es m c Hd Hc _ IH]; intros ns He Hns Ho prev k g; (destruct ns as [|s' ns]; [discriminate|]); try discriminate He; injection He as -> ->;
    injection Hk as ->; inversion Hns as [|? ? Hs Hns']; subst; inversion Ho as [|? ? Hs' Ho']; subst;
    destruct (key_unmarked E (Name s) s Hs I eq_refl) as [Hm _]; unfold marked in Hm; rewrite !orb_false_iff in Hm; destruct Hm as [[[M1 M2] M3] M4];
    destruct (ordinary_not s Hs') as (O1 & O2 & O3 & O4 & O5);
    cbn [map gforest elem_tree gtree]; cbn [eval_els]; cbn [ThisString this vstring sstring rbind]; rewrite M1, M2, M3, M4, O1, O2, O3, O4, O5.
  - rewrite (Node_none E _ _ Hf). cbn [rbind]. destruct m as [t o]. cbn [out] in *. destruct o as [|[c|] o]; [|clear Hf|contradiction].
    + rewrite eval_els_none. eexists; split; [reflexivity|auto].
    + cbn [first_this out rbind]. cbn in Hh. destruct (this c); try contradiction; cbn [function rbind]; eexists; split; try reflexivity; auto.
  - rewrite (Node_found E _ _ _ _ Hf Hc). cbn [rbind]. apply (IH ns eq_refl Hns' Ho').
Qed.

Lemma eval_path_lost E C f ns c : ns <> [] -> Forall (name E) ns -> Forall ordinary ns -> clost E (map Name ns) c -> (0 < f)%nat ->
  exists v, Eval E C f c (Some (gtree (T (bs "!p") (map elem_tree (map Name ns))))) = Ok (c, EVal v) /\ (v = VNil \/ v = VPtr None).
Proof.
  intros Hne Hns Ho Hw Hf. destruct f as [|f]; [lia|]. unfold Eval, Eval_with.
  change (ThisString E (Some (gtree (T (bs "!p") (map elem_tree (map Name ns)))))) with (Ok TypePath). cbn [rbind]. change (bseq TypePath TypePath || bseq TypePath TypeExpression) with true. cbn iota.
  cbn [evalExpression]. unfold eval_body. rewrite gtree_node, <- gforest_map. cbn - [evalPath gforest]. unfold evalPath. cbn [out].
  pose proof (eval_els_lost E C (evalExpression E C f) (Node (VStr TypePath) (gforest (map elem_tree (map Name ns)))) (map Name ns) c Hw ns eq_refl Hns Ho None [] c) as H.
  destruct ns as [|s ns]; [congruence|]. exact H.
Qed.

Theorem C46_variable_partial : forall E C f ns t c n o c' o', wf E (TVar (map Name ns) t) -> fits_t f (TVar (map Name ns) t) -> Forall ordinary ns ->
  whole E c -> walk E (map Name ns) c n -> shown E n o -> yields E C f (source t) c c' o' -> yields E C f (bs "$" ++ path ns ++ source t) c c' (o ++ o').
Proof.
  intros E C f ns t c n o c' o' Hw Hf Ho Hc Hn Hs Hy. pose proof Hw as ((Hok & Hne) & _ & Ht).
  apply (yields_after E C f (TVar (map Name ns) t) t c c o [] c' o'); auto; [lens|]. cbn [sem sem_tail].
  rewrite (eval_path_any E C f ns c n); [|destruct ns; [destruct Hne|discriminate]| |exact Ho|apply walk_cwalk; assumption|unfold fits_t in Hf; lia].
  - cbn [rbind]. rewrite (shown_text E n o Hs). reflexivity.
  - rewrite Forall_map in Hok. exact Hok.
Qed.
Print Assumptions C46_variable_partial.
Theorem C46_missing_partial : forall E C f ns t c c' o', wf E (TVar (map Name ns) t) -> fits_t f (TVar (map Name ns) t) -> Forall ordinary ns ->
  all_nodes data c -> lost E (map Name ns) c -> yields E C f (source t) c c' o' -> yields E C f (bs "$" ++ path ns ++ source t) c c' o'.
Proof.
  intros E C f ns t c c' o' Hw Hf Ho Hc Hn Hy. pose proof Hw as ((Hok & Hne) & _ & Ht). rewrite Forall_map in Hok.
  apply (yields_after E C f (TVar (map Name ns) t) t c c [] [] c' o'); auto; [lens|]. cbn [sem sem_tail].
  destruct (eval_path_lost E C f ns c) as (v & -> & Hv); auto; [destruct ns; [destruct Hne|discriminate]|apply lost_clost; assumption|unfold fits_t in Hf; lia|].
  cbn [rbind]. destruct Hv as [->| ->]; reflexivity.
Qed.
Print Assumptions C46_missing_partial.
(** The same with braces, where any text may follow. *)
Theorem C46_braces_partial : forall E C f ns t c n o c' o', wf E (TBraces (map Name ns) t) -> fits_t f (TBraces (map Name ns) t) -> Forall ordinary ns ->
  whole E c -> walk E (map Name ns) c n -> shown E n o -> yields E C f (source t) c c' o' -> yields E C f (bs "${" ++ path ns ++ bs "}" ++ source t) c c' (o ++ o').
Proof.
  intros E C f ns t c n o c' o' Hw Hf Ho Hc Hn Hs Hy. pose proof Hw as ((Hok & Hne) & Ht).
  apply (yields_after E C f (TBraces (map Name ns) t) t c c o [] c' o'); auto; [lens|]. cbn [sem sem_tail].
  rewrite (eval_path_any E C f ns c n); [|destruct ns; [destruct Hne|discriminate]| |exact Ho|apply walk_cwalk; assumption|unfold fits_t in Hf; lia].
  - cbn [rbind]. rewrite (shown_text E n o Hs). reflexivity.
  - rewrite Forall_map in Hok. exact Hok.
Qed.
Print Assumptions C46_braces_partial.
(** The claim as stated: text, variable, text. *)
Theorem C46_between_partial : forall E C f s1 ns s2 c n o, wf E (TText s1 (TVar (map Name ns) (TText s2 TEnd))) -> fits_t f (TText s1 (TVar (map Name ns) (TText s2 TEnd))) ->
  Forall ordinary ns -> whole E c -> walk E (map Name ns) c n -> shown E n o -> yields E C f (s1 ++ bs "$" ++ path ns ++ s2) c c (s1 ++ o ++ s2).
Proof.
  intros E C f s1 ns s2 c n o Hw Hf Ho Hc Hn Hs. pose proof Hw as (Hw1 & _ & Hv & Ha & Hw2 & _).
  assert (H2 : yields E C f (source (TText s2 TEnd)) c c (s2 ++ [])).
  { apply (yields_sem E C f (TText s2 TEnd)); [split; [exact Hw2|split; exact I]|lens|]. eexists. eexists. reflexivity. }
  rewrite app_nil_r in H2. 
  pose proof (C45_text_before_partial E C f s1 (TVar (map Name ns) (TText s2 TEnd)) c c (o ++ s2) Hw Hf) as K. cbn [source] in K. rewrite app_nil_r in K. apply K.
  pose proof (C46_variable_partial E C f ns (TText s2 TEnd) c n o c s2 (proj2 (proj2 Hw)) ltac:(lens) Ho Hc Hn Hs H2) as L. cbn [source] in L. rewrite app_nil_r in L. exact L.
Qed.
Print Assumptions C46_between_partial.

Lemma apart_ascii E c s t : bz c < 128 -> name_char c = false -> ~ In c (bs ".[({") -> apart E (TText (c :: s) t).
Proof. intros H1 H2 H3. split; [apply (@token_end_ascii short); assumption|]. intros c' s' K. injection K as <- <-. exact H3. Qed.
Definition ex_tm : tmpl := TText (bs "Dear ") (TVar [Name (bs "who"); Name (bs "name")] (TText (bs ", you") TEnd)).
Definition ex_tctx : graph := nd "c" [nd "who" [nd "name" [nd "Ann" []]; nd "age" [Node (VInt KInt 7) []]]; nd "n" [Node (VInt KInt 2) []]; nd "l" [nd "x" []; nd "y" []; nd "z" []]].
Lemma ex_tctx_data : all_nodes data ex_tctx.
Proof.
  assert (H : forall v k, data v -> Forall (all_nodes data) k -> all_nodes data (Node v (map Some k))) by (intros v k Hv Hk; apply all_node; assumption).
  unfold ex_tctx, nd. repeat (apply H; [exact I|]; repeat constructor); apply (H _ []); (exact I || constructor).
Qed.
Example C46_ex : source ex_tm = bs "Dear $who.name, you" /\ wf env0 ex_tm /\ fits_t 60 ex_tm /\ whole env0 ex_tctx /\
  walk env0 [Name (bs "who"); Name (bs "name")] ex_tctx (nd "name" [nd "Ann" []]) /\ shown env0 (nd "name" [nd "Ann" []]) (bs "Ann") /\
  yields env0 calls0 60 (bs "Dear $who.name, you") ex_tctx ex_tctx (bs "Dear Ann, you").
Proof.
  assert (Hw : wf env0 ex_tm).
  { split; [split; [discriminate|split; [repeat constructor; try discriminate; reflexivity|cbn; intuition discriminate]]|]. split; [exact I|].
    split; [split; [ascii_names|cbn; intuition discriminate]|]. split; [apply apart_ascii; [cbn; lia|reflexivity|cbn; intuition discriminate]|].
    split; [split; [discriminate|split; [repeat constructor; try discriminate; reflexivity|cbn; intuition discriminate]]|split; exact I]. }
  assert (Hf : fits_t 60 ex_tm) by (split; [left|]; cbn; lia).
  assert (Hwk : walk env0 [Name (bs "who"); Name (bs "name")] ex_tctx (nd "name" [nd "Ann" []])).
  { eapply (walk_key _ _ (bs "who") _ _ 0 (nd "who" [nd "name" [nd "Ann" []]; nd "age" [Node (VInt KInt 7) []]])); [reflexivity| |].
    - split; [reflexivity|]. split; [eexists; split; reflexivity|]. intros j y Hj. lia.
    - eapply (walk_key _ _ (bs "name") _ _ 0 (nd "name" [nd "Ann" []])); [reflexivity| |constructor]. split; [reflexivity|]. split; [eexists; split; reflexivity|]. intros j y Hj. lia. }
  assert (Hs : shown env0 (nd "name" [nd "Ann" []]) (bs "Ann")) by (apply (shown_leaf _ _ _ (VStr (bs "Ann"))); [reflexivity|exact I|reflexivity]).
  split; [reflexivity|]. split; [exact Hw|]. split; [exact Hf|]. split; [apply data_whole, ex_tctx_data|]. split; [exact Hwk|]. split; [exact Hs|].
  apply (C46_between_partial env0 calls0 60 (bs "Dear ") [bs "who"; bs "name"] (bs ", you") ex_tctx (nd "name" [nd "Ann" []]) (bs "Ann")); auto.
  - repeat (constructor; [intros H; repeat (destruct H as [H|H]; [discriminate H|]); exact H|]). constructor.
  - apply data_whole, ex_tctx_data.
Qed.

(** A name that ends a text longer than 4096 bytes is continued with what is 2048 bytes before
    the end of the text.  When that is a letter y and no other, the template is the one with the
    longer name. *)
Theorem C46_end_stale : forall E f A B y d t x, let s := t ++ bs "$" ++ x in
  s = A ++ y :: d :: B -> Z.of_nat (List.length (y :: d :: B)) = 2048 -> 4096 < Z.of_nat (List.length s) -> Z.of_nat (List.length s) mod 2048 <> 2047 ->
  name_char y = true -> bz d < 128 -> name_char d = false ->
  text_ok t -> x <> [] -> Forall (fun c => name_char c = true) x -> ~ In (x ++ [y]) keywords -> (List.length s + 28 <= f)%nat ->
  NewTemplate E f s = NewTemplate E f (t ++ bs "${" ++ (x ++ [y]) ++ bs "}").
Proof.
  intros E f A B y d t x s Hs HB Hl Hm Hy Hd1 Hd2 Ht Hne Hx Hk Hf.
  assert (Hxy : Forall (fun c => name_char c = true) (x ++ [y])) by (apply Forall_app; split; [exact Hx|constructor; [exact Hy|constructor]]).
  assert (Hv : var_ok E [Name (x ++ [y])]).
  { split; [constructor; [|constructor]; apply name_ascii; [destruct x; discriminate|exact Hxy]|exact Hk]. }
  change s with (t ++ "$"%byte :: x). pose proof Ht as (Ht1 & Ht2 & _).
  rewrite (NewTemplate_stale E f A B y d t x); auto; [|split; [exact Ht|split; [exact I|split; [exact Hv|split; exact I]]]|fold s; change (t ++ "$"%byte :: x) with s; lia].
  symmetry. replace (t ++ bs "${" ++ (x ++ [y]) ++ bs "}") with (source (TText t (TBraces [Name (x ++ [y])] TEnd))).
  - apply (NewTemplate_long E (TText t (TBraces [Name (x ++ [y])] TEnd)) f).
    + split; [exact Ht|]. split; [exact I|]. split; [exact Hv|exact I].
    + cbn [plain_names]. split; [constructor; [exact Hxy|constructor]|exact I].
    + cbn [source path_text elem_text flat_map]. rewrite !app_nil_r. unfold s in Hf. repeat rewrite app_length in *. cbn [List.length] in *. change (List.length (bs "${")) with 2%nat. change (List.length (bs "}")) with 1%nat. change (List.length (bs "$")) with 1%nat in Hf. lia.
  - cbn [source path_text elem_text flat_map]. rewrite !app_nil_r. reflexivity.
Qed.
Print Assumptions C46_end_stale.
(** So $x at the end gives the value of another variable. *)
Definition ex_stale : bytes := repeat x20 (Z.to_nat 2100) ++ "y"%byte :: repeat x20 (Z.to_nat 2045).
Definition ex_stale_ctx : graph := nd "c" [nd "x" [nd "1" []]; nd "xy" [nd "2" []]].
Theorem C46_end_refuted : exists E C f t x c n o o', text_ok t /\ name E x /\ ordinary x /\ walk E [Name x] c n /\ shown E n o /\ o <> o' /\
  yields E C f (t ++ bs "$" ++ x) c c (t ++ o').
Proof.
  assert (Hlen : List.length ex_stale = Z.to_nat 4146) by (unfold ex_stale; rewrite app_length; cbn [List.length]; rewrite !repeat_length; lia).
  assert (Hok : text_ok ex_stale).
  { assert (Hz : Z.of_nat (List.length ex_stale) = 4146) by (rewrite Hlen; apply Z2Nat.id; discriminate).
    assert (Hsp : forall n, Forall template_char (repeat x20 n)) by (intro n; induction n; constructor; [split; [reflexivity|discriminate]|assumption]).
    split; [intro K; rewrite K in Hz; discriminate Hz|]. split.
    - apply Forall_app. split; [apply Hsp|]. constructor; [split; [reflexivity|discriminate]|apply Hsp].
    - intro K. apply (in_map (fun m => Z.of_nat (List.length m))) in K. rewrite Hz in K. cbn in K. intuition discriminate. }
  set (f := Z.to_nat 5000).
  exists env0, calls0, f, ex_stale, (bs "x"), ex_stale_ctx, (nd "x" [nd "1" []]), (bs "1"), (bs "2").
  split; [exact Hok|]. split; [ascii_names|]. split; [intros H; repeat (destruct H as [H|H]; [discriminate H|]); exact H|].
  split; [eapply walk_key with (i := O); [reflexivity| |constructor]; split; [reflexivity|]; split; [eexists; split; reflexivity|intros j z Hj; lia]|].
  split; [apply (shown_leaf _ _ _ (VStr (bs "1"))); [reflexivity|exact I|reflexivity]|]. split; [discriminate|].
  assert (Hn : NewTemplate env0 f (ex_stale ++ bs "$" ++ bs "x") = NewTemplate env0 f (ex_stale ++ bs "${" ++ (bs "x" ++ [("y")%byte]) ++ bs "}")).
  { assert (Hl : Z.of_nat (List.length (ex_stale ++ bs "$" ++ bs "x")) = 4148) by (rewrite app_length, Hlen, Nat2Z.inj_add; reflexivity).
    apply (C46_end_stale env0 f (repeat x20 (Z.to_nat 2100)) (repeat x20 (Z.to_nat 2044) ++ bs "$x") "y" x20 ex_stale (bs "x")).
    - unfold ex_stale. replace (Z.to_nat 2045) with (S (Z.to_nat 2044)) by lia. cbn [repeat]. rewrite <- app_assoc. reflexivity.
    - cbn [List.length]. rewrite app_length, repeat_length. change (List.length (bs "$x")) with 2%nat. lia.
    - lia.
    - rewrite Hl. discriminate.
    - reflexivity.
    - reflexivity.
    - reflexivity.
    - exact Hok.
    - discriminate.
    - repeat constructor.
    - cbn. intuition discriminate.
    - unfold f. lia. }
  assert (Hw : wf env0 (TText ex_stale (TBraces (map Name [bs "xy"]) TEnd))).
  { split; [exact Hok|]. split; [exact I|]. split; [|exact I]. split; [cbn [map]; ascii_names|cbn; intuition discriminate]. }
  assert (Hf : fits_t f (TText ex_stale (TBraces (map Name [bs "xy"]) TEnd))).
  { split.
    - right. split; [|exact I]. cbn [plain_names]. split; [constructor; [repeat constructor|constructor]|exact I].
    - cbn [source]. rewrite app_length, Hlen. change (List.length (bs "${" ++ path_text (map Name [bs "xy"]) ++ bs "}" ++ [])) with 5%nat. unfold f. lia. }
  assert (Hy : yields env0 calls0 f (source (TText ex_stale (TBraces (map Name [bs "xy"]) TEnd))) ex_stale_ctx ex_stale_ctx (ex_stale ++ bs "2")).
  { apply (C45_text_before_partial env0 calls0 f ex_stale (TBraces (map Name [bs "xy"]) TEnd)); [exact Hw|exact Hf|].
    apply (C46_braces_partial env0 calls0 f [bs "xy"] TEnd ex_stale_ctx (nd "xy" [nd "2" []]) (bs "2") ex_stale_ctx []); [exact (proj2 (proj2 Hw))|lens| | | | |].
    - constructor; [|constructor]. intros H. repeat (destruct H as [H|H]; [discriminate H|]). exact H.
    - apply data_whole. apply (all_node _ _ [nd "x" [nd "1" []]; nd "xy" [nd "2" []]]); [exact I|]. repeat (constructor; [repeat (apply (all_node _ _ [_]); [exact I|constructor; [|constructor]]); apply (all_node _ _ []); [exact I|constructor]|]). constructor.
    - eapply walk_key with (i := 1%nat); [reflexivity| |constructor]. split; [reflexivity|]. split; [eexists; split; reflexivity|].
      intros j z Hj Hz. assert (j = O) by lia. subst j. injection Hz as <-. intros (n & Hn1 & Hn2). injection Hn1 as <-. discriminate Hn2.
    - apply (shown_leaf _ _ _ (VStr (bs "2"))); [reflexivity|exact I|reflexivity].
    - apply yields_sem; [exact I|lens|]. eexists. eexists. reflexivity. }
  destruct Hy as (g & Hg & Hp). exists g. split; [|exact Hp]. rewrite Hn. cbn [source] in Hg. change (path_text (map Name [bs "xy"])) with (bs "x" ++ ["y"%byte]) in Hg. rewrite app_nil_r in Hg. exact Hg.
Qed.
Print Assumptions C46_end_refuted.
(** A template longer than the buffer to which the theorems above apply: spaces, then $x, then more text. *)
Example C46_long_ex : let t := TText (repeat x20 (Z.to_nat 5000)) (TVar [Name (bs "x")] (TText (bs ", you") TEnd)) in
  wf env0 t /\ legible t /\ Z.of_nat (List.length (source t)) = 5007.
Proof.
  cbv zeta. split; [|split].
  - split; [|split; [exact I|split; [split; [ascii_names|cbn; intuition discriminate]|split; [apply apart_ascii; [cbn; lia|reflexivity|cbn; intuition discriminate]|]]]].
    + split; [intro K; apply (f_equal (fun m => Z.of_nat (List.length m))) in K; rewrite repeat_length, Z2Nat.id in K by discriminate; discriminate K|]. split.
      * apply Forall_forall. intros c Hc. apply repeat_spec in Hc. subst c. split; [reflexivity|discriminate].
      * intro K. apply (in_map (fun m => Z.of_nat (List.length m))) in K. rewrite repeat_length, Z2Nat.id in K by discriminate. cbn in K. intuition discriminate.
    + split; [split; [discriminate|split; [repeat constructor; try discriminate; reflexivity|cbn; intuition discriminate]]|split; exact I].
  - right. split; [|exact I]. cbn [plain_names stopped]. split; [constructor; [repeat constructor|constructor]|split; [reflexivity|exact I]].
  - cbn [source]. rewrite app_length, repeat_length, Nat2Z.inj_add, Z2Nat.id by discriminate. reflexivity.
Qed.

(** ** C47 Conditionals.  Full claim: every chain of conditions and bodies.  Here: within the
    syntax of TemplateSpec; longer than 4094 bytes under the conditions of [legible]. *)
(** The condition e is true or false in the context c, which becomes c1. *)
Definition cond (E : env) (C : calls) (f : nat) (e : expr) (c : graph) (b : bool) (c1 : graph) : Prop :=
  exists g, NewExpression E f (expr_src e) = Ok g /\ evalBool E C f c (Some g) = Ok (c1, b).
(** The first branch whose condition holds, else the last resort *)
Inductive chosen (E : env) (C : calls) (f : nat) (last : tmpl) : list (expr * tmpl) -> graph -> tmpl -> graph -> Prop :=
| chosen_last c : chosen E C f last [] c last c
| chosen_this e b l c c1 : cond E C f e c true c1 -> chosen E C f last ((e, b) :: l) c b c1
| chosen_later e b l c c1 b' c2 : cond E C f e c false c1 -> chosen E C f last l c1 b' c2 -> chosen E C f last ((e, b) :: l) c b' c2.

Lemma cond_sem E C f e c b c1 : expr_ok E e -> Z.of_nat (List.length (expr_src e)) <= 4094 -> (List.length (expr_src e) + 8 <= f)%nat ->
  cond E C f e c b c1 -> evalBool E C f c (Some (gtree (texpr e))) = Ok (c1, b).
Proof. intros He Hl Hf (g & Hg & Hb). rewrite (expr_graph E f e He Hl Hf) in Hg. injection Hg as <-. exact Hb. Qed.
Lemma chosen_tail E C f : forall r c b c1 c2 o, wf_tail E r -> fits_tail f r ->
  chosen E C f (otherwise r) (branches r) c b c1 -> yields E C f (source b) c1 c2 o -> exists d, sem_tail E C f r c = Ok (c2, o, d).
Proof.
  induction r as [|b0|e b0 r IH]; intros c b c1 c2 o Hw Hf Hc Hy; cbn [branches otherwise] in *.
  - inversion Hc; subst. apply yields_sem in Hy; [|exact I|clear - Hf; destruct Hf as (_ & Hf); split; [left|]; cbn in *; lia]. destruct Hy as (d & bb & Hy). cbn [sem sem_tail] in Hy. injection Hy as <- <- <- <-. eexists. reflexivity.
  - rewrite sem_else. inversion Hc; subst. apply yields_sem in Hy; [|apply Hw|lens]. destruct Hy as (d & bb & Hy). rewrite Hy. eexists. reflexivity.
  - rewrite sem_elseif. destruct Hw as (He & Ha & Hb & Hr). inversion Hc as [|? ? ? ? ? Hy1|? ? ? ? c3 ? ? Hn1 Hrest]; subst.
    + rewrite (cond_sem E C f e c true c1 He ltac:(lens) ltac:(lens) Hy1). cbn [rbind]. apply yields_sem in Hy; [|exact Hb|lens]. destruct Hy as (d & bb & Hy). rewrite Hy. eexists. reflexivity.
    + rewrite (cond_sem E C f e c false c3 He ltac:(lens) ltac:(lens) Hn1). cbn [rbind]. apply (IH c3 b c1 c2 o Hr); auto; lens.
Qed.
Theorem C47_branch_partial : forall E C f e b r t c b' c1 c2 o c3 o', wf E (TIf e b r t) -> fits_t f (TIf e b r t) ->
  chosen E C f (otherwise r) ((e, b) :: branches r) c b' c1 -> yields E C f (source b') c1 c2 o -> yields E C f (source t) c2 c3 o' ->
  yields E C f (source (TIf e b r t)) c c3 (o ++ o').
Proof.
  intros E C f e b r t c b' c1 c2 o c3 o' Hw Hf Hc Hy Ht. pose proof Hw as (He & Ha & Hb & Hr & _ & Hwt).
  assert (Hd : exists d, sem_tail E C f (ElseIf e b r) c = Ok (c2, o, d)).
  { eapply (chosen_tail E C f (ElseIf e b r)); [exact (conj He (conj Ha (conj Hb Hr)))| |exact Hc|exact Hy]. lens. }
  destruct Hd as (d & Hd). apply (yields_after E C f (TIf e b r t) t c c2 o d c3 o'); auto; [lens|]. rewrite sem_if, Hd. reflexivity.
Qed.
Print Assumptions C47_branch_partial.
(** Conditions that denote truth values (see EvalSpec) *)
Theorem C47_condition_partial : forall E C f e c b, expr_ok E e -> Z.of_nat (List.length (expr_src e)) <= 4094 -> (List.length (expr_src e) + 8 <= f)%nat -> (S (height (etr e)) <= f)%nat ->
  whole E c -> den E c (etr e) (Some (DB b)) -> cond E C f e c b c.
Proof.
  intros E C f e c b He Hl Hf Hh Hc Hd. exists (gtree (texpr e)). split; [apply expr_graph; assumption|].
  destruct f as [|f]; [lia|]. destruct (eval_den E C c (etr e) (Some (DB b)) Hc Hd f ltac:(lia)) as (v & Hv & Hb).
  unfold evalBool, evalBool_with. pose proof (Eval_expression E C f (etree_tree (etr e)) c) as K. unfold Eval in K.
  change (Node (VStr TypeExpression) [Some (gtree (etree_tree (etr e)))]) with (gtree (texpr e)) in K. rewrite K, Hv. cbn [rbind]. cbn in Hb. subst v. reflexivity.
Qed.
Print Assumptions C47_condition_partial.

(** A comparison of a variable with a number *)
Definition ex_cmp (n : bytes) (op : optor) (d : bytes) : expr := mkE (OPath [Name n]) [mkStep [] op [] (ONum d)] (Bin op (Leaf (OPath [Name n])) (Leaf (ONum d))).
Definition ex_if (t : tmpl) : tmpl :=
  TIf (ex_cmp (bs "n") Gt (bs "2")) (TText (bs " many") TEnd)
    (ElseIf (ex_cmp (bs "n") EqEq (bs "2")) (TText (bs " two") TEnd) (Else (TText (bs " few") TEnd))) t.
Lemma ex_cmp_ok n op d : var_name env0 n -> digits d -> In op [Gt; EqEq] -> expr_ok env0 (ex_cmp n op d).
Proof.
  intros (Hn & Hl) Hd Ho. unfold expr_ok, ex_cmp. cbn [lead steps etr]. split; [split; [repeat constructor; apply Hn|exact Hl]|].
  split; [constructor; [|constructor]; split; [constructor|]; split; [constructor|]; split|].
  - exists [], d, []. rewrite app_nil_r. split; [reflexivity|]. split; [left; reflexivity|]. split; [exact Hd|left; reflexivity].
  - cbn [rand operand_text]. destruct Hd as (_ & Hd). destruct d as [|c d]; [exact I|]. intros ->. inversion Hd as [|? ? K _]; subst. exfalso. cbn in K. lia.
  - split; [reflexivity|]. split; [reflexivity|]. destruct Ho as [<-|[<-|[]]]; cbn; lia.
Qed.
Lemma ex_texts_ok s : In s [bs " many"; bs " two"; bs " few"; bs "; "; bs "!"] -> text_ok s /\ apart env0 (TText s TEnd).
Proof.
  intro H. incases H; (split; [split; [discriminate|split; [repeat constructor; try discriminate; reflexivity|cbn; intuition discriminate]]|apply apart_ascii; [cbn; lia|reflexivity|cbn; intuition discriminate]]).
Qed.
Lemma ex_n_ok : var_name env0 (bs "n").
Proof. split; [ascii_names|]. split; [left; reflexivity|split; [cbn; lia|discriminate]]. Qed.
Lemma ex_if_ok : wf env0 (ex_if (TText (bs "!") TEnd)).
Proof.
  pose proof ex_texts_ok as X. pose proof ex_n_ok as Hn. assert (Hd : digits (bs "2")) by (split; [discriminate|repeat constructor; cbn; lia]).
  cbn [ex_if wf wf_tail]. split; [apply ex_cmp_ok; cbn; auto|]. split; [apply X; cbn; auto|]. split; [split; [apply X; cbn; auto|split; exact I]|].
  split; [|split; [apply X; cbn; tauto|split; [apply X; cbn; tauto|split; exact I]]].
  split; [apply ex_cmp_ok; cbn; auto|]. split; [apply X; cbn; auto|]. split; [split; [apply X; cbn; auto|split; exact I]|].
  split; [apply X; cbn; auto|split; [apply X; cbn; auto|split; exact I]].
Qed.
Example C47_ex : source (ex_if (TText (bs "!") TEnd)) = bs "$if(n>2) many$elseif(n==2) two$else few$end!" /\
  wf env0 (ex_if (TText (bs "!") TEnd)) /\ fits_t 100 (ex_if (TText (bs "!") TEnd)) /\
  chosen env0 calls0 100 (TText (bs " few") TEnd) [(ex_cmp (bs "n") Gt (bs "2"), TText (bs " many") TEnd); (ex_cmp (bs "n") EqEq (bs "2"), TText (bs " two") TEnd)]
    ex_tctx (TText (bs " two") TEnd) ex_tctx /\
  yields env0 calls0 100 (bs "$if(n>2) many$elseif(n==2) two$else few$end!") ex_tctx ex_tctx (bs " two!").
Proof.
  assert (Hd : digits (bs "2")) by (split; [discriminate|repeat constructor; cbn; lia]). pose proof ex_n_ok as Hn.
  assert (Hnum : den env0 ex_tctx (Leaf (ONum (bs "2"))) (Some (DI 2))) by (apply (den_num env0 ex_tctx 2); unfold in64; lia).
  assert (Hvar : den env0 ex_tctx (Leaf (OPath [Name (bs "n")])) (Some (DI 2))).
  { apply (den_path env0 ex_tctx [bs "n"] (nd "n" [Node (VInt KInt 2) []]) (VInt KInt 2) (DI 2)); [discriminate|ascii_names| | |reflexivity|].
    - constructor; [|constructor]. intros H. repeat (destruct H as [H|H]; [discriminate H|]). exact H.
    - eapply walk_key with (i := 1%nat); [reflexivity| |constructor]. split; [reflexivity|]. split; [eexists; split; reflexivity|].
      intros j y Hj Hy. assert (j = O) by lia. subst j. injection Hy as <-. intros (n & Hn1 & Hn2). injection Hn1 as <-. discriminate Hn2.
    - split; [unfold in64; lia|eexists; reflexivity]. }
  assert (Hch : chosen env0 calls0 100 (TText (bs " few") TEnd) [(ex_cmp (bs "n") Gt (bs "2"), TText (bs " many") TEnd); (ex_cmp (bs "n") EqEq (bs "2"), TText (bs " two") TEnd)]
    ex_tctx (TText (bs " two") TEnd) ex_tctx).
  { apply (chosen_later _ _ _ _ _ _ _ _ ex_tctx).
    - apply C47_condition_partial; [apply ex_cmp_ok; cbn; auto|cbn; lia|cbn; lia|cbn; lia|apply data_whole, ex_tctx_data|]. eapply den_order; [exact Hvar|exact Hnum|]. cbn. split; [discriminate|lia].
    - apply chosen_this. apply C47_condition_partial; [apply ex_cmp_ok; cbn; auto|cbn; lia|cbn; lia|cbn; lia|apply data_whole, ex_tctx_data|]. eapply den_order; [exact Hvar|exact Hnum|]. cbn. tauto. }
  assert (Hf : fits_t 100 (ex_if (TText (bs "!") TEnd))) by (split; [left|]; cbn; lia).
  split; [reflexivity|]. split; [exact ex_if_ok|]. split; [exact Hf|]. split; [exact Hch|].
  apply (C47_branch_partial env0 calls0 100 _ _ _ (TText (bs "!") TEnd) ex_tctx (TText (bs " two") TEnd) ex_tctx ex_tctx (bs " two") ex_tctx (bs "!") ex_if_ok Hf Hch).
  - apply C45_text_partial; [repeat constructor; try discriminate; reflexivity|cbn; intuition discriminate|cbn; lia].
  - apply C45_text_partial; [repeat constructor; try discriminate; reflexivity|cbn; intuition discriminate|cbn; lia].
Qed.

(** ** C48 Loops.  Full claim: every list and body; $break also inside a conditional.  Here:
    within the syntax of TemplateSpec, longer than 4094 bytes under the conditions of
    [legible]; the expression's value is a graph
    (a list of a single leaf is not, see below); the body has no loop over the same variable.  The
    loop variable holds the element itself, so that an assignment in the body may change the list,
    and a loop over the context would be over its own variable too (see C84): such templates are
    left out ([silent], gi <> c1).
    The context's direct subnodes must be comparable (see C25). *)
(** The subnodes that the loop visits: of an index expression those of the element. *)
Definition listed (E : env) (gi : graph) (l : list graph) : Prop :=
  out gi <> [] /\
  ((exists s, ThisString E (Some gi) = Ok s /\ s <> bs "[" /\ out gi = map Some l) \/
   (ThisString E (Some gi) = Ok (bs "[") /\ exists h r, out gi = Some h :: r /\ out h = map Some l)).
(** The context with the variable x, which is its subnode, bound to the element e *)
Definition bound (x : bytes) (e : graph) (c c1 : graph) : Prop :=
  exists a k z, out c = a ++ Some (Node (VStr x) k) :: z /\ (forall n, In (Some n) a -> this n <> VStr x) /\
    c1 = Node (this c) (a ++ Some (Node (VStr x) [Some e]) :: z).
(** One element after the other *)
Inductive visits (E : env) (C : calls) (f : nat) (x body : bytes) : list graph -> graph -> graph -> bytes -> Prop :=
| visits_none c : visits E C f x body [] c c []
| visits_next e l c c1 c2 c3 o o' : bound x e c c1 -> yields E C f body c1 c2 o -> visits E C f x body l c2 c3 o' -> visits E C f x body (e :: l) c c3 (o ++ o').

Lemma bound_bind x e c c1 : bound x e c c1 -> Node (this c) (bind_var x (add_out (VPtr (Some e))) (out c)) = c1.
Proof.
  intros (a & k & z & Ho & Ha & ->). f_equal. rewrite Ho. clear Ho. induction a as [|n a IH]; cbn [app bind_var].
  - rewrite bseq_refl. reflexivity.
  - destruct n as [[v l]|].
    + rewrite IH by (intros n Hn; apply Ha; right; exact Hn). destruct v; try reflexivity. destruct (bseq s x) eqn:Es; [|reflexivity].
      apply bseq_eq in Es. subst. exfalso. exact (Ha _ (or_introl eq_refl) eq_refl).
    + rewrite IH by (intros n Hn; apply Ha; right; exact Hn). reflexivity.
Qed.
Lemma visits_loop E C f x b : wf E b -> fits_t f b -> ~ In x (loop_vars b) -> forall l l' c c' o, l' = (if broken b then firstn 1 l else l) -> visits E C f x (source b) l' c c' o ->
  exists d, for_loop (fun _ => sem E C f b) x None true (map Some l) c = Ok (c', o, d).
Proof.
  intros Hw Hf Hx. induction l as [|e l IH]; intros l' c c' o El Hv.
  - assert (K : l' = []) by (destruct (broken b); exact El). rewrite K in Hv. inversion Hv; subst. eexists. reflexivity.
  - destruct l' as [|e' l']; [destruct (broken b); discriminate El|]. assert (e' = e) by (destruct (broken b); cbn in El; congruence). subst e'.
    inversion Hv as [|? ? ? c1 c2 ? o1 o2 Hb Hy Hr]; subst. cbn [map for_loop]. rewrite (bound_bind x e c c1 Hb).
    apply yields_sem in Hy; auto. destruct Hy as (d & brk & Hs). rewrite Hs. cbn [rbind]. pose proof (broken_sem E C f b _ _ _ _ _ Hs) as Eb. subst brk.
    destruct (broken b).
    + injection El as El. cbn [firstn] in El. subst l'. inversion Hr; subst. rewrite app_nil_r. eexists. reflexivity.
    + injection El as El. subst l'. assert (Hn : negb (existsb (bseq x) d) = true).
      { apply negb_true_iff. apply not_true_is_false. intro K. apply existsb_exists in K as (y & Hy & Ey). apply bseq_eq in Ey. subst y.
        exact (Hx (proj1 (sem_vars E C f) b _ _ _ _ _ Hs _ Hy)). }
      rewrite Hn. cbn [andb]. destruct (IH l c2 c' o2 eq_refl Hr) as (d2 & Hl). rewrite Hl. eexists. reflexivity.
Qed.

Theorem C48_loop_partial : forall E C f x e b t c g c1 gi l o' c2 o c3 o2, wf E (TFor x e b t) -> fits_t f (TFor x e b t) -> ~ In x (loop_vars b) ->
  NewExpression E f (expr_src e) = Ok g -> Eval E C f c (Some g) = Ok (c1, EVal (VPtr (Some gi))) -> listed E gi l ->
  gi <> c1 -> silent b ->
  Forall (fun n => exists m, n = Some m /\ comparable (this m)) (out c1) -> deleted (VStr x) (out c1) o' ->
  visits E C f x (source b) (if broken b then firstn 1 l else l) (Node (this c1) (o' ++ [Some (Node (VStr x) [])])) c2 o ->
  yields E C f (source t) c2 c3 o2 ->
  yields E C f (source (TFor x e b t)) c c3 (o ++ o2).
Proof.
  intros E C f x e b t c g c1 gi l o' c2 o c3 o2 Hw Hf Hx Hg He Hl _ _ Hc Hd Hv Ht. pose proof Hw as (Hn & Hok & _ & Hb & _ & Hwt).
  rewrite expr_graph in Hg by (auto; lens). assert (Eg : g = gtree (texpr e)) by congruence. clear Hg. subst g.
  destruct (visits_loop E C f x b Hb ltac:(lens) Hx l _ _ _ _ eq_refl Hv) as (d & Hloop).
  apply (yields_after E C f (TFor x e b t) t c c2 o (x :: d) c3 o2); auto; [lens|]. cbn [sem sem_tail].
  enough (Hs : sem_for E C f x e (sem E C f b) c = Ok (c2, o, x :: d)) by (rewrite Hs; reflexivity).
  unfold sem_for. rewrite He. cbn [rbind]. destruct Hl as (Hne & Hl). destruct (out gi) as [|fi r] eqn:Eo; [congruence|].
  destruct (Delete_spec E (this c1) (out c1) (VStr x) I Hc) as (o'' & Hdel & Hd'). rewrite (C25_deleted_unique _ _ _ _ Hd' Hd) in Hdel.
  assert (Ec : c1 = Node (this c1) (out c1)) by (destruct c1; reflexivity). rewrite <- Ec in Hdel.
  destruct Hl as [(s & Hs & Hs2 & Hl)|(Hs & h & r' & Hr & Hl)].
  - rewrite Hs. cbn [rbind]. apply bseq_neq in Hs2. rewrite Hs2. cbn [rbind]. rewrite Hdel. cbn [rbind this out]. rewrite Hl. unfold New. rewrite Hloop. reflexivity.
  - rewrite Hs. cbn [rbind]. change (bseq (bs "[") (bs "[")) with true. cbn iota. injection Hr as -> ->. cbn [rbind]. rewrite Hdel. cbn [rbind this out]. rewrite Hl. unfold New. rewrite Hloop. reflexivity.
Qed.
Print Assumptions C48_loop_partial.
(** $break ends the processing of the part of the template it is in. *)
Theorem C48_break_partial : forall E C f t c, wf E (TBreak t) -> fits_t f (TBreak t) -> yields E C f (source (TBreak t)) c c [].
Proof. intros E C f t c Hw Hf. apply yields_sem; auto. eexists. eexists. reflexivity. Qed.
Print Assumptions C48_break_partial.
(** Values that are not graphs with subnodes are not visited. *)
Theorem C48_nothing_partial : forall E C f x e b t c g c1 v c3 o2, wf E (TFor x e b t) -> fits_t f (TFor x e b t) ->
  NewExpression E f (expr_src e) = Ok g -> Eval E C f c (Some g) = Ok (c1, EVal v) -> (forall gi, v = VPtr (Some gi) -> out gi = []) ->
  yields E C f (source t) c1 c3 o2 -> yields E C f (source (TFor x e b t)) c c3 o2.
Proof.
  intros E C f x e b t c g c1 v c3 o2 Hw Hf Hg He Hv Ht. pose proof Hw as (Hn & Hok & _ & Hb & _ & Hwt). rewrite expr_graph in Hg by (auto; lens). assert (Eg : g = gtree (texpr e)) by congruence. clear Hg. subst g.
  apply (yields_after E C f (TFor x e b t) t c c1 [] [] c3 o2); auto; [lens|]. cbn [sem sem_tail]. unfold sem_for. rewrite He. cbn [rbind].
  destruct v as [| | | | | | |[gi|]| | |]; try reflexivity. rewrite (Hv gi eq_refl). reflexivity.
Qed.
Print Assumptions C48_nothing_partial.

Definition ex_var (x : bytes) : expr := mkE (OPath [Name x]) [] (Leaf (OPath [Name x])).
Definition ex_body : tmpl := TVar [Name (bs "v")] (TText (bs "; ") TEnd).
Definition ex_for (t : tmpl) : tmpl := TFor (bs "v") (ex_var (bs "l")) ex_body t.
Lemma ex_v_ok : var_name env0 (bs "v") /\ var_name env0 (bs "l") /\ var_name env0 (bs "one").
Proof. split; [|split]; (split; [ascii_names|]; split; [left; reflexivity|split; [cbn; lia|discriminate]]). Qed.
Lemma ex_body_ok : wf env0 ex_body.
Proof.
  split; [split; [ascii_names|cbn; intuition discriminate]|]. split; [apply (ex_texts_ok (bs "; ")); cbn; auto|]. split; [apply ex_texts_ok; cbn; tauto|split; exact I].
Qed.
Lemma ex_for_ok : wf env0 (ex_for (TText (bs "!") TEnd)).
Proof.
  split; [apply ex_v_ok|]. split; [apply (var_expr_ok env0 (bs "l")), ex_v_ok|]. split; [exact I|]. split; [exact ex_body_ok|].
  split; [apply ex_texts_ok; cbn; tauto|]. split; [apply ex_texts_ok; cbn; tauto|split; exact I].
Qed.
(** The context with v bound *)
Definition ex_with (k : list graph) : graph := Node (VStr (bs "c")) (out ex_tctx ++ [Some (nd "v" k)]).
Example C48_ex : source (ex_for (TText (bs "!") TEnd)) = bs "$for(v,l)$v; $end!" /\ wf env0 (ex_for (TText (bs "!") TEnd)) /\ fits_t 60 (ex_for (TText (bs "!") TEnd)) /\
  broken ex_body = false /\ ~ In (bs "v") (loop_vars ex_body) /\
  NewExpression env0 60 (bs "l") = Ok (gtree (texpr (ex_var (bs "l")))) /\
  Eval env0 calls0 60 ex_tctx (Some (gtree (texpr (ex_var (bs "l"))))) = Ok (ex_tctx, EVal (VPtr (Some (nd "l" [nd "x" []; nd "y" []; nd "z" []])))) /\
  listed env0 (nd "l" [nd "x" []; nd "y" []; nd "z" []]) [nd "x" []; nd "y" []; nd "z" []] /\
  nd "l" [nd "x" []; nd "y" []; nd "z" []] <> ex_tctx /\ silent ex_body /\
  Forall (fun n => exists m, n = Some m /\ comparable (this m)) (out ex_tctx) /\ deleted (VStr (bs "v")) (out ex_tctx) (out ex_tctx) /\
  visits env0 calls0 60 (bs "v") (source ex_body) [nd "x" []; nd "y" []; nd "z" []] (ex_with []) (ex_with [nd "z" []]) (bs "x; y; z; ") /\
  yields env0 calls0 60 (bs "$for(v,l)$v; $end!") ex_tctx (ex_with [nd "z" []]) (bs "x; y; z; !").
Proof.
  assert (Hf : fits_t 60 (ex_for (TText (bs "!") TEnd))) by (split; [left|]; cbn; lia).
  assert (Hb : forall k e, bound (bs "v") e (ex_with k) (ex_with [e])).
  { intros k e. exists (out ex_tctx), (map Some k), []. split; [reflexivity|]. split; [|reflexivity]. intros n Hn. cbn in Hn. repeat (destruct Hn as [Hn|Hn]; [injection Hn as <-; discriminate|]). destruct Hn. }
  assert (Hy : forall s, yields env0 calls0 60 (source ex_body) (ex_with [nd s []]) (ex_with [nd s []]) (bs s ++ bs "; ")).
  { intro s. apply yields_sem; [exact ex_body_ok|split; [left|]; cbn; lia|]. eexists. eexists. reflexivity. }
  assert (Hv : visits env0 calls0 60 (bs "v") (source ex_body) [nd "x" []; nd "y" []; nd "z" []] (ex_with []) (ex_with [nd "z" []]) (bs "x; y; z; ")).
  { change (bs "x; y; z; ") with ((bs "x" ++ bs "; ") ++ (bs "y" ++ bs "; ") ++ (bs "z" ++ bs "; ") ++ []).
    eapply visits_next; [apply Hb|apply Hy|]. eapply visits_next; [apply Hb|apply Hy|]. eapply visits_next; [apply Hb|apply Hy|constructor]. }
  assert (Hd : deleted (VStr (bs "v")) (out ex_tctx) (out ex_tctx)) by (cbn; repeat (apply del_keep; [intro K; inversion K|]); constructor).
  assert (He : NewExpression env0 60 (bs "l") = Ok (gtree (texpr (ex_var (bs "l"))))).
  { apply (expr_graph env0 60 (ex_var (bs "l"))); [apply (var_expr_ok env0 (bs "l")), ex_v_ok|cbn; lia|cbn; lia]. }
  assert (Hev : Eval env0 calls0 60 ex_tctx (Some (gtree (texpr (ex_var (bs "l"))))) = Ok (ex_tctx, EVal (VPtr (Some (nd "l" [nd "x" []; nd "y" []; nd "z" []]))))) by reflexivity.
  assert (Hl : listed env0 (nd "l" [nd "x" []; nd "y" []; nd "z" []]) [nd "x" []; nd "y" []; nd "z" []]) by (split; [discriminate|left; exists (bs "l"); split; [reflexivity|split; [discriminate|reflexivity]]]).
  assert (Hc : Forall (fun n => exists m, n = Some m /\ comparable (this m)) (out ex_tctx)) by (repeat (constructor; [eexists; split; [reflexivity|exact I]|]); constructor).
  split; [reflexivity|]. split; [exact ex_for_ok|]. split; [exact Hf|]. split; [reflexivity|]. split; [intros []|]. split; [exact He|]. split; [exact Hev|]. split; [exact Hl|]. split; [discriminate|]. split; [exact I|]. split; [exact Hc|]. split; [exact Hd|]. split; [exact Hv|].
  apply (C48_loop_partial env0 calls0 60 (bs "v") (ex_var (bs "l")) ex_body (TText (bs "!") TEnd) ex_tctx _ ex_tctx _ [nd "x" []; nd "y" []; nd "z" []] (out ex_tctx) (ex_with [nd "z" []]) (bs "x; y; z; ") (ex_with [nd "z" []]) (bs "!") ex_for_ok Hf ltac:(intros []) He Hev Hl ltac:(discriminate) I Hc Hd Hv).
  apply C45_text_partial; [repeat constructor; try discriminate; reflexivity|cbn; intuition discriminate|cbn; lia].
Qed.

(** $break inside a conditional does not end the loop: in a context where the condition holds
    the list x, y, z is still visited to its end. *)
Definition ex_break : tmpl :=
  TFor (bs "v") (ex_var (bs "l")) (TVar [Name (bs "v")] (TIf (ex_cmp (bs "n") EqEq (bs "2")) (TBreak TEnd) Fi TEnd)) TEnd.
Theorem C48_break_refuted : exists E C f c c', source ex_break = bs "$for(v,l)$v$if(n==2)$break$end$end" /\
  cond E C f (ex_cmp (bs "n") EqEq (bs "2")) c true c /\ yields E C f (source ex_break) c c' (bs "xyz").
Proof.
  assert (Hd : digits (bs "2")) by (split; [discriminate|repeat constructor; cbn; lia]). pose proof ex_n_ok as Hn.
  assert (Hw : wf env0 ex_break).
  { split; [apply ex_v_ok|]. split; [apply (var_expr_ok env0 (bs "l")), ex_v_ok|]. split; [exact I|]. split; [|split; exact I].
    split; [split; [ascii_names|cbn; intuition discriminate]|]. split; [exact I|]. split; [apply ex_cmp_ok; cbn; auto|]. repeat split. }
  exists env0, calls0, 70%nat, ex_tctx. eexists. split; [reflexivity|]. split.
  - exists (gtree (texpr (ex_cmp (bs "n") EqEq (bs "2")))). split; [apply expr_graph; [apply ex_cmp_ok; cbn; auto|cbn; lia|cbn; lia]|reflexivity].
  - apply yields_sem; [exact Hw|split; [left|]; cbn; lia|]. eexists. eexists. reflexivity.
Qed.
Print Assumptions C48_break_refuted.
(** A list with a single leaf is not visited. *)
Theorem C48_single_refuted : exists E C f c n, walk E [Name (bs "one")] c n /\ out n = [Some (nd "x" [])] /\
  yields E C f (bs "$for(v,one)$v; $end") c c [].
Proof.
  exists env0, calls0, 60%nat, (nd "c" [nd "one" [nd "x" []]]), (nd "one" [nd "x" []]).
  split; [eapply walk_key with (i := O); [reflexivity| |constructor]; split; [reflexivity|]; split; [eexists; split; reflexivity|intros j y Hj; lia]|]. split; [reflexivity|].
  apply (yields_sem env0 calls0 60 (TFor (bs "v") (ex_var (bs "one")) ex_body TEnd)).
  - split; [apply ex_v_ok|]. split; [apply (var_expr_ok env0 (bs "one")), ex_v_ok|]. split; [exact I|]. split; [exact ex_body_ok|]. split; exact I.
  - split; [left|]; cbn; lia.
  - eexists. eexists. reflexivity.
Qed.
Print Assumptions C48_single_refuted.

(** ** C39 NewTemplate and NewExpression do not run forever: on an ASCII text that fits in the
    lexer's buffer they return a graph or panic.  Full claim: they return a graph, for every
    text. *)
Theorem C39_template_partial : forall E s fuel, ascii s -> Z.of_nat (List.length s) <= 4094 -> (5 * List.length s + 4 <= fuel)%nat ->
  (exists g, NewTemplate E fuel s = Ok g) \/ NewTemplate E fuel s = Panic.
Proof.
  intros E s fuel Hs Hl Hf. destruct (template_total E s fuel (ascii_well_lettered E s Hs) Hl Hf) as (g & ->). pose proof (nest_stops g) as H.
  destruct (nest g) as [t| |]; [eauto|auto|congruence].
Qed.
Print Assumptions C39_template_partial.
Theorem C39_expression_stops_partial : forall E s fuel, ascii s -> Z.of_nat (List.length s) <= 4094 -> (5 * List.length s + 4 <= fuel)%nat ->
  (exists g, NewExpression E fuel s = Ok g) \/ NewExpression E fuel s = Panic.
Proof.
  intros E s fuel Hs Hl Hf. destruct (expr_total E s fuel (ascii_well_lettered E s Hs) Hl Hf) as (l & ->). pose proof (ast_stops (Node (VStr TypeExpression) l) true) as H.
  destruct (ast_ true _) as [t| |]; [eauto|auto|congruence].
Qed.
Print Assumptions C39_expression_stops_partial.
(** The same for texts beyond ASCII, if every byte that is a Latin-1 letter begins a letter in
    UTF-8. *)
Theorem C39_template_utf8_partial : forall E s fuel, well_lettered E s -> Z.of_nat (List.length s) <= 4094 -> (5 * List.length s + 4 <= fuel)%nat ->
  (exists g, NewTemplate E fuel s = Ok g) \/ NewTemplate E fuel s = Panic.
Proof.
  intros E s fuel Hs Hl Hf. destruct (template_total E s fuel Hs Hl Hf) as (g & ->). pose proof (nest_stops g) as H.
  destruct (nest g) as [t| |]; [eauto|auto|congruence].
Qed.
Print Assumptions C39_template_utf8_partial.
Theorem C39_expression_utf8_partial : forall E s fuel, well_lettered E s -> Z.of_nat (List.length s) <= 4094 -> (5 * List.length s + 4 <= fuel)%nat ->
  (exists g, NewExpression E fuel s = Ok g) \/ NewExpression E fuel s = Panic.
Proof.
  intros E s fuel Hs Hl Hf. destruct (expr_total E s fuel Hs Hl Hf) as (l & ->). pose proof (ast_stops (Node (VStr TypeExpression) l) true) as H.
  destruct (ast_ true _) as [t| |]; [eauto|auto|congruence].
Qed.
Print Assumptions C39_expression_utf8_partial.
Example C39_template_ex : ascii (bs "a $(b") /\ NewTemplate env0 40 (bs "a $(b") = Ok (nd "" [nd "a " []; nd "!e" [nd "!p" [nd "b" []]]]).
Proof. split; [repeat constructor; cbn; lia|]. rewrite NewTemplate_ideal by (cbn; lia). vm_compute. reflexivity. Qed.
Definition env_e : env := {| sprint_f32 _ := []; sprint_f64 _ := []; sprint_fun _ := []; sprint_obj _ := []; sprint_other _ := []; parse_float _ := None;
  f2i_out _ := 0; ptr_eq _ _ := false; hi_letter c := c =? 233; hi_digit _ := false |}.
Example C39_utf8_ex : well_lettered env_e [xc3; xa9] /\ ~ ascii [xc3; xa9] /\
  NewExpression env_e 20 [xc3; xa9] = Ok (nd "!e" [nd "!p" [Node (VStr [xc3; xa9]) []]]).
Proof.
  split; [|split].
  - intros a c r H Hc. destruct a as [|x [|y a]]; injection H as; subst; [unfold tokenish; vm_compute; reflexivity|discriminate Hc|destruct a; discriminate].
  - intros H. inversion H as [|? ? Hx]. revert Hx. cbn. lia.
  - rewrite NewExpression_ideal by (cbn; lia). vm_compute. reflexivity.
Qed.
(** The panic is real. *)
Theorem C39_template_refuted : exists s, ascii s /\ forall E, NewTemplate E 40 s = Panic.
Proof.
  exists (bs "$(*3+4)"). split; [repeat constructor; cbn; lia|]. intro E. rewrite NewTemplate_ideal by (cbn; lia). vm_compute. reflexivity.
Qed.
Print Assumptions C39_template_refuted.
