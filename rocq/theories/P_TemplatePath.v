(** C46: paths with indexes, quoted names and reserved names in templates. *)
From Verif Require Import Base Value Event EventSpec EventFacts Lexer TextSpec Graph GraphSpec GraphFacts Emit Encoding PathParser PathSpec PathFacts TypesSpec TypesFacts NumFacts Eval AccessSpec AccessFacts EvalSpec EvalFacts SelSpec EpathSpec Template TemplateSpec TemplateFacts TemplateProc P_Access P_Epath P_Template Samples.

Lemma eval_tpath E C f es g : es <> [] -> Eval E C (S (S f)) g (Some (gtree (T (bs "!p") (map elem_tree es)))) =
  eval_els E C (evalExpression E C (S f)) (Node (VStr TypePath) (gforest (map elem_tree es))) true false (gforest (map elem_tree es)) (Some g) None [] g.
Proof.
  intros Hne. unfold Eval, Eval_with.
  change (ThisString E (Some (gtree (T (bs "!p") (map elem_tree es))))) with (Ok TypePath). cbn [rbind]. change (bseq TypePath TypePath || bseq TypePath TypeExpression) with true. cbn iota.
  cbn [evalExpression]. unfold eval_body. rewrite gtree_node, <- gforest_map. cbn - [evalPath gforest]. unfold evalPath. cbn [out].
  destruct es as [|e es]; [congruence|reflexivity].
Qed.
Lemma plain_trees es : flat_map step_trees (map Plain es) = map elem_tree es.
Proof. induction es as [|e es IH]; [reflexivity|]. cbn. rewrite IH. reflexivity. Qed.
Lemma plain_ok E es : Forall (elem_ok E) es -> Forall unmarked es -> Forall (SelSpec.step_ok E) (map Plain es).
Proof. intros H1 H2. rewrite Forall_map. rewrite Forall_forall in *. intros e He. split; [apply H1, He|]. split; [apply H2, He|exact I]. Qed.

Lemma eval_tarrives E C f es g n m : es <> [] -> Forall (elem_ok E) es -> Forall unmarked es -> Forall free (map Plain es) -> whole E g -> (2 <= f)%nat ->
  arrives E (map Plain es) g n -> EpathSpec.shown (map Plain es) n m ->
  Eval E C f g (Some (gtree (T (bs "!p") (map elem_tree es)))) = Ok (g, EVal (simplify (Some m))).
Proof.
  intros Hne Hok Hu Hfr Hg Hf Ha Hs. destruct f as [|[|f]]; try lia. rewrite eval_tpath by exact Hne.
  destruct (eval_els_arrives E C (evalExpression E C (S f)) (fun d g Hd Hl => eval_number E C f d g Hd Hl true []) (Node (VStr TypePath) (gforest (map elem_tree es))) true (map Plain es) g n Ha (plain_ok E es Hok Hu) Hfr Hg false [] None [] g) as (prev & k & H).
  rewrite app_nil_r, plain_trees in H. rewrite H. cbn [eval_els]. rewrite (ends_shown (map Plain es) n m Hs); [reflexivity|]. destruct es; [congruence|discriminate].
Qed.
Lemma eval_tmisses E C f es tl g : es ++ tl <> [] -> Forall (elem_ok E) es -> Forall unmarked es -> Forall free (map Plain es) -> all_nodes data g -> (2 <= f)%nat ->
  misses E (map Plain es) g -> exists v, Eval E C f g (Some (gtree (T (bs "!p") (map elem_tree (es ++ tl))))) = Ok (g, EVal v) /\ nothing v.
Proof.
  intros Hne Hok Hu Hfr Hg Hf Hm. destruct f as [|[|f]]; try lia. rewrite eval_tpath by exact Hne.
  destruct (eval_els_misses E C (evalExpression E C (S f)) (fun d g Hd Hl => eval_number E C f d g Hd Hl true []) (Node (VStr TypePath) (gforest (map elem_tree (es ++ tl)))) (map Plain es) g Hm (plain_ok E es Hok Hu) Hfr Hg false (gforest (map elem_tree tl)) None [] g) as (v & H & Hv).
  exists v. split; [|exact Hv]. rewrite <- H, plain_trees. f_equal. unfold gforest. rewrite !map_app. reflexivity.
Qed.
Lemma eval_tasked E C J f es s tl g n v : Forall (elem_ok E) es -> Forall unmarked es -> Forall free (map Plain es) -> whole E g -> (2 <= f)%nat ->
  (forall n t, snd (JSON E J (Some n)) = Ok (Some t) -> to_json C n = Ok t) -> arrives E (map Plain es) g n -> asked E J s n v ->
  Eval E C f g (Some (gtree (T (bs "!p") (map elem_tree (es ++ Name s :: tl))))) = Ok (g, EVal v).
Proof.
  intros Hok Hu Hfr Hg Hf HJ Ha Hs. destruct f as [|[|f]]; try lia. rewrite eval_tpath by (destruct es; discriminate).
  destruct (eval_els_arrives E C (evalExpression E C (S f)) (fun d g Hd Hl => eval_number E C f d g Hd Hl true []) (Node (VStr TypePath) (gforest (map elem_tree (es ++ Name s :: tl)))) true (map Plain es) g n Ha (plain_ok E es Hok Hu) Hfr Hg false (Some (gtree (T s [])) :: gforest (map elem_tree tl)) None [] g) as (prev & k & H).
  rewrite plain_trees in H. replace (gforest (map elem_tree (es ++ Name s :: tl))) with (gforest (map elem_tree es) ++ Some (gtree (T s [])) :: gforest (map elem_tree tl)) in * by (unfold gforest; rewrite !map_app; reflexivity).
  rewrite H. apply (eval_els_asked E C (evalExpression E C (S f)) J); assumption.
Qed.

(** ** C46 with indexes and quoted names.  The text of the path is written as in C25; an index
    leads to the child at that position, and a path that ends with one shows that child. *)
Theorem C46_path_partial : forall E C f es t c n m o c' o', wf E (TVar es t) -> fits_t f (TVar es t) -> Forall unmarked es -> Forall free (map Plain es) ->
  whole E c -> arrives E (map Plain es) c n -> EpathSpec.shown (map Plain es) n m -> P_Template.shown E m o ->
  yields E C f (source t) c c' o' -> yields E C f (bs "$" ++ path_text es ++ source t) c c' (o ++ o').
Proof.
  intros E C f es t c n m o c' o' Hw Hf Hu Ho Hc Hn Hm Hs Hy. pose proof Hw as ((Hok & Hne) & _ & Ht).
  apply (yields_after E C f (TVar es t) t c c o [] c' o'); auto; [lens|]. cbn [sem sem_tail].
  rewrite (eval_tarrives E C f es c n m); auto; [|destruct es; [destruct Hne|discriminate]|unfold fits_t in Hf; lia].
  cbn [rbind]. rewrite (shown_text E m o Hs). reflexivity.
Qed.
Print Assumptions C46_path_partial.
Theorem C46_path_braces_partial : forall E C f es t c n m o c' o', wf E (TBraces es t) -> fits_t f (TBraces es t) -> Forall unmarked es -> Forall free (map Plain es) ->
  whole E c -> arrives E (map Plain es) c n -> EpathSpec.shown (map Plain es) n m -> P_Template.shown E m o ->
  yields E C f (source t) c c' o' -> yields E C f (bs "${" ++ path_text es ++ bs "}" ++ source t) c c' (o ++ o').
Proof.
  intros E C f es t c n m o c' o' Hw Hf Hu Ho Hc Hn Hm Hs Hy. pose proof Hw as ((Hok & Hne) & Ht).
  apply (yields_after E C f (TBraces es t) t c c o [] c' o'); auto; [lens|]. cbn [sem sem_tail].
  rewrite (eval_tarrives E C f es c n m); auto; [|destruct es; [destruct Hne|discriminate]|unfold fits_t in Hf; lia].
  cbn [rbind]. rewrite (shown_text E m o Hs). reflexivity.
Qed.
Print Assumptions C46_path_braces_partial.
(** A path that leads nowhere shows nothing, whatever follows in the path. *)
Theorem C46_path_missing_partial : forall E C f es tl t c c' o', wf E (TVar (es ++ tl) t) -> fits_t f (TVar (es ++ tl) t) -> Forall unmarked es -> Forall free (map Plain es) ->
  all_nodes data c -> misses E (map Plain es) c ->
  yields E C f (source t) c c' o' -> yields E C f (bs "$" ++ path_text (es ++ tl) ++ source t) c c' o'.
Proof.
  intros E C f es tl t c c' o' Hw Hf Hu Ho Hc Hn Hy. pose proof Hw as ((Hok & Hne) & _ & Ht). apply Forall_app in Hok. destruct Hok as [Hok _].
  apply (yields_after E C f (TVar (es ++ tl) t) t c c [] [] c' o'); auto; [lens|]. cbn [sem sem_tail].
  destruct (eval_tmisses E C f es tl c) as (v & -> & Hv); auto; [destruct (es ++ tl); [destruct Hne|discriminate]|unfold fits_t in Hf; lia|].
  cbn [rbind]. destruct Hv as [->| ->]; reflexivity.
Qed.
Print Assumptions C46_path_missing_partial.
(** What a reserved name shows: the number of subnodes in decimal, the node as text, its
    content, the content of its first subnode, and its JSON. *)
Inductive tells (E : env) (J : spec_float -> bytes) : bytes -> graph -> bytes -> Prop :=
| tell_len n o : digits o -> (forall d o', o = d :: o' -> o' <> [] -> d <> "0"%byte) -> number_of o = Z.of_nat (List.length (out n)) -> tells E J (bs "_len") n o
| tell_this n o : Text E (Some n) = Ok o -> tells E J (bs "_this") n o
| tell_thisString n o : vstring E (this n) = Ok o -> tells E J (bs "_thisString") n o
| tell_string_none n : out n = [] -> tells E J (bs "_string") n []
| tell_string n c l o : out n = Some c :: l -> vstring E (this c) = Ok o -> tells E J (bs "_string") n o
| tell_json n o : snd (JSON E J (Some n)) = Ok (Some o) -> tells E J (bs "_json") n o.

(** Decimal texts without leading zeros are determined by their number. *)
Definition canon (o : bytes) : Prop := forall d o', o = d :: o' -> o' <> [] -> d <> "0"%byte.
Lemma number_snoc s c : number_of (s ++ [c]) = 10 * number_of s + (bz c - 48).
Proof. unfold number_of. rewrite fold_left_app. reflexivity. Qed.
Lemma number_from s a : Forall (fun c => 48 <= bz c <= 57) s -> 0 <= a -> a <= fold_left (fun a c => 10 * a + (bz c - 48)) s a.
Proof. intros Hs. revert a. induction Hs as [|c s Hc _ IH]; intros a Ha; cbn [fold_left]; [lia|]. specialize (IH (10 * a + (bz c - 48)) ltac:(lia)). lia. Qed.
Lemma number_pos d s : Forall (fun c => 48 <= bz c <= 57) (d :: s) -> d <> "0"%byte -> 0 < number_of (d :: s).
Proof.
  intros Hs Hd. inversion Hs as [|? ? H1 H2]; subst. assert (bz d <> 48) by (intros K; apply Hd; apply bz_inj; exact K).
  unfold number_of. cbn [fold_left]. pose proof (number_from s (10 * 0 + (bz d - 48)) H2 ltac:(lia)). lia.
Qed.
Lemma canon_init s c : canon (s ++ [c]) -> canon s.
Proof. intros H d o' -> Ho. apply (H d (o' ++ [c])); [reflexivity|]. destruct o'; discriminate. Qed.
Lemma canon_zero s c : Forall (fun c => 48 <= bz c <= 57) s -> canon (s ++ [c]) -> number_of s = 0 -> s = [].
Proof.
  intros Hs Hc Hn. destruct s as [|d s]; [reflexivity|]. exfalso. assert (d <> "0"%byte) by (apply (Hc d (s ++ [c])); [reflexivity|destruct s; discriminate]).
  pose proof (number_pos d s Hs H). lia.
Qed.
Lemma canon_unique s : forall t, Forall (fun c => 48 <= bz c <= 57) s -> Forall (fun c => 48 <= bz c <= 57) t -> s <> [] -> t <> [] -> canon s -> canon t -> number_of s = number_of t -> s = t.
Proof.
  induction s as [|c s IH] using rev_ind; intros t Hs Ht Hs0 Ht0 Cs Ct Hn; [congruence|]. destruct (exists_last Ht0) as (t' & c' & ->). rewrite !number_snoc in Hn.
  apply Forall_app in Hs. destruct Hs as [Hs Hc]. apply Forall_app in Ht. destruct Ht as [Ht Hc']. inversion Hc as [|? ? K1 _]; subst. inversion Hc' as [|? ? K2 _]; subst.
  assert (Hn1 : number_of s = number_of t') by lia. assert (c = c') as -> by (apply bz_inj; lia). f_equal.
  destruct s as [|d s].
  - symmetry. apply (canon_zero t' c' Ht Ct). rewrite <- Hn1. reflexivity.
  - destruct t' as [|d' t']; [apply (canon_zero _ c' Hs Cs); rewrite Hn1; reflexivity|]. apply IH; auto; try discriminate; eapply canon_init; eassumption.
Qed.
Lemma dec_digits_head fuel : forall n acc, 0 < n -> n < 10 ^ Z.of_nat fuel -> exists d s, dec_digits fuel n acc = d :: s /\ d <> "0"%byte.
Proof.
  induction fuel as [|f IH]; intros n acc Hn Hf; [cbn in Hf; lia|]. cbn [dec_digits]. destruct (Z.ltb_spec n 10).
  - eexists _, _. split; [reflexivity|]. intros K. apply (f_equal bz) in K. rewrite bz_digit in K by lia. change (bz "0"%byte) with 48 in K. lia.
  - apply IH; [apply Z.div_str_pos; lia|]. rewrite Nat2Z.inj_succ, Z.pow_succ_r in Hf by lia. apply Z.div_lt_upper_bound; lia.
Qed.
Lemma format_canon n : 0 <= n -> canon (format_nat n).
Proof.
  intros Hn d o' He Ho. destruct (Z.eq_dec n 0) as [->|]; [cbn in He; injection He as _ <-; congruence|].
  destruct (dec_digits_head (S (Z.to_nat (Z.log2 n))) n [] ltac:(lia)) as (d' & s & He' & Hd').
  { rewrite Nat2Z.inj_succ, Z2Nat.id by apply Z.log2_nonneg. pose proof (Z.log2_spec n ltac:(lia)) as (_ & H). eapply Z.lt_le_trans; [exact H|]. apply Z.pow_le_mono_l. lia. }
  unfold format_nat in He. rewrite He' in He. injection He as <- _. exact Hd'.
Qed.
Lemma tells_text E J s n o : tells E J s n o -> exists v, asked E J s n v /\ text_of E v = Ok o.
Proof.
  intros [n' o' Hd Hc Hn|n' o' H|n' o' H|n' H|n' c l o' Ho H|n' o' H].
  - eexists. split; [constructor|]. cbn [text_of vstring sstring]. change (Ok (format_int (Z.of_nat (List.length (out n')))) = Ok o'). f_equal.
    assert (Hz : 0 <= Z.of_nat (List.length (out n'))) by lia. unfold format_int. replace (Z.of_nat (List.length (out n')) <? 0) with false by lia.
    destruct (format_nat_spec _ Hz) as ((F1 & F2) & F3). destruct Hd as [D1 D2]. apply canon_unique; auto; [apply format_canon, Hz|rewrite F3, Hn; reflexivity].
  - eexists. split; [constructor|exact H].
  - eexists. split; [constructor; exact H|reflexivity].
  - eexists. split; [constructor; exact H|reflexivity].
  - eexists. split; [econstructor; eassumption|reflexivity].
  - eexists. split; [constructor; exact H|reflexivity].
Qed.
Theorem C46_asked_partial : forall E C J f es s tl t c n o c' o', let p := es ++ Name s :: tl in
  wf E (TVar p t) -> fits_t f (TVar p t) -> Forall unmarked es -> Forall free (map Plain es) -> whole E c ->
  (forall n t, snd (JSON E J (Some n)) = Ok (Some t) -> to_json C n = Ok t) ->
  arrives E (map Plain es) c n -> tells E J s n o ->
  yields E C f (source t) c c' o' -> yields E C f (bs "$" ++ path_text p ++ source t) c c' (o ++ o').
Proof.
  intros E C J f es s tl t c n o c' o' p Hw Hf Hu Ho Hc HJ Hn Hs Hy. pose proof Hw as ((Hok & Hne) & _ & Ht). destruct (tells_text E J s n o Hs) as (v & Hv & Hx).
  apply (yields_after E C f (TVar p t) t c c o [] c' o'); auto; [lens|]. cbn [sem sem_tail]. apply Forall_app in Hok.
  unfold p. rewrite (eval_tasked E C J f es s tl c n v); auto; [|apply Hok|unfold fits_t in Hf; lia].
  cbn [rbind]. rewrite Hx. reflexivity.
Qed.
Print Assumptions C46_asked_partial.

(** ** Examples: $l[1] of $l._len *)
Definition ex_tp2 : tmpl := TVar [Name (bs "l"); Name (bs "_len")] TEnd.
Definition ex_tp1 : tmpl := TText (bs " of ") ex_tp2.
Definition ex_tp : tmpl := TVar [Name (bs "l"); Index (bs "1")] ex_tp1.
Definition ex_tl : graph := nd "l" [nd "x" []; nd "y" []; nd "z" []].
Lemma ex_tl_first : first_named env0 (bs "l") (out ex_tctx) 2 ex_tl.
Proof. split; [reflexivity|]. split; [eexists; split; reflexivity|]. intros j y Hj Hy (n & -> & Hn). destruct j as [|[|j]]; [injection Hy as <-; discriminate Hn|injection Hy as <-; discriminate Hn|lia]. Qed.
Example C46_path_ex : source ex_tp = bs "$l[1] of $l._len" /\ wf env0 ex_tp /\ fits_t 60 ex_tp /\
  yields env0 calls_json 60 (bs "$l[1] of $l._len") ex_tctx ex_tctx (bs "y of 3").
Proof.
  assert (Hw2 : wf env0 ex_tp2) by (split; [split; [ascii_names|cbn; intuition discriminate]|split; exact I]).
  assert (Hw1 : wf env0 ex_tp1) by (split; [split; [discriminate|split; [repeat constructor; try discriminate; reflexivity|cbn; intuition discriminate]]|split; [exact I|exact Hw2]]).
  assert (Hw : wf env0 ex_tp).
  { split; [split; [|cbn; intuition discriminate]|split; [apply apart_ascii; [cbn; lia|reflexivity|cbn; intuition discriminate]|exact Hw1]].
    constructor; [ascii_names|]. constructor; [|constructor]. split; [discriminate|]. repeat constructor; cbn; lia. }
  assert (Hf : fits_t 60 ex_tp) by (split; [left|]; cbn; lia).
  assert (Ho : ordinary (bs "l")) by (intros H; repeat (destruct H as [H|H]; [discriminate H|]); exact H).
  split; [reflexivity|]. split; [exact Hw|]. split; [exact Hf|].
  apply (C46_path_partial env0 calls_json 60 [Name (bs "l"); Index (bs "1")] ex_tp1 ex_tctx (nd "y" []) (Node (VStr (bs "[")) [Some (nd "y" [])]) (bs "y") ex_tctx (bs " of 3")); auto.
  - repeat constructor.
  - constructor; [exact Ho|]. constructor; [exact I|constructor].
  - apply data_whole, ex_tctx_data.
  - eapply arr_key; [reflexivity|exact ex_tl_first|]. eapply arr_index; [cbn; lia|reflexivity|constructor].
  - left. split; [|reflexivity]. exists [Plain (Name (bs "l"))], (bs "1"). reflexivity.
  - apply (shown_leaf _ _ _ (VStr (bs "y"))); [reflexivity|exact I|reflexivity].
  - apply (C45_text_before_partial env0 calls_json 60 (bs " of ") ex_tp2 ex_tctx ex_tctx (bs "3")); [exact Hw1|split; [left|]; cbn; lia|].
    apply (C46_asked_partial env0 calls_json (fun _ => []) 60 [Name (bs "l")] (bs "_len") [] TEnd ex_tctx ex_tl (bs "3") ex_tctx []); auto.
    + split; [left|]; cbn; lia.
    + repeat constructor.
    + constructor; [exact Ho|constructor].
    + apply data_whole, ex_tctx_data.
    + intros n t Hn. cbn [to_json calls_json]. rewrite Hn. reflexivity.
    + eapply arr_key; [reflexivity|exact ex_tl_first|constructor].
    + constructor; [split; [discriminate|repeat constructor; cbn; lia]|intros d o' [= <- <-]; congruence|reflexivity].
    + apply (C45_text_partial env0 calls_json 60 [] ex_tctx); [constructor|cbn; intuition discriminate|cbn; lia].
Qed.
