(** C79: names that are expressions. *)
From Verif Require Import Base Value Event EventSpec EventFacts Lexer TextParser Stream Buffer BufferSpec BufferFacts Wp TextTerm TextSpec TextDoc Graph GraphSpec GraphFacts Emit PathParser PathTerm WpLong PathSpec PathFacts NumFacts TypesSpec TypesFacts Eval Template TemplateSpec TemplateFacts AccessSpec AccessFacts EvalSpec EvalFacts FuncSpec EpathSpec IndexSpec Samples P_Access CallFacts P_Func P_Epath P_Index.
From Verif Require SelSpec SelFacts.

Local Notation len l := (Z.of_nat (List.length l)).

Section Ev.
Variable E : env.
Variable C : calls.
Variable f : nat.
Variable g0 : graph.
Hypothesis Hg0 : whole E g0.
Local Notation ev := (evalExpression E C (S (S f))).

(** A group that names no child, or that has no text *)
Lemma get_els_astray p pad a x s tl m prev k : called E g0 a s -> s = [] \/ none_named E s (out m) -> all_nodes data m ->
  exists r, get_els E C ev p (Some (gtree (hop_tree (By pad a x))) :: tl) (Some m) prev k g0 = Ok (g0, r) /\ match r with inl n => n = None | inr _ => True end.
Proof.
  intros Hs Hn Hm. destruct (called_text E g0 a s Hs) as (v & Hv1 & Hv2). cbn [get_els].
  change (ThisString E (Some (gtree (hop_tree (By pad a x))))) with (Ok TypeGroup). cbn [rbind].
  change (bseq TypeGroup TypeIndex) with false. change (bseq TypeGroup TypeSelector) with false. change (bseq TypeGroup TypeArguments) with false. change (bseq TypeGroup TypeGroup) with true. cbn iota.
  rewrite (group_text E C f g0 Hg0 pad a x v s Hv1 Hv2). cbn [rbind]. destruct s as [|b s]; [eexists; split; reflexivity|]. cbn iota. destruct Hn as [Hn|Hn]; [discriminate|].
  destruct (whole_inv E m (data_whole E m Hm)) as (kk & Hkk & Hp & _). rewrite (Node_none E m (b :: s) (find_child_none E (b :: s) (out m) Hn Hp)). cbn [rbind].
  destruct (all_nodes_inv _ _ Hm) as (w & l' & -> & _ & Hl). cbn [out]. destruct Hl as [|c l' Hc _]; [destruct tl; eexists; split; reflexivity|]. cbn [map first_this out rbind].
  destruct (all_nodes_inv _ _ Hc) as (w2 & l2 & -> & Hw & _). cbn [this]. rewrite (function_data E C ev p w2 g0 Hw). cbn [rbind]. eexists. split; [reflexivity|exact I].
Qed.
Lemma eval_els_astray p root pad a x s tl m prev k : called E g0 a s -> s = [] \/ none_named E s (out m) -> all_nodes data m ->
  exists v, eval_els E C ev p true root (Some (gtree (hop_tree (By pad a x))) :: tl) (Some m) prev k g0 = Ok (g0, EVal v) /\ nothing v.
Proof.
  intros Hs Hn Hm. destruct (called_text E g0 a s Hs) as (v & Hv1 & Hv2). cbn [eval_els].
  change (ThisString E (Some (gtree (hop_tree (By pad a x))))) with (Ok TypeGroup). cbn [rbind].
  change (bseq TypeGroup TypeIndex) with false. change (bseq TypeGroup TypeSelector) with false. change (bseq TypeGroup TypeArguments) with false. change (bseq TypeGroup TypeGroup) with true.
  change (bseq TypeGroup (bs "_len")) with false. change (bseq TypeGroup (bs "_this")) with false. change (bseq TypeGroup (bs "_thisString")) with false. change (bseq TypeGroup (bs "_string")) with false. change (bseq TypeGroup (bs "_json")) with false. cbn iota.
  rewrite (group_text E C f g0 Hg0 pad a x v s Hv1 Hv2). cbn [rbind]. destruct s as [|b s]; [exists VNil; split; [reflexivity|left; reflexivity]|]. cbn iota. destruct Hn as [Hn|Hn]; [discriminate|].
  destruct (whole_inv E m (data_whole E m Hm)) as (kk & Hkk & Hp & _). rewrite (Node_none E m (b :: s) (find_child_none E (b :: s) (out m) Hn Hp)). cbn [rbind].
  destruct (all_nodes_inv _ _ Hm) as (w & l' & -> & _ & Hl). cbn [out]. destruct Hl as [|c l' Hc _]; [apply (eval_els_none E C ev)|]. cbn [map first_this out rbind].
  destruct (all_nodes_inv _ _ Hc) as (w2 & l2 & -> & Hw & _). cbn [this]. rewrite (function_data E C ev p w2 g0 Hw). exists VNil. split; [reflexivity|left; reflexivity].
Qed.
End Ev.

Lemma hops_data E w g0 l g n : (forall c, all_nodes data c -> all_nodes data (w c)) -> hops E w g0 l g n -> all_nodes data g -> all_nodes data n.
Proof.
  intros Hw. induction 1 as [g|e s l g i c n Hk Hf _ IH|pad a x l g z c n Hz Hc _ IH|pad a x s l g i c n Hs Hs0 Hf _ IH|h s l g cs n Hs Ht Hne _ IH|h s pad a x z l g cs n Hs Ht Hne Hz Hlt _ IH]; intros Hg; [exact Hg|..]; apply IH.
  - eapply all_nodes_child; [exact Hg|apply Hf].
  - apply Hw. eapply all_nodes_child; eassumption.
  - eapply all_nodes_child; [exact Hg|apply Hf].
  - apply (SelFacts.chosen_nodes E _ g s SelSpec.Every cs); [exact Hg|exact I|exact Ht].
  - eapply taken_nodes; [exact Hg|exact I|exact Ht].
Qed.
Lemma hops_swap E w g0 l pad a x s tl g n : called E g0 a s -> s <> [] -> hops E w g0 (l ++ Go (Name s) :: tl) g n -> hops E w g0 (l ++ By pad a x :: tl) g n.
Proof.
  intros Hs Hs0. remember (List.length l) as k eqn:Ek. assert (Hk : (List.length l <= k)%nat) by lia. clear Ek. revert l Hk g. induction k as [|k IH]; intros l Hk g H; (destruct l as [|h l]; cbn [app List.length] in *; [|try lia]).
  1, 2: assert (Hsp : forall t, spells E g0 (Go (Name s)) t -> spells E g0 (By pad a x) t) by (intros t [Ht1 Ht2]; split; [exact Ht1|]; injection Ht2 as <-; exact Hs); inversion H as [|e s' l' g' i c n' Hk' Hf Hr| | | |]; subst; [injection Hk' as <-; eapply hops_by; eassumption|eapply hops_all; eauto|eapply hops_of; eauto].
  assert (Hl : (List.length l <= k)%nat) by lia. inversion H; subst; [eapply hops_go|eapply hops_at|eapply hops_by|..]; eauto.
  - destruct l as [|y l]; [discriminate|]. cbn [app List.length] in *. match goal with He : _ :: _ = _ :: _ |- _ => injection He as <- He; subst end. eapply hops_all; eauto. apply IH; [lia|assumption].
  - destruct l as [|y l]; [discriminate|]. cbn [app List.length] in *. match goal with He : _ :: _ = _ :: _ |- _ => injection He as <- He; subst end. eapply hops_of; eauto. apply IH; [lia|assumption].
Qed.

(** ** C79 A path may take a name from an expression: a.(e) is a.s if the text of e is s.  Full
    claim: any expression e.  Proved: e is a number, a string or a variable; operators after it
    have no effect, so that with them the claim is false.  [f] and [f'] are enough steps for
    either text. *)
Theorem C79_name_partial : forall E C l pad a x s tl f f' g n, let p := l ++ By pad a x :: tl in let q := l ++ Go (Name s) :: tl in
  Forall (hop_ok E) p -> name E s -> fits3 f (hops_text p) -> fits3 f' (hops_text q) -> whole E g -> called E g a s ->
  (hops E boxed g q g n -> Get E C f (Some g) (hops_text p) = Ok (Some g, Some n) /\ Get E C f' (Some g) (hops_text q) = Ok (Some g, Some n)) /\
  (starts_with_name p -> Forall hop_free q -> hops E bare g q g n ->
   exists e e' w, NewExpression E f (hops_text p) = Ok e /\ NewExpression E f' (hops_text q) = Ok e' /\
     plain (VPtr (Some (match List.last q (Go (Index [])) with At _ _ _ => boxed n | _ => n end))) w /\
     Eval E C f g (Some e) = Ok (g, EVal w) /\ Eval E C f' g (Some e') = Ok (g, EVal w)).
Proof.
  intros E C l pad a x s tl f f' g n p q Hok Hs Hf Hf' Hg Ha. assert (Hs0 : s <> []) by (intros ->; apply Hs; reflexivity).
  assert (Hok' : Forall (hop_ok E) q).
  { apply Forall_app in Hok. destruct Hok as [H1 H2]. inversion H2 as [|? ? _ H3]; subst. apply Forall_app. split; [exact H1|]. apply Forall_cons; [|exact H3]. split; [exact Hs|]. split; [exact I|discriminate]. }
  assert (Hp : p <> []) by (unfold p; destruct l; discriminate). assert (Hq : q <> []) by (unfold q; destruct l; discriminate). split.
  - intros Hw. split; [|apply C78_get_partial; assumption]. apply C78_get_partial; try assumption. apply hops_swap with (s := s); assumption.
  - intros Hst Hfr Hw. assert (Hst' : starts_with_name q) by (unfold p, q in *; destruct l; [contradiction|exact Hst]).
    assert (Hfr' : Forall hop_free p). { apply Forall_app in Hfr. destruct Hfr as [H1 H2]. inversion H2; subst. apply Forall_app. split; [assumption|]. apply Forall_cons; [exact I|assumption]. }
    assert (El : (match List.last p (Go (Index [])) with At _ _ _ => boxed n | _ => n end) = (match List.last q (Go (Index [])) with At _ _ _ => boxed n | _ => n end)).
    { unfold p, q. destruct tl as [|h tl]; [rewrite !last_last; reflexivity|]. assert (H : exists t y, h :: tl = t ++ [y]) by (destruct (exists_last (l := h :: tl)) as (t & y & H); [discriminate|]; eauto).
      destruct H as (t & y & ->). change (l ++ By pad a x :: t ++ [y]) with (l ++ (By pad a x :: t) ++ [y]). change (l ++ Go (Name s) :: t ++ [y]) with (l ++ (Go (Name s) :: t) ++ [y]). rewrite !app_assoc, !last_last. reflexivity. }
    pose proof (plain_simplify (Some (match List.last q (Go (Index [])) with At _ _ _ => boxed n | _ => n end))) as Hpl.
    destruct (C78_eval_partial E C p f g n _ Hok Hfr' Hst Hf Hg (hops_swap _ _ _ _ _ _ _ s _ _ _ Ha Hs0 Hw) ltac:(rewrite El; exact Hpl)) as (e & H1 & H2).
    destruct (C78_eval_partial E C q f' g n _ Hok' Hfr Hst' Hf' Hg Hw Hpl) as (e' & H3 & H4).
    eexists e, e', _. split; [exact H1|]. split; [exact H3|]. split; [exact Hpl|]. split; assumption.
Qed.
Print Assumptions C79_name_partial.
(** If no child has that name, or the text is empty: nothing. *)
Theorem C79_missing_partial : forall E C l pad a x s tl f g n, let p := l ++ By pad a x :: tl in
  Forall (hop_ok E) p -> fits3 f (hops_text p) -> all_nodes data g -> called E g a s -> s = [] \/ none_named E s (out n) ->
  (hops E boxed g l g n -> Get E C f (Some g) (hops_text p) = Ok (Some g, None)) /\
  (starts_with_name p -> Forall hop_free l -> hops E bare g l g n ->
   exists e v, NewExpression E f (hops_text p) = Ok e /\ Eval E C f g (Some e) = Ok (g, EVal v) /\ nothing v).
Proof.
  intros E C l pad a x s tl f g n p Hok Hf Hd Ha Hs. pose proof (data_whole E g Hd) as Hg. assert (Hp : p <> []) by (unfold p; destruct l; discriminate). assert (Hokl : Forall (hop_ok E) l) by (apply Forall_app in Hok; apply Hok).
  assert (Ep : gforest (map hop_tree p) = gforest (map hop_tree l) ++ Some (gtree (hop_tree (By pad a x))) :: gforest (map hop_tree tl)) by (unfold p, gforest; rewrite map_app, map_app; reflexivity).
  split.
  - intros Hw. assert (Hn : all_nodes data n) by (eapply hops_data; [|exact Hw|exact Hd]; apply data_bracket). rewrite Get_hops_eq by assumption. destruct f as [|[|f]]; [destruct Hf; lia..|]. rewrite Ep.
    destruct (get_els_hops E C f g Hg (gtree (hops_tree p)) l g n Hw Hokl Hg (Some (gtree (hop_tree (By pad a x))) :: gforest (map hop_tree tl)) None []) as (prev & k & H & _). rewrite H.
    destruct (get_els_astray E C f g Hg (gtree (hops_tree p)) pad a x s (gforest (map hop_tree tl)) n prev k Ha Hs Hn) as (r & Hr & Hr2). rewrite Hr. cbn [rbind]. destruct r; [subst|]; reflexivity.
  - intros Hst Hfr Hw. assert (Hn : all_nodes data n) by (eapply hops_data; [|exact Hw|exact Hd]; intros c Hc; exact Hc). destruct Hf as [Hf0 Hf]. destruct f as [|[|[|[|f]]]]; try lia.
    destruct (eval_els_hops E C f g Hg (gtree (hops_tree p)) true l g n Hw Hokl Hfr Hg false (Some (gtree (hop_tree (By pad a x))) :: gforest (map hop_tree tl)) None []) as (prev & k & H).
    destruct (eval_els_astray E C f g Hg (gtree (hops_tree p)) (hop_index false l) pad a x s (gforest (map hop_tree tl)) n prev k Ha Hs Hn) as (v & Hv & Hv2).
    eexists _, v. split; [apply NewExpression_hops; [assumption|assumption|split; assumption]|]. split; [|exact Hv2]. rewrite Eval_hops by exact Hp. rewrite Ep, H. exact Hv.
Qed.
Print Assumptions C79_missing_partial.

(** ** Examples *)
Definition ex_grp : graph := nd "r" [nd "n" [nd "y" []]; nd "z" [nd "zz" []]; nd "a" [nd "1" [nd "one" []]; nd "2" [nd "two" []]; nd "y" [nd "v" []]]].
Definition ex_grp_a : graph := nd "a" [nd "1" [nd "one" []]; nd "2" [nd "two" []]; nd "y" [nd "v" []]].
Lemma ex_grp_data : all_nodes data ex_grp.
Proof. unfold ex_grp, nd. repeat first [apply (all_node _ _ []) | apply (all_node _ _ [_]) | apply (all_node _ _ [_; _]) | apply (all_node _ _ [_; _; _]) | constructor]. Qed.
Ltac first_at := split; [reflexivity|]; split; [eexists; split; reflexivity|]; intros [|[|j]] c Hj Hc; try lia; injection Hc as <-; intros (n & [= <-] & H); discriminate H.
Lemma ex_grp_first : first_named env0 (bs "a") (out ex_grp) 2 ex_grp_a.
Proof. first_at. Qed.
Lemma ex_grp_var x t k : In (x, t, k) [("n", "y", 0%nat); ("z", "zz", 1%nat)]%string -> called env0 ex_grp (OPath (map Name [bs x])) (bs t) /\ operand_ok env0 (OPath (map Name [bs x])).
Proof.
  assert (Hw : forall c s k, In (c, s, k) [("n", "y", 0%nat); ("z", "zz", 1%nat)]%string -> name env0 (bs c) /\ ordinary (bs c) /\ first_named env0 (bs c) (out ex_grp) k (nd c [nd s []])).
  { intros c' s' k' [H|[H|[]]]; injection H as <- <- <-.
    - split; [apply ex_name; [discriminate|apply Forall_cons; [reflexivity|constructor]]|]. split; [unfold ordinary; cbn; intuition discriminate|]. first_here.
    - split; [apply ex_name; [discriminate|apply Forall_cons; [reflexivity|constructor]]|]. split; [unfold ordinary; cbn; intuition discriminate|]. split; [reflexivity|]. split; [eexists; split; reflexivity|]. intros [|j] c Hj Hc; try lia. injection Hc as <-. intros (n & [= <-] & H). discriminate H. }
  intros H. destruct (Hw x t k H) as (H1 & H2 & H3). split.
  - eapply called_value; [|apply reads_str]. apply (worth_value env0 ex_grp [bs x] (nd x [nd t []])); [discriminate|apply Forall_cons; [exact H1|apply Forall_nil]|apply Forall_cons; [exact H2|apply Forall_nil]| |reflexivity]. eapply walk_key; [reflexivity|exact H3|constructor].
  - destruct H as [[= <- <- <-]|[[= <- <- <-]|[]]]; [apply (ex_var_ok "n"%byte)|apply (ex_var_ok "z"%byte)]; try reflexivity; cbn; lia.
Qed.
Definition ex_by (a : operand) : list hop := [Go (Name (bs "a"))] ++ By [] a [] :: [].
Lemma ex_by_ok a : operand_ok env0 a -> Forall (hop_ok env0) (ex_by a).
Proof. intros H. apply Forall_cons; [apply ex_go; [discriminate|repeat constructor]|]. apply Forall_cons; [|constructor]. split; [constructor|]. split; [exact H|constructor]. Qed.
Lemma ex_by_start a : starts_with_name (ex_by a).
Proof. cbn. repeat split; cbn; try lia; discriminate. Qed.
Lemma ex_by_free : Forall hop_free [Go (Name (bs "a"))].
Proof. apply Forall_cons; [cbn; unfold ordinary; cbn; intuition discriminate|constructor]. Qed.
(** n holds y, so a.(n) is a.y; *)
Example C79_ex : hops_text (ex_by (OPath (map Name [bs "n"]))) = bs "a.(n)" /\
  Get env0 calls0 40 (Some ex_grp) (bs "a.(n)") = Ok (Some ex_grp, Some (nd "y" [nd "v" []])) /\
  exists e, NewExpression env0 40 (bs "a.(n)") = Ok e /\ Eval env0 calls0 40 ex_grp (Some e) = Ok (ex_grp, EVal (VStr (bs "v"))).
Proof.
  destruct (ex_grp_var "n" "y" 0) as [Hcd Ho]; [left; reflexivity|]. split; [reflexivity|]. change (bs "a.(n)") with (hops_text (ex_by (OPath (map Name [bs "n"])))).
  assert (Hy : forall w, hops env0 w ex_grp ([Go (Name (bs "a"))] ++ Go (Name (bs "y")) :: []) ex_grp (nd "y" [nd "v" []])).
  { intros w. eapply hops_go; [reflexivity|exact ex_grp_first|]. eapply hops_go with (i := 2%nat); [reflexivity| |constructor]. first_at. }
  destruct (C79_name_partial env0 calls0 [Go (Name (bs "a"))] [] (OPath (map Name [bs "n"])) [] (bs "y") [] 40 40 ex_grp (nd "y" [nd "v" []])) as [H1 H2].
  - apply ex_by_ok, Ho.
  - apply ex_name; [discriminate|repeat constructor].
  - split; cbn; lia.
  - split; cbn; lia.
  - apply data_whole, ex_grp_data.
  - exact Hcd.
  - split; [apply (H1 (Hy boxed))|]. destruct H2 as (e & e' & w & H3 & _ & Hp & H4 & _); [apply ex_by_start| |apply Hy|].
    + apply Forall_cons; [cbn; unfold ordinary; cbn; intuition discriminate|]. apply Forall_cons; [cbn; unfold ordinary; cbn; intuition discriminate|constructor].
    + exists e. split; [exact H3|]. rewrite H4. repeat f_equal. eapply plain_fun; [exact Hp|]. left. exists (VStr (bs "y")), (VStr (bs "v")). auto.
Qed.
(** z holds zz, and a has no child of that name. *)
Example C79_missing_ex : hops_text (ex_by (OPath (map Name [bs "z"]))) = bs "a.(z)" /\ Get env0 calls0 40 (Some ex_grp) (bs "a.(z)") = Ok (Some ex_grp, None).
Proof.
  destruct (ex_grp_var "z" "zz" 1) as [Hcd Ho]; [right; left; reflexivity|]. split; [reflexivity|]. change (bs "a.(z)") with (hops_text (ex_by (OPath (map Name [bs "z"])))).
  destruct (C79_missing_partial env0 calls0 [Go (Name (bs "a"))] [] (OPath (map Name [bs "z"])) [] (bs "zz") [] 40 ex_grp ex_grp_a) as [H1 _].
  - apply ex_by_ok, Ho.
  - split; cbn; lia.
  - exact ex_grp_data.
  - exact Hcd.
  - right. repeat constructor; intros (n & [= <-] & H); discriminate H.
  - apply H1. eapply hops_go; [reflexivity|exact ex_grp_first|constructor].
Qed.
(** The value of 1+1 is 2, but a.(1+1) is a.(1), unless it stands beside an operator: with == the
    value is the one of the child called 2. *)
Theorem C79_operators_refuted : exists E C f g, all_nodes data g /\ den E g (Bin Plus (Leaf (ONum (bs "1"))) (Leaf (ONum (bs "1")))) (Some (DI 2)) /\
  (exists e, NewExpression E f (bs "a.(1+1)") = Ok e /\ Eval E C f g (Some e) = Ok (g, EVal (VStr (bs "one")))) /\
  (exists e, NewExpression E f (bs "a.(1+1) == 'two'") = Ok e /\ Eval E C f g (Some e) = Ok (g, EVal (VBool true))).
Proof.
  exists env0, calls0, 40%nat, ex_grp. split; [exact ex_grp_data|]. split.
  { apply (den_arith env0 ex_grp Plus _ _ 1 1 (Some 2)); [exact (den_num env0 ex_grp 1 ltac:(unfold in64; lia))|exact (den_num env0 ex_grp 1 ltac:(unfold in64; lia))|]. constructor. split; [unfold in64; lia|exists 0; lia]. }
  split.
  - exists (nd "!e" [nd "!p" [nd "a" []; nd "!g" [nd "!e" [nd "1" []; nd "+" []; nd "1" []]]]]). split; [rewrite NewExpression_ideal by (cbn; lia); vm_compute; reflexivity|]. vm_compute. reflexivity.
  - exists (nd "!e" [nd "==" [nd "!p" [nd "a" []; nd "!g" [nd "!e" [nd "+" [nd "1" []; nd "1" []]]]]; nd "!string" [nd "two" []]]]). split; [rewrite NewExpression_ideal by (cbn; lia); vm_compute; reflexivity|]. vm_compute. reflexivity.
Qed.
Print Assumptions C79_operators_refuted.

(** ** C44 Parentheses around an expression, from its text.  With one operand the value is a
    graph with the operand's value; with operators evaluation panics, always. *)
Definition paren (pad : bytes) (a : operand) (l : list step) : bytes := "("%byte :: pad ++ expr_text a l ++ [")"%byte].
Definition paren_tree (a : operand) (l : list step) : tree := T (bs "!g") (operand_tree a :: flat_map step_trees l).
Lemma x_paren E F f pad a l s h : blanks pad -> operand_ok E a -> Forall (step_ok E) l -> at_ s (paren pad a l) -> h_inv h ->
  (List.length (paren pad a l) < F)%nat -> (List.length (paren pad a l) + 9 <= f)%nat ->
  wpx E (Expression F f) s h (fun b s' h' => adds h [paren_tree a l] h').
Proof.
  intros Hp Ho Hl Ha Hh HF Hf. destruct f as [|[|[|f]]]; try lia. unfold paren in *. cbn [List.length] in HF, Hf. rewrite !app_length in HF, Hf. cbn [List.length] in HF, Hf.
  cbn [Expression UnaryExpression]. apply wpx_bind. remember (pad ++ expr_text a l ++ [")"%byte]) as w eqn:Ew. call (x_peek E); [exact Ha|]. intros c s1 h1 (-> & H1 & ->).
  change (is_letter "(") with false. cbn iota.
  apply wpx_bind. eapply (wpx_mono E _ s1 h (fun a s' h' => a = None /\ at_ s' ("("%byte :: w) /\ h' = h)).
  { unfold Number_tok. call (x_peek E); [exact H1|]. intros c s2 h2 (-> & H2 & ->). change (beq "(" "-" || beq "(" "+") with false. cbn iota.
    apply wpx_bind, wpx_ret, wpx_bind. eapply wpx_mono; [apply (x_number_loop E F [] F false [] s2 ("("%byte :: w)); auto|].
    - split; [reflexivity|right; discriminate].
    - cbn. lia.
    - cbn beta. intros z s3 h3 (-> & H3 & ->). apply wpx_ret. auto. }
  intros z s2 h2 (-> & H2 & ->). call (x_no_Quoted E F s2 ("("%byte :: w)); [exact H2|reflexivity|]. intros q s3 h3 (-> & H3 & ->).
  unfold Operator. call (x_span E F is_operator [] [] s3 ("("%byte :: w)); auto; [reflexivity|cbn; lia|]. intros x s4 h4 (-> & H4 & ->). cbn [app]. apply wpx_bind, wpx_ret.
  call (x_peek E); [exact H4|]. intros c s5 h5 (-> & H5 & ->). change (beq "(" "(") with true. cbn iota.
  call (x_byte E); [exact H5|]. intros ? s6 h6 (_ & H6 & ->). apply wpx_emit, wpx_Inc. destruct (operand_head E a Ho) as (c & rr & Eo & Hc1 & _). subst w.
  call (x_Space E F s6 pad (expr_text a l ++ [")"%byte])); [exact H6|exact Hp|unfold expr_text; rewrite Eo; exact Hc1|lia|]. intros _ s7 h7 (H7 & ->).
  call (x_expression_r E F a l (S f) s7 [")"%byte] (h_inc (h_add (VStr TypeGroup) h))); auto; [cbn; tauto|apply under_inv, Hh|lia|lia|]. intros _ s8 h8 (_ & H8 & A8).
  call (x_Space E F s8 [] [")"%byte]); [exact H8|constructor|reflexivity|cbn; lia|]. intros _ s9 h9 (H9 & ->). apply wpx_Dec. pose proof (adds_dec h _ _ _ Hh A8) as A9.
  call (x_peek E); [exact H9|]. intros x s10 h10 (-> & H10 & ->). change (negb (beq ")" ")")) with false. cbn iota.
  call (x_byte E); [exact H10|]. intros ? s11 h11 (_ & H11 & ->). apply wpx_ret.
  eapply wpx_mono; [apply (x_steps E F O [] (S (S f)) s11 [] (h_dec h8)); auto; try lia; [exact I|exact (adds_inv _ _ _ A9)|cbn; lia|cbn; lia]|]. cbn beta.
  intros b' s12 h12 (_ & _ & A12). exact (adds_app _ [paren_tree a l] _ [] _ A9 A12).
Qed.
Lemma NewExpression_paren E pad a l fuel : blanks pad -> operand_ok E a -> Forall (step_ok E) l -> fits3 fuel (paren pad a l) ->
  NewExpression E fuel (paren pad a l) = Ok (Node (VStr TypeExpression) [Some (gtree (paren_tree a l))]).
Proof.
  intros Hp Ho Hl [Hlen Hf]. rewrite NewExpression_ideal by lia. unfold s_expr.
  pose proof (x_paren E fuel fuel pad a l (s_init (paren pad a l)) h_init Hp Ho Hl) as H1.
  specialize (H1 ltac:(split; [apply good_false|reflexivity]) h_init_inv ltac:(lia) ltac:(lia)).
  unfold wpx, short, wpi in H1. destruct (run E _ _ _) as [[[b s'] h']| |]; try contradiction. cbn [rbind]. rewrite (adds_Tree _ _ H1). reflexivity.
Qed.
Lemma eval_bare_op E C f simpl o r g : evalExpression E C (S f) simpl (Some (Node (VStr (op_text o)) r)) g = match r with [] => Panic | _ => evalExpression E C (S f) simpl (Some (Node (VStr (op_text o)) r)) g end.
Proof. destruct r as [|x r]; [|reflexivity]. destruct o; reflexivity. Qed.
Lemma Eval_paren E C f a l g : Eval E C (S (S (S f))) g (Some (Node (VStr TypeExpression) [Some (gtree (paren_tree a l))])) =
  let* (g, o) := group_ (evalExpression E C (S f)) true (gforest (operand_tree a :: flat_map step_trees l)) g in Ok (g, EVal (VPtr (Some (Node (VStr TypeGroup) o)))).
Proof.
  unfold Eval, Eval_with. cbn [ThisString this vstring sstring rbind]. change (bseq TypeExpression TypePath || bseq TypeExpression TypeExpression) with true. cbn iota.
  change (evalExpression E C (S (S (S f))) true (Some (Node (VStr TypeExpression) [Some (gtree (paren_tree a l))])) g) with (evalExpression E C (S (S f)) true (Some (gtree (paren_tree a l))) g).
  cbn [evalExpression paren_tree]. unfold eval_body. change (gtree (T (bs "!g") (operand_tree a :: flat_map step_trees l))) with (Node (VStr TypeGroup) (gforest (operand_tree a :: flat_map step_trees l))).
  cbn - [group_ gforest]. reflexivity.
Qed.
Theorem C44_one_refuted : forall E C pad a f g v, blanks pad -> operand_ok E a -> fits3 f (paren pad a []) -> whole E g -> worth E g a v -> data v -> v <> VNil ->
  exists e, NewExpression E f (paren pad a []) = Ok e /\ Eval E C f g (Some e) = Ok (g, EVal (VPtr (Some (Node (VStr (bs "!g")) [Some (Node v [])])))).
Proof.
  intros E C pad a f g v Hp Ho Hf Hg Hv Hd Hn. eexists. split; [apply NewExpression_paren; auto; constructor|]. destruct Hf as [_ Hf]. destruct f as [|[|[|f]]]; try lia. rewrite Eval_paren.
  cbn [flat_map gforest map group_]. rewrite (eval_worth E C f a v g Hg Hv). cbn [rbind]. destruct v; try contradiction; try reflexivity.
Qed.
Print Assumptions C44_one_refuted.
Theorem C44_operators_refuted : forall E C pad a l f g v, blanks pad -> operand_ok E a -> Forall (step_ok E) l -> l <> [] -> fits3 f (paren pad a l) -> whole E g -> worth E g a v ->
  exists e, NewExpression E f (paren pad a l) = Ok e /\ Eval E C f g (Some e) = Panic.
Proof.
  intros E C pad a l f g v Hp Ho Hl Hne Hf Hg Hv. eexists. split; [apply NewExpression_paren; auto|]. destruct Hf as [_ Hf]. destruct f as [|[|[|f]]]; try lia. rewrite Eval_paren.
  destruct l as [|st l]; [congruence|]. cbn [flat_map gforest map app step_trees group_]. rewrite (eval_worth E C f a v g Hg Hv). cbn [rbind].
  change (gtree (T (op_text (oper st)) [])) with (Node (VStr (op_text (oper st))) []). rewrite eval_bare_op. reflexivity.
Qed.
Print Assumptions C44_operators_refuted.
Example C44_operators_ex : paren [] (ONum (bs "1")) [mkStep [] Plus [] (ONum (bs "2"))] = bs "(1+2)" /\
  exists e, NewExpression env0 40 (bs "(1+2)") = Ok e /\ Eval env0 calls0 40 ex_grp (Some e) = Panic.
Proof.
  split; [reflexivity|]. change (bs "(1+2)") with (paren [] (ONum (bs "1")) [mkStep [] Plus [] (ONum (bs "2"))]).
  assert (Hn : forall c, In c ["1"; "2"]%byte -> operand_ok env0 (ONum [c])).
  { intros c Hc. exists [], [c], []. split; [reflexivity|]. split; [auto|]. split; [|auto]. split; [discriminate|]. apply Forall_cons; [|constructor]. destruct Hc as [<-|[<-|[]]]; cbn; lia. }
  apply C44_operators_refuted with (v := VInt KInt64 1).
  - constructor.
  - apply (Hn "1"%byte). left. reflexivity.
  - apply Forall_cons; [|constructor]. split; [constructor|]. split; [constructor|]. split; [apply (Hn "2"%byte); right; left; reflexivity|]. cbn. discriminate.
  - discriminate.
  - split; cbn; lia.
  - apply data_whole, ex_grp_data.
  - exact (worth_num env0 ex_grp 1 ltac:(unfold in64; lia)).
Qed.
