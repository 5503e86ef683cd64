(** C89: selectors after an index or another selector. *)
From Verif Require Import Base Value Event EventSpec EventFacts Lexer TextParser Stream Buffer BufferSpec BufferFacts Wp TextTerm TextSpec TextDoc Graph GraphSpec GraphFacts Emit PathParser PathTerm WpLong PathSpec PathFacts NumFacts TypesSpec TypesFacts Eval Template TemplateSpec TemplateFacts AccessSpec AccessFacts EvalSpec EvalFacts FuncSpec EpathSpec IndexSpec TrailSpec Samples P_Access CallFacts P_Func P_Epath P_Index P_Group.
From Verif Require SelSpec SelFacts.

Local Notation len l := (Z.of_nat (List.length l)).

Section Ev.
Variable E : env.
Variable C : calls.
Variable f : nat.
Variable g0 : graph.
Hypothesis Hg0 : whole E g0.
Let ev := evalExpression E C (S (S f)).

(** What the evaluator carries along *)
Definition carries (M : memory) (prev : option graph) (k : bytes) : Prop :=
  match M with Some (m, s) => prev = Some m /\ k = s /\ s <> [] /\ whole E m | None => k = [] end.
Lemma carries_moved M prev k g : carries M prev k -> whole E g -> carries (moved M g) (Some g) k.
Proof. destruct M as [[m s]|]; cbn; [intros (_ & H1 & H2 & _) H3; auto|auto]. Qed.
Lemma whole_all s m cs : whole E m -> SelSpec.those E s (out m) cs -> whole E (Node (VStr (bs "{")) (flat_map out cs)).
Proof. intros Hm Ht. apply (SelFacts.chosen_nodes E _ m s SelSpec.Every cs); [exact Hm|eexists; reflexivity|exact Ht]. Qed.
Lemma whole_of s z m cs : whole E m -> SelSpec.those E s (out m) cs -> whole E (Node (VStr (bs "{")) (taken z cs)).
Proof. intros Hm Ht. eapply taken_nodes; [exact Hm|eexists; reflexivity|exact Ht]. Qed.

Lemma get_els_trail p l M m n : trail E boxed g0 l M m n -> Forall (hop_ok E) l -> whole E m -> forall tl prev k, carries M prev k ->
  exists prev' k', get_els E C ev p (gforest (map hop_tree l) ++ tl) (Some m) prev k g0 = get_els E C ev p tl (Some n) prev' k' g0.
Proof.
  induction 1 as [M m|h s l M m i c n Hs Hf _ IH|pad a x l M m z c n Hz Hc _ IH|l m0 s m cs n Ht _ IH|pad a x z l m0 s m cs n Ht Hz Hlt _ IH]; intros Hok Hm tl prev k HM.
  - exists prev, k. reflexivity.
  - inversion Hok as [|? ? Hok1 Hok']; subst. cbn [map]. unfold gforest. cbn [map app]. unfold ev. rewrite (get_els_spells E C f g0 Hg0 p h s m i c) by assumption.
    apply (IH Hok'); [eapply all_nodes_child; [exact Hm|apply Hf]|]. split; [reflexivity|]. split; [reflexivity|]. split; [apply Hs|exact Hm].
  - inversion Hok as [|? ? _ Hok']; subst. destruct (index_at E C f g0 Hg0 pad a x z Hz) as [Hi Hr]. cbn [map]. unfold gforest. cbn [map app]. cbn [get_els]. change (ThisString E (Some (gtree (hop_tree (At pad a x))))) with (Ok TypeIndex). cbn [rbind].
    change (bseq TypeIndex TypeIndex) with true. cbn iota. unfold ev. rewrite Hi. cbn [rbind]. replace (z <? 0) with false by lia. rewrite (GetAt_nth m z (Some c) ltac:(lia) Hc). cbn [rbind add_out].
    apply (IH Hok'); [apply whole_bracket; eapply all_nodes_child; eassumption|eapply carries_moved; eassumption].
  - inversion Hok as [|? ? _ Hok']; subst. destruct HM as (-> & -> & Hs & Hm0). cbn [map]. unfold gforest. cbn [map app].
    erewrite (get_els_braces E C f g0 p All) by (first [reflexivity|apply (selector_all E C f g0 s m0 _ Hs Hm0 Ht)]).
    apply (IH Hok'); [eapply whole_all; eassumption|]. split; auto.
  - inversion Hok as [|? ? _ Hok']; subst. destruct HM as (-> & -> & Hs & Hm0). cbn [map]. unfold gforest. cbn [map app].
    erewrite (get_els_braces E C f g0 p (Of pad a x)) by (first [reflexivity|apply (selector_of E C f g0 Hg0 pad a x z s m0 _ Hs Hm0 Ht Hz Hlt)]).
    apply (IH Hok'); [eapply whole_of; eassumption|]. split; auto.
Qed.
Lemma eval_els_trail p simpl l M m n : trail E bare g0 l M m n -> Forall (hop_ok E) l -> Forall hop_free l -> whole E m -> forall root tl prev k, carries M prev k ->
  exists prev' k', eval_els E C ev p simpl root (gforest (map hop_tree l) ++ tl) (Some m) prev k g0 = eval_els E C ev p simpl (hop_index root l) tl (Some n) prev' k' g0.
Proof.
  induction 1 as [M m|h s l M m i c n Hs Hf _ IH|pad a x l M m z c n Hz Hc _ IH|l m0 s m cs n Ht _ IH|pad a x z l m0 s m cs n Ht Hz Hlt _ IH]; intros Hok Hfr Hm root tl prev k HM.
  - exists prev, k. reflexivity.
  - inversion Hok as [|? ? Hok1 Hok']; subst. inversion Hfr as [|? ? F1 Hfr']; subst. cbn [map]. unfold gforest. cbn [map app]. unfold ev. rewrite (eval_els_spells E C f g0 Hg0 p simpl root h s m i c) by assumption.
    replace (hop_index root (h :: l)) with (hop_index false l) by (destruct Hs as [_ Hs]; destruct h; try contradiction; reflexivity).
    apply (IH Hok' Hfr'); [eapply all_nodes_child; [exact Hm|apply Hf]|]. split; [reflexivity|]. split; [reflexivity|]. split; [apply Hs|exact Hm].
  - inversion Hok as [|? ? _ Hok']; subst. inversion Hfr as [|? ? _ Hfr']; subst. destruct (index_at E C f g0 Hg0 pad a x z Hz) as [Hi Hr]. cbn [map]. unfold gforest. cbn [map app]. cbn [eval_els]. change (ThisString E (Some (gtree (hop_tree (At pad a x))))) with (Ok TypeIndex). cbn [rbind].
    change (bseq TypeIndex TypeIndex) with true. cbn iota. unfold ev. rewrite Hi. cbn [rbind]. replace (z <? 0) with false by lia. rewrite (GetAt_nth m z (Some c) ltac:(lia) Hc). cbn [rbind].
    apply (IH Hok' Hfr'); [eapply all_nodes_child; eassumption|eapply carries_moved; eassumption].
  - inversion Hok as [|? ? _ Hok']; subst. inversion Hfr as [|? ? _ Hfr']; subst. destruct HM as (-> & -> & Hs & Hm0). cbn [map]. unfold gforest. cbn [map app].
    erewrite (eval_els_braces E C f g0 p simpl root All) by (first [reflexivity|apply (selector_all E C f g0 s m0 _ Hs Hm0 Ht)]).
    apply (IH Hok' Hfr'); [eapply whole_all; eassumption|]. split; auto.
  - inversion Hok as [|? ? _ Hok']; subst. inversion Hfr as [|? ? _ Hfr']; subst. destruct HM as (-> & -> & Hs & Hm0). cbn [map]. unfold gforest. cbn [map app].
    erewrite (eval_els_braces E C f g0 p simpl root (Of pad a x)) by (first [reflexivity|apply (selector_of E C f g0 Hg0 pad a x z s m0 _ Hs Hm0 Ht Hz Hlt)]).
    apply (IH Hok' Hfr'); [eapply whole_of; eassumption|]. split; auto.
Qed.
End Ev.

(** ** C89 *)
Theorem C89_get : forall E C l f g n, Forall (hop_ok E) l -> l <> [] -> fits3 f (hops_text l) -> whole E g -> trail E boxed g l None g n ->
  Get E C f (Some g) (hops_text l) = Ok (Some g, Some n).
Proof.
  intros E C l f g n Hok Hn Hf Hg Hw. rewrite Get_hops_eq by assumption. destruct f as [|[|f]]; [destruct Hf; lia..|].
  destruct (get_els_trail E C f g Hg (gtree (hops_tree l)) l None g n Hw Hok Hg [] None [] eq_refl) as (prev & k & H). rewrite app_nil_r in H. rewrite H. reflexivity.
Qed.
Print Assumptions C89_get.
Theorem C89_eval : forall E C l f g n w, Forall (hop_ok E) l -> Forall hop_free l -> starts_with_name l -> fits3 f (hops_text l) -> whole E g -> trail E bare g l None g n ->
  plain (VPtr (Some (match List.last l (Go (Index [])) with At _ _ _ => boxed n | _ => n end))) w ->
  exists e, NewExpression E f (hops_text l) = Ok e /\ Eval E C f g (Some e) = Ok (g, EVal w).
Proof.
  intros E C l f g n w Hok Hfr Hst Hf Hg Ha Hw. eexists. split; [apply NewExpression_hops; assumption|]. assert (Hlne : l <> []) by (intros ->; exact Hst). destruct Hf as [_ Hf].
  destruct f as [|[|[|[|f]]]]; try lia. rewrite Eval_hops by exact Hlne.
  destruct (eval_els_trail E C f g Hg (gtree (hops_tree l)) true l None g n Ha Hok Hfr Hg false [] None [] eq_refl) as (prev & k & H).
  rewrite app_nil_r in H. rewrite H. cbn [eval_els]. rewrite (plain_fun _ _ _ Hw (plain_simplify _)).
  destruct (exists_last Hlne) as (l' & x & ->). rewrite last_last. unfold hop_index. rewrite fold_left_app. destruct x; reflexivity.
Qed.
Print Assumptions C89_eval.
(** Before a name there is nothing to select: after indexes only, a selector finds nothing. *)
Definition only_index (h : hop) : Prop := match h with At _ _ _ => True | _ => False end.
Definition selects (h : hop) : Prop := match h with All | Of _ _ _ => True | _ => False end.
Theorem C89_no_name : forall E C l h tl f g n, let p := l ++ h :: tl in
  Forall (hop_ok E) p -> Forall only_index l -> selects h -> fits3 f (hops_text p) -> whole E g -> trail E boxed g l None g n ->
  Get E C f (Some g) (hops_text p) = Ok (Some g, None).
Proof.
  intros E C l h tl f g n p Hok Hl Hh Hf Hg Hw. assert (Hp : p <> []) by (unfold p; destruct l; discriminate). rewrite Get_hops_eq by assumption. destruct f as [|[|f]]; [destruct Hf; lia..|].
  assert (Hokl : Forall (hop_ok E) l) by (apply Forall_app in Hok; apply Hok).
  assert (Ep : gforest (map hop_tree p) = gforest (map hop_tree l) ++ Some (gtree (hop_tree h)) :: gforest (map hop_tree tl)) by (unfold p, gforest; rewrite map_app, map_app; reflexivity). rewrite Ep.
  assert (K : forall q m, trail E boxed g l None m n -> whole E m -> forall t prev, exists prev', get_els E C (evalExpression E C (S (S f))) q (gforest (map hop_tree l) ++ t) (Some m) prev [] g = get_els E C (evalExpression E C (S (S f))) q t (Some n) prev' [] g).
  { clear -Hl Hg. intros q. induction l as [|x l IH]; intros m Hm Hwm t prev.
    - inversion Hm; subst. exists prev. reflexivity.
    - inversion Hl as [|? ? Hx Hl']; subst. destruct x; try contradiction. inversion Hm; subst; [match goal with Hs : spells _ _ (At _ _ _) _ |- _ => destruct Hs as [_ []] end|].
      match goal with Hz : position _ _ _ ?z, Hn : nth_error _ _ = Some (Some ?c), Ht : trail _ _ _ _ (moved None _) _ _ |- _ =>
        destruct (index_at E C f g Hg pad a l0 z Hz) as [Hi Hr]; cbn [map]; unfold gforest; cbn [map app]; cbn [get_els]; change (ThisString E (Some (gtree (hop_tree (At pad a l0))))) with (Ok TypeIndex); cbn [rbind];
        change (bseq TypeIndex TypeIndex) with true; cbn iota; rewrite Hi; cbn [rbind]; replace (z <? 0) with false by lia; rewrite (GetAt_nth m z (Some c) ltac:(lia) Hn); cbn [rbind add_out];
        apply (IH Hl' _ Ht); apply whole_bracket; eapply all_nodes_child; eassumption end. }
  destruct (K (gtree (hops_tree p)) g Hw Hg (Some (gtree (hop_tree h)) :: gforest (map hop_tree tl)) None) as (prev & H). rewrite H.
  assert (Et : ThisString E (Some (gtree (hop_tree h))) = Ok TypeSelector) by (destruct h; try contradiction; reflexivity).
  cbn [get_els]. rewrite Et. cbn [rbind]. change (bseq TypeSelector TypeIndex) with false. change (bseq TypeSelector TypeSelector) with true. cbn iota.
  unfold selector. destruct prev; reflexivity.
Qed.
Print Assumptions C89_no_name.
(** Paths with selectors after names only (C69, C81) are a special case. *)
Definition spelled (l : list hop) : Prop := forall e, In (Go e) l -> key e <> Some [].
Lemma trail_hops E w g0 l g n : spelled l -> hops E w g0 l g n -> forall M l' n', (forall M', trail E w g0 l' M' n n') -> trail E w g0 (l ++ l') M g n'.
Proof.
  intros Hk H M l' n' H'. revert M. induction H as [g|e s l g i c n Hs Hf _ IH|pad a x l g z c n Hz Hc _ IH|pad a x s l g i c n Hs Hs0 Hf _ IH|h s l g cs n Hs Ht Hne _ IH|h s pad a x z l g cs n Hs Ht Hne Hz Hlt _ IH]; intros M; cbn [app].
  - apply H'.
  - eapply trail_name; [|exact Hf|apply IH; [intros e' He; apply Hk; right; exact He|exact H']]. split; [|exact Hs]. intros ->. apply (Hk e); [left; reflexivity|exact Hs].
  - eapply trail_at; [exact Hz|exact Hc|apply IH; [intros e' He; apply Hk; right; exact He|exact H']].
  - eapply trail_name; [split; [exact Hs0|exact Hs]|exact Hf|apply IH; [intros e' He; apply Hk; right; exact He|exact H']].
  - destruct cs as [|c cs]; [congruence|]. destruct (SelFacts.those_first E s _ c cs Ht) as (i & Hf). eapply trail_name; [exact Hs|exact Hf|]. eapply trail_all; [exact Ht|]. apply IH; [intros e' He; apply Hk; right; right; exact He|exact H'].
  - destruct cs as [|c cs]; [congruence|]. destruct (SelFacts.those_first E s _ c cs Ht) as (i & Hf). eapply trail_name; [exact Hs|exact Hf|]. eapply trail_of; [exact Ht|exact Hz|exact Hlt|]. apply IH; [intros e' He; apply Hk; right; right; exact He|exact H'].
Qed.
Theorem C89_names : forall E w g0 l g n M, spelled l -> hops E w g0 l g n -> trail E w g0 l M g n.
Proof. intros E w g0 l g n M Hk H. rewrite <- (app_nil_r l). eapply trail_hops; [exact Hk|exact H|]. intros. constructor. Qed.
Print Assumptions C89_names.
(** In particular p.a[i]{} gives the subnodes of the children of p.a that are called a; what is at position i makes no difference. *)
Theorem C89_after_index : forall E C l h s pad a x z d f g m i c cs, let p := l ++ [h; At pad a x; All] in
  Forall (hop_ok E) p -> spelled l -> fits3 f (hops_text p) -> whole E g -> hops E boxed g l g m ->
  spells E g h s -> first_named E s (out m) i c -> position E g a z -> nth_error (out c) (Z.to_nat z) = Some (Some d) -> SelSpec.those E s (out c) cs ->
  Get E C f (Some g) (hops_text p) = Ok (Some g, Some (Node (VStr (bs "{")) (flat_map out cs))).
Proof.
  intros E C l h s pad a x z d f g m i c cs p Hok Hk Hf Hg Hw Hs Hfn Hz Hn Ht. apply C89_get; auto; [unfold p; destruct l; discriminate|]. unfold p. eapply trail_hops; [exact Hk|exact Hw|]. intros M.
  eapply trail_name; [exact Hs|exact Hfn|]. eapply trail_at; [exact Hz|exact Hn|]. cbn [moved]. eapply trail_all; [exact Ht|]. constructor.
Qed.
Print Assumptions C89_after_index.

(** ** Examples: r has the child a, which has the children x, a (with u) and a (with v). *)
Definition ex_nest : graph := Node (VStr (bs "r")) [Some (nd "a" [nd "x" [nd "t" []]; nd "a" [nd "u" []]; nd "a" [nd "v" []]])].
Definition ex_one (h : hop) : list hop := [Go (Name (bs "a")); At [] (ONum (bs "0")) []; h].
Lemma ex_nest_data : all_nodes data ex_nest.
Proof. unfold ex_nest, nd. repeat first [apply (all_node _ _ []) | apply (all_node _ _ [_]) | apply (all_node _ _ [_; _; _]) | constructor]. Qed.
Lemma ex_nest_those : SelSpec.those env0 (bs "a") (out (nd "a" [nd "x" [nd "t" []]; nd "a" [nd "u" []]; nd "a" [nd "v" []]])) [nd "a" [nd "u" []]; nd "a" [nd "v" []]].
Proof. cbn [out nd map]. apply SelSpec.those_not; [intros (n & [= <-] & H); discriminate H|]. apply SelSpec.those_this; [eexists; split; reflexivity|]. apply SelSpec.those_this; [eexists; split; reflexivity|]. constructor. Qed.
Lemma ex_num n : digits n -> operand_ok env0 (ONum n).
Proof. intros H. exists [], n, []. split; [rewrite app_nil_r; reflexivity|]. split; [auto|]. split; [exact H|auto]. Qed.
Lemma ex_digit c : 48 <= bz c <= 57 -> digits [c].
Proof. intros H. split; [discriminate|]. constructor; [exact H|constructor]. Qed.
Lemma ex_pos c g : 48 <= bz c <= 57 -> position env0 g (ONum [c]) (number_of [c]).
Proof. intros H. apply pos_number; [apply ex_digit, H|cbn; lia]. Qed.
Lemma ex_one_ok h : hop_ok env0 h -> Forall (hop_ok env0) (ex_one h).
Proof.
  intros H. apply Forall_cons; [apply ex_go; [discriminate|repeat constructor]|]. apply Forall_cons; [|apply Forall_cons; [exact H|constructor]].
  split; [constructor|]. split; [apply ex_num, (ex_digit "0"%byte); cbn; lia|constructor].
Qed.
Lemma ex_one_trail w h n : (forall t, trail env0 w ex_nest [h] (Some (nd "a" [nd "x" [nd "t" []]; nd "a" [nd "u" []]; nd "a" [nd "v" []]], bs "a")) (w t) n) -> trail env0 w ex_nest (ex_one h) None ex_nest n.
Proof.
  intros H. eapply trail_name with (s := bs "a") (i := O); [split; [discriminate|reflexivity]|split; [reflexivity|split; [eexists; split; reflexivity|intros j c Hj; lia]]|].
  eapply trail_at; [apply (ex_pos "0"%byte); cbn; lia|reflexivity|]. apply H.
Qed.
Example C89_ex : hops_text (ex_one All) = bs "a[0]{}" /\ hops_text (ex_one (Of [] (ONum (bs "1")) [])) = bs "a[0]{1}" /\
  Get env0 calls0 40 (Some ex_nest) (bs "a[0]{}") = Ok (Some ex_nest, Some (nd "{" [nd "u" []; nd "v" []])) /\
  Get env0 calls0 40 (Some ex_nest) (bs "a[0]{1}") = Ok (Some ex_nest, Some (nd "{" [nd "v" []])) /\
  (exists e, NewExpression env0 40 (bs "a[0]{1}") = Ok e /\ Eval env0 calls0 40 ex_nest (Some e) = Ok (ex_nest, EVal (VStr (bs "v")))) /\
  Get env0 calls0 40 (Some ex_nest) (bs "[0]{}") = Ok (Some ex_nest, None).
Proof.
  assert (Hof : hop_ok env0 (Of [] (ONum (bs "1")) [])) by (split; [constructor|split; [apply ex_num, (ex_digit "1"%byte); cbn; lia|constructor]]).
  assert (T1 : forall w, trail env0 w ex_nest (ex_one All) None ex_nest (nd "{" [nd "u" []; nd "v" []])) by (intros w; apply ex_one_trail; intros t; eapply trail_all; [exact ex_nest_those|constructor]).
  assert (T2 : forall w, trail env0 w ex_nest (ex_one (Of [] (ONum (bs "1")) [])) None ex_nest (nd "{" [nd "v" []])).
  { intros w. apply ex_one_trail. intros t. eapply trail_of; [exact ex_nest_those|apply (ex_pos "1"%byte); cbn; lia|cbn; lia|]. constructor. }
  split; [reflexivity|]. split; [reflexivity|]. split; [|split; [|split]].
  - apply (C89_get env0 calls0 (ex_one All)); [apply ex_one_ok; exact I|discriminate|split; cbn; lia|apply data_whole, ex_nest_data|apply T1].
  - apply (C89_get env0 calls0 (ex_one (Of [] (ONum (bs "1")) []))); [apply ex_one_ok; exact Hof|discriminate|split; cbn; lia|apply data_whole, ex_nest_data|apply T2].
  - apply (C89_eval env0 calls0 (ex_one (Of [] (ONum (bs "1")) []))) with (n := nd "{" [nd "v" []]); [apply ex_one_ok; exact Hof| | |split; cbn; lia|apply data_whole, ex_nest_data|apply T2|].
    + apply Forall_cons; [cbn; unfold ordinary; cbn; intuition discriminate|repeat (apply Forall_cons; [exact I|]); constructor].
    + cbn. repeat split; cbn; try lia; discriminate.
    + left. exists (VStr (bs "{")), (VStr (bs "v")). auto.
  - apply (C89_no_name env0 calls0 [At [] (ONum (bs "0")) []] All [] 40 ex_nest (boxed (nd "a" [nd "x" [nd "t" []]; nd "a" [nd "u" []]; nd "a" [nd "v" []]]))).
    + apply Forall_cons; [split; [constructor|split; [apply ex_num, (ex_digit "0"%byte); cbn; lia|constructor]]|apply Forall_cons; [exact I|constructor]].
    + repeat constructor.
    + exact I.
    + split; cbn; lia.
    + apply data_whole, ex_nest_data.
    + eapply trail_at; [apply (ex_pos "0"%byte); cbn; lia|reflexivity|constructor].
Qed.
