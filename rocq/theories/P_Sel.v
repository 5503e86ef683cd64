(** C69: selectors in paths. *)
From Verif Require Import Base Value Graph GraphSpec GraphFacts TextSpec PathSpec PathParser PathFacts PathTerm TypesSpec NumFacts Eval AccessSpec AccessFacts EvalSpec EvalFacts FuncSpec SelSpec SelFacts Samples P_Access P_Func.

Local Notation len l := (Z.of_nat (List.length l)).

(** ** C69 name{} takes the subnodes of all children of that name, name{n} those of the nth of
    them.  Full claim: any path with selectors; here a selector follows a name or a quoted
    string, and the number in it is written with digits. *)
Theorem C69_get_partial : forall E C l f g n, Forall (step_ok E) l -> l <> [] -> fits2 f (steps_text l) -> whole E g -> leads E l g n ->
  Get E C f (Some g) (steps_text l) = Ok (Some g, Some n).
Proof. exact Get_steps. Qed.
Print Assumptions C69_get_partial.
Theorem C69_missing_partial : forall E C l f g, Forall (step_ok E) l -> l <> [] -> fits2 f (steps_text l) -> all_nodes data g -> strays E l g ->
  Get E C f (Some g) (steps_text l) = Ok (Some g, None).
Proof. exact Get_steps_missing. Qed.
Print Assumptions C69_missing_partial.
(** With names and selectors Get always returns, and getters work on what it returns. *)
Theorem C69_safe_partial : forall E C l f g, Forall (step_ok E) l -> l <> [] -> Forall (fun st => key (elem_of st) <> None) l -> fits2 f (steps_text l) -> all_nodes data g ->
  exists r, Get E C f (Some g) (steps_text l) = Ok (Some g, r) /\ usable E r /\ match r with Some n => leads E l g n | None => strays E l g end.
Proof.
  intros E C l f g Hok Hn Hk Hf Hg. destruct (leads_or_strays E l Hk g (data_whole E g Hg)) as [(n & Hw)|Hl].
  - pose proof (leads_data E l g n Hw Hg) as Hd. exists (Some n). split; [apply Get_steps; auto using data_whole|]. split; [apply data_usable; exact Hd|exact Hw].
  - exists None. split; [apply Get_steps_missing; auto|]. split; [|exact Hl]. repeat split; eexists; reflexivity.
Qed.
Print Assumptions C69_safe_partial.

(** Reading in two steps is the same as reading the whole path. *)
Lemma leads_app E p q g m n : leads E p g m -> leads E q m n -> leads E (p ++ q) g n.
Proof. induction 1; intros Hq; cbn [app]; [exact Hq|eapply leads_plain; eauto|eapply leads_pick; eauto]. Qed.
Lemma leads_strays E p q g m : leads E p g m -> strays E q m -> strays E (p ++ q) g.
Proof. induction 1; intros Hq; cbn [app]; [exact Hq|eapply strays_plain; eauto|eapply strays_pick; eauto]. Qed.
Lemma strays_app E p q g : strays E p g -> strays E (p ++ q) g.
Proof. induction 1; cbn [app]; [constructor; assumption|eapply strays_plain; eauto|eapply strays_pick; eauto]. Qed.
Lemma steps_text_app p q : p <> [] -> q <> [] -> Forall (fun st => key (elem_of st) <> None) q -> steps_text (p ++ q) = steps_text p ++ "."%byte :: steps_text q.
Proof.
  intros Hp Hq Hk. destruct p as [|a p]; [congruence|]. destruct q as [|b q]; [congruence|]. cbn [app steps_text]. rewrite flat_map_app, <- app_assoc. do 2 f_equal. cbn [flat_map].
  inversion Hk as [|? ? Hb _]; subst. destruct b as [[s|c s|d]|[s|c s|d] x]; cbn in Hb; try congruence; reflexivity.
Qed.
Theorem C69_compose_partial : forall E C p q f g, Forall (step_ok E) p -> Forall (step_ok E) q -> p <> [] -> q <> [] ->
  Forall (fun st => key (elem_of st) <> None) p -> Forall (fun st => key (elem_of st) <> None) q -> all_nodes data g ->
  fits2 f (steps_text p ++ "."%byte :: steps_text q) ->
  exists m r, Get E C f (Some g) (steps_text p) = Ok (Some g, m) /\ Get E C f m (steps_text q) = Ok (m, r) /\
    Get E C f (Some g) (steps_text p ++ "."%byte :: steps_text q) = Ok (Some g, r).
Proof.
  intros E C p q f g Hp Hq Hnp Hnq Hkp Hkq Hg Hf. pose proof (steps_text_app p q Hnp Hnq Hkq) as Ht.
  assert (Hfp : fits2 f (steps_text p)) by (destruct Hf as [H1 H2]; rewrite app_length in H1, H2; split; lia).
  assert (Hfq : fits2 f (steps_text q)) by (destruct Hf as [H1 H2]; rewrite app_length in H1, H2; cbn [List.length] in H1, H2; split; lia).
  rewrite <- Ht in *. assert (Hok : Forall (step_ok E) (p ++ q)) by (apply Forall_app; auto).
  assert (Hn : p ++ q <> []) by (destruct p; [congruence|discriminate]).
  destruct (leads_or_strays E p Hkp g (data_whole E g Hg)) as [(m & Hw)|Hl].
  - pose proof (leads_data E p g m Hw Hg) as Hm. destruct (leads_or_strays E q Hkq m (data_whole E m Hm)) as [(n & Hw2)|Hl2].
    + exists (Some m), (Some n). split; [apply Get_steps; auto using data_whole|]. split; [apply Get_steps; auto using data_whole|].
      apply Get_steps; auto using data_whole. eapply leads_app; eassumption.
    + exists (Some m), None. split; [apply Get_steps; auto using data_whole|]. split; [apply Get_steps_missing; auto|]. apply Get_steps_missing; auto. eapply leads_strays; eassumption.
  - exists None, None. split; [apply Get_steps_missing; auto|]. split; [reflexivity|]. apply Get_steps_missing; auto. apply strays_app, Hl.
Qed.
Print Assumptions C69_compose_partial.

(** The children of a name are determined. *)
Theorem C69_those : forall E s o, printable E o -> exists cs, those E s o cs /\ (forall cs', those E s o cs' -> cs' = cs) /\ (cs = [] <-> none_named E s o).
Proof.
  intros E s o Hp. destruct (those_total E s o Hp) as (cs & H). exists cs. split; [exact H|]. split; [intros cs' H'; exact (those_fun E s o cs' H' cs H)|].
  split; [intros ->; apply those_none, H|]. intros Hn. apply those_none in Hn. exact (those_fun E s o cs H [] Hn).
Qed.
Print Assumptions C69_those.

(** In expressions *)
Section F.
Variable E : env.
Variable C : calls.
Variable ev : bool -> option graph -> graph -> res (graph * eres).
Hypothesis ev_num : forall d g, digits d -> number_of d < 2 ^ 63 -> ev true (Some (gtree (T d []))) g = Ok (g, EVal (VInt KInt64 (number_of d))).
Definition named_step (st : step) : Prop := exists s, elem_of st = Name s /\ ordinary s.
Lemma eval_els_steps p l m n : leads E l m n -> Forall (step_ok E) l -> Forall named_step l -> whole E m -> forall prev k g,
  eval_els E C ev p true false (gforest (flat_map step_trees l)) (Some m) prev k g = Ok (g, EVal (simplify (Some n))).
Proof.
  induction 1 as [m|e l m m1 n Hw _ IH|e s x l cs m n Hk Ht Hne _ IH]; intros Hok Hns Hm prev k g.
  - reflexivity.
  - inversion Hok as [|? ? (H1 & H2 & _) Hok']; subst. inversion Hns as [|? ? (s & He & Ho) Hns']; subst. cbn [elem_of] in *. subst e.
    cbn [flat_map step_trees app gforest map elem_tree]. rewrite (eval_els_name E C ev p true false _ m prev k g s m1 H1 Ho Hm Hw). apply IH; auto.
    inversion Hw as [|? ? ? ? ? ? ? ? Hf Hw1|]; subst. inversion Hw1; subst. eapply all_nodes_child; [exact Hm|apply Hf].
  - inversion Hok as [|? ? Hst Hok']; subst. destruct Hst as (H1 & H2 & H3). destruct H3 as (H3 & H4 & H5). inversion Hns as [|? ? (s' & He & Ho) Hns']; subst. cbn [elem_of] in *. subst e.
    injection Hk as ->. destruct (whole_inv E m Hm) as (kk & Hkk & Hp & _). destruct cs as [|c cs]; [congruence|]. destruct (those_first E s _ c cs Ht) as (i & Hf).
    assert (Hw : walk E [Name s] m c) by (eapply walk_key; [reflexivity|exact Hf|constructor]).
    cbn [flat_map step_trees app gforest map elem_tree]. rewrite (eval_els_name E C ev p true false _ m prev k g s c H1 Ho Hm Hw). cbn [eval_els].
    change (ThisString E (Some (gtree (sel_tree x)))) with (Ok TypeSelector). cbn [rbind]. change (bseq TypeSelector TypeIndex) with false. change (bseq TypeSelector TypeSelector) with true. cbn iota.
    rewrite (selector_chosen E ev ev_num x m s (c :: cs) g H5 (proj1 H1) Hp Ht). cbn [rbind]. apply (IH Hok' Hns'). eapply chosen_nodes; [exact Hm|eexists; reflexivity|exact Ht].
Qed.
End F.
Theorem C69_eval_partial : forall E C l f g n w, Forall (step_ok E) l -> Forall named_step l -> starts_with_letter (map elem_of l) -> fits2 f (steps_text l) -> whole E g ->
  leads E l g n -> plain (VPtr (Some n)) w ->
  exists e, NewExpression E f (steps_text l) = Ok e /\ Eval E C f g (Some e) = Ok (g, EVal w).
Proof.
  intros E C l f g n w Hok Hns Hst [Hf1 Hf2] Hg Hl Hw. eexists. split; [apply NewExpression_steps; assumption|].
  destruct f as [|[|[|f]]]; try lia. unfold Eval, Eval_with. cbn [ThisString this vstring sstring rbind]. change (bseq TypeExpression TypePath || bseq TypeExpression TypeExpression) with true. cbn iota.
  replace w with (simplify (Some n)) by (eapply plain_fun; [apply plain_simplify|exact Hw]).
  assert (Hlne : l <> []) by (intros ->; exact Hst).
  change (evalExpression E C (S (S (S f))) true (Some (Node (VStr TypeExpression) [Some (gtree (steps_tree l))])) g) with (evalExpression E C (S (S f)) true (Some (gtree (steps_tree l))) g).
  cbn [evalExpression steps_tree]. unfold eval_body. change (gtree (T (bs "!p") (flat_map step_trees l))) with (Node (VStr TypePath) (gforest (flat_map step_trees l))).
  cbn - [evalPath gforest simplify flat_map]. unfold evalPath. cbn [out].
  pose proof (eval_els_steps E C (evalExpression E C (S f)) (fun d g Hd Hl => eval_number E C f d g Hd Hl true []) (Node (VStr TypePath) (gforest (flat_map step_trees l))) l g n Hl Hok Hns Hg None [] g) as H.
  destruct l as [|[e|e x] l]; [congruence|exact H|exact H].
Qed.
Print Assumptions C69_eval_partial.

Definition ex_sel : graph := nd "r" [nd "a" [nd "1" [nd "p" []]]; nd "b" [nd "x" []]; nd "a" [nd "2" [nd "q" []]; nd "3" []]].
Definition ex_a (x : sel) : list step := [Pick (Name (bs "a")) x].
Lemma ex_sel_data : all_nodes data ex_sel.
Proof. unfold ex_sel, nd. repeat first [apply (all_node _ _ []) | apply (all_node _ _ [_]) | apply (all_node _ _ [_; _]) | apply (all_node _ _ [_; _; _]) | constructor]. Qed.
Lemma ex_those : those env0 (bs "a") (out ex_sel) [nd "a" [nd "1" [nd "p" []]]; nd "a" [nd "2" [nd "q" []]; nd "3" []]].
Proof.
  unfold ex_sel. cbn [out nd map]. apply those_this; [eexists; split; reflexivity|]. apply those_not; [intros (n & [= <-] & H); discriminate H|]. apply those_this; [eexists; split; reflexivity|]. constructor.
Qed.
Lemma ex_a_ok x : sel_ok x -> Forall (step_ok env0) (ex_a x).
Proof. intros Hx. constructor; [|constructor]. split; [apply name_ascii; [discriminate|repeat constructor]|]. split; [exact I|]. split; [discriminate|]. split; [discriminate|exact Hx]. Qed.
Example C69_ex :
  steps_text (ex_a Every) = bs "a{}" /\ Get env0 calls0 20 (Some ex_sel) (bs "a{}") = Ok (Some ex_sel, Some (nd "{" [nd "1" [nd "p" []]; nd "2" [nd "q" []]; nd "3" []])) /\
  Get env0 calls0 20 (Some ex_sel) (bs "a{1}") = Ok (Some ex_sel, Some (nd "{" [nd "2" [nd "q" []]; nd "3" []])) /\
  Get env0 calls0 20 (Some ex_sel) (bs "a{7}") = Ok (Some ex_sel, Some (nd "{" [])) /\
  Get env0 calls0 30 (Some ex_sel) (bs "a{1}.2") = Ok (Some ex_sel, Some (nd "2" [nd "q" []])) /\
  Get env0 calls0 20 (Some ex_sel) (bs "z{0}") = Ok (Some ex_sel, None).
Proof.
  assert (Hw : whole env0 ex_sel) by apply data_whole, ex_sel_data.
  assert (Hd : forall c, In c (bs "0123456789") -> sel_ok (Nth [c])).
  { intros c Hc. split; [split; [discriminate|constructor; [|constructor]]|]; cbn in Hc; intuition (subst; cbn; lia). }
  assert (H1 : forall x, sel_ok x -> Get env0 calls0 20 (Some ex_sel) (steps_text (ex_a x)) = Ok (Some ex_sel, Some (Node (VStr (bs "{")) (chosen x [nd "a" [nd "1" [nd "p" []]]; nd "a" [nd "2" [nd "q" []]; nd "3" []]]))) \/ ~ fits2 20 (steps_text (ex_a x))).
  { intros x Hx. destruct (Z_le_dec (len (steps_text (ex_a x))) 4) as [L|L].
    - left. apply C69_get_partial; [apply ex_a_ok, Hx|discriminate|split; lia|exact Hw|]. eapply leads_pick; [reflexivity|exact ex_those|discriminate|constructor].
    - right. intros [_ H]. lia. }
  split; [reflexivity|].
  split; [destruct (H1 Every I) as [H|H]; [exact H|exfalso; apply H; split; cbn; lia]|].
  split; [destruct (H1 (Nth (bs "1"))) as [H|H]; [apply Hd; cbn; tauto|exact H|exfalso; apply H; split; cbn; lia]|].
  split; [destruct (H1 (Nth (bs "7"))) as [H|H]; [apply Hd; cbn; tauto|exact H|exfalso; apply H; split; cbn; lia]|].
  split.
  - change (bs "a{1}.2") with (steps_text (ex_a (Nth (bs "1")) ++ [Plain (Name (bs "2"))])).
    apply C69_get_partial; [apply Forall_app; split; [apply ex_a_ok, Hd; cbn; tauto|]|discriminate|split; cbn; lia|exact Hw|].
    + constructor; [|constructor]. split; [apply name_ascii; [discriminate|repeat constructor]|]. split; exact I.
    + eapply leads_pick; [reflexivity|exact ex_those|discriminate|]. eapply leads_plain; [|constructor].
      eapply walk_key with (i := O); [reflexivity| |constructor]. split; [reflexivity|]. split; [eexists; split; reflexivity|]. intros j c Hj. lia.
  - change (bs "z{0}") with (steps_text [Pick (Name (bs "z")) (Nth (bs "0"))]). apply C69_missing_partial; [|discriminate|split; cbn; lia|exact ex_sel_data|].
    + constructor; [|constructor]. split; [apply name_ascii; [discriminate|repeat constructor]|]. split; [exact I|]. split; [discriminate|]. split; [discriminate|]. apply Hd. cbn; tauto.
    + constructor. eapply lost_here; [reflexivity|]. repeat constructor; intros (n & [= <-] & Hn); discriminate Hn.
Qed.
Example C69_eval_ex : exists e, NewExpression env0 30 (bs "a{1}.2") = Ok e /\ Eval env0 calls0 30 ex_sel (Some e) = Ok (ex_sel, EVal (VStr (bs "q"))).
Proof.
  change (bs "a{1}.2") with (steps_text (ex_a (Nth (bs "1")) ++ [Plain (Name (bs "2"))])).
  eapply C69_eval_partial with (n := nd "2" [nd "q" []]).
  - apply Forall_app. split; [apply ex_a_ok; split; [split; [discriminate|repeat constructor; cbn; lia]|cbn; lia]|].
    constructor; [|constructor]. split; [apply name_ascii; [discriminate|repeat constructor]|]. split; exact I.
  - apply Forall_cons; [|apply Forall_cons; [|constructor]]; eexists; (split; [reflexivity|]); unfold ordinary; cbn; intuition discriminate.
  - cbn. repeat split; cbn; try lia; discriminate.
  - split; cbn; lia.
  - apply data_whole, ex_sel_data.
  - eapply leads_pick; [reflexivity|exact ex_those|discriminate|]. eapply leads_plain; [|constructor].
    eapply walk_key with (i := O); [reflexivity| |constructor]. split; [reflexivity|]. split; [eexists; split; reflexivity|]. intros j c Hj. lia.
  - left. exists (VStr (bs "2")), (VStr (bs "q")). auto.
Qed.
(** Set does not know selectors: what is stored at a{0} goes below a new subnode !s of the first
    a, and is not what a{0} then leads to. *)
Theorem C69_set_refuted : exists g v g' r n, all_nodes data g /\ Set_ env0 20 (Some g) (bs "a{0}") v = Ok (Some g', r) /\
  Get env0 calls0 20 (Some g') (bs "a{0}") = Ok (Some g', Some n) /\ out n = [Some (nd "1" [nd "p" []]); Some (Node (VStr (bs "!s")) [Some (Node v [])])].
Proof.
  exists ex_sel, (VStr (bs "new")), (nd "r" [nd "a" [nd "1" [nd "p" []]; nd "!s" [nd "new" []]]; nd "b" [nd "x" []]; nd "a" [nd "2" [nd "q" []]; nd "3" []]]),
    (Some (nd "new" [])), (nd "{" [nd "1" [nd "p" []]; nd "!s" [nd "new" []]]).
  assert (Hs : sel_ok (Nth (bs "0"))) by (split; [split; [discriminate|repeat constructor; cbn; lia]|cbn; lia]).
  assert (Hp : NewPath env0 20 (bs "a{0}") = Ok (gtree (steps_tree (ex_a (Nth (bs "0")))))).
  { change (bs "a{0}") with (steps_text (ex_a (Nth (bs "0")))). apply NewPath_steps; [apply ex_a_ok, Hs|discriminate|cbn; lia|cbn; lia]. }
  split; [exact ex_sel_data|]. split; [unfold Set_; rewrite Hp; reflexivity|]. split; [|reflexivity].
  unfold Get. rewrite Hp. reflexivity.
Qed.
Print Assumptions C69_set_refuted.
