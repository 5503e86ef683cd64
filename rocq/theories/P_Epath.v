(** C77: paths in expressions. *)
From Verif Require Import Base Value Graph GraphSpec GraphFacts Encoding TextSpec PathSpec PathParser PathFacts PathTerm TypesSpec NumFacts Eval AccessSpec AccessFacts EvalSpec EvalFacts FuncSpec SelSpec SelFacts EpathSpec Samples P_Access P_Func.

Local Notation len l := (Z.of_nat (List.length l)).

Section F.
Variable E : env.
Variable C : calls.
Variable ev : bool -> option graph -> graph -> res (graph * eres).
Hypothesis ev_num : forall d g, digits d -> number_of d < 2 ^ 63 -> ev true (Some (gtree (T d []))) g = Ok (g, EVal (VInt KInt64 (number_of d))).

(** One name or quoted string *)
Lemma eval_els_key p simpl root els m prev k g e s : elem_ok E e -> unmarked e -> key e = Some s -> ordinary s ->
  eval_els E C ev p simpl root (Some (gtree (elem_tree e)) :: els) (Some m) prev k g =
  (let* next := Node_ E (Some m) s in
   match next with
   | Some _ => eval_els E C ev p simpl false els next (Some m) s g
   | None =>
       match out m with
       | [] => eval_els E C ev p simpl false els None (Some m) s g
       | _ => let* t := first_this m in function E C ev p t g
       end
   end).
Proof.
  intros Hs Hu Hk Ho. destruct (key_unmarked E e s Hs Hu Hk) as [Hmk ->]. unfold marked in Hmk. rewrite !orb_false_iff in Hmk. destruct Hmk as [[[M1 M2] M3] M4].
  destruct (ordinary_not s Ho) as (O1 & O2 & O3 & O4 & O5).
  cbn [eval_els gtree]. cbn [ThisString this vstring sstring rbind]. rewrite M1, M2, M3, M4, O1, O2, O3, O4, O5. reflexivity.
Qed.
Lemma eval_els_found p simpl root els m prev k g e s i c : elem_ok E e -> unmarked e -> key e = Some s -> ordinary s -> whole E m -> first_named E s (out m) i c ->
  eval_els E C ev p simpl root (Some (gtree (elem_tree e)) :: els) (Some m) prev k g = eval_els E C ev p simpl false els (Some c) (Some m) s g.
Proof.
  intros Hs Hu Hk Ho Hm Hf. rewrite (eval_els_key p simpl root els m prev k g e s) by assumption. destruct (whole_inv E m Hm) as (kk & Hkk & Hp & _).
  rewrite (Node_found E m s i c (find_child_some _ _ _ _ _ Hf Hp) (proj1 Hf)). reflexivity.
Qed.
Lemma eval_els_index p simpl root els m prev k g d c : digits d -> number_of d < 2 ^ 63 -> GetAt (Some m) (number_of d) = Ok c ->
  eval_els E C ev p simpl root (Some (gtree (elem_tree (Index d))) :: els) (Some m) prev k g = eval_els E C ev p simpl true els c (Some m) k g.
Proof.
  intros Hd Hl Hc. cbn [eval_els]. change (ThisString E (Some (gtree (elem_tree (Index d))))) with (Ok TypeIndex). cbn [rbind].
  change (bseq TypeIndex TypeIndex) with true. cbn iota. rewrite (index_num ev ev_num d g Hd Hl). cbn [rbind].
  pose proof (number_of_nonneg d (proj2 Hd)) as Hn. replace (number_of d <? 0) with false by lia. rewrite Hc. reflexivity.
Qed.
Lemma eval_els_select p simpl root els m c g s x cs : sel_ok x -> s <> [] -> whole E m -> those E s (out m) cs ->
  eval_els E C ev p simpl root (Some (gtree (sel_tree x)) :: els) (Some c) (Some m) s g =
  eval_els E C ev p simpl false els (Some (Node (VStr (bs "{")) (chosen x cs))) (Some c) s g.
Proof.
  intros Hx Hs Hm Ht. destruct (whole_inv E m Hm) as (kk & Hkk & Hp & _). cbn [eval_els].
  change (ThisString E (Some (gtree (sel_tree x)))) with (Ok TypeSelector). cbn [rbind]. change (bseq TypeSelector TypeIndex) with false. change (bseq TypeSelector TypeSelector) with true. cbn iota.
  rewrite (selector_chosen E ev ev_num x m s cs g Hx Hs Hp Ht). reflexivity.
Qed.

Definition ends_index (root : bool) (l : list step) : bool := fold_left (fun _ st => match st with Plain (Index _) => true | _ => false end) l root.
Lemma eval_els_arrives p simpl l m n : arrives E l m n -> Forall (step_ok E) l -> Forall free l -> whole E m -> forall root tl prev k g,
  exists prev' k', eval_els E C ev p simpl root (gforest (flat_map step_trees l) ++ tl) (Some m) prev k g = eval_els E C ev p simpl (ends_index root l) tl (Some n) prev' k' g.
Proof.
  induction 1 as [m|e s l m i c n Hk Hf _ IH|d l m c n Hd Hc _ IH|e s x l cs m n Hk Ht Hne _ IH]; intros Hok Hfr Hm root tl prev k g.
  - exists prev, k. reflexivity.
  - inversion Hok as [|? ? (H1 & H2 & _) Hok']; subst. inversion Hfr as [|? ? F1 Hfr']; subst. unfold free in F1. cbn [elem_of] in *. rewrite Hk in F1.
    cbn [flat_map step_trees app gforest map]. rewrite (eval_els_found p simpl root _ m prev k g e s i c) by assumption.
    replace (ends_index root (Plain e :: l)) with (ends_index false l) by (destruct e; [reflexivity|reflexivity|discriminate]). apply IH; auto. eapply all_nodes_child; [exact Hm|apply Hf].
  - inversion Hok as [|? ? (H1 & _ & _) Hok']; subst. inversion Hfr as [|? ? _ Hfr']; subst. cbn [elem_of] in *. pose proof (number_of_nonneg d (proj2 H1)) as Hn.
    cbn [flat_map step_trees app gforest map]. rewrite (eval_els_index p simpl root _ m prev k g d (Some c) H1 Hd (GetAt_nth m _ _ Hn Hc)). apply IH; auto. eapply all_nodes_child; eassumption.
  - inversion Hok as [|? ? Hst Hok']; subst. destruct Hst as (H1 & H2 & H3). destruct H3 as (H3 & H4 & H5). inversion Hfr as [|? ? F1 Hfr']; subst. unfold free in F1. cbn [elem_of] in *. rewrite Hk in F1.
    destruct cs as [|c cs]; [congruence|]. destruct (those_first E s _ c cs Ht) as (i & Hf).
    cbn [flat_map step_trees app gforest map]. rewrite (eval_els_found p simpl root _ m prev k g e s i c) by assumption.
    rewrite (eval_els_select p simpl false _ m c g s x (c :: cs) H5 ltac:(congruence) Hm Ht). apply IH; auto. eapply chosen_nodes; [exact Hm|eexists; reflexivity|exact Ht].
Qed.
Lemma eval_els_none p root els prev k g : exists v, eval_els E C ev p true root els None prev k g = Ok (g, EVal v) /\ nothing v.
Proof. exists (VPtr None). split; [|right; reflexivity]. destruct els, root; reflexivity. Qed.
Lemma function_data p v g : data v -> function E C ev p v g = Ok (g, EVal VNil).
Proof. destruct v; intros H; try contradiction; reflexivity. Qed.
Lemma eval_els_misses p l m : misses E l m -> Forall (step_ok E) l -> Forall free l -> all_nodes data m -> forall root tl prev k g,
  exists v, eval_els E C ev p true root (gforest (flat_map step_trees l) ++ tl) (Some m) prev k g = Ok (g, EVal v) /\ nothing v.
Proof.
  induction 1 as [st s l m Hk Hn|d l m Hd|e s l m i c Hk Hf _ IH|d l m c Hd Hc _ IH|e s x l cs m Hk Ht Hne _ IH]; intros Hok Hfr Hm root tl prev k g; pose proof (data_whole E m Hm) as Hwm.
  - inversion Hok as [|? ? (H1 & H2 & _) Hok']; subst. inversion Hfr as [|? ? F1 Hfr']; subst. unfold free in F1. rewrite Hk in F1.
    assert (Es : exists r, gforest (flat_map step_trees (st :: l)) ++ tl = Some (gtree (elem_tree (elem_of st))) :: r) by (destruct st; eexists; reflexivity). destruct Es as (r & ->).
    rewrite (eval_els_key p true root r m prev k g (elem_of st) s) by assumption. destruct (whole_inv E m Hwm) as (kk & Hkk & Hp & _). rewrite (Node_none E m s (find_child_none E s (out m) Hn Hp)). cbn [rbind].
    destruct (all_nodes_inv _ _ Hm) as (v & l' & -> & _ & Hl). cbn [out]. destruct Hl as [|c l' Hc _]; [apply eval_els_none|]. cbn [map first_this out rbind].
    destruct (all_nodes_inv _ _ Hc) as (w & l2 & -> & Hw & _). cbn [this]. rewrite (function_data p w g Hw). exists VNil. split; [reflexivity|left; reflexivity].
  - inversion Hok as [|? ? (H1 & _ & _) Hok']; subst. cbn [elem_of] in *. cbn [flat_map step_trees app gforest map]. rewrite (eval_els_index p true root _ m prev k g d None H1 ltac:(lia)); [apply eval_els_none|].
    destruct m as [t o]. cbn [GetAt out] in *. replace (len o <=? number_of d) with true by lia. reflexivity.
  - inversion Hok as [|? ? (H1 & H2 & _) Hok']; subst. inversion Hfr as [|? ? F1 Hfr']; subst. unfold free in F1. cbn [elem_of] in *. rewrite Hk in F1.
    cbn [flat_map step_trees app gforest map]. rewrite (eval_els_found p true root _ m prev k g e s i c) by assumption. apply IH; auto. eapply all_nodes_child; [exact Hm|apply Hf].
  - inversion Hok as [|? ? (H1 & _ & _) Hok']; subst. inversion Hfr as [|? ? _ Hfr']; subst. cbn [elem_of] in *. pose proof (number_of_nonneg d (proj2 H1)) as Hn.
    cbn [flat_map step_trees app gforest map]. rewrite (eval_els_index p true root _ m prev k g d (Some c) H1 Hd (GetAt_nth m _ _ Hn Hc)). apply IH; auto. eapply all_nodes_child; eassumption.
  - inversion Hok as [|? ? Hst Hok']; subst. destruct Hst as (H1 & H2 & H3). destruct H3 as (H3 & H4 & H5). inversion Hfr as [|? ? F1 Hfr']; subst. unfold free in F1. cbn [elem_of] in *. rewrite Hk in F1.
    destruct cs as [|c cs]; [congruence|]. destruct (those_first E s _ c cs Ht) as (i & Hf).
    cbn [flat_map step_trees app gforest map]. rewrite (eval_els_found p true root _ m prev k g e s i c) by assumption.
    rewrite (eval_els_select p true false _ m c g s x (c :: cs) H5 ltac:(congruence) Hwm Ht). apply IH; auto. eapply chosen_nodes; [exact Hm|exact I|exact Ht].
Qed.
Lemma eval_els_asked J p simpl root s n v els prev k g : (forall n t, snd (JSON E J (Some n)) = Ok (Some t) -> to_json C n = Ok t) -> asked E J s n v ->
  eval_els E C ev p simpl root (Some (gtree (T s [])) :: els) (Some n) prev k g = Ok (g, EVal v).
Proof.
  intros HJ H. destruct H as [n|n|n s H|n H|n c o s Ho H|n t H]; cbn [eval_els gtree map]; cbn [ThisString this vstring sstring rbind].
  - reflexivity.
  - reflexivity.
  - cbn - [vstring]. rewrite H. reflexivity.
  - cbn - [vstring gstring]. destruct n as [t o]. cbn [out] in H. subst o. reflexivity.
  - cbn - [vstring gstring]. destruct n as [t l]. cbn [out] in Ho. subst l. assert (Hg : gstring E (Node t (Some c :: o)) = Ok s) by (destruct c as [w q]; cbn [this] in H; destruct w as [| | | | | | |[x|]| | |]; exact H). rewrite Hg. reflexivity.
  - cbn - [vstring]. rewrite (HJ n t H). reflexivity.
Qed.
End F.

Lemma ends_index_last root l st : ends_index root (l ++ [st]) = match st with Plain (Index _) => true | _ => false end.
Proof. unfold ends_index. rewrite fold_left_app. reflexivity. Qed.
Lemma ends_shown l n m : shown l n m -> l <> [] -> (if ends_index false l then Some (Node (VStr (bs "[")) (add_out (VPtr (Some n)))) else Some n) = Some m.
Proof.
  intros H Hn. destruct (exists_last Hn) as (l' & st & ->). rewrite ends_index_last. destruct H as [((l2 & d & Hl) & ->)|[Hi ->]].
  - apply app_inj_tail in Hl. destruct Hl as [_ ->]. reflexivity.
  - destruct st as [[s|q s|d]|e x]; try reflexivity. exfalso. apply Hi. exists l', d. reflexivity.
Qed.

Lemma eval_steps E C f l g : l <> [] -> Eval E C (S (S (S f))) g (Some (Node (VStr TypeExpression) [Some (gtree (steps_tree l))])) =
  eval_els E C (evalExpression E C (S f)) (Node (VStr TypePath) (gforest (flat_map step_trees l))) true false (gforest (flat_map step_trees l)) (Some g) None [] g.
Proof.
  intros Hl. unfold Eval, Eval_with. cbn [ThisString this vstring sstring rbind]. change (bseq TypeExpression TypePath || bseq TypeExpression TypeExpression) with true. cbn iota.
  change (evalExpression E C (S (S (S f))) true (Some (Node (VStr TypeExpression) [Some (gtree (steps_tree l))])) g) with (evalExpression E C (S (S f)) true (Some (gtree (steps_tree l))) g).
  cbn [evalExpression steps_tree]. unfold eval_body. change (gtree (T (bs "!p") (flat_map step_trees l))) with (Node (VStr TypePath) (gforest (flat_map step_trees l))).
  cbn - [evalPath gforest simplify flat_map]. unfold evalPath. cbn [out]. destruct l as [|[e|e x] l]; [congruence|reflexivity|reflexivity].
Qed.

(** ** C77 The value of a path in an expression.  Full claim: any path; here no calls and no
    groups, and the numbers in indexes and selectors are written with digits. *)
Theorem C77_value_partial : forall E C l f g n m w, Forall (step_ok E) l -> Forall free l -> starts_with_letter (map elem_of l) -> fits2 f (steps_text l) -> whole E g ->
  arrives E l g n -> shown l n m -> plain (VPtr (Some m)) w ->
  exists e, NewExpression E f (steps_text l) = Ok e /\ Eval E C f g (Some e) = Ok (g, EVal w).
Proof.
  intros E C l f g n m w Hok Hfr Hst [Hf1 Hf2] Hg Ha Hs Hw. eexists. split; [apply NewExpression_steps; assumption|]. assert (Hlne : l <> []) by (intros ->; exact Hst).
  destruct f as [|[|[|f]]]; try lia. rewrite eval_steps by exact Hlne.
  destruct (eval_els_arrives E C (evalExpression E C (S f)) (fun d g Hd Hl => eval_number E C f d g Hd Hl true []) (Node (VStr TypePath) (gforest (flat_map step_trees l))) true l g n Ha Hok Hfr Hg false [] None [] g) as (prev & k & H).
  rewrite app_nil_r in H. rewrite H. cbn [eval_els]. rewrite (ends_shown l n m Hs Hlne). rewrite (plain_fun _ _ _ Hw (plain_simplify (Some m))). reflexivity.
Qed.
Print Assumptions C77_value_partial.
(** Of a path that leads nowhere: nothing, whatever follows. *)
Theorem C77_missing_partial : forall E C l tl f g, Forall (step_ok E) (l ++ tl) -> Forall free l -> starts_with_letter (map elem_of (l ++ tl)) -> fits2 f (steps_text (l ++ tl)) ->
  all_nodes data g -> misses E l g ->
  exists e v, NewExpression E f (steps_text (l ++ tl)) = Ok e /\ Eval E C f g (Some e) = Ok (g, EVal v) /\ nothing v.
Proof.
  intros E C l tl f g Hok Hfr Hst [Hf1 Hf2] Hg Hm. assert (Hlne : l ++ tl <> []) by (intros K; rewrite K in Hst; exact Hst).
  destruct f as [|[|[|f]]]; try lia. assert (Hokl : Forall (step_ok E) l) by (apply Forall_app in Hok; apply Hok).
  destruct (eval_els_misses E C (evalExpression E C (S f)) (fun d g Hd Hl => eval_number E C f d g Hd Hl true []) (Node (VStr TypePath) (gforest (flat_map step_trees (l ++ tl)))) l g Hm Hokl Hfr Hg false (gforest (flat_map step_trees tl)) None [] g) as (v & H & Hv).
  eexists _, v. split; [apply NewExpression_steps; assumption|]. rewrite eval_steps by exact Hlne. split; [|exact Hv]. rewrite <- H. f_equal. unfold gforest. rewrite flat_map_app, map_app. reflexivity.
Qed.
Print Assumptions C77_missing_partial.
(** One of the two is the case. *)
Theorem C77_total : forall E l g, Forall (step_ok E) l -> (forall d, In (Plain (Index d)) l -> number_of d < 2 ^ 63) -> whole E g ->
  (exists n, arrives E l g n) \/ misses E l g.
Proof.
  intros E l. induction l as [|st l IH]; intros g Hok Hi Hg; [left; exists g; constructor|]. inversion Hok as [|? ? H1 Hok']; subst. destruct (whole_inv E g Hg) as (kk & Hkk & Hp & _).
  assert (Hi' : forall d, In (Plain (Index d)) l -> number_of d < 2 ^ 63) by (intros d Hd; apply Hi; right; exact Hd).
  destruct (key (elem_of st)) as [s|] eqn:Ek.
  - destruct (those_total E s _ Hp) as (cs & Ht). destruct cs as [|c cs]; [right; econstructor; [exact Ek|apply those_none, Ht]|]. destruct (those_first E s _ c cs Ht) as (i & Hf). destruct st as [e|e x]; cbn [elem_of] in *.
    + destruct (IH c Hok' Hi' (all_nodes_child _ _ _ _ Hg (proj1 Hf))) as [(n & Hn)|Hn]; [left; exists n; eapply arr_key; eauto|right; eapply mis_key; eauto].
    + destruct (IH (Node (VStr (bs "{")) (chosen x (c :: cs))) Hok' Hi') as [(n & Hn)|Hn]; [eapply chosen_nodes; [exact Hg|eexists; reflexivity|exact Ht]|left; exists n; eapply arr_pick; eauto; discriminate|right; eapply mis_pick; eauto; discriminate].
  - destruct H1 as (H1 & _ & H2). destruct st as [[s|q s|d]|e x]; cbn [elem_of] in *; try discriminate; [|destruct H2; congruence].
    pose proof (number_of_nonneg d (proj2 H1)) as Hn0. assert (Hd : number_of d < 2 ^ 63) by (apply Hi; left; reflexivity).
    destruct (nth_error (out g) (Z.to_nat (number_of d))) as [c|] eqn:En.
    + rewrite Hkk in En. pose proof En as En'. apply nth_error_In, in_map_iff in En'. destruct En' as (c' & <- & _). rewrite <- Hkk in En.
      destruct (IH c' Hok' Hi' (all_nodes_child _ _ _ _ Hg En)) as [(n & Hn)|Hn]; [left; exists n; eapply arr_index; eauto|right; eapply mis_at; eauto].
    + apply nth_error_None in En. right. apply mis_index. lia.
Qed.
Print Assumptions C77_total.

(** A reserved name at the end of the path asks about the node; what follows it is not looked
    at. *)
Theorem C77_asked_partial : forall E C J l s tl f g n v, let p := l ++ Plain (Name s) :: tl in
  Forall (step_ok E) p -> Forall free l -> starts_with_letter (map elem_of p) -> fits2 f (steps_text p) -> whole E g ->
  (forall n t, snd (JSON E J (Some n)) = Ok (Some t) -> to_json C n = Ok t) ->
  arrives E l g n -> asked E J s n v ->
  exists e, NewExpression E f (steps_text p) = Ok e /\ Eval E C f g (Some e) = Ok (g, EVal v).
Proof.
  intros E C J l s tl f g n v p Hok Hfr Hst [Hf1 Hf2] Hg HJ Ha Hs. eexists. split; [apply NewExpression_steps; assumption|]. assert (Hlne : p <> []) by (intros K; rewrite K in Hst; exact Hst).
  destruct f as [|[|[|f]]]; try lia. rewrite eval_steps by exact Hlne.
  assert (Hokl : Forall (step_ok E) l) by (apply Forall_app in Hok; apply Hok).
  assert (Ep : gforest (flat_map step_trees p) = gforest (flat_map step_trees l) ++ Some (gtree (T s [])) :: gforest (flat_map step_trees tl)) by (unfold p, gforest; rewrite flat_map_app, map_app; reflexivity).
  rewrite Ep at 2.
  destruct (eval_els_arrives E C (evalExpression E C (S f)) (fun d g Hd Hl => eval_number E C f d g Hd Hl true []) (Node (VStr TypePath) (gforest (flat_map step_trees p))) true l g n Ha Hokl Hfr Hg false (Some (gtree (T s [])) :: gforest (flat_map step_trees tl)) None [] g) as (prev & k & H).
  rewrite H. apply (eval_els_asked E C _ J); assumption.
Qed.
Print Assumptions C77_asked_partial.

(** Get leads to the same node as an expression, if an index comes last. *)
Definition index_last (l : list step) : Prop := forall l1 d l2, l = l1 ++ Plain (Index d) :: l2 -> l2 = [].
Lemma arrives_leads E l g n m : l <> [] -> arrives E l g n -> index_last l -> shown l n m -> leads E l g m.
Proof.
  intros Hl H. revert m Hl. induction H as [g|e s l g i c n Hk Hf H IH|d l g c n Hd Hc H IH|e s x l cs g n Hk Ht Hne H IH]; intros m Hl Hi Hs.
  - congruence.
  - assert (Hw : walk E [e] g c) by (eapply walk_key; [exact Hk|exact Hf|constructor]). eapply leads_plain; [exact Hw|].
    destruct l as [|st l]; [inversion H; subst; destruct Hs as [((l' & d & Hd) & _)|[_ ->]]; [|constructor]|].
    + destruct l' as [|? [|]]; try discriminate. injection Hd as ->. discriminate.
    + apply IH; [discriminate|intros l1 d l2 Hd; apply (Hi (Plain e :: l1) d l2); rewrite Hd; reflexivity|].
      destruct Hs as [((l' & d & Hd) & ->)|[Hs ->]]; [left; split; [|reflexivity]; destruct l' as [|? l']; [discriminate|]; injection Hd as _ Hd; exists l', d; exact Hd|right].
      split; [|reflexivity]. intros (l' & d & Hd). apply Hs. exists (Plain e :: l'), d. rewrite Hd. reflexivity.
  - pose proof (Hi [] d l eq_refl) as ->. inversion H; subst. destruct Hs as [(_ & ->)|[Hs _]]; [|exfalso; apply Hs; exists [], d; reflexivity].
    eapply leads_plain; [|constructor]. eapply walk_index; [exact Hd|exact Hc|constructor].
  - eapply leads_pick; [exact Hk|exact Ht|exact Hne|].
    destruct l as [|st l]; [inversion H; subst; destruct Hs as [((l' & d & Hd) & _)|[_ ->]]; [|constructor]|].
    + destruct l' as [|? [|]]; discriminate.
    + apply IH; [discriminate|intros l1 d l2 Hd; apply (Hi (Pick e x :: l1) d l2); rewrite Hd; reflexivity|].
      destruct Hs as [((l' & d & Hd) & ->)|[Hs ->]]; [left; split; [|reflexivity]; destruct l' as [|? l']; [discriminate|]; injection Hd as _ Hd; exists l', d; exact Hd|right].
      split; [|reflexivity]. intros (l' & d & Hd). apply Hs. exists (Pick e x :: l'), d. rewrite Hd. reflexivity.
Qed.
Theorem C77_get_partial : forall E C l f g n m w, Forall (step_ok E) l -> Forall free l -> starts_with_letter (map elem_of l) -> fits2 f (steps_text l) -> whole E g ->
  index_last l -> arrives E l g n -> shown l n m -> plain (VPtr (Some m)) w ->
  Get E C f (Some g) (steps_text l) = Ok (Some g, Some m) /\
  exists e, NewExpression E f (steps_text l) = Ok e /\ Eval E C f g (Some e) = Ok (g, EVal w).
Proof.
  intros E C l f g n m w Hok Hfr Hst Hf Hg Hi Ha Hs Hw. assert (Hlne : l <> []) by (intros ->; exact Hst).
  split; [apply Get_steps; auto; eapply arrives_leads; eassumption|eapply C77_value_partial; eassumption].
Qed.
Print Assumptions C77_get_partial.

(** ** Examples *)
Definition ex_list : graph := nd "r" [nd "a" [nd "x" [nd "b" [nd "v" []]]; nd "y" []; nd "z" []]].
Lemma ex_list_data : all_nodes data ex_list.
Proof. unfold ex_list, nd. repeat first [apply (all_node _ _ []) | apply (all_node _ _ [_]) | apply (all_node _ _ [_; _]) | apply (all_node _ _ [_; _; _]) | constructor]. Qed.
Definition st_name (s : bytes) : step := Plain (Name s).
Lemma st_name_ok s : s <> [] -> Forall (fun c => name_char c = true) s -> step_ok env0 (st_name s).
Proof. intros H1 H2. split; [apply name_ascii; assumption|]. split; exact I. Qed.
Definition calls_json : calls := {| remote _ := false; has_method _ _ := false; call _ _ _ := Ok (EVal VNil); to_json n := match snd (JSON env0 (fun _ => []) (Some n)) with Ok (Some t) => Ok t | _ => Panic end |}.
Ltac first_here := split; [reflexivity|]; split; [eexists; split; reflexivity|]; intros j c Hj; lia.
Ltac steps_ok := repeat first [apply Forall_nil | apply Forall_cons]; try (apply st_name_ok; [discriminate|repeat constructor]);
  try (split; [split; [discriminate|repeat constructor; cbn; lia]|]; split; exact I).
Ltac free_ok := repeat first [apply Forall_nil | apply Forall_cons]; try exact I; unfold free, ordinary; cbn; intuition discriminate.
Definition ex_ab : list step := [st_name (bs "a"); Plain (Index (bs "0")); st_name (bs "b")].
Lemma ex_ab_arrives : arrives env0 ex_ab ex_list (nd "b" [nd "v" []]).
Proof.
  eapply arr_key with (i := O); [reflexivity|first_here|]. eapply arr_index; [cbn; lia|reflexivity|]. eapply arr_key with (i := O); [reflexivity|first_here|constructor].
Qed.
Example C77_value_ex : steps_text ex_ab = bs "a[0].b" /\ exists e, NewExpression env0 30 (bs "a[0].b") = Ok e /\ Eval env0 calls0 30 ex_list (Some e) = Ok (ex_list, EVal (VStr (bs "v"))).
Proof.
  split; [reflexivity|]. change (bs "a[0].b") with (steps_text ex_ab). apply C77_value_partial with (n := nd "b" [nd "v" []]) (m := nd "b" [nd "v" []]).
  - steps_ok.
  - free_ok.
  - cbn. repeat split; cbn; try lia; discriminate.
  - split; cbn; lia.
  - apply data_whole, ex_list_data.
  - exact ex_ab_arrives.
  - right. split; [|reflexivity]. intros (l & d & H). destruct l as [|? [|? [|? [|]]]]; discriminate.
  - left. exists (VStr (bs "b")), (VStr (bs "v")). auto.
Qed.
(** Get and Eval disagree about what follows an index. *)
Theorem C77_get_refuted : exists E C f g n s w e, all_nodes data g /\ s = steps_text ex_ab /\ arrives E ex_ab g n /\
  NewExpression E f s = Ok e /\ Eval E C f g (Some e) = Ok (g, EVal w) /\ plain (VPtr (Some n)) w /\ Get E C f (Some g) s = Ok (Some g, None).
Proof.
  destruct (proj2 C77_value_ex) as (e & He & Hev). exists env0, calls0, 30%nat, ex_list, (nd "b" [nd "v" []]), (steps_text ex_ab), (VStr (bs "v")), e.
  split; [exact ex_list_data|]. split; [reflexivity|]. split; [exact ex_ab_arrives|]. split; [exact He|]. split; [exact Hev|]. split; [left; exists (VStr (bs "b")), (VStr (bs "v")); auto|].
  apply Get_steps_missing; [steps_ok|discriminate|split; cbn; lia|exact ex_list_data|].
  eapply strays_plain; [eapply walk_key with (i := O); [reflexivity|first_here|constructor]|].
  eapply strays_plain; [eapply walk_index; [cbn; lia|reflexivity|constructor]|]. apply strays_here. eapply lost_here; [reflexivity|]. repeat constructor. intros (n & [= <-] & Hn). discriminate Hn.
Qed.
Print Assumptions C77_get_refuted.
Example C77_get_ex : steps_text [st_name (bs "a"); Plain (Index (bs "2"))] = bs "a[2]" /\
  Get env0 calls0 30 (Some ex_list) (bs "a[2]") = Ok (Some ex_list, Some (nd "[" [nd "z" []])) /\
  exists e, NewExpression env0 30 (bs "a[2]") = Ok e /\ Eval env0 calls0 30 ex_list (Some e) = Ok (ex_list, EVal (VStr (bs "z"))).
Proof.
  split; [reflexivity|]. change (bs "a[2]") with (steps_text [st_name (bs "a"); Plain (Index (bs "2"))]). apply C77_get_partial with (n := nd "z" []).
  - steps_ok.
  - free_ok.
  - cbn. repeat split; cbn; try lia; discriminate.
  - split; cbn; lia.
  - apply data_whole, ex_list_data.
  - intros [|? [|? [|]]] d l2 H; try discriminate; injection H as ? ?; try discriminate; subst; try reflexivity; congruence.
  - eapply arr_key with (i := O); [reflexivity|first_here|]. eapply arr_index; [cbn; lia|reflexivity|constructor].
  - left. split; [|reflexivity]. exists [st_name (bs "a")], (bs "2"). reflexivity.
  - left. exists (VStr (bs "[")), (VStr (bs "z")). auto.
Qed.
Example C77_missing_ex : misses env0 [st_name (bs "a"); Plain (Index (bs "3"))] ex_list /\ misses env0 [st_name (bs "b")] ex_list /\
  exists e v, NewExpression env0 40 (bs "a[3]._len") = Ok e /\ Eval env0 calls0 40 ex_list (Some e) = Ok (ex_list, EVal v) /\ nothing v.
Proof.
  assert (H : misses env0 [st_name (bs "a"); Plain (Index (bs "3"))] ex_list).
  { eapply mis_key with (i := O); [reflexivity|first_here|]. apply mis_index. cbn. lia. }
  split; [exact H|]. split; [eapply mis_name; [reflexivity|]; repeat constructor; intros (n & [= <-] & Hn); discriminate Hn|].
  change (bs "a[3]._len") with (steps_text ([st_name (bs "a"); Plain (Index (bs "3"))] ++ [st_name (bs "_len")])). apply C77_missing_partial; auto.
  - cbn [app]. steps_ok.
  - free_ok.
  - cbn. repeat split; cbn; try lia; discriminate.
  - split; cbn; lia.
  - exact ex_list_data.
Qed.
Example C77_asked_ex : forall s v, In (s, v) [(bs "_len", VInt KInt 3); (bs "_this", VPtr (Some (nd "a" [nd "x" [nd "b" [nd "v" []]]; nd "y" []; nd "z" []]))); (bs "_thisString", VStr (bs "a")); (bs "_string", VStr (bs "x"))] ->
  exists e, NewExpression env0 50 (bs "a." ++ s ++ bs ".q") = Ok e /\ Eval env0 calls_json 50 ex_list (Some e) = Ok (ex_list, EVal v).
Proof.
  intros s v H. assert (HJs : forall n t, snd (JSON env0 (fun _ => []) (Some n)) = Ok (Some t) -> to_json calls_json n = Ok t) by (intros n t Hn; cbn [to_json calls_json]; rewrite Hn; reflexivity).
  assert (Ha : arrives env0 [st_name (bs "a")] ex_list (nd "a" [nd "x" [nd "b" [nd "v" []]]; nd "y" []; nd "z" []])) by (eapply arr_key with (i := O); [reflexivity|first_here|constructor]).
  assert (Hs : step_ok env0 (st_name s)) by (cbn in H; intuition (match goal with K : (_, _) = (s, v) |- _ => injection K as <- _ end; apply st_name_ok; [discriminate|repeat constructor])).
  replace (bs "a." ++ s ++ bs ".q") with (steps_text ([st_name (bs "a")] ++ Plain (Name s) :: [st_name (bs "q")])) by (cbn; rewrite ?app_nil_r; reflexivity).
  eapply C77_asked_partial; [| | | | |exact HJs|exact Ha|].
  - cbn [app]. apply Forall_cons; [apply st_name_ok; [discriminate|repeat constructor]|]. apply Forall_cons; [exact Hs|]. apply Forall_cons; [apply st_name_ok; [discriminate|repeat constructor]|constructor].
  - free_ok.
  - cbn. repeat split; cbn; try lia; discriminate.
  - cbn in H; intuition (match goal with K : (_, _) = (s, v) |- _ => injection K as <- _ end; split; cbn; lia).
  - apply data_whole, ex_list_data.
  - destruct H as [H|[H|[H|[H|[]]]]]; injection H as <- <-.
    + apply (ask_len env0 (fun _ => []) (nd "a" [nd "x" [nd "b" [nd "v" []]]; nd "y" []; nd "z" []])).
    + constructor.
    + constructor. reflexivity.
    + eapply ask_string; reflexivity.
Qed.
Example C77_json_ex : asked env0 (fun _ => []) (bs "_json") (nd "a" [nd "x" []; nd "y" []]) (VBytes (bs "{ ""x"" ""y"" }")).
Proof. constructor. reflexivity. Qed.
