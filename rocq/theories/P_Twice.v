(** C94: a template processed again with the context that the first processing has left. *)
From Verif Require Import Base Value Event Lexer TextParser Stream Buffer Graph GraphSpec GraphFacts PathParser PathTerm PathSpec PathFacts Eval EvalSpec AccessSpec AccessFacts Template TemplateSpec TemplateFacts TemplateProc Quiet QuietFacts Samples P_Path P_Access P_Graph P_Template P_Quiet.

(** ** C94 The second text is that of the first.  Full claim: every template.  It is false of the code
    (below): assignments modify the context, and a loop leaves its variable in it.  Here: templates
    without assignments and loops, any template tree and any text; *)
Theorem C94_quiet_partial : forall E C f t c c' o, quiet E t -> unlooped E t -> Process E C f t c = Ok (c', o) -> Process E C f t c' = Ok (c', o).
Proof. intros E C f t c c' o Hq Hu H. pose proof (C82_template _ _ _ _ _ _ _ Hq Hu H). subst. exact H. Qed.
Print Assumptions C94_quiet_partial.
Theorem C94_text_partial : forall E C f f' s t c c' o, ~ In "="%byte s -> NewTemplate E f s = Ok t -> unlooped E (Some t) -> Process E C f' (Some t) c = Ok (c', o) ->
  Process E C f' (Some t) c' = Ok (c', o).
Proof. intros E C f f' s t c c' o Hs Ht Hu H. pose proof (C82_template_text _ _ _ _ _ _ _ _ _ Hs Ht Hu H). subst. exact H. Qed.
Print Assumptions C94_text_partial.

(** and a loop, with what follows it, if there are no assignments and no other loops, and its list
    is the same the second time. *)
Lemma calm_quiet E e : expr_ok E e -> calm e -> quiet E (Some (gtree (texpr e))).
Proof.
  intros (_ & _ & _ & Ho & _) Hc. constructor.
  - intros s _ Hs Hin. injection Hs as <-. cbn in Hin. decompose [or] Hin; try discriminate; contradiction.
  - constructor; [|constructor]. apply quiet_etree. rewrite Ho, map_map. cbn [fst]. intros o Hin. apply in_map_iff in Hin. destruct Hin as (x & <- & Hx). unfold calm in Hc. rewrite Forall_forall in Hc. apply Hc, Hx.
Qed.
Lemma after_keeps (m : res (graph * bytes * list bytes)) k (c : graph) : (forall c1 o d, m = Ok (c1, o, d) -> c1 = c) -> (forall c1, keeps4 (k c1) c1) -> keeps4 (after m k) c.
Proof.
  intros Hm Hk c' o d b H. unfold after in H. destruct m as [[[c1 o1] d1]| |]; try discriminate. cbn [rbind] in H. assert (c1 = c) by (eapply Hm; reflexivity). subst c1.
  destruct (k c) as [[[[c2 o2] d2] b2]| |] eqn:Ek; try discriminate. cbn [rbind] in H. injection H as <- _ _ _. eapply Hk, Ek.
Qed.
Lemma sem_keeps E C f : (forall t, wf E t -> silent t -> loop_vars t = [] -> forall c, keeps4 (sem E C f t c) c) /\
  (forall r, wf_tail E r -> silent_tail r -> tail_vars r = [] -> forall c c1 o d, sem_tail E C f r c = Ok (c1, o, d) -> c1 = c).
Proof.
  assert (Hw : forall (m : res pres_) c, keeps4 m c -> forall c1 o d, whole_of m = Ok (c1, o, d) -> c1 = c).
  { intros m c Hm c1 o d H. unfold whole_of in H. destruct m as [[[[c2 o2] d2] b2]| |]; try discriminate. cbn [rbind] in H. injection H as <- _ _. eapply Hm. reflexivity. }
  assert (Hp : forall es (c c1 : graph) (o : bytes) (d : list bytes), (let* (c, r) := Eval E C f c (Some (gtree (T (bs "!p") (map elem_tree es)))) in
     let* s := text_of E (match r with EVal v => v | EErr _ => VNil end) in Ok (c, s, [])) = Ok (c1, o, d) -> c1 = c).
  { intros es c c1 o d H. destruct (Eval _ _ _ _ _) as [[c2 r]| |] eqn:Ee; try discriminate. cbn [rbind] in H. destruct (text_of _ _); try discriminate. injection H as <- _ _.
    eapply quiet_Eval; [|exact Ee]. apply (quiet_operand E (OPath es)). }
  apply tmpl_tail_ind.
  - intros _ _ _ c c' o d b H. injection H as <- _ _ _. reflexivity.
  - intros s t IH (_ & _ & Ht) Hs Hv c. apply after_keeps; [intros ? ? ? [= <- _ _]; reflexivity|]. intros c1. apply IH; assumption.
  - intros t IH Ht Hs Hv c. apply after_keeps; [intros ? ? ? [= <- _ _]; reflexivity|]. intros c1. apply IH; assumption.
  - intros es t IH (_ & Ht) Hs Hv c. apply after_keeps; [apply Hp|]. intros c1. apply IH; tauto.
  - intros es t IH (_ & Ht) Hs Hv c. apply after_keeps; [apply Hp|]. intros c1. apply IH; tauto.
  - intros e t IH (He & Ht) (Hc & Hs) Hv c. apply after_keeps; [|intros c1; apply IH; tauto]. intros c1 o d H.
    destruct (Eval _ _ _ _ _) as [[c2 r]| |] eqn:Ee; try discriminate. injection H as <- _ _. eapply quiet_Eval; [|exact Ee]. apply calm_quiet; assumption.
  - intros e b IHb r IHr t IH (He & _ & Hb & Hr & _ & Ht) (Hc & Hsb & Hsr & Hst) Hv c. cbn [loop_vars] in Hv. apply app_eq_nil in Hv as (Hvb & Hv). apply app_eq_nil in Hv as (Hvr & Hvt).
    apply after_keeps; [|intros c1; apply IH; tauto]. intros c1 o d H. destruct (evalBool _ _ _ _ _) as [[c2 yes]| |] eqn:Ee; try discriminate. cbn [rbind] in H.
    assert (c2 = c) by (eapply quiet_evalBool; [|exact Ee]; apply calm_quiet; assumption). subst c2. destruct yes; [eapply Hw; [|exact H]; apply IHb; assumption|]. eapply IHr; [exact Hr|exact Hsr|exact Hvr|exact H].
  - intros x e b _ t _ _ _ Hv. discriminate.
  - intros t _ _ _ _ c c' o d b H. injection H as <- _ _ _. reflexivity.
  - intros _ _ _ c c1 o d H. injection H as <- _ _. reflexivity.
  - intros b IHb (_ & Hb) Hs Hv c c1 o d H. eapply Hw; [|exact H]. apply IHb; assumption.
  - intros e b IHb r IHr (He & _ & Hb & Hr) (Hc & Hsb & Hsr) Hv c c1 o d H. cbn [tail_vars] in Hv. apply app_eq_nil in Hv as (Hvb & Hvr). rewrite sem_elseif in H.
    destruct (evalBool _ _ _ _ _) as [[c2 yes]| |] eqn:Ee; try discriminate. cbn [rbind] in H.
    assert (c2 = c) by (eapply quiet_evalBool; [|exact Ee]; apply calm_quiet; assumption). subst c2. destruct yes; [eapply Hw; [|exact H]; apply IHb; assumption|]. eapply IHr; [exact Hr|exact Hsr|exact Hvr|exact H].
Qed.
Lemma bind_last x v k a : (forall n, In (Some n) a -> this n <> VStr x) -> bind_var x v (a ++ [Some (Node (VStr x) k)]) = a ++ [Some (Node (VStr x) v)].
Proof.
  induction a as [|[[w l]|] a IH]; intros Ha; cbn [app bind_var].
  - rewrite bseq_refl. reflexivity.
  - rewrite IH by (intros n Hn; apply Ha; right; exact Hn). destruct w; try reflexivity. destruct (bseq s x) eqn:Es; [|reflexivity].
    apply bseq_eq in Es. subst. exfalso. exact (Ha _ (or_introl eq_refl) eq_refl).
  - rewrite IH by (intros n Hn; apply Ha; right; exact Hn). reflexivity.
Qed.
(** Apart from the value of the variable the loop leaves the context that it began with. *)
Lemma loop_last (body : graph -> res pres_) x v a : (forall c, keeps4 (body c) c) -> (forall n, In (Some n) a -> this n <> VStr x) -> forall l live k c' o d,
  for_loop (fun _ => body) x None live l (Node v (a ++ [Some (Node (VStr x) k)])) = Ok (c', o, d) -> exists k', c' = Node v (a ++ [Some (Node (VStr x) k')]).
Proof.
  intros Hb Ha. induction l as [|e l IH]; intros live k c' o d H; cbn [for_loop] in H; [injection H as <- _ _; eauto|].
  assert (exists k1, (if live then Node (this (Node v (a ++ [Some (Node (VStr x) k)]))) (bind_var x (add_out (VPtr e)) (out (Node v (a ++ [Some (Node (VStr x) k)])))) else Node v (a ++ [Some (Node (VStr x) k)])) = Node v (a ++ [Some (Node (VStr x) k1)])) as (k1 & E1).
  { destruct live; [|eauto]. cbn [this out]. rewrite bind_last by exact Ha. eauto. }
  rewrite E1 in H. clear E1. destruct (body _) as [[[[c1 o1] d1] brk]| |] eqn:Eb; try discriminate. cbn [rbind] in H. apply Hb in Eb. subst c1.
  destruct brk; [injection H as <- _ _; eauto|]. destruct (for_loop _ x None _ l _) as [[[c2 o2] d2]| |] eqn:El; try discriminate. cbn [rbind] in H. injection H as <- _ _. eapply IH, El.
Qed.
Lemma deleted_apart x o o' : deleted (VStr x) o o' -> forall n, In (Some n) o' -> this n <> VStr x.
Proof.
  induction 1 as [|c o o' He Hd IH|c o o' He Hd IH]; intros n Hn; [destruct Hn|auto|]. destruct Hn as [[= ->]|Hn]; [|auto]. intros K. apply He. rewrite K. constructor.
Qed.
Lemma deleted_all x o o' k : deleted (VStr x) o o' -> deleted (VStr x) (o' ++ [Some (Node (VStr x) k)]) o'.
Proof. induction 1 as [|c o o' He Hd IH|c o o' He Hd IH]; cbn [app]; [apply del_drop; constructor|auto|apply del_keep; assumption]. Qed.
Lemma deleted_some P x o o' : deleted x o o' -> Forall P o -> Forall P o'.
Proof. induction 1 as [|c o o' He Hd IH|c o o' He Hd IH]; intros H; inversion H; subst; auto. Qed.

Lemma again : forall E C f x e b t c r c1 o, wf E (TFor x e b t) -> fits_t f (TFor x e b t) ->
  silent b -> silent t -> loop_vars b = [] -> loop_vars t = [] -> Forall (fun n => exists m, n = Some m /\ comparable (this m)) (out c) ->
  Eval E C f c (Some (gtree (texpr e))) = Ok (c, r) ->
  yields E C f (source (TFor x e b t)) c c1 o -> Eval E C f c1 (Some (gtree (texpr e))) = Ok (c1, r) ->
  yields E C f (source (TFor x e b t)) c1 c1 o.
Proof.
  intros E C f x e b t c r c1 o Hw Hf Hsb Hst Hvb Hvt Hc He Hy He1. pose proof Hw as (_ & Hok & _ & Hb & _ & Ht).
  apply yields_sem in Hy; auto. destruct Hy as (d & brk & Hy). apply yields_sem; auto. cbn [sem] in Hy |- *. unfold after in Hy |- *.
  destruct (sem_for E C f x e (sem E C f b) c) as [[[c2 o2] d2]| |] eqn:Es; try discriminate. cbn [rbind] in Hy.
  destruct (sem E C f t c2) as [[[[c3 o3] d3] b3]| |] eqn:Et; try discriminate. cbn [rbind] in Hy. injection Hy as -> <- _ _.
  assert (c1 = c2) by (eapply (proj1 (sem_keeps E C f) t); eassumption). subst c2.
  enough (Hs : sem_for E C f x e (sem E C f b) c1 = Ok (c1, o2, d2)) by (rewrite Hs; cbn [rbind]; rewrite Et; cbn [rbind]; eauto).
  unfold sem_for in Es |- *. rewrite He in Es. rewrite He1. cbn [rbind] in Es |- *.
  destruct r as [[| | | | | | |[gi|]| | |]|]; try (injection Es as <- <- <-; reflexivity). destruct (out gi) as [|fi lo]; [injection Es as <- <- <-; reflexivity|].
  destruct (ThisString E (Some gi)) as [s| |]; try discriminate. cbn [rbind] in Es |- *. destruct (if bseq s (bs "[") then _ else _) as [l| |]; try discriminate. cbn [rbind] in Es |- *.
  destruct c as [v oc]. cbn [out] in Hc. destruct (Delete_spec E v oc (VStr x) I Hc) as (o' & Hd & Hdel). rewrite Hd in Es. cbn [rbind this out] in Es.
  destruct (for_loop _ x None true l _) as [[[c4 o4] d4]| |] eqn:El; try discriminate. cbn [rbind] in Es. injection Es as -> <- <-.
  destruct (loop_last (sem E C f b) x v o' ltac:(intros c0; apply (proj1 (sem_keeps E C f) b); assumption) (deleted_apart _ _ _ Hdel) l true [] _ _ _ El) as (k & ->).
  assert (Hc2 : Forall (fun n => exists m, n = Some m /\ comparable (this m)) (o' ++ [Some (Node (VStr x) k)])).
  { apply Forall_app. split; [eapply deleted_some; eassumption|]. constructor; [|constructor]. eexists. split; [reflexivity|exact I]. }
  destruct (Delete_spec E v _ (VStr x) I Hc2) as (o'' & Hd2 & Hdel2). rewrite (C25_deleted_unique _ _ _ _ Hdel2 (deleted_all _ _ _ k Hdel)) in Hd2. rewrite Hd2. cbn [rbind this out]. rewrite El. reflexivity.
Qed.
Theorem C94_loop_partial : forall E C f x e b t c g r c1 o, wf E (TFor x e b t) -> fits_t f (TFor x e b t) ->
  silent b -> silent t -> loop_vars b = [] -> loop_vars t = [] -> Forall (fun n => exists m, n = Some m /\ comparable (this m)) (out c) ->
  NewExpression E f (expr_src e) = Ok g -> Eval E C f c (Some g) = Ok (c, r) -> r <> EVal (VPtr (Some c)) ->
  yields E C f (source (TFor x e b t)) c c1 o -> Eval E C f c1 (Some g) = Ok (c1, r) ->
  yields E C f (source (TFor x e b t)) c1 c1 o.
Proof.
  intros E C f x e b t c g r c1 o Hw Hf Hsb Hst Hvb Hvt Hc Hg He _ Hy He1. pose proof Hw as (_ & Hok & _). rewrite expr_graph in Hg by (auto; lens).
  assert (Eg : g = gtree (texpr e)) by congruence. clear Hg. subst g. eapply again; eassumption.
Qed.
Print Assumptions C94_loop_partial.

(** In particular the loop over a list that is in the context, under another name than the variable. *)
Lemma sem_for_left E C f x e b c r c1 o d : wf E b -> silent b -> loop_vars b = [] -> Forall (fun n => exists m, n = Some m /\ comparable (this m)) (out c) ->
  Eval E C f c (Some (gtree (texpr e))) = Ok (c, r) -> sem_for E C f x e (sem E C f b) c = Ok (c1, o, d) ->
  c1 = c \/ exists o' k, deleted (VStr x) (out c) o' /\ c1 = Node (this c) (o' ++ [Some (Node (VStr x) k)]).
Proof.
  intros Hb Hsb Hvb Hc He Es. unfold sem_for in Es. rewrite He in Es. cbn [rbind] in Es.
  destruct r as [[| | | | | | |[gi|]| | |]|]; try (injection Es as <- <- <-; left; reflexivity). destruct (out gi) as [|fi lo]; [injection Es as <- <- <-; left; reflexivity|].
  destruct (ThisString E (Some gi)) as [s| |]; try discriminate. cbn [rbind] in Es. destruct (if bseq s (bs "[") then _ else _) as [l| |]; try discriminate. cbn [rbind] in Es.
  destruct c as [v oc]. cbn [out] in Hc. destruct (Delete_spec E v oc (VStr x) I Hc) as (o' & Hd & Hdel). rewrite Hd in Es. cbn [rbind this out] in Es.
  destruct (for_loop _ x None true l _) as [[[c4 o4] d4]| |] eqn:El; try discriminate. cbn [rbind] in Es. injection Es as -> <- <-.
  destruct (loop_last (sem E C f b) x v o' ltac:(intros c0; apply (proj1 (sem_keeps E C f) b); assumption) (deleted_apart _ _ _ Hdel) l true [] _ _ _ El) as (k & ->).
  right. exists o', k. split; [exact Hdel|reflexivity].
Qed.
Lemma find_left E x y o o' r : y <> x -> deleted (VStr x) o o' -> forall i m, find_child E y o = Ok (Some i) -> nth_error o i = Some (Some m) ->
  exists i', find_child E y (o' ++ r) = Ok (Some i') /\ nth_error (o' ++ r) i' = Some (Some m).
Proof.
  intros Hxy. induction 1 as [|c o o' He Hd IH|c o o' He Hd IH]; intros i m Hf Hi; [discriminate| |]; cbn [find_child app] in Hf |- *.
  - assert (Ht : this c = VStr x) by (inversion He; congruence). rewrite Ht in Hf. cbn [vstring sstring rbind] in Hf.
    destruct (bseq y x) eqn:Ex; [apply bseq_eq in Ex; congruence|]. destruct (find_child E y o) as [[j|]| |] eqn:Ef; try discriminate. injection Hf as <-. eapply IH; [reflexivity|exact Hi].
  - destruct (vstring E (this c)) as [s| |] eqn:Ev; try discriminate. cbn [rbind] in Hf |- *. destruct (bseq y s) eqn:Es.
    + injection Hf as <-. exists O. split; [reflexivity|exact Hi].
    + destruct (find_child E y o) as [[j|]| |] eqn:Ef; try discriminate. injection Hf as <-. destruct (IH j m eq_refl Hi) as (i' & Hf' & Hi'). rewrite Hf'. cbn [rbind option_map]. exists (S i'). split; [reflexivity|exact Hi'].
Qed.
Definition path_expr (ns : list bytes) : expr := mkE (OPath (map Name ns)) [] (Leaf (OPath (map Name ns))).
Lemma eval_path_expr E C f ns c n : ns <> [] -> Forall (name E) ns -> Forall ordinary ns -> cwalk E (map Name ns) c n -> (1 < f)%nat ->
  Eval E C f c (Some (gtree (texpr (path_expr ns)))) = Ok (c, EVal (simplify (Some n))).
Proof.
  intros Hne Hns Ho Hw Hf. destruct f as [|f]; [lia|]. rewrite <- (eval_path_any E C f ns c n) by (assumption || lia). reflexivity.
Qed.
Theorem C94_path_partial : forall E C f x y ns b t c n c1 o, let T := TFor x (path_expr (y :: ns)) b t in wf E T -> fits_t f T ->
  silent b -> silent t -> loop_vars b = [] -> loop_vars t = [] -> Forall (fun n => exists m, n = Some m /\ comparable (this m)) (out c) ->
  y <> x -> Forall ordinary (y :: ns) -> whole E c -> walk E (map Name (y :: ns)) c n ->
  yields E C f (source T) c c1 o -> yields E C f (source T) c1 c1 o.
Proof.
  cbv zeta. intros E C f x y ns b t c n c1 o Hw Hf Hsb Hst Hvb Hvt Hc Hxy Ho Hwh Hn Hy. pose proof Hw as (_ & Hok & _ & Hb & _ & Ht).
  assert (Hns : Forall (name E) (y :: ns)) by (destruct Hok as (Hop & _); cbn [path_expr lead operand_ok] in Hop; destruct Hop as (Hop & _); rewrite Forall_map in Hop; exact Hop).
  assert (Hf2 : (1 < f)%nat) by lens.
  pose proof (walk_cwalk E _ _ _ Hn Hwh) as Hcw. assert (He := eval_path_expr E C f (y :: ns) c n ltac:(discriminate) Hns Ho Hcw Hf2).
  assert (Hn1 : exists d brk, sem E C f (TFor x (path_expr (y :: ns)) b t) c = Ok (c1, o, d, brk)) by (apply yields_sem; assumption).
  destruct Hn1 as (d & brk & Hs). cbn [sem] in Hs. unfold after in Hs.
  destruct (sem_for E C f x _ (sem E C f b) c) as [[[c2 o2] d2]| |] eqn:Es; try discriminate. cbn [rbind] in Hs.
  destruct (sem E C f t c2) as [[[[c3 o3] d3] b3]| |] eqn:Et; try discriminate. cbn [rbind] in Hs. injection Hs as -> <- _ _.
  assert (c1 = c2) by (eapply (proj1 (sem_keeps E C f) t); eassumption). subst c2.
  assert (Hcw1 : cwalk E (map Name (y :: ns)) c1 n).
  { destruct (sem_for_left _ _ _ _ _ _ _ _ _ _ _ Hb Hsb Hvb Hc He Es) as [->|(o' & k & Hdel & ->)]; [exact Hcw|].
    cbn [map] in Hcw |- *. inversion Hcw as [|e s es g i m n' Hk Hfc Hi Hr|]; subst. injection Hk as <-.
    destruct (find_left E x y _ _ [Some (Node (VStr x) k)] Hxy Hdel _ _ Hfc Hi) as (i' & Hf' & Hi'). eapply cwalk_key; [reflexivity|exact Hf'|exact Hi'|exact Hr]. }
  eapply again; try eassumption. apply eval_path_expr; assumption || discriminate.
Qed.
Print Assumptions C94_path_partial.

(** The same with something before the loop: texts, and variables that begin with another name than
    that of the loop and are there. *)
Inductive piece := PText (s : bytes) | PDollar | PVar (ns : list bytes) | PBraces (ns : list bytes).
Fixpoint before (p : list piece) (t : tmpl) : tmpl :=
  match p with
  | [] => t
  | PText s :: p => TText s (before p t)
  | PDollar :: p => TDollar (before p t)
  | PVar ns :: p => TVar (map Name ns) (before p t)
  | PBraces ns :: p => TBraces (map Name ns) (before p t)
  end.
Definition piece_ok (E : env) (x : bytes) (c : graph) (p : piece) : Prop :=
  match p with
  | PText _ | PDollar => True
  | PVar ns | PBraces ns => hd_error ns <> Some x /\ Forall ordinary ns /\ exists n, walk E (map Name ns) c n
  end.
(** What the pieces write *)
Inductive heads (E : env) (c : graph) : list piece -> bytes -> Prop :=
| heads_nil : heads E c [] []
| heads_text s p h : heads E c p h -> heads E c (PText s :: p) (s ++ h)
| heads_dollar p h : heads E c p h -> heads E c (PDollar :: p) (bs "$" ++ h)
| heads_var q ns n w p h : q = PVar ns \/ q = PBraces ns -> ns <> [] -> Forall (name E) ns -> Forall ordinary ns -> cwalk E (map Name ns) c n -> text_of E (simplify (Some n)) = Ok w -> heads E c p h -> heads E c (q :: p) (w ++ h).

Lemma heads_sem E C f c p h t c2 o d b : (0 < f)%nat -> heads E c p h -> sem E C f t c = Ok (c2, o, d, b) -> sem E C f (before p t) c = Ok (c2, h ++ o, d, b).
Proof.
  intros Hf H Hs. induction H as [|s p h H IH|p h H IH|q ns n w p h Hq Hne Hns Ho Hw Ht H IH]; cbn [before].
  - exact Hs.
  - cbn [sem]. unfold after. cbn [rbind]. rewrite IH. cbn [rbind app]. rewrite app_assoc. reflexivity.
  - cbn [sem]. unfold after. cbn [rbind]. rewrite IH. cbn [rbind app]. rewrite app_assoc. reflexivity.
  - destruct Hq as [-> | ->]; cbn [before sem]; rewrite (eval_path_any E C f ns c n Hne Hns Ho Hw Hf); cbn [rbind]; rewrite Ht; unfold after; cbn [rbind]; rewrite IH; cbn [rbind app]; rewrite app_assoc; reflexivity.
Qed.
Lemma sem_heads E C f x c t : (0 < f)%nat -> whole E c -> forall p c2 o d b, wf E (before p t) -> Forall (piece_ok E x c) p -> sem E C f (before p t) c = Ok (c2, o, d, b) ->
  exists h o', o = h ++ o' /\ heads E c p h /\ sem E C f t c = Ok (c2, o', d, b).
Proof.
  intros Hf Hwh. induction p as [|q p IH]; intros c2 o d b Hw Hp H; [exists [], o; split; [reflexivity|]; split; [constructor|exact H]|]. inversion Hp as [|? ? Hq Hp']; subst.
  assert (Hv : forall ns, (q = PVar ns \/ q = PBraces ns) -> var_ok E (map Name ns) -> wf E (before p t) -> hd_error ns <> Some x /\ Forall ordinary ns /\ (exists n, walk E (map Name ns) c n) ->
    after (let* (c, r) := Eval E C f c (Some (gtree (T (bs "!p") (map elem_tree (map Name ns))))) in
             let* s := text_of E (match r with EVal v => v | EErr _ => VNil end) in Ok (c, s, [])) (sem E C f (before p t)) = Ok (c2, o, d, b) ->
    exists h o', o = h ++ o' /\ heads E c (q :: p) h /\ sem E C f t c = Ok (c2, o', d, b)).
  { intros ns Eq (Hok & Hne) Hwp (Hx & Ho & n & Hn) Hs. rewrite Forall_map in Hok. assert (Hnn : ns <> []) by (destruct ns; [destruct Hne|discriminate]).
    pose proof (walk_cwalk E _ _ _ Hn Hwh) as Hcw. rewrite (eval_path_any E C f ns c n Hnn Hok Ho Hcw Hf) in Hs. cbn [rbind] in Hs.
    destruct (text_of E (simplify (Some n))) as [w| |] eqn:Et; try discriminate. unfold after in Hs. cbn [rbind] in Hs.
    destruct (sem E C f (before p t) c) as [[[[c3 o3] d3] b3]| |] eqn:Es; try discriminate. cbn [rbind app] in Hs. injection Hs as <- <- <- <-.
    destruct (IH _ _ _ _ Hwp Hp' eq_refl) as (h & o' & -> & Hh & Hs'). exists (w ++ h), o'. split; [apply app_assoc|]. split; [|exact Hs']. eapply heads_var; eassumption. }
  assert (Hc : forall w, wf E (before p t) -> after (Ok (c, w, [])) (sem E C f (before p t)) = Ok (c2, o, d, b) -> (forall h, heads E c p h -> heads E c (q :: p) (w ++ h)) ->
    exists h o', o = h ++ o' /\ heads E c (q :: p) h /\ sem E C f t c = Ok (c2, o', d, b)).
  { intros w Hwp Hs Hh. unfold after in Hs. cbn [rbind] in Hs. destruct (sem E C f (before p t) c) as [[[[c3 o3] d3] b3]| |] eqn:Es; try discriminate. cbn [rbind app] in Hs. injection Hs as <- <- <- <-.
    destruct (IH _ _ _ _ Hwp Hp' eq_refl) as (h & o' & -> & Hh' & Hs'). exists (w ++ h), o'. split; [apply app_assoc|]. split; [apply Hh, Hh'|exact Hs']. }
  destruct q as [s| |ns|ns]; cbn [before wf sem] in Hw, H.
  - apply (Hc s); [tauto|exact H|]. intros h Hh. constructor. exact Hh.
  - apply (Hc (bs "$")); [tauto|exact H|]. intros h Hh. constructor. exact Hh.
  - apply (Hv ns); [tauto|tauto|tauto|exact Hq|exact H].
  - apply (Hv ns); [tauto|tauto|tauto|exact Hq|exact H].
Qed.
(** They write the same in what the loop leaves. *)
Lemma cwalk_left E x c o' k y ns n : deleted (VStr x) (out c) o' -> y <> x -> cwalk E (map Name (y :: ns)) c n -> cwalk E (map Name (y :: ns)) (Node (this c) (o' ++ [Some (Node (VStr x) k)])) n.
Proof.
  intros Hdel Hxy Hcw. cbn [map] in Hcw |- *. inversion Hcw as [|e s es g i m n' Hk Hfc Hi Hr|]; subst. injection Hk as <-.
  destruct (find_left E x y _ _ [Some (Node (VStr x) k)] Hxy Hdel _ _ Hfc Hi) as (i' & Hf' & Hi'). eapply cwalk_key; [reflexivity|exact Hf'|exact Hi'|exact Hr].
Qed.
Lemma heads_left E x c o' k p h : deleted (VStr x) (out c) o' -> Forall (piece_ok E x c) p -> heads E c p h -> heads E (Node (this c) (o' ++ [Some (Node (VStr x) k)])) p h.
Proof.
  intros Hdel Hp H. induction H as [|s p h H IH|p h H IH|q ns n w p h Hq Hne Hns Ho Hw Ht H IH]; inversion Hp as [|? ? Hq0 Hp']; subst; try (constructor; auto; fail).
  eapply heads_var; try eassumption; [|auto]. destruct ns as [|y ns]; [congruence|]. assert (y <> x) by (destruct Hq as [-> | ->]; destruct Hq0 as (K & _); cbn in K; congruence).
  apply cwalk_left; assumption.
Qed.
Lemma before_ok E f p t : wf E (before p t) -> fits_t f (before p t) -> wf E t /\ fits_t f t.
Proof.
  induction p as [|q p IH]; intros Hw Hf; [auto|]. destruct q as [s| |ns|ns]; cbn [before] in Hw, Hf; (apply IH; [cbn [wf] in Hw; tauto|lens]).
Qed.
Theorem C94_page_partial : forall E C f p x y ns b t c n c1 o, let T := before p (TFor x (path_expr (y :: ns)) b t) in wf E T -> fits_t f T ->
  Forall (piece_ok E x c) p -> silent b -> silent t -> loop_vars b = [] -> loop_vars t = [] -> Forall (fun n => exists m, n = Some m /\ comparable (this m)) (out c) ->
  y <> x -> Forall ordinary (y :: ns) -> whole E c -> walk E (map Name (y :: ns)) c n ->
  yields E C f (source T) c c1 o -> yields E C f (source T) c1 c1 o.
Proof.
  cbv zeta. intros E C f p x y ns b t c n c1 o Hw Hf Hp Hsb Hst Hvb Hvt Hc Hxy Ho Hwh Hn Hy.
  destruct (before_ok E f p _ Hw Hf) as (Hw1 & Hf1). assert (Hf0 : (0 < f)%nat) by (destruct Hf1 as (_ & K); lia).
  apply yields_sem in Hy; auto. destruct Hy as (d & brk & Hy). destruct (sem_heads E C f x c _ Hf0 Hwh p _ _ _ _ Hw Hp Hy) as (h & o' & -> & Hh & Hs).
  assert (Hy1 : yields E C f (source (TFor x (path_expr (y :: ns)) b t)) c c1 o') by (apply yields_sem; eauto).
  pose proof (C94_path_partial E C f x y ns b t c n c1 o' Hw1 Hf1 Hsb Hst Hvb Hvt Hc Hxy Ho Hwh Hn Hy1) as Hy2.
  assert (Hh1 : heads E c1 p h).
  { pose proof Hw1 as (_ & Hok & _ & Hb & _ & Ht).
    assert (Hns : Forall (name E) (y :: ns)) by (destruct Hok as (Hop & _); cbn [path_expr lead operand_ok] in Hop; destruct Hop as (Hop & _); rewrite Forall_map in Hop; exact Hop).
    assert (Hf2 : (1 < f)%nat) by (clear Hf; lens). pose proof (walk_cwalk E _ _ _ Hn Hwh) as Hcw. assert (He := eval_path_expr E C f (y :: ns) c n ltac:(discriminate) Hns Ho Hcw Hf2).
    cbn [sem] in Hs. unfold after in Hs. destruct (sem_for E C f x _ (sem E C f b) c) as [[[c2 o2] d2]| |] eqn:Es; try discriminate. cbn [rbind] in Hs.
    destruct (sem E C f t c2) as [[[[c3 o3] d3] b3]| |] eqn:Et; try discriminate. cbn [rbind] in Hs. injection Hs as -> _ _ _.
    assert (c1 = c2) by (eapply (proj1 (sem_keeps E C f) t); eassumption). subst c2.
    destruct (sem_for_left _ _ _ _ _ _ _ _ _ _ _ Hb Hsb Hvb Hc He Es) as [-> |(oo & k & Hdel & ->)]; [exact Hh|]. eapply heads_left; eassumption. }
  apply yields_sem in Hy2; auto. destruct Hy2 as (d2 & b2 & Hy2). apply yields_sem; auto. exists d2, b2. apply heads_sem; assumption.
Qed.
Print Assumptions C94_page_partial.

(** ** Examples *)
Example C94_ex_text : let s := bs "Dear $a.b$if(n<1), hello$else bye$end" in ~ In "="%byte s /\ exists t, NewTemplate env0 60 s = Ok t /\ unlooped env0 (Some t) /\
  Process env0 calls0 60 (Some t) ex_quiet = Ok (ex_quiet, bs "Dear x, hello").
Proof. exact C82_ex_template. Qed.
(** The loop of C48, whose variable is left in the context *)
Example C94_ex_path : let T := TFor (bs "v") (path_expr [bs "l"]) ex_body (TText (bs "!") TEnd) in source T = bs "$for(v,l)$v; $end!" /\ wf env0 T /\ fits_t 60 T /\
  silent ex_body /\ loop_vars ex_body = [] /\ Forall (fun n => exists m, n = Some m /\ comparable (this m)) (out ex_tctx) /\ bs "l" <> bs "v" /\ Forall ordinary [bs "l"] /\ whole env0 ex_tctx /\
  walk env0 [Name (bs "l")] ex_tctx (nd "l" [nd "x" []; nd "y" []; nd "z" []]) /\
  yields env0 calls0 60 (source T) ex_tctx (ex_with [nd "z" []]) (bs "x; y; z; !") /\ ex_with [nd "z" []] <> ex_tctx /\
  yields env0 calls0 60 (source T) (ex_with [nd "z" []]) (ex_with [nd "z" []]) (bs "x; y; z; !").
Proof.
  assert (Hex : ex_for (TText (bs "!") TEnd) = TFor (bs "v") (path_expr [bs "l"]) ex_body (TText (bs "!") TEnd)) by reflexivity.
  cbv zeta. generalize C48_ex. rewrite Hex. clear Hex. intros (Hs & Hw & Hf & _ & _ & _ & _ & _ & _ & Hsl & Hc & _ & _ & Hy).
  assert (Hwh : whole env0 ex_tctx) by (apply data_whole, ex_tctx_data).
  assert (Hwk : walk env0 [Name (bs "l")] ex_tctx (nd "l" [nd "x" []; nd "y" []; nd "z" []])).
  { eapply walk_key with (i := 2%nat); [reflexivity| |constructor]. split; [reflexivity|]. split; [eexists; split; reflexivity|]. intros j y Hj Hy0 (m & -> & Hm).
    destruct j as [|[|j]]; [| |lia]; cbn in Hy0; injection Hy0 as <-; discriminate. }
  assert (Ho : Forall ordinary [bs "l"]) by (constructor; [intros K; cbn in K; decompose [or] K; try discriminate; contradiction|constructor]).
  split; [exact Hs|]. split; [exact Hw|]. split; [exact Hf|]. split; [exact Hsl|]. split; [reflexivity|]. split; [exact Hc|]. split; [discriminate|]. split; [exact Ho|]. split; [exact Hwh|]. split; [exact Hwk|].
  split; [rewrite Hs; exact Hy|]. split; [discriminate|].
  eapply (C94_path_partial env0 calls0 60 (bs "v") (bs "l") []); [exact Hw|exact Hf|exact Hsl|exact I|reflexivity|reflexivity|exact Hc|discriminate|exact Ho|exact Hwh|exact Hwk|]. rewrite Hs. exact Hy.
Qed.

Definition ex_page : list piece := [PVar [bs "n"]; PText (bs "; ")].
Example C94_ex_page : let T := before ex_page (TFor (bs "v") (path_expr [bs "l"]) ex_body (TText (bs "!") TEnd)) in source T = bs "$n; $for(v,l)$v; $end!" /\ wf env0 T /\ fits_t 60 T /\
  Forall (piece_ok env0 (bs "v") ex_tctx) ex_page /\ yields env0 calls0 60 (source T) ex_tctx (ex_with [nd "z" []]) (bs "2; x; y; z; !") /\
  yields env0 calls0 60 (source T) (ex_with [nd "z" []]) (ex_with [nd "z" []]) (bs "2; x; y; z; !").
Proof.
  cbv zeta. destruct C94_ex_path as (_ & Hw0 & Hf0 & Hsl & Hvb & Hc & Hxy & Ho & Hwh & Hwk & _).
  assert (Hw : wf env0 (before ex_page (TFor (bs "v") (path_expr [bs "l"]) ex_body (TText (bs "!") TEnd)))).
  { cbn [ex_page before wf map]. split; [split; [ascii_names|cbn; intuition discriminate]|]. split; [exact I || (apply (ex_texts_ok (bs "; ")); cbn; auto)|]. split; [apply (ex_texts_ok (bs "; ")); cbn; auto|]. split; [exact I|exact Hw0]. }
  assert (Hf : fits_t 60 (before ex_page (TFor (bs "v") (path_expr [bs "l"]) ex_body (TText (bs "!") TEnd)))) by (split; [left|]; cbn; lia).
  assert (Hp : Forall (piece_ok env0 (bs "v") ex_tctx) ex_page).
  { constructor; [|constructor; [exact I|constructor]]. split; [discriminate|]. split; [constructor; [intros K; cbn in K; decompose [or] K; try discriminate; contradiction|constructor]|].
    eexists. eapply walk_key with (i := 1%nat); [reflexivity| |constructor]. split; [reflexivity|]. split; [eexists; split; reflexivity|]. intros j y Hj Hy0 (m & -> & Hm).
    destruct j as [|j]; [|lia]; cbn in Hy0; injection Hy0 as <-; discriminate. }
  assert (Hy : yields env0 calls0 60 (source (before ex_page (TFor (bs "v") (path_expr [bs "l"]) ex_body (TText (bs "!") TEnd)))) ex_tctx (ex_with [nd "z" []]) (bs "2; x; y; z; !")).
  { apply yields_sem; [exact Hw|exact Hf|]. eexists. eexists. vm_compute. reflexivity. }
  split; [reflexivity|]. split; [exact Hw|]. split; [exact Hf|]. split; [exact Hp|]. split; [exact Hy|].
  eapply (C94_page_partial env0 calls0 60 ex_page (bs "v") (bs "l") []); [exact Hw|exact Hf|exact Hp|exact Hsl|exact I|exact Hvb|reflexivity|exact Hc|exact Hxy|exact Ho|exact Hwh|exact Hwk|exact Hy].
Qed.

(** The full claim is false: an assignment, *)
Definition again_text (E : env) (C : calls) (f : nat) (s : bytes) (c : graph) (o o' : bytes) : Prop :=
  exists t c1 c2, NewTemplate E f s = Ok t /\ Process E C f (Some t) c = Ok (c1, o) /\ Process E C f (Some t) c1 = Ok (c2, o').
Theorem C94_assign_refuted : exists E C f c, again_text E C f (bs "$(n+=1)$n") c (bs "1") (bs "2").
Proof.
  exists env0, calls0, 60%nat, ex_quiet. unfold again_text. rewrite NewTemplate_ideal by (cbn; lia). eexists. eexists. eexists. split; [vm_compute; reflexivity|]. split; [vm_compute; reflexivity|]. vm_compute. reflexivity.
Qed.
Print Assumptions C94_assign_refuted.
(** the variable of a loop before the loop, *)
Theorem C94_variable_refuted : exists E C f c, again_text E C f (bs "$v$for(v,l)$v$end") c (bs "12") (bs "212").
Proof.
  exists env0, calls0, 60%nat, ex_quiet. unfold again_text. rewrite NewTemplate_ideal by (cbn; lia). eexists. eexists. eexists. split; [vm_compute; reflexivity|]. split; [vm_compute; reflexivity|]. vm_compute. reflexivity.
Qed.
Print Assumptions C94_variable_refuted.
(** and a loop whose variable has the name of its list: that is lost after the first time. *)
Theorem C94_list_refuted : exists E C f c, again_text E C f (bs "$for(l,l)$l$end") c (bs "12") [].
Proof.
  exists env0, calls0, 60%nat, ex_quiet. unfold again_text. rewrite NewTemplate_ideal by (cbn; lia). eexists. eexists. eexists. split; [vm_compute; reflexivity|]. split; [vm_compute; reflexivity|]. vm_compute. reflexivity.
Qed.
Print Assumptions C94_list_refuted.
