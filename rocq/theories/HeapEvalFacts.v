(** Evaluation and templates on nodes: what is created, what is modified, and that the results are
    those of the trees that the nodes show. *)
From Verif Require Import Base Value Graph Emit PathParser Eval Template Heap HeapSpec HeapFacts HeapEval Quiet.

(** ** Specification *)

(** Contents are neither graphs nor functions nor objects with methods.  [nils]: there may be nil subnodes. *)
Definition datum {P} (v : value P) : Prop := match v with VPtr _ | VFun _ | VObj _ => False | _ => True end.
Inductive stored (nils : bool) : option graph -> Prop :=
| stored_nil : nils = true -> stored nils None
| stored_node v o : datum v -> Forall (stored nils) o -> stored nils (Some (Node v o)).
(** Parsed expressions and templates hold texts only. *)
Inductive worded : option graph -> Prop :=
| worded_nil : worded None
| worded_node s o : Forall worded o -> worded (Some (Node (VStr s) o)).

(** ** Nodes and the trees they show, with a condition on the nodes at each level *)
Inductive seen (h : heap) (P : nat -> addr -> Prop) : nat -> addr -> graph -> Prop :=
| seen_node n a c v o : nth_error h a = Some c -> P n a -> plain (c_this c) = Some v -> seens h P (S n) (c_out c) o -> seen h P n a (Node v o)
with seens (h : heap) (P : nat -> addr -> Prop) : nat -> list (option addr) -> list (option graph) -> Prop :=
| seens_nil n : seens h P n [] []
| seens_none n l o : seens h P n l o -> seens h P n (None :: l) (None :: o)
| seens_some n a g l o : seen h P n a g -> seens h P n l o -> seens h P n (Some a :: l) (Some g :: o).
Scheme seen_mut := Minimality for seen Sort Prop
  with seens_mut := Minimality for seens Sort Prop.
Combined Scheme seen_ind2 from seen_mut, seens_mut.

Definition any : nat -> addr -> Prop := fun _ _ => True.
Definition extends (h h' : heap) : Prop := exists k, h' = h ++ k.
Lemma extends_refl h : extends h h.
Proof. exists []. symmetry. apply app_nil_r. Qed.
Lemma extends_trans a b c : extends a b -> extends b c -> extends a c.
Proof. intros (k & ->) (l & ->). exists (k ++ l). apply app_assoc_reverse. Qed.
Lemma extends_nth h h' a c : extends h h' -> nth_error h a = Some c -> nth_error h' a = Some c.
Proof. intros (k & ->) H. rewrite nth_error_app1; [exact H|]. eapply nth_some_lt. exact H. Qed.
Lemma extends_lt h h' : extends h h' -> (List.length h <= List.length h')%nat.
Proof. intros (k & ->). rewrite app_length. lia. Qed.

Lemma seen_same2 h h' (P P' : nat -> addr -> Prop) : (forall n a c, nth_error h a = Some c -> P n a -> nth_error h' a = Some c /\ P' n a) ->
  (forall n a g, seen h P n a g -> seen h' P' n a g) /\ (forall n l o, seens h P n l o -> seens h' P' n l o).
Proof.
  intros H. apply seen_ind2; intros.
  - destruct (H n a c H0 H1). econstructor; eassumption.
  - constructor.
  - constructor; assumption.
  - constructor; assumption.
Qed.
Lemma seen_ext h h' P n a g : extends h h' -> seen h P n a g -> seen h' P n a g.
Proof. intros Hx. apply (seen_same2 h h' P P). intros. split; [eapply extends_nth; eassumption|assumption]. Qed.
Lemma seens_ext h h' P n l o : extends h h' -> seens h P n l o -> seens h' P n l o.
Proof. intros Hx. apply (seen_same2 h h' P P). intros. split; [eapply extends_nth; eassumption|assumption]. Qed.
Lemma seen_any h P n a g : seen h P n a g -> seen h any n a g.
Proof. apply (seen_same2 h h P any). intros. split; [assumption|exact I]. Qed.
Lemma seens_any h P n l o : seens h P n l o -> seens h any n l o.
Proof. apply (seen_same2 h h P any). intros. split; [assumption|exact I]. Qed.
Lemma seen_up2 h (P : nat -> addr -> Prop) : (forall n x, P (S n) x -> P n x) ->
  (forall m a g, seen h P m a g -> forall n, m = S n -> seen h P n a g) /\ (forall m l o, seens h P m l o -> forall n, m = S n -> seens h P n l o).
Proof.
  intros Hd. apply seen_ind2; intros; subst; econstructor; eauto.
Qed.
Lemma seen_any_level2 h : (forall m a g, seen h any m a g -> forall n, seen h any n a g) /\ (forall m l o, seens h any m l o -> forall n, seens h any n l o).
Proof. apply seen_ind2; intros; econstructor; eauto. Qed.
Lemma seen_any_level h m n a g : seen h any m a g -> seen h any n a g.
Proof. intros H. eapply seen_any_level2. exact H. Qed.

Lemma seen_shows2 h P : (forall n a g, seen h P n a g -> shows h a g) /\ (forall n l o, seens h P n l o -> shows_kids h l o).
Proof.
  apply seen_ind2; intros.
  - econstructor; [eassumption|apply sv_plain; eassumption|assumption].
  - constructor.
  - constructor; assumption.
  - constructor; assumption.
Qed.
Lemma shows_seen3 nils h :
  (forall a g, shows h a g -> stored nils (Some g) -> forall n, seen h any n a g) /\
  (forall x v, shows_value h x v -> datum v -> plain x = Some v) /\
  (forall l o, shows_kids h l o -> Forall (stored nils) o -> forall n, seens h any n l o).
Proof.
  apply shows_ind3.
  - intros a c v o Hc _ Hv _ Ho Hs n. inversion Hs; subst. econstructor; [exact Hc|exact I|auto|auto].
  - auto.
  - intros a g _ _ [].
  - constructor.
  - intros l o _ IH H n. inversion H; subst. constructor. auto.
  - intros a g l o _ IHa _ IHl H n. inversion H; subst. constructor; auto.
Qed.
Lemma seen_lt h P n a g : seen h P n a g -> (a < List.length h)%nat.
Proof. intros H. inversion H; subst. eapply nth_some_lt. eassumption. Qed.

Lemma lv_some g o : lv (Some g :: o) = Nat.max (levels g) (lv o).
Proof. reflexivity. Qed.
Lemma lv_none o : lv (None :: o) = lv o.
Proof. reflexivity. Qed.
(** Levels: a way down passes through different nodes *)
Lemma seen_levels2 h P :
  (forall n a g, seen h P n a g -> forall L, NoDup L -> (forall x, In x L -> (x < List.length h)%nat /\ ~ reach h a x) -> (List.length L + levels g <= List.length h)%nat) /\
  (forall n l o, seens h P n l o -> forall L, NoDup L -> (forall x, In x L -> (x < List.length h)%nat /\ forall b, In (Some b) l -> ~ reach h b x) -> (List.length L + lv o <= List.length h)%nat).
Proof.
  assert (Hb : forall L, NoDup L -> (forall x, In x L -> (x < List.length h)%nat) -> (List.length L <= List.length h)%nat).
  { intros L Hn HL. rewrite <- (seq_length (List.length h) 0). apply NoDup_incl_length; [exact Hn|]. intros x Hx. apply in_seq. specialize (HL x Hx). lia. }
  apply seen_ind2.
  - intros n a c v o Hc HP Hv Ho IH L Hn HL. rewrite levels_eq.
    assert (Hs : shows h a (Node v o)) by (eapply seen_shows2; econstructor; eassumption).
    assert (K : (List.length (a :: L) + lv o <= List.length h)%nat); [|cbn [List.length] in K; lia].
    apply IH.
    + constructor; [|exact Hn]. intros Ha. apply (HL a Ha). apply reach_refl.
    + intros x Hx. split; [destruct Hx as [<-|Hx]; [eapply nth_some_lt; exact Hc|apply HL, Hx]|]. intros b Hb' Hr.
      assert (He : edge h a b). { left. apply In_nth_error in Hb'. destruct Hb' as (k & Hk). exists k. unfold kid. rewrite Hc. exact Hk. }
      destruct Hx as [<-|Hx]; [exact (shows_acyclic h a _ b Hs He Hr)|]. apply (HL x Hx). eapply reach_step; eassumption.
  - intros n L Hn HL. cbn. rewrite Nat.add_0_r. apply Hb; [exact Hn|apply HL].
  - intros n l o _ IH L Hn HL. rewrite lv_none. apply IH; [exact Hn|]. intros x Hx. destruct (HL x Hx) as (H1 & H2). split; [exact H1|]. intros b Hb'. apply H2. right. exact Hb'.
  - intros n a g l o _ IHa _ IHl L Hn HL. rewrite lv_some.
    assert (H1 : (List.length L + levels g <= List.length h)%nat). { apply IHa; [exact Hn|]. intros x Hx. destruct (HL x Hx) as (H1 & H2). split; [exact H1|apply H2; left; reflexivity]. }
    assert (H2 : (List.length L + lv o <= List.length h)%nat). { apply IHl; [exact Hn|]. intros x Hx. destruct (HL x Hx) as (K1 & K2). split; [exact K1|]. intros b Hb'. apply K2. right. exact Hb'. }
    lia.
Qed.
Lemma seen_levels h P n a g : seen h P n a g -> (levels g <= List.length h)%nat.
Proof. intros H. apply (proj1 (seen_levels2 h P) n a g H [] (NoDup_nil _)). intros x []. Qed.

Definition read_kid (f : nat) (b : option addr) : M (option graph) := match b with None => ret None | Some b => do g <- hread f b; ret (Some g) end.
Lemma hread_seen2 h P :
  (forall n a g, seen h P n a g -> forall f, (levels g <= f)%nat -> hread f a h = (h, Ok g)) /\
  (forall n l o, seens h P n l o -> forall f, (lv o <= f)%nat -> collect (read_kid f) l h = (h, Ok o)).
Proof.
  apply seen_ind2.
  - intros n a c v o Hc _ Hv _ IH f Hf. rewrite levels_eq in Hf. destruct f as [|f]; [lia|]. cbn [hread].
    unfold mbind at 1. unfold load. rewrite Hc. specialize (IH f ltac:(lia)).
    assert (Hk : forall w, w = v -> mbind (collect (read_kid f) (c_out c)) (fun o => ret (Node w o)) h = (h, Ok (Node v o))) by (intros w ->; unfold mbind; rewrite IH; reflexivity).
    destruct (c_this c) as [| | | | | | |[p|]| | |]; cbn in Hv; try discriminate; injection Hv as <-; apply Hk; reflexivity.
  - intros. reflexivity.
  - intros n l o _ IH f Hf. cbn [collect read_kid]. unfold mbind. cbn [ret]. rewrite lv_none in Hf. rewrite (IH f Hf). reflexivity.
  - intros n a g l o _ IHa _ IHl f Hf. rewrite lv_some in Hf. cbn [collect read_kid]. unfold mbind. rewrite (IHa f) by lia. cbn [ret]. rewrite (IHl f) by lia. reflexivity.
Qed.
Lemma hgraph_seen h P n a g : seen h P n a g -> hgraph (Some a) h = (h, Ok (Some g)).
Proof.
  intros H. unfold hgraph, mbind. rewrite (proj1 (hread_seen2 h P) n a g H); [reflexivity|]. pose proof (seen_levels _ _ _ _ _ H). lia.
Qed.

(** ** Programs that agree with functions on trees *)
Definition sim {A B} (h : heap) (Q : heap -> A -> B -> Prop) (m : M A) (t : res B) : Prop :=
  exists h' r, m h = (h', r) /\ extends h h' /\
    match r with Ok x => exists y, t = Ok y /\ Q h' x y | Panic => t = Panic | NoFuel => t = NoFuel end.
Lemma sim_ret {A B} h (Q : heap -> A -> B -> Prop) x y : Q h x y -> sim h Q (ret x) (Ok y).
Proof. intros H. exists h, (Ok x). split; [reflexivity|]. split; [apply extends_refl|]. eauto. Qed.
Lemma sim_panic {A B} h (Q : heap -> A -> B -> Prop) : sim h Q mpanic Panic.
Proof. exists h, Panic. split; [reflexivity|]. split; [apply extends_refl|]. reflexivity. Qed.
Lemma sim_fuel {A B} h (Q : heap -> A -> B -> Prop) : sim h Q mfuel NoFuel.
Proof. exists h, NoFuel. split; [reflexivity|]. split; [apply extends_refl|]. reflexivity. Qed.
Lemma sim_bind {A B A' B'} h (Q1 : heap -> A -> B -> Prop) (Q : heap -> A' -> B' -> Prop) m t k k' : sim h Q1 m t ->
  (forall h1 x y, extends h h1 -> Q1 h1 x y -> sim h1 Q (k x) (k' y)) -> sim h Q (mbind m k) (rbind t k').
Proof.
  intros (h1 & r & Hm & Hx & Hr) Hk. destruct r as [x| |].
  - destruct Hr as (y & -> & Hq). destruct (Hk h1 x y Hx Hq) as (h2 & r2 & Hm2 & Hx2 & Hr2). exists h2, r2. unfold mbind. rewrite Hm. split; [exact Hm2|].
    split; [eapply extends_trans; eassumption|exact Hr2].
  - subst t. exists h1, Panic. unfold mbind. rewrite Hm. split; [reflexivity|]. split; [exact Hx|reflexivity].
  - subst t. exists h1, NoFuel. unfold mbind. rewrite Hm. split; [reflexivity|]. split; [exact Hx|reflexivity].
Qed.
(** A program that only reads *)
Lemma sim_read {A B C} h (Q : heap -> B -> C -> Prop) (m : M A) t k k' : m h = (h, t) -> (forall x, t = Ok x -> sim h Q (k x) (k' x)) -> sim h Q (mbind m k) (rbind t k').
Proof.
  intros Hm Hk. destruct t as [x| |].
  - destruct (Hk x eq_refl) as (h2 & r2 & H2). exists h2, r2. unfold mbind. rewrite Hm. exact H2.
  - exists h, Panic. unfold mbind. rewrite Hm. split; [reflexivity|]. split; [apply extends_refl|reflexivity].
  - exists h, NoFuel. unfold mbind. rewrite Hm. split; [reflexivity|]. split; [apply extends_refl|reflexivity].
Qed.
Lemma sim_lift {A B C} h (Q : heap -> B -> C -> Prop) (r : res A) k k' : (forall x, r = Ok x -> sim h Q (k x) (k' x)) -> sim h Q (mbind (lift r) k) (rbind r k').
Proof. apply sim_read. reflexivity. Qed.
Lemma sim_step {A B C} h (Q : heap -> B -> C -> Prop) (m : M A) x k t : m h = (h, Ok x) -> sim h Q (k x) t -> sim h Q (mbind m k) t.
Proof. intros Hm (h2 & r2 & H2). exists h2, r2. unfold mbind. rewrite Hm. exact H2. Qed.
Lemma sim_load {B C} h (Q : heap -> B -> C -> Prop) a c k t : nth_error h a = Some c -> sim h Q (k c) t -> sim h Q (mbind (load a) k) t.
Proof. intros Hc. apply sim_step. apply load_ok, Hc. Qed.
Lemma sim_alloc {B C} h (Q : heap -> B -> C -> Prop) c k t : sim (h ++ [c]) Q (k (List.length h)) t -> sim h Q (mbind (alloc c) k) t.
Proof.
  intros (h2 & r2 & H2 & Hx & Hr). exists h2, r2. unfold mbind, alloc. split; [exact H2|]. split; [|exact Hr]. eapply extends_trans; [|exact Hx]. eexists. reflexivity.
Qed.
Lemma sim_weaken {A B} h (Q Q' : heap -> A -> B -> Prop) m t : sim h Q m t -> (forall h' x y, extends h h' -> Q h' x y -> Q' h' x y) -> sim h Q' m t.
Proof. intros (h1 & r & Hm & Hx & Hr) H. exists h1, r. split; [exact Hm|]. split; [exact Hx|]. destruct r; auto. destruct Hr as (y & -> & Hq). eauto. Qed.

Lemma rbind_assoc {A B C} (m : res A) (k : A -> res B) (k' : B -> res C) : rbind (rbind m k) k' = rbind m (fun x => rbind (k x) k').
Proof. destruct m; reflexivity. Qed.
Lemma nth_new {A} (l : list A) x : nth_error (l ++ [x]) (List.length l) = Some x.
Proof. rewrite nth_error_app2, Nat.sub_diag; [reflexivity|lia]. Qed.
Lemma extends_new h c : extends h (h ++ [c]).
Proof. eexists. reflexivity. Qed.

(** ** Values *)
Inductive vseen (h : heap) : value addr -> value graph -> Prop :=
| vs_plain v w : plain v = Some w -> vseen h v w
| vs_node a g : seen h any 0 a g -> vseen h (VPtr (Some a)) (VPtr (Some g)).
Definition reseen (h : heap) (r : heres) (x : eres) : Prop :=
  match r, x with HVal v, EVal w => vseen h v w | HErr e, EErr e' => e = e' | _, _ => False end.
Lemma vseen_ext h h' v w : extends h h' -> vseen h v w -> vseen h' v w.
Proof. intros Hx [v' w' H|a g H]; [apply vs_plain, H|apply vs_node; eapply seen_ext; eassumption]. Qed.
Lemma plain_content v w : plain v = Some w -> v = content w.
Proof. destruct v as [| | | | | | |[p|]| | |]; cbn; intros H; try discriminate; injection H as <-; reflexivity. Qed.
Lemma vseen_int64 h v w : vseen h v w -> v_int64 v = v_int64 w.
Proof. intros [v' w' H|a g H]; [|reflexivity]. destruct v' as [| | | | | | |[p|]| | |]; cbn in H; try discriminate; injection H as <-; reflexivity. Qed.
Lemma vseen_float64 h v w : vseen h v w -> v_float64 v = v_float64 w.
Proof. intros [v' w' H|a g H]; [|reflexivity]. destruct v' as [| | | | | | |[p|]| | |]; cbn in H; try discriminate; injection H as <-; reflexivity. Qed.
Lemma hstring_plain E f h v w : plain v = Some w -> hstring E f v h = (h, vstring E w).
Proof. destruct v as [| | | | | | |[p|]| | |]; cbn; intros H; try discriminate; injection H as <-; destruct f; reflexivity. Qed.

Section Scalars.
Variable E : env.
Variable f : nat.
Hypothesis Hf : (1 <= f)%nat.

Lemma hString_seen h P n a g : seen h P n a g -> hstring E f (VPtr (Some a)) h = (h, gstring E g).
Proof.
  intros H. destruct f as [|f']; [lia|]. cbn [hstring]. inversion H as [? ? c v o Hc HP Hv Ho]; subst. unfold mbind at 1. rewrite (load_ok _ _ _ Hc).
  inversion Ho as [|? l o' Hl|? b gb l o' Hb Hl]; subst; [reflexivity|reflexivity|].
  inversion Hb as [? ? d w ob Hd HPb Hw Hob]; subst. unfold mbind. rewrite (load_ok _ _ _ Hd). rewrite (hstring_plain E f' h _ _ Hw). destruct w as [| | | | | | |[p|]| | |]; try reflexivity.
Qed.
Lemma hstring_vseen h v w : vseen h v w -> hstring E f v h = (h, vstring E w).
Proof. intros [v' w' H|a g H]; [apply hstring_plain, H|]. rewrite (hString_seen _ _ _ _ _ H). reflexivity. Qed.
Lemma hint64f_vseen h v w : vseen h v w -> hint64f E v h = (h, v_int64f E w).
Proof.
  intros [v' w' H|a g H].
  - destruct v' as [| | | | | | |[p|]| | |]; cbn in H; try discriminate; injection H as <-; reflexivity.
  - inversion H as [? ? c u o Hc _ Hu _]; subst. unfold hint64f, v_int64f. unfold mbind at 1. cbn [rbind this]. unfold mbind. rewrite (load_ok _ _ _ Hc). cbn [ret].
    destruct (c_this c) as [| | | | | | |[p|]| | |]; cbn in Hu; try discriminate; injection Hu as <-; reflexivity.
Qed.
Lemma hboolf_vseen h v w : vseen h v w -> hboolf v h = (h, Ok (v_boolf w)).
Proof.
  intros [v' w' H|a g H].
  - destruct v' as [| | | | | | |[p|]| | |]; cbn in H; try discriminate; injection H as <-; reflexivity.
  - inversion H as [? ? c u o Hc _ Hu _]; subst. unfold hboolf, v_boolf. unfold mbind at 1. cbn [rbind this]. unfold mbind. rewrite (load_ok _ _ _ Hc). cbn [ret].
    destruct (c_this c) as [| | | | | | |[p|]| | |]; cbn in Hu; try discriminate; injection Hu as <-; reflexivity.
Qed.
Lemma hfloat64f_vseen h v w : vseen h v w -> hfloat64f E f v h = (h, v_float64f E w).
Proof.
  intros H. unfold hfloat64f, v_float64f. rewrite (vseen_float64 _ _ _ H), (vseen_int64 _ _ _ H). destruct (v_float64 w); [reflexivity|]. destruct (v_int64 w); [reflexivity|].
  unfold mbind. rewrite (hstring_vseen _ _ _ H). destruct (vstring E w); reflexivity.
Qed.
Lemma hcompare_vseen h v1 w1 v2 w2 op : vseen h v1 w1 -> vseen h v2 w2 -> hcompare E f v1 v2 op h = (h, compare_ E w1 w2 op).
Proof.
  intros H1 H2. unfold hcompare, compare_. rewrite (vseen_float64 _ _ _ H1), (vseen_int64 _ _ _ H1). destruct (v_int64 w1).
  { unfold mbind. rewrite (hint64f_vseen _ _ _ H2). destruct (v_int64f E w2); reflexivity. }
  destruct (v_float64 w1). { unfold mbind. rewrite (hfloat64f_vseen _ _ _ H2). destruct (v_float64f E w2); reflexivity. }
  unfold mbind. rewrite (hstring_vseen _ _ _ H1). destruct (vstring E w1); try reflexivity. cbn [rbind]. rewrite (hstring_vseen _ _ _ H2). destruct (vstring E w2); reflexivity.
Qed.
Lemma hlogic_vseen h v1 w1 v2 w2 op : vseen h v1 w1 -> vseen h v2 w2 -> hlogic v1 v2 op h = (h, Ok (logic w1 w2 op)).
Proof. intros H1 H2. unfold hlogic, logic, mbind. rewrite (hboolf_vseen _ _ _ H1), (hboolf_vseen _ _ _ H2). reflexivity. Qed.
Lemma calc_int_plain op a b v : calc_int op a b = Ok v -> plain (content v) = Some v.
Proof. unfold calc_int. repeat match goal with |- (if ?b then _ else _) = _ -> _ => destruct b end; intros [= <-]; reflexivity. Qed.
Lemma calc_float_plain op a b v : calc_float E op a b = Ok v -> plain (content v) = Some v.
Proof. unfold calc_float. repeat match goal with |- (if ?b then _ else _) = _ -> _ => destruct b end; intros [= <-]; reflexivity. Qed.
Lemma sim_num h (r : res (value graph)) : (forall v, r = Ok v -> plain (content v) = Some v) -> sim h vseen (do v <- lift r; ret (content v)) r.
Proof.
  intros H. destruct r as [v| |]; [|apply sim_panic|apply sim_fuel]. apply (sim_ret h vseen (content v) v). apply vs_plain. auto.
Qed.
Lemma hcalc_vseen h v1 w1 v2 w2 op : vseen h v1 w1 -> vseen h v2 w2 -> sim h vseen (hcalc E f v1 v2 op) (calc E w1 w2 op).
Proof.
  intros H1 H2. unfold hcalc, calc. rewrite (vseen_float64 _ _ _ H1), (vseen_int64 _ _ _ H1), (vseen_float64 _ _ _ H2), (vseen_int64 _ _ _ H2).
  assert (Hc : sim h vseen (do s1 <- hstring E f v1; do s2 <- hstring E f v2; ret (VStr (s1 ++ s2))) (let* s1 := vstring E w1 in let* s2 := vstring E w2 in Ok (VStr (s1 ++ s2)))).
  { apply sim_read; [apply hstring_vseen, H1|]. intros s1 _. apply sim_read; [apply hstring_vseen, H2|]. intros s2 _. apply sim_ret, vs_plain. reflexivity. }
  assert (Hn : forall a, sim h vseen (do r <- hfloat64f E f v2; do v <- lift (calc_float E op a (match r with Some b => b | None => S754_zero false end)); ret (content v))
            (let* r := v_float64f E w2 in calc_float E op a (match r with Some b => b | None => S754_zero false end))).
  { intros a. apply sim_read; [apply hfloat64f_vseen, H2|]. intros r _. apply sim_num. intros v. apply calc_float_plain. }
  destruct (v_int64 w1) as [i1|], (v_int64 w2) as [i2|].
  - apply sim_num. intros v. apply calc_int_plain.
  - destruct (v_float64 w2); [apply sim_num; intros v; apply calc_float_plain|]. apply Hn.
  - destruct (v_float64 w1); [apply sim_num; intros v; apply calc_float_plain|]. exact Hc.
  - destruct (v_float64 w1), (v_float64 w2); [apply sim_num; intros v; apply calc_float_plain|apply Hn|exact Hc|].
    destruct (beq op "+"); [exact Hc|]. apply sim_ret, vs_plain. reflexivity.
Qed.
Lemma number_plain v n : number E v = Ok n -> plain (content n) = Some n.
Proof.
  assert (H : forall s, (match s with
              | [] => Ok VNil
              | _ =>
                  let* b := isInteger s in
                  if b then Ok match parse_int s with Some n => VInt KInt64 n | None => VNil end
                  else Ok match parse_float E s with Some f => VF64 f | None => VNil end
              end) = Ok n -> plain (content n) = Some n).
  { intros s. destruct s; [intros [= <-]; reflexivity|]. destruct (isInteger _) as [bi| |]; cbn [rbind]; try discriminate. destruct bi.
    - destruct (parse_int _); intros [= <-]; reflexivity.
    - destruct (parse_float E _); intros [= <-]; reflexivity. }
  unfold number. destruct v; cbn [v_float64 v_int64]; try (intros [= <-]; reflexivity); destruct (vstring E _); cbn [rbind]; try discriminate; apply H.
Qed.
Lemma ThisScalar_plain s r : ThisScalar E (Node (VStr s) []) = Ok r -> plain (content r) = Some r.
Proof.
  unfold ThisScalar, scalar_of. cbn [this rbind]. destruct (number E (VStr s)) as [n| |] eqn:En; cbn [rbind]; try discriminate.
  pose proof (number_plain _ _ En) as Hn. destruct n; try (intros [= <-]; exact Hn). destruct (v_boolf _); intros [= <-]; reflexivity.
Qed.
End Scalars.

Lemma worded_all s o : worded (Some (Node (VStr s) o)) -> Forall worded o.
Proof. intros H. inversion H; subst. assumption. Qed.
Lemma worded_out n : worded (Some n) -> Forall worded (out n).
Proof. intros H. inversion H; subst. assumption. Qed.
Lemma worded_in n e : worded (Some n) -> In e (out n) -> worded e.
Proof. intros H Hi. apply worded_out in H. rewrite Forall_forall in H. auto. Qed.
Lemma worded_Out n i e : worded (Some n) -> Out_ n i = Ok e -> worded e.
Proof. unfold Out_. intros H. destruct (nth_error (out n) i) eqn:En; [|discriminate]. intros [= <-]. eapply worded_in; [exact H|]. eapply nth_error_In. exact En. Qed.
Lemma worded_GetAt n i e : worded n -> GetAt n i = Ok e -> worded e.
Proof.
  destruct n as [[v o]|]; [|discriminate]. intros H Hi. cbn [GetAt] in Hi. destruct (_ || _); injection Hi as <-; [constructor|].
  unfold child. destruct (nth_error o (Z.to_nat i)) eqn:En; [|constructor]. eapply worded_in; [exact H|]. eapply nth_error_In. exact En.
Qed.
Lemma stored_out nils v o : stored nils (Some (Node v o)) -> Forall (stored nils) o.
Proof. intros H. inversion H; subst. assumption. Qed.

Lemma sim_hcopy_ : forall g, worded (Some g) -> forall h, exists h' a, hcopy g h = (h', Ok a) /\ extends h h' /\ seen h' any 0 a g.
Proof.
  induction g as [v o _ IH] using graph_ind'. intros Hw h. inversion Hw as [|s o' Ho]; subst. cbn [hcopy].
  set (go := fix go (o : list (option graph)) : M (list (option addr)) :=
                 match o with
                 | [] => ret []
                 | None :: o => do l <- go o; ret (None :: l)
                 | Some g :: o => do a <- hcopy g; do l <- go o; ret (Some a :: l)
                 end).
  assert (Hgo : forall h, exists h' l, go o h = (h', Ok l) /\ extends h h' /\ seens h' any 1 l o).
  { clear Hw h. induction o as [|[e|] o IHo]; intros h.
    - exists h, []. split; [reflexivity|]. split; [apply extends_refl|constructor].
    - inversion IH as [|? ? Hc IH']; subst. inversion Ho as [|? ? Hwe Hwo]; subst. destruct (Hc Hwe h) as (h1 & a & H1 & Hx1 & Hs1). destruct (IHo IH' Hwo h1) as (h2 & l & H2 & Hx2 & Hs2).
      exists h2, (Some a :: l). cbn [go]. fold go. unfold mbind. rewrite H1, H2. split; [reflexivity|]. split; [eapply extends_trans; eassumption|]. constructor; [|exact Hs2]. eapply seen_any_level. eapply seen_ext; eassumption.
    - inversion IH as [|? ? Hc IH']; subst. inversion Ho as [|? ? Hwe Hwo]; subst. destruct (IHo IH' Hwo h) as (h2 & l & H2 & Hx2 & Hs2).
      exists h2, (None :: l). cbn [go]. fold go. unfold mbind. rewrite H2. split; [reflexivity|]. split; [exact Hx2|]. constructor. exact Hs2. }
  destruct (Hgo h) as (h1 & l & H1 & Hx1 & Hs1). eexists. eexists. unfold mbind. rewrite H1. split; [reflexivity|]. split; [eapply extends_trans; [exact Hx1|apply extends_new]|].
  econstructor; [apply nth_new|exact I|reflexivity|]. eapply seens_ext; [apply extends_new|exact Hs1].
Qed.
Lemma hadd_out_seen h v w : vseen h v w -> exists h' l, hadd_out v h = (h', Ok l) /\ extends h h' /\ seens h' any 0 l (add_out w).
Proof.
  intros [v' w' H|a g H].
  - assert (K : forall u x, plain u = Some x -> exists h' l, mbind (alloc {| c_this := u; c_out := [] |}) (fun n => ret [Some n]) h = (h', Ok l) /\ extends h h' /\ seens h' any 0 l [Some (New x)]).
    { intros u x Hu. eexists. eexists. split; [reflexivity|]. split; [apply extends_new|]. constructor; [|constructor]. econstructor; [apply nth_new|exact I|exact Hu|constructor]. }
    destruct v' as [| | | | | | |[p|]| | |]; cbn in H; try discriminate; injection H as <-; try (apply K; reflexivity).
    exists h, []. split; [reflexivity|]. split; [apply extends_refl|constructor].
  - exists h, [Some a]. split; [reflexivity|]. split; [apply extends_refl|]. constructor; [exact H|constructor].
Qed.

Section EvalSim.
Variable E : env.
Variable f : nat.
Hypothesis Hf : (1 <= f)%nat.
Variable C : calls.
Variable hC : hcalls.
Hypothesis Hjson : forall g, hto_json hC g = to_json C g.
Variable P : nat -> addr -> Prop.
Hypothesis Hup : forall n x, P (S n) x -> P n x.
Variable h0 : heap.
Hypothesis Hfresh : forall n x, (List.length h0 <= x)%nat -> P n x.
Variable root : addr.
Variable rt : graph.
Hypothesis Hroot : seen h0 P 0 root rt.
Variable nils : bool.
Hypothesis Hst : stored nils (Some rt).

Definition okid (h : heap) (n : nat) (a : option addr) (g : option graph) : Prop :=
  match a, g with None, None => True | Some a, Some g => seen h P n a g /\ stored nils (Some g) | _, _ => False end.
Lemma okid_ext h h' n a g : extends h h' -> okid h n a g -> okid h' n a g.
Proof. intros Hx. destruct a, g; cbn; auto. intros (H & K). split; [eapply seen_ext; eassumption|exact K]. Qed.
Lemma okid_up h n a g : okid h (S n) a g -> okid h n a g.
Proof. destruct a, g; cbn; auto. intros (H & K). split; [|exact K]. eapply (proj1 (seen_up2 h P Hup)); eauto. Qed.
Lemma okid_any h n a g : okid h n a g -> vseen h (VPtr a) (VPtr g).
Proof. destruct a, g; cbn; try tauto. - intros (H & K). apply vs_node. eapply seen_any_level, seen_any, H. - intros _. apply vs_plain. reflexivity. Qed.

(** A path that starts at the context and goes at least one step down leads to nodes below it. *)
Definition listable (h : heap) (v : value addr) : Prop :=
  forall a, v = VPtr (Some a) -> (exists g, seen h P 1 a g /\ Forall (stored nils) (out g)) \/
    exists b g, nth_error h a = Some {| c_this := VStr (bs "["); c_out := [Some b] |} /\ seen h P 1 b g /\ Forall (stored nils) (out g).
Lemma listable_ext h h' v : extends h h' -> listable h v -> listable h' v.
Proof.
  intros Hx H a Ha. destruct (H a Ha) as [(g & Hs & Hg)|(b & g & Hc & Hs & Hg)]; [left|right].
  - exists g. split; [eapply seen_ext; eassumption|exact Hg].
  - exists b, g. split; [eapply extends_nth; eassumption|]. split; [eapply seen_ext; eassumption|exact Hg].
Qed.

Definition simg {A B} (h : heap) (Q : heap -> A -> B -> Prop) (m : M A) (t : res (graph * B)) : Prop :=
  sim h (fun h' x y => fst y = rt /\ Q h' x (snd y)) m t.
Lemma simg_bind {A B A' B'} h (Q1 : heap -> A -> B -> Prop) (Q : heap -> A' -> B' -> Prop) m t k k' : simg h Q1 m t ->
  (forall h1 x y, extends h h1 -> Q1 h1 x y -> sim h1 Q (k x) (k' (rt, y))) -> sim h Q (mbind m k) (rbind t k').
Proof. intros Hm Hk. eapply sim_bind; [exact Hm|]. intros h1 x [g y] Hx (Hg & Hq). cbn in Hg, Hq. subst g. auto. Qed.
Ltac gret := apply sim_ret; split; [reflexivity|cbn [snd]].

Variable hev : bool -> option graph -> M heres.
Variable ev : bool -> option graph -> graph -> res (graph * eres).
Hypothesis Hev : forall h b e, extends h0 h -> quiet E e -> worded e -> simg h reseen (hev b e) (ev b e rt).

Lemma simg_Eval h e : extends h0 h -> quiet E e -> worded e -> simg h reseen (hEval_with E hev e) (Eval_with E ev e rt).
Proof.
  intros Hx Hq Hw. unfold hEval_with, Eval_with. apply sim_lift. intros s _. destruct (_ || _); [apply Hev; assumption|].
  destruct e as [[v [|x o]]|].
  - inversion Hw; subst. apply sim_lift. intros r Hr. gret. apply vs_plain. eapply ThisScalar_plain. exact Hr.
  - destruct (sim_hcopy_ _ Hw h) as (h1 & a & H1 & Hx1 & Hs1). exists h1, (Ok (HVal (VPtr (Some a)))). unfold mbind. rewrite H1. split; [reflexivity|]. split; [exact Hx1|].
    eexists. split; [reflexivity|]. split; [reflexivity|]. apply vs_node, Hs1.
  - gret. apply vs_plain. reflexivity.
Qed.
Lemma simg_index h n : extends h0 h -> quiet E (Some n) -> worded (Some n) -> simg h (fun _ x y => x = y) (hindex hev n) (index_ ev n rt).
Proof.
  intros Hx Hq Hw. unfold hindex, index_. pose proof (quiet_all _ _ Hq) as Hqa. pose proof (worded_out _ Hw) as Hwa. destruct (out n) as [|e o]; [gret; reflexivity|].
  inversion Hqa; inversion Hwa; subst. eapply simg_bind; [apply Hev; assumption|]. intros h1 r x Hx1 Hr. gret.
  destruct r as [v|z], x as [w|z']; cbn in Hr; try contradiction; [|reflexivity]. rewrite (vseen_int64 _ _ _ Hr). reflexivity.
Qed.

(** The children of a node *)
Lemma seens_nth h n l o i : seens h P n l o -> Forall (stored nils) o -> okid h n (nth i l None) (child o i).
Proof.
  intros H. revert i. induction H as [|m l o Hl IH|m a g l o Ha Hl IH]; intros i Hs; [destruct i; exact I| |]; inversion Hs; subst; unfold child in *; destruct i as [|i]; cbn; auto; try (apply IH; assumption).
Qed.
Lemma seens_length h n l o : seens h P n l o -> List.length l = List.length o.
Proof. induction 1; cbn; congruence. Qed.
Lemma sim_find h n s l o : seens h P n l o -> Forall (stored nils) o ->
  sim h (fun h' a g => h' = h /\ okid h n a g) (hfind E f s l) (let* i := find_child E s o in Ok match i with None => None | Some i => child o i end).
Proof.
  induction 1 as [m|m l o Hl IH|m a g l o Ha Hl IH]; intros Hs; cbn [hfind find_child].
  - apply (sim_ret h _ None None). split; [reflexivity|exact I].
  - apply (sim_panic h).
  - inversion Hs as [|? ? Hsg Hso]; subst. unfold deref. inversion Ha as [? ? c v k Hc HP Hv Hk]; subst. apply (sim_step _ _ _ a); [reflexivity|]. apply (sim_load _ _ _ c _ _ Hc). cbn [this].
    rewrite rbind_assoc. apply sim_read; [apply hstring_plain, Hv|]. intros t _. destruct (bseq s t).
    + apply (sim_ret h _ (Some a) (Some (Node v k))). split; [reflexivity|]. split; assumption.
    + destruct (IH Hso) as (h1 & r & H1 & Hx1 & Hr). exists h1, r. split; [exact H1|]. split; [exact Hx1|]. destruct (find_child E s o) as [[i|]| |]; exact Hr.
Qed.
Lemma sim_Node h n a v o c s : nth_error h a = Some c -> seens h P n (c_out c) o -> Forall (stored nils) o ->
  sim h (fun h' a g => h' = h /\ okid h n a g) (hNode E f (Some a) s) (Node_ E (Some (Node v o)) s).
Proof. intros Hc Hk Hs. unfold hNode, Node_. apply (sim_load _ _ _ c _ _ Hc). apply sim_find; assumption. Qed.
Lemma sim_equal_nodes h n key l o : seens h P n l o -> Forall (stored nils) o ->
  sim h (fun h' l g => h' = h /\ seens h P (S n) l g /\ Forall (stored nils) g) (hequal_nodes E f key l) (equal_nodes E key o).
Proof.
  induction 1 as [m|m l o Hl IH|m a g l o Ha Hl IH]; intros Hs; cbn [hequal_nodes equal_nodes].
  - apply (sim_ret h _ [] []). split; [reflexivity|]. split; constructor.
  - apply (sim_panic h).
  - inversion Hs as [|? ? Hsg Hso]; subst. unfold deref. inversion Ha as [? ? c v k Hc HP Hv Hk]; subst. apply (sim_step _ _ _ a); [reflexivity|]. apply (sim_load _ _ _ c _ _ Hc). cbn [this out].
    apply sim_read; [apply hstring_plain, Hv|]. intros t _. eapply sim_bind; [apply IH, Hso|]. intros h1 l1 o1 Hx1 (-> & H1 & H2). apply sim_ret. split; [reflexivity|].
    destruct (bseq key t); [|split; assumption]. split; [|apply Forall_app; split; [eapply stored_out; exact Hsg|exact H2]].
    clear - Hk H1. induction Hk; cbn; [exact H1|constructor; auto|constructor; auto].
Qed.
Lemma hThisString_kid h n a g : okid h n a g -> hThisString E f a h = (h, ThisString E g).
Proof.
  destruct a as [a|], g as [g|]; cbn [okid]; try tauto. intros (H & _). inversion H as [? ? c v o Hc _ Hv _]; subst. unfold hThisString, mbind. rewrite (load_ok _ _ _ Hc). apply hstring_plain, Hv.
Qed.
Lemma sim_nth_equal h n key l o : seens h P n l o -> Forall (stored nils) o -> forall i,
  sim h (fun h' l g => h' = h /\ seens h P (S n) l g /\ Forall (stored nils) g) (hnth_equal E f i key l) (nth_equal E i key o).
Proof.
  induction 1 as [m|m l o Hl IH|m a g l o Ha Hl IH]; intros Hs i; cbn [hnth_equal nth_equal].
  - apply (sim_ret h _ [] []). split; [reflexivity|]. split; constructor.
  - inversion Hs as [|? ? _ Hso]; subst. apply sim_read; [reflexivity|]. intros t _. destruct (bseq t key); [|apply IH, Hso]. destruct i; [|apply IH, Hso].
    apply (sim_ret h _ [] []). split; [reflexivity|]. split; constructor.
  - inversion Hs as [|? ? Hsg Hso]; subst. apply sim_read; [apply (hThisString_kid h m); split; assumption|]. intros t _. destruct (bseq t key); [|apply IH, Hso]. destruct i; [|apply IH, Hso].
    inversion Ha as [? ? c v k Hc HP Hv Hk]; subst. apply (sim_load _ _ _ c _ _ Hc). apply sim_ret. split; [reflexivity|]. split; [exact Hk|eapply stored_out; exact Hsg].
Qed.
Definition skid (h : heap) (n : nat) (a : option addr + N) (g : option graph + N) : Prop :=
  match a, g with inl a, inl g => okid h n a g | inr e, inr e' => e = e' | _, _ => False end.
Lemma simg_selector h n prev gprev key : extends h0 h -> quiet E (Some n) -> worded (Some n) -> okid h 0 prev gprev ->
  simg h (fun h' x y => skid h' 1 x y) (hselector E f hev n prev key) (selector E ev n gprev key rt).
Proof.
  intros Hx Hq Hw Hk. unfold hselector, selector. destruct prev as [p|], gprev as [g|]; try destruct Hk as [Hp Hs]; try (gret; reflexivity); try contradiction.
  destruct key as [|k0 key]; [gret; reflexivity|]. eapply simg_bind; [apply simg_index; assumption|]. intros h1 ix ? Hx1 <-. cbn beta iota zeta.
  destruct (wrap64 (ix + 1) <? 0); [gret; reflexivity|]. apply (seen_ext _ h1) in Hp; [|exact Hx1]. inversion Hp as [? ? c v o Hc HP Hv Ho]; subst. apply (sim_load _ _ _ c _ _ Hc).
  eapply sim_bind.
  { cbn [out]. destruct (_ =? 0); [apply sim_equal_nodes|apply sim_nth_equal]; try exact Ho; eapply stored_out; exact Hs. }
  intros h2 l o' Hx2 (-> & H1 & H2). apply sim_alloc. apply sim_ret. split; [reflexivity|]. cbn [skid okid snd]. split.
  - econstructor; [apply nth_new| |reflexivity|eapply seens_ext; [apply extends_new|exact H1]]. apply Hfresh. apply extends_lt. eapply extends_trans; eassumption.
  - constructor; [exact I|exact H2].
Qed.
Lemma function_datum p v x : plain x = Some v -> datum v -> hfunction E hC hev p x = ret (HVal VNil) /\ function E C ev p v rt = Ok (rt, EVal VNil).
Proof. intros Hp Hd. destruct v; destruct Hd; destruct x as [| | | | | | |[q|]| | |]; cbn in Hp; try discriminate; split; reflexivity. Qed.
Lemma first_this_seen h n l o v : seens h P n l o -> Forall (stored nils) o ->
  (exists x w, hfirst_this l h = (h, Ok x) /\ first_this (Node v o) = Ok w /\ plain x = Some w /\ datum w) \/ (hfirst_this l h = (h, Panic) /\ first_this (Node v o) = Panic).
Proof.
  intros H Hs. destruct H as [m|m l o Hl|m a g l o Ha Hl]; [right; split; reflexivity|right; split; reflexivity|left].
  inversion Hs as [|? ? Hsg Hso]; subst. inversion Ha as [? ? c w k Hc HP Hv Hk]; subst. inversion Hsg; subst. exists (c_this c), w. cbn [hfirst_this]. unfold mbind. rewrite (load_ok _ _ _ Hc). repeat split; auto.
Qed.
Lemma simg_group_name h n : extends h0 h -> quiet E (Some n) -> worded (Some n) -> simg h (fun _ x y => x = y) (hgroup_name E f hev n) (group_name E ev n rt).
Proof.
  intros Hx Hq Hw. unfold hgroup_name, group_name. apply sim_lift. intros e He. eapply simg_bind; [apply simg_Eval; [exact Hx|eapply quiet_Out; eassumption|eapply worded_Out; eassumption]|].
  intros h1 r x Hx1 Hr. destruct r as [v|z], x as [w|z']; cbn in Hr; try contradiction; [|subst; gret; reflexivity].
  apply sim_read; [apply (hstring_vseen E f Hf), Hr|]. intros s _. gret. reflexivity.
Qed.
Lemma hsimplify_seen h a g : vseen h (VPtr a) (VPtr g) -> exists v, hsimplify a h = (h, Ok v) /\ vseen h v (simplify g) /\ (v = VPtr a \/ forall b, v <> VPtr (Some b)).
Proof.
  intros H. inversion H as [? ? Hp|? ? Hs]; subst.
  - destruct a; [discriminate|]. injection Hp as <-. exists (VPtr None). split; [reflexivity|]. split; [apply vs_plain; reflexivity|left; reflexivity].
  - rename a0 into a, g0 into g. inversion Hs as [? ? c v o Hc _ Hv Ho]; subst. cbn [hsimplify]. unfold mbind. rewrite (load_ok _ _ _ Hc).
    assert (Hself : vseen h (VPtr (Some a)) (VPtr (Some (Node v o)))) by (apply vs_node; exact Hs).
    inversion Ho as [Hn He Hn2|? l o' Hl He Hn2|? b gb l o' Hb Hl He Hn2]; subst; try (exists (VPtr (Some a)); split; [reflexivity|]; split; [exact Hself|left; reflexivity]).
    inversion Hb as [? ? d w k Hd _ Hw Hk]; subst.
    inversion Hl; subst; try (exists (VPtr (Some a)); split; [reflexivity|]; split; [destruct k; exact Hself|left; reflexivity]).
    rewrite (load_ok _ _ _ Hd). inversion Hk; subst; try (exists (VPtr (Some a)); split; [reflexivity|]; split; [exact Hself|left; reflexivity]).
    exists (c_this d). split; [reflexivity|]. split; [apply vs_plain, Hw|]. right. intros b' Hb'. rewrite Hb' in Hw. discriminate.
Qed.

Definition hlist (h : heap) (r : heres) : Prop := match r with HVal v => listable h v | HErr _ => True end.
Lemma hlist_plain h v : (forall b, v <> VPtr (Some b)) -> hlist h (HVal v).
Proof. intros H a Ha. destruct (H a Ha). Qed.
Lemma hlist_kid h a g : okid h 1 a g -> hlist h (HVal (VPtr a)).
Proof. intros H b Hb. injection Hb as ->. destruct g as [g|]; [|destruct H]. destruct H as (H & Hd). left. exists g. split; [exact H|]. destruct g. eapply stored_out. exact Hd. Qed.
Lemma hwrap_seen h a g : extends h0 h -> okid h 1 a g -> exists h' r, hwrap a h = (h', Ok (Some r)) /\ extends h h' /\ vseen h' (VPtr (Some r)) (VPtr (Some (Node (VStr (bs "[")) (add_out (VPtr g))))) /\ listable h' (VPtr (Some r)).
Proof.
  intros Hx Hk. unfold hwrap. destruct a as [a|], g as [g|]; try destruct Hk as [Hs Hd]; try contradiction.
  - cbn [hadd_out add_out]. eexists. eexists. split; [reflexivity|]. split; [apply extends_new|].
    assert (Hs' : seen (h ++ [{| c_this := VStr (bs "["); c_out := [Some a] |}]) P 1 a g) by (eapply seen_ext; [apply extends_new|exact Hs]). split.
    + apply vs_node. econstructor; [apply nth_new|exact I|reflexivity|]. constructor; [|constructor]. eapply seen_any_level, seen_any, Hs'.
    + intros b Hb. injection Hb as <-. right. exists a, g. split; [apply nth_new|]. split; [exact Hs'|]. destruct g. eapply stored_out. exact Hd.
  - cbn [hadd_out add_out]. eexists. eexists. split; [reflexivity|]. split; [eapply extends_trans; apply extends_new|].
    set (h1 := h ++ [_]). set (h2 := h1 ++ [_]).
    assert (Hs : seen h2 P 1 (List.length h) (New (VPtr None))).
    { econstructor; [eapply extends_nth; [apply extends_new|apply nth_new]| |reflexivity|constructor]. apply Hfresh, extends_lt, Hx. }
    split.
    + apply vs_node. econstructor; [apply nth_new|exact I|reflexivity|]. constructor; [|constructor]. eapply seen_any_level, seen_any, Hs.
    + intros b Hb. injection Hb as <-. right. exists (List.length h), (New (VPtr None)). split; [apply nth_new|]. split; [exact Hs|constructor].
Qed.
Lemma simg_finish h (simpl top : bool) a g : extends h0 h -> okid h 0 a g -> (top = true -> okid h 1 a g) ->
  simg h (fun h' x y => reseen h' x y /\ (okid h 1 a g -> hlist h' x))
    (do r <- (if top then hwrap a else ret a); do v <- (if simpl then hsimplify r else ret (VPtr r)); ret (HVal v))
    (let r := if top then Some (Node (VStr (bs "[")) (add_out (VPtr g))) else g in Ok (rt, EVal (if simpl then simplify r else VPtr r))).
Proof.
  intros Hx Hk Ht. cbn zeta.
  assert (Hfin : forall h1 r gr, extends h h1 -> vseen h1 (VPtr r) (VPtr gr) -> (okid h 1 a g -> listable h1 (VPtr r)) ->
    simg h1 (fun h' x y => reseen h' x y /\ (okid h 1 a g -> hlist h' x)) (do v <- (if simpl then hsimplify r else ret (VPtr r)); ret (HVal v)) (Ok (rt, EVal (if simpl then simplify gr else VPtr gr)))).
  { intros h1 r gr Hx1 Hv Hl. destruct simpl.
    - destruct (hsimplify_seen h1 r gr Hv) as (v & Hm & Hs & Hor). apply (sim_step _ _ _ v _ _ Hm). gret. split; [exact Hs|]. intros K. destruct Hor as [->|Hp]; [exact (Hl K)|apply hlist_plain, Hp].
    - apply (sim_step _ _ _ (VPtr r)); [reflexivity|]. gret. split; [exact Hv|exact Hl]. }
  destruct top.
  - destruct (hwrap_seen h a g Hx (Ht eq_refl)) as (h1 & r & Hm & Hx1 & Hv & Hl). destruct (Hfin h1 _ _ Hx1 Hv (fun _ => Hl)) as (h2 & r2 & Hm2 & Hx2 & Hr2).
    exists h2, r2. unfold mbind at 1. rewrite Hm. split; [exact Hm2|]. split; [eapply extends_trans; eassumption|exact Hr2].
  - apply (sim_step _ _ _ a); [reflexivity|]. apply Hfin; [apply extends_refl|eapply okid_any; exact Hk|]. intros K. exact (hlist_kid h a g K).
Qed.
Lemma simg_els p simpl els : Forall (quiet E) els -> Forall worded els -> forall h top ctx gctx prev gprev key,
  extends h0 h -> okid h 0 ctx gctx -> okid h 0 prev gprev -> (top = true -> okid h 1 ctx gctx) ->
  simg h (fun h' x y => reseen h' x y /\ ((okid h 1 ctx gctx \/ exists n els', els = n :: els' /\ ThisString E n <> Ok (bs "_this")) -> hlist h' x))
    (heval_els E f hC hev p simpl top els ctx prev key) (eval_els E C ev p simpl top els gctx gprev key rt).
Proof.
  induction els as [|n els IH]; intros Hqs Hws h top ctx gctx prev gprev key Hx Hc Hp Ht.
  - cbn [heval_els eval_els]. eapply sim_weaken; [apply (simg_finish h simpl top ctx gctx Hx Hc Ht)|]. intros h' x y _ (H1 & H2 & H3). split; [exact H1|]. split; [exact H2|]. intros [K|(n & els' & K & _)]; [auto|discriminate].
  - inversion Hqs as [|? ? Hq Hqs']; inversion Hws as [|? ? Hw Hws']; subst. specialize (IH Hqs' Hws').
    cbn [heval_els eval_els]. destruct ctx as [c|], gctx as [gc|]; try contradiction.
    2:{ eapply sim_weaken; [apply (simg_finish h simpl top None None Hx Hc Ht)|]. intros h' x y _ (H1 & H2 & H3). split; [exact H1|]. split; [exact H2|]. intros _. apply H3. exact I. }
    destruct Hc as (Hcs & Hcd). apply sim_lift. intros s Hs.
    assert (Hprev : forall h1, extends h h1 -> okid h1 0 (Some c) (Some gc)) by (intros h1 Hx1; apply (okid_ext h h1); [exact Hx1|split; assumption]).
    inversion Hcs as [? ? cell v o Hcell HPc Hv Ho]; subst. pose proof (stored_out _ _ _ Hcd) as Hdo.
    (* after a step down the result is listable *)
    assert (Hgo : forall h1 h2 top key a g (Q : Prop), extends h h1 -> h2 = h1 -> okid h1 1 a g ->
      simg h1 (fun h' x y => reseen h' x y /\ (Q -> hlist h' x)) (heval_els E f hC hev p simpl top els a (Some c) key) (eval_els E C ev p simpl top els g (Some (Node v o)) key rt)).
    { intros h1 h2 top' key' a g Q Hx1 _ Hk. eapply sim_weaken; [apply (IH h1 top' a g (Some c) (Some (Node v o)) key')|].
      - eapply extends_trans; eassumption.
      - apply okid_up, Hk.
      - apply Hprev, Hx1.
      - intros _; exact Hk.
      - intros h' x y _ (H1 & H2 & H3). split; [exact H1|]. split; [exact H2|]. intros _. apply H3. left. exact Hk. }
    assert (Hvoid : forall (Q : Prop) h1, simg h1 (fun h' x y => reseen h' x y /\ (Q -> hlist h' x)) (ret (HVal VNil)) (Ok (rt, EVal VNil))).
    { intros Q h1. gret. split; [apply vs_plain; reflexivity|]. intros _. apply hlist_plain. discriminate. }
    assert (Hnamed : forall h1 s (Q : Prop), extends h h1 -> simg h1 (fun h' x y => reseen h' x y /\ (Q -> hlist h' x))
       (do next <- hNode E f (Some c) s;
            match next with
            | Some _ => heval_els E f hC hev p simpl false els next (Some c) s
            | None =>
                do d <- load c;
                match c_out d with
                | [] => heval_els E f hC hev p simpl false els None (Some c) s
                | o => do t <- hfirst_this o; hfunction E hC hev p t
                end
            end)
       (let* next := Node_ E (Some (Node v o)) s in
            match next with
            | Some _ => eval_els E C ev p simpl false els next (Some (Node v o)) s rt
            | None =>
                match out (Node v o) with
                | [] => eval_els E C ev p simpl false els None (Some (Node v o)) s rt
                | _ => let* t := first_this (Node v o) in function E C ev p t rt
                end
            end)).
    { intros h1 s' Q Hx1. pose proof (extends_nth _ _ _ _ Hx1 Hcell) as Hcell1. pose proof (seens_ext _ _ _ _ _ _ Hx1 Ho) as Ho1.
      eapply sim_bind; [apply (sim_Node h1 1 c v o cell s' Hcell1 Ho1 Hdo)|]. intros h2 a g Hx2 (-> & Hk). destruct a as [a|], g as [g|]; try contradiction.
      - apply (Hgo h1 h1 false s' (Some a) (Some g) Q Hx1 eq_refl). exact Hk.
      - apply (sim_load _ _ _ cell _ _ Hcell1). cbn [out]. pose proof (first_this_seen h1 1 (c_out cell) o v Ho1 Hdo) as Hft. destruct Ho1 as [m|m l o Hl|m a g l o Ha Hl].
        + apply (Hgo h1 h1 false s' None None Q Hx1 eq_refl). exact I.
        + apply (sim_panic h1).
        + destruct Hft as [(x & w & H1 & H2 & H3 & H4)|(H1 & H2)]; [|discriminate]. rewrite H2. cbn [rbind]. apply (sim_step _ _ _ x _ _ H1). destruct (function_datum p w x H3 H4) as (-> & ->). apply Hvoid. }
    destruct n as [n|]; [|apply Hnamed, extends_refl].
    destruct (bseq s TypeIndex).
    { eapply simg_bind; [apply simg_index; assumption|]. intros h1 ix ? Hx1 <-. cbn beta iota. destruct (ix <? 0); [gret; split; [reflexivity|intros _; exact I]|].
      pose proof (extends_nth _ _ _ _ Hx1 Hcell) as Hcell1. pose proof (seens_ext _ _ _ _ _ _ Hx1 Ho) as Ho1.
      unfold hGetAt, deref. cbn [GetAt].
      assert (Hlen : List.length (c_out cell) = List.length o) by (eapply seens_length; exact Ho1).
      apply (sim_step _ _ _ (if (Z.of_nat (List.length (c_out cell)) <=? ix) || (ix <? 0) then None else nth (Z.to_nat ix) (c_out cell) None)).
      { unfold mbind. cbn [ret]. rewrite (load_ok _ _ _ Hcell1). reflexivity. }
      rewrite Hlen. destruct (_ || _); cbn [rbind].
      - apply (Hgo h1 h1 true key None None _ Hx1 eq_refl). exact I.
      - apply (Hgo h1 h1 true key _ _ _ Hx1 eq_refl). apply seens_nth; assumption. }
    destruct (bseq s TypeSelector).
    { eapply simg_bind; [apply simg_selector; eassumption|]. intros h1 r g Hx1 Hk. destruct r as [r|e], g as [g|e']; cbn in Hk; try contradiction.
      - apply (Hgo h1 h1 false key r g _ Hx1 eq_refl Hk).
      - subst. gret. split; [reflexivity|intros _; exact I]. }
    destruct (bseq s (bs "_len")).
    { apply (sim_load _ _ _ cell _ _ Hcell). gret. split; [|intros _; apply hlist_plain; discriminate]. cbn [reseen Len out]. rewrite (seens_length _ _ _ _ Ho). apply vs_plain. reflexivity. }
    destruct (bseq s (bs "_this")) eqn:Ethis.
    { gret. split; [apply vs_node; eapply seen_any_level, seen_any, Hcs|]. intros [K|(n' & els' & K & K')]; [exact (hlist_kid _ _ _ K)|]. injection K as <- <-. apply bseq_eq in Ethis. subst s. contradiction. }
    destruct (bseq s (bs "_thisString")).
    { apply sim_read; [apply (hThisString_kid h 0); split; assumption|]. intros t _. gret. split; [apply vs_plain; reflexivity|intros _; apply hlist_plain; discriminate]. }
    destruct (bseq s (bs "_string")).
    { apply sim_read; [apply (hString_seen E f Hf _ _ _ _ _ Hcs)|]. intros t _. gret. split; [apply vs_plain; reflexivity|intros _; apply hlist_plain; discriminate]. }
    destruct (bseq s (bs "_json")).
    { apply (sim_step _ _ _ (Some (Node v o))); [eapply hgraph_seen; exact Hcs|]. rewrite Hjson. apply sim_lift. intros t _. gret. split; [apply vs_plain; reflexivity|intros _; apply hlist_plain; discriminate]. }
    destruct (bseq s TypeArguments).
    { apply (sim_load _ _ _ cell _ _ Hcell). cbn [out]. pose proof (first_this_seen h 1 (c_out cell) o v Ho Hdo) as Hft. destruct Ho as [m|m l o Hl|m a g l o Ha Hl].
      - apply Hvoid.
      - apply (sim_panic h).
      - destruct Hft as [(x & w & H1 & H2 & H3 & H4)|(H1 & H2)]; [|discriminate]. rewrite H2. cbn [rbind]. apply (sim_step _ _ _ x _ _ H1). destruct (function_datum p w x H3 H4) as (-> & ->). cbn [rbind].
        apply (sim_step _ _ _ (HVal VNil)); [reflexivity|]. apply Hvoid. }
    destruct (bseq s TypeGroup); [|apply Hnamed, extends_refl].
    eapply simg_bind; [apply simg_group_name; assumption|]. intros h1 r ? Hx1 <-. destruct r as [s'|[e|]]; [apply Hnamed, Hx1| |apply Hvoid]. gret. split; [reflexivity|intros _; exact I].
Qed.
Lemma simg_evalPath_list h simpl p : extends h0 h -> quiet E (Some p) -> worded (Some p) ->
  simg h (fun h' x y => reseen h' x y /\ ((exists n els, out p = n :: els /\ ThisString E n <> Ok (bs "_this")) -> hlist h' x)) (hevalPath E f hC root hev simpl p) (evalPath E C ev simpl p rt).
Proof.
  intros Hx Hq Hw. unfold hevalPath, evalPath. pose proof (quiet_all _ _ Hq) as Hqa. pose proof (worded_out _ Hw) as Hwa. destruct (out p) as [|e els]; [gret; split; [reflexivity|intros _; exact I]|].
  eapply sim_weaken; [apply (simg_els p simpl (e :: els) Hqa Hwa h false (Some root) (Some rt) None None []); [exact Hx| |exact I|discriminate]|].
  - split; [eapply seen_ext; eassumption|exact Hst].
  - intros h' x y _ (H1 & H2 & H3). split; [exact H1|]. split; [exact H2|]. intros K. apply H3. right. exact K.
Qed.
Lemma simg_evalPath h simpl p : extends h0 h -> quiet E (Some p) -> worded (Some p) -> simg h reseen (hevalPath E f hC root hev simpl p) (evalPath E C ev simpl p rt).
Proof. intros Hx Hq Hw. eapply sim_weaken; [apply simg_evalPath_list; assumption|]. intros h' x y _ (H1 & H2 & _). split; assumption. Qed.
Lemma simg_evalBinary h p : extends h0 h -> quiet E (Some p) -> worded (Some p) -> simg h vseen (hevalBinary E f hC root hev p) (evalBinary E C ev p rt).
Proof.
  intros Hx Hq Hw. unfold hevalBinary, evalBinary. apply sim_lift. intros n1 H1. apply sim_lift. intros n2 H2.
  eapply simg_bind; [apply Hev; [exact Hx|eapply quiet_Out; eassumption|eapply worded_Out; eassumption]|]. intros h1 r2 x2 Hx1 Hr2.
  destruct r2 as [i2|e], x2 as [w2|e']; cbn in Hr2; try contradiction; [|subst; gret; apply vs_plain; reflexivity].
  apply sim_lift. intros s Hs.
  assert (Hno : ~ In s assigns).
  { destruct p as [v o]. inversion Hq as [|? ? Hq' _]; subst. apply Hq'; [|exact Hs]. intros ->. discriminate. }
  repeat match goal with |- sim _ _ (if bseq s ?t then hassign _ _ _ _ _ _ _ _ else _) _ => let B := fresh in destruct (bseq s t) eqn:B; [exfalso; apply Hno; eapply bseq_in; [exact B|cbn; tauto]|] end.
  eapply simg_bind; [apply Hev; [eapply extends_trans; eassumption|eapply quiet_Out; eassumption|eapply worded_Out; eassumption]|]. intros h2 r1 x1 Hx2 Hr1.
  destruct r1 as [i1|e], x1 as [w1|e']; cbn in Hr1; try contradiction; [|subst; gret; apply vs_plain; reflexivity]. cbn beta iota zeta.
  apply (vseen_ext _ h2) in Hr2; [|exact Hx2].
  assert (Hcalc : forall op, simg h2 vseen (hcalc E f i1 i2 op) (let* v := calc E w1 w2 op in Ok (rt, v))).
  { intros op. destruct (hcalc_vseen E f Hf h2 i1 w1 i2 w2 op Hr1 Hr2) as (h3 & r & Hm & Hx3 & Hr). exists h3, r. split; [exact Hm|]. split; [exact Hx3|].
    destruct r; [destruct Hr as (y & -> & Hy); eexists; split; [reflexivity|split; [reflexivity|exact Hy]]|rewrite Hr; reflexivity|rewrite Hr; reflexivity]. }
  assert (Hcmp : forall op, simg h2 vseen (do b <- hcompare E f i1 i2 op; ret (VBool b)) (let* b := compare_ E w1 w2 op in Ok (rt, VBool b))).
  { intros op. apply sim_read; [apply (hcompare_vseen E f Hf); assumption|]. intros b _. gret. apply vs_plain. reflexivity. }
  assert (Hlog : forall op, simg h2 vseen (do b <- hlogic i1 i2 op; ret (VBool b)) (Ok (rt, VBool (logic w1 w2 op)))).
  { intros op. apply (sim_step _ _ _ (logic w1 w2 op)); [apply hlogic_vseen; assumption|]. gret. apply vs_plain. reflexivity. }
  repeat match goal with |- sim _ _ (if bseq s ?t then _ else _) _ => destruct (bseq s t); [first [apply Hcalc|apply Hcmp|apply Hlog]|] end. gret. apply vs_plain. reflexivity.
Qed.
Lemma simg_evalBool h e : extends h0 h -> quiet E e -> worded e -> simg h (fun _ x y => x = y) (hevalBool_with E hev e) (evalBool_with E ev e rt).
Proof.
  intros Hx Hq Hw. unfold hevalBool_with, evalBool_with. eapply simg_bind; [apply simg_Eval; assumption|]. intros h1 r x Hx1 Hr.
  destruct r as [v|z], x as [w|z']; cbn in Hr; try contradiction; [|gret; reflexivity]. apply (sim_step _ _ _ (v_boolf w)); [apply hboolf_vseen, Hr|]. gret. reflexivity.
Qed.
Lemma seens_app h Q n l o l' o' : seens h Q n l o -> seens h Q n l' o' -> seens h Q n (l ++ l') (o ++ o').
Proof. induction 1; cbn; intros; auto; constructor; auto. Qed.
Lemma simg_group simpl l : Forall (quiet E) l -> Forall worded l -> forall h, extends h0 h ->
  simg h (fun h' x y => seens h' any 0 (List.concat x) y) (hgroup hev simpl l) (group_ ev simpl l rt).
Proof.
  induction l as [|e l IH]; intros Hq Hw h Hx; [gret; constructor|]. inversion Hq; inversion Hw; subst. unfold hgroup. cbn [collect group_].
  assert (Hone : simg h (fun h' x y => seens h' any 0 x (match y with EVal v => add_out v | EErr _ => [] end))
    (do x <- hev simpl e; match x with HVal v => hadd_out v | HErr _ => ret [] end) (ev simpl e rt)).
  { destruct (Hev h simpl e Hx ltac:(assumption) ltac:(assumption)) as (h1 & r & Hm & Hx1 & Hr). unfold mbind. destruct r as [x| |].
    - destruct Hr as ([g y] & Ht & Hg & Hy). cbn in Hg, Hy. subst g. destruct x as [v|z], y as [w|z']; cbn in Hy; try contradiction.
      + destruct (hadd_out_seen h1 v w Hy) as (h2 & l2 & Hm2 & Hx2 & Hs2). exists h2, (Ok l2). rewrite Hm. split; [exact Hm2|]. split; [eapply extends_trans; eassumption|]. exists (rt, EVal w). split; [exact Ht|]. split; [reflexivity|exact Hs2].
      + exists h1, (Ok []). rewrite Hm. split; [reflexivity|]. split; [exact Hx1|]. eexists. split; [exact Ht|]. split; [reflexivity|constructor].
    - exists h1, Panic. rewrite Hm. split; [reflexivity|]. split; [exact Hx1|exact Hr].
    - exists h1, NoFuel. rewrite Hm. split; [reflexivity|]. split; [exact Hx1|exact Hr]. }
  eapply simg_bind; [exact Hone|]. intros h1 x y Hx1 Hs1. eapply simg_bind; [apply IH; [assumption|assumption|eapply extends_trans; eassumption]|]. intros h2 xs ys Hx2 Hs2.
  gret. cbn [List.concat]. apply seens_app; [eapply seens_ext; eassumption|exact Hs2].
Qed.

(** Loop expressions: paths that do not begin with _this *)
Inductive trail : option graph -> Prop :=
| trail_path p n els : ThisString E (Some p) = Ok TypePath -> out p = n :: els -> ThisString E n <> Ok (bs "_this") -> trail (Some p)
| trail_expr p e : ThisString E (Some p) = Ok TypeExpression -> GetAt (Some p) 0 = Ok e -> trail e -> trail (Some p).

Hypothesis Htrail : forall h b e, extends h0 h -> quiet E e -> worded e -> trail e -> simg h (fun h' x y => reseen h' x y /\ hlist h' x) (hev b e) (ev b e rt).

Lemma simg_body h simpl e : extends h0 h -> quiet E e -> worded e -> simg h reseen (heval_body E f hC root hev simpl e) (eval_body E C ev simpl e rt).
Proof.
  intros Hx Hq Hw. unfold heval_body, eval_body. destruct e as [p|]; [|apply (sim_panic h)].
  inversion Hw as [|s0 o Ho]; subst. set (p := Node (VStr s0) o) in *. cbn [this p]. apply sim_lift. intros s _. destruct s as [|c rest]; [gret; apply vs_plain; reflexivity|].
  destruct (isNumber (c :: rest)); [apply sim_lift; intros n Hn; gret; apply vs_plain; eapply number_plain; exact Hn|].
  destruct (bseq (c :: rest) (bs "!")).
  { apply sim_lift. intros e1 H1. eapply simg_bind; [apply simg_evalBool; [exact Hx|eapply quiet_Out; eassumption|eapply worded_Out; eassumption]|]. intros h1 b ? Hx1 <-. gret. apply vs_plain. reflexivity. }
  destruct (bseq (c :: rest) TypeExpression).
  { apply sim_lift. intros e1 H1. apply Hev; [exact Hx|eapply quiet_GetAt; eassumption|eapply worded_GetAt; eassumption]. }
  destruct (bseq (c :: rest) TypePath); [apply simg_evalPath; assumption|].
  destruct (bseq (c :: rest) TypeGroup).
  { eapply simg_bind; [apply simg_group; [apply (quiet_all _ _ Hq)|apply (worded_out _ Hw)|exact Hx]|]. intros h1 x y Hx1 Hs. apply sim_alloc. gret. apply vs_node. econstructor; [apply nth_new|exact I|reflexivity|].
    eapply (proj2 (seen_any_level2 _)). eapply seens_ext; [apply extends_new|exact Hs]. }
  destruct (bseq (c :: rest) TypeString).
  { cbn [out p]. destruct o; [gret; apply vs_plain; reflexivity|]. apply sim_lift. intros t _. gret. apply vs_plain. reflexivity. }
  destruct (_ && _).
  { eapply simg_bind; [apply simg_evalBinary; assumption|]. intros h1 v w Hx1 Hv. gret. exact Hv. }
  destruct (_ || _); [gret; apply vs_plain; reflexivity|]. destruct (is_letter c); [gret; apply vs_plain; destruct (bseq (c :: rest) (bs "false")); [reflexivity|]; destruct (bseq (c :: rest) (bs "true")); reflexivity|].
  destruct (sim_hcopy_ _ Hw h) as (h1 & a & H1 & Hx1 & Hs1). exists h1, (Ok (HVal (VPtr (Some a)))). unfold mbind. rewrite H1. split; [reflexivity|]. split; [exact Hx1|].
  eexists. split; [reflexivity|]. split; [reflexivity|]. apply vs_node, Hs1.
Qed.
Lemma simg_body_trail h simpl e : extends h0 h -> quiet E e -> worded e -> trail e -> simg h (fun h' x y => reseen h' x y /\ hlist h' x) (heval_body E f hC root hev simpl e) (eval_body E C ev simpl e rt).
Proof.
  intros Hx Hq Hw Ht. unfold heval_body, eval_body. destruct e as [p|]; [|inversion Ht].
  inversion Hw as [|s0 o Ho]; subst. set (p := Node (VStr s0) o) in *. cbn [this p]. inversion Ht as [? n els H1 H2 H3|? e1 H1 H2 H3]; subst.
  - rewrite H1. apply sim_lift. intros s Hs. injection Hs as <-. change (isNumber TypePath) with false. cbn iota. change (bseq TypePath (bs "!")) with false. change (bseq TypePath TypeExpression) with false. change (bseq TypePath TypePath) with true. cbn iota.
    eapply sim_weaken; [apply simg_evalPath_list; assumption|]. intros h' x y _ (K1 & K2 & K3). split; [exact K1|]. split; [exact K2|]. apply K3. eauto.
  - rewrite H1. apply sim_lift. intros s Hs. injection Hs as <-. change (isNumber TypeExpression) with false. cbn iota. change (bseq TypeExpression (bs "!")) with false. change (bseq TypeExpression TypeExpression) with true. cbn iota.
    apply sim_lift. intros e2 H4. assert (e2 = e1) by congruence. subst. apply Htrail; [exact Hx|eapply quiet_GetAt; eassumption|eapply worded_GetAt; eassumption|exact H3].
Qed.
End EvalSim.

Section EvalRec.
Variable E : env.
Variable f : nat.
Hypothesis Hf : (1 <= f)%nat.
Variable C : calls.
Variable hC : hcalls.
Hypothesis Hjson : forall g, hto_json hC g = to_json C g.
Variable P : nat -> addr -> Prop.
Hypothesis Hup : forall n x, P (S n) x -> P n x.
Variable h0 : heap.
Hypothesis Hfresh : forall n x, (List.length h0 <= x)%nat -> P n x.
Variable root : addr.
Variable rt : graph.
Hypothesis Hroot : seen h0 P 0 root rt.
Variable nils : bool.
Hypothesis Hst : stored nils (Some rt).

Lemma simg_evalExpression d : forall h b e, extends h0 h -> quiet E e -> worded e -> simg rt h reseen (hevalExpression E f hC d root b e) (evalExpression E C d b e rt).
Proof.
  induction d as [|d IH]; intros h b e Hx Hq Hw; [apply (sim_fuel h)|]. cbn [hevalExpression evalExpression]. eapply simg_body; eassumption.
Qed.
Lemma simg_trail d : forall h b e, extends h0 h -> quiet E e -> worded e -> trail E e -> simg rt h (fun h' x y => reseen h' x y /\ hlist P nils h' x) (hevalExpression E f hC d root b e) (evalExpression E C d b e rt).
Proof.
  induction d as [|d IH]; intros h b e Hx Hq Hw Ht; [apply (sim_fuel h)|]. cbn [hevalExpression evalExpression]. eapply simg_body_trail; try eassumption. apply simg_evalExpression.
Qed.
Lemma simg_hEval e : quiet E e -> worded e -> simg rt h0 reseen (hEval E f hC root e) (Eval E C f rt e).
Proof. intros Hq Hw. unfold hEval, Eval. eapply simg_Eval; [apply simg_evalExpression|apply extends_refl|exact Hq|exact Hw]. Qed.
Lemma simg_hevalBool e : quiet E e -> worded e -> simg rt h0 (fun _ x y => x = y) (hevalBool E f hC root e) (evalBool E C f rt e).
Proof. intros Hq Hw. unfold hevalBool, evalBool. eapply simg_evalBool; [apply simg_evalExpression|apply extends_refl|exact Hq|exact Hw]. Qed.
Lemma simg_hEval_trail e : quiet E e -> worded e -> trail E e -> simg rt h0 (fun h' x y => reseen h' x y /\ hlist P nils h' x) (hEval E f hC root e) (Eval E C f rt e).
Proof.
  intros Hq Hw Ht. unfold hEval, Eval, hEval_with, Eval_with. apply sim_lift. intros s Hs.
  assert (K : bseq s TypePath || bseq s TypeExpression = true). { inversion Ht as [? n els H1 H2 H3|? e1 H1 H2 H3]; subst; rewrite H1 in Hs; injection Hs as <-; reflexivity. }
  rewrite K. apply simg_trail; [apply extends_refl|exact Hq|exact Hw|exact Ht].
Qed.
End EvalRec.
