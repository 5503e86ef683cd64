(** Where a panic of the evaluator comes from. *)
From Verif Require Import Base Value Graph Emit PathParser Eval Fuel PanicSpec.
From Verif Require Import HeapEvalFacts.
Import ListNotations.

(** Results: no node inside has a graph as its content, and none is nil *)
Inductive tame : graph -> Prop :=
| tame_node v k : (forall x, v <> VPtr (Some x)) -> Forall tame k -> tame (Node v (map Some k)).
Definition mild (v : value graph) : Prop := match v with VPtr (Some x) => tame x | _ => True end.
Definition eres_mild (r : eres) : Prop := match r with EVal v => mild v | EErr _ => True end.
Definition lenient (c : option graph) : Prop := match c with Some c => tame c | None => True end.
(** Contexts: as tame, and without functions and objects *)
Inductive given : graph -> Prop :=
| given_node v k : datum v -> Forall given k -> given (Node v (map Some k)).
Definition eres_given (r : eres) : Prop := match r with EVal (VPtr (Some x)) => given x | _ => True end.
Definition eres_kept (simpl : bool) (r : eres) : Prop := if simpl then eres_given r else eres_mild r.
Definition given_opt (c : option graph) : Prop := match c with Some c => given c | None => True end.

Lemma given_tame : forall g, given g -> tame g.
Proof.
  fix IH 2. intros g [v k Hv Hk]. constructor; [intros x ->; exact Hv|]. induction Hk as [|c k Hc _ IHk]; constructor; [apply IH, Hc|exact IHk].
Qed.
Lemma stored_given : forall g, stored false (Some g) -> given g.
Proof.
  fix IH 1. intros [v o] H. inversion H as [|? ? Hv Ho]; subst. clear H.
  assert (K : exists k, o = map Some k /\ Forall given k).
  { revert o Ho. fix IHo 1. intros [|[c|] o] Ho; inversion Ho; subst.
    - exists []. split; [reflexivity|constructor].
    - destruct (IHo o H2) as (k & -> & Hk). exists (c :: k). split; [reflexivity|]. constructor; [apply IH; assumption|exact Hk].
    - inversion H1. discriminate. }
  destruct K as (k & -> & Hk). constructor; assumption.
Qed.
Lemma wordy_tame : forall g, wordy g -> tame g.
Proof.
  fix IH 2. intros g [s k Hk]. constructor; [discriminate|]. induction Hk as [|c k Hc _ IHk]; constructor; [apply IH, Hc|exact IHk].
Qed.
Fixpoint formed_tame g (H : formed g) {struct H} : tame g
with element_tame g (H : element g) {struct H} : tame g.
Proof.
  - destruct H as [k Hk|k Hk|s k _ Hk _ _]; (constructor; [discriminate|]); induction Hk as [|c k Hc _ IHk]; constructor; try exact IHk;
      [apply wordy_tame, Hc|apply element_tame, Hc|apply formed_tame, Hc].
  - destruct H as [s k _ Hk|s k _ Hk _]; (constructor; [discriminate|]); induction Hk as [|c k Hc _ IHk]; constructor; try exact IHk;
      [apply wordy_tame, Hc|apply formed_tame, Hc].
Qed.
Lemma formed_text p : formed p -> exists s, this p = VStr s.
Proof. intros []; eexists; reflexivity. Qed.
Lemma tame_kids g c : tame g -> In c (out g) -> exists x, c = Some x /\ tame x.
Proof. intros [v k _ Hk] H. cbn [out] in H. apply in_map_iff in H. destruct H as (x & <- & Hx). exists x. split; [reflexivity|]. apply (proj1 (Forall_forall _ _) Hk _ Hx). Qed.
Lemma given_kids g c : given g -> In c (out g) -> exists x, c = Some x /\ given x.
Proof. intros [v k _ Hk] H. cbn [out] in H. apply in_map_iff in H. destruct H as (x & <- & Hx). exists x. split; [reflexivity|]. apply (proj1 (Forall_forall _ _) Hk _ Hx). Qed.
Lemma given_map o : (forall c, In c o -> exists x, c = Some x /\ given x) -> exists k, o = map Some k /\ Forall given k.
Proof.
  induction o as [|c o IH]; intros H; [exists []; split; [reflexivity|constructor]|]. destruct IH as (k & -> & Hk); [intros; apply H; right; assumption|].
  destruct (H c (or_introl eq_refl)) as (x & -> & Hx). exists (x :: k). split; [reflexivity|constructor; assumption].
Qed.

Section Panics.
Variable E : env.

(** ** Without a panic *)
Definition np {A} (m : res A) : Prop := m <> Panic.
Lemma np_bind {A B} (m : res A) (k : A -> res B) : np m -> (forall x, m = Ok x -> np (k x)) -> np (rbind m k).
Proof. destruct m; cbn; intros H Hk; [apply Hk; reflexivity|intros _; apply H; reflexivity|discriminate]. Qed.
Lemma np_gstring g : tame g -> np (gstring E g).
Proof.
  intros [v k _ Hk]. destruct k as [|[w o] k]; [discriminate|]. cbn [map gstring]. inversion Hk as [|? ? Hw]; subst. inversion Hw as [? ? Hp]; subst.
  destruct w as [| | | | | | |[x|]| | |]; try discriminate. exfalso. eapply Hp. reflexivity.
Qed.
Lemma np_vstring v : mild v -> np (vstring E v).
Proof. destruct v as [| | | | | | |[x|]| | |]; intros H; try discriminate. apply np_gstring, H. Qed.
Lemma np_this g : tame g -> np (vstring E (this g)).
Proof. intros [v k Hv _]. apply np_vstring. destruct v as [| | | | | | |[x|]| | |]; try exact I. exfalso. eapply Hv. reflexivity. Qed.
Lemma np_ThisString c : lenient c -> np (ThisString E c).
Proof. destruct c; intros H; [apply np_this, H|discriminate]. Qed.
Lemma np_String c : lenient c -> np (String_ E c).
Proof. destruct c; intros H; [apply np_gstring, H|discriminate]. Qed.
Lemma np_float64f v : mild v -> np (v_float64f E v).
Proof. intros H. unfold v_float64f. destruct (v_float64 v); [discriminate|]. destruct (v_int64 v); [discriminate|]. apply np_bind; [apply np_vstring, H|]. intros. discriminate. Qed.
Lemma np_find s o : (forall c, In c o -> exists x, c = Some x /\ tame x) -> np (find_child E s o).
Proof.
  induction o as [|c o IH]; intros H; [discriminate|]. destruct (H c (or_introl eq_refl)) as (x & -> & Hx). cbn [find_child]. apply np_bind; [apply np_this, Hx|]. intros t _.
  destruct (bseq _ _); [discriminate|]. apply np_bind; [apply IH; intros; apply H; right; assumption|]. intros. discriminate.
Qed.
Lemma np_Node g s : tame g -> np (Node_ E (Some g) s).
Proof. intros H. destruct g as [v o]. cbn [Node_]. apply np_bind; [apply np_find; intros c Hc; apply (tame_kids _ _ H Hc)|]. intros. discriminate. Qed.
Lemma np_equal k o : (forall c, In c o -> exists x, c = Some x /\ tame x) -> np (equal_nodes E k o).
Proof.
  induction o as [|c o IH]; intros H; [discriminate|]. destruct (H c (or_introl eq_refl)) as (x & -> & Hx). cbn [equal_nodes]. apply np_bind; [apply np_this, Hx|]. intros t _.
  apply np_bind; [apply IH; intros; apply H; right; assumption|]. intros. discriminate.
Qed.
Lemma np_nth_equal k o : (forall c, In c o -> exists x, c = Some x /\ tame x) -> forall n, np (nth_equal E n k o).
Proof.
  induction o as [|c o IH]; intros H n; [discriminate|]. destruct (H c (or_introl eq_refl)) as (x & -> & Hx). cbn [nth_equal]. apply np_bind; [apply np_ThisString, Hx|]. intros t _.
  assert (K : forall n, np (nth_equal E n k o)) by (apply IH; intros; apply H; right; assumption).
  destruct (bseq _ _); [|apply K]. destruct n; [discriminate|apply K].
Qed.
Lemma np_number s o : isNumber s = true -> np (number E (this (Node (VStr s) o))).
Proof.
  intros H. cbn [this]. unfold number. cbn [v_float64 v_int64 vstring sstring rbind]. destruct s as [|c r]; [discriminate|].
  assert (Hi : np (isInteger (c :: r))).
  { unfold isInteger. assert (Hs : is_space c = false).
    { cbn [isNumber] in H. apply orb_true_iff in H. destruct H as [H|H]; [|destruct r as [|d r]; [discriminate|apply andb_true_iff in H; destruct H as [H _]; apply beq_eq in H; subst c; reflexivity]].
      destruct (is_space c) eqn:Hc; [|reflexivity]. exfalso. destruct c; vm_compute in Hc; try discriminate; vm_compute in H; discriminate. }
    cbn [drop_while]. rewrite Hs. destruct (beq c "-"); [destruct r as [|d r]|]; try discriminate; destruct (is_digit _); discriminate. }
  apply np_bind; [exact Hi|]. intros b _. destruct b; discriminate.
Qed.

(** The integer operations *)
Lemma calc_panic v w op : mild v -> mild w -> In op ["+"; "-"; "*"; "/"; "%"]%byte -> calc E v w op = Panic -> faulty E [op] v w.
Proof.
  intros Hv Hw Hop H. unfold calc in H.
  assert (Hc : forall v w, mild v -> mild w -> (let* s1 := vstring E v in let* s2 := vstring E w in Ok (VStr (s1 ++ s2)) : res (value graph)) <> Panic).
  { intros v' w' Hv' Hw'. apply np_bind; [apply np_vstring, Hv'|]. intros. apply np_bind; [apply np_vstring, Hw'|]. intros. discriminate. }
  assert (Hf : forall a b, calc_float E op a b = Panic -> op = "%"%byte /\ f2i E b = 0).
  { intros a b K. unfold calc_float in K. destruct Hop as [<-|[<-|[<-|[<-|[<-|[]]]]]]; cbn [beq] in K; try discriminate. split; [reflexivity|].
    cbn in K. destruct (f2i E b =? 0) eqn:K0; [lia|discriminate]. }
  destruct (v_int64 v) as [a|] eqn:Hiv.
  - destruct v; try discriminate. destruct (v_int64 w) as [b|] eqn:Hiw.
    + destruct w; try discriminate. injection Hiw as <-. apply fault_div.
      * destruct Hop as [<-|[<-|[<-|[<-|[<-|[]]]]]]; cbn in H; try discriminate; cbn; auto.
      * unfold calc_int in H. destruct Hop as [<-|[<-|[<-|[<-|[<-|[]]]]]]; cbn in H; try discriminate; destruct (wrap64 z0 =? 0) eqn:K0; try discriminate; lia.
    + cbv zeta in H. destruct (v_float64 w) as [b|] eqn:Hfw.
      * apply Hf in H. destruct H as (-> & H). apply fault_rem with (d := b); [exact I|intros (_ & K); destruct w; try discriminate; contradiction| |exact H].
        destruct w; try discriminate; injection Hfw as <-; constructor.
      * destruct (v_float64f E w) as [x| |] eqn:Hx; [|exfalso; exact (np_float64f w Hw Hx)|discriminate]. cbn [rbind] in H. apply Hf in H. destruct H as (-> & H).
        unfold v_float64f in Hx. rewrite Hfw, Hiw in Hx. destruct (vstring E w) as [s| |] eqn:Hs; try discriminate. injection Hx as <-.
        assert (Hni : ~ integral w) by (intro K; destruct w; try contradiction; discriminate).
        destruct (parse_float E s) as [x|] eqn:Hp; eapply fault_rem; try exact H; try exact I; try (intros (_ & K); exact (Hni K)); [eapply div_text|eapply div_none]; eassumption.
  - destruct (v_int64 w) as [b|] eqn:Hiw.
    + cbv zeta in H. destruct (v_float64 v) as [a|] eqn:Hfv; [|exfalso; eapply Hc; [| |exact H]; assumption]. apply Hf in H. destruct H as (-> & H). destruct w; try discriminate. injection Hiw as <-.
      eapply fault_rem; [destruct v; try discriminate; exact I|intros (K & _); destruct v; try discriminate; contradiction|constructor|exact H].
    + cbv zeta in H. destruct (v_float64 v) as [a|] eqn:Hfv.
      * assert (Hnv : numeric v /\ ~ integral v) by (destruct v; try discriminate; split; [exact I|intros []|exact I|intros []]). destruct Hnv as (Hnv & Hniv).
        destruct (v_float64 w) as [b|] eqn:Hfw.
        -- apply Hf in H. destruct H as (-> & H). eapply fault_rem; [exact Hnv|intros (K & _); contradiction| |exact H]. destruct w; try discriminate; injection Hfw as <-; constructor.
        -- destruct (v_float64f E w) as [x| |] eqn:Hx; [|exfalso; exact (np_float64f w Hw Hx)|discriminate]. cbn [rbind] in H. apply Hf in H. destruct H as (-> & H).
           unfold v_float64f in Hx. rewrite Hfw, Hiw in Hx. destruct (vstring E w) as [s| |] eqn:Hs; try discriminate. injection Hx as <-.
           destruct (parse_float E s) as [x|] eqn:Hp; (eapply fault_rem; [exact Hnv|intros (K & _); contradiction| |exact H]); [eapply div_text|eapply div_none]; eassumption.
      * destruct (v_float64 w); [exfalso; eapply Hc; [| |exact H]; assumption|]. destruct (beq op "+"); [exfalso; eapply Hc; [| |exact H]; assumption|discriminate].
Qed.
Lemma compare_panic v w op : mild v -> mild w -> compare_ E v w op = Panic -> exists k a, v = VInt k a /\ w = VPtr None.
Proof.
  intros Hv Hw H. unfold compare_ in H. destruct (v_int64 v) as [a|] eqn:Hi.
  - destruct v; try discriminate. eexists. eexists. split; [reflexivity|]. unfold v_int64f in H. destruct w as [| | | | | | |[x|]| | |]; try discriminate. reflexivity.
  - exfalso. destruct (v_float64 v); [revert H; apply np_bind; [apply np_float64f, Hw|]; intros; discriminate|].
    revert H. apply np_bind; [apply np_vstring, Hv|]. intros. apply np_bind; [apply np_vstring, Hw|]. intros. discriminate.
Qed.
Lemma calc_mild v w op x : mild v -> mild w -> calc E v w op = Ok x -> mild x.
Proof.
  intros Hv Hw H. unfold calc in H.
  assert (Hc : forall v w x, (let* s1 := vstring E v in let* s2 := vstring E w in Ok (VStr (s1 ++ s2)) : res (value graph)) = Ok x -> mild x).
  { intros v' w' x' K. destruct (vstring E v'); try discriminate. destruct (vstring E w'); try discriminate. injection K as <-. exact I. }
  assert (Hf : forall a b, calc_float E op a b = Ok x -> mild x).
  { intros a b K. unfold calc_float in K. repeat (destruct (_ : bool) in K; [injection K as <-; exact I|]). destruct (_ =? _); [discriminate|]. injection K as <-. exact I. }
  destruct (v_int64 v) as [a|].
  - destruct (v_int64 w) as [b|].
    + unfold calc_int in H. repeat (destruct (beq op _); [injection H as <-; exact I|]). destruct (_ =? _); [discriminate|]. destruct (beq op _); injection H as <-; exact I.
    + cbv zeta in H. destruct (v_float64 w); [exact (Hf _ _ H)|]. destruct (v_float64f E w); try discriminate. exact (Hf _ _ H).
  - destruct (v_int64 w); cbv zeta in H; destruct (v_float64 v); try (destruct (v_float64 w)); try exact (Hc _ _ _ H); try exact (Hf _ _ H).
    + destruct (v_float64f E w); try discriminate. exact (Hf _ _ H).
    + destruct (beq op _); [exact (Hc _ _ _ H)|injection H as <-; exact I].
Qed.

(** ** The evaluator, in a context [g] that no function is in *)
Variable C : calls.
Hypothesis Hjson : forall x, given x -> to_json C x <> Panic.
Variable g : graph.
Hypothesis Hg : given g.
Variable W : Prop.      (* what a panic witnesses *)
Definition to {A} (Q : A -> Prop) (m : res (graph * A)) : Prop :=
  match m with Ok (g', x) => g' = g /\ Q x | Panic => W | NoFuel => True end.
Lemma to_ok {A} (Q : A -> Prop) x : Q x -> to Q (Ok (g, x)).
Proof. split; [reflexivity|assumption]. Qed.
Lemma to_bind {A B} (Q1 : A -> Prop) (Q : B -> Prop) m (k : graph * A -> res (graph * B)) : to Q1 m -> (forall x, m = Ok (g, x) -> Q1 x -> to Q (k (g, x))) -> to Q (rbind m k).
Proof. destruct m as [[g' x]| |]; cbn; [|auto|auto]. intros (-> & H) Hk. apply Hk; [reflexivity|exact H]. Qed.
Lemma to_read {A B} (Q : B -> Prop) (m : res A) (k : A -> res (graph * B)) : np m -> (forall x, m = Ok x -> to Q (k x)) -> to Q (rbind m k).
Proof. intros Hm Hk. destruct m; cbn; [apply Hk; reflexivity|exfalso; apply Hm; reflexivity|exact I]. Qed.

Variable ev : bool -> option graph -> graph -> res (graph * eres).
Variable part : graph -> Prop.
Hypothesis Hpart : forall p c, part p -> In (Some c) (out p) -> formed c -> part c.
Hypothesis Helem : forall p n c, part p -> In (Some n) (out p) -> In (Some c) (out n) -> formed c -> part c.
Hypothesis Hform : forall p, part p -> formed p.
Hypothesis Hev : forall b e, part e -> to eres_mild (ev b (Some e) g).
Hypothesis HW : forall op n1 n2 o v1 v2, part (Node (VStr op) (Some n1 :: Some n2 :: o)) ->
  ev true (Some n1) g = Ok (g, EVal v1) -> ev true (Some n2) g = Ok (g, EVal v2) -> faulty E op v1 v2 -> W.

Lemma part_text p : part p -> exists s, this p = VStr s /\ ThisString E (Some p) = Ok s.
Proof. intros H. destruct (formed_text p (Hform p H)) as (s & Hs). exists s. split; [exact Hs|]. cbn [ThisString]. rewrite Hs. reflexivity. Qed.
(** What an element of a path has below it *)
Definition ready (n : graph) : Prop := forall c, In c (out n) -> exists x, c = Some x /\ part x.

Lemma to_Eval e : part e -> ~ blank_leaf e -> to eres_mild (Eval_with E ev (Some e) g).
Proof.
  intros He Hb. unfold Eval_with. destruct (part_text e He) as (s & _ & Hs). rewrite Hs. cbn [rbind]. destruct (_ || _); [apply Hev, He|].
  pose proof (formed_tame e (Hform e He)) as Ht. destruct (formed_text e (Hform e He)) as (s' & Hs'). destruct e as [w o]. cbn [this] in Hs'. subst w. destruct o as [|c k].
  - apply to_read.
    + unfold ThisScalar. cbn [this rbind]. unfold scalar_of, number. cbn [v_float64 v_int64 vstring sstring rbind]. destruct s' as [|c r]; [discriminate|].
      assert (Hi : np (isInteger (c :: r))).
      { unfold isInteger. destruct (drop_while is_space (c :: r)) as [|d t] eqn:Hd.
        - exfalso. apply Hb. split; [discriminate|]. clear - Hd. revert Hd. generalize (c :: r). intros l. induction l as [|x l IH]; [reflexivity|]. cbn [drop_while forallb].
          destruct (is_space x); [exact IH|discriminate].
        - destruct (beq d "-"); [destruct t|]; try discriminate; destruct (is_digit _); discriminate. }
      apply np_bind; [apply np_bind; [exact Hi|]; intros b _; destruct b; discriminate|]. intros n _. destruct n; discriminate.
    + intros r Hr. apply to_ok. cbn. revert Hr. unfold ThisScalar. cbn [this rbind]. unfold scalar_of, number. cbn [v_float64 v_int64 vstring sstring rbind].
      destruct s' as [|c r']; [intros K; injection K as <-; exact I|]. destruct (isInteger _) as [[]| |]; cbn [rbind]; try discriminate.
      * destruct (parse_int _); [intros K; injection K as <-; exact I|]. destruct (v_boolf _); intros K; injection K as <-; exact I.
      * destruct (parse_float _ _); [intros K; injection K as <-; exact I|]. destruct (v_boolf _); intros K; injection K as <-; exact I.
  - apply to_ok. exact Ht.
Qed.
Lemma to_index k : ready k -> to (fun _ => True) (index_ ev k g).
Proof.
  intros H. unfold index_. destruct (out k) as [|e o] eqn:Ho; [apply to_ok; exact I|]. destruct (H e) as (x & -> & Hx); [rewrite Ho; left; reflexivity|].
  eapply to_bind; [apply Hev, Hx|]. intros r _ _. apply to_ok. exact I.
Qed.
Lemma equal_given k o r : (forall c, In c o -> exists x, c = Some x /\ given x) -> equal_nodes E k o = Ok r -> forall c, In c r -> exists x, c = Some x /\ given x.
Proof.
  revert r. induction o as [|c o IH]; intros r H K; [injection K as <-; intros c []|]. destruct (H c (or_introl eq_refl)) as (x & -> & Hx). cbn [equal_nodes] in K.
  destruct (vstring E (this x)); try discriminate. cbn [rbind] in K. destruct (equal_nodes E k o) as [r'| |]; try discriminate. injection K as <-. intros c Hc. apply in_app_iff in Hc. destruct Hc as [Hc|Hc].
  - destruct (bseq _ _); [exact (given_kids _ _ Hx Hc)|destruct Hc].
  - apply (IH r' ltac:(intros; apply H; right; assumption) eq_refl c Hc).
Qed.
Lemma nth_equal_given k o : forall n r, (forall c, In c o -> exists x, c = Some x /\ given x) -> nth_equal E n k o = Ok r -> forall c, In c r -> exists x, c = Some x /\ given x.
Proof.
  induction o as [|c o IH]; intros n r H K; [injection K as <-; intros c []|]. destruct (H c (or_introl eq_refl)) as (x & -> & Hx). cbn [nth_equal] in K.
  destruct (ThisString E (Some x)); try discriminate. cbn [rbind] in K. assert (Ho : forall c, In c o -> exists x, c = Some x /\ given x) by (intros; apply H; right; assumption).
  destruct (bseq _ _); [|exact (IH n r Ho K)]. destruct n; [injection K as <-; intros c Hc; exact (given_kids _ _ Hx Hc)|exact (IH n r Ho K)].
Qed.
Lemma given_tames x : given x -> forall c, In c (out x) -> exists y, c = Some y /\ tame y.
Proof. intros H c Hc. destruct (given_kids _ _ H Hc) as (y & -> & Hy). exists y. split; [reflexivity|apply given_tame, Hy]. Qed.
Lemma to_selector k prev key : ready k -> given_opt prev -> to (fun r => match r with inl c => given_opt c | inr _ => True end) (selector E ev k prev key g).
Proof.
  intros Hk Hp. unfold selector. destruct prev as [p|]; [|apply to_ok; exact I]. destruct key; [apply to_ok; exact I|].
  eapply to_bind; [apply to_index, Hk|]. intros ix _ _. cbv zeta. destruct (_ <? _); [apply to_ok; exact I|]. apply to_read.
  - destruct (_ =? _); [apply np_equal|apply np_nth_equal]; apply given_tames, Hp.
  - intros o Ho. apply to_ok. cbn. assert (K : forall c, In c o -> exists x, c = Some x /\ given x).
    { destruct (_ =? _) in Ho; [eapply equal_given|eapply nth_equal_given]; try exact Ho; intros c Hc; exact (given_kids _ _ Hp Hc). }
    destruct (given_map o K) as (l & -> & Hl). constructor; [exact I|exact Hl].
Qed.
Lemma function_datum p t : datum t -> function E C ev p t g = Ok (g, EVal VNil).
Proof. destruct t; intros H; try contradiction; reflexivity. Qed.
Lemma first_given c x o : given c -> out c = x :: o -> exists t, first_this c = Ok t /\ datum t.
Proof.
  intros H Ho. destruct (given_kids c x H) as (y & -> & Hy); [rewrite Ho; left; reflexivity|]. unfold first_this. rewrite Ho. exists (this y). split; [reflexivity|]. destruct Hy. assumption.
Qed.
Lemma to_group_name n : ready n -> (out n <> []) -> (forall c, In (Some c) (out n) -> ~ blank_leaf c) -> to (fun _ => True) (group_name E ev n g).
Proof.
  intros Hn Ho Hb. unfold group_name. apply to_read; [unfold Out_; destruct (out n); [congruence|discriminate]|]. intros e He. unfold Out_ in He.
  destruct (nth_error (out n) 0) as [c|] eqn:H0; [|discriminate]. injection He as ->. destruct (Hn e) as (x & -> & Hx); [eapply nth_error_In, H0|].
  eapply to_bind; [apply to_Eval; [exact Hx|]; apply Hb; eapply nth_error_In, H0|]. intros r _ Hr. destruct r as [v|]; [|apply to_ok; exact I].
  apply to_read; [apply np_vstring, Hr|]. intros s _. apply to_ok. exact I.
Qed.
Lemma child_given c i : given c -> given_opt (child (out c) i).
Proof. intros H. unfold child. destruct (nth_error (out c) i) as [x|] eqn:Hx; [|exact I]. apply nth_error_In in Hx. destruct (given_kids _ _ H Hx) as (y & -> & Hy). exact Hy. Qed.
Lemma Node_given c s n : given c -> Node_ E (Some c) s = Ok n -> given_opt n.
Proof.
  intros H. pose proof (fun i => child_given c i H) as K. destruct c as [v o]. cbn [Node_ out] in *. destruct (find_child E s o) as [i| |]; try discriminate. cbn [rbind]. intros J. injection J as <-.
  destruct i; [apply K|exact I].
Qed.
Lemma simplify_mild c : lenient c -> mild (simplify c).
Proof.
  destruct c as [[v o]|]; intros H; [|exact I]. assert (K : mild (VPtr (Some (Node v o)))) by exact H. unfold simplify. destruct o as [|[[w [|y o']]|] [|z o2]]; try exact K.
  destruct (tame_kids _ (Some (Node w [])) H (or_introl eq_refl)) as (x & Hx & Ht). injection Hx as <-. inversion Ht as [? ? Hw]; subst.
  destruct w as [| | | | | | |[x|]| | |]; try exact I. exfalso. eapply Hw. reflexivity.
Qed.
Lemma add_out_tame v : mild v -> exists k, add_out v = map Some k /\ Forall tame k.
Proof.
  intros H. assert (K : (forall x, v <> VPtr (Some x)) -> tame (New v)) by (intros Hv; apply (tame_node v []); [exact Hv|constructor]).
  destruct v as [| | | | | | |[x|]| | |];
    [exists []; split; [reflexivity|constructor]| | | | | | |exists [x]; split; [reflexivity|constructor; [exact H|constructor]]| | | |];
    (eexists [_]; split; [reflexivity|]; constructor; [apply K; discriminate|constructor]).
Qed.
Lemma given_mild r : eres_given r -> eres_mild r.
Proof. destruct r as [[| | | | | | |[x|]| | |]|]; cbn; auto using given_tame. Qed.
Lemma kept_mild simpl r : eres_kept simpl r -> eres_mild r.
Proof. destruct simpl; [apply given_mild|exact (fun H => H)]. Qed.
Lemma to_finish root simpl ctx : given_opt ctx ->
  to (eres_kept simpl) (let r := if root : bool then Some (Node (VStr (bs "[")) (add_out (VPtr ctx))) else ctx in Ok (g, EVal (if simpl : bool then simplify r else VPtr r))).
Proof.
  intros Hc. cbv zeta. apply to_ok. destruct simpl; cbn [eres_kept].
  - assert (J : match ctx with Some c => given_opt (if root then Some (Node (VStr (bs "[")) (add_out (VPtr ctx))) else ctx) | None => True end).
    { destruct ctx as [c|]; [|exact I]. destruct root; [|exact Hc]. apply (given_node _ [c]); [exact I|constructor; [exact Hc|constructor]]. }
    destruct ctx as [c|]; [|destruct root; exact I]. destruct (if root then _ else _) as [[v o]|]; [|exact I].
    assert (K : eres_given (EVal (VPtr (Some (Node v o))))) by exact J. unfold simplify. destruct o as [|[[w [|y o']]|] [|z o2]]; try exact K.
    destruct (given_kids _ (Some (Node w [])) J (or_introl eq_refl)) as (x & Hx & Ht). injection Hx as <-. inversion Ht as [? ? Hw]; subst. destruct w as [| | | | | | |[x|]| | |]; try exact I. destruct Hw.
  - assert (K : lenient ctx) by (destruct ctx; [apply given_tame, Hc|exact I]). destruct root; [|exact K]. cbn. destruct (add_out_tame (VPtr ctx)) as (k & Hk0 & Hk); [destruct ctx; [exact K|exact I]|].
    destruct ctx; cbn [add_out] in *; rewrite Hk0; constructor; try discriminate; exact Hk.
Qed.
Lemma to_eval_els p simpl els : part p -> Forall (fun c => exists x, c = Some x /\ element x /\ In (Some x) (out p)) els -> forall root ctx prev key, given_opt ctx -> given_opt prev ->
  to (eres_kept simpl) (eval_els E C ev p simpl root els ctx prev key g).
Proof.
  intros Hp. induction 1 as [|n els Hn _ IH]; intros root ctx prev key Hc Hv; [apply to_finish, Hc|]. cbn [eval_els]. destruct ctx as [c|]; [|apply (to_finish root simpl None I)].
  destruct Hn as (n' & -> & Hel & Hin).
  assert (Hrd : match this n' with VStr s => In s [bs "!i"; bs "!s"; bs "!g"] -> ready n' | _ => False end).
  { destruct Hel as [s k Hns _|s k _ Hk _]; cbn [this]; [intros K; contradiction|]. intros _ c0 Hc0. cbn [out] in Hc0. pose proof Hc0 as Hc1. apply in_map_iff in Hc0. destruct Hc0 as (z & <- & Hz).
    exists z. split; [reflexivity|]. eapply Helem; [exact Hp|exact Hin|exact Hc1|]. exact (proj1 (Forall_forall _ _) Hk _ Hz). }
  destruct (this n') as [|s| | | | | | | | |] eqn:Hts; try contradiction. assert (Hs : ThisString E (Some n') = Ok s) by (cbn [ThisString]; rewrite Hts; reflexivity). rewrite Hs. cbn [rbind].
  assert (Hnm : forall s, to (eres_kept simpl) (let* next := Node_ E (Some c) s in match next with
      | Some _ => eval_els E C ev p simpl false els next (Some c) s g
      | None => match out c with [] => eval_els E C ev p simpl false els None (Some c) s g | _ => let* t := first_this c in function E C ev p t g end end)).
  { intros s'. apply to_read; [apply np_Node, given_tame, Hc|]. intros nx Hx. pose proof (Node_given c s' nx Hc Hx) as Hnx. destruct nx as [nx|]; [apply IH; assumption|].
    destruct (out c) as [|x o] eqn:Ho; [apply IH; [exact I|exact Hc]|]. destruct (first_given c x o Hc Ho) as (t & -> & Ht). cbn [rbind]. rewrite function_datum by exact Ht. apply to_ok. destruct simpl; exact I. }
  destruct (bseq_spec s TypeIndex) as [->|_].
  { eapply to_bind; [apply to_index, Hrd; cbn; tauto|]. intros ix _ _. destruct (_ <? _); [apply to_ok; destruct simpl; exact I|]. pose proof (fun i => child_given c i Hc) as K. destruct c as [v o]. cbn [GetAt out] in *.
    destruct (_ || _); cbn [rbind]; (apply IH; [|exact Hc]); [exact I|apply K]. }
  destruct (bseq_spec s TypeSelector) as [->|_].
  { eapply to_bind; [apply to_selector; [apply Hrd; cbn; tauto|exact Hv]|]. intros r _ Hr. destruct r as [r|]; [apply IH; [exact Hr|exact Hc]|apply to_ok; destruct simpl; exact I]. }
  destruct (bseq s _); [apply to_ok; destruct simpl; exact I|]. destruct (bseq s _); [apply to_ok; destruct simpl; [exact Hc|apply given_tame, Hc]|].
  assert (Hl : lenient (Some c)) by (apply given_tame, Hc).
  destruct (bseq s _); [apply to_read; [apply np_ThisString, Hl|]; intros t _; apply to_ok; destruct simpl; exact I|].
  destruct (bseq s _); [apply to_read; [apply np_String, Hl|]; intros t _; apply to_ok; destruct simpl; exact I|].
  destruct (bseq s _); [apply to_read; [apply Hjson, Hc|]; intros t _; apply to_ok; destruct simpl; exact I|].
  destruct (bseq s TypeArguments).
  { destruct (out c) as [|x o] eqn:Ho; [apply to_ok; destruct simpl; exact I|]. destruct (first_given c x o Hc Ho) as (t & -> & Ht). cbn [rbind]. rewrite function_datum by exact Ht. cbn [rbind]. apply to_ok. destruct simpl; exact I. }
  destruct (bseq_spec s TypeGroup) as [->|_]; [|apply Hnm].
  eapply to_bind; [apply to_group_name; [apply Hrd; cbn; tauto| |]|].
  - destruct Hel as [s k Hns _|s k _ _ Hk]; cbn [this] in Hts; injection Hts as ->; [exfalso; apply Hns; cbn; tauto|]. destruct (Hk eq_refl) as (K & _). cbn [out]. destruct k; [congruence|discriminate].
  - destruct Hel as [s k Hns _|s k _ _ Hk]; cbn [this] in Hts; injection Hts as ->; [exfalso; apply Hns; cbn; tauto|]. destruct (Hk eq_refl) as (_ & K). cbn [out].
    intros y Hy. apply in_map_iff in Hy. destruct Hy as (z & E0 & Hz). injection E0 as ->. exact (proj1 (Forall_forall _ _) K _ Hz).
  - intros r _ _. destruct r as [s'|[]]; [apply Hnm|apply to_ok; destruct simpl; exact I|apply to_ok; destruct simpl; exact I].
Qed.
Lemma to_evalPath_kept simpl p : part p -> (forall c, In c (out p) -> exists x, c = Some x /\ element x) -> to (eres_kept simpl) (evalPath E C ev simpl p g).
Proof.
  intros Hp He. unfold evalPath. destruct (out p) as [|x o] eqn:Ho; [apply to_ok; destruct simpl; exact I|]. rewrite <- Ho in *. apply to_eval_els; [exact Hp| |exact Hg|exact I].
  apply Forall_forall. intros c Hc. destruct (He c Hc) as (y & -> & Hy). exists y. auto.
Qed.
Lemma to_evalPath b p : part p -> (forall c, In c (out p) -> exists x, c = Some x /\ element x) -> to eres_mild (evalPath E C ev b p g).
Proof.
  intros Hp He. pose proof (to_evalPath_kept b p Hp He) as K. destruct (evalPath E C ev b p g) as [[g' r]| |]; [|exact K|exact K]. destruct K as (K1 & K2). split; [exact K1|eapply kept_mild, K2].
Qed.
Lemma to_binary s k : part (Node (VStr s) (map Some k)) -> Forall formed k -> (2 <= List.length k)%nat -> ~ In s [bs "="; bs "+="; bs "-="; bs "*="; bs "/="; bs "%="] ->
  to mild (evalBinary E C ev (Node (VStr s) (map Some k)) g).
Proof.
  intros Hp Hfk Hl Ha. destruct k as [|n1 [|n2 k]]; cbn in Hl; try lia. inversion Hfk as [|? ? F1 Hfk']; subst. inversion Hfk' as [|? ? F2 _]; subst. unfold evalBinary. cbn [map Out_ out nth_error rbind]. cbn [map] in Hp.
  assert (H1 : part n1) by (eapply Hpart; [exact Hp|left; reflexivity|exact F1]). assert (H2 : part n2) by (eapply Hpart; [exact Hp|right; left; reflexivity|exact F2]).
  eapply to_bind; [apply Hev, H2|]. intros r2 E2 M2. destruct r2 as [i2|]; [|apply to_ok; exact I]. cbn [ThisString this vstring sstring rbind].
  do 6 (match goal with |- context [if bseq s ?t then _ else _] => destruct (bseq_spec s t) as [->|_]; [exfalso; apply Ha; cbn; tauto|] end).
  eapply to_bind; [apply Hev, H1|]. intros r1 E1 M1. destruct r1 as [i1|]; [|apply to_ok; exact I]. cbv zeta.
  assert (Kc : forall op, In op ["+"; "-"; "*"; "/"; "%"]%byte -> s = [op] -> to mild (let* v := calc E i1 i2 op in Ok (g, v))).
  { intros op Hop ->. destruct (calc E i1 i2 op) as [v| |] eqn:Hc; cbn; [split; [reflexivity|eapply calc_mild; [exact M1|exact M2|exact Hc]]| |exact I].
    eapply HW; [exact Hp|exact E1|exact E2|]. apply calc_panic; assumption. }
  assert (Kr : forall op, In s [bs "=="; bs "!="; bs ">="; bs "<="; bs ">"; bs "<"] -> to mild (let* b := compare_ E i1 i2 op in Ok (g, VBool b))).
  { intros op Hop. destruct (compare_ E i1 i2 op) as [v| |] eqn:Hc; cbn; [split; [reflexivity|exact I]| |exact I].
    apply compare_panic in Hc; [|exact M1|exact M2]. destruct Hc as (k0 & a & -> & ->). eapply HW; [exact Hp|exact E1|exact E2|]. apply fault_nil, Hop. }
  do 5 (match goal with |- context [if bseq s ?t then _ else _] => destruct (bseq_spec s t) as [->|_]; [apply Kc; [cbn; tauto|reflexivity]|] end).
  do 6 (match goal with |- context [if bseq s ?t then _ else _] => destruct (bseq_spec s t) as [->|_]; [apply Kr; cbn; tauto|] end).
  repeat (destruct (bseq s _); [apply to_ok; exact I|]). apply to_ok. exact I.
Qed.
Lemma to_evalBool e : part e -> ~ blank_leaf e -> to (fun _ => True) (evalBool_with E ev (Some e) g).
Proof. intros H Hb. unfold evalBool_with. eapply to_bind; [apply to_Eval; assumption|]. intros r _ _. apply to_ok. exact I. Qed.
Lemma to_group b l : Forall (fun c => exists x, c = Some x /\ part x) l -> to (fun o => exists k, o = map Some k /\ Forall tame k) (group_ ev b l g).
Proof.
  induction 1 as [|a l (x & -> & Hx) _ IH]; cbn [group_]; [apply to_ok; exists []; split; [reflexivity|constructor]|]. eapply to_bind; [apply Hev, Hx|]. intros r _ Hr.
  eapply to_bind; [exact IH|]. intros o _ (k & -> & Hk). apply to_ok. destruct r as [v|]; [|exists k; split; [reflexivity|exact Hk]].
  destruct (add_out_tame v Hr) as (k' & -> & Hk'). exists (k' ++ k). split; [rewrite map_app; reflexivity|]. apply Forall_app. split; assumption.
Qed.
Lemma to_body b p : part p -> to eres_mild (eval_body E C ev b (Some p) g).
Proof.
  intros Hp. pose proof (Hform p Hp) as K. destruct K as [k Hk|k Hk|s k Hns Hk Hne Hop].
  { unfold eval_body. cbn - [rbind]. cbn [rbind]. destruct k as [|x k]; [apply to_ok; exact I|]. cbn [map]. apply to_read; [|intros t _; apply to_ok; exact I].
    apply np_this, wordy_tame. inversion Hk; assumption. }
  { change (eval_body E C ev b (Some (Node (VStr (bs "!p")) (map Some k))) g) with (evalPath E C ev b (Node (VStr (bs "!p")) (map Some k)) g). apply to_evalPath; [exact Hp|].
    cbn [out]. intros c Hc. apply in_map_iff in Hc. destruct Hc as (z & <- & Hz). exists z. split; [reflexivity|]. exact (proj1 (Forall_forall _ _) Hk _ Hz). }
  unfold eval_body. cbn [this ThisString vstring sstring rbind]. destruct s as [|c rest] eqn:Hs0; [apply to_ok; exact I|].
  assert (Hall : Forall (fun c => exists x, c = Some x /\ part x) (map Some k)).
  { apply Forall_forall. intros y Hy. pose proof Hy as Hy'. apply in_map_iff in Hy. destruct Hy as (z & <- & Hz). exists z. split; [reflexivity|]. eapply Hpart; [exact Hp|exact Hy'|]. exact (proj1 (Forall_forall _ _) Hk _ Hz). }
  rewrite <- Hs0 in *. destruct (isNumber s) eqn:Hn.
  { apply to_read; [exact (np_number s [] Hn)|]. intros v Hv. apply to_ok. cbn. revert Hv. unfold number. cbn [v_float64 v_int64 vstring sstring rbind].
    destruct s; [discriminate|]. destruct (isInteger _) as [[]| |]; cbn [rbind]; try discriminate; [destruct (parse_int _)|destruct (parse_float _ _)]; intros K; injection K as <-; exact I. }
  destruct (bseq_spec s (bs "!")) as [Hs|Hs].
  { destruct (Hne ltac:(rewrite Hs; cbn; tauto)) as (Hk0 & Hkb). destruct k as [|x k]; [congruence|]. cbn [map Out_ out nth_error rbind].
    eapply to_bind; [apply to_evalBool; [eapply Hpart; [exact Hp|left; reflexivity|inversion Hk; assumption]|inversion Hkb; assumption]|]. intros r _ _. apply to_ok. exact I. }
  destruct (bseq_spec s TypeExpression) as [Hs1|_].
  { destruct (Hne ltac:(rewrite Hs1; cbn; tauto)) as (Hk0 & _). destruct k as [|x k]; [congruence|]. cbn [map GetAt]. destruct (_ || _) eqn:Hz; [cbn in Hz; lia|].
    change (child (Some x :: map Some k) (Z.to_nat 0)) with (Some x). cbn [rbind]. apply Hev. eapply Hpart; [exact Hp|left; reflexivity|inversion Hk; assumption]. }
  destruct (bseq_spec s TypePath) as [Hs1|_]; [exfalso; apply Hns; rewrite Hs1; cbn; tauto|].
  destruct (bseq s TypeGroup).
  { eapply to_bind; [apply to_group, Hall|]. intros o _ (k' & -> & Hk'). apply to_ok. cbn. constructor; [discriminate|exact Hk']. }
  destruct (bseq_spec s TypeString) as [Hs1|_]; [exfalso; apply Hns; rewrite Hs1; cbn; tauto|].
  rewrite Hs0. destruct (is_operator c && _) eqn:Ho.
  { rewrite <- Hs0. destruct Hop as (Hl & Ha); [|exact Hs|].
    - rewrite Hs0. apply andb_true_iff in Ho. destruct Ho as (Hc & Hr). split; [exact Hc|]. destruct rest as [|d [|]]; [exact I|exact Hr|discriminate].
    - eapply to_bind; [apply to_binary; assumption|]. intros v _ Hv. apply to_ok. exact Hv. }
  destruct (_ || _); [apply to_ok; exact I|]. destruct (is_letter c); apply to_ok.
  - repeat (destruct (bseq _ _); [exact I|]). exact I.
  - cbn. apply formed_tame, Hform. rewrite <- Hs0. exact Hp.
Qed.
End Panics.
