(** C86: what makes an assignment panic. *)
From Verif Require Import Base Value Graph GraphSpec GraphFacts TextSpec PathSpec PathParser PathFacts PathTerm TypesSpec TypesFacts NumFacts Eval AccessSpec AccessFacts EvalSpec EvalFacts Samples P_Access P_Assign.
From Verif Require Import HeapEvalFacts PanicSpec Panics P_Panics Fuel.

(** The assignment of [rhs] to the variable at the names [ps] *)
Definition assigning (op : optor) (ps : list bytes) (rhs : graph) : graph :=
  Node (VStr (bs "!e")) [Some (Node (VStr (op_text op)) [Some (gtree (operand_tree (OPath (map Name ps)))); Some rhs])].
(** [op] cannot update the variable [n] with [v]: there is nothing in it, or it would be divided by something that counts as 0. *)
Inductive stuck (E : env) (op : optor) (n : graph) (v : value graph) : Prop :=
| stuck_empty : op <> Asg -> out n = [] -> stuck E op n v
| stuck_fault w k l : In op [DivAsg; ModAsg] -> out n = Some (Node w k) :: l -> faulty E [asg_byte op] w v -> stuck E op n v.

Lemma data_given : forall g, all_nodes data g -> given g.
Proof. fix IH 2. intros g [v k Hv Hk]. constructor; [exact Hv|]. induction Hk as [|c k Hc _ IHk]; constructor; [apply IH, Hc|exact IHk]. Qed.
Lemma walk_given E ps : forall g n, walk E (map Name ps) g n -> given g -> given n.
Proof.
  induction ps as [|s ps IH]; intros g n H Hg; cbn [map] in H; inversion H as [|e s' es g' i c n' Hk Hf Hw|]; subst; [exact Hg|]. destruct Hf as (Hn & _).
  destruct (given_kids g (Some c) Hg (nth_error_In _ _ Hn)) as (y & Hy & Hgy). injection Hy as <-. eapply IH; eassumption.
Qed.
Lemma set_path_np E ps g v : Forall (name E) ps -> all_nodes data g -> set_path E g (Some (gtree (operand_tree (OPath (map Name ps))))) v <> Panic.
Proof. intros Hps Hg. destruct (set_path_changed E ps g v Hps (data_whole E g Hg)) as (g' & r & -> & _). discriminate. Qed.
Lemma Eval_assigning E C f op ps rhs g : prec op = 0 -> Eval E C (S (S f)) g (Some (assigning op ps rhs)) =
  let* (g, v) := evalBinary E C (evalExpression E C f) (Node (VStr (op_text op)) [Some (gtree (operand_tree (OPath (map Name ps)))); Some rhs]) g in Ok (g, EVal v).
Proof. intros H. destruct op; cbn in H; try lia; reflexivity. Qed.
Lemma binary_assigning E C ev op p rhs g : prec op = 0 -> evalBinary E C ev (Node (VStr (op_text op)) [p; rhs]) g =
  let* (g, r) := ev true rhs g in match r with EErr e => Ok (g, VObj e) | EVal v => assign E C ev p v (asg_byte op) g end.
Proof. intros H. unfold evalBinary, Out_. cbn [out nth_error rbind]. destruct (ev true rhs g) as [[g1 [v|e]]| |]; cbn [rbind]; try reflexivity. destruct op; cbn in H; try lia; reflexivity. Qed.

(** If an assignment panics, the right side does (C86_panics_partial), or the old value cannot be updated. *)
Theorem C86_assign_partial : forall E C f g op ps rhs, prec op = 0 -> Forall (name E) ps -> ps <> [] -> all_nodes data g -> formed rhs ->
  (forall x, stored false (Some x) -> to_json C x <> Panic) -> Eval E C f g (Some (assigning op ps rhs)) = Panic ->
  fault_in E C f g rhs \/ exists n v, walk E (map Name ps) g n /\ evalExpression E C f true (Some rhs) g = Ok (g, EVal v) /\ stuck E op n v.
Proof.
  intros E C f g op ps rhs Hop Hps Hne Hg Hr Hj H. destruct f as [|[|f]]; [discriminate|discriminate|].
  rewrite (Eval_assigning E C f op ps rhs g Hop), (binary_assigning E C _ op _ _ g Hop) in H. pose proof (data_given g Hg) as Hgg.
  assert (Hj' : forall x, given x -> to_json C x <> Panic) by (intros x Hx; apply Hj, given_stored, Hx).
  pose proof (to_evalExpression E C g (S (S f)) rhs Hj' Hgg f ltac:(lia) true rhs (part_refl rhs) Hr) as K.
  destruct (evalExpression E C f true (Some rhs) g) as [[g1 r]| |] eqn:Hv; [|left; exact K|discriminate]. cbn [to] in K. destruct K as (-> & Hm). right.
  cbn [rbind] in H. destruct r as [v|e]; [|discriminate]. cbn in Hm.
  assert (Hv' : evalExpression E C (S (S f)) true (Some rhs) g = Ok (g, EVal v)).
  { destruct (expr_mono E C f (S (S f)) true (Some rhs) g ltac:(lia)) as [M|M]; [congruence|]. rewrite <- M. exact Hv. }
  destruct f as [|f]; [discriminate|]. set (P := gtree (operand_tree (OPath (map Name ps)))) in *.
  assert (Hset : forall w, (let* (g, v) := (let* (g, r) := set_path E g (Some P) w in Ok (g, VPtr r)) in Ok (g, EVal v)) = @Panic (graph * eres) -> False).
  { intros w K. pose proof (set_path_np E ps g w Hps Hg) as N. fold P in N. destruct (set_path E g (Some P) w) as [[? ?]| |]; cbn in K; congruence. }
  unfold assign in H. cbv zeta in H. destruct (beq (asg_byte op) "=") eqn:Ba; [destruct (Hset _ H)|].
  assert (Hna : op <> Asg) by (intros ->; discriminate Ba).
  assert (Hin : In (asg_byte op) ["+"; "-"; "*"; "/"; "%"]%byte) by (destruct op; cbn in Hop; try lia; cbn; try tauto; congruence).
  assert (Hk : Forall (fun e => key e <> None) (map Name ps)) by (apply Forall_forall; intros e He; apply in_map_iff in He; destruct He as (s & <- & _); discriminate).
  destruct (walk_or_lost E (map Name ps) Hk g (data_whole E g Hg)) as [(n & Hw)|Hl].
  - exists n, v. split; [exact Hw|]. split; [exact Hv'|]. unfold P in H. rewrite (getPath_held E C f ps g n Hps Hne (data_whole E g Hg) Hw) in H. fold P in H. cbn [rbind] in H. unfold Out_ in H.
    destruct (out n) as [|c l] eqn:Ho; [apply stuck_empty; assumption|]. cbn [nth_error rbind] in H.
    assert (Hc : exists w k, c = Some (Node w k) /\ datum w).
    { assert (Hn : given n) by (eapply walk_given; eassumption). destruct (given_kids n c Hn) as (y & -> & Hy); [rewrite Ho; left; reflexivity|]. destruct Hy as [w k Hw' _]. eauto. }
    destruct Hc as (w & k & -> & Hd). cbn [this] in H. destruct (calc E w v (asg_byte op)) as [z| |] eqn:Hz; cbn [rbind] in H; [destruct (Hset _ H)| |discriminate].
    pose proof (calc_panic E w v (asg_byte op) ltac:(destruct w; destruct Hd; exact I) Hm Hin Hz) as Hfa.
    apply (stuck_fault E op n v w k l); [|exact Ho|exact Hfa]. clear - Hfa Hop Hna. destruct op; cbn in Hop; try lia; cbn; try tauto; exfalso; inversion Hfa as [? ? ? ? ? Hi| |? ? ? Hi]; subst; cbn in Hi; decompose [or] Hi; try discriminate; contradiction.
  - unfold P in H. destruct (getPath_missing E C f ps g Hps Hne Hg Hl) as (r & Hr' & Hrr). rewrite Hr' in H. fold P in H. cbn [rbind] in H. exfalso.
    assert (Hc : calc E (VInt KInt 0) v "-" <> Panic).
    { intros Kc. pose proof (calc_panic E (VInt KInt 0) v "-" I Hm ltac:(cbn; tauto) Kc) as Hfa. inversion Hfa as [? ? ? ? ? Hi| |? ? ? Hi]; subst; cbn in Hi; decompose [or] Hi; try discriminate; contradiction. }
    assert (Hrest : (let* (g, v0) := (if beq (asg_byte op) "+" then let* (g, r) := set_path E g (Some P) v in Ok (g, VPtr r)
        else if beq (asg_byte op) "-" then let* w := calc E (VInt KInt 0) v "-" in let* (g, r) := set_path E g (Some P) w in Ok (g, VPtr r)
        else if beq (asg_byte op) "*" then let* (g, r) := set_path E g (Some P) (VInt KInt 0) in Ok (g, VPtr r)
        else if beq (asg_byte op) "/" then let* (g, r) := set_path E g (Some P) (VStr (bs "infinity")) in Ok (g, VPtr r)
        else let* (g, r) := set_path E g (Some P) (VStr (bs "undefined")) in Ok (g, VPtr r)) in Ok (g, EVal v0)) = @Panic (graph * eres)).
    { destruct r as [[m|]|e]; [discriminate Hrr|exact H|exact H]. }
    destruct (beq (asg_byte op) "+"); [exact (Hset _ Hrest)|]. destruct (beq (asg_byte op) "-").
    + destruct (calc E (VInt KInt 0) v "-") as [w| |]; [exact (Hset _ Hrest)|congruence|discriminate Hrest].
    + destruct (beq (asg_byte op) "*"); [exact (Hset _ Hrest)|]. destruct (beq (asg_byte op) "/"); exact (Hset _ Hrest).
Qed.
Print Assumptions C86_assign_partial.
(** Conversely: it panics when the right side does, and when the old value cannot be updated. *)
Theorem C86_assign_stuck : forall E C f g op ps rhs n v, prec op = 0 -> Forall (name E) ps -> ps <> [] -> all_nodes data g ->
  evalExpression E C (S f) true (Some rhs) g = Ok (g, EVal v) -> walk E (map Name ps) g n -> stuck E op n v ->
  Eval E C (S (S (S f))) g (Some (assigning op ps rhs)) = Panic.
Proof.
  intros E C f g op ps rhs n v Hop Hps Hne Hg Hv Hw Hs. rewrite (Eval_assigning E C (S f) op ps rhs g Hop), (binary_assigning E C _ op _ _ g Hop), Hv. cbn [rbind].
  assert (Hna : op <> Asg) by (destruct Hs as [H _|w k l H _ _]; [exact H|intros ->; cbn in H; decompose [or] H; try discriminate; contradiction]).
  unfold assign. cbv zeta. replace (beq (asg_byte op) "=") with false by (destruct op; cbn in Hop; try lia; try congruence; reflexivity).
  rewrite (getPath_held E C f ps g n Hps Hne (data_whole E g Hg) Hw). cbn [rbind]. unfold Out_. destruct Hs as [_ Ho|w k l Hi Ho Hf]; rewrite Ho; [reflexivity|]. cbn [nth_error rbind this].
  assert (Kc : calc E w v (asg_byte op) = Panic); [|rewrite Kc; reflexivity].
  destruct Hi as [<-|[<-|[]]]; cbn [asg_byte] in *.
  - inversion Hf as [? ka a kb b ? Hb| |]; subst; [|match goal with H : In _ _ |- _ => cbn in H; decompose [or] H; try discriminate; contradiction end]. unfold calc. cbn - [wrap64]. rewrite Hb. reflexivity.
  - inversion Hf as [? ka a kb b ? Hb|v' w' d Hn Hi Hd Hz|? ? ? K]; subst; [unfold calc; cbn - [wrap64]; rewrite Hb; reflexivity| |cbn in K; decompose [or] K; try discriminate; contradiction].
    assert (Kf : forall a, calc_float E "%" a d = Panic) by (intros a; unfold calc_float; cbn; rewrite Hz; reflexivity). unfold calc.
    destruct Hd as [kz z|x|x|u s x W1 W2 Hs Hp|u s W1 W2 Hs Hp]; destruct w; try contradiction; cbn [v_int64 v_float64]; try (exfalso; apply Hi; split; exact I); try apply Kf;
      rewrite ?W1, ?W2; unfold v_float64f; rewrite ?W1, ?W2, ?Hs; cbn [rbind]; rewrite ?Hp; apply Kf.
Qed.
Print Assumptions C86_assign_stuck.
Theorem C86_assign_right : forall E C f g op ps rhs, prec op = 0 -> evalExpression E C f true (Some rhs) g = Panic -> Eval E C (S (S f)) g (Some (assigning op ps rhs)) = Panic.
Proof. intros E C f g op ps rhs Hop H. rewrite (Eval_assigning E C f op ps rhs g Hop), (binary_assigning E C _ op _ _ g Hop), H. reflexivity. Qed.
Print Assumptions C86_assign_right.

(** a/=0 where a holds 5, and b+=1 where b is empty; a=0 does not panic. *)
Definition ex_pctx : graph := nd "r" [nd "a" [Node (VInt KInt64 5) []]; nd "b" []].
Lemma ex_pctx_data : all_nodes data ex_pctx.
Proof.
  apply (all_node _ (VStr (bs "r")) [nd "a" [Node (VInt KInt64 5) []]; nd "b" []]); [exact I|]. constructor; [|constructor; [apply (all_node _ (VStr (bs "b")) []); [exact I|constructor]|constructor]].
  apply (all_node _ (VStr (bs "a")) [Node (VInt KInt64 5) []]); [exact I|]. constructor; [|constructor]. apply (all_node _ (VInt KInt64 5) []); [exact I|constructor].
Qed.
Example C86_ex_assign : NewExpression env0 40 (bs "a/=0") = Ok (assigning DivAsg [bs "a"] (nd "0" [])) /\ all_nodes data ex_pctx /\
  walk env0 (map Name [bs "a"]) ex_pctx (nd "a" [Node (VInt KInt64 5) []]) /\ stuck env0 DivAsg (nd "a" [Node (VInt KInt64 5) []]) (VInt KInt64 0) /\
  Eval env0 calls0 40 ex_pctx (Some (assigning DivAsg [bs "a"] (nd "0" []))) = Panic.
Proof.
  rewrite NewExpression_ideal by (cbn; lia). split; [vm_compute; reflexivity|]. split; [exact ex_pctx_data|]. split; [|split; [|vm_compute; reflexivity]].
  - eapply walk_key with (i := O); [reflexivity|split; [reflexivity|split; [eexists; split; reflexivity|intros j c Hj; lia]]|constructor].
  - eapply stuck_fault; [cbn; tauto|reflexivity|]. apply fault_div; [cbn; tauto|reflexivity].
Qed.
Example C86_ex_assign_empty : NewExpression env0 40 (bs "b+=1") = Ok (assigning PlusAsg [bs "b"] (nd "1" [])) /\ stuck env0 PlusAsg (nd "b" []) (VInt KInt64 1) /\
  Eval env0 calls0 40 ex_pctx (Some (assigning PlusAsg [bs "b"] (nd "1" []))) = Panic /\
  exists g' r, Eval env0 calls0 40 ex_pctx (Some (assigning Asg [bs "a"] (nd "0" []))) = Ok (g', r).
Proof.
  rewrite NewExpression_ideal by (cbn; lia). split; [vm_compute; reflexivity|]. split; [apply stuck_empty; [discriminate|reflexivity]|]. split; [vm_compute; reflexivity|]. eexists. eexists. vm_compute. reflexivity.
Qed.
