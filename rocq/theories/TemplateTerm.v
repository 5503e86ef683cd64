(** NewTemplate and NewExpression return or panic: they do not run forever. *)
From Verif Require Import Base Value Event EventSpec EventFacts Lexer TextParser Stream Buffer BufferSpec BufferFacts Wp TextTerm PathParser PathTerm Graph Emit Eval Template.

Local Notation len l := (Z.of_nat (List.length l)).
Local Ltac call L := apply wpi_bind; eapply wpi_mono; [apply L|]; cbn beta.

Section Term.
Variable E : env.
Variable W : bytes.
Variable F : nat.
Hypothesis HW : well_lettered E W.
Hypothesis HF : (5 * List.length W + 4 <= F)%nat.

Let st := st W.

Lemma t_rem s : st s -> (rem s <= List.length W)%nat.
Proof. intros (_ & H). unfold src in H. rewrite <- H. unfold rem. rewrite app_length. lia. Qed.

(** One byte read: either the end, or the next byte. *)
Lemma wpi_get {A} (k : byte -> prog A) s h (Q : A -> stream -> handler -> Prop) : st s ->
  (fut s = [] -> wpi E (k x00) (mkS (past s) [] true) h Q) ->
  (forall c r, fut s = c :: r -> st (mkS (c :: past s) r false) -> wpi E (k c) (mkS (c :: past s) r false) h Q) ->
  wpi E (do c <- Byte_; k c) s h Q.
Proof.
  intros (Hg & Hs) H0 H1. unfold wpi in *. cbn [run pbind Byte_]. unfold s_byte. destruct (fut s) as [|c r] eqn:Ef; [exact (H0 eq_refl)|].
  apply (H1 c r eq_refl). split; [apply good_false|]. rewrite <- Hs. unfold src. cbn [past fut rev]. rewrite Ef, <- app_assoc. reflexivity.
Qed.
Lemma wpi_un_end {A} (k : prog A) s h (Q : A -> stream -> handler -> Prop) : st s -> fut s = [] ->
  (forall s', st s' -> fut s' = [] -> wpi E k s' h Q) -> wpi E (UnB k) (mkS (past s) [] true) h Q.
Proof.
  intros (Hg & Hs) Ef H. unfold wpi. cbn [run s_unread over past fut]. apply H; [|reflexivity]. split; [apply good_false|].
  rewrite <- Hs. unfold src. cbn [past fut]. rewrite Ef. reflexivity.
Qed.
Lemma wpi_un_back {A} (k : prog A) c r s h (Q : A -> stream -> handler -> Prop) : st s -> fut s = c :: r ->
  (forall s', st s' -> fut s' = c :: r -> wpi E k s' h Q) -> wpi E (UnB k) (mkS (c :: past s) r false) h Q.
Proof.
  intros (Hg & Hs) Ef H. unfold wpi. cbn [run s_unread over past fut]. apply H; [|reflexivity]. split; [apply good_false|].
  rewrite <- Hs. unfold src. cbn [past fut]. rewrite Ef. reflexivity.
Qed.

Lemma t_Path s h : st s -> h_inv h -> wpi E (Path F F) s h (fun _ s' h' => st s' /\ hk h h' /\ (rem s' <= rem s)%nat).
Proof.
  intros Hs Hh. destruct (terminates E W F HW ltac:(lia) F) as (_ & _ & _ & H & _). pose proof (t_rem s Hs).
  eapply wpi_mono; [apply (H true true false s h Hs Hh); lia|]. intros a s' h' ((A1 & A2 & A3) & _). auto.
Qed.
Lemma t_Expression s h : st s -> h_inv h -> wpi E (Expression F F) s h (fun _ s' h' => st s' /\ hk h h' /\ (rem s' <= rem s)%nat).
Proof.
  intros Hs Hh. destruct (terminates E W F HW ltac:(lia) F) as (H & _). pose proof (t_rem s Hs).
  eapply wpi_mono; [apply (H s h Hs Hh); lia|]. intros a s' h' ((A1 & A2 & A3) & _). auto.
Qed.
Lemma t_Sp s h : st s -> wpi E (Space F) s h (fun _ s' h' => h' = h /\ st s' /\ (rem s' <= rem s)%nat).
Proof. intro Hs. apply (t_Space E W F); [lia|exact Hs]. Qed.
Lemma t_By s h : st s -> wpi E Byte_ s h (fun _ s' h' => h' = h /\ st s' /\ (rem s' <= rem s)%nat).
Proof. intro Hs. eapply wpi_mono; [apply (t_Byte E W), Hs|]. cbn. intros a s' h' (A & B & _ & C & _). auto. Qed.

Lemma t_Variable s h : st s -> h_inv h ->
  wpi E (Variable_ F) s h (fun b s' h' => st s' /\ h_inv h' /\ (rem s' <= rem s)%nat /\ (b = true -> (rem s' < rem s)%nat)).
Proof.
  intros Hs Hh. unfold Variable_. apply wpi_get; [exact Hs| |].
  - intro Ef. change (negb (beq x00 "$")) with true. cbn iota. apply wpi_un_end; [exact Hs|exact Ef|]. intros s' Hs' Ef'. apply wpi_ret.
    split; [exact Hs'|]. split; [exact Hh|]. split; [unfold rem; rewrite Ef', Ef; lia|discriminate].
  - intros c r Ef Hs1. destruct (beq_spec c "$") as [->|Hc]; cbn [negb].
    2:{ apply wpi_un_back; [exact Hs|exact Ef|]. intros s' Hs' Ef'. apply wpi_ret. split; [exact Hs'|]. split; [exact Hh|].
        split; [unfold rem; rewrite Ef', Ef; lia|discriminate]. }
    set (s1 := mkS ("$"%byte :: past s) r false) in *. assert (L1 : (rem s1 < rem s)%nat) by (unfold rem; rewrite Ef; cbn; lia). clearbody s1. clear Ef r.
    (* what follows the dollar sign *)
    assert (Rest : forall s2, st s2 -> fut s2 = fut s1 ->
      wpi E (do i <- Level;
             do c <- Byte_;
             skip (if beq c "(" then skip emit TypeExpression; skip ev HInc; skip Expression F F; skip Space F; skip Byte_; Ret tt
                   else skip emit TypePath; skip ev HInc; skip (if beq c "{" then skip Space F; Ret tt else UnB (Ret tt));
                        skip Path F F; if beq c "{" then skip Space F; skip Byte_; Ret tt else Ret tt);
             skip ev (HSetLevel i); Ret true) s2 h
        (fun b s' h' => st s' /\ h_inv h' /\ (rem s' <= rem s)%nat /\ (b = true -> (rem s' < rem s)%nat))).
    { intros s2 Hs2 Ef2. assert (L2 : (rem s2 < rem s)%nat) by (unfold rem in *; rewrite Ef2; exact L1).
      assert (Wh : forall v, h_inv (h_inc (h_add v h))) by (intro v; apply h_inc_inv, h_add_inv, Hh).
      assert (Fin : forall s' h', st s' -> h_inv h' -> (rem s' <= rem s2)%nat ->
        wpi E (skip ev (HSetLevel (cur h)); Ret true) s' h' (fun b s' h' => st s' /\ h_inv h' /\ (rem s' <= rem s)%nat /\ (b = true -> (rem s' < rem s)%nat))).
      { intros s' h' H1 H2 H3. apply wpi_Set, wpi_ret. split; [exact H1|]. split; [apply h_set_inv; [apply Hh|exact H2]|]. split; [lia|intros _; lia]. }
      (* $path *)
      assert (Plain : forall s3 (z : bool), st s3 -> (rem s3 <= rem s2)%nat ->
        wpi E (skip (skip Path F F; if z then skip Space F; skip Byte_; Ret tt else Ret tt); skip ev (HSetLevel (cur h)); Ret true) s3 (h_inc (h_add (VStr TypePath) h))
          (fun b s' h' => st s' /\ h_inv h' /\ (rem s' <= rem s)%nat /\ (b = true -> (rem s' < rem s)%nat))).
      { intros s3 z H3 L3. apply wpi_bind. apply wpi_bind. eapply wpi_mono; [apply t_Path; [exact H3|apply Wh]|]. cbn beta. intros _ s4 h4 (H4 & K4 & L4). destruct z.
        - call t_Sp; [exact H4|]. intros _ s5 h5 (-> & H5 & L5). call t_By; [exact H5|]. intros _ s6 h6 (-> & H6 & L6).
          apply wpi_ret. apply Fin; [exact H6|exact (hk_inv _ _ K4)|lia].
        - apply wpi_ret. apply Fin; [exact H4|exact (hk_inv _ _ K4)|lia]. }
      apply wpi_Level. apply wpi_get; [exact Hs2| |].
      - intro Ef. change (beq x00 "(") with false. change (beq x00 "{") with false. cbn iota. unfold wpi. cbn [run pbind emit ev h_step rbind s_unread over past fut].
        assert (H3 : st (mkS (past s2) [] false)).
        { split; [apply good_false|]. rewrite <- (proj2 Hs2). unfold src. cbn [past fut]. rewrite Ef. reflexivity. }
        pose proof (Plain _ false H3 ltac:(unfold rem; cbn; lia)) as P. exact P.
      - intros c r Ef H3. assert (L3 : (rem (mkS (c :: past s2) r false) < rem s2)%nat) by (unfold rem; rewrite Ef; cbn; lia).
        destruct (beq c "(").
        + apply wpi_bind. apply wpi_emit, wpi_Inc. call t_Expression; [exact H3|apply Wh|]. intros _ s4 h4 (H4 & K4 & L4).
          call t_Sp; [exact H4|]. intros _ s5 h5 (-> & H5 & L5). call t_By; [exact H5|]. intros _ s6 h6 (-> & H6 & L6).
          apply wpi_ret. apply Fin; [exact H6|exact (hk_inv _ _ K4)|lia].
        + destruct (beq c "{").
          * apply wpi_bind. apply wpi_emit, wpi_Inc. apply wpi_bind. call t_Sp; [exact H3|]. intros _ s4 h4 (-> & H4 & L4). apply wpi_ret.
            pose proof (Plain s4 true H4 ltac:(lia)) as P. unfold wpi in *. rewrite run_bind in P. destruct (run E (skip Path F F; skip Space F; skip Byte_; Ret tt) s4 _) as [[[u s5] h5]| |]; exact P.
          * unfold wpi. cbn [run pbind emit ev h_step rbind s_unread over past fut].
            assert (H4 : st (mkS (past s2) (c :: r) false)).
            { split; [apply good_false|]. rewrite <- (proj2 Hs2). unfold src. cbn [past fut]. rewrite Ef. reflexivity. }
            pose proof (Plain _ false H4 ltac:(unfold rem; rewrite Ef; cbn; lia)) as P. exact P. }
    apply wpi_get; [exact Hs1| |].
    + intro Ef. change (beq x00 "\") with false. cbn iota. apply wpi_un_end; [exact Hs1|exact Ef|]. intros s2 Hs2 Ef2. apply Rest; [exact Hs2|congruence].
    + intros c r Ef Hs2. destruct (beq c "\").
      * apply wpi_emit, wpi_ret. split; [exact Hs2|]. split; [apply h_add_inv, Hh|]. assert (rem (mkS (c :: past s1) r false) < rem s1)%nat by (unfold rem; rewrite Ef; cbn; lia). split; [lia|intros _; lia].
      * apply wpi_un_back; [exact Hs1|exact Ef|]. intros s3 Hs3 Ef3. apply Rest; [exact Hs3|congruence].
Qed.

Lemma t_Template : forall f s h, (rem s < f)%nat -> st s -> h_inv h -> wpi E (Template F f) s h (fun _ _ h' => h_inv h').
Proof.
  induction f as [|f IH]; intros s h Hf Hs Hh; [lia|]. cbn [Template]. unfold TemplateText.
  call (t_span E W F); [lia|reflexivity|exact Hs|]. intros t s1 h1 (-> & Hs1 & L1 & Et & Ef). destruct t as [|c t].
  - call t_Variable; [exact Hs1|exact Hh|]. intros b s2 h2 (Hs2 & Hh2 & L2 & C2). destruct b.
    + apply IH; [specialize (C2 eq_refl); lia|exact Hs2|exact Hh2].
    + apply wpi_ret. exact Hh2.
  - apply wpi_emit. apply IH; [|exact Hs1|apply h_add_inv, Hh]. cbn [app] in Et.
    assert (Hr : rem s = (List.length (c :: t) + rem s1)%nat).
    { unfold rem. rewrite Ef, Et. rewrite (tw_dw is_template_text (fut s)) at 1. rewrite app_length. reflexivity. }
    cbn [List.length] in Hr. lia.
Qed.
End Term.

(** Building the syntax tree may panic, but returns. *)
Lemma reduce_at_stops j : forall post pre, reduce_at j pre post <> NoFuel.
Proof.
  intro post. remember (List.length post) as n eqn:Hn. revert post Hn. induction n as [n IH] using lt_wf_ind. intros post -> pre. destruct post as [|x post]; cbn [reduce_at]; [discriminate|].
  destruct (precedence (this_string x) =? j).
  - destruct pre as [|e1 pre]; [discriminate|]. destruct post as [|e2 post]; [discriminate|]. apply (IH (List.length post)); [cbn; lia|reflexivity].
  - apply (IH (List.length post)); [cbn; lia|reflexivity].
Qed.
Lemma reduce_all_stops : forall js l, reduce_all js l <> NoFuel.
Proof.
  induction js as [|j js IH]; intro l; cbn [reduce_all]; [discriminate|]. pose proof (reduce_at_stops j l []). destruct (reduce_at j [] l); cbn [rbind]; [apply IH|discriminate|congruence].
Qed.
Lemma ast_top_stops v l : ast_top v l <> NoFuel.
Proof.
  unfold ast_top. assert (H : (let* l := reduce_all [6; 5; 4; 3; 2; 1; 0] l in Ok (Node v (map Some l))) <> NoFuel).
  { pose proof (reduce_all_stops [6; 5; 4; 3; 2; 1; 0] l). destruct (reduce_all _ l); cbn [rbind]; [discriminate|discriminate|congruence]. }
  destruct l as [|a [|b [|c l]]]; try exact H. discriminate.
Qed.
Fixpoint ast_stops (g : graph) : forall e, ast_ e g <> NoFuel.
Proof.
  destruct g as [v l]. intro e. cbn [ast_]. destruct (e && _)%bool; [discriminate|].
  match goal with |- (let* _ := ?F l in _) <> _ => set (go := F) end.
  assert (H : go l <> NoFuel).
  { induction l as [|[n|] l IH]; [discriminate| |exact IH]. change (go (Some n :: l)) with (let* n := ast_ (negb e && bseq (this_string n) TypeExpression) n in let* l := go l in Ok (n :: l)).
    pose proof (ast_stops n (negb e && bseq (this_string n) TypeExpression)) as Hn. destruct (ast_ _ n); cbn [rbind]; [|discriminate|congruence].
    destruct (go l); cbn [rbind]; [discriminate|discriminate|congruence]. }
  destruct (go l); cbn [rbind]; [|discriminate|congruence]. destruct e; [apply ast_top_stops|discriminate].
Qed.
Lemma nest_stops g : nest g <> NoFuel.
Proof.
  unfold nest. pose proof (ast_stops (Node (VStr TypeTemplate) (out g)) false). destruct (ast_ _ _) as [t| |]; cbn [rbind]; [|discriminate|congruence].
  destruct (flow _ _) as [[hs es] r]. discriminate.
Qed.

Lemma template_total E s fuel : well_lettered E s -> len s <= 4094 -> (5 * List.length s + 4 <= fuel)%nat ->
  exists g, NewTemplate E fuel s = nest g.
Proof.
  intros HW Hl Hf. unfold NewTemplate. rewrite (run_ideal E fuel (Template fuel fuel) (fun h => let* g := Tree h in nest g)) by lia.
  pose proof (t_Template E s fuel HW Hf fuel (s_init s) h_init ltac:(change (rem (s_init s)) with (List.length s); lia) (st_init s) h_init_inv) as H.
  unfold wpi in H. destruct (run E _ (s_init s) h_init) as [[[u s'] h']| |]; try contradiction. cbn [rbind]. rewrite (h_inv_Tree h' H). cbn [rbind]. eauto.
Qed.
