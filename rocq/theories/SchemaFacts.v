(** Facts about schema checking. *)
From Verif Require Import Base Value Graph Schema SchemaSpec TypesSpec TypesFacts.

Section Facts.
Variable E : env.

Definition scalar (v : value graph) : Prop := match v with VNil | VPtr _ => False | _ => True end.
Lemma scalar_prints v : scalar v -> vstring E v = Ok (sstring E v).
Proof. destruct v; cbn; intros H; try reflexivity; contradiction. Qed.
Lemma scalar_typed v : scalar v -> exists t, ThisType v = Ok t /\ t <> TyByteAlias /\ (t = TyString <-> exists s, v = VStr s).
Proof.
  destruct v; cbn; intros H; try contradiction; eexists; (split; [reflexivity|]); (split; [discriminate|]);
    (split; [intros; try discriminate; eauto | intros [? ?]; congruence]).
Qed.
Lemma int_scalar v : scalar v -> exists r, v_int64f E v = Ok r /\ ((exists z, r = Some z) <-> integral v).
Proof.
  intros H. destruct v; cbn in H; try contradiction; cbn; eexists; (split; [reflexivity|]); split;
    try (intros [z Hz]; discriminate); try (intros Hi; inversion Hi; fail); eauto using int_int, int_f32, int_f64.
  - intros [z Hz]. apply parse_int_iff in Hz. econstructor; eauto.
  - intros Hi. inversion Hi; subst. exists z. apply parse_int_iff. assumption.
  - intros [z Hz]. apply parse_int_iff in Hz. econstructor; eauto.
  - intros Hi. inversion Hi; subst. exists z. apply parse_int_iff. assumption.
Qed.
Lemma float_scalar v : scalar v -> exists r, v_float64f E v = Ok r /\ ((exists z, r = Some z) <-> floating E v).
Proof.
  intros H. unfold v_float64f. destruct (v_float64 v) as [f|] eqn:Hf.
  - exists (Some f). split; [reflexivity|]. split; [|eauto]. intros _. destruct v; try discriminate; constructor.
  - destruct (v_int64 v) as [i|] eqn:Hi.
    + eexists. split; [reflexivity|]. split; [|eauto]. intros _. destruct v; try discriminate; constructor.
    + rewrite (scalar_prints v H). cbn [rbind]. eexists. split; [reflexivity|]. split.
      * intros [z Hz]. econstructor; [apply scalar_prints; exact H|exact Hz].
      * intros Hfl. inversion Hfl; subst; try discriminate. rewrite (scalar_prints v H) in *. inversion H0; subst. eauto.
Qed.
Lemma bool_scalar v : scalar v -> ((exists b, v_boolf v = Some b) <-> boolean v).
Proof.
  intros H. destruct v; cbn in H; try contradiction; unfold v_boolf; split; try (intros [z Hz]; discriminate);
    try (intros Hb; inversion Hb; subst; eauto; fail); try (intros; constructor; fail).
  - destruct (bseq_spec s (bs "false")); [constructor; auto|]. destruct (bseq_spec s (bs "true")); [constructor; auto|]. intros [? ?]; discriminate.
  - intros Hb. inversion Hb as [| | |? [-> | ->]|]; cbn; eauto.
  - destruct (bseq_spec s (bs "false")); [constructor; auto|]. destruct (bseq_spec s (bs "true")); [constructor; auto|]. intros [? ?]; discriminate.
  - intros Hb. inversion Hb as [| | | |? [-> | ->]]; cbn; eauto.
  - destruct k; try (intros [? ?]; discriminate); constructor.
Qed.

Lemma check_node g x sc : vstring E (this g) = Ok sc -> sc <> [] -> sc <> bs "!binary" -> scalar (this x) ->
  exists b, checkNode E (Some g) (Some x) = Ok b /\ (b = true <-> suits E sc (this x)).
Proof.
  intros Hg Hne Hnb Hx. unfold checkNode. cbn [ThisString]. rewrite (scalar_prints _ Hx), Hg. cbn [rbind].
  destruct (scalar_typed _ Hx) as (t & Ht & Hta & Hts). rewrite Ht. cbn [rbind].
  destruct sc as [|c sc]; [contradiction|]. destruct (beq_spec c "!") as [->|Hc]; cbn [negb].
  2:{ eexists. split; [reflexivity|]. split.
      - intros Hb. destruct (bseq_spec (sstring E (this x)) (c :: sc)) as [He|]; [|discriminate].
        apply su_literal; [cbn; congruence|]. rewrite (scalar_prints _ Hx), He. reflexivity.
      - intros Hs. inversion Hs; subst; try (cbv in *; congruence). rewrite (scalar_prints _ Hx) in H0.
        injection H0 as H0. destruct (bseq_spec (sstring E (this x)) (c :: sc)); [reflexivity|contradiction]. }
  destruct (bseq_spec ("!"%byte :: sc) (bs "!float")) as [He|Hn1].
  { rewrite He. destruct (float_scalar _ Hx) as (r & -> & Hr). cbn [rbind]. eexists. split; [reflexivity|]. split.
    - intros Hb. apply su_float. apply Hr. destruct r; [eauto|discriminate].
    - intros Hs. inversion Hs; subst; [cbn in H; congruence|]. apply Hr in H. destruct H as [z ->]. reflexivity. }
  destruct (bseq_spec ("!"%byte :: sc) (bs "!int")) as [He|Hn2].
  { rewrite He. destruct (int_scalar _ Hx) as (r & -> & Hr). cbn [rbind]. eexists. split; [reflexivity|]. split.
    - intros Hb. apply su_int. apply Hr. destruct r; [eauto|discriminate].
    - intros Hs. inversion Hs; subst; [cbn in H; congruence|]. apply Hr in H. destruct H as [z ->]. reflexivity. }
  destruct (bseq_spec ("!"%byte :: sc) (bs "!bool")) as [He|Hn3].
  { rewrite He. eexists. split; [reflexivity|]. split.
    - intros Hb. apply su_bool. apply (bool_scalar _ Hx). destruct (v_boolf (this x)); [eauto|discriminate].
    - intros Hs. inversion Hs; subst; [cbn in H; congruence|]. apply (bool_scalar _ Hx) in H. destruct H as [z ->]. reflexivity. }
  destruct (bseq_spec ("!"%byte :: sc) (bs "!string")) as [He|Hn4].
  { rewrite He. eexists. split; [reflexivity|]. split.
    - intros Hb. destruct t; try discriminate. destruct Hts as [Hts _]. destruct (Hts eq_refl) as [s ->]. apply su_string.
    - intros Hs. inversion Hs; subst; [cbn in H; congruence|]. destruct Hts as [_ Hts]. rewrite Hts; [reflexivity|eauto]. }
  destruct (bseq_spec ("!"%byte :: sc) (bs "!binary")) as [He|_]; [contradiction|].
  exists false. split; [reflexivity|]. split; [discriminate|]. intros Hs. inversion Hs; subst; contradiction.
Qed.

Lemma GetAt_nth v xs i : GetAt (Some (Node v xs)) (Z.of_nat i) = Ok (hd None (skipn i xs)).
Proof.
  cbn [GetAt]. destruct (Z.leb_spec (Z.of_nat (List.length xs)) (Z.of_nat i)).
  - cbn [orb]. rewrite skipn_all2 by lia. reflexivity.
  - replace (Z.of_nat i <? 0) with false by lia. cbn [orb]. rewrite Nat2Z.id. f_equal.
    unfold child. clear H. revert xs. induction i as [|i IH]; intros [|x xs]; cbn; auto.
Qed.

Lemma tl_skipn {A} i (xs : list A) : tl (skipn i xs) = skipn (S i) xs.
Proof. revert xs. induction i as [|i IH]; intros [|x xs]; cbn; auto. exact (IH xs). Qed.
Lemma skipn_cons {A} i (xs : list A) d : (i < List.length xs)%nat -> skipn i xs = nth i xs d :: skipn (S i) xs.
Proof. revert xs. induction i as [|i IH]; intros [|x xs] H; cbn in *; try lia; auto. rewrite (IH xs) by lia. reflexivity. Qed.

(** The answer, one way or the other. *)
Definition answers (gs xs : list (option graph)) (r : res (bool * bytes)) : Prop :=
  (r = Ok (true, []) /\ conforms E gs xs) \/
  (exists w y, r = Ok (false, bs "want " ++ w ++ bs ", got " ++ y) /\ misfit E gs xs w y).

Lemma hd_In {A} (l : list (option A)) x : hd None l = Some x -> exists l', l = Some x :: l'.
Proof. destruct l as [|o l]; cbn; intros H; [discriminate|]. subst. eauto. Qed.
Lemma filled_skipn i xs : Forall filled xs -> Forall filled (skipn i xs).
Proof. revert xs. induction i as [|i IH]; intros xs H; [exact H|]. destruct H as [|x xs Hx H]; cbn; auto. Qed.

Lemma check_answers g : usable E (Some g) -> forall x, filled (Some x) -> answers (out g) (out x) (check E g (Some x)).
Proof.
  induction g as [v gs _ IH] using graph_ind'. intros Hu [vx xs] Hx.
  inversion Hu as [|v' k' sc _ _ _ Hk]; subst v' k'. clear Hu. inversion Hx as [|v' k' _ Hxs]; subst v' k'. clear Hx.
  cbn [out check].
  match goal with |- answers gs xs (?f gs 0) => set (loop := f) end.
  enough (H : forall i, answers gs (skipn i xs) (loop gs (Z.of_nat i))) by exact (H 0%nat).
  revert IH Hk. induction gs as [|ns gs IHg]; intros IH Hk i.
  { left. split; [reflexivity|constructor]. }
  specialize (IHg (Forall_inv_tail IH) (Forall_inv_tail Hk)). apply Forall_inv in IH, Hk.
  change (loop (ns :: gs) (Z.of_nat i)) with
    (let* nx := GetAt (Some (Node vx xs)) (Z.of_nat i) in
     let* b := checkNode E ns nx in
     match ns, b with
     | Some _, false =>
         let* w := ThisString E ns in let* y := ThisString E nx in Ok (false, bs "want " ++ w ++ bs ", got " ++ y)
     | _, _ =>
         let* r := match ns with Some s => check E s nx | None => Ok (true, []) end in
         match r with (false, m) => Ok (false, m) | (true, _) => loop gs (Z.of_nat i + 1) end
     end).
  replace (Z.of_nat i + 1) with (Z.of_nat (S i)) by lia. specialize (IHg (S i)).
  rewrite GetAt_nth. cbn [rbind]. assert (Hf := filled_skipn i xs Hxs).
  destruct ns as [s|].
  2:{ cbn [checkNode rbind]. rewrite <- tl_skipn in IHg. destruct IHg as [[-> Hc]|(w & y & -> & Hm)].
      - left. split; [reflexivity|]. constructor. exact Hc.
      - right. exists w, y. split; [reflexivity|]. constructor. exact Hm. }
  inversion Hk as [|vs ks sc' Hsc Hne Hnb Hks]. subst s.
  destruct (hd None (skipn i xs)) as [n|] eqn:Hhd.
  2:{ cbn [checkNode rbind ThisString this]. rewrite Hsc. cbn [rbind]. right. exists sc', []. split; [reflexivity|].
      constructor; [exact Hsc|exact Hhd]. }
  destruct (hd_In _ _ Hhd) as [l Hl]. rewrite Hl in Hf. apply Forall_inv in Hf.
  assert (Hl' : l = skipn (S i) xs) by (rewrite <- tl_skipn, Hl; reflexivity). rewrite <- Hl' in IHg. rewrite Hl.
  assert (Hsn : scalar (this n)) by (inversion Hf; subst; assumption).
  destruct (check_node (Node vs ks) n sc' Hsc Hne Hnb Hsn) as (b & -> & Hb). cbn [rbind]. destruct b.
  - assert (Hsu := proj1 Hb eq_refl). destruct (IH Hk n Hf) as [[-> Hc]|(w & y & -> & Hm)]; cbn [rbind].
    + destruct IHg as [[-> Hc']|(w & y & -> & Hm')].
      * left. split; [reflexivity|]. econstructor; eauto.
      * right. exists w, y. split; [reflexivity|]. eapply mi_after; eauto.
    + right. exists w, y. split; [reflexivity|]. eapply mi_below; eauto.
  - cbn [ThisString this]. rewrite Hsc, (scalar_prints _ Hsn). cbn [rbind]. right. exists sc', (sstring E (this n)).
    split; [reflexivity|]. apply mi_here; [exact Hsc|apply scalar_prints; exact Hsn|]. intros Hs. apply Hb in Hs. discriminate.
Qed.

Lemma misfit_not gs xs w y : misfit E gs xs w y -> ~ conforms E gs xs.
Proof.
  induction 1; intros Hc; inversion Hc; subst; try contradiction; try discriminate; try congruence;
    match goal with A : vstring E ?v = Ok _, B : vstring E ?v = Ok _ |- _ => rewrite A in B; injection B as -> | _ => idtac end; auto.
Qed.
End Facts.
