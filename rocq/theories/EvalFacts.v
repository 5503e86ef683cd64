(** Facts about the evaluation of expressions. *)
From Verif Require Import Base Value Graph GraphSpec GraphFacts TextSpec PathSpec Lexer PathParser PathFacts NumFacts TypesSpec TypesFacts Eval AccessSpec AccessFacts EvalSpec.

(** ** Integer arithmetic *)
Definition op_byte (op : optor) : byte :=
  match op with
  | Mul => "*" | Div => "/" | Mod => "%" | Plus => "+" | Minus => "-" | EqEq => "=" | Ne => "!" | Ge => "+" | Le => "-" | Gt => ">" | Lt => "<"
  | And => "&" | Or => "|" | _ => "="
  end%byte.
Lemma int64_of_wrap z : int64_of z (wrap64 z).
Proof.
  split; [apply wrap64_range|]. unfold wrap64. exists (- ((z + 2 ^ 63) / 2 ^ 64)).
  pose proof (Z.div_mod (z + 2 ^ 63) (2 ^ 64) ltac:(lia)). lia.
Qed.
Lemma int64_of_fun z r r' : int64_of z r -> int64_of z r' -> r = r'.
Proof. unfold int64_of, in64. intros (H1 & k & ->) (H2 & k' & ->). assert (k = k') by lia. subst. reflexivity. Qed.
Lemma truncated_quot a b : b <> 0 -> truncated a b (Z.quot a b) (Z.rem a b).
Proof.
  intros Hb. split; [apply Z.quot_rem'|]. split; [apply Z.rem_bound_abs; exact Hb|].
  destruct (Z.eq_dec (Z.rem a b) 0) as [H|H]; [left; exact H|right]. apply Z.rem_sign_nz; assumption.
Qed.
Lemma truncated_fun a b q r q' r' : truncated a b q r -> truncated a b q' r' -> q = q' /\ r = r'.
Proof.
  intros (H1 & H2 & H3) (H1' & H2' & H3').
  assert (Hr : Z.abs (r - r') < Z.abs b) by (destruct H3, H3'; lia).
  assert (Hb : r' - r = b * (q - q')) by lia.
  assert (q - q' = 0) by (destruct (Z.eq_dec (q - q') 0) as [|Hn]; [assumption|]; exfalso; assert (Z.abs (r - r') = Z.abs b * Z.abs (q - q')) by (rewrite <- Z.abs_mul; lia); nia).
  lia.
Qed.
Lemma in64_rem a b : in64 a -> b <> 0 -> in64 (Z.rem a b).
Proof. unfold in64. intros Ha Hb. pose proof (truncated_quot a b Hb) as (H1 & H2 & H3). pose proof (Z.rem_le (Z.abs a) (Z.abs b)). destruct (Z.eq_dec (Z.rem a b) 0); [lia|].
  assert (Z.abs (Z.rem a b) <= Z.abs a) by (rewrite <- Z.rem_abs by exact Hb; apply Z.rem_le; lia). lia.
Qed.
Definition arith_op (op : optor) : Prop := match op with Plus | Minus | Mul | Div | Mod => True | _ => False end.
Lemma calc_int_spec op a b x : in64 a -> in64 b -> arith a b op x ->
  calc_int (op_byte op) a b = match x with Some z => Ok (VInt KInt64 z) | None => Panic end.
Proof.
  intros Ha Hb H. destruct H as [z H|z H|z H|q r z Ht H|q r Ht|H|H]; cbn [op_byte]; unfold calc_int; cbn.
  1,2,3: rewrite (int64_of_fun _ _ _ (int64_of_wrap _) H); reflexivity.
  - assert (Hb0 : b <> 0) by (destruct Ht as (_ & Ht & _); intros ->; lia). replace (b =? 0) with false by lia.
    destruct (truncated_fun _ _ _ _ _ _ Ht (truncated_quot a b Hb0)) as [-> _]. rewrite (int64_of_fun _ _ _ (int64_of_wrap _) H). reflexivity.
  - assert (Hb0 : b <> 0) by (destruct Ht as (_ & Ht & _); intros ->; lia). replace (b =? 0) with false by lia.
    destruct (truncated_fun _ _ _ _ _ _ Ht (truncated_quot a b Hb0)) as [_ ->]. rewrite wrap64_id by (apply in64_rem; assumption). reflexivity.
  - subst. reflexivity.
  - subst. reflexivity.
Qed.
Lemma arith_total a b op : arith_op op -> exists x, arith a b op x.
Proof.
  destruct op; cbn; intros H; try contradiction.
  - eexists. apply ar_mul, int64_of_wrap.
  - destruct (Z.eq_dec b 0) as [->|Hb]; [exists None; constructor; reflexivity|]. eexists. eapply ar_div; [apply truncated_quot; exact Hb|apply int64_of_wrap].
  - destruct (Z.eq_dec b 0) as [->|Hb]; [exists None; constructor; reflexivity|]. eexists. eapply ar_mod; apply truncated_quot; exact Hb.
  - eexists. apply ar_plus, int64_of_wrap.
  - eexists. apply ar_minus, int64_of_wrap.
Qed.
Lemma arith_in64 a b op z : in64 a -> arith a b op (Some z) -> in64 z.
Proof.
  intros Ha H. inversion H as [? [H1 _]|? [H1 _]|? [H1 _]|? ? ? ? [H1 _]|? ? Ht| |]; subst; try exact H1.
  assert (Hb0 : b <> 0) by (destruct Ht as (_ & Ht & _); intros ->; lia).
  destruct (truncated_fun _ _ _ _ _ _ Ht (truncated_quot a b Hb0)) as [_ ->]. apply in64_rem; assumption.
Qed.
Lemma calc_ints E k k' a b op x : in64 a -> in64 b -> arith a b op x ->
  calc E (VInt k a) (VInt k' b) (op_byte op) = match x with Some z => Ok (VInt KInt64 z) | None => Panic end.
Proof. intros Ha Hb H. unfold calc. cbn [v_int64]. rewrite !wrap64_id by assumption. apply calc_int_spec; assumption. Qed.

(** ** Comparisons *)
Lemma compare_ints E k k' a b op : in64 a -> in64 b -> (prec op = 3) ->
  exists c, compare_ E (VInt k a) (VInt k' b) (op_byte op) = Ok c /\ ordered op a b c.
Proof.
  intros Ha Hb Hop. unfold compare_, v_int64f. cbn [v_int64 rbind]. rewrite !wrap64_id by assumption. eexists; split; [reflexivity|].
  destruct op; cbn in Hop; try discriminate Hop; cbn [op_byte ordered]; unfold cmp_int; cbn; lia.
Qed.
Lemma ordered_fun op a b c c' : ordered op a b c -> ordered op a b c' -> c = c'.
Proof. destruct op; cbn; try contradiction; intros H H'; destruct c, c'; try reflexivity; exfalso; intuition discriminate. Qed.
Lemma text_equal_fun op a b c c' : text_equal op a b c -> text_equal op a b c' -> c = c'.
Proof. destruct op; cbn; try contradiction; intros H H'; destruct c, c'; try reflexivity; exfalso; intuition discriminate. Qed.
Lemma compare_texts E a b op : op = EqEq \/ op = Ne -> exists c, compare_ E (VStr a) (VStr b) (op_byte op) = Ok c /\ text_equal op a b c.
Proof.
  intros [->| ->]; cbn; eexists; (split; [reflexivity|]); [apply bseq_eq|]. rewrite negb_true_iff. apply bseq_neq.
Qed.

(** ** The evaluator on syntax trees *)
Section F.
Variable E : env.
Variable C : calls.

Definition apply_op (op : optor) (i1 i2 : value graph) : res (value graph) :=
  match op with
  | Plus | Minus | Mul | Div | Mod => calc E i1 i2 (op_byte op)
  | EqEq | Ne | Ge | Le | Gt | Lt => let* b := compare_ E i1 i2 (op_byte op) in Ok (VBool b)
  | And | Or => Ok (VBool (logic i1 i2 (op_byte op)))
  | _ => Ok VNil
  end.
Lemma eval_bin op l r f simpl g : 0 < prec op ->
  evalExpression E C (S f) simpl (Some (Node (VStr (op_text op)) [l; r])) g =
  (let* (g, r2) := evalExpression E C f true r g in
   match r2 with
   | EErr e => Ok (g, EVal (VObj e))
   | EVal i2 =>
       let* (g, r1) := evalExpression E C f true l g in
       match r1 with
       | EErr e => Ok (g, EVal (VObj e))
       | EVal i1 => let* v := apply_op op i1 i2 in Ok (g, EVal v)
       end
   end).
Proof.
  intros Hop. cbn [evalExpression]. generalize (evalExpression E C f). intros ev.
  destruct op; cbn in Hop; try lia; unfold eval_body; cbn - [evalBinary calc compare_ logic]; unfold evalBinary, Out_; cbn - [calc compare_ logic];
    (destruct (ev true r g) as [[g1 [i2|e2]]| |]; cbn - [calc compare_ logic]; try reflexivity;
     destruct (ev true l g1) as [[g2 [i1|e1]]| |]; cbn - [calc compare_ logic]; try reflexivity;
     try (destruct (calc _ _ _ _); reflexivity); try (destruct (compare_ _ _ _ _); reflexivity)).
Qed.
(** Failure on the right comes first, for every operator. *)
Lemma eval_bin_right op l r f simpl g : evalExpression E C f true r g = Panic ->
  evalExpression E C (S f) simpl (Some (Node (VStr (op_text op)) [l; r])) g = Panic.
Proof.
  cbn [evalExpression]. generalize (evalExpression E C f). intros ev H.
  destruct op; unfold eval_body; cbn - [evalBinary]; unfold evalBinary, Out_; cbn; rewrite H; reflexivity.
Qed.

Lemma isNumber_format z : isNumber (format_int z) = true.
Proof.
  unfold format_int. destruct (Z.ltb_spec z 0) as [H|H].
  - destruct (format_nat_spec (- z) ltac:(lia)) as ((Hne & Hd) & _). destruct (format_nat (- z)) as [|c s]; [congruence|]. inversion Hd as [|? ? Hc _]; subst.
    destruct (digit_not_space c Hc) as (_ & _ & H3). unfold isNumber. rewrite H3. reflexivity.
  - destruct (format_nat_spec z ltac:(lia)) as ((Hne & Hd) & _). destruct (format_nat z) as [|c s]; [congruence|]. inversion Hd as [|? ? Hc _]; subst.
    destruct (digit_not_space c Hc) as (_ & _ & H3). unfold isNumber. rewrite H3. reflexivity.
Qed.
Lemma eval_format f simpl z k g : in64 z -> evalExpression E C (S f) simpl (Some (Node (VStr (format_int z)) k)) g = Ok (g, EVal (VInt KInt64 z)).
Proof.
  intros Hz. cbn [evalExpression]. unfold eval_body. cbn [this ThisString vstring sstring rbind].
  pose proof (isNumber_format z) as Hn. pose proof (number_format E (VStr (format_int z)) z Hz (or_introl eq_refl)) as Hf.
  destruct (format_int z) as [|c s]; [discriminate Hn|]. rewrite Hn, Hf. reflexivity.
Qed.

(** Paths of ordinary names *)
Lemma ordinary_not s : ordinary s -> bseq s (bs "_len") = false /\ bseq s (bs "_this") = false /\ bseq s (bs "_thisString") = false /\ bseq s (bs "_string") = false /\ bseq s (bs "_json") = false.
Proof.
  intros H. unfold ordinary in H. repeat split; apply bseq_neq; intros ->; apply H; cbn; tauto.
Qed.
Lemma eval_els_walk ev p simpl es m n : cwalk E es m n -> forall ns, es = map Name ns -> Forall (name E) ns -> Forall ordinary ns -> forall prev k g,
  eval_els E C ev p simpl false (gforest (map elem_tree es)) (Some m) prev k g = Ok (g, EVal (if simpl then simplify (Some n) else VPtr (Some n))).
Proof.
  induction 1 as [m|e s es m i c n Hk Hf Hc _ IH|d es m c n Hd Hc _ IH]; intros ns He Hns Ho prev k g.
  - reflexivity.
  - destruct ns as [|s' ns]; [discriminate|]. injection He as -> ->. injection Hk as ->. inversion Hns as [|? ? Hs Hns']; subst. inversion Ho as [|? ? Hs' Ho']; subst.
    destruct (key_unmarked E (Name s) s Hs I eq_refl) as [Hm _]. unfold marked in Hm. rewrite !orb_false_iff in Hm. destruct Hm as [[[M1 M2] M3] M4].
    destruct (ordinary_not s Hs') as (O1 & O2 & O3 & O4 & O5).
    cbn [map gforest elem_tree gtree]. cbn [eval_els]. cbn [ThisString this vstring sstring rbind]. rewrite M1, M2, M3, M4, O1, O2, O3, O4, O5.
    rewrite (Node_found E _ _ _ _ Hf Hc). cbn [rbind]. apply (IH ns eq_refl Hns' Ho').
  - destruct ns as [|s' ns]; discriminate.
Qed.
Lemma eval_path f ns m n v g : ns <> [] -> Forall (name E) ns -> Forall ordinary ns -> cwalk E (map Name ns) m n -> out n = [Some (Node v [])] -> g = m ->
  evalExpression E C (S f) true (Some (gtree (operand_tree (OPath (map Name ns))))) g = Ok (g, EVal v).
Proof.
  intros Hne Hns Ho Hw Hn ->. cbn [evalExpression operand_tree]. unfold eval_body.
  change (gtree (T (bs "!p") (map elem_tree (map Name ns)))) with (Node (VStr TypePath) (gforest (map elem_tree (map Name ns)))).
  cbn - [evalPath gforest]. unfold evalPath. cbn [out].
  pose proof (eval_els_walk (evalExpression E C f) (Node (VStr TypePath) (gforest (map elem_tree (map Name ns)))) true (map Name ns) m n Hw ns eq_refl Hns Ho None [] m) as H.
  destruct ns as [|s ns]; [congruence|]. destruct n as [t o]. cbn [out] in Hn. subst o. exact H.
Qed.
Lemma eval_string f simpl q s g : evalExpression E C (S f) simpl (Some (gtree (operand_tree (OStr q s)))) g = Ok (g, EVal (VStr s)).
Proof. reflexivity. Qed.

Lemma den_in64 g t x : den E g t x -> forall z, x = Some (DI z) -> in64 z.
Proof.
  induction 1 as [z0 Hz|q s|ns n v d Hne Hns Ho Hw Hn Hh|op l r a b x Hl IHl Hr IHr Ha|l r a b Hl _ Hr _|op l r a b c Hl IHl Hr IHr Ho|op l r a b c Hl _ Hr _ Ho|l r a b Hl _ Hr _|l r a b Hl _ Hr _|op l r Hr _|op l r y Hp Hr _ Hl _]; intros z Hx; try discriminate Hx.
  - injection Hx as <-. exact Hz.
  - injection Hx as ->. apply Hh.
  - destruct x as [y|]; [|discriminate]. injection Hx as ->. eapply arith_in64; [apply IHl; reflexivity|exact Ha].
Qed.
Lemma eval_den g t x : whole E g -> den E g t x -> forall f, (height t <= f)%nat ->
  match x with
  | Some d => exists v, evalExpression E C f true (Some (gtree (etree_tree t))) g = Ok (g, EVal v) /\ holds v d
  | None => evalExpression E C f true (Some (gtree (etree_tree t))) g = Panic
  end.
Proof.
  intros Hg H. induction H as [z0 Hz|q s|ns n v d Hne Hns Ho Hw Hn Hh|op l r a b x Hl IHl Hr IHr Ha|l r a b Hl IHl Hr IHr|op l r a b c Hl IHl Hr IHr Ho|op l r a b c Hl IHl Hr IHr Ho|l r a b Hl IHl Hr IHr|l r a b Hl IHl Hr IHr|op l r Hr IHr|op l r y Hp Hr IHr Hl IHl]; intros f Hf; cbn [height] in Hf; (destruct f as [|f]; [lia|]).
  - eexists; split; [apply eval_format; exact Hz|]. split; [exact Hz|eexists; reflexivity].
  - eexists; split; [apply eval_string|reflexivity].
  - exists v. split; [|exact Hh]. apply (eval_path f ns g n v g); try assumption; [|reflexivity]. apply walk_cwalk; assumption.
  - assert (Hop : 0 < prec op) by (destruct Ha; cbn; lia).
    destruct (IHl f ltac:(lia)) as (v1 & H1 & Ha1 & k1 & ->). destruct (IHr f ltac:(lia)) as (v2 & H2 & Hb1 & k2 & ->).
    cbn [etree_tree gtree map]. rewrite eval_bin by exact Hop. fold gtree. rewrite H2. cbn [rbind]. rewrite H1. cbn [rbind].
    assert (Happ : apply_op op (VInt k1 a) (VInt k2 b) = match x with Some z => Ok (VInt KInt64 z) | None => Panic end).
    { rewrite <- (calc_ints E k1 k2 a b op x Ha1 Hb1 Ha). destruct Ha; reflexivity. }
    rewrite Happ. destruct x as [z|]; cbn [option_map rbind]; [|reflexivity]. eexists; split; [reflexivity|]. split; [|eexists; reflexivity]. apply (arith_in64 a b op z Ha1 Ha).
  - destruct (IHl f ltac:(lia)) as (v1 & H1 & ->). destruct (IHr f ltac:(lia)) as (v2 & H2 & ->).
    cbn [etree_tree gtree map]. rewrite eval_bin by (cbn; lia). rewrite H2. cbn [rbind]. rewrite H1. cbn [rbind]. exists (VStr (a ++ b)). split; [reflexivity|]. cbn [holds]. reflexivity.
  - assert (Hop : prec op = 3) by (destruct op; try contradiction; reflexivity).
    destruct (IHl f ltac:(lia)) as (v1 & H1 & Ha1 & k1 & ->). destruct (IHr f ltac:(lia)) as (v2 & H2 & Hb1 & k2 & ->).
    cbn [etree_tree gtree map]. rewrite eval_bin by lia. rewrite H2. cbn [rbind]. rewrite H1. cbn [rbind].
    destruct (compare_ints E k1 k2 a b op Ha1 Hb1 Hop) as (c' & Hc & Ho'). rewrite (ordered_fun _ _ _ _ _ Ho Ho').
    exists (VBool c'). split; [|reflexivity]. destruct op; try contradiction; cbn [apply_op]; rewrite Hc; reflexivity.
  - assert (Hop : op = EqEq \/ op = Ne) by (destruct op; try contradiction; auto). assert (Hp : 0 < prec op) by (destruct Hop; subst; cbn; lia).
    destruct (IHl f ltac:(lia)) as (v1 & H1 & ->). destruct (IHr f ltac:(lia)) as (v2 & H2 & ->).
    cbn [etree_tree gtree map]. rewrite eval_bin by exact Hp. rewrite H2. cbn [rbind]. rewrite H1. cbn [rbind].
    destruct (compare_texts E a b op Hop) as (c' & Hc & Ho'). rewrite (text_equal_fun _ _ _ _ _ Ho Ho').
    exists (VBool c'). split; [|reflexivity]. destruct op; try contradiction; cbn [apply_op]; rewrite Hc; reflexivity.
  - destruct (IHl f ltac:(lia)) as (v1 & H1 & ->). destruct (IHr f ltac:(lia)) as (v2 & H2 & ->).
    cbn [etree_tree gtree map]. rewrite eval_bin by (cbn; lia). rewrite H2. cbn [rbind]. rewrite H1. exists (VBool (a && b)). split; [reflexivity|]. cbn [holds]. reflexivity.
  - destruct (IHl f ltac:(lia)) as (v1 & H1 & ->). destruct (IHr f ltac:(lia)) as (v2 & H2 & ->).
    cbn [etree_tree gtree map]. rewrite eval_bin by (cbn; lia). rewrite H2. cbn [rbind]. rewrite H1. exists (VBool (a || b)). split; [reflexivity|]. cbn [holds]. reflexivity.
  - cbn [etree_tree gtree map]. apply eval_bin_right. apply IHr. lia.
  - specialize (IHl f ltac:(lia)). destruct (IHr f ltac:(lia)) as (v2 & H2 & _).
    cbn [etree_tree gtree map]. rewrite eval_bin by exact Hp. rewrite H2. cbn [rbind]. rewrite IHl. reflexivity.
Qed.

(** Eval on what NewExpression returns *)
Lemma Eval_expression f t g : Eval E C (S f) g (Some (Node (VStr TypeExpression) [Some (gtree t)])) = evalExpression E C f true (Some (gtree t)) g.
Proof. reflexivity. Qed.
End F.
