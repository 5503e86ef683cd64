(** C68: gtemplate without data. *)
From Verif Require Import Base Value Event EventSpec Lexer TextParser Stream Buffer TextSpec Graph GraphSpec GraphFacts Emit PathParser PathSpec PathFacts Eval Template TemplateSpec TemplateFacts TemplateProc TypesFacts EvalSpec Panics Cmd CmdSpec CmdFacts TextDoc TextFacts EvalNil Samples P_Text P_Access P_Cmd P_Template.

Local Notation len l := (Z.of_nat (List.length l)).

(** ** What is printed: the texts, and of a conditional what stands after $else *)
Definition a_path (o : operand) : Prop := match o with OPath _ => True | _ => False end.
(** A path, one operator with a path on one of its sides (on the right side if it assigns), or such expressions with && and || between them *)
Fixpoint about (t : etree) : Prop :=
  match t with
  | Leaf o => a_path o
  | Bin p l r =>
      match l, r with
      | Leaf a, Leaf b => a_path b \/ ~ assigning p /\ a_path a
      | _, _ => (p = And \/ p = Or) /\ about l /\ about r
      end
  end.
Definition about_data (e : expr) : Prop := about (etr e).
(** The same, or a constant *)
Definition harmless (e : expr) : Prop := about (etr e) \/ exists o, etr e = Leaf o.
Fixpoint dataless (t : tmpl) : Prop :=
  match t with
  | TEnd => True
  | TText _ t | TDollar t | TVar _ t | TBraces _ t | TBreak t => dataless t
  | TExpr e t => harmless e /\ dataless t
  | TIf e b r t => about_data e /\ dataless b /\ dataless_tail r /\ dataless t
  | TFor _ e b t => harmless e /\ dataless b /\ dataless t
  end
with dataless_tail (r : tail) : Prop :=
  match r with
  | Fi => True
  | Else b => dataless b
  | ElseIf e b r => about_data e /\ dataless b /\ dataless_tail r
  end.
Fixpoint bare (t : tmpl) : bytes :=
  match t with
  | TEnd | TBreak _ => []
  | TText s t => s ++ bare t
  | TDollar t => bs "$" ++ bare t
  | TVar _ t | TBraces _ t | TExpr _ t | TFor _ _ _ t => bare t
  | TIf _ _ r t => bare_tail r ++ bare t
  end
with bare_tail (r : tail) : bytes :=
  match r with Fi => [] | Else b => bare b | ElseIf _ _ r => bare_tail r end.

Section Proofs.
Variable E : env.

(** ** Expressions *)
Lemma number_ok s : number_text s -> isNumber s = true /\ exists v, number E (VStr s) = Ok v /\ forall g, v <> VPtr g.
Proof.
  intros H. assert (Hn : isNumber s = true).
  { destruct H as (sg & a & b & -> & Hsg & (Ha & Hd) & _). destruct a as [|c a]; [congruence|]. inversion Hd as [|? ? Hc _]; subst.
    assert (K : is_digit c = true) by (destruct (digit_not_space c Hc) as (_ & _ & K); exact K).
    destruct Hsg as [-> | ->]; cbn; rewrite K; reflexivity. }
  split; [exact Hn|]. pose proof (np_number E s [] Hn) as Hp. cbn [this] in Hp. unfold number in *. cbn [v_float64 v_int64 vstring sstring rbind] in *. destruct s as [|c s]; [discriminate|].
  destruct (isInteger (c :: s)) as [[|]| |] eqn:Ei; cbn [rbind] in *.
  - eexists. split; [reflexivity|]. destruct (parse_int _); discriminate.
  - eexists. split; [reflexivity|]. destruct (parse_float _ _); discriminate.
  - destruct (Hp eq_refl).
  - exfalso. unfold isInteger in Ei. destruct (drop_while is_space (c :: s)) as [|c0 r]; [discriminate|]. destruct (if beq c0 "-" then r else c0 :: r); [discriminate|]. destruct (is_digit _); discriminate.
Qed.
Lemma nil_operand n o : operand_ok E o -> exists r, evalExpression_nil E (S n) true (Some (gtree (operand_tree o))) = Ok r /\
  (a_path o -> r = EErr ErrInvalidArgs) /\ (~ a_path o -> exists v, r = EVal v /\ forall g, v <> VPtr g).
Proof.
  intros Ho. destruct o as [s|q s|es]; cbn [operand_tree evalExpression_nil a_path]; unfold eval_nil_body.
  - change (this (gtree (T s []))) with (@VStr graph s). change (ThisString E (Some (gtree (T s [])))) with (Ok s). cbn [rbind].
    destruct (number_ok s Ho) as (Hn & v & Hv & Hg). rewrite Hn, Hv. destruct s; [discriminate|]. cbn [rbind]. eexists. split; [reflexivity|]. split; [intros []|]. intros _. exists v. auto.
  - eexists. split; [reflexivity|]. split; [intros []|]. intros _. eexists. split; [reflexivity|]. discriminate.
  - eexists. split; [reflexivity|]. split; [reflexivity|]. intros H. destruct (H I).
Qed.

(** Neither true nor a graph *)
Definition void (r : eres) : Prop := match r with EErr _ => True | EVal v => v_boolf v <> Some true /\ forall g, v <> VPtr g end.
Lemma nil_bin n p l r : evalExpression_nil E (S n) true (Some (gtree (etree_tree (Bin p l r)))) =
  let* v := evalBinary_nil E (evalExpression_nil E n) (gtree (etree_tree (Bin p l r))) in Ok (EVal v).
Proof. destruct p; reflexivity. Qed.
Lemma nil_binary n p l r : (forall x, evalExpression_nil E n true (Some (gtree (etree_tree r))) = Ok x -> (exists e, x = EErr e) ->
    evalBinary_nil E (evalExpression_nil E n) (gtree (etree_tree (Bin p l r))) = Ok (VObj match x with EErr e => e | _ => ErrInvalidArgs end)) /\
  (forall y x e, ~ assigning p -> evalExpression_nil E n true (Some (gtree (etree_tree r))) = Ok (EVal y) -> evalExpression_nil E n true (Some (gtree (etree_tree l))) = Ok x -> x = EErr e ->
    evalBinary_nil E (evalExpression_nil E n) (gtree (etree_tree (Bin p l r))) = Ok (VObj e)).
Proof.
  split.
  - intros x Hx (e & ->). unfold evalBinary_nil. change (Out_ (gtree (etree_tree (Bin p l r))) 0) with (Ok (Some (gtree (etree_tree l)))).
    change (Out_ (gtree (etree_tree (Bin p l r))) 1) with (Ok (Some (gtree (etree_tree r)))). cbn [rbind]. rewrite Hx. reflexivity.
  - intros y x e Hp Hy Hx ->. unfold evalBinary_nil. change (Out_ (gtree (etree_tree (Bin p l r))) 0) with (Ok (Some (gtree (etree_tree l)))).
    change (Out_ (gtree (etree_tree (Bin p l r))) 1) with (Ok (Some (gtree (etree_tree r)))). cbn [rbind]. rewrite Hy. cbn [rbind].
    change (ThisString E (Some (gtree (etree_tree (Bin p l r))))) with (Ok (op_text p)). cbn [rbind].
    replace (existsb (bseq (op_text p)) _) with false by (destruct p; try reflexivity; destruct (Hp I)). rewrite Hx. reflexivity.
Qed.
Lemma nil_about t : Forall (operand_ok E) (first t :: map snd (others t)) -> about t -> forall n, (height t <= n)%nat ->
  exists r, evalExpression_nil E n true (Some (gtree (etree_tree t))) = Ok r /\ void r.
Proof.
  induction t as [o|p l IHl r IHr]; intros Ho Ha n Hn; cbn [height] in Hn; (destruct n as [|n]; [lia|]).
  - cbn [first others map] in Ho. inversion Ho as [|? ? Ho' _]; subst. destruct (nil_operand n o Ho') as (x & Hx & H1 & _). cbn [about] in Ha. exists x. split; [exact Hx|]. rewrite (H1 Ha). exact I.
  - cbn [first others] in Ho. inversion Ho as [|? ? Hl0 Ho']; subst. rewrite map_app in Ho'. cbn [map snd] in Ho'. apply Forall_app in Ho'. destruct Ho' as (Hl1 & Hr). assert (Hl : Forall (operand_ok E) (first l :: map snd (others l))) by (constructor; assumption).
    rewrite nil_bin. cbn [about] in Ha.
    assert (K : (exists a b, l = Leaf a /\ r = Leaf b /\ (a_path b \/ ~ assigning p /\ a_path a)) \/ ((p = And \/ p = Or) /\ about l /\ about r)) by (destruct l, r; eauto 10).
    destruct K as [(a & b & -> & -> & Hab)|(Hp & Hal & Har)].
    + destruct n as [|n]; [cbn [height] in Hn; lia|]. cbn [first] in *. inversion Hr as [|? ? Hb _]; subst.
      destruct (nil_operand n a Hl0) as (x & Hx & Hx1 & _). destruct (nil_operand n b Hb) as (y & Hy & Hy1 & Hy2).
      destruct (nil_binary (S n) p (Leaf a) (Leaf b)) as (B1 & B2). cbn [etree_tree] in *.
      destruct y as [y|e].
      * destruct Hab as [H|(Hp & H)]; [discriminate (Hy1 H)|]. rewrite (B2 y x ErrInvalidArgs Hp Hy Hx (Hx1 H)). cbn [rbind]. eexists. split; [reflexivity|]. split; discriminate.
      * rewrite (B1 (EErr e) Hy) by eauto. cbn [rbind]. eexists. split; [reflexivity|]. split; discriminate.
    + assert (Hna : ~ assigning p) by (destruct Hp as [-> | ->]; intros []). destruct (IHl Hl Hal n ltac:(lia)) as (x & Hx & Vx). destruct (IHr Hr Har n ltac:(lia)) as (y & Hy & Vy).
      destruct (nil_binary n p l r) as (B1 & B2). destruct y as [y|e].
      2:{ rewrite (B1 (EErr e) Hy) by eauto. cbn [rbind]. eexists. split; [reflexivity|]. split; discriminate. }
      destruct x as [x|e].
      2:{ rewrite (B2 y (EErr e) e Hna Hy Hx eq_refl). cbn [rbind]. eexists. split; [reflexivity|]. split; discriminate. }
      clear B1 B2. unfold evalBinary_nil. change (Out_ (gtree (etree_tree (Bin p l r))) 0) with (Ok (Some (gtree (etree_tree l)))).
      change (Out_ (gtree (etree_tree (Bin p l r))) 1) with (Ok (Some (gtree (etree_tree r)))). cbn [rbind]. rewrite Hy. cbn [rbind].
      change (ThisString E (Some (gtree (etree_tree (Bin p l r))))) with (Ok (op_text p)). cbn [rbind].
      replace (existsb (bseq (op_text p)) _) with false by (destruct Hp as [-> | ->]; reflexivity). rewrite Hx. cbn [rbind]. destruct Vx as (Vx & _), Vy as (Vy & _).
      assert (L : forall op, logic x y op = false).
      { intros op. unfold logic. destruct (v_boolf x) as [[|]|]; [congruence| |reflexivity]. destruct (v_boolf y) as [[|]|]; [congruence| |reflexivity]. destruct (beq op "&"); [reflexivity|]. destruct (beq op "|"); reflexivity. }
      destruct Hp as [-> | ->]; cbn - [logic]; rewrite L; (eexists; split; [reflexivity|split; discriminate]).
Qed.

Lemma height_others t : (height t <= 2 + List.length (others t))%nat.
Proof. induction t; cbn [height others]; [lia|]. rewrite app_length. cbn [List.length]. lia. Qed.
Lemma steps_length l : (List.length l <= List.length (flat_map step_text l))%nat.
Proof. induction l as [|x l IH]; [reflexivity|]. cbn [flat_map List.length]. rewrite app_length. assert (K : (List.length (step_text x) = List.length (before x) + (List.length (op_text (oper x)) + (List.length (PathSpec.after x) + List.length (operand_text (rand x)))))%nat) by (unfold step_text; rewrite !app_length; reflexivity). assert (1 <= List.length (op_text (oper x)))%nat by (destruct (oper x); cbn; lia). lia. Qed.
Lemma expr_height e : expr_ok E e -> (height (etr e) <= 2 + List.length (expr_src e))%nat.
Proof.
  intros (_ & _ & _ & H & _). pose proof (height_others (etr e)). rewrite H, map_length in H0. pose proof (steps_length (steps e)). unfold expr_src, expr_text. rewrite app_length. lia.
Qed.
Lemma expr_operands e : expr_ok E e -> Forall (operand_ok E) (first (etr e) :: map snd (others (etr e))).
Proof.
  intros (H1 & H2 & H3 & H4 & _). rewrite H3, H4. constructor; [exact H1|]. rewrite map_map. cbn [snd]. apply Forall_map. eapply Forall_impl; [|exact H2]. intros a (_ & _ & H & _). exact H.
Qed.

Variable f : nat.
Lemma nil_texpr e : expr_ok E e -> harmless e -> (List.length (expr_src e) + 3 <= f)%nat -> exists r, Eval_nil E f (Some (gtree (texpr e))) = Ok r /\ (forall g, r <> EVal (VPtr g)).
Proof.
  intros He Hh Hf. pose proof (expr_height e He) as Ht. pose proof (expr_operands e He) as Ho. destruct f as [|f']; [lia|].
  change (Eval_nil E (S f') (Some (gtree (texpr e)))) with (evalExpression_nil E f' true (Some (gtree (etree_tree (etr e))))).
  destruct Hh as [Ha|(o & Eo)].
  - destruct (nil_about (etr e) Ho Ha f' ltac:(lia)) as (r & Hr & Hv). exists r. split; [exact Hr|]. intros g ->. destruct Hv as (_ & Hv). apply (Hv g eq_refl).
  - rewrite Eo in *. cbn [first others map] in Ho. inversion Ho as [|? ? Ho' _]; subst. cbn [height] in Ht. destruct f' as [|f']; [lia|]. destruct (nil_operand f' o Ho') as (r & Hr & H1 & H2). exists r. split; [exact Hr|].
    intros g ->. destruct o; cbn [a_path] in *; [destruct (H2 (fun x => x)) as (v & K & Hv)|destruct (H2 (fun x => x)) as (v & K & Hv)|discriminate (H1 I)]; injection K as <-; exact (Hv g eq_refl).
Qed.
Lemma nil_cond e : expr_ok E e -> about_data e -> (List.length (expr_src e) + 3 <= f)%nat -> evalBool_nil E f (Some (gtree (texpr e))) = Ok false.
Proof.
  intros He Ha Hf. pose proof (expr_height e He) as Ht. pose proof (expr_operands e He) as Ho. destruct f as [|f']; [lia|].
  unfold evalBool_nil, evalBool_nil_with. change (Eval_nil_with E _ (Some (gtree (texpr e)))) with (evalExpression_nil E f' true (Some (gtree (etree_tree (etr e))))).
  destruct (nil_about (etr e) Ho Ha f' ltac:(lia)) as (r & Hr & Hv). rewrite Hr. cbn [rbind]. destruct r as [v|]; [|reflexivity]. destruct Hv as (Hv & _). destruct (v_boolf v) as [[|]|]; congruence.
Qed.

(** ** Templates *)
Lemma pn_nil_eq rec n l yes : process_nodes_nil E f rec (Some n :: l) yes =
      let go (yes : bool) (x : res bytes) : res (bytes * bool) :=
        let* o := x in
        let* (o', brk) := process_nodes_nil E f rec l yes in
        Ok (o ++ o', brk) in
      let* s := ThisString E (Some n) in
      if bseq s TypePath then
        go yes (let* r := Eval_nil E f (Some n) in text_of E (match r with EVal v => v | EErr _ => VNil end))
      else if bseq s TypeExpression then
        go yes (let* _ := Eval_nil E f (Some n) in Ok [])
      else if bseq s TypeIf || (bseq s TypeElseIf && negb yes) then
        let* (o, yes) := do_if_nil E f rec n in go yes (Ok o)
      else if bseq s TypeElseIf then go yes (Ok [])
      else if bseq s TypeElse then
        go yes (if yes then Ok [] else
                let* t := GetAt (Some n) 0 in
                let* (o, _) := rec t in Ok o)
      else if bseq s TypeFor then go yes (do_for_nil E f n)
      else if bseq s TypeBreak then Ok ([], true)
      else go yes (Ok s).
Proof. reflexivity. Qed.
Lemma pn_nil_text rec s l yes o b : ~ In s markers -> process_nodes_nil E f rec l yes = Ok (o, b) -> process_nodes_nil E f rec (Some (gtree (T s [])) :: l) yes = Ok (s ++ o, b).
Proof.
  intros H Hl. rewrite pn_nil_eq. cbn zeta. change (ThisString E (Some (gtree (T s [])))) with (Ok s). cbn [rbind]. rewrite Hl. cbn [markers In] in H.
  unfold TypePath, TypeExpression, TypeIf, TypeElseIf, TypeElse, TypeFor, TypeBreak.
  repeat (match goal with |- context [bseq s ?x] => let K := fresh in destruct (bseq s x) eqn:K; [apply bseq_eq in K; subst; exfalso; tauto|clear K] end). reflexivity.
Qed.
Lemma pn_nil_path rec k l yes o b : (1 <= f)%nat -> process_nodes_nil E f rec l yes = Ok (o, b) -> process_nodes_nil E f rec (Some (gtree (T (bs "!p") k)) :: l) yes = Ok (o, b).
Proof.
  intros Hf Hl. rewrite pn_nil_eq. cbn zeta. change (ThisString E (Some (gtree (T (bs "!p") k)))) with (Ok (bs "!p")). cbn [rbind]. change (bseq (bs "!p") TypePath) with true. cbn iota.
  destruct f as [|f']; [lia|]. change (Eval_nil E (S f') (Some (gtree (T (bs "!p") k)))) with (@Ok eres (EErr ErrInvalidArgs)). cbn [rbind]. change (text_of E VNil) with (@Ok bytes []). cbn [rbind]. rewrite Hl. reflexivity.
Qed.
Lemma pn_nil_if rec k e b l yes : k = TypeIf \/ k = TypeElseIf /\ yes = false -> evalBool_nil E f (Some (gtree (texpr e))) = Ok false ->
  process_nodes_nil E f rec (Some (gtree (T k [T (bs "!a") [texpr e]; T (bs "!t") b])) :: l) yes = process_nodes_nil E f rec l false.
Proof.
  intros Hk He. rewrite pn_nil_eq. cbn zeta. change (ThisString E (Some (gtree (T k _)))) with (Ok k). cbn [rbind].
  assert (Hc : bseq k TypePath = false /\ bseq k TypeExpression = false /\ bseq k TypeIf || (bseq k TypeElseIf && negb yes) = true).
  { destruct Hk as [->|[-> ->]]; repeat split; reflexivity. }
  destruct Hc as (-> & -> & ->). change (do_if_nil E f rec (gtree (T k [T (bs "!a") [texpr e]; T (bs "!t") b]))) with
    (let* yes := evalBool_nil E f (Some (gtree (texpr e))) in if yes : bool then let* (o, _) := rec (Some (gtree (T (bs "!t") b))) in Ok (o, true) else Ok ([], false)).
  rewrite He. cbn [rbind app]. destruct (process_nodes_nil E f rec l false) as [[o brk]| |]; reflexivity.
Qed.

Lemma nil_template : (forall t, wf E t -> dataless t -> (List.length (source t) + 3 <= f)%nat -> forall d yes, (depth t <= S d)%nat ->
     process_nodes_nil E f (process_nil E f d) (gforest (nodes t)) yes = Ok (bare t, broken t)) /\
  (forall r, wf_tail E r -> dataless_tail r -> (List.length (tail_source r) + 3 <= f)%nat -> forall d l o b, (tail_depth r <= S d)%nat ->
     (forall yes, process_nodes_nil E f (process_nil E f d) l yes = Ok (o, b)) ->
     process_nodes_nil E f (process_nil E f d) (gforest (tail_nodes r) ++ l) true = Ok (o, b) /\
     process_nodes_nil E f (process_nil E f d) (gforest (tail_nodes r) ++ l) false = Ok (bare_tail r ++ o, b)).
Proof.
  apply tmpl_tail_ind; cbn [wf wf_tail nodes tail_nodes source tail_source dataless dataless_tail bare bare_tail depth tail_depth broken].
  - reflexivity.
  - intros s t IH ((_ & _ & H) & _ & Ht) Hd Hf d yes Hp. repeat rewrite app_length in Hf. rewrite gforest_cons. apply pn_nil_text; [exact H|]. apply IH; auto; lia.
  - intros t IH Ht Hd Hf d yes Hp. repeat rewrite app_length in Hf. rewrite gforest_cons. apply pn_nil_text; [cbn; intuition discriminate|]. apply IH; auto; lia.
  - intros es t IH (_ & _ & Ht) Hd Hf d yes Hp. repeat rewrite app_length in Hf. rewrite gforest_cons. apply pn_nil_path; [lia|]. apply IH; auto; lia.
  - intros es t IH (_ & Ht) Hd Hf d yes Hp. repeat rewrite app_length in Hf. rewrite gforest_cons. apply pn_nil_path; [lia|]. apply IH; auto; lia.
  - intros e t IH (He & Ht) (Hh & Hd) Hf d yes Hp. repeat rewrite app_length in Hf. rewrite gforest_cons, pn_nil_eq. cbn zeta. change (ThisString E (Some (gtree (texpr e)))) with (Ok (bs "!e")). cbn [rbind].
    change (bseq (bs "!e") TypePath) with false. change (bseq (bs "!e") TypeExpression) with true. cbn iota. destruct (nil_texpr e He Hh ltac:(lia)) as (r & Hr & _). rewrite Hr. cbn [rbind].
    rewrite IH by (auto; lia). reflexivity.
  - intros e b IHb r IHr t IHt (He & _ & Hb & Hr & _ & Ht) (Ha & Hdb & Hdr & Hdt) Hf d yes Hp. repeat rewrite app_length in Hf. rewrite gforest_cons, gforest_app.
    rewrite pn_nil_if; [|left; reflexivity|apply nil_cond; [exact He|exact Ha|lia]].
    apply (IHr Hr Hdr ltac:(lia) d (gforest (nodes t)) (bare t) (broken t) ltac:(lia)). intros y. apply IHt; auto; lia.
  - intros x e b IHb t IHt (Hx & He & _ & Hb & _ & Ht) (Hh & Hdb & Hdt) Hf d yes Hp. repeat rewrite app_length in Hf. rewrite gforest_cons, pn_nil_eq. cbn zeta.
    change (ThisString E (Some (gtree (T (bs "!for") _)))) with (Ok (bs "!for")). cbn [rbind].
    change (bseq (bs "!for") TypePath) with false. change (bseq (bs "!for") TypeExpression) with false. change (bseq (bs "!for") TypeIf) with false.
    change (bseq (bs "!for") TypeElseIf) with false. change (bseq (bs "!for") TypeElse) with false. change (bseq (bs "!for") TypeFor) with true. cbn [orb andb]. cbn iota.
    destruct (nil_texpr e He Hh ltac:(lia)) as (r & Hr & Hg).
    assert (K : do_for_nil E f (gtree (T (bs "!for") [T (bs "!a") [texpr (var_expr x); texpr e]; T (bs "!t") (nodes b)])) = Ok []).
    { unfold do_for_nil. change (GetAt (Some (gtree (T (bs "!for") _))) 0) with (Ok (Some (gtree (T (bs "!a") [texpr (var_expr x); texpr e])))). cbn [rbind].
      change (GetAt (Some (gtree (T (bs "!a") _))) 1) with (Ok (Some (gtree (texpr e)))). cbn [rbind]. rewrite Hr. cbn [rbind]. destruct r as [[| | | | | | |q| | |]|]; try reflexivity. destruct (Hg q eq_refl). }
    rewrite K. cbn [rbind]. rewrite IHt by (auto; lia). reflexivity.
  - reflexivity.
  - intros _ _ _ d l o b _ H. split; apply H.
  - intros b IH (_ & Hb) Hd Hf d l o brk Hp H. repeat rewrite app_length in Hf.
    assert (He : forall yes, process_nodes_nil E f (process_nil E f d) (gforest [T (bs "!else") [T (bs "!t") (nodes b)]] ++ l) yes =
      let* o := (if yes then Ok [] else let* (o, _) := process_nil E f d (Some (gtree (T (bs "!t") (nodes b)))) in Ok o) in
      let* (o', brk) := process_nodes_nil E f (process_nil E f d) l yes in Ok (o ++ o', brk)) by reflexivity.
    split; rewrite He.
    + cbn [rbind]. rewrite H. reflexivity.
    + pose proof (depth_pos b). destruct d as [|d]; [lia|].
      change (process_nil E f (S d) (Some (gtree (T (bs "!t") (nodes b))))) with (process_nodes_nil E f (process_nil E f d) (gforest (nodes b)) false).
      rewrite IH by (auto; lia). cbn [rbind]. rewrite H. reflexivity.
  - intros e b IHb r IHr (He & _ & Hb & Hr) (Ha & Hdb & Hdr) Hf d l o brk Hp H. repeat rewrite app_length in Hf. destruct (IHr Hr Hdr ltac:(lia) d l o brk ltac:(lia) H) as (H1 & H2). rewrite gforest_cons. cbn [app]. split.
    + rewrite pn_nil_eq. cbn zeta. change (ThisString E (Some (gtree (T (bs "!elseif") _)))) with (Ok (bs "!elseif")). cbn [rbind].
      change (bseq (bs "!elseif") TypePath) with false. change (bseq (bs "!elseif") TypeExpression) with false. change (bseq (bs "!elseif") TypeIf) with false.
      change (bseq (bs "!elseif") TypeElseIf) with true. cbn [orb andb negb]. cbn iota. cbn [rbind]. rewrite H1. reflexivity.
    + rewrite pn_nil_if; [exact H2|right; split; reflexivity|apply nil_cond; [exact He|exact Ha|lia]].
Qed.
End Proofs.

(** ** C68 Without data files, or if the first cannot be read or is empty, gtemplate prints the texts, and of each conditional what stands
    after $else.  Full claim: all templates.  Proved when every condition is about the data (a path, a path and an operator, or such conditions
    with && and || between them) and other expressions are such or constants.  So a comparison with != is false too. *)
Theorem C68_no_data_partial : forall E C fuel t fs, wf E t -> legible t -> (List.length (source t) + 25 <= fuel)%nat -> dataless t ->
  fs = [] \/ (exists f fs' gs, fs = f :: fs' /\ (f = None \/ f = Some []) /\ Forall2 (file_graph E fuel) fs' gs) ->
  gtemplate E C fuel (Process_nil E fuel) (Some (source t)) fs = Ok (bare t ++ [x0a]).
Proof.
  intros E C fuel t fs Hw Hl Hf Hd Hfs.
  assert (K : gtemplate E C fuel (Process_nil E fuel) (Some (source t)) [] = Ok (bare t ++ [x0a])).
  { unfold gtemplate. assert (Hn : NewTemplate E fuel (source t) = Ok (Node (VStr []) (gforest (nodes t)))) by (destruct Hl as [Hl|(Hl & _)]; [apply NewTemplate_spec|apply NewTemplate_long]; assumption).
    rewrite Hn. cbn [rbind gtemplate_data]. unfold Process_nil. destruct fuel as [|n] eqn:Ef; [lia|]. rewrite <- Ef in *. replace (process_nil E fuel fuel) with (process_nil E fuel (S n)) by (rewrite Ef; reflexivity). cbn [process_nil out].
    rewrite (proj1 (nil_template E fuel) t Hw Hd ltac:(lia) n false); [reflexivity|]. pose proof (proj1 depth_length t). lia. }
  destruct Hfs as [->|(f & fs' & gs & -> & He & Hg)]; [exact K|]. rewrite (C68_first_file_refuted E C fuel _ _ f fs' gs He Hg). exact K.
Qed.
Print Assumptions C68_no_data_partial.
Example C68_no_data_ex : let t := ex_if (TText (bs "!") TEnd) in
  source t = bs "$if(n>2) many$elseif(n==2) two$else few$end!" /\ wf env0 t /\ legible t /\ dataless t /\ bare t = bs " few!" /\
  gtemplate env0 calls0 80 (Process_nil env0 80) (Some (source t)) [None; Some (doc_source ex_file1)] = Ok (bs " few!" ++ [x0a]).
Proof.
  cbv zeta. assert (Hs : source (ex_if (TText (bs "!") TEnd)) = bs "$if(n>2) many$elseif(n==2) two$else few$end!") by reflexivity.
  assert (Hl : legible (ex_if (TText (bs "!") TEnd))) by (left; rewrite Hs; cbn; lia).
  assert (Hd : dataless (ex_if (TText (bs "!") TEnd))) by (cbn; intuition). split; [exact Hs|]. split; [exact ex_if_ok|]. split; [exact Hl|]. split; [exact Hd|]. split; [reflexivity|].
  apply (C68_no_data_partial env0 calls0 80 (ex_if (TText (bs "!") TEnd))); [exact ex_if_ok|exact Hl|rewrite Hs; cbn; lia|exact Hd|]. right.
  exists None, [Some (doc_source ex_file1)], [groot [tr "who" [tr "Ann" []]]]. split; [reflexivity|]. split; [left; reflexivity|]. constructor; [|constructor].
  exists (doc_source ex_file1). split; [reflexivity|]. split; [discriminate|]. rewrite FromString_doc; [reflexivity|unfold ex_file1; concrete|cbn; lia].
Qed.

(** An assignment of a constant panics. *)
Theorem C68_no_data_assignment_refuted : forall E C fuel s e t p a o, wf E (TText s (TExpr e t)) -> legible (TText s (TExpr e t)) -> (List.length (source (TText s (TExpr e t))) + 25 <= fuel)%nat ->
  etr e = Bin p (Leaf a) (Leaf o) -> assigning p -> ~ a_path o ->
  gtemplate E C fuel (Process_nil E fuel) (Some (source (TText s (TExpr e t)))) [] = Panic.
Proof.
  intros E C fuel s e t p a o Hw Hl Hf He Hp Ho. unfold gtemplate.
  assert (Hn : NewTemplate E fuel (source (TText s (TExpr e t))) = Ok (Node (VStr []) (gforest (nodes (TText s (TExpr e t)))))) by (destruct Hl as [Hl|(Hl & _)]; [apply NewTemplate_spec|apply NewTemplate_long]; assumption).
  rewrite Hn. cbn [rbind gtemplate_data]. unfold Process_nil. destruct fuel as [|[|[|n]]] eqn:Ef; [lia|lia|lia|]. rewrite <- Ef. replace (process_nil E fuel fuel) with (process_nil E fuel (S (S (S n)))) by (rewrite Ef; reflexivity).
  cbn [process_nil out nodes]. rewrite !gforest_cons. destruct Hw as ((_ & _ & Hm) & _ & (He' & Ht)). clear Hn Hl Hf.
  assert (K : forall rec l yes, process_nodes_nil E fuel rec (Some (gtree (texpr e)) :: l) yes = Panic).
  { intros rec l yes. rewrite pn_nil_eq. cbn zeta. change (ThisString E (Some (gtree (texpr e)))) with (Ok (bs "!e")). cbn [rbind].
    change (bseq (bs "!e") TypePath) with false. change (bseq (bs "!e") TypeExpression) with true. cbn iota.
    assert (Hx : Eval_nil E fuel (Some (gtree (texpr e))) = Panic); [|rewrite Hx; reflexivity].
    rewrite Ef. change (Eval_nil E (S (S (S n))) (Some (gtree (texpr e)))) with (evalExpression_nil E (S (S n)) true (Some (gtree (etree_tree (etr e))))). rewrite He, nil_bin.
    pose proof (expr_operands E e He') as Hop. rewrite He in Hop. cbn [first others map app snd] in Hop. inversion Hop as [|? ? _ Hop']; subst. inversion Hop' as [|? ? Hoo _]; subst.
    destruct (nil_operand E n o Hoo) as (r & Hr & _ & H2). destruct (H2 Ho) as (v & -> & _).
    unfold evalBinary_nil. change (Out_ (gtree (etree_tree (Bin p (Leaf a) (Leaf o)))) 0) with (Ok (Some (gtree (operand_tree a)))).
    change (Out_ (gtree (etree_tree (Bin p (Leaf a) (Leaf o)))) 1) with (Ok (Some (gtree (operand_tree o)))). cbn [rbind]. rewrite Hr. cbn [rbind].
    change (ThisString E (Some (gtree (etree_tree (Bin p (Leaf a) (Leaf o)))))) with (Ok (op_text p)). cbn [rbind].
    replace (existsb (bseq (op_text p)) _) with true by (destruct p; try reflexivity; destruct Hp). reflexivity. }
  rewrite pn_nil_eq. cbn zeta. change (ThisString E (Some (gtree (T s [])))) with (Ok s). cbn [rbind]. rewrite K. cbn [markers In] in Hm.
  unfold TypePath, TypeExpression, TypeIf, TypeElseIf, TypeElse, TypeFor, TypeBreak.
  repeat (match goal with |- context [bseq s ?x] => let K := fresh in destruct (bseq s x) eqn:K; [apply bseq_eq in K; subst; exfalso; tauto|clear K] end). reflexivity.
Qed.
Print Assumptions C68_no_data_assignment_refuted.
Example C68_no_data_assignment_ex : gtemplate env0 calls0 60 (Process_nil env0 60) (Some (bs "a$(n = 2)")) [] = Panic.
Proof.
  set (e := mkE (OPath [Name (bs "n")]) [mkStep (bs " ") Asg (bs " ") (ONum (bs "2"))] (Bin Asg (Leaf (OPath [Name (bs "n")])) (Leaf (ONum (bs "2"))))).
  change (bs "a$(n = 2)") with (source (TText (bs "a") (TExpr e TEnd))).
  apply (C68_no_data_assignment_refuted env0 calls0 60 (bs "a") e TEnd Asg (OPath [Name (bs "n")]) (ONum (bs "2"))); try reflexivity; try exact I; [|left; cbn; lia|cbn; lia|intros []].
  cbn [wf no_text]. split; [split; [discriminate|split; [repeat constructor; discriminate|cbn; intuition discriminate]]|]. split; [exact I|]. split; [|exact I].
  assert (Hd : digits (bs "2")) by (split; [discriminate|repeat constructor; cbn; lia]). destruct ex_n_ok as (Hn & Hl).
  unfold expr_ok, e. cbn [lead steps etr]. split; [split; [repeat constructor; apply Hn|exact Hl]|]. split; [constructor; [|constructor]; split; [repeat constructor|]; split; [repeat constructor|]; split|].
  - exists [], (bs "2"), []. split; [reflexivity|]. split; [left; reflexivity|]. split; [exact Hd|left; reflexivity].
  - cbn. discriminate.
  - split; [reflexivity|]. split; [reflexivity|]. cbn. lia.
Qed.
