(** C86: what makes the evaluation of an expression panic. *)
From Verif Require Import Base Value EventSpec Emit EventFacts TextSpec PathSpec Graph PathParser PathTerm PathFacts AccessFacts Eval Template HeapEvalFacts PanicSpec Panics.
From Verif Require Import Samples P_Path P_Access Fuel.
Local Notation len l := (Z.of_nat (List.length l)).

Lemma part_trans a b c : part_of a b -> part_of b c -> part_of a c.
Proof. intros H K. revert H. induction K as [e|p c v o Hin _ IH]; intros H; [exact H|]. eapply part_kid; [exact Hin|apply IH, H]. Qed.

Lemma given_stored : forall g, given g -> stored false (Some g).
Proof.
  fix IH 2. intros g [v k Hv Hk]. constructor; [exact Hv|]. induction Hk as [|c k Hc _ IHk]; constructor; [apply IH, Hc|exact IHk].
Qed.

(** Some operator of [e] has operands whose values it panics with. *)
Definition fault_in (E : env) (C : calls) (f : nat) (g e : graph) : Prop :=
  exists op n1 n2 o v1 v2, part_of (Node (VStr op) (Some n1 :: Some n2 :: o)) e /\
  evalExpression E C f true (Some n1) g = Ok (g, EVal v1) /\ evalExpression E C f true (Some n2) g = Ok (g, EVal v2) /\ faulty E op v1 v2.

Lemma to_evalExpression E C g F root : (forall x, given x -> to_json C x <> Panic) -> given g ->
  forall f, (f <= F)%nat -> forall b e, part_of e root -> formed e -> to g (fault_in E C F g root) eres_mild (evalExpression E C f b (Some e) g).
Proof.
  intros Hj Hg. induction f as [|f IH]; intros Hf b e Hp He; [exact I|]. cbn [evalExpression].
  apply to_body with (part := fun p => part_of p root /\ formed p); try assumption.
  - intros p c (Hr & _) Hin Hc. split; [|exact Hc]. eapply part_trans; [|exact Hr]. destruct p as [v o]. eapply part_kid; [exact Hin|constructor].
  - intros p n c (Hr & _) Hn Hin Hc. split; [|exact Hc]. eapply part_trans; [|exact Hr]. destruct p as [v o]. eapply part_kid; [exact Hn|]. destruct n as [v' o']. eapply part_kid; [exact Hin|constructor].
  - intros p (_ & Hc). exact Hc.
  - intros b' e' (Hr & Hc). apply IH; [lia|exact Hr|exact Hc].
  - intros op n1 n2 o v1 v2 (Hr & _) E1 E2 Hfa. exists op, n1, n2, o, v1, v2. split; [exact Hr|].
    destruct (expr_mono E C f F true (Some n1) g) as [K|K]; [lia|congruence|]. destruct (expr_mono E C f F true (Some n2) g) as [K'|K']; [lia|congruence|].
    rewrite <- K, <- K'. auto.
  - split; assumption.
Qed.

Lemma to_Eval_part E C f g e : formed e -> ~ blank_leaf e -> stored false (Some g) -> (forall x, stored false (Some x) -> to_json C x <> Panic) ->
  to g (fault_in E C f g e) eres_mild (Eval E C f g (Some e)).
Proof.
  intros He Hb Hg Hj. apply stored_given in Hg.
  assert (Hj' : forall x, given x -> to_json C x <> Panic) by (intros x Hx; apply Hj, given_stored, Hx).
  unfold Eval. apply to_Eval with (part := fun p => part_of p e /\ formed p); try assumption.
  - intros p (_ & H); exact H.
  - intros b x (Hr & Hc). apply to_evalExpression; try assumption. lia.
  - split; [constructor|exact He].
Qed.

(** ** C86 When evaluation panics, there is an operator in the expression whose operands are to blame: an integer is
    divided by 0, or the remainder by something that counts as 0 is asked for, or an integer is compared with a
    node that is not there.  For expressions that do not assign, with the operands where they should be, and contexts with
    data only and no nil nodes. *)
Theorem C86_panics_partial : forall E C f g e, formed e -> ~ blank_leaf e -> stored false (Some g) -> (forall x, stored false (Some x) -> to_json C x <> Panic) ->
  Eval E C f g (Some e) = Panic -> fault_in E C f g e.
Proof. intros E C f g e He Hb Hg Hj HP. pose proof (to_Eval_part E C f g e He Hb Hg Hj) as K. rewrite HP in K. exact K. Qed.
Print Assumptions C86_panics_partial.
(** Conversely an operator with such operands panics, in every context. *)
Theorem C86_faulty : forall E C f b op n1 n2 o g v1 v2, evalExpression E C f true n1 g = Ok (g, EVal v1) -> evalExpression E C f true n2 g = Ok (g, EVal v2) ->
  faulty E op v1 v2 -> evalExpression E C (S f) b (Some (Node (VStr op) (n1 :: n2 :: o))) g = Panic.
Proof.
  intros E C f b op n1 n2 o g v1 v2 E1 E2 H. cbn [evalExpression]. unfold eval_body. cbn [this ThisString vstring sstring rbind].
  assert (K : evalBinary E C (evalExpression E C f) (Node (VStr op) (n1 :: n2 :: o)) g = Panic).
  { unfold evalBinary. cbn [Out_ out nth_error rbind this ThisString vstring sstring]. rewrite E2. cbn [rbind].
    destruct H as [op k a k' b' Hop Hb|v w d Hn Hi Hd Hz|op k a Hop].
    - destruct Hop as [<-|[<-|[]]]; cbn - [wrap64 calc]; rewrite E1; cbn - [wrap64 calc]; unfold calc; cbn - [wrap64]; rewrite Hb; reflexivity.
    - cbn - [calc]. rewrite E1. cbn - [calc]. assert (Kc : calc E v w "%" = Panic); [|rewrite Kc; reflexivity]. unfold calc.
      assert (Kf : forall a, calc_float E "%" a d = Panic) by (intros a; unfold calc_float; cbn; rewrite Hz; reflexivity).
      destruct Hd as [k z|x|x|w s x W1 W2 Hs Hp|w s W1 W2 Hs Hp]; destruct v; try contradiction; cbn [v_int64 v_float64]; try (exfalso; apply Hi; split; exact I); try apply Kf;
        rewrite ?W1, ?W2; unfold v_float64f; rewrite ?W1, ?W2, ?Hs; cbn [rbind]; rewrite ?Hp; apply Kf.
    - destruct Hop as [<-|[<-|[<-|[<-|[<-|[<-|[]]]]]]]; cbn; rewrite E1; reflexivity. }
  destruct H as [op k a k' b' Hop Hb|v w d Hn Hi Hd Hz|op k a Hop].
  - destruct Hop as [<-|[<-|[]]]; cbn - [evalBinary] in K |- *; rewrite K; reflexivity.
  - cbn - [evalBinary] in K |- *; rewrite K; reflexivity.
  - destruct Hop as [<-|[<-|[<-|[<-|[<-|[<-|[]]]]]]]; cbn - [evalBinary] in K |- *; rewrite K; reflexivity.
Qed.
Print Assumptions C86_faulty.

(** ** Texts *)
(** The operators that do not assign, and the operands of C40 without the quoted name !g, which the evaluator takes for
    a name in parentheses. *)
Definition reads (op : optor) : Prop := ~ In op [Asg; PlusAsg; MinusAsg; MulAsg; DivAsg; ModAsg].
Definition no_group (a : operand) : Prop := match a with OPath es => forall q, ~ In (Quote q (bs "!g")) es | _ => True end.

Lemma digit_text c s : 48 <= bz c <= 57 -> ~ operator_text (c :: s) /\ c <> "!"%byte /\ is_space c = false.
Proof. intros H. destruct c; cbn in H; try lia; (split; [intros (K & _); discriminate K|split; [discriminate|reflexivity]]). Qed.
Lemma digits_leaf d : digits d -> formed (Node (VStr d) []).
Proof.
  intros (Hn & Hd). destruct d as [|c d]; [congruence|]. inversion Hd as [|? ? Hc _]; subst. destruct (digit_text c d Hc) as (Ho & Hb & _).
  apply (formed_node (c :: d) []); [cbn; intros [K|[K|[]]]; injection K; intros; congruence|constructor|cbn; intros [K|[K|[]]]; injection K; intros; congruence|intros K; contradiction].
Qed.
Lemma number_leaf s : number_text s -> formed (Node (VStr s) []) /\ ~ blank_leaf (Node (VStr s) []).
Proof.
  intros (sg & a & b & -> & Hsg & Ha & Hb). destruct Ha as (Hn & Hd). destruct a as [|c a]; [congruence|]. inversion Hd as [|? ? Hc _]; subst.
  destruct (digit_text c (a ++ b) Hc) as (Ho & Hx & Hs).
  destruct Hsg as [-> | ->]; cbn [app].
  - split; [|cbn; rewrite Hs; intros (_ & K); discriminate].
    apply (formed_node _ []); [cbn; intros [K|[K|[]]]; injection K; intros; congruence|constructor|cbn; intros [K|[K|[]]]; injection K; intros; congruence|intros K; contradiction].
  - split; [|cbn; intros (_ & K); discriminate].
    apply (formed_node _ []); [cbn; intros [K|[K|[]]]; discriminate|constructor|cbn; intros [K|[K|[]]]; discriminate|].
    intros (_ & K). exfalso. destruct (a ++ b); [|exact K]. destruct (digit_text c [] Hc) as (K' & _). apply K'. split; [exact K|exact I].
Qed.
Lemma elem_element E e : elem_ok E e -> (forall q, e <> Quote q (bs "!g")) -> element (gtree (elem_tree e)).
Proof.
  intros He Hg. destruct e as [s|q s|d]; cbn [elem_tree gtree map].
  - apply (element_name s []); [|constructor]. apply name_not_marked in He. destruct s as [|c s]; [destruct He|]. intros [K|[K|[K|[]]]]; injection K as <- _; discriminate.
  - assert (K : bs "!g" <> s) by (intros K; apply (Hg q); congruence).
    destruct (in_dec (list_eq_dec Byte.byte_eq_dec) s [bs "!i"; bs "!s"; bs "!g"]) as [Hin|Hin]; [|apply (element_name s []); [exact Hin|constructor]].
    apply (element_expr s []); [exact Hin|constructor|congruence].
  - apply (element_expr (bs "!i") [Node (VStr d) []]); [cbn; tauto|constructor; [apply digits_leaf, He|constructor]|discriminate].
Qed.
Lemma operand_formed E a : operand_ok E a -> no_group a -> formed (gtree (operand_tree a)) /\ ~ blank_leaf (gtree (operand_tree a)).
Proof.
  intros Ha Hg. destruct a as [s|q s|es].
  - apply number_leaf, Ha.
  - split; [|intros K; exact K]. apply (formed_string [Node (VStr s) []]). constructor; [apply (wordy_node s []); constructor|constructor].
  - destruct Ha as (Ha & Hs). split.
    + cbn [operand_tree gtree]. rewrite <- (map_map gtree Some). apply formed_path. apply Forall_forall. intros x Hx. apply in_map_iff in Hx. destruct Hx as (t & <- & Ht).
      apply in_map_iff in Ht. destruct Ht as (el & <- & Hel). apply (elem_element E); [exact (proj1 (Forall_forall _ _) Ha _ Hel)|]. intros q ->. exact (Hg q Hel).
    + cbn. destruct es as [|e es]; [destruct Hs|]. cbn. tauto.
Qed.
Lemma etree_formed E t : operand_ok E (first t) -> no_group (first t) -> Forall (fun x => reads (fst x) /\ operand_ok E (snd x) /\ no_group (snd x)) (others t) ->
  formed (gtree (etree_tree t)) /\ ~ blank_leaf (gtree (etree_tree t)).
Proof.
  induction t as [a|op l IHl r IHr]; intros Hf Hg Ho; [apply (operand_formed E); assumption|]. cbn [first others] in *. apply Forall_app in Ho. destruct Ho as (Hl & Hr).
  inversion Hr as [|? ? (Hop & H1 & H2) Hr']; subst. destruct (IHl Hf Hg Hl) as (Fl & Bl). destruct (IHr H1 H2 Hr') as (Fr & Br).
  split; [|destruct op; cbn; tauto]. apply (formed_node (op_text op) [gtree (etree_tree l); gtree (etree_tree r)]).
  - destruct op; cbn; intros [K|[K|[]]]; discriminate.
  - repeat constructor; assumption.
  - intros _. split; [discriminate|repeat constructor; assumption].
  - intros _ _. split; [cbn; lia|]. unfold reads in Hop. destruct op; cbn; try (intros K; repeat (destruct K as [K|K]; [discriminate|]); exact K); exfalso; apply Hop; cbn; tauto.
Qed.

(** So, for the texts of C40 with operators that do not assign: the text is read, and if the evaluation of what is read panics, the
    operands of one of its operators are to blame. *)
Theorem C86_text_partial : forall E C a l f fuel g, operand_ok E a -> no_group a -> Forall (fun x => step_ok E x /\ reads (oper x) /\ no_group (rand x)) l ->
  len (expr_text a l) <= 4094 -> (List.length (expr_text a l) + 8 <= fuel)%nat -> stored false (Some g) -> (forall x, stored false (Some x) -> to_json C x <> Panic) ->
  exists e, NewExpression E fuel (expr_text a l) = Ok e /\ (Eval E C f g (Some e) = Panic -> fault_in E C f g e).
Proof.
  intros E C a l f fuel g Ha Hna Hl Hlen Hfuel Hg Hj.
  assert (Hst : Forall (step_ok E) l) by (eapply Forall_impl; [|exact Hl]; intros x (K & _); exact K).
  destruct (C40_expression_partial E a l fuel Ha Hst Hlen Hfuel) as (t & Hf & Ho & _ & Ht). eexists. split; [exact Ht|].
  assert (K : formed (gtree (etree_tree t)) /\ ~ blank_leaf (gtree (etree_tree t))).
  { apply (etree_formed E); [rewrite Hf; exact Ha|rewrite Hf; exact Hna|]. rewrite Ho. apply Forall_forall. intros x Hx. apply in_map_iff in Hx. destruct Hx as (y & <- & Hy).
    destruct (proj1 (Forall_forall _ _) Hl _ Hy) as ((_ & _ & K1 & _) & K2 & K3). cbn. auto. }
  destruct K as (K1 & K2). apply C86_panics_partial; [|intros K; exact K|exact Hg|exact Hj].
  apply (formed_node (bs "!e") [gtree (etree_tree t)]); [cbn; intros [K|[K|[]]]; discriminate|repeat constructor; assumption|intros _; split; [discriminate|repeat constructor; assumption]|].
  intros (_ & K). discriminate K.
Qed.
Print Assumptions C86_text_partial.

(** An integer compared with a node that is not there: 1==a, where there is no a. *)
Definition ex_empty : graph := nd "" [].
Definition ex_missing : graph := nd "!e" [nd "==" [nd "1" []; nd "!p" [nd "a" []]]].
Example C86_missing_ex : NewExpression env0 30 (bs "1==a") = Ok ex_missing /\ Eval env0 calls0 9 ex_empty (Some ex_missing) = Panic /\ formed ex_missing /\ stored false (Some ex_empty).
Proof.
  split; [rewrite NewExpression_ideal by (cbn; lia); vm_compute; reflexivity|]. split; [reflexivity|]. split.
  - pose proof (etree_formed env0 (Bin EqEq (Leaf (ONum (bs "1"))) (Leaf (OPath [Name (bs "a")])))) as K. destruct K as (K1 & K2).
    + exists [], (bs "1"), []. split; [reflexivity|]. split; [auto|]. split; [|auto]. split; [discriminate|repeat constructor; discriminate].
    + exact I.
    + constructor; [|constructor]. split; [intros H; repeat (destruct H as [H|H]; [discriminate|]); exact H|]. split; [|intros q [H|[]]; discriminate].
      split; [|split; [left; reflexivity|split; [cbn; lia|discriminate]]]. constructor; [|constructor]. ascii_names.
    + apply (formed_node (bs "!e") [nd "==" [nd "1" []; nd "!p" [nd "a" []]]]); [cbn; intros [K|[K|[]]]; discriminate|constructor; [exact K1|constructor]| |intros (_ & K); discriminate K].
      intros _. split; [discriminate|constructor; [exact K2|constructor]].
  - constructor; [exact I|constructor].
Qed.
Example C86_fault_ex : fault_in env0 calls0 9 ex_empty ex_missing.
Proof.
  apply C86_panics_partial; [apply C86_missing_ex|intros K; exact K|apply C86_missing_ex|discriminate|apply C86_missing_ex].
Qed.
(** The remainder by a text that is not a number: 5%'x' *)
Example C86_remainder_ex : faulty env0 (bs "%") (VInt KInt64 5) (VStr (bs "x")) /\
  Eval env0 calls0 9 ex_empty (Some (nd "!e" [nd "%" [nd "5" []; nd "!string" [nd "x" []]]])) = Panic.
Proof.
  split; [|reflexivity]. eapply fault_rem; [exact I|intros (_ & K); exact K|eapply div_none; reflexivity|reflexivity].
Qed.

Lemma GetAt_first v x o : GetAt (Some (Node v (x :: o))) 0 = Ok x.
Proof. cbn [GetAt]. destruct (_ || _) eqn:H; [cbn in H; lia|reflexivity]. Qed.
Lemma GetAt_second v x y o : GetAt (Some (Node v (x :: y :: o))) 1 = Ok y.
Proof. cbn [GetAt]. destruct (_ || _) eqn:H; [cbn [List.length] in H; lia|reflexivity]. Qed.

(** ** Templates.  If processing a template without loops panics, the operands of an operator in one of its expressions are to
    blame, or the text of what a path leads to cannot be shown (Text panics: see C18_Text_panics_refuted). *)
Definition unshown_in (E : env) (C : calls) (f : nat) (g t : graph) : Prop :=
  exists o x, part_of (Node (VStr (bs "!p")) o) t /\ Eval E C f g (Some (Node (VStr (bs "!p")) o)) = Ok (g, EVal (VPtr (Some x))) /\ Text E (Some x) = Panic.

Section Template.
Variables (E : env) (C : calls) (f : nat) (g root : graph).
Hypothesis Hg : stored false (Some g).
Hypothesis Hj : forall x, stored false (Some x) -> to_json C x <> Panic.
Let W := fault_in E C f g root \/ unshown_in E C f g root.
Definition keeps {A} (c : A -> graph) (m : res A) : Prop := match m with Ok x => c x = g | Panic => W | NoFuel => True end.
Lemma keeps_Eval e : part_of e root -> formed e -> ~ blank_leaf e -> to g W eres_mild (Eval E C f g (Some e)).
Proof.
  intros Hp He Hb. pose proof (to_Eval_part E C f g e He Hb Hg Hj) as K. destruct (Eval E C f g (Some e)) as [[g' r]| |]; [exact K| |exact I].
  left. destruct K as (op & n1 & n2 & o & v1 & v2 & K & K'). exists op, n1, n2, o, v1, v2. split; [eapply part_trans; [exact K|exact Hp]|exact K'].
Qed.
Lemma keeps_nodes rec l : Forall item l -> (forall x, In x l -> part_of x root) -> (forall b, page b -> part_of b root -> keeps (fun x => fst (fst (fst x))) (rec (Some b) g)) ->
  forall yes, keeps (fun x => fst (fst (fst x))) (process_nodes E C f rec (map Some l) yes g).
Proof.
  intros Hl Hp Hrec. induction Hl as [|n l Hn _ IH]; intros yes; [reflexivity|].
  assert (Hpn : part_of n root) by (apply Hp; left; reflexivity). specialize (IH (fun x Hx => Hp x (or_intror Hx))).
  assert (Go : forall y (x : res (graph * bytes * list bytes)), keeps (fun x => fst (fst x)) x ->
    keeps (fun x => fst (fst (fst x))) (let* (c, o, d) := x in let* (c, o', d', brk) := process_nodes E C f rec (map Some l) y c in Ok (c, o ++ o', d ++ d', brk))).
  { intros y [[[c o] d]| |] Hx; [|exact Hx|exact I]. cbn [keeps fst] in Hx. subst c. specialize (IH y). cbn [rbind].
    destruct (process_nodes E C f rec (map Some l) y g) as [[[[c o'] d'] brk]| |]; exact IH. }
  destruct Hn as [s o Hs|s o Hs He|s v e o body o' Hs He Hb Hbody|body o Hbody]; cbn [map process_nodes ThisString this vstring sstring rbind].
  - assert (K : forall t, In t [bs "!p"; bs "!e"; bs "!if"; bs "!elseif"; bs "!else"; bs "!for"] -> bseq s t = false).
    { intros t Ht. destruct (bseq_spec s t) as [->|_]; [contradiction|reflexivity]. }
    rewrite (K TypePath), (K TypeExpression), (K TypeIf), (K TypeElseIf), (K TypeElse), (K TypeFor) by (cbn; tauto). cbn [andb orb].
    destruct (bseq s TypeBreak); [reflexivity|]. exact (Go yes (Ok (g, s, [])) eq_refl).
  - assert (Hb : ~ blank_leaf (Node (VStr s) o)) by (destruct Hs as [<-|[<-|[]]]; destruct o; cbn; intros K; try exact K; destruct K as (_ & K); discriminate K).
    pose proof (keeps_Eval _ Hpn He Hb) as K. destruct Hs as [<-|[<-|[]]].
    + change (bseq (bs "!p") TypePath) with true. cbv iota. apply Go.
      destruct (Eval E C f g (Some (Node (VStr (bs "!p")) o))) as [[g' r]| |] eqn:Hev; [|exact K|exact I]. destruct K as (-> & Hr). cbn [rbind].
      assert (Kt : keeps fst (let* t := text_of E match r with EVal v => v | EErr _ => VNil end in Ok (g, t))).
      { destruct (text_of E _) as [t| |] eqn:Ht; [reflexivity| |exact I]. cbn. right. destruct r as [v|]; [|discriminate].
        destruct v as [| | | | | | |[x|]| | |]; try discriminate. exists o, x. auto. }
      destruct (text_of E _); exact Kt.
    + change (bseq (bs "!e") TypePath) with false. change (bseq (bs "!e") TypeExpression) with true. cbv iota. apply Go.
      destruct (Eval E C f g (Some (Node (VStr (bs "!e")) o))) as [[g' r]| |]; [destruct K as (-> & _); reflexivity|exact K|exact I].
  - assert (Hif : forall y, keeps (fun x => fst (fst (fst x))) (let* (c, o, d, yes) := do_if E C f rec (Node (VStr s) (Some (Node v (Some e :: o)) :: Some body :: o')) g in
       let* (c, o', d', brk) := process_nodes E C f rec (map Some l) (if y : bool then yes else yes) c in Ok (c, o ++ o', d ++ d', brk))).
    { intros y. unfold do_if. rewrite !GetAt_first. cbn [rbind]. rewrite GetAt_first. cbn [rbind].
      assert (Ke : to g W (fun _ => True) (evalBool E C f g (Some e))).
      { pose proof (keeps_Eval e) as K. unfold evalBool, evalBool_with. unfold Eval in K.
        destruct (Eval_with E (evalExpression E C f) (Some e) g) as [[g' r]| |]; cbn [rbind to] in *; (assert (Kp : part_of e root) by
          (eapply part_trans; [|exact Hpn]; eapply part_kid; [left; reflexivity|]; eapply part_kid; [left; reflexivity|constructor])); specialize (K Kp He Hb); [split; [apply K|exact I]|exact K|exact I]. }
      destruct (evalBool E C f g (Some e)) as [[g' [|]]| |]; [| |exact Ke|exact I]; destruct Ke as (-> & _); cbn [rbind].
      - rewrite GetAt_second. cbn [rbind]. assert (Kr := Hrec body Hbody ltac:(eapply part_trans; [|exact Hpn]; eapply part_kid; [right; left; reflexivity|constructor])).
        destruct (rec (Some body) g) as [[[[c o1] d] brk]| |]; [|exact Kr|exact I]. cbn in Kr. subst c. cbn [rbind]. specialize (IH true).
        destruct y; destruct (process_nodes E C f rec (map Some l) true g) as [[[[c o2] d'] brk']| |]; exact IH.
      - specialize (IH false). destruct y; destruct (process_nodes E C f rec (map Some l) false g) as [[[[c o2] d'] brk']| |]; exact IH. }
    specialize (Hif true). destruct Hs as [<-|[<-|[]]].
    + change (bseq (bs "!if") TypePath) with false. change (bseq (bs "!if") TypeExpression) with false. change (bseq (bs "!if") TypeIf) with true. cbv iota. cbn [orb rbind] in *. exact Hif.
    + change (bseq (bs "!elseif") TypePath) with false. change (bseq (bs "!elseif") TypeExpression) with false. change (bseq (bs "!elseif") TypeIf) with false.
      change (bseq (bs "!elseif") TypeElseIf) with true. cbn [orb andb]. destruct yes; cbn [negb]; [exact (Go true (Ok (g, [], [])) eq_refl)|exact Hif].
  - change (bseq (bs "!else") TypePath) with false. change (bseq (bs "!else") TypeExpression) with false. change (bseq (bs "!else") TypeIf) with false.
    change (bseq (bs "!else") TypeElseIf) with false. change (bseq (bs "!else") TypeElse) with true. cbn [orb andb]. apply Go. destruct yes; [reflexivity|].
    rewrite GetAt_first. cbn [rbind]. assert (Kr := Hrec body Hbody ltac:(eapply part_trans; [|exact Hpn]; eapply part_kid; [left; reflexivity|constructor])).
    destruct (rec (Some body) g) as [[[[c o1] d] brk]| |]; exact Kr.
Qed.
Lemma keeps_process : forall d t, page t -> part_of t root -> keeps (fun x => fst (fst (fst x))) (process E C f d (Some t) g).
Proof.
  induction d as [|d IH]; intros t Ht Hp; [exact I|]. cbn [process]. destruct Ht as [v k Hk]. cbn [out]. apply keeps_nodes; [exact Hk| |exact IH].
  intros x Hx. eapply part_trans; [|exact Hp]. eapply part_kid; [apply in_map, Hx|constructor].
Qed.
End Template.

Theorem C86_template_partial : forall E C f g t, page t -> stored false (Some g) -> (forall x, stored false (Some x) -> to_json C x <> Panic) ->
  Process E C f (Some t) g = Panic -> fault_in E C f g t \/ unshown_in E C f g t.
Proof.
  intros E C f g t Ht Hg Hj HP. pose proof (keeps_process E C f g t Hg Hj f t Ht (part_refl t)) as K. unfold Process in HP.
  destruct (process E C f f (Some t) g) as [[[[c o] d] brk]| |]; [discriminate|exact K|discriminate].
Qed.
Print Assumptions C86_template_partial.
(** A condition that divides by 0 *)
Definition ex_page : graph := nd "!t" [nd "x" []; nd "!if" [nd "!a" [nd "!e" [nd "/" [nd "1" []; nd "0" []]]]; nd "!t" [nd "y" []]]].
Example C86_template_ex : page ex_page /\ Process env0 calls0 9 (Some ex_page) ex_empty = Panic.
Proof.
  split; [|reflexivity]. apply (page_node _ [nd "x" []; nd "!if" [nd "!a" [nd "!e" [nd "/" [nd "1" []; nd "0" []]]]; nd "!t" [nd "y" []]]]).
  assert (D : forall s, digits (bs s) -> formed (nd s [])) by (intros s Hs; apply digits_leaf, Hs).
  constructor; [apply item_text; cbn; intros K; repeat (destruct K as [K|K]; [discriminate|]); exact K|]. constructor; [|constructor].
  apply item_if; [cbn; tauto| |intros K; exact K|].
  - apply (formed_node (bs "!e") [nd "/" [nd "1" []; nd "0" []]]); [cbn; intros [K|[K|[]]]; discriminate| |intros _; split; [discriminate|repeat constructor; intros K; exact K]|intros (_ & K); discriminate K].
    constructor; [|constructor]. apply (formed_node (bs "/") [nd "1" []; nd "0" []]); [cbn; intros [K|[K|[]]]; discriminate| |cbn; intros [K|[K|[]]]; discriminate|intros _ _; split; [cbn; lia|cbn; intros K; repeat (destruct K as [K|K]; [discriminate|]); exact K]].
    constructor; [apply (D "1"%string); split; [discriminate|repeat constructor; discriminate]|]. constructor; [apply (D "0"%string); split; [discriminate|repeat constructor; discriminate]|constructor].
  - apply (page_node _ [nd "y" []]). constructor; [|constructor]. apply item_text; cbn; intros K; repeat (destruct K as [K|K]; [discriminate|]); exact K.
Qed.
(** A path to two subnodes, of which the first is a carriage return and the second is empty *)
Example C86_unshown_ex : let g := nd "" [nd "a" [Node (VStr [x0d]) []; nd "" []]] in let t := nd "!t" [nd "!p" [nd "a" []]] in
  Process env0 calls0 9 (Some t) g = Panic /\ unshown_in env0 calls0 9 g t.
Proof.
  split; [reflexivity|]. eexists. eexists. split; [eapply part_kid; [left; reflexivity|constructor]|]. split; reflexivity.
Qed.
