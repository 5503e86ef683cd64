(** C64: assignments in expressions. *)
From Verif Require Import Base Value Graph GraphSpec GraphFacts TextSpec PathSpec PathParser PathFacts PathTerm TypesSpec TypesFacts NumFacts Eval AccessSpec AccessFacts EvalSpec EvalFacts Samples P_Access.

Definition asg_byte (op : optor) : byte :=
  match op with PlusAsg => "+" | MinusAsg => "-" | MulAsg => "*" | DivAsg => "/" | ModAsg => "%" | _ => "=" end%byte.
Lemma eval_asg E C op l r f simpl g g' v : prec op = 0 -> evalExpression E C f true r g = Ok (g', EVal v) ->
  evalExpression E C (S f) simpl (Some (Node (VStr (op_text op)) [l; r])) g =
  (let* (g, w) := assign E C (evalExpression E C f) l v (asg_byte op) g' in Ok (g, EVal w)).
Proof.
  intros Hop H. cbn [evalExpression]. revert H. generalize (evalExpression E C f). intros ev H.
  destruct op; cbn in Hop; try lia; unfold eval_body; cbn - [evalBinary assign]; unfold evalBinary, Out_; cbn - [assign]; rewrite H; reflexivity.
Qed.
Lemma root_ge_one t : Forall (fun x => 0 < prec (fst x)) (others t) -> root_ge 1 t.
Proof.
  destruct t as [o|op l r]; [intros; exact I|]. cbn [others root_ge]. intros H. rewrite Forall_app in H. destruct H as [_ H]. inversion H as [|? ? H1 _]; subst. cbn in H1. lia.
Qed.
(** The stored path of the left side *)
Lemma set_path_changed E ps g v : Forall (name E) ps -> whole E g ->
  exists g' r, set_path E g (Some (gtree (operand_tree (OPath (map Name ps))))) v = Ok (g', r) /\ changed E (replaced v) ps g g'.
Proof.
  intros Hps Hg. destruct (set_els_changed E (replaced v) [] v) with (ps := ps) (g := g) as (g' & r & H & HR); try assumption.
  1,2: intros n; cbn [set_els set_new set_here]; eexists; eexists; split; [reflexivity|split; reflexivity].
  rewrite app_nil_r in H. exists g', r. split; [exact H|exact HR].
Qed.
Lemma getPath_held E C f ps g n : Forall (name E) ps -> ps <> [] -> whole E g -> walk E (map Name ps) g n ->
  getPath E C (evalExpression E C (S f)) (gtree (operand_tree (OPath (map Name ps)))) g = Ok (g, inl (Some n)).
Proof.
  intros Hps Hne Hg Hw. destruct (names_ok E ps Hps) as [Hok Hu]. apply walk_cwalk in Hw; [|exact Hg].
  destruct (get_els_walk E C (evalExpression E C (S f)) (fun d g Hd Hl => eval_number E C f d g Hd Hl true []) (gtree (operand_tree (OPath (map Name ps))))
    (map Name ps) g n Hw Hok Hu [] None [] g) as (prev & k & H). rewrite app_nil_r in H.
  unfold getPath. destruct ps as [|s ps]; [congruence|]. exact H.
Qed.
Lemma getPath_missing E C f ps g : Forall (name E) ps -> ps <> [] -> all_nodes data g -> lost E (map Name ps) g ->
  exists r, getPath E C (evalExpression E C (S f)) (gtree (operand_tree (OPath (map Name ps)))) g = Ok (g, r) /\ match r with inl n => n = None | inr _ => True end.
Proof.
  intros Hps Hne Hg Hw. destruct (names_ok E ps Hps) as [Hok Hu]. apply lost_clost in Hw; [|exact Hg].
  destruct (get_els_lost E C (evalExpression E C (S f)) (fun d g Hd Hl => eval_number E C f d g Hd Hl true []) (gtree (operand_tree (OPath (map Name ps))))
    (map Name ps) g Hw Hok Hu [] None [] g) as (r & H & Hr). rewrite app_nil_r in H.
  exists r. split; [|exact Hr]. unfold getPath. destruct ps as [|s ps]; [congruence|]. exact H.
Qed.
(** What is stored *)
Lemma assign_updated E C f ps op old v d x g : Forall (name E) ps -> ps <> [] -> all_nodes data g -> prec op = 0 -> holds v d -> updated op old d x ->
  (op = Asg \/ variable E ps g old) ->
  exists P, P = gtree (operand_tree (OPath (map Name ps))) /\
  match x with
  | Some d' => exists w, holds w d' /\ assign E C (evalExpression E C (S f)) (Some P) v (asg_byte op) g = (let* (g, r) := set_path E g (Some P) w in Ok (g, VPtr r))
  | None => assign E C (evalExpression E C (S f)) (Some P) v (asg_byte op) g = Panic
  end.
Proof.
  intros Hps Hne Hg Hop Hv Hu Hvar. eexists. split; [reflexivity|].
  set (P := gtree (operand_tree (OPath (map Name ps)))).
  assert (Hh : forall n w k l, walk E (map Name ps) g n -> out n = Some (Node w k) :: l -> op <> Asg ->
    assign E C (evalExpression E C (S f)) (Some P) v (asg_byte op) g = (let* z := calc E w v (asg_byte op) in let* (g, r) := set_path E g (Some P) z in Ok (g, VPtr r))).
  { intros n w k l Hw Hn Ha. unfold assign. replace (beq (asg_byte op) "=") with false by (destruct op; cbn in Hop; try lia; try congruence; reflexivity).
    unfold P. rewrite (getPath_held E C f ps g n Hps Hne (data_whole E g Hg) Hw). cbn [rbind]. unfold Out_. rewrite Hn. cbn [nth_error rbind this]. reflexivity. }
  assert (Hm : lost E (map Name ps) g -> op <> Asg ->
    assign E C (evalExpression E C (S f)) (Some P) v (asg_byte op) g =
    let set v g := let* (g, r) := set_path E g (Some P) v in Ok (g, VPtr r) in
    if beq (asg_byte op) "+" then set v g
        else if beq (asg_byte op) "-" then let* w := calc E (VInt KInt 0) v "-" in set w g
        else if beq (asg_byte op) "*" then set (VInt KInt 0) g
        else if beq (asg_byte op) "/" then set (VStr (bs "infinity")) g
        else set (VStr (bs "undefined")) g).
  { intros Hl Ha. unfold assign. replace (beq (asg_byte op) "=") with false by (destruct op; cbn in Hop; try lia; try congruence; reflexivity).
    unfold P. destruct (getPath_missing E C f ps g Hps Hne Hg Hl) as (r & -> & Hr). cbn [rbind]. destruct r as [n|e]; [subst n|]; reflexivity. }
  destruct Hu as [o d|op op' a b x Hpl Ha|a b|d|b z Hz|d|d|d].
  - exists v. split; [exact Hv|]. reflexivity.
  - assert (Hvar' : variable E ps g (Some (DI a))) by (destruct Hvar as [->|Hvar]; [discriminate Hpl|exact Hvar]). clear Hvar.
    inversion Hvar' as [n w k l d0 Hw Hn Hd|]; subst d0. destruct Hd as (Ha64 & ka & ->). destruct Hv as (Hb64 & kb & ->).
    assert (Hne' : op <> Asg) by (intros ->; discriminate Hpl). specialize (Hh n _ k l Hw Hn Hne').
    assert (Hc : calc E (VInt ka a) (VInt kb b) (asg_byte op) = match x with Some z => Ok (VInt KInt64 z) | None => Panic end).
    { rewrite <- (calc_ints E ka kb a b op' x Ha64 Hb64 Ha). destruct op; try discriminate Hpl; injection Hpl as <-; reflexivity. }
    rewrite Hc in Hh. destruct x as [z|]; cbn [option_map]; [|exact Hh]. exists (VInt KInt64 z). split; [|exact Hh]. split; [|eexists; reflexivity]. apply (arith_in64 a b op' z Ha64 Ha).
  - assert (Hvar' : variable E ps g (Some (DS a))) by (destruct Hvar as [K|Hvar]; [discriminate K|exact Hvar]). clear Hvar.
    inversion Hvar' as [n w k l d0 Hw Hn Hd|]; subst d0. cbn in Hd, Hv. subst w v. specialize (Hh n _ k l Hw Hn ltac:(discriminate)).
    exists (VStr (a ++ b)). split; [reflexivity|exact Hh].
  - destruct Hvar as [K|Hvar]; [discriminate K|]. inversion Hvar as [|Hl]. exists v. split; [exact Hv|]. exact (Hm Hl ltac:(discriminate)).
  - destruct Hvar as [K|Hvar]; [discriminate K|]. inversion Hvar as [|Hl]. destruct Hv as (Hb64 & kb & ->). exists (VInt KInt64 z). split; [split; [apply Hz|eexists; reflexivity]|].
    rewrite (Hm Hl ltac:(discriminate)). cbn [asg_byte]. change (beq "-" "+") with false. change (beq "-" "-") with true. cbv beta iota zeta.
    change "-"%byte with (op_byte Minus) at 1. rewrite (calc_ints E KInt kb 0 b Minus (Some z)); [reflexivity|unfold in64; lia|exact Hb64|]. apply ar_minus. exact Hz.
  - destruct Hvar as [K|Hvar]; [discriminate K|]. inversion Hvar as [|Hl]. exists (VInt KInt 0). split; [split; [unfold in64; lia|eexists; reflexivity]|]. exact (Hm Hl ltac:(discriminate)).
  - destruct Hvar as [K|Hvar]; [discriminate K|]. inversion Hvar as [|Hl]. eexists. split; [|exact (Hm Hl ltac:(discriminate))]. reflexivity.
  - destruct Hvar as [K|Hvar]; [discriminate K|]. inversion Hvar as [|Hl]. eexists. split; [|exact (Hm Hl ltac:(discriminate))]. reflexivity.
Qed.

(** ** C64 An assignment [p op e] gives the variable p the value that op and the value of e
    make of its old one, and changes nothing else.  Full claim: every graph, path and
    expression.  Here: graphs of data, paths of names, expressions without parentheses that
    denote an integer, a text or a boolean, up to 4094 bytes. *)
Theorem C64_assign_partial : forall E C ps b1 op b2 a l t old d x g f,
  Forall (name E) ps -> starts_with_letter (map Name ps) -> prec op = 0 -> step_ok E (mkStep b1 op b2 a) -> Forall (step_ok E) l -> Forall (fun s => 0 < prec (oper s)) l ->
  let s := expr_text (OPath (map Name ps)) (mkStep b1 op b2 a :: l) in
  Z.of_nat (List.length s) <= 4094 -> first t = a -> others t = map (fun s => (oper s, rand s)) l -> grouped t ->
  all_nodes data g -> den E g t (Some d) -> (op = Asg \/ variable E ps g old) -> updated op old d x ->
  (List.length s + 8 <= f)%nat -> (height t + 2 <= f)%nat ->
  exists e, NewExpression E f s = Ok e /\
    match x with
    | Some d' => exists g' r v n, Eval E C f g (Some e) = Ok (g', EVal (VPtr r)) /\ holds v d' /\ changed E (replaced v) ps g g' /\
        Get E C f (Some g') (path ps) = Ok (Some g', Some n) /\ out n = [Some (Node v [])]
    | None => Eval E C f g (Some e) = Panic
    end.
Proof.
  intros E C ps b1 op b2 a l t old d x g f Hps Hsl Hop Hst Hl Hpl s Hlen Hft Hot Hgt Hg Hd Hvar Hu Hf Hh.
  assert (Hne : ps <> []) by (intros ->; exact Hsl). destruct (names_ok E ps Hps) as [Hok Hum].
  destruct (NewExpression_spec E (OPath (map Name ps)) (mkStep b1 op b2 a :: l) f) as (t' & F & O & G & He);
    [split; assumption|constructor; assumption|exact Hlen|exact Hf|].
  assert (Et : t' = Bin op (Leaf (OPath (map Name ps))) t).
  { apply grouped_unique; [exact G| |exact F|cbn [others first app]; rewrite O, Hft, Hot; reflexivity].
    cbn [grouped root_ge]. split; [exact I|]. split; [|split; [exact I|exact Hgt]]. rewrite Hop. apply root_ge_one. rewrite Hot, Forall_map. exact Hpl. }
  subst t'. eexists. split; [exact He|]. destruct f as [|[|[|f]]]; try lia. rewrite Eval_expression.
  destruct (eval_den E C g t (Some d) (data_whole E g Hg) Hd (S f) ltac:(lia)) as (v & Hv & Hhd).
  change (gtree (etree_tree (Bin op (Leaf (OPath (map Name ps))) t))) with (Node (VStr (op_text op)) [Some (gtree (operand_tree (OPath (map Name ps)))); Some (gtree (etree_tree t))]).
  rewrite (eval_asg E C op _ _ (S f) true g g v Hop Hv).
  destruct (assign_updated E C f ps op old v d x g Hps Hne Hg Hop Hhd Hu Hvar) as (P & -> & HP).
  destruct x as [d'|]; [|rewrite HP; reflexivity]. destruct HP as (w & Hw & HP). rewrite HP.
  destruct (set_path_changed E ps g w Hps (data_whole E g Hg)) as (g' & r & Hs & Hc). rewrite Hs. cbn [rbind].
  destruct (changed_cwalk E _ ps g g' (replaced_keeps w) (data_whole E g Hg) Hc) as (m & n & [_ Ho] & Hcw & _).
  exists g', r, w, n. split; [reflexivity|]. split; [exact Hw|]. split; [exact Hc|]. split.
  - apply Get_cwalk; try assumption; [destruct ps; [congruence|discriminate]|]. unfold s, expr_text in *. cbn [operand_text] in *. rewrite app_length in *. unfold fits. fold (path ps) in *. lia.
  - rewrite Ho. destruct d'; cbn in Hw; [destruct Hw as (_ & k & ->)|subst w|subst w]; reflexivity.
Qed.
Print Assumptions C64_assign_partial.
(** What the other variables hold afterwards *)
Theorem C64_others_partial : forall E C ps qs v g g' f, all_nodes data g -> changed E (replaced v) ps g g' -> Forall (name E) qs -> qs <> [] -> fits f (path qs) ->
  ~ prefix ps qs -> ~ prefix qs ps -> exists n, Get E C f (Some g) (path qs) = Ok (Some g, n) /\ Get E C f (Some g') (path qs) = Ok (Some g', n).
Proof.
  intros E C ps qs v g g' f Hg Hc Hqs Hn2 Hf2 Hp1 Hp2.
  destruct (changed_elsewhere E _ ps g g' (replaced_keeps v) (data_whole E g Hg) Hc qs (not_prefix_apart ps qs Hp1 Hp2)) as [H1 H2].
  destruct (names_ok E qs Hqs) as [Hok Hu]. assert (Hne : map Name qs <> []) by (destruct qs; [congruence|discriminate]).
  assert (Hk : Forall (fun e => key e <> None) (map Name qs)) by (apply Forall_forall; intros e He; apply in_map_iff in He; destruct He as (s & <- & _); discriminate).
  destruct (walk_or_lost E (map Name qs) Hk g (data_whole E g Hg)) as [(n & Hw)|Hl].
  - apply walk_cwalk in Hw; [|apply data_whole; exact Hg]. exists (Some n). split; apply Get_cwalk; auto.
  - apply lost_clost in Hl; [|exact Hg]. exists None. split; apply Get_clost; auto.
Qed.
Print Assumptions C64_others_partial.

(** With an index after the names, = stores at that position. *)
Theorem C64_index_partial : forall E C ps i b1 b2 a l t d g f,
  Forall (name E) ps -> starts_with_letter (map Name ps) -> digits i -> number_of i < 2 ^ 63 ->
  step_ok E (mkStep b1 Asg b2 a) -> Forall (step_ok E) l -> Forall (fun s => 0 < prec (oper s)) l ->
  let s := expr_text (OPath (map Name ps ++ [Index i])) (mkStep b1 Asg b2 a :: l) in
  Z.of_nat (List.length s) <= 4094 -> first t = a -> others t = map (fun s => (oper s, rand s)) l -> grouped t ->
  whole E g -> den E g t (Some d) -> (List.length s + 8 <= f)%nat -> (height t + 2 <= f)%nat ->
  exists e g' r v, NewExpression E f s = Ok e /\ Eval E C f g (Some e) = Ok (g', EVal (VPtr r)) /\ holds v d /\
    changed E (placed (Z.to_nat (number_of i)) v) ps g g'.
Proof.
  intros E C ps i b1 b2 a l t d g f Hps Hsl Hi Hi64 Hst Hl Hpl s Hlen Hft Hot Hgt Hg Hd Hf Hh.
  assert (Hne : ps <> []) by (intros ->; exact Hsl). destruct (names_ok E ps Hps) as [Hok Hum].
  assert (Hok' : Forall (elem_ok E) (map Name ps ++ [Index i])) by (apply Forall_app; split; [exact Hok|constructor; [exact Hi|constructor]]).
  destruct (NewExpression_spec E (OPath (map Name ps ++ [Index i])) (mkStep b1 Asg b2 a :: l) f) as (t' & F & O & G & He);
    [split; [exact Hok'|destruct ps; [congruence|exact Hsl]]|constructor; assumption|exact Hlen|exact Hf|].
  assert (Et : t' = Bin Asg (Leaf (OPath (map Name ps ++ [Index i]))) t).
  { apply grouped_unique; [exact G| |exact F|cbn [others first app]; rewrite O, Hft, Hot; reflexivity].
    cbn [grouped root_ge]. split; [exact I|]. split; [|split; [exact I|exact Hgt]]. apply root_ge_one. rewrite Hot, Forall_map. exact Hpl. }
  subst t'. destruct f as [|[|[|f]]]; try lia.
  destruct (eval_den E C g t (Some d) Hg Hd (S f) ltac:(lia)) as (v & Hv & Hhd).
  assert (Hs : exists g' r, set_path E g (Some (gtree (operand_tree (OPath (map Name ps ++ [Index i]))))) v = Ok (g', r) /\ changed E (placed (Z.to_nat (number_of i)) v) ps g g').
  { pose proof (number_of_nonneg i (proj2 Hi)) as Hn.
    assert (Ht : forall n, exists n' r, (let* i := Int64 E (Some (gtree (elem_tree (Index i)))) None in set_index n i v) = Ok (n', r) /\ placed (Z.to_nat (number_of i)) v n n').
    { intros n. cbn [elem_tree]. rewrite (Int64_digits E i (bs "!i") Hi Hi64). cbn [rbind]. destruct (set_index_placed n (number_of i) v Hn) as (n' & H & Hp). eauto. }
    destruct (set_els_changed E (placed (Z.to_nat (number_of i)) v) (gforest (map elem_tree [Index i])) v) with (ps := ps) (g := g) as (g' & r & H & HR); try assumption.
    exists g', r. split; [|exact HR]. unfold set_path. rewrite <- H. f_equal. cbn [operand_tree gtree out]. unfold gforest. rewrite !map_app. reflexivity. }
  destruct Hs as (g' & r & Hs & Hc). eexists. exists g', r, v. split; [exact He|]. rewrite Eval_expression.
  change (gtree (etree_tree (Bin Asg (Leaf (OPath (map Name ps ++ [Index i]))) t))) with (Node (VStr (op_text Asg)) [Some (gtree (operand_tree (OPath (map Name ps ++ [Index i])))); Some (gtree (etree_tree t))]).
  rewrite (eval_asg E C Asg _ _ (S f) true g g v eq_refl Hv).
  split; [|split; [exact Hhd|exact Hc]]. unfold assign. cbn [asg_byte]. change (beq "=" "=") with true. cbv iota. rewrite Hs. reflexivity.
Qed.
Print Assumptions C64_index_partial.

Definition ex_actx : graph := nd "r" [nd "n" [Node (VInt KInt 7) []]; nd "m" [Node (VInt KInt 2) []]; nd "e" []].
Lemma ex_actx_data : all_nodes data ex_actx.
Proof.
  assert (H : forall v k, data v -> Forall (all_nodes data) k -> all_nodes data (Node v (map Some k))) by (intros v k Hv Hk; apply all_node; assumption).
  unfold ex_actx, nd. repeat (apply H; [exact I|]; repeat constructor); apply (H _ []); (exact I || constructor).
Qed.
Lemma ex_anum z : in64 z -> 0 <= z -> operand_ok env0 (ONum (format_int z)).
Proof.
  intros Hz H0. unfold format_int. replace (z <? 0) with false by lia. destruct (format_nat_spec z H0) as (Hd & _).
  exists [], (format_nat z), []. rewrite app_nil_r. split; [reflexivity|]. split; [left; reflexivity|]. split; [exact Hd|left; reflexivity].
Qed.
Lemma ex_aname c : In c ["n"; "m"; "e"; "x"; "a"; "b"]%byte -> operand_ok env0 (OPath [Name [c]]).
Proof. intros H. repeat (destruct H as [<-|H]; [split; [ascii_names|split; [left; reflexivity|split; [cbn; lia|discriminate]]]|]). destruct H. Qed.
Lemma ex_astep b1 op b2 o : blanks b1 -> blanks b2 -> operand_ok env0 o -> hd_error (operand_text o) <> Some "-"%byte -> step_ok env0 (mkStep b1 op b2 o).
Proof. intros H1 H2 H3 H4. split; [exact H1|]. split; [exact H2|]. split; [exact H3|]. cbn [rand]. destruct (operand_text o) as [|c w]; [exact I|]. intros ->. exfalso. apply H4. reflexivity. Qed.
Definition ex_asteps : list step := [mkStep [] Plus [] (ONum (bs "1"))].
Example C64_ex : expr_text (OPath [Name (bs "n")]) (mkStep (bs " ") MulAsg (bs " ") (OPath [Name (bs "m")]) :: ex_asteps) = bs "n *= m+1" /\
  step_ok env0 (mkStep (bs " ") MulAsg (bs " ") (OPath [Name (bs "m")])) /\ Forall (step_ok env0) ex_asteps /\ all_nodes data ex_actx /\
  den env0 ex_actx (Bin Plus (Leaf (OPath [Name (bs "m")])) (Leaf (ONum (bs "1")))) (Some (DI 3)) /\
  variable env0 [bs "n"] ex_actx (Some (DI 7)) /\ updated MulAsg (Some (DI 7)) (DI 3) (Some (DI 21)) /\
  exists e g' r, NewExpression env0 20 (bs "n *= m+1") = Ok e /\ Eval env0 calls0 20 ex_actx (Some e) = Ok (g', EVal r) /\
    g' = nd "r" [nd "n" [Node (VInt KInt64 21) []]; nd "m" [Node (VInt KInt 2) []]; nd "e" []].
Proof.
  assert (H1 : step_ok env0 (mkStep (bs " ") MulAsg (bs " ") (OPath [Name (bs "m")]))).
  { apply ex_astep; [repeat constructor|repeat constructor|apply (ex_aname "m"); cbn; auto|discriminate]. }
  assert (H2 : Forall (step_ok env0) ex_asteps).
  { constructor; [|constructor]. apply ex_astep; [constructor|constructor|apply (ex_anum 1); unfold in64; lia|discriminate]. }
  assert (Hw : forall s i c, nth_error [bs "n"; bs "m"] i = Some s -> nth_error [nd "n" [Node (VInt KInt 7) []]; nd "m" [Node (VInt KInt 2) []]] i = Some c -> walk env0 (map Name [s]) ex_actx c).
  { intros s i c Hs Hc. destruct i as [|[|[|]]]; try discriminate; injection Hs as <-; injection Hc as <-.
    - eapply walk_key with (i := O); [reflexivity|split; [reflexivity|split; [eexists; split; reflexivity|intros j c Hj; lia]]|constructor].
    - eapply walk_key with (i := 1%nat); [reflexivity|split; [reflexivity|split; [eexists; split; reflexivity|]]|constructor].
      intros j c Hj Hc. destruct j as [|j]; [|lia]. injection Hc as <-. intros (t & Ht & K). injection Ht as <-. discriminate K. }
  assert (H3 : den env0 ex_actx (Bin Plus (Leaf (OPath [Name (bs "m")])) (Leaf (ONum (bs "1")))) (Some (DI 3))).
  { change (Some (DI 3)) with (option_map DI (Some 3)). eapply den_arith with (a := 2) (b := 1).
    - apply (den_path env0 ex_actx [bs "m"] (nd "m" [Node (VInt KInt 2) []]) (VInt KInt 2) (DI 2)); [discriminate|ascii_names| | |reflexivity|split; [unfold in64; lia|eexists; reflexivity]].
      + constructor; [|constructor]. intros H. repeat (destruct H as [H|H]; [discriminate H|]). exact H.
      + apply (Hw _ 1%nat); reflexivity.
    - apply (den_num env0 ex_actx 1). unfold in64; lia.
    - apply ar_plus. split; [unfold in64; lia|exists 0; lia]. }
  assert (H4 : variable env0 [bs "n"] ex_actx (Some (DI 7))).
  { eapply var_held; [apply (Hw _ O); reflexivity|reflexivity|]. split; [unfold in64; lia|eexists; reflexivity]. }
  assert (H5 : updated MulAsg (Some (DI 7)) (DI 3) (Some (DI 21))).
  { apply (up_arith MulAsg Mul 7 3 (Some 21)); [reflexivity|]. apply ar_mul. split; [unfold in64; lia|exists 0; lia]. }
  split; [reflexivity|]. split; [exact H1|]. split; [exact H2|]. split; [exact ex_actx_data|]. split; [exact H3|]. split; [exact H4|]. split; [exact H5|].
  destruct (NewExpression_spec env0 (OPath [Name (bs "n")]) (mkStep (bs " ") MulAsg (bs " ") (OPath [Name (bs "m")]) :: ex_asteps) 20) as (t & F & O & G & He);
    [apply (ex_aname "n"); cbn; auto|constructor; assumption|vm_compute; discriminate|cbn; lia|].
  rewrite (grouped_unique t (Bin MulAsg (Leaf (OPath [Name (bs "n")])) (Bin Plus (Leaf (OPath [Name (bs "m")])) (Leaf (ONum (bs "1"))))) G ltac:(cbn; lia) F O) in He.
  eexists. eexists. eexists. split; [exact He|]. split; [vm_compute; reflexivity|reflexivity].
Qed.
(** a = b = 3 sets neither a nor b: the assignments group to the left and the tree of the first
    one is taken as a path. *)
Theorem C64_chain_refuted : exists e g', NewExpression env0 20 (bs "a=b=3") = Ok e /\ Eval env0 calls0 20 (nd "r" []) (Some e) = Ok (g', EVal (VPtr (Some (Node (VInt KInt64 3) [])))) /\
  g' = nd "r" [nd "!p" [nd "!p" [Node (VInt KInt64 3) []]]].
Proof.
  destruct (NewExpression_spec env0 (OPath [Name (bs "a")]) [mkStep [] Asg [] (OPath [Name (bs "b")]); mkStep [] Asg [] (ONum (bs "3"))] 20) as (t & F & O & G & He);
    [apply (ex_aname "a"); cbn; auto 10| |vm_compute; discriminate|cbn; lia|].
  { constructor; [apply ex_astep; [constructor|constructor|apply (ex_aname "b"); cbn; auto 10|discriminate]|].
    constructor; [apply ex_astep; [constructor|constructor|apply (ex_anum 3); unfold in64; lia|discriminate]|constructor]. }
  rewrite (grouped_unique t (Bin Asg (Bin Asg (Leaf (OPath [Name (bs "a")])) (Leaf (OPath [Name (bs "b")]))) (Leaf (ONum (bs "3")))) G ltac:(cbn; lia) F O) in He.
  eexists. eexists. split; [exact He|]. split; [vm_compute; reflexivity|reflexivity].
Qed.
Print Assumptions C64_chain_refuted.
(** += on a variable that is there but empty panics. *)
Theorem C64_empty_refuted : exists e, NewExpression env0 20 (bs "e+=1") = Ok e /\ Eval env0 calls0 20 ex_actx (Some e) = Panic.
Proof.
  destruct (NewExpression_spec env0 (OPath [Name (bs "e")]) [mkStep [] PlusAsg [] (ONum (bs "1"))] 20) as (t & F & O & G & He);
    [apply (ex_aname "e"); cbn; auto 10| |vm_compute; discriminate|cbn; lia|].
  { constructor; [|constructor]. apply ex_astep; [constructor|constructor|apply (ex_anum 1); unfold in64; lia|discriminate]. }
  rewrite (grouped_unique t (Bin PlusAsg (Leaf (OPath [Name (bs "e")])) (Leaf (ONum (bs "1")))) G ltac:(cbn; lia) F O) in He.
  eexists. split; [exact He|]. vm_compute. reflexivity.
Qed.
Print Assumptions C64_empty_refuted.
