(** C39: when NewExpression panics. *)
From Verif Require Import Base Value Event EventSpec EventFacts Lexer TextParser Stream Buffer BufferSpec BufferFacts Wp TextTerm TextSpec TextDoc Graph GraphSpec GraphFacts Emit PathParser PathTerm WpLong PathSpec PathFacts PathLimits JamSpec Jam Samples.

Local Notation len l := (Z.of_nat (List.length l)).

(** ** Any expression *)
Lemma forest_full l : forall evs, Forall full (forest l evs).
Proof.
  intros evs. revert l. induction evs as [|[i v] evs IH]; intros l; cbn [forest]; [constructor|]. destruct (_ =? _); [constructor|]. destruct (_ =? _); [|apply IH].
  constructor; [|apply IH]. constructor. apply IH.
Qed.

(** Building the tree of an expression panics if and only if somewhere in it the operators at the beginning or at the end are jammed. *)
Theorem C39_tree : forall g, full g -> (ast_ true g = Panic <-> jam true g).
Proof. intros g Hg. apply ast_jam, Hg. Qed.
Print Assumptions C39_tree.

(** NewExpression of an ASCII text, or of one where every byte that is a Latin-1 letter begins a letter: the parser returns a graph without
    nil nodes, NewExpression panics if operators are jammed in it, and otherwise it returns. *)
Theorem C39_panics_partial : forall E s fuel, well_lettered E s -> len s <= 4094 -> (5 * List.length s + 4 <= fuel)%nat ->
  exists b x h g, run_buf E fuel (Expression fuel fuel) (NewLexer (bytes_reader s)) h_init = Ok (b, x, h) /\ Tree h = Ok g /\ full g /\
  (jam true (Node (VStr (bs "!e")) (out g)) /\ NewExpression E fuel s = Panic \/
   ~ jam true (Node (VStr (bs "!e")) (out g)) /\ exists e, NewExpression E fuel s = Ok e).
Proof.
  intros E s fuel HW Hl Hf.
  destruct (expr_total E s fuel HW Hl Hf) as (l & Hx). pose proof (NewExpression_ideal E fuel s Hl ltac:(lia)) as Hi. unfold s_expr in Hi.
  destruct (terminates E s fuel HW ltac:(lia) fuel) as (H & _).
  specialize (H (s_init s) h_init (st_init s) h_init_inv ltac:(change (rem (s_init s)) with (List.length s); lia)). unfold wpi in H.
  destruct (run E _ (s_init s) h_init) as [[[b s'] h']| |] eqn:Er; try contradiction. destruct H as ((_ & Hh & _) & _). clear Hi.
  pose proof (run_ideal E fuel (Expression fuel fuel) (fun h => Tree h) s Hl ltac:(lia)) as R. rewrite Er in R. cbn [rbind] in R.
  rewrite (h_inv_Tree h' (proj1 Hh)) in R. unfold NewExpression in *.
  destruct (run_buf E fuel _ _ _) as [[[b1 x] h]| |]; cbn [rbind] in *; try discriminate.
  exists b1, x, h, (events_graph (evs h')). split; [reflexivity|]. split; [exact R|]. split; [constructor; apply forest_full|]. rewrite R. cbn [rbind events_graph out].
  assert (Hg : full (Node (VStr TypeExpression) (map Some (forest 0 (evs h'))))) by (constructor; apply forest_full).
  pose proof (ast_jam _ Hg true) as J. pose proof (TemplateTerm.ast_stops (Node (VStr TypeExpression) (map Some (forest 0 (evs h')))) true) as N.
  destruct (ast_ true (Node (VStr TypeExpression) (map Some (forest 0 (evs h'))))) as [e| |]; [right|left|congruence].
  - split; [|eauto]. intros Hj. apply J in Hj. discriminate.
  - split; [apply J|]; reflexivity.
Qed.
Print Assumptions C39_panics_partial.

(** "a + b *": the last operator lacks its operand.  "a + *b": jammed in the middle, which does no harm. *)
Example C39_jam_ex : jammed (map strength [bs "!p"; bs "+"; bs "!p"; bs "*"]) /\ ~ jammed (map strength [bs "!p"; bs "+"; bs "*"; bs "!p"]).
Proof.
  split; [right; exists 0%nat; reflexivity|]. intros [(n & H)|(n & H)]; cbn in H; lia.
Qed.
Example C39_panics_ex : full (nd "!e" [nd "!p" [nd "a" []]; nd "+" []; nd "!p" [nd "b" []]; nd "*" []]) /\
  jam true (nd "!e" [nd "!p" [nd "a" []]; nd "+" []; nd "!p" [nd "b" []]; nd "*" []]) /\
  NewExpression env0 50 (bs "a + b *") = Panic /\ NewExpression env0 50 (bs "a + *b") <> Panic.
Proof.
  split; [|split; [|split]].
  - repeat (apply (full_node _ [_; _; _; _]) || apply (full_node _ [_]) || apply (full_node _ []) || constructor).
  - apply (jam_here _ [_; _; _; _]); [cbn; lia|]. right. exists 0%nat. reflexivity.
  - rewrite NewExpression_ideal by (cbn; lia). vm_compute. reflexivity.
  - rewrite NewExpression_ideal by (cbn; lia). vm_compute. discriminate.
Qed.

(** ** Texts that end in an operator *)
Section Tail.
Variable E : env.
Variable F : nat.
Ltac call L := apply wpx_bind; eapply wpx_mono; [apply L|]; cbn beta.

Lemma x_lacking s h f : at_ s [] -> (4 <= f)%nat -> (1 < F)%nat ->
  wpx E (UnaryExpression F f) s h (fun b s' h' => b = false /\ h' = h).
Proof.
  intros Ha Hf HF. destruct f as [|[|f]]; try lia. cbn [UnaryExpression]. call (x_peek E); [exact Ha|]. intros c s1 h1 (-> & H1 & ->).
  change (is_letter x00) with false. cbn iota.
  apply wpx_bind. eapply (wpx_mono E _ s1 h (fun a s' h' => a = None /\ at_ s' [] /\ h' = h)).
  { unfold Number_tok. call (x_peek E); [exact H1|]. intros c s2 h2 (-> & H2 & ->). change (beq x00 "-" || beq x00 "+") with false. cbn iota.
    apply wpx_bind, wpx_ret, wpx_bind. eapply wpx_mono; [apply (x_number_loop E F [] F false [] s2 []); auto|].
    - exact I.
    - cbn. lia.
    - cbn beta. intros a s3 h3 (-> & H3 & ->). apply wpx_ret. auto. }
  intros a s2 h2 (-> & H2 & ->). call (x_no_Quoted E F s2 []); [exact H2|exact I|]. intros q s3 h3 (-> & H3 & ->).
  unfold Operator. call (x_span E F is_operator [] [] s3 []); auto; [exact I|cbn; lia|]. intros x s4 h4 (-> & H4 & ->). cbn [app]. apply wpx_bind, wpx_ret.
  call (x_peek E); [exact H4|]. intros c s5 h5 (-> & H5 & ->). change (beq x00 "(") with false. cbn iota.
  change (path_loop F (S f) true true false) with (do go <- Ret (Some true); match go with None => Ret false | Some dot => path_body F f dot false end).
  apply wpx_bind, wpx_ret. unfold path_body.
  call (x_no_Quoted E F s5 []); [exact H5|exact I|]. intros q s6 h6 (-> & H6 & ->).
  apply (x_tok E F _ [] s6 []); auto; [constructor|apply fit_nil|left; reflexivity|]. intros s7 H7.
  assert (Hb : forall l t s h, beq x00 l = false -> at_ s [] -> wpx E (bracket F f l t (if beq l "[" then TypeIndex else TypeSelector)) s h (fun b s' h' => b = false /\ at_ s' [] /\ h' = h)).
  { intros l t s0 h0 Hl H0. destruct f as [|f']; [lia|]. cbn [bracket]. call (x_peek E); [exact H0|]. intros c s8 h8 (-> & H8 & ->). rewrite Hl. cbn [negb]. apply wpx_ret. auto. }
  call (Hb "["%byte "]"%byte s7 h); [reflexivity|exact H7|]. intros b s8 h8 (-> & H8 & ->).
  call (Hb "{"%byte "}"%byte s8 h); [reflexivity|exact H8|]. intros b s9 h9 (-> & H9 & ->).
  destruct f as [|f]; [lia|]. cbn [Args]. apply wpx_bind. call (x_peek E); [exact H9|]. intros c s10 h10 (-> & H10 & ->).
  change (negb (beq x00 "(")) with true. cbn iota. apply wpx_ret. apply wpx_ret. auto.
Qed.

Definition tail_text (b : bytes) (o : optor) (b' : bytes) : bytes := b ++ op_text o ++ b'.
Lemma tail_end b o b' : blanks b -> rand_end (tail_text b o b').
Proof.
  intros Hb. unfold tail_text. destruct b as [|c b]; cbn [app].
  - destruct o; cbn; right; left; reflexivity.
  - cbn. left. inversion Hb; subst. apply blank_space. assumption.
Qed.
Lemma steps_tail l b o b' : Forall (step_ok E) l -> blanks b -> rand_end (flat_map step_text l ++ tail_text b o b').
Proof.
  intros Hl Hb. destruct l as [|x l]; [apply tail_end, Hb|]. inversion Hl as [|? ? (Hx & _) _]; subst. cbn [flat_map]. unfold step_text. rewrite <- !app_assoc.
  exact (tail_end _ _ _ Hx).
Qed.

Lemma x_tail : forall n l f s b o b' h, List.length l = n -> Forall (step_ok E) l -> blanks b -> blanks b' -> at_ s (flat_map step_text l ++ tail_text b o b') -> h_inv h ->
  (List.length (flat_map step_text l ++ tail_text b o b') < F)%nat -> (List.length (flat_map step_text l) + 8 <= f)%nat ->
  wpx E (expr_loop F f) s h (fun _ s' h' => adds h (flat_map step_trees l ++ [T (op_text o) []]) h').
Proof.
  induction n as [|n IH]; intros l f s b o b' h En Hl Hb Hb' Ha Hh HF Hf; (destruct f as [|f]; [lia|]); cbn [expr_loop].
  - destruct l as [|? ?]; [|discriminate]. cbn [flat_map app] in *. unfold tail_text in *. rewrite !app_length in HF. pose proof (op_text_pos o) as Hop.
    call (x_Space E F s b (op_text o ++ b')); [exact Ha|exact Hb|destruct o; reflexivity|lia|]. intros _ s1 h1 (H1 & ->).
    unfold Operator. call (x_span E F is_operator (op_text o) [] s1 b'); auto; [apply op_text_ops| |lia|].
    { destruct b' as [|c b']; [exact I|]. inversion Hb' as [|? ? Hx _]; subst. apply blank_space, space_cases in Hx. cbn in Hx. cbn. repeat (destruct Hx as [<-|Hx]; [reflexivity|]); destruct Hx. }
    intros x s2 h2 (-> & H2 & ->). cbn [app]. destruct (op_text o) as [|o0 ot] eqn:Eo; [cbn in Hop; lia|]. rewrite <- Eo in *. apply wpx_emit.
    call (x_Space E F s2 b' []); [rewrite app_nil_r; exact H2|exact Hb'|exact I|lia|]. intros _ s3 h3 (H3 & ->).
    call x_lacking; [exact H3|lia|lia|]. intros y s4 h4 (-> & ->). apply wpx_ret. apply adds_leaf, Hh.
  - destruct l as [|x l]; [discriminate|]. inversion Hl as [|? ? Hx Hl']; subst. destruct Hx as (Hbx & Haf & Ho & Hs). cbn [flat_map] in *.
    change (step_text x) with (before x ++ op_text (oper x) ++ after x ++ operand_text (rand x)) in Ha, HF, Hf.
    repeat rewrite app_length in HF. repeat rewrite app_length in Hf. rewrite <- !app_assoc in Ha. pose proof (op_text_pos (oper x)) as Hop. destruct (operand_head E _ Ho) as (c & rr & Eo & Hc1 & Hc2).
    call (x_Space E F s (before x) (op_text (oper x) ++ after x ++ operand_text (rand x) ++ flat_map step_text l ++ tail_text b o b')); [exact Ha|exact Hbx| |lia|].
    { destruct (oper x); reflexivity. }
    intros _ s1 h1 (H1 & ->). unfold Operator.
    call (x_span E F is_operator (op_text (oper x)) [] s1 (after x ++ operand_text (rand x) ++ flat_map step_text l ++ tail_text b o b')); auto; [apply op_text_ops| |lia|].
    { destruct (after x) as [|a0 af] eqn:Ea.
      - cbn [app]. rewrite Eo in *. cbn [app stops]. apply Hc2. intro Hx. apply (Hs Hx). reflexivity.
      - cbn. inversion Haf as [|? ? Hx _]; subst. apply blank_space, space_cases in Hx. cbn in Hx. repeat (destruct Hx as [<-|Hx]; [reflexivity|]); destruct Hx. }
    intros x2 s2 h2 (-> & H2 & ->). cbn [app]. destruct (op_text (oper x)) as [|o0 ot] eqn:Eot; [cbn in Hop; lia|]. rewrite <- Eot in *.
    apply wpx_emit. call (x_Space E F s2 (after x) (operand_text (rand x) ++ flat_map step_text l ++ tail_text b o b')); [exact H2|exact Haf|rewrite Eo; exact Hc1|lia|].
    intros _ s3 h3 (H3 & ->).
    call (x_operand E F (rand x) f s3 (flat_map step_text l ++ tail_text b o b')); auto; [apply steps_tail; [exact Hl'|exact Hb]|apply h_add_inv, Hh|lia|lia|].
    intros y s4 h4 (-> & H4 & A4).
    assert (K : exists bl l' b2, flat_map step_text l ++ tail_text b o b' = bl ++ flat_map step_text l' ++ tail_text b2 o b' /\ blanks bl /\ blanks b2 /\
      Forall (step_ok E) l' /\ List.length l' = List.length l /\ flat_map step_trees l' = flat_map step_trees l /\ no_blank (flat_map step_text l' ++ tail_text b2 o b') /\
      (List.length (flat_map step_text l') <= List.length (flat_map step_text l))%nat).
    { destruct l as [|z l].
      - exists b, [], []. unfold tail_text. cbn [flat_map app List.length]. repeat split; auto; [constructor|destruct o; reflexivity].
      - inversion Hl' as [|? ? (Z1 & Z3 & Z4 & Z5) Z2]; subst. exists (before z), (mkStep [] (oper z) (after z) (rand z) :: l), b. split.
        { cbn [flat_map]. unfold step_text. cbn [before oper after rand app]. rewrite <- !app_assoc. reflexivity. }
        split; [exact Z1|]. split; [exact Hb|]. split; [constructor; [|exact Z2]; repeat split; cbn [before oper after rand]; auto; constructor|]. split; [reflexivity|]. split; [reflexivity|].
        split; [cbn [flat_map]; unfold step_text; cbn [before oper app]; destruct (oper z); reflexivity|].
        cbn [flat_map]. unfold step_text. cbn [before oper after rand app]. rewrite !app_length. lia. }
    destruct K as (bl & l' & b2 & Ebl & Hbl & Hb2 & Hl2 & Elen & Etr & Hnb & Hle).
    assert (HL : List.length (flat_map step_text l ++ tail_text b o b') = List.length (bl ++ flat_map step_text l' ++ tail_text b2 o b')) by (rewrite Ebl; reflexivity).
    rewrite Ebl in H4. rewrite !app_length in HL.
    call (x_Space E F s4 bl (flat_map step_text l' ++ tail_text b2 o b')); [exact H4|exact Hbl|exact Hnb|lia|]. intros _ s5 h5 (H5 & ->).
    eapply wpx_mono; [apply (IH l' f s5 b2 o b' h4); auto; try congruence|].
    + cbn [List.length] in En. lia.
    + exact (adds_inv _ _ _ A4).
    + rewrite !app_length. lia.
    + lia.
    + cbn beta. intros _ s6 h6 A6. rewrite Etr in A6.
      exact (adds_app _ [T (op_text (oper x)) []] _ _ _ (adds_leaf h _ Hh) (adds_app _ [operand_tree (rand x)] _ _ _ A4 A6)).
Qed.
End Tail.

Lemma operand_weak E a : operand_ok E a -> strength (content (gtree (operand_tree a))) = -1.
Proof.
  destruct a as [n|q w|es]; cbn [operand_tree operand_ok]; intros H; try reflexivity. rewrite <- strength_eq. apply (precedence_number n H).
Qed.
Lemma op_strong o : 0 <= strength (content (gtree (T (op_text o) []))).
Proof. destruct o; cbn; lia. Qed.

(** A well-formed expression with at least two operands, followed by one more operator: NewExpression panics. *)
Theorem C39_trailing_refuted : forall E a l b o b' fuel, operand_ok E a -> Forall (step_ok E) l -> l <> [] -> blanks b -> blanks b' ->
  let s := expr_text a l ++ b ++ op_text o ++ b' in
  len s <= 4094 -> (List.length s + 12 <= fuel)%nat -> NewExpression E fuel s = Panic.
Proof.
  intros E a l b o b' fuel Ha Hl Hne Hb Hb' s Hlen Hf. unfold s in *. clear s. change (b ++ op_text o ++ b') with (tail_text b o b') in *.
  rewrite NewExpression_ideal by lia. unfold s_expr.
  assert (H : wpx E (Expression fuel fuel) (s_init (expr_text a l ++ tail_text b o b')) h_init
    (fun _ s' h' => adds h_init (operand_tree a :: flat_map step_trees l ++ [T (op_text o) []]) h')).
  { destruct fuel as [|f]; [lia|]. set (F := S f) in *. cbn [Expression]. unfold expr_text in *. rewrite <- app_assoc in *. rewrite app_length in Hf.
    apply wpx_bind. eapply wpx_mono; [apply (x_operand E F a f _ (flat_map step_text l ++ tail_text b o b'))|].
    - exact Ha.
    - split; [apply good_false|reflexivity].
    - apply (steps_tail E); assumption.
    - apply h_init_inv.
    - lia.
    - lia.
    - cbn beta. intros y s1 h1 (-> & H1 & A1). eapply wpx_mono; [apply (x_tail E F (List.length l) l f s1 b o b' h1); auto|].
      + exact (adds_inv _ _ _ A1).
      + lia.
      + rewrite app_length in Hf. lia.
      + cbn beta. intros y s2 h2 A2. exact (adds_app _ [operand_tree a] _ _ _ A1 A2). }
  unfold wpx, short, wpi in H. destruct (run E _ _ _) as [[[y s'] h']| |]; try contradiction. cbn [rbind]. rewrite (adds_Tree _ _ H). cbn [rbind groot out].
  destruct l as [|x l]; [congruence|]. clear Hne.
  set (k := operand_tree a :: flat_map step_trees (x :: l) ++ [T (op_text o) []]).
  assert (Hk : Forall flat k).
  { constructor; [apply operand_flat|]. apply Forall_app. split; [apply steps_flat|]. constructor; [apply leaf_flat|constructor]. }
  rewrite ast_eq, ast_list_flat by exact Hk. cbn [rbind].
  assert (K3 : (3 <= List.length (map gtree k))%nat) by (unfold k; rewrite map_length; cbn [List.length flat_map step_trees app]; lia).
  replace (true && (List.length (gforest k) <? 2)%nat) with false by (symmetry; apply andb_false_iff; right; apply Nat.ltb_ge; rewrite gforest_map, !map_length in *; lia).
  apply (ast_top_jammed (VStr TypeExpression) (map gtree k)); [lia|]. split; [exact K3|].
  right. unfold k. destruct (exists_last (l := x :: l)) as (l0 & z & El); [discriminate|]. rewrite El in *.
  assert (E2 : forall p q r, 0 <= p -> q = -1 -> climbing 0 (p :: q :: r) = 1%nat).
  { intros p q r Hp ->. cbn [climbing]. destruct (Z.leb_spec 0 p); [|lia]. destruct (Z.leb_spec p (-1)); [lia|reflexivity]. }
  assert (Hz : step_ok E z) by (apply Forall_app in Hl as (_ & Hl); inversion Hl; assumption).
  assert (Ek : exists r, rev (map str (map gtree (operand_tree a :: flat_map step_trees (l0 ++ [z]) ++ [T (op_text o) []]))) =
    str (gtree (T (op_text o) [])) :: str (gtree (operand_tree (rand z))) :: r).
  { rewrite flat_map_app. cbn [flat_map step_trees app]. rewrite <- !map_rev. cbn [rev]. rewrite !rev_app_distr. cbn [rev app map]. eauto. }
  destruct Ek as (r & ->). rewrite E2; [exists 0%nat; reflexivity|apply op_strong|apply (operand_weak E), Hz].
Qed.
Print Assumptions C39_trailing_refuted.
Example C39_trailing_ex : NewExpression env0 30 (bs "a + 3 * ") = Panic.
Proof.
  apply (C39_trailing_refuted env0 (OPath [Name (bs "a")]) [mkStep (bs " ") Plus (bs " ") (ONum (bs "3"))] (bs " ") Mul (bs " ") 30).
  - split; [|cbn; repeat split; try (left; reflexivity); try discriminate; lia]. constructor; [|constructor]. cbn. apply name_ascii; [discriminate|repeat constructor].
  - constructor; [|constructor]. repeat split; cbn; try (repeat constructor); try discriminate. exists [], (bs "3"), []. split; [reflexivity|]. split; [auto|]. split; [|auto]. split; [discriminate|repeat constructor; discriminate].
  - discriminate.
  - repeat constructor.
  - repeat constructor.
  - cbn. lia.
  - cbn. lia.
Qed.
