(** C15, C39, C40: parsing of paths and expressions. *)
From Verif Require Import Base Value TextSpec Buffer PathParser PathTerm PathSpec PathFacts PathLimits Samples.

Local Notation len l := (Z.of_nat (List.length l)).

(** ** C15 NewPath on a token returns a path with that token as its only element.
    Full claim: a token of any length.  Here: a name (letters and digits of any alphabet in UTF-8, underscore) that
    fits in the lexer's buffer. *)
Theorem C15_name_partial : forall E s fuel, name E s -> len s <= 4094 -> (List.length s + 4 <= fuel)%nat ->
  NewPath E fuel s = Ok (Node (VStr (bs "!p")) [Some (Node (VStr s) [])]).
Proof.
  intros E s fuel Hs Hl Hf. pose proof (NewPath_names E [Name s] fuel) as H. cbn [path_text elem_text flat_map app] in H. rewrite app_nil_r in H.
  rewrite H; [reflexivity|constructor; [exact Hs|constructor]|discriminate|exact Hl|exact Hf].
Qed.
Print Assumptions C15_name_partial.
Example C15_name_ex : name env0 (bs "a_1") /\ NewPath env0 9 (bs "a_1") = Ok (nd "!p" [nd "a_1" []]).
Proof.
  assert (H : name env0 (bs "a_1")) by ascii_names. split; [exact H|].
  apply C15_name_partial; [exact H|cbn; lia|cbn; lia].
Qed.

(** Names in other alphabets: e with an acute accent (U+00E9), and alpha (U+03B1) where that is a letter *)
Example C15_unicode_ex : name env0 [xc3; xa9; x74; xc3; xa9] /\ (forall E, hi_letter E 0x3B1 = true -> name E [xce; xb1; x31]) /\
  NewPath env0 9 [xc3; xa9; x74; xc3; xa9] = Ok (Node (VStr (bs "!p")) [Some (Node (VStr [xc3; xa9; x74; xc3; xa9]) [])]).
Proof.
  assert (H : name env0 [xc3; xa9; x74; xc3; xa9]).
  { split; [discriminate|]. apply (letters_cons _ 0xE9 [xc3; xa9] [x74; xc3; xa9]); [apply utf8_2; cbn; lia|reflexivity|].
    apply (letters_cons _ 0x74 [x74] [xc3; xa9]); [apply (utf8_1 x74); cbn; lia|reflexivity|].
    apply (letters_cons _ 0xE9 [xc3; xa9] []); [apply utf8_2; cbn; lia|reflexivity|constructor]. }
  split; [exact H|]. split.
  - intros E HE. split; [discriminate|]. apply (letters_cons _ 0x3B1 [xce; xb1] [x31]); [apply utf8_2; cbn; lia|unfold name_rune; rewrite HE; reflexivity|].
    apply (letters_cons _ 0x31 [x31] []); [apply (utf8_1 x31); cbn; lia|reflexivity|constructor].
  - apply C15_name_partial; [exact H|cbn; lia|cbn; lia].
Qed.

(** More generally, a path of names, quoted strings and indexes is read element by element. *)
Theorem C15_path_partial : forall E es fuel, Forall (elem_ok E) es -> es <> [] -> len (path_text es) <= 4094 -> (List.length (path_text es) + 4 <= fuel)%nat ->
  NewPath E fuel (path_text es) = Ok (Node (VStr (bs "!p")) (gforest (map elem_tree es))).
Proof. exact NewPath_names. Qed.
Print Assumptions C15_path_partial.
Definition ex_path : list elem := [Name (bs "a"); Index (bs "12"); Quote x22 (bs "b c"); Name (bs "d")].
Example C15_path_ex : Forall (elem_ok env0) ex_path /\ path_text ex_path = bs "a[12].""b c"".d" /\
  NewPath env0 30 (bs "a[12].""b c"".d") = Ok (nd "!p" [nd "a" []; nd "!i" [nd "12" []]; nd "b c" []; nd "d" []]).
Proof.
  assert (H : Forall (elem_ok env0) ex_path).
  { unfold ex_path. ascii_names. }
  split; [exact H|]. split; [reflexivity|].
  change (bs "a[12].""b c"".d") with (path_text ex_path). rewrite C15_path_partial; [reflexivity|exact H|discriminate|cbn; lia|cbn; lia].
Qed.

(** A name of 4096 bytes or more: NewPath never returns, whatever the bound on its steps. *)
Theorem C15_long_names_never_return : forall E s, Forall (fun c => name_char c = true) s -> 4096 <= len s -> forall fuel, NewPath E fuel s = NoFuel.
Proof. intros E s Hs Hl fuel. apply NewPath_endless; assumption. Qed.
Print Assumptions C15_long_names_never_return.
Theorem C15_any_length_refuted : exists s, (forall E, name E s) /\ forall E fuel g, NewPath E fuel s <> Ok g.
Proof.
  exists (repeat "a"%byte (Z.to_nat 4096)). split.
  - intro E. apply name_ascii; [|apply Forall_forall; intros c Hc; apply repeat_spec in Hc; subst; reflexivity].
    intro H. apply (f_equal (@List.length byte)) in H. rewrite repeat_length in H. cbn [List.length] in H. lia.
  - intros E fuel g. rewrite NewPath_endless; [discriminate| |rewrite repeat_length; lia].
    apply Forall_forall; intros c Hc; apply repeat_spec in Hc; subst; reflexivity.
Qed.
Print Assumptions C15_any_length_refuted.

(** ** C39 NewPath and NewExpression return.  Full claim: for every text.  Here: for every
    ASCII text that fits in the lexer's buffer, NewPath returns, *)
Theorem C39_path_partial : forall E s fuel, ascii s -> len s <= 4094 -> (5 * List.length s + 4 <= fuel)%nat ->
  exists l, NewPath E fuel s = Ok (Node (VStr (bs "!p")) l).
Proof. intros E s fuel Hs. apply path_total, ascii_well_lettered, Hs. Qed.
Print Assumptions C39_path_partial.
(** and so does the parser of NewExpression (what is left is building the syntax tree). *)
Theorem C39_expression_partial : forall E s fuel, ascii s -> len s <= 4094 -> (5 * List.length s + 4 <= fuel)%nat ->
  exists l, NewExpression E fuel s = ast_ true (Node (VStr (bs "!e")) l).
Proof. intros E s fuel Hs. apply expr_total, ascii_well_lettered, Hs. Qed.
Print Assumptions C39_expression_partial.
(** Both also hold for texts beyond ASCII, if every byte that is a Latin-1 letter begins a
    letter in UTF-8. *)
Theorem C39_path_utf8_partial : forall E s fuel, well_lettered E s -> len s <= 4094 -> (5 * List.length s + 4 <= fuel)%nat ->
  exists l, NewPath E fuel s = Ok (Node (VStr (bs "!p")) l).
Proof. exact path_total. Qed.
Print Assumptions C39_path_utf8_partial.
Example C39_ex : ascii (bs "a(b[") /\ NewPath env0 40 (bs "a(b[") =
  Ok (nd "!p" [nd "a" []; nd "!a" [nd "!e" [nd "!p" [nd "b" []; nd "!i" []]]]]).
Proof. split; [repeat constructor; cbn; lia|]. rewrite NewPath_ideal by (cbn; lia). vm_compute. reflexivity. Qed.

(** A name, a parenthesis and the character U+00D7 (bytes C3 97): NewPath never returns,
    whatever follows. *)
Theorem C39_path_refuted : exists s, forall E r fuel, len (s ++ r) <= 4094 -> (List.length (s ++ r) < fuel)%nat -> NewPath E fuel (s ++ r) = NoFuel.
Proof.
  exists ["a"; "("; xc3; x97]%byte. intros E r fuel Hl Hf. apply (NewPath_stuck E ["a"%byte] r); [|exact Hl|exact Hf].
  ascii_names.
Qed.
Print Assumptions C39_path_refuted.
(** An expression that begins with an operator (not a sign): NewExpression panics. *)
Theorem C39_expression_refuted : forall E o n l fuel, prefix_ok o -> digits n -> Forall (step_ok E) l -> l <> [] ->
  let s := op_text o ++ n ++ flat_map step_text l in
  len s <= 4094 -> (List.length s + 12 <= fuel)%nat -> NewExpression E fuel s = Panic.
Proof. exact NewExpression_prefix. Qed.
Print Assumptions C39_expression_refuted.
Example C39_expression_ex : NewExpression env0 30 (bs "*3+4") = Panic.
Proof.
  apply (C39_expression_refuted env0 Mul (bs "3") [mkStep [] Plus [] (ONum (bs "4"))] 30).
  - repeat split; discriminate.
  - split; [discriminate|repeat constructor; discriminate].
  - constructor; [|constructor]. split; [constructor|]. split; [constructor|]. split; [|cbn; discriminate].
    exists [], (bs "4"), []. split; [reflexivity|]. split; [auto|]. split; [|auto]. split; [discriminate|repeat constructor; discriminate].
  - discriminate.
  - cbn. lia.
  - cbn. lia.
Qed.

(** ** C40 Operators are grouped by precedence and from left to right: the in-order reading
    of the tree is the input and the tree is grouped.  The parser, on a text that fits in
    the lexer's buffer (parenthesised operands are not covered): *)
Theorem C40_expression_partial : forall E a l fuel, operand_ok E a -> Forall (step_ok E) l -> len (expr_text a l) <= 4094 -> (List.length (expr_text a l) + 8 <= fuel)%nat ->
  exists t, first t = a /\ others t = map (fun x => (oper x, rand x)) l /\ grouped t /\
  NewExpression E fuel (expr_text a l) = Ok (Node (VStr (bs "!e")) [Some (gtree (etree_tree t))]).
Proof. exact NewExpression_spec. Qed.
Print Assumptions C40_expression_partial.
(** The syntax tree of a sequence of operands and operators of any length: *)
Theorem C40_tree : forall E v a l, operand_ok E a -> Forall (step_ok E) l ->
  exists t, first t = a /\ others t = map (fun x => (oper x, rand x)) l /\ grouped t /\
  ast_ true (Node v (gforest (operand_tree a :: flat_map (fun x => [T (op_text (oper x)) []; operand_tree (rand x)]) l))) =
    Ok (Node v [Some (gtree (etree_tree t))]).
Proof. exact ast_spec. Qed.
Print Assumptions C40_tree.
(** These conditions leave only one tree. *)
Theorem C40_unique : forall t t', grouped t -> grouped t' -> first t = first t' -> others t = others t' -> t = t'.
Proof. exact grouped_unique. Qed.
Print Assumptions C40_unique.

(** A name whose first character is coded with the byte 0xD7 (Hebrew): NewPath reads it, and NewExpression
    too, but not as a path; it makes it a constant, as if the name were in quotes. *)
Theorem C40_hebrew_refuted : forall E w fuel, name E (xd7 :: w) -> len (xd7 :: w) <= 4094 -> (List.length (xd7 :: w) + 8 <= fuel)%nat ->
  NewPath E fuel (xd7 :: w) = Ok (Node (VStr (bs "!p")) [Some (Node (VStr (xd7 :: w)) [])]) /\
  NewExpression E fuel (xd7 :: w) = Ok (Node (VStr (bs "!e")) [Some (Node (VStr (xd7 :: w)) [])]).
Proof.
  intros E w fuel Hn Hl Hf. split; [apply C15_name_partial; auto; lia|]. apply NewExpression_loose; auto. apply Hn.
Qed.
Print Assumptions C40_hebrew_refuted.
Example C40_hebrew_ex : forall E, hi_letter E 0x5D0 = true -> name E [xd7; x90].
Proof.
  intros E HE. split; [discriminate|]. apply (letters_cons E 0x5D0 [xd7; x90] []); [apply utf8_2; cbn; lia| |constructor]. unfold name_rune. rewrite HE. reflexivity.
Qed.

Definition num (s : string) : operand := ONum (bs s).
Arguments num s%string_scope.
Definition ex_steps : list step := [mkStep [] Minus [] (num "2"); mkStep (bs " ") Mul (bs " ") (num "-3"); mkStep [] Minus [] (OPath [Name (bs "x"); Index (bs "0")])].
Definition ex_etree : etree := Bin Minus (Bin Minus (Leaf (num "1")) (Bin Mul (Leaf (num "2")) (Leaf (num "-3")))) (Leaf (OPath [Name (bs "x"); Index (bs "0")])).
Lemma ex_num s : digits (bs s) -> number_text (bs s).
Proof. intro H. exists [], (bs s), []. rewrite app_nil_r. auto. Qed.
Lemma ex_ok : operand_ok env0 (num "1") /\ Forall (step_ok env0) ex_steps.
Proof.
  split; [apply ex_num; split; [discriminate|repeat constructor; discriminate]|].
  constructor; [|constructor; [|constructor; [|constructor]]].
  - split; [constructor|]. split; [constructor|]. split; [apply ex_num; split; [discriminate|repeat constructor; discriminate]|cbn; discriminate].
  - split; [repeat constructor|]. split; [repeat constructor|]. split; [|cbn; discriminate].
    exists ["-"%byte], (bs "3"), []. split; [reflexivity|]. split; [auto|]. split; [split; [discriminate|repeat constructor; discriminate]|auto].
  - split; [constructor|]. split; [constructor|]. split; [|cbn; discriminate]. split; [|split; [left; reflexivity|split; [cbn; lia|discriminate]]].
    constructor; [apply name_ascii; [discriminate|repeat constructor]|]. constructor; [split; [discriminate|repeat constructor; discriminate]|constructor].
Qed.
Example C40_ex : expr_text (num "1") ex_steps = bs "1-2 * -3-x[0]" /\ operand_ok env0 (num "1") /\ Forall (step_ok env0) ex_steps /\
  grouped ex_etree /\ first ex_etree = num "1" /\ others ex_etree = map (fun x => (oper x, rand x)) ex_steps /\
  NewExpression env0 40 (bs "1-2 * -3-x[0]") = Ok (Node (VStr (bs "!e")) [Some (gtree (etree_tree ex_etree))]).
Proof.
  destruct ex_ok as (H1 & H2). assert (G : grouped ex_etree) by (cbn; repeat split; lia).
  split; [reflexivity|]. split; [exact H1|]. split; [exact H2|]. split; [exact G|]. split; [reflexivity|]. split; [reflexivity|].
  destruct (C40_expression_partial env0 (num "1") ex_steps 40 H1 H2) as (t & A & B & C & D); [cbn; lia|cbn; lia|].
  replace ex_etree with t; [exact D|]. apply C40_unique; auto.
Qed.
