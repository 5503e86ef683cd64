(** Properties C59 (lists of strings), C60 (Find), C61 (HTML), C62 (simplified XML) and C63
    (arguments of methods). *)
From Verif Require Import Base Value Graph NumFacts TypesSpec FloatFacts RoundSpec RoundFacts Emit Views ViewsSpec ViewsFacts Xml XmlSpec XmlFacts Samples.

(** ** C59 Strings returns the contents of the subnodes in order, StringTxt and StringCSV join
    them with blanks and with commas.  Nothing else is returned: when a content cannot be
    printed the call does not return. *)
Theorem C59_strings : forall E g l, Strings E (Some g) = Ok l <-> Forall2 (holds E) (out g) l.
Proof. intros E g l. apply contents_spec. Qed.
Print Assumptions C59_strings.
Theorem C59_txt : forall E g l def, Forall2 (holds E) (out g) l -> StringTxt E (Some g) def = Ok (join (bs " ") l).
Proof. intros E g l def H. apply StringTxt_spec, contents_spec, H. Qed.
Print Assumptions C59_txt.
Theorem C59_csv : forall E g l def, Forall2 (holds E) (out g) l -> l <> [] -> StringCSV E (Some g) def = Ok (join (bs ", ") l).
Proof. intros E g l def H. apply StringCSV_spec, contents_spec, H. Qed.
Print Assumptions C59_csv.
(** Contents without commas can be told apart in the result (and contents without blanks in
    that of StringTxt). *)
Theorem C59_csv_readable : forall E g g' l l' def, Forall2 (holds E) (out g) l -> Forall2 (holds E) (out g') l' -> l <> [] -> l' <> [] ->
  Forall (fun s => ~ In ","%byte s) l -> Forall (fun s => ~ In ","%byte s) l' ->
  StringCSV E (Some g) def = StringCSV E (Some g') def -> l = l'.
Proof.
  intros E g g' l l' def H H' N N' F F' Heq. rewrite (C59_csv E g l def H N), (C59_csv E g' l' def H' N') in Heq.
  injection Heq as Heq. exact (join_inj "," (bs " ") l l' N N' F F' Heq).
Qed.
Print Assumptions C59_csv_readable.
Theorem C59_txt_readable : forall E g g' l l' def, Forall2 (holds E) (out g) l -> Forall2 (holds E) (out g') l' -> l <> [] -> l' <> [] ->
  Forall (fun s => ~ In " "%byte s) l -> Forall (fun s => ~ In " "%byte s) l' ->
  StringTxt E (Some g) def = StringTxt E (Some g') def -> l = l'.
Proof.
  intros E g g' l l' def H H' N N' F F' Heq. rewrite (C59_txt E g l def H), (C59_txt E g' l' def H') in Heq.
  injection Heq as Heq. exact (join_inj " " [] l l' N N' F F' Heq).
Qed.
Print Assumptions C59_txt_readable.
(** On a nil graph, the default. *)
Theorem C59_default : forall E d, String_def E None (Some d) = Ok d /\ StringCSV E None (Some d) = Ok d /\ StringTxt E None (Some d) = Ok d.
Proof. repeat split. Qed.
Print Assumptions C59_default.
(** The claim that StringCSV returns for every graph is false: without subnodes it panics
    (slice bounds), whatever the default. *)
Theorem C59_csv_empty_refuted : forall E v def, StringCSV E (Some (Node v [])) def = Panic.
Proof. reflexivity. Qed.
Print Assumptions C59_csv_empty_refuted.
(** And the default is not for an empty result, as the comments in the code have it. *)
Theorem C59_default_refuted : exists g, forall E, StringTxt E (Some g) (Some (bs "default")) = Ok [] /\ String_def E (Some g) (Some (bs "default")) = Ok [].
Proof. exists (nd "a" []). split; reflexivity. Qed.
Print Assumptions C59_default_refuted.
Example C59_ex : let g := Node VNil [Some (nd "a b" []); Some (nd "" [nd "x" []]); Some (Node (VInt KInt 7) [])] in
  Forall2 (holds env0) (out g) [bs "a b"; []; bs "7"] /\ Strings env0 (Some g) = Ok [bs "a b"; []; bs "7"] /\
  StringTxt env0 (Some g) None = Ok (bs "a b  7") /\ StringCSV env0 (Some g) None = Ok (bs "a b, , 7").
Proof.
  intro g. split; [|repeat split]. constructor; [|constructor; [|constructor; [|constructor]]]; eexists; split; reflexivity.
Qed.

(** ** C60 Find returns the subnodes whose content matches, in order and no others, below a
    new root; it does not return when a content cannot be printed. *)
Theorem C60_found : forall E compile g re m r, compile re = Some m -> Forall (fun c => c <> None) (out g) ->
  Find E compile (Some g) re = Ok r -> exists p, r = Some (Node (VStr (bs "_")) p) /\ picked E m (out g) p.
Proof.
  intros E compile g re m r Hc Ho H. unfold Find in H. rewrite Hc in H. exact (find_loop_spec E m (out g) _ [] r Ho H).
Qed.
Print Assumptions C60_found.
Theorem C60_returns : forall E compile g re l, Forall2 (holds E) (out g) l -> exists r, Find E compile (Some g) re = Ok r.
Proof.
  intros E compile g re l H. unfold Find. destruct (compile re) as [m|]; [|eauto]. eapply find_loop_total, H.
Qed.
Print Assumptions C60_returns.
(** [picked] leaves no choice. *)
Theorem C60_unique : forall E m o p q, picked E m o p -> picked E m o q -> p = q.
Proof. exact picked_det. Qed.
Print Assumptions C60_unique.
Theorem C60_bad_expression : forall E compile g re, compile re = None -> Find E compile g re = Ok None.
Proof. intros E compile g re H. unfold Find. rewrite H. reflexivity. Qed.
Print Assumptions C60_bad_expression.
(** The comment says that nil is returned when nothing matches: never, and on a nil graph the
    call panics. *)
Theorem C60_nil_refuted : forall E compile g re m r, compile re = Some m ->
  Find E compile g re = Ok r -> g <> None /\ r <> None.
Proof.
  intros E compile g re m r Hc H. unfold Find in H. rewrite Hc in H. destruct g as [g|]; [|discriminate]. split; [discriminate|].
  assert (L : forall o v acc r, find_loop E m o (Some (Node v acc)) = Ok r -> r <> None).
  { clear. induction o as [|n o IH]; intros v acc r H; cbn [find_loop] in H; [injection H as <-; discriminate|].
    destruct (ThisString E n) as [s| |]; try discriminate. cbn [rbind] in H. destruct (m s); [|eapply IH, H].
    cbn [Add fst] in H. destruct n as [n|]; eapply IH, H. }
  exact (L _ _ _ _ H).
Qed.
Print Assumptions C60_nil_refuted.
Example C60_ex : let g := nd "r" [nd "ab" [nd "x" []]; nd "b" []; nd "ac" []] in
  let compile := fun re => match re with [c] => Some (fun s => existsb (beq c) s) | _ => None end in
  Find env0 compile (Some g) (bs "a") = Ok (Some (nd "_" [nd "ab" [nd "x" []]; nd "ac" []])) /\
  Find env0 compile (Some g) (bs "z") = Ok (Some (nd "_" [])) /\ Find env0 compile None (bs "z") = Panic /\
  picked env0 (fun s => existsb (beq "a") s) (out g) (map Some [nd "ab" [nd "x" []]; nd "ac" []]).
Proof.
  intros g compile. split; [reflexivity|]. split; [reflexivity|]. split; [reflexivity|].
  apply (pick_yes _ _ _ (bs "ab")); [eexists; split; reflexivity|reflexivity|].
  apply (pick_no _ _ _ (bs "b")); [eexists; split; reflexivity|reflexivity|].
  apply (pick_yes _ _ _ (bs "ac")); [eexists; split; reflexivity|reflexivity|]. constructor.
Qed.

(** ** C61 Html writes one line per node in document order, indented by its depth, with a link
    on the nodes that have subnodes: for contents without blanks, quotes, commas, parentheses
    and without the two bytes that HTML reserves. *)
Theorem C61_lines_partial : forall E g k path, views E (out g) k -> Forall (everywhere (Forall simple_byte)) k -> Forall simple_byte path ->
  Html E (Some g) path = Ok (join [x0a] (map html_line (flat_map (entries 0 path) k))).
Proof. exact Html_lines. Qed.
Print Assumptions C61_lines_partial.
(** It is then a correct fragment of HTML. *)
Theorem C61_fragment_partial : forall E g k path, views E (out g) k -> Forall (everywhere (Forall simple_byte)) k -> Forall simple_byte path ->
  exists s, Html E (Some g) path = Ok s /\ fragment s.
Proof. exact Html_fragment. Qed.
Print Assumptions C61_fragment_partial.
(** With other contents it is not: nothing is escaped, *)
Theorem C61_escape_refuted : exists g, forall E path, exists s, Html E (Some g) path = Ok s /\ ~ fragment s.
Proof.
  exists (nd "" [nd "<i" []]). intros E path. eexists. split; [reflexivity|]. intro H.
  inversion H as [|c s Hc Hc' Hf|s Hf Hs|s Hf Hs|url body s Hu Hb Hf Hs]; congruence.
Qed.
Print Assumptions C61_escape_refuted.
(** and a node whose content has a blank leaves its link open. *)
Theorem C61_open_link_refuted : exists g k, (forall E, views E (out g) k) /\
  Forall (everywhere (Forall (fun c => c = " "%byte \/ simple_byte c))) k /\
  forall E, exists s, Html E (Some g) [] = Ok s /\ ~ fragment s.
Proof.
  exists (nd "" [nd "a b" [nd "c" []]]), [tr "a b" [tr "c" []]]. split; [|split].
  - intro E. repeat (constructor; try reflexivity).
  - repeat (constructor; [|try solve [constructor]]); try (left; reflexivity); right; repeat split; discriminate.
  - intro E. eexists. split; [reflexivity|]. intro H.
    assert (X := link_closed _ H eq_refl). discriminate X.
Qed.
Print Assumptions C61_open_link_refuted.
Example C61_ex : let g := nd "" [nd "a" [nd "b" []; nd "" [nd "c" []]]; nd "d" []] in
  Html env0 (Some g) (bs "/root") = Ok (join [x0a]
    [bs "<a href='/root/a'>a</a><br>"; bs "&nbsp;&nbsp;b<br>";
     bs "<a href='/root/a/_'>&nbsp;&nbsp;_</a><br>"; bs "&nbsp;&nbsp;&nbsp;&nbsp;c<br>"; bs "d<br>"]) /\
  views env0 (out g) [tr "a" [tr "b" []; tr "" [tr "c" []]]; tr "d" []].
Proof. intro g. split; [reflexivity|]. repeat (constructor; try reflexivity). Qed.

(** ** C62 Simplify rewrites, anywhere in the tree, a node that starts with an @id (to a node
    named by the identifier, with the last subnode only) and a field with a @name (to a node
    named so), and nothing else. *)
Theorem C62_rules : forall E v k k', simplers k k' -> Simplify E (Node v (gforest k)) = Ok (Node v (gforest k')).
Proof. intros E v k k' H. unfold Simplify. cbn [out this]. rewrite (proj2 (simplify_sound E) k k' H). reflexivity. Qed.
Print Assumptions C62_rules.
(** It returns on what FromXML makes of a document, unless a text reads @id. *)
Theorem C62_xml : forall E unaccent trim xs, Forall (no_bare_id unaccent trim) xs -> exists k k',
  FromXML unaccent trim (flat_map tokens xs) = Ok (Node VNil (gforest k)) /\ simplers k k' /\
  Simplify E (Node VNil (gforest k)) = Ok (Node VNil (gforest k')).
Proof.
  intros E u t xs H. destruct (FromXML_images u t xs) as (o & Ho & Hx).
  destruct (proj2 (images_values u t) xs o Ho H) as (k & -> & Hk & _). destruct (simplers_total k Hk) as (k' & Hk').
  exists k, k'. split; [exact Hx|]. split; [exact Hk'|]. apply C62_rules, Hk'.
Qed.
Print Assumptions C62_xml.
(** A graph with neither is unchanged. *)
Inductive nothing_marked : tree -> Prop := nm s k : ~ marked s k -> Forall nothing_marked k -> nothing_marked (T s k).
Theorem C62_unchanged : forall E v k, Forall nothing_marked k -> Simplify E (Node v (gforest k)) = Ok (Node v (gforest k)).
Proof.
  intros E v k H. apply C62_rules.
  assert (L : forall t, nothing_marked t -> simpler t t).
  { induction t as [s k0 IH] using tree_ind'. intro Ht. inversion Ht as [? ? Hm Hk]; subst. apply si_other; [exact Hm|].
    clear - IH Hk. induction k0 as [|c k0 IHk]; [constructor|]. inversion IH; subst. inversion Hk; subst. constructor; auto. }
  induction H as [|t k Ht _ IH]; constructor; auto.
Qed.
Print Assumptions C62_unchanged.
(** The claim that the parts of the document are kept is false: of a node with an identifier
    only the last part is. *)
Theorem C62_loses_refuted : exists k1 k2 k', k1 <> k2 /\ forall E, Simplify E (Node VNil (gforest k1)) = Ok k' /\ Simplify E (Node VNil (gforest k2)) = Ok k'.
Proof.
  exists [tr "item" [tr "@id" [tr "7" []]; tr "price" [tr "10" []]; tr "name" [tr "x" []]]],
         [tr "item" [tr "@id" [tr "7" []]; tr "name" [tr "x" []]]], (Node VNil [Some (nd "7" [nd "name" [nd "x" []]])]).
  split; [discriminate|]. intro E. split; reflexivity.
Qed.
Print Assumptions C62_loses_refuted.
(** And on a text @id before something else it panics. *)
Theorem C62_panics_refuted : exists xs, let id := fun s : bytes => s in forall E, exists g, FromXML id id (flat_map tokens xs) = Ok g /\ Simplify E g = Panic.
Proof.
  exists [Elem (bs "a") [] [Text (bs "@id"); Elem (bs "b") [] []]]. intros id E. eexists. split; reflexivity.
Qed.
Print Assumptions C62_panics_refuted.
Definition ex62 : list tree :=
  [tr "items" [tr "item" [tr "@id" [tr "7" []]; tr "name" [tr "field" [tr "@name" [tr "full name" []]; tr "x" []]]]; tr "p" [tr "@id" [tr "8" []]; tr "t" []]]].
Definition ex62' : list tree := [tr "items" [tr "7" [tr "name" [tr "full_name" [tr "x" []]]]; tr "p" [tr "t" []]]].
Lemma ex62_simpler : simplers ex62 ex62'.
Proof.
  assert (L : forall s k, (forall i r, k = i :: r -> tlabel i <> bs "@id") -> s <> bs "field" -> ~ marked s k).
  { intros s k H1 H2 [(i & r & -> & _ & H)|(H & _)]; [exact (H1 i r eq_refl H)|exact (H2 H)]. }
  constructor; [|constructor]. apply si_other; [apply L; [intros i r [= <- <-]|]; discriminate|].
  constructor; [|constructor; [|constructor]].
  - apply (si_id (bs "item") (tr "7" []) [] []); [discriminate|].
    apply si_other; [apply L; [intros i r [= <- <-]|]; discriminate|]. constructor; [|constructor].
    apply (si_field (tr "full name" [])); [apply underscored_spec; reflexivity|].
    constructor; [|constructor]. apply si_other; [apply L; [intros i r H|]; discriminate|constructor].
  - apply (si_p (tr "@id" [tr "8" []]) []); [reflexivity|]. apply si_other; [apply L; [intros i r H|]; discriminate|constructor].
Qed.
Example C62_ex : simplers ex62 ex62' /\ Simplify env0 (Node VNil (gforest ex62)) = Ok (Node VNil (gforest ex62')) /\
  Forall (no_bare_id (fun s => s) (fun s => s)) [Elem (bs "a") [(bs "id", bs "@id")] [Text (bs "t")]; Misc].
Proof.
  split; [exact ex62_simpler|]. split; [reflexivity|]. constructor; [|constructor; [|constructor]]; [|constructor].
  apply nb_elem; [|constructor; [|constructor]; apply nb_text; discriminate].
  intro H. inversion H as [|? ? ? ? _ H']; subst. inversion H'.
Qed.

(** ** C63 A converted argument has the type that the method declares. *)
Theorem C63_declared_type : forall E type_other parse_bool float_error v d a,
  convert E type_other parse_bool float_error v d = Ok (Some a) -> arg_type type_other a = d.
Proof. exact convert_type. Qed.
Print Assumptions C63_declared_type.
Theorem C63_same_type : forall E type_other parse_bool float_error v, v <> VNil ->
  convert E type_other parse_bool float_error v (type_name type_other v) = Ok (Some (AVal v)).
Proof. intros E T pb fe v H. unfold convert. rewrite bseq_refl. destruct v; try reflexivity. congruence. Qed.
Print Assumptions C63_same_type.
(** Integers keep their value: an int64, its decimal text, a node whose first subnode holds
    one or the other. *)
Theorem C63_integers : forall E type_other parse_bool float_error z v o r, - 2 ^ 63 <= z < 2 ^ 63 ->
  let conv := convert E type_other parse_bool float_error in
  conv (VInt KInt64 z) (bs "int") = Ok (Some (AVal (VInt KInt z))) /\
  conv (VStr (format_int z)) (bs "int64") = Ok (Some (AVal (VInt KInt64 z))) /\
  conv (VPtr (Some (Node v (Some (Node (VInt KInt64 z) o) :: r)))) (bs "int64") = Ok (Some (AVal (VInt KInt64 z))) /\
  conv (VPtr (Some (Node v (Some (Node (VStr (format_int z)) o) :: r)))) (bs "int64") = Ok (Some (AVal (VInt KInt64 z))) /\
  conv (VPtr (Some (Node v (Some (Node (VStr (format_int z)) o) :: r)))) (bs "int") = Ok (Some (AVal (VInt KInt z))).
Proof.
  intros E T pb fe z v o r Hz conv. split; [reflexivity|].
  assert (Hw : wrap64 z = z) by (apply wrap64_id; unfold in64; lia).
  split; [change (Ok (Some (AVal (VInt KInt64 (parse_int_clamped (format_int z))))) = Ok (Some (AVal (VInt KInt64 z))));
          unfold parse_int_clamped; rewrite (parse_format z Hz); reflexivity|].
  split; [change (Ok (Some (AVal (VInt KInt64 (wrap64 z)))) = Ok (Some (AVal (VInt KInt64 z)))); rewrite Hw; reflexivity|].
  assert (H : Int64 E (Some (Node v (Some (Node (VStr (format_int z)) o) :: r))) None = Ok z).
  { unfold Int64. cbn [Interface this rbind v_int64f]. rewrite (parse_format z Hz). reflexivity. }
  split.
  - change ((let* z := Int64 E (Some (Node v (Some (Node (VStr (format_int z)) o) :: r))) None in Ok (Some (AVal (VInt KInt64 z)))) = Ok (Some (AVal (VInt KInt64 z)))).
    rewrite H. reflexivity.
  - change ((let* z := Int64 E (Some (Node v (Some (Node (VStr (format_int z)) o) :: r))) None in Ok (Some (AVal (VInt KInt z)))) = Ok (Some (AVal (VInt KInt z)))).
    rewrite H. reflexivity.
Qed.
Print Assumptions C63_integers.
(** Where a float64 is expected integers become the nearest one, and those of up to 53 bits
    keep their value; where an integer is expected floats lose their decimals. *)
Theorem C63_floats : forall E type_other parse_bool float_error,
  let conv := convert E type_other parse_bool float_error in
  (forall z, exists x, conv (VInt KInt64 z) (bs "float64") = Ok (Some (AVal (VF64 x))) /\ rounds (z * 2 ^ 1074) 1 x /\ (Z.abs z < 2 ^ 53 -> float_is x z)) /\
  (forall x z, integer_part x z -> in64 z -> conv (VF64 x) (bs "int64") = Ok (Some (AVal (VInt KInt64 z))) /\ conv (VF64 x) (bs "int") = Ok (Some (AVal (VInt KInt z)))).
Proof.
  intros E T pb fe conv. split.
  - intro z. exists (f64_of_Z z). split; [reflexivity|]. split; [apply of_Z_rounds|apply f64_of_Z_exact].
  - intros x z Hx Hz. rewrite <- (f2i_part E x z Hx Hz). split; reflexivity.
Qed.
Print Assumptions C63_floats.
(** A node given where strings are expected hands over the texts of its subnodes. *)
Theorem C63_strings : forall E type_other parse_bool float_error g l, Forall2 (holds E) (out g) l ->
  convert E type_other parse_bool float_error (VPtr (Some g)) (bs "[]string") = Ok (Some (AStrings l)).
Proof.
  intros E T pb fe g l H. change ((let* l := Strings E (Some g) in Ok (Some (AStrings l))) = Ok (Some (AStrings l))).
  apply C59_strings in H. rewrite H. reflexivity.
Qed.
Print Assumptions C63_strings.
(** The claim that every argument can be passed is false: an integer where a string or an
    interface is expected, and a string where an int is, become the invalid value, on which
    the call panics. *)
Theorem C63_not_convertible_refuted : forall E type_other parse_bool float_error z s,
  let conv := convert E type_other parse_bool float_error in
  conv (VInt KInt64 z) (bs "string") = Ok None /\ conv (VInt KInt64 z) (bs "interface {}") = Ok None /\
  conv (VStr s) (bs "interface {}") = Ok None /\ conv (VStr s) (bs "int") = Ok None.
Proof. intros. repeat split. Qed.
Print Assumptions C63_not_convertible_refuted.
(** And a text that is no number is passed as zero. *)
Theorem C63_bad_number_refuted : exists s, forall E type_other parse_bool float_error,
  parse_int s = None /\ convert E type_other parse_bool float_error (VStr s) (bs "int64") = Ok (Some (AVal (VInt KInt64 0))).
Proof. exists (bs "12x"). intros. split; reflexivity. Qed.
Print Assumptions C63_bad_number_refuted.
Example C63_ex : let conv := convert env0 (fun _ => bs "?") (fun _ => None) (fun _ => S754_zero false) in
  conv (VStr (bs "-12")) (bs "int64") = Ok (Some (AVal (VInt KInt64 (-12)))) /\
  conv (VPtr (Some (nd "a" [nd "x" []; nd "y" []]))) (bs "[]string") = Ok (Some (AStrings [bs "x"; bs "y"])) /\
  conv (VPtr (Some (nd "a" [nd "true" []]))) (bs "bool") = Ok (Some (AVal (VBool true))) /\
  conv (VPtr (Some (nd "a" [nd "x" []]))) (bs "*ogdl.Graph") = Ok (Some (AVal (VPtr (Some (nd "a" [nd "x" []]))))).
Proof. repeat split. Qed.
