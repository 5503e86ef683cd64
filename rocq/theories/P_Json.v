(** Properties C55 and C56: JSON output and input. *)
From Verif Require Import Base Value Graph TypesSpec Encoding JsonSpec JsonFacts Samples.
From Coq Require Import SpecFloat.

(** ** C55 JSON() produces well-formed JSON and leaves the graph unchanged.  Full claim: every
    graph.  Proved for the graphs that have the form of a [document]: records of several fields
    with one subnode each, lists of groups, leaves, with texts without backslashes and control
    characters.  The refuted theorems show that each of the conditions is needed. *)
Theorem C55_wellformed_partial : forall E fmt_f t o, document E fmt_f o ->
  exists s, JSON E fmt_f (Some (Node t o)) = (Some (Node t o), Ok (Some s)) /\ wellformed s.
Proof. exact JSON_document. Qed.
Print Assumptions C55_wellformed_partial.
(** Whenever JSON() returns, the graph is as before. *)
Theorem C55_unchanged_partial : forall E fmt_f g g' s, JSON E fmt_f g = (g', Ok s) -> g' = g.
Proof. exact JSON_unchanged. Qed.
Print Assumptions C55_unchanged_partial.
Definition fmt0 : spec_float -> bytes := fun _ => bs "1.500000".
Definition ex_json : graph :=
  Node (VStr (bs "_")) [Some (nd "name" [nd "say ""hi""" []]); Some (Node (VStr (bs "age")) [Some (Node (VInt KInt (-7)) [])]);
    Some (nd "list" [nd "_" [nd "-" [nd "a" [nd "1" []]; nd "b" [nd "2" []]]; Node (VF64 (S754_finite false 3 (-1))) []]])].
Lemma tidy_str s : clean s -> tidy env0 (VStr s).
Proof. intros H. exists s. auto. Qed.
Ltac clean := repeat (constructor; [split; [cbn; lia|discriminate]|]); constructor.
Lemma fmt0_number : jnumber (bs "1.500000").
Proof.
  apply (jnum [] (bs "1") (bs ".500000") []); [left; reflexivity| | |constructor].
  - apply jn_pos; [cbn; lia|constructor].
  - apply jf_some; [split; cbn; lia|]. repeat (constructor; [split; cbn; lia|]). constructor.
Qed.
Example C55_ex : document env0 fmt0 (out ex_json) /\
  JSON env0 fmt0 (Some ex_json) = (Some ex_json, Ok (Some (bs "{ ""name"" : ""say \""hi\"""" , ""age"" : -7 , ""list"" : [ { ""a"" : ""1"" , ""b"" : ""2"" }, 1.500000 ]}"))).
Proof.
  split; [|reflexivity]. unfold ex_json, out.
  change [Some (nd "name" [nd "say ""hi""" []]); Some (Node (VStr (bs "age")) [Some (Node (VInt KInt (-7)) [])]);
    Some (nd "list" [nd "_" [nd "-" [nd "a" [nd "1" []]; nd "b" [nd "2" []]]; Node (VF64 (S754_finite false 3 (-1))) []]])]
  with (map Some [nd "name" [nd "say ""hi""" []]; Node (VStr (bs "age")) [Some (Node (VInt KInt (-7)) [])];
    nd "list" [nd "_" [nd "-" [nd "a" [nd "1" []]; nd "b" [nd "2" []]]; Node (VF64 (S754_finite false 3 (-1))) []]]]).
  apply do_record; [cbn; lia|].
  constructor; [apply fi_node; [apply tidy_str; clean|left; apply le_node, tidy_str; clean]|].
  constructor; [apply fi_node; [apply tidy_str; clean|left; apply le_node; exact I]|].
  constructor; [|constructor]. apply fi_node; [apply tidy_str; clean|]. right.
  apply co_listing; [reflexivity|cbn; lia| |].
  - constructor; [|constructor]. apply (co_record _ _ _ (bs "-")); [reflexivity|discriminate|cbn; lia|].
    constructor; [apply fi_node; [apply tidy_str; clean|left; apply le_node, tidy_str; clean]|].
    constructor; [apply fi_node; [apply tidy_str; clean|left; apply le_node, tidy_str; clean]|constructor].
  - intros d. left. apply le_node. exact fmt0_number.
Qed.

(** A single field at the root is written without braces: not JSON, whatever it contains. *)
Theorem C55_single_field_refuted : forall E fmt_f t v n g s, tidy E v ->
  JSON E fmt_f (Some (Node t [Some (Node v [Some n])])) = (g, Ok (Some s)) -> ~ wellformed s.
Proof.
  intros E fmt_f t v n g s Hv H Hw. apply check_wellformed in Hw. unfold JSON in H. rewrite json_eq in H.
  cbn [vstring sstring rbind] in H. change (bseq [] (bs "_")) with false in H. cbv iota in H. cbn [List.length Nat.ltb Nat.leb] in H.
  cbn [jloop out this] in H. destruct (writeString_tidy E v Hv) as (k & Hk & Hc). rewrite Hk in H. cbn [rbind] in H.
  destruct (json E fmt_f (Node v [Some n])) as [r| |]; cbn [rbind app] in H; [|discriminate..]. injection H as _ <-.
  unfold check_text in Hw. rewrite skip_stop in Hw by reflexivity. cbn [check_value] in Hw. change (beq x22 x22) with true in Hw. cbv iota in Hw.
  rewrite <- app_assoc in Hw. cbn [app] in Hw. rewrite (close_jchars k Hc) in Hw. cbn in Hw. discriminate.
Qed.
Print Assumptions C55_single_field_refuted.
(** A list of plain values is written without commas; a field with several subnodes loses its
    name; a backslash in a text is not escaped. *)
Theorem C55_wellformed_refuted :
  Forall (fun g => exists s, JSON env0 fmt0 (Some g) = (Some g, Ok (Some s)) /\ ~ wellformed s)
    [nd "" [nd "a" [nd "1" []]]; nd "" [nd "list" [nd "_" [nd "1" []; nd "2" []]]; nd "b" [nd "1" []]];
     nd "" [nd "a" [nd "1" []; nd "2" []]; nd "b" [nd "3" []]]; nd "" [nd "C:\" []]].
Proof.
  repeat (constructor; [eexists; split; [reflexivity|]; intros H; apply check_wellformed in H; vm_compute in H; discriminate|]). constructor.
Qed.
Print Assumptions C55_wellformed_refuted.
(** A nil subnode makes JSON() panic, and the root has then lost its content. *)
Theorem C55_unchanged_refuted : exists E fmt_f g g', JSON E fmt_f (Some g) = (Some g', Panic) /\ g' <> g.
Proof. exists env0, fmt0, (Node (VStr (bs "root")) [None]). eexists. split; [reflexivity|discriminate]. Qed.
Print Assumptions C55_unchanged_refuted.

(** ** C56 FromJSON keeps every member and element.  Full claim: every document.  Proved for
    documents that are not a list at the top; of a list only the first element is returned. *)
Theorem C56_import_partial : forall E d, numbers_ok E d -> (forall l, d <> JArr l) -> d <> JNull ->
  exists g, FromJSON E d = Ok (Some g) /\ kept E d [Some g].
Proof.
  intros E d Hn Ha H0. pose proof (toGraph_kept E d Hn) as Hk.
  destruct d as [|b|s|s|l|l]; try congruence; eexists; (split; [reflexivity|exact Hk]).
Qed.
Print Assumptions C56_import_partial.
(** What becomes of the parts: all that toGraph builds, below the top. *)
Theorem C56_parts : forall E d, numbers_ok E d -> kept E d (out (toGraph E d)).
Proof. exact toGraph_kept. Qed.
Print Assumptions C56_parts.
Definition ex_doc : jdoc := JObj [(bs "n", JNum (bs "-12")); (bs "l", JArr [JStr (bs "x"); JObj [(bs "t", JBool true)]; JNull])].
Example C56_ex : numbers_ok env0 ex_doc /\
  FromJSON env0 ex_doc = Ok (Some (Node (VStr (bs "_")) [Some (Node (VStr (bs "n")) [Some (Node (VInt KInt64 (-12)) [])]);
    Some (nd "l" [nd "_" [nd "x" []]; Node (VStr (bs "_")) [Some (Node (VStr (bs "_")) [Some (Node (VStr (bs "t")) [Some (Node (VBool true) [])])])]; nd "_" []])])).
Proof.
  split; [|reflexivity]. apply nu_obj. constructor; [apply (nu_int _ _ (-12)), (num_minus (bs "12")); [split; [discriminate|]|cbn; lia]|].
  - repeat (constructor; [cbn; lia|]). constructor.
  - constructor; [|constructor]. apply nu_arr. constructor; [constructor|]. constructor; [|constructor; [constructor|constructor]].
    apply nu_obj. constructor; [constructor|constructor].
Qed.
(** Of a list only the first element is returned, of an empty list nothing. *)
Theorem C56_array_refuted : forall E d l, FromJSON E (JArr (d :: l)) = FromJSON E (JArr [d]) /\ FromJSON E (JArr []) = Ok None.
Proof. intros E d l. split; reflexivity. Qed.
Print Assumptions C56_array_refuted.
(** A number out of the range of int64 and float64 becomes NaN. *)
Theorem C56_number_refuted : forall E s, (forall z, ~ numeral s z) -> parse_float E s = None ->
  FromJSON E (JNum s) = Ok (Some (Node (VF64 S754_nan) [])).
Proof.
  intros E s Hn Hp. unfold FromJSON. cbn [toGraph]. destruct (parse_int s) as [z|] eqn:Hi; [destruct (Hn z); apply TypesFacts.parse_int_iff; exact Hi|].
  rewrite Hp. reflexivity.
Qed.
Print Assumptions C56_number_refuted.
(** Different documents become the same graph: null and the empty list, the empty object and the
    text _. *)
Theorem C56_distinct_refuted : exists E k,
  FromJSON E (JObj [(k, JNull)]) = FromJSON E (JObj [(k, JArr [])]) /\ FromJSON E (JObj []) = FromJSON E (JStr (bs "_")).
Proof. exists env0, (bs "k"). split; reflexivity. Qed.
Print Assumptions C56_distinct_refuted.
