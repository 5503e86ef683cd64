(** C16, C17, C19-C23: the text parser. *)
From Verif Require Import Base Value Event EventSpec EventFacts Lexer TextParser Stream Buffer BufferSpec BufferFacts BufferFacts2 CostSpec Wp TextTerm Cost TextSpec TextDoc TextFacts NumFacts Samples.

(** Concrete documents. *)
Definition p (s : string) (gap : string) : scalar * bytes := (Plain (bs s), bs gap).
Definition q (s : string) (gap : string) : scalar * bytes := (Quo "'" (bs s), bs gap).
Definition ln (i : string) (ts : list (scalar * bytes)) (e : ending) : textline := mkL (bs i) ts e.
Arguments p (s gap)%string_scope. Arguments q (s gap)%string_scope. Arguments ln i%string_scope ts e.
Ltac concrete :=
  repeat match goal with
  | |- doc_ok _ => unfold doc_ok
  | |- Forall _ _ => constructor
  | |- _ /\ _ => split
  | |- True => exact I
  | |- line_ok _ => unfold line_ok; cbn [ind toks fin]
  | |- ending_ok _ _ => cbn
  | |- line_text _ => unfold line_text; cbn
  | |- blanks _ => unfold blanks; cbn
  | |- toks_ok _ _ _ => cbn
  | |- uniform _ => left; lazy
  | |- match _ with _ => _ end => cbn
  | |- follow_ok _ => cbn
  | |- simple _ => unfold simple; cbn
  | |- _ <> _ \/ _ => left
  | |- _ = _ \/ _ => left; reflexivity
  | |- _ \/ _ => right; reflexivity
  | |- quoted_ok _ _ => cbn
  | |- plain_ok _ => unfold plain_ok; cbn
  | |- scalar_ok _ _ => cbn
  | |- _ -> _ => intro
  | |- _ <> _ => discriminate
  | |- _ = _ => reflexivity || discriminate
  | |- _ < _ => reflexivity
  | |- (_ < _)%nat => cbn; lia
  | |- _ <= _ => cbn; lia
  | H : _ \/ _ |- _ => destruct H; congruence
  end.

Definition ex_doc : list textline := [
  ln "" [p "a" " "; p "x\y" "  "; q "it's # (1, 2)" " "] (Com " " (bs "note"));
  ln "  " [p "b" ""] CRLF;
  ln "    " [p "c" " "; p "42" ""] LF;
  ln "   " [] LF;
  ln " " [p "d" ""] LF;
  ln "" [p "text" " "] (Blk false [(bs "  ", bs "one two"); (bs " ", bs "three")]);
  ln "" [p "e" ""] Eof].
Lemma ex_doc_ok : doc_ok ex_doc.
Proof. concrete. Qed.

(** ** C16 Reading a text ends, after a number of steps linear in its length.
    A step is an operation of the lexer or of the event handler (CostSpec.v); the fuel
    bounds recursion depth and loops. *)
Theorem C16_FromReader_returns : forall E types rd fuel, (2 * List.length (seen (size rd) rd) + 3 <= fuel)%nat ->
  exists g, FromReader E fuel types rd = Ok g.
Proof. exact FromReader_total. Qed.
Print Assumptions C16_FromReader_returns.

(** Counting does not change what is computed. *)
Theorem C16_count_faithful : forall E types rd fuel,
  FromReader E fuel types rd = (let* (g, _) := FromReader_count E fuel types rd in Ok g).
Proof.
  intros E types rd fuel. unfold FromReader, FromReader_count. rewrite (run_count_run E fuel _ _ _ 0).
  destruct (run_count E fuel (Ogdl fuel E fuel types) (NewLexer rd) h_init 0) as [[[[a x] h] n]| |]; cbn [rbind]; auto.
  destruct (Tree h); reflexivity.
Qed.
Print Assumptions C16_count_faithful.

(** The large factor comes from indentations of more than 2040 blanks only: they do not
    fit in what can be unread, and are read again from where the buffer still has them. *)
Theorem C16_linear : forall E types s fuel, (2 * List.length s + 3 <= fuel)%nat ->
  exists g n, FromReader_count E fuel types (bytes_reader s) = Ok (g, n) /\ Z.of_nat n <= 16516 * Z.of_nat (List.length s) + 70.
Proof.
  intros E types s fuel H. destruct (count_any E types (bytes_reader s) fuel) as (g & n & H1 & _ & H2); rewrite seen_bytes in *; [exact H|eauto].
Qed.
Print Assumptions C16_linear.

Theorem C16_linear_short : forall E types s fuel, (2 * List.length s + 3 <= fuel)%nat -> blank_runs 2039 s ->
  exists g n, FromReader_count E fuel types (bytes_reader s) = Ok (g, n) /\ Z.of_nat n <= 132 * Z.of_nat (List.length s) + 70.
Proof.
  intros E types s fuel H Hb. destruct (count_short E types (bytes_reader s) fuel) as (g & n & H1 & _ & H2); rewrite seen_bytes in *; [exact H|exact Hb|eauto].
Qed.
Print Assumptions C16_linear_short.

Theorem C16_linear_reader : forall E types rd fuel, (2 * List.length (seen (size rd) rd) + 3 <= fuel)%nat ->
  exists g n, FromReader_count E fuel types rd = Ok (g, n) /\ Z.of_nat n <= 16516 * Z.of_nat (List.length (seen (size rd) rd)) + 70.
Proof. intros E types rd fuel H. destruct (count_any E types rd fuel H) as (g & n & H1 & _ & H2). eauto. Qed.
Print Assumptions C16_linear_reader.

Example C16_linear_ex : (2 * List.length (bs "a
  b
    c d
e") + 3 <= 60)%nat /\ blank_runs 2039 (bs "a
  b
    c d
e").
Proof.
  split; [cbn; lia|]. intros u w v H _. apply (f_equal (@List.length byte)) in H. rewrite !app_length in H. cbn [bs List.length] in H.
  change (List.length (bs "a
  b
    c d
e")) with 15%nat in H. lia.
Qed.

Example C16_ex : (2 * List.length (bs "a ""unclosed \") + 3 <= 40)%nat /\
  FromString env0 40 (bs "a ""unclosed \") = Ok (nd "_" [nd "a" []]).
Proof.
  split; [cbn; lia|]. unfold FromString. rewrite (FromReader_ideal _ _ _ _ (bs "a ""unclosed \")); [vm_compute; reflexivity|apply seen_bytes|cbn; lia|cbn; lia].
Qed.

(** ** C17 Indentation determines nesting.  Full claim: the next theorem without the
    hypothesis that no line is indented less than the first. *)
Theorem C17_nesting_partial : forall E ls fuel, doc_ok ls ->
  (forall l0 r, ls = l0 :: r -> Forall (fun l => (depth l0 <= depth l)%nat) r) ->
  (2 * List.length (doc_source ls) + 3 <= fuel)%nat ->
  FromString E fuel (doc_source ls) = Ok (doc_graph untyped ls).
Proof.
  intros E ls fuel Hd Hk Hf. rewrite FromString_doc by assumption. destruct ls as [|l0 r]; [reflexivity|].
  cbn [kept]. rewrite take_all; [reflexivity|]. constructor; [lia|]. exact (Hk _ _ eq_refl).
Qed.
Print Assumptions C17_nesting_partial.

Example C17_nesting_ex : doc_ok ex_doc /\ doc_graph untyped ex_doc =
  nd "_" [nd "a" [nd "x\y" [nd "it's # (1, 2)" []]; nd "b" [nd "c" [nd "42" []]]; nd "d" []];
          nd "text" [Node (VStr (bs "one two" ++ x0a :: bs "three")) []]; nd "e" []].
Proof. split; [exact ex_doc_ok|]. vm_compute. reflexivity. Qed.

(** Without that hypothesis: the document is read up to the first line indented less than
    the first one. *)
Theorem C17_nesting_general : forall E ls fuel, doc_ok ls -> (2 * List.length (doc_source ls) + 3 <= fuel)%nat ->
  FromString E fuel (doc_source ls) = Ok (doc_graph untyped (kept ls)).
Proof. exact FromString_doc. Qed.
Print Assumptions C17_nesting_general.

Definition ex_less : list textline := [ln "  " [p "a" ""] LF; ln "" [p "b" ""] LF].
Example C17_nesting_general_ex : doc_ok ex_less /\ kept ex_less = [ln "  " [p "a" ""] LF].
Proof. split; [concrete|reflexivity]. Qed.

Theorem C17_less_indented_refuted : exists ls, doc_ok ls /\ forall E fuel, (2 * List.length (doc_source ls) + 3 <= fuel)%nat ->
  FromString E fuel (doc_source ls) <> Ok (doc_graph untyped ls).
Proof.
  exists ex_less. split; [concrete|]. intros E fuel Hf. rewrite FromString_doc; [|concrete|exact Hf]. vm_compute. discriminate.
Qed.
Print Assumptions C17_less_indented_refuted.

(** The same through any reader, and with types. *)
Theorem C17_nesting_reader : forall E types rd ls fuel, doc_ok ls -> seen (size rd) rd = doc_source ls ->
  (2 * List.length (doc_source ls) + 3 <= fuel)%nat ->
  FromReader E fuel types rd = Ok (doc_graph (if types then typed_val E else untyped) (kept ls)).
Proof. intros E types rd ls fuel H1 H2 H3. rewrite (FromReader_doc E types rd ls fuel H1 H2 H3). destruct types; reflexivity. Qed.
Print Assumptions C17_nesting_reader.

Example C17_nesting_reader_ex : let rd := [(bs "a 1", false); (bs "0", false)] in
  doc_ok [ln "" [p "a" " "; p "10" ""] Eof] /\ seen (size rd) rd = doc_source [ln "" [p "a" " "; p "10" ""] Eof].
Proof. split; [concrete|vm_compute; reflexivity]. Qed.

(** ** C19 A blank line or a comment line can be inserted (after the first line) if the
    next line is not indented more than it.  Full claim: without [next_at_most]. *)
Theorem C19_insert_partial : forall E l0 ls1 b ls2 fuel fuel',
  doc_ok (l0 :: ls1 ++ b :: ls2) -> doc_ok (l0 :: ls1 ++ ls2) -> empty_line b -> next_at_most (depth b) ls2 ->
  (2 * List.length (doc_source (l0 :: ls1 ++ b :: ls2)) + 3 <= fuel)%nat ->
  (2 * List.length (doc_source (l0 :: ls1 ++ ls2)) + 3 <= fuel')%nat ->
  FromString E fuel (doc_source (l0 :: ls1 ++ b :: ls2)) = FromString E fuel' (doc_source (l0 :: ls1 ++ ls2)).
Proof. exact insert_line. Qed.
Print Assumptions C19_insert_partial.

Example C19_insert_ex :
  let l0 := ln "" [p "a" ""] LF in let ls1 := [ln "  " [p "b" ""] LF] in
  let b := ln "      " [] (Com " " (bs "c # d")) in let ls2 := [ln "  " [p "e" ""] LF] in
  doc_ok (l0 :: ls1 ++ b :: ls2) /\ doc_ok (l0 :: ls1 ++ ls2) /\ empty_line b /\ next_at_most (depth b) ls2.
Proof. cbv zeta. cbn [app]. split; [concrete|]. split; [concrete|]. split; [split; exact eq_refl || exact I|]. cbn. lia. Qed.

Definition ex_gap (b : list textline) : list textline :=
  [ln "" [p "a" ""] LF; ln "  " [p "b" ""] LF; ln "    " [p "c" ""] LF] ++ b ++ [ln "    " [p "d" ""] LF].
Theorem C19_insert_refuted : exists l0 ls1 b ls2,
  doc_ok (l0 :: ls1 ++ b :: ls2) /\ doc_ok (l0 :: ls1 ++ ls2) /\ empty_line b /\
  forall E fuel fuel', 
  (2 * List.length (doc_source (l0 :: ls1 ++ b :: ls2)) + 3 <= fuel)%nat ->
  (2 * List.length (doc_source (l0 :: ls1 ++ ls2)) + 3 <= fuel')%nat ->
  FromString E fuel (doc_source (l0 :: ls1 ++ b :: ls2)) <> FromString E fuel' (doc_source (l0 :: ls1 ++ ls2)).
Proof.
  exists (ln "" [p "a" ""] LF), [ln "  " [p "b" ""] LF; ln "    " [p "c" ""] LF], (ln "" [] LF), [ln "    " [p "d" ""] LF]. cbn [app].
  assert (H1 : doc_ok (ex_gap [ln "" [] LF])) by concrete. assert (H2 : doc_ok (ex_gap [])) by concrete.
  split; [exact H1|]. split; [exact H2|]. split; [split; exact eq_refl || exact I|]. intros E fuel fuel' Hf Hf'.
  change (FromString E fuel (doc_source (ex_gap [ln "" [] LF])) <> FromString E fuel' (doc_source (ex_gap []))).
  rewrite (FromString_doc E (ex_gap [ln "" [] LF]) fuel H1 Hf), (FromString_doc E (ex_gap []) fuel' H2 Hf'). vm_compute. discriminate.
Qed.
Print Assumptions C19_insert_refuted.

(** ** C20 CR LF instead of LF, in documents of plain scalars and blocks, without comments. *)
Theorem C20_crlf : forall E ls fuel fuel', doc_ok ls -> Forall simple ls ->
  (2 * List.length (doc_source ls) + 3 <= fuel)%nat -> (2 * List.length (crlf (doc_source ls)) + 3 <= fuel')%nat ->
  FromString E fuel' (crlf (doc_source ls)) = FromString E fuel (doc_source ls).
Proof. exact crlf_same. Qed.
Print Assumptions C20_crlf.

Definition ex_simple : list textline := [ln "" [p "a" " "; p "b" "  "] LF; ln " " [] LF; ln " " [p "c" " "] (Blk false [(bs "  ", bs "x y")]); ln "" [p "d" ""] Eof].
Example C20_crlf_ex : doc_ok ex_simple /\ Forall simple ex_simple /\
  crlf (doc_source ex_simple) = bs "a b  " ++ [x0d; x0a] ++ bs " " ++ [x0d; x0a] ++ bs " c \" ++ [x0d; x0a] ++ bs "  x y" ++ [x0d; x0a] ++ bs "d".
Proof. split; [concrete|]. split; [|reflexivity]. repeat (apply Forall_cons || apply Forall_nil || split || exact I); cbn; eauto. Qed.

(** With a comment the LF after the CR that ends it counts as an empty line. *)
Definition ex_comment : list textline := [ln "" [p "a" ""] LF; ln " " [p "b" " "] (Com " " (bs "x")); ln "  " [p "c" ""] LF].
Theorem C20_crlf_comment_refuted : exists ls, doc_ok ls /\
  FromString env0 40 (crlf (doc_source ls)) <> FromString env0 40 (doc_source ls) /\ (2 * List.length (crlf (doc_source ls)) + 3 <= 40)%nat.
Proof.
  exists ex_comment. split; [concrete|]. split; [|vm_compute; lia]. unfold FromString.
  rewrite (FromReader_ideal _ _ _ _ (crlf (doc_source ex_comment))) by (apply seen_bytes || (vm_compute; lia) || (vm_compute; discriminate)).
  rewrite (FromReader_ideal _ _ _ _ (doc_source ex_comment)) by (apply seen_bytes || (vm_compute; lia) || (vm_compute; discriminate)).
  vm_compute. discriminate.
Qed.
Print Assumptions C20_crlf_comment_refuted.

(** In a quoted scalar of several lines the CR is kept. *)
Definition ex_quoted : list textline := [mkL [] [(Quo x22 (bs "a" ++ [x0a] ++ bs "b"), [])] LF].
Theorem C20_crlf_quoted_refuted : exists ls, doc_ok ls /\ doc_graph untyped ls = Node (VStr (bs "_")) [Some (Node (VStr (bs "a" ++ [x0a] ++ bs "b")) [])] /\
  FromString env0 40 (crlf (doc_source ls)) = Ok (Node (VStr (bs "_")) [Some (Node (VStr (bs "a" ++ [x0d; x0a] ++ bs "b")) [])]).
Proof.
  exists ex_quoted. split; [concrete|]. split; [reflexivity|]. unfold FromString.
  rewrite (FromReader_ideal _ _ _ _ (crlf (doc_source ex_quoted))) by (apply seen_bytes || (vm_compute; lia) || (vm_compute; discriminate)).
  vm_compute. reflexivity.
Qed.
Print Assumptions C20_crlf_quoted_refuted.

(** ** C21 Every scalar is in the graph, in order, if each line has one and none is
    indented less than the first.  Full claim: without these two hypotheses. *)
Theorem C21_all_scalars_partial : forall E ls fuel, doc_ok ls -> Forall (fun l => toks l <> []) ls -> kept ls = ls ->
  (2 * List.length (doc_source ls) + 3 <= fuel)%nat ->
  exists f, FromString E fuel (doc_source ls) = Ok (Node (VStr (bs "_")) (map Some f)) /\
    map snd (listings 0 f) = flat_map (line_vals untyped) ls.
Proof. exact all_scalars. Qed.
Print Assumptions C21_all_scalars_partial.

Definition ex_full : list textline := [ln " " [p "a" " "; p "b" ""] LF; ln "    " [p "c" ""] LF; ln "  " [p "d" " "; q "e f" ""] LF].
Example C21_all_scalars_ex : doc_ok ex_full /\ Forall (fun l => toks l <> []) ex_full /\ kept ex_full = ex_full /\
  flat_map (line_vals untyped) ex_full = map VStr [bs "a"; bs "b"; bs "c"; bs "d"; bs "e f"].
Proof. split; [concrete|]. split; [repeat constructor; discriminate|]. split; reflexivity. Qed.

Theorem C21_less_indented_refuted : exists ls, doc_ok ls /\ Forall (fun l => toks l <> []) ls /\
  forall E fuel f, (2 * List.length (doc_source ls) + 3 <= fuel)%nat ->
  FromString E fuel (doc_source ls) = Ok (Node (VStr (bs "_")) (map Some f)) ->
  map snd (listings 0 f) <> flat_map (line_vals untyped) ls.
Proof.
  exists ex_less. split; [concrete|]. split; [repeat constructor; discriminate|]. intros E fuel f Hf. rewrite FromString_doc; [|concrete|exact Hf].
  intros H. injection H. intro Hm. destruct f as [|g f]; [discriminate|]. cbn [map] in Hm. injection Hm as Hg Hm. destruct f; [|discriminate]. subst g. discriminate.
Qed.
Print Assumptions C21_less_indented_refuted.

(** A line indented more than a comment that is the first line is lost. *)
Definition ex_lost : list textline := [ln "" [] (Com " " (bs "x")); ln "  " [p "a" ""] LF].
Theorem C21_after_comment_refuted : exists ls, doc_ok ls /\ kept ls = ls /\ flat_map (line_vals untyped) ls = [VStr (bs "a")] /\
  forall E fuel, (2 * List.length (doc_source ls) + 3 <= fuel)%nat ->
  FromString E fuel (doc_source ls) = Ok (Node (VStr (bs "_")) []).
Proof.
  exists ex_lost. assert (Hd : doc_ok ex_lost) by concrete. split; [exact Hd|]. split; [reflexivity|]. split; [reflexivity|].
  intros E fuel Hf. rewrite FromString_doc by assumption. reflexivity.
Qed.
Print Assumptions C21_after_comment_refuted.

(** ** C22 A block followed by a line without indentation disturbs nothing: the graph is
    that of the document with the block's text as one scalar.  Full claim: whatever the
    indentation of the line that follows (doc_ok without block_end). *)
Theorem C22_block_partial : forall E ls1 i ts cr b ls2 fuel,
  let doc := ls1 ++ mkL i ts (Blk cr b) :: ls2 in
  doc_ok doc -> kept doc = doc -> (2 * List.length (doc_source doc) + 3 <= fuel)%nat ->
  FromString E fuel (doc_source doc) =
  Ok (doc_graph untyped (ls1 ++ mkL i (ts ++ [(Plain (block_text b), [])]) LF :: ls2)).
Proof.
  intros E ls1 i ts cr b ls2 fuel doc Hd Hk Hf. rewrite FromString_doc, Hk by assumption. f_equal. unfold doc, doc_graph. f_equal.
  generalize (@nil nat). clear. induction ls1 as [|l ls1 IH]; intro P; cbn [app doc_events].
  - f_equal. f_equal. unfold line_vals. cbn [toks fin]. rewrite map_app, app_nil_r. reflexivity.
  - rewrite IH. reflexivity.
Qed.
Print Assumptions C22_block_partial.

Example C22_block_ex : doc_ok ex_doc /\ kept ex_doc = ex_doc /\
  exists ls1 ls2, ex_doc = ls1 ++ mkL [] [p "text" " "] (Blk false [(bs "  ", bs "one two"); (bs " ", bs "three")]) :: ls2.
Proof. split; [exact ex_doc_ok|]. split; [reflexivity|]. exists (firstn 5 ex_doc), (skipn 6 ex_doc). reflexivity. Qed.

(** doc_ok without the condition on what follows a block. *)
Definition doc_ok_any_block (ls : list textline) : Prop :=
  Forall line_ok ls /\ match ls with [] => True | l :: _ => uniform (ind l) end /\
  (forall ls1 l ls2, ls = ls1 ++ l :: ls2 -> fin l = Eof -> ls2 = []).
Definition ex_block : list textline := [ln "" [p "a" ""] LF; ln "  " [p "b" " "] (Blk false [(bs "    ", bs "text")]); ln "  " [p "c" ""] LF].
Theorem C22_block_refuted : exists ls, doc_ok_any_block ls /\ kept ls = ls /\ (2 * List.length (doc_source ls) + 3 <= 60)%nat /\
  doc_graph untyped ls = nd "_" [nd "a" [nd "b" [nd "text" []]; nd "c" []]] /\
  FromString env0 60 (doc_source ls) = Ok (nd "_" [nd "a" [nd "b" [nd "text" []]]; nd "c" []]).
Proof.
  exists ex_block. split.
  - split; [|split]; [concrete|concrete|]. intros ls1 l ls2 H He. destruct ls1 as [|x1 [|x2 [|x3 ls1]]]; cbn in H; inversion H; subst; try discriminate; auto.
    destruct ls1; discriminate.
  - split; [reflexivity|]. split; [vm_compute; lia|]. split; [vm_compute; reflexivity|]. unfold FromString.
    rewrite (FromReader_ideal _ _ _ _ (doc_source ex_block)) by (apply seen_bytes || (vm_compute; lia) || (vm_compute; discriminate)).
    vm_compute. reflexivity.
Qed.
Print Assumptions C22_block_refuted.

(** ** C23 FromStringTypes gives the graph of FromString with types: for every text the
    shapes agree and a content is either the same or the value its text denotes; *)
Theorem C23_same_shape : forall E s fuel, (2 * List.length s + 3 <= fuel)%nat ->
  exists g g', FromString E fuel s = Ok g /\ FromStringTypes E fuel s = Ok g' /\ gref E g g'.
Proof. intros E s fuel H. apply types_refine. rewrite seen_bytes. exact H. Qed.
Print Assumptions C23_same_shape.

(** in documents exactly the unquoted scalars get the value they denote; *)
Theorem C23_documents : forall E ls fuel, doc_ok ls -> (2 * List.length (doc_source ls) + 3 <= fuel)%nat ->
  FromStringTypes E fuel (doc_source ls) = Ok (doc_graph (typed_val E) (kept ls)).
Proof. exact FromStringTypes_doc. Qed.
Print Assumptions C23_documents.

Definition ex_typed : list textline := [ln "" [p "a" " "; p "10" " "; q "10" ""] LF; ln " " [p "true" " "; q "true" " "; p "-0" ""] LF].
Example C23_documents_ex : doc_ok ex_typed /\ doc_graph (typed_val env0) (kept ex_typed) =
  Node (VStr (bs "_")) [Some (Node (VStr (bs "a")) [
    Some (Node (VInt KInt64 10) [Some (nd "10" [])]);
    Some (Node (VBool true) [Some (Node (VStr (bs "true")) [Some (Node (VInt KInt64 0) [])])])])].
Proof. split; [concrete|]. vm_compute. reflexivity. Qed.

(** and integers are exact: strings of digits with their sign, and what Go prints for an
    int64. *)
Theorem C23_integers : forall E s, digits s ->
  (number_of s < 2 ^ 63 -> typed E s = VInt KInt64 (number_of s)) /\
  (number_of s <= 2 ^ 63 -> typed E ("-"%byte :: s) = VInt KInt64 (- number_of s)).
Proof.
  intros E s Hd. split; intro H; unfold typed; [rewrite parse_int_val by assumption|rewrite parse_int_neg by assumption]; reflexivity.
Qed.
Print Assumptions C23_integers.
Example C23_integers_ex : digits (bs "9223372036854775807") /\ number_of (bs "9223372036854775807") = 2 ^ 63 - 1.
Proof. split; [|reflexivity]. split; [discriminate|]. repeat constructor; discriminate. Qed.

Theorem C23_printed_integers : forall E z, - 2 ^ 63 <= z < 2 ^ 63 -> typed E (format_int z) = VInt KInt64 z.
Proof. intros E z H. unfold typed. rewrite parse_format by exact H. reflexivity. Qed.
Print Assumptions C23_printed_integers.
Example C23_printed_integers_ex : format_int (- 2 ^ 63) = bs "-9223372036854775808".
Proof. vm_compute. reflexivity. Qed.
