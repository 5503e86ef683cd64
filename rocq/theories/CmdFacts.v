(** Lemmas for the commands. *)
From Verif Require Import Base Value Event EventSpec EventFacts GraphSpec GraphFacts Lexer TextParser Stream Buffer BufferSpec BufferFacts BufferFacts2 Wp TextTerm TextSpec TextDoc TextFacts Emit EmitSpec EmitFacts.
From Verif Require Import Graph PathSpec AccessSpec AccessFacts Eval Template TypesSpec TypesFacts Encoding JsonSpec JsonFacts Xml XmlSpec XmlFacts Views Cmd CmdSpec.
Local Notation Text := Emit.Text.

Lemma gref_strings E : forall g g', gref E g g' -> all_nodes (fun v => exists s, v = VStr s) g.
Proof.
  fix IH 3. intros g g' H. destruct H as [v v' k k' Hv Hk]. constructor; [destruct Hv; eexists; reflexivity|].
  induction Hk as [|a b k k' Hab _ IHk]; constructor; [exact (IH _ _ Hab)|exact IHk].
Qed.
Lemma FromReader_strings E rd fuel : (2 * List.length (seen (size rd) rd) + 3 <= fuel)%nat ->
  exists g, FromReader E fuel false rd = Ok g /\ this g = VStr (bs "_") /\ all_nodes (fun v => exists s, v = VStr s) g.
Proof.
  intro Hf. destruct (types_refine E rd fuel Hf) as (g & g' & Hg & _ & Hr). exists g. split; [exact Hg|]. split; [|exact (gref_strings E g g' Hr)].
  destruct (FromReader_run E false rd fuel Hf) as (a & x & h & Hrun & Hh). unfold FromReader in Hg. rewrite Hrun in Hg. cbn [rbind] in Hg.
  rewrite (h_inv_Tree h Hh) in Hg. injection Hg as <-. reflexivity.
Qed.
Lemma strings_data g : all_nodes (fun v => exists s, v = VStr s) g -> all_nodes data g.
Proof. intros H. apply all_nodes_ind' with (2 := H). intros v k (s & ->) _ IH. constructor; [exact I|exact IH]. Qed.

(** ** Output that ends with a newline *)
Definition contents_ok (f : list tree) : Prop := Forall (fun e => text_content (fst e) (snd e)) (pres 0 f).
Lemma end_line_text E g f : prints E (out g) f -> contents_ok f -> exists s, Text E (Some g) = Ok s /\ end_line s = flat_map emitted (pres 0 f).
Proof.
  intros Hp Hc. destruct (Text_lines E g f Hp Hc) as [(-> & ->)|(s & c & -> & H1 & H2 & ->)]; [exists []; split; reflexivity|].
  exists (s ++ [c]). split; [reflexivity|]. unfold end_line. destruct (s ++ [c]) as [|x r] eqn:He; [destruct s; discriminate|]. rewrite <- He.
  rewrite List.last_last. apply beq_neq in H1, H2. rewrite H1, H2. cbn [orb]. rewrite <- app_assoc. reflexivity.
Qed.
Lemma lines_end f : contents_ok f -> flat_map emitted (pres 0 f) = [] \/ exists r, flat_map emitted (pres 0 f) = r ++ [x0a].
Proof.
  intros _. destruct (pres 0 f) as [|e l] using rev_ind; [left; reflexivity|]. rewrite flat_map_app. cbn [flat_map]. rewrite app_nil_r.
  destruct e as [n s]. unfold emitted, text_node. cbn [fst snd]. destruct (existsb special s).
  - right. cbn [fst]. eexists. rewrite !app_assoc. reflexivity.
  - destruct s as [|c s]; cbn [fst]; [rewrite app_nil_r; exact IHl|]. right. eexists. rewrite !app_assoc. reflexivity.
Qed.
Lemma content_filled l s : text_content l s -> s <> [].
Proof. intros (_ & [((H & _) & _)|(_ & H & _)]); [exact H|]. intros ->. inversion H. Qed.
Lemma prints_gforest E f : forall l, Forall (fun e => text_content (fst e) (snd e)) (pres l f) -> prints E (gforest f) f.
Proof.
  assert (K : forall t l, Forall (fun e => text_content (fst e) (snd e)) (pre l t) -> forall r f, prints E r f -> prints E (Some (gtree t) :: r) (t :: f)).
  { induction t as [s k IH] using tree_ind'. intros l H r f' Hr. cbn [pre] in H. inversion H as [|? ? Hs Hk]; subst. cbn [fst snd] in Hs. cbn [gtree].
    apply content_filled in Hs. destruct s as [|c s]; [congruence|]. apply prints_node; [reflexivity| |exact Hr].
    clear H Hs. induction IH as [|t k Ht _ IHk]; [constructor|]. cbn [map flat_map] in *. apply Forall_app in Hk. destruct Hk as [H1 H2]. eapply Ht; [exact H1|]. apply IHk, H2. }
  induction f as [|t f IH]; intros l H; [constructor|]. rewrite pres_cons in H. apply Forall_app in H. destruct H as [H1 H2]. cbn [gforest map]. eapply K; [exact H1|]. eapply IH, H2.
Qed.

Lemma not_name_dot E : ~ letters E (bs ".").
Proof.
  intros H. inversion H as [|r w s Hu Hn _ Hw]; subst. destruct Hu; try discriminate. injection Hw as -> _. discriminate Hn.
Qed.
Lemma path_not_dot E es : Forall (elem_ok E) es -> es <> [] -> bseq (path_text es) (bs ".") = false.
Proof.
  intros Hok Hne. destruct (bseq (path_text es) (bs ".")) eqn:H; [|reflexivity]. exfalso. apply bseq_eq in H.
  destruct es as [|e r]; [congruence|]. inversion Hok as [|? ? He _]; subst. cbn [path_text] in H. destruct e as [s|q s|n]; cbn [elem_text elem_ok] in *.
  - destruct He as (Hs & Hl). destruct s as [|c s]; [congruence|]. injection H as -> H. destruct s; [|discriminate].
    apply (not_name_dot E). exact Hl.
  - destruct He as ([->|[->| ->]] & _); discriminate.
  - destruct r; discriminate.
Qed.

(** ** JSON *)
Definition filled : tree -> Prop := fix filled (t : tree) : Prop :=
  match t with T s k => s <> [] /\ (fix all (k : list tree) : Prop := match k with [] => True | t :: k => filled t /\ all k end) k end.
Fixpoint all_filled (k : list tree) : Prop := match k with [] => True | t :: k => filled t /\ all_filled k end.
Lemma filled_node s k : filled (T s k) <-> s <> [] /\ all_filled k.
Proof. reflexivity. Qed.
Lemma filled_pres f : forall l, Forall (fun e => text_content (fst e) (snd e)) (pres l f) -> all_filled f.
Proof.
  assert (K : forall t l, Forall (fun e => text_content (fst e) (snd e)) (pre l t) -> filled t).
  { induction t as [s k IH] using tree_ind'. intros l H. cbn [pre] in H. inversion H as [|? ? Hs Hk]; subst. apply filled_node. split; [exact (content_filled _ _ Hs)|].
    clear H Hs. induction IH as [|t k Ht _ IHk]; [exact I|]. cbn [flat_map] in Hk. apply Forall_app in Hk. destruct Hk as [H1 H2]. split; [eapply Ht, H1|apply IHk, H2]. }
  induction f as [|t f IH]; intros l H; [exact I|]. rewrite pres_cons in H. apply Forall_app in H. destruct H as [H1 H2]. split; [eapply K, H1|eapply IH, H2].
Qed.
Lemma prints_leaf E v s : vstring E v = Ok s -> s <> [] -> prints E [Some (Node v [])] [T s []].
Proof. intros H Hs. destruct s as [|c s]; [congruence|]. apply prints_node; [exact H|constructor|constructor]. Qed.
Lemma prints_cons E v s o k r f : vstring E v = Ok s -> s <> [] -> prints E o k -> prints E r f -> prints E (Some (Node v o) :: r) (T s k :: f).
Proof. intros H Hs Ho Hr. destruct s as [|c s]; [congruence|]. apply prints_node; assumption. Qed.

Lemma jlines_prints E d : forall f, jlines E d f -> all_filled f -> prints E (out (toGraph E d)) f.
Proof.
  induction d as [|b|s|s|l IH|l IH] using jdoc_ind'; intros f H Hf; inversion H; subst; cbn [toGraph out].
  - constructor.
  - apply prints_leaf; [reflexivity|apply Hf].
  - apply prints_leaf; [reflexivity|apply Hf].
  - match goal with H : numeral _ _ |- _ => apply parse_int_iff in H; rewrite H end. apply prints_leaf; [reflexivity|apply Hf].
  - match goal with H : forall z, ~ numeral _ _ |- _ => rename H into Hn end. destruct (parse_int s) as [z|] eqn:Hp; [destruct (Hn z); apply parse_int_iff, Hp|].
    match goal with H : parse_float _ _ = _ |- _ => rewrite H end. apply prints_leaf; [reflexivity|apply Hf].
  - apply prints_leaf; [reflexivity|apply Hf].
  - match goal with H : Forall2 _ _ _ |- _ => rename H into Hl end. clear H. revert f Hl Hf. induction IH as [|d l Hd _ IHl]; intros f Hl Hf; inversion Hl as [|? t ? f' (k & -> & Hk) Hl']; subst; [constructor|].
    destruct Hf as ((_ & Hk') & Hf). destruct (toGraph E d) as [v o] eqn:Hg.
    assert (v = VStr (bs "_")) as -> by (destruct d; cbn [toGraph] in Hg; congruence).
    apply prints_cons; [reflexivity|discriminate|apply (Hd k Hk), Hk'|apply IHl; assumption].
  - match goal with H : Forall2 _ _ _ |- _ => rename H into Hl end. apply prints_cons; [reflexivity|discriminate| |constructor]. destruct Hf as ((_ & Hf) & _). clear H.
    change ((fix all (k : list tree) : Prop := match k with [] => True | t :: k' => filled t /\ all k' end) f0) with (all_filled f0) in Hf.
    revert f0 Hl Hf. induction IH as [|[n d] l Hd _ IHl]; intros f Hl Hf; inversion Hl as [|? t ? f' (k & -> & Hk) Hl']; subst; [constructor|]. cbn [fst snd] in *.
    destruct Hf as ((Hn & Hk') & Hf). apply prints_cons; [reflexivity|exact Hn|apply (Hd k Hk), Hk'|apply IHl; assumption].
Qed.

(** ** Reading the source *)
Definition plain_reader (rd : reader) : Prop := Forall (fun p => fst p <> [] /\ snd p = false) rd.
Lemma read_all_plain n : forall rd, plain_reader rd -> (List.length (List.concat (map fst rd)) < n)%nat -> read_all n rd = Ok (List.concat (map fst rd)).
Proof.
  induction n as [|n IH]; intros rd Hp Hn; [lia|]. destruct rd as [|[d e] rest]; [reflexivity|]. inversion Hp as [|? ? (Hd & He) Hr]; subst. cbn [fst snd] in *. subst e.
  cbn [map fst List.concat] in *. rewrite app_length in Hn. cbn [read_all rd_read]. destruct (Z.of_nat (List.length d) <=? 4096) eqn:Hl.
  - destruct d as [|c d]; [congruence|]. cbn [orb List.length Nat.eqb]. rewrite IH by (try assumption; cbn [List.length] in Hn; lia). reflexivity.
  - apply Z.leb_gt in Hl. change (Z.to_nat 4096) with 4096%nat. cbn [orb]. rewrite firstn_length, Nat.min_l by lia. change (4096 =? 0)%nat with false. cbv iota.
    assert (Hs : List.length (skipn 4096 d) = (List.length d - 4096)%nat) by apply skipn_length.
    rewrite IH.
    + cbn [rbind map fst List.concat]. rewrite app_assoc, firstn_skipn. reflexivity.
    + constructor; [|exact Hr]. cbn [fst snd]. split; [|reflexivity]. intros H. rewrite H in Hs. cbn [List.length] in Hs. lia.
    + cbn [map fst List.concat]. rewrite app_length. lia.
Qed.

(** ** The option -id *)
Definition each_id (f : graph -> res graph) := fix go (o : list (option graph)) : res (list (option graph)) :=
  match o with
  | [] => Ok []
  | None :: _ => Panic
  | Some c :: o => let* c := f c in let* o := go o in Ok (Some c :: o)
  end.
Definition last_id (f : graph -> res graph) := fix go (o : list (option graph)) : res (list (option graph)) :=
  match o with
  | [] => Ok []
  | [None] => Panic
  | [Some c] => let* c := f c in Ok [Some c]
  | _ :: o => go o
  end.
Lemma id_node_eq E v o : id_node E (Node v o) =
  match o with
  | [] => Ok (Node v [])
  | c :: o' =>
      let* s := ThisString E c in
      if bseq s (bs "@id") && (2 <=? S (List.length o'))%nat then
        let* v := (match v with
                   | VStr t => if bseq t (bs "p") then Ok v else let* d := grandchild c in Ok (this d)
                   | _ => let* d := grandchild c in Ok (this d)
                   end) in
        let* o := id_all E [List.last (c :: o') None] in Ok (Node v o)
      else let* o := id_all E (c :: o') in Ok (Node v o)
  end.
Proof.
  destruct o as [|c o']; [reflexivity|].
  assert (Ha : forall o, each_id (id_node E) o = id_all E o).
  { induction o as [|[x|] o IH]; [reflexivity| |reflexivity]. cbn [each_id id_all]. rewrite IH. reflexivity. }
  assert (Ho : forall o c, last_id (id_node E) (c :: o) = id_all E [List.last (c :: o) None]).
  { induction o as [|y o IH]; intros x; [destruct x; reflexivity|]. transitivity (last_id (id_node E) (y :: o)); [destruct x; reflexivity|]. rewrite IH. reflexivity. }
  rewrite <- Ho, <- Ha. reflexivity.
Qed.
Lemma id_all_one E t t' : id_node E (gtree t) = Ok (gtree t') -> id_all E [Some (gtree t)] = Ok [Some (gtree t')].
Proof. intros H. cbn [id_all]. rewrite H. reflexivity. Qed.
Lemma with_id_sound E : (forall t t', with_id t t' -> id_node E (gtree t) = Ok (gtree t')) /\ (forall k k', with_ids k k' -> id_all E (gforest k) = Ok (gforest k')).
Proof.
  apply with_id_ind'.
  - intros s k k' Hn _ IH. cbn [gtree]. rewrite id_node_eq. change (map (fun t => Some (gtree t))) with gforest. destruct k as [|[i ik] k]; [cbn [gforest map id_all] in IH; injection IH as <-; reflexivity|].
    cbn [gforest map gtree ThisString this vstring sstring rbind]. cbn [gforest map gtree] in IH. change (map (fun t => Some (gtree t))) with gforest in *.
    destruct (bseq i (bs "@id") && (2 <=? S (List.length (gforest k)))%nat) eqn:Hb.
    + exfalso. apply Hn. apply andb_true_iff in Hb. destruct Hb as [Hb Hl]. apply bseq_eq in Hb. subst i. exists ik, k. split; [reflexivity|]. intros ->. discriminate Hl.
    + rewrite IH. reflexivity.
  - intros i r t t' _ IH. cbn [gtree]. rewrite id_node_eq. change (map (fun t => Some (gtree t))) with gforest. cbn [gforest map gtree ThisString this vstring sstring rbind].
    rewrite map_app, app_length. cbn [map List.length]. rewrite Nat.add_1_r. change (bseq (bs "@id") (bs "@id")) with true. cbn [andb Nat.leb]. change (bseq (bs "p") (bs "p")) with true. cbn iota. cbn [rbind].
    rewrite app_comm_cons, List.last_last. rewrite (id_all_one E t t' IH). reflexivity.
  - intros s i n r r' t t' Hs _ IH. cbn [gtree]. rewrite id_node_eq. change (map (fun t => Some (gtree t))) with gforest. cbn [gforest map gtree ThisString this vstring sstring rbind].
    rewrite map_app, app_length. cbn [map List.length]. rewrite Nat.add_1_r. change (bseq (bs "@id") (bs "@id")) with true. cbn [andb Nat.leb]. apply bseq_neq in Hs. rewrite Hs. cbn [grandchild out rbind this].
    rewrite app_comm_cons, List.last_last. rewrite (id_all_one E t t' IH). reflexivity.
  - reflexivity.
  - intros t t' k k' _ IH _ IHk. cbn [gforest map id_all]. rewrite IH. cbn [rbind]. change (map (fun t => Some (gtree t))) with gforest. rewrite IHk. reflexivity.
Qed.

(** ** Templates *)
Lemma walk_files E x r gs1 g gs2 v n : Forall (fun h => none_named E x (out h)) gs1 -> walk E (Name x :: r) g n ->
  walk E (Name x :: r) (Node v (flat_map out (gs1 ++ g :: gs2))) n.
Proof.
  intros Hn Hw. inversion Hw as [|e s es g' i c n' Hk Hf Hr|]; subst. injection Hk as <-.
  apply (walk_key E (Name x) x r _ (List.length (flat_map out gs1) + i)%nat c n); [reflexivity| |exact Hr]. cbn [out]. rewrite flat_map_app. cbn [flat_map]. destruct Hf as (H1 & H2 & H3).
  assert (Hall : none_named E x (flat_map out gs1)).
  { unfold none_named. rewrite Forall_forall in *. intros y Hy. apply in_flat_map in Hy. destruct Hy as (h & Hh & Hy). specialize (Hn h Hh). unfold none_named in Hn. rewrite Forall_forall in Hn. exact (Hn y Hy). }
  set (a := flat_map out gs1) in *. split; [|split; [exact H2|]].
  - rewrite nth_error_app2 by lia. replace (List.length a + i - List.length a)%nat with i by lia.
    rewrite nth_error_app1; [exact H1|]. apply nth_error_Some. congruence.
  - intros j y Hj Hy. destruct (Nat.lt_ge_cases j (List.length a)) as [Hlt|Hge].
    + rewrite nth_error_app1 in Hy by exact Hlt. unfold none_named in Hall. rewrite Forall_forall in Hall. apply Hall. eapply nth_error_In, Hy.
    + rewrite nth_error_app2 in Hy by exact Hge. rewrite nth_error_app1 in Hy; [apply (H3 (j - List.length a)%nat y); [lia|exact Hy]|].
      assert (i < List.length (out g))%nat by (apply nth_error_Some; congruence). lia.
Qed.
Definition file_graph (E : env) (fuel : nat) (f : option bytes) (g : graph) : Prop :=
  exists b, f = Some b /\ b <> [] /\ FromString E fuel b = Ok g.
Lemma FromFile_graph E fuel f g : file_graph E fuel f g -> FromFile E fuel f = Ok (Some g).
Proof. intros (b & -> & Hb & Hg). destruct b as [|c b]; [congruence|]. unfold FromFile. unfold FromString in Hg. rewrite Hg. reflexivity. Qed.
Lemma data_files_all E fuel fs gs : Forall2 (file_graph E fuel) fs gs -> forall v o,
  data_files E fuel (Some (Node v o)) fs = Ok (Some (Node v (o ++ flat_map out gs))).
Proof.
  induction 1 as [|f g fs gs Hf _ IH]; intros v o; cbn [data_files flat_map]; [rewrite app_nil_r; reflexivity|].
  rewrite (FromFile_graph _ _ _ _ Hf). cbn [rbind AddNodes]. rewrite IH, app_assoc. reflexivity.
Qed.
Lemma gtemplate_data_all E fuel fs gs : Forall2 (file_graph E fuel) fs gs -> gs <> [] ->
  gtemplate_data E fuel fs = Ok (Some (Node (this (hd (Node VNil []) gs)) (flat_map out gs))).
Proof.
  intros H Hne. destruct H as [|f g fs gs Hf H]; [congruence|]. cbn [gtemplate_data]. rewrite (FromFile_graph _ _ _ _ Hf). cbn [rbind]. destruct g as [v o].
  rewrite (data_files_all _ _ _ _ H). reflexivity.
Qed.

(** ** A single value *)
Lemma text_bytes_raw s : forall cp, ~ In x0d s -> text_bytes false [] cp s = s.
Proof.
  induction s as [|c s IH]; intros cp H; [reflexivity|]. cbn [text_bytes]. destruct (beq_spec c x0d) as [->|Hc]; [destruct H; left; reflexivity|].
  rewrite andb_false_r. rewrite IH by (intro K; apply H; right; exact K). destruct (beq_spec c x0a) as [->|]; reflexivity.
Qed.
Lemma Text_leaf E c v s : out c = [Some (Node v [])] -> vstring E v = Ok s -> s <> [] -> ~ In x0d s -> hd x00 s <> x22 -> Text E (Some c) = Ok s.
Proof.
  intros Ho Hv Hne Hcr Hq. destruct s as [|x r]; [congruence|]. unfold Text. rewrite Ho. rewrite (texts_prints E _ [T (x :: r) []]) by (apply prints_node; [exact Hv|constructor|constructor]).
  cbn [rbind]. rewrite pres_node. cbn [pres flat_map app]. rewrite app_nil_r. unfold emitted, text_node. cbn [fst snd].
  replace (indentation 0) with (@nil byte) by reflexivity. change (0 <? 0) with false. cbv iota. cbn [app].
  destruct (existsb special (x :: r)); cbn [fst]; [rewrite text_bytes_raw by exact Hcr|]; apply finish_line; exact Hq.
Qed.
Lemma last_in {A} (l : list A) d : l <> [] -> In (List.last l d) l.
Proof. induction l as [|a [|b l] IH]; intros H; [congruence|left; reflexivity|]. right. apply IH. discriminate. Qed.

(** ** A newline after the text *)
Lemma text_newline E g f : prints E (out g) f -> contents_ok f -> exists s, Text E (Some g) = Ok s /\
  (f = [] /\ s = [] \/ f <> [] /\ s ++ [x0a] = flat_map emitted (pres 0 f)).
Proof.
  intros Hp Hc. destruct (Text_lines E g f Hp Hc) as [(-> & ->)|(s & c & Hs & H1 & H2 & ->)]; [exists []; auto|].
  exists (s ++ [c]). split; [reflexivity|right]. split; [|rewrite Hs, <- app_assoc; reflexivity]. intros ->. destruct s; discriminate.
Qed.
Lemma blank_doc E fuel : (5 <= fuel)%nat -> FromString E fuel [x0a] = Ok (groot []).
Proof.
  intros H. change [x0a] with (doc_source [mkL [] [] LF]). rewrite FromString_doc; [reflexivity| |cbn; lia].
  split; [|split; [repeat split; discriminate|left; constructor]]. constructor; [|constructor]. split; [constructor|]. split; [cbn; lia|]. split; constructor.
Qed.
Lemma newline_read E g f : prints E (out g) f -> contents_ok f -> exists s, Text E (Some g) = Ok s /\
  forall n, (2 * List.length (s ++ [x0a]) + 3 <= n)%nat -> FromString E n (s ++ [x0a]) = Ok (groot f).
Proof.
  intros Hp Hc. destruct (text_newline E g f Hp Hc) as (s & Hs & [(-> & ->)|(_ & Hl)]); exists s || exists []; (split; [exact Hs|]); intros n Hn.
  - apply blank_doc. cbn in Hn. lia.
  - rewrite Hl in *. apply lf_read; assumption.
Qed.

(** ** What FromXML builds has only texts *)
Scheme image_mind := Minimality for image Sort Prop with images_mind := Minimality for images Sort Prop.
Combined Scheme image_images_ind from image_mind, images_mind.
Lemma images_strings u t : (forall x o, image u t x o -> exists k, o = map Some k /\ Forall (all_nodes (fun v => exists s, v = VStr s)) k) /\
  (forall xs o, images u t xs o -> exists k, o = map Some k /\ Forall (all_nodes (fun v => exists s, v = VStr s)) k).
Proof.
  apply image_images_ind.
  - intros n a k key oa ok _ Ha _ (l & -> & Hl). assert (La : exists la, oa = map Some la /\ Forall (all_nodes (fun v => exists s, v = VStr s)) la).
    { induction Ha as [|x c a oa (v & -> & ->) _ (la & -> & Hla)]; [exists []; split; [reflexivity|constructor]|].
      exists (Node (VStr ("@"%byte :: fst x)) [Some (Node (VStr (snd x)) [])] :: la). split; [reflexivity|]. constructor; [|exact Hla].
      apply (all_node _ _ [Node (VStr (snd x)) []]); [eauto|]. constructor; [|constructor]. apply (all_node _ _ []); [eauto|constructor]. }
    destruct La as (la & -> & Hla). exists [Node (VStr key) (map Some (la ++ l))]. split; [rewrite map_app; reflexivity|]. constructor; [|constructor]. constructor; [eauto|]. apply Forall_app. auto.
  - intros s _. exists [Node (VStr (t s)) []]. split; [reflexivity|]. constructor; [|constructor]. apply (all_node _ _ []); [eauto|constructor].
  - intros s _. exists []. split; [reflexivity|constructor].
  - exists []. split; [reflexivity|constructor].
  - exists []. split; [reflexivity|constructor].
  - intros x xs o os _ (k & -> & Hk) _ (l & -> & Hl). exists (k ++ l). split; [rewrite map_app; reflexivity|]. apply Forall_app. auto.
Qed.
Lemma images_data u t xs o : images u t xs o -> all_nodes data (Node VNil o).
Proof.
  intros H. destruct (proj2 (images_strings u t) xs o H) as (k & -> & Hk). constructor; [exact I|]. revert Hk. apply Forall_impl. apply strings_data.
Qed.
Lemma images_whole E u t xs o : images u t xs o -> whole E (Node VNil o).
Proof. intros H. eapply data_whole, images_data, H. Qed.
Lemma flat_whole E s gs : Forall (whole E) gs -> whole E (Node (VStr s) (flat_map out gs)).
Proof.
  intros H. assert (K : exists k, flat_map out gs = map Some k /\ Forall (whole E) k).
  { induction H as [|g gs Hg _ (k & Hk & Hw)]; [exists []; split; [reflexivity|constructor]|]. destruct (all_nodes_inv _ _ Hg) as (v & l & -> & _ & Hl).
    exists (l ++ k). split; [cbn [flat_map out]; rewrite Hk, map_app; reflexivity|]. apply Forall_app. auto. }
  destruct K as (k & -> & Hk). constructor; [eexists; reflexivity|exact Hk].
Qed.
