(** The emitter writes documents that the parser reads back. *)
From Verif Require Import Base Value Event EventSpec EventFacts Lexer TextParser Stream Buffer BufferSpec BufferFacts BufferFacts2 Wp TextTerm TextSpec TextDoc TextFacts Binary BinarySpec BinaryFacts Emit EmitSpec.

Lemma text_eq E show n v o : text_ E show n (Node v o) =
  let* s := vstring E v in let (hd, n) := text_node show n s in let* tl := texts E show (n + 1) o in Ok (hd ++ tl).
Proof.
  cbn [text_]. destruct (vstring E v) as [s| |]; cbn [rbind]; try reflexivity. destruct (text_node show n s) as [hd n'].
  set (go := fix go (o : list (option graph)) : res bytes := match o with [] => Ok [] | None :: o => _ | Some c :: o => _ end).
  assert (H : go o = texts E show (n' + 1) o). { induction o as [|[c|] o IH]; [reflexivity| |]; cbn [go texts]; fold go; rewrite IH; reflexivity. }
  rewrite H. reflexivity.
Qed.

Definition emitted (e : Z * bytes) : bytes := fst (text_node false (fst e) (snd e)).
Lemma texts_prints E o f : prints E o f -> forall n, texts E false n o = Ok (flat_map emitted (pres n f)).
Proof.
  induction 1 as [|v kids rest k r Hv _ IHk _ IHr|v kids rest c s k r Hv _ IHk _ IHr]; intro n; [reflexivity| |].
  - cbn [texts]. rewrite text_eq, Hv. cbn [rbind]. cbn [text_node existsb]. replace (n - 1 + 1) with n by lia. rewrite IHk. cbn [rbind app]. rewrite IHr. cbn [rbind].
    unfold pres. rewrite !flat_map_app. reflexivity.
  - cbn [texts]. rewrite text_eq, Hv. cbn [rbind].
    assert (Hn : snd (text_node false n (c :: s)) = n) by (unfold text_node; destruct (existsb special (c :: s)); reflexivity).
    destruct (text_node false n (c :: s)) as [hd n'] eqn:Ht. cbn [snd] in Hn. subst n'. rewrite IHk. cbn [rbind]. rewrite IHr. cbn [rbind].
    rewrite pres_node. cbn [flat_map]. rewrite flat_map_app. assert (He : emitted (n, c :: s) = hd) by (unfold emitted; cbn [fst snd]; rewrite Ht; reflexivity).
    rewrite He, <- app_assoc. reflexivity.
Qed.

Lemma special_iff c : special c = true <-> separator c.
Proof.
  unfold special, separator. rewrite existsb_exists. split.
  - intros (d & Hd & H). apply beq_eq in H. subst d. exact Hd.
  - intro H. exists c. split; [exact H|apply beq_refl].
Qed.

(** ** Lines *)
Definition tok_of (s : bytes) : scalar := if existsb special s then Quo x22 s else Plain s.
Definition line_of (fi : ending) (e : Z * bytes) : textline :=
  mkL (repeat " "%byte (2 * Z.to_nat (fst e))) [(tok_of (snd e), [])] fi.

Lemma quoted_ok_any n s : (0 < n)%nat -> quoted_ok 1 s -> quoted_ok n s.
Proof.
  intro Hn. induction s as [|c s IH]; [trivial|]. cbn [quoted_ok]. intros (H1 & H2 & H3 & H4). repeat split; auto; try apply H2; auto. intros _ ->. lia.
Qed.

Lemma text_bytes_quoted n s : forall cp, quoted_ok 1 s -> ~ In x0d s -> (cp = "\"%byte -> starts_with [x22] s = false) ->
  text_bytes true (repeat " "%byte n) cp s = flat_map (quoted_byte x22 n) s.
Proof.
  induction s as [|c s IH]; intros cp Hok Hcr Hcp; [reflexivity|]. cbn [text_bytes flat_map quoted_ok] in *. destruct Hok as (_ & H2 & _ & H4).
  assert (Hc : c <> x0d) by (intros ->; apply Hcr; left; reflexivity). apply beq_neq in Hc. rewrite Hc.
  rewrite IH; auto; [|intro H; apply Hcr; right; exact H|].
  - f_equal. unfold quoted_byte. rewrite andb_true_r. destruct (beq_spec c x22) as [->|Hq].
    + change (beq x22 x0a) with false. cbv iota. destruct (beq_spec cp "\"%byte) as [->|]; [|reflexivity]. specialize (Hcp eq_refl). discriminate Hcp.
    + destruct (beq c x0a); reflexivity.
  - intros ->. destruct (H2 eq_refl) as (_ & Hs). destruct s as [|d s]; [reflexivity|]. cbn [starts_with existsb] in *. rewrite !orb_false_iff in Hs. rewrite orb_false_iff. tauto.
Qed.

Lemma emitted_source e : 0 <= fst e -> text_content (fst e) (snd e) -> emitted e = line_source (line_of LF e).
Proof.
  destruct e as [l s]. cbn [fst snd]. intros Hl (_ & Hc). unfold emitted, line_source, line_of, text_node, depth, tok_of. cbn [fst snd ind toks fin toks_source flat_map].
  rewrite repeat_length, app_nil_r. destruct Hc as [(Hp & Hns)|(Hl1 & Hsp & Hq & Hcr)].
  - assert (Hn : existsb special s = false).
    { destruct (existsb special s) eqn:He; [|reflexivity]. apply existsb_exists in He. destruct He as (c & Hin & Hc). rewrite Forall_forall in Hns. exfalso. apply (Hns c Hin), special_iff, Hc. }
    rewrite Hn. destruct Hp as (Hne & _). destruct s as [|c s]; [congruence|]. cbn [fst source ending_source]. rewrite app_nil_r. reflexivity.
  - assert (Hy : existsb special s = true).
    { apply Exists_exists in Hsp. destruct Hsp as (c & Hin & Hc). apply existsb_exists. exists c. split; [exact Hin|]. apply special_iff, Hc. }
    rewrite Hy. replace (0 <? l) with true by (symmetry; apply Z.ltb_lt; lia). cbn [fst source ending_source]. unfold indentation. rewrite text_bytes_quoted by (auto; discriminate).
    unfold quoted_source. rewrite <- !app_assoc. cbn [app]. rewrite <- !app_assoc. reflexivity.
Qed.

Lemma line_of_ok fi e : (fi = LF \/ fi = Eof) -> 0 <= fst e -> text_content (fst e) (snd e) -> line_ok (line_of fi e).
Proof.
  destruct e as [l s]. cbn [fst snd]. intros Hfi Hl (Hd & Hc). unfold line_ok, line_of, depth. cbn [ind toks fin fst snd]. rewrite repeat_length. split; [|split; [|split]].
  - apply Forall_forall. intros c Hin. apply repeat_spec in Hin. subst c. reflexivity.
  - lia.
  - cbn [toks_ok]. split; [|split; [constructor|split; [|exact I]]].
    + unfold tok_of. destruct Hc as [(Hp & Hns)|(Hl1 & Hsp & Hq & Hcr)].
      * assert (Hn : existsb special s = false).
        { destruct (existsb special s) eqn:He; [|reflexivity]. apply existsb_exists in He. destruct He as (c & Hin & Hc). rewrite Forall_forall in Hns. exfalso. apply (Hns c Hin), special_iff, Hc. }
        rewrite Hn. exact Hp.
      * assert (Hy : existsb special s = true).
        { apply Exists_exists in Hsp. destruct Hsp as (c & Hin & Hc). apply existsb_exists. exists c. split; [exact Hin|]. apply special_iff, Hc. }
        rewrite Hy. split; [left; reflexivity|]. apply quoted_ok_any; [lia|exact Hq].
    + intros [H|H]; [congruence|]. destruct Hfi as [-> | ->]; discriminate.
  - destruct Hfi as [-> | ->]; exact I.
Qed.

(** ** Levels *)
Definition top (P : list nat) : nat := match P with [] => 0 | m :: _ => S m end.
Fixpoint chain_ok (P : list nat) : Prop := match P with [] => True | m :: P' => (m <= top P')%nat /\ chain_ok P' end.
Lemma level_chain P : forall n, chain_ok P -> (n <= top P)%nat -> level (map (Nat.mul 2) P) (2 * n) = Z.of_nat n.
Proof.
  induction P as [|m P IH]; intros n Hc Hn; cbn [top map level chain_ok] in *; [lia|]. destruct Hc as (Hm & Hc).
  destruct (Nat.ltb_spec (2 * m) (2 * n)); [rewrite IH by (auto; lia); lia|apply IH; auto; lia].
Qed.

Lemma tok_content s : content (tok_of s) = s.
Proof. unfold tok_of. destruct (existsb special s); reflexivity. Qed.

Definition lines (es : list (Z * bytes)) (e : Z * bytes) : list textline := map (line_of LF) es ++ [line_of Eof e].
Lemma line_of_vals fi e : fi = LF \/ fi = Eof -> line_vals untyped (line_of fi e) = [VStr (snd e)].
Proof. intro H. unfold line_vals, line_of. cbn [toks fin map fst]. unfold untyped. rewrite tok_content. destruct H as [-> | ->]; reflexivity. Qed.
Lemma line_of_level fi l s P : chain_ok P -> 0 <= l <= Z.of_nat (top P) -> level (map (Nat.mul 2) P) (depth (line_of fi (l, s))) = l.
Proof. intros Hc Hl. unfold depth, line_of. cbn [ind fst]. rewrite repeat_length, level_chain; [lia|exact Hc|lia]. Qed.

Lemma lines_events es : forall e P, chain_ok P -> nested (Z.of_nat (top P)) (map (fun e => (fst e, VStr (snd e))) (es ++ [e])) ->
  doc_events untyped (map (Nat.mul 2) P) (lines es e) = map (fun e => (fst e, VStr (snd e))) (es ++ [e]).
Proof.
  induction es as [|[l s] es IH]; intros [l' s'] P Hc Hn; cbn [app map nested fst snd] in Hn; destruct Hn as (Hl & Hn); unfold lines; cbn [map app doc_events].
  - rewrite line_of_vals by auto. rewrite line_of_level by auto. reflexivity.
  - rewrite line_of_vals by auto. rewrite line_of_level by auto. cbn [at_levels app fst snd]. f_equal.
    assert (Hd : depth (line_of LF (l, s)) = (2 * Z.to_nat l)%nat) by (unfold depth, line_of; cbn [ind fst]; apply repeat_length).
    rewrite Hd. apply (IH (l', s') (Z.to_nat l :: P)).
    + cbn [chain_ok]. split; [lia|exact Hc].
    + cbn [top]. replace (Z.of_nat (S (Z.to_nat l))) with (l + 1) by lia. exact Hn.
Qed.

Lemma nested_nonneg evs : forall b, nested b evs -> Forall (fun e => 0 <= fst e) evs.
Proof. induction evs as [|[l v] evs IH]; intros b H; constructor; cbn in *; [lia|]. eapply IH, H. Qed.
Lemma pres_nested f : nested 0 (map (fun e => (fst e, VStr (snd e))) (pres 0 f) : list (Z * value graph)).
Proof. pose proof (vpre_nested f 0 [] ltac:(lia) I) as H. rewrite app_nil_r in H. exact H. Qed.

Lemma lines_source es e : Forall (fun e => 0 <= fst e /\ text_content (fst e) (snd e)) (es ++ [e]) ->
  flat_map emitted (es ++ [e]) = doc_source (lines es e) ++ [x0a].
Proof.
  intro H. apply Forall_app in H. destruct H as (H1 & H2). inversion H2 as [|? ? (Ha & Hb) _]; subst. unfold lines, doc_source. rewrite !flat_map_app. cbn [flat_map]. rewrite !app_nil_r, <- app_assoc. f_equal.
  - clear H2 Ha Hb. induction H1 as [|x es (Hx & Hy) _ IH]; [reflexivity|]. cbn [flat_map map]. rewrite IH, emitted_source by assumption. reflexivity.
  - rewrite emitted_source by assumption. unfold line_source, line_of, depth. cbn [ind toks fin]. cbn [ending_source]. rewrite !app_nil_r, <- !app_assoc. reflexivity.
Qed.

Lemma lines_ok es e : Forall (fun e => 0 <= fst e /\ text_content (fst e) (snd e)) (es ++ [e]) -> doc_ok (lines es e).
Proof.
  intro H. apply Forall_app in H. destruct H as (H1 & H2). inversion H2 as [|? ? (Ha & Hb) _]; subst. unfold lines. split; [|split].
  - apply Forall_app. split; [|constructor; [|constructor]; apply line_of_ok; auto].
    apply Forall_forall. intros l Hl. apply in_map_iff in Hl. destruct Hl as (x & <- & Hx). rewrite Forall_forall in H1. destruct (H1 x Hx). apply line_of_ok; auto.
  - clear. induction es; cbn; auto.
  - assert (Hu : forall fi x, uniform (ind (line_of fi x))). { intros fi x. left. apply Forall_forall. intros c Hin. apply repeat_spec in Hin. congruence. }
    destruct es; apply Hu.
Qed.

(** Text is the lines without the last newline; with it, it is read the same way. *)
Lemma lf_events es : forall P, chain_ok P -> nested (Z.of_nat (top P)) (map (fun e => (fst e, VStr (snd e))) es) ->
  doc_events untyped (map (Nat.mul 2) P) (map (line_of LF) es) = map (fun e => (fst e, VStr (snd e))) es.
Proof.
  induction es as [|[l s] es IH]; intros P Hc Hn; [reflexivity|]. cbn [map nested fst snd doc_events] in *. destruct Hn as (Hl & Hn).
  rewrite line_of_vals by auto. rewrite line_of_level by auto. cbn [at_levels app fst snd]. f_equal.
  assert (Hd : depth (line_of LF (l, s)) = (2 * Z.to_nat l)%nat) by (unfold depth, line_of; cbn [ind fst]; apply repeat_length).
  rewrite Hd. apply (IH (Z.to_nat l :: P)).
  - cbn [chain_ok]. split; [lia|exact Hc].
  - cbn [top]. replace (Z.of_nat (S (Z.to_nat l))) with (l + 1) by lia. exact Hn.
Qed.
Lemma lf_source es : Forall (fun e => 0 <= fst e /\ text_content (fst e) (snd e)) es -> flat_map emitted es = doc_source (map (line_of LF) es).
Proof. induction 1 as [|x es (Hx & Hy) _ IH]; [reflexivity|]. cbn [flat_map map]. rewrite IH, emitted_source by assumption. reflexivity. Qed.
Lemma lf_ok es : Forall (fun e => 0 <= fst e /\ text_content (fst e) (snd e)) es -> doc_ok (map (line_of LF) es).
Proof.
  intro H. split; [|split].
  - apply Forall_forall. intros l Hl. apply in_map_iff in Hl. destruct Hl as (x & <- & Hx). rewrite Forall_forall in H. destruct (H x Hx). apply line_of_ok; auto.
  - clear. induction es; cbn; auto.
  - destruct es; [exact I|]. left. apply Forall_forall. intros c Hin. apply repeat_spec in Hin. congruence.
Qed.
Lemma lf_read E f fuel : Forall (fun e => text_content (fst e) (snd e)) (pres 0 f) -> (2 * List.length (flat_map emitted (pres 0 f)) + 3 <= fuel)%nat ->
  FromString E fuel (flat_map emitted (pres 0 f)) = Ok (groot f).
Proof.
  intros Hc Hf. pose proof (pres_nested f) as Hn. pose proof (nested_nonneg _ _ Hn) as Hpos.
  assert (Hall : Forall (fun e => 0 <= fst e /\ text_content (fst e) (snd e)) (pres 0 f)).
  { rewrite Forall_map in Hpos. rewrite Forall_forall in *. intros e He. split; [exact (Hpos e He)|exact (Hc e He)]. }
  rewrite (lf_source _ Hall) in *. rewrite FromString_doc by (auto using lf_ok). f_equal.
  assert (Hg : events_graph (map (fun e => (fst e, VStr (snd e))) (pres 0 f)) = groot f).
  { unfold groot, gforest, events_graph. f_equal. pose proof (forest_vpre f 0 [] ltac:(lia) I) as Hv. rewrite app_nil_r in Hv. unfold vpre in Hv. rewrite Hv. cbn [forest]. rewrite app_nil_r, map_map. reflexivity. }
  rewrite <- Hg, <- (lf_events (pres 0 f) [] I Hn). unfold doc_graph. f_equal. f_equal.
  destruct (pres 0 f) as [|e0 es] eqn:He; [reflexivity|]. cbn [map kept]. cbn [map nested fst] in Hn.
  assert (H0 : depth (line_of LF e0) = 0%nat) by (unfold depth, line_of; cbn [ind]; rewrite repeat_length; lia). rewrite H0. apply take_all. apply Forall_forall. intros. lia.
Qed.
(** The last character that is written for a node, but for the newline *)
Lemma emitted_last e : text_content (fst e) (snd e) -> exists s c, emitted e = s ++ [c; x0a] /\ c <> x0a /\ c <> x0d.
Proof.
  destruct e as [l s]. cbn [fst snd]. intros (_ & Hc). unfold emitted, text_node. cbn [fst snd].
  destruct (existsb special s) eqn:Hs.
  - destruct Hc as [(_ & Hns)|(Hl & _)].
    + apply existsb_exists in Hs. destruct Hs as (c & Hin & Hc). rewrite Forall_forall in Hns. exfalso. apply (Hns c Hin), special_iff, Hc.
    + replace (0 <? l) with true by lia. exists ((indentation l ++ [x22]) ++ text_bytes true (indentation l) x00 s), x22.
      split; [rewrite <- !app_assoc; reflexivity|split; discriminate].
  - destruct Hc as [((Hne & Hp & _) & _)|(_ & Hx & _)].
    + destruct (exists_last Hne) as (s' & c & ->). exists (indentation l ++ s'), c. split.
      * destruct (s' ++ [c]) eqn:Hd; [destruct s'; discriminate|]. rewrite <- Hd. cbn [fst]. rewrite <- !app_assoc. reflexivity.
      * apply Forall_app in Hp. destruct Hp as (_ & Hp). inversion Hp; subst. split; intros ->; cbn in *; lia.
    + apply Exists_exists in Hx. destruct Hx as (c & Hin & Hx). apply special_iff in Hx. assert (Hy : existsb special s = true) by (apply existsb_exists; eauto). congruence.
Qed.
Lemma finish_line x y : x <> x22 -> finish ((x :: y) ++ [x0a]) = Ok (x :: y).
Proof.
  intros Hx. unfold finish. cbn [app]. change (x :: y ++ [x0a]) with ((x :: y) ++ [x0a]). rewrite last_last, removelast_last. change (beq x0a x0a) with true. cbv iota.
  apply beq_neq in Hx. rewrite Hx. reflexivity.
Qed.
Lemma Text_lines E g f : prints E (out g) f -> Forall (fun e => text_content (fst e) (snd e)) (pres 0 f) ->
  (f = [] /\ Text E (Some g) = Ok []) \/
  exists s c, flat_map emitted (pres 0 f) = s ++ [c; x0a] /\ c <> x0a /\ c <> x0d /\ Text E (Some g) = Ok (s ++ [c]).
Proof.
  intros Hp Hc. unfold Text. rewrite (texts_prints E _ _ Hp 0). cbn [rbind].
  destruct f as [|t f]; [left; split; reflexivity|right]. pose proof (pres_nested (t :: f)) as Hn. remember (pres 0 (t :: f)) as es eqn:Hes.
  assert (Hne : es <> []) by (destruct t; subst; rewrite pres_node; discriminate).
  assert (H1 : exists c0 r, flat_map emitted es = c0 :: r /\ c0 <> x22).
  { destruct es as [|[l0 s0] es]; [congruence|]. cbn [map nested fst] in Hn. assert (Hl : l0 = 0) by lia. subst l0. inversion Hc as [|? ? (_ & H0) _]; subst. cbn [fst snd] in H0.
    destruct H0 as [((Hn0 & _ & Hst & _) & Hns)|(Hl & _)]; [|lia]. destruct s0 as [|c s0]; [congruence|]. exists c.
    assert (Hsp : existsb special (c :: s0) = false).
    { destruct (existsb special (c :: s0)) eqn:Hx; [|reflexivity]. apply existsb_exists in Hx. destruct Hx as (d & Hin & Hxc). rewrite Forall_forall in Hns. exfalso. apply (Hns d Hin), special_iff, Hxc. }
    cbn [flat_map]. unfold emitted at 1, text_node. cbn [fst snd]. rewrite Hsp. eexists. split; [reflexivity|]. intros ->. discriminate Hst. }
  destruct H1 as (c0 & r & Hcr & Hq).
  destruct (exists_last Hne) as (es' & e & He). rewrite He in Hc. apply Forall_app in Hc. destruct Hc as (_ & Hce). inversion Hce as [|? ? He' _]; subst x l.
  destruct (emitted_last e He') as (s & c & Hs & Hc1 & Hc2).
  assert (Hall : flat_map emitted es = (flat_map emitted es' ++ s) ++ [c; x0a]) by (rewrite He, flat_map_app; cbn [flat_map]; rewrite app_nil_r, Hs, app_assoc; reflexivity).
  exists (flat_map emitted es' ++ s), c. split; [exact Hall|]. split; [exact Hc1|]. split; [exact Hc2|].
  rewrite Hall in Hcr |- *. generalize (flat_map emitted es' ++ s) Hcr. intros w Hw. clear - Hw Hq.
  replace (w ++ [c; x0a]) with ((w ++ [c]) ++ [x0a]) in * by (rewrite <- app_assoc; reflexivity).
  remember (w ++ [c]) as v eqn:Hv. destruct v as [|x y]; [destruct w; discriminate|]. apply finish_line. injection Hw as -> _. exact Hq.
Qed.

Lemma Text_round_trip E g f : prints E (out g) f -> Forall (fun e => text_content (fst e) (snd e)) (pres 0 f) ->
  exists s, Text E (Some g) = Ok s /\ forall fuel, (2 * List.length s + 3 <= fuel)%nat -> FromString E fuel s = Ok (groot f).
Proof.
  intros Hp Hc. unfold Text. rewrite (texts_prints E _ _ Hp 0). cbn [rbind].
  pose proof (pres_nested f) as Hn. pose proof (nested_nonneg _ _ Hn) as Hpos.
  assert (Hall : Forall (fun e => 0 <= fst e /\ text_content (fst e) (snd e)) (pres 0 f)).
  { rewrite Forall_map in Hpos. rewrite Forall_forall in *. intros e He. split; [exact (Hpos e He)|exact (Hc e He)]. }
  assert (Hg : events_graph (map (fun e => (fst e, VStr (snd e))) (pres 0 f)) = groot f).
  { unfold groot, gforest, events_graph. f_equal. pose proof (forest_vpre f 0 [] ltac:(lia) I) as Hv. rewrite app_nil_r in Hv. unfold vpre in Hv. rewrite Hv. cbn [forest]. rewrite app_nil_r, map_map. reflexivity. }
  destruct (pres 0 f) as [|e0 es0] eqn:Hpre.
  - cbn [flat_map finish]. exists []. split; [reflexivity|]. intros fuel Hf. rewrite <- Hg.
    apply (FromString_doc E [] fuel); [|exact Hf]. repeat split; constructor.
  - destruct (exists_last (l := e0 :: es0) ltac:(discriminate)) as (es & e & He). rewrite He in *.
    rewrite (lines_source es e Hall). set (src := doc_source (lines es e)).
    pose proof (lines_ok es e Hall) as Hd.
    assert (Hsrc : exists c r, src = c :: r /\ c <> x22).
    { assert (H0 : fst e0 = 0). { rewrite <- He in Hn. cbn [map nested fst] in Hn. lia. }
      assert (Hc0 : text_content (fst e0) (snd e0)). { rewrite <- He in Hall. inversion Hall as [|? ? (_ & X) _]; subst. exact X. }
      destruct Hc0 as (_ & [((Hne & _ & Hst & _) & Hns)|(Hl & _)]); [|lia].
      assert (Hsp : existsb special (snd e0) = false).
      { destruct (existsb special (snd e0)) eqn:Hx; [|reflexivity]. apply existsb_exists in Hx. destruct Hx as (c & Hin & Hxc). rewrite Forall_forall in Hns. exfalso. apply (Hns c Hin), special_iff, Hxc. }
      assert (Hline : forall fi, exists r, line_source (line_of fi e0) = snd e0 ++ r).
      { intro fi. unfold line_source, line_of, depth, tok_of. cbn [ind toks fin]. rewrite H0, Hsp. cbn [Z.to_nat Nat.mul repeat app toks_source flat_map fst snd source]. rewrite app_nil_r, <- app_assoc. eexists. reflexivity. }
      assert (Hsrc' : exists r, src = snd e0 ++ r).
      { unfold src, lines. destruct es as [|x es]; cbn [app] in He; inversion He; subst.
        - destruct (Hline Eof) as (r & Hr). exists r. cbn [map app doc_source flat_map]. rewrite app_nil_r. exact Hr.
        - destruct (Hline LF) as (r & Hr). eexists. cbn [map app doc_source flat_map]. rewrite Hr, <- app_assoc. reflexivity. }
      destruct Hsrc' as (r & Hr). destruct (snd e0) as [|c s]; [congruence|]. exists c, (s ++ r). split; [exact Hr|]. intros ->. discriminate Hst. }
    destruct Hsrc as (c & r & Hcr & Hq). exists src. split.
    + unfold finish. rewrite Hcr. cbn [app]. change (c :: r ++ [x0a]) with ((c :: r) ++ [x0a]). rewrite last_last, removelast_last. change (beq x0a x0a) with true. cbv iota.
      apply beq_neq in Hq. rewrite Hq. reflexivity.
    + intros fuel Hf. unfold src. rewrite FromString_doc by assumption. f_equal.
      rewrite <- Hg. unfold doc_graph. f_equal. rewrite <- (lines_events es e [] I Hn). f_equal.
      assert (Hk : kept (lines es e) = lines es e); [|exact Hk].
      assert (H0 : forall l r, lines es e = l :: r -> depth l = 0%nat).
      { intros l r' Hl. rewrite <- He in Hn. cbn [map nested fst] in Hn. destruct es as [|x es]; cbn in He; inversion He; subst; inversion Hl; subst; unfold depth, line_of; cbn [ind]; rewrite repeat_length; lia. }
      destruct (lines es e) as [|l r']; [reflexivity|]. cbn [kept]. rewrite (H0 l r' eq_refl). apply take_all. apply Forall_forall. intros. lia.
Qed.

Lemma plain_prints E g : plain_graph g -> exists f, prints E (out g) f.
Proof.
  induction g as [v l Hv Hl] using graph_ind'. intro H. inversion H as [? ? Hp Hk]; subst. cbn [out].
  induction l as [|o l IH]; [exists []; constructor|].
  inversion Hl as [|? ? Ho Hl']; subst. inversion Hk as [|? ? (c & -> & Hc) Hk']; subst.
  destruct IH as [r Hr]; [exact Hl'|constructor; assumption|exact Hk'|].
  cbn [oP] in Ho. destruct (Ho Hc) as [k Hkk]. destruct c as [v' kids]. cbn [out] in Hkk.
  inversion Hc as [? ? Hp' _]; subst.
  assert (Hs : exists s, vstring E v' = Ok s) by (destruct v'; try (eexists; reflexivity); exfalso; eapply Hp'; reflexivity).
  destruct Hs as [[|c s] Hb].
  - exists (k ++ r). apply prints_empty; assumption.
  - exists (T (c :: s) k :: r). apply prints_node; assumption.
Qed.
