(** Properties C66, C67 and C68: the commands. *)
From Verif Require Import Base Value EventSpec EventFacts GraphSpec GraphFacts Buffer BufferSpec BufferFacts2 TextSpec TextDoc TextFacts Emit EmitSpec EmitFacts Graph PathSpec PathFacts AccessSpec AccessFacts Eval Template TypesSpec Encoding Xml XmlSpec XmlFacts Views Cmd CmdSpec CmdFacts Samples P_Text P_Access EvalSpec EvalFacts TemplateSpec TemplateFacts TemplateProc P_Template.
Local Notation Text := Emit.Text.

(** ** C66 gpath prints the part of the document that the path names, as a document that reads
    back as that part.  Full claim: every document and path.  Proved for contents that survive
    the emitter (C18) and paths of names, quoted names and indexes. *)
Definition ends_line (s : bytes) : Prop := s = [] \/ exists r, s = r ++ [x0a].
(** With the path "." the whole document; printing it again changes nothing. *)
Theorem C66_all_partial : forall E C fuel rd g f, FromReader E fuel false rd = Ok g -> prints E (out g) f ->
  Forall (fun e => text_content (fst e) (snd e)) (pres 0 f) ->
  exists s, gpath E C fuel (bs ".") rd = Ok s /\ ends_line s /\
    forall n, (2 * List.length s + 3 <= n)%nat -> FromString E n s = Ok (groot f) /\ gpath E C n (bs ".") (bytes_reader s) = Ok s.
Proof.
  intros E C fuel rd g f Hg Hp Hc. exists (flat_map emitted (pres 0 f)). unfold gpath. rewrite Hg. cbn [rbind]. change (bseq (bs ".") (bs ".")) with true. cbn iota. cbn [rbind].
  destruct (end_line_text E g f Hp Hc) as (s & -> & Hs). cbn [rbind]. rewrite Hs. split; [reflexivity|]. split; [exact (lines_end f Hc)|].
  intros n Hn. pose proof (lf_read E f n Hc Hn) as Hr. split; [exact Hr|]. unfold FromString in Hr. rewrite Hr. cbn [rbind].
  destruct (end_line_text E (groot f) f (prints_gforest E f 0 Hc) Hc) as (t & -> & Ht). cbn [rbind]. rewrite Ht. reflexivity.
Qed.
Print Assumptions C66_all_partial.
(** With a path the subnodes of the node it leads to. *)
Theorem C66_path_partial : forall E C fuel rd g es c f, (2 * List.length (seen (size rd) rd) + 3 <= fuel)%nat -> FromReader E fuel false rd = Ok g ->
  Forall (elem_ok E) es -> Forall unmarked es -> es <> [] -> fits fuel (path_text es) -> walk E es g c ->
  prints E (out c) f -> Forall (fun e => text_content (fst e) (snd e)) (pres 0 f) ->
  exists s, gpath E C fuel (path_text es) rd = Ok s /\ ends_line s /\ forall n, (2 * List.length s + 3 <= n)%nat -> FromString E n s = Ok (groot f).
Proof.
  intros E C fuel rd g es c f Hf Hg Hok Hu Hne Hfit Hw Hp Hc. exists (flat_map emitted (pres 0 f)). unfold gpath. rewrite Hg. cbn [rbind]. rewrite (path_not_dot E es Hok Hne).
  destruct (FromReader_strings E rd fuel Hf) as (g' & Hg' & _ & Hs). rewrite Hg in Hg'. injection Hg' as <-.
  rewrite (Get_walk E C es fuel g c Hok Hu Hne Hfit (data_whole E g (strings_data g Hs)) Hw). cbn [rbind].
  destruct (end_line_text E c f Hp Hc) as (s & -> & Hl). cbn [rbind]. rewrite Hl. split; [reflexivity|]. split; [exact (lines_end f Hc)|]. intros n Hn. apply lf_read; assumption.
Qed.
Print Assumptions C66_path_partial.
(** A path that leads nowhere prints nothing. *)
Theorem C66_missing_partial : forall E C fuel rd g es, (2 * List.length (seen (size rd) rd) + 3 <= fuel)%nat -> FromReader E fuel false rd = Ok g ->
  Forall (elem_ok E) es -> Forall unmarked es -> es <> [] -> fits fuel (path_text es) -> lost E es g -> gpath E C fuel (path_text es) rd = Ok [].
Proof.
  intros E C fuel rd g es Hf Hg Hok Hu Hne Hfit Hw. unfold gpath. rewrite Hg. cbn [rbind]. rewrite (path_not_dot E es Hok Hne).
  destruct (FromReader_strings E rd fuel Hf) as (g' & Hg' & _ & Hs). rewrite Hg in Hg'. injection Hg' as <-.
  rewrite (Get_lost E C es fuel g Hok Hu Hne Hfit (strings_data g Hs) Hw). reflexivity.
Qed.
Print Assumptions C66_missing_partial.
(** A node with a single value prints it as it is, whatever blanks and newlines are in it, and a
    newline unless it ends with one. *)
Theorem C66_value_partial : forall E C fuel rd g es c v s, (2 * List.length (seen (size rd) rd) + 3 <= fuel)%nat -> FromReader E fuel false rd = Ok g ->
  Forall (elem_ok E) es -> Forall unmarked es -> es <> [] -> fits fuel (path_text es) -> walk E es g c ->
  out c = [Some (Node v [])] -> vstring E v = Ok s -> s <> [] -> ~ In x0d s -> hd x00 s <> x22 ->
  exists o, gpath E C fuel (path_text es) rd = Ok o /\ ((List.last s x00 = x0a /\ o = s) \/ (List.last s x00 <> x0a /\ o = s ++ [x0a])).
Proof.
  intros E C fuel rd g es c v s Hf Hg Hok Hu Hne Hfit Hw Ho Hv Hs0 Hcr Hq. unfold gpath. rewrite Hg. cbn [rbind]. rewrite (path_not_dot E es Hok Hne).
  destruct (FromReader_strings E rd fuel Hf) as (g' & Hg' & _ & Hs). rewrite Hg in Hg'. injection Hg' as <-.
  rewrite (Get_walk E C es fuel g c Hok Hu Hne Hfit (data_whole E g (strings_data g Hs)) Hw). cbn [rbind].
  rewrite (Text_leaf E c v s Ho Hv Hs0 Hcr Hq). cbn [rbind]. exists (end_line s). split; [reflexivity|]. unfold end_line. destruct s as [|x r]; [congruence|].
  assert (Hl : List.last (x :: r) x00 <> x0d). { intros H. apply Hcr. rewrite <- H. apply last_in. discriminate. }
  apply beq_neq in Hl. rewrite Hl, orb_false_r. destruct (beq_spec (List.last (x :: r) x00) x0a) as [H|H]; [left|right]; auto.
Qed.
Print Assumptions C66_value_partial.

Definition ex_conf : list textline := [ln "" [p "eth0" ""] LF; ln "  " [p "ip" " "; q "10.0 0.1" ""] LF; ln "  " [p "gw" "  "; p "10.0.0.2" ""] Eof].
Definition ex_conf_forest : list tree := [tr "eth0" [tr "ip" [tr "10.0 0.1" []]; tr "gw" [tr "10.0.0.2" []]]].
Lemma ex_conf_length : (List.length (doc_source ex_conf) <= 60)%nat.
Proof. cbn. lia. Qed.
Lemma ex_conf_read E fuel : (200 <= fuel)%nat -> FromReader E fuel false (bytes_reader (doc_source ex_conf)) = Ok (groot ex_conf_forest).
Proof.
  intros H. change (FromString E fuel (doc_source ex_conf) = Ok (groot ex_conf_forest)). rewrite FromString_doc; [reflexivity|unfold ex_conf; concrete|].
  pose proof ex_conf_length. lia.
Qed.
Lemma ex_conf_contents : Forall (fun e => text_content (fst e) (snd e)) (pres 0 ex_conf_forest).
Proof.
  assert (W : forall l s, l <= 1020 -> plain_ok s -> existsb special s = false -> text_content l s).
  { intros l s Hl Hp Hs. split; [exact Hl|left]. split; [exact Hp|]. rewrite Forall_forall. intros c Hc H. apply special_iff in H.
    assert (existsb special s = true) by (apply existsb_exists; eauto). congruence. }
  repeat (apply Forall_cons; [|]); try apply Forall_nil; try (apply W; [cbn; lia|concrete|reflexivity]).
  split; [cbn; lia|right]. split; [cbn; lia|]. split; [apply Exists_exists; exists x20; split; [cbn; tauto|cbn; tauto]|]. split; [concrete|]. cbn. intuition discriminate.
Qed.
Lemma ex_conf_walk E s i c : nth_error [(bs "ip", tr "ip" [tr "10.0 0.1" []]); (bs "gw", tr "gw" [tr "10.0.0.2" []])] i = Some (s, c) ->
  walk E [Name (bs "eth0"); Name s] (groot ex_conf_forest) (gtree c).
Proof.
  intros H. eapply (walk_key _ _ (bs "eth0") _ _ 0); [reflexivity|split; [reflexivity|split; [eexists; split; reflexivity|intros j y Hj; lia]]|].
  eapply (walk_key _ _ s _ _ i); [reflexivity| |constructor]. destruct i as [|[|[|i]]]; try discriminate; injection H as <- <-.
  - split; [reflexivity|split; [eexists; split; reflexivity|intros j y Hj; lia]].
  - split; [reflexivity|split; [eexists; split; reflexivity|]]. intros [|j] y Hj Hy; [|lia]. injection Hy as <-. intros (n & Hn & Hv). injection Hn as <-. discriminate Hv.
Qed.
Example C66_ex : doc_source ex_conf = bs "eth0" ++ [x0a] ++ bs "  ip '10.0 0.1'" ++ [x0a] ++ bs "  gw  10.0.0.2" /\
  prints env0 (out (groot ex_conf_forest)) ex_conf_forest /\
  gpath env0 calls0 200 (bs ".") (bytes_reader (doc_source ex_conf)) =
    Ok (bs "eth0" ++ [x0a] ++ bs "  ip" ++ [x0a] ++ bs "    ""10.0 0.1""" ++ [x0a] ++ bs "  gw" ++ [x0a] ++ bs "    10.0.0.2" ++ [x0a]) /\
  gpath env0 calls0 200 (bs "eth0.ip") (bytes_reader (doc_source ex_conf)) = Ok (bs "10.0 0.1" ++ [x0a]) /\
  gpath env0 calls0 200 (bs "eth0.mask") (bytes_reader (doc_source ex_conf)) = Ok [].
Proof.
  assert (Hr := ex_conf_read env0 200 ltac:(lia)). assert (Hl : (2 * List.length (seen (size (bytes_reader (doc_source ex_conf))) (bytes_reader (doc_source ex_conf))) + 3 <= 200)%nat).
  { rewrite seen_bytes. pose proof ex_conf_length. lia. }
  split; [reflexivity|]. split; [apply (prints_gforest _ _ 0), ex_conf_contents|]. split; [unfold gpath; rewrite Hr; reflexivity|]. split.
  - assert (Hv : exists o, gpath env0 calls0 200 (path_text [Name (bs "eth0"); Name (bs "ip")]) (bytes_reader (doc_source ex_conf)) = Ok o /\
      ((List.last (bs "10.0 0.1") x00 = x0a /\ o = bs "10.0 0.1") \/ (List.last (bs "10.0 0.1") x00 <> x0a /\ o = bs "10.0 0.1" ++ [x0a]))).
    { apply (C66_value_partial env0 calls0 200 _ _ [Name (bs "eth0"); Name (bs "ip")] (nd "ip" [nd "10.0 0.1" []]) (VStr (bs "10.0 0.1")) (bs "10.0 0.1") Hl Hr);
        [ascii_names|repeat constructor|discriminate|split; cbn; lia|exact (ex_conf_walk env0 (bs "ip") 0 _ eq_refl)|reflexivity|reflexivity|discriminate|cbn; intuition discriminate|discriminate]. }
    destruct Hv as (o & Ho & [(H & _)|(_ & ->)]); [discriminate H|exact Ho].
  - assert (Hm : gpath env0 calls0 200 (path_text [Name (bs "eth0"); Name (bs "mask")]) (bytes_reader (doc_source ex_conf)) = Ok []); [|exact Hm].
    apply (C66_missing_partial env0 calls0 200 _ _ [Name (bs "eth0"); Name (bs "mask")] Hl Hr); [ascii_names|repeat constructor|discriminate|split; cbn; lia|].
    eapply (lost_key _ _ (bs "eth0") _ _ 0); [reflexivity|split; [reflexivity|split; [eexists; split; reflexivity|intros j y Hj; lia]]|].
    apply (lost_here _ _ (bs "mask")); [reflexivity|]. repeat apply Forall_cons; try apply Forall_nil; intros (n & Hn & Hv); injection Hn as <-; discriminate Hv.
Qed.
(** A value is not quoted: read back, it can be something else. *)
Theorem C66_value_refuted : exists ls c s, doc_ok ls /\ forall E C fuel, (200 <= fuel)%nat ->
  FromString E fuel (doc_source ls) = Ok (groot [tr "eth0" [T (bs "ip") [T c []]; tr "gw" [tr "10.0.0.2" []]]]) /\
  gpath E C fuel (bs "eth0.ip") (bytes_reader (doc_source ls)) = Ok s /\ FromString E fuel s <> Ok (groot [T c []]).
Proof.
  exists ex_conf, (bs "10.0 0.1"), (bs "10.0 0.1" ++ [x0a]). split; [unfold ex_conf; concrete|]. intros E C fuel Hf. assert (Hr := ex_conf_read E fuel Hf).
  assert (Hl : (2 * List.length (seen (size (bytes_reader (doc_source ex_conf))) (bytes_reader (doc_source ex_conf))) + 3 <= fuel)%nat).
  { rewrite seen_bytes. pose proof ex_conf_length. lia. }
  split; [exact Hr|]. split.
  - assert (Hv : exists o, gpath E C fuel (path_text [Name (bs "eth0"); Name (bs "ip")]) (bytes_reader (doc_source ex_conf)) = Ok o /\
      ((List.last (bs "10.0 0.1") x00 = x0a /\ o = bs "10.0 0.1") \/ (List.last (bs "10.0 0.1") x00 <> x0a /\ o = bs "10.0 0.1" ++ [x0a]))).
    { apply (C66_value_partial E C fuel _ _ [Name (bs "eth0"); Name (bs "ip")] (nd "ip" [nd "10.0 0.1" []]) (VStr (bs "10.0 0.1")) (bs "10.0 0.1") Hl Hr);
        [ascii_names|repeat constructor|discriminate|split; cbn; lia|exact (ex_conf_walk E (bs "ip") 0 _ eq_refl)|reflexivity|reflexivity|discriminate|cbn; intuition discriminate|discriminate]. }
    destruct Hv as (o & Ho & [(H & _)|(_ & ->)]); [discriminate H|exact Ho].
  - change (bs "10.0 0.1" ++ [x0a]) with (doc_source [ln "" [p "10.0" " "; p "0.1" ""] LF]). rewrite FromString_doc; [discriminate|concrete|cbn; lia].
Qed.
Print Assumptions C66_value_refuted.

(** ** C67 json2ogdl and xml2ogdl print a document that reads back as what the input says.
    Full claim: every input.  Proved for JSON objects and XML documents whose texts survive the
    emitter (C18); the decoders of Go's library are parameters. *)
Theorem C67_json_partial : forall E fuel decode rd l f, plain_reader rd -> (List.length (List.concat (map fst rd)) < fuel)%nat ->
  decode (List.concat (map fst rd)) = Some (JObj l) -> jlines E (JObj l) [T (bs "_") f] ->
  Forall (fun e => text_content (fst e) (snd e)) (pres 0 f) ->
  exists s, json2ogdl E fuel decode rd = Ok (s ++ [x0a]) /\
    forall n, (2 * List.length (s ++ [x0a]) + 3 <= n)%nat -> FromString E n (s ++ [x0a]) = Ok (groot f).
Proof.
  intros E fuel decode rd l f Hp Hl Hd Hj Hc. unfold json2ogdl. rewrite (read_all_plain fuel rd Hp Hl). cbn [rbind]. rewrite Hd.
  assert (Hpr : prints E (out (toGraph E (JObj l))) [T (bs "_") f]).
  { apply jlines_prints; [exact Hj|]. split; [split; [discriminate|exact (filled_pres f 0 Hc)]|exact I]. }
  cbn [toGraph out] in Hpr. unfold FromJSON. cbn [toGraph]. match goal with |- context [Node (VStr (bs "_")) [Some (Node (VStr (bs "_")) ?k)]] => set (o := k) in * end.
  change (GetAt (Some (Node (VStr (bs "_")) [Some (Node (VStr (bs "_")) o)])) 0) with (Ok (Some (Node (VStr (bs "_")) o))). cbn [rbind].
  assert (Ho : prints E (out (Node (VStr (bs "_")) o)) f).
  { inversion Hpr as [|? ? ? ? ? Hv|? ? ? ? ? ? ? Hv Hk Hr]; subst; [discriminate Hv|]. exact Hk. }
  destruct (newline_read E _ f Ho Hc) as (s & -> & Hr). exists s. split; [reflexivity|exact Hr].
Qed.
Print Assumptions C67_json_partial.
(** Input that is not JSON is reported by an empty line only. *)
Theorem C67_json_error_refuted : forall E fuel decode rd, plain_reader rd -> (List.length (List.concat (map fst rd)) < fuel)%nat ->
  decode (List.concat (map fst rd)) = None -> json2ogdl E fuel decode rd = Ok [x0a].
Proof. intros E fuel decode rd Hp Hl Hd. unfold json2ogdl. rewrite (read_all_plain fuel rd Hp Hl). cbn [rbind]. rewrite Hd. reflexivity. Qed.
Print Assumptions C67_json_error_refuted.
(** Of a list only the first element is printed. *)
Theorem C67_json_list_refuted : forall E fuel decode decode' rd d l, plain_reader rd -> (List.length (List.concat (map fst rd)) < fuel)%nat ->
  decode (List.concat (map fst rd)) = Some (JArr (d :: l)) -> decode' (List.concat (map fst rd)) = Some (JArr [d]) ->
  json2ogdl E fuel decode rd = json2ogdl E fuel decode' rd.
Proof. intros E fuel decode decode' rd d l Hp Hl Hd Hd'. unfold json2ogdl. rewrite (read_all_plain fuel rd Hp Hl). cbn [rbind]. rewrite Hd, Hd'. reflexivity. Qed.
Print Assumptions C67_json_list_refuted.
Definition ex_jdoc : jdoc := JObj [(bs "n", JNum (bs "-12")); (bs "l", JArr [JStr (bs "x y"); JObj [(bs "t", JBool true)]; JNull])].
Definition ex_jforest : list tree := [tr "n" [tr "-12" []]; tr "l" [tr "_" [tr "x y" []]; tr "_" [tr "_" [tr "t" [tr "true" []]]]; tr "_" []]].
Lemma word_ok l s : l <= 1020 -> plain_ok s -> existsb special s = false -> text_content l s.
Proof.
  intros Hl Hp Hs. split; [exact Hl|left]. split; [exact Hp|]. rewrite Forall_forall. intros c Hc H. apply special_iff in H.
  assert (existsb special s = true) by (apply existsb_exists; eauto). congruence.
Qed.
Lemma ex_jcontents : Forall (fun e => text_content (fst e) (snd e)) (pres 0 ex_jforest).
Proof.
  repeat (apply Forall_cons; [|]); try apply Forall_nil; try (apply word_ok; [cbn; lia|concrete|reflexivity]).
  split; [cbn; lia|right]. split; [cbn; lia|]. split; [apply Exists_exists; exists x20; split; [cbn; tauto|cbn; tauto]|]. split; [concrete|]. cbn. intuition discriminate.
Qed.
Lemma ex_jlines E : jlines E ex_jdoc [T (bs "_") ex_jforest].
Proof.
  apply jl_obj. apply Forall2_cons; [eexists; split; [reflexivity|]|].
  { apply (jl_int _ _ (-12)), (num_minus (bs "12")); [split; [discriminate|repeat (constructor; [cbn; lia|]); constructor]|cbn; lia]. }
  apply Forall2_cons; [eexists; split; [reflexivity|]|apply Forall2_nil]. apply jl_arr.
  apply Forall2_cons; [eexists; split; [reflexivity|constructor]|]. apply Forall2_cons; [eexists; split; [reflexivity|]|apply Forall2_cons; [eexists; split; [reflexivity|constructor]|apply Forall2_nil]].
  apply jl_obj. apply Forall2_cons; [eexists; split; [reflexivity|constructor]|apply Forall2_nil].
Qed.
Example C67_json_ex : let rd := [(bs "{""n"":-12,""l"":[""x y""", false); (bs ",{""t"":true},null]}", false)] in
  let decode := fun b => if bseq b (bs "{""n"":-12,""l"":[""x y"",{""t"":true},null]}") then Some ex_jdoc else None in
  plain_reader rd /\ decode (List.concat (map fst rd)) = Some ex_jdoc /\ jlines env0 ex_jdoc [T (bs "_") ex_jforest] /\
  json2ogdl env0 50 decode rd = Ok (bs "n" ++ [x0a] ++ bs "  -12" ++ [x0a] ++ bs "l" ++ [x0a] ++ bs "  _" ++ [x0a] ++ bs "    ""x y""" ++ [x0a] ++
    bs "  _" ++ [x0a] ++ bs "    _" ++ [x0a] ++ bs "      t" ++ [x0a] ++ bs "        true" ++ [x0a] ++ bs "  _" ++ [x0a]).
Proof.
  intros rd decode. assert (Hp : plain_reader rd) by (repeat constructor; discriminate). assert (Hd : decode (List.concat (map fst rd)) = Some ex_jdoc) by reflexivity.
  split; [exact Hp|]. split; [exact Hd|]. split; [apply ex_jlines|]. unfold json2ogdl. rewrite (read_all_plain 50 rd Hp) by (cbn; lia). cbn [rbind]. rewrite Hd. reflexivity.
Qed.

(** XML, with the path "." and with others. *)
Theorem C67_xml_partial : forall E C fuel unaccent trim decode xs b o f, decode b = flat_map tokens xs -> images unaccent trim xs o -> prints E o f ->
  Forall (fun e => text_content (fst e) (snd e)) (pres 0 f) ->
  exists s, xml2ogdl E C fuel unaccent trim decode false (bs ".") b = Ok (s ++ [x0a]) /\
    forall n, (2 * List.length (s ++ [x0a]) + 3 <= n)%nat -> FromString E n (s ++ [x0a]) = Ok (groot f).
Proof.
  intros E C fuel u t decode xs b o f Hd Ho Hp Hc. unfold xml2ogdl. rewrite Hd. destruct (FromXML_images u t xs) as (o' & Ho' & ->).
  rewrite <- (proj2 (image_fun u t) xs o Ho o' Ho'). cbn [rbind]. change (bseq (bs ".") (bs ".")) with true. cbn iota. cbn [rbind].
  destruct (newline_read E (Node VNil o) f Hp Hc) as (s & -> & Hr). exists s. split; [reflexivity|exact Hr].
Qed.
Print Assumptions C67_xml_partial.
Theorem C67_xml_path_partial : forall E C fuel unaccent trim decode xs b o es c f, decode b = flat_map tokens xs -> images unaccent trim xs o ->
  Forall (elem_ok E) es -> Forall unmarked es -> es <> [] -> fits fuel (path_text es) -> walk E es (Node VNil o) c -> prints E (out c) f ->
  Forall (fun e => text_content (fst e) (snd e)) (pres 0 f) ->
  exists s, xml2ogdl E C fuel unaccent trim decode false (path_text es) b = Ok (s ++ [x0a]) /\
    forall n, (2 * List.length (s ++ [x0a]) + 3 <= n)%nat -> FromString E n (s ++ [x0a]) = Ok (groot f).
Proof.
  intros E C fuel u t decode xs b o es c f Hd Ho Hok Hu Hne Hf Hw Hp Hc. unfold xml2ogdl. rewrite Hd. destruct (FromXML_images u t xs) as (o' & Ho' & ->).
  rewrite <- (proj2 (image_fun u t) xs o Ho o' Ho'). cbn [rbind]. rewrite (path_not_dot E es Hok Hne).
  rewrite (Get_walk E C es fuel (Node VNil o) c Hok Hu Hne Hf (images_whole E u t xs o Ho) Hw). cbn [rbind].
  destruct (newline_read E c f Hp Hc) as (s & -> & Hr). exists s. split; [reflexivity|exact Hr].
Qed.
Print Assumptions C67_xml_path_partial.
(** The option -id *)
Theorem C67_xml_id_partial : forall E C fuel unaccent trim decode xs b k k' f, decode b = flat_map tokens xs -> images unaccent trim xs (gforest k) ->
  with_ids k k' -> prints E (gforest k') f -> Forall (fun e => text_content (fst e) (snd e)) (pres 0 f) ->
  exists s, xml2ogdl E C fuel unaccent trim decode true (bs ".") b = Ok (s ++ [x0a]) /\
    forall n, (2 * List.length (s ++ [x0a]) + 3 <= n)%nat -> FromString E n (s ++ [x0a]) = Ok (groot f).
Proof.
  intros E C fuel u t decode xs b k k' f Hd Ho Hi Hp Hc. unfold xml2ogdl. rewrite Hd. destruct (FromXML_images u t xs) as (o' & Ho' & ->).
  rewrite <- (proj2 (image_fun u t) xs _ Ho o' Ho'). cbn [rbind]. change (bseq (bs ".") (bs ".")) with true. cbn iota. cbn [rbind id_simplify out this].
  rewrite (proj2 (with_id_sound E) k k' Hi). cbn [rbind].
  destruct (newline_read E (Node VNil (gforest k')) f Hp Hc) as (s & -> & Hr). exists s. split; [reflexivity|exact Hr].
Qed.
Print Assumptions C67_xml_id_partial.
(** With -id, a path that leads nowhere panics; without it an empty line is printed. *)
Theorem C67_xml_id_missing_refuted : forall E C fuel unaccent trim decode xs b o es, decode b = flat_map tokens xs -> images unaccent trim xs o ->
  Forall (elem_ok E) es -> Forall unmarked es -> es <> [] -> fits fuel (path_text es) -> lost E es (Node VNil o) ->
  xml2ogdl E C fuel unaccent trim decode true (path_text es) b = Panic /\ xml2ogdl E C fuel unaccent trim decode false (path_text es) b = Ok [x0a].
Proof.
  intros E C fuel u t decode xs b o es Hd Ho Hok Hu Hne Hf Hl. unfold xml2ogdl. rewrite Hd. destruct (FromXML_images u t xs) as (o' & Ho' & ->).
  rewrite <- (proj2 (image_fun u t) xs o Ho o' Ho'). cbn [rbind]. rewrite (path_not_dot E es Hok Hne).
  rewrite (Get_lost E C es fuel (Node VNil o) Hok Hu Hne Hf (images_data u t xs o Ho) Hl). split; reflexivity.
Qed.
Print Assumptions C67_xml_id_missing_refuted.
(** The option drops all subnodes but the last. *)
Theorem C67_xml_id_loses_refuted : exists k1 k2 k', k1 <> k2 /\ with_ids k1 k' /\ with_ids k2 k' /\
  forall E, id_all E (gforest k1) = Ok (gforest k') /\ id_all E (gforest k2) = Ok (gforest k').
Proof.
  exists [tr "item" [tr "@id" [tr "7" []]; tr "price" []; tr "name" []]], [tr "item" [tr "@id" [tr "7" []]; tr "name" []]], [tr "7" [tr "name" []]].
  assert (Hn : with_id (tr "name" []) (tr "name" [])) by (apply wi_other; [intros (i & r & H & _); discriminate|constructor]).
  split; [discriminate|]. split; [apply wis_cons; [|constructor]; apply (wi_id (bs "item") (bs "7") [] [] [tr "price" []]); [discriminate|exact Hn]|].
  split; [apply wis_cons; [|constructor]; apply (wi_id (bs "item") (bs "7") [] [] []); [discriminate|exact Hn]|]. intro E. split; reflexivity.
Qed.
Print Assumptions C67_xml_id_loses_refuted.
Definition ex_xdoc : list xml := [Elem (bs "my-doc") [(bs "id", bs "7")] [XmlSpec.Text (bs "hello"); Elem (bs "br") [] []]].
Example C67_xml_ex : let u := fun s : bytes => s in let decode := fun _ : bytes => flat_map tokens ex_xdoc in
  images u u ex_xdoc (gforest [tr "my_doc" [tr "@id" [tr "7" []]; tr "hello" []; tr "br" []]]) /\
  with_ids [tr "my_doc" [tr "@id" [tr "7" []]; tr "hello" []; tr "br" []]] [tr "7" [tr "br" []]] /\
  xml2ogdl env0 calls0 30 u u decode false (bs ".") [] = Ok (bs "my_doc" ++ [x0a] ++ bs "  @id" ++ [x0a] ++ bs "    7" ++ [x0a] ++ bs "  hello" ++ [x0a] ++ bs "  br" ++ [x0a]) /\
  xml2ogdl env0 calls0 30 u u decode true (bs ".") [] = Ok (bs "7" ++ [x0a] ++ bs "  br" ++ [x0a]).
Proof.
  intros u decode. split; [|split; [|split; reflexivity]].
  - destruct (FromXML_images u u ex_xdoc) as (o & Ho & Hx). vm_compute in Hx. injection Hx as <-. exact Ho.
  - apply wis_cons; [|constructor]. apply (wi_id (bs "my_doc") (bs "7") [] [] [tr "hello" []]); [discriminate|]. apply wi_other; [intros (i & r & H & _); discriminate|constructor].
Qed.

(** ** C68 gtemplate prints the template with the variables taken from the data files.  Full
    claim: all templates and files.  Proved when every file can be read and is not empty. *)
Theorem C68_data_partial : forall E C fuel on_nil tpl fs gs c' o, Forall2 (file_graph E fuel) fs gs -> gs <> [] ->
  Forall (fun f => match f with Some b => (2 * List.length b + 3 <= fuel)%nat | None => True end) fs ->
  yields E C fuel tpl (Node (VStr (bs "_")) (flat_map out gs)) c' o -> gtemplate E C fuel on_nil (Some tpl) fs = Ok (o ++ [x0a]).
Proof.
  intros E C fuel on_nil tpl fs gs c' o Hg Hne Hf (t & Ht & Hp). unfold gtemplate. rewrite Ht. cbn [rbind]. rewrite (gtemplate_data_all E fuel fs gs Hg Hne). cbn [rbind].
  assert (Hv : this (hd (Node VNil []) gs) = VStr (bs "_")).
  { destruct Hg as [|f g fs gs (b & -> & _ & Hb) _]; [congruence|]. inversion Hf as [|? ? Hb' _]; subst. cbn [hd].
    destruct (FromReader_strings E (bytes_reader b) fuel) as (g' & Hg' & Hv & _); [rewrite seen_bytes; exact Hb'|]. unfold FromString in Hb. rewrite Hb in Hg'. injection Hg' as <-. exact Hv. }
  rewrite Hv, Hp. reflexivity.
Qed.
Print Assumptions C68_data_partial.
(** A variable is taken from the first file that has its first name. *)
Theorem C68_first_partial : forall E C fuel on_nil s1 x ns s2 fs gs1 g gs2 n o,
  Forall2 (file_graph E fuel) fs (gs1 ++ g :: gs2) ->
  Forall (fun f => match f with Some b => (2 * List.length b + 3 <= fuel)%nat | None => True end) fs ->
  wf E (TText s1 (TVar (map Name (x :: ns)) (TText s2 TEnd))) -> fits_t fuel (TText s1 (TVar (map Name (x :: ns)) (TText s2 TEnd))) -> Forall ordinary (x :: ns) ->
  Forall (fun h => none_named E x (out h)) gs1 -> walk E (map Name (x :: ns)) g n -> shown E n o ->
  gtemplate E C fuel on_nil (Some (s1 ++ bs "$" ++ path (x :: ns) ++ s2)) fs = Ok (s1 ++ o ++ s2 ++ [x0a]).
Proof.
  intros E C fuel on_nil s1 x ns s2 fs gs1 g gs2 n o Hg Hf Hw Hft Ho Hn Hwk Hs.
  assert (Hwh : whole E (Node (VStr (bs "_")) (flat_map out (gs1 ++ g :: gs2)))).
  { apply (flat_whole E). clear - Hg Hf. induction Hg as [|f h fs gs (b & -> & _ & Hb) _ IH]; constructor; inversion Hf as [|? ? Hb' Hf']; subst; [|apply IH, Hf'].
    destruct (FromReader_strings E (bytes_reader b) fuel) as (g' & Hg' & _ & Hd); [rewrite seen_bytes; exact Hb'|]. unfold FromString in Hb. rewrite Hb in Hg'. injection Hg' as <-. apply data_whole, strings_data, Hd. }
  pose proof (C46_between_partial E C fuel s1 (x :: ns) s2 _ n o Hw Hft Ho Hwh (walk_files E x (map Name ns) gs1 g gs2 (VStr (bs "_")) n Hn Hwk) Hs) as Hy.
  rewrite (C68_data_partial E C fuel on_nil _ fs _ _ _ Hg ltac:(destruct gs1; discriminate) Hf Hy). rewrite <- !app_assoc. reflexivity.
Qed.
Print Assumptions C68_first_partial.
(** If the first file is empty or cannot be read, the others are not used at all; if another
    one is, it is passed over. *)
Theorem C68_first_file_refuted : forall E C fuel on_nil tpl f fs gs, f = None \/ f = Some [] -> Forall2 (file_graph E fuel) fs gs ->
  gtemplate E C fuel on_nil tpl (f :: fs) = gtemplate E C fuel on_nil tpl [].
Proof.
  intros E C fuel on_nil tpl f fs gs Hf Hg. unfold gtemplate. replace (gtemplate_data E fuel (f :: fs)) with (gtemplate_data E fuel []); [reflexivity|].
  cbn [gtemplate_data]. replace (FromFile E fuel f) with (@Ok (option graph) None) by (destruct Hf as [->| ->]; reflexivity). cbn [rbind].
  induction Hg as [|f' g fs gs Hh _ IH]; [reflexivity|]. cbn [data_files]. rewrite (FromFile_graph _ _ _ _ Hh). exact IH.
Qed.
Print Assumptions C68_first_file_refuted.
Theorem C68_other_files : forall E C fuel on_nil tpl fs1 gs1 f fs2 gs2, f = None \/ f = Some [] ->
  Forall2 (file_graph E fuel) fs1 gs1 -> gs1 <> [] -> Forall2 (file_graph E fuel) fs2 gs2 ->
  gtemplate E C fuel on_nil tpl (fs1 ++ f :: fs2) = gtemplate E C fuel on_nil tpl (fs1 ++ fs2).
Proof.
  intros E C fuel on_nil tpl fs1 gs1 f fs2 gs2 Hf H1 Hne H2. unfold gtemplate. replace (gtemplate_data E fuel (fs1 ++ f :: fs2)) with (gtemplate_data E fuel (fs1 ++ fs2)); [reflexivity|].
  destruct H1 as [|f1 [v o] fs1 gs1 Hf1 H1]; [congruence|]. cbn [app gtemplate_data]. rewrite (FromFile_graph _ _ _ _ Hf1). cbn [rbind]. clear Hne Hf1. revert v o.
  induction H1 as [|f1' [v' o'] fs1 gs1 Hf1 H1 IH]; intros v o.
  - cbn [app data_files]. replace (FromFile E fuel f) with (@Ok (option graph) None) by (destruct Hf as [->| ->]; reflexivity). reflexivity.
  - cbn [app data_files]. rewrite (FromFile_graph _ _ _ _ Hf1). cbn [rbind AddNodes out]. apply IH.
Qed.
Print Assumptions C68_other_files.
Definition ex_file1 : list textline := [ln "" [p "who" " "; p "Ann" ""] LF].
Definition ex_file2 : list textline := [ln "" [p "who" " "; p "Bob" ""] LF; ln "" [p "x" " "; p "1" ""] Eof].
Example C68_ex : forall on_nil,
  file_graph env0 60 (Some (doc_source ex_file1)) (groot [tr "who" [tr "Ann" []]]) /\
  file_graph env0 60 (Some (doc_source ex_file2)) (groot [tr "who" [tr "Bob" []]; tr "x" [tr "1" []]]) /\
  gtemplate env0 calls0 60 on_nil (Some (bs "Dear $who, you")) [Some (doc_source ex_file1); Some (doc_source ex_file2)] = Ok (bs "Dear Ann, you" ++ [x0a]) /\
  gtemplate env0 calls0 60 on_nil (Some (bs "no $x, ")) [Some (doc_source ex_file1); Some (doc_source ex_file2)] = Ok (bs "no 1, " ++ [x0a]).
Proof.
  intros on_nil.
  assert (H1 : file_graph env0 60 (Some (doc_source ex_file1)) (groot [tr "who" [tr "Ann" []]])).
  { exists (doc_source ex_file1). split; [reflexivity|]. split; [discriminate|]. rewrite FromString_doc; [reflexivity|unfold ex_file1; concrete|cbn; lia]. }
  assert (H2 : file_graph env0 60 (Some (doc_source ex_file2)) (groot [tr "who" [tr "Bob" []]; tr "x" [tr "1" []]])).
  { exists (doc_source ex_file2). split; [reflexivity|]. split; [discriminate|]. rewrite FromString_doc; [reflexivity|unfold ex_file2; concrete|cbn; lia]. }
  split; [exact H1|]. split; [exact H2|].
  assert (Hl : Forall (fun f => match f with Some b => (2 * List.length b + 3 <= 60)%nat | None => True end) [Some (doc_source ex_file1); Some (doc_source ex_file2)]) by (repeat constructor; cbn; lia).
  assert (Hg : Forall2 (file_graph env0 60) [Some (doc_source ex_file1); Some (doc_source ex_file2)] [groot [tr "who" [tr "Ann" []]]; groot [tr "who" [tr "Bob" []]; tr "x" [tr "1" []]]]) by (apply Forall2_cons; [exact H1|apply Forall2_cons; [exact H2|apply Forall2_nil]]).
  split.
  - apply (C68_first_partial env0 calls0 60 on_nil (bs "Dear ") (bs "who") [] (bs ", you") _ [] (groot [tr "who" [tr "Ann" []]]) [groot [tr "who" [tr "Bob" []]; tr "x" [tr "1" []]]] (nd "who" [nd "Ann" []]) (bs "Ann") Hg Hl).
    + split; [split; [discriminate|split; [repeat constructor; try discriminate; reflexivity|cbn; intuition discriminate]]|]. split; [exact I|].
      split; [split; [cbn [map]; ascii_names|cbn; intuition discriminate]|]. split; [apply apart_ascii; [cbn; lia|reflexivity|cbn; intuition discriminate]|].
      split; [split; [discriminate|split; [repeat constructor; try discriminate; reflexivity|cbn; intuition discriminate]]|split; exact I].
    + split; [left|]; cbn; lia.
    + constructor; [|constructor]. unfold ordinary. cbn. intuition discriminate.
    + constructor.
    + eapply (walk_key _ _ (bs "who") _ _ 0); [reflexivity|split; [reflexivity|split; [eexists; split; reflexivity|intros j y Hj; lia]]|constructor].
    + apply (shown_leaf _ _ _ (VStr (bs "Ann"))); [reflexivity|exact I|reflexivity].
  - apply (C68_first_partial env0 calls0 60 on_nil (bs "no ") (bs "x") [] (bs ", ") _ [groot [tr "who" [tr "Ann" []]]] (groot [tr "who" [tr "Bob" []]; tr "x" [tr "1" []]]) [] (nd "x" [nd "1" []]) (bs "1") Hg Hl).
    + split; [split; [discriminate|split; [repeat constructor; try discriminate; reflexivity|cbn; intuition discriminate]]|]. split; [exact I|].
      split; [split; [cbn [map]; ascii_names|cbn; intuition discriminate]|]. split; [apply apart_ascii; [cbn; lia|reflexivity|cbn; intuition discriminate]|].
      split; [split; [discriminate|split; [repeat constructor; try discriminate; reflexivity|cbn; intuition discriminate]]|split; exact I].
    + split; [left|]; cbn; lia.
    + constructor; [|constructor]. unfold ordinary. cbn. intuition discriminate.
    + apply Forall_cons; [|apply Forall_nil]. apply Forall_cons; [|apply Forall_nil]. intros (n & Hn & Hv). injection Hn as <-. discriminate Hv.
    + eapply (walk_key _ _ (bs "x") _ _ 1); [reflexivity|split; [reflexivity|split; [eexists; split; reflexivity|]]|constructor]. intros [|j] y Hj Hy; [|lia]. injection Hy as <-. intros (n & Hn & Hv). injection Hn as <-. discriminate Hv.
    + apply (shown_leaf _ _ _ (VStr (bs "1"))); [reflexivity|exact I|reflexivity].
Qed.
