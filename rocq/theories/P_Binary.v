(** C01-C07: the binary format. *)
From Verif Require Import Base Value Event EventSpec EventFacts Binary BinarySpec BinaryFacts BinaryFacts2 Samples.

(** ** C01 Binary round trip *)

(** [shows E (out g) f]: g's children print as the forest f, empty contents being transparent. *)
Theorem C01_binary_roundtrip : forall E g f,
  shows E (out g) f -> representable f ->
  exists b, Binary E (Some g) = Ok (Some b) /\
    forall fuel, (List.length b <= fuel)%nat -> FromBinary fuel b = Ok (Some (groot f)).
Proof. exact FromBinary_Binary. Qed.
Print Assumptions C01_binary_roundtrip.

(** Every graph without nil pointers and without *Graph contents prints as exactly one forest,
    so the theorem above covers all of them. *)
Theorem C01_every_plain_graph_shows : forall E g, plain_graph g -> exists f, shows E (out g) f.
Proof. exact plain_shows. Qed.
Print Assumptions C01_every_plain_graph_shows.

Theorem C01_shows_unique : forall E o f f', shows E o f -> shows E o f' -> f = f'.
Proof. exact shows_fun. Qed.
Print Assumptions C01_shows_unique.

(** The result prints as the same forest again. *)
Theorem C01_result_same : forall E d f, good_forest d f -> shows E (out (groot f)) f.
Proof. exact gforest_shows. Qed.
Print Assumptions C01_result_same.

Example C01_binary_roundtrip_ex :
  let g := nd "root" [nd "a" [nd "" [nd "b" []]; Node (VInt KInt 42) [Some (Node (VBytes [xff; x02]) [])]]; nd "a" []] in
  let f := [tr "a" [tr "b" []; tr "42" [T [xff; x02] []]]; tr "a" []] in
  shows env0 (out g) f /\ representable f.
Proof.
  split.
  - cbv beta zeta iota. unfold nd, tr. cbn [out map].
    apply shows_node; [reflexivity| |apply shows_node; [reflexivity|constructor|constructor]].
    change [T (bs "b") []; T (bs "42") [T [xff; x02] []]] with ([T (bs "b") []] ++ [T (bs "42") [T [xff; x02] []]]).
    apply shows_empty; [reflexivity|apply shows_node; [reflexivity|constructor|constructor]|].
    apply shows_node; [reflexivity| |constructor]. apply shows_node; [reflexivity|constructor|constructor].
  - exists 3%nat. split; [|reflexivity].
    repeat (constructor; [repeat split; try discriminate; cbn; intuition discriminate| | ]); constructor.
Qed.

(** Each restriction is needed: a NUL in a content, ... *)
Theorem C01_nul_needed : exists g f, shows env0 (out g) f /\
  exists b g', Binary env0 (Some g) = Ok (Some b) /\ FromBinary 100 b = Ok g' /\ g' <> Some (groot f).
Proof.
  exists (nd "_" [Node (VStr [x61; x00; x01; x62]) []]), [T [x61; x00; x01; x62] []].
  split; [apply shows_node; [reflexivity|constructor|constructor]|].
  eexists _, _. split; [reflexivity|]. split; [vm_compute; reflexivity|]. discriminate.
Qed.
Print Assumptions C01_nul_needed.

(** ... a content starting with byte 01 (taken for a binary node), ... *)
Theorem C01_leading_01_needed : exists g f, shows env0 (out g) f /\
  exists b g', Binary env0 (Some g) = Ok (Some b) /\ FromBinary 100 b = Ok g' /\ g' <> Some (groot f).
Proof.
  exists (nd "_" [Node (VStr [x01; x61]) []]), [T [x01; x61] []].
  split; [apply shows_node; [reflexivity|constructor|constructor]|].
  eexists _, _. split; [reflexivity|]. split; [vm_compute; reflexivity|]. discriminate.
Qed.
Print Assumptions C01_leading_01_needed.

(** ... and a level of 2^21 or more. *)
Theorem C01_depth_needed : forall E n, Z.of_nat n = 2 ^ 21 ->
  exists g f, shows E (out g) f /\ good_forest n f /\
  exists b g', Binary E (Some g) = Ok (Some b) /\
    (forall fuel, (List.length b <= fuel)%nat -> FromBinary fuel b = Ok g') /\
    g' <> Some (groot f).
Proof. exact depth_needed. Qed.
Print Assumptions C01_depth_needed.

Example C01_depth_needed_ex : Z.of_nat (Z.to_nat (2 ^ 21)) = 2 ^ 21.
Proof. apply Z2Nat.id. lia. Qed.

(** ** C02 Variable-length integers.
    Full claim: for 0 <= i < 2^28, varInt (newVarInt i ++ r) = (i, r).  It is false of the
    writer (binary.go:189 has |0xff where &0xff is meant); the reader is right. *)

Theorem C02_varint_roundtrip_partial : forall i r t n, 0 <= i < 2 ^ 21 ->
  varInt (mkR (newVarInt i ++ r) t n) = (i, mkR r t (n + Z.of_nat (List.length (newVarInt i)))).
Proof. exact varint_good. Qed.
Print Assumptions C02_varint_roundtrip_partial.

(** Exactly which integers of the documented range survive. *)
Theorem C02_varint_exact : forall i r t n, 0 <= i < 2 ^ 28 ->
  (fst (varInt (mkR (newVarInt i ++ r) t n)) = i <-> i < 2 ^ 21 \/ (i / 2 ^ 16) mod 2 ^ 8 = 0xff).
Proof. exact varint_exact. Qed.
Print Assumptions C02_varint_exact.

Theorem C02_varint_refuted : exists i, 0 <= i < 2 ^ 28 /\ fst (varInt (mkR (newVarInt i) TEof 0)) <> i.
Proof. exists (2 ^ 21). split; [lia|]. vm_compute. discriminate. Qed.
Print Assumptions C02_varint_refuted.

(** The reader accepts the documented form of the whole range. *)
Theorem C02_reader_full_range : forall i r t n, 0 <= i < 2 ^ 28 ->
  varInt (mkR (fmt_varint i ++ r) t n) = (i, mkR r t (n + Z.of_nat (List.length (fmt_varint i)))).
Proof. exact varInt_fmt. Qed.
Print Assumptions C02_reader_full_range.

(** The writer writes the documented form below 2^21, nothing outside 0..2^28-1, ... *)
Theorem C02_writer_form : forall i, 0 <= i < 2 ^ 21 -> newVarInt i = fmt_varint i.
Proof. exact newVarInt_good. Qed.
Print Assumptions C02_writer_form.

Theorem C02_out_of_range_rejected : forall i, i < 0 \/ 2 ^ 28 <= i -> newVarInt i = [].
Proof. exact newVarInt_out. Qed.
Print Assumptions C02_out_of_range_rejected.

(** ... and never more bytes than any other encoding the reader would accept for i. *)
Theorem C02_shortest_form : forall b i m,
  varInt (mkR b TEof 0) = (i, mkR [] TEof m) -> 0 <= i ->
  (List.length (newVarInt i) <= List.length b)%nat.
Proof. exact shortest. Qed.
Print Assumptions C02_shortest_form.

Example C02_ex : varInt (mkR [xc0; x00; x05] TEof 0) = (5, mkR [] TEof 3) /\ newVarInt 5 = [x05]
  /\ newVarInt 300 = [x81; x2c] /\ varInt (mkR (newVarInt 0xff1234) TEof 0) = (0xff1234, mkR [] TEof 4).
Proof. repeat split. Qed.

(** ** C03 FromBinary returns on every input.
    Full claim: forall b, exists fuel g, FromBinary fuel b = Ok g.  False: an unterminated
    text node is read forever. *)

Theorem C03_truncated_text_diverges : forall evs l s fuel,
  Forall ev_ok evs -> 1 <= l < 2 ^ 28 -> ~ In x00 s -> hd_error s <> Some x01 ->
  FromBinary fuel (header_bytes ++ encs evs ++ fmt_varint l ++ s) = NoFuel.
Proof. exact FromBinary_cut_content. Qed.
Print Assumptions C03_truncated_text_diverges.

Example C03_truncated_text_diverges_ex :
  Forall ev_ok [(1, bs "a"); (2, bs "b")] /\ 1 <= 2 < 2 ^ 28 /\ ~ In x00 (bs "cd") /\ hd_error (bs "cd") <> Some x01.
Proof. repeat split; try lia; try discriminate; cbn; try (intuition discriminate). repeat constructor; cbn; try discriminate; intuition discriminate. Qed.

Theorem C03_returns_refuted : exists b, forall fuel, FromBinary fuel b = NoFuel.
Proof.
  exists (header_bytes ++ encs [] ++ fmt_varint 1 ++ bs "a"). intro fuel.
  apply C03_truncated_text_diverges; [constructor|lia|cbn; intuition discriminate|discriminate].
Qed.
Print Assumptions C03_returns_refuted.

(** Any bytes at all followed by five zeros are read in time linear in their number. *)
Theorem C03_returns_partial : forall b fuel, (List.length b + 5 < fuel)%nat ->
  exists g, FromBinary fuel (b ++ zeros 5) = Ok g.
Proof. exact FromBinary_padded. Qed.
Print Assumptions C03_returns_partial.

Example C03_returns_partial_ex : FromBinary 20 (header_bytes ++ [xe0] ++ zeros 5) = Ok (Some (nd "_" [])).
Proof. vm_compute. reflexivity. Qed.

(** Results do not depend on the amount of fuel. *)
Theorem C03_fuel_irrelevant : forall fuel s g s', parse fuel s = Ok (g, s') ->
  forall fuel', (fuel <= fuel')%nat -> parse fuel' s = Ok (g, s').
Proof. exact parse_more. Qed.
Print Assumptions C03_fuel_irrelevant.

(** ** C04 Bad headers are rejected *)
Theorem C04_header : forall fuel b, (exists g, FromBinary fuel b = Ok g) ->
  (FromBinary fuel b = Ok None <-> ~ exists r, b = [x01; "G"%byte; x00] ++ r).
Proof. exact header_iff. Qed.
Print Assumptions C04_header.

Theorem C04_bad_header_always_nil : forall fuel b, (forall r, b <> [x01; "G"%byte; x00] ++ r) -> FromBinary fuel b = Ok None.
Proof. exact FromBinary_None. Qed.
Print Assumptions C04_bad_header_always_nil.

Example C04_header_ex : FromBinary 9 [x01; "G"%byte; x00; x00] = Ok (Some (nd "_" [])) /\ FromBinary 9 [x01; "H"%byte; x00; x00] = Ok None.
Proof. vm_compute. split; reflexivity. Qed.

(** ** C05 Objects are self-delimiting *)
Theorem C05_consumes_exactly : forall E g f b r t n fuel,
  shows E (out g) f -> representable f -> Binary E (Some g) = Ok (Some b) ->
  (List.length b <= fuel)%nat ->
  parse fuel (mkR (b ++ r) t n) = Ok (Some (groot f), mkR r t (n + Z.of_nat (List.length b))).
Proof. exact parse_Binary. Qed.
Print Assumptions C05_consumes_exactly.

Theorem C05_sequence : forall fs r t n fuel,
  Forall (fun f => Forall ev_ok (pres 1 f) /\ (List.length (fmt_object f) <= fuel)%nat) fs ->
  exists m, read_objects fuel (List.length fs) (mkR (flat_map fmt_object fs ++ r) t n) =
  Ok (map (fun f => Some (groot f)) fs, mkR r t m).
Proof. exact read_objects_fmt. Qed.
Print Assumptions C05_sequence.

(** [fmt_object] is what Binary writes. *)
Theorem C05_writer_is_format : forall E g f, shows E (out g) f -> representable f -> Binary E (Some g) = Ok (Some (fmt_object f)).
Proof. exact Binary_fmt. Qed.
Print Assumptions C05_writer_is_format.

Example C05_ex :
  let fs := [[tr "a" [tr "b" []]]; []; [tr "c" []]] in
  Forall (fun f => Forall ev_ok (pres 1 f) /\ (List.length (fmt_object f) <= 20)%nat) fs.
Proof.
  repeat constructor; cbn; try lia; try discriminate; intuition discriminate.
Qed.

(** ** C06 Binary nodes.
    Full claim: header ++ encs a ++ [binary node] ++ encs b ++ [00] reads as all three parts.
    False when anything follows the node: its terminating zero is taken for an empty chunk
    (binary.go:285-287 stops only on a negative length). *)
Theorem C06_binary_node_last_partial : forall evs l ds z fuel,
  Forall ev_ok evs -> 1 <= l < 2 ^ 28 ->
  Forall (fun d => Z.of_nat (List.length d) < 0x200000) ds ->
  z = [] \/ z = [x00] ->
  let b := header_bytes ++ encs evs ++ fmt_varint l ++ [x01] ++ chunks ds ++ z in
  (List.length b < fuel)%nat ->
  FromBinary fuel b = Ok (Some (events_graph (map ev_val evs ++ [(l - 1, VBytes (List.concat ds))]))).
Proof. exact binary_node_last. Qed.
Print Assumptions C06_binary_node_last_partial.

Example C06_binary_node_last_ex :
  FromBinary 40 (header_bytes ++ encs [(1, bs "a")] ++ fmt_varint 2 ++ [x01] ++ chunks [bs "xy"; [x00]] ++ [x00])
  = Ok (Some (nd "_" [Node (VStr (bs "a")) [Some (Node (VBytes [x78; x79; x00]) [])]])).
Proof. vm_compute. reflexivity. Qed.

Theorem C06_binary_node_refuted : exists ds evs,
  FromBinary 60 (header_bytes ++ fmt_varint 1 ++ [x01] ++ chunks ds ++ [x00] ++ encs evs ++ [x00]) <>
  Ok (Some (events_graph ((0, VBytes (List.concat ds)) :: map ev_val evs))).
Proof. exists [bs "xy"], [(1, bs "b")]. vm_compute. discriminate. Qed.
Print Assumptions C06_binary_node_refuted.

(** ** C07 An I/O error is not mistaken for data.
    Full claim: if the reader fails inside an object, no graph is returned.  False: *)
Theorem C07_error_in_text_accepted : forall evs l s fuel,
  Forall ev_ok evs -> 1 <= l < 2 ^ 28 -> good_content s ->
  (List.length (encs evs ++ enc (l, s)) < fuel)%nat ->
  FromBinaryReader fuel (header_bytes ++ encs evs ++ fmt_varint l ++ s) TErr =
  Ok (Some (events_graph (map ev_val (evs ++ [(l, s)])))).
Proof. exact error_in_text. Qed.
Print Assumptions C07_error_in_text_accepted.

Theorem C07_io_error_refuted : exists f b, (exists c, c <> [] /\ fmt_object f = b ++ c) /\
  exists g, FromBinaryReader 100 b TErr = Ok (Some g) /\ g <> groot f.
Proof.
  exists [tr "abc" [tr "d" []]], (header_bytes ++ [x01] ++ bs "ab").
  split; [eexists; split; [|reflexivity]; discriminate|].
  eexists. split; [vm_compute; reflexivity|]. discriminate.
Qed.
Print Assumptions C07_io_error_refuted.

(** What does hold: a failing reader is exactly as good as one that delivers zeros instead. *)
Theorem C07_error_reads_as_zeros_partial : forall fuel b g, FromBinaryReader fuel b TErr = Ok g ->
  exists k0, forall k, (k0 <= k)%nat -> FromBinaryReader fuel (b ++ zeros k) TEof = Ok g.
Proof. exact error_is_zeros. Qed.
Print Assumptions C07_error_reads_as_zeros_partial.

Example C07_ex : FromBinaryReader 20 (header_bytes ++ [x01] ++ bs "ab") TErr = Ok (Some (nd "_" [nd "ab" []])).
Proof. vm_compute. reflexivity. Qed.
