(** Proofs about the binary format. *)
From Verif Require Import Base Value Event EventSpec EventFacts Binary BinarySpec.

(** ** Variable integers *)

Lemma shiftr_bound i k m : 0 <= i < 2 ^ m -> 0 <= k <= m -> 0 <= Z.shiftr i k < 2 ^ (m - k).
Proof.
  intros H Hk. rewrite Z.shiftr_div_pow2 by lia. split; [apply Z.div_pos; lia|].
  apply Z.div_lt_upper_bound; [lia|]. rewrite <- Z.pow_add_r by lia.
  replace (k + (m - k)) with m by lia. lia.
Qed.

Lemma lor_disjoint_add a b k : 0 <= k -> 0 <= b < 2 ^ k -> Z.lor (Z.shiftl a k) b = a * 2 ^ k + b.
Proof.
  intros Hk H. rewrite <- Z.lxor_lor.
  - rewrite <- Z.add_nocarry_lxor.
    + rewrite Z.shiftl_mul_pow2 by lia. reflexivity.
    + apply Z.bits_inj'. intros n Hn. rewrite Z.land_spec, Z.bits_0.
      destruct (Z.lt_ge_cases n k).
      * rewrite Z.shiftl_spec_low by lia. reflexivity.
      * destruct (Z.eq_dec b 0) as [->|]; [rewrite Z.bits_0, andb_false_r; reflexivity|].
        rewrite (Z.bits_above_log2 b); [apply andb_false_r|lia|]. apply Z.log2_lt_pow2; [lia|].
        eapply Z.lt_le_trans; [apply H|]. apply Z.pow_le_mono_r; lia.
  - apply Z.bits_inj'. intros n Hn. rewrite Z.land_spec, Z.bits_0.
    destruct (Z.lt_ge_cases n k).
    * rewrite Z.shiftl_spec_low by lia. reflexivity.
    * destruct (Z.eq_dec b 0) as [->|]; [rewrite Z.bits_0, andb_false_r; reflexivity|].
      rewrite (Z.bits_above_log2 b); [apply andb_false_r|lia|]. apply Z.log2_lt_pow2; [lia|].
      eapply Z.lt_le_trans; [apply H|]. apply Z.pow_le_mono_r; lia.
Qed.

(* a | tag where tag = t * 2^k and a < 2^k *)
Lemma lor_tag a t k : 0 <= k -> 0 <= a < 2 ^ k -> Z.lor a (t * 2 ^ k) = t * 2 ^ k + a.
Proof.
  intros Hk H. rewrite Z.lor_comm, <- Z.shiftl_mul_pow2 by lia. rewrite lor_disjoint_add by lia.
  rewrite Z.shiftl_mul_pow2 by lia. reflexivity.
Qed.

Lemma land_ones_mod a k : 0 <= k -> Z.land a (2 ^ k - 1) = a mod 2 ^ k.
Proof. intro H. rewrite <- Z.land_ones, Z.ones_equiv by lia. f_equal. Qed.

(** Closes a goal whose two sides differ only in the byte count. *)
Ltac rn_eq := match goal with |- ?L = ?R =>
  match L with context [mkR ?r ?t ?a] => match R with context [mkR r t ?b] =>
    replace (mkR r t a) with (mkR r t b) by (f_equal; lia); reflexivity end end end.

Lemma read_cons c r t n : read (mkR (c :: r) t n) = (bz c, mkR r t (n + 1)).
Proof. reflexivity. Qed.

(** [varInt] once the first byte is known. *)
Definition varInt_from (b0 : Z) (s : rst) : Z * rst :=
  if b0 <? 0x80 then (b0, s)
  else if b0 <? 0xc0 then
    let (b1, s) := read s in
    (Z.lor (Z.shiftl (Z.land b0 0x3f) 8) b1, s)
  else if b0 <? 0xe0 then
    let (b1, s) := read s in
    let (b2, s) := read s in
    (Z.lor (Z.lor (Z.shiftl (Z.land b0 0x1f) 16) (Z.shiftl b1 8)) b2, s)
  else if b0 <? 0xf0 then
    let (b1, s) := read s in
    let (b2, s) := read s in
    let (b3, s) := read s in
    (Z.lor (Z.lor (Z.lor (Z.shiftl (Z.land b0 0x0f) 24) (Z.shiftl b1 16)) (Z.shiftl b2 8)) b3, s)
  else (-1, s).
Lemma varInt_unfold c r t n : varInt (mkR (c :: r) t n) = varInt_from (bz c) (mkR r t (n + 1)).
Proof. reflexivity. Qed.

Lemma fmt_varint_length i :
  List.length (fmt_varint i) =
  if i <? 0x80 then 1%nat else if i <? 0x4000 then 2%nat
  else if i <? 0x200000 then 3%nat else 4%nat.
Proof.
  unfold fmt_varint. change (2 ^ 7) with 128. change (2 ^ 14) with 16384. change (2 ^ 21) with 2097152.
  destruct (i <? 128); [reflexivity|]. destruct (i <? 16384); [reflexivity|].
  destruct (i <? 2097152); reflexivity.
Qed.

(** What the parser reads back for the level the writer wrote. *)
Definition reread (i : Z) : Z :=
  if i <? 0x200000 then i else (i / 2 ^ 24) * 2 ^ 24 + 0xff * 2 ^ 16 + i mod 2 ^ 16.

Ltac zpow := change (2 ^ 6) with 64 in *; change (2 ^ 8) with 256 in *; change (2 ^ 16) with 65536 in *;
  change (2 ^ 24) with 16777216 in *; change (2^5) with 32 in *; change (2^4) with 16 in *; change (2^7) with 128 in *;
  change (2 ^ 14) with 16384 in *; change (2 ^ 21) with 2097152 in *; change (2 ^ 28) with 268435456 in *.

(** The parser reads the documented form of every level up to 2^28-1. *)
Lemma varInt_fmt i r t n : 0 <= i < 2 ^ 28 ->
  varInt (mkR (fmt_varint i ++ r) t n) = (i, mkR r t (n + Z.of_nat (List.length (fmt_varint i)))).
Proof.
  intro Hi. rewrite fmt_varint_length. unfold fmt_varint. zpow.
  pose proof (Z.mod_pos_bound i 256 ltac:(lia)) as B0.
  pose proof (Z.mod_pos_bound (i / 256) 256 ltac:(lia)) as B1.
  pose proof (Z.mod_pos_bound (i / 65536) 256 ltac:(lia)) as B2.
  pose proof (Z.div_mod i 256 ltac:(lia)) as D0.
  pose proof (Z.div_mod (i / 256) 256 ltac:(lia)) as D1. rewrite Z.div_div in D1 by lia. change (256 * 256) with 65536 in D1.
  pose proof (Z.div_mod (i / 65536) 256 ltac:(lia)) as D2. rewrite Z.div_div in D2 by lia. change (65536 * 256) with 16777216 in D2.
  destruct (Z.ltb_spec i 128) as [H1|H1].
  { cbn [app]. rewrite varInt_unfold, bz_zb, Z.mod_small by lia. unfold varInt_from.
    replace (i <? 128) with true by lia. f_equal; lia. }
  destruct (Z.ltb_spec i 16384) as [H2|H2].
  { cbn [app]. assert (Hq : 0 <= i / 256 < 64) by lia.
    rewrite varInt_unfold, bz_zb, Z.mod_small by lia. unfold varInt_from.
    replace (128 + i / 256 <? 128) with false by lia. replace (128 + i / 256 <? 192) with true by lia.
    rewrite read_cons, bz_zb, (Z.mod_small (i mod 256)) by lia.
    f_equal; [|f_equal; lia].
    change 63 with (2 ^ 6 - 1). rewrite land_ones_mod by lia. zpow.
    replace ((128 + i / 256) mod 64) with (i / 256).
    2:{ replace (128 + i / 256) with (i / 256 + 2 * 64) by lia. rewrite Z.mod_add by lia. rewrite Z.mod_small; lia. }
    rewrite lor_disjoint_add by (zpow; lia). zpow. lia. }
  destruct (Z.ltb_spec i 2097152) as [H3|H3].
  { cbn [app]. assert (Hq : 0 <= i / 65536 < 32) by lia.
    rewrite varInt_unfold, bz_zb, Z.mod_small by lia. unfold varInt_from.
    replace (192 + i / 65536 <? 128) with false by lia. replace (192 + i / 65536 <? 192) with false by lia.
    replace (192 + i / 65536 <? 224) with true by lia.
    rewrite read_cons; cbv beta iota; rewrite read_cons, !bz_zb, (Z.mod_small (i mod 256)), (Z.mod_small (i / 256 mod 256)) by lia.
    f_equal; [|f_equal; lia].
    change 31 with (2 ^ 5 - 1). rewrite land_ones_mod by lia. zpow.
    replace ((192 + i / 65536) mod 32) with (i / 65536).
    2:{ replace (192 + i / 65536) with (i / 65536 + 6 * 32) by lia. rewrite Z.mod_add by lia. rewrite Z.mod_small; lia. }
    rewrite <- Z.lor_assoc, (lor_disjoint_add _ (i mod 256) 8) by (zpow; lia).
    rewrite lor_disjoint_add by (zpow; lia). zpow. lia. }
  cbn [app]. assert (Hq : 0 <= i / 16777216 < 16) by lia.
  rewrite varInt_unfold, bz_zb, Z.mod_small by lia. unfold varInt_from.
  replace (224 + i / 16777216 <? 128) with false by lia. replace (224 + i / 16777216 <? 192) with false by lia.
  replace (224 + i / 16777216 <? 224) with false by lia. replace (224 + i / 16777216 <? 240) with true by lia.
  rewrite read_cons; cbv beta iota; rewrite read_cons; cbv beta iota; rewrite read_cons, !bz_zb.
  rewrite (Z.mod_small (i mod 256)), (Z.mod_small (i / 256 mod 256)), (Z.mod_small (i / 65536 mod 256)) by lia.
  f_equal; [|f_equal; lia].
  change 15 with (2 ^ 4 - 1). rewrite land_ones_mod by lia. zpow.
  replace ((224 + i / 16777216) mod 16) with (i / 16777216).
  2:{ replace (224 + i / 16777216) with (i / 16777216 + 14 * 16) by lia. rewrite Z.mod_add by lia. rewrite Z.mod_small; lia. }
  rewrite <- !Z.lor_assoc, (lor_disjoint_add _ (i mod 256) 8) by (zpow; lia).
  rewrite (lor_disjoint_add _ _ 16) by (zpow; lia).
  rewrite lor_disjoint_add by (zpow; lia). zpow. lia.
Qed.

Lemma lor_low_ones a : zb (Z.lor a 255) = zb 255.
Proof.
  apply bz_inj. rewrite !bz_zb. change 256 with (2 ^ 8). rewrite <- !Z.land_ones by lia.
  apply Z.bits_inj'. intros k Hk. rewrite !Z.land_spec, Z.lor_spec. change (Z.ones 8) with 255.
  destruct (Z.testbit 255 k); rewrite ?orb_true_r, ?andb_false_r; reflexivity.
Qed.

(** The writer writes the documented form of [reread i]. *)
Lemma newVarInt_fmt i : 0 <= i < 2 ^ 28 -> newVarInt i = fmt_varint (reread i).
Proof.
  intro Hi. zpow. unfold newVarInt, fmt_varint, reread. replace (i <? 0) with false by lia. zpow.
  assert (L : forall a, Z.land a 255 = a mod 256) by (intro a; apply (land_ones_mod a 8); lia).
  destruct (Z.ltb_spec i 128).
  { replace (i <? 2097152) with true by lia. replace (i <? 128) with true by lia. reflexivity. }
  destruct (Z.ltb_spec i 16384).
  { replace (i <? 2097152) with true by lia. replace (i <? 128) with false by lia. replace (i <? 16384) with true by lia.
    rewrite L, Z.shiftr_div_pow2 by lia. zpow.
    assert (E : Z.lor (i / 256) 128 = 128 + i / 256) by (apply (lor_tag (i / 256) 2 6); zpow; lia).
    rewrite E. reflexivity. }
  destruct (Z.ltb_spec i 2097152).
  { replace (i <? 128) with false by lia. replace (i <? 16384) with false by lia.
    rewrite !L, !Z.shiftr_div_pow2 by lia. zpow.
    assert (E : Z.lor (i / 65536) 192 = 192 + i / 65536) by (apply (lor_tag (i / 65536) 6 5); zpow; lia).
    rewrite E. replace (i <? 2097152) with true by lia. reflexivity. }
  replace (i <? 268435456) with true by lia.
  set (j := i / 16777216 * 16777216 + 255 * 65536 + i mod 65536).
  pose proof (Z.mod_pos_bound i 65536 ltac:(lia)) as B.
  assert (Hj : 0x200000 <= j) by (unfold j; lia).
  replace (j <? 128) with false by lia. replace (j <? 16384) with false by lia. replace (j <? 2097152) with false by lia.
  rewrite lor_low_ones, !L, !Z.shiftr_div_pow2 by lia. zpow.
  assert (E : Z.lor (i / 16777216) 224 = 224 + i / 16777216) by (apply (lor_tag (i / 16777216) 14 4); zpow; lia).
  rewrite E.
  assert (J0 : j / 65536 = i / 16777216 * 256 + 255).
  { unfold j. replace (i / 16777216 * 16777216 + 255 * 65536 + i mod 65536)
      with (i mod 65536 + (i / 16777216 * 256 + 255) * 65536) by lia.
    rewrite Z.div_add by lia. rewrite (Z.div_small (i mod 65536)) by lia. lia. }
  assert (J1 : j / 16777216 = i / 16777216).
  { change 16777216 with (65536 * 256) at 1. rewrite <- Z.div_div, J0 by lia.
    replace (i / 16777216 * 256 + 255) with (255 + i / 16777216 * 256) by lia. rewrite Z.div_add by lia. reflexivity. }
  assert (J2 : (j / 65536) mod 256 = 255).
  { rewrite J0. replace (i / 16777216 * 256 + 255) with (255 + i / 16777216 * 256) by lia. rewrite Z.mod_add by lia. reflexivity. }
  assert (J3 : j mod 256 = i mod 256).
  { unfold j. replace (i / 16777216 * 16777216 + 255 * 65536 + i mod 65536)
      with (i mod 65536 + (i / 16777216 * 65536 + 255 * 256) * 256) by lia.
    rewrite Z.mod_add by lia. change 65536 with (256 * 256). rewrite Z.rem_mul_r by lia.
    rewrite Z.mul_comm, Z.mod_add by lia. apply Z.mod_mod. lia. }
  assert (J4 : (j / 256) mod 256 = (i / 256) mod 256).
  { unfold j. replace (i / 16777216 * 16777216 + 255 * 65536 + i mod 65536)
      with (i mod 65536 + (i / 16777216 * 65536 + 255 * 256) * 256) by lia.
    rewrite Z.div_add by lia. change 65536 with (256 * 256) at 1. rewrite Z.rem_mul_r by lia.
    replace (i mod 256 + 256 * ((i / 256) mod 256)) with (i mod 256 + (i / 256) mod 256 * 256) by lia.
    rewrite Z.div_add by lia. rewrite (Z.div_small (i mod 256)) by (apply Z.mod_pos_bound; lia).
    replace (0 + (i / 256) mod 256 + (i / 16777216 * 65536 + 255 * 256)) with
      ((i / 256) mod 256 + (i / 16777216 * 256 + 255) * 256) by lia.
    rewrite Z.mod_add by lia. apply Z.mod_mod. lia. }
  rewrite J1, J2, J3, J4. reflexivity.
Qed.

Lemma newVarInt_good i : 0 <= i < 2 ^ 21 -> newVarInt i = fmt_varint i.
Proof.
  intro H. rewrite newVarInt_fmt by (zpow; lia). unfold reread. replace (i <? 2097152) with true by (zpow; lia). reflexivity.
Qed.

Lemma newVarInt_out i : i < 0 \/ 2 ^ 28 <= i -> newVarInt i = [].
Proof.
  intro H. zpow. unfold newVarInt. destruct (Z.ltb_spec i 0); [reflexivity|].
  replace (i <? 128) with false by lia. replace (i <? 16384) with false by lia.
  replace (i <? 2097152) with false by lia. replace (i <? 268435456) with false by lia. reflexivity.
Qed.

Lemma reread_exact i : 0 <= i < 0x10000000 ->
  (reread i = i <-> i < 0x200000 \/ (i / 2 ^ 16) mod 2 ^ 8 = 0xff).
Proof.
  intro Hi. unfold reread. destruct (Z.ltb_spec i 0x200000); [split; [left|]; trivial; lia|].
  zpow. pose proof (Z.div_mod i 65536 ltac:(lia)) as D1.
  pose proof (Z.div_mod (i / 65536) 256 ltac:(lia)) as D2.
  rewrite Z.div_div in D2 by lia. change (65536 * 256) with 16777216 in D2.
  pose proof (Z.mod_pos_bound i 65536 ltac:(lia)).
  split; [right|]; lia.
Qed.

(** ** Lines *)

Lemma encs_app a b : encs (a ++ b) = encs a ++ encs b.
Proof. apply flat_map_app. Qed.

Lemma bz_eq_byte c d : (bz c =? bz d) = beq c d.
Proof. destruct (beq_spec c d) as [->|H]; [apply Z.eqb_refl|]. apply Z.eqb_neq. intro E. apply H, bz_inj, E. Qed.

Lemma text_loop_content s : forall fuel r t n buf,
  ~ In x00 s -> (List.length s < fuel)%nat ->
  text_loop fuel (mkR (s ++ x00 :: r) t n) buf = Ok (buf ++ s, mkR r t (n + Z.of_nat (List.length s) + 1)).
Proof.
  induction s as [|c s IH]; intros fuel r t n buf H0 Hf; (destruct fuel as [|fuel]; [lia|]); cbn [text_loop app].
  - rewrite read_cons. change (bz x00) with 0. cbn [Z.eqb List.length]. rewrite app_nil_r. rn_eq.
  - rewrite read_cons. replace (bz c =? 0) with false.
    2:{ symmetry. change 0 with (bz x00). rewrite bz_eq_byte. apply beq_neq. intros ->. apply H0. left; reflexivity. }
    rewrite IH; [|intro Hi; apply H0; right; exact Hi|cbn in Hf; lia].
    rewrite zb_bz, <- app_assoc. cbn [app List.length]. rn_eq.
Qed.

Lemma line_enc fuel w e r t n : ev_ok e -> (List.length (snd e) <= fuel)%nat ->
  line fuel w (mkR (enc e ++ r) t n) =
  Ok (fst e, false, if w then snd e else [], mkR r t (n + Z.of_nat (List.length (enc e)))).
Proof.
  destruct e as [l s]. intros [Hl (Hs & H0 & H1)] Hf. cbn [fst snd] in *.
  unfold enc. cbn [fst snd]. rewrite <- !app_assoc. unfold line.
  rewrite varInt_fmt by lia.
  replace (l <? 1) with false by lia.
  destruct s as [|c s]; [congruence|]. cbn [app]. rewrite read_cons.
  replace (bz c =? 1) with false.
  2:{ symmetry. change 1 with (bz x01). rewrite bz_eq_byte. apply beq_neq. intros ->. apply H1. reflexivity. }
  rewrite text_loop_content; [|intro Hi; apply H0; right; exact Hi|cbn in Hf; lia].
  cbn [rbind app]. rewrite zb_bz. rewrite !app_length. cbn [List.length]. rewrite app_length. cbn [List.length].
  rn_eq.
Qed.

Lemma line_end fuel w r t n : line fuel w (mkR (x00 :: r) t n) = Ok (0, false, [], mkR r t (n + 1)).
Proof. reflexivity. Qed.

Definition h_adds (h : handler) (l : list (Z * value graph)) : handler :=
  fold_left (fun h e => h_add_at (snd e) (fst e) h) l h.

(** Reading a run of text lines, whatever follows. *)
Lemma parse_loop_encs l : forall fuel r t n h,
  Forall ev_ok l -> 
  parse_loop (fuel + List.length (encs l)) (mkR (encs l ++ r) t n) h =
  parse_loop (fuel + List.length (encs l) - List.length l)
    (mkR r t (n + Z.of_nat (List.length (encs l)))) (h_adds h (map ev_val l)).
Proof.
  induction l as [|e l IH]; intros fuel r t n h Hl.
  { cbn. rewrite Nat.sub_0_r. rn_eq. }
  inversion Hl as [|? ? He Hl']; subst.
  assert (Hlen : List.length (encs (e :: l)) = (List.length (enc e) + List.length (encs l))%nat)
    by (unfold encs; cbn [flat_map]; rewrite app_length; reflexivity).
  assert (Hge : (List.length (snd e) + 1 <= List.length (enc e))%nat).
  { unfold enc. rewrite !app_length. cbn. lia. }
  rewrite Hlen.
  replace (fuel + (List.length (enc e) + List.length (encs l)))%nat with
    (S ((fuel + (List.length (enc e) - 1)) + List.length (encs l)))%nat by lia.
  cbn [parse_loop]. unfold encs at 2. cbn [flat_map]. fold (encs l). rewrite <- app_assoc.
  rewrite line_enc; [|exact He|lia]. cbn [rbind].
  destruct He as [He1 He2].
  replace (fst e =? 0) with false by lia.
  rewrite (IH (fuel + (List.length (enc e) - 1))%nat) by exact Hl'.
  cbn [map h_adds fold_left ev_val fst snd]. 
  cbn [List.length].
  match goal with |- parse_loop ?a (mkR _ _ ?x) _ = parse_loop ?b (mkR _ _ ?y) _ =>
    replace a with b by lia; replace (mkR r t x) with (mkR r t y) by (f_equal; lia) end.
  reflexivity.
Qed.

Lemma h_adds_evs l : forall h, evs (h_adds h l) = evs h ++ l.
Proof.
  induction l as [|e l IH]; intro h; [cbn; rewrite app_nil_r; reflexivity|].
  cbn [h_adds fold_left]. fold (h_adds (h_add_at (snd e) (fst e) h) l).
  rewrite IH. cbn. rewrite <- app_assoc. destruct e; reflexivity.
Qed.

Lemma h_adds_inv l : forall h, Forall (fun e => 0 <= fst e) l -> h_inv h -> h_inv (h_adds h l).
Proof.
  induction l as [|e l IH]; intros h Hl Hi; [exact Hi|]. inversion Hl; subst.
  cbn [h_adds fold_left]. apply IH; [assumption|].
  eapply (h_step_inv (HAddAt (snd e) (fst e))); [cbn; lia|exact Hi|reflexivity].
Qed.

Lemma ev_val_pos l : Forall ev_ok l -> Forall (fun e => 0 <= fst e) (map ev_val l).
Proof.
  intro H. apply Forall_map. eapply Forall_impl; [|exact H]. intros e [He _]. unfold ev_val. cbn [fst]. lia.
Qed.

Lemma Tree_h_adds l : Forall ev_ok l ->
  Tree (h_adds h_init (map ev_val l)) = Ok (events_graph (map ev_val l)).
Proof.
  intro H. rewrite h_inv_Tree; [|apply h_adds_inv; [apply ev_val_pos, H|apply h_init_inv]].
  rewrite h_adds_evs. reflexivity.
Qed.

Lemma header_ok r t n : header (mkR (header_bytes ++ r) t n) = (true, mkR r t (n + 3)).
Proof. cbn. rn_eq. Qed.

(** A complete object followed by anything. *)
Lemma parse_object l r t n fuel : Forall ev_ok l -> (List.length (encs l) < fuel)%nat ->
  parse fuel (mkR (header_bytes ++ encs l ++ [x00] ++ r) t n) =
  Ok (Some (events_graph (map ev_val l)), mkR r t (n + 3 + Z.of_nat (List.length (encs l)) + 1)).
Proof.
  intros Hl Hf. unfold parse. rewrite header_ok. cbn [negb].
  replace fuel with ((fuel - List.length (encs l)) + List.length (encs l))%nat by lia.
  rewrite parse_loop_encs by exact Hl.
  assert (Hle : (List.length l <= List.length (encs l))%nat).
  { clear. induction l as [|e l IH]; [cbn; lia|]. unfold encs. cbn [flat_map List.length].
    rewrite app_length. fold (encs l). unfold enc. rewrite !app_length. cbn. lia. }
  destruct (fuel - List.length (encs l) + List.length (encs l) - List.length l)%nat eqn:Ef; [lia|].
  cbn [parse_loop app]. rewrite line_end. cbn [rbind Z.eqb].
  rewrite Tree_h_adds by exact Hl. reflexivity.
Qed.

(** ** The writer *)

Lemma bin_node E level v o :
  bin E level (Node v o) =
  (let* b := vbytes E v in
   let '(hd, lv) := match b with [] => ([], level) | _ => (newVarInt level ++ b ++ [x00], level + 1) end in
   let* tl := bins E lv o in Ok (hd ++ tl)).
Proof.
  cbn [bin]. destruct (vbytes E v) as [b| |]; cbn [rbind]; [|reflexivity|reflexivity].
  destruct b as [|c b].
  - assert (G : forall o, (fix go o := match o with
                    | [] => Ok []
                    | None :: _ => Panic
                    | Some c :: o' => let* x := bin E level c in let* y := go o' in Ok (x ++ y)
                    end) o = bins E level o).
    { induction o0 as [|[c|] o0 IH]; cbn; [reflexivity| |reflexivity]. rewrite IH. reflexivity. }
    rewrite G. reflexivity.
  - assert (G : forall o, (fix go o := match o with
                    | [] => Ok []
                    | None :: _ => Panic
                    | Some c :: o' => let* x := bin E (level + 1) c in let* y := go o' in Ok (x ++ y)
                    end) o = bins E (level + 1) o).
    { induction o0 as [|[c'|] o0 IH]; cbn; [reflexivity| |reflexivity]. rewrite IH. reflexivity. }
    rewrite G. reflexivity.
Qed.

(** Text nodes as the writer writes them. *)
Definition wenc (e : Z * bytes) : bytes := newVarInt (fst e) ++ snd e ++ [x00].
Definition wencs (l : list (Z * bytes)) : bytes := flat_map wenc l.

Lemma wencs_app a b : wencs (a ++ b) = wencs a ++ wencs b.
Proof. apply flat_map_app. Qed.

Lemma wencs_fmt l : Forall (fun e => 0 <= fst e < 2 ^ 28) l ->
  wencs l = encs (map (fun e => (reread (fst e), snd e)) l).
Proof.
  induction 1 as [|e l He Hl IH]; [reflexivity|]. unfold wencs, encs in *. cbn [flat_map map]. rewrite IH. f_equal.
  unfold wenc, enc. cbn [fst snd]. rewrite newVarInt_fmt by exact He. reflexivity.
Qed.

Lemma wencs_good l : Forall (fun e => 0 <= fst e < 2 ^ 21) l -> wencs l = encs l.
Proof.
  induction 1 as [|e l He Hl IH]; [reflexivity|]. unfold wencs, encs in *. cbn [flat_map map]. rewrite IH. f_equal.
  unfold wenc, enc. rewrite newVarInt_good by exact He. reflexivity.
Qed.

Lemma bins_shows E o f : shows E o f -> forall level, bins E level o = Ok (wencs (pres level f)).
Proof.
  induction 1 as [|v kids rest k r Hv Hk IHk Hr IHr|v kids rest c s k r Hv Hk IHk Hr IHr]; intro level.
  - reflexivity.
  - cbn [bins]. rewrite bin_node, Hv. cbn [rbind]. rewrite IHk. cbn [rbind app]. rewrite IHr. cbn [rbind].
    unfold pres. rewrite flat_map_app, wencs_app. reflexivity.
  - cbn [bins]. rewrite bin_node, Hv. cbn [rbind]. rewrite IHk. cbn [rbind]. rewrite IHr. cbn [rbind].
    rewrite pres_node. change ((level, c :: s) :: pres (level + 1) k ++ pres level r) with
      ([(level, c :: s)] ++ pres (level + 1) k ++ pres level r).
    rewrite !wencs_app. unfold wencs at 3. cbn [flat_map]. rewrite app_nil_r. unfold wenc. cbn [fst snd].
    rewrite <- !app_assoc. reflexivity.
Qed.

Lemma good_forest_events d f : good_forest d f -> forall l,
  Forall (fun e => l <= fst e < l + Z.of_nat d /\ good_content (snd e)) (pres l f).
Proof.
  induction 1 as [|d s k r Hs Hk IHk Hr IHr]; intro l; [constructor|].
  rewrite pres_node. constructor; [cbn; split; [lia|exact Hs]|].
  apply Forall_app. split; [|apply IHr].
  eapply Forall_impl; [|apply IHk]. cbn. intros e [He1 He2]. split; [lia|exact He2].
Qed.

Lemma ev_val_pres l f : map ev_val (pres (l + 1) f) = vpre l f.
Proof.
  unfold vpre.
  assert (G : forall l f, pres (l + 1) f = map (fun e => (fst e + 1, snd e)) (pres l f)).
  { clear. intros l f. revert l. induction f as [|s k f IHk IHf] using trees_ind; intro l; [reflexivity|].
    rewrite !pres_node. cbn [map fst snd]. rewrite map_app, <- IHk, <- IHf. reflexivity. }
  rewrite G, map_map. apply map_ext. intros [x s]. unfold ev_val. cbn [fst snd].
  replace (x + 1 - 1) with x by lia. reflexivity.
Qed.

Lemma representable_events f : representable f ->
  Forall ev_ok (pres 1 f) /\ wencs (pres 1 f) = encs (pres 1 f).
Proof.
  intros (d & Hd & Hlt). pose proof (good_forest_events d f Hd 1) as H. zpow. split.
  - eapply Forall_impl; [|exact H]. intros e [H1 H2]. split; [zpow; lia|exact H2].
  - apply wencs_good. eapply Forall_impl; [|exact H]. intros e [H1 H2]. zpow. lia.
Qed.

Lemma Binary_shows E g f : shows E (out g) f ->
  Binary E (Some g) = Ok (Some (header_bytes ++ wencs (pres 1 f) ++ [x00])).
Proof. intro H. unfold Binary. rewrite (bins_shows _ _ _ H). reflexivity. Qed.

(** The writer produces the documented format. *)
Lemma Binary_fmt E g f : shows E (out g) f -> representable f -> Binary E (Some g) = Ok (Some (fmt_object f)).
Proof.
  intros Hs Hr. rewrite (Binary_shows _ _ _ Hs). rewrite (proj2 (representable_events f Hr)). reflexivity.
Qed.

Lemma parse_fmt_object f r t n fuel : Forall ev_ok (pres 1 f) -> (List.length (fmt_object f) <= fuel)%nat ->
  parse fuel (mkR (fmt_object f ++ r) t n) = Ok (Some (groot f), mkR r t (n + Z.of_nat (List.length (fmt_object f)))).
Proof.
  intros Hok Hf. unfold fmt_object in *. fold header_bytes in *.
  rewrite !app_length in Hf. cbn [List.length header_bytes] in Hf.
  rewrite <- !app_assoc. rewrite parse_object; [|exact Hok|lia].
  rewrite (ev_val_pres 0 : forall f, map ev_val (pres 1 f) = _), events_graph_vpre. rewrite !app_length. cbn [List.length header_bytes].
  rn_eq.
Qed.

Lemma parse_Binary E g f b r t n fuel :
  shows E (out g) f -> representable f -> Binary E (Some g) = Ok (Some b) ->
  (List.length b <= fuel)%nat ->
  parse fuel (mkR (b ++ r) t n) = Ok (Some (groot f), mkR r t (n + Z.of_nat (List.length b))).
Proof.
  intros Hs Hr Hb Hf. rewrite (Binary_fmt _ _ _ Hs Hr) in Hb.
  assert (Eb : b = fmt_object f) by congruence. subst b; clear Hb.
  apply parse_fmt_object; [apply representable_events, Hr|exact Hf].
Qed.

Lemma FromBinary_Binary E g f :
  shows E (out g) f -> representable f ->
  exists b, Binary E (Some g) = Ok (Some b) /\
    forall fuel, (List.length b <= fuel)%nat -> FromBinary fuel b = Ok (Some (groot f)).
Proof.
  intros Hs Hr. exists (fmt_object f).
  split; [apply Binary_fmt; assumption|]. intros fuel Hf. unfold FromBinary.
  rewrite <- (app_nil_r (fmt_object f)).
  rewrite (parse_Binary E g f) with (r := []); [reflexivity|exact Hs|exact Hr|apply Binary_fmt; assumption|exact Hf].
Qed.

(** ** Every plain graph shows some forest *)

Lemma vbytes_plain E v : (forall p, v <> VPtr p) -> exists b, vbytes E v = Ok b.
Proof. intro H. destruct v; try (eexists; reflexivity). exfalso. apply (H p). reflexivity. Qed.

Lemma plain_shows E g : plain_graph g -> exists f, shows E (out g) f.
Proof.
  induction g as [v l Hv Hl] using graph_ind'. intro H. inversion H as [? ? Hp Hk]; subst. cbn [out].
  induction l as [|o l IH]; [exists []; constructor|].
  inversion Hl as [|? ? Ho Hl']; subst. inversion Hk as [|? ? (c & -> & Hc) Hk']; subst.
  destruct IH as [r Hr]; [exact Hl'|constructor; assumption|exact Hk'|].
  cbn [oP] in Ho. destruct (Ho Hc) as [k Hkk]. destruct c as [v' kids]. cbn [out] in Hkk.
  inversion Hc as [? ? Hp' _]; subst. destruct (vbytes_plain E v' Hp') as [[|c s] Hb].
  - exists (k ++ r). apply shows_empty; assumption.
  - exists (T (c :: s) k :: r). apply shows_node; assumption.
Qed.

Lemma shows_fun E o f f' : shows E o f -> shows E o f' -> f = f'.
Proof.
  intro H. revert f'. induction H as [|v kids rest k r Hv Hk IHk Hr IHr|v kids rest c s k r Hv Hk IHk Hr IHr];
    intros f' H'; inversion H'; subst; try reflexivity; try congruence.
  - rewrite (IHk _ H4), (IHr _ H5). reflexivity.
  - match goal with A : vbytes E v = Ok (_ :: _), B : vbytes E v = Ok (_ :: _) |- _ => rewrite A in B; inversion B; subst end.
    f_equal; [f_equal; apply IHk; assumption|apply IHr; assumption].
Qed.

(** A forest of non-empty strings shows as itself. *)
Lemma gforest_shows E d f : good_forest d f -> shows E (gforest f) f.
Proof.
  induction 1 as [|d s k r (Hs & _) Hk IHk Hr IHr]; [constructor|].
  destruct s as [|c s]; [congruence|]. cbn [gforest map gtree].
  apply shows_node; [reflexivity|exact IHk|exact IHr].
Qed.
