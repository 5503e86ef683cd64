(** C15: a name of 4095 bytes, the longest that NewPath reads. *)
From Verif Require Import Base Value Event EventSpec EventFacts Graph Lexer TextSpec TextParser Stream Buffer BufferSpec BufferFacts PathSpec PathParser PathFacts PathTerm PathLimits Samples P_Path.
Local Notation len l := (Z.of_nat (List.length l)).

(** The lexer over a buffer that holds [s], one zero and nothing to come, [a] being read *)
Lemma full_rune s rest a u b x : s = a ++ u ++ b -> len s = 4095 -> utf8 x u ->
  b_rune (mkX (s ++ [x00]) rest (len a) 4095) = Ok (x, len u, mkX (s ++ [x00]) rest (len (a ++ u)) 4095).
Proof.
  intros Hs Hl Hu. destruct (utf8_head x u Hu) as (c & u' & Eu & _). pose proof (f_equal (@List.length byte) Hs) as HL. rewrite !app_length in HL. rewrite Eu in HL. cbn [List.length] in HL.
  unfold b_rune, fill, bufSize. cbn [r_]. replace (0 <=? len a) with true by lia. replace (len a <? 4096) with true by lia. cbn [andb buf r_ last rd].
  assert (Hz : zget (s ++ [x00]) (len a) = Ok c) by (rewrite Hs, Eu, <- !app_assoc; cbn [app]; apply zget_at; reflexivity). rewrite Hz. cbn [rbind].
  pose proof (decode_utf8 x u b Hu) as Hd.
  destruct (Z.ltb_spec (bz c) 128) as [Hc|Hc].
  - rewrite Eu in Hd. cbn [app] in Hd. rewrite decode_ascii in Hd by exact Hc. apply pair_equal_spec in Hd as [<- Hd]. rewrite <- Eu in Hd. cbn [rbind]. rewrite app_length, Nat2Z.inj_add, <- Hd. reflexivity.
  - replace (4095 <? len a) with false by lia.
    replace (skipn (Z.to_nat (len a)) (firstn (Z.to_nat 4095) (s ++ [x00]))) with (u ++ b); [rewrite Hd; cbn [rbind]; rewrite app_length, Nat2Z.inj_add; reflexivity|].
    rewrite firstn_app. replace (Z.to_nat 4095 - List.length s)%nat with 0%nat by lia. cbn [firstn]. rewrite app_nil_r, firstn_all2 by lia. rewrite Nat2Z.id, Hs, skipn_app, skipn_all2, Nat.sub_diag by lia. reflexivity.
Qed.
Lemma full_token E s rest : len s = 4095 -> forall b, letters E b -> forall a f tok, s = a ++ b -> (List.length b < f)%nat ->
  b_token E f tok (mkX (s ++ [x00]) rest (len a) 4095) = Ok (tok ++ b, mkX (s ++ [x00]) rest 4095 4095).
Proof.
  intros Hl. induction 1 as [|x u b Hu Hx Hb IH]; intros a f tok Hs Hf; (destruct f as [|f]; [lia|]); cbn [b_token].
  - rewrite app_nil_r in *. subst a. rewrite Hl. unfold b_rune, fill, bufSize. cbn [r_]. change ((0 <=? 4095) && (4095 <? 4096)) with true. cbn iota. cbn [buf r_ last rd].
    replace (zget (s ++ [x00]) 4095) with (Ok x00) by (symmetry; apply zget_at; lia). cbn [rbind]. change (bz x00 <? 128) with true. cbn [rbind]. change (token_rune E (bz x00)) with false. reflexivity.
  - rewrite (full_rune s rest a u b x Hs Hl Hu). cbn [rbind]. rewrite (name_rune_token E x (utf8_range x u Hu)), Hx.
    rewrite (encode_utf8 x u Hu). rewrite IH; [rewrite <- app_assoc; reflexivity|rewrite <- app_assoc; exact Hs|].
    destruct (utf8_head x u Hu) as (c & u' & Eu & _). rewrite app_length in Hf. subst u. cbn [List.length] in Hf. lia.
Qed.

(** ** C15 NewPath reads a name of 4095 bytes. *)
Theorem C15_4095 : forall E s fuel, name E s -> len s = 4095 -> (Z.to_nat 4096 <= fuel)%nat ->
  NewPath E fuel s = Ok (Node (VStr (bs "!p")) [Some (Node (VStr s) [])]).
Proof.
  intros E s fuel (Hne & Hs) Hl Hf.
  assert (HX : NewLexer (bytes_reader s) = mkX (s ++ [x00]) [] 0 4095).
  { destruct s as [|c0 s0] eqn:Es; [congruence|]. unfold bytes_reader. rewrite <- Es in *.
    unfold NewLexer, fill. cbn [r_ buf rd]. change (0 <=? -1) with false. cbn [andb]. cbn iota.
    rewrite fill_loop_S. replace (bufSize - 0) with 4096 by reflexivity. cbn [rd_read]. replace (len s <=? 4096) with true by lia.
    cbv beta iota zeta. rewrite Hl. change (halfSize <=? 0 + 4095) with true. cbn iota. f_equal. unfold put. change (Z.to_nat 0) with 0%nat. cbn [firstn app Nat.add]. f_equal.
    replace (repeat x00 (Z.to_nat bufSize)) with (repeat x00 (List.length s) ++ repeat x00 1); [|rewrite <- repeat_app; f_equal; unfold bufSize; lia].
    rewrite skipn_app, skipn_all2, repeat_length, Nat.sub_diag by (rewrite repeat_length; lia). reflexivity. }
  unfold NewPath. rewrite HX. clear HX. unfold Path.
  destruct fuel as [|[|f]]; [lia|lia|]. remember (S (S f)) as F eqn:EF. rewrite EF at 3. rewrite path_loop_S. cbn iota. unfold path_body. unfold Quoted, Byte_. cbn [pbind run_buf].
  destruct s as [|c s'] eqn:Es; [congruence|]. rewrite <- Es in *.
  assert (Hq : is_quote c = false).
  { rewrite Es in Hs. exact (letters_no_quote c s' (letters_head E c s' Hs)). }
  unfold b_byte at 1. cbn [last buf r_ rd]. change ((4095 <? bufSize) && (4095 <=? 0)) with false. cbn iota.
  assert (Hz : zget (s ++ [x00]) 0 = Ok c) by (rewrite Es; reflexivity). rewrite Hz. cbn [rbind].
  rewrite Hq. cbn [negb pbind run_buf]. unfold fill. cbn [r_]. change ((0 <=? 0 + 1) && (0 + 1 <? bufSize)) with true. cbn iota.
  unfold b_unread at 1. cbn [r_ buf rd last]. change (0 + 1 <=? 0) with false. cbn iota. change (0 + 1 - 1) with (len (@nil byte)).
  rewrite (full_token E s [] Hl s Hs [] F [] eq_refl ltac:(lia)). cbn [rbind app]. rewrite Es. rewrite <- Es.
  unfold emit, ev. cbn [pbind run_buf].
  cbn [h_step rbind]. rewrite path_loop_S. cbn iota. unfold Byte_. cbn [pbind run_buf].
  unfold b_byte. cbn [last buf r_ rd]. change ((4095 <? bufSize) && (4095 <=? 4095)) with true. cbn iota. cbn [rbind].
  change (beq x00 ".") with false. cbn iota. cbn [pbind run_buf]. change (beq x00 "[" || beq x00 "(" || beq x00 "{") with false. cbn iota. cbn [run_buf rbind]. reflexivity.
Qed.
Print Assumptions C15_4095.
Example C15_4095_ex : let s := repeat "a"%byte (Z.to_nat 4095) in name env0 s /\ len s = 4095.
Proof.
  intro s. split; [|unfold s; rewrite repeat_length; lia]. apply name_ascii; [|apply Forall_forall; intros c Hc; apply repeat_spec in Hc; subst; reflexivity].
  intro H. apply (f_equal (@List.length byte)) in H. unfold s in H. rewrite repeat_length in H. cbn [List.length] in H. lia.
Qed.

(** So 4095 bytes is the limit for names of ASCII letters and digits. *)
Theorem C15_limit : forall E s, s <> [] -> Forall (fun c => name_char c = true) s ->
  ((exists fuel g, NewPath E fuel s = Ok g) <-> len s <= 4095).
Proof.
  intros E s Hne Hs. split.
  - intros (fuel & g & H). destruct (Z.le_gt_cases (len s) 4095) as [|Hl]; [assumption|]. rewrite C15_long_names_never_return in H; [discriminate|exact Hs|lia].
  - intros Hl. pose proof (name_ascii E s Hne Hs) as Hn. exists (List.length s + Z.to_nat 4100)%nat. eexists.
    destruct (Z.eq_dec (len s) 4095) as [He|He]; [apply C15_4095; [exact Hn|exact He|lia]|apply C15_name_partial; [exact Hn|lia|lia]].
Qed.
Print Assumptions C15_limit.
