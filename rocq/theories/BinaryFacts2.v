(** Proofs about the binary parser on incomplete and foreign streams. *)
From Verif Require Import Base Value Event EventSpec EventFacts Binary BinarySpec BinaryFacts.

(** ** Unterminated text nodes *)

Lemma read_eof n : read (mkR [] TEof n) = (-1, mkR [] TEof n).
Proof. reflexivity. Qed.

Lemma text_loop_eof fuel n buf : text_loop fuel (mkR [] TEof n) buf = NoFuel.
Proof. revert buf; induction fuel as [|f IH]; intro buf; [reflexivity|]. cbn [text_loop]. rewrite read_eof. apply IH. Qed.

Lemma text_loop_cut s : forall fuel n buf, ~ In x00 s ->
  text_loop fuel (mkR s TEof n) buf = NoFuel.
Proof.
  induction s as [|c s IH]; intros fuel n buf H0; [apply text_loop_eof|].
  destruct fuel as [|f]; [reflexivity|]. cbn [text_loop]. rewrite read_cons.
  replace (bz c =? 0) with false.
  2:{ symmetry. change 0 with (bz x00). rewrite bz_eq_byte. apply beq_neq. intros ->. apply H0. left; reflexivity. }
  apply IH. intro Hi. apply H0. right; exact Hi.
Qed.

(** A text node cut before its terminating zero: level, then [s], then end of stream. *)
Lemma line_cut fuel w l s n : 1 <= l < 2 ^ 28 -> ~ In x00 s -> hd_error s <> Some x01 ->
  line fuel w (mkR (fmt_varint l ++ s) TEof n) = NoFuel.
Proof.
  intros Hl H0 H1. unfold line. rewrite varInt_fmt by lia. replace (l <? 1) with false by lia.
  destruct s as [|c s].
  - rewrite read_eof. cbn [Z.eqb]. rewrite text_loop_eof. reflexivity.
  - rewrite read_cons. replace (bz c =? 1) with false.
    2:{ symmetry. change 1 with (bz x01). rewrite bz_eq_byte. apply beq_neq. intros ->. apply H1. reflexivity. }
    rewrite text_loop_cut; [reflexivity|]. intro Hi. apply H0. right; exact Hi.
Qed.

Lemma parse_loop_more fuel : forall s h h' s', parse_loop fuel s h = Ok (h', s') ->
  forall k, parse_loop (k + fuel) s h = Ok (h', s').
Proof.
  assert (Ht : forall f s b r, text_loop f s b = Ok r -> forall k, text_loop (k + f) s b = Ok r).
  { induction f as [|f IH]; intros s b r H k; [discriminate|].
    replace (k + S f)%nat with (S (k + f)) by lia. cbn [text_loop] in *.
    destruct (read s) as [c s']. destruct (c =? 0); [exact H|]. apply IH. exact H. }
  assert (Hb : forall f s n b r, bin_loop f s n b = Ok r -> forall k, bin_loop (k + f) s n b = Ok r).
  { induction f as [|f IH]; intros s n b r H k; [discriminate|].
    replace (k + S f)%nat with (S (k + f)) by lia. cbn [bin_loop] in *.
    destruct (n =? 0).
    - destruct (varInt s) as [m s']. destruct (m <? 0); [exact H|]. apply IH. exact H.
    - destruct (read s) as [m s']. destruct (m <? 0); [exact H|]. apply IH. exact H. }
  assert (Hl : forall f w s r, line f w s = Ok r -> forall k, line (k + f) w s = Ok r).
  { intros f w s r H k. unfold line in *. destruct (varInt s) as [lv s1]. destruct (lv <? 1); [exact H|].
    destruct (read s1) as [c s2]. destruct (c =? 1).
    - destruct (bin_loop f s2 0 []) as [[b s3]| |] eqn:Eb; try discriminate. rewrite (Hb _ _ _ _ _ Eb k). exact H.
    - destruct (text_loop f s2 [zb c]) as [[b s3]| |] eqn:Eb; try discriminate. rewrite (Ht _ _ _ _ Eb k). exact H. }
  induction fuel as [|f IH]; intros s h h' s' H k; [discriminate|].
  replace (k + S f)%nat with (S (k + f)) by lia. cbn [parse_loop] in *.
  destruct (line f true s) as [[[[lev ib] b] s1]| |] eqn:El; try discriminate.
  rewrite (Hl _ _ _ _ El k). cbn [rbind] in *. destruct (lev =? 0); [exact H|]. apply IH. exact H.
Qed.

(** Termination does not depend on the amount of fuel: results are stable. *)
Lemma parse_more fuel s g s' : parse fuel s = Ok (g, s') -> forall fuel', (fuel <= fuel')%nat -> parse fuel' s = Ok (g, s').
Proof.
  intros H fuel' Hf. unfold parse in *. destruct (header s) as [ok s1]. destruct (negb ok); [exact H|].
  destruct (parse_loop fuel s1 h_init) as [[h s2]| |] eqn:E; try discriminate.
  replace fuel' with ((fuel' - fuel) + fuel)%nat by lia. rewrite (parse_loop_more _ _ _ _ _ E). exact H.
Qed.

Lemma parse_loop_cut evs l s n fuel h :
  Forall ev_ok evs -> 1 <= l < 2 ^ 28 -> ~ In x00 s -> hd_error s <> Some x01 ->
  parse_loop fuel (mkR (encs evs ++ fmt_varint l ++ s) TEof n) h = NoFuel.
Proof.
  intros He Hl H0 H1. revert n fuel h. induction He as [|e evs He Hevs IH]; intros n fuel h.
  - cbn [encs flat_map app]. destruct fuel as [|f]; [reflexivity|]. cbn [parse_loop].
    rewrite line_cut by assumption. reflexivity.
  - destruct fuel as [|f]; [reflexivity|]. cbn [parse_loop]. unfold encs. cbn [flat_map]. fold (encs evs).
    rewrite <- app_assoc. destruct (Nat.le_gt_cases (List.length (snd e)) f) as [Hle|Hgt].
    + rewrite line_enc by assumption. cbn [rbind]. destruct He as [He1 He2].
      replace (fst e =? 0) with false by lia. apply IH.
    + (* not even enough fuel for this node *)
      assert (Hn : forall r, line f true (mkR (enc e ++ r) TEof n) = NoFuel).
      { intro r. destruct e as [l' s']. destruct He as [Hl' (Hs' & H0' & H1')]. cbn [fst snd] in *.
        unfold enc. cbn [fst snd]. rewrite <- !app_assoc. unfold line. rewrite varInt_fmt by lia. replace (l' <? 1) with false by lia.
        destruct s' as [|c s']; [congruence|]. cbn [app]. rewrite read_cons.
        replace (bz c =? 1) with false.
        2:{ symmetry. change 1 with (bz x01). rewrite bz_eq_byte. apply beq_neq. intros ->. apply H1'. reflexivity. }
        assert (Ht : forall s f n b r, ~ In x00 s -> (f <= List.length s)%nat -> text_loop f (mkR (s ++ r) TEof n) b = NoFuel).
        { clear. induction s as [|c s IH]; intros f n b r H0 Hf.
          - cbn in Hf. destruct f; [reflexivity|lia].
          - destruct f as [|f]; [reflexivity|]. cbn [app text_loop]. rewrite read_cons.
            replace (bz c =? 0) with false.
            2:{ symmetry. change 0 with (bz x00). rewrite bz_eq_byte. apply beq_neq. intros ->. apply H0. left; reflexivity. }
            apply IH; [intro Hi; apply H0; right; exact Hi|cbn in Hf; lia]. }
        rewrite Ht; [reflexivity| |cbn in Hgt; lia]. intro Hi. apply H0'. right; exact Hi. }
      rewrite Hn. reflexivity.
Qed.

Lemma FromBinary_cut_content evs l s fuel :
  Forall ev_ok evs -> 1 <= l < 2 ^ 28 -> ~ In x00 s -> hd_error s <> Some x01 ->
  FromBinary fuel (header_bytes ++ encs evs ++ fmt_varint l ++ s) = NoFuel.
Proof.
  intros. unfold FromBinary, parse. rewrite header_ok. cbn [negb].
  rewrite parse_loop_cut by assumption. reflexivity.
Qed.

(** ** Streams that end between nodes, or inside a multi-byte level *)

Lemma parse_loop_stop evs r t n fuel s' :
  Forall ev_ok evs -> (List.length (encs evs) < fuel)%nat ->
  (forall f m, line f true (mkR r t m) = Ok (0, false, [], s' m)) ->
  exists m, parse fuel (mkR (header_bytes ++ encs evs ++ r) t n) =
    Ok (Some (events_graph (map ev_val evs)), s' m).
Proof.
  intros He Hf Hline. unfold parse. rewrite header_ok. cbn [negb].
  replace fuel with ((fuel - List.length (encs evs)) + List.length (encs evs))%nat by lia.
  rewrite parse_loop_encs by exact He.
  assert (Hle : (List.length evs <= List.length (encs evs))%nat).
  { clear. induction evs as [|e l IH]; [cbn; lia|]. unfold encs. cbn [flat_map List.length].
    rewrite app_length. fold (encs l). unfold enc. rewrite !app_length. cbn. lia. }
  destruct (fuel - List.length (encs evs) + List.length (encs evs) - List.length evs)%nat eqn:Ef; [lia|].
  cbn [parse_loop]. rewrite Hline. cbn [rbind Z.eqb].
  rewrite Tree_h_adds by exact He. eexists. reflexivity.
Qed.

Lemma FromBinary_cut_between evs fuel : Forall ev_ok evs -> (List.length (encs evs) < fuel)%nat ->
  FromBinary fuel (header_bytes ++ encs evs) = Ok (Some (events_graph (map ev_val evs))).
Proof.
  intros He Hf. unfold FromBinary.
  destruct (parse_loop_stop evs [] TEof 0 fuel (fun m => mkR [] TEof m) He Hf) as [m Hm].
  { reflexivity. }
  rewrite app_nil_r in Hm. rewrite Hm. reflexivity.
Qed.

Lemma cons_inj {A} (x y : A) a b : x :: a = y :: b -> x = y /\ a = b.
Proof. intro H. injection H as -> ->. auto. Qed.

(** A level cut in the middle reads as -1: the stream is taken to end there. *)
Lemma varInt_cut p q l m : 1 <= l < 2 ^ 28 -> fmt_varint l = p ++ q -> p <> [] -> q <> [] ->
  exists m', varInt (mkR p TEof m) = (-1, mkR [] TEof m').
Proof.
  intros Hl E Hp Hq. unfold fmt_varint in E. zpow.
  assert (Hlor : forall a, Z.lor a (-1) = -1) by (intro; apply Z.lor_m1_r).
  destruct p as [|c p]; [congruence|]. destruct q as [|d q]; [congruence|].
  assert (Hnil : forall (p : bytes) x q, [] = p ++ x :: q -> False) by (intros [|? ?]; discriminate).
  destruct (Z.ltb_spec l 128).
  { apply cons_inj in E; destruct E as [_ E]. destruct (Hnil _ _ _ E). }
  destruct (Z.ltb_spec l 16384).
  { apply cons_inj in E; destruct E as [Ec E]. destruct p as [|c1 p].
    2:{ apply cons_inj in E; destruct E as [_ E]. destruct (Hnil _ _ _ E). }
    assert (Hc : bz c = 128 + l / 256) by (rewrite <- Ec, bz_zb; apply Z.mod_small; lia).
    rewrite varInt_unfold, Hc. unfold varInt_from.
    replace (128 + l / 256 <? 128) with false by lia. replace (128 + l / 256 <? 192) with true by lia.
    rewrite read_eof, Hlor. eexists; reflexivity. }
  destruct (Z.ltb_spec l 2097152).
  { apply cons_inj in E; destruct E as [Ec E].
    assert (Hc : bz c = 192 + l / 65536) by (rewrite <- Ec, bz_zb; apply Z.mod_small; lia).
    rewrite varInt_unfold, Hc. unfold varInt_from.
    replace (192 + l / 65536 <? 128) with false by lia. replace (192 + l / 65536 <? 192) with false by lia.
    replace (192 + l / 65536 <? 224) with true by lia.
    destruct p as [|c1 p].
    - rewrite read_eof, read_eof, Hlor. eexists; reflexivity.
    - apply cons_inj in E; destruct E as [_ E]. destruct p as [|c2 p].
      + rewrite read_cons, read_eof, Hlor. eexists; reflexivity.
      + apply cons_inj in E; destruct E as [_ E]. destruct (Hnil _ _ _ E). }
  apply cons_inj in E; destruct E as [Ec E].
  assert (Hc : bz c = 224 + l / 16777216) by (rewrite <- Ec, bz_zb; apply Z.mod_small; lia).
  rewrite varInt_unfold, Hc. unfold varInt_from.
  replace (224 + l / 16777216 <? 128) with false by lia. replace (224 + l / 16777216 <? 192) with false by lia.
  replace (224 + l / 16777216 <? 224) with false by lia. replace (224 + l / 16777216 <? 240) with true by lia.
  destruct p as [|c1 p].
  - rewrite read_eof, read_eof, read_eof, Hlor. eexists; reflexivity.
  - apply cons_inj in E; destruct E as [_ E]. rewrite read_cons. destruct p as [|c2 p].
    + rewrite read_eof, read_eof, Hlor. eexists; reflexivity.
    + apply cons_inj in E; destruct E as [_ E]. rewrite read_cons. destruct p as [|c3 p].
      * rewrite read_eof, Hlor. eexists; reflexivity.
      * apply cons_inj in E; destruct E as [_ E]. destruct (Hnil _ _ _ E).
Qed.

Lemma FromBinary_cut_level evs l p q fuel : Forall ev_ok evs -> 1 <= l < 2 ^ 28 ->
  fmt_varint l = p ++ q -> p <> [] -> q <> [] -> (List.length (encs evs) < fuel)%nat ->
  FromBinary fuel (header_bytes ++ encs evs ++ p) = Ok (Some (events_graph (map ev_val evs))).
Proof.
  intros He Hl E Hp Hq Hf. unfold FromBinary, parse. rewrite header_ok. cbn [negb].
  replace fuel with ((fuel - List.length (encs evs)) + List.length (encs evs))%nat by lia.
  rewrite parse_loop_encs by exact He.
  assert (Hle : (List.length evs <= List.length (encs evs))%nat).
  { clear. induction evs as [|e l IH]; [cbn; lia|]. unfold encs. cbn [flat_map List.length].
    rewrite app_length. fold (encs l). unfold enc. rewrite !app_length. cbn. lia. }
  destruct (fuel - List.length (encs evs) + List.length (encs evs) - List.length evs)%nat eqn:Ef; [lia|].
  cbn [parse_loop]. unfold line.
  destruct (varInt_cut p q l (0 + 3 + Z.of_nat (List.length (encs evs))) Hl E Hp Hq) as [m' Hm].
  rewrite Hm. cbn [Z.ltb Z.compare rbind Z.eqb]. rewrite Tree_h_adds by exact He. reflexivity.
Qed.

Lemma FromBinary_cut_header b c fuel : header_bytes = b ++ c -> c <> [] -> FromBinary fuel b = Ok None.
Proof.
  intros E Hc. unfold header_bytes in E.
  destruct b as [|b0 [|b1 [|b2 b]]]; cbn in E; try (inversion E; subst; reflexivity).
  inversion E; subst. destruct b; [|discriminate]. cbn in *. congruence.
Qed.

(** ** Headers *)

Lemma header_inv s s' : header s = (true, s') -> tl_ s = TEof -> exists r, rest s = header_bytes ++ r.
Proof.
  destruct s as [b t n]. cbn. intros H ->. unfold header in H.
  destruct b as [|b0 b]; [cbn in H; discriminate|]. rewrite read_cons in H.
  destruct (Z.eqb_spec (bz b0) 1) as [E0|]; cbn [negb] in H; [|discriminate].
  destruct b as [|b1 b]; [cbn in H; discriminate|]. rewrite read_cons in H.
  destruct (Z.eqb_spec (bz b1) 71) as [E1|]; cbn [negb] in H; [|discriminate].
  destruct b as [|b2 b]; [cbn in H; discriminate|]. rewrite read_cons in H.
  destruct (Z.eqb_spec (bz b2) 0) as [E2|]; cbn [negb] in H; [|discriminate].
  exists b. change 1 with (bz x01) in E0. change 71 with (bz "G"%byte) in E1. change 0 with (bz x00) in E2.
  apply bz_inj in E0. apply bz_inj in E1. apply bz_inj in E2. subst. reflexivity.
Qed.

Lemma FromBinary_None fuel b : (forall r, b <> header_bytes ++ r) -> FromBinary fuel b = Ok None.
Proof.
  intro H. unfold FromBinary, parse. destruct (header (mkR b TEof 0)) as [ok s] eqn:E.
  destruct ok; [|reflexivity]. apply header_inv in E; [|reflexivity]. destruct E as [r Er]. cbn in Er.
  exfalso. exact (H r Er).
Qed.

Lemma FromBinary_header fuel r : FromBinary fuel (header_bytes ++ r) <> Ok None.
Proof.
  unfold FromBinary, parse. rewrite header_ok. cbn [negb].
  destruct (parse_loop fuel (mkR r TEof (0 + 3)) h_init) as [[h s]| |]; cbn; try discriminate.
  destruct (Tree h); discriminate.
Qed.

(** ** Termination on zero-padded streams *)

(** The unread part: some bytes, then zeros - five of them unless only zeros are left. *)
Definition padded (s : rst) : Prop :=
  tl_ s = TEof /\ exists b k, rest s = b ++ zeros k /\ (b = [] \/ (5 <= k)%nat).

Lemma read_dec s c s' : read s = (c, s') -> tl_ s = TEof ->
  tl_ s' = TEof /\ (List.length (rest s') <= List.length (rest s))%nat /\
  (c < 0 -> rest s = [] /\ s' = s) /\ (0 <= c -> (List.length (rest s') < List.length (rest s))%nat).
Proof.
  destruct s as [b t n]. cbn. intros H ->. destruct b as [|d b]; cbn in H; inversion H; subst; cbn.
  - repeat split; auto; lia.
  - pose proof (bz_range d). repeat split; auto; lia.
Qed.

(** Suffixes of a stream. *)
Definition suffix (s' s : rst) : Prop := exists p, rest s = p ++ rest s'.
Lemma suffix_refl s : suffix s s.
Proof. exists []. reflexivity. Qed.
Lemma suffix_trans a b c : suffix a b -> suffix b c -> suffix a c.
Proof. intros [p Hp] [q Hq]. exists (q ++ p). rewrite Hq, Hp, app_assoc. reflexivity. Qed.
Lemma suffix_len a b : suffix a b -> (List.length (rest a) <= List.length (rest b))%nat.
Proof. intros [p Hp]. rewrite Hp, app_length. lia. Qed.

Lemma read_suffix s c s' : read s = (c, s') -> tl_ s = TEof -> tl_ s' = TEof /\ suffix s' s.
Proof.
  destruct s as [b t n]. cbn. intros H ->. destruct b as [|d b]; cbn in H; inversion H; subst.
  - split; [reflexivity|apply suffix_refl].
  - split; [reflexivity|]. exists [d]. reflexivity.
Qed.

Lemma varInt_suffix s c s' : varInt s = (c, s') -> tl_ s = TEof ->
  tl_ s' = TEof /\ suffix s' s /\ (List.length (rest s) <= List.length (rest s') + 4)%nat /\
  (0 <= c -> (List.length (rest s') < List.length (rest s))%nat).
Proof.
  unfold varInt. intros H Ht.
  destruct (read s) as [b0 s0] eqn:E0.
  destruct (read_dec _ _ _ E0 Ht) as (Ht0 & Hl0 & Hn0 & Hp0). destruct (read_suffix _ _ _ E0 Ht) as [_ Hs0].
  assert (Hd : forall s c s', read s = (c, s') -> tl_ s = TEof -> (List.length (rest s) <= List.length (rest s') + 1)%nat).
  { clear. intros [b t n] c s' H Ht. cbn in *. subst. destruct b; cbn in H; inversion H; subst; cbn; lia. }
  pose proof (Hd _ _ _ E0 Ht) as Hd0.
  destruct (Z.ltb_spec b0 0x80).
  { inversion H; subst. repeat split; auto; lia. }
  destruct (b0 <? 0xc0).
  { destruct (read s0) as [b1 s1] eqn:E1. destruct (read_suffix _ _ _ E1 Ht0) as [Ht1 Hs1]. pose proof (Hd _ _ _ E1 Ht0).
    pose proof (suffix_len _ _ Hs1).
    inversion H; subst. repeat split; auto; try lia. eapply suffix_trans; eassumption. }
  destruct (b0 <? 0xe0).
  { destruct (read s0) as [b1 s1] eqn:E1. destruct (read_suffix _ _ _ E1 Ht0) as [Ht1 Hs1]. pose proof (Hd _ _ _ E1 Ht0).
    destruct (read s1) as [b2 s2] eqn:E2. destruct (read_suffix _ _ _ E2 Ht1) as [Ht2 Hs2]. pose proof (Hd _ _ _ E2 Ht1).
    pose proof (suffix_len _ _ Hs1). pose proof (suffix_len _ _ Hs2).
    inversion H; subst. repeat split; auto; try lia. eauto using suffix_trans. }
  destruct (b0 <? 0xf0).
  { destruct (read s0) as [b1 s1] eqn:E1. destruct (read_suffix _ _ _ E1 Ht0) as [Ht1 Hs1]. pose proof (Hd _ _ _ E1 Ht0).
    destruct (read s1) as [b2 s2] eqn:E2. destruct (read_suffix _ _ _ E2 Ht1) as [Ht2 Hs2]. pose proof (Hd _ _ _ E2 Ht1).
    destruct (read s2) as [b3 s3] eqn:E3. destruct (read_suffix _ _ _ E3 Ht2) as [Ht3 Hs3]. pose proof (Hd _ _ _ E3 Ht2).
    pose proof (suffix_len _ _ Hs1). pose proof (suffix_len _ _ Hs2). pose proof (suffix_len _ _ Hs3).
    inversion H; subst. repeat split; auto; try lia. eauto using suffix_trans. }
  inversion H; subst. repeat split; auto; lia.
Qed.

(** A binary node always ends on a finite stream; it ends at a byte F0..FF or at the end. *)
Lemma bin_loop_ends fuel : forall s n buf, tl_ s = TEof -> (List.length (rest s) < fuel)%nat ->
  exists b s', bin_loop fuel s n buf = Ok (b, s') /\ tl_ s' = TEof /\ suffix s' s.
Proof.
  induction fuel as [|f IH]; intros s n buf Ht Hf; [lia|]. cbn [bin_loop].
  destruct (n =? 0).
  - destruct (varInt s) as [m s1] eqn:E. destruct (varInt_suffix _ _ _ E Ht) as (Ht1 & Hs1 & _ & Hp).
    destruct (Z.ltb_spec m 0).
    + eexists _, _. split; [reflexivity|]. split; assumption.
    + destruct (IH s1 m buf Ht1) as (b & s' & Eb & Ht' & Hs'); [specialize (Hp ltac:(lia)); lia|].
      exists b, s'. split; [exact Eb|]. split; [exact Ht'|]. eapply suffix_trans; eassumption.
  - destruct (read s) as [c s1] eqn:E. destruct (read_suffix _ _ _ E Ht) as (Ht1 & Hs1).
    destruct (read_dec _ _ _ E Ht) as (_ & _ & _ & Hp).
    destruct (Z.ltb_spec c 0).
    + eexists _, _. split; [reflexivity|]. split; assumption.
    + destruct (IH s1 (n - 1) (buf ++ [zb c]) Ht1) as (b & s' & Eb & Ht' & Hs'); [specialize (Hp ltac:(lia)); lia|].
      exists b, s'. split; [exact Eb|]. split; [exact Ht'|]. eapply suffix_trans; eassumption.
Qed.

Lemma text_loop_ends fuel : forall s buf, tl_ s = TEof -> In x00 (rest s) -> (List.length (rest s) <= fuel)%nat ->
  exists b s', text_loop fuel s buf = Ok (b, s') /\ tl_ s' = TEof /\ suffix s' s.
Proof.
  induction fuel as [|f IH]; intros s buf Ht Hin Hf.
  { destruct (rest s); [contradiction|cbn in Hf; lia]. }
  destruct s as [b t n]. cbn [tl_ rest] in *. subst t. destruct b as [|c b]; [contradiction|].
  cbn [text_loop]. rewrite read_cons. destruct (Z.eqb_spec (bz c) 0) as [E|E].
  - eexists _, _. split; [reflexivity|]. split; [reflexivity|]. exists [c]. reflexivity.
  - destruct (IH (mkR b TEof (n + 1)) (buf ++ [zb (bz c)])) as (b' & s' & Eb & Ht' & Hs').
    + reflexivity.
    + destruct Hin as [->|Hin]; [exfalso; apply E; reflexivity|exact Hin].
    + cbn in Hf |- *. lia.
    + exists b', s'. split; [exact Eb|]. split; [exact Ht'|]. eapply suffix_trans; [exact Hs'|]. exists [c]. reflexivity.
Qed.

Lemma suffix_padded s' s : suffix s' s -> tl_ s' = TEof -> padded s -> padded s'.
Proof.
  intros [p Hp] Ht [_ (b & k & Hb & Hk)]. split; [exact Ht|].
  rewrite Hb in Hp. clear Hb.
  revert p Hp Hk. induction b as [|c b IH]; intros p Hp Hk.
  - exists [], (List.length (rest s')). split; [|left; reflexivity]. cbn [app] in *.
    assert (Hall : Forall (eq x00) (rest s')).
    { assert (H : Forall (eq x00) (zeros k)) by (apply Forall_forall; intros x Hx; symmetry; eapply repeat_spec; exact Hx).
      rewrite Hp in H. apply Forall_app in H. apply H. }
    clear - Hall. induction (rest s') as [|c l IH]; [reflexivity|]. inversion Hall; subst. cbn. unfold zeros in IH. rewrite <- IH by assumption. reflexivity.
  - destruct p as [|d p]; cbn [app] in Hp.
    + exists (c :: b), k. split; [symmetry; exact Hp|]. destruct Hk as [Hk|Hk]; [discriminate|right; exact Hk].
    + injection Hp as -> Hp. destruct Hk as [Hk|Hk]; [discriminate|]. eapply IH; [exact Hp|right; exact Hk].
Qed.

Lemma zeros_in k : (0 < k)%nat -> In x00 (zeros k).
Proof. destruct k; [lia|]. intro. left; reflexivity. Qed.

Lemma parse_loop_ends fuel : forall s h, padded s -> (List.length (rest s) < fuel)%nat -> h_inv h ->
  exists h' s', parse_loop fuel s h = Ok (h', s') /\ h_inv h'.
Proof.
  induction fuel as [|f IH]; intros s h Hpad Hf Hh; [lia|]. cbn [parse_loop].
  assert (Hline : (exists b s', line f true s = Ok (0, false, b, s')) \/
     exists lv ib b s', line f true s = Ok (lv, ib, b, s') /\ 1 <= lv /\ tl_ s' = TEof /\ suffix s' s /\
       (List.length (rest s') < List.length (rest s))%nat).
  { unfold line. destruct (varInt s) as [lv s1] eqn:Ev.
    destruct (varInt_suffix _ _ _ Ev (proj1 Hpad)) as (Ht1 & Hs1 & Hl1 & Hp1).
    destruct (Z.ltb_spec lv 1) as [Hlv|Hlv]; [left; eexists _, _; reflexivity|right].
    specialize (Hp1 ltac:(lia)).
    destruct (read s1) as [c s2] eqn:Er.
    destruct (read_suffix _ _ _ Er Ht1) as [Ht2 Hs2]. pose proof (suffix_len _ _ Hs2) as Hl2.
    destruct (Z.eqb_spec c 1) as [Ec|Ec].
    - destruct (bin_loop_ends f s2 0 [] Ht2) as (b & s' & Eb & Ht' & Hs'); [lia|].
      rewrite Eb. cbn [rbind]. exists lv, true, b, s'. pose proof (suffix_len _ _ Hs').
      repeat split; try assumption; try lia. eauto using suffix_trans.
    - (* a zero is left for the text node *)
      assert (Hz : In x00 (rest s2)).
      { destruct Hpad as [Ht (b & k & Hb & Hk)].
        (* the level is positive, so the first byte read was not one of the zeros *)
        assert (Hbne : b <> []).
        { intros ->. cbn [app] in Hb. destruct s as [bs0 t0 n0]. cbn in Hb, Ht. subst.
          destruct k as [|k]; cbn in Ev; inversion Ev; subst; lia. }
        destruct Hk as [Hk|Hk]; [contradiction|].
        destruct Hs1 as [p1 Hp1e]. destruct Hs2 as [p2 Hp2e].
        assert (Hlen2 : (List.length (rest s1) <= List.length (rest s2) + 1)%nat).
        { clear - Er Ht1. destruct s1 as [b t n]. cbn in Ht1. subst. destruct b; cbn in Er; inversion Er; subst; cbn; lia. }
        destruct b as [|c0 b]; [congruence|].
        (* first byte of the level comes from b *)
        assert (Hp1len : (1 <= List.length p1 <= 4)%nat).
        { rewrite Hp1e, app_length in Hl1, Hp1. lia. }
        destruct p1 as [|d p1]; [cbn in Hp1len; lia|].
        rewrite Hp1e in Hb. cbn [app] in Hb. injection Hb as -> Hb. rewrite Hp2e in Hb.
        (* p1 ++ p2 has at most 4 bytes, at least 5 zeros follow b *)
        assert (Hp2len : (List.length p2 <= 1)%nat) by (rewrite Hp2e, app_length in Hlen2; lia).
        cbn in Hp1len.
        (* the last byte of the stream is a zero *)
        assert (Hlast : exists q, rest s2 = q ++ [x00]).
        { rewrite app_assoc in Hb.
          assert (Hz : zeros k = zeros (k - 1) ++ [x00]).
          { unfold zeros. replace k with ((k - 1) + 1)%nat at 1 by lia. rewrite repeat_app. reflexivity. }
          rewrite Hz, app_assoc in Hb.
          destruct (rest s2) as [|y ys] eqn:Ey using rev_ind.
          - exfalso. rewrite app_nil_r in Hb. pose proof (f_equal (@List.length _) Hb) as HL.
            rewrite !app_length in HL. unfold zeros in HL. rewrite repeat_length in HL. cbn in HL. lia.
          - rewrite app_assoc in Hb. apply app_inj_tail in Hb. destruct Hb as [_ <-]. eexists. reflexivity. }
        destruct Hlast as [q ->]. apply in_or_app. right. left. reflexivity. }
      destruct (text_loop_ends f s2 [zb c] Ht2 Hz) as (b & s' & Eb & Ht' & Hs'); [lia|].
      rewrite Eb. cbn [rbind]. exists lv, false, b, s'. pose proof (suffix_len _ _ Hs').
      repeat split; try assumption; try lia. eauto using suffix_trans. }
  destruct Hline as [(b & s' & El)|(lv & ib & b & s' & El & Hlv & Ht' & Hs' & Hlen)]; rewrite El; cbn [rbind].
  - cbn [Z.eqb]. eexists _, _. split; [reflexivity|exact Hh].
  - replace (lv =? 0) with false by lia. apply IH; [eapply suffix_padded; eassumption|lia|].
    eapply (h_step_inv (HAddAt _ (lv - 1))); [cbn; lia|exact Hh|reflexivity].
Qed.

Lemma header_suffix s ok s' : header s = (ok, s') -> tl_ s = TEof -> tl_ s' = TEof /\ suffix s' s.
Proof.
  unfold header. intros H Ht.
  destruct (read s) as [a s1] eqn:E1. destruct (read_suffix _ _ _ E1 Ht) as [Ht1 Hs1].
  destruct (negb (a =? 1)); [inversion H; subst; split; assumption|].
  destruct (read s1) as [b s2] eqn:E2. destruct (read_suffix _ _ _ E2 Ht1) as [Ht2 Hs2].
  destruct (negb (b =? 71)); [inversion H; subst; split; [assumption|eauto using suffix_trans]|].
  destruct (read s2) as [c s3] eqn:E3. destruct (read_suffix _ _ _ E3 Ht2) as [Ht3 Hs3].
  destruct (negb (c =? 0)); inversion H; subst; split; eauto using suffix_trans.
Qed.

Lemma FromBinary_padded b fuel : (List.length b + 5 < fuel)%nat ->
  exists g, FromBinary fuel (b ++ zeros 5) = Ok g.
Proof.
  intro Hf. unfold FromBinary, parse.
  destruct (header (mkR (b ++ zeros 5) TEof 0)) as [ok s] eqn:E.
  destruct (header_suffix _ _ _ E eq_refl) as [Ht Hs].
  destruct ok; [|exists None; reflexivity]. cbn [negb].
  destruct (parse_loop_ends fuel s h_init) as (h' & s' & Ep & Hh').
  - eapply suffix_padded; [exact Hs|exact Ht|]. split; [reflexivity|]. exists b, 5%nat. split; [reflexivity|right; lia].
  - apply suffix_len in Hs. cbn [rest] in Hs. rewrite app_length in Hs. cbn [zeros repeat List.length] in Hs. lia.
  - apply h_init_inv.
  - rewrite Ep. cbn [rbind]. rewrite h_inv_Tree by exact Hh'. eexists. reflexivity.
Qed.

(** ** Read errors *)

(** [s] (ending in an error) and [s'] (the same bytes, then at least k zeros, then EOF). *)
Definition zsim (k : nat) (s s' : rst) : Prop :=
  tl_ s = TErr /\ tl_ s' = TEof /\ rn s = rn s' /\
  exists j, (k <= j)%nat /\ rest s' = rest s ++ zeros j.

Lemma zsim_read k s s' : zsim (S k) s s' ->
  exists c t t', read s = (c, t) /\ read s' = (c, t') /\ zsim k t t'.
Proof.
  intros (Ht & Ht' & Hn & j & Hj & Hr). destruct s as [b t n], s' as [b' t' n']. cbn in *. subst.
  destruct b as [|c b]; cbn.
  - destruct j as [|j]; [lia|]. cbn. eexists _, _, _. split; [reflexivity|]. split; [reflexivity|].
    repeat split. exists j. split; [lia|reflexivity].
  - eexists _, _, _. split; [reflexivity|]. split; [reflexivity|].
    repeat split. exists j. split; [lia|reflexivity].
Qed.

Lemma zsim_weaken k k' s s' : (k' <= k)%nat -> zsim k s s' -> zsim k' s s'.
Proof. intros H (a & b & c & j & Hj & Hr). repeat split; auto. exists j. split; [lia|exact Hr]. Qed.

Lemma zsim_varInt k s s' : zsim (4 + k) s s' ->
  exists c t t', varInt s = (c, t) /\ varInt s' = (c, t') /\ zsim k t t'.
Proof.
  intro H. destruct (zsim_read _ _ _ H) as (b0 & s0 & s0' & E0 & E0' & H0).
  unfold varInt. rewrite E0, E0'.
  destruct (b0 <? 0x80); [eexists _, _, _; split; [reflexivity|]; split; [reflexivity|]; eapply zsim_weaken; [|exact H0]; lia|].
  destruct (zsim_read _ _ _ H0) as (b1 & s1 & s1' & E1 & E1' & H1). rewrite E1, E1'.
  destruct (b0 <? 0xc0); [eexists _, _, _; split; [reflexivity|]; split; [reflexivity|]; eapply zsim_weaken; [|exact H1]; lia|].
  destruct (zsim_read _ _ _ H1) as (b2 & s2 & s2' & E2 & E2' & H2). rewrite E2, E2'.
  destruct (b0 <? 0xe0); [eexists _, _, _; split; [reflexivity|]; split; [reflexivity|]; eapply zsim_weaken; [|exact H2]; lia|].
  destruct (zsim_read _ _ _ H2) as (b3 & s3 & s3' & E3 & E3' & H3). rewrite E3, E3'.
  destruct (b0 <? 0xf0); eexists _, _, _; (split; [reflexivity|]); (split; [reflexivity|]);
    (eapply zsim_weaken; [|eassumption]); lia.
Qed.

Lemma zsim_text fuel : forall k s s' buf b t, zsim (fuel + k) s s' -> text_loop fuel s buf = Ok (b, t) ->
  exists t', text_loop fuel s' buf = Ok (b, t') /\ zsim k t t'.
Proof.
  induction fuel as [|f IH]; intros k s s' buf b t Hz H; [discriminate|]. cbn [text_loop] in *.
  change (S f + k)%nat with (S (f + k)) in Hz.
  destruct (zsim_read _ _ _ Hz) as (c & s1 & s1' & E & E' & H1). rewrite E in H. rewrite E'.
  destruct (c =? 0).
  - inversion H; subst. eexists. split; [reflexivity|]. eapply zsim_weaken; [|exact H1]. lia.
  - eapply IH; eassumption.
Qed.

Lemma zsim_bin fuel : forall k s s' n buf b t, zsim (4 * fuel + k) s s' -> bin_loop fuel s n buf = Ok (b, t) ->
  exists t', bin_loop fuel s' n buf = Ok (b, t') /\ zsim k t t'.
Proof.
  induction fuel as [|f IH]; intros k s s' n buf b t Hz H; [discriminate|]. cbn [bin_loop] in *.
  replace (4 * S f + k)%nat with (4 + (4 * f + k))%nat in Hz by lia.
  destruct (n =? 0).
  - destruct (zsim_varInt _ _ _ Hz) as (c & s1 & s1' & E & E' & H1). rewrite E in H. rewrite E'.
    destruct (c <? 0).
    + inversion H; subst. eexists. split; [reflexivity|]. eapply zsim_weaken; [|exact H1]. lia.
    + eapply IH; eassumption.
  - apply (zsim_weaken _ (S (4 * f + k))) in Hz; [|lia].
    destruct (zsim_read _ _ _ Hz) as (c & s1 & s1' & E & E' & H1). rewrite E in H. rewrite E'.
    destruct (c <? 0).
    + inversion H; subst. eexists. split; [reflexivity|]. eapply zsim_weaken; [|exact H1]. lia.
    + eapply IH; eassumption.
Qed.

Lemma zsim_line fuel w k s s' r t : zsim (5 + 4 * fuel + k) s s' -> line fuel w s = Ok (r, t) ->
  exists t', line fuel w s' = Ok (r, t') /\ zsim k t t'.
Proof.
  intros Hz H. unfold line in *.
  destruct (zsim_varInt (S (4 * fuel + k)) s s') as (lv & s1 & s1' & E & E' & H1); [eapply zsim_weaken; [|exact Hz]; lia|].
  rewrite E in H. rewrite E'. destruct (lv <? 1).
  { inversion H; subst. eexists. split; [reflexivity|]. eapply zsim_weaken; [|exact H1]. lia. }
  destruct (zsim_read _ _ _ H1) as (c & s2 & s2' & E2 & E2' & H2). rewrite E2 in H. rewrite E2'.
  destruct (c =? 1).
  - destruct (bin_loop fuel s2 0 []) as [[b s3]| |] eqn:Eb; try discriminate. cbn [rbind] in H.
    destruct (zsim_bin _ _ _ _ _ _ _ _ H2 Eb) as (t' & Et' & Hz'). rewrite Et'. cbn [rbind].
    inversion H; subst. eexists. split; [reflexivity|exact Hz'].
  - destruct (text_loop fuel s2 [zb c]) as [[b s3]| |] eqn:Eb; try discriminate. cbn [rbind] in H.
    apply (zsim_weaken _ (fuel + k)) in H2; [|lia].
    destruct (zsim_text _ _ _ _ _ _ _ H2 Eb) as (t' & Et' & Hz'). rewrite Et'. cbn [rbind].
    inversion H; subst. eexists. split; [reflexivity|exact Hz'].
Qed.

Fixpoint zneed (fuel : nat) : nat := match fuel with O => O | S f => 5 + 4 * f + zneed f end.

Lemma zsim_parse_loop fuel : forall k s s' h h' t, zsim (zneed fuel + k) s s' -> parse_loop fuel s h = Ok (h', t) ->
  exists t', parse_loop fuel s' h = Ok (h', t') /\ zsim k t t'.
Proof.
  induction fuel as [|f IH]; intros k s s' h h' t Hz H; [discriminate|]. cbn [parse_loop zneed] in *.
  destruct (line f true s) as [[[[lev ib] b] s1]| |] eqn:El; try discriminate. cbn [rbind] in H.
  destruct (zsim_line f true (zneed f + k) s s' (lev, ib, b) s1) as (s1' & El' & H1); [eapply zsim_weaken; [|exact Hz]; lia|exact El|].
  rewrite El'. cbn [rbind]. destruct (lev =? 0).
  - inversion H; subst. eexists. split; [reflexivity|]. eapply zsim_weaken; [|exact H1]; lia.
  - eapply IH; eassumption.
Qed.

(** A stream on which the reader fails is indistinguishable from one continued by zeros. *)
Lemma error_is_zeros fuel b g : FromBinaryReader fuel b TErr = Ok g ->
  exists k0, forall k, (k0 <= k)%nat -> FromBinaryReader fuel (b ++ zeros k) TEof = Ok g.
Proof.
  intro H. exists (3 + (zneed fuel + 0))%nat. intros k Hk. unfold FromBinaryReader, parse in *.
  assert (Hz : zsim (3 + (zneed fuel + 0)) (mkR b TErr 0) (mkR (b ++ zeros k) TEof 0)).
  { repeat split. exists k. split; [exact Hk|reflexivity]. }
  assert (Hh : exists ok s s', header (mkR b TErr 0) = (ok, s) /\ header (mkR (b ++ zeros k) TEof 0) = (ok, s') /\ zsim (zneed fuel + 0) s s').
  { unfold header. destruct (zsim_read _ _ _ Hz) as (c & s1 & s1' & E & E' & H1). rewrite E, E'.
    destruct (negb (c =? 1)); [eexists _, _, _; split; [reflexivity|]; split; [reflexivity|]; eapply zsim_weaken; [|exact H1]; lia|].
    destruct (zsim_read _ _ _ H1) as (c2 & s2 & s2' & E2 & E2' & H2). rewrite E2, E2'.
    destruct (negb (c2 =? 71)); [eexists _, _, _; split; [reflexivity|]; split; [reflexivity|]; eapply zsim_weaken; [|exact H2]; lia|].
    destruct (zsim_read _ _ _ H2) as (c3 & s3 & s3' & E3 & E3' & H3). rewrite E3, E3'.
    destruct (negb (c3 =? 0)); eexists _, _, _; (split; [reflexivity|]); (split; [reflexivity|]); exact H3. }
  destruct Hh as (ok & s & s' & Eh & Eh' & Hz'). rewrite Eh in H. rewrite Eh'.
  destruct (negb ok); [exact H|].
  destruct (parse_loop fuel s h_init) as [[h t]| |] eqn:Ep; try discriminate.
  destruct (zsim_parse_loop _ _ _ _ _ _ _ Hz' Ep) as (t' & Et' & _). rewrite Et'.
  cbn [rbind] in *. destruct (Tree h); exact H.
Qed.

(** Failing inside the text of a node: the text read so far is delivered as complete. *)
Lemma error_in_text evs l s fuel : Forall ev_ok evs -> 1 <= l < 2 ^ 28 -> good_content s ->
  (List.length (encs evs ++ enc (l, s)) < fuel)%nat ->
  FromBinaryReader fuel (header_bytes ++ encs evs ++ fmt_varint l ++ s) TErr =
  Ok (Some (events_graph (map ev_val (evs ++ [(l, s)])))).
Proof.
  intros He Hl Hs Hf. unfold FromBinaryReader, parse. rewrite header_ok. cbn [negb].
  rewrite app_length in Hf.
  replace fuel with ((fuel - List.length (encs evs)) + List.length (encs evs))%nat by lia.
  rewrite parse_loop_encs by exact He.
  assert (Hle : (List.length evs <= List.length (encs evs))%nat).
  { clear. induction evs as [|e l IH]; [cbn; lia|]. unfold encs. cbn [flat_map List.length].
    rewrite app_length. fold (encs l). unfold enc. rewrite !app_length. cbn. lia. }
  assert (Hel : (List.length s + 1 <= List.length (enc (l, s)))%nat).
  { unfold enc. cbn [fst snd]. rewrite !app_length. cbn. lia. }
  assert (Hsl : (1 <= List.length s)%nat) by (destruct Hs as [Hs _]; destruct s; [congruence|cbn; lia]).
  destruct (fuel - List.length (encs evs) + List.length (encs evs) - List.length evs)%nat as [|f] eqn:Ef; [lia|].
  cbn [parse_loop]. 
  assert (Hline : forall m, exists m', line f true (mkR (fmt_varint l ++ s) TErr m) = Ok (l, false, s, mkR [] TErr m')).
  { intro m. unfold line. rewrite varInt_fmt by lia.
    replace (l <? 1) with false by lia. destruct Hs as (Hs & H0 & H1). destruct s as [|c s]; [congruence|].
    rewrite read_cons. replace (bz c =? 1) with false.
    2:{ symmetry. change 1 with (bz x01). rewrite bz_eq_byte. apply beq_neq. intros ->. apply H1. reflexivity. }
    assert (Ht : forall s f m b, ~ In x00 s -> (List.length s < f)%nat -> exists m', text_loop f (mkR s TErr m) b = Ok (b ++ s, mkR [] TErr m')).
    { clear. induction s as [|c s IH]; intros f m b H0 Hf; (destruct f as [|f]; [cbn in Hf; lia|]); cbn [text_loop].
      - cbn [read rest tl_ rn Z.eqb]. rewrite app_nil_r. eexists; reflexivity.
      - rewrite read_cons. replace (bz c =? 0) with false.
        2:{ symmetry. change 0 with (bz x00). rewrite bz_eq_byte. apply beq_neq. intros ->. apply H0. left; reflexivity. }
        destruct (IH f (m + 1) (b ++ [zb (bz c)])) as [m' Hm]; [intro Hi; apply H0; right; exact Hi|cbn in Hf; lia|].
        exists m'. rewrite Hm, zb_bz, <- app_assoc. reflexivity. }
    destruct (Ht s f (m + Z.of_nat (List.length (fmt_varint l)) + 1) [zb (bz c)]) as [m' Hm].
    - intro Hi. apply H0. right; exact Hi.
    - cbn in Hel, Hsl. lia.
    - exists m'. rewrite Hm. cbn [rbind app]. rewrite zb_bz. reflexivity. }
  destruct (Hline (0 + 3 + Z.of_nat (List.length (encs evs)))) as [m' Hm]. rewrite Hm. cbn [rbind]. replace (l =? 0) with false by lia.
  destruct f as [|f]; [lia|]. cbn [parse_loop].
  unfold line at 1. cbn [varInt read rest tl_ rn Z.ltb Z.compare rbind Z.eqb].
  assert (Hev : h_add_at (VStr s) (l - 1) (h_adds h_init (map ev_val evs)) =
                h_adds h_init (map ev_val (evs ++ [(l, s)]))).
  { rewrite map_app. unfold h_adds. rewrite fold_left_app. reflexivity. }
  rewrite Hev, Tree_h_adds; [reflexivity|]. apply Forall_app. split; [exact He|].
  constructor; [split; [exact Hl|exact Hs]|constructor].
Qed.

(** ** Binary nodes *)

Lemma bin_data d : forall fuel r t n k buf,
  bin_loop (fuel + List.length d) (mkR (d ++ r) t n) (Z.of_nat (List.length d) + Z.of_nat k) buf =
  bin_loop fuel (mkR r t (n + Z.of_nat (List.length d))) (Z.of_nat k) (buf ++ d).
Proof.
  induction d as [|c d IH]; intros fuel r t n k buf.
  - cbn [List.length app]. rewrite Nat.add_0_r, app_nil_r. f_equal. f_equal. lia.
  - cbn [List.length]. replace (fuel + S (List.length d))%nat with (S (fuel + List.length d)) by lia.
    cbn [bin_loop app]. replace (Z.of_nat (S (List.length d)) + Z.of_nat k =? 0) with false by lia.
    rewrite read_cons. pose proof (bz_range c). replace (bz c <? 0) with false by lia.
    replace (Z.of_nat (S (List.length d)) + Z.of_nat k - 1) with (Z.of_nat (List.length d) + Z.of_nat k) by lia.
    rewrite IH. rewrite zb_bz, <- app_assoc. cbn [app]. f_equal. f_equal. lia.
Qed.

Lemma bin_chunks ds : forall fuel r t n buf,
  Forall (fun d => Z.of_nat (List.length d) < 0x200000) ds ->
  exists f' m, (fuel <= f')%nat /\
  bin_loop (fuel + List.length (chunks ds)) (mkR (chunks ds ++ r) t n) 0 buf =
  bin_loop f' (mkR r t m) 0 (buf ++ List.concat ds).
Proof.
  induction ds as [|d ds IH]; intros fuel r t n buf H.
  - exists (fuel + 0)%nat, n. split; [lia|]. cbn [chunks flat_map List.length app List.concat]. rewrite app_nil_r. reflexivity.
  - inversion H as [|? ? Hd Hds]; subst. cbn [chunks flat_map List.concat]. fold (chunks ds).
    change (chunk d) with (fmt_varint (Z.of_nat (List.length d)) ++ d).
    rewrite <- !app_assoc, !app_length.
    assert (Hv : (1 <= List.length (fmt_varint (Z.of_nat (List.length d))))%nat).
    { rewrite fmt_varint_length.
      destruct (_ <? 128); [lia|]. destruct (_ <? 16384); [lia|]. destruct (_ <? 2097152); lia. }
    set (lv := List.length (fmt_varint (Z.of_nat (List.length d)))) in *.
    replace (fuel + (lv + (List.length d + List.length (chunks ds))))%nat with
      (S ((fuel + (lv - 1) + List.length (chunks ds)) + List.length d))%nat by lia.
    cbn [bin_loop Z.eqb]. rewrite varInt_fmt by lia.
    replace (Z.of_nat (List.length d) <? 0) with false by lia.
    pose proof (bin_data d (fuel + (lv - 1) + List.length (chunks ds))%nat (chunks ds ++ r) t
       (n + Z.of_nat (List.length (fmt_varint (Z.of_nat (List.length d))))) 0%nat buf) as Hbd.
    rewrite Z.add_0_r in Hbd. rewrite Hbd. clear Hbd.
    destruct (IH (fuel + (lv - 1))%nat r t (n + Z.of_nat (List.length (fmt_varint (Z.of_nat (List.length d)))) + Z.of_nat (List.length d)) (buf ++ d) Hds)
      as (f' & m & Hf' & E).
    exists f', m. split; [lia|]. rewrite app_assoc. rewrite <- E. reflexivity.
Qed.

(** A binary node at the end of the stream, with or without its terminating zero. *)
Lemma binary_node_last evs l ds z fuel :
  Forall ev_ok evs -> 1 <= l < 2 ^ 28 ->
  Forall (fun d => Z.of_nat (List.length d) < 0x200000) ds ->
  z = [] \/ z = [x00] ->
  let b := header_bytes ++ encs evs ++ fmt_varint l ++ [x01] ++ chunks ds ++ z in
  (List.length b < fuel)%nat ->
  FromBinary fuel b = Ok (Some (events_graph (map ev_val evs ++ [(l - 1, VBytes (List.concat ds))]))).
Proof.
  intros He Hl Hd Hz b Hf. unfold FromBinary, parse, b in *. clear b. rewrite header_ok. cbn [negb].
  rewrite !app_length in Hf. cbn [List.length header_bytes] in Hf.
  replace fuel with ((fuel - List.length (encs evs)) + List.length (encs evs))%nat by lia.
  rewrite parse_loop_encs by exact He.
  assert (Hle : (List.length evs <= List.length (encs evs))%nat).
  { clear. induction evs as [|e l IH]; [cbn; lia|]. unfold encs. cbn [flat_map List.length].
    rewrite app_length. fold (encs l). unfold enc. rewrite !app_length. cbn. lia. }
  destruct (fuel - List.length (encs evs) + List.length (encs evs) - List.length evs)%nat as [|f] eqn:Ef; [lia|].
  cbn [parse_loop]. unfold line at 1. rewrite varInt_fmt by lia.
  replace (l <? 1) with false by lia. cbn [app]. rewrite read_cons. change (bz x01 =? 1) with true. cbv iota.
  destruct (bin_chunks ds (f - List.length (chunks ds))%nat z TEof
     (0 + 3 + Z.of_nat (List.length (encs evs)) + Z.of_nat (List.length (fmt_varint l)) + 1) [] Hd) as (f' & m & Hf' & E).
  replace (f - List.length (chunks ds) + List.length (chunks ds))%nat with f in E by lia.
  rewrite E. cbn [app].
  assert (Hend : exists m', bin_loop f' (mkR z TEof m) 0 (List.concat ds) = Ok (List.concat ds, mkR [] TEof m')).
  { destruct Hz as [->| ->].
    - destruct f' as [|f']; [lia|]. eexists; reflexivity.
    - cbn [List.length] in Hf. destruct f' as [|[|f']]; [lia|lia|]. eexists; reflexivity. }
  destruct Hend as [m' Hend]. rewrite Hend. cbn [rbind].
  replace (l =? 0) with false by lia.
  destruct f as [|f]; [lia|]. cbn [parse_loop].
  unfold line. cbn [varInt read rest tl_ rn Z.ltb Z.compare rbind Z.eqb].
  assert (Hev : h_add_at (VBytes (List.concat ds)) (l - 1) (h_adds h_init (map ev_val evs)) =
                h_adds h_init (map ev_val evs ++ [(l - 1, VBytes (List.concat ds))])).
  { unfold h_adds. rewrite fold_left_app. reflexivity. }
  rewrite Hev, h_inv_Tree.
  - rewrite h_adds_evs. reflexivity.
  - apply h_adds_inv; [|apply h_init_inv]. apply Forall_app. split; [apply ev_val_pos, He|].
    constructor; [cbn; lia|constructor].
Qed.

(** ** The level bound is tight *)

(** n nested nodes *)
Fixpoint chain (n : nat) : list tree := match n with O => [] | S n => [T (bs "a") (chain n)] end.

Lemma chain_good n : good_forest n (chain n).
Proof.
  induction n as [|n IH]; cbn; [constructor|]. constructor; [|exact IH|constructor].
  repeat split; cbn; try discriminate. intros [H|[]]. discriminate.
Qed.

Lemma pres_chain_S n : forall l, pres l (chain (S n)) = pres l (chain n) ++ [(l + Z.of_nat n, bs "a")].
Proof.
  induction n as [|n IH]; intro l.
  - cbn [chain]. rewrite pres_node. cbn [pres flat_map app]. replace (l + Z.of_nat 0) with l by lia. reflexivity.
  - change (chain (S (S n))) with [T (bs "a") (chain (S n))].
    change (chain (S n)) with [T (bs "a") (chain n)] at 2.
    rewrite !pres_node. change (pres l []) with (@nil (Z * bytes)). rewrite !app_nil_r, IH. cbn [app].
    replace (l + Z.of_nat (S n)) with (l + 1 + Z.of_nat n) by lia. reflexivity.
Qed.

Lemma forest_far n : forall l big v, 0 <= l -> l + Z.of_nat n < big ->
  forest l (vpre l (chain n) ++ [(big, v)]) = map gtree (chain n).
Proof.
  induction n as [|n IH]; intros l big v Hl Hb.
  - cbn [chain vpre pres flat_map map app forest]. replace (big =? l - 1) with false by lia.
    replace (big =? l) with false by lia. reflexivity.
  - cbn [chain]. rewrite vpre_node. cbn [app forest]. replace (l =? l - 1) with false by lia.
    rewrite Z.eqb_refl. change (vpre l []) with (@nil (Z * value graph)). rewrite app_nil_r.
    rewrite IH by lia. rewrite forest_skip.
    2:{ eapply Forall_impl; [|apply vpre_ge]. cbn. intros; lia. }
    cbn [forest]. replace (big =? l - 1) with false by lia. replace (big =? l) with false by lia.
    cbn [map]. rewrite gtree_node. reflexivity.
Qed.

Lemma chain_inj n m : map gtree (chain n) = map gtree (chain m) -> n = m.
Proof.
  revert m; induction n as [|n IH]; intros [|m] H; cbn [chain map] in H; try discriminate; [reflexivity|].
  f_equal. apply IH. rewrite !gtree_node in H. injection H as H.
  clear - H. remember (map gtree (chain n)) as a. remember (map gtree (chain m)) as b. clear - H.
  revert b H; induction a as [|x a IH]; intros [|y b] H; try discriminate; [reflexivity|].
  injection H as -> H. f_equal. apply IH. exact H.
Qed.

(** 2^21 nested nodes: the deepest one is written with a broken level and lost. *)
Lemma deep_chain E n : Z.of_nat n = 2 ^ 21 ->
  exists b, Binary E (Some (groot (chain n))) = Ok (Some b) /\
    forall fuel, (List.length b <= fuel)%nat -> FromBinary fuel b = Ok (Some (groot (chain (n - 1)))).
Proof.
  intros Hn. zpow. destruct n as [|n]; [lia|]. replace (S n - 1)%nat with n by lia.
  rewrite (Binary_shows E _ (chain (S n))) by (apply (gforest_shows E (S n)), chain_good).
  eexists. split; [reflexivity|]. intros fuel Hf.
  pose proof (good_forest_events _ _ (chain_good (S n)) 1) as H.
  set (evs := map (fun e => (reread (fst e), snd e)) (pres 1 (chain (S n)))).
  assert (Hw : wencs (pres 1 (chain (S n))) = encs evs).
  { apply wencs_fmt. eapply Forall_impl; [|exact H]. intros e [H1 _]. zpow. lia. }
  rewrite Hw in Hf |- *.
  assert (Hsplit : evs = pres 1 (chain n) ++ [(0xff0000, bs "a")]).
  { unfold evs. rewrite pres_chain_S, map_app. f_equal.
    - rewrite <- (map_id (pres 1 (chain n))) at 2. apply map_ext_in. intros [x s] Hin.
      pose proof (good_forest_events _ _ (chain_good n) 1) as H'. rewrite Forall_forall in H'.
      specialize (H' _ Hin). cbn [fst snd] in *. unfold reread. replace (x <? 2097152) with true by lia. reflexivity.
    - cbn [map fst snd]. replace (1 + Z.of_nat n) with 0x200000 by lia. reflexivity. }
  assert (Hok : Forall ev_ok evs).
  { rewrite Hsplit. apply Forall_app. split.
    - pose proof (good_forest_events _ _ (chain_good n) 1) as H'. eapply Forall_impl; [|exact H'].
      intros e [H1 H2]. split; [zpow; lia|exact H2].
    - constructor; [|constructor]. split; [cbn [fst]; zpow; lia|].
      repeat split; cbn; try discriminate. intros [Hx|[]]. discriminate. }
  unfold FromBinary. change (header_bytes ++ encs evs ++ [x00]) with
    (header_bytes ++ encs evs ++ [x00] ++ []).
  rewrite !app_length in Hf. cbn [List.length header_bytes] in Hf.
  rewrite parse_object; [|exact Hok|lia]. cbn [rbind]. f_equal. f_equal.
  rewrite Hsplit, map_app, (ev_val_pres 0 : forall f, map ev_val (pres 1 f) = _).
  change (map ev_val [(0xff0000, bs "a")]) with [(0xfeffff, @VStr graph (bs "a"))].
  unfold events_graph, groot. rewrite gforest_map. f_equal. f_equal.
  apply forest_far; lia.
Qed.

(** ** Sequences of objects *)
Lemma read_objects_fmt fs : forall r t n fuel,
  Forall (fun f => Forall ev_ok (pres 1 f) /\ (List.length (fmt_object f) <= fuel)%nat) fs ->
  exists m, read_objects fuel (List.length fs) (mkR (flat_map fmt_object fs ++ r) t n) =
  Ok (map (fun f => Some (groot f)) fs, mkR r t m).
Proof.
  induction fs as [|f fs IH]; intros r t n fuel H.
  - exists n. reflexivity.
  - inversion H as [|? ? [Hf1 Hf2] Hfs]; subst. cbn [List.length read_objects flat_map map].
    rewrite <- app_assoc, parse_fmt_object by assumption. cbn [rbind].
    destruct (IH r t (n + Z.of_nat (List.length (fmt_object f))) fuel Hfs) as [m Hm]. rewrite Hm.
    exists m. reflexivity.
Qed.

(** ** The writer uses the shortest form *)
Lemma varInt_bound b i m : varInt (mkR b TEof 0) = (i, mkR [] TEof m) -> 0 <= i ->
  i < 2 ^ (7 * Z.of_nat (List.length b)).
Proof.
  intros H Hi. destruct b as [|b0 b]; [cbn in H; inversion H; subst; lia|].
  rewrite varInt_unfold in H. unfold varInt_from in H. pose proof (bz_range b0) as R0.
  destruct (Z.ltb_spec (bz b0) 128) as [H0|H0].
  { inversion H; subst. cbn. lia. }
  assert (Hmod : forall k, 0 <= k -> 0 <= Z.land (bz b0) (2 ^ k - 1) < 2 ^ k).
  { intros k Hk. rewrite land_ones_mod by lia. apply Z.mod_pos_bound. lia. }
  destruct (Z.ltb_spec (bz b0) 192) as [H1|H1].
  { pose proof (Hmod 6 ltac:(lia)) as Hm. change (2 ^ 6 - 1) with 63 in Hm.
    destruct b as [|b1 b].
    { rewrite read_eof in H. rewrite Z.lor_m1_r in H. inversion H; subst; lia. }
    rewrite read_cons in H. pose proof (f_equal fst H) as Ei; pose proof (f_equal (fun x => rest (snd x)) H) as Eb; cbn [fst snd rest] in Ei, Eb; clear H; subst i b. pose proof (bz_range b1).
    rewrite lor_disjoint_add by lia. cbn [List.length]. change (7 * Z.of_nat 2) with 14. zpow. lia. }
  destruct (Z.ltb_spec (bz b0) 224) as [H2|H2].
  { pose proof (Hmod 5 ltac:(lia)) as Hm. change (2 ^ 5 - 1) with 31 in Hm.
    destruct b as [|b1 b].
    { rewrite !read_eof in H. rewrite Z.lor_m1_r in H. inversion H; subst; lia. }
    rewrite read_cons in H. destruct b as [|b2 b].
    { rewrite read_eof, Z.lor_m1_r in H. inversion H; subst; lia. }
    rewrite read_cons in H. pose proof (f_equal fst H) as Ei; pose proof (f_equal (fun x => rest (snd x)) H) as Eb; cbn [fst snd rest] in Ei, Eb; clear H; subst i b. pose proof (bz_range b1). pose proof (bz_range b2).
    rewrite <- Z.lor_assoc, (lor_disjoint_add _ (bz b2) 8) by (zpow; lia).
    rewrite lor_disjoint_add by (zpow; lia). cbn [List.length]. change (7 * Z.of_nat 3) with 21. zpow. lia. }
  destruct (Z.ltb_spec (bz b0) 240) as [H3|H3].
  2:{ inversion H; subst; lia. }
  pose proof (Hmod 4 ltac:(lia)) as Hm. change (2 ^ 4 - 1) with 15 in Hm.
  destruct b as [|b1 b].
  { rewrite !read_eof in H. rewrite Z.lor_m1_r in H. inversion H; subst; lia. }
  rewrite read_cons in H. destruct b as [|b2 b].
  { rewrite !read_eof, Z.lor_m1_r in H. inversion H; subst; lia. }
  rewrite read_cons in H. destruct b as [|b3 b].
  { rewrite read_eof, Z.lor_m1_r in H. inversion H; subst; lia. }
  rewrite read_cons in H. pose proof (f_equal fst H) as Ei; pose proof (f_equal (fun x => rest (snd x)) H) as Eb; cbn [fst snd rest] in Ei, Eb; clear H; subst i b. pose proof (bz_range b1). pose proof (bz_range b2). pose proof (bz_range b3).
  rewrite <- !Z.lor_assoc, (lor_disjoint_add _ (bz b3) 8) by (zpow; lia).
  rewrite (lor_disjoint_add _ _ 16) by (zpow; lia).
  rewrite lor_disjoint_add by (zpow; lia). cbn [List.length]. change (7 * Z.of_nat 4) with 28. zpow. lia.
Qed.

Lemma newVarInt_length i : List.length (newVarInt i) =
  if (i <? 0) || (2 ^ 28 <=? i) then 0%nat else List.length (fmt_varint i).
Proof.
  destruct (Z.ltb_spec i 0) as [H|H]; [rewrite newVarInt_out by lia; reflexivity|].
  destruct (Z.leb_spec (2 ^ 28) i) as [H'|H']; [rewrite newVarInt_out by lia; reflexivity|].
  cbn [orb]. rewrite newVarInt_fmt by lia. rewrite !fmt_varint_length. unfold reread. zpow.
  destruct (Z.ltb_spec i 2097152) as [H2|H2]; [replace (i <? 2097152) with true by lia; reflexivity|].
  replace (i <? 128) with false by lia. replace (i <? 16384) with false by lia.
  pose proof (Z.mod_pos_bound i 65536 ltac:(lia)).
  set (j := _ + _ + _). assert (2097152 <= j) by (unfold j; lia).
  replace (j <? 128) with false by lia. replace (j <? 16384) with false by lia.
  replace (j <? 2097152) with false by lia. reflexivity.
Qed.

Lemma shortest b i m : varInt (mkR b TEof 0) = (i, mkR [] TEof m) -> 0 <= i ->
  (List.length (newVarInt i) <= List.length b)%nat.
Proof.
  intros H Hi. pose proof (varInt_bound b i m H Hi) as Hb.
  rewrite newVarInt_length. destruct ((i <? 0) || (2 ^ 28 <=? i)); [lia|].
  rewrite fmt_varint_length. 
  destruct b as [|b0 [|b1 [|b2 [|b3 b]]]]; cbn [List.length] in *.
  - change (2 ^ (7 * Z.of_nat 0)) with 1 in Hb. cbn in H. inversion H. lia.
  - change (2 ^ (7 * Z.of_nat 1)) with 128 in Hb. replace (i <? 128) with true by lia. lia.
  - change (2 ^ (7 * Z.of_nat 2)) with 16384 in Hb. replace (i <? 16384) with true by lia. destruct (i <? 128); lia.
  - change (2 ^ (7 * Z.of_nat 3)) with 2097152 in Hb. replace (i <? 2097152) with true by lia.
    destruct (i <? 128); [lia|]. destruct (i <? 16384); lia.
  - destruct (i <? 128); [lia|]. destruct (i <? 16384); [lia|]. destruct (i <? 2097152); lia.
Qed.

(** ** Summary forms used by the property theorems *)

Lemma varint_exact i r t n : 0 <= i < 2 ^ 28 ->
  (fst (varInt (mkR (newVarInt i ++ r) t n)) = i <-> i < 2 ^ 21 \/ (i / 2 ^ 16) mod 2 ^ 8 = 0xff).
Proof.
  intro Hi. rewrite newVarInt_fmt by exact Hi. rewrite varInt_fmt.
  - cbn [fst]. apply reread_exact. exact Hi.
  - unfold reread. zpow. destruct (Z.ltb_spec i 2097152); [lia|].
    pose proof (Z.mod_pos_bound i 65536 ltac:(lia)). lia.
Qed.

Lemma varint_good i r t n : 0 <= i < 2 ^ 21 ->
  varInt (mkR (newVarInt i ++ r) t n) = (i, mkR r t (n + Z.of_nat (List.length (newVarInt i)))).
Proof. intro Hi. rewrite newVarInt_good by exact Hi. apply varInt_fmt. zpow. lia. Qed.

Lemma header_iff fuel b : (exists g, FromBinary fuel b = Ok g) ->
  (FromBinary fuel b = Ok None <-> ~ exists r, b = header_bytes ++ r).
Proof.
  intros [g Hg]. split.
  - intros H [r ->]. exact (FromBinary_header _ _ H).
  - intro H. apply FromBinary_None. intros r Hr. apply H. exists r. exact Hr.
Qed.

Lemma depth_needed E n : Z.of_nat n = 2 ^ 21 ->
  exists g f, shows E (out g) f /\ good_forest n f /\
  exists b g', Binary E (Some g) = Ok (Some b) /\
    (forall fuel, (List.length b <= fuel)%nat -> FromBinary fuel b = Ok g') /\
    g' <> Some (groot f).
Proof.
  intro Hn.
  exists (groot (chain n)), (chain n). split; [apply (gforest_shows E n), chain_good|]. split; [apply chain_good|].
  destruct (deep_chain E n Hn) as (b & Hb & Hfb). exists b, (Some (groot (chain (n - 1)))).
  split; [exact Hb|]. split; [exact Hfb|]. intro Hx. injection Hx as Hx. rewrite !gforest_map in Hx.
  assert (Hi : forall (a b : list graph), map Some a = map Some b -> a = b).
  { clear. induction a as [|x a IH]; intros [|y b] H; try discriminate; [reflexivity|]. injection H as -> H. f_equal. auto. }
  apply Hi, chain_inj in Hx. zpow. lia.
Qed.
