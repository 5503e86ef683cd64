(** A name at the end of a text longer than the buffer: Token8 goes on into bytes that an
    earlier part of the text left in the buffer. *)
From Verif Require Import Base Value Event EventFacts Lexer TextParser Stream Buffer BufferSpec BufferFacts BufferFacts2 Wp TextTerm TextDoc GraphSpec PathParser PathTerm PathSpec WpLong PathFacts Graph Emit Eval Template TemplateSpec TemplateFacts.

Local Notation len l := (Z.of_nat (List.length l)).

Lemma nth_skip {A} n : forall (l : list A) m, nth_error (skipn n l) m = nth_error l (n + m).
Proof. induction n as [|n IH]; intros [|a l] m; cbn; try reflexivity; [destruct m; reflexivity|apply IH]. Qed.

Section Stale.
Variable E : env.
Variable N : nat.
(** The whole text, the byte 2048 before its end and the one after that *)
Variables (s0 A B : bytes) (y d : byte).
Hypothesis Hs0 : s0 = A ++ y :: d :: B.
Hypothesis HB : len (y :: d :: B) = 2048.
Hypothesis Hmod : len s0 mod 2048 <> 2047.
Hypothesis Hy : name_char y = true.
Hypothesis Hd : bz d < 128 /\ name_char d = false.

(** What the buffer holds: the text from some multiple of 2048 on; after the end of the
    text, what is 2048 bytes earlier. *)
Definition rest_of (rd : reader) (w : bytes) : Prop := rd = [] /\ w = [] \/ rd = [(w, false)] /\ w <> [].
Definition held (x : lexer) : Prop :=
  len (buf x) = 4096 /\ 2048 <= last x <= 4096 /\
  exists pre w, s0 = pre ++ firstn (Z.to_nat (last x)) (buf x) ++ w /\ len pre mod 2048 = 0 /\ rest_of (rd x) w /\
    (last x < 4096 -> w = [] /\ forall i, last x <= Z.of_nat i < 4096 -> nth_error (buf x) i = nth_error (buf x) (i - Z.to_nat 2048)).

Lemma held_r x r : held x -> held (mkX (buf x) (rd x) r (last x)).
Proof. exact (fun H => H). Qed.

Lemma held_refill b rd : held (mkX b rd 4096 4096) -> held (fill (mkX b rd 4096 4096)).
Proof.
  intros (Hb & _ & pre & w & Hs & Hp & Hw & _). cbn [buf Buffer.rd last] in *. rewrite firstn_all2 in Hs by lia.
  unfold fill. cbn [r_ buf Buffer.rd]. change ((0 <=? 4096) && (4096 <? bufSize)) with false. change (0 <=? 4096) with true. cbn iota. unfold halfSize.
  set (up := skipn (Z.to_nat 2048) b). assert (Hup : List.length up = Z.to_nat 2048) by (unfold up; rewrite skipn_length; lia).
  assert (Hb2 : b = firstn (Z.to_nat 2048) b ++ up) by (symmetry; apply firstn_skipn).
  assert (HF : exists e w' rd', fill_loop 100 (up ++ up) rd 2048 = (up ++ e ++ skipn (List.length e) up, rd', 2048 + len e) /\ w = e ++ w' /\ len e <= 2048 /\ rest_of rd' w' /\ (len e < 2048 -> w' = [])).
  { assert (Hput : forall e, len e <= 2048 -> Buffer.put 2048 e (up ++ up) = up ++ e ++ skipn (List.length e) up).
    { intros e He. unfold Buffer.put. rewrite firstn_app, firstn_all2, (proj2 (Nat.sub_0_le _ _)), firstn_O, app_nil_r, skipn_app, skipn_all2 by lia. cbn [app]. do 2 f_equal. f_equal. lia. }
    rewrite (fill_loop_S 99). change (bufSize - 2048) with 2048. destruct Hw as [(-> & ->)|(-> & Hne)]; cbn [rd_read].
    - exists [], [], []. cbv zeta. rewrite Hput by (cbn; lia). cbn [List.length]. rewrite Z.add_0_r. split; [reflexivity|]. split; [reflexivity|]. split; [cbn; lia|]. split; [left; auto|auto].
    - destruct (Z.leb_spec (len w) 2048) as [Hl|Hl]; cbv zeta.
      + exists w, [], []. rewrite Hput by lia. unfold halfSize. replace (2048 <=? 2048 + len w) with true by lia. split; [reflexivity|]. split; [rewrite app_nil_r; reflexivity|]. split; [lia|]. split; [left; auto|auto].
      + exists (firstn (Z.to_nat 2048) w), (skipn (Z.to_nat 2048) w), [(skipn (Z.to_nat 2048) w, false)]. assert (Hf : len (firstn (Z.to_nat 2048) w) = 2048) by (rewrite firstn_length; lia).
        rewrite Hput by lia. unfold halfSize. replace (2048 <=? 2048 + len (firstn (Z.to_nat 2048) w)) with true by lia. split; [reflexivity|].
        split; [symmetry; apply firstn_skipn|]. split; [lia|]. split; [|lia]. right. split; [reflexivity|]. intro K. apply (f_equal (@List.length byte)) in K. rewrite skipn_length in K. cbn in K. lia. }
  destruct HF as (e & w' & rd' & -> & -> & He & Hr' & He'). unfold held. cbn [buf Buffer.rd last].
  split; [rewrite !app_length, skipn_length; lia|]. split; [lia|]. exists (pre ++ firstn (Z.to_nat 2048) b), w'.
  split; [|split; [|split; [exact Hr'|]]].
  - replace (Z.to_nat (2048 + len e)) with (List.length (up ++ e) + 0)%nat by (rewrite app_length; lia). rewrite (app_assoc up), firstn_app_2, firstn_O, app_nil_r.
    rewrite Hs, Hb2 at 1. rewrite <- !app_assoc. reflexivity.
  - rewrite app_length, firstn_length, Nat.min_l by lia. rewrite Nat2Z.inj_add, Z2Nat.id by lia. rewrite <- Z.add_mod_idemp_l, Hp by lia. reflexivity.
  - intro Hl. split; [apply He'; lia|]. intros i Hi. rewrite app_assoc, nth_error_app2 by (rewrite app_length; lia).
    rewrite (nth_error_app1 (up ++ e)) by (rewrite app_length; lia). rewrite (nth_error_app1 up) by lia.
    rewrite nth_skip. f_equal. rewrite app_length. lia.
Qed.

Lemma held_byte x s c ok x' : repr x s -> held x -> b_byte x = Ok (c, ok, x') -> held x'.
Proof.
  intros (Hbuf & Hlast & Hr & Hfut & Hpast & Hov & Hnov) Hh. unfold b_byte. unfold bufSize at 1.
  destruct ((last x <? 4096) && (last x <=? r_ x)) eqn:Ee; [intro K; injection K as <- <- <-; apply held_r, Hh|].
  destruct (zget (buf x) (r_ x)) as [c'| |]; try discriminate. cbn [rbind]. intro K. injection K as _ _ <-.
  destruct (Z.ltb_spec (r_ x + 1) 4096) as [Hi|Hi]; [rewrite fill_in by (cbn; lia); apply held_r, Hh|].
  assert (K : r_ x = 4095 /\ last x = 4096).
  { destruct (over s) eqn:Eo; [specialize (Hov eq_refl); lia|specialize (Hnov eq_refl); lia]. }
  destruct K as (-> & Hl). rewrite Hl. change (4095 + 1) with 4096. apply held_refill. rewrite <- Hl at 2. apply held_r, Hh.
Qed.
Lemma held_unread x : held x -> held (b_unread x).
Proof. intro H. unfold b_unread. destruct (r_ x <=? 0); [exact H|apply held_r, H]. Qed.
Lemma held_start : 4096 < len s0 -> held (NewLexer (bytes_reader s0)).
Proof.
  clear Hd Hy Hmod HB Hs0 d y B A. intro Hl. destruct s0 as [|c s] eqn:Es; [cbn in Hl; lia|]. rewrite <- Es in *. unfold NewLexer, fill. cbn [r_ Buffer.rd buf]. change ((0 <=? -1) && (-1 <? bufSize)) with false. change (0 <=? -1) with false. cbn iota.
  replace (bytes_reader s0) with [(s0, false)] by (rewrite Es; reflexivity).
  rewrite (fill_loop_S 99). change (bufSize - 0) with 4096. cbn [rd_read]. replace (len s0 <=? 4096) with false by lia. cbv zeta.
  assert (Hf : len (firstn (Z.to_nat 4096) s0) = 4096) by (rewrite firstn_length; lia). rewrite Hf. unfold halfSize. change (2048 <=? 0 + 4096) with true. cbn iota.
  assert (Hp : Buffer.put 0 (firstn (Z.to_nat 4096) s0) (repeat x00 (Z.to_nat bufSize)) = firstn (Z.to_nat 4096) s0).
  { unfold Buffer.put. change (Z.to_nat 0) with O. cbn [firstn app]. rewrite skipn_all2, app_nil_r; [reflexivity|]. rewrite repeat_length. unfold bufSize. lia. }
  rewrite Hp. unfold held. cbn [buf Buffer.rd last]. split; [exact Hf|]. split; [lia|]. exists [], (skipn (Z.to_nat 4096) s0).
  split; [|split; [reflexivity|split; [|lia]]].
  - cbn [app]. rewrite firstn_firstn, Nat.min_l by lia. symmetry. apply firstn_skipn.
  - right. split; [reflexivity|]. intro K. apply (f_equal (@List.length byte)) in K. rewrite skipn_length in K. cbn in K. lia.
Qed.

(** Token8 on a name that ends the text *)
Lemma held_token w : forall f tok x s, repr x s -> held x -> over s = false -> fut s = w -> Forall (fun c => name_char c = true) w -> (S (List.length w) < f)%nat ->
  exists x' s', b_token E f tok x = Ok (tok ++ w ++ [y], x') /\ repr x' s' /\ held x' /\ fut s' = [] /\ over s' = true.
Proof.
  induction w as [|a w IH]; intros f tok x s Hr Hh Ho Ef Hw Hf; (destruct f as [|f]; [lia|]); cbn [b_token app].
  - destruct f as [|f]; [cbn in Hf; lia|]. destruct Hh as (H1 & H2 & pre & w & Hs & Hp & Hw0 & Hst).
    destruct Hr as (Hbuf & Hlast & Hr & Hfut & Hpast & Hov & Hnov). destruct (Hnov Ho) as (R1 & R2).
    rewrite Ef in Hfut. symmetry in Hfut. apply app_eq_nil in Hfut as (F1 & F2). apply (f_equal (@List.length byte)) in F1. rewrite skipn_length, firstn_length in F1. cbn in F1.
    assert (Hl : r_ x = last x) by lia. assert (Hl2 : last x < 4096) by lia. destruct (Hst Hl2) as (-> & Hold). rewrite app_nil_r in Hs.
    assert (Hln : len s0 = len pre + last x) by (rewrite Hs, app_length, firstn_length, Nat.min_l by lia; lia).
    assert (Hl3 : last x < 4095).
    { assert (last x <> 4095); [|lia]. intro K. apply Hmod. rewrite Hln, K. rewrite <- Z.add_mod_idemp_l, Hp by lia. reflexivity. }
    assert (HA : len A = len s0 - 2048) by (rewrite Hs0, app_length; lia).
    assert (Hget : forall j c, nth_error (y :: d :: B) j = Some c -> (j < 2)%nat -> zget (buf x) (last x + Z.of_nat j) = Ok c).
    { clear - Hold HA Hs Hs0 Hln Hl2 Hl3 H2 HB. intros j c Hj Hj2. unfold zget. replace (last x + Z.of_nat j <? 0) with false by lia. replace (Z.to_nat (last x + Z.of_nat j)) with (Z.to_nat (last x) + j)%nat by lia.
      rewrite Hold by lia. rewrite <- (nth_firstn _ (Z.to_nat (last x))) by lia.
      replace (Z.to_nat (last x) + j - Z.to_nat 2048)%nat with (List.length A + j - List.length pre)%nat by lia.
      rewrite <- (nth_error_app2 pre) by lia. rewrite <- Hs, Hs0. rewrite nth_error_app2 by lia.
      replace (List.length A + j - List.length A)%nat with j by lia. rewrite Hj. reflexivity. }
    pose proof (Hget 0%nat y eq_refl ltac:(lia)) as G0. pose proof (Hget 1%nat d eq_refl ltac:(lia)) as G1. rewrite Z.add_0_r in G0. change (Z.of_nat 1) with 1 in G1.
    pose proof (name_char_ascii y Hy) as Hy2. destruct Hd as (Hd1 & Hd2).
    unfold b_rune at 1. rewrite fill_in by lia. rewrite Hl, G0. cbn [rbind]. replace (bz y <? 128) with true by lia. cbn [rbind]. rewrite (ascii_name_token E y Hy2), Hy.
    cbn [b_token]. unfold b_rune at 1. rewrite fill_in by (cbn; lia). cbn [buf r_ last Buffer.rd]. rewrite G1. cbn [rbind]. replace (bz d <? 128) with true by lia. cbn [rbind]. rewrite (ascii_name_token E d Hd1), Hd2.
    rewrite (encode_ascii y Hy2). cbn [buf r_ last Buffer.rd]. replace (last x + 1 + 1 - 1) with (last x + 1) by lia.
    exists (mkX (buf x) (rd x) (last x + 1) (last x)), (mkS (past s) [] true). split; [reflexivity|]. split; [|split; [|split; reflexivity]].
    + unfold repr. cbn [buf Buffer.rd r_ last past fut over]. split; [exact Hbuf|]. split; [lia|]. split; [lia|]. split; [|split; [|split; [intros _; lia|discriminate]]].
      * replace (last x =? 4096) with false by lia. rewrite app_nil_r, skipn_all2; [reflexivity|]. rewrite firstn_length. lia.
      * rewrite Hpast. f_equal. f_equal. lia.
    + split; [exact H1|]. split; [exact H2|]. exists pre, []. cbn [buf Buffer.rd last]. rewrite app_nil_r. auto.
  - inversion Hw as [|? ? Ha Hw']; subst. pose proof (name_char_ascii a Ha) as Ha2.
    destruct (repr_rune x s a w Hr Ef Ha2) as (E1 & E2). rewrite E1. cbn [rbind]. rewrite (ascii_name_token E a Ha2), Ha.
    pose proof (repr_byte x s Hr) as Hb. unfold s_byte in Hb. rewrite Ef in Hb. destruct Hb as (x' & s'' & Ex & (Hc1 & Hc2 & _) & Hr').
    pose proof (held_byte x s _ _ _ Hr Hh Ex) as Hh'. rewrite E2 in Ex. injection Ex as <-. cbn [fut over] in *.
    assert (Hff : fill (fill (mkX (buf x) (rd x) (r_ x + 1) (last x))) = fill (mkX (buf x) (rd x) (r_ x + 1) (last x))).
    { apply fill_in. destruct Hr' as (_ & _ & K1 & _ & _ & _ & K2). specialize (K2 Hc2). lia. }
    assert (Hbt : b_token E f (tok ++ encode_rune (bz a)) (mkX (buf x) (rd x) (r_ x + 1) (last x)) = b_token E f (tok ++ encode_rune (bz a)) (fill (mkX (buf x) (rd x) (r_ x + 1) (last x)))).
    { destruct f as [|f]; [reflexivity|]. cbn [b_token]. unfold b_rune. rewrite Hff. reflexivity. }
    rewrite Hbt. destruct (IH f (tok ++ encode_rune (bz a)) _ s'' Hr' Hh' Hc2 Hc1 Hw' ltac:(cbn in Hf; lia)) as (x2 & s2 & T1 & T2 & T3 & T4 & T5).
    exists x2, s2. rewrite T1, (encode_ascii a Ha2), <- app_assoc. auto.
Qed.

(** Programs that read one token, at the end *)
Fixpoint wps {R} (m : prog R) (s : stream) (h : handler) (Q : R -> stream -> handler -> Prop) : Prop :=
  match m with
  | Ret a => Q a s h
  | GetB k => forall s', cut (snd (s_byte s)) s' -> wps (k (fst (fst (s_byte s))) (snd (fst (s_byte s)))) s' h Q
  | UnB k => wps k (s_unread s) h Q
  | Tok k => over s = false /\ Forall (fun c => name_char c = true) (fut s) /\ (S (List.length (fut s)) < N)%nat /\
      forall s', fut s' = [] -> over s' = true -> wps (k (fut s ++ [y])) s' h Q
  | Ev o k => exists h', h_step o h = Ok h' /\ wps k s h' Q
  | Lvl k => wps (k (cur h)) s h Q
  | Stop => False
  end.
Lemma wps_sound {R} (m : prog R) : forall x s h Q, repr x s -> held x -> wps m s h Q ->
  exists a x' s' h', run_buf E N m x h = Ok (a, x', h') /\ repr x' s' /\ Q a s' h'.
Proof.
  induction m as [a|k IH|k IH|k IH|o k IH|k IH|]; intros x s h Q Hr Hh Hw; cbn [run_buf wps] in *.
  - exists a, x, s, h. auto.
  - pose proof (repr_byte x s Hr) as Hb. destruct (s_byte s) as [[c ok] s']. cbn [fst snd] in Hw.
    destruct Hb as (x' & s'' & Ex & Hc & Hr'). pose proof (held_byte x s _ _ _ Hr Hh Ex) as Hh'. rewrite Ex. cbn [rbind]. exact (IH c ok x' s'' h Q Hr' Hh' (Hw s'' Hc)).
  - apply (IH _ (s_unread s)); [apply repr_unread, Hr|apply held_unread, Hh|exact Hw].
  - destruct Hw as (Ho & Hn & Hl & K). destruct (held_token (fut s) N [] x s Hr Hh Ho eq_refl Hn Hl) as (x' & s' & Et & Hr' & Hh' & Ef' & Eo').
    rewrite Et. cbn [rbind app]. exact (IH _ x' s' h Q Hr' Hh' (K s' Ef' Eo')).
  - destruct Hw as (h' & -> & Hw). cbn [rbind]. apply (IH x s h' Q Hr Hh Hw).
  - apply (IH (cur h) x s h Q Hr Hh Hw).
  - contradiction.
Qed.
Lemma wps_of_wp {R} (m : prog R) : forall s h (Q : R -> stream -> handler -> Prop), wp m s h Q -> wps m s h Q.
Proof.
  induction m as [a|k IH|k IH|k IH|o k IH|k IH|]; intros s h Q Hw; cbn [wps wp] in *; auto; try contradiction.
  destruct Hw as (h' & He & Hw). exists h'. auto.
Qed.
Lemma wps_bind {R1 R2} (m : prog R1) (f : R1 -> prog R2) : forall s h Q,
  wps m s h (fun a s h => wps (f a) s h Q) -> wps (pbind m f) s h Q.
Proof.
  induction m as [a|k IH|k IH|k IH|o k IH|k IH|]; intros s h Q Hw; cbn [wps pbind] in *; auto.
  - destruct Hw as (H1 & H2 & H3 & K). split; [exact H1|]. split; [exact H2|]. split; [exact H3|]. intros s' Hf Ho. apply IH, K; assumption.
  - destruct Hw as (h' & He & Hw). exists h'. auto.
Qed.
Lemma s_get {R} (K : byte -> bool -> prog R) s c w h Q : at_ s (c :: w) -> (forall p, wps (K c true) (mkS (c :: p) w false) h Q) -> wps (GetB K) s h Q.
Proof.
  intros (Hg & Hf) H. change (wps (pbind (GetB (fun c ok => Ret (c, ok))) (fun x => K (fst x) (snd x))) s h Q). apply wps_bind, wps_of_wp.
  destruct s as [P f o]. cbn [fut] in Hf. subst f. apply wp_get. intros k _. apply H.
Qed.
Lemma s_get_end {R} (K : byte -> bool -> prog R) s h Q : fut s = [] -> (forall p, wps (K x00 false) (mkS p [] true) h Q) -> wps (GetB K) s h Q.
Proof.
  intros Hf H. change (wps (pbind (GetB (fun c ok => Ret (c, ok))) (fun x => K (fst x) (snd x))) s h Q). apply wps_bind, wps_of_wp.
  destruct s as [P f o]. cbn [fut] in Hf. subst f. apply wp_get_end. intros k _. apply H.
Qed.
Lemma s_un {R} (K : prog R) p c w h Q : (forall s, at_ s (c :: w) -> over s = false -> wps K s h Q) -> wps (UnB K) (mkS (c :: p) w false) h Q.
Proof. intro H. apply H; [apply at_mk|reflexivity]. Qed.
Lemma s_un_end {R} (K : prog R) p h Q : (forall s, at_ s [] -> wps K s h Q) -> wps (UnB K) (mkS p [] true) h Q.
Proof. intro H. apply H, at_mk. Qed.
Lemma s_lvl {R} (K : Z -> prog R) s h Q : wps (K (cur h)) s h Q -> wps (Lvl K) s h Q.
Proof. auto. Qed.
Lemma s_ev {R} o (K : prog R) s h h' Q : h_step o h = Ok h' -> wps K s h' Q -> wps (Ev o K) s h Q.
Proof. intros H1 H2. exists h'. auto. Qed.
Lemma s_ret {R} (a : R) s h (Q : R -> stream -> handler -> Prop) : Q a s h -> wps (Ret a) s h Q.
Proof. auto. Qed.
Lemma s_span F p w s r h (Q : bytes -> stream -> handler -> Prop) : p x00 = false -> at_ s (w ++ r) -> Forall (fun c => p c = true) w -> stops p r -> (List.length w < F)%nat ->
  (forall s', at_ s' r -> Q w s' h) -> wps (span F p []) s h Q.
Proof.
  intros Hp (Hg & Hf) Hw Hr HF HQ. apply wps_of_wp, (wp_span p w F [] s r); auto.
  intros s' Hm _. apply HQ. split; [apply (moved_good _ _ _ Hm)|]. pose proof (moved_fut _ _ _ Hm) as Hx. rewrite Hf in Hx. apply app_inv_head in Hx. auto.
Qed.

(** The template: text and a variable at its end *)
Lemma s_template F t c w m s : (1 < F)%nat -> t <> [] -> Forall template_char t -> Forall (fun c => name_char c = true) (c :: w) -> (S (List.length (c :: w)) < N)%nat -> (List.length t < F)%nat ->
  at_ s (t ++ "$"%byte :: c :: w) ->
  wps (Template F (3 + m)) s h_init (fun _ _ h => adds h_init [T t []; T (bs "!p") [T ((c :: w) ++ [y]) []]] h).
Proof.
  clear Hd Hy Hmod HB Hs0 d B A s0. intros HF Hne Ht Hw HN Hl Ha. inversion Hw as [|? ? Hc Hw']; subst. cbn [Nat.add Template]. apply wps_bind. unfold TemplateText.
  apply (s_span F is_template_text t s ("$"%byte :: c :: w)); auto; [eapply Forall_impl; [|exact Ht]; intros a; apply template_text|reflexivity|]. intros s1 H1.
  destruct t as [|b t]; [congruence|]. cbn [emit pbind]. apply (s_ev _ _ _ _ (h_add (VStr (b :: t)) h_init)); [reflexivity|]. cbn [pbind].
  pose proof (adds_leaf h_init (b :: t) h_init_inv) as A1. set (h1 := h_add (VStr (b :: t)) h_init) in *.
  apply wps_bind. apply (s_span F is_template_text [] s1 ("$"%byte :: c :: w)); auto; [reflexivity|cbn; lia|]. intros s2 H2.
  apply wps_bind. unfold Variable_, Byte_. cbn [pbind]. eapply s_get; [exact H2|]. intro p. change (negb (beq "$" "$")) with false. cbn iota. cbn [pbind].
  eapply s_get; [apply at_mk|]. intro p2.
  assert (C1 : beq c "\" = false) by (destruct (beq_spec c "\") as [->|]; [discriminate Hc|reflexivity]).
  assert (C2 : beq c "(" = false) by (destruct (beq_spec c "(") as [->|]; [discriminate Hc|reflexivity]).
  assert (C3 : beq c "{" = false) by (destruct (beq_spec c "{") as [->|]; [discriminate Hc|reflexivity]).
  rewrite C1. apply s_un. intros s3 H3 _. unfold Level. cbn [pbind]. apply s_lvl. eapply s_get; [exact H3|]. intro p3. rewrite C2, C3. cbn [pbind emit].
  eapply s_ev; [reflexivity|]. cbn [ev pbind]. eapply s_ev; [reflexivity|]. cbn [pbind].
  apply s_un. intros s4 H4 O4. cbn [pbind]. unfold Path. destruct F as [|[|F]]; try lia. rewrite path_loop_S. cbn [pbind]. unfold path_body.
  apply wps_bind. apply wps_bind. unfold Quoted, Byte_. cbn [pbind]. eapply s_get; [exact H4|]. intro p4.
  assert (Hq : is_quote c = false) by exact (letters_no_quote c w (or_introl Hc)). rewrite Hq. cbn [negb]. apply s_un. intros s5 H5 O5. cbn [wps].
  destruct H5 as (G5 & F5). rewrite F5. split; [exact O5|]. split; [exact Hw|]. split; [exact HN|]. intros s6 F6 O6. cbn [app emit pbind].
  eapply s_ev; [reflexivity|]. cbn [pbind]. rewrite path_loop_S. cbn [pbind]. apply wps_bind. apply wps_bind. unfold Byte_. apply s_get_end; [exact F6|]. intro p6.
  apply s_ret. change (beq x00 ".") with false. cbn iota. apply s_un_end. intros s7 H7. apply s_ret. change (beq x00 "[" || beq x00 "(" || beq x00 "{") with false. cbn iota. apply s_ret. unfold ev. cbn [pbind].
  eapply s_ev; [reflexivity|].
  assert (A2 : adds h_init [T (b :: t) []; T (bs "!p") [T (c :: w ++ [y]) []]] (h_set_level (cur h1) (h_add (VStr (c :: w ++ [y])) (h_inc (h_add (VStr (bs "!p")) h1))))).
  { apply (adds_app _ [T (b :: t) []] h1 [T (bs "!p") [T (c :: w ++ [y]) []]]); [exact A1|]. apply adds_set; [exact (adds_inv _ _ _ A1)|].
    apply adds_leaf, under_inv. exact (adds_inv _ _ _ A1). }
  cbn [Template]. apply wps_bind. unfold TemplateText. apply (s_span (S (S F)) is_template_text [] s7 []); auto; [exact I|cbn; lia|]. intros s8 H8.
  apply s_get_end; [exact (proj2 H8)|]. intro p8. change (negb (beq x00 "$")) with true. cbn iota. cbn [pbind]. apply s_un_end. intros s9 H9. exact A2.
Qed.
End Stale.

(** The template parsed is the one whose last name is continued with the byte y. *)
Lemma NewTemplate_stale E fuel A B y d t x : let s := t ++ "$"%byte :: x in
  s = A ++ y :: d :: B -> len (y :: d :: B) = 2048 -> 4096 < len s -> len s mod 2048 <> 2047 ->
  name_char y = true -> bz d < 128 -> name_char d = false -> t <> [] -> Forall template_char t -> x <> [] -> Forall (fun c => name_char c = true) x ->
  wf E (TText t (TVar [Name (x ++ [y])] TEnd)) -> (List.length s + 3 <= fuel)%nat ->
  NewTemplate E fuel s = Ok (Node (VStr []) (gforest (nodes (TText t (TVar [Name (x ++ [y])] TEnd))))).
Proof.
  intros s Hs HB Hl Hm Hy Hd1 Hd2 Hne Ht Hxne Hx Hw Hf. destruct x as [|c w]; [congruence|]. unfold NewTemplate.
  assert (Hls : List.length s = (List.length t + S (List.length (c :: w)))%nat) by (unfold s; rewrite app_length; reflexivity).
  pose proof (NewLexer_repr (bytes_reader s)) as Hr. rewrite seen_bytes in Hr.
  replace fuel with (3 + (fuel - 3))%nat at 3 by lia.
  destruct (wps_sound E fuel s A B y d Hs HB Hm Hy (conj Hd1 Hd2) (Template fuel (3 + (fuel - 3))) _ _ h_init (fun _ _ h => adds h_init [T t []; T (bs "!p") [T ((c :: w) ++ [y]) []]] h) Hr) as (a & x' & s' & h' & Hrun & _ & Hh).
  - apply held_start, Hl.
  - apply s_template; auto; try lia. apply at_mk.
  - rewrite Hrun. cbn [rbind]. rewrite (adds_Tree _ _ Hh). cbn [rbind].
    exact (nest_spec E (TText t (TVar [Name ((c :: w) ++ [y])] TEnd)) Hw).
Qed.
