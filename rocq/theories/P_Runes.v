(** C75: runes. *)
From Verif Require Import Base Value Event EventSpec EventFacts Lexer TextParser Stream Buffer BufferSpec BufferFacts BufferFacts2 Wp TextTerm TextSpec TextDoc PathSpec WpLong PathFacts Runes RunesSpec Samples.
Local Notation len l := (Z.of_nat (List.length l)).

(** ** C75 Full claim: Rune reads the characters of a text in UTF-8 one after the other,
    UnreadRune goes back by one, PeekRune reads without going on.  Here: texts up to 4094
    bytes, and longer ones that are aligned with the buffer, with UnreadRune near the furthest position. *)
Lemma utf8_len r w : utf8 r w -> 1 <= len w.
Proof. destruct 1; cbn; lia. Qed.
(** Where the lexer is: the text before the position is the characters of d, after it those of t. *)
Definition at_rune (d t : list Z) (x : rlexer) : Prop :=
  exists ws f, Forall2 utf8 d ws /\ encodes t f /\ sizes x = map (fun w => len w) ws /\ sim0 (mkS (rev (List.concat (rev ws))) f false) (lx x).
Lemma at_step d r t x : at_rune d (r :: t) x -> exists n x', b_rune (lx x) = Ok (r, n, x') /\ at_rune (r :: d) t (mkR x' (n :: sizes x)) /\ mkX (buf x') (rd x') (r_ x' - n) (last x') = lx x.
Proof.
  intros (ws & f & Hd & Ht & Hs & H0). inversion Ht as [|r' w t' s' Hu Ht']; subst. pose proof (sim0_rune _ _ H0) as Hr. cbn [fut] in Hr. pose proof (utf8_len r w Hu) as Hlw.
  destruct w as [|c w]; [cbn in Hlw; lia|]. cbn [app] in Hr. change (c :: w ++ s') with ((c :: w) ++ s') in Hr. rewrite (decode_utf8 r (c :: w) s' Hu) in Hr. cbn [fst snd] in Hr.
  exists (len (c :: w)), (mkX (buf (lx x)) (rd (lx x)) (r_ (lx x) + len (c :: w)) (last (lx x))). split; [exact Hr|]. split.
  - exists ((c :: w) :: ws), s'. split; [constructor; assumption|]. split; [exact Ht'|]. split; [cbn [map sizes]; rewrite Hs; reflexivity|].
    destruct H0 as (H1 & H2 & H3 & H4 & H5). unfold sim0. cbn [past fut over lx buf last r_ rev] in *. rewrite concat_app. cbn [List.concat]. rewrite app_nil_r.
    rewrite rev_involutive in *. rewrite <- app_assoc. unfold ov in *. cbn [over] in *.
    repeat split; [exact H1|exact H2|exact H3| |discriminate]. rewrite H4, !rev_length, app_length. cbn [List.length]. lia.
  - cbn [buf rd r_ last]. destruct (lx x) as [b rd0 p la]. cbn [buf rd r_ last]. f_equal. lia.
Qed.
Lemma at_back d r t x : at_rune (r :: d) t x -> exists n l, sizes x = n :: l /\ at_rune d (r :: t) (mkR (mkX (buf (lx x)) (rd (lx x)) (r_ (lx x) - n) (last (lx x))) l).
Proof.
  intros (ws & f & Hd & Ht & Hs & H0). inversion Hd as [|r' w d' ws' Hu Hd']; subst. cbn [map] in Hs. exists (len w), (map (fun w => len w) ws'). split; [exact Hs|].
  exists ws', (w ++ f). split; [exact Hd'|]. split; [constructor; assumption|]. split; [reflexivity|].
  destruct H0 as (H1 & H2 & H3 & H4 & H5). unfold sim0. cbn [past fut over lx buf last r_ rev] in *. rewrite concat_app in *. cbn [List.concat] in *. rewrite app_nil_r in *.
  rewrite rev_involutive in *. rewrite <- ?app_assoc in *. unfold ov in *. cbn [over] in *.
  repeat split; [exact H1|exact H2|exact H3| |discriminate]. rewrite H4, !rev_length, app_length. lia.
Qed.
Lemma at_first t x : at_rune [] t x -> sizes x = [].
Proof. intros (ws & f & Hd & Ht & Hs & H0). inversion Hd; subst. exact Hs. Qed.
Theorem C75_runes_partial : forall rs s cs l, encodes rs s -> len s <= 4094 -> ranswers [] rs cs l -> runes_of s cs = Ok l.
Proof.
  intros rs s cs l He Hs Hl. unfold runes_of.
  assert (H0 : at_rune [] rs (mkR (NewLexer (bytes_reader s)) [])).
  { exists [], s. split; [constructor|]. split; [exact He|]. split; [reflexivity|]. cbn [rev List.concat lx]. apply NewLexer_sim0. exact Hs. }
  clear He Hs. revert H0. generalize (mkR (NewLexer (bytes_reader s)) []). induction Hl as [d t|d r t cs l Hl IH|d r t cs l Hl IH|d r t cs l Hl IH|t cs l Hl IH]; intros x H0; cbn [rsession].
  - reflexivity.
  - destruct (at_step d r t x H0) as (n & x' & Hr & H1 & _). unfold Rune. rewrite Hr. cbn [rbind]. rewrite (IH _ H1). reflexivity.
  - destruct (at_step d r t x H0) as (n & x' & Hr & _ & H1). unfold PeekRune, Rune. rewrite Hr. cbn [rbind UnreadRune sizes lx]. rewrite H1. destruct x as [lx0 sz]. cbn [lx sizes] in *. rewrite (IH _ H0). reflexivity.
  - destruct (at_back d r t x H0) as (n & l' & Hs & H1). unfold UnreadRune. rewrite Hs. rewrite (IH _ H1). reflexivity.
  - unfold UnreadRune. rewrite (at_first t x H0). rewrite (IH _ H0). reflexivity.
Qed.
Print Assumptions C75_runes_partial.
Example C75_ex : encodes [97; 233; 8364] [x61; xc3; xa9; xe2; x82; xac] /\
  ranswers [] [97; 233; 8364] [RUnrune; RRune; RPeek; RRune; RUnrune; RRune; RRune] [ADone false; ARune 97; APeeked 233 true; ARune 233; ADone true; ARune 233; ARune 8364].
Proof.
  split; [|repeat constructor]. apply (encodes_cons 97 [x61]); [apply (utf8_1 x61); reflexivity|]. apply (encodes_cons 233 [xc3; xa9]); [apply utf8_2; cbn; lia|].
  apply (encodes_cons 8364 [xe2; x82; xac] [] []); [apply utf8_3; cbn; lia|constructor].
Qed.

(** Texts of any length in ASCII *)
Inductive going_on : list rcall -> Prop :=
| go_nil : going_on []
| go_rune cs : going_on cs -> going_on (RRune :: cs)
| go_peek cs : going_on cs -> going_on (RPeek :: cs).
Theorem C75_ascii_partial : forall s cs l, Forall (fun c => bz c < 128) s -> going_on cs -> ranswers [] (map bz s) cs l -> runes_of s cs = Ok l.
Proof.
  intros s cs l Ha Hc Hl. unfold runes_of. pose proof (NewLexer_repr (bytes_reader s)) as H0. rewrite seen_bytes in H0.
  assert (Hg : forall cs, going_on cs -> forall t d x s0 l, Forall (fun c => bz c < 128) t -> repr (fill (lx x)) s0 -> fut s0 = t -> ranswers d (map bz t) cs l -> rsession cs x = Ok l).
  { clear. induction 1 as [|cs Hc IH|cs Hc IH]; intros t d x s0 l Ha Hr Hf Hl; cbn [rsession].
    - inversion Hl; subst. reflexivity.
    - inversion Hl as [|d' r t' cs' l' Hl'| | |]; subst. destruct (fut s0) as [|c f] eqn:Ef; [discriminate|]. match goal with H : _ :: _ = map _ _ |- _ => injection H as -> -> end.
      inversion Ha as [|? ? Hca Ha']; subst. destruct (repr_rune _ s0 c f Hr Ef Hca) as (E1 & E2). unfold Rune.
      assert (Eb : b_rune (lx x) = b_rune (fill (lx x))) by (unfold b_rune; rewrite (fill_range _ s0 c f Hr Ef); reflexivity). rewrite Eb, E1. cbn [rbind].
      pose proof (repr_byte _ s0 Hr) as Hb. unfold s_byte in Hb. rewrite Ef in Hb. destruct Hb as (x' & s'' & Ex & (Hc1 & Hc2 & _) & Hr'). rewrite E2 in Ex. injection Ex as <-. cbn [fut] in Hc1.
      rewrite (IH f (bz c :: d) _ s'' l'); [reflexivity|exact Ha'|cbn [lx]; exact Hr'|exact Hc1|exact Hl'].
    - inversion Hl as [| |d' r t' cs' l' Hl'| |]; subst. destruct (fut s0) as [|c f] eqn:Ef; [discriminate|]. match goal with H : _ :: _ = map _ _ |- _ => injection H as -> -> end.
      pose proof Ha as Ha0. inversion Ha as [|? ? Hca Ha']; subst. destruct (repr_rune _ s0 c f Hr Ef Hca) as (E1 & E2). unfold PeekRune, Rune.
      assert (Eb : b_rune (lx x) = b_rune (fill (lx x))) by (unfold b_rune; rewrite (fill_range _ s0 c f Hr Ef); reflexivity). rewrite Eb, E1. cbn [rbind UnreadRune sizes lx].
      cbn [buf rd r_ last]. replace (mkX (buf (fill (lx x))) (rd (fill (lx x))) (r_ (fill (lx x)) + 1 - 1) (last (fill (lx x)))) with (fill (lx x)).
      + rewrite (IH (c :: f) d _ s0 l'); [reflexivity|exact Ha0| |exact Ef|exact Hl']. cbn [lx]. rewrite (fill_range _ s0 c f Hr Ef). exact Hr.
      + destruct (fill (lx x)) as [b rd0 p la]. cbn [buf rd r_ last]. f_equal. lia. }
  destruct s as [|c s].
  - destruct Hc; [|inversion Hl|inversion Hl]. inversion Hl; subst. reflexivity.
  - apply (Hg cs Hc (c :: s) [] _ (s_init (c :: s)) l); [exact Ha| |reflexivity|exact Hl]. cbn [lx]. rewrite fill_in; [exact H0|]. apply (repr_in _ _ c s H0). reflexivity.
Qed.
Print Assumptions C75_ascii_partial.
Example C75_ascii_ex : going_on [RPeek; RRune; RRune] /\ ranswers [] (map bz (bs "ab")) [RPeek; RRune; RRune] [APeeked 97 true; ARune 97; ARune 98].
Proof. split; repeat constructor. Qed.

Lemma app_inj_length {A} (a b c d : list A) : a ++ b = c ++ d -> List.length a = List.length c -> a = c /\ b = d.
Proof. revert c. induction a as [|x a IH]; intros [|y c] H E; cbn in *; try discriminate; [auto|]. injection H as -> H. injection E as E. destruct (IH c H E) as (-> & ->). auto. Qed.
Lemma app_inj_length2 {A} (a b c d : list A) : a ++ b = c ++ d -> List.length b = List.length d -> a = c /\ b = d.
Proof. intros H E. apply app_inj_length; [exact H|]. apply (f_equal (@List.length A)) in H. rewrite !app_length in H. lia. Qed.
(** Texts of any length whose characters do not lie across the end of a buffer *)
Lemma width_utf8 r w : utf8 r w -> len w = width r.
Proof.
  intro H. unfold width. inversion H; subst; cbn [List.length].
  - replace (bz a <? 128) with true by lia. reflexivity.
  - destruct (Z.ltb_spec ((bz a - 192) * 64 + (bz b - 128)) 128); [lia|]. destruct (Z.ltb_spec ((bz a - 192) * 64 + (bz b - 128)) 2048); [reflexivity|lia].
  - match goal with |- context [?x <? 128] => destruct (Z.ltb_spec x 128); [lia|]; destruct (Z.ltb_spec x 2048); [lia|]; destruct (Z.ltb_spec x 65536); [reflexivity|lia] end.
  - match goal with |- context [?x <? 128] => destruct (Z.ltb_spec x 128); [lia|]; destruct (Z.ltb_spec x 2048); [lia|]; destruct (Z.ltb_spec x 65536); [lia|reflexivity] end.
Qed.
Lemma width_pos r : 1 <= width r.
Proof. unfold width. repeat destruct (Z.ltb _ _); lia. Qed.
Lemma total_app a b : total (a ++ b) = total a + total b.
Proof. unfold total. induction a as [|r a IH]; cbn [app fold_right]; [reflexivity|]. rewrite IH. lia. Qed.
Lemma total_nonneg a : 0 <= total a.
Proof. unfold total. induction a as [|r a IH]; cbn [fold_right]; [lia|]. pose proof (width_pos r). lia. Qed.
Lemma aligned_next d r t k : aligned (d ++ r :: t) -> 2 <= k -> total d < 2048 * k -> total d + width r <= 2048 * k.
Proof.
  intros Ha Hk Hd. assert (Et : total (d ++ r :: t) = total d + width r + total t) by (rewrite total_app; cbn [total fold_right]; fold (total t); lia).
  pose proof (total_nonneg t). destruct (Z_lt_le_dec (2048 * k) (total (d ++ r :: t))) as [H1|H1]; [|lia].
  destruct (Ha k Hk H1) as (a & b & E & Eb). clear -E Eb Hd. revert a E Eb Hd. generalize (2048 * k). induction d as [|x d IH]; intros z a E Ea Hz.
  - destruct a as [|y a]; cbn [total fold_right app] in *; [lia|]. injection E as -> _. fold (total a) in *. pose proof (total_nonneg a). lia.
  - destruct a as [|y a]; [cbn [total fold_right] in *; pose proof (total_nonneg d); pose proof (width_pos x); fold (total d) in *; lia|]. cbn [app] in E. injection E as -> E.
    cbn [total fold_right] in *. fold (total a) in *. fold (total d) in *. specialize (IH (z - width y) a E). lia.
Qed.
Lemma skip_skip {A} n m (l : list A) : skipn n (skipn m l) = skipn (m + n) l.
Proof. revert l. induction m as [|m IH]; intros [|x l]; cbn [skipn Nat.add]; [reflexivity|reflexivity|apply skipn_nil|apply IH]. Qed.
(** The buffer is a window on the text P ++ T; P0 has left it. *)
Definition window (P T : bytes) (j : Z) (x : lexer) : Prop :=
  len (buf x) = 4096 /\ 0 <= last x <= 4096 /\ 0 <= r_ x <= last x /\ 0 <= j /\
  T = skipn (Z.to_nat (r_ x)) (firstn (Z.to_nat (last x)) (buf x)) ++ (if last x =? 4096 then later (rd x) else []) /\
  exists P0, P = P0 ++ firstn (Z.to_nat (r_ x)) (buf x) /\ len P0 = 2048 * j.
Lemma window_fill P T j x : window P T j x -> T <> [] -> exists j', window P T j' (fill x) /\ r_ (fill x) < last (fill x) /\ fill (fill x) = fill x /\ (j' = j \/ len P = 2048 * (j + 2) /\ j' = j + 1).
Proof.
  intros (H1 & H2 & H3 & H4 & H5 & P0 & H6 & H7) HT. destruct (Z_lt_le_dec (r_ x) 4096) as [Hr|Hr].
  - exists j. rewrite !(fill_in x) by lia. split; [unfold window; eauto 10|]. split; [|split; [reflexivity|left; reflexivity]].
    destruct (Z_lt_le_dec (r_ x) (last x)) as [H|H]; [exact H|]. exfalso. apply HT. rewrite H5. replace (last x =? 4096) with false by lia. rewrite app_nil_r. apply skipn_all2. rewrite firstn_length. lia.
  - assert (Er : r_ x = 4096) by lia. assert (El : last x = 4096) by lia. pose proof half_eq as Hhalf.
    assert (Hup : len (skipn (Z.to_nat 2048) (buf x)) = 2048) by (rewrite skipn_length; lia).
    assert (Ef : fill x = let '(b, rd', off) := fill_loop 100 (skipn (Z.to_nat 2048) (buf x) ++ skipn (Z.to_nat 2048) (buf x)) (rd x) 2048 in mkX b rd' 2048 off).
    { unfold fill, bufSize, halfSize. rewrite Er. reflexivity. }
    destruct (fill_loop 100 (skipn (Z.to_nat 2048) (buf x) ++ skipn (Z.to_nat 2048) (buf x)) (rd x) 2048) as [[b rd'] off] eqn:Efl.
    apply half_refill in Efl as (Hb & Hoff & Hfirst & Hlater); [|exact Hup]. rewrite Ef. rewrite El, Er in H5. change (4096 =? 4096) with true in H5. cbv iota in H5.
    rewrite skipn_all2 in H5 by (rewrite firstn_length; lia). cbn [app] in H5. rewrite Hlater in H5.
    assert (Hlt : 2048 < off).
    { destruct (Z_lt_le_dec 2048 off) as [H|H]; [exact H|]. exfalso. apply HT. rewrite H5. replace (off =? 4096) with false by lia. rewrite app_nil_r. apply skipn_all2. rewrite firstn_length. lia. }
    exists (j + 1). cbn [r_ last]. split; [|split; [exact Hlt|split; [apply fill_in; cbn [r_]; lia|right]]].
    + unfold window. cbn [buf last r_ rd]. repeat (split; [first [assumption|lia]|]). exists (P0 ++ firstn half (buf x)). split.
      * change (Z.to_nat 2048) with half. rewrite Hfirst, <- app_assoc. change (Z.to_nat 2048) with half. rewrite firstn_skipn. rewrite H6, Er, firstn_all2 by lia. reflexivity.
      * rewrite app_length, firstn_length. lia.
    + split; [|reflexivity]. rewrite H6, app_length, firstn_length. lia.
Qed.
Lemma window_back P w T j x : window (P ++ w) T j x -> len w <= r_ x -> window P (w ++ T) j (mkX (buf x) (rd x) (r_ x - len w) (last x)).
Proof.
  intros (H1 & H2 & H3 & H4 & H5 & P0 & H6 & H7) Hw. unfold window. cbn [buf rd r_ last]. repeat (split; [first [assumption|lia]|]).
  assert (Es : firstn (Z.to_nat (r_ x)) (buf x) = firstn (Z.to_nat (r_ x - len w)) (buf x) ++ skipn (Z.to_nat (r_ x - len w)) (firstn (Z.to_nat (r_ x)) (buf x))).
  { rewrite <- (firstn_skipn (Z.to_nat (r_ x - len w)) (firstn (Z.to_nat (r_ x)) (buf x))) at 1. rewrite firstn_firstn. do 3 f_equal. lia. }
  assert (Hsp : P = P0 ++ firstn (Z.to_nat (r_ x - len w)) (buf x) /\ w = skipn (Z.to_nat (r_ x - len w)) (firstn (Z.to_nat (r_ x)) (buf x))).
  { rewrite Es, app_assoc in H6. apply app_inj_length2 in H6; [exact H6|]. rewrite skipn_length, firstn_length. lia. }
  destruct Hsp as (E1 & E2). split; [|exists P0; split; assumption].
  rewrite H5, app_assoc. f_equal. rewrite E2 at 1. rewrite <- (firstn_skipn (Z.to_nat (r_ x)) (firstn (Z.to_nat (last x)) (buf x))) at 2. rewrite skipn_app. f_equal.
  - rewrite firstn_firstn. do 2 f_equal. lia.
  - rewrite firstn_length, firstn_length. replace (Z.to_nat (r_ x - len w) - _)%nat with O by lia. reflexivity.
Qed.
Lemma window_forth P w T j x : window P (w ++ T) j x -> r_ x + len w <= last x -> window (P ++ w) T j (mkX (buf x) (rd x) (r_ x + len w) (last x)).
Proof.
  intros (H1 & H2 & H3 & H4 & H5 & P0 & H6 & H7) Hw. unfold window. cbn [buf rd r_ last]. repeat (split; [first [assumption|lia]|]).
  assert (Es : skipn (Z.to_nat (r_ x)) (firstn (Z.to_nat (last x)) (buf x)) = firstn (List.length w) (skipn (Z.to_nat (r_ x)) (firstn (Z.to_nat (last x)) (buf x))) ++ skipn (Z.to_nat (r_ x + len w)) (firstn (Z.to_nat (last x)) (buf x))).
  { rewrite <- (firstn_skipn (List.length w)) at 1. f_equal. rewrite skip_skip. f_equal. lia. }
  rewrite Es, <- app_assoc in H5. apply app_inj_length in H5; [|rewrite firstn_length, skipn_length, firstn_length; lia]. destruct H5 as (E1 & E2).
  split; [exact E2|]. exists P0. split; [|exact H7]. rewrite H6, <- app_assoc. f_equal. rewrite E1 at 1. rewrite firstn_skipn_comm, firstn_firstn.
  replace (Nat.min (Z.to_nat (r_ x) + List.length w) (Z.to_nat (last x))) with (Z.to_nat (r_ x + len w)) by lia.
  rewrite <- (firstn_skipn (Z.to_nat (r_ x)) (firstn (Z.to_nat (r_ x + len w)) (buf x))) at 2. rewrite firstn_firstn. do 2 f_equal. lia.
Qed.
Definition at_window (d t : list Z) (b : Z) (x : rlexer) : Prop :=
  exists ws f j, Forall2 utf8 d ws /\ encodes t f /\ sizes x = map (fun w => len w) ws /\ window (List.concat (rev ws)) f j (lx x) /\
    (j = 0 \/ 2048 * (j + 1) <= len (List.concat (rev ws)) + b) /\ 0 <= b.
Lemma total_words d ws : Forall2 utf8 d ws -> len (List.concat (rev ws)) = total (rev d).
Proof.
  induction 1 as [|r w d ws Hu H IH]; [reflexivity|]. cbn [rev]. rewrite concat_app, app_length, total_app. cbn [List.concat total fold_right]. rewrite app_nil_r. pose proof (width_utf8 r w Hu). lia.
Qed.
Lemma window_step d r t b x : at_window d (r :: t) b x -> aligned (rev d ++ r :: t) -> exists n x', b_rune (lx x) = Ok (r, n, x') /\
  at_window (r :: d) t (Z.max 0 (b - width r)) (mkR x' (n :: sizes x)) /\ at_window d (r :: t) b (mkR (mkX (buf x') (rd x') (r_ x' - n) (last x')) (sizes x)).
Proof.
  intros (ws & f & j & Hd & Ht & Hs & Hw & Hj & Hb) Ha. inversion Ht as [|r' w t' s' Hu Ht']; subst. pose proof (utf8_len r w Hu) as Hlw. pose proof (width_utf8 r w Hu) as Hww.
  destruct (window_fill _ _ _ _ Hw) as (j' & Hw' & Hr & Hff & Hjj); [destruct w; [cbn in Hlw; lia|discriminate]|]. clear Hw. pose proof (total_words d ws Hd) as Htot.
  destruct (fill (lx x)) as [bu rd0 p la] eqn:Efill. cbn [r_ last] in *. pose proof Hw' as (H1 & H2 & H3 & H4 & H5 & P0 & H6 & H7). cbn [buf last r_ rd] in *.
  assert (Hp : len (List.concat (rev ws)) = 2048 * j' + p) by (rewrite H6, app_length, firstn_length; lia).
  assert (Hfit : p + len w <= la).
  { destruct (Z.eqb_spec la 4096) as [El|El].
    - pose proof (aligned_next (rev d) r t (j' + 2) Ha). lia.
    - rewrite app_nil_r in H5. apply (f_equal (@List.length byte)) in H5. rewrite app_length, skipn_length, firstn_length in H5. lia. }
  assert (Es : exists u, skipn (Z.to_nat p) (firstn (Z.to_nat la) bu) = w ++ u).
  { exists (skipn (List.length w) (skipn (Z.to_nat p) (firstn (Z.to_nat la) bu))). rewrite <- (firstn_skipn (List.length w)) at 1. f_equal.
    apply (f_equal (firstn (List.length w))) in H5. rewrite firstn_app, Nat.sub_diag, firstn_O, app_nil_r, firstn_all in H5. rewrite H5 at 2. rewrite firstn_app.
    replace (List.length w - _)%nat with O; [rewrite firstn_O, app_nil_r; reflexivity|]. rewrite skipn_length, firstn_length. lia. }
  destruct Es as (u & Es).
  assert (Er : b_rune (lx x) = Ok (r, len w, mkX bu rd0 (p + len w) la)).
  { unfold b_rune. rewrite Efill. cbn [buf rd r_ last]. destruct (utf8_head r w Hu) as (c & w' & Ew & Hc). pose proof Es as Es2. rewrite Ew in Es2. cbn [app] in Es2. destruct (skipn_S _ _ _ _ Es2) as (_ & Hn & _).
    rewrite nth_firstn in Hn by lia. unfold zget. replace (p <? 0) with false by lia. rewrite Hn. cbn [rbind]. destruct Hc as [(-> & Hc & ->)|Hc].
    - replace (bz c <? 128) with true by lia. cbn [rbind]. rewrite Ew. reflexivity.
    - replace (bz c <? 128) with false by lia. replace (la <? p) with false by lia. rewrite Es, (decode_utf8 r w u Hu). reflexivity. }
  exists (len w), (mkX bu rd0 (p + len w) la). split; [exact Er|]. split.
  - exists (w :: ws), s', j'. split; [constructor; assumption|]. split; [exact Ht'|]. split; [cbn [map sizes]; rewrite Hs; reflexivity|]. cbn [rev lx]. rewrite concat_app. cbn [List.concat]. rewrite app_nil_r.
    split; [apply (window_forth _ w s' j' _ Hw'); cbn [r_ last]; lia|]. rewrite app_length. split; [|lia]. destruct Hjj as [->|(E1 & ->)]; lia.
  - exists ws, (w ++ s'), j'. split; [exact Hd|]. split; [constructor; assumption|]. split; [exact Hs|]. cbn [buf rd r_ last lx]. replace (p + len w - len w) with p by lia. split; [exact Hw'|]. split; [|exact Hb].
    destruct Hjj as [->|(E1 & ->)]; lia.
Qed.
Lemma window_unread d r t b x : at_window (r :: d) t b x -> b + width r <= 2048 -> exists n l, sizes x = n :: l /\ at_window d (r :: t) (b + width r) (mkR (mkX (buf (lx x)) (rd (lx x)) (r_ (lx x) - n) (last (lx x))) l).
Proof.
  intros (ws & f & j & Hd & Ht & Hs & Hw & Hj & Hb) Hn. inversion Hd as [|r' w d' ws' Hu Hd']; subst. cbn [map] in Hs. exists (len w), (map (fun w => len w) ws'). split; [exact Hs|].
  pose proof (width_utf8 r w Hu) as Hww. cbn [rev] in Hw, Hj. rewrite concat_app in Hw, Hj. cbn [List.concat] in Hw, Hj. rewrite app_nil_r in Hw, Hj. rewrite app_length in Hj.
  exists ws', (w ++ f), j. split; [exact Hd'|]. split; [constructor; assumption|]. split; [reflexivity|]. split; [|split; [lia|pose proof (width_pos r); lia]].
  apply window_back; [exact Hw|]. destruct Hw as (H1 & H2 & H3 & H4 & H5 & P0 & H6 & H7). apply (f_equal (@List.length byte)) in H6. rewrite !app_length, firstn_length in H6. lia.
Qed.
Theorem C75_long_partial : forall rs s cs l, encodes rs s -> aligned rs -> within 0 [] rs cs -> ranswers [] rs cs l -> runes_of s cs = Ok l.
Proof.
  intros rs s cs l He Ha Hn Hl. unfold runes_of.
  assert (H0 : at_window [] rs 0 (mkR (NewLexer (bytes_reader s)) [])).
  { exists [], s, 0. split; [constructor|]. split; [exact He|]. split; [reflexivity|]. split; [|split; [left; reflexivity|lia]]. cbn [rev List.concat lx].
    pose proof (NewLexer_repr (bytes_reader s)) as H0. rewrite seen_bytes in H0. destruct H0 as (H1 & H2 & H3 & H4 & H5 & H6 & H7). cbn [s_init past fut over] in *. destruct (H7 eq_refl) as (H8 & H9).
    unfold window. repeat (split; [first [assumption|lia]|]). exists []. split; [|reflexivity]. rewrite Z.min_l in H5 by lia. apply (f_equal (@rev byte)) in H5. rewrite rev_involutive in H5. exact H5. }
  change rs with (rev [] ++ rs) in Ha. clear He. revert Hn H0 Ha. generalize 0 at 1 2. generalize (mkR (NewLexer (bytes_reader s)) []).
  induction Hl as [d t|d r t cs l Hl IH|d r t cs l Hl IH|d r t cs l Hl IH|t cs l Hl IH]; intros x b Hn H0 Ha; cbn [rsession].
  - reflexivity.
  - inversion Hn; subst. destruct (window_step d r t b x H0 Ha) as (n & x' & Hr & H1 & _). unfold Rune. rewrite Hr. cbn [rbind]. rewrite (IH _ (Z.max 0 (b - width r))); [reflexivity|assumption|exact H1|].
    cbn [rev]. rewrite <- app_assoc. exact Ha.
  - inversion Hn; subst. destruct (window_step d r t b x H0 Ha) as (n & x' & Hr & _ & H1). unfold PeekRune, Rune. rewrite Hr. cbn [rbind UnreadRune sizes lx]. rewrite (IH _ b); [reflexivity|assumption|exact H1|exact Ha].
  - inversion Hn; subst. destruct (window_unread d r t b x H0) as (n & l' & Hs & H1); [assumption|]. unfold UnreadRune. rewrite Hs. rewrite (IH _ (b + width r)); [reflexivity|assumption|exact H1|].
    cbn [rev] in Ha. rewrite <- app_assoc in Ha. exact Ha.
  - inversion Hn; subst. destruct H0 as (ws & f & j & Hd & H0). inversion Hd; subst. unfold UnreadRune. destruct H0 as (Ht & Hs & H0). rewrite Hs. cbn [map].
    rewrite (IH x b); [reflexivity|assumption| |exact Ha]. exists [], f, j. split; [constructor|]. split; [exact Ht|]. split; [exact Hs|exact H0].
Qed.
Print Assumptions C75_long_partial.
Example C75_long_ex : let rs := repeat 97 (Z.to_nat 4094) ++ [233; 98] in aligned rs /\ within 0 [] rs (map (fun _ => RRune) rs ++ [RUnrune; RPeek; RUnrune; RRune]).
Proof.
  cbv zeta. assert (Ht : forall n, total (repeat 97 n) = Z.of_nat n).
  { induction n as [|n IH]; [reflexivity|]. cbn [repeat total fold_right]. fold (total (repeat 97 n)). rewrite IH. change (width 97) with 1. lia. }
  assert (Hw : forall cs rs d, within 0 (rev rs ++ d) [] cs -> within 0 d rs (map (fun _ => RRune) rs ++ cs)).
  { intros cs. induction rs as [|r rs IH]; intros d H; cbn [map app]; [exact H|]. constructor. replace (Z.max 0 (0 - width r)) with 0 by (pose proof (width_pos r); lia). apply IH.
    cbn [rev] in H. rewrite <- app_assoc in H. exact H. }
  split.
  - intros k Hk Hlt. exists (repeat 97 (Z.to_nat 4094) ++ [233]), [98]. split; [rewrite <- app_assoc; reflexivity|]. rewrite total_app, Ht in *. cbn [total fold_right] in *. change (width 233) with 2 in *. change (width 98) with 1 in *. lia.
  - apply Hw. rewrite rev_app_distr. cbn [rev app]. constructor; [cbn; lia|]. constructor. constructor; [cbn; lia|]. constructor. constructor.
Qed.

(** At the end of the text Rune goes on with zeros and reports no error. *)
Theorem C75_end_refuted : forall rs s, encodes rs s -> len s <= 4094 -> runes_of s (map (fun _ => RRune) rs ++ [RRune]) = Ok (map ARune rs ++ [ARune 0]).
Proof.
  intros rs s He Hs. unfold runes_of.
  assert (H0 : at_rune [] rs (mkR (NewLexer (bytes_reader s)) [])).
  { exists [], s. split; [constructor|]. split; [exact He|]. split; [reflexivity|]. cbn [rev List.concat lx]. apply NewLexer_sim0. exact Hs. }
  clear He Hs. revert H0. generalize (mkR (NewLexer (bytes_reader s)) []). intro x. generalize (@nil Z) at 1. revert x. induction rs as [|r rs IH]; intros x d H0; cbn [map app rsession].
  - destruct H0 as (ws & f & _ & Hf & _ & H0). inversion Hf; subst. pose proof (sim0_rune _ _ H0) as Hr. cbn [fut] in Hr. unfold Rune. rewrite Hr. reflexivity.
  - destruct (at_step d r rs x H0) as (n & x' & Hr & H1 & _). unfold Rune. rewrite Hr. cbn [rbind]. rewrite (IH _ _ H1). reflexivity.
Qed.
Print Assumptions C75_end_refuted.

(** A character whose bytes lie on both sides of the end of the buffer is not recognised. *)
Lemma NewLexer_big s : 4096 < len s -> let x := NewLexer (bytes_reader s) in buf x = firstn (Z.to_nat 4096) s /\ last x = 4096 /\ r_ x = 0.
Proof.
  intro Hs. pose proof (NewLexer_repr (bytes_reader s)) as H0. rewrite seen_bytes in H0. cbv zeta. revert H0. generalize (NewLexer (bytes_reader s)). intros x (Hb & Hla & Hr & Hf & Hp & Ho & Hn).
  unfold s_init in *. cbn [fut past over] in *.
  assert (El : last x = 4096).
  { destruct (Z.eqb_spec (last x) 4096) as [E|E]; [exact E|]. rewrite app_nil_r in Hf. apply (f_equal (@List.length byte)) in Hf. rewrite skipn_length, firstn_length in Hf. lia. }
  assert (Er : r_ x = 0).
  { apply (f_equal (@List.length byte)) in Hp. rewrite rev_length, firstn_length in Hp. cbn [List.length] in Hp. lia. }
  split; [|split; assumption]. rewrite Er, El in Hf. change (skipn (Z.to_nat 0) ?l) with l in Hf. rewrite (firstn_all2 (buf x)) in Hf by lia.
  rewrite Hf. rewrite firstn_app. replace (Z.to_nat 4096 - List.length (buf x))%nat with O by lia. rewrite firstn_O, app_nil_r. rewrite firstn_all2 by lia. reflexivity.
Qed.
Lemma runes_before b rd0 : forall A k szs c t cs l, 0 <= k -> len b = 4096 -> skipn (Z.to_nat k) b = A ++ c :: t -> Forall (fun c => bz c < 128) A ->
  (forall szs, rsession cs (mkR (mkX b rd0 (k + len A) 4096) szs) = Ok l) ->
  rsession (map (fun _ => RRune) A ++ cs) (mkR (mkX b rd0 k 4096) szs) = Ok (map ARune (map bz A) ++ l).
Proof.
  induction A as [|a A IH]; intros k szs c t cs l Hk Hb Hs Ha Hc; cbn [map app].
  - cbn [List.length] in Hc. rewrite Z.add_0_r in Hc. apply Hc.
  - inversion Ha as [|? ? Hca Ha']; subst. cbn [app] in Hs. destruct (skipn_S _ _ _ _ Hs) as (H1 & H2 & _).
    assert (Hk2 : k < 4096). { apply (f_equal (@List.length byte)) in Hs. rewrite skipn_length in Hs. cbn [List.length] in Hs. lia. }
    cbn [rsession]. unfold Rune. cbn [lx sizes]. unfold b_rune. rewrite fill_in by (cbn [r_]; lia). cbn [buf r_ last rd]. unfold zget. replace (k <? 0) with false by lia. rewrite H2. cbn [rbind].
    replace (bz a <? 128) with true by lia. cbn [rbind].
    rewrite (IH (k + 1) (1 :: szs) c t cs l); [reflexivity|lia|exact Hb| |exact Ha'|].
    + replace (Z.to_nat (k + 1)) with (S (Z.to_nat k)) by lia. exact H1.
    + intro szs'. cbn [List.length] in Hc. replace (k + 1 + len A) with (k + Z.of_nat (S (List.length A))) by lia. apply Hc.
Qed.
Theorem C75_split_refuted : forall A r w, Forall (fun c => bz c < 128) A -> len A = 4095 -> utf8 r w -> 128 <= r ->
  runes_of (A ++ w) (map (fun _ => RRune) A ++ [RRune]) = Ok (map ARune (map bz A) ++ [ARune 0xFFFD]).
Proof.
  intros A r w Ha HA Hu Hr. assert (Hw : exists c d w', w = c :: d :: w' /\ 128 <= bz c).
  { destruct (utf8_head r w Hu) as (c & w' & -> & [(E & E2 & _)|E]); [lia|]. destruct w' as [|d w']; [inversion Hu; subst; lia|]. exists c, d, w'. split; [reflexivity|lia]. }
  destruct Hw as (c & d & w' & -> & Hc). unfold runes_of. destruct (NewLexer_big (A ++ c :: d :: w')) as (H1 & H2 & H3); [rewrite app_length; cbn [List.length]; lia|].
  destruct (NewLexer (bytes_reader (A ++ c :: d :: w'))) as [b rd0 p la]. cbn [buf last r_] in *. subst p la.
  assert (Eb : b = A ++ [c]).
  { rewrite H1. replace (Z.to_nat 4096) with (List.length A + 1)%nat by lia. rewrite firstn_app_2. reflexivity. }
  assert (Hb : len b = 4096) by (rewrite Eb, app_length; cbn [List.length]; lia). clear H1.
  apply (runes_before b rd0 A 0 [] c [] [RRune] [ARune 65533]); [lia|exact Hb|exact Eb|exact Ha|].
  intro szs. cbn [rsession]. unfold Rune. cbn [lx]. unfold b_rune. rewrite fill_in by (cbn [r_]; lia). cbn [buf r_ last rd]. unfold zget. replace (0 + len A <? 0) with false by lia.
  replace (Z.to_nat (0 + len A)) with (List.length A) by lia. rewrite Eb at 1. rewrite nth_error_app2, Nat.sub_diag by lia. cbn [nth_error rbind]. replace (bz c <? 128) with false by lia.
  replace (4096 <? 0 + len A) with false by lia. rewrite firstn_all2 by lia. rewrite Eb at 1. rewrite skipn_app, skipn_all, Nat.sub_diag. cbn [skipn app].
  replace (decode_rune [c]) with (65533, 1); [reflexivity|]. unfold decode_rune. replace (bz c <? 128) with false by lia. repeat match goal with |- context [if ?x then _ else _] => destruct x end; reflexivity.
Qed.
Print Assumptions C75_split_refuted.
Example C75_split_ex : let A := repeat "a"%byte (Z.to_nat 4095) in Forall (fun c => bz c < 128) A /\ len A = 4095 /\ utf8 233 [xc3; xa9] /\ encodes (map bz A ++ [233]) (A ++ [xc3; xa9]).
Proof.
  cbv zeta. generalize (Z.to_nat 4095) (Z2Nat.id 4095). intros n Hn. split; [|split; [rewrite repeat_length; apply Hn; lia|split; [apply utf8_2; cbn; lia|]]].
  - apply Forall_forall. intros c Hc. apply repeat_spec in Hc. subst c. cbn. lia.
  - clear Hn. induction n as [|n IH]; cbn [repeat map app].
    + apply (encodes_cons 233 [xc3; xa9] [] []); [apply utf8_2; cbn; lia|constructor].
    + apply (encodes_cons (bz "a"%byte) ["a"%byte]); [apply utf8_1; cbn; lia|exact IH].
Qed.

(** UnreadRune further than 2048 bytes behind the furthest position: the 2050th returns no error,
    but the next Rune does not return the character unread. *)
Lemma runes_forth b rd0 : forall A k szs t cs l, 0 <= k -> len b = 4096 -> skipn (Z.to_nat k) b = A ++ t -> Forall (fun c => bz c < 128) A ->
  rsession cs (mkR (mkX b rd0 (k + len A) 4096) (repeat 1 (List.length A) ++ szs)) = Ok l ->
  rsession (map (fun _ => RRune) A ++ cs) (mkR (mkX b rd0 k 4096) szs) = Ok (map ARune (map bz A) ++ l).
Proof.
  induction A as [|a A IH]; intros k szs t cs l Hk Hb Hs Ha Hc; cbn [map app].
  - cbn [List.length repeat app] in Hc. rewrite Z.add_0_r in Hc. apply Hc.
  - inversion Ha as [|? ? Hca Ha']; subst. cbn [app] in Hs. destruct (skipn_S _ _ _ _ Hs) as (H1 & H2 & _).
    assert (Hk2 : k < 4096). { apply (f_equal (@List.length byte)) in Hs. rewrite skipn_length in Hs. cbn [List.length] in Hs. lia. }
    cbn [rsession]. unfold Rune. cbn [lx sizes]. unfold b_rune. rewrite fill_in by (cbn [r_]; lia). cbn [buf r_ last rd]. unfold zget. replace (k <? 0) with false by lia. rewrite H2. cbn [rbind].
    replace (bz a <? 128) with true by lia. cbn [rbind].
    rewrite (IH (k + 1) (1 :: szs) t cs l); [reflexivity|lia|exact Hb| |exact Ha'|].
    + replace (Z.to_nat (k + 1)) with (S (Z.to_nat k)) by lia. exact H1.
    + cbn [List.length repeat] in Hc. replace (k + 1 + len A) with (k + Z.of_nat (S (List.length A))) by lia. change (1 :: szs) with ([1] ++ szs). rewrite app_assoc, <- repeat_cons. exact Hc.
Qed.
Lemma runes_back b rd0 la : forall (U : bytes) k szs cs l, rsession cs (mkR (mkX b rd0 (k - len U) la) szs) = Ok l ->
  rsession (map (fun _ => RUnrune) U ++ cs) (mkR (mkX b rd0 k la) (repeat 1 (List.length U) ++ szs)) = Ok (map (fun _ => ADone true) U ++ l).
Proof.
  induction U as [|u U IH]; intros k szs cs l H; cbn [map app List.length repeat].
  - cbn [List.length] in H. rewrite Z.sub_0_r in H. exact H.
  - cbn [rsession UnreadRune sizes lx buf rd r_ last]. rewrite (IH (k - 1) szs cs l); [reflexivity|]. cbn [List.length] in H. replace (k - 1 - len U) with (k - Z.of_nat (S (List.length U))) by lia. exact H.
Qed.
Lemma NewLexer_rest s t : len s = 4096 -> t <> [] -> NewLexer (bytes_reader (s ++ t)) = mkX s [(t, false)] 0 4096.
Proof.
  intros Hs Ht. unfold NewLexer, fill. cbn [r_ buf rd Z.leb Z.compare andb]. rewrite (fill_loop_S 99). cbv zeta. destruct s as [|c s]; [cbn in Hs; lia|].
  unfold bytes_reader. cbn [app]. change (c :: s ++ t) with ((c :: s) ++ t). cbn [rd_read]. change (bufSize - 0) with 4096. rewrite app_length.
  assert (0 < List.length t)%nat by (destruct t; [congruence|cbn; lia]). replace (Z.of_nat (List.length (c :: s) + List.length t) <=? 4096) with false by lia.
  replace (Z.to_nat 4096) with (List.length (c :: s) + 0)%nat by lia. rewrite firstn_app_2, firstn_O, app_nil_r. rewrite skipn_app, skipn_all2 by lia.
  replace (List.length (c :: s) + 0 - List.length (c :: s))%nat with O by lia. cbn [skipn app]. rewrite Hs. change (halfSize <=? 0 + 4096) with true. cbv iota. f_equal.
  unfold Buffer.put. change (Z.to_nat 0) with 0%nat. cbn [firstn Nat.add app]. rewrite skipn_all2; [rewrite app_nil_r; reflexivity|]. rewrite repeat_length. unfold bufSize. lia.
Qed.
Theorem C75_back_refuted : forall A a b B, Forall (fun c => bz c < 128) (A ++ a :: b :: B) -> len A = 2047 -> len B = 2048 ->
  let s := A ++ a :: b :: B in
  let cs := map (fun _ => RRune) s ++ map (fun _ => RUnrune) (a :: b :: B) ++ [RRune] in
  exists l, runes_of s cs = Ok (l ++ [ARune (bz b)]) /\ ranswers [] (map bz s) cs (l ++ [ARune (bz a)]).
Proof.
  intros A a b B Ha HA HB s cs. exists (map ARune (map bz s) ++ map (fun _ => ADone true) (a :: b :: B)). split.
  - destruct (exists_last (l := B)) as (B0 & e & EB); [intros ->; cbn in HB; lia|]. subst B. rewrite app_length in HB. cbn [List.length] in HB.
    set (s' := A ++ a :: b :: B0). set (up := b :: B0). set (U := a :: b :: B0 ++ [e]) in *.
    assert (Es : s = s' ++ [e]) by (unfold s, s'; rewrite <- app_assoc; reflexivity).
    assert (H1 : len s' = 4096) by (unfold s'; rewrite app_length; cbn [List.length]; lia).
    assert (HU : len U = 2050) by (unfold U; cbn [List.length]; rewrite app_length; cbn [List.length]; lia).
    assert (Hup : skipn (Z.to_nat 2048) s' = up).
    { unfold s', up. change (a :: b :: B0) with ([a] ++ b :: B0). rewrite app_assoc, skipn_app, skipn_all2 by (rewrite app_length; cbn [List.length]; lia). rewrite app_length. cbn [List.length].
      replace (Z.to_nat 2048 - (List.length A + 1))%nat with O by lia. reflexivity. }
    assert (Hlu : len up = 2048) by (unfold up; cbn [List.length]; lia).
    assert (Hbb : bz b < 128) by (rewrite Forall_forall in Ha; apply Ha; apply in_or_app; right; right; left; reflexivity).
    fold s in Ha. rewrite Es in Ha. apply Forall_app in Ha as (Ha & He). inversion He as [|? ? He' _]; subst x l.
    unfold runes_of, cs. rewrite Es, NewLexer_rest; [|exact H1|discriminate]. rewrite !map_app. cbn [map]. rewrite <- !app_assoc. cbn [app]. clearbody s' U.
    apply (runes_forth s' [([e], false)] s' 0 [] []); [lia|exact H1|rewrite app_nil_r; reflexivity|exact Ha|]. rewrite app_nil_r, H1. cbn [rsession]. unfold Rune. cbn [lx sizes].
    assert (Ef : fill (mkX s' [([e], false)] (0 + 4096) 4096) = mkX (up ++ e :: skipn (Z.to_nat 2048 + 1) (up ++ up)) [] 2048 2049).
    { unfold fill. cbn [r_ buf rd]. unfold bufSize, halfSize. cbn [Z.add Z.leb Z.ltb Z.compare Pos.compare Pos.compare_cont andb]. rewrite Hup, (fill_loop_S 99). cbv zeta. cbn [rd_read List.length]. change (bufSize - 2048) with 2048.
      change (Z.of_nat 1 <=? 2048) with true. cbv iota. change (halfSize <=? 2048 + Z.of_nat 1) with true. cbv iota. f_equal. unfold Buffer.put. rewrite firstn_app, firstn_all2 by lia.
      replace (Z.to_nat 2048 - List.length up)%nat with O by lia. rewrite firstn_O, app_nil_r. reflexivity. }
    unfold b_rune at 1. rewrite Ef. cbn [buf r_ last rd]. unfold zget at 1. change (2048 <? 0) with false. cbv iota.
    rewrite nth_error_app2 by lia. replace (Z.to_nat 2048 - List.length up)%nat with O by lia. cbn [nth_error rbind]. replace (bz e <? 128) with true by lia. cbn [rbind].
    replace (1 :: repeat 1 (List.length s')) with (repeat 1 (List.length U) ++ repeat 1 (Z.to_nat 2047)).
    + rewrite (runes_back _ [] 2049 U (2048 + 1) (repeat 1 (Z.to_nat 2047)) [RRune] [ARune (bz b)]); [reflexivity|]. rewrite HU. cbn [rsession]. unfold Rune. cbn [lx]. unfold b_rune, fill. cbn [r_ buf rd].
      change (2048 + 1 - 2050) with (-1). cbn [Z.leb Z.compare andb]. rewrite (fill_loop_S 99). cbv zeta. cbn [rd_read]. cbn [buf r_ last rd].
      match goal with |- context [zget ?l 0] => change (zget l 0) with (Ok b) end. cbn [rbind]. replace (bz b <? 128) with true by lia. reflexivity.
    + rewrite <- repeat_app. change (1 :: repeat 1 (List.length s')) with (repeat 1 (S (List.length s'))). f_equal. lia.
  - unfold cs. rewrite <- app_assoc. assert (Hf : forall t2 cs l t d, ranswers (rev (map bz t) ++ d) t2 cs l -> ranswers d (map bz t ++ t2) (map (fun _ => RRune) t ++ cs) (map ARune (map bz t) ++ l)).
    { clear. intros t2 cs l. induction t as [|c t IH]; intros d H; cbn [map app]; [exact H|]. constructor. apply IH. cbn [map rev] in H. rewrite <- app_assoc in H. exact H. }
    assert (Hg : forall cs l u d t, ranswers d (map bz u ++ t) cs l -> ranswers (rev (map bz u) ++ d) t (map (fun _ => RUnrune) u ++ cs) (map (fun _ => ADone true) u ++ l)).
    { clear. intros cs l u. induction u as [|c u IH] using rev_ind; intros d t H; [exact H|]. rewrite !map_app, rev_app_distr. cbn [map rev app]. rewrite <- !app_assoc. cbn [app].
      rewrite map_app, <- app_assoc in H. cbn [map app] in H. specialize (IH d (bz c :: t) H).
      replace (map (fun _ => RUnrune) u ++ RUnrune :: cs) with (RUnrune :: map (fun _ => RUnrune) u ++ cs) by (clear; induction u as [|x u IH]; cbn [map app]; [reflexivity|f_equal; exact IH]).
      replace (map (fun _ => ADone true) u ++ ADone true :: l) with (ADone true :: map (fun _ => ADone true) u ++ l) by (clear; induction u as [|x u IH]; cbn [map app]; [reflexivity|f_equal; exact IH]).
      constructor. exact IH. }
    rewrite <- (app_nil_r (map bz s)) at 1. apply Hf. rewrite app_nil_r. unfold s. rewrite map_app, rev_app_distr. apply Hg. rewrite app_nil_r. cbn [map app]. repeat constructor.
Qed.
Print Assumptions C75_back_refuted.
Example C75_back_ex : let s := repeat "a"%byte (Z.to_nat 2047) ++ "a"%byte :: "b"%byte :: repeat "b"%byte (Z.to_nat 2048) in Forall (fun c => bz c < 128) s.
Proof.
  cbv zeta. apply Forall_app. split; [|constructor; [cbn; lia|constructor; [cbn; lia|]]]; apply Forall_forall; intros c Hc; apply repeat_spec in Hc; subst c; cbn; lia.
Qed.
