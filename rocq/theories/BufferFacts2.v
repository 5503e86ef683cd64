From Verif Require Import Base Value Event Lexer TextParser Stream Buffer BufferSpec BufferFacts.

Local Notation len l := (Z.of_nat (List.length l)).

(** ** Twins stay twins *)
Lemma refill_parts up rd b rd' off : len up = 2048 -> fill_loop 100 (up ++ up) rd 2048 = (b, rd', off) ->
  exists d, len b = 4096 /\ off = 2048 + len d /\ len d <= 2048 /\ firstn (Z.to_nat off) b = up ++ d /\
  later rd = d ++ (if len d =? 2048 then later rd' else []).
Proof.
  intros Hup H. destruct (half_refill up rd b rd' off Hup H) as (Hb & Hoff & Hf & Hl). pose proof half_eq as Hh.
  exists (skipn half (firstn (Z.to_nat off) b)).
  assert (Hlen : len (skipn half (firstn (Z.to_nat off) b)) = off - 2048) by (rewrite skipn_length, firstn_length; lia).
  split; [exact Hb|]. split; [lia|]. split; [lia|]. split.
  - rewrite <- (firstn_skipn half (firstn (Z.to_nat off) b)) at 1. f_equal. rewrite firstn_firstn.
    replace (Nat.min half (Z.to_nat off)) with half by lia. exact Hf.
  - rewrite Hl at 1. f_equal. rewrite Hlen. destruct (Z.eqb_spec off 4096), (Z.eqb_spec (off - 2048) 2048); try reflexivity; lia.
Qed.

Lemma twin_byte x y c ok x' : twin x y -> b_byte x = Ok (c, ok, x') -> exists y', b_byte y = Ok (c, ok, y') /\ twin x' y'.
Proof.
  intros (Hbx & Hby & Hl & Ely & Hr & Ery & Hf & H4). unfold b_byte. rewrite Ely, Ery. unfold bufSize.
  destruct ((last x <? 4096) && (last x <=? r_ x)) eqn:Ee.
  - intro H. apply andb_true_iff in Ee as [E1 E2]. injection H as <- <- <-. eexists. split; [reflexivity|].
    unfold twin. cbn [buf rd r_ last]. repeat split; try assumption; lia.
  - assert (Hrl : r_ x < last x).
    { apply andb_false_iff in Ee as [E|E]; [|lia]. destruct (H4 ltac:(lia)). lia. }
    assert (Hz : zget (buf y) (r_ x) = zget (buf x) (r_ x)).
    { unfold zget. destruct (r_ x <? 0); [reflexivity|].
      rewrite <- (nth_firstn _ (Z.to_nat (last x)) (buf y)) by lia. rewrite Hf, nth_firstn by lia. reflexivity. }
    rewrite Hz. destruct (zget (buf x) (r_ x)) as [c0| |]; try discriminate. cbn [rbind].
    intro H. injection H as <- <- <-. eexists. split; [reflexivity|].
    unfold fill, bufSize. cbn [r_]. replace (0 <=? r_ x + 1) with true by lia.
    destruct (Z.ltb_spec (r_ x + 1) 4096) as [Hin|Hout]; cbn [andb].
    + unfold twin. cbn [buf rd r_ last]. repeat split; try assumption; try lia. apply H4. assumption.
    + assert (El : last x = 4096) by lia. destruct (H4 El) as [_ Hlat]. rewrite El in Hf.
      rewrite !firstn_all2 in Hf by lia. unfold halfSize. cbn [buf rd]. rewrite Hf.
      set (up := skipn (Z.to_nat 2048) (buf x)).
      assert (Hup : len up = 2048) by (unfold up; rewrite skipn_length; lia).
      destruct (fill_loop 100 (up ++ up) (rd x) 2048) as [[b1 rd1] off1] eqn:E1.
      destruct (fill_loop 100 (up ++ up) (rd y) 2048) as [[b2 rd2] off2] eqn:E2.
      destruct (refill_parts _ _ _ _ _ Hup E1) as (d1 & Hb1 & -> & Hd1 & Hf1 & Hl1).
      destruct (refill_parts _ _ _ _ _ Hup E2) as (d2 & Hb2 & -> & Hd2 & Hf2 & Hl2).
      rewrite Hl1, Hl2 in Hlat. destruct (later_prefix d2 d1 _ _ Hd2 Hd1 Hlat) as [Ed Hlater]. subst d2.
      unfold twin. cbn [buf rd r_ last]. split; [exact Hb1|]. split; [exact Hb2|]. split; [lia|]. split; [reflexivity|].
      split; [lia|]. split; [reflexivity|]. split; [congruence|]. intro H. split; [lia|]. apply Hlater. lia.
Qed.

Lemma twin_byte_panic x y : twin x y -> exists c ok x', b_byte x = Ok (c, ok, x').
Proof.
  intros (Hbx & Hby & Hl & Ely & Hr & Ery & Hf & H4). unfold b_byte, bufSize.
  destruct ((last x <? 4096) && (last x <=? r_ x)) eqn:Ee; [eauto|].
  assert (Hrl : r_ x < last x) by (apply andb_false_iff in Ee as [E|E]; [destruct (H4 ltac:(lia)); lia|lia]).
  unfold zget. replace (r_ x <? 0) with false by lia.
  destruct (nth_error (buf x) (Z.to_nat (r_ x))) as [c|] eqn:En; [cbn; eauto|].
  apply nth_error_None in En. lia.
Qed.

Lemma twin_unread x y : twin x y -> twin (b_unread x) (b_unread y).
Proof.
  intros (Hbx & Hby & Hl & Ely & Hr & Ery & Hf & H4). unfold b_unread. rewrite Ely, Ery.
  destruct (Z.leb_spec (r_ x) 0); unfold twin; cbn [buf rd r_ last]; repeat split; try assumption; try lia; try (apply H4; assumption).
Qed.

Lemma twin_run {A} E f (m : prog A) : tokless m -> forall x y h, twin x y ->
  match run_buf E f m x h with
  | Ok (a, x', h') => exists y', run_buf E f m y h = Ok (a, y', h') /\ twin x' y'
  | Panic => run_buf E f m y h = Panic
  | NoFuel => run_buf E f m y h = NoFuel
  end.
Proof.
  induction m as [a|k IH|k IH|k IH|o k IH|k IH|]; intros Ht x y h Hs; cbn [run_buf tokless] in *.
  - exists y. auto.
  - destruct (twin_byte_panic x y Hs) as (c & ok & x' & Ex). destruct (twin_byte x y c ok x' Hs Ex) as (y' & Ey & Hs').
    rewrite Ex, Ey. cbn [rbind]. apply IH; auto.
  - apply IH; [exact Ht|]. apply twin_unread, Hs.
  - contradiction.
  - destruct (h_step o h); cbn [rbind]; try reflexivity. apply IH; auto.
  - apply IH; auto.
  - reflexivity.
Qed.

Lemma NewLexer_parts rd : exists b rd' off d, NewLexer rd = mkX b rd' 0 off /\ len b = 4096 /\ 0 <= off <= 4096 /\
  d = firstn (Z.to_nat off) b /\ len d = off /\ first_part 100 [] rd = (d, rd') /\ seen (size rd) rd = d ++ (if off =? 4096 then later rd' else []).
Proof.
  pose proof (NewLexer_repr rd) as (H1 & H2 & H3 & H4 & H5 & H6 & H7). cbn [s_init fut past over] in *.
  remember (NewLexer rd) as x eqn:Ex. destruct x as [b rd' r off]. cbn [buf Buffer.rd r_ last] in *.
  unfold NewLexer, fill in Ex. cbn [r_ buf Buffer.rd] in Ex. cbn [Z.leb Z.compare andb] in Ex.
  destruct (fill_loop 100 (repeat x00 (Z.to_nat bufSize)) rd 0) as [[b2 rd2] off2] eqn:Efl.
  apply (fill_loop_first 100 _ rd [] b2 rd2 off2 zeros_length) in Efl as (Hb & Hoff & Hfp & Hlen); [|cbn; lia|reflexivity].
  assert (b = b2 /\ rd' = rd2 /\ r = 0 /\ off = off2) as (-> & -> & -> & ->).
  { split; [exact (f_equal buf Ex)|]. split; [exact (f_equal Buffer.rd Ex)|]. split; [exact (f_equal r_ Ex)|exact (f_equal last Ex)]. }
  exists b2, rd2, off2, (firstn (Z.to_nat off2) b2). split; [reflexivity|]. repeat split; try assumption; try lia.
Qed.

Lemma NewLexer_twin rd1 rd2 : seen (size rd1) rd1 = seen (size rd2) rd2 ->
  List.length (fst (first_part 100 [] rd1)) = List.length (fst (first_part 100 [] rd2)) -> twin (NewLexer rd1) (NewLexer rd2).
Proof.
  intros H Hl. destruct (NewLexer_parts rd1) as (b1 & rd1' & off1 & d1 & E1 & Hb1 & Ho1 & Hd1 & Hl1 & Hf1 & Hs1).
  destruct (NewLexer_parts rd2) as (b2 & rd2' & off2 & d2 & E2 & Hb2 & Ho2 & Hd2 & Hl2 & Hf2 & Hs2).
  rewrite Hf1, Hf2 in Hl. cbn [fst] in Hl. assert (off2 = off1) by lia. subst off2. rewrite Hs1, Hs2 in H.
  destruct (app_eq_skip d1 _ d2 _ H ltac:(lia)) as (m & Em & Er).
  assert (m = []) by (destruct m; [reflexivity|apply (f_equal (@List.length byte)) in Em; rewrite app_length in Em; cbn [List.length] in Em; lia]). subst m. rewrite app_nil_r in Em. cbn [app] in Er.
  rewrite E1, E2. unfold twin. cbn [buf Buffer.rd r_ last]. repeat split; try assumption; try lia; try congruence.
  replace (off1 =? 4096) with true in Er by lia. replace (len d2 =? 4096) with true in Er by lia. exact Er.
Qed.

(** ** The text parser does not use Token8 *)
Lemma tokless_bind {A B} (m : prog A) (k : A -> prog B) : tokless m -> (forall a, tokless (k a)) -> tokless (pbind m k).
Proof. intros Hm Hk. induction m; cbn [pbind tokless] in *; auto. Qed.

Create HintDb tokless.
Ltac tl := repeat first
  [ exact I
  | solve [auto with tokless]
  | progress intros
  | apply tokless_bind
  | match goal with
    | |- tokless (if ?b then _ else _) => destruct b
    | |- tokless (match ?b with _ => _ end) => destruct b
    | |- tokless (let _ := _ in _) => cbv zeta
    | |- _ => progress cbn [tokless]
    end ].

Lemma tokless_span f p : forall acc, tokless (span f p acc).
Proof. induction f; intro acc; cbn [span]; tl. Qed.
#[local] Hint Resolve tokless_span : tokless.
Lemma tokless_unread n : tokless (unread_n n).
Proof. induction n; cbn [unread_n]; tl. Qed.
#[local] Hint Resolve tokless_unread : tokless.
Lemma tokless_space_max f max : forall s t, tokless (space_max f max s t).
Proof. induction f as [|f IH]; intros s t; cbn [space_max]; tl. Qed.
#[local] Hint Resolve tokless_space_max : tokless.
Lemma tokless_quoted F f ind q : forall c2 b, tokless (quoted_loop F f ind q c2 b).
Proof. induction f as [|f IH]; intros c2 b; cbn [quoted_loop]; unfold SpaceMax; tl. Qed.
#[local] Hint Resolve tokless_quoted : tokless.
Lemma tokless_comment f : tokless (comment_loop f).
Proof. induction f as [|f IH]; cbn [comment_loop]; tl. Qed.
#[local] Hint Resolve tokless_comment : tokless.
Lemma tokless_block_line f : forall b, tokless (block_line f b).
Proof. induction f as [|f IH]; intro b; cbn [block_line]; tl. Qed.
#[local] Hint Resolve tokless_block_line : tokless.
Lemma tokless_block_lines F f n : forall b, tokless (block_lines F f n b).
Proof. induction f as [|f IH]; intro b; cbn [block_lines]; unfold Space; tl. Qed.
#[local] Hint Resolve tokless_block_lines : tokless.
Lemma tokless_scalar F E types n : tokless (scalar_event F E types n).
Proof. unfold scalar_event, ScalarType, Scalar_tok, Quoted, String_tok, Byte_. tl. Qed.
#[local] Hint Resolve tokless_scalar : tokless.
Lemma tokless_line_loop F E f types n : tokless (line_loop F E f types n).
Proof. induction f as [|f IH]; cbn [line_loop]; unfold End, Break, Comment, Block, Byte_, Space; tl. Qed.
#[local] Hint Resolve tokless_line_loop : tokless.
Lemma tokless_tree F E f types : forall ns, tokless (tree_ F E f types ns).
Proof. induction f as [|f IH]; intro ns; cbn [tree_]; unfold line, Space, End, PeekByte, Byte_, Level; tl. Qed.
#[local] Hint Resolve tokless_tree : tokless.
Lemma tokless_Ogdl F E f types : tokless (Ogdl F E f types).
Proof. unfold Ogdl, Space. tl. Qed.

Lemma FromReader_twin E fuel types rd1 rd2 : twin (NewLexer rd1) (NewLexer rd2) ->
  FromReader E fuel types rd1 = FromReader E fuel types rd2.
Proof.
  intro Ht. unfold FromReader. pose proof (twin_run E fuel _ (tokless_Ogdl fuel E fuel types) _ _ h_init Ht) as H.
  destruct (run_buf E fuel (Ogdl fuel E fuel types) (NewLexer rd1) h_init) as [[[u x] h]| |].
  - destruct H as (y' & -> & _). reflexivity.
  - rewrite H. reflexivity.
  - rewrite H. reflexivity.
Qed.

(** ** A reader with all of the data in one piece *)
Lemma later_whole s : later [(s, false)] = s.
Proof.
  unfold later. cbn [size fold_right fst]. rewrite Nat.add_1_r.
  assert (H : forall n s, (List.length s < n)%nat -> later_parts n [(s, false)] = s).
  { clear. induction n as [|n IH]; intros s H; [lia|]. cbn [later_parts rd_read].
    destruct (Z.leb_spec (len s) 2048) as [Hle|Hgt].
    - destruct (len s =? 2048); [|reflexivity]. destruct n; cbn [later_parts rd_read]; apply app_nil_r.
    - rewrite firstn_length. replace (Z.of_nat (Nat.min (Z.to_nat 2048) (List.length s)) =? 2048) with true by lia.
      rewrite IH by (rewrite skipn_length; lia). apply firstn_skipn. }
  apply H. lia.
Qed.

Lemma later_nil : later [] = [].
Proof. reflexivity. Qed.

Lemma first_part_S i have rd : first_part (S i) have rd =
  let '(d, err, rd) := rd_read (4096 - len have) rd in
  if (err : bool) then (have, rd)
  else if 2048 <=? len (have ++ d) then (have ++ d, rd) else first_part i (have ++ d) rd.
Proof. reflexivity. Qed.

Lemma seen_later n rd : (size rd <= n)%nat -> seen n rd = let '(d, rd') := first_part 100 [] rd in if len d =? 4096 then d ++ later rd' else d.
Proof.
  intro Hn. unfold seen. destruct (first_part 100 [] rd) as [d rd'] eqn:E. destruct (len d =? 4096); [|reflexivity]. f_equal.
  apply later_parts_fuel; [|lia].
  assert (Hfs : forall i have rd r rd', first_part i have rd = (r, rd') -> (size rd' <= size rd)%nat).
  { clear. intro i. induction i as [|i IH]; intros have rd r rd' H; cbn [first_part] in H.
    - injection H as <- <-. auto.
    - destruct (rd_read (4096 - len have) rd) as [[d err] rd2] eqn:E.
      assert (Hs : (size rd2 <= size rd)%nat).
      { destruct (Z_le_dec 0 (4096 - len have)) as [Hk|Hk]; [apply rd_read_size in E; lia|].
        destruct rd as [|[c e] rd]; cbn [rd_read] in E.
        + injection E as <- <- <-. auto.
        + replace (len c <=? 4096 - len have) with false in E by lia. apply triple_inj in E as (<- & <- & <-).
          rewrite !size_cons, skipn_length. lia. }
      destruct err; [injection H as <- <-; auto|]. destruct (2048 <=? len (have ++ d)); [injection H as <- <-; auto|].
      apply IH in H. lia. }
  apply Hfs in E. lia.
Qed.

Lemma first_part_bytes s : first_part 100 [] (bytes_reader s) =
  (firstn (Z.to_nat 4096) s, if len s <=? 4096 then [] else [(skipn (Z.to_nat 4096) s, false)]).
Proof.
  rewrite (first_part_S 99). generalize 98%nat as i. intro i. change (4096 - len []) with 4096. destruct s as [|c s].
  - reflexivity.
  - unfold bytes_reader. cbn [rd_read]. destruct (Z.leb_spec (len (c :: s)) 4096) as [Hle|Hgt].
    + rewrite (firstn_all2 (n := Z.to_nat 4096)) by lia. change ([] ++ c :: s) with (c :: s).
      destruct (2048 <=? len (c :: s)); [reflexivity|]. change 99%nat with (S 98). rewrite first_part_S. reflexivity.
    + cbn [app]. rewrite firstn_length. replace (2048 <=? Z.of_nat (Nat.min (Z.to_nat 4096) (List.length (c :: s)))) with true by lia. reflexivity.
Qed.

Lemma seen_bytes s : seen (size (bytes_reader s)) (bytes_reader s) = s.
Proof.
  rewrite seen_later, first_part_bytes by lia. rewrite firstn_length.
  destruct (Z.leb_spec (len s) 4096) as [Hle|Hgt].
  - rewrite later_nil, app_nil_r, firstn_all2 by lia. destruct (_ =? _); reflexivity.
  - replace (Z.of_nat (Nat.min (Z.to_nat 4096) (List.length s)) =? 4096) with true by lia.
    rewrite later_whole. apply firstn_skipn.
Qed.

(** What the first Reads give decides, unless they give exactly 4096 bytes and that is all. *)
Lemma FromReader_seen E fuel types rd : FromReader E fuel types rd = FromReader E fuel types (bytes_reader (seen (size rd) rd)).
Proof.
  apply FromReader_twin, NewLexer_twin; [rewrite seen_bytes; reflexivity|]. rewrite first_part_bytes. cbn [fst].
  rewrite seen_later by lia. rewrite firstn_length.
  destruct (NewLexer_parts rd) as (b1 & rd1' & off1 & d1 & E1 & Hb1 & Ho1 & Hd1 & Hl1 & Hf1 & Hs1). rewrite Hf1. cbn [fst].
  destruct (Z.eqb_spec (len d1) 4096).
  - rewrite app_length. lia.
  - lia.
Qed.
Lemma rd_read_blocks rd data k : blocks rd data -> k = 2048 \/ (k = 4096 /\ first_full rd) ->
  exists d data' rd', data = d ++ data' /\ rd_read k rd = (d, match data with [] => true | _ => false end, rd') /\
    blocks rd' data' /\ len d <= k /\ (len d < k -> data' = [] /\ rd' = []).
Proof.
  intros H Hk. inversion H as [|d Hd|d rd1 data1 Hd Hm Hb]; subst; cbn [rd_read].
  - exists [], [], []. repeat split; try constructor; destruct Hk; cbn; lia.
  - destruct (Z.leb_spec (len data) k) as [Hle|Hgt].
    + exists data, [], []. rewrite app_nil_r. destruct data; [congruence|]. repeat split; try constructor; lia.
    + exists (firstn (Z.to_nat k) data), (skipn (Z.to_nat k) data), [(skipn (Z.to_nat k) data, false)].
      rewrite firstn_skipn, firstn_length. destruct data as [|c data]; [congruence|].
      split; [reflexivity|]. split; [reflexivity|]. split; [|lia].
      constructor. intro E. apply (f_equal (@List.length byte)) in E. rewrite skipn_length in E. cbn [List.length] in *. lia.
  - assert (Hd2 : 2048 <= len d).
    { destruct d as [|c d]; [congruence|]. pose proof (Z.div_mod (len (c :: d)) 2048 ltac:(lia)) as E.
      rewrite Hm in E. cbn [List.length] in *. lia. }
    destruct (Z.leb_spec (len d) k) as [Hle|Hgt].
    + exists d, data1, rd1. split; [reflexivity|]. split; [destruct d; [congruence|reflexivity]|].
      split; [exact Hb|]. split; [exact Hle|]. intro Hlt.
      destruct Hk as [->|[-> Hf]]; [lia|]. destruct rd1 as [|e rd1].
      * inversion Hb; auto.
      * cbn in Hf. lia.
    + exists (firstn (Z.to_nat k) d), (skipn (Z.to_nat k) d ++ data1), ((skipn (Z.to_nat k) d, false) :: rd1).
      rewrite app_assoc, firstn_skipn, firstn_length. split; [reflexivity|].
      split; [destruct d; [congruence|reflexivity]|]. split; [|lia].
      constructor; [| |exact Hb].
      * intro E. apply (f_equal (@List.length byte)) in E. rewrite skipn_length in E. cbn [List.length] in *. lia.
      * rewrite skipn_length. replace (Z.of_nat (List.length d - Z.to_nat k)) with (len d - k) by lia.
        destruct Hk as [->|[-> _]]; rewrite Zminus_mod, Hm; reflexivity.
Qed.


Lemma later_blocks n : forall rd data, (size rd <= n)%nat -> blocks rd data -> later rd = data.
Proof.
  induction n as [|n IH]; intros rd data Hn H; [pose proof (size_pos rd); lia|].
  destruct (rd_read_blocks rd data 2048 H (or_introl eq_refl)) as (d & data' & rd' & E & Er & Hb & Hl & Hlt).
  rewrite later_eq, Er. pose proof (rd_read_size 2048 _ _ _ _ ltac:(lia) Er) as [Hs _].
  destruct data as [|c data].
  - reflexivity.
  - destruct (Z.eqb_spec (len d) 2048) as [E2|E2].
    + rewrite E. f_equal. apply IH; [lia|exact Hb].
    + destruct (Hlt ltac:(lia)) as [-> ->]. rewrite E, app_nil_r. reflexivity.
Qed.

Lemma seen_blocks rd data : blocks rd data -> first_full rd -> seen (size rd) rd = data.
Proof.
  intros Hb Hf. rewrite seen_later by lia. rewrite (first_part_S 99). change 99%nat with (S 98). generalize 98%nat as i. intro i.
  change (4096 - len []) with 4096.
  destruct (rd_read_blocks rd data 4096 Hb (or_intror (conj eq_refl Hf))) as (d & data' & rd' & E & Er & Hb' & Hl & Hlt).
  rewrite Er. destruct data as [|c data]; [reflexivity|]. cbn [app].
  destruct (Z.eqb_spec (len d) 4096) as [E4|E4].
  - replace (2048 <=? len d) with true by lia. replace (len d =? 4096) with true by lia.
    rewrite (later_blocks _ _ _ (le_n _) Hb'). symmetry; exact E.
  - destruct (Hlt ltac:(lia)) as [-> ->]. rewrite app_nil_r in E. rewrite E.
    destruct (2048 <=? len d).
    + replace (len d =? 4096) with false by lia. reflexivity.
    + rewrite first_part_S. cbn [rd_read]. replace (len d =? 4096) with false by lia. reflexivity.
Qed.

(** Any pieces, if they are few and small. *)
Lemma first_part_small rd : forall i have, (List.length rd < i)%nat -> Forall (fun de => snd de = false) rd ->
  len have + len (rd_data rd) <= 2048 -> (len have < 2048 \/ rd = []) ->
  exists rd', first_part i have rd = (have ++ rd_data rd, rd').
Proof.
  induction rd as [|[d e] rd IH]; intros i have Hi Hf Hs Hh; (destruct i as [|i]; [cbn in Hi; lia|]); rewrite first_part_S.
  - cbn [rd_read rd_data]. rewrite app_nil_r. eauto.
  - inversion Hf as [|? ? He Hf']; subst. cbn in He. subst e. cbn [rd_read rd_data] in *. rewrite app_length in Hs.
    replace (len d <=? 4096 - len have) with true by lia. cbn [List.length] in Hi.
    destruct (Z.leb_spec 2048 (len (have ++ d))) as [H2|H2]; rewrite app_length in H2.
    + assert (E : rd_data rd = []) by (destruct (rd_data rd); [reflexivity|cbn in Hs; lia]). rewrite E, app_nil_r. eauto.
    + destruct (IH i (have ++ d)) as (rd' & Erd); [lia|exact Hf'|rewrite app_length; lia|left; rewrite app_length; lia|].
      rewrite Erd, app_assoc. eauto.
Qed.

Lemma seen_small rd : (List.length rd < 100)%nat -> Forall (fun de => snd de = false) rd -> len (rd_data rd) <= 2048 ->
  seen (size rd) rd = rd_data rd.
Proof.
  intros Hl Hf Hs. rewrite seen_later by lia.
  destruct (first_part_small rd 100 [] Hl Hf) as (rd' & E); [cbn [List.length]; lia|left; cbn [List.length]; lia|].
  rewrite E. cbn [app]. replace (len (rd_data rd) =? 4096) with false by lia. reflexivity.
Qed.

Lemma ops_of_bytes data os : near (List.length data) os 0 0 = true ->
  x_ops os (NewLexer (bytes_reader data)) = Ok (p_ops data os 0).
Proof. intro H. rewrite (ops_of_reader (bytes_reader data)); rewrite seen_bytes; [reflexivity|exact H]. Qed.

Lemma FromReader_blocks E fuel types rd data : blocks rd data -> first_full rd ->
  FromReader E fuel types rd = FromReader E fuel types (bytes_reader data).
Proof. intros Hb Hf. rewrite FromReader_seen, (seen_blocks rd data Hb Hf). reflexivity. Qed.

Lemma FromReader_small E fuel types rd : (List.length rd < 100)%nat ->
  Forall (fun de => snd de = false) rd -> len (rd_data rd) <= 2048 ->
  FromReader E fuel types rd = FromReader E fuel types (bytes_reader (rd_data rd)).
Proof. intros H1 H2 H3. rewrite FromReader_seen, (seen_small rd H1 H2 H3). reflexivity. Qed.

(** ** Short texts: the buffer is not visible at all *)
Lemma FromReader_ideal E fuel types rd s : seen (size rd) rd = s -> len s <= 4094 -> (List.length s < fuel)%nat ->
  FromReader E fuel types rd = s_ogdl E fuel types s.
Proof.
  intros Hs Hl Hf. rewrite FromReader_seen, Hs. unfold FromReader, s_ogdl.
  pose proof (run_sim0 E fuel (Ogdl fuel E fuel types) (s_init s) _ h_init (NewLexer_sim0 s Hl)) as H.
  cbn [s_init past fut rev app] in H. specialize (H Hf). unfold s_init in *.
  destruct (run E (Ogdl fuel E fuel types) (mkS [] s false) h_init) as [[[u st] h]| |].
  - destruct H as (x & -> & _). reflexivity.
  - rewrite H. reflexivity.
  - rewrite H. reflexivity.
Qed.

Lemma seen_two a b : 2048 <= len a < 4096 -> seen (size [(a, false); (b, false)]) [(a, false); (b, false)] = a.
Proof.
  intro Ha. rewrite seen_later by lia. rewrite (first_part_S 99). generalize 99%nat. intro i. cbn [rd_read]. change (4096 - len []) with 4096.
  replace (len a <=? 4096) with true by lia. cbn [app]. replace (2048 <=? len a) with true by lia.
  replace (len a =? 4096) with false by lia. reflexivity.
Qed.

(** ** The limit on UnreadByte *)
Lemma x_ops_reads b rd os : len b = 4096 -> forall k r, 0 <= r -> r + Z.of_nat k < 4096 ->
  exists l, x_ops (repeat RByte k ++ os) (mkX b rd r 4096) = let* l' := x_ops os (mkX b rd (r + Z.of_nat k) 4096) in Ok (l ++ l').
Proof.
  intro Hb. induction k as [|k IH]; intros r Hr Hk.
  - exists []. cbn [repeat app]. rewrite Z.add_0_r. destruct (x_ops os _); reflexivity.
  - cbn [repeat app x_ops]. unfold b_byte, bufSize. cbn [last r_ buf Buffer.rd]. change (4096 <? 4096) with false. cbn [andb].
    unfold zget. replace (r <? 0) with false by lia.
    destruct (nth_error b (Z.to_nat r)) as [c|] eqn:En; [|apply nth_error_None in En; lia]. cbn [rbind].
    unfold fill, bufSize. cbn [r_]. replace (0 <=? r + 1) with true by lia. replace (r + 1 <? 4096) with true by lia. cbn [andb].
    destruct (IH (r + 1) ltac:(lia) ltac:(lia)) as (l & ->). exists (Some c :: l).
    replace (r + 1 + Z.of_nat k) with (r + Z.of_nat (S k)) by lia. destruct (x_ops os _); reflexivity.
Qed.
Lemma x_ops_unreads b rd la os : forall k r, Z.of_nat k <= r -> x_ops (repeat RUnread k ++ os) (mkX b rd r la) = x_ops os (mkX b rd (r - Z.of_nat k) la).
Proof.
  induction k as [|k IH]; intros r Hr.
  - cbn [repeat app]. f_equal. f_equal. lia.
  - cbn [repeat app x_ops]. unfold b_unread. cbn [r_]. replace (r <=? 0) with false by lia. cbn [buf Buffer.rd last].
    rewrite IH by lia. f_equal. f_equal. lia.
Qed.
Lemma p_ops_reads data os : forall k p, (p + k <= List.length data)%nat ->
  exists l, List.length l = k /\ p_ops data (repeat RByte k ++ os) p = l ++ p_ops data os (p + k).
Proof.
  induction k as [|k IH]; intros p H.
  - exists []. rewrite Nat.add_0_r. auto.
  - cbn [repeat app p_ops]. rewrite Nat.min_l by lia. destruct (IH (S p) ltac:(lia)) as (l & Hl & ->).
    exists (nth_error data p :: l). cbn [List.length app]. rewrite Hl. split; [reflexivity|]. do 3 f_equal. lia.
Qed.
Lemma p_ops_unreads data os : forall k p, p_ops data (repeat RUnread k ++ os) p = p_ops data os (p - k).
Proof.
  induction k as [|k IH]; intros p.
  - cbn [repeat app]. f_equal. lia.
  - cbn [repeat app p_ops]. rewrite IH. f_equal. lia.
Qed.
Lemma last_app_one {A} (l : list A) a d : List.last (l ++ [a]) d = a.
Proof. apply last_last. Qed.

Lemma unread_limit (lo up : bytes) (N M : nat) : len lo = 2048 -> len up = 2048 -> Z.of_nat N = 4096 -> Z.of_nat M = 2048 ->
  nth_error up 0 <> nth_error lo (pred M) ->
  let os := repeat RByte N ++ repeat RUnread (S M) ++ [RByte] in
  x_ops os (NewLexer (bytes_reader (lo ++ up))) <> Ok (p_ops (lo ++ up) os 0).
Proof.
  intros Hlo Hup HN HM Hne os. set (data := lo ++ up).
  assert (Hd : len data = 4096) by (unfold data; rewrite app_length; lia).
  destruct (NewLexer_parts (bytes_reader data)) as (b & rd' & off & d & E & Hb & Ho & Hdd & Hl & Hf & Hs).
  rewrite first_part_bytes, firstn_all2 in Hf by lia. replace (len data <=? 4096) with true in Hf by lia.
  assert (d = data /\ rd' = []) as [-> ->] by (split; congruence). assert (Hoff : off = 4096) by lia.
  rewrite firstn_all2 in Hdd by lia. subst b. rewrite E, Hoff. unfold os.
  destruct (p_ops_reads data (repeat RUnread (S M) ++ [RByte]) N 0 ltac:(lia)) as (l2 & Hl2 & ->).
  rewrite p_ops_unreads. destruct N as [|N]; [lia|]. replace (S N) with (N + 1)%nat at 1 by lia.
  rewrite repeat_app, <- app_assoc.
  destruct (x_ops_reads data [] (repeat RByte 1 ++ repeat RUnread (S M) ++ [RByte]) Hb N 0 ltac:(lia) ltac:(lia)) as (l & ->).
  replace (0 + Z.of_nat N) with 4095 by lia.
  change (repeat RByte 1 ++ repeat RUnread (S M) ++ [RByte]) with (RByte :: repeat RUnread (S M) ++ [RByte]).
  cbn [x_ops]. unfold b_byte at 1, bufSize. cbn [last r_ buf rd]. change (4096 <? 4096) with false. cbn [andb].
  unfold zget at 1. change (4095 <? 0) with false.
  destruct (nth_error data (Z.to_nat 4095)) as [c|] eqn:En; [|apply nth_error_None in En; lia]. cbn [rbind].
  unfold fill, bufSize. cbn [r_]. change (0 <=? 4095 + 1) with true. change (4095 + 1 <? 4096) with false. cbn [andb]. unfold halfSize. cbn [buf rd].
  replace (skipn (Z.to_nat 2048) data) with up.
  2: { unfold data. rewrite skipn_app, skipn_all2 by lia. replace (Z.to_nat 2048 - List.length lo)%nat with 0%nat by lia. reflexivity. }
  destruct (fill_loop 100 (up ++ up) [] 2048) as [[b2 rd2] off2] eqn:E2.
  destruct (refill_parts up [] b2 rd2 off2 Hup E2) as (d2 & Hb2 & Eoff & Hd2 & Hf2 & Hl3). rewrite later_nil in Hl3.
  symmetry in Hl3. apply app_eq_nil in Hl3 as [-> _]. rewrite app_nil_r in Hf2. cbn [List.length] in Eoff. assert (Eoff' : off2 = 2048) by lia. rewrite Eoff' in *. clear Eoff Eoff'.
  replace (S M) with (M + 1)%nat at 1 by lia. rewrite repeat_app, <- app_assoc.
  rewrite x_ops_unreads by lia. replace (2048 - Z.of_nat M) with 0 by lia.
  cbn [repeat app x_ops]. unfold b_unread. cbn [r_]. change (0 <=? 0) with true. cbv iota.
  unfold b_byte, bufSize. cbn [last r_ buf Buffer.rd]. change (2048 <? 4096) with true. change (2048 <=? 0) with false. cbn [andb].
  unfold zget. change (0 <? 0) with false.
  assert (Hn : nth_error b2 (Z.to_nat 0) = nth_error up 0).
  { rewrite <- (nth_firstn _ (Z.to_nat 2048)) by lia. rewrite Hf2. reflexivity. }
  rewrite Hn. destruct (nth_error up 0) as [cb|] eqn:Ecb; [|apply nth_error_None in Ecb; lia].
  cbn [rbind]. intro H. assert (H' : forall A (x y : A), Ok x = Ok y -> x = y) by (intros A x y Hxy; injection Hxy; auto).
  apply H' in H. apply (f_equal (fun l => List.last l None)) in H. cbn [p_ops] in H.
  rewrite last_last in H. replace (l ++ [Some c; Some cb]) with ((l ++ [Some c]) ++ [Some cb]) in H by (rewrite <- app_assoc; reflexivity).
  rewrite last_last in H. unfold data in H. replace (0 + S N - S M)%nat with (pred M) in H by lia.
  rewrite nth_error_app1 in H by lia. apply Hne. rewrite <- H. reflexivity.
Qed.
