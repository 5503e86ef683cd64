From Verif Require Import Base Value Event Lexer TextParser Stream Buffer BufferSpec.

Local Notation len l := (Z.of_nat (List.length l)).

Lemma zget_at {A} (a b : list A) c r : r = len a -> zget (a ++ c :: b) r = Ok c.
Proof.
  intros ->. unfold zget. replace (len a <? 0) with false by lia.
  rewrite Nat2Z.id, nth_error_app2, Nat.sub_diag by lia. reflexivity.
Qed.

Lemma app_eq_skip {A} (a b c d : list A) : a ++ b = c ++ d -> (List.length c <= List.length a)%nat ->
  exists m, a = c ++ m /\ d = m ++ b.
Proof.
  revert c. induction a as [|x a IH]; intros [|y c] H Hl; cbn in *; try lia.
  - exists []. auto.
  - exists (x :: a). auto.
  - injection H as -> H. destruct (IH c H ltac:(lia)) as (m & -> & ->). exists m. auto.
Qed.

(** ** fill *)

Lemma fill_loop_S i buf rd offset : fill_loop (S i) buf rd offset =
  let '(d, err, rd) := rd_read (bufSize - offset) rd in
  let buf := put offset d buf in
  if (err : bool) then (buf, rd, offset)
  else let offset := offset + Z.of_nat (List.length d) in
       if halfSize <=? offset then (buf, rd, offset) else fill_loop i buf rd offset.
Proof. reflexivity. Qed.

Lemma put_length off d b : 0 <= off -> off + len d <= len b -> List.length (put off d b) = List.length b.
Proof.
  intros H1 H2. unfold put. rewrite !app_length, firstn_length, skipn_length. lia.
Qed.

Lemma put_firstn off d b : 0 <= off -> off + len d <= len b ->
  firstn (Z.to_nat (off + len d)) (put off d b) = firstn (Z.to_nat off) b ++ d.
Proof.
  intros H1 H2. unfold put. rewrite app_assoc, firstn_app, app_length, firstn_length.
  replace (Z.to_nat (off + len d) - (Nat.min (Z.to_nat off) (List.length b) + List.length d))%nat with 0%nat by lia.
  cbn [firstn]. rewrite app_nil_r. apply firstn_all2. rewrite app_length, firstn_length. lia.
Qed.

Lemma triple_inj {A B C} (a a' : A) (b b' : B) (c c' : C) : (a, b, c) = (a', b', c') -> a = a' /\ b = b' /\ c = c'.
Proof. intro H. injection H. auto. Qed.

(** ** The part of the data that is seen *)
Lemma size_cons d e rd : size ((d, e) :: rd) = (List.length d + size rd)%nat.
Proof. reflexivity. Qed.
Lemma size_pos rd : (1 <= size rd)%nat.
Proof. induction rd as [|[d e] rd IH]; [cbn; lia|]. rewrite size_cons. lia. Qed.

Lemma rd_read_size k rd d err rd' : 0 <= k -> rd_read k rd = (d, err, rd') ->
  (List.length d + size rd' <= size rd)%nat /\ len d <= k.
Proof.
  intro Hk. destruct rd as [|[c e] rd]; cbn [rd_read].
  - intro H. apply triple_inj in H as (<- & <- & <-). cbn. lia.
  - destruct (Z.leb_spec (len c) k) as [Hle|Hgt]; intro H; apply triple_inj in H as (<- & <- & <-); rewrite size_cons.
    + split; [|exact Hle]. pose proof (size_pos rd). destruct e; [change (size []) with 1%nat|]; lia.
    + rewrite size_cons, firstn_length, skipn_length. lia.
Qed.

Lemma later_parts_fuel n : forall m rd, (size rd <= n)%nat -> (size rd <= m)%nat -> later_parts n rd = later_parts m rd.
Proof.
  induction n as [|n IH]; intros [|m] rd Hn Hm; pose proof (size_pos rd); try lia. cbn [later_parts].
  destruct (rd_read 2048 rd) as [[d err] rd'] eqn:E. apply rd_read_size in E as [E _]; [|lia].
  destruct err; [reflexivity|]. destruct (Z.eqb_spec (len d) 2048); [|reflexivity]. f_equal. apply IH; lia.
Qed.

Definition later (rd : reader) : bytes := later_parts (size rd) rd.
Lemma later_eq rd : later rd = let '(d, err, rd') := rd_read 2048 rd in
  if (err : bool) then [] else if len d =? 2048 then d ++ later rd' else d.
Proof.
  unfold later. pose proof (size_pos rd). destruct (size rd) as [|n] eqn:En; [lia|]. cbn [later_parts].
  destruct (rd_read 2048 rd) as [[d err] rd'] eqn:E. apply rd_read_size in E as [E _]; [|lia].
  destruct err; [reflexivity|]. destruct (Z.eqb_spec (len d) 2048); [|reflexivity]. f_equal. apply later_parts_fuel; lia.
Qed.

(** ** The lexer as a stream whose past is cut at every refill *)

Definition half : nat := Z.to_nat 2048.
Lemma half_eq : Z.of_nat half = 2048.
Proof. reflexivity. Qed.
(** What of the past is forgotten: at least 2048 bytes of it are kept. *)
Definition cut (s s' : stream) : Prop :=
  fut s' = fut s /\ over s' = over s /\ exists k, (half <= k)%nat /\ past s' = firstn k (past s).

Lemma cut_refl s : cut s s.
Proof. repeat split. exists (half + List.length (past s))%nat. split; [apply Nat.le_add_r|]. rewrite firstn_all2; [reflexivity|lia]. Qed.

Definition repr (x : lexer) (s : stream) : Prop :=
  len (buf x) = 4096 /\ 0 <= last x <= 4096 /\ 0 <= r_ x /\
  fut s = skipn (Z.to_nat (r_ x)) (firstn (Z.to_nat (last x)) (buf x)) ++ (if last x =? 4096 then later (rd x) else []) /\
  past s = rev (firstn (Z.to_nat (Z.min (r_ x) (last x))) (buf x)) /\
  (over s = true -> last x < 4096 /\ r_ x = last x + 1) /\
  (over s = false -> r_ x <= last x /\ r_ x < 4096).

Lemma skipn_S {A} n (l : list A) c r : skipn n l = c :: r -> skipn (S n) l = r /\ nth_error l n = Some c /\ firstn (S n) l = firstn n l ++ [c].
Proof.
  revert l. induction n as [|n IH]; intros [|a l] H; cbn [skipn] in *; try discriminate.
  - injection H as -> ->. auto.
  - destruct (IH l H) as (H1 & H2 & H3). cbn. cbn in H3. rewrite <- H3. auto.
Qed.

Lemma nth_firstn {A} n m (l : list A) : (n < m)%nat -> nth_error (firstn m l) n = nth_error l n.
Proof. revert m l. induction n as [|n IH]; intros [|m] [|a l] H; cbn; try lia; try reflexivity. apply IH. lia. Qed.

Lemma half_refill up rd b rd' off : len up = 2048 -> fill_loop 100 (up ++ up) rd 2048 = (b, rd', off) ->
  len b = 4096 /\ 2048 <= off <= 4096 /\ firstn half b = up /\
  later rd = skipn half (firstn (Z.to_nat off) b) ++ (if off =? 4096 then later rd' else []).
Proof.
  pose proof half_eq as Hhalf. intros Hup. rewrite later_eq, (fill_loop_S 99). change (bufSize - 2048) with 2048. cbv zeta.
  destruct (rd_read 2048 rd) as [[d err] rd2] eqn:E. apply rd_read_size in E as [_ Hd]; [|lia].
  assert (Hl : len (put 2048 d (up ++ up)) = 4096) by (rewrite put_length; rewrite ?app_length; lia).
  assert (Hf : firstn (Z.to_nat (2048 + len d)) (put 2048 d (up ++ up)) = up ++ d).
  { rewrite put_firstn; [|lia|rewrite app_length; lia]. change (Z.to_nat 2048) with half. rewrite firstn_app, firstn_all2 by lia.
    replace (half - List.length up)%nat with 0%nat by lia. cbn [firstn]. rewrite app_nil_r. reflexivity. }
  assert (Hup2 : firstn half (put 2048 d (up ++ up)) = up).
  { unfold put. change (Z.to_nat 2048) with half. rewrite firstn_app, firstn_firstn, firstn_length, app_length. 
    rewrite Nat.min_id. replace (half - Nat.min half (List.length up + List.length up))%nat with 0%nat by lia.
    rewrite firstn_O, app_nil_r, firstn_app. replace (half - List.length up)%nat with 0%nat by lia. rewrite firstn_O, app_nil_r. apply firstn_all2. lia. }
  assert (Hsk : forall t : bytes, skipn half (up ++ t) = t).
  { intro t. rewrite skipn_app, skipn_all2 by lia. replace (half - List.length up)%nat with 0%nat by lia. reflexivity. }
  destruct err.
  - intro H. apply triple_inj in H as (<- & <- & <-). split; [exact Hl|]. split; [lia|]. split; [exact Hup2|].
    change (Z.to_nat 2048) with half. rewrite skipn_all2 by (rewrite firstn_length; apply Nat.le_min_l). reflexivity.
  - unfold halfSize. replace (2048 <=? 2048 + len d) with true by lia. intro H. apply triple_inj in H as (<- & <- & <-).
    split; [exact Hl|]. split; [lia|]. split; [exact Hup2|]. rewrite Hf, Hsk.
    destruct (Z.eqb_spec (len d) 2048) as [E2|E2].
    + replace (2048 + len d =? 4096) with true by lia. reflexivity.
    + replace (2048 + len d =? 4096) with false by lia. rewrite app_nil_r. reflexivity.
Qed.

Lemma repr_byte x s : repr x s ->
  let '(c, ok, s') := s_byte s in
  exists x' s'', b_byte x = Ok (c, ok, x') /\ cut s' s'' /\ repr x' s''.
Proof.
  pose proof half_eq as Hhalf. intros (Hbuf & Hlast & Hr & Hfut & Hpast & Hov & Hnov). unfold s_byte, b_byte, bufSize.
  destruct (Z.ltb_spec (last x) 4096) as [Hlt|Hge].
  - replace (last x =? 4096) with false in Hfut by lia. rewrite app_nil_r in Hfut.
    destruct (Z.leb_spec (last x) (r_ x)) as [Hle|Hgt]; cbn [andb].
    + assert (Ef : fut s = []) by (rewrite Hfut; apply skipn_all2; rewrite firstn_length; lia).
      rewrite Ef. eexists _, _. split; [reflexivity|]. split; [apply cut_refl|].
      unfold repr. cbn [buf rd r_ last past fut over]. replace (last x =? 4096) with false by lia.
      split; [exact Hbuf|]. split; [exact Hlast|]. split; [lia|].
      split. { rewrite app_nil_r, skipn_all2; [reflexivity|rewrite firstn_length; lia]. }
      split. { rewrite Hpast. f_equal. f_equal. lia. }
      split; [auto|discriminate].
    + assert (Eo : over s = false) by (destruct (over s); [destruct (Hov eq_refl); lia|reflexivity]).
      destruct (fut s) as [|c f] eqn:Ef.
      { exfalso. apply (f_equal (@List.length byte)) in Hfut. rewrite skipn_length, firstn_length in Hfut. cbn in Hfut. lia. }
      symmetry in Hfut. destruct (skipn_S _ _ _ _ Hfut) as (H1 & H2 & H3). rewrite nth_firstn in H2 by lia.
      assert (Hz : zget (buf x) (r_ x) = Ok c) by (unfold zget; replace (r_ x <? 0) with false by lia; rewrite H2; reflexivity).
      rewrite Hz. cbn [rbind]. unfold fill, bufSize. cbn [r_]. replace (0 <=? r_ x + 1) with true by lia. replace (r_ x + 1 <? 4096) with true by lia. cbn [andb].
      eexists _, _. split; [reflexivity|]. split; [apply cut_refl|].
      unfold repr. cbn [buf rd r_ last past fut over]. replace (last x =? 4096) with false by lia.
      split; [exact Hbuf|]. split; [exact Hlast|]. split; [lia|].
      split. { rewrite app_nil_r. replace (Z.to_nat (r_ x + 1)) with (S (Z.to_nat (r_ x))) by lia. symmetry; exact H1. }
      split. { rewrite Hpast. replace (Z.to_nat (Z.min (r_ x + 1) (last x))) with (S (Z.to_nat (r_ x))) by lia.
        replace (Z.to_nat (Z.min (r_ x) (last x))) with (Z.to_nat (r_ x)) by lia.
        rewrite !firstn_firstn in H3. replace (Nat.min (S (Z.to_nat (r_ x))) (Z.to_nat (last x))) with (S (Z.to_nat (r_ x))) in H3 by lia.
        replace (Nat.min (Z.to_nat (r_ x)) (Z.to_nat (last x))) with (Z.to_nat (r_ x)) in H3 by lia.
        rewrite H3, rev_app_distr. reflexivity. }
      split; [discriminate|lia].
  - cbn [andb]. assert (El : last x = 4096) by lia. rewrite El in *. change (4096 =? 4096) with true in Hfut. cbv iota in Hfut.
    assert (Eo : over s = false) by (destruct (over s); [destruct (Hov eq_refl); lia|reflexivity]). destruct (Hnov Eo) as [_ Hr4].
    rewrite (firstn_all2 (n := Z.to_nat 4096)) in Hfut by lia.
    replace (Z.min (r_ x) 4096) with (r_ x) in Hpast by lia.
    destruct (skipn (Z.to_nat (r_ x)) (buf x)) as [|c f] eqn:Es.
    { exfalso. apply (f_equal (@List.length byte)) in Es. rewrite skipn_length in Es. cbn in Es. lia. }
    destruct (skipn_S _ _ _ _ Es) as (H1 & H2 & H3).
    cbn [app] in Hfut. rewrite Hfut.
    assert (Hz : zget (buf x) (r_ x) = Ok c) by (unfold zget; replace (r_ x <? 0) with false by lia; rewrite H2; reflexivity).
    rewrite Hz. cbn [rbind]. unfold fill, bufSize. cbn [r_]. replace (0 <=? r_ x + 1) with true by lia.
    destruct (Z.ltb_spec (r_ x + 1) 4096) as [Hin|Hout]; cbn [andb].
    + eexists _, _. split; [reflexivity|]. split; [apply cut_refl|].
      unfold repr. cbn [buf rd r_ last past fut over]. change (4096 =? 4096) with true. cbv iota.
      split; [exact Hbuf|]. split; [lia|]. split; [lia|].
      rewrite (firstn_all2 (n := Z.to_nat 4096)) by lia.
      replace (Z.min (r_ x + 1) 4096) with (r_ x + 1) by lia.
      replace (Z.to_nat (r_ x + 1)) with (S (Z.to_nat (r_ x))) by lia.
      split. { rewrite H1. reflexivity. }
      split. { rewrite Hpast, H3, rev_app_distr. reflexivity. }
      split; [discriminate|lia].
    + unfold halfSize. cbn [buf rd].
      assert (Hup : len (skipn (Z.to_nat 2048) (buf x)) = 2048) by (rewrite skipn_length; lia).
      destruct (fill_loop 100 (skipn (Z.to_nat 2048) (buf x) ++ skipn (Z.to_nat 2048) (buf x)) (rd x) 2048) as [[b rd'] off] eqn:Efl.
      apply half_refill in Efl as (Hb & Hoff & Hfirst & Hlater); [|exact Hup].
      eexists _, (mkS (rev (firstn half b)) (skipn half (firstn (Z.to_nat off) b) ++ (if off =? 4096 then later rd' else [])) false).
      split; [reflexivity|].
      assert (Hf : f = []).
      { apply (f_equal (@List.length byte)) in Es. rewrite skipn_length in Es. cbn in Es. destruct f; [reflexivity|cbn in Es; lia]. }
      split.
      * unfold cut. cbn [past fut over]. split; [rewrite <- Hlater, Hf; reflexivity|]. split; [reflexivity|].
        exists half. split; [apply le_n|]. rewrite Hpast, Hfirst.
        assert (Erev : c :: rev (firstn (Z.to_nat (r_ x)) (buf x)) = rev (buf x)).
        { transitivity (rev (firstn (Z.to_nat (r_ x)) (buf x) ++ [c])); [rewrite rev_app_distr; reflexivity|].
          rewrite <- H3, firstn_all2; [reflexivity|lia]. }
        rewrite Erev, <- (rev_involutive (buf x)) at 1. rewrite skipn_rev, rev_length. f_equal.
        rewrite rev_involutive. f_equal. lia.
      * unfold repr. cbn [buf rd r_ last past fut over]. change (Z.to_nat 2048) with half.
        split; [exact Hb|]. split; [lia|]. split; [lia|]. split; [reflexivity|].
        split. { replace (Z.min 2048 off) with 2048 by lia. reflexivity. }
        split; [discriminate|lia].
Qed.

Lemma repr_unread x s : repr x s -> repr (b_unread x) (s_unread s).
Proof.
  intros (Hbuf & Hlast & Hr & Hfut & Hpast & Hov & Hnov). unfold s_unread, b_unread.
  destruct (over s) eqn:Eo.
  - destruct (Hov eq_refl) as [H1 H2]. replace (r_ x <=? 0) with false by lia.
    unfold repr. cbn [buf rd r_ last past fut over].
    split; [exact Hbuf|]. split; [exact Hlast|]. split; [lia|].
    split. { rewrite Hfut. f_equal. rewrite !skipn_all2; try reflexivity; rewrite firstn_length; lia. }
    split. { rewrite Hpast. f_equal. f_equal. lia. } split; [discriminate|lia].
  - destruct (Hnov eq_refl) as [H1 H2]. replace (Z.min (r_ x) (last x)) with (r_ x) in Hpast by lia.
    destruct (Z.leb_spec (r_ x) 0) as [Hz|Hz].
    + assert (Ez : r_ x = 0) by lia. rewrite Ez in Hpast. cbn in Hpast. rewrite Hpast.
      unfold repr. rewrite Eo. split; [exact Hbuf|]. split; [exact Hlast|]. split; [exact Hr|]. split; [exact Hfut|].
      split. { replace (Z.min (r_ x) (last x)) with 0 by lia. exact Hpast. } split; [discriminate|lia].
    + destruct (skipn (Z.to_nat (r_ x - 1)) (firstn (Z.to_nat (last x)) (buf x))) as [|c f] eqn:Es.
      { exfalso. apply (f_equal (@List.length byte)) in Es. rewrite skipn_length, firstn_length in Es. cbn in Es. lia. }
      destruct (skipn_S _ _ _ _ Es) as (K1 & K2 & K3). replace (S (Z.to_nat (r_ x - 1))) with (Z.to_nat (r_ x)) in * by lia.
      rewrite !firstn_firstn in K3. replace (Nat.min (Z.to_nat (r_ x)) (Z.to_nat (last x))) with (Z.to_nat (r_ x)) in K3 by lia.
      replace (Nat.min (Z.to_nat (r_ x - 1)) (Z.to_nat (last x))) with (Z.to_nat (r_ x - 1)) in K3 by lia.
      rewrite K3, rev_app_distr in Hpast. cbn [rev app] in Hpast. rewrite Hpast.
      unfold repr. cbn [buf rd r_ last past fut over].
      split; [exact Hbuf|]. split; [exact Hlast|]. split; [lia|].
      split. { rewrite Hfut, Es, K1. reflexivity. }
      split. { replace (Z.min (r_ x - 1) (last x)) with (r_ x - 1) by lia. reflexivity. } split; [discriminate|lia].
Qed.

(** ** The start *)
Lemma fill_loop_first i : forall b rd have b' rd' off, len b = 4096 -> len have < 2048 ->
  firstn (List.length have) b = have ->
  fill_loop i b rd (len have) = (b', rd', off) ->
  len b' = 4096 /\ 0 <= off <= 4096 /\ first_part i have rd = (firstn (Z.to_nat off) b', rd') /\ off = len (firstn (Z.to_nat off) b').
Proof.
  induction i as [|i IH]; intros b rd have b' rd' off Hb Hh Hf.
  - cbn [fill_loop first_part]. intro H. apply triple_inj in H as (<- & <- & <-). rewrite Nat2Z.id, Hf.
    split; [exact Hb|]. split; [lia|]. auto.
  - rewrite fill_loop_S. cbn [first_part]. unfold bufSize.
    destruct (rd_read (4096 - len have) rd) as [[d err] rd2] eqn:E. apply rd_read_size in E as [_ Hd]; [|lia]. cbv zeta.
    assert (Hl : len (put (len have) d b) = 4096) by (rewrite put_length; lia).
    assert (Hp : firstn (Z.to_nat (len have + len d)) (put (len have) d b) = have ++ d) by (rewrite put_firstn by lia; rewrite Nat2Z.id, Hf; reflexivity).
    destruct err.
    + intro H. apply triple_inj in H as (<- & <- & <-). rewrite Nat2Z.id.
      assert (Hk : firstn (List.length have) (put (len have) d b) = have).
      { apply (f_equal (firstn (List.length have))) in Hp. rewrite firstn_firstn, firstn_app, Nat.sub_diag, firstn_O, app_nil_r, firstn_all in Hp.
        rewrite <- Hp at 3. f_equal. lia. }
      rewrite Hk. split; [exact Hl|]. split; [lia|]. auto.
    + unfold halfSize. rewrite app_length, Nat2Z.inj_add. destruct (Z.leb_spec 2048 (len have + len d)) as [Hle|Hgt].
      * intro H. apply triple_inj in H as (<- & <- & <-). rewrite Hp, app_length. split; [exact Hl|]. split; [lia|]. split; [reflexivity|lia].
      * intro H. replace (len have + len d) with (len (have ++ d)) in H by (rewrite app_length; lia).
        apply (IH _ _ (have ++ d) _ _ _ Hl) in H; [exact H|rewrite app_length; lia|].
        rewrite <- Hp at 2. f_equal. rewrite app_length. lia.
Qed.

Lemma fill_repr z rd : len z = 4096 -> repr (fill (mkX z rd (-1) bufSize)) (s_init (seen (size rd) rd)).
Proof.
  intros Hz. unfold fill, seen. cbn [r_ buf Buffer.rd]. cbn [Z.leb Z.compare andb].
  destruct (fill_loop 100 z rd 0) as [[b rd'] off] eqn:Efl.
  apply (fill_loop_first 100 z rd [] b rd' off Hz) in Efl as (Hb & Hoff & Hfp & Hlen); [|cbn; lia|reflexivity].
  rewrite Hfp, <- Hlen. unfold repr. cbn [buf Buffer.rd r_ last past fut over s_init].
  split; [exact Hb|]. split; [lia|]. split; [lia|].
  split; [|split; [replace (Z.min 0 off) with 0 by lia; reflexivity|split; [discriminate|lia]]].
  change (skipn (Z.to_nat 0) (firstn (Z.to_nat off) b)) with (firstn (Z.to_nat off) b).
  destruct (off =? 4096); [|rewrite app_nil_r; reflexivity]. f_equal. unfold later. apply later_parts_fuel; [|lia].
  assert (Hfs : forall i have rd r rd', first_part i have rd = (r, rd') -> (size rd' <= size rd)%nat /\ True).
  { clear. intro i. induction i as [|i IH]; intros have rd r rd' H; cbn [first_part] in H.
    - injection H as <- <-. auto.
    - destruct (rd_read (4096 - len have) rd) as [[d err] rd2] eqn:E.
      assert (Hs : (size rd2 <= size rd)%nat).
      { destruct (Z_le_dec 0 (4096 - len have)) as [Hk|Hk]; [apply rd_read_size in E; lia|].
        destruct rd as [|[c e] rd]; cbn [rd_read] in E.
        + injection E as <- <- <-. auto.
        + replace (len c <=? 4096 - len have) with false in E by lia. injection E as <- <- <-.
          rewrite !size_cons, skipn_length. lia. }
      destruct err; [injection H as <- <-; auto|]. destruct (2048 <=? len (have ++ d)); [injection H as <- <-; auto|].
      apply IH in H as [H _]. split; [lia|auto]. }
  apply Hfs in Hfp as [Hfp _]. lia.
Qed.

Lemma zeros_length : len (repeat x00 (Z.to_nat bufSize)) = 4096.
Proof. rewrite repeat_length. reflexivity. Qed.

Lemma NewLexer_repr rd : repr (NewLexer rd) (s_init (seen (size rd) rd)).
Proof. exact (fill_repr _ rd zeros_length). Qed.

(** ** Short inputs: no refill ever happens, Token8 is exact too *)
Definition ov (s : stream) : Z := if over s then 1 else 0.
Definition sim0 (s : stream) (x : lexer) : Prop :=
  let src := rev (past s) ++ fut s in
  len src <= 4094 /\ buf x = src ++ repeat x00 (Z.to_nat (4096 - len src)) /\ last x = len src /\
  r_ x = len (past s) + ov s /\ (over s = true -> fut s = []).

Lemma sim0_byte s x : sim0 s x ->
  let '(c, ok, s') := s_byte s in exists x', b_byte x = Ok (c, ok, x') /\ sim0 s' x'.
Proof.
  intros (Hl & Hb & Hla & Hr & Ho). unfold s_byte. unfold b_byte, bufSize.
  rewrite app_length, rev_length in *. replace (last x <? 4096) with true by lia.
  destruct (fut s) as [|c f] eqn:Ef.
  - cbn [List.length] in *. assert (Hge : last x <= r_ x) by (unfold ov in Hr; destruct (over s); lia).
    replace (last x <=? r_ x) with true by lia. cbn [andb]. eexists. split; [reflexivity|].
    unfold sim0. cbn [past fut over buf last r_]. rewrite app_length, rev_length. cbn [List.length]. unfold ov; cbn [over].
    repeat split; try assumption; lia.
  - assert (Eo : over s = false) by (destruct (over s); [specialize (Ho eq_refl); discriminate|reflexivity]).
    unfold ov in Hr. rewrite Eo in Hr. cbn [List.length] in *. replace (last x <=? r_ x) with false by lia. cbn [andb].
    assert (Hz : zget (buf x) (r_ x) = Ok c) by (rewrite Hb, <- app_assoc; cbn [app]; apply zget_at; rewrite rev_length; lia). rewrite Hz. cbn [rbind].
    eexists. split; [reflexivity|]. unfold fill, bufSize. cbn [r_]. replace (0 <=? r_ x + 1) with true by lia.
    replace (r_ x + 1 <? 4096) with true by lia. cbn [andb].
    unfold sim0. cbn [past fut over buf last r_ rev]. rewrite <- !app_assoc. cbn [app]. unfold ov; cbn [over].
    rewrite <- app_assoc in Hb. cbn [app] in Hb.
    rewrite app_length, rev_length in *. cbn [List.length] in *. repeat split; try assumption; try lia.
Qed.

Lemma sim0_unread s x : sim0 s x -> sim0 (s_unread s) (b_unread x).
Proof.
  intros (Hl & Hb & Hla & Hr & Ho). unfold s_unread, b_unread, ov in *. destruct (over s) eqn:Eo.
  - rewrite (Ho eq_refl) in *. replace (r_ x <=? 0) with false by lia. unfold sim0. cbn [past fut over buf last r_]. unfold ov; cbn [over].
    repeat split; try assumption; try lia.
  - destruct (past s) as [|c p] eqn:Ep.
    + cbn [List.length] in Hr. replace (r_ x <=? 0) with true by lia. unfold sim0. rewrite Ep. unfold ov. rewrite Eo. cbn [List.length] in *.
      repeat split; try assumption; try lia; congruence.
    + cbn [List.length] in Hr. replace (r_ x <=? 0) with false by lia. unfold sim0. cbn [past fut over buf last r_ List.length]. unfold ov; cbn [over].
      cbn [rev] in *. rewrite <- !app_assoc in *. cbn [app] in *. repeat split; try assumption; try lia.
Qed.

Lemma decode_size s c t : s = c :: t -> 1 <= snd (decode_rune s) <= len s.
Proof.
  intros ->. unfold decode_rune. cbn [List.length].
  repeat match goal with
  | |- context[if ?b then _ else _] => destruct b
  | |- context[match ?l with [] => _ | _ :: _ => _ end] => destruct l
  end; cbn [snd List.length]; lia.
Qed.

Lemma decode_ascii c t : bz c < 0x80 -> decode_rune (c :: t) = (bz c, 1).
Proof. intro H. unfold decode_rune. replace (bz c <? 0x80) with true by lia. reflexivity. Qed.

Lemma sim0_rune s x : sim0 s x ->
  match fut s with
  | [] => b_rune x = Ok (0, 1, mkX (buf x) (rd x) (r_ x + 1) (last x))
  | _ => b_rune x = Ok (decode_rune (fut s), mkX (buf x) (rd x) (r_ x + snd (decode_rune (fut s))) (last x))
  end.
Proof.
  intros (Hl & Hb & Hla & Hr & Ho). unfold b_rune, fill, bufSize. rewrite app_length, rev_length in *.
  assert (Hr0 : 0 <= r_ x < 4096).
  { unfold ov in Hr. destruct (over s); [rewrite (Ho eq_refl) in *; cbn in Hl|]; lia. }
  replace (0 <=? r_ x) with true by lia. replace (r_ x <? 4096) with true by lia. cbn [andb].
  destruct (fut s) as [|c f] eqn:Ef.
  - assert (Hz : zget (buf x) (r_ x) = Ok x00).
    { rewrite Hb, app_nil_r. unfold zget. replace (r_ x <? 0) with false by lia.
      rewrite nth_error_app2 by (rewrite rev_length; unfold ov in Hr; destruct (over s); lia).
      rewrite nth_error_repeat; [reflexivity|]. rewrite rev_length. cbn [List.length] in *. unfold ov in Hr; destruct (over s); lia. }
    rewrite Hz. cbn [rbind]. reflexivity.
  - assert (Eo : over s = false) by (destruct (over s); [specialize (Ho eq_refl); discriminate|reflexivity]).
    unfold ov in Hr. rewrite Eo in Hr.
    assert (Hz : zget (buf x) (r_ x) = Ok c) by (rewrite Hb, <- app_assoc; cbn [app]; apply zget_at; rewrite rev_length; lia). rewrite Hz. cbn [rbind].
    destruct (Z.ltb_spec (bz c) 0x80) as [Ha|Ha].
    + rewrite decode_ascii by exact Ha. reflexivity.
    + replace (last x <? r_ x) with false by lia.
      assert (Es : skipn (Z.to_nat (r_ x)) (firstn (Z.to_nat (last x)) (buf x)) = c :: f).
      { rewrite Hb, Hla, firstn_app. rewrite app_length, rev_length.
        replace (Z.to_nat (Z.of_nat (List.length (past s) + List.length (c :: f))) - (List.length (past s) + List.length (c :: f)))%nat with 0%nat by lia.
        cbn [firstn]. rewrite app_nil_r, firstn_all2 by (rewrite app_length, rev_length; lia).
        rewrite skipn_app, skipn_all2 by (rewrite rev_length; lia). rewrite rev_length.
        replace (Z.to_nat (r_ x) - List.length (past s))%nat with 0%nat by lia. reflexivity. }
      rewrite Es. cbn [rbind]. destruct (decode_rune (c :: f)) as [r n]. reflexivity.
Qed.

Lemma b_rune_keep x r n x' : 0 <= r_ x < 4096 -> b_rune x = Ok (r, n, x') -> buf x' = buf x /\ rd x' = rd x /\ last x' = last x /\ r_ x' = r_ x + n.
Proof.
  intros Hr. unfold b_rune, fill, bufSize. replace (0 <=? r_ x) with true by lia. replace (r_ x <? 4096) with true by lia. cbn [andb].
  destruct (zget (buf x) (r_ x)); try discriminate. cbn [rbind].
  match goal with |- (let* (a, b) := ?e in _) = _ -> _ => destruct e as [[r0 n0]| |] end; try discriminate. cbn [rbind].
  intro H. injection H as <- <- <-. auto.
Qed.

Lemma token_rune_0 E : token_rune E 0 = false.
Proof. reflexivity. Qed.

Lemma sim0_token E : forall g f s x tok eaten, sim0 s x -> (List.length (fut s) <= g)%nat -> (List.length (fut s) < f)%nat ->
  let '(t, e, r) := token_scan E g (fut s) tok eaten in
  exists e', e = eaten ++ e' /\ fut s = e' ++ r /\
  exists x', b_token E f tok x = Ok (t, x') /\ sim0 (mkS (rev e' ++ past s) r (over s)) x'.
Proof.
  induction g as [|g IH]; intros f s x tok eaten Hs Hg Hf.
  - destruct (fut s) as [|c ft] eqn:Ef; [|cbn in Hg; lia]. cbn [token_scan]. exists []. rewrite app_nil_r.
    split; [reflexivity|]. split; [reflexivity|]. destruct f as [|f]; [lia|]. cbn [b_token].
    pose proof (sim0_rune s x Hs) as Hr. rewrite Ef in Hr. rewrite Hr. cbn [rbind]. rewrite token_rune_0.
    eexists. split; [reflexivity|]. cbn [rev app]. cbn [buf rd r_ last].
    destruct Hs as (H1 & H2 & H3 & H4 & H5). unfold sim0. cbn [past fut over buf last r_]. rewrite Ef in *. unfold ov in *; cbn [over].
    split; [exact H1|]. split; [exact H2|]. split; [exact H3|]. split; [lia|exact H5].
  - destruct (fut s) as [|c ft] eqn:Ef.
    + cbn [token_scan]. exists []. rewrite app_nil_r.
      split; [reflexivity|]. split; [reflexivity|]. destruct f as [|f]; [lia|]. cbn [b_token].
      pose proof (sim0_rune s x Hs) as Hr. rewrite Ef in Hr. rewrite Hr. cbn [rbind]. rewrite token_rune_0.
      eexists. split; [reflexivity|]. cbn [rev app]. cbn [buf rd r_ last].
      destruct Hs as (H1 & H2 & H3 & H4 & H5). unfold sim0. cbn [past fut over buf last r_]. rewrite Ef in *. unfold ov in *; cbn [over].
      split; [exact H1|]. split; [exact H2|]. split; [exact H3|]. split; [lia|exact H5].
    + cbn [token_scan]. pose proof (sim0_rune s x Hs) as Hr. rewrite Ef in Hr.
      pose proof (decode_size (c :: ft) c ft eq_refl) as Hn. destruct f as [|f]; [lia|]. cbn [b_token]. rewrite Hr.
      destruct (decode_rune (c :: ft)) as [r n]. cbn [snd] in *. cbn [rbind].
      destruct (token_rune E r).
      * pose proof (firstn_skipn (Z.to_nat n) (c :: ft)) as Efs.
        set (e1 := firstn (Z.to_nat n) (c :: ft)) in *. set (r1 := skipn (Z.to_nat n) (c :: ft)) in *.
        assert (He1 : len e1 = n) by (unfold e1; rewrite firstn_length; lia).
        assert (Eo : over s = false). { destruct Hs as (_ & _ & _ & _ & Ho). destruct (over s); [specialize (Ho eq_refl); rewrite Ef in Ho; discriminate|reflexivity]. }
        assert (Hs2 : sim0 (mkS (rev e1 ++ past s) r1 (over s)) (mkX (buf x) (rd x) (r_ x + n) (last x))).
        { destruct Hs as (H1 & H2 & H3 & H4 & H5). unfold sim0. cbn [past fut over buf last r_].
          rewrite rev_app_distr, rev_involutive, <- app_assoc, Efs, <- Ef. unfold ov in *. cbn [over]. rewrite Eo in *.
          split; [exact H1|]. split; [exact H2|]. split; [exact H3|]. split; [|discriminate]. rewrite app_length, rev_length. lia. }
        assert (Hr1 : (List.length r1 < List.length (c :: ft))%nat) by (unfold r1; rewrite skipn_length; cbn [List.length] in *; lia).
        specialize (IH f _ _ (tok ++ encode_rune r) (eaten ++ e1) Hs2). cbn [fut past over] in IH.
        destruct (token_scan E g r1 (tok ++ encode_rune r) (eaten ++ e1)) as [[t e] rr].
        destruct IH as (e' & -> & Er & x' & Ex & Hs3); [lia|lia|].
        exists (e1 ++ e'). split; [rewrite app_assoc; reflexivity|]. split; [rewrite <- Efs, Er, app_assoc; reflexivity|].
        exists x'. split; [exact Ex|]. rewrite rev_app_distr, <- app_assoc. exact Hs3.
      * exists []. rewrite app_nil_r. split; [reflexivity|]. split; [reflexivity|]. eexists. split; [reflexivity|].
        cbn [rev app buf rd r_ last]. destruct Hs as (H1 & H2 & H3 & H4 & H5). unfold sim0. cbn [past fut over buf last r_]. rewrite Ef in *. unfold ov in *; cbn [over].
        split; [exact H1|]. split; [exact H2|]. split; [exact H3|]. split; [lia|exact H5].
Qed.

Lemma s_byte_src s : let '(_, _, s') := s_byte s in rev (past s') ++ fut s' = rev (past s) ++ fut s.
Proof. unfold s_byte. destruct (fut s) as [|c f]; cbn [past fut rev]; [reflexivity|]. rewrite <- app_assoc. reflexivity. Qed.
Lemma s_unread_src s : rev (past (s_unread s)) ++ fut (s_unread s) = rev (past s) ++ fut s.
Proof. unfold s_unread. destruct (over s); [reflexivity|]. destruct (past s) as [|c p] eqn:E; [rewrite E; reflexivity|]. cbn [past fut rev]. rewrite <- app_assoc. reflexivity. Qed.

Lemma run_sim0 {A} E f (m : prog A) : forall s x h, sim0 s x -> (List.length (rev (past s) ++ fut s) < f)%nat ->
  match run E m s h with
  | Ok (a, s', h') => exists x', run_buf E f m x h = Ok (a, x', h') /\ sim0 s' x'
  | Panic => run_buf E f m x h = Panic
  | NoFuel => run_buf E f m x h = NoFuel
  end.
Proof.
  induction m as [a|k IH|k IH|k IH|o k IH|k IH|]; intros s x h Hs Hf; cbn [run run_buf] in *.
  - exists x. auto.
  - pose proof (sim0_byte s x Hs) as Hb. pose proof (s_byte_src s) as Hsrc. destruct (s_byte s) as [[c ok] s'].
    destruct Hb as (x' & Ex & Hs'). rewrite Ex. cbn [rbind]. apply (IH c ok s' x' h Hs'). rewrite Hsrc. exact Hf.
  - apply (IH (s_unread s)); [apply sim0_unread; exact Hs|]. rewrite s_unread_src. exact Hf.
  - unfold s_token. assert (Hft : (List.length (fut s) < f)%nat) by (rewrite app_length in Hf; lia).
    pose proof (sim0_token E (List.length (fut s)) f s x [] [] Hs (le_n _) Hft) as Ht.
    destruct (token_scan E (List.length (fut s)) (fut s) [] []) as [[t e] r].
    destruct Ht as (e' & -> & Er & x' & Ex & Hs'). cbn [app] in *. rewrite Ex. cbn [rbind].
    apply (IH t _ x' h Hs'). cbn [past fut]. rewrite rev_app_distr, rev_involutive, <- app_assoc, <- Er. exact Hf.
  - destruct (h_step o h) as [h'| |]; cbn [rbind]; try reflexivity. apply (IH s x h' Hs Hf).
  - apply (IH (cur h) s x h Hs Hf).
  - reflexivity.
Qed.

Lemma NewLexer_sim0 s : len s <= 4094 -> sim0 (s_init s) (NewLexer (bytes_reader s)).
Proof.
  intro Hl. unfold sim0, s_init. cbn [past fut over rev app List.length]. unfold ov; cbn [over].
  split; [exact Hl|]. unfold NewLexer, fill. cbn [r_ buf rd Z.leb Z.compare andb].
  rewrite (fill_loop_S 99). cbv zeta. change 99%nat with (S 98). generalize 98%nat; intro i. destruct s as [|c s].
  - cbn [bytes_reader rd_read buf last r_]. unfold put. cbn [Z.to_nat firstn app List.length skipn Nat.add].
    repeat split. 
  - unfold bytes_reader. cbn [rd_read]. change (bufSize - 0) with 4096.
    replace (len (c :: s) <=? 4096) with true by lia. cbn [fst snd].
    assert (Hp : put 0 (c :: s) (repeat x00 (Z.to_nat bufSize)) = (c :: s) ++ repeat x00 (Z.to_nat (4096 - len (c :: s)))).
    { unfold put, bufSize. change (Z.to_nat 0) with 0%nat. cbn [firstn Nat.add]. cbn [app]. f_equal. f_equal.
      replace (Z.to_nat 4096) with (List.length (c :: s) + Z.to_nat (4096 - len (c :: s)))%nat by lia.
      rewrite repeat_app, skipn_app, skipn_all2 by (rewrite repeat_length; lia). rewrite repeat_length, Nat.sub_diag. reflexivity. }
    destruct (halfSize <=? 0 + len (c :: s)).
    + cbn [buf last r_]. rewrite Hp. repeat split; try lia.
    + rewrite fill_loop_S. cbn [rd_read]. cbv zeta. unfold put at 1. cbn [app List.length]. rewrite Nat.add_0_r, firstn_skipn.
      cbn [buf last r_]. rewrite Hp. repeat split; try lia.
Qed.

(** ** Reading and unreading bytes *)
(** [s] is the ideal stream, [s'] the one with a cut past; [b] is the distance to the
    furthest position. *)
Definition tied (data : bytes) (p hi : nat) (s : stream) : Prop :=
  exists full, rev full ++ fut s = data /\ p = (List.length full + (if over s then 1 else 0))%nat /\
  (over s = true -> fut s = []) /\ (p <= hi)%nat /\
  (past s = full \/ exists k, past s = firstn k full /\ (half + List.length full <= k + hi)%nat).

Lemma x_ops_spec data os : forall x s p hi, repr x s -> tied data p hi s -> near (List.length data) os p hi = true ->
  x_ops os x = Ok (p_ops data os p).
Proof.
  induction os as [|[|] os IH]; intros x s p hi Hr (full & Hd & Hp & Hov & Hhi & Hcut) Hn; cbn [x_ops p_ops near] in *.
  - reflexivity.
  - assert (Hlen : List.length data = (List.length full + List.length (fut s))%nat) by (rewrite <- Hd, app_length, rev_length; reflexivity).
    pose proof (repr_byte x s Hr) as Hb. unfold s_byte in Hb. destruct (fut s) as [|c f] eqn:Ef.
    + destruct Hb as (x' & s'' & Ex & (H1 & H2 & k' & Hk' & H3) & Hr'). cbn [fut over past] in *. rewrite Ex. cbn [rbind].
      assert (Hnone : nth_error data p = None) by (apply nth_error_None; cbn in Hlen; destruct (over s); lia).
      rewrite Hnone. cbn [List.length] in Hlen. enough (Ht : tied data (S (Nat.min p (List.length data))) (Nat.max (S (Nat.min p (List.length data))) hi) s'') by (rewrite (IH x' s'' _ _ Hr' Ht Hn); reflexivity).
      exists full. rewrite H1, H2. split; [exact Hd|]. split; [destruct (over s); lia|]. split; [auto|]. split; [lia|].
      rewrite H3. right. destruct Hcut as [Hc|(k & Hc & Hk)]; rewrite Hc.
      * exists k'. split; [reflexivity|]. destruct (over s); lia.
      * rewrite firstn_firstn. exists (Nat.min k' k). split; [reflexivity|]. destruct (over s); lia.
    + assert (Eo : over s = false) by (destruct (over s); [specialize (Hov eq_refl); discriminate|reflexivity]). rewrite Eo in *.
      destruct Hb as (x' & s'' & Ex & (H1 & H2 & k' & Hk' & H3) & Hr'). cbn [fut over past] in *. rewrite Ex. cbn [rbind].
      assert (Hsome : nth_error data p = Some c). { rewrite <- Hd, nth_error_app2 by (rewrite rev_length; lia). rewrite rev_length. replace (p - List.length full)%nat with 0%nat by lia. reflexivity. }
      rewrite Hsome. cbn [List.length] in Hlen. enough (Ht : tied data (S (Nat.min p (List.length data))) (Nat.max (S (Nat.min p (List.length data))) hi) s'') by (rewrite (IH x' s'' _ _ Hr' Ht Hn); reflexivity).
      exists (c :: full). rewrite H1, H2. split; [cbn [rev]; rewrite <- app_assoc; exact Hd|]. cbn [List.length]. split; [lia|]. split; [discriminate|]. split; [lia|].
      rewrite H3. right. destruct Hcut as [Hc|(k & Hc & Hk)]; rewrite Hc.
      * exists k'. split; [reflexivity|]. cbn [List.length]; lia.
      * exists (Nat.min k' (S k)). split; [|cbn [List.length]; lia].
        change (c :: firstn k full) with (firstn (S k) (c :: full)). rewrite firstn_firstn. reflexivity.
  - apply andb_true_iff in Hn as [Hn1 Hn]. enough (Ht : tied data (pred p) hi (s_unread s)) by (exact (IH _ _ _ _ (repr_unread x s Hr) Ht Hn)). pose proof half_eq as Hhalf.
    unfold tied, s_unread. destruct (over s) eqn:Eo.
    + exists full. cbn [past fut over]. rewrite (Hov eq_refl) in *. split; [exact Hd|]. split; [lia|]. split; [discriminate|]. split; [lia|].
      destruct Hcut as [Hc|(k & Hc & Hk)]; [left; exact Hc|right; exists k; split; [exact Hc|lia]].
    + destruct full as [|c full].
      * assert (Ep : past s = []) by (destruct Hcut as [Hc|(k & Hc & _)]; rewrite Hc; [reflexivity|apply firstn_nil]).
        rewrite Ep. exists []. rewrite Eo. split; [exact Hd|]. cbn [List.length] in *. split; [lia|]. split; [discriminate|]. split; [lia|]. left; exact Ep.
      * cbn [List.length] in *. assert (Hpast : exists q, past s = c :: q /\ (q = full \/ exists k, q = firstn k full /\ (half + List.length full <= k + hi)%nat)).
        { destruct Hcut as [Hc|(k & Hc & Hk)].
          - exists full. auto.
          - destruct k as [|k]; [lia|]. exists (firstn k full). split; [exact Hc|]. right. exists k. split; [reflexivity|lia]. }
        destruct Hpast as (q & Eq & Hq). rewrite Eq. exists full. cbn [past fut over].
        cbn [rev] in Hd. rewrite <- app_assoc in Hd. split; [exact Hd|]. split; [lia|]. split; [discriminate|]. split; [lia|].
        destruct Hq as [Hq|(k & Hq & Hk)]; [left; exact Hq|right; exists k; split; [exact Hq|lia]].
Qed.

Lemma ops_of_reader rd os : near (List.length (seen (size rd) rd)) os 0 0 = true ->
  x_ops os (NewLexer rd) = Ok (p_ops (seen (size rd) rd) os 0).
Proof.
  intro H. apply (x_ops_spec _ os _ _ 0 0 (NewLexer_repr rd)); [|exact H].
  exists []. cbn. repeat split; try lia; try discriminate. left; reflexivity.
Qed.

(** ** Two readers of which the same is seen *)
Fixpoint tokless {A} (m : prog A) : Prop :=
  match m with
  | Ret _ | Stop => True
  | GetB k => forall c ok, tokless (k c ok)
  | UnB k => tokless k
  | Tok _ => False
  | Ev _ k => tokless k
  | Lvl k => forall l, tokless (k l)
  end.

(** The same window into the same data; what is beyond the end does not matter. *)
Definition twin (x y : lexer) : Prop :=
  len (buf x) = 4096 /\ len (buf y) = 4096 /\ 0 <= last x <= 4096 /\ last y = last x /\ 0 <= r_ x /\ r_ y = r_ x /\
  firstn (Z.to_nat (last x)) (buf y) = firstn (Z.to_nat (last x)) (buf x) /\
  (last x = 4096 -> r_ x < 4096 /\ later (rd y) = later (rd x)).

Lemma later_prefix (d1 d2 : bytes) r1 r2 : len d1 <= 2048 -> len d2 <= 2048 ->
  d1 ++ (if len d1 =? 2048 then r1 else []) = d2 ++ (if len d2 =? 2048 then r2 else []) ->
  d1 = d2 /\ (len d1 = 2048 -> r1 = r2).
Proof.
  intros H1 H2 H. destruct (Z.eqb_spec (len d1) 2048) as [E1|E1]; destruct (Z.eqb_spec (len d2) 2048) as [E2|E2]; rewrite ?app_nil_r in H.
  - destruct (app_eq_skip d1 r1 d2 r2 H) as (m & -> & ->); [lia|]. rewrite app_length in E1. destruct m; [|cbn in E1; lia].
    rewrite app_nil_r. auto.
  - subst d2. rewrite app_length in *. assert (r1 = []) by (destruct r1; [reflexivity|cbn in *; lia]). subst r1. cbn in *. exfalso. lia.
  - subst d1. rewrite app_length in *. assert (r2 = []) by (destruct r2; [reflexivity|cbn in *; lia]). subst r2. cbn in *. exfalso. lia.
  - subst d2. split; [reflexivity|lia].
Qed.
