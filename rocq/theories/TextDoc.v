(** The text parser on well formed documents. *)
From Verif Require Import Base Value Event EventSpec EventFacts Lexer TextParser Stream Buffer BufferSpec BufferFacts BufferFacts2 Wp TextTerm TextSpec.

(** ** Byte classes *)
Lemma blank_space c : blank c = is_space c.
Proof.
  unfold blank, is_space. destruct (beq_spec c x20) as [->|H1]; [reflexivity|]. destruct (beq_spec c x09) as [->|H2]; [reflexivity|].
  symmetry. apply orb_false_iff. split; apply Z.eqb_neq; intro E; [apply H1|apply H2]; apply bz_inj; exact E.
Qed.
Lemma control_end c : control c = is_end c.
Proof.
  assert (G : forall d, beq c d = (bz c =? bz d)).
  { intro d. destruct (beq_spec c d) as [->|H]; [symmetry; apply Z.eqb_refl|]. symmetry. apply Z.eqb_neq. intro E. apply H, bz_inj, E. }
  unfold control, is_end. rewrite !G. reflexivity.
Qed.
Lemma beq_bz c d : beq c d = (bz c =? bz d).
Proof. destruct (beq_spec c d) as [->|H]; [symmetry; apply Z.eqb_refl|]. symmetry. apply Z.eqb_neq. intro E. apply H, bz_inj, E. Qed.

Lemma blanks_all s : blanks s -> Forall (fun c => is_space c = true) s.
Proof. apply Forall_impl. intros c H. rewrite <- blank_space. exact H. Qed.

(** ** Exact behaviour of the scanners *)
Section Exact.
Variable F : nat.

Lemma wx_End_no s h c r (Q : bool -> stream -> handler -> Prop) : fut s = c :: r -> is_end c = false ->
  (forall s', good s' -> fut s' = c :: r -> Q false s' h) -> wp End s h Q.
Proof.
  destruct s as [P f o]. cbn [fut]. intros -> Hc HQ. unfold End. apply wp_get. intros k Hk. cbn [negb]. rewrite Hc.
  apply wp_un. cbn [wp]. apply HQ; [apply good_false|reflexivity].
Qed.
Lemma wx_End_eof s h (Q : bool -> stream -> handler -> Prop) : fut s = [] ->
  (forall s', good s' -> fut s' = [] -> Q true s' h) -> wp End s h Q.
Proof.
  destruct s as [P f o]. cbn [fut]. intros -> HQ. unfold End. apply wp_get_end. intros k Hk. cbn [negb wp]. apply HQ; [apply good_nil|reflexivity].
Qed.

Lemma wx_Peek s h (Q : byte -> stream -> handler -> Prop) :
  (forall s', good s' -> fut s' = fut s -> Q (head s) s' h) -> good s -> wp PeekByte s h Q.
Proof. intros H1 H2. apply wp_Peek; auto. Qed.

Lemma wx_Break_lf s h r (Q : bool -> stream -> handler -> Prop) : fut s = x0a :: r ->
  (forall s', good s' -> fut s' = r -> Q true s' h) -> wp Break s h Q.
Proof.
  destruct s as [P f o]. cbn [fut]. intros -> HQ. unfold Break, Byte_. cbn [pbind]. apply wp_get. intros k Hk. cbn. apply HQ; [apply good_false|reflexivity].
Qed.
Lemma wx_Break_crlf s h r (Q : bool -> stream -> handler -> Prop) : fut s = x0d :: x0a :: r ->
  (forall s', good s' -> fut s' = r -> Q true s' h) -> wp Break s h Q.
Proof.
  destruct s as [P f o]. cbn [fut]. intros -> HQ. unfold Break, Byte_. cbn [pbind]. apply wp_get. intros k Hk.
  change (beq x0d x0d) with true. cbv iota. cbn [pbind]. apply wp_get. intros k2 Hk2. cbn. apply HQ; [apply good_false|reflexivity].
Qed.
Lemma wx_Break_no s h (Q : bool -> stream -> handler -> Prop) : is_break (head s) = false -> good s ->
  (forall s', good s' -> fut s' = fut s -> Q false s' h) -> wp Break s h Q.
Proof.
  destruct s as [P f o]. unfold head. cbn [fut]. intros Hb Hg HQ. unfold Break, Byte_. cbn [pbind]. unfold is_break in Hb.
  apply orb_false_iff in Hb as [H1 H2].
  destruct f as [|c f].
  - apply wp_get_end. intros k Hk. cbn. apply HQ; [apply good_nil|reflexivity].
  - apply wp_get. intros k Hk. rewrite beq_bz. change (bz x0d) with 13. rewrite H2. cbn [pbind]. rewrite beq_bz. change (bz x0a) with 10. rewrite H1.
    apply wp_un. cbn [wp]. apply HQ; [apply good_false|reflexivity].
Qed.

Definition second (s : stream) : byte := match fut s with _ :: c :: _ => c | _ => x00 end.

Lemma wx_Comment_no s h (Q : bool -> stream -> handler -> Prop) : good s -> head s <> "#"%byte \/ is_space (second s) = false ->
  (forall s', good s' -> fut s' = fut s -> Q false s' h) -> wp (Comment F) s h Q.
Proof.
  destruct s as [P f o]. unfold second, head. cbn [fut]. intros Hg Hh HN. unfold Comment, Byte_. cbn [pbind]. destruct f as [|c f].
  - apply wp_get_end. intros k Hk. cbn. apply HN; [apply good_nil|auto].
  - apply wp_get. intros k Hk. destruct (beq_spec c "#") as [->|Hc]; cbn [pbind].
    + destruct Hh as [Hh|Hh]; [congruence|]. destruct f as [|c f].
      * apply wp_get_end. intros k2 Hk2. change (is_space x00) with false. cbv iota. apply wp_un_over.
        destruct k2; [unfold half in Hk2; lia|]. cbn [firstn]. apply wp_un. cbn [wp]. apply HN; [apply good_false|auto].
      * apply wp_get. intros k2 Hk2. rewrite Hh. apply wp_un. destruct k2; [unfold half in Hk2; lia|]. cbn [firstn]. apply wp_un. cbn [wp]. apply HN; [apply good_false|auto].
    + apply wp_un. cbn [wp]. apply HN; [apply good_false|auto].
Qed.

Lemma wx_comment_loop t : forall f s h r (Q : bool -> stream -> handler -> Prop), (List.length t < f)%nat ->
  Forall (fun c => is_end c || is_break c = false) t -> fut s = t ++ x0a :: r ->
  (forall s', good s' -> fut s' = r -> Q true s' h) -> wp (comment_loop f) s h Q.
Proof.
  induction t as [|c t IH]; intros f [P fu o] h r Q Hf Ht Hs HQ; (destruct f as [|f]; [cbn in Hf; lia|]); cbn [fut comment_loop app] in *; subst fu.
  - apply wp_get. intros k Hk. cbn. apply HQ; [apply good_false|reflexivity].
  - inversion Ht; subst. apply wp_get. intros k Hk. rewrite H1. apply (IH f _ h r); auto. cbn in Hf; lia.
Qed.
Lemma wx_Comment_yes s h b t r (Q : bool -> stream -> handler -> Prop) : fut s = "#"%byte :: b :: t ++ x0a :: r -> is_space b = true ->
  Forall (fun c => is_end c || is_break c = false) t -> (List.length t < F)%nat ->
  (forall s', good s' -> fut s' = r -> Q true s' h) -> wp (Comment F) s h Q.
Proof.
  destruct s as [P f o]. cbn [fut]. intros -> Hb Ht HF HQ. unfold Comment, Byte_. cbn [pbind]. apply wp_get. intros k Hk.
  change (beq "#" "#") with true. cbv iota. cbn [pbind]. apply wp_get. intros k2 Hk2. rewrite Hb. apply (wx_comment_loop t F _ h r); auto.
Qed.

Lemma wx_Block_no n s h (Q : option bytes -> stream -> handler -> Prop) : good s -> head s <> "\"%byte \/ is_break (second s) = false ->
  (forall s', good s' -> fut s' = fut s -> Q None s' h) -> wp (Block F n) s h Q.
Proof.
  destruct s as [P f o]. unfold second, head. cbn [fut]. intros Hg Hh HN. unfold Block. apply wp_bind. unfold Byte_ at 1. destruct f as [|c f].
  - apply wp_get_end. intros k Hk. cbn. apply HN; [apply good_nil|auto].
  - apply wp_get. intros k Hk. cbn [wp]. destruct (beq_spec c "\") as [->|Hc]; cbn [negb].
    + destruct Hh as [Hh|Hh]; [congruence|]. apply wp_bind. unfold Byte_ at 1. destruct f as [|c f].
      * apply wp_get_end. intros k2 Hk2. cbn [wp]. change (negb (beq x00 x0a) && negb (beq x00 x0d)) with true. cbv iota. apply wp_un_over.
        destruct k2; [unfold half in Hk2; lia|]. cbn [firstn]. apply wp_un. cbn [wp]. apply HN; [apply good_false|auto].
      * apply wp_get. intros k2 Hk2. cbn [wp]. rewrite !beq_bz. change (bz x0a) with 10. change (bz x0d) with 13.
        unfold is_break in Hh. apply orb_false_iff in Hh as [-> ->]. cbn [negb andb].
        apply wp_un. destruct k2; [unfold half in Hk2; lia|]. cbn [firstn]. apply wp_un. cbn [wp]. apply HN; [apply good_false|auto].
    + apply wp_un. cbn [wp]. apply HN; [apply good_false|auto].
Qed.

Lemma wx_Space w r s h (Q : Z * byte -> stream -> handler -> Prop) : good s -> fut s = w ++ r -> blanks w -> stops is_space r ->
  (List.length w < F)%nat ->
  (forall s', moved w s s' -> recent w s' -> fut s' = r -> Q (Z.of_nat (List.length w), space_kind w) s' h) -> wp (Space F) s h Q.
Proof.
  intros Hg Hf Hw Hr HF HQ. apply wp_bind. apply (wp_span is_space w F [] s r); auto using blanks_all. intros s' Hm Hre. cbn [wp app].
  apply HQ; auto. destruct Hm as (Hm & _). rewrite Hf in Hm. apply app_inv_head in Hm. congruence.
Qed.

Lemma wx_String w r s h (Q : bytes -> stream -> handler -> Prop) : good s -> fut s = w ++ r -> Forall (fun c => is_text c = true) w -> stops is_text r ->
  (List.length w < F)%nat ->
  (forall s', good s' -> fut s' = r -> Q w s' h) -> wp (String_tok F) s h Q.
Proof.
  intros Hg Hf Hw Hr HF HQ. apply (wp_span is_text w F [] s r); auto. intros s' Hm Hre. cbn [app].
  apply HQ. apply Hm. destruct Hm as (Hm & _). rewrite Hf in Hm. apply app_inv_head in Hm. congruence.
Qed.

Lemma wx_Quoted_no n s h (Q : option bytes -> stream -> handler -> Prop) : good s -> is_quote (head s) = false ->
  (forall s', good s' -> fut s' = fut s -> Q None s' h) -> wp (Quoted F n) s h Q.
Proof.
  destruct s as [P f o]. unfold head. cbn [fut]. intros Hg Hq HQ. unfold Quoted, Byte_. cbn [pbind]. destruct f as [|c f].
  - apply wp_get_end. intros k Hk. cbn. apply HQ; [apply good_nil|auto].
  - apply wp_get. intros k Hk. rewrite Hq. cbn [negb]. apply wp_un. cbn [wp]. apply HQ; [apply good_false|auto].
Qed.

(** SpaceMax on n spaces, n >= 1, whatever follows; on none when a non-blank follows *)
Lemma wx_smax m : forall f a s h r (Q : Z * byte -> stream -> handler -> Prop), fut s = repeat x20 (S m) ++ r -> (S m < f)%nat -> 0 <= a ->
  (forall s', good s' -> fut s' = r -> Q (a + Z.of_nat (S m), x20) s' h) -> wp (space_max f (a + Z.of_nat (S m)) a 0) s h Q.
Proof.
  induction m as [|m IH]; intros f a [P fu o] h r Q Hf HF Ha HQ; (destruct f as [|f]; [lia|]); cbn [fut repeat app space_max] in *; subst fu.
  - apply wp_get. intros k Hk. change (is_space x20) with true. cbn [negb]. change (beq x20 x20) with true. cbv iota zeta.
    replace (a + 1 =? a + Z.of_nat 1) with true by lia. cbn [orb wp]. replace (a + 1 + 0) with (a + Z.of_nat 1) by lia. apply HQ; [apply good_false|reflexivity].
  - apply wp_get. intros k Hk. change (is_space x20) with true. cbn [negb]. change (beq x20 x20) with true. cbv iota zeta.
    replace ((a + 1 =? a + Z.of_nat (S (S m))) || (0 =? a + Z.of_nat (S (S m)))) with false by lia.
    replace (a + Z.of_nat (S (S m))) with (a + 1 + Z.of_nat (S m)) in * by lia. apply (IH f (a + 1) _ h r); auto; lia.
Qed.
Lemma wx_SpaceMax n s h r (Q : Z * byte -> stream -> handler -> Prop) : good s -> fut s = repeat x20 n ++ r -> (n < F)%nat ->
  (n = O -> stops is_space r) ->
  (forall s', good s' -> fut s' = r -> Q (Z.of_nat n, x20) s' h) -> wp (SpaceMax F (Z.of_nat n)) s h Q.
Proof.
  intros Hg Hf HF Hr HQ. unfold SpaceMax. destruct n as [|n].
  - specialize (Hr eq_refl). destruct F as [|f]; [lia|]. destruct s as [P fu o]. cbn [fut repeat app] in Hf. subst fu. cbn [space_max].
    destruct r as [|c r].
    + apply wp_get_end. intros k Hk. change (is_space x00) with false. cbn [negb]. apply wp_un_over. cbn [wp]. apply HQ; [apply good_nil|reflexivity].
    + cbn [stops] in Hr. apply wp_get. intros k Hk. rewrite Hr. cbn [negb]. apply wp_un. cbn [wp]. apply HQ; [apply good_false|reflexivity].
  - destruct F as [|f] eqn:EF; [lia|]. rewrite <- EF in *. apply (wx_smax n F 0 s h r Q); auto; try lia.
Qed.

Definition simple_quote (q : byte) : Prop := q = x22 \/ q = "'"%byte.

Lemma wx_quoted_loop q n : simple_quote q -> forall s (pend : bool) f c2 buf st h r (Q : option bytes -> stream -> handler -> Prop), good st ->
  quoted_ok n s -> (if pend then c2 = "\"%byte /\ s <> [] /\ starts_with ["\"; "'"; x22]%byte s = false else c2 <> "\"%byte) ->
  fut st = flat_map (quoted_byte q n) s ++ q :: r -> (rem st < f)%nat -> (rem st < F)%nat ->
  (forall s', good s' -> fut s' = r -> Q (Some (buf ++ (if pend then ["\"%byte] else []) ++ s)) s' h) ->
  wp (quoted_loop F f (Z.of_nat n) q c2 buf) st h Q.
Proof.
  intros Hq. assert (Hqe : is_end q = false) by (destruct Hq; subst q; reflexivity).
  assert (Hqt : beq q "`" = false) by (destruct Hq; subst q; reflexivity).
  assert (Hqb : beq q "\" = false) by (destruct Hq; subst q; reflexivity).
  assert (Hqx : beq "\" q = false) by (destruct Hq; subst q; reflexivity).
  assert (Hql : beq q x0a = false) by (destruct Hq; subst q; reflexivity).
  assert (Hqs : is_space q = false) by (destruct Hq; subst q; reflexivity).
  assert (Hqq : negb (beq q "'") && negb (beq q x22) = false) by (destruct Hq; subst q; reflexivity).
  induction s as [|c s IH]; intros pend f c2 buf [P fu o] h r Q Hg Hok Hc2 Hf HF1 HF2 HQ; (destruct f as [|f]; [exfalso; clear - HF1; lia|]); cbn [fut flat_map app] in Hf; subst fu; cbn [quoted_loop].
  - destruct pend; [destruct Hc2 as (_ & H & _); congruence|]. apply wp_get. intros k Hk. rewrite Hqe, Hqt, andb_false_r, beq_refl.
    apply beq_neq in Hc2. rewrite Hc2. cbn [negb andb wp]. cbn [app] in HQ. rewrite app_nil_r in HQ. apply HQ; [apply good_false|reflexivity].
  - cbn [quoted_ok] in Hok. destruct Hok as (Hctl & Hbs & Hlf & Hok). rewrite control_end in Hctl.
    remember (quoted_byte q n c) as qc eqn:Hqc. unfold quoted_byte in Hqc.
    destruct (beq_spec c q) as [->|Hcq]; [subst qc|].
    + (* the quote, escaped *)
      destruct pend. { destruct Hc2 as (_ & _ & H). cbn in H. destruct Hq; subst q; discriminate. }
      cbn [app]. apply wp_get. intros k Hk. change (is_end "\") with false. rewrite Hqx. cbn [andb]. change (beq "\" "\") with true. cbv iota.
      unfold rem in *. cbn [fut app List.length] in *. destruct f as [|f]; [exfalso; clear - HF1; lia|]. cbn [quoted_loop]. apply wp_get. intros k2 Hk2.
      rewrite Hqe, Hqt, andb_false_r, beq_refl. change (beq "\" "\") with true. cbn [negb andb]. rewrite Hqb. cbv zeta.
      rewrite Hqq. rewrite Hql.
      apply (IH false f q _ _ h r); cbn [fut]; [apply good_false|exact Hok|apply beq_neq; exact Hqb|reflexivity|clear - HF1; lia|clear - HF2; lia|].
      intros s' G L. rewrite <- app_assoc. apply HQ; auto.
    + destruct (beq_spec c "\") as [->|Hcb].
      * (* a backslash *)
        destruct pend. { destruct Hc2 as (_ & _ & H). cbn in H. discriminate. }
        change (beq "\" x0a) with false in Hqc. subst qc. cbn [app]. apply wp_get. intros k Hk. change (is_end "\") with false. rewrite Hqx. cbn [andb].
        change (beq "\" "\") with true. cbv iota. unfold rem in *. cbn [fut app List.length] in *.
        apply (IH true f "\"%byte buf _ h r); cbn [fut]; [apply good_false|exact Hok|split; [reflexivity|apply Hbs; reflexivity]|reflexivity|clear - HF1; lia|clear - HF2; lia|].
        intros s' G L. apply HQ; auto.
      * assert (Hbuf : (if beq c2 "\" && negb (beq c "'") && negb (beq c x22) then buf ++ ["\"%byte] else buf) = buf ++ (if pend then ["\"%byte] else [])).
        { destruct pend.
          - destruct Hc2 as (-> & _ & H). cbn in H. rewrite !orb_false_iff in H. destruct H as (_ & H1 & H2 & _). rewrite H1, H2. reflexivity.
          - apply beq_neq in Hc2. rewrite Hc2. cbn [andb]. rewrite app_nil_r. reflexivity. }
        destruct (beq_spec c x0a) as [->|Hcl]; subst qc.
        -- (* a newline *)
           cbn [app]. apply wp_get. intros k Hk. apply beq_neq in Hcq. rewrite Hctl, Hcq. cbn [andb]. change (beq x0a "\") with false. cbv iota zeta.
           rewrite Hbuf. change (beq x0a x0a) with true. cbv iota. unfold rem in *. cbn [fut List.length] in *.
           rewrite !app_length in HF1, HF2. cbn [List.length] in HF1, HF2. rewrite repeat_length in HF1, HF2.
           apply wp_bind. apply (wx_SpaceMax n _ h (flat_map (quoted_byte q n) s ++ q :: r)).
           ++ apply good_false.
           ++ cbn [fut]. rewrite <- app_assoc. reflexivity.
           ++ clear - HF2. lia.
           ++ intro Hn. specialize (Hlf eq_refl Hn). destruct s as [|d s]; [cbn; exact Hqs|]. cbn [flat_map]. unfold quoted_byte at 1.
              destruct (beq d q); [reflexivity|]. destruct (beq d x0a); [reflexivity|]. cbn [app stops]. rewrite <- blank_space. unfold blank.
              cbn in Hlf. rewrite orb_false_r in Hlf. exact Hlf.
           ++ intros s' G L. cbn [fst snd]. change (beq x20 x00) with false. cbv iota. rewrite Z.ltb_irrefl.
              apply (IH false f x0a _ s' h r); [exact G|exact Hok|discriminate|exact L| | |].
              ** unfold rem. rewrite L, app_length. cbn [List.length]. clear - HF1. lia.
              ** unfold rem. rewrite L, app_length. cbn [List.length]. clear - HF2. lia.
              ** intros s2 G2 L2. cbn [app]. rewrite <- !app_assoc in *. apply HQ; auto.
        -- (* any other byte *)
           cbn [app]. apply wp_get. intros k Hk. apply beq_neq in Hcq, Hcb, Hcl. rewrite Hctl, Hcq, Hcb. cbn [andb]. cbv zeta. rewrite Hbuf, Hcl.
           unfold rem in *. cbn [fut app List.length] in *.
           apply (IH false f c _ _ h r); cbn [fut]; [apply good_false|exact Hok|apply beq_neq; exact Hcb|reflexivity|clear - HF1; lia|clear - HF2; lia|].
           intros s' G L. cbn [app]. rewrite <- !app_assoc in *. apply HQ; auto.
Qed.

Lemma wx_Quoted_yes q n s st h r (Q : option bytes -> stream -> handler -> Prop) : simple_quote q -> good st -> quoted_ok n s ->
  fut st = quoted_source q n s ++ r -> (rem st < F)%nat ->
  (forall s', good s' -> fut s' = r -> Q (Some s) s' h) -> wp (Quoted F (Z.of_nat n)) st h Q.
Proof.
  intros Hq Hg Hok Hf HF HQ. destruct st as [P f o]. cbn [fut] in Hf. subst f. unfold quoted_source in *. cbn [app] in *.
  unfold Quoted, Byte_. cbn [pbind]. apply wp_get. intros k Hk.
  assert (is_quote q = true) as -> by (destruct Hq; subst q; reflexivity). cbn [negb].
  unfold rem in HF. cbn [fut List.length] in HF.
  apply (wx_quoted_loop q n Hq s false F x00 [] _ h r); auto.
  - apply good_false.
  - discriminate.
  - cbn [fut]. rewrite <- app_assoc. reflexivity.
  - unfold rem; cbn [fut]. lia.
  - unfold rem; cbn [fut]. lia.
Qed.

(** ** Blocks *)
Lemma wx_block_line cr t : forall f buf s h r (Q : bytes -> stream -> handler -> Prop), line_text t -> fut s = t ++ eol cr ++ r -> (S (List.length t) < f)%nat ->
  (forall s', good s' -> fut s' = r -> Q (buf ++ t ++ [x0a]) s' h) -> wp (block_line f buf) s h Q.
Proof.
  induction t as [|c t IH]; intros f buf [P fu o] h r Q Ht Hf HF HQ; (destruct f as [|f]; [cbn in HF; lia|]); cbn [fut block_line app] in *; subst fu.
  - destruct cr; cbn [eol app]; apply wp_get; intros k Hk; cbn.
    + destruct f as [|f]; [cbn in HF; lia|]. cbn [block_line]. apply wp_get. intros k2 Hk2. cbn. apply HQ; [apply good_false|reflexivity].
    + apply HQ; [apply good_false|reflexivity].
  - inversion Ht as [|? ? (H1 & H2 & H3) Ht']; subst. rewrite control_end in H1. apply beq_neq in H2, H3. apply wp_get. intros k Hk.
    rewrite H1, H2, H3. apply (IH f _ _ h r); auto; [cbn in HF; lia|]. intros s' G L. rewrite <- app_assoc. apply HQ; auto.
Qed.

Definition block_source (cr : bool) (b : list (bytes * bytes)) : bytes := flat_map (fun l => fst l ++ snd l ++ eol cr) b.
Definition block_lines_ok (n : nat) (b : list (bytes * bytes)) : Prop :=
  Forall (fun l => uniform (fst l) /\ (n < List.length (fst l))%nat /\ line_text (snd l) /\ starts_with [x20; x09] (snd l) = false) b.

Lemma uniform_blanks w : uniform w -> blanks w.
Proof. intros [H|H]; revert H; apply Forall_impl; intros c <-; reflexivity. Qed.
Lemma uniform_kind w : uniform w -> beq (space_kind w) x00 = false.
Proof.
  unfold uniform, space_kind. intros [H|H].
  - replace (forallb (fun c => beq c x20) w) with true; [reflexivity|]. symmetry. apply forallb_forall. intros c Hc.
    rewrite Forall_forall in H. rewrite <- (H c Hc). reflexivity.
  - destruct (forallb (fun c => beq c x20) w); [reflexivity|].
    replace (forallb (fun c => beq c x09) w) with true; [reflexivity|]. symmetry. apply forallb_forall. intros c Hc.
    rewrite Forall_forall in H. rewrite <- (H c Hc). reflexivity.
Qed.

Lemma wx_block_lines cr n b : forall f buf s h r (Q : bytes -> stream -> handler -> Prop), good s -> block_lines_ok n b -> fut s = block_source cr b ++ r ->
  stops is_space r -> (rem s < f)%nat -> (rem s < F)%nat ->
  (forall s', good s' -> fut s' = r -> Q (buf ++ flat_map (fun l => snd l ++ [x0a]) b) s' h) -> wp (block_lines F f (Z.of_nat n) buf) s h Q.
Proof.
  induction b as [|[i t] b IH]; intros f buf s h r Q Hg Hok Hf Hr HF1 HF2 HQ; (destruct f as [|f]; [lia|]); cbn [block_lines]; apply wp_bind.
  - cbn [block_source flat_map app] in *. apply (wx_Space [] r); [exact Hg|exact Hf|constructor|exact Hr|cbn; lia|]. intros s1 Hm1 _ F1.
    cbn [fst snd List.length]. replace (Z.of_nat 0 <=? Z.of_nat n) with true by lia. rewrite orb_true_r. cbn [wp]. rewrite app_nil_r in HQ.
    apply HQ; [apply Hm1|exact F1].
  - inversion Hok as [|? ? (Hu & Hl & Ht & Hst) Hok']; subst. cbn [fst snd] in *. unfold block_source in Hf. cbn [flat_map fst snd] in Hf.
    change (flat_map (fun l => fst l ++ snd l ++ eol cr) b) with (block_source cr b) in Hf. rewrite <- !app_assoc in Hf.
    assert (Hlen : rem s = (List.length i + (List.length t + (List.length (eol cr) + List.length (block_source cr b ++ r))))%nat).
    { unfold rem. rewrite Hf, !app_length. lia. }
    assert (Heol : (1 <= List.length (eol cr))%nat) by (destruct cr; cbn; lia).
    apply (wx_Space i (t ++ eol cr ++ block_source cr b ++ r)); auto using uniform_blanks.
    { destruct t as [|c t]; [destruct cr; reflexivity|]. cbn [app stops]. rewrite <- blank_space. cbn in Hst. rewrite orb_false_r in Hst. exact Hst. }
    { lia. }
    intros s1 Hm1 _ F1. cbn [fst snd]. rewrite (uniform_kind _ Hu). replace (Z.of_nat (List.length i) <=? Z.of_nat n) with false by lia. cbn [orb].
    apply wp_bind. apply (wx_block_line cr t F buf s1 h (block_source cr b ++ r)); auto; [lia|]. intros s2 G2 F2.
    apply (IH f _ s2 h r); auto; [unfold rem; rewrite F2; lia|unfold rem; rewrite F2; lia|]. intros s3 G3 F3. cbn [flat_map snd] in HQ.
    rewrite <- !app_assoc in *. apply HQ; auto.
Qed.

Lemma trim_snoc s c : trim_nl (s ++ [c]) = if beq c x0a then trim_nl s else s ++ [c].
Proof. unfold trim_nl. rewrite rev_app_distr. cbn [rev app trim_nl_rev]. destruct (beq c x0a); [reflexivity|]. cbn [rev]. rewrite rev_involutive. reflexivity. Qed.
Lemma strip_snoc s c : strip (s ++ [c]) = if beq c x0a then strip s else s ++ [c].
Proof.
  induction s as [|d s IH]; cbn [app strip]; [destruct (beq c x0a); reflexivity|]. rewrite IH. destruct (beq c x0a); [reflexivity|].
  destruct s; reflexivity.
Qed.
Lemma trim_strip s : trim_nl s = strip s.
Proof. induction s as [|c s IH] using rev_ind; [reflexivity|]. rewrite trim_snoc, strip_snoc, IH. reflexivity. Qed.

Lemma wx_Block_yes cr n b s h r (Q : option bytes -> stream -> handler -> Prop) : block_lines_ok n b -> fut s = "\"%byte :: eol cr ++ block_source cr b ++ r ->
  stops is_space r -> (rem s < F)%nat ->
  (forall s', good s' -> fut s' = r -> Q (Some (block_text b)) s' h) -> wp (Block F (Z.of_nat n)) s h Q.
Proof.
  destruct s as [P fu o]. unfold rem. cbn [fut]. intros Hok -> Hr HF HQ. cbn [List.length] in HF. rewrite app_length in HF. unfold Block. apply wp_bind. unfold Byte_ at 1.
  apply wp_get. intros k Hk. cbn [wp]. change (beq "\" "\") with true. cbn [negb].
  destruct cr; cbn [eol app List.length] in *; apply wp_bind; unfold Byte_ at 1; apply wp_get; intros k2 Hk2; cbn [wp].
  - change (beq x0d x0a) with false. change (beq x0d x0d) with true. cbn [negb andb pbind]. apply wp_bind. unfold Byte_. apply wp_get. intros k3 Hk3. cbn [wp].
    apply wp_bind. apply (wx_block_lines true n b F [] _ h r); auto; [apply good_false|unfold rem; cbn [fut]; lia|unfold rem; cbn [fut]; lia|].
    intros s' G L. cbn [wp app]. rewrite trim_strip. apply HQ; auto.
  - change (beq x0a x0a) with true. change (beq x0a x0d) with false. cbn [negb andb pbind]. apply wp_bind.
    apply (wx_block_lines false n b F [] _ h r); auto; [apply good_false|unfold rem; cbn [fut]; lia|unfold rem; cbn [fut]; lia|].
    intros s' G L. cbn [wp app]. rewrite trim_strip. apply HQ; auto.
Qed.

(** ** Scalars *)
Variable E : env.
Definition val (types : bool) (t : scalar) : value graph := if types then typed_val E t else untyped t.

(** A scalar's source starts with text that is no comment and no block. *)
Lemma source_head n t r : scalar_ok n t ->
  exists c u, source n t ++ r = c :: u /\ is_text c = true /\ c <> ","%byte /\
    (c = "#"%byte -> match u with d :: _ => (exists v, source n t = "#"%byte :: d :: v) | [] => False end) /\
    (c = "\"%byte -> match u with d :: _ => (exists v, source n t = "\"%byte :: d :: v) | [] => False end).
Proof.
  destruct t as [s|q s]; cbn [source scalar_ok].
  - intros (Hne & Ht & Hst & H1 & H2). destruct s as [|c s]; [congruence|]. exists c, (s ++ r). cbn [app].
    split; [reflexivity|]. inversion Ht; subst. split; [unfold is_text; lia|]. cbn in Hst. rewrite !orb_false_iff in Hst.
    destruct Hst as (_ & _ & _ & Hst & _). split; [apply beq_neq; exact Hst|].
    split; intros ->; (destruct s as [|d s]; [contradiction (H1 eq_refl) || contradiction (H2 eq_refl)|]); cbn [app]; eexists; reflexivity.
  - intros ([->| ->] & _); unfold quoted_source; cbn [app].
    + exists x22, ((flat_map (quoted_byte x22 n) s ++ [x22]) ++ r). repeat split; discriminate.
    + exists "'"%byte, ((flat_map (quoted_byte "'" n) s ++ ["'"%byte]) ++ r). repeat split; discriminate.
Qed.

Lemma text_facts c : is_text c = true -> is_end c = false /\ is_break c = false /\ is_space c = false.
Proof. unfold is_text, is_end, is_break, is_space. lia. Qed.

Lemma plain_text s : plain_ok s -> Forall (fun c => is_text c = true) s.
Proof. intros (_ & H & _). revert H. apply Forall_impl. intros c Hc. unfold is_text. lia. Qed.

Lemma wx_scalar types n t s h r (Q : unit -> stream -> handler -> Prop) : good s -> scalar_ok n t -> fut s = source n t ++ r ->
  stops is_text r -> (rem s < F)%nat ->
  (forall s', good s' -> fut s' = r -> Q tt s' (h_add (val types t) h)) -> wp (scalar_event F E types (Z.of_nat n)) s h Q.
Proof.
  intros Hg Hok Hf Hr HF HQ. unfold scalar_event, ScalarType, Scalar_tok. destruct t as [w|q w]; cbn [source scalar_ok] in *.
  - assert (Hlw : (List.length w < F)%nat) by (unfold rem in HF; rewrite Hf, app_length in HF; lia).
    pose proof (plain_text w Hok) as Hw. destruct Hok as (Hne & _ & Hst & _ & _).
    assert (Hq : is_quote (head s) = false).
    { unfold head. rewrite Hf. destruct w as [|c w]; [congruence|]. cbn [app]. cbn in Hst. rewrite !orb_false_iff in Hst.
      destruct Hst as (H1 & H2 & H3 & _). unfold is_quote. rewrite H1, H2, H3. reflexivity. }
    destruct types.
    + apply wp_bind, wp_bind, wx_Quoted_no; auto. intros s1 G1 F1. apply wp_bind. apply (wx_String w r); auto; [congruence|].
      intros s2 G2 F2. cbn [wp]. destruct w as [|c w]; [congruence|]. eapply wp_ev; [reflexivity|]. cbn [wp]. apply (HQ s2 G2 F2).
    + apply wp_bind, wp_bind, wx_Quoted_no; auto. intros s1 G1 F1. apply wp_bind. apply (wx_String w r); auto; [congruence|].
      intros s2 G2 F2. cbn [wp]. destruct w as [|c w]; [congruence|]. cbn [nonempty]. eapply wp_ev; [reflexivity|]. cbn [wp]. apply (HQ s2 G2 F2).
  - destruct Hok as (Hq & Hok). destruct types.
    + apply wp_bind, wp_bind. apply (wx_Quoted_yes q n w s h r); auto. intros s1 G1 F1. cbn [wp]. eapply wp_ev; [reflexivity|]. cbn [wp]. apply (HQ s1 G1 F1).
    + apply wp_bind, wp_bind. apply (wx_Quoted_yes q n w s h r); auto. intros s1 G1 F1. cbn [wp]. eapply wp_ev; [reflexivity|]. cbn [wp]. apply (HQ s1 G1 F1).
Qed.

(** One iteration of the line loop, up to the scalar. *)
Lemma wx_loop_scalar types n f t s h r (Q : bool -> stream -> handler -> Prop) : good s -> scalar_ok n t -> fut s = source n t ++ r ->
  stops is_text r -> (rem s < F)%nat ->
  (forall s', good s' -> fut s' = r ->
    wp (do b <- Break; if b then Ret true else skip Space F; skip ev HInc; line_loop F E f types (Z.of_nat n)) s' (h_add (val types t) h) Q) ->
  wp (line_loop F E (S f) types (Z.of_nat n)) s h Q.
Proof.
  intros Hg Hok Hf Hr HF HQ. destruct (source_head n t r Hok) as (c & u & Hs & Ht & Hcm & H1 & H2). rewrite Hs in Hf.
  destruct (text_facts c Ht) as (He & Hb & Hsp).
  cbn [line_loop]. apply wp_bind. apply (wx_End_no s h c u); auto. intros s1 G1 F1.
  apply wp_bind, wx_Break_no; auto. { unfold head. rewrite F1. exact Hb. } intros s2 G2 F2.
  assert (Hsrc : forall d v, source n t = c :: d :: v -> is_space d = false /\ is_break d = false \/ is_quote c = true).
  { intros d v Ev. destruct t as [w|q w]; cbn [source] in Ev.
    - left. pose proof (plain_text w Hok) as Hw. rewrite Ev in Hw. inversion Hw as [|? ? _ Hw']. inversion Hw' as [|? ? Hd _].
      destruct (text_facts d Hd) as (_ & ? & ?). auto.
    - right. unfold quoted_source in Ev. inversion Ev; subst. destruct Hok as ([->| ->] & _); reflexivity. }
  apply wp_bind, wx_Comment_no; auto.
  { unfold head, second. rewrite F2, F1. destruct (beq_spec c "#") as [->|Hc]; [right|left; exact Hc].
    specialize (H1 eq_refl). destruct u as [|d u]; [contradiction|]. destruct H1 as (v & Ev). destruct (Hsrc d v Ev) as [[? _]|Hx]; [assumption|discriminate Hx]. }
  intros s3 G3 F3. apply wp_bind, wx_Block_no; auto.
  { unfold head, second. rewrite F3, F2, F1. destruct (beq_spec c "\") as [->|Hc]; [right|left; exact Hc].
    specialize (H2 eq_refl). destruct u as [|d u]; [contradiction|]. destruct H2 as (v & Ev). destruct (Hsrc d v Ev) as [[_ ?]|Hx]; [assumption|discriminate Hx]. }
  intros s4 G4 F4. assert (Hf4 : fut s4 = source n t ++ r) by (rewrite Hs; congruence).
  assert (Hl4 : (rem s4 < F)%nat). { unfold rem in *. rewrite F4, F3, F2, F1. rewrite Hf in HF. exact HF. }
  apply wp_bind. apply (wx_scalar types n t s4 h r); auto.
Qed.

(** What may follow the end of a line. *)
Definition after (e : ending) (r : bytes) : Prop :=
  match e with Eof => r = [] | Blk _ _ => stops is_space r /\ stops is_break r | _ => True end.
Definition block_vals (e : ending) : list (value graph) := match e with Blk _ b => [VStr (block_text b)] | _ => [] end.

Lemma wx_ending types n e f s h r (Q : bool -> stream -> handler -> Prop) : good s -> ending_ok n e -> fut s = ending_source e ++ r -> after e r ->
  (rem s < F)%nat ->
  (forall b s' h', good s' -> fut s' = r -> (b = true <-> e <> Eof) -> evs h' = evs h ++ at_levels (cur h) (block_vals e) -> Q b s' h') ->
  wp (line_loop F E (S f) types (Z.of_nat n)) s h Q.
Proof.
  intros Hg Hok Hf He HF HQ. cbn [line_loop]. destruct e as [| | |b t|cr b]; cbn [ending_source app after block_vals at_levels] in *; rewrite ?app_nil_r in HQ.
  - apply wp_bind. apply (wx_End_no s h x0a r); auto. intros s1 G1 F1. apply wp_bind. apply (wx_Break_lf s1 h r); auto. intros s2 G2 F2.
    cbn [wp]. apply HQ; auto. split; [discriminate|reflexivity].
  - apply wp_bind. apply (wx_End_no s h x0d (x0a :: r)); auto. intros s1 G1 F1. apply wp_bind. apply (wx_Break_crlf s1 h r); auto. intros s2 G2 F2.
    cbn [wp]. apply HQ; auto. split; [discriminate|reflexivity].
  - rewrite He in *. apply wp_bind. apply (wx_End_eof s h); auto. intros s1 G1 F1. cbn [wp]. apply HQ; auto.
    split; [discriminate|congruence].
  - rewrite <- app_assoc in Hf. cbn [app] in Hf. destruct Hok as (Hb & Ht). rewrite blank_space in Hb.
    apply wp_bind. apply (wx_End_no s h "#"%byte (b :: t ++ x0a :: r)); auto. intros s1 G1 F1.
    apply wp_bind, wx_Break_no; auto. { unfold head. rewrite F1. reflexivity. } intros s2 G2 F2. rewrite F1 in F2.
    apply wp_bind. apply (wx_Comment_yes s2 h b t r); auto.
    + revert Ht. apply Forall_impl. intros c (H1 & H2 & H3). rewrite control_end in H1. rewrite H1. cbn [orb]. unfold is_break.
      apply orb_false_iff. split; apply Z.eqb_neq; intro Ez; [apply H2|apply H3]; apply bz_inj; exact Ez.
    + unfold rem in HF. rewrite Hf in HF. cbn [List.length] in HF. rewrite app_length in HF. lia.
    + intros s3 G3 F3. cbn [wp]. apply HQ; auto. split; [discriminate|reflexivity].
  - change (flat_map (fun l => fst l ++ snd l ++ eol cr) b) with (block_source cr b) in Hf. rewrite <- app_assoc in Hf. destruct He as (Hr1 & Hr2).
    apply wp_bind. apply (wx_End_no s h "\"%byte (eol cr ++ block_source cr b ++ r)); auto. intros s1 G1 F1.
    apply wp_bind, wx_Break_no; auto. { unfold head. rewrite F1. reflexivity. } intros s2 G2 F2. rewrite F1 in F2.
    apply wp_bind, wx_Comment_no; auto. { left. unfold head. rewrite F2. discriminate. } intros s3 G3 F3. rewrite F2 in F3.
    apply wp_bind. apply (wx_Block_yes cr n b s3 h r); auto. { unfold rem in *. rewrite F3, <- Hf. exact HF. } intros s4 G4 F4.
    apply wp_bind. eapply wp_ev; [reflexivity|]. cbn [wp]. apply wp_bind. apply wx_Break_no; auto.
    { unfold head. rewrite F4. destruct r; [reflexivity|exact Hr2]. }
    intros s5 G5 F5. cbn [wp]. apply HQ; auto; [congruence|split; [discriminate|reflexivity]].
Qed.

Lemma stops_source p n ts e r : (forall c, is_text c = true -> p c = false) -> p x0a = false -> p x0d = false ->
  toks_ok n ts e -> after e r -> stops p (toks_source n ts ++ ending_source e ++ r).
Proof.
  intros Hp Ha Hd Hok He. destruct ts as [|[t g] ts].
  - cbn [toks_source flat_map app]. destruct e; cbn [ending_source app stops]; auto. cbn [after] in He. rewrite He. exact I.
  - destruct Hok as (Ht & _). cbn [toks_source flat_map fst snd]. rewrite <- !app_assoc.
    destruct (source_head n t (g ++ toks_source n ts ++ ending_source e ++ r) Ht) as (c & u & Hs & Hc & _).
    unfold toks_source in Hs. rewrite Hs. cbn [stops]. auto.
Qed.

Lemma wx_line_loop types n e : ending_ok n e -> forall ts f s h r (Q : bool -> stream -> handler -> Prop), good s -> toks_ok n ts e ->
  fut s = toks_source n ts ++ ending_source e ++ r -> after e r -> (rem s < F)%nat -> (rem s < f)%nat ->
  (forall b s' h', good s' -> fut s' = r -> (b = true <-> e <> Eof) ->
     evs h' = evs h ++ at_levels (cur h) (map (fun t => val types (fst t)) ts ++ block_vals e) -> Q b s' h') ->
  wp (line_loop F E f types (Z.of_nat n)) s h Q.
Proof.
  intros Heok. induction ts as [|[t g] ts IH]; intros f s h r Q Hg Hok Hf He HF Hfu HQ; (destruct f as [|f]; [lia|]).
  - apply (wx_ending types n e f s h r); auto.
  - cbn [toks_ok] in Hok. destruct Hok as (Ht & Hgb & Hge & Hok). cbn [toks_source flat_map fst snd] in Hf. rewrite <- !app_assoc in Hf.
    change (flat_map (fun t => source n (fst t) ++ snd t) ts) with (toks_source n ts) in Hf.
    assert (Hsrc : (0 < List.length (source n t))%nat).
    { destruct (source_head n t [] Ht) as (c & u & Hs & _). rewrite app_nil_r in Hs. rewrite Hs. cbn. lia. }
    assert (Hlen : rem s = (List.length (source n t) + List.length g + List.length (toks_source n ts ++ ending_source e ++ r))%nat).
    { unfold rem. rewrite Hf, !app_length. lia. }
    destruct g as [|b g].
    + (* the last scalar, immediately followed by the end of the line *)
      cbn [app] in Hf. assert (Hnil : ts = [] /\ needs_gap e = false).
      { split; [destruct ts; [reflexivity|]; exfalso; apply Hge; [left; discriminate|reflexivity]|].
        destruct (needs_gap e); [exfalso; apply Hge; auto|reflexivity]. }
      destruct Hnil as (-> & Hcom). cbn [toks_source flat_map app] in Hf, Hlen.
      apply (wx_loop_scalar types n f t s h (ending_source e ++ r)); auto.
      { destruct e; try reflexivity; try discriminate. cbn [ending_source app after] in *. rewrite He. exact I. }
      intros s1 G1 F1. apply wp_bind. destruct e as [| | |? ?|?]; [| | |discriminate|discriminate]; cbn [ending_source app after] in *.
      * apply (wx_Break_lf s1 _ r); auto. intros s2 G2 F2. cbn [wp]. apply HQ; auto. split; [discriminate|reflexivity].
      * apply (wx_Break_crlf s1 _ r); auto. intros s2 G2 F2. cbn [wp]. apply HQ; auto. split; [discriminate|reflexivity].
      * pose proof He as Hr0. rewrite Hr0 in F1, HQ. apply wx_Break_no; auto. { unfold head. rewrite F1. reflexivity. } intros s2 G2 F2.
        apply wp_bind. apply (wx_Space [] []); [exact G2|cbn [app]; congruence|constructor|exact I|cbn; lia|]. intros s3 Hm3 _ F3.
        apply wp_bind. eapply wp_ev; [reflexivity|]. cbn [wp].
        destruct f as [|f]. { exfalso. lia. }
        apply (wx_ending types n Eof f s3 _ []); [apply Hm3|exact I|exact F3|reflexivity|unfold rem; rewrite F3; cbn; lia|].
        intros b s4 h4 G4 F4 B4 Hev. apply HQ; auto. rewrite Hev. cbn [block_vals at_levels]. rewrite app_nil_r. reflexivity.
    + apply (wx_loop_scalar types n f t s h ((b :: g) ++ toks_source n ts ++ ending_source e ++ r)); auto.
      { cbn [app stops]. inversion Hgb as [|? ? Hb _]. rewrite blank_space in Hb. clear - Hb. unfold is_space, is_text in *. lia. }
      intros s1 G1 F1. apply wp_bind. apply wx_Break_no; auto.
      { unfold head. rewrite F1. cbn [app]. inversion Hgb as [|? ? Hb _]. rewrite blank_space in Hb. clear - Hb. unfold is_space, is_break in *. lia. }
      intros s2 G2 F2. rewrite F1 in F2. apply wp_bind.
      apply (wx_Space (b :: g) (toks_source n ts ++ ending_source e ++ r)); auto.
      { apply (stops_source _ n ts e r); auto. intros c Hc. apply (text_facts c Hc). }
      { cbn [List.length] in *. lia. }
      intros s3 Hm3 _ F3. apply wp_bind. eapply wp_ev; [reflexivity|]. cbn [wp].
      apply (IH f s3 _ r); auto; [apply Hm3|unfold rem; rewrite F3; lia|unfold rem; rewrite F3; lia|].
      intros b' s4 h4 G4 F4 B4 Hev. apply HQ; auto. rewrite Hev. cbn [h_inc h_add evs cur map at_levels fst]. rewrite <- app_assoc. reflexivity.
Qed.

(** ** Lines and trees *)
Fixpoint drop (ns : nat) (ls : list textline) : list textline :=
  match ls with [] => [] | l :: r => if (ns <=? depth l)%nat then drop ns r else ls end.

Lemma drop_in ns (P : textline -> Prop) ls : Forall P ls -> Forall P (drop ns ls).
Proof. induction 1; cbn; [constructor|]. destruct (_ <=? _)%nat; [assumption|constructor; assumption]. Qed.
Lemma drop_eof ns ls : follow_ok ls -> follow_ok (drop ns ls).
Proof. induction ls as [|l ls IH]; cbn; [auto|]. intros (H1 & H2). destruct (_ <=? _)%nat; [auto|cbn; auto]. Qed.
Lemma drop_twice a b ls : (a <= b)%nat -> drop a (drop b ls) = drop a ls.
Proof.
  intro H. induction ls as [|l ls IH]; [reflexivity|]. cbn [drop]. destruct (b <=? depth l)%nat eqn:Eb; [|reflexivity].
  rewrite IH. replace (a <=? depth l)%nat with true; [reflexivity|]. symmetry. apply Nat.leb_le. apply Nat.leb_le in Eb. lia.
Qed.
Lemma drop_length ns ls : (List.length (doc_source (drop ns ls)) <= List.length (doc_source ls))%nat.
Proof.
  induction ls as [|l ls IH]; cbn [drop]; [lia|]. destruct (_ <=? _)%nat; [|lia]. cbn [doc_source flat_map]. rewrite app_length.
  change (flat_map line_source (drop ns ls)) with (doc_source (drop ns ls)). change (flat_map line_source ls) with (doc_source ls). lia.
Qed.
(** The indentations before the rest of the document. *)
Definition depths (P : list nat) (ls : list textline) : list nat := rev (map depth ls) ++ P.
Lemma depths_cons P l ls : depths P (l :: ls) = depths (depth l :: P) ls.
Proof. unfold depths. cbn [map rev]. rewrite <- app_assoc. reflexivity. Qed.
Lemma doc_events_app v P a b : doc_events v P (a ++ b) = doc_events v P a ++ doc_events v (depths P a) b.
Proof.
  revert P. induction a as [|l a IH]; intro P; [reflexivity|]. cbn [app doc_events]. rewrite IH, depths_cons, app_assoc. reflexivity.
Qed.
Lemma take_twice a b ls : (a <= b)%nat -> take a ls = take b ls ++ take a (drop b ls).
Proof.
  intro H. induction ls as [|l ls IH]; [reflexivity|]. cbn [take drop]. destruct (b <=? depth l)%nat eqn:Eb.
  - apply Nat.leb_le in Eb. replace (a <=? depth l)%nat with true by (symmetry; apply Nat.leb_le; lia). cbn [app]. rewrite IH. reflexivity.
  - reflexivity.
Qed.

(** The levels a tree(ns) at level L expects for the lines from ns to the next one, n. *)
Definition expects (P : list nat) (ns : nat) (L : Z) (ls : list textline) : Prop :=
  match ls with
  | [] => True
  | l :: _ => 0 <= L /\ ((ns <= depth l)%nat -> level P ns = L) /\
              (forall m, (ns < m <= depth l)%nat -> level P m = L + 1)
  end.

Lemma level_skip Q P m : Forall (fun k => (m <= k)%nat) Q -> level (Q ++ P) m = level P m.
Proof.
  induction 1 as [|k Q H _ IH]; [reflexivity|]. cbn [app level]. replace (k <? m)%nat with false by (symmetry; apply Nat.ltb_ge; lia). exact IH.
Qed.
Lemma take_depths n ls : Forall (fun k => (n <= k)%nat) (rev (map depth (take n ls))).
Proof.
  apply Forall_rev. induction ls as [|l ls IH]; cbn; [constructor|]. destruct (n <=? depth l)%nat eqn:El; [|constructor].
  cbn. constructor; [apply Nat.leb_le; exact El|exact IH].
Qed.
Lemma drop_head n ls l r : drop n ls = l :: r -> (depth l < n)%nat.
Proof.
  induction ls as [|l' ls IH]; [discriminate|]. cbn [drop]. destruct (n <=? depth l')%nat eqn:El; [exact IH|].
  intro H. inversion H; subst. apply Nat.leb_gt. exact El.
Qed.

Lemma expects_same P ns L ls : 0 <= L -> level P ns = L -> expects (ns :: P) ns L ls.
Proof.
  intros HL H. destruct ls as [|l ls]; [exact I|]. cbn [expects]. split; [exact HL|]. split.
  - intros _. cbn [level]. rewrite Nat.ltb_irrefl. exact H.
  - intros m Hm. cbn [level]. replace (ns <? m)%nat with true by (symmetry; apply Nat.ltb_lt; lia). rewrite H. lia.
Qed.
Lemma expects_nested P ns L l ls : (ns < depth l)%nat -> expects P ns L (l :: ls) ->
  expects P (depth l) (L + 1) (l :: ls) /\ expects (depths P (take (depth l) (l :: ls))) ns L (drop (depth l) (l :: ls)).
Proof.
  intros Hd (H0 & H1 & H2). split.
  - cbn [expects]. split; [lia|]. split; [intros _; apply H2; lia|intros m Hm; lia].
  - destruct (drop (depth l) (l :: ls)) as [|l' r] eqn:Ed; [exact I|]. pose proof (drop_head _ _ _ _ Ed) as Hl'.
    assert (Hsk : forall m, (m <= depth l)%nat -> level (depths P (take (depth l) (l :: ls))) m = level P m).
    { intros m Hm. unfold depths. apply level_skip. eapply Forall_impl; [|apply take_depths]. cbn. intros; lia. }
    cbn [expects]. split; [exact H0|]. split; [intro Hn; rewrite Hsk by lia; apply H1; lia|intros m Hm; rewrite Hsk by lia; apply H2; lia].
Qed.

(** What follows a line of a document. *)
Lemma after_line l ls : Forall line_ok ls -> follow_ok (l :: ls) -> after (fin l) (doc_source ls).
Proof.
  intros Hok (Hl & Hfo). destruct (fin l) eqn:El; cbn [after]; auto.
  - rewrite Hl. reflexivity.
  - destruct ls as [|l' ls]; [split; exact I|]. cbn [block_end] in Hl. destruct Hl as (Hi & Hne). inversion Hok as [|? ? Hl' Hok']; subst.
    destruct Hl' as (_ & _ & Ht & _).
    assert (Heq : doc_source (l' :: ls) = toks_source (depth l') (toks l') ++ ending_source (fin l') ++ doc_source ls).
    { cbn [doc_source flat_map]. unfold line_source. rewrite Hi. cbn [app]. rewrite <- app_assoc. reflexivity. }
    rewrite Heq. destruct (toks l') as [|[t g] ts].
    + cbn [toks_source flat_map app]. destruct Hne as [Hne|(H1 & H2)]; [congruence|]. destruct Hfo as (Hfo & _).
      destruct (fin l'); try congruence; cbn [ending_source app stops]; try (split; reflexivity). rewrite Hfo. split; exact I.
    + destruct Ht as (Ht & _). cbn [toks_source flat_map fst snd]. rewrite <- !app_assoc.
      destruct (source_head (depth l') t (g ++ flat_map (fun t => source (depth l') (fst t) ++ snd t) ts ++ ending_source (fin l') ++ doc_source ls) Ht) as (c & u & Hs & Hc & _).
      rewrite Hs. cbn [stops]. destruct (text_facts c Hc) as (_ & ? & ?). auto.
Qed.

(** Documents contain no control character. *)
Lemma doc_head l ls : line_ok l -> after (fin l) (doc_source ls) ->
  doc_source (l :: ls) = [] \/ exists c r, doc_source (l :: ls) = c :: r /\ is_end c = false.
Proof.
  intros (Hi & _ & Ht & _) He. cbn [doc_source flat_map]. change (flat_map line_source ls) with (doc_source ls). unfold line_source. rewrite <- !app_assoc.
  destruct (ind l) as [|c i] eqn:Ei.
  - cbn [app]. assert (Hs : stops is_end (toks_source (depth l) (toks l) ++ ending_source (fin l) ++ doc_source ls)).
    { apply stops_source; auto. intros c Hc; apply (text_facts c Hc). }
    destruct (toks_source (depth l) (toks l) ++ ending_source (fin l) ++ doc_source ls) as [|c r]; [left; reflexivity|right].
    exists c, r. split; [reflexivity|exact Hs].
  - right. eexists c, _. split; [reflexivity|]. inversion Hi as [|? ? Hc _]. rewrite blank_space in Hc. clear - Hc. unfold is_space, is_end in *. lia.
Qed.

Definition first_depth (ls : list textline) (ns : nat) : Prop := match ls with [] => False | l :: _ => depth l = ns end.

Lemma wx_tree types : forall f ns s h ls P (Q : unit -> stream -> handler -> Prop), good s -> Forall line_ok ls -> follow_ok ls ->
  fut s = doc_source ls -> (rem s < F)%nat -> (2 * rem s + 3 <= f \/ first_depth ls ns /\ 2 * rem s + 2 <= f)%nat ->
  expects P ns (cur h) ls ->
  (forall s' h', good s' -> fut s' = doc_source (drop ns ls) -> evs h' = evs h ++ doc_events (val types) P (take ns ls) ->
     (drop ns ls = [] \/ cur h' = cur h) -> Q tt s' h') ->
  wp (tree_ F E f types (Z.of_nat ns)) s h Q.
Proof.
  induction f as [|f IH]; intros ns s h ls P Q Hg Hok Heof Hf HF Hfu HK HQ; [lia|].
  destruct ls as [|l ls].
  { (* the end of the text *)
    cbn [doc_source flat_map drop take doc_events] in *. rewrite app_nil_r in HQ. cbn [tree_]. apply wp_bind. unfold line.
    apply wp_bind. apply (wx_Space [] []); [exact Hg|exact Hf|constructor|exact I|cbn; lia|]. intros s1 Hm1 _ F1. assert (G1 : good s1) by apply Hm1. cbv iota. cbn [List.length].
    change (Z.of_nat 0) with 0. destruct (Z.ltb_spec 0 (Z.of_nat ns)).
    - cbn [Z.to_nat unread_n wp pbind]. apply wp_bind. apply (wx_End_eof s1 h); auto. intros s2 G2 F2. cbn [wp]. apply HQ; auto.
    - replace (Z.of_nat ns <? 0) with false by lia. apply wp_bind. cbn [Level wp]. change (space_kind []) with x20. change (beq x20 x00) with false. cbn [andb].
      apply wp_bind. apply (wx_End_eof s1 h); auto. intros s2 G2 F2. cbn [wp]. apply wp_bind. apply (wx_End_eof s2 h); auto.
      intros s3 G3 F3. cbn [wp]. apply HQ; auto. }
  inversion Hok as [|? ? Hl Hok']; subst. destruct Hl as (Hind & Hdep & Htoks & Hend). pose proof (after_line l ls Hok' Heof) as Her. assert (Hfo := Heof). cbn [follow_ok] in Heof. destruct Heof as (He & Heof).
  cbn [doc_source flat_map] in Hf. change (flat_map line_source ls) with (doc_source ls) in Hf. unfold line_source in Hf. rewrite <- !app_assoc in Hf.
  assert (He0 : fin l = Eof -> ls = []) by (intro Hx; rewrite Hx in He; exact He).
  assert (Hlen : rem s = (depth l + List.length (toks_source (depth l) (toks l) ++ ending_source (fin l) ++ doc_source ls))%nat).
  { unfold rem, depth. rewrite Hf, app_length. reflexivity. }
  cbn [tree_]. apply wp_bind. unfold line. apply wp_bind.
  apply (wx_Space (ind l) (toks_source (depth l) (toks l) ++ ending_source (fin l) ++ doc_source ls)); auto.
  { apply (stops_source _ (depth l) (toks l) (fin l)); auto. intros c Hc. apply (text_facts c Hc). }
  { unfold depth in Hlen. lia. }
  intros s1 Hm1 Hr1 F1. cbv iota. fold (depth l).
  destruct (Z.ltb_spec (Z.of_nat (depth l)) (Z.of_nat ns)) as [Hlt|Hge].
  { (* less indented: not ours *)
    rewrite Nat2Z.id. apply wp_bind. apply (wp_unread_n _ (ind l) s s1); auto. intros w1 w2 s2 Hw Hm2 F2 Hfull. cbn [wp].
    rewrite (Hfull Hdep) in Hm2. destruct Hm2 as (Hm2 & G2). cbn [app] in Hm2.
    assert (Hdr : drop ns (l :: ls) = l :: ls /\ take ns (l :: ls) = []).
    { cbn [drop take]. replace (ns <=? depth l)%nat with false by (symmetry; apply Nat.leb_gt; lia). auto. }
    destruct Hdr as (Hdr & Htk). rewrite Hdr, Htk in HQ.
    assert (F2' : fut s2 = doc_source (l :: ls)).
    { rewrite <- Hm2, Hf. cbn [doc_source flat_map]. unfold line_source. rewrite <- !app_assoc. reflexivity. }
    apply wp_bind. destruct (doc_head l ls) as [Hnil|(c & r & Hcr & Hc)]; auto; [repeat split; auto| |].
    - apply (wx_End_eof s2 h); [congruence|]. intros s3 G3 F3. cbn [wp]. apply HQ; auto; [congruence|cbn [doc_events]; rewrite app_nil_r; reflexivity].
    - apply (wx_End_no s2 h c r); [congruence|exact Hc|]. intros s3 G3 F3. cbn [wp]. apply HQ; auto; [congruence|cbn [doc_events]; rewrite app_nil_r; reflexivity]. }
  assert (Htk : take ns (l :: ls) = l :: take ns ls /\ drop ns (l :: ls) = drop ns ls).
  { cbn [drop take]. replace (ns <=? depth l)%nat with true by (symmetry; apply Nat.leb_le; lia). auto. }
  destruct (Z.ltb_spec (Z.of_nat ns) (Z.of_nat (depth l))) as [Hgt|Hle].
  { (* more indented: a nested tree *)
    rewrite Nat2Z.id. apply wp_bind. apply (wp_unread_n _ (ind l) s s1); auto. intros w1 w2 s2 Hw Hm2 F2 Hfull. cbn [wp].
    rewrite (Hfull Hdep) in Hm2. destruct Hm2 as (Hm2 & G2). cbn [app] in Hm2.
    assert (F2' : fut s2 = doc_source (l :: ls)).
    { rewrite <- Hm2, Hf. cbn [doc_source flat_map]. unfold line_source. rewrite <- !app_assoc. reflexivity. }
    assert (R2 : rem s2 = rem s) by (unfold rem; rewrite Hm2; reflexivity).
    destruct (expects_nested P ns (cur h) l ls) as (HK1 & HK2); auto; [lia|].
    apply wp_bind. eapply wp_ev; [reflexivity|]. cbn [wp]. apply wp_bind.
    apply (IH (depth l) s2 (h_inc h) (l :: ls) P); auto.
    - lia.
    - right. split; [reflexivity|]. destruct Hfu as [Hfu|[Hx _]]; [lia|]. cbn in Hx. lia.
    - intros s3 h3 G3 F3 Hev3 Hcur3. apply wp_bind. eapply wp_ev; [reflexivity|]. cbn [wp].
      assert (Hd1 : drop (depth l) (l :: ls) = drop (depth l) ls) by (cbn [drop]; rewrite Nat.leb_refl; reflexivity).
      assert (R3 : (rem s3 < rem s)%nat).
      { unfold rem at 1. rewrite F3, Hd1. pose proof (drop_length (depth l) ls). rewrite Hlen, !app_length. lia. }
      assert (Hdec : cur h3 = cur (h_inc h) -> cur (h_dec h3) = cur h).
      { intro Hx. cbn [h_dec cur]. rewrite Hx. cbn [h_inc cur]. destruct HK as (HK0 & _). replace (0 <? cur h + 1) with true by lia. lia. }
      apply (IH ns s3 (h_dec h3) (drop (depth l) (l :: ls)) (depths P (take (depth l) (l :: ls)))); auto.
      + apply drop_in. exact Hok.
      + apply drop_eof. exact Hfo.
      + lia.
      + left. lia.
      + destruct Hcur3 as [Hnil|Hcur3]; [rewrite Hnil; exact I|].
        rewrite (Hdec Hcur3). exact HK2.
      + intros s4 h4 G4 F4 Hev4 Hcur4. rewrite drop_twice in * by lia. apply HQ; auto.
        * rewrite Hev4. cbn [h_dec evs]. rewrite Hev3. cbn [h_inc evs]. rewrite <- app_assoc, <- doc_events_app. f_equal. f_equal.
          symmetry. apply take_twice. lia.
        * destruct Hcur4 as [Hc4|Hc4]; [left; exact Hc4|]. destruct Hcur3 as [Hc3|Hc3]; [left|right; rewrite Hc4; auto].
          rewrite <- (drop_twice ns (depth l)), Hc3 by lia. reflexivity. }
  (* our own line *)
  assert (Hn : depth l = ns) by lia. destruct Htk as (Htk & Hdr). rewrite Htk, Hdr in HQ. destruct HK as (HK0 & HK1 & HK2).
  assert (Hlev : level P (depth l) = cur h) by (rewrite Hn; apply HK1; lia).
  apply wp_bind. cbn [Level wp].
  assert (Hsk : beq (space_kind (ind l)) x00 && (Z.of_nat (depth l) =? 0) = false).
  { unfold depth. destruct (ind l); [reflexivity|]. rewrite andb_false_iff. right. apply Z.eqb_neq. cbn [List.length]. lia. }
  rewrite Hsk. rewrite <- Hn in *. clear Hn.
  assert (Hev1 : evs h ++ doc_events (val types) P (l :: take (depth l) ls) =
      (evs h ++ at_levels (cur h) (line_vals (val types) l)) ++ doc_events (val types) (depth l :: P) (take (depth l) ls)).
  { cbn [doc_events]. rewrite Hlev, app_assoc. reflexivity. }
  rewrite Hev1 in HQ. assert (G1 : good s1) by apply Hm1.
  assert (Hs : stops (fun c => is_end c || beq c ",") (toks_source (depth l) (toks l) ++ ending_source (fin l) ++ doc_source ls)).
  { destruct (toks l) as [|[t g] ts] eqn:Et.
    - cbn [toks_source flat_map app]. destruct (fin l); cbn [ending_source app]; try reflexivity. cbn [after] in Her. rewrite Her. exact I.
    - destruct Htoks as (Ht & _). cbn [toks_source flat_map fst snd]. rewrite <- !app_assoc.
      destruct (source_head (depth l) t (g ++ flat_map (fun t => source (depth l) (fst t) ++ snd t) ts ++ ending_source (fin l) ++ doc_source ls) Ht) as (c & u & Hs & Hc & Hcm & _).
      rewrite Hs. cbn [stops]. destruct (text_facts c Hc) as (-> & _). apply beq_neq in Hcm. rewrite Hcm. reflexivity. }
  destruct (toks_source (depth l) (toks l) ++ ending_source (fin l) ++ doc_source ls) as [|c r] eqn:Ecr.
  - (* an empty last line *)
    assert (Hx : toks l = [] /\ fin l = Eof).
    { apply app_eq_nil in Ecr as (E1 & E2). apply app_eq_nil in E2 as (E2 & _). split; [|destruct (fin l); try discriminate; reflexivity].
      destruct (toks l) as [|[t g] ts]; [reflexivity|]. destruct Htoks as (Ht & _). cbn [toks_source flat_map fst snd] in E1.
      destruct (source_head (depth l) t [] Ht) as (c & u & Hs' & _). rewrite app_nil_r in Hs'. rewrite Hs' in E1. discriminate. }
    destruct Hx as (Ht0 & Hf0). rewrite (He0 Hf0) in *. unfold line_vals in HQ. rewrite Ht0, Hf0 in *. cbn [map app at_levels take drop doc_events doc_source flat_map] in *.
    rewrite !app_nil_r in HQ.
    apply wp_bind. apply (wx_End_eof s1 h); auto. intros s2 G2 F2. cbn [wp]. apply wp_bind. apply (wx_End_eof s2 h); auto.
    intros s3 G3 F3. cbn [wp]. apply HQ; auto.
  - cbn [stops] in Hs. apply orb_false_iff in Hs as (Hce & Hcc).
    apply wp_bind. apply (wx_End_no s1 h c r); auto. intros s2 G2 F2. apply wp_bind. apply wp_Peek; auto. intros s3 G3 F3.
    unfold head. rewrite F2, Hcc. apply wp_bind. cbn [wp]. apply wp_bind.
    assert (R3 : rem s3 = List.length (c :: r)) by (unfold rem; rewrite F3, F2; reflexivity).
    apply (wx_line_loop types (depth l) (fin l) Hend (toks l) f s3 h (doc_source ls)); auto.
    + congruence.
    + lia.
    + lia.
    + intros b s4 h4 G4 F4 B4 Hev4. destruct b.
      * apply wp_bind. eapply wp_ev; [reflexivity|]. cbn [wp].
        assert (R4 : (rem s4 < rem s)%nat).
        { unfold rem at 1. rewrite F4, Hlen, <- Ecr, !app_length.
          assert (0 < List.length (ending_source (fin l)))%nat; [|lia]. destruct (fin l); cbn [ending_source List.length]; try lia.
          exfalso. apply (proj1 B4 eq_refl). reflexivity. }
        apply (IH (depth l) s4 (h_set_level (cur h) h4) ls (depth l :: P)); auto; try lia.
        -- apply expects_same; auto.
        -- intros s5 h5 G5 F5 Hev5 Hcur5. apply HQ; auto. rewrite Hev5. cbn [h_set_level evs]. rewrite Hev4. reflexivity.
      * assert (Hx : fin l = Eof). { destruct (fin l) eqn:Efin; try reflexivity; exfalso; (enough (false = true) by discriminate); apply B4; discriminate. }
        rewrite (He0 Hx) in *. cbn [take drop doc_events doc_source flat_map] in *. rewrite app_nil_r in HQ. cbn [wp].
        apply wp_bind. apply (wx_End_eof s4 h4); auto. intros s5 G5 F5. cbn [wp]. apply HQ; auto.
Qed.

Lemma take_all n ls : Forall (fun l => (n <= depth l)%nat) ls -> take n ls = ls.
Proof. induction 1 as [|l ls H _ IH]; [reflexivity|]. cbn [take]. apply Nat.leb_le in H. rewrite H, IH. reflexivity. Qed.

Lemma wx_Ogdl types f s h ls (Q : unit -> stream -> handler -> Prop) : good s -> doc_ok ls -> fut s = doc_source ls -> cur h = 0 ->
  (rem s < F)%nat -> (2 * rem s + 3 <= f)%nat ->
  (forall s' h', good s' -> evs h' = evs h ++ doc_events (val types) [] (kept ls) -> Q tt s' h') ->
  wp (Ogdl F E f types) s h Q.
Proof.
  intros Hg (Hok & Heof & Hbase) Hf Hcur HF Hfu HQ. unfold Ogdl. apply wp_bind. destruct ls as [|l ls].
  - apply (wx_Space [] []); [exact Hg|exact Hf|constructor|exact I|cbn; lia|]. intros s1 Hm1 _ F1. cbv iota.
    change (beq (space_kind []) x00) with false. cbv iota. cbn [List.length]. change (Z.of_nat 0) with 0. cbn [Z.to_nat unread_n pbind].
    change 0 with (Z.of_nat 0). apply (wx_tree types f 0%nat s1 h [] []); auto; try exact I.
    + apply Hm1.
    + unfold rem. rewrite F1. cbn. lia.
    + left. unfold rem. rewrite F1. cbn [List.length]. lia.
  - inversion Hok as [|? ? Hl Hok']; subst. destruct Hl as (Hind & Hdep & Htoks & Hend). pose proof (after_line l ls Hok' Heof) as Her. assert (Hfo := Heof). destruct Heof as (He & Heof). rename Hbase into Hu.
    assert (Hf' := Hf). cbn [doc_source flat_map] in Hf'. change (flat_map line_source ls) with (doc_source ls) in Hf'. unfold line_source in Hf'. rewrite <- !app_assoc in Hf'.
    apply (wx_Space (ind l) (toks_source (depth l) (toks l) ++ ending_source (fin l) ++ doc_source ls)); auto.
    { apply (stops_source _ (depth l) (toks l) (fin l)); auto. intros c Hc; apply (text_facts c Hc). }
    { unfold rem in HF. rewrite Hf', app_length in HF. lia. }
    intros s1 Hm1 Hr1 F1. cbv iota. fold (depth l). rewrite (uniform_kind _ Hu). rewrite Nat2Z.id.
    apply wp_bind. apply (wp_unread_n _ (ind l) s s1); auto. intros w1 w2 s2 Hw Hm2 F2 Hfull.
    rewrite (Hfull Hdep) in Hm2. destruct Hm2 as (Hm2 & G2). cbn [app] in Hm2.
    assert (R2 : rem s2 = rem s) by (unfold rem; rewrite Hm2; reflexivity).
    apply (wx_tree types f (depth l) s2 h (l :: ls) []); auto.
    + congruence.
    + lia.
    + left. lia.
    + cbn [expects]. rewrite Hcur. split; [lia|]. split; [reflexivity|]. intros m Hm. lia.
Qed.
End Exact.

Lemma wp_and {A} (m : prog A) : forall s h (Q1 Q2 : A -> stream -> handler -> Prop),
  wp m s h Q1 -> wp m s h Q2 -> wp m s h (fun a s h => Q1 a s h /\ Q2 a s h).
Proof.
  induction m as [a|k IH|k IH|k IH|o k IH|k IH|]; intros s h Q1 Q2 H1 H2; cbn [wp] in *; auto.
  destruct H1 as (h1 & E1 & H1). destruct H2 as (h2 & E2 & H2). rewrite E1 in E2. inversion E2; subst. exists h2. auto.
Qed.

Lemma FromReader_doc E types rd ls fuel : doc_ok ls -> seen (size rd) rd = doc_source ls ->
  (2 * List.length (doc_source ls) + 3 <= fuel)%nat -> FromReader E fuel types rd = Ok (doc_graph (val E types) (kept ls)).
Proof.
  intros Hd Hs Hf. set (s := s_init (seen (size rd) rd)).
  assert (Hw : wp (Ogdl fuel E fuel types) s h_init (fun _ _ h => h_inv h /\ evs h = doc_events (val E types) [] (kept ls))).
  { apply wp_and with (Q1 := fun _ _ h => h_inv h) (Q2 := fun _ _ h => evs h = doc_events (val E types) [] (kept ls)).
    - apply wp_Ogdl; auto using h_init_inv; unfold rem, s, s_init; cbn [fut]; rewrite ?Hs; try lia. discriminate.
    - apply (wx_Ogdl fuel E types fuel s h_init ls); auto; unfold rem, s, s_init; cbn [fut]; rewrite ?Hs; try lia. discriminate. }
  destruct (wp_sound E fuel _ _ _ _ _ (NewLexer_repr rd) Hw) as (a & x' & s' & h' & Hrun & _ & Hh & Hev).
  unfold FromReader. rewrite Hrun. cbn [rbind]. rewrite (h_inv_Tree h' Hh). unfold doc_graph. rewrite Hev. reflexivity.
Qed.
Lemma FromString_doc E ls fuel : doc_ok ls -> (2 * List.length (doc_source ls) + 3 <= fuel)%nat ->
  FromString E fuel (doc_source ls) = Ok (doc_graph untyped (kept ls)).
Proof. intros Hd Hf. apply (FromReader_doc E false); auto. apply seen_bytes. Qed.
Lemma FromStringTypes_doc E ls fuel : doc_ok ls -> (2 * List.length (doc_source ls) + 3 <= fuel)%nat ->
  FromStringTypes E fuel (doc_source ls) = Ok (doc_graph (typed_val E) (kept ls)).
Proof. intros Hd Hf. apply (FromReader_doc E true); auto. apply seen_bytes. Qed.
