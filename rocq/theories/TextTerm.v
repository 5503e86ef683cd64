(** Termination of the text parser over the buffered lexer. *)
From Verif Require Import Base Value Event EventFacts Lexer TextParser Stream Buffer BufferSpec BufferFacts Wp.

Definition rem (s : stream) : nat := List.length (fut s).

Lemma moved_rem w s s' : moved w s s' -> rem s = (List.length w + rem s')%nat.
Proof. intros (H & _). unfold rem. rewrite H, app_length. reflexivity. Qed.

Lemma good_false P f : good (mkS P f false).
Proof. discriminate. Qed.
Lemma good_nil P o : good (mkS P [] o).
Proof. intros _. reflexivity. Qed.
Lemma good_over P f o : good (mkS P f o) -> f = [] \/ o = false.
Proof. destruct o; [left; auto|right; reflexivity]. Qed.
#[export] Hint Resolve good_false good_nil : text.

(** Bytes are of four kinds. *)
Lemma byte_kinds c : is_end c = true \/ is_break c = true \/ is_space c = true \/ is_text c = true.
Proof. unfold is_end, is_break, is_space, is_text. pose proof (bz_range c). lia. Qed.

Section Specs.
Variable F : nat.

Lemma wp_Space s h (Q : Z * byte -> stream -> handler -> Prop) : good s -> (rem s < F)%nat ->
  (forall w s', w = tw is_space (fut s) -> moved w s s' -> recent w s' -> fut s' = dw is_space (fut s) ->
     Q (Z.of_nat (List.length w), space_kind w) s' h) -> wp (Space F) s h Q.
Proof.
  intros Hg HF HQ. apply wp_bind, wp_span_any; auto. intros s' H1 H2 H3. cbn [wp app]. apply HQ; auto.
Qed.

(** Only the position after the blanks matters. *)
Lemma wp_Space_skip s h (Q : Z * byte -> stream -> handler -> Prop) : good s -> (rem s < F)%nat ->
  (forall a s', good s' -> fut s' = dw is_space (fut s) -> (rem s' <= rem s)%nat -> Q a s' h) -> wp (Space F) s h Q.
Proof.
  intros Hg HF HQ. apply wp_Space; auto. intros w s' Hw Hm Hr Hf. apply HQ; [apply Hm|exact Hf|].
  rewrite (moved_rem _ _ _ Hm). lia.
Qed.

Definition head (s : stream) : byte := match fut s with [] => x00 | c :: _ => c end.

Lemma wp_Break s h (Q : bool -> stream -> handler -> Prop) : good s ->
  (forall s', good s' -> (rem s' < rem s)%nat -> Q true s' h) ->
  (forall s', good s' -> (fut s' = fut s /\ is_break (head s) = false) \/ (rem s' < rem s)%nat -> Q false s' h) ->
  wp Break s h Q.
Proof.
  destruct s as [P f o]. unfold rem, head. cbn [fut]. intros Hg HT HF'. unfold Break, Byte_. cbn [pbind]. destruct f as [|c f].
  - apply wp_get_end. intros k Hk. cbn. apply HF'; [apply good_nil|left; auto].
  - apply wp_get. intros k Hk. destruct (beq_spec c x0d) as [->|Hc]; cbn [pbind].
    + destruct f as [|c f].
      * apply wp_get_end. intros k2 Hk2. cbn. apply HF'; [apply good_nil|right; cbn; lia].
      * apply wp_get. intros k2 Hk2. destruct (beq c x0a).
        -- cbn [wp]. apply HT; [apply good_false|cbn; lia].
        -- apply wp_un. cbn [wp]. apply HF'; [apply good_false|right; cbn; lia].
    + destruct (beq_spec c x0a) as [->|Hc2].
      * cbn [wp]. apply HT; [apply good_false|cbn; lia].
      * apply wp_un. cbn [wp]. apply HF'; [apply good_false|left]. split; [reflexivity|].
        unfold is_break. clear - Hc Hc2. destruct (Z.eqb_spec (bz c) 10) as [E|_]; [exfalso; apply Hc2, bz_inj; exact E|].
        destruct (Z.eqb_spec (bz c) 13) as [E|_]; [exfalso; apply Hc, bz_inj; exact E|reflexivity].
Qed.

Lemma wp_End s h (Q : bool -> stream -> handler -> Prop) : good s ->
  (forall s', good s' -> (rem s' <= rem s)%nat -> Q true s' h) ->
  (forall s' c r, good s' -> fut s = c :: r -> is_end c = false -> fut s' = fut s -> Q false s' h) ->
  wp End s h Q.
Proof.
  destruct s as [P f o]. unfold rem. cbn [fut]. intros Hg HT HF'. unfold End. destruct f as [|c f].
  - apply wp_get_end. intros k Hk. cbn. apply HT; [apply good_nil|auto].
  - apply wp_get. intros k Hk. cbn [negb]. destruct (is_end c) eqn:Ec.
    + cbn [wp]. apply HT; [apply good_false|cbn; lia].
    + apply wp_un. cbn [wp]. eapply HF'; [apply good_false|reflexivity|exact Ec|reflexivity].
Qed.

Lemma wp_Peek s h (Q : byte -> stream -> handler -> Prop) : good s ->
  (forall s', good s' -> fut s' = fut s -> Q (head s) s' h) -> wp PeekByte s h Q.
Proof.
  destruct s as [P f o]. unfold head. cbn [fut]. intros Hg HQ. unfold PeekByte. destruct f as [|c f].
  - apply wp_get_end. intros k Hk. cbn. apply HQ; auto. apply good_nil.
  - apply wp_get. intros k Hk. apply wp_un. cbn [wp]. apply HQ; auto. apply good_false.
Qed.

Lemma wp_Byte s h (Q : byte -> stream -> handler -> Prop) : good s ->
  (forall s', good s' -> (rem s' <= rem s)%nat -> (fut s <> [] -> (rem s' < rem s)%nat) -> Q (head s) s' h) -> wp Byte_ s h Q.
Proof.
  destruct s as [P f o]. unfold rem, head. cbn [fut]. intros Hg HQ. unfold Byte_. destruct f as [|c f].
  - apply wp_get_end. intros k Hk. cbn. apply HQ; auto. apply good_nil. congruence.
  - apply wp_get. intros k Hk. cbn [wp]. apply HQ; auto. apply good_false. all: cbn; lia.
Qed.

Lemma wp_comment_loop : forall n f s h (Q : bool -> stream -> handler -> Prop), rem s = n -> good s -> (rem s < f)%nat ->
  (forall s', good s' -> (rem s' <= rem s)%nat -> Q true s' h) -> wp (comment_loop f) s h Q.
Proof.
  induction n as [|n IH]; intros f [P fu o] h Q Hn Hg Hf HQ; (destruct f as [|f]; [lia|]); unfold rem in *; cbn [fut comment_loop] in *; (destruct fu as [|c fu]; [|]); try discriminate.
  - apply wp_get_end. intros k Hk. cbn. apply HQ; [apply good_nil|auto].
  - apply wp_get. intros k Hk. destruct (is_end c || is_break c).
    + cbn [wp]. apply HQ; [apply good_false|cbn; lia].
    + cbn in Hn, Hf. apply IH; cbn [fut]; try lia. apply good_false. intros s' G L. apply HQ; auto. cbn in *. lia.
Qed.

Lemma wp_Comment s h (Q : bool -> stream -> handler -> Prop) : good s -> (rem s < F)%nat ->
  (forall s', good s' -> (rem s' < rem s)%nat -> Q true s' h) ->
  (forall s', good s' -> fut s' = fut s -> Q false s' h) -> wp (Comment F) s h Q.
Proof.
  destruct s as [P f o]. unfold rem. cbn [fut]. intros Hg HF HT HN. unfold Comment, Byte_. cbn [pbind]. destruct f as [|c f].
  - apply wp_get_end. intros k Hk. cbn. apply HN; [apply good_nil|auto].
  - apply wp_get. intros k Hk. destruct (beq_spec c "#") as [->|Hc]; cbn [pbind].
    + destruct f as [|c f].
      * apply wp_get_end. intros k2 Hk2. change (is_space x00) with false. cbv iota. apply wp_un_over.
        destruct k2; [unfold half in Hk2; lia|]. cbn [firstn]. apply wp_un. cbn [wp]. apply HN; [apply good_false|auto].
      * apply wp_get. intros k2 Hk2. destruct (is_space c).
        -- eapply wp_comment_loop; [reflexivity|apply good_false|unfold rem; cbn in *; lia|]. intros s' G L. apply HT; auto. cbn in *. unfold rem in L; cbn in L. lia.
        -- apply wp_un. destruct k2; [unfold half in Hk2; lia|]. cbn [firstn]. apply wp_un. cbn [wp]. apply HN; [apply good_false|auto].
    + apply wp_un. cbn [wp]. apply HN; [apply good_false|auto].
Qed.

Lemma wp_space_max : forall n f mx a b s h (Q : Z * byte -> stream -> handler -> Prop), rem s = n -> good s -> (rem s < f)%nat ->
  (forall r s', good s' -> (rem s' <= rem s)%nat -> Q r s' h) -> wp (space_max f mx a b) s h Q.
Proof.
  induction n as [|n IH]; intros f mx a b [P fu o] h Q Hn Hg Hf HQ; (destruct f as [|f]; [lia|]); unfold rem in *; cbn [fut space_max] in *; (destruct fu as [|c fu]; [|]); try discriminate.
  - apply wp_get_end. intros k Hk. change (is_space x00) with false. cbn [negb]. apply wp_un_over. cbn [wp]. apply HQ; [apply good_nil|auto].
  - apply wp_get. intros k Hk. cbv zeta. destruct (is_space c); cbn [negb].
    + cbn in Hn, Hf.
      assert (G : forall x y, wp (if (x =? mx) || (y =? mx) then Ret (x + y, if y =? 0 then x20 else if x =? 0 then x09 else x00) else space_max f mx x y)
                   (mkS (c :: firstn k P) fu false) h Q).
      { intros x y. destruct ((x =? mx) || (y =? mx)).
        - cbn [wp]. apply HQ; [apply good_false|cbn; lia].
        - apply IH; cbn [fut]; try lia. apply good_false. intros r s' G L. apply HQ; auto. cbn in *. lia. }
      destruct (beq c x20); apply G.
    + apply wp_un. cbn [wp]. apply HQ; [apply good_false|auto].
Qed.

Lemma wp_quoted_loop ind q : forall n f c2 buf s h (Q : option bytes -> stream -> handler -> Prop), (rem s <= n)%nat -> good s -> (rem s < f)%nat -> (rem s < F)%nat ->
  (forall r s', good s' -> (rem s' <= rem s)%nat -> Q r s' h) -> wp (quoted_loop F f ind q c2 buf) s h Q.
Proof.
  induction n as [|n IH]; intros f c2 buf [P fu o] h Q Hn Hg Hf HF HQ; (destruct f as [|f]; [lia|]); unfold rem in *; cbn [fut quoted_loop] in *; (destruct fu as [|c fu]; [|]); try (cbn in Hn; lia).
  - apply wp_get_end. intros k Hk. cbn. apply HQ; [apply good_nil|auto].
  - apply wp_get_end. intros k Hk. cbn. apply HQ; [apply good_nil|auto].
  - apply wp_get. intros k Hk. cbv zeta. cbn in Hn, Hf, HF.
    assert (Rec : forall c2 buf s', good s' -> (rem s' <= List.length fu)%nat -> wp (quoted_loop F f ind q c2 buf) s' h Q).
    { intros c2' buf' s' Hg' Hl'. unfold rem in *. apply IH; auto; try lia. intros r s'' G L. apply HQ; auto. cbn. lia. }
    assert (Done : forall r, wp (Ret r) (mkS (c :: firstn k P) fu false) h Q).
    { intro r. cbn [wp]. apply HQ; [apply good_false|cbn; lia]. }
    destruct (is_end c); [apply Done|]. destruct (beq c q && beq q "`"); [apply Done|].
    destruct (beq c q && negb (beq c2 "\")); [apply Done|]. destruct (beq c "\"); [apply Rec; [apply good_false|unfold rem; cbn; lia]|].
    destruct (beq c x0a).
    + apply wp_bind. unfold SpaceMax. eapply wp_space_max; [reflexivity|apply good_false|unfold rem; cbn; lia|].
      intros r s' G L. unfold rem in L. cbn [fut] in L. destruct (beq (snd r) x00); [cbn [wp]; apply HQ; auto; cbn; lia|].
      destruct (fst r <? ind); [cbn [wp]; apply HQ; auto; cbn; lia|]. apply Rec; auto.
    + apply Rec; [apply good_false|unfold rem; cbn; lia].
Qed.

Lemma wp_Quoted ind s h (Q : option bytes -> stream -> handler -> Prop) : good s -> (rem s < F)%nat ->
  (forall r s', good s' -> (r = None /\ fut s' = fut s) \/ (rem s' < rem s)%nat /\ is_text (head s) = true -> Q r s' h) -> wp (Quoted F ind) s h Q.
Proof.
  destruct s as [P f o]. unfold rem. cbn [fut]. intros Hg HF HQ. unfold Quoted, Byte_, head in *. cbn [fut] in HQ. cbn [pbind]. destruct f as [|c f].
  - apply wp_get_end. intros k Hk. cbn. apply HQ; [apply good_nil|auto].
  - apply wp_get. intros k Hk. destruct (is_quote c) eqn:Eq; cbn [negb].
    + cbn in HF. apply (wp_quoted_loop ind c (List.length f)); unfold rem; cbn [fut]; try lia. apply good_false.
      intros r s' G L. apply HQ; auto. right. split; [cbn; lia|].
      unfold is_quote in Eq. destruct (beq_spec c x22) as [->|]; [reflexivity|]. destruct (beq_spec c "'") as [->|]; [reflexivity|].
      destruct (beq_spec c "`") as [->|]; [reflexivity|discriminate].
    + apply wp_un. cbn [wp]. apply HQ; [apply good_false|auto].
Qed.

Lemma wp_String s h (Q : bytes -> stream -> handler -> Prop) : good s -> (rem s < F)%nat ->
  (forall r s', good s' -> (rem s' <= rem s)%nat -> (is_text (head s) = true -> (rem s' < rem s)%nat) -> (is_text (head s) = false -> fut s' = fut s) -> Q r s' h) -> wp (String_tok F) s h Q.
Proof.
  intros Hg HF HQ. apply wp_span_any; auto. intros s' Hm _ _. apply HQ; [apply Hm|rewrite (moved_rem _ _ _ Hm); lia| |].
  - intro Ht. rewrite (moved_rem _ _ _ Hm). unfold head in Ht. destruct (fut s) as [|c r]; [discriminate|]. cbn [tw]. rewrite Ht. cbn. lia.
  - intro Ht. destruct Hm as (Hm & _). unfold head in Ht. destruct (fut s) as [|c r] eqn:Es; [symmetry; exact Hm|].
    cbn [tw] in Hm. rewrite Ht in Hm. symmetry; exact Hm.
Qed.

Lemma wp_block_line : forall n f buf s h (Q : bytes -> stream -> handler -> Prop), rem s = n -> good s -> (rem s < f)%nat ->
  (forall r s', good s' -> (rem s' <= rem s)%nat -> (fut s <> [] -> (rem s' < rem s)%nat) -> Q r s' h) -> wp (block_line f buf) s h Q.
Proof.
  induction n as [|n IH]; intros f buf [P fu o] h Q Hn Hg Hf HQ; (destruct f as [|f]; [lia|]); unfold rem in *; cbn [fut block_line] in *; (destruct fu as [|c fu]; [|]); try discriminate.
  - apply wp_get_end. intros k Hk. cbn. apply HQ; [apply good_nil|auto|congruence].
  - apply wp_get. intros k Hk. cbn in Hn, Hf.
    assert (Done : forall r, wp (Ret r) (mkS (c :: firstn k P) fu false) h Q).
    { intro r. cbn [wp]. apply HQ; [apply good_false|cbn; lia|cbn; lia]. }
    assert (Rec : forall b, wp (block_line f b) (mkS (c :: firstn k P) fu false) h Q).
    { intro b. apply IH; cbn [fut]; try lia. apply good_false. intros r s' G L _. apply HQ; auto; cbn in *; lia. }
    destruct (is_end c); [apply Done|]. destruct (beq c x0d); [apply Rec|]. destruct (beq c x0a); [apply Done|apply Rec].
Qed.

Lemma wp_block_lines nsp : 0 <= nsp -> forall n f buf s h (Q : bytes -> stream -> handler -> Prop), (rem s <= n)%nat -> good s -> (rem s < f)%nat -> (rem s < F)%nat ->
  (forall r s', good s' -> (rem s' <= rem s)%nat -> Q r s' h) -> wp (block_lines F f nsp buf) s h Q.
Proof.
  intros Hnsp.
  induction n as [|n IH]; intros f buf s h Q Hn Hg Hf HF HQ; (destruct f as [|f]; [lia|]); cbn [block_lines]; apply wp_bind, wp_Space; auto;
    intros w s' Hw Hm Hr Hd; cbn [fst snd]; pose proof (moved_rem _ _ _ Hm) as Hl.
  all: destruct (beq (space_kind w) x00 || (Z.of_nat (List.length w) <=? nsp)) eqn:Ek; [cbn [wp]; apply HQ; [apply Hm|lia]|].
  all: apply orb_false_iff in Ek as [_ Ek]; apply Z.leb_gt in Ek.
  - exfalso. lia.
  - apply wp_bind. eapply wp_block_line; [reflexivity|apply Hm|lia|]. intros r s2 G2 L2 _.
    apply IH; auto; try lia. intros r2 s3 G3 L3. apply HQ; auto. lia.
Qed.

Lemma wp_Block nsp s h (Q : option bytes -> stream -> handler -> Prop) : 0 <= nsp -> good s -> (rem s < F)%nat ->
  (forall s', good s' -> fut s' = fut s -> Q None s' h) ->
  (forall b s', good s' -> (rem s' < rem s)%nat -> Q (Some b) s' h) -> wp (Block F nsp) s h Q.
Proof.
  destruct s as [P f o]. unfold rem. cbn [fut]. intros Hnsp Hg HF HN HS. unfold Block. apply wp_bind. unfold Byte_ at 1.
  assert (Lines : forall s' : stream, good s' -> (rem s' < List.length f)%nat ->
      wp (do b <- block_lines F F nsp []; Ret (Some (trim_nl b))) s' h Q).
  { intros s' G L. apply wp_bind. apply (wp_block_lines nsp Hnsp (rem s')); auto; try lia. intros r s2 G2 L2. cbn [wp]. apply HS; auto. unfold rem in *. lia. }
  destruct f as [|c f].
  - apply wp_get_end. intros k Hk. cbn. apply HN; [apply good_nil|auto].
  - apply wp_get. intros k Hk. cbn [wp]. destruct (beq_spec c "\") as [->|Hc]; cbn [negb].
    + apply wp_bind. unfold Byte_ at 1. destruct f as [|c f].
      * apply wp_get_end. intros k2 Hk2. cbn [wp]. change (negb (beq x00 x0a) && negb (beq x00 x0d)) with true. cbv iota. apply wp_un_over.
        destruct k2; [unfold half in Hk2; lia|]. cbn [firstn]. apply wp_un. cbn [wp]. apply HN; [apply good_false|auto].
      * apply wp_get. intros k2 Hk2. cbn [wp]. destruct (negb (beq c x0a) && negb (beq c x0d)).
        -- apply wp_un. destruct k2; [unfold half in Hk2; lia|]. cbn [firstn]. apply wp_un. cbn [wp]. apply HN; [apply good_false|auto].
        -- apply wp_bind. destruct (beq c x0d).
           ++ apply wp_bind. apply wp_Byte; [apply good_false|]. intros s' G L _. cbn [wp]. apply Lines; auto. unfold rem in *; cbn in *; lia.
           ++ cbn [wp]. apply Lines; [apply good_false|unfold rem; cbn; lia].
    + apply wp_un. cbn [wp]. apply HN; [apply good_false|auto].
Qed.

Variable E : env.

Lemma h_add_inv v h : h_inv h -> h_inv (h_add v h).
Proof. intro H. apply (h_step_inv (HAdd v) h _ I H eq_refl). Qed.
Lemma h_inc_inv h : h_inv h -> h_inv (h_inc h).
Proof. intro H. apply (h_step_inv HInc h _ I H eq_refl). Qed.
Lemma h_dec_inv h : h_inv h -> h_inv (h_dec h).
Proof. intro H. apply (h_step_inv HDec h _ I H eq_refl). Qed.
Lemma h_set_inv l h : 0 <= l -> h_inv h -> h_inv (h_set_level l h).
Proof. intros Hl H. apply (h_step_inv (HSetLevel l) h _ Hl H eq_refl). Qed.

Lemma wp_scalar types n s h (Q : unit -> stream -> handler -> Prop) : good s -> (rem s < F)%nat -> h_inv h ->
  (forall s' h', good s' -> (rem s' <= rem s)%nat -> (is_text (head s) = true -> (rem s' < rem s)%nat) ->
     (is_text (head s) = false -> fut s' = fut s) -> h_inv h' -> Q tt s' h') ->
  wp (scalar_event F E types n) s h Q.
Proof.
  intros Hg HF Hh HQ. unfold scalar_event.
  assert (K : forall A (f : option bytes -> prog A) (Q' : A -> stream -> handler -> Prop),
     (forall b s', good s' -> (rem s' < rem s)%nat -> is_text (head s) = true -> wp (f (Some b)) s' h Q') ->
     (forall s', good s' -> fut s' = fut s \/ (rem s' < rem s)%nat /\ is_text (head s) = true -> wp (f None) s' h Q') -> wp (do q <- Quoted F n; f q) s h Q').
  { intros A f Q' H1 H2. apply wp_bind, wp_Quoted; auto. intros [b|] s' G [[H L]|[L L']]; try discriminate; auto. }
  assert (Str : forall s' s2, good s' -> fut s' = fut s \/ (rem s' < rem s)%nat /\ is_text (head s) = true ->
     (rem s2 <= rem s')%nat -> (is_text (head s') = true -> (rem s2 < rem s')%nat) -> (is_text (head s') = false -> fut s2 = fut s') ->
     (rem s2 <= rem s)%nat /\ (is_text (head s) = true -> (rem s2 < rem s)%nat) /\ (is_text (head s) = false -> fut s2 = fut s)).
  { intros s' s2 G [HL|[HL HT]] L2 T2 N2; [|split; [lia|split; [lia|congruence]]].
    unfold rem, head in *. rewrite HL in *. auto. }
  assert (Rem : forall s', fut s' = fut s \/ (rem s' < rem s)%nat /\ is_text (head s) = true -> (rem s' < F)%nat).
  { intros s' [HL|[HL _]]; unfold rem in *; [rewrite HL|]; lia. }
  destruct types.
  - apply wp_bind. unfold ScalarType. apply K.
    + intros b s' G L T. cbn [wp]. apply wp_ev with (h_add (VStr b) h); [reflexivity|]. cbn [wp]. apply HQ; auto using h_add_inv; [lia|congruence].
    + intros s' G HL. apply wp_bind. apply wp_String; auto.
      intros r s2 G2 L2 T2 N2. destruct (Str s' s2 G HL L2 T2 N2) as (X1 & X2 & X3). cbn [wp]. destruct r as [|r0 r].
      * cbn [wp]. apply HQ; auto.
      * eapply wp_ev; [reflexivity|]. cbn [wp]. apply HQ; auto using h_add_inv.
  - apply wp_bind. unfold Scalar_tok. apply K.
    + intros b s' G L T. cbn [wp]. apply wp_ev with (h_add (VStr b) h); [reflexivity|]. cbn [wp]. apply HQ; auto using h_add_inv; [lia|congruence].
    + intros s' G HL. apply wp_bind. apply wp_String; auto.
      intros r s2 G2 L2 T2 N2. destruct (Str s' s2 G HL L2 T2 N2) as (X1 & X2 & X3). cbn [wp]. destruct r as [|r0 r]; cbn [nonempty].
      * cbn [wp]. apply HQ; auto.
      * eapply wp_ev; [reflexivity|]. cbn [wp]. apply HQ; auto using h_add_inv.
Qed.

Lemma wp_line_loop types n : 0 <= n -> forall f s h (Q : bool -> stream -> handler -> Prop), good s -> (rem s < f)%nat -> (rem s < F)%nat -> h_inv h ->
  (forall b s' h', good s' -> (rem s' <= rem s)%nat -> (b = true -> (rem s' < rem s)%nat) -> h_inv h' -> Q b s' h') ->
  wp (line_loop F E f types n) s h Q.
Proof.
  intro Hn. induction f as [|f IH]; intros s h Q Hg Hf HF Hh HQ; [lia|]. cbn [line_loop].
  apply wp_bind, wp_End; auto.
  { intros s' G L. cbn [wp]. apply HQ; auto. discriminate. }
  intros s1 c r G1 Hc Hend Hf1.
  assert (Hpos : (0 < rem s)%nat) by (unfold rem; rewrite Hc; cbn; lia).
  assert (R1 : rem s1 = rem s) by (unfold rem; rewrite Hf1; reflexivity).
  apply wp_bind, wp_Break; auto.
  { intros s2 G2 L2. cbn [wp]. apply HQ; auto; lia. }
  intros s2 G2 B2.
  assert (R2 : (rem s2 <= rem s)%nat).
  { destruct B2 as [[B2 _]|B2]; [|lia]. unfold rem in *. rewrite B2. lia. }
  apply wp_bind, wp_Comment; auto; [lia| |].
  { intros s3 G3 L3. cbn [wp]. apply HQ; auto; lia. }
  intros s3 G3 F3. assert (R3 : rem s3 = rem s2) by (unfold rem; rewrite F3; reflexivity).
  apply wp_bind, wp_Block; auto; [lia| |].
  2:{ intros b s4 G4 L4. apply wp_bind. eapply wp_ev; [reflexivity|]. cbn [wp]. apply wp_bind, wp_Break; auto.
      - intros s5 G5 L5. cbn [wp]. apply HQ; auto using h_add_inv; lia.
      - intros s5 G5 B5. cbn [wp]. assert ((rem s5 <= rem s4)%nat).
        { destruct B5 as [[B5 _]|B5]; [|lia]. unfold rem. rewrite B5. lia. }
        apply HQ; auto using h_add_inv; lia. }
  intros s4 G4 F4. assert (R4 : rem s4 = rem s3) by (unfold rem; rewrite F4; reflexivity).
  apply wp_bind, wp_scalar; auto; [lia|]. intros s5 h5 G5 R5 T5 N5 Hh5.
  apply wp_bind, wp_Break; auto.
  { intros s6 G6 L6. cbn [wp]. apply HQ; auto; lia. }
  intros s6 G6 B6.
  assert (R6 : (rem s6 <= rem s5)%nat).
  { destruct B6 as [[B6 _]|B6]; [|lia]. unfold rem in *. rewrite B6. lia. }
  apply wp_bind, wp_Space_skip; auto; [lia|]. intros a s7 G7 F7 R7.
  apply wp_bind. eapply wp_ev; [reflexivity|]. cbn [wp].
  (* something has been consumed *)
  assert (Hlt : (rem s7 < rem s)%nat).
  { destruct B2 as [[B2 K2]|B2]; [|lia].
    destruct (byte_kinds c) as [Kc|[Kc|[Kc|Kc]]].
    - congruence.
    - unfold head in K2. rewrite Hf1, Hc in K2. congruence.
    - (* a blank: nothing before Space took it *)
      assert (Ht4 : is_text (head s4) = false).
      { unfold head. rewrite F4, F3, B2, Hf1, Hc. clear - Kc. unfold is_space, is_text in *. lia. }
      specialize (N5 Ht4). destruct B6 as [[B6 _]|B6]; [|lia].
      unfold rem. rewrite F7, B6, N5, F4, F3, B2, Hf1, Hc. cbn [dw]. rewrite Kc. cbn [List.length].
      pose proof (tw_dw is_space r) as Hr. apply (f_equal (@List.length byte)) in Hr. rewrite app_length in Hr. lia.
    - assert (is_text (head s4) = true) by (unfold head; rewrite F4, F3, B2, Hf1, Hc; exact Kc). specialize (T5 H). lia. }
  apply IH; auto; try lia.
  { apply h_inc_inv; auto. }
  intros b s8 h8 G8 R8 B8 Hh8. apply HQ; auto; lia.
Qed.

Definition indent (s : stream) : Z := Z.of_nat (List.length (tw is_space (fut s))).

(** [tree_] consumes something when the first line has exactly its indentation, at least 1. *)
Definition tree_post (s : stream) (ns : Z) (s' : stream) : Prop :=
  (rem s' <= rem s)%nat /\ (indent s = ns -> 1 <= ns -> (rem s' < rem s)%nat).

Lemma wp_line (rec : Z -> prog unit) f types ns s h (Q : bool -> stream -> handler -> Prop) :
  good s -> (rem s < f)%nat -> (rem s < F)%nat -> h_inv h -> 0 <= ns ->
  (forall n s1 h1 (Q1 : unit -> stream -> handler -> Prop), ns < n -> good s1 -> h_inv h1 ->
     (indent s1 = n /\ (rem s1 <= rem s)%nat /\ indent s <> ns \/ (rem s1 < rem s)%nat) ->
     (forall s2 h2, good s2 -> h_inv h2 -> tree_post s1 n s2 -> Q1 tt s2 h2) -> wp (rec n) s1 h1 Q1) ->
  (forall b s' h', good s' -> (rem s' <= rem s)%nat -> (b = true -> (rem s' < rem s)%nat) ->
     (indent s = ns -> 1 <= ns -> (rem s' < rem s)%nat) -> h_inv h' -> Q b s' h') ->
  wp (line F E rec f types ns) s h Q.
Proof.
  intros Hg Hf HF Hh Hns Hrec HQ. unfold line. apply wp_bind, wp_Space; auto. intros w s1 Hw Hm Hr Hd. cbv iota.
  pose proof (moved_rem _ _ _ Hm) as Hl.
  assert (Hind : indent s = Z.of_nat (List.length w)) by (unfold indent; rewrite Hw; reflexivity).
  destruct (Z.ltb_spec (Z.of_nat (List.length w)) ns) as [Hlt|Hge].
  { rewrite Nat2Z.id. apply wp_bind. apply (wp_unread_n _ w s); auto. intros w1 w2 s' Hww Hm1 Hf1 _. cbn [wp].
    pose proof (moved_rem _ _ _ Hm1). apply HQ; auto; try lia. apply Hm1. }
  destruct (Z.ltb_spec ns (Z.of_nat (List.length w))) as [Hgt|Hle].
  { rewrite Nat2Z.id. apply wp_bind. apply (wp_unread_n _ w s); auto. intros w1 w2 s' Hww Hm1 Hf1 _. cbn [wp].
    pose proof (moved_rem _ _ _ Hm1) as Hl1. apply wp_bind. eapply wp_ev; [reflexivity|]. cbn [wp]. apply wp_bind.
    assert (Hcase : indent s' = Z.of_nat (List.length w) /\ (rem s' <= rem s)%nat /\ indent s <> ns \/ (rem s' < rem s)%nat).
    { destruct w1 as [|c w1]; [left|right; cbn in Hl1; lia]. cbn in Hl1. split; [|split; lia].
      destruct Hm1 as (Hm1 & _). cbn [app] in Hm1. unfold indent. rewrite <- Hm1. exact Hind. }
    apply Hrec; auto using h_inc_inv. apply Hm1. intros s2 h2 G2 Hh2 (T1 & T2).
    apply wp_bind. eapply wp_ev; [reflexivity|]. cbn [wp].
    assert ((rem s2 < rem s)%nat). { destruct Hcase as [(H1 & H2 & _)|H1]; [|lia]. specialize (T2 H1 ltac:(lia)). lia. }
    apply HQ; auto using h_dec_inv; lia. }
  assert (Hn : Z.of_nat (List.length w) = ns) by lia. rewrite Hn in *.
  assert (Hcons : forall s' : stream, (rem s' <= rem s1)%nat -> indent s = ns -> 1 <= ns -> (rem s' < rem s)%nat) by (intros; lia).
  assert (Hg1 : good s1) by apply Hm.
  apply wp_bind. unfold Level. cbn [wp].
  destruct (beq (space_kind w) x00 && (ns =? 0)).
  { cbn [wp]. apply HQ; auto; try lia. }
  apply wp_bind, wp_End; auto.
  { intros s2 G2 L2. cbn [wp]. apply HQ; auto; try lia. }
  intros s2 c r G2 Hc Hend Hf2. assert (R2 : rem s2 = rem s1) by (unfold rem; rewrite Hf2; reflexivity).
  apply wp_bind, wp_Peek; auto. intros s3 G3 F3. assert (R3 : rem s3 = rem s2) by (unfold rem; rewrite F3; reflexivity).
  assert (Hloop : forall s4 : stream, good s4 -> (rem s4 <= rem s1)%nat ->
     wp (do b <- line_loop F E f types ns; if b then skip ev (HSetLevel (cur h)); Ret true else Ret false) s4 h Q).
  { intros s4 G4 R4. apply wp_bind. apply wp_line_loop; auto; try lia. intros b s5 h5 G5 R5 B5 Hh5. destruct b.
    - apply wp_bind. eapply wp_ev; [reflexivity|]. cbn [wp]. specialize (B5 eq_refl). apply HQ; auto; try lia.
      apply h_set_inv; auto. destruct Hh as [Hh _]. lia.
    - cbn [wp]. apply HQ; auto; try lia. }
  apply wp_bind. destruct (beq (head s2) ",").
  - apply wp_bind, wp_Byte; auto. intros s4 G4 R4 _. apply wp_bind, wp_Space_skip; auto; [lia|]. intros a s5 G5 _ R5. cbn [wp].
    apply Hloop; auto. lia.
  - cbn [wp]. apply Hloop; auto. lia.
Qed.

Lemma wp_tree types : forall f ns s h (Q : unit -> stream -> handler -> Prop), good s -> h_inv h -> 0 <= ns -> (rem s < F)%nat ->
  (2 * rem s + 3 <= f \/ indent s = ns /\ 2 * rem s + 2 <= f)%nat ->
  (forall s' h', good s' -> h_inv h' -> tree_post s ns s' -> Q tt s' h') -> wp (tree_ F E f types ns) s h Q.
Proof.
  induction f as [|f IH]; intros ns s h Q Hg Hh Hns HF Hf HQ; [lia|]. cbn [tree_].
  apply wp_bind, wp_line; auto; try lia.
  - intros n s1 h1 Q1 Hn G1 Hh1 Hcase HQ1. apply IH; auto; try lia.
  - intros b s1 h1 G1 R1 B1 I1 Hh1. destruct b.
    + specialize (B1 eq_refl). apply IH; auto; try lia. intros s2 h2 G2 Hh2 (T1 & _). apply HQ; auto. split; [lia|intros; lia].
    + apply wp_bind, wp_End; auto.
      * intros s2 G2 L2. cbn [wp]. apply HQ; auto. split; [lia|intros A B; specialize (I1 A B); lia].
      * intros s2 c r G2 _ _ F2. cbn [wp]. assert (rem s2 = rem s1) by (unfold rem; rewrite F2; reflexivity).
        apply HQ; auto. split; [lia|intros A B; specialize (I1 A B); lia].
Qed.

Lemma wp_Ogdl types f s h (Q : unit -> stream -> handler -> Prop) : good s -> h_inv h -> (rem s < F)%nat -> (2 * rem s + 3 <= f)%nat ->
  (forall s' h', good s' -> h_inv h' -> Q tt s' h') -> wp (Ogdl F E f types) s h Q.
Proof.
  intros Hg Hh HF Hf HQ. unfold Ogdl. apply wp_bind, wp_Space; auto. intros w s1 Hw Hm Hr Hd. cbv iota.
  destruct (beq (space_kind w) x00). { cbn [wp]. apply HQ; auto. apply Hm. }
  rewrite Nat2Z.id. apply wp_bind. apply (wp_unread_n _ w s); auto. intros w1 w2 s' Hww Hm1 Hf1 _. cbn [wp].
  pose proof (moved_rem _ _ _ Hm1). apply wp_tree; auto; try lia. apply Hm1.
Qed.
End Specs.

(** FromReader returns, for every reader and whatever text it delivers. *)
Lemma FromReader_run E types rd fuel : (2 * List.length (seen (size rd) rd) + 3 <= fuel)%nat ->
  exists a x h, run_buf E fuel (Ogdl fuel E fuel types) (NewLexer rd) h_init = Ok (a, x, h) /\ h_inv h.
Proof.
  intro Hf. set (s := s_init (seen (size rd) rd)).
  assert (Hw : wp (Ogdl fuel E fuel types) s h_init (fun _ _ h => h_inv h)).
  { apply wp_Ogdl; auto using h_init_inv; unfold rem, s, s_init; cbn [fut]; try lia. discriminate. }
  destruct (wp_sound E fuel _ _ _ _ _ (NewLexer_repr rd) Hw) as (a & x' & s' & h' & Hrun & _ & Hh). exists a, x', h'. auto.
Qed.
Lemma FromReader_total E types rd fuel : (2 * List.length (seen (size rd) rd) + 3 <= fuel)%nat ->
  exists g, FromReader E fuel types rd = Ok g.
Proof.
  intro Hf. destruct (FromReader_run E types rd fuel Hf) as (a & x & h & Hrun & Hh).
  unfold FromReader. rewrite Hrun. cbn [rbind]. rewrite (h_inv_Tree h Hh). eexists. reflexivity.
Qed.
