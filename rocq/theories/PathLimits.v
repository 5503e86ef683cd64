(** Texts on which NewPath does not return and NewExpression panics. *)
From Verif Require Import Base Value Event EventSpec EventFacts Lexer TextParser Stream Buffer BufferSpec BufferFacts BufferFacts2 Wp TextTerm TextSpec PathParser PathTerm PathSpec WpLong PathFacts.

Local Notation len l := (Z.of_nat (List.length l)).

(** ** ASCII texts *)
Lemma ascii_well_lettered E s : ascii s -> well_lettered E s.
Proof.
  intros H a c r -> Hl. apply Forall_app in H as (_ & H). inversion H as [|? ? Hc _]; subst. cbn [tokenish]. rewrite decode_ascii by lia. cbn [fst].
  rewrite name_char_token by lia. unfold is_letter, latin1_letter in Hl. pose proof (bz_range c).
  unfold name_char. destruct (beq_spec c "_") as [->|_]; [reflexivity|]. rewrite orb_false_r in Hl. lia.
Qed.

(** ** Partial correctness: a result, if any, satisfies Q *)
Section Wpp.
Variable E : env.
Definition wpp {A} (m : prog A) (s : stream) (h : handler) (Q : A -> stream -> handler -> Prop) : Prop :=
  match run E m s h with Ok (a, s', h') => Q a s' h' | Panic => False | NoFuel => True end.
Lemma wpp_ret {A} (a : A) s h (Q : A -> stream -> handler -> Prop) : Q a s h -> wpp (Ret a) s h Q.
Proof. auto. Qed.
Lemma wpp_bind {A B} (m : prog A) (f : A -> prog B) s h (Q : B -> stream -> handler -> Prop) :
  wpp m s h (fun a s h => wpp (f a) s h Q) -> wpp (pbind m f) s h Q.
Proof. unfold wpp. rewrite run_bind. destruct (run E m s h) as [[[a s'] h']| |]; cbn [rbind]; auto. Qed.
Lemma wpp_mono {A} (m : prog A) s h (Q Q' : A -> stream -> handler -> Prop) :
  wpp m s h Q -> (forall a s h, Q a s h -> Q' a s h) -> wpp m s h Q'.
Proof. unfold wpp. destruct (run E m s h) as [[[a s'] h']| |]; auto. Qed.
Lemma wpp_of_wpx {A} (m : prog A) s h (Q : A -> stream -> handler -> Prop) : wpx E m s h Q -> wpp m s h Q.
Proof. unfold wpp, wpx, short, wpi. destruct (run E m s h) as [[[a s'] h']| |]; auto. Qed.
Lemma wpp_never {A} (m : prog A) s h : wpp m s h (fun _ _ _ => False) -> run E m s h = NoFuel.
Proof. unfold wpp. destruct (run E m s h) as [[[a s'] h']| |]; intro H; [contradiction|contradiction|reflexivity]. Qed.
Lemma wpp_Level {A} (k : Z -> prog A) s h (Q : A -> stream -> handler -> Prop) : wpp (k (cur h)) s h Q -> wpp (pbind Level k) s h Q.
Proof. auto. Qed.
Lemma wpp_emit {A} b (k : unit -> prog A) s h (Q : A -> stream -> handler -> Prop) : wpp (k tt) s (h_add (VStr b) h) Q -> wpp (pbind (emit b) k) s h Q.
Proof. auto. Qed.
Lemma wpp_Inc {A} (k : unit -> prog A) s h (Q : A -> stream -> handler -> Prop) : wpp (k tt) s (h_inc h) Q -> wpp (pbind (ev HInc) k) s h Q.
Proof. auto. Qed.
Lemma wpp_Dec {A} (k : unit -> prog A) s h (Q : A -> stream -> handler -> Prop) : wpp (k tt) s (h_dec h) Q -> wpp (pbind (ev HDec) k) s h Q.
Proof. auto. Qed.

Lemma wpp_tok {A} (k : bytes -> prog A) w s r h (Q : A -> stream -> handler -> Prop) : at_ s (w ++ r) -> letters E w -> token_end E r ->
  (forall s', at_ s' r -> wpp (k w) s' h Q) -> wpp (Tok k) s h Q.
Proof.
  intros (Hg & Hf) Hw Hr H. unfold wpp. cbn [run]. unfold s_token. rewrite Hf, (x_token_scan E O w); [|exact Hw|exact Hr|rewrite app_length; lia]. cbn [app].
  apply H. split; [|reflexivity]. intro Ho. cbn [over] in Ho. specialize (Hg Ho). rewrite Hf in Hg. apply app_eq_nil in Hg. apply Hg.
Qed.

Variable F : nat.
Hypothesis HF : (2 <= F)%nat.

Ltac pcall L := apply wpp_bind; eapply wpp_mono; [apply wpp_of_wpx; apply L|]; cbn beta.

(** The bytes C3 97 (U+00D7): the first one is a letter as a Latin-1 character, the rune is
    not a letter. *)
Definition stuck (r : bytes) : bytes := xc3 :: x97 :: r.

Lemma stuck_tok {A} (k : bytes -> prog A) s r h (Q : A -> stream -> handler -> Prop) : at_ s (stuck r) ->
  (forall s', at_ s' (stuck r) -> wpp (k []) s' h Q) -> wpp (Tok k) s h Q.
Proof.
  intros (Hg & Hf) H. unfold wpp. cbn [run]. unfold s_token. rewrite Hf. cbn [List.length stuck token_scan].
  change (decode_rune (xc3 :: x97 :: r)) with (215, 2). cbn [fst]. change (token_rune E 215) with false. cbn [rev app]. cbn iota.
  apply H. split; [|reflexivity]. intro Ho. cbn [over] in Ho. specialize (Hg Ho). rewrite Hf in Hg. discriminate.
Qed.
Lemma stuck_bracket f l r t s w h : at_ s (stuck w) -> beq xc3 l = false ->
  wpp (bracket F f l r t) s h (fun b s' h' => b = false /\ at_ s' (stuck w)).
Proof.
  intros Ha Hl. destruct f as [|f]; [exact I|]. cbn [bracket]. pcall x_peek; [exact Ha|]. intros c s1 h1 (-> & H1 & ->).
  cbn [stuck]. cbn iota. rewrite Hl. cbn [negb]. apply wpp_ret. auto.
Qed.
Lemma stuck_Args f d s w h : at_ s (stuck w) -> wpp (Args F f d) s h (fun b s' h' => b = false /\ at_ s' (stuck w)).
Proof.
  intros Ha. destruct f as [|f]; [exact I|]. cbn [Args]. pcall x_peek; [exact Ha|]. intros c s1 h1 (-> & H1 & ->). apply wpp_ret. auto.
Qed.
Lemma stuck_path f d a s w h : at_ s (stuck w) -> wpp (path_loop F f true d a) s h (fun b s' h' => at_ s' (stuck w)).
Proof.
  intros Ha. destruct f as [|f]; [exact I|]. cbn [path_loop]. apply wpp_bind, wpp_ret. pcall (x_no_Quoted E F s (stuck w)); [exact Ha|reflexivity|].
  intros q s1 h1 (-> & H1 & ->). apply (stuck_tok _ s1 w); [exact H1|]. intros s2 H2.
  apply wpp_bind. eapply wpp_mono; [apply (stuck_bracket f _ _ _ s2 w); [exact H2|reflexivity]|]. intros b s3 h3 (-> & H3).
  apply wpp_bind. eapply wpp_mono; [apply (stuck_bracket f _ _ _ s3 w); [exact H3|reflexivity]|]. intros b s4 h4 (-> & H4).
  apply wpp_bind. eapply wpp_mono; [apply (stuck_Args f _ s4 w); exact H4|]. intros b s5 h5 (-> & H5). apply wpp_ret. exact H5.
Qed.
Lemma stuck_Expression f s w h : at_ s (stuck w) -> wpp (Expression F f) s h (fun b s' h' => b = true /\ at_ s' (stuck w)).
Proof.
  intros Ha. destruct f as [|f]; [exact I|]. cbn [Expression]. apply wpp_bind.
  eapply (wpp_mono _ _ _ (fun b s' h' => b = true /\ at_ s' (stuck w))).
  { destruct f as [|f]; [exact I|]. cbn [UnaryExpression]. pcall x_peek; [exact Ha|]. intros c s1 h1 (-> & H1 & ->).
    cbn [stuck]. change (is_letter xc3) with true. cbn iota. apply wpp_emit, wpp_Inc, wpp_bind. eapply wpp_mono; [apply (stuck_path f _ _ s1 w), H1|].
    intros b s2 h2 H2. apply wpp_Dec, wpp_ret. auto. }
  intros b s1 h1 (-> & H1). destruct f as [|f]; [exact I|]. cbn [expr_loop].
  pcall (x_Space E F s1 [] (stuck w)); [exact H1|constructor|reflexivity|cbn; lia|]. intros _ s2 h2 (H2 & ->).
  unfold Operator. pcall (x_span E F is_operator [] [] s2 (stuck w)); auto; [reflexivity|cbn; lia|]. intros x s3 h3 (-> & H3 & ->). apply wpp_ret. auto.
Qed.
Lemma stuck_args f : forall lv a s w h, at_ s (stuck w) -> wpp (arg_loop F f lv a) s h (fun _ _ _ => False).
Proof.
  induction f as [|f IH]; intros lv a s w h Ha; [exact I|]. cbn [arg_loop]. 
  assert (HW : forall s h, at_ s (stuck w) -> wpp (WhiteSpace F) s h (fun _ s' _ => at_ s' (stuck w))).
  { intros s0 h0 H0. unfold WhiteSpace. pcall (x_span E F is_white [] [] s0 (stuck w)); auto; [reflexivity|cbn; lia|]. intros x s1 h1 (_ & H1 & _). apply wpp_ret. exact H1. }
  apply wpp_bind. eapply wpp_mono; [apply HW, Ha|]. cbn beta. intros ? s1 h1 H1. apply wpp_emit, wpp_Inc, wpp_bind. eapply wpp_mono; [apply (stuck_Expression f s1 w), H1|].
  intros b s2 h2 (-> & H2). cbn [negb]. apply wpp_Dec, wpp_bind. eapply wpp_mono; [apply HW, H2|]. cbn beta. intros ? s3 h3 H3.
  pcall x_peek; [exact H3|]. intros c s4 h4 (-> & H4 & ->). cbn [stuck]. apply wpp_Inc. apply (IH _ _ s4 w), H4.
Qed.
End Wpp.

Lemma NewPath_stuck E n r fuel : name E n -> len (n ++ "("%byte :: stuck r) <= 4094 -> (List.length (n ++ "("%byte :: stuck r) < fuel)%nat ->
  NewPath E fuel (n ++ "("%byte :: stuck r) = NoFuel.
Proof.
  intros (Hn & Hnc) Hl Hf. rewrite NewPath_ideal by lia. unfold s_path. rewrite app_length in Hf. cbn [stuck List.length] in Hf.
  rewrite wpp_never; [reflexivity|]. unfold Path. destruct fuel as [|fuel]; [lia|]. set (F := S fuel) in *. cbn [path_loop]. apply wpp_bind, wpp_ret.
  set (w := "("%byte :: stuck r) in *. assert (Ha : at_ (s_init (n ++ w)) (n ++ w)) by (split; [apply good_false|reflexivity]).
  apply wpp_bind. eapply wpp_mono; [apply wpp_of_wpx, (x_no_Quoted E F _ (n ++ w)); [exact Ha|]|].
  { destruct n as [|c n]; [congruence|]. exact (letters_no_quote c (n ++ w) (letters_head E c n Hnc)). }
  cbn beta. intros q s1 h1 (-> & H1 & ->).
  apply (wpp_tok E _ n s1 w); auto; [apply token_end_ascii; reflexivity|]. intros s2 H2. destruct n as [|c n]; [congruence|]. apply wpp_emit.
  destruct fuel as [|f]; [exact I|]. cbn [path_loop]. 
  apply wpp_bind. eapply (wpp_mono E _ _ _ (fun b s' h' => b = Some false /\ at_ s' w)).
  { destruct H2 as (Hg & Hw). unfold wpp, Byte_. cbn [pbind run]. unfold s_byte. rewrite Hw. subst w. cbn [run s_unread over past]. 
    change (beq "(" ".") with false. cbn. split; [reflexivity|]. split; [apply good_false|reflexivity]. }
  intros b s3 h3 (-> & H3).
  apply wpp_bind. eapply wpp_mono; [apply wpp_of_wpx, (x_no_Quoted E F _ w); [exact H3|reflexivity]|]. cbn beta. intros q s4 h4 (-> & H4 & ->).
  apply (wpp_tok E _ [] s4 w); auto; [constructor|apply token_end_ascii; reflexivity|]. intros s5 H5. cbn iota.
  assert (HB : forall f l r t s h, at_ s w -> beq "(" l = false -> wpp E (bracket F f l r t) s h (fun b s' h' => b = false /\ at_ s' w)).
  { intros f0 l0 r0 t0 s0 h0 H0 Hl0. destruct f0 as [|f0]; [exact I|]. cbn [bracket]. apply wpp_bind. eapply wpp_mono; [apply wpp_of_wpx, x_peek; exact H0|].
    cbn beta. intros b s6 h6 (-> & H6 & ->). subst w. cbn iota. rewrite Hl0. apply wpp_ret. auto. }
  apply wpp_bind. eapply wpp_mono; [apply HB; [exact H5|reflexivity]|]. intros b s6 h6 (-> & H6).
  apply wpp_bind. eapply wpp_mono; [apply HB; [exact H6|reflexivity]|]. intros b s7 h7 (-> & H7).
  apply wpp_bind. destruct f as [|f]; [exact I|]. cbn [Args]. apply wpp_bind. eapply wpp_mono; [apply wpp_of_wpx, x_peek; exact H7|].
  cbn beta. intros b s8 h8 (-> & H8 & ->). subst w. cbn iota. change (beq "(" "(") with true. cbn [negb].
  apply wpp_bind. eapply wpp_mono; [apply wpp_of_wpx, (x_byte E s8 "(" (stuck r)), H8|]. cbn beta. intros b s9 h9 (-> & H9 & ->).
  apply wpp_Level, wpp_emit, wpp_Inc. apply wpp_bind. unfold WhiteSpace. apply wpp_bind.
  eapply wpp_mono; [apply wpp_of_wpx, (x_span E F is_white [] [] s9 (stuck r)); auto; [reflexivity|cbn; lia]|]. cbn beta. intros b s10 h10 (-> & H10 & ->).
  apply wpp_ret, wpp_Level, wpp_bind. eapply wpp_mono; [apply (stuck_args E F ltac:(lia) f _ _ s10 r), H10|]. contradiction.
Qed.

(** ** Tokens longer than the buffer *)
Definition endless (x : lexer) : Prop :=
  len (buf x) = 4096 /\ Forall (fun c => name_char c = true) (buf x) /\ Forall (fun de => Forall (fun c => name_char c = true) (fst de)) (rd x) /\ 0 <= r_ x <= 4096.

Definition named (s : bytes) : Prop := Forall (fun c => name_char c = true) s.

Lemma Forall_firstn {A} (P : A -> Prop) n l : Forall P l -> Forall P (firstn n l).
Proof. intro H. rewrite <- (firstn_skipn n l) in H. apply Forall_app in H. apply H. Qed.
Lemma Forall_skipn {A} (P : A -> Prop) n l : Forall P l -> Forall P (skipn n l).
Proof. intro H. rewrite <- (firstn_skipn n l) in H. apply Forall_app in H. apply H. Qed.

Lemma rd_read_named k rd : 0 <= k -> Forall (fun de => named (fst de)) rd ->
  let '(d, err, rd') := rd_read k rd in named d /\ len d <= k /\ Forall (fun de => named (fst de)) rd'.
Proof.
  intros Hk H. destruct rd as [|[d e] rest]; cbn [rd_read]; [split; [constructor|split; [cbn; lia|constructor]]|].
  inversion H as [|? ? H1 H2]; subst. cbn [fst] in H1. destruct (Z.leb_spec (len d) k).
  - split; [exact H1|]. split; [assumption|]. destruct e; [constructor|exact H2].
  - split; [apply Forall_firstn, H1|]. split; [rewrite firstn_length; lia|]. constructor; [apply Forall_skipn, H1|exact H2].
Qed.
Lemma fill_loop_named i : forall b rd off, len b = 4096 -> named b -> 0 <= off <= 4096 -> Forall (fun de => named (fst de)) rd ->
  let '(b', rd', _) := fill_loop i b rd off in len b' = 4096 /\ named b' /\ Forall (fun de => named (fst de)) rd'.
Proof.
  induction i as [|i IH]; intros b rd off Hb Hn Ho Hr; cbn [fill_loop]; [auto|].
  pose proof (rd_read_named (bufSize - off) rd ltac:(unfold bufSize; lia) Hr) as Hd. destruct (rd_read (bufSize - off) rd) as [[d err] rd']. destruct Hd as (D1 & D2 & D3).
  unfold bufSize in D2.
  assert (Hp : len (put off d b) = 4096) by (rewrite put_length; lia).
  assert (Hq : named (put off d b)) by (unfold put; apply Forall_app; split; [apply Forall_firstn, Hn|apply Forall_app; split; [exact D1|apply Forall_skipn, Hn]]).
  destruct err; [auto|]. destruct (halfSize <=? off + len d); [auto|]. apply IH; auto; lia.
Qed.
Lemma endless_rune E x : endless x -> exists r size x', b_rune x = Ok (r, size, x') /\ token_rune E r = true /\ endless x'.
Proof.
  intros (H1 & H2 & H3 & H4). unfold b_rune.
  assert (Hf : exists x1, fill x = x1 /\ len (buf x1) = 4096 /\ named (buf x1) /\ Forall (fun de => named (fst de)) (rd x1) /\ 0 <= r_ x1 < 4096).
  { eexists. split; [reflexivity|]. unfold fill, bufSize, halfSize. destruct (Z.ltb_spec (r_ x) 4096).
    - replace (0 <=? r_ x) with true by lia. cbn [andb]. repeat split; auto; lia.
    - rewrite andb_false_r. replace (0 <=? r_ x) with true by lia.
      pose proof (fill_loop_named 100 (skipn (Z.to_nat 2048) (buf x) ++ skipn (Z.to_nat 2048) (buf x)) (rd x) 2048) as HL.
      assert (Hlen : len (skipn (Z.to_nat 2048) (buf x) ++ skipn (Z.to_nat 2048) (buf x)) = 4096) by (rewrite app_length, !skipn_length; lia).
      specialize (HL Hlen ltac:(apply Forall_app; split; apply Forall_skipn, H2) ltac:(lia) H3).
      destruct (fill_loop _ _ _ _) as [[b rd'] off]. destruct HL as (L1 & L2 & L3). cbn [buf rd r_]. repeat split; auto; lia. }
  destruct Hf as (x1 & -> & L1 & L2 & L3 & L4).
  destruct (nth_error (buf x1) (Z.to_nat (r_ x1))) as [c|] eqn:En; [|apply nth_error_None in En; lia].
  assert (Hz : zget (buf x1) (r_ x1) = Ok c) by (unfold zget; replace (r_ x1 <? 0) with false by lia; rewrite En; reflexivity).
  rewrite Hz. cbn [rbind]. assert (Hc : name_char c = true) by (apply nth_error_In in En; unfold named in L2; rewrite Forall_forall in L2; auto).
  pose proof (name_char_ascii c Hc) as Ha. replace (bz c <? 128) with true by lia. cbn [rbind]. eexists _, _, _. split; [reflexivity|].
  split; [rewrite (name_char_token E c Ha); exact Hc|]. repeat split; cbn [buf rd r_]; auto; lia.
Qed.
Lemma endless_token E f : forall tok x, endless x -> b_token E f tok x = NoFuel.
Proof.
  induction f as [|f IH]; intros tok x H; [reflexivity|]. cbn [b_token]. destruct (endless_rune E x H) as (r & n & x' & -> & Ht & H'). cbn [rbind]. rewrite Ht. apply IH, H'.
Qed.

Lemma NewPath_endless E s fuel : named s -> 4096 <= len s -> NewPath E fuel s = NoFuel.
Proof.
  intros Hs Hl.
  assert (HX : exists b rd0, NewLexer (bytes_reader s) = mkX b rd0 0 4096 /\ len b = 4096 /\ named b /\ Forall (fun de => named (fst de)) rd0).
  { destruct s as [|c0 s0] eqn:Es; [cbn in Hl; lia|]. unfold bytes_reader. rewrite <- Es in *.
    unfold NewLexer, fill. cbn [r_ buf rd]. change (0 <=? -1) with false. cbn [andb]. cbn iota.
    assert (Hput : forall d, len d = 4096 -> put 0 d (repeat x00 (Z.to_nat bufSize)) = d).
    { intros d Hd. unfold put. cbn [firstn app Z.to_nat]. cbn [Nat.add]. rewrite skipn_all2; [apply app_nil_r|]. rewrite repeat_length. unfold bufSize. lia. }
    rewrite fill_loop_S. replace (bufSize - 0) with 4096 by reflexivity. cbn [rd_read]. destruct (Z.leb_spec (len s) 4096).
    - cbv beta iota zeta. assert (Hl2 : len s = 4096) by lia. rewrite (Hput s Hl2), Hl2. change (halfSize <=? 0 + 4096) with true. cbn iota. exists s, []. repeat split; auto.
    - assert (Hl2 : len (firstn (Z.to_nat 4096) s) = 4096) by (rewrite firstn_length; lia).
      cbv beta iota zeta. rewrite (Hput _ Hl2), Hl2. change (halfSize <=? 0 + 4096) with true. cbn iota.
      exists (firstn (Z.to_nat 4096) s), [(skipn (Z.to_nat 4096) s, false)]. repeat split; auto; [apply Forall_firstn, Hs|].
      constructor; [apply Forall_skipn, Hs|constructor]. }
  destruct HX as (b & rd0 & HX & Hb1 & Hb2 & Hb3). unfold NewPath. rewrite HX. clear HX.
  assert (HE : run_buf E fuel (Path fuel fuel) (mkX b rd0 0 4096) h_init = NoFuel); [|rewrite HE; reflexivity].
  unfold Path. destruct fuel as [|f]; [reflexivity|]. cbn [path_loop pbind]. unfold Quoted, Byte_. cbn [pbind run_buf].
  unfold b_byte at 1. cbn [last buf r_ rd]. change ((4096 <? bufSize) && (4096 <=? 0)) with false. cbn iota.
  destruct b as [|c b]; [cbn in Hb1; lia|]. cbn [zget Z.ltb Z.compare Z.to_nat nth_error]. change (zget (c :: b) 0) with (Ok c). cbn [rbind].
  assert (Hc : name_char c = true) by (inversion Hb2; auto).
  assert (Hq : is_quote c = false).
  { destruct (is_quote c) eqn:Eq; [|reflexivity]. unfold is_quote in Eq.
    apply orb_true_iff in Eq as [Eq|Eq]; [apply orb_true_iff in Eq as [Eq|Eq]|]; apply beq_eq in Eq; subst; discriminate. }
  rewrite Hq. cbn [negb pbind run_buf]. unfold fill. cbn [r_]. change ((0 <=? 0 + 1) && (0 + 1 <? bufSize)) with true. cbn iota.
  unfold b_unread. cbn [r_ buf rd last]. change (0 + 1 <=? 0) with false. cbn iota.
  rewrite endless_token; [reflexivity|]. repeat split; cbn [buf rd r_]; auto; lia.
Qed.

(** ** Expressions that begin with an operator *)
Definition prefix_ok (o : optor) : Prop := o <> Plus /\ o <> Minus /\ o <> PlusAsg /\ o <> MinusAsg.

Lemma reduce_prefix j o t l : 0 <= j -> state_ok j t l ->
  (prec o = j -> forall js, reduce_all (j :: js) (gtree (T (op_text o) []) :: gt t :: items l) = Panic) /\
  (prec o <> j -> exists t' l', state_ok (j - 1) t' l' /\ forall js,
     reduce_all (j :: js) (gtree (T (op_text o) []) :: gt t :: items l) = reduce_all js (gtree (T (op_text o) []) :: gt t' :: items l')).
Proof.
  intros Hj (H1 & H2 & H3 & H4). cbn [reduce_all reduce_at]. rewrite this_gtree, precedence_op. split; intro Ho.
  - rewrite Ho, Z.eqb_refl. reflexivity.
  - apply Z.eqb_neq in Ho. rewrite Ho. pose proof (merge_spec j l H4 t H1 (root_ge_weaken (j + 1) j t ltac:(lia) H2) H3) as M.
    rewrite (precedence_gt t j H1 Hj H2). rewrite reduce_merge by assumption.
    destruct (merge j t l) as [t' l'] eqn:Em. destruct M as (A & B & C & D & K1 & K2). exists t', l'. split; [|reflexivity].
    repeat split; auto. replace (j - 1 + 1) with j by lia. exact B.
Qed.
Lemma reduce_prefix_panic o t l : state_ok 6 t l -> reduce_all [6; 5; 4; 3; 2; 1; 0] (gtree (T (op_text o) []) :: gt t :: items l) = Panic.
Proof.
  intro S6. pose proof (prec_range o) as Hp.
  destruct (reduce_prefix 6 o t l ltac:(lia) S6) as (_ & N6). destruct N6 as (t5 & l5 & S5 & ->); [lia|].
  destruct (reduce_prefix 5 o _ _ ltac:(lia) S5) as (P & N). destruct (Z.eq_dec (prec o) 5) as [Ep|Ep]; [apply (P Ep)|]. destruct (N Ep) as (t4 & l4 & S4 & ->). clear P N.
  destruct (reduce_prefix 4 o _ _ ltac:(lia) S4) as (P & N). destruct (Z.eq_dec (prec o) 4) as [Ep4|Ep4]; [apply (P Ep4)|]. destruct (N Ep4) as (t3 & l3 & S3 & ->). clear P N.
  destruct (reduce_prefix 3 o _ _ ltac:(lia) S3) as (P & N). destruct (Z.eq_dec (prec o) 3) as [Ep3|Ep3]; [apply (P Ep3)|]. destruct (N Ep3) as (t2 & l2 & S2 & ->). clear P N.
  destruct (reduce_prefix 2 o _ _ ltac:(lia) S2) as (P & N). destruct (Z.eq_dec (prec o) 2) as [Ep2|Ep2]; [apply (P Ep2)|]. destruct (N Ep2) as (t1 & l1 & S1 & ->). clear P N.
  destruct (reduce_prefix 1 o _ _ ltac:(lia) S1) as (P & N). destruct (Z.eq_dec (prec o) 1) as [Ep1|Ep1]; [apply (P Ep1)|]. destruct (N Ep1) as (t0 & l0 & S0 & ->). clear P N.
  destruct (reduce_prefix 0 o _ _ ltac:(lia) S0) as (P & N). apply P. lia.
Qed.

Lemma digits_name E n : digits n -> name E n.
Proof. intros (H1 & H2). apply name_ascii; [exact H1|]. eapply Forall_impl; [|exact H2]. cbn. intros c Hc. unfold name_char. lia. Qed.
Lemma digits_number n : digits n -> number_text n.
Proof. intro H. exists [], n, []. rewrite app_nil_r. auto. Qed.

(** An operator that is not a sign, a number, and at least one more operator and operand *)
Lemma NewExpression_prefix E o n l fuel : prefix_ok o -> digits n -> Forall (step_ok E) l -> l <> [] ->
  let s := op_text o ++ n ++ flat_map step_text l in
  len s <= 4094 -> (List.length s + 12 <= fuel)%nat -> NewExpression E fuel s = Panic.
Proof.
  intros Ho Hn Hl Hne s Hlen Hf. unfold s in *. clear s. rewrite NewExpression_ideal by lia. unfold s_expr.
  assert (H : wpx E (Expression fuel fuel) (s_init (op_text o ++ n ++ flat_map step_text l)) h_init
    (fun b s' h' => adds h_init (T (op_text o) [] :: T n [] :: flat_map step_trees l) h')).
  2:{ unfold wpx, short, wpi in H. destruct (run E _ _ _) as [[[b s'] h']| |]; try contradiction. cbn [rbind]. rewrite (adds_Tree _ _ H). cbn [rbind groot out].
      rewrite ast_eq. rewrite ast_list_flat.
      - destruct l as [|x l]; [congruence|]. cbn [rbind gforest List.length flat_map step_trees app]. 
        change (map gtree (T (op_text o) [] :: T n [] :: T (op_text (oper x)) [] :: operand_tree (rand x) :: flat_map step_trees l))
          with (gtree (T (op_text o) []) :: gt (Leaf (ONum n)) :: map gtree (flat_map step_trees (x :: l))).
        rewrite <- items_leaves. cbn [andb Nat.ltb Nat.leb ast_top].
        change (ast_top (VStr TypeExpression) (gtree (T (op_text o) []) :: gt (Leaf (ONum n)) :: items (leaves (x :: l))))
          with (let* l := reduce_all [6; 5; 4; 3; 2; 1; 0] (gtree (T (op_text o) []) :: gt (Leaf (ONum n)) :: items (leaves (x :: l))) in Ok (Node (VStr TypeExpression) (map Some l))).
        rewrite reduce_prefix_panic; [reflexivity|]. repeat split; auto; [apply digits_number, Hn|exact (leaves_ok E _ Hl)].
      - constructor; [apply leaf_flat|]. constructor; [apply leaf_flat|apply steps_flat]. }
  rewrite !app_length in Hf. pose proof (op_text_pos o) as Hop. destruct (digits_name E n Hn) as (Hn1 & Hn2).
  assert (Ha : at_ (s_init (op_text o ++ n ++ flat_map step_text l)) (op_text o ++ n ++ flat_map step_text l)) by (split; [apply good_false|reflexivity]).
  destruct (digits_head n Hn) as (d & n' & En & Hd).
  destruct fuel as [|f]; [lia|]. set (F := S f) in *. cbn [Expression]. apply wpx_bind.
  eapply (wpx_mono E _ _ _ (fun b s' h' => b = true /\ at_ s' (flat_map step_text l) /\ adds h_init [T (op_text o) []; T n []] h')).
  2:{ cbn beta. intros b s1 h1 (-> & H1 & A1). eapply wpx_mono; [apply (x_steps E F (List.length l) l f s1 [] h1); auto; [exact I|rewrite app_nil_r; exact H1|exact (adds_inv _ _ _ A1)|lia|lia]|].
      cbn beta. intros b s2 h2 (_ & _ & A2). exact (adds_app _ _ _ _ _ A1 A2). }
  destruct f as [|f]; [lia|]. cbn [UnaryExpression].
  apply wpx_bind. eapply wpx_mono; [apply x_peek, Ha|]. cbn beta. intros c s1 h1 (-> & H1 & ->).
  assert (Hc : exists c w, op_text o = c :: w /\ is_letter c = false /\ c <> "-"%byte /\ c <> "+"%byte /\ is_digit c = false /\ c <> "."%byte /\ is_quote c = false).
  { destruct Ho as (O1 & O2 & O3 & O4). destruct o; try congruence; eexists _, _; (split; [reflexivity|]); repeat split; try reflexivity; discriminate. }
  destruct Hc as (c & w & Ec & C1 & C2 & C3 & C4 & C5 & C6).
  replace (match op_text o ++ n ++ flat_map step_text l with [] => x00 | c :: _ => c end) with c by (rewrite Ec; reflexivity). rewrite C1.
  set (R := op_text o ++ n ++ flat_map step_text l) in *.
  assert (ER : exists r, R = c :: r) by (unfold R; rewrite Ec; cbn; eauto). destruct ER as (r & ER).
  apply wpx_bind. eapply (wpx_mono E _ s1 h_init (fun a s' h' => a = None /\ at_ s' R /\ h' = h_init)).
  { unfold Number_tok. apply wpx_bind. eapply wpx_mono; [apply x_peek, H1|]. cbn beta. intros c0 s2 h2 (-> & H2 & ->). rewrite ER. cbn iota.
    apply beq_neq in C2. apply beq_neq in C3. rewrite C2, C3. cbn [orb].
    apply wpx_bind, wpx_ret, wpx_bind. eapply wpx_mono; [apply (x_number_loop E O [] F false [] s2 (c :: r)); auto|].
    - split; [exact C4|right; exact C5].
    - rewrite <- ER. exact H2.
    - cbn. lia.
    - cbn beta. intros a s3 h3 (-> & H3 & ->). apply wpx_ret. auto. }
  cbn beta. intros a s2 h2 (-> & H2 & ->).
  apply wpx_bind. eapply wpx_mono; [apply (x_no_Quoted E F s2 R); [exact H2|rewrite ER; exact C6]|]. cbn beta. intros q s3 h3 (-> & H3 & ->).
  apply wpx_bind. unfold Operator. eapply wpx_mono; [apply (x_span E F is_operator (op_text o) [] s3 (n ++ flat_map step_text l)); auto; [apply op_text_ops| |lia]|].
  { rewrite En. cbn [app stops]. destruct (is_operator d) eqn:Eo; [|reflexivity]. apply operator_cases in Eo. cbn in Eo.
    repeat (destruct Eo as [<-|Eo]; [cbn in Hd; lia|]). destruct Eo. }
  cbn beta. intros x s4 h4 (-> & H4 & ->). cbn [app]. rewrite Ec. apply wpx_bind, wpx_emit. rewrite <- Ec. cbn [ev]. apply wpx_ret.
  apply wpx_bind. eapply wpx_mono; [apply x_peek, H4|]. cbn beta. intros y s5 h5 (-> & H5 & ->). rewrite En. cbn [app]. cbn iota.
  replace (beq d "(") with false by (symmetry; apply beq_neq; intros ->; cbn in Hd; lia). rewrite <- En.
  eapply wpx_mono; [apply (x_path E F [Name n] f s5 (flat_map step_text l))|].
  - constructor; [|constructor]. exact (digits_name E n Hn).
  - cbn [path_text elem_text flat_map app]. rewrite app_nil_r. exact H5.
  - apply rand_path. pose proof (steps_end E l [] Hl I) as K. rewrite app_nil_r in K. exact K.
  - apply h_add_inv, h_init_inv.
  - discriminate.
  - cbn [path_text elem_text flat_map app]. rewrite app_nil_r. lia.
  - cbn. lia.
  - cbn beta. intros b s6 h6 (-> & H6 & A6). split; [reflexivity|]. split; [exact H6|].
    exact (adds_app _ _ _ _ _ (adds_leaf h_init (op_text o) h_init_inv) A6).
Qed.
