(** Termination of the path and expression parsers (flow.go) over the ideal lexer, which
    is the real one for texts that fit in its buffer. *)
From Verif Require Import Base Value Event EventSpec EventFacts Lexer TextParser Stream Buffer BufferSpec BufferFacts Wp TextTerm PathParser.

Local Notation len l := (Z.of_nat (List.length l)).

(** ** Weakest preconditions over the ideal stream *)
Section Wpi.
Variable E : env.

Definition wpi {A} (m : prog A) (s : stream) (h : handler) (Q : A -> stream -> handler -> Prop) : Prop :=
  match run E m s h with Ok (a, s', h') => Q a s' h' | _ => False end.

Lemma wpi_ret {A} (a : A) s h (Q : A -> stream -> handler -> Prop) : Q a s h -> wpi (Ret a) s h Q.
Proof. auto. Qed.

Lemma run_bind {A B} (m : prog A) (f : A -> prog B) : forall s h,
  run E (pbind m f) s h = let* (a, s, h) := run E m s h in run E (f a) s h.
Proof.
  induction m as [a|k IH|k IH|k IH|o k IH|k IH|]; intros s h; cbn [run pbind]; try reflexivity.
  - destruct (s_byte s) as [[c ok] s']. apply IH.
  - apply IH.
  - destruct (s_token E s) as [t s']. apply IH.
  - destruct (h_step o h) as [h'| |]; cbn [rbind]; try reflexivity. apply IH.
  - apply IH.
Qed.

Lemma wpi_bind {A B} (m : prog A) (f : A -> prog B) s h (Q : B -> stream -> handler -> Prop) :
  wpi m s h (fun a s h => wpi (f a) s h Q) -> wpi (pbind m f) s h Q.
Proof.
  unfold wpi. rewrite run_bind. destruct (run E m s h) as [[[a s'] h']| |]; cbn [rbind]; auto.
Qed.

Lemma wpi_mono {A} (m : prog A) s h (Q Q' : A -> stream -> handler -> Prop) :
  wpi m s h Q -> (forall a s h, Q a s h -> Q' a s h) -> wpi m s h Q'.
Proof. unfold wpi. destruct (run E m s h) as [[[a s'] h']| |]; auto. Qed.

Lemma cut_refl s : cut s s.
Proof.
  split; [reflexivity|]. split; [reflexivity|]. exists (half + List.length (past s))%nat.
  split; [lia|]. rewrite firstn_all2; [reflexivity|lia].
Qed.

Lemma wpi_of_wp {A} (m : prog A) : forall s h (Q : A -> stream -> handler -> Prop), wp m s h Q -> wpi m s h Q.
Proof.
  unfold wpi. induction m as [a|k IH|k IH|k IH|o k IH|k IH|]; intros s h Q Hw; cbn [run wp] in *; try contradiction.
  - exact Hw.
  - pose proof (Hw _ (cut_refl _)) as H. destruct (s_byte s) as [[c ok] s']. cbn [fst snd] in H. apply IH, H.
  - apply IH, Hw.
  - destruct Hw as (h' & -> & Hw). cbn [rbind]. apply IH, Hw.
  - apply IH, Hw.
Qed.

(** The bytes read and the bytes to come together never change. *)
Definition src (s : stream) : bytes := rev (past s) ++ fut s.

Lemma token_scan_split g : forall r tok eaten, 
  let '(t, e, r') := token_scan E g r tok eaten in e ++ r' = eaten ++ r.
Proof.
  induction g as [|g IH]; intros r tok eaten; cbn [token_scan]; [destruct r; reflexivity|].
  destruct r as [|c r]; [reflexivity|]. destruct (decode_rune (c :: r)) as [ru n]. destruct (token_rune E ru); [|reflexivity].
  specialize (IH (skipn (Z.to_nat n) (c :: r)) (tok ++ encode_rune ru) (eaten ++ firstn (Z.to_nat n) (c :: r))).
  destruct (token_scan E g _ _ _) as [[t e] r']. rewrite IH, <- app_assoc. f_equal. apply firstn_skipn.
Qed.

Lemma run_src {A} (m : prog A) : forall s h a s' h', run E m s h = Ok (a, s', h') ->
  good s -> src s' = src s /\ good s'.
Proof.
  induction m as [a|k IH|k IH|k IH|o k IH|k IH|]; intros s h a' s' h' Hr Hg; cbn [run] in Hr.
  - inversion Hr; subst. auto.
  - unfold s_byte in Hr. destruct (fut s) as [|c f] eqn:Ef; apply IH in Hr as (H1 & H2).
    + rewrite H1. split; [|exact H2]. unfold src. cbn [past fut]. rewrite Ef. reflexivity.
    + apply good_nil.
    + rewrite H1. split; [|exact H2]. unfold src. cbn [past fut rev]. rewrite Ef, <- app_assoc. reflexivity.
    + apply good_false.
  - assert (Hu : src (s_unread s) = src s /\ good (s_unread s)).
    { unfold s_unread, src. destruct (over s) eqn:Eo; [split; [reflexivity|apply good_false]|].
      destruct (past s) as [|c p] eqn:Ep; [rewrite Ep; split; [reflexivity|unfold good; congruence]|].
      cbn [past fut rev]. rewrite <- app_assoc. split; [reflexivity|apply good_false]. }
    destruct Hu as (Hu1 & Hu2). apply IH in Hr as (H1 & H2); [|exact Hu2]. rewrite H1. auto.
  - unfold s_token in Hr. pose proof (token_scan_split (List.length (fut s)) (fut s) [] []) as Ht.
    destruct (token_scan E _ _ _ _) as [[t e] r]. cbn [app] in Ht. apply IH in Hr as (H1 & H2).
    + rewrite H1. split; [|exact H2]. unfold src. cbn [past fut]. rewrite rev_app_distr, rev_involutive, <- app_assoc, Ht. reflexivity.
    + intros Ho. cbn [over fut] in *. specialize (Hg Ho). rewrite Hg in Ht. apply app_eq_nil in Ht as (_ & ->). reflexivity.
  - destruct (h_step o h) as [h2| |]; cbn [rbind] in Hr; try discriminate. eapply IH; eauto.
  - eapply IH; eauto.
  - discriminate.
Qed.

Lemma wpi_src {A} (m : prog A) s h (Q : A -> stream -> handler -> Prop) : good s ->
  wpi m s h (fun a s' h' => src s' = src s -> good s' -> Q a s' h') -> wpi m s h Q.
Proof.
  intros Hg. unfold wpi. destruct (run E m s h) as [[[a s'] h']| |] eqn:Er; auto. intro H.
  destruct (run_src m s h a s' h' Er Hg) as (H1 & H2). auto.
Qed.

(** ** Token8 on any input *)
Definition tokenish (r : bytes) : Prop := match r with [] => False | _ => token_rune E (fst (decode_rune r)) = true end.

Lemma encode_nonempty r : encode_rune r <> [].
Proof. unfold encode_rune. repeat match goal with |- (if ?b then _ else _) <> [] => destruct b end; discriminate. Qed.

Lemma token_scan_grows g : forall r tok eaten,
  let '(t, e, r') := token_scan E g r tok eaten in (exists t', t = tok ++ t') /\ (List.length r' <= List.length r)%nat.
Proof.
  induction g as [|g IH]; intros r tok eaten; cbn [token_scan]; [destruct r; (split; [exists []; symmetry; apply app_nil_r|auto])|].
  destruct r as [|c r]; [split; [exists []; symmetry; apply app_nil_r|auto]|].
  destruct (decode_rune (c :: r)) as [ru n]. destruct (token_rune E ru); [|split; [exists []; symmetry; apply app_nil_r|auto]].
  specialize (IH (skipn (Z.to_nat n) (c :: r)) (tok ++ encode_rune ru) (eaten ++ firstn (Z.to_nat n) (c :: r))).
  destruct (token_scan E g _ _ _) as [[t e] r']. destruct IH as ((t' & ->) & Hl). split.
  - exists (encode_rune ru ++ t'). rewrite app_assoc. reflexivity.
  - rewrite skipn_length in Hl. lia.
Qed.

Lemma wpi_tok {A} (k : bytes -> prog A) s h (Q : A -> stream -> handler -> Prop) :
  (forall t s', (rem s' <= rem s)%nat -> (t <> [] -> rem s' < rem s)%nat -> (t = [] -> fut s' = fut s) -> (tokenish (fut s) -> t <> []) ->
     wpi (k t) s' h Q) -> good s -> wpi (Tok k) s h Q.
Proof.
  intros H Hg. unfold wpi. cbn [run]. unfold s_token.
  destruct (fut s) as [|c r] eqn:Ef.
  - cbn [List.length token_scan rev app]. apply H; unfold rem; cbn [fut]; rewrite ?Ef; auto. contradiction.
  - cbn [List.length token_scan]. destruct (decode_rune (c :: r)) as [ru n] eqn:Ed. 
    pose proof (decode_size (c :: r) c r eq_refl) as Hn. rewrite Ed in Hn. cbn [snd] in Hn.
    destruct (token_rune E ru) eqn:Et.
    + pose proof (token_scan_grows (List.length r) (skipn (Z.to_nat n) (c :: r)) ([] ++ encode_rune ru) ([] ++ firstn (Z.to_nat n) (c :: r))) as Hgr.
      destruct (token_scan E _ _ _ _) as [[t e] r']. destruct Hgr as ((t' & ->) & Hl). rewrite skipn_length in Hl. cbn [List.length] in *.
      apply H; unfold rem; cbn [fut]; rewrite ?Ef; cbn [List.length app]; try lia.
      * intro Hx. apply app_eq_nil in Hx as (Hx & _). destruct (encode_nonempty ru Hx).
      * intros _ Hx. apply app_eq_nil in Hx as (Hx & _). destruct (encode_nonempty ru Hx).
    + cbn [rev app]. apply H; unfold rem; cbn [fut]; rewrite ?Ef; auto; try congruence.
      cbn [tokenish]. rewrite Ed. cbn [fst]. congruence.
Qed.

Lemma wpi_ev {A} o (k : prog A) s h h' (Q : A -> stream -> handler -> Prop) : h_step o h = Ok h' -> wpi k s h' Q -> wpi (Ev o k) s h Q.
Proof. unfold wpi. cbn [run]. intros ->. auto. Qed.

End Wpi.

(** ** Termination *)

(** Every byte that is a letter as a Latin-1 character (which is how flow.go looks at it)
    begins a token as the lexer decodes it. *)
Definition well_lettered (E : env) (w : bytes) : Prop :=
  forall a c r, w = a ++ c :: r -> is_letter c = true -> tokenish E (c :: r).

Section Term.
Variable E : env.
Variable W : bytes.
Variable F : nat.
Hypothesis HW : well_lettered E W.
Hypothesis HF : (List.length W < F)%nat.

Definition st (s : stream) : Prop := good s /\ src s = W.
Definition hk (h h' : handler) : Prop := h_inv h' /\ (List.length (evs h) <= List.length (evs h'))%nat.

Lemma st_rem s : st s -> (rem s < F)%nat.
Proof. intros (_ & H). unfold rem. unfold src in H. apply (f_equal (@List.length byte)) in H. rewrite app_length in H. lia. Qed.
Lemma st_letter s : st s -> is_letter (head s) = true -> tokenish E (fut s).
Proof.
  intros (_ & H) Hl. unfold head in Hl. unfold src in H. destruct (fut s) as [|c r]; [discriminate|].
  exact (HW (rev (past s)) c r (eq_sym H) Hl).
Qed.
Lemma wpi_st {A} (m : prog A) s h (Q : A -> stream -> handler -> Prop) : st s ->
  wpi E m s h (fun a s' h' => st s' -> Q a s' h') -> wpi E m s h Q.
Proof.
  intros (Hg & Hs) H. apply (wpi_src E m s h Q Hg). eapply wpi_mono; [exact H|]. cbn beta. intros a s' h' HQ H1 H2.
  apply HQ. split; [exact H2|congruence].
Qed.

(** The lexer's functions on any input *)
Lemma t_span p acc s h : p x00 = false -> st s ->
  wpi E (span F p acc) s h (fun a s' h' => h' = h /\ st s' /\ (rem s' <= rem s)%nat /\ a = acc ++ tw p (fut s) /\ fut s' = dw p (fut s)).
Proof.
  intros Hp Hs. apply wpi_st; [exact Hs|]. apply wpi_of_wp, wp_span_any; [exact Hp|apply Hs|exact (st_rem s Hs)|].
  intros s' Hm _ Hf Hs'. repeat split; try apply Hs'; auto. rewrite (moved_rem _ _ _ Hm). lia.
Qed.
Lemma t_Space s h : st s -> wpi E (Space F) s h (fun _ s' h' => h' = h /\ st s' /\ (rem s' <= rem s)%nat).
Proof. intro Hs. apply wpi_bind. eapply wpi_mono; [apply t_span; auto|]. cbn. intros a s' h' (-> & H1 & H2 & _). auto. Qed.
Lemma t_WhiteSpace s h : st s -> wpi E (WhiteSpace F) s h (fun _ s' h' => h' = h /\ st s' /\ (rem s' <= rem s)%nat).
Proof. intro Hs. apply wpi_bind. eapply wpi_mono; [apply t_span; auto|]. cbn. intros a s' h' (-> & H1 & H2 & _). auto. Qed.
Lemma t_Peek s h : st s -> wpi E PeekByte s h (fun c s' h' => h' = h /\ st s' /\ fut s' = fut s /\ c = head s).
Proof. intro Hs. apply wpi_st; [exact Hs|]. apply wpi_of_wp, wp_Peek; [apply Hs|]. intros s' _ H1 H2. auto. Qed.
Lemma t_Byte s h : st s -> wpi E Byte_ s h (fun c s' h' => h' = h /\ st s' /\ c = head s /\ (rem s' <= rem s)%nat /\ (fut s <> [] -> (rem s' < rem s)%nat)).
Proof. intro Hs. apply wpi_st; [exact Hs|]. apply wpi_of_wp, wp_Byte; [apply Hs|]. intros s' _ H1 H2 H3. auto. Qed.
Lemma t_Quoted s h : st s -> wpi E (Quoted F 0) s h (fun q s' h' => h' = h /\ st s' /\ (rem s' <= rem s)%nat /\
  (q <> None -> (rem s' < rem s)%nat) /\ (is_letter (head s) = true -> q = None /\ fut s' = fut s)).
Proof.
  intro Hs. apply wpi_st; [exact Hs|]. apply wpi_of_wp.
  assert (Hd : is_letter (head s) = true -> is_quote (head s) = false).
  { intro H. unfold is_quote. destruct (beq_spec (head s) x22) as [Hx|]; [rewrite Hx in H; discriminate|].
    destruct (beq_spec (head s) "'") as [Hx|]; [rewrite Hx in H; discriminate|].
    destruct (beq_spec (head s) "`") as [Hx|]; [rewrite Hx in H; discriminate|reflexivity]. }
  pose proof (st_rem s Hs) as Hrem. destruct s as [P f o]. unfold Quoted, Byte_, rem, head in *. cbn [fut pbind] in *. destruct f as [|c f].
  - apply wp_get_end. intros k Hk. cbn. intros Hst. repeat split; auto; try apply Hst; try congruence.
  - apply wp_get. intros k Hk. destruct (is_quote c) eqn:Eq; cbn [negb].
    + cbn in Hrem. apply (wp_quoted_loop F 0 c (List.length f)); unfold rem; cbn [fut]; try lia; [apply good_false|].
      intros r s' G L Hst. cbn [List.length] in *. repeat split; try apply Hst; try lia; intro Hl; specialize (Hd Hl); congruence.
    + apply wp_un. cbn [wp fut]. intros Hst. repeat split; auto; try apply Hst; congruence.
Qed.
Lemma t_Operator s h : st s -> wpi E (Operator F) s h (fun o s' h' => h' = h /\ st s' /\ (rem s' <= rem s)%nat /\ (o <> [] -> (rem s' < rem s)%nat)).
Proof.
  intro Hs. eapply wpi_mono; [apply t_span; [reflexivity|exact Hs]|]. cbn. intros a s' h' (-> & H1 & H2 & -> & H3). repeat split; auto; try apply H1.
  intro Hn. unfold rem. rewrite H3. rewrite (tw_dw is_operator (fut s)) at 2. rewrite app_length. destruct (tw is_operator (fut s)); [congruence|cbn; lia].
Qed.
Lemma t_number_loop : forall n f point buf s h, rem s = n -> (rem s < f)%nat -> st s ->
  wpi E (number_loop f point buf) s h (fun b s' h' => h' = h /\ st s' /\ (rem s' <= rem s)%nat /\ (List.length b <= List.length buf + (rem s - rem s'))%nat).
Proof.
  induction n as [|n IH]; intros f point buf s h Hn Hf Hs; (destruct f as [|f]; [lia|]); cbn [number_loop].
  - assert (Ef : fut s = []) by (unfold rem in Hn; destruct (fut s); [reflexivity|discriminate]).
    apply wpi_st; [exact Hs|]. unfold wpi. cbn [run]. unfold s_byte. rewrite Ef. cbn [is_digit latin1_digit]. change (is_digit x00) with false. cbn [beq andb].
    replace (negb point && beq x00 ".") with false by (destruct point; reflexivity). cbn [run]. intro Hst. unfold rem. rewrite Ef. cbn. repeat split; auto; try apply Hst; lia.
  - unfold rem in Hn. destruct (fut s) as [|c r] eqn:Ef; [discriminate|]. cbn in Hn.
    assert (Hst : st (mkS (c :: past s) r false)).
    { destruct Hs as (Hg & Hs). split; [apply good_false|]. unfold src in *. cbn [past fut rev]. rewrite <- app_assoc. cbn. rewrite <- Ef. exact Hs. }
    unfold wpi. cbn [run]. unfold s_byte. rewrite Ef.
    assert (Rec : forall pt b, (List.length b <= List.length buf + 1)%nat -> wpi E (number_loop f pt b) (mkS (c :: past s) r false) h
       (fun b s' h' => h' = h /\ st s' /\ (rem s' <= rem s)%nat /\ (List.length b <= List.length buf + (rem s - rem s'))%nat)).
    { intros pt b Hb. unfold rem in *. rewrite Ef in *. cbn [List.length] in *. eapply wpi_mono; [apply IH; unfold rem; cbn [fut]; auto; lia|]. unfold rem. cbn [fut]. intros a s' h' (-> & H1 & H2 & H3).
      repeat split; auto; try apply H1; lia. }
    destruct (is_digit c).
    + apply Rec. rewrite app_length. cbn. lia.
    + destruct (negb point && beq c ".").
      * apply Rec. rewrite app_length. cbn. lia.
      * cbn [run s_unread over past]. unfold rem. cbn [fut]. rewrite Ef. split; [reflexivity|]. split; [|cbn; lia].
        split; [apply good_false|]. unfold src in *. cbn [past fut]. rewrite <- Ef. apply Hs.
Qed.
Lemma t_Number s h : st s -> wpi E (Number_tok F) s h (fun q s' h' => h' = h /\ st s' /\ (rem s' <= rem s)%nat /\ (q <> None -> (rem s' < rem s)%nat)).
Proof.
  intro Hs. unfold Number_tok. apply wpi_bind. eapply wpi_mono; [apply t_Peek, Hs|]. cbn beta. intros c s1 h1 (-> & Hs1 & Ef1 & ->).
  assert (E1 : rem s1 = rem s) by (unfold rem; rewrite Ef1; reflexivity).
  apply wpi_bind. apply (wpi_mono E _ s1 h (fun _ s' h' => h' = h /\ st s' /\ (rem s' <= rem s)%nat)).
  - destruct (beq (head s) "-" || beq (head s) "+").
    + apply wpi_bind. eapply wpi_mono; [apply t_Byte, Hs1|]. cbn beta. intros a s2 h2 (-> & H1 & H2 & H3 & H4). apply wpi_ret. rewrite <- E1. auto.
    + apply wpi_ret. rewrite <- E1. auto.
  - cbn beta. intros sign s2 h2 (-> & Hs2 & L2). apply wpi_bind. eapply wpi_mono; [eapply t_number_loop; [reflexivity|exact (st_rem s2 Hs2)|exact Hs2]|].
    cbn beta. intros b s3 h3 (-> & Hs3 & L3 & L4). apply wpi_ret. repeat split; try apply Hs3; try lia.
    intro Hn. destruct b; [congruence|]. cbn in L4. lia.
Qed.
Lemma t_tok {A} (k : bytes -> prog A) s h (Q : A -> stream -> handler -> Prop) : st s ->
  (forall t s', st s' -> (rem s' <= rem s)%nat -> (t <> [] -> (rem s' < rem s)%nat) -> (tokenish E (fut s) -> t <> []) ->
     wpi E (k t) s' h Q) -> wpi E (Tok k) s h Q.
Proof.
  intros Hs H. change (wpi E (pbind (Tok Ret) k) s h Q). apply wpi_bind, wpi_st; [exact Hs|]. apply wpi_tok; [|apply Hs].
  intros t s' H1 H2 _ H4. apply wpi_ret. intro Hs'. apply H; auto.
Qed.
(** Path's test for a separator *)
Lemma t_sep (a : option bool) (K : byte -> option bool) s h : st s ->
  wpi E (do c <- Byte_; if beq c "." then Ret a else UnB (Ret (K c))) s h (fun _ s' h' => h' = h /\ st s' /\ (rem s' <= rem s)%nat).
Proof.
  intro Hs. apply wpi_st; [exact Hs|]. apply wpi_of_wp. destruct s as [P f o]. unfold rem. cbn [fut]. unfold Byte_. cbn [pbind]. destruct f as [|c f].
  - apply wp_get_end. intros k Hk. cbn. auto.
  - apply wp_get. intros k Hk. destruct (beq c "."); [cbn; intro; auto|]. apply wp_un. cbn. auto.
Qed.

Lemma hk_refl h : h_inv h -> hk h h.
Proof. split; auto. Qed.
Lemma hk_trans h1 h2 h3 : hk h1 h2 -> hk h2 h3 -> hk h1 h3.
Proof. intros (_ & A) (B & C). split; [exact B|lia]. Qed.
Lemma hk_add v h : h_inv h -> hk h (h_add v h).
Proof. intro H. split; [apply h_add_inv, H|]. cbn. rewrite app_length. cbn. lia. Qed.
Lemma hk_inc h : h_inv h -> hk h (h_inc h).
Proof. intro H. split; [apply h_inc_inv, H|cbn; lia]. Qed.
Lemma hk_dec h : h_inv h -> hk h (h_dec h).
Proof. intro H. split; [apply h_dec_inv, H|cbn; lia]. Qed.
Lemma hk_set l h : 0 <= l -> h_inv h -> hk h (h_set_level l h).
Proof. intros Hl H. split; [apply h_set_inv; auto|cbn; lia]. Qed.

Definition weak (s : stream) (h : handler) (b : bool) (s' : stream) (h' : handler) : Prop :=
  st s' /\ hk h h' /\ (rem s' <= rem s)%nat.
Definition strong (s : stream) (h : handler) (b : bool) (s' : stream) (h' : handler) : Prop :=
  weak s h b s' h' /\ (b = true -> (rem s' < rem s)%nat).
Definition pathpost (begin anything : bool) (s : stream) (h : handler) (b : bool) (s' : stream) (h' : handler) : Prop :=
  weak s h b s' h' /\ (b = true -> anything = true \/ (rem s' < rem s)%nat) /\
  (begin = true -> is_letter (head s) = true -> (rem s' < rem s)%nat).

Ltac call L := apply wpi_bind; eapply wpi_mono; [apply L|]; cbn beta.
Ltac evs_ := repeat (first [apply wpi_bind; eapply wpi_ev; [reflexivity|]; apply wpi_ret | eapply wpi_ev; [reflexivity|]]).

Lemma head_nonempty s c : head s = c -> c <> x00 -> fut s <> [].
Proof. unfold head. destruct (fut s); congruence. Qed.

Lemma wpi_Level {A} (k : Z -> prog A) s h (Q : A -> stream -> handler -> Prop) : wpi E (k (cur h)) s h Q -> wpi E (pbind Level k) s h Q.
Proof. auto. Qed.
Lemma wpi_emit {A} b (k : unit -> prog A) s h (Q : A -> stream -> handler -> Prop) : wpi E (k tt) s (h_add (VStr b) h) Q -> wpi E (pbind (emit b) k) s h Q.
Proof. auto. Qed.
Lemma wpi_Inc {A} (k : unit -> prog A) s h (Q : A -> stream -> handler -> Prop) : wpi E (k tt) s (h_inc h) Q -> wpi E (pbind (ev HInc) k) s h Q.
Proof. auto. Qed.
Lemma wpi_Dec {A} (k : unit -> prog A) s h (Q : A -> stream -> handler -> Prop) : wpi E (k tt) s (h_dec h) Q -> wpi E (pbind (ev HDec) k) s h Q.
Proof. auto. Qed.
Lemma wpi_Set {A} l (k : unit -> prog A) s h (Q : A -> stream -> handler -> Prop) : wpi E (k tt) s (h_set_level l h) Q -> wpi E (pbind (ev (HSetLevel l)) k) s h Q.
Proof. auto. Qed.

Definition all_term (f : nat) : Prop :=
  (forall s h, st s -> h_inv h -> (5 * rem s + 4 <= f)%nat -> wpi E (Expression F f) s h (strong s h)) /\
  (forall s h, st s -> h_inv h -> (5 * rem s + 1 <= f)%nat -> wpi E (expr_loop F f) s h (weak s h)) /\
  (forall s h, st s -> h_inv h -> (5 * rem s + 3 <= f)%nat -> wpi E (UnaryExpression F f) s h (strong s h)) /\
  (forall b d a s h, st s -> h_inv h -> (5 * rem s + 2 <= f)%nat -> wpi E (path_loop F f b d a) s h (pathpost b a s h)) /\
  (forall l r t s h, st s -> h_inv h -> (l = "["%byte \/ l = "{"%byte) -> (5 * rem s + 1 <= f)%nat -> wpi E (bracket F f l r t) s h (strong s h)) /\
  (forall lv a s h, st s -> h_inv h -> 0 <= lv -> (5 * rem s + 5 <= f)%nat -> wpi E (arg_loop F f lv a) s h (weak s h)) /\
  (forall d s h, st s -> h_inv h -> (5 * rem s + 1 <= f)%nat -> wpi E (Args F f d) s h (strong s h)).

Ltac hks := repeat first [assumption | apply hk_refl; [assumption] | match goal with H : hk _ ?h |- h_inv ?h => exact (proj1 H) end
  | apply h_add_inv | apply h_inc_inv | apply h_dec_inv].

Lemma hk_inv h h' : hk h h' -> h_inv h'.
Proof. intros (H & _). exact H. Qed.

Lemma terminates : forall f, all_term f.
Proof.
  induction f as [|f (IHe & IHl & IHu & IHp & IHb & IHa & IHg)].
  { repeat split; intros; lia. }
  split; [|split; [|split; [|split; [|split; [|split]]]]].
  - (* Expression *)
    intros s h Hs Hh Hf. cbn [Expression]. apply wpi_bind. eapply wpi_mono; [apply IHu; auto; lia|].
    intros b s1 h1 ((Hs1 & Hh1 & L1) & C1). destruct b.
    + specialize (C1 eq_refl). eapply wpi_mono; [apply IHl; eauto using hk_inv; lia|].
      intros b s2 h2 (Hs2 & Hh2 & L2). split; [split; [exact Hs2|split; [eapply hk_trans; eauto|lia]]|intro; lia].
    + apply wpi_ret. split; [split; auto|discriminate].
  - (* loop of Expression *)
    intros s h Hs Hh Hf. cbn [expr_loop]. call t_Space; auto. intros _ s1 h1 (-> & Hs1 & L1). call t_Operator; auto.
    intros o s2 h2 (-> & Hs2 & L2 & C2). destruct o as [|c o].
    { apply wpi_ret. repeat split; try apply Hs2; try apply Hh; lia. }
    specialize (C2 ltac:(discriminate)). apply wpi_emit. call t_Space; auto. intros _ s3 h3 (-> & Hs3 & L3).
    apply wpi_bind. eapply wpi_mono; [apply IHu; auto; [apply h_add_inv, Hh|lia]|].
    intros b s4 h4 ((Hs4 & Hh4 & L4) & _). pose proof (hk_trans _ _ _ (hk_add (VStr (c :: o)) h Hh) Hh4) as Hh5. destruct b.
    + call t_Space; auto. intros _ s5 h5 (-> & Hs5 & L5). eapply wpi_mono; [apply IHl; eauto using hk_inv; lia|].
      intros b s6 h6 (Hs6 & Hh6 & L6). split; [exact Hs6|split; [eapply hk_trans; eauto|lia]].
    + apply wpi_ret. split; [exact Hs4|split; [exact Hh5|lia]].
  - (* UnaryExpression *)
    intros s h Hs Hh Hf. cbn [UnaryExpression]. call t_Peek; auto. intros c s1 h1 (-> & Hs1 & Ef1 & ->).
    assert (E1 : rem s1 = rem s) by (unfold rem; rewrite Ef1; reflexivity).
    assert (Eh1 : head s1 = head s) by (unfold head; rewrite Ef1; reflexivity).
    destruct (is_letter (head s)) eqn:El.
    { apply wpi_emit, wpi_Inc. pose proof (hk_inc _ (hk_inv _ _ (hk_add (VStr TypePath) h Hh))) as K1. pose proof (hk_trans _ _ _ (hk_add (VStr TypePath) h Hh) K1) as K2.
      apply wpi_bind. eapply wpi_mono; [apply IHp; eauto using hk_inv; lia|].
      intros b s2 h2 ((Hs2 & Hh2 & L2) & _ & C2). specialize (C2 eq_refl ltac:(rewrite Eh1; exact El)). apply wpi_Dec, wpi_ret.
      pose proof (hk_trans _ _ _ K2 Hh2) as K3. split; [split; [exact Hs2|split; [|lia]]|intro; lia].
      eapply hk_trans; [exact K3|]. apply hk_dec, (hk_inv _ _ K3). }
    clear El. call t_Number; auto. intros n s2 h2 (-> & Hs2 & L2 & C2). destruct n as [b|].
    { specialize (C2 ltac:(discriminate)). apply wpi_emit, wpi_ret. split; [split; [exact Hs2|split; [apply hk_add, Hh|lia]]|intro; lia]. }
    clear C2. call t_Quoted; auto. intros q s3 h3 (-> & Hs3 & L3 & C3 & _). destruct q as [b|].
    { specialize (C3 ltac:(discriminate)). apply wpi_emit, wpi_Inc, wpi_emit, wpi_Dec, wpi_ret.
      split; [split; [exact Hs3|split; [|lia]]|intro; lia].
      eapply hk_trans; [apply hk_add, Hh|]. eapply hk_trans; [apply hk_inc, h_add_inv, Hh|].
      eapply hk_trans; [apply hk_add, h_inc_inv, h_add_inv, Hh|]. apply hk_dec, h_add_inv, h_inc_inv, h_add_inv, Hh. }
    clear C3. call t_Operator; auto. intros o s4 h4 (-> & Hs4 & L4 & C4).
    apply wpi_bind. apply (wpi_mono E _ s4 h (fun _ s' h' => s' = s4 /\ hk h h')).
    { destruct o; [apply wpi_ret; split; [reflexivity|apply hk_refl, Hh]|]. change (s4 = s4 /\ hk h (h_add (VStr (b :: o)) h)).
      split; [reflexivity|apply hk_add, Hh]. }
    intros _ s5 h5 (-> & Hh5). clear o C4. call t_Peek; auto. intros c s5 h6 (-> & Hs5 & Ef5 & ->).
    assert (E5 : rem s5 = rem s4) by (unfold rem; rewrite Ef5; reflexivity).
    destruct (beq_spec (head s4) "(") as [Ec|Ec].
    + call t_Byte; auto. intros _ s6 h6 (-> & Hs6 & _ & _ & L6). rewrite Ef5 in L6.
      specialize (L6 (head_nonempty _ _ Ec ltac:(discriminate))).
      apply wpi_emit, wpi_Inc. call t_Space; auto. intros _ s7 h7 (-> & Hs7 & L7).
      set (g := h_inc (h_add (VStr TypeGroup) h5)).
      assert (Hg : hk h g) by (eapply hk_trans; [exact Hh5|]; eapply hk_trans; [apply hk_add, (hk_inv _ _ Hh5)|]; apply hk_inc, h_add_inv, (hk_inv _ _ Hh5)).
      apply wpi_bind. eapply wpi_mono; [apply IHe; auto; [exact (hk_inv _ _ Hg)|lia]|].
      intros b s8 h8 ((Hs8 & Hh8 & L8) & _). call t_Space; auto. intros _ s9 h9 (-> & Hs9 & L9).
      apply wpi_Dec. call t_Peek; auto. intros c s10 h10 (-> & Hs10 & Ef10 & ->). assert (E10 : rem s10 = rem s9) by (unfold rem; rewrite Ef10; reflexivity).
      pose proof (hk_trans _ _ _ Hg Hh8) as K8. pose proof (hk_trans _ _ _ K8 (hk_dec _ (hk_inv _ _ K8))) as K9.
      destruct (negb (beq (head s9) ")")).
      * apply wpi_ret. split; [split; [exact Hs10|split; [exact K9|lia]]|discriminate].
      * call t_Byte; auto. intros _ s11 h11 (-> & Hs11 & _ & L11 & _). apply wpi_ret. split; [split; [exact Hs11|split; [exact K9|lia]]|intro; lia].
    + eapply wpi_mono; [apply IHp; auto; [exact (hk_inv _ _ Hh5)|lia]|]. intros b s6 h6 ((Hs6 & Hh6 & L6) & C6 & _).
      split; [split; [exact Hs6|split; [eapply hk_trans; eauto|lia]]|]. intro Hb. destruct (C6 Hb); [discriminate|lia].
  - (* Path *)
    intros b d a s h Hs Hh Hf. cbn [path_loop].
    apply wpi_bind. apply (wpi_mono E _ s h (fun go s' h' => h' = h /\ st s' /\ (rem s' <= rem s)%nat /\ (b = true -> go = Some d /\ s' = s))).
    { destruct b; [apply wpi_ret; auto|].
      eapply wpi_mono; [apply (t_sep (Some true) (fun c => if beq c "[" || beq c "(" || beq c "{" then Some false else None) s h Hs)|].
      cbn beta. intros go s' h' (H1 & H2 & H3). repeat split; auto; try apply H2; discriminate. }
    cbn beta. intros go s1 h1 (-> & Hs1 & L1 & B1). destruct go as [dot|].
    2:{ apply wpi_ret. split; [split; [exact Hs1|split; [apply hk_refl, Hh|lia]]|]. split; [auto|].
        intros Hb _. destruct (B1 Hb). discriminate. }
    call t_Quoted; auto. intros q s2 h2 (-> & Hs2 & L2 & C2 & D2).
    assert (More : forall s' h', st s' -> hk h h' -> (rem s' < rem s1)%nat ->
      wpi E (path_loop F f false dot true) s' h' (pathpost b a s h)).
    { intros s' h' Hs' Hh' Hl. eapply wpi_mono; [apply IHp; eauto using hk_inv; lia|]. intros bb s4 h4 ((Hs4 & Hh4 & L4) & _).
      split; [split; [exact Hs4|split; [eapply hk_trans; eauto|lia]]|]. split; [right; lia|intros; lia]. }
    destruct q as [w|].
    { specialize (C2 ltac:(discriminate)). apply wpi_emit. apply More; auto. apply hk_add, Hh. }
    clear C2. apply t_tok; [exact Hs2|]. intros t s3 Hs3 L3 C3 T3. destruct t as [|t0 t].
    2:{ specialize (C3 ltac:(discriminate)). apply wpi_emit. apply More; auto; [apply hk_add, Hh|lia]. }
    clear C3. assert (NL : b = true -> is_letter (head s) = true -> False).
    { intros Hb Hl. destruct (B1 Hb) as (_ & ->). destruct (D2 Hl) as (_ & Ef2). apply T3; [|reflexivity]. rewrite Ef2. exact (st_letter s Hs Hl). }
    apply wpi_bind. eapply wpi_mono; [apply IHb; auto; lia|]. intros i4 s4 h4 ((Hs4 & Hh4 & L4) & C4).
    destruct i4; [specialize (C4 eq_refl); apply More; auto; lia|]. clear C4.
    apply wpi_bind. eapply wpi_mono; [apply IHb; eauto using hk_inv; lia|]. intros i5 s5 h5 ((Hs5 & Hh5 & L5) & C5).
    pose proof (hk_trans _ _ _ Hh4 Hh5) as K5.
    destruct i5; [specialize (C5 eq_refl); apply More; auto; lia|]. clear C5.
    apply wpi_bind. eapply wpi_mono; [apply IHg; eauto using hk_inv; lia|]. intros i6 s6 h6 ((Hs6 & Hh6 & L6) & C6).
    pose proof (hk_trans _ _ _ K5 Hh6) as K6.
    destruct i6; [specialize (C6 eq_refl); apply More; auto; lia|].
    apply wpi_ret. split; [split; [exact Hs6|split; [exact K6|lia]]|]. split; [auto|]. intros Hb Hl. destruct (NL Hb Hl).
  - (* Index, Selector *)
    intros l r t s h Hs Hh Hlr Hf. cbn [bracket]. call t_Peek; auto. intros c s1 h1 (-> & Hs1 & Ef1 & ->).
    assert (E1 : rem s1 = rem s) by (unfold rem; rewrite Ef1; reflexivity).
    destruct (beq_spec (head s) l) as [Ec|Ec]; cbn [negb].
    2:{ apply wpi_ret. split; [split; [exact Hs1|split; [apply hk_refl, Hh|lia]]|discriminate]. }
    call t_Byte; auto. intros _ s2 h2 (-> & Hs2 & _ & _ & L2). rewrite Ef1 in L2.
    specialize (L2 (head_nonempty _ _ Ec ltac:(destruct Hlr as [-> | ->]; discriminate))).
    apply wpi_Level, wpi_emit, wpi_Inc. call t_Space; auto. intros _ s3 h3 (-> & Hs3 & L3).
    set (g := h_inc (h_add (VStr t) h)).
    assert (Hg : hk h g) by (eapply hk_trans; [apply hk_add, Hh|]; apply hk_inc, h_add_inv, Hh).
    apply wpi_bind. eapply wpi_mono; [apply IHe; auto; [exact (hk_inv _ _ Hg)|lia]|].
    intros b s4 h4 ((Hs4 & Hh4 & L4) & _). pose proof (hk_trans _ _ _ Hg Hh4) as K4. call t_Space; auto. intros _ s5 h5 (-> & Hs5 & L5).
    call t_Peek; auto. intros c s6 h6 (-> & Hs6 & Ef6 & ->). assert (E6 : rem s6 = rem s5) by (unfold rem; rewrite Ef6; reflexivity).
    destruct (negb (beq (head s5) r)).
    + apply wpi_ret. split; [split; [exact Hs6|split; [exact K4|lia]]|discriminate].
    + call t_Byte; auto. intros _ s7 h7 (-> & Hs7 & _ & L7 & _). apply wpi_Set, wpi_ret.
      split; [split; [exact Hs7|split; [|lia]]|intro; lia]. eapply hk_trans; [exact K4|]. apply hk_set; [apply Hh|exact (hk_inv _ _ K4)].
  - (* ArgList *)
    intros lv a s h Hs Hh Hlv Hf. cbn [arg_loop]. call t_WhiteSpace; auto. intros _ s1 h1 (-> & Hs1 & L1).
    apply wpi_emit, wpi_Inc. set (g := h_inc (h_add (VStr TypeExpression) h)).
    assert (Hg : h_inv g) by (apply h_inc_inv, h_add_inv, Hh).
    assert (Lg : List.length (evs g) = S (List.length (evs h))) by (unfold g; cbn; rewrite app_length; cbn; lia).
    apply wpi_bind. eapply wpi_mono; [apply IHe; auto; lia|]. intros b s2 h2 ((Hs2 & Hh2 & L2) & C2). destruct b; cbn [negb].
    + specialize (C2 eq_refl). apply wpi_Dec. call t_WhiteSpace; auto. intros _ s3 h3 (-> & Hs3 & L3).
      assert (K3 : hk h (h_dec h2)) by (split; [apply h_dec_inv, Hh2|]; destruct Hh2 as (_ & Hh2); cbn; lia).
      call t_Peek; auto. intros c s4 h4 (-> & Hs4 & Ef4 & ->). assert (E4 : rem s4 = rem s3) by (unfold rem; rewrite Ef4; reflexivity).
      assert (Next : forall s' h', st s' -> hk h h' -> (rem s' <= rem s3)%nat -> wpi E (arg_loop F f lv true) s' h' (weak s h)).
      { intros s' h' Hs' Hh' L'. eapply wpi_mono; [apply IHa; eauto using hk_inv; lia|]. intros bb s5 h5 (Hs5 & Hh5 & L5).
        split; [exact Hs5|split; [eapply hk_trans; eauto|lia]]. }
      destruct (beq (head s3) ")").
      * apply wpi_ret. split; [exact Hs4|split; [exact K3|lia]].
      * destruct (beq (head s3) ",").
        -- call t_Byte; auto. intros _ s5 h5 (-> & Hs5 & _ & L5 & _). apply wpi_Set. apply Next; [exact Hs5| |lia].
           eapply hk_trans; [exact K3|]. apply hk_set; [exact Hlv|exact (hk_inv _ _ K3)].
        -- apply wpi_Inc. apply Next; [exact Hs4| |lia]. eapply hk_trans; [exact K3|]. apply hk_inc; exact (hk_inv _ _ K3).
    + apply wpi_Dec. destruct Hh2 as (Hi2 & Ln2).
      assert (Hd : exists h3, h_delete (h_dec h2) = Ok h3 /\ hk h h3).
      { unfold h_delete. destruct (evs (h_dec h2)) as [|e l] eqn:Ee; [cbn [h_dec evs] in Ee; rewrite Ee in Ln2; cbn [List.length] in Ln2; lia|]. eexists. split; [reflexivity|].
        split.
        - apply (h_step_inv HDelete (h_dec h2)); [exact I|apply h_dec_inv, Hi2|]. cbn [h_step]. unfold h_delete. rewrite Ee. reflexivity.
        - cbn [evs h_dec] in *. rewrite removelast_firstn_len, firstn_length. rewrite <- Ee. lia. }
      destruct Hd as (h3 & Ed & K3). apply wpi_bind. eapply wpi_ev; [exact Ed|]. apply wpi_ret, wpi_ret.
      split; [exact Hs2|split; [exact K3|lia]].
  - (* Args *)
    intros d s h Hs Hh Hf. cbn [Args]. call t_Peek; auto. intros c s1 h1 (-> & Hs1 & Ef1 & ->).
    assert (E1 : rem s1 = rem s) by (unfold rem; rewrite Ef1; reflexivity).
    destruct (beq_spec (head s) "(") as [Ec|Ec]; cbn [negb].
    2:{ apply wpi_ret. split; [split; [exact Hs1|split; [apply hk_refl, Hh|lia]]|discriminate]. }
    call t_Byte; auto. intros _ s2 h2 (-> & Hs2 & _ & _ & L2). rewrite Ef1 in L2.
    specialize (L2 (head_nonempty _ _ Ec ltac:(discriminate))).
    apply wpi_Level, wpi_emit, wpi_Inc. call t_WhiteSpace; auto. intros _ s3 h3 (-> & Hs3 & L3).
    set (g := h_inc (h_add (VStr (if d then TypeGroup else TypeArguments)) h)).
    assert (Hg : hk h g) by (eapply hk_trans; [apply hk_add, Hh|]; apply hk_inc, h_add_inv, Hh).
    apply wpi_Level. apply wpi_bind. eapply wpi_mono; [apply IHa; auto; [exact (hk_inv _ _ Hg)|apply (hk_inv _ _ Hg)|lia]|].
    intros b s4 h4 (Hs4 & Hh4 & L4). apply wpi_Set.
    assert (K4 : hk h (h_set_level (cur g) h4)).
    { eapply hk_trans; [exact Hg|]. eapply hk_trans; [exact Hh4|]. apply hk_set; [apply (hk_inv _ _ Hg)|exact (hk_inv _ _ Hh4)]. }
    call t_WhiteSpace; auto. intros _ s5 h5 (-> & Hs5 & L5).
    call t_Peek; auto. intros c s6 h6 (-> & Hs6 & Ef6 & ->). assert (E6 : rem s6 = rem s5) by (unfold rem; rewrite Ef6; reflexivity).
    destruct (negb (beq (head s5) ")")).
    + apply wpi_ret. split; [split; [exact Hs6|split; [exact K4|lia]]|discriminate].
    + call t_Byte; auto. intros _ s7 h7 (-> & Hs7 & _ & L7 & _). apply wpi_Set, wpi_ret.
      split; [split; [exact Hs7|split; [|lia]]|intro; lia]. eapply hk_trans; [exact K4|]. apply hk_set; [apply Hh|exact (hk_inv _ _ K4)].
Qed.
End Term.

(** ** NewPath and NewExpression over the real lexer *)

(** The ideal versions *)
Definition s_path (E : env) (fuel : nat) (s : bytes) : res graph :=
  let* (_, _, h) := run E (Path fuel fuel) (s_init s) h_init in
  let* g := Tree h in Ok (Node (VStr TypePath) (out g)).
Definition s_expr (E : env) (fuel : nat) (s : bytes) : res graph :=
  let* (_, _, h) := run E (Expression fuel fuel) (s_init s) h_init in
  let* g := Tree h in ast_ true (Node (VStr TypeExpression) (out g)).

Lemma run_ideal {A} E fuel (m : prog A) (k : handler -> res graph) s : len s <= 4094 -> (List.length s < fuel)%nat ->
  (let* (_, _, h) := run_buf E fuel m (NewLexer (bytes_reader s)) h_init in k h) = (let* (_, _, h) := run E m (s_init s) h_init in k h).
Proof.
  intros Hl Hf. pose proof (run_sim0 E fuel m (s_init s) (NewLexer (bytes_reader s)) h_init (NewLexer_sim0 s Hl) Hf) as H.
  destruct (run E m (s_init s) h_init) as [[[a s'] h']| |]; cbn [rbind].
  - destruct H as (x' & -> & _). reflexivity.
  - rewrite H. reflexivity.
  - rewrite H. reflexivity.
Qed.
Lemma NewPath_ideal E fuel s : len s <= 4094 -> (List.length s < fuel)%nat -> NewPath E fuel s = s_path E fuel s.
Proof. apply run_ideal. Qed.
Lemma NewExpression_ideal E fuel s : len s <= 4094 -> (List.length s < fuel)%nat -> NewExpression E fuel s = s_expr E fuel s.
Proof. apply run_ideal. Qed.

Lemma st_init s : st s (s_init s).
Proof. split; [apply good_false|reflexivity]. Qed.

Lemma path_total E s fuel : well_lettered E s -> len s <= 4094 -> (5 * List.length s + 4 <= fuel)%nat ->
  exists l, NewPath E fuel s = Ok (Node (VStr TypePath) l).
Proof.
  intros HW Hl Hf. rewrite NewPath_ideal by lia. unfold s_path.
  destruct (terminates E s fuel HW ltac:(lia) fuel) as (_ & _ & _ & H & _).
  specialize (H true true false (s_init s) h_init (st_init s) h_init_inv ltac:(change (rem (s_init s)) with (List.length s); lia)).
  unfold wpi in H. change (Path fuel fuel) with (path_loop fuel fuel true true false).
  destruct (run E _ (s_init s) h_init) as [[[b s'] h']| |]; try contradiction. destruct H as ((_ & Hh & _) & _). cbn [rbind].
  rewrite (h_inv_Tree h' (proj1 Hh)). cbn [rbind]. eauto.
Qed.

(** The parsing part of NewExpression returns; only building the syntax tree may fail. *)
Lemma expr_total E s fuel : well_lettered E s -> len s <= 4094 -> (5 * List.length s + 4 <= fuel)%nat ->
  exists l, NewExpression E fuel s = ast_ true (Node (VStr TypeExpression) l).
Proof.
  intros HW Hl Hf. rewrite NewExpression_ideal by lia. unfold s_expr.
  destruct (terminates E s fuel HW ltac:(lia) fuel) as (H & _).
  specialize (H (s_init s) h_init (st_init s) h_init_inv ltac:(change (rem (s_init s)) with (List.length s); lia)).
  unfold wpi in H.
  destruct (run E _ (s_init s) h_init) as [[[b s'] h']| |]; try contradiction. destruct H as ((_ & Hh & _) & _). cbn [rbind].
  rewrite (h_inv_Tree h' (proj1 Hh)). cbn [rbind]. eauto.
Qed.
