(** The trees that the path and expression parsers build, for any text. *)
From Verif Require Import Base Value Event EventSpec EventFacts Lexer TextParser Stream Buffer Graph PathParser Eval Template Quiet.
From Verif Require PathFacts.

(** ** The handler during a parse; nothing is assumed about the bytes that are read, other than
    that they are not = when [strict] is set *)
Definition fine (strict : bool) (c : byte) : Prop := strict = true -> c <> "="%byte.

Section Pwp.
Variable strict : bool.
Local Notation fin := (Forall (fine strict)).

Fixpoint pwp {A} (m : prog A) (h : handler) (Q : A -> handler -> Prop) : Prop :=
  match m with
  | Ret a => Q a h
  | GetB k => forall c ok, fine strict c -> pwp (k c ok) h Q
  | UnB k => pwp k h Q
  | Tok k => forall t, fin t -> pwp (k t) h Q
  | Ev o k => forall h', h_step o h = Ok h' -> pwp k h' Q
  | Lvl k => pwp (k (cur h)) h Q
  | Stop => True
  end.

Lemma pwp_mono {A} (m : prog A) : forall h (Q Q' : A -> handler -> Prop), (forall a h', Q a h' -> Q' a h') -> pwp m h Q -> pwp m h Q'.
Proof.
  induction m as [a|k IH|k IH|k IH|o k IH|k IH|]; intros h Q Q' HQ H; cbn [pwp] in *; eauto.
Qed.
Lemma pwp_bind {A B} (m : prog A) : forall (k : A -> prog B) h Q, pwp m h (fun a h' => pwp (k a) h' Q) -> pwp (pbind m k) h Q.
Proof.
  induction m as [a|k IH|k IH|k IH|o k IH|k IH|]; intros k' h Q H; cbn [pwp pbind] in *; eauto.
Qed.

(** Reading does not touch the handler. *)
Lemma pwp_span f p h (Q : bytes -> handler -> Prop) : forall acc, fin acc -> (forall b, fin b -> Q b h) -> pwp (span f p acc) h Q.
Proof.
  induction f as [|f IH]; intros acc Ha HQ; [exact I|]. cbn [span pwp]. intros c _ Hc. destruct (p c); [|cbn; auto].
  apply IH; [|exact HQ]. apply Forall_app. auto.
Qed.
Lemma pwp_peek h (Q : byte -> handler -> Prop) : (forall c, fine strict c -> Q c h) -> pwp PeekByte h Q.
Proof. intros H. cbn. intros c ok Hc. destruct ok; cbn; [auto|]. apply H. intros _. discriminate. Qed.
Lemma pwp_byte h (Q : byte -> handler -> Prop) : (forall c, fine strict c -> Q c h) -> pwp Byte_ h Q.
Proof. intros H. cbn. intros c ok Hc. auto. Qed.
Lemma pwp_Space F h (Q : Z * byte -> handler -> Prop) : (forall x, Q x h) -> pwp (Space F) h Q.
Proof. intros H. unfold Space. apply pwp_bind, pwp_span; [constructor|]. intros. cbn. auto. Qed.
Lemma pwp_White F h (Q : bool -> handler -> Prop) : (forall x, Q x h) -> pwp (WhiteSpace F) h Q.
Proof. intros H. unfold WhiteSpace. apply pwp_bind, pwp_span; [constructor|]. intros. cbn. auto. Qed.
Lemma pwp_space_max f max h (Q : Z * byte -> handler -> Prop) : forall s t, (forall x, Q x h) -> pwp (space_max f max s t) h Q.
Proof.
  induction f as [|f IH]; intros s t H; [exact I|]. cbn [space_max pwp]. intros c _ _. destruct (negb (is_space c)); [cbn; auto|].
  destruct (if beq c x20 then _ else _) as [s' t']. destruct (_ || _); [cbn; auto|]. apply IH. exact H.
Qed.
Lemma pwp_number f h (Q : bytes -> handler -> Prop) : forall p acc, fin acc -> (forall b, fin b -> Q b h) -> pwp (number_loop f p acc) h Q.
Proof.
  induction f as [|f IH]; intros p acc Ha HQ; [exact I|]. cbn [number_loop pwp]. intros c _ Hc.
  assert (Hacc : fin (acc ++ [c])) by (apply Forall_app; auto).
  destruct (is_digit c); [apply IH; assumption|]. destruct (_ && _); [apply IH; assumption|]. cbn. auto.
Qed.
Lemma pwp_Number F h (Q : option bytes -> handler -> Prop) : (forall b, fin b -> Q (Some b) h) -> Q None h -> pwp (Number_tok F) h Q.
Proof.
  intros HS HN. unfold Number_tok. apply pwp_bind, pwp_peek. intros c Hc. apply pwp_bind.
  assert (Hgo : forall sg, pwp (do buf <- number_loop F false []; Ret (match buf with [] => None | _ => Some (if beq sg "-" then "-"%byte :: buf else buf) end)) h Q).
  { intros sg. apply pwp_bind, pwp_number; [constructor|]. intros b Hb. cbn. destruct b; [exact HN|]. apply HS. destruct (beq sg "-"); [|exact Hb]. constructor; [intros _; discriminate|exact Hb]. }
  destruct (_ || _); [|cbn [pwp]; apply Hgo]. apply pwp_bind, pwp_byte. intros. cbn [pwp]. apply Hgo.
Qed.
Lemma pwp_quoted F f ind q h (Q : option bytes -> handler -> Prop) : (forall b, fin b -> Q (Some b) h) -> Q None h ->
  forall c2 buf, fin buf -> pwp (quoted_loop F f ind q c2 buf) h Q.
Proof.
  intros HS HN. induction f as [|f IH]; intros c2 buf Hb; [exact I|]. cbn [quoted_loop pwp]. intros c _ Hc.
  destruct (is_end c); [exact HN|]. destruct (beq c q && beq q "`"); [apply HS, Hb|]. destruct (beq c q && negb _); [apply HS, Hb|].
  destruct (beq c "\"); [apply IH, Hb|].
  match goal with |- context [?x ++ [c]] => assert (Hx : fin (x ++ [c])) end.
  { apply Forall_app. split; [|auto]. destruct (_ && _); [|exact Hb]. apply Forall_app. split; [exact Hb|]. constructor; [intros _; discriminate|constructor]. }
  destruct (beq c x0a); [|apply IH, Hx]. apply pwp_bind. unfold SpaceMax. apply pwp_space_max. intros x. destruct (beq (snd x) x00); [exact HN|].
  destruct (fst x <? ind); [apply HS, Hx|apply IH, Hx].
Qed.
Lemma pwp_Quoted F ind h (Q : option bytes -> handler -> Prop) : (forall b, fin b -> Q (Some b) h) -> Q None h -> pwp (Quoted F ind) h Q.
Proof.
  intros HS HN. unfold Quoted. apply pwp_bind, pwp_byte. intros c Hc. destruct (negb (is_quote c)); [exact HN|].
  apply pwp_quoted; [assumption..|constructor].
Qed.

(** ** What the events look like *)
Definition types : list bytes := [TypePath; TypeExpression; TypeIndex; TypeSelector; TypeArguments; TypeGroup; TypeString].
Definition is_type (v : value graph) : Prop := exists s, v = VStr s /\ In s types.

(** The last item at level k *)
Fixpoint last_at (k : Z) (l : list (Z * value graph)) : option (value graph) :=
  match l with
  | [] => None
  | (i, v) :: l => match last_at k l with Some w => Some w | None => if i =? k then Some v else None end
  end.
(** The items below level n that may still get subnodes are types *)
Definition open (n : Z) (l : list (Z * value graph)) : Prop := forall k v, k < n -> last_at k l = Some v -> is_type v.
(** What has got subnodes is a type *)
Inductive typed : list (Z * value graph) -> Prop :=
| typed_nil : typed []
| typed_snoc l i w : typed l -> (forall v, last_at (i - 1) l = Some v -> is_type v) -> typed (l ++ [(i, w)]).
Definition named (e : Z * value graph) : Prop := exists s, snd e = VStr s /\ fin s.

Lemma last_at_app k a b : last_at k (a ++ b) = match last_at k b with Some w => Some w | None => last_at k a end.
Proof.
  induction a as [|[i v] a IH]; cbn [app last_at]; [destruct (last_at k b); reflexivity|]. rewrite IH. destruct (last_at k b); reflexivity.
Qed.
Lemma last_at_above n k l : Forall (fun e : Z * value graph => n <= fst e) l -> k < n -> last_at k l = None.
Proof.
  intros H Hk. induction H as [|[i v] l Hi _ IH]; [reflexivity|]. cbn [last_at fst] in *. rewrite IH. destruct (Z.eqb_spec i k); [lia|reflexivity].
Qed.
Lemma open_le n n' l : n' <= n -> open n l -> open n' l.
Proof. intros Hn H k v Hk. apply H. lia. Qed.
Lemma open_app n l l' : open n l -> Forall (fun e => n <= fst e) l' -> open n (l ++ l').
Proof. intros H Hl k v Hk. rewrite last_at_app, (last_at_above n) by assumption. apply H, Hk. Qed.
Lemma typed_front l l' : typed (l ++ l') -> typed l.
Proof.
  induction l' as [|e l' IH] using rev_ind; [rewrite app_nil_r; auto|]. rewrite app_assoc. intros H. apply IH.
  inversion H as [Hn|l0 i w H1 H2 He]; [destruct l; destruct l'; discriminate|]. apply app_inj_tail in He. destruct He as [<- _]. exact H1.
Qed.
Lemma typed_last l i w : typed (l ++ [(i, w)]) -> forall v, last_at (i - 1) l = Some v -> is_type v.
Proof.
  intros H. inversion H as [Hn|l0 j x H1 H2 He]; [destruct l; discriminate|]. apply app_inj_tail in He. destruct He as [<- He]. injection He as <- <-. exact H2.
Qed.

Definition good0 (h : handler) : Prop := h_inv h /\ typed (evs h) /\ Forall named (evs h).
Definition good (h : handler) : Prop := good0 h /\ open (cur h) (evs h).
Definition ext (n : Z) (h h' : handler) : Prop := exists new, evs h' = evs h ++ new /\ Forall (fun e => n <= fst e) new.
Definition post (h : handler) (h' : handler) : Prop := good h' /\ cur h <= cur h' /\ ext (cur h) h h'.

Lemma ext_refl n h h' : evs h' = evs h -> ext n h h'.
Proof. intros H. exists []. rewrite H, app_nil_r. auto. Qed.
Lemma ext_trans n n' h h' h'' : n <= n' -> ext n h h' -> ext n' h' h'' -> ext n h h''.
Proof.
  intros Hn (a & Ea & Ha) (b & Eb & Hb). exists (a ++ b). rewrite Eb, Ea, app_assoc. split; [reflexivity|]. apply Forall_app. split; [exact Ha|].
  eapply Forall_impl; [|exact Hb]. cbn. lia.
Qed.
Lemma ext_le n n' h h' : n <= n' -> ext n' h h' -> ext n h h'.
Proof. intros Hn (a & Ea & Ha). exists a. split; [exact Ea|]. eapply Forall_impl; [|exact Ha]. cbn. lia. Qed.
Lemma post_refl h : good h -> post h h.
Proof. intros H. split; [exact H|]. split; [lia|]. apply ext_refl. reflexivity. Qed.
Lemma post_trans h h' h'' : post h h' -> post h' h'' -> post h h''.
Proof. intros (H1 & H2 & H3) (K1 & K2 & K3). split; [exact K1|]. split; [lia|]. eapply ext_trans; eassumption. Qed.

(** The steps *)
Lemma good_emit s h : good h -> fin s -> post h (h_add (VStr s) h) /\ cur (h_add (VStr s) h) = cur h /\ last_at (cur h) (evs (h_add (VStr s) h)) = Some (VStr s).
Proof.
  intros ((Hi & Ht & Hn) & Ho) Hs. split; [|split; [reflexivity|cbn [h_add evs]; rewrite last_at_app; cbn; rewrite Z.eqb_refl; reflexivity]].
  split; [|split; [cbn; lia|]].
  - split; [split; [|split]|].
    + eapply (h_step_inv (HAdd (VStr s))); [exact I|exact Hi|reflexivity].
    + cbn. constructor; [exact Ht|]. intros v Hv. eapply Ho; [|exact Hv]. lia.
    + cbn. apply Forall_app. split; [exact Hn|]. constructor; [exists s; auto|constructor].
    + cbn. apply open_app; [exact Ho|]. constructor; [cbn; lia|constructor].
  - exists [(cur h, VStr s)]. split; [reflexivity|]. constructor; [cbn; lia|constructor].
Qed.
Lemma good_inc h : good h -> (forall v, last_at (cur h) (evs h) = Some v -> is_type v) -> post h (h_inc h) /\ cur (h_inc h) = cur h + 1.
Proof.
  intros ((Hi & Ht & Hn) & Ho) Hl. split; [|reflexivity]. split; [|split; [cbn; lia|apply ext_refl; reflexivity]].
  split; [split; [|split]|]; [|exact Ht|exact Hn|].
  - eapply (h_step_inv HInc); [exact I|exact Hi|reflexivity].
  - cbn. intros k v Hk Hv. destruct (Z.eq_dec k (cur h)) as [->|]; [auto|]. eapply Ho; [|exact Hv]. lia.
Qed.
Lemma good_set n h h0 : good h -> 0 <= n <= cur h -> cur h0 <= n -> ext (cur h0) h0 h -> post h0 (h_set_level n h) /\ cur (h_set_level n h) = n.
Proof.
  intros ((Hi & Ht & Hn) & Ho) Hl Hc He. split; [|reflexivity]. split; [|split; [cbn; lia|exact He]].
  split; [split; [|split]|]; [|exact Ht|exact Hn|].
  - eapply (h_step_inv (HSetLevel n)); [cbn; lia|exact Hi|reflexivity].
  - cbn. eapply open_le; [|exact Ho]. lia.
Qed.
Lemma good_set0 n h : good0 h -> open n (evs h) -> 0 <= n -> good (h_set_level n h).
Proof.
  intros (Hi & Ht & Hn) Ho H0. split; [split; [|split]|]; [|exact Ht|exact Hn|exact Ho]. eapply (h_step_inv (HSetLevel n)); [exact H0|exact Hi|reflexivity].
Qed.
Lemma good_dec h h0 : good h -> 0 <= cur h0 -> cur h0 + 1 <= cur h -> ext (cur h0) h0 h -> post h0 (h_dec h) /\ cur (h_dec h) = cur h - 1.
Proof.
  intros ((Hi & Ht & Hn) & Ho) H0 Hc He. assert (Ec : cur (h_dec h) = cur h - 1) by (cbn; destruct (Z.ltb_spec 0 (cur h)); lia). split; [|exact Ec].
  split; [|split; [lia|exact He]].
  split; [split; [|split]|]; [|exact Ht|exact Hn|].
  - eapply (h_step_inv HDec); [exact I|exact Hi|reflexivity].
  - rewrite Ec. eapply open_le; [|exact Ho]. lia.
Qed.
Lemma good_cur h : good h -> 0 <= cur h.
Proof. intros (((H & _) & _) & _). lia. Qed.

Lemma pwp_emit s h (Q : unit -> handler -> Prop) : Q tt (h_add (VStr s) h) -> pwp (emit s) h Q.
Proof. intros H. cbn. intros h' [= <-]. exact H. Qed.
Lemma pwp_inc h (Q : unit -> handler -> Prop) : Q tt (h_inc h) -> pwp (ev HInc) h Q.
Proof. intros H. cbn. intros h' [= <-]. exact H. Qed.
Lemma pwp_dec h (Q : unit -> handler -> Prop) : Q tt (h_dec h) -> pwp (ev HDec) h Q.
Proof. intros H. cbn. intros h' [= <-]. exact H. Qed.
Lemma pwp_set n h (Q : unit -> handler -> Prop) : Q tt (h_set_level n h) -> pwp (ev (HSetLevel n)) h Q.
Proof. intros H. cbn. intros h' [= <-]. exact H. Qed.

Lemma fin_type s : In s types -> fin s.
Proof. cbn. intros H. decompose [or] H; subst; try contradiction; repeat (constructor; [intros _; discriminate|]); constructor. Qed.

(** A node of a type is opened. *)
Lemma pwp_open {A} s h (k : prog A) Q : good h -> In s types -> (forall h', post h h' -> cur h' = cur h + 1 -> evs h' = evs h ++ [(cur h, VStr s)] -> pwp k h' Q) ->
  pwp (skip emit s; skip ev HInc; k) h Q.
Proof.
  intros Hg Hs Hk. destruct (good_emit s h Hg (fin_type _ Hs)) as (H1 & H2 & H3). apply pwp_bind, pwp_emit. apply pwp_bind, pwp_inc.
  destruct (good_inc _ (proj1 H1)) as (H4 & H5).
  { rewrite H2, H3. intros v [= <-]. exists s. auto. }
  apply Hk; [eapply post_trans; eassumption|rewrite H5, H2; reflexivity|reflexivity].
Qed.

(** arg_loop: what is needed to close at level n *)
Definition apost (n : Z) (h h' : handler) : Prop := good0 h' /\ open n (evs h') /\ ext n h h'.

Section Flow.
Variable F : nat.
Definition P1 (f : nat) : Prop := forall h, good h -> pwp (Expression F f) h (fun _ => post h).
Definition P2 (f : nat) : Prop := forall h, good h -> pwp (expr_loop F f) h (fun _ => post h).
Definition P3 (f : nat) : Prop := forall h, good h -> pwp (UnaryExpression F f) h (fun _ => post h).
Definition P4 (f : nat) : Prop := forall b d a h, good h -> pwp (path_loop F f b d a) h (fun _ => post h).
Definition P5 (f : nat) : Prop := forall l r t h, In t types -> good h -> pwp (bracket F f l r t) h (fun _ => post h).
Definition P6 (f : nat) : Prop := forall n s h, 0 <= n <= cur h -> good h -> pwp (arg_loop F f n s) h (fun _ => apost n h).
Definition P7 (f : nat) : Prop := forall d h, good h -> pwp (Args F f d) h (fun _ => post h).

Lemma flow_P f : P1 f /\ P2 f /\ P3 f /\ P4 f /\ P5 f /\ P6 f /\ P7 f.
Proof.
  induction f as [|f (I1 & I2 & I3 & I4 & I5 & I6 & I7)]; [repeat split; intros; exact I|].
  split; [|split; [|split; [|split; [|split; [|split]]]]].
  - intros h Hh. cbn [Expression]. apply pwp_bind. eapply pwp_mono; [|apply I3, Hh]. intros [|] h1 H1; [|exact H1].
    eapply pwp_mono; [|apply I2, H1]. intros ? h2 H2. eapply post_trans; eassumption.
  - intros h Hh. cbn [expr_loop]. apply pwp_bind, pwp_Space. intros _. apply pwp_bind. unfold Operator. apply pwp_span; [constructor|]. intros o Ho.
    destruct o as [|c o]; [apply post_refl, Hh|]. apply pwp_bind, pwp_emit. destruct (good_emit (c :: o) h Hh Ho) as (H1 & _). set (h1 := h_add _ _) in *. clearbody h1.
    apply pwp_bind, pwp_Space. intros _. apply pwp_bind. eapply pwp_mono; [|apply I3, H1]. intros b h2 H2. assert (H3 : post h h2) by (eapply post_trans; eassumption).
    destruct b; [|exact H3]. apply pwp_bind, pwp_Space. intros _. eapply pwp_mono; [|apply I2, H3]. intros ? h4 H4. eapply post_trans; eassumption.
  - intros h Hh. pose proof (good_cur h Hh) as H0. cbn [UnaryExpression]. apply pwp_bind, pwp_peek. intros c _. destruct (is_letter c).
    { apply pwp_open; [exact Hh|cbn; tauto|]. intros h1 H1 C1 E1. apply pwp_bind. eapply pwp_mono; [|apply I4, H1]. intros ? h2 H2.
      apply pwp_bind, pwp_dec. cbn [pwp]. assert (H3 : post h h2) by (eapply post_trans; eassumption). apply good_dec; [apply H3|exact H0| |apply H3]. destruct H2 as (_ & H2 & _). lia. }
    apply pwp_bind, pwp_Number.
    { intros b Hb. apply pwp_bind, pwp_emit. apply (good_emit b h Hh Hb). }
    apply pwp_bind, pwp_Quoted.
    { intros b Hb. apply pwp_open; [exact Hh|cbn; tauto|]. intros h1 H1 C1 E1. apply pwp_bind, pwp_emit. destruct (good_emit b h1 (proj1 H1) Hb) as (H2 & C2 & _).
      apply pwp_bind, pwp_dec. cbn [pwp]. assert (H3 : post h (h_add (VStr b) h1)) by (eapply post_trans; eassumption). apply good_dec; [apply H3|exact H0| |apply H3]. lia. }
    apply pwp_bind. unfold Operator. apply pwp_span; [constructor|]. intros o Ho. apply pwp_bind.
    assert (Hgo : forall h1, post h h1 -> pwp (do c <- PeekByte;
        if beq c "(" then
          skip Byte_; skip emit TypeGroup; skip ev HInc; skip Space F; skip Expression F f; skip Space F; skip ev HDec;
          do c <- PeekByte;
          if negb (beq c ")") then Ret false else skip Byte_; Ret true
        else path_loop F f true true false) h1 (fun _ => post h)).
    { intros h1 H1. apply pwp_bind, pwp_peek. intros c1 _. destruct (beq c1 "(").
      - apply pwp_bind, pwp_byte. intros _ _. apply pwp_open; [apply H1|cbn; tauto|]. intros h2 H2 C2 E2. apply pwp_bind, pwp_Space. intros _.
        apply pwp_bind. eapply pwp_mono; [|apply I1, H2]. intros ? h3 H3. apply pwp_bind, pwp_Space. intros _. apply pwp_bind, pwp_dec.
        assert (H4 : post h (h_dec h3)).
        { assert (H5 : post h h3) by (eapply post_trans; [exact H1|eapply post_trans; eassumption]). apply good_dec; [apply H5|exact H0| |apply H5]. destruct H1 as (_ & H1 & _), H3 as (_ & H3 & _). lia. }
        apply pwp_bind, pwp_peek. intros c2 _. destruct (negb _); [exact H4|]. apply pwp_bind, pwp_byte. intros _ _. exact H4.
      - eapply pwp_mono; [|apply I4, H1]. intros ? h2 H2. eapply post_trans; eassumption. }
    destruct o as [|c1 o]; [apply Hgo, post_refl, Hh|]. apply pwp_emit. apply Hgo. apply (good_emit (c1 :: o) h Hh Ho).
  - intros b d a h Hh. cbn [path_loop]. apply pwp_bind.
    match goal with |- pwp _ _ ?Q => assert (Hgo : forall go, Q go h) end.
    2:{ destruct b; [cbn [pwp]; apply (Hgo (Some d))|]. apply pwp_bind, pwp_byte. intros c _. destruct (beq c "."); [exact (Hgo (Some true))|]. cbn [pwp]. destruct (beq c "[" || beq c "(" || beq c "{"); [exact (Hgo (Some false))|exact (Hgo None)]. }
    intros [dot|]; [|apply post_refl, Hh]. apply pwp_bind, pwp_Quoted.
    { intros q Hq. apply pwp_bind, pwp_emit. destruct (good_emit q h Hh Hq) as (H1 & _). eapply pwp_mono; [|apply I4, H1]. intros ? h2 H2. eapply post_trans; eassumption. }
    cbn [pwp]. intros t Ht. destruct t as [|c t].
    2:{ apply pwp_bind, pwp_emit. destruct (good_emit (c :: t) h Hh Ht) as (H1 & _). eapply pwp_mono; [|apply I4, H1]. intros ? h2 H2. eapply post_trans; eassumption. }
    assert (Hnext : forall h1, post h h1 -> pwp (path_loop F f false dot true) h1 (fun _ => post h)).
    { intros h1 H1. eapply pwp_mono; [|apply I4, H1]. intros ? h2 H2. eapply post_trans; eassumption. }
    apply pwp_bind. eapply pwp_mono; [|apply I5; [|exact Hh]; cbn; tauto]. intros [|] h1 H1; [apply Hnext, H1|].
    apply pwp_bind. eapply pwp_mono; [|apply I5; [|apply H1]; cbn; tauto]. intros i h2 H2. assert (H3 : post h h2) by (eapply post_trans; eassumption). destruct i; [apply Hnext, H3|].
    apply pwp_bind. eapply pwp_mono; [|apply I7, H2]. intros i h4 H4. assert (H5 : post h h4) by (eapply post_trans; eassumption). destruct i; [apply Hnext, H5|exact H5].
  - intros l r t h Ht Hh. pose proof (good_cur h Hh) as H0. cbn [bracket]. apply pwp_bind, pwp_peek. intros c _. destruct (negb _); [apply post_refl, Hh|].
    apply pwp_bind, pwp_byte. intros _ _. apply pwp_bind. cbn [Level pwp]. apply pwp_open; [exact Hh|exact Ht|]. intros h1 H1 C1 E1.
    apply pwp_bind, pwp_Space. intros _. apply pwp_bind. eapply pwp_mono; [|apply I1, H1]. intros ? h2 H2. apply pwp_bind, pwp_Space. intros _.
    assert (H3 : post h h2) by (eapply post_trans; eassumption). apply pwp_bind, pwp_peek. intros c1 _. destruct (negb _); [exact H3|].
    apply pwp_bind, pwp_byte. intros _ _. apply pwp_bind, pwp_set. cbn [pwp]. apply good_set; [apply H3| |lia|apply H3]. destruct H3 as (_ & H3 & _). lia.
  - intros n s h Hn Hh. cbn [arg_loop]. apply pwp_bind, pwp_White. intros _. apply pwp_open; [exact Hh|cbn; tauto|]. intros h1 H1 C1 E1.
    apply pwp_bind. eapply pwp_mono; [|apply I1, H1]. intros b h2 H2. assert (H3 : post h h2) by (eapply post_trans; eassumption).
    assert (Hd : post h (h_dec h2) /\ cur (h_dec h2) = cur h2 - 1).
    { apply good_dec; [apply H3|lia| |apply H3]. destruct H2 as (_ & H2 & _). lia. }
    destruct Hd as [Hd Cd]. destruct b; cbn [negb].
    + apply pwp_bind, pwp_dec. apply pwp_bind, pwp_White. intros _. apply pwp_bind, pwp_peek. intros c _.
      assert (Hap : forall h', post h h' -> apost n h h').
      { intros h' ((Hg & Ho) & Hc & Hx). split; [exact Hg|]. split; [eapply open_le; [|exact Ho]; lia|eapply ext_le; [|exact Hx]; lia]. }
      destruct (beq c ")"); [apply Hap, Hd|].
      assert (Htr : forall h' h'', evs h' = evs (h_dec h2) -> apost n h' h'' -> apost n h h'').
      { intros h' h'' Ee (K1 & K2 & K3). split; [exact K1|]. split; [exact K2|]. apply ext_trans with (n' := n) (h' := h'); [lia| |exact K3]. unfold ext. rewrite Ee. apply Hap, Hd. }
      destruct (beq c ",").
      * apply pwp_bind, pwp_byte. intros _ _. apply pwp_bind, pwp_set. eapply pwp_mono; [|apply I6; [cbn; lia|]].
        -- intros ? h4 H4. eapply Htr; [|exact H4]. reflexivity.
        -- apply good_set0; [apply Hd| |lia]. destruct Hd as ((_ & Ho) & Hc & _). eapply open_le; [|exact Ho]. lia.
      * apply pwp_bind, pwp_inc. assert (Hi : good (h_inc (h_dec h2))).
        { apply good_inc; [apply Hd|]. intros v Hv. destruct H2 as ((_ & Ho) & _). eapply Ho; [|exact Hv]. lia. }
        eapply pwp_mono; [|apply I6; [|exact Hi]].
        -- intros ? h4 H4. eapply Htr; [|exact H4]. reflexivity.
        -- destruct Hd as (_ & Hc & _). cbn [h_inc cur]. lia.
    + apply pwp_bind, pwp_dec. apply pwp_bind. cbn [ev pwp]. intros h4 Hdel. cbn [h_step] in Hdel.
      assert (Hx : exists new, evs (h_dec h2) = evs h ++ new /\ new <> [] /\ Forall (fun e => n <= fst e) new).
      { destruct H2 as (_ & _ & (new & En & Hnew)). exists ((cur h, VStr TypeExpression) :: new). cbn [h_dec evs]. rewrite En, E1, <- app_assoc. split; [reflexivity|]. split; [discriminate|].
        constructor; [cbn; lia|]. eapply Forall_impl; [|exact Hnew]. cbn. lia. }
      destruct Hx as (new & En & Hne & Hnew).
      assert (Hd4 : evs h4 = evs h ++ removelast new).
      { unfold h_delete in Hdel. rewrite En in Hdel. destruct (evs h ++ new) eqn:El; [destruct (evs h); [destruct new; [congruence|discriminate]|discriminate]|]. injection Hdel as <-. cbn [evs]. rewrite <- (removelast_app _ Hne), El. reflexivity. }
      assert (Hnr : Forall (fun e => n <= fst e) (removelast new)) by (apply Forall_removelast, Hnew).
      destruct Hd as (((Hi & Ht & Hna) & Ho) & Hc & _). destruct Hh as ((Hi0 & Ht0 & Hn0) & Ho0).
      split; [split; [|split]|split].
      * eapply (h_step_inv HDelete); [exact I|exact Hi|exact Hdel].
      * rewrite Hd4. apply (typed_front _ [List.last new (0, VNil)]). rewrite <- app_assoc, <- app_removelast_last by exact Hne. rewrite <- En. exact Ht.
      * rewrite Hd4. rewrite En in Hna. apply Forall_app in Hna. destruct Hna as [Ha Hb]. apply Forall_app. split; [exact Ha|apply Forall_removelast, Hb].
      * rewrite Hd4. apply open_app; [|exact Hnr]. eapply open_le; [|exact Ho0]. lia.
      * exists (removelast new). auto.
  - intros d h Hh. pose proof (good_cur h Hh) as H0. cbn [Args]. apply pwp_bind, pwp_peek. intros c _. destruct (negb _); [apply post_refl, Hh|].
    apply pwp_bind, pwp_byte. intros _ _. apply pwp_bind. cbn [Level pwp]. apply pwp_open; [exact Hh|destruct d; cbn; tauto|]. intros h1 H1 C1 E1.
    apply pwp_bind, pwp_White. intros _. apply pwp_bind. cbn [Level pwp]. apply pwp_bind. eapply pwp_mono; [|apply I6; [lia|apply H1]]. intros ? h2 (K1 & K2 & K3).
    apply pwp_bind, pwp_set. set (h3 := h_set_level (cur h1) h2).
    assert (H3 : post h h3).
    { split; [apply good_set0; [exact K1|exact K2|lia]|]. split; [cbn; lia|]. apply ext_trans with (n' := cur h1) (h' := h1); [lia|apply H1|exact K3]. }
    apply pwp_bind, pwp_White. intros _. apply pwp_bind, pwp_peek. intros c1 _. destruct (negb _); [exact H3|].
    apply pwp_bind, pwp_byte. intros _ _. apply pwp_bind, pwp_set. cbn [pwp]. apply good_set; [apply H3| |lia|apply H3]. destruct H3 as (_ & H3 & _). lia.
Qed.
End Flow.

Lemma good_init : good h_init.
Proof. split; [split; [exact h_init_inv|split; [constructor|constructor]]|]. intros k v _ H. discriminate. Qed.

(** Templates *)
Lemma good_Variable F h : good h -> pwp (Variable_ F) h (fun _ => post h).
Proof.
  intros Hh. pose proof (good_cur h Hh) as H0. destruct (flow_P F F) as (I1 & _ & _ & I4 & _). unfold Variable_. apply pwp_bind, pwp_byte. intros c _. destruct (negb _); [apply post_refl, Hh|].
  apply pwp_bind, pwp_byte. intros c1 _. destruct (beq c1 "\").
  { apply pwp_bind, pwp_emit. apply good_emit; [exact Hh|]. constructor; [intros _; discriminate|constructor]. }
  cbn [pwp]. apply pwp_bind. cbn [Level pwp]. apply pwp_bind, pwp_byte. intros c2 _. apply pwp_bind.
  match goal with |- pwp _ _ ?Q => assert (Hgo : forall h1, post h h1 -> Q tt h1) end.
  { intros h1 H1. apply pwp_bind, pwp_set. cbn [pwp]. apply good_set; [apply H1| |lia|apply H1]. destruct H1 as (_ & H1 & _). lia. }
  destruct (beq c2 "(").
  - apply pwp_open; [exact Hh|cbn; tauto|]. intros h1 H1 C1 E1. apply pwp_bind. eapply pwp_mono; [|apply I1, H1]. intros ? h2 H2.
    apply pwp_bind, pwp_Space. intros _. apply pwp_bind, pwp_byte. intros _ _. apply Hgo. eapply post_trans; eassumption.
  - apply pwp_open; [exact Hh|cbn; tauto|]. intros h1 H1 C1 E1. apply pwp_bind.
    assert (Hp : pwp (skip Path F F; if beq c2 "{" then skip Space F; skip Byte_; Ret tt else Ret tt) h1 (fun x h' => pwp (skip ev (HSetLevel (cur h)); Ret true) h' (fun _ => post h))).
    { apply pwp_bind. eapply pwp_mono; [|apply I4, H1]. intros ? h2 H2. assert (H3 : post h h2) by (eapply post_trans; eassumption).
      destruct (beq c2 "{"); [apply pwp_bind, pwp_Space; intros _; apply pwp_bind, pwp_byte; intros _ _|]; apply Hgo, H3. }
    destruct (beq c2 "{"); [apply pwp_bind, pwp_Space; intros _|]; exact Hp.
Qed.
Lemma good_Template F f : forall h, good h -> pwp (Template F f) h (fun _ => good).
Proof.
  induction f as [|f IH]; intros h Hh; [exact I|]. cbn [Template]. apply pwp_bind. unfold TemplateText. apply pwp_span; [constructor|]. intros t Ht. destruct t as [|c t].
  - apply pwp_bind. eapply pwp_mono; [|apply good_Variable, Hh]. intros b h1 H1. destruct b; [apply IH, H1|apply H1].
  - apply pwp_bind, pwp_emit. apply IH. apply (good_emit (c :: t) h Hh Ht).
Qed.

(** ** The buffer holds bytes of the text, or 0 *)
Definition lexok (x : lexer) : Prop := fin (buf x) /\ Forall (fun d : bytes * bool => fin (fst d)) (rd x).

Lemma Forall_firstn_ {A} (P : A -> Prop) n l : Forall P l -> Forall P (firstn n l).
Proof. intros H. rewrite <- (firstn_skipn n l) in H. apply Forall_app in H. apply H. Qed.
Lemma Forall_skipn_ {A} (P : A -> Prop) n l : Forall P l -> Forall P (skipn n l).
Proof. intros H. rewrite <- (firstn_skipn n l) in H. apply Forall_app in H. apply H. Qed.
Lemma fine_put off d b : fin d -> fin b -> fin (Buffer.put off d b).
Proof. intros Hd Hb. unfold Buffer.put. rewrite !Forall_app. auto using Forall_firstn_, Forall_skipn_. Qed.
Lemma fine_read k r d e r' : rd_read k r = (d, e, r') -> Forall (fun d : bytes * bool => fin (fst d)) r -> fin d /\ Forall (fun d : bytes * bool => fin (fst d)) r'.
Proof.
  unfold rd_read. intros H Hr. destruct r as [|[d0 e0] r]; [injection H as <- _ <-; auto|]. inversion Hr as [|? ? Hd Hr']; subst. cbn [fst] in Hd.
  destruct (_ <=? _); [destruct e0|]; injection H as <- <- <-; auto using Forall_firstn_. split; [auto using Forall_firstn_|]. constructor; [cbn; auto using Forall_skipn_|exact Hr'].
Qed.
Lemma fine_fill_loop i : forall b r off b' r' off', fill_loop i b r off = (b', r', off') -> fin b -> Forall (fun d : bytes * bool => fin (fst d)) r -> fin b' /\ Forall (fun d : bytes * bool => fin (fst d)) r'.
Proof.
  induction i as [|i IH]; intros b r off b' r' off' H Hb Hr; cbn [fill_loop] in H; [injection H as <- <- _; auto|].
  destruct (rd_read _ r) as [[d e] r1] eqn:E. destruct (fine_read _ _ _ _ _ E Hr) as [Hd H1]. pose proof (fine_put off d b Hd Hb) as Hp.
  destruct e; [injection H as <- <- _; auto|]. destruct (halfSize <=? _); [injection H as <- <- _; auto|]. eapply IH; eassumption.
Qed.
Lemma lexok_fill x : lexok x -> lexok (fill x).
Proof.
  intros [Hb Hr]. unfold fill. destruct (_ && _); [split; assumption|]. 
  destruct (0 <=? r_ x).
  - set (up := skipn _ _). assert (Hup : fin (up ++ up)) by (apply Forall_app; split; apply Forall_skipn_, Hb). destruct (fill_loop 100 (up ++ up) (rd x) halfSize) as [[b r] o] eqn:E. exact (fine_fill_loop _ _ _ _ _ _ _ E Hup Hr).
  - destruct (fill_loop 100 (buf x) (rd x) 0) as [[b r] o] eqn:E. exact (fine_fill_loop _ _ _ _ _ _ _ E Hb Hr).
Qed.
Lemma lexok_pos x r l : lexok x -> lexok (mkX (buf x) (rd x) r l).
Proof. auto. Qed.
Lemma fine_zget l i c : fin l -> zget l i = Ok c -> fine strict c.
Proof.
  unfold zget. intros H. destruct (i <? 0); [discriminate|]. destruct (nth_error l (Z.to_nat i)) eqn:E; [|discriminate]. intros [= <-].
  rewrite Forall_forall in H. apply H. eapply nth_error_In. exact E.
Qed.
Lemma lexok_byte x c ok x' : b_byte x = Ok (c, ok, x') -> lexok x -> fine strict c /\ lexok x'.
Proof.
  unfold b_byte. intros H Hx. destruct (_ && _); [injection H as <- _ <-; split; [intros _; discriminate|apply lexok_pos, Hx]|].
  destruct (zget (buf x) (r_ x)) as [c0| |] eqn:E; cbn [rbind] in H; try discriminate. injection H as <- _ <-.
  split; [eapply fine_zget; [apply Hx|exact E]|]. apply lexok_fill, Hx.
Qed.
Lemma decode_high c s : 0x80 <= bz c -> 0x80 <= fst (decode_rune (c :: s)) < 0x110000.
Proof.
  intros H. pose proof (bz_range c). unfold decode_rune. replace (bz c <? 0x80) with false by lia.
  destruct (Z.ltb_spec (bz c) 0xC2); [cbn; lia|]. unfold cont.
  destruct (Z.ltb_spec (bz c) 0xE0).
  { destruct s as [|c1 s]; [cbn; lia|]. destruct (_ && _) eqn:Ec; [|cbn; lia]. cbn [fst]. apply andb_prop in Ec. lia. }
  destruct (Z.ltb_spec (bz c) 0xF0).
  { destruct s as [|c1 [|c2 s]]; [cbn; lia..|]. destruct (_ && _) eqn:Ec; [|cbn; lia]. cbn [fst]. repeat match goal with H : (_ && _) = true |- _ => apply andb_prop in H; destruct H end. destruct (Z.eqb_spec (bz c) 0xE0); destruct (bz c =? 0xED); lia. }
  destruct (Z.ltb_spec (bz c) 0xF5); [|cbn; lia].
  destruct s as [|c1 [|c2 [|c3 s]]]; [cbn; lia..|]. destruct (_ && _) eqn:Ec; [|cbn; lia]. cbn [fst]. repeat match goal with H : (_ && _) = true |- _ => apply andb_prop in H; destruct H end. destruct (Z.eqb_spec (bz c) 0xF0); destruct (Z.eqb_spec (bz c) 0xF4); lia.
Qed.
Lemma fine_high z : 0x80 <= z < 256 -> fine strict (zb z).
Proof. intros H _ E. assert (Hz : bz (zb z) = 61) by (rewrite E; reflexivity). rewrite bz_zb, Z.mod_small in Hz; lia. Qed.
Lemma fine_encode r : 0x80 <= r < 0x110000 -> fin (encode_rune r).
Proof.
  intros H. unfold encode_rune. replace (r <? 0x80) with false by lia.
  destruct (Z.ltb_spec r 0x800); [|destruct (Z.ltb_spec r 0x10000)]; repeat (apply Forall_cons; [apply fine_high; Z.to_euclidean_division_equations; lia|]); constructor.
Qed.
Lemma lexok_rune x r n x' : b_rune x = Ok (r, n, x') -> lexok x -> fin (encode_rune r) /\ lexok x'.
Proof.
  unfold b_rune. intros H Hx. apply lexok_fill in Hx. set (y := fill x) in *. clearbody y. destruct (zget (buf y) (r_ y)) as [c| |] eqn:E; cbn [rbind] in H; try discriminate.
  assert (Hc : fine strict c) by (eapply fine_zget; [apply Hx|exact E]). unfold encode_rune in *.
  destruct (Z.ltb_spec (bz c) 0x80).
  { cbn [rbind] in H. injection H as <- <- <-. split; [|apply lexok_pos, Hx]. replace (bz c <? 0x80) with true by lia. rewrite zb_bz. constructor; [exact Hc|constructor]. }
  destruct (last y <? r_ y); [discriminate|]. cbn [rbind] in H. destruct (decode_rune _) as [r0 n0] eqn:Ed. injection H as <- <- <-. split; [|apply lexok_pos, Hx].
  apply fine_encode. destruct (skipn (Z.to_nat (r_ y)) (firstn (Z.to_nat (last y)) (buf y))) as [|c1 s1] eqn:Es; [injection Ed as <- _; lia|].
  assert (c1 = c).
  { unfold zget in E. destruct (r_ y <? 0); [discriminate|]. destruct (nth_error (buf y) (Z.to_nat (r_ y))) as [c2|] eqn:En; [|discriminate]. injection E as ->.
    assert (H1 : nth_error (firstn (Z.to_nat (last y)) (buf y)) (Z.to_nat (r_ y)) = Some c1).
    { rewrite <- (firstn_skipn (Z.to_nat (r_ y)) (firstn (Z.to_nat (last y)) (buf y))), Es. rewrite nth_error_app2; [|apply firstn_le_length]. 
      rewrite firstn_length_le; [rewrite Nat.sub_diag; reflexivity|]. destruct (le_lt_dec (Z.to_nat (r_ y)) (List.length (firstn (Z.to_nat (last y)) (buf y)))); [assumption|]. rewrite skipn_all2 in Es by lia. discriminate. }
    assert (H2 : nth_error (buf y) (Z.to_nat (r_ y)) = Some c1).
    { rewrite <- (firstn_skipn (Z.to_nat (last y)) (buf y)). rewrite nth_error_app1; [exact H1|]. apply nth_error_Some. congruence. }
    congruence. }
  subst. pose proof (decode_high c s1 ltac:(lia)) as Hd. rewrite Ed in Hd. exact Hd.
Qed.
Lemma lexok_token E f : forall tok x t x', b_token E f tok x = Ok (t, x') -> fin tok -> lexok x -> fin t /\ lexok x'.
Proof.
  induction f as [|f IH]; intros tok x t x' H Ht Hx; cbn [b_token] in H; [discriminate|].
  destruct (b_rune x) as [[[r n] x1]| |] eqn:E1; cbn [rbind] in H; try discriminate. destruct (lexok_rune _ _ _ _ E1 Hx) as [Hr Hx1].
  destruct (token_rune E r); [|injection H as <- <-; split; [exact Ht|apply lexok_pos, Hx1]]. eapply IH; [exact H| |exact Hx1]. apply Forall_app. auto.
Qed.
Lemma run_pwp {A} E f (m : prog A) : forall x h Q a x' h', pwp m h Q -> lexok x -> run_buf E f m x h = Ok (a, x', h') -> Q a h'.
Proof.
  induction m as [a0|k IH|k IH|k IH|o k IH|k IH|]; intros x h Q a x' h' Hm Hx H; cbn [run_buf pwp] in *.
  - injection H as <- _ <-. exact Hm.
  - destruct (b_byte x) as [[[c ok] x1]| |] eqn:E1; cbn [rbind] in H; try discriminate. destruct (lexok_byte _ _ _ _ E1 Hx). eapply IH; eauto.
  - eapply IH; [exact Hm| |exact H]. unfold b_unread. destruct (r_ x <=? 0); [exact Hx|apply lexok_pos, Hx].
  - destruct (b_token E f [] x) as [[t x1]| |] eqn:E1; cbn [rbind] in H; try discriminate. destruct (lexok_token _ _ _ _ _ _ E1 ltac:(constructor) Hx). eapply IH; eauto.
  - destruct (h_step o h) as [h1| |] eqn:E1; cbn [rbind] in H; try discriminate. eapply IH; eauto.
  - eapply IH; eauto.
  - discriminate.
Qed.
Lemma lexok_new s : fin s -> lexok (NewLexer (bytes_reader s)).
Proof.
  intros Hs. unfold NewLexer. apply lexok_fill. split; cbn [buf rd].
  - apply Forall_forall. intros c Hc. apply repeat_spec in Hc. subst. intros _. discriminate.
  - unfold bytes_reader. destruct s; constructor; [exact Hs|constructor].
Qed.

(** ** The tree *)
(** What has subnodes is a type, and all contents are [fin] *)
Inductive tame : option graph -> Prop :=
| tame_node s o : (o <> [] -> In s types) -> fin s -> Forall tame o -> tame (Some (Node (VStr s) o)).

Lemma forest_first l evs : forest (l + 1) evs <> [] -> exists mid w r, evs = mid ++ (l + 1, w) :: r /\ last_at l mid = None.
Proof.
  induction evs as [|[i v] evs IH]; cbn [forest]; [congruence|]. destruct (Z.eqb_spec i (l + 1 - 1)); [congruence|]. destruct (Z.eqb_spec i (l + 1)) as [->|Hn].
  - intros _. exists [], v, evs. split; reflexivity.
  - intros H. destruct (IH H) as (mid & w & r & -> & Hm). exists ((i, v) :: mid), w, r. split; [reflexivity|]. cbn [last_at]. rewrite Hm. destruct (Z.eqb_spec i l); [lia|reflexivity].
Qed.
Lemma forest_tame l : forall a b, typed (a ++ b) -> Forall named b -> Forall tame (map Some (forest l b)).
Proof.
  intros a b. revert l a. induction b as [|[i v] b IH]; intros l a Ht Hn; [constructor|]. inversion Hn as [|? ? Hv Hn']; subst. destruct Hv as (s & Hs & Hfs). cbn [snd] in Hs. subst v.
  assert (Ht' : typed ((a ++ [(i, VStr s)]) ++ b)) by (rewrite <- app_assoc; exact Ht).
  cbn [forest]. destruct (i =? l - 1); [constructor|]. destruct (Z.eqb_spec i l) as [->|]; [|eapply IH; eassumption].
  cbn [map]. constructor; [|eapply IH; eassumption]. constructor; [|exact Hfs|eapply IH; eassumption].
  intros Hne. assert (Hne' : forest (l + 1) b <> []) by (intros E; apply Hne; rewrite E; reflexivity). destruct (forest_first _ _ Hne') as (mid & w & r & -> & Hm).
  assert (Hx : typed ((a ++ (l, VStr s) :: mid) ++ [(l + 1, w)])).
  { apply (typed_front _ r). rewrite <- !app_assoc. cbn [app]. exact Ht. }
  destruct (typed_last _ _ _ Hx (VStr s)) as (s' & Es & Hin).
  { replace (l + 1 - 1) with l by lia. rewrite last_at_app. cbn [last_at]. rewrite Hm, Z.eqb_refl. reflexivity. }
  injection Es as <-. exact Hin.
Qed.
Lemma Tree_tame h g : good0 h -> Tree h = Ok g -> Forall tame (out g).
Proof.
  intros (Hi & Ht & Hn) H. rewrite (h_inv_Tree _ Hi) in H. injection H as <-. cbn [events_graph out]. apply (forest_tame 0 []); assumption.
Qed.
Lemma NewPath_tame E f s p : fin s -> NewPath E f s = Ok p -> tame (Some p).
Proof.
  intros Hs H. unfold NewPath in H. destruct (run_buf E f (Path f f) (NewLexer (bytes_reader s)) h_init) as [[[b x] h]| |] eqn:Er; cbn [rbind] in H; try discriminate.
  destruct (Tree h) as [g| |] eqn:Et; cbn [rbind] in H; try discriminate. injection H as <-.
  assert (Hg : post h_init h). { destruct (flow_P f f) as (_ & _ & _ & I4 & _). eapply (run_pwp E f _ _ _ _ _ _ _ (I4 _ _ _ _ good_init) (lexok_new _ Hs) Er). }
  constructor; [intros _; cbn; tauto|apply fin_type; cbn; tauto|]. eapply Tree_tame; [apply Hg|exact Et].
Qed.

(** All contents are [fin] *)
Inductive clean : option graph -> Prop :=
| clean_nil : clean None
| clean_node s o : fin s -> Forall clean o -> clean (Some (Node (VStr s) o)).
Lemma tame_clean g : tame (Some g) -> clean (Some g).
Proof.
  induction g as [v o _ IH] using graph_ind'. intros H. inversion H as [s o' H1 H2 H3]; subst. constructor; [exact H2|].
  rewrite Forall_forall in *. intros [c|] Hc; [|constructor]. specialize (IH _ Hc). apply IH, H3, Hc.
Qed.
Lemma tame_cleans l : Forall tame l -> Forall clean l.
Proof. apply Forall_impl. intros [g|]; [apply tame_clean|constructor]. Qed.

Lemma clean_reduce j : forall post pre r, Forall clean (map Some pre) -> Forall clean (map Some post) -> reduce_at j pre post = Ok r -> Forall clean (map Some r).
Proof.
  intros post. remember (List.length post) as n eqn:En. assert (Hn : (List.length post <= n)%nat) by lia. clear En. revert post Hn.
  induction n as [|n IH]; intros post Hn pre r Hpre Hpost H; (destruct post as [|e post]; cbn [List.length] in Hn; [|try lia]); cbn [reduce_at] in H.
  1, 2: injection H as <-; rewrite map_rev; apply Forall_rev, Hpre.
  cbn [map] in Hpost. inversion Hpost as [|? ? He Hpost']; subst.
  destruct (_ =? j).
  - destruct pre as [|e1 pre]; [discriminate|]. destruct post as [|e2 post]; [discriminate|]. cbn [map List.length] in *. inversion Hpre as [|? ? He1 Hpre']; inversion Hpost' as [|? ? He2 Hpost'']; subst.
    eapply IH; [| | |exact H]; [lia| |exact Hpost'']. cbn [map]. constructor; [|exact Hpre']. inversion He as [|s o Hs Ho]; subst. cbn [this out]. constructor; [exact Hs|]. apply Forall_app. auto.
  - eapply IH; [| | |exact H]; [lia| |exact Hpost']. cbn [map]. constructor; assumption.
Qed.
Lemma clean_reduces js : forall l r, Forall clean (map Some l) -> reduce_all js l = Ok r -> Forall clean (map Some r).
Proof.
  induction js as [|j js IH]; intros l r Hl H; cbn [reduce_all] in H; [injection H as <-; exact Hl|].
  destruct (reduce_at j [] l) as [l'| |] eqn:E; cbn [rbind] in H; try discriminate. eapply IH; [|exact H]. eapply clean_reduce; [| |exact E]; [constructor|exact Hl].
Qed.
Lemma clean_top s l g : fin s -> Forall clean (map Some l) -> ast_top (VStr s) l = Ok g -> clean (Some g).
Proof.
  intros Hs Hl H. 
  assert (Hr : forall r, reduce_all [6; 5; 4; 3; 2; 1; 0] l = Ok r -> clean (Some (Node (VStr s) (map Some r)))).
  { intros r Hr. constructor; [exact Hs|]. eapply clean_reduces; eassumption. }
  assert (Hr' : (let* l := reduce_all [6; 5; 4; 3; 2; 1; 0] l in Ok (Node (VStr s) (map Some l))) = Ok g -> clean (Some g)).
  { intros Hx. destruct (reduce_all _ l) as [r| |]; cbn [rbind] in Hx; try discriminate. injection Hx as <-. apply Hr. reflexivity. }
  unfold ast_top in H. destruct l as [|a [|b [|c l]]]; try (apply Hr', H). injection H as <-. cbn [map] in Hl. inversion Hl as [|? ? Ha Hl']; inversion Hl' as [|? ? Hb _]; subst.
  constructor; [exact Hs|]. constructor; [|constructor]. destruct (bseq _ _); [|exact Ha]. inversion Ha as [|t o Ht Ho]; subst. cbn [this out]. constructor; [exact Ht|]. apply Forall_app. auto.
Qed.
Lemma clean_ast g : forall e r, clean (Some g) -> ast_ e g = Ok r -> clean (Some r).
Proof.
  induction g as [v l _ IH] using graph_ind'. intros e r Hg H. rewrite PathFacts.ast_eq in H. destruct (_ && _); [injection H as <-; exact Hg|].
  inversion Hg as [|s o Hs Ho]; subst.
  assert (Hl : forall l', PathFacts.ast_list e l = Ok l' -> Forall clean (map Some l')).
  { clear Hg H. induction l as [|[n|] l IHl]; intros l' Hl'; cbn [PathFacts.ast_list] in Hl'.
    - injection Hl' as <-. constructor.
    - inversion Ho as [|? ? Hn Ho']; inversion IH as [|? ? IHn IH']; subst.
      destruct (ast_ _ n) as [n'| |] eqn:En; cbn [rbind] in Hl'; try discriminate. fold (PathFacts.ast_list e l) in Hl'. destruct (PathFacts.ast_list e l) as [l1| |]; cbn [rbind] in Hl'; try discriminate. injection Hl' as <-.
      cbn [map]. constructor; [eapply IHn; eassumption|]. apply IHl; auto.
    - inversion Ho; inversion IH; subst. apply IHl; auto. }
  destruct (PathFacts.ast_list e l) as [l'| |]; cbn [rbind] in H; try discriminate. specialize (Hl _ eq_refl). destruct e; [eapply clean_top; eassumption|].
  injection H as <-. constructor; assumption.
Qed.
Lemma NewExpression_clean E f s e : fin s -> NewExpression E f s = Ok e -> clean (Some e).
Proof.
  intros Hs H. unfold NewExpression in H. destruct (run_buf E f (Expression f f) (NewLexer (bytes_reader s)) h_init) as [[[b x] h]| |] eqn:Er; cbn [rbind] in H; try discriminate.
  destruct (Tree h) as [g| |] eqn:Et; cbn [rbind] in H; try discriminate.
  assert (Hg : post h_init h). { destruct (flow_P f f) as (I1 & _). eapply (run_pwp E f _ _ _ _ _ _ _ (I1 _ good_init) (lexok_new _ Hs) Er). }
  eapply clean_ast; [|exact H]. constructor; [apply fin_type; cbn; tauto|]. apply tame_cleans. eapply Tree_tame; [apply Hg|exact Et].
Qed.

(** ** Templates *)
Lemma clean_simplify n : clean (Some n) -> clean (Some (simplify_node n)).
Proof.
  intros H. unfold simplify_node. destruct (bseq _ _); [|exact H]. inversion H as [|s o Hs Ho]; subst. cbn [out]. destruct o as [|[k|] o]; try exact H.
  destruct (keyword (this_string k)) as [t|] eqn:Ek; [|exact H]. inversion Ho; subst. constructor; [|assumption].
  unfold keyword in Ek. repeat (destruct (bseq _ _) in Ek; [injection Ek as <-; repeat (constructor; [intros _; discriminate|]); constructor|]). discriminate.
Qed.
Lemma fin_template : fin TypeTemplate.
Proof. repeat (constructor; [intros _; discriminate|]). constructor. Qed.
Lemma clean_flow f : forall l hs es rest, Forall clean (map Some l) -> flow f l = (hs, es, rest) ->
  Forall clean (map Some hs) /\ Forall clean (map Some es) /\ Forall clean (map Some rest).
Proof.
  induction f as [|f IH]; intros l hs es rest Hl H; cbn [flow] in H.
  { injection H as <- <- <-. repeat split; constructor. }
  destruct l as [|n l]; [injection H as <- <- <-; repeat split; constructor|]. cbn [map] in Hl. inversion Hl as [|? ? Hn Hl']; subst. inversion Hn as [|s o Hs Ho]; subst. cbn [this out this_string] in *.
  destruct (_ || _).
  - destruct (flow f l) as [[body sibs] r1] eqn:E1. destruct (flow f r1) as [[h2 e2] r2] eqn:E2. injection H as <- <- <-.
    destruct (IH _ _ _ _ Hl' E1) as (A1 & A2 & A3). destruct (IH _ _ _ _ A3 E2) as (B1 & B2 & B3). split; [|auto]. cbn [map]. rewrite map_app. constructor; [|apply Forall_app; auto].
    constructor; [exact Hs|]. apply Forall_app. split; [exact Ho|]. constructor; [|constructor]. constructor; [apply fin_template|exact A1].
  - destruct (flow f l) as [[h2 e2] r2] eqn:E1. destruct (IH _ _ _ _ Hl' E1) as (A1 & A2 & A3). destruct (_ || _); [|destruct (bseq _ _)].
    + injection H as <- <- <-. split; [constructor|]. split; [|exact A3]. cbn [map]. constructor; [|exact A2]. constructor; [exact Hs|]. apply Forall_app. split; [exact Ho|]. constructor; [|constructor]. constructor; [apply fin_template|exact A1].
    + injection H as <- <- <-. split; [constructor|]. split; [constructor|]. exact Hl'.
    + injection H as <- <- <-. split; [|auto]. cbn [map]. constructor; assumption.
Qed.
Lemma clean_strip l : Forall clean l -> Forall clean (map Some (strip l)).
Proof. induction l as [|[n|] l IH]; intros H; cbn [strip]; [constructor| |]; inversion H; subst; [cbn [map]; constructor; auto|auto]. Qed.
Lemma NewTemplate_clean E f s t : fin s -> NewTemplate E f s = Ok t -> clean (Some t).
Proof.
  intros Hs H. unfold NewTemplate in H. destruct (run_buf E f (Template f f) (NewLexer (bytes_reader s)) h_init) as [[[b x] h]| |] eqn:Er; cbn [rbind] in H; try discriminate.
  destruct (Tree h) as [g| |] eqn:Et; cbn [rbind] in H; try discriminate.
  assert (Hg : good h) by (exact (run_pwp E f _ _ _ _ _ _ _ (good_Template f f _ good_init) (lexok_new _ Hs) Er)).
  unfold nest in H. destruct (ast_ false _) as [a| |] eqn:Ea; cbn [rbind] in H; try discriminate.
  assert (Ha : clean (Some a)).
  { eapply clean_ast; [|exact Ea]. constructor; [apply fin_template|]. apply tame_cleans. eapply Tree_tame; [apply Hg|exact Et]. }
  destruct (flow _ _) as [[hs es] rest] eqn:Ef. injection H as <-.
  assert (Hl : Forall clean (map Some (map simplify_node (strip (out a))))).
  { inversion Ha as [|s1 o Hs1 Ho]; subst. cbn [out]. apply clean_strip in Ho. rewrite map_map. rewrite Forall_map in *. eapply Forall_impl; [|exact Ho]. intros n. apply clean_simplify. }
  destruct (clean_flow _ _ _ _ _ Hl Ef) as (A1 & A2 & _). constructor; [constructor|]. rewrite map_app. apply Forall_app. auto.
Qed.
End Pwp.

(** ** No assignments *)
Lemma tame_quiet E b g : tame b (Some g) -> quiet E (Some g).
Proof.
  induction g as [v o _ IH] using graph_ind'. intros H. inversion H as [s o' H1 H2 H3]; subst. constructor.
  - intros t Ho Ht Hin. cbn [ThisString this vstring sstring] in Ht. injection Ht as <-. specialize (H1 Ho). cbn in H1, Hin. decompose [or] H1; subst; decompose [or] Hin; try discriminate; contradiction.
  - rewrite Forall_forall in *. intros [c|] Hc; [|constructor]. specialize (IH _ Hc). apply IH, H3, Hc.
Qed.
Lemma clean_quiet E g : clean true (Some g) -> quiet E (Some g).
Proof.
  induction g as [v o _ IH] using graph_ind'. intros H. inversion H as [|s o' H1 H2]; subst. constructor.
  - intros t Ho Ht Hin. cbn [ThisString this vstring sstring] in Ht. injection Ht as <-. assert (He : In "="%byte s) by (cbn in Hin; decompose [or] Hin; subst; cbn; tauto).
    rewrite Forall_forall in H1. exact (H1 _ He eq_refl eq_refl).
  - rewrite Forall_forall in *. intros [c|] Hc; [|constructor]. specialize (IH _ Hc). apply IH, H2, Hc.
Qed.
