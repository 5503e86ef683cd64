(** Reasoning about parser programs over the buffered lexer: weakest preconditions over a
    stream whose past may be cut to 2048 bytes at every read (which is what a refill of
    the buffer does). *)
From Verif Require Import Base Value Event EventFacts Lexer TextParser Stream Buffer BufferSpec BufferFacts.

Local Notation len l := (Z.of_nat (List.length l)).

Fixpoint wp {A} (m : prog A) (s : stream) (h : handler) (Q : A -> stream -> handler -> Prop) : Prop :=
  match m with
  | Ret a => Q a s h
  | GetB k => forall s', cut (snd (s_byte s)) s' -> wp (k (fst (fst (s_byte s))) (snd (fst (s_byte s)))) s' h Q
  | UnB k => wp k (s_unread s) h Q
  | Tok k => False
  | Ev o k => exists h', h_step o h = Ok h' /\ wp k s h' Q
  | Lvl k => wp (k (cur h)) s h Q
  | Stop => False
  end.

Lemma wp_sound {A} E f (m : prog A) : forall x s h Q, repr x s -> wp m s h Q ->
  exists a x' s' h', run_buf E f m x h = Ok (a, x', h') /\ repr x' s' /\ Q a s' h'.
Proof.
  induction m as [a|k IH|k IH|k IH|o k IH|k IH|]; intros x s h Q Hr Hw; cbn [run_buf wp] in *.
  - exists a, x, s, h. auto.
  - pose proof (repr_byte x s Hr) as Hb. destruct (s_byte s) as [[c ok] s']. cbn [fst snd] in Hw.
    destruct Hb as (x' & s'' & Ex & Hc & Hr'). rewrite Ex. cbn [rbind]. exact (IH c ok x' s'' h Q Hr' (Hw s'' Hc)).
  - apply (IH _ (s_unread s)); [apply repr_unread, Hr|exact Hw].
  - contradiction.
  - destruct Hw as (h' & -> & Hw). cbn [rbind]. apply (IH x s h' Q Hr Hw).
  - apply (IH (cur h) x s h Q Hr Hw).
  - contradiction.
Qed.

Lemma wp_mono {A} (m : prog A) : forall s h (Q Q' : A -> stream -> handler -> Prop),
  (forall a s h, Q a s h -> Q' a s h) -> wp m s h Q -> wp m s h Q'.
Proof.
  induction m as [a|k IH|k IH|k IH|o k IH|k IH|]; intros s h Q Q' HQ Hw; cbn [wp] in *; auto.
  - intros s' Hc. eapply IH; eauto.
  - eapply IH; eauto.
  - destruct Hw as (h' & E & Hw). exists h'. split; [exact E|]. eapply IH; eauto.
  - eapply IH; eauto.
Qed.

Lemma wp_bind {A B} (m : prog A) (f : A -> prog B) : forall s h Q,
  wp m s h (fun a s h => wp (f a) s h Q) -> wp (pbind m f) s h Q.
Proof.
  induction m as [a|k IH|k IH|k IH|o k IH|k IH|]; intros s h Q Hw; cbn [wp pbind] in *; auto.
  destruct Hw as (h' & E & Hw). exists h'. auto.
Qed.

(** ** One step at a time, on explicit states *)
Lemma wp_get {A} (K : byte -> bool -> prog A) P c f o h Q :
  (forall k, (pred half <= k)%nat -> wp (K c true) (mkS (c :: firstn k P) f false) h Q) -> wp (GetB K) (mkS P (c :: f) o) h Q.
Proof.
  intros H s' (H1 & H2 & k & Hk & H3). cbn [s_byte fst snd fut past over] in *.
  destruct s' as [P' f' o']. cbn [fut past over] in *. subst. destruct k as [|k]; [unfold half in Hk; lia|]. cbn [firstn].
  apply H. lia.
Qed.
Lemma wp_get_end {A} (K : byte -> bool -> prog A) P o h Q :
  (forall k, (half <= k)%nat -> wp (K x00 false) (mkS (firstn k P) [] true) h Q) -> wp (GetB K) (mkS P [] o) h Q.
Proof.
  intros H s' (H1 & H2 & k & Hk & H3). cbn [s_byte fst snd fut past over] in *.
  destruct s' as [P' f' o']. cbn [fut past over] in *. subst. apply H. exact Hk.
Qed.
Lemma wp_un {A} (K : prog A) P c f h Q : wp K (mkS P (c :: f) false) h Q -> wp (UnB K) (mkS (c :: P) f false) h Q.
Proof. auto. Qed.
Lemma wp_un_over {A} (K : prog A) P f h Q : wp K (mkS P f false) h Q -> wp (UnB K) (mkS P f true) h Q.
Proof. auto. Qed.
Lemma wp_ev {A} o (K : prog A) s h h' Q : h_step o h = Ok h' -> wp K s h' Q -> wp (Ev o K) s h Q.
Proof. intros H1 H2. exists h'. auto. Qed.

(** ** Moving forward *)

(** From s to s' the bytes w have been consumed. *)
Definition good (s : stream) : Prop := over s = true -> fut s = [].
Definition moved (w : bytes) (s s' : stream) : Prop := fut s = w ++ fut s' /\ good s'.

(** The last bytes read, w, can be unread (the last 2040 of them at least). *)
Definition keep : nat := Z.to_nat 2040.
Definition recent (w : bytes) (s : stream) : Prop :=
  over s = false /\ exists k q, (keep <= k)%nat /\ past s = firstn k (rev w ++ q).

Lemma keep_eq : Z.of_nat keep = 2040.
Proof. reflexivity. Qed.

Lemma moved_good w s s' : moved w s s' -> good s'.
Proof. intros (_ & H). exact H. Qed.
Lemma moved_refl s : good s -> moved [] s s.
Proof. intro H. split; [reflexivity|exact H]. Qed.
Lemma moved_fut w s s' : moved w s s' -> fut s = w ++ fut s'.
Proof. intros (H & _). exact H. Qed.
Lemma moved_trans w1 w2 s1 s2 s3 : moved w1 s1 s2 -> moved w2 s2 s3 -> moved (w1 ++ w2) s1 s3.
Proof. intros (H1 & _) (K1 & K2). split; [rewrite H1, K1, app_assoc; reflexivity|exact K2]. Qed.
Lemma moved_0 s s' w s2 : moved [] s s' -> moved w s' s2 -> moved w s s2.
Proof. intros H K. exact (moved_trans [] w s s' s2 H K). Qed.

Lemma firstn_cons {A} k (c : A) P : c :: firstn k P = firstn (S k) (c :: P).
Proof. reflexivity. Qed.

(** ** The loop [span] *)
Definition stops (p : byte -> bool) (r : bytes) : Prop := match r with [] => True | c :: _ => p c = false end.

Lemma wp_span_gen p : p x00 = false -> forall w F acc s r h (Q : bytes -> stream -> handler -> Prop), good s -> fut s = w ++ r -> Forall (fun c => p c = true) w -> stops p r ->
  (List.length w < F)%nat ->
  (forall s', fut s' = r -> over s' = false -> (exists k, (keep <= k)%nat /\ past s' = firstn k (rev w ++ past s)) -> Q (acc ++ w) s' h) ->
  wp (span F p acc) s h Q.
Proof.
  intro Hp0. pose proof keep_eq as Hke. pose proof half_eq as Hhe.
  induction w as [|c w IH]; intros F acc [P f o] r h Q Hg Hf Hw Hr HF HQ; (destruct F as [|F]; [cbn in HF; lia|]); cbn [span fut past] in *; subst f.
  - rewrite app_nil_r in HQ. cbn [rev app] in *. destruct r as [|c r].
    + apply wp_get_end. intros k Hk. rewrite Hp0. apply wp_un_over. apply HQ; [reflexivity|reflexivity|].
      exists k. split; [lia|reflexivity].
    + cbn [stops] in Hr. apply wp_get. intros k Hk. rewrite Hr. apply wp_un. apply HQ; [reflexivity|reflexivity|].
      exists k. split; [lia|reflexivity].
  - inversion Hw as [|? ? Hc Hw']; subst. apply wp_get. intros k Hk. rewrite Hc.
    apply (IH F (acc ++ [c]) _ r h Q); auto; [discriminate|cbn in HF; lia|].
    intros s' Hm Ho (k2 & Hk2 & Hp). rewrite <- app_assoc. apply HQ; [exact Hm|exact Ho|].
    cbn [past] in Hp. exists (Nat.min k2 (List.length w + S k)). split; [lia|].
    rewrite Hp. rewrite firstn_cons, <- firstn_firstn. f_equal. cbn [rev]. rewrite <- app_assoc. cbn [app].
    rewrite firstn_app, rev_length. replace (List.length w + S k - List.length w)%nat with (S k) by lia.
    f_equal. symmetry. apply firstn_all2. rewrite rev_length. lia.
Qed.

Lemma wp_span p w F acc s r h (Q : bytes -> stream -> handler -> Prop) : p x00 = false -> good s -> fut s = w ++ r -> Forall (fun c => p c = true) w -> stops p r ->
  (List.length w < F)%nat ->
  (forall s', moved w s s' -> recent w s' -> Q (acc ++ w) s' h) -> wp (span F p acc) s h Q.
Proof.
  intros Hp Hg Hf Hw Hr HF HQ. apply (wp_span_gen p Hp w F acc s r); auto. intros s' H1 H2 (k & Hk & H3).
  apply HQ; [split; [rewrite H1; exact Hf|unfold good; congruence]|]. split; [exact H2|]. exists k, (past s). auto.
Qed.

(** Every list splits that way. *)
Fixpoint tw (p : byte -> bool) (l : bytes) : bytes := match l with [] => [] | c :: l' => if p c then c :: tw p l' else [] end.
Fixpoint dw (p : byte -> bool) (l : bytes) : bytes := match l with [] => [] | c :: l' => if p c then dw p l' else l end.
Lemma tw_dw p l : l = tw p l ++ dw p l.
Proof. induction l as [|c l IH]; cbn; [reflexivity|]. destruct (p c); [cbn; f_equal; exact IH|reflexivity]. Qed.
Lemma tw_all p l : Forall (fun c => p c = true) (tw p l).
Proof. induction l as [|c l IH]; cbn; [constructor|]. destruct (p c) eqn:E; constructor; auto. Qed.
Lemma dw_stops p l : stops p (dw p l).
Proof. induction l as [|c l IH]; cbn; [exact I|]. destruct (p c) eqn:E; [exact IH|exact E]. Qed.
Lemma tw_length p l : (List.length (tw p l) <= List.length l)%nat.
Proof. rewrite (tw_dw p l) at 2. rewrite app_length. lia. Qed.

(** On any input. *)
Lemma wp_span_any p F acc s h (Q : bytes -> stream -> handler -> Prop) : p x00 = false -> good s -> (List.length (fut s) < F)%nat ->
  (forall s', moved (tw p (fut s)) s s' -> recent (tw p (fut s)) s' -> fut s' = dw p (fut s) -> Q (acc ++ tw p (fut s)) s' h) ->
  wp (span F p acc) s h Q.
Proof.
  intros Hp Hg HF HQ. apply (wp_span p (tw p (fut s)) F acc s (dw p (fut s))); auto using tw_dw, tw_all, dw_stops.
  - pose proof (tw_length p (fut s)). lia.
  - intros s' Hm Hr. apply HQ; auto. pose proof (moved_fut _ _ _ Hm) as E. rewrite (tw_dw p (fut s)) in E at 1.
    apply app_inv_head in E. congruence.
Qed.

(** ** Unreading what was read *)
Lemma wp_unread_n n w s s1 h (Q : unit -> stream -> handler -> Prop) : moved w s s1 -> recent w s1 -> List.length w = n ->
  (forall w1 w2 s', w = w1 ++ w2 -> moved w1 s s' -> fut s' = w2 ++ fut s1 -> (Z.of_nat n <= 2040 -> w1 = []) -> Q tt s' h) ->
  wp (unread_n n) s1 h Q.
Proof.
  pose proof keep_eq as Hke.
  intros Hm (Ho & k & q & Hk & Hp) Hn HQ.
  assert (Hgen : forall m u v s2, w = u ++ v -> List.length u = m -> fut s2 = v ++ fut s1 -> over s2 = false ->
     past s2 = firstn (k - List.length v) (rev u ++ q) -> wp (unread_n m) s2 h Q).
  { assert (Hdone : forall u v s2, w = u ++ v -> fut s2 = v ++ fut s1 -> over s2 = false -> (Z.of_nat n <= 2040 -> u = []) -> Q tt s2 h).
    { intros u v s2 Hw Hf2 Ho2 Hu. apply (HQ u v s2); auto.
      split; [rewrite Hf2, app_assoc, <- Hw; apply (moved_fut _ _ _ Hm)|unfold good; congruence]. }
    induction m as [|m IH]; intros u v s2 Hw Hu Hf2 Ho2 Hpast; cbn [unread_n].
    - cbn [wp]. apply (Hdone u v s2); auto. intros _. destruct u; [reflexivity|discriminate].
    - destruct u as [|c u'] using rev_ind; [discriminate|clear IHu'].
      rewrite rev_app_distr in Hpast. cbn [rev app] in Hpast.
      pose proof (f_equal (@List.length byte) Hw) as Hl. rewrite app_length in Hl, Hu. rewrite app_length in Hl. cbn [List.length] in Hl, Hu.
      change (wp (unread_n m) (s_unread s2) h Q). unfold s_unread. rewrite Ho2.
      destruct (k - List.length v)%nat as [|kv] eqn:Ekv.
      + cbn [firstn] in Hpast. rewrite Hpast.
        assert (Hstuck : forall m, wp (unread_n m) s2 h Q).
        { clear IH Hu. intros m'. induction m' as [|m' IH']; cbn [unread_n].
          - cbn [wp]. apply (Hdone (u' ++ [c]) v s2); auto. intro Hs. exfalso. clear - Hs Hke Hk Ekv Hl Hn. lia.
          - change (wp (unread_n m') (s_unread s2) h Q). unfold s_unread. rewrite Ho2, Hpast. apply IH'. }
        apply Hstuck.
      + cbn [firstn] in Hpast. rewrite Hpast. apply (IH u' (c :: v)).
        * rewrite Hw, <- app_assoc. reflexivity.
        * lia.
        * cbn [fut app]. rewrite Hf2. reflexivity.
        * reflexivity.
        * cbn [past List.length]. f_equal. lia. }
  apply (Hgen n w [] s1); auto.
  - rewrite app_nil_r. reflexivity.
  - cbn [List.length]. rewrite Nat.sub_0_r. exact Hp.
Qed.
