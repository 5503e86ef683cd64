(** The text parser takes a number of steps linear in the length of the text. *)
From Verif Require Import Base Value Event EventFacts Lexer TextParser Stream Buffer BufferSpec BufferFacts CostSpec Wp TextTerm.

Local Notation len l := (Z.of_nat (List.length l)).

(** The count does not change the run. *)
Lemma run_count_run {A} E f (m : prog A) : forall x h t,
  run_buf E f m x h = (let* (a, x, h, _) := run_count E f m x h t in Ok (a, x, h)).
Proof.
  induction m as [a|k IH|k IH|k IH|o k IH|k IH|]; intros x h t; cbn [run_buf run_count]; auto.
  - destruct (b_byte x) as [[[c ok] x']| |]; cbn [rbind]; auto.
  - destruct (b_token E f [] x) as [[s x']| |]; cbn [rbind]; auto.
  - destruct (h_step o h) as [h'| |]; cbn [rbind]; auto.
Qed.

Section Cost.
Variable text : bytes.

(** What is always true of the state: the buffer is 4096 bytes, and past and future are
    the text, up to where the past is cut. *)
Definition inv (s : stream) : Prop :=
  len (past s) <= 4096 /\ exists u, text = u ++ rev (past s) ++ fut s.

Lemma inv_unread s : inv s -> inv (s_unread s).
Proof.
  destruct s as [P f o]. intros (H1 & u & H2). unfold s_unread. cbn [past fut over] in *. destruct o; [split; eauto|].
  destruct P as [|c P]; [split; eauto|]. split; cbn [past fut]; [cbn in H1; lia|].
  exists u. rewrite H2. cbn [rev]. rewrite <- app_assoc. reflexivity.
Qed.
Lemma inv_byte x s s' : inv s -> cut (snd (s_byte s)) s' -> repr x s' -> inv s'.
Proof.
  destruct s as [P f o]. intros (H1 & u & H2) (K1 & K2 & k & Hk & K3) Hr. cbn [past fut over] in *. split.
  - destruct Hr as (Hbuf & _ & _ & _ & Hpast & _). rewrite Hpast, rev_length, firstn_length. lia.
  - assert (Hx : exists v, text = v ++ rev (past (snd (s_byte (mkS P f o)))) ++ fut (snd (s_byte (mkS P f o)))).
    { exists u. rewrite H2. destruct f as [|c f]; cbn [s_byte fut past snd]; [reflexivity|]. cbn [rev]. rewrite <- app_assoc. reflexivity. }
    destruct Hx as (v & Hv). exists (v ++ rev (skipn k (past (snd (s_byte (mkS P f o)))))).
    rewrite Hv, K1, K3. rewrite <- (firstn_skipn k (past (snd (s_byte (mkS P f o))))) at 1. rewrite rev_app_distr, <- !app_assoc. reflexivity.
Qed.

(** Weakest preconditions that count: [t] operations so far. *)
Fixpoint wpc {A} (m : prog A) (s : stream) (h : handler) (t : nat) (Q : A -> stream -> handler -> nat -> Prop) : Prop :=
  match m with
  | Ret a => Q a s h t
  | GetB k => forall s', cut (snd (s_byte s)) s' -> inv s' -> wpc (k (fst (fst (s_byte s))) (snd (fst (s_byte s)))) s' h (S t) Q
  | UnB k => wpc k (s_unread s) h (S t) Q
  | Tok k => False
  | Ev o k => exists h', h_step o h = Ok h' /\ wpc k s h' (S t) Q
  | Lvl k => wpc (k (cur h)) s h (S t) Q
  | Stop => False
  end.

Lemma wpc_sound {A} E f (m : prog A) : forall x s h t Q, repr x s -> inv s -> wpc m s h t Q ->
  exists a x' s' h' t', run_count E f m x h t = Ok (a, x', h', t') /\ Q a s' h' t'.
Proof.
  induction m as [a|k IH|k IH|k IH|o k IH|k IH|]; intros x s h t Q Hr Hi Hw; cbn [run_count wpc] in *.
  - exists a, x, s, h, t. auto.
  - pose proof (repr_byte x s Hr) as Hb. destruct (s_byte s) as [[c ok] s'] eqn:Es. cbn [fst snd] in Hw.
    destruct Hb as (x' & s'' & Ex & Hc & Hr'). rewrite Ex. cbn [rbind].
    assert (Hi' : inv s'') by (apply (inv_byte x' s s''); auto; rewrite Es; exact Hc).
    exact (IH c ok x' s'' h (S t) Q Hr' Hi' (Hw s'' Hc Hi')).
  - apply (IH _ (s_unread s)); [apply repr_unread, Hr|apply inv_unread, Hi|exact Hw].
  - contradiction.
  - destruct Hw as (h' & -> & Hw). cbn [rbind]. apply (IH x s h' (S t) Q Hr Hi Hw).
  - apply (IH (cur h) x s h (S t) Q Hr Hi Hw).
  - contradiction.
Qed.

Lemma wpc_bind {A B} (m : prog A) (f : A -> prog B) : forall s h t Q,
  wpc m s h t (fun a s h t => wpc (f a) s h t Q) -> wpc (pbind m f) s h t Q.
Proof.
  induction m as [a|k IH|k IH|k IH|o k IH|k IH|]; intros s h t Q Hw; cbn [wpc pbind] in *; auto.
  destruct Hw as (h' & E & Hw). exists h'. auto.
Qed.

Lemma wpc_get {A} (K : byte -> bool -> prog A) P c f o h t Q :
  (forall k, (pred half <= k)%nat -> inv (mkS (c :: firstn k P) f false) -> wpc (K c true) (mkS (c :: firstn k P) f false) h (S t) Q) ->
  wpc (GetB K) (mkS P (c :: f) o) h t Q.
Proof.
  intros H s' (H1 & H2 & k & Hk & H3) Hi. cbn [s_byte fst snd fut past over] in *.
  destruct s' as [P' f' o']. cbn [fut past over] in *. subst. destruct k as [|k]; [unfold half in Hk; lia|]. cbn [firstn] in *.
  apply H; [lia|exact Hi].
Qed.
Lemma wpc_get_end {A} (K : byte -> bool -> prog A) P o h t Q :
  (forall k, (half <= k)%nat -> inv (mkS (firstn k P) [] true) -> wpc (K x00 false) (mkS (firstn k P) [] true) h (S t) Q) ->
  wpc (GetB K) (mkS P [] o) h t Q.
Proof.
  intros H s' (H1 & H2 & k & Hk & H3) Hi. cbn [s_byte fst snd fut past over] in *.
  destruct s' as [P' f' o']. cbn [fut past over] in *. subst. apply H; [exact Hk|exact Hi].
Qed.
Lemma wpc_un {A} (K : prog A) P c f h t Q : wpc K (mkS P (c :: f) false) h (S t) Q -> wpc (UnB K) (mkS (c :: P) f false) h t Q.
Proof. auto. Qed.
Lemma wpc_un_over {A} (K : prog A) P f h t Q : wpc K (mkS P f false) h (S t) Q -> wpc (UnB K) (mkS P f true) h t Q.
Proof. auto. Qed.
Lemma wpc_ev {A} o (K : prog A) s h h' t Q : h_step o h = Ok h' -> wpc K s h' (S t) Q -> wpc (Ev o K) s h t Q.
Proof. intros H1 H2. exists h'. auto. Qed.

Lemma wpc_span_gen p : p x00 = false -> forall w F acc s r h t (Q : bytes -> stream -> handler -> nat -> Prop), good s -> fut s = w ++ r -> Forall (fun c => p c = true) w -> stops p r ->
  (List.length w < F)%nat ->
  (forall s', fut s' = r -> over s' = false -> inv s' -> (exists k, (keep <= k)%nat /\ past s' = firstn k (rev w ++ past s)) -> Q (acc ++ w) s' h (List.length w + 2 + t)%nat) ->
  wpc (span F p acc) s h t Q.
Proof.
  intro Hp0. pose proof keep_eq as Hke. pose proof half_eq as Hhe.
  induction w as [|c w IH]; intros F acc [P f o] r h t Q Hg Hf Hw Hr HF HQ; (destruct F as [|F]; [cbn in HF; lia|]); cbn [span fut past] in *; subst f.
  - rewrite app_nil_r in HQ. cbn [rev app] in *. destruct r as [|c r].
    + apply wpc_get_end. intros k Hk Hi. rewrite Hp0. apply wpc_un_over. apply HQ; [reflexivity|reflexivity|apply (inv_unread _ Hi)|].
      exists k. split; [lia|reflexivity].
    + cbn [stops] in Hr. apply wpc_get. intros k Hk Hi. rewrite Hr. apply wpc_un. apply HQ; [reflexivity|reflexivity|apply (inv_unread _ Hi)|].
      exists k. split; [lia|reflexivity].
  - inversion Hw as [|? ? Hc Hw']; subst. apply wpc_get. intros k Hk Hi. rewrite Hc.
    apply (IH F (acc ++ [c]) _ r h (S t) Q); auto; [discriminate|cbn in HF; lia|].
    intros s' Hm Ho His (k2 & Hk2 & Hp). rewrite <- app_assoc. cbn [app].
    replace (List.length w + 2 + S t)%nat with (List.length (c :: w) + 2 + t)%nat by (cbn; lia).
    apply HQ; [exact Hm|exact Ho|exact His|].
    cbn [past] in Hp. exists (Nat.min k2 (List.length w + S k)). split; [lia|].
    rewrite Hp. rewrite firstn_cons, <- firstn_firstn. f_equal. cbn [rev]. rewrite <- app_assoc. cbn [app].
    rewrite firstn_app, rev_length. replace (List.length w + S k - List.length w)%nat with (S k) by lia.
    f_equal. symmetry. apply firstn_all2. rewrite rev_length. lia.
Qed.

Lemma wpc_span_any p F acc s h t (Q : bytes -> stream -> handler -> nat -> Prop) : p x00 = false -> good s -> (List.length (fut s) < F)%nat ->
  (forall s', moved (tw p (fut s)) s s' -> recent (tw p (fut s)) s' -> inv s' -> fut s' = dw p (fut s) ->
     Q (acc ++ tw p (fut s)) s' h (List.length (tw p (fut s)) + 2 + t)%nat) ->
  wpc (span F p acc) s h t Q.
Proof.
  intros Hp Hg HF HQ. apply (wpc_span_gen p Hp (tw p (fut s)) F acc s (dw p (fut s))); auto using tw_dw, tw_all, dw_stops.
  - pose proof (tw_length p (fut s)). lia.
  - intros s' H1 H2 Hi (k & Hk & H3). apply HQ; auto.
    + split; [rewrite H1; apply tw_dw|unfold good; congruence].
    + split; [exact H2|]. exists k, (past s). auto.
Qed.

(** Unreading; when not everything can be unread, what can be is in the buffer. *)
Lemma wpc_unread_n n w s s1 h t (Q : unit -> stream -> handler -> nat -> Prop) : moved w s s1 -> recent w s1 -> List.length w = n ->
  (forall w1 w2 s', w = w1 ++ w2 -> moved w1 s s' -> fut s' = w2 ++ fut s1 -> (Z.of_nat n <= 2040 -> w1 = []) ->
     (w1 <> [] -> (List.length w2 <= List.length (past s1))%nat) -> Q tt s' h (n + t)%nat) ->
  wpc (unread_n n) s1 h t Q.
Proof.
  pose proof keep_eq as Hke.
  intros Hm (Ho & k & q & Hk & Hp) Hn HQ.
  assert (Hgen : forall m u v s2 t2, w = u ++ v -> List.length u = m -> (List.length v <= k \/ v = [])%nat -> fut s2 = v ++ fut s1 -> over s2 = false ->
     past s2 = firstn (k - List.length v) (rev u ++ q) -> (m + t2 = n + t)%nat -> wpc (unread_n m) s2 h t2 Q).
  { assert (Hdone : forall u v s2, w = u ++ v -> fut s2 = v ++ fut s1 -> over s2 = false -> (Z.of_nat n <= 2040 -> u = []) ->
      (u <> [] -> (List.length v <= List.length (past s1))%nat) -> Q tt s2 h (n + t)%nat).
    { intros u v s2 Hw Hf2 Ho2 Hu Hv. apply (HQ u v s2); auto.
      split; [rewrite Hf2, app_assoc, <- Hw; apply (moved_fut _ _ _ Hm)|unfold good; congruence]. }
    induction m as [|m IH]; intros u v s2 t2 Hw Hu Hvk Hf2 Ho2 Hpast Ht; cbn [unread_n].
    - cbn [wpc]. assert (Hu0 : u = []) by (destruct u; [reflexivity|discriminate]). cbn in Ht. subst t2. apply (Hdone u v s2); auto. congruence.
    - destruct u as [|c u'] using rev_ind; [discriminate|clear IHu'].
      rewrite rev_app_distr in Hpast. cbn [rev app] in Hpast.
      pose proof (f_equal (@List.length byte) Hw) as Hl. rewrite app_length in Hl, Hu. rewrite app_length in Hl. cbn [List.length] in Hl, Hu.
      change (wpc (unread_n m) (s_unread s2) h (S t2) Q). unfold s_unread. rewrite Ho2.
      destruct (k - List.length v)%nat as [|kv] eqn:Ekv.
      + cbn [firstn] in Hpast. rewrite Hpast.
        assert (Hstuck : forall m t2, (m + t2 = n + t)%nat -> wpc (unread_n m) s2 h t2 Q).
        { clear IH Hu Ht t2. intros m'. induction m' as [|m' IH']; intros t2 Ht2; cbn [unread_n].
          - cbn [wpc]. cbn in Ht2. subst t2. apply (Hdone (u' ++ [c]) v s2); auto.
            + intro Hs. exfalso. clear - Hs Hke Hk Ekv Hl Hn. lia.
            + intros _. rewrite Hp, firstn_length, app_length, rev_length. destruct Hvk as [Hvk|Hvk]; [|subst v; cbn; lia]. lia.
          - change (wpc (unread_n m') (s_unread s2) h (S t2) Q). unfold s_unread. rewrite Ho2, Hpast. apply IH'. lia. }
        apply Hstuck. lia.
      + cbn [firstn] in Hpast. rewrite Hpast. apply (IH u' (c :: v)).
        * rewrite Hw, <- app_assoc. reflexivity.
        * lia.
        * left. cbn. lia.
        * cbn [fut app]. rewrite Hf2. reflexivity.
        * reflexivity.
        * cbn [past List.length]. f_equal. lia.
        * lia. }
  apply (Hgen n w [] s1 t); auto.
  - rewrite app_nil_r. reflexivity.
  - cbn [List.length]. rewrite Nat.sub_0_r. exact Hp.
Qed.

Section Specs.
Variable F : nat.

(** [within K c s s' t t'] : at most K steps per byte consumed, and c more. *)
Definition within (K c : nat) (s s' : stream) (t t' : nat) : Prop := (rem s' <= rem s /\ t' + K * rem s' <= t + K * rem s + c)%nat.

Lemma wpc_Space s h t (Q : Z * byte -> stream -> handler -> nat -> Prop) : good s -> (rem s < F)%nat ->
  (forall w s', w = tw is_space (fut s) -> moved w s s' -> recent w s' -> inv s' -> fut s' = dw is_space (fut s) ->
     Q (len w, space_kind w) s' h (List.length w + 2 + t)%nat) -> wpc (Space F) s h t Q.
Proof.
  intros Hg HF HQ. apply wpc_bind, wpc_span_any; auto. intros s' H1 H2 H3 H4. cbn [wpc app]. apply HQ; auto.
Qed.

Lemma wpc_Space_skip s h t (Q : Z * byte -> stream -> handler -> nat -> Prop) : good s -> (rem s < F)%nat ->
  (forall a s' t', good s' -> fut s' = dw is_space (fut s) -> within 1 2 s s' t t' -> Q a s' h t') -> wpc (Space F) s h t Q.
Proof.
  intros Hg HF HQ. apply wpc_Space; auto. intros w s' Hw Hm Hr _ Hf. apply HQ; [apply Hm|exact Hf|].
  pose proof (moved_rem _ _ _ Hm). unfold within. lia.
Qed.

Lemma wpc_Break s h t (Q : bool -> stream -> handler -> nat -> Prop) : good s ->
  (forall s' t', good s' -> (rem s' < rem s)%nat -> (t' <= t + 3)%nat -> Q true s' h t') ->
  (forall s' t', good s' -> (fut s' = fut s /\ is_break (head s) = false) \/ (rem s' < rem s)%nat -> (t' <= t + 3)%nat -> Q false s' h t') ->
  wpc Break s h t Q.
Proof.
  destruct s as [P f o]. unfold rem, head. cbn [fut]. intros Hg HT HF'. unfold Break, Byte_. cbn [pbind]. destruct f as [|c f].
  - apply wpc_get_end. intros k Hk Hi. cbn. apply HF'; [apply good_nil|left; auto|lia].
  - apply wpc_get. intros k Hk Hi. destruct (beq_spec c x0d) as [->|Hc]; cbn [pbind].
    + destruct f as [|c f].
      * apply wpc_get_end. intros k2 Hk2 Hi2. cbn. apply HF'; [apply good_nil|right; cbn; lia|lia].
      * apply wpc_get. intros k2 Hk2 Hi2. destruct (beq c x0a).
        -- cbn [wpc]. apply HT; [apply good_false|cbn; lia|lia].
        -- apply wpc_un. cbn [wpc]. apply HF'; [apply good_false|right; cbn; lia|lia].
    + destruct (beq_spec c x0a) as [->|Hc2].
      * cbn [wpc]. apply HT; [apply good_false|cbn; lia|lia].
      * apply wpc_un. cbn [wpc]. apply HF'; [apply good_false|left|lia]. split; [reflexivity|].
        unfold is_break. clear - Hc Hc2. destruct (Z.eqb_spec (bz c) 10) as [E|_]; [exfalso; apply Hc2, bz_inj; exact E|].
        destruct (Z.eqb_spec (bz c) 13) as [E|_]; [exfalso; apply Hc, bz_inj; exact E|reflexivity].
Qed.

Lemma wpc_End s h t (Q : bool -> stream -> handler -> nat -> Prop) : good s ->
  (forall s' t', good s' -> (rem s' <= rem s)%nat -> (t' <= t + 2)%nat -> Q true s' h t') ->
  (forall s' c r t', good s' -> fut s = c :: r -> is_end c = false -> fut s' = fut s -> (t' <= t + 2)%nat -> Q false s' h t') ->
  wpc End s h t Q.
Proof.
  destruct s as [P f o]. unfold rem. cbn [fut]. intros Hg HT HF'. unfold End. destruct f as [|c f].
  - apply wpc_get_end. intros k Hk Hi. cbn. apply HT; [apply good_nil|auto|lia].
  - apply wpc_get. intros k Hk Hi. cbn [negb]. destruct (is_end c) eqn:Ec.
    + cbn [wpc]. apply HT; [apply good_false|cbn; lia|lia].
    + apply wpc_un. cbn [wpc]. eapply HF'; [apply good_false|reflexivity|exact Ec|reflexivity|lia].
Qed.

Lemma wpc_Peek s h t (Q : byte -> stream -> handler -> nat -> Prop) : good s ->
  (forall s' t', good s' -> fut s' = fut s -> (t' <= t + 2)%nat -> Q (head s) s' h t') -> wpc PeekByte s h t Q.
Proof.
  destruct s as [P f o]. unfold head. cbn [fut]. intros Hg HQ. unfold PeekByte. destruct f as [|c f].
  - apply wpc_get_end. intros k Hk Hi. cbn. apply HQ; auto; [apply good_nil|lia].
  - apply wpc_get. intros k Hk Hi. apply wpc_un. cbn [wpc]. apply HQ; auto; [apply good_false|lia].
Qed.

Lemma wpc_Byte s h t (Q : byte -> stream -> handler -> nat -> Prop) : good s ->
  (forall s', good s' -> (rem s' <= rem s)%nat -> (fut s <> [] -> (rem s' < rem s)%nat) -> Q (head s) s' h (S t)) -> wpc Byte_ s h t Q.
Proof.
  destruct s as [P f o]. unfold rem, head. cbn [fut]. intros Hg HQ. unfold Byte_. destruct f as [|c f].
  - apply wpc_get_end. intros k Hk Hi. cbn. apply HQ; auto. apply good_nil. congruence.
  - apply wpc_get. intros k Hk Hi. cbn [wpc]. apply HQ; auto. apply good_false. all: cbn; lia.
Qed.

Lemma wpc_comment_loop : forall n f s h t (Q : bool -> stream -> handler -> nat -> Prop), rem s = n -> good s -> (rem s < f)%nat ->
  (forall s' t', good s' -> within 1 1 s s' t t' -> Q true s' h t') -> wpc (comment_loop f) s h t Q.
Proof.
  unfold within. induction n as [|n IH]; intros f [P fu o] h t Q Hn Hg Hf HQ; (destruct f as [|f]; [lia|]); unfold rem in *; cbn [fut comment_loop] in *; (destruct fu as [|c fu]; [|]); try discriminate.
  - apply wpc_get_end. intros k Hk Hi. cbn. apply HQ; [apply good_nil|cbn; lia].
  - apply wpc_get. intros k Hk Hi. destruct (is_end c || is_break c).
    + cbn [wpc]. apply HQ; [apply good_false|cbn; lia].
    + cbn in Hn, Hf. apply IH; cbn [fut]; try lia. apply good_false. intros s' t' G L. apply HQ; auto. cbn in *. lia.
Qed.

Lemma wpc_Comment s h t (Q : bool -> stream -> handler -> nat -> Prop) : good s -> (rem s < F)%nat ->
  (forall s' t', good s' -> (rem s' < rem s)%nat -> within 1 3 s s' t t' -> Q true s' h t') ->
  (forall s' t', good s' -> fut s' = fut s -> (t' <= t + 4)%nat -> Q false s' h t') -> wpc (Comment F) s h t Q.
Proof.
  destruct s as [P f o]. unfold rem. cbn [fut]. intros Hg HF HT HN. unfold Comment, Byte_. cbn [pbind]. destruct f as [|c f].
  - apply wpc_get_end. intros k Hk Hi. cbn. apply HN; [apply good_nil|auto|lia].
  - apply wpc_get. intros k Hk Hi. destruct (beq_spec c "#") as [->|Hc]; cbn [pbind].
    + destruct f as [|c f].
      * apply wpc_get_end. intros k2 Hk2 Hi2. change (is_space x00) with false. cbv iota. apply wpc_un_over.
        destruct k2; [unfold half in Hk2; lia|]. cbn [firstn]. apply wpc_un. cbn [wpc]. apply HN; [apply good_false|auto|lia].
      * apply wpc_get. intros k2 Hk2 Hi2. destruct (is_space c).
        -- eapply wpc_comment_loop; [reflexivity|apply good_false|unfold rem; cbn in *; lia|]. intros s' t' G (L1 & L2). unfold within, rem in *. cbn in *. apply HT; auto; lia.
        -- apply wpc_un. destruct k2; [unfold half in Hk2; lia|]. cbn [firstn]. apply wpc_un. cbn [wpc]. apply HN; [apply good_false|auto|lia].
    + apply wpc_un. cbn [wpc]. apply HN; [apply good_false|auto|lia].
Qed.

Lemma wpc_space_max : forall n f mx a b s h t (Q : Z * byte -> stream -> handler -> nat -> Prop), rem s = n -> good s -> (rem s < f)%nat ->
  (forall r s' t', good s' -> within 1 2 s s' t t' -> Q r s' h t') -> wpc (space_max f mx a b) s h t Q.
Proof.
  unfold within. induction n as [|n IH]; intros f mx a b [P fu o] h t Q Hn Hg Hf HQ; (destruct f as [|f]; [lia|]); unfold rem in *; cbn [fut space_max] in *; (destruct fu as [|c fu]; [|]); try discriminate.
  - apply wpc_get_end. intros k Hk Hi. change (is_space x00) with false. cbn [negb]. apply wpc_un_over. cbn [wpc]. apply HQ; [apply good_nil|cbn; lia].
  - apply wpc_get. intros k Hk Hi. cbv zeta. destruct (is_space c); cbn [negb].
    + cbn in Hn, Hf.
      assert (G : forall x y, wpc (if (x =? mx) || (y =? mx) then Ret (x + y, if y =? 0 then x20 else if x =? 0 then x09 else x00) else space_max f mx x y)
                   (mkS (c :: firstn k P) fu false) h (S t) Q).
      { intros x y. destruct ((x =? mx) || (y =? mx)).
        - cbn [wpc]. apply HQ; [apply good_false|cbn; lia].
        - apply IH; cbn [fut]; try lia. apply good_false. intros r s' t' G L. apply HQ; auto. cbn in *. lia. }
      destruct (beq c x20); apply G.
    + apply wpc_un. cbn [wpc]. apply HQ; [apply good_false|cbn; lia].
Qed.

Lemma wpc_quoted_loop ind q : forall n f c2 buf s h t (Q : option bytes -> stream -> handler -> nat -> Prop), (rem s <= n)%nat -> good s -> (rem s < f)%nat -> (rem s < F)%nat ->
  (forall r s' t', good s' -> within 3 1 s s' t t' -> Q r s' h t') -> wpc (quoted_loop F f ind q c2 buf) s h t Q.
Proof.
  unfold within. induction n as [|n IH]; intros f c2 buf [P fu o] h t Q Hn Hg Hf HF HQ; (destruct f as [|f]; [lia|]); unfold rem in *; cbn [fut quoted_loop] in *; (destruct fu as [|c fu]; [|]); try (cbn in Hn; lia).
  - apply wpc_get_end. intros k Hk Hi. cbn. apply HQ; [apply good_nil|cbn; lia].
  - apply wpc_get_end. intros k Hk Hi. cbn. apply HQ; [apply good_nil|cbn; lia].
  - apply wpc_get. intros k Hk Hi. cbv zeta. cbn in Hn, Hf, HF.
    assert (Rec : forall c2 buf s' t1, good s' -> (rem s' <= List.length fu)%nat -> (t1 + 3 * rem s' <= t + 3 * S (List.length fu))%nat -> wpc (quoted_loop F f ind q c2 buf) s' h t1 Q).
    { intros c2' buf' s' t1 Hg' Hl' Ht'. unfold rem in *. apply IH; auto; try lia. intros r s'' t'' G L. apply HQ; auto. cbn [List.length]. lia. }
    assert (Done : forall r, wpc (Ret r) (mkS (c :: firstn k P) fu false) h (S t) Q).
    { intro r. cbn [wpc]. apply HQ; [apply good_false|cbn [fut List.length]; lia]. }
    destruct (is_end c); [apply Done|]. destruct (beq c q && beq q "`"); [apply Done|].
    destruct (beq c q && negb (beq c2 "\")); [apply Done|]. destruct (beq c "\"); [apply Rec; [apply good_false|unfold rem; cbn; lia|unfold rem; cbn [fut]; lia]|].
    destruct (beq c x0a).
    + apply wpc_bind. unfold SpaceMax. eapply wpc_space_max; [reflexivity|apply good_false|unfold rem; cbn; lia|].
      intros r s' t' G L. unfold within, rem in L. cbn [fut] in L. destruct (beq (snd r) x00); [cbn [wpc]; apply HQ; auto; cbn [List.length]; lia|].
      destruct (fst r <? ind); [cbn [wpc]; apply HQ; auto; cbn [List.length]; lia|]. apply Rec; auto; unfold rem; lia.
    + apply Rec; [apply good_false|unfold rem; cbn; lia|unfold rem; cbn [fut]; lia].
Qed.

Lemma wpc_Quoted ind s h t (Q : option bytes -> stream -> handler -> nat -> Prop) : good s -> (rem s < F)%nat ->
  (forall r s' t', good s' -> (r = None /\ fut s' = fut s) \/ (rem s' < rem s)%nat /\ is_text (head s) = true -> within 3 2 s s' t t' -> Q r s' h t') -> wpc (Quoted F ind) s h t Q.
Proof.
  destruct s as [P f o]. unfold within, rem. cbn [fut]. intros Hg HF HQ. unfold Quoted, Byte_, head in *. cbn [fut] in HQ. cbn [pbind]. destruct f as [|c f].
  - apply wpc_get_end. intros k Hk Hi. cbn. apply HQ; [apply good_nil|auto|cbn; lia].
  - apply wpc_get. intros k Hk Hi. destruct (is_quote c) eqn:Eq; cbn [negb].
    + cbn in HF. apply (wpc_quoted_loop ind c (List.length f)); unfold rem; cbn [fut]; try lia. apply good_false.
      intros r s' t' G L. unfold within, rem in L. cbn [fut] in L. apply HQ; auto; [|cbn [List.length]; lia]. right. split; [cbn; lia|].
      unfold is_quote in Eq. destruct (beq_spec c x22) as [->|]; [reflexivity|]. destruct (beq_spec c "'") as [->|]; [reflexivity|].
      destruct (beq_spec c "`") as [->|]; [reflexivity|discriminate].
    + apply wpc_un. cbn [wpc]. apply HQ; [apply good_false|auto|cbn; lia].
Qed.

Lemma wpc_String s h t (Q : bytes -> stream -> handler -> nat -> Prop) : good s -> (rem s < F)%nat ->
  (forall r s' t', good s' -> within 1 2 s s' t t' -> (is_text (head s) = true -> (rem s' < rem s)%nat) -> (is_text (head s) = false -> fut s' = fut s) -> Q r s' h t') -> wpc (String_tok F) s h t Q.
Proof.
  intros Hg HF HQ. apply wpc_span_any; auto. intros s' Hm _ _ _. apply HQ; [apply Hm| | |].
  - pose proof (moved_rem _ _ _ Hm). unfold within. lia.
  - intro Ht. rewrite (moved_rem _ _ _ Hm). unfold head in Ht. destruct (fut s) as [|c r]; [discriminate|]. cbn [tw]. rewrite Ht. cbn. lia.
  - intro Ht. destruct Hm as (Hm & _). unfold head in Ht. destruct (fut s) as [|c r] eqn:Es; [symmetry; exact Hm|].
    cbn [tw] in Hm. rewrite Ht in Hm. symmetry; exact Hm.
Qed.

Lemma wpc_block_line : forall n f buf s h t (Q : bytes -> stream -> handler -> nat -> Prop), rem s = n -> good s -> (rem s < f)%nat ->
  (forall r s' t', good s' -> within 1 1 s s' t t' -> Q r s' h t') -> wpc (block_line f buf) s h t Q.
Proof.
  unfold within. induction n as [|n IH]; intros f buf [P fu o] h t Q Hn Hg Hf HQ; (destruct f as [|f]; [lia|]); unfold rem in *; cbn [fut block_line] in *; (destruct fu as [|c fu]; [|]); try discriminate.
  - apply wpc_get_end. intros k Hk Hi. cbn. apply HQ; [apply good_nil|cbn; lia].
  - apply wpc_get. intros k Hk Hi. cbn in Hn, Hf.
    assert (Done : forall r, wpc (Ret r) (mkS (c :: firstn k P) fu false) h (S t) Q).
    { intro r. cbn [wpc]. apply HQ; [apply good_false|cbn [fut List.length]; lia]. }
    assert (Rec : forall b, wpc (block_line f b) (mkS (c :: firstn k P) fu false) h (S t) Q).
    { intro b. apply IH; cbn [fut]; try lia. apply good_false. intros r s' t' G L. apply HQ; auto; cbn [List.length]; lia. }
    destruct (is_end c); [apply Done|]. destruct (beq c x0d); [apply Rec|]. destruct (beq c x0a); [apply Done|apply Rec].
Qed.

Lemma wpc_block_lines nsp : 0 <= nsp -> forall n f buf s h t (Q : bytes -> stream -> handler -> nat -> Prop), (rem s <= n)%nat -> good s -> (rem s < f)%nat -> (rem s < F)%nat ->
  (forall r s' t', good s' -> within 4 2 s s' t t' -> Q r s' h t') -> wpc (block_lines F f nsp buf) s h t Q.
Proof.
  intros Hnsp. unfold within.
  induction n as [|n IH]; intros f buf s h t Q Hn Hg Hf HF HQ; (destruct f as [|f]; [lia|]); cbn [block_lines]; apply wpc_bind, wpc_Space; auto;
    intros w s' Hw Hm Hr Hi Hd; cbn [fst snd]; pose proof (moved_rem _ _ _ Hm) as Hl.
  all: destruct (beq (space_kind w) x00 || (Z.of_nat (List.length w) <=? nsp)) eqn:Ek; [cbn [wpc]; apply HQ; [apply Hm|lia]|].
  all: apply orb_false_iff in Ek as [_ Ek]; apply Z.leb_gt in Ek.
  - exfalso. lia.
  - apply wpc_bind. eapply wpc_block_line; [reflexivity|apply Hm|lia|]. intros r s2 t2 G2 L2. unfold within in L2.
    apply IH; auto; try lia. intros r2 s3 t3 G3 L3. apply HQ; auto. lia.
Qed.

Lemma wpc_Block nsp s h t (Q : option bytes -> stream -> handler -> nat -> Prop) : 0 <= nsp -> good s -> (rem s < F)%nat ->
  (forall s' t', good s' -> fut s' = fut s -> (t' <= t + 4)%nat -> Q None s' h t') ->
  (forall b s' t', good s' -> (rem s' < rem s)%nat -> within 4 2 s s' t t' -> Q (Some b) s' h t') -> wpc (Block F nsp) s h t Q.
Proof.
  destruct s as [P f o]. unfold within, rem. cbn [fut]. intros Hnsp Hg HF HN HS. unfold Block. apply wpc_bind. unfold Byte_ at 1.
  assert (Lines : forall (s' : stream) t1, good s' -> (rem s' < List.length f)%nat -> (t1 + 4 * rem s' <= t + 4 * List.length f)%nat ->
      wpc (do b <- block_lines F F nsp []; Ret (Some (trim_nl b))) s' h t1 Q).
  { intros s' t1 G L T. apply wpc_bind. apply (wpc_block_lines nsp Hnsp (rem s')); auto; try lia. intros r s2 t2 G2 L2. cbn [wpc]. unfold within, rem in *. apply HS; auto; lia. }
  destruct f as [|c f].
  - apply wpc_get_end. intros k Hk Hi. cbn. apply HN; [apply good_nil|auto|lia].
  - apply wpc_get. intros k Hk Hi. cbn [wpc]. destruct (beq_spec c "\") as [->|Hc]; cbn [negb].
    + apply wpc_bind. unfold Byte_ at 1. destruct f as [|c f].
      * apply wpc_get_end. intros k2 Hk2 Hi2. cbn [wpc]. change (negb (beq x00 x0a) && negb (beq x00 x0d)) with true. cbv iota. apply wpc_un_over.
        destruct k2; [unfold half in Hk2; lia|]. cbn [firstn]. apply wpc_un. cbn [wpc]. apply HN; [apply good_false|auto|lia].
      * apply wpc_get. intros k2 Hk2 Hi2. cbn [wpc]. destruct (negb (beq c x0a) && negb (beq c x0d)).
        -- apply wpc_un. destruct k2; [unfold half in Hk2; lia|]. cbn [firstn]. apply wpc_un. cbn [wpc]. apply HN; [apply good_false|auto|lia].
        -- apply wpc_bind. destruct (beq c x0d).
           ++ apply wpc_bind. apply wpc_Byte; [apply good_false|]. intros s' G L _. cbn [wpc]. apply Lines; auto; unfold rem in *; cbn [fut List.length] in *; lia.
           ++ cbn [wpc]. apply Lines; [apply good_false| |]; unfold rem; cbn [fut List.length]; lia.
    + apply wpc_un. cbn [wpc]. apply HN; [apply good_false|auto|lia].
Qed.

Variable E : env.

Lemma wpc_scalar types n s h t (Q : unit -> stream -> handler -> nat -> Prop) : good s -> (rem s < F)%nat -> h_inv h ->
  (forall s' h' t', good s' -> within 3 5 s s' t t' -> (is_text (head s) = true -> (rem s' < rem s)%nat) ->
     (is_text (head s) = false -> fut s' = fut s) -> h_inv h' -> Q tt s' h' t') ->
  wpc (scalar_event F E types n) s h t Q.
Proof.
  intros Hg HF Hh HQ. unfold scalar_event.
  assert (K : forall A (f : option bytes -> prog A) (Q' : A -> stream -> handler -> nat -> Prop),
     (forall b s' t', good s' -> (rem s' < rem s)%nat -> is_text (head s) = true -> within 3 2 s s' t t' -> wpc (f (Some b)) s' h t' Q') ->
     (forall s' t', good s' -> fut s' = fut s \/ (rem s' < rem s)%nat /\ is_text (head s) = true -> within 3 2 s s' t t' -> wpc (f None) s' h t' Q') -> wpc (do q <- Quoted F n; f q) s h t Q').
  { intros A f Q' H1 H2. apply wpc_bind, wpc_Quoted; auto. intros [b|] s' t' G [[H L]|[L L']] W; try discriminate; auto. }
  assert (Str : forall s' s2, good s' -> fut s' = fut s \/ (rem s' < rem s)%nat /\ is_text (head s) = true ->
     (rem s2 <= rem s')%nat -> (is_text (head s') = true -> (rem s2 < rem s')%nat) -> (is_text (head s') = false -> fut s2 = fut s') ->
     (is_text (head s) = true -> (rem s2 < rem s)%nat) /\ (is_text (head s) = false -> fut s2 = fut s)).
  { intros s' s2 G [HL|[HL HT]] L2 T2 N2; [|split; [lia|congruence]].
    unfold rem, head in *. rewrite HL in *. auto. }
  assert (Rem : forall s', fut s' = fut s \/ (rem s' < rem s)%nat /\ is_text (head s) = true -> (rem s' < F)%nat).
  { intros s' [HL|[HL _]]; unfold rem in *; [rewrite HL|]; lia. }
  destruct types.
  - apply wpc_bind. unfold ScalarType. apply K.
    + intros b s' t' G L T W. cbn [wpc]. apply wpc_ev with (h_add (VStr b) h); [reflexivity|]. cbn [wpc]. apply HQ; auto using h_add_inv; [unfold within in *; lia|congruence].
    + intros s' t' G HL W. apply wpc_bind. apply wpc_String; auto.
      intros r s2 t2 G2 L2 T2 N2. destruct (Str s' s2 G HL (proj1 L2) T2 N2) as (X2 & X3). cbn [wpc]. destruct r as [|r0 r].
      * cbn [wpc]. apply HQ; auto. unfold within in *; lia.
      * eapply wpc_ev; [reflexivity|]. cbn [wpc]. apply HQ; auto using h_add_inv. unfold within in *; lia.
  - apply wpc_bind. unfold Scalar_tok. apply K.
    + intros b s' t' G L T W. cbn [wpc]. apply wpc_ev with (h_add (VStr b) h); [reflexivity|]. cbn [wpc]. apply HQ; auto using h_add_inv; [unfold within in *; lia|congruence].
    + intros s' t' G HL W. apply wpc_bind. apply wpc_String; auto.
      intros r s2 t2 G2 L2 T2 N2. destruct (Str s' s2 G HL (proj1 L2) T2 N2) as (X2 & X3). cbn [wpc]. destruct r as [|r0 r]; cbn [nonempty].
      * cbn [wpc]. apply HQ; auto. unfold within in *; lia.
      * eapply wpc_ev; [reflexivity|]. cbn [wpc]. apply HQ; auto using h_add_inv. unfold within in *; lia.
Qed.

Lemma wpc_line_loop types n : 0 <= n -> forall f s h t (Q : bool -> stream -> handler -> nat -> Prop), good s -> (rem s < f)%nat -> (rem s < F)%nat -> h_inv h ->
  (forall b s' h' t', good s' -> within 30 30 s s' t t' -> (b = true -> (rem s' < rem s)%nat) -> h_inv h' -> Q b s' h' t') ->
  wpc (line_loop F E f types n) s h t Q.
Proof.
  intro Hn. unfold within. induction f as [|f IH]; intros s h t Q Hg Hf HF Hh HQ; [lia|]. cbn [line_loop].
  apply wpc_bind, wpc_End; auto.
  { intros s' t' G L T. cbn [wpc]. apply HQ; auto; [lia|discriminate]. }
  intros s1 c r t1 G1 Hc Hend Hf1 T1.
  assert (Hpos : (0 < rem s)%nat) by (unfold rem; rewrite Hc; cbn; lia).
  assert (R1 : rem s1 = rem s) by (unfold rem; rewrite Hf1; reflexivity).
  apply wpc_bind, wpc_Break; auto.
  { intros s2 t2 G2 L2 T2. cbn [wpc]. apply HQ; auto; lia. }
  intros s2 t2 G2 B2 T2.
  assert (R2 : (rem s2 <= rem s)%nat).
  { destruct B2 as [[B2 _]|B2]; [|lia]. unfold rem in *. rewrite B2. lia. }
  apply wpc_bind, wpc_Comment; auto; [lia| |].
  { intros s3 t3 G3 L3 W3. unfold within in W3. cbn [wpc]. apply HQ; auto; lia. }
  intros s3 t3 G3 F3 T3. assert (R3 : rem s3 = rem s2) by (unfold rem; rewrite F3; reflexivity).
  apply wpc_bind, wpc_Block; auto; [lia| |].
  2:{ intros b s4 t4 G4 L4 W4. unfold within in W4. apply wpc_bind. eapply wpc_ev; [reflexivity|]. cbn [wpc]. apply wpc_bind, wpc_Break; auto.
      - intros s5 t5 G5 L5 T5. cbn [wpc]. apply HQ; auto using h_add_inv; lia.
      - intros s5 t5 G5 B5 T5. cbn [wpc]. assert ((rem s5 <= rem s4)%nat).
        { destruct B5 as [[B5 _]|B5]; [|lia]. unfold rem. rewrite B5. lia. }
        apply HQ; auto using h_add_inv; lia. }
  intros s4 t4 G4 F4 T4. assert (R4 : rem s4 = rem s3) by (unfold rem; rewrite F4; reflexivity).
  apply wpc_bind, wpc_scalar; auto; [lia|]. intros s5 h5 t5 G5 W5 T5 N5 Hh5. unfold within in W5.
  apply wpc_bind, wpc_Break; auto.
  { intros s6 t6 G6 L6 T6. cbn [wpc]. apply HQ; auto; lia. }
  intros s6 t6 G6 B6 T6.
  assert (R6 : (rem s6 <= rem s5)%nat).
  { destruct B6 as [[B6 _]|B6]; [|lia]. unfold rem in *. rewrite B6. lia. }
  apply wpc_bind, wpc_Space_skip; auto; [lia|]. intros a s7 t7 G7 F7 W7. unfold within in W7.
  apply wpc_bind. eapply wpc_ev; [reflexivity|]. cbn [wpc].
  (* something has been consumed *)
  assert (Hlt : (rem s7 < rem s)%nat).
  { destruct B2 as [[B2 K2]|B2]; [|lia].
    destruct (byte_kinds c) as [Kc|[Kc|[Kc|Kc]]].
    - congruence.
    - unfold head in K2. rewrite Hf1, Hc in K2. congruence.
    - (* a blank: nothing before Space took it *)
      assert (Ht4 : is_text (head s4) = false).
      { unfold head. rewrite F4, F3, B2, Hf1, Hc. clear - Kc. unfold is_space, is_text in *. lia. }
      specialize (N5 Ht4). destruct B6 as [[B6 _]|B6]; [|lia].
      unfold rem. rewrite F7, B6, N5, F4, F3, B2, Hf1, Hc. cbn [dw]. rewrite Kc. cbn [List.length].
      pose proof (tw_dw is_space r) as Hr. apply (f_equal (@List.length byte)) in Hr. rewrite app_length in Hr. lia.
    - assert (is_text (head s4) = true) by (unfold head; rewrite F4, F3, B2, Hf1, Hc; exact Kc). specialize (T5 H). lia. }
  apply IH; auto; try lia.
  { apply h_inc_inv; auto. }
  intros b s8 h8 t8 G8 W8 B8 Hh8. apply HQ; auto; lia.
Qed.

(** ** Lines and levels
    Every level is closed by a line that is not indented enough for it, whose blanks are
    read once more; the first line of the level, with at least as many blanks, pays for it. *)
Variable L : nat.
(** When an indentation is too long to be unread, the past kept is at most L. *)
Hypothesis Hlong : forall w s, inv s -> recent w s -> Forall (fun c => is_space c = true) w -> 2040 < len w -> (List.length (past s) <= L)%nat.

Definition K0 : nat := 128.
Definition pot (s : stream) : nat := ((K0 + 4 * L) * rem s)%nat.
Lemma pot_le s s' : (rem s' <= rem s)%nat -> (pot s' + 128 * (rem s - rem s') <= pot s)%nat.
Proof. intro H. unfold pot, K0. replace (rem s) with (rem s' + (rem s - rem s'))%nat at 2 by lia. nia. Qed.
Lemma pot_lt s s' : (rem s' < rem s)%nat -> (pot s' + 4 * L + 128 * (rem s - rem s') <= pot s)%nat.
Proof. intro H. unfold pot, K0. replace (rem s) with (rem s' + (rem s - rem s'))%nat at 2 by lia. nia. Qed.
Lemma pot_eq s s' : rem s' = rem s -> pot s' = pot s.
Proof. unfold pot. intros ->. reflexivity. Qed.
Opaque pot.

Definition ind (s : stream) : nat := List.length (tw is_space (fut s)).

Definition tree_cost (s : stream) (n : nat) (t : nat) (s' : stream) (t' : nat) : Prop :=
  (rem s' <= rem s /\ t' + pot s' <= t + pot s + 2 * n + 60 /\
   (ind s = n -> 1 <= n -> rem s' + n <= rem s /\ t' + pot s' + 2 * n + 4 <= t + pot s) /\
   (ind s < n -> t' <= t + 2 * ind s + 8))%nat.

Definition line_cost (s : stream) (n : nat) (t : nat) (b : bool) (s' : stream) (t' : nat) : Prop :=
  (rem s' <= rem s /\
   (b = true -> rem s' < rem s /\ t' + pot s' <= t + pot s) /\
   (b = false -> t' + pot s' <= t + pot s + 2 * n + 50) /\
   (ind s = n -> rem s' + n <= rem s /\ t' + pot s' + 127 * n <= t + pot s + 50) /\
   (ind s < n -> b = false /\ t' <= t + 2 * ind s + 2))%nat.

Lemma tw_app p w r : Forall (fun c => p c = true) w -> stops p r -> tw p (w ++ r) = w.
Proof.
  intros Hw Hr. induction Hw as [|c w Hc Hw IH]; cbn [app].
  - destruct r as [|c r]; [reflexivity|]. cbn [tw stops] in *. rewrite Hr. reflexivity.
  - cbn [tw]. rewrite Hc, IH. reflexivity.
Qed.

Lemma wpc_line (rec : Z -> prog unit) f types ns s h t (Q : bool -> stream -> handler -> nat -> Prop) :
  good s -> (rem s < f)%nat -> (rem s < F)%nat -> h_inv h ->
  (forall n s1 h1 t1 (Q1 : unit -> stream -> handler -> nat -> Prop), (ns < n)%nat -> good s1 -> h_inv h1 ->
     (ind s1 = n /\ (rem s1 <= rem s)%nat /\ ind s <> ns \/ (rem s1 < rem s)%nat) ->
     (forall s2 h2 t2, good s2 -> h_inv h2 -> tree_cost s1 n t1 s2 t2 -> Q1 tt s2 h2 t2) -> wpc (rec (Z.of_nat n)) s1 h1 t1 Q1) ->
  (forall b s' h' t', good s' -> h_inv h' -> line_cost s ns t b s' t' -> Q b s' h' t') ->
  wpc (line F E rec f types (Z.of_nat ns)) s h t Q.
Proof.
  intros Hg Hf HF Hh Hrec HQ. unfold line. apply wpc_bind, wpc_Space; auto. intros w s1 Hw Hm Hr Hi Hd. cbv iota.
  pose proof (moved_rem _ _ _ Hm) as Hl.
  assert (Hind : ind s = List.length w) by (unfold ind; rewrite Hw; reflexivity).
  assert (Hsp : Forall (fun c => is_space c = true) w) by (rewrite Hw; apply tw_all).
  assert (Hst : stops is_space (fut s1)) by (rewrite Hd; apply dw_stops).
  destruct (Z.ltb_spec (len w) (Z.of_nat ns)) as [Hlt|Hge].
  { rewrite Nat2Z.id. apply wpc_bind. apply (wpc_unread_n _ w s); auto. intros w1 w2 s' Hww Hm1 Hf1 _ _. cbn [wpc].
    pose proof (moved_rem _ _ _ Hm1). assert (Hle : (rem s' <= rem s)%nat) by lia. pose proof (pot_le _ _ Hle).
    apply HQ; [apply Hm1|exact Hh|]. unfold line_cost. rewrite Hind. repeat split; try discriminate; lia. }
  destruct (Z.ltb_spec (Z.of_nat ns) (len w)) as [Hgt|Hle].
  { rewrite Nat2Z.id. apply wpc_bind. apply (wpc_unread_n _ w s); auto. intros w1 w2 s' Hww Hm1 Hf1 Hs1 Hs2. cbn [wpc].
    pose proof (moved_rem _ _ _ Hm1) as Hl1. apply wpc_bind. eapply wpc_ev; [reflexivity|]. cbn [wpc]. apply wpc_bind.
    assert (Hlw : List.length w = (List.length w1 + List.length w2)%nat) by (rewrite Hww, app_length; reflexivity).
    assert (Hi2 : ind s' = List.length w2).
    { unfold ind. rewrite Hf1. rewrite Hww in Hsp. apply Forall_app in Hsp as [_ Hsp]. rewrite (tw_app _ _ _ Hsp Hst). reflexivity. }
    assert (Hcase : ind s' = List.length w /\ (rem s' <= rem s)%nat /\ ind s <> ns \/ (rem s' < rem s)%nat).
    { destruct w1 as [|c w1]; [left|right; cbn in Hl1; lia]. cbn in Hl1, Hlw. split; [lia|split; lia]. }
    apply Hrec; auto using h_inc_inv; [lia|apply Hm1|]. intros s2 h2 t2 G2 Hh2 (T1 & _ & T3 & T4).
    apply wpc_bind. eapply wpc_ev; [reflexivity|]. cbn [wpc].
    assert (Hres : (rem s2 < rem s)%nat /\ (S t2 + pot s2 <= t + pot s)%nat).
    { destruct w1 as [|c w1].
      - cbn in Hl1, Hlw. pose proof (pot_eq s s' ltac:(lia)) as Hp. destruct (T3 ltac:(lia) ltac:(lia)) as (A & B). lia.
      - assert (Hn0 : c :: w1 <> []) by discriminate. specialize (Hs2 Hn0). cbn [List.length] in Hl1, Hlw.
        assert (HL : (List.length (past s1) <= L)%nat).
        { apply (Hlong w s1 Hi Hr Hsp). destruct (Z.ltb_spec 2040 (len w)) as [X|X]; [exact X|]. destruct Hn0. exact (Hs1 X). }
        specialize (T4 ltac:(lia)). assert (Hlt2 : (rem s2 < rem s)%nat) by lia. pose proof (pot_lt _ _ Hlt2). lia. }
    apply HQ; auto using h_dec_inv. unfold line_cost. rewrite Hind. repeat split; try discriminate; lia. }
  assert (Hn : List.length w = ns) by lia.
  assert (Hg1 : good s1) by apply Hm.
  assert (Hfin : forall b s' h' t', good s' -> h_inv h' -> (rem s' <= rem s1)%nat -> (t' + 30 * rem s' <= t + List.length w + 30 * rem s1 + 50)%nat ->
     (b = true -> (rem s' < rem s)%nat) -> Q b s' h' t').
  { intros b s' h' t' G' Hh' R' T' B'. apply HQ; auto. assert (Hle' : (rem s' <= rem s)%nat) by lia. pose proof (pot_le _ _ Hle').
    unfold line_cost. rewrite Hind. repeat split; try lia. }
  apply wpc_bind. unfold Level. cbn [wpc].
  destruct (beq (space_kind w) x00 && (len w =? 0)).
  { cbn [wpc]. apply Hfin; auto; try lia. }
  apply wpc_bind, wpc_End; auto.
  { intros s2 t2 G2 L2 T2. cbn [wpc]. apply Hfin; auto; try lia. }
  intros s2 c r t2 G2 Hc Hend Hf2 T2. assert (R2 : rem s2 = rem s1) by (unfold rem; rewrite Hf2; reflexivity).
  apply wpc_bind, wpc_Peek; auto. intros s3 t3 G3 F3 T3. assert (R3 : rem s3 = rem s2) by (unfold rem; rewrite F3; reflexivity).
  assert (Hloop : forall (s4 : stream) t4, good s4 -> (rem s4 <= rem s1)%nat -> (t4 + rem s4 <= t3 + rem s3 + 3)%nat ->
     wpc (do b <- line_loop F E f types (len w); if b then skip ev (HSetLevel (cur h)); Ret true else Ret false) s4 h t4 Q).
  { intros s4 t4 G4 R4 T4. apply wpc_bind. apply wpc_line_loop; auto; try lia. intros b s5 h5 t5 G5 W5 B5 Hh5. unfold within in W5. destruct b.
    - apply wpc_bind. eapply wpc_ev; [reflexivity|]. cbn [wpc]. specialize (B5 eq_refl). apply Hfin; auto; try lia.
      apply h_set_inv; auto. destruct Hh as [Hh _]. lia.
    - cbn [wpc]. apply Hfin; auto; try lia. }
  apply wpc_bind. destruct (beq (head s2) ",").
  - apply wpc_bind, wpc_Byte; auto. intros s4 G4 R4 _. apply wpc_bind, wpc_Space_skip; auto; [lia|]. intros a s5 t5 G5 _ W5. unfold within in W5. cbn [wpc].
    apply Hloop; auto; lia.
  - cbn [wpc]. apply Hloop; auto; lia.
Qed.

Lemma wpc_tree types : forall f ns s h t (Q : unit -> stream -> handler -> nat -> Prop), good s -> h_inv h -> (rem s < F)%nat ->
  (2 * rem s + 3 <= f \/ ind s = ns /\ 2 * rem s + 2 <= f)%nat ->
  (forall s' h' t', good s' -> h_inv h' -> tree_cost s ns t s' t' -> Q tt s' h' t') -> wpc (tree_ F E f types (Z.of_nat ns)) s h t Q.
Proof.
  induction f as [|f IH]; intros ns s h t Q Hg Hh HF Hf HQ; [lia|]. cbn [tree_].
  apply wpc_bind, wpc_line; auto; try lia.
  - intros n s1 h1 t1 Q1 Hn G1 Hh1 Hcase HQ1. apply IH; auto; try lia.
  - intros b s1 h1 t1 G1 Hh1 (C1 & C2 & C3 & C4 & C5). destruct b.
    + destruct (C2 eq_refl) as (B1 & B2). apply IH; auto; try lia. intros s2 h2 t2 G2 Hh2 (T1 & T2 & _). apply HQ; auto.
      unfold tree_cost. repeat split; try lia.
    + specialize (C3 eq_refl).
      assert (Hend : forall s2 h2 t2, good s2 -> h_inv h2 -> (rem s2 <= rem s1)%nat -> (t2 <= t1 + 2)%nat -> Q tt s2 h2 t2).
      { intros s2 h2 t2 G2 Hh2 R2 T2. apply HQ; auto. pose proof (pot_le _ _ R2). unfold tree_cost. repeat split; try lia. }
      apply wpc_bind, wpc_End; auto.
      * intros s2 t2 G2 L2 T2. cbn [wpc]. apply Hend; auto.
      * intros s2 c r t2 G2 _ _ F2 T2. cbn [wpc]. assert (rem s2 = rem s1) by (unfold rem; rewrite F2; reflexivity). apply Hend; auto. lia.
Qed.

Lemma wpc_Ogdl types f s h t (Q : unit -> stream -> handler -> nat -> Prop) : good s -> h_inv h -> (rem s < F)%nat -> (2 * rem s + 3 <= f)%nat ->
  (forall s' h' t', good s' -> h_inv h' -> (t' <= t + 4 * rem s + pot s + 70)%nat -> Q tt s' h' t') -> wpc (Ogdl F E f types) s h t Q.
Proof.
  intros Hg Hh HF Hf HQ. unfold Ogdl. apply wpc_bind, wpc_Space; auto. intros w s1 Hw Hm Hr Hi Hd. cbv iota.
  pose proof (moved_rem _ _ _ Hm).
  destruct (beq (space_kind w) x00). { cbn [wpc]. apply HQ; auto. apply Hm. lia. }
  rewrite Nat2Z.id. apply wpc_bind. apply (wpc_unread_n _ w s); auto. intros w1 w2 s' Hww Hm1 Hf1 _ _. cbn [wpc].
  pose proof (moved_rem _ _ _ Hm1). assert (Hle : (rem s' <= rem s)%nat) by lia. pose proof (pot_le _ _ Hle).
  apply wpc_tree; auto; try lia. apply Hm1. intros s2 h2 t2 G2 Hh2 (T1 & T2 & _). apply HQ; auto. lia.
Qed.
Transparent pot.
End Specs.
End Cost.

Lemma count_bound E types rd fuel L : (2 * List.length (seen (size rd) rd) + 3 <= fuel)%nat ->
  (forall w s, inv (seen (size rd) rd) s -> recent w s -> Forall (fun c => is_space c = true) w -> 2040 < len w -> (List.length (past s) <= L)%nat) ->
  exists g n, FromReader_count E fuel types rd = Ok (g, n) /\ FromReader E fuel types rd = Ok g /\
    (n <= (132 + 4 * L) * List.length (seen (size rd) rd) + 70)%nat.
Proof.
  intros Hf HL. set (text := seen (size rd) rd) in *.
  assert (Hw : wpc text (Ogdl fuel E fuel types) (s_init text) h_init 0 (fun _ _ h t => h_inv h /\ (t <= 0 + 4 * List.length text + pot L (s_init text) + 70)%nat)).
  { apply (wpc_Ogdl text fuel E L HL types fuel); auto using h_init_inv; unfold rem, s_init; cbn [fut]; try lia. discriminate. }
  assert (Hi : inv text (s_init text)). { split; [cbn; lia|]. exists []. reflexivity. }
  destruct (wpc_sound text E fuel _ _ _ _ _ _ (NewLexer_repr rd) Hi Hw) as (a & x' & s' & h' & n & Hrun & Hh & Hn).
  assert (Ht : exists g, Tree h' = Ok g) by (rewrite (h_inv_Tree h' Hh); eauto). destruct Ht as (g & Hg).
  exists g, n. unfold FromReader_count, FromReader. rewrite (run_count_run E fuel (Ogdl fuel E fuel types) _ _ 0), Hrun. cbn [rbind]. rewrite Hg. cbn [rbind].
  split; [reflexivity|]. split; [reflexivity|]. unfold pot, rem, K0 in Hn. cbn [fut s_init] in Hn. lia.
Qed.

Lemma recent_run n w text s : inv text s -> recent w s -> Forall (fun c => is_space c = true) w -> 2040 < len w ->
  blank_runs n text -> 2040 <= n.
Proof.
  intros (_ & u & Ht) (_ & k & q & Hk & Hp) Hw Hlen Hb. pose proof keep_eq as Hke.
  set (m := rev (firstn keep (rev w))).
  assert (Hm : List.length m = keep) by (unfold m; rewrite rev_length, firstn_length, rev_length; lia).
  assert (Hsplit : exists p2, past s = firstn keep (rev w) ++ p2).
  { exists (skipn keep (past s)). rewrite <- (firstn_skipn keep (past s)) at 1. f_equal.
    rewrite Hp, firstn_firstn. replace (Nat.min keep k) with keep by lia. rewrite firstn_app, rev_length.
    replace (keep - List.length w)%nat with 0%nat by lia. cbn [firstn]. rewrite app_nil_r. reflexivity. }
  destruct Hsplit as (p2 & Hp2). rewrite Hp2, rev_app_distr, <- app_assoc in Ht. fold m in Ht. rewrite app_assoc in Ht.
  specialize (Hb _ _ _ Ht). assert (Hall : Forall (fun c => is_space c = true) m).
  { unfold m. apply Forall_rev. apply Forall_forall. intros c Hc. rewrite Forall_forall in Hw. apply Hw.
    apply in_rev. rewrite <- (firstn_skipn keep (rev w)). apply in_app_iff. left. exact Hc. }
  specialize (Hb Hall). rewrite Hm, Hke in Hb. exact Hb.
Qed.

Lemma count_any E types rd fuel : (2 * List.length (seen (size rd) rd) + 3 <= fuel)%nat ->
  exists g n, FromReader_count E fuel types rd = Ok (g, n) /\ FromReader E fuel types rd = Ok g /\
    Z.of_nat n <= 16516 * len (seen (size rd) rd) + 70.
Proof.
  intro Hf. destruct (count_bound E types rd fuel (Z.to_nat 4096) Hf) as (g & n & H1 & H2 & H3).
  { intros w s (Hi & _) _ _ _. lia. }
  exists g, n. split; [exact H1|]. split; [exact H2|]. nia.
Qed.
Lemma count_short E types rd fuel : (2 * List.length (seen (size rd) rd) + 3 <= fuel)%nat -> blank_runs 2039 (seen (size rd) rd) ->
  exists g n, FromReader_count E fuel types rd = Ok (g, n) /\ FromReader E fuel types rd = Ok g /\
    Z.of_nat n <= 132 * len (seen (size rd) rd) + 70.
Proof.
  intros Hf Hb. destruct (count_bound E types rd fuel 0 Hf) as (g & n & H1 & H2 & H3).
  { intros w s Hi Hr Hw Hl. pose proof (recent_run 2039 w _ s Hi Hr Hw Hl Hb). lia. }
  exists g, n. split; [exact H1|]. split; [exact H2|]. nia.
Qed.
