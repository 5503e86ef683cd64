(** Reasoning about parser programs that read tokens, over the real buffer and texts of any
    length (mode [Some N], N bounding the length of a token) or over the ideal stream (mode [None]). *)
From Verif Require Import Base Value Event EventFacts Lexer TextParser Stream Buffer BufferSpec BufferFacts Wp TextTerm PathParser PathTerm PathSpec.

Local Notation len l := (Z.of_nat (List.length l)).

(** ** Token8 inside the text *)

(** The ASCII characters of names, as Token8 sees them *)
Lemma ascii_name_token E c : bz c < 128 -> token_rune E (bz c) = name_char c.
Proof.
  intro H. pose proof (bz_range c). unfold token_rune, name_char, latin1_letter, latin1_digit. replace (bz c <=? 255) with true by lia. apply eq_iff_eq_true. lia.
Qed.
Lemma encode_ascii c : bz c < 128 -> encode_rune (bz c) = [c].
Proof. intro H. unfold encode_rune. replace (bz c <? 128) with true by lia. rewrite zb_bz. reflexivity. Qed.

Lemma fill_in x : 0 <= r_ x < 4096 -> fill x = x.
Proof. intro H. unfold fill, bufSize. replace (0 <=? r_ x) with true by lia. replace (r_ x <? 4096) with true by lia. reflexivity. Qed.

Lemma repr_in x s c r : repr x s -> fut s = c :: r -> 0 <= r_ x < 4096 /\ zget (buf x) (r_ x) = Ok c /\ (last x < 4096 -> r_ x < last x).
Proof.
  intros (Hbuf & Hlast & Hr & Hfut & Hpast & Hov & Hnov) Ef. rewrite Ef in Hfut.
  assert (H1 : r_ x < 4096 /\ (last x < 4096 -> r_ x < last x)).
  { destruct (Z.eqb_spec (last x) 4096) as [El|El].
    - destruct (over s); [destruct (Hov eq_refl); lia|]. destruct (Hnov eq_refl). lia.
    - rewrite app_nil_r in Hfut. apply (f_equal (@List.length byte)) in Hfut. rewrite skipn_length, firstn_length in Hfut. cbn in Hfut. lia. }
  split; [lia|]. split; [|tauto]. destruct H1 as (H1 & H2).
  destruct (skipn (Z.to_nat (r_ x)) (firstn (Z.to_nat (last x)) (buf x))) as [|c' f] eqn:Es.
  { apply (f_equal (@List.length byte)) in Es. rewrite skipn_length, firstn_length in Es. cbn in Es. lia. }
  cbn in Hfut. injection Hfut as -> _. destruct (skipn_S _ _ _ _ Es) as (_ & K & _). rewrite nth_firstn in K by lia.
  unfold zget. replace (r_ x <? 0) with false by lia. rewrite K. reflexivity.
Qed.

(** A rune that is an ASCII character is read as a byte, except that the refill comes later. *)
Lemma repr_rune x s c r : repr x s -> fut s = c :: r -> bz c < 128 ->
  b_rune x = Ok (bz c, 1, mkX (buf x) (rd x) (r_ x + 1) (last x)) /\
  b_byte x = Ok (c, true, fill (mkX (buf x) (rd x) (r_ x + 1) (last x))).
Proof.
  intros Hr Ef Hc. destruct (repr_in x s c r Hr Ef) as (H1 & H2 & H3). unfold b_rune, b_byte. rewrite (fill_in x H1), H2. cbn [rbind].
  replace (bz c <? 128) with true by lia. cbn [rbind]. split; [reflexivity|].
  unfold bufSize. destruct (Z.ltb_spec (last x) 4096) as [Hl|Hl]; cbn [andb]; [replace (last x <=? r_ x) with false by lia|]; reflexivity.
Qed.
Lemma fill_range x s c r : repr (fill x) s -> fut s = c :: r -> fill (fill x) = fill x.
Proof. intros Hr Ef. apply fill_in. apply (repr_in _ s c r Hr Ef). Qed.
Lemma b_token_fill E f tok x s c r : repr (fill x) s -> fut s = c :: r -> b_token E f tok (fill x) = b_token E f tok x.
Proof. intros Hr Ef. destruct f as [|f]; [reflexivity|]. cbn [b_token]. unfold b_rune. rewrite (fill_range x s c r Hr Ef). reflexivity. Qed.

Lemma repr_token E w : forall f tok x s c r, repr x s -> fut s = w ++ c :: r -> Forall (fun c => name_char c = true) w -> bz c < 128 -> name_char c = false -> (List.length w < f)%nat ->
  exists x' s', b_token E f tok x = Ok (tok ++ w, x') /\ repr x' s' /\ fut s' = c :: r /\ over s' = false.
Proof.
  induction w as [|a w IH]; intros f tok x s c r Hr Ef Hw Hc Hn Hf; (destruct f as [|f]; [cbn in Hf; lia|]); cbn [b_token app] in *.
  - destruct (repr_rune x s c r Hr Ef Hc) as (E1 & _). rewrite E1. cbn [rbind]. rewrite (ascii_name_token E c Hc), Hn.
    rewrite app_nil_r. exists x, s. split.
    + destruct x as [b d p l]. cbn [buf rd r_ last]. repeat f_equal. lia.
    + split; [exact Hr|]. split; [exact Ef|]. destruct (over s) eqn:Eo; [|reflexivity]. exfalso. destruct (repr_in x s c r Hr Ef) as (H1 & _ & H2).
      destruct Hr as (_ & _ & _ & _ & _ & Hov & _). specialize (Hov Eo). lia.
  - inversion Hw as [|? ? Ha Hw']; subst. assert (Ha2 : bz a < 128) by (unfold name_char in Ha; lia).
    destruct (repr_rune x s a (w ++ c :: r) Hr Ef Ha2) as (E1 & E2). rewrite E1. cbn [rbind]. rewrite (ascii_name_token E a Ha2), Ha.
    pose proof (repr_byte x s Hr) as Hb. unfold s_byte in Hb. rewrite Ef in Hb. destruct Hb as (x' & s'' & Ex & (Hc1 & Hc2 & _) & Hr').
    rewrite E2 in Ex. injection Ex as <-. cbn [fut over] in *.
    assert (Hne : exists c0 r0, fut s'' = c0 :: r0) by (rewrite Hc1; destruct w; cbn; eauto). destruct Hne as (c0 & r0 & Hne).
    rewrite <- (b_token_fill E f _ _ s'' c0 r0 Hr' Hne).
    destruct (IH f (tok ++ encode_rune (bz a)) _ s'' c r Hr' Hc1 Hw' Hc Hn ltac:(cbn in Hf; lia)) as (x2 & s2 & H1 & H2 & H3 & H4).
    exists x2, s2. rewrite H1, (encode_ascii a Ha2), <- app_assoc. auto.
Qed.

(** ** Weakest preconditions over the buffered lexer, with tokens *)
Section Wpl.
Variable E : env.
Variable N : nat.

(** A token is an ASCII name and ends at an ASCII character of the text. *)
Fixpoint wpl {A} (m : prog A) (s : stream) (h : handler) (Q : A -> stream -> handler -> Prop) : Prop :=
  match m with
  | Ret a => Q a s h
  | GetB k => forall s', cut (snd (s_byte s)) s' -> wpl (k (fst (fst (s_byte s))) (snd (fst (s_byte s)))) s' h Q
  | UnB k => wpl k (s_unread s) h Q
  | Tok k => exists w c r, fut s = w ++ c :: r /\ Forall (fun c => name_char c = true) w /\ bz c < 128 /\ name_char c = false /\ (List.length w < N)%nat /\
      forall s', fut s' = c :: r -> over s' = false -> wpl (k w) s' h Q
  | Ev o k => exists h', h_step o h = Ok h' /\ wpl k s h' Q
  | Lvl k => wpl (k (cur h)) s h Q
  | Stop => False
  end.

Lemma wpl_sound {A} (m : prog A) : forall x s h Q, repr x s -> wpl m s h Q ->
  exists a x' s' h', run_buf E N m x h = Ok (a, x', h') /\ repr x' s' /\ Q a s' h'.
Proof.
  induction m as [a|k IH|k IH|k IH|o k IH|k IH|]; intros x s h Q Hr Hw; cbn [run_buf wpl] in *.
  - exists a, x, s, h. auto.
  - pose proof (repr_byte x s Hr) as Hb. destruct (s_byte s) as [[c ok] s']. cbn [fst snd] in Hw.
    destruct Hb as (x' & s'' & Ex & Hc & Hr'). rewrite Ex. cbn [rbind]. exact (IH c ok x' s'' h Q Hr' (Hw s'' Hc)).
  - apply (IH _ (s_unread s)); [apply repr_unread, Hr|exact Hw].
  - destruct Hw as (w & c & r & Ef & Hw & Hc & Hn & Hl & K). destruct (repr_token E w N [] x s c r Hr Ef Hw Hc Hn Hl) as (x' & s' & Et & Hr' & Ef' & Eo').
    rewrite Et. cbn [rbind app]. exact (IH w x' s' h Q Hr' (K s' Ef' Eo')).
  - destruct Hw as (h' & -> & Hw). cbn [rbind]. apply (IH x s h' Q Hr Hw).
  - apply (IH (cur h) x s h Q Hr Hw).
  - contradiction.
Qed.
Lemma wpl_mono {A} (m : prog A) : forall s h (Q Q' : A -> stream -> handler -> Prop),
  wpl m s h Q -> (forall a s h, Q a s h -> Q' a s h) -> wpl m s h Q'.
Proof.
  induction m as [a|k IH|k IH|k IH|o k IH|k IH|]; intros s h Q Q' Hw HQ; cbn [wpl] in *; auto.
  - intros s' Hc. eapply IH; eauto.
  - eapply IH; eauto.
  - destruct Hw as (w & c & r & H1 & H2 & H3 & H4 & H5 & K). exists w, c, r. split; [exact H1|]. split; [exact H2|]. split; [exact H3|]. split; [exact H4|]. split; [exact H5|].
    intros s' Hf Ho. eapply IH; eauto.
  - destruct Hw as (h' & He & Hw). exists h'. split; [exact He|]. eapply IH; eauto.
  - eapply IH; eauto.
Qed.
Lemma wpl_bind {A B} (m : prog A) (f : A -> prog B) : forall s h Q,
  wpl m s h (fun a s h => wpl (f a) s h Q) -> wpl (pbind m f) s h Q.
Proof.
  induction m as [a|k IH|k IH|k IH|o k IH|k IH|]; intros s h Q Hw; cbn [wpl pbind] in *; auto.
  - destruct Hw as (w & c & r & H1 & H2 & H3 & H4 & H5 & K). exists w, c, r. split; [exact H1|]. split; [exact H2|]. split; [exact H3|]. split; [exact H4|]. split; [exact H5|].
    intros s' Hf Ho. apply IH, K; assumption.
  - destruct Hw as (h' & He & Hw). exists h'. auto.
Qed.
Lemma wpl_of_wp {A} (m : prog A) : forall s h (Q : A -> stream -> handler -> Prop), wp m s h Q -> wpl m s h Q.
Proof.
  induction m as [a|k IH|k IH|k IH|o k IH|k IH|]; intros s h Q Hw; cbn [wpl wp] in *; auto; try contradiction.
  destruct Hw as (h' & He & Hw). exists h'. auto.
Qed.
End Wpl.

(** ** Both modes *)
Class mode : Type := long : option nat.
#[global] Instance short : mode := None.

Definition wpx {L : mode} (E : env) {A} (m : prog A) (s : stream) (h : handler) (Q : A -> stream -> handler -> Prop) : Prop :=
  match L with None => wpi E m s h Q | Some N => wpl (S N) m s h Q end.

Section Rules.
Context {L : mode}.
Variable E : env.
Lemma wpx_ret {A} (a : A) s h (Q : A -> stream -> handler -> Prop) : Q a s h -> wpx E (Ret a) s h Q.
Proof. unfold wpx. destruct L; auto. Qed.
Lemma wpx_bind {A B} (m : prog A) (f : A -> prog B) s h (Q : B -> stream -> handler -> Prop) :
  wpx E m s h (fun a s h => wpx E (f a) s h Q) -> wpx E (pbind m f) s h Q.
Proof. unfold wpx. destruct L; [apply wpl_bind|apply wpi_bind]. Qed.
Lemma wpx_mono {A} (m : prog A) s h (Q Q' : A -> stream -> handler -> Prop) :
  wpx E m s h Q -> (forall a s h, Q a s h -> Q' a s h) -> wpx E m s h Q'.
Proof. unfold wpx. destruct L; [apply wpl_mono|apply wpi_mono]. Qed.
Lemma wpx_of_wp {A} (m : prog A) s h (Q : A -> stream -> handler -> Prop) : wp m s h Q -> wpx E m s h Q.
Proof. unfold wpx. destruct L; [apply wpl_of_wp|apply wpi_of_wp]. Qed.
Lemma wpx_ev {A} o (k : prog A) s h h' (Q : A -> stream -> handler -> Prop) : h_step o h = Ok h' -> wpx E k s h' Q -> wpx E (Ev o k) s h Q.
Proof. unfold wpx. destruct L; [cbn [wpl]; eauto|apply wpi_ev]. Qed.
Lemma wpx_Level {A} (k : Z -> prog A) s h (Q : A -> stream -> handler -> Prop) : wpx E (k (cur h)) s h Q -> wpx E (pbind Level k) s h Q.
Proof. unfold wpx. destruct L; auto. Qed.
Lemma wpx_emit {A} b (k : unit -> prog A) s h (Q : A -> stream -> handler -> Prop) : wpx E (k tt) s (h_add (VStr b) h) Q -> wpx E (pbind (emit b) k) s h Q.
Proof. intro H. unfold emit, ev. cbn [pbind]. eapply wpx_ev; [reflexivity|exact H]. Qed.
Lemma wpx_Inc {A} (k : unit -> prog A) s h (Q : A -> stream -> handler -> Prop) : wpx E (k tt) s (h_inc h) Q -> wpx E (pbind (ev HInc) k) s h Q.
Proof. intro H. unfold ev. cbn [pbind]. eapply wpx_ev; [reflexivity|exact H]. Qed.
Lemma wpx_Dec {A} (k : unit -> prog A) s h (Q : A -> stream -> handler -> Prop) : wpx E (k tt) s (h_dec h) Q -> wpx E (pbind (ev HDec) k) s h Q.
Proof. intro H. unfold ev. cbn [pbind]. eapply wpx_ev; [reflexivity|exact H]. Qed.
Lemma wpx_Set {A} l (k : unit -> prog A) s h (Q : A -> stream -> handler -> Prop) : wpx E (k tt) s (h_set_level l h) Q -> wpx E (pbind (ev (HSetLevel l)) k) s h Q.
Proof. intro H. unfold ev. cbn [pbind]. eapply wpx_ev; [reflexivity|exact H]. Qed.
Lemma wpx_byte {A} (k : byte -> prog A) s c w h Q : fut s = c :: w ->
  (forall n, (pred half <= n)%nat -> wpx E (k c) (mkS (c :: firstn n (past s)) w false) h Q) -> wpx E (pbind Byte_ k) s h Q.
Proof.
  intros Ef H. apply wpx_bind, wpx_of_wp. destruct s as [P f o]. cbn [fut past] in *. subst f. unfold Byte_. apply wp_get. intros n Hn. exact (H n Hn).
Qed.
Lemma wpx_un {A} (K : prog A) p c w h Q : wpx E K (mkS p (c :: w) false) h Q -> wpx E (UnB K) (mkS (c :: p) w false) h Q.
Proof. unfold wpx. destruct L; auto. Qed.
End Rules.
