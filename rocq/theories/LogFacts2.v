From Verif Require Import Base Value Event EventSpec EventFacts Binary BinarySpec BinaryFacts BinaryFacts2 Log LogSpec LogFacts.

(** ** Crashes *)

(** The bytes [b] are at position [p] and on disk. *)
Definition durable (p : Z) (b : bytes) (st : lstate) : Prop :=
  stored p b st /\ p + Z.of_nat (List.length b) <= Z.of_nat (ldur st).

Lemma stored_ge p b st f : stored p b st -> lfile st = Some f -> p + Z.of_nat (List.length b) <= Z.of_nat (List.length f).
Proof.
  intros (Hp & f0 & r & E & Es & Hl) Ef. assert (f0 = f) by congruence. subst f0.
  assert (H : List.length (skipn (Z.to_nat p) f) = List.length (b ++ r)) by (rewrite Es; reflexivity).
  rewrite skipn_length, app_length in H. lia.
Qed.

Lemma ldur_le_step E o st p st' : log_step E o st = Ok (p, st') -> ~ is_crash o -> (ldur st <= ldur st')%nat \/
  exists f, lfile st' = Some f /\ ldur st' = List.length f.
Proof.
  intros H Hc. destruct o as [g|b| |v|k]; cbn [log_step] in H.
  - unfold log_add in H. destruct (Binary E g) as [[b|]| |]; try discriminate; cbn [rbind] in H.
    + unfold log_add_binary in H. destruct (lfile st) as [f|]; injection H as _ <-; [|left; cbn; lia].
      unfold log_sync. cbn [lauto lfile]. destruct (lauto st); [right; eexists; split; reflexivity|left; cbn; lia].
    + injection H as _ <-. left; lia.
  - unfold log_add_binary in H. destruct (lfile st) as [f|]; injection H as _ <-; [|left; cbn; lia].
    unfold log_sync. cbn [lauto lfile]. destruct (lauto st); [right; eexists; split; reflexivity|left; cbn; lia].
  - injection H as _ <-. unfold log_sync. destruct (lfile st) as [f|]; [right; eexists; split; reflexivity|left; lia].
  - injection H as _ <-. left; cbn; lia.
  - exfalso; apply Hc; exact I.
Qed.

Lemma skipn_firstn_prefix {A} (n : nat) (f : list A) k b r :
  skipn n f = b ++ r -> (n + List.length b <= k)%nat -> exists r', skipn n (firstn k f) = b ++ r'.
Proof.
  intros H Hk. rewrite skipn_firstn_comm, H, firstn_app.
  rewrite firstn_all2 by lia. eexists. reflexivity.
Qed.

Lemma durable_step E o p b st q st' : durable p b st -> log_step E o st = Ok (q, st') -> durable p b st'.
Proof.
  intros [Hs Hd] H. assert (Hcr : is_crash o \/ ~ is_crash o) by (destruct o; cbn; tauto).
  pose proof Hs as (Hp & f & r & Ef & Es & Hl). destruct Hcr as [Hcr|Hcr].
  - destruct o as [| | | |k]; try contradiction. cbn in H. injection H as _ <-.
    unfold log_crash. rewrite Ef. set (k' := Nat.max k (ldur st)).
    pose proof (stored_ge _ _ _ _ Hs Ef) as Hge.
    destruct (skipn_firstn_prefix _ _ k' _ _ Es) as [r' Er']; [lia|].
    split.
    + split; [exact Hp|]. exists (firstn k' f), r'. split; [reflexivity|]. split; [exact Er'|]. rewrite firstn_length. lia.
    + cbn [ldur OpenLog]. rewrite firstn_length. lia.
  - destruct (step_file _ _ _ _ _ _ H Hcr Ef) as (w & _ & Ef' & _).
    pose proof (stored_append _ _ _ _ _ _ Hs Ef Ef') as Hs'. split; [exact Hs'|].
    destruct (ldur_le_step _ _ _ _ _ H Hcr) as [Hle|(f' & Ef2 & Hdur)]; [lia|].
    rewrite Hdur. eapply stored_ge; eassumption.
Qed.

Lemma durable_run E os : forall p b st ps st', durable p b st -> log_run E os st = Ok (ps, st') -> durable p b st'.
Proof.
  induction os as [|o os IH]; intros p b st ps st' Hd H; cbn [log_run] in H.
  - injection H as _ <-. exact Hd.
  - destruct (log_step E o st) as [[q st1]| |] eqn:Es; try discriminate. cbn [rbind] in H.
    destruct (log_run E os st1) as [[ps1 st2]| |] eqn:Er; try discriminate. cbn [rbind] in H. injection H as _ <-.
    eapply IH; [|exact Er]. eapply durable_step; eassumption.
Qed.

Lemma stored_run E os p b st ps st' : no_crash os -> stored p b st -> log_run E os st = Ok (ps, st') -> stored p b st'.
Proof.
  intros Hc Hs H. pose proof Hs as (Hp & f & r & Ef & _). destruct (run_append _ _ _ _ _ _ H Hc Ef) as [w Hw].
  eapply stored_append; eassumption.
Qed.

(** An object added with autoSync on, or followed by a Sync, survives whatever happens next. *)
Lemma crash_safe E os1 g os2 f st0 ps1 st1 ps st :
  shows E (out g) f -> representable f -> lfile st0 <> None ->
  log_run E os1 st0 = Ok (ps1, st1) ->
  log_run E (os1 ++ LAdd (Some g) :: os2) st0 = Ok (ps, st) ->
  (lauto st1 = true \/ exists os3 os4, os2 = os3 ++ LSync :: os4 /\ no_crash os3) ->
  exists p, nth_error ps (List.length os1) = Some (Some p) /\
    forall fuel, (List.length (fmt_object f) <= fuel)%nat ->
      log_get fuel p st = Ok (Some (groot f), p + Z.of_nat (List.length (fmt_object f)), false).
Proof.
  intros Hs Hr Hf E1 H Hsync. rewrite log_run_app, E1 in H. cbn [rbind] in H.
  pose proof (run_file_some _ _ _ _ _ E1 Hf) as Hf1. cbn [log_run] in H.
  destruct (log_step E (LAdd (Some g)) st1) as [[p st2]| |] eqn:E2; try discriminate. cbn [rbind] in H.
  destruct (log_run E os2 st2) as [[ps3 st3]| |] eqn:E3; try discriminate. cbn [rbind] in H.
  injection H as <- <-.
  destruct (step_add _ _ _ _ _ _ Hs Hr Hf1 E2) as (file & Ef1 & -> & Ef2 & Hst).
  pose proof (log_run_len _ _ _ _ _ E1) as Hl1.
  exists (Z.of_nat (List.length file)). split.
  { rewrite nth_error_app2 by lia. rewrite Hl1, Nat.sub_diag. reflexivity. }
  intros fuel Hfuel. apply get_stored; [exact Hr| |exact Hfuel].
  destruct Hsync as [Ha|(os3 & os4 & -> & Hc)].
  - assert (Hd : durable (Z.of_nat (List.length file)) (fmt_object f) st2).
    { split; [exact Hst|]. cbn [log_step] in E2. unfold log_add in E2. rewrite (Binary_fmt _ _ _ Hs Hr) in E2. cbn [rbind] in E2.
      unfold log_add_binary in E2. rewrite Ef1 in E2. cbn [lauto] in E2. rewrite Ha in E2. injection E2 as <-.
      cbn [log_sync lfile ldur]. rewrite app_length. lia. }
    eapply durable_run in Hd; [|exact E3]. apply Hd.
  - rewrite log_run_app in E3. destruct (log_run E os3 st2) as [[ps4 st4]| |] eqn:E4; try discriminate. cbn [rbind] in E3.
    pose proof (stored_run _ _ _ _ _ _ _ Hc Hst E4) as Hst4. cbn [log_run log_step rbind] in E3.
    destruct (log_run E os4 (log_sync st4)) as [[ps5 st5]| |] eqn:E5; try discriminate. cbn [rbind] in E3. injection E3 as _ <-.
    assert (Hd : durable (Z.of_nat (List.length file)) (fmt_object f) (log_sync st4)).
    { pose proof Hst4 as (Hp & f4 & r4 & Ef4 & Es4 & Hl4). unfold log_sync. rewrite Ef4. split.
      - split; [exact Hp|]. exists f4, r4. split; [reflexivity|]. split; assumption.
      - cbn [ldur]. eapply stored_ge; eassumption. }
    eapply durable_run in Hd; [|exact E5]. apply Hd.
Qed.

(** ** Torn records *)

Lemma get_From fuel i st f : lfile st = Some f -> 0 <= i ->
  (FromBinary fuel (skipn (Z.to_nat i) f) = NoFuel -> log_get fuel i st = NoFuel) /\
  forall g, FromBinary fuel (skipn (Z.to_nat i) f) = Ok g -> exists next, log_get fuel i st = Ok (g, next, false).
Proof.
  intros Ef Hi. unfold log_get, FromBinary. rewrite Ef. replace (i <? 0) with false by lia.
  destruct (parse fuel _) as [[g' s]| |]; cbn [rbind]; (split; [try discriminate; reflexivity|]); intros g H; try discriminate.
  injection H as <-. destruct (rn s =? 0); eexists; reflexivity.
Qed.

Lemma app_split {A} (a b c d : list A) : a ++ b = c ++ d -> (exists m, a = c ++ m /\ d = m ++ b) \/ (exists m, c = a ++ m /\ b = m ++ d).
Proof.
  revert c. induction a as [|x a IH]; intros c H; cbn in H.
  - right. exists c. split; [reflexivity|exact H].
  - destruct c as [|y c]; cbn in H.
    + left. exists (x :: a). split; [reflexivity|symmetry; exact H].
    + injection H as -> H. destruct (IH _ H) as [(m & -> & ->)|(m & -> & ->)]; [left|right]; exists m; split; reflexivity.
Qed.

(** Where a proper prefix of a sequence of nodes can end. *)
Lemma encs_cut evs c d : Forall ev_ok evs -> encs evs ++ [x00] = c ++ d -> d <> [] ->
  exists evs1 evs2, evs = evs1 ++ evs2 /\
  (c = encs evs1 \/ exists l s evs3, evs2 = (l, s) :: evs3 /\
    ((exists p q, c = encs evs1 ++ p /\ fmt_varint l = p ++ q /\ p <> [] /\ q <> []) \/
     (exists s1 s2, c = encs evs1 ++ fmt_varint l ++ s1 /\ s = s1 ++ s2))).
Proof.
  intro He. revert c d. induction He as [|[l s] evs [Hl Hs] He IH]; intros c d H Hd.
  - cbn in H. exists [], []. split; [reflexivity|]. left. destruct c as [|x c]; [reflexivity|].
    cbn in H. destruct c; [|destruct d; discriminate]. destruct d; [congruence|discriminate].
  - change (encs ((l, s) :: evs)) with (enc (l, s) ++ encs evs) in H. rewrite <- app_assoc in H.
    apply app_split in H. destruct H as [(m & Em & ->)|(m & -> & Em)].
    + (* cut inside this node, or just after it *)
      unfold enc in Em. cbn [fst snd] in Em. destruct m as [|x m].
      { rewrite app_nil_r in Em. exists [(l, s)], evs. split; [reflexivity|]. left. cbn. rewrite app_nil_r. symmetry; exact Em. }
      exists [], ((l, s) :: evs). split; [reflexivity|]. cbn [encs flat_map app].
      apply app_split in Em. destruct Em as [(q & Eq & Em)|(q & -> & Em)].
      * destruct q as [|y q].
        { right. exists l, s, evs. split; [reflexivity|]. right. exists [], s. split; [|reflexivity].
          rewrite Eq, !app_nil_r. reflexivity. }
        destruct c as [|z c]; [left; reflexivity|].
        right. exists l, s, evs. split; [reflexivity|]. left. exists (z :: c), (y :: q).
        split; [reflexivity|]. split; [exact Eq|]. split; discriminate.
      * right. exists l, s, evs. split; [reflexivity|]. right. apply app_split in Em.
        destruct Em as [(q2 & -> & _)|(q2 & -> & Em)]; [exists q, q2; split; reflexivity|].
        destruct q2 as [|y q2]; [exists s, []; rewrite !app_nil_r; split; reflexivity|].
        exfalso. cbn in Em. destruct q2; discriminate.
    + destruct (IH m d Em Hd) as (e1 & e2 & -> & [->|(l' & s' & e3 & -> & Hc)]).
      * exists ((l, s) :: e1), e2. split; [reflexivity|]. left. reflexivity.
      * exists ((l, s) :: e1), ((l', s') :: e3). split; [reflexivity|]. right. exists l', s', e3. split; [reflexivity|].
        change (encs ((l, s) :: e1)) with (enc (l, s) ++ encs e1).
        destruct Hc as [(p & q & -> & H1 & H2 & H3)|(s1 & s2 & -> & ->)].
        { left. exists p, q. rewrite <- app_assoc. repeat split; assumption. }
        { right. exists s1, s2. rewrite <- app_assoc. split; reflexivity. }
Qed.

Lemma torn evs c d : Forall ev_ok evs -> header_bytes ++ encs evs ++ [x00] = c ++ d -> d <> [] ->
  ((List.length c < 3)%nat /\ forall fuel, FromBinary fuel c = Ok None) \/
  (forall fuel, FromBinary fuel c = NoFuel) \/
  exists evs1 evs2, evs = evs1 ++ evs2 /\
    forall fuel, (List.length c < fuel)%nat -> FromBinary fuel c = Ok (Some (events_graph (map ev_val evs1))).
Proof.
  intros He H Hd. apply app_split in H. destruct H as [(m & Em & ->)|(m & -> & Em)].
  - destruct m as [|x m].
    + right; right. rewrite app_nil_r in Em. subst c. exists [], evs. split; [reflexivity|]. intros fuel Hf.
      rewrite <- (app_nil_r header_bytes) at 1. change (header_bytes ++ []) with (header_bytes ++ encs []).
      apply FromBinary_cut_between; [constructor|]. cbn in *. lia.
    + left. split.
      * assert (Hl : List.length header_bytes = List.length (c ++ x :: m)) by (rewrite Em; reflexivity).
        rewrite app_length in Hl. cbn in Hl. lia.
      * intro fuel. eapply FromBinary_cut_header; [exact Em|discriminate].
  - right. destruct (encs_cut _ _ _ He Em Hd) as (e1 & e2 & -> & Hc). apply Forall_app in He. destruct He as [He1 He2].
    destruct Hc as [->|(l & s & e3 & -> & [(p & q & -> & Hpq & Hp & Hq)|(s1 & s2 & -> & ->)])].
    + right. exists e1, e2. split; [reflexivity|]. intros fuel Hf. rewrite app_length in Hf.
      apply FromBinary_cut_between; [exact He1|lia].
    + right. exists e1, ((l, s) :: e3). split; [reflexivity|]. intros fuel Hf. rewrite !app_length in Hf.
      inversion He2 as [|? ? [Hl Hs] _]; subst. eapply FromBinary_cut_level; [exact He1|exact Hl|exact Hpq|exact Hp|exact Hq|lia].
    + left. intro fuel. inversion He2 as [|? ? [Hl (Hs & H0 & H1)] _]; subst. cbn [fst snd] in *.
      apply FromBinary_cut_content; [exact He1|exact Hl| |].
      * intro Hi. apply H0, in_or_app. left; exact Hi.
      * destruct s1; [discriminate|]. exact H1.
Qed.

(** The record at [p], the last one of the file, cut short. *)
Lemma torn_get f c d p a st : representable f -> fmt_object f = c ++ d -> d <> [] ->
  lfile st = Some (a ++ c) -> p = Z.of_nat (List.length a) ->
  ((List.length c < 3)%nat /\ forall fuel, exists next, log_get fuel p st = Ok (None, next, false)) \/
  (forall fuel, log_get fuel p st = NoFuel) \/
  exists evs1 evs2, pres 1 f = evs1 ++ evs2 /\
    forall fuel, (List.length c < fuel)%nat ->
      exists next, log_get fuel p st = Ok (Some (events_graph (map ev_val evs1)), next, false).
Proof.
  intros Hr Ef Hd Hfile ->. pose proof (get_From) as HG.
  assert (Hsk : skipn (Z.to_nat (Z.of_nat (List.length a))) (a ++ c) = c) by (rewrite Nat2Z.id; apply skipn_app_len).
  assert (HG' : forall fuel, (FromBinary fuel c = NoFuel -> log_get fuel (Z.of_nat (List.length a)) st = NoFuel) /\
     forall g, FromBinary fuel c = Ok g -> exists next, log_get fuel (Z.of_nat (List.length a)) st = Ok (g, next, false)).
  { intro fuel. pose proof (get_From fuel (Z.of_nat (List.length a)) st _ Hfile ltac:(lia)) as H. rewrite Hsk in H. exact H. }
  destruct (torn (pres 1 f) c d (proj1 (representable_events _ Hr)) Ef Hd) as [[H1 H2]|[H|(e1 & e2 & E & H)]].
  - left. split; [exact H1|]. intro fuel. apply HG', H2.
  - right; left. intro fuel. apply HG', H.
  - right; right. exists e1, e2. split; [exact E|]. intros fuel Hf. apply HG', H, Hf.
Qed.

(** ** The in-memory log *)


Lemma mem_step E o st p st' : log_step E o st = Ok (p, st') -> ~ is_crash o -> lfile st = None ->
  exists b, written E o = Ok b /\ lfile st' = None /\ lbuf st' = lbuf st ++ b /\
    (is_write o -> p = Some (Z.of_nat (List.length (lbuf st)))).
Proof.
  intros H Hc Hf. destruct o as [g|b| |v|k]; cbn [log_step written is_write] in *.
  - unfold log_add in H. destruct (Binary E g) as [[b|]| |] eqn:Eb; try discriminate; cbn [rbind] in *.
    + unfold log_add_binary in H. rewrite Hf in H. exists b. injection H as <- <-. auto.
    + injection H as <- <-. exists []. rewrite app_nil_r. split; [reflexivity|]. split; [exact Hf|]. split; [reflexivity|].
      destruct g as [g|]; [|intros []]. exfalso. cbn in Eb. destruct (bins E 1 (out g)); discriminate.
  - unfold log_add_binary in H. rewrite Hf in H. exists b. injection H as <- <-. auto.
  - injection H as <- <-. exists []. rewrite app_nil_r. split; [reflexivity|].
    unfold log_sync. rewrite Hf. split; [exact Hf|]. split; [reflexivity|intros []].
  - injection H as <- <-. exists []. rewrite app_nil_r. split; [reflexivity|]. split; [exact Hf|]. split; [reflexivity|intros []].
  - exfalso. apply Hc. exact I.
Qed.

Lemma mem_run E os : forall st ps st', log_run E os st = Ok (ps, st') -> no_crash os -> lfile st = None ->
  lfile st' = None /\ exists b, lbuf st' = lbuf st ++ b.
Proof.
  induction os as [|o os IH]; intros st ps st' H Hc Hf; cbn [log_run] in H.
  - injection H as _ <-. split; [exact Hf|]. exists []. rewrite app_nil_r. reflexivity.
  - destruct (log_step E o st) as [[q st1]| |] eqn:Es; try discriminate. cbn [rbind] in H.
    destruct (log_run E os st1) as [[ps1 st2]| |] eqn:Er; try discriminate. cbn [rbind] in H. injection H as _ <-.
    inversion Hc as [|? ? Ho Hos]; subst.
    destruct (mem_step _ _ _ _ _ Es Ho Hf) as (b & _ & Hf1 & Hb & _).
    destruct (IH _ _ _ Er Hos Hf1) as (Hf2 & b2 & Hb2). split; [exact Hf2|]. exists (b ++ b2).
    rewrite Hb2, Hb, app_assoc. reflexivity.
Qed.

Lemma mem_add_read E os1 g os2 f ps st :
  shows E (out g) f -> representable f -> no_crash os1 -> no_crash os2 ->
  log_run E (os1 ++ LAdd (Some g) :: os2) MemLog = Ok (ps, st) ->
  exists p all, nth_error ps (List.length os1) = Some (Some p) /\ 0 <= p /\ log_bytes st = Some all /\
    forall fuel, (List.length (fmt_object f) <= fuel)%nat ->
      FromBinary fuel (skipn (Z.to_nat p) all) = Ok (Some (groot f)).
Proof.
  intros Hs Hr Hc1 Hc2 H. rewrite log_run_app in H.
  destruct (log_run E os1 MemLog) as [[ps1 st1]| |] eqn:E1; try discriminate. cbn [rbind] in H.
  destruct (mem_run _ _ _ _ _ E1 Hc1 eq_refl) as (Hf1 & b1 & Hb1). cbn [log_run] in H.
  destruct (log_step E (LAdd (Some g)) st1) as [[p st2]| |] eqn:E2; try discriminate. cbn [rbind] in H.
  destruct (log_run E os2 st2) as [[ps3 st3]| |] eqn:E3; try discriminate. cbn [rbind] in H. injection H as <- <-.
  destruct (mem_step _ _ _ _ _ E2 (fun x => x) Hf1) as (b & Hb & Hf2 & Hb2 & Hp).
  cbn [written] in Hb. rewrite (Binary_fmt _ _ _ Hs Hr) in Hb. cbn [rbind] in Hb.
  assert (b = fmt_object f) by congruence. subst b.
  destruct (mem_run _ _ _ _ _ E3 Hc2 Hf2) as (Hf3 & b3 & Hb3).
  exists (Z.of_nat (List.length (lbuf st1))), (lbuf st3). rewrite Hp by exact I.
  split. { rewrite nth_error_app2 by (erewrite log_run_len by exact E1; lia).
    erewrite log_run_len by exact E1. rewrite Nat.sub_diag. reflexivity. }
  split; [lia|]. split; [unfold log_bytes; rewrite Hf3; reflexivity|]. intros fuel Hfuel.
  rewrite Hb3, Hb2, <- app_assoc, Nat2Z.id, skipn_app_len. unfold FromBinary.
  rewrite parse_fmt_object; [reflexivity|apply representable_events, Hr|exact Hfuel].
Qed.
