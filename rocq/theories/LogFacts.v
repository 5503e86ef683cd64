From Verif Require Import Base Value Event EventSpec EventFacts Binary BinarySpec BinaryFacts BinaryFacts2 Log LogSpec.

(** ** The byte count of the parser is exact (readers that end with io.EOF) *)

Definition acct (s s' : rst) : Prop :=
  tl_ s = TEof -> tl_ s' = TEof /\ exists p, rest s = p ++ rest s' /\ rn s' = rn s + Z.of_nat (List.length p).

Lemma acct_refl s : acct s s.
Proof. intro H. split; [exact H|]. exists []. cbn. split; [reflexivity|lia]. Qed.

Lemma acct_trans a b c : acct a b -> acct b c -> acct a c.
Proof.
  intros H1 H2 H. destruct (H1 H) as (Hb & p & E1 & N1). destruct (H2 Hb) as (Hc & q & E2 & N2).
  split; [exact Hc|]. exists (p ++ q). rewrite E1, E2, <- app_assoc, app_length. split; [reflexivity|lia].
Qed.

Lemma acct_read s : acct s (snd (read s)).
Proof.
  intro H. destruct s as [r t n]. cbn in H. subst t. unfold read. cbn [rest tl_ rn].
  destruct r as [|c r]; cbn [snd rest tl_ rn]; (split; [reflexivity|]).
  - exists []. cbn. split; [reflexivity|lia].
  - exists [c]. cbn. split; [reflexivity|lia].
Qed.

Ltac acct_step :=
  match goal with
  | |- context[read ?s] =>
      let c := fresh "c" in let s' := fresh "s" in let Hr := fresh "Hr" in
      pose proof (acct_read s) as Hr; destruct (read s) as [c s']; cbn [fst snd] in Hr
  end.
Ltac acct_done := first [apply acct_refl | assumption | eapply acct_trans; [eassumption|]; acct_done].

Lemma acct_varInt s : acct s (snd (varInt s)).
Proof.
  unfold varInt. acct_step. destruct (_ <? _); [cbn [snd]; acct_done|].
  destruct (_ <? _). { acct_step. cbn [snd]. acct_done. }
  destruct (_ <? _). { do 2 acct_step. cbn [snd]. acct_done. }
  destruct (_ <? _). { do 3 acct_step. cbn [snd]. acct_done. }
  cbn [snd]; acct_done.
Qed.

Lemma acct_header s : acct s (snd (header s)).
Proof.
  unfold header. acct_step. destruct (negb _); [cbn [snd]; acct_done|].
  acct_step. destruct (negb _); [cbn [snd]; acct_done|].
  acct_step. destruct (negb _); cbn [snd]; acct_done.
Qed.

Lemma acct_text fuel : forall s b r, text_loop fuel s b = Ok r -> acct s (snd r).
Proof.
  induction fuel as [|f IH]; intros s b r H; [discriminate|]. cbn [text_loop] in H.
  revert H. acct_step. destruct (_ =? _); intro H.
  - injection H as <-. exact Hr.
  - eapply acct_trans; [exact Hr|]. eapply IH, H.
Qed.

Lemma acct_bin fuel : forall s n b r, bin_loop fuel s n b = Ok r -> acct s (snd r).
Proof.
  induction fuel as [|f IH]; intros s n b r H; [discriminate|]. cbn [bin_loop] in H.
  destruct (n =? 0).
  - pose proof (acct_varInt s) as Hr. destruct (varInt s) as [m s']. cbn [snd] in Hr.
    destruct (_ <? _).
    + injection H as <-. exact Hr.
    + eapply acct_trans; [exact Hr|]. eapply IH, H.
  - revert H. acct_step. destruct (_ <? _); intro H.
    + injection H as <-. exact Hr.
    + eapply acct_trans; [exact Hr|]. eapply IH, H.
Qed.

Lemma acct_line fuel w s r : line fuel w s = Ok r -> acct s (snd r).
Proof.
  unfold line. pose proof (acct_varInt s) as Hv. destruct (varInt s) as [l s1]. cbn [snd] in Hv.
  destruct (l <? 1). { intro H. injection H as <-. exact Hv. }
  acct_step. destruct (c =? 1).
  - destruct (bin_loop fuel s0 0 []) as [[b s2]| |] eqn:Eb; try discriminate. cbn [rbind]. intro H. injection H as <-.
    apply acct_bin in Eb. cbn [snd] in *. acct_done.
  - destruct (text_loop fuel s0 [zb c]) as [[b s2]| |] eqn:Eb; try discriminate. cbn [rbind]. intro H. injection H as <-.
    apply acct_text in Eb. cbn [snd] in *. acct_done.
Qed.

Lemma acct_parse_loop fuel : forall s h r, parse_loop fuel s h = Ok r -> acct s (snd r).
Proof.
  induction fuel as [|f IH]; intros s h r H; [discriminate|]. cbn [parse_loop] in H.
  destruct (line f true s) as [[[[l ib] b] s1]| |] eqn:El; try discriminate. cbn [rbind] in H.
  apply acct_line in El. cbn [snd] in El. destruct (l =? 0).
  - injection H as <-. exact El.
  - eapply acct_trans; [exact El|]. eapply IH, H.
Qed.

Lemma acct_parse fuel s g s' : parse fuel s = Ok (g, s') -> acct s s'.
Proof.
  unfold parse. pose proof (acct_header s) as Hh. destruct (header s) as [ok s1]. cbn [snd] in Hh.
  destruct (negb ok). { intro H. injection H as _ <-. exact Hh. }
  destruct (parse_loop fuel s1 h_init) as [[h s2]| |] eqn:Ep; try discriminate. cbn [rbind].
  destruct (Tree h); try discriminate. cbn [rbind]. intro H. injection H as _ <-.
  apply acct_parse_loop in Ep. cbn [snd] in Ep. acct_done.
Qed.

(** parse returns a graph only after reading three header bytes. *)
Lemma parse_rn fuel b g s' : parse fuel (mkR b TEof 0) = Ok (g, s') -> rn s' = 0 -> g = None.
Proof.
  intros H Hn. destruct g as [g|]; [exfalso|reflexivity].
  assert (Hf : FromBinary fuel b = Ok (Some g)) by (unfold FromBinary; rewrite H; reflexivity).
  destruct b as [|c b].
  - unfold FromBinary, parse, header, read in Hf. discriminate Hf.
  - unfold parse, header in H. rewrite read_cons in H. unfold negb in H.
    destruct (bz c =? 1); [|discriminate].
    assert (H' : forall s r, (let (b0, s1) := read s in
       if (if b0 =? 71 then false else true) then Ok (None, s1) else r b0 s1) = Ok (Some g, s') ->
       (forall b0 s1, r b0 s1 = Ok (Some g, s') -> acct s1 s') -> acct s s').
    { intros s r. acct_step. destruct (_ =? _); [|discriminate]. intros H1 H2. eapply acct_trans; [exact Hr|]. eapply H2, H1. }
    assert (Ha : acct (mkR b TEof (0 + 1)) s').
    { destruct (parse fuel (mkR (c :: b) TEof 0)) eqn:Ep. 2,3: idtac.
      all: revert H; acct_step; destruct (c0 =? 71); [|discriminate]; acct_step; destruct (c1 =? 0); [|discriminate]; cbn [rbind].
      all: destruct (parse_loop fuel s0 h_init) as [[h s2]| |] eqn:Epl; try discriminate; cbn [rbind].
      all: destruct (Tree h); try discriminate; cbn [rbind]; intro H; injection H as _ <-.
      all: apply acct_parse_loop in Epl; cbn [snd] in Epl; acct_done. }
    destruct (Ha eq_refl) as (_ & p & _ & E). cbn [rn] in E. lia.
Qed.

(** ** Reading what is stored *)

Lemma skipn_app_len {A} (a b : list A) : skipn (List.length a) (a ++ b) = b.
Proof. rewrite skipn_app, skipn_all, Nat.sub_diag. reflexivity. Qed.

Lemma fmt_object_len f : (4 <= List.length (fmt_object f))%nat.
Proof. unfold fmt_object. rewrite !app_length. cbn. lia. Qed.

Lemma get_stored f p st fuel : representable f -> stored p (fmt_object f) st ->
  (List.length (fmt_object f) <= fuel)%nat ->
  log_get fuel p st = Ok (Some (groot f), p + Z.of_nat (List.length (fmt_object f)), false).
Proof.
  intros Hr (Hp & file & r & Ef & Es & Hl) Hf. unfold log_get. rewrite Ef.
  replace (p <? 0) with false by lia. rewrite Es.
  rewrite parse_fmt_object; [|apply representable_events, Hr|exact Hf]. cbn [rbind rn].
  pose proof (fmt_object_len f). replace (0 + Z.of_nat (List.length (fmt_object f)) =? 0) with false by lia.
  rewrite Z.add_0_l. reflexivity.
Qed.

Lemma line_false fuel s : line fuel false s =
  let* (l, ib, b, s) := line fuel true s in Ok (l, ib, [], s).
Proof.
  unfold line. destruct (varInt s) as [l s1]. destruct (l <? 1); [reflexivity|].
  destruct (read s1) as [n s2]. destruct (n =? 1).
  - destruct (bin_loop fuel s2 0 []) as [[b s3]| |]; reflexivity.
  - destruct (text_loop fuel s2 [zb n]) as [[b s3]| |]; reflexivity.
Qed.

(** GetBinary's loop reads exactly as far as parse's. *)
Lemma skip_loop_parse fuel : forall s h, skip_loop fuel s = (let* (h', s') := parse_loop fuel s h in Ok s').
Proof.
  induction fuel as [|f IH]; intros s h; [reflexivity|]. cbn [skip_loop parse_loop]. rewrite line_false.
  destruct (line f true s) as [[[[l ib] b] s1]| |]; try reflexivity. cbn [rbind].
  destruct (l =? 0); [reflexivity|]. apply IH.
Qed.

Lemma header_fmt r n : header (mkR (header_bytes ++ r) TEof n) = (true, mkR r TEof (n + 3)).
Proof.
  unfold header, header_bytes. cbn [app]. rewrite !read_cons. cbn -[Z.add]. f_equal. f_equal. lia.
Qed.

Lemma get_binary_stored f p st fuel : representable f -> stored p (fmt_object f) st ->
  (List.length (fmt_object f) <= fuel)%nat ->
  log_get_binary fuel p st = Ok (Some (fmt_object f), Z.of_nat (List.length (fmt_object f)), false).
Proof.
  intros Hr (Hp & file & r & Ef & Es & Hl) Hf. unfold log_get_binary. rewrite Ef.
  replace (p <? 0) with false by lia. rewrite Es.
  pose proof (parse_fmt_object f r TEof 0 fuel (proj1 (representable_events _ Hr)) Hf) as Hpar.
  unfold parse in Hpar. destruct (header _) as [ok s]. destruct (negb ok); [discriminate|].
  rewrite (skip_loop_parse _ _ h_init). destruct (parse_loop fuel s h_init) as [[h s2]| |]; try discriminate.
  cbn [rbind] in *. destruct (Tree h); try discriminate. cbn [rbind] in Hpar.
  assert (Es2 : s2 = mkR r TEof (0 + Z.of_nat (List.length (fmt_object f)))) by congruence.
  subst s2. cbn [rn]. rewrite Z.add_0_l, Nat2Z.id, firstn_app, firstn_all, Nat.sub_diag.
  cbn [firstn]. rewrite app_nil_r, Nat.sub_diag. cbn [repeat]. rewrite app_nil_r. reflexivity.
Qed.

(** ** Histories *)

Lemma log_run_app E a b st : log_run E (a ++ b) st =
  (let* (ps, st1) := log_run E a st in let* (qs, st2) := log_run E b st1 in Ok (ps ++ qs, st2)).
Proof.
  revert st. induction a as [|o a IH]; intro st; cbn [app log_run rbind].
  - destruct (log_run E b st) as [[qs st2]| |]; reflexivity.
  - destruct (log_step E o st) as [[p st1]| |]; try reflexivity. cbn [rbind]. rewrite IH.
    destruct (log_run E a st1) as [[ps st2]| |]; try reflexivity. cbn [rbind].
    destruct (log_run E b st2) as [[qs st3]| |]; reflexivity.
Qed.

Lemma log_run_len E os : forall st ps st', log_run E os st = Ok (ps, st') -> List.length ps = List.length os.
Proof.
  induction os as [|o os IH]; intros st ps st' H; cbn [log_run] in H.
  - injection H as <- <-. reflexivity.
  - destruct (log_step E o st) as [[p st1]| |]; try discriminate. cbn [rbind] in H.
    destruct (log_run E os st1) as [[ps1 st2]| |] eqn:Er; try discriminate. cbn [rbind] in H.
    injection H as <- <-. cbn. erewrite IH by eassumption. reflexivity.
Qed.

(** What a step does to the file. *)
Definition written (E : env) (o : lop) : res bytes :=
  match o with
  | LAdd g => let* b := Binary E g in Ok (match b with Some b => b | None => [] end)
  | LAddBinary b => Ok b
  | _ => Ok []
  end.

Lemma step_file E o st p st' f : log_step E o st = Ok (p, st') -> ~ is_crash o -> lfile st = Some f ->
  exists b, written E o = Ok b /\ lfile st' = Some (f ++ b) /\
    (is_write o -> p = Some (Z.of_nat (List.length f))).
Proof.
  intros H Hc Hf. destruct o as [g|b| |v|k]; cbn [log_step written is_write] in *.
  - unfold log_add in H. destruct (Binary E g) as [[b|]| |] eqn:Eb; try discriminate; cbn [rbind] in *.
    + unfold log_add_binary in H. rewrite Hf in H. exists b. split; [reflexivity|].
      injection H as <- <-. split; [|reflexivity].
      unfold log_sync. cbn [lfile lauto]. destruct (lauto st); reflexivity.
    + injection H as <- <-. exists []. rewrite app_nil_r. split; [reflexivity|]. split; [exact Hf|].
      destruct g as [g|]; [|intros []]. exfalso. cbn in Eb.
      destruct (bins E 1 (out g)); discriminate.
  - unfold log_add_binary in H. rewrite Hf in H. exists b. split; [reflexivity|].
    injection H as <- <-. split; [|reflexivity].
    unfold log_sync. cbn [lfile lauto]. destruct (lauto st); reflexivity.
  - injection H as <- <-. exists []. rewrite app_nil_r. split; [reflexivity|]. split; [|intros []].
    unfold log_sync. rewrite Hf. reflexivity.
  - injection H as <- <-. exists []. rewrite app_nil_r. split; [reflexivity|]. split; [exact Hf|intros []].
  - exfalso. apply Hc. exact I.
Qed.

Lemma run_append E os : forall st ps st' f, log_run E os st = Ok (ps, st') -> no_crash os -> lfile st = Some f ->
  exists b, lfile st' = Some (f ++ b).
Proof.
  induction os as [|o os IH]; intros st ps st' f H Hc Hf; cbn [log_run] in H.
  - injection H as <- <-. exists []. rewrite app_nil_r. exact Hf.
  - destruct (log_step E o st) as [[p st1]| |] eqn:Es; try discriminate. cbn [rbind] in H.
    destruct (log_run E os st1) as [[ps1 st2]| |] eqn:Er; try discriminate. cbn [rbind] in H.
    injection H as <- <-. inversion Hc as [|? ? Ho Hos]; subst.
    destruct (step_file _ _ _ _ _ _ Es Ho Hf) as (b & _ & Hf1 & _).
    destruct (IH _ _ _ _ Er Hos Hf1) as [b' Hb']. exists (b ++ b'). rewrite app_assoc. exact Hb'.
Qed.

Lemma step_file_some E o st p st' : log_step E o st = Ok (p, st') -> lfile st <> None -> lfile st' <> None.
Proof.
  intros H Hf. destruct (lfile st) as [f|] eqn:Ef; [|congruence]. destruct o as [g|b| |v|k].
  5:{ cbn in H. injection H as <- <-. unfold log_crash. rewrite Ef. discriminate. }
  all: destruct (step_file _ _ _ _ _ f H (fun x => x) Ef) as (b' & _ & E1 & _); rewrite E1; discriminate.
Qed.

Lemma run_file_some E os : forall st ps st', log_run E os st = Ok (ps, st') -> lfile st <> None -> lfile st' <> None.
Proof.
  induction os as [|o os IH]; intros st ps st' H Hf; cbn [log_run] in H.
  - injection H as <- <-. exact Hf.
  - destruct (log_step E o st) as [[p st1]| |] eqn:Es; try discriminate. cbn [rbind] in H.
    destruct (log_run E os st1) as [[ps1 st2]| |] eqn:Er; try discriminate. cbn [rbind] in H.
    injection H as <- <-. eapply IH; [exact Er|]. eapply step_file_some; eassumption.
Qed.

Lemma stored_append p b st st' f r : stored p b st -> lfile st = Some f -> lfile st' = Some (f ++ r) -> stored p b st'.
Proof.
  intros (Hp & f0 & r0 & E0 & Es & Hl) Ef Ef'. assert (f0 = f) by congruence. subst f0.
  split; [exact Hp|]. exists (f ++ r), (r0 ++ r). split; [exact Ef'|]. split.
  - rewrite skipn_app, Es. replace (Z.to_nat p - List.length f)%nat with 0%nat by lia. rewrite <- app_assoc. reflexivity.
  - rewrite app_length. lia.
Qed.

(** Bytes of the object added by a step. *)
Lemma step_add E g f st p st' : shows E (out g) f -> representable f -> lfile st <> None ->
  log_step E (LAdd (Some g)) st = Ok (p, st') ->
  exists file, lfile st = Some file /\ p = Some (Z.of_nat (List.length file)) /\
    lfile st' = Some (file ++ fmt_object f) /\ stored (Z.of_nat (List.length file)) (fmt_object f) st'.
Proof.
  intros Hs Hr Hf H. destruct (lfile st) as [file|] eqn:Ef; [|congruence]. exists file. split; [reflexivity|].
  destruct (step_file _ _ _ _ _ _ H (fun x => x) Ef) as (b & Hb & E1 & E2).
  cbn [written] in Hb. rewrite (Binary_fmt _ _ _ Hs Hr) in Hb. cbn [rbind] in Hb.
  assert (b = fmt_object f) by congruence. subst b. split; [apply E2; exact I|]. split; [exact E1|].
  split; [lia|]. exists (file ++ fmt_object f), []. split; [exact E1|]. rewrite Nat2Z.id, app_nil_r, skipn_app_len.
  split; [reflexivity|]. rewrite app_length. lia.
Qed.

Lemma add_get E os1 g os2 f st0 ps st :
  shows E (out g) f -> representable f -> lfile st0 <> None -> no_crash os2 ->
  log_run E (os1 ++ LAdd (Some g) :: os2) st0 = Ok (ps, st) ->
  exists p, nth_error ps (List.length os1) = Some (Some p) /\ 0 <= p /\
    (forall fuel, (List.length (fmt_object f) <= fuel)%nat ->
      log_get fuel p st = Ok (Some (groot f), p + Z.of_nat (List.length (fmt_object f)), false) /\
      log_get_binary fuel p st = Ok (Some (fmt_object f), Z.of_nat (List.length (fmt_object f)), false)) /\
    forall os3 w os4, os2 = os3 ++ w :: os4 -> Forall (fun o => ~ is_write o) os3 -> is_write w ->
      nth_error ps (List.length os1 + S (List.length os3)) =
      Some (Some (p + Z.of_nat (List.length (fmt_object f)))).
Proof.
  intros Hs Hr Hf Hc H. rewrite log_run_app in H.
  destruct (log_run E os1 st0) as [[ps1 st1]| |] eqn:E1; try discriminate. cbn [rbind] in H.
  pose proof (run_file_some _ _ _ _ _ E1 Hf) as Hf1. cbn [log_run] in H.
  destruct (log_step E (LAdd (Some g)) st1) as [[p st2]| |] eqn:E2; try discriminate. cbn [rbind] in H.
  destruct (log_run E os2 st2) as [[ps3 st3]| |] eqn:E3; try discriminate. cbn [rbind] in H.
  injection H as <- <-.
  destruct (step_add _ _ _ _ _ _ Hs Hr Hf1 E2) as (file & Ef1 & -> & Ef2 & Hst).
  pose proof (log_run_len _ _ _ _ _ E1) as Hl1.
  exists (Z.of_nat (List.length file)). split.
  { rewrite nth_error_app2 by lia. rewrite Hl1, Nat.sub_diag. reflexivity. }
  split; [lia|]. destruct (run_append _ _ _ _ _ _ E3 Hc Ef2) as [r Er]. split.
  - intros fuel Hfuel. pose proof (stored_append _ _ _ _ _ _ Hst Ef2 Er) as Hst'.
    split; [apply get_stored|apply get_binary_stored]; assumption.
  - intros os3 w os4 -> Hnw Hw. rewrite nth_error_app2 by lia. rewrite Hl1.
    replace (List.length os1 + S (List.length os3) - List.length os1)%nat with (S (List.length os3)) by lia.
    cbn [nth_error]. replace (Z.of_nat (List.length file) + Z.of_nat (List.length (fmt_object f)))
      with (Z.of_nat (List.length (file ++ fmt_object f))) by (rewrite app_length; lia).
    clear - E3 Hc Hnw Hw Ef2. revert st2 ps3 st3 E3 Ef2. generalize (file ++ fmt_object f). clear file.
    induction os3 as [|o os3 IH]; intros file st2 ps3 st3 E3 Ef2; cbn [app log_run List.length] in *.
    + inversion Hc as [|? ? Hcw _]; subst. destruct (log_step E w st2) as [[p st4]| |] eqn:Es; try discriminate. cbn [rbind] in E3.
      destruct (log_run E os4 st4) as [[ps4 st5]| |]; try discriminate. cbn [rbind] in E3. injection E3 as <- <-.
      destruct (step_file _ _ _ _ _ _ Es Hcw Ef2) as (b & _ & _ & Hp). cbn. rewrite Hp by exact Hw. reflexivity.
    + inversion Hc as [|? ? Hco Hc']; inversion Hnw as [|? ? Hno Hnw']; subst.
      destruct (log_step E o st2) as [[p st4]| |] eqn:Es; try discriminate. cbn [rbind] in E3.
      destruct (log_run E (os3 ++ w :: os4) st4) as [[ps4 st5]| |] eqn:Er; try discriminate. cbn [rbind] in E3. injection E3 as <- <-.
      cbn [nth_error]. destruct (step_file _ _ _ _ _ _ Es Hco Ef2) as (b & Hb & Ef4 & _).
      assert (b = []). { destruct o as [[g'|]|b'| | |]; cbn in Hno, Hb; try (exfalso; apply Hno; exact I); try congruence. }
      subst b. rewrite app_nil_r in Ef4. eapply IH; eassumption.
Qed.

(** Iteration from a position where the objects fs begin. *)
Lemma scan_objects fs : forall a st fuel k,
  lfile st = Some (a ++ flat_map fmt_object fs) -> Forall representable fs ->
  (List.length (flat_map fmt_object fs) <= fuel)%nat -> (List.length fs < k)%nat ->
  scan fuel k (Z.of_nat (List.length a)) st = Ok (map (fun f => Some (groot f)) fs).
Proof.
  induction fs as [|f fs IH]; intros a st fuel k Ef Hr Hf Hk; (destruct k as [|k]; [cbn in Hk; lia|]); cbn [scan].
  - unfold log_get. rewrite Ef. replace (Z.of_nat (List.length a) <? 0) with false by lia.
    cbn [flat_map]. rewrite app_nil_r, Nat2Z.id, skipn_all. reflexivity.
  - inversion Hr as [|? ? Hr1 Hr2]; subst. cbn [flat_map] in *. rewrite app_length in Hf.
    rewrite (get_stored f); [|exact Hr1| |lia].
    2:{ split; [lia|]. eexists _, _. split; [exact Ef|]. rewrite Nat2Z.id, skipn_app_len, app_length.
        split; [reflexivity|lia]. }
    cbn [rbind]. pose proof (fmt_object_len f).
    replace (_ <? 0) with false by lia.
    replace (Z.of_nat (List.length a) + Z.of_nat (List.length (fmt_object f))) with (Z.of_nat (List.length (a ++ fmt_object f))) by (rewrite app_length; lia).
    rewrite IH; [reflexivity|rewrite <- app_assoc; exact Ef|exact Hr2|lia|cbn in Hk; lia].
Qed.

Lemma adds_file E os fs : adds E os fs -> forall st ps st' file,
  lfile st = Some file -> log_run E os st = Ok (ps, st') ->
  Forall representable fs /\ lfile st' = Some (file ++ flat_map fmt_object fs).
Proof.
  induction 1 as [|g f os fs Hs Hr H IH|f os fs Hr H IH|os fs H IH|os fs H IH|v os fs H IH];
    intros st ps st' file Ef Er; cbn [log_run] in Er.
  - injection Er as <- <-. cbn [flat_map]. rewrite app_nil_r. split; [constructor|exact Ef].
  - destruct (log_step E (LAdd (Some g)) st) as [[p st1]| |] eqn:Es; try discriminate. cbn [rbind] in Er.
    destruct (log_run E os st1) as [[ps1 st2]| |] eqn:Er1; try discriminate. injection Er as <- <-.
    assert (Hnn : lfile st <> None) by congruence.
    destruct (step_add _ _ _ _ _ _ Hs Hr Hnn Es) as (f0 & Ef0 & _ & Ef1 & _).
    assert (f0 = file) by congruence. subst f0. destruct (IH _ _ _ _ Ef1 Er1) as [Ha Hb].
    split; [constructor; assumption|]. cbn [flat_map]. rewrite app_assoc. exact Hb.
  - destruct (log_step E (LAddBinary _) st) as [[p st1]| |] eqn:Es; try discriminate. cbn [rbind] in Er.
    destruct (log_run E os st1) as [[ps1 st2]| |] eqn:Er1; try discriminate. injection Er as <- <-.
    destruct (step_file _ _ _ _ _ _ Es (fun x => x) Ef) as (b & Hb & Ef1 & _). cbn in Hb. injection Hb as <-.
    destruct (IH _ _ _ _ Ef1 Er1) as [Ha Hb].
    split; [constructor; assumption|]. cbn [flat_map]. rewrite app_assoc. exact Hb.
  - cbn [log_step log_add Binary rbind] in Er. destruct (log_run E os st) as [[ps1 st2]| |] eqn:Er1; try discriminate. injection Er as <- <-. eapply IH; eassumption.
  - cbn [log_step rbind] in Er. destruct (log_run E os (log_sync st)) as [[ps1 st2]| |] eqn:Er1; try discriminate. injection Er as <- <-.
    eapply IH; [|eassumption]. unfold log_sync. rewrite Ef. reflexivity.
  - cbn [log_step rbind] in Er. destruct (log_run E os (log_set_sync v st)) as [[ps1 st2]| |] eqn:Er1; try discriminate. injection Er as <- <-.
    eapply IH; [|eassumption]. exact Ef.
Qed.

Lemma scan_all E os fs ps st fuel k : adds E os fs -> log_run E os (OpenLog []) = Ok (ps, st) ->
  (List.length (flat_map fmt_object fs) <= fuel)%nat -> (List.length fs < k)%nat ->
  scan fuel k 0 st = Ok (map (fun f => Some (groot f)) fs).
Proof.
  intros Ha Hr Hf Hk. destruct (adds_file _ _ _ Ha (OpenLog []) _ _ [] eq_refl Hr) as [H1 H2].
  apply (scan_objects fs [] st); assumption.
Qed.

(** The next position never passes the end of the file. *)
Lemma get_next_bound fuel i st f g next err : lfile st = Some f -> 0 <= i ->
  log_get fuel i st = Ok (g, next, err) ->
  err = false /\ (next = -1 /\ g = None \/ i < next <= Z.of_nat (List.length f)).
Proof.
  intros Ef Hi. unfold log_get. rewrite Ef. replace (i <? 0) with false by lia.
  destruct (parse fuel _) as [[g' s]| |] eqn:Ep; try discriminate. cbn [rbind].
  pose proof (parse_rn _ _ _ _ Ep) as Hrn. apply acct_parse in Ep. destruct (Ep eq_refl) as (_ & p & E1 & E2).
  cbn [rest rn] in E1, E2. destruct (rn s =? 0) eqn:E0; intro H; injection H as <- <- <-; (split; [reflexivity|]).
  - left. split; [reflexivity|]. apply Hrn. lia.
  - right. assert (Hl : (List.length p <= List.length (skipn (Z.to_nat i) f))%nat) by (rewrite E1, app_length; lia).
    rewrite skipn_length in Hl. lia.
Qed.
