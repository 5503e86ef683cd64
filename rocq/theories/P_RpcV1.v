(** Calls with protocol 1 over an unreliable network (claim C51). *)
From Verif Require Import Base Value EventSpec Event EventFacts Binary BinarySpec BinaryFacts BinaryFacts2 Rpc RpcSpec RpcFacts Samples.

(** ** A reader that stops before the end of its input does not depend on what follows *)
Section More.
Context (d : bytes).
Definition more (s : rst) : rst := mkR (rest s ++ d) TEof (rn s).
Lemma read_ext s c s' : read s = (c, s') -> rest s' <> [] -> rest s <> [] /\ read (more s) = (c, more s').
Proof.
  destruct s as [[|b r] t n]; unfold read, more; cbn [rest tl_ rn app].
  - destruct t; intros [= <- <-]; cbn; congruence.
  - intros [= <- <-]. cbn. intros _. split; [discriminate|reflexivity].
Qed.
Ltac rd := match goal with
  | H : context [let (_, _) := read ?s in _] |- _ =>
      let c := fresh "c" in let s' := fresh "s" in let Er := fresh "Er" in destruct (read s) as [c s'] eqn:Er
  end.
Ltac done_ := repeat match goal with
  | Er : read ?s = (_, ?s'), Hn : rest ?s' <> [] |- _ => destruct (read_ext _ _ _ Er Hn) as [? ?]; clear Er
  end.
Lemma varInt_ext s c s' : varInt s = (c, s') -> rest s' <> [] -> rest s <> [] /\ varInt (more s) = (c, more s').
Proof.
  intros H Hn. unfold varInt in H. rd. destruct (c0 <? 128) eqn:B1.
  { injection H as <- <-. done_. split; [assumption|]. unfold varInt. rewrite H0, B1. reflexivity. }
  destruct (c0 <? 192) eqn:B2.
  { rd. injection H as <- <-. done_. split; [assumption|]. unfold varInt. rewrite H2, B1, B2, H0. reflexivity. }
  destruct (c0 <? 224) eqn:B3.
  { rd. rd. injection H as <- <-. done_. split; [assumption|]. unfold varInt. rewrite H4, B1, B2, B3, H2, H0. reflexivity. }
  destruct (c0 <? 240) eqn:B4.
  { rd. rd. rd. injection H as <- <-. done_. split; [assumption|]. unfold varInt. rewrite H6, B1, B2, B3, B4, H4, H2, H0. reflexivity. }
  injection H as <- <-. done_. split; [assumption|]. unfold varInt. rewrite H0, B1, B2, B3, B4. reflexivity.
Qed.
Lemma text_ext : forall fuel s buf b s', text_loop fuel s buf = Ok (b, s') -> rest s' <> [] -> rest s <> [] /\ text_loop fuel (more s) buf = Ok (b, more s').
Proof.
  induction fuel as [|fuel IH]; intros s buf b s' H Hn; [discriminate|]. cbn [text_loop] in *. destruct (read s) as [c s1] eqn:Er. destruct (c =? 0) eqn:B.
  - injection H as <- <-. destruct (read_ext _ _ _ Er Hn) as [H1 H2]. rewrite H2, B. auto.
  - destruct (IH _ _ _ _ H Hn) as [H1 H2]. destruct (read_ext _ _ _ Er H1) as [H3 H4]. rewrite H4, B. auto.
Qed.
Lemma bin_ext : forall fuel s n buf b s', bin_loop fuel s n buf = Ok (b, s') -> rest s' <> [] -> rest s <> [] /\ bin_loop fuel (more s) n buf = Ok (b, more s').
Proof.
  induction fuel as [|fuel IH]; intros s n buf b s' H Hn; [discriminate|]. cbn [bin_loop] in *. destruct (n =? 0).
  - destruct (varInt s) as [m s1] eqn:Er. destruct (m <? 0) eqn:B.
    + injection H as <- <-. destruct (varInt_ext _ _ _ Er Hn) as [H1 H2]. rewrite H2, B. auto.
    + destruct (IH _ _ _ _ _ H Hn) as [H1 H2]. destruct (varInt_ext _ _ _ Er H1) as [H3 H4]. rewrite H4, B. auto.
  - destruct (read s) as [m s1] eqn:Er. destruct (m <? 0) eqn:B.
    + injection H as <- <-. destruct (read_ext _ _ _ Er Hn) as [H1 H2]. rewrite H2, B. auto.
    + destruct (IH _ _ _ _ _ H Hn) as [H1 H2]. destruct (read_ext _ _ _ Er H1) as [H3 H4]. rewrite H4, B. auto.
Qed.
Lemma line_ext fuel w s r s' : line fuel w s = Ok (r, s') -> rest s' <> [] -> rest s <> [] /\ line fuel w (more s) = Ok (r, more s').
Proof.
  intros H Hn. unfold line in *. destruct (varInt s) as [l s1] eqn:Ev. destruct (l <? 1) eqn:B.
  - injection H as <- <-. destruct (varInt_ext _ _ _ Ev Hn) as [H1 H2]. rewrite H2, B. auto.
  - destruct (read s1) as [n s2] eqn:Er. destruct (n =? 1) eqn:B1.
    + destruct (bin_loop fuel s2 0 []) as [[b s3]| |] eqn:Eb; cbn [rbind] in H; try discriminate. injection H as <- <-.
      destruct (bin_ext _ _ _ _ _ _ Eb Hn) as [H1 H2]. destruct (read_ext _ _ _ Er H1) as [H3 H4]. destruct (varInt_ext _ _ _ Ev H3) as [H5 H6]. rewrite H6, B, H4, B1, H2. auto.
    + destruct (text_loop fuel s2 [zb n]) as [[b s3]| |] eqn:Eb; cbn [rbind] in H; try discriminate. injection H as <- <-.
      destruct (text_ext _ _ _ _ _ Eb Hn) as [H1 H2]. destruct (read_ext _ _ _ Er H1) as [H3 H4]. destruct (varInt_ext _ _ _ Ev H3) as [H5 H6]. rewrite H6, B, H4, B1, H2. auto.
Qed.
Lemma parse_loop_ext : forall fuel s h h' s', parse_loop fuel s h = Ok (h', s') -> rest s' <> [] -> rest s <> [] /\ parse_loop fuel (more s) h = Ok (h', more s').
Proof.
  induction fuel as [|fuel IH]; intros s h h' s' H Hn; [discriminate|]. cbn [parse_loop] in *.
  destruct (line fuel true s) as [[[[lev isb] b] s1]| |] eqn:El; cbn [rbind] in H; try discriminate. destruct (lev =? 0) eqn:B.
  - injection H as <- <-. destruct (line_ext _ _ _ _ _ El Hn) as [H1 H2]. rewrite H2. cbn [rbind]. rewrite B. auto.
  - destruct (IH _ _ _ _ H Hn) as [H1 H2]. destruct (line_ext _ _ _ _ _ El H1) as [H3 H4]. rewrite H4. cbn [rbind]. rewrite B. auto.
Qed.
Lemma header_ext s b s' : header s = (b, s') -> rest s' <> [] -> header (more s) = (b, more s').
Proof.
  intros H Hn. unfold header in *. rd. destruct (negb (c =? 1)) eqn:B1.
  { injection H as <- <-. done_. rewrite H0, B1. reflexivity. }
  rd. destruct (negb (c0 =? 71)) eqn:B2.
  { injection H as <- <-. done_. rewrite H2, B1, H0, B2. reflexivity. }
  rd. destruct (negb (c1 =? 0)) eqn:B3; injection H as <- <-; done_; rewrite H4, B1, H2, B2, H0, B3; reflexivity.
Qed.
Lemma parse_ext fuel s g s' : parse fuel s = Ok (g, s') -> rest s' <> [] -> parse fuel (more s) = Ok (g, more s').
Proof.
  intros H Hn. unfold parse in *. destruct (header s) as [ok s1] eqn:Eh. destruct ok; cbn [negb] in *.
  - destruct (parse_loop fuel s1 h_init) as [[h s2]| |] eqn:Ep; cbn [rbind] in H; try discriminate. destruct (Tree h) as [t| |] eqn:Et; cbn [rbind] in H; try discriminate. injection H as <- <-.
    destruct (parse_loop_ext _ _ _ _ _ Ep Hn) as [H1 H2]. rewrite (header_ext _ _ _ Eh H1). cbn [negb]. rewrite H2. cbn [rbind]. rewrite Et. reflexivity.
  - injection H as <- <-. rewrite (header_ext _ _ _ Eh Hn). reflexivity.
Qed.
End More.

(** Of a beginning of an object everything is read. *)
Lemma parse_prefix F f c d e g r : Forall ev_ok (pres 1 f) -> (List.length (fmt_object f) <= F)%nat -> fmt_object f = c ++ d -> parse F (mkR c e 0) = Ok (g, r) -> rest r = [].
Proof.
  intros Hok HF Hc Hp. destruct (rest r) as [|b l] eqn:Er; [reflexivity|exfalso].
  assert (Hn : rest r <> []) by congruence. pose proof (parse_ext d F _ _ _ Hp Hn) as H. unfold more in H. cbn [rest rn] in H.
  rewrite <- Hc, <- (app_nil_r (fmt_object f)) in H. rewrite parse_fmt_object in H by assumption. injection H as _ H. rewrite Er in H. discriminate.
Qed.

Section Remote1.
Context {St : Type} (E : env) (F : nat) (h : func St).
Notation lnk := (world_link E F h).
Lemma receive_prefix f segs e o d : Forall ev_ok (pres 1 f) -> (List.length (fmt_object f) <= F)%nat -> Forall (fun s => s <> []) segs -> fmt_object f = List.concat segs ++ d ->
  forall w g, receive F (mkPipe segs e o) = Ok (w, g) -> w = mkPipe [] e o /\ FromBinaryReader F (List.concat segs) e = Ok g.
Proof.
  intros Hok HF Hs Hc w g H. unfold receive in H. cbn [p_in p_end p_out] in H. destruct (parse F (mkR (List.concat segs) e 0)) as [[g' r]| |] eqn:Ep; cbn [rbind] in H; try discriminate.
  rewrite (parse_prefix F f _ _ _ _ _ Hok HF Hc Ep) in H. cbn [List.length] in H. rewrite Nat.sub_0_r in H.
  pose proof (after_all (List.length (List.concat segs)) segs [] Hs ltac:(lia)) as Ha. rewrite app_nil_r in Ha. rewrite Ha in H. injection H as <- <-.
  split; [reflexivity|]. unfold FromBinaryReader. rewrite Ep. reflexivity.
Qed.
(** What the server does with a beginning of a request *)
Lemma process1_prefix f segs e d s fuel w s' : Forall ev_ok (pres 1 f) -> (List.length (fmt_object f) <= F)%nat -> Forall (fun s => s <> []) segs -> fmt_object f = List.concat segs ++ d ->
  process1 E F h fuel (mkPipe segs e []) s = Ok (w, s') ->
  (s' = s /\ p_out w = []) \/
  exists g x b, FromBinaryReader F (List.concat segs) e = Ok (Some g) /\ h g s = Ok (s', x) /\ Binary E x = Ok b /\ p_out w = match b with Some b => b | None => [] end.
Proof.
  intros Hok HF Hs Hc H. destruct fuel as [|fuel]; [discriminate|]. cbn [process1] in H.
  destruct (receive F (mkPipe segs e [])) as [[w1 g]| |] eqn:Er; cbn [rbind] in H; try discriminate.
  destruct (receive_prefix f segs e [] d Hok HF Hs Hc _ _ Er) as [-> Hp]. destruct g as [g|].
  2:{ injection H as <- <-. left. auto. }
  right. destruct (h g s) as [[s1 x]| |] eqn:Eh; cbn [rbind] in H; try discriminate. destruct (Binary E x) as [b| |] eqn:Eb; cbn [rbind] in H; try discriminate.
  cbn [n_write pipe_net rbind p_in p_end p_out app] in H. destruct fuel as [|fuel]; [discriminate|]. cbn [process1] in H. rewrite receive_end in H. cbn [rbind] in H. injection H as <- <-.
  exists g, x, b. auto.
Qed.

Variables (q : graph) (f : list tree) (qb : bytes).
Hypothesis (Hq : carries E q f qb) (HF : (List.length qb <= F)%nat).
Lemma qb_fmt : qb = fmt_object f /\ Forall ev_ok (pres 1 f).
Proof. destruct Hq as (Hs & Hr & _ & Hb & _). rewrite (Binary_fmt _ _ _ Hs Hr) in Hb. split; [congruence|apply representable_events, Hr]. Qed.
Lemma qb_some : qb <> [].
Proof. rewrite (proj1 qb_fmt). unfold fmt_object. discriminate. Qed.

(** One attempt *)
Lemma attempt1 t c s w1 cn r w2 : callV1 lnk E (Some q) (mkWorld1 t c s [] None) = Ok (w1, cn, r) -> settle1 E F h w1 = Ok w2 ->
  todo1 w2 = t /\ exists xs, (List.length xs <= 1)%nat /\ took h s xs (hs1 w2) /\ Forall (fun e => torn F qb (fst e)) xs /\ reported1 E F xs r.
Proof.
  intros H Hs. unfold callV1 in H. destruct Hq as (_ & _ & _ & Hb & _). rewrite Hb in H. cbn [rbind l_write world_link todo1 cur1 hs1 sent1 inbox1 app] in H.
  set (w0 := mkWorld1 t c s qb None) in *.
  assert (K : forall w3, settle1 E F h w0 = Ok w3 -> todo1 w3 = t /\ cur1 w3 = c /\ exists xs, (List.length xs <= 1)%nat /\ took h s xs (hs1 w3) /\ Forall (fun e => torn F qb (fst e)) xs /\
    exists segs, inbox1 w3 = Some segs /\ (List.concat segs = [] \/ exists g x b d, xs = [(g, Some x)] /\ Binary E (Some x) = Ok (Some b) /\ b = List.concat segs ++ d)).
  { intros w3 H3. unfold settle1 in H3. cbn [inbox1 w0 cur1 sent1 hs1 todo1] in H3. destruct (process1 E F h F (mkPipe (cut (p1_req c) qb) (p1_rend c) []) s) as [[p s']| |] eqn:Ep; cbn [rbind] in H3; try discriminate.
    injection H3 as <-. cbn [todo1 cur1 hs1 inbox1]. split; [reflexivity|]. split; [reflexivity|]. destruct qb_fmt as [Eq Hok]. destruct (cut_prefix (p1_req c) qb) as (d & Hd).
    destruct (process1_prefix f _ _ d s F p s' Hok ltac:(rewrite <- Eq; exact HF) (cut_nonempty _ _) ltac:(rewrite <- Eq; exact Hd) Ep) as [[-> Ho]|(g & x & b & Hg & Hh & Hx & Ho)].
    - exists []. split; [cbn; lia|]. split; [constructor|]. split; [constructor|]. eexists. split; [reflexivity|]. left. rewrite Ho. destruct (cut_prefix (p1_resp c) []) as (d' & Hd'). destruct (List.concat (cut (p1_resp c) [])); [reflexivity|discriminate].
    - exists [(g, x)]. split; [cbn; lia|]. split; [econstructor; [exact Hh|constructor]|]. split; [constructor; [|constructor]; exists (List.concat (cut (p1_req c) qb)), d, (p1_rend c); auto|].
      eexists. split; [reflexivity|]. rewrite Ho. destruct x as [x|].
      + destruct b as [b|]; [|cbn in Hx; destruct (bins E 1 (out x)); discriminate]. right. destruct (cut_prefix (p1_resp c) b) as (d' & Hd'). exists g, x, b, d'. auto.
      + cbn in Hx. injection Hx as <-. left. destruct (cut_prefix (p1_resp c) []) as (d' & Hd'). destruct (List.concat (cut (p1_resp c) [])); [reflexivity|discriminate]. }
  assert (Hbad : forall e : rerr, w1 = w0 -> r = (None, Some e) -> todo1 w2 = t /\ exists xs, (List.length xs <= 1)%nat /\ took h s xs (hs1 w2) /\ Forall (fun e => torn F qb (fst e)) xs /\ reported1 E F xs r).
  { intros e -> ->. destruct (K _ Hs) as (H1 & _ & xs & H2 & H3 & H4 & _). split; [exact H1|]. exists xs. split; [exact H2|]. split; [exact H3|]. split; [exact H4|]. exact I. }
  destruct (snd (p1_w c)). { injection H as <- _ <-. eapply Hbad; reflexivity. }
  destruct (negb (fst (p1_w c) =? Z.of_nat (List.length qb))). { injection H as <- _ <-. eapply Hbad; reflexivity. }
  clear Hbad. cbn [l_recv world_link] in H. destruct (settle1 E F h w0) as [w3| |] eqn:E3; cbn [rbind] in H; try discriminate.
  destruct (K _ eq_refl) as (H1 & Hc & xs & H2 & H3 & H4 & segs & Hi & Hx). rewrite Hi in H.
  destruct (receive F (mkPipe segs (p1_send (cur1 w3)) [])) as [[p g]| |] eqn:Er; cbn [rbind] in H; try discriminate.
  assert (Hr : FromBinaryReader F (List.concat segs) (p1_send (cur1 w3)) = Ok g).
  { unfold receive in Er. cbn [p_in p_end p_out] in Er. unfold FromBinaryReader. destruct (parse F (mkR (List.concat segs) (p1_send (cur1 w3)) 0)) as [[g' rr]| |]; cbn [rbind] in *; try discriminate. injection Er as _ <-. reflexivity. }
  set (w4 := mkWorld1 (todo1 w3) (cur1 w3) (hs1 w3) (sent1 w3) (Some (p_in p))) in *.
  assert (Hw : w1 = w4) by (destruct g as [[v [|? ?]]|]; injection H as <- _ _; reflexivity). subst w1. unfold settle1 in Hs. cbn [inbox1 w4] in Hs. injection Hs as <-. cbn [todo1 hs1 w4].
  split; [exact H1|]. exists xs. split; [exact H2|]. split; [exact H3|]. split; [exact H4|].
  destruct g as [[v [|k o]]|]; injection H as _ <-; try exact I. split; [discriminate|]. destruct Hx as [Hx|(g & x & b & d & -> & Hx & Hd)].
  { rewrite Hx in Hr. unfold FromBinaryReader, parse, header, read in Hr. cbn in Hr. destruct (p1_send (cur1 w3)); discriminate. }
  exists [], g, x, b. split; [reflexivity|]. split; [exact Hx|]. exists (List.concat segs), d, (p1_send (cur1 w3)). auto.
Qed.

Lemma took_app s l1 : forall s1 l2 s2, took h s l1 s1 -> took h s1 l2 s2 -> took h s (l1 ++ l2) s2.
Proof. intros s1 l2 s2 H. induction H; intros; [assumption|]. econstructor; eauto. Qed.
Lemma reported1_app l xs r : reported1 E F xs r -> reported1 E F (l ++ xs) r.
Proof. destruct r as [[rg|] [e|]]; cbn; auto. intros (H & xs0 & g & x & b & -> & H2). split; [exact H|]. exists (l ++ xs0), g, x, b. split; [apply app_assoc|exact H2]. Qed.
Lemma call1_runs : forall n w w' cn r w0 w2, call1_loop lnk E n false (Some q) w = Ok (w', cn, r) -> settle1 E F h w = Ok w0 -> settle1 E F h w' = Ok w2 ->
  exists xs, (List.length xs <= n)%nat /\ took h (hs1 w0) xs (hs1 w2) /\ Forall (fun e => torn F qb (fst e)) xs /\ reported1 E F xs r.
Proof.
  induction n as [|n IH]; intros w w' cn r w0 w2 H H0 H2; [discriminate|]. cbn [call1_loop l_dial world_link] in H. rewrite H0 in H. cbn [rbind] in H.
  destruct (todo1 w0) as [|p l] eqn:Et.
  { cbn [rbind negb] in H. injection H as <- _ <-. assert (H1 : settle1 E F h w0 = Ok w0).
    { unfold settle1 in H0. destruct (inbox1 w) eqn:Ei; [injection H0 as <-; unfold settle1; rewrite Ei; reflexivity|]. destruct (process1 _ _ _ _ _ _) as [[p s']| |]; cbn [rbind] in H0; try discriminate. injection H0 as <-. reflexivity. }
    rewrite H1 in H2. injection H2 as <-. exists []. split; [cbn; lia|]. split; [constructor|]. split; [constructor|exact I]. }
  cbn [rbind] in H. destruct (p1_up p) eqn:Eu; cbn [negb] in H.
  2:{ injection H as <- _ <-. unfold settle1 in H2. cbn [inbox1 cur1 sent1 hs1] in H2. rewrite cut_nil in H2.
      destruct F as [|F']; [discriminate|]. cbn [process1] in H2. rewrite receive_end in H2. cbn [rbind] in H2. injection H2 as <-. exists []. split; [cbn; lia|]. split; [constructor|]. split; [constructor|exact I]. }
  destruct (callV1 lnk E (Some q) (mkWorld1 l p (hs1 w0) [] None)) as [[[w1 c1] r1]| |] eqn:Ec; cbn [rbind] in H; try discriminate.
  assert (Hlast : w' = w1 -> r = r1 -> exists xs, (List.length xs <= S n)%nat /\ took h (hs1 w0) xs (hs1 w2) /\ Forall (fun e => torn F qb (fst e)) xs /\ reported1 E F xs r).
  { intros -> ->. destruct (attempt1 _ _ _ _ _ _ _ Ec H2) as (_ & xs & A & B & C & D). exists xs. split; [lia|]. auto. }
  destruct r1 as [rg [e|]].
  2:{ injection H as <- _ <-. apply Hlast; reflexivity. }
  destruct n as [|n]; [injection H as <- _ <-; apply Hlast; reflexivity|]. clear Hlast.
  assert (E3 : exists w3, settle1 E F h w1 = Ok w3).
  { cbn [call1_loop l_dial world_link] in H. destruct (settle1 E F h w1) as [w3| |]; [eauto|discriminate|discriminate]. }
  destruct E3 as (w3 & E3). destruct (attempt1 _ _ _ _ _ _ _ Ec E3) as (_ & xs & A & B & C & _). destruct (IH _ _ _ _ _ _ H E3 H2) as (xs' & A' & B' & C' & D').
  exists (xs ++ xs'). split; [rewrite app_length; lia|]. split; [eapply took_app; eauto|]. split; [apply Forall_app; auto|apply reported1_app, D'].
Qed.
End Remote1.

(** ** C51 with protocol 1: the handler runs at most three times, each time on what the parser
    makes of a beginning of the request, and success means that a beginning of the last response
    was received, whatever happens to the attempts. *)
Theorem C51_v1_at_most_thrice_partial : forall St E F (h : func St) q f qb plans s s' r, carries E q f qb -> (List.length qb <= F)%nat ->
  remote1 E F h plans q s = Ok (s', r) ->
  exists xs, (List.length xs <= 3)%nat /\ took h s xs s' /\ Forall (fun e => torn F qb (fst e)) xs /\ reported1 E F xs r.
Proof.
  intros St E F h q f qb plans s s' r Hq HF H. unfold remote1, Call1 in H. set (w := mkWorld1 plans _ s [] None) in H.
  destruct (call1_loop (world_link E F h) E 3 false (Some q) w) as [[[w1 cn] r1]| |] eqn:Ec; cbn [rbind] in H; try discriminate.
  destruct (settle1 E F h w1) as [w2| |] eqn:Es; cbn [rbind] in H; try discriminate. injection H as <- <-.
  assert (E0 : exists w0, settle1 E F h w = Ok w0 /\ hs1 w0 = s).
  { destruct F as [|F']; [exfalso; apply (qb_some E q f qb Hq); destruct qb; [reflexivity|cbn in HF; lia]|]. eexists. unfold settle1. cbn [w inbox1 cur1 p1_req cut sent1 process1]. rewrite receive_end. split; reflexivity. }
  destruct E0 as (w0 & E0 & <-). eapply call1_runs; eauto.
Qed.
Print Assumptions C51_v1_at_most_thrice_partial.

(** What a first attempt comes to when a beginning of the request that the parser accepts arrives,
    and a beginning of the response that the parser accepts *)
Lemma remote1_first {St} E F (h : func St) q f qb p plans s s1 g x b rg : carries E q f qb -> (List.length qb <= F)%nat -> (2 <= F)%nat ->
  p1_up p = true -> p1_w p = (Z.of_nat (List.length qb), false) ->
  FromBinaryReader F (List.concat (cut (p1_req p) qb)) (p1_rend p) = Ok (Some g) -> h g s = Ok (s1, Some x) -> Binary E (Some x) = Ok (Some b) ->
  FromBinaryReader F (List.concat (cut (p1_resp p) b)) (p1_send p) = Ok (Some rg) -> out rg <> [] ->
  remote1 E F h (p :: plans) q s = Ok (s1, (Some rg, None)).
Proof.
  intros Hq HF HF2 Hup Hw Hg Hh Hx Hr Ho. destruct (qb_fmt E q f qb Hq) as [Eq Hok].
  assert (R : forall l e g, FromBinaryReader F (List.concat l) e = Ok g -> exists w, receive F (mkPipe l e []) = Ok (w, g)).
  { intros l e g0 H. unfold receive. cbn [p_in p_end p_out]. unfold FromBinaryReader in H. destruct (parse F (mkR (List.concat l) e 0)) as [[g' r]| |]; cbn [rbind] in *; try discriminate. injection H as <-. eauto. }
  destruct (R _ _ _ Hg) as (w1 & R1). destruct (R _ _ _ Hr) as (w2 & R2). destruct (cut_prefix (p1_req p) qb) as (d & Hd).
  destruct (receive_prefix F f _ _ _ d Hok ltac:(rewrite <- Eq; exact HF) (cut_nonempty _ _) ltac:(rewrite <- Eq; exact Hd) _ _ R1) as [-> _].
  assert (Es : settle1 E F h (mkWorld1 plans p s qb None) = Ok (mkWorld1 plans p s1 qb (Some (cut (p1_resp p) b)))).
  { unfold settle1. cbn [inbox1 cur1 sent1 hs1 todo1]. destruct F as [|[|F']]; try lia. cbn [process1]. rewrite R1. cbn [rbind]. rewrite Hh. cbn [rbind]. rewrite Hx. cbn [rbind n_write pipe_net p_in p_end p_out].
    rewrite receive_end. reflexivity. }
  assert (E0 : forall pl p0, settle1 E F h (mkWorld1 pl p0 s [] None) = Ok (mkWorld1 pl p0 s [] (Some []))).
  { intros. unfold settle1. cbn [inbox1 cur1 sent1 hs1 todo1]. rewrite cut_nil. destruct F as [|F']; [lia|]. cbn [process1]. rewrite receive_end. cbn [rbind p_out]. rewrite cut_nil. reflexivity. }
  unfold remote1, Call1. cbn [call1_loop l_dial world_link]. rewrite E0. cbn [rbind todo1 hs1]. rewrite Hup. cbn [negb rbind].
  unfold callV1. destruct Hq as (_ & _ & _ & Hb & _). rewrite Hb. cbn [rbind l_write l_recv world_link todo1 cur1 hs1 sent1 inbox1 app]. rewrite Hw. cbn [fst snd]. rewrite Z.eqb_refl. cbn [negb].
  rewrite Es. cbn [rbind todo1 cur1 hs1 sent1 inbox1]. rewrite R2. cbn [rbind]. destruct rg as [v [|k o]]; [cbn in Ho; congruence|]. reflexivity.
Qed.
(** If the first attempt goes well the handler runs exactly once, however the request and the
    response are split. *)
Theorem C51_v1_once_partial : forall St E F (h : func St) q f qb p plans s s1 x f' b, carries E q f qb -> (List.length qb <= F)%nat ->
  p1_up p = true -> p1_w p = (Z.of_nat (List.length qb), false) -> List.concat (cut (p1_req p) qb) = qb ->
  h (groot f) s = Ok (s1, Some x) -> carries E x f' b -> (List.length b <= F)%nat -> List.concat (cut (p1_resp p) b) = b ->
  remote1 E F h (p :: plans) q s = Ok (s1, (Some (groot f'), None)).
Proof.
  intros St E F h q f qb p plans s s1 x f' b Hq HF Hup Hw Hc Hh Hx HF' Hc'.
  assert (P : forall g f b e, carries E g f b -> (List.length b <= F)%nat -> FromBinaryReader F b e = Ok (Some (groot f))).
  { intros g0 f0 b0 e (H1 & H2 & _ & H4 & _) H5. unfold FromBinaryReader. rewrite <- (app_nil_r b0). rewrite (parse_Binary E g0 f0 b0) by assumption. reflexivity. }
  assert (Hl : (2 <= F)%nat). { destruct (qb_fmt E q f qb Hq) as [-> _]. unfold fmt_object in HF. rewrite !app_length in HF. cbn in HF. lia. }
  eapply remote1_first; eauto.
  - rewrite Hc. eapply P; eauto.
  - destruct Hx as (_ & _ & _ & Hb & _). exact Hb.
  - rewrite Hc'. eapply P; eauto.
  - destruct Hx as (_ & _ & Hf & _). destruct f' as [|[? ?] ?]; [congruence|discriminate].
Qed.
Print Assumptions C51_v1_once_partial.
(** An object cut in the middle of a name *)
Definition cut_short (evs : list (Z * bytes)) (l : Z) (s : bytes) : bytes := header_bytes ++ encs evs ++ fmt_varint l ++ s.
(** The handler runs on a request that was cut short, and the call succeeds with a response that
    was cut short, if the connection fails in the middle of a name. *)
Theorem C51_v1_torn_refuted : forall St E F (h : func St) q f qb evs l t d evs' l' t' d' s s1 x b, carries E q f qb -> (List.length qb <= F)%nat ->
  qb = cut_short evs l t ++ d -> Forall ev_ok evs -> 1 <= l < 2 ^ 28 -> good_content t ->
  h (events_graph (map ev_val (evs ++ [(l, t)]))) s = Ok (s1, Some x) -> Binary E (Some x) = Ok (Some b) -> (List.length b <= F)%nat ->
  b = cut_short evs' l' t' ++ d' -> Forall ev_ok evs' -> 1 <= l' < 2 ^ 28 -> good_content t' -> out (events_graph (map ev_val (evs' ++ [(l', t')]))) <> [] ->
  exists p, forall plans, remote1 E F h (p :: plans) q s = Ok (s1, (Some (events_graph (map ev_val (evs' ++ [(l', t')]))), None)).
Proof.
  intros St E F h q f qb evs l t d evs' l' t' d' s s1 x b Hq HF Ec He Hl Ht Hh Hb HF' Ec' He' Hl' Ht' Ho.
  assert (P : forall evs l t d b, b = cut_short evs l t ++ d -> (List.length b <= F)%nat -> Forall ev_ok evs -> 1 <= l < 2 ^ 28 -> good_content t ->
    FromBinaryReader F (List.concat (cut [List.length (cut_short evs l t)] b)) TErr = Ok (Some (events_graph (map ev_val (evs ++ [(l, t)]))))).
  { intros ev0 l0 t0 d0 b0 -> H1 H2 H3 H4. cbn [cut]. rewrite firstn_app, Nat.sub_diag, firstn_O, app_nil_r, firstn_all, concat_rest. cbn [List.concat]. rewrite app_nil_r.
    unfold cut_short in *. apply error_in_text; try assumption. rewrite !app_length in *. cbn [header_bytes List.length] in H1. unfold enc. cbn [fst snd]. rewrite !app_length. cbn [List.length]. lia. }
  exists (mkPlan1 true (Z.of_nat (List.length qb), false) [List.length (cut_short evs l t)] TErr [List.length (cut_short evs' l' t')] TErr). intro plans.
  assert (H2 : (2 <= F)%nat). { destruct (qb_fmt E q f qb Hq) as [-> _]. unfold fmt_object in HF. rewrite !app_length in HF. cbn in HF. lia. }
  eapply remote1_first; eauto; cbn [p1_req p1_rend p1_resp p1_send]; eapply P; eauto.
Qed.
Print Assumptions C51_v1_torn_refuted.

(** A handler that notes its requests and gives the same answer to all *)
Definition ex1_req : graph := nd "_" [nd "add" [nd "12" []]].
Definition ex1_resp : graph := nd "_" [nd "sum" [nd "34" []]].
Definition ex1_h : func (list graph) := fun g l => Ok (l ++ [g], Some ex1_resp).
Definition ex1_body : bytes := [x01; "G"%byte; x00; x01; "a"%byte; "d"%byte; "d"%byte; x00; x02; "1"%byte; "2"%byte; x00; x00].
Lemma ex1_req_carries : carries env0 ex1_req [tr "add" [tr "12" []]] ex1_body.
Proof.
  split; [|split; [|split; [discriminate|split; [reflexivity|cbn; lia]]]].
  - eapply shows_node; [reflexivity|eapply shows_node; [reflexivity|constructor|constructor]|constructor].
  - exists 3%nat. split; [|cbn; lia]. repeat constructor; cbn; try discriminate; intuition discriminate.
Qed.
Definition ex1_reply : bytes := [x01; "G"%byte; x00; x01; "s"%byte; "u"%byte; "m"%byte; x00; x02; "3"%byte; "4"%byte; x00; x00].
Lemma ex1_resp_carries : carries env0 ex1_resp [tr "sum" [tr "34" []]] ex1_reply.
Proof.
  split; [|split; [|split; [discriminate|split; [reflexivity|cbn; lia]]]].
  - eapply shows_node; [reflexivity|eapply shows_node; [reflexivity|constructor|constructor]|constructor].
  - exists 3%nat. split; [|cbn; lia]. repeat constructor; cbn; try discriminate; intuition discriminate.
Qed.
(** add 12 is cut to add 1, the answer sum 34 to sum 3; and a call that goes well *)
Example C51_v1_ex :
  remote1 env0 20 ex1_h [mkPlan1 true (13, false) [10%nat] TErr [4%nat; 6%nat] TErr] ex1_req [] = Ok ([nd "_" [nd "add" [nd "1" []]]], (Some (nd "_" [nd "sum" [nd "3" []]]), None)) /\
  remote1 env0 20 ex1_h [mkPlan1 true (13, false) [5%nat; 8%nat] TEof [3%nat; 10%nat] TEof] ex1_req [] = Ok ([ex1_req], (Some ex1_resp, None)).
Proof.
  pose proof ex1_req_carries as Hq. pose proof ex1_resp_carries as Hx. split.
  - apply (remote1_first env0 20 ex1_h ex1_req _ ex1_body (mkPlan1 true (13, false) [10%nat] TErr [4%nat; 6%nat] TErr) [] [] _ (nd "_" [nd "add" [nd "1" []]]) ex1_resp ex1_reply _ Hq);
      try reflexivity; try (cbn; lia); discriminate.
  - apply (C51_v1_once_partial _ env0 20 ex1_h ex1_req _ ex1_body (mkPlan1 true (13, false) [5%nat; 8%nat] TEof [3%nat; 10%nat] TEof) [] [] [ex1_req] ex1_resp [tr "sum" [tr "34" []]] ex1_reply Hq); try reflexivity; try (cbn; lia); exact Hx.
Qed.
Example C51_v1_torn_ex : carries env0 ex1_req [tr "add" [tr "12" []]] ex1_body /\ ex1_body = cut_short [(1, bs "add")] 2 (bs "1") ++ bs "2" ++ [x00; x00] /\
  Forall ev_ok [(1, bs "add")] /\ good_content (bs "1") /\ events_graph (map ev_val ([(1, bs "add")] ++ [(2, bs "1")])) = nd "_" [nd "add" [nd "1" []]].
Proof.
  split; [exact ex1_req_carries|]. split; [reflexivity|]. split; [repeat constructor; cbn; try discriminate; try lia; intuition discriminate|].
  split; [repeat split; cbn; try discriminate; intuition discriminate|reflexivity].
Qed.
