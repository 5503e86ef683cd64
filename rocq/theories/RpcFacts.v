(** Facts about remote functions. *)
From Verif Require Import Base Value Event EventSpec EventFacts Binary BinarySpec BinaryFacts Rpc RpcSpec.

(** ** Lengths *)
Lemma be32_ok n : 0 <= n < 2 ^ 32 -> big_endian (be32 n) n.
Proof.
  intro H. eexists _, _, _, _. split; [reflexivity|]. rewrite !bz_zb.
  change (2 ^ 24) with (256 * 256 * 256). change (2 ^ 16) with (256 * 256). change (2 ^ 8) with 256.
  rewrite <- !Z.div_div by lia.
  assert (0 <= n / 256 / 256 / 256 < 256). { rewrite !Z.div_div by lia. split; [apply Z.div_pos; lia|apply Z.div_lt_upper_bound; lia]. }
  rewrite (Z.mod_small (n / 256 / 256 / 256) 256) by assumption.
  pose proof (Z.div_mod n 256). pose proof (Z.div_mod (n / 256) 256). pose proof (Z.div_mod (n / 256 / 256) 256). lia.
Qed.
Lemma un_be32_ok h n : big_endian h n -> un_be32 h = n /\ List.length h = 4%nat /\ 0 <= n < 2 ^ 32.
Proof.
  intros (a & b & c & d & -> & ->). cbn. pose proof (bz_range a). pose proof (bz_range b). pose proof (bz_range c). pose proof (bz_range d). repeat split; lia.
Qed.
Lemma big_endian_inj h h' n : big_endian h n -> big_endian h' n -> h = h'.
Proof.
  intros (a & b & c & d & -> & ->) (a' & b' & c' & d' & -> & Hn).
  pose proof (bz_range a). pose proof (bz_range b). pose proof (bz_range c). pose proof (bz_range d).
  pose proof (bz_range a'). pose proof (bz_range b'). pose proof (bz_range c'). pose proof (bz_range d').
  assert (bz d = bz d') by lia. assert (bz c = bz c') by lia. assert (bz b = bz b') by lia. assert (bz a = bz a') by lia.
  rewrite (bz_inj a a'), (bz_inj b b'), (bz_inj c c'), (bz_inj d d'); auto.
Qed.
Lemma message_be32 b m : message b m -> m = be32 (Z.of_nat (List.length b)) ++ b /\ Z.of_nat (List.length b) < 2 ^ 32.
Proof.
  intros (h & Hh & ->). pose proof (un_be32_ok _ _ Hh) as (_ & _ & Hl). split; [|lia]. f_equal.
  eapply big_endian_inj; [exact Hh|]. apply be32_ok. lia.
Qed.

(** ** Segments *)
Lemma concat_rest b l : List.concat (rest_of b l) = b ++ List.concat l.
Proof. destruct b; reflexivity. Qed.
Lemma rest_nonempty b l : Forall (fun s : bytes => s <> []) l -> Forall (fun s => s <> []) (rest_of b l).
Proof. intro H. destruct b; [exact H|constructor; [discriminate|exact H]]. Qed.
Lemma skipn_nil_firstn {A} n (l : list A) : skipn n l = [] -> firstn n l = l.
Proof. intro H. rewrite <- (firstn_skipn n l) at 2. rewrite H, app_nil_r. reflexivity. Qed.

Lemma cut_prefix sizes : forall b, exists r, b = List.concat (cut sizes b) ++ r.
Proof.
  induction sizes as [|n l IH]; intro b; [exists b; reflexivity|]. cbn [cut]. rewrite concat_rest.
  destruct (IH (skipn n b)) as (r & Hr). exists r. rewrite <- app_assoc, <- Hr, firstn_skipn. reflexivity.
Qed.
Lemma cut_nonempty sizes : forall b, Forall (fun s => s <> []) (cut sizes b).
Proof. induction sizes as [|n l IH]; intro b; [constructor|]. cbn [cut]. apply rest_nonempty, IH. Qed.

(** ** The client's reading loop *)
(** It returns the bytes that came, if these are all there should be. *)
Lemma read_body_all e o l : 0 <= l < 2 ^ 32 -> forall fuel segs l2 buf, Forall (fun s => s <> []) segs -> segs <> [] ->
  0 <= l2 -> l = l2 + Z.of_nat (List.length (List.concat segs)) -> (List.length (List.concat segs) <= fuel)%nat ->
  read_body pipe_net fuel l l2 buf (mkPipe segs e o) = Ok (mkPipe [] e o, inl (buf ++ List.concat segs)).
Proof.
  intros Hl fuel. induction fuel as [|fuel IH]; intros segs l2 buf Hs Hn H2 Hsum Hf.
  { destruct segs as [|s segs]; [congruence|]. inversion Hs; subst. destruct s; [congruence|]. cbn in Hf. lia. }
  destruct segs as [|s segs]; [congruence|]. inversion Hs as [|? ? Hne Hs']; subst.
  cbn [read_body n_read pipe_net p_in rbind p_end p_out].
  set (n := Z.to_nat 10000). assert (Hn0 : n <> 0%nat) by (subst n; lia). clearbody n.
  destruct (firstn n s) as [|a f] eqn:Ef. { destruct n; [congruence|]. destruct s; [congruence|]. discriminate. }
  rewrite <- Ef. cbn [List.concat] in *.
  assert (Es : List.length (firstn n s) = List.length (a :: f)) by (rewrite Ef; reflexivity).
  assert (Esum : (List.length (firstn n s) + List.length (List.concat (rest_of (skipn n s) segs)) = List.length (s ++ List.concat segs))%nat).
  { rewrite concat_rest, <- app_length, app_assoc, firstn_skipn. reflexivity. }
  rewrite Z.mod_small by lia.
  destruct (Z.leb_spec (l2 + Z.of_nat (List.length (s ++ List.concat segs))) (l2 + Z.of_nat (List.length (firstn n s)))) as [Hle|Hlt].
  - assert (E0 : rest_of (skipn n s) segs = []).
    { pose proof (rest_nonempty (skipn n s) segs Hs') as Hr. destruct (rest_of (skipn n s) segs) as [|x xs]; [reflexivity|].
      inversion Hr; subst. cbn [List.concat] in Esum. destruct x; [congruence|]. cbn [List.length app] in Esum. lia. }
    rewrite E0. do 3 f_equal. replace (s ++ List.concat segs) with (firstn n s ++ skipn n s ++ List.concat segs) by (rewrite app_assoc, firstn_skipn; reflexivity).
    rewrite <- concat_rest, E0. cbn [List.concat]. rewrite app_nil_r. reflexivity.
  - rewrite IH.
    + rewrite concat_rest, <- !app_assoc, (app_assoc (firstn n s)), firstn_skipn. reflexivity.
    + apply rest_nonempty, Hs'.
    + intro E0. rewrite E0 in Esum. cbn [List.concat List.length] in Esum. lia.
    + lia.
    + lia.
    + cbn [List.length] in Es. lia.
Qed.
(** If it returns, then all has come. *)
Lemma read_body_inv e o l : 0 <= l < 2 ^ 32 -> forall fuel segs l2 buf w r, Forall (fun s => s <> []) segs ->
  0 <= l2 -> l2 + Z.of_nat (List.length (List.concat segs)) <= l ->
  read_body pipe_net fuel l l2 buf (mkPipe segs e o) = Ok (w, r) ->
  match r with inl b => b = buf ++ List.concat segs /\ l = l2 + Z.of_nat (List.length (List.concat segs)) | inr x => x = Some ErrRead end.
Proof.
  intros Hl fuel. induction fuel as [|fuel IH]; intros segs l2 buf w r Hs H2 Hsum; [discriminate|].
  cbn [read_body n_read pipe_net p_in rbind p_end p_out]. destruct segs as [|s segs].
  { cbn [rbind]. intro H. assert (r = inr (Some ErrRead)) by congruence. subst r. reflexivity. }
  inversion Hs as [|? ? Hne Hs']; subst. cbn [rbind p_end p_out].
  set (n := Z.to_nat 10000). assert (Hn0 : n <> 0%nat) by (subst n; lia). clearbody n.
  destruct (firstn n s) as [|a f] eqn:Ef. { destruct n; [congruence|]. destruct s; [congruence|]. discriminate. }
  rewrite <- Ef. cbn [List.concat] in *.
  assert (Es : List.length (firstn n s) = List.length (a :: f)) by (rewrite Ef; reflexivity).
  assert (Esum : (List.length (firstn n s) + List.length (List.concat (rest_of (skipn n s) segs)) = List.length (s ++ List.concat segs))%nat).
  { rewrite concat_rest, <- app_length, app_assoc, firstn_skipn. reflexivity. }
  rewrite Z.mod_small by lia. destruct (Z.leb_spec l (l2 + Z.of_nat (List.length (firstn n s)))) as [Hle|Hlt].
  - intro H. assert (r = inl (buf ++ firstn n s)) by congruence. subst r.
    assert (E0 : List.concat (rest_of (skipn n s) segs) = []) by (apply length_zero_iff_nil; lia).
    rewrite concat_rest in E0. split; [|lia]. f_equal. rewrite <- (firstn_skipn n s) at 2. rewrite <- app_assoc, E0, app_nil_r. reflexivity.
  - intro H. apply IH in H.
    + destruct r as [b|x]; [|exact H]. destruct H as (-> & ->). split; [|lia]. rewrite concat_rest, <- app_assoc. f_equal. rewrite app_assoc, firstn_skipn. reflexivity.
    + apply rest_nonempty, Hs'.
    + lia.
    + lia.
Qed.

(** ** callV2 over a pipe *)
Definition frame (b : bytes) : bytes := be32 (Z.of_nat (List.length b)) ++ b.
Lemma be32_length n : List.length (be32 n) = 4%nat.
Proof. reflexivity. Qed.

(** The first Read of four bytes *)
Lemma read4 segs e o h b : List.length h = 4%nat -> segments (h ++ b) segs -> (4 <= List.length (hd [] segs))%nat ->
  exists segs', n_read pipe_net 4 (mkPipe segs e o) = Ok (mkPipe segs' e o, h, false) /\ segments b segs'.
Proof.
  intros Hh (Hc & Hs) Hl. destruct segs as [|s segs]; [cbn in Hl; lia|]. inversion Hs; subst. cbn [hd List.concat] in *.
  cbn [n_read pipe_net p_in p_end p_out]. change (Z.to_nat 4) with 4%nat.
  assert (E1 : firstn 4 s = h).
  { assert (E2 : firstn 4 (s ++ List.concat segs) = firstn 4 (h ++ b)) by (rewrite Hc; reflexivity).
    rewrite firstn_app in E2. replace (4 - List.length s)%nat with 0%nat in E2 by lia. rewrite firstn_O, app_nil_r in E2.
    rewrite E2, firstn_app, Hh, Nat.sub_diag, firstn_O, app_nil_r. apply firstn_all2. lia. }
  eexists. rewrite E1. split; [reflexivity|]. split; [|apply rest_nonempty; assumption].
  rewrite concat_rest. apply (app_inv_head h). rewrite <- Hc. rewrite <- E1 at 1. rewrite app_assoc, firstn_skipn. reflexivity.
Qed.

Section Call.
Variables (E : env) (F : nat).
Lemma callV2_bytes q qb b m segs e o : Binary E q = Ok (Some qb) -> message b m -> b <> [] -> segments m segs -> (4 <= List.length (hd [] segs))%nat ->
  (List.length b <= F)%nat ->
  callV2 pipe_net E F q (mkPipe segs e o) =
    let* g := FromBinary F b in
    Ok (mkPipe [] e (o ++ frame qb), match g with Some (Node v (k :: l)) => (Some (Node v (k :: l)), None) | _ => (None, Some ErrEmpty) end).
Proof.
  intros Hq (h & Hh & ->) Hb Hs Hl Hf. pose proof (un_be32_ok h _ Hh) as (Hu & Hh4 & Hr). unfold callV2. rewrite Hq. cbn [rbind n_write pipe_net p_in p_end p_out].
  rewrite be32_length. change (Z.of_nat 4 =? 4) with true. cbn [negb orb]. rewrite Z.eqb_refl. cbn [negb].
  destruct (read4 segs e ((o ++ be32 (Z.of_nat (List.length qb))) ++ qb) h b Hh4 Hs Hl) as (segs' & E4 & Hs' & Hn').
  change (n_read _) with (n_read pipe_net). rewrite E4. cbn [rbind]. rewrite Hh4. change (Z.of_nat 4 =? 4) with true. cbn [negb]. rewrite Hu.
  change (mkNet _ _ _) with pipe_net. rewrite read_body_all; [| |exact Hn'| | | |]; rewrite ?Hs'; try lia.
  - cbn [rbind app]. rewrite <- app_assoc. fold (frame qb). destruct (FromBinary F b) as [[[v [|k l]]|]| |]; reflexivity.
  - intros ->. cbn in Hs'. congruence.
Qed.
Lemma callV2_short q qb segs e o : Binary E q = Ok (Some qb) -> (List.length (hd [] segs) < 4)%nat ->
  exists w, callV2 pipe_net E F q (mkPipe segs e o) = Ok (w, (None, Some ErrHeader)).
Proof.
  intros Hq Hl. unfold callV2. rewrite Hq. cbn [rbind n_write pipe_net p_in p_end p_out].
  rewrite be32_length. change (Z.of_nat 4 =? 4) with true. cbn [negb orb]. rewrite Z.eqb_refl. cbn [negb n_read p_in].
  destruct segs as [|s segs]; cbn [rbind].
  - eexists. reflexivity.
  - cbn [hd n_read pipe_net p_in rbind] in *. change (Z.to_nat 4) with 4%nat. rewrite firstn_all2 by lia. destruct (Z.eqb_spec (Z.of_nat (List.length s)) 4); [lia|]. eexists. reflexivity.
Qed.
End Call.

(** ** The server *)
Section Turn.
Context {St : Type} (E : env) (F : nat) (h : func St).

(** What a turn does after the body of a request has been read *)
Definition respond (b : bytes) (w : pipe) (s : St) : res (pipe * St * bool) :=
  let* g := FromBinary F b in
  match g with
  | Some (Node v (x :: l)) =>
      let* (s, r) := h (Node v (x :: l)) s in
      let* c := Binary E r in
      Ok (mkPipe (p_in w) (p_end w) (p_out w ++ frame (match c with Some c => c | None => [] end)), s, true)
  | _ => Ok (w, s, false)
  end.
Lemma turn_read hd4 n w w1 w2 b s : n_read pipe_net 4 w = Ok (w1, hd4, false) -> big_endian hd4 n -> n_read pipe_net n w1 = Ok (w2, b, false) ->
  turn pipe_net E F h w s = if (n =? 0) || negb (Z.of_nat (List.length b) =? n) then Ok (if n =? 0 then w1 else w2, s, false) else respond b w2 s.
Proof.
  intros H4 Hh Hb. pose proof (un_be32_ok hd4 n Hh) as (Hu & Hl & _). unfold turn. rewrite H4. cbn [rbind].
  destruct hd4 as [|c r]; [discriminate|]. rewrite Hl. change (Z.of_nat 4 =? 4) with true. cbn [orb negb]. rewrite Hu.
  destruct (n =? 0) eqn:En; [reflexivity|]. rewrite Hb. cbn [rbind orb]. destruct (Z.of_nat (List.length b) =? n); [|reflexivity]. cbn [negb].
  unfold respond. destruct (FromBinary F b) as [[[v [|x l]]|]| |]; try reflexivity. cbn [rbind].
  destruct (h (Node v (x :: l)) s) as [[s' r']| |]; try reflexivity. cbn [rbind]. destruct (Binary E r') as [c'| |]; try reflexivity. cbn [rbind n_write pipe_net p_in p_end p_out].
  rewrite be32_length. change (Z.of_nat 4 =? 4) with true. cbn [negb orb]. rewrite Z.eqb_refl. cbn [negb]. rewrite <- app_assoc. reflexivity.
Qed.

(** Reading a unit *)
Lemma read_unit u us segs e o : u <> [] -> Forall (fun x => x <> []) us -> unsplit (u :: us) segs ->
  exists segs', n_read pipe_net (Z.of_nat (List.length u)) (mkPipe segs e o) = Ok (mkPipe segs' e o, u, false) /\ unsplit us segs'.
Proof.
  intros Hu Hus (groups & Hc & -> & Hg). destruct groups as [|g groups]; [discriminate|]. inversion Hg as [|? ? Hg0 Hg']; subst.
  destruct g as [|u' g]; [congruence|]. cbn [List.concat app] in Hc. assert (u' = u) by congruence. subst u'. assert (Hc' : g ++ List.concat groups = us) by congruence. clear Hc.
  cbn [map n_read pipe_net p_in p_end p_out List.concat]. rewrite Nat2Z.id, firstn_app, Nat.sub_diag, firstn_all. cbn [firstn]. rewrite app_nil_r.
  rewrite skipn_app, Nat.sub_diag, skipn_all. cbn [skipn app]. eexists. split; [reflexivity|].
  destruct g as [|u1 g].
  - exists groups. cbn. auto.
  - exists ((u1 :: g) :: groups). split; [exact Hc'|]. split; [|constructor; [discriminate|exact Hg']]. cbn [map List.concat].
    assert (u1 <> []) by (subst us; inversion Hus; assumption). destruct u1; [congruence|reflexivity].
Qed.
Lemma unsplit_nil segs : unsplit [] segs -> segs = [].
Proof. intros (groups & Hc & -> & Hg). destruct groups as [|[|x g] groups]; [reflexivity| |discriminate]. inversion Hg; congruence. Qed.

(** What the server should do with the requests, one after the other *)
Inductive answers : list bytes -> St -> St -> bytes -> Prop :=
| answers_nil s : answers [] s s []
| answers_cons b l s s1 s2 g r c o : FromBinary F b = Ok (Some g) -> out g <> [] -> h g s = Ok (s1, r) -> Binary E r = Ok c ->
    answers l s1 s2 o -> answers (b :: l) s s2 (frame (match c with Some c => c | None => [] end) ++ o).
Lemma process_unsplit l : forall s s' out fuel segs e o, answers (map snd l) s s' out ->
  Forall (fun u => big_endian (fst u) (Z.of_nat (List.length (snd u)))) l -> unsplit (units l) segs -> (List.length l < fuel)%nat ->
  process pipe_net E F h fuel (mkPipe segs e o) s = Ok (mkPipe [] e (o ++ out), s').
Proof.
  induction l as [|[hd4 b] l IH]; intros s s' out fuel segs e o Ha Hh Hu Hf.
  - inversion Ha; subst. apply unsplit_nil in Hu. subst segs. destruct fuel as [|fuel]; [lia|]. cbn. rewrite app_nil_r. reflexivity.
  - cbn [map snd] in Ha. inversion Ha as [|? ? ? s1 ? g r c o' Hg Hne Hr Hc Ha']; subst. inversion Hh as [|? ? H0 Hh']; subst. cbn [fst snd] in H0.
    pose proof (un_be32_ok _ _ H0) as (_ & H4 & _).
    assert (Hb : b <> []). { intros ->. cbn in Hg. discriminate. }
    assert (Hus : Forall (fun x => x <> []) (units l)).
    { assert (HH : forall l s s' o, answers (map snd l) s s' o -> Forall (fun u : bytes * bytes => big_endian (fst u) (Z.of_nat (List.length (snd u)))) l -> Forall (fun x => x <> []) (units l)).
      { clear. intro l. induction l as [|[h4 b] l IH]; intros s s' o Ha Hh; [constructor|]. cbn [units]. cbn [map snd] in Ha. inversion Ha as [|? ? ? s1 ? g r c o' Hg Hne Hr Hc Ha']; subst. inversion Hh as [|? ? H0 Hh']; subst.
        constructor; [|constructor; [|eapply IH; eauto]].
        - cbn [fst] in H0. destruct H0 as (? & ? & ? & ? & -> & _). discriminate.
        - intros ->. cbn in Hg. discriminate. }
      eapply HH; eauto. }
    cbn [units] in Hu. destruct (read_unit hd4 (b :: units l) segs e o) as (segs1 & R1 & Hu1); [intros ->; discriminate|constructor; assumption|exact Hu|].
    rewrite H4 in R1. change (Z.of_nat 4) with 4 in R1. destruct (read_unit b (units l) segs1 e o Hb Hus Hu1) as (segs2 & R2 & Hu2).
    destruct fuel as [|fuel]; [lia|]. cbn [process]. rewrite (turn_read hd4 _ _ _ _ b s R1 H0 R2).
    replace (Z.of_nat (List.length b) =? 0) with false by (destruct b; [congruence|reflexivity]). rewrite Z.eqb_refl. cbn [negb orb].
    unfold respond. rewrite Hg. cbn [rbind]. destruct g as [v [|x k]]; [cbn in Hne; congruence|]. rewrite Hr. cbn [rbind]. rewrite Hc. cbn [rbind p_in p_end p_out].
    rewrite (IH s1 s' o' fuel segs2 e); [rewrite <- app_assoc; reflexivity|exact Ha'|exact Hh'|exact Hu2|cbn in Hf; lia].
Qed.
End Turn.

(** ** A request of which only a part may arrive *)
Section Part.
Context {St : Type} (E : env) (F : nat) (h : func St).
Lemma read_none segs e o n : segs = [] -> n_read pipe_net n (mkPipe segs e o) = Ok (mkPipe segs e o, [], true).
Proof. intros ->. reflexivity. Qed.
Lemma prefix_firstn {A} (a b c d : list A) : a ++ b = c ++ d -> List.length a = List.length c -> a = c /\ b = d.
Proof. revert c. induction a as [|x a IH]; intros [|y c] H Hl; try discriminate; [auto|]. cbn in *. injection H as -> H. apply IH in H; [|lia]. destruct H as (-> & ->). auto. Qed.

(** A turn on a part of a request: it is given up unless all is there and unsplit. *)
Lemma turn_part qb segs r e s : Z.of_nat (List.length qb) < 2 ^ 32 -> qb <> [] -> Forall (fun x => x <> []) segs -> frame qb = List.concat segs ++ r ->
  (exists w, turn pipe_net E F h (mkPipe segs e []) s = Ok (w, s, false) /\ p_out w = []) \/
  (unsplit [be32 (Z.of_nat (List.length qb)); qb] segs /\ turn pipe_net E F h (mkPipe segs e []) s = respond E F h qb (mkPipe [] e []) s).
Proof.
  intros Hlen Hqb Hs Hc.
  pose proof (be32_ok (Z.of_nat (List.length qb)) ltac:(lia)) as Hbe. pose proof (un_be32_ok _ _ Hbe) as (Hu & H4 & _).
  destruct segs as [|s0 segs]. { left. eexists. split; reflexivity. }
  pose proof (Forall_inv Hs) as Hne. pose proof (Forall_inv_tail Hs) as Hs'. cbn [List.concat] in Hc.
  set (b4 := firstn 4 s0). assert (Eb : b4 <> []) by (unfold b4; destruct s0; [congruence|discriminate]).
  set (segs1 := rest_of (skipn 4 s0) segs). assert (Hs1 : Forall (fun x => x <> []) segs1) by (apply rest_nonempty, Hs').
  assert (R1 : n_read pipe_net 4 (mkPipe (s0 :: segs) e []) = Ok (mkPipe segs1 e [], b4, false)) by reflexivity.
  destruct (Nat.eq_dec (List.length b4) 4) as [E4|E4].
  2:{ left. exists (mkPipe segs1 e []). split; [|reflexivity]. unfold turn. rewrite R1. cbn [rbind]. destruct b4 as [|c b4]; [congruence|].
      destruct (Z.eqb_spec (Z.of_nat (List.length (c :: b4))) 4); [lia|]. reflexivity. }
  assert (Hc1 : be32 (Z.of_nat (List.length qb)) = b4 /\ qb = List.concat segs1 ++ r).
  { apply (prefix_firstn (be32 (Z.of_nat (List.length qb))) qb b4 (List.concat segs1 ++ r)); [|rewrite E4; reflexivity].
    unfold segs1. rewrite concat_rest. unfold frame in Hc. rewrite Hc, !app_assoc. f_equal. f_equal. unfold b4. rewrite firstn_skipn. reflexivity. }
  destruct Hc1 as (Eb4 & Eqb). rewrite <- Eb4 in R1.
  destruct segs1 as [|s1 segs2] eqn:Es1.
  { left. exists (mkPipe [] e []). split; [|reflexivity]. unfold turn. rewrite R1. cbn [rbind]. destruct (be32 (Z.of_nat (List.length qb))) as [|c rr] eqn:Er; [discriminate|]. rewrite <- Er in *.
    rewrite H4. change (Z.of_nat 4 =? 4) with true. cbn [negb orb]. rewrite Hu. destruct (Z.of_nat (List.length qb) =? 0); reflexivity. }
  pose proof (Forall_inv Hs1) as Hne1. pose proof (Forall_inv_tail Hs1) as Hs2. cbn [List.concat] in *.
  assert (L1 : (List.length s1 <= List.length qb)%nat). { rewrite Eqb, !app_length. lia. }
  assert (R2 : n_read pipe_net (Z.of_nat (List.length qb)) (mkPipe (s1 :: segs2) e []) = Ok (mkPipe segs2 e [], s1, false)).
  { cbn [n_read pipe_net p_in p_end p_out]. rewrite Nat2Z.id, firstn_all2, skipn_all2 by lia. reflexivity. }
  rewrite (turn_read E F h _ _ _ _ _ _ s R1 Hbe R2).
  assert (L0 : (Z.of_nat (List.length qb) =? 0) = false) by (destruct qb; [congruence|reflexivity]). rewrite L0. cbn [orb].
  destruct (Z.eqb_spec (Z.of_nat (List.length s1)) (Z.of_nat (List.length qb))) as [El|El]; cbn [negb].
  2:{ left. eexists. split; reflexivity. }
  assert (E2 : qb = s1 /\ [] = List.concat segs2 ++ r). { apply (prefix_firstn qb [] s1 (List.concat segs2 ++ r)); [rewrite app_nil_r, Eqb at 1; rewrite app_assoc; reflexivity|lia]. }
  destruct E2 as (<- & E2). symmetry in E2. apply app_eq_nil in E2. destruct E2 as (E2 & ->).
  assert (segs2 = []) by (destruct segs2 as [|x y]; [reflexivity|]; pose proof (Forall_inv Hs2); destruct x; [congruence|discriminate]). subst segs2.
  right. split; [|reflexivity]. subst segs1. assert (Es0 : s0 = b4 ++ skipn 4 s0) by (symmetry; apply firstn_skipn). unfold rest_of in Es1. destruct (skipn 4 s0) as [|x y] eqn:Ek.
  - exists [[be32 (Z.of_nat (List.length qb))]; [qb]]. split; [reflexivity|]. split; [|repeat constructor; discriminate]. cbn [map List.concat]. rewrite Es1, Es0, Eb4, !app_nil_r. reflexivity.
  - assert (segs = []) by congruence. subst segs. exists [[be32 (Z.of_nat (List.length qb)); qb]]. split; [reflexivity|]. split; [|repeat constructor; discriminate].
    cbn [map List.concat]. rewrite app_nil_r, Es0, <- Eb4. congruence.
Qed.
(** The same for the whole loop *)
Lemma process_part qb fuel segs r e s w' s' : Z.of_nat (List.length qb) < 2 ^ 32 -> qb <> [] -> Forall (fun x => x <> []) segs -> frame qb = List.concat segs ++ r ->
  process pipe_net E F h fuel (mkPipe segs e []) s = Ok (w', s') ->
  (s' = s /\ p_out w' = []) \/
  exists g x c, FromBinary F qb = Ok (Some g) /\ out g <> [] /\ h g s = Ok (s', x) /\ Binary E x = Ok c /\ p_out w' = frame (match c with Some c => c | None => [] end).
Proof.
  intros Hlen Hqb Hs Hc H. destruct fuel as [|fuel]; [discriminate|]. cbn [process] in H.
  destruct (turn_part qb segs r e s Hlen Hqb Hs Hc) as [(w & Ht & Ho)|(_ & Ht)]; rewrite Ht in H.
  { left. cbn [rbind] in H. assert (w' = w /\ s' = s) as (-> & ->) by (split; congruence). auto. }
  unfold respond in H. destruct (FromBinary F qb) as [[[v [|x l]]|]| |] eqn:Eg; cbn [rbind] in H; try discriminate.
  - left. split; [congruence|]. assert (Ew : w' = mkPipe [] e []) by congruence. rewrite Ew. reflexivity.
  - destruct (h (Node v (x :: l)) s) as [[s1 r1]| |] eqn:Er; cbn [rbind] in H; try discriminate.
    destruct (Binary E r1) as [c| |] eqn:Ec; cbn [rbind p_in p_end p_out] in H; try discriminate.
    right. exists (Node v (x :: l)), r1, c. split; [reflexivity|]. split; [discriminate|].
    destruct fuel as [|fuel]; [discriminate|]. cbn in H. assert (s' = s1 /\ p_out w' = frame (match c with Some c => c | None => [] end)) as (-> & Ho).
    { split; [congruence|]. apply (f_equal (fun z => match z with Ok (w, _) => p_out w | _ => [] end)) in H. cbn in H. rewrite <- H. reflexivity. }
    auto.
  - left. split; [congruence|]. assert (Ew : w' = mkPipe [] e []) by congruence. rewrite Ew. reflexivity.
Qed.
Lemma process_split qb fuel segs e s : Z.of_nat (List.length qb) < 2 ^ 32 -> qb <> [] -> segments (frame qb) segs -> ~ unsplit [be32 (Z.of_nat (List.length qb)); qb] segs -> (1 <= fuel)%nat ->
  exists w, process pipe_net E F h fuel (mkPipe segs e []) s = Ok (w, s) /\ p_out w = [].
Proof.
  intros Hlen Hqb (Hc & Hs) Hu Hf. destruct fuel as [|fuel]; [lia|]. cbn [process].
  destruct (turn_part qb segs [] e s Hlen Hqb Hs ltac:(rewrite app_nil_r; congruence)) as [(w & Ht & Ho)|(Hu' & _)]; [|contradiction].
  rewrite Ht. exists w. auto.
Qed.
End Part.

(** ** Calls over an unreliable network *)
Section Remote.
Context {St : Type} (E : env) (F : nat) (h : func St).
Notation wnet := (world_net E F h).
Hypothesis small : forall g s s' x b, h g s = Ok (s', x) -> Binary E x = Ok (Some b) -> Z.of_nat (List.length b) < 2 ^ 32.

Lemma read_world n t c s sd l : n_read wnet n (mkWorld t c s sd (Some l)) =
  let* (p, b, err) := n_read pipe_net n (mkPipe l TErr []) in Ok (mkWorld t c s sd (Some (p_in p)), b, err).
Proof. cbn. destruct l; reflexivity. Qed.
Lemma read_body_world t c s sd : forall fuel l l2 buf segs, read_body wnet fuel l l2 buf (mkWorld t c s sd (Some segs)) =
  let* (p, r) := read_body pipe_net fuel l l2 buf (mkPipe segs TErr []) in Ok (mkWorld t c s sd (Some (p_in p)), r).
Proof.
  induction fuel as [|fuel IH]; intros; [reflexivity|]. cbn [read_body]. rewrite read_world.
  destruct segs as [|s0 segs]; [reflexivity|]. cbn [n_read pipe_net p_in p_end p_out rbind].
  destruct (firstn (Z.to_nat 10000) s0) as [|a f]; [reflexivity|]. destruct (Z.leb _ _); [reflexivity|]. apply IH.
Qed.

Notation runs := (runs h).
Notation reported := (reported E F).
Lemma runs_app g s l1 : forall s1 l2 s2, runs g s l1 s1 -> runs g s1 l2 s2 -> runs g s (l1 ++ l2) s2.
Proof. intros s1 l2 s2 H. induction H; cbn; [auto|]. intro. econstructor; eauto. Qed.

Variables (q : graph) (qb : bytes).
Hypothesis (Hq : Binary E (Some q) = Ok (Some qb)) (Hlen : Z.of_nat (List.length qb) < 2 ^ 32).

Lemma qb_nonempty : qb <> [].
Proof. intros ->. cbn in Hq. destruct (bins E 1 (out q)); discriminate. Qed.
(** The server at work on a part of the request *)
Lemma settle_part t c s sd w sx : settle E F h (mkWorld t c s sd None) = Ok w -> frame qb = sd ++ sx ->
  todo w = t /\ cur w = c /\ ((hs w = s /\ inbox w = Some (cut (pl_resp c) [])) \/
    exists g x b, FromBinary F qb = Ok (Some g) /\ h g s = Ok (hs w, x) /\ Binary E x = Ok b /\ inbox w = Some (cut (pl_resp c) (frame (match b with Some b => b | None => [] end)))).
Proof.
  intros H Hsd. unfold settle in H. cbn [inbox cur sent hs todo] in H. destruct (cut_prefix (pl_req c) sd) as (r & Hr).
  destruct (process pipe_net E F h F (mkPipe (cut (pl_req c) sd) TErr []) s) as [[p s']| |] eqn:Ep; cbn [rbind] in H; try discriminate.
  assert (Ew : w = mkWorld t c s' sd (Some (cut (pl_resp c) (p_out p)))) by congruence. subst w. cbn [todo cur hs inbox]. split; [reflexivity|]. split; [reflexivity|].
  eapply (process_part E F h qb) in Ep; [|exact Hlen|exact qb_nonempty|apply cut_nonempty|rewrite Hsd, Hr at 1; rewrite <- app_assoc; reflexivity].
  destruct Ep as [(-> & ->)|(g & x & b & Eg & _ & Eh & Eb & ->)]; [auto|]. right. exists g, x, b. auto.
Qed.
Lemma cut_nil l : cut l [] = [].
Proof. induction l as [|n l IH]; [reflexivity|]. cbn [cut]. rewrite firstn_nil, skipn_nil. exact IH. Qed.

(** One attempt *)
Lemma attempt t c s w1 r w2 : callV2 wnet E F (Some q) (mkWorld t c s [] None) = Ok (w1, r) -> settle E F h w1 = Ok w2 ->
  todo w1 = t /\ exists xs, (List.length xs <= 1)%nat /\ (xs = [] \/ exists g, FromBinary F qb = Ok (Some g) /\ runs g s xs (hs w2)) /\ (xs = [] -> hs w2 = s) /\ reported xs r.
Proof.
  intros H Hs2. unfold callV2 in H. rewrite Hq in H. cbn [rbind] in H.
  assert (Part : forall sd sx, frame qb = sd ++ sx -> w1 = mkWorld t c s sd None -> (exists e, r = (None, Some e)) ->
    todo w1 = t /\ exists xs, (List.length xs <= 1)%nat /\ (xs = [] \/ exists g, FromBinary F qb = Ok (Some g) /\ runs g s xs (hs w2)) /\ (xs = [] -> hs w2 = s) /\ reported xs r).
  { intros sd sx Hf -> (e & ->). split; [reflexivity|]. destruct (settle_part _ _ _ _ _ _ Hs2 Hf) as (_ & _ & [(E1 & _)|(g & x & b & Eg & Eh & _)]).
    - exists []. cbn. auto.
    - exists [x]. cbn. split; [lia|]. split; [right; exists g; split; [exact Eg|econstructor; [exact Eh|constructor]]|]. split; [discriminate|exact I]. }
  change (n_write wnet (be32 (Z.of_nat (List.length qb))) (mkWorld t c s [] None)) with (@Ok (world St * Z * bool) (mkWorld t c s (be32 (Z.of_nat (List.length qb))) None, fst (pl_w1 c), snd (pl_w1 c))) in H.
  cbn [rbind] in H. destruct (negb (fst (pl_w1 c) =? 4) || snd (pl_w1 c)).
  { apply (Part (be32 (Z.of_nat (List.length qb))) qb); [reflexivity|congruence|exists ErrWriteHeader; congruence]. }
  change (n_write wnet qb (mkWorld t c s (be32 (Z.of_nat (List.length qb))) None)) with (@Ok (world St * Z * bool) (mkWorld t c s (frame qb) None, fst (pl_w2 c), snd (pl_w2 c))) in H.
  cbn [rbind] in H. destruct (snd (pl_w2 c)).
  { apply (Part (frame qb) []); [rewrite app_nil_r; reflexivity|congruence|exists ErrWriteBody; congruence]. }
  destruct (negb _).
  { apply (Part (frame qb) []); [rewrite app_nil_r; reflexivity|congruence|exists ErrWriteBody; congruence]. }
  clear Part. assert (E0 : forall n, n_read wnet n (mkWorld t c s (frame qb) None) = let* w := settle E F h (mkWorld t c s (frame qb) None) in n_read wnet n w).
  { intro n. cbn [n_read world_net]. destruct (settle E F h (mkWorld t c s (frame qb) None)) as [w| |] eqn:Ew; [|reflexivity|reflexivity]. cbn [rbind].
    assert (Ei : exists l, inbox w = Some l). { unfold settle in Ew. cbn [inbox cur sent hs todo] in Ew. destruct (process _ _ _ _ _ _ _) as [[pp ss]| |]; cbn [rbind] in Ew; try discriminate. assert (E' : w = mkWorld t c ss (frame qb) (Some (cut (pl_resp c) (p_out pp)))) by congruence. rewrite E'. eexists. reflexivity. }
    destruct Ei as (l & Ei). unfold settle at 1. rewrite Ei. cbn [rbind]. rewrite Ei. reflexivity. }
  rewrite E0 in H. clear E0. destruct (settle E F h (mkWorld t c s (frame qb) None)) as [w| |] eqn:Ew; cbn [rbind] in H; try discriminate.
  destruct (settle_part _ _ _ _ _ [] Ew ltac:(rewrite app_nil_r; reflexivity)) as (Et & Ecur & Hcase).
  assert (Hin : exists l, inbox w = Some l) by (destruct Hcase as [(_ & ->)|(? & ? & ? & _ & _ & _ & ->)]; eauto). destruct Hin as (l & Hl).
  destruct w as [t' c' s' sd' ib]. cbn [todo cur hs inbox] in *. subst t' c' ib. rewrite read_world in H.
  assert (Fin : forall ib, w1 = mkWorld t c s' sd' (Some ib) -> todo w1 = t /\ hs w2 = s').
  { intros ib ->. split; [reflexivity|]. cbn in Hs2. assert (E2 : w2 = mkWorld t c s' sd' (Some ib)) by congruence. rewrite E2. reflexivity. }
  destruct Hcase as [(-> & El)|(g & x & b & Eg & Eh & Eb & El)].
  { rewrite cut_nil in El. assert (l = []) by congruence. subst l. cbn [n_read pipe_net p_in rbind] in H. change (Z.of_nat (List.length (@nil byte)) =? 4) with false in H. cbn [negb] in H.
    destruct (Fin []) as (E1 & E2); [congruence|]. split; [exact E1|]. exists []. cbn [List.length]. split; [lia|]. split; [auto|]. split; [auto|]. assert (Er : r = (None, Some ErrHeader)) by congruence. rewrite Er. exact I. }
  assert (Ex : forall ib, w1 = mkWorld t c s' sd' (Some ib) -> reported [x] r -> todo w1 = t /\ exists xs, (List.length xs <= 1)%nat /\ (xs = [] \/ exists g, FromBinary F qb = Ok (Some g) /\ runs g s xs (hs w2)) /\ (xs = [] -> hs w2 = s) /\ reported xs r).
  { intros ib Hw Hr. destruct (Fin ib Hw) as (E1 & E2). split; [exact E1|]. exists [x]. cbn [List.length]. split; [lia|]. rewrite E2. split; [right; exists g; split; [exact Eg|econstructor; [exact Eh|constructor]]|]. split; [discriminate|exact Hr]. }
  set (body := match b with Some b => b | None => [] end) in *.
  assert (Hbody : Z.of_nat (List.length body) < 2 ^ 32). { destruct b as [b|]; [exact (small _ _ _ _ _ Eh Eb)|cbn; lia]. }
  assert (Hl0 : l = cut (pl_resp c) (frame body)) by congruence. clear El.
  pose proof (cut_nonempty (pl_resp c) (frame body)) as Hne. destruct (cut_prefix (pl_resp c) (frame body)) as (z & Hz). rewrite <- Hl0 in Hne, Hz. clear Hl0.
  destruct l as [|s0 l].
  { cbn [n_read pipe_net p_in rbind] in H. change (Z.of_nat (List.length (@nil byte)) =? 4) with false in H. cbn [negb] in H. apply (Ex []); [congruence|]. assert (Er : r = (None, Some ErrHeader)) by congruence. rewrite Er. exact I. }
  cbn [n_read pipe_net p_in p_end p_out rbind] in H. change (Z.to_nat 4) with 4%nat in H. set (b4 := firstn 4 s0) in *. set (l1 := rest_of (skipn 4 s0) l) in *.
  destruct (Z.eqb_spec (Z.of_nat (List.length b4)) 4) as [E4|E4]; cbn [negb] in H.
  2:{ apply (Ex l1); [congruence|]. assert (Er : r = (None, Some ErrHeader)) by congruence. rewrite Er. exact I. }
  assert (Hc1 : be32 (Z.of_nat (List.length body)) = b4 /\ body = List.concat l1 ++ z).
  { apply (prefix_firstn (be32 (Z.of_nat (List.length body))) body b4 (List.concat l1 ++ z)); [|rewrite be32_length; lia].
    unfold l1. rewrite concat_rest. cbn [List.concat] in Hz. unfold frame in Hz. rewrite Hz, !app_assoc. f_equal. f_equal. unfold b4. rewrite firstn_skipn. reflexivity. }
  destruct Hc1 as (Eb4 & Ebody). assert (Hn1 : Forall (fun x => x <> []) l1) by (apply rest_nonempty; exact (Forall_inv_tail Hne)).
  pose proof (be32_ok (Z.of_nat (List.length body)) ltac:(lia)) as Hbe. pose proof (un_be32_ok _ _ Hbe) as (Hu & _ & _).
  rewrite <- Eb4, Hu, read_body_world in H.
  destruct (read_body pipe_net F (Z.of_nat (List.length body)) 0 [] (mkPipe l1 TErr [])) as [[p' b3]| |] eqn:Er; cbn [rbind] in H; try discriminate.
  apply read_body_inv in Er; [|lia|exact Hn1|lia|rewrite Ebody, app_length; lia]. destruct b3 as [b3|e].
  2:{ subst e. apply (Ex (p_in p')); [congruence|]. assert (Ee : r = (None, Some ErrRead)) by congruence. rewrite Ee. exact I. }
  destruct Er as (E3 & Esum). cbn [app] in E3.
  assert (Hb3 : b3 = body). { assert (Hz0 : z = []) by (apply length_zero_iff_nil; pose proof (f_equal (@List.length byte) Ebody) as HH; rewrite app_length in HH; lia). rewrite Hz0, app_nil_r in Ebody. congruence. }
  rewrite Hb3 in H. destruct (FromBinary F body) as [[[v [|k o]]|]| |] eqn:Ef; cbn [rbind] in H; try discriminate.
  - apply (Ex (p_in p')); [congruence|]. assert (Ee : r = (None, Some ErrEmpty)) by congruence. rewrite Ee. exact I.
  - apply (Ex (p_in p')); [congruence|]. assert (Ee : r = (Some (Node v (k :: o)), None)) by congruence. rewrite Ee. cbn [RpcSpec.reported].
    destruct b as [b|]; [|discriminate]. destruct x as [x|]; [|discriminate]. exists [], x, b. cbn [app]. auto.
  - apply (Ex (p_in p')); [congruence|]. assert (Ee : r = (None, Some ErrEmpty)) by congruence. rewrite Ee. exact I.
Qed.

Lemma call_runs g : FromBinary F qb = Ok (Some g) \/ (forall g', FromBinary F qb <> Ok (Some g')) -> forall n w w' cn r w0 w2,
  call_loop wnet E F n false (Some q) w = Ok (w', cn, r) -> settle E F h w = Ok w0 -> settle E F h w' = Ok w2 ->
  exists xs, (List.length xs <= n)%nat /\ runs g (hs w0) xs (hs w2) /\ reported xs r.
Proof.
  intros Hg. induction n as [|n IH]; intros w w' cn r w0 w2 H H0 H2; [discriminate|]. cbn [call_loop] in H.
  assert (Ed : n_dial wnet w = match todo w0 with [] => Ok (w0, false) | p :: l => Ok (mkWorld l p (hs w0) [] None, pl_up p) end) by (cbn [n_dial world_net]; rewrite H0; reflexivity).
  rewrite Ed in H. clear Ed. destruct (todo w0) as [|p l]; cbn [rbind negb] in H.
  { assert (w' = w0 /\ r = (None, Some ErrDial)) as (-> & ->) by (split; congruence). exists []. split; [cbn; lia|]. split; [|exact I].
    assert (Ei : exists l, inbox w0 = Some l).
    { unfold settle in H0. destruct (inbox w) as [i|] eqn:Ei; [assert (w0 = w) by congruence; subst w0; eauto|]. destruct (process _ _ _ _ _ _ _) as [[pp ss]| |]; cbn [rbind] in H0; try discriminate.
      assert (E1 : w0 = mkWorld (todo w) (cur w) ss (sent w) (Some (cut (pl_resp (cur w)) (p_out pp)))) by congruence. rewrite E1. cbn. eauto. }
    destruct Ei as (i & Ei). unfold settle in H2. rewrite Ei in H2. assert (w2 = w0) by congruence. subst w2. constructor. }
  destruct (pl_up p) eqn:Eup; cbn [negb] in H.
  2:{ assert (w' = mkWorld l p (hs w0) [] None /\ r = (None, Some ErrDial)) as (-> & ->) by (split; congruence). exists []. split; [cbn; lia|]. split; [|exact I].
      unfold settle in H2. cbn [inbox cur sent hs todo] in H2. rewrite cut_nil in H2. destruct F as [|F']; [discriminate|]. cbn in H2.
      assert (E2 : hs w2 = hs w0) by (apply (f_equal (fun z => match z with Ok w => hs w | _ => hs w0 end)) in H2; cbn in H2; congruence). rewrite E2. constructor. }
  destruct (callV2 wnet E F (Some q) (mkWorld l p (hs w0) [] None)) as [[w1 r1]| |] eqn:Ec; cbn [rbind] in H; try discriminate.
  assert (Hr1 : forall w3, settle E F h w1 = Ok w3 -> exists xs, (List.length xs <= 1)%nat /\ runs g (hs w0) xs (hs w3) /\ reported xs r1).
  { intros w3 H3. destruct (attempt _ _ _ _ _ _ Ec H3) as (_ & xs & L1 & Hx & Hn & Hrep). exists xs. split; [exact L1|]. split; [|exact Hrep].
    destruct Hx as [->|(g' & Eg & Hx)]; [rewrite (Hn eq_refl); constructor|]. destruct Hg as [Hg|Hg]; [|destruct (Hg _ Eg)]. assert (g' = g) by congruence. subst g'. exact Hx. }
  destruct r1 as [r1 [e|]].
  2:{ assert (w1 = w' /\ r = (r1, None)) as (-> & ->) by (split; congruence). destruct (Hr1 _ H2) as (xs & L1 & Hx). exists xs. split; [lia|exact Hx]. }
  destruct n as [|n].
  { assert (w1 = w' /\ r = (r1, Some e)) as (-> & ->) by (split; congruence). destruct (Hr1 _ H2) as (xs & L1 & Hx). exists xs. split; [lia|exact Hx]. }
  assert (Es : exists w3, settle E F h w1 = Ok w3). { cbn [call_loop rbind n_dial world_net] in H. destruct (settle E F h w1) as [w3| |]; [eauto|discriminate|discriminate]. }
  destruct Es as (w3 & Es). destruct (Hr1 _ Es) as (xs1 & L1 & Hx1 & Hrep1). destruct (IH _ _ _ _ _ _ H Es H2) as (xs & L2 & Hx2 & Hrep2).
  exists (xs1 ++ xs). split; [rewrite app_length; lia|]. split; [eapply runs_app; eauto|].
  destruct r as [[rg|] [e'|]]; try exact Hrep2. destruct Hrep2 as (xs0 & x & b & -> & Hb). exists (xs1 ++ xs0), x, b. rewrite app_assoc. auto.
Qed.
Lemma remote_runs g plans s s' r : FromBinary F qb = Ok (Some g) -> remote E F h plans q s = Ok (s', r) ->
  exists xs, (List.length xs <= 3)%nat /\ runs g s xs s' /\ reported xs r.
Proof.
  intros Hg H. unfold remote, Call in H. set (w := mkWorld plans _ s [] None) in H.
  destruct (call_loop wnet E F 3 false (Some q) w) as [[[w1 cn] r1]| |] eqn:Ec; cbn [rbind] in H; try discriminate.
  destruct (settle E F h w1) as [w2| |] eqn:Es; cbn [rbind] in H; try discriminate. assert (s' = hs w2 /\ r = r1) as (-> & ->) by (split; congruence).
  destruct F as [|F'] eqn:EF. { cbn in Hg. destruct qb as [|? ?]; discriminate || (cbn in Hg; destruct (header _) as [[|] ?]; discriminate). }
  rewrite <- EF in *. assert (E0 : exists w0, settle E F h w = Ok w0 /\ hs w0 = s) by (rewrite EF; eexists; split; reflexivity).
  destruct E0 as (w0 & E0 & <-). eapply call_runs; eauto.
Qed.
End Remote.

(** ** Protocol 1 *)
Lemma after_all : forall fuel l1 l2, Forall (fun s : bytes => s <> []) l1 -> (List.length (List.concat l1) <= fuel)%nat -> after fuel (List.length (List.concat l1)) (l1 ++ l2) = l2.
Proof.
  induction fuel as [|fuel IH]; intros l1 l2 Hs Hf.
  { destruct l1 as [|s l1]; [reflexivity|]. pose proof (Forall_inv Hs). destruct s; [congruence|]. cbn in Hf. lia. }
  destruct l1 as [|s l1]; [reflexivity|]. pose proof (Forall_inv Hs) as Hne. pose proof (Forall_inv_tail Hs) as Hs'. cbn [app List.concat] in *.
  destruct (List.length (s ++ List.concat l1)) as [|n] eqn:En; [destruct s; [congruence|discriminate]|]. cbn [after]. rewrite <- En.
  assert (Eb : exists b, bufio = S b) by (exists (Nat.pred bufio); unfold bufio; lia). destruct Eb as (bb & Eb).
  assert (Er : rest_of (skipn bufio s) (l1 ++ l2) = rest_of (skipn bufio s) l1 ++ l2) by (destruct (skipn bufio s); reflexivity). rewrite Er.
  replace (List.length (s ++ List.concat l1) - Nat.min bufio (List.length s))%nat with (List.length (List.concat (rest_of (skipn bufio s) l1))).
  - apply IH; [apply rest_nonempty, Hs'|]. rewrite concat_rest, !app_length, skipn_length. rewrite app_length in En. destruct s; [congruence|]. cbn [List.length] in *. lia.
  - rewrite concat_rest, !app_length, skipn_length. lia.
Qed.
Lemma receive_object E F g f b l1 l2 e o : shows E (out g) f -> representable f -> Binary E (Some g) = Ok (Some b) -> (List.length b <= F)%nat -> segments b l1 ->
  receive F (mkPipe (l1 ++ l2) e o) = Ok (mkPipe l2 e o, Some (groot f)).
Proof.
  intros Hs Hr Hb Hf (Hc & Hn). unfold receive. cbn [p_in p_end p_out]. rewrite concat_app, Hc, (parse_Binary E g f b) by assumption. cbn [rbind rest].
  rewrite app_length. replace (List.length b + List.length (List.concat l2) - List.length (List.concat l2))%nat with (List.length (List.concat l1)) by (rewrite Hc; lia).
  rewrite after_all by (auto; lia). reflexivity.
Qed.
Lemma receive_end F e o : receive F (mkPipe [] e o) = Ok (mkPipe [] e o, None).
Proof. unfold receive. cbn [p_in List.concat p_end]. destruct e; reflexivity. Qed.

(** ** Attempts in which the request arrives unharmed *)
Section Good.
Context {St : Type} (E : env) (F : nat) (h : func St).
Notation wnet := (world_net E F h).
Variables (q : graph) (f : list tree) (qb : bytes).
Hypothesis (Hq : carries E q f qb) (HF : (List.length qb < F)%nat) (HF2 : (2 <= F)%nat).
Definition good_plan (resp : list nat) : plan := mkPlan true (4, false) (Z.of_nat (List.length qb), false) [4%nat; List.length qb] resp.

Lemma cut_message b : b <> [] -> cut [4%nat; List.length b] (frame b) = [be32 (Z.of_nat (List.length b)); b].
Proof.
  intro Hb. unfold frame. cbn [cut]. change (firstn 4 (be32 (Z.of_nat (List.length b)) ++ b)) with (be32 (Z.of_nat (List.length b))).
  change (skipn 4 (be32 (Z.of_nat (List.length b)) ++ b)) with b. rewrite firstn_all. unfold rest_of at 1. destruct b; [congruence|reflexivity].
Qed.
Lemma settle_good t resp s s1 x b : h (groot f) s = Ok (s1, x) -> Binary E x = Ok b ->
  settle E F h (mkWorld t (good_plan resp) s (frame qb) None) = Ok (mkWorld t (good_plan resp) s1 (frame qb) (Some (cut resp (frame (match b with Some b => b | None => [] end))))).
Proof.
  intros Hh Hb. destruct Hq as (Hs & Hr & Hf & Hqb & Hl). unfold settle. cbn [inbox cur sent hs todo good_plan pl_req pl_resp].
  assert (Hne : qb <> []) by (intros ->; cbn in Hqb; destruct (bins E 1 (out q)); discriminate).
  rewrite cut_message by exact Hne.
  rewrite (process_unsplit E F h [(be32 (Z.of_nat (List.length qb)), qb)] s s1 (frame (match b with Some b => b | None => [] end) ++ [])).
  - cbn [rbind p_out app]. rewrite app_nil_r. reflexivity.
  - cbn [map snd]. econstructor; [|  |exact Hh|exact Hb|constructor].
    + destruct (FromBinary_Binary E q f Hs Hr) as (b' & E' & Hfb). rewrite Hqb in E'. assert (b' = qb) by congruence. subst b'. apply Hfb. lia.
    + destruct f; [congruence|discriminate].
  - constructor; [|constructor]. apply be32_ok. cbn [snd]. lia.
  - exists [[be32 (Z.of_nat (List.length qb))]; [qb]]. cbn [List.concat app units map]. rewrite !app_nil_r. split; [reflexivity|]. split; [reflexivity|]. repeat constructor; discriminate.
  - cbn. lia.
Qed.
Lemma callV2_good t resp s s1 x b : h (groot f) s = Ok (s1, x) -> Binary E x = Ok b ->
  callV2 wnet E F (Some q) (mkWorld t (good_plan resp) s [] None) =
  let* (w, b4, _) := n_read wnet 4 (mkWorld t (good_plan resp) s1 (frame qb) (Some (cut resp (frame (match b with Some b => b | None => [] end))))) in
  if negb (Z.of_nat (List.length b4) =? 4) then Ok (w, (None, Some ErrHeader)) else
  let* (w, r) := read_body wnet F (un_be32 b4) 0 [] w in
  match r with
  | inr e => Ok (w, (None, e))
  | inl buf3 => let* g := FromBinary F buf3 in match g with Some (Node v (k :: o)) => Ok (w, (Some (Node v (k :: o)), None)) | _ => Ok (w, (None, Some ErrEmpty)) end
  end.
Proof.
  intros Hh Hb. pose proof Hq as (Hs & Hr & Hf & Hqb & Hl). unfold callV2. rewrite Hqb. cbn [rbind].
  change (n_write wnet (be32 (Z.of_nat (List.length qb))) (mkWorld t (good_plan resp) s [] None)) with (@Ok (world St * Z * bool) (mkWorld t (good_plan resp) s (be32 (Z.of_nat (List.length qb))) None, 4, false)).
  cbn [rbind]. change (negb (4 =? 4) || false) with false. cbn [orb].
  change (n_write wnet qb (mkWorld t (good_plan resp) s (be32 (Z.of_nat (List.length qb))) None)) with (@Ok (world St * Z * bool) (mkWorld t (good_plan resp) s (frame qb) None, Z.of_nat (List.length qb), false)).
  cbn [rbind]. rewrite Z.eqb_refl. cbn [negb].
  assert (E0 : n_read wnet 4 (mkWorld t (good_plan resp) s (frame qb) None) = n_read wnet 4 (mkWorld t (good_plan resp) s1 (frame qb) (Some (cut resp (frame (match b with Some b => b | None => [] end)))))).
  { cbn [n_read world_net]. rewrite (settle_good t resp s s1 x b Hh Hb). reflexivity. }
  rewrite E0. reflexivity.
Qed.
(** The response is lost. *)
Lemma attempt_lost t s s1 x b : h (groot f) s = Ok (s1, x) -> Binary E x = Ok b ->
  callV2 wnet E F (Some q) (mkWorld t (good_plan []) s [] None) = Ok (mkWorld t (good_plan []) s1 (frame qb) (Some []), (None, Some ErrHeader)).
Proof. intros Hh Hb. rewrite (callV2_good t [] s s1 x b Hh Hb). reflexivity. Qed.
(** The response arrives. *)
Lemma attempt_good t s s1 x f' b : h (groot f) s = Ok (s1, Some x) -> shows E (out x) f' -> representable f' -> Binary E (Some x) = Ok (Some b) -> Z.of_nat (List.length b) < 2 ^ 32 ->
  (List.length b <= F)%nat ->
  callV2 wnet E F (Some q) (mkWorld t (good_plan [4%nat; List.length b]) s [] None) =
  Ok (mkWorld t (good_plan [4%nat; List.length b]) s1 (frame qb) (Some []), match f' with [] => (None, Some ErrEmpty) | _ => (Some (groot f'), None) end).
Proof.
  intros Hh Hs' Hr' Hb Hl Hf. rewrite (callV2_good t _ s s1 _ _ Hh Hb).
  assert (Hne : b <> []) by (intros ->; cbn in Hb; destruct (bins E 1 (out x)); discriminate).
  rewrite cut_message by exact Hne. rewrite read_world.
  change (n_read pipe_net 4 (mkPipe [be32 (Z.of_nat (List.length b)); b] TErr [])) with (@Ok (pipe * bytes * bool) (mkPipe [b] TErr [], be32 (Z.of_nat (List.length b)), false)).
  cbn [rbind]. rewrite be32_length. change (Z.of_nat 4 =? 4) with true. cbn [negb]. destruct (un_be32_ok _ _ (be32_ok (Z.of_nat (List.length b)) ltac:(lia))) as (Hu & _ & _). rewrite Hu.
  cbn [p_in]. rewrite read_body_world, read_body_all; cbn [List.concat]; rewrite ?app_nil_r; try lia; [|constructor; [exact Hne|constructor]|discriminate].
  cbn [rbind app p_in]. destruct (FromBinary_Binary E x f' Hs' Hr') as (b' & E' & Hfb). assert (b' = b) by congruence. subst b'. rewrite Hfb by exact Hf. cbn [rbind].
  destruct f' as [|[c k] f']; reflexivity.
Qed.
Lemma call_next n w p l w0 w1 e : settle E F h w = Ok w0 -> todo w0 = p :: l -> pl_up p = true ->
  callV2 wnet E F (Some q) (mkWorld l p (hs w0) [] None) = Ok (w1, (None, Some e)) ->
  call_loop wnet E F (S (S n)) false (Some q) w = call_loop wnet E F (S n) false (Some q) w1.
Proof.
  intros H0 Ht Hp Hc. cbn [call_loop]. assert (Ed : n_dial wnet w = Ok (mkWorld l p (hs w0) [] None, pl_up p)) by (cbn [n_dial world_net]; rewrite H0; cbn [rbind]; rewrite Ht; reflexivity).
  rewrite Ed. cbn [rbind]. rewrite Hp. cbn [negb]. rewrite Hc. reflexivity.
Qed.
Lemma call_last n w p l w0 w1 r : settle E F h w = Ok w0 -> todo w0 = p :: l -> pl_up p = true ->
  callV2 wnet E F (Some q) (mkWorld l p (hs w0) [] None) = Ok (w1, r) -> n = O \/ snd r = None ->
  call_loop wnet E F (S n) false (Some q) w = Ok (w1, true, r).
Proof.
  intros H0 Ht Hp Hc Hn. cbn [call_loop]. assert (Ed : n_dial wnet w = Ok (mkWorld l p (hs w0) [] None, pl_up p)) by (cbn [n_dial world_net]; rewrite H0; cbn [rbind]; rewrite Ht; reflexivity).
  rewrite Ed. cbn [rbind]. rewrite Hp. cbn [negb]. rewrite Hc. cbn [rbind]. destruct r as [r [e|]]; [|reflexivity]. destruct Hn as [->|Hn]; [reflexivity|discriminate].
Qed.
Definition start (plans : list plan) (s : St) : world St := mkWorld plans (mkPlan true (4, false) (0, false) [] []) s [] None.
Lemma settle_start plans s : settle E F h (start plans s) = Ok (mkWorld plans (mkPlan true (4, false) (0, false) [] []) s [] (Some [])).
Proof. destruct F as [|F'] eqn:EF; [lia|]. reflexivity. Qed.

Lemma remote_good s s1 x f' b plans : h (groot f) s = Ok (s1, Some x) -> carries E x f' b -> (List.length b <= F)%nat ->
  remote E F h (good_plan [4%nat; List.length b] :: plans) q s = Ok (s1, (Some (groot f'), None)).
Proof.
  intros Hh (Hs' & Hr' & Hf' & Hb & Hl) Hf. unfold remote, Call. fold (start (good_plan [4%nat; List.length b] :: plans) s).
  erewrite (call_last 2); [|apply settle_start|reflexivity|reflexivity|apply (attempt_good plans s s1 x f' b Hh Hs' Hr' Hb Hl Hf)|right; destruct f'; [congruence|reflexivity]].
  cbn [rbind settle inbox hs]. destruct f'; [congruence|reflexivity].
Qed.
Lemma remote_thrice s s1 s2 s3 x1 x2 x3 b1 b2 b3 f3 : h (groot f) s = Ok (s1, x1) -> Binary E x1 = Ok b1 -> h (groot f) s1 = Ok (s2, x2) -> Binary E x2 = Ok b2 ->
  h (groot f) s2 = Ok (s3, Some x3) -> carries E x3 f3 b3 -> (List.length b3 <= F)%nat ->
  remote E F h [good_plan []; good_plan []; good_plan [4%nat; List.length b3]] q s = Ok (s3, (Some (groot f3), None)).
Proof.
  intros H1 B1 H2 B2 H3 (Hs' & Hr' & Hf' & B3 & Hl) Hf. unfold remote, Call. fold (start [good_plan []; good_plan []; good_plan [4%nat; List.length b3]] s).
  erewrite (call_next 1); [|apply settle_start|reflexivity|reflexivity|apply (attempt_lost _ s s1 x1 b1 H1 B1)].
  erewrite (call_next 0); [|reflexivity|reflexivity|reflexivity|apply (attempt_lost _ s1 s2 x2 b2 H2 B2)].
  erewrite (call_last 0); [|reflexivity|reflexivity|reflexivity|apply (attempt_good [] s2 s3 x3 f3 b3 H3 Hs' Hr' B3 Hl Hf)|auto].
  cbn [rbind settle inbox hs]. destruct f3; [congruence|reflexivity].
Qed.
(** No failure at all, but the responses are empty graphs *)
Lemma remote_empty s s1 s2 s3 x1 x2 x3 : h (groot f) s = Ok (s1, Some x1) -> out x1 = [] -> h (groot f) s1 = Ok (s2, Some x2) -> out x2 = [] ->
  h (groot f) s2 = Ok (s3, Some x3) -> out x3 = [] -> (4 <= F)%nat ->
  remote E F h [good_plan [4%nat; 4%nat]; good_plan [4%nat; 4%nat]; good_plan [4%nat; 4%nat]] q s = Ok (s3, (None, Some ErrEmpty)).
Proof.
  intros H1 B1 H2 B2 H3 B3 Hf. assert (Hrep : representable []) by (exists O; split; [constructor|cbn; lia]).
  assert (Hb : forall x : graph, out x = [] -> Binary E (Some x) = Ok (Some (header_bytes ++ [x00]))) by (intros x Hx; unfold Binary; rewrite Hx; reflexivity).
  assert (Hs : forall x : graph, out x = [] -> shows E (out x) []) by (intros x ->; constructor).
  unfold remote, Call. fold (start [good_plan [4%nat; 4%nat]; good_plan [4%nat; 4%nat]; good_plan [4%nat; 4%nat]] s).
  erewrite (call_next 1); [|apply settle_start|reflexivity|reflexivity|apply (attempt_good _ s s1 x1 [] _ H1 (Hs _ B1) Hrep (Hb _ B1)); [cbn; lia|exact Hf]].
  erewrite (call_next 0); [|reflexivity|reflexivity|reflexivity|apply (attempt_good _ s1 s2 x2 [] _ H2 (Hs _ B2) Hrep (Hb _ B2)); [cbn; lia|exact Hf]].
  erewrite (call_last 0); [|reflexivity|reflexivity|reflexivity|apply (attempt_good _ s2 s3 x3 [] _ H3 (Hs _ B3) Hrep (Hb _ B3)); [cbn; lia|exact Hf]|auto].
  reflexivity.
Qed.
End Good.

(** ** Several connections *)
Section Many.
Context {X St : Type} (nxt : X -> res (act X)) (h : func St).
(** k steps of one goroutine on its own *)
Fixpoint solo (k : nat) (x : X) (s : St) : res (X * St) :=
  match k with
  | O => Ok (x, s)
  | S k =>
      let* a := nxt x in
      match a with
      | Stop => solo k x s
      | Move x => solo k x s
      | Ask g f => let* (s, r) := h g s in solo k (f r) s
      end
  end.
Lemma solo_add j : forall k x s, solo (j + k) x s = let* (x, s) := solo j x s in solo k x s.
Proof.
  induction j as [|j IH]; intros k x s; [reflexivity|]. cbn [Nat.add solo]. destruct (nxt x) as [[y|g f|]| |]; cbn [rbind]; try reflexivity; try apply IH.
  destruct (h g s) as [[s1 r]| |]; cbn [rbind]; [apply IH|reflexivity|reflexivity].
Qed.
Lemma solo_stop k : forall x s, nxt x = Ok Stop -> solo k x s = Ok (x, s).
Proof. induction k as [|k IH]; intros x s H; [reflexivity|]. cbn [solo]. rewrite H. cbn [rbind]. apply IH, H. Qed.
Lemma serve_alone (stateless : forall g s s' x, h g s = Ok (s', x) -> s' = s) sched : forall cs s cs' s', serve nxt h sched cs s = Ok (cs', s') ->
  s' = s /\ forall i, solo (count_occ Nat.eq_dec sched i) (cs i) s = Ok (cs' i, s).
Proof.
  induction sched as [|j sched IH]; intros cs s cs' s' H.
  - cbn in H. assert (cs' = cs /\ s' = s) as (-> & ->) by (split; congruence). auto.
  - cbn [serve] in H. destruct (nxt (cs j)) as [[y|g f|]| |] eqn:Ej; cbn [rbind] in H; try discriminate.
    + destruct (IH _ _ _ _ H) as (-> & Hi). split; [reflexivity|]. intro i. specialize (Hi i). unfold set_conn in Hi. cbn [count_occ].
      destruct (Nat.eq_dec j i) as [->|Hne]; [|destruct (Nat.eqb_spec i j); [congruence|exact Hi]].
      rewrite Nat.eqb_refl in Hi. cbn [solo]. rewrite Ej. exact Hi.
    + destruct (h g s) as [[s1 r]| |] eqn:Eh; cbn [rbind] in H; try discriminate. pose proof (stateless _ _ _ _ Eh) as ->.
      destruct (IH _ _ _ _ H) as (-> & Hi). split; [reflexivity|]. intro i. specialize (Hi i). unfold set_conn in Hi. cbn [count_occ].
      destruct (Nat.eq_dec j i) as [->|Hne]; [|destruct (Nat.eqb_spec i j); [congruence|exact Hi]].
      rewrite Nat.eqb_refl in Hi. cbn [solo]. rewrite Ej. cbn [rbind]. rewrite Eh. exact Hi.
    + destruct (IH _ _ _ _ H) as (-> & Hi). split; [reflexivity|]. intro i. specialize (Hi i). cbn [count_occ].
      destruct (Nat.eq_dec j i) as [->|Hne]; [|exact Hi]. cbn [solo]. rewrite Ej. exact Hi.
Qed.
End Many.
(** Every goroutine does what it does alone with the answers it got. *)
Lemma serve_history {X St} (nxt : X -> res (act X)) (h : func St) sched : forall cs s cs' s', serve nxt h sched cs s = Ok (cs', s') ->
  exists l, history h s l s' /\ forall i log,
    solo nxt scripted (count_occ Nat.eq_dec sched i) (cs i) (replies i l, log) = Ok (cs' i, ([], log ++ asked i l)).
Proof.
  induction sched as [|j sched IH]; intros cs s cs' s' H.
  - cbn in H. assert (cs' = cs /\ s' = s) as (-> & ->) by (split; congruence). exists []. split; [constructor|]. intros. cbn. rewrite app_nil_r. reflexivity.
  - cbn [serve] in H. destruct (nxt (cs j)) as [[y|g f|]| |] eqn:Ej; cbn [rbind] in H; try discriminate.
    + destruct (IH _ _ _ _ H) as (l & Hl & Hi). exists l. split; [exact Hl|]. intros i log. specialize (Hi i log). unfold set_conn in Hi. cbn [count_occ].
      destruct (Nat.eq_dec j i) as [->|Hne]; [|destruct (Nat.eqb_spec i j); [congruence|exact Hi]].
      rewrite Nat.eqb_refl in Hi. cbn [solo]. rewrite Ej. exact Hi.
    + destruct (h g s) as [[s1 r]| |] eqn:Eh; cbn [rbind] in H; try discriminate.
      destruct (IH _ _ _ _ H) as (l & Hl & Hi). exists ((j, g, r) :: l). split; [econstructor; eassumption|]. intros i log. unfold set_conn in Hi. cbn [count_occ].
      unfold replies, asked. cbn [filter fst snd].
      destruct (Nat.eq_dec j i) as [->|Hne].
      * specialize (Hi i (log ++ [g])). rewrite Nat.eqb_refl in Hi |- *. cbn [map fst snd solo]. rewrite Ej. cbn [rbind scripted fst snd].
        rewrite <- app_assoc in Hi. exact Hi.
      * specialize (Hi i log). destruct (Nat.eqb_spec i j); [congruence|]. destruct (Nat.eqb_spec j i); [congruence|]. exact Hi.
    + destruct (IH _ _ _ _ H) as (l & Hl & Hi). exists l. split; [exact Hl|]. intros i log. specialize (Hi i log). cbn [count_occ].
      destruct (Nat.eq_dec j i) as [->|Hne]; [|exact Hi]. cbn [solo]. rewrite Ej. exact Hi.
Qed.
(** Five steps are a turn. *)
Section Turn.
Context {W St : Type} (N : net W) (E : env) (F : nat) (h : func St).
Lemma solo_gone k w s : solo (next N E F) h k (Gone, w) s = Ok ((Gone, w), s).
Proof. apply solo_stop. reflexivity. Qed.
Lemma solo_turn w s : solo (next N E F) h 5 (AtLen, w) s = let* (w, s, more) := turn N E F h w s in Ok ((if more then AtLen else Gone, w), s).
Proof.
  unfold turn. cbn [solo next rbind]. destruct (n_read N 4 w) as [[[w1 b4] er]| |]; cbn [solo next rbind]; [|reflexivity|reflexivity].
  destruct b4 as [|c b4]; [reflexivity|]. destruct (_ || _); [reflexivity|]. destruct (_ =? 0); [reflexivity|]. cbn [solo next rbind].
  destruct (n_read N _ w1) as [[[w2 b] er2]| |]; cbn [solo next rbind]; [|reflexivity|reflexivity].
  destruct er2; [reflexivity|]. destruct (negb _); [reflexivity|]. destruct (FromBinary F b) as [[[v [|k o]]|]| |]; cbn [solo next rbind]; try reflexivity.
  destruct (h (Node v (k :: o)) s) as [[s1 x]| |]; cbn [solo next rbind]; [|reflexivity|reflexivity]. destruct (Binary E x) as [y| |]; cbn [solo next rbind]; [|reflexivity|reflexivity].
  destruct (n_write N _ w2) as [[[w3 i] er3]| |]; cbn [solo next rbind]; [|reflexivity|reflexivity]. destruct (_ || _); [reflexivity|]. cbn [solo next rbind].
  destruct (n_write N _ w3) as [[[w4 i4] er4]| |]; cbn [solo next rbind]; [|reflexivity|reflexivity]. destruct er4; [reflexivity|]. destruct (negb _); reflexivity.
Qed.
Lemma solo_process : forall fuel w s w' s' k, process N E F h fuel w s = Ok (w', s') -> (5 * fuel <= k)%nat -> solo (next N E F) h k (AtLen, w) s = Ok ((Gone, w'), s').
Proof.
  induction fuel as [|fuel IH]; intros w s w' s' k H Hk; [discriminate|]. replace k with (5 + (k - 5))%nat by lia. rewrite solo_add, solo_turn. cbn [process] in H.
  destruct (turn N E F h w s) as [[[w1 s1] more]| |]; cbn [rbind] in *; try discriminate. destruct more; [eapply IH; eauto; lia|].
  assert (w1 = w' /\ s1 = s') as (-> & ->) by (split; congruence). apply solo_gone.
Qed.
Lemma process_more : forall a b w s r, process N E F h a w s = Ok r -> (a <= b)%nat -> process N E F h b w s = Ok r.
Proof.
  induction a as [|a IH]; intros b w s r H Hb; [discriminate|]. destruct b as [|b]; [lia|]. cbn [process] in *.
  destruct (turn N E F h w s) as [[[w2 s2] m]| |]; cbn [rbind] in *; try discriminate. destruct m; [apply IH; [exact H|lia]|exact H].
Qed.
Lemma process_solo : forall k w s w' s', solo (next N E F) h k (AtLen, w) s = Ok ((Gone, w'), s') -> process N E F h (S k) w s = Ok (w', s').
Proof.
  intro k. induction k as [k IH] using lt_wf_ind. intros w s w' s' H. cbn [process].
  destruct (le_lt_dec 5 k) as [Hk|Hk].
  - replace k with (5 + (k - 5))%nat in H by lia. rewrite solo_add, solo_turn in H. destruct (turn N E F h w s) as [[[w1 s1] more]| |]; cbn [rbind] in *; try discriminate.
    destruct more.
    + apply IH in H; [|lia]. eapply process_more; [exact H|lia].
    + rewrite solo_gone in H. congruence.
  - assert (H5 : solo (next N E F) h 5 (AtLen, w) s = Ok ((Gone, w'), s')).
    { replace 5%nat with (k + (5 - k))%nat by lia. rewrite solo_add, H. cbn [rbind]. apply solo_gone. }
    rewrite solo_turn in H5. destruct (turn N E F h w s) as [[[w1 s1] more]| |]; cbn [rbind] in *; try discriminate. destruct more; [discriminate|]. congruence.
Qed.
End Turn.
Section Turn1.
Context {St : Type} (E : env) (F : nat) (h : func St).
(** One turn of the loop of process1 *)
Definition turn1 (w : pipe) (s : St) : res (pipe * St * bool) :=
  let* (w, g) := receive F w in
  match g with
  | None => Ok (w, s, false)
  | Some g =>
      let* (s, r) := h g s in
      let* b := Binary E r in
      let buf := match b with Some b => b | None => [] end in
      let* (w, i, err) := n_write pipe_net buf w in
      Ok (w, s, negb err)
  end.
Lemma process1_turn fuel w s : process1 E F h (S fuel) w s = let* (w, s, more) := turn1 w s in if more then process1 E F h fuel w s else Ok (w, s).
Proof.
  cbn [process1]. unfold turn1. destruct (receive F w) as [[w1 [g|]]| |]; cbn [rbind]; try reflexivity.
  destruct (h g s) as [[s1 x]| |]; cbn [rbind]; try reflexivity. destruct (Binary E x) as [y| |]; cbn [rbind]; try reflexivity.
Qed.
Lemma solo1_gone k w s : solo (next1 E F) h k (Gone, w) s = Ok ((Gone, w), s).
Proof. apply solo_stop. reflexivity. Qed.
Lemma solo1_turn w s : solo (next1 E F) h 3 (AtLen, w) s = let* (w, s, more) := turn1 w s in Ok ((if more then AtLen else Gone, w), s).
Proof.
  unfold turn1. cbn [solo next1 rbind]. destruct (receive F w) as [[w1 [g|]]| |]; cbn [solo next1 rbind]; try reflexivity.
  destruct (h g s) as [[s1 x]| |]; cbn [solo next1 rbind]; try reflexivity. destruct (Binary E x) as [y| |]; cbn [solo next1 rbind]; try reflexivity.
Qed.
Lemma solo1_process : forall fuel w s w' s' k, process1 E F h fuel w s = Ok (w', s') -> (3 * fuel <= k)%nat -> solo (next1 E F) h k (AtLen, w) s = Ok ((Gone, w'), s').
Proof.
  induction fuel as [|fuel IH]; intros w s w' s' k H Hk; [discriminate|]. replace k with (3 + (k - 3))%nat by lia. rewrite solo_add, solo1_turn. rewrite process1_turn in H.
  destruct (turn1 w s) as [[[w1 s1] more]| |]; cbn [rbind] in *; try discriminate. destruct more; [eapply IH; eauto; lia|].
  assert (w1 = w' /\ s1 = s') as (-> & ->) by (split; congruence). apply solo1_gone.
Qed.
Lemma process1_more : forall a b w s r, process1 E F h a w s = Ok r -> (a <= b)%nat -> process1 E F h b w s = Ok r.
Proof.
  induction a as [|a IH]; intros b w s r H Hb; [discriminate|]. destruct b as [|b]; [lia|]. rewrite process1_turn in *.
  destruct (turn1 w s) as [[[w2 s2] m]| |]; cbn [rbind] in *; try discriminate. destruct m; [apply IH; [exact H|lia]|exact H].
Qed.
Lemma process1_solo : forall k w s w' s', solo (next1 E F) h k (AtLen, w) s = Ok ((Gone, w'), s') -> process1 E F h (S k) w s = Ok (w', s').
Proof.
  intro k. induction k as [k IH] using lt_wf_ind. intros w s w' s' H. rewrite process1_turn.
  destruct (le_lt_dec 3 k) as [Hk|Hk].
  - replace k with (3 + (k - 3))%nat in H by lia. rewrite solo_add, solo1_turn in H. destruct (turn1 w s) as [[[w1 s1] more]| |]; cbn [rbind] in *; try discriminate.
    destruct more.
    + apply IH in H; [|lia]. eapply process1_more; [exact H|lia].
    + rewrite solo1_gone in H. congruence.
  - assert (H5 : solo (next1 E F) h 3 (AtLen, w) s = Ok ((Gone, w'), s')).
    { replace 3%nat with (k + (3 - k))%nat by lia. rewrite solo_add, H. cbn [rbind]. apply solo1_gone. }
    rewrite solo1_turn in H5. destruct (turn1 w s) as [[[w1 s1] more]| |]; cbn [rbind] in *; try discriminate. destruct more; [discriminate|]. congruence.
Qed.
End Turn1.
