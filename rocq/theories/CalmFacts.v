(** No bytes make the readers of binary OGDL and of remote functions panic. *)
From Verif Require Import Base Value Event EventFacts Binary BinarySpec BinaryFacts Rpc RpcSpec.

(** ** Binary OGDL *)
Lemma bin_loop_calm fuel : forall s n buf, bin_loop fuel s n buf <> Panic.
Proof.
  induction fuel as [|f IH]; intros s n buf; cbn [bin_loop]; [discriminate|].
  destruct (n =? 0); [destruct (varInt s) as [m s1]; destruct (m <? 0); [discriminate|apply IH]|].
  destruct (read s) as [c s1]. destruct (c <? 0); [discriminate|apply IH].
Qed.
Lemma text_loop_calm fuel : forall s buf, text_loop fuel s buf <> Panic.
Proof.
  induction fuel as [|f IH]; intros s buf; cbn [text_loop]; [discriminate|]. destruct (read s) as [c s1]. destruct (c =? 0); [discriminate|apply IH].
Qed.
Lemma line_calm fuel s : line fuel true s <> Panic /\ forall lv ib b s', line fuel true s = Ok (lv, ib, b, s') -> 0 <= lv.
Proof.
  unfold line. destruct (varInt s) as [lv s1]. destruct (Z.ltb_spec lv 1) as [Hl|Hl]; [split; [discriminate|intros; assert (lv0 = 0) by congruence; lia]|].
  destruct (read s1) as [c s2]. destruct (c =? 1).
  - pose proof (bin_loop_calm fuel s2 0 []) as Hc. destruct (bin_loop fuel s2 0 []) as [[b s3]| |]; cbn [rbind]; [|congruence|split; [discriminate|intros; discriminate]].
    split; [discriminate|intros; assert (lv0 = lv) by congruence; lia].
  - pose proof (text_loop_calm fuel s2 [zb c]) as Hc. destruct (text_loop fuel s2 [zb c]) as [[b s3]| |]; cbn [rbind]; [|congruence|split; [discriminate|intros; discriminate]].
    split; [discriminate|intros; assert (lv0 = lv) by congruence; lia].
Qed.
Definition no_ptr (v : value graph) : Prop := forall p, v <> VPtr p.
Definition evs_plain (l : list (Z * value graph)) : Prop := Forall (fun e => no_ptr (snd e)) l.
Lemma parse_loop_calm fuel : forall s h, h_inv h -> evs_plain (evs h) ->
  parse_loop fuel s h <> Panic /\ forall h' s', parse_loop fuel s h = Ok (h', s') -> h_inv h' /\ evs_plain (evs h').
Proof.
  induction fuel as [|f IH]; intros s h Hh Hp; cbn [parse_loop]; [split; [discriminate|intros; discriminate]|].
  destruct (line_calm f s) as (Hc & Hl). destruct (line f true s) as [[[[lv ib] b] s1]| |]; cbn [rbind]; [|congruence|split; [discriminate|intros; discriminate]].
  specialize (Hl _ _ _ _ eq_refl). destruct (Z.eqb_spec lv 0) as [_|Hne].
  - split; [discriminate|]. intros h' s' H. assert (h' = h) by congruence. subst. auto.
  - apply IH.
    + eapply (h_step_inv (HAddAt _ (lv - 1))); [cbn; lia|exact Hh|reflexivity].
    + unfold h_add_at. cbn [evs]. apply Forall_app. split; [exact Hp|]. constructor; [|constructor]. cbn [snd]. destruct ib; intro; discriminate.
Qed.

(** ** The graphs read *)
Definition arena_plain (a : arena) : Prop := Forall (fun e => no_ptr (fst e)) a.
Lemma lset_Forall {A} (P : A -> Prop) : forall l i x, Forall P l -> P x -> Forall P (lset l i x).
Proof. induction l as [|y l IH]; intros i x Hl Hx; [constructor|]. inversion Hl; subst. destruct i; cbn; constructor; auto. Qed.
Lemma arena_add_plain a p c : arena_plain a -> arena_plain (arena_add a p c).
Proof.
  intro Ha. destruct p as [p|]; [|exact Ha]. cbn. destruct (nth_error a p) as [[v o]|] eqn:E; [|exact Ha].
  apply lset_Forall; [exact Ha|]. apply nth_error_In in E. exact (proj1 (Forall_forall _ _) Ha _ E).
Qed.
Lemma tree_loop_plain l : forall sl a a', evs_plain l -> arena_plain a -> tree_loop l sl a = Ok a' -> arena_plain a'.
Proof.
  induction l as [|[lv v] l IH]; intros sl a a' Hl Ha H; cbn [tree_loop] in H; [congruence|]. inversion Hl; subst.
  destruct (zset sl (lv + 1) (Some (List.length a))) as [sl1| |]; cbn [rbind] in H; try discriminate.
  destruct (zget sl1 (lv + 1 - 1)) as [pa| |]; cbn [rbind] in H; try discriminate.
  eapply IH; [assumption| |exact H]. apply arena_add_plain, Forall_app. split; [exact Ha|]. constructor; [assumption|constructor].
Qed.
Lemma reify_plain fuel : forall a i, arena_plain a -> plain_graph (reify fuel a i).
Proof.
  induction fuel as [|f IH]; intros a i Ha; cbn [reify]; destruct (nth_error a i) as [[v o]|] eqn:E; try (constructor; [intro; discriminate|constructor]);
    pose proof (proj1 (Forall_forall _ _) Ha _ (nth_error_In _ _ E)) as Hv; cbn in Hv.
  - constructor; [exact Hv|constructor].
  - constructor; [exact Hv|]. apply Forall_map, Forall_forall. intros j _. eexists. split; [reflexivity|]. apply IH, Ha.
Qed.
Lemma parse_calm fuel s : parse fuel s <> Panic /\ forall g s', parse fuel s = Ok (Some g, s') -> plain_graph g.
Proof.
  unfold parse. destruct (header s) as [ok s1]. destruct ok; cbn [negb]; [|split; [discriminate|intros; discriminate]].
  destruct (parse_loop_calm fuel s1 h_init h_init_inv ltac:(constructor)) as (Hc & Hi).
  destruct (parse_loop fuel s1 h_init) as [[h s2]| |]; cbn [rbind]; [|congruence|split; [discriminate|intros; discriminate]].
  destruct (Hi _ _ eq_refl) as (Hh & Hp). destruct (Tree h) as [g| |] eqn:Et; cbn [rbind].
  - split; [discriminate|]. intros g' s' H. assert (g' = g) by congruence. subst g'. unfold Tree in Et. destruct (_ <? 1); [discriminate|].
    destruct (zset _ 0 _) as [sl| |]; cbn [rbind] in Et; try discriminate. destruct (tree_loop (evs h) sl _) as [a| |] eqn:El; cbn [rbind] in Et; try discriminate.
    assert (g = reify (List.length a) a 0) by congruence. subst g. apply reify_plain. eapply tree_loop_plain; [exact Hp| |exact El].
    constructor; [intro; discriminate|constructor].
  - rewrite h_inv_Tree in Et by exact Hh. discriminate.
  - rewrite h_inv_Tree in Et by exact Hh. discriminate.
Qed.
Lemma FromBinary_calm fuel b : FromBinary fuel b <> Panic /\ forall g, FromBinary fuel b = Ok (Some g) -> plain_graph g.
Proof.
  unfold FromBinary. destruct (parse_calm fuel (mkR b TEof 0)) as (Hc & Hp). destruct (parse fuel (mkR b TEof 0)) as [[g s]| |]; cbn [rbind].
  - split; [discriminate|]. intros g' H. assert (g = Some g') by congruence. subst. eapply Hp; reflexivity.
  - congruence.
  - split; [discriminate|intros; discriminate].
Qed.

(** ** Server and client *)
Section Calm.
Context {St : Type} (E : env) (F : nat) (h : func St).
Hypothesis calm : sound_handler E h.
Definition place_ok (p : place) : Prop :=
  match p with AtCall g => plain_graph g | AtReply r => Binary E r <> Panic | _ => True end.
Definition act_ok {W} (a : act (place * W)) : Prop :=
  match a with Move x => place_ok (fst x) | Ask g k => plain_graph g /\ forall r, Binary E r <> Panic -> place_ok (fst (k r)) | Stop => True end.
Lemma next_calm c : place_ok (fst c) -> next pipe_net E F c <> Panic /\ forall a, next pipe_net E F c = Ok a -> act_ok a.
Proof.
  assert (D : forall x : place * pipe, place_ok (fst x) -> @Ok (act (place * pipe)) (Move x) <> Panic /\ forall a, Ok (Move x) = Ok a -> act_ok a).
  { intros x Hx. split; [discriminate|]. intros a Ha. assert (a = Move x) by congruence. subst. exact Hx. }
  destruct c as [[|l|g|r|b|] w]; intro Hc; cbn [next fst place_ok] in *.
  - cbn [n_read pipe_net]. destruct (p_in w) as [|x m]; cbn [rbind]; [apply D; exact I|]. destruct (firstn (Z.to_nat 4) x) as [|c b4]; [apply D; exact I|].
    destruct (_ || _); [apply D; exact I|]. destruct (_ =? 0); apply D; exact I.
  - cbn [n_read pipe_net]. destruct (p_in w) as [|x m]; cbn [rbind]; [apply D; exact I|]. destruct (negb _); [apply D; exact I|].
    destruct (FromBinary_calm F (firstn (Z.to_nat l) x)) as (Hn & Hp). destruct (FromBinary F _) as [[[v [|k o]]|]| |]; cbn [rbind]; try (apply D; exact I); [|congruence|split; [discriminate|intros; discriminate]].
    apply D. exact (Hp _ eq_refl).
  - split; [discriminate|]. intros a Ha. assert (E1 : a = Ask g (fun r => (AtReply r, w))) by congruence. rewrite E1. cbn. auto.
  - destruct (Binary E r) as [b| |]; cbn [rbind]; [|congruence|split; [discriminate|intros; discriminate]]. cbn [n_write pipe_net rbind].
    destruct (_ || _); apply D; exact I.
  - cbn [n_write pipe_net rbind]. destruct (negb _); apply D; exact I.
  - split; [discriminate|]. intros a Ha. assert (E1 : a = Stop) by congruence. rewrite E1. exact I.
Qed.
Lemma next1_calm c : place_ok (fst c) -> next1 E F c <> Panic /\ forall a, next1 E F c = Ok a -> act_ok a.
Proof.
  assert (D : forall x : place * pipe, place_ok (fst x) -> @Ok (act (place * pipe)) (Move x) <> Panic /\ forall a, Ok (Move x) = Ok a -> act_ok a).
  { intros x Hx. split; [discriminate|]. intros a Ha. assert (a = Move x) by congruence. subst. exact Hx. }
  assert (D0 : @Ok (act (place * pipe)) Stop <> Panic /\ forall a, @Ok (act (place * pipe)) Stop = Ok a -> act_ok a).
  { split; [discriminate|]. intros a Ha. assert (E1 : a = Stop) by congruence. rewrite E1. exact I. }
  destruct c as [[|l|g|r|b|] w]; intro Hc; cbn [next1 fst place_ok] in *; try exact D0.
  - unfold receive. destruct (parse_calm F (mkR (List.concat (p_in w)) (p_end w) 0)) as (Hn & Hp).
    destruct (parse F _) as [[[g|] r]| |]; cbn [rbind]; [|apply D; exact I|congruence|split; [discriminate|intros; discriminate]]. apply D. exact (Hp _ _ eq_refl).
  - split; [discriminate|]. intros a Ha. assert (E1 : a = Ask g (fun r => (AtReply r, w))) by congruence. rewrite E1. cbn. auto.
  - destruct (Binary E r) as [b| |]; cbn [rbind]; [|congruence|split; [discriminate|intros; discriminate]]. cbn [n_write pipe_net rbind]. apply D. exact I.
Qed.
Lemma serve_calm {W} (nxt : place * W -> res (act (place * W))) :
  (forall c, place_ok (fst c) -> nxt c <> Panic /\ forall a, nxt c = Ok a -> act_ok a) ->
  forall sched cs s, (forall i, place_ok (fst (cs i))) -> serve nxt h sched cs s <> Panic.
Proof.
  intro Hn. induction sched as [|i sched IH]; intros cs s Hcs; cbn [serve]; [discriminate|].
  destruct (Hn (cs i) (Hcs i)) as (Hc & Ha). destruct (nxt (cs i)) as [[x|g k|]| |]; cbn [rbind]; [| | |congruence|discriminate].
  - apply IH. intro j. unfold set_conn. destruct (Nat.eqb j i); [exact (Ha _ eq_refl)|apply Hcs].
  - destruct (Ha _ eq_refl) as (Hg & Hk). destruct (calm g s Hg) as (Hh & Hb). destruct (h g s) as [[s1 r]| |]; cbn [rbind]; [|congruence|discriminate].
    apply IH. intro j. unfold set_conn. destruct (Nat.eqb j i); [apply Hk; exact (Hb _ _ eq_refl)|apply Hcs].
  - apply IH, Hcs.
Qed.
Lemma turn_calm w s : turn pipe_net E F h w s <> Panic.
Proof.
  unfold turn. cbn [n_read pipe_net]. destruct (p_in w) as [|x l]; [discriminate|]. cbn [rbind]. destruct (firstn (Z.to_nat 4) x) as [|c b4]; [discriminate|].
  destruct (_ || _); [discriminate|]. destruct (_ =? 0); [discriminate|]. cbn [p_in]. destruct (rest_of _ l) as [|y m]; [discriminate|]. cbn [rbind].
  destruct (negb _); [discriminate|]. destruct (FromBinary_calm F (firstn (Z.to_nat (un_be32 (c :: b4))) y)) as (Hc & Hp).
  destruct (FromBinary F _) as [[[v [|k o]]|]| |]; cbn [rbind]; try discriminate; [|congruence].
  destruct (calm _ s (Hp _ eq_refl)) as (Hh & Hb). destruct (h (Node v (k :: o)) s) as [[s1 x1]| |]; cbn [rbind]; [|congruence|discriminate].
  specialize (Hb _ _ eq_refl). destruct (Binary E x1) as [b| |]; cbn [rbind]; [|congruence|discriminate]. cbn [n_write pipe_net rbind].
  destruct (_ || _); [discriminate|]. cbn [rbind]. destruct (negb _); discriminate.
Qed.
Lemma process_calm fuel : forall w s, process pipe_net E F h fuel w s <> Panic.
Proof.
  induction fuel as [|fuel IH]; intros w s; cbn [process]; [discriminate|]. pose proof (turn_calm w s) as Ht.
  destruct (turn pipe_net E F h w s) as [[[w1 s1] m]| |]; cbn [rbind]; [|congruence|discriminate]. destruct m; [apply IH|discriminate].
Qed.
Lemma process1_calm fuel : forall w s, process1 E F h fuel w s <> Panic.
Proof.
  induction fuel as [|fuel IH]; intros w s; cbn [process1]; [discriminate|]. unfold receive.
  destruct (parse_calm F (mkR (List.concat (p_in w)) (p_end w) 0)) as (Hc & Hp). destruct (parse F _) as [[[g|] r]| |]; cbn [rbind]; [| discriminate|congruence|discriminate].
  specialize (Hp _ _ eq_refl). destruct (calm _ s Hp) as (Hh & Hb). destruct (h g s) as [[s1 x1]| |]; cbn [rbind]; [|congruence|discriminate].
  specialize (Hb _ _ eq_refl). destruct (Binary E x1) as [b| |]; cbn [rbind]; [|congruence|discriminate]. cbn [n_write pipe_net rbind]. apply IH.
Qed.
End Calm.
Lemma read_body_calm fuel : forall l l2 buf w, read_body pipe_net fuel l l2 buf w <> Panic.
Proof.
  induction fuel as [|fuel IH]; intros l l2 buf w; cbn [read_body]; [discriminate|]. cbn [n_read pipe_net]. destruct (p_in w) as [|x m]; [discriminate|]. cbn [rbind].
  destruct (firstn (Z.to_nat 10000) x); [discriminate|]. destruct (_ <=? _); [discriminate|apply IH].
Qed.
Lemma callV2_calm E F q w : Binary E q <> Panic -> callV2 pipe_net E F q w <> Panic.
Proof.
  intro Hq. unfold callV2. destruct (Binary E q) as [b| |]; cbn [rbind]; [|congruence|discriminate]. cbn [n_write pipe_net rbind].
  destruct (_ || _); [discriminate|]. cbn [n_write pipe_net rbind]. destruct (negb _); [discriminate|]. cbn [n_read pipe_net p_in].
  destruct (p_in w) as [|x l]; cbn [rbind]; [discriminate|]. destruct (negb _); [discriminate|].
  match goal with |- context [read_body ?n ?a ?b ?c ?d ?e] => pose proof (read_body_calm a b c d e) as Hr; destruct (read_body n a b c d e) as [[w1 [buf|e1]]| |] end; cbn [rbind]; try discriminate; [|congruence].
  destruct (FromBinary_calm F buf) as (Hc & _). destruct (FromBinary F buf) as [[[v [|k o]]|]| |]; cbn [rbind]; discriminate || congruence.
Qed.
Lemma callV1_calm E F q w : Binary E q <> Panic -> callV1 (pipe_link F) E q w <> Panic.
Proof.
  intro Hq. unfold callV1. destruct (Binary E q) as [b| |]; cbn [rbind]; [|congruence|discriminate]. cbn [l_write l_recv pipe_link n_write pipe_net rbind].
  destruct (negb _); [discriminate|]. unfold receive. match goal with |- context [parse ?a ?b] => destruct (parse_calm a b) as (Hc & _); destruct (parse a b) as [[[[v [|k o]]|] r]| |] end; cbn [rbind]; discriminate || congruence.
Qed.
Lemma Binary_plain E g : plain_graph g -> Binary E (Some g) <> Panic.
Proof.
  intro Hg. destruct (plain_shows E g Hg) as (f & Hf). destruct (Binary E (Some g)) eqn:Eb; try discriminate. exfalso. unfold Binary in Eb.
  rewrite (bins_shows E _ _ Hf 1) in Eb. discriminate.
Qed.
