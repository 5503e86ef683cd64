(** C70: what a caller gets from Call, over any network. *)
From Verif Require Import Base Value Event Graph GraphSpec Binary BinarySpec BinaryFacts Rpc RpcSpec CalmFacts Samples.

(** The operations of a connection do not panic. *)
Definition steady {W} (N : net W) : Prop :=
  (forall w, n_dial N w <> Panic) /\ (forall b w, n_write N b w <> Panic) /\ (forall n w, n_read N n w <> Panic).
Definition steady_link {W} (L : link W) : Prop :=
  (forall w, l_dial L w <> Panic) /\ (forall b w, l_write L b w <> Panic) /\ (forall w, l_recv L w <> Panic).
(** As io.Reader recommends: a Read without data is an error. *)
Definition no_empty_reads {W} (N : net W) : Prop := forall n w w' b, 0 < n -> n_read N n w = Ok (w', b, false) -> b <> [].

(** A response or an error *)
Definition outcome (r : option graph * option rerr) : Prop :=
  (exists e, r = (None, Some e)) \/ (exists g, r = (Some g, None) /\ plain_graph g /\ out g <> []).

Section Client.
Context {W : Type} (N : net W) (E : env) (F : nat).
Lemma body_steady : steady N -> forall fuel l l2 buf w, read_body N fuel l l2 buf w <> Panic.
Proof.
  intros (_ & _ & Hr). induction fuel as [|fuel IH]; intros l l2 buf w; cbn [read_body]; [discriminate|].
  specialize (Hr 10000 w). destruct (n_read N 10000 w) as [[[w1 b] err]| |]; cbn [rbind]; [|congruence|discriminate].
  destruct err; [discriminate|]. destruct b; [discriminate|]. destruct (_ <=? _); [discriminate|apply IH].
Qed.
Lemma body_some : no_empty_reads N -> forall fuel l l2 buf w w', read_body N fuel l l2 buf w <> Ok (w', inr None).
Proof.
  intros Hn. induction fuel as [|fuel IH]; intros l l2 buf w w'; cbn [read_body]; [discriminate|].
  specialize (Hn 10000 w). destruct (n_read N 10000 w) as [[[w1 b] err]| |]; cbn [rbind]; [|discriminate|discriminate].
  destruct err; [discriminate|]. specialize (Hn w1 b ltac:(lia) eq_refl). destruct b; [congruence|]. destruct (_ <=? _); [discriminate|apply IH].
Qed.
Lemma v2_steady q w : steady N -> plain_graph q -> callV2 N E F (Some q) w <> Panic.
Proof.
  intros HN Hq. pose proof (Binary_plain E q Hq) as Hb. destruct HN as (Hd & Hw & Hr) eqn:EN. unfold callV2. destruct (Binary E (Some q)) as [b| |]; cbn [rbind]; [|congruence|discriminate].
  match goal with |- context [n_write N ?x ?y] => pose proof (Hw x y) as H1; destruct (n_write N x y) as [[[w1 i] e1]| |]; cbn [rbind]; [|congruence|discriminate] end.
  destruct (_ || _); [discriminate|].
  match goal with |- context [n_write N ?x ?y] => pose proof (Hw x y) as H2; destruct (n_write N x y) as [[[w2 i2] e2]| |]; cbn [rbind]; [|congruence|discriminate] end.
  destruct e2; [discriminate|]. destruct (negb _); [discriminate|].
  match goal with |- context [n_read N ?x ?y] => pose proof (Hr x y) as H3; destruct (n_read N x y) as [[[w3 b4] e3]| |]; cbn [rbind]; [|congruence|discriminate] end.
  destruct (negb _); [discriminate|].
  match goal with |- context [read_body N ?a ?b ?c ?d ?e] => pose proof (body_steady (conj Hd (conj Hw Hr)) a b c d e) as H4; destruct (read_body N a b c d e) as [[w4 [buf3|e4]]| |]; cbn [rbind]; [|discriminate|congruence|discriminate] end.
  destruct (FromBinary_calm F buf3) as (Hc & _). destruct (FromBinary F buf3) as [[[v [|k o]]|]| |]; cbn [rbind]; discriminate || congruence.
Qed.
Lemma v2_outcome q w w' r : no_empty_reads N -> callV2 N E F q w = Ok (w', r) -> outcome r.
Proof.
  intros Hn H. unfold callV2 in H. destruct (Binary E q) as [b| |]; cbn [rbind] in H; try discriminate H.
  match type of H with context [n_write N ?x ?y] => destruct (n_write N x y) as [[[w1 i] e1]| |]; cbn [rbind] in H; try discriminate H end.
  destruct (_ || _); [injection H as <- <-; left; eauto|].
  match type of H with context [n_write N ?x ?y] => destruct (n_write N x y) as [[[w2 i2] e2]| |]; cbn [rbind] in H; try discriminate H end.
  destruct e2; [injection H as <- <-; left; eauto|]. destruct (negb _); [injection H as <- <-; left; eauto|].
  match type of H with context [n_read N ?x ?y] => destruct (n_read N x y) as [[[w3 b4] e3]| |]; cbn [rbind] in H; try discriminate H end.
  destruct (negb _); [injection H as <- <-; left; eauto|].
  match type of H with context [read_body N ?a ?b ?c ?d ?e] => pose proof (body_some Hn a b c d e) as H4; destruct (read_body N a b c d e) as [[w4 [buf3|e4]]| |]; cbn [rbind] in H; try discriminate H end.
  - destruct (FromBinary_calm F buf3) as (_ & Hp). destruct (FromBinary F buf3) as [[[v [|k o]]|]| |]; cbn [rbind] in H; try discriminate H; injection H as <- <-; try (left; eauto; fail).
    right. eexists. split; [reflexivity|]. split; [exact (Hp _ eq_refl)|discriminate].
  - destruct e4 as [e4|]; [injection H as <- <-; left; eauto|]. exfalso. exact (H4 w4 eq_refl).
Qed.
End Client.

(** ** C70 Call does not panic over any network, and returns a response that has subnodes, none of
    them nil, or an error. *)
Theorem C70_call : forall W (N : net W) E F conn q w, steady N -> plain_graph q ->
  Call N E F conn (Some q) w <> Panic /\
  (no_empty_reads N -> forall w' c r, Call N E F conn (Some q) w = Ok (w', c, r) -> outcome r).
Proof.
  intros W N E F conn q w HN Hq. unfold Call. generalize 3%nat as n. intro n. revert conn w.
  induction n as [|n IH]; intros conn w; cbn [call_loop]; [split; discriminate|].
  assert (Hd : (if conn then Ok (w, true) else n_dial N w) <> Panic) by (destruct conn; [discriminate|apply HN]).
  destruct (if conn then Ok (w, true) else n_dial N w) as [[w1 up]| |]; cbn [rbind]; [|congruence|split; discriminate].
  destruct up; cbn [negb]; [|split; [discriminate|]; intros _ w' c r [= <- <- <-]; left; eauto].
  pose proof (v2_steady N E F q w1 HN Hq) as H1. pose proof (v2_outcome N E F (Some q) w1) as H2.
  destruct (callV2 N E F (Some q) w1) as [[w2 [r [e|]]]| |]; cbn [rbind]; [| |congruence|split; discriminate].
  - destruct n as [|n]; [|apply IH]. split; [discriminate|]. intros Hn w' c r' [= <- <- <-]. exact (H2 _ _ Hn eq_refl).
  - split; [discriminate|]. intros Hn w' c r' [= <- <- <-]. exact (H2 _ _ Hn eq_refl).
Qed.
Print Assumptions C70_call.

(** Protocol 1 *)
Theorem C70_call_v1 : forall W (L : link W) E conn q w, steady_link L -> plain_graph q ->
  Call1 L E conn (Some q) w <> Panic /\
  ((forall w w' g, l_recv L w = Ok (w', Some g) -> plain_graph g) -> forall w' c r, Call1 L E conn (Some q) w = Ok (w', c, r) -> outcome r).
Proof.
  intros W L E conn q w (Hd & Hw & Hr) Hq. unfold Call1. generalize 3%nat as n. intro n. revert conn w.
  pose proof (Binary_plain E q Hq) as Hb.
  assert (V : forall w, callV1 L E (Some q) w <> Panic /\ ((forall w w' g, l_recv L w = Ok (w', Some g) -> plain_graph g) -> forall w' c r, callV1 L E (Some q) w = Ok (w', c, r) -> outcome r)).
  { intro w. unfold callV1. destruct (Binary E (Some q)) as [b| |]; cbn [rbind]; [|congruence|split; discriminate].
    match goal with |- context [l_write L ?x ?y] => pose proof (Hw x y) as H1; destruct (l_write L x y) as [[[w1 i] e1]| |]; cbn [rbind]; [|congruence|split; discriminate] end.
    destruct e1; [split; [discriminate|]; intros _ w' c r [= <- <- <-]; left; eauto|].
    destruct (negb _); [split; [discriminate|]; intros _ w' c r [= <- <- <-]; left; eauto|].
    pose proof (Hr w1) as H2. destruct (l_recv L w1) as [[w2 g]| |] eqn:E2; cbn [rbind]; [|congruence|split; discriminate].
    destruct g as [[v [|k o]]|]; (split; [discriminate|]; intros Hp w' c r [= <- <- <-]; try (left; eauto; fail)).
    right. eexists. split; [reflexivity|]. split; [exact (Hp _ _ _ E2)|discriminate]. }
  induction n as [|n IH]; intros conn w; cbn [call1_loop]; [split; discriminate|].
  assert (Hd1 : (if conn then Ok (w, true) else l_dial L w) <> Panic) by (destruct conn; [discriminate|apply Hd]).
  destruct (if conn then Ok (w, true) else l_dial L w) as [[w1 up]| |]; cbn [rbind]; [|congruence|split; discriminate].
  destruct up; cbn [negb]; [|split; [discriminate|]; intros _ w' c r [= <- <- <-]; left; eauto].
  destruct (V w1) as (H1 & H2). destruct (callV1 L E (Some q) w1) as [[[w2 c2] [r [e|]]]| |]; cbn [rbind]; [| |congruence|split; discriminate].
  - destruct n as [|n]; [|apply IH]. split; [discriminate|]. intros Hn w' c r' [= <- <- <-]. exact (H2 Hn _ _ _ eq_refl).
  - split; [discriminate|]. intros Hn w' c r' [= <- <- <-]. exact (H2 Hn _ _ _ eq_refl).
Qed.
Print Assumptions C70_call_v1.

(** The connections of the model are of this kind. *)
Lemma pipe_steady : steady pipe_net.
Proof. repeat split; intros; cbn; try discriminate. destruct (p_in w); discriminate. Qed.
Lemma pipe_link_steady F : steady_link (pipe_link F).
Proof.
  repeat split; intros; cbn; try discriminate. unfold receive. destruct (parse_calm F (mkR (List.concat (p_in w)) (p_end w) 0)) as (Hc & _).
  destruct (parse F _) as [[g r]| |]; cbn [rbind]; [discriminate|congruence|discriminate].
Qed.
Lemma pipe_link_plain F w w' g : l_recv (pipe_link F) w = Ok (w', Some g) -> plain_graph g.
Proof.
  cbn. unfold receive. destruct (parse_calm F (mkR (List.concat (p_in w)) (p_end w) 0)) as (_ & Hp).
  destruct (parse F _) as [[x r]| |]; cbn [rbind]; try discriminate. intros [= _ ->]. exact (Hp _ _ eq_refl).
Qed.

(** A Read that gives neither data nor an error makes callV2 return neither a response nor an error. *)
Theorem C70_neither_refuted : forall E F q b, Binary E (Some q) = Ok (Some b) ->
  exists W (N : net W) w w' c, steady N /\ Call N E (S F) true (Some q) w = Ok (w', c, (None, None)).
Proof.
  intros E F q b Hb.
  set (N := mkNet (fun w : bool => Ok (w, true)) (fun x w => Ok (w, Z.of_nat (List.length x), false)) (fun n w => if w then Ok (false, be32 9, false) else Ok (false, @nil byte, false))).
  exists bool, N, true, false, true. split; [repeat split; intros; cbn; try discriminate; destruct w; discriminate|].
  unfold Call. cbn [call_loop rbind negb]. unfold callV2. rewrite Hb. cbn [rbind n_write n_read N]. change (Z.of_nat (List.length (be32 (Z.of_nat (List.length b)))) =? 4) with true.
  cbn [negb orb]. rewrite Z.eqb_refl. cbn [negb]. reflexivity.
Qed.
Print Assumptions C70_neither_refuted.

(** A network that answers with one response *)
Definition ex_body : bytes := match Binary env0 (Some (nd "_" [nd "a" [nd "b" []]])) with Ok (Some b) => b | _ => [] end.
Definition ex_net : net nat := mkNet (fun w => Ok (w, true)) (fun x w => Ok (w, Z.of_nat (List.length x), false))
  (fun n w => match w with O => Ok (1%nat, be32 (Z.of_nat (List.length ex_body)), false) | 1%nat => Ok (2%nat, ex_body, false) | _ => Ok (w, [], true) end).
Example C70_call_ex : steady ex_net /\ no_empty_reads ex_net /\ plain_graph (nd "_" [nd "q" []]) /\
  Call ex_net env0 20 true (Some (nd "_" [nd "q" []])) 0%nat = Ok (2%nat, true, (Some (nd "_" [nd "a" [nd "b" []]]), None)) /\
  exists e, Call ex_net env0 20 true (Some (nd "_" [nd "q" []])) 2%nat = Ok (2%nat, true, (None, Some e)).
Proof.
  split; [repeat split; intros; cbn; try discriminate; destruct w as [|[|w]]; discriminate|].
  split; [intros n w w' b _ H; cbn in H; destruct w as [|[|w]]; [injection H as <- <-|injection H as <- <-|]; discriminate|].
  split; [|split; [vm_compute; reflexivity|eexists; vm_compute; reflexivity]].
  unfold nd. cbn [map]. constructor; [discriminate|]. constructor; [|constructor]. eexists. split; [reflexivity|]. constructor; [discriminate|constructor].
Qed.
