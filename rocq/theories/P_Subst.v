(** C97: several substitutions. *)
From Verif Require Import Base Value Graph GraphSpec GraphFacts Samples.

(** The node at a path below the top node. *)
Definition below (g n : graph) : Prop := exists i p, node_at g (i :: p) = Some n.

(** One content, and all contents *)
Definition sub (E : env) (s : bytes) (w v : value graph) : value graph := if prints_as E s v then w else v.
Fixpoint vmap (f : value graph -> value graph) (g : graph) : graph := match g with Node v o => Node (f v) (map (option_map (vmap f)) o) end.
Definition vbelow (f : value graph -> value graph) (g : graph) : graph := Node (this g) (map (option_map (vmap f)) (out g)).

Lemma vmap_ref E s w g : subst_ref E s w g = vmap (sub E s w) g.
Proof.
  induction g as [v o _ IH] using graph_ind'. cbn [subst_ref vmap]. f_equal. induction IH as [|[c|] o Hc _ IHo]; cbn [map option_map]; [reflexivity| |]; rewrite IHo; [cbn in Hc; rewrite Hc|]; reflexivity.
Qed.
Lemma vmap_ext f f' g : (forall p n, node_at g p = Some n -> f (this n) = f' (this n)) -> vmap f g = vmap f' g.
Proof.
  induction g as [v o _ IH] using graph_ind'. intros H. cbn [vmap]. f_equal; [exact (H [] _ eq_refl)|].
  assert (H' : forall i p c n, nth_error o i = Some (Some c) -> node_at c p = Some n -> f (this n) = f' (this n)).
  { intros i p c n Hi Hp. apply (H (i :: p) n). cbn [node_at out]. rewrite Hi. exact Hp. }
  clear H. induction IH as [|[c|] o Hc _ IHo]; cbn [map option_map]; [reflexivity| |].
  - rewrite IHo; [|intros i; apply (H' (S i))]. cbn in Hc. rewrite Hc; [reflexivity|]. intros p n. exact (H' O p c n eq_refl).
  - rewrite IHo; [reflexivity|]. intros i; apply (H' (S i)).
Qed.
Lemma vbelow_ext f f' g : (forall n, below g n -> f (this n) = f' (this n)) -> vbelow f g = vbelow f' g.
Proof.
  intros H. unfold vbelow. f_equal. destruct g as [t o]. cbn [out] in *.
  assert (H' : forall i p c n, nth_error o i = Some (Some c) -> node_at c p = Some n -> f (this n) = f' (this n)).
  { intros i p c n Hi Hp. apply H. exists i, p. cbn [node_at out]. rewrite Hi. exact Hp. }
  clear H. induction o as [|[c|] o IHo]; cbn [map option_map]; [reflexivity| |].
  - rewrite IHo; [|intros i; apply (H' (S i))]. rewrite (vmap_ext f f' c); [reflexivity|]. intros p n. exact (H' O p c n eq_refl).
  - rewrite IHo; [reflexivity|]. intros i; apply (H' (S i)).
Qed.
Lemma vmap_vmap f h g : vmap f (vmap h g) = vmap (fun v => f (h v)) g.
Proof.
  induction g as [v o _ IH] using graph_ind'. cbn [vmap]. f_equal. rewrite map_map. induction IH as [|[c|] o Hc _ IHo]; cbn [map option_map]; [reflexivity| |]; rewrite IHo; [cbn in Hc; rewrite Hc|]; reflexivity.
Qed.
Lemma vbelow_vbelow f h g : vbelow f (vbelow h g) = vbelow (fun v => f (h v)) g.
Proof. unfold vbelow. cbn [this out]. f_equal. rewrite map_map. apply map_ext. intros [c|]; cbn [option_map]; [rewrite vmap_vmap|]; reflexivity. Qed.
Lemma vmap_id g : vmap (fun v => v) g = g.
Proof.
  induction g as [v o _ IH] using graph_ind'. cbn [vmap]. f_equal. induction IH as [|[c|] o Hc _ IHo]; cbn [map option_map]; [reflexivity| |]; rewrite IHo; [cbn in Hc; rewrite Hc|]; reflexivity.
Qed.
Lemma vbelow_id g : vbelow (fun v => v) g = g.
Proof. destruct g as [t o]. unfold vbelow. cbn [this out]. f_equal. rewrite <- (map_id o) at 2. apply map_ext. intros [c|]; cbn [option_map]; [rewrite vmap_id|]; reflexivity. Qed.
Lemma Sub_below E g s w : whole E g -> Substitute E g s w = Ok (vbelow (sub E s w) g).
Proof. intros H. rewrite Substitute_ref by exact H. unfold subst_below, vbelow. do 2 f_equal. apply map_ext. intros [c|]; cbn [option_map]; [rewrite vmap_ref|]; reflexivity. Qed.
Lemma Sub_two E g s w s' w' g1 : whole E g -> (exists x, vstring E w = Ok x) -> Substitute E g s w = Ok g1 ->
  Substitute E g1 s' w' = Ok (vbelow (fun v => sub E s' w' (sub E s w v)) g).
Proof.
  intros H Hw H1. assert (whole E g1). { rewrite (Substitute_ref E s w g H) in H1. injection H1 as <-. apply subst_below_whole; assumption. }
  rewrite Sub_below in H1 by exact H. injection H1 as <-. rewrite Sub_below by assumption. rewrite vbelow_vbelow. reflexivity.
Qed.
Lemma prints_true E s v : prints_as E s v = true <-> vstring E v = Ok s.
Proof. unfold prints_as. destruct (vstring E v) as [x| |]; [|split; discriminate..]. destruct (bseq_spec x s) as [->|]; split; congruence. Qed.
Lemma prints_false E s v : vstring E v <> Ok s -> prints_as E s v = false.
Proof. intros H. destruct (prints_as E s v) eqn:Hp; [|reflexivity]. apply prints_true in Hp. contradiction. Qed.

(** ** C97 Substitutions one after the other.
    Nothing to replace: nothing changes. *)
Theorem C97_nothing : forall E g s w, whole E g -> (forall n, below g n -> vstring E (this n) <> Ok s) -> Substitute E g s w = Ok g.
Proof.
  intros E g s w H Hn. rewrite Sub_below by exact H. f_equal. rewrite <- (vbelow_id g) at 2. apply vbelow_ext. intros n Hb. unfold sub. rewrite prints_false by (apply Hn; exact Hb). reflexivity.
Qed.
Print Assumptions C97_nothing.
(** Two that have nothing to do with each other commute. *)
Theorem C97_commute : forall E g s1 w1 x1 s2 w2 x2 g1 g2, whole E g -> s1 <> s2 -> vstring E w1 = Ok x1 -> vstring E w2 = Ok x2 -> x1 <> s2 -> x2 <> s1 ->
  Substitute E g s1 w1 = Ok g1 -> Substitute E g s2 w2 = Ok g2 -> exists g', Substitute E g1 s2 w2 = Ok g' /\ Substitute E g2 s1 w1 = Ok g'.
Proof.
  intros E g s1 w1 x1 s2 w2 x2 g1 g2 H Hs H1 H2 Hx1 Hx2 E1 E2.
  rewrite (Sub_two _ _ _ _ _ _ _ H (ex_intro _ _ H1) E1), (Sub_two _ _ _ _ _ _ _ H (ex_intro _ _ H2) E2). eexists. split; [reflexivity|]. f_equal. apply vbelow_ext. intros n _.
  unfold sub. destruct (prints_as E s1 (this n)) eqn:P1, (prints_as E s2 (this n)) eqn:P2; rewrite ?P1, ?P2; try reflexivity.
  - apply prints_true in P1, P2. congruence.
  - rewrite (prints_false E s2 w1) by congruence. reflexivity.
  - rewrite (prints_false E s1 w2) by congruence. reflexivity.
Qed.
Print Assumptions C97_commute.
(** a by b, then b by c: all a and b become c. *)
Theorem C97_chain : forall E g s1 w1 s2 w2 g1 g2, whole E g -> vstring E w1 = Ok s2 -> (exists x, vstring E w2 = Ok x) ->
  Substitute E g s1 w1 = Ok g1 -> Substitute E g s2 w2 = Ok g2 -> exists g', Substitute E g1 s2 w2 = Ok g' /\ Substitute E g2 s1 w2 = Ok g'.
Proof.
  intros E g s1 w1 s2 w2 g1 g2 H H1 H2 E1 E2.
  rewrite (Sub_two _ _ _ _ _ _ _ H (ex_intro _ _ H1) E1), (Sub_two _ _ _ _ _ _ _ H H2 E2). eexists. split; [reflexivity|]. f_equal. apply vbelow_ext. intros n _.
  unfold sub. assert (P : prints_as E s2 w1 = true) by (apply prints_true; exact H1).
  destruct (prints_as E s1 (this n)) eqn:P1, (prints_as E s2 (this n)) eqn:P2; rewrite ?P, ?P1, ?P2; try reflexivity; destruct (prints_as E s1 w2); reflexivity.
Qed.
Print Assumptions C97_chain.
(** Back again, if the new text was not there before. *)
Theorem C97_undo : forall E g s w x v g1, whole E g -> vstring E w = Ok x -> (forall n, below g n -> vstring E (this n) <> Ok x) -> (forall n, below g n -> vstring E (this n) = Ok s -> this n = v) ->
  Substitute E g s w = Ok g1 -> Substitute E g1 x v = Ok g.
Proof.
  intros E g s w x v g1 H Hw Hx Hv E1. rewrite (Sub_two _ _ _ _ _ _ _ H (ex_intro _ _ Hw) E1). f_equal. rewrite <- (vbelow_id g) at 2. apply vbelow_ext. intros n Hb.
  unfold sub. destruct (prints_as E s (this n)) eqn:P1.
  - rewrite (proj2 (prints_true E x w) Hw). symmetry. apply Hv; [exact Hb|]. apply prints_true, P1.
  - rewrite prints_false by (apply Hx; exact Hb). reflexivity.
Qed.
Print Assumptions C97_undo.

Definition ex_ab : graph := nd "a" [nd "a" [nd "b" []]; nd "c" []].
Lemma ex_ab_whole : whole env0 ex_ab.
Proof. repeat first [apply (all_node _ _ []) | apply (all_node _ _ [_]) | apply (all_node _ _ [_;_]) | constructor | eexists; reflexivity]. Qed.
(** Not in general: exchanging two texts takes three steps. *)
Theorem C97_commute_refuted : exists E g s1 w1 s2 w2 g1 g2 g12 g21, whole E g /\ s1 <> s2 /\ Substitute E g s1 w1 = Ok g1 /\ Substitute E g1 s2 w2 = Ok g12 /\ Substitute E g s2 w2 = Ok g2 /\ Substitute E g2 s1 w1 = Ok g21 /\ g12 <> g21.
Proof.
  exists env0, ex_ab, (bs "a"), (VStr (bs "b")), (bs "b"), (VStr (bs "a")). do 4 eexists. split; [exact ex_ab_whole|]. split; [discriminate|].
  split; [vm_compute; reflexivity|]. split; [vm_compute; reflexivity|]. split; [vm_compute; reflexivity|]. split; [vm_compute; reflexivity|]. discriminate.
Qed.
Print Assumptions C97_commute_refuted.
Theorem C97_undo_refuted : exists E g s w g1 g', whole E g /\ Substitute E g s (VStr w) = Ok g1 /\ Substitute E g1 w (VStr s) = Ok g' /\ g' <> g.
Proof.
  exists env0, ex_ab, (bs "a"), (bs "b"). do 2 eexists. split; [exact ex_ab_whole|]. split; [vm_compute; reflexivity|]. split; [vm_compute; reflexivity|]. discriminate.
Qed.
Print Assumptions C97_undo_refuted.
Lemma ex_ab_below n : below ex_ab n -> In (this n) [VStr (bs "a"); VStr (bs "b"); VStr (bs "c")].
Proof.
  intros (i & p & H). destruct i as [|[|[|i]]]; destruct p as [|[|j] [|[|k] p]]; cbn in H; try discriminate H; try (destruct j; discriminate H); try (destruct k; discriminate H); try (destruct i; discriminate H); injection H as <-; cbn; auto.
Qed.
Example C97_ex : whole env0 ex_ab /\ (forall n, below ex_ab n -> vstring env0 (this n) <> Ok (bs "7")) /\ (forall n, below ex_ab n -> vstring env0 (this n) = Ok (bs "a") -> this n = VStr (bs "a")) /\
  vstring env0 (VInt KInt 7) = Ok (bs "7") /\ exists g1 g2, Substitute env0 ex_ab (bs "a") (VInt KInt 7) = Ok g1 /\ g1 <> ex_ab /\ Substitute env0 g1 (bs "7") (VStr (bs "a")) = Ok ex_ab /\
  Substitute env0 g1 (bs "b") (VStr (bs "d")) = Ok g2 /\ g2 = nd "a" [Node (VInt KInt 7) [Some (nd "d" [])]; nd "c" []].
Proof.
  split; [exact ex_ab_whole|]. split; [intros n Hb; destruct (ex_ab_below n Hb) as [<-|[<-|[<-|[]]]]; discriminate|]. split; [intros n Hb; destruct (ex_ab_below n Hb) as [<-|[<-|[<-|[]]]]; [reflexivity|discriminate..]|].
  split; [reflexivity|]. do 2 eexists. split; [vm_compute; reflexivity|]. split; [discriminate|]. split; [vm_compute; reflexivity|]. split; [vm_compute; reflexivity|]. reflexivity.
Qed.
