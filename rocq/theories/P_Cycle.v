(** C91: when a graph becomes part of itself. *)
From Verif Require Import Base Value Graph GraphSpec Heap HeapSpec HeapFacts RefineSpec RefineFacts Samples P_Within.
From Coq Require Import Lia Relation_Operators.

(** A node that is below itself *)
Definition loops (h : heap) (x : addr) : Prop := exists y, down h x y /\ below h y x.
Definition acyclic (h : heap) : Prop := forall x, ~ loops h x.

Lemma below_trans h a b c : below h a b -> below h b c -> below h a c.
Proof. intros H. induction H as [|x y z Hd _ IH]; [auto|]. intros Hc. eapply rt1n_trans; [exact Hd|apply IH, Hc]. Qed.
Lemma below_mono h h' a b : (forall x y, down h x y -> down h' x y) -> below h a b -> below h' a b.
Proof. intros Hm H. induction H as [|x y z Hd _ IH]; [constructor|]. eapply rt1n_trans; [apply Hm, Hd|exact IH]. Qed.

(** ** More children for one node *)
Section Append.
Variable h : heap.
Variable a : addr.
Variable c : cell.
Variable o : list (option addr).
Hypothesis G : nth_error h a = Some c.
Let h' : heap := set_cell h a {| c_this := c_this c; c_out := c_out c ++ o |}.
Lemma down_append x y : down h' x y <-> down h x y \/ (x = a /\ In (Some y) o).
Proof.
  unfold down, kid, h'. destruct (Nat.eq_dec x a) as [->|Hne].
  - rewrite set_cell_same, G by (eapply nth_some_lt; eauto). cbn [c_out]. split.
    + intros (k & Hk). destruct (Nat.lt_ge_cases k (List.length (c_out c))) as [Hl|Hl]; [rewrite nth_error_app1 in Hk by exact Hl; left; eauto|]. rewrite nth_error_app2 in Hk by exact Hl. right. split; [reflexivity|eapply nth_error_In; exact Hk].
    + intros [(k & Hk)|[_ Hin]].
      * exists k. rewrite nth_error_app1; [exact Hk|]. apply nth_error_Some. congruence.
      * apply In_nth_error in Hin. destruct Hin as (k & Hk). exists (List.length (c_out c) + k)%nat. rewrite nth_error_app2 by lia. replace (_ + k - _)%nat with k by lia. exact Hk.
  - rewrite set_cell_other by exact Hne. split; [auto|]. intros [H|[-> _]]; [exact H|congruence].
Qed.
Lemma below_append y x : below h' y x -> below h y x \/ (below h y a /\ exists n, In (Some n) o /\ below h n x).
Proof.
  induction 1 as [y|y z x Hd _ IH]; [left; constructor|]. apply down_append in Hd. destruct Hd as [Hd|[-> Hin]].
  - destruct IH as [IH|(IH & n & Hn & Hx)]; [left; eapply rt1n_trans; eauto|right]. split; [eapply rt1n_trans; eauto|eauto].
  - right. split; [constructor|]. destruct IH as [IH|(_ & n & Hn & Hx)]; eauto.
Qed.
Lemma append_acyclic : acyclic h -> (acyclic h' <-> forall n, In (Some n) o -> ~ below h n a).
Proof.
  intros Ha. split.
  - intros Ha' n Hin Hb. apply (Ha' a). exists n. split; [apply down_append; auto|]. eapply below_mono; [|exact Hb]. intros x y H. apply down_append. auto.
  - intros Hn x (y & Hd & Hb). apply down_append in Hd. apply below_append in Hb. destruct Hd as [Hd|[-> Hin]].
    + destruct Hb as [Hb|(Hb & n & Hin & Hx)]; [apply (Ha x); exists y; auto|]. apply (Hn n Hin). eapply below_trans; [exact Hx|]. eapply rt1n_trans; eauto.
    + destruct Hb as [Hb|(Hb & _)]; exact (Hn y Hin Hb).
Qed.
End Append.
Lemma down_leaf h v x y : down (h ++ [{| c_this := v; c_out := [] |}]) x y <-> down h x y.
Proof.
  unfold down, kid. destruct (Nat.lt_ge_cases x (List.length h)) as [Hl|Hl]; [rewrite nth_error_app1 by exact Hl; reflexivity|].
  rewrite nth_error_app2 by exact Hl. assert (E : nth_error h x = None) by (apply nth_error_None; exact Hl). rewrite E. destruct (x - List.length h)%nat as [|k]; [|cbn; destruct k; reflexivity].
  cbn [nth_error c_out]. split; intros (k & Hk); [destruct k|]; discriminate.
Qed.
Lemma leaf_acyclic h v : acyclic h -> acyclic (h ++ [{| c_this := v; c_out := [] |}]).
Proof. intros Ha x (y & Hd & Hb). apply (Ha x). exists y. split; [exact (proj1 (down_leaf h v x y) Hd)|]. eapply below_mono; [|exact Hb]. intros u w H. exact (proj1 (down_leaf h v u w) H). Qed.

(** ** C91 g.Add(n) and g.AddNodes(n): when no node was below itself before, this is so afterwards exactly if g is not n or below n
    (or, for AddNodes, a child of n or below one). *)
Theorem C91_add : forall h a c v h' r, acyclic h -> nth_error h a = Some c -> hAdd (Some a) v h = (h', Ok r) ->
  (acyclic h' <-> match v with VPtr (Some n) => ~ below h n a | _ => True end).
Proof.
  intros h a c v h' r Ha G H.
  assert (Leaf : (do n <- alloc {| c_this := v; c_out := [] |}; do c <- load a; do _ <- set_out a (c_out c ++ [Some n]); ret (Some n)) h = (h', Ok r) -> acyclic h').
  { unfold mbind at 1. cbn [alloc]. set (h0 := h ++ [{| c_this := v; c_out := [] |}]). assert (La : (a < List.length h)%nat) by (eapply nth_some_lt; eauto).
    assert (G0 : nth_error h0 a = Some c) by (unfold h0; rewrite nth_error_app1 by exact La; exact G).
    rewrite (mbind_ok _ _ _ _ _ _ _ (load_ok _ _ _ G0)), (mbind_ok _ _ _ _ _ _ _ (set_out_ok _ _ _ _ G0)). intros [= <- _]. apply append_acyclic; [exact G0|apply leaf_acyclic, Ha|]. intros n [[= <-]|[]] Hb.
    inversion Hb as [E|y z Hd _]; subst; [lia|]. destruct Hd as (k & Hk). unfold kid, h0 in Hk. rewrite nth_error_app2, Nat.sub_diag in Hk by lia. destruct k; discriminate. }
  destruct v as [| | | | | | |[b|]| | |]; try (split; [auto|intros _; apply Leaf, H]).
  - injection H as <- _. tauto.
  - cbn [hAdd] in H. rewrite (mbind_ok _ _ _ _ _ _ _ (load_ok _ _ _ G)), (mbind_ok _ _ _ _ _ _ _ (set_out_ok _ _ _ _ G)) in H. injection H as <- _. rewrite append_acyclic by assumption.
    split; [intros H; apply H; left; reflexivity|]. intros H n [[= <-]|[]]. exact H.
Qed.
Print Assumptions C91_add.
Theorem C91_addnodes : forall h a b c d h' r, acyclic h -> nth_error h a = Some c -> nth_error h b = Some d -> hAddNodes (Some a) (Some b) h = (h', Ok r) ->
  (acyclic h' <-> forall n, down h b n -> ~ below h n a).
Proof.
  intros h a b c d h' r Ha G Gb H. unfold hAddNodes in H. rewrite (mbind_ok _ _ _ _ _ _ _ (load_ok _ _ _ G)), (mbind_ok _ _ _ _ _ _ _ (load_ok _ _ _ Gb)), (mbind_ok _ _ _ _ _ _ _ (set_out_ok _ _ _ _ G)) in H.
  injection H as <- _. rewrite append_acyclic by assumption. unfold down, kid. rewrite Gb. split.
  - intros H n (k & Hk). apply H. eapply nth_error_In. exact Hk.
  - intros H n Hin. apply In_nth_error in Hin. apply H. exact Hin.
Qed.
Print Assumptions C91_addnodes.

(** ** Clone does not return from a graph with such a node. *)
Definition endless (h : heap) (a : addr) : Prop := exists x, below h a x /\ loops h x.
Lemma endless_next h a : endless h a -> exists b, down h a b /\ endless h b.
Proof.
  intros (x & Hb & Hl). inversion Hb as [E|y z Hd Hb']; subst.
  - destruct Hl as (y & Hd & Hy). exists y. split; [exact Hd|]. exists x. split; [exact Hy|]. exists y. auto.
  - exists y. split; [exact Hd|]. exists x. auto.
Qed.
Lemma endless_more h h' a : more h h' -> endless h a -> endless h' a.
Proof.
  intros Hm (x & Hb & y & Hd & Hy). assert (K : forall u w, down h u w -> down h' u w) by (intros u w; apply down_more, Hm).
  exists x. split; [eapply below_mono; eauto|]. exists y. split; [apply K, Hd|eapply below_mono; eauto].
Qed.
Lemma set_keeps c m h : more h (fst ((do x <- load c; set_out c (c_out x ++ [m])) h)).
Proof. unfold mbind at 1. unfold load at 1. destruct (nth_error h c) as [d|] eqn:G; [|apply more_refl]. rewrite (set_out_ok _ _ _ _ G). apply append_more. exact G. Qed.
Lemma clone_keeps f : forall g h, more h (fst (hClone f g h)).
Proof.
  induction f as [|f IH]; intros [a|] h; cbn [hClone]; try apply more_refl. apply bind_keeps; [apply load_keeps|]. intros d h1. apply bind_keeps; [apply alloc_more|]. intros c h2. apply bind_keeps; [|intros u h3; apply more_refl].
  apply each_keeps. intros x h3. apply bind_keeps; [apply IH|]. intros m h4. apply set_keeps.
Qed.
Theorem C91_clone : forall h a, endless h a -> forall f r, snd (hClone f (Some a) h) <> Ok r.
Proof.
  intros h a He f. revert h a He. induction f as [|f IH]; intros h a He r; [discriminate|]. cbn [hClone]. destruct (endless_next h a He) as (b & (k & Hk) & Hb).
  unfold kid in Hk. destruct (nth_error h a) as [d|] eqn:G; [|discriminate]. rewrite (mbind_ok _ _ _ _ _ _ _ (load_ok _ _ _ G)). unfold mbind at 1. cbn [alloc]. set (h1 := h ++ _). set (c := List.length h).
  unfold mbind at 1. match goal with |- context [each ?body ?l ?hh] => assert (K : snd (each body l hh) <> Ok tt) end.
  { apply (each_fails _ (Some b)); [|eapply nth_error_In; exact Hk|].
    - intros y h2. apply bind_keeps; [apply clone_keeps|]. intros m h4. apply set_keeps.
    - intros h2 Hm. unfold mbind. assert (Hb2 : endless h2 b) by (eapply endless_more; [|exact Hb]; eapply more_trans; [apply alloc_more|exact Hm]).
      pose proof (IH h2 b Hb2) as N. destruct (hClone f (Some b) h2) as [h3 [m| |]]; cbn [snd] in *; [exfalso; exact (N m eq_refl)|discriminate|discriminate]. }
  destruct (each _ _ h1) as [h2 [[]| |]]; cbn [snd] in *; [congruence|discriminate|discriminate].
Qed.
Print Assumptions C91_clone.
(** No finite graph shows it. *)
Theorem C91_no_tree : forall h a g l, endless h a -> ~ spread h a g l.
Proof.
  assert (K : forall h, (forall a g l, spread h a g l -> ~ endless h a) /\ (forall k o l, spread_kids h k o l -> forall b, In (Some b) k -> ~ endless h b)).
  { intros h. apply spread_ind2.
    - intros a c v o l G _ _ IH _ He. destruct (endless_next h a He) as (b & (k & Hk) & Hb). unfold kid in Hk. rewrite G in Hk. apply (IH b); [eapply nth_error_In; exact Hk|exact Hb].
    - intros b [].
    - intros k o l _ IH b [[=]|Hb]. apply IH, Hb.
    - intros a g m k o l _ IH1 _ IH2 _ b [[= <-]|Hb]; [exact IH1|apply IH2, Hb]. }
  intros h a g l He Hs. exact (proj1 (K h) a g l Hs He).
Qed.
Print Assumptions C91_no_tree.

(** ** The plain claim is false: after b.Add(a), where b is below a, a is part of itself. *)
Lemma ex_acyclic : acyclic ex_mem.
Proof.
  assert (D : forall x y, down ex_mem x y -> (x < y)%nat) by (intros x y (k & Hk); unfold kid, ex_mem in Hk; destruct x as [|[|[|x]]]; cbn in Hk; [destruct k as [|[|k]]|destruct k as [|[|k]]|destruct k|destruct x]; try discriminate Hk; injection Hk as <-; lia).
  assert (B : forall x y, below ex_mem x y -> (x <= y)%nat) by (intros x y H; induction H as [|x y z Hd _ IH]; [lia|apply D in Hd; lia]).
  intros x (y & Hd & Hb). apply D in Hd. apply B in Hb. lia.
Qed.
Theorem C91_refuted : exists h a n h' r, acyclic h /\ spread h n (nd "a" [nd "b" [nd "c" []]]) [0; 1; 2]%nat /\ hAdd (Some a) (VPtr (Some n)) h = (h', Ok r) /\ endless h' n /\ forall f r', snd (hClone f (Some n) h') <> Ok r'.
Proof.
  exists ex_mem, 1%nat, 0%nat. eexists. eexists. split; [exact ex_acyclic|]. split; [exact ex_mem_a|]. split; [reflexivity|].
  match goal with |- endless ?h _ /\ _ => assert (E : endless h 0%nat) end.
  { exists 0%nat. split; [constructor|]. exists 1%nat. split; [exists O; reflexivity|]. eapply rt1n_trans; [exists 1%nat; reflexivity|constructor]. }
  split; [exact E|]. apply C91_clone. exact E.
Qed.
Print Assumptions C91_refuted.
(** c.Add(b) on the other hand, c with no node below it that is above b: here a new node *)
Example C91_ex : exists h' r, hAdd (Some 3%nat) (VPtr (Some 0%nat)) (ex_mem ++ [{| c_this := VStr (bs "d"); c_out := [] |}]) = (h', Ok r) /\ acyclic h'.
Proof.
  eexists. eexists. split; [reflexivity|]. set (h := ex_mem ++ _). assert (H : acyclic h) by (apply leaf_acyclic, ex_acyclic).
  apply (C91_add h 3%nat {| c_this := VStr (bs "d"); c_out := [] |} (VPtr (Some 0%nat)) _ (Some 0%nat) H eq_refl eq_refl).
  assert (D : forall x y, down h x y -> (y < 3)%nat) by (intros x y (k & Hk); unfold kid, h, ex_mem in Hk; destruct x as [|[|[|[|x]]]]; cbn in Hk; [destruct k as [|[|k]]|destruct k as [|[|k]]|destruct k|destruct k|destruct x]; try discriminate Hk; injection Hk as <-; lia).
  intros B. assert (K : forall x y, below h x y -> x = y \/ (y < 3)%nat) by (intros x y HB; induction HB as [|x y z Hd _ IH]; [auto|destruct IH as [->|IH]; [right; eapply D; eauto|auto]]).
  destruct (K _ _ B); lia.
Qed.
