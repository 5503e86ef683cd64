(** C93: the node that Set returns. *)
From Verif Require Import Base Value Graph GraphSpec Heap HeapSpec HeapFacts RefineSpec RefineFacts Samples.
From Coq Require Import Lia Relation_Operators.

(** A node that was not there before, with the content [v] and without children, is a child of some node below [a] *)
Definition new_leaf (h h' : heap) (a : addr) (v : value addr) (b : addr) : Prop :=
  (List.length h <= b)%nat /\ nth_error h' b = Some {| c_this := v; c_out := [] |} /\ exists p, below h' a p /\ down h' p b.
(** The value becomes a node of its own: it is not nil and no graph, or the path has an index *)
Definition own_node (els : list helem) (v : value addr) : Prop := v <> VNil /\ (forall n, v <> VPtr (Some n)) \/ exists i, In (HIndex i) els.

Section S.
Variable E : env.

Lemma hstring_pure f : forall v h, fst (hstring E f v h) = h.
Proof.
  induction f as [|f IH]; intros v h; destruct v as [| | | | | | |[a|]| | |]; try reflexivity. cbn [hstring]. unfold mbind at 1, load at 1.
  destruct (nth_error h a) as [c|]; [|reflexivity]. destruct (c_out c) as [|[b|] o]; try reflexivity. unfold mbind, load. destruct (nth_error h b); [apply IH|reflexivity].
Qed.
Lemma hfind_pure f s : forall o (h h' : heap) r, hfind E f s o h = (h', Ok r) -> h' = h /\ match r with Some n => In (Some n) o /\ nth_error h n <> None | None => True end.
Proof.
  induction o as [|n o IH]; intros h h' r H; cbn [hfind] in H; [injection H as <- <-; auto|].
  destruct n as [n|]; [|discriminate]. unfold mbind, deref, ret, load in H. destruct (nth_error h n) as [e|] eqn:Ee; [|discriminate].
  pose proof (hstring_pure f (c_this e) h) as P. destruct (hstring E f (c_this e) h) as [h1 [t| |]]; try discriminate. cbn [fst] in P. subst h1.
  destruct (bseq s t); [injection H as <- <-; split; [reflexivity|split; [left; reflexivity|congruence]]|]. destruct (IH h h' r H) as (-> & K). split; [reflexivity|]. destruct r; [destruct K as (K1 & K2); split; [right; exact K1|exact K2]|exact I].
Qed.
Lemma hNode_pure f a s h h' r : hNode E f (Some a) s h = (h', Ok r) -> h' = h /\ match r with Some n => down h a n /\ nth_error h n <> None | None => True end.
Proof.
  unfold hNode, mbind, load. destruct (nth_error h a) as [c|] eqn:Ec; [|discriminate]. intro H. apply hfind_pure in H. destruct H as (-> & H). split; [reflexivity|].
  destruct r as [n|]; [|exact I]. destruct H as (H & Hn). split; [|exact Hn]. apply In_nth_error in H. destruct H as (k & H). exists k. unfold kid. rewrite Ec. exact H.
Qed.

(** The last node on the path that is there already *)
Lemma hset_walk f v : forall els (a : addr) (h h' : heap) r, nth_error h a <> None -> hset E f els a v h = (h', Ok r) ->
  exists q els', nth_error h q <> None /\ below h a q /\ hset_new els' q v h = (h', Ok r) /\ incl els' els /\ (exists done, els = done ++ els' /\ forall i, ~ In (HIndex i) done).
Proof.
  induction els as [|[s|i] els IH]; intros a h h' r Hin H.
  - exists a, []. split; [exact Hin|]. split; [constructor|]. split; [exact H|]. split; [apply incl_refl|]. exists []. auto.
  - cbn [hset] in H. unfold mbind at 1 in H. destruct (hNode E f (Some a) s h) as [h1 [[n|]| |]] eqn:En; try discriminate.
    + apply hNode_pure in En. destruct En as (-> & Hd & Hn0). destruct (IH n h h' r Hn0 H) as (q & els' & Hq & Hb & Hs & Hi & done & -> & Hn). exists q, els'. split; [exact Hq|]. split; [eapply rt1n_trans; eauto|]. split; [exact Hs|].
      split; [intros x Hx; right; apply Hi, Hx|]. exists (HName s :: done). split; [reflexivity|]. intros i [Hx|Hx]; [discriminate|exact (Hn i Hx)].
    + apply hNode_pure in En. destruct En as (-> & _). exists a, (HName s :: els). split; [exact Hin|]. split; [constructor|]. split; [exact H|]. split; [apply incl_refl|]. exists []. auto.
  - exists a, (HIndex i :: els). split; [exact Hin|]. split; [constructor|]. split; [exact H|]. split; [apply incl_refl|]. exists []. auto.
Qed.

Lemma put_at_in o i n : In n (put_at o i n).
Proof. revert o. induction i as [|i IH]; intros [|c o]; cbn; auto. Qed.

(** A new node [d] as a child of [q] *)
Lemma grow (h : heap) q c d o : nth_error h q = Some c -> In (Some (List.length h)) o -> let h1 := set_cell (h ++ [d]) q {| c_this := c_this c; c_out := o |} in
  List.length h1 = S (List.length h) /\ (forall x, (x < List.length h)%nat -> x <> q -> nth_error h1 x = nth_error h x) /\
  nth_error h1 (List.length h) = Some d /\ down h1 q (List.length h) /\ nth_error h1 q = Some {| c_this := c_this c; c_out := o |}.
Proof.
  intros Hq Hi h1. pose proof (nth_some_lt _ _ _ Hq) as Hl. unfold h1. split; [rewrite set_cell_length, app_length; cbn; lia|].
  split; [intros x Hx Hne; rewrite set_cell_other by exact Hne; apply nth_error_app1, Hx|].
  split; [rewrite set_cell_other by lia; rewrite nth_error_app2, Nat.sub_diag by lia; reflexivity|].
  assert (Hs : nth_error (set_cell (h ++ [d]) q {| c_this := c_this c; c_out := o |}) q = Some {| c_this := c_this c; c_out := o |}) by (apply set_cell_same; rewrite app_length; lia).
  split; [|exact Hs]. apply In_nth_error in Hi. destruct Hi as (k & Hk). exists k. unfold kid. rewrite Hs. exact Hk.
Qed.
Lemma set_out_at (h : heap) (q : addr) c o : nth_error h q = Some c -> set_out q o h = (set_cell h q {| c_this := c_this c; c_out := o |}, Ok tt).
Proof. intro H. unfold set_out, mbind, load, store. rewrite H. reflexivity. Qed.
Lemma set_twice h q c d : set_cell (set_cell h q c) q d = set_cell h q d.
Proof. revert q. induction h as [|x h IH]; intros [|q]; cbn; [reflexivity|reflexivity|reflexivity|rewrite IH; reflexivity]. Qed.
Lemma set_app h x q c : (q < List.length h)%nat -> set_cell h q c ++ [x] = set_cell (h ++ [x]) q c.
Proof. revert q. induction h as [|y h IH]; intros [|q] H; cbn in *; [lia|lia|reflexivity|rewrite IH by lia; reflexivity]. Qed.

(** adding below the last node that is there *)
Lemma hset_new_leaf v : forall els (q : addr) (h h' : heap) r, nth_error h q <> None -> own_node els v -> hset_new els q v h = (h', Ok r) ->
  (exists b, r = Some b /\ new_leaf h h' q v b) /\ (forall x, (x < List.length h)%nat -> x <> q -> nth_error h' x = nth_error h x) /\ (List.length h <= List.length h')%nat.
Proof.
  induction els as [|[s|i] els IH]; intros q h h' r Hin Ho H; (destruct (nth_error h q) as [c|] eqn:Eq; [|congruence]); clear Hin; pose proof (nth_some_lt _ _ _ Eq) as Hl.
  - destruct Ho as [(Hv1 & Hv2)|(i & [])]. cbn [hset_new] in H. unfold hset_here in H. unfold mbind at 1 in H.
    rewrite (set_out_at h q c [] Eq) in H.
    set (h0 := set_cell h q {| c_this := c_this c; c_out := [] |}) in *.
    assert (H0 : nth_error h0 q = Some {| c_this := c_this c; c_out := [] |}) by (apply set_cell_same; exact Hl). assert (L0 : List.length h0 = List.length h) by apply set_cell_length.
    assert (K : haddNodes (Some q) v h0 = (set_cell (h0 ++ [{| c_this := v; c_out := [] |}]) q {| c_this := c_this c; c_out := [Some (List.length h0)] |}, Ok (Some (List.length h0)))).
    { assert (G : (do n <- alloc {| c_this := v; c_out := [] |}; do c <- load q; do _ <- set_out q (c_out c ++ [Some n]); ret (Some n)) h0 = (set_cell (h0 ++ [{| c_this := v; c_out := [] |}]) q {| c_this := c_this c; c_out := [Some (List.length h0)] |}, Ok (Some (List.length h0)))).
      { unfold mbind at 1, alloc. assert (H1 : nth_error (h0 ++ [{| c_this := v; c_out := [] |}]) q = Some {| c_this := c_this c; c_out := [] |}) by (rewrite nth_error_app1 by lia; exact H0).
        unfold mbind at 1, load at 1. rewrite H1. cbn [c_out app]. unfold mbind. rewrite (set_out_at _ q _ _ H1). reflexivity. }
      destruct v as [| | | | | | |[m|]| | |]; try exact G; [congruence|exfalso; exact (Hv2 m eq_refl)]. }
    rewrite K in H. injection H as <- <-. destruct (grow h0 q _ {| c_this := v; c_out := [] |} [Some (List.length h0)] H0 (or_introl eq_refl)) as (G1 & G2 & G3 & G4 & _). cbn [c_this] in *.
    split; [|split; [|rewrite G1; lia]].
    + exists (List.length h0). split; [reflexivity|]. split; [lia|]. split; [exact G3|]. exists q. split; [constructor|exact G4].
    + intros x Hx Hne. rewrite G2 by (try lia; exact Hne). unfold h0. apply set_cell_other, Hne.
  - cbn [hset_new] in H. set (d := {| c_this := VStr s; c_out := [] |}) in *. set (h1 := set_cell (h ++ [d]) q {| c_this := c_this c; c_out := c_out c ++ [Some (List.length h)] |}).
    assert (K : hAdd (Some q) (VStr s) h = (h1, Ok (Some (List.length h)))).
    { cbn [hAdd]. unfold mbind at 1, alloc. assert (H1 : nth_error (h ++ [d]) q = Some c) by (rewrite nth_error_app1 by lia; exact Eq).
      unfold mbind at 1, load at 1. fold d. rewrite H1. unfold mbind. rewrite (set_out_at _ q _ _ H1). reflexivity. }
    unfold mbind at 1 in H. rewrite K in H. unfold mbind, deref, ret in H.
    destruct (grow h q c d (c_out c ++ [Some (List.length h)]) Eq) as (G1 & G2 & G3 & G4 & G5); [apply in_or_app; right; left; reflexivity|]. fold h1 in G1, G2, G3, G4, G5.
    assert (Ho' : own_node els v) by (destruct Ho as [Ho|(i & [Hi|Hi])]; [left; exact Ho|discriminate|right; eauto]).
    destruct (IH (List.length h) h1 h' r) as ((b & -> & Hb1 & Hb2 & p & Hp1 & Hp2) & Hf & Hlen); [congruence|exact Ho'|exact H|].
    assert (Dq : down h' q (List.length h)).
    { destruct G4 as (k & Hk). exists k. unfold kid in *. rewrite Hf by lia. exact Hk. }
    split; [|split; [|lia]].
    + exists b. split; [reflexivity|]. split; [lia|]. split; [exact Hb2|]. exists p. split; [eapply rt1n_trans; eauto|exact Hp2].
    + intros x Hx Hne. rewrite Hf by lia. apply G2; assumption.
  - cbn [hset_new] in H. unfold hset_index in H. destruct (i <? 0); [discriminate|]. set (d := {| c_this := v; c_out := [] |}) in *.
    assert (H1 : nth_error (h ++ [d]) q = Some c) by (rewrite nth_error_app1 by lia; exact Eq).
    unfold mbind at 1, alloc in H. unfold mbind at 1, load at 1 in H. rewrite H1 in H. unfold mbind in H. rewrite (set_out_at _ q _ _ H1) in H. injection H as <- <-.
    destruct (grow h q c d (put_at (c_out c) (Z.to_nat i) (Some (List.length h))) Eq (put_at_in _ _ _)) as (G1 & G2 & G3 & G4 & _).
    split; [|split; [exact G2|rewrite set_cell_length, app_length; cbn [List.length]; lia]]. exists (List.length h). split; [reflexivity|]. split; [lia|]. split; [exact G3|]. exists q. split; [constructor|exact G4].
Qed.

Lemma below_kept (h h' : heap) a q : (forall x, (x < List.length h)%nat -> x <> q -> nth_error h' x = nth_error h x) -> below h a q -> below h' a q.
Proof.
  intros Hf H. induction H as [|x y z Hd _ IH]; [constructor|]. destruct (Nat.eq_dec x z) as [->|Hne]; [constructor|]. eapply rt1n_trans; [|apply IH, Hf].
  destruct Hd as (k & Hk). exists k. unfold kid in *. destruct (nth_error h x) as [c|] eqn:Ex; [|discriminate]. rewrite Hf, Ex; [exact Hk|exact (nth_some_lt _ _ _ Ex)|exact Hne].
Qed.

(** A graph: the names lead somewhere, and the graph itself is returned *)
Lemma hset_new_graph n : forall els (q : addr) (h h' : heap) r, (forall i, ~ In (HIndex i) els) -> hset_new els q (VPtr (Some n)) h = (h', Ok r) -> r = Some n.
Proof.
  induction els as [|[s|i] els IH]; intros q h h' r Hi H; [| |exfalso; exact (Hi i (or_introl eq_refl))].
  - cbn [hset_new] in H. unfold hset_here, haddNodes, mbind, ret in H. destruct (set_out q [] h) as [h1 [x| |]]; try discriminate.
    destruct (load q h1) as [h2 [c| |]]; try discriminate. destruct (load n h2) as [h3 [d| |]]; try discriminate. destruct (set_out q _ h3) as [h4 [y| |]]; try discriminate. congruence.
  - cbn [hset_new] in H. unfold mbind at 1 in H. destruct (hAdd (Some q) (VStr s) h) as [h1 [[m|]| |]]; try discriminate. unfold mbind, deref, ret in H. eapply IH; [|exact H]. intros i Hx. exact (Hi i (or_intror Hx)).
Qed.
Lemma hset_new_nil : forall els (q : addr) (h h' : heap) r, (forall i, ~ In (HIndex i) els) -> hset_new els q VNil h = (h', Ok r) -> r = None.
Proof.
  induction els as [|[s|i] els IH]; intros q h h' r Hi H; [| |exfalso; exact (Hi i (or_introl eq_refl))].
  - cbn [hset_new] in H. unfold hset_here, haddNodes, mbind, ret in H. destruct (set_out q [] h) as [h1 [x| |]]; try discriminate. congruence.
  - cbn [hset_new] in H. unfold mbind at 1 in H. destruct (hAdd (Some q) (VStr s) h) as [h1 [[m|]| |]]; try discriminate. unfold mbind, deref, ret in H. eapply IH; [|exact H]. intros i Hx. exact (Hi i (or_intror Hx)).
Qed.
End S.

(** ** C93 Set returns a new node with the value, which is part of the graph.  Full claim: all values.  Here: values that are neither
    nil nor graphs, or paths with an index; memory in any shape. *)
Theorem C93_own_partial : forall E f (h : heap) (a : addr) els v h' r, nth_error h a <> None -> own_node els v -> hSet E f (Some a) els v h = (h', Ok r) -> exists b, r = Some b /\ new_leaf h h' a v b.
Proof.
  intros E f h a els v h' r Ha Ho H. destruct (hset_walk E f v els a h h' r Ha H) as (q & els' & Hq & Hb & Hs & _ & done & -> & Hd).
  assert (Ho' : own_node els' v). { destruct Ho as [Ho|(i & Hi)]; [left; exact Ho|]. apply in_app_or in Hi. destruct Hi as [Hi|Hi]; [destruct (Hd i Hi)|right; eauto]. }
  destruct (hset_new_leaf v els' q h h' r Hq Ho' Hs) as ((b & -> & H1 & H2 & p & Hp1 & Hp2) & Hf & _). exists b. split; [reflexivity|]. split; [exact H1|]. split; [exact H2|]. exists p. split; [|exact Hp2].
  pose proof (below_kept h h' a q Hf Hb) as K. clear - K Hp1. revert Hp1. induction K as [|x y z Hd _ IH]; intro Hp1; [exact Hp1|]. eapply rt1n_trans; [exact Hd|exact (IH Hp1)].
Qed.
Print Assumptions C93_own_partial.
(** What is returned for a graph is that graph, and nil for nil *)
Theorem C93_graph : forall E f (h : heap) (a : addr) els n h' r, nth_error h a <> None -> (forall i, ~ In (HIndex i) els) -> hSet E f (Some a) els (VPtr (Some n)) h = (h', Ok r) -> r = Some n.
Proof.
  intros E f h a els n h' r Ha Hi H. destruct (hset_walk E f _ els a h h' r Ha H) as (q & els' & _ & _ & Hs & Hin & _). eapply hset_new_graph; [|exact Hs]. intros i Hx. exact (Hi i (Hin _ Hx)).
Qed.
Print Assumptions C93_graph.
Theorem C93_nil : forall E f (h : heap) (a : addr) els h' r, nth_error h a <> None -> (forall i, ~ In (HIndex i) els) -> hSet E f (Some a) els VNil h = (h', Ok r) -> r = None.
Proof.
  intros E f h a els h' r Ha Hi H. destruct (hset_walk E f _ els a h h' r Ha H) as (q & els' & _ & _ & Hs & Hin & _). eapply hset_new_nil; [|exact Hs]. intros i Hx. exact (Hi i (Hin _ Hx)).
Qed.
Print Assumptions C93_nil.

(** The graph r: a, and beside it the graph n: x *)
Definition ex_h : heap := [{| c_this := VStr (bs "r"); c_out := [Some 1%nat] |}; {| c_this := VStr (bs "a"); c_out := [] |};
  {| c_this := VStr (bs "n"); c_out := [Some 3%nat] |}; {| c_this := VStr (bs "x"); c_out := [] |}].
Example C93_ex : own_node [HName (bs "a"); HName (bs "b")] (VBool true) /\
  exists h', hSet env0 5 (Some 0%nat) [HName (bs "a"); HName (bs "b")] (VBool true) ex_h = (h', Ok (Some 5%nat)) /\ shows h' 0%nat (nd "r" [nd "a" [nd "b" [Node (VBool true) []]]]) /\ new_leaf ex_h h' 0%nat (VBool true) 5%nat.
Proof.
  assert (Ho : own_node [HName (bs "a"); HName (bs "b")] (VBool true)) by (left; split; [discriminate|intros; discriminate]). split; [exact Ho|].
  eexists. assert (H : hSet env0 5 (Some 0%nat) [HName (bs "a"); HName (bs "b")] (VBool true) ex_h = (_, Ok (Some 5%nat))) by (vm_compute; reflexivity). split; [exact H|].
  split; [repeat (econstructor; try reflexivity)|]. destruct (C93_own_partial env0 5 ex_h 0%nat _ _ _ _ ltac:(discriminate) Ho H) as (b & Eb & K). injection Eb as <-. exact K.
Qed.
(** For a graph the returned node is not part of the receiver: what is added to it is not seen there *)
Theorem C93_graph_refuted : exists h' h'' r, shows ex_h 0%nat (nd "r" [nd "a" []]) /\ hSet env0 5 (Some 0%nat) [HName (bs "a")] (VPtr (Some 2%nat)) ex_h = (h', Ok (Some 2%nat)) /\
  shows h' 0%nat (nd "r" [nd "a" [nd "x" []]]) /\ hAdd (Some 2%nat) (VStr (bs "y")) h' = (h'', Ok r) /\ shows h'' 0%nat (nd "r" [nd "a" [nd "x" []]]).
Proof.
  eexists. eexists. eexists. split; [repeat (econstructor; try reflexivity)|]. split; [vm_compute; reflexivity|]. split; [repeat (econstructor; try reflexivity)|].
  split; [vm_compute; reflexivity|]. repeat (econstructor; try reflexivity).
Qed.
Print Assumptions C93_graph_refuted.
