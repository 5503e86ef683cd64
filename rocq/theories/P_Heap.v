(** C27, C58: copies and shared nodes. *)
From Verif Require Import Base Value Graph Heap HeapSpec HeapFacts Samples.
From Coq Require Import Lia Relation_Operators.

(** ** C27 Clone *)

(** The copy shows the graph that the original shows; it consists of new nodes; no old node was
    touched. *)
Theorem C27_clone : forall f h a g, shows h a g -> (levels g <= f)%nat ->
  exists h' b, hClone f (Some a) h = (h', Ok (Some b)) /\ shows h' b g /\ shows h' a g /\
    (forall x, below h' b x -> List.length h <= x < List.length h')%nat /\
    (forall x, (x < List.length h)%nat -> nth_error h' x = nth_error h x).
Proof.
  intros f h a g S L. destruct (clone_spec f h a g S L) as (h' & b & Q & C). exists h', b.
  assert (Old := cl_old _ _ _ _ _ C).
  assert (SG := cl_shows _ _ _ _ _ C).
  split; [exact Q|split; [exact SG|split; [|split; [|exact Old]]]].
  - apply (shows_same h); auto. intros x R. apply Old. eapply shows_reach_lt; eauto.
  - intros x B. split.
    + pose proof (cl_new _ _ _ _ _ C) as [N _]. pose proof (cl_cells _ _ _ _ _ C) as Ce. clear - B N Ce.
      induction B as [b|b y x D B IH]; auto. apply IH.
      destruct D as (k & K). unfold kid in K. destruct (nth_error h' b) as [c|] eqn:G; [|discriminate].
      destruct (Ce b c N G) as [Kc _]. apply Kc. eapply nth_error_In; eauto.
    + apply (shows_reach_lt h' b g); auto. clear - B. induction B as [b|b y x D B IH]. apply reach_refl.
      eapply reach_step; eauto. left. auto.
Qed.
Print Assumptions C27_clone.

(** From then on the two are independent, if no node of the graph has a graph as its content: whatever is
    done with nodes that are not the original's leaves the original as it was, whatever is done with nodes that are
    not the copy's leaves the copy as it was; the copy has no node of the original, and nothing that was
    there before leads to a node of the copy.
    Full statement: the same without [no_inside].  False: see [C27_contents_refuted]. *)
Theorem C27_independent_partial : forall E f h a g h' b, shows h a g -> no_inside h a -> (levels g <= f)%nat ->
  hClone f (Some a) h = (h', Ok (Some b)) ->
  apart h' b a /\
  (forall y, (forall x, reach h y x -> (x < List.length h)%nat) -> apart h' y b) /\
  (forall f' ops e, away h' e a -> shows (fst (run E f' ops h' e)) a g) /\
  (forall f' ops e, away h' e b -> shows (fst (run E f' ops h' e)) b g).
Proof.
  intros E f h a g h' b S NI L Q. destruct (clone_spec f h a g S L) as (h2 & b2 & Q2 & C).
  rewrite Q2 in Q. injection Q as -> ->.
  assert (Old := cl_old _ _ _ _ _ C). assert (SG := cl_shows _ _ _ _ _ C). assert (Lt := shows_reach_lt _ _ _ S).
  assert (Sa : shows h' a g) by (apply (shows_same h); auto).
  assert (New : forall x, reach h' b x -> (List.length h <= x)%nat).
  { intros x R. refine (reach_closed h' (fun x => (List.length h <= x)%nat) _ b x R (proj1 (cl_new _ _ _ _ _ C))).
    intros u w Lu B. apply edge_cell in B. destruct B as (c & G & B).
    destruct (cl_cells _ _ _ _ _ C u c Lu G) as (K & w0 & cw & W & Gw & V). destruct B as [B|B]; auto.
    exfalso. apply (NI w0 w W). exists cw. split; auto. congruence. }
  assert (P : forall y, (forall x, reach h y x -> (x < List.length h)%nat) -> apart h' y b).
  { intros y Ly x R1 R2. apply New in R2. apply (reach_same h h' y) in R1; auto. apply Ly in R1. lia. }
  split; [|split; [exact P|split]].
  - intros x R1 R2. exact (P a Lt x R2 R1).
  - intros f' ops e A. pose proof (run_frame E f' ops h' e a A (shows_reach_lt _ _ _ Sa)) as F.
    destruct (run E f' ops h' e) as [h3 e3]. cbn. apply (shows_same h'); auto. apply F.
  - intros f' ops e A. pose proof (run_frame E f' ops h' e b A (shows_reach_lt _ _ _ SG)) as F.
    destruct (run E f' ops h' e) as [h3 e3]. cbn. apply (shows_same h'); auto. apply F.
Qed.
Print Assumptions C27_independent_partial.

Definition leaf_cell (s : bytes) : cell := {| c_this := VStr s; c_out := [] |}.
(** r with the children x and y, x with the child z *)
Definition ex_heap : heap :=
  [ {| c_this := VStr (bs "r"); c_out := [Some 1; Some 2]%nat |};
    {| c_this := VStr (bs "x"); c_out := [Some 3]%nat |};
    leaf_cell (bs "y"); leaf_cell (bs "z") ].
Definition ex_graph : graph := nd "r" [nd "x" [nd "z" []]; nd "y" []].
Lemma ex_shows : shows ex_heap 0%nat ex_graph.
Proof.
  assert (Sv : forall s, shows_value ex_heap (VStr s) (VStr s)) by (intros s; apply sv_plain; reflexivity).
  assert (Z3 : shows ex_heap 3%nat (nd "z" [])) by (eapply shows_node; [reflexivity|apply Sv|apply sk_nil]).
  assert (Z2 : shows ex_heap 2%nat (nd "y" [])) by (eapply shows_node; [reflexivity|apply Sv|apply sk_nil]).
  assert (Z1 : shows ex_heap 1%nat (nd "x" [nd "z" []])) by (eapply shows_node; [reflexivity|apply Sv|apply sk_some; [exact Z3|apply sk_nil]]).
  eapply shows_node; [reflexivity|apply Sv|]. apply sk_some; [exact Z1|]. apply sk_some; [exact Z2|apply sk_nil].
Qed.
Lemma ex_no_inside : no_inside ex_heap 0%nat.
Proof.
  intros x y _ (c & G & V). do 4 (destruct x as [|x]; [injection G as <-; discriminate|]). destruct x; discriminate.
Qed.
Definition ex_cloned : heap := ex_heap ++
  [ {| c_this := VStr (bs "r"); c_out := [Some 5; Some 7]%nat |};
    {| c_this := VStr (bs "x"); c_out := [Some 6]%nat |}; leaf_cell (bs "z"); leaf_cell (bs "y") ].
Example C27_clone_ex : hClone 3 (Some 0%nat) ex_heap = (ex_cloned, Ok (Some 4%nat)).
Proof. reflexivity. Qed.
(** the copy is emptied and the original, held too, gets another child: each shows what was done to it *)
Example C27_independent_ex : forall E,
  let ops := [OSet 0 [HName (bs "x")] (VStr (bs "new")); OClear 0; OSetThis 0 (VStr (bs "other"))]%nat in
  shows (fst (run E 3 ops ex_cloned [Some 4%nat])) 0%nat ex_graph /\
  shows (fst (run E 3 ops ex_cloned [Some 0%nat])) 4%nat ex_graph /\
  nth_error (fst (run E 3 ops ex_cloned [Some 4%nat])) 4%nat = Some (leaf_cell (bs "other")).
Proof.
  intros E ops.
  destruct (C27_independent_partial E 3 ex_heap 0%nat ex_graph ex_cloned 4%nat ex_shows ex_no_inside (le_n _) eq_refl) as (A & P & I1 & I2).
  split; [|split; [|reflexivity]].
  - apply I1. intros [|i] x V; [injection V as <-; exact A|destruct i; discriminate].
  - apply I2. intros [|i] x V; [|destruct i; discriminate]. injection V as <-. apply P. apply (shows_reach_lt _ _ _ ex_shows).
Qed.

(** A graph that is the content of a node is not copied: what is added to it through the copy is seen
    through the original. *)
Theorem C27_contents_refuted : exists E h a g h' b ops g',
  shows h a g /\ hClone 2 (Some a) h = (h', Ok (Some b)) /\ (* the caller holds the copy only *)
  shows (fst (run E 2 ops h' [Some b])) a g' /\ g' <> g.
Proof.
  set (h := [ {| c_this := VPtr (Some 1%nat); c_out := [] |}; leaf_cell (bs "x") ]).
  exists env0, h, 0%nat, (Node (VPtr (Some (nd "x" []))) []),
    (h ++ [ {| c_this := VPtr (Some 1%nat); c_out := [] |} ]), 2%nat,
    [OThis 0; OAdd 1 (VStr (bs "y"))]%nat, (Node (VPtr (Some (nd "x" [nd "y" []]))) []).
  split; [|split; [reflexivity|split; [|discriminate]]].
  - eapply shows_node; [reflexivity| |apply sk_nil]. apply sv_graph. eapply shows_node; [reflexivity|apply sv_plain; reflexivity|apply sk_nil].
  - eapply shows_node; [reflexivity| |apply sk_nil]. apply sv_graph. eapply shows_node; [reflexivity|apply sv_plain; reflexivity|].
    apply sk_some; [|apply sk_nil]. eapply shows_node; [reflexivity|apply sv_plain; reflexivity|apply sk_nil].
Qed.
Print Assumptions C27_contents_refuted.

(** ** C58 Sharing *)

(** A caller that holds nothing leading to a node of [a] cannot change what [a] shows, by any sequence
    of operations (also ones that panic half way), and still holds nothing of it afterwards. *)
Theorem C58_separate : forall E f ops h e a g, shows h a g -> away h e a ->
  let (h', e') := run E f ops h e in
  shows h' a g /\ away h' e' a /\ forall x, reach h a x -> nth_error h' x = nth_error h x.
Proof.
  intros E f ops h e a g S A. pose proof (run_frame E f ops h e a A (shows_reach_lt _ _ _ S)) as F.
  destruct (run E f ops h e) as [h' e']. destruct F as [F1 F2]. split; [|split; auto]. apply (shows_same h); auto.
Qed.
Print Assumptions C58_separate.

(** two graphs, and operations of all sorts on the second *)
Definition ex_two : heap := ex_heap ++ [ {| c_this := VStr (bs "s"); c_out := [Some 5]%nat |}; leaf_cell (bs "x") ].
Lemma ex_two_shows : shows ex_two 0%nat ex_graph.
Proof.
  apply (shows_same ex_heap). exact ex_shows. intros x R. apply (shows_reach_lt _ _ _ ex_shows) in R.
  unfold ex_two. apply nth_error_app1. exact R.
Qed.
Ltac near := repeat match goal with
  | H : _ \/ _ |- _ => destruct H
  | H : False |- _ => destruct H
  | H : Some _ = Some _ |- _ => injection H as <-
  | H : _ = VPtr _ |- _ => discriminate H
  end; lia.
Lemma ex_two_away : away ex_two [Some 4%nat] 0%nat.
Proof.
  intros [|i] x V; [injection V as <-|destruct i; discriminate]. intros x R1 R2.
  assert (x < 4)%nat.
  { refine (reach_closed ex_two (fun x => (x < 4)%nat) _ 0%nat x R2 _); [|lia]. intros u w Lu B. apply edge_cell in B.
    destruct B as (c & G & B). do 4 (destruct u as [|u]; [injection G as <-; cbn in B; near|]). lia. }
  assert (4 <= x)%nat; [|lia].
  refine (reach_closed ex_two (fun x => (4 <= x)%nat) _ 4%nat x R1 _); [|lia]. intros u w Lu B. apply edge_cell in B.
  destruct B as (c & G & B). do 4 (destruct u as [|u]; [lia|]).
  do 2 (destruct u as [|u]; [injection G as <-; cbn in B; near|]).
  destruct u; discriminate.
Qed.
Example C58_separate_ex : forall E,
  let ops := [OAdd 0 (VStr (bs "t")); OMerge 1 0; OSubstitute 0 (bs "x") (VPtr (Some 0)); OCopy 0 0; ODelete 0 (VPtr (Some 0))]%nat in
  shows (fst (run E 9 ops ex_two [Some 4%nat])) 0%nat ex_graph.
Proof.
  intros E ops. pose proof (C58_separate E 9 ops ex_two [Some 4%nat] 0%nat ex_graph ex_two_shows ex_two_away) as H.
  destruct (run E 9 ops ex_two [Some 4%nat]) as [h' e']. exact (proj1 H).
Qed.

(** Add(node) appends the node itself: it becomes a child of [a] and nothing else changes. *)
Theorem C58_add : forall h a n c, nth_error h a = Some c ->
  exists h', hAdd (Some a) (VPtr (Some n)) h = (h', Ok (Some n)) /\
    kids h' a = Some (c_out c ++ [Some n]) /\ only_kids h h' a /\ List.length h' = List.length h.
Proof.
  intros h a n c G. exists (set_cell h a {| c_this := c_this c; c_out := c_out c ++ [Some n] |}). split.
  - unfold hAdd. rewrite (mbind_ok _ _ _ _ _ _ _ (load_ok _ _ _ G)). rewrite (mbind_ok _ _ _ _ _ _ _ (set_out_ok _ _ _ _ G)). auto.
  - unfold kids, only_kids. rewrite set_cell_length, set_cell_same by (eapply nth_some_lt; eauto). split; auto. split; auto. split.
    + intros x N _. apply set_cell_other; auto.
    + intros c' G'. assert (c' = c) by congruence. subst. eexists. split; eauto.
Qed.
Print Assumptions C58_add.

(** So whatever is done afterwards through [n] is visible through [a], by a caller that holds nothing leading
    back to [a]: there [a] shows at that place what [n] shows. *)
Theorem C58_add_visible : forall E f ops h a n c h1 e, nth_error h a = Some c ->
  hAdd (Some a) (VPtr (Some n)) h = (h1, Ok (Some n)) -> (forall i x, var e i = Some x -> ~ reach h1 x a) ->
  let h2 := fst (run E f ops h1 e) in
  forall ga gn, shows h2 a ga -> shows h2 n gn -> nth_error (out ga) (List.length (c_out c)) = Some (Some gn).
Proof.
  intros E f ops h a n c h1 e G Q N h2 ga gn Sa Sn.
  destruct (C58_add h a n c G) as (h1' & Q' & K & _ & Ln). rewrite Q' in Q. injection Q as ->.
  assert (La : (a < List.length h1)%nat) by (rewrite Ln; eapply nth_some_lt; eauto).
  pose proof (run_outside E f ops h1 e a La N) as U. fold h2 in U.
  unfold kids in K. rewrite <- U in K. inversion Sa as [a' c' v o G' V K']; subst. rewrite G' in K. injection K as K. rewrite K in K'.
  destruct (shows_kids_nth _ _ _ K' (List.length (c_out c)) n) as (g & Ng & Sg).
  - rewrite nth_error_app2, Nat.sub_diag by lia. auto.
  - cbn. rewrite Ng, (shows_fun _ _ _ _ Sn Sg). auto.
Qed.
Print Assumptions C58_add_visible.
(** y is added to s, then gets a child of its own *)
Example C58_add_ex : forall E,
  let h1 := set_cell ex_two 4%nat {| c_this := VStr (bs "s"); c_out := [Some 5; Some 2]%nat |} in
  hAdd (Some 4%nat) (VPtr (Some 2%nat)) ex_two = (h1, Ok (Some 2%nat)) /\
  shows (fst (run E 3 [OAdd 0 (VStr (bs "k"))]%nat h1 [Some 2%nat])) 4%nat (nd "s" [nd "x" []; nd "y" [nd "k" []]]).
Proof.
  intros E h1. split. reflexivity.
  eapply shows_node; [reflexivity|apply sv_plain; reflexivity|].
  apply sk_some; [eapply shows_node; [reflexivity|apply sv_plain; reflexivity|apply sk_nil]|].
  apply sk_some; [|apply sk_nil]. eapply shows_node; [reflexivity|apply sv_plain; reflexivity|].
  apply sk_some; [|apply sk_nil]. eapply shows_node; [reflexivity|apply sv_plain; reflexivity|apply sk_nil].
Qed.

(** AddNodes appends the children of the other graph themselves. *)
Theorem C58_addnodes : forall h a b c d, nth_error h a = Some c -> nth_error h b = Some d ->
  exists h', hAddNodes (Some a) (Some b) h = (h', Ok (Some a)) /\
    kids h' a = Some (c_out c ++ c_out d) /\ only_kids h h' a /\ List.length h' = List.length h.
Proof.
  intros h a b c d G G2. exists (set_cell h a {| c_this := c_this c; c_out := c_out c ++ c_out d |}). split.
  - unfold hAddNodes. rewrite (mbind_ok _ _ _ _ _ _ _ (load_ok _ _ _ G)), (mbind_ok _ _ _ _ _ _ _ (load_ok _ _ _ G2)).
    rewrite (mbind_ok _ _ _ _ _ _ _ (set_out_ok _ _ _ _ G)). auto.
  - unfold kids, only_kids. rewrite set_cell_length, set_cell_same by (eapply nth_some_lt; eauto). split; auto. split; auto. split.
    + intros x N _. apply set_cell_other; auto.
    + intros c' G'. assert (c' = c) by congruence. subst. eexists. split; eauto.
Qed.
Print Assumptions C58_addnodes.
Example C58_addnodes_ex : exists h', hAddNodes (Some 4%nat) (Some 0%nat) ex_two = (h', Ok (Some 4%nat)) /\
  kids h' 4%nat = Some [Some 5; Some 1; Some 2]%nat.
Proof. eexists. split; reflexivity. Qed.

(** Assigning the graph [n] at a path that is there: the node at the path gets the children of [n] themselves,
    not [n].  The node must not be [n] itself. *)
Theorem C58_assign_partial : forall E f h a ss m n cn cm, leads h a ss m -> nth_error h m = Some cm -> nth_error h n = Some cn -> m <> n ->
  exists h', hset E f (map HName ss) a (VPtr (Some n)) h = (h', Ok (Some n)) /\
    kids h' m = Some (c_out cn) /\ kids h' n = Some (c_out cn) /\ only_kids h h' m.
Proof.
  intros E f h a ss m n cn cm R Gm Gn N.
  assert (L : (m < List.length h)%nat) by (eapply nth_some_lt; eauto).
  exists (set_cell (set_cell h m {| c_this := c_this cm; c_out := [] |}) m {| c_this := c_this cm; c_out := c_out cn |}).
  set (h1 := set_cell h m {| c_this := c_this cm; c_out := [] |}).
  assert (G1 : nth_error h1 m = Some {| c_this := c_this cm; c_out := [] |}) by (apply set_cell_same; auto).
  assert (G2 : nth_error h1 n = Some cn) by (unfold h1; rewrite set_cell_other by auto; auto).
  assert (L1 : (m < List.length h1)%nat) by (unfold h1; rewrite set_cell_length; auto).
  split; [|unfold kids, only_kids; rewrite set_cell_same, set_cell_other, G2 by auto; split; [auto|split; [auto|split]]].
  - rewrite <- (app_nil_r (map HName ss)), (hset_leads E f h a ss m R). cbn [hset]. unfold hset_here.
    rewrite (mbind_ok _ _ _ _ _ _ _ (set_out_ok _ _ _ _ Gm)). fold h1. unfold haddNodes.
    rewrite (mbind_ok _ _ _ _ _ _ _ (load_ok _ _ _ G1)), (mbind_ok _ _ _ _ _ _ _ (load_ok _ _ _ G2)). cbn [c_out app].
    rewrite (mbind_ok _ _ _ _ _ _ _ (set_out_ok _ _ _ _ G1)). auto.
  - intros x Nx _. unfold h1. rewrite !set_cell_other by auto. auto.
  - intros c' G'. assert (c' = cm) by congruence. subst. eexists. split; eauto.
Qed.
Print Assumptions C58_assign_partial.
Example C58_assign_ex : exists h', hset env0 1 [HName (bs "x")] 0%nat (VPtr (Some 4%nat)) ex_two = (h', Ok (Some 4%nat)) /\
  leads ex_two 0%nat [bs "x"] 1%nat /\ kids h' 1%nat = Some [Some 5%nat] /\ kids h' 4%nat = Some [Some 5%nat].
Proof.
  eexists. split; [reflexivity|]. split; [|split; reflexivity]. eapply leads_step; [|apply leads_here].
  exists {| c_this := VStr (bs "r"); c_out := [Some 1; Some 2]%nat |}, [], [Some 2%nat].
  split; [reflexivity|]. split; [reflexivity|]. split; [|constructor]. do 2 eexists. split; [reflexivity|]. split; reflexivity.
Qed.

(** ... and where the last name is missing: a new node with that name is added, and it has the children that
    [n] has then. *)
Theorem C58_assign_new : forall E f h a ss p s n cp cn, leads h a ss p -> no_kid h p s -> nth_error h p = Some cp -> nth_error h n = Some cn ->
  exists h' m, hset E f (map HName (ss ++ [s])) a (VPtr (Some n)) h = (h', Ok (Some n)) /\
    m = List.length h /\ text_at h' (Some m) s /\
    kids h' p = Some (c_out cp ++ [Some m]) /\ kids h' m = kids h' n /\ only_kids h h' p.
Proof.
  intros E f h a ss p s n cp cn R NK Gp Gn.
  assert (Lp : (p < List.length h)%nat) by (eapply nth_some_lt; eauto).
  assert (Ln : (n < List.length h)%nat) by (eapply nth_some_lt; eauto).
  set (m := List.length h).
  set (h0 := h ++ [{| c_this := VStr s; c_out := [] |}] : heap).
  assert (Lh0 : List.length h0 = Datatypes.S m) by (unfold h0; rewrite app_length; cbn; fold m; lia).
  assert (G0 : nth_error h0 p = Some cp) by (unfold h0; rewrite nth_error_app1 by auto; auto).
  assert (G0m : nth_error h0 m = Some {| c_this := VStr s; c_out := [] |}) by (unfold h0, m; rewrite nth_error_app2, Nat.sub_diag by lia; auto).
  set (cp' := {| c_this := c_this cp; c_out := c_out cp ++ [Some m] |}).
  set (h1 := set_cell h0 p cp').
  assert (Npm : p <> m) by (unfold m; lia). assert (Nnm : n <> m) by (unfold m; lia).
  assert (G1 : nth_error h1 m = Some {| c_this := VStr s; c_out := [] |}) by (unfold h1; rewrite set_cell_other by auto; auto).
  assert (Lh1 : List.length h1 = Datatypes.S m) by (unfold h1; rewrite set_cell_length; auto).
  set (h2 := set_cell h1 m {| c_this := VStr s; c_out := [] |}).
  assert (G2m : nth_error h2 m = Some {| c_this := VStr s; c_out := [] |}) by (apply set_cell_same; lia).
  assert (Gn1 : exists dn, nth_error h1 n = Some dn /\ (n <> p -> dn = cn)).
  { destruct (Nat.eq_dec n p) as [->|N].
    - exists cp'. split; [|congruence]. apply set_cell_same. lia.
    - exists cn. split; auto. unfold h1, h0. rewrite set_cell_other by auto. rewrite nth_error_app1 by auto. auto. }
  destruct Gn1 as (dn & Gn1 & Dn).
  assert (Gn2 : nth_error h2 n = Some dn) by (unfold h2; rewrite set_cell_other by auto; auto).
  set (h3 := set_cell h2 m {| c_this := VStr s; c_out := c_out dn |}).
  assert (G3m : nth_error h3 m = Some {| c_this := VStr s; c_out := c_out dn |}) by (apply set_cell_same; unfold h2; rewrite set_cell_length; lia).
  assert (O3 : forall x, x <> m -> nth_error h3 x = nth_error h1 x) by (intros x N; unfold h3, h2; rewrite !set_cell_other by auto; auto).
  exists h3, m. split; [|split; [auto|split; [|split; [|split; [|split]]]]].
  - rewrite map_app, (hset_leads E f h a ss p R). cbn [map hset].
    rewrite (mbind_ok _ _ _ _ _ _ _ (hNode_none E f h p s NK)). cbn [hset_new].
    assert (A : hAdd (Some p) (VStr s) h = (h1, Ok (Some m))).
    { unfold hAdd. rewrite (mbind_ok _ _ _ _ h h0 m) by auto. rewrite (mbind_ok _ _ _ _ _ _ _ (load_ok _ _ _ G0)).
      rewrite (mbind_ok _ _ _ _ _ _ _ (set_out_ok _ _ _ _ G0)). auto. }
    rewrite (mbind_ok _ _ _ _ _ _ _ A). rewrite (mbind_ok _ _ _ _ h1 h1 m) by auto. unfold hset_here.
    rewrite (mbind_ok _ _ _ _ _ _ _ (set_out_ok _ _ _ _ G1)). cbn [c_this]. fold h2. unfold haddNodes.
    rewrite (mbind_ok _ _ _ _ _ _ _ (load_ok _ _ _ G2m)), (mbind_ok _ _ _ _ _ _ _ (load_ok _ _ _ Gn2)). cbn [c_out app].
    rewrite (mbind_ok _ _ _ _ _ _ _ (set_out_ok _ _ _ _ G2m)). auto.
  - exists m. eexists. split; auto. split. exact G3m. auto.
  - unfold kids. rewrite O3 by auto. unfold h1. rewrite set_cell_same by lia. auto.
  - unfold kids. rewrite G3m, O3, Gn1 by auto. auto.
  - intros x Nx Lx. rewrite O3 by (unfold m; lia). unfold h1, h0. rewrite set_cell_other by auto. apply nth_error_app1; auto.
  - intros c' G'. assert (c' = cp) by congruence. subst. exists cp'. split; auto. rewrite O3 by auto. unfold h1. apply set_cell_same. lia.
Qed.
Print Assumptions C58_assign_new.
Example C58_assign_new_ex : exists h', hset env0 1 [HName (bs "w")] 0%nat (VPtr (Some 4%nat)) ex_two = (h', Ok (Some 4%nat)) /\
  no_kid ex_two 0%nat (bs "w") /\ kids h' 0%nat = Some [Some 1; Some 2; Some 6]%nat /\ kids h' 6%nat = Some [Some 5%nat].
Proof.
  eexists. split; [reflexivity|]. split; [|split; reflexivity].
  eexists. split; [reflexivity|]. repeat (constructor; [eexists; split; [do 2 eexists; split; [reflexivity|]; split; reflexivity|discriminate]|]). constructor.
Qed.

(** Assigning a node to itself does not: its children are gone. *)
Theorem C58_assign_refuted : exists h a s m h',
  leads h a [s] m /\ kids h m = Some [Some 2%nat] /\
  hset env0 1 [HName s] a (VPtr (Some m)) h = (h', Ok (Some m)) /\ kids h' m = Some [].
Proof.
  set (h := [ {| c_this := VStr (bs "r"); c_out := [Some 1%nat] |}; {| c_this := VStr (bs "x"); c_out := [Some 2%nat] |}; leaf_cell (bs "z") ]).
  exists h, 0%nat, (bs "x"), 1%nat. eexists. split; [|split; [reflexivity|split; reflexivity]].
  eapply leads_step; [|apply leads_here]. exists {| c_this := VStr (bs "r"); c_out := [Some 1%nat] |}, [], [].
  split; [reflexivity|]. split; [reflexivity|]. split; [|constructor]. do 2 eexists. split; [reflexivity|]. split; reflexivity.
Qed.
Print Assumptions C58_assign_refuted.

(** Clone does not share: the copy of [C27_clone] is apart from all there was ([C27_independent_partial]). *)

(** ** The operations on trees (Graph.v) are what the operations on nodes look like *)

(** If no node of the value leads to the receiver, the receiver shows afterwards what [Add] makes of what it
    showed. *)
Theorem C58_tree_add : forall h a g x v, shows h a g -> shows_value h x v -> (forall b, x = VPtr (Some b) -> ~ reach h b a) ->
  exists h' r g' gr, hAdd (Some a) x h = (h', Ok r) /\ Add (Some g) v = (Some g', gr) /\ shows h' a g' /\
    match r, gr with Some b, Some gb => shows h' b gb | None, None => True | _, _ => False end.
Proof.
  intros h a [t o] x v S V N. inversion S as [a' c v' o' G Vt K]; subst.
  assert (La := nth_some_lt _ _ _ G).
  assert (New : forall w, plain x = Some w -> x <> VNil ->
    exists h' n, (do n <- alloc {| c_this := x; c_out := [] |}; do c <- load a; do _ <- set_out a (c_out c ++ [Some n]); ret (Some n)) h
      = (h', Ok (Some n)) /\ shows h' a (Node t (o ++ [Some (New w)])) /\ shows h' n (New w)).
  { intros w P _. set (n := List.length h). set (h0 := h ++ [{| c_this := x; c_out := [] |}] : heap).
    assert (G0 : nth_error h0 a = Some c) by (unfold h0; rewrite nth_error_app1; auto).
    assert (Nan : a <> n) by (unfold n; lia).
    set (h1 := set_cell h0 a {| c_this := c_this c; c_out := c_out c ++ [Some n] |}).
    assert (L0 : List.length h0 = Datatypes.S n) by (unfold h0; rewrite app_length; cbn; fold n; lia).
    assert (Q : forall y, y <> a -> (y < List.length h)%nat -> nth_error h1 y = nth_error h y).
    { intros y Ny Ly. unfold h1, h0. rewrite set_cell_other by auto. apply nth_error_app1; auto. }
    assert (Gn : nth_error h1 n = Some {| c_this := x; c_out := [] |}).
    { unfold h1, h0, n. rewrite set_cell_other by (fold n; auto). rewrite nth_error_app2, Nat.sub_diag by lia. auto. }
    assert (Sn : shows h1 n (New w)).
    { unfold New. eapply shows_node. exact Gn. apply sv_plain. exact P. apply sk_nil. }
    exists h1, n. split; [|split; auto].
    - rewrite (mbind_ok _ _ _ _ h h0 n) by auto. rewrite (mbind_ok _ _ _ _ _ _ _ (load_ok _ _ _ G0)).
      rewrite (mbind_ok _ _ _ _ _ _ _ (set_out_ok _ _ _ _ G0)). auto.
    - eapply (shows_put h h1); eauto. unfold h1. apply set_cell_same. lia.
      apply shows_kids_app. eapply shows_kids_put; eauto. apply sk_some; auto. apply sk_nil. }
  inversion V as [x' w P|b gb Sb]; subst.
  - destruct x; cbn in P; try (injection P as <-);
      try (destruct (New _ eq_refl) as (h' & n & Q & Sa & Sn); [discriminate|]; exists h', (Some n); do 2 eexists; split; [exact Q|]; split; [reflexivity|]; split; assumption).
    + exists h, None. do 2 eexists. split; [reflexivity|]. split; [reflexivity|]. split; [|exact I]. cbn. rewrite app_nil_r. auto.
    + destruct p as [p|]; [discriminate|]. injection P as <-.
      destruct (New _ eq_refl) as (h' & n & Q & Sa & Sn); [discriminate|]; exists h', (Some n); do 2 eexists; split; [exact Q|]; split; [reflexivity|]; split; assumption.
  - set (h1 := set_cell h a {| c_this := c_this c; c_out := c_out c ++ [Some b] |}).
    assert (Q : forall y, y <> a -> nth_error h1 y = nth_error h y) by (intros y Ny; apply set_cell_other; auto).
    assert (Sb1 : shows h1 b gb).
    { apply (shows_same h); auto. intros y Y. apply Q. intros ->. apply (N b eq_refl Y). }
    exists h1, (Some b). do 2 eexists. split; [|split; [reflexivity|split; [|exact Sb1]]].
    + unfold hAdd. rewrite (mbind_ok _ _ _ _ _ _ _ (load_ok _ _ _ G)). rewrite (mbind_ok _ _ _ _ _ _ _ (set_out_ok _ _ _ _ G)). auto.
    + eapply (shows_put h h1); eauto. apply set_cell_same. auto.
      apply shows_kids_app. eapply shows_kids_put; eauto. apply sk_some; auto. apply sk_nil.
Qed.
Print Assumptions C58_tree_add.

Theorem C58_tree_addnodes : forall h a g b g2, shows h a g -> shows h b g2 -> ~ (exists k c, kid h b k = Some (Some c) /\ reach h c a) ->
  exists h' g', hAddNodes (Some a) (Some b) h = (h', Ok (Some a)) /\ AddNodes (Some g) (Some g2) = Some g' /\ shows h' a g'.
Proof.
  intros h a [t o] b [t2 o2] S S2 N.
  inversion S as [a' c v' o' G Vt K]; subst. inversion S2 as [b' d v2 o2' G2 Vt2 K2]; subst.
  destruct (C58_addnodes h a b c d G G2) as (h' & Q & Kd & [Oth _] & _).
  exists h'. eexists. split; [exact Q|]. split; [reflexivity|].
  assert (G' : nth_error h' a = Some {| c_this := c_this c; c_out := c_out c ++ c_out d |}).
  { unfold hAddNodes in Q. rewrite (mbind_ok _ _ _ _ _ _ _ (load_ok _ _ _ G)), (mbind_ok _ _ _ _ _ _ _ (load_ok _ _ _ G2)) in Q.
    rewrite (mbind_ok _ _ _ _ _ _ _ (set_out_ok _ _ _ _ G)) in Q. injection Q as <-. apply set_cell_same. eapply nth_some_lt; eauto. }
  eapply (shows_put h h'); eauto. apply shows_kids_app. eapply shows_kids_put; eauto.
  cbn [out]. apply (shows_kids_same h); auto. intros x X y Y.
  assert (Ex : edge h b x) by (apply edge_cell; eauto).
  apply Oth.
  - intros ->. apply N. apply In_nth_error in X. destruct X as (k & X). exists k, x. split; auto. unfold kid. rewrite G2. auto.
  - apply (shows_reach_lt _ _ _ S2). eapply reach_step; eauto.
Qed.
Print Assumptions C58_tree_addnodes.

Theorem C58_tree_delete : forall h a g i, shows h a g ->
  (exists h', hClear (Some a) h = (h', Ok tt) /\ exists g', Clear (Some g) = Some g' /\ shows h' a g') /\
  (exists h', hDeleteAt (Some a) i h = (h', Ok tt) /\ exists g', DeleteAt (Some g) i = Some g' /\ shows h' a g').
Proof.
  intros h a [t o] i S. inversion S as [a' c v' o' G Vt K]; subst. assert (La := nth_some_lt _ _ _ G).
  assert (Put : forall l ol, (forall h', shows_kids h' (c_out c) o -> shows_kids h' l ol) ->
    shows (set_cell h a {| c_this := c_this c; c_out := l |}) a (Node t ol)).
  { intros l ol H. assert (Q : forall y, y <> a -> (y < List.length h)%nat -> nth_error (set_cell h a {| c_this := c_this c; c_out := l |}) y = nth_error h y)
      by (intros y Ny _; apply set_cell_other; auto).
    eapply (shows_put h); eauto. apply set_cell_same; auto. apply H. eapply shows_kids_put; eauto. }
  assert (Ln := shows_kids_length _ _ _ K). split.
  - eexists. split. unfold hClear. apply (set_out_ok _ _ _ _ G). eexists. split; [reflexivity|]. apply Put. intros h' _. apply sk_nil.
  - unfold hDeleteAt. rewrite (mbind_ok _ _ _ _ _ _ _ (load_ok _ _ _ G)). unfold DeleteAt, Len. cbn [out]. rewrite Ln.
    destruct ((i <? 0) || (Z.of_nat (List.length (c_out c)) <=? i)) eqn:C.
    + exists h. split; [reflexivity|]. eexists. split; [reflexivity|]. exact S.
    + eexists. split. apply (set_out_ok _ _ _ _ G). eexists. split; [reflexivity|]. apply Put. intros h' K'. unfold remove_at.
      apply Bool.orb_false_iff in C. destruct C as [C1 C2]. apply Z.ltb_ge in C1. apply Z.leb_gt in C2.
      destruct (shows_kids_split h' (Z.to_nat i) _ _ K') as [F1 _]. destruct (shows_kids_split h' (Datatypes.S (Z.to_nat i)) _ _ K') as [_ F2].
      destruct (Nat.ltb_spec (Z.to_nat i) (List.length o - 1)) as [Lt|Ge].
      * apply shows_kids_app; auto.
      * rewrite (skipn_all2 (c_out c)) by lia. rewrite app_nil_r. auto.
Qed.
Print Assumptions C58_tree_delete.
Example C58_tree_ex :
  (exists h', hAdd (Some 4%nat) (VPtr (Some 0%nat)) ex_two = (h', Ok (Some 0%nat)) /\ shows h' 4%nat (nd "s" [nd "x" []; ex_graph])) /\
  (exists h', hDeleteAt (Some 0%nat) 1 ex_two = (h', Ok tt) /\ shows h' 0%nat (nd "r" [nd "x" [nd "z" []]])).
Proof.
  assert (S4 : shows ex_two 4%nat (nd "s" [nd "x" []])).
  { eapply shows_node; [reflexivity|apply sv_plain; reflexivity|].
    apply sk_some; [eapply shows_node; [reflexivity|apply sv_plain; reflexivity|apply sk_nil]|apply sk_nil]. }
  split.
  - destruct (C58_tree_add ex_two 4%nat _ _ _ S4 (sv_graph _ _ _ ex_two_shows)) as (h' & r & g' & gr & Q & Q2 & S & _).
    { intros b B R. injection B as <-. refine (ex_two_away 0 4%nat eq_refl 4%nat _ R)%nat. apply reach_refl. }
    injection Q2 as <- <-. cbn in Q. injection Q as Q _. exists h'. split; [rewrite <- Q; reflexivity|exact S].
  - destruct (C58_tree_delete ex_two 0%nat _ 1 ex_two_shows) as (_ & h' & Q & g' & Q2 & S). injection Q2 as <-. exists h'. split; [exact Q|exact S].
Qed.
