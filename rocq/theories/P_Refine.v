(** C72: graphs in memory behave like the trees of Graph.v as long as they share no nodes. *)
From Verif Require Import Base Value Graph Heap HeapSpec HeapFacts RefineSpec RefineFacts Eval Samples.

(** Any sequence of New, Add, AddNodes, Copy, Clone, NodeSet, Create, Delete, Clear, DeleteAt, Set,
    Substitute and Merge on several graphs: with enough fuel the program in memory ends as the program on
    trees does, with a panic in the same cases, and afterwards the variables hold the graphs that the
    trees say, again without common nodes. *)
Theorem C72_history : forall E ops h e gs, forest h e gs -> Forall separate_vars ops ->
  exists F, forall f, (F <= f)%nat ->
    match tree_run E ops gs with
    | Ok gs' => exists h' e', heap_run E f ops e h = (h', Ok e') /\ forest h' e' gs'
    | Panic => exists h', heap_run E f ops e h = (h', Panic)
    | NoFuel => False
    end.
Proof. intros E ops h e gs Fo So. destruct (heap_run_ok E ops h e gs Fo So) as [F H]. exists F. exact H. Qed.
Print Assumptions C72_history.

(** For one operation the fuel needed is known: more than the levels of the graphs. *)
Theorem C72_step : forall E f o h e gs, forest h e gs -> separate_vars o -> (forall i g, get gs i = Some g -> (levels g < f)%nat) -> (0 < f)%nat ->
  match tree_op E gs o with
  | Ok gs' => exists h' e', heap_op E f e o h = (h', Ok e') /\ forest h' e' gs'
  | Panic => exists h', heap_op E f e o h = (h', Panic)
  | NoFuel => False
  end.
Proof.
  intros E f o h e gs Fo So Hl Hf. apply (heap_op_ok E f h e gs o Fo So).
  clear - Hl Hf. induction gs as [|c gs IH]; [exact Hf|]. assert (H : (lv gs < f)%nat) by (apply IH; intros i g Hg; apply (Hl (S i) g Hg)).
  destruct c as [c|]; [|exact H]. rewrite lv_cons. specialize (Hl O c eq_refl). lia.
Qed.
Print Assumptions C72_step.

(** What the variables of such a state show *)
Lemma spread_shows_both h : (forall a g l, spread h a g l -> shows h a g) /\ (forall k o l, spread_kids h k o l -> shows_kids h k o).
Proof.
  apply spread_ind2.
  - intros a c v o l G P _ K _. apply (shows_node h a c); auto. constructor. exact P.
  - constructor.
  - intros. constructor. assumption.
  - intros. constructor; assumption.
Qed.
Lemma spread_edges h : (forall a g l, spread h a g l -> forall x y, In x l -> edge h x y -> In y l) /\ (forall k o l, spread_kids h k o l -> (forall x y, In x l -> edge h x y -> In y l) /\ forall a, In (Some a) k -> In a l).
Proof.
  apply spread_ind2.
  - intros a c v o l G P K [IH Ik] N x y [<-|Hx] He; [|right; eapply IH; eauto]. apply edge_cell in He. destruct He as (c' & G' & He). rewrite G in G'. injection G' as <-. destruct He as [Hi|Hi].
    + right. apply Ik, Hi.
    + rewrite Hi in P. discriminate P.
  - split; [intros x y []|intros a []].
  - intros k o l K [IH Ik]. split; [exact IH|]. intros a [H|H]; [discriminate H|auto].
  - intros a g m k o l S IHs K [IH Ik] D. split.
    + intros x y Hx He. rewrite in_app_iff in *. destruct Hx; [left|right]; eauto.
    + intros b [H|H]; rewrite in_app_iff; [left|right; auto]. injection H as ->. eapply spread_root; eauto.
Qed.
Lemma spread_reach h a g l : spread h a g l -> forall x, reach h a x -> In x l.
Proof. intros S x R. apply (reach_closed h (fun y => In y l)) with (2 := R); [intros u w Hu He; eapply (proj1 (spread_edges h)); eauto|eapply spread_root; eauto]. Qed.
Theorem C72_variables : forall h e gs, forest h e gs ->
  (forall i g, get gs i = Some g -> exists a, get e i = Some a /\ shows h a g) /\
  (forall i, get gs i = None -> get e i = None) /\
  (forall i j a b, i <> j -> get e i = Some a -> get e j = Some b -> apart h a b).
Proof.
  intros h e gs [l K]. split; [|split].
  - intros i g Hg. destruct (get e i) as [a|] eqn:He; [|rewrite (var_none _ _ _ _ _ K He) in Hg; discriminate Hg].
    destruct (on_var _ _ _ _ _ _ K He) as (g' & m & Hg' & S & _). rewrite Hg in Hg'. injection Hg' as <-. exists a. split; [reflexivity|]. exact (proj1 (spread_shows_both h) _ _ _ S).
  - intros i Hg. destruct (get e i) as [a|] eqn:He; [|reflexivity]. destruct (on_var _ _ _ _ _ _ K He) as (g' & m & Hg' & _). congruence.
  - intros i j a b Hij Ha Hb x Rx Ry. destruct (take h e gs l K j) as (X & lr & Kr & D & _ & _ & Hj). rewrite Hb in Hj. destruct (get gs j) as [gj|]; [|contradiction].
    assert (Ha' := Ha). rewrite <- (get_other None e i j Hij) in Ha'. destruct (on_var _ _ _ _ _ _ Kr Ha') as (g & m & _ & S & I & _).
    exact (D x (spread_reach _ _ _ _ Hj x Ry) (I x (spread_reach _ _ _ _ S x Rx))).
Qed.
Print Assumptions C72_variables.

(** Node and GetAt find in memory the subgraph that they find in the tree, and change nothing. *)
Theorem C72_look : forall E f h e gs i a s k, forest h e gs -> get e i = Some a ->
  match Node_ E (get gs i) s with
  | Ok None => hNode E f (Some a) s h = (h, Ok None)
  | Ok (Some g) => exists b, hNode E f (Some a) s h = (h, Ok (Some b)) /\ shows h b g
  | Panic => exists h', hNode E f (Some a) s h = (h', Panic)
  | NoFuel => False
  end /\
  match GetAt (get gs i) k with
  | Ok None => hGetAt (Some a) k h = (h, Ok None)
  | Ok (Some g) => exists b, hGetAt (Some a) k h = (h, Ok (Some b)) /\ shows h b g
  | _ => False
  end.
Proof.
  intros E f h e gs i a s k [l K] Ha. destruct (on_var _ _ _ _ _ _ K Ha) as ([t o] & m & -> & S & _). destruct (spread_inv _ _ _ _ _ S) as (c & l' & Em & G & P & Kc & Na). split.
  - cbn [Node_]. assert (H := hNode_ok E f s h a t o m c S G). destruct (find_child E s o) as [[j|]| |]; cbn [rbind refines] in *.
    + destruct H as (h' & r & Q & -> & b & -> & Nb). destruct (focus_node h a t o m c S G j b Nb) as (g & mb & Ng & Sb & _). rewrite (child_at _ _ _ Ng). exists b. split; [exact Q|]. exact (proj1 (spread_shows_both h) _ _ _ Sb).
    + destruct H as (h' & r & Q & -> & ->). exact Q.
    + exact H.
    + exact H.
  - unfold hGetAt, GetAt. cbn [deref]. rewrite (mbind_ok _ _ _ _ _ _ _ (eq_refl (h, Ok a))), (mbind_ok _ _ _ _ _ _ _ (load_ok _ _ _ G)). rewrite (kids_length _ _ _ _ Kc).
    destruct ((Z.of_nat (List.length (c_out c)) <=? k) || (k <? 0)); [reflexivity|]. unfold child.
    destruct (nth_error (c_out c) (Z.to_nat k)) as [[b|]|] eqn:N.
    + destruct (focus_node h a t o m c S G (Z.to_nat k) b N) as (g & mb & Ng & Sb & _). rewrite Ng. exists b. split; [|exact (proj1 (spread_shows_both h) _ _ _ Sb)].
      unfold ret. do 2 f_equal. exact (nth_get _ _ _ N).
    + rewrite (kids_none _ _ _ _ Kc _ N). unfold ret. do 2 f_equal. exact (nth_get _ _ _ N).
    + replace (nth_error o (Z.to_nat k)) with (@None (option graph)); [unfold ret; do 2 f_equal; exact (get_out _ _ N)|].
      symmetry. apply nth_error_None. rewrite (kids_length _ _ _ _ Kc). apply nth_error_None. exact N.
Qed.
Print Assumptions C72_look.

(** A program that starts with nothing *)
Definition story : list fop :=
  [FNew (VStr (bs "a")); FAdd 0 (FPlain (VStr (bs "x"))); FSet 0 [HName (bs "y"); HName (bs "z")] (FPlain (VInt KInt 7));
   FNew (VStr (bs "b")); FAdd 1 (FGraph 0); FClone 1; FSubstitute 2 (bs "z") (VStr (bs "w")); FMerge 1 2; FDelete 1 (VStr (bs "none"))].
Example C72_ex_story : Forall separate_vars story /\
  tree_run env0 story [] =
    Ok [None; Some (nd "b" [nd "a" [nd "x" []; nd "y" [nd "z" [Node (VInt KInt 7) []]]]; nd "a" [nd "x" []; nd "y" [nd "w" [Node (VInt KInt 7) []]]]]); None] /\
  exists h e, heap_run env0 5 story [] [] = (h, Ok e) /\ List.length h = 12%nat.
Proof.
  split; [|split; [vm_compute; reflexivity|do 2 eexists; vm_compute; split; reflexivity]].
  unfold story. repeat apply Forall_cons; try apply Forall_nil; try exact I; try (cbn; discriminate). split.
  - intros s [H|[H|[]]]; injection H as <-; discriminate.
  - intros k [H|[H|[]]]; discriminate H.
Qed.

(** With a node in two places the two differ: a change through one place is seen in the other. *)
Theorem C72_shared_refuted : exists E h a g h' r g' r', shows h a g /\
  hNodeSet E 1 (Some a) (bs "a") (VStr (bs "x")) h = (h', Ok r) /\ NodeSet E (Some g) (bs "a") (VStr (bs "x")) = Ok (Some g', r') /\ ~ shows h' a g'.
Proof.
  exists env0, [{| c_this := VStr (bs "r"); c_out := [Some 1%nat; Some 1%nat] |}; {| c_this := VStr (bs "a"); c_out := [] |}], O, (nd "r" [nd "a" []; nd "a" []]).
  do 4 eexists. split; [|split; [vm_compute; reflexivity|split; [vm_compute; reflexivity|]]].
  - assert (S1 : shows [{| c_this := VStr (bs "r"); c_out := [Some 1%nat; Some 1%nat] |}; {| c_this := VStr (bs "a"); c_out := [] |}] 1%nat (nd "a" [])) by (eapply shows_node; [reflexivity|constructor; reflexivity|constructor]).
    eapply shows_node; [reflexivity|constructor; reflexivity|]. cbn. repeat (apply sk_some; [exact S1|]). constructor.
  - intro S. match type of S with shows ?h _ ?g => set (hh := h) in *; assert (S' : shows hh O (nd "r" [nd "a" [nd "x" []]; nd "a" [nd "x" []]])) end.
    + assert (Sx : shows hh 2%nat (nd "x" [])) by (eapply shows_node; [reflexivity|constructor; reflexivity|constructor]).
      assert (S1 : shows hh 1%nat (nd "a" [nd "x" []])) by (eapply shows_node; [reflexivity|constructor; reflexivity|cbn; apply sk_some; [exact Sx|constructor]]).
      eapply shows_node; [reflexivity|constructor; reflexivity|]. cbn. repeat (apply sk_some; [exact S1|]). constructor.
    + assert (H := shows_fun _ _ _ _ S S'). discriminate H.
Qed.
Print Assumptions C72_shared_refuted.
