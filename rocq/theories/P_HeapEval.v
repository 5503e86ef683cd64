(** C83: evaluation on nodes. *)
From Verif Require Import Base Value Graph Emit PathParser PathTerm Eval Template Heap HeapSpec HeapFacts HeapEval Quiet QuietFacts HeapEvalFacts Samples P_Access.

(** ** C83 An expression in which nothing is assigned is evaluated without modifying any node: new nodes
    may appear, the others are as they were, whatever the outcome; a node may occur at any number of
    places in the context.  What comes out is what the tree that the context shows would give. *)

(** The result on nodes [x] in the memory [h], and the one on the tree *)
Definition same_result (h : heap) (x : res heres) (y : res (graph * eres)) : Prop :=
  match x, y with
  | Ok (HVal v), Ok (_, EVal w) => shows_value h v w
  | Ok (HErr e), Ok (_, EErr e') => e = e'
  | Panic, Panic | NoFuel, NoFuel => True
  | _, _ => False
  end.
(** The nodes of [h] are in [h'] as they were *)
Definition untouched (h h' : heap) : Prop := forall a c, nth_error h a = Some c -> nth_error h' a = Some c.

Lemma vseen_shows h v w : vseen h v w -> shows_value h v w.
Proof. intros [v' w' H|a g H]; [apply sv_plain, H|]. apply sv_graph. eapply seen_shows2. exact H. Qed.
Lemma extends_untouched h h' : extends h h' -> untouched h h'.
Proof. intros H a c. apply extends_nth, H. Qed.

Theorem C83_eval : forall E C hC f h a g e h' r, (1 <= f)%nat -> (forall x, hto_json hC x = to_json C x) ->
  shows h a g -> stored true (Some g) -> quiet E e -> worded e -> hEval E f hC a e h = (h', r) ->
  untouched h h' /\ same_result h' r (Eval E C f g e).
Proof.
  intros E C hC f h a g e h' r Hf Hj Hs Hst Hq Hw H.
  assert (K := simg_hEval E f Hf C hC Hj any (fun _ _ _ => I) h (fun _ _ _ => I) a g (proj1 (shows_seen3 true h) a g Hs Hst 0%nat) true Hst e Hq Hw).
  destruct K as (h1 & r1 & H1 & Hx & Hr). rewrite H in H1. injection H1 as <- <-. split; [apply extends_untouched, Hx|].
  destruct r as [x| |]; [|rewrite Hr; exact I|rewrite Hr; exact I]. destruct Hr as ([g' y] & -> & _ & Hr). cbn [snd] in Hr.
  destruct x, y; cbn in Hr |- *; try contradiction; [apply vseen_shows, Hr|exact Hr].
Qed.
Print Assumptions C83_eval.
Theorem C83_bool : forall E C hC f h a g e h' r, (1 <= f)%nat -> (forall x, hto_json hC x = to_json C x) ->
  shows h a g -> stored true (Some g) -> quiet E e -> worded e -> hevalBool E f hC a e h = (h', r) ->
  untouched h h' /\ (let* (_, b) := evalBool E C f g e in Ok b) = r.
Proof.
  intros E C hC f h a g e h' r Hf Hj Hs Hst Hq Hw H.
  assert (K := simg_hevalBool E f Hf C hC Hj any (fun _ _ _ => I) h (fun _ _ _ => I) a g (proj1 (shows_seen3 true h) a g Hs Hst 0%nat) true Hst e Hq Hw).
  destruct K as (h1 & r1 & H1 & Hx & Hr). rewrite H in H1. injection H1 as <- <-. split; [apply extends_untouched, Hx|].
  destruct r as [x| |]; [|rewrite Hr; reflexivity|rewrite Hr; reflexivity]. destruct Hr as ([g' y] & -> & _ & Hr). cbn [snd rbind] in *. subst. reflexivity.
Qed.
Print Assumptions C83_bool.

Lemma clean_worded strict g : clean strict (Some g) -> worded (Some g).
Proof.
  induction g as [v o _ IH] using graph_ind'. intros H. inversion H as [|s o' H1 H2]; subst. constructor.
  rewrite Forall_forall in *. intros [c|] Hc; [|constructor]. specialize (IH _ Hc). apply IH, H2, Hc.
Qed.
(** In particular for every text without the character =. *)
Theorem C83_text : forall E C hC f f' h a g s e h' r, (1 <= f)%nat -> (forall x, hto_json hC x = to_json C x) ->
  shows h a g -> stored true (Some g) -> ~ In "="%byte s -> NewExpression E f' s = Ok e -> hEval E f hC a (Some e) h = (h', r) ->
  untouched h h' /\ same_result h' r (Eval E C f g (Some e)).
Proof.
  intros E C hC f f' h a g s e h' r Hf Hj Hs Hst Hn He H.
  assert (Hc : clean true (Some e)). { eapply NewExpression_clean; [|exact He]. apply Forall_forall. intros c Hc _ ->. auto. }
  eapply C83_eval; try eassumption; [apply clean_quiet, Hc|eapply clean_worded, Hc].
Qed.
Print Assumptions C83_text.

(** A context in which the node 3 occurs twice: r { a { x }, b { x } } *)
Definition hcalls0 : hcalls := {| hremote := fun _ => false; hhas_method := fun _ _ => false; hcall := fun _ _ _ => ret (HVal VNil); hto_json := to_json calls0 |}.
Definition ex_heap : heap :=
  [ {| c_this := VStr (bs "r"); c_out := [Some 1; Some 2]%nat |}; {| c_this := VStr (bs "a"); c_out := [Some 3]%nat |};
    {| c_this := VStr (bs "b"); c_out := [Some 3]%nat |}; {| c_this := VStr (bs "x"); c_out := [Some 4]%nat |}; {| c_this := VStr (bs "7"); c_out := [] |} ].
Definition ex_tree : graph := nd "r" [nd "a" [nd "x" [nd "7" []]]; nd "b" [nd "x" [nd "7" []]]].
Lemma ex_shows : shows ex_heap 0%nat ex_tree /\ stored true (Some ex_tree).
Proof. split; repeat (econstructor; try reflexivity). Qed.
(** The result is the node itself, *)
Example C83_ex_node : exists e, NewExpression env0 40 (bs "b") = Ok e /\ hEval env0 40 hcalls0 0%nat (Some e) ex_heap = (ex_heap, Ok (HVal (VPtr (Some 2%nat)))) /\
  Eval env0 calls0 40 ex_tree (Some e) = Ok (ex_tree, EVal (VPtr (Some (nd "b" [nd "x" [nd "7" []]])))).
Proof. rewrite NewExpression_ideal by (cbn; lia). eexists. split; [vm_compute; reflexivity|]. split; vm_compute; reflexivity. Qed.
(** or a new node that holds it, *)
Example C83_ex_index : exists e, NewExpression env0 40 (bs "b[0]") = Ok e /\
  hEval env0 40 hcalls0 0%nat (Some e) ex_heap = (ex_heap ++ [{| c_this := VStr (bs "["); c_out := [Some 3%nat] |}], Ok (HVal (VPtr (Some 5%nat)))).
Proof. rewrite NewExpression_ideal by (cbn; lia). eexists. split; [vm_compute; reflexivity|]. vm_compute; reflexivity. Qed.
(** or a number. *)
Example C83_ex_number : ~ In "="%byte (bs "1+2*3") /\ exists e, NewExpression env0 40 (bs "1+2*3") = Ok e /\ hEval env0 40 hcalls0 0%nat (Some e) ex_heap = (ex_heap, Ok (HVal (VInt KInt64 7))).
Proof.
  split; [intros H; cbn in H; decompose [or] H; try discriminate; contradiction|].
  rewrite NewExpression_ideal by (cbn; lia). eexists. split; [vm_compute; reflexivity|]. vm_compute; reflexivity.
Qed.

(** An assignment stores the subnodes that it finds, not copies of them: after c=a, what is stored
    under c.x is found under a.x as well.  On trees (Eval.v) it is not. *)
Definition ex_heap2 : heap :=
  [ {| c_this := VStr (bs "r"); c_out := [Some 1]%nat |}; {| c_this := VStr (bs "a"); c_out := [Some 2]%nat |};
    {| c_this := VStr (bs "x"); c_out := [Some 3]%nat |}; {| c_this := VStr (bs "7"); c_out := [] |} ].
Definition ex_tree2 : graph := nd "r" [nd "a" [nd "x" [nd "7" []]]].
Definition two (E : env) (f : nat) (C : hcalls) (a : addr) (e1 e2 : graph) : M heres := do _ <- hEval E f C a (Some e1); hEval E f C a (Some e2).
Definition two_trees (E : env) (f : nat) (C : calls) (g : graph) (e1 e2 : graph) : res (graph * eres) := let* (g, _) := Eval E C f g (Some e1) in Eval E C f g (Some e2).
Theorem C83_assign_refuted : exists e1 e2 h' r g' g'' r', NewExpression env0 40 (bs "c=a") = Ok e1 /\ NewExpression env0 40 (bs "c.x.z=1") = Ok e2 /\
  shows ex_heap2 0%nat ex_tree2 /\ two env0 40 hcalls0 0%nat e1 e2 ex_heap2 = (h', Ok r) /\ shows h' 0%nat g' /\
  two_trees env0 40 calls0 ex_tree2 e1 e2 = Ok (g'', r') /\
  g' = nd "r" [nd "a" [nd "x" [nd "7" []; nd "z" [Node (VInt KInt64 1) []]]]; nd "c" [nd "x" [nd "7" []; nd "z" [Node (VInt KInt64 1) []]]]] /\
  g'' = nd "r" [nd "a" [nd "x" [nd "7" []]]; nd "c" [nd "x" [nd "7" []; nd "z" [Node (VInt KInt64 1) []]]]].
Proof.
  rewrite !NewExpression_ideal by (cbn; lia). eexists. eexists. eexists. eexists. eexists. eexists. eexists. split; [vm_compute; reflexivity|]. split; [vm_compute; reflexivity|].
  split; [repeat (econstructor; try reflexivity)|]. split; [vm_compute; reflexivity|]. split; [|split; [vm_compute; reflexivity|split; reflexivity]]. repeat (econstructor; try reflexivity).
Qed.
Print Assumptions C83_assign_refuted.
