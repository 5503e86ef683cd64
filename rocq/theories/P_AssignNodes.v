(** C87: assignments on nodes. *)
From Verif Require Import Base Value Graph Emit PathParser PathTerm Eval Heap HeapSpec HeapFacts RefineSpec RefineFacts HeapEval Quiet HeapEvalFacts PanicSpec AssignNodes Samples P_Access P_HeapEval.

(** ** C87 In a context in memory no node of which occurs at two places, assigning a value that is not a node (=, and, where
    the path has only names, += -= *= /= %=) does what it does on trees: the context is afterwards the tree that the
    model on trees says, again no node occurs twice, and no node outside of the context is modified.  A panic on nodes is a
    panic on trees.  The same holds for any sequence of such assignments and of expressions that assign nothing.
    What the assignment itself returns is left out. *)

(** In the context [g] the expression [e] yields no node, function or object *)
Definition gives_data (E : env) (C : calls) (g : graph) (e : graph) : Prop :=
  forall d g' v, evalExpression E C d true (Some e) g = Ok (g', EVal v) -> datum v.
(** The expression [e] assigns such a value *)
Inductive assignment (E : env) (C : calls) (g : graph) : graph -> Prop :=
| assignment_of op p rhs k k' : In op assigns -> path_ok p -> op = bs "=" \/ Forall named_elem (out p) ->
    quiet E (Some rhs) -> worded (Some rhs) -> gives_data E C g rhs ->
    assignment E C g (Node (VStr (bs "!e")) (Some (Node (VStr op) (Some p :: Some rhs :: k)) :: k')).

Lemma binary_tracks E C hC f : (1 <= f)%nat -> (forall x, hto_json hC x = to_json C x) -> forall d h a l g op p rhs k, spread h a g l -> stored true (Some g) ->
  In op assigns -> path_ok p -> op = bs "=" \/ Forall named_elem (out p) -> quiet E (Some rhs) -> worded (Some rhs) -> gives_data E C g rhs ->
  let n := Node (VStr op) (Some p :: Some rhs :: k) in
  tracks h l a (hevalBinary E f hC a (hevalExpression E f hC d a) n h) (evalBinary E C (evalExpression E C d) n g) /\
  forall g' r, evalBinary E C (evalExpression E C d) n g = Ok (g', r) -> stored true (Some g').
Proof.
  intros Hf Hj d h a l g op p rhs k Sp Hst Hop Hp Hn Hq Hw Hd n. unfold hevalBinary, evalBinary, Out_. cbn [n out nth_error lift rbind].
  assert (Hs : seen h any 0 a g) by (apply (proj1 (shows_seen3 true h)); [eapply spread_shows2; exact Sp|exact Hst]).
  destruct (simg_evalExpression E f Hf C hC Hj any (fun _ _ _ => I) h (fun _ _ _ => I) a g Hs true Hst d h true (Some rhs) (extends_refl h) Hq Hw) as (h1 & r & Hm & Hx & Hr).
  unfold mbind at 1. cbn [lift]. unfold mbind at 1. cbn [lift]. unfold mbind at 1. rewrite Hm.
  destruct r as [r| |]; [|rewrite Hr; split; [exists h1; reflexivity|discriminate]|rewrite Hr; split; [exists h1; reflexivity|discriminate]].
  destruct Hr as ([g1 y] & Hy & Hg1 & Hv). cbn [fst snd] in Hg1, Hv. subst g1. rewrite Hy. cbn [rbind]. destruct r as [x|z], y as [v|z']; cbn in Hv; try contradiction.
  2:{ destruct (spread_ext _ _ _ _ _ Hx Sp) as (Sp1 & Ev1). split; [exists h1; eexists; exists l; split; [reflexivity|split; assumption]|]. intros g' r K. injection K as <- _. exact Hst. }
  pose proof (Hd _ _ _ Hy) as Hdv. pose proof (vseen_datum _ _ _ Hv Hdv) as Px. unfold mbind at 1. cbn [ThisString this vstring sstring lift rbind].
  assert (G : forall c, c = "="%byte \/ Forall named_elem (out p) -> tracks h l a (hassign E f hC a (hevalExpression E f hC d a) (Some p) x c h1) (assign E C (evalExpression E C d) (Some p) v c g) /\
    forall g' r, assign E C (evalExpression E C d) (Some p) v c g = Ok (g', r) -> stored true (Some g')).
  { intros c Hc. split; [apply assign_tracks; assumption|]. intros g' r K. eapply (assign_stored E f Hf C hC a (hevalExpression E f hC d a)); eassumption. }
  unfold assigns in Hop. cbn [In] in Hop. destruct Hop as [<-|[<-|[<-|[<-|[<-|[<-|[]]]]]]]; (destruct Hn as [Hn|Hn]; [try discriminate Hn|]); apply G; auto.
Qed.

Theorem C87_assign : forall E C hC f h a l g e, (1 <= f)%nat -> (forall x, hto_json hC x = to_json C x) ->
  spread h a g l -> stored true (Some g) -> assignment E C g e ->
  tracks h l a (hEval E f hC a (Some e) h) (Eval E C f g (Some e)) /\ (forall g' r, Eval E C f g (Some e) = Ok (g', r) -> stored true (Some g')).
Proof.
  intros E C hC f h a l g e Hf Hj Sp Hst [op p rhs k k' Hop Hp Hn Hq Hw Hd]. set (n := Node (VStr op) (Some p :: Some rhs :: k)).
  change (hEval E f hC a (Some (Node (VStr (bs "!e")) (Some n :: k'))) h) with (hevalExpression E f hC f a true (Some (Node (VStr (bs "!e")) (Some n :: k'))) h).
  change (Eval E C f g (Some (Node (VStr (bs "!e")) (Some n :: k')))) with (evalExpression E C f true (Some (Node (VStr (bs "!e")) (Some n :: k'))) g).
  destruct f as [|f1]; [lia|]. set (F := S f1) in *.
  change (hevalExpression E F hC F a true (Some (Node (VStr (bs "!e")) (Some n :: k'))) h) with (hevalExpression E F hC f1 a true (Some n) h).
  change (evalExpression E C F true (Some (Node (VStr (bs "!e")) (Some n :: k'))) g) with (evalExpression E C f1 true (Some n) g).
  destruct f1 as [|d]; [split; [exists h; reflexivity|discriminate]|].
  destruct (binary_tracks E C hC F Hf Hj d h a l g op p rhs k Sp Hst Hop Hp Hn Hq Hw Hd) as (K1 & K2). fold n in K1, K2.
  assert (H1 : hevalExpression E F hC (S d) a true (Some n) h = (do v <- hevalBinary E F hC a (hevalExpression E F hC d a) n; ret (HVal v)) h).
  { unfold assigns in Hop. cbn [In] in Hop. unfold n. destruct Hop as [<-|[<-|[<-|[<-|[<-|[<-|[]]]]]]]; reflexivity. }
  assert (H2 : evalExpression E C (S d) true (Some n) g = let* (g, v) := evalBinary E C (evalExpression E C d) n g in Ok (g, EVal v)).
  { unfold assigns in Hop. cbn [In] in Hop. unfold n. destruct Hop as [<-|[<-|[<-|[<-|[<-|[<-|[]]]]]]]; reflexivity. }
  rewrite H1, H2. unfold mbind. destruct (evalBinary E C (evalExpression E C d) n g) as [[g' r]| |]; cbn [tracks rbind] in *.
  - destruct K1 as (h' & x & l' & -> & Sp' & Ev'). split; [exists h'; eexists; exists l'; split; [reflexivity|split; assumption]|]. intros g2 r2 K. injection K as <- _. eapply K2. reflexivity.
  - destruct K1 as (h' & ->). split; [exists h'; reflexivity|discriminate].
  - destruct K1 as (h' & ->). split; [exists h'; reflexivity|discriminate].
Qed.
Print Assumptions C87_assign.

(** One expression after the other, on nodes and on trees *)
Fixpoint hrun (E : env) (f : nat) (C : hcalls) (a : addr) (es : list graph) : M unit :=
  match es with [] => ret tt | e :: es => do _ <- hEval E f C a (Some e); hrun E f C a es end.
Fixpoint run (E : env) (f : nat) (C : calls) (g : graph) (es : list graph) : res (graph * unit) :=
  match es with [] => Ok (g, tt) | e :: es => let* (g, _) := Eval E C f g (Some e) in run E f C g es end.
(** Every expression either assigns nothing, or a value that is not a node in the context that it finds *)
Fixpoint values_only (E : env) (f : nat) (C : calls) (g : graph) (es : list graph) : Prop :=
  match es with
  | [] => True
  | e :: es => (quiet E (Some e) /\ worded (Some e) \/ assignment E C g e) /\ (forall g' r, Eval E C f g (Some e) = Ok (g', r) -> values_only E f C g' es)
  end.
Theorem C87_history : forall E C hC f a es h l g, (1 <= f)%nat -> (forall x, hto_json hC x = to_json C x) ->
  spread h a g l -> stored true (Some g) -> values_only E f C g es -> tracks h l a (hrun E f hC a es h) (run E f C g es).
Proof.
  intros E C hC f a es. induction es as [|e es IH]; intros h l g Hf Hj Sp Hst Hv.
  - exists h, tt, l. split; [reflexivity|]. split; [exact Sp|apply evolves_refl].
  - destruct Hv as (He & Hes). cbn [hrun run].
    assert (K : tracks h l a (hEval E f hC a (Some e) h) (Eval E C f g (Some e)) /\ (forall g' r, Eval E C f g (Some e) = Ok (g', r) -> stored true (Some g'))).
    { destruct He as [(Hq & Hw)|Ha]; [|apply C87_assign; assumption].
      assert (Hs : seen h any 0 a g) by (apply (proj1 (shows_seen3 true h)); [eapply spread_shows2; exact Sp|exact Hst]).
      destruct (simg_hEval E f Hf C hC Hj any (fun _ _ _ => I) h (fun _ _ _ => I) a g Hs true Hst (Some e) Hq Hw) as (h1 & r & Hm & Hx & Hr). rewrite Hm.
      destruct r as [r| |]; [|rewrite Hr; split; [exists h1; reflexivity|discriminate]|rewrite Hr; split; [exists h1; reflexivity|discriminate]].
      destruct Hr as ([g1 y] & -> & Hg1 & _). cbn [fst] in Hg1. subst g1. destruct (spread_ext _ _ _ _ _ Hx Sp) as (Sp1 & Ev1). split; [exists h1, r, l; split; [reflexivity|split; assumption]|]. intros g' r' K. injection K as <- _. exact Hst. }
    destruct K as (K1 & K2). destruct (Eval E C f g (Some e)) as [[g1 r]| |]; cbn [tracks rbind] in *; unfold mbind.
    + destruct K1 as (h1 & x & l1 & -> & Sp1 & Ev1). specialize (IH h1 l1 g1 Hf Hj Sp1 (K2 _ _ eq_refl) (Hes _ _ eq_refl)). unfold tracks in *. destruct (run E f C g1 es) as [[g2 u]| |]; [|exact IH|exact IH].
      destruct IH as (h2 & z & l2 & H1 & H2 & H3). exists h2, z, l2. split; [exact H1|]. split; [exact H2|eapply evolves_trans; eassumption].
    + destruct K1 as (h1 & ->). exists h1. reflexivity.
    + destruct K1 as (h1 & ->). exists h1. reflexivity.
Qed.
Print Assumptions C87_history.

(** For example a+=2 and then b.c[1]=a*3, *)
Definition ex_ctx : heap :=
  [ {| c_this := VStr (bs "r"); c_out := [Some 1]%nat |}; {| c_this := VStr (bs "a"); c_out := [Some 2]%nat |}; {| c_this := VInt KInt64 5; c_out := [] |} ].
Definition ex_ctx_tree : graph := nd "r" [nd "a" [Node (VInt KInt64 5) []]].
Definition ex_add : graph := nd "!e" [nd "+=" [nd "!p" [nd "a" []]; nd "2" []]].
Definition ex_store : graph := nd "!e" [nd "=" [nd "!p" [nd "b" []; nd "c" []; nd "!i" [nd "1" []]]; nd "*" [nd "!p" [nd "a" []]; nd "3" []]]].
Example C87_ex_parsed : NewExpression env0 40 (bs "a+=2") = Ok ex_add /\ NewExpression env0 40 (bs "b.c[1]=a*3") = Ok ex_store.
Proof. rewrite !NewExpression_ideal by (cbn; lia). split; vm_compute; reflexivity. Qed.
Definition ex_after : graph := nd "r" [nd "a" [Node (VInt KInt64 7) []]].
Ltac words := repeat (first [apply Forall_nil|apply Forall_cons|apply worded_node]).
Lemma ex_word s k : Forall wordy k -> exists x, Some (nd s k) = Some x /\ wordy x.
Proof. intros H. eexists. split; [reflexivity|]. constructor. exact H. Qed.
Lemma ex_leaf s : quiet env0 (Some (nd s [])).
Proof. constructor; [intros t H _; exfalso; apply H; reflexivity|constructor]. Qed.
Lemma ex_add_assigns g : assignment env0 calls0 g ex_add.
Proof.
  apply assignment_of; [cbn; tauto| |right| | |].
  - constructor; [apply ex_word; constructor|constructor].
  - constructor; [|constructor]. exists (bs "a"), []. split; [reflexivity|]. cbn. intros H. decompose [or] H; try discriminate; contradiction.
  - apply ex_leaf.
  - words.
  - intros [|d] g' v H; [discriminate|]. cbn in H. injection H as _ <-. exact I.
Qed.
Lemma ex_store_assigns : assignment env0 calls0 ex_after ex_store.
Proof.
  apply assignment_of; [cbn; tauto| |left; reflexivity| | |].
  - constructor; [apply ex_word; constructor|]. constructor; [apply ex_word; constructor|]. constructor; [apply ex_word; constructor; [apply (wordy_node (bs "1") []); constructor|constructor]|constructor].
  - constructor.
    + intros s _ H. injection H as <-. cbn. intros H. decompose [or] H; try discriminate; contradiction.
    + constructor; [|constructor; [apply ex_leaf|constructor]]. constructor.
      * intros s _ H. injection H as <-. cbn. intros H. decompose [or] H; try discriminate; contradiction.
      * constructor; [apply ex_leaf|constructor].
  - words.
  - intros [|[|d]] g' v H; try discriminate; vm_compute in H; injection H as _ <-; exact I.
Qed.
Example C87_ex : spread ex_ctx 0%nat ex_ctx_tree [0; 1; 2]%nat /\ stored true (Some ex_ctx_tree) /\ values_only env0 40 calls0 ex_ctx_tree [ex_add; ex_store] /\
  run env0 40 calls0 ex_ctx_tree [ex_add; ex_store] = Ok (Node (VStr (bs "r")) [Some (nd "a" [Node (VInt KInt64 7) []]); Some (nd "b" [Node (VStr (bs "c")) [None; Some (Node (VInt KInt64 21) [])]])], tt).
Proof.
  split; [|split; [|split]].
  - apply (sp_node _ _ {| c_this := VStr (bs "r"); c_out := [Some 1]%nat |}); [reflexivity|reflexivity| |cbn; lia]. change [1; 2]%nat with ([1; 2] ++ [])%nat. apply sp_some; [|constructor|intros x _ []].
    apply (sp_node _ _ {| c_this := VStr (bs "a"); c_out := [Some 2]%nat |}); [reflexivity|reflexivity| |cbn; lia]. change [2]%nat with ([2] ++ [])%nat. apply sp_some; [|constructor|intros x _ []].
    apply (sp_node _ _ {| c_this := VInt KInt64 5; c_out := [] |}); [reflexivity|reflexivity|constructor|cbn; lia].
  - repeat (first [apply Forall_nil|apply Forall_cons|constructor; [exact I|]]).
  - split; [right; apply ex_add_assigns|]. intros g' r H. assert (g' = ex_after) as -> by (vm_compute in H; injection H as <- _; reflexivity).
    split; [right; apply ex_store_assigns|]. intros g'' r' _. exact I.
  - vm_compute. reflexivity.
Qed.
(** Where a node occurs at two places of the context, the other place is modified as well: a and b hold the same x, and a.x=1
    is also seen at b. *)
Definition ex_shared : heap :=
  [ {| c_this := VStr (bs "r"); c_out := [Some 1; Some 2]%nat |}; {| c_this := VStr (bs "a"); c_out := [Some 3]%nat |};
    {| c_this := VStr (bs "b"); c_out := [Some 3]%nat |}; {| c_this := VStr (bs "x"); c_out := [] |} ].
Definition ex_shared_tree : graph := nd "r" [nd "a" [nd "x" []]; nd "b" [nd "x" []]].
Theorem C87_shared_refuted : exists e h' r g' r', NewExpression env0 40 (bs "a.x=1") = Ok e /\ shows ex_shared 0%nat ex_shared_tree /\
  hEval env0 40 hcalls0 0%nat (Some e) ex_shared = (h', Ok r) /\ shows h' 0%nat (nd "r" [nd "a" [nd "x" [Node (VInt KInt64 1) []]]; nd "b" [nd "x" [Node (VInt KInt64 1) []]]]) /\
  Eval env0 calls0 40 ex_shared_tree (Some e) = Ok (g', r') /\ g' = nd "r" [nd "a" [nd "x" [Node (VInt KInt64 1) []]]; nd "b" [nd "x" []]].
Proof.
  rewrite !NewExpression_ideal by (cbn; lia). eexists. eexists. eexists. eexists. eexists. split; [vm_compute; reflexivity|].
  split; [repeat (econstructor; try reflexivity)|]. split; [vm_compute; reflexivity|]. split; [|split; [vm_compute; reflexivity|reflexivity]]. repeat (econstructor; try reflexivity).
Qed.
Print Assumptions C87_shared_refuted.
