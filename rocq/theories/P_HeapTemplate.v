(** C84: templates on nodes. *)
From Verif Require Import Base Value Graph Emit PathParser PathTerm Eval Template Heap HeapSpec HeapFacts HeapEval Quiet QuietFacts HeapEvalFacts HeapTemplate Samples P_Access P_Template P_HeapEval.

Lemma shows_below h c :
  (forall n b g, seen h any n b g -> ~ reach h b c -> (1 <= n)%nat -> seen h (lvl c []) n b g) /\
  (forall n l o, seens h any n l o -> (forall b, In (Some b) l -> ~ reach h b c) -> (1 <= n)%nat -> seens h (lvl c []) n l o).
Proof.
  apply seen_ind2.
  - intros n a e v o He _ Hv Ho IH Hr Hn. econstructor; [exact He| |exact Hv|].
    + assert (a <> c) by (intros ->; apply Hr, reach_refl). destruct n as [|[|n]]; cbn; auto.
    + apply IH; [|lia]. intros b Hb K. apply Hr. apply In_nth_error in Hb. destruct Hb as (k & Hk). eapply reach_step; [left; exists k; unfold kid; rewrite He; exact Hk|exact K].
  - constructor.
  - intros n l o _ IH Hr Hn. constructor. apply IH; [|exact Hn]. intros b Hb. apply Hr. right. exact Hb.
  - intros n a g l o _ IHa _ IH Hr Hn. constructor; [apply IHa; [apply Hr; left; reflexivity|exact Hn]|]. apply IH; [|exact Hn]. intros b Hb. apply Hr. right. exact Hb.
Qed.
Lemma shows_inv h c g : shows h c g -> stored false (Some g) -> inv c h [] g.
Proof.
  intros Hs Hst. split; [intros x []|]. split; [|exact Hst]. pose proof (proj1 (shows_seen3 false h) c g Hs Hst 0%nat) as H. inversion H as [? ? e v o He _ Hv Ho]; subst.
  econstructor; [exact He|exact I|exact Hv|]. apply shows_below; [exact Ho| |lia]. intros b Hb. apply In_nth_error in Hb. destruct Hb as (k & Hk).
  eapply shows_acyclic; [exact Hs|]. left. exists k. unfold kid. rewrite He. exact Hk.
Qed.

(** ** C84 Processing a template without assignments, whose loops are not over the context itself,
    modifies no node but the context, even when it panics: not the elements of the lists, nor what is
    shared with them.  The text is the one of C45 to C48 (Template.v), and afterwards the context shows
    the tree that it has there. *)
Theorem C84_template : forall E C hC f h a g t h' r, (1 <= f)%nat -> (forall x, hto_json hC x = to_json C x) ->
  shows h a g -> stored false (Some g) -> quiet E t -> worded t -> guarded E t -> hProcess E f hC t a h = (h', r) ->
  (forall b c, b <> a -> nth_error h b = Some c -> nth_error h' b = Some c) /\
  match r, Process E C f t g with
  | Ok o, Ok (g', o') => o = o' /\ shows h' a g'
  | Panic, Panic | NoFuel, NoFuel => True
  | _, _ => False
  end.
Proof.
  intros E C hC f h a g t h' r Hf Hj Hs Hst Hq Hw Hg H.
  destruct (process_ok a E f Hf C hC Hj f t h [] g (shows_inv _ _ _ Hs Hst) (conj Hq (conj Hw Hg))) as (h1 & r1 & Hm & Hr).
  unfold hProcess, mbind in H. rewrite Hm in H. unfold Process.
  assert (Hst1 : still a h h1). { destruct r1; [destruct Hr as (y & g1 & d1 & R1 & _ & _ & _ & _ & HF); exact (proj1 (proj2 HF))|apply Hr|apply Hr]. }
  assert (K : h' = h1) by (destruct r1 as [[o b]| |]; injection H as <- <-; reflexivity). subst h'. split.
  { intros b c Hb Hc. rewrite Hst1; [exact Hc|eapply nth_some_lt, Hc|exact Hb]. }
  destruct r1 as [[o b]| |]; injection H as <-.
  - destruct Hr as (y & g1 & d1 & R1 & E1 & Hq1 & Hi1 & _ & _). rewrite E1. unfold Qp in Hq1. cbn [fst snd] in Hq1. subst y. cbn [rbind]. split; [reflexivity|]. destruct Hi1 as (_ & Hs1 & _). eapply seen_shows2, Hs1.
  - destruct Hr as (-> & _). exact I.
  - destruct Hr as (-> & _). exact I.
Qed.
Print Assumptions C84_template.
(** In particular for the template of a text without the character =. *)
Theorem C84_text : forall E C hC f f' h a g s t h' r, (1 <= f)%nat -> (forall x, hto_json hC x = to_json C x) ->
  shows h a g -> stored false (Some g) -> ~ In "="%byte s -> NewTemplate E f' s = Ok t -> guarded E (Some t) -> hProcess E f hC (Some t) a h = (h', r) ->
  (forall b c, b <> a -> nth_error h b = Some c -> nth_error h' b = Some c) /\
  match r, Process E C f (Some t) g with
  | Ok o, Ok (g', o') => o = o' /\ shows h' a g'
  | Panic, Panic | NoFuel, NoFuel => True
  | _, _ => False
  end.
Proof.
  intros E C hC f f' h a g s t h' r Hf Hj Hs Hst Hn Ht Hg H.
  assert (Hc : clean true (Some t)). { eapply NewTemplate_clean; [|exact Ht]. apply Forall_forall. intros c Hc _ ->. auto. }
  eapply C84_template; try eassumption; [apply clean_quiet, Hc|eapply clean_worded, Hc].
Qed.
Print Assumptions C84_text.

(** r { l { p { 1 }, q { 2 } }, m { p { 1 } } }, where m's subnode is the first element of l *)
Definition ex_heap3 : heap :=
  [ {| c_this := VStr (bs "r"); c_out := [Some 1; Some 6]%nat |}; {| c_this := VStr (bs "l"); c_out := [Some 2; Some 4]%nat |};
    {| c_this := VStr (bs "p"); c_out := [Some 3]%nat |}; {| c_this := VStr (bs "1"); c_out := [] |};
    {| c_this := VStr (bs "q"); c_out := [Some 5]%nat |}; {| c_this := VStr (bs "2"); c_out := [] |};
    {| c_this := VStr (bs "m"); c_out := [Some 2]%nat |} ].
Definition ex_tree3 : graph := nd "r" [nd "l" [nd "p" [nd "1" []]; nd "q" [nd "2" []]]; nd "m" [nd "p" [nd "1" []]]].
Lemma ex_shows3 : shows ex_heap3 0%nat ex_tree3 /\ stored false (Some ex_tree3).
Proof. split; repeat (econstructor; try reflexivity). Qed.
Ltac guards := repeat first [apply guarded_nil | apply guarded_node; [let Hs := fresh in intros Hs; first [discriminate Hs|
    let H1 := fresh in let H2 := fresh in intros ? ? H1 H2; vm_compute in H1; injection H1 as <-; vm_compute in H2; injection H2 as <-;
    first [eapply trail_path; [reflexivity|reflexivity|discriminate] | eapply trail_expr; [reflexivity|reflexivity|eapply trail_path; [reflexivity|reflexivity|discriminate]]]]|] | apply Forall_nil | apply Forall_cons].
(** After the loop the variable holds the element q, node 4, itself; the elements are as they were. *)
Example C84_ex_loop : let s := bs "$for(x,l)<$x.p>$end" in ~ In "="%byte s /\ exists t, NewTemplate env0 60 s = Ok t /\ guarded env0 (Some t) /\
  hProcess env0 60 hcalls0 (Some t) 0%nat ex_heap3 =
    (set_cell ex_heap3 0%nat {| c_this := VStr (bs "r"); c_out := [Some 1; Some 6; Some 7]%nat |} ++ [{| c_this := VStr (bs "x"); c_out := [Some 4%nat] |}], Ok (bs "<1><>")).
Proof.
  cbv zeta. split; [intros H; cbn in H; decompose [or] H; try discriminate; contradiction|]. rewrite NewTemplate_ideal by (cbn; lia). eexists. split; [vm_compute; reflexivity|].
  split; [|vm_compute; reflexivity].
  guards.
Qed.

(** *** The restrictions are needed.  In a loop over the context the variable holds the context, which
    contains the variable: writing it does not end. *)
Theorem C84_context_refuted : exists t, NewTemplate env0 60 (bs "$for(x,_this)$x$end") = Ok t /\ (forall f, exists h', hProcess env0 f hcalls0 (Some t) 0%nat ex_heap3 = (h', NoFuel)) /\
  exists g' o, Process env0 calls0 60 (Some t) ex_tree3 = Ok (g', o).
Proof.
  rewrite NewTemplate_ideal by (cbn; lia). eexists. split; [vm_compute; reflexivity|]. split; [|eexists; eexists; vm_compute; reflexivity].
  intros f. do 6 (destruct f as [|f]; [eexists; vm_compute; reflexivity|]). eexists. vm_compute. reflexivity.
Qed.
Print Assumptions C84_context_refuted.
(** An assignment through the variable modifies the element, and with it all that shares the element. *)
Theorem C84_assign_refuted : exists t h' o g' o', NewTemplate env0 60 (bs "$for(x,l)$(x.p.z=1)$end") = Ok t /\ hProcess env0 60 hcalls0 (Some t) 0%nat ex_heap3 = (h', Ok o) /\
  kids h' 2%nat = Some [Some 3; Some 8]%nat /\ kids h' 6%nat = Some [Some 2]%nat /\
  Process env0 calls0 60 (Some t) ex_tree3 = Ok (g', o') /\ nth_error (out g') 1 = nth_error (out ex_tree3) 1.
Proof.
  rewrite NewTemplate_ideal by (cbn; lia). do 5 eexists. split; [vm_compute; reflexivity|]. split; [vm_compute; reflexivity|]. split; [vm_compute; reflexivity|]. split; [vm_compute; reflexivity|].
  split; vm_compute; reflexivity.
Qed.
Print Assumptions C84_assign_refuted.
