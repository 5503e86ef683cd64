(** C85: evaluating and processing return. *)
From Verif Require Import Base Value Graph Emit PathParser PathTerm Eval Template TemplateTerm Fuel Heap HeapSpec HeapFacts HeapEval Quiet QuietFacts HeapEvalFacts HeapTemplate Ends.
From Verif Require Import Samples P_Path P_Access P_Template P_HeapEval P_HeapTemplate Fuel.
Local Notation len l := (Z.of_nat (List.length l)).

(** The functions in the context, and the conversion to JSON, return. *)
Definition returns (C : calls) : Prop := (forall f m a, call C f m a <> NoFuel) /\ forall g, to_json C g <> NoFuel.
(** From [n] levels of recursion on there is an answer, a result or a panic, and always the same *)
Definition answers {A} (n : nat) (m : nat -> res A) : Prop := exists r, r <> NoFuel /\ forall f, (n <= f)%nat -> m f = r.

Lemma answers_below {A} (n : nat) (m : nat -> res A) : m n <> NoFuel -> (forall f, (n <= f)%nat -> below (m n) (m f)) -> answers n m.
Proof. intros H Hb. exists (m n). split; [exact H|]. intros f Hf. destruct (Hb f Hf) as [K|K]; [contradiction|]. symmetry. exact K. Qed.

(** ** C85 Evaluation returns, on every context, however large, and for every expression, also one that
    no text is read as; it takes at most one level of recursion more than the expression has. *)
Theorem C85_eval : forall E C g e, returns C -> answers (S (deep e)) (fun f => Eval E C f g e).
Proof.
  intros E C g e (Hc & Hj). apply answers_below; [|intros f Hf; apply Eval_fuel, Hf]. apply fin_Eval_at with (n := deep e); auto; lia.
Qed.
Print Assumptions C85_eval.
Theorem C85_bool : forall E C g e, returns C -> answers (S (deep e)) (fun f => evalBool E C f g e).
Proof.
  intros E C g e (Hc & Hj). apply answers_below; [|intros f Hf; apply evalBool_fuel, Hf]. apply fin_evalBool_at with (n := deep e); auto; lia.
Qed.
Print Assumptions C85_bool.
(** So does processing a template. *)
Theorem C85_template : forall E C t c, returns C -> answers (S (deep t)) (fun f => Process E C f t c).
Proof.
  intros E C t c (Hc & Hj). apply answers_below; [|intros f Hf; apply Process_fuel, Hf]. apply fin_Process with (n := deep t); auto; lia.
Qed.
Print Assumptions C85_template.

(** ** Get and Set with any text of at most 4094 bytes, as in C39 *)
Lemma path_answer E s : well_lettered E s -> len s <= 4094 -> exists p, forall f, (5 * List.length s + 4 <= f)%nat -> NewPath E f s = Ok p.
Proof.
  intros HW Hl. destruct (path_total E s _ HW Hl (le_n _)) as (l & Hp). exists (Node (VStr TypePath) l). intros f Hf.
  destruct (NewPath_mono E _ f s Hf) as [K|K]; rewrite Hp in K; [discriminate|]. symmetry. exact K.
Qed.
Theorem C85_get_partial : forall E C g s, returns C -> well_lettered E s -> len s <= 4094 -> exists n, answers n (fun f => Get E C f g s).
Proof.
  intros E C g s (Hc & Hj) HW Hl. destruct (path_answer E s HW Hl) as (p & Hp). exists (S (levels p) + (5 * List.length s + 4))%nat.
  apply answers_below; [|intros f Hf; apply Get_fuel, Hf]. unfold Get. destruct g as [g|]; [|discriminate]. rewrite Hp by lia. cbn [rbind].
  apply fin_bind; [|intros [g1 r] _; discriminate]. apply fin_getPath with (n := levels p); auto; [|apply (low_of C Hc); lia]. intros b e g1 He. apply fin_ev with (n := levels p); auto. lia.
Qed.
Print Assumptions C85_get_partial.
Theorem C85_set_partial : forall E g s v, well_lettered E s -> len s <= 4094 -> answers (5 * List.length s + 4) (fun f => Set_ E f g s v).
Proof.
  intros E g s v HW Hl. destruct (path_answer E s HW Hl) as (p & Hp). apply answers_below; [|intros f Hf; apply Set_fuel, Hf].
  unfold Set_. destruct g as [g|]; [|discriminate]. rewrite Hp by lia. cbn [rbind]. apply fin_bind; [apply fin_set_path|]. intros [g1 r] _. discriminate.
Qed.
Print Assumptions C85_set_partial.
(** Reading a template and processing it *)
Definition run_template (E : env) (C : calls) (s : bytes) (c : graph) (f : nat) : res (graph * bytes) :=
  let* t := NewTemplate E f s in Process E C f (Some t) c.
Theorem C85_text_partial : forall E C s c, returns C -> well_lettered E s -> len s <= 4094 -> exists n, answers n (run_template E C s c).
Proof.
  intros E C s c HR HW Hl. destruct (template_total E s _ HW Hl (le_n _)) as (g & Hg).
  assert (Hs : NewTemplate E (5 * List.length s + 4) s <> NoFuel) by (rewrite Hg; apply nest_stops).
  destruct (NewTemplate E (5 * List.length s + 4) s) as [t| |] eqn:Ht; [| |contradiction].
  - exists (S (levels t) + (5 * List.length s + 4))%nat. destruct (C85_template E C (Some t) c HR) as (r & Hr & K). exists r. split; [exact Hr|]. intros f Hf. unfold run_template.
    destruct (NewTemplate_mono E _ f s (Nat.le_trans _ _ _ (Nat.le_add_l _ _) Hf)) as [K1|K1]; rewrite Ht in K1; [discriminate|]. rewrite <- K1. cbn [rbind]. apply K. cbn [deep]. lia.
  - exists (5 * List.length s + 4)%nat. exists Panic. split; [discriminate|]. intros f Hf. unfold run_template.
    destruct (NewTemplate_mono E _ f s Hf) as [K1|K1]; rewrite Ht in K1; [discriminate|]. rewrite <- K1. reflexivity.
Qed.
Print Assumptions C85_text_partial.
(** Without the bound on the length they do not return: a name of 4096 letters (C15). *)
Theorem C85_length_refuted : exists s, forall E C g v f, Get E C f (Some g) s = NoFuel /\ Set_ E f (Some g) s v = NoFuel.
Proof.
  exists (repeat "a"%byte (Z.to_nat 4096)). intros E C g v f.
  assert (H : NewPath E f (repeat "a"%byte (Z.to_nat 4096)) = NoFuel).
  { apply C15_long_names_never_return; [apply Forall_forall; intros c Hc; apply repeat_spec in Hc; subst; reflexivity|]. rewrite repeat_length. lia. }
  unfold Get, Set_. rewrite H. split; reflexivity.
Qed.
Print Assumptions C85_length_refuted.

(** ** On nodes: when the context is as in C83 and C84, sharing does not change that. *)
Definition json_calls (hC : hcalls) : calls := {| remote _ := false; has_method _ _ := false; call _ _ _ := Ok (EVal VNil); to_json := hto_json hC |}.
Theorem C85_nodes : forall E hC f h a g e h' r, (deep e < f)%nat -> (forall x, hto_json hC x <> NoFuel) ->
  shows h a g -> stored true (Some g) -> quiet E e -> worded e -> hEval E f hC a e h = (h', r) -> r <> NoFuel.
Proof.
  intros E hC f h a g e h' r Hf Hj Hs Hst Hq Hw H -> .
  destruct (C83_eval E (json_calls hC) hC f h a g e h' NoFuel ltac:(lia) (fun _ => eq_refl) Hs Hst Hq Hw H) as (_ & K).
  destruct (C85_eval E (json_calls hC) g e) as (x & Hx & Ha); [split; [discriminate|exact Hj]|]. rewrite (Ha f Hf) in K. destruct x as [[? []]| |]; contradiction.
Qed.
Print Assumptions C85_nodes.
Theorem C85_nodes_template : forall E hC f h a g t h' r, (deep t < f)%nat -> (forall x, hto_json hC x <> NoFuel) ->
  shows h a g -> stored false (Some g) -> quiet E t -> worded t -> guarded E t -> hProcess E f hC t a h = (h', r) -> r <> NoFuel.
Proof.
  intros E hC f h a g t h' r Hf Hj Hs Hst Hq Hw Hg H -> .
  destruct (C84_template E (json_calls hC) hC f h a g t h' NoFuel ltac:(lia) (fun _ => eq_refl) Hs Hst Hq Hw Hg H) as (_ & K).
  destruct (C85_template E (json_calls hC) t g) as (x & Hx & Ha); [split; [discriminate|exact Hj]|]. rewrite (Ha f Hf) in K. destruct x as [[? ?]| |]; contradiction.
Qed.
Print Assumptions C85_nodes_template.

(** ** Examples *)
Example C85_ex_returns : returns calls0.
Proof. split; intros; discriminate. Qed.
Definition ends_ctx : graph := nd "" [nd "a" [Node (VInt KInt 1) []]; nd "b" [Node (VInt KInt 3) []]].
(** 1 + 2 * 3; with too few levels there is no answer *)
Example C85_ex_eval : exists e g, NewExpression env0 40 (bs "a+2*b") = Ok e /\ deep (Some e) = 5%nat /\
  Eval env0 calls0 6 ends_ctx (Some e) = Ok (g, EVal (VInt KInt64 7)) /\ Eval env0 calls0 2 ends_ctx (Some e) = NoFuel.
Proof. rewrite NewExpression_ideal by (cbn; lia). eexists. eexists. split; [vm_compute; reflexivity|]. split; [vm_compute; reflexivity|]. split; vm_compute; reflexivity. Qed.
Example C85_ex_text : len (bs "$for(x,l)$x;$end") <= 4094 /\ exists g, run_template env0 calls0 (bs "$for(x,l)$x;$end") (nd "" [nd "l" [nd "1" []; nd "2" []]]) 60 = Ok (g, bs "1;2;").
Proof. split; [cbn; lia|]. unfold run_template. rewrite NewTemplate_ideal by (cbn; lia). eexists. vm_compute. reflexivity. Qed.
