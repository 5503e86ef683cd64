(** The operations in memory do what the operations on graphs do. *)
From Verif Require Import Base Value Graph Heap HeapSpec HeapFacts RefineSpec PathParser Eval NumFacts.
From Coq Require Import Lia.

(** ** Refinement: the same outcome, related results *)
Definition refines {A T} (m : M A) (h : heap) (t : res T) (Q : heap -> A -> T -> Prop) : Prop :=
  match t with
  | Ok x => exists h' a, m h = (h', Ok a) /\ Q h' a x
  | Panic => exists h', m h = (h', Panic)
  | NoFuel => False
  end.
Lemma refines_bind {A B T U} (m : M A) (k : A -> M B) h (t : res T) (u : T -> res U) Q R :
  refines m h t Q -> (forall h' a x, Q h' a x -> refines (k a) h' (u x) R) -> refines (mbind m k) h (rbind t u) R.
Proof.
  intros Hm Hk. destruct t as [x| |]; cbn [refines rbind] in *; [|destruct Hm as (h' & H); exists h'; unfold mbind; rewrite H; reflexivity|contradiction].
  destruct Hm as (h' & a & H & Hq). specialize (Hk h' a x Hq). unfold refines, mbind in *. rewrite H. exact Hk.
Qed.
Lemma refines_ok {A B U} (m : M A) (k : A -> M B) h h' a (u : res U) R : m h = (h', Ok a) -> refines (k a) h' u R -> refines (mbind m k) h u R.
Proof. intros H. unfold refines, mbind. rewrite H. auto. Qed.
Lemma refines_panic {A B U} (m : M A) (k : A -> M B) h h' R : m h = (h', Panic) -> refines (mbind m k) h (@Panic U) R.
Proof. intros H. cbn. unfold mbind. rewrite H. eauto. Qed.
Lemma refines_ret {A T} (a : A) h (x : T) (Q : heap -> A -> T -> Prop) : Q h a x -> refines (ret a) h (Ok x) Q.
Proof. intro H. exists h, a. split; [reflexivity|exact H]. Qed.
Lemma refines_weaken {A T} (m : M A) h (t : res T) (Q R : heap -> A -> T -> Prop) : refines m h t Q -> (forall h' a x, Q h' a x -> R h' a x) -> refines m h t R.
Proof. intros H I. destruct t; cbn in *; auto. destruct H as (h' & b & H1 & H2). eauto. Qed.

(** ** Changes: only addresses of [l] and new ones are written, and [m] consists of such *)
Record evolves (h : heap) (l : list addr) (h' : heap) (m : list addr) : Prop := {
  ev_len : (List.length h <= List.length h')%nat;
  ev_out : forall x, (x < List.length h)%nat -> ~ In x l -> nth_error h' x = nth_error h x;
  ev_in : forall x, In x m -> In x l \/ (List.length h <= x)%nat }.
Lemma evolves_refl h l : evolves h l h l.
Proof. split; auto. Qed.
Lemma evolves_trans h l h1 m h2 n : evolves h l h1 m -> evolves h1 m h2 n -> evolves h l h2 n.
Proof.
  intros [L1 O1 I1] [L2 O2 I2]. split; [lia| |].
  - intros x Hx Hn. rewrite O2; [apply O1; assumption|lia|]. intro H. destruct (I1 x H); [contradiction|lia].
  - intros x Hx. destruct (I2 x Hx) as [H|H]; [apply I1, H|right; lia].
Qed.
Lemma evolves_incl h l l' h' m : evolves h l h' m -> (forall x, In x l -> In x l') -> evolves h l' h' m.
Proof. intros [L O I] H. split; auto. intros x Hx. destruct (I x Hx); auto. Qed.

Lemma spread_lt_both h : (forall a g l, spread h a g l -> forall x, In x l -> (x < List.length h)%nat) /\
  (forall k o l, spread_kids h k o l -> forall x, In x l -> (x < List.length h)%nat).
Proof.
  apply spread_ind2.
  - intros a c v o l G P K IH N x [<-|Hx]; [eapply nth_some_lt; eauto|auto].
  - intros x [].
  - intros; auto.
  - intros a g m k o l _ IH1 _ IH2 _ x Hx. apply in_app_iff in Hx. destruct Hx; auto.
Qed.
Definition spread_lt h := proj1 (spread_lt_both h).
Definition kids_lt h := proj2 (spread_lt_both h).
Lemma spread_frame_both h h' : (forall a g l, spread h a g l -> (forall x, In x l -> nth_error h' x = nth_error h x) -> spread h' a g l) /\
  (forall k o l, spread_kids h k o l -> (forall x, In x l -> nth_error h' x = nth_error h x) -> spread_kids h' k o l).
Proof.
  apply spread_ind2.
  - intros a c v o l G P K IH N S. apply (sp_node _ a c); auto; [rewrite S; [exact G|left; reflexivity]|]. apply IH. intros x Hx. apply S. right. exact Hx.
  - constructor.
  - intros. constructor. auto.
  - intros a g m k o l _ IH1 _ IH2 D S. apply sp_some; [apply IH1|apply IH2|exact D]; intros x Hx; apply S, in_app_iff; auto.
Qed.
Definition spread_frame h h' := proj1 (spread_frame_both h h').
Definition kids_frame h h' := proj2 (spread_frame_both h h').
Lemma frame_spread h l h' m a g n : evolves h l h' m -> spread h a g n -> disjoint n l -> spread h' a g n.
Proof. intros [_ O _] S D. apply (spread_frame h); [exact S|]. intros x Hx. apply O; [eapply spread_lt; eauto|apply D, Hx]. Qed.
Lemma frame_kids h l h' m k o n : evolves h l h' m -> spread_kids h k o n -> disjoint n l -> spread_kids h' k o n.
Proof. intros [_ O _] S D. apply (kids_frame h); [exact S|]. intros x Hx. apply O; [eapply kids_lt; eauto|apply D, Hx]. Qed.
Lemma disjoint_sym l m : disjoint l m -> disjoint m l.
Proof. intros H x Hx Hy. exact (H x Hy Hx). Qed.
Lemma disjoint_app_l l m n : disjoint (l ++ m) n <-> disjoint l n /\ disjoint m n.
Proof.
  split; [intro H; split; intros x Hx; apply H, in_app_iff; auto|]. intros [H1 H2] x Hx. apply in_app_iff in Hx. destruct Hx; auto.
Qed.
Lemma disjoint_app_r l m n : disjoint l (m ++ n) <-> disjoint l m /\ disjoint l n.
Proof.
  split; [intro H; split; intros x Hx Hy; apply (H x Hx), in_app_iff; auto|]. intros [H1 H2] x Hx Hy. apply in_app_iff in Hy. destruct Hy; [eapply H1|eapply H2]; eauto.
Qed.
(** what a change leads to stays apart from what is apart *)
Lemma evolves_disjoint h l h' m n : evolves h l h' m -> disjoint n l -> (forall x, In x n -> (x < List.length h)%nat) -> disjoint n m.
Proof. intros [_ _ I] D L x Hx Hm. destruct (I x Hm) as [H|H]; [exact (D x Hx H)|]. specialize (L x Hx). lia. Qed.

(** ** One child *)
Lemma focus h : forall k o l, spread_kids h k o l -> forall i a, nth_error k i = Some (Some a) ->
  exists g m, nth_error o i = Some (Some g) /\ spread h a g m /\ (forall x, In x m -> In x l) /\
    forall X h' g' m', disjoint X l -> spread h' a g' m' -> evolves h (m ++ X) h' m' ->
      exists l', spread_kids h' k (set_nth i (Some g') o) l' /\ evolves h (l ++ X) h' l'.
Proof.
  induction 1 as [|k o l K IH|b g m k o l S K IH D]; intros i a N.
  - destruct i; discriminate N.
  - destruct i as [|i]; [discriminate N|]. destruct (IH i a N) as (g & m & G & S & I & R). exists g, m. split; [exact G|]. split; [exact S|]. split; [exact I|].
    intros X h' g' m' DX S' Ev. destruct (R X h' g' m' DX S' Ev) as (l' & K' & Ev'). exists l'. split; [constructor; exact K'|exact Ev'].
  - destruct i as [|i].
    + injection N as ->. exists g, m. split; [reflexivity|]. split; [exact S|]. split; [intros x Hx; apply in_app_iff; auto|].
      intros X h' g' m' DX S' Ev. apply disjoint_app_r in DX. destruct DX as [DXm DXl].
      assert (Dl : disjoint l (m ++ X)) by (apply disjoint_app_r; split; apply disjoint_sym; assumption).
      exists (m' ++ l). split.
      * cbn [set_nth]. apply sp_some; [exact S'|eapply frame_kids; eauto|]. apply disjoint_sym. eapply evolves_disjoint; eauto. apply (kids_lt _ _ _ _ K).
      * destruct Ev as [L O I]. split; [exact L| |].
        -- intros x Hx Hn. apply O; [exact Hx|]. intro H. apply Hn. rewrite !in_app_iff in *. tauto.
        -- intros x Hx. apply in_app_iff in Hx. destruct Hx as [Hx|Hx]; [|left; rewrite !in_app_iff; tauto]. destruct (I x Hx) as [H|H]; [left; rewrite !in_app_iff in *; tauto|auto].
    + destruct (IH i a N) as (g1 & m1 & G & S1 & I1 & R). exists g1, m1. split; [exact G|]. split; [exact S1|]. split; [intros x Hx; apply in_app_iff; auto|].
      intros X h' g' m' DX S' Ev. apply disjoint_app_r in DX. destruct DX as [DXm DXl]. destruct (R X h' g' m' DXl S' Ev) as (l' & K' & Ev').
      assert (Dm : disjoint m (l ++ X)) by (apply disjoint_app_r; split; [exact D|apply disjoint_sym; assumption]).
      exists (m ++ l'). split.
      * cbn [set_nth]. apply sp_some; [eapply frame_spread; eauto|exact K'|]. eapply evolves_disjoint; eauto. apply (spread_lt _ _ _ _ S).
      * destruct Ev' as [L O I]. split; [exact L| |].
        -- intros x Hx Hn. apply O; [exact Hx|]. intro H. apply Hn. rewrite !in_app_iff in *. tauto.
        -- intros x Hx. apply in_app_iff in Hx. destruct Hx as [Hx|Hx]; [left; rewrite !in_app_iff; tauto|]. destruct (I x Hx) as [H|H]; [left; rewrite !in_app_iff in *; tauto|auto].
Qed.
Lemma kids_none h : forall k o l, spread_kids h k o l -> forall i, nth_error k i = Some None -> nth_error o i = Some None.
Proof. induction 1 as [|k o l K IH|b g m k o l S K IH D]; intros [|i] N; cbn in *; auto; discriminate. Qed.
Lemma kids_length h : forall k o l, spread_kids h k o l -> List.length o = List.length k.
Proof. induction 1; cbn; auto. Qed.
Lemma kids_app h : forall k o l, spread_kids h k o l -> forall k' o' l', spread_kids h k' o' l' -> disjoint l l' -> spread_kids h (k ++ k') (o ++ o') (l ++ l').
Proof.
  induction 1 as [|k o l K IH|b g m k o l S K IH D]; intros k' o' l' K' D'; cbn [app]; auto.
  - constructor. apply IH; assumption.
  - apply disjoint_app_l in D'. destruct D' as [D1 D2]. rewrite <- app_assoc. apply sp_some; [exact S|apply IH; assumption|]. apply disjoint_app_r. auto.
Qed.
(** a sublist *)
Lemma kids_app_inv h k k' : forall o l, spread_kids h (k ++ k') o l ->
  exists o1 o2 l1 l2, o = o1 ++ o2 /\ l = l1 ++ l2 /\ List.length o1 = List.length k /\ spread_kids h k o1 l1 /\ spread_kids h k' o2 l2 /\ disjoint l1 l2.
Proof.
  induction k as [|c k IH]; intros o l K; cbn [app] in K.
  - exists [], o, [], l. repeat split; auto; [constructor|intros x []].
  - inversion K as [|k0 o0 l0 K0|a g m k0 o0 l0 S0 K0 D0]; subst; clear K.
    + destruct (IH _ _ K0) as (o1 & o2 & l1 & l2 & -> & -> & Ln & K1 & K2 & D). exists (None :: o1), o2, l1, l2. cbn. repeat split; auto. constructor; auto.
    + destruct (IH _ _ K0) as (o1 & o2 & l1 & l2 & -> & -> & Ln & K1 & K2 & D). exists (Some g :: o1), o2, (m ++ l1), l2. cbn. rewrite app_assoc.
      apply disjoint_app_r in D0. destruct D0 as [D1 D2]. repeat split; auto; [constructor; auto|]. apply disjoint_app_l. auto.
Qed.

(** ** The node itself *)
Lemma spread_inv h a t o m : spread h a (Node t o) m -> exists c l, m = a :: l /\ nth_error h a = Some c /\ plain (c_this c) = Some t /\ spread_kids h (c_out c) o l /\ ~ In a l.
Proof. intro S. inv S. eauto 10. Qed.
(** the children of a node were changed, the node was not *)
Lemma node_after h a c t l X h' o' l' : nth_error h a = Some c -> plain (c_this c) = Some t -> ~ In a l -> ~ In a X ->
  spread_kids h' (c_out c) o' l' -> evolves h (l ++ X) h' l' -> spread h' a (Node t o') (a :: l') /\ evolves h ((a :: l) ++ X) h' (a :: l').
Proof.
  intros G P N NX K Ev. assert (La := nth_some_lt _ _ _ G). assert (Nl : ~ In a (l ++ X)) by (rewrite in_app_iff; tauto). split.
  - apply (sp_node _ a c); auto; [rewrite (ev_out _ _ _ _ Ev a La Nl); exact G|]. intro H. destruct (ev_in _ _ _ _ Ev a H); [contradiction|lia].
  - destruct Ev as [L O I]. split; [exact L| |].
    + intros x Hx Hn. apply O; [exact Hx|]. intro H. apply Hn. right. exact H.
    + intros x [<-|Hx]; [left; left; reflexivity|]. destruct (I x Hx); [left; right; assumption|auto].
Qed.
(** the node got other children *)
Lemma node_put h a c t l X h1 k o' l' : nth_error h a = Some c -> plain (c_this c) = Some t -> ~ In a l' ->
  (List.length h <= List.length h1)%nat -> (forall x, (x < List.length h)%nat -> ~ In x X -> nth_error h1 x = nth_error h x) -> ~ In a X ->
  spread_kids h1 k o' l' -> (forall x, In x l' -> In x (l ++ X) \/ (List.length h <= x)%nat) ->
  let h' := set_cell h1 a {| c_this := c_this c; c_out := k |} in
  set_out a k h1 = (h', Ok tt) /\ spread h' a (Node t o') (a :: l') /\ evolves h ((a :: l) ++ X) h' (a :: l').
Proof.
  intros G P N L O NX K I h'. assert (La := nth_some_lt _ _ _ G). assert (G1 : nth_error h1 a = Some c) by (rewrite O; assumption). split; [apply set_out_ok, G1|]. split.
  - apply (sp_node _ a {| c_this := c_this c; c_out := k |}); auto; [apply set_cell_same; lia|]. apply (kids_frame h1); [exact K|]. intros x Hx. apply set_cell_other. intros ->. contradiction.
  - split; [unfold h'; rewrite set_cell_length; exact L| |].
    + intros x Hx Hn. unfold h'. rewrite set_cell_other by (intros ->; apply Hn; left; reflexivity). apply O; [exact Hx|]. intro H. apply Hn. apply in_app_iff. auto.
    + intros x [<-|Hx]; [left; left; reflexivity|]. destruct (I x Hx) as [H|H]; [left; right; exact H|auto].
Qed.

(** ** Add, AddNodes, Clear, DeleteAt *)
Inductive arg (h : heap) : value addr -> value graph -> list addr -> Prop :=
| arg_plain x v : plain x = Some v -> arg h x v []
| arg_graph b g l : spread h b g l -> arg h (VPtr (Some b)) (VPtr (Some g)) l.
Lemma arg_frame h l h' m x v n : evolves h l h' m -> arg h x v n -> disjoint n l -> arg h' x v n.
Proof. intros Ev A D. destruct A; [constructor; assumption|]. constructor. eapply frame_spread; eauto. Qed.
Lemma arg_lt h x v n : arg h x v n -> forall y, In y n -> (y < List.length h)%nat.
Proof. intros A y Hy. destruct A; [contradiction Hy|]. eapply spread_lt; eauto. Qed.
Definition leaf_of (v : value addr) : cell := {| c_this := v; c_out := [] |}.
Lemma alloc_ok h x v : plain x = Some v -> alloc (leaf_of x) h = (h ++ [leaf_of x], Ok (List.length h)) /\ spread (h ++ [leaf_of x]) (List.length h) (New v) [List.length h].
Proof.
  intro P. split; [reflexivity|]. apply (sp_node _ _ (leaf_of x)); [rewrite nth_error_app2, Nat.sub_diag by lia; reflexivity|exact P|constructor|intros []].
Qed.
Lemma alloc_evolves h l x : evolves h l (h ++ [x]) l.
Proof. split; [rewrite app_length; lia| |auto]. intros y Hy _. apply nth_error_app1. exact Hy. Qed.
(** children are appended, that may have been part of something else ([X]) or are new *)
Lemma append_ok h a t o m X h1 k o' l2 : spread h a (Node t o) m -> disjoint X m -> evolves h [] h1 l2 \/ (h1 = h /\ forall x, In x l2 -> In x X) ->
  spread_kids h1 k o' l2 -> disjoint l2 m ->
  exists c h' m', load a h1 = (h1, Ok c) /\ set_out a (c_out c ++ k) h1 = (h', Ok tt) /\ nth_error h' a = Some {| c_this := c_this c; c_out := c_out c ++ k |} /\ List.length h' = List.length h1 /\
    List.length (c_out c) = List.length o /\ spread h' a (Node t (o ++ o')) m' /\ evolves h (m ++ X) h' m'.
Proof.
  intros S DX Hh K2 D2. destruct (spread_inv _ _ _ _ _ S) as (c & l & -> & G & P & K & N).
  assert (La := nth_some_lt _ _ _ G).
  assert (L1 : (List.length h <= List.length h1)%nat) by (destruct Hh as [Ev|[-> _]]; [apply Ev|lia]).
  assert (O1 : forall x, (x < List.length h)%nat -> nth_error h1 x = nth_error h x) by (destruct Hh as [Ev|[-> _]]; [intros x Hx; apply (ev_out _ _ _ _ Ev x Hx); intros []|auto]).
  assert (I1 : forall x, In x l2 -> In x X \/ (List.length h <= x)%nat) by (destruct Hh as [Ev|[-> HX]]; [intros x Hx; destruct (ev_in _ _ _ _ Ev x Hx) as [[]|]; auto|auto]).
  assert (K1 : spread_kids h1 (c_out c) o l) by (apply (kids_frame h); [exact K|]; intros x Hx; apply O1; eapply kids_lt; eauto).
  destruct (node_put h a c t l X h1 (c_out c ++ k) (o ++ o') (l ++ l2)) as (Q & S' & Ev); auto.
  - rewrite in_app_iff. intros [H|H]; [contradiction|]. apply (D2 a H). left. reflexivity.
  - intro H. apply (DX a H). left. reflexivity.
  - apply kids_app; auto. apply disjoint_sym. intros x Hx Hy. apply (D2 x Hx). right. exact Hy.
  - intros x Hx. rewrite in_app_iff in *. destruct Hx as [Hx|Hx]; [auto|]. destruct (I1 x Hx); auto.
  - exists c. do 2 eexists. split; [apply load_ok; rewrite O1; assumption|]. split; [exact Q|]. split; [apply set_cell_same; lia|]. split; [apply set_cell_length|].
    split; [symmetry; eapply kids_length; eauto|]. split; [exact S'|exact Ev].
Qed.
Lemma append_leaf h a t o m X x v : spread h a (Node t o) m -> disjoint X m -> plain x = Some v ->
  exists c h' m', (do n <- alloc (leaf_of x); do c <- load a; do _ <- set_out a (c_out c ++ [Some n]); ret (Some n)) h = (h', Ok (Some (List.length h))) /\
    nth_error h' a = Some {| c_this := c_this c; c_out := c_out c ++ [Some (List.length h)] |} /\ List.length (c_out c) = List.length o /\
    spread h' a (Node t (o ++ [Some (New v)])) m' /\ evolves h (m ++ X) h' m' /\ List.length h' = S (List.length h).
Proof.
  intros S DX P. destruct (alloc_ok h x v P) as [Q Sn]. set (n := List.length h) in *.
  assert (Hlt : forall y, In y m -> (y < n)%nat) by (intros y Hy; eapply spread_lt; eauto).
  destruct (append_ok h a t o m X (h ++ [leaf_of x]) [Some n] [Some (New v)] [n]) as (c & h' & m' & Ql & Qs & G' & Lh & Ln & S' & Ev); auto.
  - left. destruct (alloc_evolves h [] (leaf_of x)) as [L O _]. split; [exact L|exact O|]. intros y [<-|[]]. right. lia.
  - change [n] with ([n] ++ []). apply sp_some; [exact Sn|constructor|intros y _ []].
  - intros y [<-|[]] Hy. specialize (Hlt _ Hy). lia.
  - exists c, h', m'. split; [|rewrite app_length in Lh; cbn in Lh; do 4 (split; [assumption|]); unfold n in *; lia].
    rewrite (mbind_ok _ _ _ _ _ _ _ Q), (mbind_ok _ _ _ _ _ _ _ Ql), (mbind_ok _ _ _ _ _ _ _ Qs). reflexivity.
Qed.
Lemma hAdd_leaf a x (v : value graph) : plain x = Some v -> x <> VNil -> hAdd (Some a) x = (do n <- alloc (leaf_of x); do c <- load a; do _ <- set_out a (c_out c ++ [Some n]); ret (Some n)).
Proof. intros P N. destruct x as [| | | | | | |[b|]| | |]; try congruence; try reflexivity. discriminate P. Qed.
Lemma haddNodes_leaf a x (v : value graph) : plain x = Some v -> x <> VNil -> haddNodes (Some a) x = (do n <- alloc (leaf_of x); do c <- load a; do _ <- set_out a (c_out c ++ [Some n]); ret (Some n)).
Proof. intros P N. destruct x as [| | | | | | |[b|]| | |]; try congruence; try reflexivity. discriminate P. Qed.
Lemma leaf_outs (x : value addr) v : plain x = Some v -> x <> VNil -> add_out v = [Some (New v)] /\ addNodes_out v = [Some (New v)] /\ add_ret v = Some (New v).
Proof. intros P N. destruct x as [| | | | | | |[b|]| | |]; try congruence; try discriminate P; injection P as <-; repeat split. Qed.
Lemma evolves_shrink h l m : (forall x, In x m -> In x l) -> evolves h l h m.
Proof. intro H. split; auto. Qed.
Lemma hAdd_ok h a t o m x v X : spread h a (Node t o) m -> arg h x v X -> disjoint X m ->
  exists h' r m', hAdd (Some a) x h = (h', Ok r) /\ spread h' a (Node t (o ++ add_out v)) m' /\ evolves h (m ++ X) h' m'.
Proof.
  intros S A D. destruct A as [x v P|b g l Sb].
  - assert (Dec : x = VNil \/ x <> VNil) by (destruct x; (left; reflexivity) || (right; discriminate)). destruct Dec as [->|N].
    + injection P as <-. exists h, None, m. split; [reflexivity|]. cbn [add_out]. rewrite !app_nil_r. split; [exact S|apply evolves_refl].
    + rewrite (hAdd_leaf a x v P N). destruct (leaf_outs x v P N) as (-> & _). destruct (append_leaf h a t o m [] x v S D P) as (c & h' & m' & Q & _ & _ & S' & Ev & _). exists h'. do 2 eexists. split; [exact Q|]. split; [exact S'|exact Ev].
  - destruct (append_ok h a t o m l h [Some b] [Some g] l) as (c & h' & m' & Ql & Qs & G' & Lh & Ln & S' & Ev); auto.
    + rewrite <- (app_nil_r l). apply sp_some; [exact Sb|constructor|intros y _ []].
    + exists h', (Some b), m'. split; [|split; [exact S'|exact Ev]]. unfold hAdd. rewrite (mbind_ok _ _ _ _ _ _ _ Ql), (mbind_ok _ _ _ _ _ _ _ Qs). reflexivity.
Qed.
Lemma hAddNodes_ok h a t o m b g2 l : spread h a (Node t o) m -> spread h b g2 l -> disjoint l m ->
  exists h' m', hAddNodes (Some a) (Some b) h = (h', Ok (Some a)) /\ spread h' a (Node t (o ++ out g2)) m' /\ evolves h (m ++ l) h' m'.
Proof.
  intros S Sb D. destruct g2 as [t2 o2]. destruct (spread_inv _ _ _ _ _ Sb) as (d & l2 & -> & G2 & P2 & K2 & N2).
  destruct (append_ok h a t o m (b :: l2) h (c_out d) o2 l2) as (c & h' & m' & Ql & Qs & G' & Lh & Ln & S' & Ev); auto.
  - right. split; [reflexivity|]. intros x Hx. right. exact Hx.
  - intros x Hx. apply D. right. exact Hx.
  - exists h', m'. split; [|split; [exact S'|exact Ev]]. unfold hAddNodes. rewrite (mbind_ok _ _ _ _ _ _ _ Ql), (mbind_ok _ _ _ _ _ _ _ (load_ok _ _ _ G2)), (mbind_ok _ _ _ _ _ _ _ Qs). reflexivity.
Qed.
(** the children are replaced by some of them *)
Lemma replace_ok h a t o m k o' l' : spread h a (Node t o) m -> (forall c l, nth_error h a = Some c -> spread_kids h (c_out c) o l -> spread_kids h k o' l' /\ forall x, In x l' -> In x l) ->
  exists h', set_out a k h = (h', Ok tt) /\ spread h' a (Node t o') (a :: l') /\ evolves h m h' (a :: l').
Proof.
  intros S H. destruct (spread_inv _ _ _ _ _ S) as (c & l & -> & G & P & K & N). destruct (H c l G K) as [K' I].
  destruct (node_put h a c t l [] h k o' l') as (Q & S' & Ev); auto.
  - intros x Hx. left. rewrite app_nil_r. auto.
  - eexists. split; [exact Q|]. split; [exact S'|]. rewrite app_nil_r in Ev. exact Ev.
Qed.
Lemma hClear_ok h a t o m : spread h a (Node t o) m -> exists h', set_out a [] h = (h', Ok tt) /\ spread h' a (Node t []) [a] /\ evolves h m h' [a].
Proof. intro S. apply (replace_ok h a t o m [] [] [] S). intros c l _ _. split; [constructor|intros x []]. Qed.
Lemma kids_firstn h i : forall k o l, spread_kids h k o l -> exists l', spread_kids h (firstn i k) (firstn i o) l' /\ (forall x, In x l' -> In x l).
Proof.
  induction i as [|i IH]; intros k o l K; [exists []; split; [constructor|intros x []]|].
  destruct K as [|k o l K|a g m k o l S K D]; cbn [firstn]; [exists []; split; [constructor|intros x []]| |]; destruct (IH _ _ _ K) as (l' & K' & I).
  - exists l'. split; [constructor; exact K'|exact I].
  - exists (m ++ l'). split; [apply sp_some; auto; intros x Hx Hy; exact (D x Hx (I x Hy))|]. intros x Hx. apply in_app_iff in Hx. apply in_app_iff. destruct Hx; auto.
Qed.
Lemma kids_remove h i : forall k o l, spread_kids h k o l -> exists l', spread_kids h (firstn i k ++ skipn (S i) k) (firstn i o ++ skipn (S i) o) l' /\ (forall x, In x l' -> In x l).
Proof.
  induction i as [|i IH]; intros k o l K.
  - destruct K as [|k o l K|a g m k o l S K D]; cbn [firstn skipn app]; [exists []; split; [constructor|intros x []]| |]; exists l; (split; [exact K|]); [auto|intros x Hx; apply in_app_iff; auto].
  - destruct K as [|k o l K|a g m k o l S K D]; [exists []; split; [apply sp_nil|intros x []]| |]; destruct (IH _ _ _ K) as (l' & K' & I).
    + exists l'. split; [apply sp_none; exact K'|exact I].
    + exists (m ++ l'). split; [apply sp_some; auto; intros x Hx Hy; exact (D x Hx (I x Hy))|]. intros x Hx. apply in_app_iff in Hx. apply in_app_iff. destruct Hx; auto.
Qed.

(** ** A child of a node *)
Lemma focus_node h a t o m c : spread h a (Node t o) m -> nth_error h a = Some c -> forall i b, nth_error (c_out c) i = Some (Some b) ->
  exists g mb, nth_error o i = Some (Some g) /\ spread h b g mb /\ (forall x, In x mb -> In x m) /\
    forall X h' g' m', disjoint X m -> spread h' b g' m' -> evolves h (mb ++ X) h' m' ->
      exists m2, spread h' a (Node t (set_nth i (Some g') o)) m2 /\ evolves h (m ++ X) h' m2.
Proof.
  intros S G i b N. destruct (spread_inv _ _ _ _ _ S) as (c' & l & -> & G' & P & K & Na). rewrite G in G'. injection G' as <-.
  destruct (focus h _ _ _ K i b N) as (g & mb & No & Sb & I & R). exists g, mb. split; [exact No|]. split; [exact Sb|]. split; [intros x Hx; right; auto|].
  intros X h' g' m' DX S' Ev. destruct (R X h' g' m') as (l' & K' & Ev'); auto; [intros x Hx Hy; apply (DX x Hx); right; exact Hy|].
  eexists. apply (node_after h a c t l X h' _ l'); auto. intro H. apply (DX a H). left. reflexivity.
Qed.
Lemma plain_string E f x v h : plain x = Some v -> hstring E f x h = (h, Ok (sstring E v)) /\ vstring E v = Ok (sstring E v).
Proof. destruct x as [| | | | | | |[b|]| | |]; intro P; try discriminate P; injection P as <-; destruct f; split; reflexivity. Qed.
Lemma hfind_ok E f s h : forall k o l, spread_kids h k o l ->
  refines (hfind E f s k) h (find_child E s o) (fun h' r i => h' = h /\ match i with None => r = None | Some i => exists a, r = Some a /\ nth_error k i = Some (Some a) end).
Proof.
  induction 1 as [|k o l K IH|b g m k o l S K IH D]; cbn [hfind find_child].
  - apply refines_ret. auto.
  - exists h. reflexivity.
  - destruct g as [t go]. destruct (spread_inv _ _ _ _ _ S) as (c & l' & -> & G & P & _). cbn [this]. destruct (plain_string E f _ _ h P) as [Q1 Q2]. rewrite Q2. cbn [rbind].
    eapply refines_ok; [reflexivity|]. eapply refines_ok; [apply load_ok, G|]. eapply refines_ok; [exact Q1|]. destruct (bseq s (sstring E t)).
    + apply refines_ret. split; [reflexivity|]. exists b. split; reflexivity.
    + destruct (find_child E s o) as [[i|]| |]; cbn in *.
      * destruct IH as (h' & r & Q & -> & b' & -> & Nb). exists h, (Some b'). split; [exact Q|]. split; [reflexivity|]. exists b'. auto.
      * destruct IH as (h' & r & Q & -> & ->). exists h, None. auto.
      * exact IH.
      * exact IH.
Qed.
Lemma hNode_ok E f s h a t o m c : spread h a (Node t o) m -> nth_error h a = Some c ->
  refines (hNode E f (Some a) s) h (find_child E s o) (fun h' r i => h' = h /\ match i with None => r = None | Some i => exists b, r = Some b /\ nth_error (c_out c) i = Some (Some b) end).
Proof.
  intros S G. destruct (spread_inv _ _ _ _ _ S) as (c' & l & -> & G' & P & K & Na). rewrite G in G'. injection G' as <-. unfold hNode. eapply refines_ok; [apply load_ok, G|]. apply hfind_ok with (l := l). exact K.
Qed.

(** ** set *)
Lemma haddNodes_ok h a t o m x v X : spread h a (Node t o) m -> arg h x v X -> disjoint X m ->
  exists h' r m', haddNodes (Some a) x h = (h', Ok r) /\ spread h' a (Node t (o ++ addNodes_out v)) m' /\ evolves h (m ++ X) h' m'.
Proof.
  intros S A D. destruct A as [x v P|b g l Sb].
  - assert (Dec : x = VNil \/ x <> VNil) by (destruct x; (left; reflexivity) || (right; discriminate)). destruct Dec as [->|N].
    + injection P as <-. exists h, None, m. split; [reflexivity|]. cbn [addNodes_out]. rewrite !app_nil_r. split; [exact S|apply evolves_refl].
    + rewrite (haddNodes_leaf a x v P N). destruct (leaf_outs x v P N) as (_ & -> & _). destruct (append_leaf h a t o m [] x v S D P) as (c & h' & m' & Q & _ & _ & S' & Ev & _). exists h'. do 2 eexists. split; [exact Q|]. split; [exact S'|exact Ev].
  - destruct g as [t2 o2]. destruct (spread_inv _ _ _ _ _ Sb) as (d & l2 & -> & G2 & P2 & K2 & N2).
    destruct (append_ok h a t o m (b :: l2) h (c_out d) o2 l2) as (c & h' & m' & Ql & Qs & G' & Lh & Ln & S' & Ev); auto.
    + right. split; [reflexivity|]. intros y Hy. right. exact Hy.
    + intros y Hy. apply D. right. exact Hy.
    + exists h', (Some b), m'. split; [|split; [exact S'|exact Ev]]. unfold haddNodes. rewrite (mbind_ok _ _ _ _ _ _ _ Ql), (mbind_ok _ _ _ _ _ _ _ (load_ok _ _ _ G2)), (mbind_ok _ _ _ _ _ _ _ Qs). reflexivity.
Qed.
Lemma spread_root h a g m : spread h a g m -> In a m.
Proof. intro S. destruct S. left. reflexivity. Qed.
Lemma evolves_step h m X h1 m1 h2 m2 : evolves h m h1 m1 -> evolves h1 (m1 ++ X) h2 m2 -> evolves h (m ++ X) h2 m2.
Proof.
  intros E1 E2. apply (evolves_trans h (m ++ X) h1 (m1 ++ X) h2 m2); [|exact E2]. destruct E1 as [L O I]. split; [exact L| |].
  - intros x Hx Hn. apply O; [exact Hx|]. rewrite in_app_iff in Hn. tauto.
  - intros x Hx. rewrite in_app_iff in *. destruct Hx as [Hx|Hx]; [|tauto]. destruct (I x Hx); tauto.
Qed.
Lemma hset_here_ok h a t o m x v X : spread h a (Node t o) m -> arg h x v X -> disjoint X m ->
  exists h' r m', hset_here a x h = (h', Ok r) /\ spread h' a (Node t (addNodes_out v)) m' /\ evolves h (m ++ X) h' m'.
Proof.
  intros S A D. destruct (hClear_ok h a t o m S) as (h1 & Q1 & S1 & E1).
  assert (A1 : arg h1 x v X) by (eapply arg_frame; eauto). assert (D1 : disjoint X [a]) by (intros y Hy [<-|[]]; apply (D _ Hy); eapply spread_root; eauto).
  destruct (haddNodes_ok h1 a t [] [a] x v X S1 A1 D1) as (h2 & r & m2 & Q2 & S2 & E2). exists h2, r, m2. split; [unfold hset_here; rewrite (mbind_ok _ _ _ _ _ _ _ Q1); exact Q2|]. split; [exact S2|].
  eapply evolves_step; eauto.
Qed.
(** the children stretched to an index *)
Fixpoint put_graph (o : list (option graph)) (i : nat) (n : option graph) : list (option graph) :=
  match i, o with
  | O, [] => [n]
  | O, _ :: o' => n :: o'
  | S i', [] => None :: put_graph [] i' n
  | S i', c :: o' => c :: put_graph o' i' n
  end.
Lemma set_nth_repeat n : forall i, set_nth i n (repeat None (S i)) = put_graph [] i n.
Proof. induction i as [|i IH]; [reflexivity|]. cbn [repeat set_nth put_graph]. f_equal. exact IH. Qed.
Lemma set_index_put n : forall o i, (0 <= i) -> set_nth (Z.to_nat i) n (if Z.of_nat (List.length o) <=? i then o ++ repeat None (Z.to_nat (i + 1) - List.length o) else o) = put_graph o (Z.to_nat i) n.
Proof.
  assert (H : forall o i, set_nth i n (if (List.length o <=? i)%nat then o ++ repeat None (S i - List.length o) else o) = put_graph o i n).
  { induction o as [|c o IH]; intro i.
    - cbn [List.length Nat.leb app]. rewrite Nat.sub_0_r. apply set_nth_repeat.
    - destruct i as [|i]; [reflexivity|]. cbn [put_graph]. rewrite <- IH. cbn [List.length Nat.leb Nat.sub]. destruct (List.length o <=? i)%nat; reflexivity. }
  intros o i Hi. rewrite <- H. replace (Z.to_nat (i + 1)) with (S (Z.to_nat i)) by lia.
  destruct (Z.leb_spec (Z.of_nat (List.length o)) i); destruct (Nat.leb_spec (List.length o) (Z.to_nat i)); try lia; reflexivity.
Qed.
Lemma kids_put h b g m i : spread h b g m -> forall k o l, spread_kids h k o l -> disjoint m l ->
  exists l', spread_kids h (put_at k i (Some b)) (put_graph o i (Some g)) l' /\ forall x, In x l' -> In x m \/ In x l.
Proof.
  intro S. induction i as [|i IH]; intros k o l K D.
  - destruct K as [|k o l K|c gc mc k o l Sc K Dc]; cbn [put_at put_graph].
    + exists (m ++ []). split; [apply sp_some; [exact S|constructor|intros x _ []]|]. intros x Hx. rewrite app_nil_r in Hx. auto.
    + exists (m ++ l). split; [apply sp_some; auto|]. intros x Hx. apply in_app_iff. exact Hx.
    + exists (m ++ l). apply disjoint_app_r in D. split; [apply sp_some; tauto|]. intros x Hx. rewrite in_app_iff in *. tauto.
  - destruct K as [|k o l K|c gc mc k o l Sc K Dc]; cbn [put_at put_graph].
    + destruct (IH [] [] [] (sp_nil h)) as (l' & K' & I); [intros x _ []|]. exists l'. split; [constructor; exact K'|exact I].
    + destruct (IH k o l K D) as (l' & K' & I). exists l'. split; [constructor; exact K'|exact I].
    + apply disjoint_app_r in D. destruct D as [D1 D2]. destruct (IH k o l K D2) as (l' & K' & I). exists (mc ++ l'). split.
      * apply sp_some; auto. intros x Hx Hy. destruct (I x Hy) as [H|H]; [exact (D1 x H Hx)|exact (Dc x Hx H)].
      * intros x Hx. rewrite in_app_iff in *. destruct Hx as [Hx|Hx]; [tauto|]. destruct (I x Hx); tauto.
Qed.
Lemma hset_index_ok h a g m i x v : spread h a g m -> plain x = Some v ->
  refines (hset_index a i x) h (set_index g i v) (fun h' _ r => exists m', spread h' a (fst r) m' /\ evolves h m h' m').
Proof.
  intros S P. destruct g as [t o]. unfold hset_index, set_index. destruct (Z.ltb_spec i 0) as [Hi|Hi]; [exists h; reflexivity|].
  cbn [out this]. rewrite set_index_put by exact Hi. destruct (alloc_ok h x v P) as [Q Sn]. set (n := List.length h) in *. set (h1 := h ++ [leaf_of x]) in *.
  destruct (spread_inv _ _ _ _ _ S) as (c & l & -> & G & Pc & K & Na).
  assert (O1 : forall y, (y < List.length h)%nat -> nth_error h1 y = nth_error h y) by (intros y Hy; apply nth_error_app1; exact Hy).
  assert (G1 : nth_error h1 a = Some c) by (rewrite O1; [exact G|eapply nth_some_lt; eauto]).
  assert (K1 : spread_kids h1 (c_out c) o l) by (apply (kids_frame h); [exact K|]; intros y Hy; apply O1; eapply kids_lt; eauto).
  destruct (kids_put h1 n (New v) [n] (Z.to_nat i) Sn _ _ _ K1) as (l' & K' & I).
  { intros y [<-|[]] Hy. assert (H := kids_lt _ _ _ _ K _ Hy). unfold n in H. lia. }
  assert (La := nth_some_lt _ _ _ G).
  destruct (node_put h a c t l [] h1 (put_at (c_out c) (Z.to_nat i) (Some n)) (put_graph o (Z.to_nat i) (Some (New v))) l') as (Qs & S' & Ev); auto.
  - intro H. destruct (I a H) as [[<-|[]]|H']; [unfold n in La; lia|contradiction].
  - unfold h1. rewrite app_length. lia.
  - intros y Hy. destruct (I y Hy) as [[<-|[]]|H]; [right; unfold n; lia|left; rewrite app_nil_r; exact H].
  - eapply refines_ok; [exact Q|]. eapply refines_ok; [apply load_ok, G1|]. eapply refines_ok; [exact Qs|]. apply refines_ret. eexists. split; [exact S'|]. rewrite app_nil_r in Ev. exact Ev.
Qed.
Lemma index_elem E i : in64 i -> ThisString E (path_elem (HIndex i)) = Ok TypeIndex /\ Int64 E (path_elem (HIndex i)) None = Ok i.
Proof. intro Hi. split; [reflexivity|]. unfold path_elem, Int64, Interface. cbn [rbind this]. unfold v_int64f. cbn [rbind]. rewrite parse_format by (unfold in64 in Hi; lia). reflexivity. Qed.
Lemma set_nth_end {A} (x y : A) : forall l n, n = List.length l -> set_nth n x (l ++ [y]) = l ++ [x].
Proof. induction l as [|z l IH]; intros n ->; [reflexivity|]. cbn [List.length app set_nth]. f_equal. apply IH. reflexivity. Qed.
Lemma nth_end {A} (y : A) : forall l n, n = List.length l -> nth_error (l ++ [y]) n = Some y.
Proof. intros l n ->. rewrite nth_error_app2, Nat.sub_diag by lia. reflexivity. Qed.
Definition elems_ok (els : list helem) (x : value addr) : Prop :=
  (forall s, In (HName s) els -> s <> TypeIndex) /\ (forall k, In (HIndex k) els -> in64 k /\ exists v : value graph, plain x = Some v).
Lemma elems_tail e els x : elems_ok (e :: els) x -> elems_ok els x.
Proof. intros [H1 H2]. split; intros y Hy; [apply H1|apply H2]; right; exact Hy. Qed.
Lemma arg_of_plain h x v (v' : value graph) X : arg h x v X -> plain x = Some v' -> plain x = Some v /\ X = [].
Proof. intros A P. destruct A; [auto|discriminate P]. Qed.
Lemma index_case h a g m i x v X E els : spread h a g m -> arg h x v X -> disjoint X m -> elems_ok (HIndex i :: els) x ->
  refines (hset_index a i x) h (let* s := ThisString E (path_elem (HIndex i)) in if bseq s TypeIndex then let* i := Int64 E (path_elem (HIndex i)) None in set_index g i v else Panic)
    (fun h' _ r => exists m', spread h' a (fst r) m' /\ evolves h (m ++ X) h' m').
Proof.
  intros S A D [_ Hels]. destruct (Hels i (or_introl eq_refl)) as [Hi [v' P']]. destruct (arg_of_plain _ _ _ _ _ A P') as [P ->]. destruct (index_elem E i Hi) as [-> ->]. cbn [rbind].
  rewrite bseq_refl. rewrite app_nil_r. apply hset_index_ok; assumption.
Qed.
Lemma hset_new_ok E x v X : forall els h a g m, spread h a g m -> arg h x v X -> disjoint X m -> elems_ok els x ->
  refines (hset_new els a x) h (set_new E (map path_elem els) g v) (fun h' _ r => exists m', spread h' a (fst r) m' /\ evolves h (m ++ X) h' m').
Proof.
  induction els as [|[s|i] els IH]; intros h a [t o] m S A D Hels.
  - destruct (hset_here_ok h a t o m x v X S A D) as (h' & r & m' & Q & S' & Ev). exists h', r. split; [exact Q|]. exists m'. split; [exact S'|exact Ev].
  - cbn [map set_new hset_new]. change (ThisString E (path_elem (HName s))) with (@Ok bytes s). cbn [rbind]. destruct (bseq_spec s TypeIndex) as [->|_]; [destruct (proj1 Hels _ (or_introl eq_refl) eq_refl)|].
    cbn [path_elem this add_ret out]. rewrite (hAdd_leaf a (VStr s) (VStr s)) by (reflexivity || discriminate).
    destruct (append_leaf h a t o m [] (VStr s) (VStr s) S (fun _ F => match F with end) eq_refl) as (c & h1 & m1 & Q1 & G1 & Ln & S1 & E1 & _). rewrite app_nil_r in E1. set (n := List.length h) in *.
    destruct (focus_node h1 a _ _ m1 _ S1 G1 (List.length o) n (nth_end _ _ _ (eq_sym Ln))) as (gn & mb & Ng & Sn & In1 & R). rewrite (nth_end _ _ _ eq_refl) in Ng. injection Ng as <-.
    assert (DX1 : disjoint X m1) by (eapply evolves_disjoint; eauto; apply (arg_lt _ _ _ _ A)).
    eapply refines_ok; [exact Q1|]. eapply refines_ok; [reflexivity|].
    assert (H := IH h1 n (New (VStr s)) mb Sn (arg_frame _ _ _ _ _ _ _ E1 A D) (fun y Hy Hm => DX1 y Hy (In1 y Hm)) (elems_tail _ _ _ Hels)).
    destruct (set_new E (map path_elem els) (New (VStr s)) v) as [[g' r]| |]; cbn in *; [|exact H|exact H].
    destruct H as (h2 & r' & Q2 & m2 & S2 & E2). exists h2, r'. split; [exact Q2|]. destruct (R X h2 g' m2 DX1 S2 E2) as (m3 & S3 & E3). rewrite set_nth_end in S3 by reflexivity.
    exists m3. split; [exact S3|]. eapply evolves_step; eauto.
  - assert (H := index_case h a (Node t o) m i x v X E els S A D Hels). cbn [map set_new hset_new]. change (ThisString E (path_elem (HIndex i))) with (@Ok bytes TypeIndex) in *. cbn [rbind] in *. rewrite bseq_refl in *. exact H.
Qed.
Lemma child_at o i (g : graph) : nth_error o i = Some (Some g) -> child o i = Some g.
Proof. unfold child. intros ->. reflexivity. Qed.
Lemma hset_ok E f x v X : forall els h a g m, spread h a g m -> arg h x v X -> disjoint X m -> elems_ok els x ->
  refines (hset E f els a x) h (set_els E (map path_elem els) g v) (fun h' _ r => exists m', spread h' a (fst r) m' /\ evolves h (m ++ X) h' m').
Proof.
  induction els as [|[s|i] els IH]; intros h a [t o] m S A D Hels.
  - destruct (hset_here_ok h a t o m x v X S A D) as (h' & r & m' & Q & S' & Ev). exists h', r. split; [exact Q|]. exists m'. split; [exact S'|exact Ev].
  - cbn [map set_els hset]. change (ThisString E (path_elem (HName s))) with (@Ok bytes s). cbn [rbind]. destruct (bseq_spec s TypeIndex) as [->|_]; [destruct (proj1 Hels _ (or_introl eq_refl) eq_refl)|].
    destruct (spread_inv _ _ _ _ _ S) as (c & l & _ & G & _). cbn [out this].
    eapply refines_bind; [apply (hNode_ok E f s h a t o m c S G)|]. cbv beta. intros h' r i [-> Hi]. destruct i as [i|].
    + destruct Hi as (b & -> & Nb). destruct (focus_node h a t o m c S G i b Nb) as (gb & mb & Ng & Sb & In1 & R). rewrite (child_at _ _ _ Ng).
      assert (H := IH h b gb mb Sb A (fun y Hy Hm => D y Hy (In1 y Hm)) (elems_tail _ _ _ Hels)).
      destruct (set_els E (map path_elem els) gb v) as [[g' r]| |]; cbn in *; [|exact H|exact H].
      destruct H as (h2 & r' & Q2 & m2 & S2 & E2). exists h2, r'. split; [exact Q2|]. exact (R X h2 g' m2 D S2 E2).
    + subst r. apply (hset_new_ok E x v X (HName s :: els) h a (Node t o) m S A D Hels).
  - assert (H := index_case h a (Node t o) m i x v X E els S A D Hels). cbn [map set_els hset]. change (ThisString E (path_elem (HIndex i))) with (@Ok bytes TypeIndex) in *. cbn [rbind] in *. rewrite bseq_refl in *. exact H.
Qed.

(** ** NodeSet, Create *)
Lemma hNodeSet_ok E f h a g m s x v X : spread h a g m -> arg h x v X -> disjoint X m ->
  refines (hNodeSet E f (Some a) s x) h (NodeSet E (Some g) s v) (fun h' _ r => exists g' m', fst r = Some g' /\ spread h' a g' m' /\ evolves h (m ++ X) h' m').
Proof.
  intros S A D. destruct g as [t o]. destruct (spread_inv _ _ _ _ _ S) as (c & l & _ & G & _). assert (Hf := hNode_ok E f s h a t o m c S G). cbn [NodeSet].
  destruct (find_child E s o) as [[i|]| |]; cbn [rbind].
  - destruct Hf as (h' & r & Q & -> & b & -> & Nb). destruct (focus_node h a t o m c S G i b Nb) as ([tb ob] & mb & Ng & Sb & In1 & R).
    assert (Db : disjoint X mb) by (intros y Hy Hm; exact (D y Hy (In1 y Hm))).
    destruct (hClear_ok h b tb ob mb Sb) as (h1 & Q1 & S1 & E1).
    assert (D1 : disjoint X [b]) by (intros y Hy [<-|[]]; apply (Db _ Hy); eapply spread_root; eauto).
    destruct (hAdd_ok h1 b tb [] [b] x v X S1 (arg_frame _ _ _ _ _ _ _ E1 A Db) D1) as (h2 & r & m2 & Q2 & S2 & E2).
    destruct (R X h2 _ m2 D S2 (evolves_step _ _ _ _ _ _ _ E1 E2)) as (m3 & S3 & E3).
    exists h2, r. split.
    + unfold hNodeSet, hNodeOrNew. unfold mbind at 2. unfold mbind at 1. rewrite Q. cbn [ret]. unfold hClear. rewrite (mbind_ok _ _ _ _ _ _ _ Q1). exact Q2.
    + unfold upd_at. rewrite Ng. cbn [fst this]. do 2 eexists. split; [reflexivity|]. split; [exact S3|exact E3].
  - destruct Hf as (h' & r & Q & -> & ->).
    destruct (append_leaf h a t o m [] (VStr s) (VStr s) S (fun _ F => match F with end) eq_refl) as (d & h1 & m1 & Q1 & G1 & Ln & S1 & E1 & _). rewrite app_nil_r in E1. set (n := List.length h) in *.
    destruct (focus_node h1 a _ _ m1 _ S1 G1 (List.length o) n (nth_end _ _ _ (eq_sym Ln))) as (gn & mb & Ng & Sn & In1 & R). rewrite (nth_end _ _ _ eq_refl) in Ng. injection Ng as <-.
    assert (DX1 : disjoint X m1) by (eapply evolves_disjoint; eauto; apply (arg_lt _ _ _ _ A)).
    assert (Db : disjoint X mb) by (intros y Hy Hm; exact (DX1 y Hy (In1 y Hm))).
    destruct (hClear_ok h1 n _ _ mb Sn) as (h2 & Q2 & S2 & E2).
    assert (D2 : disjoint X [n]) by (intros y Hy [<-|[]]; apply (Db _ Hy); eapply spread_root; eauto).
    destruct (hAdd_ok h2 n _ [] [n] x v X S2 (arg_frame _ _ _ _ _ _ _ E2 (arg_frame _ _ _ _ _ _ _ E1 A D) Db) D2) as (h3 & r & m3 & Q3 & S3 & E3).
    destruct (R X h3 _ m3 DX1 S3 (evolves_step _ _ _ _ _ _ _ E2 E3)) as (m4 & S4 & E4). rewrite set_nth_end in S4 by reflexivity.
    exists h3, r. split.
    + unfold hNodeSet, hNodeOrNew. unfold mbind at 1. unfold mbind at 1. rewrite Q. rewrite (hAdd_leaf a (VStr s) (VStr s)) by (reflexivity || discriminate). rewrite Q1. unfold hClear. rewrite (mbind_ok _ _ _ _ _ _ _ Q2). exact Q3.
    + do 2 eexists. split; [reflexivity|]. split; [exact S4|]. eapply evolves_step; eauto.
  - destruct Hf as (h' & Q). exists h'. unfold hNodeSet, hNodeOrNew. unfold mbind at 1. unfold mbind at 1. rewrite Q. reflexivity.
  - exact Hf.
Qed.
Lemma hCreate_ok E f h a g m s : spread h a g m ->
  refines (hCreate E f (Some a) s) h (Create E (Some g) s) (fun h' _ r => exists g' m', fst r = Some g' /\ spread h' a g' m' /\ evolves h m h' m').
Proof.
  intros S. destruct g as [t o]. destruct (spread_inv _ _ _ _ _ S) as (c & l & _ & G & _). unfold hCreate. cbn [Create].
  eapply refines_bind; [apply (hNode_ok E f s h a t o m c S G)|]. cbv beta. intros h' r i [-> Hi]. destruct i as [i|].
  - destruct Hi as (b & -> & Nb). destruct (focus_node h a t o m c S G i b Nb) as ([tb ob] & mb & Ng & Sb & In1 & R).
    destruct (hClear_ok h b tb ob mb Sb) as (h1 & Q1 & S1 & E1). destruct (R [] h1 _ _ (fun _ F => match F with end) S1) as (m2 & S2 & E2); [rewrite app_nil_r; exact E1|]. rewrite app_nil_r in E2.
    eapply refines_ok; [exact Q1|]. apply refines_ret. unfold upd_at. rewrite Ng. cbn [fst this]. do 2 eexists. split; [reflexivity|]. split; [exact S2|exact E2].
  - subst r. rewrite (hAdd_leaf a (VStr s) (VStr s)) by (reflexivity || discriminate).
    destruct (append_leaf h a t o m [] (VStr s) (VStr s) S (fun _ F => match F with end) eq_refl) as (d & h1 & m1 & Q1 & G1 & Ln & S1 & E1 & _). rewrite app_nil_r in E1.
    do 2 eexists. split; [exact Q1|]. cbn [Add fst add_out]. do 2 eexists. split; [reflexivity|]. split; [exact S1|exact E1].
Qed.

(** ** Delete, DeleteAt *)
Lemma remove_at_eq i (o : list (option graph)) : (i < List.length o)%nat -> remove_at i o = firstn i o ++ skipn (S i) o.
Proof. intro H. unfold remove_at. destruct (Nat.ltb_spec i (List.length o - 1)); [reflexivity|]. rewrite (skipn_all2 o) by lia. rewrite app_nil_r. reflexivity. Qed.
Lemma put_less h a c t o l k o' l' : nth_error h a = Some c -> plain (c_this c) = Some t -> spread_kids h (c_out c) o l -> ~ In a l ->
  spread_kids h k o' l' -> (forall x, In x l' -> In x l) ->
  let h' := set_cell h a {| c_this := c_this c; c_out := k |} in
  set_out a k h = (h', Ok tt) /\ spread h' a (Node t o') (a :: l') /\ evolves h (a :: l) h' (a :: l').
Proof.
  intros G P K N K' I h'. destruct (node_put h a c t l [] h k o' l') as (Q & S' & Ev); auto.
  - intros x Hx. left. rewrite app_nil_r. auto.
  - split; [exact Q|]. split; [exact S'|]. rewrite app_nil_r in Ev. exact Ev.
Qed.
Lemma hDeleteAt_ok h a g m i : spread h a g m -> exists h' g' m', hDeleteAt (Some a) i h = (h', Ok tt) /\ DeleteAt (Some g) i = Some g' /\ spread h' a g' m' /\ evolves h m h' m'.
Proof.
  intros S. destruct g as [t o]. destruct (spread_inv _ _ _ _ _ S) as (c & l & -> & G & P & K & Na). assert (Ln := kids_length _ _ _ _ K).
  unfold hDeleteAt, DeleteAt. rewrite (mbind_ok _ _ _ _ _ _ _ (load_ok _ _ _ G)). unfold Len. cbn [out]. rewrite Ln.
  destruct ((i <? 0) || (Z.of_nat (List.length (c_out c)) <=? i)) eqn:Hb.
  - exists h. do 2 eexists. split; [reflexivity|]. split; [reflexivity|]. split; [exact S|apply evolves_refl].
  - apply Bool.orb_false_iff in Hb. destruct Hb as [H1 H2]. apply Z.ltb_ge in H1. apply Z.leb_gt in H2. rewrite remove_at_eq by lia.
    destruct (kids_remove h (Z.to_nat i) _ _ _ K) as (l' & K' & I). destruct (put_less h a c t o l _ _ _ G P K Na K' I) as (Q & S' & Ev).
    do 3 eexists. split; [exact Q|]. split; [reflexivity|]. split; [exact S'|exact Ev].
Qed.
Lemma heq_plain E x y v w : plain x = Some v -> plain y = Some w -> heq x y = iface_eq E v w.
Proof.
  destruct x as [| | | | | | |[b|]| | |], y as [| | | | | | |[d|]| | |]; intros P Q; try discriminate P; try discriminate Q; injection P as <-; injection Q as <-; reflexivity.
Qed.
Lemma hdel_ok E a t x v : plain x = Some v -> forall rest orest h done odone c l fuel,
  nth_error h a = Some c -> plain (c_this c) = Some t -> c_out c = done ++ rest -> spread_kids h (done ++ rest) (odone ++ orest) l -> ~ In a l ->
  List.length done = List.length odone -> (List.length orest < fuel)%nat ->
  refines (hdel a x done rest) h (delete_loop E fuel (List.length odone) v (odone ++ orest)) (fun h' _ o' => exists m', spread h' a (Node t o') m' /\ evolves h (a :: l) h' m').
Proof.
  intro Px. induction rest as [|n rest IH]; intros orest h done odone c l fuel G P Co K Na Ln Hf; (destruct fuel as [|fuel]; [lia|]).
  - assert (Lk := kids_length _ _ _ _ K). rewrite app_nil_r, app_length in Lk. destruct orest as [|? ?]; [|cbn in Lk; lia]. cbn [hdel delete_loop]. rewrite app_nil_r in K |- *. rewrite Nat.ltb_irrefl.
    apply refines_ret. rewrite app_nil_r in *. exists (a :: l). split; [|apply evolves_refl]. apply (sp_node _ a c); auto. rewrite Co. exact K.
  - destruct (kids_app_inv _ _ _ _ _ K) as (o1 & o2 & l1 & l2 & Eo & -> & Lo & K1 & K2 & Dl).
    assert (o1 = odone /\ o2 = orest) as [-> ->].
    { assert (HH : List.length o1 = List.length odone) by congruence. clear - Eo HH. revert o1 HH Eo. induction odone as [|z od IHo]; intros [|z1 o1] HH Eo; try discriminate HH; [auto|]. injection Eo as -> Eo. injection HH as HH. destruct (IHo o1 HH Eo) as [-> ->]. auto. }
    cbn [delete_loop]. assert (Lor := kids_length _ _ _ _ K2). cbn [List.length] in Lor. destruct orest as [|gn orest]; [discriminate Lor|].
    destruct (Nat.ltb_spec (List.length odone) (List.length (odone ++ gn :: orest))) as [_|Hl]; [|rewrite app_length in Hl; cbn in Hl; lia].
    unfold child. rewrite nth_error_app2, Nat.sub_diag by lia. cbn [nth_error hdel].
    inversion K2 as [|k0 o0 l0 K0|b g m k0 o0 l0 S0 K0 D0]; subst; clear K2; [exists h; reflexivity|].
    destruct g as [tb ob]. destruct (spread_inv _ _ _ _ _ S0) as (cb & lb & -> & Gb & Pb & _). cbn [this].
    eapply refines_ok; [reflexivity|]. eapply refines_ok; [apply load_ok, Gb|]. rewrite <- (heq_plain E _ _ _ _ Pb Px).
    destruct (heq (c_this cb) x) as [[|]| |] eqn:Hq; cbn [rbind].
    + eapply refines_ok; [reflexivity|]. cbv iota.
      rewrite remove_at_eq by (rewrite app_length; cbn; lia). rewrite firstn_app, Nat.sub_diag, firstn_all, firstn_O, app_nil_r. rewrite skipn_app. rewrite skipn_all2 by lia. cbn [app]. replace (S (List.length odone) - List.length odone)%nat with 1%nat by lia. cbn [skipn].
      assert (K' : spread_kids h (done ++ rest) (odone ++ orest) (l1 ++ l0)) by (apply kids_app; auto; intros y Hy Hz; apply (Dl y Hy), in_app_iff; auto).
      assert (I : forall y, In y (l1 ++ l0) -> In y (l1 ++ (b :: lb) ++ l0)) by (intros y Hy; rewrite !in_app_iff in *; tauto).
      rewrite <- Co in K. destruct (put_less h a c t _ _ (done ++ rest) _ _ G P K Na K' I) as (Q & S' & Ev).
      eapply refines_ok; [exact Q|].
      assert (La := nth_some_lt _ _ _ G).
      eapply refines_weaken; [eapply (IH orest _ done odone {| c_this := c_this c; c_out := done ++ rest |} (l1 ++ l0) fuel)|].
      * apply set_cell_same. exact La.
      * exact P.
      * reflexivity.
      * destruct (spread_inv _ _ _ _ _ S') as (c2 & l3 & El & G2 & _ & K3 & _). injection El as <-. rewrite set_cell_same in G2 by exact La. injection G2 as <-. exact K3.
      * intro H. apply Na, I, H.
      * exact Ln.
      * cbn in Hf. lia.
      * cbv beta. intros h2 _ o2 (m2 & S2 & E2). exists m2. split; [exact S2|]. eapply evolves_trans; eauto.
    + eapply refines_ok; [reflexivity|]. cbv iota.
      replace (odone ++ Some (Node tb ob) :: orest) with ((odone ++ [Some (Node tb ob)]) ++ orest) in * by (rewrite <- app_assoc; reflexivity).
      replace (done ++ Some b :: rest) with ((done ++ [Some b]) ++ rest) in * by (rewrite <- app_assoc; reflexivity).
      replace (S (List.length odone)) with (List.length (odone ++ [Some (Node tb ob)])) by (rewrite app_length; cbn; lia).
      eapply (IH orest h (done ++ [Some b]) (odone ++ [Some (Node tb ob)]) c); eauto; [rewrite !app_length; cbn; lia|cbn in Hf; lia].
    + eapply refines_panic. reflexivity.
    + exfalso. clear - Hq. destruct (c_this cb) as [| | | | | | |[?|]| | |], x as [| | | | | | |[?|]| | |]; discriminate Hq.
Qed.
Lemma hDelete_ok E h a g m x v : plain x = Some v -> spread h a g m ->
  refines (hDelete (Some a) x) h (Delete E (Some g) v) (fun h' _ r => exists g' m', r = Some g' /\ spread h' a g' m' /\ evolves h m h' m').
Proof.
  intros Px Sp. destruct g as [t o]. destruct (spread_inv _ _ _ _ _ Sp) as (c & l & -> & G & P & K & Na). unfold hDelete. cbn [Delete]. eapply refines_ok; [apply load_ok, G|].
  assert (H := hdel_ok E a t x v Px (c_out c) o h [] [] c l (S (List.length o)) G P eq_refl K Na eq_refl (Nat.lt_succ_diag_r _)). cbn [app List.length] in H.
  destruct (delete_loop E (S (List.length o)) 0 v o) as [o'| |]; cbn in *; [|exact H|exact H]. destruct H as (h' & r & Q & m' & S' & Ev). exists h', r. split; [exact Q|]. do 2 eexists. split; [reflexivity|]. eauto.
Qed.

(** ** Copy *)
Fixpoint copies_list (o : list (option graph)) : res (list (option graph)) :=
  match o with
  | [] => Ok []
  | None :: _ => Panic
  | Some n :: o' =>
      let* k := match this n with VNil => Ok [] | _ => copies n end in
      let* r := copies_list o' in
      Ok (match this n with VNil => [] | VPtr (Some m) => [Some (Node (this m) (out m ++ k))] | v => [Some (Node v k)] end ++ r)
  end.
Lemma copies_eq t o : copies (Node t o) = copies_list o.
Proof. reflexivity. Qed.
Lemma copy_child (x : value addr) v n k : plain x = Some v -> x <> VNil -> this n = v ->
  match this n with VNil => Ok [] | _ => copies n end = copies n /\
  (match this n with VNil => [] | VPtr (Some m) => [Some (Node (this m) (out m ++ k))] | v => [Some (Node v k)] end) = [Some (Node v k)].
Proof. intros P N ->. destruct x as [| | | | | | |[b|]| | |]; try congruence; try discriminate P; injection P as <-; split; reflexivity. Qed.
Lemma lv_cons c o : lv (Some c :: o) = Nat.max (levels c) (lv o).
Proof. reflexivity. Qed.
Definition copy_body (f : nat) (a : addr) (n : option addr) : M unit := do n <- deref n; do e <- load n; do nn <- hAdd (Some a) (c_this e); hCopy f nn (Some n).
Lemma hCopy_ok : forall f h a t o m b g l, spread h a (Node t o) m -> spread h b g l -> disjoint l m -> (levels g <= f)%nat ->
  refines (hCopy f (Some a) (Some b)) h (copies g) (fun h' _ k => exists m', spread h' a (Node t (o ++ k)) m' /\ evolves h m h' m').
Proof.
  induction f as [|f IH]; intros h a t o m b g l Sp Sb D Hl; [destruct g as [tg og]; rewrite levels_eq in Hl; lia|].
  destruct g as [tg og]. rewrite levels_eq in Hl. rewrite copies_eq. destruct (spread_inv _ _ _ _ _ Sb) as (c & lk & -> & G & P & K & Na).
  cbn [hCopy]. eapply refines_ok; [apply load_ok, G|]. change (refines (each (copy_body f a) (c_out c)) h (copies_list og) (fun h' _ k => exists m', spread h' a (Node t (o ++ k)) m' /\ evolves h m h' m')).
  assert (D' : disjoint lk m) by (intros y Hy; apply D; right; exact Hy). assert (Hl' : (lv og <= f)%nat) by lia. clear Hl D Na P G Sb tg.
  revert K. generalize (c_out c). clear c b. intro rest. revert og lk h o m Sp D' Hl'. induction rest as [|n rest IHr]; intros og lk h o m Sp D Hl K.
  - inversion K; subst. apply refines_ret. exists m. rewrite app_nil_r. split; [exact Sp|apply evolves_refl].
  - inversion K as [|k0 o0 l0 K0|b g mb k0 o0 l0 S0 K0 D0]; subst; clear K; [exists h; reflexivity|].
    apply disjoint_app_l in D. destruct D as [Db Dr]. rewrite lv_cons in Hl. cbn [each copies_list].
    destruct g as [tb ob]. destruct (spread_inv _ _ _ _ _ S0) as (cb & lb & Emb & Gb & Pb & _).
    assert (Dec : c_this cb = VNil \/ c_this cb <> VNil) by (destruct (c_this cb); (left; reflexivity) || (right; discriminate)). destruct Dec as [Hn|Hn].
    + rewrite Hn in Pb. injection Pb as <-. cbn [this rbind app].
      assert (Q : copy_body f a (Some b) h = (h, Ok tt)) by (unfold copy_body; rewrite (mbind_ok _ _ _ _ _ _ _ (eq_refl (h, Ok b))), (mbind_ok _ _ _ _ _ _ _ (load_ok _ _ _ Gb)), Hn; destruct f; reflexivity).
      eapply refines_ok; [exact Q|]. cbv beta. assert (H := IHr o0 l0 h o m Sp Dr ltac:(lia) K0). destruct (copies_list o0) as [k| |]; exact H.
    + destruct (append_leaf h a t o m [] _ _ Sp (fun _ F => match F with end) Pb) as (c1 & h1 & m1 & Q1 & G1 & Ln & S1 & E1 & _). rewrite app_nil_r in E1. set (n := List.length h) in *.
      destruct (focus_node h1 a _ _ m1 _ S1 G1 (List.length o) n (nth_end _ _ _ (eq_sym Ln))) as (gn & mn & Ng & Sn & In1 & R). rewrite (nth_end _ _ _ eq_refl) in Ng. injection Ng as <-.
      assert (Db1 : disjoint mb m1) by (eapply evolves_disjoint; eauto; apply (spread_lt _ _ _ _ S0)).
      assert (H := IH h1 n tb [] mn b (Node tb ob) mb Sn (frame_spread _ _ _ _ _ _ _ E1 S0 Db) (fun y Hy Hm => Db1 y Hy (In1 y Hm)) ltac:(lia)).
      assert (Q : forall r h2, hCopy f (Some n) (Some b) h1 = (h2, r) -> copy_body f a (Some b) h = (h2, r)).
      { intros r h2 Q2. unfold copy_body. rewrite (mbind_ok _ _ _ _ _ _ _ (eq_refl (h, Ok b))), (mbind_ok _ _ _ _ _ _ _ (load_ok _ _ _ Gb)). rewrite (hAdd_leaf a _ _ Pb Hn). rewrite (mbind_ok _ _ _ _ _ _ _ Q1). exact Q2. }
      destruct (copy_child _ _ (Node tb ob) [] Pb Hn eq_refl) as [-> _].
      destruct (copies (Node tb ob)) as [k| |]; cbn [rbind] in *; [|destruct H as (h2 & Q2); eapply refines_panic; apply (Q Panic h2 Q2)|exact H].
      destruct (copy_child _ _ (Node tb ob) k Pb Hn eq_refl) as [_ ->].
      destruct H as (h2 & [] & Q2 & m2 & S2 & E2). cbn [app] in S2. eapply refines_ok; [apply (Q (Ok tt) h2 Q2)|]. cbv beta.
      destruct (R [] h2 _ m2 (fun _ F => match F with end) S2) as (m3 & S3 & E3); [rewrite app_nil_r; exact E2|]. rewrite app_nil_r in E3. rewrite set_nth_end in S3 by reflexivity.
      assert (E13 := evolves_trans _ _ _ _ _ _ E1 E3).
      assert (Dr3 : disjoint l0 m3) by (eapply evolves_disjoint; eauto; apply (kids_lt _ _ _ _ K0)).
      assert (H := IHr o0 l0 h2 _ m3 S3 Dr3 ltac:(lia) (frame_kids _ _ _ _ _ _ _ E13 K0 Dr)).
      destruct (copies_list o0) as [ks| |]; cbn [rbind] in *; [|exact H|exact H].
      destruct H as (h4 & u & Q4 & m4 & S4 & E4). exists h4, u. split; [exact Q4|]. exists m4. rewrite <- app_assoc in S4. split; [exact S4|]. eapply evolves_trans; eauto.
Qed.

(** ** Clone *)
Lemma hClone_ok : forall f h a g l, spread h a g l -> (levels g <= f)%nat -> exists h' b m, hClone f (Some a) h = (h', Ok (Some b)) /\ spread h' b g m /\ evolves h [] h' m.
Proof.
  induction f as [|f IH]; intros h a g l Sp Hl; [destruct g as [tg og]; rewrite levels_eq in Hl; lia|].
  destruct g as [t o]. rewrite levels_eq in Hl. destruct (spread_inv _ _ _ _ _ Sp) as (c & lk & -> & G & P & K & Na).
  destruct (alloc_ok h _ _ P) as [Qa Sn]. set (n := List.length h) in *. set (h1 := h ++ [leaf_of (c_this c)]) in *.
  assert (E1 : evolves h [] h1 [n]).
  { destruct (alloc_evolves h [] (leaf_of (c_this c))) as [L O _]. split; [exact L|exact O|]. intros y [<-|[]]. right. unfold n. lia. }
  set (body := fun q => do m <- hClone f q; do x <- load n; set_out n (c_out x ++ [m])).
  assert (Loop : forall rest orest done lr hi mi, spread hi n (Node t done) mi -> evolves h [] hi mi -> spread_kids hi rest orest lr -> (forall y, In y lr -> (y < n)%nat) -> (lv orest <= f)%nat ->
    exists h' m', each body rest hi = (h', Ok tt) /\ spread h' n (Node t (done ++ orest)) m' /\ evolves h [] h' m').
  { induction rest as [|q rest IHr]; intros orest done lr hi mi Si Ei Kr Lr Hr.
    - inversion Kr; subst. exists hi, mi. rewrite app_nil_r. split; [reflexivity|]. split; [exact Si|exact Ei].
    - assert (Dn : forall u, (forall y, In y u -> (y < n)%nat) -> disjoint u mi) by (intros u Hu y Hy Hm; destruct (ev_in _ _ _ _ Ei y Hm) as [[]|H]; specialize (Hu y Hy); unfold n in Hu; lia).
      inversion Kr as [|k0 o0 l0 K0|b g mb k0 o0 l0 S0 K0 D0]; subst; clear Kr.
      + destruct (append_ok hi n t done mi [] hi [None] [None] []) as (x & h2 & m2 & Ql & Qs & _ & _ & _ & S2 & E2); auto; [intros y []|repeat constructor|intros y []|]. rewrite app_nil_r in E2.
        destruct (IHr o0 (done ++ [None]) lr h2 m2 S2 (evolves_trans _ _ _ _ _ _ Ei E2) (frame_kids _ _ _ _ _ _ _ E2 K0 (Dn _ Lr)) Lr Hr) as (h3 & m3 & Q3 & S3 & E3).
        exists h3, m3. rewrite <- app_assoc in S3. split; [|split; [exact S3|exact E3]]. rewrite (each_cons _ body None rest hi h2); [exact Q3|]. unfold body. rewrite (mbind_ok _ _ _ _ _ hi None) by (destruct f; reflexivity). rewrite (mbind_ok _ _ _ _ _ _ _ Ql). exact Qs.
      + rewrite lv_cons in Hr. destruct (IH hi b g mb S0 ltac:(lia)) as (h2 & b2 & m2 & Q2 & S2 & E2).
        assert (Lb : forall y, In y mb -> (y < n)%nat) by (intros y Hy; apply Lr, in_app_iff; auto). assert (L0 : forall y, In y l0 -> (y < n)%nat) by (intros y Hy; apply Lr, in_app_iff; auto).
        assert (Si2 := spread_lt _ _ _ _ Si).
        destruct (append_ok hi n t done mi [] h2 [Some b2] [Some g] (m2 ++ [])) as (x & h3 & m3 & Ql & Qs & _ & _ & _ & S3 & E3); auto.
        * intros y [].
        * left. rewrite app_nil_r. exact E2.
        * apply sp_some; [exact S2|constructor|intros y _ []].
        * rewrite app_nil_r. intros y Hy Hm. destruct (ev_in _ _ _ _ E2 y Hy) as [[]|H]. specialize (Si2 y Hm). lia.
        * rewrite app_nil_r in E3.
          destruct (IHr o0 (done ++ [Some g]) l0 h3 m3 S3 (evolves_trans _ _ _ _ _ _ Ei E3) (frame_kids _ _ _ _ _ _ _ E3 K0 (Dn _ L0)) L0 ltac:(lia)) as (h4 & m4 & Q4 & S4 & E4).
          exists h4, m4. rewrite <- app_assoc in S4. split; [|split; [exact S4|exact E4]]. rewrite (each_cons _ body (Some b) rest hi h3); [exact Q4|]. unfold body. rewrite (mbind_ok _ _ _ _ _ _ _ Q2), (mbind_ok _ _ _ _ _ _ _ Ql). exact Qs. }
  assert (Lk : forall y, In y lk -> (y < n)%nat) by (intros y Hy; apply (kids_lt _ _ _ _ K _ Hy)).
  destruct (Loop (c_out c) o [] lk h1 [n]) as (h' & m' & Q & S' & Ev); auto; [|lia|].
  - eapply frame_kids; eauto. intros y _ [].
  - exists h', n, m'. split; [|split; [exact S'|exact Ev]]. cbn [hClone]. rewrite (mbind_ok _ _ _ _ _ _ _ (load_ok _ _ _ G)). change {| c_this := c_this c; c_out := [] |} with (leaf_of (c_this c)). rewrite (mbind_ok _ _ _ _ _ _ _ Qa).
    fold body. rewrite (mbind_ok _ _ _ _ _ _ _ Q). reflexivity.
Qed.

(** ** Substitute *)
Section Substitute.
Variable E : env.
Variables (s : bytes) (x : value addr) (v : value graph).
Hypothesis Px : plain x = Some v.
Fixpoint subst_list (o : list (option graph)) : res (list (option graph)) :=
  match o with
  | [] => Ok []
  | None :: _ => Panic
  | Some n :: o' =>
      let* y := vstring E (this n) in
      let* n' := Substitute E n s v in
      let* r := subst_list o' in
      Ok (Some (if bseq y s then Node v (out n') else n') :: r)
  end.
Lemma Substitute_eq t o : Substitute E (Node t o) s v = (let* o' := subst_list o in Ok (Node t o')).
Proof. reflexivity. Qed.
Definition subst_body (f : nat) (n : option addr) : M unit :=
  do n <- deref n; do e <- load n; do t <- hstring E (S f) (c_this e);
  do _ <- (if bseq t s then store n {| c_this := x; c_out := c_out e |} else ret tt);
  hSubstitute E f (Some n) s x.
Lemma hSubstitute_ok : forall f h a t o m, spread h a (Node t o) m -> (lv o < f)%nat ->
  refines (hSubstitute E f (Some a) s x) h (subst_list o) (fun h' _ o' => exists m', spread h' a (Node t o') m' /\ evolves h m h' m').
Proof.
  induction f as [|f IH]; intros h a t o m Sp Hl; [lia|].
  assert (Loop : forall k h o l, spread_kids h k o l -> (lv o <= f)%nat -> refines (each (subst_body f) k) h (subst_list o) (fun h' _ o' => exists l', spread_kids h' k o' l' /\ evolves h l h' l')).
  { clear h a t o m Sp Hl. induction k as [|n k IHk]; intros h o l K Hl.
    - inversion K; subst. apply refines_ret. exists []. split; [constructor|apply evolves_refl].
    - inversion K as [|k0 o0 l0 K0|b g mb k0 o0 l0 S0 K0 D0]; subst; clear K; [exists h; reflexivity|].
      rewrite lv_cons in Hl. destruct g as [tb ob]. rewrite levels_eq in Hl. destruct (spread_inv _ _ _ _ _ S0) as (c & lb & Emb & G & P & Kb & Nb). cbn [each subst_list this]. rewrite Substitute_eq.
      destruct (plain_string E (S f) _ _ h P) as [Q1 Q2]. rewrite Q2. cbn [rbind].
      set (t1 := if bseq (sstring E tb) s then v else tb).
      assert (St : exists h1, (if bseq (sstring E tb) s then store b {| c_this := x; c_out := c_out c |} else ret tt) h = (h1, Ok tt) /\ spread h1 b (Node t1 ob) mb /\ evolves h mb h1 mb).
      { unfold t1. assert (Lb := nth_some_lt _ _ _ G). destruct (bseq (sstring E tb) s); [|exists h; split; [reflexivity|]; split; [exact S0|apply evolves_refl]]. eexists. split; [reflexivity|]. subst mb. split.
        - apply (sp_node _ b {| c_this := x; c_out := c_out c |}); auto; [apply set_cell_same; exact Lb|]. apply (kids_frame h); [exact Kb|]. intros y Hy. apply set_cell_other. intros ->. contradiction.
        - split; [rewrite set_cell_length; lia| |auto]. intros y Hy Hn. apply set_cell_other. intros ->. apply Hn. left. reflexivity. }
      destruct St as (h1 & Qs & S1 & E1).
      assert (Q : forall r h2, hSubstitute E f (Some b) s x h1 = (h2, r) -> subst_body f (Some b) h = (h2, r)).
      { intros r h2 Qr. unfold subst_body. rewrite (mbind_ok _ _ _ _ _ _ _ (eq_refl (h, Ok b))), (mbind_ok _ _ _ _ _ _ _ (load_ok _ _ _ G)), (mbind_ok _ _ _ _ _ _ _ Q1). cbv beta. rewrite (mbind_ok _ _ _ _ _ _ _ Qs). exact Qr. }
      assert (H := IH h1 b t1 ob mb S1 ltac:(lia)).
      destruct (subst_list ob) as [ob'| |]; cbn [rbind] in *; [|destruct H as (h2 & Q3); eapply refines_panic; apply (Q Panic h2 Q3)|exact H].
      destruct H as (h2 & [] & Q3 & m2 & S2 & E2). eapply refines_ok; [apply (Q _ _ Q3)|]. cbv beta. assert (E12 := evolves_trans _ _ _ _ _ _ E1 E2).
      assert (Dr : disjoint l0 mb) by (apply disjoint_sym; exact D0).
      assert (H := IHk h2 o0 l0 (frame_kids _ _ _ _ _ _ _ E12 K0 Dr) ltac:(lia)).
      destruct (subst_list o0) as [o0'| |]; cbn [rbind] in *; [|exact H|exact H].
      destruct H as (h3 & u & Q4 & l3 & K3 & E3). exists h3, u. split; [exact Q4|]. cbn [out].
      assert (D2 : disjoint m2 l0) by (apply disjoint_sym; eapply evolves_disjoint; eauto; apply (kids_lt _ _ _ _ K0)).
      exists (m2 ++ l3). split.
      + replace (if bseq (sstring E tb) s then Node v ob' else Node tb ob') with (Node t1 ob') by (unfold t1; destruct (bseq (sstring E tb) s); reflexivity).
        apply sp_some; [eapply frame_spread; eauto|exact K3|]. eapply evolves_disjoint; eauto. apply (spread_lt _ _ _ _ S2).
      + destruct E12 as [La Oa Ia], E3 as [Lb Ob Ib]. split; [lia| |].
        * intros y Hy Hn. rewrite in_app_iff in Hn. rewrite Ob by (lia || tauto). apply Oa; [exact Hy|tauto].
        * intros y Hy. rewrite in_app_iff in *. destruct Hy as [Hy|Hy]; [destruct (Ia y Hy); tauto|destruct (Ib y Hy) as [H|H]; [tauto|right; lia]]. }
  destruct (spread_inv _ _ _ _ _ Sp) as (c & l & -> & G & P & K & Na). cbn [hSubstitute]. eapply refines_ok; [apply load_ok, G|]. eapply refines_weaken; [apply (Loop (c_out c) h o l K); lia|].
  cbv beta. intros h' _ o' (l' & K' & Ev). assert (H := node_after h a c t l [] h' o' l' G P Na (fun F => F) K'). rewrite !app_nil_r in H. specialize (H Ev). exists (a :: l'). exact H.
Qed.
End Substitute.

(** ** Merge *)
Section Merge.
Variable E : env.
Fixpoint merge_list (so : list (option graph)) (g : graph) : res graph :=
  match so with
  | [] => Ok g
  | node :: so' =>
      let* s := String_ E node in
      let* i := find_child E s (out g) in
      match i with
      | None => merge_list so' (Node (this g) (out g ++ add_out (VPtr node)))
      | Some i =>
          match child (out g) i with
          | None => Panic
          | Some n =>
              let* n' := match node with None => Panic | Some node => Merge E node (Node (this n) []) end in
              merge_list so' (Node (this g) (set_nth i (Some n') (out g)))
          end
      end
  end.
Lemma Merge_eq t o g : Merge E (Node t o) g = merge_list o g.
Proof. reflexivity. Qed.
Lemma hString_ok f h k o l : spread_kids h k o l -> forall n rest g orest, k = n :: rest -> o = g :: orest -> refines (hString E (S f) n) h (String_ E g) (fun h' r y => h' = h /\ r = y).
Proof.
  intros K n rest g orest -> ->. inversion K as [|k0 o0 l0 K0|b [t ob] mb k0 o0 l0 S0 K0 D0]; subst; [apply refines_ret; auto|].
  destruct (spread_inv _ _ _ _ _ S0) as (c & lb & -> & G & P & Kb & Nb). unfold hString. cbn [hstring String_]. eapply refines_ok; [apply load_ok, G|].
  inversion Kb as [Ek|k1 o1 l1 K1 Ek|b1 [t1 ob1] mb1 k1 o1 l1 S1 K1 D1 Ek]; subst; cbn [gstring].
  - apply refines_ret. auto.
  - exists h. reflexivity.
  - destruct (spread_inv _ _ _ _ _ S1) as (c1 & lb1 & -> & G1 & P1 & _). eapply refines_ok; [apply load_ok, G1|].
    destruct (plain_string E f _ _ h P1) as [Q1 Q2]. replace (match t1 with VPtr None => Ok [] | VPtr (Some g') => gstring E g' | _ => Ok (sstring E t1) end) with (vstring E t1) by (destruct t1 as [| | | | | | |[?|]| | |]; reflexivity).
    rewrite Q2. do 2 eexists. split; [exact Q1|]. auto.
Qed.
Definition merge_body (f : nat) (g : option addr) (node : option addr) : M unit :=
  do s <- hString E (S f) node; do n <- hNode E (S f) g s;
  match n with
  | None => do _ <- hAdd g (VPtr node); ret tt
  | Some n => do _ <- set_out n []; do b <- deref node; hMerge E f (Some n) b
  end.
Lemma hMerge_ok : forall f h a g m b src l, spread h a g m -> spread h b src l -> disjoint l m -> (levels src <= f)%nat ->
  refines (hMerge E f (Some a) b) h (Merge E src g) (fun h' _ g' => exists m', spread h' a g' m' /\ evolves h (m ++ l) h' m').
Proof.
  induction f as [|f IH]; intros h a g m b src l Sp Sb D Hl; [destruct src as [ts os]; rewrite levels_eq in Hl; lia|].
  destruct src as [ts os]. rewrite levels_eq in Hl. rewrite Merge_eq. destruct (spread_inv _ _ _ _ _ Sb) as (cs & lk & -> & Gs & Ps & Ks & Ns).
  cbn [hMerge]. eapply refines_ok; [apply load_ok, Gs|]. change (refines (each (merge_body f (Some a)) (c_out cs)) h (merge_list os g) (fun h' _ g' => exists m', spread h' a g' m' /\ evolves h (m ++ b :: lk) h' m')).
  apply (refines_weaken _ _ _ (fun h' _ g' => exists m', spread h' a g' m' /\ evolves h (m ++ lk) h' m')).
  2:{ intros h' u g' (m' & S' & Ev). exists m'. split; [exact S'|]. eapply evolves_incl; [exact Ev|]. intros y Hy. rewrite in_app_iff in *. cbn [In]. tauto. }
  assert (D' : disjoint lk m) by (intros y Hy; apply D; right; exact Hy). assert (Hl' : (lv os <= f)%nat) by lia. clear Hl D Ns Ps Gs Sb ts.
  revert Ks. generalize (c_out cs). clear cs b. intro rest. revert os lk h g m Sp D' Hl'. induction rest as [|n rest IHr]; intros os lk h g m Sp D Hl K.
  - inversion K; subst. apply refines_ret. exists m. rewrite app_nil_r. split; [exact Sp|apply evolves_refl].
  - destruct os as [|gn os]; [inversion K|]. cbn [each merge_list]. destruct g as [t o]. cbn [out this].
    assert (Sep : exists X lr, lk = X ++ lr /\ spread_kids h rest os lr /\ disjoint X lr /\ arg h (VPtr n) (VPtr gn) X /\ match n, gn with Some b, Some g => spread h b g X /\ (levels g <= f)%nat | None, None => True | _, _ => False end /\ (lv os <= f)%nat).
    { inversion K as [|k0 o0 l0 K0|b gb mb k0 o0 l0 S0 K0 D0]; subst.
      - exists [], lk. split; [reflexivity|]. split; [exact K0|]. split; [intros y []|]. split; [constructor; reflexivity|]. split; [exact I|exact Hl].
      - exists mb, l0. rewrite lv_cons in Hl. split; [reflexivity|]. split; [exact K0|]. split; [exact D0|]. split; [constructor; exact S0|]. split; [split; [exact S0|lia]|lia]. }
    destruct Sep as (X & lr & -> & Kr & DXr & A & Hn & Hlr). apply disjoint_app_l in D. destruct D as [DX Dr].
    assert (Hs := hString_ok f h _ _ _ K n rest gn os eq_refl eq_refl).
    destruct (String_ E gn) as [s| |]; cbn [rbind] in *; [|destruct Hs as (h' & Q); exists h'; unfold mbind, merge_body; unfold mbind; rewrite Q; reflexivity|exact Hs].
    destruct Hs as (h' & y & Qs & -> & ->). destruct (spread_inv _ _ _ _ _ Sp) as (c & l & _ & G & _). assert (Hf := hNode_ok E (S f) s h a t o m c Sp G).
    assert (Rest : forall h2 g2 m2, spread h2 a g2 m2 -> evolves h (m ++ X) h2 m2 -> merge_body f (Some a) n h = (h2, Ok tt) ->
      refines (do _ <- merge_body f (Some a) n; each (merge_body f (Some a)) rest) h (merge_list os g2) (fun h' _ g' => exists m', spread h' a g' m' /\ evolves h (m ++ X ++ lr) h' m')).
    { intros h2 g2 m2 S2 E2 Q2. eapply refines_ok; [exact Q2|]. cbv beta.
      assert (DrX : disjoint lr (m ++ X)) by (apply disjoint_app_r; split; [exact Dr|apply disjoint_sym; exact DXr]).
      assert (Dr2 : disjoint lr m2) by (eapply evolves_disjoint; eauto; apply (kids_lt _ _ _ _ Kr)).
      eapply refines_weaken; [apply (IHr os lr h2 g2 m2 S2 Dr2 Hlr (frame_kids _ _ _ _ _ _ _ E2 Kr DrX))|]. cbv beta. intros h3 _ g3 (m3 & S3 & E3). exists m3. split; [exact S3|].
      rewrite app_assoc. eapply evolves_step; eauto. }
    destruct (find_child E s o) as [[i|]| |]; cbn [rbind].
    + destruct Hf as (h' & r & Qf & -> & b & -> & Nb). destruct (focus_node h a t o m c Sp G i b Nb) as ([tb ob] & mb & Ng & Sb & In1 & R). rewrite (child_at _ _ _ Ng). cbn [this].
      destruct (hClear_ok h b tb ob mb Sb) as (h1 & Q1 & S1 & E1).
      assert (QB : merge_body f (Some a) n h = (do b' <- deref n; hMerge E f (Some b) b') h1) by (unfold merge_body; rewrite (mbind_ok _ _ _ _ _ _ _ Qs), (mbind_ok _ _ _ _ _ _ _ Qf), (mbind_ok _ _ _ _ _ _ _ Q1); reflexivity).
      destruct n as [n|], gn as [gn|]; try contradiction; [|cbn; exists h1; unfold mbind at 1; rewrite QB; reflexivity].
      destruct Hn as [Sn Ln]. assert (DXb : disjoint X mb) by (intros z Hz Hm; exact (DX z Hz (In1 z Hm))).
      assert (D1 : disjoint X [b]) by (intros z Hz [<-|[]]; apply (DXb _ Hz); eapply spread_root; eauto).
      assert (H := IH h1 b (Node tb []) [b] n gn X S1 (frame_spread _ _ _ _ _ _ _ E1 Sn DXb) D1 Ln).
      destruct (Merge E gn (Node tb [])) as [g'| |]; cbn [rbind] in *.
      * destruct H as (h2 & [] & Q2 & m2 & S2 & E2). destruct (R X h2 g' m2 DX S2 (evolves_step _ _ _ _ _ _ _ E1 E2)) as (m3 & S3 & E3).
        apply (Rest h2 _ m3 S3 E3). rewrite QB. exact Q2.
      * destruct H as (h2 & Q2). exists h2. unfold mbind at 1. rewrite QB. cbn. unfold mbind, ret. rewrite Q2. reflexivity.
      * exact H.
    + destruct Hf as (h' & r & Qf & -> & ->). destruct (hAdd_ok h a t o m _ _ X Sp A DX) as (h2 & r & m2 & Q2 & S2 & E2). apply (Rest h2 _ m2 S2 E2).
      unfold merge_body. rewrite (mbind_ok _ _ _ _ _ _ _ Qs), (mbind_ok _ _ _ _ _ _ _ Qf), (mbind_ok _ _ _ _ _ _ _ Q2). reflexivity.
    + destruct Hf as (h' & Qf). exists h'. unfold mbind at 1. unfold merge_body. rewrite (mbind_ok _ _ _ _ _ _ _ Qs). unfold mbind. rewrite Qf. reflexivity.
    + exact Hf.
Qed.
(** on a nil receiver *)
Lemma hMerge_nil f h : forall k o l, spread_kids h k o l -> refines (each (merge_body f None) k) h (all_strings E o) (fun h' _ _ => h' = h).
Proof.
  induction k as [|n k IH]; intros o l K; [inversion K; subst; apply refines_ret; reflexivity|]. destruct o as [|g o]; [inversion K|].
  assert (Hs := hString_ok f h _ _ _ K n k g o eq_refl eq_refl). cbn [each all_strings].
  destruct (String_ E g) as [s| |]; cbn [rbind] in *; [|destruct Hs as (h' & Q); exists h'; unfold mbind, merge_body; unfold mbind; rewrite Q; reflexivity|exact Hs].
  destruct Hs as (h' & y & Qs & -> & ->). eapply refines_ok.
  - unfold merge_body. rewrite (mbind_ok _ _ _ _ _ _ _ Qs). reflexivity.
  - cbv beta. inversion K; subst; eapply IH; eauto.
Qed.
End Merge.

(** ** Variables *)
Lemma get_nth {A} (l : list (option A)) i a : get l i = Some a -> nth_error l i = Some (Some a).
Proof. unfold get. revert i. induction l as [|x l IH]; intros [|i] H; cbn in *; try discriminate; [congruence|auto]. Qed.
Lemma nth_get {A} (l : list (option A)) i a : nth_error l i = Some a -> get l i = a.
Proof. unfold get. revert i. induction l as [|x l IH]; intros [|i] H; cbn in *; try discriminate; [congruence|auto]. Qed.
Lemma get_out {A} (l : list (option A)) i : nth_error l i = None -> get l i = None.
Proof. unfold get. intro H. apply nth_overflow. apply nth_error_None. exact H. Qed.
Lemma set_same {A} : forall (l : list (option A)) i, set_nth i (get l i) l = l.
Proof. unfold get. induction l as [|x l IH]; intros [|i]; cbn; [reflexivity|reflexivity|reflexivity|]. f_equal. apply IH. Qed.
Lemma set_none {A} (l : list (option A)) i : get l i = None -> set_nth i None l = l.
Proof. intro H. rewrite <- H at 1. apply set_same. Qed.
Lemma set_commute {A} (x y : A) : forall l i j, i <> j -> set_nth i x (set_nth j y l) = set_nth j y (set_nth i x l).
Proof. induction l as [|z l IH]; intros [|i] [|j] H; cbn; try reflexivity; [congruence|]. f_equal. apply IH. congruence. Qed.
Lemma get_other {A} (x : option A) : forall l i j, i <> j -> get (set_nth j x l) i = get l i.
Proof. unfold get. induction l as [|z l IH]; intros [|i] [|j] H; cbn; try reflexivity; [congruence|]. apply IH. congruence. Qed.
Lemma var_none h e gs l i : spread_kids h e gs l -> get e i = None -> get gs i = None.
Proof.
  intros K H. destruct (nth_error e i) as [[a|]|] eqn:N.
  - apply nth_get in N. congruence.
  - apply nth_get. eapply kids_none; eauto.
  - apply get_out. apply nth_error_None. rewrite (kids_length _ _ _ _ K). apply nth_error_None. exact N.
Qed.
Lemma on_var h e gs l i a : spread_kids h e gs l -> get e i = Some a -> exists g m, get gs i = Some g /\ spread h a g m /\ (forall x, In x m -> In x l) /\
  forall X h' g' m', disjoint X l -> spread h' a g' m' -> evolves h (m ++ X) h' m' -> forest h' e (set_nth i (Some g') gs).
Proof.
  intros K H. destruct (focus h _ _ _ K i a (get_nth _ _ _ H)) as (g & m & N & S & I & R). exists g, m. split; [apply nth_get; exact N|]. split; [exact S|]. split; [exact I|].
  intros X h' g' m' D S' Ev. destruct (R X h' g' m' D S' Ev) as (l' & K' & _). exists l'. exact K'.
Qed.
Lemma take h : forall e gs l, spread_kids h e gs l -> forall j, exists X lr, spread_kids h (set_nth j None e) (set_nth j None gs) lr /\ disjoint X lr /\ (forall x, In x lr -> In x l) /\ (forall x, In x X -> In x l) /\
  match get e j, get gs j with Some b, Some g => spread h b g X | None, None => X = [] | _, _ => False end.
Proof.
  unfold get. induction 1 as [|k o l K IH|b g m k o l S K IH D]; intros [|j]; cbn [set_nth nth].
  - exists [], []. repeat split; auto; [constructor|intros x []].
  - exists [], []. repeat split; auto; [constructor|intros x []].
  - exists [], l. repeat split; auto; [constructor; exact K|intros x []|intros x []].
  - destruct (IH j) as (X & lr & K' & D & I1 & I2 & H). exists X, lr. repeat split; auto. constructor. exact K'.
  - exists m, l. repeat split; auto; [constructor; exact K|intros x Hx; apply in_app_iff; auto|intros x Hx; apply in_app_iff; auto].
  - destruct (IH j) as (X & lr & K' & D' & I1 & I2 & H). exists X, (m ++ lr). split; [apply sp_some; auto; intros x Hx Hy; exact (D x Hx (I1 x Hy))|].
    split; [apply disjoint_app_r; split; [intros x Hx Hy; exact (D x Hy (I2 x Hx))|exact D']|]. split; [intros x Hx; apply in_app_iff in Hx; apply in_app_iff; destruct Hx; auto|]. split; [intros x Hx; apply in_app_iff; auto|exact H].
Qed.
Lemma no_graph_plain {P Q} (v : value nat) : plain (no_graph v : value P) = Some (no_graph v : value Q).
Proof. destruct v; reflexivity. Qed.
Lemma argument h e gs l i v : spread_kids h e gs l -> match v with FGraph j => i <> j | FPlain _ => True end ->
  exists X lr, arg h (fvalue e v) (fvalue gs v) X /\ spread_kids h (forget v e) (forget v gs) lr /\ disjoint X lr /\ get (forget v e) i = get e i /\ get (forget v gs) i = get gs i.
Proof.
  intros K H. destruct v as [v|j]; cbn [fvalue forget].
  - exists [], l. split; [constructor; apply no_graph_plain|]. split; [exact K|]. split; [intros x []|auto].
  - destruct (take h e gs l K j) as (X & lr & K' & D & _ & _ & Hj). exists X, lr. split; [|split; [exact K'|split; [exact D|split; apply get_other; exact H]]].
    destruct (get e j) as [b|], (get gs j) as [g|]; try contradiction; [constructor; exact Hj|subst X; constructor; reflexivity].
Qed.
Lemma forget_set {A} (v : fval) i (x : option A) gs : match v with FGraph j => i <> j | FPlain _ => True end -> forget v (set_nth i x gs) = set_nth i x (forget v gs).
Proof. intro H. destruct v as [v|j]; [reflexivity|]. cbn. apply set_commute. congruence. Qed.
Lemma new_var h e gs l h' b g m : spread_kids h e gs l -> evolves h [] h' m -> spread h' b g m -> forest h' (e ++ [Some b]) (gs ++ [Some g]).
Proof.
  intros K Ev S. exists (l ++ m ++ []). apply kids_app.
  - eapply frame_kids; eauto. intros x _ [].
  - apply sp_some; [exact S|constructor|intros x _ []].
  - rewrite app_nil_r. intros x Hx Hm. destruct (ev_in _ _ _ _ Ev x Hm) as [[]|H]. assert (Hl := kids_lt _ _ _ _ K x Hx). lia.
Qed.
Lemma lv_get gs i g : get gs i = Some g -> (levels g <= lv gs)%nat.
Proof.
  unfold get. revert i. induction gs as [|c gs IH]; intros [|i] H; cbn in H; try discriminate.
  - subst c. rewrite lv_cons. lia.
  - specialize (IH i H). destruct c as [c|]; [rewrite lv_cons; lia|exact IH].
Qed.
Lemma nothing l : disjoint [] l.
Proof. intros x []. Qed.

(** ** One operation *)
Lemma heap_op_ok E f h e gs o : forest h e gs -> separate_vars o -> (lv gs < f)%nat -> refines (heap_op E f e o) h (tree_op E gs o) (fun h' e' gs' => forest h' e' gs').
Proof.
  intros [l K] Sep Hf. destruct o; cbn [heap_op tree_op].
  - (* New *)
    destruct (alloc_ok h (no_graph v) (no_graph v) (no_graph_plain v)) as [Q Sn]. unfold hNew. do 2 eexists. split; [unfold mbind; change (alloc {| c_this := no_graph v; c_out := [] |} h) with (alloc (leaf_of (no_graph v)) h); rewrite Q; reflexivity|].
    eapply new_var; [exact K| |exact Sn]. destruct (alloc_evolves h [] (leaf_of (no_graph v))) as [L O _]. split; [exact L|exact O|]. intros y [<-|[]]. right. lia.
  - (* Add *)
    destruct (argument h e gs l i v K) as (X & lr & A & Kr & D & Ge & Gg); [destruct v; auto|]. destruct (get e i) as [a|] eqn:Hi.
    + destruct (on_var h _ _ lr i a Kr Ge) as ([t o] & m & Gi & Sp & I & R). rewrite Gg in Gi. rewrite Gi. cbn [Add].
      destruct (hAdd_ok h a t o m _ _ X Sp A (fun y Hy Hm => D y Hy (I y Hm))) as (h' & r & m' & Q & S' & Ev).
      do 2 eexists. split; [unfold mbind; rewrite Q; reflexivity|]. rewrite forget_set by (destruct v; auto). exact (R X h' _ m' D S' Ev).
    + rewrite (var_none _ _ _ _ _ K Hi). cbn [Add]. do 2 eexists. split; [reflexivity|]. rewrite (set_none gs i (var_none _ _ _ _ _ K Hi)). exists lr. exact Kr.
  - (* AddNodes *)
    destruct (take h e gs l K j) as (X & lr & Kr & D & _ & _ & Hj). cbn in Sep. destruct (get e i) as [a|] eqn:Hi.
    + assert (Hi' := Hi). rewrite <- (get_other None e i j Sep) in Hi'. destruct (on_var h _ _ lr i a Kr Hi') as ([t o] & m & Gi & Sp & I & R). rewrite (get_other None gs i j Sep) in Gi. rewrite Gi.
      destruct (get e j) as [b|] eqn:Ej, (get gs j) as [gj|] eqn:Gj; try contradiction.
      * destruct (hAddNodes_ok h a t o m b gj X Sp Hj (fun y Hy Hm => D y Hy (I y Hm))) as (h' & m' & Q & S' & Ev). do 2 eexists. split; [unfold mbind; rewrite Q; reflexivity|].
        rewrite set_commute by congruence. exact (R X h' _ m' D S' Ev).
      * do 2 eexists. split; [reflexivity|]. cbn [AddNodes]. rewrite <- Gi, set_same. exists lr. exact Kr.
    + do 2 eexists. split; [reflexivity|]. rewrite (var_none _ _ _ _ _ K Hi). replace (AddNodes None (get gs j)) with (@None graph) by reflexivity. rewrite (set_none gs i (var_none _ _ _ _ _ K Hi)). exists lr. exact Kr.
  - (* Copy *)
    cbn in Sep. destruct (take h e gs l K j) as (X & lr & Kr & D & _ & _ & Hj). destruct (get e i) as [a|] eqn:Hi.
    + destruct (on_var h _ _ l i a K Hi) as ([t o] & m & Gi & Sp & I & R). rewrite Gi.
      destruct (get e j) as [b|] eqn:Ej, (get gs j) as [gj|] eqn:Gj; try contradiction.
      * assert (Hi' := Hi). rewrite <- (get_other None e i j Sep) in Hi'. destruct (on_var h _ _ lr i a Kr Hi') as (g2 & m2 & Gi2 & Sp2 & I2 & _). rewrite (get_other None gs i j Sep), Gi in Gi2. injection Gi2 as <-.
        assert (Hg := lv_get _ _ _ Gj). assert (Hc := hCopy_ok f h a t o m2 b gj X Sp2 Hj (fun y Hy Hm => D y Hy (I2 y Hm)) ltac:(lia)).
        destruct (copies gj) as [k| |] eqn:Ec; cbn [Copy]; rewrite Ec; cbn [rbind refines] in *; [|destruct Hc as (h' & Q); exists h'; unfold mbind; rewrite Q; reflexivity|exact Hc].
        destruct Hc as (h' & [] & Q & m' & S' & Ev). do 2 eexists. split; [unfold mbind; rewrite Q; reflexivity|].
        refine (R [] h' _ m' (nothing _) S' _). rewrite app_nil_r. replace m with m2; [exact Ev|]. clear - Sp Sp2.
        assert (U : (forall a g l, spread h a g l -> forall l', spread h a g l' -> l = l') /\ (forall k o l, spread_kids h k o l -> forall l', spread_kids h k o l' -> l = l')).
        { apply spread_ind2; clear.
          - intros a c v o l G P K IH N l' S'. destruct (spread_inv _ _ _ _ _ S') as (c' & l2 & -> & G' & _ & K' & _). rewrite G in G'. injection G' as <-. rewrite (IH _ K'). reflexivity.
          - intros l' K. inversion K. reflexivity.
          - intros k o l K IH l' K'. inversion K'; subst. apply IH. assumption.
          - intros a g m k o l S IHs K IHk D l' K'. inversion K'; subst. f_equal; [apply IHs|apply IHk]; assumption. }
        exact (proj1 U _ _ _ Sp2 _ Sp).
      * do 2 eexists. split; [destruct f; reflexivity|]. rewrite <- Gi, set_same. exists l. exact K.
    + rewrite (var_none _ _ _ _ _ K Hi). cbn [Copy rbind]. do 2 eexists. split; [destruct f; reflexivity|]. rewrite (set_none gs i (var_none _ _ _ _ _ K Hi)). exists l. exact K.
  - (* Clone *)
    destruct (get e i) as [a|] eqn:Hi.
    + destruct (on_var h _ _ l i a K Hi) as (g & m & Gi & Sp & I & _). rewrite Gi. assert (Hg := lv_get _ _ _ Gi). destruct (hClone_ok f h a g m Sp ltac:(lia)) as (h' & b & m' & Q & S' & Ev).
      do 2 eexists. split; [unfold mbind; rewrite Q; reflexivity|]. eapply new_var; eauto.
    + rewrite (var_none _ _ _ _ _ K Hi). do 2 eexists. split; [destruct f; reflexivity|]. exists (l ++ []). apply kids_app; [exact K|repeat constructor|intros x _ []].
  - (* NodeSet *)
    destruct (argument h e gs l i v K) as (X & lr & A & Kr & D & Ge & Gg); [destruct v; auto|]. destruct (get e i) as [a|] eqn:Hi.
    + destruct (on_var h _ _ lr i a Kr Ge) as (g & m & Gi & Sp & I & R). rewrite Gg in Gi. rewrite Gi.
      assert (H := hNodeSet_ok E f h a g m s _ _ X Sp A (fun y Hy Hm => D y Hy (I y Hm))).
      destruct (NodeSet E (Some g) s (fvalue gs v)) as [[g' r]| |]; cbn [rbind refines] in *; [|destruct H as (h' & Q); exists h'; unfold mbind; rewrite Q; reflexivity|exact H].
      destruct H as (h' & r' & Q & g2 & m' & Eg & S' & Ev). cbn in Eg. subst g'. do 2 eexists. split; [unfold mbind; rewrite Q; reflexivity|]. rewrite forget_set by (destruct v; auto). exact (R X h' _ m' D S' Ev).
    + rewrite (var_none _ _ _ _ _ K Hi). cbn [NodeSet rbind]. do 2 eexists. split; [reflexivity|]. rewrite (set_none gs i (var_none _ _ _ _ _ K Hi)). exists lr. exact Kr.
  - (* Create *)
    destruct (get e i) as [a|] eqn:Hi.
    + destruct (on_var h _ _ l i a K Hi) as (g & m & Gi & Sp & I & R). rewrite Gi. assert (H := hCreate_ok E f h a g m s Sp).
      destruct (Create E (Some g) s) as [[g' r]| |]; cbn [rbind refines] in *; [|destruct H as (h' & Q); exists h'; unfold mbind; rewrite Q; reflexivity|exact H].
      destruct H as (h' & r' & Q & g2 & m' & Eg & S' & Ev). cbn in Eg. subst g'. do 2 eexists. split; [unfold mbind; rewrite Q; reflexivity|]. refine (R [] h' _ m' (nothing _) S' _). rewrite app_nil_r. exact Ev.
    + rewrite (var_none _ _ _ _ _ K Hi). cbn [Create rbind]. do 2 eexists. split; [reflexivity|]. rewrite (set_none gs i (var_none _ _ _ _ _ K Hi)). exists l. exact K.
  - (* Delete *)
    destruct (get e i) as [a|] eqn:Hi.
    + destruct (on_var h _ _ l i a K Hi) as (g & m & Gi & Sp & I & R). rewrite Gi. assert (H := hDelete_ok E h a g m _ _ (no_graph_plain v) Sp).
      destruct (Delete E (Some g) (no_graph v)) as [g'| |]; cbn [rbind refines] in *; [|destruct H as (h' & Q); exists h'; unfold mbind; rewrite Q; reflexivity|exact H].
      destruct H as (h' & r' & Q & g2 & m' & -> & S' & Ev). do 2 eexists. split; [unfold mbind; rewrite Q; reflexivity|]. refine (R [] h' _ m' (nothing _) S' _). rewrite app_nil_r. exact Ev.
    + rewrite (var_none _ _ _ _ _ K Hi). cbn [Delete rbind]. do 2 eexists. split; [reflexivity|]. rewrite (set_none gs i (var_none _ _ _ _ _ K Hi)). exists l. exact K.
  - (* Clear *)
    destruct (get e i) as [a|] eqn:Hi.
    + destruct (on_var h _ _ l i a K Hi) as ([t o] & m & Gi & Sp & I & R). rewrite Gi. destruct (hClear_ok h a t o m Sp) as (h' & Q & S' & Ev). do 2 eexists. split; [unfold mbind, hClear; rewrite Q; reflexivity|].
      refine (R [] h' _ _ (nothing _) S' _). rewrite app_nil_r. exact Ev.
    + do 2 eexists. split; [reflexivity|]. rewrite (var_none _ _ _ _ _ K Hi). cbn [Clear]. rewrite (set_none gs i (var_none _ _ _ _ _ K Hi)). exists l. exact K.
  - (* DeleteAt *)
    destruct (get e i) as [a|] eqn:Hi.
    + destruct (on_var h _ _ l i a K Hi) as (g & m & Gi & Sp & I & R). rewrite Gi. destruct (hDeleteAt_ok h a g m k Sp) as (h' & g' & m' & Q & -> & S' & Ev). do 2 eexists. split; [unfold mbind; rewrite Q; reflexivity|].
      refine (R [] h' _ _ (nothing _) S' _). rewrite app_nil_r. exact Ev.
    + do 2 eexists. split; [reflexivity|]. rewrite (var_none _ _ _ _ _ K Hi). replace (DeleteAt None k) with (@None graph) by (unfold DeleteAt; destruct ((k <? 0) || (Len None <=? k)); reflexivity). rewrite (set_none gs i (var_none _ _ _ _ _ K Hi)). exists l. exact K.
  - (* Set *)
    destruct Sep as [Sn Sv]. destruct (argument h e gs l i v K) as (X & lr & A & Kr & D & Ge & Gg); [destruct v; tauto|]. destruct (get e i) as [a|] eqn:Hi.
    + destruct (on_var h _ _ lr i a Kr Ge) as (g & m & Gi & Sp & I & R). rewrite Gg in Gi. rewrite Gi. unfold hSet.
      assert (Ek : elems_ok els (fvalue e v)).
      { split; [exact Sn|]. intros k Hk. destruct v as [v|j]; [|destruct Sv as [_ Sv]; destruct (Sv k Hk)]. split; [apply Sv, Hk|]. exists (no_graph v). apply no_graph_plain. }
      assert (H := hset_ok E f _ _ X els h a g m Sp A (fun y Hy Hm => D y Hy (I y Hm)) Ek).
      destruct (set_els E (map path_elem els) g (fvalue gs v)) as [[g' r]| |]; cbn [rbind refines] in *; [|destruct H as (h' & Q); exists h'; unfold mbind; rewrite Q; reflexivity|exact H].
      destruct H as (h' & r' & Q & m' & S' & Ev). do 2 eexists. split; [unfold mbind; rewrite Q; reflexivity|]. rewrite forget_set by (destruct v; tauto). exact (R X h' _ m' D S' Ev).
    + rewrite (var_none _ _ _ _ _ K Hi). do 2 eexists. split; [reflexivity|]. exists lr. exact Kr.
  - (* Substitute *)
    destruct (get e i) as [a|] eqn:Hi.
    + destruct (on_var h _ _ l i a K Hi) as ([t o] & m & Gi & Sp & I & R). rewrite Gi. assert (Hg := lv_get _ _ _ Gi). rewrite levels_eq in Hg. rewrite Substitute_eq.
      assert (H := hSubstitute_ok E s _ _ (no_graph_plain v) f h a t o m Sp ltac:(lia)).
      destruct (subst_list E s (no_graph v) o) as [o'| |]; cbn [rbind refines] in *; [|destruct H as (h' & Q); exists h'; unfold mbind; rewrite Q; reflexivity|exact H].
      destruct H as (h' & r' & Q & m' & S' & Ev). do 2 eexists. split; [unfold mbind; rewrite Q; reflexivity|]. refine (R [] h' _ m' (nothing _) S' _). rewrite app_nil_r. exact Ev.
    + rewrite (var_none _ _ _ _ _ K Hi). do 2 eexists. split; [destruct f; reflexivity|]. exists l. exact K.
  - (* Merge *)
    cbn in Sep. destruct (take h e gs l K j) as (X & lr & Kr & D & _ & _ & Hj).
    destruct (get e j) as [b|] eqn:Ej, (get gs j) as [gj|] eqn:Gj; try contradiction; [|exists h; reflexivity].
    assert (Hg := lv_get _ _ _ Gj). cbn [deref]. eapply refines_ok; [reflexivity|]. cbv beta. destruct (get e i) as [a|] eqn:Hi.
    + assert (Hi' := Hi). rewrite <- (get_other None e i j Sep) in Hi'. destruct (on_var h _ _ lr i a Kr Hi') as (g & m & Gi & Sp & I & R). rewrite (get_other None gs i j Sep) in Gi. rewrite Gi.
      assert (H := hMerge_ok E f h a g m b gj X Sp Hj (fun y Hy Hm => D y Hy (I y Hm)) ltac:(lia)).
      destruct (Merge E gj g) as [g'| |]; cbn [rbind refines] in *; [|destruct H as (h' & Q); exists h'; unfold mbind; rewrite Q; reflexivity|exact H].
      destruct H as (h' & r' & Q & m' & S' & Ev). do 2 eexists. split; [unfold mbind; rewrite Q; reflexivity|]. rewrite set_commute by congruence. exact (R X h' _ m' D S' Ev).
    + rewrite (var_none _ _ _ _ _ K Hi). destruct f as [|f]; [lia|]. destruct gj as [tj oj]. destruct (spread_inv _ _ _ _ _ Hj) as (c & lk & -> & G & P & Kj & _). cbn [out].
      assert (H := hMerge_nil E f h _ _ _ Kj). 
      assert (Q : forall r, each (merge_body E f None) (c_out c) h = r -> hMerge E (S f) None b h = r) by (intros r Q; cbn [hMerge]; rewrite (mbind_ok _ _ _ _ _ _ _ (load_ok _ _ _ G)); exact Q).
      destruct (all_strings E oj) as [[]| |]; cbn [rbind refines] in *.
      * destruct H as (h' & [] & Qr & ->). do 2 eexists. split; [unfold mbind at 1; rewrite (Q _ Qr); reflexivity|]. exists lr. exact Kr.
      * destruct H as (h' & Qr). exists h'. unfold mbind at 1. rewrite (Q _ Qr). reflexivity.
      * exact H.
Qed.
Lemma heap_run_ok E : forall ops h e gs, forest h e gs -> Forall separate_vars ops -> exists F, forall f, (F <= f)%nat -> refines (heap_run E f ops e) h (tree_run E ops gs) (fun h' e' gs' => forest h' e' gs').
Proof.
  assert (Fuel : forall o gs, exists F, forall f h e, (F <= f)%nat -> forest h e gs -> separate_vars o -> refines (heap_op E f e o) h (tree_op E gs o) (fun h' e' gs' => forest h' e' gs')).
  { intros o gs. exists (S (lv gs)). intros f h e Hf Fo So. apply heap_op_ok; auto. }
  assert (Run : forall ops gs, Forall separate_vars ops -> exists F, forall f h e, (F <= f)%nat -> forest h e gs -> refines (heap_run E f ops e) h (tree_run E ops gs) (fun h' e' gs' => forest h' e' gs')).
  { induction ops as [|o ops IH]; intros gs So.
    - exists O. intros f h e _ Fo. apply refines_ret. exact Fo.
    - inversion So as [|? ? So1 So2]; subst. destruct (Fuel o gs) as [F1 H1]. cbn [heap_run tree_run]. destruct (tree_op E gs o) as [gs1| |] eqn:To.
      + destruct (IH gs1 So2) as [F2 H2]. exists (Nat.max F1 F2). intros f h e Hf Fo. cbn [rbind].
        destruct (H1 f h e ltac:(lia) Fo So1) as (h1 & e1 & Q & Fo1). eapply refines_ok; [exact Q|]. apply H2; [lia|exact Fo1].
      + exists F1. intros f h e Hf Fo. destruct (H1 f h e ltac:(lia) Fo So1) as (h1 & Q). eapply refines_panic. exact Q.
      + exists F1. intros f h e Hf Fo. destruct (H1 f h e ltac:(lia) Fo So1). }
  intros ops h e gs Fo So. destruct (Run ops gs So) as [F H]. exists F. intros f Hf. apply H; assumption.
Qed.
