(** C90: Copy within one graph. *)
From Verif Require Import Base Value Graph GraphSpec Heap HeapSpec HeapFacts RefineSpec RefineFacts Samples.
From Verif Require GraphFacts.
From Coq Require Import Lia.

(** ** The loop of Copy, when only the receiving node itself must not be among the nodes that are copied *)
Lemma copy_loop f a : forall rest og lr h c, nth_error h a = Some c -> spread_kids h rest og lr -> ~ In a lr -> (lv og <= f)%nat ->
  refines (each (copy_body f a) rest) h (copies_list og) (fun h' _ k => exists new ln,
    nth_error h' a = Some {| c_this := c_this c; c_out := c_out c ++ new |} /\ spread_kids h' new k ln /\ (forall x, In x ln -> (List.length h <= x)%nat) /\
    (List.length h <= List.length h')%nat /\ forall x, (x < List.length h)%nat -> x <> a -> nth_error h' x = nth_error h x).
Proof.
  induction rest as [|n rest IHr]; intros og lr h c G K Na Hl.
  - inversion K; subst. apply refines_ret. exists [], []. rewrite app_nil_r. split; [destruct c; exact G|]. split; [constructor|]. split; [intros x []|]. split; [lia|auto].
  - inversion K as [|k0 o0 l0 K0|b g mb k0 o0 l0 S0 K0 D0]; subst; clear K; [exists h; reflexivity|].
    rewrite in_app_iff in Na. rewrite lv_cons in Hl. cbn [each copies_list].
    destruct g as [tb ob]. destruct (spread_inv _ _ _ _ _ S0) as (cb & lb & Emb & Gb & Pb & _). pose proof (spread_lt _ _ _ _ S0) as Lb. pose proof (kids_lt _ _ _ _ K0) as L0.
    assert (La : (a < List.length h)%nat) by (eapply nth_some_lt; eauto).
    assert (Dec : c_this cb = VNil \/ c_this cb <> VNil) by (destruct (c_this cb); (left; reflexivity) || (right; discriminate)). destruct Dec as [Hn|Hn].
    + rewrite Hn in Pb. injection Pb as <-. cbn [this rbind app].
      assert (Q : copy_body f a (Some b) h = (h, Ok tt)) by (unfold copy_body; rewrite (mbind_ok _ _ _ _ _ _ _ (eq_refl (h, Ok b))), (mbind_ok _ _ _ _ _ _ _ (load_ok _ _ _ Gb)), Hn; destruct f; reflexivity).
      eapply refines_ok; [exact Q|]. cbv beta. assert (H := IHr o0 l0 h c G K0 ltac:(tauto) ltac:(lia)). destruct (copies_list o0) as [k| |]; exact H.
    + set (n := List.length h) in *. set (c1 := {| c_this := c_this c; c_out := c_out c ++ [Some n] |}). set (h1 := set_cell (h ++ [leaf_of (c_this cb)]) a c1).
      assert (Ga : nth_error (h ++ [leaf_of (c_this cb)]) a = Some c) by (rewrite nth_error_app1 by exact La; exact G).
      assert (Q1 : hAdd (Some a) (c_this cb) h = (h1, Ok (Some n))).
      { etransitivity; [exact (f_equal (fun q => q h) (hAdd_leaf a _ _ Pb Hn))|]. rewrite (mbind_ok _ _ _ _ _ _ _ (proj1 (alloc_ok h _ _ Pb))), (mbind_ok _ _ _ _ _ _ _ (load_ok _ _ _ Ga)), (mbind_ok _ _ _ _ _ _ _ (set_out_ok _ _ _ _ Ga)). reflexivity. }
      assert (Len1 : List.length h1 = S n) by (unfold h1; rewrite set_cell_length, app_length; cbn; unfold n; lia).
      assert (O1 : forall x, (x < n)%nat -> x <> a -> nth_error h1 x = nth_error h x) by (intros x Hx Hne; unfold h1; rewrite set_cell_other by exact Hne; apply nth_error_app1; exact Hx).
      assert (G1 : nth_error h1 a = Some c1) by (apply set_cell_same; rewrite app_length; cbn; unfold n in La; lia).
      assert (Sn : spread h1 n (Node tb []) [n]).
      { apply (sp_node _ n (leaf_of (c_this cb))); [|exact Pb|constructor|intros []]. unfold h1. rewrite set_cell_other by lia. unfold n. rewrite nth_error_app2, Nat.sub_diag by lia. reflexivity. }
      assert (Sb : spread h1 b (Node tb ob) mb) by (apply (spread_frame h); [exact S0|]; intros x Hx; apply O1; [apply Lb, Hx|intros ->; tauto]).
      assert (H := hCopy_ok f h1 n tb [] [n] b (Node tb ob) mb Sn Sb ltac:(intros y Hy [<-|[]]; specialize (Lb n Hy); unfold n in Lb; lia) ltac:(lia)).
      assert (Q : forall r h2, hCopy f (Some n) (Some b) h1 = (h2, r) -> copy_body f a (Some b) h = (h2, r)).
      { intros r h2 Q2. unfold copy_body. rewrite (mbind_ok _ _ _ _ _ _ _ (eq_refl (h, Ok b))), (mbind_ok _ _ _ _ _ _ _ (load_ok _ _ _ Gb)). rewrite (mbind_ok _ _ _ _ _ _ _ Q1). exact Q2. }
      destruct (copy_child _ _ (Node tb ob) [] Pb Hn eq_refl) as [-> _].
      destruct (copies (Node tb ob)) as [k| |]; cbn [rbind] in *; [|destruct H as (h2 & Q2); eapply refines_panic; apply (Q Panic h2 Q2)|exact H].
      destruct (copy_child _ _ (Node tb ob) k Pb Hn eq_refl) as [_ ->].
      destruct H as (h2 & [] & Q2 & m2 & S2 & [Le2 O2 I2]). cbn [app] in S2. eapply refines_ok; [apply (Q (Ok tt) h2 Q2)|]. cbv beta.
      assert (O12 : forall x, (x < n)%nat -> nth_error h2 x = nth_error h1 x) by (intros x Hx; apply O2; [lia|intros [<-|[]]; lia]).
      assert (G2 : nth_error h2 a = Some c1) by (rewrite O12 by exact La; exact G1).
      assert (K2 : spread_kids h2 rest o0 l0) by (apply (kids_frame h); [exact K0|]; intros x Hx; specialize (L0 x Hx); rewrite O12 by exact L0; apply O1; [exact L0|intros ->; tauto]).
      assert (H := IHr o0 l0 h2 c1 G2 K2 ltac:(tauto) ltac:(lia)).
      destruct (copies_list o0) as [ks| |]; cbn [rbind] in *; [|exact H|exact H].
      destruct H as (h4 & u & Q4 & new & ln & G4 & S4 & F4 & Le4 & O4). exists h4, u. split; [exact Q4|]. exists (Some n :: new), (m2 ++ ln).
      pose proof (spread_lt _ _ _ _ S2) as L2.
      assert (F2 : forall x, In x m2 -> (n <= x)%nat) by (intros x Hx; destruct (I2 x Hx) as [[<-|[]]|Hx']; lia).
      split; [rewrite G4; cbn [c_this c_out c1]; rewrite <- app_assoc; reflexivity|]. split; [|split; [|split; [lia|]]].
      * cbn [app]. apply sp_some; [apply (spread_frame h2); [exact S2|]; intros x Hx; apply O4; [apply L2, Hx|specialize (F2 x Hx); lia]|exact S4|]. intros x Hx Hy. specialize (F4 x Hy). specialize (L2 x Hx). lia.
      * intros x Hx. apply in_app_iff in Hx. destruct Hx as [Hx|Hx]; [apply F2, Hx|specialize (F4 x Hx); lia].
      * intros x Hx Hne. rewrite O4 by (lia || exact Hne). rewrite O12 by exact Hx. apply O1; assumption.
Qed.

(** ** C90 g.Copy(b) appends copies of the children of b to g and modifies no other node ([k] are the copies, see C27: those of nodes
    without content are left out).  First for g itself; *)
Theorem C90_self_partial : forall h a t o m f, spread h a (Node t o) m -> (levels (Node t o) <= f)%nat ->
  match copies (Node t o) with
  | Ok k => exists h' m', hCopy f (Some a) (Some a) h = (h', Ok tt) /\ spread h' a (Node t (o ++ k)) m' /\ forall x, (x < List.length h)%nat -> x <> a -> nth_error h' x = nth_error h x
  | Panic => exists h', hCopy f (Some a) (Some a) h = (h', Panic)
  | NoFuel => False
  end.
Proof.
  intros h a t o m f Sp Hl. destruct f as [|f]; [rewrite levels_eq in Hl; lia|]. rewrite levels_eq in Hl. destruct (spread_inv _ _ _ _ _ Sp) as (c & lk & -> & G & P & K & Na).
  assert (H := copy_loop f a (c_out c) o lk h c G K Na ltac:(lia)). cbn [hCopy]. rewrite (mbind_ok _ _ _ _ _ _ _ (load_ok _ _ _ G)).
  change (each _ (c_out c) h) with (each (copy_body f a) (c_out c) h). rewrite copies_eq. destruct (copies_list o) as [k| |]; [|exact H|exact H].
  destruct H as (h' & [] & Q & new & ln & G' & S' & F' & Le & O'). exists h', (a :: lk ++ ln). split; [exact Q|]. split; [|exact O'].
  assert (La : (a < List.length h)%nat) by (eapply nth_some_lt; eauto). pose proof (kids_lt _ _ _ _ K) as Lk.
  eapply sp_node; [exact G'|exact P| |].
  - cbn [c_out]. apply kids_app; [apply (kids_frame h); [exact K|]; intros x Hx; apply O'; [apply Lk, Hx|intros ->; tauto]|exact S'|]. intros x Hx Hy. specialize (F' x Hy). specialize (Lk x Hx). lia.
  - rewrite in_app_iff. intros [Hx|Hx]; [tauto|]. specialize (F' a Hx). lia.
Qed.
Print Assumptions C90_self_partial.
(** then for a node b that may be part of g, or of another graph, or have g's children in common, but does not have g below it. *)
Theorem C90_part_partial : forall h a t o m b g l f, spread h a (Node t o) m -> spread h b g l -> ~ In a l -> (levels g <= f)%nat ->
  match copies g with
  | Ok k => exists h' m', hCopy f (Some a) (Some b) h = (h', Ok tt) /\ spread h' a (Node t (o ++ k)) m' /\ spread h' b g l /\ forall x, (x < List.length h)%nat -> x <> a -> nth_error h' x = nth_error h x
  | Panic => exists h', hCopy f (Some a) (Some b) h = (h', Panic)
  | NoFuel => False
  end.
Proof.
  intros h a t o m b [tg og] l f Sp Sb Nb Hl. destruct f as [|f]; [rewrite levels_eq in Hl; lia|]. rewrite levels_eq in Hl. destruct (spread_inv _ _ _ _ _ Sp) as (c & lk & -> & G & P & K & Na).
  pose proof Sb as Sb'. destruct (spread_inv _ _ _ _ _ Sb) as (cb & lb & -> & Gb & Pb & Kb & Nbb).
  assert (H := copy_loop f a (c_out cb) og lb h c G Kb ltac:(intros Hx; apply Nb; right; exact Hx) ltac:(lia)). cbn [hCopy]. rewrite (mbind_ok _ _ _ _ _ _ _ (load_ok _ _ _ Gb)).
  change (each _ (c_out cb) h) with (each (copy_body f a) (c_out cb) h). rewrite copies_eq. destruct (copies_list og) as [k| |]; [|exact H|exact H].
  destruct H as (h' & [] & Q & new & ln & G' & S' & F' & Le & O'). exists h', (a :: lk ++ ln). split; [exact Q|].
  assert (La : (a < List.length h)%nat) by (eapply nth_some_lt; eauto). pose proof (kids_lt _ _ _ _ K) as Lk. pose proof (spread_lt _ _ _ _ Sb') as Lb. split; [|split; [|exact O']].
  - eapply sp_node; [exact G'|exact P| |].
    + cbn [c_out]. apply kids_app; [apply (kids_frame h); [exact K|]; intros x Hx; apply O'; [apply Lk, Hx|intros ->; tauto]|exact S'|]. intros x Hx Hy. specialize (F' x Hy). specialize (Lk x Hx). lia.
    + rewrite in_app_iff. intros [Hx|Hx]; [tauto|]. specialize (F' a Hx). lia.
  - apply (spread_frame h); [exact Sb'|]. intros x Hx. apply O'; [apply Lb, Hx|intros ->; tauto].
Qed.
Print Assumptions C90_part_partial.
(** For contents other than nil and other graphs, the copies are the children: g.Copy(g) doubles them. *)
Theorem C90_double : forall h a t k m f, spread h a (Node t (map Some k)) m -> Forall (all_nodes copyable) k -> (levels (Node t (map Some k)) <= f)%nat ->
  exists h' m', hCopy f (Some a) (Some a) h = (h', Ok tt) /\ spread h' a (Node t (map Some (k ++ k))) m' /\ forall x, (x < List.length h)%nat -> x <> a -> nth_error h' x = nth_error h x.
Proof.
  intros h a t k m f Sp Hk Hl. pose proof (C90_self_partial h a t (map Some k) m f Sp Hl) as H.
  assert (E : copies (Node t (map Some k)) = Ok (map Some k)).
  { rewrite GraphFacts.copies_eq. apply GraphFacts.copies_list_copy; [exact Hk|]. eapply Forall_impl; [|exact Hk]. apply GraphFacts.copies_copy. }
  rewrite E in H. rewrite map_app. exact H.
Qed.
Print Assumptions C90_double.

(** ** Copying into a node below *)
(** [under h g n]: from g one gets down to n, in one step or more, over nodes with contents other than nil and graphs. *)
Definition filled (h : heap) (a : addr) : Prop := exists c, nth_error h a = Some c /\ c_this c <> VNil /\ forall x, c_this c <> VPtr (Some x).
Inductive under (h : heap) : addr -> addr -> Prop :=
| under_kid g n : down h g n -> filled h n -> under h g n
| under_more g b n : down h g b -> filled h b -> under h b n -> under h g n.
(** Nodes keep their contents and their children, and may get more. *)
Definition cont (c c' : cell) : Prop := c_this c' = c_this c /\ exists o, c_out c' = c_out c ++ o.
Definition more (h h' : heap) : Prop := forall x c, nth_error h x = Some c -> exists c', nth_error h' x = Some c' /\ cont c c'.
Lemma more_refl h : more h h.
Proof. intros x c H. exists c. split; [exact H|]. split; [reflexivity|exists []; symmetry; apply app_nil_r]. Qed.
Lemma more_trans h h1 h2 : more h h1 -> more h1 h2 -> more h h2.
Proof. intros H1 H2 x c H. destruct (H1 x c H) as (c1 & G1 & T1 & o1 & E1). destruct (H2 x c1 G1) as (c2 & G2 & T2 & o2 & E2). exists c2. split; [exact G2|]. split; [congruence|]. exists (o1 ++ o2). rewrite E2, E1, app_assoc. reflexivity. Qed.
Lemma down_more h h' a b : more h h' -> down h a b -> down h' a b.
Proof.
  intros Hm (k & Hk). unfold kid in Hk. destruct (nth_error h a) as [c|] eqn:G; [|discriminate]. destruct (Hm a c G) as (c' & G' & _ & o & E). exists k. unfold kid. rewrite G', E. rewrite nth_error_app1; [exact Hk|]. apply nth_error_Some. congruence.
Qed.
Lemma filled_more h h' a : more h h' -> filled h a -> filled h' a.
Proof. intros Hm (c & G & N). destruct (Hm a c G) as (c' & G' & T & _). exists c'. split; [exact G'|]. rewrite T. exact N. Qed.
Lemma under_more_heap h h' g n : more h h' -> under h g n -> under h' g n.
Proof. intros Hm H. induction H; [apply under_kid|eapply under_more; [| |exact IHunder]]; eauto using down_more, filled_more. Qed.
Lemma under_app h g b n : under h g b -> down h b n -> filled h n -> under h g n.
Proof. intros H Hd Hf. induction H as [g b Hd' Hf'|g b' b Hd' Hf' _ IH]; [eapply under_more; [exact Hd'|exact Hf'|apply under_kid; assumption]|eapply under_more; [exact Hd'|exact Hf'|apply IH; exact Hd]]. Qed.

Lemma alloc_more h c : more h (h ++ [c]).
Proof. intros x d H. exists d. split; [rewrite nth_error_app1; [exact H|eapply nth_some_lt; eauto]|]. split; [reflexivity|exists []; symmetry; apply app_nil_r]. Qed.
Lemma append_more h a c o : nth_error h a = Some c -> more h (set_cell h a {| c_this := c_this c; c_out := c_out c ++ o |}).
Proof.
  intros G x d H. destruct (Nat.eq_dec x a) as [->|Hne].
  - rewrite G in H. injection H as <-. eexists. split; [apply set_cell_same; eapply nth_some_lt; eauto|]. split; [reflexivity|eexists; reflexivity].
  - exists d. split; [rewrite set_cell_other by exact Hne; exact H|]. split; [reflexivity|exists []; symmetry; apply app_nil_r].
Qed.
(** What Add does: the new child hangs below the node. *)
Lemma add_more a v h : v <> VNil -> (forall x, v <> VPtr (Some x)) -> (exists c, nth_error h a = Some c) ->
  exists h' n, hAdd (Some a) v h = (h', Ok (Some n)) /\ more h h' /\ down h' a n /\ filled h' n.
Proof.
  intros Hv Hg (c & G). set (h0 := h ++ [{| c_this := v; c_out := [] |}]). set (n := List.length h). set (h' := set_cell h0 a {| c_this := c_this c; c_out := c_out c ++ [Some n] |}).
  assert (G0 : nth_error h0 a = Some c) by (unfold h0; rewrite nth_error_app1; [exact G|eapply nth_some_lt; eauto]).
  assert (M : more h0 h') by (apply append_more; exact G0).
  exists h', n. split; [|split; [eapply more_trans; [apply alloc_more|exact M]|split]].
  - assert (Q : (do n <- alloc {| c_this := v; c_out := [] |}; do c <- load a; do _ <- set_out a (c_out c ++ [Some n]); ret (Some n)) h = (h', Ok (Some n))).
    { unfold mbind at 1. cbn [alloc]. fold h0. fold n. rewrite (mbind_ok _ _ _ _ _ _ _ (load_ok _ _ _ G0)), (mbind_ok _ _ _ _ _ _ _ (set_out_ok _ _ _ _ G0)). reflexivity. }
    destruct v as [| | | | | | |[b|]| | |]; try exact Q; [congruence|exfalso; exact (Hg b eq_refl)].
  - exists (List.length (c_out c)). unfold kid, h'. rewrite set_cell_same by (eapply nth_some_lt; eauto). cbn [c_out]. rewrite nth_error_app2, Nat.sub_diag by lia. reflexivity.
  - eapply filled_more; [exact M|]. exists {| c_this := v; c_out := [] |}. split; [unfold h0, n; rewrite nth_error_app2, Nat.sub_diag by lia; reflexivity|]. split; assumption.
Qed.
(** Add and Copy never remove anything. *)
Lemma append_keeps a n h : more h (fst ((do c <- load a; do _ <- set_out a (c_out c ++ [Some n]); ret (Some n)) h)).
Proof.
  unfold mbind at 1. unfold load at 1. destruct (nth_error h a) as [c|] eqn:G; [|apply more_refl]. rewrite (mbind_ok _ _ _ _ _ _ _ (set_out_ok _ _ _ _ G)). cbn [ret fst]. apply append_more. exact G.
Qed.
Lemma add_keeps g v h : more h (fst (hAdd g v h)).
Proof.
  destruct g as [a|]; [|apply more_refl].
  assert (Q : more h (fst ((do n <- alloc {| c_this := v; c_out := [] |}; do c <- load a; do _ <- set_out a (c_out c ++ [Some n]); ret (Some n)) h))).
  { unfold mbind at 1. cbn [alloc]. eapply more_trans; [apply alloc_more|apply append_keeps]. }
  destruct v as [| | | | | | |[b|]| | |]; try exact Q; [apply more_refl|]. apply append_keeps.
Qed.
Lemma bind_keeps {A B} (m : M A) (k : A -> M B) h : more h (fst (m h)) -> (forall a h', more h' (fst (k a h'))) -> more h (fst (mbind m k h)).
Proof. intros Hm Hk. unfold mbind. destruct (m h) as [h' [x| |]] eqn:Q; cbn [fst] in *; [eapply more_trans; [exact Hm|apply Hk]|exact Hm|exact Hm]. Qed.
Lemma load_keeps a h : more h (fst (load a h)).
Proof. apply more_refl. Qed.
Lemma each_keeps {A} (body : A -> M unit) l : (forall x h, more h (fst (body x h))) -> forall h, more h (fst (each body l h)).
Proof. intros Hb. induction l as [|x l IH]; intros h; cbn [each]; [apply more_refl|]. apply bind_keeps; [apply Hb|intros _; exact IH]. Qed.
Lemma copy_keeps f : forall g b h, more h (fst (hCopy f g b h)).
Proof.
  induction f as [|f IH]; intros [a|] [b|] h; cbn [hCopy]; try apply more_refl. apply bind_keeps; [apply load_keeps|]. intros d h'. apply each_keeps. intros x h2. apply bind_keeps; [destruct x; apply more_refl|].
  intros y h3. apply bind_keeps; [apply load_keeps|]. intros e h4. apply bind_keeps; [apply add_keeps|]. intros nn h5. apply IH.
Qed.
Lemma each_fails {A} (body : A -> M unit) x l : (forall y h, more h (fst (body y h))) -> In x l -> forall h, (forall h', more h h' -> snd (body x h') <> Ok tt) -> snd (each body l h) <> Ok tt.
Proof.
  intros Hk. induction l as [|y l IH]; intros Hin h Hx; [destruct Hin|]. cbn [each]. unfold mbind. specialize (Hk y h). destruct Hin as [->|Hin].
  - specialize (Hx h (more_refl h)). destruct (body x h) as [h' [[]| |]]; cbn [snd] in *; [congruence|discriminate|discriminate].
  - destruct (body y h) as [h' [u| |]]; cbn [snd fst] in *; [|discriminate|discriminate]. apply (IH Hin). intros h2 Hm. apply Hx. eapply more_trans; eauto.
Qed.
Lemma copy_never f : forall h g n, under h g n -> snd (hCopy f (Some n) (Some g) h) <> Ok tt.
Proof.
  induction f as [|f IH]; intros h g n Hu; [discriminate|]. cbn [hCopy].
  assert (Hb : exists b, down h g b /\ filled h b /\ (b = n \/ under h b n)) by (inversion Hu; subst; eauto). destruct Hb as (b & (k & Hk) & Hf & Hbn).
  assert (Hn : exists c, nth_error h n = Some c) by (clear -Hu; induction Hu as [g n _ (c & G & _)|]; [exists c; exact G|assumption]).
  unfold kid in Hk. destruct (nth_error h g) as [d|] eqn:G; [|discriminate]. rewrite (mbind_ok _ _ _ _ _ _ _ (load_ok _ _ _ G)).
  eapply each_fails with (x := Some b); [|eapply nth_error_In; exact Hk|].
  - intros y h1. apply bind_keeps; [destruct y; apply more_refl|]. intros z h2. apply bind_keeps; [apply load_keeps|]. intros e h3. apply bind_keeps; [apply add_keeps|]. intros nn h4. apply copy_keeps.
  - intros h1 Hm. destruct (filled_more _ _ _ Hm Hf) as (cb & Gb & Hv & Hg). destruct Hn as (cn & Gn). destruct (Hm n cn Gn) as (cn' & Gn' & _).
    rewrite (mbind_ok _ _ _ _ _ _ _ (eq_refl (h1, Ok b))), (mbind_ok _ _ _ _ _ _ _ (load_ok _ _ _ Gb)).
    destruct (add_more n (c_this cb) h1 Hv Hg (ex_intro _ cn' Gn')) as (h2 & nn & Q & Hm2 & Hd & Hfn). rewrite (mbind_ok _ _ _ _ _ _ _ Q). apply IH.
    destruct Hbn as [->|Hbn]; [apply under_kid; assumption|]. eapply under_app; [eapply under_more_heap; [|exact Hbn]; eapply more_trans; eauto|exact Hd|exact Hfn].
Qed.
(** The claim fails for a node below g: n.Copy(g) never returns, whatever else the memory contains. *)
Theorem C90_below_refuted : forall h g n, under h g n -> forall f, snd (hCopy f (Some n) (Some g) h) <> Ok tt.
Proof. intros h g n Hu f. apply copy_never, Hu. Qed.
Print Assumptions C90_below_refuted.

(** ** Examples: a with the child b, which has the child c *)
Definition ex_mem : heap := [{| c_this := VStr (bs "a"); c_out := [Some 1%nat] |}; {| c_this := VStr (bs "b"); c_out := [Some 2%nat] |}; {| c_this := VStr (bs "c"); c_out := [] |}].
Lemma ex_mem_c : spread ex_mem 2%nat (nd "c" []) [2%nat].
Proof. eapply sp_node; [reflexivity|reflexivity|constructor|intros []]. Qed.
Lemma ex_mem_b : spread ex_mem 1%nat (nd "b" [nd "c" []]) [1; 2]%nat.
Proof. eapply sp_node; [reflexivity|reflexivity| |cbn; lia]. apply (sp_some _ 2%nat _ [2%nat] [] [] []); [exact ex_mem_c|constructor|intros x _ []]. Qed.
Lemma ex_mem_a : spread ex_mem 0%nat (nd "a" [nd "b" [nd "c" []]]) [0; 1; 2]%nat.
Proof. eapply sp_node; [reflexivity|reflexivity| |cbn; lia]. apply (sp_some _ 1%nat _ [1; 2]%nat [] [] []); [exact ex_mem_b|constructor|intros x _ []]. Qed.
Example C90_ex : (exists h m, hCopy 9%nat (Some 0%nat) (Some 0%nat) ex_mem = (h, Ok tt) /\ spread h 0%nat (nd "a" [nd "b" [nd "c" []]; nd "b" [nd "c" []]]) m) /\
  (exists h m, hCopy 9%nat (Some 0%nat) (Some 1%nat) ex_mem = (h, Ok tt) /\ spread h 0%nat (nd "a" [nd "b" [nd "c" []]; nd "c" []]) m) /\ under ex_mem 0%nat 2%nat.
Proof.
  split; [|split].
  - destruct (C90_double ex_mem 0%nat _ [nd "b" [nd "c" []]] _ 9%nat ex_mem_a) as (h & m & H1 & H2 & _); [repeat first [apply (all_node _ _ []) | apply (all_node _ _ [_]) | constructor]|cbn; lia|]. exists h, m. split; [exact H1|exact H2].
  - destruct (C90_part_partial ex_mem 0%nat _ _ _ 1%nat _ _ 9%nat ex_mem_a ex_mem_b) as (h & m & H1 & H2 & _); [cbn; lia|cbn; lia|]. exists h, m. split; [exact H1|exact H2].
  - eapply under_more with (b := 1%nat); [exists O; reflexivity| |apply under_kid; [exists O; reflexivity|]]; (eexists; split; [reflexivity|split; [discriminate|intros x; discriminate]]).
Qed.
