(** Facts about the heap model. *)
From Verif Require Import Base Value Heap HeapSpec.
From Coq Require Import Lia Relation_Operators.

Ltac inv H := inversion H; subst; clear H.

Lemma set_cell_length : forall h a c, List.length (set_cell h a c) = List.length h.
Proof. induction h as [|d h IH]; intros [|a] c; cbn; auto. Qed.
Lemma set_cell_other : forall h a c x, x <> a -> nth_error (set_cell h a c) x = nth_error h x.
Proof. induction h as [|d h IH]; intros [|a] c [|x] N; cbn; auto; try congruence. Qed.
Lemma set_cell_same : forall h a c, (a < List.length h)%nat -> nth_error (set_cell h a c) a = Some c.
Proof. induction h as [|d h IH]; intros [|a] c L; cbn in *; auto; try lia. apply IH; lia. Qed.
Lemma nth_some_lt : forall {A} (l : list A) n x, nth_error l n = Some x -> (n < List.length l)%nat.
Proof. intros A l n x H. apply nth_error_Some. congruence. Qed.
Lemma nth_ge_none : forall {A} (l : list A) n, (List.length l <= n)%nat -> nth_error l n = None.
Proof. intros A l n. apply nth_error_None. Qed.

(** ** A territory: a set of addresses one cannot leave, to which all free addresses belong *)
Section Territory.
Variable T : addr -> Prop.
Definition oin (o : option addr) : Prop := forall a, o = Some a -> T a.
Definition vin (v : value addr) : Prop := forall a, v = VPtr (Some a) -> T a.
Definition cin (c : cell) : Prop := vin (c_this c) /\ Forall oin (c_out c).
Record terr (h : heap) : Prop := {
  t_free : forall a, (List.length h <= a)%nat -> T a;
  t_in : forall a c, nth_error h a = Some c -> T a -> cin c }.
Record kept (h h' : heap) : Prop := {
  k_len : (List.length h <= List.length h')%nat;
  k_out : forall a, ~ T a -> nth_error h' a = nth_error h a }.
Lemma kept_refl : forall h, kept h h.
Proof. split; auto. Qed.
Lemma kept_trans : forall a b c, kept a b -> kept b c -> kept a c.
Proof. intros a b c [L1 O1] [L2 O2]. split. lia. intros x N. rewrite O2, O1; auto. Qed.

(** whatever the outcome, only cells of the territory were written *)
Definition safe {A} (m : M A) (Q : A -> Prop) : Prop :=
  forall h, terr h -> terr (fst (m h)) /\ kept h (fst (m h)) /\ forall a, snd (m h) = Ok a -> Q a.
Lemma safe_ret : forall A (a : A) (Q : A -> Prop), Q a -> safe (ret a) Q.
Proof. intros A a Q H h T0. cbn. split; [exact T0|split; [apply kept_refl|]]. intros b E. inv E. auto. Qed.
Lemma safe_panic : forall A (Q : A -> Prop), safe mpanic Q.
Proof. intros A Q h T0. cbn. split; [exact T0|split; [apply kept_refl|]]. discriminate. Qed.
Lemma safe_fuel : forall A (Q : A -> Prop), safe mfuel Q.
Proof. intros A Q h T0. cbn. split; [exact T0|split; [apply kept_refl|]]. discriminate. Qed.
Lemma safe_lift : forall A (r : res A), safe (lift r) (fun _ => True).
Proof. intros A r h T0. cbn. split; [exact T0|split; [apply kept_refl|auto]]. Qed.
Lemma safe_bind : forall A B (m : M A) (k : A -> M B) (P : A -> Prop) (Q : B -> Prop), safe m P -> (forall a, P a -> safe (k a) Q) -> safe (mbind m k) Q.
Proof.
  intros A B m k P Q Hm Hk h T0. unfold mbind. specialize (Hm h T0). destruct (m h) as [h1 r]. cbn in Hm.
  destruct Hm as (T1 & K1 & R). destruct r as [a| |].
  - specialize (Hk a (R a eq_refl) h1 T1). destruct Hk as (T2 & K2 & R2). split; [exact T2|split; [eapply kept_trans; eauto|exact R2]].
  - cbn. split; [exact T1|split; [exact K1|discriminate]].
  - cbn. split; [exact T1|split; [exact K1|discriminate]].
Qed.
Lemma safe_weaken : forall A (m : M A) (P Q : A -> Prop), safe m P -> (forall a, P a -> Q a) -> safe m Q.
Proof. intros A m P Q H I h T0. destruct (H h T0) as (a & b & c). split; [exact a|split; [exact b|]]. intros x e. auto. Qed.
Lemma safe_load : forall a, T a -> safe (load a) cin.
Proof.
  intros a Ta h T0. cbn. split; [exact T0|split; [apply kept_refl|]]. intros c E.
  destruct (nth_error h a) eqn:G; [|discriminate]. inv E. eapply t_in; eauto.
Qed.
Lemma safe_store : forall a c, T a -> cin c -> safe (store a c) (fun _ => True).
Proof.
  intros a c Ta Cc h T0. cbn. split; [|split; [split|auto]].
  - split. rewrite set_cell_length. apply T0. intros x d G Tx.
    destruct (Nat.eq_dec x a) as [->|N].
    + pose proof (nth_some_lt _ _ _ G) as L. rewrite set_cell_length in L. rewrite set_cell_same in G by auto. inv G. auto.
    + rewrite set_cell_other in G by auto. eapply t_in; eauto.
  - rewrite set_cell_length. auto.
  - intros x N. apply set_cell_other. intros ->. auto.
Qed.
Lemma safe_alloc : forall c, cin c -> safe (alloc c) T.
Proof.
  intros c Cc h T0. cbn. split; [|split; [split|]].
  - split. intros a L. rewrite app_length in L. cbn in L. apply T0. lia.
    intros a d G Ta. destruct (Nat.lt_ge_cases a (List.length h)) as [L|L].
    + rewrite nth_error_app1 in G by auto. eapply t_in; eauto.
    + rewrite nth_error_app2 in G by auto. destruct (a - List.length h)%nat as [|[|n]]; cbn in G; try discriminate. inv G. auto.
  - rewrite app_length. cbn. lia.
  - intros a N. rewrite nth_error_app1; auto. destruct (Nat.lt_ge_cases a (List.length h)); auto. exfalso. apply N, T0; auto.
  - intros a E. inv E. apply T0. auto.
Qed.
Lemma safe_deref : forall o, oin o -> safe (deref o) T.
Proof. intros [a|] H; cbn. apply safe_ret. auto. apply safe_panic. Qed.
Lemma cin_mk : forall v o, vin v -> Forall oin o -> cin {| c_this := v; c_out := o |}.
Proof. split; auto. Qed.
Lemma vin_str : forall s, vin (VStr s).
Proof. intros s a E. discriminate. Qed.
Lemma oin_some : forall a, T a -> oin (Some a).
Proof. intros a H b E. congruence. Qed.
Lemma oin_none : oin None.
Proof. intros a E. discriminate. Qed.
Lemma vin_ptr : forall o, oin o -> vin (VPtr o).
Proof. intros o H a E. inv E. auto. Qed.
Lemma safe_set_out : forall a o, T a -> Forall oin o -> safe (set_out a o) (fun _ => True).
Proof.
  intros a o Ta Fo. unfold set_out. eapply safe_bind. apply safe_load; auto. intros c [V _].
  apply safe_store; auto. apply cin_mk; auto.
Qed.
Lemma safe_each : forall A (body : A -> M unit) l, (forall x, In x l -> safe (body x) (fun _ => True)) -> safe (each body l) (fun _ => True).
Proof.
  intros A body l. induction l as [|x l IH]; intros H; cbn. apply safe_ret; auto.
  eapply safe_bind. apply H. left; auto. intros _ _. apply IH. intros y Hy. apply H. right; auto.
Qed.
Lemma oin_in : forall l o, Forall oin l -> In o l -> oin o.
Proof. intros l o H I. eapply Forall_forall in H; eauto. Qed.

Hint Resolve oin_some oin_none vin_ptr vin_str cin_mk : core.

Variable E : env.

Lemma safe_hstring : forall f v, vin v -> safe (hstring E f v) (fun _ => True).
Proof.
  induction f as [|f IH]; intros v V; destruct v; cbn [hstring]; try (apply safe_ret; auto; fail);
    destruct p; try (apply safe_ret; auto; fail); try apply safe_fuel.
  eapply safe_bind. apply safe_load. auto. intros c [_ F]. destruct (c_out c) as [|[b|] o].
  - apply safe_ret; auto.
  - eapply safe_bind. apply safe_load. apply (Forall_inv F). auto. intros d [V2 _]. auto.
  - apply safe_panic.
Qed.
Lemma safe_hString : forall f g, oin g -> safe (hString E f g) (fun _ => True).
Proof. intros f [a|] H; unfold hString. apply safe_hstring; auto. apply safe_ret; auto. Qed.
Lemma safe_hNew : forall v, vin v -> safe (hNew v) oin.
Proof. intros v V. unfold hNew. eapply safe_bind. apply safe_alloc; auto. intros a H. apply safe_ret; auto. Qed.
Lemma safe_append : forall a o, T a -> Forall oin o -> safe (do c <- load a; set_out a (c_out c ++ o)) (fun _ => True).
Proof.
  intros a o Ta Fo. eapply safe_bind. apply safe_load; auto. intros c [_ F]. apply safe_set_out; auto.
  apply Forall_app; auto.
Qed.
Lemma safe_hAdd : forall g v, oin g -> vin v -> safe (hAdd g v) oin.
Proof.
  intros g v G V.
  assert (L : forall a, T a -> forall w, vin w -> safe (do n <- alloc {| c_this := w; c_out := [] |}; do c <- load a;
      do _ <- set_out a (c_out c ++ [Some n]); ret (Some n)) oin).
  { intros a Ta w W. eapply safe_bind. apply safe_alloc; auto. intros n Tn. eapply safe_bind. apply safe_load; auto.
    intros c [_ F]. eapply safe_bind. apply safe_set_out; auto. apply Forall_app; auto.
    intros _ _. apply safe_ret; auto. }
  unfold hAdd. destruct g as [a|]; [|apply safe_ret; auto].
  destruct v; try (apply L; auto; fail); try (apply safe_ret; auto; fail).
  destruct p as [n|]; [|apply L; auto].
  eapply safe_bind. apply safe_load; auto. intros c [_ F]. eapply safe_bind. apply safe_set_out; auto.
  apply Forall_app; split; auto. intros _ _. apply safe_ret; auto.
Qed.
Lemma safe_haddNodes : forall g v, oin g -> vin v -> safe (haddNodes g v) oin.
Proof.
  intros g v G V.
  assert (L : forall a, T a -> forall w, vin w -> safe (do n <- alloc {| c_this := w; c_out := [] |}; do c <- load a;
      do _ <- set_out a (c_out c ++ [Some n]); ret (Some n)) oin).
  { intros a Ta w W. eapply safe_bind. apply safe_alloc; auto. intros n Tn. eapply safe_bind. apply safe_load; auto.
    intros c [_ F]. eapply safe_bind. apply safe_set_out; auto. apply Forall_app; auto.
    intros _ _. apply safe_ret; auto. }
  unfold haddNodes. destruct g as [a|]; [|apply safe_ret; auto].
  destruct v; try (apply L; auto; fail); try (apply safe_ret; auto; fail).
  destruct p as [n|]; [|apply L; auto].
  eapply safe_bind. apply safe_load; auto. intros c [_ F]. eapply safe_bind. apply safe_load; auto. intros d [_ F2].
  eapply safe_bind. apply safe_set_out; auto. apply Forall_app; auto. intros _ _. apply safe_ret; auto.
Qed.
Lemma safe_hAddNodes : forall g g2, oin g -> oin g2 -> safe (hAddNodes g g2) oin.
Proof.
  intros [a|] [b|] G G2; unfold hAddNodes; try (apply safe_ret; auto; fail).
  eapply safe_bind. apply safe_load; auto. intros c [_ F]. eapply safe_bind. apply safe_load; auto. intros d [_ F2].
  eapply safe_bind. apply safe_set_out; auto. apply Forall_app; auto. intros _ _. apply safe_ret; auto.
Qed.
Lemma safe_hCopy : forall f g c, oin g -> oin c -> safe (hCopy f g c) (fun _ => True).
Proof.
  induction f as [|f IH]; intros [a|] [b|] G C; cbn [hCopy]; try (apply safe_ret; auto; fail); try apply safe_fuel.
  eapply safe_bind. apply safe_load; auto. intros d [_ F]. apply safe_each. intros x I.
  eapply safe_bind. apply safe_deref. eapply oin_in; eauto. intros n Tn.
  eapply safe_bind. apply safe_load; auto. intros e [V _]. eapply safe_bind. apply safe_hAdd; auto.
  intros nn Hn. apply IH; auto.
Qed.
Lemma safe_hClone : forall f g, oin g -> safe (hClone f g) oin.
Proof.
  induction f as [|f IH]; intros [a|] G; cbn [hClone]; try (apply safe_ret; auto; fail); try apply safe_fuel.
  eapply safe_bind. apply safe_load; auto. intros d [V F]. eapply safe_bind. apply safe_alloc; auto. intros c Tc.
  eapply safe_bind; [|intros _ _; apply safe_ret; auto]. apply safe_each. intros x I.
  eapply safe_bind. apply IH. eapply oin_in; eauto. intros m Hm.
  eapply safe_bind. apply safe_load; auto. intros y [_ Fy]. apply safe_set_out; auto. apply Forall_app; auto.
Qed.
Lemma safe_hfind : forall f s o, Forall oin o -> safe (hfind E f s o) oin.
Proof.
  intros f s o. induction o as [|x o IH]; intros F; cbn [hfind]. apply safe_ret; auto.
  eapply safe_bind. apply safe_deref. apply (Forall_inv F). intros n Tn.
  eapply safe_bind. apply safe_load; auto. intros e [V _]. eapply safe_bind. apply safe_hstring; auto. intros t _.
  destruct (bseq s t). apply safe_ret; auto. apply IH, (Forall_inv_tail F).
Qed.
Lemma safe_hNode : forall f g s, oin g -> safe (hNode E f g s) oin.
Proof.
  intros f [a|] s G; unfold hNode. eapply safe_bind. apply safe_load; auto. intros c [_ F]. apply safe_hfind; auto.
  apply safe_ret; auto.
Qed.
Lemma safe_hNodeOrNew : forall f g s, oin g -> safe (hNodeOrNew E f g s) oin.
Proof.
  intros f [a|] s G; unfold hNodeOrNew. eapply safe_bind. apply safe_hNode; auto. intros [n|] H.
  apply safe_ret; auto. apply safe_hAdd; auto. apply safe_ret; auto.
Qed.
Lemma safe_hClear : forall g, oin g -> safe (hClear g) (fun _ => True).
Proof. intros [a|] G; unfold hClear. apply safe_set_out; auto. apply safe_ret; auto. Qed.
Lemma safe_hNodeSet : forall f g s v, oin g -> vin v -> safe (hNodeSet E f g s v) oin.
Proof.
  intros f g s v G V. unfold hNodeSet. eapply safe_bind. apply safe_hNodeOrNew; auto. intros n Hn.
  eapply safe_bind. apply safe_hClear; auto. intros _ _. apply safe_hAdd; auto.
Qed.
Lemma safe_hCreate : forall f g s, oin g -> safe (hCreate E f g s) oin.
Proof.
  intros f g s G. unfold hCreate. eapply safe_bind. apply safe_hNode; auto. intros [n|] H.
  eapply safe_bind. apply safe_hClear; auto. intros _ _. apply safe_ret; auto. apply safe_hAdd; auto.
Qed.
Lemma safe_hGetAt : forall g i, oin g -> safe (hGetAt g i) oin.
Proof.
  intros g i G. unfold hGetAt. eapply safe_bind. apply safe_deref; auto. intros a Ta.
  eapply safe_bind. apply safe_load; auto. intros c [_ F]. apply safe_ret.
  destruct (_ || _); auto. destruct (nth_in_or_default (Z.to_nat i) (c_out c) None) as [I| ->]; auto.
  eapply oin_in; eauto.
Qed.
Lemma safe_hdel : forall a n rest done, T a -> Forall oin done -> Forall oin rest -> safe (hdel a n done rest) (fun _ => True).
Proof.
  intros a n rest. induction rest as [|c rest IH]; intros done Ta D R; cbn [hdel]. apply safe_ret; auto.
  pose proof (Forall_inv R) as Rc. pose proof (Forall_inv_tail R) as Rr.
  eapply safe_bind. apply safe_deref; auto. intros x Tx. eapply safe_bind. apply safe_load; auto. intros e _.
  eapply safe_bind. apply safe_lift. intros [|] _.
  - eapply safe_bind. apply safe_set_out; auto. apply Forall_app; auto. intros _ _. apply IH; auto.
  - apply IH; auto. apply Forall_app; auto.
Qed.
Lemma safe_hDelete : forall g n, oin g -> safe (hDelete g n) (fun _ => True).
Proof.
  intros [a|] n G; unfold hDelete. eapply safe_bind. apply safe_load; auto. intros c [_ F]. apply safe_hdel; auto.
  apply safe_ret; auto.
Qed.
Lemma Forall_firstn : forall A (P : A -> Prop) n l, Forall P l -> Forall P (firstn n l).
Proof. intros A P n l H. rewrite <- (firstn_skipn n l) in H. apply Forall_app in H. tauto. Qed.
Lemma Forall_skipn : forall A (P : A -> Prop) n l, Forall P l -> Forall P (skipn n l).
Proof. intros A P n l H. rewrite <- (firstn_skipn n l) in H. apply Forall_app in H. tauto. Qed.
Lemma safe_hDeleteAt : forall g i, oin g -> safe (hDeleteAt g i) (fun _ => True).
Proof.
  intros [a|] i G; unfold hDeleteAt; [|apply safe_ret; auto]. eapply safe_bind. apply safe_load; auto. intros c [_ F].
  destruct (_ || _). apply safe_ret; auto. apply safe_set_out; auto.
  apply Forall_app; split. apply Forall_firstn; auto. apply Forall_skipn; auto.
Qed.
Lemma put_at_in : forall o i n, Forall oin o -> oin n -> Forall oin (put_at o i n).
Proof.
  intros o i. revert o. induction i as [|i IH]; intros [|c o] n F H; cbn; constructor; auto.
  - apply (Forall_inv_tail F).
  - apply (Forall_inv F).
  - apply IH; auto. apply (Forall_inv_tail F).
Qed.
Lemma safe_hset_index : forall a i v, T a -> vin v -> safe (hset_index a i v) oin.
Proof.
  intros a i v Ta V. unfold hset_index. destruct (i <? 0). apply safe_panic.
  eapply safe_bind. apply safe_alloc; auto. intros n Tn. eapply safe_bind. apply safe_load; auto. intros c [_ F].
  eapply safe_bind. apply safe_set_out; auto. apply put_at_in; auto. intros _ _. apply safe_ret; auto.
Qed.
Lemma safe_hset_here : forall a v, T a -> vin v -> safe (hset_here a v) oin.
Proof. intros a v Ta V. unfold hset_here. eapply safe_bind. apply safe_set_out; auto. intros _ _. apply safe_haddNodes; auto. Qed.
Lemma safe_hset_new : forall els a v, T a -> vin v -> safe (hset_new els a v) oin.
Proof.
  induction els as [|[s|i] els IH]; intros a v Ta V; cbn [hset_new].
  - apply safe_hset_here; auto.
  - eapply safe_bind. apply safe_hAdd; auto. intros n Hn. eapply safe_bind. apply safe_deref; auto. intros m Tm. auto.
  - apply safe_hset_index; auto.
Qed.
Lemma safe_hset : forall f els a v, T a -> vin v -> safe (hset E f els a v) oin.
Proof.
  intros f. induction els as [|[s|i] els IH]; intros a v Ta V; cbn [hset].
  - apply safe_hset_here; auto.
  - eapply safe_bind. apply safe_hNode; auto. intros [n|] Hn; auto. apply safe_hset_new; auto.
  - apply safe_hset_index; auto.
Qed.
Lemma safe_hgets : forall f els g, oin g -> safe (hgets E f els g) oin.
Proof.
  intros f. induction els as [|[s|i] els IH]; intros [a|] G; cbn [hgets]; try (apply safe_ret; auto; fail).
  - eapply safe_bind. apply safe_hNode; auto. intros n Hn. auto.
  - destruct (i <? 0). apply safe_ret; auto.
    eapply safe_bind. apply safe_hNew; auto. intros r Hr. eapply safe_bind. apply safe_hGetAt; auto. intros c Hc.
    eapply safe_bind. apply safe_hAdd; auto. intros _ _. auto.
Qed.
Lemma safe_hget : forall f els g, oin g -> safe (hget E f els g) oin.
Proof. intros f [|e els] g G; unfold hget. apply safe_ret; auto. apply safe_hgets; auto. Qed.
Lemma safe_hSubstitute : forall f g s v, oin g -> vin v -> safe (hSubstitute E f g s v) (fun _ => True).
Proof.
  induction f as [|f IH]; intros [a|] s v G V; cbn [hSubstitute]; try (apply safe_ret; auto; fail); try apply safe_fuel.
  eapply safe_bind. apply safe_load; auto. intros c [_ F]. apply safe_each. intros x I.
  eapply safe_bind. apply safe_deref. eapply oin_in; eauto. intros n Tn.
  eapply safe_bind. apply safe_load; auto. intros e [Ve Fe].
  eapply safe_bind. apply (safe_hstring (S f)); auto. intros t _.
  eapply safe_bind with (P := fun _ => True). destruct (bseq t s). apply safe_store; auto. apply safe_ret; auto.
  intros _ _. apply IH; auto.
Qed.
Lemma safe_hMerge : forall f g src, oin g -> T src -> safe (hMerge E f g src) (fun _ => True).
Proof.
  induction f as [|f IH]; intros g src G S; cbn [hMerge]; try apply safe_fuel.
  eapply safe_bind. apply safe_load; auto. intros c [_ F]. apply safe_each. intros x I.
  assert (Hx : oin x) by (eapply oin_in; eauto).
  eapply safe_bind. apply (safe_hString (Datatypes.S f)); auto. intros s _.
  eapply safe_bind. apply (safe_hNode (Datatypes.S f)); auto. intros [n|] Hn.
  - eapply safe_bind. apply safe_set_out; auto. intros _ _. eapply safe_bind. apply safe_deref; auto. intros b Tb. apply IH; auto.
  - eapply safe_bind. apply safe_hAdd; auto. intros _ _. apply safe_ret; auto.
Qed.

Definition ein (e : vars) : Prop := forall i, oin (var e i).
Lemma resolve_in : forall e v, ein e -> vin (resolve e v).
Proof. intros e v H a Ea. destruct v; cbn in Ea; try discriminate. destruct p as [i|]; inv Ea. eapply H; eauto. Qed.
Lemma safe_unit : forall m Q, safe m Q -> safe (unit_ m) oin.
Proof. intros m Q H. unfold unit_. eapply safe_bind. exact H. intros _ _. apply safe_ret; auto. Qed.
Lemma safe_run_op : forall f e o, ein e -> safe (run_op E f e o) oin.
Proof.
  intros f e o He. pose proof (fun v => resolve_in e v He) as R.
  assert (D : forall g, safe (deref (var e g)) T) by (intros g; apply safe_deref, He).
  destruct o; cbn [run_op].
  - apply safe_hNew; auto.
  - apply safe_hAdd; auto.
  - apply safe_hAddNodes; auto.
  - eapply safe_unit, safe_hCopy; auto.
  - apply safe_hClone; auto.
  - apply safe_hNode; auto.
  - apply safe_hNodeOrNew; auto.
  - apply safe_hNodeSet; auto.
  - apply safe_hCreate; auto.
  - apply safe_hGetAt; auto.
  - eapply safe_unit, safe_hDelete; auto.
  - eapply safe_unit, safe_hClear; auto.
  - eapply safe_unit, safe_hDeleteAt; auto.
  - unfold hSet. destruct (var e g) as [a|] eqn:Eg; [|apply safe_ret, oin_none]. apply safe_hset; auto. apply (He g). exact Eg.
  - apply safe_hget; auto.
  - eapply safe_unit, safe_hSubstitute; auto.
  - eapply safe_bind. apply D. intros a Ta. eapply safe_unit, safe_hMerge; auto.
  - eapply safe_bind. apply D. intros a Ta. eapply safe_bind. apply safe_load; auto. intros c [V _].
    destruct (c_this c) eqn:Ec; try apply safe_panic. apply safe_ret. intros x Ex. subst. apply V. auto.
  - eapply safe_bind. apply D. intros a Ta. eapply safe_bind. apply safe_load; auto. intros c [_ F].
    eapply safe_bind. apply safe_store; auto. intros _ _. apply safe_ret; auto.
  - eapply safe_bind. apply D. intros a Ta. eapply safe_bind. apply safe_set_out; auto.
    apply Forall_forall. intros x I. apply in_map_iff in I. destruct I as (i & <- & _). apply He.
    intros _ _. apply safe_ret; auto.
Qed.
Lemma ein_snoc : forall e o, ein e -> oin o -> ein (e ++ [o]).
Proof.
  intros e o He Ho i. unfold var. destruct (Nat.lt_ge_cases i (List.length e)) as [L|L].
  - rewrite app_nth1 by auto. apply He.
  - rewrite app_nth2 by auto. destruct (i - List.length e)%nat as [|[|n]]; cbn; auto.
Qed.
Lemma run_safe : forall f ops h e, terr h -> ein e ->
  terr (fst (run E f ops h e)) /\ kept h (fst (run E f ops h e)) /\ ein (snd (run E f ops h e)).
Proof.
  intros f ops. induction ops as [|o ops IH]; intros h e T0 He; cbn.
  - split; [auto|split; [apply kept_refl|auto]].
  - destruct (safe_run_op f e o He h T0) as (T1 & K1 & R). destruct (run_op E f e o h) as [h1 r]. cbn in *.
    destruct (IH h1 (e ++ [match r with Ok p => p | _ => None end])) as (T2 & K2 & E2); auto.
    { apply ein_snoc; auto. destruct r; auto. }
    split; [auto|split; [eapply kept_trans; eauto|auto]].
Qed.
End Territory.

(** ** Reachable nodes, and what a node shows *)
Lemma reach_refl : forall h a, reach h a a.
Proof. intros. apply rt1n_refl. Qed.
Lemma reach_step : forall h a b x, edge h a b -> reach h b x -> reach h a x.
Proof. intros. eapply rt1n_trans; eauto. Qed.
Lemma reach_trans : forall h a b, reach h a b -> forall c, reach h b c -> reach h a c.
Proof. intros h a b R. induction R as [a|a y b B R IH]; intros z Z; auto. eapply reach_step; eauto. Qed.
Lemma edge_cell : forall h a b, edge h a b <->
  exists c, nth_error h a = Some c /\ (In (Some b) (c_out c) \/ c_this c = VPtr (Some b)).
Proof.
  intros h a b. unfold edge, down, inside, kid. split.
  - intros [(k & K)|(c & G & V)]; [|eauto]. destruct (nth_error h a) as [c|]; [|discriminate].
    exists c. split; auto. left. eapply nth_error_In; eauto.
  - intros (c & G & [I|V]); [left|right; eauto]. apply In_nth_error in I. destruct I as (k & K). exists k. rewrite G. auto.
Qed.
Lemma edge_same : forall h h' a, nth_error h' a = nth_error h a -> forall b, edge h a b <-> edge h' a b.
Proof. intros h h' a Q b. rewrite !edge_cell, Q. tauto. Qed.
Lemma reach_same : forall h h' a, (forall x, reach h a x -> nth_error h' x = nth_error h x) ->
  forall x, reach h' a x <-> reach h a x.
Proof.
  intros h h' a Q x. split; intros R.
  - assert (G : forall y, reach h a y -> forall z, reach h' y z -> reach h a z).
    { intros y Y z Z. revert Y. induction Z as [y|y z w B Z IH]; intros Y; auto.
      apply IH. eapply reach_trans; eauto. eapply reach_step; [|apply reach_refl]. apply (edge_same h h'); auto. }
    eapply G; eauto. apply reach_refl.
  - induction R as [a|a b x B R IH]. apply reach_refl. eapply reach_step; [|apply IH].
    + apply (edge_same h h'); auto. apply Q. apply reach_refl.
    + intros y Y. apply Q. eapply reach_step; eauto.
Qed.
Lemma reach_closed : forall h (U : addr -> Prop), (forall x y, U x -> edge h x y -> U y) ->
  forall a x, reach h a x -> U a -> U x.
Proof. intros h U C a x R. induction R; intros Ua; auto. apply IHR. eapply C; eauto. Qed.

Lemma kids_at : forall h l o, shows_kids h l o -> forall b, In (Some b) l -> exists g, shows h b g.
Proof.
  intros h l. induction l as [|x l IH]; intros o K b I; [destruct I|].
  destruct I as [->|I]; inversion K; subst; eauto.
Qed.
Lemma shows_edge : forall h a g, shows h a g -> forall b, edge h a b -> exists g', shows h b g'.
Proof.
  intros h a g H b B. inversion H as [a' c v o G V K]; subst. apply edge_cell in B. destruct B as (c' & G' & B).
  assert (c' = c) by congruence. subst c'. destruct B as [I|V2].
  - eapply kids_at; eauto.
  - rewrite V2 in V. inversion V as [x v' P|b' g' S]; subst. discriminate. eauto.
Qed.
Lemma shows_reach : forall h a x, reach h a x -> forall g, shows h a g -> exists g', shows h x g'.
Proof. intros h a x R. induction R as [a|a b x B R IH]; intros g S; eauto. destruct (shows_edge _ _ _ S _ B). eauto. Qed.
Lemma shows_lt : forall h a g, shows h a g -> (a < List.length h)%nat.
Proof. intros h a g S. inversion S; subst. eapply nth_some_lt; eauto. Qed.
Lemma shows_reach_lt : forall h a g, shows h a g -> forall x, reach h a x -> (x < List.length h)%nat.
Proof. intros h a g S x R. destruct (shows_reach _ _ _ R _ S). eapply shows_lt; eauto. Qed.

Lemma shows_same3 : forall h h',
  (forall a g, shows h a g -> (forall x, reach h a x -> nth_error h' x = nth_error h x) -> shows h' a g) /\
  (forall x v, shows_value h x v -> (forall b, x = VPtr (Some b) -> forall y, reach h b y -> nth_error h' y = nth_error h y) -> shows_value h' x v) /\
  (forall l o, shows_kids h l o -> (forall b, In (Some b) l -> forall y, reach h b y -> nth_error h' y = nth_error h y) -> shows_kids h' l o).
Proof.
  intros h h'. apply shows_ind3.
  - intros a c v o G _ IV _ IK Q. apply shows_node with (c := c).
    + rewrite Q; auto. apply reach_refl.
    + apply IV. intros b B y Y. apply Q. eapply reach_step; eauto. apply edge_cell. eauto.
    + apply IK. intros b B y Y. apply Q. eapply reach_step; eauto. apply edge_cell. eauto.
  - intros x v P _. apply sv_plain; auto.
  - intros a g _ IH Q. apply sv_graph. apply IH. apply Q. auto.
  - intros _. apply sk_nil.
  - intros l o _ IH Q. apply sk_none. apply IH. intros b B. apply Q. right; auto.
  - intros a g l o _ IH1 _ IH2 Q. apply sk_some. apply IH1. apply Q. left; auto. apply IH2. intros b B. apply Q. right; auto.
Qed.
Lemma shows_same : forall h h' a g, shows h a g -> (forall x, reach h a x -> nth_error h' x = nth_error h x) -> shows h' a g.
Proof. intros h h'. apply (shows_same3 h h'). Qed.
Lemma shows_value_same : forall h h' x v, shows_value h x v ->
  (forall b, x = VPtr (Some b) -> forall y, reach h b y -> nth_error h' y = nth_error h y) -> shows_value h' x v.
Proof. intros h h'. apply (shows_same3 h h'). Qed.
Lemma shows_kids_same : forall h h' l o, shows_kids h l o ->
  (forall b, In (Some b) l -> forall y, reach h b y -> nth_error h' y = nth_error h y) -> shows_kids h' l o.
Proof. intros h h'. apply (shows_same3 h h'). Qed.

(** a node shows one graph only *)
Lemma shows_fun3 : forall h,
  (forall a g, shows h a g -> forall g', shows h a g' -> g' = g) /\
  (forall x v, shows_value h x v -> forall v', shows_value h x v' -> v' = v) /\
  (forall l o, shows_kids h l o -> forall o', shows_kids h l o' -> o' = o).
Proof.
  intros h. apply shows_ind3.
  - intros a c v o G _ IV _ IK g' S. inversion S as [a' c' v' o' G' V' K']; subst.
    assert (c' = c) by congruence. subst c'. rewrite (IV _ V'), (IK _ K'). auto.
  - intros x v P v' V. inversion V as [x' w P'|a g S]; subst. congruence. discriminate.
  - intros a g _ IH v' V. inversion V as [x' w P'|a' g' S]; subst. discriminate. rewrite (IH _ S). auto.
  - intros o' K. inversion K. auto.
  - intros l o _ IH o' K. inversion K as [|l' o2 K2|]; subst. rewrite (IH _ K2). auto.
  - intros a g l o _ IH1 _ IH2 o' K. inversion K as [| |a' g' l' o2 S K2]; subst. rewrite (IH1 _ S), (IH2 _ K2). auto.
Qed.
Lemma shows_fun : forall h a g g', shows h a g -> shows h a g' -> g' = g.
Proof. intros h a g g' S. apply (proj1 (shows_fun3 h)). auto. Qed.
Lemma shows_kids_nth : forall h l o, shows_kids h l o -> forall k n, nth_error l k = Some (Some n) ->
  exists g, nth_error o k = Some (Some g) /\ shows h n g.
Proof.
  intros h l. induction l as [|x l IH]; intros o K [|k] n N; cbn in N; try discriminate; inversion K; subst; cbn; eauto.
  - discriminate.
  - inv N. eauto.
Qed.

(** ** Graphs with no common node *)
Definition range (h : heap) (e : vars) (x : addr) : Prop :=
  (exists i y, var e i = Some y /\ reach h y x) \/ (List.length h <= x)%nat.
Lemma range_terr : forall h e, terr (range h e) h.
Proof.
  intros h e. split. intros a L. right. auto.
  intros a c G [(i & y & V & R)|L]; [|rewrite nth_ge_none in G by auto; discriminate].
  assert (X : forall b, edge h a b -> range h e b).
  { intros b B. left. exists i, y. split; auto. eapply reach_trans; eauto. eapply reach_step; eauto. apply reach_refl. }
  split.
  - intros b B. apply X. apply edge_cell. eauto.
  - apply Forall_forall. intros [b|] I b' B'; inv B'. apply X. apply edge_cell. eauto.
Qed.
Lemma range_ein : forall h e, ein (range h e) e.
Proof. intros h e i x V. left. exists i, x. split; auto. apply reach_refl. Qed.
Lemma run_frame : forall E f ops h e a, away h e a -> (forall x, reach h a x -> (x < List.length h)%nat) ->
  let (h', e') := run E f ops h e in
  (forall x, reach h a x -> nth_error h' x = nth_error h x) /\ away h' e' a.
Proof.
  intros E f ops h e a A L.
  destruct (run_safe (range h e) E f ops h e (range_terr h e) (range_ein h e)) as (T1 & K1 & E1).
  destruct (run E f ops h e) as [h' e']. cbn in *.
  assert (N : forall x, reach h a x -> ~ range h e x).
  { intros x R [(i & y & V & R2)|G]. apply (A i y V x); auto. specialize (L x R). lia. }
  assert (S : forall x, reach h a x -> nth_error h' x = nth_error h x) by (intros x R; apply K1; auto).
  split; auto. intros i y V x R R2. apply (reach_same h h' a S) in R2. apply (N x R2).
  refine (reach_closed h' (range h e) _ y x R (E1 i y V)).
  intros u w Tu B. apply edge_cell in B. destruct B as (c & G & B). destruct (t_in _ _ T1 u c G Tu) as [Vc Fc].
  destruct B as [I|I]; [|apply Vc; auto]. exact (oin_in _ _ _ Fc I w eq_refl).
Qed.

(** ** Clone *)
Definition lv (o : list (option graph)) : nat :=
  fold_right (fun c m => match c with Some c => Nat.max (levels c) m | None => m end) O o.
Lemma levels_eq : forall v o, levels (Node v o) = S (lv o).
Proof. reflexivity. Qed.

Record cloned (h : heap) (a : addr) (g : graph) (h' : heap) (b : addr) : Prop := {
  cl_new : (List.length h <= b < List.length h')%nat;
  cl_old : forall x, (x < List.length h)%nat -> nth_error h' x = nth_error h x;
  cl_shows : shows h' b g;
  cl_cells : forall x c, (List.length h <= x)%nat -> nth_error h' x = Some c ->
    (forall y, In (Some y) (c_out c) -> (List.length h <= y)%nat) /\
    (exists w cw, reach h a w /\ nth_error h w = Some cw /\ c_this c = c_this cw) }.

Lemma mbind_ok : forall A B (m : M A) (k : A -> M B) h h1 a, m h = (h1, Ok a) -> mbind m k h = k a h1.
Proof. intros. unfold mbind. rewrite H. auto. Qed.
Lemma each_cons : forall A (body : A -> M unit) x l h h1, body x h = (h1, Ok tt) -> each body (x :: l) h = each body l h1.
Proof. intros A body x l h h1 Q. cbn [each]. unfold mbind. rewrite Q. auto. Qed.
Lemma load_ok : forall a h c, nth_error h a = Some c -> load a h = (h, Ok c).
Proof. intros a h c G. unfold load. rewrite G. auto. Qed.
Lemma set_out_ok : forall a o h c, nth_error h a = Some c ->
  set_out a o h = (set_cell h a {| c_this := c_this c; c_out := o |}, Ok tt).
Proof. intros a o h c G. unfold set_out. rewrite (mbind_ok _ _ _ _ _ _ _ (load_ok _ _ _ G)). auto. Qed.

Section Clone.
Variable f : nat.
Hypothesis IH : forall h a g, shows h a g -> (levels g <= f)%nat ->
  exists h' b, hClone f (Some a) h = (h', Ok (Some b)) /\ cloned h a g h' b.
Variables (h : heap) (a : addr) (d : cell).
Hypothesis Ha : nth_error h a = Some d.
Hypothesis Hlt : forall x, reach h a x -> (x < List.length h)%nat.
Notation c := (List.length h).

Record during (hi : heap) (done : list (option addr)) (odone : list (option graph)) : Prop := {
  d_len : (c < List.length hi)%nat;
  d_old : forall x, (x < c)%nat -> nth_error hi x = nth_error h x;
  d_c : nth_error hi c = Some {| c_this := c_this d; c_out := done |};
  d_shows : shows_kids hi done odone;
  d_done : forall m, In (Some m) done -> (c < m)%nat;
  d_cells : forall x e, (c < x)%nat -> nth_error hi x = Some e ->
    (forall y, In (Some y) (c_out e) -> (c < y)%nat) /\
    (exists w cw, reach h a w /\ nth_error h w = Some cw /\ c_this e = c_this cw) }.

Lemma avoid : forall hi, (forall x, (x < c)%nat -> nth_error hi x = nth_error h x) ->
  (forall x e, (c < x)%nat -> nth_error hi x = Some e ->
    (forall y, In (Some y) (c_out e) -> (c < y)%nat) /\
    (exists w cw, reach h a w /\ nth_error h w = Some cw /\ c_this e = c_this cw)) ->
  forall m y, (c < m)%nat -> reach hi m y -> y <> c.
Proof.
  intros hi Old Cells m y Lm R.
  assert (U : (c < y)%nat \/ reach h a y).
  { eapply (reach_closed hi (fun x => (c < x)%nat \/ reach h a x)); eauto.
    intros x z [L|L] B.
    - apply edge_cell in B. destruct B as (e & G & B). destruct (Cells x e L G) as (K & w & cw & W & Gw & Q).
      destruct B as [B|B]; [left; auto|right]. eapply reach_trans; eauto. eapply reach_step; [|apply reach_refl].
      apply edge_cell. exists cw. split; auto. right. congruence.
    - right. eapply reach_trans; eauto. eapply reach_step; [|apply reach_refl]. apply (edge_same h hi); auto. }
  destruct U as [U|U]; [lia|]. apply Hlt in U. lia.
Qed.

Lemma during_step : forall hi done odone m om, during hi done odone ->
  shows_kids hi [m] [om] -> (forall y, m = Some y -> (c < y)%nat) ->
  during (set_cell hi c {| c_this := c_this d; c_out := done ++ [m] |}) (done ++ [m]) (odone ++ [om]).
Proof.
  intros hi done odone m om [L Old C Sh Dn Ce] Sm Lm.
  assert (Av := avoid hi Old Ce).
  split.
  - rewrite set_cell_length. auto.
  - intros x Lx. rewrite set_cell_other by lia. auto.
  - apply set_cell_same. auto.
  - apply (shows_kids_same hi).
    + clear - Sh Sm. induction Sh as [|l o Sh IHs|x g l o S Sh IHs]; cbn; auto. apply sk_none; auto. apply sk_some; auto.
    + intros b B y Y. apply set_cell_other. apply (Av b y); auto. apply in_app_or in B. destruct B as [B|[B|[]]]; auto.
  - intros x I. apply in_app_or in I. destruct I as [I|[I|[]]]; auto.
  - intros x e Lx G. rewrite set_cell_other in G by lia. eauto.
Qed.
Lemma clone_loop : forall rest orest, shows_kids h rest orest -> (lv orest <= f)%nat ->
  (forall x, In (Some x) rest -> reach h a x) ->
  forall hi done odone, during hi done odone ->
  exists h' l, each (fun n => do m <- hClone f n; do x <- load c; set_out c (c_out x ++ [m])) rest hi = (h', Ok tt) /\
    during h' l (odone ++ orest).
Proof.
  intros rest orest K. induction K as [|l o K IHk|x g l o S K IHk]; intros Lf R hi done odone D.
  - exists hi, done. rewrite app_nil_r. auto.
  - assert (Q : each (fun n => do m <- hClone f n; do x <- load c; set_out c (c_out x ++ [m])) (None :: l) hi =
      each (fun n => do m <- hClone f n; do x <- load c; set_out c (c_out x ++ [m])) l
        (set_cell hi c {| c_this := c_this d; c_out := done ++ [None] |})).
    { apply each_cons.
      rewrite (mbind_ok _ _ _ _ hi hi None) by (destruct f; auto).
      rewrite (mbind_ok _ _ _ _ _ _ _ (load_ok _ _ _ (d_c _ _ _ D))). cbn [c_out].
      rewrite (set_out_ok _ _ _ _ (d_c _ _ _ D)). auto. }
    rewrite Q.
    destruct (IHk Lf (fun x I => R x (or_intror I)) (set_cell hi c {| c_this := c_this d; c_out := done ++ [None] |}) (done ++ [None]) (odone ++ [None])) as (h' & l' & Eq & D').
    + apply during_step; auto. apply sk_none, sk_nil. discriminate.
    + rewrite <- app_assoc in D'. eauto.
  - assert (Rx : reach h a x) by (apply R; left; auto). cbn [lv fold_right] in Lf. fold (lv o) in Lf.
    assert (Sx : shows hi x g).
    { apply (shows_same h); auto. intros y Y. apply (d_old _ _ _ D). apply Hlt. eapply reach_trans; eauto. }
    destruct (IH hi x g Sx) as (h2 & m & Eq & Cl). lia.
    pose proof (cl_new _ _ _ _ _ Cl) as Nm. pose proof (d_len _ _ _ D) as Ln.
    assert (Sub : forall y, reach hi x y <-> reach h x y).
    { apply reach_same. intros y Y. apply (d_old _ _ _ D). apply Hlt. eapply reach_trans; eauto. }
    assert (D2 : during h2 done odone).
    { split.
      - lia.
      - intros y Ly. rewrite (cl_old _ _ _ _ _ Cl) by lia. apply (d_old _ _ _ D); auto.
      - rewrite (cl_old _ _ _ _ _ Cl) by lia. apply (d_c _ _ _ D).
      - apply (shows_kids_same hi). apply (d_shows _ _ _ D). intros b B y Y. apply (cl_old _ _ _ _ _ Cl).
        destruct (kids_at _ _ _ (d_shows _ _ _ D) b B) as (gb & Sb). eapply shows_reach_lt; eauto.
      - apply (d_done _ _ _ D).
      - intros y e Ly G. destruct (Nat.lt_ge_cases y (List.length hi)) as [L|L].
        + rewrite (cl_old _ _ _ _ _ Cl) in G by auto. apply (d_cells _ _ _ D y); auto.
        + destruct (cl_cells _ _ _ _ _ Cl y e L G) as (Ky & w & cw & W & Gw & Q). split.
          * intros z Z. apply Ky in Z. lia.
          * exists w, cw. apply Sub in W. assert (Rw : reach h a w) by (eapply reach_trans; eauto).
            split; auto. split; auto. rewrite <- (d_old _ _ _ D); auto. }
    assert (Q : each (fun n => do m <- hClone f n; do x <- load c; set_out c (c_out x ++ [m])) (Some x :: l) hi =
      each (fun n => do m <- hClone f n; do x <- load c; set_out c (c_out x ++ [m])) l
        (set_cell h2 c {| c_this := c_this d; c_out := done ++ [Some m] |})).
    { apply each_cons.
      rewrite (mbind_ok _ _ _ _ _ _ _ Eq).
      rewrite (mbind_ok _ _ _ _ _ _ _ (load_ok _ _ _ (d_c _ _ _ D2))). cbn [c_out].
      rewrite (set_out_ok _ _ _ _ (d_c _ _ _ D2)). auto. }
    rewrite Q.
    destruct (IHk ltac:(lia) (fun x I => R x (or_intror I)) (set_cell h2 c {| c_this := c_this d; c_out := done ++ [Some m] |}) (done ++ [Some m]) (odone ++ [Some g])) as (h' & l' & Eq' & D').
    + apply during_step; auto. apply sk_some; [|apply sk_nil]. apply (cl_shows _ _ _ _ _ Cl). intros y Y. inv Y. lia.
    + rewrite <- app_assoc in D'. eauto.
Qed.
End Clone.

Lemma clone_spec : forall f h a g, shows h a g -> (levels g <= f)%nat ->
  exists h' b, hClone f (Some a) h = (h', Ok (Some b)) /\ cloned h a g h' b.
Proof.
  induction f as [|f IH]; intros h a g S L; inversion S as [a' d v o G V K]; subst; rewrite levels_eq in L; [lia|].
  assert (Hlt := shows_reach_lt _ _ _ S).
  cbn [hClone]. rewrite (mbind_ok _ _ _ _ _ _ _ (load_ok _ _ _ G)).
  set (h1 := h ++ [{| c_this := c_this d; c_out := [] |}]).
  rewrite (mbind_ok _ _ _ _ h h1 (List.length h)) by auto.
  destruct (clone_loop f IH h a d Hlt (c_out d) o K ltac:(lia)) with (hi := h1) (done := @nil (option addr)) (odone := @nil (option graph))
    as (h' & l & Eq & D).
  - intros x I. eapply reach_step; [|apply reach_refl]. apply edge_cell. eauto.
  - unfold h1. split.
    + rewrite app_length. cbn. lia.
    + intros x Lx. apply nth_error_app1. auto.
    + rewrite nth_error_app2, Nat.sub_diag by lia. auto.
    + apply sk_nil.
    + intros m [].
    + intros x e Lx Gx. apply nth_some_lt in Gx. rewrite app_length in Gx. cbn in Gx. lia.
  - exists h', (List.length h). split.
    + rewrite (mbind_ok _ _ _ _ _ _ _ Eq). auto.
    + destruct D as [Dl Do Dc Ds Dd Dce]. split; auto.
      * apply shows_node with (c := {| c_this := c_this d; c_out := l |}); auto. cbn [c_this].
        apply (shows_value_same h); auto. intros b B y Y. apply Do. apply Hlt. eapply reach_step; eauto. apply edge_cell. eauto.
      * intros x c Lx Gx. destruct (Nat.eq_dec x (List.length h)) as [->|N].
        -- rewrite Dc in Gx. inv Gx. cbn. split. intros y I. apply Dd in I. lia. exists a, d. split; auto. apply reach_refl.
        -- destruct (Dce x c ltac:(lia) Gx) as (Kx & W). split; auto. intros y I. apply Kx in I. lia.
Qed.

(** ** Walking and assigning *)
Lemma run_outside : forall E f ops h e x, (x < List.length h)%nat ->
  (forall i y, var e i = Some y -> ~ reach h y x) -> nth_error (fst (run E f ops h e)) x = nth_error h x.
Proof.
  intros E f ops h e x L N.
  destruct (run_safe (range h e) E f ops h e (range_terr h e) (range_ein h e)) as (_ & K1 & _).
  apply K1. intros [(i & y & V & R)|G]. eapply N; eauto. lia.
Qed.
Lemma hstring_text : forall E f s h, hstring E f (VStr s) h = (h, Ok s).
Proof. intros E [|f] s h; reflexivity. Qed.
Lemma hfind_skip : forall E f s h pre rest, Forall (fun x => exists t, text_at h x t /\ t <> s) pre ->
  hfind E f s (pre ++ rest) h = hfind E f s rest h.
Proof.
  intros E f s h pre rest. induction pre as [|x pre IH]; intros F; auto.
  destruct (Forall_inv F) as (t & (b & e & -> & G & V) & N). cbn [app hfind].
  rewrite (mbind_ok _ _ _ _ h h b) by auto. rewrite (mbind_ok _ _ _ _ _ _ _ (load_ok _ _ _ G)). rewrite V.
  rewrite (mbind_ok _ _ _ _ _ _ _ (hstring_text E f t h)).
  destruct (bseq s t) eqn:Q. apply bseq_eq in Q. congruence. apply IH, (Forall_inv_tail F).
Qed.
Lemma hNode_first : forall E f h a s m, first_kid h a s m -> hNode E f (Some a) s h = (h, Ok (Some m)).
Proof.
  intros E f h a s m (c & pre & post & G & O & (b & e & B & Ge & V) & F). inv B. unfold hNode.
  rewrite (mbind_ok _ _ _ _ _ _ _ (load_ok _ _ _ G)), O, hfind_skip by auto. cbn [hfind].
  rewrite (mbind_ok _ _ _ _ h h b) by auto. rewrite (mbind_ok _ _ _ _ _ _ _ (load_ok _ _ _ Ge)). rewrite V.
  rewrite (mbind_ok _ _ _ _ _ _ _ (hstring_text E f s h)). rewrite bseq_refl. auto.
Qed.
Lemma hNode_none : forall E f h a s, no_kid h a s -> hNode E f (Some a) s h = (h, Ok None).
Proof.
  intros E f h a s (c & G & F). unfold hNode. rewrite (mbind_ok _ _ _ _ _ _ _ (load_ok _ _ _ G)).
  rewrite <- (app_nil_r (c_out c)), hfind_skip by auto. auto.
Qed.
Lemma hset_leads : forall E f h a ss m, leads h a ss m -> forall els v,
  hset E f (map HName ss ++ els) a v h = hset E f els m v h.
Proof.
  intros E f h a ss m R. induction R as [a|a s b ss m K R IH]; intros els v; auto. cbn [map app hset].
  rewrite (mbind_ok _ _ _ _ _ _ _ (hNode_first E f h a s b K)). apply IH.
Qed.

(** ** A node that shows a finite graph is not below itself; so a change of its children changes what it
    shows there and only there *)
Fixpoint weight (g : graph) : nat :=
  match g with
  | Node v l => S (match v with VPtr (Some c) => weight c | _ => O end +
      (fix go (l : list (option graph)) : nat := match l with [] => O | Some c :: l' => weight c + go l' | None :: l' => go l' end) l)%nat
  end.
Definition weights (l : list (option graph)) : nat :=
  fold_right (fun c m => match c with Some c => weight c + m | None => m end)%nat O l.
Lemma weight_eq : forall v l, weight (Node v l) = S (match v with VPtr (Some c) => weight c | _ => O end + weights l)%nat.
Proof. reflexivity. Qed.
Lemma kids_weight : forall h l o, shows_kids h l o -> forall b, In (Some b) l -> exists g, shows h b g /\ (weight g <= weights o)%nat.
Proof.
  intros h l. induction l as [|x l IH]; intros o K b I; [destruct I|].
  destruct I as [->|I]; inversion K as [|l' o' K'|b' g' l' o' S K']; subst; cbn [weights fold_right]; fold (weights o').
  - exists g'. split; auto. lia.
  - apply IH; auto.
  - destruct (IH _ K' b I) as (g & S' & L). exists g. split; auto. lia.
Qed.
Lemma shows_edge_weight : forall h a g, shows h a g -> forall b, edge h a b -> exists g', shows h b g' /\ (weight g' < weight g)%nat.
Proof.
  intros h a g H b B. inversion H as [a' c v o G V K]; subst. apply edge_cell in B. destruct B as (c' & G' & B).
  assert (c' = c) by congruence. subst c'. rewrite weight_eq. destruct B as [I|V2].
  - destruct (kids_weight _ _ _ K b I) as (g' & S & L). exists g'. split; auto. lia.
  - rewrite V2 in V. inversion V as [x v' P|b' g' S]; subst. discriminate. exists g'. split; auto. lia.
Qed.
Lemma shows_reach_weight : forall h a x, reach h a x -> forall g, shows h a g -> exists g', shows h x g' /\ (weight g' <= weight g)%nat.
Proof.
  intros h a x R. induction R as [a|a b x B R IH]; intros g S; eauto.
  destruct (shows_edge_weight _ _ _ S _ B) as (g1 & S1 & L1). destruct (IH _ S1) as (g2 & S2 & L2). exists g2. split; auto. lia.
Qed.
Lemma shows_acyclic : forall h a g b, shows h a g -> edge h a b -> ~ reach h b a.
Proof.
  intros h a g b S B R. destruct (shows_edge_weight _ _ _ S _ B) as (g1 & S1 & L1).
  destruct (shows_reach_weight _ _ _ R _ S1) as (g2 & S2 & L2). assert (g2 = g) by (eapply shows_fun; eauto). subst. lia.
Qed.
(** The cell of [a] is replaced in a heap [h'] that has all cells of [h] unchanged *)
Lemma shows_put : forall h h' a v o l ol x, shows h a (Node v o) ->
  (forall y, y <> a -> (y < List.length h)%nat -> nth_error h' y = nth_error h y) ->
  nth_error h a = Some x -> nth_error h' a = Some {| c_this := c_this x; c_out := l |} ->
  shows_kids h' l ol -> shows h' a (Node v ol).
Proof.
  intros h h' a v o l ol x S Q G G' K. inversion S as [a' c v' o' Gc V _]; subst. assert (c = x) by congruence. subst c.
  apply shows_node with (c := {| c_this := c_this x; c_out := l |}); auto. cbn.
  apply (shows_value_same h); auto. intros b B y Y.
  assert (Ed : edge h a b) by (apply edge_cell; eauto).
  apply Q.
  - intros ->. eapply (shows_acyclic h a); eauto.
  - apply (shows_reach_lt _ _ _ S). eapply reach_step; eauto.
Qed.
Lemma shows_kids_put : forall h h' a v o x, shows h a (Node v o) ->
  (forall y, y <> a -> (y < List.length h)%nat -> nth_error h' y = nth_error h y) ->
  nth_error h a = Some x -> shows_kids h' (c_out x) o.
Proof.
  intros h h' a v o x S Q G. inversion S as [a' c v' o' Gc V K]; subst. assert (c = x) by congruence. subst c.
  apply (shows_kids_same h); auto. intros b B y Y.
  assert (Ed : edge h a b) by (apply edge_cell; eauto).
  apply Q.
  - intros ->. eapply (shows_acyclic h a); eauto.
  - apply (shows_reach_lt _ _ _ S). eapply reach_step; eauto.
Qed.
Lemma shows_kids_app : forall h l1 o1 l2 o2, shows_kids h l1 o1 -> shows_kids h l2 o2 -> shows_kids h (l1 ++ l2) (o1 ++ o2).
Proof. intros h l1 o1 l2 o2 K. induction K; intros K2; cbn; auto. apply sk_none; auto. apply sk_some; auto. Qed.
Lemma shows_kids_split : forall h n l o, shows_kids h l o ->
  shows_kids h (firstn n l) (firstn n o) /\ shows_kids h (skipn n l) (skipn n o).
Proof.
  intros h n. induction n as [|n IH]; intros l o K; cbn. split; auto. apply sk_nil.
  inversion K as [|l' o' K'|a g l' o' S K']; subst; try (split; apply sk_nil); destruct (IH _ _ K') as [K1 K2]; split; auto.
  apply sk_none; auto. apply sk_some; auto.
Qed.
Lemma shows_kids_length : forall h l o, shows_kids h l o -> List.length o = List.length l.
Proof. intros h l o K. induction K; cbn; auto. Qed.
