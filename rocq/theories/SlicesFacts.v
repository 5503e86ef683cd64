(** The slices of graph.go are lists: every node owns the array behind its Out. *)
From Verif Require Import Base Value Heap HeapFacts Slices.
From Coq Require Import Lia.

Record owned (s : mem) : Prop := {
  own_len : forall a n l, nth_error (nodes s) a = Some n -> n_out n = Some l -> (s_arr l < List.length (arrays s))%nat /\ (s_len l <= List.length (array s (s_arr l)))%nat;
  own_one : forall a b na nb la lb, a <> b -> nth_error (nodes s) a = Some na -> nth_error (nodes s) b = Some nb -> n_out na = Some la -> n_out nb = Some lb -> s_arr la <> s_arr lb }.
(** the same memory with lists *)
Definition plain_cell (s : mem) (n : snode) : cell := {| c_this := n_this n; c_out := view s (n_out n) |}.
Definition as_heap (s : mem) : heap := map (plain_cell s) (nodes s).
(** nobody who uses the array sees less of it *)
Definition floor (s : mem) (A L : nat) : Prop := forall a n l, nth_error (nodes s) a = Some n -> n_out n = Some l -> s_arr l = A -> (L <= s_len l)%nat.
Record grows (s s' : mem) : Prop := {
  gr_len : (List.length (arrays s) <= List.length (arrays s'))%nat;
  gr_floor : forall A L, (A < List.length (arrays s))%nat -> floor s A L -> floor s' A L;
  gr_same : forall A L, (A < List.length (arrays s))%nat -> floor s A L -> firstn L (array s' A) = firstn L (array s A) }.
Lemma grows_refl s : grows s s.
Proof. split; auto. Qed.
Lemma grows_trans s s1 s2 : grows s s1 -> grows s1 s2 -> grows s s2.
Proof.
  intros [L1 F1 S1] [L2 F2 S2]. split; [lia| |].
  - intros A L H F. apply F2; [lia|]. apply F1; auto.
  - intros A L H F. rewrite (S2 A L) by (try lia; apply F1; auto). apply S1; auto.
Qed.

(** ** Lists *)
Lemma replace_length {A} : forall (l : list A) i x, List.length (replace l i x) = List.length l.
Proof. induction l as [|y l IH]; intros [|i] x; cbn; auto. Qed.
Lemma replace_nth {A} : forall (l : list A) i x j, nth_error (replace l i x) j = if Nat.eqb j i then match nth_error l i with Some _ => Some x | None => None end else nth_error l j.
Proof. induction l as [|y l IH]; intros [|i] x [|j]; cbn; auto; try (destruct (Nat.eqb j i); reflexivity). Qed.
Lemma replace_none {A} : forall (l : list A) i x, (List.length l <= i)%nat -> replace l i x = l.
Proof. induction l as [|y l IH]; intros [|i] x H; cbn in *; auto; [lia|]. f_equal. apply IH. lia. Qed.
Lemma map_replace {A B} (f : A -> B) : forall l i x, map f (replace l i x) = replace (map f l) i (f x).
Proof. induction l as [|y l IH]; intros [|i] x; cbn; auto. f_equal. apply IH. Qed.
Lemma set_cell_replace : forall h a c, set_cell h a c = replace h a c.
Proof. induction h as [|d h IH]; intros [|a] c; cbn; auto. f_equal. apply IH. Qed.
Lemma nth_replace_same {A} (d : A) : forall l i x, (i < List.length l)%nat -> nth i (replace l i x) d = x.
Proof. induction l as [|y l IH]; intros [|i] x H; cbn in *; auto; try lia. apply IH. lia. Qed.
Lemma nth_replace_other {A} (d : A) : forall l i j x, i <> j -> nth j (replace l i x) d = nth j l d.
Proof. induction l as [|y l IH]; intros [|i] [|j] x H; cbn in *; auto; congruence. Qed.
Lemma map_same_but {A B} (f g : A -> B) : forall (l : list A) i x, nth_error l i = Some x -> (forall j y, j <> i -> nth_error l j = Some y -> f y = g y) -> map f l = replace (map g l) i (f x).
Proof.
  induction l as [|y l IH]; intros [|i] x H Hs; cbn in *; try discriminate.
  - injection H as ->. f_equal. apply map_ext_in. intros y Hy. apply In_nth_error in Hy. destruct Hy as [j Hj]. apply (Hs (S j)); auto.
  - f_equal; [apply (Hs O); auto|]. apply IH; auto. intros j z Hj Hz. apply (Hs (S j)); auto.
Qed.
Lemma replace_replace {A} : forall (l : list A) i x y, replace (replace l i x) i y = replace l i y.
Proof. induction l as [|z l IH]; intros [|i] x y; cbn; auto. f_equal. apply IH. Qed.
Lemma replace_same {A} : forall (l : list A) i x, nth_error l i = Some x -> replace l i x = l.
Proof. induction l as [|z l IH]; intros [|i] x H; cbn in *; try discriminate; [congruence|]. f_equal. auto. Qed.

(** ** Simulation *)
Definition sim (live : bool) {A} (m : SM A) (m' : M A) : Prop := forall s, owned s ->
  exists s' r, m s = (s', r) /\ m' (as_heap s) = (as_heap s', r) /\ owned s' /\ (live = true -> grows s s').
Lemma sim_ret b A (x : A) : sim b (sret x) (ret x).
Proof. intros s H. exists s, (Ok x). split; [reflexivity|]. split; [reflexivity|]. split; [exact H|]. intros _. apply grows_refl. Qed.
Lemma sim_panic b A : sim b (@spanic A) mpanic.
Proof. intros s H. exists s, Panic. split; [reflexivity|]. split; [reflexivity|]. split; [exact H|]. intros _. apply grows_refl. Qed.
Lemma sim_fuel b A : sim b (@sfuel A) mfuel.
Proof. intros s H. exists s, NoFuel. split; [reflexivity|]. split; [reflexivity|]. split; [exact H|]. intros _. apply grows_refl. Qed.
Lemma sim_lift b A (r : res A) : sim b (slift r) (lift r).
Proof. intros s H. exists s, r. split; [reflexivity|]. split; [reflexivity|]. split; [exact H|]. intros _. apply grows_refl. Qed.
Lemma sim_deref b g : sim b (sderef g) (deref g).
Proof. destruct g; [apply sim_ret|apply sim_panic]. Qed.
Lemma sim_bind b A B (m : SM A) m' (k : A -> SM B) k' : sim b m m' -> (forall a, sim b (k a) (k' a)) -> sim b (sbind m k) (mbind m' k').
Proof.
  intros Hm Hk s O. destruct (Hm s O) as (s1 & r & Q & Q' & O1 & G1). unfold sbind, mbind. rewrite Q, Q'. destruct r as [x| |].
  - destruct (Hk x s1 O1) as (s2 & r2 & Q2 & Q2' & O2 & G2). exists s2, r2. split; [exact Q2|]. split; [exact Q2'|]. split; [exact O2|]. intro H. eapply grows_trans; eauto.
  - exists s1, Panic. auto.
  - exists s1, NoFuel. auto.
Qed.
Lemma sim_weaken A (m : SM A) m' b : sim true m m' -> sim b m m'.
Proof. intros H s O. destruct (H s O) as (s' & r & Q & Q' & O' & G). exists s', r. auto. Qed.
Lemma heap_at s a : nth_error (as_heap s) a = match nth_error (nodes s) a with Some n => Some (plain_cell s n) | None => None end.
Proof. unfold as_heap. rewrite nth_error_map. destruct (nth_error (nodes s) a); reflexivity. Qed.
(** reading a node *)
Lemma sim_load b A a (k : snode -> SM A) k' : (forall n o, sim b (k n) (k' {| c_this := n_this n; c_out := o |})) -> sim b (sdo n <- sload a; k n) (do c <- load a; k' c).
Proof.
  intros H s O. unfold sbind, mbind, sload, load. rewrite heap_at. destruct (nth_error (nodes s) a) as [n|]; [|exists s, Panic; split; [reflexivity|]; split; [reflexivity|]; split; [exact O|intros _; apply grows_refl]].
  apply (H n _ s O).
Qed.
Lemma sim_load_view b A a (k : snode -> list (option addr) -> SM A) k' : (forall n o, (n_out n = None -> o = []) -> sim b (k n o) (k' {| c_this := n_this n; c_out := o |})) ->
  sim b (sdo n <- sload a; sdo o <- sview (n_out n); k n o) (do c <- load a; k' c).
Proof.
  intros H s O. unfold sbind, mbind, sload, load, sview. rewrite heap_at. destruct (nth_error (nodes s) a) as [n|]; [|exists s, Panic; split; [reflexivity|]; split; [reflexivity|]; split; [exact O|intros _; apply grows_refl]].
  refine (H n _ _ s O). intros ->. reflexivity.
Qed.
(** a new node *)
Lemma own_alloc s v : owned s -> owned {| nodes := nodes s ++ [{| n_this := v; n_out := None |}]; arrays := arrays s |}.
Proof.
  intros [OL OO]. assert (K : forall a n l, nth_error (nodes s ++ [{| n_this := v; n_out := None |}]) a = Some n -> n_out n = Some l -> nth_error (nodes s) a = Some n).
  { intros a n l H Hn. destruct (Nat.lt_ge_cases a (List.length (nodes s))) as [La|La]; [rewrite nth_error_app1 in H by exact La; exact H|]. rewrite nth_error_app2 in H by exact La.
    destruct (a - List.length (nodes s))%nat as [|[|?]]; cbn in H; try discriminate. injection H as <-. discriminate Hn. }
  split; cbn.
  - intros a n l H Hn. apply (OL a n l); eauto.
  - intros a b na nb la lb Hab Ha Hb Hna Hnb. eapply (OO a b na nb); eauto.
Qed.
Lemma grows_alloc s v : grows s {| nodes := nodes s ++ [{| n_this := v; n_out := None |}]; arrays := arrays s |}.
Proof.
  split; cbn; auto. intros A L HA F a n l H Hn HlA. cbn [nodes] in H. destruct (Nat.lt_ge_cases a (List.length (nodes s))) as [La|La]; [rewrite nth_error_app1 in H by exact La; eapply F; eauto|]. rewrite nth_error_app2 in H by exact La.
  destruct (a - List.length (nodes s))%nat as [|[|?]]; cbn in H; try discriminate. injection H as <-. discriminate Hn.
Qed.
Lemma sim_alloc b v : sim b (salloc {| n_this := v; n_out := None |}) (alloc {| c_this := v; c_out := [] |}).
Proof.
  intros s O. do 2 eexists. split; [reflexivity|]. split; [|split; [apply own_alloc, O|intros _; apply grows_alloc]].
  unfold alloc, as_heap. cbn. rewrite map_app, map_length. reflexivity.
Qed.
(** the content of a node *)
Lemma sim_store_this b A a v (k : snode -> SM A) k' : (forall n o, sim b (k n) (k' {| c_this := n_this n; c_out := o |})) ->
  sim b (sdo n <- sload a; sdo _ <- sstore a {| n_this := v; n_out := n_out n |}; k n) (do c <- load a; do _ <- store a {| c_this := v; c_out := c_out c |}; k' c).
Proof.
  intros H s O. unfold sbind, mbind, sload, load. rewrite heap_at. destruct (nth_error (nodes s) a) as [n|] eqn:G; [|exists s, Panic; split; [reflexivity|]; split; [reflexivity|]; split; [exact O|intros _; apply grows_refl]].
  unfold sstore, store. set (s1 := {| nodes := replace (nodes s) a {| n_this := v; n_out := n_out n |}; arrays := arrays s |}).
  assert (Hat : forall x m, nth_error (nodes s1) x = Some m -> exists m0, nth_error (nodes s) x = Some m0 /\ n_out m = n_out m0).
  { intros x m Hx. cbn in Hx. rewrite replace_nth in Hx. destruct (Nat.eqb_spec x a) as [->|_]; [rewrite G in Hx; injection Hx as <-; eauto|eauto]. }
  assert (O1 : owned s1).
  { destruct O as [OL OO]. split.
    - intros x m l Hx Hm. destruct (Hat x m Hx) as (m0 & H0 & E0). apply (OL x m0 l); congruence.
    - intros x y mx my lx ly Hxy Hx Hy Hmx Hmy. destruct (Hat x mx Hx) as (x0 & H0 & E0). destruct (Hat y my Hy) as (y0 & H1 & E1). apply (OO x y x0 y0); congruence. }
  assert (G1 : grows s s1).
  { split; [cbn; lia| |intros; reflexivity]. intros A0 L HA F x m l Hx Hm Hl. destruct (Hat x m Hx) as (m0 & H0 & E0). apply (F x m0 l); congruence. }
  assert (Q : set_cell (as_heap s) a {| c_this := v; c_out := c_out (plain_cell s n) |} = as_heap s1) by (rewrite set_cell_replace; unfold as_heap; cbn; rewrite map_replace; reflexivity).
  rewrite Q. destruct (H n (view s (n_out n)) s1 O1) as (s2 & r & Q2 & Q2' & O2 & G2). exists s2, r. split; [exact Q2|]. split; [exact Q2'|]. split; [exact O2|]. intro Hb. eapply grows_trans; eauto.
Qed.

(** ** Changing the slice of a node *)
Lemma upd_slice s a n A len arrs : owned s -> nth_error (nodes s) a = Some n ->
  (List.length (arrays s) <= List.length arrs)%nat -> (A < List.length arrs)%nat -> (len <= List.length (nth A arrs []))%nat ->
  (forall B, (B < List.length (arrays s))%nat -> B <> A -> nth B arrs [] = array s B) ->
  ((List.length (arrays s) <= A)%nat \/ exists l, n_out n = Some l /\ s_arr l = A) ->
  let s' := {| nodes := replace (nodes s) a {| n_this := n_this n; n_out := Some {| s_arr := A; s_len := len |} |}; arrays := arrs |} in
  owned s' /\ as_heap s' = set_cell (as_heap s) a {| c_this := n_this n; c_out := firstn len (nth A arrs []) |} /\
  (((List.length (arrays s) <= A)%nat \/ exists l, n_out n = Some l /\ s_arr l = A /\ (s_len l <= len)%nat /\ firstn (s_len l) (nth A arrs []) = firstn (s_len l) (array s A)) -> grows s s').
Proof.
  intros [OL OO] G HL HA Hlen Hoth Hold s'.
  assert (Hat : forall x m, nth_error (nodes s') x = Some m -> (x = a /\ m = {| n_this := n_this n; n_out := Some {| s_arr := A; s_len := len |} |}) \/ (x <> a /\ nth_error (nodes s) x = Some m)).
  { intros x m Hx. cbn in Hx. rewrite replace_nth in Hx. destruct (Nat.eqb_spec x a) as [->|Hn]; [rewrite G in Hx; injection Hx as <-; auto|auto]. }
  assert (Hno : forall x m l, x <> a -> nth_error (nodes s) x = Some m -> n_out m = Some l -> s_arr l <> A).
  { intros x m l Hn Hx Hm. destruct Hold as [Hf|(l0 & H0 & <-)]; [pose proof (proj1 (OL x m l Hx Hm)); lia|eapply OO; eauto]. }
  split; [|split].
  - split.
    + intros x m l Hx Hm. destruct (Hat x m Hx) as [[-> ->]|[Hn H0]].
      * cbn in Hm. injection Hm as <-. cbn. auto.
      * destruct (OL x m l H0 Hm) as [K1 K2]. split; [cbn; lia|]. unfold array. cbn [arrays s']. rewrite Hoth; auto. eapply Hno; eauto.
    + intros x y mx my lx ly Hxy Hx Hy Hmx Hmy. destruct (Hat x mx Hx) as [[-> ->]|[Hn H0]]; destruct (Hat y my Hy) as [[-> ->]|[Hn' H0']]; try congruence.
      * cbn in Hmx. injection Hmx as <-. cbn. intro K. symmetry in K. revert K. eapply Hno; eauto.
      * cbn in Hmy. injection Hmy as <-. cbn. eapply Hno; eauto.
      * eapply OO with (a := x) (b := y); eauto.
  - rewrite set_cell_replace. unfold as_heap. cbn [nodes s']. rewrite map_replace. set (c := {| c_this := n_this n; c_out := _ |}).
    change (plain_cell s' {| n_this := n_this n; n_out := Some {| s_arr := A; s_len := len |} |}) with c.
    rewrite (map_same_but (plain_cell s') (plain_cell s) (nodes s) a n G).
    + apply replace_replace.
    + intros j y Hj Hy. unfold plain_cell. f_equal. unfold view. destruct (n_out y) as [l|] eqn:Hl; [|reflexivity]. f_equal. unfold array at 1. cbn [arrays s']. apply Hoth; [apply (OL j y l Hy Hl)|eapply Hno; eauto].
  - intros Hg. split; [exact HL| |].
    + intros B L HB F x m l Hx Hm Hl. destruct (Hat x m Hx) as [[-> ->]|[Hn H0]]; [|eapply F; eauto].
      cbn in Hm. injection Hm as <-. cbn in *. destruct Hg as [Hf|(l0 & H0 & H1 & H2 & _)]; [lia|]. pose proof (F a n l0 G H0 ltac:(congruence)). lia.
    + intros B L HB F. unfold array at 1. cbn [arrays s']. destruct (Nat.eq_dec B A) as [->|HBA]; [|rewrite Hoth; auto].
      destruct Hg as [Hf|(l0 & H0 & H1 & H2 & H3)]; [lia|]. pose proof (F a n l0 G H0 H1) as K.
      assert (Q : forall l : list (option addr), firstn L l = firstn L (firstn (s_len l0) l)) by (intro l; rewrite firstn_firstn; f_equal; lia).
      rewrite Q, H3, <- Q. reflexivity.
Qed.
Lemma upd_none s a n : owned s -> nth_error (nodes s) a = Some n ->
  let s' := {| nodes := replace (nodes s) a {| n_this := n_this n; n_out := None |}; arrays := arrays s |} in
  owned s' /\ as_heap s' = set_cell (as_heap s) a {| c_this := n_this n; c_out := [] |} /\ grows s s'.
Proof.
  intros [OL OO] G s'.
  assert (Hat : forall x m l, nth_error (nodes s') x = Some m -> n_out m = Some l -> nth_error (nodes s) x = Some m).
  { intros x m l Hx Hm. cbn in Hx. rewrite replace_nth in Hx. destruct (Nat.eqb_spec x a) as [->|Hn]; [rewrite G in Hx; injection Hx as <-; discriminate|auto]. }
  split; [|split].
  - split.
    + intros x m l Hx Hm. apply (OL x m l); eauto.
    + intros x y mx my lx ly Hxy Hx Hy Hmx Hmy. eapply (OO x y); eauto.
  - rewrite set_cell_replace. unfold as_heap. cbn [nodes s']. rewrite map_replace. reflexivity.
  - split; [cbn; lia| |intros; reflexivity]. intros B L HB F x m l Hx Hm Hl. exact (F x m l (Hat x m l Hx Hm) Hm Hl).
Qed.
Lemma sim_clear b a : sim b (sset_out a None) (set_out a []).
Proof.
  intros s O. unfold sset_out, set_out, sbind, mbind, sload, load. rewrite heap_at. destruct (nth_error (nodes s) a) as [n|] eqn:G; [|exists s, Panic; auto using grows_refl].
  destruct (upd_none s a n O G) as (O' & Q & Gr). unfold sstore, store. do 2 eexists. split; [reflexivity|]. split; [rewrite Q; reflexivity|auto].
Qed.
Section Sim.
Variable E : env.
Variable spare : nat -> nat.
Lemma firstn_len_app {A} (l r : list A) k : k = List.length l -> firstn k (l ++ r) = l.
Proof. intros ->. rewrite firstn_app, Nat.sub_diag, firstn_all, app_nil_r. reflexivity. Qed.
Lemma sset_out_at s a n o : nth_error (nodes s) a = Some n -> sset_out a o s = ({| nodes := replace (nodes s) a {| n_this := n_this n; n_out := o |}; arrays := arrays s |}, Ok tt).
Proof. intro G. unfold sset_out, sbind, sload. rewrite G. reflexivity. Qed.
Lemma set_out_at s a n o : nth_error (nodes s) a = Some n -> set_out a o (as_heap s) = (set_cell (as_heap s) a {| c_this := n_this n; c_out := o |}, Ok tt).
Proof. intro G. unfold set_out, mbind, load. rewrite heap_at, G. reflexivity. Qed.
(** a new array for the node *)
Lemma fresh_slice s a n l len : owned s -> nth_error (nodes s) a = Some n -> (len <= List.length l)%nat ->
  let s' := {| nodes := replace (nodes s) a {| n_this := n_this n; n_out := Some {| s_arr := List.length (arrays s); s_len := len |} |}; arrays := arrays s ++ [l] |} in
  (sdo A <- smake l; sset_out a (Some {| s_arr := A; s_len := len |})) s = (s', Ok tt) /\
  as_heap s' = set_cell (as_heap s) a {| c_this := n_this n; c_out := firstn len l |} /\ owned s' /\ grows s s'.
Proof.
  intros O G Hl s'. split; [unfold sbind at 1, smake; erewrite sset_out_at by (cbn [nodes]; exact G); reflexivity|].
  destruct (upd_slice s a n (List.length (arrays s)) len (arrays s ++ [l]) O G) as (O' & Q & Gr).
  - rewrite app_length. cbn. lia.
  - rewrite app_length. cbn. lia.
  - rewrite app_nth2, Nat.sub_diag by lia. exact Hl.
  - intros B HB _. rewrite app_nth1 by exact HB. reflexivity.
  - left. lia.
  - rewrite app_nth2, Nat.sub_diag in Q by lia. split; [exact Q|]. split; [exact O'|]. apply Gr. left. lia.
Qed.
(** the array of the node changed *)
Lemma same_slice s a n l arr len : owned s -> nth_error (nodes s) a = Some n -> n_out n = Some l -> (len <= List.length arr)%nat ->
  let s' := {| nodes := replace (nodes s) a {| n_this := n_this n; n_out := Some {| s_arr := s_arr l; s_len := len |} |}; arrays := replace (arrays s) (s_arr l) arr |} in
  (sdo _ <- swrite (s_arr l) arr; sset_out a (Some {| s_arr := s_arr l; s_len := len |})) s = (s', Ok tt) /\
  as_heap s' = set_cell (as_heap s) a {| c_this := n_this n; c_out := firstn len arr |} /\ owned s' /\
  ((s_len l <= len)%nat -> firstn (s_len l) arr = view s (n_out n) -> grows s s').
Proof.
  intros O G Hl Hlen s'. split; [unfold sbind at 1, swrite; erewrite sset_out_at by (cbn [nodes]; exact G); reflexivity|].
  destruct (own_len s O a n l G Hl) as [K1 K2].
  destruct (upd_slice s a n (s_arr l) len (replace (arrays s) (s_arr l) arr) O G) as (O' & Q & Gr).
  - rewrite replace_length. lia.
  - rewrite replace_length. exact K1.
  - rewrite nth_replace_same by exact K1. exact Hlen.
  - intros B HB HBA. apply nth_replace_other. congruence.
  - right. eauto.
  - rewrite nth_replace_same in Q by exact K1. split; [exact Q|]. split; [exact O'|]. intros H1 H2. apply Gr. right. exists l. rewrite nth_replace_same by exact K1. rewrite Hl in H2. auto.
Qed.
Lemma view_length s a n l : owned s -> nth_error (nodes s) a = Some n -> n_out n = Some l -> List.length (firstn (s_len l) (array s (s_arr l))) = s_len l.
Proof. intros O G Hl. rewrite firstn_length. pose proof (proj2 (own_len s O a n l G Hl)). lia. Qed.
Lemma sim_append b a xs : sim b (sappend spare a xs) (do c <- load a; set_out a (c_out c ++ xs)).
Proof.
  intros s O. unfold sappend. unfold sbind at 1, mbind at 1, sload at 1, load at 1. rewrite heap_at. destruct (nth_error (nodes s) a) as [n|] eqn:G; [|exists s, Panic; auto using grows_refl].
  rewrite (set_out_at s a n _ G). cbn [plain_cell c_out].
  destruct (n_out n) as [l|] eqn:Hl.
  - pose proof (view_length s a n l O G Hl) as HV.
    assert (K : exists s' r, (let arr := array s (s_arr l) in
            if (s_len l + List.length xs <=? List.length arr)%nat
            then (sdo _ <- swrite (s_arr l) (firstn (s_len l) arr ++ xs ++ skipn (s_len l + List.length xs) arr); sset_out a (Some {| s_arr := s_arr l; s_len := s_len l + List.length xs |})) s
            else (sdo A <- smake (firstn (s_len l) arr ++ xs ++ repeat None (spare (s_len l + List.length xs))); sset_out a (Some {| s_arr := A; s_len := s_len l + List.length xs |})) s) = (s', r) /\
       (set_cell (as_heap s) a {| c_this := n_this n; c_out := view s (Some l) ++ xs |}, Ok tt) = (as_heap s', r) /\ owned s' /\ (b = true -> grows s s')).
    { cbn zeta. cbn [view]. destruct (Nat.leb_spec (s_len l + List.length xs) (List.length (array s (s_arr l)))) as [Hle|Hgt].
      - destruct (same_slice s a n l (firstn (s_len l) (array s (s_arr l)) ++ xs ++ skipn (s_len l + List.length xs) (array s (s_arr l))) (s_len l + List.length xs) O G Hl) as (Q & Q' & O' & Gr); [rewrite !app_length; lia|].
        do 2 eexists. split; [exact Q|]. split; [rewrite Q', app_assoc, firstn_len_app by (rewrite app_length; lia); reflexivity|]. split; [exact O'|]. intros _. apply Gr; [lia|]. rewrite Hl, firstn_len_app by lia. reflexivity.
      - destruct (fresh_slice s a n (firstn (s_len l) (array s (s_arr l)) ++ xs ++ repeat None (spare (s_len l + List.length xs))) (s_len l + List.length xs) O G) as (Q & Q' & O' & Gr); [rewrite !app_length; lia|].
        do 2 eexists. split; [exact Q|]. split; [rewrite Q', app_assoc, firstn_len_app by (rewrite app_length; lia); reflexivity|]. auto. }
    destruct xs; exact K.
  - destruct xs as [|x xs'] eqn:Ex; rewrite <- Ex in *.
    + rewrite Ex. exists s, (Ok tt). split; [reflexivity|]. split; [|split; [exact O|intros _; apply grows_refl]].
      cbn. rewrite set_cell_replace, replace_same; [reflexivity|]. rewrite heap_at, G. unfold plain_cell. rewrite Hl. reflexivity.
    + destruct (fresh_slice s a n (xs ++ repeat None (spare (0 + List.length xs))) (0 + List.length xs) O G) as (Q & Q' & O' & Gr); [rewrite !app_length; lia|].
      do 2 eexists. split; [rewrite Ex in *; exact Q|]. split; [rewrite Q', firstn_len_app by reflexivity; reflexivity|]. auto.
Qed.
Lemma sim_append_bind b A a xs (k : SM A) k' : sim b k k' -> sim b (sdo _ <- sappend spare a xs; k) (do c <- load a; do _ <- set_out a (c_out c ++ xs); k').
Proof.
  intros H s O. destruct (sim_bind b _ _ _ _ _ _ (sim_append b a xs) (fun _ => H) s O) as (s' & r & Q & Q' & Rest).
  exists s', r. split; [exact Q|]. split; [|exact Rest]. rewrite <- Q'. unfold mbind, load. destruct (nth_error (as_heap s) a); reflexivity.
Qed.
(** the loops *)
Lemma sim_range body body' : (forall n, sim true (body n) (body' n)) -> forall s0 l,
  floor s0 (s_arr l) (s_len l) -> (s_arr l < List.length (arrays s0))%nat -> (s_len l <= List.length (array s0 (s_arr l)))%nat ->
  forall k j, (j + k = s_len l)%nat -> forall s, owned s -> grows s0 s ->
  exists s' r, srange_from (s_arr l) j k body s = (s', r) /\ each body' (skipn j (view s0 (Some l))) (as_heap s) = (as_heap s', r) /\ owned s' /\ grows s s'.
Proof.
  intros Hb s0 l F HA Hlen. cbn [view]. induction k as [|k IH]; intros j Hj s O G.
  - exists s, (Ok tt). rewrite skipn_all2 by (rewrite firstn_length; lia). auto using grows_refl.
  - assert (Hsk : skipn j (firstn (s_len l) (array s0 (s_arr l))) = nth j (array s (s_arr l)) None :: skipn (S j) (firstn (s_len l) (array s0 (s_arr l)))).
    { rewrite <- (gr_same s0 s G _ _ HA F).
      assert (L1 : (j < List.length (firstn (s_len l) (array s (s_arr l))))%nat) by (rewrite (gr_same s0 s G _ _ HA F), firstn_length; lia).
      set (w := array s (s_arr l)) in *. assert (Hn : nth j w None = nth j (firstn (s_len l) w) None).
      { rewrite <- (firstn_skipn (s_len l) w) at 1. rewrite app_nth1 by exact L1. reflexivity. }
      rewrite Hn. clear - L1. revert L1. generalize (firstn (s_len l) w) as v. clear. induction j as [|j IH]; intros [|x v] H; cbn in *; try lia; [reflexivity|]. apply IH. lia. }
    rewrite Hsk. cbn [srange_from each]. unfold sbind, mbind. destruct (Hb (nth j (array s (s_arr l)) None) s O) as (s1 & r1 & Q1 & Q1' & O1 & G1). rewrite Q1, Q1'. specialize (G1 eq_refl).
    destruct r1 as [[]| |]; [|do 2 eexists; split; [reflexivity|]; auto|do 2 eexists; split; [reflexivity|]; auto].
    destruct (IH (S j) ltac:(lia) s1 O1 (grows_trans _ _ _ G G1)) as (s2 & r2 & Q2 & Q2' & O2 & G2). exists s2, r2. split; [exact Q2|]. split; [exact Q2'|]. split; [exact O2|]. eapply grows_trans; eauto.
Qed.
(** a loop over the children of a node loaded in [s0] *)
Lemma sim_range_of body body' : (forall n, sim true (body n) (body' n)) -> forall s0 a n, owned s0 -> nth_error (nodes s0) a = Some n -> forall s, owned s -> grows s0 s ->
  exists s' r, srange (n_out n) body s = (s', r) /\ each body' (view s0 (n_out n)) (as_heap s) = (as_heap s', r) /\ owned s' /\ grows s s'.
Proof.
  intros Hb s0 a n O0 G0 s O G. destruct (n_out n) as [l|] eqn:Hl; [|exists s, (Ok tt); auto using grows_refl].
  destruct (own_len s0 O0 a n l G0 Hl) as [K1 K2].
  apply (sim_range body body' Hb s0 l) with (k := s_len l) (j := 0%nat); auto.
  intros x m lx Hx Hm Hxa. destruct (Nat.eq_dec x a) as [->|Hne]; [rewrite G0 in Hx; injection Hx as <-; rewrite Hl in Hm; injection Hm as <-; lia|]. exfalso. eapply (own_one s0 O0 x a); eauto.
Qed.
Lemma sim_load_range a body body' : (forall n, sim true (body n) (body' n)) -> sim true (sdo d <- sload a; srange (n_out d) body) (do d <- load a; each body' (c_out d)).
Proof.
  intros Hb s O. unfold sbind, mbind, sload, load. rewrite heap_at. destruct (nth_error (nodes s) a) as [n|] eqn:G; [|exists s, Panic; auto using grows_refl].
  destruct (sim_range_of body body' Hb s a n O G s O (grows_refl s)) as (s' & r & Q & Q' & O' & G'). exists s', r. auto.
Qed.

(** ** The functions of graph.go *)
Lemma sim_string b : forall f v, sim b (sstring_ E f v) (hstring E f v).
Proof.
  induction f as [|f IH]; intros v; destruct v as [|?|?|?|? ?|?|?|[a|]|?|?|?]; cbn [sstring_ hstring]; try apply sim_ret; try apply sim_fuel.
  apply sim_load_view with (k' := fun c => match c_out c with [] => ret [] | None :: _ => mpanic | Some b :: _ => do d <- load b; hstring E f (c_this d) end). intros n o _. cbn [c_out].
  destruct o as [|[x|] o]; [apply sim_ret| |apply sim_panic]. apply sim_load with (k' := fun d => hstring E f (c_this d)). intros. apply IH.
Qed.
Lemma sim_String b f g : sim b (sString E f g) (hString E f g).
Proof. destruct g; [apply sim_string|apply sim_ret]. Qed.
Lemma sim_New b v : sim b (sNew v) (hNew v).
Proof. apply sim_bind; [apply sim_alloc|]. intro. apply sim_ret. Qed.
Lemma sim_Add b g v : sim b (sAdd spare g v) (hAdd g v).
Proof.
  assert (K : forall a, sim b (sdo n <- salloc {| n_this := v; n_out := None |}; sdo _ <- sappend spare a [Some n]; sret (Some n))
    (do n <- alloc {| c_this := v; c_out := [] |}; do c <- load a; do _ <- set_out a (c_out c ++ [Some n]); ret (Some n))).
  { intro a. apply sim_bind; [apply sim_alloc|]. intro n. apply sim_append_bind, sim_ret. }
  destruct g as [a|]; [|apply sim_ret]. destruct v as [|?|?|?|? ?|?|?|[n|]|?|?|?]; cbn [sAdd hAdd]; try apply K; try apply sim_ret. apply sim_append_bind, sim_ret.
Qed.
Lemma sim_load_both b A a c (k : list (option addr) -> SM A) k' : (forall o, sim b (k o) (do x <- load a; k' (c_out x) o)) ->
  sim b (sdo _ <- sload a; sdo d <- sload c; sdo o <- sview (n_out d); k o) (do x <- load a; do d <- load c; k' (c_out x) (c_out d)).
Proof.
  intros H s O. unfold sbind, mbind, sload, load, sview. rewrite heap_at. destruct (nth_error (nodes s) a) as [n|] eqn:G; [|exists s, Panic; auto using grows_refl].
  rewrite heap_at. destruct (nth_error (nodes s) c) as [d|]; [|exists s, Panic; auto using grows_refl].
  destruct (H (view s (n_out d)) s O) as (s' & r & Q & Q' & Rest). exists s', r. split; [exact Q|]. split; [|exact Rest]. rewrite <- Q'. unfold mbind, load. rewrite heap_at, G. reflexivity.
Qed.
Lemma sim_AddNodes b g g2 : sim b (sAddNodes spare g g2) (hAddNodes g g2).
Proof.
  destruct g as [a|]; [|apply sim_ret]. destruct g2 as [c|]; [|apply sim_ret]. cbn [sAddNodes hAddNodes].
  apply sim_load_both with (k' := fun x d => do _ <- set_out a (x ++ d); ret (Some a)). intro o. apply sim_append_bind, sim_ret.
Qed.
Lemma sim_addNodes b g v : sim b (saddNodes spare g v) (haddNodes g v).
Proof.
  assert (K : forall a, sim b (sdo n <- salloc {| n_this := v; n_out := None |}; sdo _ <- sappend spare a [Some n]; sret (Some n))
    (do n <- alloc {| c_this := v; c_out := [] |}; do c <- load a; do _ <- set_out a (c_out c ++ [Some n]); ret (Some n))).
  { intro a. apply sim_bind; [apply sim_alloc|]. intro n. apply sim_append_bind, sim_ret. }
  destruct g as [a|]; [|apply sim_ret]. destruct v as [|?|?|?|? ?|?|?|[n|]|?|?|?]; cbn [saddNodes haddNodes]; try apply K; try apply sim_ret.
  apply sim_load_both with (k' := fun x d => do _ <- set_out a (x ++ d); ret (Some n)). intro o. apply sim_append_bind, sim_ret.
Qed.
Lemma sim_Copy : forall f g c, sim true (sCopy spare f g c) (hCopy f g c).
Proof.
  induction f as [|f IH]; intros [a|] [c|]; cbn [sCopy hCopy]; try apply sim_ret; try apply sim_fuel.
  apply sim_load_range. intro n. apply sim_bind; [apply sim_deref|]. intro x.
  apply sim_load with (k' := fun e => do nn <- hAdd (Some a) (c_this e); hCopy f nn (Some x)). intros e o. cbn [c_this]. apply sim_bind; [apply sim_Add|]. intro nn. apply IH.
Qed.
Lemma sim_Clone : forall f g, sim true (sClone spare f g) (hClone f g).
Proof.
  induction f as [|f IH]; intros [a|]; cbn [sClone hClone]; try apply sim_ret; try apply sim_fuel.
  intros s O. unfold sbind at 1, mbind at 1, sload at 1, load at 1. rewrite heap_at. destruct (nth_error (nodes s) a) as [d|] eqn:G; [|exists s, Panic; auto using grows_refl].
  cbn [plain_cell c_this c_out].
  destruct (sim_alloc true (n_this d) s O) as (s1 & r1 & Q1 & Q1' & O1 & G1). specialize (G1 eq_refl). unfold sbind at 1, mbind at 1. rewrite Q1, Q1'.
  destruct r1 as [c| |]; [|exists s1, Panic; auto|exists s1, NoFuel; auto].
  destruct (sim_range_of (fun n => sdo m <- sClone spare f n; sappend spare c [m]) (fun n => do m <- hClone f n; do x <- load c; set_out c (c_out x ++ [m]))) with (s0 := s) (a := a) (n := d) (s := s1) as (s2 & r2 & Q2 & Q2' & O2 & G2); auto.
  { intro n. apply sim_bind; [apply IH|]. intro m. apply sim_append. }
  unfold sbind, mbind in *. rewrite Q2, Q2'. destruct r2 as [[]| |]; do 2 eexists; (split; [reflexivity|]; split; [reflexivity|]; split; [exact O2|intros _; eapply grows_trans; eauto]).
Qed.
Lemma sim_find b f s : forall o, sim b (sfind E f s o) (hfind E f s o).
Proof.
  induction o as [|n o IH]; cbn [sfind hfind]; [apply sim_ret|]. apply sim_bind; [apply sim_deref|]. intro x.
  apply sim_load with (k' := fun e => do t <- hstring E f (c_this e); if bseq s t then ret (Some x) else hfind E f s o). intros e w. cbn [c_this]. apply sim_bind; [apply sim_string|]. intro t. destruct (bseq s t); [apply sim_ret|apply IH].
Qed.
Lemma sim_Node b f g s : sim b (sNode E f g s) (hNode E f g s).
Proof. destruct g as [a|]; [|apply sim_ret]. apply sim_load_view with (k' := fun c => hfind E f s (c_out c)). intros. apply sim_find. Qed.
Lemma sim_NodeOrNew b f g s : sim b (sNodeOrNew E spare f g s) (hNodeOrNew E f g s).
Proof. destruct g as [a|]; [|apply sim_ret]. apply sim_bind; [apply sim_Node|]. intros [n|]; [apply sim_ret|apply sim_Add]. Qed.
Lemma sim_Clear b g : sim b (sClear g) (hClear g).
Proof. destruct g; [apply sim_clear|apply sim_ret]. Qed.
Lemma sim_NodeSet b f g s v : sim b (sNodeSet E spare f g s v) (hNodeSet E f g s v).
Proof. apply sim_bind; [apply sim_NodeOrNew|]. intro n. apply sim_bind; [apply sim_Clear|]. intro. apply sim_Add. Qed.
Lemma sim_Create b f g s : sim b (sCreate E spare f g s) (hCreate E f g s).
Proof. apply sim_bind; [apply sim_Node|]. intros [n|]; [|apply sim_Add]. apply sim_bind; [apply sim_Clear|]. intro. apply sim_ret. Qed.
Lemma sim_GetAt b g i : sim b (sGetAt g i) (hGetAt g i).
Proof.
  apply sim_bind; [apply sim_deref|]. intro a.
  apply sim_load_view with (k' := fun c => ret (if (Z.of_nat (List.length (c_out c)) <=? i) || (i <? 0) then None else nth (Z.to_nat i) (c_out c) None)). intros. apply sim_ret.
Qed.
(** removal within the array *)
Lemma remove_at s a n i : owned s -> nth_error (nodes s) a = Some n -> (i < List.length (view s (n_out n)))%nat ->
  exists s', sremove a i s = (s', Ok tt) /\ as_heap s' = set_cell (as_heap s) a {| c_this := n_this n; c_out := firstn i (view s (n_out n)) ++ skipn (S i) (view s (n_out n)) |} /\ owned s'.
Proof.
  intros O G Hi. unfold sremove. unfold sbind at 1, sload at 1. rewrite G. destruct (n_out n) as [l|] eqn:Hl; [|cbn in Hi; lia].
  pose proof (view_length s a n l O G Hl) as HV. destruct (own_len s O a n l G Hl) as [K1 K2]. cbn [view] in *. set (arr := array s (s_arr l)) in *.
  assert (Hfi : firstn i (firstn (s_len l) arr) = firstn i arr) by (rewrite firstn_firstn; f_equal; lia).
  destruct (Nat.ltb_spec i (s_len l - 1)) as [Hlt|Hge].
  - destruct (same_slice s a n l (firstn i arr ++ skipn (S i) (firstn (s_len l) arr) ++ skipn (s_len l - 1) arr) (s_len l - 1) O G Hl) as (Q & Q' & O' & _).
    + rewrite !app_length, firstn_length, !skipn_length, HV. lia.
    + eexists. split; [exact Q|]. split; [|exact O']. rewrite Q', app_assoc, firstn_len_app; [rewrite Hfi; reflexivity|]. rewrite app_length, firstn_length, skipn_length, HV. lia.
  - destruct (same_slice s a n l arr i O G Hl) as (Q & Q' & O' & _); [lia|].
    eexists. split; [rewrite <- Q; unfold sbind, swrite; f_equal; destruct s as [ns ars]; cbn in *; f_equal|].
    + rewrite replace_same; [reflexivity|]. subst arr. apply nth_error_nth'. exact K1.
    + split; [|exact O']. rewrite Q'. rewrite Hfi, skipn_all2 by lia. rewrite app_nil_r. reflexivity.
Qed.
Lemma sim_del a n : forall rest done k s d, owned s -> nth_error (nodes s) a = Some d -> view s (n_out d) = done ++ rest -> (List.length rest < k)%nat ->
  exists s' r, sdel k a n (List.length done) s = (s', r) /\ hdel a n done rest (as_heap s) = (as_heap s', r) /\ owned s'.
Proof.
  induction rest as [|c rest IH]; intros done k s d O G Hv Hk; (destruct k as [|k]; [lia|]); cbn [sdel hdel List.length] in *.
  all: unfold sbind at 1, sload at 1; rewrite G; unfold sbind at 1, sview at 1; rewrite Hv.
  - rewrite app_nil_r, Nat.ltb_irrefl. exists s, (Ok tt). auto.
  - replace (List.length done <? List.length (done ++ c :: rest))%nat with true by (symmetry; apply Nat.ltb_lt; rewrite app_length; cbn; lia).
    rewrite app_nth2, Nat.sub_diag by lia. cbn [nth]. destruct c as [x|]; [|exists s, Panic; auto].
    unfold sderef, deref. unfold sbind at 1, sret at 1, mbind at 1, ret at 1. unfold sbind at 1, mbind at 1, sload at 1, load at 1. rewrite heap_at.
    destruct (nth_error (nodes s) x) as [e|] eqn:Ge; [|exists s, Panic; auto]. cbn [plain_cell c_this]. unfold sbind at 1, mbind at 1, slift, lift.
    destruct (heq (n_this e) n) as [[|]| |]; [| |exists s, Panic; auto|exists s, NoFuel; auto].
    + destruct (remove_at s a d (List.length done) O G) as (s1 & Q1 & Q1' & O1); [rewrite Hv, app_length; cbn; lia|].
      rewrite Hv in Q1'. rewrite firstn_len_app in Q1' by reflexivity.
      replace (skipn (S (List.length done)) (done ++ Some x :: rest)) with rest in Q1' by (rewrite skipn_app, skipn_all2 by lia; replace (S (List.length done) - List.length done)%nat with 1%nat by lia; reflexivity).
      unfold sbind at 1, mbind at 1. rewrite Q1, (set_out_at s a d _ G), <- Q1'.
      assert (K : exists d1, nth_error (nodes s1) a = Some d1 /\ view s1 (n_out d1) = done ++ rest).
      { assert (K : nth_error (as_heap s1) a = Some {| c_this := n_this d; c_out := done ++ rest |}) by (rewrite Q1', set_cell_replace, replace_nth, Nat.eqb_refl, heap_at, G; reflexivity).
        rewrite heap_at in K. destruct (nth_error (nodes s1) a) as [d1|]; [|discriminate]. exists d1. split; [reflexivity|]. injection K as _ K. exact K. }
      destruct K as (d1 & Gd & Hd). apply (IH done k s1 d1); auto. lia.
    + destruct (IH (done ++ [Some x]) k s d O G) as (s' & r & Q & Rest); [rewrite <- app_assoc; exact Hv|lia|]. rewrite app_length in Q. cbn in Q. rewrite Nat.add_1_r in Q. eauto.
Qed.
Lemma sim_Delete g n : sim false (sDelete g n) (hDelete g n).
Proof.
  destruct g as [a|]; [|apply sim_ret]. intros s O. cbn [sDelete hDelete]. unfold sbind, mbind, sload, load, sview. rewrite heap_at. destruct (nth_error (nodes s) a) as [d|] eqn:G; [|exists s, Panic; auto using grows_refl].
  destruct (sim_del a n (view s (n_out d)) [] (S (List.length (view s (n_out d)))) s d O G eq_refl) as (s' & r & Q & Q' & O'); [lia|]. exists s', r. split; [exact Q|]. split; [exact Q'|]. split; [exact O'|discriminate].
Qed.
Lemma sim_DeleteAt g i : sim false (sDeleteAt g i) (hDeleteAt g i).
Proof.
  destruct g as [a|]; [|apply sim_ret]. intros s O. cbn [sDeleteAt hDeleteAt]. unfold sbind, mbind, sload, load, sview. rewrite heap_at. destruct (nth_error (nodes s) a) as [d|] eqn:G; [|exists s, Panic; auto using grows_refl].
  cbn [plain_cell c_out]. destruct (i <? 0) eqn:Hi; [exists s, (Ok tt); auto using grows_refl|]. destruct (Z.of_nat (List.length (view s (n_out d))) <=? i) eqn:Hn; [exists s, (Ok tt); auto using grows_refl|]. cbn [orb].
  destruct (remove_at s a d (Z.to_nat i) O G) as (s1 & Q1 & Q1' & O1); [lia|]. exists s1, (Ok tt). rewrite (set_out_at s a d _ G), Q1'. split; [exact Q1|]. split; [reflexivity|]. split; [exact O1|discriminate].
Qed.
(** assignment to an element *)
Lemma firstn_replace {A} (x : A) : forall l k i, firstn k (replace l i x) = replace (firstn k l) i x.
Proof. induction l as [|y l IH]; intros [|k] [|i]; cbn; auto. f_equal. apply IH. Qed.
Lemma put_at_replace n : forall i o, put_at o i n = replace (o ++ repeat None (S i - List.length o)) i n.
Proof. induction i as [|i IH]; intros [|c o]; cbn [put_at]; auto; cbn [List.length Nat.sub app repeat replace]; rewrite ?IH; cbn [List.length app]; rewrite ?Nat.sub_0_r, ?app_nil_r; try reflexivity; destruct o; reflexivity. Qed.
Lemma write_at s a n l i x : owned s -> nth_error (nodes s) a = Some n -> n_out n = Some l ->
  exists s', swrite (s_arr l) (replace (array s (s_arr l)) i x) s = (s', Ok tt) /\ as_heap s' = set_cell (as_heap s) a {| c_this := n_this n; c_out := replace (view s (n_out n)) i x |} /\ owned s'.
Proof.
  intros O G Hl. destruct (own_len s O a n l G Hl) as [K1 K2].
  destruct (same_slice s a n l (replace (array s (s_arr l)) i x) (s_len l) O G Hl) as (Q & Q' & O' & _); [rewrite replace_length; exact K2|].
  eexists. split; [|split; [rewrite Q', firstn_replace, Hl; reflexivity|exact O']].
  rewrite <- Q. unfold sbind, swrite. erewrite sset_out_at by (cbn [nodes]; exact G). cbn [nodes arrays]. f_equal. f_equal. symmetry. apply replace_same. rewrite G. destruct n as [t o]. cbn in *. rewrite Hl. destruct l. reflexivity.
Qed.
Lemma sim_set_index a i v : sim false (sset_index a i v) (hset_index a i v).
Proof.
  unfold sset_index, hset_index. destruct (Z.ltb_spec i 0) as [Hi|Hi]; [apply sim_panic|]. apply sim_bind; [apply sim_alloc|]. intro x.
  intros s O. unfold sbind at 1, mbind at 1, sload at 1, load at 1. rewrite heap_at. destruct (nth_error (nodes s) a) as [d|] eqn:G; [|exists s, Panic; auto using grows_refl].
  cbn [plain_cell c_out]. unfold sbind at 1, sview at 1. unfold mbind. rewrite (set_out_at s a d _ G), put_at_replace. set (o := view s (n_out d)).
  destruct (Z.leb_spec (Z.of_nat (List.length o)) i) as [Hle|Hgt].
  - destruct (fresh_slice s a d (o ++ repeat None (S (Z.to_nat i) - List.length o)) (S (Z.to_nat i)) O G) as (_ & Q' & O' & _); [rewrite app_length, repeat_length; lia|].
    set (s1 := {| nodes := _; arrays := _ |}) in *. rewrite firstn_all2 in Q' by (rewrite app_length, repeat_length; lia).
    set (l := {| s_arr := List.length (arrays s); s_len := S (Z.to_nat i) |}) in *.
    assert (G1 : nth_error (nodes s1) a = Some {| n_this := n_this d; n_out := Some l |}) by (cbn; rewrite replace_nth, Nat.eqb_refl, G; reflexivity).
    destruct (write_at s1 a _ l (Z.to_nat i) (Some x) O' G1 eq_refl) as (s2 & Q2 & Q2' & O2).
    assert (HV : view s1 (Some l) = o ++ repeat None (S (Z.to_nat i) - List.length o)).
    { assert (K : nth_error (as_heap s1) a = Some {| c_this := n_this d; c_out := o ++ repeat None (S (Z.to_nat i) - List.length o) |}) by (rewrite Q', set_cell_replace, replace_nth, Nat.eqb_refl, heap_at, G; reflexivity).
      rewrite heap_at, G1 in K. injection K as K. exact K. }
    cbn [n_out n_this] in Q2'. rewrite HV, Q', !set_cell_replace, replace_replace in Q2'.
    exists s2, (Ok (Some x)). split; [|split; [rewrite set_cell_replace, Q2'; reflexivity|split; [exact O2|discriminate]]].
    unfold sbind at 1 2, smake. unfold sbind at 1. erewrite sset_out_at by (cbn [nodes]; exact G). unfold sret at 1. cbn [nodes arrays]. change {| s_arr := List.length (arrays s); s_len := S (Z.to_nat i) |} with l. change {| nodes := replace (nodes s) a {| n_this := n_this d; n_out := Some l |}; arrays := arrays s ++ [o ++ repeat None (S (Z.to_nat i) - List.length o)] |} with s1.
    unfold sbind. rewrite Q2. reflexivity.
  - destruct (n_out d) as [l|] eqn:Hl; [|cbn in o; subst o; cbn in Hgt; lia].
    destruct (write_at s a d l (Z.to_nat i) (Some x) O G Hl) as (s2 & Q2 & Q2' & O2).
    exists s2, (Ok (Some x)). replace (S (Z.to_nat i) - List.length o)%nat with 0%nat by lia. cbn [repeat]. rewrite app_nil_r.
    split; [|split; [rewrite Q2', Hl; reflexivity|split; [exact O2|discriminate]]]. unfold sbind, sret. rewrite Q2. reflexivity.
Qed.
Lemma sim_set_here b a v : sim b (sset_here spare a v) (hset_here a v).
Proof. apply sim_bind; [apply sim_clear|]. intro. apply sim_addNodes. Qed.
Lemma sim_set_new v : forall els a, sim false (sset_new spare els a v) (hset_new els a v).
Proof.
  induction els as [|[s|i] els IH]; intro a; cbn [sset_new hset_new]; [apply sim_set_here| |apply sim_set_index].
  apply sim_bind; [apply sim_Add|]. intro n. apply sim_bind; [apply sim_deref|]. intro m. apply IH.
Qed.
Lemma sim_set f v : forall els a, sim false (sset E spare f els a v) (hset E f els a v).
Proof.
  induction els as [|[s|i] els IH]; intro a; cbn [sset hset]; [apply sim_set_here| |apply sim_set_index].
  apply sim_bind; [apply sim_Node|]. intros [n|]; [apply IH|apply sim_set_new].
Qed.
Lemma sim_Set f g els v : sim false (sSet E spare f g els v) (hSet E f g els v).
Proof. destruct g; [apply sim_set|apply sim_ret]. Qed.
Lemma sim_gets b f : forall els g, sim b (sgets E spare f els g) (hgets E f els g).
Proof.
  induction els as [|[s|i] els IH]; intros [a|]; cbn [sgets hgets]; try apply sim_ret.
  - apply sim_bind; [apply sim_Node|]. intro n. apply IH.
  - destruct (i <? 0); [apply sim_ret|]. apply sim_bind; [apply sim_New|]. intro r. apply sim_bind; [apply sim_GetAt|]. intro c. apply sim_bind; [apply sim_Add|]. intro. apply IH.
Qed.
Lemma sim_get b f els g : sim b (sget E spare f els g) (hget E f els g).
Proof. destruct els; [apply sim_ret|apply sim_gets]. Qed.
(** rendering writes nothing *)
Lemma string_reads : forall f v s, exists r, sstring_ E f v s = (s, r).
Proof.
  induction f as [|f IH]; intros v s; destruct v as [|?|?|?|? ?|?|?|[a|]|?|?|?]; cbn [sstring_]; try (eexists; reflexivity).
  unfold sbind, sload, sview. destruct (nth_error (nodes s) a) as [n|]; [|eexists; reflexivity]. destruct (view s (n_out n)) as [|[c|] o]; try (eexists; reflexivity).
  destruct (nth_error (nodes s) c) as [d|]; [apply IH|eexists; reflexivity].
Qed.
Lemma sim_sub_store b A a (f : nat) v (p : bytes -> bool) (k : SM A) k' : sim b k k' ->
  sim b (sdo e <- sload a; sdo t <- sstring_ E f (n_this e); sdo _ <- (if p t then sstore a {| n_this := v; n_out := n_out e |} else sret tt); k)
    (do e <- load a; do t <- hstring E f (c_this e); do _ <- (if p t then store a {| c_this := v; c_out := c_out e |} else ret tt); k').
Proof.
  intros H s O. unfold sbind at 1, mbind at 1, sload at 1, load at 1. rewrite heap_at. destruct (nth_error (nodes s) a) as [n|] eqn:G; [|exists s, Panic; auto using grows_refl].
  cbn [plain_cell c_this c_out]. destruct (sim_string b f (n_this n) s O) as (s1 & r1 & Q1 & Q1' & _ & _). destruct (string_reads f (n_this n) s) as (r2 & Q2). rewrite Q2 in Q1. injection Q1 as <- <-.
  unfold sbind at 1, mbind at 1. rewrite Q2, Q1'. destruct r2 as [t| |]; [|exists s, Panic; auto using grows_refl|exists s, NoFuel; auto using grows_refl].
  destruct (p t).
  - destruct (sim_store_this b A a v (fun _ => k) (fun _ => k') (fun _ _ => H) s O) as (s2 & r & Q & Q' & Rest). exists s2, r.
    unfold sbind at 1, sload at 1 in Q. unfold mbind at 1, load at 1 in Q'. rewrite heap_at in Q'. rewrite G in Q, Q'. split; [exact Q|]. split; [exact Q'|exact Rest].
  - apply (H s O).
Qed.
Lemma sim_Substitute : forall f g s v, sim true (sSubstitute E f g s v) (hSubstitute E f g s v).
Proof.
  induction f as [|f IH]; intros [a|] s v; cbn [sSubstitute hSubstitute]; try apply sim_ret; try apply sim_fuel.
  apply sim_load_range. intro n. apply sim_bind; [apply sim_deref|]. intro x. apply (sim_sub_store true unit x (S f) v (fun t => bseq t s)). apply IH.
Qed.
Lemma sim_Merge : forall f g src, sim true (sMerge E spare f g src) (hMerge E f g src).
Proof.
  induction f as [|f IH]; intros g src; cbn [sMerge hMerge]; [apply sim_fuel|].
  apply sim_load_range. intro n. apply sim_bind; [apply sim_String|]. intro s. apply sim_bind; [apply sim_Node|]. intros [m|].
  - apply sim_bind; [apply sim_clear|]. intro. apply sim_bind; [apply sim_deref|]. intro. apply IH.
  - apply sim_bind; [apply sim_Add|]. intro. apply sim_ret.
Qed.
Lemma sim_unit b (m : SM unit) m' : sim b m m' -> sim b (sunit m) (unit_ m').
Proof. intro H. apply sim_bind; [exact H|]. intro. apply sim_ret. Qed.
Lemma sim_set_fresh a l : sim false (sdo A <- smake l; sdo _ <- sset_out a (Some {| s_arr := A; s_len := List.length l |}); sret (@None addr)) (do _ <- set_out a l; ret None).
Proof.
  intros s O. destruct (nth_error (nodes s) a) as [d|] eqn:G.
  - destruct (fresh_slice s a d l (List.length l) O G) as (Q & Q' & O' & _); [lia|]. rewrite firstn_all in Q'.
    unfold sbind at 1, smake in Q. unfold sbind at 1, smake. unfold sbind, mbind. rewrite Q, (set_out_at s a d _ G), <- Q'. do 2 eexists. split; [reflexivity|]. split; [reflexivity|]. split; [exact O'|discriminate].
  - exists {| nodes := nodes s; arrays := arrays s ++ [l] |}, Panic. unfold sbind, smake, mbind, set_out, sset_out, sbind, mbind, sload, load. cbn [nodes]. rewrite heap_at, G.
    assert (HV : forall x n l0, nth_error (nodes s) x = Some n -> n_out n = Some l0 -> array {| nodes := nodes s; arrays := arrays s ++ [l] |} (s_arr l0) = array s (s_arr l0)).
    { intros x n l0 Hx Hn. unfold array. cbn. apply app_nth1. eapply (own_len s O); eauto. }
    split; [reflexivity|]. split; [|split; [|discriminate]].
    + f_equal. unfold as_heap. cbn [nodes]. apply map_ext_in. intros n Hn. apply In_nth_error in Hn. destruct Hn as [x Hx]. unfold plain_cell, view. f_equal. destruct (n_out n) as [l0|] eqn:Hl; [|reflexivity]. rewrite (HV x n l0 Hx Hl). reflexivity.
    + split.
      * intros x n l0 Hx Hn. rewrite (HV x n l0 Hx Hn). destruct (own_len s O x n l0 Hx Hn). split; [cbn; rewrite app_length; lia|assumption].
      * intros x y. apply (own_one s O).
Qed.
Lemma sim_run_op f e o : sim false (srun_op E spare f e o) (run_op E f e o).
Proof.
  destruct o; cbn [srun_op run_op].
  - apply sim_New.
  - apply sim_Add.
  - apply sim_AddNodes.
  - apply sim_unit, sim_weaken, sim_Copy.
  - apply sim_weaken, sim_Clone.
  - apply sim_Node.
  - apply sim_NodeOrNew.
  - apply sim_NodeSet.
  - apply sim_Create.
  - apply sim_GetAt.
  - apply sim_unit, sim_Delete.
  - apply sim_unit, sim_Clear.
  - apply sim_unit, sim_DeleteAt.
  - apply sim_Set.
  - apply sim_get.
  - apply sim_unit, sim_weaken, sim_Substitute.
  - apply sim_bind; [apply sim_deref|]. intro b. apply sim_unit, sim_weaken, sim_Merge.
  - apply sim_bind; [apply sim_deref|]. intro a. apply sim_load with (k' := fun c => match c_this c with VPtr p => ret p | _ => mpanic end). intros n w. cbn [c_this]. destruct (n_this n); try apply sim_panic. apply sim_ret.
  - apply sim_bind; [apply sim_deref|]. intro a. apply sim_store_this with (k := fun _ => sret None) (k' := fun _ => ret None). intros. apply sim_ret.
  - apply sim_bind; [apply sim_deref|]. intro a. rewrite <- (map_length (var e) l). apply sim_set_fresh.
Qed.
Lemma sim_run f : forall ops s e, owned s -> exists s' e', srun E spare f ops s e = (s', e') /\ run E f ops (as_heap s) e = (as_heap s', e') /\ owned s'.
Proof.
  induction ops as [|o ops IH]; intros s e O; cbn [srun run]; [eauto|].
  destruct (sim_run_op f e o s O) as (s1 & r & Q & Q' & O1 & _). rewrite Q, Q'. apply IH, O1.
Qed.
Lemma srun_app f : forall xs ys s e, srun E spare f (xs ++ ys) s e = let (s1, e1) := srun E spare f xs s e in srun E spare f ys s1 e1.
Proof. induction xs as [|x xs IH]; intros ys s e; cbn [app srun]; [reflexivity|]. destruct (srun_op E spare f e x s) as [s1 r]. apply IH. Qed.
End Sim.

(** ** Slices that are empty but not nil come from removals only *)
Definition tight (s : mem) : Prop := forall a n l, nth_error (nodes s) a = Some n -> n_out n = Some l -> (0 < s_len l)%nat.
Definition keeps {A} (m : SM A) : Prop := forall s, tight s -> tight (fst (m s)).
Lemma keeps_reads A (m : SM A) : (forall s, fst (m s) = s) -> keeps m.
Proof. intros H s T. rewrite H. exact T. Qed.
Lemma keeps_bind A B (m : SM A) (k : A -> SM B) : keeps m -> (forall a, keeps (k a)) -> keeps (sbind m k).
Proof. intros Hm Hk s T. specialize (Hm s T). unfold sbind. destruct (m s) as [s1 [x| |]]; cbn in *; auto. apply Hk, Hm. Qed.
Lemma keeps_ret A (x : A) : keeps (sret x).
Proof. apply keeps_reads. reflexivity. Qed.
Lemma keeps_load A a (k : snode -> SM A) : (forall n, (forall l, n_out n = Some l -> (0 < s_len l)%nat) -> keeps (k n)) -> keeps (sdo n <- sload a; k n).
Proof. intros H s T. unfold sbind, sload. destruct (nth_error (nodes s) a) as [n|] eqn:G; [|exact T]. apply H; [|exact T]. intros l Hl. eapply T; eauto. Qed.
Lemma keeps_store a n : (forall l, n_out n = Some l -> (0 < s_len l)%nat) -> keeps (sstore a n).
Proof. intros H s T x m l Hx Hm. cbn in Hx. rewrite replace_nth in Hx. destruct (Nat.eqb x a); [|eapply T; eauto]. destruct (nth_error (nodes s) a); [|discriminate]. injection Hx as <-. auto. Qed.
Lemma keeps_set_out a o : (forall l, o = Some l -> (0 < s_len l)%nat) -> keeps (sset_out a o).
Proof. intros H. apply keeps_load. intros n _. apply keeps_store. exact H. Qed.
Lemma keeps_alloc v : keeps (salloc {| n_this := v; n_out := None |}).
Proof.
  intros s T a n l H Hn. cbn [salloc fst nodes] in H. destruct (Nat.lt_ge_cases a (List.length (nodes s))) as [La|La]; [rewrite nth_error_app1 in H by exact La; eapply T; eauto|]. rewrite nth_error_app2 in H by exact La.
  destruct (a - List.length (nodes s))%nat as [|[|?]]; cbn in H; try discriminate. injection H as <-. discriminate Hn.
Qed.
Lemma keeps_make l : keeps (smake l).
Proof. intros s T. exact T. Qed.
Lemma keeps_write A l : keeps (swrite A l).
Proof. intros s T. exact T. Qed.
Lemma keeps_view A o (k : list (option addr) -> SM A) : (forall o, keeps (k o)) -> keeps (sdo w <- sview o; k w).
Proof. intros H s T. apply H, T. Qed.
Lemma keeps_deref g : keeps (sderef g).
Proof. destruct g; apply keeps_reads; reflexivity. Qed.
Lemma keeps_panic A : keeps (@spanic A).
Proof. apply keeps_reads. reflexivity. Qed.
Lemma keeps_fuel A : keeps (@sfuel A).
Proof. apply keeps_reads. reflexivity. Qed.
Section Keeps.
Variable E : env.
Variable spare : nat -> nat.
Lemma keeps_append a xs : keeps (sappend spare a xs).
Proof.
  apply keeps_load. intros n Hn. destruct (n_out n) as [l|] eqn:Hl.
  - specialize (Hn l eq_refl). assert (K : forall xs : list (option addr), keeps (fun s => if (s_len l + List.length xs <=? List.length (array s (s_arr l)))%nat
      then (sdo _ <- swrite (s_arr l) (firstn (s_len l) (array s (s_arr l)) ++ xs ++ skipn (s_len l + List.length xs) (array s (s_arr l))); sset_out a (Some {| s_arr := s_arr l; s_len := s_len l + List.length xs |})) s
      else (sdo A <- smake (firstn (s_len l) (array s (s_arr l)) ++ xs ++ repeat None (spare (s_len l + List.length xs))); sset_out a (Some {| s_arr := A; s_len := s_len l + List.length xs |})) s)).
    { intros ys s T. destruct (_ <=? _)%nat.
      - refine (keeps_bind _ _ _ _ (keeps_write _ _) _ s T). intro. apply keeps_set_out. intros l0 H. injection H as <-. cbn. lia.
      - refine (keeps_bind _ _ _ _ (keeps_make _) _ s T). intro. apply keeps_set_out. intros l0 H. injection H as <-. cbn. lia. }
    destruct xs; apply K.
  - destruct xs as [|x xs]; [apply keeps_ret|]. intros s T. refine (keeps_bind _ _ _ _ (keeps_make _) _ s T). intro. apply keeps_set_out. intros l0 H. injection H as <-. cbn. lia.
Qed.
Lemma keeps_range o body : (forall n, keeps (body n)) -> keeps (srange o body).
Proof.
  intro H. destruct o as [l|]; [|apply keeps_ret]. cbn [srange]. generalize 0%nat. induction (s_len l) as [|k IH]; intro j; cbn [srange_from]; [apply keeps_ret|].
  intros s T. refine (keeps_bind _ _ _ _ (H _) _ s T). intro. apply IH.
Qed.
Lemma keeps_string f v : keeps (sstring_ E f v).
Proof. apply keeps_reads. intro s. destruct (string_reads E f v s) as [r H]. rewrite H. reflexivity. Qed.
Lemma keeps_New v : keeps (sNew v).
Proof. apply keeps_bind; [apply keeps_alloc|]. intro. apply keeps_ret. Qed.
Lemma keeps_Add g v : keeps (sAdd spare g v).
Proof.
  assert (K : forall a, keeps (sdo n <- salloc {| n_this := v; n_out := None |}; sdo _ <- sappend spare a [Some n]; sret (Some n))).
  { intro a. apply keeps_bind; [apply keeps_alloc|]. intro n. apply keeps_bind; [apply keeps_append|]. intro. apply keeps_ret. }
  destruct g as [a|]; [|apply keeps_ret]. destruct v as [|?|?|?|? ?|?|?|[n|]|?|?|?]; cbn [sAdd]; try apply K; try apply keeps_ret. apply keeps_bind; [apply keeps_append|]. intro. apply keeps_ret.
Qed.
Lemma keeps_AddNodes g g2 : keeps (sAddNodes spare g g2).
Proof.
  destruct g as [a|]; [|apply keeps_ret]. destruct g2 as [c|]; [|apply keeps_ret]. apply keeps_load. intros _ _. apply keeps_load. intros d _. apply keeps_view. intro o.
  apply keeps_bind; [apply keeps_append|]. intro. apply keeps_ret.
Qed.
Lemma keeps_addNodes g v : keeps (saddNodes spare g v).
Proof.
  assert (K : forall a, keeps (sdo n <- salloc {| n_this := v; n_out := None |}; sdo _ <- sappend spare a [Some n]; sret (Some n))).
  { intro a. apply keeps_bind; [apply keeps_alloc|]. intro n. apply keeps_bind; [apply keeps_append|]. intro. apply keeps_ret. }
  destruct g as [a|]; [|apply keeps_ret]. destruct v as [|?|?|?|? ?|?|?|[n|]|?|?|?]; cbn [saddNodes]; try apply K; try apply keeps_ret.
  apply keeps_load. intros _ _. apply keeps_load. intros d _. apply keeps_view. intro o. apply keeps_bind; [apply keeps_append|]. intro. apply keeps_ret.
Qed.
Lemma keeps_Copy : forall f g c, keeps (sCopy spare f g c).
Proof.
  induction f as [|f IH]; intros [a|] [c|]; cbn [sCopy]; try apply keeps_ret; try apply keeps_fuel.
  apply keeps_load. intros d _. apply keeps_range. intro n. apply keeps_bind; [apply keeps_deref|]. intro x. apply keeps_load. intros e _. apply keeps_bind; [apply keeps_Add|]. intro. apply IH.
Qed.
Lemma keeps_Clone : forall f g, keeps (sClone spare f g).
Proof.
  induction f as [|f IH]; intros [a|]; cbn [sClone]; try apply keeps_ret; try apply keeps_fuel.
  apply keeps_load. intros d _. apply keeps_bind; [apply keeps_alloc|]. intro c. apply keeps_bind; [|intro; apply keeps_ret]. apply keeps_range. intro n. apply keeps_bind; [apply IH|]. intro. apply keeps_append.
Qed.
Lemma keeps_find f s : forall o, keeps (sfind E f s o).
Proof.
  induction o as [|n o IH]; cbn [sfind]; [apply keeps_ret|]. apply keeps_bind; [apply keeps_deref|]. intro x. apply keeps_load. intros e _. apply keeps_bind; [apply keeps_string|]. intro t. destruct (bseq s t); [apply keeps_ret|apply IH].
Qed.
Lemma keeps_Node f g s : keeps (sNode E f g s).
Proof. destruct g; [|apply keeps_ret]. apply keeps_load. intros n _. apply keeps_view. intro. apply keeps_find. Qed.
Lemma keeps_NodeOrNew f g s : keeps (sNodeOrNew E spare f g s).
Proof. destruct g; [|apply keeps_ret]. apply keeps_bind; [apply keeps_Node|]. intros [n|]; [apply keeps_ret|apply keeps_Add]. Qed.
Lemma keeps_none a : keeps (sset_out a None).
Proof. apply keeps_set_out. discriminate. Qed.
Lemma keeps_Clear g : keeps (sClear g).
Proof. destruct g; [apply keeps_none|apply keeps_ret]. Qed.
Lemma keeps_GetAt g i : keeps (sGetAt g i).
Proof. apply keeps_bind; [apply keeps_deref|]. intro a. apply keeps_load. intros n _. apply keeps_view. intro. apply keeps_ret. Qed.
Lemma keeps_set_index a i v : keeps (sset_index a i v).
Proof.
  unfold sset_index. destruct (i <? 0); [apply keeps_panic|]. apply keeps_bind; [apply keeps_alloc|]. intro x. apply keeps_load. intros c _. apply keeps_view. intro o.
  apply keeps_bind; [|intro l; apply keeps_bind; [intros s T; exact T|intro; apply keeps_ret]].
  destruct (_ <=? i).
  - apply keeps_bind; [apply keeps_make|]. intro A. apply keeps_bind; [|intro; apply keeps_ret]. apply keeps_set_out. intros l H. injection H as <-. cbn. lia.
  - destruct (n_out c); [apply keeps_ret|apply keeps_panic].
Qed.
Lemma keeps_set_here a v : keeps (sset_here spare a v).
Proof. apply keeps_bind; [apply keeps_none|]. intro. apply keeps_addNodes. Qed.
Lemma keeps_set_new v : forall els a, keeps (sset_new spare els a v).
Proof. induction els as [|[s|i] els IH]; intro a; cbn [sset_new]; [apply keeps_set_here| |apply keeps_set_index]. apply keeps_bind; [apply keeps_Add|]. intro n. apply keeps_bind; [apply keeps_deref|]. intro. apply IH. Qed.
Lemma keeps_set f v : forall els a, keeps (sset E spare f els a v).
Proof. induction els as [|[s|i] els IH]; intro a; cbn [sset]; [apply keeps_set_here| |apply keeps_set_index]. apply keeps_bind; [apply keeps_Node|]. intros [n|]; [apply IH|apply keeps_set_new]. Qed.
Lemma keeps_gets f : forall els g, keeps (sgets E spare f els g).
Proof.
  induction els as [|[s|i] els IH]; intros [a|]; cbn [sgets]; try apply keeps_ret.
  - apply keeps_bind; [apply keeps_Node|]. intro. apply IH.
  - destruct (i <? 0); [apply keeps_ret|]. apply keeps_bind; [apply keeps_New|]. intro r. apply keeps_bind; [apply keeps_GetAt|]. intro c. apply keeps_bind; [apply keeps_Add|]. intro. apply IH.
Qed.
Lemma keeps_Substitute : forall f g s v, keeps (sSubstitute E f g s v).
Proof.
  induction f as [|f IH]; intros [a|] s v; cbn [sSubstitute]; try apply keeps_ret; try apply keeps_fuel.
  apply keeps_load. intros d _. apply keeps_range. intro n. apply keeps_bind; [apply keeps_deref|]. intro x. apply keeps_load. intros e He. apply keeps_bind; [apply keeps_string|]. intro t. apply keeps_bind; [|intro; apply IH].
  destruct (bseq t s); [apply keeps_store; exact He|apply keeps_ret].
Qed.
Lemma keeps_Merge : forall f g src, keeps (sMerge E spare f g src).
Proof.
  induction f as [|f IH]; intros g src; cbn [sMerge]; [apply keeps_fuel|].
  apply keeps_load. intros d _. apply keeps_range. intro n. apply keeps_bind; [destruct n; [apply keeps_string|apply keeps_ret]|]. intro s. apply keeps_bind; [apply keeps_Node|]. intros [m|].
  - apply keeps_bind; [apply keeps_none|]. intro. apply keeps_bind; [apply keeps_deref|]. intro. apply IH.
  - apply keeps_bind; [apply keeps_Add|]. intro. apply keeps_ret.
Qed.
Lemma keeps_unit m : keeps m -> keeps (sunit m).
Proof. intro H. apply keeps_bind; [exact H|]. intro. apply keeps_ret. Qed.
Lemma keeps_op f e o : (forall g v, o <> ODelete g v) -> (forall g i, o <> ODeleteAt g i) -> (forall g, o <> OSetOut g []) -> keeps (srun_op E spare f e o).
Proof.
  intros N1 N2 N3. destruct o as [v|g v|g g2|g c|g|g s|g s|g s v|g s|g i|g v|g|g i|g els v|g els|g s v|g src|g|g v|g l]; cbn [srun_op].
  - apply keeps_New.
  - apply keeps_Add.
  - apply keeps_AddNodes.
  - apply keeps_unit, keeps_Copy.
  - apply keeps_Clone.
  - apply keeps_Node.
  - apply keeps_NodeOrNew.
  - apply keeps_bind; [apply keeps_NodeOrNew|]. intro n. apply keeps_bind; [apply keeps_Clear|]. intro. apply keeps_Add.
  - apply keeps_bind; [apply keeps_Node|]. intros [n|]; [|apply keeps_Add]. apply keeps_bind; [apply keeps_Clear|]. intro. apply keeps_ret.
  - apply keeps_GetAt.
  - edestruct N1; reflexivity.
  - apply keeps_unit, keeps_Clear.
  - edestruct N2; reflexivity.
  - destruct (var e g); [apply keeps_set|apply keeps_ret].
  - destruct els; [apply keeps_ret|apply keeps_gets].
  - apply keeps_unit, keeps_Substitute.
  - apply keeps_bind; [apply keeps_deref|]. intro b. apply keeps_unit, keeps_Merge.
  - apply keeps_bind; [apply keeps_deref|]. intro b. apply keeps_load. intros n _. destruct (n_this n); try apply keeps_panic. apply keeps_ret.
  - apply keeps_bind; [apply keeps_deref|]. intro b. apply keeps_load. intros n Hn. apply keeps_bind; [apply keeps_store; exact Hn|]. intro. apply keeps_ret.
  - apply keeps_bind; [apply keeps_deref|]. intro b. apply keeps_bind; [apply keeps_make|]. intro A. apply keeps_bind; [|intro; apply keeps_ret]. apply keeps_set_out. intros l0 H. injection H as <-. cbn. destruct l; [edestruct N3; reflexivity|cbn; lia].
Qed.
Lemma keeps_run f : forall ops s e, Forall (fun o => (forall g v, o <> ODelete g v) /\ (forall g i, o <> ODeleteAt g i) /\ (forall g, o <> OSetOut g [])) ops -> tight s -> tight (fst (srun E spare f ops s e)).
Proof.
  induction ops as [|o ops IH]; intros s e H T; cbn [srun]; [exact T|]. inversion H as [|? ? (N1 & N2 & N3) Hr]; subst.
  pose proof (keeps_op f e o N1 N2 N3 s T) as K. destruct (srun_op E spare f e o s) as [s1 r]. apply IH; auto.
Qed.
End Keeps.
