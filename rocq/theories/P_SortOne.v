(** C96: the result of sorting by distinct keys. *)
From Verif Require Import Base Value Graph GraphSpec GraphFacts PathParser PathSpec PathFacts Eval AccessSpec AccessFacts P_Access Sort SortSpec SortFacts Samples P_Sort.
From Coq Require Import Sorting.Permutation.

(** The keys by which Sort and SortAsInt compare *)
Definition sort_key (E : env) (C : calls) (f : nat) (field : bytes) (c : option graph) (k : bytes) : Prop := exists n, Get E C f c field = Ok (c, n) /\ String_ E n = Ok k.
Definition sort_int (E : env) (C : calls) (f : nat) (field : bytes) (c : option graph) (k : Z) : Prop := exists n, Get E C f c field = Ok (c, n) /\ Int64 E n None = Ok k.
(** Every element has a key, and only equal elements have the same one. *)
Definition distinct {A K} (key : A -> K -> Prop) (l : list A) : Prop :=
  (forall a, In a l -> exists k, key a k) /\ (forall a b k, In a l -> In b l -> key a k -> key b k -> a = b).

Lemma lex_antisym a : forall b, lex_le a b -> lex_le b a -> a = b.
Proof.
  induction a as [|x a IH]; intros b H1 H2; inversion H1; subst; inversion H2; subst; try reflexivity; try lia. f_equal. auto.
Qed.
Lemma ascending_one {A K} (le : K -> K -> Prop) (key : A -> K -> Prop) : (forall x y, le x y -> le y x -> x = y) ->
  forall l1 l2, Permutation l1 l2 -> distinct key l1 -> ascending le key l1 -> ascending le key l2 -> l1 = l2.
Proof.
  intros Hle. induction l1 as [|a r1 IH]; intros l2 Hp (Hk & Hd) H1 H2; [apply Permutation_nil in Hp; congruence|].
  destruct l2 as [|b r2]; [apply Permutation_sym, Permutation_nil in Hp; discriminate|].
  assert (Hb : In b (a :: r1)) by (apply (Permutation_in _ (Permutation_sym Hp)); left; reflexivity).
  assert (Ha : In a (b :: r2)) by (apply (Permutation_in _ Hp); left; reflexivity).
  assert (a = b).
  { destruct (Hk a (or_introl eq_refl)) as (x & Hx). destruct (Hk b Hb) as (y & Hy). destruct Hb as [Hb|Hb]; [exact Hb|]. destruct Ha as [Ha|Ha]; [congruence|].
    apply In_nth_error in Ha as (i & Hi). apply In_nth_error in Hb as (j & Hj).
    assert (le x y) by (apply (H1 O (S j) a b); auto; lia). assert (le y x) by (apply (H2 O (S i) b a); auto; lia). assert (x = y) by auto. subst y.
    apply (Hd a b x); auto; [left; reflexivity|right; eapply nth_error_In; exact Hj]. }
  subst b. f_equal. apply IH.
  - eapply Permutation_cons_inv. exact Hp.
  - split; [intros c Hc; apply Hk; right; exact Hc|]. intros c d k Hc Hd'. apply Hd; right; assumption.
  - intros i j c d x y Hij Hc Hd'. apply (H1 (S i) (S j) c d); auto; lia.
  - intros i j c d x y Hij Hc Hd'. apply (H2 (S i) (S j) c d); auto; lia.
Qed.

(** ** C96 If no two children have the same key, the result of Sort and SortAsInt depends neither on
    the order of the children before nor on the method by which sort.Sort sorts. *)
Lemma distinct_perm {A K} (key : A -> K -> Prop) l l' : Permutation l l' -> distinct key l -> distinct key l'.
Proof.
  intros Hp (H1 & H2). apply Permutation_sym in Hp. split; [intros a Ha; apply H1; eapply Permutation_in; eassumption|]. intros a b k Ha Hb. apply H2; eapply Permutation_in; eassumption.
Qed.
Theorem C96_sort : forall s1 s2, sorts s1 -> sorts s2 -> forall E C f field t o1 o2, distinct (sort_key E C f field) o1 -> Permutation o1 o2 ->
  Sort E C s1 f (Some (Node t o1)) field = Sort E C s2 f (Some (Node t o2)) field /\ exists o', Sort E C s1 f (Some (Node t o1)) field = Ok (Some (Node t o')).
Proof.
  intros s1 s2 Hs1 Hs2 E C f field t o1 o2 Hd Hp. assert (Hd2 := distinct_perm _ _ _ Hp Hd).
  assert (Hk : forall o, distinct (sort_key E C f field) o -> forall c, In c o -> exists n k, Get E C f c field = Ok (c, n) /\ String_ E n = Ok k).
  { intros o (H & _) c Hc. destruct (H c Hc) as (k & n & H1 & H2). eauto. }
  destruct (C54_sort s1 Hs1 E C f t o1 field (Hk _ Hd)) as (l1 & E1 & P1 & A1). destruct (C54_sort s2 Hs2 E C f t o2 field (Hk _ Hd2)) as (l2 & E2 & P2 & A2).
  rewrite E1, E2. split; [|eauto]. do 3 f_equal. apply (ascending_one lex_le (sort_key E C f field) (fun x y => lex_antisym x y)); auto.
  - rewrite <- P1, <- P2. exact Hp.
  - exact (distinct_perm _ _ _ P1 Hd).
Qed.
Print Assumptions C96_sort.
Theorem C96_sort_int : forall s1 s2, sorts s1 -> sorts s2 -> forall E C f field t o1 o2, distinct (sort_int E C f field) o1 -> Permutation o1 o2 ->
  SortAsInt E C s1 f (Some (Node t o1)) field = SortAsInt E C s2 f (Some (Node t o2)) field /\ exists o', SortAsInt E C s1 f (Some (Node t o1)) field = Ok (Some (Node t o')).
Proof.
  intros s1 s2 Hs1 Hs2 E C f field t o1 o2 Hd Hp. assert (Hd2 := distinct_perm _ _ _ Hp Hd).
  assert (Hk : forall o, distinct (sort_int E C f field) o -> forall c, In c o -> exists n k, Get E C f c field = Ok (c, n) /\ Int64 E n None = Ok k).
  { intros o (H & _) c Hc. destruct (H c Hc) as (k & n & H1 & H2). eauto. }
  destruct (C54_sort_int s1 Hs1 E C f t o1 field (Hk _ Hd)) as (l1 & E1 & P1 & A1). destruct (C54_sort_int s2 Hs2 E C f t o2 field (Hk _ Hd2)) as (l2 & E2 & P2 & A2).
  rewrite E1, E2. split; [|eauto]. do 3 f_equal. apply (ascending_one Z.le (sort_int E C f field) ltac:(intros; lia)); auto.
  - rewrite <- P1, <- P2. exact Hp.
  - exact (distinct_perm _ _ _ P1 Hd).
Qed.
Print Assumptions C96_sort_int.
(** So sorting again changes nothing. *)
Theorem C96_again : forall s1 s2, sorts s1 -> sorts s2 -> forall E C f field t o g, distinct (sort_key E C f field) o -> Sort E C s1 f (Some (Node t o)) field = Ok g -> Sort E C s2 f g field = Ok g.
Proof.
  intros s1 s2 Hs1 Hs2 E C f field t o g Hd H.
  destruct (C54_sort s1 Hs1 E C f t o field) as (o' & E1 & P1 & _). { intros c Hc. destruct (proj1 Hd c Hc) as (k & n & H1 & H2). eauto. }
  rewrite E1 in H. injection H as <-. rewrite <- E1. symmetry. apply (C96_sort s1 s2 Hs1 Hs2); assumption.
Qed.
Print Assumptions C96_again.
Theorem C96_again_int : forall s1 s2, sorts s1 -> sorts s2 -> forall E C f field t o g, distinct (sort_int E C f field) o -> SortAsInt E C s1 f (Some (Node t o)) field = Ok g -> SortAsInt E C s2 f g field = Ok g.
Proof.
  intros s1 s2 Hs1 Hs2 E C f field t o g Hd H.
  destruct (C54_sort_int s1 Hs1 E C f t o field) as (o' & E1 & P1 & _). { intros c Hc. destruct (proj1 Hd c Hc) as (k & n & H1 & H2). eauto. }
  rewrite E1 in H. injection H as <-. rewrite <- E1. symmetry. apply (C96_sort_int s1 s2 Hs1 Hs2); assumption.
Qed.
Print Assumptions C96_again_int.

(** With equal keys it does depend on both: two methods that keep the promise of sort.Sort, and two
    orders of the same children. *)
Definition backwardSort : sorter := fun less l => insertionSort less (rev l).
Lemma backward_sorts : sorts backwardSort.
Proof.
  intros less l r Hl Hr. destruct (insertion_sorts less (rev l) r) as (l' & H & Hp & Ha).
  - intros a b Ha Hb. apply Hl; apply in_rev; assumption.
  - destruct Hr as (H1 & H2 & H3). split; [intros a Ha; apply H1, in_rev, Ha|]. split; [intros a b c Ha Hb Hc; apply H2; apply in_rev; assumption|]. intros a b c Ha Hb Hc. apply H3; apply in_rev; assumption.
  - exists l'. split; [exact H|]. split; [rewrite <- Hp; apply Permutation_rev|exact Ha].
Qed.
Definition ex_a : graph := nd "a" [nd "n" [nd "1" []]].
Definition ex_b : graph := nd "b" [nd "n" [nd "1" []]].
Definition ex_c : graph := nd "c" [nd "n" [nd "0" []]].
Lemma ex_get : forall x, In x ["a"%string; "b"%string; "c"%string] -> forall d, Get env0 calls0 9 (Some (nd x [nd "n" [nd d []]])) (bs "n") = Ok (Some (nd x [nd "n" [nd d []]]), Some (nd "n" [nd d []])).
Proof.
  intros x _ d. change (bs "n") with (path_text ex_field). rewrite Get_eq; [reflexivity|cbn [ex_field map]; ascii_names|discriminate|split; cbn; lia].
Qed.
Theorem C96_equal_refuted : exists s E C f field t o1 o2, sorts s /\ Permutation o1 o2 /\ Sort E C s f (Some (Node t o1)) field <> Sort E C s f (Some (Node t o2)) field.
Proof.
  exists insertionSort, env0, calls0, 9%nat, (bs "n"), VNil, [Some ex_a; Some ex_b], [Some ex_b; Some ex_a]. split; [exact insertion_sorts|]. split; [constructor|].
  pose proof (ex_get "a" ltac:(cbn; auto) "1") as Ha. pose proof (ex_get "b" ltac:(cbn; auto) "1") as Hb. fold ex_a in Ha. fold ex_b in Hb.
  assert (H1 : less_string env0 calls0 9 (bs "n") (Some ex_a) (Some ex_b) = Ok false) by (unfold less_string; rewrite Ha, Hb; reflexivity).
  assert (H2 : less_string env0 calls0 9 (bs "n") (Some ex_b) (Some ex_a) = Ok false) by (unfold less_string; rewrite Ha, Hb; reflexivity).
  unfold Sort, insertionSort. cbn [insert_all insert_left rbind]. rewrite H1, H2. cbn [rbind insert_all rev app]. discriminate.
Qed.
Print Assumptions C96_equal_refuted.
Theorem C96_method_refuted : exists s1 s2 E C f field g, sorts s1 /\ sorts s2 /\ Sort E C s1 f (Some g) field <> Sort E C s2 f (Some g) field.
Proof.
  exists insertionSort, backwardSort, env0, calls0, 9%nat, (bs "n"), (Node VNil [Some ex_a; Some ex_b]). split; [exact insertion_sorts|]. split; [exact backward_sorts|].
  pose proof (ex_get "a" ltac:(cbn; auto) "1") as Ha. pose proof (ex_get "b" ltac:(cbn; auto) "1") as Hb. fold ex_a in Ha. fold ex_b in Hb.
  assert (H1 : less_string env0 calls0 9 (bs "n") (Some ex_a) (Some ex_b) = Ok false) by (unfold less_string; rewrite Ha, Hb; reflexivity).
  assert (H2 : less_string env0 calls0 9 (bs "n") (Some ex_b) (Some ex_a) = Ok false) by (unfold less_string; rewrite Ha, Hb; reflexivity).
  unfold Sort, backwardSort, insertionSort. cbn [insert_all insert_left rbind rev app]. rewrite H1, H2. cbn [rbind insert_all rev app]. discriminate.
Qed.
Print Assumptions C96_method_refuted.

Example C96_ex : sorts insertionSort /\ sorts backwardSort /\ distinct (sort_key env0 calls0 9 (bs "n")) [Some ex_a; Some ex_c] /\ Permutation [Some ex_a; Some ex_c] [Some ex_c; Some ex_a] /\
  Sort env0 calls0 insertionSort 9 (Some (Node VNil [Some ex_a; Some ex_c])) (bs "n") = Ok (Some (Node VNil [Some ex_c; Some ex_a])).
Proof.
  pose proof (ex_get "a" ltac:(cbn; auto) "1") as Ha. pose proof (ex_get "c" ltac:(cbn; auto) "0") as Hc. fold ex_a in Ha. fold ex_c in Hc.
  split; [exact insertion_sorts|]. split; [exact backward_sorts|]. split; [|split; [constructor|]].
  - split.
    + intros g [<-|[<-|[]]]; eexists; eexists; (split; [eassumption|reflexivity]).
    + intros g h k [<-|[<-|[]]] [<-|[<-|[]]] (n & H1 & H2) (m & H3 & H4); try reflexivity; exfalso; rewrite ?Ha, ?Hc in *; injection H1 as <-; injection H3 as <-; cbn in H2, H4; congruence.
  - assert (H1 : less_string env0 calls0 9 (bs "n") (Some ex_c) (Some ex_a) = Ok true) by (unfold less_string; rewrite Ha, Hc; reflexivity).
    unfold Sort, insertionSort. cbn [insert_all insert_left rbind]. rewrite H1. reflexivity.
Qed.
