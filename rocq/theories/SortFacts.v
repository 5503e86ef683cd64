(** Facts about sorting. *)
From Verif Require Import Base Value Graph GraphSpec GraphFacts PathSpec Eval AccessSpec AccessFacts Sort SortSpec.
From Coq Require Import Sorting.Permutation.

(** ** Dictionary order *)
Lemma byte_inj x y : bz x = bz y -> x = y.
Proof.
  intros H. unfold bz in H. apply N2Z.inj in H. assert (Hx := Byte.of_to_N x). rewrite H, Byte.of_to_N in Hx. congruence.
Qed.
Lemma bcompare_refl a : bcompare a a = Eq.
Proof. induction a as [|x a IH]; [reflexivity|]. cbn. rewrite Z.compare_refl. exact IH. Qed.
Lemma bcompare_flip a : forall b, bcompare b a = CompOpp (bcompare a b).
Proof.
  induction a as [|x a IH]; intros [|y b]; try reflexivity. cbn. rewrite (Z.compare_antisym (bz x) (bz y)).
  destruct (bz x ?= bz y); cbn; try reflexivity. apply IH.
Qed.
Lemma bcompare_le a : forall b, bcompare a b <> Datatypes.Gt <-> lex_le a b.
Proof.
  induction a as [|x a IH]; intros [|y b]; cbn.
  - split; [constructor|discriminate].
  - split; [constructor|discriminate].
  - split; [congruence|intros H; inversion H].
  - destruct (Z.compare_spec (bz x) (bz y)) as [He|Hl|Hg].
    + apply byte_inj in He. subst y. rewrite IH. split; [constructor; assumption|]. intros H; inversion H; subst; [lia|assumption].
    + split; [intros _; apply lex_lt; exact Hl|discriminate].
    + split; [congruence|]. intros H; inversion H; subst; lia.
Qed.
Lemma lex_trans a : forall b c, lex_le a b -> lex_le b c -> lex_le a c.
Proof.
  induction a as [|x a IH]; intros b c H1 H2; [constructor|]. inversion H1; subst; inversion H2; subst.
  - apply lex_lt. lia.
  - apply lex_lt. assumption.
  - apply lex_lt. assumption.
  - apply lex_eq. eapply IH; eassumption.
Qed.

(** ** Comparing by a key in a total preorder *)
Section Keyed.
Variables A K : Type.
Variable lt : K -> K -> bool.
Variable le : K -> K -> Prop.
Hypothesis le_lt : forall x y, le x y <-> lt y x = false.
Hypothesis le_trans : forall x y z, le x y -> le y z -> le x z.
Hypothesis lt_irr : forall x, lt x x = false.
Hypothesis lt_asym : forall x y, lt x y = true -> lt y x = false.

Lemma keyed_order (k : A -> K) l : weak_order (fun a b => lt (k a) (k b)) l.
Proof.
  repeat split.
  - intros a _. apply lt_irr.
  - intros a b c _ _ _ H1 H2. destruct (lt (k a) (k c)) eqn:H; [reflexivity|]. apply le_lt in H.
    apply lt_asym, le_lt in H1. assert (H3 := le_trans _ _ _ H H1). apply le_lt in H3. congruence.
  - apply le_lt. apply (le_trans _ (k b)); apply le_lt; assumption.
  - apply le_lt. apply (le_trans _ (k b)); apply le_lt; assumption.
Qed.
Lemma adjacent_ascending (key : A -> K -> Prop) (k : A -> K) l :
  (forall a x, In a l -> key a x -> k a = x) ->
  (forall i a b, nth_error l i = Some a -> nth_error l (S i) = Some b -> lt (k b) (k a) = false) ->
  ascending le key l.
Proof.
  clear lt_irr lt_asym.
  intros Hk Ha.
  assert (H : forall d i a b, nth_error l i = Some a -> nth_error l (i + S d) = Some b -> le (k a) (k b)).
  { induction d as [|d IH]; intros i a b H1 H2.
    - apply le_lt. apply (Ha i); [exact H1|]. replace (S i) with (i + 1)%nat by lia. exact H2.
    - destruct (nth_error l (i + S d)) as [c|] eqn:Hc.
      + apply (le_trans _ (k c)); [apply (IH i); assumption|]. apply le_lt, (Ha (i + S d)%nat); [exact Hc|].
        replace (S (i + S d)) with (i + S (S d))%nat by lia. exact H2.
      + apply nth_error_None in Hc. assert (nth_error l (i + S (S d)) <> None) by congruence. apply nth_error_Some in H. lia. }
  intros i j a b x y Hij H1 H2 Hx Hy. replace j with (i + S (j - S i))%nat in H2 by lia.
  rewrite <- (Hk a x (nth_error_In _ _ H1) Hx), <- (Hk b y (nth_error_In _ _ H2) Hy). eapply H; eassumption.
Qed.
End Keyed.

(** ** Insertion sort keeps the promise *)
Section Insertion.
Variable less : option graph -> option graph -> res bool.
Variable r : option graph -> option graph -> bool.
Variable l : list (option graph).
Hypothesis Hless : forall a b, In a l -> In b l -> less a b = Ok (r a b).
Hypothesis Hr : weak_order r l.

(** last element first: no element is less than its successor in the list *)
Inductive descending : list (option graph) -> Prop :=
| de_nil : descending []
| de_one a : descending [a]
| de_cons a b k : r a b = false -> descending (b :: k) -> descending (a :: b :: k).
Lemma r_asym a b : In a l -> In b l -> r a b = true -> r b a = false.
Proof. intros Ha Hb H. destruct (r b a) eqn:H'; [|reflexivity]. destruct Hr as (H1 & H2 & _). rewrite <- (H1 a Ha). symmetry. eapply H2; eauto. Qed.
Lemma insert_left_ok x : In x l -> forall d, incl d l -> descending d ->
  exists d', insert_left less x d = Ok d' /\ Permutation (x :: d) d' /\ descending d' /\ (hd_error d' = Some x \/ hd_error d' = hd_error d).
Proof.
  intros Hx. induction d as [|y d IH]; intros Hi Hd.
  - exists [x]. split; [reflexivity|]. split; [reflexivity|]. split; [constructor|]. auto.
  - cbn [insert_left]. assert (Hy : In y l) by (apply Hi; left; reflexivity). rewrite (Hless x y Hx Hy). cbn [rbind].
    destruct (r x y) eqn:Hxy.
    + destruct IH as (d' & H & Hp & Hd' & Hh).
      * intros a Ha. apply Hi. right. exact Ha.
      * inversion Hd; subst; [constructor|assumption].
      * rewrite H. cbn [rbind]. exists (y :: d'). split; [reflexivity|]. split; [rewrite perm_swap; apply perm_skip; exact Hp|]. split; [|auto].
        destruct d' as [|z d']; [constructor|]. constructor; [|exact Hd']. cbn in Hh. destruct Hh as [Hh|Hh].
        -- injection Hh as ->. apply r_asym; assumption.
        -- destruct d as [|w d]; [discriminate|]. injection Hh as ->. inversion Hd; subst. assumption.
    + exists (x :: y :: d). split; [reflexivity|]. split; [reflexivity|]. split; [constructor; assumption|]. auto.
Qed.
Lemma insert_all_ok todo : incl todo l -> forall d, incl d l -> descending d ->
  exists d', insert_all less todo d = Ok (rev d') /\ Permutation (todo ++ d) d' /\ descending d'.
Proof.
  induction todo as [|x todo IH]; intros Ht d Hi Hd.
  - exists d. split; [reflexivity|]. split; [reflexivity|exact Hd].
  - cbn [insert_all]. assert (Hx : In x l) by (apply Ht; left; reflexivity).
    destruct (insert_left_ok x Hx d Hi Hd) as (d1 & -> & Hp1 & Hd1 & _). cbn [rbind].
    destruct (IH (fun a Ha => Ht a (or_intror Ha)) d1) as (d2 & H2 & Hp2 & Hd2).
    + intros a Ha. apply Permutation_sym in Hp1. apply (Permutation_in _ Hp1) in Ha. destruct Ha as [<-|Ha]; [exact Hx|apply Hi; exact Ha].
    + exact Hd1.
    + exists d2. split; [exact H2|]. split; [|exact Hd2]. rewrite <- Hp2, <- Hp1. cbn [app]. apply Permutation_middle.
Qed.
Lemma descending_nth d : descending d -> forall i a b, nth_error d i = Some a -> nth_error d (S i) = Some b -> r a b = false.
Proof.
  induction 1 as [|a|a b k H Hd IH]; intros i x y Hx Hy.
  - destruct i; discriminate.
  - destruct i as [|i]; [|destruct i]; discriminate.
  - destruct i as [|i]; cbn [nth_error] in *; [congruence|]. eapply IH; eassumption.
Qed.
End Insertion.
Lemma nth_error_rev {A} (d : list A) : forall i, (i < List.length d)%nat -> nth_error (rev d) i = nth_error d (List.length d - S i).
Proof.
  induction d as [|x d IH]; intros i H; cbn [rev List.length] in *; [lia|].
  destruct (Nat.eq_dec i (List.length d)) as [->|Hn].
  - rewrite nth_error_app2 by (rewrite rev_length; lia). rewrite rev_length, Nat.sub_diag. replace (S (List.length d) - S (List.length d))%nat with 0%nat by lia. reflexivity.
  - rewrite nth_error_app1 by (rewrite rev_length; lia). rewrite IH by lia.
    replace (S (List.length d) - S i)%nat with (S (List.length d - S i)) by lia. reflexivity.
Qed.
Lemma insertion_sorts : sorts insertionSort.
Proof.
  intros less l r Hl Hr. destruct (insert_all_ok less r l Hl Hr l (incl_refl _) [] (incl_nil_l _) (de_nil r)) as (d & H & Hp & Hd).
  exists (rev d). split; [exact H|]. rewrite app_nil_r in Hp. split; [rewrite Hp; apply Permutation_rev|].
  intros i a b Ha Hb. assert (Hi : (S i < List.length d)%nat) by (rewrite <- rev_length; apply nth_error_Some; congruence).
  rewrite nth_error_rev in Ha, Hb by lia. apply (descending_nth r d Hd (List.length d - S (S i))); [exact Hb|].
  replace (S (List.length d - S (S i))) with (List.length d - S i)%nat by lia. exact Ha.
Qed.

(** ** The two orders *)
Definition ltS (a b : bytes) : bool := match bcompare a b with Datatypes.Lt => true | _ => false end.
Lemma ltS_le x y : lex_le x y <-> ltS y x = false.
Proof. rewrite <- bcompare_le. unfold ltS. rewrite (bcompare_flip x y). destruct (bcompare x y); cbn; split; congruence. Qed.
Lemma ltS_irr x : ltS x x = false.
Proof. unfold ltS. rewrite bcompare_refl. reflexivity. Qed.
Lemma ltS_asym x y : ltS x y = true -> ltS y x = false.
Proof. unfold ltS. rewrite (bcompare_flip x y). destruct (bcompare x y); cbn; congruence. Qed.


Section Main.
Variable E : env.
Variable C : calls.
Variable s : sorter.
Hypothesis Hs : sorts s.

Definition okd {A} (d : A) (r : res A) : A := match r with Ok a => a | _ => d end.
Lemma Sort_sorted f t o field :
  (forall c, In c o -> exists n k, Get E C f c field = Ok (c, n) /\ String_ E n = Ok k) ->
  exists o', Sort E C s f (Some (Node t o)) field = Ok (Some (Node t o')) /\ Permutation o o' /\
    ascending lex_le (fun c k => exists n, Get E C f c field = Ok (c, n) /\ String_ E n = Ok k) o'.
Proof.
  intros Hk. cbn [Sort].
  set (k := fun c => okd [] (let* (_, n) := Get E C f c field in String_ E n)).
  assert (Hkey : forall c, In c o -> exists n, Get E C f c field = Ok (c, n) /\ String_ E n = Ok (k c)).
  { intros c Hc. destruct (Hk c Hc) as (n & x & H1 & H2). exists n. split; [exact H1|]. unfold k. rewrite H1. cbn [rbind]. rewrite H2. reflexivity. }
  destruct (Hs (less_string E C f field) o (fun a b => ltS (k a) (k b))) as (o' & H & Hp & Ha).
  - intros a b Hina Hinb. destruct (Hkey a Hina) as (na & H1 & H2). destruct (Hkey b Hinb) as (nb & H3 & H4).
    unfold less_string. rewrite H1. cbn [rbind]. rewrite H2. cbn [rbind]. rewrite H3. cbn [rbind]. rewrite H4. reflexivity.
  - apply keyed_order with (le := lex_le); [exact ltS_le|exact lex_trans|exact ltS_irr|exact ltS_asym].
  - rewrite H. cbn [rbind]. exists o'. split; [reflexivity|]. split; [exact Hp|].
    eapply adjacent_ascending with (lt := ltS) (k := k); [exact ltS_le|exact lex_trans| |exact Ha].
    intros a x _ (n & H1 & H2). unfold k. rewrite H1. cbn [rbind]. rewrite H2. reflexivity.
Qed.
Lemma SortAsInt_sorted f t o field :
  (forall c, In c o -> exists n k, Get E C f c field = Ok (c, n) /\ Int64 E n None = Ok k) ->
  exists o', SortAsInt E C s f (Some (Node t o)) field = Ok (Some (Node t o')) /\ Permutation o o' /\
    ascending Z.le (fun c k => exists n, Get E C f c field = Ok (c, n) /\ Int64 E n None = Ok k) o'.
Proof.
  intros Hk. cbn [SortAsInt].
  set (k := fun c => okd 0 (let* (_, n) := Get E C f c field in Int64 E n None)).
  assert (Hkey : forall c, In c o -> exists n, Get E C f c field = Ok (c, n) /\ Int64 E n None = Ok (k c)).
  { intros c Hc. destruct (Hk c Hc) as (n & x & H1 & H2). exists n. split; [exact H1|]. unfold k. rewrite H1. cbn [rbind]. rewrite H2. reflexivity. }
  destruct (Hs (less_int E C f field) o (fun a b => k a <? k b)) as (o' & H & Hp & Ha).
  - intros a b Hina Hinb. destruct (Hkey a Hina) as (na & H1 & H2). destruct (Hkey b Hinb) as (nb & H3 & H4).
    unfold less_int. rewrite H1. cbn [rbind]. rewrite H2. cbn [rbind]. rewrite H3. cbn [rbind]. rewrite H4. reflexivity.
  - apply keyed_order with (le := Z.le); intros; lia.
  - rewrite H. cbn [rbind]. exists o'. split; [reflexivity|]. split; [exact Hp|].
    eapply adjacent_ascending with (lt := Z.ltb) (k := k); [intros; lia|intros; lia| |exact Ha].
    intros a x _ (n & H1 & H2). unfold k. rewrite H1. cbn [rbind]. rewrite H2. reflexivity.
Qed.
End Main.
