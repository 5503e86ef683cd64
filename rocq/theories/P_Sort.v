(** Property C54: sorting. *)
From Verif Require Import Base Value Graph GraphSpec GraphFacts PathParser PathSpec PathFacts Eval AccessSpec AccessFacts P_Access Sort SortSpec SortFacts Samples.
From Coq Require Import Sorting.Permutation.

(** ** C54 Sort, SortAsString and SortAsInt reorder the children into non-decreasing key order,
    keeping every child.  sort.Sort is any function that keeps its promise [sorts]. *)
Theorem C54_sort : forall s, sorts s -> forall E C f t o field,
  (forall c, In c o -> exists n k, Get E C f c field = Ok (c, n) /\ String_ E n = Ok k) ->
  exists o', Sort E C s f (Some (Node t o)) field = Ok (Some (Node t o')) /\ Permutation o o' /\
    ascending lex_le (fun c k => exists n, Get E C f c field = Ok (c, n) /\ String_ E n = Ok k) o'.
Proof. intros s Hs E C f t o field. exact (Sort_sorted E C s Hs f t o field). Qed.
Print Assumptions C54_sort.
Theorem C54_sort_int : forall s, sorts s -> forall E C f t o field,
  (forall c, In c o -> exists n k, Get E C f c field = Ok (c, n) /\ Int64 E n None = Ok k) ->
  exists o', SortAsInt E C s f (Some (Node t o)) field = Ok (Some (Node t o')) /\ Permutation o o' /\
    ascending Z.le (fun c k => exists n, Get E C f c field = Ok (c, n) /\ Int64 E n None = Ok k) o'.
Proof. intros s Hs E C f t o field. exact (SortAsInt_sorted E C s Hs f t o field). Qed.
Print Assumptions C54_sort_int.
(** The insertion sort that the Go library uses for up to twelve elements keeps the promise. *)
Theorem C54_insertion : sorts insertionSort.
Proof. exact insertion_sorts. Qed.
Print Assumptions C54_insertion.

(** For graphs of data and paths of names and quoted strings every child has a key: what stands
    under the path in that child, or the empty text (zero) when the path leads nowhere. *)
Definition text_key (E : env) (es : list elem) (c : option graph) (k : bytes) : Prop :=
  exists n, c = Some n /\
    ((exists m, walk E es n m /\ match out m with [] => k = [] | Some c :: _ => vstring E (this c) = Ok k | None :: _ => False end) \/
     (lost E es n /\ k = [])).
Definition int_key (E : env) (es : list elem) (c : option graph) (k : Z) : Prop :=
  exists n, c = Some n /\
    ((exists m, walk E es n m /\ Int64 E (Some m) None = Ok k) \/ (lost E es n /\ k = 0)).
Lemma walk_not_lost E es g n : walk E es g n -> ~ lost E es g.
Proof.
  assert (Hfn : forall s o i j c d, first_named E s o i c -> first_named E s o j d -> c = d).
  { intros s o i j c d (H1 & H2 & H3) (H4 & H5 & H6). destruct (lt_eq_lt_dec i j) as [[H|H]|H].
    - destruct (H6 i _ H H1). exact H2.
    - subst j. congruence.
    - destruct (H3 j _ H H4). exact H5. }
  induction 1 as [g|e s es g i c m Hk Hf Hw IH|d es g c m Hd Hc Hw IH]; intros Hl;
    inversion Hl as [e' s' es' g' Hk' Hn'|e' s' es' g' i' c' Hk' Hf' Hl'|d' es' g' c' Hd' Hc' Hl']; subst; try discriminate.
  - rewrite Hk in Hk'. injection Hk' as <-. unfold none_named in Hn'. rewrite Forall_forall in Hn'. destruct Hf as (H3 & H4 & _).
    exact (Hn' _ (nth_error_In _ _ H3) H4).
  - rewrite Hk in Hk'. injection Hk' as <-. rewrite (Hfn _ _ _ _ _ _ Hf Hf') in IH. exact (IH Hl').
  - rewrite Hc in Hc'. injection Hc' as <-. exact (IH Hl').
Qed.
Lemma walk_fun E es g n n' : walk E es g n -> walk E es g n' -> n = n'.
Proof.
  assert (Hfn : forall s o i j c d, first_named E s o i c -> first_named E s o j d -> c = d).
  { intros s o i j c d (H1 & H2 & H3) (H4 & H5 & H6). destruct (lt_eq_lt_dec i j) as [[H|H]|H].
    - destruct (H6 i _ H H1). exact H2.
    - subst j. congruence.
    - destruct (H3 j _ H H4). exact H5. }
  intros H. revert n'. induction H as [g|e s es g i c m Hk Hf Hw IH|d es g c m Hd Hc Hw IH]; intros n' H';
    inversion H' as [g'|e' s' es' g' i' c' m' Hk' Hf' Hw'|d' es' g' c' m' Hd' Hc' Hw']; subst; try discriminate.
  - reflexivity.
  - rewrite Hk in Hk'. injection Hk' as <-. rewrite (Hfn _ _ _ _ _ _ Hf Hf') in IH. exact (IH _ Hw').
  - rewrite Hc in Hc'. injection Hc' as <-. exact (IH _ Hw').
Qed.

Section Path.
Variables (E : env) (C : calls) (es : list elem) (f : nat).
Hypothesis Hok : Forall (elem_ok E) es.
Hypothesis Hu : Forall unmarked es.
Hypothesis Hn : es <> [].
Hypothesis Hk : Forall (fun e => key e <> None) es.
Hypothesis Hf : fits f (path_text es).
Lemma text_key_ok c k : all_nodes data c -> text_key E es (Some c) k -> exists n, Get E C f (Some c) (path_text es) = Ok (Some c, n) /\ String_ E n = Ok k.
Proof.
  intros Hc (n & Hcn & H). injection Hcn as <-. destruct H as [(m & Hw & Hm)|[Hl ->]].
  - exists (Some m). split; [apply Get_walk; auto using data_whole|]. cbn [String_]. destruct m as [t [|[[v l]|] o]]; cbn [out] in Hm; [subst; reflexivity| |contradiction].
    cbn [this] in Hm. cbn. destruct v; exact Hm.
  - exists None. split; [apply Get_lost; auto|reflexivity].
Qed.
Lemma int_key_ok c k : all_nodes data c -> int_key E es (Some c) k -> exists n, Get E C f (Some c) (path_text es) = Ok (Some c, n) /\ Int64 E n None = Ok k.
Proof.
  intros Hc (n & Hcn & H). injection Hcn as <-. destruct H as [(m & Hw & Hm)|[Hl ->]].
  - exists (Some m). split; [apply Get_walk; auto using data_whole|exact Hm].
  - exists None. split; [apply Get_lost; auto|reflexivity].
Qed.
Lemma data_key c : all_nodes data c -> exists k, text_key E es (Some c) k.
Proof.
  intros Hc. destruct (walk_or_lost E es Hk c (data_whole E c Hc)) as [(m & Hw)|Hl].
  - pose proof (walk_data E es c m Hw Hc) as Hd. destruct (all_nodes_inv _ _ Hd) as (v & k & -> & Hv & Hk'). destruct Hk' as [|d k Hd' _].
    + exists []. exists c. split; [reflexivity|]. left. eexists. split; [exact Hw|reflexivity].
    + destruct (all_nodes_inv _ _ Hd') as (w & l & -> & Hw' & _). destruct (data_prints E w Hw') as (s & Hs'). exists s, c.
      split; [reflexivity|]. left. eexists. split; [exact Hw|exact Hs'].
  - exists [], c. auto.
Qed.
Lemma data_int_key c : all_nodes data c -> exists k, int_key E es (Some c) k.
Proof.
  intros Hc. destruct (walk_or_lost E es Hk c (data_whole E c Hc)) as [(m & Hw)|Hl].
  - pose proof (walk_data E es c m Hw Hc) as Hd. destruct (data_usable E m Hd) as ([k Hi] & _). exists k, c. split; [reflexivity|]. left. eauto.
  - exists 0, c. auto.
Qed.
End Path.

Lemma ascending_weaken {A K} (le : K -> K -> Prop) (k1 k2 : A -> K -> Prop) l :
  (forall a x, In a l -> k2 a x -> k1 a x) -> ascending le k1 l -> ascending le k2 l.
Proof.
  intros H Ha i j a b x y Hij H1 H2 Hx Hy. apply (Ha i j a b); auto; apply H; auto; eapply nth_error_In; eassumption.
Qed.
Theorem C54_sort_path_partial : forall s, sorts s -> forall E C es f g,
  Forall (elem_ok E) es -> Forall unmarked es -> es <> [] -> Forall (fun e => key e <> None) es -> fits f (path_text es) -> all_nodes data g ->
  (exists o', Sort E C s f (Some g) (path_text es) = Ok (Some (Node (this g) o')) /\ Permutation (out g) o' /\ ascending lex_le (text_key E es) o') /\
  (exists o', SortAsInt E C s f (Some g) (path_text es) = Ok (Some (Node (this g) o')) /\ Permutation (out g) o' /\ ascending Z.le (int_key E es) o').
Proof.
  intros s Hs E C es f g Hok Hu Hn Hk Hf Hg. destruct (all_nodes_inv _ _ Hg) as (v & k & -> & Hv & Hkids). cbn [this out].
  assert (Hin : forall c, In c (map Some k) -> exists n, c = Some n /\ all_nodes data n).
  { intros c Hc. apply in_map_iff in Hc. destruct Hc as (n & <- & Hin). exists n. split; [reflexivity|]. rewrite Forall_forall in Hkids. auto. }
  split.
  - destruct (C54_sort s Hs E C f v (map Some k) (path_text es)) as (o' & H & Hp & Ha).
    + intros c Hc. destruct (Hin c Hc) as (n & -> & Hd). destruct (data_key E es Hk n Hd) as (x & Hx).
      destruct (text_key_ok E C es f Hok Hu Hn Hf n x Hd Hx) as (m & H1 & H2). exists m, x. auto.
    + exists o'. split; [exact H|]. split; [exact Hp|]. eapply ascending_weaken; [|exact Ha]. intros c x Hc Hx.
      destruct (Hin c (Permutation_in _ (Permutation_sym Hp) Hc)) as (n & -> & Hd). apply (text_key_ok E C es f); assumption.
  - destruct (C54_sort_int s Hs E C f v (map Some k) (path_text es)) as (o' & H & Hp & Ha).
    + intros c Hc. destruct (Hin c Hc) as (n & -> & Hd). destruct (data_int_key E es Hk n Hd) as (x & Hx).
      destruct (int_key_ok E C es f Hok Hu Hn Hf n x Hd Hx) as (m & H1 & H2). exists m, x. auto.
    + exists o'. split; [exact H|]. split; [exact Hp|]. eapply ascending_weaken; [|exact Ha]. intros c x Hc Hx.
      destruct (Hin c (Permutation_in _ (Permutation_sym Hp) Hc)) as (n & -> & Hd). apply (int_key_ok E C es f); assumption.
Qed.
Print Assumptions C54_sort_path_partial.
(** The key is unique, so that ascending means what it says. *)
Theorem C54_key_unique : forall E es c k k', (text_key E es c k -> text_key E es c k' -> k = k').
Proof.
  intros E es c k k' (n & -> & H) (n' & Hn & H'). injection Hn as <-. destruct H as [(m & Hw & Hm)|[Hl ->]], H' as [(m' & Hw' & Hm')|[Hl' ->]].
  - rewrite <- (walk_fun _ _ _ _ _ Hw Hw') in Hm'. destruct (out m) as [|[d|] o]; congruence || contradiction.
  - destruct (walk_not_lost _ _ _ _ Hw Hl').
  - destruct (walk_not_lost _ _ _ _ Hw' Hl).
  - reflexivity.
Qed.
Print Assumptions C54_key_unique.
(** By text 10 comes before 9; by number after it; a child without the field comes first. *)
Definition ex_items : graph := nd "_" [nd "a" [nd "n" [nd "9" []]]; nd "b" [nd "n" [nd "10" []]]; nd "c" []].
Definition ex_field : list elem := map Name [bs "n"].
Example C54_ex : sorts insertionSort /\ Forall (elem_ok env0) ex_field /\ Forall unmarked ex_field /\ fits 9 (path_text ex_field) /\ all_nodes data ex_items /\
  Sort env0 calls0 insertionSort 9 (Some ex_items) (bs "n") =
    Ok (Some (nd "_" [nd "c" []; nd "b" [nd "n" [nd "10" []]]; nd "a" [nd "n" [nd "9" []]]])) /\
  SortAsInt env0 calls0 insertionSort 9 (Some ex_items) (bs "n") =
    Ok (Some (nd "_" [nd "c" []; nd "a" [nd "n" [nd "9" []]]; nd "b" [nd "n" [nd "10" []]]])).
Proof.
  assert (H1 : Forall (elem_ok env0) ex_field) by (cbn [ex_field map]; ascii_names).
  assert (H2 : fits 9 (path_text ex_field)) by (split; cbn; lia).
  assert (H3 : Forall unmarked ex_field) by (repeat constructor).
  assert (HG : forall n, Get env0 calls0 9 (Some n) (bs "n") =
    let* (g, r) := get_els env0 calls0 (evalExpression env0 calls0 9) (Node (VStr TypePath) (gforest (map elem_tree ex_field))) (gforest (map elem_tree ex_field)) (Some n) None [] n in
    Ok (Some g, match r with inl n => n | inr _ => None end)).
  { intros n. change (bs "n") with (path_text ex_field). apply Get_eq; [exact H1|discriminate|exact H2]. }
  split; [exact insertion_sorts|]. split; [exact H1|]. split; [exact H3|]. split; [exact H2|]. split.
  { assert (H : forall s k, Forall (all_nodes data) k -> all_nodes data (nd s k)) by (intros s k Hk; apply all_node; [exact I|exact Hk]).
    repeat (apply H; repeat constructor); apply H; repeat constructor; apply H; constructor. }
  set (a := nd "a" [nd "n" [nd "9" []]]) in *. set (b := nd "b" [nd "n" [nd "10" []]]) in *. set (c := nd "c" []) in *.
  assert (Ha : Get env0 calls0 9 (Some a) (bs "n") = Ok (Some a, Some (nd "n" [nd "9" []]))) by (rewrite HG; reflexivity).
  assert (Hb : Get env0 calls0 9 (Some b) (bs "n") = Ok (Some b, Some (nd "n" [nd "10" []]))) by (rewrite HG; reflexivity).
  assert (Hc : Get env0 calls0 9 (Some c) (bs "n") = Ok (Some c, None)) by (rewrite HG; reflexivity).
  split.
  - change (Sort env0 calls0 insertionSort 9 (Some ex_items) (bs "n")) with
      (let* o := insertionSort (less_string env0 calls0 9 (bs "n")) [Some a; Some b; Some c] in Ok (Some (Node (VStr (bs "_")) o))).
    assert (H21 : less_string env0 calls0 9 (bs "n") (Some b) (Some a) = Ok true) by (unfold less_string; rewrite Hb, Ha; reflexivity).
    assert (H31 : less_string env0 calls0 9 (bs "n") (Some c) (Some a) = Ok true) by (unfold less_string; rewrite Hc, Ha; reflexivity).
    assert (H32 : less_string env0 calls0 9 (bs "n") (Some c) (Some b) = Ok true) by (unfold less_string; rewrite Hc, Hb; reflexivity).
    unfold insertionSort. cbn [insert_all insert_left rbind]. rewrite H21. cbn [insert_all insert_left rbind]. rewrite H31. cbn [rbind]. rewrite H32. reflexivity.
  - change (SortAsInt env0 calls0 insertionSort 9 (Some ex_items) (bs "n")) with
      (let* o := insertionSort (less_int env0 calls0 9 (bs "n")) [Some a; Some b; Some c] in Ok (Some (Node (VStr (bs "_")) o))).
    assert (H21 : less_int env0 calls0 9 (bs "n") (Some b) (Some a) = Ok false) by (unfold less_int; rewrite Hb, Ha; reflexivity).
    assert (H32 : less_int env0 calls0 9 (bs "n") (Some c) (Some b) = Ok true) by (unfold less_int; rewrite Hc, Hb; reflexivity).
    assert (H31 : less_int env0 calls0 9 (bs "n") (Some c) (Some a) = Ok true) by (unfold less_int; rewrite Hc, Ha; reflexivity).
    unfold insertionSort. cbn [insert_all insert_left rbind]. rewrite H21. cbn [insert_all insert_left rbind]. rewrite H32. cbn [rbind]. rewrite H31. reflexivity.
Qed.
