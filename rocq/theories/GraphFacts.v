(** Facts about the graph operations. *)
From Verif Require Import Base Value Graph GraphSpec.
From Coq Require Import SpecFloat.

Section F.
Variable E : env.

Lemma named_dec s c : (exists t, named E t c) -> {named E s c} + {~ named E s c}.
Proof.
  intros H. destruct c as [n|]; [|exfalso; destruct H as (t & n & H & _); discriminate].
  destruct (vstring E (this n)) as [t| |] eqn:Ht.
  - destruct (bytes_eq_dec t s) as [->|Hn]; [left; exists n; auto|].
    right. intros (n' & [= <-] & H'). congruence.
  - exfalso. destruct H as (t & n' & [= <-] & H'). congruence.
  - exfalso. destruct H as (t & n' & [= <-] & H'). congruence.
Qed.

Lemma find_child_spec s o : printable E o ->
  (find_child E s o = Ok None /\ none_named E s o) \/
  (exists i n, find_child E s o = Ok (Some i) /\ first_named E s o i n).
Proof.
  induction 1 as [|c o (t & n & -> & Ht) _ IH]; [left; split; [reflexivity|constructor]|].
  cbn [find_child]. rewrite Ht. cbn [rbind].
  destruct (bseq_spec s t) as [->|Hn].
  - right. exists 0%nat, n. split; [reflexivity|]. split; [reflexivity|]. split; [exists n; auto|]. lia.
  - assert (Hc : ~ named E s (Some n)) by (intros (n' & [= <-] & H'); congruence).
    destruct IH as [[-> H]|(i & m & -> & H1 & H2 & H3)]; cbn [rbind option_map].
    + left. split; [reflexivity|]. constructor; assumption.
    + right. exists (S i), m. split; [reflexivity|]. split; [exact H1|]. split; [exact H2|].
      intros [|j] c Hj Hnth; cbn in Hnth; [injection Hnth as <-; exact Hc|]. apply (H3 j); [lia|exact Hnth].
Qed.

Lemma find_child_none s o : none_named E s o -> printable E o -> find_child E s o = Ok None.
Proof.
  intros H Hp. destruct (find_child_spec s o Hp) as [[-> _]|(i & n & _ & H1 & H2 & _)]; [reflexivity|].
  exfalso. apply nth_error_In in H1. unfold none_named in H. rewrite Forall_forall in H. exact (H _ H1 H2).
Qed.
Lemma first_named_unique s o i n i' n' : first_named E s o i n -> first_named E s o i' n' -> i = i' /\ n = n'.
Proof.
  intros (H1 & H2 & H3) (H1' & H2' & H3').
  assert (i = i') as <-.
  { destruct (Nat.lt_trichotomy i i') as [H|[H|H]]; [|exact H|].
    - exfalso. exact (H3' _ _ H H1 H2).
    - exfalso. exact (H3 _ _ H H1' H2'). }
  split; [reflexivity|]. congruence.
Qed.
Lemma find_child_some s o i n : first_named E s o i n -> printable E o -> find_child E s o = Ok (Some i).
Proof.
  intros H Hp. destruct (find_child_spec s o Hp) as [[_ H']|(i' & n' & H1 & H2)].
  - exfalso. destruct H as (H1 & H2 & _). apply nth_error_In in H1. unfold none_named in H'. rewrite Forall_forall in H'. exact (H' _ H1 H2).
  - destruct (first_named_unique _ _ _ _ _ _ H H2) as [-> ->]. exact H1.
Qed.

(** The first child of a given name, as an alternative without the printability of the
    children that come after it. *)
Lemma find_child_first s o i n : nth_error o i = Some (Some n) -> vstring E (this n) = Ok s ->
  (forall j, (j < i)%nat -> exists c t, nth_error o j = Some (Some c) /\ vstring E (this c) = Ok t /\ t <> s) ->
  find_child E s o = Ok (Some i).
Proof.
  revert i; induction o as [|c o IH]; intros i H1 H2 H3; [destruct i; discriminate|].
  destruct i as [|i]; cbn in H1.
  - injection H1 as ->. cbn. rewrite H2. cbn. rewrite bseq_refl. reflexivity.
  - destruct (H3 0%nat ltac:(lia)) as (c0 & t & H0 & Ht & Hn). cbn in H0. injection H0 as ->.
    cbn. rewrite Ht. cbn. replace (bseq s t) with false by (symmetry; apply bseq_neq; congruence).
    rewrite (IH i); [reflexivity|exact H1|exact H2|]. intros j Hj. apply (H3 (S j)). lia.
Qed.

Lemma nth_set_nth_eq {A} i (x : A) l : (i < List.length l)%nat -> nth_error (set_nth i x l) i = Some x.
Proof. revert i; induction l as [|y l IH]; intros [|i] H; cbn in *; try lia; [reflexivity|apply IH; lia]. Qed.
Lemma nth_set_nth_ne {A} i j (x : A) l : i <> j -> nth_error (set_nth i x l) j = nth_error l j.
Proof. revert i j; induction l as [|y l IH]; intros [|i] [|j] H; cbn; try reflexivity; [lia|apply IH; lia]. Qed.
Lemma set_nth_length {A} i (x : A) l : List.length (set_nth i x l) = List.length l.
Proof. revert i; induction l as [|y l IH]; intros [|i]; cbn; try reflexivity. now rewrite IH. Qed.

Lemma add_out_subnode v : subnode v (add_out v).
Proof. destruct v as [| | | | | | | [c|] | | | ]; reflexivity. Qed.

(** ** Node, NodeOrNew, Create, NodeSet *)
Lemma Node_spec t o s : printable E o ->
  exists r, Node_ E (Some (Node t o)) s = Ok r /\
    match r with Some n => exists i, first_named E s o i n | None => none_named E s o end.
Proof.
  intros Hp. unfold Node_. destruct (find_child_spec s o Hp) as [[-> H]|(i & n & -> & H)]; cbn [rbind].
  - exists None. auto.
  - exists (Some n). destruct H as (H1 & H2). split; [unfold child; rewrite H1; reflexivity|]. exists i. split; assumption.
Qed.

Lemma NodeOrNew_spec t o s : printable E o ->
  exists g' n, NodeOrNew E (Some (Node t o)) s = Ok (Some g', Some n) /\
    ((g' = Node t o /\ exists i, first_named E s o i n) \/
     (n = Node (VStr s) [] /\ g' = Node t (o ++ [Some n]) /\ none_named E s o)).
Proof.
  intros Hp. unfold NodeOrNew. destruct (find_child_spec s o Hp) as [[-> H]|(i & n & -> & H)]; cbn [rbind].
  - do 2 eexists. split; [reflexivity|]. right. auto.
  - destruct H as (H1 & H2). exists (Node t o), n. unfold child. rewrite H1. split; [reflexivity|].
    left. split; [reflexivity|]. exists i. split; assumption.
Qed.

Lemma put_found s k o i m : first_named E s o i m ->
  put E s k o (upd_at o i (fun c => Node (this c) k)).
Proof.
  intros H. pose proof H as (H1 & H2 & H3). unfold upd_at. rewrite H1.
  assert (Hi : (i < List.length o)%nat) by (apply nth_error_Some; rewrite H1; discriminate).
  exists i, (Node (this m) k). split; [|split; [reflexivity|split]].
  - split; [apply nth_set_nth_eq; exact Hi|]. split.
    + destruct H2 as (n & [= <-] & H2). exists (Node (this m) k). auto.
    + intros j c Hj. rewrite nth_set_nth_ne by lia. apply H3. exact Hj.
  - left. exists m. split; [exact H|]. split; [reflexivity|apply set_nth_length].
  - intros j Hj. apply nth_set_nth_ne. lia.
Qed.
Lemma put_new s k o : none_named E s o -> put E s k o (o ++ [Some (Node (VStr s) k)]).
Proof.
  intros H. exists (List.length o), (Node (VStr s) k). split; [|split; [reflexivity|split]].
  - split; [rewrite nth_error_app2, Nat.sub_diag by lia; reflexivity|]. split; [exists (Node (VStr s) k); auto|].
    intros j c Hj Hn. rewrite nth_error_app1 in Hn by exact Hj. apply nth_error_In in Hn. unfold none_named in H. rewrite Forall_forall in H. exact (H _ Hn).
  - right. split; [exact H|]. split; [reflexivity|]. split; [rewrite app_length; cbn; lia|reflexivity].
  - intros j Hj. destruct (Nat.lt_ge_cases j (List.length o)) as [Hl|Hl].
    + apply nth_error_app1. exact Hl.
    + rewrite (proj2 (nth_error_None o j)) by exact Hl. apply nth_error_None. rewrite app_length. cbn. lia.
Qed.

Lemma NodeSet_spec t o s v : printable E o ->
  exists o' k, NodeSet E (Some (Node t o)) s v = Ok (Some (Node t o'), match k with c :: _ => c | [] => None end) /\
    subnode v k /\ put E s k o o'.
Proof.
  intros Hp. unfold NodeSet. assert (Hr : add_ret v = match add_out v with c :: _ => c | [] => None end) by (destruct v as [| | | | | | |[?|]| | | ]; reflexivity).
  destruct (find_child_spec s o Hp) as [[-> H]|(i & n & -> & H)]; cbn [rbind]; rewrite Hr.
  - do 2 eexists. split; [reflexivity|]. split; [apply add_out_subnode|]. apply put_new. exact H.
  - do 2 eexists. split; [reflexivity|]. split; [apply add_out_subnode|]. apply put_found with (1 := H).
Qed.

Lemma Create_spec t o s : printable E o ->
  exists o' n, Create E (Some (Node t o)) s = Ok (Some (Node t o'), Some n) /\ out n = [] /\ put E s [] o o' /\
    exists i, first_named E s o' i n.
Proof.
  intros Hp. unfold Create. destruct (find_child_spec s o Hp) as [[-> H]|(i & n & -> & H)]; cbn [rbind].
  - exists (o ++ [Some (Node (VStr s) [])]), (Node (VStr s) []). split; [reflexivity|]. split; [reflexivity|].
    pose proof (put_new s [] o H) as Hq. split; [exact Hq|].
    exists (List.length o). destruct Hq as (i & m & Hf & Hm & [(m' & Hf' & _)|(_ & -> & _ & Ht)] & _).
    + exfalso. destruct Hf' as (H1 & H2 & _). apply nth_error_In in H1. unfold none_named in H. rewrite Forall_forall in H. exact (H _ H1 H2).
    + destruct m as [v k]. cbn in Hm, Ht. subst. exact Hf.
  - pose proof (put_found s [] o i n H) as Hq.
    exists (upd_at o i (fun c => Node (this c) [])), (Node (this n) []).
    pose proof H as (H1 & H2 & H3).
    assert (Hi : (i < List.length o)%nat) by (apply nth_error_Some; rewrite H1; discriminate).
    assert (Hn : nth_error (upd_at o i (fun c => Node (this c) [])) i = Some (Some (Node (this n) []))).
    { unfold upd_at. rewrite H1. apply nth_set_nth_eq. exact Hi. }
    split; [unfold child; rewrite Hn; reflexivity|]. split; [reflexivity|]. split; [exact Hq|].
    exists i. split; [exact Hn|]. split.
    + destruct H2 as (m & [= <-] & H2). eexists. split; [reflexivity|exact H2].
    + intros j c Hj. unfold upd_at. rewrite H1, nth_set_nth_ne by lia. apply H3. exact Hj.
Qed.

(** ** Go equality *)
Lemma SFeqb_eq x y : SFeqb x y = true <->
  match x, y with
  | S754_zero _, S754_zero _ => True
  | S754_nan, _ => False
  | _, _ => x = y
  end.
Proof.
  assert (Hfin : forall b m e m' e', SFeqb (S754_finite b m e) (S754_finite b m' e') = true <-> S754_finite b m e = S754_finite b m' e').
  { intros b m e m' e'. unfold SFeqb. cbn [SFcompare]. change (Pos.compare_cont Eq m m') with (Pos.compare m m').
    destruct (Z.compare_spec e e') as [->|H|H].
    - destruct (Pos.compare_spec m m') as [->|H|H]; destruct b; cbn; split; intro H'; try reflexivity; try discriminate H'; injection H' as ->; lia.
    - destruct b; split; intro H'; try discriminate H'; injection H' as _ ->; lia.
    - destruct b; split; intro H'; try discriminate H'; injection H' as _ ->; lia. }
  unfold SFeqb. destruct x as [s|s| |s m e], y as [s'|s'| |s' m' e']; cbn [SFcompare].
  all: try (destruct s); try (destruct s').
  all: try (split; intro H; solve [discriminate H | exact I | reflexivity | contradiction]).
  - rewrite <- (Hfin true). reflexivity.
  - rewrite <- (Hfin false). reflexivity.
Qed.
Lemma ikind_eqb_eq a b : ikind_eqb a b = true <-> a = b.
Proof. destruct a, b; cbn; split; intro H; reflexivity || discriminate H. Qed.

Lemma iface_eq_spec v w : comparable v -> comparable w ->
  exists b, iface_eq E v w = Ok b /\ (b = true <-> go_equal v w).
Proof.
  intros Hv Hw.
  destruct v as [| | | | | | |[?|]| | |], w as [| | | | | | |[?|]| | |]; try contradiction Hv; try contradiction Hw; cbn [iface_eq];
    (eexists; split; [reflexivity|]);
    try (split; intro H; [discriminate H|inversion H]; fail);
    try (split; [intro; constructor|reflexivity]; fail).
  - rewrite bseq_eq. split; [intros ->; constructor|now inversion 1].
  - rewrite Bool.eqb_true_iff. split; [intros ->; constructor|now inversion 1].
  - rewrite andb_true_iff, ikind_eqb_eq, Z.eqb_eq. split; [intros [-> ->]; constructor|inversion 1; auto].
  - split; [intro; constructor; assumption|now inversion 1].
  - split; [intro; constructor; assumption|now inversion 1].
  - rewrite N.eqb_eq. split; [intros ->; constructor|now inversion 1].
  - rewrite N.eqb_eq. split; [intros ->; constructor|now inversion 1].
Qed.

Lemma go_equal_refl v : comparable v -> not_nan v -> go_equal v v.
Proof.
  destruct v as [| | | | | | |[?|]| | |]; cbn; intros Hc Hn; try contradiction; constructor.
  - apply SFeqb_eq. destruct f; auto.
  - apply SFeqb_eq. destruct f; auto.
Qed.
Lemma SFeqb_sym x y : SFeqb x y = true -> SFeqb y x = true.
Proof. rewrite !SFeqb_eq. destruct x, y; intro H; try discriminate H; try tauto; try (now symmetry). Qed.
Lemma SFeqb_trans x y z : SFeqb x y = true -> SFeqb y z = true -> SFeqb x z = true.
Proof. rewrite !SFeqb_eq. destruct x, y; intro H; try discriminate H; try contradiction; destruct z; intro H'; try discriminate H'; try contradiction; try exact I; congruence. Qed.
Lemma go_equal_sym v w : go_equal v w -> go_equal w v.
Proof. destruct 1; constructor; now apply SFeqb_sym. Qed.
Lemma go_equal_trans u v w : go_equal u v -> go_equal v w -> go_equal u w.
Proof. destruct 1; inversion 1; subst; constructor; eauto using SFeqb_trans. Qed.
Lemma go_equal_eq v w : no_float v -> go_equal v w -> v = w.
Proof. destruct 2; try reflexivity; contradiction. Qed.

(** ** Delete, DeleteAt *)
Lemma remove_at_app o x o' : remove_at (List.length o) (o ++ x :: o') = o ++ o'.
Proof.
  unfold remove_at. rewrite app_length. cbn [List.length].
  rewrite firstn_app, Nat.sub_diag, firstn_all. cbn [firstn]. rewrite app_nil_r.
  destruct (Nat.ltb_spec (List.length o) (List.length o + S (List.length o') - 1)) as [H|H].
  - f_equal. change (x :: o') with ([x] ++ o'). rewrite app_assoc. replace (S (List.length o)) with (List.length (o ++ [x])) by (rewrite app_length; cbn; lia).
    rewrite skipn_app, skipn_all, Nat.sub_diag. reflexivity.
  - destruct o'; [now rewrite app_nil_r|cbn in H; lia].
Qed.

Lemma delete_loop_spec n o2 : comparable n -> Forall (fun c => exists m, c = Some m /\ comparable (this m)) o2 ->
  forall fuel o1, (List.length o2 < fuel)%nat ->
  exists o', delete_loop E fuel (List.length o1) n (o1 ++ o2) = Ok (o1 ++ o') /\ deleted n o2 o'.
Proof.
  intros Hn Ho. induction Ho as [|c o2 (m & -> & Hm) _ IH]; intros fuel o1 Hf; destruct fuel as [|fuel]; try (cbn in Hf; lia); cbn [delete_loop].
  - rewrite app_nil_r, Nat.ltb_irrefl. exists []. rewrite app_nil_r. split; [reflexivity|constructor].
  - cbn in Hf. assert (Hlt : (List.length o1 <? List.length (o1 ++ Some m :: o2))%nat = true) by (apply Nat.ltb_lt; rewrite app_length; cbn; lia).
    rewrite Hlt. unfold child. rewrite nth_error_app2, Nat.sub_diag by lia. cbn [nth_error].
    destruct (iface_eq_spec (this m) n Hm Hn) as (b & -> & Hb). cbn [rbind]. destruct b.
    + rewrite remove_at_app. destruct (IH fuel o1 ltac:(lia)) as (o' & -> & Hd). exists o'. split; [reflexivity|]. constructor; tauto.
    + change (Some m :: o2) with ([Some m] ++ o2). rewrite app_assoc.
      replace (S (List.length o1)) with (List.length (o1 ++ [Some m])) by (rewrite app_length; cbn; lia).
      destruct (IH fuel (o1 ++ [Some m]) ltac:(lia)) as (o' & -> & Hd). exists (Some m :: o'). rewrite <- app_assoc. split; [reflexivity|].
      constructor; [intro H; apply Hb in H; discriminate|exact Hd].
Qed.

Lemma Delete_spec t o n : comparable n -> Forall (fun c => exists m, c = Some m /\ comparable (this m)) o ->
  exists o', Delete E (Some (Node t o)) n = Ok (Some (Node t o')) /\ deleted n o o'.
Proof.
  intros Hn Ho. unfold Delete. destruct (delete_loop_spec n o Hn Ho (S (List.length o)) [] ltac:(lia)) as (o' & H & Hd).
  cbn [List.length app] in H. rewrite H. exists o'. split; [reflexivity|exact Hd].
Qed.

Lemma DeleteAt_in t o1 c o2 : DeleteAt (Some (Node t (o1 ++ c :: o2))) (Z.of_nat (List.length o1)) = Some (Node t (o1 ++ o2)).
Proof.
  unfold DeleteAt, Len. cbn [out]. rewrite app_length. cbn [List.length].
  replace ((Z.of_nat (List.length o1) <? 0) || (Z.of_nat (List.length o1 + S (List.length o2)) <=? Z.of_nat (List.length o1))) with false by lia.
  rewrite Nat2Z.id, remove_at_app. reflexivity.
Qed.
Lemma DeleteAt_out g i : i < 0 \/ Len g <= i -> DeleteAt g i = g.
Proof. intros H. unfold DeleteAt. replace ((i <? 0) || (Len g <=? i)) with true by lia. reflexivity. Qed.

(** ** Equals *)
Fixpoint equals_list (o co : list (option graph)) : res bool :=
  match o, co with
  | [], _ => Ok true
  | None :: _, _ => Panic
  | Some x :: o', y :: co' => let* b := Equals E x y in if b then equals_list o' co' else Ok false
  | _, [] => Panic
  end.
Lemma Equals_eq t o c : Equals E (Node t o) (Some c) =
  (let* b := iface_eq E (this c) t in
   if negb b then Ok false
   else if negb (List.length o =? List.length (out c))%nat then Ok false
   else equals_list o (out c)).
Proof.
  reflexivity.
Qed.

Lemma all_nodes_inv P g : all_nodes P g -> exists v k, g = Node v (map Some k) /\ P v /\ Forall (all_nodes P) k.
Proof. destruct 1; eauto. Qed.

(** Induction on graphs whose nodes all exist. *)
Lemma all_nodes_ind' (P : value graph -> Prop) (Q : graph -> Prop) :
  (forall v k, P v -> Forall (all_nodes P) k -> Forall Q k -> Q (Node v (map Some k))) ->
  forall g, all_nodes P g -> Q g.
Proof.
  intros HQ. fix IH 2. intros g [v k Hv Hk]. apply HQ; [exact Hv|exact Hk|].
  induction Hk as [|x k Hx _ IHk]; constructor; [apply IH; exact Hx|exact IHk].
Qed.
Lemma same_ind' (Q : graph -> graph -> Prop) :
  (forall v w k l, go_equal v w -> Forall2 same k l -> Forall2 Q k l -> Q (Node v (map Some k)) (Node w (map Some l))) ->
  forall g c, same g c -> Q g c.
Proof.
  intros HQ. fix IH 3. intros g c [v w k l Hv Hk]. apply HQ; [exact Hv|exact Hk|].
  induction Hk as [|x y k l Hx _ IHk]; constructor; [apply IH; exact Hx|exact IHk].
Qed.

Lemma map_Some_inj {A} (k l : list A) : map Some k = map Some l -> k = l.
Proof. revert l; induction k as [|x k IH]; intros [|y l] H; try discriminate H; [reflexivity|]. injection H as -> H. f_equal. apply IH. exact H. Qed.
Lemma same_inv v k w l : same (Node v (map Some k)) (Node w (map Some l)) -> go_equal v w /\ Forall2 same k l.
Proof.
  intros H. remember (Node v (map Some k)) as g eqn:Hg. remember (Node w (map Some l)) as c eqn:Hc.
  destruct H as [v' w' k' l' H1 H2]. injection Hg as -> Hk. injection Hc as -> Hl.
  apply map_Some_inj in Hk. apply map_Some_inj in Hl. subst. auto.
Qed.
Lemma Equals_spec g : all_nodes comparable g -> forall c, all_nodes comparable c ->
  exists b, Equals_ E (Some g) (Some c) = Ok b /\ (b = true <-> same g c).
Proof.
  unfold Equals_. intros H. apply (all_nodes_ind' comparable) with (g := g); [|exact H]. clear g H.
  intros v k Hv _ IH c Hc. destruct (all_nodes_inv _ _ Hc) as (w & l & -> & Hw & Hl).
  rewrite Equals_eq. cbn [this out]. destruct (iface_eq_spec w v Hw Hv) as (b & -> & Hb). cbn [rbind].
  destruct b; cbn [negb]; swap 1 2.
  { exists false. split; [reflexivity|]. split; [discriminate|]. intro H. destruct (same_inv _ _ _ _ H) as [H' _].
    apply go_equal_sym in H'. apply Hb in H'. discriminate. }
  assert (Hvw : go_equal v w) by (apply go_equal_sym; tauto).
  rewrite !map_length. destruct (Nat.eqb_spec (List.length k) (List.length l)) as [He|He]; cbn [negb]; swap 1 2.
  { exists false. split; [reflexivity|]. split; [discriminate|]. intro H. destruct (same_inv _ _ _ _ H) as [_ H'].
    exfalso. apply He. clear - H'. induction H'; cbn; congruence. }
  enough (exists b, equals_list (map Some k) (map Some l) = Ok b /\ (b = true <-> Forall2 same k l)) as (b & Hb1 & Hb2).
  { exists b. split; [exact Hb1|]. rewrite Hb2. split; [intro; constructor; assumption|intro H'; apply (same_inv _ _ _ _ H')]. }
  clear - IH Hl He. revert l Hl He. induction IH as [|x k Hx _ IHk]; intros [|y l] Hl He; try discriminate He; cbn [map equals_list].
  - exists true. split; [reflexivity|]. split; [constructor|reflexivity].
  - inversion Hl as [|? ? Hy Hl']; subst. destruct (Hx y Hy) as (b & -> & Hb). cbn [rbind]. destruct b.
    + injection He as He. destruct (IHk l Hl' He) as (b & -> & Hb'). exists b. split; [reflexivity|]. rewrite Hb'.
      split; [intro; constructor; tauto|now inversion 1].
    + exists false. split; [reflexivity|]. split; [discriminate|]. inversion 1; subst. tauto.
Qed.
Lemma same_refl g : all_nodes (fun v => comparable v /\ not_nan v) g -> same g g.
Proof.
  intros H. apply all_nodes_ind' with (2 := H). intros v k [H1 H2] _ IH. constructor; [apply go_equal_refl; assumption|].
  induction IH; constructor; assumption.
Qed.
Lemma same_sym g c : same g c -> same c g.
Proof.
  intros H. apply same_ind' with (2 := H). intros v w k l Hv _ IH. constructor; [apply go_equal_sym; exact Hv|].
  induction IH; constructor; assumption.
Qed.
Lemma same_trans g c d : same g c -> same c d -> same g d.
Proof.
  intros H. revert d. apply (same_ind' (fun g c => forall d, same c d -> same g d)) with (2 := H). clear g c H. intros v w k l Hv _ IH d Hd.
  remember (Node w (map Some l)) as c eqn:Hc. destruct Hd as [w' u l' m Hw Hm]. injection Hc as -> Hc. apply map_Some_inj in Hc. subst l'.
  constructor; [eapply go_equal_trans; eassumption|]. clear - IH Hm. revert m Hm. induction IH as [|x y k l Hx _ IHk]; intros m Hm; inversion Hm; subst; constructor; auto.
Qed.
Lemma same_eq g c : all_nodes no_float g -> same g c -> g = c.
Proof.
  intros H. revert c. apply all_nodes_ind' with (2 := H). clear g H. intros v k Hv _ IH c Hc.
  remember (Node v (map Some k)) as g eqn:Hg. destruct Hc as [v' w k' l Hw Hk]. injection Hg as -> Hg. apply map_Some_inj in Hg. subst k'.
  rewrite (go_equal_eq _ _ Hv Hw). f_equal. f_equal. clear - IH Hk. revert l Hk. induction IH as [|x k Hx _ IHk]; intros l Hl; inversion Hl; subst; [reflexivity|].
  f_equal; auto.
Qed.

(** ** Copy *)
Fixpoint copies_list (o : list (option graph)) : res (list (option graph)) :=
  match o with
  | [] => Ok []
  | None :: _ => Panic
  | Some n :: o' =>
      let* k := match this n with VNil => Ok [] | _ => copies n end in
      let* r := copies_list o' in
      Ok (match this n with
          | VNil => []
          | VPtr (Some m) => [Some (Node (this m) (out m ++ k))]
          | v => [Some (Node v k)]
          end ++ r)
  end.
Lemma copies_eq t o : copies (Node t o) = copies_list o.
Proof.
  cbn [copies]. induction o as [|[n|] o IH]; [reflexivity| |reflexivity]. cbn [copies_list]. rewrite <- IH. reflexivity.
Qed.
Lemma copies_list_copy k : Forall (all_nodes copyable) k -> Forall (fun n => copies n = Ok (out n)) k ->
  copies_list (map Some k) = Ok (map Some k).
Proof.
  intros Hk IH. revert Hk. induction IH as [|n k Hn _ IHk]; intros Hk; cbn [copies_list map]; [reflexivity|].
  apply Forall_cons_iff in Hk as [Hc Hk]. destruct (all_nodes_inv _ _ Hc) as (w & l & -> & Hw & _). cbn [this out] in *.
  rewrite Hn, (IHk Hk). destruct w as [| | | | | | |[?|]| | |]; try contradiction Hw; reflexivity.
Qed.
Lemma copies_copy c : all_nodes copyable c -> copies c = Ok (out c).
Proof.
  intros H. apply all_nodes_ind' with (2 := H). clear c H. intros v k _ Hk IH. rewrite copies_eq. apply copies_list_copy; assumption.
Qed.
Lemma Copy_spec t o s k : Forall (all_nodes copyable) k ->
  Copy (Some (Node t o)) (Some (Node s (map Some k))) = Ok (Some (Node t (o ++ map Some k))).
Proof.
  intros H. unfold Copy. rewrite copies_eq, copies_list_copy; [reflexivity|exact H|]. clear o. induction H; constructor; [apply copies_copy; assumption|assumption].
Qed.

(** ** Substitute *)
Fixpoint subst_list (s : bytes) (v : value graph) (o : list (option graph)) : res (list (option graph)) :=
  match o with
  | [] => Ok []
  | None :: _ => Panic
  | Some n :: o' =>
      let* x := vstring E (this n) in
      let* n' := Substitute E n s v in
      let* r := subst_list s v o' in
      Ok (Some (if bseq x s then Node v (out n') else n') :: r)
  end.
Lemma Substitute_eq t o s v : Substitute E (Node t o) s v = let* o' := subst_list s v o in Ok (Node t o').
Proof.
  cbn [Substitute].
  match goal with |- rbind (?f o) _ = _ => replace (f o) with (subst_list s v o); [reflexivity|] end.
  induction o as [|[n|] o IH]; [reflexivity| |reflexivity]. cbn [subst_list]. rewrite IH. reflexivity.
Qed.
(** The result, as a function on graphs that print. *)
Definition prints_as (s : bytes) (v : value graph) : bool := match vstring E v with Ok x => bseq x s | _ => false end.
Fixpoint subst_ref (s : bytes) (w : value graph) (g : graph) : graph :=
  match g with
  | Node v o => Node (if prints_as s v then w else v) (map (option_map (subst_ref s w)) o)
  end.
Definition subst_below (s : bytes) (w : value graph) (g : graph) : graph :=
  Node (this g) (map (option_map (subst_ref s w)) (out g)).
Lemma Substitute_ref s w g : whole E g -> Substitute E g s w = Ok (subst_below s w g).
Proof.
  intros H. apply all_nodes_ind' with (2 := H). clear g H. intros v k _ Hk IH. rewrite Substitute_eq. unfold subst_below. cbn [this out].
  enough (subst_list s w (map Some k) = Ok (map (option_map (subst_ref s w)) (map Some k))) as -> by reflexivity.
  revert Hk. induction IH as [|n k Hn _ IHk]; intros Hk; [reflexivity|]. apply Forall_cons_iff in Hk as [Hc Hk].
  destruct (all_nodes_inv _ _ Hc) as (u & l & -> & (x & Hx) & _). cbn [map subst_list this option_map subst_ref]. rewrite Hx, Hn, (IHk Hk). cbn [rbind].
  unfold prints_as. rewrite Hx. unfold subst_below. cbn [this out]. destruct (bseq x s); reflexivity.
Qed.
Lemma node_at_ref s w p : forall g n, node_at g p = Some n -> node_at (subst_ref s w g) p = Some (subst_ref s w n).
Proof.
  induction p as [|i p IH]; intros [v o] n H; cbn [node_at] in *; [injection H as <-; reflexivity|].
  cbn [subst_ref out] in *. rewrite nth_error_map. destruct (nth_error o i) as [[c|]|]; try discriminate H. cbn [option_map]. apply IH. exact H.
Qed.
Lemma node_at_ref_none s w p : forall g, node_at g p = None -> node_at (subst_ref s w g) p = None.
Proof.
  induction p as [|i p IH]; intros [v o] H; cbn [node_at] in *; [discriminate|].
  cbn [subst_ref out] in *. rewrite nth_error_map. destruct (nth_error o i) as [[c|]|]; try reflexivity. cbn [option_map]. apply IH. exact H.
Qed.
Lemma Substitute_spec g s w : whole E g ->
  exists g', Substitute E g s w = Ok g' /\ this g' = this g /\ List.length (out g') = List.length (out g) /\
    forall i p, match node_at g (i :: p) with
                | None => node_at g' (i :: p) = None
                | Some n => exists n', node_at g' (i :: p) = Some n' /\ List.length (out n') = List.length (out n) /\
                    (vstring E (this n) = Ok s -> this n' = w) /\ (vstring E (this n) <> Ok s -> this n' = this n)
                end.
Proof.
  intros H. exists (subst_below s w g). split; [apply Substitute_ref; exact H|]. split; [reflexivity|].
  split; [destruct g; cbn; apply map_length|]. intros i p. cbn [node_at subst_below out]. rewrite nth_error_map.
  destruct (nth_error (out g) i) as [[c|]|]; cbn [option_map]; try reflexivity.
  destruct (node_at c p) as [n|] eqn:Hn; [|apply node_at_ref_none; exact Hn].
  exists (subst_ref s w n). split; [apply node_at_ref; exact Hn|]. destruct n as [v o]. cbn [subst_ref out this]. split; [apply map_length|].
  unfold prints_as. split.
  - intros ->. rewrite bseq_refl. reflexivity.
  - intros Hne. destruct (vstring E v) as [x| |]; try reflexivity. destruct (bseq_spec x s) as [->|]; [contradiction|reflexivity].
Qed.
Lemma Forall_map_Some {A} (P : A -> Prop) (k : list A) (f : A -> A) :
  map (option_map f) (map Some k) = map Some (map f k).
Proof. rewrite !map_map. reflexivity. Qed.
Lemma subst_ref_whole s w g : (exists x, vstring E w = Ok x) -> whole E g -> whole E (subst_ref s w g).
Proof.
  intros Hw H. apply all_nodes_ind' with (2 := H). clear g H. intros v k Hv _ IH. cbn [subst_ref]. rewrite (Forall_map_Some (fun _ => True)).
  constructor; [destruct (prints_as s v); assumption|]. induction IH; constructor; assumption.
Qed.
Lemma subst_below_whole s w g : (exists x, vstring E w = Ok x) -> whole E g -> whole E (subst_below s w g).
Proof.
  intros Hw H. destruct (all_nodes_inv _ _ H) as (v & k & -> & Hv & Hk). unfold subst_below. cbn [this out]. rewrite (Forall_map_Some (fun _ => True)).
  constructor; [exact Hv|]. clear H. induction Hk; constructor; [apply subst_ref_whole; assumption|assumption].
Qed.
Lemma subst_ref_idem s w g : subst_ref s w (subst_ref s w g) = subst_ref s w g.
Proof.
  induction g as [v o _ IH] using graph_ind'. cbn [subst_ref]. f_equal.
  - destruct (prints_as s v) eqn:Hv; [destruct (prints_as s w); reflexivity|rewrite Hv; reflexivity].
  - rewrite map_map. induction IH as [|[c|] o Hc _ IHo]; cbn [map option_map]; [reflexivity| |]; rewrite IHo; [cbn in Hc; rewrite Hc|]; reflexivity.
Qed.
Lemma Substitute_idem g g' s w : whole E g -> (exists x, vstring E w = Ok x) ->
  Substitute E g s w = Ok g' -> Substitute E g' s w = Ok g'.
Proof.
  intros H Hw Hs. rewrite (Substitute_ref s w g H) in Hs. injection Hs as <-.
  rewrite Substitute_ref by (apply subst_below_whole; assumption). f_equal. unfold subst_below. cbn [this out]. f_equal. rewrite map_map.
  apply map_ext. intros [c|]; cbn [option_map]; [|reflexivity]. rewrite subst_ref_idem. reflexivity.
Qed.

(** ** Merge *)
Fixpoint merge_list (so : list (option graph)) (g : graph) : res graph :=
  match so with
  | [] => Ok g
  | node :: so' =>
      let* s := String_ E node in
      let* i := find_child E s (out g) in
      match i with
      | None => merge_list so' (Node (this g) (out g ++ add_out (VPtr node)))
      | Some i =>
          match child (out g) i with
          | None => Panic
          | Some n =>
              let* n' := match node with None => Panic | Some node => Merge E node (Node (this n) []) end in
              merge_list so' (Node (this g) (set_nth i (Some n') (out g)))
          end
      end
  end.
Lemma Merge_eq t so g : Merge E (Node t so) g = merge_list so g.
Proof. reflexivity. Qed.
Lemma no_match_app k o o' : no_match E k o -> no_match E k o' -> no_match E k (o ++ o').
Proof.
  unfold no_match. rewrite !Forall_forall. intros H1 H2 x Hx. destruct (H1 x Hx) as (s & Hs & Ho). destruct (H2 x Hx) as (s' & Hs' & Ho').
  rewrite Hs in Hs'. injection Hs' as <-. exists s. split; [exact Hs|]. apply Forall_app. auto.
Qed.
Lemma Merge_append t k : forall g, printable E (out g) -> printable E (map Some k) -> no_match E k (out g) -> no_match E k (map Some k) ->
  Merge E (Node t (map Some k)) g = Ok (Node (this g) (out g ++ map Some k)).
Proof.
  intros g Hp Hk Hg Hkk. rewrite Merge_eq.
  enough (H : forall k' g, printable E (out g) -> printable E (map Some k') -> no_match E k' (out g) -> no_match E k' (map Some k') ->
    merge_list (map Some k') g = Ok (Node (this g) (out g ++ map Some k'))) by (apply H; assumption).
  clear. intros k. induction k as [|n k IH]; intros g Hp Hk Hg Hkk; cbn [map merge_list].
  - rewrite app_nil_r. destruct g; reflexivity.
  - inversion Hg as [|? ? (s & Hs & Ho) Hg']; subst. rewrite Hs. cbn [rbind]. rewrite (find_child_none s _ Ho Hp). cbn [rbind add_out].
    cbn [map] in Hk. inversion Hk as [|? ? Hn Hk']; subst. inversion Hkk as [|? ? (s' & Hs' & Hno) Hkk']; subst.
    rewrite IH; cbn [this out].
    + rewrite <- app_assoc. reflexivity.
    + apply Forall_app. split; [exact Hp|]. constructor; [exact Hn|constructor].
    + exact Hk'.
    + apply no_match_app; [exact Hg'|]. clear - Hkk'. unfold no_match in *. rewrite Forall_forall in *. intros x Hx. destruct (Hkk' x Hx) as (s & Hs & H).
      exists s. split; [exact Hs|]. cbn [map] in H. inversion H; subst. constructor; [assumption|constructor].
    + clear - Hkk'. unfold no_match in *. rewrite Forall_forall in *. intros x Hx. destruct (Hkk' x Hx) as (s & Hs & H).
      exists s. split; [exact Hs|]. cbn [map] in H. inversion H; subst. assumption.
Qed.
Lemma Merge_replace t g node k i m : printable E (out g) -> out node = map Some k -> printable E (map Some k) -> no_match E k (map Some k) ->
  forall s, String_ E (Some node) = Ok s -> first_named E s (out g) i m ->
  Merge E (Node t [Some node]) g = Ok (Node (this g) (set_nth i (Some (Node (this m) (out node))) (out g))).
Proof.
  intros Hp Hn Hk Hm s Hs Hf. rewrite Merge_eq. cbn [merge_list]. rewrite Hs. cbn [rbind]. rewrite (find_child_some s _ i m Hf Hp). cbn [rbind].
  destruct Hf as (H1 & _). unfold child. rewrite H1. destruct node as [v o]. cbn [out] in Hn. subst o.
  rewrite Merge_append; [reflexivity|constructor|exact Hk| |exact Hm]. cbn [out].
  clear - Hm. unfold no_match in *. rewrite Forall_forall in *. intros x Hx. destruct (Hm x Hx) as (s & Hs & _). exists s. split; [exact Hs|constructor].
Qed.
End F.
