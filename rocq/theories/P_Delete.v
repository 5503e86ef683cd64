(** C98: several deletions, and deletions after additions. *)
From Verif Require Import Base Value Graph GraphSpec GraphFacts Samples P_Graph.
From Coq Require Import SpecFloat.

(** No child is missing and the contents of all are of comparable types. *)
Definition kids (o : list (option graph)) : Prop := Forall (fun c => exists m, c = Some m /\ comparable (this m)) o.
(** No child has a content equal to n. *)
Definition lacks (n : value graph) (o : list (option graph)) : Prop := forall m, In (Some m) o -> ~ go_equal (this m) n.

Lemma deleted_kids n o o' : deleted n o o' -> kids o -> kids o'.
Proof. induction 1; intros H1; [constructor|apply IHdeleted; inversion H1; assumption|inversion H1; subst; constructor; [assumption|apply IHdeleted; assumption]]. Qed.
Lemma deleted_lacks n o o' : deleted n o o' -> lacks n o'.
Proof. induction 1; [intros m []|exact IHdeleted|]. intros m [[= <-]|Hm]; [assumption|]. apply IHdeleted, Hm. Qed.
Lemma deleted_in n o o' : deleted n o o' -> forall c, In c o' -> In c o.
Proof. induction 1; intros d Hd; [exact Hd|right; auto|]. destruct Hd as [<-|Hd]; [left; reflexivity|right; auto]. Qed.
Lemma lacks_deleted n o : kids o -> lacks n o -> deleted n o o.
Proof.
  induction 1 as [|c o (m & -> & Hm) Hk IH]; intros Hl; [constructor|]. apply del_keep; [apply Hl; left; reflexivity|]. apply IH. intros x Hx. apply Hl. right. exact Hx.
Qed.
Lemma deleted_app n o1 o1' o2 o2' : deleted n o1 o1' -> deleted n o2 o2' -> deleted n (o1 ++ o2) (o1' ++ o2').
Proof. induction 1; intros H2; cbn [app]; [exact H2|apply del_drop; auto|apply del_keep; auto]. Qed.
Lemma Delete_is E t o n o' : comparable n -> kids o -> deleted n o o' -> Delete E (Some (Node t o)) n = Ok (Some (Node t o')).
Proof. intros Hn Hk Hd. destruct (C25_delete_partial E t o n Hn Hk) as (o1 & H & H1). rewrite H. rewrite (C25_deleted_unique n o o1 o' H1 Hd). reflexivity. Qed.
Lemma deleted_commute n m o o1 : deleted n o o1 -> forall o2, deleted m o o2 -> forall o12, deleted m o1 o12 -> deleted n o2 o12.
Proof.
  induction 1 as [|c o o1 Hc _ IH|c o o1 Hc _ IH]; intros o2 H2 o12 H12.
  - inversion H2; subst. inversion H12; subst. constructor.
  - inversion H2; subst; [eapply IH; eassumption|]. apply del_drop; [exact Hc|]. eapply IH; eassumption.
  - inversion H2; subst; inversion H12; subst; try contradiction; [eapply IH; eassumption|]. apply del_keep; [exact Hc|]. eapply IH; eassumption.
Qed.

(** ** C98 Deleting again changes nothing, and the order of deletions does not matter. *)
Theorem C98_again : forall E t o n g, comparable n -> kids o -> Delete E (Some (Node t o)) n = Ok g -> Delete E g n = Ok g.
Proof.
  intros E t o n g Hn Hk H. destruct (C25_delete_partial E t o n Hn Hk) as (o' & H' & Hd). rewrite H' in H. injection H as <-.
  apply Delete_is; [exact Hn|exact (deleted_kids _ _ _ Hd Hk)|]. apply lacks_deleted; [exact (deleted_kids _ _ _ Hd Hk)|exact (deleted_lacks _ _ _ Hd)].
Qed.
Print Assumptions C98_again.
Theorem C98_commute : forall E t o n m g1 g2, comparable n -> comparable m -> kids o -> Delete E (Some (Node t o)) n = Ok g1 -> Delete E (Some (Node t o)) m = Ok g2 ->
  exists g', Delete E g1 m = Ok g' /\ Delete E g2 n = Ok g'.
Proof.
  intros E t o n m g1 g2 Hn Hm Hk H1 H2. destruct (C25_delete_partial E t o n Hn Hk) as (o1 & E1 & D1). destruct (C25_delete_partial E t o m Hm Hk) as (o2 & E2 & D2).
  rewrite E1 in H1. injection H1 as <-. rewrite E2 in H2. injection H2 as <-. assert (K1 := deleted_kids _ _ _ D1 Hk). assert (K2 := deleted_kids _ _ _ D2 Hk).
  destruct (C25_delete_partial E t o1 m Hm K1) as (o12 & E12 & D12). exists (Some (Node t o12)). split; [exact E12|]. apply Delete_is; auto. eapply deleted_commute; eassumption.
Qed.
Print Assumptions C98_commute.
(** What has been deleted is not found. *)
Theorem C98_not_found : forall E t o s g, kids o -> (forall m, In (Some m) o -> exists x, this m = VStr x) -> Delete E (Some (Node t o)) (VStr s) = Ok g -> Node_ E g s = Ok None.
Proof.
  intros E t o s g Hk Hs H. destruct (C25_delete_partial E t o (VStr s) I Hk) as (o' & H' & Hd). rewrite H' in H. injection H as <-.
  assert (Hs' : forall c, In c o' -> exists m x, c = Some m /\ this m = VStr x /\ x <> s).
  { intros c Hc. assert (K := deleted_kids _ _ _ Hd Hk). unfold kids in K. rewrite Forall_forall in K. destruct (K c Hc) as (m & -> & _). destruct (Hs m (deleted_in _ _ _ Hd _ Hc)) as (x & Hx).
    exists m, x. split; [reflexivity|]. split; [exact Hx|]. intros ->. apply (deleted_lacks _ _ _ Hd m Hc). rewrite Hx. constructor. }
  destruct (C24_node_partial E t o' s) as (r & -> & Hr).
  - apply Forall_forall. intros c Hc. destruct (Hs' c Hc) as (m & x & -> & Hx & _). exists x, m. rewrite Hx. split; reflexivity.
  - destruct r as [m|]; [|reflexivity]. destruct Hr as (i & Hi & (m' & [= <-] & Hv) & _). apply nth_error_In in Hi. destruct (Hs' _ Hi) as (m' & x & [= <-] & Hx & Hne). rewrite Hx in Hv. cbn in Hv. congruence.
Qed.
Print Assumptions C98_not_found.
(** Delete undoes Add, if no child had the content before. *)
Theorem C98_add : forall E t o n, comparable n -> not_nan n -> n <> VNil -> kids o -> lacks n o -> Delete E (fst (Add (Some (Node t o)) n)) n = Ok (Some (Node t o)).
Proof.
  intros E t o n Hn Hnan Hnil Hk Hl. cbn [Add fst]. assert (Ha : add_out n = [Some (New n)]) by (destruct n as [| | | | | | |[c|]| | |]; try reflexivity; contradiction).
  rewrite Ha. apply Delete_is; [exact Hn|apply Forall_app; split; [exact Hk|constructor; [exists (New n); split; [reflexivity|exact Hn]|constructor]]|].
  rewrite <- (app_nil_r o) at 2. apply deleted_app; [apply lacks_deleted; assumption|]. apply del_drop; [apply go_equal_refl; assumption|constructor].
Qed.
Print Assumptions C98_add.
(** Two children deleted by their indexes, in either order. *)
Theorem C98_at : forall g i j, 0 <= i < j -> j < Len g -> DeleteAt (DeleteAt g j) i = DeleteAt (DeleteAt g i) (j - 1).
Proof.
  intros [[t o]|] i j Hi Hj; [|cbn in Hj; lia]. unfold Len in Hj. cbn in Hj.
  assert (exists o1 a o2 b o3, o = o1 ++ a :: o2 ++ b :: o3 /\ Z.of_nat (List.length o1) = i /\ Z.of_nat (List.length o1 + S (List.length o2)) = j) as (o1 & a & o2 & b & o3 & -> & <- & <-).
  { destruct (nth_error o (Z.to_nat i)) as [a|] eqn:Ha; [|apply nth_error_None in Ha; lia]. apply nth_error_split in Ha as (o1 & r & -> & H1).
    rewrite app_length in Hj. cbn [List.length] in Hj.
    destruct (nth_error r (Z.to_nat (j - i - 1))) as [b|] eqn:Hb; [|apply nth_error_None in Hb; lia]. apply nth_error_split in Hb as (o2 & o3 & -> & H2).
    exists o1, a, o2, b, o3. split; [reflexivity|]. lia. }
  assert (H : DeleteAt (Some (Node t (o1 ++ a :: o2 ++ b :: o3))) (Z.of_nat (List.length o1 + S (List.length o2))) = Some (Node t (o1 ++ a :: o2 ++ o3))).
  { replace (o1 ++ a :: o2 ++ b :: o3) with ((o1 ++ a :: o2) ++ b :: o3) by (rewrite <- app_assoc; reflexivity).
    replace (List.length o1 + S (List.length o2))%nat with (List.length (o1 ++ a :: o2)) by (rewrite app_length; reflexivity). rewrite C25_delete_at, <- app_assoc. reflexivity. }
  rewrite H, !C25_delete_at. replace (Z.of_nat (List.length o1 + S (List.length o2)) - 1) with (Z.of_nat (List.length (o1 ++ o2))) by (rewrite app_length; lia).
  rewrite (app_assoc o1 o2 (b :: o3)), C25_delete_at, <- app_assoc. reflexivity.
Qed.
Print Assumptions C98_at.
(** Not in general: a not-a-number is not equal to itself, so that Delete does not find it; what prints alike may be found by Node and
    not by Delete. *)
Theorem C98_add_refuted : exists E t o n, comparable n /\ n <> VNil /\ kids o /\ lacks n o /\ Delete E (fst (Add (Some (Node t o)) n)) n <> Ok (Some (Node t o)).
Proof.
  exists env0, VNil, [], (VF64 S754_nan). split; [exact I|]. split; [discriminate|]. split; [constructor|]. split; [intros m []|]. vm_compute. discriminate.
Qed.
Print Assumptions C98_add_refuted.
Theorem C98_not_found_refuted : exists E t o s g n, kids o /\ Delete E (Some (Node t o)) (VStr s) = Ok g /\ Node_ E g s = Ok (Some n).
Proof.
  exists env0, VNil, [Some (Node (VInt KInt 7) [])], (bs "7"). do 2 eexists. split; [constructor; [eexists; split; [reflexivity|exact I]|constructor]|]. split; [vm_compute; reflexivity|]. vm_compute. reflexivity.
Qed.
Print Assumptions C98_not_found_refuted.

Definition ex_kids : list (option graph) := map Some [nd "a" [nd "1" []]; nd "b" []; nd "a" []; nd "c" []].
Example C98_ex : kids ex_kids /\ (forall m, In (Some m) ex_kids -> exists x, this m = VStr x) /\ lacks (VStr (bs "d")) ex_kids /\
  Delete env0 (Some (Node VNil ex_kids)) (VStr (bs "a")) = Ok (Some (Node VNil (map Some [nd "b" []; nd "c" []]))) /\ DeleteAt (DeleteAt (Some (Node VNil ex_kids)) 2) 0 = Some (Node VNil (map Some [nd "b" []; nd "c" []])).
Proof.
  split; [repeat (constructor; [eexists; split; [reflexivity|exact I]|]); constructor|]. split; [intros m Hm; repeat (destruct Hm as [[= <-]|Hm]; [eexists; reflexivity|]); destruct Hm|].
  split; [intros m Hm; repeat (destruct Hm as [[= <-]|Hm]; [inversion 1|]); destruct Hm|]. split; vm_compute; reflexivity.
Qed.
