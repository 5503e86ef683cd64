(** Property C53: schema checking. *)
From Verif Require Import Base Value Graph Schema SchemaSpec SchemaFacts TypesSpec Samples.

(** ** C53 Check accepts exactly the graphs that contain what the schema demands.  Full claim:
    every schema and graph.  Proved for schemas whose texts are not empty and do not ask for
    !binary, and for graphs whose contents are neither nil nor pointers to graphs; the
    theorems marked refuted below show what happens outside. *)
Theorem C53_check_partial : forall E g x, Forall (usable E) (out g) -> Forall filled (out x) ->
  exists b m, Check E (Some g) (Some x) = Ok (b, m) /\ (b = true <-> conforms E (out g) (out x)).
Proof.
  intros E [vg gs] [vx xs] Hg Hx. cbn [out] in *.
  assert (H : answers E gs xs (Check E (Some (Node vg gs)) (Some (Node vx xs)))).
  { apply (check_answers E (Node (VStr (bs "s")) gs)) with (x := Node (VStr []) xs).
    - apply (us_some E _ _ (bs "s")); [reflexivity|discriminate|discriminate|exact Hg].
    - constructor; [exact I|exact Hx]. }
  destruct H as [[-> Hc]|(w & y & -> & Hm)]; do 2 eexists; (split; [reflexivity|]).
  - tauto.
  - split; [discriminate|]. intros Hc. exfalso. exact (misfit_not E _ _ _ _ Hm Hc).
Qed.
Print Assumptions C53_check_partial.
(** The message names the first position that does not conform: what is wanted and what is
    there. *)
Theorem C53_message_partial : forall E g x m, Forall (usable E) (out g) -> Forall filled (out x) ->
  Check E (Some g) (Some x) = Ok (false, m) ->
  exists w y, misfit E (out g) (out x) w y /\ m = bs "want " ++ w ++ bs ", got " ++ y.
Proof.
  intros E [vg gs] [vx xs] m Hg Hx Hm. cbn [out] in *.
  assert (H : answers E gs xs (Check E (Some (Node vg gs)) (Some (Node vx xs)))).
  { apply (check_answers E (Node (VStr (bs "s")) gs)) with (x := Node (VStr []) xs).
    - apply (us_some E _ _ (bs "s")); [reflexivity|discriminate|discriminate|exact Hg].
    - constructor; [exact I|exact Hx]. }
  rewrite Hm in H. destruct H as [[H _]|(w & y & H & Hmi)]; [discriminate|]. injection H as ->. exists w, y. auto.
Qed.
Print Assumptions C53_message_partial.
(** Conforming is about the leading children only: more children, at any place, do not matter. *)
Theorem C53_extra : forall E gs xs ys, conforms E gs xs -> conforms E gs (xs ++ ys).
Proof.
  intros E gs xs ys H. induction H as [xs|gs xs H IH|g gs x xs sc Hg Hs Hk _ H IH].
  - constructor.
  - constructor. destruct xs as [|x xs]; [|exact IH]. cbn in *. destruct ys as [|y ys]; [exact H|]. cbn.
    clear -H. remember (@nil (option graph)) as z eqn:Hz. revert ys. induction H as [xs|gs xs H IH|]; intros ys; [constructor| |discriminate].
    subst xs. constructor. cbn in *. destruct ys as [|y ys]; [exact H|]. exact (IH eq_refl ys).
  - cbn [app]. econstructor; eauto.
Qed.
Print Assumptions C53_extra.
Definition ex_schema : graph := nd "_" [nd "name" [nd "!string" []]; nd "age" [nd "!int" []]].
Example C53_ex : let x := nd "_" [nd "name" [nd "Ann" [nd "more" []]]; nd "age" [nd "41" []]; nd "other" []] in
  let y := nd "_" [nd "name" [nd "Ann" []]; nd "age" [nd "old" []]] in
  Forall (usable env0) (out ex_schema) /\ Forall filled (out x) /\ Forall filled (out y) /\
  Check env0 (Some ex_schema) (Some x) = Ok (true, []) /\
  Check env0 (Some ex_schema) (Some y) = Ok (false, bs "want !int, got old").
Proof.
  cbv zeta. split; [|split; [|split; [|split; reflexivity]]].
  - repeat (constructor; try (econstructor; [reflexivity|discriminate|discriminate|])).
  - repeat (constructor; try exact I).
  - repeat (constructor; try exact I).
Qed.

(** A !binary schema refuses byte slices, which is what it is there to accept. *)
Theorem C53_binary_refuted : exists E g x, conforms E (out g) (out x) /\ exists m, Check E (Some g) (Some x) = Ok (false, m).
Proof.
  exists env0, (nd "_" [nd "!binary" []]), (Node (VStr (bs "_")) [Some (Node (VBytes (bs "ab")) [])]). split.
  - apply (co_cons env0 (nd "!binary" []) [] (Node (VBytes (bs "ab")) []) [] (bs "!binary") eq_refl (su_binary _ _)); constructor.
  - eexists. reflexivity.
Qed.
Print Assumptions C53_binary_refuted.
(** No content whatever is accepted by it. *)
Theorem C53_binary : forall E g v xs, vstring E (this g) = Ok (bs "!binary") -> forall k,
  match Check E (Some (Node v [Some g])) (Some (Node v (Some xs :: k))) with Ok (b, _) => b = false | _ => True end.
Proof.
  intros E g v xs Hg k. unfold Check, check. cbn [GetAt List.length]. unfold orb.
  replace (Z.of_nat (S (List.length k)) <=? 0) with false by lia. replace (0 <? 0) with false by reflexivity.
  cbn [child nth Z.to_nat rbind]. cbn. destruct (vstring E (this xs)) as [sx| |] eqn:Hs; cbn [rbind]; [|exact I..].
  rewrite Hg. cbn [rbind]. destruct (this xs); cbn [ThisType rbind]; try exact I; cbn; reflexivity.
Qed.
Print Assumptions C53_binary.
(** Check panics instead of answering: on an empty text in the schema, on a node without a
    content in the graph, and on a nil graph. *)
Theorem C53_panics_refuted :
  (forall E v g x k w l, vstring E (this g) = Ok [] -> (exists s, vstring E (this x) = Ok s) ->
     Check E (Some (Node v (Some g :: k))) (Some (Node w (Some x :: l))) = Panic) /\
  (forall E v g x k w l s, vstring E (this g) = Ok s -> this x = VNil ->
     Check E (Some (Node v (Some g :: k))) (Some (Node w (Some x :: l))) = Panic) /\
  (forall E v g k, Check E (Some (Node v (g :: k))) None = Panic).
Proof.
  split; [|split].
  - intros E v g x k w l Hg [s Hs]. unfold Check, check. cbn [GetAt List.length].
    replace (Z.of_nat (S (List.length l)) <=? 0) with false by lia. cbn. rewrite Hs. cbn [rbind]. rewrite Hg. cbn [rbind].
    destruct (ThisType (this x)) eqn:Ht; cbn [rbind]; try reflexivity. destruct (this x); discriminate.
  - intros E v g x k w l s Hg Hx. unfold Check, check. cbn [GetAt List.length].
    replace (Z.of_nat (S (List.length l)) <=? 0) with false by lia. cbn. rewrite Hx. cbn. rewrite Hg. reflexivity.
  - reflexivity.
Qed.
Print Assumptions C53_panics_refuted.
