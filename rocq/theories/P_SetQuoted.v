(** C31, C32, C35: Set and Get at paths with quoted names. *)
From Verif Require Import Base Value Graph GraphSpec GraphFacts TextSpec PathSpec PathParser PathFacts TypesFacts NumFacts Eval AccessSpec AccessFacts Samples P_Access.

(** The elements are names, quoted or not: these ones. *)
Definition spells (es : list elem) (ps : list bytes) : Prop := map key es = map Some ps.

Lemma spells_cons e es ps : spells (e :: es) ps -> exists s qs, ps = s :: qs /\ key e = Some s /\ spells es qs.
Proof. unfold spells. destruct ps as [|s ps]; [discriminate|]. cbn [map]. intros H. injection H as H1 H2. eauto. Qed.
Lemma spells_forest es : forall ps, spells es ps -> gforest (map elem_tree es) = gforest (map elem_tree (map Name ps)).
Proof.
  induction es as [|e es IH]; intros ps H; [destruct ps; [reflexivity|discriminate]|]. apply spells_cons in H. destruct H as (s & qs & -> & Hk & H). cbn [map]. specialize (IH qs H). unfold gforest in *. cbn [map].
  rewrite IH. destruct e; cbn in Hk; try discriminate; injection Hk as ->; reflexivity.
Qed.
Lemma spells_nonempty es ps : spells es ps -> es <> [] -> ps <> [].
Proof. intros H Hn ->. destruct es; [congruence|discriminate]. Qed.
Lemma spells_index E es ps : spells es ps -> Forall (elem_ok E) es -> Forall unmarked es -> Forall (fun s => bseq s TypeIndex = false) ps.
Proof.
  intros H Ho. revert ps H. induction Ho as [|e es He _ IH]; intros ps H Hu; [destruct ps; [constructor|discriminate]|]. apply spells_cons in H. destruct H as (s & qs & -> & Hk & H).
  inversion Hu as [|? ? Hu1 Hu2]; subst. constructor; [|apply IH; assumption]. destruct (key_unmarked E e s He Hu1 Hk) as [Hm _]. unfold marked in Hm. rewrite !orb_false_iff in Hm. apply Hm.
Qed.
Lemma spells_cwalk E es g n : forall ps, spells es ps -> cwalk E (map Name ps) g n -> cwalk E es g n.
Proof.
  revert g. induction es as [|e es IH]; intros g ps H Hw; [destruct ps; [exact Hw|discriminate]|]. apply spells_cons in H. destruct H as (s & qs & -> & Hk & H).
  cbn [map] in Hw. inversion Hw as [|? s' ? ? i c ? Hk' Hf Hn Hr|]; subst. injection Hk' as <-. eapply cwalk_key; eauto.
Qed.
Lemma cwalk_spells E es g n : forall ps, spells es ps -> cwalk E es g n -> cwalk E (map Name ps) g n.
Proof.
  revert g. induction es as [|e es IH]; intros g ps H Hw; [destruct ps; [exact Hw|discriminate]|]. apply spells_cons in H. destruct H as (s & qs & -> & Hk & H).
  cbn [map]. inversion Hw as [|? s' ? ? i c ? Hk' Hf Hn Hr|]; subst; [|discriminate]. rewrite Hk in Hk'. injection Hk' as <-. eapply cwalk_key; eauto. reflexivity.
Qed.
Lemma spells_clost E es g : forall ps, spells es ps -> clost E (map Name ps) g -> clost E es g.
Proof.
  revert g. induction es as [|e es IH]; intros g ps H Hw; [destruct ps; [inversion Hw|discriminate]|]. apply spells_cons in H. destruct H as (s & qs & -> & Hk & H).
  cbn [map] in Hw. inversion Hw as [? s' ? ? Hk' Hf Hh|? s' ? ? i c Hk' Hf Hn Hr|]; subst; injection Hk' as <-; [eapply clost_here|eapply clost_key]; eauto.
Qed.
Lemma clost_spells E es g : forall ps, spells es ps -> clost E es g -> clost E (map Name ps) g.
Proof.
  revert g. induction es as [|e es IH]; intros g ps H Hw; [inversion Hw|]. apply spells_cons in H. destruct H as (s & qs & -> & Hk & H).
  cbn [map]. inversion Hw as [? s' ? ? Hk' Hf Hh|? s' ? ? i c Hk' Hf Hn Hr|]; subst; try discriminate; rewrite Hk in Hk'; injection Hk' as <-; [eapply clost_here|eapply clost_key]; eauto; reflexivity.
Qed.

(** As in AccessFacts.v, for any texts that are not the mark of an index *)
Section S.
Variable E : env.
Variable R : graph -> graph -> Prop.
Variable tl : list (option graph).
Variable v : value graph.
Hypothesis tl_els : forall n, exists n' r, set_els E tl n v = Ok (n', r) /\ R n n'.
Hypothesis tl_new : forall n, exists n' r, set_new E tl n v = Ok (n', r) /\ R n n'.
Lemma new_changed ps : Forall (fun s => bseq s TypeIndex = false) ps -> forall g, (forall s, none_named E s (out g)) \/ ps = [] ->
  exists g' r, set_new E (gforest (map elem_tree (map Name ps)) ++ tl) g v = Ok (g', r) /\ changed E R ps g g'.
Proof.
  induction 1 as [|s ps Hs Hps IH]; intros g Hg.
  - destruct (tl_new g) as (n' & r & H & HR). exists n', r. split; [exact H|constructor; exact HR].
  - cbn [map gforest app elem_tree gtree set_new]. cbn [ThisString this vstring sstring rbind]. rewrite Hs. cbn [add_ret].
    destruct (IH (New (VStr s)) ltac:(left; intros; constructor)) as (c' & r & H & HR). unfold gforest in H. rewrite H. cbn [rbind].
    exists (Node (this g) (out g ++ [Some c'])), r. split; [reflexivity|]. destruct g as [t o]. cbn [this out]. apply changed_new; [|exact HR].
    destruct Hg as [Hg|Hg]; [apply Hg|discriminate].
Qed.
Lemma new_changed1 s ps g : Forall (fun s => bseq s TypeIndex = false) (s :: ps) -> none_named E s (out g) ->
  exists g' r, set_new E (gforest (map elem_tree (map Name (s :: ps))) ++ tl) g v = Ok (g', r) /\ changed E R (s :: ps) g g'.
Proof.
  intros Hps Hn. inversion Hps as [|? ? Hs Hps']; subst. cbn [map gforest app elem_tree gtree set_new]. cbn [ThisString this vstring sstring rbind]. rewrite Hs. cbn [add_ret].
  destruct (new_changed ps Hps' (New (VStr s)) ltac:(left; intros; constructor)) as (c' & r & H & HR). unfold gforest in H. rewrite H. cbn [rbind].
  exists (Node (this g) (out g ++ [Some c'])), r. split; [reflexivity|]. destruct g as [t o]. cbn [this out]. apply changed_new; assumption.
Qed.
Lemma els_changed ps : Forall (fun s => bseq s TypeIndex = false) ps -> forall g, whole E g ->
  exists g' r, set_els E (gforest (map elem_tree (map Name ps)) ++ tl) g v = Ok (g', r) /\ changed E R ps g g'.
Proof.
  induction 1 as [|s ps Hs Hps IH]; intros g Hg.
  - destruct (tl_els g) as (n' & r & H & HR). exists n', r. split; [exact H|constructor; exact HR].
  - change (gforest (map elem_tree (map Name (s :: ps))) ++ tl) with (Some (Node (VStr s) []) :: gforest (map elem_tree (map Name ps)) ++ tl).
    cbn [set_els]. cbn [ThisString this vstring sstring rbind]. rewrite Hs.
    destruct (whole_inv E g Hg) as (k & _ & Hp & _). destruct (find_child_spec E s (out g) Hp) as [[-> Hn]|(i & c & -> & Hf)]; cbn [rbind].
    + apply (new_changed1 s ps g); [constructor; assumption|exact Hn].
    + pose proof Hf as (Hi & _). unfold child. rewrite Hi. destruct (IH c (all_nodes_child _ _ _ _ Hg Hi)) as (c' & r & H & HR). rewrite H. cbn [rbind].
      eexists; eexists; split; [reflexivity|]. destruct g as [t o]. cbn [this out] in *. eapply changed_found; [exact Hf|exact HR| | |].
      * apply set_nth_length.
      * apply nth_set_nth_eq. apply nth_error_Some. congruence.
      * intros j Hj. apply nth_set_nth_ne. congruence.
Qed.
End S.
Lemma Set_spelled E es ps f g v : Forall (elem_ok E) es -> Forall unmarked es -> es <> [] -> spells es ps -> fits f (path_text es) -> whole E g ->
  exists g' r, Set_ E f (Some g) (path_text es) v = Ok (Some g', r) /\ changed E (replaced v) ps g g'.
Proof.
  intros Ho Hu Hn Hs Hf Hg. rewrite Set_eq by assumption. rewrite (spells_forest es ps Hs).
  destruct (els_changed E (replaced v) [] v) with (ps := ps) (g := g) as (g' & r & H & HR); try assumption.
  1,2: intros n; cbn [set_els set_new set_here]; eexists; eexists; split; [reflexivity|split; reflexivity].
  { eapply spells_index; eassumption. }
  rewrite app_nil_r in H. rewrite H. exists g', r. split; [reflexivity|exact HR].
Qed.

(** ** C31: after Set, Get of the same names, quoted or not, gives what was stored. *)
Theorem C31_quoted_partial : forall E C es es' ps f f' g v, Forall (elem_ok E) es -> Forall unmarked es -> Forall (elem_ok E) es' -> Forall unmarked es' ->
  es <> [] -> spells es ps -> spells es' ps -> fits f (path_text es) -> fits f' (path_text es') -> whole E g ->
  exists g' r n, Set_ E f (Some g) (path_text es) v = Ok (Some g', r) /\ Get E C f' (Some g') (path_text es') = Ok (Some g', Some n) /\
    out n = match v with VNil => [] | VPtr (Some c) => out c | _ => [Some (Node v [])] end.
Proof.
  intros E C es es' ps f f' g v Ho Hu Ho' Hu' Hn Hs Hs' Hf Hf' Hg. destruct (Set_spelled E es ps f g v Ho Hu Hn Hs Hf Hg) as (g' & r & H & Hc).
  destruct (changed_cwalk E _ ps g g' (replaced_keeps v) Hg Hc) as (m & n & [_ Hon] & Hw & _). exists g', r, n. split; [exact H|]. split; [|rewrite Hon; destruct v as [| | | | | | |[]| | |]; reflexivity].
  apply Get_cwalk; try assumption; [|eapply spells_cwalk; eassumption]. intros ->. pose proof (spells_nonempty es ps Hs Hn) as Hp. destruct ps; [congruence|discriminate].
Qed.
Print Assumptions C31_quoted_partial.

(** ** C32: paths that lead elsewhere give what they gave. *)
Theorem C32_quoted_partial : forall E C es ps qes qs f f' g v, Forall (elem_ok E) es -> Forall unmarked es -> Forall (elem_ok E) qes -> Forall unmarked qes ->
  es <> [] -> qes <> [] -> spells es ps -> spells qes qs -> fits f (path_text es) -> fits f' (path_text qes) -> all_nodes data g -> ~ prefix ps qs -> ~ prefix qs ps ->
  exists g' r n, Set_ E f (Some g) (path_text es) v = Ok (Some g', r) /\
    Get E C f' (Some g) (path_text qes) = Ok (Some g, n) /\ Get E C f' (Some g') (path_text qes) = Ok (Some g', n).
Proof.
  intros E C es ps qes qs f f' g v Ho Hu Hqo Hqu Hn Hqn Hs Hqs Hf Hf' Hg Hp1 Hp2. destruct (Set_spelled E es ps f g v Ho Hu Hn Hs Hf (data_whole E g Hg)) as (g' & r & H & Hc).
  destruct (changed_elsewhere E _ ps g g' (replaced_keeps v) (data_whole E g Hg) Hc qs (not_prefix_apart ps qs Hp1 Hp2)) as [H1 H2].
  assert (Hk : Forall (fun e => key e <> None) qes).
  { apply Forall_forall. intros e He. assert (K : In (key e) (map Some qs)) by (rewrite <- Hqs; apply in_map, He). apply in_map_iff in K. destruct K as (s & <- & _). discriminate. }
  destruct (walk_or_lost E qes Hk g (data_whole E g Hg)) as [(n & Hw)|Hl].
  - apply walk_cwalk in Hw; [|apply data_whole; exact Hg]. exists g', r, (Some n). split; [exact H|]. split; apply Get_cwalk; auto. eapply spells_cwalk; [exact Hqs|]. apply H1. eapply cwalk_spells; eassumption.
  - apply lost_clost in Hl; [|exact Hg]. exists g', r, None. split; [exact H|]. split; apply Get_clost; auto. eapply spells_clost; [exact Hqs|]. apply H2. eapply clost_spells; eassumption.
Qed.
Print Assumptions C32_quoted_partial.

(** ** C35: an index after names, quoted or not *)
Theorem C35_quoted_partial : forall E es ps d rest f g v, Forall (elem_ok E) es -> Forall unmarked es -> spells es ps -> digits d -> Forall (elem_ok E) rest -> number_of d < 2 ^ 63 ->
  fits f (path_text (es ++ Index d :: rest)) -> whole E g ->
  exists g' r, Set_ E f (Some g) (path_text (es ++ Index d :: rest)) v = Ok (Some g', r) /\ changed E (placed (Z.to_nat (number_of d)) v) ps g g'.
Proof.
  intros E es ps d rest f g v Ho Hu Hs Hd Hrest Hl Hf Hg.
  assert (Hok : Forall (elem_ok E) (es ++ Index d :: rest)) by (apply Forall_app; split; [exact Ho|constructor; assumption]).
  rewrite Set_eq; [|exact Hok|intros He; destruct es; discriminate He|exact Hf]. pose proof (number_of_nonneg d (proj2 Hd)) as Hn.
  assert (Ht : forall n, exists n' r, (let* i := Int64 E (Some (gtree (elem_tree (Index d)))) None in set_index n i v) = Ok (n', r) /\ placed (Z.to_nat (number_of d)) v n n').
  { intros n. cbn [elem_tree]. rewrite (Int64_digits E d (bs "!i") Hd Hl). cbn [rbind]. destruct (set_index_placed n (number_of d) v Hn) as (n' & H & Hp). eauto. }
  destruct (els_changed E (placed (Z.to_nat (number_of d)) v) (gforest (map elem_tree (Index d :: rest))) v) with (ps := ps) (g := g) as (g' & r & H & HR); try assumption.
  { eapply spells_index; eassumption. }
  rewrite map_app. unfold gforest in *. rewrite map_app. change (map (fun t => Some (gtree t)) (map elem_tree es)) with (gforest (map elem_tree es)). rewrite (spells_forest es ps Hs). unfold gforest. rewrite H. exists g', r. split; [reflexivity|exact HR].
Qed.
Print Assumptions C35_quoted_partial.

(** Set 'b c'.d, then Get "b c".d: a name with a blank, which can only be written in quotes *)
Definition ex_single : list elem := [Quote "'"%byte (bs "b c"); Name (bs "d")].
Definition ex_double : list elem := [Quote """"%byte (bs "b c"); Name (bs "d")].
Example C31_quoted_ex : path_text ex_single = bs "'b c'.d" /\ Forall (elem_ok env0) ex_single /\ Forall unmarked ex_single /\ Forall (elem_ok env0) ex_double /\ Forall unmarked ex_double /\
  spells ex_single [bs "b c"; bs "d"] /\ spells ex_double [bs "b c"; bs "d"] /\ fits 20 (path_text ex_single) /\ fits 20 (path_text ex_double) /\ all_nodes data ex_root.
Proof.
  assert (Hu : forall q, unmarked (Quote q (bs "b c"))) by (intros q K; cbn in K; intuition discriminate).
  assert (Hq : forall q, quote_mark q -> Forall (elem_ok env0) [Quote q (bs "b c"); Name (bs "d")] /\ Forall unmarked [Quote q (bs "b c"); Name (bs "d")]).
  { intros q Hq. split; [|constructor; [apply Hu|constructor; [exact I|constructor]]].
    constructor; [|ascii_names]. split; [exact Hq|]. destruct Hq as [->|[->| ->]]; repeat constructor; discriminate. }
  destruct (Hq "'"%byte) as (H1 & H2); [right; left; reflexivity|]. destruct (Hq """"%byte) as (H3 & H4); [left; reflexivity|].
  split; [reflexivity|]. split; [exact H1|]. split; [exact H2|]. split; [exact H3|]. split; [exact H4|].
  split; [reflexivity|]. split; [reflexivity|]. split; [split; cbn; lia|]. split; [split; cbn; lia|exact ex_root_data].
Qed.
