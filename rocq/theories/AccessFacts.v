(** Facts about Get and Set. *)
From Verif Require Import Base Value Graph GraphSpec GraphFacts TextSpec PathSpec Lexer PathParser PathFacts NumFacts TypesSpec TypesFacts Eval AccessSpec.

Section F.
Variable E : env.
Variable C : calls.

(** ** Whole graphs *)
Lemma whole_inv g : whole E g -> exists k, out g = map Some k /\ printable E (out g) /\ Forall (whole E) k.
Proof.
  intros H. destruct (all_nodes_inv _ _ H) as (v & k & -> & Hv & Hk). exists k. split; [reflexivity|]. split; [|exact Hk].
  cbn [out]. unfold printable. clear H. induction Hk as [|c k Hc _ IH]; cbn [map]; constructor; [|exact IH].
  destruct (all_nodes_inv _ _ Hc) as (w & l & -> & (s & Hs) & _). exists s, (Node w (map Some l)). split; [reflexivity|exact Hs].
Qed.
Lemma all_nodes_child P g i c : all_nodes P g -> nth_error (out g) i = Some (Some c) -> all_nodes P c.
Proof.
  intros H Hi. destruct (all_nodes_inv _ _ H) as (v & k & -> & _ & Hk). cbn [out] in Hi. apply nth_error_In, in_map_iff in Hi.
  destruct Hi as (c' & [= ->] & Hc). rewrite Forall_forall in Hk. auto.
Qed.
Lemma data_prints v : data v -> exists s, vstring E v = Ok s.
Proof. destruct v; cbn; intros H; try contradiction; eexists; reflexivity. Qed.
Lemma data_whole g : all_nodes data g -> whole E g.
Proof. intros H. apply all_nodes_ind' with (2 := H). intros v k Hv _ IH. constructor; [apply data_prints, Hv|exact IH]. Qed.
Lemma whole_bracket c : whole E c -> whole E (Node (VStr (bs "[")) [Some c]).
Proof. intros H. apply (all_node _ _ [c]); [eexists; reflexivity|constructor; [exact H|constructor]]. Qed.
Lemma data_bracket c : all_nodes data c -> all_nodes data (Node (VStr (bs "[")) [Some c]).
Proof. intros H. apply (all_node _ _ [c]); [exact I|constructor; [exact H|constructor]]. Qed.

(** ** Elements of paths *)
Lemma name_not_marked s : name E s -> match s with c :: _ => beq c "!" = false | [] => False end.
Proof.
  intros [Hn Hs]. destruct s as [|c s]; [congruence|]. apply letters_head in Hs. apply beq_neq. intros ->. destruct Hs as [Hs|Hs]; [discriminate Hs|cbn in Hs; lia].
Qed.
Definition marked (s : bytes) : bool := bseq s TypeIndex || bseq s TypeSelector || bseq s TypeArguments || bseq s TypeGroup.
Lemma key_unmarked e s : elem_ok E e -> unmarked e -> key e = Some s -> marked s = false /\ elem_tree e = T s [].
Proof.
  intros Hok Hu Hk. unfold marked. destruct e as [s'|q s'|d]; cbn in Hk; try discriminate; injection Hk as ->; (split; [|reflexivity]).
  - pose proof (name_not_marked s Hok) as H. destruct s as [|c s]; [contradiction|].
    assert (Hw : forall w, bseq (c :: s) (x21 :: w) = false) by (intros w; cbn; change (beq c x21) with (beq c "!"); rewrite H; reflexivity).
    rewrite (Hw (bs "i") : bseq (c :: s) TypeIndex = false), (Hw (bs "s") : bseq (c :: s) TypeSelector = false),
      (Hw (bs "a") : bseq (c :: s) TypeArguments = false), (Hw (bs "g") : bseq (c :: s) TypeGroup = false). reflexivity.
  - cbn in Hu. destruct (bseq_spec s TypeIndex) as [->|]; [exfalso; apply Hu; left; reflexivity|].
    destruct (bseq_spec s TypeSelector) as [->|]; [exfalso; apply Hu; right; left; reflexivity|].
    destruct (bseq_spec s TypeArguments) as [->|]; [exfalso; apply Hu; do 2 right; left; reflexivity|].
    destruct (bseq_spec s TypeGroup) as [->|]; [exfalso; apply Hu; do 3 right; left; reflexivity|]. reflexivity.
Qed.

Lemma number_of_nonneg d : Forall (fun c => 48 <= bz c <= 57) d -> 0 <= number_of d.
Proof.
  intros H. unfold number_of. cut (forall a, 0 <= a -> 0 <= fold_left (fun a c => 10 * a + (bz c - 48)) d a); [intros Hf; apply Hf; lia|].
  induction H as [|c d Hc _ IH]; intros a Ha; cbn [fold_left]; [exact Ha|]. apply IH. lia.
Qed.

(** The walk as the code does it *)
Inductive cwalk : list elem -> graph -> graph -> Prop :=
| cwalk_here g : cwalk [] g g
| cwalk_key e s es g i c n : key e = Some s -> find_child E s (out g) = Ok (Some i) -> nth_error (out g) i = Some (Some c) -> cwalk es c n -> cwalk (e :: es) g n
| cwalk_index d es g c n : number_of d < 2 ^ 63 -> nth_error (out g) (Z.to_nat (number_of d)) = Some (Some c) ->
    cwalk es (Node (VStr (bs "[")) [Some c]) n -> cwalk (Index d :: es) g n.
Definition harmless (o : list (option graph)) : Prop := match o with [] => True | Some c :: _ => data (this c) | None :: _ => False end.
Inductive clost : list elem -> graph -> Prop :=
| clost_here e s es g : key e = Some s -> find_child E s (out g) = Ok None -> harmless (out g) -> clost (e :: es) g
| clost_key e s es g i c : key e = Some s -> find_child E s (out g) = Ok (Some i) -> nth_error (out g) i = Some (Some c) -> clost es c -> clost (e :: es) g
| clost_index d es g c : number_of d < 2 ^ 63 -> nth_error (out g) (Z.to_nat (number_of d)) = Some (Some c) ->
    clost es (Node (VStr (bs "[")) [Some c]) -> clost (Index d :: es) g.

Lemma walk_cwalk es g n : walk E es g n -> whole E g -> cwalk es g n.
Proof.
  induction 1 as [g|e s es g i c n Hk Hf _ IH|d es g c n Hd Hc _ IH]; intros Hw; [constructor| |].
  - destruct (whole_inv g Hw) as (k & _ & Hp & _). eapply cwalk_key; [exact Hk|apply (find_child_some _ _ _ _ _ Hf Hp)|apply Hf|].
    apply IH. eapply all_nodes_child; [exact Hw|apply Hf].
  - eapply cwalk_index; [exact Hd|exact Hc|]. apply IH, whole_bracket. eapply all_nodes_child; eassumption.
Qed.
Lemma lost_clost es g : lost E es g -> all_nodes data g -> clost es g.
Proof.
  induction 1 as [e s es g Hk Hn|e s es g i c Hk Hf _ IH|d es g c Hd Hc _ IH]; intros Hw.
  - destruct (whole_inv g (data_whole g Hw)) as (k & _ & Hp & _). eapply clost_here; [exact Hk|apply (find_child_none _ _ _ Hn Hp)|].
    destruct (all_nodes_inv _ _ Hw) as (v & l & -> & _ & Hl). cbn [out]. destruct Hl as [|c l Hc _]; [exact I|]. cbn.
    destruct (all_nodes_inv _ _ Hc) as (w & l' & -> & Hd & _). exact Hd.
  - destruct (whole_inv g (data_whole g Hw)) as (k & _ & Hp & _). eapply clost_key; [exact Hk|apply (find_child_some _ _ _ _ _ Hf Hp)|apply Hf|].
    apply IH. eapply all_nodes_child; [exact Hw|apply Hf].
  - eapply clost_index; [exact Hd|exact Hc|]. apply IH, data_bracket. eapply all_nodes_child; eassumption.
Qed.
(** Names lead somewhere or get lost. *)
Lemma walk_or_lost es : Forall (fun e => key e <> None) es -> forall g, whole E g -> (exists n, walk E es g n) \/ lost E es g.
Proof.
  induction 1 as [|e es He _ IH]; intros g Hw; [left; exists g; constructor|].
  destruct (key e) as [s|] eqn:Hk; [|congruence]. destruct (whole_inv g Hw) as (k & _ & Hp & _).
  destruct (find_child_spec E s (out g) Hp) as [[_ Hn]|(i & c & _ & Hf)]; [right; eapply lost_here; eassumption|].
  destruct (IH c) as [(n & Hn)|Hl]; [eapply all_nodes_child; [exact Hw|apply Hf]| |].
  - left. exists n. eapply walk_key; eassumption.
  - right. eapply lost_key; eassumption.
Qed.

(** ** getPath *)
Section G.
Variable ev : bool -> option graph -> graph -> res (graph * eres).
Hypothesis ev_num : forall d g, digits d -> number_of d < 2 ^ 63 -> ev true (Some (gtree (T d []))) g = Ok (g, EVal (VInt KInt64 (number_of d))).

Lemma get_els_key p els c prev k g s : marked s = false ->
  get_els E C ev p (Some (Node (VStr s) []) :: els) (Some c) prev k g =
  (let* next := Node_ E (Some c) s in
   match next with
   | Some _ => get_els E C ev p els next (Some c) s g
   | None =>
       match out c with
       | [] => get_els E C ev p els None (Some c) s g
       | _ =>
           let* t := first_this c in
           let* (g, r) := function E C ev p t g in
           match r with
           | EErr e => Ok (g, inr e)
           | EVal (VPtr next) => get_els E C ev p els next (Some c) s g
           | EVal _ => Ok (g, inr ErrFunctionNoGraph)
           end
       end
   end).
Proof.
  unfold marked. rewrite !orb_false_iff. intros [[[H1 H2] H3] H4]. cbn [get_els]. cbn [ThisString this vstring sstring rbind]. rewrite H1, H2, H3, H4. reflexivity.
Qed.
Lemma get_els_none p els prev k g : get_els E C ev p els None prev k g = Ok (g, inl None).
Proof. destruct els; reflexivity. Qed.
Lemma index_num d g : digits d -> number_of d < 2 ^ 63 -> index_ ev (gtree (elem_tree (Index d))) g = Ok (g, number_of d).
Proof.
  intros Hd Hl. unfold index_. change (out (gtree (elem_tree (Index d)))) with [Some (gtree (T d []))]. cbn iota. rewrite (ev_num d g Hd Hl). cbn [rbind v_int64].
  pose proof (number_of_nonneg d (proj2 Hd)) as Hn. rewrite wrap64_id by (unfold in64; lia). replace (number_of d <? 0) with false by lia. reflexivity.
Qed.
Lemma GetAt_nth g i c : 0 <= i -> nth_error (out g) (Z.to_nat i) = Some c -> GetAt (Some g) i = Ok c.
Proof.
  intros Hi Hn. destruct g as [t o]. cbn [GetAt out] in *. assert (H : (Z.to_nat i < List.length o)%nat) by (apply nth_error_Some; congruence).
  replace (Z.of_nat (List.length o) <=? i) with false by lia. replace (i <? 0) with false by lia. cbn [orb]. unfold child. rewrite Hn. reflexivity.
Qed.
Lemma Node_found g s i c : find_child E s (out g) = Ok (Some i) -> nth_error (out g) i = Some (Some c) -> Node_ E (Some g) s = Ok (Some c).
Proof. intros Hf Hn. destruct g as [t o]. cbn [out Node_] in *. rewrite Hf. cbn [rbind]. unfold child. rewrite Hn. reflexivity. Qed.
Lemma Node_none g s : find_child E s (out g) = Ok None -> Node_ E (Some g) s = Ok None.
Proof. intros Hf. destruct g as [t o]. cbn [out Node_] in *. rewrite Hf. reflexivity. Qed.

Lemma get_els_walk p es m n : cwalk es m n -> Forall (elem_ok E) es -> Forall unmarked es -> forall tl prev k g,
  exists prev' k', get_els E C ev p (gforest (map elem_tree es) ++ tl) (Some m) prev k g = get_els E C ev p tl (Some n) prev' k' g.
Proof.
  induction 1 as [m|e s es m i c n Hk Hf Hc _ IH|d es m c n Hd Hc _ IH]; intros Hok Hu tl prev k g.
  - exists prev, k. reflexivity.
  - inversion Hok as [|? ? Ho1 Ho2]; subst. inversion Hu as [|? ? Hu1 Hu2]; subst. destruct (key_unmarked e s Ho1 Hu1 Hk) as [Hm Ht].
    cbn [map gforest app]. rewrite Ht. change (gtree (T s [])) with (Node (VStr s) []). rewrite get_els_key by exact Hm.
    rewrite (Node_found _ _ _ _ Hf Hc). cbn [rbind]. apply IH; assumption.
  - inversion Hok as [|? ? Ho1 Ho2]; subst. inversion Hu as [|? ? Hu1 Hu2]; subst.
    cbn [map gforest app]. cbn [get_els]. change (ThisString E (Some (gtree (elem_tree (Index d))))) with (Ok TypeIndex). cbn [rbind].
    change (bseq TypeIndex TypeIndex) with true. cbn iota. rewrite (index_num d g Ho1 Hd). cbn [rbind].
    pose proof (number_of_nonneg d (proj2 Ho1)) as Hn. replace (number_of d <? 0) with false by lia.
    rewrite (GetAt_nth m (number_of d) _ Hn Hc). cbn [rbind add_out]. apply IH; assumption.
Qed.
Lemma get_els_lost p es m : clost es m -> Forall (elem_ok E) es -> Forall unmarked es -> forall tl prev k g,
  exists r, get_els E C ev p (gforest (map elem_tree es) ++ tl) (Some m) prev k g = Ok (g, r) /\ match r with inl n => n = None | inr _ => True end.
Proof.
  induction 1 as [e s es m Hk Hf Hh|e s es m i c Hk Hf Hc _ IH|d es m c Hd Hc _ IH]; intros Hok Hu tl prev k g.
  - inversion Hok as [|? ? Ho1 Ho2]; subst. inversion Hu as [|? ? Hu1 Hu2]; subst. destruct (key_unmarked e s Ho1 Hu1 Hk) as [Hm Ht].
    cbn [map gforest app]. rewrite Ht. change (gtree (T s [])) with (Node (VStr s) []). rewrite get_els_key by exact Hm.
    rewrite (Node_none _ _ Hf). cbn [rbind]. destruct m as [t o]. cbn [out] in *. destruct o as [|[c|] o]; [|clear Hf|contradiction].
    + rewrite get_els_none. eexists; split; reflexivity.
    + cbn [first_this out rbind]. cbn in Hh. destruct (this c); try contradiction; cbn [function rbind]; eexists; split; try reflexivity; exact I.
  - inversion Hok as [|? ? Ho1 Ho2]; subst. inversion Hu as [|? ? Hu1 Hu2]; subst. destruct (key_unmarked e s Ho1 Hu1 Hk) as [Hm Ht].
    cbn [map gforest app]. rewrite Ht. change (gtree (T s [])) with (Node (VStr s) []). rewrite get_els_key by exact Hm.
    rewrite (Node_found _ _ _ _ Hf Hc). cbn [rbind]. apply IH; assumption.
  - inversion Hok as [|? ? Ho1 Ho2]; subst. inversion Hu as [|? ? Hu1 Hu2]; subst.
    cbn [map gforest app]. cbn [get_els]. change (ThisString E (Some (gtree (elem_tree (Index d))))) with (Ok TypeIndex). cbn [rbind].
    change (bseq TypeIndex TypeIndex) with true. cbn iota. rewrite (index_num d g Ho1 Hd). cbn [rbind].
    pose proof (number_of_nonneg d (proj2 Ho1)) as Hn. replace (number_of d <? 0) with false by lia.
    rewrite (GetAt_nth m (number_of d) _ Hn Hc). cbn [rbind add_out]. apply IH; assumption.
Qed.
End G.

(** ** Constants *)
Lemma isInteger_digits d : digits d -> isInteger d = Ok true.
Proof.
  intros [Hn Hd]. destruct d as [|c d]; [congruence|]. inversion Hd as [|? ? Hc Hd']; subst.
  destruct (digit_not_space c Hc) as (H1 & H2 & H3). unfold isInteger. cbn [drop_while]. rewrite H1, H2, H3, (drop_digits d Hd'). reflexivity.
Qed.
Lemma eval_number f d g : digits d -> number_of d < 2 ^ 63 -> forall simpl k,
  evalExpression E C (S f) simpl (Some (Node (VStr d) k)) g = Ok (g, EVal (VInt KInt64 (number_of d))).
Proof.
  intros Hd Hl simpl k. cbn [evalExpression]. unfold eval_body. cbn [this ThisString vstring sstring rbind].
  pose proof (isInteger_digits d Hd) as Hi. pose proof (parse_int_val d Hd Hl) as Hp. destruct d as [|c d]; [destruct Hd; congruence|].
  assert (Hc : isNumber (c :: d) = true) by (destruct Hd as [_ Hd]; inversion Hd as [|? ? Hc _]; subst; destruct (digit_not_space c Hc) as (_ & _ & H3); unfold isNumber; rewrite H3; reflexivity).
  rewrite Hc. unfold number. cbn [v_float64 v_int64 vstring sstring rbind]. rewrite Hi. cbn [rbind]. rewrite Hp. reflexivity.
Qed.

(** ** Get *)
Lemma NewPath_elems es f : Forall (elem_ok E) es -> es <> [] -> fits f (path_text es) ->
  NewPath E f (path_text es) = Ok (Node (VStr TypePath) (gforest (map elem_tree es))).
Proof. intros Hok Hn [H1 H2]. apply NewPath_names; assumption. Qed.
Lemma Get_eq es f g : Forall (elem_ok E) es -> es <> [] -> fits f (path_text es) ->
  Get E C f (Some g) (path_text es) =
  let* (g, r) := get_els E C (evalExpression E C f) (Node (VStr TypePath) (gforest (map elem_tree es))) (gforest (map elem_tree es)) (Some g) None [] g in
  Ok (Some g, match r with inl n => n | inr _ => None end).
Proof.
  intros Hok Hn Hf. cbn [Get]. rewrite NewPath_elems by assumption. cbn [rbind]. unfold getPath. cbn [out].
  destruct es as [|e es]; [congruence|]. reflexivity.
Qed.
Lemma fits_pos f s : fits f s -> exists f', f = S f'.
Proof. intros [_ H]. destruct f; [lia|eauto]. Qed.
Lemma Get_cwalk es f g n : Forall (elem_ok E) es -> Forall unmarked es -> es <> [] -> fits f (path_text es) -> cwalk es g n ->
  Get E C f (Some g) (path_text es) = Ok (Some g, Some n).
Proof.
  intros Hok Hu Hn Hf Hw. rewrite Get_eq by assumption. destruct (fits_pos _ _ Hf) as (f' & ->).
  destruct (get_els_walk (evalExpression E C (S f')) (fun d g Hd Hl => eval_number f' d g Hd Hl true []) (Node (VStr TypePath) (gforest (map elem_tree es)))
    es g n Hw Hok Hu [] None [] g) as (prev & k & H). rewrite app_nil_r in H. rewrite H. reflexivity.
Qed.
Lemma Get_clost es f g : Forall (elem_ok E) es -> Forall unmarked es -> es <> [] -> fits f (path_text es) -> clost es g ->
  Get E C f (Some g) (path_text es) = Ok (Some g, None).
Proof.
  intros Hok Hu Hn Hf Hw. rewrite Get_eq by assumption. destruct (fits_pos _ _ Hf) as (f' & ->).
  destruct (get_els_lost (evalExpression E C (S f')) (fun d g Hd Hl => eval_number f' d g Hd Hl true []) (Node (VStr TypePath) (gforest (map elem_tree es)))
    es g Hw Hok Hu [] None [] g) as (r & H & Hr). rewrite app_nil_r in H. rewrite H. destruct r as [r|e]; [subst r|]; reflexivity.
Qed.
Lemma Get_walk es f g n : Forall (elem_ok E) es -> Forall unmarked es -> es <> [] -> fits f (path_text es) -> whole E g -> walk E es g n ->
  Get E C f (Some g) (path_text es) = Ok (Some g, Some n).
Proof. intros Hok Hu Hn Hf Hg Hw. apply Get_cwalk; try assumption. apply walk_cwalk; assumption. Qed.
Lemma Get_lost es f g : Forall (elem_ok E) es -> Forall unmarked es -> es <> [] -> fits f (path_text es) -> all_nodes data g -> lost E es g ->
  Get E C f (Some g) (path_text es) = Ok (Some g, None).
Proof. intros Hok Hu Hn Hf Hg Hw. apply Get_clost; try assumption. apply lost_clost; assumption. Qed.

Lemma walk_app p q g m n : walk E p g m -> walk E q m n -> walk E (p ++ q) g n.
Proof.
  induction 1 as [g|e s es g i c m Hk Hf _ IH|d es g c m Hd Hc _ IH]; intros Hq; cbn [app]; [exact Hq| |].
  - eapply walk_key; eauto.
  - eapply walk_index; eauto.
Qed.
Lemma walk_lost p q g m : walk E p g m -> lost E q m -> lost E (p ++ q) g.
Proof.
  induction 1 as [g|e s es g i c m Hk Hf _ IH|d es g c m Hd Hc _ IH]; intros Hq; cbn [app]; [exact Hq| |].
  - eapply lost_key; eauto.
  - eapply lost_index; eauto.
Qed.
Lemma lost_app p q g : lost E p g -> lost E (p ++ q) g.
Proof. induction 1; cbn [app]; [eapply lost_here|eapply lost_key|eapply lost_index]; eauto. Qed.
Lemma walk_data es g n : walk E es g n -> all_nodes data g -> all_nodes data n.
Proof.
  induction 1 as [g|e s es g i c m Hk Hf _ IH|d es g c m Hd Hc _ IH]; intros Hg; [exact Hg| |].
  - apply IH. eapply all_nodes_child; [exact Hg|apply Hf].
  - apply IH, data_bracket. eapply all_nodes_child; eassumption.
Qed.
Lemma path_text_app p q : p <> [] -> path_text (p ++ q) = path_text p ++ flat_map (elem_text false) q.
Proof. destruct p as [|e p]; [congruence|]. intros _. cbn [path_text app]. rewrite flat_map_app, app_assoc. reflexivity. Qed.

(** ** Set *)
Section S.
Variable R : graph -> graph -> Prop.
Variable tl : list (option graph).
Variable v : value graph.
Hypothesis tl_els : forall n, exists n' r, set_els E tl n v = Ok (n', r) /\ R n n'.
Hypothesis tl_new : forall n, exists n' r, set_new E tl n v = Ok (n', r) /\ R n n'.

Lemma name_not_index s : name E s -> bseq s TypeIndex = false.
Proof. intros H. destruct (key_unmarked (Name s) s H I eq_refl) as [Hm _]. unfold marked in Hm. rewrite !orb_false_iff in Hm. apply Hm. Qed.
Lemma set_new_changed ps : Forall (name E) ps -> forall g, (forall s, none_named E s (out g)) \/ ps = [] ->
  exists g' r, set_new E (gforest (map elem_tree (map Name ps)) ++ tl) g v = Ok (g', r) /\ changed E R ps g g'.
Proof.
  induction 1 as [|s ps Hs Hps IH]; intros g Hg.
  - destruct (tl_new g) as (n' & r & H & HR). exists n', r. split; [exact H|constructor; exact HR].
  - cbn [map gforest app elem_tree gtree set_new]. cbn [ThisString this vstring sstring rbind]. rewrite name_not_index by exact Hs. cbn [add_ret].
    destruct (IH (New (VStr s)) ltac:(left; intros; constructor)) as (c' & r & H & HR). unfold gforest in H. rewrite H. cbn [rbind].
    exists (Node (this g) (out g ++ [Some c'])), r. split; [reflexivity|]. destruct g as [t o]. cbn [this out]. apply changed_new; [|exact HR].
    destruct Hg as [Hg|Hg]; [apply Hg|discriminate].
Qed.
Lemma set_new_changed1 s ps g : Forall (name E) (s :: ps) -> none_named E s (out g) ->
  exists g' r, set_new E (gforest (map elem_tree (map Name (s :: ps))) ++ tl) g v = Ok (g', r) /\ changed E R (s :: ps) g g'.
Proof.
  intros Hps Hn. inversion Hps as [|? ? Hs Hps']; subst. cbn [map gforest app elem_tree gtree set_new]. cbn [ThisString this vstring sstring rbind]. rewrite name_not_index by exact Hs. cbn [add_ret].
  destruct (set_new_changed ps Hps' (New (VStr s)) ltac:(left; intros; constructor)) as (c' & r & H & HR). unfold gforest in H. rewrite H. cbn [rbind].
  exists (Node (this g) (out g ++ [Some c'])), r. split; [reflexivity|]. destruct g as [t o]. cbn [this out]. apply changed_new; assumption.
Qed.
Lemma set_els_changed ps : Forall (name E) ps -> forall g, whole E g ->
  exists g' r, set_els E (gforest (map elem_tree (map Name ps)) ++ tl) g v = Ok (g', r) /\ changed E R ps g g'.
Proof.
  induction 1 as [|s ps Hs Hps IH]; intros g Hg.
  - destruct (tl_els g) as (n' & r & H & HR). exists n', r. split; [exact H|constructor; exact HR].
  - change (gforest (map elem_tree (map Name (s :: ps))) ++ tl) with (Some (Node (VStr s) []) :: gforest (map elem_tree (map Name ps)) ++ tl).
    cbn [set_els]. cbn [ThisString this vstring sstring rbind]. rewrite name_not_index by exact Hs.
    destruct (whole_inv g Hg) as (k & _ & Hp & _). destruct (find_child_spec E s (out g) Hp) as [[-> Hn]|(i & c & -> & Hf)]; cbn [rbind].
    + apply (set_new_changed1 s ps g); [constructor; assumption|exact Hn].
    + pose proof Hf as (Hi & _). unfold child. rewrite Hi. destruct (IH c (all_nodes_child _ _ _ _ Hg Hi)) as (c' & r & H & HR). rewrite H. cbn [rbind].
      eexists; eexists; split; [reflexivity|]. destruct g as [t o]. cbn [this out] in *. eapply changed_found; [exact Hf|exact HR| | |].
      * apply set_nth_length.
      * apply nth_set_nth_eq. apply nth_error_Some. congruence.
      * intros j Hj. apply nth_set_nth_ne. congruence.
Qed.
End S.

(** A whole path *)
Lemma Set_eq es f g v : Forall (elem_ok E) es -> es <> [] -> fits f (path_text es) ->
  Set_ E f (Some g) (path_text es) v = let* (g', r) := set_els E (gforest (map elem_tree es)) g v in Ok (Some g', r).
Proof. intros Hok Hn Hf. cbn [Set_]. rewrite NewPath_elems by assumption. reflexivity. Qed.
Lemma names_ok ps : Forall (name E) ps -> Forall (elem_ok E) (map Name ps) /\ Forall unmarked (map Name ps).
Proof. induction 1 as [|s ps Hs _ [IH1 IH2]]; split; constructor; try assumption; exact I. Qed.
Lemma addNodes_contents v : addNodes_out v = contents v.
Proof. reflexivity. Qed.
Lemma Set_changed ps f g v : Forall (name E) ps -> ps <> [] -> fits f (path ps) -> whole E g ->
  exists g' r, Set_ E f (Some g) (path ps) v = Ok (Some g', r) /\ changed E (replaced v) ps g g'.
Proof.
  intros Hps Hn Hf Hg. unfold path in *. destruct (names_ok ps Hps) as [Ho Hu]. rewrite Set_eq; [|exact Ho|destruct ps; [congruence|discriminate]|exact Hf].
  destruct (set_els_changed (replaced v) [] v) with (ps := ps) (g := g) as (g' & r & H & HR); try assumption.
  1,2: intros n; cbn [set_els set_new set_here]; eexists; eexists; split; [reflexivity|split; reflexivity].
  rewrite app_nil_r in H. rewrite H. exists g', r. split; [reflexivity|exact HR].
Qed.

(** ** What is found afterwards *)
Definition keeps (R : graph -> graph -> Prop) : Prop := forall n n', R n n' -> this n' = this n.
Lemma changed_this R ps g g' : keeps R -> changed E R ps g g' -> this g' = this g.
Proof. intros HR H. destruct H; [apply HR; assumption|reflexivity|reflexivity]. Qed.
Lemma first_named_before s o i c : printable E o -> first_named E s o i c ->
  forall j, (j < i)%nat -> exists n t, nth_error o j = Some (Some n) /\ vstring E (this n) = Ok t /\ t <> s.
Proof.
  intros Hp (Hi & _ & Hb) j Hj. assert (Hl : (i < List.length o)%nat) by (apply nth_error_Some; congruence).
  destruct (nth_error o j) as [x|] eqn:Hx; [|apply nth_error_None in Hx; lia]. pose proof (Hb j x Hj Hx) as Hnot.
  unfold printable in Hp. rewrite Forall_forall in Hp. destruct (Hp x (nth_error_In _ _ Hx)) as (t & n & -> & Ht). exists n, t. split; [reflexivity|]. split; [exact Ht|].
  intros ->. apply Hnot. exists n. auto.
Qed.
Lemma find_child_new s o c' : none_named E s o -> printable E o -> this c' = VStr s -> find_child E s (o ++ [Some c']) = Ok (Some (List.length o)).
Proof.
  intros Hn Hp Hc. apply find_child_first with (n := c'); [rewrite nth_error_app2, Nat.sub_diag by lia; reflexivity|rewrite Hc; reflexivity|].
  intros j Hj. rewrite nth_error_app1 by exact Hj. destruct (nth_error o j) as [x|] eqn:Hx; [|apply nth_error_None in Hx; lia].
  unfold printable in Hp. rewrite Forall_forall in Hp. destruct (Hp x (nth_error_In _ _ Hx)) as (t & n & -> & Ht). exists n, t. split; [reflexivity|]. split; [exact Ht|].
  intros ->. unfold none_named in Hn. rewrite Forall_forall in Hn. apply (Hn _ (nth_error_In _ _ Hx)). exists n. auto.
Qed.
Lemma find_child_found s o o' i c c' : printable E o -> first_named E s o i c -> this c' = this c ->
  nth_error o' i = Some (Some c') -> (forall j, j <> i -> nth_error o' j = nth_error o j) -> find_child E s o' = Ok (Some i).
Proof.
  intros Hp Hf Ht Hi Ho. apply find_child_first with (n := c'); [exact Hi| |].
  - rewrite Ht. destruct Hf as (_ & (n & [= <-] & Hn) & _). exact Hn.
  - intros j Hj. rewrite Ho by lia. apply (first_named_before s o i c Hp Hf j Hj).
Qed.
(** Only contents matter for the lookup. *)
Lemma find_child_ext s o o' : Forall2 (fun a b => option_map this a = option_map this b) o o' -> find_child E s o = find_child E s o'.
Proof.
  induction 1 as [|a b o o' Hab _ IH]; [reflexivity|]. destruct a as [a|], b as [b|]; cbn in Hab; try discriminate; [|reflexivity].
  injection Hab as Hab. cbn [find_child]. rewrite Hab, IH. reflexivity.
Qed.
Lemma Forall2_nth {A B} (P : A -> B -> Prop) (l : list A) (l' : list B) : List.length l = List.length l' ->
  (forall j a b, nth_error l j = Some a -> nth_error l' j = Some b -> P a b) -> Forall2 P l l'.
Proof.
  revert l'; induction l as [|a l IH]; intros [|b l'] Hl H; cbn in Hl; try discriminate; constructor.
  - apply (H 0%nat); reflexivity.
  - apply IH; [lia|]. intros j x y Hx Hy. apply (H (S j)); assumption.
Qed.
Lemma changed_contents o o' i c c' : List.length o' = List.length o -> nth_error o i = Some (Some c) -> nth_error o' i = Some (Some c') -> this c' = this c ->
  (forall j, j <> i -> nth_error o' j = nth_error o j) -> Forall2 (fun a b => option_map this a = option_map this b) o o'.
Proof.
  intros Hl Hi Hi' Ht Ho. apply Forall2_nth; [lia|]. intros j a b Ha Hb. destruct (Nat.eq_dec j i) as [->|Hj].
  - rewrite Hi in Ha. rewrite Hi' in Hb. injection Ha as <-. injection Hb as <-. cbn. congruence.
  - rewrite Ho in Hb by exact Hj. congruence.
Qed.

Lemma changed_cwalk R ps g g' : keeps R -> whole E g -> changed E R ps g g' ->
  exists n n', R n n' /\ cwalk (map Name ps) g' n' /\ (walk E (map Name ps) g n \/ lost E (map Name ps) g /\ exists s, n = Node (VStr s) []).
Proof.
  intros HR Hg H. induction H as [g g' H|s ps t o o' i c c' Hf Hch IH Hl Hi Ho|s ps t o c' Hn Hch IH].
  - exists g, g'. split; [exact H|]. split; [constructor|left; constructor].
  - destruct (whole_inv _ Hg) as (k & _ & Hp & _). cbn [out] in Hp.
    destruct IH as (n & n' & Hr & Hw & Hor); [eapply all_nodes_child; [exact Hg|apply Hf]|]. exists n, n'. split; [exact Hr|]. split.
    + cbn [map]. eapply cwalk_key; [reflexivity| |exact Hi|exact Hw]. cbn [out]. apply (find_child_found s o o' i c c'); try assumption. apply (changed_this R ps); assumption.
    + destruct Hor as [Hor|[Hor He]]; [left|right; split; [|exact He]]; cbn [map]; [eapply walk_key|eapply lost_key]; try reflexivity; eassumption.
  - destruct (whole_inv _ Hg) as (k & _ & Hp & _). cbn [out] in Hp.
    destruct IH as (n & n' & Hr & Hw & Hor); [apply (all_node _ _ []); [eexists; reflexivity|constructor]|]. exists n, n'. split; [exact Hr|]. split.
    + cbn [map]. eapply cwalk_key with (i := List.length o) (c := c'); [reflexivity| | |exact Hw]; cbn [out].
      * apply find_child_new; [exact Hn|exact Hp|]. apply (changed_this R ps _ _ HR Hch).
      * rewrite nth_error_app2, Nat.sub_diag by lia. reflexivity.
    + right. split; [cbn [map]; eapply lost_here; [reflexivity|exact Hn]|]. destruct Hor as [Hor|[_ Hor]]; [|exact Hor].
      destruct ps as [|s' ps]; cbn [map] in Hor; inversion Hor; subst; [eauto|].
      match goal with H : first_named _ _ (out (Node _ [])) _ _ |- _ => destruct H as (H & _); destruct i; discriminate H end.
Qed.

(** Elsewhere nothing changes. *)
Lemma find_child_app s o c' t : printable E o -> find_child E s o = Ok None -> this c' = VStr t -> s <> t -> find_child E s (o ++ [Some c']) = Ok None.
Proof.
  intros Hp Hf Hc Hst. apply find_child_none.
  - unfold none_named. apply Forall_app. split; [destruct (find_child_spec E s o Hp) as [[_ H]|(i & n & H & _)]; [exact H|congruence]|].
    constructor; [|constructor]. intros (n & [= <-] & H). rewrite Hc in H. cbn in H. congruence.
  - unfold printable in *. apply Forall_app. split; [exact Hp|]. constructor; [|constructor]. exists t, c'. rewrite Hc. split; reflexivity.
Qed.
Lemma find_child_app_some s o c' i : find_child E s o = Ok (Some i) -> find_child E s (o ++ [c']) = Ok (Some i).
Proof.
  revert i; induction o as [|[c|] o IH]; intros i; cbn [find_child app]; try discriminate. destruct (vstring E (this c)) as [t| |]; cbn [rbind]; try discriminate.
  destruct (bseq s t); [auto|]. destruct (find_child E s o) as [[j|]| |]; cbn [rbind option_map]; try discriminate. intros [= <-]. rewrite (IH j eq_refl). reflexivity.
Qed.
Definition apart (p q : list bytes) : Prop := exists c x y p' q', p = c ++ x :: p' /\ q = c ++ y :: q' /\ x <> y.
Lemma apart_cons s p q : apart (s :: p) (s :: q) -> apart p q.
Proof.
  intros (c & x & y & p' & q' & Hp & Hq & Hxy). destruct c as [|z c]; cbn in Hp, Hq; [congruence|].
  injection Hp as _ Hp. injection Hq as _ Hq. exists c, x, y, p', q'. auto.
Qed.
Lemma not_prefix_apart p : forall q, ~ prefix p q -> ~ prefix q p -> apart p q.
Proof.
  induction p as [|x p IH]; intros q H1 H2; [exfalso; apply H1; exists q; reflexivity|].
  destruct q as [|y q]; [exfalso; apply H2; exists (x :: p); reflexivity|].
  destruct (bytes_eq_dec x y) as [->|Hxy]; [|exists [], x, y, p, q; auto].
  destruct (IH q) as (c & x' & y' & p' & q' & -> & -> & Hn).
  - intros (r & ->). apply H1. exists r. reflexivity.
  - intros (r & ->). apply H2. exists r. reflexivity.
  - exists (y :: c), x', y', p', q'. auto.
Qed.
Lemma apart_nil_l q : ~ apart [] q.
Proof. intros (c & x & y & p' & q' & H & _). destruct c; discriminate H. Qed.
Lemma apart_nil_r q : ~ apart q [].
Proof. intros (c & x & y & p' & q' & _ & H & _). destruct c; discriminate H. Qed.

Lemma changed_elsewhere R ps g g' : keeps R -> whole E g -> changed E R ps g g' -> forall qs, apart ps qs ->
  (forall n, cwalk (map Name qs) g n -> cwalk (map Name qs) g' n) /\ (clost (map Name qs) g -> clost (map Name qs) g').
Proof.
  intros HR Hg H. induction H as [g g' H|s ps t o o' i c c' Hf Hch IH Hl Hi Ho|s ps t o c' Hn Hch IH]; intros qs Ha.
  - exfalso. exact (apart_nil_l qs Ha).
  - destruct qs as [|y qs]; [exfalso; exact (apart_nil_r _ Ha)|]. cbn [map].
    destruct (whole_inv _ Hg) as (k & _ & Hp & _). cbn [out] in Hp. pose proof (changed_this R ps c c' HR Hch) as Ht.
    assert (Hc : nth_error o i = Some (Some c)) by apply Hf. assert (Hwc : whole E c) by (eapply all_nodes_child; [exact Hg|exact Hc]).
    pose proof (find_child_some E s o i c Hf Hp) as Hfs. pose proof (find_child_found s o o' i c c' Hp Hf Ht Hi Ho) as Hfs'.
    pose proof (changed_contents o o' i c c' Hl Hc Hi Ht Ho) as Hext.
    destruct (bytes_eq_dec y s) as [->|Hys].
    + specialize (IH Hwc qs (apart_cons _ _ _ Ha)). destruct IH as [IH1 IH2]. split.
      * intros n Hw. inversion Hw as [|? s0 ? ? i0 c0 ? Hk0 Hf0 Hc0 Hw0|]; subst. injection Hk0 as <-. cbn [out] in Hf0, Hc0. rewrite Hfs in Hf0. injection Hf0 as <-. rewrite Hc in Hc0. injection Hc0 as <-.
        eapply cwalk_key; [reflexivity|exact Hfs'|exact Hi|apply IH1; exact Hw0].
      * intros Hw. inversion Hw as [? s0 ? ? Hk0 Hf0 _|? s0 ? ? i0 c0 Hk0 Hf0 Hc0 Hw0|]; subst; injection Hk0 as <-; cbn [out] in Hf0; rewrite Hfs in Hf0; [discriminate|].
        injection Hf0 as <-. cbn [out] in Hc0. rewrite Hc in Hc0. injection Hc0 as <-.
        eapply clost_key; [reflexivity|exact Hfs'|exact Hi|apply IH2; exact Hw0].
    + assert (Hne : forall i0 c0, find_child E y o = Ok (Some i0) -> nth_error o i0 = Some (Some c0) -> nth_error o' i0 = Some (Some c0)).
      { intros i0 c0 Hf0 Hc0. rewrite Ho; [exact Hc0|]. intros ->. destruct (find_child_spec E y o Hp) as [[H0 _]|(j & m & H0 & Hm)]; [congruence|].
        rewrite Hf0 in H0. injection H0 as <-. destruct Hm as (Hm & (m' & [= <-] & Hm2) & _). rewrite Hc in Hm. injection Hm as <-.
        destruct Hf as (_ & (m' & [= <-] & Hm3) & _). congruence. }
      split.
      * intros n Hw. inversion Hw as [|? s0 ? ? i0 c0 ? Hk0 Hf0 Hc0 Hw0|]; subst. injection Hk0 as <-. cbn [out] in *.
        eapply cwalk_key; [reflexivity|cbn [out]; rewrite <- (find_child_ext y o o' Hext); exact Hf0|cbn [out]; eapply Hne; eassumption|exact Hw0].
      * intros Hw. inversion Hw as [? s0 ? ? Hk0 Hf0 Hh|? s0 ? ? i0 c0 Hk0 Hf0 Hc0 Hw0|]; subst; injection Hk0 as <-; cbn [out] in *.
        -- eapply clost_here; [reflexivity|cbn [out]; rewrite <- (find_child_ext y o o' Hext); exact Hf0|]. cbn [out].
           clear - Hh Hext. destruct Hext as [|[a|] [b|] o o' Hab _]; cbn in *; try discriminate; try contradiction; [exact I|]. injection Hab as <-. exact Hh.
        -- eapply clost_key; [reflexivity|cbn [out]; rewrite <- (find_child_ext y o o' Hext); exact Hf0|cbn [out]; eapply Hne; eassumption|exact Hw0].
  - destruct qs as [|y qs]; [exfalso; exact (apart_nil_r _ Ha)|]. cbn [map].
    destruct (whole_inv _ Hg) as (k & _ & Hp & _). cbn [out] in Hp. pose proof (changed_this R ps _ c' HR Hch) as Ht. cbn [this] in Ht.
    pose proof (find_child_none E s o Hn Hp) as Hfs. pose proof (find_child_new s o c' Hn Hp Ht) as Hfs'.
    destruct (bytes_eq_dec y s) as [->|Hys].
    + apply apart_cons in Ha. split.
      * intros n Hw. inversion Hw as [|? s0 ? ? i0 c0 ? Hk0 Hf0 Hc0 Hw0|]; subst. injection Hk0 as <-. cbn [out] in Hf0. congruence.
      * intros _. eapply clost_key with (i := List.length o) (c := c'); [reflexivity|exact Hfs'|cbn [out]; rewrite nth_error_app2, Nat.sub_diag by lia; reflexivity|].
        apply (proj2 (IH ltac:(apply (all_node _ _ []); [eexists; reflexivity|constructor]) qs Ha)).
        destruct qs as [|z qs]; [exfalso; exact (apart_nil_r _ Ha)|]. eapply clost_here; [reflexivity|reflexivity|exact I].
    + split.
      * intros n Hw. inversion Hw as [|? s0 ? ? i0 c0 ? Hk0 Hf0 Hc0 Hw0|]; subst. injection Hk0 as <-. cbn [out] in *.
        eapply cwalk_key; [reflexivity|cbn [out]; apply find_child_app_some; exact Hf0| |exact Hw0]. cbn [out].
        rewrite nth_error_app1; [exact Hc0|apply nth_error_Some; congruence].
      * intros Hw. inversion Hw as [? s0 ? ? Hk0 Hf0 Hh|? s0 ? ? i0 c0 Hk0 Hf0 Hc0 Hw0|]; subst; injection Hk0 as <-; cbn [out] in *.
        -- eapply clost_here; [reflexivity|cbn [out]; apply (find_child_app y o c' s); assumption|]. cbn [out].
           destruct o as [|[a|] o]; cbn in *; [rewrite Ht; exact I|exact Hh|contradiction].
        -- eapply clost_key; [reflexivity|cbn [out]; apply find_child_app_some; exact Hf0| |exact Hw0]. cbn [out].
           rewrite nth_error_app1; [exact Hc0|apply nth_error_Some; congruence].
Qed.
Lemma replaced_keeps v : keeps (replaced v).
Proof. intros n n' [H _]. exact H. Qed.
Lemma placed_keeps i v : keeps (placed i v).
Proof. intros n n' [H _]. exact H. Qed.

(** ** Set with an index at the end *)
Lemma set_index_placed n i v : 0 <= i -> exists n', set_index n i v = Ok (n', Some (New v)) /\ placed (Z.to_nat i) v n n'.
Proof.
  intros Hi. unfold set_index. replace (i <? 0) with false by lia. eexists; split; [reflexivity|]. destruct n as [t o]. cbn [this out].
  set (o1 := if Z.of_nat (List.length o) <=? i then o ++ repeat None (Z.to_nat (i + 1) - List.length o) else o).
  assert (Hl : List.length o1 = Nat.max (List.length o) (S (Z.to_nat i))).
  { unfold o1. destruct (Z.leb_spec (Z.of_nat (List.length o)) i); [rewrite app_length, repeat_length|]; lia. }
  split; [reflexivity|]. cbn [out]. rewrite set_nth_length. split; [exact Hl|]. split; [apply nth_set_nth_eq; lia|].
  intros j Hj Hjl. rewrite nth_set_nth_ne by congruence. destruct (Nat.lt_ge_cases j (List.length o)) as [H|H].
  - replace (nth_error o1 j) with (nth_error o j); [destruct (nth_error o j) eqn:Ho; [reflexivity|apply nth_error_None in Ho; lia]|].
    unfold o1. destruct (Z.of_nat (List.length o) <=? i); [rewrite nth_error_app1 by exact H|]; reflexivity.
  - replace (nth_error o j) with (@None (option graph)) by (symmetry; apply nth_error_None; lia).
    unfold o1 in *. destruct (Z.of_nat (List.length o) <=? i); [|lia]. rewrite nth_error_app2 by exact H.
    rewrite app_length, repeat_length in Hl, Hjl. rewrite nth_error_repeat; [reflexivity|lia].
Qed.
Lemma Int64_digits d k : digits d -> number_of d < 2 ^ 63 -> Int64 E (Some (gtree (T k [T d []]))) None = Ok (number_of d).
Proof. intros Hd Hl. unfold Int64. cbn [gtree map Interface this rbind v_int64f]. rewrite (parse_int_val d Hd Hl). reflexivity. Qed.
Lemma Set_index_changed ps d rest f g v : Forall (name E) ps -> digits d -> Forall (elem_ok E) rest -> number_of d < 2 ^ 63 ->
  fits f (path_text (map Name ps ++ Index d :: rest)) -> whole E g ->
  exists g' r, Set_ E f (Some g) (path_text (map Name ps ++ Index d :: rest)) v = Ok (Some g', r) /\ changed E (placed (Z.to_nat (number_of d)) v) ps g g'.
Proof.
  intros Hps Hd Hrest Hl Hf Hg. destruct (names_ok ps Hps) as [Ho _].
  assert (Hok : Forall (elem_ok E) (map Name ps ++ Index d :: rest)) by (apply Forall_app; split; [exact Ho|constructor; assumption]).
  rewrite Set_eq; [|exact Hok|intros He; destruct ps; discriminate He|exact Hf].
  pose proof (number_of_nonneg d (proj2 Hd)) as Hn.
  assert (Ht : forall n, exists n' r, (let* i := Int64 E (Some (gtree (elem_tree (Index d)))) None in set_index n i v) = Ok (n', r) /\ placed (Z.to_nat (number_of d)) v n n').
  { intros n. cbn [elem_tree]. rewrite (Int64_digits d (bs "!i") Hd Hl). cbn [rbind]. destruct (set_index_placed n (number_of d) v Hn) as (n' & H & Hp). eauto. }
  destruct (set_els_changed (placed (Z.to_nat (number_of d)) v) (gforest (map elem_tree (Index d :: rest))) v) with (ps := ps) (g := g) as (g' & r & H & HR); try assumption.
  unfold gforest in *. rewrite !map_app. rewrite H. exists g', r. split; [reflexivity|exact HR].
Qed.
End F.
