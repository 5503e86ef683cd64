(** C31 - C35, C38: Get, Set and the typed getters. *)
From Verif Require Import Base Value Graph GraphSpec GraphFacts TextSpec PathSpec PathParser PathFacts TypesSpec TypesFacts FloatFacts RoundSpec RoundFacts Eval AccessSpec AccessFacts Samples.

Definition calls0 : calls := {| remote _ := false; has_method _ _ := false; call _ _ _ := Ok (EVal VNil); to_json _ := Ok [] |}.

(** ** C31 After Set(path, v), Get(path) is a node whose only subnode is v.  Full claim: every
    graph and value.  Here: graphs without nil children, paths of names up to 4094 bytes,
    values that are neither nil nor graphs. *)
Theorem C31_set_get_partial : forall E C ps f g v, Forall (name E) ps -> ps <> [] -> fits f (path ps) -> whole E g ->
  v <> VNil -> (forall c, v <> VPtr (Some c)) ->
  exists g' r n, Set_ E f (Some g) (path ps) v = Ok (Some g', r) /\
    Get E C f (Some g') (path ps) = Ok (Some g', Some n) /\ out n = [Some (Node v [])].
Proof.
  intros E C ps f g v Hps Hn Hf Hg Hv1 Hv2. destruct (Set_changed E ps f g v Hps Hn Hf Hg) as (g' & r & H & Hc).
  destruct (changed_cwalk E _ ps g g' (replaced_keeps v) Hg Hc) as (m & n & [_ Ho] & Hw & _). exists g', r, n. split; [exact H|].
  destruct (names_ok E ps Hps) as [Hok Hu]. split.
  - apply Get_cwalk; try assumption. destruct ps; [congruence|discriminate].
  - rewrite Ho. destruct v as [| | | | | | |[c|] | | |]; try reflexivity; [congruence|exfalso; exact (Hv2 c eq_refl)].
Qed.
Print Assumptions C31_set_get_partial.
(** A graph is stored by its subnodes; nil empties the node. *)
Theorem C31_set_get_graph_partial : forall E C ps f g v, Forall (name E) ps -> ps <> [] -> fits f (path ps) -> whole E g ->
  exists g' r n, Set_ E f (Some g) (path ps) v = Ok (Some g', r) /\
    Get E C f (Some g') (path ps) = Ok (Some g', Some n) /\
    out n = match v with VNil => [] | VPtr (Some c) => out c | _ => [Some (Node v [])] end.
Proof.
  intros E C ps f g v Hps Hn Hf Hg. destruct (Set_changed E ps f g v Hps Hn Hf Hg) as (g' & r & H & Hc).
  destruct (changed_cwalk E _ ps g g' (replaced_keeps v) Hg Hc) as (m & n & [_ Ho] & Hw & _). exists g', r, n. split; [exact H|].
  destruct (names_ok E ps Hps) as [Hok Hu]. split; [|exact Ho]. apply Get_cwalk; try assumption. destruct ps; [congruence|discriminate].
Qed.
Print Assumptions C31_set_get_graph_partial.
(** What Set does to the rest of the graph. *)
Theorem C31_set_partial : forall E ps f g v, Forall (name E) ps -> ps <> [] -> fits f (path ps) -> whole E g ->
  exists g' r, Set_ E f (Some g) (path ps) v = Ok (Some g', r) /\ changed E (replaced v) ps g g'.
Proof. exact Set_changed. Qed.
Print Assumptions C31_set_partial.

Definition ex_names : list bytes := [bs "b"; bs "c"].
Definition ex_root : graph := nd "r" [nd "a" [nd "1" []]; nd "b" [nd "x" []; nd "y" []]; nd "b" []].
Lemma ex_names_ok : Forall (name env0) ex_names /\ fits 9 (path ex_names).
Proof. split; [unfold ex_names; ascii_names|split; cbn; lia]. Qed.
Lemma ex_root_data : all_nodes data ex_root.
Proof.
  assert (H : forall s k, Forall (all_nodes data) k -> all_nodes data (nd s k)) by (intros s k Hk; apply all_node; [exact I|exact Hk]).
  repeat (apply H; repeat constructor); apply H; repeat constructor; apply H; constructor.
Qed.
Example C31_ex : path ex_names = bs "b.c" /\ Forall (name env0) ex_names /\ fits 9 (path ex_names) /\ whole env0 ex_root /\
  Set_ env0 9 (Some ex_root) (bs "b.c") (VInt KInt 7) =
    Ok (Some (nd "r" [nd "a" [nd "1" []]; nd "b" [nd "x" []; nd "y" []; nd "c" [Node (VInt KInt 7) []]]; nd "b" []]), Some (Node (VInt KInt 7) [])) /\
  exists n, Get env0 calls0 9 (Some (nd "r" [nd "a" [nd "1" []]; nd "b" [nd "x" []; nd "y" []; nd "c" [Node (VInt KInt 7) []]]; nd "b" []])) (bs "b.c") =
    Ok (Some (nd "r" [nd "a" [nd "1" []]; nd "b" [nd "x" []; nd "y" []; nd "c" [Node (VInt KInt 7) []]]; nd "b" []]), Some n) /\ out n = [Some (Node (VInt KInt 7) [])].
Proof.
  destruct ex_names_ok as [H1 H2]. split; [reflexivity|]. split; [exact H1|]. split; [exact H2|]. split; [apply data_whole, ex_root_data|].
  assert (H : Set_ env0 9 (Some ex_root) (bs "b.c") (VInt KInt 7) =
    Ok (Some (nd "r" [nd "a" [nd "1" []]; nd "b" [nd "x" []; nd "y" []; nd "c" [Node (VInt KInt 7) []]]; nd "b" []]), Some (Node (VInt KInt 7) []))).
  { change (bs "b.c") with (path_text (map Name ex_names)). rewrite Set_eq; [reflexivity|apply names_ok; exact H1|discriminate|exact H2]. }
  split; [exact H|].
  destruct (C31_set_get_partial env0 calls0 ex_names 9 ex_root (VInt KInt 7) H1 ltac:(discriminate) H2 (data_whole _ _ ex_root_data) ltac:(discriminate) ltac:(discriminate)) as (g' & r & n & Hs & Hg & Ho).
  change (path ex_names) with (bs "b.c") in *. rewrite H in Hs. injection Hs as <- <-. exists n. split; assumption.
Qed.
(** Not so for a graph or nil as value, *)
Theorem C31_graph_value_refuted : exists E C f g c g' r n, whole E g /\ Set_ E f (Some g) (bs "a") (VPtr (Some c)) = Ok (Some g', r) /\
  Get E C f (Some g') (bs "a") = Ok (Some g', Some n) /\ out n <> [Some c].
Proof.
  exists env0, calls0, 9%nat, (nd "r" []), (nd "x" [nd "y" []]). eexists; eexists; eexists. split; [apply (all_node _ _ []); [eexists; reflexivity|constructor]|].
  assert (Hn : Forall (name env0) [bs "a"]) by ascii_names.
  assert (Hf : fits 9 (path_text (map Name [bs "a"]))) by (split; cbn; lia). change (bs "a") with (path_text (map Name [bs "a"])).
  split; [rewrite Set_eq; [reflexivity|apply names_ok; exact Hn|discriminate|exact Hf]|].
  split; [rewrite Get_eq; [reflexivity|apply names_ok; exact Hn|discriminate|exact Hf]|]. discriminate.
Qed.
Print Assumptions C31_graph_value_refuted.
(** nor when a nil child (left by an earlier Set with an index) comes first. *)
Theorem C31_nil_child_refuted : exists E f g v, Set_ E f (Some g) (bs "a") v = Panic.
Proof.
  exists env0, 9%nat, (Node (VStr (bs "r")) [None; Some (nd "a" [])]), (VStr (bs "1")).
  assert (Hn : Forall (name env0) [bs "a"]) by ascii_names.
  assert (Hf : fits 9 (path_text (map Name [bs "a"]))) by (split; cbn; lia). change (bs "a") with (path_text (map Name [bs "a"])).
  rewrite Set_eq; [reflexivity|apply names_ok; exact Hn|discriminate|exact Hf].
Qed.
Print Assumptions C31_nil_child_refuted.

(** ** C32 Set changes nothing else.  Full claim: every graph.  Here: graphs of data (no nil
    children, no functions, objects or pointers as contents). *)
Theorem C32_others_partial : forall E C ps qs f g v, Forall (name E) ps -> Forall (name E) qs -> ps <> [] -> qs <> [] ->
  fits f (path ps) -> fits f (path qs) -> all_nodes data g -> ~ prefix ps qs -> ~ prefix qs ps ->
  exists g' r n, Set_ E f (Some g) (path ps) v = Ok (Some g', r) /\
    Get E C f (Some g) (path qs) = Ok (Some g, n) /\ Get E C f (Some g') (path qs) = Ok (Some g', n).
Proof.
  intros E C ps qs f g v Hps Hqs Hn1 Hn2 Hf1 Hf2 Hg Hp1 Hp2.
  destruct (Set_changed E ps f g v Hps Hn1 Hf1 (data_whole E g Hg)) as (g' & r & H & Hc).
  destruct (changed_elsewhere E _ ps g g' (replaced_keeps v) (data_whole E g Hg) Hc qs (not_prefix_apart ps qs Hp1 Hp2)) as [H1 H2].
  destruct (names_ok E qs Hqs) as [Hok Hu]. assert (Hne : map Name qs <> []) by (destruct qs; [congruence|discriminate]).
  assert (Hk : Forall (fun e => key e <> None) (map Name qs)) by (apply Forall_forall; intros e He; apply in_map_iff in He; destruct He as (s & <- & _); discriminate).
  destruct (walk_or_lost E (map Name qs) Hk g (data_whole E g Hg)) as [(n & Hw)|Hl].
  - apply walk_cwalk in Hw; [|apply data_whole; exact Hg]. exists g', r, (Some n). split; [exact H|]. split; apply Get_cwalk; auto.
  - apply lost_clost in Hl; [|exact Hg]. exists g', r, None. split; [exact H|]. split; apply Get_clost; auto.
Qed.
Print Assumptions C32_others_partial.
Example C32_ex : all_nodes data ex_root /\ ~ prefix ex_names [bs "b"; bs "x"] /\ ~ prefix [bs "b"; bs "x"] ex_names /\ Forall (name env0) [bs "b"; bs "x"] /\ fits 9 (path [bs "b"; bs "x"]).
Proof.
  split; [exact ex_root_data|]. split; [intros (r & H); discriminate H|]. split; [intros (r & H); discriminate H|]. split; [ascii_names|split; cbn; lia].
Qed.

(** ** C33 Get composes.  Full claim: every graph and path. *)
Theorem C33_compose_partial : forall E C p q f g, Forall (elem_ok E) p -> Forall unmarked p -> Forall (elem_ok E) q -> Forall unmarked q ->
  p <> [] -> q <> [] -> Forall (fun e => key e <> None) p -> Forall (fun e => key e <> None) q -> all_nodes data g ->
  fits f (path_text p ++ "."%byte :: path_text q) ->
  exists m r, Get E C f (Some g) (path_text p) = Ok (Some g, m) /\ Get E C f m (path_text q) = Ok (m, r) /\
    Get E C f (Some g) (path_text p ++ "."%byte :: path_text q) = Ok (Some g, r).
Proof.
  intros E C p q f g Hp Hup Hq Huq Hnp Hnq Hkp Hkq Hg Hf.
  assert (Ht : path_text (p ++ q) = path_text p ++ "."%byte :: path_text q).
  { rewrite path_text_app by exact Hnp. f_equal. destruct q as [|e q]; [congruence|]. inversion Hkq; subst. destruct e; [reflexivity|reflexivity|cbn in *; congruence]. }
  assert (Hfp : fits f (path_text p)) by (destruct Hf as [H1 H2]; rewrite app_length in H1, H2; split; lia).
  assert (Hfq : fits f (path_text q)) by (destruct Hf as [H1 H2]; rewrite app_length in H1, H2; cbn [List.length] in H1, H2; split; lia).
  rewrite <- Ht in *. assert (Hok : Forall (elem_ok E) (p ++ q)) by (apply Forall_app; auto). assert (Hu : Forall unmarked (p ++ q)) by (apply Forall_app; auto).
  assert (Hn : p ++ q <> []) by (destruct p; [congruence|discriminate]).
  destruct (walk_or_lost E p Hkp g (data_whole E g Hg)) as [(m & Hw)|Hl].
  - pose proof (walk_data E p g m Hw Hg) as Hm. destruct (walk_or_lost E q Hkq m (data_whole E m Hm)) as [(n & Hw2)|Hl2].
    + exists (Some m), (Some n). split; [apply Get_walk; auto using data_whole|]. split; [apply Get_walk; auto using data_whole|].
      apply Get_walk; auto using data_whole. eapply walk_app; eassumption.
    + exists (Some m), None. split; [apply Get_walk; auto using data_whole|]. split; [apply Get_lost; auto|]. apply Get_lost; auto. eapply walk_lost; eassumption.
  - exists None, None. split; [apply Get_lost; auto|]. split; [reflexivity|]. apply Get_lost; auto. apply lost_app, Hl.
Qed.
Print Assumptions C33_compose_partial.
(** With indexes, as far as they are in range. *)
Theorem C33_compose_index_partial : forall E C p q f g m, Forall (elem_ok E) p -> Forall unmarked p -> Forall (elem_ok E) q -> Forall unmarked q ->
  p <> [] -> q <> [] -> Forall (fun e => key e <> None) q -> all_nodes data g -> walk E p g m ->
  fits f (path_text p) -> fits f (path_text q) -> fits f (path_text (p ++ q)) ->
  exists r, Get E C f (Some g) (path_text p) = Ok (Some g, Some m) /\ Get E C f (Some m) (path_text q) = Ok (Some m, r) /\
    Get E C f (Some g) (path_text (p ++ q)) = Ok (Some g, r).
Proof.
  intros E C p q f g m Hp Hup Hq Huq Hnp Hnq Hkq Hg Hw Hfp Hfq Hf.
  assert (Hok : Forall (elem_ok E) (p ++ q)) by (apply Forall_app; auto). assert (Hu : Forall unmarked (p ++ q)) by (apply Forall_app; auto).
  assert (Hn : p ++ q <> []) by (destruct p; [congruence|discriminate]).
  pose proof (walk_data E p g m Hw Hg) as Hm. destruct (walk_or_lost E q Hkq m (data_whole E m Hm)) as [(n & Hw2)|Hl2].
  - exists (Some n). split; [apply Get_walk; auto using data_whole|]. split; [apply Get_walk; auto using data_whole|].
    apply Get_walk; auto using data_whole. eapply walk_app; eassumption.
  - exists None. split; [apply Get_walk; auto using data_whole|]. split; [apply Get_lost; auto|]. apply Get_lost; auto. eapply walk_lost; eassumption.
Qed.
Print Assumptions C33_compose_index_partial.
(** Get returns the node that the names and indexes lead to, and nil if a name is missing. *)
Theorem C33_found : forall E C es f g n, Forall (elem_ok E) es -> Forall unmarked es -> es <> [] -> fits f (path_text es) -> whole E g ->
  walk E es g n -> Get E C f (Some g) (path_text es) = Ok (Some g, Some n).
Proof. exact Get_walk. Qed.
Print Assumptions C33_found.
Theorem C33_missing : forall E C es f g, Forall (elem_ok E) es -> Forall unmarked es -> es <> [] -> fits f (path_text es) -> all_nodes data g ->
  lost E es g -> Get E C f (Some g) (path_text es) = Ok (Some g, None).
Proof. exact Get_lost. Qed.
Print Assumptions C33_missing.
Definition ex_elems : list elem := [Name (bs "b"); Index (bs "1")].
Example C33_ex : Forall (elem_ok env0) ex_elems /\ Forall unmarked ex_elems /\ path_text ex_elems = bs "b[1]" /\
  walk env0 ex_elems ex_root (nd "[" [nd "y" []]) /\ lost env0 [Name (bs "b"); Quote x22 (bs "z z")] ex_root /\
  Get env0 calls0 9 (Some ex_root) (bs "b[1]") = Ok (Some ex_root, Some (nd "[" [nd "y" []])) /\
  Get env0 calls0 12 (Some ex_root) (bs "b.""z z""") = Ok (Some ex_root, None).
Proof.
  assert (H1 : Forall (elem_ok env0) ex_elems) by (unfold ex_elems; ascii_names).
  assert (H2 : Forall unmarked ex_elems) by (repeat constructor).
  assert (Hb : first_named env0 (bs "b") (out ex_root) 1 (nd "b" [nd "x" []; nd "y" []])).
  { split; [reflexivity|]. split; [eexists; split; reflexivity|]. intros [|j] c Hj Hc; [|lia]. cbn in Hc. injection Hc as <-. intros (n & [= <-] & Hn). discriminate Hn. }
  assert (H3 : walk env0 ex_elems ex_root (nd "[" [nd "y" []])).
  { eapply walk_key; [reflexivity|exact Hb|]. eapply walk_index; [cbn; lia|reflexivity|constructor]. }
  assert (H4 : lost env0 [Name (bs "b"); Quote x22 (bs "z z")] ex_root).
  { eapply lost_key; [reflexivity|exact Hb|]. eapply lost_here; [reflexivity|]. repeat constructor; intros (n & [= <-] & Hn); discriminate Hn. }
  split; [exact H1|]. split; [exact H2|]. split; [reflexivity|]. split; [exact H3|]. split; [exact H4|]. split.
  - change (bs "b[1]") with (path_text ex_elems). apply C33_found; try assumption; [discriminate|split; cbn; lia|apply data_whole, ex_root_data].
  - change (bs "b.""z z""") with (path_text [Name (bs "b"); Quote x22 (bs "z z")]). apply C33_missing; try assumption; [| |discriminate|split; cbn; lia|exact ex_root_data].
    + constructor; [apply name_ascii; [discriminate|repeat constructor]|]. constructor; [|constructor]. split; [left; reflexivity|]. repeat constructor; discriminate.
    + constructor; [exact I|]. constructor; [|constructor]. intros H. repeat (destruct H as [H|H]; [discriminate H|]). exact H.
Qed.

(** ** C34 Get is safe to chain.  Full claim: every graph and path.  Here: paths of names and
    quoted strings on graphs of data. *)
Definition usable (E : env) (r : option graph) : Prop :=
  is_ok (Int64 E r None) /\ is_ok (String_ E r) /\ is_ok (Bool_ E r None) /\ is_ok (ThisString E r) /\ is_ok (Interface r).
Lemma data_usable E n : all_nodes data n -> usable E (Some n).
Proof.
  intros H. destruct (all_nodes_inv _ _ H) as (v & k & -> & Hv & Hk). destruct (data_prints E v Hv) as (s & Hs).
  destruct Hk as [|c k Hc Hk]; [repeat split; try (eexists; reflexivity); exists s; exact Hs|].
  destruct (all_nodes_inv _ _ Hc) as (w & l & -> & Hw & _). cbn [map]. unfold usable, Int64, Bool_, String_, ThisString, Interface. cbn [this rbind].
  split; [|split; [|split; [|split; [exists s; exact Hs|eexists; reflexivity]]]]; destruct w; cbn in Hw; try contradiction; cbn; eexists; reflexivity.
Qed.
Theorem C34_safe_partial : forall E C es f g, Forall (elem_ok E) es -> Forall unmarked es -> es <> [] -> Forall (fun e => key e <> None) es ->
  fits f (path_text es) -> all_nodes data g ->
  exists r, Get E C f (Some g) (path_text es) = Ok (Some g, r) /\ usable E r /\ match r with Some n => all_nodes data n | None => True end.
Proof.
  intros E C es f g Hok Hu Hn Hk Hf Hg. destruct (walk_or_lost E es Hk g (data_whole E g Hg)) as [(n & Hw)|Hl].
  - pose proof (walk_data E es g n Hw Hg) as Hd. exists (Some n). split; [apply Get_walk; auto using data_whole|]. split; [apply data_usable; exact Hd|exact Hd].
  - exists None. split; [apply Get_lost; auto|]. split; [|exact I]. repeat split; eexists; reflexivity.
Qed.
Print Assumptions C34_safe_partial.
Theorem C34_nil_receiver : forall E C f s, Get E C f None s = Ok (None, None).
Proof. reflexivity. Qed.
Print Assumptions C34_nil_receiver.
Example C34_ex : all_nodes data ex_root /\ Forall (fun e => key e <> None) (map Name ex_names) /\ Forall (elem_ok env0) (map Name ex_names) /\ fits 9 (path_text (map Name ex_names)).
Proof.
  split; [exact ex_root_data|]. split; [repeat constructor; discriminate|]. split; [apply names_ok, ex_names_ok|split; cbn; lia].
Qed.
(** With an index beyond the end Get returns a node on which Int64 panics. *)
Theorem C34_index_refuted : exists E C f g r, all_nodes data g /\ Get E C f (Some g) (bs "[99]") = Ok (Some g, Some r) /\ Int64 E (Some r) None = Panic.
Proof.
  exists env0, calls0, 9%nat, ex_root, (Node (VStr (bs "[")) [Some (Node (VPtr None) [])]). split; [exact ex_root_data|]. split; [|reflexivity].
  change (bs "[99]") with (path_text [Index (bs "99")]). rewrite Get_eq; [vm_compute; reflexivity| |discriminate|split; cbn; lia].
  repeat constructor; try discriminate; cbn; lia.
Qed.
Print Assumptions C34_index_refuted.

(** ** C35 Set with an index.  Full claim: the graph remains usable and further elements are
    honoured.  Here: after names p and a constant index i, v is the i-th subnode of p, the other
    subnodes are kept, and the rest of the graph is unchanged. *)
Theorem C35_set_index_partial : forall E ps d f g v, Forall (name E) ps -> digits d -> number_of d < 2 ^ 63 ->
  fits f (path_text (map Name ps ++ [Index d])) -> whole E g ->
  exists g' r, Set_ E f (Some g) (path_text (map Name ps ++ [Index d])) v = Ok (Some g', r) /\
    changed E (placed (Z.to_nat (number_of d)) v) ps g g'.
Proof. intros E ps d f g v Hps Hd Hl Hf Hg. apply (Set_index_changed E ps d [] f g v Hps Hd (Forall_nil _) Hl Hf Hg). Qed.
Print Assumptions C35_set_index_partial.
(** In particular Get of the same path gives v, *)
Theorem C35_set_get_index_partial : forall E C ps d f g v, Forall (name E) ps -> digits d -> number_of d < 2 ^ 63 ->
  fits f (path_text (map Name ps ++ [Index d])) -> whole E g ->
  exists g' r, Set_ E f (Some g) (path_text (map Name ps ++ [Index d])) v = Ok (Some g', r) /\
    Get E C f (Some g') (path_text (map Name ps ++ [Index d])) = Ok (Some g', Some (Node (VStr (bs "[")) [Some (Node v [])])).
Proof.
  intros E C ps d f g v Hps Hd Hl Hf Hg. destruct (C35_set_index_partial E ps d f g v Hps Hd Hl Hf Hg) as (g' & r & H & Hc).
  exists g', r. split; [exact H|]. destruct (changed_cwalk E _ ps g g' (placed_keeps _ v) Hg Hc) as (m & n & (_ & _ & Hi & _) & Hw & _).
  destruct (names_ok E ps Hps) as [Hok Hu]. apply Get_cwalk; try assumption.
  - apply Forall_app. split; [exact Hok|constructor; [exact Hd|constructor]].
  - apply Forall_app. split; [exact Hu|repeat constructor].
  - destruct ps; discriminate.
  - clear - Hw Hi Hl. induction Hw as [n|e s es g i c n Hk Hf Hc _ IH|d' es g c n Hd Hc _ IH]; cbn [app].
    + eapply cwalk_index; [exact Hl|exact Hi|constructor].
    + eapply cwalk_key; eauto.
    + eapply cwalk_index; eauto.
Qed.
Print Assumptions C35_set_get_index_partial.
(** and paths that lead elsewhere give what they gave. *)
Theorem C35_others_partial : forall E C ps d qs f g v, Forall (name E) ps -> digits d -> number_of d < 2 ^ 63 ->
  fits f (path_text (map Name ps ++ [Index d])) -> all_nodes data g ->
  Forall (name E) qs -> qs <> [] -> fits f (path qs) -> ~ prefix ps qs -> ~ prefix qs ps ->
  exists g' r n, Set_ E f (Some g) (path_text (map Name ps ++ [Index d])) v = Ok (Some g', r) /\
    Get E C f (Some g) (path qs) = Ok (Some g, n) /\ Get E C f (Some g') (path qs) = Ok (Some g', n).
Proof.
  intros E C ps d qs f g v Hps Hd Hl Hf1 Hg Hqs Hn2 Hf2 Hp1 Hp2.
  destruct (C35_set_index_partial E ps d f g v Hps Hd Hl Hf1 (data_whole E g Hg)) as (g' & r & H & Hc).
  destruct (changed_elsewhere E _ ps g g' (placed_keeps _ v) (data_whole E g Hg) Hc qs (not_prefix_apart ps qs Hp1 Hp2)) as [H1 H2].
  destruct (names_ok E qs Hqs) as [Hok Hu]. assert (Hne : map Name qs <> []) by (destruct qs; [congruence|discriminate]).
  assert (Hk : Forall (fun e => key e <> None) (map Name qs)) by (apply Forall_forall; intros e He; apply in_map_iff in He; destruct He as (s & <- & _); discriminate).
  destruct (walk_or_lost E (map Name qs) Hk g (data_whole E g Hg)) as [(n & Hw)|Hll].
  - apply walk_cwalk in Hw; [|apply data_whole; exact Hg]. exists g', r, (Some n). split; [exact H|]. split; apply Get_cwalk; auto.
  - apply lost_clost in Hll; [|exact Hg]. exists g', r, None. split; [exact H|]. split; apply Get_clost; auto.
Qed.
Print Assumptions C35_others_partial.
Example C35_ex : digits (bs "1") /\ Set_ env0 9 (Some ex_root) (bs "b[1]") (VStr (bs "z")) =
  Ok (Some (nd "r" [nd "a" [nd "1" []]; nd "b" [nd "x" []; nd "z" []]; nd "b" []]), Some (nd "z" [])).
Proof.
  split; [split; [discriminate|repeat constructor; cbn; lia]|]. change (bs "b[1]") with (path_text ex_elems).
  rewrite Set_eq; [reflexivity| |discriminate|split; cbn; lia]. unfold ex_elems. ascii_names.
Qed.
(** Elements after the index are ignored, for every path: *)
Theorem C35_rest_ignored : forall E ps d rest f g v, Forall (name E) ps -> digits d -> Forall (elem_ok E) rest -> number_of d < 2 ^ 63 ->
  fits f (path_text (map Name ps ++ Index d :: rest)) -> whole E g ->
  exists g' r, Set_ E f (Some g) (path_text (map Name ps ++ Index d :: rest)) v = Ok (Some g', r) /\
    changed E (placed (Z.to_nat (number_of d)) v) ps g g'.
Proof. exact Set_index_changed. Qed.
Print Assumptions C35_rest_ignored.
Theorem C35_rest_refuted : exists E C f g v g' r, all_nodes data g /\ Set_ E f (Some g) (bs "[0].a") v = Ok (Some g', r) /\
  Get E C f (Some g') (bs "[0].a") = Ok (Some g', None).
Proof.
  exists env0, calls0, 12%nat, ex_root, (VStr (bs "v")). eexists; eexists. split; [exact ex_root_data|].
  change (bs "[0].a") with (path_text [Index (bs "0"); Name (bs "a")]).
  assert (Hok : Forall (elem_ok env0) [Index (bs "0"); Name (bs "a")]) by ascii_names.
  split; [rewrite Set_eq; [reflexivity|exact Hok|discriminate|split; cbn; lia]|].
  rewrite Get_eq; [vm_compute; reflexivity|exact Hok|discriminate|split; cbn; lia].
Qed.
Print Assumptions C35_rest_refuted.
(** After storing beyond the end, looking for a name panics. *)
Theorem C35_usable_refuted : exists E C f g v g' r, all_nodes data g /\ Set_ E f (Some g) (bs "[4]") v = Ok (Some g', r) /\
  Get E C f (Some g') (bs "c") = Panic.
Proof.
  exists env0, calls0, 12%nat, ex_root, (VStr (bs "v")). eexists; eexists. split; [exact ex_root_data|].
  change (bs "[4]") with (path_text [Index (bs "4")]). change (bs "c") with (path_text [Name (bs "c")]).
  split; [rewrite Set_eq; [reflexivity|ascii_names|discriminate|split; cbn; lia]|].
  rewrite Get_eq; [vm_compute; reflexivity|ascii_names|discriminate|split; cbn; lia].
Qed.
Print Assumptions C35_usable_refuted.

(** ** C38 The typed getters, for every path on which Get returns and gives no nil subnode
    first.  [first_of n]: the content of the first subnode. *)
Definition first_of (n : option graph) : option (value graph) :=
  match n with Some (Node _ (Some c :: _)) => Some (this c) | _ => None end.
Definition no_nil_first (n : option graph) : Prop := match n with Some (Node _ (None :: _)) => False | _ => True end.
Theorem C38_string_partial : forall E C f g g' path n, path <> [] -> Get E C f g path = Ok (g', n) -> no_nil_first n ->
  match first_of n with
  | Some v => forall s, vstring E v = Ok s -> GetString E C f g path = Ok (Some s)
  | None => GetString E C f g path = Ok None
  end.
Proof.
  intros E C f g g' path n Hp H Hn. unfold GetString, get_with. destruct path; [congruence|]. rewrite H. cbn [rbind].
  destruct n as [[t [|[c|] o]]|]; cbn in *; try reflexivity; [|contradiction]. intros s Hs. rewrite Hs. reflexivity.
Qed.
Print Assumptions C38_string_partial.
(** What GetInt64 should return for a content that is not a pointer *)
Definition gives_int (v : value graph) (r : res (option Z)) : Prop :=
  match v with
  | VStr s | VBytes s => (forall z, numeral s z -> r = Ok (Some z)) /\ ((forall z, ~ numeral s z) -> r = Ok None)
  | VInt k z => in64 z -> r = Ok (Some z)
  | VF64 x => forall z, integer_part x z -> in64 z -> r = Ok (Some z)
  | VF32 x => valid_binary 24 128 x = true -> forall z, integer_part x z -> in64 z -> r = Ok (Some z)
  | _ => r = Ok None
  end.
Theorem C38_int64_partial : forall E C f g g' path n, path <> [] -> Get E C f g path = Ok (g', n) -> no_nil_first n ->
  match first_of n with
  | None => GetInt64 E C f g path = Ok None
  | Some (VPtr None) => GetInt64 E C f g path = Panic
  | Some (VPtr (Some q)) => gives_int (this q) (GetInt64 E C f g path)
  | Some v => gives_int v (GetInt64 E C f g path)
  end.
Proof.
  intros E C f g g' path n Hp H Hn. unfold GetInt64, get_with. destruct path; [congruence|]. rewrite H. cbn [rbind].
  destruct n as [[t [|[c|] o]]|]; cbn [first_of no_nil_first] in *; try reflexivity; [|contradiction].
  assert (L : forall v, (forall p, v <> VPtr p) -> gives_int v (v_int64f E v)).
  { intros v Hv. destruct v as [|s|s|b1|k z|x|x|p|i|i|i]; cbn [gives_int v_int64f rbind v_int64]; try reflexivity.
    - split; [intros z Hz; apply parse_int_iff in Hz; congruence|]. intros Hz. destruct (parse_int s) as [z|] eqn:Hpz; [|reflexivity]. exfalso. apply (Hz z), parse_int_iff, Hpz.
    - split; [intros z Hz; apply parse_int_iff in Hz; congruence|]. intros Hz. destruct (parse_int s) as [z|] eqn:Hpz; [|reflexivity]. exfalso. apply (Hz z), parse_int_iff, Hpz.
    - intros Hz. rewrite wrap64_id by exact Hz. reflexivity.
    - intros Hv32 z Hz Hz64. rewrite (f2i_part E _ z); [reflexivity| |exact Hz64]. apply integer_part_f32; assumption.
    - intros z Hz Hz64. rewrite (f2i_part E _ z); [reflexivity|exact Hz|exact Hz64].
    - exfalso. exact (Hv p eq_refl). }
  destruct (this c) as [|s|s|b1|k z|x|x|[q|]|i|i|i] eqn:Ht; try (apply L; discriminate); [|reflexivity].
  replace (v_int64f E (VPtr (Some q))) with (Ok match this q with VPtr _ => None | v => match v_int64f E v with Ok r => r | _ => None end end) by (cbn; destruct (this q) as [|s|s|b1|k z|x|x|p|i|i|i]; reflexivity).
  specialize (L (this q)). destruct (this q) as [|s|s|b1|k z|x|x|p|i|i|i]; try (apply L; discriminate). reflexivity.
Qed.
Print Assumptions C38_int64_partial.
(** GetFloat64: floats and integers of up to 53 bits keep their value; for other contents
    ParseFloat of the text decides. *)
Theorem C38_float64_partial : forall E C f g g' path n, path <> [] -> Get E C f g path = Ok (g', n) -> no_nil_first n ->
  match first_of n with
  | None => GetFloat64 E C f g path = Ok None
  | Some (VF64 x) => GetFloat64 E C f g path = Ok (Some x)
  | Some (VF32 x) => exists y, GetFloat64 E C f g path = Ok (Some y) /\ (single x -> double y /\ in_units y = in_units x)
  | Some (VInt k z) => exists y, GetFloat64 E C f g path = Ok (Some y) /\ (in64 z -> rounds (z * 2 ^ 1074) 1 y) /\ (Z.abs z < 2 ^ 53 -> float_is y z)
  | Some v => forall s, vstring E v = Ok s -> GetFloat64 E C f g path = Ok (parse_float E s)
  end.
Proof.
  intros E C f g g' path n Hp H Hn. unfold GetFloat64, get_with. destruct path; [congruence|]. rewrite H. cbn [rbind].
  destruct n as [[t [|[c|] o]]|]; cbn [first_of no_nil_first] in *; try reflexivity; [|contradiction].
  destruct (this c) as [|s|s|b1|k z|x|x|p|i|i|i] eqn:Ht; cbn [v_float64f v_float64 v_int64]; try reflexivity;
    try (intros s0 Hs; rewrite Hs; reflexivity).
  - eexists. split; [reflexivity|]. split; intro Hz; [rewrite wrap64_id by exact Hz; apply of_Z_rounds|]. rewrite wrap64_id by (unfold in64; lia). apply f64_of_Z_exact, Hz.
  - eexists. split; [reflexivity|]. intro Hv. apply f32_units; destruct x; try contradiction; try exact Hv; try exact I; reflexivity.
Qed.
Print Assumptions C38_float64_partial.
(** What GetBool should return for a content that is not a pointer *)
Definition gives_bool (v : value graph) (r : res (option bool)) : Prop :=
  match v with
  | VStr s | VBytes s =>
      (s = bs "true" -> r = Ok (Some true)) /\ (s = bs "false" -> r = Ok (Some false)) /\
      (s <> bs "true" -> s <> bs "false" -> r = Ok None)
  | VBool b => r = Ok (Some b)
  | VInt KInt z | VInt KInt64 z => (z = 0 -> r = Ok (Some false)) /\ (z <> 0 -> r = Ok (Some true))
  | _ => r = Ok None
  end.
Theorem C38_bool_partial : forall E C f g g' path n, path <> [] -> Get E C f g path = Ok (g', n) -> no_nil_first n ->
  match first_of n with
  | None => GetBool E C f g path = Ok None
  | Some (VPtr None) => GetBool E C f g path = Ok None
  | Some (VPtr (Some q)) => gives_bool (this q) (GetBool E C f g path)
  | Some v => gives_bool v (GetBool E C f g path)
  end.
Proof.
  intros E C f g g' path n Hp H Hn. unfold GetBool, get_with. destruct path; [congruence|]. rewrite H. cbn [rbind].
  destruct n as [[t [|[c|] o]]|]; cbn [first_of no_nil_first] in *; try reflexivity; [|contradiction].
  assert (L : forall v, (forall p, v <> VPtr p) -> gives_bool v (Ok (v_boolf v))).
  { assert (Hs : forall s, gives_bool (VStr s) (Ok (v_boolf (VStr s)))).
    { intro s. cbn [gives_bool]. split; [intros ->; reflexivity|]. split; [intros ->; reflexivity|]. intros H1 H2. unfold v_boolf.
      destruct (bseq_spec s (bs "false")) as [->|_]; [exfalso; apply H2; reflexivity|]. destruct (bseq_spec s (bs "true")) as [->|_]; [exfalso; apply H1; reflexivity|]. reflexivity. }
    assert (Hz : forall z, (z = 0 -> Ok (Some (negb (z =? 0))) = Ok (Some false)) /\ (z <> 0 -> Ok (Some (negb (z =? 0))) = Ok (Some true))).
    { intro z. destruct (Z.eqb_spec z 0); split; intro; try reflexivity; contradiction. }
    intros v Hv. destruct v as [|s|s|b1|k z|x|x|p|i|i|i]; try reflexivity; [apply Hs|apply (Hs s)| |exfalso; exact (Hv p eq_refl)].
    destruct k; try reflexivity; apply Hz. }
  destruct (this c) as [|s|s|b1|k z|x|x|[q|]|i|i|i] eqn:Ht; try (apply L; discriminate); [|reflexivity].
  specialize (L (this q)). unfold v_boolf in *. destruct (this q) as [|s|s|b1|k z|x|x|p|i|i|i]; try (apply L; discriminate). reflexivity.
Qed.
Print Assumptions C38_bool_partial.
Theorem C38_bytes_partial : forall E C f g g' path n, path <> [] -> Get E C f g path = Ok (g', n) -> no_nil_first n ->
  match first_of n with
  | Some v => (forall p, v <> VPtr p) -> forall s, vstring E v = Ok s -> GetBytes E C f g path = Ok (Some s)
  | None => GetBytes E C f g path = Ok None
  end.
Proof.
  intros E C f g g' path n Hp H Hn. unfold GetBytes, get_with. destruct path; [congruence|]. rewrite H. cbn [rbind].
  destruct n as [[t [|[c|] o]]|]; cbn in *; try reflexivity; [|contradiction]. intros Hv s Hs.
  destruct (this c) as [| | | | | | |p| | |] eqn:Ht; try (cbn in *; injection Hs as <-; reflexivity). exfalso. exact (Hv p eq_refl).
Qed.
Print Assumptions C38_bytes_partial.
(** With the empty path the getters read the first subnode of the graph itself, never give an
    error, and fall back to 0, NaN or false. *)
Theorem C38_empty_path : forall E C f t v k o s, v = VStr s \/ v = VBytes s ->
  let g := Some (Node t (Some (Node v k) :: o)) in
  GetString E C f g [] = Ok (Some s) /\ GetBytes E C f g [] = Ok (Some s) /\
  (exists z, GetInt64 E C f g [] = Ok (Some z) /\ (forall z', numeral s z' -> z = z') /\ ((forall z', ~ numeral s z') -> z = 0)) /\
  GetFloat64 E C f g [] = Ok (Some match parse_float E s with Some x => x | None => S754_nan end) /\
  exists b, GetBool E C f g [] = Ok (Some b) /\ (b = true <-> s = bs "true").
Proof.
  intros E C f t v k o s Hv g.
  split; [destruct Hv as [-> | ->]; reflexivity|]. split; [destruct Hv as [-> | ->]; reflexivity|].
  split.
  { destruct (Int64_text E t v s k o None Hv) as (z & H & H1 & H2). exists z. unfold GetInt64, get_with, g. rewrite H. split; [reflexivity|]. split; [|exact H2]. intros z' K. apply H1, K. }
  split; [destruct Hv as [-> | ->]; cbn; destruct (parse_float E s); reflexivity|].
  assert (K : Bool_ E g None = Ok match v_boolf (VStr s) with Some b => b | None => false end) by (destruct Hv as [-> | ->]; reflexivity).
  unfold GetBool, get_with. rewrite K. eexists. split; [reflexivity|]. unfold v_boolf.
  destruct (bseq_spec s (bs "false")) as [->|_]; [split; discriminate|]. destruct (bseq_spec s (bs "true")) as [->|H]; split; intro X; try reflexivity; try discriminate; contradiction.
Qed.
Print Assumptions C38_empty_path.
(** Bool and its default, on a text *)
Theorem C38_bool_default : forall E t v k o s def, v = VStr s \/ v = VBytes s ->
  exists b, Bool_ E (Some (Node t (Some (Node v k) :: o))) def = Ok b /\ (s = bs "true" -> b = true) /\ (s = bs "false" -> b = false) /\
  (s <> bs "true" -> s <> bs "false" -> b = match def with Some d => d | None => false end).
Proof.
  intros E t v k o s def Hv.
  assert (K : Bool_ E (Some (Node t (Some (Node v k) :: o))) def = Ok match v_boolf (VStr s) with Some b => b | None => match def with Some d => d | None => false end end) by (destruct Hv as [-> | ->]; reflexivity).
  rewrite K. eexists. split; [reflexivity|]. unfold v_boolf.
  destruct (bseq_spec s (bs "false")) as [->|H1]; [repeat split; intros; try discriminate; contradiction|].
  destruct (bseq_spec s (bs "true")) as [->|H2]; repeat split; intros; try discriminate; try reflexivity; contradiction.
Qed.
Print Assumptions C38_bool_default.
Example C38_empty_ex : GetBool env0 calls0 9 (Some (nd "x" [nd "true" []])) [] = Ok (Some true) /\ GetInt64 env0 calls0 9 (Some (nd "x" [nd "q" []])) [] = Ok (Some 0) /\
  Bool_ env0 (Some (nd "x" [nd "maybe" []])) (Some true) = Ok true.
Proof. repeat split. Qed.
(** A number is true behind a path and false without one. *)
Theorem C38_bool_number_refuted : exists g n, GetBool env0 calls0 20 (Some g) (bs "n") = Ok (Some true) /\ out g = [Some n] /\ GetBool env0 calls0 20 (Some n) [] = Ok (Some false).
Proof.
  exists (nd "x" [nd "n" [Node (VInt KInt 1) []]]). eexists. split; [|split; [reflexivity|vm_compute; reflexivity]].
  unfold GetBool, get_with. change (bs "n") with (path_text [Name (bs "n")]).
  rewrite Get_eq; [vm_compute; reflexivity|ascii_names|discriminate|split; cbn; lia].
Qed.
Print Assumptions C38_bool_number_refuted.
(** End to end: what was stored is what the getters return. *)
Theorem C38_set_get_partial : forall E C ps f g z b s, Forall (name E) ps -> ps <> [] -> fits f (path ps) -> whole E g -> in64 z ->
  (exists g' r, Set_ E f (Some g) (path ps) (VInt KInt64 z) = Ok (Some g', r) /\ GetInt64 E C f (Some g') (path ps) = Ok (Some z)) /\
  (exists g' r, Set_ E f (Some g) (path ps) (VBool b) = Ok (Some g', r) /\ GetBool E C f (Some g') (path ps) = Ok (Some b)) /\
  (exists g' r, Set_ E f (Some g) (path ps) (VStr s) = Ok (Some g', r) /\ GetString E C f (Some g') (path ps) = Ok (Some s)).
Proof.
  intros E C ps f g z b s Hps Hn Hf Hg Hz. assert (Hne : path ps <> []).
  { destruct ps as [|x ps]; [congruence|]. inversion Hps as [|? ? [Hx _] _]; subst. destruct x; [congruence|discriminate]. }
  split; [|split].
  - destruct (C31_set_get_partial E C ps f g (VInt KInt64 z) Hps Hn Hf Hg ltac:(discriminate) ltac:(discriminate)) as (g' & r & [t o] & Hs & Hgt & Ho). cbn [out] in Ho. subst o.
    exists g', r. split; [exact Hs|]. exact (C38_int64_partial E C f _ _ _ _ Hne Hgt I Hz).
  - destruct (C31_set_get_partial E C ps f g (VBool b) Hps Hn Hf Hg ltac:(discriminate) ltac:(discriminate)) as (g' & r & [t o] & Hs & Hgt & Ho). cbn [out] in Ho. subst o.
    exists g', r. split; [exact Hs|]. exact (C38_bool_partial E C f _ _ _ _ Hne Hgt I).
  - destruct (C31_set_get_partial E C ps f g (VStr s) Hps Hn Hf Hg ltac:(discriminate) ltac:(discriminate)) as (g' & r & [t o] & Hs & Hgt & Ho). cbn [out] in Ho. subst o.
    exists g', r. split; [exact Hs|]. exact (C38_string_partial E C f _ _ _ _ Hne Hgt I s eq_refl).
Qed.
Print Assumptions C38_set_get_partial.
Example C38_ex : bs "a" <> [] /\ Get env0 calls0 9 (Some ex_root) (bs "a") = Ok (Some ex_root, Some (nd "a" [nd "1" []])) /\
  GetInt64 env0 calls0 9 (Some ex_root) (bs "a") = Ok (Some 1).
Proof.
  assert (H : Get env0 calls0 9 (Some ex_root) (bs "a") = Ok (Some ex_root, Some (nd "a" [nd "1" []]))).
  { change (bs "a") with (path_text [Name (bs "a")]). rewrite Get_eq; [reflexivity|ascii_names|discriminate|split; cbn; lia]. }
  split; [discriminate|]. split; [exact H|]. exact (proj1 (C38_int64_partial env0 calls0 9 (Some ex_root) (Some ex_root) (bs "a") (Some (nd "a" [nd "1" []])) ltac:(discriminate) H I) 1 (num_plain (bs "1") ltac:(split; [discriminate|repeat constructor; cbn; lia]) ltac:(cbn; lia))).
Qed.
Example C38_float_ex : integer_part (S754_finite true 5 (-1)) (-2) /\ float_is (f64_of_Z (-3)) (-3) /\ valid_binary 24 128 (S754_finite true 10485760 (-22)) = true.
Proof.
  split; [|split; [apply f64_of_Z_exact; cbn; lia|reflexivity]].
  exists true, 5, 2. split; [repeat split|]. split; [cbn; lia|]. split; [lia|discriminate].
Qed.
(** A nil subnode first makes them panic. *)
Theorem C38_nil_first_refuted : exists E C f g n, Get E C f (Some g) (bs "a") = Ok (Some g, Some n) /\ GetString E C f (Some g) (bs "a") = Panic.
Proof.
  set (g := Node VNil [Some (Node (VStr (bs "a")) [None; Some (nd "x" [])])]).
  assert (H : Get env0 calls0 9 (Some g) (bs "a") = Ok (Some g, Some (Node (VStr (bs "a")) [None; Some (nd "x" [])]))).
  { change (bs "a") with (path_text [Name (bs "a")]). rewrite Get_eq; [reflexivity|ascii_names|discriminate|split; cbn; lia]. }
  exists env0, calls0, 9%nat, g, (Node (VStr (bs "a")) [None; Some (nd "x" [])]). split; [exact H|]. unfold GetString, get_with. change (bs "a") with ["a"%byte] in *. cbn iota. rewrite H. reflexivity.
Qed.
Print Assumptions C38_nil_first_refuted.
