(** C24, C25, C26, C28, C29, C30: the operations on graphs. *)
From Verif Require Import Base Value Graph GraphSpec GraphFacts Samples.
From Coq Require Import SpecFloat.

(** ** C24 lookup and creation.  Full claim: every graph; graphs with a nil child (Set with an
    index creates them) are excluded by [printable]. *)
Theorem C24_node_partial : forall E t o s, printable E o ->
  exists r, Node_ E (Some (Node t o)) s = Ok r /\
    match r with Some n => exists i, first_named E s o i n | None => none_named E s o end.
Proof. exact Node_spec. Qed.
Print Assumptions C24_node_partial.

Theorem C24_node_or_new_partial : forall E t o s, printable E o ->
  exists g' n, NodeOrNew E (Some (Node t o)) s = Ok (Some g', Some n) /\
    ((g' = Node t o /\ exists i, first_named E s o i n) \/
     (n = Node (VStr s) [] /\ g' = Node t (o ++ [Some n]) /\ none_named E s o)).
Proof. exact NodeOrNew_spec. Qed.
Print Assumptions C24_node_or_new_partial.

(** Create: the first child of that name emptied, or a new last one; the rest untouched. *)
Theorem C24_create_partial : forall E t o s, printable E o ->
  exists o' n, Create E (Some (Node t o)) s = Ok (Some (Node t o'), Some n) /\ out n = [] /\ put E s [] o o' /\
    exists i, first_named E s o' i n.
Proof. exact Create_spec. Qed.
Print Assumptions C24_create_partial.

(** NodeSet: the first child of that name (or a new last one) has v as its only subnode; the
    node returned is that subnode; the rest is untouched. *)
Theorem C24_node_set_partial : forall E t o s v, printable E o ->
  exists o' k, NodeSet E (Some (Node t o)) s v = Ok (Some (Node t o'), match k with c :: _ => c | [] => None end) /\
    subnode v k /\ put E s k o o'.
Proof. exact NodeSet_spec. Qed.
Print Assumptions C24_node_set_partial.

Definition ex_kids : list graph := [nd "a" [nd "1" []]; Node (VInt KInt 7) [Some (nd "x" [])]; nd "a" [nd "2" []]].
Definition ex_g : graph := Node (VStr (bs "r")) (map Some ex_kids).
Example C24_ex : printable env0 (out ex_g) /\
  Node_ env0 (Some ex_g) (bs "7") = Ok (Some (Node (VInt KInt 7) [Some (nd "x" [])])) /\
  Node_ env0 (Some ex_g) (bs "b") = Ok None /\
  NodeSet env0 (Some ex_g) (bs "a") (VBool true) =
    Ok (Some (nd "r" [nd "a" [Node (VBool true) []]; Node (VInt KInt 7) [Some (nd "x" [])]; nd "a" [nd "2" []]]), Some (Node (VBool true) [])) /\
  Create env0 (Some ex_g) (bs "b") = Ok (Some (nd "r" (ex_kids ++ [nd "b" []])), Some (nd "b" [])).
Proof.
  split; [repeat constructor; eexists; eexists; split; reflexivity|]. vm_compute. repeat split; reflexivity.
Qed.

(** Nil receivers are tolerated. *)
Theorem C24_nil_receiver : forall E s v, Node_ E None s = Ok None /\ NodeOrNew E None s = Ok (None, None) /\
  Create E None s = Ok (None, None) /\ NodeSet E None s v = Ok (None, None).
Proof. intros. repeat split; reflexivity. Qed.
Print Assumptions C24_nil_receiver.

(** With a nil child the lookup panics before it reaches a later match. *)
Theorem C24_node_refuted : exists E g n s, In (Some n) (out g) /\ this n = VStr s /\ Node_ E (Some g) s = Panic.
Proof. exists env0, (Node (VStr (bs "r")) [None; Some (nd "a" [])]), (nd "a" []), (bs "a"). split; [right; left; reflexivity|split; reflexivity]. Qed.
Print Assumptions C24_node_refuted.

(** ** C25 deletion.  Full claim: every graph and content; contents of uncomparable types and
    nil children are excluded. *)
Theorem C25_delete_partial : forall E t o n, comparable n ->
  Forall (fun c => exists m, c = Some m /\ comparable (this m)) o ->
  exists o', Delete E (Some (Node t o)) n = Ok (Some (Node t o')) /\ deleted n o o'.
Proof. exact Delete_spec. Qed.
Print Assumptions C25_delete_partial.
Example C25_delete_ex : comparable (VStr (bs "a")) /\
  Forall (fun c => exists m, c = Some m /\ comparable (this m)) (out ex_g) /\
  Delete env0 (Some ex_g) (VStr (bs "a")) = Ok (Some (Node (VStr (bs "r")) [Some (Node (VInt KInt 7) [Some (nd "x" [])])])).
Proof. split; [exact I|]. split; [repeat constructor; eexists; split; try reflexivity; exact I|]. vm_compute. reflexivity. Qed.

(** What Delete and DeleteAt leave determines what they removed. *)
Theorem C25_deleted_unique : forall n o o1 o2, deleted n o o1 -> deleted n o o2 -> o1 = o2.
Proof. intros n o o1 o2 H. revert o2. induction H; intros o2 H2; inversion H2; subst; try contradiction; try reflexivity; [|f_equal]; auto. Qed.
Print Assumptions C25_deleted_unique.

Theorem C25_delete_at : forall t o1 c o2, DeleteAt (Some (Node t (o1 ++ c :: o2))) (Z.of_nat (List.length o1)) = Some (Node t (o1 ++ o2)).
Proof. exact DeleteAt_in. Qed.
Print Assumptions C25_delete_at.
Theorem C25_delete_at_out_of_range : forall g i, i < 0 \/ Len g <= i -> DeleteAt g i = g.
Proof. exact DeleteAt_out. Qed.
Print Assumptions C25_delete_at_out_of_range.
Example C25_delete_at_ex : DeleteAt (Some ex_g) 1 = Some (nd "r" [nd "a" [nd "1" []]; nd "a" [nd "2" []]]) /\
  DeleteAt (Some ex_g) 2 = Some (nd "r" [nd "a" [nd "1" []]; Node (VInt KInt 7) [Some (nd "x" [])]]) /\
  DeleteAt (Some ex_g) 3 = Some ex_g /\ DeleteAt None 0 = None.
Proof. vm_compute. repeat split; reflexivity. Qed.
Theorem C25_clear : forall t o, Clear (Some (Node t o)) = Some (Node t []).
Proof. reflexivity. Qed.
Print Assumptions C25_clear.

(** Deleting by a []byte content panics when a child holds a []byte; a child holding the bytes
    of a string is not deleted by the string. *)
Theorem C25_delete_refuted : exists E g n, (exists c, In (Some c) (out g) /\ this c = n) /\ Delete E (Some g) n = Panic.
Proof. exists env0, (Node VNil [Some (Node (VBytes (bs "a")) [])]), (VBytes (bs "a")). split; [eexists; split; [left; reflexivity|reflexivity]|reflexivity]. Qed.
Print Assumptions C25_delete_refuted.
Theorem C25_delete_prints_refuted : exists E g s, (exists c, In (Some c) (out g) /\ vstring E (this c) = Ok s) /\ Delete E (Some g) (VStr s) = Ok (Some g).
Proof. exists env0, (Node VNil [Some (Node (VBytes (bs "a")) [])]), (bs "a"). split; [eexists; split; [left; reflexivity|reflexivity]|reflexivity]. Qed.
Print Assumptions C25_delete_prints_refuted.

(** ** C26 Equals decides equality of contents, order and shape. *)
Theorem C26_equals_partial : forall E g, all_nodes comparable g -> forall c, all_nodes comparable c ->
  exists b, Equals_ E (Some g) (Some c) = Ok b /\ (b = true <-> same g c).
Proof. exact Equals_spec. Qed.
Print Assumptions C26_equals_partial.
(** Without floating-point contents this is identity. *)
Theorem C26_equals_identity : forall E g c, all_nodes comparable g -> all_nodes comparable c -> all_nodes no_float g ->
  (Equals_ E (Some g) (Some c) = Ok true <-> g = c).
Proof.
  intros E g c Hg Hc Hf. destruct (Equals_spec E g Hg c Hc) as (b & -> & Hb). split.
  - intros [= ->]. apply same_eq; tauto.
  - intros <-. f_equal. apply Hb. clear - Hg Hf.
    assert (H : all_nodes (fun v => comparable v /\ not_nan v) g); [|apply same_refl; exact H].
    revert Hf. apply all_nodes_ind' with (2 := Hg). clear g Hg. intros v k Hv _ IH Hf.
    destruct (all_nodes_inv _ _ Hf) as (v' & k' & He & Hv' & Hk'). injection He as <- Hk. apply map_Some_inj in Hk. subst k'.
    constructor; [split; [exact Hv|destruct v; try exact I; contradiction]|].
    revert Hk'. clear Hf. induction IH as [|x k Hx _ IHk]; intros Hk'; constructor; inversion Hk'; subst; auto.
Qed.
Print Assumptions C26_equals_identity.
Theorem C26_reflexive : forall E g, all_nodes (fun v => comparable v /\ not_nan v) g -> Equals_ E (Some g) (Some g) = Ok true.
Proof.
  intros E g H. assert (Hc : all_nodes comparable g).
  { apply all_nodes_ind' with (2 := H). intros v k [Hv _] _ IH. constructor; assumption. }
  destruct (Equals_spec E g Hc g Hc) as (b & -> & Hb). f_equal. apply Hb, same_refl, H.
Qed.
Print Assumptions C26_reflexive.
Theorem C26_symmetric : forall E g c, all_nodes comparable g -> all_nodes comparable c ->
  Equals_ E (Some g) (Some c) = Equals_ E (Some c) (Some g).
Proof.
  intros E g c Hg Hc. destruct (Equals_spec E g Hg c Hc) as (b & -> & Hb). destruct (Equals_spec E c Hc g Hg) as (b' & -> & Hb').
  f_equal. destruct b, b'; try reflexivity.
  - symmetry. apply Hb', same_sym. tauto.
  - apply Hb, same_sym. tauto.
Qed.
Print Assumptions C26_symmetric.
Theorem C26_transitive : forall E g c d, all_nodes comparable g -> all_nodes comparable c -> all_nodes comparable d ->
  Equals_ E (Some g) (Some c) = Ok true -> Equals_ E (Some c) (Some d) = Ok true -> Equals_ E (Some g) (Some d) = Ok true.
Proof.
  intros E g c d Hg Hc Hd. destruct (Equals_spec E g Hg c Hc) as (b & -> & Hb). destruct (Equals_spec E c Hc d Hd) as (b' & -> & Hb').
  destruct (Equals_spec E g Hg d Hd) as (b'' & -> & Hb''). intros [= ->] [= ->]. f_equal. apply Hb''. eapply same_trans; [apply Hb|apply Hb']; reflexivity.
Qed.
Print Assumptions C26_transitive.
Ltac nodes := repeat match goal with
  | |- all_nodes _ ?g => change g with (Node (this g) (map Some (match g with Node _ o => flat_map (fun c => match c with Some c => [c] | None => [] end) o end))); cbn [this flat_map app nd map]; constructor
  | |- Forall _ (_ :: _) => constructor
  | |- Forall _ [] => constructor
  end.
Example C26_ex : all_nodes comparable ex_g /\ all_nodes no_float ex_g /\
  Equals_ env0 (Some ex_g) (Some ex_g) = Ok true /\
  Equals_ env0 (Some ex_g) (Some (nd "r" [nd "a" [nd "1" []]; Node (VInt KInt64 7) [Some (nd "x" [])]; nd "a" [nd "2" []]])) = Ok false.
Proof. split; [|split; [|vm_compute; split; reflexivity]]; repeat first [apply (all_node _ _ []) | apply (all_node _ _ [_]) | apply (all_node _ _ [_;_;_]) | constructor | exact I]. Qed.

(** []byte contents (which the binary reader produces) and nil children panic; NaN is not
    equal to itself. *)
Theorem C26_equals_refuted : exists E g, Equals_ E (Some g) (Some g) = Panic.
Proof. exists env0, (Node (VBytes (bs "a")) []). reflexivity. Qed.
Print Assumptions C26_equals_refuted.
Theorem C26_nil_child_refuted : exists E g, comparable (this g) /\ Equals_ E (Some g) (Some g) = Panic.
Proof. exists env0, (Node (VStr (bs "a")) [None]). split; [exact I|reflexivity]. Qed.
Print Assumptions C26_nil_child_refuted.
Theorem C26_nan_refuted : exists E g, all_nodes comparable g /\ Equals_ E (Some g) (Some g) = Ok false.
Proof. exists env0, (Node (VF64 S754_nan) []). split; [apply (all_node _ _ []); [exact I|constructor]|reflexivity]. Qed.
Print Assumptions C26_nan_refuted.

(** ** C28 Copy.  Full claim: every pair of graphs; contents that are nil or pointers to
    graphs are excluded. *)
Theorem C28_copy_partial : forall t o s k, Forall (all_nodes copyable) k ->
  Copy (Some (Node t o)) (Some (Node s (map Some k))) = Ok (Some (Node t (o ++ map Some k))).
Proof. exact Copy_spec. Qed.
Print Assumptions C28_copy_partial.
Example C28_ex : Forall (all_nodes copyable) ex_kids /\
  Copy (Some (nd "q" [nd "z" []])) (Some ex_g) = Ok (Some (nd "q" (nd "z" [] :: ex_kids))).
Proof. split; [|vm_compute; reflexivity]. unfold ex_kids. repeat first [apply (all_node _ _ []) | apply (all_node _ _ [_]) | constructor | exact I]. Qed.
(** A node with nil content is dropped together with everything below it. *)
Theorem C28_copy_refuted : exists g c n, In (Some n) (out c) /\ out n <> [] /\ Copy (Some g) (Some c) = Ok (Some g).
Proof. exists (nd "q" []), (Node (VStr (bs "r")) [Some (Node VNil [Some (nd "a" [])])]), (Node VNil [Some (nd "a" [])]). split; [left; reflexivity|]. split; [discriminate|reflexivity]. Qed.
Print Assumptions C28_copy_refuted.

(** ** C29 Substitute.  Full claim: every graph; graphs with a nil child are excluded. *)
Theorem C29_substitute_partial : forall E g s w, whole E g ->
  exists g', Substitute E g s w = Ok g' /\ this g' = this g /\ List.length (out g') = List.length (out g) /\
    forall i p, match node_at g (i :: p) with
                | None => node_at g' (i :: p) = None
                | Some n => exists n', node_at g' (i :: p) = Some n' /\ List.length (out n') = List.length (out n) /\
                    (vstring E (this n) = Ok s -> this n' = w) /\ (vstring E (this n) <> Ok s -> this n' = this n)
                end.
Proof. exact Substitute_spec. Qed.
Print Assumptions C29_substitute_partial.
(** Idempotent, also when v prints as s. *)
Theorem C29_idempotent_partial : forall E g g' s w, whole E g -> (exists x, vstring E w = Ok x) ->
  Substitute E g s w = Ok g' -> Substitute E g' s w = Ok g'.
Proof. exact Substitute_idem. Qed.
Print Assumptions C29_idempotent_partial.
Definition ex_sub : graph := nd "a" [nd "a" [nd "b" [nd "a" []]]; nd "c" [nd "a" []]].
Example C29_ex : whole env0 ex_sub /\ Substitute env0 ex_sub (bs "a") (VInt KInt 7) =
  Ok (nd "a" [Node (VInt KInt 7) [Some (nd "b" [Node (VInt KInt 7) []])]; nd "c" [Node (VInt KInt 7) []]]).
Proof.
  split; [|vm_compute; reflexivity]. repeat first [apply (all_node _ _ []) | apply (all_node _ _ [_]) | apply (all_node _ _ [_;_]) | constructor | eexists; reflexivity].
Qed.
(** With a missing node it panics. *)
Theorem C29_nil_child_refuted : exists E g s w, Substitute E g s w = Panic.
Proof. exists env0, (Node VNil [None]), [], VNil. reflexivity. Qed.
Print Assumptions C29_nil_child_refuted.

(** ** C30 Merge.  Full claim: the child to merge with is found by the name of the source
    child.  The code looks it up by the content of the source child's first subnode; the
    claim holds when no such content prints like a child. *)
Theorem C30_append_partial : forall E t k g, printable E (out g) -> printable E (map Some k) ->
  no_match E k (out g) -> no_match E k (map Some k) ->
  Merge E (Node t (map Some k)) g = Ok (Node (this g) (out g ++ map Some k)).
Proof. exact Merge_append. Qed.
Print Assumptions C30_append_partial.
Theorem C30_replace_partial : forall E t g node k i m, printable E (out g) -> out node = map Some k -> printable E (map Some k) ->
  no_match E k (map Some k) ->
  forall s, String_ E (Some node) = Ok s -> first_named E s (out g) i m ->
  Merge E (Node t [Some node]) g = Ok (Node (this g) (set_nth i (Some (Node (this m) (out node))) (out g))).
Proof. exact Merge_replace. Qed.
Print Assumptions C30_replace_partial.
Example C30_append_ex : let k := [nd "b" [nd "2" []]] in printable env0 (out ex_g) /\ printable env0 (map Some k) /\
  no_match env0 k (out ex_g) /\ no_match env0 k (map Some k) /\ Merge env0 (nd "s" k) ex_g = Ok (nd "r" (ex_kids ++ k)).
Proof.
  cbn. split; [repeat constructor; do 2 eexists; split; reflexivity|]. split; [repeat constructor; do 2 eexists; split; reflexivity|].
  split; [|split; [|vm_compute; reflexivity]].
  - repeat constructor. exists (bs "2"). split; [reflexivity|]. repeat constructor; intros (n & [= <-] & H); discriminate H.
  - repeat constructor. exists (bs "2"). split; [reflexivity|]. repeat constructor; intros (n & [= <-] & H); discriminate H.
Qed.
Example C30_replace_ex : let node := nd "a" [nd "a" [nd "2" []]] in String_ env0 (Some node) = Ok (bs "a") /\
  first_named env0 (bs "a") (out ex_g) 0 (nd "a" [nd "1" []]) /\ no_match env0 [nd "a" [nd "2" []]] (out node) /\
  Merge env0 (nd "s" [node]) ex_g = Ok (nd "r" [nd "a" [nd "a" [nd "2" []]]; Node (VInt KInt 7) [Some (nd "x" [])]; nd "a" [nd "2" []]]).
Proof.
  cbn. split; [reflexivity|]. split.
  - split; [reflexivity|]. split; [eexists; split; reflexivity|]. lia.
  - split; [|vm_compute; reflexivity]. repeat constructor. exists (bs "2"). split; [reflexivity|]. repeat constructor; intros (n & [= <-] & H); discriminate H.
Qed.
(** Merging {a {c}} into {a {b}} leaves two children a. *)
Theorem C30_merge_refuted : exists E g src g', Merge E src g = Ok g' /\
  (exists n, out src = [Some n] /\ named E (bs "a") (Some n)) /\ (exists n, out g = [Some n] /\ named E (bs "a") (Some n)) /\
  List.length (out g') = 2%nat.
Proof.
  exists env0, (nd "r" [nd "a" [nd "b" []]]), (nd "s" [nd "a" [nd "c" []]]). eexists. split; [vm_compute; reflexivity|].
  split; [eexists; split; [reflexivity|eexists; split; reflexivity]|]. split; [eexists; split; [reflexivity|eexists; split; reflexivity]|]. reflexivity.
Qed.
Print Assumptions C30_merge_refuted.
(** Merging {a {b}} into {b {x}} does not add a, and empties b. *)
Theorem C30_other_child_refuted : exists E g src g', Merge E src g = Ok g' /\
  (exists n, out src = [Some n] /\ named E (bs "a") (Some n)) /\ none_named E (bs "a") (out g) /\ none_named E (bs "a") (out g').
Proof.
  exists env0, (nd "r" [nd "b" [nd "x" []]]), (nd "s" [nd "a" [nd "b" []]]). eexists. split; [vm_compute; reflexivity|].
  split; [eexists; split; [reflexivity|eexists; split; reflexivity]|].
  split; repeat constructor; intros (n & [= <-] & H); discriminate H.
Qed.
Print Assumptions C30_other_child_refuted.
