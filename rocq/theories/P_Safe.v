(** C34, C86: when Get panics, and what it returns. *)
From Verif Require Import Base Value EventSpec Emit EventFacts TextSpec PathSpec Graph PathParser PathTerm PathFacts AccessSpec AccessFacts Eval Template HeapEvalFacts PanicSpec Panics.
From Verif Require Import GraphSpec HeapSpec HeapFacts Ends P_Ends Samples P_Path P_Access P_Panics Fuel.
Local Notation len l := (Z.of_nat (List.length l)).

(** What Get makes of an index beyond the end, and the subnode of it *)
Definition nil_node : graph := Node (VPtr None) [].
Definition no_such : graph := Node (VStr (bs "[")) [Some nil_node].
Definition reached (c : graph) : Prop := stored false (Some c) \/ c = no_such \/ c = nil_node.
Definition reached_opt (c : option graph) : Prop := match c with Some c => reached c | None => True end.
(** The second element of the path is not the name of a method of a graph: below a node that is not there,
    a name that is not found calls the method with the name of the second element. *)
Definition no_method (C : calls) (p : graph) : Prop := forall n s, child (out p) 1 = Some n -> this n = VStr s -> has_method C (VPtr None) s = false.

Lemma reached_tame c : reached c -> tame c.
Proof.
  intros [H|[-> | ->]]; [apply given_tame, stored_given, H| |].
  - apply (tame_node _ [nil_node]); [discriminate|]. constructor; [|constructor]. apply (tame_node _ []); [discriminate|constructor].
  - apply (tame_node _ []); [discriminate|constructor].
Qed.
Lemma given_reached c : given c -> reached c.
Proof. intros H. left. apply given_stored, H. Qed.
Lemma given_opt_reached c : given_opt c -> reached_opt c.
Proof. destruct c; [apply given_reached|auto]. Qed.

Section Get.
Variables (E : env) (C : calls) (g : graph) (W : Prop).
Hypothesis Hg : given g.
Variable ev : bool -> option graph -> graph -> res (graph * eres).
Variable part : graph -> Prop.
Hypothesis Hform : forall p, part p -> formed p.
Hypothesis Hev : forall b e, part e -> to g W eres_mild (ev b (Some e) g).

Lemma child_reached c i : reached c -> reached_opt (child (out c) i).
Proof.
  intros [H|[-> | ->]].
  - apply given_opt_reached, child_given, stored_given, H.
  - destruct i as [|[|i]]; [right; right; reflexivity|exact I|exact I].
  - destruct i; exact I.
Qed.
Lemma Node_reached c s n : reached c -> Node_ E (Some c) s = Ok n -> reached_opt n.
Proof.
  intros H. pose proof (fun i => child_reached c i H) as K. destruct c as [v o]. cbn [Node_ out] in *. destruct (find_child E s o) as [i| |]; try discriminate. cbn [rbind]. intros J. injection J as <-.
  destruct i; [apply K|exact I].
Qed.
(** The index: the node [ with the subnode, or with a nil graph if there is none *)
Lemma bracket_reached c ix c' : reached c -> GetAt (Some c) ix = Ok c' -> reached (Node (VStr (bs "[")) (add_out (VPtr c'))).
Proof.
  intros H K. assert (J : c' = None \/ exists i, c' = child (out c) i).
  { destruct c as [v o]. cbn [GetAt out] in *. destruct (_ || _); injection K as <-; [left; reflexivity|right; eexists; reflexivity]. }
  destruct J as [-> |(i & ->)]; [right; left; reflexivity|]. destruct H as [H|[-> | ->]].
  - pose proof (child_given c i (stored_given _ H)) as Hc. destruct (child (out c) i) as [x|]; [|right; left; reflexivity].
    apply given_reached. apply (given_node _ [x]); [exact I|constructor; [exact Hc|constructor]].
  - destruct i as [|[|i]]; right; left; reflexivity.
  - destruct i; right; left; reflexivity.
Qed.
Lemma sel_reached k prev key : ready part k -> reached_opt prev -> to g W (fun r => match r with inl c => reached_opt c | inr _ => True end) (selector E ev k prev key g).
Proof.
  intros Hk Hp. assert (Hd : (exists p, prev = Some p /\ (p = no_such \/ p = nil_node)) \/ given_opt prev).
  { destruct prev as [p|]; [|right; exact I]. destruct Hp as [Hp|Hp]; [right; apply stored_given, Hp|left; eauto]. }
  destruct Hd as [(p & -> & Hd)|Hd].
  - unfold selector. destruct key as [|k0 key]; [apply to_ok; exact I|]. eapply to_bind; [eapply to_index; [exact Hev|exact Hk]|]. intros ix _ _. cbv zeta. destruct (_ <? _); [apply to_ok; exact I|].
    assert (K : forall b : bool, exists o, (if b then equal_nodes E (k0 :: key) (out p) else nth_equal E (Z.to_nat (wrap64 (ix + 1) - 1)) (k0 :: key) (out p)) = Ok o /\ o = []).
    { intros b. destruct Hd as [-> | ->]; destruct b; (eexists; split; [reflexivity|reflexivity]). }
    destruct (K (wrap64 (ix + 1) =? 0)) as (o & Ko & ->). rewrite Ko. cbn [rbind]. apply to_ok. left. constructor; [exact I|constructor].
  - pose proof (to_selector E g W ev part Hev k prev key Hk Hd) as K. destruct (selector E ev k prev key g) as [[g' [r|r]]| |]; cbn in *; try exact K.
    split; [apply K|apply given_opt_reached, K].
Qed.
Lemma first_reached c x o : reached c -> out c = x :: o -> exists t, first_this c = Ok t /\ (datum t \/ t = VPtr None).
Proof.
  intros [H|[-> | ->]] Ho.
  - destruct (first_given c x o (stored_given _ H) Ho) as (t & Ht & Hd). exists t. auto.
  - exists (VPtr None). split; [reflexivity|right; reflexivity].
  - discriminate.
Qed.
Lemma function_reached p t : no_method C p -> (forall n, child (out p) 1 = Some n -> exists s, this n = VStr s) -> datum t \/ t = VPtr None -> exists r, function E C ev p t g = Ok (g, r) /\ (r = EVal VNil \/ exists e, r = EErr e).
Proof.
  intros Hm Ht [H | ->]; [exists (EVal VNil); split; [apply function_datum, H|left; reflexivity]|]. unfold function. destruct (child (out p) 1) as [n|] eqn:Hn; [|eexists; split; [reflexivity|right; eexists; reflexivity]].
  destruct (Ht n eq_refl) as (s & Hs). cbn [ThisString]. rewrite Hs. cbn [vstring sstring rbind]. rewrite (Hm n s Hn Hs). eexists. split; [reflexivity|right; eexists; reflexivity].
Qed.
Definition found (r : option graph + N) : Prop := match r with inl n => reached_opt n | inr _ => True end.
Lemma to_get_els p els : (forall n c, In (Some n) (out p) -> In (Some c) (out n) -> formed c -> part c) -> no_method C p -> (forall n, child (out p) 1 = Some n -> exists s, this n = VStr s) ->
  Forall (fun c => exists x, c = Some x /\ element x /\ In (Some x) (out p)) els -> forall ctx prev key, reached_opt ctx -> reached_opt prev ->
  to g W found (get_els E C ev p els ctx prev key g).
Proof.
  intros Helem Hm Hch. induction 1 as [|n els Hn _ IH]; intros ctx prev key Hc Hv; [apply to_ok, Hc|]. cbn [get_els]. destruct ctx as [c|]; [|apply to_ok; exact I].
  destruct Hn as (n' & -> & Hel & Hin).
  assert (Hrd : match this n' with VStr s => In s [bs "!i"; bs "!s"; bs "!g"] -> ready part n' | _ => False end).
  { destruct Hel as [s k Hns _|s k _ Hk _]; cbn [this]; [intros K; contradiction|]. intros _ c0 Hc0. cbn [out] in Hc0. pose proof Hc0 as Hc1. apply in_map_iff in Hc0. destruct Hc0 as (z & <- & Hz).
    exists z. split; [reflexivity|]. eapply Helem; [exact Hin|exact Hc1|]. exact (proj1 (Forall_forall _ _) Hk _ Hz). }
  destruct (this n') as [|s| | | | | | | | |] eqn:Hts; try contradiction. assert (Hs : ThisString E (Some n') = Ok s) by (cbn [ThisString]; rewrite Hts; reflexivity). rewrite Hs. cbn [rbind].
  assert (Hfn : forall x o key, out c = x :: o -> to g W found (let* t := first_this c in let* (g, r) := function E C ev p t g in
      match r with EErr e => Ok (g, inr e) | EVal (VPtr next) => get_els E C ev p els next (Some c) key g | EVal _ => Ok (g, inr ErrFunctionNoGraph) end)).
  { intros x o key' Ho. destruct (first_reached c x o Hc Ho) as (t & -> & Ht). cbn [rbind]. destruct (function_reached p t Hm Hch Ht) as (r & -> & [-> |(e & ->)]); cbn [rbind]; apply to_ok; exact I. }
  assert (Hnm : forall s, to g W found (let* next := Node_ E (Some c) s in match next with
      | Some _ => get_els E C ev p els next (Some c) s g
      | None => match out c with [] => get_els E C ev p els None (Some c) s g | _ => let* t := first_this c in let* (g, r) := function E C ev p t g in
         match r with EErr e => Ok (g, inr e) | EVal (VPtr next) => get_els E C ev p els next (Some c) s g | EVal _ => Ok (g, inr ErrFunctionNoGraph) end end end)).
  { intros s'. apply to_read; [apply np_Node, reached_tame, Hc|]. intros nx Hx. pose proof (Node_reached c s' nx Hc Hx) as Hnx. destruct nx as [nx|]; [apply IH; assumption|].
    destruct (out c) as [|x o] eqn:Ho; [apply IH; [exact I|exact Hc]|]. rewrite <- Ho in *. apply (Hfn x o s' Ho). }
  destruct (bseq_spec s TypeIndex) as [->|_].
  { eapply to_bind; [eapply to_index; [exact Hev|apply Hrd; cbn; tauto]|]. intros ix _ _. destruct (_ <? _); [apply to_ok; exact I|].
    destruct (GetAt (Some c) ix) as [c'| |] eqn:Hat; [| |exact I].
    - cbn [rbind]. apply IH; [eapply bracket_reached; eassumption|exact Hc].
    - exfalso. destruct c as [v o]. cbn [GetAt] in Hat. destruct (_ || _) in Hat; discriminate. }
  destruct (bseq_spec s TypeSelector) as [->|_].
  { eapply to_bind; [apply sel_reached; [apply Hrd; cbn; tauto|exact Hv]|]. intros r _ Hr. destruct r as [r|]; [apply IH; [exact Hr|exact Hc]|apply to_ok; exact I]. }
  destruct (bseq s TypeArguments).
  { destruct (out c) as [|x o] eqn:Ho; [apply to_ok; exact I|]. rewrite <- Ho in *. apply (Hfn x o key Ho). }
  destruct (bseq_spec s TypeGroup) as [->|_]; [|apply Hnm].
  eapply to_bind; [eapply to_group_name; [exact Hform|exact Hev|apply Hrd; cbn; tauto| |]|].
  - destruct Hel as [s k Hns _|s k _ _ Hk]; cbn [this] in Hts; injection Hts as ->; [exfalso; apply Hns; cbn; tauto|]. destruct (Hk eq_refl) as (K & _). cbn [out]. destruct k; [congruence|discriminate].
  - destruct Hel as [s k Hns _|s k _ _ Hk]; cbn [this] in Hts; injection Hts as ->; [exfalso; apply Hns; cbn; tauto|]. destruct (Hk eq_refl) as (_ & K). cbn [out].
    intros y Hy. apply in_map_iff in Hy. destruct Hy as (z & E0 & Hz). injection E0 as ->. exact (proj1 (Forall_forall _ _) K _ Hz).
  - intros r _ _. destruct r as [s'|[]]; [apply Hnm|apply to_ok; exact I|apply to_ok; exact I].
Qed.
End Get.

Lemma to_getPath E C f g k : Forall element k -> no_method C (Node (VStr (bs "!p")) (map Some k)) -> stored false (Some g) -> (forall x, stored false (Some x) -> to_json C x <> Panic) ->
  let p := Node (VStr (bs "!p")) (map Some k) in to g (fault_in E C f g p) found (getPath E C (evalExpression E C f) p g).
Proof.
  intros Hk Hm Hg Hj p. assert (Hp : formed p) by (apply formed_path, Hk). apply stored_given in Hg.
  assert (Hj' : forall x, given x -> to_json C x <> Panic) by (intros x Hx; apply Hj, given_stored, Hx).
  assert (Hel : forall c, In c (out p) -> exists x, c = Some x /\ element x).
  { intros c Hc. apply in_map_iff in Hc. destruct Hc as (x & <- & Hx). exists x. split; [reflexivity|]. exact (proj1 (Forall_forall _ _) Hk _ Hx). }
  unfold getPath. destruct (out p) as [|x o] eqn:Ho; [apply to_ok; exact I|]. rewrite <- Ho in *.
  eapply to_get_els with (part := fun q => part_of q p /\ formed q).
  - intros q (_ & H). exact H.
  - intros b e (Hr & Hc). apply to_evalExpression; try assumption. lia.
  - intros n c Hn Hin Hc. split; [|exact Hc]. eapply part_kid; [exact Hn|]. destruct n as [v' o']. eapply part_kid; [exact Hin|constructor].
  - exact Hm.
  - intros n Hn. unfold child in Hn. destruct (nth_error (out p) 1) as [c|] eqn:H1; [|discriminate]. subst c. apply nth_error_In in H1. destruct (Hel _ H1) as (y & Hy & He). injection Hy as <-. destruct He; eexists; reflexivity.
  - apply Forall_forall. intros c Hc. destruct (Hel c Hc) as (y & -> & Hy). exists y. auto.
  - apply given_reached, Hg.
  - exact I.
Qed.

(** ** C86 For Get as for Eval: with indexes, selectors and names in parentheses that hold any expressions without assignments, a panic comes from the
    operands of an operator in one of them. *)
Theorem C86_get_partial : forall E C f g s k, NewPath E f s = Ok (Node (VStr (bs "!p")) (map Some k)) -> Forall element k -> no_method C (Node (VStr (bs "!p")) (map Some k)) ->
  stored false (Some g) -> (forall x, stored false (Some x) -> to_json C x <> Panic) ->
  Get E C f (Some g) s = Panic -> fault_in E C f g (Node (VStr (bs "!p")) (map Some k)).
Proof.
  intros E C f g s k Hs Hk Hm Hg Hj HP. pose proof (to_getPath E C f g k Hk Hm Hg Hj) as K. cbv zeta in K. unfold Get in HP. rewrite Hs in HP. cbn [rbind] in HP.
  destruct (getPath E C (evalExpression E C f) _ g) as [[g' r]| |]; [discriminate|exact K|discriminate].
Qed.
Print Assumptions C86_get_partial.

(** ** C34 Paths of names, quoted strings and indexes: Get returns, leaves the receiver as it was, and what it returns can be used
    with the typed accessors, unless it is the node that stands for an index beyond the end. *)
Lemma given_data : forall c, given c -> all_nodes data c.
Proof.
  fix IH 2. intros c [v k Hv Hk]. constructor; [exact Hv|]. induction Hk as [|x k Hx _ IHk]; constructor; [apply IH, Hx|exact IHk].
Qed.
Lemma reached_usable E r : reached_opt r -> usable E r \/ r = Some no_such.
Proof.
  destruct r as [c|]; [|intros _; left; repeat split; eexists; reflexivity]. intros [H|[-> | ->]]; [left|right; reflexivity|left; repeat split; eexists; reflexivity].
  apply data_usable, given_data, stored_given, H.
Qed.
Lemma leaf_eval E C f d g : digits d -> exists r, evalExpression E C (S f) true (Some (Node (VStr d) [])) g = Ok (g, r).
Proof.
  intros Hd. pose proof (isInteger_digits d Hd) as Hi. destruct Hd as (Hn & Hd). destruct d as [|c d]; [congruence|]. inversion Hd as [|? ? Hc _]; subst.
  cbn [evalExpression]. unfold eval_body. cbn [this ThisString vstring sstring rbind]. assert (K : isNumber (c :: d) = true).
  { cbn [isNumber]. destruct c; cbn in Hc; try lia; reflexivity. }
  rewrite K. unfold number. cbn [v_float64 v_int64 vstring sstring rbind]. rewrite Hi. cbn [rbind]. destruct (parse_int _); eexists; reflexivity.
Qed.
Lemma get_total E C f p g els : no_method C p -> (forall n, child (out p) 1 = Some n -> exists s, this n = VStr s) -> Forall (elem_ok E) els -> Forall unmarked els ->
  forall ctx prev key, reached_opt ctx -> exists r, get_els E C (evalExpression E C (S f)) p (gforest (map elem_tree els)) ctx prev key g = Ok (g, r) /\ found r.
Proof.
  intros Hm Hch Hok. induction Hok as [|e els He _ IH]; intros Hu ctx prev key Hc; [exists (inl ctx); split; [reflexivity|exact Hc]|]. inversion Hu as [|? ? Hue Hu']; subst. specialize (IH Hu').
  cbn [map gforest]. cbn [get_els]. destruct ctx as [c|]; [|exists (inl None); split; [reflexivity|exact I]].
  assert (Hfn : forall x o key, out c = x :: o -> exists r, (let* t := first_this c in let* (g, r) := function E C (evalExpression E C (S f)) p t g in
      match r with EErr e => Ok (g, inr e) | EVal (VPtr next) => get_els E C (evalExpression E C (S f)) p (gforest (map elem_tree els)) next (Some c) key g | EVal _ => Ok (g, inr ErrFunctionNoGraph) end) = Ok (g, r) /\ found r).
  { intros x o key' Ho. destruct (first_reached c x o Hc Ho) as (t & -> & Ht). cbn [rbind].
    destruct (function_reached E C g (evalExpression E C (S f)) p t Hm Hch Ht) as (r & -> & [-> |(e' & ->)]); cbn [rbind]; eexists; (split; [reflexivity|exact I]). }
  assert (Hnm : forall s, exists r, (let* next := Node_ E (Some c) s in match next with
      | Some _ => get_els E C (evalExpression E C (S f)) p (gforest (map elem_tree els)) next (Some c) s g
      | None => match out c with [] => get_els E C (evalExpression E C (S f)) p (gforest (map elem_tree els)) None (Some c) s g | _ => let* t := first_this c in let* (g, r) := function E C (evalExpression E C (S f)) p t g in
         match r with EErr e => Ok (g, inr e) | EVal (VPtr next) => get_els E C (evalExpression E C (S f)) p (gforest (map elem_tree els)) next (Some c) s g | EVal _ => Ok (g, inr ErrFunctionNoGraph) end end end) = Ok (g, r) /\ found r).
  { intros s'. destruct (Node_ E (Some c) s') as [nx| |] eqn:Hx.
    - cbn [rbind]. pose proof (Node_reached E c s' nx Hc Hx) as Hnx. destruct nx as [nx|]; [apply IH; exact Hnx|]. destruct (out c) as [|x o] eqn:Ho; [apply IH; exact I|]. rewrite <- Ho in *. apply (Hfn x o s' Ho).
    - exfalso. apply (np_Node E c s' (reached_tame c Hc) Hx).
    - exfalso. apply (fin_Node E (Some c) s' Hx). }
  assert (Hlit : forall s, ~ In s [bs "!i"; bs "!s"; bs "!a"; bs "!g"] -> bseq s TypeIndex = false /\ bseq s TypeSelector = false /\ bseq s TypeArguments = false /\ bseq s TypeGroup = false).
  { intros s Hs. repeat split; match goal with |- bseq s ?t = false => destruct (bseq_spec s t) as [->|_]; [exfalso; apply Hs; cbn; tauto|reflexivity] end. }
  destruct e as [s|q s|d]; cbn [elem_tree gtree map ThisString this vstring sstring rbind].
  - assert (Hs : ~ In s [bs "!i"; bs "!s"; bs "!a"; bs "!g"]).
    { apply name_not_marked in He. destruct s as [|c0 s]; [destruct He|]. intros [K|[K|[K|[K|[]]]]]; injection K as <- _; discriminate. }
    destruct (Hlit s Hs) as (-> & -> & -> & ->). apply Hnm.
  - destruct (Hlit s Hue) as (-> & -> & -> & ->). apply Hnm.
  - change (bseq (bs "!i") TypeIndex) with true. cbv iota. unfold index_. cbn [out]. destruct (leaf_eval E C f d g He) as (r & Hr). rewrite Hr. cbn [rbind].
    match goal with |- context [if ?b then _ else _] => destruct b end; [eexists; split; [reflexivity|exact I]|].
    match goal with |- context [GetAt (Some c) ?i] => destruct (GetAt (Some c) i) as [c'| |] eqn:Hat end; cbn [rbind]; [apply IH; eapply bracket_reached; eassumption| |];
      exfalso; destruct c as [v o]; cbn [GetAt] in Hat; destruct (_ || _) in Hat; discriminate.
Qed.
Lemma data_reached g : all_nodes data g -> reached g.
Proof.
  intros Hg. left. revert g Hg. fix IH 2. intros g [v k Hv Hk]. constructor; [exact Hv|]. induction Hk as [|x k Hx _ IHk]; constructor; [apply IH, Hx|exact IHk].
Qed.
Theorem C34_chain_partial : forall E C es f g, Forall (elem_ok E) es -> Forall unmarked es -> es <> [] ->
  (forall e s, nth_error es 1 = Some e -> key e = Some s -> has_method C (VPtr None) s = false) -> has_method C (VPtr None) (bs "!i") = false ->
  fits f (path_text es) -> all_nodes data g ->
  exists r, Get E C f (Some g) (path_text es) = Ok (Some g, r) /\ (usable E r \/ r = Some no_such).
Proof.
  intros E C es f g Hok Hu Hn Hm Hmi Hf Hg. rewrite Get_eq by assumption. pose proof (data_reached g Hg) as Hgv.
  destruct f as [|f]; [destruct Hf; lia|].
  assert (Hel : forall n, child (gforest (map elem_tree es)) 1 = Some n -> exists e, nth_error es 1 = Some e /\ n = gtree (elem_tree e)).
  { intros n H. unfold child, gforest in H. rewrite map_map in H. rewrite nth_error_map in H. destruct (nth_error es 1) as [e|]; [|discriminate]. cbn in H. injection H as <-. exists e. auto. }
  destruct (get_total E C f (Node (VStr TypePath) (gforest (map elem_tree es))) g es) with (ctx := Some g) (prev := @None graph) (key := @nil byte) as (r & -> & Hr); try assumption.
  - intros n s H Hs. cbn [out] in H. destruct (Hel n H) as (e & He & ->). destruct e as [s'|q s'|d]; cbn in Hs; injection Hs as <-; [eapply Hm; [exact He|reflexivity]|eapply Hm; [exact He|reflexivity]|exact Hmi].
  - intros n H. cbn [out] in H. destruct (Hel n H) as (e & _ & ->). destruct e; eexists; reflexivity.
  - cbn [rbind]. eexists. split; [reflexivity|]. destruct r as [n|]; [apply reached_usable, Hr|apply reached_usable; exact I].
Qed.
Print Assumptions C34_chain_partial.
(** The second element matters: below an index beyond the end a name calls the method of that name on a nil graph, and Get panics
    if the method does. *)
Theorem C34_method_refuted : forall E C f g d m, digits d -> number_of d < 2 ^ 63 -> len (out g) <= number_of d -> name E m -> fits f (path_text [Index d; Name m]) ->
  has_method C (VPtr None) m = true -> call C (VPtr None) m [] = Panic -> Get E C f (Some g) (path_text [Index d; Name m]) = Panic.
Proof.
  intros E C f g d m Hd Hl Ho Hm Hf Hh Hc. rewrite Get_eq; [|constructor; [exact Hd|constructor; [exact Hm|constructor]]|discriminate|exact Hf].
  destruct f as [|f]; [destruct Hf; lia|]. cbn [map gforest elem_tree gtree get_els ThisString this vstring sstring rbind]. change (bseq (bs "!i") TypeIndex) with true. cbv iota.
  assert (Hi : index_ (evalExpression E C (S f)) (Node (VStr (bs "!i")) [Some (Node (VStr d) [])]) g = Ok (g, number_of d)).
  { apply (index_num (evalExpression E C (S f))); [|exact Hd|exact Hl]. intros d' g' Hd' Hl'. apply eval_number; assumption. }
  rewrite Hi. cbn [rbind].
  assert (Hs : ~ In m [bs "!i"; bs "!s"; bs "!a"; bs "!g"] /\ m <> []).
  { apply name_not_marked in Hm. destruct m as [|c0 s]; [destruct Hm|]. split; [|discriminate]. intros [K|[K|[K|[K|[]]]]]; injection K as <- _; discriminate. }
  assert (H0 : 0 <= number_of d) by lia.
  replace (number_of d <? 0) with false by (symmetry; apply Z.ltb_ge; exact H0).
  assert (Hat : GetAt (Some g) (number_of d) = Ok None).
  { destruct g as [v o]. cbn [GetAt out] in *. destruct (_ || _) eqn:K; [reflexivity|]. exfalso. apply orb_false_iff in K. destruct K as (K1 & K2). lia. }
  rewrite Hat. cbn [rbind]. destruct Hs as (Hs & Hne).
  assert (Hlit : forall t, In t [bs "!i"; bs "!s"; bs "!a"; bs "!g"] -> bseq m t = false) by (intros t Ht; destruct (bseq_spec m t) as [->|_]; [contradiction|reflexivity]).
  rewrite (Hlit TypeIndex), (Hlit TypeSelector), (Hlit TypeArguments), (Hlit TypeGroup) by (cbn; tauto).
  assert (Hnf : Node_ E (Some (Node (VStr (bs "[")) (add_out (VPtr None)))) m = Ok None).
  { cbn. destruct m; [congruence|reflexivity]. }
  rewrite Hnf. cbn. rewrite Hh. cbn. rewrite Hc. reflexivity.
Qed.
Print Assumptions C34_method_refuted.

(** x[7][0]."y z" in a small graph, and [1].Show, where Show is a method that panics *)
Definition ex_path : list elem := [Name (bs "x"); Index (bs "7"); Index (bs "0"); Quote x22 (bs "y z")].
Definition ex_g : graph := nd "" [nd "x" [nd "a" []]].
Definition callsP : calls := {| call := fun _ _ _ => Panic; remote := fun _ => false; has_method := fun _ s => bseq s (bs "Show"); to_json := fun _ => Ok [] |}.
Example C34_chain_ex : path_text ex_path = bs "x[7][0].""y z""" /\ exists r, Get env0 callsP 30 (Some ex_g) (path_text ex_path) = Ok (Some ex_g, r) /\ (usable env0 r \/ r = Some no_such).
Proof.
  split; [reflexivity|]. apply C34_chain_partial.
  - constructor; [apply name_ascii; [discriminate|repeat constructor]|]. constructor; [split; [discriminate|repeat constructor; cbn; lia]|]. constructor; [split; [discriminate|repeat constructor; cbn; lia]|].
    constructor; [|constructor]. split; [left; reflexivity|]. repeat constructor; discriminate.
  - repeat constructor; try exact I. intros H. repeat (destruct H as [H|H]; [discriminate H|]). exact H.
  - discriminate.
  - intros e s H K. injection H as <-. discriminate.
  - reflexivity.
  - split; cbn; lia.
  - apply (all_node data (VStr []) [nd "x" [nd "a" []]]); [exact I|]. constructor; [|constructor]. apply (all_node data _ [nd "a" []]); [exact I|]. constructor; [|constructor]. apply (all_node data _ []); [exact I|constructor].
Qed.
Example C34_method_ex : path_text [Index (bs "1"); Name (bs "Show")] = bs "[1].Show" /\ Get env0 callsP 30 (Some ex_g) (path_text [Index (bs "1"); Name (bs "Show")]) = Panic.
Proof.
  split; [reflexivity|]. apply C34_method_refuted; try reflexivity.
  - split; [discriminate|repeat constructor; cbn; lia].
  - apply name_ascii; [discriminate|repeat constructor].
  - split; cbn; lia.
Qed.
(** x[y[0]]: an index with a path in it, which is not there; Get returns nil. *)
Definition ex_kids : list graph := [nd "x" []; nd "!i" [nd "!p" [nd "y" []; nd "!i" [nd "0" []]]]].
Example C86_get_read : NewPath env0 30 (bs "x[y[0]]") = Ok (Node (VStr (bs "!p")) (map Some ex_kids)).
Proof. rewrite NewPath_ideal by (cbn; lia). vm_compute. reflexivity. Qed.
Example C86_get_ex : Forall element ex_kids /\ no_method callsP (Node (VStr (bs "!p")) (map Some ex_kids)) /\ stored false (Some ex_g) /\ Get env0 callsP 30 (Some ex_g) (bs "x[y[0]]") = Ok (Some ex_g, None).
Proof.
  split; [|split; [|split]].
  - assert (Hn : forall s, ~ In (bs s) [bs "!i"; bs "!s"; bs "!g"] -> element (nd s [])) by (intros s H; apply (element_name (bs s) []); [exact H|constructor]).
    assert (Hi : forall e, formed e -> element (nd "!i" [e])) by (intros e He; apply (element_expr (bs "!i") [e]); [cbn; tauto|constructor; [exact He|constructor]|discriminate]).
    assert (H0 : formed (nd "0" [])) by (apply digits_leaf; split; [discriminate|repeat constructor; cbn; lia]).
    constructor; [apply Hn; cbn; intros [K|[K|[K|[]]]]; discriminate|]. constructor; [|constructor]. apply Hi. apply (formed_path [nd "y" []; nd "!i" [nd "0" []]]).
    constructor; [apply Hn; cbn; intros [K|[K|[K|[]]]]; discriminate|]. constructor; [apply Hi, H0|constructor].
  - intros n s Hn Hs. cbn in Hn. injection Hn as <-. cbn in Hs. injection Hs as <-. reflexivity.
  - constructor; [exact I|]. constructor; [|constructor]. constructor; [exact I|]. constructor; [|constructor]. constructor; [exact I|constructor].
  - unfold Get. rewrite C86_get_read. vm_compute. reflexivity.
Qed.
