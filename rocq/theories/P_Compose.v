(** C33: Get composes, with indexes in and out of range. *)
From Verif Require Import Base Value EventSpec Emit EventFacts TextSpec PathSpec Graph PathParser PathTerm PathFacts AccessSpec AccessFacts Eval Template HeapEvalFacts PanicSpec Panics.
From Verif Require Import GraphSpec HeapSpec HeapFacts Ends P_Ends Samples P_Path P_Access P_Panics P_Safe Fuel.
Local Notation len l := (Z.of_nat (List.length l)).

(** ** The node that the elements lead to from [c] *)
Section Go.
Variable E : env.
(** the position that an index stands for *)
Lemma leaf_index d : digits d -> exists i, forall C f g, index_ (evalExpression E C (S f)) (Node (VStr (bs "!i")) [Some (Node (VStr d) [])]) g = Ok (g, i).
Proof.
  intros Hd. pose proof (isInteger_digits d Hd) as Hi. destruct Hd as (Hn & Hd). destruct d as [|c d]; [congruence|]. inversion Hd as [|? ? Hc _]; subst.
  assert (K : isNumber (c :: d) = true) by (cbn [isNumber]; destruct c; cbn in Hc; try lia; reflexivity).
  assert (J : forall C f g, exists v, evalExpression E C (S f) true (Some (Node (VStr (c :: d)) [])) g = Ok (g, EVal v) /\ v = match parse_int (c :: d) with Some n => VInt KInt64 n | None => VNil end).
  { intros C f g. cbn [evalExpression]. unfold eval_body. cbn [this ThisString vstring sstring rbind]. rewrite K. unfold number. cbn [v_float64 v_int64 vstring sstring rbind]. rewrite Hi. cbn [rbind].
    destruct (parse_int _); eexists; (split; [reflexivity|reflexivity]). }
  eexists. intros C f g. unfold index_. cbn [out]. destruct (J C f g) as (v & -> & ->). cbn [rbind]. reflexivity.
Qed.
Inductive goes : list elem -> graph -> option graph -> Prop :=
| goes_end c : goes [] c (Some c)
| goes_key e s es c n r : key e = Some s -> Node_ E (Some c) s = Ok (Some n) -> goes es n r -> goes (e :: es) c r
| goes_no e s es c : key e = Some s -> Node_ E (Some c) s = Ok None -> goes (e :: es) c None
| goes_index d i es c c' r : (forall C f g, index_ (evalExpression E C (S f)) (Node (VStr (bs "!i")) [Some (Node (VStr d) [])]) g = Ok (g, i)) -> 0 <= i -> GetAt (Some c) i = Ok c' ->
    goes es (Node (VStr (bs "[")) (add_out (VPtr c'))) r -> goes (Index d :: es) c r
| goes_bad d i es c : (forall C f g, index_ (evalExpression E C (S f)) (Node (VStr (bs "!i")) [Some (Node (VStr d) [])]) g = Ok (g, i)) -> i < 0 -> goes (Index d :: es) c None.

Lemma goes_total es : Forall (elem_ok E) es -> forall c, reached c -> exists r, goes es c r /\ reached_opt r.
Proof.
  induction 1 as [|e es He _ IH]; intros c Hc; [exists (Some c); split; [constructor|exact Hc]|].
  assert (Hk : forall s, key e = Some s -> exists r, goes (e :: es) c r /\ reached_opt r).
  { intros s Hs. destruct (Node_ E (Some c) s) as [[n|]| |] eqn:Hx.
    - destruct (IH n (Node_reached E c s _ Hc Hx)) as (r & Hr & Hv). exists r. split; [eapply goes_key; eassumption|exact Hv].
    - exists None. split; [eapply goes_no; eassumption|exact I].
    - exfalso. apply (np_Node E c s (reached_tame c Hc) Hx).
    - exfalso. apply (fin_Node E (Some c) s Hx). }
  destruct e as [s|q s|d]; [apply (Hk s eq_refl)|apply (Hk s eq_refl)|]. destruct (leaf_index d He) as (i & Hi). destruct (Z.ltb_spec i 0) as [Hl|Hl]; [exists None; split; [eapply goes_bad; eassumption|exact I]|].
  assert (J : exists c', GetAt (Some c) i = Ok c') by (destruct c as [v o]; cbn [GetAt]; destruct (_ || _); eexists; reflexivity). destruct J as (c' & Hat).
  destruct (IH _ (bracket_reached c i c' Hc Hat)) as (r & Hr & Hv). exists r. split; [eapply goes_index; eassumption|exact Hv].
Qed.
Lemma goes_app p q c r : goes p c r -> match r with Some m => forall r', goes q m r' -> goes (p ++ q) c r' | None => goes (p ++ q) c None end.
Proof.
  induction 1 as [c|e s es c n r Hk Hn _ IH|e s es c Hk Hn|d i es c c' r Hi Hp Hat _ IH|d i es c Hi Hp]; cbn [app].
  - auto.
  - destruct r; [intros r' Hr; eapply goes_key; [eassumption..|apply IH, Hr]|eapply goes_key; eassumption].
  - eapply goes_no; eassumption.
  - destruct r; [intros r' Hr; eapply goes_index; [eassumption..|apply IH, Hr]|eapply goes_index; eassumption].
  - eapply goes_bad; eassumption.
Qed.

Definition seen_as (r : option graph + N) : option graph := match r with inl n => n | inr _ => None end.
Lemma get_els_goes C f p g es : no_method C p -> (forall n, child (out p) 1 = Some n -> exists s, this n = VStr s) -> Forall (elem_ok E) es -> Forall unmarked es ->
  forall c r, reached c -> goes es c r -> forall prev key, exists x, get_els E C (evalExpression E C (S f)) p (gforest (map elem_tree es)) (Some c) prev key g = Ok (g, x) /\ seen_as x = r.
Proof.
  intros Hm Hch Hok. induction Hok as [|e els He _ IH]; intros Hu c r Hc Hg prev ky; [inversion Hg; subst; exists (inl (Some c)); auto|]. inversion Hu as [|? ? Hue Hu']; subst. specialize (IH Hu').
  cbn [map gforest]. cbn [get_els].
  assert (Hend : forall prev key, get_els E C (evalExpression E C (S f)) p (gforest (map elem_tree els)) None prev key g = Ok (g, inl None)) by (intros; destruct els; reflexivity).
  assert (Hnm : forall s, key e = Some s -> exists x, (let* next := Node_ E (Some c) s in match next with
      | Some _ => get_els E C (evalExpression E C (S f)) p (gforest (map elem_tree els)) next (Some c) s g
      | None => match out c with [] => get_els E C (evalExpression E C (S f)) p (gforest (map elem_tree els)) None (Some c) s g | _ => let* t := first_this c in let* (g, r) := function E C (evalExpression E C (S f)) p t g in
         match r with EErr e => Ok (g, inr e) | EVal (VPtr next) => get_els E C (evalExpression E C (S f)) p (gforest (map elem_tree els)) next (Some c) s g | EVal _ => Ok (g, inr ErrFunctionNoGraph) end end end) = Ok (g, x) /\ seen_as x = r).
  { intros s Hk. inversion Hg; subst; try (cbn in Hk; discriminate).
    - match goal with H : key e = Some ?t |- _ => assert (t = s) by congruence; subst t end. match goal with H : Node_ _ _ _ = _ |- _ => rewrite H; pose proof (Node_reached E c s _ Hc H) as Hn end. cbn [rbind]. apply IH; assumption.
    - match goal with H : key e = Some ?t |- _ => assert (t = s) by congruence; subst t end. match goal with H : Node_ _ _ _ = _ |- _ => rewrite H end. cbn [rbind]. destruct (out c) as [|x o] eqn:Ho; [rewrite Hend; exists (inl None); auto|].
      destruct (first_reached c x o Hc Ho) as (t & -> & Ht). cbn [rbind]. destruct (function_reached E C g (evalExpression E C (S f)) p t Hm Hch Ht) as (y & -> & [-> |(e' & ->)]); cbn [rbind]; eexists; (split; [reflexivity|reflexivity]). }
  assert (Hlit : forall s, ~ In s [bs "!i"; bs "!s"; bs "!a"; bs "!g"] -> bseq s TypeIndex = false /\ bseq s TypeSelector = false /\ bseq s TypeArguments = false /\ bseq s TypeGroup = false).
  { intros s Hs. repeat split; match goal with |- bseq s ?t = false => destruct (bseq_spec s t) as [->|_]; [exfalso; apply Hs; cbn; tauto|reflexivity] end. }
  destruct e as [s|q s|d]; cbn [elem_tree gtree map ThisString this vstring sstring rbind].
  - assert (Hs : ~ In s [bs "!i"; bs "!s"; bs "!a"; bs "!g"]).
    { apply name_not_marked in He. destruct s as [|c0 s]; [destruct He|]. intros [K|[K|[K|[K|[]]]]]; injection K as <- _; discriminate. }
    destruct (Hlit s Hs) as (-> & -> & -> & ->). apply Hnm. reflexivity.
  - destruct (Hlit s Hue) as (-> & -> & -> & ->). apply Hnm. reflexivity.
  - change (bseq (bs "!i") TypeIndex) with true. cbv iota. inversion Hg; subst; try (cbn in *; discriminate).
    + match goal with H : forall C f g, index_ _ _ _ = _ |- _ => rewrite (H C f g) end. cbn [rbind]. destruct (Z.ltb_spec i 0); [lia|]. match goal with H : GetAt _ _ = _ |- _ => rewrite H end. cbn [rbind].
      apply IH; [|assumption]. eapply bracket_reached; eassumption.
    + match goal with H : forall C f g, index_ _ _ _ = _ |- _ => rewrite (H C f g) end. cbn [rbind]. destruct (Z.ltb_spec i 0); [|lia]. eexists. split; reflexivity.
Qed.
End Go.

(** No method of a graph has the name of the second element of the path (or the text !i, which is no identifier of Go). *)
Definition plain_second (C : calls) (es : list elem) : Prop :=
  (forall e s, nth_error es 1 = Some e -> key e = Some s -> has_method C (VPtr None) s = false) /\ has_method C (VPtr None) (bs "!i") = false.
Lemma Get_goes E C es f c r : Forall (elem_ok E) es -> Forall unmarked es -> es <> [] -> plain_second C es -> fits f (path_text es) -> reached c -> goes E es c r ->
  Get E C f (Some c) (path_text es) = Ok (Some c, r).
Proof.
  intros Hok Hu Hn (Hm & Hmi) Hf Hc Hr. rewrite Get_eq by assumption. destruct f as [|f]; [destruct Hf; lia|].
  assert (Hel : forall n, child (gforest (map elem_tree es)) 1 = Some n -> exists e, nth_error es 1 = Some e /\ n = gtree (elem_tree e)).
  { intros n H. unfold child, gforest in H. rewrite map_map in H. rewrite nth_error_map in H. destruct (nth_error es 1) as [e|]; [|discriminate]. cbn in H. injection H as <-. exists e. auto. }
  destruct (get_els_goes E C f (Node (VStr TypePath) (gforest (map elem_tree es))) c es) with (c := c) (r := r) (prev := @None graph) (key := @nil byte) as (x & -> & Hx); try assumption.
  - intros n s H Hs. cbn [out] in H. destruct (Hel n H) as (e & He & ->). destruct e as [s'|q s'|d]; cbn in Hs; injection Hs as <-; [eapply Hm; [exact He|reflexivity]|eapply Hm; [exact He|reflexivity]|exact Hmi].
  - intros n H. cbn [out] in H. destruct (Hel n H) as (e & _ & ->). destruct e; eexists; reflexivity.
  - cbn [rbind]. unfold seen_as in Hx. rewrite Hx. reflexivity.
Qed.

(** ** C33 Get(p.q) is Get(p).Get(q), with indexes in both, in range or not *)
Theorem C33_compose_all_partial : forall E C p q f g, Forall (elem_ok E) p -> Forall unmarked p -> Forall (elem_ok E) q -> Forall unmarked q -> p <> [] -> q <> [] ->
  plain_second C p -> plain_second C q -> plain_second C (p ++ q) -> all_nodes data g ->
  fits f (path_text p) -> fits f (path_text q) -> fits f (path_text (p ++ q)) ->
  exists m r, Get E C f (Some g) (path_text p) = Ok (Some g, m) /\ Get E C f m (path_text q) = Ok (m, r) /\ Get E C f (Some g) (path_text (p ++ q)) = Ok (Some g, r).
Proof.
  intros E C p q f g Hp Hup Hq Huq Hnp Hnq Hm1 Hm2 Hm3 Hg Hf1 Hf2 Hf3.
  assert (Hok : Forall (elem_ok E) (p ++ q)) by (apply Forall_app; auto). assert (Hu : Forall unmarked (p ++ q)) by (apply Forall_app; auto).
  assert (Hn : p ++ q <> []) by (destruct p; [congruence|discriminate]). pose proof (data_reached g Hg) as Hr.
  destruct (goes_total E p Hp g Hr) as (m & Hgm & Hrm). exists m. pose proof (goes_app E p q g m Hgm) as Ha. destruct m as [m|].
  - destruct (goes_total E q Hq m Hrm) as (r & Hgr & Hrr). exists r. split; [apply Get_goes; assumption|]. split; [apply Get_goes; assumption|]. apply Get_goes; auto.
  - exists None. split; [apply Get_goes; assumption|]. split; [reflexivity|]. apply Get_goes; assumption.
Qed.
Print Assumptions C33_compose_all_partial.
(** x[7] and [0]."y z" in a small graph *)
Example C33_compose_ex : exists m r, Get env0 callsP 30 (Some ex_g) (bs "x[7]") = Ok (Some ex_g, m) /\ Get env0 callsP 30 m (bs "[0].""y z""") = Ok (m, r) /\ Get env0 callsP 30 (Some ex_g) (bs "x[7][0].""y z""") = Ok (Some ex_g, r).
Proof.
  assert (Hd : forall d, digits d -> elem_ok env0 (Index d)) by auto.
  apply (C33_compose_all_partial env0 callsP [Name (bs "x"); Index (bs "7")] [Index (bs "0"); Quote x22 (bs "y z")]).
  - constructor; [apply name_ascii; [discriminate|repeat constructor]|]. constructor; [split; [discriminate|repeat constructor; cbn; lia]|constructor].
  - repeat constructor; exact I.
  - constructor; [split; [discriminate|repeat constructor; cbn; lia]|]. constructor; [|constructor]. split; [left; reflexivity|]. repeat constructor; discriminate.
  - repeat constructor; try exact I. intros H. repeat (destruct H as [H|H]; [discriminate H|]). exact H.
  - discriminate.
  - discriminate.
  - split; [|reflexivity]. intros e s H K. injection H as <-. discriminate.
  - split; [|reflexivity]. intros e s H K. injection H as <-. injection K as <-. reflexivity.
  - split; [|reflexivity]. intros e s H K. injection H as <-. discriminate.
  - apply (all_node data (VStr []) [nd "x" [nd "a" []]]); [exact I|]. constructor; [|constructor]. apply (all_node data _ [nd "a" []]); [exact I|]. constructor; [|constructor]. apply (all_node data _ []); [exact I|constructor].
  - split; cbn; lia.
  - split; cbn; lia.
  - split; cbn; lia.
Qed.
