(** C81: selectors that are expressions. *)
From Verif Require Import Base Value Event EventSpec EventFacts Lexer TextParser Stream Buffer BufferSpec BufferFacts Wp TextTerm TextSpec TextDoc Graph GraphSpec GraphFacts Emit PathParser PathTerm WpLong PathSpec PathFacts NumFacts TypesSpec TypesFacts Eval Template TemplateSpec TemplateFacts AccessSpec AccessFacts EvalSpec EvalFacts FuncSpec EpathSpec IndexSpec Samples P_Access CallFacts P_Func P_Epath P_Index P_Group.
From Verif Require SelSpec SelFacts.

Local Notation len l := (Z.of_nat (List.length l)).

Lemma hops_number E w g0 l pad a x d tl g n : position E g0 a (number_of d) -> hops E w g0 (l ++ Of [] (ONum d) [] :: tl) g n -> hops E w g0 (l ++ Of pad a x :: tl) g n.
Proof.
  intros Hz. remember (List.length l) as k eqn:Ek. assert (Hk : (List.length l <= k)%nat) by lia. clear Ek. revert l Hk g. induction k as [|k IH]; intros l Hk g H; (destruct l as [|h l]; cbn [app List.length] in *; [|try lia]).
  1, 2: inversion H; subst; match goal with Hs : spells _ _ (Of _ _ _) _ |- _ => destruct Hs as [_ []] end.
  assert (Hl : (List.length l <= k)%nat) by lia. inversion H; subst; [eapply hops_go|eapply hops_at|eapply hops_by|..]; eauto.
  - destruct l as [|y l]; [discriminate|]. cbn [app List.length] in *. match goal with He : _ :: _ = _ :: _ |- _ => injection He as <- He; subst end. eapply hops_all; eauto. apply IH; [lia|assumption].
  - destruct l as [|y l]; cbn [app List.length] in *; match goal with He : _ :: _ = _ :: _ |- _ => injection He as He1 He2 end; subst.
    + match goal with Hp : position _ _ ?o _ |- _ => match o with ONum _ => inversion Hp; subst end end. eapply hops_of; eauto.
    + eapply hops_of; eauto. apply IH; [lia|assumption].
Qed.

(** ** C81 a{e} is a{n}, where n is the value of the expression e.  Full claim: any expression e.
    Proved: e is a number or a variable that holds an integer; operators after it have no effect,
    so that with them the claim is false.  [f] and [f'] are enough steps for either text. *)
Theorem C81_number_partial : forall E C l pad a x d tl f f' g n, let p := l ++ Of pad a x :: tl in let q := l ++ Of [] (ONum d) [] :: tl in
  Forall (hop_ok E) p -> digits d -> fits3 f (hops_text p) -> fits3 f' (hops_text q) -> whole E g -> position E g a (number_of d) ->
  (hops E boxed g q g n -> Get E C f (Some g) (hops_text p) = Ok (Some g, Some n) /\ Get E C f' (Some g) (hops_text q) = Ok (Some g, Some n)) /\
  (starts_with_name p -> Forall hop_free l -> Forall hop_free tl -> hops E bare g q g n ->
   exists e e' w, NewExpression E f (hops_text p) = Ok e /\ NewExpression E f' (hops_text q) = Ok e' /\
     plain (VPtr (Some (match List.last q (Go (Index [])) with At _ _ _ => boxed n | _ => n end))) w /\
     Eval E C f g (Some e) = Ok (g, EVal w) /\ Eval E C f' g (Some e') = Ok (g, EVal w)).
Proof.
  intros E C l pad a x d tl f f' g n p q Hok Hd Hf Hf' Hg Ha.
  assert (Hok' : Forall (hop_ok E) q).
  { apply Forall_app in Hok. destruct Hok as [H1 H2]. inversion H2 as [|? ? _ H3]; subst. apply Forall_app. split; [exact H1|]. apply Forall_cons; [|exact H3]. split; [constructor|]. split; [|constructor].
    exists [], d, []. split; [rewrite app_nil_r; reflexivity|]. split; [auto|]. split; [exact Hd|auto]. }
  assert (Hp : p <> []) by (unfold p; destruct l; discriminate). assert (Hq : q <> []) by (unfold q; destruct l; discriminate). split.
  - intros Hw. split; [|apply C78_get_partial; assumption]. apply C78_get_partial; try assumption. apply hops_number with (d := d); assumption.
  - intros Hst Hfl Hft Hw. assert (Hst' : starts_with_name q) by (unfold p, q in *; destruct l; [contradiction|exact Hst]).
    assert (Hfr : forall pad a x, Forall hop_free (l ++ Of pad a x :: tl)) by (intros; apply Forall_app; split; [exact Hfl|]; apply Forall_cons; [exact I|exact Hft]).
    assert (El : (match List.last p (Go (Index [])) with At _ _ _ => boxed n | _ => n end) = (match List.last q (Go (Index [])) with At _ _ _ => boxed n | _ => n end)).
    { unfold p, q. destruct tl as [|h tl]; [rewrite !last_last; reflexivity|]. assert (H : exists t y, h :: tl = t ++ [y]) by (destruct (exists_last (l := h :: tl)) as (t & y & H); [discriminate|]; eauto).
      destruct H as (t & y & ->). change (l ++ Of pad a x :: t ++ [y]) with (l ++ (Of pad a x :: t) ++ [y]). change (l ++ Of [] (ONum d) [] :: t ++ [y]) with (l ++ (Of [] (ONum d) [] :: t) ++ [y]). rewrite !app_assoc, !last_last. reflexivity. }
    pose proof (plain_simplify (Some (match List.last q (Go (Index [])) with At _ _ _ => boxed n | _ => n end))) as Hpl.
    destruct (C78_eval_partial E C p f g n _ Hok (Hfr _ _ _) Hst Hf Hg (hops_number _ _ _ _ _ _ _ d _ _ _ Ha Hw) ltac:(rewrite El; exact Hpl)) as (e & H1 & H2).
    destruct (C78_eval_partial E C q f' g n _ Hok' (Hfr _ _ _) Hst' Hf' Hg Hw Hpl) as (e' & H3 & H4).
    eexists e, e', _. split; [exact H1|]. split; [exact H3|]. split; [exact Hpl|]. split; assumption.
Qed.
Print Assumptions C81_number_partial.
(** What is not a position: Get finds nothing, an expression fails. *)
Theorem C81_invalid : forall E C l h s pad a x tl f g m i c, let p := l ++ h :: Of pad a x :: tl in
  Forall (hop_ok E) p -> fits3 f (hops_text p) -> whole E g -> spells E g h s -> first_named E s (out m) i c -> no_position E g a ->
  (hops E boxed g l g m -> Get E C f (Some g) (hops_text p) = Ok (Some g, None)) /\
  (starts_with_name p -> Forall hop_free (l ++ [h]) -> hops E bare g l g m -> whole E m ->
   exists e, NewExpression E f (hops_text p) = Ok e /\ Eval E C f g (Some e) = Ok (g, EErr ErrInvalidIndex)).
Proof.
  intros E C l h s pad a x tl f g m i c p Hok Hf Hg Hs Hfn Hno. assert (Hp : p <> []) by (unfold p; destruct l; discriminate).
  assert (Hokl : Forall (hop_ok E) l /\ hop_ok E h) by (apply Forall_app in Hok; destruct Hok as [H1 H2]; inversion H2; subst; auto). destruct Hokl as [Hokl Hokh].
  assert (Ep : gforest (map hop_tree p) = gforest (map hop_tree l) ++ Some (gtree (hop_tree h)) :: Some (gtree (hop_tree (Of pad a x))) :: gforest (map hop_tree tl)) by (unfold p, gforest; rewrite map_app, map_app; reflexivity).
  split.
  - intros Hw. rewrite Get_hops_eq by assumption. destruct f as [|[|f]]; [destruct Hf; lia..|]. rewrite Ep.
    destruct (get_els_hops E C f g Hg (gtree (hops_tree p)) l g m Hw Hokl Hg (Some (gtree (hop_tree h)) :: Some (gtree (hop_tree (Of pad a x))) :: gforest (map hop_tree tl)) None []) as (prev & k & H & Hm). rewrite H.
    rewrite (get_els_spells E C f g Hg _ h s m i c) by assumption. erewrite (get_els_braces E C f g _ (Of pad a x)) by (first [reflexivity|apply selector_not; [exact Hg|apply Hs|exact Hno]]). reflexivity.
  - intros Hst Hfr Hw Hm. apply Forall_app in Hfr. destruct Hfr as [Hfl Hfh]. apply Forall_inv in Hfh. eexists. split; [apply NewExpression_hops; assumption|]. destruct Hf as [_ Hf]. destruct f as [|[|[|[|f]]]]; try lia. rewrite Eval_hops by exact Hp. rewrite Ep.
    destruct (eval_els_hops E C f g Hg (gtree (hops_tree p)) true l g m Hw Hokl Hfl Hg false (Some (gtree (hop_tree h)) :: Some (gtree (hop_tree (Of pad a x))) :: gforest (map hop_tree tl)) None []) as (prev & k & H). rewrite H.
    rewrite (eval_els_spells E C f g Hg _ true _ h s m i c) by assumption. erewrite (eval_els_braces E C f g _ true false (Of pad a x)) by (first [reflexivity|apply selector_not; [exact Hg|apply Hs|exact Hno]]). reflexivity.
Qed.
Print Assumptions C81_invalid.

(** ** Examples *)
Definition ex_brc : graph := Node (VStr (bs "r"))
  [Some (Node (VStr (bs "i")) [Some (Node (VInt KInt 1) [])]); Some (nd "a" [nd "p" [nd "v" []]]); Some (nd "j" [nd "1" []]); Some (nd "a" [nd "q" [nd "w" []]])].
Lemma ex_brc_data : all_nodes data ex_brc.
Proof. unfold ex_brc, nd. repeat first [apply (all_node _ _ []) | apply (all_node _ _ [_]) | apply (all_node _ _ [_; _; _; _]) | constructor]. Qed.
Lemma ex_brc_those : SelSpec.those env0 (bs "a") (out ex_brc) [nd "a" [nd "p" [nd "v" []]]; nd "a" [nd "q" [nd "w" []]]].
Proof.
  unfold ex_brc. cbn [out nd map]. apply SelSpec.those_not; [intros (n & [= <-] & H); discriminate H|]. apply SelSpec.those_this; [eexists; split; reflexivity|].
  apply SelSpec.those_not; [intros (n & [= <-] & H); discriminate H|]. apply SelSpec.those_this; [eexists; split; reflexivity|]. constructor.
Qed.
Definition ex_of (pad : bytes) (a : operand) (l : list step) : list hop := [Go (Name (bs "a"))] ++ Of pad a l :: [Go (Name (bs "q"))].
Lemma ex_of_ok pad a l : blanks pad -> operand_ok env0 a -> Forall (step_ok env0) l -> Forall (hop_ok env0) (ex_of pad a l).
Proof. intros H1 H2 H3. apply Forall_cons; [apply ex_go; [discriminate|repeat constructor]|]. apply Forall_cons; [split; [exact H1|split; assumption]|]. apply Forall_cons; [apply ex_go; [discriminate|repeat constructor]|constructor]. Qed.
Lemma ex_of_position : position env0 ex_brc (OPath (map Name [bs "i"])) 1.
Proof.
  assert (Hn : Forall (name env0) [bs "i"]) by (apply Forall_cons; [apply ex_name; [discriminate|repeat constructor]|constructor]).
  assert (Ho : Forall ordinary [bs "i"]) by (apply Forall_cons; [unfold ordinary; cbn; intuition discriminate|constructor]).
  eapply pos_variable; [discriminate|exact Hn|exact Ho|eapply walk_key with (i := O); [reflexivity|first_here|constructor]|reflexivity|lia].
Qed.
Lemma ex_one : position env0 ex_brc (ONum (bs "1")) 1.
Proof. apply (pos_number env0 ex_brc (bs "1")); [split; [discriminate|repeat constructor; cbn; lia]|cbn; lia]. Qed.
Lemma ex_of_hops w pad a l : position env0 ex_brc a 1 -> hops env0 w ex_brc (ex_of pad a l) ex_brc (nd "q" [nd "w" []]).
Proof.
  intros Hz. eapply hops_of with (s := bs "a"); [split; [discriminate|reflexivity]|exact ex_brc_those|discriminate|exact Hz|lia|]. eapply hops_go with (i := O); [reflexivity| |constructor].
  split; [reflexivity|]. split; [eexists; split; reflexivity|]. intros k c Hk. lia.
Qed.
Lemma ex_of_free : Forall hop_free [Go (Name (bs "a"))] /\ Forall hop_free [Go (Name (bs "q"))].
Proof. split; (apply Forall_cons; [cbn; unfold ordinary; cbn; intuition discriminate|constructor]). Qed.
Lemma ex_of_start pad a l : starts_with_name (ex_of pad a l).
Proof. cbn. repeat split; cbn; try lia; discriminate. Qed.
(** i holds the number 1, so a{i}.q is a{1}.q; *)
Example C81_ex : hops_text (ex_of (bs " ") (OPath (map Name [bs "i"])) []) = bs "a{ i}.q" /\
  Get env0 calls0 40 (Some ex_brc) (bs "a{ i}.q") = Ok (Some ex_brc, Some (nd "q" [nd "w" []])) /\
  exists e, NewExpression env0 40 (bs "a{ i}.q") = Ok e /\ Eval env0 calls0 40 ex_brc (Some e) = Ok (ex_brc, EVal (VStr (bs "w"))).
Proof.
  split; [reflexivity|]. change (bs "a{ i}.q") with (hops_text (ex_of (bs " ") (OPath (map Name [bs "i"])) [])). destruct ex_of_free as [Hf1 Hf2].
  destruct (C81_number_partial env0 calls0 [Go (Name (bs "a"))] (bs " ") (OPath (map Name [bs "i"])) [] (bs "1") [Go (Name (bs "q"))] 40 40 ex_brc (nd "q" [nd "w" []])) as [H1 H2].
  - apply ex_of_ok; [repeat constructor|apply (ex_var_ok "i"%byte); [reflexivity|cbn; lia]|constructor].
  - split; [discriminate|repeat constructor; cbn; lia].
  - split; cbn; lia.
  - split; cbn; lia.
  - apply data_whole, ex_brc_data.
  - exact ex_of_position.
  - split; [apply (H1 (ex_of_hops boxed _ _ _ ex_one))|]. destruct (H2 (ex_of_start _ _ _) Hf1 Hf2 (ex_of_hops bare _ _ _ ex_one)) as (e & e' & w & H3 & _ & Hp & H4 & _).
    exists e. split; [exact H3|]. rewrite H4. repeat f_equal. eapply plain_fun; [exact Hp|]. left. exists (VStr (bs "q")), (VStr (bs "w")). auto.
Qed.
(** j holds the text 1, which is not a number. *)
Theorem C81_variable_refuted : exists E C f g n, all_nodes data g /\ walk E [Name (bs "j")] g n /\ out n = [Some (nd "1" [])] /\ Get E C f (Some g) (bs "a{j}.q") = Ok (Some g, None) /\
  Get E C f (Some g) (bs "a{1}.q") = Ok (Some g, Some (nd "q" [nd "w" []])) /\
  exists e, NewExpression E f (bs "a{j}.q") = Ok e /\ Eval E C f g (Some e) = Ok (g, EErr ErrInvalidIndex).
Proof.
  exists env0, calls0, 40%nat, ex_brc, (nd "j" [nd "1" []]). split; [exact ex_brc_data|].
  assert (Hj : first_named env0 (bs "j") (out ex_brc) 2 (nd "j" [nd "1" []])) by first_at.
  assert (Hw : walk env0 [Name (bs "j")] ex_brc (nd "j" [nd "1" []])) by (eapply walk_key; [reflexivity|exact Hj|constructor]). split; [exact Hw|]. split; [reflexivity|].
  assert (Hno : no_position env0 ex_brc (OPath (map Name [bs "j"]))).
  { apply (np_value _ _ _ (VStr (bs "1"))); [|discriminate]. apply (worth_value env0 ex_brc [bs "j"] (nd "j" [nd "1" []])); [discriminate| | |exact Hw|reflexivity].
    - apply Forall_cons; [apply ex_name; [discriminate|repeat constructor]|constructor].
    - apply Forall_cons; [unfold ordinary; cbn; intuition discriminate|constructor]. }
  assert (Hone : operand_ok env0 (ONum (bs "1"))) by (exists [], (bs "1"), []; repeat split; auto; [discriminate|repeat constructor; cbn; lia]).
  change (bs "a{j}.q") with (hops_text ([] ++ Go (Name (bs "a")) :: Of [] (OPath (map Name [bs "j"])) [] :: [Go (Name (bs "q"))])). change (bs "a{1}.q") with (hops_text (ex_of [] (ONum (bs "1")) [])).
  destruct (C81_invalid env0 calls0 [] (Go (Name (bs "a"))) (bs "a") [] (OPath (map Name [bs "j"])) [] [Go (Name (bs "q"))] 40 ex_brc ex_brc 1 (nd "a" [nd "p" [nd "v" []]])) as [H1 H2].
  - apply (ex_of_ok [] (OPath (map Name [bs "j"])) []); [constructor|apply (ex_var_ok "j"%byte); [reflexivity|cbn; lia]|constructor].
  - split; cbn; lia.
  - apply data_whole, ex_brc_data.
  - split; [discriminate|reflexivity].
  - split; [reflexivity|]. split; [eexists; split; reflexivity|]. intros [|k] c Hk Hc; try lia. injection Hc as <-. intros (n & [= <-] & H). discriminate H.
  - exact Hno.
  - split; [apply H1; constructor|]. split.
    + apply C78_get_partial; [apply ex_of_ok; auto; constructor|discriminate|split; cbn; lia|apply data_whole, ex_brc_data|]. apply ex_of_hops, ex_one.
    + apply H2; [apply (ex_of_start [] (OPath (map Name [bs "j"])) [])|apply ex_of_free|constructor|apply data_whole, ex_brc_data].
Qed.
Print Assumptions C81_variable_refuted.
(** What is not there, what is too large, and what has no value *)
Example C81_invalid_ex : no_position env0 ex_brc (OPath (map Name [bs "k"])) /\ no_position env0 ex_brc (ONum (bs "9223372036854775808")) /\
  no_position env0 ex_brc (OPath (map Name [bs "i"] ++ [Index (bs "9223372036854775808")])).
Proof.
  assert (Hd : digits (bs "9223372036854775808")) by (split; [discriminate|repeat constructor; cbn; lia]). assert (Hl : 2 ^ 63 <= number_of (bs "9223372036854775808")) by (cbn; lia).
  assert (Hn : forall s, s = bs "k" \/ s = bs "i" -> Forall (name env0) [s] /\ Forall ordinary [s]).
  { intros s Hs. split; (apply Forall_cons; [|constructor]).
    - destruct Hs as [-> | ->]; (apply ex_name; [discriminate|repeat constructor]).
    - destruct Hs as [-> | ->]; unfold ordinary; cbn; intuition discriminate. }
  split; [|split].
  - apply np_missing; [apply Hn; auto|apply Hn; auto|exact ex_brc_data|]. eapply lost_here; [reflexivity|]. repeat constructor; intros (n & [= <-] & H); discriminate H.
  - apply np_large; assumption.
  - apply (np_fails env0 ex_brc [bs "i"] (Node (VStr (bs "i")) [Some (Node (VInt KInt 1) [])])); [discriminate|apply Hn; auto|apply Hn; auto| |exact Hd|exact Hl].
    eapply walk_key with (i := 0%nat); [reflexivity|first_at|constructor].
Qed.
(** The value of 0+1 is 1, but a{0+1} is a{0}. *)
Theorem C81_operators_refuted : exists E C f g c0 c1, all_nodes data g /\ SelSpec.those E (bs "a") (out g) [c0; c1] /\ out c0 <> out c1 /\
  den E g (Bin Plus (Leaf (ONum (bs "0"))) (Leaf (ONum (bs "1")))) (Some (DI 1)) /\
  Get E C f (Some g) (bs "a{0+1}") = Ok (Some g, Some (Node (VStr (bs "{")) (out c0))).
Proof.
  exists env0, calls0, 40%nat, ex_brc, (nd "a" [nd "p" [nd "v" []]]), (nd "a" [nd "q" [nd "w" []]]). split; [exact ex_brc_data|]. split; [exact ex_brc_those|]. split; [discriminate|]. split.
  { apply (den_arith env0 ex_brc Plus _ _ 0 1 (Some 1)); [exact (den_num env0 ex_brc 0 ltac:(unfold in64; lia))|exact (den_num env0 ex_brc 1 ltac:(unfold in64; lia))|]. constructor. split; [unfold in64; lia|exists 0; lia]. }
  assert (Hone : forall c, In c ["0"; "1"]%byte -> operand_ok env0 (ONum [c])).
  { intros c Hc. exists [], [c], []. split; [reflexivity|]. split; [auto|]. split; [|auto]. split; [discriminate|]. apply Forall_cons; [|constructor]. destruct Hc as [<-|[<-|[]]]; cbn; lia. }
  change (bs "a{0+1}") with (hops_text [Go (Name (bs "a")); Of [] (ONum (bs "0")) [mkStep [] Plus [] (ONum (bs "1"))]]).
  apply C78_get_partial; [|discriminate|split; cbn; lia|apply data_whole, ex_brc_data|].
  - apply Forall_cons; [apply ex_go; [discriminate|repeat constructor]|]. apply Forall_cons; [|constructor]. split; [constructor|]. split; [apply Hone; left; reflexivity|].
    apply Forall_cons; [|constructor]. split; [constructor|]. split; [constructor|]. split; [apply Hone; right; left; reflexivity|]. cbn. discriminate.
  - eapply (hops_of env0 boxed ex_brc _ (bs "a") _ _ _ 0); [split; [discriminate|reflexivity]|exact ex_brc_those|discriminate|apply (pos_number env0 ex_brc (bs "0")); [split; [discriminate|repeat constructor; cbn; lia]|cbn; lia]|lia|constructor].
Qed.
Print Assumptions C81_operators_refuted.
