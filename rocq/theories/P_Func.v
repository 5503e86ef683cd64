(** C65: calls of functions and methods in paths and expressions. *)
From Verif Require Import Base Value Graph GraphSpec GraphFacts TextSpec PathSpec PathParser PathFacts PathTerm TypesSpec TypesFacts NumFacts Eval AccessSpec AccessFacts EvalSpec EvalFacts Views Func FuncSpec CallFacts Samples P_Views P_Assign.

Local Notation len l := (Z.of_nat (List.length l)).

Section F.
Variable E : env.
Variable C : calls.

Lemma eval_names f simpl ns n g : ns <> [] -> Forall (name E) ns -> Forall ordinary ns -> whole E g -> walk E (map Name ns) g n ->
  evalExpression E C (S f) simpl (Some (gtree (operand_tree (OPath (map Name ns))))) g = Ok (g, EVal (if simpl then simplify (Some n) else VPtr (Some n))).
Proof.
  intros Hne Hns Ho Hg Hw. apply walk_cwalk in Hw; [|exact Hg]. cbn [evalExpression operand_tree]. unfold eval_body.
  change (gtree (T (bs "!p") (map elem_tree (map Name ns)))) with (Node (VStr TypePath) (gforest (map elem_tree (map Name ns)))).
  cbn - [evalPath gforest simplify]. unfold evalPath. cbn [out].
  pose proof (eval_els_walk E C (evalExpression E C f) (Node (VStr TypePath) (gforest (map elem_tree (map Name ns)))) simpl (map Name ns) g n Hw ns eq_refl Hns Ho None [] g) as H.
  destruct ns as [|s ns]; [congruence|]. exact H.
Qed.
Lemma eval_worth f o v g : whole E g -> worth E g o v -> evalExpression E C (S f) true (Some (gtree (operand_tree o))) g = Ok (g, EVal v).
Proof.
  intros Hg [z Hz|q s|ns n v' Hne Hns Ho Hw Hn|ns n Hne Hns Ho Hw Hn].
  - apply eval_format, Hz.
  - apply eval_string.
  - rewrite (eval_names f true ns n g) by assumption. destruct n as [t o']. cbn [out] in Hn. subst o'. reflexivity.
  - rewrite (eval_names f true ns n g) by assumption. destruct n as [t o']. cbn [out] in Hn. unfold simplify.
    destruct o' as [|[[v0 k]|] [|]]; try reflexivity; try (destruct k; reflexivity). destruct k; [|reflexivity]. exfalso. apply (Hn v0). reflexivity.
Qed.
Lemma eval_worth_m f o v g : whole E g -> worth_m E g o v -> evalExpression E C (S f) false (Some (gtree (operand_tree o))) g = Ok (g, EVal v).
Proof.
  intros Hg [z Hz|q s|ns n Hne Hns Ho Hw].
  - apply eval_format, Hz.
  - apply eval_string.
  - apply (eval_names f false ns n g); assumption.
Qed.
Lemma eval_argument f simpl o g : evalExpression E C (S f) simpl (Some (gtree (T (bs "!e") [operand_tree o]))) g = evalExpression E C f simpl (Some (gtree (operand_tree o))) g.
Proof. reflexivity. Qed.
Lemma args_worth f l vs g : whole E g -> Forall2 (worth E g) (map what l) vs -> args_ (evalExpression E C (S (S f))) true (gforest (map actual_tree l)) g = Ok (g, vs).
Proof.
  intros Hg H. remember (map what l) as os eqn:Eo. revert l Eo. induction H as [|o v os vs Ho _ IH]; intros l Eo; (destruct l as [|a l]; [try discriminate|try discriminate]); [reflexivity|].
  injection Eo as -> ->. cbn [map gforest args_]. unfold actual_tree at 1. rewrite eval_argument, (eval_worth f _ _ _ Hg Ho). cbn [rbind].
  unfold gforest in IH. rewrite (IH l eq_refl). reflexivity.
Qed.
Lemma args_worth_m f l vs g : whole E g -> Forall2 (worth_m E g) (map what l) vs -> args_ (evalExpression E C (S (S f))) false (gforest (map actual_tree l)) g = Ok (g, vs).
Proof.
  intros Hg H. remember (map what l) as os eqn:Eo. revert l Eo. induction H as [|o v os vs Ho _ IH]; intros l Eo; (destruct l as [|a l]; [try discriminate|try discriminate]); [reflexivity|].
  injection Eo as -> ->. cbn [map gforest args_]. unfold actual_tree at 1. rewrite eval_argument, (eval_worth_m f _ _ _ Hg Ho). cbn [rbind].
  unfold gforest in IH. rewrite (IH l eq_refl). reflexivity.
Qed.

(** One name of a path, when it is there *)
Lemma eval_els_name ev p simpl root els m prev k g s c : name E s -> ordinary s -> whole E m -> walk E [Name s] m c ->
  eval_els E C ev p simpl root (Some (gtree (T s [])) :: els) (Some m) prev k g = eval_els E C ev p simpl false els (Some c) (Some m) s g.
Proof.
  intros Hs Ho Hm Hw. apply walk_cwalk in Hw; [|exact Hm]. inversion Hw as [|? ? ? ? ? ? ? Hk Hf Hc Hw'|]; subst. injection Hk as <-. inversion Hw'; subst.
  destruct (key_unmarked E (Name s) s Hs I eq_refl) as [Hmk _]. unfold marked in Hmk. rewrite !orb_false_iff in Hmk. destruct Hmk as [[[M1 M2] M3] M4].
  destruct (ordinary_not s Ho) as (O1 & O2 & O3 & O4 & O5).
  cbn [eval_els gtree]. cbn [ThisString this vstring sstring rbind]. rewrite M1, M2, M3, M4, O1, O2, O3, O4, O5.
  rewrite (Node_found E _ _ _ _ Hf Hc). reflexivity.
Qed.
(** One name that is not there: the content of the first subnode is called. *)
Lemma eval_els_missing ev p simpl root els m prev k g s n v o r : name E s -> ordinary s -> whole E m -> none_named E s (out m) -> out m = Some (Node v o) :: r -> n = gtree (T s []) ->
  eval_els E C ev p simpl root (Some n :: els) (Some m) prev k g = function E C ev p v g.
Proof.
  intros Hs Ho Hm Hn Hout ->. destruct (whole_inv E m Hm) as (kk & _ & Hp & _). pose proof (find_child_none E s (out m) Hn Hp) as Hf.
  destruct (key_unmarked E (Name s) s Hs I eq_refl) as [Hmk _]. unfold marked in Hmk. rewrite !orb_false_iff in Hmk. destruct Hmk as [[[M1 M2] M3] M4].
  destruct (ordinary_not s Ho) as (O1 & O2 & O3 & O4 & O5).
  cbn [eval_els gtree]. cbn [ThisString this vstring sstring rbind]. rewrite M1, M2, M3, M4, O1, O2, O3, O4, O5.
  rewrite (Node_none E m s Hf). cbn [rbind]. rewrite Hout. unfold first_this. rewrite Hout. reflexivity.
Qed.
(** The argument list *)
Lemma eval_els_args ev p simpl root els m prev k g l v o r : out m = Some (Node v o) :: r ->
  eval_els E C ev p simpl root (Some (gtree (actuals_tree l)) :: els) (Some m) prev k g =
  (let* (g, r) := function E C ev p v g in
   match r with
   | EErr e => Ok (g, EErr e)
   | EVal (VPtr next) => eval_els E C ev p simpl false els next (Some m) k g
   | EVal v => Ok (g, EVal v)
   end).
Proof. intros Hout. cbn [eval_els gtree actuals_tree]. cbn [ThisString this vstring sstring rbind]. change (bseq (bs "!a") TypeIndex) with false. change (bseq (bs "!a") TypeSelector) with false.
  change (bseq (bs "!a") (bs "_len")) with false. change (bseq (bs "!a") (bs "_this")) with false. change (bseq (bs "!a") (bs "_thisString")) with false.
  change (bseq (bs "!a") (bs "_string")) with false. change (bseq (bs "!a") (bs "_json")) with false. change (bseq (bs "!a") TypeArguments) with true. cbn iota.
  rewrite Hout. unfold first_this. rewrite Hout. reflexivity.
Qed.
End F.

Section R.
Variable E : env.
Variable L : library.

Lemma has_type_name v t : has_type v t -> type_name (type_other L) v = t.
Proof. intros []; reflexivity. Qed.
Lemma vargs_all vs ts : Forall2 has_type vs ts -> forall ps, vargs ps vs = Ok (map (fun v => Arg (AVal v)) vs).
Proof.
  induction 1 as [|v t vs ts Hv _ IH]; intros ps; [reflexivity|]. cbn [vargs map]. assert (Hn : match v with VNil => match ps with t :: _ => Ok (Zero t) | [] => Panic end | _ => Ok (Arg (AVal v)) end = Ok (Arg (AVal v))) by (destruct Hv; reflexivity).
  rewrite Hn. cbn [rbind]. rewrite IH. reflexivity.
Qed.
Lemma types_match_iff vs ts : Forall2 has_type vs ts -> forall ps, List.length ps = List.length vs -> (types_match L ps (map (fun v => Arg (AVal v)) vs) = true <-> ts = ps).
Proof.
  induction 1 as [|v t vs ts Hv _ IH]; intros [|p ps] Hl; try discriminate Hl; [split; reflexivity|]. injection Hl as Hl. cbn [map types_match passed_type]. rewrite (has_type_name v t Hv), andb_true_iff, (IH ps Hl).
  destruct (bseq_spec p t) as [->|N]; split; intros H; [destruct H as [_ ->]; reflexivity|injection H as ->; auto|destruct H; discriminate|injection H as -> _; congruence].
Qed.
Lemma call_function_types s vs ts : Forall2 has_type vs ts ->
  (ts = params s -> call_function L s vs = let* vv := body s (map (fun v => Arg (AVal v)) vs) in Ok (EVal (first_result vv))) /\
  (ts <> params s -> exists e, call_function L s vs = Ok (EErr e)).
Proof.
  intros H. assert (Hlen : List.length vs = List.length ts) by (clear -H; induction H; cbn; congruence). unfold call_function. rewrite (vargs_all vs ts H). cbn [rbind]. split; intros Ht.
  - replace (List.length (params s) =? List.length vs)%nat with true by (symmetry; apply Nat.eqb_eq; congruence). cbn [negb]. destruct (types_match_iff vs ts H (params s)) as [_ Hm]; [congruence|]. rewrite (Hm Ht). reflexivity.
  - destruct (Nat.eqb_spec (List.length (params s)) (List.length vs)) as [El|_]; cbn [negb]; [|eauto].
    destruct (types_match L (params s) _) eqn:Em; cbn [negb]; [|eauto]. apply (types_match_iff vs ts H (params s) El) in Em. congruence.
Qed.
Lemma rfType_remote s : rfType s = true <-> looks_remote s.
Proof.
  unfold rfType, looks_remote. destruct (params s) as [|p [|]], (results s) as [|r1 [|r2 [|]]]; try (split; [discriminate|intros [H1 H2]; discriminate]).
  destruct (bseq_spec p (bs "*ogdl.Graph")) as [->|N]; [|split; [discriminate|intros [H _]; injection H as ->; congruence]].
  destruct (bseq_spec r1 (bs "*ogdl.Graph")) as [->|N]; [|split; [discriminate|intros [_ H]; injection H as -> _; congruence]].
  destruct (bseq_spec r2 (bs "error")) as [->|N]; [split; auto|split; [discriminate|intros [_ H]; injection H as ->; congruence]].
Qed.
Lemma outcome_first rs : outcome rs (first_result rs).
Proof. destruct rs as [|r rs]; [left; auto|right; exists rs; reflexivity]. Qed.
Lemma outcome_fun rs r : outcome rs r -> r = first_result rs.
Proof. intros [[-> ->]|[l ->]]; reflexivity. Qed.
Lemma plain_simplify n : plain (VPtr n) (simplify n).
Proof.
  unfold plain, simplify. destruct n as [[t [|[[v [|]]|] [|]]]|]; try (right; split; [intros t' v' H; discriminate H|reflexivity]).
  left. exists t, v. auto.
Qed.
Lemma plain_fun r w w' : plain r w -> plain r w' -> w = w'.
Proof.
  intros [(t & v & H1 & ->)|[H1 ->]] [(t' & v' & H2 & ->)|[H2 ->]]; [congruence|exfalso; exact (H2 _ _ H1)|exfalso; exact (H1 _ _ H2)|reflexivity].
Qed.
Lemma plain_other r w : (forall n, r <> VPtr n) -> plain r w -> w = r.
Proof. intros H [(t & v & -> & _)|[_ ->]]; [exfalso; eapply H; reflexivity|reflexivity]. Qed.

(** The elements of a call p(a, b).q *)
Lemma call_tree_out es l qs : gtree (call_tree_of es l (map Name qs)) = Node (VStr TypePath) (gforest (map elem_tree es) ++ Some (gtree (actuals_tree l)) :: gforest (map elem_tree (map Name qs))).
Proof. unfold call_tree_of, gforest. cbn [gtree]. rewrite map_app. reflexivity. Qed.
End R.

Lemma function_local E L ev p id l els g vs ts f : Forall2 (worth E g) (map what l) vs -> Forall2 has_type vs ts -> whole E g -> ~ looks_remote (functions L id) ->
  ev = evalExpression E (reflected E L) (S (S f)) -> p = Node (VStr TypePath) (els ++ Some (gtree (actuals_tree l)) :: nil ++ skipn 2 (out p)) -> List.length els = 1%nat ->
  function E (reflected E L) ev p (VFun id) g = (let* r := call_function L (functions L id) vs in Ok (g, r)).
Proof.
  intros Hw Ht Hg Hr -> Hp He. unfold function. cbn [remote reflected]. destruct (rfType (functions L id)) eqn:Er; [exfalso; apply Hr, rfType_remote, Er|].
  destruct els as [|e1 [|]]; try discriminate He. assert (Ho : Out_ p 1 = Ok (Some (gtree (actuals_tree l)))) by (rewrite Hp; reflexivity).
  rewrite Ho. cbn [rbind]. change (out (gtree (actuals_tree l))) with (gforest (map actual_tree l)). rewrite (args_worth E (reflected E L) f l vs g Hg Hw). reflexivity.
Qed.

(** ** C65 A call f(a, b) in an expression hands the values of its arguments, in order, to the
    function that f holds, if their types are those of its parameters; otherwise the result is
    an error and the function is not called.  The value is the first result; elements after the
    call select within it.  Full claim: functions anywhere in the graph, all expressions as
    arguments (refuted below).  Here: functions below the root, constants and paths. *)
Theorem C65_function_partial : forall E L f l qs vs ts g c id k rest fuel,
  let s := functions L id in let txt := call_text [Name f] l (map Name qs) in
  name E f -> starts_with_letter [Name f] -> ordinary f -> Forall (actual_ok E) l -> Forall (name E) qs -> Forall ordinary qs ->
  len txt <= 4094 -> (2 * List.length txt + 16 <= fuel)%nat ->
  whole E g -> walk E [Name f] g c -> out c = Some (Node (VFun id) k) :: rest -> ~ looks_remote s ->
  Forall2 (worth E g) (map what l) vs -> Forall2 has_type vs ts ->
  exists e, NewExpression E fuel txt = Ok e /\
    (ts = params s -> forall rs r r' w, body s (map (fun v => Arg (AVal v)) vs) = Ok rs -> outcome rs r -> reached E qs r r' -> plain r' w ->
       Eval E (reflected E L) fuel g (Some e) = Ok (g, EVal w)) /\
    (ts = params s -> body s (map (fun v => Arg (AVal v)) vs) = Panic -> Eval E (reflected E L) fuel g (Some e) = Panic) /\
    (ts <> params s -> exists n, Eval E (reflected E L) fuel g (Some e) = Ok (g, EErr n)).
Proof.
  intros E L f l qs vs ts g c id k rest fuel s txt Hf Hst Hof Hl Hqs Hoq Hlen Hfuel Hg Hw Hc Hr Hvs Hts.
  destruct (names_ok E qs Hqs) as [Hq Hqu]. eexists. split; [apply NewExpression_call; auto|].
  remember (gtree (call_tree_of [Name f] l (map Name qs))) as p eqn:Ep. rewrite call_tree_out in Ep. cbn [map gforest elem_tree app] in Ep. fold gforest in Ep.
  destruct fuel as [|[|[|[|f']]]]; try lia.
  assert (Hev : Eval E (reflected E L) (S (S (S (S f')))) g (Some (Node (VStr TypeExpression) [Some p])) =
    (let* r := call_function L s vs in
     match r with
     | EErr e => Ok (g, EErr e)
     | EVal (VPtr next) => eval_els E (reflected E L) (evalExpression E (reflected E L) (S (S f'))) p true false (gforest (map elem_tree (map Name qs))) next (Some c) f g
     | EVal v => Ok (g, EVal v)
     end)).
  { change (evalExpression E (reflected E L) (S (S (S f'))) true (Some p) g = (let* r := call_function L s vs in
     match r with
     | EErr e => Ok (g, EErr e)
     | EVal (VPtr next) => eval_els E (reflected E L) (evalExpression E (reflected E L) (S (S f'))) p true false (gforest (map elem_tree (map Name qs))) next (Some c) f g
     | EVal v => Ok (g, EVal v)
     end)).
    change (evalExpression E (reflected E L) (S (S (S f'))) true (Some p) g) with (eval_body E (reflected E L) (evalExpression E (reflected E L) (S (S f'))) true (Some p) g). assert (Hb : forall ev, eval_body E (reflected E L) ev true (Some p) g = evalPath E (reflected E L) ev true p g) by (intros; rewrite Ep; reflexivity).
    rewrite Hb.
    unfold evalPath. rewrite Ep at 1. cbn [out]. change (Node (VStr f) []) with (gtree (T f [])). rewrite eval_els_name with (c := c) by assumption.
    rewrite (eval_els_args E (reflected E L) _ p true false _ c (Some g) f g l (VFun id) k rest Hc).
    rewrite (function_local E L (evalExpression E (reflected E L) (S (S f'))) p id l [Some (gtree (T f []))] g vs ts f' Hvs Hts Hg Hr eq_refl) by (try reflexivity; rewrite Ep; reflexivity).
    fold s. destruct (call_function L s vs); reflexivity. }
  rewrite Hev. destruct (call_function_types L s vs ts Hts) as [Hok Hno]. split; [|split].
  - intros Et rs r r' w Hb Ho Hre Hp. rewrite (Hok Et), Hb. cbn [rbind]. rewrite <- (outcome_fun rs r Ho). destruct Hre as [[-> ->]|(n & m & -> & Hn & Hwm & ->)].
    + cbn [map gforest]. destruct r as [| | | | | | |n| | |]; try (apply plain_other in Hp; [rewrite Hp; reflexivity|intros ? K; discriminate K]).
      cbn [eval_els]. rewrite (plain_fun _ _ _ Hp (plain_simplify n)). reflexivity.
    + rewrite (eval_els_walk E (reflected E L) _ p true (map Name qs) n m (walk_cwalk E _ _ _ Hwm Hn) qs eq_refl Hqs Hoq).
      rewrite (plain_fun _ _ _ Hp (plain_simplify (Some m))). reflexivity.
  - intros Et Hb. rewrite (Hok Et), Hb. reflexivity.
  - intros Et. destruct (Hno Et) as (e & He). exists e. rewrite He. reflexivity.
Qed.
Print Assumptions C65_function_partial.

(** With Get the call must return a graph; anything else is not found. *)
Theorem C65_get_partial : forall E L f l qs vs ts g c id k rest fuel,
  let s := functions L id in let txt := call_text [Name f] l (map Name qs) in
  name E f -> Forall (actual_ok E) l -> Forall (name E) qs -> len txt <= 4094 -> (2 * List.length txt + 16 <= fuel)%nat ->
  whole E g -> walk E [Name f] g c -> out c = Some (Node (VFun id) k) :: rest -> ~ looks_remote s ->
  Forall2 (worth E g) (map what l) vs -> Forall2 has_type vs ts ->
  (ts = params s -> forall rs r m, body s (map (fun v => Arg (AVal v)) vs) = Ok rs -> outcome rs r -> reached E qs r (VPtr (Some m)) ->
     Get E (reflected E L) fuel (Some g) txt = Ok (Some g, Some m)) /\
  (ts = params s -> forall rs r, body s (map (fun v => Arg (AVal v)) vs) = Ok rs -> outcome rs r -> (forall n, r <> VPtr (Some n)) ->
     Get E (reflected E L) fuel (Some g) txt = Ok (Some g, None)) /\
  (ts <> params s -> Get E (reflected E L) fuel (Some g) txt = Ok (Some g, None)).
Proof.
  intros E L f l qs vs ts g c id k rest fuel s txt Hf Hl Hqs Hlen Hfuel Hg Hw Hc Hr Hvs Hts.
  destruct (names_ok E qs Hqs) as [Hq Hqu].
  assert (Hfound : Node_ E (Some g) f = Ok (Some c)).
  { apply walk_cwalk in Hw; [|exact Hg]. inversion Hw as [|? ? ? i c' ? ? Hk Hfc Hcc Hw'|]; subst. injection Hk as <-. inversion Hw'; subst. exact (Node_found E _ _ _ _ Hfc Hcc). }
  assert (Hp : NewPath E fuel txt = Ok (gtree (call_tree_of [Name f] l (map Name qs)))) by (apply NewPath_call; auto; [discriminate|unfold txt in *; lia]).
  unfold Get. rewrite Hp. cbn [rbind]. remember (gtree (call_tree_of [Name f] l (map Name qs))) as p eqn:Ep. rewrite call_tree_out in Ep. cbn [map gforest elem_tree app] in Ep. fold gforest in Ep.
  destruct fuel as [|[|[|f']]]; try lia.
  assert (Hev : exists prev, getPath E (reflected E L) (evalExpression E (reflected E L) (S (S (S f')))) p g =
    (let* r := call_function L s vs in
     match r with
     | EErr e => Ok (g, inr e)
     | EVal (VPtr next) => get_els E (reflected E L) (evalExpression E (reflected E L) (S (S (S f')))) p (gforest (map elem_tree (map Name qs))) next (Some c) prev g
     | EVal _ => Ok (g, inr ErrFunctionNoGraph)
     end)).
  { exists f. unfold getPath. rewrite Ep at 1. cbn [out]. destruct (key_unmarked E (Name f) f Hf I eq_refl) as [Hm _].
    change (gtree (T f [])) with (Node (VStr f) []). rewrite get_els_key by exact Hm. rewrite Hfound. cbn [rbind].
    cbn [get_els]. change (ThisString E (Some (gtree (actuals_tree l)))) with (Ok (bs "!a") : res bytes). cbn [rbind].
    change (bseq (bs "!a") TypeIndex) with false. change (bseq (bs "!a") TypeSelector) with false. change (bseq (bs "!a") TypeArguments) with true. cbn iota.
    rewrite Hc. unfold first_this. rewrite Hc. cbn [this rbind].
    rewrite (function_local E L (evalExpression E (reflected E L) (S (S (S f')))) p id l [Some (gtree (T f []))] g vs ts (S f') Hvs Hts Hg Hr eq_refl) by (try reflexivity; rewrite Ep; reflexivity).
    fold s. destruct (call_function L s vs); reflexivity. }
  destruct Hev as (prev & Hev). rewrite Hev. destruct (call_function_types L s vs ts Hts) as [Hok Hno]. split; [|split].
  - intros Et rs r m Hb Ho Hre. rewrite (Hok Et), Hb. cbn [rbind]. rewrite <- (outcome_fun rs r Ho). destruct Hre as [[-> <-]|(n & m' & -> & Hn & Hwm & Em)].
    + reflexivity.
    + injection Em as <-. destruct (get_els_walk E (reflected E L) (evalExpression E (reflected E L) (S (S (S f')))) (fun d g Hd Hl => eval_number E (reflected E L) (S (S f')) d g Hd Hl true []) p
        (map Name qs) n m (walk_cwalk E _ _ _ Hwm Hn) Hq Hqu [] (Some c) prev g) as (pr & ky & H). rewrite app_nil_r in H. rewrite H. reflexivity.
  - intros Et rs r Hb Ho Hre. rewrite (Hok Et), Hb. cbn [rbind]. rewrite <- (outcome_fun rs r Ho). destruct r as [| | | | | | |[n|]| | |]; try reflexivity; [exfalso; eapply Hre; reflexivity|].
    rewrite get_els_none. reflexivity.
  - intros Et. destruct (Hno Et) as (e & He). rewrite He. reflexivity.
Qed.
Print Assumptions C65_get_partial.

Lemma becomes_convert E L v t a : becomes E v t a -> v <> VNil /\ convert E (type_other L) (parse_bool L) (float_error L) v t = Ok (Some a).
Proof.
  intros [v' t' Hv|z|z Hz|z t' o r Hz|z t' o r Hz|t' s|t' b o r]; (split; [try discriminate|]).
  - destruct Hv; discriminate.
  - rewrite <- (has_type_name L v' t' Hv). apply C63_same_type. destruct Hv; discriminate.
  - reflexivity.
  - apply (C63_integers E (type_other L) (parse_bool L) (float_error L) z VNil [] []). exact Hz.
  - apply (C63_integers E (type_other L) (parse_bool L) (float_error L) z t' o r). exact Hz.
  - change (Ok (Some (AVal (VInt KInt (wrap64 z)))) = Ok (Some (AVal (VInt KInt z)))). rewrite wrap64_id by exact Hz. reflexivity.
  - reflexivity.
  - destruct b; reflexivity.
Qed.
Lemma method_args_adapted E L ts vs xs : adapted E ts vs xs -> method_args E L ts vs = Ok xs.
Proof.
  induction 1 as [vs|t ts xs _ IH|t ts v vs a xs Ha _ IH]; [destruct vs; reflexivity| |].
  - cbn [method_args rbind tl]. rewrite IH. reflexivity.
  - destruct (becomes_convert E L v t a Ha) as [Hn Hc]. cbn [method_args tl]. destruct v; try congruence; rewrite Hc; cbn [rbind]; rewrite IH; reflexivity.
Qed.

(** Calls through a name that is not there: the first subnode's content is called. *)
Lemma eval_member E L o m l g c v k rest fuel :
  name E o -> starts_with_letter [Name o] -> ordinary o -> name E m -> ordinary m -> Forall (actual_ok E) l ->
  len (call_text [Name o; Name m] l []) <= 4094 -> (2 * List.length (call_text [Name o; Name m] l []) + 16 <= fuel)%nat ->
  whole E g -> walk E [Name o] g c -> none_named E m (out c) -> out c = Some (Node v k) :: rest ->
  exists f', fuel = S (S (S (S f'))) /\ exists e p, NewExpression E fuel (call_text [Name o; Name m] l []) = Ok e /\
    p = Node (VStr TypePath) [Some (gtree (T o [])); Some (gtree (T m [])); Some (gtree (actuals_tree l))] /\
    Eval E (reflected E L) fuel g (Some e) = function E (reflected E L) (evalExpression E (reflected E L) (S (S f'))) p v g.
Proof.
  intros Ho Hst Hoo Hm Hom Hl Hlen Hfuel Hg Hw Hn Hc. destruct fuel as [|[|[|[|f']]]]; try lia. exists f'. split; [reflexivity|].
  eexists. eexists. split; [apply NewExpression_call; auto|]. split; [reflexivity|].
  change (call_tree_of [Name o; Name m] l []) with (call_tree_of [Name o; Name m] l (map Name [])). rewrite (call_tree_out [Name o; Name m] l []). cbn [map gforest elem_tree app].
  remember (Node (VStr TypePath) [Some (gtree (T o [])); Some (gtree (T m [])); Some (gtree (actuals_tree l))]) as p eqn:Ep.
  change (evalExpression E (reflected E L) (S (S (S f'))) true (Some p) g = function E (reflected E L) (evalExpression E (reflected E L) (S (S f'))) p v g).
  change (evalExpression E (reflected E L) (S (S (S f'))) true (Some p) g) with (eval_body E (reflected E L) (evalExpression E (reflected E L) (S (S f'))) true (Some p) g).
  assert (Hb : forall ev, eval_body E (reflected E L) ev true (Some p) g = evalPath E (reflected E L) ev true p g) by (intros; rewrite Ep; reflexivity).
  rewrite Hb. unfold evalPath. rewrite Ep at 1. cbn [out]. rewrite eval_els_name with (c := c) by assumption.
  apply (eval_els_missing E (reflected E L) (evalExpression E (reflected E L) (S (S f'))) p true false _ c _ _ g m (gtree (T m [])) v k rest); auto.
  apply walk_cwalk in Hw; [|exact Hg]. inversion Hw as [|? ? ? i c' ? ? Hk Hfc Hcc Hw'|]; subst. inversion Hw'; subst. exact (all_nodes_child _ g _ c Hg Hcc).
Qed.

(** A call o.m(a, b) of the method m of the object that o holds.  The parameters get the
    arguments converted to their types.  The result is the first one as it is. *)
Theorem C65_method_partial : forall E L o m l vs xs g c id k rest s fuel,
  let txt := call_text [Name o; Name m] l [] in
  name E o -> starts_with_letter [Name o] -> ordinary o -> name E m -> ordinary m -> Forall (actual_ok E) l ->
  len txt <= 4094 -> (2 * List.length txt + 16 <= fuel)%nat ->
  whole E g -> walk E [Name o] g c -> none_named E m (out c) -> out c = Some (Node (VObj id) k) :: rest -> methods L (VObj id) m = Some s ->
  Forall2 (worth_m E g) (map what l) vs -> adapted E (params s) vs xs ->
  exists e, NewExpression E fuel txt = Ok e /\
    (forall rs r, body s xs = Ok rs -> outcome rs r -> Eval E (reflected E L) fuel g (Some e) = Ok (g, EVal r)) /\
    (body s xs = Panic -> Eval E (reflected E L) fuel g (Some e) = Panic).
Proof.
  intros E L o m l vs xs g c id k rest s fuel txt Ho Hst Hoo Hm Hom Hl Hlen Hfuel Hg Hw Hn Hc Hs Hvs Hxs.
  destruct (eval_member E L o m l g c (VObj id) k rest fuel) as (f' & -> & e & p & He & -> & Hev); try assumption.
  exists e. split; [exact He|]. rewrite Hev. unfold function. cbn [out]. change (child [Some (gtree (T o [])); Some (gtree (T m [])); Some (gtree (actuals_tree l))] 1) with (Some (gtree (T m []))).
  cbn iota. change (ThisString E (Some (gtree (T m [])))) with (Ok m : res bytes). cbn [rbind has_method reflected]. rewrite Hs.
  change (nth_error [Some (gtree (T o [])); Some (gtree (T m [])); Some (gtree (actuals_tree l))] 2) with (Some (Some (gtree (actuals_tree l)))). cbn iota.
  change (out (gtree (actuals_tree l))) with (gforest (map actual_tree l)). rewrite (args_worth_m E (reflected E L) f' l vs g Hg Hvs). cbn [rbind call reflected]. rewrite Hs.
  unfold call_method. rewrite (method_args_adapted E L _ _ _ Hxs). cbn [rbind]. split.
  - intros rs r Hb Hr. rewrite Hb, (outcome_fun rs r Hr). reflexivity.
  - intros Hb. rewrite Hb. reflexivity.
Qed.
Print Assumptions C65_method_partial.

(** A call r.m(a, b) of a remote function: it gets a graph with the name m, below it the
    arguments. *)
Theorem C65_remote_partial : forall E L r m l vs ns g c id k rest fuel,
  let s := functions L id in let txt := call_text [Name r; Name m] l [] in
  name E r -> starts_with_letter [Name r] -> ordinary r -> name E m -> ordinary m -> Forall (actual_ok E) l ->
  len txt <= 4094 -> (2 * List.length txt + 16 <= fuel)%nat ->
  whole E g -> walk E [Name r] g c -> none_named E m (out c) -> out c = Some (Node (VFun id) k) :: rest -> looks_remote s ->
  Forall2 (worth E g) (map what l) vs -> Forall2 sent_as vs ns ->
  let q := Node (VStr (bs "_")) [Some (Node (VStr m) (map Some ns))] in
  exists e, NewExpression E fuel txt = Ok e /\
    (forall rs v, body s [Arg (AVal (VPtr (Some q)))] = Ok rs -> outcome rs v -> Eval E (reflected E L) fuel g (Some e) = Ok (g, EVal v)) /\
    (body s [Arg (AVal (VPtr (Some q)))] = Panic -> Eval E (reflected E L) fuel g (Some e) = Panic).
Proof.
  intros E L o m l vs ns g c id k rest fuel s txt Ho Hst Hoo Hm Hom Hl Hlen Hfuel Hg Hw Hn Hc Hr Hvs Hns q.
  destruct (eval_member E L o m l g c (VFun id) k rest fuel) as (f' & -> & e & p & He & -> & Hev); try assumption.
  exists e. split; [exact He|]. rewrite Hev. unfold function. cbn [remote reflected]. fold s. replace (rfType s) with true by (symmetry; apply rfType_remote, Hr).
  unfold Out_. cbn [out nth_error rbind]. change (out (gtree (actuals_tree l))) with (gforest (map actual_tree l)). rewrite (args_worth E (reflected E L) f' l vs g Hg Hvs). cbn [rbind].
  change (add_ret (this (gtree (T m [])))) with (Some (Node (VStr m) []) : option graph). cbn iota. cbn [this out app].
  assert (Hk : flat_map add_out vs = map Some ns).
  { clear -Hns. induction Hns as [|v n vs ns Hv _ IH]; [reflexivity|]. cbn [flat_map map]. rewrite IH. destruct Hv as [->|(Hd & Hv & ->)]; [reflexivity|].
    destruct v; try congruence; try contradiction; reflexivity. }
  rewrite Hk. fold q. cbn [call reflected]. fold s.
  destruct (call_function_types L s [VPtr (Some q)] [bs "*ogdl.Graph"]) as [Hcf _]; [constructor; [apply ty_graph|constructor]|]. rewrite (Hcf (eq_sym (proj1 Hr))).
  cbn [map]. split.
  - intros rs v Hb Hv. rewrite Hb, (outcome_fun rs v Hv). reflexivity.
  - intros Hb. rewrite Hb. reflexivity.
Qed.
Print Assumptions C65_remote_partial.

(** ** Examples, and what is not so *)
Definition ex_lib : library := {|
  functions id :=
    match id with
    | 1%N => {| params := [bs "int64"; bs "int64"]; results := [bs "int64"];
               body l := match l with [Arg (AVal (VInt KInt64 a)); Arg (AVal (VInt KInt64 b))] => Ok [VInt KInt64 (a - b)] | _ => Panic end |}
    | 2%N => {| params := [bs "*ogdl.Graph"]; results := [bs "*ogdl.Graph"; bs "error"];
               body l := match l with [Arg (AVal v)] => Ok [v; VNil] | _ => Panic end |}
    | 3%N => {| params := [bs "int"]; results := [bs "int"]; body l := match l with [Arg (AVal v)] => Ok [v] | _ => Panic end |}
    | 4%N => {| params := [bs "string"]; results := [bs "*ogdl.Graph"];
               body l := match l with [Arg (AVal v)] => Ok [VPtr (Some (nd "r" [nd "x" [nd "y" []; Node v []]]))] | _ => Panic end |}
    | 5%N => {| params := []; results := [bs "int64"; bs "error"]; body l := Ok [VInt KInt64 0; VOther 1] |}
    | _ => {| params := [bs "int64"]; results := [bs "int64"]; body l := match l with [Arg (AVal v)] => Ok [v] | _ => Panic end |}
    end;
  methods v m := if bseq m (bs "Add") then Some {| params := [bs "int"; bs "string"]; results := [bs "int"];
                   body l := match l with [Arg (AVal (VInt KInt a)); Zero _] => Ok [VInt KInt (a + 1)] | _ => Panic end |}
                 else if bseq m (bs "Node") then Some {| params := []; results := [bs "*ogdl.Graph"]; body l := Ok [VPtr (Some (nd "r" [nd "x" [nd "y" []]]))] |}
                 else None;
  type_other _ := bs "?"; parse_bool _ := None; float_error _ := S754_nan; json _ := Panic |}.
Definition fn (s : string) (id : N) : graph := nd s [Node (VFun id) []].
Definition ex_fctx : graph := nd "r" [fn "sub" 1; fn "rem" 2; fn "i" 3; fn "mk" 4; fn "err" 5; fn "id" 6; nd "o" [Node (VObj 1) []]; nd "n" [Node (VInt KInt64 7) []]; nd "a" [fn "id" 6]].
Lemma ex_find s i c : (forall j c', (j < i)%nat -> nth_error (out ex_fctx) j = Some (Some c') -> match this c' with VStr t => bseq t (bs s) = false | _ => False end) ->
  nth_error (out ex_fctx) i = Some (Some c) -> this c = VStr (bs s) -> walk env0 [Name (bs s)] ex_fctx c.
Proof.
  intros Hb Hc Ht. eapply walk_key with (i := i); [reflexivity| |constructor]. split; [exact Hc|]. split.
  - eexists. split; [reflexivity|]. rewrite Ht. reflexivity.
  - intros j c' Hj Hc' (n & -> & K). specialize (Hb j n Hj Hc'). destruct (this n) as [|u| | | | | | | | |]; try contradiction. cbn in K. injection K as ->. rewrite bseq_refl in Hb. discriminate.
Qed.
Ltac ex_walk s k := apply (ex_find s k); [intros j ? ? H; repeat (destruct j as [|j]; [injection H as <-; reflexivity|]); lia|reflexivity|reflexivity].
Lemma ex_fctx_whole : whole env0 ex_fctx.
Proof.
  assert (H1 : forall v, (exists s, vstring env0 v = Ok s) -> whole env0 (Node v [])) by (intros v Hv; apply (all_node _ v []); [exact Hv|constructor]).
  assert (H2 : forall s k, Forall (whole env0) k -> whole env0 (nd s k)) by (intros; apply all_node; [eexists; reflexivity|assumption]).
  repeat first [apply Forall_cons|apply Forall_nil|apply H1; eexists; reflexivity|apply H2].
Qed.
Lemma ex_arg p o : blanks p -> operand_ok env0 o -> actual_ok env0 (mkActual p o).
Proof. intros Hp Ho. split; assumption. Qed.
Lemma ex_ordinary s : (s = bs "sub" \/ s = bs "n" \/ s = bs "mk" \/ s = bs "x" \/ s = bs "o" \/ s = bs "Add" \/ s = bs "rem" \/ s = bs "hi" \/ s = bs "Node") -> ordinary s.
Proof. intros Hs H. repeat (destruct Hs as [->|Hs]; [repeat (destruct H as [H|H]; [discriminate H|]); exact H|]). subst. repeat (destruct H as [H|H]; [discriminate H|]). exact H. Qed.
Lemma ex_worth_n : worth env0 ex_fctx (OPath [Name (bs "n")]) (VInt KInt64 7).
Proof.
  apply (worth_value env0 ex_fctx [bs "n"] (nd "n" [Node (VInt KInt64 7) []])); [discriminate|ascii_names|constructor; [apply ex_ordinary; tauto|constructor]| |reflexivity].
  ex_walk "n"%string 7%nat.
Qed.
Definition ex_actuals : list actual := [mkActual [] (OPath [Name (bs "n")]); mkActual (bs " ") (ONum (bs "2"))].
Lemma ex_actuals_ok : Forall (actual_ok env0) ex_actuals.
Proof.
  constructor; [apply ex_arg; [constructor|apply (ex_aname "n"); cbn; auto]|]. constructor; [apply ex_arg; [repeat constructor|]|constructor].
  apply (ex_anum 2); [unfold in64|]; lia.
Qed.
Example C65_function_ex : call_text [Name (bs "sub")] ex_actuals [] = bs "sub(n, 2)" /\ Forall (actual_ok env0) ex_actuals /\
  Forall2 (worth env0 ex_fctx) (map what ex_actuals) [VInt KInt64 7; VInt KInt64 2] /\ Forall2 has_type [VInt KInt64 7; VInt KInt64 2] (params (functions ex_lib 1)) /\
  exists e, NewExpression env0 40 (bs "sub(n, 2)") = Ok e /\ Eval env0 (reflected env0 ex_lib) 40 ex_fctx (Some e) = Ok (ex_fctx, EVal (VInt KInt64 5)).
Proof.
  assert (Hv : Forall2 (worth env0 ex_fctx) (map what ex_actuals) [VInt KInt64 7; VInt KInt64 2]).
  { constructor; [exact ex_worth_n|]. constructor; [|constructor]. apply (worth_num env0 ex_fctx 2). unfold in64; lia. }
  assert (Ht : Forall2 has_type [VInt KInt64 7; VInt KInt64 2] (params (functions ex_lib 1))) by repeat constructor.
  split; [reflexivity|]. split; [exact ex_actuals_ok|]. split; [exact Hv|]. split; [exact Ht|].
  destruct (C65_function_partial env0 ex_lib (bs "sub") ex_actuals [] [VInt KInt64 7; VInt KInt64 2] (params (functions ex_lib 1)) ex_fctx (fn "sub" 1) 1 [] [] 40) as (e & He & H & _);
    [ascii_names|split; [left; reflexivity|split; [cbn; lia|discriminate]]|apply ex_ordinary; tauto|exact ex_actuals_ok|constructor|constructor|vm_compute; discriminate|cbn; lia|exact ex_fctx_whole|ex_walk "sub"%string O|reflexivity|intros [K _]; discriminate K|exact Hv|exact Ht|].
  exists e. split; [exact He|]. apply (H eq_refl [VInt KInt64 5] (VInt KInt64 5) (VInt KInt64 5)); [reflexivity|right; eexists; reflexivity|left; split; reflexivity|right; split; [discriminate|reflexivity]].
Qed.
Example C65_get_ex : call_text [Name (bs "mk")] [mkActual [] (OStr "'" (bs "z"))] [Name (bs "x")] = bs "mk('z').x" /\
  Get env0 (reflected env0 ex_lib) 40 (Some ex_fctx) (bs "mk('z').x") = Ok (Some ex_fctx, Some (nd "x" [nd "y" []; nd "z" []])).
Proof.
  split; [reflexivity|].
  destruct (C65_get_partial env0 ex_lib (bs "mk") [mkActual [] (OStr "'" (bs "z"))] [bs "x"] [VStr (bs "z")] [bs "string"] ex_fctx (fn "mk" 4) 4 [] [] 40) as (H & _);
    [ascii_names|repeat constructor; cbn; try discriminate; left; reflexivity|ascii_names|vm_compute; discriminate|cbn; lia|exact ex_fctx_whole|ex_walk "mk"%string 3%nat|reflexivity|intros [K _]; discriminate K|repeat constructor|repeat constructor|].
  apply (H eq_refl [VPtr (Some (nd "r" [nd "x"  [nd "y" []; nd "z" []]]))] (VPtr (Some (nd "r" [nd "x" [nd "y" []; nd "z" []]]))) (nd "x" [nd "y" []; nd "z" []])); [reflexivity|right; eexists; reflexivity|].
  right. exists (nd "r" [nd "x" [nd "y" []; nd "z" []]]), (nd "x" [nd "y" []; nd "z" []]). split; [reflexivity|]. split.
  - repeat (apply (all_node _ (VStr _) [nd "x" [nd "y" []; nd "z" []]]) || apply (all_node _ (VStr _) [nd "y" []; nd "z" []]) || apply (all_node _ (VStr _) []) || apply Forall_cons || apply Forall_nil || (eexists; reflexivity)).
  - split; [|reflexivity]. eapply walk_key with (i := O); [reflexivity| |constructor]. split; [reflexivity|]. split; [eexists; split; reflexivity|intros j c Hj; lia].
Qed.
Example C65_method_ex : call_text [Name (bs "o"); Name (bs "Add")] [mkActual [] (ONum (bs "4"))] [] = bs "o.Add(4)" /\
  adapted env0 [bs "int"; bs "string"] [VInt KInt64 4] [Arg (AVal (VInt KInt 4)); Zero (bs "string")] /\
  exists e, NewExpression env0 40 (bs "o.Add(4)") = Ok e /\ Eval env0 (reflected env0 ex_lib) 40 ex_fctx (Some e) = Ok (ex_fctx, EVal (VInt KInt 5)).
Proof.
  assert (Ha : adapted env0 [bs "int"; bs "string"] [VInt KInt64 4] [Arg (AVal (VInt KInt 4)); Zero (bs "string")]) by repeat constructor.
  split; [reflexivity|]. split; [exact Ha|].
  destruct (C65_method_partial env0 ex_lib (bs "o") (bs "Add") [mkActual [] (ONum (bs "4"))] [VInt KInt64 4] [Arg (AVal (VInt KInt 4)); Zero (bs "string")] ex_fctx (nd "o" [Node (VObj 1) []]) 1 [] [] 
    {| params := [bs "int"; bs "string"]; results := [bs "int"]; body l := match l with [Arg (AVal (VInt KInt a)); Zero _] => Ok [VInt KInt (a + 1)] | _ => Panic end |} 40) as (e & He & H & _);
    [ascii_names|split; [left; reflexivity|split; [cbn; lia|discriminate]]|apply ex_ordinary; tauto|ascii_names|apply ex_ordinary; tauto
    |constructor; [apply ex_arg; [constructor|apply (ex_anum 4); [unfold in64|]; lia]|constructor]|vm_compute; discriminate|cbn; lia|exact ex_fctx_whole|ex_walk "o"%string 6%nat
    | |reflexivity|reflexivity|constructor; [apply (worthm_num env0 ex_fctx 4); unfold in64; lia|constructor]|exact Ha|].
  { constructor; [|constructor]. intros (n & Hn & K). injection Hn as <-. discriminate K. }
  exists e. split; [exact He|]. apply (H [VInt KInt 5]); [reflexivity|right; eexists; reflexivity].
Qed.
Example C65_remote_ex : call_text [Name (bs "rem"); Name (bs "hi")] ex_actuals [] = bs "rem.hi(n, 2)" /\ looks_remote (functions ex_lib 2) /\
  Forall2 sent_as [VInt KInt64 7; VInt KInt64 2] [Node (VInt KInt64 7) []; Node (VInt KInt64 2) []] /\
  exists e, NewExpression env0 40 (bs "rem.hi(n, 2)") = Ok e /\
    Eval env0 (reflected env0 ex_lib) 40 ex_fctx (Some e) = Ok (ex_fctx, EVal (VPtr (Some (nd "_" [nd "hi" [Node (VInt KInt64 7) []; Node (VInt KInt64 2) []]])))).
Proof.
  assert (Hs : Forall2 sent_as [VInt KInt64 7; VInt KInt64 2] [Node (VInt KInt64 7) []; Node (VInt KInt64 2) []]).
  { repeat apply Forall2_cons; try apply Forall2_nil; right; (split; [exact I|split; [discriminate|reflexivity]]). }
  split; [reflexivity|]. split; [split; reflexivity|]. split; [exact Hs|].
  destruct (C65_remote_partial env0 ex_lib (bs "rem") (bs "hi") ex_actuals [VInt KInt64 7; VInt KInt64 2] [Node (VInt KInt64 7) []; Node (VInt KInt64 2) []] ex_fctx (fn "rem" 2) 2 [] [] 40) as (e & He & H & _);
    [ascii_names|split; [left; reflexivity|split; [cbn; lia|discriminate]]|apply ex_ordinary; tauto|ascii_names|apply ex_ordinary; tauto|exact ex_actuals_ok|vm_compute; discriminate|cbn; lia
    |exact ex_fctx_whole|ex_walk "rem"%string 1%nat| |reflexivity|split; reflexivity| |exact Hs|].
  { constructor; [|constructor]. intros (n & Hn & K). injection Hn as <-. discriminate K. }
  { constructor; [exact ex_worth_n|]. constructor; [|constructor]. apply (worth_num env0 ex_fctx 2). unfold in64; lia. }
  exists e. split; [exact He|]. apply (H [VPtr (Some (nd "_" [nd "hi" [Node (VInt KInt64 7) []; Node (VInt KInt64 2) []]])); VNil]); [reflexivity|right; eexists; reflexivity].
Qed.

(** Of an argument that is not a single operand only the first operand is evaluated. *)
Theorem C65_operator_refuted : exists e, NewExpression env0 40 (bs "id(1+2)") = Ok e /\
  Eval env0 (reflected env0 ex_lib) 40 ex_fctx (Some e) = Ok (ex_fctx, EVal (VInt KInt64 1)).
Proof. eexists. split; [rewrite NewExpression_ideal by (cbn; lia); vm_compute; reflexivity|vm_compute; reflexivity]. Qed.
Print Assumptions C65_operator_refuted.
(** A function below another node is called without its arguments. *)
Theorem C65_below_refuted : exists e n, NewExpression env0 40 (bs "a.id(1)") = Ok e /\
  walk env0 [Name (bs "a"); Name (bs "id")] ex_fctx (fn "id" 6) /\ params (functions ex_lib 6) = [bs "int64"] /\
  Eval env0 (reflected env0 ex_lib) 40 ex_fctx (Some e) = Ok (ex_fctx, EErr n).
Proof.
  eexists. eexists. split; [rewrite NewExpression_ideal by (cbn; lia); vm_compute; reflexivity|].
  split; [|split; vm_compute; reflexivity].
  eapply walk_key with (i := 8%nat); [reflexivity| |].
  - split; [reflexivity|]. split; [eexists; split; reflexivity|]. intros j c Hj Hc (n & -> & K).
    do 8 (destruct j as [|j]; [injection Hc as <-; discriminate K|]). lia.
  - eapply walk_key with (i := O); [reflexivity|split; [reflexivity|split; [eexists; split; reflexivity|intros j c Hj; lia]]|constructor].
Qed.
Print Assumptions C65_below_refuted.
(** A function with a parameter of type int cannot be called with a number. *)
Theorem C65_int_refuted : exists e n, NewExpression env0 40 (bs "i(1)") = Ok e /\ params (functions ex_lib 3) = [bs "int"] /\
  Eval env0 (reflected env0 ex_lib) 40 ex_fctx (Some e) = Ok (ex_fctx, EErr n).
Proof. eexists. eexists. split; [rewrite NewExpression_ideal by (cbn; lia); vm_compute; reflexivity|split; vm_compute; reflexivity]. Qed.
Print Assumptions C65_int_refuted.
(** The error that a function returns is dropped. *)
Theorem C65_error_refuted : exists e, NewExpression env0 40 (bs "err()") = Ok e /\ body (functions ex_lib 5) [] = Ok [VInt KInt64 0; VOther 1] /\
  Eval env0 (reflected env0 ex_lib) 40 ex_fctx (Some e) = Ok (ex_fctx, EVal (VInt KInt64 0)).
Proof. eexists. split; [rewrite NewExpression_ideal by (cbn; lia); vm_compute; reflexivity|split; vm_compute; reflexivity]. Qed.
Print Assumptions C65_error_refuted.
(** One argument too many is an error, but one that is not found panics. *)
Theorem C65_excess_refuted : exists e e' n, NewExpression env0 40 (bs "id(1, 2)") = Ok e /\ NewExpression env0 40 (bs "id(1, zz)") = Ok e' /\
  Eval env0 (reflected env0 ex_lib) 40 ex_fctx (Some e) = Ok (ex_fctx, EErr n) /\ Eval env0 (reflected env0 ex_lib) 40 ex_fctx (Some e') = Panic.
Proof.
  eexists. eexists. eexists. split; [rewrite NewExpression_ideal by (cbn; lia); vm_compute; reflexivity|].
  split; [rewrite NewExpression_ideal by (cbn; lia); vm_compute; reflexivity|]. split; vm_compute; reflexivity.
Qed.
Print Assumptions C65_excess_refuted.
(** Get does not find the graph that a method returns; Eval gives it, with or without the name
    that follows. *)
Theorem C65_method_get_refuted : exists e e', NewExpression env0 40 (bs "o.Node()") = Ok e /\ NewExpression env0 40 (bs "o.Node().x") = Ok e' /\
  Eval env0 (reflected env0 ex_lib) 40 ex_fctx (Some e) = Ok (ex_fctx, EVal (VPtr (Some (nd "r" [nd "x" [nd "y" []]])))) /\
  Eval env0 (reflected env0 ex_lib) 40 ex_fctx (Some e') = Ok (ex_fctx, EVal (VPtr (Some (nd "r" [nd "x" [nd "y" []]])))) /\
  Get env0 (reflected env0 ex_lib) 40 (Some ex_fctx) (bs "o.Node()") = Ok (Some ex_fctx, None).
Proof.
  eexists. eexists. split; [rewrite NewExpression_ideal by (cbn; lia); vm_compute; reflexivity|].
  split; [rewrite NewExpression_ideal by (cbn; lia); vm_compute; reflexivity|]. split; [vm_compute; reflexivity|]. split; [vm_compute; reflexivity|].
  unfold Get. rewrite NewPath_ideal by (cbn; lia). vm_compute. reflexivity.
Qed.
Print Assumptions C65_method_get_refuted.
