(** Assignments of values that are not nodes, in contexts in memory that share no nodes: they do what they do on trees. *)
From Verif Require Import Base Value Graph Emit PathParser Eval Heap HeapSpec HeapFacts RefineSpec RefineFacts HeapEval Quiet HeapEvalFacts PanicSpec.

(** ** Specification *)

(** The elements of a path, as parsed *)
Definition path_ok (p : graph) : Prop := Forall (fun e => exists x, e = Some x /\ wordy x) (out p).
(** Names only *)
Definition named_elem (e : option graph) : Prop := exists s k, e = Some (Node (VStr s) k) /\ ~ In s [bs "!i"; bs "!s"; bs "!a"; bs "!g"].
(** [tracks h l root m t]: [m], which starts in [h], where [root] is a tree with the nodes [l], ends as [t] does.  Then the
    context is again a tree, the one that [t] says; other nodes are as they were. *)
Definition tracks {A B} (h : heap) (l : list addr) (root : addr) (m : heap * res A) (t : res (graph * B)) : Prop :=
  match t with
  | Ok (g, _) => exists h' x l', m = (h', Ok x) /\ spread h' root g l' /\ evolves h l h' l'
  | Panic => exists h', m = (h', Panic)
  | NoFuel => exists h', m = (h', NoFuel)
  end.

(** ** Facts *)
Lemma spread_shows2 h : (forall a g l, spread h a g l -> shows h a g) /\ (forall k o l, spread_kids h k o l -> shows_kids h k o).
Proof.
  apply spread_ind2.
  - intros a c v o l G P _ K _. apply (shows_node h a c); auto. constructor. exact P.
  - constructor.
  - intros. constructor. assumption.
  - intros. constructor; assumption.
Qed.
Lemma spread_ext h h' a g l : extends h h' -> spread h a g l -> spread h' a g l /\ evolves h l h' l.
Proof.
  intros (k & ->) S. assert (K : forall x, (x < List.length h)%nat -> nth_error (h ++ k) x = nth_error h x) by (intros x Hx; apply nth_error_app1, Hx). split.
  - apply (proj1 (spread_frame_both h (h ++ k)) a g l S). intros x Hx. apply K. eapply spread_lt; eassumption.
  - split; [rewrite app_length; lia|intros x Hx _; apply K, Hx|auto].
Qed.

Section Assign.
Variable E : env.
Variable f : nat.
Hypothesis Hf : (1 <= f)%nat.

Lemma wordy_index x : wordy x -> exists i, Int64 E (Some x) None = Ok i /\ in64 i.
Proof.
  intros [s k Hk]. unfold Int64. assert (in64 0) by (unfold in64; lia). destruct k as [|[v o] k]; cbn [map Interface rbind this].
  - exists 0. split; [reflexivity|assumption].
  - inversion Hk as [|? ? Hc _]; subst. inversion Hc as [s' k' _]; subst. cbn [v_int64f rbind]. destruct (parse_int s') as [i|] eqn:Hi; eexists; (split; [reflexivity|]); [eapply parse_int_range; exact Hi|assumption].
Qed.
Lemma path_elems_spec els : Forall (fun e => exists x, e = Some x /\ wordy x) els -> exists l, path_elems E els = Ok l /\
  (forall g v, set_els E els g v = set_els E (map path_elem l) g v) /\ (forall g v, set_new E els g v = set_new E (map path_elem l) g v) /\
  (forall s, In (HName s) l -> s <> TypeIndex) /\ (forall k, In (HIndex k) l -> in64 k).
Proof.
  induction 1 as [|e els (x & -> & Hx) _ (l & IH1 & IH2 & IH3 & IH4 & IH5)].
  - exists []. split; [reflexivity|]. split; [reflexivity|]. split; [reflexivity|]. split; [intros s []|intros k []].
  - destruct (wordy_index x Hx) as (i & Hi & Hr). destruct Hx as [s k Hk]. cbn [path_elems ThisString this vstring sstring rbind]. destruct (bseq_spec s TypeIndex) as [->|Hs].
    + rewrite Hi. cbn [rbind]. exists [HIndex i]. split; [reflexivity|].
      assert (Hpi : Int64 E (path_elem (HIndex i)) None = Ok i) by (unfold Int64; cbn [path_elem Interface rbind this v_int64f]; rewrite parse_format_int by exact Hr; reflexivity).
      split; [|split; [|split]].
      * intros g v. cbn [set_els map]. change (ThisString E (path_elem (HIndex i))) with (@Ok bytes TypeIndex). cbn [ThisString this vstring sstring rbind]. rewrite bseq_refl, Hi, Hpi. reflexivity.
      * intros g v. cbn [set_new map]. change (ThisString E (path_elem (HIndex i))) with (@Ok bytes TypeIndex). cbn [ThisString this vstring sstring rbind]. rewrite bseq_refl, Hi, Hpi. reflexivity.
      * intros s [K|[]]; discriminate.
      * intros j [K|[]]. injection K as <-. exact Hr.
    + rewrite IH1. cbn [rbind]. exists (HName s :: l). split; [reflexivity|].
      assert (Hns : bseq s TypeIndex = false) by (destruct (bseq_spec s TypeIndex); congruence).
      assert (Hnew : forall g v, set_new E (Some (Node (VStr s) (map Some k)) :: els) g v = set_new E (path_elem (HName s) :: map path_elem l) g v).
      { intros g v. cbn [set_new path_elem ThisString this vstring sstring rbind add_ret]. rewrite Hns, IH3. reflexivity. }
      split; [|split; [exact Hnew|split]].
      * intros g v. cbn [set_els map]. rewrite <- Hnew. change (ThisString E (path_elem (HName s))) with (@Ok bytes s). cbn [ThisString this vstring sstring rbind]. rewrite Hns.
        destruct (find_child E s (out g)) as [[i'|]| |]; cbn [rbind]; try reflexivity. destruct (child (out g) i'); [rewrite IH2|]; reflexivity.
      * intros s' [K|K]; [injection K as <-; exact Hs|apply IH4, K].
      * intros j [K|K]; [discriminate|apply IH5, K].
Qed.

Lemma set_tracks h l root g p x v : spread h root g l -> plain x = Some v -> path_ok p ->
  tracks h l root ((do l <- lift (path_elems E (out p)); do r <- hSet E f (Some root) l x; ret (VPtr r)) h) (let* (g, r) := set_path E g (Some p) v in Ok (g, VPtr r)).
Proof.
  intros Sp Px Hp. destruct (path_elems_spec (out p) Hp) as (els & He & Hs & _ & Hn & Hi). unfold set_path. rewrite Hs. unfold mbind at 1. unfold lift. rewrite He.
  assert (Ek : elems_ok els x) by (split; [exact Hn|intros k Hk; split; [apply Hi, Hk|exists v; exact Px]]).
  pose proof (hset_ok E f x v [] els h root g l Sp (arg_plain h x v Px) (fun y (Hy : In y []) => match Hy with end) Ek) as K. cbn [hSet].
  destruct (set_els E (map path_elem els) g v) as [[g' r]| |]; cbn [refines rbind] in *; [|destruct K as (h' & K); exists h'; unfold mbind; rewrite K; reflexivity|contradiction].
  destruct K as (h' & y & K & m' & Sp' & Ev). rewrite app_nil_r in Ev. exists h'. eexists. exists m'. unfold mbind. rewrite K. split; [reflexivity|]. split; [exact Sp'|exact Ev].
Qed.

(** The contexts stay data *)
Lemma set_nth_stored i c o : Forall (stored true) o -> stored true c -> Forall (stored true) (set_nth i c o).
Proof. intros Ho Hc. revert i. induction Ho as [|y o Hy Ho IH]; intros [|i]; cbn [set_nth]; constructor; auto. Qed.
Lemma addNodes_stored v : datum v -> Forall (stored true) (addNodes_out v).
Proof. intros H. destruct v; destruct H; cbn; repeat constructor. Qed.
Lemma set_index_stored g i v g' r : stored true (Some g) -> datum v -> set_index g i v = Ok (g', r) -> stored true (Some g').
Proof.
  intros Hg Hv H. inversion Hg as [|t o Ht Ho]; subst. unfold set_index in H. destruct (i <? 0); [discriminate|]. injection H as <- _. constructor; [exact Ht|]. cbn [out]. apply set_nth_stored.
  - destruct (_ <=? i); [|exact Ho]. apply Forall_app. split; [exact Ho|]. apply Forall_forall. intros y Hy. apply repeat_spec in Hy. subst. constructor. reflexivity.
  - constructor; [exact Hv|constructor].
Qed.
Lemma set_here_stored g v g' r : stored true (Some g) -> datum v -> set_here g v = Ok (g', r) -> stored true (Some g').
Proof. intros Hg Hv H. inversion Hg as [|t o Ht Ho]; subst. injection H as <- _. constructor; [exact Ht|apply addNodes_stored, Hv]. Qed.
Lemma set_new_stored v els : Forall (fun e => exists x, e = Some x /\ wordy x) els -> datum v -> forall g g' r, stored true (Some g) -> set_new E els g v = Ok (g', r) -> stored true (Some g').
Proof.
  intros He Hv. induction He as [|e els (x & -> & Hx) _ IH]; intros g g' r Hg H; [eapply set_here_stored; eassumption|].
  destruct Hx as [s k Hk]. cbn [set_new ThisString this vstring sstring rbind add_ret] in H. destruct (bseq s TypeIndex).
  - destruct (Int64 E _ None) as [i| |]; [|discriminate|discriminate]. eapply set_index_stored; [exact Hg|exact Hv|exact H].
  - destruct (set_new E els (New (VStr s)) v) as [[c r']| |] eqn:K; try discriminate. injection H as <- _. inversion Hg as [|t o Ht Ho]; subst. constructor; [exact Ht|]. cbn [out].
    apply Forall_app. split; [exact Ho|]. constructor; [|constructor]. eapply IH; [|exact K]. constructor; [exact I|constructor].
Qed.
Lemma set_els_stored v els : Forall (fun e => exists x, e = Some x /\ wordy x) els -> datum v -> forall g g' r, stored true (Some g) -> set_els E els g v = Ok (g', r) -> stored true (Some g').
Proof.
  intros He Hv. induction He as [|e els (x & -> & Hx) He' IH]; intros g g' r Hg H; [eapply set_here_stored; eassumption|]. pose proof Hx as Hx'.
  destruct Hx as [s k Hk]. cbn [set_els ThisString this vstring sstring rbind] in H. destruct (bseq s TypeIndex).
  - destruct (Int64 E _ None) as [i| |]; [|discriminate|discriminate]. eapply set_index_stored; [exact Hg|exact Hv|exact H].
  - destruct (find_child E s (out g)) as [[i|]| |]; try discriminate; cbn [rbind] in H.
    + destruct (child (out g) i) as [c|] eqn:Hc; [|discriminate]. destruct (set_els E els c v) as [[c' r']| |] eqn:K; try discriminate. injection H as <- _.
      inversion Hg as [|t o Ht Ho]; subst. cbn [out this] in *. constructor; [exact Ht|]. apply set_nth_stored; [exact Ho|]. eapply IH; [|exact K].
      unfold child in Hc. destruct (nth_error o i) as [c0|] eqn:Hn; [|discriminate]. subst c0. exact (proj1 (Forall_forall _ _) Ho _ (nth_error_In _ _ Hn)).
    + eapply (set_new_stored v (Some (Node (VStr s) (map Some k)) :: els)); [|exact Hv|exact Hg|exact H]. constructor; [exists (Node (VStr s) (map Some k)); split; [reflexivity|exact Hx']|exact He'].
Qed.
Lemma calc_datum v w op r : calc E v w op = Ok r -> datum r.
Proof.
  intros H. unfold calc in H.
  assert (Hi : forall a b, calc_int op a b = Ok r -> datum r) by (intros a b K; unfold calc_int in K; repeat (destruct (_ : bool) in K; try discriminate); injection K as <-; exact I).
  assert (Hfl : forall a b, calc_float E op a b = Ok r -> datum r) by (intros a b K; unfold calc_float in K; repeat (destruct (_ : bool) in K; try discriminate); injection K as <-; exact I).
  assert (Hc : (let* s1 := vstring E v in let* s2 := vstring E w in Ok (VStr (s1 ++ s2)) : res (value graph)) = Ok r -> datum r).
  { intros K. destruct (vstring E v); try discriminate. cbn [rbind] in K. destruct (vstring E w); try discriminate. injection K as <-. exact I. }
  assert (Hr : forall a, (let* r := v_float64f E w in calc_float E op a (match r with Some b => b | None => S754_zero false end)) = Ok r -> datum r).
  { intros a K. destruct (v_float64f E w); try discriminate. cbn [rbind] in K. eapply Hfl, K. }
  destruct (v_int64 v), (v_int64 w); cbv zeta in H; try (eapply Hi; exact H); destruct (v_float64 v), (v_float64 w); eauto; destruct (beq op "+"); eauto; injection H as <-; exact I.
Qed.

(** The node that a path of names leads to, for += and the like *)
Variable C : calls.
Variable hC : hcalls.
Variable root : addr.
Variable hev : bool -> option graph -> M heres.
Variable ev : bool -> option graph -> graph -> res (graph * eres).
Variable g0 : graph.
Definition leads_same (h : heap) (x : option addr + N) (y : option graph + N) : Prop :=
  match x, y with inl a, inl b => okid any true h 0 a b | inr e, inr e' => e = e' | _, _ => False end.
Lemma gets_names p h els : Forall named_elem els -> forall ctx gctx prev gprev key, okid any true h 0 ctx gctx ->
  simg g0 h (fun h' x y => h' = h /\ leads_same h x y) (hget_els E f hC hev p els ctx prev key) (get_els E C ev p els gctx gprev key g0).
Proof.
  intros He. induction He as [|e els (s & k & -> & Hs) _ IH]; intros ctx gctx prev gprev key Hc; cbn [hget_els get_els].
  - apply sim_ret. split; [reflexivity|]. split; [reflexivity|exact Hc].
  - destruct ctx as [c|], gctx as [gc|]; try contradiction.
    2:{ apply sim_ret. split; [reflexivity|]. split; [reflexivity|exact I]. }
    assert (K : forall t, In t [bs "!i"; bs "!s"; bs "!a"; bs "!g"] -> bseq s t = false).
    { intros t Ht. destruct (bseq_spec s t) as [->|_]; [contradiction|reflexivity]. }
    apply sim_lift. intros s' Hs'. injection Hs' as <-.
    rewrite (K TypeIndex), (K TypeSelector), (K TypeArguments), (K TypeGroup) by (cbn; tauto).
    destruct Hc as (Hcs & Hcd). inversion Hcs as [? ? cell v o Hcell _ Hv Ho]; subst. pose proof (stored_out _ _ _ Hcd) as Hdo.
    eapply sim_bind; [eapply sim_Node; eassumption|]. intros h1 nx y Hx1 (-> & Hk). destruct nx as [a|], y as [b|]; try contradiction.
    + apply IH. destruct Hk as (H1 & H2). split; [eapply seen_any_level; exact H1|exact H2].
    + apply (sim_load _ _ _ cell _ _ Hcell). cbn [out].
      pose proof (first_this_seen any true h _ (c_out cell) o v Ho Hdo) as Hft. destruct Ho as [m|m l' o Hl|m a b l' o Ha Hl].
      * apply IH. exact I.
      * apply (sim_panic h).
      * destruct Hft as [(x & w & H1 & H2 & H3 & H4)|(H1 & H2)]; [|discriminate].
        destruct (function_datum E C hC g0 hev ev p w x H3 H4) as (F1 & F2).
        exists h. eexists. unfold mbind at 1. rewrite H1. unfold mbind at 1. rewrite F1, H2. cbn [rbind ret]. rewrite F2. split; [reflexivity|]. split; [apply extends_refl|]. eexists. split; [reflexivity|]. split; [reflexivity|]. split; reflexivity.
Qed.

Lemma set_tracks_ext h h1 l g p x v : extends h h1 -> spread h root g l -> plain x = Some v -> path_ok p ->
  tracks h l root ((do l <- lift (path_elems E (out p)); do r <- hSet E f (Some root) l x; ret (VPtr r)) h1) (let* (g, r) := set_path E g (Some p) v in Ok (g, VPtr r)).
Proof.
  intros Hx Sp Px Hp. destruct (spread_ext _ _ _ _ _ Hx Sp) as (Sp1 & Ev1). pose proof (set_tracks h1 l root g p x v Sp1 Px Hp) as K. unfold tracks in *.
  destruct (let* (g, r) := set_path E g (Some p) v in Ok (g, VPtr r)) as [[g' y]| |]; [|exact K|exact K].
  destruct K as (h' & z & l' & K1 & K2 & K3). exists h', z, l'. split; [exact K1|]. split; [exact K2|eapply evolves_trans; eassumption].
Qed.
Lemma vseen_datum h x v : vseen h x v -> datum v -> plain x = Some v.
Proof. intros [x' w H|a g _] Hd; [exact H|destruct Hd]. Qed.
(** [assign], where [g0] is the tree at [root]; [op] is =, or the path has only names *)
Lemma assign_tracks h h1 l p x v op : extends h h1 -> spread h root g0 l -> stored true (Some g0) -> plain x = Some v -> path_ok p ->
  op = "="%byte \/ Forall named_elem (out p) ->
  tracks h l root (hassign E f hC root hev (Some p) x op h1) (assign E C ev (Some p) v op g0).
Proof.
  intros Hx Sp Hst Px Hp Hop. unfold hassign, assign. cbv zeta. destruct (beq op "=") eqn:Bop; [apply set_tracks_ext; assumption|].
  destruct Hop as [->|Hn]; [discriminate|].
  assert (Hs1 : seen h1 any 0 root g0).
  { apply (proj1 (shows_seen3 true h1)); [|exact Hst]. eapply spread_shows2. eapply spread_ext; eassumption. }
  assert (Hg : simg g0 h1 (fun h' a b => h' = h1 /\ leads_same h1 a b) (hgetPath E f hC root hev p) (getPath E C ev p g0)).
  { unfold hgetPath, getPath. destruct (out p) as [|e els]; [apply sim_ret; split; [reflexivity|]; split; reflexivity|]. apply gets_names; [exact Hn|]. split; assumption. }
  destruct Hg as (h2 & r & Hm & _ & Hr). unfold mbind at 1. rewrite Hm. destruct r as [r| |]; [|rewrite Hr; exists h2; reflexivity|rewrite Hr; exists h2; reflexivity].
  destruct Hr as ([g1 y] & -> & Hg1 & -> & Hl). cbn [fst snd] in Hg1, Hl. subst g1. cbn [rbind].
  assert (Hmiss : tracks h l root
    ((if beq op "+" then do l0 <- lift (path_elems E (out p)); do r0 <- hSet E f (Some root) l0 x; ret (VPtr r0)
      else if beq op "-" then do w <- hcalc E f (VInt KInt 0) x "-"; (do l0 <- lift (path_elems E (out p)); do r0 <- hSet E f (Some root) l0 w; ret (VPtr r0))
      else if beq op "*" then do l0 <- lift (path_elems E (out p)); do r0 <- hSet E f (Some root) l0 (VInt KInt 0); ret (VPtr r0)
      else if beq op "/" then do l0 <- lift (path_elems E (out p)); do r0 <- hSet E f (Some root) l0 (VStr (bs "infinity")); ret (VPtr r0)
      else do l0 <- lift (path_elems E (out p)); do r0 <- hSet E f (Some root) l0 (VStr (bs "undefined")); ret (VPtr r0)) h1)
    (if beq op "+" then let* (g, r0) := set_path E g0 (Some p) v in Ok (g, VPtr r0)
     else if beq op "-" then let* w := calc E (VInt KInt 0) v "-" in let* (g, r0) := set_path E g0 (Some p) w in Ok (g, VPtr r0)
     else if beq op "*" then let* (g, r0) := set_path E g0 (Some p) (VInt KInt 0) in Ok (g, VPtr r0)
     else if beq op "/" then let* (g, r0) := set_path E g0 (Some p) (VStr (bs "infinity")) in Ok (g, VPtr r0)
     else let* (g, r0) := set_path E g0 (Some p) (VStr (bs "undefined")) in Ok (g, VPtr r0))).
  { destruct (beq op "+"); [apply set_tracks_ext; assumption|]. destruct (beq op "-").
    - destruct (hcalc_vseen E f Hf h1 (VInt KInt 0) (VInt KInt 0) x v "-" (vs_plain h1 (VInt KInt 0) (VInt KInt 0) eq_refl) (vs_plain _ _ _ Px)) as (h3 & w & Hw & Hx3 & Hr). unfold mbind at 1. rewrite Hw.
      destruct w as [w| |]; [|rewrite Hr; exists h3; reflexivity|rewrite Hr; exists h3; reflexivity]. destruct Hr as (z & Hz & Hv). rewrite Hz. cbn [rbind].
      apply set_tracks_ext; [eapply extends_trans; eassumption|exact Sp|eapply vseen_datum; [exact Hv|eapply calc_datum; exact Hz]|exact Hp].
    - destruct (beq op "*"); [apply set_tracks_ext; auto|]. destruct (beq op "/"); apply set_tracks_ext; auto. }
  destruct r as [[a|]|e], y as [[b|]|e']; cbn [leads_same okid] in Hl; try contradiction; [|exact Hmiss|exact Hmiss].
  destruct Hl as (Ha & Hb). inversion Ha as [? ? cell w o Hcell _ Hv Ho]; subst. pose proof (stored_out _ _ _ Hb) as Hdo. unfold mbind at 1. rewrite (load_ok _ _ _ Hcell). unfold Out_. cbn [out].
  pose proof (first_this_seen any true h1 _ (c_out cell) o w Ho Hdo) as Hft. destruct Hft as [(t & u & H1 & H2 & H3 & H4)|(H1 & H2)]; unfold mbind at 1; rewrite H1.
  - unfold first_this in H2. cbn [out] in H2. destruct o as [|[c|] o]; try discriminate. injection H2 as H2. cbn [nth_error rbind]. rewrite H2.
    destruct (hcalc_vseen E f Hf h1 t u x v op (vs_plain _ _ _ H3) (vs_plain _ _ _ Px)) as (h3 & z & Hw & Hx3 & Hr). unfold mbind at 1. rewrite Hw.
    destruct z as [z| |]; [|rewrite Hr; exists h3; reflexivity|rewrite Hr; exists h3; reflexivity]. destruct Hr as (q & Hq & Hvq). rewrite Hq. cbn [rbind].
    apply set_tracks_ext; [eapply extends_trans; eassumption|exact Sp|eapply vseen_datum; [exact Hvq|eapply calc_datum; exact Hq]|exact Hp].
  - unfold first_this in H2. cbn [out] in H2. destruct o as [|[c|] o]; [|discriminate|]; exists h1; reflexivity.
Qed.
(** The context is data afterwards *)
Lemma set_path_stored p v g' r : path_ok p -> datum v -> stored true (Some g0) -> (let* (g, r) := set_path E g0 (Some p) v in Ok (g, VPtr r)) = Ok (g', r) -> stored true (Some g').
Proof.
  intros Hp Hv Hg H. unfold set_path in H. destruct (set_els E (out p) g0 v) as [[g1 r1]| |] eqn:K; try discriminate. injection H as <- _. eapply set_els_stored; eassumption.
Qed.
Lemma assign_stored h l p v op g' r : spread h root g0 l -> stored true (Some g0) -> datum v -> path_ok p -> op = "="%byte \/ Forall named_elem (out p) ->
  assign E C ev (Some p) v op g0 = Ok (g', r) -> stored true (Some g').
Proof.
  intros Sp Hst Hv Hp Hop H. unfold assign in H. cbv zeta in H. destruct (beq op "=") eqn:Bop; [eapply set_path_stored; [exact Hp|exact Hv|exact Hst|exact H]|].
  destruct Hop as [->|Hn]; [discriminate|].
  assert (Hs1 : seen h any 0 root g0) by (apply (proj1 (shows_seen3 true h)); [eapply spread_shows2; exact Sp|exact Hst]).
  assert (Hg : simg g0 h (fun h' a b => h' = h /\ leads_same h a b) (hgetPath E f hC root hev p) (getPath E C ev p g0)).
  { unfold hgetPath, getPath. destruct (out p) as [|e els]; [apply sim_ret; split; [reflexivity|]; split; reflexivity|]. apply gets_names; [exact Hn|]. split; assumption. }
  destruct Hg as (h2 & x & Hm & _ & Hr). destruct x as [x| |]; [|rewrite Hr in H; discriminate|rewrite Hr in H; discriminate].
  destruct Hr as ([g1 y] & Hy & Hg1 & _ & _). cbn [fst snd] in Hg1. subst g1. rewrite Hy in H. cbn [rbind] in H.
  assert (Hc : forall a b o, (let* w := calc E a b o in let* (g, r0) := set_path E g0 (Some p) w in Ok (g, VPtr r0)) = Ok (g', r) -> stored true (Some g')).
  { intros a b o K. destruct (calc E a b o) as [w| |] eqn:Hw; try discriminate. cbn [rbind] in K. eapply set_path_stored; [exact Hp|eapply calc_datum; exact Hw|exact Hst|exact K]. }
  assert (Hmiss : (if beq op "+" then let* (g, r0) := set_path E g0 (Some p) v in Ok (g, VPtr r0)
     else if beq op "-" then let* w := calc E (VInt KInt 0) v "-" in let* (g, r0) := set_path E g0 (Some p) w in Ok (g, VPtr r0)
     else if beq op "*" then let* (g, r0) := set_path E g0 (Some p) (VInt KInt 0) in Ok (g, VPtr r0)
     else if beq op "/" then let* (g, r0) := set_path E g0 (Some p) (VStr (bs "infinity")) in Ok (g, VPtr r0)
     else let* (g, r0) := set_path E g0 (Some p) (VStr (bs "undefined")) in Ok (g, VPtr r0)) = Ok (g', r) -> stored true (Some g')).
  { intros K. destruct (beq op "+"); [eapply set_path_stored; [exact Hp|exact Hv|exact Hst|exact K]|]. destruct (beq op "-"); [eapply Hc; exact K|].
    destruct (beq op "*"); [eapply set_path_stored; [exact Hp| |exact Hst|exact K]; exact I|]. destruct (beq op "/"); (eapply set_path_stored; [exact Hp| |exact Hst|exact K]; exact I). }
  destruct y as [[b|]|e']; [|apply Hmiss, H|apply Hmiss, H]. destruct (Out_ b 0) as [[c|]| |]; try discriminate. eapply Hc; exact H.
Qed.
End Assign.
