(** C86: what makes templates with loops panic. *)
From Verif Require Import HeapEvalFacts HeapTemplate.
From Verif Require Import Base Value Graph EventSpec TextSpec PathSpec TemplateSpec PathParser PathTerm PathFacts Eval Template TemplateFacts TemplateProc PanicSpec Panics.
From Verif Require Import Samples P_Path P_Access P_Template P_Panics Fuel.
Local Notation len l := (Z.of_nat (List.length l)).

(** ** Contexts apart from some names *)
Lemma unnamed_keep xs o : unnamed xs o = tkeep xs o.
Proof. unfold unnamed, tkeep. apply filter_ext. intros [[[] ?]|]; reflexivity. Qed.
Lemma keep_sub xs x o : In x xs -> unnamed xs (tkeep [x] o) = unnamed xs o.
Proof.
  intros Hx. rewrite !unnamed_keep. unfold tkeep. induction o as [|c o IH]; [reflexivity|]. cbn [filter]. destruct (gone [x] (tname c)) eqn:Hg; cbn [negb filter]; [|rewrite IH; reflexivity].
  replace (gone xs (tname c)) with true; [exact IH|]. symmetry. destruct (tname c) as [s|]; [|discriminate]. cbn in *. rewrite orb_false_r in Hg. apply existsb_exists. exists x. split; [exact Hx|exact Hg].
Qed.
Lemma keep_bind xs x k o : In x xs -> unnamed xs (bind_var x k o) = unnamed xs o.
Proof.
  intros Hx. rewrite !unnamed_keep. unfold tkeep. induction o as [|c o IH]; [reflexivity|]. destruct c as [[[|l| | | | | | | | |] q]|]; cbn [bind_var filter]; try (rewrite IH; reflexivity).
  destruct (bseq_spec l x) as [->|_]; [|cbn [filter]; rewrite IH; reflexivity]. cbn [filter tname gone].
  replace (existsb (bseq x) xs) with true; [reflexivity|]. symmetry. apply existsb_exists. exists x. split; [exact Hx|]. destruct (bseq_spec x x); congruence.
Qed.
Lemma keep_add xs x o : In x xs -> unnamed xs (o ++ [Some (New (VStr x))]) = unnamed xs o.
Proof.
  intros Hx. unfold unnamed. rewrite filter_app. cbn. replace (existsb (bseq x) xs) with true; [apply app_nil_r|]. symmetry. apply existsb_exists. exists x. split; [exact Hx|]. destruct (bseq_spec x x); congruence.
Qed.
Lemma stored_bind x k o : Forall (stored false) k -> Forall (stored false) o -> Forall (stored false) (bind_var x k o).
Proof.
  intros Hk. induction 1 as [|c o Hc Ho IH]; [constructor|]. destruct c as [[[|l| | | | | | | | |] q]|]; cbn [bind_var]; try (constructor; assumption).
  destruct (bseq l x); [|constructor; assumption]. constructor; [constructor; [exact I|exact Hk]|exact Ho].
Qed.

(** What a path leads to holds data only. *)
Lemma to_path E C g F root : (forall x, given x -> to_json C x <> Panic) -> given g ->
  forall e, path_expr e -> formed e -> part_of e root -> forall f, (f <= F)%nat -> to g (fault_in E C F g root) eres_given (evalExpression E C f true (Some e) g).
Proof.
  intros Hj Hg e Hpe. induction Hpe as [o _|e o Hpe IH]; intros He Hp f Hf; (destruct f as [|f]; [exact I|]).
  - change (evalExpression E C (S f) true (Some (Node (VStr (bs "!p")) o)) g) with (evalPath E C (evalExpression E C f) true (Node (VStr (bs "!p")) o) g).
    apply (to_evalPath_kept E C Hj g Hg (fault_in E C F g root) (evalExpression E C f) (fun p => part_of p root /\ formed p)) with (simpl := true).
    + intros p n c (Hr & _) Hn Hin Hc. split; [|exact Hc]. eapply part_trans; [|exact Hr]. destruct p as [v o']. eapply part_kid; [exact Hn|]. destruct n as [v' o2]. eapply part_kid; [exact Hin|constructor].
    + intros p (_ & Hc). exact Hc.
    + intros b e' (Hr & Hc). apply to_evalExpression; try assumption. lia.
    + split; [exact Hp|exact He].
    + cbn [out]. inversion He as [|k Hk H0|s k Hns]; subst; [|exfalso; apply Hns; cbn; tauto]. intros c Hc. apply in_map_iff in Hc. destruct Hc as (z & <- & Hz). exists z. split; [reflexivity|]. exact (proj1 (Forall_forall _ _) Hk _ Hz).
  - cbn [evalExpression]. unfold eval_body. cbn [this ThisString vstring sstring rbind]. change (isNumber (bs "!e")) with false. change (bseq (bs "!e") (bs "!")) with false. change (bseq (bs "!e") TypeExpression) with true. cbv iota.
    change (match bs "!e" with [] => Ok (g, EVal (VStr [])) | _ :: _ => let* e0 := GetAt (Some (Node (VStr (bs "!e")) (Some e :: o))) 0 in evalExpression E C f true e0 g end)
      with (let* e0 := GetAt (Some (Node (VStr (bs "!e")) (Some e :: o))) 0 in evalExpression E C f true e0 g).
    rewrite GetAt_first. cbn [rbind]. apply IH; [| |lia].
    + inversion He as [|k Hk H0|s k Hns Hk _ _ H0]; subst. destruct k as [|y k]; [discriminate|]. cbn [map] in *. match goal with H : Some _ :: _ = _ |- _ => injection H as -> _ end. inversion Hk; assumption.
    + eapply part_trans; [|exact Hp]. eapply part_kid; [left; reflexivity|constructor].
Qed.

(** ** Processing *)
Section Loops.
Variables (E : env) (C : calls) (f : nat) (g root : graph) (xs : list bytes).
Hypothesis Hj : forall x, stored false (Some x) -> to_json C x <> Panic.
Let W := exists c, apart_from xs g c /\ stored false (Some c) /\ (fault_in E C f c root \/ unshown_in E C f c root).
(** The context changes in the variables of the loops only. *)
Definition near (c : graph) : Prop := apart_from xs g c /\ stored false (Some c).
Definition stays {A} (get : A -> graph) (m : res A) : Prop := match m with Ok x => near (get x) | Panic => W | NoFuel => True end.

Lemma stays_Eval c e : near c -> part_of e root -> formed e -> ~ blank_leaf e -> to c W eres_mild (Eval E C f c (Some e)).
Proof.
  intros (Ha & Hs) Hp He Hb. pose proof (to_Eval_part E C f c e He Hb Hs Hj) as K. destruct (Eval E C f c (Some e)) as [[c' r]| |]; [exact K| |exact I].
  exists c. split; [exact Ha|]. split; [exact Hs|]. left. destruct K as (op & n1 & n2 & o & v1 & v2 & K & K'). exists op, n1, n2, o, v1, v2. split; [eapply part_trans; [exact K|exact Hp]|exact K'].
Qed.
Lemma stays_path c e : near c -> part_of e root -> formed e -> path_expr e -> to c W eres_given (Eval E C f c (Some e)).
Proof.
  intros (Ha & Hs) Hp He Hpe. pose proof (to_path E C c f root ltac:(intros x Hx; apply Hj, given_stored, Hx) (stored_given _ Hs) e Hpe He Hp f (le_n f)) as K.
  assert (Hev : Eval E C f c (Some e) = evalExpression E C f true (Some e) c) by (unfold Eval, Eval_with; destruct Hpe; reflexivity). rewrite Hev.
  destruct (evalExpression E C f true (Some e) c) as [[c' r]| |]; [exact K| |exact I]. exists c. auto.
Qed.
Lemma near_delete c x : near c -> In x xs -> exists c', Delete E (Some c) (VStr x) = Ok (Some c') /\ near c'.
Proof.
  intros ((Ht & Ho) & Hs) Hx. destruct c as [v o]. inversion Hs as [|? ? Hv Hk]; subst. rewrite (Delete_tkeep 0%nat E x v o Hk). eexists. split; [reflexivity|].
  split; [split; [exact Ht|cbn [out] in *; rewrite keep_sub by exact Hx; exact Ho]|]. constructor; [exact Hv|apply stored_tkeep, Hk].
Qed.
Lemma near_add c x : near c -> In x xs -> near (Node (this c) (out c ++ [Some (New (VStr x))])).
Proof.
  intros ((Ht & Ho) & Hs) Hx. destruct c as [v o]. inversion Hs as [|? ? Hv Hk]; subst. split; [split; [exact Ht|cbn [out] in *; rewrite keep_add by exact Hx; exact Ho]|].
  constructor; [exact Hv|]. apply Forall_app. split; [exact Hk|]. constructor; [|constructor]. constructor; [exact I|constructor].
Qed.
Lemma near_bind c x k : near c -> In x xs -> Forall (stored false) k -> near (Node (this c) (bind_var x k (out c))).
Proof.
  intros ((Ht & Ho) & Hs) Hx Hk'. destruct c as [v o]. inversion Hs as [|? ? Hv Hk]; subst. split; [split; [exact Ht|cbn [out] in *; rewrite keep_bind by exact Hx; exact Ho]|].
  constructor; [exact Hv|]. apply stored_bind; assumption.
Qed.

Section With.
Variable rec : option graph -> graph -> res pres_.
Hypothesis Hrec : forall c b, near c -> sheet xs b -> part_of b root -> stays (fun x => fst (fst (fst x))) (rec (Some b) c).

Lemma stays_for x body : In x xs -> sheet xs body -> part_of body root -> forall l, Forall (fun e => exists y, e = Some y /\ given y) l -> forall live c, near c ->
  stays (fun x => fst (fst x)) (for_loop rec x (Some body) live l c).
Proof.
  intros Hx Hb Hp. induction 1 as [|e l (y & -> & Hy) _ IH]; intros live c Hc; [exact Hc|]. cbn [for_loop].
  set (c1 := if live then _ else c). assert (H1 : near c1).
  { unfold c1. destruct live; [|exact Hc]. apply near_bind; [exact Hc|exact Hx|]. cbn [add_out]. constructor; [apply given_stored, Hy|constructor]. }
  pose proof (Hrec c1 body H1 Hb Hp) as K. destruct (rec (Some body) c1) as [[[[c2 o] d] brk]| |]; [|exact K|exact I]. cbn [rbind]. cbn in K. destruct brk; [exact K|].
  pose proof (IH (live && negb (existsb (bseq x) d))%bool c2 K) as J. destruct (for_loop rec x (Some body) _ l c2) as [[[c3 o'] d']| |]; exact J.
Qed.
Lemma stays_nodes l : Forall (entry xs) l -> (forall x, In x l -> part_of x root) -> forall yes c, near c -> stays (fun x => fst (fst (fst x))) (process_nodes E C f rec (map Some l) yes c).
Proof.
  intros Hl Hp. induction Hl as [|n l Hn _ IH]; intros yes c Hc; [exact Hc|].
  assert (Hpn : part_of n root) by (apply Hp; left; reflexivity). specialize (IH (fun x Hx => Hp x (or_intror Hx))).
  assert (Go : forall y (x : res (graph * bytes * list bytes)), stays (fun x => fst (fst x)) x ->
    stays (fun x => fst (fst (fst x))) (let* (c, o, d) := x in let* (c, o', d', brk) := process_nodes E C f rec (map Some l) y c in Ok (c, o ++ o', d ++ d', brk))).
  { intros y [[[c1 o] d]| |] Hx; [|exact Hx|exact I]. cbn [stays fst] in Hx. specialize (IH y c1 Hx). cbn [rbind].
    destruct (process_nodes E C f rec (map Some l) y c1) as [[[[c2 o'] d'] brk]| |]; exact IH. }
  destruct Hn as [s o Hs|s o Hs He|s v e o body o' Hs He Hb Hbody|body o Hbody|x v w w' q e o body o' Hx He Hpe Hbody]; cbn [map process_nodes ThisString this vstring sstring rbind].
  - assert (K : forall t, In t [bs "!p"; bs "!e"; bs "!if"; bs "!elseif"; bs "!else"; bs "!for"] -> bseq s t = false).
    { intros t Ht. destruct (bseq_spec s t) as [->|_]; [contradiction|reflexivity]. }
    rewrite (K TypePath), (K TypeExpression), (K TypeIf), (K TypeElseIf), (K TypeElse), (K TypeFor) by (cbn; tauto). cbn [andb orb].
    destruct (bseq s TypeBreak); [exact Hc|]. exact (Go yes (Ok (c, s, [])) Hc).
  - assert (Hb : ~ blank_leaf (Node (VStr s) o)) by (destruct Hs as [<-|[<-|[]]]; destruct o; cbn; intros K; try exact K; destruct K as (_ & K); discriminate K).
    pose proof (stays_Eval c _ Hc Hpn He Hb) as K. destruct Hs as [<-|[<-|[]]].
    + change (bseq (bs "!p") TypePath) with true. cbv iota. apply Go.
      destruct (Eval E C f c (Some (Node (VStr (bs "!p")) o))) as [[c' r]| |] eqn:Hev; [|exact K|exact I]. destruct K as (-> & Hr). cbn [rbind].
      assert (Kt : stays fst (let* t := text_of E match r with EVal v => v | EErr _ => VNil end in Ok (c, t))).
      { destruct (text_of E _) as [t| |] eqn:Ht; [exact Hc| |exact I]. cbn. exists c. split; [apply Hc|]. split; [apply Hc|]. right. destruct r as [v|]; [|discriminate].
        destruct v as [| | | | | | |[x|]| | |]; try discriminate. exists o, x. auto. }
      destruct (text_of E _); exact Kt.
    + change (bseq (bs "!e") TypePath) with false. change (bseq (bs "!e") TypeExpression) with true. cbv iota. apply Go.
      destruct (Eval E C f c (Some (Node (VStr (bs "!e")) o))) as [[c' r]| |]; [destruct K as (-> & _); exact Hc|exact K|exact I].
  - assert (Hif : forall y, stays (fun x => fst (fst (fst x))) (let* (c, o, d, yes) := do_if E C f rec (Node (VStr s) (Some (Node v (Some e :: o)) :: Some body :: o')) c in
       let* (c, o', d', brk) := process_nodes E C f rec (map Some l) (if y : bool then yes else yes) c in Ok (c, o ++ o', d ++ d', brk))).
    { intros y. unfold do_if. rewrite !GetAt_first. cbn [rbind]. rewrite GetAt_first. cbn [rbind].
      assert (Ke : to c W (fun _ => True) (evalBool E C f c (Some e))).
      { pose proof (stays_Eval c e Hc) as K. unfold evalBool, evalBool_with. unfold Eval in K.
        destruct (Eval_with E (evalExpression E C f) (Some e) c) as [[c' r]| |]; cbn [rbind to] in *; (assert (Kp : part_of e root) by
          (eapply part_trans; [|exact Hpn]; eapply part_kid; [left; reflexivity|]; eapply part_kid; [left; reflexivity|constructor])); specialize (K Kp He Hb); [split; [apply K|exact I]|exact K|exact I]. }
      destruct (evalBool E C f c (Some e)) as [[c' [|]]| |]; [| |exact Ke|exact I]; destruct Ke as (-> & _); cbn [rbind].
      - rewrite GetAt_second. cbn [rbind]. assert (Kr := Hrec c body Hc Hbody ltac:(eapply part_trans; [|exact Hpn]; eapply part_kid; [right; left; reflexivity|constructor])).
        destruct (rec (Some body) c) as [[[[c1 o1] d] brk]| |]; [|exact Kr|exact I]. cbn in Kr. cbn [rbind]. specialize (IH true c1 Kr).
        destruct y; destruct (process_nodes E C f rec (map Some l) true c1) as [[[[c2 o2] d'] brk']| |]; exact IH.
      - specialize (IH false c Hc). destruct y; destruct (process_nodes E C f rec (map Some l) false c) as [[[[c2 o2] d'] brk']| |]; exact IH. }
    specialize (Hif true). destruct Hs as [<-|[<-|[]]].
    + change (bseq (bs "!if") TypePath) with false. change (bseq (bs "!if") TypeExpression) with false. change (bseq (bs "!if") TypeIf) with true. cbv iota. cbn [orb rbind] in *. exact Hif.
    + change (bseq (bs "!elseif") TypePath) with false. change (bseq (bs "!elseif") TypeExpression) with false. change (bseq (bs "!elseif") TypeIf) with false.
      change (bseq (bs "!elseif") TypeElseIf) with true. cbn [orb andb]. destruct yes; cbn [negb]; [exact (Go true (Ok (c, [], [])) Hc)|exact Hif].
  - change (bseq (bs "!else") TypePath) with false. change (bseq (bs "!else") TypeExpression) with false. change (bseq (bs "!else") TypeIf) with false.
    change (bseq (bs "!else") TypeElseIf) with false. change (bseq (bs "!else") TypeElse) with true. cbn [orb andb]. apply Go. destruct yes; [exact Hc|].
    rewrite GetAt_first. cbn [rbind]. assert (Kr := Hrec c body Hc Hbody ltac:(eapply part_trans; [|exact Hpn]; eapply part_kid; [left; reflexivity|constructor])).
    destruct (rec (Some body) c) as [[[[c1 o1] d] brk]| |]; exact Kr.
  - change (bseq (bs "!for") TypePath) with false. change (bseq (bs "!for") TypeExpression) with false. change (bseq (bs "!for") TypeIf) with false.
    change (bseq (bs "!for") TypeElseIf) with false. change (bseq (bs "!for") TypeElse) with false. change (bseq (bs "!for") TypeFor) with true. cbn [orb andb]. apply Go.
    unfold do_for. rewrite GetAt_first. cbn [rbind]. rewrite GetAt_second. cbn [rbind].
    assert (Kp : part_of e root) by (eapply part_trans; [|exact Hpn]; eapply part_kid; [left; reflexivity|]; eapply part_kid; [right; left; reflexivity|constructor]).
    pose proof (stays_path c e Hc Kp He Hpe) as K. destruct (Eval E C f c (Some e)) as [[c' r]| |]; [|exact K|exact I]. destruct K as (-> & Hr). cbn [rbind].
    destruct r as [u|]; [|exact Hc]. destruct u as [| | | | | | |[gi|]| | |]; try exact Hc. cbn [eres_given] in Hr. destruct (out gi) as [|z o1] eqn:Ho; [exact Hc|].
    assert (Hs : exists s, ThisString E (Some gi) = Ok s) by (destruct Hr as [u k Hu _]; cbn; destruct u; try contradiction; eexists; reflexivity). destruct Hs as (s & ->). cbn [rbind].
    assert (Hl : exists es, (if bseq s (bs "[") then match z with Some g0 => Ok (out g0) | None => Panic end else Ok (z :: o1)) = Ok es /\ Forall (fun e => exists y, e = Some y /\ given y) es).
    { destruct (given_kids gi z Hr) as (y & -> & Hy); [rewrite Ho; left; reflexivity|]. destruct (bseq s _).
      - exists (out y). split; [reflexivity|]. apply Forall_forall. intros k Hk. exact (given_kids _ _ Hy Hk).
      - eexists. split; [reflexivity|]. rewrite <- Ho. apply Forall_forall. intros k Hk. exact (given_kids _ _ Hr Hk). }
    destruct Hl as (es & -> & Hes). cbn [rbind]. rewrite !GetAt_first. cbn [rbind]. rewrite GetAt_first. cbn [rbind String_].
    assert (Hg : gstring E (Node w' [Some (Node (VStr x) [])]) = Ok x) by reflexivity. rewrite Hg. cbn [rbind].
    destruct (near_delete c x Hc Hx) as (c1 & -> & H1). cbn [rbind]. rewrite GetAt_second. cbn [rbind].
    assert (Kb : part_of body root) by (eapply part_trans; [|exact Hpn]; eapply part_kid; [right; left; reflexivity|constructor]).
    pose proof (stays_for x body Hx Hbody Kb es Hes true _ (near_add c1 x H1 Hx)) as J. destruct (for_loop rec x (Some body) true es _) as [[[c2 o2] d2]| |]; exact J.
Qed.
End With.
Lemma stays_process : forall d c t, near c -> sheet xs t -> part_of t root -> stays (fun x => fst (fst (fst x))) (process E C f d (Some t) c).
Proof.
  induction d as [|d IH]; intros c t Hc Ht Hp; [exact I|]. cbn [process]. destruct Ht as [v k Hk]. cbn [out]. apply stays_nodes; [exact IH|exact Hk| |exact Hc].
  intros x Hx. eapply part_trans; [|exact Hp]. eapply part_kid; [apply in_map, Hx|constructor].
Qed.
End Loops.

(** ** C86 with loops: if processing panics, then in the context, apart from the variables of the loops, the operands of an operator
    are to blame, or the text of what a path leads to cannot be shown.  The loops are over paths. *)
Theorem C86_loops_partial : forall E C f g t xs, sheet xs t -> stored false (Some g) -> (forall x, stored false (Some x) -> to_json C x <> Panic) ->
  Process E C f (Some t) g = Panic -> exists c, apart_from xs g c /\ stored false (Some c) /\ (fault_in E C f c t \/ unshown_in E C f c t).
Proof.
  intros E C f g t xs Ht Hg Hj HP. assert (Hn : near g xs g) by (split; [split; reflexivity|exact Hg]).
  pose proof (stays_process E C f g t xs Hj f g t Hn Ht (part_refl t)) as K. unfold Process in HP.
  destruct (process E C f f (Some t) g) as [[[[c o] d] brk]| |]; [discriminate|exact K|discriminate].
Qed.
Print Assumptions C86_loops_partial.
(** And if it does not panic, the context is the same afterwards, apart from these variables. *)
Theorem C86_loops_context : forall E C f g t xs c o, sheet xs t -> stored false (Some g) -> (forall x, stored false (Some x) -> to_json C x <> Panic) ->
  Process E C f (Some t) g = Ok (c, o) -> apart_from xs g c /\ stored false (Some c).
Proof.
  intros E C f g t xs c o Ht Hg Hj HP. assert (Hn : near g xs g) by (split; [split; reflexivity|exact Hg]).
  pose proof (stays_process E C f g t xs Hj f g t Hn Ht (part_refl t)) as K. unfold Process in HP.
  destruct (process E C f f (Some t) g) as [[[[c' o'] d] brk]| |]; try discriminate. injection HP as <- <-. exact K.
Qed.
Print Assumptions C86_loops_context.

(** ** Texts.  The templates of C45-C48 with expressions that do not assign, and loops over paths *)
Definition mere (e : expr) : Prop := no_group (lead e) /\ Forall (fun s => reads (oper s) /\ no_group (rand s)) (steps e).
Definition over_path (e : expr) : Prop := steps e = [] /\ elsewhere e /\ exists es, lead e = OPath es /\ forall q es', es <> Quote q (bs "_this") :: es'.
Fixpoint modest (t : tmpl) : Prop :=
  match t with
  | TEnd => True
  | TText _ t | TDollar t | TBreak t => modest t
  | TVar es t | TBraces es t => no_group (OPath es) /\ modest t
  | TExpr e t => mere e /\ modest t
  | TIf e b r t => mere e /\ modest b /\ modest_tail r /\ modest t
  | TFor _ e b t => mere e /\ over_path e /\ modest b /\ modest t
  end
with modest_tail (r : tail) : Prop :=
  match r with
  | Fi => True
  | Else b => modest b
  | ElseIf e b r => mere e /\ modest b /\ modest_tail r
  end.

Lemma path_formed E es : Forall (elem_ok E) es -> no_group (OPath es) -> formed (gtree (T (bs "!p") (map elem_tree es))).
Proof.
  intros He Hg. cbn [gtree]. rewrite <- (map_map gtree Some). apply formed_path. apply Forall_forall. intros x Hx. apply in_map_iff in Hx. destruct Hx as (t & <- & Ht).
  apply in_map_iff in Ht. destruct Ht as (el & <- & Hel). apply (elem_element E); [exact (proj1 (Forall_forall _ _) He _ Hel)|]. intros q ->. exact (Hg q Hel).
Qed.
Lemma texpr_formed E e : expr_ok E e -> mere e -> formed (gtree (texpr e)).
Proof.
  intros (Hl & Hs & Hf & Ho & _) (Hg & Hm).
  assert (K : formed (gtree (etree_tree (etr e))) /\ ~ blank_leaf (gtree (etree_tree (etr e)))).
  { apply (etree_formed E); [rewrite Hf; exact Hl|rewrite Hf; exact Hg|]. rewrite Ho. apply Forall_forall. intros x Hx. apply in_map_iff in Hx. destruct Hx as (y & <- & Hy).
    destruct (proj1 (Forall_forall _ _) Hm _ Hy) as (K2 & K3). destruct (proj1 (Forall_forall _ _) Hs _ Hy) as (_ & _ & K1 & _). cbn. auto. }
  destruct K as (K1 & K2). apply (formed_node (bs "!e") [gtree (etree_tree (etr e))]); [cbn; intros [K|[K|[]]]; discriminate|repeat constructor; assumption|intros _; split; [discriminate|repeat constructor; assumption]|].
  intros (_ & K). discriminate K.
Qed.
Lemma texpr_path e E : expr_ok E e -> over_path e -> path_expr (gtree (texpr e)).
Proof.
  intros (_ & _ & Hf & Ho & _) (Hs & Hel & es' & Hl & Hq). rewrite Hs in Ho. unfold texpr. destruct (etr e) as [a|op l r]; cbn [first others] in *; [|exfalso; destruct (others l); discriminate Ho].
  subst a. rewrite Hl in *. cbn [gtree map etree_tree operand_tree]. apply pe_expr, pe_path. intros k o. unfold elsewhere in Hel. rewrite Hl in Hel. destruct es' as [|[s|q s|d] es']; cbn [map elem_tree gtree]; intros K; try discriminate K; injection K; intros; subst.
  - congruence.
  - apply (Hq q es'). congruence.
Qed.
Lemma modest_sheet E : (forall t xs, wf E t -> modest t -> incl (loop_vars t) xs -> Forall (entry xs) (map gtree (nodes t))) /\
  (forall r xs, wf_tail E r -> modest_tail r -> incl (tail_vars r) xs -> Forall (entry xs) (map gtree (tail_nodes r))).
Proof.
  assert (Sh : forall xs l, Forall (entry xs) (map gtree l) -> sheet xs (gtree (T (bs "!t") l))) by (intros xs l H; cbn [gtree]; rewrite <- (map_map gtree Some); apply sheet_node, H).
  assert (In2 : forall {A} (l1 l2 xs : list A), incl (l1 ++ l2) xs -> incl l1 xs /\ incl l2 xs) by (intros A l1 l2 xs H; split; intros x Hx; apply H, in_or_app; auto).
  assert (If : forall xs s e b, In s [bs "!if"; bs "!elseif"] -> expr_ok E e -> mere e -> sheet xs (gtree (T (bs "!t") b)) -> entry xs (gtree (T s [T (bs "!a") [texpr e]; T (bs "!t") b]))).
  { intros xs s e b Hs He Hm Hb. change (gtree (T s [T (bs "!a") [texpr e]; T (bs "!t") b])) with (Node (VStr s) [Some (Node (VStr (bs "!a")) [Some (gtree (texpr e))]); Some (gtree (T (bs "!t") b))]).
    apply entry_if; [exact Hs|apply (texpr_formed E); assumption|intros K; exact K|exact Hb]. }
  assert (Pa : forall xs es, Forall (elem_ok E) es -> no_group (OPath es) -> entry xs (gtree (T (bs "!p") (map elem_tree es)))).
  { intros xs es He Hg. pose proof (path_formed E es He Hg) as K. cbn [gtree] in *. apply entry_expr; [cbn; tauto|exact K]. }
  assert (Tx : forall xs s, ~ In s [bs "!p"; bs "!e"; bs "!if"; bs "!elseif"; bs "!else"; bs "!for"] -> entry xs (gtree (T s []))) by (intros xs s H; apply entry_text, H).
  apply tmpl_tail_ind.
  - constructor.
  - intros s t IH xs ((_ & _ & Hs) & _ & Hw) Hm Hi. cbn [nodes map]. constructor; [|apply IH; assumption]. apply Tx. intros K. apply Hs. cbn in K |- *. tauto.
  - intros t IH xs Hw Hm Hi. cbn [nodes map]. constructor; [|apply IH; assumption]. apply Tx. cbn. intros K. repeat (destruct K as [K|K]; [discriminate|]). exact K.
  - intros es t IH xs ((He & _) & _ & Hw) (Hg & Hm) Hi. cbn [nodes map]. constructor; [apply Pa; assumption|apply IH; assumption].
  - intros es t IH xs ((He & _) & Hw) (Hg & Hm) Hi. cbn [nodes map]. constructor; [apply Pa; assumption|apply IH; assumption].
  - intros e t IH xs (He & Hw) (Hg & Hm) Hi. cbn [nodes map]. constructor; [|apply IH; assumption]. pose proof (texpr_formed E e He Hg) as K. apply entry_expr; [cbn; tauto|exact K].
  - intros e b IHb r IHr t IH xs (He & _ & Hb & Hr & _ & Hw) (Hg & Hmb & Hmr & Hm) Hi. cbn [loop_vars] in Hi. apply In2 in Hi. destruct Hi as (Hi1 & Hi). apply In2 in Hi. destruct Hi as (Hi2 & Hi3).
    cbn [nodes map]. constructor; [apply If; [cbn; tauto|exact He|exact Hg|apply Sh, IHb; assumption]|]. rewrite map_app. apply Forall_app. split; [apply IHr|apply IH]; assumption.
  - intros x e b IHb t IH xs (Hv & He & _ & Hb & _ & Hw) (Hg & Hop & Hmb & Hm) Hi. cbn [loop_vars] in Hi.
    assert (Hx : In x xs) by (apply Hi; left; reflexivity). assert (Hi' : incl (loop_vars b ++ loop_vars t) xs) by (intros y Hy; apply Hi; right; exact Hy). apply In2 in Hi'. destruct Hi' as (Hi1 & Hi2).
    cbn [nodes map]. constructor; [|apply IH; assumption].
    change (gtree (T (bs "!for") [T (bs "!a") [texpr (var_expr x); texpr e]; T (bs "!t") (nodes b)])) with
      (Node (VStr (bs "!for")) [Some (Node (VStr (bs "!a")) [Some (Node (VStr (bs "!e")) [Some (Node (VStr (bs "!p")) [Some (Node (VStr x) [])])]); Some (gtree (texpr e))]); Some (gtree (T (bs "!t") (nodes b)))]).
    apply entry_for; [exact Hx|apply (texpr_formed E); assumption|apply (texpr_path e E); assumption|apply Sh, IHb; assumption].
  - intros t IH xs (_ & Hw) Hm Hi. cbn [nodes map]. constructor; [|apply IH; assumption]. apply Tx. cbn. intros K. repeat (destruct K as [K|K]; [discriminate|]). exact K.
  - constructor.
  - intros b IHb xs (_ & Hb) Hm Hi. cbn [tail_nodes map]. constructor; [|constructor].
    change (gtree (T (bs "!else") [T (bs "!t") (nodes b)])) with (Node (VStr (bs "!else")) [Some (gtree (T (bs "!t") (nodes b)))]). apply entry_else, Sh, IHb; assumption.
  - intros e b IHb r IHr xs (He & _ & Hb & Hr) (Hg & Hmb & Hmr) Hi. cbn [tail_vars] in Hi. apply In2 in Hi. destruct Hi as (Hi1 & Hi2).
    cbn [tail_nodes map]. constructor; [apply If; [cbn; tauto|exact He|exact Hg|apply Sh, IHb; assumption]|apply IHr; assumption].
Qed.
Lemma NewTemplate_sheet E f t : wf E t -> fits_t f t -> modest t -> exists n, NewTemplate E f (source t) = Ok n /\ sheet (loop_vars t) n.
Proof.
  intros Hw ([Hl|(Hl & _)] & Hf) Hm; eexists.
  - split; [apply NewTemplate_spec; assumption|]. unfold gforest. rewrite <- (map_map gtree Some). apply sheet_node. apply (modest_sheet E); [exact Hw|exact Hm|apply incl_refl].
  - split; [apply NewTemplate_long; assumption|]. unfold gforest. rewrite <- (map_map gtree Some). apply sheet_node. apply (modest_sheet E); [exact Hw|exact Hm|apply incl_refl].
Qed.
(** So, for these texts: the text is read, and if processing it panics, that is why. *)
Theorem C86_loops_text_partial : forall E C f f' g t, wf E t -> fits_t f' t -> modest t -> stored false (Some g) -> (forall x, stored false (Some x) -> to_json C x <> Panic) ->
  exists n, NewTemplate E f' (source t) = Ok n /\
  (Process E C f (Some n) g = Panic -> exists c, apart_from (loop_vars t) g c /\ stored false (Some c) /\ (fault_in E C f c n \/ unshown_in E C f c n)).
Proof.
  intros E C f f' g t Hw Hf Hm Hg Hj. destruct (NewTemplate_sheet E f' t Hw Hf Hm) as (n & Hn & Hs). exists n. split; [exact Hn|]. apply C86_loops_partial; assumption.
Qed.
Print Assumptions C86_loops_text_partial.
(** A loop in which the remainder by its variable is taken; the variable is not in the context at first, and where it is bound to a text that is
    not a number, it counts as 0. *)
Definition ex_rem : expr := mkE (ONum (bs "1")) [mkStep [] Mod [] (OPath [Name (bs "v")])] (Bin Mod (Leaf (ONum (bs "1"))) (Leaf (OPath [Name (bs "v")]))).
Definition ex_looped : tmpl := TFor (bs "v") (ex_var (bs "l")) (TExpr ex_rem TEnd) TEnd.
Example C86_loops_ex : source ex_looped = bs "$for(v,l)$(1%v)$end" /\ wf env0 ex_looped /\ fits_t 60 ex_looped /\ modest ex_looped /\ stored false (Some ex_tctx) /\
  exists n, NewTemplate env0 60 (source ex_looped) = Ok n /\ Process env0 calls0 60 (Some n) ex_tctx = Panic /\ fault_in env0 calls0 60 (ex_with [nd "x" []]) n.
Proof.
  assert (Hx : expr_ok env0 ex_rem).
  { unfold expr_ok, ex_rem. cbn [lead steps etr]. split; [exists [], (bs "1"), []; split; [reflexivity|]; split; [left; reflexivity|]; split; [split; [discriminate|repeat constructor; discriminate]|left; reflexivity]|].
    split; [constructor; [|constructor]; split; [constructor|]; split; [constructor|]; split; [split; [repeat constructor; apply ex_v_ok|apply ex_v_ok]|cbn; discriminate]|].
    split; [reflexivity|]. split; [reflexivity|]. cbn. lia. }
  assert (Hw : wf env0 ex_looped).
  { split; [apply ex_v_ok|]. split; [apply (var_expr_ok env0 (bs "l")), ex_v_ok|]. split; [exact I|]. split; [split; [exact Hx|exact I]|split; exact I]. }
  assert (Hf : fits_t 60 ex_looped) by (split; [left|]; cbn; lia).
  assert (Hng : forall x q, ~ In (Quote q (bs "!g")) [Name x]) by (intros x q [K|[]]; discriminate).
  assert (Hm : modest ex_looped).
  { split; [split; [exact (Hng (bs "l"))|constructor]|]. split; [split; [reflexivity|]; split; [discriminate|]; eexists; split; [reflexivity|discriminate]|]. split; [|exact I].
    split; [|exact I]. split; [exact I|]. constructor; [|constructor]. split; [|exact (Hng (bs "v"))]. intros K. repeat (destruct K as [K|K]; [discriminate|]). exact K. }
  split; [reflexivity|]. split; [exact Hw|]. split; [exact Hf|]. split; [exact Hm|]. split; [repeat constructor|].
  eexists. split; [apply NewTemplate_spec; [exact Hw|cbn; lia|apply Hf]|]. split; [vm_compute; reflexivity|].
  exists (bs "%"). eexists. eexists. exists []. exists (VInt KInt64 1), (VStr (bs "x")).
  split; [|split; [|split; [|eapply fault_rem; [exact I|intros (_ & K); exact K|eapply div_none; reflexivity|reflexivity]]]].
  - eapply part_kid; [left; reflexivity|]. eapply part_kid; [right; left; reflexivity|]. eapply part_kid; [left; reflexivity|]. eapply part_kid; [left; reflexivity|]. apply part_refl.
  - vm_compute. reflexivity.
  - vm_compute. reflexivity.
Qed.
