(** Processing a template: the nested nodes against the template's structure. *)
From Verif Require Import Base Value Event EventSpec EventFacts Lexer TextParser Stream Buffer Wp TextTerm TextSpec TextDoc Graph GraphSpec GraphFacts Emit PathParser PathTerm PathSpec PathFacts TypesSpec TypesFacts Eval AccessSpec AccessFacts EvalSpec EvalFacts Template TemplateSpec TemplateFacts.

Section Proc.
Variable E : env.
Variable C : calls.
Variable f : nat.
Local Notation pres := (graph * bytes * list bytes * bool)%type.
Local Notation pres3 := (graph * bytes * list bytes)%type.

Definition after (m : res pres3) (k : graph -> res pres) : res pres :=
  let* (c, o, d) := m in let* (c, o', d', brk) := k c in Ok (c, o ++ o', d ++ d', brk).
Definition whole_of (m : res pres) : res pres3 := let* (c, o, d, _) := m in Ok (c, o, d).

(** The loop, given what its body does *)
Definition sem_for (x : bytes) (e : expr) (body : graph -> res pres) (c : graph) : res pres3 :=
  let* (c, r) := Eval E C f c (Some (gtree (texpr e))) in
  match r with
  | EVal (VPtr (Some gi)) =>
      match out gi with
      | [] => Ok (c, [], [])
      | first :: _ =>
          let* s := ThisString E (Some gi) in
          let* l := (if bseq s (bs "[") then match first with Some g => Ok (out g) | None => Panic end else Ok (out gi)) in
          let* c := Delete E (Some c) (VStr x) in
          match c with
          | None => Panic
          | Some c =>
              let* (c, o, d) := for_loop (fun _ => body) x None true l (Node (this c) (out c ++ [Some (New (VStr x))])) in
              Ok (c, o, x :: d)
          end
      end
  | _ => Ok (c, [], [])
  end.

Fixpoint sem (t : tmpl) (c : graph) : res pres :=
  match t with
  | TEnd => Ok (c, [], [], false)
  | TText s t => after (Ok (c, s, [])) (sem t)
  | TDollar t => after (Ok (c, bs "$", [])) (sem t)
  | TVar es t | TBraces es t =>
      after (let* (c, r) := Eval E C f c (Some (gtree (T (bs "!p") (map elem_tree es)))) in
             let* s := text_of E (match r with EVal v => v | EErr _ => VNil end) in Ok (c, s, [])) (sem t)
  | TExpr e t => after (let* (c, _) := Eval E C f c (Some (gtree (texpr e))) in Ok (c, [], [])) (sem t)
  | TIf e b r t =>
      after (let* (c, yes) := evalBool E C f c (Some (gtree (texpr e))) in
             if yes : bool then whole_of (sem b c) else sem_tail r c) (sem t)
  | TFor x e b t => after (sem_for x e (sem b) c) (sem t)
  | TBreak _ => Ok (c, [], [], true)
  end
with sem_tail (r : tail) (c : graph) : res pres3 :=
  match r with
  | Fi => Ok (c, [], [])
  | Else b => whole_of (sem b c)
  | ElseIf e b r =>
      let* (c, yes) := evalBool E C f c (Some (gtree (texpr e))) in
      if yes : bool then whole_of (sem b c) else sem_tail r c
  end.

Lemma sem_fi c : sem_tail Fi c = Ok (c, [], []).
Proof. reflexivity. Qed.
Lemma sem_else b c : sem_tail (Else b) c = whole_of (sem b c).
Proof. reflexivity. Qed.
Lemma sem_elseif e b r c : sem_tail (ElseIf e b r) c =
  let* (c, yes) := evalBool E C f c (Some (gtree (texpr e))) in if yes : bool then whole_of (sem b c) else sem_tail r c.
Proof. reflexivity. Qed.
Lemma sem_if e b r t c : sem (TIf e b r t) c = after (sem_tail (ElseIf e b r) c) (sem t).
Proof. reflexivity. Qed.

Lemma for_loop_ext rec rec' x b b' l : (forall c, rec b c = rec' b' c) -> forall live c, for_loop rec x b live l c = for_loop rec' x b' live l c.
Proof.
  intro H. induction l as [|e l IH]; intros live c; [reflexivity|]. cbn [for_loop]. rewrite H.
  destruct (rec' b' _) as [[[[c1 o] d] brk]| |]; try reflexivity. cbn [rbind]. destruct brk; [reflexivity|]. rewrite IH. reflexivity.
Qed.

Lemma do_for_sem rec x e b body c : (forall c, rec (Some (gtree (T (bs "!t") b))) c = body c) ->
  do_for E C f rec (gtree (T (bs "!for") [T (bs "!a") [texpr (var_expr x); texpr e]; T (bs "!t") b])) c = sem_for x e body c.
Proof.
  intro H. unfold do_for, sem_for. rewrite !gtree_node. cbn [map]. 
  change (GetAt (Some (Node _ _)) 0) with (Ok (Some (gtree (T (bs "!a") [texpr (var_expr x); texpr e])))) at 1. cbn [rbind].
  change (GetAt (Some (gtree (T (bs "!a") _))) 1) with (Ok (Some (gtree (texpr e)))). cbn [rbind].
  destruct (Eval E C f c (Some (gtree (texpr e)))) as [[c1 r]| |]; try reflexivity. cbn [rbind].
  destruct r as [v|]; [|reflexivity]. destruct v as [| | | | | | |[gi|]| | |]; try reflexivity. destruct (out gi) as [|fi lo] eqn:Eo; [reflexivity|].
  destruct (ThisString E (Some gi)) as [s| |]; try reflexivity. cbn [rbind].
  destruct (if bseq s (bs "[") then _ else _) as [l| |]; try reflexivity. cbn [rbind].
  change (GetAt (Some (gtree (T (bs "!a") _))) 0) with (Ok (Some (gtree (texpr (var_expr x))))). cbn [rbind].
  change (GetAt (Some (gtree (texpr (var_expr x)))) 0) with (Ok (Some (gtree (T (bs "!p") [T x []])))). cbn [rbind].
  change (String_ E (Some (gtree (T (bs "!p") [T x []])))) with (Ok x). cbn [rbind].
  destruct (Delete E (Some c1) (VStr x)) as [[c2|]| |]; try reflexivity. cbn [rbind].
  change (GetAt (Some (Node _ _)) 1) with (Ok (Some (gtree (T (bs "!t") b)))). cbn [rbind].
  rewrite (for_loop_ext rec (fun _ => body) x _ None l H). reflexivity.
Qed.

(** One node *)
Lemma pn_eq rec n l yes c : process_nodes E C f rec (Some n :: l) yes c =
      let go (yes : bool) (x : res pres3) : res pres := after x (process_nodes E C f rec l yes) in
      let* s := ThisString E (Some n) in
      if bseq s TypePath then
        go yes (let* (c, r) := Eval E C f c (Some n) in
                let* t := text_of E (match r with EVal v => v | EErr _ => VNil end) in Ok (c, t, []))
      else if bseq s TypeExpression then
        go yes (let* (c, _) := Eval E C f c (Some n) in Ok (c, [], []))
      else if bseq s TypeIf || (bseq s TypeElseIf && negb yes) then
        let* (c, o, d, yes) := do_if E C f rec n c in go yes (Ok (c, o, d))
      else if bseq s TypeElseIf then go yes (Ok (c, [], []))
      else if bseq s TypeElse then
        go yes (if yes then Ok (c, [], []) else
                let* t := GetAt (Some n) 0 in
                let* (c, o, d, _) := rec t c in Ok (c, o, d))
      else if bseq s TypeFor then go yes (do_for E C f rec n c)
      else if bseq s TypeBreak then Ok (c, [], [], true)
      else go yes (Ok (c, s, [])).
Proof. reflexivity. Qed.

Lemma pn_text rec s l yes c : ~ In s markers -> process_nodes E C f rec (Some (gtree (T s [])) :: l) yes c = after (Ok (c, s, [])) (process_nodes E C f rec l yes).
Proof.
  intro H. rewrite pn_eq. cbn zeta. change (ThisString E (Some (gtree (T s [])))) with (Ok s). cbn [rbind]. cbn [markers In] in H.
  unfold TypePath, TypeExpression, TypeIf, TypeElseIf, TypeElse, TypeFor, TypeBreak.
  repeat (match goal with |- context [bseq s ?x] => let K := fresh in destruct (bseq s x) eqn:K; [apply bseq_eq in K; subst; exfalso; tauto|clear K] end). reflexivity.
Qed.
Lemma after_ext m k k' : (forall c, k c = k' c) -> after m k = after m k'.
Proof. intro H. unfold after. destruct m as [[[c o] d]| |]; try reflexivity. cbn [rbind]. rewrite H. reflexivity. Qed.
Lemma after_nil c k : after (Ok (c, [], [])) k = k c.
Proof. unfold after. cbn [rbind]. destruct (k c) as [[[[c1 o] d] b]| |]; reflexivity. Qed.

Lemma do_if_eq rec k e b c : do_if E C f rec (gtree (T k [T (bs "!a") [texpr e]; T (bs "!t") b])) c =
  let* (c, yes) := evalBool E C f c (Some (gtree (texpr e))) in
  if yes : bool then let* (c, o, d, _) := rec (Some (gtree (T (bs "!t") b))) c in Ok (c, o, d, true) else Ok (c, [], [], false).
Proof. reflexivity. Qed.

(** A conditional node, when its condition is looked at *)
Lemma pn_cond rec k e b l yes c body r kk : k = TypeIf \/ (k = TypeElseIf /\ yes = false) -> (forall c, rec (Some (gtree (T (bs "!t") b))) c = body c) ->
  (forall c, process_nodes E C f rec l true c = kk c) -> (forall c, process_nodes E C f rec l false c = after (r c) kk) ->
  process_nodes E C f rec (Some (gtree (T k [T (bs "!a") [texpr e]; T (bs "!t") b])) :: l) yes c =
  after (let* (c, yes) := evalBool E C f c (Some (gtree (texpr e))) in if yes : bool then whole_of (body c) else r c) kk.
Proof.
  intros Hk Hb H1 H2. rewrite pn_eq. cbn zeta. change (ThisString E (Some (gtree (T k _)))) with (Ok k). cbn [rbind].
  assert (Hc : bseq k TypePath = false /\ bseq k TypeExpression = false /\ bseq k TypeIf || (bseq k TypeElseIf && negb yes) = true).
  { destruct Hk as [->|[-> ->]]; repeat split; reflexivity. }
  destruct Hc as (-> & -> & ->). rewrite do_if_eq. destruct (evalBool E C f c _) as [[c1 y]| |]; try reflexivity. cbn [rbind]. destruct y.
  - rewrite Hb. destruct (body c1) as [[[[c2 o] d] brk]| |]; try reflexivity. cbn [rbind whole_of]. apply after_ext. exact H1.
  - cbn [rbind]. rewrite after_nil. apply H2.
Qed.

Lemma process_body d b c : process E C f (S d) (Some (gtree (T (bs "!t") (nodes b)))) c = process_nodes E C f (process E C f d) (gforest (nodes b)) false c.
Proof. cbn [process]. rewrite gtree_node, gforest_map. reflexivity. Qed.

Lemma gforest_cons t l : gforest (t :: l) = Some (gtree t) :: gforest l.
Proof. reflexivity. Qed.
Lemma gforest_app l l' : gforest (l ++ l') = gforest l ++ gforest l'.
Proof. rewrite !gforest_map, !map_app. reflexivity. Qed.

Lemma depth_pos : (forall t, 1 <= depth t)%nat.
Proof. induction t; cbn [depth]; lia. Qed.

Lemma process_sem : (forall t, wf E t -> forall d yes c, (depth t <= S d)%nat -> process_nodes E C f (process E C f d) (gforest (nodes t)) yes c = sem t c) /\
  (forall r, wf_tail E r -> forall d l k, (tail_depth r <= S d)%nat -> (forall yes c, process_nodes E C f (process E C f d) l yes c = k c) ->
     (forall c, process_nodes E C f (process E C f d) (gforest (tail_nodes r) ++ l) true c = k c) /\
     (forall c, process_nodes E C f (process E C f d) (gforest (tail_nodes r) ++ l) false c = after (sem_tail r c) k)).
Proof.
  assert (Hbody : forall b d, (forall d yes c, (depth b <= S d)%nat -> process_nodes E C f (process E C f d) (gforest (nodes b)) yes c = sem b c) ->
    (S (depth b) <= S d)%nat -> forall c, process E C f d (Some (gtree (T (bs "!t") (nodes b)))) c = sem b c).
  { intros b d IH Hd c. pose proof (depth_pos b). destruct d as [|d]; [lia|]. rewrite process_body. apply IH. lia. }
  apply tmpl_tail_ind; cbn [wf wf_tail nodes tail_nodes sem sem_tail depth tail_depth].
  - reflexivity.
  - intros s t IH ((_ & _ & H) & _ & Ht) d yes c Hd. rewrite gforest_cons, pn_text by exact H. apply after_ext. intro. apply IH; auto.
  - intros t IH Ht d yes c Hd. rewrite gforest_cons, pn_text by (cbn; intuition discriminate). apply after_ext. intro. apply IH; auto.
  - intros es t IH (_ & _ & Ht) d yes c Hd. rewrite gforest_cons, pn_eq. cbn zeta. change (ThisString E (Some (gtree (T (bs "!p") _)))) with (Ok (bs "!p")). cbn [rbind].
    change (bseq (bs "!p") TypePath) with true. cbn iota. apply after_ext. intro. apply IH; auto.
  - intros es t IH (_ & Ht) d yes c Hd. rewrite gforest_cons, pn_eq. cbn zeta. change (ThisString E (Some (gtree (T (bs "!p") _)))) with (Ok (bs "!p")). cbn [rbind].
    change (bseq (bs "!p") TypePath) with true. cbn iota. apply after_ext. intro. apply IH; auto.
  - intros e t IH (_ & Ht) d yes c Hd. rewrite gforest_cons, pn_eq. cbn zeta. change (ThisString E (Some (gtree (texpr e)))) with (Ok (bs "!e")). cbn [rbind].
    change (bseq (bs "!e") TypePath) with false. change (bseq (bs "!e") TypeExpression) with true. cbn iota. apply after_ext. intro. apply IH; auto.
  - intros e b IHb k IHk t IHt (He & _ & Hb & Hk & _ & Ht) d yes c Hd. rewrite gforest_cons, gforest_app.
    destruct (IHk Hk d (gforest (nodes t)) (sem t) ltac:(lia) ltac:(intros; apply IHt; [exact Ht|lia])) as (H1 & H2).
    apply pn_cond; [left; reflexivity|apply Hbody; [auto|lia]|exact H1|exact H2].
  - intros x e b IHb t IHt (Hx & He & _ & Hb & _ & Ht) d yes c Hd. rewrite gforest_cons, pn_eq. cbn zeta.
    change (ThisString E (Some (gtree (T (bs "!for") _)))) with (Ok (bs "!for")). cbn [rbind].
    change (bseq (bs "!for") TypePath) with false. change (bseq (bs "!for") TypeExpression) with false. change (bseq (bs "!for") TypeIf) with false.
    change (bseq (bs "!for") TypeElseIf) with false. change (bseq (bs "!for") TypeElse) with false. change (bseq (bs "!for") TypeFor) with true. cbn [orb andb]. cbn iota.
    rewrite (do_for_sem _ x e (nodes b) (sem b)) by (apply Hbody; [auto|lia]). apply after_ext. intro. apply IHt; [exact Ht|lia].
  - reflexivity.
  - intros _ d l k _ H. split; intro c; [apply H|]. rewrite after_nil. apply H.
  - intros b IH (_ & Hb) d l k Hd H. 
    assert (He : forall yes c, process_nodes E C f (process E C f d) (gforest [T (bs "!else") [T (bs "!t") (nodes b)]] ++ l) yes c =
      after (if yes then Ok (c, [], []) else let* (c, o, d, _) := process E C f d (Some (gtree (T (bs "!t") (nodes b)))) c in Ok (c, o, d)) (process_nodes E C f (process E C f d) l yes)) by reflexivity.
    split; intro c; rewrite He.
    + rewrite after_nil. apply H.
    + rewrite (Hbody b d) by (auto; lia). apply after_ext. apply H.
  - intros e b IHb r IHr (He & _ & Hb & Hr) d l k Hd H. destruct (IHr Hr d l k ltac:(lia) H) as (H1 & H2). rewrite gforest_cons. cbn [app]. split; intro c.
    + rewrite pn_eq. cbn zeta. change (ThisString E (Some (gtree (T (bs "!elseif") _)))) with (Ok (bs "!elseif")). cbn [rbind].
      change (bseq (bs "!elseif") TypePath) with false. change (bseq (bs "!elseif") TypeExpression) with false. change (bseq (bs "!elseif") TypeIf) with false.
      change (bseq (bs "!elseif") TypeElseIf) with true. cbn [orb andb negb]. cbn iota. rewrite after_nil. apply H1.
    + apply pn_cond; [right; split; reflexivity|apply Hbody; [auto|lia]|exact H1|exact H2].
Qed.

(** *** The whole *)
Lemma broken_sem t : forall c c' o d b, sem t c = Ok (c', o, d, b) -> b = broken t.
Proof.
  induction t; intros c c' o d b' H; cbn [sem broken] in *; try (injection H; congruence);
    unfold after in H; match type of H with (let* _ := ?m in _) = _ => destruct m as [[[c1 o1] d1]| |]; try discriminate H end; cbn [rbind] in H;
    match type of H with (let* _ := sem ?t ?c in _) = _ => destruct (sem t c) as [[[[c2 o2] d2] b2]| |] eqn:Es; try discriminate H end;
    cbn [rbind] in H; injection H as <- <- <- <-; eauto.
Qed.
Lemma depth_length : (forall t, depth t <= S (List.length (source t)))%nat /\ (forall r, tail_depth r <= S (List.length (tail_source r)))%nat.
Proof.
  apply tmpl_tail_ind; cbn [depth tail_depth source tail_source]; intros; rewrite ?app_length;
  repeat match goal with |- context [List.length (bs ?s)] => let n := eval vm_compute in (List.length (bs s)) in change (List.length (bs s)) with n end; cbn [List.length]; lia.
Qed.

Definition fits_t (t : tmpl) : Prop := legible t /\ (List.length (source t) + 25 <= f)%nat.
Lemma Process_sem t c : wf E t -> fits_t t -> exists g, NewTemplate E f (source t) = Ok g /\
  Process E C f (Some g) c = let* (c, o, _, _) := sem t c in Ok (c, o).
Proof.
  intros Hw (Hl & Hf). eexists. split; [destruct Hl as [Hl|(Hl & _)]; [apply NewTemplate_spec|apply NewTemplate_long]; assumption|]. unfold Process. destruct f as [|f'] eqn:Ef; [lia|].
  cbn [process]. cbn [out]. rewrite <- Ef. rewrite (proj1 process_sem t Hw f' false c); [reflexivity|].
  pose proof (proj1 depth_length t). lia.
Qed.

Lemma expr_graph e : expr_ok E e -> Z.of_nat (List.length (expr_src e)) <= 4094 -> (List.length (expr_src e) + 8 <= f)%nat ->
  NewExpression E f (expr_src e) = Ok (gtree (texpr e)).
Proof.
  intros (H1 & H2 & H3 & H4 & H5) Hl Hf. destruct (NewExpression_spec E (lead e) (steps e) f H1 H2 Hl Hf) as (t & F1 & R1 & G1 & E1).
  pose proof (grouped_unique (etr e) t H5 G1 (eq_trans H3 (eq_sym F1)) (eq_trans H4 (eq_sym R1))) as Et. subst t. exact E1.
Qed.

(** *** Variables that are deleted *)
Lemma for_loop_vars rec x b vs : (forall c c' o d brk, rec b c = Ok (c', o, d, brk) -> incl d vs) ->
  forall l live c c' o d, for_loop rec x b live l c = Ok (c', o, d) -> incl d vs.
Proof.
  intro H. induction l as [|e l IH]; intros live c c' o d Hl; cbn [for_loop] in Hl; [injection Hl as <- <- <-; intros y []|].
  destruct (rec b _) as [[[[c1 o1] d1] brk]| |] eqn:Er; try discriminate Hl. cbn [rbind] in Hl. apply H in Er. destruct brk; [injection Hl as <- <- <-; exact Er|].
  destruct (for_loop rec x b _ l c1) as [[[c2 o2] d2]| |] eqn:El; try discriminate Hl. cbn [rbind] in Hl. injection Hl as <- <- <-.
  apply incl_app; [exact Er|]. exact (IH _ _ _ _ _ El).
Qed.
Lemma sem_for_vars x e body vs c c' o d : (forall c c' o d brk, body c = Ok (c', o, d, brk) -> incl d vs) -> sem_for x e body c = Ok (c', o, d) -> incl d (x :: vs).
Proof.
  intros H Hs. unfold sem_for in Hs. destruct (Eval E C f c _) as [[c1 r]| |]; try discriminate Hs. cbn [rbind] in Hs.
  destruct r as [[| | | | | | |[gi|]| | |]|]; try (injection Hs as <- <- <-; intros y []).
  destruct (out gi); [injection Hs as <- <- <-; intros y []|]. destruct (ThisString E (Some gi)) as [s| |]; try discriminate Hs. cbn [rbind] in Hs.
  destruct (if bseq s (bs "[") then _ else _) as [l2| |]; try discriminate Hs. cbn [rbind] in Hs. destruct (Delete E (Some c1) (VStr x)) as [[c2|]| |]; try discriminate Hs. cbn [rbind] in Hs.
  destruct (for_loop _ x None true l2 _) as [[[c3 o3] d3]| |] eqn:El; try discriminate Hs. cbn [rbind] in Hs. injection Hs as <- <- <-.
  apply incl_cons; [left; reflexivity|]. apply incl_tl. exact (for_loop_vars _ _ _ vs H _ _ _ _ _ _ El).
Qed.
Lemma after_vars m k vs c' o d b : after m k = Ok (c', o, d, b) -> (forall c1 o1 d1, m = Ok (c1, o1, d1) -> incl d1 vs) ->
  (forall c c' o d b, k c = Ok (c', o, d, b) -> incl d vs) -> incl d vs.
Proof.
  unfold after. intros H Hm Hk. destruct m as [[[c1 o1] d1]| |]; try discriminate H. cbn [rbind] in H. destruct (k c1) as [[[[c2 o2] d2] b2]| |] eqn:Ek; try discriminate H.
  cbn [rbind] in H. injection H as <- <- <- <-. apply incl_app; [eapply Hm; reflexivity|eapply Hk; exact Ek].
Qed.
Lemma whole_of_vars m vs c' o d : whole_of m = Ok (c', o, d) -> (forall c' o d b, m = Ok (c', o, d, b) -> incl d vs) -> incl d vs.
Proof. unfold whole_of. intros H Hm. destruct m as [[[[c1 o1] d1] b1]| |]; try discriminate H. cbn [rbind] in H. injection H as <- <- <-. eapply Hm. reflexivity. Qed.
Lemma sem_vars : (forall t c c' o d b, sem t c = Ok (c', o, d, b) -> incl d (loop_vars t)) /\ (forall r c c' o d, sem_tail r c = Ok (c', o, d) -> incl d (tail_vars r)).
Proof.
  assert (Hn : forall (c1 : graph) (o1 : bytes) (vs : list bytes) c o d, Ok (c1, o1, []) = Ok (c, o, d) -> incl d vs) by (intros ? ? ? ? ? ? H; injection H as <- <- <-; intros y []).
  assert (Hv : forall g c c1 o1 d1 vs, (let* (c, r) := Eval E C f c g in
             let* s := text_of E (match r with EVal v => v | EErr _ => VNil end) in Ok (c, s, [])) = Ok (c1, o1, d1) -> @incl bytes d1 vs).
  { intros g c c1 o1 d1 vs H. destruct (Eval E C f c g) as [[c2 r]| |]; try discriminate H. cbn [rbind] in H. destruct (text_of E _); try discriminate H. eapply Hn, H. }
  apply tmpl_tail_ind; cbn [loop_vars tail_vars]; intros.
  - cbn [sem] in H. injection H as <- <- <- <-. intros y [].
  - cbn [sem] in H0. eapply after_vars; [exact H0| |exact H]. apply Hn.
  - cbn [sem] in H0. eapply after_vars; [exact H0| |exact H]. apply Hn.
  - cbn [sem] in H0. eapply after_vars; [exact H0| |exact H]. intros c1 o1 d1. apply Hv.
  - cbn [sem] in H0. eapply after_vars; [exact H0| |exact H]. intros c1 o1 d1. apply Hv.
  - cbn [sem] in H0. eapply after_vars; [exact H0| |exact H]. intros c1 o1 d1 K. destruct (Eval E C f c _) as [[c2 r]| |]; try discriminate K. eapply Hn, K.
  - cbn [sem] in H2. eapply after_vars; [exact H2| |].
    + intros c1 o1 d1 K. destruct (evalBool E C f c _) as [[c2 [|]]| |]; try discriminate K; cbn [rbind] in K.
      * apply incl_appl. eapply whole_of_vars; [exact K|]. apply H.
      * apply incl_appr, incl_appl. eapply H0, K.
    + intros c1 c2 o2 d2 b2 K. apply incl_appr, incl_appr. eapply H1, K.
  - cbn [sem] in H1. eapply after_vars; [exact H1| |].
    + intros c1 o1 d1 K. eapply incl_tran; [eapply sem_for_vars; [exact H|exact K]|]. apply incl_cons; [left; reflexivity|]. apply incl_tl, incl_appl, incl_refl.
    + intros c1 c2 o2 d2 b2 K. apply incl_tl, incl_appr. eapply H0, K.
  - cbn [sem] in H0. injection H0 as <- <- <- <-. intros y [].
  - cbn [sem_tail] in H. eapply Hn, H.
  - cbn [sem_tail] in H0. eapply whole_of_vars; [exact H0|]. apply H.
  - cbn [sem_tail] in H1. destruct (evalBool E C f c _) as [[c2 [|]]| |]; try discriminate H1; cbn [rbind] in H1.
    + apply incl_appl. eapply whole_of_vars; [exact H1|]. apply H.
    + apply incl_appr. eapply H0, H1.
Qed.
End Proc.
