(** When the tree of an expression cannot be built. *)
From Verif Require Import Base Value Graph PathParser PathFacts TemplateTerm JamSpec.

(** ** One round, on the strengths: [x] is the node before *)
Fixpoint round1 (j x : Z) (l : list Z) (n : nat) {struct n} : res (list Z) :=
  match n with
  | O => NoFuel
  | S n =>
      match l with
      | [] => Ok [x]
      | p :: l' => if p =? j then match l' with _ :: l'' => round1 j p l'' n | [] => Panic end
                   else let* r := round1 j p l' n in Ok (x :: r)
      end
  end.
Definition round (j : Z) (l : list Z) : res (list Z) :=
  match l with [] => Ok [] | p :: l' => if p =? j then Panic else round1 j p l' (S (List.length l')) end.

Definition act (j p : Z) : bool := (0 <=? p) && (p <=? j).
Fixpoint lead (j prev : Z) (par : bool) (l : list Z) : bool :=
  match l with [] => par | q :: l => if act j q && (prev <? q) then lead j q (negb par) l else par end.
Fixpoint trail (j prev : Z) (par : bool) (l : list Z) : bool :=
  match l with
  | [] => par
  | q :: l => if act j q then (if act j prev && (q <=? prev) then trail j q (negb par) l else trail j q false l) else trail j q true l
  end.

Lemma act_down j p : p <> j -> act (j - 1) p = act j p.
Proof. intros H. unfold act. destruct (Z.leb_spec 0 p); cbn [andb]; [|reflexivity]. destruct (Z.leb_spec p (j - 1)), (Z.leb_spec p j); try lia; reflexivity. Qed.
Lemma act_self j : 0 <= j -> act j j = true.
Proof. intros H. unfold act. destruct (Z.leb_spec 0 j); [|lia]. destruct (Z.leb_spec j j); [reflexivity|lia]. Qed.
Lemma act_above j : act (j - 1) j = false.
Proof. unfold act. destruct (Z.leb_spec j (j - 1)); [lia|]. apply andb_false_r. Qed.

Ltac cmp := repeat match goal with
  | |- context [?a =? ?b] => destruct (Z.eqb_spec a b); try lia
  | |- context [?a <? ?b] => destruct (Z.ltb_spec a b); try lia
  | |- context [?a <=? ?b] => destruct (Z.leb_spec a b); try lia
  end.
(** The node before is not an operator of this round, or is one that has got its operands *)
Lemma round1_trail j : 0 <= j -> forall n l, (List.length l < n)%nat ->
  (forall x w pw par, x <> j -> (forall t, trail (j - 1) w pw (x :: t) = trail (j - 1) x par t) ->
     match round1 j x l n with Ok r => trail j x par l = trail (j - 1) w pw r | Panic => trail j x par l = false | NoFuel => False end) /\
  (forall e2 w pw, match round1 j j l n with Ok r => trail j e2 true l = trail (j - 1) w pw r | Panic => trail j e2 true l = false | NoFuel => False end).
Proof.
  intros Hj. assert (Kj : forall e par l, (act j e && (j <=? e) = true -> par = true) -> trail j e par (j :: l) = trail j j false l).
  { intros e par l H. cbn [trail]. rewrite act_self by exact Hj. destruct (act j e && (j <=? e)); [rewrite H by reflexivity|]; reflexivity. }
  assert (Ke : forall e l, trail j j false (e :: l) = trail j e true l).
  { intros e l. cbn [trail]. rewrite act_self by exact Hj. destruct (act j e) eqn:He; [|reflexivity]. unfold act in He. apply andb_true_iff in He. destruct He as (_ & He). rewrite He. reflexivity. }
  induction n as [|n IH]; intros l Hl; [lia|]. split.
  - intros x w pw par Hx Hw. destruct l as [|p l']; cbn [round1]; [rewrite Hw; reflexivity|]. cbn [List.length] in Hl. destruct (Z.eqb_spec p j) as [->|Hp].
    + rewrite Kj by (intros H; apply andb_true_iff in H; destruct H as (H1 & H2); unfold act in H1; lia). destruct l' as [|e2 l'']; [reflexivity|]. rewrite Ke. cbn [List.length] in Hl.
      destruct (IH l'' ltac:(lia)) as (_ & K). apply K.
    + assert (Hst : exists par', (forall t, trail (j - 1) x par (p :: t) = trail (j - 1) p par' t) /\ trail j x par (p :: l') = trail j p par' l').
      { cbn [trail]. rewrite !act_down by assumption. destruct (act j p); [destruct (act j x && _)|]; eexists; (split; [intros t; reflexivity|reflexivity]). }
      destruct Hst as (par' & H1 & H2). rewrite H2. destruct (IH l' ltac:(lia)) as (K & _). specialize (K p x par par' Hp H1). destruct (round1 j p l' n) as [r| |]; cbn [rbind]; [rewrite Hw; exact K|exact K|exact K].
  - intros e2 w pw. destruct l as [|p l']; cbn [round1]; [cbn [trail]; rewrite act_above; reflexivity|]. cbn [List.length] in Hl. destruct (Z.eqb_spec p j) as [->|Hp].
    + rewrite Kj by reflexivity. destruct l' as [|e3 l'']; [reflexivity|]. rewrite Ke. cbn [List.length] in Hl. destruct (IH l'' ltac:(lia)) as (_ & K). apply K.
    + assert (Hst : exists par', (forall t, trail (j - 1) j true (p :: t) = trail (j - 1) p par' t) /\ trail j e2 true (p :: l') = trail j p par' l').
      { cbn [trail]. rewrite act_above. cbn [andb]. rewrite !act_down by assumption. destruct (act j p); [exists false; destruct (act j e2 && _)|exists true]; split; reflexivity. }
      destruct Hst as (par' & H1 & H2). rewrite H2. destruct (IH l' ltac:(lia)) as (K & _). specialize (K p j true par' Hp H1). destruct (round1 j p l' n) as [r| |]; cbn [rbind]; [|exact K|exact K].
      cbn [trail]. rewrite act_above. exact K.
Qed.
Lemma round1_head j n : forall l r, round1 j j l n = Ok r -> exists t, r = j :: t.
Proof.
  induction n as [|n IH]; intros l r H; [discriminate|]. destruct l as [|p l]; cbn [round1] in H; [injection H as <-; eexists; reflexivity|]. destruct (Z.eqb_spec p j) as [->|_].
  - destruct l as [|e l]; [discriminate|]. exact (IH l r H).
  - destruct (round1 j p l n); try discriminate. injection H as <-. eexists. reflexivity.
Qed.
Lemma round1_lead j : 0 <= j -> forall n l x w par r, x <> j -> round1 j x l n = Ok r -> lead j w par (x :: l) = lead (j - 1) w par r.
Proof.
  intros Hj. assert (Kj : forall par l, lead j j par l = par).
  { intros par [|q l]; [reflexivity|]. cbn [lead]. destruct (act j q && (j <? q)) eqn:H; [|reflexivity]. apply andb_true_iff in H. destruct H as (H1 & H2). unfold act in H1. lia. }
  induction n as [|n IH]; intros l x w par r Hx H; [discriminate|]. destruct l as [|p l]; cbn [round1] in H.
  - injection H as <-. cbn [lead]. rewrite act_down by exact Hx. reflexivity.
  - destruct (Z.eqb_spec p j) as [->|Hp].
    + destruct l as [|e l]; [discriminate|]. destruct (round1_head _ _ _ _ H) as (t & ->). cbn [lead]. rewrite act_above. cbn [andb].
      destruct (act j x && (w <? x)) eqn:Ha; [|reflexivity]. rewrite act_self by exact Hj. apply andb_true_iff in Ha. destruct Ha as (Ha & _). unfold act in Ha. destruct (Z.ltb_spec x j); [|lia]. cbn [andb].
      pose proof (Kj (negb (negb par)) (e :: l)) as K. cbn [lead] in K. exact (eq_trans K (negb_involutive par)).
    + destruct (round1 j p l n) as [r'| |] eqn:Hr; try discriminate. injection H as <-. cbn [lead]. rewrite (act_down j x) by exact Hx. destruct (act j x && (w <? x)); [|reflexivity]. exact (IH l p x (negb par) r' Hp Hr).
Qed.
Lemma round_spec j l : 0 <= j ->
  match round j l with
  | Ok r => lead j (-1) true l = lead (j - 1) (-1) true r /\ trail j (-1) true l = trail (j - 1) (-1) true r
  | Panic => lead j (-1) true l = false \/ trail j (-1) true l = false
  | NoFuel => False
  end.
Proof.
  intros Hj. destruct l as [|p l]; [split; reflexivity|]. unfold round. destruct (Z.eqb_spec p j) as [->|Hp].
  - left. cbn [lead]. rewrite act_self by exact Hj. destruct (Z.ltb_spec (-1) j); [|lia]. cbn [andb negb]. destruct l as [|q l]; [reflexivity|]. cbn [lead].
    destruct (act j q && (j <? q)) eqn:Hq; [|reflexivity]. apply andb_true_iff in Hq. destruct Hq as (H1 & H2). unfold act in H1. lia.
  - destruct (round1_trail j Hj (S (List.length l)) l ltac:(lia)) as (K & _).
    assert (Hst : exists par, (forall t, trail (j - 1) (-1) true (p :: t) = trail (j - 1) p par t) /\ trail j (-1) true (p :: l) = trail j p par l).
    { cbn [trail]. rewrite !act_down by lia. destruct (act j p); [destruct (act j (-1) && _)|]; eexists; (split; [intros t; reflexivity|reflexivity]). }
    destruct Hst as (par & H1 & H2). specialize (K p (-1) true par Hp H1). rewrite H2. destruct (round1 j p l (S (List.length l))) as [r| |] eqn:Hr; [|right; exact K|exact K].
    split; [eapply round1_lead; eassumption|exact K].
Qed.

(** ** From the nodes to the strengths *)
Definition str (g : graph) : Z := strength (content g).
Definition lift {A B} (f : A -> B) (m : res A) : res B := match m with Ok x => Ok (f x) | Panic => Panic | NoFuel => NoFuel end.
Lemma strength_eq s : precedence s = strength s.
Proof. unfold precedence, strength. cbn [existsb]. rewrite !orb_false_r. reflexivity. Qed.
Lemma reduce_round1 j : forall n post x pre, (List.length post < n)%nat ->
  lift (map str) (reduce_at j (x :: pre) post) = lift (fun r => rev (map str pre) ++ r) (round1 j (str x) (map str post) n).
Proof.
  induction n as [|n IH]; intros post x pre Hn; [lia|]. destruct post as [|p post]; cbn [map round1 reduce_at].
  - cbn [lift]. f_equal. cbn [rev]. rewrite map_app, map_rev. reflexivity.
  - cbn [List.length] in Hn. rewrite strength_eq. change (strength (this_string p)) with (str p). destruct (Z.eqb_spec (str p) j) as [Hp|_].
    + destruct post as [|e2 post]; [reflexivity|]. cbn [map]. cbn [List.length] in Hn. rewrite IH by lia. reflexivity.
    + rewrite IH by lia. destruct (round1 j (str p) (map str post) n); cbn [rbind lift]; [|reflexivity|reflexivity]. cbn [map rev]. rewrite <- app_assoc. reflexivity.
Qed.
Lemma reduce_round j l : lift (map str) (reduce_at j [] l) = round j (map str l).
Proof.
  destruct l as [|p l]; [reflexivity|]. cbn [map round reduce_at]. rewrite strength_eq. change (strength (this_string p)) with (str p). destruct (_ =? j); [reflexivity|].
  rewrite (reduce_round1 j (S (List.length (map str l)))) by (rewrite map_length; lia). cbn [map rev app]. destruct (round1 _ _ _ _); reflexivity.
Qed.
Lemma trail_none l : forall w par, (l = [] -> par = true) -> trail (-1) w par l = true.
Proof.
  induction l as [|q l IH]; intros w par H; [apply H; reflexivity|]. cbn [trail]. assert (K : forall p, act (-1) p = false) by (intros p; unfold act; cmp; reflexivity). rewrite !K. apply IH. reflexivity.
Qed.
Lemma lead_none l w par : lead (-1) w par l = par.
Proof. destruct l as [|q l]; [reflexivity|]. cbn [lead]. assert (K : act (-1) q = false) by (unfold act; cmp; reflexivity). rewrite K. reflexivity. Qed.
Definition fine (j : Z) (l : list graph) : bool := lead j (-1) true (map str l) && trail j (-1) true (map str l).
Lemma reduce_step j l : 0 <= j -> match reduce_at j [] l with Ok r => fine j l = fine (j - 1) r | Panic => fine j l = false | NoFuel => False end.
Proof.
  intros Hj. pose proof (round_spec j (map str l) Hj) as K. rewrite <- reduce_round in K. unfold fine. destruct (reduce_at j [] l) as [r| |]; cbn [lift] in K.
  - destruct K as (-> & ->). reflexivity.
  - destruct K as [-> | ->]; [reflexivity|apply andb_false_r].
  - exact K.
Qed.
Lemma reduce_all_spec l : match reduce_all [6; 5; 4; 3; 2; 1; 0] l with Ok _ => fine 6 l = true | Panic => fine 6 l = false | NoFuel => False end.
Proof.
  assert (K0 : forall l, fine (-1) l = true) by (intros x; unfold fine; rewrite lead_none, trail_none by reflexivity; reflexivity).
  assert (H : forall js j l, (forall l, match reduce_all js l with Ok _ => fine (j - 1) l = true | Panic => fine (j - 1) l = false | NoFuel => False end) -> 0 <= j ->
     match reduce_all (j :: js) l with Ok _ => fine j l = true | Panic => fine j l = false | NoFuel => False end).
  { intros js j x Hx Hj. cbn [reduce_all]. pose proof (reduce_step j x Hj) as K. destruct (reduce_at j [] x) as [r| |]; cbn [rbind]; [|exact K|exact K]. rewrite K. apply Hx. }
  apply H; [intros l6|lia]. apply H; [intros l5|lia]. apply H; [intros l4|lia]. apply H; [intros l3|lia]. apply H; [intros l2|lia]. apply H; [intros l1|lia]. apply H; [intros l0|lia]. apply K0.
Qed.

(** ** The runs *)
Lemma lead_rising l : Forall (fun p => p <= 6) l -> forall w par, -1 <= w -> lead 6 w par l = xorb par (Nat.odd (rising w l)).
Proof.
  induction 1 as [|q l Hq _ IH]; intros w par Hw; cbn [lead rising]; [rewrite xorb_false_r; reflexivity|]. destruct (Z.ltb_spec w q).
  - assert (K : act 6 q = true) by (unfold act; cmp; reflexivity). rewrite K. cbn [andb]. rewrite IH by lia. rewrite Nat.odd_succ, <- Nat.negb_odd. destruct par, (Nat.odd _); reflexivity.
  - rewrite andb_false_r. rewrite xorb_false_r. reflexivity.
Qed.
Definition tick (st : Z * bool) (q : Z) : Z * bool :=
  (q, if act 6 q then (if act 6 (fst st) && (q <=? fst st) then negb (snd st) else false) else true).
Lemma trail_tick l : forall w par, trail 6 w par l = snd (fold_left tick l (w, par)).
Proof.
  induction l as [|q l IH]; intros w par; [reflexivity|]. cbn [trail fold_left]. unfold tick at 2. cbn [fst snd]. destruct (act 6 q); [destruct (act 6 w && _)|]; apply IH.
Qed.
Lemma ticks_rev m : Forall (fun p => p <= 6) m -> fold_left tick (rev m) (-1, true) = (match m with p :: _ => p | [] => -1 end, negb (Nat.odd (climbing 0 m))).
Proof.
  induction 1 as [|q m Hq Hm IH]; [reflexivity|].
  cbn [rev]. rewrite fold_left_app, IH. cbn [fold_left]. unfold tick. cbn [fst snd]. f_equal. cbn [climbing].
  assert (Hact : forall p, p <= 6 -> act 6 p = (0 <=? p)) by (intros p Hp; unfold act; cmp; reflexivity). rewrite (Hact q Hq). destruct (Z.leb_spec 0 q) as [H0|H0]; [|reflexivity].
  rewrite Nat.odd_succ, <- Nat.negb_odd. destruct m as [|p m]; [cbn; reflexivity|]. inversion Hm as [|? ? Hp _]; subst. rewrite (Hact p Hp). cbn [climbing]. destruct (Z.leb_spec q p) as [Hqp|Hqp].
  - destruct (Z.leb_spec 0 p); [|lia]. cbn [andb]. rewrite !negb_involutive. reflexivity.
  - rewrite andb_false_r. reflexivity.
Qed.
Lemma ticks l : Forall (fun p => p <= 6) l -> fold_left tick l (-1, true) = (match rev l with p :: _ => p | [] => -1 end, negb (Nat.odd (climbing 0 (rev l)))).
Proof. intros Hl. rewrite <- (ticks_rev (rev l)) by (apply Forall_rev, Hl). rewrite rev_involutive. reflexivity. Qed.
Lemma strength_le s : strength s <= 6.
Proof. unfold strength. repeat match goal with |- context [if ?b then _ else _] => destruct b end; lia. Qed.
Lemma fine_jammed l : fine 6 l = false <-> jammed (map str l).
Proof.
  assert (Hl : Forall (fun p => p <= 6) (map str l)) by (apply Forall_forall; intros p Hp; apply in_map_iff in Hp; destruct Hp as (x & <- & _); apply strength_le).
  unfold fine, jammed. rewrite (lead_rising _ Hl) by lia. rewrite trail_tick, (ticks _ Hl). cbn [snd]. rewrite <- !Nat.odd_spec. destruct (Nat.odd (rising _ _)), (Nat.odd (climbing _ _)); cbn; intuition discriminate.
Qed.
Lemma reduce_all_jammed l : reduce_all [6; 5; 4; 3; 2; 1; 0] l = Panic <-> jammed (map str l).
Proof. rewrite <- fine_jammed. pose proof (reduce_all_spec l) as K. destruct (reduce_all _ l) as [r| |]; [rewrite K|rewrite K|contradiction]; intuition discriminate. Qed.

(** ** Trees *)
Lemma ast_top_jammed v l : (2 <= List.length l)%nat -> (ast_top v l = Panic <-> (3 <= List.length l)%nat /\ jammed (map str l)).
Proof.
  intros Hl. destruct l as [|a [|b [|c l]]]; cbn [List.length] in *; try lia.
  - cbn [ast_top]. split; [discriminate|intros (H & _); lia].
  - cbn [ast_top]. rewrite <- reduce_all_jammed. destruct (reduce_all _ (a :: b :: c :: l)); cbn [rbind]; (split; [intros H; split; [lia|congruence]|intros (_ & H); congruence]).
Qed.
Lemma ast_this e g r : ast_ e g = Ok r -> this r = this g.
Proof.
  destruct g as [v l]. rewrite ast_eq. destruct (e && _); [intros H; injection H as <-; reflexivity|]. destruct (ast_list e l) as [l'| |]; cbn [rbind]; try discriminate.
  destruct e; [|intros H; injection H as <-; reflexivity]. unfold ast_top. destruct l' as [|a [|b [|c l']]]; try (intros H; injection H as <-; reflexivity);
    (destruct (reduce_all _ _); cbn [rbind]; [intros H; injection H as <-; reflexivity|discriminate|discriminate]).
Qed.
Lemma ast_list_str e k : forall l, ast_list e (map Some k) = Ok l -> map str l = map str k.
Proof.
  induction k as [|c k IH]; intros l H; [injection H as <-; reflexivity|]. cbn [map ast_list] in H. destruct (ast_ _ c) as [c'| |] eqn:Hc; try discriminate. cbn [rbind] in H.
  destruct (ast_list e (map Some k)) as [l'| |]; try discriminate. injection H as <-. cbn [map]. rewrite (IH l' eq_refl). f_equal. unfold str, content. rewrite (ast_this _ _ _ Hc). reflexivity.
Qed.
Lemma ast_list_panic e k : Forall (fun c => forall e, ast_ e c = Panic <-> jam e c) k ->
  (ast_list e (map Some k) = Panic <-> exists c, In c k /\ jam (negb e && bseq (content c) (bs "!e")) c).
Proof.
  induction 1 as [|c k Hc _ IH]; [split; [discriminate|intros (c & [] & _)]|]. cbn [map ast_list]. change (this_string c) with (content c). change TypeExpression with (bs "!e").
  pose proof (Hc (negb e && bseq (content c) (bs "!e"))) as K. destruct (ast_ _ c) as [c'| |] eqn:Ha; cbn [rbind].
  - assert (Hn : ~ jam (negb e && bseq (content c) (bs "!e")) c) by (intros J; apply K in J; discriminate). split.
    + intros H. assert (Hp : ast_list e (map Some k) = Panic) by (destruct (ast_list e (map Some k)); [discriminate|reflexivity|discriminate]). apply IH in Hp. destruct Hp as (x & Hx & J). exists x. split; [right; exact Hx|exact J].
    + intros (x & [-> |Hx] & J); [contradiction|]. assert (Hp : ast_list e (map Some k) = Panic) by (apply IH; exists x; auto). rewrite Hp. reflexivity.
  - split; [intros _; exists c; split; [left; reflexivity|apply K; reflexivity]|reflexivity].
  - exfalso. apply (ast_stops c _ Ha).
Qed.
Lemma map_some_inj (k k' : list graph) : map Some k = map Some k' -> k = k'.
Proof. revert k'. induction k as [|c k IH]; intros [|c' k'] H; try discriminate; [reflexivity|]. injection H as <- H. f_equal. apply IH, H. Qed.
Lemma ast_jam : forall g, full g -> forall e, ast_ e g = Panic <-> jam e g.
Proof.
  fix IH 2. intros g [v k Hk] e.
  assert (Hall : Forall (fun c => forall e, ast_ e c = Panic <-> jam e c) k) by (induction Hk as [|c k Hc _ IHk]; constructor; [apply IH, Hc|exact IHk]). clear IH Hk.
  rewrite ast_eq, map_length. pose proof (ast_list_panic e k Hall) as Kl. pose proof (ast_list_str e k) as Ks.
  assert (Hinv : jam e (Node v (map Some k)) <-> (e = true /\ (3 <= List.length k)%nat /\ jammed (map str k)) \/ ((e = true -> (2 <= List.length k)%nat) /\ exists c, In c k /\ jam (negb e && bseq (content c) (bs "!e")) c)).
  { split.
    - intros H. inversion H; subst; match goal with J : map Some ?a = map Some ?b |- _ => apply map_some_inj in J; subst end; [left; auto|right; eauto].
    - intros [(-> & H3 & Hj)|(H2 & c & Hc & Hj)]; [apply jam_here; assumption|eapply jam_below; eassumption]. }
  rewrite Hinv. clear Hinv. destruct (e && (List.length k <? 2)%nat) eqn:He.
  - apply andb_true_iff in He. destruct He as (-> & He). apply Nat.ltb_lt in He. split; [discriminate|]. intros [(_ & H & _)|(H & _)]; [lia|specialize (H eq_refl); lia].
  - assert (H2 : e = true -> (2 <= List.length k)%nat) by (intros ->; cbn [andb] in He; apply Nat.ltb_ge in He; exact He).
    destruct (ast_list e (map Some k)) as [l| |] eqn:Hl; cbn [rbind].
    + assert (Hn : ~ exists c, In c k /\ jam (negb e && bseq (content c) (bs "!e")) c) by (intros J; apply Kl in J; discriminate). specialize (Ks l eq_refl).
      assert (Hlen : List.length l = List.length k) by (rewrite <- (map_length str l), Ks, map_length; reflexivity). destruct e.
      * rewrite ast_top_jammed by (rewrite Hlen; auto). rewrite Ks, Hlen. tauto.
      * split; [discriminate|]. intros [(H & _)|(_ & H)]; [discriminate|contradiction].
    + split; [|reflexivity]. intros _. right. split; [exact H2|apply Kl; reflexivity].
    + exfalso. pose proof (ast_stops (Node v (map Some k)) e) as K. rewrite ast_eq, map_length, He, Hl in K. apply K. reflexivity.
Qed.
