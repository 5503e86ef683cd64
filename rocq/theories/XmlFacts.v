(** Facts about XML input. *)
From Verif Require Import Base Value Graph Xml XmlSpec.

Section Facts.
Variable unaccent : bytes -> bytes.
Variable trim : bytes -> bytes.
Notation xstep := (xstep unaccent trim).
Notation xloop := (xloop unaccent trim).
Notation FromXML := (FromXML unaccent trim).

Section xml_ind'.
Variable P : xml -> Prop.
Hypothesis H1 : forall n a k, Forall P k -> P (Elem n a k).
Hypothesis H2 : forall s, P (Text s).
Hypothesis H3 : P Misc.
Fixpoint xml_ind' (x : xml) : P x :=
  match x with
  | Elem n a k => H1 n a k ((fix go l : Forall P l := match l with [] => Forall_nil _ | d :: l' => Forall_cons d (xml_ind' d) (go l') end) k)
  | Text s => H2 s
  | Misc => H3
  end.
End xml_ind'.

Lemma xloop_app a b st : xloop (a ++ b) st = let* st := xloop a st in xloop b st.
Proof. revert st. induction a as [|t a IH]; intros st; [reflexivity|]. cbn [app Xml.xloop]. destruct (xstep t st); cbn [rbind]; auto. Qed.

(** The stack with the nodes o added to the innermost node *)
Definition add_all (st : xstate) (o : list (option graph)) : xstate :=
  match st with
  | Open [] root => Open [] (Node (this root) (out root ++ o))
  | Open (n :: above) root => Open (Node (this n) (out n ++ o) :: above) root
  | Closed root => Closed root
  end.
Definition is_open (st : xstate) : Prop := match st with Open _ _ => True | Closed _ => False end.
Lemma add_all_nil st : add_all st [] = st.
Proof. destruct st as [[|n a] r|r]; cbn; rewrite ?app_nil_r; try (destruct r; reflexivity); destruct n; reflexivity. Qed.
Lemma add_all_app st o o' : add_all (add_all st o) o' = add_all st (o ++ o').
Proof. destruct st as [[|n a] r|r]; cbn; rewrite ?app_assoc; reflexivity. Qed.
Lemma add_all_open st o : is_open st -> is_open (add_all st o).
Proof. destruct st as [[|n a] r|r]; cbn; auto. Qed.
Lemma undash_key n : key_of unaccent n (undash (unaccent n)).
Proof.
  unfold key_of, undash. induction (unaccent n) as [|c s IH]; constructor; [|exact IH].
  destruct (beq_spec c "-"%byte); auto.
Qed.

Lemma tokens_image x : exists o, image unaccent trim x o /\ forall st, is_open st -> xloop (tokens x) st = Ok (add_all st o).
Proof.
  induction x as [n a k IH|s|] using xml_ind'.
  - assert (Hk : exists ok, images unaccent trim k ok /\ forall st, is_open st -> xloop (flat_map tokens k) st = Ok (add_all st ok)).
    { clear n a. induction IH as [|x k (o & Ho & Hx) _ (os & Hos & Hk)].
      - exists []. split; [constructor|]. intros st _. rewrite add_all_nil. reflexivity.
      - exists (o ++ os). split; [constructor; assumption|]. intros st Hst. cbn [flat_map]. rewrite xloop_app, Hx by exact Hst. cbn [rbind].
        rewrite Hk by (apply add_all_open; exact Hst). rewrite add_all_app. reflexivity. }
    destruct Hk as (ok & Hok & Hk). eexists. split.
    + apply im_elem; [apply undash_key| |exact Hok]. instantiate (1 := map (fun a => Some (Node (VStr ("@"%byte :: fst a)) [Some (Node (VStr (snd a)) [])])) a).
      clear. induction a as [|x a IH]; constructor; [|exact IH]. eexists. split; reflexivity.
    + intros st Hst. cbn [tokens Xml.xloop Xml.xstep]. destruct st as [above root|root]; [|contradiction]. cbn [push rbind].
      rewrite xloop_app, Hk by exact I. unfold element. cbn [add_all rbind this out Xml.xloop Xml.xstep pop].
      destruct above as [|m above]; reflexivity.
  - destruct (trim s) as [|c v] eqn:Ht.
    + exists []. split; [apply im_blank; exact Ht|]. intros st Hst. cbn [tokens Xml.xloop Xml.xstep]. rewrite Ht. cbn [rbind]. rewrite add_all_nil. reflexivity.
    + exists [Some (Node (VStr (c :: v)) [])]. split; [rewrite <- Ht; apply im_text; congruence|]. intros st Hst. cbn [tokens Xml.xloop Xml.xstep]. rewrite Ht.
      destruct st as [[|m above] root|root]; [reflexivity|reflexivity|contradiction].
  - exists []. split; [constructor|]. intros st _. rewrite add_all_nil. reflexivity.
Qed.
Lemma FromXML_images xs : exists o, images unaccent trim xs o /\ FromXML (flat_map tokens xs) = Ok (Node VNil o).
Proof.
  assert (H : exists o, images unaccent trim xs o /\ forall st, is_open st -> xloop (flat_map tokens xs) st = Ok (add_all st o)).
  { induction xs as [|x xs (os & Hos & Hxs)].
    - exists []. split; [constructor|]. intros st _. rewrite add_all_nil. reflexivity.
    - destruct (tokens_image x) as (o & Ho & Hx). exists (o ++ os). split; [constructor; assumption|]. intros st Hst. cbn [flat_map].
      rewrite xloop_app, Hx by exact Hst. cbn [rbind]. rewrite Hxs by (apply add_all_open; exact Hst). rewrite add_all_app. reflexivity. }
  destruct H as (o & Ho & H). exists o. split; [exact Ho|]. unfold FromXML, Xml.FromXML. rewrite H by exact I. reflexivity.
Qed.

Lemma image_fun :
  (forall x o, image unaccent trim x o -> forall o', image unaccent trim x o' -> o = o') /\
  (forall xs o, images unaccent trim xs o -> forall o', images unaccent trim xs o' -> o = o').
Proof.
  assert (Hkey : forall l a b, Forall2 (fun a b => (a = "-"%byte /\ b = "_"%byte) \/ (a <> "-"%byte /\ b = a)) l a ->
    Forall2 (fun a b => (a = "-"%byte /\ b = "_"%byte) \/ (a <> "-"%byte /\ b = a)) l b -> a = b).
  { intros l a b H. revert b. induction H as [|x y l a Hx _ IH]; intros b Hb; inversion Hb; subst; [reflexivity|].
    f_equal; [intuition congruence|auto]. }
  assert (Hatt : forall l a b, Forall2 attribute l a -> Forall2 attribute l b -> a = b).
  { intros l a b H. revert b. induction H as [|x y l a (v & Hv & Hv') _ IH]; intros b Hb; inversion Hb as [|x' y' l' b' (w & Hw & Hw') Hb']; subst; [reflexivity|].
    f_equal; auto. }
  assert (H : forall x o, image unaccent trim x o -> forall o', image unaccent trim x o' -> o = o').
  { induction x as [n a k IH|s|] using xml_ind'.
    - intros o H o' H'. inversion H as [n1 a1 k1 key1 oa1 ok1 K1 A1 O1| | |]; subst. inversion H' as [n2 a2 k2 key2 oa2 ok2 K2 A2 O2| | |]; subst.
      rewrite (Hkey _ _ _ K1 K2), (Hatt _ _ _ A1 A2). repeat f_equal. clear -IH O1 O2. revert ok1 ok2 O1 O2.
      induction IH as [|x k Hx _ IHk]; intros o1 o2 O1 O2; inversion O1; subst; inversion O2; subst; [reflexivity|]. f_equal; auto.
    - intros o H o' H'. inversion H; subst; inversion H'; subst; congruence.
    - intros o H o' H'. inversion H; subst; inversion H'; subst; reflexivity. }
  split; [exact H|]. intros xs. induction xs as [|x xs IH]; intros o Ho o' Ho'; inversion Ho; subst; inversion Ho'; subst; [reflexivity|].
  f_equal; [eapply H; eassumption|apply IH; assumption].
Qed.

(** ** Documents that end early *)
Lemma depth_loop ts : forall d d' above root, depth ts d = Some d' -> List.length above = d ->
  exists above' root', xloop ts (Open above root) = Ok (Open above' root') /\ List.length above' = d'.
Proof.
  induction ts as [|t ts IH]; intros d d' above root Hd Hl.
  - injection Hd as <-. exists above, root. auto.
  - destruct t as [n a|s| |]; cbn [depth] in Hd; cbn [Xml.xloop Xml.xstep push rbind].
    + apply (IH (S d)); [exact Hd|cbn; lia].
    + destruct (trim s) as [|c v]; [cbn [rbind]; eapply IH; eassumption|]. destruct above as [|m above]; cbn [add_top rbind]; (eapply IH; [exact Hd|exact Hl]).
    + destruct d as [|d]; [discriminate|]. destruct above as [|m [|m' above]]; cbn [List.length] in Hl; [lia| |]; cbn [pop rbind]; (apply (IH d); [exact Hd|cbn; lia]).
    + eapply IH; eassumption.
Qed.
Lemma settle_pops above : forall n root, xloop (repeat TEnd (S (List.length above))) (Open (n :: above) root) = Ok (Open [] (settle n above root)).
Proof.
  induction above as [|m above IH]; intros n root; [reflexivity|]. cbn [List.length]. cbn [repeat Xml.xloop Xml.xstep pop rbind settle]. exact (IH (append m n) root).
Qed.
Lemma FromXML_cut ts d : depth ts 0 = Some d -> exists g, FromXML ts = Ok g /\ FromXML (ts ++ repeat TEnd d) = Ok g.
Proof.
  intros Hd. destruct (depth_loop ts 0 d [] (Node VNil []) Hd eq_refl) as (above & root & H & Hl). exists (collapse above root).
  unfold FromXML, Xml.FromXML. rewrite xloop_app, H. cbn [rbind]. split; [reflexivity|].
  destruct above as [|n above]; cbn [List.length] in Hl; subst d; [reflexivity|]. rewrite settle_pops. reflexivity.
Qed.
Lemma tokens_depth xs : forall d ts, depth (flat_map tokens xs ++ ts) d = depth ts d.
Proof.
  assert (H : forall x d ts, depth (tokens x ++ ts) d = depth ts d).
  { induction x as [n a k IH|s|] using xml_ind'; intros d ts; [|reflexivity|reflexivity]. cbn [tokens app depth].
    assert (Hk : forall d ts, depth (flat_map tokens k ++ ts) d = depth ts d).
    { clear -IH. induction IH as [|x k Hx _ IHk]; intros d ts; [reflexivity|]. cbn [flat_map]. rewrite <- app_assoc, Hx. apply IHk. }
    rewrite <- app_assoc, Hk. reflexivity. }
  induction xs as [|x xs IH]; intros d ts; [reflexivity|]. cbn [flat_map]. rewrite <- app_assoc, H. apply IH.
Qed.
Lemma depth_prefix a : forall b d d', depth (a ++ b) d = Some d' -> exists e, depth a d = Some e.
Proof.
  induction a as [|t a IH]; intros b d d' H; [eexists; reflexivity|]. destruct t; cbn [app depth] in *; try (eapply IH; exact H).
  destruct d; [discriminate|]. eapply IH; exact H.
Qed.
End Facts.
