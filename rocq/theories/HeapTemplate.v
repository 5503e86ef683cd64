(** Templates on nodes: what is modified, and that the text is the one that the tree gives. *)
From Verif Require Import Base Value Graph GraphFacts Emit PathParser Eval Template Heap HeapSpec HeapFacts HeapEval Quiet HeapEvalFacts.

(** ** Loops do not run over the context *)
Inductive guarded (E : env) : option graph -> Prop :=
| guarded_nil : guarded E None
| guarded_node v o :
    (ThisString E (Some (Node v o)) = Ok TypeFor -> forall a e, GetAt (Some (Node v o)) 0 = Ok a -> GetAt a 1 = Ok e -> trail E e) ->
    Forall (guarded E) o -> guarded E (Some (Node v o)).
Lemma guarded_GetAt E n i e : guarded E n -> GetAt n i = Ok e -> guarded E e.
Proof.
  destruct n as [[v o]|]; [|discriminate]. intros H Hi. inversion H as [|? ? _ Hg]; subst. cbn [GetAt] in Hi. destruct (_ || _); injection Hi as <-; [constructor|].
  unfold child. destruct (nth_error o (Z.to_nat i)) eqn:En; [|constructor]. rewrite Forall_forall in Hg. apply Hg. eapply nth_error_In. exact En.
Qed.

Lemma seen_from h h' (P P' : nat -> addr -> Prop) m : (forall n a c, (m <= n)%nat -> nth_error h a = Some c -> P n a -> nth_error h' a = Some c /\ P' n a) ->
  (forall n a g, seen h P n a g -> (m <= n)%nat -> seen h' P' n a g) /\ (forall n l o, seens h P n l o -> (m <= n)%nat -> seens h' P' n l o).
Proof.
  intros H. apply seen_ind2; intros.
  - match goal with H0 : nth_error h a = Some _, H1 : P n a |- _ => destruct (H n a c ltac:(assumption) H0 H1) end. econstructor; eauto.
  - constructor.
  - constructor; auto.
  - constructor; auto.
Qed.
Lemma seens_split h P n l1 : forall l2 o, seens h P n (l1 ++ l2) o -> exists o1 o2, o = o1 ++ o2 /\ seens h P n l1 o1 /\ seens h P n l2 o2.
Proof.
  induction l1 as [|k l1 IH]; intros l2 o H; [exists [], o; split; [reflexivity|]; split; [constructor|exact H]|]. cbn [app] in H.
  inversion H as [|? ? o' Hl|? a g ? o' Ha Hl]; subst; destruct (IH _ _ Hl) as (o1 & o2 & -> & H1 & H2).
  - exists (None :: o1), o2. split; [reflexivity|]. split; [constructor; exact H1|exact H2].
  - exists (Some g :: o1), o2. split; [reflexivity|]. split; [constructor; assumption|exact H2].
Qed.
Lemma seens_in h P n l o a : seens h P n l o -> In (Some a) l -> exists g, In (Some g) o /\ seen h P n a g.
Proof.
  intros H. induction H as [|? l o H IH|? b g l o Hb H IH]; cbn [In]; [tauto| |].
  - intros [K|K]; [discriminate|]. destruct (IH K) as (g & K1 & K2). exists g. auto.
  - intros [[= ->]|K]; [exists g; auto|]. destruct (IH K) as (g' & K1 & K2). exists g'. auto.
Qed.

Lemma seens_each h h' (P P' : nat -> addr -> Prop) n l o : seens h P n l o -> (forall a g, In (Some a) l -> seen h P n a g -> seen h' P' n a g) -> seens h' P' n l o.
Proof.
  intros H. induction H as [|? l o H IH|? b g l o Hb H IH]; intros K; [constructor| |].
  - constructor. apply IH. intros a g Ha. apply K. right. exact Ha.
  - constructor; [apply K; [left; reflexivity|exact Hb]|]. apply IH. intros a g' Ha. apply K. right. exact Ha.
Qed.

Section Context.
Variable c : addr.      (* the context *)

(** [R] are the nodes of the variables of loops.  They, and the context, are not further down. *)
Definition lvl (R : list addr) (n : nat) (x : addr) : Prop := match n with O => True | S O => x <> c | _ => x <> c /\ ~ In x R end.
Lemma lvl_up R n x : lvl R (S n) x -> lvl R n x.
Proof. destruct n as [|[|n]]; cbn; tauto. Qed.
Definition inv (h : heap) (R : list addr) (g : graph) : Prop :=
  (forall x, In x R -> (x < List.length h)%nat /\ x <> c) /\ seen h (lvl R) 0 c g /\ stored false (Some g).
Lemma lvl_fresh h R g n x : inv h R g -> (List.length h <= x)%nat -> lvl R n x.
Proof.
  intros (HR & Hs & _) Hx. apply seen_lt in Hs. assert (x <> c) by (intros ->; lia). assert (~ In x R). { intros H1. apply HR in H1. lia. }
  destruct n as [|[|n]]; cbn; auto.
Qed.
Lemma inv_ext h h' R g : extends h h' -> inv h R g -> inv h' R g.
Proof.
  intros Hx (HR & Hs & Hg). split; [|split; [eapply seen_ext; eassumption|exact Hg]]. intros x Hx'. destruct (HR x Hx'). split; [|assumption]. apply extends_lt in Hx. lia.
Qed.

(** ** Names of the children, and which of them remain *)
Definition nameof (h : heap) (k : option addr) : option bytes :=
  match k with Some a => match nth_error h a with Some {| c_this := VStr s |} => Some s | _ => None end | None => None end.
Definition gone (d : list bytes) (n : option bytes) : bool := match n with Some s => existsb (bseq s) d | None => false end.
Definition keep (h : heap) (d : list bytes) (l : list (option addr)) : list (option addr) := filter (fun k => negb (gone d (nameof h k))) l.
Definition tname (k : option graph) : option bytes := match k with Some (Node (VStr s) _) => Some s | _ => None end.
Definition tkeep (d : list bytes) (o : list (option graph)) : list (option graph) := filter (fun k => negb (gone d (tname k))) o.

Lemma gone_in d s : gone d (Some s) = true <-> In s d.
Proof. cbn. rewrite existsb_exists. split; [intros (x & H1 & H2); apply bseq_eq in H2; subst; exact H1|intros H; exists s; split; [exact H|apply bseq_refl]]. Qed.
Lemma gone_app d d' n : gone (d ++ d') n = gone d n || gone d' n.
Proof. destruct n; [apply existsb_app|reflexivity]. Qed.
Lemma keep_nil h l : keep h [] l = l.
Proof. unfold keep. induction l as [|k l IH]; [reflexivity|]. cbn [filter]. destruct (nameof h k); cbn; f_equal; exact IH. Qed.
Lemma keep_keep h h' d d' l : (forall k, In k l -> nameof h' k = nameof h k) -> keep h' d' (keep h d l) = keep h (d ++ d') l.
Proof.
  unfold keep. induction l as [|k l IH]; intros H; [reflexivity|]. cbn [filter]. rewrite gone_app. rewrite <- IH by (intros; apply H; right; assumption).
  destruct (gone d (nameof h k)) eqn:E1; cbn [negb orb]; [reflexivity|]. cbn [filter]. rewrite (H k) by (left; reflexivity). reflexivity.
Qed.
Lemma seen_name h P n (a : addr) g : seen h P n a g -> nameof h (Some a) = tname (Some g).
Proof.
  intros H. inversion H as [? ? e v o He _ Hv _]; subst. cbn. rewrite He. destruct e as [w l]. cbn in Hv. destruct w as [| | | | | | |[p|]| | |]; cbn in Hv; try discriminate; injection Hv as <-; reflexivity.
Qed.
Lemma seens_keep h P n d l o : seens h P n l o -> seens h P n (keep h d l) (tkeep d o).
Proof.
  intros H. unfold keep, tkeep. induction H as [|? l o H IH|? b g l o Hb H IH]; cbn [filter]; [constructor| |].
  - cbn. constructor. exact IH.
  - rewrite (seen_name _ _ _ _ _ Hb). destruct (gone d (tname (Some g))); cbn [negb]; [exact IH|]. constructor; assumption.
Qed.
Lemma stored_tkeep b d o : Forall (stored b) o -> Forall (stored b) (tkeep d o).
Proof. intros H. apply Forall_forall. intros k Hk. apply filter_In in Hk. rewrite Forall_forall in H. apply H, Hk. Qed.

(** ** What changed: nothing but the children of the context.  Those called as in [d] are gone, new ones
    are called as in [d]. *)
Definition fresh_kid (hb h : heap) (d : list bytes) (k : option addr) : Prop :=
  exists (a : addr) s, k = Some a /\ (List.length hb <= a)%nat /\ nameof h k = Some s /\ In s d.
Definition Fr (hb h : heap) (d : list bytes) : Prop :=
  (List.length hb <= List.length h)%nat /\ (forall a, (a < List.length hb)%nat -> a <> c -> nth_error h a = nth_error hb a) /\
  exists cb ch new, nth_error hb c = Some cb /\ nth_error h c = Some ch /\ c_this ch = c_this cb /\
    (forall a, In (Some a) (c_out cb) -> (a < List.length hb)%nat) /\
    c_out ch = keep hb d (c_out cb) ++ new /\ Forall (fresh_kid hb h d) new.

Lemma Fr_name hb h d (a : addr) : Fr hb h d -> (a < List.length hb)%nat -> nameof h (Some a) = nameof hb (Some a).
Proof.
  intros (_ & H1 & cb & ch & new & Hb & Hh & Ht & _) Ha. cbn. destruct (Nat.eq_dec a c) as [->|Hn]; [|rewrite H1 by assumption; reflexivity].
  rewrite Hb, Hh. destruct cb, ch. cbn in Ht. subst. reflexivity.
Qed.
Lemma Fr_ext h h' R g : inv h R g -> extends h h' -> Fr h h' [].
Proof.
  intros (_ & Hs & _) Hx. split; [apply extends_lt, Hx|]. split.
  - intros a Ha _. destruct Hx as (k & ->). apply nth_error_app1, Ha.
  - inversion Hs as [? ? e v o He _ _ Ho]; subst. exists e, e, []. split; [exact He|]. split; [eapply extends_nth; eassumption|]. split; [reflexivity|].
    split; [|rewrite keep_nil, app_nil_r; split; [reflexivity|constructor]]. intros a Ha. destruct (seens_in _ _ _ _ _ _ Ho Ha) as (g & _ & Hg). eapply seen_lt, Hg.
Qed.
Lemma Fr_trans a b h d d' : Fr a b d -> Fr b h d' -> Fr a h (d ++ d').
Proof.
  intros F1 F2. pose proof F1 as (L1 & U1 & ca & cb & n1 & Ha & Hb & T1 & D1 & O1 & N1). pose proof F2 as (L2 & U2 & cb' & ch & n2 & Hb' & Hh & T2 & D2 & O2 & N2). rewrite Hb in Hb'. injection Hb' as <-.
  split; [lia|]. split. { intros x Hx Hn. rewrite U2, U1; auto. lia. }
  exists ca, ch, (keep b d' n1 ++ n2). split; [exact Ha|]. split; [exact Hh|]. split; [congruence|]. split; [exact D1|]. split.
  - rewrite O2, O1. unfold keep at 1. rewrite filter_app. fold (keep b d' (keep a d (c_out ca))). fold (keep b d' n1). rewrite <- app_assoc. f_equal. apply keep_keep. intros k Hk.
    destruct k as [x|]; [|reflexivity]. eapply Fr_name; [exact F1|apply D1, Hk].
  - apply Forall_app. split.
    + apply Forall_forall. intros k Hk. apply filter_In in Hk. destruct Hk as (Hk & _). rewrite Forall_forall in N1. destruct (N1 k Hk) as (x & s & -> & Hx & Hs & Hin). exists x, s. split; [reflexivity|]. split; [exact Hx|].
      split; [|apply in_or_app; left; exact Hin]. rewrite <- Hs. eapply Fr_name; [exact F2|]. cbn in Hs. destruct (nth_error b x) eqn:En; [eapply nth_some_lt, En|discriminate].
    + eapply Forall_impl; [|exact N2]. intros k (x & s & -> & Hx & Hs & Hin). exists x, s. split; [reflexivity|]. split; [lia|]. split; [exact Hs|apply in_or_app; right; exact Hin].
Qed.

(** ** Programs against functions *)
Definition grows (h : heap) (R R' : list addr) : Prop := incl R R' /\ forall x, In x R' -> In x R \/ (List.length h <= x)%nat.
Lemma grows_refl h R : grows h R R.
Proof. split; [apply incl_refl|auto]. Qed.
Lemma grows_trans h h' R R' R'' : (List.length h <= List.length h')%nat -> grows h R R' -> grows h' R' R'' -> grows h R R''.
Proof. intros L (I1 & G1) (I2 & G2). split; [eapply incl_tran; eassumption|]. intros x Hx. destruct (G2 x Hx) as [H|H]; [apply G1, H|right; lia]. Qed.

Definition still (h h' : heap) : Prop := forall a, (a < List.length h)%nat -> a <> c -> nth_error h' a = nth_error h a.
Lemma Fr_still hb h d h' : Fr hb h d -> still h h' -> still hb h'.
Proof. intros (L & U & _) H a Ha Hn. rewrite H by (assumption || lia). apply U; assumption. Qed.
Lemma ext_still h h' : extends h h' -> still h h'.
Proof. intros (k & ->) a Ha _. apply nth_error_app1, Ha. Qed.
Definition tsim {A B} (h : heap) (R : list addr) (Q : A -> B -> graph -> list bytes -> Prop) (m : M A) (t : res B) : Prop :=
  exists h' r, m h = (h', r) /\
    match r with
    | Ok x => exists y g d R', t = Ok y /\ Q x y g d /\ inv h' R' g /\ grows h R R' /\ Fr h h' d
    | Panic => t = Panic /\ still h h'
    | NoFuel => t = NoFuel /\ still h h'
    end.
Lemma tsim_ret {A B} h R g (Q : A -> B -> graph -> list bytes -> Prop) x y : inv h R g -> Q x y g [] -> tsim h R Q (ret x) (Ok y).
Proof.
  intros Hi Hq. exists h, (Ok x). split; [reflexivity|]. exists y, g, [], R. split; [reflexivity|]. split; [exact Hq|]. split; [exact Hi|]. split; [apply grows_refl|eapply Fr_ext; [exact Hi|apply extends_refl]].
Qed.
Lemma tsim_panic {A B} h R (Q : A -> B -> graph -> list bytes -> Prop) : tsim h R Q mpanic Panic.
Proof. exists h, Panic. split; [reflexivity|]. split; [reflexivity|]. intros a _ _. reflexivity. Qed.
Lemma tsim_fuel {A B} h R (Q : A -> B -> graph -> list bytes -> Prop) : tsim h R Q mfuel NoFuel.
Proof. exists h, NoFuel. split; [reflexivity|]. split; [reflexivity|]. intros a _ _. reflexivity. Qed.
Lemma tsim_bind {A B A' B'} h R (Q1 : A -> B -> graph -> list bytes -> Prop) (Q : A' -> B' -> graph -> list bytes -> Prop) m t k k' : tsim h R Q1 m t ->
  (forall h1 R1 g1 d1 x y, inv h1 R1 g1 -> Q1 x y g1 d1 -> grows h R R1 -> Fr h h1 d1 -> tsim h1 R1 (fun x' y' g2 d2 => Q x' y' g2 (d1 ++ d2)) (k x) (k' y)) -> tsim h R Q (mbind m k) (rbind t k').
Proof.
  intros (h1 & r & Hm & Hr) Hk. unfold tsim. unfold mbind. rewrite Hm. destruct r as [x| |].
  - destruct Hr as (y & g1 & d1 & R1 & -> & Hq & Hi & Hg & Hf). destruct (Hk h1 R1 g1 d1 x y Hi Hq Hg Hf) as (h2 & r2 & Hm2 & Hr2). exists h2, r2. split; [exact Hm2|]. cbn [rbind].
    destruct r2 as [x2| |].
    + destruct Hr2 as (y2 & g2 & d2 & R2 & E2 & Hq2 & Hi2 & Hg2 & Hf2). exists y2, g2, (d1 ++ d2), R2. split; [exact E2|]. split; [exact Hq2|]. split; [exact Hi2|].
      split; [eapply grows_trans; [apply Hf|exact Hg|exact Hg2]|eapply Fr_trans; eassumption].
    + destruct Hr2 as (E2 & S2). split; [exact E2|eapply Fr_still; eassumption].
    + destruct Hr2 as (E2 & S2). split; [exact E2|eapply Fr_still; eassumption].
  - destruct Hr as (-> & Hs). exists h1, Panic. split; [reflexivity|]. split; [reflexivity|exact Hs].
  - destruct Hr as (-> & Hs). exists h1, NoFuel. split; [reflexivity|]. split; [reflexivity|exact Hs].
Qed.
Lemma tsim_lift {A B C} h R (Q : B -> C -> graph -> list bytes -> Prop) (r : res A) k k' : (forall x, r = Ok x -> tsim h R Q (k x) (k' x)) -> tsim h R Q (mbind (lift r) k) (rbind r k').
Proof. intros H. destruct r as [x| |]; [apply (H x eq_refl)|apply tsim_panic|apply tsim_fuel]. Qed.
Lemma tsim_step {A B C} h R (Q : B -> C -> graph -> list bytes -> Prop) (m : M A) x k t : m h = (h, Ok x) -> tsim h R Q (k x) t -> tsim h R Q (mbind m k) t.
Proof. intros Hm (h2 & r2 & H2). exists h2, r2. unfold mbind. rewrite Hm. exact H2. Qed.
(** Evaluation *)
Lemma tsim_eval {A B A' B'} h R g (Q1 : heap -> A -> B -> Prop) (Q : A' -> B' -> graph -> list bytes -> Prop) m t k k' : inv h R g -> simg g h Q1 m t ->
  (forall h1 x y, extends h h1 -> inv h1 R g -> Q1 h1 x y -> tsim h1 R Q (k x) (k' (g, y))) -> tsim h R Q (mbind m k) (rbind t k').
Proof.
  intros Hi (h1 & r & Hm & Hx & Hr) Hk. unfold tsim, mbind. rewrite Hm. destruct r as [x| |].
  - destruct Hr as ([g' y] & -> & Hg & Hq). cbn [fst snd] in Hg, Hq. subst g'. destruct (Hk h1 x y Hx (inv_ext _ _ _ _ Hx Hi) Hq) as (h2 & r2 & Hm2 & Hr2). exists h2, r2. split; [exact Hm2|]. cbn [rbind].
    pose proof (Fr_ext _ _ _ _ Hi Hx) as Hf. destruct r2 as [x2| |].
    + destruct Hr2 as (y2 & g2 & d2 & R2 & E2 & Hq2 & Hi2 & Hg2 & Hf2). exists y2, g2, d2, R2. split; [exact E2|]. split; [exact Hq2|]. split; [exact Hi2|].
      split; [eapply grows_trans; [apply Hf|apply grows_refl|exact Hg2]|]. exact (Fr_trans _ _ _ [] d2 Hf Hf2).
    + destruct Hr2 as (E2 & S2). split; [exact E2|eapply Fr_still; eassumption].
    + destruct Hr2 as (E2 & S2). split; [exact E2|eapply Fr_still; eassumption].
  - exists h1, Panic. split; [reflexivity|]. subst t. split; [reflexivity|apply ext_still, Hx].
  - exists h1, NoFuel. split; [reflexivity|]. subst t. split; [reflexivity|apply ext_still, Hx].
Qed.

(** ** Deleting and adding the variable *)
Definition near (h : heap) (k : option addr) : Prop := exists a e, k = Some a /\ nth_error h a = Some e /\ a <> c.
Lemma near_name h h' k : (forall a, a <> c -> nth_error h' a = nth_error h a) -> near h k -> nameof h' k = nameof h k /\ near h' k.
Proof. intros H (a & e & -> & He & Hn). cbn. rewrite (H a Hn). split; [reflexivity|]. exists a, e. rewrite (H a Hn). auto. Qed.
Lemma keep_same h h' d l : (forall a, a <> c -> nth_error h' a = nth_error h a) -> Forall (near h) l -> keep h' d l = keep h d l.
Proof. intros H Hl. unfold keep. induction Hl as [|k l Hk _ IH]; [reflexivity|]. cbn [filter]. rewrite IH, (proj1 (near_name _ _ _ H Hk)). reflexivity. Qed.
Lemma heq_name e x : heq (c_this e) (VStr x) = Ok (match c_this e with VStr s => bseq s x | _ => false end).
Proof. destruct (c_this e); reflexivity. Qed.
Lemma hdel_ok x rest : forall done h e, nth_error h c = Some e -> c_out e = done ++ rest -> Forall (near h) rest ->
  exists h', hdel c (VStr x) done rest h = (h', Ok tt) /\ List.length h' = List.length h /\ (forall a, a <> c -> nth_error h' a = nth_error h a) /\
    nth_error h' c = Some {| c_this := c_this e; c_out := done ++ keep h [x] rest |}.
Proof.
  induction rest as [|k rest IH]; intros done h e He Ho Hn; cbn [hdel].
  - exists h. split; [reflexivity|]. split; [reflexivity|]. split; [reflexivity|]. rewrite He. destruct e. cbn in *. subst. reflexivity.
  - inversion Hn as [|? ? Hk Hr]; subst. destruct Hk as (a & d & -> & Hd & Ha). cbn [deref]. rewrite (mbind_ok _ _ _ _ _ _ _ eq_refl), (mbind_ok _ _ _ _ _ _ _ (load_ok _ _ _ Hd)), heq_name, (mbind_ok _ _ _ _ _ _ _ eq_refl).
    assert (Hg : gone [x] (nameof h (Some a)) = match c_this d with VStr s => bseq s x | _ => false end).
    { cbn. rewrite Hd. destruct d as [w ?]. cbn. destruct w; cbn; rewrite ?orb_false_r; reflexivity. }
    unfold keep. cbn [filter]. rewrite Hg. destruct (match c_this d with VStr s => bseq s x | _ => false end); cbn [negb].
    + rewrite (mbind_ok _ _ _ _ _ _ _ (set_out_ok _ _ _ _ He)). set (h1 := set_cell h c _).
      assert (H1 : forall b, b <> c -> nth_error h1 b = nth_error h b) by (intros b Hb; apply set_cell_other, Hb).
      assert (Hc1 : nth_error h1 c = Some {| c_this := c_this e; c_out := done ++ rest |}) by (apply set_cell_same; eapply nth_some_lt, He).
      destruct (IH done h1 _ Hc1 eq_refl) as (h' & Hm & Hl & Hu & Hc'). { eapply Forall_impl; [|exact Hr]. intros k Hk. apply (near_name _ _ _ H1 Hk). }
      exists h'. split; [exact Hm|]. split; [rewrite Hl; apply set_cell_length|]. split; [intros b Hb; rewrite Hu, H1; auto|]. rewrite Hc'. cbn [c_this]. rewrite (keep_same _ _ _ _ H1 Hr). reflexivity.
    + destruct (IH (done ++ [Some a]) h e He) as (h' & Hm & Hl & Hu & Hc'). { rewrite <- app_assoc. exact Ho. } { exact Hr. }
      exists h'. split; [exact Hm|]. split; [exact Hl|]. split; [exact Hu|]. rewrite Hc'. rewrite <- app_assoc. reflexivity.
Qed.
Lemma delete_tkeep E x o2 : Forall (stored false) o2 -> forall fuel o1, (List.length o2 < fuel)%nat -> delete_loop E fuel (List.length o1) (VStr x) (o1 ++ o2) = Ok (o1 ++ tkeep [x] o2).
Proof.
  intros Ho. induction Ho as [|k o2 Hk _ IH]; intros fuel o1 Hf; destruct fuel as [|fuel]; try (cbn in Hf; lia); cbn [delete_loop].
  - cbn [tkeep filter]. rewrite !app_nil_r, Nat.ltb_irrefl. reflexivity.
  - cbn in Hf. inversion Hk as [Hb|v o Hv Hs]; [discriminate|]. subst k. set (m := Node v o). assert (Hlt : (List.length o1 <? List.length (o1 ++ Some m :: o2))%nat = true) by (apply Nat.ltb_lt; rewrite app_length; cbn; lia).
    rewrite Hlt. unfold child. rewrite nth_error_app2, Nat.sub_diag by lia. cbn [nth_error].
    assert (Hq : iface_eq E (this m) (VStr x) = Ok (gone [x] (tname (Some m)))). { unfold m. destruct v; cbn; rewrite ?orb_false_r; try reflexivity. destruct p; reflexivity. }
    rewrite Hq. cbn [rbind]. unfold tkeep. cbn [filter]. fold (tkeep [x] o2). destruct (gone [x] (tname (Some m))); cbn [negb].
    + rewrite remove_at_app. apply IH. lia.
    + change (Some m :: o2) with ([Some m] ++ o2). rewrite app_assoc. replace (S (List.length o1)) with (List.length (o1 ++ [Some m])) by (rewrite app_length; cbn; lia).
      rewrite IH by lia. rewrite <- app_assoc. reflexivity.
Qed.
Lemma Delete_tkeep E x v o : Forall (stored false) o -> Delete E (Some (Node v o)) (VStr x) = Ok (Some (Node v (tkeep [x] o))).
Proof. intros H. unfold Delete. pose proof (delete_tkeep E x o H (S (List.length o)) [] ltac:(lia)) as K. cbn [List.length app] in K. rewrite K. reflexivity. Qed.

Lemma inv_cell h R g : inv h R g -> exists e v o, nth_error h c = Some e /\ g = Node v o /\ plain (c_this e) = Some v /\ seens h (lvl R) 1 (c_out e) o /\ datum v /\ Forall (stored false) o.
Proof.
  intros (_ & Hs & Hg). inversion Hs as [? ? e v o He _ Hv Ho]; subst. inversion Hg; subst. exists e, v, o. auto 10.
Qed.
Lemma seens_near h R l o : seens h (lvl R) 1 l o -> Forall (stored false) o -> Forall (near h) l.
Proof.
  intros H Hs. remember 1%nat as n eqn:En. induction H as [|? l o H IH|? b g l o Hb H IH]; [constructor| |]; inversion Hs as [|? ? Hx Hs']; subst.
  - inversion Hx. discriminate.
  - constructor; [|auto]. inversion Hb as [? ? e v k He Hl _ _]; subst. exists b, e. auto.
Qed.
(** it: the node of the variable x, in its place or removed from it *)
Definition Live (h : heap) (x : bytes) (it : addr) : Prop :=
  exists e l1 l2, nth_error h c = Some e /\ c_out e = l1 ++ Some it :: l2 /\ Forall (fun k => nameof h k <> Some x) (l1 ++ l2).
Definition Dead (h : heap) (it : addr) : Prop := exists e, nth_error h c = Some e /\ ~ In (Some it) (c_out e).

Lemma Forall_app_inv {A} (P : A -> Prop) l1 l2 : Forall P (l1 ++ l2) -> Forall P l1 /\ Forall P l2.
Proof. intros H. apply Forall_app in H. exact H. Qed.
Lemma Live_Fr h h' d x it : Live h x it -> nameof h (Some it) = Some x -> Fr h h' d -> (it < List.length h)%nat -> if existsb (bseq x) d then Dead h' it else Live h' x it.
Proof.
  intros (e & l1 & l2 & He & Ho & Hn) Hit HF Hlt. pose proof HF as (L & U & cb & ch & new & Hb & Hh & T & D & O & N). rewrite He in Hb. injection Hb as <-.
  rewrite Ho in O. unfold keep in O. rewrite filter_app in O. cbn [filter] in O. rewrite Hit in O. cbn [gone] in O. apply Forall_app_inv in Hn. destruct Hn as (Hn1 & Hn2).
  destruct (existsb (bseq x) d) eqn:Ex; cbn [negb] in O.
  - exists ch. split; [exact Hh|]. rewrite O. intros Hi. apply in_app_or in Hi. destruct Hi as [Hi|Hi].
    + apply in_app_or in Hi. rewrite Forall_forall in Hn1, Hn2. destruct Hi as [Hi|Hi]; apply filter_In in Hi; destruct Hi as (Hi & _); [exact (Hn1 _ Hi Hit)|exact (Hn2 _ Hi Hit)].
    + rewrite Forall_forall in N. destruct (N _ Hi) as (a & s & [= <-] & Ha & _). lia.
  - exists ch. rewrite <- app_assoc in O. cbn [app] in O. eexists. eexists. split; [exact Hh|]. split; [exact O|].
    assert (K : forall l : list (option addr), (forall a : addr, In (Some a) l -> (a < List.length h)%nat) -> Forall (fun k => nameof h k <> Some x) l -> Forall (fun k => nameof h' k <> Some x) (filter (fun k => negb (gone d (nameof h k))) l)).
    { intros l Hd Hl. apply Forall_forall. intros k Hk. apply filter_In in Hk. destruct Hk as (Hk & _). destruct k as [a|]; [|discriminate]. rewrite (Fr_name _ _ _ _ HF (Hd a Hk)). rewrite Forall_forall in Hl. apply Hl, Hk. }
    rewrite Ho in D. apply Forall_app. split; [|apply Forall_app; split].
    + apply K; [|exact Hn1]. intros a Ha. apply D, in_or_app. left. exact Ha.
    + apply K; [|exact Hn2]. intros a Ha. apply D, in_or_app. right. right. exact Ha.
    + eapply Forall_impl; [|exact N]. intros k (a & s & -> & Ha & Hs & Hin) Hx. rewrite Hs in Hx. injection Hx as ->. assert (K' : existsb (bseq x) d = true) by (apply (proj2 (gone_in d x)), Hin). congruence.
Qed.
Lemma Dead_Fr h h' d it : Dead h it -> Fr h h' d -> (it < List.length h)%nat -> Dead h' it.
Proof.
  intros (e & He & Ho) (L & U & cb & ch & new & Hb & Hh & T & D & O & N) Hlt. rewrite He in Hb. injection Hb as <-. exists ch. split; [exact Hh|]. rewrite O. intros Hi. apply in_app_or in Hi. destruct Hi as [Hi|Hi].
  - apply filter_In in Hi. apply Ho, Hi.
  - rewrite Forall_forall in N. destruct (N _ Hi) as (a & s & [= <-] & Ha & _). lia.
Qed.

(** *** c.Delete(x); it := c.Add(x) *)
Lemma variable_ok E h R v o x : inv h R (Node v o) ->
  let it := List.length h in
  exists h', (do _ <- hDelete (Some c) (VStr x); hAdd (Some c) (VStr x)) h = (h', Ok (Some it)) /\ Delete E (Some (Node v o)) (VStr x) = Ok (Some (Node v (tkeep [x] o))) /\
    inv h' (it :: R) (Node v (tkeep [x] o ++ [Some (New (VStr x))])) /\ Fr h h' [x] /\ Live h' x it /\ nth_error h' it = Some {| c_this := VStr x; c_out := [] |} /\ grows h R (it :: R) /\
    (forall n l lo, (2 <= n)%nat -> seens h (lvl R) n l lo -> seens h' (lvl (it :: R)) n l lo).
Proof.
  intros Hi it. destruct (inv_cell _ _ _ Hi) as (e & v' & o' & He & [= <- <-] & Hv & Ho & Hd & Hs). pose proof (seens_near _ _ _ _ Ho Hs) as Hnear.
  destruct (hdel_ok x (c_out e) [] h e He eq_refl Hnear) as (h1 & Hm & Hl & Hu & Hc1). cbn [app] in Hc1.
  cbn [hDelete hAdd]. set (nw := {| c_this := VStr x; c_out := [] |} : cell). set (h2 := h1 ++ [nw]). set (ce := {| c_this := c_this e; c_out := keep h [x] (c_out e) ++ [Some it] |}).
  assert (Hlc : (c < List.length h)%nat) by (eapply nth_some_lt, He).
  assert (Hc2 : nth_error h2 c = Some {| c_this := c_this e; c_out := keep h [x] (c_out e) |}) by (unfold h2; rewrite nth_error_app1 by (rewrite Hl; exact Hlc); exact Hc1).
  assert (Hrun : (do _ <- (do c0 <- load c; hdel c (VStr x) [] (c_out c0)); do n <- alloc nw; do c0 <- load c; do _ <- set_out c (c_out c0 ++ [Some n]); ret (Some n)) h = (set_cell h2 c ce, Ok (Some it))).
  { unfold mbind at 1. rewrite (mbind_ok _ _ _ _ _ _ _ (load_ok _ _ _ He)), Hm. unfold mbind at 1. unfold alloc. fold h2. rewrite (mbind_ok _ _ _ _ _ _ _ (load_ok _ _ _ Hc2)). cbn [c_out]. rewrite (mbind_ok _ _ _ _ _ _ _ (set_out_ok _ _ _ _ Hc2)).
    cbn [c_this]. rewrite Hl. reflexivity. }
  exists (set_cell h2 c ce). split; [exact Hrun|]. clear Hrun. set (h3 := set_cell h2 c ce).
  assert (Hl3 : List.length h3 = S (List.length h)) by (unfold h3, h2; rewrite set_cell_length, app_length, Hl; cbn; lia).
  assert (Hc3 : nth_error h3 c = Some ce) by (apply set_cell_same; unfold h2; rewrite app_length, Hl; cbn; lia).
  assert (Hit : it <> c) by (unfold it; lia).
  assert (Hi3 : nth_error h3 it = Some nw). { unfold h3. rewrite set_cell_other by exact Hit. unfold h2, it. rewrite <- Hl. apply nth_new. }
  assert (Hu3 : forall a, (a < List.length h)%nat -> a <> c -> nth_error h3 a = nth_error h a). { intros a Ha Hn. unfold h3. rewrite set_cell_other by exact Hn. unfold h2. rewrite nth_error_app1 by lia. apply Hu, Hn. }
  split; [apply Delete_tkeep, Hs|].
  assert (Hfrom : forall n l lo, (1 <= n)%nat -> seens h (lvl R) n l lo -> seens h3 (lvl (it :: R)) n l lo).
  { intros n l lo Hn H. eapply (seen_from h h3 (lvl R) (lvl (it :: R)) 1); [|exact H|exact Hn]. intros m a ca Hma Ha Hla. pose proof (nth_some_lt _ _ _ Ha) as Hlt.
    assert (Hac : a <> c) by (destruct m as [|[|m]]; cbn in Hla; [lia|exact Hla|apply Hla]). split; [rewrite Hu3 by assumption; exact Ha|].
    destruct m as [|[|m]]; cbn in *; [exact I|exact Hac|]. split; [exact Hac|]. intros [K|K]; [unfold it in K; lia|]. apply Hla, K. }
  assert (Hname : nameof h3 (Some it) = Some x) by (cbn; rewrite Hi3; reflexivity).
  split; [|split; [|split; [|split; [exact Hi3|split]]]].
  - destruct Hi as (HR & _). split; [|split].
    + intros y [<-|Hy]; [split; [unfold it; lia|exact Hit]|]. destruct (HR y Hy). split; [lia|assumption].
    + econstructor; [exact Hc3|exact I|exact Hv|]. cbn [c_out ce]. apply seens_app.
      * apply seens_keep with (d := [x]) in Ho. apply Hfrom in Ho; [|lia]. exact Ho.
      * constructor; [|constructor]. econstructor; [exact Hi3|exact Hit|reflexivity|constructor].
    + constructor; [exact Hd|]. apply Forall_app. split; [apply stored_tkeep, Hs|]. repeat constructor.
  - split; [lia|]. split; [exact Hu3|]. exists e, ce, [Some it]. split; [exact He|]. split; [exact Hc3|]. split; [reflexivity|]. split.
    + intros a Ha. rewrite Forall_forall in Hnear. destruct (Hnear _ Ha) as (b & eb & [= <-] & Hb & _). eapply nth_some_lt, Hb.
    + split; [reflexivity|]. constructor; [|constructor]. exists it, x. split; [reflexivity|]. split; [unfold it; lia|]. split; [exact Hname|left; reflexivity].
  - exists ce, (keep h [x] (c_out e)), []. split; [exact Hc3|]. split; [reflexivity|]. rewrite app_nil_r. apply Forall_forall. intros k Hk. apply filter_In in Hk. destruct Hk as (Hk & Hg). rewrite Forall_forall in Hnear.
    destruct (Hnear _ Hk) as (a & ea & -> & Ha & Hac). intros K. cbn in K. rewrite Hu3 in K by (eapply nth_some_lt, Ha || exact Hac). cbn [nameof] in Hg. rewrite K in Hg. cbn in Hg. rewrite bseq_refl in Hg. discriminate.
  - split; [intros y Hy; right; exact Hy|]. intros y [<-|Hy]; [right; unfold it; lia|left; exact Hy].
  - intros n l lo Hn. apply Hfrom. lia.
Qed.

(** *** it.Out = nil; it.Add(e) *)
Lemma bind_var_at x v k o1 o2 : Forall (fun n => tname n <> Some x) o1 -> bind_var x v (o1 ++ Some (Node (VStr x) k) :: o2) = o1 ++ Some (Node (VStr x) v) :: o2.
Proof.
  induction o1 as [|n o1 IH]; intros H; cbn [app bind_var]; [rewrite bseq_refl; reflexivity|]. inversion H as [|? ? Hn H']; subst. rewrite (IH H').
  destruct n as [[w l]|]; [|reflexivity]. destruct w as [|sw| | | | | | | | |]; try reflexivity. destruct (bseq_spec sw x) as [->|]; [destruct (Hn eq_refl)|reflexivity].
Qed.
Lemma seens_names h P n l o x : seens h P n l o -> Forall (fun k => nameof h k <> Some x) l -> Forall (fun k => tname k <> Some x) o.
Proof.
  intros H. induction H as [|? l o H IH|? b g l o Hb H IH]; intros Hl; [constructor| |].
  - inversion Hl; subst. constructor; [discriminate|auto].
  - inversion Hl as [|? ? Hk Hl']; subst. constructor; [|auto]. rewrite <- (seen_name _ _ _ _ _ Hb). exact Hk.
Qed.
Lemma stored_app_inv b o1 k o2 : Forall (stored b) (o1 ++ k :: o2) -> Forall (stored b) o1 /\ stored b k /\ Forall (stored b) o2.
Proof. intros H. apply Forall_app in H. destruct H as (H1 & H2). inversion H2; subst. auto. Qed.
Definition assign_var (live : bool) (x : bytes) (ge : option graph) (g : graph) : graph := if live then Node (this g) (bind_var x (add_out (VPtr ge)) (out g)) else g.
Lemma bind_ok h hb d0 R g x it k (live : bool) e ge : inv h R g -> In it R -> nth_error h it = Some {| c_this := VStr x; c_out := k |} -> (if live then Live h x it else Dead h it) ->
  Fr hb h d0 -> (List.length hb <= it)%nat -> seen h (lvl R) 2 e ge -> stored false (Some ge) ->
  exists h', (do _ <- hClear (Some it); hAdd (Some it) (VPtr (Some e))) h = (h', Ok (Some e)) /\ List.length h' = List.length h /\
    inv h' R (assign_var live x (Some ge) g) /\ nth_error h' it = Some {| c_this := VStr x; c_out := [Some e] |} /\ (if live then Live h' x it else Dead h' it) /\ Fr hb h' d0 /\
    (forall n l lo, (2 <= n)%nat -> seens h (lvl R) n l lo -> seens h' (lvl R) n l lo).
Proof.
  intros Hi HitR Hit Hlv HF Hfr Hse Hste. pose proof Hi as (HR & _ & _). destruct (HR it HitR) as (Hlt & Hnc).
  set (c1 := {| c_this := VStr x; c_out := [] |} : cell). set (c2 := {| c_this := VStr x; c_out := [Some e] |} : cell). set (h1 := set_cell h it c1).
  assert (H1 : nth_error h1 it = Some c1) by (apply set_cell_same, Hlt). exists (set_cell h1 it c2). split.
  { cbn [hClear hAdd]. rewrite (mbind_ok _ _ _ _ _ _ _ (set_out_ok _ _ _ _ Hit)). cbn [c_this]. fold c1. fold h1. rewrite (mbind_ok _ _ _ _ _ _ _ (load_ok _ _ _ H1)). rewrite (mbind_ok _ _ _ _ _ _ _ (set_out_ok _ _ _ _ H1)). reflexivity. }
  set (h2 := set_cell h1 it c2). assert (Hl2 : List.length h2 = List.length h) by (unfold h2, h1; rewrite !set_cell_length; reflexivity).
  assert (H2 : nth_error h2 it = Some c2) by (apply set_cell_same; unfold h1; rewrite set_cell_length; exact Hlt).
  assert (Hu : forall a, a <> it -> nth_error h2 a = nth_error h a). { intros a Ha. unfold h2, h1. rewrite !set_cell_other by exact Ha. reflexivity. }
  assert (Hnm : forall k, nameof h2 k = nameof h k). { intros [a|]; [|reflexivity]. cbn. destruct (Nat.eq_dec a it) as [->|Ha]; [rewrite H2, Hit; reflexivity|rewrite (Hu a Ha); reflexivity]. }
  destruct (inv_cell _ _ _ Hi) as (ec & v & o & He & -> & Hv & Ho & Hd & Hs).
  assert (Hc2 : nth_error h2 c = Some ec) by (rewrite Hu by congruence; exact He).
  assert (Hfrom : (forall n a g, seen h (lvl R) n a g -> (2 <= n)%nat -> seen h2 (lvl R) n a g) /\ (forall n l lo, seens h (lvl R) n l lo -> (2 <= n)%nat -> seens h2 (lvl R) n l lo)).
  { apply seen_from. intros n a ca Hn Ha Hla. split; [|exact Hla]. rewrite Hu; [exact Ha|]. intros ->. destruct n as [|[|n]]; cbn in Hla; [lia|lia|]. apply Hla, HitR. }
  assert (Hflat : forall l lo, seens h (lvl R) 1 l lo -> ~ In (Some it) l -> seens h2 (lvl R) 1 l lo).
  { intros l lo H Hni. eapply seens_each; [exact H|]. intros b g Hbi Hb. inversion Hb as [? ? cb vb ob Hcb Hlb Hvb Hob]; subst. econstructor; [|exact Hlb|exact Hvb|apply Hfrom; [exact Hob|lia]].
    rewrite Hu; [exact Hcb|]. intros ->. apply Hni, Hbi. }
  split; [exact Hl2|]. split; [|split; [exact H2|split; [|split; [|intros n l lo Hn H; apply Hfrom; assumption]]]].
  - split; [intros y Hy; rewrite Hl2; apply HR, Hy|]. destruct live; cbn [assign_var].
    + destruct Hlv as (ec' & l1 & l2 & He' & Ho' & Hn). rewrite He in He'. injection He' as <-. rewrite Ho' in Ho. apply seens_split in Ho. destruct Ho as (o1 & o2' & -> & S1 & S2).
      inversion S2 as [| |? ? git ? o2 Sit S2']; subst. apply Forall_app_inv in Hn. destruct Hn as (Hn1 & Hn2). apply stored_app_inv in Hs. destruct Hs as (Hs1 & _ & Hs2).
      assert (Hgit : exists kk, git = Node (VStr x) kk). { inversion Sit as [? ? cc vv kk Hcc _ Hvv _]; subst. rewrite Hit in Hcc. injection Hcc as <-. cbn in Hvv. injection Hvv as <-. eauto. }
      destruct Hgit as (kk & ->). cbn [this out]. rewrite (bind_var_at x _ kk o1 o2) by (eapply seens_names; eassumption). cbn [add_out].
      assert (Hname : nameof h (Some it) = Some x) by (cbn; rewrite Hit; reflexivity).
      assert (Hno : forall l, Forall (fun k => nameof h k <> Some x) l -> ~ In (Some it) l). { intros l Hl K. rewrite Forall_forall in Hl. exact (Hl _ K Hname). }
      split; [|constructor; [exact Hd|apply Forall_app; split; [exact Hs1|constructor; [|exact Hs2]]; constructor; [exact I|constructor; [exact Hste|constructor]]]].
      econstructor; [exact Hc2|exact I|exact Hv|]. rewrite Ho'. apply seens_app; [apply Hflat; [exact S1|apply Hno, Hn1]|]. constructor; [|apply Hflat; [exact S2'|apply Hno, Hn2]].
      econstructor; [exact H2|exact Hnc|reflexivity|]. constructor; [|constructor]. apply Hfrom; [exact Hse|lia].
    + destruct Hlv as (ec' & He' & Hn). rewrite He in He'. injection He' as <-. split; [|constructor; assumption]. econstructor; [exact Hc2|exact I|exact Hv|]. apply Hflat; assumption.
  - destruct live.
    + destruct Hlv as (ec' & l1 & l2 & He' & Ho' & Hn). rewrite He in He'. injection He' as <-. exists ec, l1, l2. split; [exact Hc2|]. split; [exact Ho'|]. eapply Forall_impl; [|exact Hn]. intros kk. rewrite Hnm. auto.
    + destruct Hlv as (ec' & He' & Hn). rewrite He in He'. injection He' as <-. exists ec. auto.
  - destruct HF as (L & U & cb & ch & new & Hb & Hh & T & D & O & N). split; [lia|]. split; [intros a Ha Hac; rewrite Hu by lia; apply U; assumption|]. exists cb, ch, new. split; [exact Hb|].
    split; [congruence|]. split; [exact T|]. split; [exact D|]. split; [exact O|]. eapply Forall_impl; [|exact N]. intros kk (a & s & -> & Ha & Hsn & Hin). exists a, s. rewrite Hnm. auto.
Qed.

Section Loops.
Variable rec : option graph -> graph -> res pres_.
Variable hrec : option graph -> M (bytes * bool).
Definition Qp (x : bytes * bool) (y : pres_) (g : graph) (d : list bytes) : Prop := y = (g, fst x, d, snd x).
Definition Qo (x : bytes) (y : graph * bytes * list bytes) (g : graph) (d : list bytes) : Prop := y = (g, x, d).
Variable body : option graph.
Hypothesis Hrec : forall h R g, inv h R g -> tsim h R Qp (hrec body) (rec body g).

Lemma loop_ok x it l : forall lo hb h R g (live : bool) d0 k, inv h R g -> In it R -> nth_error h it = Some {| c_this := VStr x; c_out := k |} -> (if live then Live h x it else Dead h it) ->
  Fr hb h d0 -> (List.length hb <= it)%nat -> seens h (lvl R) 2 l lo -> Forall (stored false) lo ->
  exists h' r, hfor_loop hrec (Some it) body l h = (h', r) /\
    match r with
    | Ok o => exists g' d R', for_loop rec x body live lo g = Ok (g', o, d) /\ inv h' R' g' /\ grows h R R' /\ Fr hb h' (d0 ++ d)
    | Panic => for_loop rec x body live lo g = Panic /\ still hb h'
    | NoFuel => for_loop rec x body live lo g = NoFuel /\ still hb h'
    end.
Proof.
  induction l as [|e l IH]; intros lo hb h R g live d0 k Hi HitR Hit Hlv HF Hfr Hl Hst.
  - inversion Hl; subst. exists h, (Ok []). split; [reflexivity|]. exists g, [], R. rewrite app_nil_r. split; [reflexivity|]. split; [exact Hi|]. split; [apply grows_refl|exact HF].
  - inversion Hl as [|? ? lo' Hl'|? a ge ? lo' Ha Hl']; subst; inversion Hst as [|? ? Hse Hst']; subst; [inversion Hse; discriminate|].
    destruct (bind_ok h hb d0 R g x it k live a ge Hi HitR Hit Hlv HF Hfr Ha Hse) as (h1 & Hm1 & L1 & Hi1 & Hit1 & Hlv1 & HF1 & Hs1).
    destruct (Hrec h1 R _ Hi1) as (h2 & r2 & Hm2 & Hr2). cbn [hfor_loop for_loop].
    assert (Hrun : forall K : bytes * bool -> M bytes, mbind (hClear (Some it)) (fun _ => mbind (hAdd (Some it) (VPtr (Some a))) (fun _ => mbind (hrec body) K)) h = mbind (hrec body) K h1).
    { intros K. rewrite <- (mbind_ok _ _ _ (fun _ => mbind (hrec body) K) _ _ _ Hm1). unfold mbind. destruct (hClear (Some it) h) as [h' [u| |]]; try reflexivity. }
    rewrite Hrun. change (if live then Node (this g) (bind_var x (add_out (VPtr (Some ge))) (out g)) else g) with (assign_var live x (Some ge) g). unfold mbind at 1. rewrite Hm2. destruct (proj1 Hi it HitR) as (Hlt & Hnc).
    destruct r2 as [[o brk]| |].
    + destruct Hr2 as (y & g2 & d & R2 & E2 & Hq & Hi2 & Hg2 & HF2). unfold Qp in Hq. cbn [fst snd] in Hq. subst y. rewrite E2. cbn [rbind]. destruct brk.
      { exists h2, (Ok o). split; [reflexivity|]. exists g2, d, R2. split; [reflexivity|]. split; [exact Hi2|]. split; [eapply grows_trans; [|apply grows_refl|exact Hg2]; lia|eapply Fr_trans; eassumption]. }
      assert (Hit2 : nth_error h2 it = Some {| c_this := VStr x; c_out := [Some a] |}). { destruct HF2 as (_ & U & _). rewrite U by (assumption || lia). exact Hit1. }
      assert (Hlv2 : if live && negb (existsb (bseq x) d) then Live h2 x it else Dead h2 it).
      { destruct live; cbn [andb]; [|eapply Dead_Fr; [exact Hlv1|exact HF2|lia]]. pose proof (Live_Fr h1 h2 d x it Hlv1) as K. cbn [nameof] in K. rewrite Hit1 in K. specialize (K eq_refl HF2 ltac:(lia)). destruct (existsb (bseq x) d); exact K. }
      assert (Hl2 : seens h2 (lvl R2) 2 l lo').
      { apply Hs1 in Hl'; [|lia]. eapply (seen_from h1 h2 (lvl R) (lvl R2) 2); [|exact Hl'|lia]. intros n b cb Hn Hb Hlb. pose proof (nth_some_lt _ _ _ Hb). destruct n as [|[|n]]; [lia|lia|]. cbn in Hlb |- *. destruct Hlb as (B1 & B2).
        destruct HF2 as (_ & U & _). split; [rewrite U by assumption; exact Hb|]. split; [exact B1|]. intros K. apply Hg2 in K. destruct K as [K|K]; [exact (B2 K)|lia]. }
      destruct (IH lo' hb h2 R2 g2 (live && negb (existsb (bseq x) d)) (d0 ++ d) _ Hi2 (proj1 Hg2 _ HitR) Hit2 Hlv2 (Fr_trans _ _ _ _ _ HF1 HF2) Hfr Hl2 Hst') as (h3 & r3 & Hm3 & Hr3).
      unfold mbind. rewrite Hm3. destruct r3 as [o'| |].
      * destruct Hr3 as (g3 & d3 & R3 & E3 & Hi3 & Hg3 & HF3). rewrite E3. cbn [rbind ret]. exists h3, (Ok (o ++ o')). split; [reflexivity|]. exists g3, (d ++ d3), R3. split; [reflexivity|]. split; [exact Hi3|].
        split; [|rewrite app_assoc; exact HF3]. eapply (grows_trans h h2 R R2 R3); [destruct HF2; lia| |exact Hg3]. eapply (grows_trans h h1 R R R2); [lia|apply grows_refl|exact Hg2].
      * destruct Hr3 as (E3 & S3). rewrite E3. exists h3, Panic. auto.
      * destruct Hr3 as (E3 & S3). rewrite E3. exists h3, NoFuel. auto.
    + destruct Hr2 as (E2 & S2). rewrite E2. exists h2, Panic. split; [reflexivity|]. split; [reflexivity|eapply Fr_still; eassumption].
    + destruct Hr2 as (E2 & S2). rewrite E2. exists h2, NoFuel. split; [reflexivity|]. split; [reflexivity|eapply Fr_still; eassumption].
Qed.
End Loops.

(** ** The nodes of a template *)
Section Nodes.
Variable E : env.
Variable f : nat.
Hypothesis Hf : (1 <= f)%nat.
Variable C : calls.
Variable hC : hcalls.
Hypothesis Hjson : forall g, hto_json hC g = to_json C g.
Variable rec : option graph -> graph -> res pres_.
Variable hrec : option graph -> M (bytes * bool).
Definition tmpl (t : option graph) : Prop := quiet E t /\ worded t /\ guarded E t.
Hypothesis Hrec : forall t h R g, inv h R g -> tmpl t -> tsim h R Qp (hrec t) (rec t g).

Lemma tmpl_GetAt n i e : tmpl n -> GetAt n i = Ok e -> tmpl e.
Proof. intros (H1 & H2 & H3) H. split; [eapply quiet_GetAt; eassumption|]. split; [eapply worded_GetAt; eassumption|eapply guarded_GetAt; eassumption]. Qed.

Lemma ev_ok h R g e : inv h R g -> quiet E e -> worded e -> simg g h reseen (hEval E f hC c e) (Eval E C f g e).
Proof.
  intros Hi. pose proof Hi as (_ & Hs & Hg). apply (simg_hEval E f Hf C hC Hjson (lvl R) (lvl_up R) h (fun n x => lvl_fresh h R g n x Hi) c g Hs false Hg).
Qed.
Lemma ev_bool_ok h R g e : inv h R g -> quiet E e -> worded e -> simg g h (fun _ x y => x = y) (hevalBool E f hC c e) (evalBool E C f g e).
Proof.
  intros Hi. pose proof Hi as (_ & Hs & Hg). apply (simg_hevalBool E f Hf C hC Hjson (lvl R) (lvl_up R) h (fun n x => lvl_fresh h R g n x Hi) c g Hs false Hg).
Qed.
Lemma ev_trail_ok h R g e : inv h R g -> quiet E e -> worded e -> trail E e -> simg g h (fun h' x y => reseen h' x y /\ hlist (lvl R) false h' x) (hEval E f hC c e) (Eval E C f g e).
Proof.
  intros Hi. pose proof Hi as (_ & Hs & Hg). apply (simg_hEval_trail E f Hf C hC Hjson (lvl R) (lvl_up R) h (fun n x => lvl_fresh h R g n x Hi) c g Hs false Hg).
Qed.

Lemma list_ok h R a gi d first rest s : seen h any 0 a gi -> listable (lvl R) false h (VPtr (Some a)) -> nth_error h a = Some d -> c_out d = first :: rest ->
  (forall v, plain (c_this d) = Some v -> vstring E v = Ok s) ->
  exists gl cl gfirst grest lo, out gi = gfirst :: grest /\ (if bseq s (bs "[") then deref first else ret a) h = (h, Ok gl) /\ nth_error h gl = Some cl /\ gl <> c /\
    (if bseq s (bs "[") then match gfirst with Some g => Ok (out g) | None => Panic end else Ok (out gi)) = Ok lo /\ seens h (lvl R) 2 (c_out cl) lo /\ Forall (stored false) lo.
Proof.
  intros Hs Hl Hd Ho Hsv. destruct (Hl a eq_refl) as [(g & Hg & Hst)|(b & g & Hc & Hg & Hst)].
  - assert (gi = g). { eapply shows_fun; [eapply seen_shows2, Hg|eapply seen_shows2, Hs]. } subst g. inversion Hg as [? ? e v o He Hla Hv Hk]; subst. rewrite Hd in He. injection He as <-. rewrite Ho in Hk. cbn [out] in *.
    destruct (bseq s (bs "[")).
    + inversion Hk as [|? ? o' Hk'|? x gx ? o' Hx Hk']; subst; inversion Hst as [|? ? Hs1 Hs2]; subst; [inversion Hs1; discriminate|]. inversion Hx as [? ? cx vx ox Hcx Hlx Hvx Hox]; subst.
      exists x, cx, (Some (Node vx ox)), o', ox. split; [reflexivity|]. split; [reflexivity|]. split; [exact Hcx|]. split; [apply Hlx|]. split; [reflexivity|].
      split; [eapply (proj2 (seen_up2 h (lvl R) (lvl_up R))); [exact Hox|reflexivity]|eapply stored_out, Hs1].
    + inversion Hk as [|? ? o' Hk'|? x gx ? o' Hx Hk']; subst; eexists a, d, _, _, _; (split; [reflexivity|]); (split; [reflexivity|]); (split; [exact Hd|]); (split; [exact Hla|]); (split; [reflexivity|]); (split; [rewrite Ho; exact Hk|exact Hst]).
  - rewrite Hd in Hc. injection Hc as ->. cbn [c_out c_this] in *. injection Ho as <- <-. specialize (Hsv _ eq_refl). cbn in Hsv. injection Hsv as <-.
    inversion Hs as [? ? e v o He _ Hv Hk]; subst. rewrite Hd in He. injection He as <-. cbn [c_out] in Hk. inversion Hk as [| |? x gx ? o' Hx Hk']; subst. inversion Hk'; subst.
    assert (gx = g). { eapply shows_fun; [eapply seen_shows2, Hg|eapply seen_shows2, Hx]. } subst gx. inversion Hg as [? ? cb vb ob Hcb Hlb Hvb Hob]; subst.
    exists b, cb, (Some (Node vb ob)), [], ob. split; [reflexivity|]. split; [reflexivity|]. split; [exact Hcb|]. split; [exact Hlb|]. split; [reflexivity|]. split; [exact Hob|exact Hst].
Qed.

Lemma for_ok h R g n : inv h R g -> tmpl (Some n) -> ThisString E (Some n) = Ok TypeFor -> tsim h R Qo (hdo_for E f hC c hrec n) (do_for E C f rec n g).
Proof.
  intros Hi Ht Hn. unfold hdo_for, do_for. apply tsim_lift. intros a Ha. apply tsim_lift. intros e He.
  assert (Hta : tmpl a) by (eapply tmpl_GetAt; eassumption). assert (Hte : tmpl e) by (eapply tmpl_GetAt; eassumption).
  assert (Htr : trail E e). { destruct Ht as (_ & _ & Hg). inversion Hg as [|? ? H1 _]; subst. eapply H1; eassumption. }
  eapply tsim_eval; [exact Hi|apply (ev_trail_ok h R g e Hi (proj1 Hte) (proj1 (proj2 Hte)) Htr)|]. intros h1 r y Hx Hi1 (Hr & Hl). cbn beta iota.
  destruct r as [v|er], y as [w|er']; cbn [reseen] in Hr; try contradiction; [|apply (tsim_ret h1 R g); [exact Hi1|reflexivity]].
  destruct Hr as [v w Hp|gi ggi Hsee].
  { destruct v as [| | | | | | |[p|]| | |]; cbn in Hp; try discriminate; injection Hp as <-; apply (tsim_ret h1 R g); try exact Hi1; reflexivity. }
  cbn [hlist] in Hl. pose proof Hsee as Hsee0. inversion Hsee as [? ? d vd od Hd _ Hvd Hod]; subst. eapply tsim_step; [apply (load_ok _ _ _ Hd)|].
  destruct (c_out d) as [|first rest] eqn:Hout. { inversion Hod; subst. apply (tsim_ret h1 R g); [exact Hi1|reflexivity]. }
  assert (Hoo : exists gf gr, out (Node vd od) = gf :: gr) by (inversion Hod; subst; cbn [out]; do 2 eexists; reflexivity). destruct Hoo as (gf & gr & Hgo). rewrite Hgo. cbn [ThisString this hThisString].
  assert (HTS : hThisString E f (Some gi) h1 = (h1, vstring E vd)). { cbn [hThisString]. rewrite (mbind_ok _ _ _ _ _ _ _ (load_ok _ _ _ Hd)). apply hstring_plain, Hvd. }
  destruct (vstring E vd) as [s| |] eqn:Evs.
  2:{ exists h1, Panic. split; [unfold mbind; rewrite (load_ok _ _ _ Hd), (hstring_plain E f h1 _ _ Hvd), Evs; reflexivity|]. split; [reflexivity|intros ? _ _; reflexivity]. }
  2:{ exists h1, NoFuel. split; [unfold mbind; rewrite (load_ok _ _ _ Hd), (hstring_plain E f h1 _ _ Hvd), Evs; reflexivity|]. split; [reflexivity|intros ? _ _; reflexivity]. }
  eapply tsim_step; [exact HTS|]. cbn [rbind].
  destruct (list_ok h1 R gi _ d first rest s Hsee0 Hl Hd Hout) as (gl & cl & gf' & gr' & lo & Hgo' & Hde & Hcl & Hglc & Hlo & Hse & Hst).
  { intros v' Hv'. rewrite Hvd in Hv'. injection Hv' as <-. exact Evs. }
  rewrite Hgo in Hgo'. injection Hgo' as <- <-. rewrite Hgo in Hlo. eapply tsim_step; [exact Hde|]. rewrite Hlo. cbn [rbind].
  apply tsim_lift. intros b Hb. apply tsim_lift. intros p Hpp. apply tsim_lift. intros x Hxx. destruct g as [vg og].
  destruct (variable_ok E h1 R vg og x Hi1) as (h2 & Hm2 & HD & Hi2 & HF2 & Hlv2 & Hit2 & Hg2 & Hse2). rewrite HD. cbn [rbind this out].
  destruct (GetAt (Some n) 1) as [body| |] eqn:Eb; [| destruct n; cbn in Eb; destruct (_ || _) in Eb; discriminate..]. cbn [rbind].
  assert (Hcl2 : nth_error h2 gl = Some cl). { destruct HF2 as (_ & U & _). rewrite U; [exact Hcl|eapply nth_some_lt, Hcl|exact Hglc]. }
  assert (Htb : tmpl body) by exact (tmpl_GetAt _ _ _ Ht Eb).
  destruct (loop_ok rec hrec body (fun h R g Hi => Hrec body h R g Hi Htb) x (List.length h1) (c_out cl) lo h1 h2 _ _ true [x] [] Hi2 (or_introl eq_refl) Hit2 Hlv2 HF2 (le_n _) (Hse2 2%nat _ _ (le_n _) Hse) Hst) as (h3 & r3 & Hm3 & Hr3).
  exists h3, r3. split.
  - assert (Hrun : forall K : option addr -> M bytes, mbind (hDelete (Some c) (VStr x)) (fun _ => mbind (hAdd (Some c) (VStr x)) K) h1 = K (Some (List.length h1)) h2).
    { intros K. rewrite <- (mbind_ok _ _ _ K _ _ _ Hm2). unfold mbind. destruct (hDelete (Some c) (VStr x) h1) as [h' [u| |]]; reflexivity. }
    rewrite Hrun. rewrite (mbind_ok _ _ _ _ _ _ _ eq_refl), (mbind_ok _ _ _ _ _ _ _ (load_ok _ _ _ Hcl2)). exact Hm3.
  - destruct r3 as [o| |].
    + destruct Hr3 as (g3 & d3 & R3 & E3 & Hi3 & Hg3 & HF3). rewrite E3. cbn [rbind]. exists (g3, o, x :: d3), g3, (x :: d3), R3. split; [reflexivity|]. split; [reflexivity|]. split; [exact Hi3|]. split; [|exact HF3].
      eapply grows_trans; [apply HF2|exact Hg2|exact Hg3].
    + destruct Hr3 as (E3 & S3). rewrite E3. split; [reflexivity|exact S3].
    + destruct Hr3 as (E3 & S3). rewrite E3. split; [reflexivity|exact S3].
Qed.

Definition Qi (x : bytes * bool) (y : graph * bytes * list bytes * bool) (g : graph) (d : list bytes) : Prop := y = (g, fst x, d, snd x).
Lemma if_ok h R g n : inv h R g -> tmpl (Some n) -> tsim h R Qi (hdo_if E f hC c hrec n) (do_if E C f rec n g).
Proof.
  intros Hi Ht. unfold hdo_if, do_if. apply tsim_lift. intros a Ha. apply tsim_lift. intros e He.
  assert (Hta : tmpl a) by (eapply tmpl_GetAt; eassumption). assert (Hte : tmpl e) by (eapply tmpl_GetAt; eassumption).
  eapply tsim_eval; [exact Hi|apply (ev_bool_ok h R g e Hi (proj1 Hte) (proj1 (proj2 Hte)))|]. intros h1 r y Hx Hi1 <-. cbn beta iota. destruct r; [|apply (tsim_ret h1 R g); [exact Hi1|reflexivity]].
  apply tsim_lift. intros body Hb. eapply tsim_bind; [apply Hrec; [exact Hi1|exact (tmpl_GetAt _ _ _ Ht Hb)]|]. intros h2 R2 g2 d2 [o brk] y Hi2 Hq _ _. unfold Qp in Hq. cbn [fst snd] in Hq. subst y. cbn beta iota.
  apply (tsim_ret h2 R2 g2); [exact Hi2|]. rewrite app_nil_r. reflexivity.
Qed.

Lemma text_ok h v w : vseen h v w -> htext_of E f v h = (h, text_of E w).
Proof.
  intros [v' w' H|a g H].
  - destruct v' as [| | | | | | |[p|]| | |]; cbn in H; try discriminate; injection H as <-; try reflexivity; cbn [htext_of text_of]; apply hstring_plain; reflexivity.
  - cbn [htext_of text_of]. rewrite (mbind_ok _ _ _ _ _ _ _ (hgraph_seen _ _ _ _ _ H)). reflexivity.
Qed.

Lemma go_ok h R m t l yes : tsim h R Qo m t -> (forall h R g, inv h R g -> tsim h R Qp (hprocess_nodes E f hC c hrec l yes) (process_nodes E C f rec l yes g)) ->
  tsim h R Qp (do o <- m; do (o', brk) <- hprocess_nodes E f hC c hrec l yes; ret (o ++ o', brk))
    (let* (c, o, d) := t in let* (c, o', d', brk) := process_nodes E C f rec l yes c in Ok (c, o ++ o', d ++ d', brk)).
Proof.
  intros Hm Hl. eapply tsim_bind; [exact Hm|]. intros h1 R1 g1 d1 o y Hi1 Hq _ _. unfold Qo in Hq. subst y. cbn beta iota.
  eapply tsim_bind; [apply Hl, Hi1|]. intros h2 R2 g2 d2 [o' brk] y Hi2 Hq _ _. unfold Qp in Hq. cbn [fst snd] in Hq. subst y. cbn beta iota.
  apply (tsim_ret h2 R2 g2); [exact Hi2|]. rewrite app_nil_r. reflexivity.
Qed.
Lemma nodes_ok l : Forall tmpl l -> forall yes h R g, inv h R g -> tsim h R Qp (hprocess_nodes E f hC c hrec l yes) (process_nodes E C f rec l yes g).
Proof.
  induction l as [|n l IH]; intros Hl yes h R g Hi. { apply (tsim_ret h R g); [exact Hi|reflexivity]. }
  inversion Hl as [|? ? Hn Hl']; subst. specialize (IH Hl'). destruct n as [n|]; [|exact (IH yes h R g Hi)]. cbn [hprocess_nodes process_nodes]. apply tsim_lift. intros s Hs.
  assert (Hnil : tsim h R Qo (ret []) (Ok (g, [], []))) by (apply (tsim_ret h R g); [exact Hi|reflexivity]).
  destruct (bseq s TypePath).
  { apply go_ok; [|apply IH]. eapply tsim_eval; [exact Hi|apply (ev_ok h R g _ Hi (proj1 Hn) (proj1 (proj2 Hn)))|]. intros h1 r y _ Hi1 Hr. cbn beta iota.
    assert (Hv : vseen h1 (match r with HVal v => v | HErr _ => VNil end) (match y with EVal v => v | EErr _ => VNil end)) by (destruct r, y; cbn in Hr; try contradiction; [exact Hr|apply vs_plain; reflexivity]).
    pose proof (text_ok _ _ _ Hv) as Ht. destruct (text_of E (match y with EVal v => v | EErr _ => VNil end)) as [t| |]; cbn [rbind].
    - exists h1, (Ok t). split; [exact Ht|]. exists (g, t, []), g, [], R. split; [reflexivity|]. split; [reflexivity|]. split; [exact Hi1|]. split; [apply grows_refl|eapply Fr_ext; [exact Hi1|apply extends_refl]].
    - exists h1, Panic. split; [exact Ht|]. split; [reflexivity|intros ? _ _; reflexivity].
    - exists h1, NoFuel. split; [exact Ht|]. split; [reflexivity|intros ? _ _; reflexivity]. }
  destruct (bseq s TypeExpression).
  { apply go_ok; [|apply IH]. eapply tsim_eval; [exact Hi|apply (ev_ok h R g _ Hi (proj1 Hn) (proj1 (proj2 Hn)))|]. intros h1 r y _ Hi1 Hr. apply (tsim_ret h1 R g); [exact Hi1|reflexivity]. }
  destruct (_ || _).
  { eapply tsim_bind; [apply if_ok; assumption|]. intros h1 R1 g1 d1 [o b] y Hi1 Hq _ _. unfold Qi in Hq. cbn [fst snd] in Hq. subst y. cbn beta iota.
    change (tsim h1 R1 (fun x' y' g2 d2 => Qp x' y' g2 (d1 ++ d2)) (do o0 <- ret o; do (o', brk) <- hprocess_nodes E f hC c hrec l b; ret (o0 ++ o', brk)) (let* (c0, o', d', brk) := process_nodes E C f rec l b g1 in Ok (c0, o ++ o', d1 ++ d', brk))).
    eapply tsim_step; [reflexivity|]. eapply tsim_bind; [apply IH, Hi1|]. intros h2 R2 g2 d2 [o' brk] y Hi2 Hq _ _. unfold Qp in Hq. cbn [fst snd] in Hq. subst y. cbn beta iota.
    apply (tsim_ret h2 R2 g2); [exact Hi2|]. rewrite app_nil_r. reflexivity. }
  destruct (bseq s TypeElseIf). { apply go_ok; [exact Hnil|apply IH]. }
  destruct (bseq s TypeElse).
  { apply go_ok; [|apply IH]. destruct yes; [exact Hnil|]. apply tsim_lift. intros t Ht. eapply tsim_bind; [apply Hrec; [exact Hi|exact (tmpl_GetAt _ _ _ Hn Ht)]|]. intros h1 R1 g1 d1 [o brk] y Hi1 Hq _ _. unfold Qp in Hq. cbn [fst snd] in Hq. subst y. cbn beta iota.
    apply (tsim_ret h1 R1 g1); [exact Hi1|]. rewrite app_nil_r. reflexivity. }
  destruct (bseq_spec s TypeFor) as [->|]. { apply go_ok; [apply for_ok; assumption|apply IH]. }
  destruct (bseq s TypeBreak). { apply (tsim_ret h R g); [exact Hi|reflexivity]. }
  apply go_ok; [|apply IH]. apply (tsim_ret h R g); [exact Hi|reflexivity].
Qed.
End Nodes.

Section Templates.
Variable E : env.
Variable f : nat.
Hypothesis Hf : (1 <= f)%nat.
Variable C : calls.
Variable hC : hcalls.
Hypothesis Hjson : forall g, hto_json hC g = to_json C g.
Lemma tmpl_all v o : tmpl E (Some (Node v o)) -> Forall (tmpl E) o.
Proof.
  intros (H1 & H2 & H3). apply quiet_all in H1. apply worded_out in H2. inversion H3 as [|? ? _ H4]; subst. cbn [out] in *. rewrite Forall_forall in *. intros e He. split; [auto|]. split; auto.
Qed.
Lemma process_ok d : forall t h R g, inv h R g -> tmpl E t -> tsim h R Qp (hprocess E f hC d c t) (process E C f d t g).
Proof.
  induction d as [|d IH]; intros t h R g Hi Ht; cbn [hprocess process]; [apply tsim_fuel|]. destruct t as [[v o]|]; [|apply (tsim_ret h R g); [exact Hi|reflexivity]].
  apply nodes_ok; try assumption. eapply tmpl_all. exact Ht.
Qed.
End Templates.
End Context.
