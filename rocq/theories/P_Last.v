(** C99: the last value that is set counts. *)
From Verif Require Import Base Value Graph GraphSpec GraphFacts PathParser PathSpec PathFacts Eval AccessSpec AccessFacts P_Access Samples.

(** Values whose contents have a string form; of a graph, all of them. *)
Definition settable (E : env) (v : value graph) : Prop := match v with VPtr (Some c) => whole E c | v => exists x, vstring E v = Ok x end.

Lemma nth_error_ext {A} : forall a b : list A, (forall j, nth_error a j = nth_error b j) -> a = b.
Proof.
  induction a as [|x a IH]; intros [|y b] H; [reflexivity|discriminate (H O)|discriminate (H O)|]. f_equal; [specialize (H O); cbn in H; congruence|]. apply IH. intros j. exact (H (S j)).
Qed.
Lemma whole_intro E g : (exists s, vstring E (this g) = Ok s) -> (forall c, In c (out g) -> exists n, c = Some n /\ whole E n) -> whole E g.
Proof.
  destruct g as [t o]. cbn [this out]. intros Ht Ho. assert (exists k, o = map Some k /\ Forall (whole E) k) as (k & -> & Hk).
  { induction o as [|c o IH]; [exists []; split; [reflexivity|constructor]|]. destruct IH as (k & -> & Hk); [intros d Hd; apply Ho; right; exact Hd|]. destruct (Ho c (or_introl eq_refl)) as (n & -> & Hn). exists (n :: k). split; [reflexivity|constructor; assumption]. }
  constructor; assumption.
Qed.
Lemma whole_elim E g : whole E g -> (exists s, vstring E (this g) = Ok s) /\ forall c, In c (out g) -> exists n, c = Some n /\ whole E n.
Proof.
  intros H. destruct (all_nodes_inv _ _ H) as (v & k & -> & Hv & Hk). split; [exact Hv|]. intros c Hc. cbn [out] in Hc. apply in_map_iff in Hc as (n & <- & Hn). exists n. split; [reflexivity|]. rewrite Forall_forall in Hk. apply Hk, Hn.
Qed.
Lemma contents_whole E v c : settable E v -> In c (contents v) -> exists n, c = Some n /\ whole E n.
Proof.
  intros Hv Hc. assert (H1 : forall w : value graph, (exists x, vstring E w = Ok x) -> whole E (Node w [])) by (intros w Hw; apply whole_intro; [exact Hw|intros d []]).
  destruct v as [| | | | | | |[g|]| | |]; cbn [contents settable] in *; try (destruct Hc as [<-|[]]; eexists; split; [reflexivity|]; apply H1; exact Hv); [destruct Hc|]. apply (proj2 (whole_elim E g Hv)), Hc.
Qed.
Lemma changed_whole E v ps g g' : settable E v -> changed E (replaced v) ps g g' -> whole E g -> whole E g'.
Proof.
  intros Hv. induction 1 as [g g' [Ht Ho]|s ps t o o' i c c' Hf _ IH Hl Hi Hj|s ps t o c' Hn _ IH]; intros Hg; destruct (whole_elim _ _ Hg) as [H1 H2]; cbn [this out] in *.
  - apply whole_intro; [rewrite Ht; exact H1|]. rewrite Ho. intros c. apply contents_whole, Hv.
  - apply whole_intro; [exact H1|]. cbn [out]. intros d Hd. apply In_nth_error in Hd as (j & Hd). destruct (Nat.eq_dec j i) as [->|Hne].
    + rewrite Hi in Hd. injection Hd as <-. eexists. split; [reflexivity|]. apply IH. destruct Hf as (Hc & _). apply nth_error_In in Hc. destruct (H2 _ Hc) as (n & [= <-] & Hw). exact Hw.
    + rewrite Hj in Hd by exact Hne. apply H2. eapply nth_error_In, Hd.
  - apply whole_intro; [exact H1|]. cbn [out]. intros d Hd. apply in_app_or in Hd as [Hd|[<-|[]]]; [apply H2, Hd|]. eexists. split; [reflexivity|]. apply IH. apply whole_intro; [eexists; reflexivity|intros x []].
Qed.
Lemma first_one E s o i c j d : first_named E s o i c -> first_named E s o j d -> i = j /\ c = d.
Proof.
  intros (H1 & H2 & H3) (G1 & G2 & G3). assert (i = j) as ->. { destruct (Nat.lt_trichotomy i j) as [H|[H|H]]; [exfalso; exact (G3 _ _ H H1 H2)|exact H|exfalso; exact (H3 _ _ H G1 G2)]. }
  split; [reflexivity|]. congruence.
Qed.
Lemma first_none E s o i c : first_named E s o i c -> none_named E s o -> False.
Proof. intros (H1 & H2 & _) Hn. unfold none_named in Hn. rewrite Forall_forall in Hn. exact (Hn _ (nth_error_In _ _ H1) H2). Qed.
Lemma changed_one E w ps g a : changed E (replaced w) ps g a -> forall b, changed E (replaced w) ps g b -> a = b.
Proof.
  induction 1 as [g a [Ht Ho]|s ps t o o' i c c' Hf _ IH Hl Hi Hj|s ps t o c' Hn _ IH]; intros b Hb.
  - inversion Hb as [? ? [Ht' Ho']| |]; subst. destruct a as [ta oa], b as [tb ob]. cbn [this out] in *. congruence.
  - inversion Hb as [|? ? ? ? o2 i2 c2 c2' Hf2 Hc2 Hl2 Hi2 Hj2|? ? ? ? ? Hn2]; subst; [|destruct (first_none _ _ _ _ _ Hf Hn2)].
    destruct (first_one _ _ _ _ _ _ _ Hf Hf2) as [<- <-]. rewrite <- (IH _ Hc2) in Hi2. f_equal. apply nth_error_ext. intros j. destruct (Nat.eq_dec j i) as [->|Hne]; [congruence|]. rewrite Hj, Hj2 by exact Hne. reflexivity.
  - inversion Hb as [|? ? ? ? o2 i2 c2 c2' Hf2|? ? ? ? c2 Hn2 Hc2]; subst; [destruct (first_none _ _ _ _ _ Hf2 Hn)|]. rewrite (IH _ Hc2). reflexivity.
Qed.
Lemma changed_twice E v w ps : forall qs g g1 g2, changed E (replaced v) (ps ++ qs) g g1 -> changed E (replaced w) ps g1 g2 -> changed E (replaced w) ps g g2.
Proof.
  assert (Hk : keeps (replaced v)) by (intros n n' [H _]; exact H).
  induction ps as [|s ps IH]; intros qs g g1 g2 H1 H2.
  - inversion H2 as [? ? [Ht Ho]| |]; subst. apply changed_here. split; [|exact Ho]. rewrite Ht. exact (changed_this E _ _ _ _ Hk H1).
  - cbn [app] in H1. inversion H1 as [|? ? t o o1 i c c1 Hf Hc Hl Hi Hj|? ? t o c1 Hn Hc]; subst; pose proof (changed_this E _ _ _ _ Hk Hc) as Ht.
    + assert (Hf1 : first_named E s o1 i c1).
      { destruct Hf as (F1 & (m & [= <-] & F2) & F3). split; [exact Hi|]. split; [exists c1; split; [reflexivity|rewrite Ht; exact F2]|]. intros j d Hji Hd. apply (F3 j d Hji). rewrite <- (Hj j); [exact Hd|lia]. }
      inversion H2 as [|? ? ? ? o2 i2 c2 c2' Hf2 Hc2 Hl2 Hi2 Hj2|? ? ? ? ? Hn2]; subst; [|destruct (first_none _ _ _ _ _ Hf1 Hn2)].
      destruct (first_one _ _ _ _ _ _ _ Hf1 Hf2) as [<- <-]. eapply changed_found; [exact Hf|exact (IH _ _ _ _ Hc Hc2)|congruence|exact Hi2|]. intros j Hne. rewrite Hj2, Hj by exact Hne. reflexivity.
    + assert (Hf1 : first_named E s (o ++ [Some c1]) (List.length o) c1).
      { split; [rewrite nth_error_app2, Nat.sub_diag by lia; reflexivity|]. split; [exists c1; split; [reflexivity|rewrite Ht; reflexivity]|]. intros j d Hjl Hd. rewrite nth_error_app1 in Hd by exact Hjl. unfold none_named in Hn. rewrite Forall_forall in Hn. apply Hn. eapply nth_error_In, Hd. }
      inversion H2 as [|? ? ? ? o2 i2 c2 c2' Hf2 Hc2 Hl2 Hi2 Hj2|? ? ? ? ? Hn2]; subst; [|destruct (first_none _ _ _ _ _ Hf1 Hn2)].
      destruct (first_one _ _ _ _ _ _ _ Hf1 Hf2) as [<- <-]. replace o2 with (o ++ [Some c2']); [apply changed_new; [exact Hn|exact (IH _ _ _ _ Hc Hc2)]|].
      apply nth_error_ext. intros j. destruct (Nat.eq_dec j (List.length o)) as [->|Hne]; [rewrite Hi2, nth_error_app2, Nat.sub_diag by lia; reflexivity|]. rewrite Hj2 by exact Hne.
      destruct (Nat.lt_ge_cases j (List.length o)) as [Hlt|Hge]; [rewrite !nth_error_app1 by exact Hlt; reflexivity|]. rewrite (proj2 (nth_error_None _ _)), (proj2 (nth_error_None _ _)); [reflexivity|rewrite app_length; cbn; lia..].
Qed.

(** ** C99 Set(p,w) after Set(p,v), or after Set of a path below p, gives what Set(p,w) gives alone. *)
Theorem C99_last : forall E f g ps qs v w g1 r1, Forall (name E) (ps ++ qs) -> ps <> [] -> fits f (path ps) -> fits f (path (ps ++ qs)) -> whole E g -> settable E v ->
  Set_ E f (Some g) (path (ps ++ qs)) v = Ok (g1, r1) -> exists g2 r2 r, Set_ E f g1 (path ps) w = Ok (g2, r2) /\ Set_ E f (Some g) (path ps) w = Ok (g2, r).
Proof.
  intros E f g ps qs v w g1 r1 Hn Hne Hf Hf' Hg Hv H. assert (Hps : Forall (name E) ps) by (apply Forall_app in Hn; tauto).
  destruct (C31_set_partial E (ps ++ qs) f g v Hn) as (a & ra & Ha & Ca); [destruct ps; [congruence|discriminate]|exact Hf'|exact Hg|]. rewrite Ha in H. injection H as <- <-.
  destruct (C31_set_partial E ps f a w Hps Hne Hf (changed_whole _ _ _ _ _ Hv Ca Hg)) as (b & rb & Hb & Cb). destruct (C31_set_partial E ps f g w Hps Hne Hf Hg) as (c & rc & Hc & Cc).
  exists (Some c), rb, rc. split; [|exact Hc]. rewrite Hb. do 3 f_equal. apply (changed_one E w ps g); [exact (changed_twice _ _ _ _ _ _ _ _ Ca Cb)|exact Cc].
Qed.
Print Assumptions C99_last.
(** In particular setting the same again changes nothing. *)
Theorem C99_again : forall E f g ps v g1 r1, Forall (name E) ps -> ps <> [] -> fits f (path ps) -> whole E g -> settable E v ->
  Set_ E f (Some g) (path ps) v = Ok (g1, r1) -> exists r, Set_ E f g1 (path ps) v = Ok (g1, r).
Proof.
  intros E f g ps v g1 r1 Hn Hne Hf Hg Hv H. destruct (C99_last E f g ps [] v v g1 r1) as (g2 & r2 & r & H1 & H2); try rewrite app_nil_r; try assumption.
  rewrite H in H2. injection H2 as <- <-. exists r2. exact H1.
Qed.
Print Assumptions C99_again.

(** The order of Sets of different names can be seen: new names are added last. *)
Theorem C99_order_refuted : exists E f g p q v w g1 r1 g12 r12 g2 r2 g21 r21, whole E g /\ p <> q /\ Set_ E f (Some g) p v = Ok (g1, r1) /\ Set_ E f g1 q w = Ok (g12, r12) /\
  Set_ E f (Some g) q w = Ok (g2, r2) /\ Set_ E f g2 p v = Ok (g21, r21) /\ g12 <> g21.
Proof.
  exists env0, 9%nat, (nd "r" []), (bs "a"), (bs "b"), (VStr (bs "1")), (VStr (bs "2")). do 8 eexists.
  split; [apply (all_node _ _ []); [eexists; reflexivity|constructor]|]. split; [discriminate|].
  assert (Ha : Forall (name env0) [bs "a"]) by ascii_names. assert (Hb : Forall (name env0) [bs "b"]) by ascii_names.
  assert (Fa : fits 9 (path_text (map Name [bs "a"]))) by (split; cbn; lia). assert (Fb : fits 9 (path_text (map Name [bs "b"]))) by (split; cbn; lia).
  change (bs "a") with (path_text (map Name [bs "a"])). change (bs "b") with (path_text (map Name [bs "b"])).
  split; [rewrite Set_eq; [reflexivity|apply names_ok; exact Ha|discriminate|exact Fa]|]. split; [rewrite Set_eq; [reflexivity|apply names_ok; exact Hb|discriminate|exact Fb]|].
  split; [rewrite Set_eq; [reflexivity|apply names_ok; exact Hb|discriminate|exact Fb]|]. split; [rewrite Set_eq; [reflexivity|apply names_ok; exact Ha|discriminate|exact Fa]|]. discriminate.
Qed.
Print Assumptions C99_order_refuted.

Example C99_ex : Forall (name env0) ([bs "b"] ++ [bs "c"]) /\ fits 9 (path [bs "b"]) /\ fits 9 (path ([bs "b"] ++ [bs "c"])) /\ whole env0 ex_root /\ settable env0 (VInt KInt 7) /\
  (exists g1 r1, Set_ env0 9 (Some ex_root) (path ([bs "b"] ++ [bs "c"])) (VInt KInt 7) = Ok (g1, r1) /\ g1 <> Some ex_root) /\
  exists r, Set_ env0 9 (Some ex_root) (path [bs "b"]) (VStr (bs "z")) = Ok (Some (nd "r" [nd "a" [nd "1" []]; nd "b" [nd "z" []]; nd "b" []]), r).
Proof.
  assert (Hb : Forall (name env0) [bs "b"]) by ascii_names. assert (Fb : fits 9 (path [bs "b"])) by (split; cbn; lia).
  split; [exact (proj1 ex_names_ok)|]. split; [exact Fb|]. split; [exact (proj2 ex_names_ok)|]. split; [exact (data_whole _ _ ex_root_data)|]. split; [eexists; reflexivity|]. unfold path in *. split.
  - do 2 eexists. split; [rewrite Set_eq; [reflexivity|apply names_ok; exact (proj1 ex_names_ok)|discriminate|exact (proj2 ex_names_ok)]|]. discriminate.
  - eexists. rewrite Set_eq; [reflexivity|apply names_ok; exact Hb|discriminate|exact Fb].
Qed.
