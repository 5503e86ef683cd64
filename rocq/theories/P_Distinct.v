(** C88: Text(), Binary() and Equals distinguish the same documents. *)
From Verif Require Import Base Value Event EventSpec EventFacts Graph GraphSpec GraphFacts Binary BinarySpec BinaryFacts BinaryFacts2 TextSpec TextParser Stream Buffer BufferSpec Emit EmitSpec EmitFacts CmdFacts P_Binary P_Emit P_Graph P_Formats Samples.

Definition survives (f : list tree) : Prop := Forall (fun e => text_content (fst e) (snd e)) (pres 0 f).

Lemma gtree_inj : forall t t', gtree t = gtree t' -> t = t'.
Proof.
  fix IH 1. intros [s k] [s' k'] H. cbn in H. injection H as -> H. f_equal.
  revert k' H. induction k as [|t k IHk]; intros [|t' k'] H; try discriminate H; [reflexivity|].
  cbn [map] in H. injection H as H1 H2. f_equal; [apply IH, H1|apply IHk, H2].
Qed.
Lemma gforest_inj f f' : gforest f = gforest f' -> f = f'.
Proof.
  revert f'. induction f as [|t f IH]; intros [|t' f'] H; try discriminate H; [reflexivity|].
  cbn [gforest map] in H. injection H as H1 H2. f_equal; [apply gtree_inj, H1|apply IH, H2].
Qed.

(** ** C88 Two graphs have the same text if and only if they print as the same forest, and so
    for the bytes of the binary format. *)
Theorem C88_text_partial : forall E g h f f', all_nodes no_pointer g -> all_nodes no_pointer h ->
  prints E (out g) f -> prints E (out h) f' -> survives f -> survives f' ->
  exists s s', Text E (Some g) = Ok s /\ Text E (Some h) = Ok s' /\ (s = s' <-> f = f').
Proof.
  intros E g h f f' Ng Nh Hp Hp' Hc Hc'.
  destruct (C80_formats_partial E g f Ng Hp Hc) as (s & b & Hs & _ & Hr & _ & Hg & _).
  destruct (C80_formats_partial E h f' Nh Hp' Hc') as (s' & b' & Hs' & _ & Hr' & _ & Hg' & _).
  exists s, s'. split; [exact Hs|]. split; [exact Hs'|]. split.
  - intros ->. specialize (Hr (2 * List.length s' + 3)%nat (le_n _)). specialize (Hr' (2 * List.length s' + 3)%nat (le_n _)).
    rewrite Hr in Hr'. injection Hr' as H. exact (gforest_inj f f' H).
  - intros ->. rewrite Hg in Hg'. injection Hg' as H. exact H.
Qed.
Print Assumptions C88_text_partial.

Theorem C88_binary_partial : forall E g h f f', shows E (out g) f -> shows E (out h) f' -> representable f -> representable f' ->
  exists b b', Binary E (Some g) = Ok (Some b) /\ Binary E (Some h) = Ok (Some b') /\ (b = b' <-> f = f').
Proof.
  intros E g h f f' Hs Hs' Hr Hr'. exists (fmt_object f), (fmt_object f').
  pose proof (Binary_fmt E g f Hs Hr) as Hb. pose proof (Binary_fmt E h f' Hs' Hr') as Hb'.
  split; [exact Hb|]. split; [exact Hb'|]. split; [|intros ->; reflexivity].
  intros He. destruct (FromBinary_Binary E g f Hs Hr) as (b & Hb1 & H1). destruct (FromBinary_Binary E h f' Hs' Hr') as (b' & Hb1' & H1').
  rewrite Hb in Hb1. injection Hb1 as <-. rewrite Hb' in Hb1'. injection Hb1' as <-.
  specialize (H1 _ (le_n _)). rewrite He, (H1' _ (le_n _)) in H1. injection H1 as H. symmetry. exact (gforest_inj _ _ H).
Qed.
Print Assumptions C88_binary_partial.

(** Documents: every content is a text that is not empty, as in graphs read from a text. *)
Definition word (v : value graph) : Prop := match v with VStr (_ :: _) => True | _ => False end.

Lemma words_forest E o f : prints E o f -> forall k, o = map Some k -> Forall (all_nodes word) k -> o = gforest f.
Proof.
  induction 1 as [|v kids rest k r Hv _ IH1 _ IH2|v kids rest c s k r Hv _ IH1 _ IH2]; intros [|n l] Ho Hk; try discriminate Ho; [reflexivity| |];
    cbn [map] in Ho; injection Ho as <- ->; inversion Hk as [|? ? Hn Hl]; subst; inversion Hn as [v' k' Hp Hk']; subst;
    (destruct v as [|w| | | | | | | | |]; try contradiction); (destruct w as [|x w]; [contradiction|]); cbn in Hv; try discriminate Hv.
  injection Hv as -> ->. cbn [gforest map gtree]. f_equal; [|apply (IH2 l eq_refl Hl)].
  f_equal. f_equal. apply (IH1 k' eq_refl Hk').
Qed.
Lemma all_nodes_weaken (P Q : value graph -> Prop) : (forall v, P v -> Q v) -> forall g, all_nodes P g -> all_nodes Q g.
Proof.
  intros HPQ. fix IH 2. intros g [v k Hv Hk]. constructor; [exact (HPQ v Hv)|].
  induction Hk as [|n k Hn Hk IHk]; constructor; [exact (IH n Hn)|exact IHk].
Qed.

(** ** C88 For documents under roots with the same content Equals says which it is. *)
Theorem C88_equals_partial : forall E g h f f', all_nodes word g -> all_nodes word h -> this g = this h ->
  prints E (out g) f -> prints E (out h) f' -> survives f -> survives f' ->
  exists e s s' b b', Equals_ E (Some g) (Some h) = Ok e /\
    Text E (Some g) = Ok s /\ Text E (Some h) = Ok s' /\ Binary E (Some g) = Ok (Some b) /\ Binary E (Some h) = Ok (Some b') /\
    (e = true <-> s = s') /\ (e = true <-> b = b').
Proof.
  intros E g h f f' Wg Wh Ht Hp Hp' Hc Hc'.
  assert (Hn : forall v, word v -> no_pointer v) by (intros []; cbn; tauto).
  assert (Hcm : forall v, word v -> comparable v) by (intros []; cbn; tauto).
  assert (Hnf : forall v, word v -> no_float v) by (intros []; cbn; tauto).
  pose proof (all_nodes_weaken _ _ Hn g Wg) as Ng. pose proof (all_nodes_weaken _ _ Hn h Wh) as Nh.
  destruct (C88_text_partial E g h f f' Ng Nh Hp Hp' Hc Hc') as (s & s' & Hs & Hs' & Hiff).
  assert (Hsh : shows E (out g) f) by (inversion Ng as [v k _ Hk]; subst; exact (prints_shows E _ f Hp k eq_refl Hk)).
  assert (Hsh' : shows E (out h) f') by (inversion Nh as [v k _ Hk]; subst; exact (prints_shows E _ f' Hp' k eq_refl Hk)).
  destruct (C88_binary_partial E g h f f' Hsh Hsh' (text_representable f Hc) (text_representable f' Hc')) as (b & b' & Hb & Hb' & Hiff').
  destruct (C26_equals_partial E g (all_nodes_weaken _ _ Hcm g Wg) h (all_nodes_weaken _ _ Hcm h Wh)) as (e & He & _).
  pose proof (C26_equals_identity E g h (all_nodes_weaken _ _ Hcm g Wg) (all_nodes_weaken _ _ Hcm h Wh) (all_nodes_weaken _ _ Hnf g Wg)) as Hid.
  assert (Hgf : out g = gforest f) by (inversion Wg as [v k _ Hk]; subst; exact (words_forest E _ f Hp k eq_refl Hk)).
  assert (Hhf : out h = gforest f') by (inversion Wh as [v k _ Hk]; subst; exact (words_forest E _ f' Hp' k eq_refl Hk)).
  assert (Hef : e = true <-> f = f').
  { rewrite He in Hid. split.
    - intros ->. apply gforest_inj. rewrite <- Hgf, <- Hhf. f_equal. apply Hid. reflexivity.
    - intros ->. assert (Ok e = Ok true) as [= ->]; [|reflexivity]. apply Hid. destruct g as [v o], h as [w o']. cbn in *. congruence. }
  exists e, s, s', b, b'. repeat (split; [assumption|]). rewrite Hiff, Hiff'. auto.
Qed.
Print Assumptions C88_equals_partial.

Definition ex_d1 : graph := nd "_" [nd "a" [nd "b c" []]; nd "d" []].
Definition ex_d2 : graph := nd "_" [nd "a" [nd "b c" [nd "d" []]]].
Definition ex_f1 : list tree := [tr "a" [tr "b c" []]; tr "d" []].
Definition ex_f2 : list tree := [tr "a" [tr "b c" [tr "d" []]]].
Example C88_ex : all_nodes word ex_d1 /\ all_nodes word ex_d2 /\ prints env0 (out ex_d1) ex_f1 /\ prints env0 (out ex_d2) ex_f2 /\ survives ex_f1 /\ survives ex_f2.
Proof.
  assert (W : forall s k, word (VStr (bs s)) -> Forall (all_nodes word) k -> all_nodes word (nd s k)) by (intros s k Hs Hk; exact (all_node word _ k Hs Hk)).
  split; [repeat first [apply W; [exact I|]|constructor]|]. split; [repeat first [apply W; [exact I|]|constructor]|].
  split; [repeat first [apply prints_node; [reflexivity| |]|apply prints_nil]|]. split; [repeat first [apply prints_node; [reflexivity| |]|apply prints_nil]|].
  split.
  all: unfold survives; cbn [ex_f1 ex_f2 pres pre flat_map app tr]; unfold text_content; cbn [fst snd].
  all: repeat (apply Forall_cons; [solve [split; [cbn; lia|left; unfold plain_ok, separator; cbn; words]] || idtac|]); try apply Forall_nil.
  all: split; [cbn; lia|right]; split; [cbn; lia|]; split; [apply Exists_exists; exists " "%byte; split; cbn; tauto|]; cbn; words.
Qed.

(** What Equals calls equal is written equally, if there are no floats. *)
Theorem C88_equal_written : forall E g h, all_nodes comparable g -> all_nodes comparable h -> all_nodes no_float g ->
  Equals_ E (Some g) (Some h) = Ok true -> Text E (Some g) = Text E (Some h) /\ Binary E (Some g) = Binary E (Some h).
Proof. intros E g h Hg Hh Hf H. apply (C26_equals_identity E g h Hg Hh Hf) in H. subst h. auto. Qed.
Print Assumptions C88_equal_written.

(** The restrictions are needed.  Contents of other types are printed as texts: 1 and "1" are
    not equal to Equals, but both formats write the same. *)
Theorem C88_type_refuted : exists g h, all_nodes comparable g /\ all_nodes comparable h /\
  (forall E, Equals_ E (Some g) (Some h) = Ok false /\ Text E (Some g) = Text E (Some h) /\ Binary E (Some g) = Binary E (Some h) /\ Text E (Some g) = Ok (bs "1")).
Proof.
  exists (nd "_" [Node (VInt KInt 1) []]), (nd "_" [nd "1" []]).
  split; [apply (all_node comparable (VStr (bs "_")) [Node (VInt KInt 1) []]); [exact I|]; constructor; [apply (all_node comparable _ []); [exact I|constructor]|constructor]|].
  split; [apply (all_node comparable (VStr (bs "_")) [nd "1" []]); [exact I|]; constructor; [apply (all_node comparable _ []); [exact I|constructor]|constructor]|].
  intros E. repeat split.
Qed.
Print Assumptions C88_type_refuted.

(** At the top level texts are written as they are: a text of two lines is a node with a subnode. *)
Theorem C88_lines_refuted : exists g h, all_nodes word g /\ all_nodes word h /\ g <> h /\ forall E, Text E (Some g) = Text E (Some h).
Proof.
  exists (nd "_" [Node (VStr (bs "a" ++ x0a :: bs "  b")) []]), (nd "_" [nd "a" [nd "b" []]]).
  assert (W : forall s k, word (VStr (bs s)) -> Forall (all_nodes word) k -> all_nodes word (nd s k)) by (intros s k Hs Hk; exact (all_node word _ k Hs Hk)).
  split; [apply W; [exact I|]; constructor; [apply (all_node word _ []); [exact I|constructor]|constructor]|].
  split; [repeat first [apply W; [exact I|]|constructor]|]. split; [discriminate|]. intros E. reflexivity.
Qed.
Print Assumptions C88_lines_refuted.

(** In the binary format a text with the byte 0 can be taken for two nodes. *)
Theorem C88_nul_refuted : exists g h, all_nodes word g /\ all_nodes word h /\ g <> h /\ forall E, Binary E (Some g) = Binary E (Some h).
Proof.
  exists (nd "_" [Node (VStr (x61 :: x00 :: x02 :: [x62])) []]), (nd "_" [nd "a" [nd "b" []]]).
  assert (W : forall s k, word (VStr (bs s)) -> Forall (all_nodes word) k -> all_nodes word (nd s k)) by (intros s k Hs Hk; exact (all_node word _ k Hs Hk)).
  split; [apply W; [exact I|]; constructor; [apply (all_node word _ []); [exact I|constructor]|constructor]|].
  split; [repeat first [apply W; [exact I|]|constructor]|]. split; [discriminate|]. intros E. reflexivity.
Qed.
Print Assumptions C88_nul_refuted.

(** Floats: 0 and -0 are equal to Equals but are printed differently. *)
Theorem C88_zero_refuted : forall E, sprint_f64 E (S754_zero false) = bs "0" -> sprint_f64 E (S754_zero true) = bs "-0" ->
  exists g h, Equals_ E (Some g) (Some h) = Ok true /\ Text E (Some g) = Ok (bs "0") /\ Text E (Some h) = Ok (bs "-0").
Proof.
  intros E H0 H1. exists (nd "_" [Node (VF64 (S754_zero false)) []]), (nd "_" [Node (VF64 (S754_zero true)) []]).
  split; [reflexivity|]. split; unfold Text; cbn; rewrite ?H0, ?H1; reflexivity.
Qed.
Print Assumptions C88_zero_refuted.
