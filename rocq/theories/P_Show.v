(** C95: Show. *)
From Verif Require Import Base Value Event EventSpec EventFacts Lexer TextParser Stream Buffer BufferSpec BufferFacts BufferFacts2 TextTerm TextSpec TextDoc BinarySpec Emit EmitSpec EmitFacts Samples P_Emit.

(** The tree of strings that a node is shown as: an underscore stands for an empty content and for
    a missing node. *)
Inductive shows_as (E : env) : option graph -> tree -> Prop :=
| shows_missing : shows_as E None (T (bs "_") [])
| shows_empty v o k : vstring E v = Ok [] -> Forall2 (shows_as E) o k -> shows_as E (Some (Node v o)) (T (bs "_") k)
| shows_word v o s k : vstring E v = Ok s -> s <> [] -> Forall2 (shows_as E) o k -> shows_as E (Some (Node v o)) (T s k).

Lemma shown_nodes E : forall g t, shows_as E (Some g) t -> forall n, text_ E true n g = text_ E false n (gtree t).
Proof.
  induction g as [v o _ IH] using graph_ind'. intros t H n.
  assert (Hk : forall k, Forall2 (shows_as E) o k -> forall n, texts E true n o = texts E false n (map Some (map gtree k))).
  { clear t H n. induction o as [|c o IHo]; intros k Hk n; inversion Hk as [|? t ? k' Hc Hk']; subst; [reflexivity|]. inversion IH as [|? ? Hc' IH']; subst. cbn [map texts].
    specialize (IHo IH' k' Hk' n). rewrite IHo. destruct c as [c|].
    - rewrite (Hc' t Hc n). reflexivity.
    - inversion Hc; subst. rewrite gtree_node. cbn [map]. rewrite text_eq. cbn [vstring sstring rbind]. change (text_node false n (bs "_")) with (text_node true n (bs "_")).
      destruct (text_node true n (bs "_")) as [hd m]. cbn [texts rbind fst]. rewrite app_nil_r. reflexivity. }
  inversion H as [|? ? k Hv Hf|? ? s k Hv Hs Hf]; subst; rewrite gtree_node, !text_eq, Hv; cbn [vstring sstring rbind].
  - change (text_node true n []) with (text_node false n (bs "_")). destruct (text_node false n (bs "_")) as [hd m]. rewrite (Hk k Hf). reflexivity.
  - assert (Et : text_node true n s = text_node false n s) by (unfold text_node; destruct s; [congruence|reflexivity]). rewrite Et. destruct (text_node false n s) as [hd m]. rewrite (Hk k Hf). reflexivity.
Qed.

(** ** C95 Show prints the node itself too: it writes what Text writes of a graph whose only subnode
    is the tree that g is shown as.  Any graph, missing nodes included; also when Text panics, so
    does Show. *)
Theorem C95_show : forall E g t v, shows_as E (Some g) t -> Show E (Some g) = Text E (Some (Node v [Some (gtree t)])).
Proof. intros E g t v H. cbn [Show Text out texts]. rewrite (shown_nodes E g t H 0). destruct (text_ E false 0 (gtree t)); cbn [rbind]; [rewrite app_nil_r|..]; reflexivity. Qed.
Print Assumptions C95_show.

(** Every graph is shown as exactly one tree, if its contents have a string form. *)
Inductive with_strings (E : env) : option graph -> Prop :=
| strings_missing : with_strings E None
| strings_node v o s : vstring E v = Ok s -> Forall (with_strings E) o -> with_strings E (Some (Node v o)).
Theorem C95_shown : forall E g, with_strings E (Some g) -> exists t, shows_as E (Some g) t /\ forall t', shows_as E (Some g) t' -> t' = t.
Proof.
  intros E. induction g as [v o _ IH] using graph_ind'. intros H. inversion H as [|? ? s Hv Ho]; subst.
  assert (exists k, Forall2 (shows_as E) o k /\ forall k', Forall2 (shows_as E) o k' -> k' = k) as (k & Hk & Hu).
  { clear H Hv. induction o as [|c o IHo]; [exists []; split; [constructor|]; intros k' H; inversion H; reflexivity|]. inversion IH as [|? ? Hc IH']; inversion Ho as [|? ? Hco Ho']; subst.
    destruct (IHo IH' Ho') as (k & Hk & Hu). assert (exists t, shows_as E c t /\ forall t', shows_as E c t' -> t' = t) as (t & Ht & Hut).
    { destruct c as [c|]; [exact (Hc Hco)|]. exists (T (bs "_") []). split; [constructor|]. intros t' H'. inversion H'. reflexivity. }
    exists (t :: k). split; [constructor; assumption|]. intros k' H'. inversion H' as [|? ? ? ? H1 H2]; subst. rewrite (Hut _ H1), (Hu _ H2). reflexivity. }
  destruct s as [|b s].
  - exists (T (bs "_") k). split; [apply shows_empty; assumption|]. intros t' H'. inversion H' as [|? ? k' Hv' Hf|? ? s' k' Hv' Hs Hf]; subst; rewrite (Hu _ Hf); congruence.
  - exists (T (b :: s) k). split; [apply shows_word; [assumption|discriminate|assumption]|]. intros t' H'. inversion H' as [|? ? k' Hv' Hf|? ? s' k' Hv' Hs Hf]; subst; rewrite (Hu _ Hf); congruence.
Qed.
Print Assumptions C95_shown.

(** So what Show writes is read back as a graph with that one subnode, for the contents of C18. *)
Lemma shown_full E c t : shows_as E c t -> tlabel t <> [].
Proof. intros H. inversion H; subst; [discriminate|discriminate|assumption]. Qed.
Lemma shown_prints E : forall g t, shows_as E (Some g) t -> prints E [Some (gtree t)] [t].
Proof.
  induction g as [v o _ IH] using graph_ind'. intros t H. pose proof (shown_full E _ _ H) as Hne. destruct t as [s k]. cbn [tlabel] in Hne. destruct s as [|b s]; [congruence|].
  rewrite gtree_node. apply prints_node; [reflexivity| |constructor]. assert (Hf : Forall2 (shows_as E) o k) by (inversion H; subst; assumption). clear H Hne.
  revert k Hf. induction o as [|c o IHo]; intros k Hf; inversion Hf as [|? t ? k' Hc Hk']; subst; [constructor|]. inversion IH as [|? ? Hc' IH']; subst. cbn [map].
  assert (Hp : prints E [Some (gtree t)] [t]).
  { destruct c as [c|]; [exact (Hc' t Hc)|]. inversion Hc; subst. rewrite gtree_node. apply prints_node; [reflexivity|constructor|constructor]. }
  specialize (IHo IH' k' Hk'). destruct t as [s' kk]. rewrite gtree_node in Hp |- *. inversion Hp as [|v0 o0 r0 k0 r1 Hv0 Hk0 Hr0|v0 o0 r0 b0 s0 k0 r1 Hv0 Hk0 Hr0]; subst.
  - exfalso. pose proof (shown_full E _ _ Hc) as Hn. cbn [tlabel] in Hn. cbn in Hv0. congruence.
  - apply prints_node; assumption.
Qed.
Theorem C95_read_back : forall E g t, shows_as E (Some g) t -> Forall (fun e => text_content (fst e) (snd e)) (pres 0 [t]) ->
  exists s, Show E (Some g) = Ok s /\ forall fuel, (2 * List.length s + 3 <= fuel)%nat -> FromString E fuel s = Ok (Node (VStr (bs "_")) [Some (gtree t)]).
Proof.
  intros E g t H Hc. rewrite (C95_show E g t (VStr (bs "_")) H). destruct (C18_text_round_trip_partial E (Node (VStr (bs "_")) [Some (gtree t)]) [t] (shown_prints E g t H) Hc) as (s & Hs & Hb).
  exists s. split; [exact Hs|]. exact Hb.
Qed.
Print Assumptions C95_read_back.

Definition ex_show : graph := Node (VStr (bs "top")) [Some (nd "" [nd "b c" []]); None; Some (Node (VInt KInt 42) [])].
Definition ex_shown : tree := tr "top" [tr "_" [tr "b c" []]; tr "_" []; tr "42" []].
Example C95_ex : with_strings env0 (Some ex_show) /\ shows_as env0 (Some ex_show) ex_shown /\ Forall (fun e => text_content (fst e) (snd e)) (pres 0 [ex_shown]) /\
  Show env0 (Some ex_show) = Ok (bs "top" ++ x0a :: bs "  _" ++ x0a :: bs "    ""b c""" ++ x0a :: bs "  _" ++ x0a :: bs "  42").
Proof.
  split; [|split; [|split; [|vm_compute; reflexivity]]].
  - repeat (econstructor; try reflexivity).
  - apply shows_word; [reflexivity|discriminate|]. constructor; [|constructor; [|constructor; [|constructor]]].
    + apply shows_empty; [reflexivity|]. constructor; [|constructor]. apply shows_word; [reflexivity|discriminate|constructor].
    + apply shows_missing.
    + apply shows_word; [reflexivity|discriminate|constructor].
  - cbn [ex_shown pres pre flat_map app tr]. unfold text_content. cbn [fst snd]. repeat (apply Forall_cons; [word || idtac|]); try apply Forall_nil.
    split; [cbn; lia|right]. split; [cbn; lia|]. split; [apply Exists_exists; exists " "%byte; split; cbn; tauto|]. cbn; words.
Qed.
(** Without the underscores it would be another text: Text leaves empty contents out. *)
Example C95_ex_text : Text env0 (Some (Node (VStr []) [Some ex_show])) = Ok (bs "top" ++ x0a :: bs "  ""b c""" ++ x0a :: bs "  _" ++ x0a :: bs "  42").
Proof. vm_compute. reflexivity. Qed.
