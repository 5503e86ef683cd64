(** C80: the text format, the binary format and the log carry the same graphs. *)
From Verif Require Import Base Value Event EventSpec EventFacts Graph GraphSpec Binary BinarySpec BinaryFacts BinaryFacts2 TextSpec TextParser Stream Buffer BufferSpec Emit EmitSpec EmitFacts CmdFacts Log LogSpec LogFacts LogFacts2 P_Binary P_Emit P_Log Samples.

Definition no_pointer (v : value graph) : Prop := match v with VPtr _ => False | _ => True end.

Lemma prints_shows E o f : prints E o f -> forall k, o = map Some k -> Forall (all_nodes no_pointer) k -> shows E o f.
Proof.
  induction 1 as [|v kids rest k r Hv _ IH1 _ IH2|v kids rest c s k r Hv _ IH1 _ IH2]; intros [|n l] Ho Hk; try discriminate Ho; [apply shows_nil| |];
    cbn [map] in Ho; injection Ho as <- ->; inversion Hk as [|? ? Hn Hl]; subst; inversion Hn as [v' k' Hp Hk']; subst;
    (assert (Hb : vbytes E v = vstring E v) by (destruct v; first [contradiction|reflexivity])).
  - apply shows_empty; [rewrite Hb; exact Hv|eapply IH1; [reflexivity|exact Hk']|eapply IH2; [reflexivity|exact Hl]].
  - apply shows_node; [rewrite Hb; exact Hv|eapply IH1; [reflexivity|exact Hk']|eapply IH2; [reflexivity|exact Hl]].
Qed.

Lemma text_good l s : text_content l s -> good_content s.
Proof.
  intros (_ & [((H1 & H2 & _) & _)|(_ & H1 & H2 & _)]).
  - split; [exact H1|]. rewrite Forall_forall in H2. split; [intros K; apply H2 in K; cbn in K; lia|]. destruct s as [|c s]; [discriminate|]. intros [= ->]. specialize (H2 x01 (or_introl eq_refl)). cbn in H2. lia.
  - assert (Hc : forall c, In c s -> control c = false).
    { clear H1. induction s as [|d s IH]; intros c Hin; [destruct Hin|]. destruct Hin as [->|Hin]; [apply H2|]. apply IH; [apply H2|exact Hin]. }
    split; [intros ->; inversion H1|]. split; [intros K; discriminate (Hc _ K)|]. destruct s as [|c s]; [discriminate|]. intros [= ->]. discriminate (Hc x01 (or_introl eq_refl)).
Qed.
Lemma text_height : forall t l, Forall (fun e => text_content (fst e) (snd e)) (pre l t) -> forall f d, (Z.to_nat (1021 - l) <= d)%nat -> good_forest d f -> good_forest d (t :: f).
Proof.
  fix IH 1. intros [s k] l H f d Hd Hf. change (pre l (T s k)) with ((l, s) :: pres (l + 1) k) in H. inversion H as [|? ? H1 H2]; subst. cbn [fst snd] in H1. pose proof (proj1 H1) as Hl.
  destruct d as [|d]; [lia|]. constructor; [exact (text_good l s H1)| |exact Hf].
  assert (Hd' : (Z.to_nat (1021 - (l + 1)) <= d)%nat) by lia. clear - IH H2 Hd'.
  induction k as [|t k IHk]; [constructor|]. rewrite pres_cons in H2. apply Forall_app in H2. destruct H2 as [H2 H3]. apply (IH t (l + 1)); auto.
Qed.
Lemma text_representable f : Forall (fun e => text_content (fst e) (snd e)) (pres 0 f) -> representable f.
Proof.
  intros H. exists (Z.to_nat 1021). split; [|lia]. induction f as [|t f IH]; [constructor|]. rewrite pres_cons in H. apply Forall_app in H. destruct H as [H1 H2]. apply (text_height t 0); auto.
Qed.
Lemma groot_no_pointer f : all_nodes no_pointer (groot f).
Proof.
  assert (H : forall t, all_nodes no_pointer (gtree t)).
  { fix IH 1. intros [s k]. change (gtree (T s k)) with (Node (VStr s) (map (fun t => Some (gtree t)) k)). rewrite <- (map_map gtree Some). constructor; [exact I|]. induction k as [|t k IHk]; [constructor|]. constructor; [apply IH|exact IHk]. }
  unfold groot, gforest. rewrite <- (map_map gtree Some). constructor; [exact I|]. induction f; constructor; auto.
Qed.

(** ** C80 Text() and Binary() of a graph are read back as the same graph, which prints the
    same text and the same bytes again. *)
Theorem C80_formats_partial : forall E g f, all_nodes no_pointer g -> prints E (out g) f -> Forall (fun e => text_content (fst e) (snd e)) (pres 0 f) ->
  exists s b, Text E (Some g) = Ok s /\ Binary E (Some g) = Ok (Some b) /\
    (forall fuel, (2 * List.length s + 3 <= fuel)%nat -> FromString E fuel s = Ok (groot f)) /\
    (forall fuel, (List.length b <= fuel)%nat -> FromBinary fuel b = Ok (Some (groot f))) /\
    Text E (Some (groot f)) = Ok s /\ Binary E (Some (groot f)) = Ok (Some b).
Proof.
  intros E g f Hn Hp Hc. destruct (Text_round_trip E g f Hp Hc) as (s & Hs & Hr). pose proof (text_representable f Hc) as Hrep.
  assert (Hsh : forall g, all_nodes no_pointer g -> prints E (out g) f -> shows E (out g) f).
  { intros g' Hg Hp'. inversion Hg as [v k _ Hk]; subst. exact (prints_shows E _ f Hp' k eq_refl Hk). }
  destruct (FromBinary_Binary E g f (Hsh g Hn Hp) Hrep) as (b & Hb & Hrb).
  assert (Hp' : prints E (out (groot f)) f) by exact (prints_gforest E f 0 Hc).
  exists s, b. repeat (split; [first [assumption|exact Hr|exact Hrb]|]). split.
  - destruct (Text_lines E g f Hp Hc) as [(Hf0 & H)|(s1 & c & H1 & _ & _ & H)]; destruct (Text_lines E (groot f) f Hp' Hc) as [(Hf & H')|(s2 & c' & H1' & _ & _ & H')].
    + congruence.
    + subst f. cbn in H1'. destruct s2; discriminate.
    + subst f. cbn in H1. destruct s1; discriminate.
    + rewrite H1 in H1'. replace (s1 ++ [c; x0a]) with ((s1 ++ [c]) ++ [x0a]) in H1' by (rewrite <- app_assoc; reflexivity). replace (s2 ++ [c'; x0a]) with ((s2 ++ [c']) ++ [x0a]) in H1' by (rewrite <- app_assoc; reflexivity).
      apply app_inj_tail in H1'. destruct H1' as [H1' _]. rewrite H', <- H1', <- H. exact Hs.
  - rewrite (Binary_fmt E (groot f) f (Hsh _ (groot_no_pointer f) Hp') Hrep). rewrite <- Hb. symmetry. exact (Binary_fmt E g f (Hsh g Hn Hp) Hrep).
Qed.
Print Assumptions C80_formats_partial.

(** A document stored in a log: whatever else is written before and after it, what Get returns
    is the graph that reading the document's own text again gives, and prints as it. *)
Theorem C80_log_partial : forall E os1 g os2 f st0 ps st, all_nodes no_pointer g -> prints E (out g) f -> Forall (fun e => text_content (fst e) (snd e)) (pres 0 f) ->
  lfile st0 <> None -> no_crash os2 -> log_run E (os1 ++ LAdd (Some g) :: os2) st0 = Ok (ps, st) ->
  exists p s, nth_error ps (List.length os1) = Some (Some p) /\ Text E (Some g) = Ok s /\
    exists N, forall fuel, (N <= fuel)%nat -> exists g' next, log_get fuel p st = Ok (Some g', next, false) /\ Text E (Some g') = Ok s /\ FromString E fuel s = Ok g'.
Proof.
  intros E os1 g os2 f st0 ps st Hn Hp Hc Hst Hos Hr. destruct (C80_formats_partial E g f Hn Hp Hc) as (s & b & Hs & _ & Hrs & _ & Hs' & _).
  assert (Hsh : shows E (out g) f) by (inversion Hn as [v k _ Hk]; subst; exact (prints_shows E _ f Hp k eq_refl Hk)).
  destruct (C08_add_get E os1 g os2 f st0 ps st Hsh (text_representable f Hc) Hst Hos Hr) as (p & Hps & _ & Hg & _).
  exists p, s. split; [exact Hps|]. split; [exact Hs|]. exists (2 * List.length s + 3 + List.length (fmt_object f))%nat. intros fuel Hf.
  exists (groot f). eexists. split; [apply Hg; lia|]. split; [exact Hs'|apply Hrs; lia].
Qed.
Print Assumptions C80_log_partial.

(** A graph as the content of a node: the text has the first subnode of that graph, the binary
    format its own content. *)
Definition ex_ptr : graph := Node (VStr (bs "r")) [Some (Node (VPtr (Some (nd "a" [nd "b" []]))) [])].
Theorem C80_pointer_refuted : forall E, exists s b, Text E (Some ex_ptr) = Ok s /\ Binary E (Some ex_ptr) = Ok (Some b) /\
  (forall fuel, (5 <= fuel)%nat -> FromString E fuel s = Ok (groot [tr "b" []])) /\ (forall fuel, (List.length b <= fuel)%nat -> FromBinary fuel b = Ok (Some (groot [tr "a" []]))).
Proof.
  intros E. assert (Hp : prints E (out ex_ptr) [tr "b" []]) by (apply prints_node; [reflexivity|constructor|constructor]).
  assert (Hc : Forall (fun e => text_content (fst e) (snd e)) (pres 0 [tr "b" []])).
  { constructor; [|constructor]. split; [cbn; lia|]. left. split; [split; [discriminate|split; [repeat constructor|split; [reflexivity|split; discriminate]]]|].
    constructor; [|constructor]. intros H. cbn in H. intuition discriminate. }
  destruct (Text_round_trip E ex_ptr _ Hp Hc) as (s & Hs & Hr).
  assert (Hsh : shows E (out ex_ptr) [tr "a" []]) by (apply shows_node; [reflexivity|apply shows_nil|apply shows_nil]).
  assert (Hrep : representable [tr "a" []]) by (exists 1%nat; split; [|lia]; constructor; [repeat split; try discriminate; cbn; intuition discriminate|constructor|constructor]).
  destruct (FromBinary_Binary E ex_ptr _ Hsh Hrep) as (b & Hb & Hrb).
  exists s, b. split; [exact Hs|]. split; [exact Hb|]. split; [|exact Hrb]. assert (s = bs "b") as -> by (cbn in Hs; injection Hs as <-; reflexivity). exact Hr.
Qed.
Print Assumptions C80_pointer_refuted.

(** Blanks, parentheses, quotes, a newline and a number; in a log between other records *)
Example C80_ex : all_nodes no_pointer ex_text /\ prints env0 (out ex_text) ex_text_forest /\ Forall (fun e => text_content (fst e) (snd e)) (pres 0 ex_text_forest) /\
  exists ps st, log_run env0 ([LAdd (Some ex_g); LCrash 1] ++ LAdd (Some ex_text) :: [LSync; LAdd (Some ex_g)]) (OpenLog []) = Ok (ps, st).
Proof.
  split; [|split; [apply C18_text_round_trip_ex|split; [apply C18_text_round_trip_ex|]]].
  - assert (H : forall v k, no_pointer v -> Forall (all_nodes no_pointer) k -> all_nodes no_pointer (Node v (map Some k))) by (intros; constructor; assumption).
    unfold ex_text. apply H; [exact I|]. constructor; [|constructor; [|constructor]].
    + apply H; [exact I|]. constructor; [apply (H _ []); [exact I|constructor]|constructor; [|constructor]].
      apply H; [exact I|]. constructor; [|constructor]. apply H; [exact I|]. constructor; [|constructor]. apply (H _ []); [exact I|constructor].
    + apply (H _ [_]); [exact I|]. constructor; [|constructor]. apply H; [exact I|]. constructor; [|constructor].
      apply (H _ [_]); [exact I|]. constructor; [|constructor]. apply (H _ []); [exact I|constructor].
  - eexists _, _. vm_compute. reflexivity.
Qed.
