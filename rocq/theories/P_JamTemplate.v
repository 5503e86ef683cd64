(** C39: when NewTemplate panics. *)
From Verif Require Import Base Value Event EventSpec EventFacts Lexer TextParser Stream Buffer BufferSpec BufferFacts Wp TextTerm Graph Emit PathParser PathTerm Template TemplateTerm JamSpec Jam P_Jam Samples.

Local Notation len l := (Z.of_nat (List.length l)).

Lemma jam_root v v' l : jam false (Node v l) -> jam false (Node v' l).
Proof. intros H. inversion H; subst. econstructor; eassumption. Qed.

(** For the texts of C39_template_utf8_partial: NewTemplate panics if and only if operators are jammed in one of the
    expressions of the parsed template; otherwise it returns. *)
Theorem C39_template_panics_partial : forall E s fuel, well_lettered E s -> len s <= 4094 -> (5 * List.length s + 4 <= fuel)%nat ->
  exists b x h g, run_buf E fuel (Template fuel fuel) (NewLexer (bytes_reader s)) h_init = Ok (b, x, h) /\ Tree h = Ok g /\ full g /\
  (jam false g /\ NewTemplate E fuel s = Panic \/ ~ jam false g /\ exists t, NewTemplate E fuel s = Ok t).
Proof.
  intros E s fuel HW Hl Hf.
  pose proof (t_Template E s fuel HW Hf fuel (s_init s) h_init ltac:(change (rem (s_init s)) with (List.length s); lia) (st_init s) h_init_inv) as H.
  pose proof (run_ideal E fuel (Template fuel fuel) (fun h => Tree h) s Hl ltac:(lia)) as R.
  unfold wpi in H. destruct (run E _ (s_init s) h_init) as [[[u s'] h']| |]; try contradiction. cbn [rbind] in R. rewrite (h_inv_Tree h' H) in R.
  unfold NewTemplate. destruct (run_buf E fuel _ _ _) as [[[b x] h]| |]; cbn [rbind] in *; try discriminate.
  exists b, x, h, (events_graph (evs h')). split; [reflexivity|]. split; [exact R|]. split; [constructor; apply forest_full|]. rewrite R. cbn [rbind].
  unfold nest. cbn [events_graph out]. set (t := Node (VStr TypeTemplate) (map Some (forest 0 (evs h')))).
  assert (Ht : full t) by (constructor; apply forest_full).
  assert (Hj : jam false (Node (VStr (bs "_")) (map Some (forest 0 (evs h')))) <-> jam false t).
  { split; apply jam_root. }
  pose proof (ast_jam t Ht false) as J. pose proof (ast_stops t false) as N. rewrite Hj, <- J.
  destruct (ast_ false t) as [a| |]; cbn [rbind]; [right|left; auto|congruence].
  split; [discriminate|]. destruct (flow _ _) as [[hs es] r]. eauto.
Qed.
Print Assumptions C39_template_panics_partial.

Example C39_template_panics_ex : NewTemplate env0 60 (bs "a $(b + 3 *) c") = Panic /\ exists t, NewTemplate env0 60 (bs "a $(b + *3) c") = Ok t.
Proof.
  unfold NewTemplate. rewrite !(run_ideal env0 60 (Template 60 60) (fun h => let* g := Tree h in nest g)) by (cbn; lia). split; [vm_compute; reflexivity|]. vm_compute. eauto.
Qed.
