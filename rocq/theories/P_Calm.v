(** C70: no peer crashes a server or a client. *)
From Verif Require Import Base Value Event EventSpec Binary BinarySpec BinaryFacts BinaryFacts2 Rpc RpcSpec RpcFacts CalmFacts Samples.

(** ** C70 Whatever the peers of the connections send, in whatever segments, and whatever the order
    of the steps: the server does not panic. *)
Theorem C70_server : forall St E F (h : func St) sched (ps : nat -> pipe) s, sound_handler E h ->
  serve (next pipe_net E F) h sched (fun i => (AtLen, ps i)) s <> Panic.
Proof. intros St E F h sched ps s Hh. eapply serve_calm; [exact Hh|intros c Hc; apply next_calm, Hc|intro; exact I]. Qed.
Print Assumptions C70_server.
Theorem C70_server_v1 : forall St E F (h : func St) sched (ps : nat -> pipe) s, sound_handler E h ->
  serve (next1 E F) h sched (fun i => (AtLen, ps i)) s <> Panic.
Proof. intros St E F h sched ps s Hh. eapply serve_calm; [exact Hh|intros c Hc; apply next1_calm, Hc|intro; exact I]. Qed.
Print Assumptions C70_server_v1.
Theorem C70_process : forall St E F (h : func St) fuel w s, sound_handler E h ->
  process pipe_net E F h fuel w s <> Panic /\ process1 E F h fuel w s <> Panic.
Proof. intros St E F h fuel w s Hh. split; [apply process_calm, Hh|apply process1_calm, Hh]. Qed.
Print Assumptions C70_process.
(** Nor does the client, whatever it gets. *)
Theorem C70_client : forall E F q w, plain_graph q -> callV2 pipe_net E F (Some q) w <> Panic /\ callV1 (pipe_link F) E (Some q) w <> Panic.
Proof.
  intros E F q w Hq. assert (Hb : Binary E (Some q) <> Panic) by (apply Binary_plain, Hq). split; [apply callV2_calm, Hb|apply callV1_calm, Hb].
Qed.
Print Assumptions C70_client.
(** What a handler gets has neither nil subnodes nor pointers, and can be encoded. *)
Theorem C70_received : forall E F b, FromBinary F b <> Panic /\ forall g, FromBinary F b = Ok (Some g) -> plain_graph g /\ Binary E (Some g) <> Panic.
Proof.
  intros E F b. destruct (FromBinary_calm F b) as (Hc & Hp). split; [exact Hc|]. intros g Hg. split; [apply Hp, Hg|apply Binary_plain, Hp, Hg].
Qed.
Print Assumptions C70_received.
(** Routing does not add panics. *)
Theorem C70_router : forall St E (t : table St), (forall p h, t p = Some h -> sound_handler E h) -> sound_handler E (router E t).
Proof.
  intros St E t Ht g s Hg. assert (Hn : Binary E (Some notFound) <> Panic) by (cbn; discriminate).
  assert (D : @Ok (St * option graph) (s, Some notFound) <> Panic /\ forall s' x, Ok (s, Some notFound) = Ok (s', x) -> Binary E x <> Panic).
  { split; [discriminate|]. intros s' x H. assert (x = Some notFound) by congruence. subst. exact Hn. }
  unfold router. destruct (out g) as [|k o] eqn:Eo; [exact D|]. inversion Hg as [v l Hv Hl]; subst. cbn in Eo. subst l.
  inversion Hl as [|? ? (n & -> & Hk) Hl']; subst. inversion Hk as [v' l' Hv' Hl'']; subst. cbn [ThisString this].
  assert (Hs : exists p, vstring E v' = Ok p) by (destruct v'; try (eexists; reflexivity); exfalso; eapply Hv'; reflexivity).
  destruct Hs as (p & ->). cbn [rbind]. destruct (t p) as [f|] eqn:Ef; [exact (Ht _ _ Ef _ s Hg)|exact D].
Qed.
Print Assumptions C70_router.

(** ** The other half of the claim, that every request is answered or its connection left, is false:
    on a request with a text that is not ended the server works forever, without reading on. *)
Theorem C70_hangs_refuted : forall St E F (h : func St) hd4 l t m e s fuel,
  let b := header_bytes ++ fmt_varint l ++ t in
  1 <= l < 2 ^ 28 -> ~ In x00 t -> hd_error t <> Some x01 -> Z.of_nat (List.length b) < 2 ^ 32 -> big_endian hd4 (Z.of_nat (List.length b)) ->
  process pipe_net E F h fuel (mkPipe (hd4 :: b :: m) e []) s = NoFuel.
Proof.
  intros St E F h hd4 l t m e s fuel b Hl Ht Ht1 Hb Hh. destruct fuel as [|fuel]; [reflexivity|]. cbn [process].
  pose proof (un_be32_ok _ _ Hh) as (Hu & H4 & _).
  assert (Hf : FromBinary F b = NoFuel) by (apply (FromBinary_cut_content [] l t F); [constructor|exact Hl|exact Ht|exact Ht1]).
  destruct hd4 as [|a1 [|a2 [|a3 [|a4 [|? ?]]]]]; cbn in H4; try discriminate.
  unfold turn. cbn [n_read pipe_net p_in p_end p_out]. change (Z.to_nat 4) with 4%nat. cbn [firstn skipn rest_of rbind orb negb List.length]. rewrite Hu.
  assert (Hbl : (0 < List.length b)%nat) by (subst b; rewrite app_length; cbn; lia).
  replace (Z.of_nat (List.length b) =? 0) with false by lia. change (Z.of_nat 4 =? 4) with true. cbn [negb p_in p_end p_out rbind]. rewrite Nat2Z.id, firstn_all, Z.eqb_refl. cbn [negb].
  rewrite Hf. reflexivity.
Qed.
Print Assumptions C70_hangs_refuted.
(** So does the client on such a response; its timeout does not apply. *)
Theorem C70_client_hangs_refuted : forall E F q qb l t h segs e o,
  let b := header_bytes ++ fmt_varint l ++ t in
  1 <= l < 2 ^ 28 -> ~ In x00 t -> hd_error t <> Some x01 -> big_endian h (Z.of_nat (List.length b)) -> Binary E q = Ok (Some qb) ->
  segments (h ++ b) segs -> (4 <= List.length (hd [] segs))%nat -> (List.length b <= F)%nat ->
  callV2 pipe_net E F q (mkPipe segs e o) = NoFuel.
Proof.
  intros E F q qb l t h segs e o b Hl Ht Ht1 Hh Hq Hs H4 HF.
  rewrite (callV2_bytes E F q qb b (h ++ b) segs e o); try assumption; [|exists h; auto|subst b; discriminate].
  assert (Hf : FromBinary F b = NoFuel) by (apply (FromBinary_cut_content [] l t F); [constructor|exact Hl|exact Ht|exact Ht1]).
  rewrite Hf. reflexivity.
Qed.
Print Assumptions C70_client_hangs_refuted.
(** An echo is sound; the requests: garbage, and one that is not ended *)
Definition ex_echo : func unit := fun g s => Ok (s, Some g).
Example C70_ex : sound_handler env0 ex_echo /\
  process pipe_net env0 50 ex_echo 5 (mkPipe [[x00; x00; x00; x05]; [x01; "G"%byte; xff; x07; x00]] TErr []) tt = Ok (mkPipe [] TErr [], tt) /\
  process pipe_net env0 50 ex_echo 5 (mkPipe [[x00; x00; x00; x05]; header_bytes ++ [x01; "a"%byte]] TErr []) tt = NoFuel.
Proof.
  split; [|split; [vm_compute; reflexivity|]].
  - intros g s Hg. split; [discriminate|]. intros s' x H. unfold ex_echo in H. assert (x = Some g) by congruence. subst. apply Binary_plain, Hg.
  - apply (C70_hangs_refuted unit env0 50 ex_echo _ 1 (bs "a")); [lia|cbn; intuition discriminate|discriminate|cbn; lia|]. exists x00, x00, x00, x05. split; reflexivity.
Qed.
