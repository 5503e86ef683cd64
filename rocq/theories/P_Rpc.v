(** C49 - C52: remote functions. *)
From Verif Require Import Base Value Event EventSpec EventFacts Binary BinarySpec BinaryFacts Lexer TextParser Stream Buffer BufferSpec BufferFacts BufferFacts2 TextTerm Rpc RpcSpec RpcFacts Samples.

(** ** C49 The client gets the response however its body is segmented (protocol 2; the length
    must come in one piece, see below). *)
Theorem C49_response : forall E F q qb x f b m segs e o, Binary E q = Ok (Some qb) -> carries E x f b -> message b m ->
  segments m segs -> (4 <= List.length (hd [] segs))%nat -> (List.length b <= F)%nat ->
  exists w, callV2 pipe_net E F q (mkPipe segs e o) = Ok (w, (Some (groot f), None)) /\ p_in w = [].
Proof.
  intros E F q qb x f b m segs e o Hq (Hs & Hr & Hf & Hb & Hl) Hm Hsg H4 HF.
  assert (Hne : b <> []) by (intros ->; cbn in Hb; destruct (bins E 1 (out x)); discriminate).
  rewrite (callV2_bytes E F q qb b m segs e o) by assumption. destruct (FromBinary_Binary E x f Hs Hr) as (b' & E' & Hfb). assert (b' = b) by congruence. subst b'.
  rewrite Hfb by assumption. cbn [rbind]. destruct f as [|[c k] f]; [congruence|]. eexists. split; reflexivity.
Qed.
Print Assumptions C49_response.
(** Whatever the bytes of the body are, the result is what FromBinary makes of all of them. *)
Theorem C49_bytes : forall E F q qb b m segs e o g, Binary E q = Ok (Some qb) -> message b m -> b <> [] ->
  segments m segs -> (4 <= List.length (hd [] segs))%nat -> (List.length b <= F)%nat -> FromBinary F b = Ok (Some g) -> out g <> [] ->
  exists w, callV2 pipe_net E F q (mkPipe segs e o) = Ok (w, (Some g, None)) /\ p_in w = [].
Proof.
  intros E F q qb b m segs e o g Hq Hm Hb Hs H4 HF Hg Ho. rewrite (callV2_bytes E F q qb b m segs e o) by assumption. rewrite Hg. cbn [rbind].
  destruct g as [v [|k l]]; [cbn in Ho; congruence|]. eexists. split; reflexivity.
Qed.
Print Assumptions C49_bytes.
(** What the client sends is the request as a message. *)
Theorem C49_request : forall E F q qb b m segs e o w r, Binary E q = Ok (Some qb) -> Z.of_nat (List.length qb) < 2 ^ 32 -> message b m -> b <> [] -> segments m segs -> (4 <= List.length (hd [] segs))%nat -> (List.length b <= F)%nat ->
  callV2 pipe_net E F q (mkPipe segs e o) = Ok (w, r) -> exists mq, message qb mq /\ p_out w = o ++ mq.
Proof.
  intros E F q qb b m segs e o w r Hq Hl Hm Hb Hs H4 HF H. rewrite (callV2_bytes E F q qb b m segs e o) in H by assumption.
  destruct (FromBinary F b) as [g| |]; cbn [rbind] in H; try discriminate. assert (Hw : w = mkPipe [] e (o ++ frame qb)) by congruence. rewrite Hw.
  exists (frame qb). split; [|reflexivity]. exists (be32 (Z.of_nat (List.length qb))). split; [apply be32_ok; lia|reflexivity].
Qed.
Print Assumptions C49_request.
(** If the length is split as well, the call fails although the response arrives. *)
Theorem C49_length_refuted : forall E F q qb b m, Binary E q = Ok (Some qb) -> message b m ->
  exists segs, segments m segs /\ forall e o, exists w, callV2 pipe_net E F q (mkPipe segs e o) = Ok (w, (None, Some ErrHeader)).
Proof.
  intros E F q qb b m Hq (h & Hh & ->). pose proof (un_be32_ok _ _ Hh) as (_ & H4 & _). destruct h as [|a h]; [discriminate|].
  exists [[a]; h ++ b]. split.
  - split; [cbn; rewrite app_nil_r; reflexivity|]. constructor; [discriminate|]. constructor; [|constructor]. destruct h; discriminate.
  - intros e o. apply (callV2_short E F q qb); [exact Hq|cbn; lia].
Qed.
Print Assumptions C49_length_refuted.
(** Protocol 1 accepts any segmentation. *)
Theorem C49_v1 : forall E F q qb x f b segs e o, Binary E q = Ok (Some qb) -> carries E x f b -> segments b segs -> (List.length b <= F)%nat ->
  callV1 (pipe_link F) E q (mkPipe segs e o) = Ok (mkPipe [] e (o ++ qb), true, (Some (groot f), None)).
Proof.
  intros E F q qb x f b segs e o Hq (Hs & Hr & Hf & Hb & Hl) Hsg HF. unfold callV1. rewrite Hq. cbn [rbind l_write l_recv pipe_link n_write pipe_net p_in p_end p_out]. rewrite Z.eqb_refl. cbn [negb].
  rewrite <- (app_nil_r segs). rewrite (receive_object E F x f b segs []) by assumption. cbn [rbind]. destruct f as [|[c k] f]; [congruence|reflexivity].
Qed.
Print Assumptions C49_v1.

Definition ex_req : graph := nd "_" [nd "add" [nd "1" []]].
Definition ex_resp : graph := nd "_" [nd "ok" []; nd "2" []].
Lemma ex_req_carries : carries env0 ex_req [tr "add" [tr "1" []]] [x01; "G"%byte; x00; x01; "a"%byte; "d"%byte; "d"%byte; x00; x02; "1"%byte; x00; x00].
Proof.
  split; [|split; [|split; [discriminate|split; [reflexivity|cbn; lia]]]].
  - eapply shows_node; [reflexivity|eapply shows_node; [reflexivity|constructor|constructor]|constructor].
  - exists 3%nat. split; [|cbn; lia]. repeat constructor; cbn; try discriminate; intuition discriminate.
Qed.
Lemma ex_resp_carries : carries env0 ex_resp [tr "ok" []; tr "2" []] [x01; "G"%byte; x00; x01; "o"%byte; "k"%byte; x00; x01; "2"%byte; x00; x00].
Proof.
  split; [|split; [|split; [discriminate|split; [reflexivity|cbn; lia]]]].
  - eapply shows_node; [reflexivity|constructor|eapply shows_node; [reflexivity|constructor|constructor]].
  - exists 3%nat. split; [|cbn; lia]. repeat constructor; cbn; try discriminate; intuition discriminate.
Qed.
Example C49_ex : let m := [x00; x00; x00; x0b; x01; "G"%byte; x00; x01; "o"%byte; "k"%byte; x00; x01; "2"%byte; x00; x00] in
  message [x01; "G"%byte; x00; x01; "o"%byte; "k"%byte; x00; x01; "2"%byte; x00; x00] m /\
  segments m [[x00; x00; x00; x0b; x01]; ["G"%byte]; [x00; x01; "o"%byte]; ["k"%byte; x00; x01; "2"%byte; x00; x00]] /\
  exists w, callV2 pipe_net env0 20 (Some ex_req) (mkPipe [[x00; x00; x00; x0b; x01]; ["G"%byte]; [x00; x01; "o"%byte]; ["k"%byte; x00; x01; "2"%byte; x00; x00]] TErr []) =
    Ok (w, (Some ex_resp, None)) /\ p_in w = [].
Proof.
  cbn zeta. assert (Hm : message [x01; "G"%byte; x00; x01; "o"%byte; "k"%byte; x00; x01; "2"%byte; x00; x00] [x00; x00; x00; x0b; x01; "G"%byte; x00; x01; "o"%byte; "k"%byte; x00; x01; "2"%byte; x00; x00]).
  { exists [x00; x00; x00; x0b]. split; [exists x00, x00, x00, x0b; split; reflexivity|reflexivity]. }
  split; [exact Hm|]. assert (Hs : segments [x00; x00; x00; x0b; x01; "G"%byte; x00; x01; "o"%byte; "k"%byte; x00; x01; "2"%byte; x00; x00] [[x00; x00; x00; x0b; x01]; ["G"%byte]; [x00; x01; "o"%byte]; ["k"%byte; x00; x01; "2"%byte; x00; x00]]).
  { split; [reflexivity|]. repeat constructor; discriminate. }
  split; [exact Hs|]. eapply (C49_response env0 20 (Some ex_req) _ ex_resp [tr "ok" []; tr "2" []]); [reflexivity|exact ex_resp_carries|exact Hm|exact Hs|cbn; lia|cbn; lia].
Qed.

(** ** C50 The server answers requests.  Full claim: under every segmentation.  Here: if no
    length and no body is split, the requests are answered, in order. *)
Theorem C50_unsplit_partial : forall St E F (h : func St) (reqs : list (graph * list tree * bytes * bytes)) xs (outs : list bytes) s s' segs e fuel,
  Forall (fun '(g, f, hd4, b) => carries E g f b /\ big_endian hd4 (Z.of_nat (List.length b)) /\ (List.length b <= F)%nat) reqs ->
  handled h (map (fun '(g, f, hd4, b) => groot f) reqs) s xs s' ->
  Forall2 (fun x m => exists c, Binary E (Some x) = Ok (Some c) /\ message c m) xs outs ->
  unsplit (units (map (fun '(g, f, hd4, b) => (hd4, b)) reqs)) segs -> (List.length reqs < fuel)%nat ->
  process pipe_net E F h fuel (mkPipe segs e []) s = Ok (mkPipe [] e (List.concat outs), s').
Proof.
  intros St E F h reqs xs outs s s' segs e fuel Hr Hh Ho Hu Hf.
  apply (process_unsplit E F h (map (fun '(g, f, hd4, b) => (hd4, b)) reqs) s s' (List.concat outs) fuel segs e []).
  - clear Hu Hf fuel. revert xs outs s s' Hh Ho. induction Hr as [|[[[g f] hd4] b] reqs (Hc & He & HF) Hr IH]; intros xs outs s s' Hh Ho.
    + cbn in Hh. inversion Hh; subst. inversion Ho; subst. constructor.
    + cbn [map] in Hh. inversion Hh as [|? ? ? x s1 xs' ? Hx Hh']; subst. inversion Ho as [|? m ? outs' (c & Hb & Hm) Ho']; subst. cbn [map snd].
      cbn [List.concat]. apply message_be32 in Hm. destruct Hm as (-> & _).
      refine (answers_cons E F h b _ s s1 s' (groot f) (Some x) (Some c) (List.concat outs') _ _ Hx Hb _); [| |eapply IH; eauto].
      * destruct Hc as (Hs & Hrp & Hf & Hb' & Hl). destruct (FromBinary_Binary E g f Hs Hrp) as (b' & E' & Hfb). assert (b' = b) by congruence. subst b'. apply Hfb, HF.
      * destruct Hc as (_ & _ & Hf & _). destruct f as [|[c' k'] f]; [congruence|discriminate].
  - rewrite Forall_map. eapply Forall_impl; [|exact Hr]. intros [[[g f] hd4] b] (_ & He & _). exact He.
  - exact Hu.
  - rewrite map_length. exact Hf.
Qed.
Print Assumptions C50_unsplit_partial.
(** If the length or the body of the request is split, wherever, it is not answered and the
    handler does not run. *)
Theorem C50_split_refuted : forall St E F (h : func St) hd4 b segs e s fuel, big_endian hd4 (Z.of_nat (List.length b)) -> b <> [] ->
  segments (hd4 ++ b) segs -> ~ unsplit [hd4; b] segs -> (1 <= fuel)%nat ->
  exists w, process pipe_net E F h fuel (mkPipe segs e []) s = Ok (w, s) /\ p_out w = [].
Proof.
  intros St E F h hd4 b segs e s fuel Hh Hb Hs Hu Hf. pose proof (un_be32_ok _ _ Hh) as (_ & _ & Hl). pose proof (be32_ok _ Hl) as Hbe.
  rewrite (big_endian_inj _ _ _ Hh Hbe) in *. apply (process_split E F h b); auto. lia.
Qed.
Print Assumptions C50_split_refuted.
(** Protocol 1 answers under any segmentation, if no segment has parts of two requests. *)
Theorem C50_v1_partial : forall St E F (h : func St) (reqs : list (graph * list tree * bytes * list bytes)) xs outs s s' e fuel o,
  Forall (fun '(g, f, b, segs) => carries E g f b /\ segments b segs /\ (List.length b <= F)%nat) reqs ->
  handled h (map (fun '(g, f, b, segs) => groot f) reqs) s xs s' ->
  Forall2 (fun x c => Binary E (Some x) = Ok (Some c)) xs outs -> (List.length reqs < fuel)%nat ->
  process1 E F h fuel (mkPipe (flat_map (fun '(g, f, b, segs) => segs) reqs) e o) s = Ok (mkPipe [] e (o ++ List.concat outs), s').
Proof.
  intros St E F h reqs xs outs s s' e fuel o Hr. revert xs outs s s' fuel o. induction Hr as [|[[[g f] b] segs] reqs (Hc & Hs & HF) Hr IH]; intros xs outs s s' fuel o Hh Ho Hf.
  - cbn in Hh. inversion Hh; subst. inversion Ho; subst. destruct fuel as [|fuel]; [lia|]. cbn [process1 flat_map]. rewrite receive_end. cbn [rbind List.concat]. rewrite app_nil_r. reflexivity.
  - cbn [map] in Hh. inversion Hh as [|? ? ? x s1 xs' ? Hx Hh']; subst. inversion Ho as [|? m ? outs' Hb Ho']; subst. destruct fuel as [|fuel]; [lia|].
    destruct Hc as (Hsh & Hrp & Hne & Hb' & Hl). cbn [process1 flat_map]. rewrite (receive_object E F g f b segs) by assumption. cbn [rbind]. rewrite Hx. cbn [rbind]. rewrite Hb. cbn [rbind n_write pipe_net p_in p_end p_out].
    rewrite (IH xs' outs' s1 s' fuel) by (auto; cbn in Hf; lia). cbn [List.concat]. rewrite app_assoc. reflexivity.
Qed.
Print Assumptions C50_v1_partial.

(** A handler that counts its calls *)
Definition ex_handler : func nat := fun g n => Ok (S n, Some ex_resp).
Definition ex_body : bytes := [x01; "G"%byte; x00; x01; "a"%byte; "d"%byte; "d"%byte; x00; x02; "1"%byte; x00; x00].
Definition ex_reply : bytes := [x01; "G"%byte; x00; x01; "o"%byte; "k"%byte; x00; x01; "2"%byte; x00; x00].
Example C50_ex : let m := [x00; x00; x00; x0c] ++ ex_body in
  unsplit (units [([x00; x00; x00; x0c], ex_body); ([x00; x00; x00; x0c], ex_body)]) [m; [x00; x00; x00; x0c]; ex_body] /\
  process pipe_net env0 20 ex_handler 9 (mkPipe [m; [x00; x00; x00; x0c]; ex_body] TEof []) 0%nat =
    Ok (mkPipe [] TEof (([x00; x00; x00; x0b] ++ ex_reply) ++ [x00; x00; x00; x0b] ++ ex_reply), 2%nat) /\
  segments m [[x00; x00]; [x00; x0c] ++ ex_body] /\ ~ unsplit [[x00; x00; x00; x0c]; ex_body] [[x00; x00]; [x00; x0c] ++ ex_body].
Proof.
  cbn zeta. assert (Hu : unsplit (units [([x00; x00; x00; x0c], ex_body); ([x00; x00; x00; x0c], ex_body)]) [[x00; x00; x00; x0c] ++ ex_body; [x00; x00; x00; x0c]; ex_body]).
  { exists [[[x00; x00; x00; x0c]; ex_body]; [[x00; x00; x00; x0c]]; [ex_body]]. split; [reflexivity|]. split; [reflexivity|]. repeat constructor; discriminate. }
  split; [exact Hu|]. split.
  - assert (Hbe : big_endian [x00; x00; x00; x0c] 12) by (exists x00, x00, x00, x0c; split; reflexivity).
    pose proof (C50_unsplit_partial nat env0 20 ex_handler [(ex_req, [tr "add" [tr "1" []]], [x00; x00; x00; x0c], ex_body); (ex_req, [tr "add" [tr "1" []]], [x00; x00; x00; x0c], ex_body)]
      [ex_resp; ex_resp] [[x00; x00; x00; x0b] ++ ex_reply; [x00; x00; x00; x0b] ++ ex_reply] 0%nat 2%nat [[x00; x00; x00; x0c] ++ ex_body; [x00; x00; x00; x0c]; ex_body] TEof 9%nat) as H.
    cbn [List.concat] in H. rewrite app_nil_r in H. apply H; clear H.
    + pose proof ex_req_carries as Hq. assert (HF : (List.length ex_body <= 20)%nat) by (cbn; lia). constructor; [exact (conj Hq (conj Hbe HF))|]. constructor; [exact (conj Hq (conj Hbe HF))|]. constructor.
    + econstructor; [reflexivity|]. econstructor; [reflexivity|constructor].
    + assert (Hm : exists c, Binary env0 (Some ex_resp) = Ok (Some c) /\ message c ([x00; x00; x00; x0b] ++ ex_reply)).
      { exists ex_reply. split; [reflexivity|]. exists [x00; x00; x00; x0b]. split; [exists x00, x00, x00, x0b; split; reflexivity|reflexivity]. }
      repeat constructor; exact Hm.
    + exact Hu.
    + cbn. lia.
  - split; [split; [reflexivity|repeat constructor; discriminate]|]. intros (groups & Hc & Hm & Hn).
    destruct groups as [|g1 [|g2 groups]]; try discriminate. destruct g1 as [|u g1]; [inversion Hn; congruence|]. cbn [List.concat app] in Hc. assert (u = [x00; x00; x00; x0c]) by congruence. subst u. discriminate.
Qed.

(** ** C51 At most once.  The claim is false: a call makes up to three attempts.
    The handler runs at most three times, always on the same request, and success means that
    the last response was received, whatever happens to the attempts. *)
Theorem C51_at_most_thrice_partial : forall St E F (h : func St) q f qb plans s s' r, carries E q f qb -> (List.length qb <= F)%nat ->
  (forall g s s' x b, h g s = Ok (s', x) -> Binary E x = Ok (Some b) -> Z.of_nat (List.length b) < 2 ^ 32) ->
  remote E F h plans q s = Ok (s', r) ->
  exists xs, (List.length xs <= 3)%nat /\ runs h (groot f) s xs s' /\ reported E F xs r.
Proof.
  intros St E F h q f qb plans s s' r (Hs & Hr & Hf & Hb & Hl) HF Hsm H. eapply remote_runs; eauto.
  destruct (FromBinary_Binary E q f Hs Hr) as (b' & E' & Hfb). assert (b' = qb) by congruence. subst b'. apply Hfb, HF.
Qed.
Print Assumptions C51_at_most_thrice_partial.
(** An open connection is as good as one that was just made. *)
Theorem C51_open : forall St E F (h : func St) p plans q s, (1 <= F)%nat -> pl_up p = true -> remote_open E F h p plans q s = remote E F h (p :: plans) q s.
Proof.
  intros St E F h p plans q s HF Hp. unfold remote_open, remote, Call. destruct F as [|F]; [lia|]. cbn [call_loop n_dial world_net rbind].
  change (settle E (S F) h (mkWorld (p :: plans) (mkPlan true (4, false) (0, false) [] []) s [] None)) with (Ok (mkWorld (p :: plans) (mkPlan true (4, false) (0, false) [] []) s [] (Some []))).
  cbn [rbind todo hs]. rewrite Hp. reflexivity.
Qed.
Print Assumptions C51_open.
Theorem C51_open_at_most_thrice_partial : forall St E F (h : func St) q f qb p plans s s' r, carries E q f qb -> (List.length qb <= F)%nat ->
  (forall g s s' x b, h g s = Ok (s', x) -> Binary E x = Ok (Some b) -> Z.of_nat (List.length b) < 2 ^ 32) ->
  pl_up p = true -> remote_open E F h p plans q s = Ok (s', r) ->
  exists xs, (List.length xs <= 3)%nat /\ runs h (groot f) s xs s' /\ reported E F xs r.
Proof.
  intros St E F h q f qb p plans s s' r Hq HF Hsm Hp H. rewrite C51_open in H; [eapply C51_at_most_thrice_partial; eauto| |exact Hp].
  destruct F; [|lia]. destruct Hq as (_ & _ & _ & Hb & _). assert (qb = []) by (destruct qb; [reflexivity|cbn in HF; lia]). subst. unfold Binary in Hb. destruct (bins E 1 (out q)); discriminate.
Qed.
Print Assumptions C51_open_at_most_thrice_partial.
(** If the first attempt goes well the handler runs exactly once. *)
Theorem C51_once_partial : forall St E F (h : func St) q f qb s s1 x f' b, carries E q f qb -> (List.length qb < F)%nat -> (2 <= F)%nat ->
  h (groot f) s = Ok (s1, Some x) -> carries E x f' b -> (List.length b <= F)%nat ->
  exists p, forall plans, remote E F h (p :: plans) q s = Ok (s1, (Some (groot f'), None)).
Proof.
  intros St E F h q f qb s s1 x f' b Hq HF HF2 Hh Hx Hb. exists (good_plan qb [4%nat; List.length b]). intro plans.
  eapply remote_good; eauto.
Qed.
Print Assumptions C51_once_partial.
(** For every handler and request there are failures after which the handler has run three
    times and the call reports success. *)
Theorem C51_once_refuted : forall St E F (h : func St) q f qb s s1 s2 s3 x1 x2 x3 b1 b2 b3 f3, carries E q f qb -> (List.length qb < F)%nat -> (2 <= F)%nat ->
  h (groot f) s = Ok (s1, x1) -> h (groot f) s1 = Ok (s2, x2) -> h (groot f) s2 = Ok (s3, Some x3) ->
  Binary E x1 = Ok b1 -> Binary E x2 = Ok b2 -> carries E x3 f3 b3 -> (List.length b3 <= F)%nat ->
  exists plans, remote E F h plans q s = Ok (s3, (Some (groot f3), None)).
Proof.
  intros St E F h q f qb s s1 s2 s3 x1 x2 x3 b1 b2 b3 f3 Hq HF HF2 H1 H2 H3 B1 B2 Hx Hb.
  exists [good_plan qb []; good_plan qb []; good_plan qb [4%nat; List.length b3]]. eapply (remote_thrice E F h q f qb); eauto.
Qed.
Print Assumptions C51_once_refuted.
(** Without any failure, a handler that answers with empty graphs runs three times. *)
Theorem C51_empty_refuted : forall St E F (h : func St) q f qb s s1 s2 s3 x1 x2 x3, carries E q f qb -> (List.length qb < F)%nat -> (4 <= F)%nat ->
  h (groot f) s = Ok (s1, Some x1) -> h (groot f) s1 = Ok (s2, Some x2) -> h (groot f) s2 = Ok (s3, Some x3) -> out x1 = [] -> out x2 = [] -> out x3 = [] ->
  let whole := mkPlan true (4, false) (Z.of_nat (List.length qb), false) [4%nat; List.length qb] [4%nat; 4%nat] in
  remote E F h [whole; whole; whole] q s = Ok (s3, (None, Some ErrEmpty)).
Proof. intros St E F h q f qb s s1 s2 s3 x1 x2 x3 Hq HF HF4 H1 H2 H3 O1 O2 O3. cbn zeta. eapply (remote_empty E F h q f qb); eauto; lia. Qed.
Print Assumptions C51_empty_refuted.
Example C51_open_ex : remote_open env0 20 ex_handler (good_plan ex_body []) [good_plan ex_body [4%nat; 11%nat]] ex_req 0%nat = Ok (2%nat, (Some ex_resp, None)).
Proof. vm_compute. reflexivity. Qed.
Example C51_ex : remote env0 20 ex_handler [good_plan ex_body []; good_plan ex_body []; good_plan ex_body [4%nat; 11%nat]] ex_req 0%nat = Ok (3%nat, (Some ex_resp, None)) /\
  remote env0 20 ex_handler [good_plan ex_body [4%nat; 11%nat]] ex_req 0%nat = Ok (1%nat, (Some ex_resp, None)) /\
  remote env0 20 (fun g n => Ok (S n, Some (nd "_" []))) [good_plan ex_body [4%nat; 4%nat]; good_plan ex_body [4%nat; 4%nat]; good_plan ex_body [4%nat; 4%nat]] ex_req 0%nat = Ok (3%nat, (None, Some ErrEmpty)).
Proof.
  pose proof ex_req_carries as Hq. pose proof ex_resp_carries as Hx. fold ex_body in Hq. fold ex_reply in Hx.
  split; [|split].
  - apply (remote_thrice env0 20 ex_handler ex_req _ ex_body Hq ltac:(cbn; lia) ltac:(lia) 0%nat 1%nat 2%nat 3%nat (Some ex_resp) (Some ex_resp) ex_resp (Some ex_reply) (Some ex_reply) ex_reply [tr "ok" []; tr "2" []]);
      [reflexivity|reflexivity|reflexivity|reflexivity|reflexivity|exact Hx|cbn; lia].
  - apply (remote_good env0 20 ex_handler ex_req _ ex_body Hq ltac:(cbn; lia) ltac:(lia) 0%nat 1%nat ex_resp [tr "ok" []; tr "2" []] ex_reply []); [reflexivity|exact Hx|cbn; lia].
  - apply (remote_empty env0 20 (fun g n => Ok (S n, Some (nd "_" []))) ex_req _ ex_body Hq ltac:(cbn; lia) ltac:(lia) 0%nat 1%nat 2%nat 3%nat (nd "_" []) (nd "_" []) (nd "_" [])); try reflexivity. lia.
Qed.

(** ** C52 Routing *)
(** The handler last registered for the first child of the request gets it. *)
Theorem C52_routing : forall St E (l : list (bytes * option (func St))) g k rest p s r, out g = k :: rest -> ThisString E k = Ok p -> registered p l r ->
  router E (fold_right (fun qf t => AddRoute (fst qf) (snd qf) t) no_routes l) g s =
  match r with Some h => h g s | None => Ok (s, Some notFound) end.
Proof.
  intros St E l g k rest p s r Ho Hp Hr. unfold router. rewrite Ho, Hp. cbn [rbind].
  assert (Ht : fold_right (fun qf t => AddRoute (fst qf) (snd qf) t) no_routes l p = r).
  { induction Hr as [|f l|q f l r Hne Hr IH]; [reflexivity| |]; cbn [fold_right fst snd]; unfold AddRoute at 1; [rewrite bseq_refl; reflexivity|].
    replace (bseq p q) with false by (symmetry; apply bseq_neq; congruence). exact IH. }
  rewrite Ht. reflexivity.
Qed.
Print Assumptions C52_routing.
Theorem C52_no_child : forall St E (t : table St) g s, out g = [] -> router E t g s = Ok (s, Some notFound).
Proof. intros St E t g s Ho. unfold router. rewrite Ho. reflexivity. Qed.
Print Assumptions C52_no_child.
(** The answer notFound is what the text "error notFound" reads as. *)
Theorem C52_not_found : forall E fuel, (60 <= fuel)%nat -> FromString E fuel (bs "error notFound") = Ok notFound.
Proof.
  intros E fuel Hf. unfold FromString. rewrite (FromReader_ideal _ _ _ _ (bs "error notFound")); [|apply seen_bytes|cbn; lia|cbn; lia].
  do 60 (destruct fuel as [|fuel]; [lia|]). vm_compute. reflexivity.
Qed.
Print Assumptions C52_not_found.
(** With handlers that keep no state, each connection gets the answers it would get alone, in
    whatever order the steps of the connections come. *)
Theorem C52_connections : forall W St (N : net W) E F (h : func St) sched cs s cs' s' i w fuel w' s1,
  (forall g s s' x, h g s = Ok (s', x) -> s' = s) ->
  serve (next N E F) h sched cs s = Ok (cs', s') -> cs i = (AtLen, w) -> process N E F h fuel w s = Ok (w', s1) -> (5 * fuel <= count_occ Nat.eq_dec sched i)%nat ->
  cs' i = (Gone, w').
Proof.
  intros W St N E F h sched cs s cs' s' i w fuel w' s1 Hst Hs Hi Hp Hn. destruct (serve_alone _ _ Hst sched cs s cs' s' Hs) as (_ & Ha).
  specialize (Ha i). rewrite Hi, (solo_process N E F h fuel w s w' s1 _ Hp Hn) in Ha. congruence.
Qed.
Print Assumptions C52_connections.
(** With any handlers: there is an order of the runs of the handlers such that a connection that
    was served to its end got, for its own requests in their order, the answers of these runs. *)
Theorem C52_history : forall W St (N : net W) E F (h : func St) sched cs s cs' s', serve (next N E F) h sched cs s = Ok (cs', s') ->
  exists l, history h s l s' /\ forall i w w', cs i = (AtLen, w) -> cs' i = (Gone, w') ->
    exists fuel, process N E F scripted fuel w (replies i l, []) = Ok (w', ([], asked i l)).
Proof.
  intros W St N E F h sched cs s cs' s' H. destruct (serve_history _ _ _ _ _ _ _ H) as (l & Hl & Hi). exists l. split; [exact Hl|].
  intros i w w' Hw Hw'. specialize (Hi i []). rewrite Hw, Hw' in Hi. eexists. apply process_solo, Hi.
Qed.
Print Assumptions C52_history.
(** Both for protocol 1 *)
Theorem C52_connections_v1 : forall St E F (h : func St) sched cs s cs' s' i w fuel w' s1,
  (forall g s s' x, h g s = Ok (s', x) -> s' = s) ->
  serve (next1 E F) h sched cs s = Ok (cs', s') -> cs i = (AtLen, w) -> process1 E F h fuel w s = Ok (w', s1) -> (3 * fuel <= count_occ Nat.eq_dec sched i)%nat ->
  cs' i = (Gone, w').
Proof.
  intros St E F h sched cs s cs' s' i w fuel w' s1 Hst Hs Hi Hp Hn. destruct (serve_alone _ _ Hst sched cs s cs' s' Hs) as (_ & Ha).
  specialize (Ha i). rewrite Hi, (solo1_process E F h fuel w s w' s1 _ Hp Hn) in Ha. congruence.
Qed.
Print Assumptions C52_connections_v1.
Theorem C52_history_v1 : forall St E F (h : func St) sched cs s cs' s', serve (next1 E F) h sched cs s = Ok (cs', s') ->
  exists l, history h s l s' /\ forall i w w', cs i = (AtLen, w) -> cs' i = (Gone, w') ->
    exists fuel, process1 E F scripted fuel w (replies i l, []) = Ok (w', ([], asked i l)).
Proof.
  intros St E F h sched cs s cs' s' H. destruct (serve_history _ _ _ _ _ _ _ H) as (l & Hl & Hi). exists l. split; [exact Hl|].
  intros i w w' Hw Hw'. specialize (Hi i []). rewrite Hw, Hw' in Hi. eexists. apply process1_solo, Hi.
Qed.
Print Assumptions C52_history_v1.
Definition ex_add : func unit := fun g s => Ok (s, Some ex_resp).
Definition ex_mul : func unit := fun g s => Ok (s, Some ex_req).
Example C52_ex : router env0 (fold_right (fun qf t => AddRoute (fst qf) (snd qf) t) no_routes [(bs "add", Some ex_add); (bs "mul", Some ex_mul); (bs "add", Some ex_mul)]) ex_req tt = Ok (tt, Some ex_resp) /\
  router env0 (fold_right (fun qf t => AddRoute (fst qf) (snd qf) t) no_routes [(bs "mul", Some ex_mul)]) ex_req tt = Ok (tt, Some notFound).
Proof.
  split.
  - rewrite (C52_routing unit env0 _ ex_req (Some (nd "add" [nd "1" []])) [] (bs "add") tt (Some ex_add)); [reflexivity|reflexivity|reflexivity|constructor].
  - rewrite (C52_routing unit env0 _ ex_req (Some (nd "add" [nd "1" []])) [] (bs "add") tt None); [reflexivity|reflexivity|reflexivity|]. constructor; [discriminate|constructor].
Qed.
Example C52_connections_ex : let w := mkPipe [[x00; x00; x00; x0c] ++ ex_body] TEof [] in let v := mkPipe [[x00]; [x01]] TEof [] in
  exists cs', serve (next pipe_net env0 20) ex_add [0; 1; 0; 1; 0; 0; 1; 0; 0; 0; 0; 0; 0]%nat (fun i => if Nat.eqb i 0 then (AtLen, w) else (AtLen, v)) tt = Ok (cs', tt) /\
  process pipe_net env0 20 ex_add 2 w tt = Ok (mkPipe [] TEof ([x00; x00; x00; x0b] ++ ex_reply), tt) /\
  cs' 0%nat = (Gone, mkPipe [] TEof ([x00; x00; x00; x0b] ++ ex_reply)).
Proof.
  cbn zeta. eexists. split; [vm_compute; reflexivity|]. split; [vm_compute; reflexivity|reflexivity].
Qed.
(** Two connections ask a counter that refuses after the first request. *)
Definition ex_once : func nat := fun g s => Ok (S s, if Nat.eqb s 0 then Some ex_resp else Some notFound).
Example C52_history_ex : let w := mkPipe [[x00; x00; x00; x0c] ++ ex_body] TEof [] in
  exists cs', serve (next pipe_net env0 20) ex_once [0; 1; 1; 0; 1; 0; 1; 1; 0; 0; 0; 1]%nat (fun i => (AtLen, w)) 0%nat = Ok (cs', 2%nat) /\
  cs' 1%nat = (Gone, mkPipe [] TEof ([x00; x00; x00; x0b] ++ ex_reply)) /\ history ex_once 0%nat [(1%nat, ex_req, Some ex_resp); (0%nat, ex_req, Some notFound)] 2%nat.
Proof.
  cbn zeta. eexists. split; [vm_compute; reflexivity|]. split; [reflexivity|].
  eapply history_cons; [reflexivity|]. eapply history_cons; [reflexivity|]. constructor.
Qed.
