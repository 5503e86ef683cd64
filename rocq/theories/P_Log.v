(** C08-C11: the log. *)
From Verif Require Import Base Value Event EventSpec EventFacts Binary BinarySpec BinaryFacts BinaryFacts2
  Log LogSpec LogFacts LogFacts2 Samples.

(** ** C08 Every added object is read back at the position returned *)

(** Whatever happened before (os1, crashes included) and whatever is added afterwards, Get at
    the position returned by Add(g) gives g's forest f and the next position, which is where
    the next write went. *)
Theorem C08_add_get : forall E os1 g os2 f st0 ps st,
  shows E (out g) f -> representable f -> lfile st0 <> None -> no_crash os2 ->
  log_run E (os1 ++ LAdd (Some g) :: os2) st0 = Ok (ps, st) ->
  exists p, nth_error ps (List.length os1) = Some (Some p) /\ 0 <= p /\
    (forall fuel, (List.length (fmt_object f) <= fuel)%nat ->
      log_get fuel p st = Ok (Some (groot f), p + Z.of_nat (List.length (fmt_object f)), false) /\
      log_get_binary fuel p st = Ok (Some (fmt_object f), Z.of_nat (List.length (fmt_object f)), false)) /\
    forall os3 w os4, os2 = os3 ++ w :: os4 -> Forall (fun o => ~ is_write o) os3 -> is_write w ->
      nth_error ps (List.length os1 + S (List.length os3)) =
      Some (Some (p + Z.of_nat (List.length (fmt_object f)))).
Proof. exact add_get. Qed.
Print Assumptions C08_add_get.

Definition ex_g : graph := nd "_" [nd "a" [nd "b" []]; nd "c" []].
Definition ex_f : list tree := [tr "a" [tr "b" []]; tr "c" []].

Example C08_add_get_ex :
  shows env0 (out ex_g) ex_f /\ representable ex_f /\
  exists ps st, log_run env0 ([LAddBinary (bs "xyz"); LCrash 1] ++ LAdd (Some ex_g) :: [LSync; LAdd (Some (nd "_" []))]) (OpenLog []) = Ok (ps, st)
  /\ ps = [Some 0; None; Some 3; None; Some 16].
Proof.
  split; [|split].
  - repeat first [apply shows_nil | apply shows_node; [reflexivity| |]].
  - exists 2%nat. split; [|reflexivity].
    repeat (constructor; [repeat split; try discriminate; cbn; intuition discriminate| | ]); constructor.
  - eexists _, _. split; vm_compute; reflexivity.
Qed.

(** Reading from 0 until Get reports the end yields exactly the added objects, in order. *)
Theorem C08_scan : forall E os fs ps st fuel k,
  adds E os fs -> log_run E os (OpenLog []) = Ok (ps, st) ->
  (List.length (flat_map fmt_object fs) <= fuel)%nat -> (List.length fs < k)%nat ->
  scan fuel k 0 st = Ok (map (fun f => Some (groot f)) fs).
Proof. exact scan_all. Qed.
Print Assumptions C08_scan.

Example C08_scan_ex : exists os ps st, adds env0 os [ex_f; []; ex_f] /\ log_run env0 os (OpenLog []) = Ok (ps, st).
Proof.
  exists [LSetSync false; LAdd (Some ex_g); LSync; LAddBinary (fmt_object []); LAdd None; LAdd (Some ex_g)].
  eexists _, _. split; [|vm_compute; reflexivity].
  assert (Hf : shows env0 (out ex_g) ex_f /\ representable ex_f) by (split; apply C08_add_get_ex).
  constructor. apply adds_graph; try apply Hf. constructor. apply adds_binary; [exists 0%nat; split; [constructor|lia]|].
  constructor. apply adds_graph; try apply Hf. constructor.
Qed.

(** Earlier bytes are never modified. *)
Theorem C08_append_only : forall E os st ps st' f,
  log_run E os st = Ok (ps, st') -> no_crash os -> lfile st = Some f -> exists b, lfile st' = Some (f ++ b).
Proof. exact run_append. Qed.
Print Assumptions C08_append_only.

(** The next position advances and stays within the file, or is -1 with no graph, so that
    reading on always ends. *)
Theorem C08_next_advances : forall fuel i st f g next err, lfile st = Some f -> 0 <= i ->
  log_get fuel i st = Ok (g, next, err) ->
  err = false /\ (next = -1 /\ g = None \/ i < next <= Z.of_nat (List.length f)).
Proof. exact get_next_bound. Qed.
Print Assumptions C08_next_advances.

Example C08_next_advances_ex : log_get 9 3 (OpenLog (bs "abcdefg")) = Ok (None, 4, false) /\
  log_get 9 7 (OpenLog (bs "abcdefg")) = Ok (None, -1, false).
Proof. vm_compute. split; reflexivity. Qed.

(** The in-memory log: positions are offsets into Bytes() ... *)
Theorem C08_memory : forall E os1 g os2 f ps st,
  shows E (out g) f -> representable f -> no_crash os1 -> no_crash os2 ->
  log_run E (os1 ++ LAdd (Some g) :: os2) MemLog = Ok (ps, st) ->
  exists p all, nth_error ps (List.length os1) = Some (Some p) /\ 0 <= p /\ log_bytes st = Some all /\
    forall fuel, (List.length (fmt_object f) <= fuel)%nat ->
      FromBinary fuel (skipn (Z.to_nat p) all) = Ok (Some (groot f)).
Proof. exact mem_add_read. Qed.
Print Assumptions C08_memory.

Example C08_memory_ex : exists ps st,
  log_run env0 ([LAddBinary (bs "xyz")] ++ LAdd (Some ex_g) :: [LAdd (Some (nd "_" []))]) MemLog = Ok (ps, st)
  /\ ps = [Some 0; Some 3; Some 16].
Proof. eexists _, _. split; vm_compute; reflexivity. Qed.

(** ... but Get on it is an error, whatever was added. *)
Theorem C08_memory_get_error : exists os ps st p, log_run env0 os MemLog = Ok (ps, st) /\ In (Some p) ps /\
  forall fuel, log_get fuel p st = Ok (None, -1, true).
Proof.
  exists [LAdd (Some ex_g)], [Some 0]. eexists _, 0. split; [vm_compute; reflexivity|].
  split; [left; reflexivity|]. reflexivity.
Qed.
Print Assumptions C08_memory_get_error.

(** ** C09 GetBinary.
    Full claim: GetBinary(p) = (stored bytes, position of the next object).  The bytes are
    right (here and in C08_add_get); the second result is the length, hence the next
    position only for the first object of the file. *)
Theorem C09_get_binary_partial : forall f p st fuel, representable f -> stored p (fmt_object f) st ->
  (List.length (fmt_object f) <= fuel)%nat ->
  log_get_binary fuel p st = Ok (Some (fmt_object f), Z.of_nat (List.length (fmt_object f)), false).
Proof. exact get_binary_stored. Qed.
Print Assumptions C09_get_binary_partial.

Example C09_get_binary_ex : representable ex_f /\ stored 2 (fmt_object ex_f) (OpenLog (bs "ab" ++ fmt_object ex_f ++ bs "c")).
Proof.
  split; [apply C08_add_get_ex|]. split; [lia|]. eexists _, _. split; [reflexivity|]. split; [reflexivity|]. cbn; lia.
Qed.

Theorem C09_next_position_refuted : exists os ps st p b n next g, log_run env0 os (OpenLog []) = Ok (ps, st) /\
  In (Some p) ps /\ log_get_binary 50 p st = Ok (b, n, false) /\ log_get 50 p st = Ok (g, next, false) /\ n <> next.
Proof.
  exists [LAdd (Some ex_g); LAdd (Some ex_g)], [Some 0; Some 13]. eexists _, 13, _, _, _, _.
  split; [vm_compute; reflexivity|]. split; [right; left; reflexivity|]. split; [vm_compute; reflexivity|].
  split; [vm_compute; reflexivity|]. lia.
Qed.
Print Assumptions C09_next_position_refuted.

(** ** C10 Crash consistency *)

(** An object added while autoSync was on, or followed by a Sync before any crash, is
    returned at its position after any further operations and crashes.  (Objects added
    after a crash are covered by C08_add_get, whose os1 may contain crashes.) *)
Theorem C10_crash_safe : forall E os1 g os2 f st0 ps1 st1 ps st,
  shows E (out g) f -> representable f -> lfile st0 <> None ->
  log_run E os1 st0 = Ok (ps1, st1) ->
  log_run E (os1 ++ LAdd (Some g) :: os2) st0 = Ok (ps, st) ->
  (lauto st1 = true \/ exists os3 os4, os2 = os3 ++ LSync :: os4 /\ no_crash os3) ->
  exists p, nth_error ps (List.length os1) = Some (Some p) /\
    forall fuel, (List.length (fmt_object f) <= fuel)%nat ->
      log_get fuel p st = Ok (Some (groot f), p + Z.of_nat (List.length (fmt_object f)), false).
Proof. exact crash_safe. Qed.
Print Assumptions C10_crash_safe.

Example C10_crash_safe_ex : exists ps1 st1 ps st,
  log_run env0 [LSetSync false] (OpenLog []) = Ok (ps1, st1) /\
  log_run env0 ([LSetSync false] ++ LAdd (Some ex_g) :: [LAdd (Some ex_g)] ++ LSync :: [LAdd (Some ex_g); LCrash 30; LAdd (Some ex_g)]) (OpenLog []) = Ok (ps, st)
  /\ lauto st1 = false /\ ps = [None; Some 0; Some 13; None; Some 26; None; Some 30].
Proof. eexists _, _, _, _. split; [vm_compute; reflexivity|]. split; [vm_compute; reflexivity|]. split; reflexivity. Qed.

(** Without a sync the object can be gone. *)
Theorem C10_sync_needed : exists ps st, log_run env0 [LSetSync false; LAdd (Some ex_g); LCrash 0] (OpenLog []) = Ok (ps, st) /\
  log_get 50 0 st = Ok (None, -1, false).
Proof. eexists _, _. split; [vm_compute; reflexivity|]. vm_compute. reflexivity. Qed.
Print Assumptions C10_sync_needed.

(** Positions stay valid after a crash, but reading on from one object to the next does not
    find the objects added behind a torn record. *)
Theorem C10_scan_misses_after_crash : exists os ps st p, log_run env0 os (OpenLog []) = Ok (ps, st) /\
  In (Some p) ps /\ log_get 60 p st = Ok (Some (groot ex_f), p + 13, false) /\
  exists gs, scan 60 10 0 st = Ok gs /\ ~ In (Some (groot ex_f)) gs.
Proof.
  exists [LSetSync false; LAdd (Some ex_g); LCrash 4; LAdd (Some ex_g)]. eexists _, _, 4.
  split; [vm_compute; reflexivity|]. split; [cbn; tauto|]. split; [vm_compute; reflexivity|].
  eexists. split; [vm_compute; reflexivity|]. vm_compute. intuition discriminate.
Qed.
Print Assumptions C10_scan_misses_after_crash.

(** ** C11 Torn tail.
    Full claim: Get on a record cut short returns an error or nil.  False; the exact
    behaviour is: nil if the header is cut, otherwise either no return at all or, without
    an error, the graph of some initial part of the record's nodes. *)
Theorem C11_torn_record_partial : forall f c d p a st, representable f -> fmt_object f = c ++ d -> d <> [] ->
  lfile st = Some (a ++ c) -> p = Z.of_nat (List.length a) ->
  ((List.length c < 3)%nat /\ forall fuel, exists next, log_get fuel p st = Ok (None, next, false)) \/
  (forall fuel, log_get fuel p st = NoFuel) \/
  exists evs1 evs2, pres 1 f = evs1 ++ evs2 /\
    forall fuel, (List.length c < fuel)%nat ->
      exists next, log_get fuel p st = Ok (Some (events_graph (map ev_val evs1)), next, false).
Proof. exact torn_get. Qed.
Print Assumptions C11_torn_record_partial.

Example C11_torn_record_ex : exists c d, fmt_object ex_f = c ++ d /\ d <> [] /\ List.length c = 9%nat /\
  log_get 40 3 (OpenLog (bs "abc" ++ c)) = Ok (Some (nd "_" [nd "a" [nd "b" []]]), 12, false).
Proof.
  exists (firstn 9 (fmt_object ex_f)), (skipn 9 (fmt_object ex_f)).
  split; [reflexivity|]. split; [discriminate|]. split; vm_compute; reflexivity.
Qed.

Theorem C11_torn_hangs_refuted : exists f c d, representable f /\ fmt_object f = c ++ d /\ d <> [] /\
  forall fuel, log_get fuel 0 (OpenLog c) = NoFuel.
Proof.
  exists ex_f, (firstn 5 (fmt_object ex_f)), (skipn 5 (fmt_object ex_f)).
  split; [apply C08_add_get_ex|]. split; [reflexivity|]. split; [discriminate|]. intro fuel.
  apply (proj1 (get_From fuel 0 (OpenLog (firstn 5 (fmt_object ex_f))) _ eq_refl (Z.le_refl 0))).
  apply (FromBinary_cut_content [] 1 (bs "a") fuel); [constructor|lia|cbn; intuition discriminate|discriminate].
Qed.
Print Assumptions C11_torn_hangs_refuted.

Theorem C11_torn_wrong_graph_refuted : exists f c d g next, representable f /\ fmt_object f = c ++ d /\ d <> [] /\
  log_get 40 0 (OpenLog c) = Ok (Some g, next, false) /\ g <> groot f.
Proof.
  exists ex_f, (firstn 6 (fmt_object ex_f)), (skipn 6 (fmt_object ex_f)). eexists _, _.
  split; [apply C08_add_get_ex|]. split; [reflexivity|]. split; [discriminate|].
  split; [vm_compute; reflexivity|]. discriminate.
Qed.
Print Assumptions C11_torn_wrong_graph_refuted.
