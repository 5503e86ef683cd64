(** C12: event levels determine the tree. *)
From Verif Require Import Base Value Event EventSpec EventFacts Samples.

(** Whatever calls are made (with non-negative levels), Tree() does not fail and attaches
    every item to the most recent item one level above it. *)
Theorem C12_tree_of_events : forall os h,
  Forall hop_ok os -> h_run os h_init = Ok h -> Tree h = Ok (events_graph (evs h)).
Proof. exact (fun os h Ho Hr => h_inv_Tree h (h_run_inv os h_init h Ho h_init_inv Hr)). Qed.
Print Assumptions C12_tree_of_events.

Example C12_tree_of_events_ex :
  let os := [HAdd (VStr (bs "a")); HInc; HAdd (VStr (bs "b")); HAdd (VBytes (bs "c")); HDelete;
             HSetLevel 0; HAdd (VStr (bs "d")); HAddAt (VStr (bs "e")) 2] in
  Forall hop_ok os /\ exists h, h_run os h_init = Ok h /\
  Tree h = Ok (nd "_" [nd "a" [nd "b" [nd "e" []]]; nd "d" []]).
Proof.
  split; [repeat constructor; cbn; lia|]. eexists. split; [reflexivity|]. vm_compute. reflexivity.
Qed.

(** If no level jumps up by more than one, every item appears exactly once, in order and at
    its level. *)
Theorem C12_nested_all_kept : forall evs,
  nested 0 evs -> listings 0 (forest 0 evs) = evs.
Proof.
  exact nested_listings.
Qed.
Print Assumptions C12_nested_all_kept.

Example C12_nested_all_kept_ex :
  nested 0 [(0, VStr (bs "a")); (1, VStr (bs "b")); (2, VStr (bs "c")); (1, VStr (bs "d")); (0, VNil)].
Proof. cbn. lia. Qed.

(** Without that restriction an item can be lost: its parent level was never opened. *)
Theorem C12_jump_loses_item_refuted :
  exists evs, Forall (fun e => 0 <= fst e) evs /\ listings 0 (forest 0 evs) <> evs.
Proof. exists [(0, VStr (bs "a")); (2, VStr (bs "b"))]. split; [repeat constructor; cbn; lia|discriminate]. Qed.
Print Assumptions C12_jump_loses_item_refuted.

(** Negative levels make Tree() fail. *)
Theorem C12_negative_level_refuted : exists h, h_run [HSetLevel (-1); HAdd (VStr (bs "a"))] h_init = Ok h /\ Tree h = Panic.
Proof. eexists. split; [reflexivity|]. vm_compute. reflexivity. Qed.
Print Assumptions C12_negative_level_refuted.

(** Trees of strings are rebuilt from their preorder listing. *)
Theorem C12_preorder_rebuilds : forall f : list tree,
  events_graph (map (fun e => (fst e, VStr (snd e))) (pres 0 f)) = groot f.
Proof. exact events_graph_vpre. Qed.
Print Assumptions C12_preorder_rebuilds.

Example C12_preorder_rebuilds_ex :
  pres 0 [tr "a" [tr "b" [tr "c" []]; tr "d" []]; tr "e" []] =
  [(0, bs "a"); (1, bs "b"); (2, bs "c"); (1, bs "d"); (0, bs "e")].
Proof. reflexivity. Qed.
