(** Proofs about the event handler. *)
From Verif Require Import Base Value Event EventSpec.

Lemma lset_length {A} (l : list A) i a : List.length (lset l i a) = List.length l.
Proof. revert i; induction l as [|x l IH]; intros [|i]; cbn; auto. Qed.

Lemma lset_same {A} (l : list A) i a : (i < List.length l)%nat -> nth_error (lset l i a) i = Some a.
Proof. revert i; induction l as [|x l IH]; intros [|i] H; cbn in *; try lia; auto. apply IH; lia. Qed.

Lemma lset_other {A} (l : list A) i j a : i <> j -> nth_error (lset l i a) j = nth_error l j.
Proof.
  revert i j; induction l as [|x l IH]; intros [|i] [|j] H; cbn; auto; try congruence.
Qed.

(** The value stored in slot [lv]. *)
Definition slot (s : list (option nat)) (lv : Z) : option nat :=
  if lv <? 0 then None
  else match nth_error s (Z.to_nat lv) with Some (Some i) => Some i | _ => None end.

(** Indices of the items attached to slot [lv] while the rest of the events is processed. *)
Fixpoint dc (lv : Z) (evs : list (Z * value graph)) (base : nat) : list nat :=
  match evs with
  | [] => []
  | (l, _) :: r =>
      if l =? lv - 1 then []
      else if l =? lv then base :: dc lv r (S base) else dc lv r (S base)
  end.

(** Slots are pairwise distinct and refer to existing nodes. *)
Definition slots_ok (s : list (option nat)) (n : nat) : Prop :=
  (forall lv i, slot s lv = Some i -> (i < n)%nat) /\
  (forall lv lv' i, slot s lv = Some i -> slot s lv' = Some i -> lv = lv').

Lemma slot_set s lv n k : 0 <= lv < Z.of_nat (List.length s) ->
  slot (lset s (Z.to_nat lv) (Some n)) k = if k =? lv then Some n else slot s k.
Proof.
  intro H. unfold slot.
  destruct (Z.eqb_spec k lv) as [->|Hk].
  - replace (lv <? 0) with false by lia. rewrite lset_same by lia. reflexivity.
  - destruct (Z.ltb_spec k 0); [reflexivity|]. rewrite lset_other by lia. reflexivity.
Qed.

Definition levels_in (m : Z) (evs : list (Z * value graph)) : Prop :=
  Forall (fun e => 0 <= fst e <= m) evs.

Lemma nth_error_arena_add a p c i :
  nth_error (arena_add a p c) i =
  match nth_error a i with
  | Some (v, o) => Some (v, if match p with Some p => Nat.eqb p i | None => false end then o ++ [c] else o)
  | None => None
  end.
Proof.
  unfold arena_add. destruct p as [p|].
  2:{ destruct (nth_error a i) as [[v o]|]; reflexivity. }
  destruct (nth_error a p) as [[v o]|] eqn:Ep.
  - destruct (Nat.eqb_spec p i) as [->|Hne].
    + rewrite Ep, lset_same; [reflexivity|]. apply nth_error_Some. congruence.
    + rewrite lset_other by auto. destruct (nth_error a i) as [[v' o']|]; reflexivity.
  - destruct (Nat.eqb_spec p i) as [->|Hne].
    + rewrite Ep. reflexivity.
    + destruct (nth_error a i) as [[v' o']|]; reflexivity.
Qed.

Lemma arena_add_length a p c : List.length (arena_add a p c) = List.length a.
Proof.
  unfold arena_add. destruct p; [|reflexivity].
  destruct (nth_error a n) as [[v o]|]; [apply lset_length|reflexivity].
Qed.

(** The final subnodes of any node already in the arena. *)
Lemma tree_loop_outs evs : forall slots a m,
  levels_in m evs -> Z.of_nat (List.length slots) = m + 2 ->
  slots_ok slots (List.length a) ->
  exists a', tree_loop evs slots a = Ok a' /\
    List.length a' = (List.length a + List.length evs)%nat /\
    forall i v o, nth_error a i = Some (v, o) ->
      (forall lv, slot slots lv = Some i -> nth_error a' i = Some (v, o ++ dc lv evs (List.length a))) /\
      ((forall lv, slot slots lv <> Some i) -> nth_error a' i = Some (v, o)).
Proof.
  induction evs as [|[l v] evs IH]; intros slots a m Hl Hs Hok; cbn [tree_loop].
  { exists a. split; [reflexivity|]. split; [cbn; lia|]. intros i v o Hi. split; intros; cbn [dc]; rewrite ?app_nil_r; exact Hi. }
  inversion Hl as [|? ? Hl1 Hl2]; subst. cbn [fst] in Hl1.
  unfold zset. replace ((l + 1 <? 0) || (Z.of_nat (List.length slots) <=? l + 1)) with false by lia.
  cbn [rbind]. unfold zget. replace (l + 1 - 1 <? 0) with false by lia.
  destruct (nth_error (lset slots (Z.to_nat (l + 1)) (Some (List.length a))) (Z.to_nat (l + 1 - 1)))
    as [parent|] eqn:Ep.
  2:{ apply nth_error_None in Ep. rewrite lset_length in Ep. lia. }
  cbn [rbind].
  set (slots' := lset slots (Z.to_nat (l + 1)) (Some (List.length a))) in *.
  set (a1 := arena_add (a ++ [(v, [])]) parent (List.length a)).
  assert (Hlen1 : List.length a1 = S (List.length a)).
  { unfold a1. rewrite arena_add_length, app_length. cbn. lia. }
  assert (Hslot : forall k, slot slots' k = if k =? l + 1 then Some (List.length a) else slot slots k).
  { intro k. apply slot_set. lia. }
  destruct Hok as [Hok1 Hok2].
  assert (Hok' : slots_ok slots' (List.length a1)).
  { split.
    - intros lv i Hi. rewrite Hslot in Hi. destruct (lv =? l + 1).
      + inversion Hi. lia.
      + apply Hok1 in Hi. lia.
    - intros lv lv' i H1 H2. rewrite Hslot in H1, H2.
      destruct (Z.eqb_spec lv (l + 1)), (Z.eqb_spec lv' (l + 1)); subst; auto.
      + inversion H1; subst. apply Hok1 in H2. lia.
      + inversion H2; subst. apply Hok1 in H1. lia.
      + eapply Hok2; eassumption. }
  destruct (IH slots' a1 m Hl2) as (a' & Ha' & Hlen' & Houts); [unfold slots'; rewrite lset_length; exact Hs|exact Hok'|].
  exists a'. split; [exact Ha'|]. split; [rewrite Hlen', Hlen1; cbn; lia|].
  (* parent is what slot l holds *)
  assert (Hpar : parent = slot slots l).
  { assert (Hx : slot slots' l = parent).
    { unfold slot. replace (l <? 0) with false by lia.
      replace (Z.to_nat (l + 1 - 1)) with (Z.to_nat l) in Ep by lia. rewrite Ep. destruct parent; reflexivity. }
    rewrite Hslot in Hx. replace (l =? l + 1) with false in Hx by lia. auto. }
  intros i vi oi Hi.
  assert (Hil : (i < List.length a)%nat) by (apply nth_error_Some; congruence).
  assert (Hi1 : nth_error a1 i = Some (vi, if match parent with Some p => Nat.eqb p i | None => false end
                                           then oi ++ [List.length a] else oi)).
  { unfold a1. rewrite nth_error_arena_add, nth_error_app1 by exact Hil. rewrite Hi. reflexivity. }
  destruct (Houts i _ _ Hi1) as [HA HB]. rewrite Hlen1 in HA.
  split.
  - intros lv Hlv. cbn [dc].
    destruct (Z.eqb_spec l (lv - 1)) as [Hov|Hov].
    + (* the slot is overwritten *)
      rewrite app_nil_r. rewrite HB.
      * replace (match parent with Some p => Nat.eqb p i | None => false end) with false; [reflexivity|].
        symmetry. rewrite Hpar. destruct (slot slots l) as [p|] eqn:Es; [|reflexivity].
        apply Nat.eqb_neq. intros ->. pose proof (Hok2 _ _ _ Es Hlv). lia.
      * intros lv' Hc. rewrite Hslot in Hc. destruct (Z.eqb_spec lv' (l + 1)).
        -- inversion Hc. lia.
        -- pose proof (Hok2 _ _ _ Hc Hlv). lia.
    + assert (Hlv' : slot slots' lv = Some i).
      { rewrite Hslot. replace (lv =? l + 1) with false by lia. exact Hlv. }
      rewrite (HA lv Hlv').
      destruct (Z.eqb_spec l lv) as [->|Hne].
      * rewrite Hpar, Hlv, Nat.eqb_refl, <- app_assoc. reflexivity.
      * replace (match parent with Some p => Nat.eqb p i | None => false end) with false; [reflexivity|].
        symmetry. rewrite Hpar. destruct (slot slots l) as [p|] eqn:Es; [|reflexivity].
        apply Nat.eqb_neq. intros ->. pose proof (Hok2 _ _ _ Es Hlv). lia.
  - intro Hno. rewrite HB.
    + replace (match parent with Some p => Nat.eqb p i | None => false end) with false; [reflexivity|].
      symmetry. rewrite Hpar. destruct (slot slots l) as [p|] eqn:Es; [|reflexivity].
      apply Nat.eqb_neq. intros ->. exact (Hno _ Es).
    + intros lv Hc. rewrite Hslot in Hc. destruct (lv =? l + 1).
      * inversion Hc. lia.
      * exact (Hno _ Hc).
Qed.

(** Reading the forest off the final arena. *)
Lemma reify_forest evs : forall slots a m a',
  levels_in m evs -> Z.of_nat (List.length slots) = m + 2 ->
  slots_ok slots (List.length a) ->
  tree_loop evs slots a = Ok a' ->
  forall fuel lv, (List.length evs <= fuel)%nat ->
    map (reify fuel a') (dc lv evs (List.length a)) = forest lv evs.
Proof.
  induction evs as [|[l v] evs IH]; intros slots a m a' Hl Hs Hok Hrun fuel lv Hf; [reflexivity|].
  destruct fuel as [|fuel]; [cbn in Hf; lia|].
  cbn [tree_loop] in Hrun.
  inversion Hl as [|? ? Hl1 Hl2]; subst. cbn [fst] in Hl1.
  unfold zset in Hrun. replace ((l + 1 <? 0) || (Z.of_nat (List.length slots) <=? l + 1)) with false in Hrun by lia.
  cbn [rbind] in Hrun. unfold zget in Hrun. replace (l + 1 - 1 <? 0) with false in Hrun by lia.
  set (slots' := lset slots (Z.to_nat (l + 1)) (Some (List.length a))) in *.
  destruct (nth_error slots' (Z.to_nat (l + 1 - 1))) as [parent|] eqn:Ep; [|discriminate].
  cbn [rbind] in Hrun.
  set (a1 := arena_add (a ++ [(v, [])]) parent (List.length a)) in *.
  assert (Hlen1 : List.length a1 = S (List.length a)).
  { unfold a1. rewrite arena_add_length, app_length. cbn. lia. }
  destruct Hok as [Hok1 Hok2].
  assert (Hslot : forall k, slot slots' k = if k =? l + 1 then Some (List.length a) else slot slots k).
  { intro k. apply slot_set. lia. }
  assert (Hok' : slots_ok slots' (List.length a1)).
  { split.
    - intros k i Hi. rewrite Hslot in Hi. destruct (k =? l + 1).
      + inversion Hi. lia.
      + apply Hok1 in Hi. lia.
    - intros k k' i H1 H2. rewrite Hslot in H1, H2.
      destruct (Z.eqb_spec k (l + 1)), (Z.eqb_spec k' (l + 1)); subst; auto.
      + inversion H1; subst. apply Hok1 in H2. lia.
      + inversion H2; subst. apply Hok1 in H1. lia.
      + eapply Hok2; eassumption. }
  assert (Hs' : Z.of_nat (List.length slots') = m + 2) by (unfold slots'; rewrite lset_length; exact Hs).
  assert (Hrest : forall f k, (List.length evs <= f)%nat ->
     map (reify f a') (dc k evs (S (List.length a))) = forest k evs).
  { intros f k Hfk. rewrite <- Hlen1. eapply IH; eassumption. }
  cbn [dc forest].
  destruct (Z.eqb_spec l (lv - 1)); [reflexivity|].
  destruct (Z.eqb_spec l lv) as [->|Hne].
  - cbn [map]. f_equal.
    + destruct (tree_loop_outs evs slots' a1 m Hl2 Hs' Hok') as (a2 & Ha2 & Hlen2 & Houts).
      rewrite Ha2 in Hrun. inversion Hrun; subst a2.
      assert (Hn : nth_error a1 (List.length a) = Some (v, [])).
      { unfold a1. rewrite nth_error_arena_add, nth_error_app2, Nat.sub_diag by lia. cbn.
        replace (match parent with Some p => Nat.eqb p (List.length a) | None => false end) with false; [reflexivity|].
        symmetry. destruct parent as [p|]; [|reflexivity]. apply Nat.eqb_neq.
        assert (Hp : slot slots lv = Some p).
        { assert (Hx : slot slots' lv = Some p).
          { unfold slot. replace (lv <? 0) with false by lia.
            replace (Z.to_nat (lv + 1 - 1)) with (Z.to_nat lv) in Ep by lia. rewrite Ep. reflexivity. }
          rewrite Hslot in Hx. replace (lv =? lv + 1) with false in Hx by lia. exact Hx. }
        apply Hok1 in Hp. lia. }
      destruct (Houts _ _ _ Hn) as [HA _].
      assert (Hsl : slot slots' (lv + 1) = Some (List.length a)) by (rewrite Hslot, Z.eqb_refl; reflexivity).
      specialize (HA _ Hsl). rewrite Hlen1 in HA. cbn [app] in HA.
      cbn [reify]. rewrite HA. f_equal.
      rewrite <- (Hrest fuel (lv + 1)) by (cbn in Hf; lia). rewrite map_map. reflexivity.
    + apply Hrest. cbn in Hf; lia.
  - apply Hrest. cbn in Hf; lia.
Qed.

(** Tree() is the graph of the events, whenever the levels are within 0..max. *)
Lemma Tree_spec h : 0 <= mx h -> levels_in (mx h) (evs h) -> Tree h = Ok (events_graph (evs h)).
Proof.
  intros Hm Hl. unfold Tree. replace (mx h + 2 <? 1) with false by lia.
  unfold zset. rewrite repeat_length.
  replace ((0 <? 0) || (Z.of_nat (Z.to_nat (mx h + 2)) <=? 0)) with false by lia.
  cbn [rbind].
  set (slots := lset (repeat None (Z.to_nat (mx h + 2))) (Z.to_nat 0) (Some 0%nat)).
  set (a := [(VStr (bs "_"), @nil nat)]).
  assert (Hslot : forall k, slot slots k = if k =? 0 then Some 0%nat else None).
  { intro k. unfold slots. rewrite slot_set by (rewrite repeat_length; lia).
    destruct (Z.eqb_spec k 0); [reflexivity|]. unfold slot. destruct (k <? 0); [reflexivity|].
    destruct (nth_error (repeat None _) (Z.to_nat k)) as [[i|]|] eqn:E; try reflexivity.
    apply nth_error_In, repeat_spec in E. discriminate. }
  assert (Hslen : Z.of_nat (List.length slots) = mx h + 2).
  { unfold slots. rewrite lset_length, repeat_length. lia. }
  assert (Hok : slots_ok slots (List.length a)).
  { split.
    - intros k i H. rewrite Hslot in H. destruct (k =? 0); inversion H. cbn. lia.
    - intros k k' i H1 H2. rewrite Hslot in H1, H2.
      destruct (Z.eqb_spec k 0), (Z.eqb_spec k' 0); congruence. }
  destruct (tree_loop_outs (evs h) slots a (mx h) Hl Hslen Hok) as (a' & Ha' & Hlen & Houts).
  rewrite Ha'. cbn [rbind]. f_equal. unfold events_graph.
  assert (H0 : slot slots 0 = Some 0%nat) by (rewrite Hslot; reflexivity).
  assert (Hn0 : nth_error a 0 = Some (VStr (bs "_"), [])) by reflexivity.
  destruct (Houts _ _ _ Hn0) as [HA _]. specialize (HA 0 H0).
  rewrite Hlen. change (List.length a + List.length (evs h))%nat with (S (List.length (evs h))).
  cbn [reify]. rewrite HA. f_equal. cbn [app].
  rewrite <- (reify_forest (evs h) slots a (mx h) a' Hl Hslen Hok Ha' (List.length (evs h)) 0) by lia.
  rewrite map_map. reflexivity.
Qed.

(** Invariant of handlers driven with non-negative levels. *)
Definition h_inv (h : handler) : Prop := 0 <= cur h <= mx h /\ levels_in (mx h) (evs h).
Definition hop_ok (o : hop) : Prop :=
  match o with HAddAt _ l | HSetLevel l => 0 <= l | _ => True end.

Lemma levels_in_mono m m' evs : m <= m' -> levels_in m evs -> levels_in m' evs.
Proof. intros H. apply Forall_impl. intros [l v]; cbn; lia. Qed.

Lemma Forall_removelast {A} (P : A -> Prop) l : Forall P l -> Forall P (removelast l).
Proof.
  induction l as [|x l IH]; intro H; [exact H|]. inversion H; subst. cbn.
  destruct l; [constructor|]. constructor; auto.
Qed.

Lemma h_step_inv o h h' : hop_ok o -> h_inv h -> h_step o h = Ok h' -> h_inv h'.
Proof.
  unfold h_inv. intros Ho [Hc Hl] E.
  destruct o; cbn in *; inversion E; subst; clear E; cbn.
  - split; [exact Hc|]. apply Forall_app. split; [exact Hl|]. constructor; [cbn; lia|constructor].
  - destruct (Z.ltb_spec (mx h) lv); (split; [lia|]); apply Forall_app; split;
      try (constructor; [cbn; lia|constructor]); [|exact Hl].
    eapply levels_in_mono; [|exact Hl]; lia.
  - unfold h_delete in H0. destruct (evs h) eqn:E; [discriminate|]. inversion H0; subst; cbn.
    split; [exact Hc|]. change (levels_in (mx h) (removelast (p :: l))).
    apply Forall_removelast. exact Hl.
  - destruct (Z.ltb_spec (mx h) l); (split; [lia|]); [|exact Hl].
    eapply levels_in_mono; [|exact Hl]; lia.
  - destruct (Z.ltb_spec (mx h) (cur h + 1)); (split; [lia|]); [|exact Hl].
    eapply levels_in_mono; [|exact Hl]; lia.
  - split; [|exact Hl]. destruct (Z.ltb_spec 0 (cur h)); lia.
Qed.

Lemma h_run_inv os h h' : Forall hop_ok os -> h_inv h -> h_run os h = Ok h' -> h_inv h'.
Proof.
  revert h; induction os as [|o os IH]; intros h Ho Hi E; cbn in E.
  - inversion E; subst; exact Hi.
  - inversion Ho; subst. destruct (h_step o h) eqn:Es; cbn in E; try discriminate.
    eapply IH; [assumption| |exact E]. eapply h_step_inv; eassumption.
Qed.

Lemma h_init_inv : h_inv h_init.
Proof. split; cbn; [lia|constructor]. Qed.

Lemma h_inv_Tree h : h_inv h -> Tree h = Ok (events_graph (evs h)).
Proof. intros [H1 H2]. apply Tree_spec; [lia|exact H2]. Qed.

(** ** Well nested sequences *)

Lemma nested_weaken b b' evs : b <= b' -> nested b evs -> nested b' evs.
Proof. destruct evs as [|[l v] r]; cbn; [trivial|]. intros H [H1 H2]. split; [lia|exact H2]. Qed.

Lemma nested_forest_nil l evs : nested l evs -> forest (l + 1) evs = [].
Proof.
  induction evs as [|[l' v] r IH]; cbn; [reflexivity|]. intros [H1 H2].
  destruct (Z.eqb_spec l' (l + 1 - 1)); [reflexivity|].
  destruct (Z.eqb_spec l' (l + 1)); [lia|]. apply IH. eapply nested_weaken; [|exact H2]. lia.
Qed.

(** Events from a level-l item on split into its descendants and the rest. *)
Lemma listings_app l a b : listings l (a ++ b) = listings l a ++ listings l b.
Proof. apply flat_map_app. Qed.

Lemma listing_node l v f :
  listing l (Node v (map Some f)) = (l, v) :: listings (l + 1) f.
Proof.
  cbn [listing]. f_equal. unfold listings. induction f as [|g f IH]; [reflexivity|].
  cbn [map flat_map]. rewrite IH. reflexivity.
Qed.

(** For a well-nested sequence whose first level is <= l, the longest prefix staying at
    level >= l is the listing of [forest l]. *)
Fixpoint takel (l : Z) (evs : list (Z * value graph)) : list (Z * value graph) :=
  match evs with [] => [] | (l', v) :: r => if l' <? l then [] else (l', v) :: takel l r end.
Fixpoint dropl (l : Z) (evs : list (Z * value graph)) : list (Z * value graph) :=
  match evs with [] => [] | (l', v) :: r => if l' <? l then evs else dropl l r end.

Lemma takel_dropl l evs : takel l evs ++ dropl l evs = evs.
Proof. induction evs as [|[l' v] r IH]; cbn; [reflexivity|]. destruct (l' <? l); [reflexivity|]. cbn. rewrite IH. reflexivity. Qed.

(* [forest l] only sees the part before the first level below l *)
Lemma forest_takel l evs b : nested b evs -> b <= l -> forest l evs = forest l (takel l evs).
Proof.
  revert b. induction evs as [|[l' v] r IH]; intros b Hn Hb; [reflexivity|].
  cbn [nested] in Hn. destruct Hn as [H1 H2]. cbn [takel].
  destruct (Z.ltb_spec l' l) as [Hlt|Hge].
  - cbn [forest]. destruct (Z.eqb_spec l' (l - 1)); [reflexivity|].
    destruct (Z.eqb_spec l' l); [lia|].
    (* below l-1: the next items must climb through l-1 *)
    replace l with ((l - 1) + 1) by lia. apply nested_forest_nil.
    eapply nested_weaken; [|exact H2]. lia.
  - assert (l' = l) by lia. subst l'. cbn [forest].
    destruct (Z.eqb_spec l (l - 1)); [lia|]. rewrite Z.eqb_refl.
    (* general statement needed for the tail: levels may exceed l *)
    assert (G : forall evs b, nested b evs -> forest l evs = forest l (takel l evs) /\
              forest (l + 1) evs = forest (l + 1) (takel l evs)).
    { clear - l. induction evs as [|[l' v] r IH]; intros b Hn; [split; reflexivity|].
      cbn [nested] in Hn. destruct Hn as [H1 H2]. destruct (IH _ H2) as [IH1 IH2].
      cbn [takel]. destruct (Z.ltb_spec l' l) as [Hlt|Hge].
      - cbn [forest]. split.
        + destruct (Z.eqb_spec l' (l - 1)); [reflexivity|].
          destruct (Z.eqb_spec l' l); [lia|].
          replace l with ((l - 1) + 1) at 1 by lia. apply nested_forest_nil.
          eapply nested_weaken; [|exact H2]. lia.
        + destruct (Z.eqb_spec l' (l + 1 - 1)); [reflexivity|].
          destruct (Z.eqb_spec l' (l + 1)); [lia|].
          apply nested_forest_nil. eapply nested_weaken; [|exact H2]. lia.
      - cbn [forest]. split.
        + destruct (l' =? l - 1); [reflexivity|]. destruct (Z.eqb_spec l' l) as [->|Hne]; [|exact IH1].
          rewrite IH1, IH2. reflexivity.
        + destruct (l' =? l + 1 - 1); [reflexivity|]. destruct (Z.eqb_spec l' (l + 1)) as [->|Hne]; [|exact IH2].
          rewrite IH2. f_equal. f_equal. f_equal.
          (* children of level l+2 *)
          clear - H2.
          assert (K : forall evs b k, nested b evs -> l < k -> forest k evs = forest k (takel l evs)).
          { clear. induction evs as [|[l' v] r IH]; intros b k Hn Hk; [reflexivity|].
            cbn [nested] in Hn. destruct Hn as [H1 H2]. cbn [takel].
            destruct (Z.ltb_spec l' l) as [Hlt|Hge].
            - cbn [forest]. destruct (Z.eqb_spec l' (k - 1)); [reflexivity|].
              destruct (Z.eqb_spec l' k); [lia|].
              replace k with ((k - 1) + 1) by lia. apply nested_forest_nil.
              eapply nested_weaken; [|exact H2]. lia.
            - cbn [forest]. destruct (l' =? k - 1); [reflexivity|].
              rewrite (IH _ k H2 Hk), (IH _ (k + 1) H2 ltac:(lia)). reflexivity. }
          eapply K; [exact H2|lia]. }
    destruct (G _ _ H2) as [G1 G2]. rewrite G1, G2. reflexivity.
Qed.

(** The forest of a well-nested sequence lists back to the sequence. *)
Lemma listings_forest evs : forall l,
  Forall (fun e => l <= fst e) evs -> nested l evs -> listings l (forest l evs) = evs.
Proof.
  intros l. remember (List.length evs) as n eqn:En. assert (Hn : (List.length evs <= n)%nat) by lia. clear En.
  revert evs l Hn. induction n as [|n IH]; intros evs l Hn Hge Hnest.
  { destruct evs; [reflexivity|cbn in Hn; lia]. }
  destruct evs as [|[l' v] r]; [reflexivity|].
  cbn [nested] in Hnest. destruct Hnest as [H1 H2]. inversion Hge as [|? ? Hl' Hr]; subst. cbn [fst] in Hl'.
  assert (l' = l) by lia. subst l'. cbn [forest].
  destruct (Z.eqb_spec l (l - 1)); [lia|]. rewrite Z.eqb_refl.
  cbn [listings flat_map]. rewrite listing_node. cbn [app]. f_equal.
  change (listings (l + 1) (forest (l + 1) r) ++ listings l (forest l r) = r).
  rewrite <- (takel_dropl (l + 1) r) at 3.
  assert (Ht : Forall (fun e => l + 1 <= fst e) (takel (l + 1) r)).
  { clear. induction r as [|[l' v] r IH]; cbn; [constructor|]. destruct (Z.ltb_spec l' (l + 1)); [constructor|].
    constructor; [cbn; lia|exact IH]. }
  assert (Hnt : nested (l + 1) (takel (l + 1) r)).
  { clear - H2. assert (G : forall b, nested b r -> nested b (takel (l + 1) r)).
    { induction r as [|[l' v] r IH] in H2 |- *; intros b Hb; cbn in *; [trivial|]. destruct Hb as [Hb1 Hb2].
      destruct (l' <? l + 1); cbn; [trivial|]. split; [exact Hb1|].
      clear H2. revert Hb2. generalize (l' + 1). clear - r. revert r.
      induction r as [|[l'' v''] r IH]; intros b Hb; cbn in *; [trivial|]. destruct Hb as [Hb1 Hb2].
      destruct (l'' <? l + 1); cbn; [trivial|]. split; [exact Hb1|]. apply IH. exact Hb2. }
    apply G. exact H2. }
  assert (Hlt : (List.length (takel (l + 1) r) <= n)%nat).
  { pose proof (f_equal (@List.length _) (takel_dropl (l + 1) r)) as E. rewrite app_length in E. cbn in Hn. lia. }
  assert (Hld : (List.length (dropl (l + 1) r) <= n)%nat).
  { pose proof (f_equal (@List.length _) (takel_dropl (l + 1) r)) as E. rewrite app_length in E. cbn in Hn. lia. }
  f_equal.
  - rewrite (forest_takel (l + 1) r (l + 1) H2) by lia. apply IH; assumption.
  - (* level-l items start at the first item below l+1 *)
    assert (Hd : forest l r = forest l (dropl (l + 1) r)).
    { clear - r. induction r as [|[l' v] r IH]; [reflexivity|]. cbn [dropl].
      destruct (Z.ltb_spec l' (l + 1)); [reflexivity|]. cbn [forest].
      destruct (Z.eqb_spec l' (l - 1)); [lia|]. destruct (Z.eqb_spec l' l); [lia|]. exact IH. }
    rewrite Hd. apply IH.
    + exact Hld.
    + clear - Hr. induction r as [|[l' v] r IH]; cbn; [constructor|]. inversion Hr; subst.
      destruct (l' <? l + 1); [exact Hr|apply IH; assumption].
    + clear - H2. assert (G : forall b, nested b r -> nested l (dropl (l + 1) r)).
      { induction r as [|[l' v] r IH] in H2 |- *; intros b Hb; cbn in *; [trivial|]. destruct Hb as [Hb1 Hb2].
        destruct (Z.ltb_spec l' (l + 1)); cbn; [split; [lia|exact Hb2]|].
        clear H2. revert Hb2. generalize (l' + 1). clear - r. revert r.
        induction r as [|[l'' v''] r IH]; intros b Hb; cbn in *; [trivial|]. destruct Hb as [Hb1 Hb2].
        destruct (Z.ltb_spec l'' (l + 1)); cbn; [split; [lia|exact Hb2]|]. eapply IH. exact Hb2. }
      eapply G. exact H2.
Qed.

(** ** Preorders of trees of strings *)

Definition vpre (l : Z) (f : list tree) : list (Z * value graph) :=
  map (fun e => (fst e, VStr (snd e))) (pres l f).

Lemma pres_cons l t f : pres l (t :: f) = pre l t ++ pres l f.
Proof. reflexivity. Qed.
Lemma pres_node l s k f : pres l (T s k :: f) = (l, s) :: pres (l + 1) k ++ pres l f.
Proof. reflexivity. Qed.

Lemma vpre_node l s k f : vpre l (T s k :: f) = (l, VStr s) :: vpre (l + 1) k ++ vpre l f.
Proof. unfold vpre. rewrite pres_node. cbn [map fst snd]. rewrite map_app. reflexivity. Qed.

Section forest_rect.
Variable P : list tree -> Prop.
Hypothesis Hnil : P [].
Hypothesis Hcons : forall s k f, P k -> P f -> P (T s k :: f).
Lemma trees_ind : forall f, P f.
Proof.
  assert (G : forall t f, P f -> P (t :: f)).
  { intro t. induction t as [s k IH] using tree_ind'. intros f Hf. apply Hcons; [|exact Hf].
    induction IH as [|t k Ht Hk IHk]; [exact Hnil|]. apply Ht. exact IHk. }
  induction f as [|t f IH]; [exact Hnil|]. apply G. exact IH.
Qed.
End forest_rect.

Lemma vpre_ge l f : Forall (fun e => l <= fst e) (vpre l f).
Proof.
  revert l. induction f as [|s k f IHk IHf] using trees_ind; intro l; [constructor|].
  rewrite vpre_node. constructor; [cbn; lia|]. apply Forall_app. split; [|apply IHf].
  eapply Forall_impl; [|apply IHk]. cbn; intros; lia.
Qed.

Lemma vpre_nested f : forall l r, 0 <= l -> nested l r -> nested l (vpre l f ++ r).
Proof.
  induction f as [|s k f IHk IHf] using trees_ind; intros l r Hl Hr; [exact Hr|].
  rewrite vpre_node. cbn [app nested]. split; [lia|]. rewrite <- app_assoc. apply IHk; [lia|].
  eapply nested_weaken; [|apply IHf; [lia|exact Hr]]. lia.
Qed.

Lemma forest_skip l a r : Forall (fun e => l < fst e) a -> forest l (a ++ r) = forest l r.
Proof.
  induction a as [|[l' v] a IH]; intro H; [reflexivity|]. inversion H; subst. cbn [fst] in *. cbn [app forest].
  destruct (Z.eqb_spec l' (l - 1)); [lia|]. destruct (Z.eqb_spec l' l); [lia|]. apply IH. assumption.
Qed.

Lemma gforest_map f : gforest f = map Some (map gtree f).
Proof. unfold gforest. rewrite map_map. reflexivity. Qed.

Lemma gtree_node s k : gtree (T s k) = Node (VStr s) (map Some (map gtree k)).
Proof. cbn [gtree]. rewrite map_map. reflexivity. Qed.

Lemma forest_vpre f : forall l r, 0 <= l -> nested l r ->
  forest l (vpre l f ++ r) = map gtree f ++ forest l r.
Proof.
  induction f as [|s k f IHk IHf] using trees_ind; intros l r Hl Hr; [reflexivity|].
  rewrite vpre_node. cbn [app forest map].
  destruct (Z.eqb_spec l (l - 1)); [lia|]. rewrite Z.eqb_refl, <- app_assoc.
  assert (Hn : nested l (vpre l f ++ r)) by (apply vpre_nested; assumption).
  rewrite IHk.
  2: lia.
  2:{ eapply nested_weaken; [|exact Hn]; lia. }
  rewrite (nested_forest_nil l _ Hn), app_nil_r.
  rewrite forest_skip.
  2:{ eapply Forall_impl; [|apply vpre_ge]. cbn; intros; lia. }
  rewrite IHf by assumption. rewrite gtree_node. reflexivity.
Qed.

Lemma events_graph_vpre f : events_graph (vpre 0 f) = groot f.
Proof.
  unfold events_graph, groot. rewrite gforest_map. f_equal. f_equal.
  rewrite <- (app_nil_r (vpre 0 f)), forest_vpre by (cbn; trivial; lia).
  cbn [forest]. rewrite app_nil_r. reflexivity.
Qed.

Lemma nested_ge0 evs : forall b, nested b evs -> Forall (fun e => 0 <= fst e) evs.
Proof.
  induction evs as [|[l v] r IH]; intros b H; [constructor|]. destruct H as [H1 H2].
  constructor; [apply H1|exact (IH _ H2)].
Qed.

Lemma nested_listings evs : nested 0 evs -> listings 0 (forest 0 evs) = evs.
Proof. intro H. apply listings_forest; [exact (nested_ge0 _ _ H)|exact H]. Qed.
