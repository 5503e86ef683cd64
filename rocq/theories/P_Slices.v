(** C73: every node owns the array behind its children. *)
From Verif Require Import Base Value Heap HeapFacts Slices SlicesFacts Samples.
From Coq Require Import Lia.

Definition empty_mem : mem := {| nodes := []; arrays := [] |}.
Lemma owned_empty : owned empty_mem.
Proof. split; intros [|a]; discriminate. Qed.

(** Any sequence of calls of the functions of graph.go, with append reserving space in any way: the results
    and what the nodes contain are as if children were kept in lists that nobody shares. *)
Theorem C73_history : forall E spare f ops,
  let (s, e) := srun E spare f ops empty_mem [] in
  let (h, e') := run E f ops [] [] in
  e = e' /\ List.length (nodes s) = List.length h /\
  forall a n, nth_error (nodes s) a = Some n -> nth_error h a = Some {| c_this := n_this n; c_out := view s (n_out n) |}.
Proof.
  intros E spare f ops. destruct (sim_run E spare f ops empty_mem [] owned_empty) as (s & e & Q & Q' & _). rewrite Q. change (as_heap empty_mem) with (@nil cell) in Q'. rewrite Q'.
  split; [reflexivity|]. split; [unfold as_heap; rewrite map_length; reflexivity|]. intros a n G. rewrite heap_at, G. reflexivity.
Qed.
Print Assumptions C73_history.

(** So nothing depends on how much space append reserves. *)
Theorem C73_growth : forall E spare spare' f ops,
  let (s, e) := srun E spare f ops empty_mem [] in
  let (s', e') := srun E spare' f ops empty_mem [] in
  e = e' /\ forall a n, nth_error (nodes s) a = Some n -> exists n', nth_error (nodes s') a = Some n' /\ n_this n' = n_this n /\ view s' (n_out n') = view s (n_out n).
Proof.
  intros E spare spare' f ops. destruct (sim_run E spare f ops empty_mem [] owned_empty) as (s & e & Q & Q1 & _). destruct (sim_run E spare' f ops empty_mem [] owned_empty) as (s' & e' & Q' & Q1' & _).
  rewrite Q, Q'. rewrite Q1 in Q1'. injection Q1' as Hh He. split; [exact He|]. intros a n G.
  assert (K : nth_error (as_heap s) a = Some (plain_cell s n)) by (rewrite heap_at, G; reflexivity). rewrite Hh, heap_at in K. destruct (nth_error (nodes s') a) as [n'|]; [|discriminate]. injection K as K1 K2. exists n'. auto.
Qed.
Print Assumptions C73_growth.

(** No two nodes have the same array, and no slice is longer than its array. *)
Theorem C73_arrays : forall E spare f ops, let s := fst (srun E spare f ops empty_mem []) in
  forall a n l, nth_error (nodes s) a = Some n -> n_out n = Some l ->
    (s_len l <= List.length (array s (s_arr l)))%nat /\
    forall b m k, a <> b -> nth_error (nodes s) b = Some m -> n_out m = Some k -> s_arr l <> s_arr k.
Proof.
  intros E spare f ops s a n l G Hl. subst s. destruct (sim_run E spare f ops empty_mem [] owned_empty) as (s & e & Q & _ & O). rewrite Q in *. cbn [fst] in *.
  split; [apply (own_len s O a n l G Hl)|]. intros b m k Hab Gb Hk. exact (own_one s O a b n m l k Hab G Gb Hl Hk).
Qed.
Print Assumptions C73_arrays.

(** A function that changes the children of one node changes no other node. *)
Definition receiver (o : op) : option nat :=
  match o with OAdd g _ | OAddNodes g _ | ODelete g _ | OClear g | ODeleteAt g _ => Some g | _ => None end.
Definition frame (a : addr) {A} (m : M A) : Prop := forall h b, b <> a -> (b < List.length h)%nat -> nth_error (fst (m h)) b = nth_error h b /\ (List.length h <= List.length (fst (m h)))%nat.
Lemma frame_bind a A B (m : M A) (k : A -> M B) : frame a m -> (forall x, frame a (k x)) -> frame a (mbind m k).
Proof.
  intros Hm Hk h b Hb Hl. destruct (Hm h b Hb Hl) as [K L]. unfold mbind. destruct (m h) as [h1 [x| |]]; cbn [fst] in *; auto.
  destruct (Hk x h1 b Hb ltac:(lia)) as [K2 L2]. rewrite K2. split; [exact K|lia].
Qed.
Lemma frame_reads a A (m : M A) : (forall h, fst (m h) = h) -> frame a m.
Proof. intros H h b _ _. rewrite H. auto. Qed.
Lemma frame_set_out a o : frame a (set_out a o).
Proof.
  apply frame_bind; [apply frame_reads; reflexivity|]. intros c h b Hb Hl. cbn [store fst]. rewrite set_cell_replace, replace_nth, replace_length. apply Nat.eqb_neq in Hb. rewrite Hb. auto.
Qed.
Lemma frame_alloc a c : frame a (alloc c).
Proof. intros h b _ Hl. cbn [alloc fst]. rewrite nth_error_app1, app_length by exact Hl. split; [reflexivity|lia]. Qed.
Lemma frame_load a c : frame a (load c).
Proof. apply frame_reads. reflexivity. Qed.
Lemma frame_ret a A (x : A) : frame a (ret x).
Proof. apply frame_reads. reflexivity. Qed.
Lemma frame_del a n : forall rest done, frame a (hdel a n done rest).
Proof.
  induction rest as [|c rest IH]; intro done; cbn [hdel]; [apply frame_ret|]. apply frame_bind; [destruct c; apply frame_reads; reflexivity|]. intro x. apply frame_bind; [apply frame_load|]. intro e.
  apply frame_bind; [apply frame_reads; reflexivity|]. intros [|]; [|apply IH]. apply frame_bind; [apply frame_set_out|]. intro. apply IH.
Qed.
Lemma frame_op E f e o g a : receiver o = Some g -> var e g = Some a -> frame a (run_op E f e o).
Proof.
  intros Hr Hv. destruct o; cbn in Hr; try discriminate; injection Hr as ->; cbn [run_op]; rewrite Hv.
  - assert (K : forall v, frame a (do n <- alloc {| c_this := v; c_out := [] |}; do c <- load a; do _ <- set_out a (c_out c ++ [Some n]); ret (Some n))).
    { intro w. apply frame_bind; [apply frame_alloc|]. intro n. apply frame_bind; [apply frame_load|]. intro c. apply frame_bind; [apply frame_set_out|]. intro. apply frame_ret. }
    destruct (resolve e v) as [|?|?|?|? ?|?|?|[n|]|?|?|?]; cbn [hAdd]; try apply K; try apply frame_ret. apply frame_bind; [apply frame_load|]. intro c. apply frame_bind; [apply frame_set_out|]. intro. apply frame_ret.
  - destruct (var e g2); [|apply frame_ret]. apply frame_bind; [apply frame_load|]. intro c. apply frame_bind; [apply frame_load|]. intro d. apply frame_bind; [apply frame_set_out|]. intro. apply frame_ret.
  - apply frame_bind; [|intro; apply frame_ret]. apply frame_bind; [apply frame_load|]. intro. apply frame_del.
  - apply frame_bind; [|intro; apply frame_ret]. apply frame_set_out.
  - apply frame_bind; [|intro; apply frame_ret]. apply frame_bind; [apply frame_load|]. intro c. destruct (_ || _); [apply frame_ret|apply frame_set_out].
Qed.
Theorem C73_others : forall E spare f ops o g a b n,
  let (s, e) := srun E spare f ops empty_mem [] in
  receiver o = Some g -> var e g = Some a -> b <> a -> nth_error (nodes s) b = Some n ->
  let s' := fst (srun_op E spare f e o s) in
  exists n', nth_error (nodes s') b = Some n' /\ n_this n' = n_this n /\ view s' (n_out n') = view s (n_out n).
Proof.
  intros E spare f ops o g a b n. destruct (sim_run E spare f ops empty_mem [] owned_empty) as (s & e & Q & _ & O). rewrite Q. intros Hr Hv Hb G.
  destruct (sim_run_op E spare f e o s O) as (s' & r & Q1 & Q2 & _). rewrite Q1. cbn [fst].
  assert (Hl : (b < List.length (as_heap s))%nat) by (unfold as_heap; rewrite map_length; apply nth_error_Some; congruence).
  destruct (frame_op E f e o g a Hr Hv (as_heap s) b Hb Hl) as [K _]. rewrite Q2 in K. cbn [fst] in K. rewrite !heap_at, G in K. destruct (nth_error (nodes s') b) as [n'|]; [|discriminate]. injection K as K1 K2. exists n'. auto.
Qed.
Print Assumptions C73_others.

(** What Scalar and ThisScalar look at.  With children it is the first child's content.  Without, it depends on
    whether Out is nil. *)
Theorem C73_scalar : forall s a n, nth_error (nodes s) a = Some n ->
  (n_out n = None -> sScalar a s = (s, Ok VNil) /\ sThisScalar a s = (s, Ok (n_this n))) /\
  (forall l, n_out n = Some l -> view s (n_out n) = [] -> sScalar a s = (s, Panic) /\ (n_this n = VNil -> sThisScalar a s = (s, Panic))) /\
  (forall b o m, view s (n_out n) = Some b :: o -> nth_error (nodes s) b = Some m -> sScalar a s = (s, Ok (n_this m)) /\ (n_this n = VNil -> sThisScalar a s = (s, Ok (n_this m)))).
Proof.
  intros s a n G. unfold sScalar, sThisScalar, sInterface, sfirst, sbind, sload, sview, sret. rewrite G. split; [|split].
  - intro H. rewrite H. cbn [view]. split; [reflexivity|]. destruct (n_this n); reflexivity.
  - intros l Hl Hv. rewrite Hv, Hl in *. rewrite Hv. split; [reflexivity|]. intro Ht. rewrite Ht, Hv. reflexivity.
  - intros b o m Hv Gm. assert (Hs : exists l, n_out n = Some l) by (destruct (n_out n); [eauto|discriminate Hv]). destruct Hs as [l Hl]. rewrite Hl in *. rewrite ?Hv. rewrite Gm. split.
    + destruct (n_this m) eqn:Hm; try reflexivity. rewrite ?Hv, Gm, Hm. reflexivity.
    + intro Ht. rewrite Ht, ?Hv, Gm. reflexivity.
Qed.
Print Assumptions C73_scalar.

(** An Out that is empty but not nil comes from a removal, or from the caller. *)
Theorem C73_nil : forall E spare f ops,
  Forall (fun o => (forall g v, o <> ODelete g v) /\ (forall g i, o <> ODeleteAt g i) /\ (forall g, o <> OSetOut g [])) ops ->
  let s := fst (srun E spare f ops empty_mem []) in
  forall a n, nth_error (nodes s) a = Some n -> view s (n_out n) = [] -> n_out n = None.
Proof.
  intros E spare f ops H s a n G Hv. subst s. assert (T : tight (fst (srun E spare f ops empty_mem []))) by (apply keeps_run; [exact H|intros [|x]; discriminate]).
  destruct (sim_run E spare f ops empty_mem [] owned_empty) as (s & e & Q & _ & O). rewrite Q in *. cbn [fst] in *. destruct (n_out n) as [l|] eqn:Hl; [|reflexivity]. exfalso.
  specialize (T a n l G Hl). pose proof (view_length spare s a n l O G Hl) as K. cbn [view] in Hv. rewrite Hv in K. cbn in K. lia.
Qed.
Print Assumptions C73_nil.

(** Scalar panics on a graph that was emptied with DeleteAt, though not on one emptied with Clear. *)
Definition emptied (o : op) : list op := [ONew VNil; OAdd 0 (VStr (bs "x")); o].
Theorem C73_scalar_refuted : exists s a,
  s = fst (srun env0 (fun _ => O) 5 (emptied (ODeleteAt 0 0)) empty_mem []) /\ sScalar a s = (s, Panic) /\ sThisScalar a s = (s, Panic).
Proof. eexists. exists O. split; [reflexivity|]. vm_compute. split; reflexivity. Qed.
Print Assumptions C73_scalar_refuted.
Example C73_scalar_ex_clear : let s := fst (srun env0 (fun _ => O) 5 (emptied (OClear 0)) empty_mem []) in sScalar O s = (s, Ok VNil).
Proof. reflexivity. Qed.

(** Children added to g and to the clone c of g, with room for two more children in every array: nodes 0 and 3 *)
Definition grown : list op := [ONew VNil; OAdd 0 (VStr (bs "x")); OAdd 0 (VStr (bs "y")); OClone 0; OAdd 0 (VStr (bs "z")); OAdd 3 (VStr (bs "w")); ODeleteAt 0 0].
Definition kids (s : mem) (a : nat) : list (option addr) := match nth_error (nodes s) a with Some n => view s (n_out n) | None => [] end.
Example C73_history_ex : let s := fst (srun env0 (fun _ => 2%nat) 5 grown empty_mem []) in
  kids s 0 = [Some 2; Some 6]%nat /\ kids s 3 = [Some 4; Some 5; Some 7]%nat /\ arrays s = [[Some 2; Some 6; Some 6]; [Some 4; Some 5; Some 7]]%nat.
Proof. vm_compute. split; [reflexivity|]. split; reflexivity. Qed.
Example C73_growth_ex : let s := fst (srun env0 (fun _ => O) 5 grown empty_mem []) in
  kids s 0 = [Some 2; Some 6]%nat /\ kids s 3 = [Some 4; Some 5; Some 7]%nat /\ List.length (arrays s) = 6%nat.
Proof. vm_compute. split; [reflexivity|]. split; reflexivity. Qed.
Example C73_arrays_ex : let s := fst (srun env0 (fun _ => 2%nat) 5 grown empty_mem []) in
  nth_error (nodes s) 0 = Some {| n_this := VNil; n_out := Some {| s_arr := 0; s_len := 2 |} |} /\ nth_error (nodes s) 3 = Some {| n_this := VNil; n_out := Some {| s_arr := 1; s_len := 3 |} |}.
Proof. vm_compute. split; reflexivity. Qed.
Example C73_others_ex : let (s, e) := srun env0 (fun _ => 2%nat) 5 grown empty_mem [] in
  receiver (OAddNodes 0 3) = Some 0%nat /\ var e 0 = Some 0%nat /\ nth_error (nodes s) 3 <> None /\ kids (fst (srun_op env0 (fun _ => 2%nat) 5 e (OAddNodes 0 3) s)) 0 = [Some 2; Some 6; Some 4; Some 5; Some 7]%nat.
Proof. vm_compute. split; [reflexivity|]. split; [reflexivity|]. split; [discriminate|reflexivity]. Qed.
Example C73_nil_ex : Forall (fun o => (forall g v, o <> ODelete g v) /\ (forall g i, o <> ODeleteAt g i) /\ (forall g, o <> OSetOut g [])) (emptied (OClear 0)).
Proof. repeat constructor; discriminate. Qed.
Example C73_scalar_ex : let s := fst (srun env0 (fun _ => O) 5 [ONew VNil; OAdd 0 (VStr (bs "x"))] empty_mem []) in
  kids s 0 = [Some 1%nat] /\ snd (sScalar O s) = Ok (VStr (bs "x")) /\ snd (sThisScalar O s) = Ok (VStr (bs "x")).
Proof. vm_compute. split; [reflexivity|]. split; reflexivity. Qed.
