(** C38 and C85: the typed getters on contents of more kinds; they return. *)
From Verif Require Import Base Value Graph Emit PathSpec PathParser PathFacts PathTerm Eval AccessSpec AccessFacts Template TemplateTerm Fuel Ends.
From Verif Require Import PathLimits Samples P_Path P_Access P_Ends Fuel.
Local Notation len l := (Z.of_nat (List.length l)).

(** ** C38 Unsigned integers from 2^63 on: GetInt64 gives a negative number and no error, although
    GetString prints the number itself. *)
Theorem C38_unsigned_refuted : forall E C f g g' path n k z, path <> [] -> Get E C f g path = Ok (g', n) -> no_nil_first n ->
  first_of n = Some (VInt k z) -> 2 ^ 63 <= z < 2 ^ 64 ->
  GetInt64 E C f g path = Ok (Some (z - 2 ^ 64)) /\ z - 2 ^ 64 < 0 /\ GetString E C f g path = Ok (Some (format_int z)).
Proof.
  intros E C f g g' path n k z Hp H Hn Hf Hz. unfold GetInt64, GetString, get_with. destruct path; [congruence|]. rewrite H. cbn [rbind].
  destruct n as [[t [|[c|] o]]|]; cbn [first_of no_nil_first] in *; try discriminate Hf. injection Hf as ->. cbn [v_int64f v_int64 rbind vstring sstring].
  split; [|split; [lia|reflexivity]]. do 2 f_equal. unfold wrap64. replace (z + 2 ^ 63) with ((z - 2 ^ 63) + 1 * 2 ^ 64) by lia. rewrite Z.mod_add by lia. rewrite Z.mod_small; lia.
Qed.
Print Assumptions C38_unsigned_refuted.

(** ** C38 A graph as the content of the first subnode: GetBytes gives its content, GetString that of its first
    subnode. *)
Theorem C38_graph_partial : forall E C f g g' path n q s, path <> [] -> Get E C f g path = Ok (g', n) -> no_nil_first n ->
  first_of n = Some (VPtr (Some q)) ->
  (vstring E (this q) = Ok s -> GetBytes E C f g path = Ok (Some s)) /\
  (forall c o, out q = Some c :: o -> vstring E (this c) = Ok s -> GetString E C f g path = Ok (Some s)) /\
  (out q = [] -> GetString E C f g path = Ok (Some [])).
Proof.
  intros E C f g g' path n q s Hp H Hn Hf. unfold GetBytes, GetString, get_with. destruct path; [congruence|]. rewrite H. cbn [rbind].
  destruct n as [[t [|[c|] o]]|]; cbn [first_of no_nil_first] in *; try discriminate Hf. injection Hf as ->. cbn [vbytes ThisString vstring].
  split; [intros ->; reflexivity|]. split; [|destruct q as [w l]; cbn; intros ->; reflexivity].
  intros c0 o0 Hq Hs. destruct q as [w l]. cbn [out] in Hq. subst l. destruct c0 as [v l]. cbn [this] in Hs. cbn [gstring].
  destruct v as [| | | | | | |[p|]| | |]; cbn [vstring] in Hs; rewrite ?Hs; cbn in *; try (injection Hs as <-); reflexivity.
Qed.
Print Assumptions C38_graph_partial.

Example C38_unsigned_ex : let g := nd "x" [nd "a" [Node (VInt KUint64 (2 ^ 64 - 1)) []]] in
  Get env0 calls0 9 (Some g) (bs "a") = Ok (Some g, Some (nd "a" [Node (VInt KUint64 (2 ^ 64 - 1)) []])) /\ GetInt64 env0 calls0 9 (Some g) (bs "a") = Ok (Some (-1)).
Proof.
  intro g. assert (H : Get env0 calls0 9 (Some g) (bs "a") = Ok (Some g, Some (nd "a" [Node (VInt KUint64 (2 ^ 64 - 1)) []]))).
  { change (bs "a") with (path_text [Name (bs "a")]). rewrite Get_eq; [reflexivity|ascii_names|discriminate|split; cbn; lia]. }
  split; [exact H|]. exact (proj1 (C38_unsigned_refuted env0 calls0 9 _ _ (bs "a") _ KUint64 (2 ^ 64 - 1) ltac:(discriminate) H I eq_refl ltac:(lia))).
Qed.
Example C38_graph_ex : let q := nd "b" [nd "c" []] in let g := nd "x" [nd "a" [Node (VPtr (Some q)) []]] in
  GetBytes env0 calls0 9 (Some g) (bs "a") = Ok (Some (bs "b")) /\ GetString env0 calls0 9 (Some g) (bs "a") = Ok (Some (bs "c")).
Proof.
  intros q g. assert (H : Get env0 calls0 9 (Some g) (bs "a") = Ok (Some g, Some (nd "a" [Node (VPtr (Some q)) []]))).
  { change (bs "a") with (path_text [Name (bs "a")]). rewrite Get_eq; [reflexivity|ascii_names|discriminate|split; cbn; lia]. }
  destruct (C38_graph_partial env0 calls0 9 _ _ (bs "a") _ q (bs "b") ltac:(discriminate) H I eq_refl) as (H1 & _).
  destruct (C38_graph_partial env0 calls0 9 _ _ (bs "a") _ q (bs "c") ltac:(discriminate) H I eq_refl) as (_ & H2 & _).
  split; [exact (H1 eq_refl)|exact (H2 (nd "c" []) [] eq_refl eq_refl)].
Qed.

(** ** C85 The typed getters return whenever Get does. *)
Lemma get_with_answers {A} E C g s n direct (conv : value graph -> res (option A)) : answers n (fun f => Get E C f g s) ->
  (direct g <> NoFuel) -> (forall v, conv v <> NoFuel) -> answers n (fun f => get_with E C f g s direct conv).
Proof.
  intros (r & Hr & H) Hd Hc. unfold get_with. destruct s as [|c s].
  - eexists. split; [|intros; reflexivity]. destruct (direct g); [discriminate|discriminate|contradiction].
  - destruct r as [[g' m]| |]; [| |contradiction].
    + eexists. split; [|intros f Hf; rewrite (H f Hf); cbn [rbind]; reflexivity].
      destruct m as [[t [|[d|] o]]|]; try discriminate. apply Hc.
    + exists Panic. split; [discriminate|]. intros f Hf. rewrite (H f Hf). reflexivity.
Qed.
Theorem C85_getters_partial : forall E C g s, returns C -> well_lettered E s -> len s <= 4094 -> exists n,
  answers n (fun f => GetString E C f g s) /\ answers n (fun f => GetBytes E C f g s) /\ answers n (fun f => GetInt64 E C f g s) /\
  answers n (fun f => GetFloat64 E C f g s) /\ answers n (fun f => GetBool E C f g s).
Proof.
  intros E C g s HC HW Hl. destruct (C85_get_partial E C g s HC HW Hl) as (n & Hn). exists n.
  assert (Hv : forall v, vstring E v <> NoFuel) by (intro v; apply fin_vstring).
  assert (Hb : forall v, vbytes E v <> NoFuel) by (intros [| | | | | | |[p|]| | |]; try discriminate; apply Hv).
  assert (Hg : forall x, String_ E x <> NoFuel) by (intros [x|]; [exact (Hv (VPtr (Some x)))|discriminate]).
  assert (Hi : forall x : option graph, Interface x <> NoFuel) by (intros [[t [|[c|] o]]|]; discriminate).
  assert (Hz : forall v, v_int64f E v <> NoFuel).
  { intro v. unfold v_int64f. destruct v as [| | | | | | |[p|]| | |]; cbn [rbind]; try discriminate. }
  assert (Hf : forall v, v_float64f E v <> NoFuel) by (intro v; apply fin_float64f).
  split; [apply get_with_answers; [exact Hn|apply Hg|]; intro v; apply fin_bind; [apply Hv|discriminate]|].
  split; [apply get_with_answers; [exact Hn| |]; [apply fin_bind; [apply Hi|intros v _; apply Hb]|intro v; apply fin_bind; [apply Hb|discriminate]]|].
  split; [apply get_with_answers; [exact Hn| |exact Hz]; apply fin_bind; [apply Hi|]; intros v _; apply fin_bind; [apply Hz|discriminate]|].
  split; [apply get_with_answers; [exact Hn| |exact Hf]; apply fin_bind; [apply Hg|]; intros x _; apply fin_bind; [apply Hf|discriminate]|].
  apply get_with_answers; [exact Hn| |discriminate]. apply fin_bind; [apply Hg|discriminate].
Qed.
Print Assumptions C85_getters_partial.

Example C85_getters_ex : returns calls0 /\ well_lettered env0 (bs "a.b[1]") /\ len (bs "a.b[1]") <= 4094.
Proof. split; [exact C85_ex_returns|]. split; [|cbn; lia]. apply ascii_well_lettered. repeat constructor. Qed.
