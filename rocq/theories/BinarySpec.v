(** What the binary format is meant to represent. *)
From Verif Require Import Base Value EventSpec Binary.

(** [shows E o f]: the children [o] of a node print as the forest of strings [f];
    nodes whose content prints as "" are transparent. *)
Inductive shows (E : env) : list (option graph) -> list tree -> Prop :=
| shows_nil : shows E [] []
| shows_empty v kids rest k r :
    vbytes E v = Ok [] -> shows E kids k -> shows E rest r ->
    shows E (Some (Node v kids) :: rest) (k ++ r)
| shows_node v kids rest c s k r :
    vbytes E v = Ok (c :: s) -> shows E kids k -> shows E rest r ->
    shows E (Some (Node v kids) :: rest) (T (c :: s) k :: r).

(** Contents that survive the format. *)
Definition good_content (s : bytes) : Prop :=
  s <> [] /\ ~ In x00 s /\ hd_error s <> Some x01.

(** All contents good, nesting level at most [d]. *)
Inductive good_forest : nat -> list tree -> Prop :=
| good_nil d : good_forest d []
| good_cons d s k r : good_content s -> good_forest d k -> good_forest (S d) r ->
    good_forest (S d) (T s k :: r).

(** The documented format (binary.go:16-27 and 213-220), written with plain arithmetic. *)
Definition fmt_varint (i : Z) : bytes :=
  if i <? 2 ^ 7 then [zb i]
  else if i <? 2 ^ 14 then [zb (128 + i / 2 ^ 8); zb (i mod 2 ^ 8)]
  else if i <? 2 ^ 21 then [zb (192 + i / 2 ^ 16); zb (i / 2 ^ 8 mod 2 ^ 8); zb (i mod 2 ^ 8)]
  else [zb (224 + i / 2 ^ 24); zb (i / 2 ^ 16 mod 2 ^ 8); zb (i / 2 ^ 8 mod 2 ^ 8); zb (i mod 2 ^ 8)].

(** A text node: level, text, 00. *)
Definition enc (e : Z * bytes) : bytes := fmt_varint (fst e) ++ snd e ++ [x00].
Definition encs (l : list (Z * bytes)) : bytes := flat_map enc l.

(** A text node that the format can carry. *)
Definition ev_ok (e : Z * bytes) : Prop := 1 <= fst e < 2 ^ 28 /\ good_content (snd e).

(** The event such a node stands for (levels count from 1 in the format, from 0 in events). *)
Definition ev_val (e : Z * bytes) : Z * value graph := (fst e - 1, VStr (snd e)).

(** Forests whose nesting stays below level 2^21. *)
Definition representable (f : list tree) : Prop :=
  exists d, good_forest d f /\ Z.of_nat d < 2 ^ 21.

(** The documented form of an object. *)
Definition fmt_object (f : list tree) : bytes := [x01; "G"%byte; x00] ++ encs (pres 1 f) ++ [x00].

(** (length data)* of a binary node. *)
Definition chunk (d : bytes) : bytes := fmt_varint (Z.of_nat (List.length d)) ++ d.
Definition chunks (ds : list bytes) : bytes := flat_map chunk ds.

Definition zeros (k : nat) : bytes := repeat x00 k.

(** No nil pointers anywhere, and contents that are not *Graph: the shape of every graph
    built by the parsers and by Add of scalars. *)
Inductive plain_graph : graph -> Prop :=
| plain_node v l : (forall p, v <> VPtr p) ->
    Forall (fun o => exists g, o = Some g /\ plain_graph g) l -> plain_graph (Node v l).

(** Reading k objects one after the other from the same bufio.Reader
    (binary.go:79-82 FromBinaryBufioReader called k times). *)
Fixpoint read_objects (fuel k : nat) (s : rst) : res (list (option graph) * rst) :=
  match k with
  | O => Ok ([], s)
  | S k => let* (g, s) := parse fuel s in
           let* (gs, s) := read_objects fuel k s in Ok (g :: gs, s)
  end.
