(** What it means for graphs in memory to share nodes, and what graph a node shows. *)
From Verif Require Import Base Value Heap.
From Coq Require Import Relation_Operators.

(** The k-th child of a node *)
Definition kid (h : heap) (a : addr) (k : nat) : option (option addr) :=
  match nth_error h a with Some c => nth_error (c_out c) k | None => None end.
(** From a node one gets to its children, and to the graph that is its content. *)
Definition down (h : heap) (a b : addr) : Prop := exists k, kid h a k = Some (Some b).
Definition inside (h : heap) (a b : addr) : Prop := exists c, nth_error h a = Some c /\ c_this c = VPtr (Some b).
Definition edge (h : heap) (a b : addr) : Prop := down h a b \/ inside h a b.
Definition reach (h : heap) : addr -> addr -> Prop := clos_refl_trans_1n _ (edge h).
Definition below (h : heap) : addr -> addr -> Prop := clos_refl_trans_1n _ (down h).
(** No node in common *)
Definition apart (h : heap) (a b : addr) : Prop := forall x, reach h a x -> ~ reach h b x.

(** [plain v]: a content that is not a graph is the same value in memory and in a graph. *)
Definition plain {P Q} (v : value P) : option (value Q) :=
  match v with
  | VNil => Some VNil | VStr s => Some (VStr s) | VBytes s => Some (VBytes s) | VBool b => Some (VBool b)
  | VInt k z => Some (VInt k z) | VF32 x => Some (VF32 x) | VF64 x => Some (VF64 x) | VFun i => Some (VFun i)
  | VObj i => Some (VObj i) | VOther i => Some (VOther i) | VPtr None => Some (VPtr None) | VPtr (Some _) => None
  end.
(** [shows h a g]: whoever looks at the node [a] sees the finite graph [g]. *)
Inductive shows (h : heap) : addr -> graph -> Prop :=
| shows_node : forall a c v o, nth_error h a = Some c -> shows_value h (c_this c) v -> shows_kids h (c_out c) o -> shows h a (Node v o)
with shows_value (h : heap) : value addr -> value graph -> Prop :=
| sv_plain : forall x v, plain x = Some v -> shows_value h x v
| sv_graph : forall a g, shows h a g -> shows_value h (VPtr (Some a)) (VPtr (Some g))
with shows_kids (h : heap) : list (option addr) -> list (option graph) -> Prop :=
| sk_nil : shows_kids h [] []
| sk_none : forall l o, shows_kids h l o -> shows_kids h (None :: l) (None :: o)
| sk_some : forall a g l o, shows h a g -> shows_kids h l o -> shows_kids h (Some a :: l) (Some g :: o).
Scheme shows_mut := Minimality for shows Sort Prop
  with shows_value_mut := Minimality for shows_value Sort Prop
  with shows_kids_mut := Minimality for shows_kids Sort Prop.
Combined Scheme shows_ind3 from shows_mut, shows_value_mut, shows_kids_mut.

(** Levels of a graph *)
Fixpoint levels (g : graph) : nat :=
  match g with
  | Node _ l => S ((fix go (l : list (option graph)) : nat :=
                      match l with [] => O | Some c :: l' => Nat.max (levels c) (go l') | None :: l' => go l' end) l)
  end.

(** No node of the graph has a graph as its content *)
Definition no_inside (h : heap) (a : addr) : Prop := forall x y, reach h a x -> ~ inside h x y.

(** The caller's variables hold nothing that leads to a node of [a] *)
Definition away (h : heap) (e : vars) (a : addr) : Prop := forall i x, var e i = Some x -> apart h x a.

(** [leads h a ss m]: from [a], taking each time the first child with the text given, one comes to [m].
    All children looked at hold texts. *)
Definition text_at (h : heap) (c : option addr) (s : bytes) : Prop :=
  exists a e, c = Some a /\ nth_error h a = Some e /\ c_this e = VStr s.
Definition first_kid (h : heap) (a : addr) (s : bytes) (m : addr) : Prop :=
  exists c pre post, nth_error h a = Some c /\ c_out c = pre ++ Some m :: post /\ text_at h (Some m) s /\
    Forall (fun x => exists t, text_at h x t /\ t <> s) pre.
Definition no_kid (h : heap) (a : addr) (s : bytes) : Prop :=
  exists c, nth_error h a = Some c /\ Forall (fun x => exists t, text_at h x t /\ t <> s) (c_out c).
Inductive leads (h : heap) : addr -> list bytes -> addr -> Prop :=
| leads_here : forall a, leads h a [] a
| leads_step : forall a s b ss m, first_kid h a s b -> leads h b ss m -> leads h a (s :: ss) m.
(** The children of a node *)
Definition kids (h : heap) (a : addr) : option (list (option addr)) :=
  match nth_error h a with Some c => Some (c_out c) | None => None end.
(** Nothing changed but the children of [a] *)
Definition only_kids (h h' : heap) (a : addr) : Prop :=
  (forall x, x <> a -> x < List.length h -> nth_error h' x = nth_error h x)%nat /\
  (forall c, nth_error h a = Some c -> exists c', nth_error h' a = Some c' /\ c_this c' = c_this c).
