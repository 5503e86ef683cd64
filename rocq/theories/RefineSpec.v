(** Graphs in memory that share no nodes, and operations on several of them: what a caller does
    with addresses, and the same in terms of the graphs of Graph.v. *)
From Verif Require Import Base Value Graph Heap HeapSpec PathParser Eval.

(** [spread h a g l]: the node [a] shows the graph [g], whose contents are not graphs; [l] are the
    addresses of its nodes, each of which is reached in one way only. *)
Definition disjoint (l m : list addr) : Prop := forall x, In x l -> ~ In x m.
Inductive spread (h : heap) : addr -> graph -> list addr -> Prop :=
| sp_node : forall a c v o l, nth_error h a = Some c -> plain (c_this c) = Some v -> spread_kids h (c_out c) o l -> ~ In a l ->
    spread h a (Node v o) (a :: l)
with spread_kids (h : heap) : list (option addr) -> list (option graph) -> list addr -> Prop :=
| sp_nil : spread_kids h [] [] []
| sp_none : forall k o l, spread_kids h k o l -> spread_kids h (None :: k) (None :: o) l
| sp_some : forall a g m k o l, spread h a g m -> spread_kids h k o l -> disjoint m l -> spread_kids h (Some a :: k) (Some g :: o) (m ++ l).
Scheme spread_mut := Minimality for spread Sort Prop
  with spread_kids_mut := Minimality for spread_kids Sort Prop.
Combined Scheme spread_ind2 from spread_mut, spread_kids_mut.

(** Several graphs without common nodes, held by the variables of the caller *)
Definition forest (h : heap) (e : vars) (gs : list (option graph)) : Prop := exists l, spread_kids h e gs l.

(** The operations.  Variables are numbered; a graph that is stored in another one is not used
    through its own variable any more. *)
Inductive fval : Type := FPlain (v : value nat) | FGraph (j : nat).
Inductive fop : Type :=
| FNew (v : value nat)                       (* New(v), in a new variable *)
| FAdd (i : nat) (v : fval)
| FAddNodes (i j : nat)
| FCopy (i j : nat)
| FClone (i : nat)                           (* in a new variable *)
| FNodeSet (i : nat) (s : bytes) (v : fval)
| FCreate (i : nat) (s : bytes)
| FDelete (i : nat) (v : value nat)
| FClear (i : nat)
| FDeleteAt (i : nat) (k : Z)
| FSet (i : nat) (els : list helem) (v : fval)
| FSubstitute (i : nat) (s : bytes) (v : value nat)
| FMerge (i j : nat).

(** What is not a pointer is the same everywhere; nil pointers stay nil pointers. *)
Definition no_graph {P} (v : value nat) : value P :=
  match v with
  | VNil => VNil | VStr s => VStr s | VBytes s => VBytes s | VBool b => VBool b | VInt k z => VInt k z
  | VF32 x => VF32 x | VF64 x => VF64 x | VFun i => VFun i | VObj i => VObj i | VOther i => VOther i | VPtr _ => VPtr None
  end.
Definition get {A} (l : list (option A)) (i : nat) : option A := nth i l None.
Definition forget {A} (v : fval) (l : list (option A)) : list (option A) := match v with FPlain _ => l | FGraph j => set_nth j None l end.
Definition fvalue {A} (l : list (option A)) (v : fval) : value A := match v with FPlain v => no_graph v | FGraph j => VPtr (get l j) end.
(** A path element as the path parser delivers it *)
Definition path_elem (e : helem) : option graph :=
  match e with
  | HName s => Some (Node (VStr s) [])
  | HIndex i => Some (Node (VStr TypeIndex) [Some (Node (VStr (format_int i)) [])])
  end.

Section Runs.
Variable E : env.
(** In memory *)
Definition heap_op (f : nat) (e : vars) (o : fop) : M vars :=
  match o with
  | FNew v => do r <- hNew (no_graph v); ret (e ++ [r])
  | FAdd i v => do _ <- hAdd (get e i) (fvalue e v); ret (forget v e)
  | FAddNodes i j => do _ <- hAddNodes (get e i) (get e j); ret (set_nth j None e)
  | FCopy i j => do _ <- hCopy f (get e i) (get e j); ret e
  | FClone i => do r <- hClone f (get e i); ret (e ++ [r])
  | FNodeSet i s v => do _ <- hNodeSet E f (get e i) s (fvalue e v); ret (forget v e)
  | FCreate i s => do _ <- hCreate E f (get e i) s; ret e
  | FDelete i v => do _ <- hDelete (get e i) (no_graph v); ret e
  | FClear i => do _ <- hClear (get e i); ret e
  | FDeleteAt i k => do _ <- hDeleteAt (get e i) k; ret e
  | FSet i els v => do _ <- hSet E f (get e i) els (fvalue e v); ret (forget v e)
  | FSubstitute i s v => do _ <- hSubstitute E f (get e i) s (no_graph v); ret e
  | FMerge i j => do b <- deref (get e j); do _ <- hMerge E f (get e i) b; ret (set_nth j None e)
  end.
(** On graphs.  Merge on a nil receiver only takes the texts of the subnodes. *)
Fixpoint all_strings (o : list (option graph)) : res unit :=
  match o with [] => Ok tt | n :: o => let* _ := String_ E n in all_strings o end.
Definition tree_op (gs : list (option graph)) (o : fop) : res (list (option graph)) :=
  match o with
  | FNew v => Ok (gs ++ [Some (New (no_graph v))])
  | FAdd i v => let (g, _) := Add (get gs i) (fvalue gs v) in Ok (forget v (set_nth i g gs))
  | FAddNodes i j => Ok (set_nth j None (set_nth i (AddNodes (get gs i) (get gs j)) gs))
  | FCopy i j => let* g := Copy (get gs i) (get gs j) in Ok (set_nth i g gs)
  | FClone i => Ok (gs ++ [get gs i])
  | FNodeSet i s v => let* (g, _) := NodeSet E (get gs i) s (fvalue gs v) in Ok (forget v (set_nth i g gs))
  | FCreate i s => let* (g, _) := Create E (get gs i) s in Ok (set_nth i g gs)
  | FDelete i v => let* g := Delete E (get gs i) (no_graph v) in Ok (set_nth i g gs)
  | FClear i => Ok (set_nth i (Clear (get gs i)) gs)
  | FDeleteAt i k => Ok (set_nth i (DeleteAt (get gs i) k) gs)
  | FSet i els v =>
      match get gs i with
      | None => Ok (forget v gs)
      | Some g => let* (g, _) := set_els E (map path_elem els) g (fvalue gs v) in Ok (forget v (set_nth i (Some g) gs))
      end
  | FSubstitute i s v =>
      match get gs i with
      | None => Ok gs
      | Some g => let* g := Substitute E g s (no_graph v) in Ok (set_nth i (Some g) gs)
      end
  | FMerge i j =>
      match get gs j with
      | None => Panic
      | Some src => match get gs i with
                    | None => let* _ := all_strings (out src) in Ok (set_nth j None gs)
                    | Some g => let* g := Merge E src g in Ok (set_nth j None (set_nth i (Some g) gs))
                    end
      end
  end.
Fixpoint heap_run (f : nat) (ops : list fop) (e : vars) : M vars :=
  match ops with [] => ret e | o :: ops => do e <- heap_op f e o; heap_run f ops e end.
Fixpoint tree_run (ops : list fop) (gs : list (option graph)) : res (list (option graph)) :=
  match ops with [] => Ok gs | o :: ops => let* gs := tree_op gs o in tree_run ops gs end.
End Runs.

(** An operation with two graphs has two different ones, and a path stores a graph only under a
    name.  Names are not the mark of an index. *)
Definition separate_vars (o : fop) : Prop :=
  match o with
  | FAdd i (FGraph j) | FAddNodes i j | FCopy i j | FNodeSet i _ (FGraph j) | FMerge i j => i <> j
  | FSet i els v =>
      (forall s, In (HName s) els -> s <> TypeIndex) /\
      match v with FGraph j => i <> j /\ forall k, ~ In (HIndex k) els | FPlain _ => forall k, In (HIndex k) els -> in64 k end
  | _ => True
  end.
