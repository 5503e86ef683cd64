(** What a sequence of (level, item) events means. *)
From Verif Require Import Base Value.

(** The items at level [l], up to the next item of level [l-1]; each owns the items of
    level [l+1] that follow it, up to the next item of level [l].  In other words every
    item belongs to the most recent item one level above. *)
Fixpoint forest (l : Z) (evs : list (Z * value graph)) : list graph :=
  match evs with
  | [] => []
  | (l', v) :: r =>
      if l' =? l - 1 then []
      else if l' =? l then Node v (map Some (forest (l + 1) r)) :: forest l r
      else forest l r
  end.

Definition events_graph (evs : list (Z * value graph)) : graph :=
  Node (VStr (bs "_")) (map Some (forest 0 evs)).

(** Level sequences that start at most at [b] and never jump up by more than one. *)
Fixpoint nested (b : Z) (evs : list (Z * value graph)) : Prop :=
  match evs with
  | [] => True
  | (l, _) :: r => 0 <= l <= b /\ nested (l + 1) r
  end.

(** Preorder listing of a graph's nodes with their depth. *)
Fixpoint listing (l : Z) (g : graph) : list (Z * value graph) :=
  match g with
  | Node v o => (l, v) :: flat_map (fun c => match c with Some c => listing (l + 1) c | None => [] end) o
  end.
Definition listings (l : Z) (f : list graph) : list (Z * value graph) := flat_map (listing l) f.

(** Preorder of trees of strings. *)
Fixpoint pre (l : Z) (t : tree) : list (Z * bytes) :=
  match t with T s k => (l, s) :: flat_map (pre (l + 1)) k end.
Definition pres (l : Z) (f : list tree) : list (Z * bytes) := flat_map (pre l) f.
