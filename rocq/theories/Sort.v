(** sort.go: sorting the children of a node. *)
From Verif Require Import Base Value Graph Eval.

(** strings.Compare: bytewise *)
Fixpoint bcompare (a b : bytes) : comparison :=
  match a, b with
  | [], [] => Eq
  | [], _ => Lt
  | _, [] => Gt
  | x :: a, y :: b => match bz x ?= bz y with Eq => bcompare a b | c => c end
  end.

(** sort.Sort is a parameter: it gets the comparison and the elements and leaves them reordered.
    What its documentation promises is [sorts] in SortSpec.v. *)
Definition sorter : Type := (option graph -> option graph -> res bool) -> list (option graph) -> res (list (option graph)).

Section Sort.
Variable E : env.
Variable C : calls.
Variable sort_Sort : sorter.

(** sort.go:24-30 stringSorter.Less.  What evaluating the field might change in the children
    is not kept. *)
Definition less_string (f : nat) (field : bytes) (x y : option graph) : res bool :=
  let* (_, nx) := Get E C f x field in
  let* a := String_ E nx in
  let* (_, ny) := Get E C f y field in
  let* b := String_ E ny in
  Ok match bcompare a b with Lt => true | _ => false end.
(** sort.go:46-52 intSorter.Less *)
Definition less_int (f : nat) (field : bytes) (x y : option graph) : res bool :=
  let* (_, nx) := Get E C f x field in
  let* a := Int64 E nx None in
  let* (_, ny) := Get E C f y field in
  let* b := Int64 E ny None in
  Ok (a <? b).

(** sort.go:13-21 Sort and SortAsString: the slice is reordered in place *)
Definition Sort (f : nat) (g : option graph) (field : bytes) : res (option graph) :=
  match g with
  | None => Panic
  | Some (Node t o) => let* o := sort_Sort (less_string f field) o in Ok (Some (Node t o))
  end.
(** sort.go:40-43 SortAsInt *)
Definition SortAsInt (f : nat) (g : option graph) (field : bytes) : res (option graph) :=
  match g with
  | None => Panic
  | Some (Node t o) => let* o := sort_Sort (less_int f field) o in Ok (Some (Node t o))
  end.
End Sort.

(** What sort.Sort does for up to twelve elements (insertionSort of the Go library: element by
    element, swapped to the left while it is less than its neighbour).  Only used to show that
    sorters exist.  [done] is the sorted part, last element first. *)
Fixpoint insert_left (less : option graph -> option graph -> res bool) (x : option graph) (done : list (option graph)) : res (list (option graph)) :=
  match done with
  | [] => Ok [x]
  | y :: done' =>
      let* b := less x y in
      if (b : bool) then let* r := insert_left less x done' in Ok (y :: r) else Ok (x :: done)
  end.
Fixpoint insert_all (less : option graph -> option graph -> res bool) (todo done : list (option graph)) : res (list (option graph)) :=
  match todo with
  | [] => Ok (rev done)
  | x :: todo' => let* done := insert_left less x done in insert_all less todo' done
  end.
Definition insertionSort : sorter := fun less l => insert_all less l [].
