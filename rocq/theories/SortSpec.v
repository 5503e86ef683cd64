(** Orders, and what is expected of a sorting function. *)
From Verif Require Import Base Value Sort.
From Coq Require Import Sorting.Permutation.

(** Dictionary order of byte strings *)
Inductive lex_le : bytes -> bytes -> Prop :=
| lex_nil b : lex_le [] b
| lex_lt x y a b : bz x < bz y -> lex_le (x :: a) (y :: b)
| lex_eq x a b : lex_le a b -> lex_le (x :: a) (x :: b).

(** A strict weak order on the elements of l *)
Definition weak_order {A} (r : A -> A -> bool) (l : list A) : Prop :=
  (forall a, In a l -> r a a = false) /\
  (forall a b c, In a l -> In b l -> In c l -> r a b = true -> r b c = true -> r a c = true) /\
  (forall a b c, In a l -> In b l -> In c l -> r a b = false -> r b a = false -> r b c = false -> r c b = false -> r a c = false /\ r c a = false).

(** The promise of sort.Sort: given a comparison that answers, and is a strict weak order, the
    elements end up reordered such that none is less than its predecessor. *)
Definition sorts (s : sorter) : Prop :=
  forall less l r, (forall a b, In a l -> In b l -> less a b = Ok (r a b)) -> weak_order r l ->
  exists l', s less l = Ok l' /\ Permutation l l' /\
    forall i a b, nth_error l' i = Some a -> nth_error l' (S i) = Some b -> r b a = false.

(** Ascending by a key: an earlier element never has a greater key. *)
Definition ascending {A K} (le : K -> K -> Prop) (key : A -> K -> Prop) (l : list A) : Prop :=
  forall i j a b x y, (i < j)%nat -> nth_error l i = Some a -> nth_error l j = Some b -> key a x -> key b y -> le x y.
