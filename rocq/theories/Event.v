(** Model of event.go: SimpleEventHandler. *)
From Verif Require Import Base Value.

(** Checked indexing of a Go slice. *)
Definition zget {A} (l : list A) (i : Z) : res A :=
  if i <? 0 then Panic
  else match nth_error l (Z.to_nat i) with Some a => Ok a | None => Panic end.

Fixpoint lset {A} (l : list A) (i : nat) (a : A) : list A :=
  match l, i with
  | [], _ => []
  | _ :: l', O => a :: l'
  | x :: l', S i' => x :: lset l' i' a
  end.

Definition zset {A} (l : list A) (i : Z) (a : A) : res (list A) :=
  if (i <? 0) || (Z.of_nat (List.length l) <=? i) then Panic
  else Ok (lset l (Z.to_nat i) a).

(** event.go:8-13.  The parallel slices [levels] and [items] are one list of pairs. *)
Record handler : Type := mkH { cur : Z; mx : Z; evs : list (Z * value graph) }.

(** event.go zero value, as created by binary.go:133-155 and parser.go *)
Definition h_init : handler := mkH 0 0 [].

(** event.go:16-31 AddBytes, Add, AddItf: max is not updated here *)
Definition h_add (v : value graph) (h : handler) : handler :=
  mkH (cur h) (mx h) (evs h ++ [(cur h, v)]).

(** event.go:34-49 AddBytesAt, AddAt *)
Definition h_add_at (v : value graph) (lv : Z) (h : handler) : handler :=
  mkH (cur h) (if mx h <? lv then lv else mx h) (evs h ++ [(lv, v)]).

(** event.go:52-55 Delete: slicing [0 : len-1] panics on an empty slice *)
Definition h_delete (h : handler) : res handler :=
  match evs h with
  | [] => Panic
  | _ => Ok (mkH (cur h) (mx h) (removelast (evs h)))
  end.

(** event.go:63-68 *)
Definition h_set_level (l : Z) (h : handler) : handler :=
  mkH l (if mx h <? l then l else mx h) (evs h).

(** event.go:71-76 *)
Definition h_inc (h : handler) : handler :=
  let c := cur h + 1 in mkH c (if mx h <? c then c else mx h) (evs h).

(** event.go:79-83 *)
Definition h_dec (h : handler) : handler :=
  mkH (if 0 <? cur h then cur h - 1 else cur h) (mx h) (evs h).

(** event.go:88-103 Tree.  The nodes are pointers, so they live in an arena: node i is
    (content, indices of its subnodes); [slots] is the local slice g of pointers. *)
Definition arena := list (value graph * list nat).

(** graph.go:57-71 [g[lv-1].Add(n)] for a fresh node n: a nil receiver ignores it. *)
Definition arena_add (a : arena) (parent : option nat) (child : nat) : arena :=
  match parent with
  | None => a
  | Some p => match nth_error a p with
              | Some (v, o) => lset a p (v, o ++ [child])
              | None => a
              end
  end.

Fixpoint tree_loop (evs : list (Z * value graph)) (slots : list (option nat)) (a : arena) : res arena :=
  match evs with
  | [] => Ok a
  | (l, v) :: evs' =>
      let lv := l + 1 in
      let n := List.length a in
      let* slots := zset slots lv (Some n) in
      let* parent := zget slots (lv - 1) in
      tree_loop evs' slots (arena_add (a ++ [(v, [])]) parent n)
  end.

(** The graph hanging off arena node i (children always have larger indices, so
    [fuel = length a] suffices; running out gives a bare node). *)
Fixpoint reify (fuel : nat) (a : arena) (i : nat) : graph :=
  match nth_error a i with
  | None => Node VNil []
  | Some (v, o) =>
      match fuel with
      | O => Node v []
      | S f => Node v (map (fun j => Some (reify f a j)) o)
      end
  end.

Definition Tree (h : handler) : res graph :=
  (* make([]*Graph, e.max+2) panics on a negative size; g[0] = ... on an empty slice *)
  if mx h + 2 <? 1 then Panic else
  let* slots := zset (repeat None (Z.to_nat (mx h + 2))) 0 (Some 0%nat) in
  let* a := tree_loop (evs h) slots [(VStr (bs "_"), [])] in
  Ok (reify (List.length a) a 0).

(** Calls on a handler, as a data type. *)
Inductive hop :=
| HAdd (v : value graph) | HAddAt (v : value graph) (lv : Z) | HDelete
| HSetLevel (l : Z) | HInc | HDec.

Definition h_step (o : hop) (h : handler) : res handler :=
  match o with
  | HAdd v => Ok (h_add v h)
  | HAddAt v lv => Ok (h_add_at v lv h)
  | HDelete => h_delete h
  | HSetLevel l => Ok (h_set_level l h)
  | HInc => Ok (h_inc h)
  | HDec => Ok (h_dec h)
  end.

Fixpoint h_run (os : list hop) (h : handler) : res handler :=
  match os with [] => Ok h | o :: os' => let* h := h_step o h in h_run os' h end.
