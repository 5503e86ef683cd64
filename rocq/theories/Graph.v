(** Graph operations (graph.go), on graphs without sharing: an operation that modifies its
    receiver returns the modified receiver.  A nil receiver is [None].  The effect of
    sharing is modelled in Heap.v. *)
From Verif Require Import Base Value.

Section Graph.
Variable E : env.

(** Children appended by [Add(n)] (graph.go:57-71): nothing for nil, the node itself for a
    non-nil *Graph, a new node otherwise (also for a typed nil *Graph). *)
Definition add_out (n : value graph) : list (option graph) :=
  match n with
  | VNil => []
  | VPtr (Some c) => [Some c]
  | v => [Some (New v)]
  end.
(** The node returned by [Add(n)] on a non-nil receiver. *)
Definition add_ret (n : value graph) : option graph :=
  match n with VNil => None | VPtr (Some c) => Some c | v => Some (New v) end.
(** graph.go:57-71 [Add]: (receiver afterwards, returned node) *)
Definition Add (g : option graph) (n : value graph) : option graph * option graph :=
  match g with
  | None => (None, None)
  | Some (Node t o) => (Some (Node t (o ++ add_out n)), add_ret n)
  end.

(** graph.go:74-88 [addNodes]: like Add, but of a *Graph only the children are added. *)
Definition addNodes_out (n : value graph) : list (option graph) :=
  match n with VNil => [] | VPtr (Some c) => out c | v => [Some (New v)] end.

(** graph.go:91-99 [AddNodes]: receiver afterwards *)
Definition AddNodes (g g2 : option graph) : option graph :=
  match g, g2 with
  | Some (Node t o), Some c => Some (Node t (o ++ out c))
  | _, _ => g
  end.

(** graph.go:104-116 [addEqualNodes] with recurse = false: the children of every child of
    g2 that prints as key.  A nil child panics. *)
Fixpoint equal_nodes (key : bytes) (o : list (option graph)) : res (list (option graph)) :=
  match o with
  | [] => Ok []
  | None :: _ => Panic
  | Some n :: o' =>
      let* s := vstring E (this n) in
      let* r := equal_nodes key o' in
      Ok ((if bseq key s then out n else []) ++ r)
  end.

(** The loop shared by graph.go:158-168 [Node] and 172-183 [NodeOrNew]: index of the first
    child whose content prints as s; a nil child panics. *)
Fixpoint find_child (s : bytes) (o : list (option graph)) : res (option nat) :=
  match o with
  | [] => Ok None
  | None :: _ => Panic
  | Some c :: o' =>
      let* t := vstring E (this c) in
      if bseq s t then Ok (Some O)
      else let* r := find_child s o' in Ok (option_map S r)
  end.

(** Out[i], for an index known to be in range *)
Definition child (o : list (option graph)) (i : nat) : option graph :=
  match nth_error o i with Some c => c | None => None end.
Fixpoint set_nth {A} (i : nat) (x : A) (l : list A) : list A :=
  match i, l with
  | O, _ :: l' => x :: l'
  | S i', y :: l' => y :: set_nth i' x l'
  | _, [] => []
  end.

(** graph.go:158-168 [Node] *)
Definition Node_ (g : option graph) (s : bytes) : res (option graph) :=
  match g with
  | None => Ok None
  | Some (Node _ o) =>
      let* i := find_child s o in
      Ok match i with None => None | Some i => child o i end
  end.

(** graph.go:172-183 [NodeOrNew]: (receiver afterwards, returned node) *)
Definition NodeOrNew (g : option graph) (s : bytes) : res (option graph * option graph) :=
  match g with
  | None => Ok (None, None)
  | Some (Node t o) =>
      let* i := find_child s o in
      match i with
      | Some i => Ok (g, child o i)
      | None => Ok (Add g (VStr s))
      end
  end.

(** A modification [f] of the node found at index i, or of the node appended last. *)
Definition upd_at (o : list (option graph)) (i : nat) (f : graph -> graph) : list (option graph) :=
  match nth_error o i with
  | Some (Some c) => set_nth i (Some (f c)) o
  | _ => o
  end.

(** graph.go:186-190 [NodeSet]: NodeOrNew(s), then Clear and Add(v) on that node *)
Definition NodeSet (g : option graph) (s : bytes) (v : value graph) : res (option graph * option graph) :=
  match g with
  | None => Ok (None, None)
  | Some (Node t o) =>
      let* i := find_child s o in
      match i with
      | Some i => Ok (Some (Node t (upd_at o i (fun c => Node (this c) (add_out v)))), add_ret v)
      | None => Ok (Some (Node t (o ++ [Some (Node (VStr s) (add_out v))])), add_ret v)
      end
  end.

(** graph.go:194-201 [Create] *)
Definition Create (g : option graph) (s : bytes) : res (option graph * option graph) :=
  match g with
  | None => Ok (None, None)
  | Some (Node t o) =>
      let* i := find_child s o in
      match i with
      | None => Ok (Add g (VStr s))
      | Some i =>
          let o' := upd_at o i (fun c => Node (this c) []) in
          Ok (Some (Node t o'), child o' i)
      end
  end.

(** graph.go:204-210 [GetAt]: no check for a nil receiver *)
Definition GetAt (g : option graph) (i : Z) : res (option graph) :=
  match g with
  | None => Panic
  | Some (Node _ o) =>
      if (Z.of_nat (List.length o) <=? i) || (i <? 0) then Ok None
      else Ok (child o (Z.to_nat i))
  end.

(** append(Out[:i], Out[i+1:]...), or Out[:i] when i is the last index *)
Definition remove_at (i : nat) (o : list (option graph)) : list (option graph) :=
  if (i <? List.length o - 1)%nat then firstn i o ++ skipn (S i) o else firstn i o.

(** graph.go:234-249 [Delete]: the index loop; after a removal the index stays. *)
Fixpoint delete_loop (fuel : nat) (i : nat) (n : value graph) (o : list (option graph)) : res (list (option graph)) :=
  match fuel with
  | O => NoFuel
  | S f =>
      if (i <? List.length o)%nat then
        match child o i with
        | None => Panic
        | Some c =>
            let* b := iface_eq E (this c) n in
            if b then delete_loop f i n (remove_at i o)
            else delete_loop f (S i) n o
        end
      else Ok o
  end.
Definition Delete (g : option graph) (n : value graph) : res (option graph) :=
  match g with
  | None => Ok None
  | Some (Node t o) =>
      let* o' := delete_loop (S (List.length o)) 0 n o in
      Ok (Some (Node t o'))
  end.

(** graph.go:252-258 [Clear] *)
Definition Clear (g : option graph) : option graph :=
  match g with None => None | Some (Node t _) => Some (Node t []) end.

(** graph.go:261-270 [DeleteAt]: Len of a nil receiver is -1, so nothing happens *)
Definition DeleteAt (g : option graph) (i : Z) : option graph :=
  if (i <? 0) || (Len g <=? i) then g
  else match g with
       | None => None
       | Some (Node t o) => Some (Node t (remove_at (Z.to_nat i) o))
       end.

(** graph.go:39-53 [Equals]: nil receivers and arguments panic; contents are compared with
    Go's !=. *)
Fixpoint Equals (g : graph) (c : option graph) : res bool :=
  match c with
  | None => Panic
  | Some c =>
      match g with
      | Node t o =>
          let* b := iface_eq E (this c) t in
          if negb b then Ok false
          else if negb (List.length o =? List.length (out c))%nat then Ok false
          else
            (fix loop (o co : list (option graph)) : res bool :=
               match o, co with
               | [], _ => Ok true
               | None :: _, _ => Panic
               | Some x :: o', y :: co' =>
                   let* b := Equals x y in
                   if b then loop o' co' else Ok false
               | _, [] => Panic
               end) o (out c)
      end
  end.
Definition Equals_ (g c : option graph) : res bool :=
  match g with None => Panic | Some g => Equals g c end.

(** graph.go:125-133 [Copy]: the nodes appended for c.  Add of a nil content returns nil and
    nil.Copy does nothing; a *Graph content is itself added and then receives the copies. *)
Fixpoint copies (c : graph) : res (list (option graph)) :=
  match c with
  | Node _ o =>
      (fix loop (o : list (option graph)) : res (list (option graph)) :=
         match o with
         | [] => Ok []
         | None :: _ => Panic
         | Some n :: o' =>
             let* k := match this n with VNil => Ok [] | _ => copies n end in
             let* r := loop o' in
             Ok (match this n with
                 | VNil => []
                 | VPtr (Some m) => [Some (Node (this m) (out m ++ k))]
                 | v => [Some (Node v k)]
                 end ++ r)
         end) o
  end.
Definition Copy (g c : option graph) : res (option graph) :=
  match g, c with
  | Some (Node t o), Some c => let* k := copies c in Ok (Some (Node t (o ++ k)))
  | _, _ => Ok g
  end.

(** graph.go:504-515 [Substitute]: contents below the receiver that print as s become v *)
Fixpoint Substitute (g : graph) (s : bytes) (v : value graph) : res graph :=
  match g with
  | Node t o =>
      let* o' :=
        (fix loop (o : list (option graph)) : res (list (option graph)) :=
           match o with
           | [] => Ok []
           | None :: _ => Panic
           | Some n :: o' =>
               let* x := vstring E (this n) in
               let* n' := Substitute n s v in
               let* r := loop o' in
               Ok (Some (if bseq x s then Node v (out n') else n') :: r)
           end) o in
      Ok (Node t o')
  end.

(** graph.go:518-530 [Merge]: the child to merge with is looked up by node.String(), the
    content of the first subnode of the source node, and is emptied first.  A nil source
    (nil child of a source that is matched by a child printing as the empty string) panics;
    a nil child that is not matched is added as a typed nil content. *)
Fixpoint Merge (src : graph) (g : graph) : res graph :=
  match src with
  | Node _ so =>
      (fix loop (so : list (option graph)) (g : graph) : res graph :=
         match so with
         | [] => Ok g
         | node :: so' =>
             let* s := String_ E node in
             let* i := find_child s (out g) in
             match i with
             | None => loop so' (Node (this g) (out g ++ add_out (VPtr node)))
             | Some i =>
                 match child (out g) i with
                 | None => Panic
                 | Some n =>
                     let* n' := match node with
                                | None => Panic
                                | Some node => Merge node (Node (this n) [])
                                end in
                     loop so' (Node (this g) (set_nth i (Some n') (out g)))
                 end
             end
         end) so g
  end.
End Graph.
