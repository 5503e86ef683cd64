(** graph.go on a heap: nodes have addresses, and the same node can be reached from several
    places.  The trees of Graph.v leave that out; here it is what matters. *)
From Verif Require Import Base Value.
From Coq Require Import SpecFloat.

(** A *Graph is an address.  No two nodes share the array behind their Out (see Slices.v, C73): every function of
    graph.go gives a node a new slice or appends to the node's own one. *)
Definition addr : Type := nat.
Record cell : Type := { c_this : value addr; c_out : list (option addr) }.
Definition heap : Type := list cell.

(** Programs over the heap.  What a program wrote before it panicked (or before the fuel ran out)
    stays written. *)
Definition M (A : Type) : Type := heap -> heap * res A.
Definition ret {A} (a : A) : M A := fun h => (h, Ok a).
Definition mpanic {A} : M A := fun h => (h, Panic).
Definition mfuel {A} : M A := fun h => (h, NoFuel).
Definition mbind {A B} (m : M A) (k : A -> M B) : M B :=
  fun h => match m h with (h, Ok a) => k a h | (h, Panic) => (h, Panic) | (h, NoFuel) => (h, NoFuel) end.
Notation "'do' x <- m ; k" := (mbind m (fun x => k)) (at level 200, x pattern, m at level 100, k at level 200).
Definition load (a : addr) : M cell := fun h => (h, match nth_error h a with Some c => Ok c | None => Panic end).
Fixpoint set_cell (h : heap) (a : addr) (c : cell) : heap :=
  match h, a with
  | [], _ => []
  | _ :: h', O => c :: h'
  | d :: h', S a' => d :: set_cell h' a' c
  end.
Definition store (a : addr) (c : cell) : M unit := fun h => (set_cell h a c, Ok tt).
Definition alloc (c : cell) : M addr := fun h => (h ++ [c], Ok (List.length h)).
Definition deref (a : option addr) : M addr := match a with Some a => ret a | None => mpanic end.
Definition lift {A} (r : res A) : M A := fun h => (h, r).
Definition set_out (a : addr) (o : list (option addr)) : M unit := do c <- load a; store a {| c_this := c_this c; c_out := o |}.

Section Ops.
Variable E : env.

(** gettypes.go:574-588 [_string], with 92-103 [String] and 279-284 [Interface] for contents
    that are graphs *)
Fixpoint hstring (f : nat) (v : value addr) : M bytes :=
  match v with
  | VPtr None => ret []
  | VPtr (Some a) =>
      match f with
      | O => mfuel
      | S f =>
          do c <- load a;
          match c_out c with
          | [] => ret []
          | None :: _ => mpanic
          | Some b :: _ => do d <- load b; hstring f (c_this d)
          end
      end
  | _ => ret (sstring E v)
  end.
(** gettypes.go:92-103 [String] *)
Definition hString (f : nat) (g : option addr) : M bytes := match g with None => ret [] | Some a => hstring f (VPtr (Some a)) end.

(** Go's == on contents: pointers are compared as addresses *)
Definition heq (a b : value addr) : res bool :=
  match a, b with
  | VNil, VNil => Ok true
  | VStr x, VStr y => Ok (bseq x y)
  | VBytes _, VBytes _ => Panic
  | VBool x, VBool y => Ok (Bool.eqb x y)
  | VInt k x, VInt k' y => Ok (ikind_eqb k k' && (x =? y))
  | VF32 x, VF32 y => Ok (SFeqb x y)
  | VF64 x, VF64 y => Ok (SFeqb x y)
  | VPtr x, VPtr y => Ok match x, y with None, None => true | Some x, Some y => Nat.eqb x y | _, _ => false end
  | VFun _, VFun _ => Panic
  | VObj x, VObj y => Ok (N.eqb x y)
  | VOther x, VOther y => Ok (N.eqb x y)
  | _, _ => Ok false
  end.

(** graph.go:21-23 New *)
Definition hNew (v : value addr) : M (option addr) := do a <- alloc {| c_this := v; c_out := [] |}; ret (Some a).
(** graph.go:57-71 Add *)
Definition hAdd (g : option addr) (v : value addr) : M (option addr) :=
  match g, v with
  | None, _ | _, VNil => ret None
  | Some a, VPtr (Some n) => do c <- load a; do _ <- set_out a (c_out c ++ [Some n]); ret (Some n)
  | Some a, _ =>
      do n <- alloc {| c_this := v; c_out := [] |};
      do c <- load a;
      do _ <- set_out a (c_out c ++ [Some n]);
      ret (Some n)
  end.
(** graph.go:91-99 AddNodes *)
Definition hAddNodes (g g2 : option addr) : M (option addr) :=
  match g, g2 with
  | Some a, Some b => do c <- load a; do d <- load b; do _ <- set_out a (c_out c ++ c_out d); ret (Some a)
  | _, _ => ret None
  end.
(** graph.go:74-88 addNodes *)
Definition haddNodes (g : option addr) (v : value addr) : M (option addr) :=
  match g, v with
  | None, _ | _, VNil => ret None
  | Some a, VPtr (Some n) => do c <- load a; do d <- load n; do _ <- set_out a (c_out c ++ c_out d); ret (Some n)
  | Some a, _ =>
      do n <- alloc {| c_this := v; c_out := [] |};
      do c <- load a;
      do _ <- set_out a (c_out c ++ [Some n]);
      ret (Some n)
  end.
(** a loop over a slice *)
Fixpoint each {A} (body : A -> M unit) (l : list A) : M unit :=
  match l with [] => ret tt | x :: l' => do _ <- body x; each body l' end.
(** graph.go:125-133 Copy *)
Fixpoint hCopy (f : nat) (g c : option addr) : M unit :=
  match g, c with
  | Some _, Some b =>
      match f with
      | O => mfuel
      | S f =>
          do d <- load b;
          each (fun n => do n <- deref n; do e <- load n; do nn <- hAdd g (c_this e); hCopy f nn (Some n)) (c_out d)
      end
  | _, _ => ret tt
  end.
(** graph.go:142-154 Clone *)
Fixpoint hClone (f : nat) (g : option addr) : M (option addr) :=
  match g with
  | None => ret None
  | Some a =>
      match f with
      | O => mfuel
      | S f =>
          do d <- load a;
          do c <- alloc {| c_this := c_this d; c_out := [] |};
          do _ <- each (fun n => do m <- hClone f n; do x <- load c; set_out c (c_out x ++ [m])) (c_out d);
          ret (Some c)
      end
  end.
(** graph.go:158-168 Node: [hfind] is the loop *)
Fixpoint hfind (f : nat) (s : bytes) (o : list (option addr)) : M (option addr) :=
  match o with
  | [] => ret None
  | n :: o' =>
      do n <- deref n; do e <- load n; do t <- hstring f (c_this e);
      if bseq s t then ret (Some n) else hfind f s o'
  end.
Definition hNode (f : nat) (g : option addr) (s : bytes) : M (option addr) :=
  match g with None => ret None | Some a => do c <- load a; hfind f s (c_out c) end.
(** graph.go:172-183 NodeOrNew *)
Definition hNodeOrNew (f : nat) (g : option addr) (s : bytes) : M (option addr) :=
  match g with
  | None => ret None
  | Some _ => do n <- hNode f g s; match n with Some n => ret (Some n) | None => hAdd g (VStr s) end
  end.
(** graph.go:252-258 Clear *)
Definition hClear (g : option addr) : M unit := match g with None => ret tt | Some a => set_out a [] end.
(** graph.go:186-190 NodeSet *)
Definition hNodeSet (f : nat) (g : option addr) (s : bytes) (v : value addr) : M (option addr) :=
  do n <- hNodeOrNew f g s; do _ <- hClear n; hAdd n v.
(** graph.go:194-201 Create *)
Definition hCreate (f : nat) (g : option addr) (s : bytes) : M (option addr) :=
  do n <- hNode f g s;
  match n with None => hAdd g (VStr s) | Some _ => do _ <- hClear n; ret n end.
(** graph.go:204-210 GetAt *)
Definition hGetAt (g : option addr) (i : Z) : M (option addr) :=
  do a <- deref g; do c <- load a;
  ret (if (Z.of_nat (List.length (c_out c)) <=? i) || (i <? 0) then None else nth (Z.to_nat i) (c_out c) None).
(** graph.go:234-249 Delete: [done] are the children already passed, [rest] the others *)
Fixpoint hdel (a : addr) (n : value addr) (done rest : list (option addr)) : M unit :=
  match rest with
  | [] => ret tt
  | c :: rest' =>
      do x <- deref c; do e <- load x; do b <- lift (heq (c_this e) n);
      if (b : bool) then do _ <- set_out a (done ++ rest'); hdel a n done rest'
      else hdel a n (done ++ [c]) rest'
  end.
Definition hDelete (g : option addr) (n : value addr) : M unit :=
  match g with None => ret tt | Some a => do c <- load a; hdel a n [] (c_out c) end.
(** graph.go:261-270 DeleteAt *)
Definition hDeleteAt (g : option addr) (i : Z) : M unit :=
  match g with
  | None => ret tt
  | Some a =>
      do c <- load a;
      if (i <? 0) || (Z.of_nat (List.length (c_out c)) <=? i) then ret tt
      else set_out a (firstn (Z.to_nat i) (c_out c) ++ skipn (S (Z.to_nat i)) (c_out c))
  end.

(** graph.go:288-345 set, on the elements of a path: names and indexes.  An index ends the
    path. *)
Inductive helem : Type := HName (s : bytes) | HIndex (i : Z).
Fixpoint put_at (o : list (option addr)) (i : nat) (n : option addr) : list (option addr) :=
  match i, o with
  | O, [] => [n]
  | O, _ :: o' => n :: o'
  | S i', [] => None :: put_at [] i' n
  | S i', c :: o' => c :: put_at o' i' n
  end.
Definition hset_index (a : addr) (i : Z) (v : value addr) : M (option addr) :=
  if i <? 0 then mpanic else
  do n <- alloc {| c_this := v; c_out := [] |};
  do c <- load a;
  do _ <- set_out a (put_at (c_out c) (Z.to_nat i) (Some n));
  ret (Some n).
Definition hset_here (a : addr) (v : value addr) : M (option addr) := do _ <- set_out a []; haddNodes (Some a) v.
Fixpoint hset_new (els : list helem) (a : addr) (v : value addr) : M (option addr) :=
  match els with
  | [] => hset_here a v
  | HIndex i :: _ => hset_index a i v
  | HName s :: els' => do n <- hAdd (Some a) (VStr s); do n <- deref n; hset_new els' n v
  end.
Fixpoint hset (f : nat) (els : list helem) (a : addr) (v : value addr) : M (option addr) :=
  match els with
  | [] => hset_here a v
  | HIndex i :: _ => hset_index a i v
  | HName s :: els' =>
      do n <- hNode f (Some a) s;
      match n with Some n => hset f els' n v | None => hset_new els a v end
  end.
(** graph.go:273-285 Set, with the path given by its elements *)
Definition hSet (f : nat) (g : option addr) (els : list helem) (v : value addr) : M (option addr) :=
  match g with None => ret None | Some a => hset f els a v end.
(** graph.go:224-231 Get with eval.go:42-163 getPath, for paths of names and indexes: a name leads
    to the child itself, an index to a new node that holds the child.  Simplification: a name that is
    not there gives nil, as it does when there is no function to call. *)
Fixpoint hgets (f : nat) (els : list helem) (g : option addr) : M (option addr) :=
  match els, g with
  | [], _ => ret g
  | _, None => ret None
  | HName s :: els', Some _ => do n <- hNode f g s; hgets f els' n
  | HIndex i :: els', Some _ =>
      if i <? 0 then ret None else
      do r <- hNew (VStr (bs "["));
      do c <- hGetAt g i;
      do _ <- hAdd r (VPtr c);
      hgets f els' r
  end.
Definition hget (f : nat) (els : list helem) (g : option addr) : M (option addr) :=
  match els with [] => ret None | _ => hgets f els g end.

(** graph.go:504-515 Substitute *)
Fixpoint hSubstitute (f : nat) (g : option addr) (s : bytes) (v : value addr) : M unit :=
  match g with
  | None => ret tt
  | Some a =>
      match f with
      | O => mfuel
      | S f' =>
          do c <- load a;
          each (fun n =>
            do n <- deref n; do e <- load n; do t <- hstring f (c_this e);
            do _ <- (if bseq t s then store n {| c_this := v; c_out := c_out e |} else ret tt);
            hSubstitute f' (Some n) s v) (c_out c)
      end
  end.
(** graph.go:518-530 Merge *)
Fixpoint hMerge (f : nat) (g : option addr) (src : addr) : M unit :=
  match f with
  | O => mfuel
  | S f' =>
      do c <- load src;
      each (fun node =>
        do s <- hString f node;
        do n <- hNode f g s;
        match n with
        | None => do _ <- hAdd g (VPtr node); ret tt
        | Some n => do _ <- set_out n []; do b <- deref node; hMerge f' (Some n) b
        end) (c_out c)
  end.
End Ops.

(** ** Histories: a caller that holds some nodes and calls functions on them *)
Section Histories.
Variable E : env.

(** The caller's variables are numbered; in the value of an operation a pointer is the number of
    a variable. *)
Inductive op : Type :=
| ONew (v : value nat)
| OAdd (g : nat) (v : value nat)
| OAddNodes (g g2 : nat)
| OCopy (g c : nat)
| OClone (g : nat)
| ONode (g : nat) (s : bytes)
| ONodeOrNew (g : nat) (s : bytes)
| ONodeSet (g : nat) (s : bytes) (v : value nat)
| OCreate (g : nat) (s : bytes)
| OGetAt (g : nat) (i : Z)
| ODelete (g : nat) (v : value nat)
| OClear (g : nat)
| ODeleteAt (g : nat) (i : Z)
| OSet (g : nat) (els : list helem) (v : value nat)
| OGet (g : nat) (els : list helem)
| OSubstitute (g : nat) (s : bytes) (v : value nat)
| OMerge (g src : nat)
| OThis (g : nat)                       (* g.This.( *Graph) *)
| OSetThis (g : nat) (v : value nat)    (* g.This = v *)
| OSetOut (g : nat) (l : list nat).     (* g.Out = []*Graph{...} *)

Definition vars : Type := list (option addr).
Definition var (e : vars) (i : nat) : option addr := nth i e None.
Definition resolve (e : vars) (v : value nat) : value addr :=
  match v with
  | VNil => VNil | VStr s => VStr s | VBytes s => VBytes s | VBool b => VBool b | VInt k z => VInt k z
  | VF32 x => VF32 x | VF64 x => VF64 x | VFun i => VFun i | VObj i => VObj i | VOther i => VOther i
  | VPtr None => VPtr None
  | VPtr (Some i) => VPtr (var e i)
  end.
Definition unit_ (m : M unit) : M (option addr) := do _ <- m; ret None.
Definition run_op (f : nat) (e : vars) (o : op) : M (option addr) :=
  match o with
  | ONew v => hNew (resolve e v)
  | OAdd g v => hAdd (var e g) (resolve e v)
  | OAddNodes g g2 => hAddNodes (var e g) (var e g2)
  | OCopy g c => unit_ (hCopy f (var e g) (var e c))
  | OClone g => hClone f (var e g)
  | ONode g s => hNode E f (var e g) s
  | ONodeOrNew g s => hNodeOrNew E f (var e g) s
  | ONodeSet g s v => hNodeSet E f (var e g) s (resolve e v)
  | OCreate g s => hCreate E f (var e g) s
  | OGetAt g i => hGetAt (var e g) i
  | ODelete g v => unit_ (hDelete (var e g) (resolve e v))
  | OClear g => unit_ (hClear (var e g))
  | ODeleteAt g i => unit_ (hDeleteAt (var e g) i)
  | OSet g els v => hSet E f (var e g) els (resolve e v)
  | OGet g els => hget E f els (var e g)
  | OSubstitute g s v => unit_ (hSubstitute E f (var e g) s (resolve e v))
  | OMerge g src => do b <- deref (var e src); unit_ (hMerge E f (var e g) b)
  | OThis g => do a <- deref (var e g); do c <- load a; match c_this c with VPtr p => ret p | _ => mpanic end
  | OSetThis g v => do a <- deref (var e g); do c <- load a; do _ <- store a {| c_this := resolve e v; c_out := c_out c |}; ret None
  | OSetOut g l => do a <- deref (var e g); do _ <- set_out a (map (var e) l); ret None
  end.
(** Each result goes to a new variable.  A caller may recover from a panic and go on; the variable
    is then nil. *)
Fixpoint run (f : nat) (ops : list op) (h : heap) (e : vars) : heap * vars :=
  match ops with
  | [] => (h, e)
  | o :: ops' =>
      let (h', r) := run_op f e o h in
      run f ops' h' (e ++ [match r with Ok p => p | _ => None end])
  end.
End Histories.
