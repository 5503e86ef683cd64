(** graph.go on slices: behind the Out of a node is an array of some capacity.  Heap.v has lists instead;
    this file is what justifies it.  nil and empty slices differ here. *)
From Verif Require Import Base Value Heap.
From Coq Require Import SpecFloat.

(** A slice that is not nil: an array and a length.  Simplification: graph.go has only slices that start at the
    beginning of their array.  The capacity is the length of the array. *)
Record slice : Type := { s_arr : nat; s_len : nat }.
Record snode : Type := { n_this : value addr; n_out : option slice }.
Record mem : Type := { nodes : list snode; arrays : list (list (option addr)) }.
Definition array (s : mem) (A : nat) : list (option addr) := nth A (arrays s) [].
Definition view (s : mem) (o : option slice) : list (option addr) :=
  match o with None => [] | Some l => firstn (s_len l) (array s (s_arr l)) end.
Fixpoint replace {A} (l : list A) (i : nat) (x : A) : list A :=
  match l, i with
  | [], _ => []
  | _ :: l', O => x :: l'
  | y :: l', S i' => y :: replace l' i' x
  end.

(** Programs, as in Heap.v *)
Definition SM (A : Type) : Type := mem -> mem * res A.
Definition sret {A} (a : A) : SM A := fun s => (s, Ok a).
Definition spanic {A} : SM A := fun s => (s, Panic).
Definition sfuel {A} : SM A := fun s => (s, NoFuel).
Definition sbind {A B} (m : SM A) (k : A -> SM B) : SM B :=
  fun s => match m s with (s, Ok a) => k a s | (s, Panic) => (s, Panic) | (s, NoFuel) => (s, NoFuel) end.
Notation "'sdo' x <- m ; k" := (sbind m (fun x => k)) (at level 200, x pattern, m at level 100, k at level 200).
Definition sload (a : addr) : SM snode := fun s => (s, match nth_error (nodes s) a with Some n => Ok n | None => Panic end).
Definition sstore (a : addr) (n : snode) : SM unit := fun s => ({| nodes := replace (nodes s) a n; arrays := arrays s |}, Ok tt).
Definition salloc (n : snode) : SM addr := fun s => ({| nodes := nodes s ++ [n]; arrays := arrays s |}, Ok (List.length (nodes s))).
Definition sderef (a : option addr) : SM addr := match a with Some a => sret a | None => spanic end.
Definition slift {A} (r : res A) : SM A := fun s => (s, r).
Definition sset_out (a : addr) (o : option slice) : SM unit := sdo n <- sload a; sstore a {| n_this := n_this n; n_out := o |}.
Definition sview (o : option slice) : SM (list (option addr)) := fun s => (s, Ok (view s o)).
(** a new array *)
Definition smake (l : list (option addr)) : SM nat := fun s => ({| nodes := nodes s; arrays := arrays s ++ [l] |}, Ok (List.length (arrays s))).
Definition swrite (A : nat) (l : list (option addr)) : SM unit := fun s => ({| nodes := nodes s; arrays := replace (arrays s) A l |}, Ok tt).

Section Slices.
Variable E : env.
(** How much more than needed the runtime reserves when append needs a new array of a given size: anything. *)
Variable spare : nat -> nat.

(** g.Out = append(g.Out, xs...): into the same array if it is large enough *)
Definition sappend (a : addr) (xs : list (option addr)) : SM unit :=
  sdo n <- sload a;
  match n_out n, xs with
  | None, [] => sret tt
  | o, _ =>
      fun s =>
        let len := match o with Some l => s_len l | None => O end in
        let need := (len + List.length xs)%nat in
        match o with
        | Some l =>
            let arr := array s (s_arr l) in
            if (need <=? List.length arr)%nat
            then (sdo _ <- swrite (s_arr l) (firstn len arr ++ xs ++ skipn need arr); sset_out a (Some {| s_arr := s_arr l; s_len := need |})) s
            else (sdo A <- smake (firstn len arr ++ xs ++ repeat None (spare need)); sset_out a (Some {| s_arr := A; s_len := need |})) s
        | None => (sdo A <- smake (xs ++ repeat None (spare need)); sset_out a (Some {| s_arr := A; s_len := need |})) s
        end
  end.
(** Out[:i], or append(Out[:i], Out[i+1:]...), which moves the rest within the array (graph.go:241-245, 265-269) *)
Definition sremove (a : addr) (i : nat) : SM unit :=
  sdo n <- sload a;
  match n_out n with
  | None => spanic
  | Some l =>
      if (i <? s_len l - 1)%nat
      then fun s =>
        let arr := array s (s_arr l) in
        (sdo _ <- swrite (s_arr l) (firstn i arr ++ skipn (S i) (firstn (s_len l) arr) ++ skipn (s_len l - 1) arr);
         sset_out a (Some {| s_arr := s_arr l; s_len := (s_len l - 1)%nat |})) s
      else sset_out a (Some {| s_arr := s_arr l; s_len := i |})
  end.
(** for _, n := range out: the slice is taken once, its elements are read one by one during the loop *)
Fixpoint srange_from (A : nat) (j k : nat) (body : option addr -> SM unit) : SM unit :=
  match k with
  | O => sret tt
  | S k => fun s => (sdo _ <- body (nth j (array s A) None); srange_from A (S j) k body) s
  end.
Definition srange (o : option slice) (body : option addr -> SM unit) : SM unit :=
  match o with None => sret tt | Some l => srange_from (s_arr l) 0 (s_len l) body end.

(** gettypes.go:574-588, 92-103, 279-284 *)
Fixpoint sstring_ (f : nat) (v : value addr) : SM bytes :=
  match v with
  | VPtr None => sret []
  | VPtr (Some a) =>
      match f with
      | O => sfuel
      | S f =>
          sdo n <- sload a; sdo o <- sview (n_out n);
          match o with
          | [] => sret []
          | None :: _ => spanic
          | Some b :: _ => sdo d <- sload b; sstring_ f (n_this d)
          end
      end
  | _ => sret (sstring E v)
  end.
Definition sString (f : nat) (g : option addr) : SM bytes := match g with None => sret [] | Some a => sstring_ f (VPtr (Some a)) end.
(** graph.go:21-23 New *)
Definition sNew (v : value addr) : SM (option addr) := sdo a <- salloc {| n_this := v; n_out := None |}; sret (Some a).
(** graph.go:57-71 Add *)
Definition sAdd (g : option addr) (v : value addr) : SM (option addr) :=
  match g, v with
  | None, _ | _, VNil => sret None
  | Some a, VPtr (Some n) => sdo _ <- sappend a [Some n]; sret (Some n)
  | Some a, _ => sdo n <- salloc {| n_this := v; n_out := None |}; sdo _ <- sappend a [Some n]; sret (Some n)
  end.
(** graph.go:91-99 AddNodes *)
Definition sAddNodes (g g2 : option addr) : SM (option addr) :=
  match g, g2 with
  | Some a, Some b => sdo _ <- sload a; sdo d <- sload b; sdo o <- sview (n_out d); sdo _ <- sappend a o; sret (Some a)
  | _, _ => sret None
  end.
(** graph.go:74-88 addNodes *)
Definition saddNodes (g : option addr) (v : value addr) : SM (option addr) :=
  match g, v with
  | None, _ | _, VNil => sret None
  | Some a, VPtr (Some n) => sdo _ <- sload a; sdo d <- sload n; sdo o <- sview (n_out d); sdo _ <- sappend a o; sret (Some n)
  | Some a, _ => sdo n <- salloc {| n_this := v; n_out := None |}; sdo _ <- sappend a [Some n]; sret (Some n)
  end.
(** graph.go:125-133 Copy *)
Fixpoint sCopy (f : nat) (g c : option addr) : SM unit :=
  match g, c with
  | Some _, Some b =>
      match f with
      | O => sfuel
      | S f =>
          sdo d <- sload b;
          srange (n_out d) (fun n => sdo n <- sderef n; sdo e <- sload n; sdo nn <- sAdd g (n_this e); sCopy f nn (Some n))
      end
  | _, _ => sret tt
  end.
(** graph.go:142-154 Clone *)
Fixpoint sClone (f : nat) (g : option addr) : SM (option addr) :=
  match g with
  | None => sret None
  | Some a =>
      match f with
      | O => sfuel
      | S f =>
          sdo d <- sload a;
          sdo c <- salloc {| n_this := n_this d; n_out := None |};
          sdo _ <- srange (n_out d) (fun n => sdo m <- sClone f n; sappend c [m]);
          sret (Some c)
      end
  end.
(** graph.go:158-168 Node; nothing is written during the loop *)
Fixpoint sfind (f : nat) (s : bytes) (o : list (option addr)) : SM (option addr) :=
  match o with
  | [] => sret None
  | n :: o' =>
      sdo n <- sderef n; sdo e <- sload n; sdo t <- sstring_ f (n_this e);
      if bseq s t then sret (Some n) else sfind f s o'
  end.
Definition sNode (f : nat) (g : option addr) (s : bytes) : SM (option addr) :=
  match g with None => sret None | Some a => sdo c <- sload a; sdo o <- sview (n_out c); sfind f s o end.
(** graph.go:172-183 NodeOrNew *)
Definition sNodeOrNew (f : nat) (g : option addr) (s : bytes) : SM (option addr) :=
  match g with
  | None => sret None
  | Some _ => sdo n <- sNode f g s; match n with Some n => sret (Some n) | None => sAdd g (VStr s) end
  end.
(** graph.go:252-258 Clear *)
Definition sClear (g : option addr) : SM unit := match g with None => sret tt | Some a => sset_out a None end.
(** graph.go:186-190 NodeSet *)
Definition sNodeSet (f : nat) (g : option addr) (s : bytes) (v : value addr) : SM (option addr) :=
  sdo n <- sNodeOrNew f g s; sdo _ <- sClear n; sAdd n v.
(** graph.go:194-201 Create *)
Definition sCreate (f : nat) (g : option addr) (s : bytes) : SM (option addr) :=
  sdo n <- sNode f g s;
  match n with None => sAdd g (VStr s) | Some _ => sdo _ <- sClear n; sret n end.
(** graph.go:204-210 GetAt *)
Definition sGetAt (g : option addr) (i : Z) : SM (option addr) :=
  sdo a <- sderef g; sdo c <- sload a; sdo o <- sview (n_out c);
  sret (if (Z.of_nat (List.length o) <=? i) || (i <? 0) then None else nth (Z.to_nat i) o None).
(** graph.go:234-249 Delete: the index stays after a removal; [k] bounds the number of rounds *)
Fixpoint sdel (k : nat) (a : addr) (n : value addr) (i : nat) : SM unit :=
  match k with
  | O => sfuel
  | S k =>
      sdo c <- sload a; sdo o <- sview (n_out c);
      if (i <? List.length o)%nat then
        sdo x <- sderef (nth i o None); sdo e <- sload x; sdo b <- slift (heq (n_this e) n);
        if (b : bool) then sdo _ <- sremove a i; sdel k a n i else sdel k a n (S i)
      else sret tt
  end.
Definition sDelete (g : option addr) (n : value addr) : SM unit :=
  match g with
  | None => sret tt
  | Some a => sdo c <- sload a; sdo o <- sview (n_out c); sdel (S (List.length o)) a n 0
  end.
(** graph.go:261-270 DeleteAt *)
Definition sDeleteAt (g : option addr) (i : Z) : SM unit :=
  match g with
  | None => sret tt
  | Some a =>
      sdo c <- sload a; sdo o <- sview (n_out c);
      if (i <? 0) || (Z.of_nat (List.length o) <=? i) then sret tt else sremove a (Z.to_nat i)
  end.
(** graph.go:301-310, 322-335: a new array of the size needed, or an assignment in place *)
Definition sset_index (a : addr) (i : Z) (v : value addr) : SM (option addr) :=
  if i <? 0 then spanic else
  sdo n <- salloc {| n_this := v; n_out := None |};
  sdo c <- sload a; sdo o <- sview (n_out c);
  sdo l <- (if Z.of_nat (List.length o) <=? i
            then sdo A <- smake (o ++ repeat None (S (Z.to_nat i) - List.length o)); sdo _ <- sset_out a (Some {| s_arr := A; s_len := S (Z.to_nat i) |}); sret {| s_arr := A; s_len := S (Z.to_nat i) |}
            else match n_out c with Some l => sret l | None => spanic end);
  sdo _ <- (fun s => swrite (s_arr l) (replace (array s (s_arr l)) (Z.to_nat i) (Some n)) s);
  sret (Some n).
Definition sset_here (a : addr) (v : value addr) : SM (option addr) := sdo _ <- sset_out a None; saddNodes (Some a) v.
Fixpoint sset_new (els : list helem) (a : addr) (v : value addr) : SM (option addr) :=
  match els with
  | [] => sset_here a v
  | HIndex i :: _ => sset_index a i v
  | HName s :: els' => sdo n <- sAdd (Some a) (VStr s); sdo n <- sderef n; sset_new els' n v
  end.
(** graph.go:288-345 set, 273-285 Set *)
Fixpoint sset (f : nat) (els : list helem) (a : addr) (v : value addr) : SM (option addr) :=
  match els with
  | [] => sset_here a v
  | HIndex i :: _ => sset_index a i v
  | HName s :: els' =>
      sdo n <- sNode f (Some a) s;
      match n with Some n => sset f els' n v | None => sset_new els a v end
  end.
Definition sSet (f : nat) (g : option addr) (els : list helem) (v : value addr) : SM (option addr) :=
  match g with None => sret None | Some a => sset f els a v end.
(** graph.go:224-231 Get with eval.go:42-163 getPath, as in Heap.v *)
Fixpoint sgets (f : nat) (els : list helem) (g : option addr) : SM (option addr) :=
  match els, g with
  | [], _ => sret g
  | _, None => sret None
  | HName s :: els', Some _ => sdo n <- sNode f g s; sgets f els' n
  | HIndex i :: els', Some _ =>
      if i <? 0 then sret None else
      sdo r <- sNew (VStr (bs "["));
      sdo c <- sGetAt g i;
      sdo _ <- sAdd r (VPtr c);
      sgets f els' r
  end.
Definition sget (f : nat) (els : list helem) (g : option addr) : SM (option addr) :=
  match els with [] => sret None | _ => sgets f els g end.
(** graph.go:504-515 Substitute *)
Fixpoint sSubstitute (f : nat) (g : option addr) (s : bytes) (v : value addr) : SM unit :=
  match g with
  | None => sret tt
  | Some a =>
      match f with
      | O => sfuel
      | S f' =>
          sdo c <- sload a;
          srange (n_out c) (fun n =>
            sdo n <- sderef n; sdo e <- sload n; sdo t <- sstring_ f (n_this e);
            sdo _ <- (if bseq t s then sstore n {| n_this := v; n_out := n_out e |} else sret tt);
            sSubstitute f' (Some n) s v)
      end
  end.
(** graph.go:518-530 Merge *)
Fixpoint sMerge (f : nat) (g : option addr) (src : addr) : SM unit :=
  match f with
  | O => sfuel
  | S f' =>
      sdo c <- sload src;
      srange (n_out c) (fun node =>
        sdo s <- sString f node;
        sdo n <- sNode f g s;
        match n with
        | None => sdo _ <- sAdd g (VPtr node); sret tt
        | Some n => sdo _ <- sset_out n None; sdo b <- sderef node; sMerge f' (Some n) b
        end)
  end.

(** gettypes.go:232-236 and 255-259: what Scalar and ThisScalar convert.  The test is for nil, the access is
    to the first element. *)
Definition sfirst (o : option slice) : SM (value addr) :=
  sdo o <- sview o; match o with Some b :: _ => sdo d <- sload b; sret (n_this d) | _ => spanic end.
Definition sInterface (a : addr) : SM (value addr) :=
  sdo n <- sload a; sdo o <- sview (n_out n); match o with [] => sret VNil | _ => sfirst (n_out n) end.
Definition sScalar (a : addr) : SM (value addr) :=
  sdo n <- sload a; sdo v <- sInterface a;
  match v, n_out n with VNil, Some _ => sfirst (n_out n) | _, _ => sret v end.
Definition sThisScalar (a : addr) : SM (value addr) :=
  sdo n <- sload a;
  match n_this n, n_out n with VNil, Some _ => sfirst (n_out n) | v, _ => sret v end.

(** ** Histories, as in Heap.v *)
Definition sunit (m : SM unit) : SM (option addr) := sdo _ <- m; sret None.
Definition srun_op (f : nat) (e : vars) (o : op) : SM (option addr) :=
  match o with
  | ONew v => sNew (resolve e v)
  | OAdd g v => sAdd (var e g) (resolve e v)
  | OAddNodes g g2 => sAddNodes (var e g) (var e g2)
  | OCopy g c => sunit (sCopy f (var e g) (var e c))
  | OClone g => sClone f (var e g)
  | ONode g s => sNode f (var e g) s
  | ONodeOrNew g s => sNodeOrNew f (var e g) s
  | ONodeSet g s v => sNodeSet f (var e g) s (resolve e v)
  | OCreate g s => sCreate f (var e g) s
  | OGetAt g i => sGetAt (var e g) i
  | ODelete g v => sunit (sDelete (var e g) (resolve e v))
  | OClear g => sunit (sClear (var e g))
  | ODeleteAt g i => sunit (sDeleteAt (var e g) i)
  | OSet g els v => sSet f (var e g) els (resolve e v)
  | OGet g els => sget f els (var e g)
  | OSubstitute g s v => sunit (sSubstitute f (var e g) s (resolve e v))
  | OMerge g src => sdo b <- sderef (var e src); sunit (sMerge f (var e g) b)
  | OThis g => sdo a <- sderef (var e g); sdo c <- sload a; match n_this c with VPtr p => sret p | _ => spanic end
  | OSetThis g v => sdo a <- sderef (var e g); sdo c <- sload a; sdo _ <- sstore a {| n_this := resolve e v; n_out := n_out c |}; sret None
  | OSetOut g l => sdo a <- sderef (var e g); sdo A <- smake (map (var e) l); sdo _ <- sset_out a (Some {| s_arr := A; s_len := List.length l |}); sret None
  end.
Fixpoint srun (f : nat) (ops : list op) (s : mem) (e : vars) : mem * vars :=
  match ops with
  | [] => (s, e)
  | o :: ops' =>
      let (s', r) := srun_op f e o s in
      srun f ops' s' (e ++ [match r with Ok p => p | _ => None end])
  end.
End Slices.
