(** schema.go: checking a graph against a schema. *)
From Verif Require Import Base Value Graph.

Section Schema.
Variable E : env.

(** graph.go:34-36 [ThisType]: reflect.TypeOf(x).String(); reflect.TypeOf(nil) is a nil Type, on
    which String() panics.  Only the names that checkNode looks at are told apart: no type
    prints as []byte, since a byte slice prints as []uint8. *)
Inductive tyname := TyString | TyByteAlias | TySomething.
Definition ThisType (v : value graph) : res tyname :=
  match v with
  | VNil => Panic
  | VStr _ => Ok TyString
  | _ => Ok TySomething
  end.

(** schema.go:31-71 [checkNode].  Indexing the empty string (line 44) panics. *)
Definition checkNode (g x : option graph) : res bool :=
  match g, x with
  | Some g, Some x =>
      let* sx := ThisString E (Some x) in
      let* sc := ThisString E (Some g) in
      let* ty := ThisType (this x) in
      match sc with
      | [] => Panic
      | c :: _ =>
          if negb (beq c "!") then Ok (bseq sx sc)
          else if bseq sc (bs "!float") then
            let* r := v_float64f E (this x) in Ok match r with Some _ => true | None => false end
          else if bseq sc (bs "!int") then
            let* r := v_int64f E (this x) in Ok match r with Some _ => true | None => false end
          else if bseq sc (bs "!bool") then
            Ok match v_boolf (this x) with Some _ => true | None => false end
          else if bseq sc (bs "!string") then Ok match ty with TyString => true | _ => false end
          else if bseq sc (bs "!binary") then Ok match ty with TyByteAlias => true | _ => false end
          else Ok false
      end
  | _, _ => Ok false
  end.

(** schema.go:9-29 [Check] on a non-nil schema.  On a nil schema Len() is -1, so the loop does
    not run and the answer is true: that is the case [None] inside the loop. *)
Fixpoint check (g : graph) (x : option graph) : res (bool * bytes) :=
  match g with
  | Node _ o =>
      (fix loop (o : list (option graph)) (i : Z) : res (bool * bytes) :=
         match o with
         | [] => Ok (true, [])
         | ns :: o' =>
             let* nx := GetAt x i in
             let* b := checkNode ns nx in
             match ns, b with
             | Some _, false =>
                 let* w := ThisString E ns in
                 let* y := ThisString E nx in
                 Ok (false, bs "want " ++ w ++ bs ", got " ++ y)
             | _, _ =>
                 let* r := match ns with Some s => check s nx | None => Ok (true, []) end in
                 match r with
                 | (false, m) => Ok (false, m)
                 | (true, _) => loop o' (i + 1)
                 end
             end
         end) o 0
  end.
Definition Check (g x : option graph) : res (bool * bytes) :=
  match g with Some g => check g x | None => Ok (true, []) end.

End Schema.
