(** Other views of a graph: lists of strings and Find (gettypes.go), Html (html.go), the
    conversion of method arguments (function.go), and Simplify (io/gxml/xml.go). *)
From Verif Require Import Base Value Graph Emit.

Section Views.
Variable E : env.

(** ** gettypes.go *)

(** gettypes.go:92-103 [String(def...)]: the default is for a nil receiver *)
Definition String_def (g : option graph) (def : option bytes) : res bytes :=
  match g with
  | None => Ok match def with Some d => d | None => [] end
  | Some g => gstring E g
  end.

(** The contents of the subnodes as strings; n.This of a nil subnode panics. *)
Fixpoint contents (o : list (option graph)) : res (list bytes) :=
  match o with
  | [] => Ok []
  | None :: _ => Panic
  | Some c :: o => let* s := vstring E (this c) in let* r := contents o in Ok (s :: r)
  end.

(** gettypes.go:128-147 [Strings()]; a nil slice is [] *)
Definition Strings (g : option graph) : res (list bytes) :=
  match g with None => Ok [] | Some g => contents (out g) end.

(** gettypes.go:117-121 and 166-170: the loop that joins, each string after its separator *)
Definition joined (sep : bytes) (l : list bytes) : bytes := flat_map (fun s => sep ++ s) l.

(** Go's s[k:], which panics when s is shorter *)
Definition slice_from (k : nat) (s : bytes) : res bytes :=
  if (k <=? List.length s)%nat then Ok (skipn k s) else Panic.

(** gettypes.go:108-125 [StringCSV(def...)] *)
Definition StringCSV (g : option graph) (def : option bytes) : res bytes :=
  match g with
  | None => Ok match def with Some d => d | None => [] end
  | Some g => let* l := contents (out g) in slice_from 2 (joined (bs ", ") l)
  end.

(** gettypes.go:151-172 [StringTxt(def...)] *)
Definition StringTxt (g : option graph) (def : option bytes) : res bytes :=
  match g with
  | None => Ok match def with Some d => d | None => [] end
  | Some g =>
      match out g with
      | [] => Ok []
      | o => let* l := contents o in slice_from 1 (joined (bs " ") l)
      end
  end.

(** gettypes.go:20-36 [Find(re)].  [compile] is regexp.Compile: a matcher, or None when the
    expression is wrong.  Result: the graph, or None with an error.  g.Out of a nil receiver
    panics; a nil subnode has the content "" and is added as a node holding a nil *Graph. *)
Variable compile : bytes -> option (bytes -> bool).
Fixpoint find_loop (m : bytes -> bool) (o : list (option graph)) (r : option graph) : res (option graph) :=
  match o with
  | [] => Ok r
  | n :: o =>
      let* s := ThisString E n in
      find_loop m o (if m s then fst (Add r (VPtr n)) else r)
  end.
Definition Find (g : option graph) (re : bytes) : res (option graph) :=
  match compile re with
  | None => Ok None
  | Some m =>
      match g with
      | None => Panic
      | Some g => find_loop m (out g) (Some (New (VStr (bs "_"))))
      end
  end.

(** ** html.go *)

(** html.go:52-55 *)
Definition nbsps (n : nat) : bytes := List.concat (repeat (bs "&nbsp;&nbsp;") n).

(** html.go:70-128: what _html writes for one node: its content [s], its level [n], its link
    (none for a leaf).  The closing tag is only written in the second case (line 123). *)
Definition html_node (n : nat) (link : option bytes) (s : bytes) : bytes :=
  (match link with Some l => bs "<a href='" ++ l ++ bs "'>" | None => [] end) ++
  (if existsb special s
   then (if (0 <? n)%nat then nbsps n ++ [x22] else []) ++
        text_bytes (0 <? n)%nat (nbsps n) x00 s ++
        (if (0 <? n)%nat then [x22] else []) ++ bs "<br>" ++ [x0a]
   else nbsps n ++ s ++ (match link with Some _ => bs "</a>" | None => [] end) ++ bs "<br>" ++ [x0a]).

(** html.go:46-133 [_html]; the parameter show is unused since the content is never empty *)
Fixpoint html_ (n : nat) (path : bytes) (g : graph) : res bytes :=
  match g with
  | Node v o =>
      let* s := vstring E v in
      let s := match s with [] => bs "_" | _ => s end in
      let path' := path ++ bs "/" ++ s in
      let hd := html_node n (match o with [] => None | _ => Some path' end) s in
      let* tl := (fix go (o : list (option graph)) : res bytes :=
                    match o with
                    | [] => Ok []
                    | None :: o => go o
                    | Some c :: o => let* x := html_ (S n) path' c in let* y := go o in Ok (x ++ y)
                    end) o in
      Ok (hd ++ tl)
  end.
Fixpoint htmls (n : nat) (path : bytes) (o : list (option graph)) : res bytes :=
  match o with
  | [] => Ok []
  | None :: o => htmls n path o
  | Some c :: o => let* x := html_ n path c in let* y := htmls n path o in Ok (x ++ y)
  end.

(** html.go:8-41 [Html(path)]; lines 21-38 are those of Text (Emit.finish) *)
Definition Html (g : option graph) (path : bytes) : res bytes :=
  match g with
  | None => Ok []
  | Some g => let* s := htmls 0 path (out g) in finish s
  end.

(** ** function.go *)

(** reflect.TypeOf(v).String() *)
Variable type_other : value graph -> bytes.       (* functions, objects and other types *)
Definition kind_name (k : ikind) : bytes :=
  match k with
  | KInt => bs "int" | KInt8 => bs "int8" | KInt16 => bs "int16" | KInt32 => bs "int32" | KInt64 => bs "int64"
  | KUint => bs "uint" | KUint8 => bs "uint8" | KUint16 => bs "uint16" | KUint32 => bs "uint32" | KUint64 => bs "uint64"
  end.
Definition type_name (v : value graph) : bytes :=
  match v with
  | VStr _ => bs "string"
  | VBytes _ => bs "[]uint8"
  | VBool _ => bs "bool"
  | VInt k _ => kind_name k
  | VF32 _ => bs "float32"
  | VF64 _ => bs "float64"
  | VPtr _ => bs "*ogdl.Graph"
  | v => type_other v
  end.

Definition is_nil (v : value graph) : bool := match v with VNil => true | _ => false end.
(** A converted argument: a value, or a []string *)
Inductive argument : Type := AVal (v : value graph) | AStrings (l : list bytes).

(** gettypes.go:53-62 [Float64(def...)] without default: NaN *)
Definition Float64 (g : option graph) : res spec_float :=
  let* s := String_def g None in
  Ok match parse_float E s with Some f => f | None => S754_nan end.

(** strconv.ParseBool and the float that ParseFloat returns with an error (0, or an infinity
    for a number out of range) *)
Variable parse_bool : bytes -> option bool.
Variable float_error : bytes -> spec_float.
(** The int64 that strconv.ParseInt returns, error or not: 0 for a wrong text, the nearest
    int64 for a number out of range *)
Definition parse_int_clamped (s : bytes) : Z :=
  match parse_int s with
  | Some z => z
  | None =>
      let '(neg, body) := match s with c :: s' => if beq c "-" then (true, s') else if beq c "+" then (false, s') else (false, s) | [] => (false, s) end in
      match parse_nat body with
      | None => 0
      | Some _ => if neg then - 2 ^ 63 else 2 ^ 63 - 1
      end
  end.

(** function.go:173-239 [convert]; None is reflect.ValueOf(nil), on which Call panics.
    reflect.TypeOf(nil) is a nil interface, so String() panics.  int is 64 bits wide. *)
Definition convert (arg : value graph) (dtype : bytes) : res (option argument) :=
  if is_nil arg then Panic else
  if bseq dtype (type_name arg) then Ok (Some (AVal arg)) else
  match arg with
  | VPtr n =>
      if bseq dtype (bs "int64") then let* z := Int64 E n None in Ok (Some (AVal (VInt KInt64 z)))
      else if bseq dtype (bs "bool") then let* b := Bool_ E n None in Ok (Some (AVal (VBool b)))
      else if bseq dtype (bs "string") then let* s := String_def n None in Ok (Some (AVal (VStr s)))
      else if bseq dtype (bs "[]string") then let* l := Strings n in Ok (Some (AStrings l))
      else if bseq dtype (bs "float64") then let* f := Float64 n in Ok (Some (AVal (VF64 f)))
      else if bseq dtype (bs "int") then let* z := Int64 E n None in Ok (Some (AVal (VInt KInt z)))
      else Ok None
  | VStr s =>
      if bseq dtype (bs "float64") then Ok (Some (AVal (VF64 match parse_float E s with Some f => f | None => float_error s end)))
      else if bseq dtype (bs "bool") then Ok (Some (AVal (VBool match parse_bool s with Some b => b | None => false end)))
      else if bseq dtype (bs "int64") then Ok (Some (AVal (VInt KInt64 (parse_int_clamped s))))
      else Ok None
  | VInt KInt64 z =>
      if bseq dtype (bs "float64") then Ok (Some (AVal (VF64 (f64_of_Z z))))
      else if bseq dtype (bs "int") then Ok (Some (AVal (VInt KInt z)))
      else Ok None
  | VF64 f =>
      if bseq dtype (bs "int64") then Ok (Some (AVal (VInt KInt64 (f2i E f))))
      else if bseq dtype (bs "int") then Ok (Some (AVal (VInt KInt (f2i E f))))
      else Ok None
  | _ => Ok None
  end.

(** ** io/gxml/xml.go Simplify *)

(** strings.ReplaceAll(s, " ", "_") *)
Definition underscored (s : bytes) : bytes := map (fun c => if beq c " " then "_"%byte else c) s.

(** io/gxml/xml.go:25 and 31: n.Out[0].Out[0] *)
Definition grandchild (c : option graph) : res graph :=
  match c with
  | Some (Node _ (Some d :: _)) => Ok d
  | _ => Panic
  end.

(** io/gxml/xml.go:15-37 [Simplify]: [simplify_node] is the body of the loop on one subnode
    (the recursive call works on the subnodes that are left).  A nil subnode panics.
    cmd/xml2ogdl/main.go:51-70 is the same without the second case. *)
Fixpoint simplify_node (n : graph) : res graph :=
  match n with
  | Node v o =>
      let all := fix go (o : list (option graph)) : res (list (option graph)) :=
                   match o with
                   | [] => Ok []
                   | None :: _ => Panic
                   | Some c :: o => let* c := simplify_node c in let* o := go o in Ok (Some c :: o)
                   end in
      let only_last := fix go (o : list (option graph)) : res (list (option graph)) :=
                   match o with
                   | [] => Ok []
                   | [None] => Panic
                   | [Some c] => let* c := simplify_node c in Ok [Some c]
                   | _ :: o => go o
                   end in
      match o with
      | [] => Ok n
      | c :: o' =>
          let* s := ThisString E c in
          if bseq s (bs "@id") && (2 <=? List.length o)%nat then
            let* v := (match v with
                       | VStr t => if bseq t (bs "p") then Ok v else let* d := grandchild c in Ok (this d)
                       | _ => let* d := grandchild c in Ok (this d)
                       end) in
            let* o := only_last o in Ok (Node v o)
          else
            let* named := (if Len c =? 1 then
                             let* t := vstring E v in
                             if bseq t (bs "field") then let* s := gstring E n in Ok (bseq s (bs "@name")) else Ok false
                           else Ok false) in
            if (named : bool) then
              let* d := grandchild c in
              let* s := vstring E (this d) in
              let* o := all o' in Ok (Node (VStr (underscored s)) o)
            else let* o := all o in Ok (Node v o)
      end
  end.
Fixpoint simplify_all (o : list (option graph)) : res (list (option graph)) :=
  match o with
  | [] => Ok []
  | None :: _ => Panic
  | Some c :: o => let* c := simplify_node c in let* o := simplify_all o in Ok (Some c :: o)
  end.
Definition Simplify (g : graph) : res graph :=
  let* o := simplify_all (out g) in Ok (Node (this g) o).
End Views.
