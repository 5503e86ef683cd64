(** Model of the commands in cmd/: what they write to standard output. *)
From Verif Require Import Base Value Buffer Emit Graph Eval Template Encoding Xml Views.

Section Cmd.
Variable E : env.
Variable C : calls.
Variable fuel : nat.

(** cmd/gpath/main.go:46-54 *)
Definition end_line (s : bytes) : bytes :=
  match s with
  | [] => []
  | _ => let c := List.last s x00 in if beq c x0a || beq c x0d then s else s ++ [x0a]
  end.
(** cmd/gpath/main.go:38-56 main with a path and a source that could be opened *)
Definition gpath (path : bytes) (source : reader) : res bytes :=
  let* g := FromReader E fuel false source in
  let* r := (if bseq path (bs ".") then Ok (Some g)
             else let* (_, r) := Get E C fuel (Some g) path in Ok r) in
  let* s := Text E r in Ok (end_line s).

(** parser.go:82-92 FromFile; None: ReadFile fails *)
Definition FromFile (f : option bytes) : res (option graph) :=
  match f with
  | None | Some [] => Ok None
  | Some b => let* g := FromReader E fuel false (bytes_reader b) in Ok (Some g)
  end.
(** cmd/gtemplate/main.go:35-44: the loop over the data files, the first one done *)
Fixpoint data_files (data : option graph) (fs : list (option bytes)) : res (option graph) :=
  match fs with
  | [] => Ok data
  | f :: fs => let* g := FromFile f in data_files (AddNodes data g) fs
  end.
Definition gtemplate_data (fs : list (option bytes)) : res (option graph) :=
  match fs with
  | [] => Ok None
  | f :: fs => let* g := FromFile f in data_files g fs
  end.
(** cmd/gtemplate/main.go:30-47 main with at least one argument; a template file that
    cannot be read is an empty one.  [on_nil] stands for Process(nil), which is not modelled. *)
Variable on_nil : graph -> res bytes.
Definition gtemplate (tpl : option bytes) (fs : list (option bytes)) : res bytes :=
  let* t := NewTemplate E fuel (match tpl with Some b => b | None => [] end) in
  let* d := gtemplate_data fs in
  let* b := (match d with
             | Some c => let* (_, b) := Process E C fuel (Some t) c in Ok b
             | None => on_nil t
             end) in
  Ok (b ++ [x0a]).

(** cmd/json2ogdl/main.go:34-43: reading the source; data that come with an error are lost *)
Fixpoint read_all (n : nat) (source : reader) : res bytes :=
  match n with
  | O => NoFuel
  | S n =>
      let '(d, err, source) := rd_read 4096 source in
      if (err : bool) || (List.length d =? 0)%nat then Ok []
      else let* r := read_all n source in Ok (d ++ r)
  end.
(** cmd/json2ogdl/main.go:34-47 main with a source that could be opened.  [decode] is the decoder
    of encoding/json; None: it returns an error, and the graph is nil. *)
Variable decode : bytes -> option jdoc.
Definition json2ogdl (source : reader) : res bytes :=
  let* b := read_all fuel source in
  let* g := (match decode b with Some d => FromJSON E d | None => Ok None end) in
  let* s := Text E g in Ok (s ++ [x0a]).

(** cmd/xml2ogdl/main.go:51-70 simplify: the body of the loop on one subnode.  A nil subnode
    panics. *)
Fixpoint id_node (n : graph) : res graph :=
  match n with
  | Node v [] => Ok n
  | Node v (c :: o') =>
      let all := fix go (o : list (option graph)) : res (list (option graph)) :=
                   match o with
                   | [] => Ok []
                   | None :: _ => Panic
                   | Some c :: o => let* c := id_node c in let* o := go o in Ok (Some c :: o)
                   end in
      let only_last := fix go (o : list (option graph)) : res (list (option graph)) :=
                   match o with
                   | [] => Ok []
                   | [None] => Panic
                   | [Some c] => let* c := id_node c in Ok [Some c]
                   | _ :: o => go o
                   end in
      let* s := ThisString E c in
      if bseq s (bs "@id") && (2 <=? S (List.length o'))%nat then
        let* v := (match v with
                   | VStr t => if bseq t (bs "p") then Ok v else let* d := grandchild c in Ok (this d)
                   | _ => let* d := grandchild c in Ok (this d)
                   end) in
        let* o := only_last (c :: o') in Ok (Node v o)
      else let* o := all (c :: o') in Ok (Node v o)
  end.
Fixpoint id_all (o : list (option graph)) : res (list (option graph)) :=
  match o with
  | [] => Ok []
  | None :: _ => Panic
  | Some c :: o => let* c := id_node c in let* o := id_all o in Ok (Some c :: o)
  end.
(** cmd/xml2ogdl/main.go:51-54: on a nil graph g.Out panics *)
Definition id_simplify (g : option graph) : res (option graph) :=
  match g with
  | None => Panic
  | Some g => let* o := id_all (out g) in Ok (Some (Node (this g) o))
  end.
(** cmd/xml2ogdl/main.go:31-48 main with a path and a file that can be read.  [tokens] is the decoder of encoding/xml;
    xml2graph is a copy of FromXML in io/gxml/xml.go. *)
Variable unaccent trim : bytes -> bytes.
Variable tokens : bytes -> list xtoken.
Definition xml2ogdl (id : bool) (path : bytes) (b : bytes) : res bytes :=
  let* g := FromXML unaccent trim (tokens b) in
  let* r := (if bseq path (bs ".") then Ok (Some g)
             else let* (_, r) := Get E C fuel (Some g) path in Ok r) in
  let* r := (if id then id_simplify r else Ok r) in
  let* s := Text E r in Ok (s ++ [x0a]).
End Cmd.
