(** encoding.go: JSON output and input. *)
From Verif Require Import Base Value Graph.
From Coq Require Import SpecFloat.

Section Output.
Variable E : env.
Variable fmt_f : spec_float -> bytes.     (* fmt.Sprintf("%f", x), without the blank *)

(** strings.Replace(s, "\"", "\\\"", -1) *)
Fixpoint escape (s : bytes) : bytes :=
  match s with
  | [] => []
  | c :: s' => if beq c x22 then "\"%byte :: x22 :: escape s' else c :: escape s'
  end.
(** encoding.go:165-172 writeString *)
Definition writeString (v : value graph) : res bytes :=
  let* s := vstring E v in Ok (x22 :: escape s ++ [x22; x20]).
(** encoding.go:174-186 writeValue *)
Definition writeValue (v : value graph) : res bytes :=
  match v_int64 v with
  | Some n => Ok (format_int n ++ [x20])
  | None =>
      match v_float64 v with
      | Some f => Ok (fmt_f f ++ [x20])
      | None => writeString v
      end
  end.

(** encoding.go:118-163 json on a non-nil receiver: what it appends to the buffer.  [loop] is the
    loop over the children (139-155); a nil child has Len() -1 and goes to n.json, where ranging
    over the fields of a nil pointer panics. *)
Fixpoint json (g : graph) : res bytes :=
  match g with
  | Node v [] => writeValue v
  | Node v o =>
      let loop := fix loop (o : list (option graph)) (comma : bool) : res bytes :=
        match o with
        | [] => Ok []
        | n :: o' =>
            let sep := if comma then bs ", " else [] in
            match n with
            | None => Panic
            | Some n =>
                match out n with
                | [] => let* s := writeValue (this n) in let* r := loop o' comma in Ok (sep ++ s ++ r)
                | [_] =>
                    let* s := writeString (this n) in let* t := json n in let* r := loop o' true in
                    Ok (sep ++ s ++ bs ": " ++ t ++ r)
                | _ => let* t := json n in let* r := loop o' true in Ok (sep ++ t ++ r)
                end
            end
        end in
      let* s := vstring E v in
      if bseq s (bs "_") then let* r := loop o false in Ok (bs "[ " ++ r ++ bs "]")
      else if (1 <? List.length o)%nat then let* r := loop o false in Ok (bs "{ " ++ r ++ bs "}")
      else loop o false
  end.

(** encoding.go:97-116 JSON: the receiver afterwards and the text.  The content of the root is
    replaced while json runs and restored only if it returns. *)
Definition JSON (g : option graph) : option graph * res (option bytes) :=
  match g with
  | None => (None, Ok None)
  | Some (Node i o) =>
      match json (Node (VStr []) o) with
      | Ok s => (Some (Node i o), Ok (Some s))
      | Panic => (Some (Node (VStr []) o), Panic)
      | NoFuel => (Some (Node (VStr []) o), NoFuel)
      end
  end.
End Output.

(** What the decoder of encoding/json returns with UseNumber.  The decoder itself is not
    modelled.  A Go map has distinct keys and is visited in any order: [JObj] lists its members
    in the order of this run. *)
Inductive jdoc : Type :=
| JNull
| JBool (b : bool)
| JNum (s : bytes)
| JStr (s : bytes)
| JArr (l : list jdoc)
| JObj (l : list (bytes * jdoc)).

Section Input.
Variable E : env.
(** encoding.go:49-82 toGraph.  json.Number.Int64 is ParseInt(s, 10, 64), Float64 is
    ParseFloat(s, 64).  Add and AddNodes of graph.go append. *)
Fixpoint toGraph (v : jdoc) : graph :=
  match v with
  | JNull => Node (VStr (bs "_")) []
  | JBool b => Node (VStr (bs "_")) [Some (Node (VBool b) [])]
  | JStr s => Node (VStr (bs "_")) [Some (Node (VStr s) [])]
  | JNum s =>
      Node (VStr (bs "_"))
        [Some (Node match parse_int s with
                    | Some i => VInt KInt64 i
                    | None => VF64 match parse_float E s with Some f => f | None => S754_nan end
                    end [])]
  | JArr l =>
      Node (VStr (bs "_")) ((fix each (l : list jdoc) : list (option graph) :=
                               match l with [] => [] | i :: l' => Some (toGraph i) :: each l' end) l)
  | JObj l =>
      Node (VStr (bs "_"))
        [Some (Node (VStr (bs "_"))
           ((fix each (l : list (bytes * jdoc)) : list (option graph) :=
               match l with [] => [] | (k, i) :: l' => Some (Node (VStr k) (out (toGraph i))) :: each l' end) l))]
  end.
(** encoding.go:32-47 FromJSON on what the decoder returns *)
Definition FromJSON (v : jdoc) : res (option graph) := GetAt (Some (toGraph v)) 0.
End Input.
