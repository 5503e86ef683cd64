(** JSON texts (RFC 8259), and graphs that can be written as such. *)
From Verif Require Import Base Value TypesSpec Encoding.
From Coq Require Import SpecFloat.

Definition ws (s : bytes) : Prop := Forall (fun c => In c [x20; x09; x0a; x0d]) s.
Definition hex (c : byte) : Prop := 48 <= bz c <= 57 \/ 65 <= bz c <= 70 \/ 97 <= bz c <= 102.
(** The characters of a string (bytes of non-ASCII characters are taken as they are) *)
Inductive jchars : bytes -> Prop :=
| jc_nil : jchars []
| jc_plain c s : 32 <= bz c -> c <> x22 -> c <> "\"%byte -> jchars s -> jchars (c :: s)
| jc_escape c s : In c [x22; "\"%byte; "/"%byte; "b"%byte; "f"%byte; "n"%byte; "r"%byte; "t"%byte] -> jchars s -> jchars ("\"%byte :: c :: s)
| jc_unicode a b c d s : hex a -> hex b -> hex c -> hex d -> jchars s -> jchars ("\"%byte :: "u"%byte :: a :: b :: c :: d :: s).
Definition digit (c : byte) : Prop := 48 <= bz c <= 57.
(** -? (0 | [1-9][0-9]* ) (. [0-9]+ )? ([eE] [+-]? [0-9]+ )? *)
Inductive jnat : bytes -> Prop :=
| jn_zero : jnat ["0"%byte]
| jn_pos c s : 49 <= bz c <= 57 -> Forall digit s -> jnat (c :: s).
Inductive jfrac : bytes -> Prop :=
| jf_none : jfrac []
| jf_some c s : digit c -> Forall digit s -> jfrac ("."%byte :: c :: s).
Inductive jexp : bytes -> Prop :=
| je_none : jexp []
| je_some e g c s : In e ["e"%byte; "E"%byte] -> In g [[]; ["+"%byte]; ["-"%byte]] -> digit c -> Forall digit s -> jexp (e :: g ++ c :: s).
Inductive jnumber : bytes -> Prop :=
| jnum g n f e : In g [[]; ["-"%byte]] -> jnat n -> jfrac f -> jexp e -> jnumber (g ++ n ++ f ++ e).

Inductive jvalue : bytes -> Prop :=
| jv_null : jvalue (bs "null")
| jv_true : jvalue (bs "true")
| jv_false : jvalue (bs "false")
| jv_number s : jnumber s -> jvalue s
| jv_string s : jchars s -> jvalue (x22 :: s ++ [x22])
| jv_array0 w : ws w -> jvalue ("["%byte :: w ++ ["]"%byte])
| jv_array s : jelements s -> jvalue ("["%byte :: s ++ ["]"%byte])
| jv_object0 w : ws w -> jvalue ("{"%byte :: w ++ ["}"%byte])
| jv_object s : jmembers s -> jvalue ("{"%byte :: s ++ ["}"%byte])
with jelements : bytes -> Prop :=
| jl_one w v w' : ws w -> jvalue v -> ws w' -> jelements (w ++ v ++ w')
| jl_more w v w' s : ws w -> jvalue v -> ws w' -> jelements s -> jelements (w ++ v ++ w' ++ ","%byte :: s)
with jmembers : bytes -> Prop :=
| jm_one w k w1 w2 v w' : ws w -> jchars k -> ws w1 -> ws w2 -> jvalue v -> ws w' ->
    jmembers (w ++ x22 :: k ++ x22 :: w1 ++ ":"%byte :: w2 ++ v ++ w')
| jm_more w k w1 w2 v w' s : ws w -> jchars k -> ws w1 -> ws w2 -> jvalue v -> ws w' -> jmembers s ->
    jmembers (w ++ x22 :: k ++ x22 :: w1 ++ ":"%byte :: w2 ++ v ++ w' ++ ","%byte :: s).
(** A JSON text: one value, blanks around it *)
Inductive wellformed : bytes -> Prop :=
| wf_text w v w' : ws w -> jvalue v -> ws w' -> wellformed (w ++ v ++ w').

(** Texts that need no escape but for the quote *)
Definition clean (s : bytes) : Prop := Forall (fun c => 32 <= bz c /\ c <> "\"%byte) s.

Section Writable.
Variable E : env.
Variable fmt_f : spec_float -> bytes.
Definition tidy (v : value graph) : Prop := exists s, vstring E v = Ok s /\ clean s.
(** Contents of leaves: integers, floats with a decimal form, tidy texts *)
Definition writable (v : value graph) : Prop :=
  match v with
  | VInt _ _ => True
  | VF32 f => jnumber (fmt_f (f64_of_f32 f))
  | VF64 f => jnumber (fmt_f f)
  | v => tidy v
  end.
(** Graphs that have the form of a JSON value:
    [leaf], [record] (several fields, each with one subnode), [listing] (several groups under a
    node _, each with several subnodes, and perhaps a leaf at the end). *)
Inductive leaf : graph -> Prop :=
| le_node v : writable v -> leaf (Node v []).
Inductive composite : graph -> Prop :=
| co_record v s k : vstring E v = Ok s -> s <> bs "_" -> (2 <= List.length k)%nat -> Forall field k -> composite (Node v (map Some k))
| co_listing v k : vstring E v = Ok (bs "_") -> (2 <= List.length k)%nat -> Forall composite (removelast k) ->
    (forall d, leaf (last k d) \/ composite (last k d)) -> composite (Node v (map Some k))
with field : graph -> Prop :=
| fi_node v n : tidy v -> leaf n \/ composite n -> field (Node v [Some n]).
(** The children of a root *)
Inductive document : list (option graph) -> Prop :=
| do_empty : document []
| do_one n : leaf n \/ composite n -> document [Some n]
| do_record k : (2 <= List.length k)%nat -> Forall field k -> document (map Some k).
End Writable.

(** ** Input: the children that a value becomes *)
Inductive kept (E : env) : jdoc -> list (option graph) -> Prop :=
| ke_null : kept E JNull []
| ke_bool b : kept E (JBool b) [Some (Node (VBool b) [])]
| ke_str s : kept E (JStr s) [Some (Node (VStr s) [])]
| ke_int s z : numeral s z -> kept E (JNum s) [Some (Node (VInt KInt64 z) [])]
| ke_float s f : (forall z, ~ numeral s z) -> parse_float E s = Some f -> kept E (JNum s) [Some (Node (VF64 f) [])]
| ke_arr l k : Forall2 (fun d c => exists o, c = Some (Node (VStr (bs "_")) o) /\ kept E d o) l k -> kept E (JArr l) k
| ke_obj l k : Forall2 (fun m c => exists o, c = Some (Node (VStr (fst m)) o) /\ kept E (snd m) o) l k ->
    kept E (JObj l) [Some (Node (VStr (bs "_")) k)].
(** Every number of the document is one that ParseInt or ParseFloat accept. *)
Inductive numbers_ok (E : env) : jdoc -> Prop :=
| nu_null : numbers_ok E JNull
| nu_bool b : numbers_ok E (JBool b)
| nu_str s : numbers_ok E (JStr s)
| nu_int s z : numeral s z -> numbers_ok E (JNum s)
| nu_float s f : parse_float E s = Some f -> numbers_ok E (JNum s)
| nu_arr l : Forall (numbers_ok E) l -> numbers_ok E (JArr l)
| nu_obj l : Forall (fun m => numbers_ok E (snd m)) l -> numbers_ok E (JObj l).
