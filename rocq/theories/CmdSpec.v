(** What the commands are meant to print. *)
From Verif Require Import Base Value TypesSpec Encoding.

(** [jlines E d f]: the forest of texts that stands for a JSON document.  The elements of a list
    are below an underscore each, the members of an object below one underscore, each below its
    name. *)
Inductive jlines (E : env) : jdoc -> list tree -> Prop :=
| jl_null : jlines E JNull []
| jl_true : jlines E (JBool true) [T (bs "true") []]
| jl_false : jlines E (JBool false) [T (bs "false") []]
| jl_str s : jlines E (JStr s) [T s []]
| jl_int s z : numeral s z -> jlines E (JNum s) [T (format_int z) []]
| jl_float s x : (forall z, ~ numeral s z) -> parse_float E s = Some x -> jlines E (JNum s) [T (sprint_f64 E x) []]
| jl_arr l f : Forall2 (fun d t => exists k, t = T (bs "_") k /\ jlines E d k) l f -> jlines E (JArr l) f
| jl_obj l f : Forall2 (fun m t => exists k, t = T (fst m) k /\ jlines E (snd m) k) l f -> jlines E (JObj l) [T (bs "_") f].

(** The option -id of xml2ogdl: a node with the attribute id (as the first) and other subnodes
    is reduced to the last of them and renamed to the value of the attribute, except for
    paragraphs. *)
Definition has_id (k : list tree) : Prop := exists i r, k = T (bs "@id") i :: r /\ r <> [].
Inductive with_id : tree -> tree -> Prop :=
| wi_other s k k' : ~ has_id k -> with_ids k k' -> with_id (T s k) (T s k')
| wi_paragraph i r t t' : with_id t t' -> with_id (T (bs "p") (T (bs "@id") i :: r ++ [t])) (T (bs "p") [t'])
| wi_id s i n r r' t t' : s <> bs "p" -> with_id t t' -> with_id (T s (T (bs "@id") (T i n :: r) :: r' ++ [t])) (T i [t'])
with with_ids : list tree -> list tree -> Prop :=
| wis_nil : with_ids [] []
| wis_cons t t' k k' : with_id t t' -> with_ids k k' -> with_ids (t :: k) (t' :: k').
Scheme with_id_mind := Induction for with_id Sort Prop with with_ids_mind := Induction for with_ids Sort Prop.
Combined Scheme with_id_ind' from with_id_mind, with_ids_mind.
