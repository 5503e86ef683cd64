(** What the views of a graph should show, without the code. *)
From Verif Require Import Base Value Emit.

(** Strings one after the other with a separator between two *)
Fixpoint join (sep : bytes) (l : list bytes) : bytes :=
  match l with
  | [] => []
  | [s] => s
  | s :: l => s ++ sep ++ join sep l
  end.

(** The content of a subnode as a string *)
Definition holds (E : env) (c : option graph) (s : bytes) : Prop := exists n, c = Some n /\ vstring E (this n) = Ok s.

(** [picked E m o r]: r has the subnodes of o whose content satisfies m, in their order. *)
Inductive picked (E : env) (m : bytes -> bool) : list (option graph) -> list (option graph) -> Prop :=
| pick_nil : picked E m [] []
| pick_yes c s o r : holds E c s -> m s = true -> picked E m o r -> picked E m (c :: o) (c :: r)
| pick_no c s o r : holds E c s -> m s = false -> picked E m o r -> picked E m (c :: o) r.

(** ** HTML *)

(** A graph seen as a tree of strings *)
Inductive view (E : env) : graph -> tree -> Prop :=
| view_node v o s k : vstring E v = Ok s -> views E o k -> view E (Node v o) (T s k)
with views (E : env) : list (option graph) -> list tree -> Prop :=
| views_nil : views E [] []
| views_cons c o t k : view E c t -> views E o k -> views E (Some c :: o) (t :: k).

(** The strings of a tree, an underscore for the empty one *)
Definition label (s : bytes) : bytes := match s with [] => bs "_" | _ => s end.
Inductive everywhere (P : bytes -> Prop) : tree -> Prop :=
| ew s k : P s -> Forall (everywhere P) k -> everywhere P (T s k).

(** The lines that show a tree: depth, link of the nodes that have subnodes, string *)
Fixpoint entries (n : nat) (path : bytes) (t : tree) : list (nat * option bytes * bytes) :=
  match t with
  | T s k =>
      let here := path ++ bs "/" ++ label s in
      (n, match k with [] => None | _ => Some here end, label s) :: flat_map (entries (S n) here) k
  end.
Definition html_line (e : nat * option bytes * bytes) : bytes :=
  let '(n, link, s) := e in
  let text := List.concat (repeat (bs "&nbsp;&nbsp;") n) ++ s in
  match link with
  | None => text
  | Some l => bs "<a href='" ++ l ++ bs "'>" ++ text ++ bs "</a>"
  end ++ bs "<br>".

(** A small grammar of HTML: text, non-breaking spaces, line breaks and links around text *)
Inductive inline : bytes -> Prop :=
| in_nil : inline []
| in_text c s : c <> "<"%byte -> c <> "&"%byte -> inline s -> inline (c :: s)
| in_nbsp s : inline s -> inline (bs "&nbsp;" ++ s).
Inductive fragment : bytes -> Prop :=
| fr_nil : fragment []
| fr_text c s : c <> "<"%byte -> c <> "&"%byte -> fragment s -> fragment (c :: s)
| fr_nbsp s : fragment s -> fragment (bs "&nbsp;" ++ s)
| fr_br s : fragment s -> fragment (bs "<br>" ++ s)
| fr_link url body s : Forall (fun c => c <> "'"%byte /\ c <> "<"%byte /\ c <> "&"%byte) url -> inline body -> fragment s ->
    fragment (bs "<a href='" ++ url ++ bs "'>" ++ body ++ bs "</a>" ++ s).

(** Bytes that need no quoting, neither in OGDL nor in HTML *)
Definition simple_byte (c : byte) : Prop := special c = false /\ c <> "<"%byte /\ c <> "&"%byte.

(** ** Simplified XML *)

(** Blanks become underscores. *)
Definition blanks_replaced (s t : bytes) : Prop :=
  Forall2 (fun a b => (a = " "%byte /\ b = "_"%byte) \/ (a <> " "%byte /\ b = a)) s t.
(** Nodes that are simplified: those with an identifier and something more, and named fields. *)
Definition marked (s : bytes) (k : list tree) : Prop :=
  (exists i r, k = i :: r /\ r <> [] /\ tlabel i = bs "@id") \/
  (s = bs "field" /\ exists nm r, k = T (bs "@name") [nm] :: r).
Inductive simpler : tree -> tree -> Prop :=
| si_id s iv ik rest c c' : s <> bs "p" -> simpler c c' ->
    simpler (T s (T (bs "@id") (iv :: ik) :: rest ++ [c])) (T (tlabel iv) [c'])
| si_p i rest c c' : tlabel i = bs "@id" -> simpler c c' -> simpler (T (bs "p") (i :: rest ++ [c])) (T (bs "p") [c'])
| si_field nm k k' s : blanks_replaced (tlabel nm) s -> simplers k k' ->
    simpler (T (bs "field") (T (bs "@name") [nm] :: k)) (T s k')
| si_other s k k' : ~ marked s k -> simplers k k' -> simpler (T s k) (T s k')
with simplers : list tree -> list tree -> Prop :=
| sis_nil : simplers [] []
| sis_cons t t' k k' : simpler t t' -> simplers k k' -> simplers (t :: k) (t' :: k').

(** Nothing but a paragraph has a bare @id before other subnodes. *)
Inductive ids_have_values : tree -> Prop :=
| ihv s k : (forall r, r <> [] -> k = T (bs "@id") [] :: r -> s = bs "p") -> Forall ids_have_values k -> ids_have_values (T s k).
