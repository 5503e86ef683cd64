(** XML documents as trees, their tokens, and the graph they stand for. *)
From Verif Require Import Base Value Xml.

Inductive xml : Type :=
| Elem (name : bytes) (attrs : list (bytes * bytes)) (kids : list xml)
| Text (s : bytes)
| Misc.
Fixpoint tokens (x : xml) : list xtoken :=
  match x with
  | Elem n a k => TStart n a :: flat_map tokens k ++ [TEnd]
  | Text s => [TChars s]
  | Misc => [TMisc]
  end.

Section Image.
Variable unaccent : bytes -> bytes.
Variable trim : bytes -> bytes.
(** [c] is the name [n] without accents and with underscores for dashes. *)
Definition key_of (n c : bytes) : Prop :=
  Forall2 (fun a b => (a = "-"%byte /\ b = "_"%byte) \/ (a <> "-"%byte /\ b = a)) (unaccent n) c.
(** The subnode that an attribute becomes *)
Definition attribute (a : bytes * bytes) (c : option graph) : Prop :=
  exists v, c = Some (Node (VStr ("@"%byte :: fst a)) [v]) /\ v = Some (Node (VStr (snd a)) []).
(** [image x o]: the node (or no node) that a part of the document becomes.  [images] for a
    sequence: one after the other. *)
Inductive image : xml -> list (option graph) -> Prop :=
| im_elem n a k key oa ok : key_of n key -> Forall2 attribute a oa -> images k ok ->
    image (Elem n a k) [Some (Node (VStr key) (oa ++ ok))]
| im_text s : trim s <> [] -> image (Text s) [Some (Node (VStr (trim s)) [])]
| im_blank s : trim s = [] -> image (Text s) []
| im_misc : image Misc []
with images : list xml -> list (option graph) -> Prop :=
| ims_nil : images [] []
| ims_cons x xs o os : image x o -> images xs os -> images (x :: xs) (o ++ os).
End Image.

(** The number of elements that are open after the tokens; none if an end has no start. *)
Fixpoint depth (ts : list xtoken) (d : nat) : option nat :=
  match ts with
  | [] => Some d
  | TStart _ _ :: ts' => depth ts' (S d)
  | TEnd :: ts' => match d with O => None | S d' => depth ts' d' end
  | _ :: ts' => depth ts' d
  end.
