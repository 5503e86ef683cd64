(** Property C57: XML input. *)
From Verif Require Import Base Value Graph Xml XmlSpec XmlFacts Samples.

(** ** C57 One node per element and per non-blank text, nested as in the document, attributes
    first; for whatever accent removal and trimming do. *)
Theorem C57_tree : forall unaccent trim xs, exists o,
  images unaccent trim xs o /\ FromXML unaccent trim (flat_map tokens xs) = Ok (Node VNil o).
Proof. exact FromXML_images. Qed.
Print Assumptions C57_tree.
(** [images] leaves no choice. *)
Theorem C57_unique : forall unaccent trim xs o o', images unaccent trim xs o -> images unaccent trim xs o' -> o = o'.
Proof. intros u t xs o o' H H'. exact (proj2 (image_fun u t) xs o H o' H'). Qed.
Print Assumptions C57_unique.
(** A document that ends anywhere (the decoder reports an error or the end) is read as if the
    elements that are still open ended there. *)
Theorem C57_cut : forall unaccent trim xs ts rest, flat_map tokens xs = ts ++ rest ->
  exists d g, depth ts 0 = Some d /\ FromXML unaccent trim ts = Ok g /\ FromXML unaccent trim (ts ++ repeat TEnd d) = Ok g.
Proof.
  intros u t xs ts rest H. assert (Hd := tokens_depth xs 0 []). rewrite app_nil_r, H in Hd. destruct (depth_prefix ts rest 0 _ Hd) as (d & Hd').
  destruct (FromXML_cut u t ts d Hd') as (g & H1 & H2). exists d, g. auto.
Qed.
Print Assumptions C57_cut.

Definition trim0 (s : bytes) : bytes := if forallb is_space s then [] else s.
Definition ex_xml : list xml :=
  [Misc; Elem (bs "my-doc") [(bs "id", bs "7"); (bs "lang", [])] [Text (bs "  "); Elem (bs "p") [] [Text (bs "hello"); Elem (bs "br") [] []; Text (bs "there")]; Misc]].
Example C57_ex :
  FromXML (fun s => s) trim0 (flat_map tokens ex_xml) =
    Ok (Node VNil [Some (nd "my_doc" [nd "@id" [nd "7" []]; nd "@lang" [nd "" []]; nd "p" [nd "hello" []; nd "br" []; nd "there" []]])]) /\
  depth (firstn 5 (flat_map tokens ex_xml)) 0 = Some 2%nat /\
  FromXML (fun s => s) trim0 (firstn 5 (flat_map tokens ex_xml)) =
    Ok (Node VNil [Some (nd "my_doc" [nd "@id" [nd "7" []]; nd "@lang" [nd "" []]; nd "p" [nd "hello" []]])]).
Proof. repeat split. Qed.
