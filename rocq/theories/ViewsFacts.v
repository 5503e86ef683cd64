From Verif Require Import Base Value Graph Emit Views ViewsSpec.

(** ** Lists of strings *)
Lemma contents_spec E o : forall l, contents E o = Ok l <-> Forall2 (holds E) o l.
Proof.
  induction o as [|[c|] o IH]; intro l; cbn [contents].
  - split; [intros [= <-]; constructor|]. intro H. inversion H. reflexivity.
  - split.
    + intro H. destruct (vstring E (this c)) as [s| |] eqn:Es; try discriminate. cbn [rbind] in H.
      destruct (contents E o) as [r| |] eqn:Er; try discriminate. injection H as <-. constructor; [exists c; auto|apply IH; reflexivity].
    + intro H. inversion H as [|? s ? r Hh Hr]; subst. destruct Hh as (n & [= <-] & Hs). rewrite Hs. cbn [rbind]. apply IH in Hr. rewrite Hr. reflexivity.
  - split; [discriminate|]. intro H. inversion H as [|? s ? r Hh Hr]; subst. destruct Hh as (n & Hn & _). discriminate.
Qed.

Lemma joined_join sep s l : joined sep (s :: l) = sep ++ join sep (s :: l).
Proof.
  revert s. induction l as [|t l IH]; intro s; cbn [joined flat_map join].
  - rewrite app_nil_r. reflexivity.
  - specialize (IH t). cbn [joined flat_map] in IH. rewrite IH. rewrite <- app_assoc. reflexivity.
Qed.
Lemma slice_app k p s : List.length p = k -> slice_from k (p ++ s) = Ok s.
Proof.
  intro H. unfold slice_from. rewrite app_length, H, skipn_app, H, Nat.sub_diag, skipn_all2 by lia.
  replace (k <=? k + List.length s)%nat with true by (symmetry; apply Nat.leb_le; lia). reflexivity.
Qed.

Lemma StringTxt_spec E g l def : contents E (out g) = Ok l -> StringTxt E (Some g) def = Ok (join (bs " ") l).
Proof.
  intro H. unfold StringTxt. destruct (out g) as [|c o] eqn:Eo.
  - cbn in H. injection H as <-. reflexivity.
  - rewrite H. cbn [rbind]. destruct l as [|s l].
    + exfalso. apply contents_spec in H. inversion H.
    + rewrite joined_join. apply slice_app. reflexivity.
Qed.
Lemma StringCSV_spec E g l def : contents E (out g) = Ok l -> l <> [] -> StringCSV E (Some g) def = Ok (join (bs ", ") l).
Proof.
  intros H Hl. unfold StringCSV. rewrite H. cbn [rbind]. destruct l as [|s l]; [congruence|]. rewrite joined_join. apply slice_app. reflexivity.
Qed.

(** Without the separator's first byte in them, the strings can be told apart again. *)
Lemma app_sep (c : byte) a1 a2 r1 r2 : ~ In c a1 -> ~ In c a2 -> a1 ++ c :: r1 = a2 ++ c :: r2 -> a1 = a2 /\ r1 = r2.
Proof.
  revert a2. induction a1 as [|x a1 IH]; intros [|y a2] H1 H2 H; cbn in *.
  - injection H as <-. auto.
  - injection H as <- _. exfalso. auto.
  - injection H as -> _. exfalso. auto.
  - injection H as <- H. destruct (IH a2) as [-> ->]; auto.
Qed.
Lemma join_inj (c : byte) sep : forall l1 l2, l1 <> [] -> l2 <> [] -> Forall (fun s => ~ In c s) l1 -> Forall (fun s => ~ In c s) l2 ->
  join (c :: sep) l1 = join (c :: sep) l2 -> l1 = l2.
Proof.
  induction l1 as [|a l1 IH]; intros l2 N1 N2 F1 F2 H; [congruence|]. destruct l2 as [|b l2]; [congruence|].
  inversion F1 as [|? ? Ha F1']; subst. inversion F2 as [|? ? Hb F2']; subst.
  destruct l1 as [|a' l1], l2 as [|b' l2].
  - cbn in H. congruence.
  - exfalso. change (a = b ++ (c :: sep) ++ join (c :: sep) (b' :: l2)) in H. apply Ha. rewrite H. apply in_app_iff. right. left. reflexivity.
  - exfalso. change (a ++ (c :: sep) ++ join (c :: sep) (a' :: l1) = b) in H. apply Hb. rewrite <- H. apply in_app_iff. right. left. reflexivity.
  - change (a ++ (c :: sep) ++ join (c :: sep) (a' :: l1) = b ++ (c :: sep) ++ join (c :: sep) (b' :: l2)) in H.
    cbn [app] in H. apply app_sep in H as [-> H]; auto. apply app_inv_head in H.
    f_equal. apply IH; auto; discriminate.
Qed.

(** ** Find *)
Lemma find_loop_spec E m o : forall v acc r, Forall (fun c => c <> None) o ->
  find_loop E m o (Some (Node v acc)) = Ok r -> exists p, r = Some (Node v (acc ++ p)) /\ picked E m o p.
Proof.
  induction o as [|c o IH]; intros v acc r Ho H; cbn [find_loop] in H.
  - injection H as <-. exists []. rewrite app_nil_r. split; [reflexivity|constructor].
  - inversion Ho as [|? ? Hc Ho']; subst. destruct c as [c|]; [|congruence]. cbn [ThisString] in H.
    destruct (vstring E (this c)) as [s| |] eqn:Es; try discriminate. cbn [rbind] in H.
    assert (Hh : holds E (Some c) s) by (exists c; auto). destruct (m s) eqn:Em.
    + cbn [Add fst add_out] in H. destruct (IH _ _ _ Ho' H) as (p & -> & Hp). exists (Some c :: p).
      split; [rewrite <- app_assoc; reflexivity|]. econstructor; eauto.
    + destruct (IH _ _ _ Ho' H) as (p & -> & Hp). exists p. split; [reflexivity|]. econstructor; eauto.
Qed.
Lemma find_loop_total E m o : forall r l, Forall2 (holds E) o l -> exists r', find_loop E m o r = Ok r'.
Proof.
  induction o as [|c o IH]; intros r l H; cbn [find_loop]; [eauto|]. inversion H as [|? s ? l' Hh H']; subst. destruct Hh as (n & -> & Hs).
  cbn [ThisString]. rewrite Hs. cbn [rbind]. eapply IH; eauto.
Qed.
Lemma picked_det E m o p q : picked E m o p -> picked E m o q -> p = q.
Proof.
  assert (D : forall c s s', holds E c s -> holds E c s' -> s = s').
  { intros c s s' (n & -> & H) (n' & [= <-] & H'). congruence. }
  intro H. revert q. induction H as [|c s o r H1 H2 H3 IH|c s o r H1 H2 H3 IH]; intros q Hq; inversion Hq as [|? s' ? ? K1 K2 K3|? s' ? ? K1 K2 K3]; subst; auto.
  - f_equal. auto.
  - rewrite (D _ _ _ H1 K1) in H2. congruence.
  - rewrite (D _ _ _ H1 K1) in H2. congruence.
Qed.

(** ** Html *)
Definition pout (e : nat * option bytes * bytes) : bytes := html_line e ++ [x0a].
Lemma simple_not_special s : Forall simple_byte s -> existsb special s = false.
Proof. induction 1 as [|c s (H & _) _ IH]; cbn [existsb]; [reflexivity|]. rewrite H, IH. reflexivity. Qed.
Lemma simple_label s : Forall simple_byte s -> Forall simple_byte (label s).
Proof.
  destruct s as [|c s]; [|auto]. intros _. constructor; [|constructor]. split; [reflexivity|]. split; discriminate.
Qed.

Scheme view_mind := Minimality for view Sort Prop with views_mind := Minimality for views Sort Prop.
Combined Scheme view_mut from view_mind, views_mind.

Lemma html_node_line n link s : Forall simple_byte s -> s <> [] -> html_node n link s = pout (n, link, s).
Proof.
  intros Hs _. unfold html_node, pout, html_line. rewrite (simple_not_special s Hs).
  destruct link as [l|]; unfold nbsps; rewrite <- ?app_assoc; reflexivity.
Qed.
Lemma html_eq E n path v o : html_ E n path (Node v o) =
  (let* s := vstring E v in
   let* tl := htmls E (S n) (path ++ bs "/" ++ label s) o in
   Ok (html_node n (match o with [] => None | _ => Some (path ++ bs "/" ++ label s) end) (label s) ++ tl)).
Proof.
  cbn [html_]. destruct (vstring E v) as [s| |]; cbn [rbind]; auto. fold (label s).
  assert (H : forall path o, (fix go (o : list (option graph)) : res bytes :=
       match o with [] => Ok [] | None :: o => go o | Some c :: o => let* x := html_ E (S n) path c in let* y := go o in Ok (x ++ y) end) o = htmls E (S n) path o).
  { intros p. induction o0 as [|[c|] o0 IH]; cbn [htmls]; auto. rewrite IH. reflexivity. }
  rewrite H. reflexivity.
Qed.
Lemma html_shape E : 
  (forall g t, view E g t -> everywhere (Forall simple_byte) t -> forall n path, html_ E n path g = Ok (flat_map pout (entries n path t))) /\
  (forall o k, views E o k -> Forall (everywhere (Forall simple_byte)) k -> forall n path, htmls E n path o = Ok (flat_map pout (flat_map (entries n path) k))).
Proof.
  apply view_mut.
  - intros v o s k Hs Hv IH Ht n path. inversion Ht as [? ? Hs' Hk]; subst. rewrite html_eq, Hs. cbn [rbind].
    rewrite (IH Hk). cbn [rbind entries flat_map]. rewrite html_node_line; [|apply simple_label, Hs'|destruct s; discriminate].
    assert (Ho : (match o with [] => None | _ => Some (path ++ bs "/" ++ label s) end) = (match k with [] => None | _ => Some (path ++ bs "/" ++ label s) end)).
    { inversion Hv; reflexivity. }
    rewrite Ho. reflexivity.
  - intros _ n path. reflexivity.
  - intros c o t k Hc IHc Ho IHo Hf n path. inversion Hf as [|? ? H1 H2]; subst. cbn [htmls flat_map].
    rewrite (IHc H1). cbn [rbind]. rewrite (IHo H2). cbn [rbind]. rewrite flat_map_app. reflexivity.
Qed.

Lemma pout_join l : l <> [] -> flat_map pout l = join [x0a] (map html_line l) ++ [x0a].
Proof.
  induction l as [|e l IH]; [congruence|]. intros _. cbn [flat_map map]. destruct l as [|e' l].
  - cbn. rewrite app_nil_r. reflexivity.
  - rewrite IH by discriminate. cbn [map join]. unfold pout. rewrite <- !app_assoc. reflexivity.
Qed.
Lemma join_cons_app (sep s : bytes) (l : list bytes) : exists r, join sep (s :: l) = s ++ r.
Proof. destruct l as [|t l]; cbn [join]; [exists []; rewrite app_nil_r; reflexivity|eauto]. Qed.
Lemma html_line_first e : Forall simple_byte (snd e) -> snd e <> [] -> exists c r, html_line e = c :: r /\ c <> x22.
Proof.
  destruct e as [[n link] s]. cbn [snd]. intros Hs Hn. unfold html_line. destruct link as [l|].
  - eexists _, _. split; [reflexivity|discriminate].
  - destruct n as [|n]; [|eexists _, _; split; [reflexivity|discriminate]]. cbn [repeat List.concat app].
    destruct s as [|c s]; [congruence|]. inversion Hs as [|? ? (Hc & _) _]; subst. eexists _, _. split; [reflexivity|].
    intros ->. discriminate.
Qed.
Lemma entries_simple t : everywhere (Forall simple_byte) t -> forall n path,
  Forall simple_byte path -> Forall (fun e => (Forall simple_byte (snd e) /\ snd e <> []) /\ match snd (fst e) with Some l => Forall simple_byte l | None => True end) (entries n path t).
Proof.
  induction t as [s k IH] using tree_ind'. intros H n path Hp. inversion H as [? ? Hs Hk]; subst. cbn [entries].
  assert (Hp' : Forall simple_byte (path ++ bs "/" ++ label s)).
  { apply Forall_app. split; [exact Hp|]. apply Forall_app. split; [|apply simple_label, Hs]. constructor; [|constructor]. split; [reflexivity|split; discriminate]. }
  constructor.
  - cbn [snd fst]. split; [split; [apply simple_label, Hs|destruct s; discriminate]|]. destruct k; auto.
  - apply Forall_flat_map. apply Forall_forall. intros t Ht. rewrite Forall_forall in IH, Hk. apply IH; auto.
Qed.

Lemma finish_lines s c r : s = c :: r -> c <> x22 -> finish (s ++ [x0a]) = Ok s.
Proof.
  intros -> Hc. unfold finish. rewrite last_last, removelast_last. change (beq x0a x0a) with true. cbn [app].
  destruct (beq_spec c x22); [contradiction|reflexivity].
Qed.

Lemma Html_lines E g k path : views E (out g) k -> Forall (everywhere (Forall simple_byte)) k -> Forall simple_byte path ->
  Html E (Some g) path = Ok (join [x0a] (map html_line (flat_map (entries 0 path) k))).
Proof.
  intros Hv Hk Hp. unfold Html. rewrite (proj2 (html_shape E) _ _ Hv Hk). cbn [rbind].
  destruct (flat_map (entries 0 path) k) as [|e l] eqn:El; [reflexivity|].
  rewrite pout_join by discriminate.
  assert (He : Forall simple_byte (snd e) /\ snd e <> []).
  { assert (Hall : Forall (fun e => (Forall simple_byte (snd e) /\ snd e <> []) /\ match snd (fst e) with Some l => Forall simple_byte l | None => True end) (flat_map (entries 0 path) k)).
    { apply Forall_flat_map. apply Forall_forall. intros t Ht. apply entries_simple; [|exact Hp]. rewrite Forall_forall in Hk. auto. }
    rewrite El in Hall. inversion Hall as [|? ? [H _] _]; subst. exact H. }
  destruct He as [He1 He2]. destruct (html_line_first e He1 He2) as (c & r & Hc & Hq).
  cbn [map]. destruct (join_cons_app [x0a] (html_line e) (map html_line l)) as (r' & Hr). rewrite Hr.
  eapply finish_lines; [rewrite Hc; reflexivity|exact Hq].
Qed.

(** The lines are HTML. *)
Lemma simple_inline s : Forall simple_byte s -> inline s.
Proof. induction 1 as [|c s (_ & H1 & H2) _ IH]; [constructor|]. apply in_text; auto. Qed.
Lemma inline_nbsps n s : inline s -> inline (List.concat (repeat (bs "&nbsp;&nbsp;") n) ++ s).
Proof.
  intro H. induction n as [|n IH]; [exact H|]. cbn [repeat List.concat]. rewrite <- app_assoc.
  change (bs "&nbsp;&nbsp;") with (bs "&nbsp;" ++ bs "&nbsp;"). rewrite <- app_assoc. apply in_nbsp, in_nbsp, IH.
Qed.
Lemma inline_fragment_app s r : inline s -> fragment r -> fragment (s ++ r).
Proof.
  intros H Hr. induction H as [|c s H1 H2 H IH|s H IH]; [exact Hr|apply fr_text; auto|]. rewrite <- app_assoc. apply fr_nbsp, IH.
Qed.
Lemma line_fragment e r : Forall simple_byte (snd e) -> (match snd (fst e) with Some l => Forall simple_byte l | None => True end) -> fragment r -> fragment (html_line e ++ r).
Proof.
  destruct e as [[n link] s]. cbn [snd fst]. intros Hs Hl Hr. unfold html_line.
  assert (Hi : inline (List.concat (repeat (bs "&nbsp;&nbsp;") n) ++ s)) by (apply inline_nbsps, simple_inline, Hs).
  destruct link as [l|].
  - rewrite <- !app_assoc. rewrite (app_assoc (List.concat _)). apply fr_link; [|exact Hi|apply fr_br, Hr].
    eapply Forall_impl; [|exact Hl]. intros c (H1 & H2 & H3). split; [|auto]. intros ->. discriminate.
  - rewrite <- (app_assoc (_ ++ s)). apply inline_fragment_app; [exact Hi|apply fr_br, Hr].
Qed.
Lemma lines_fragment l : Forall (fun e => (Forall simple_byte (snd e) /\ snd e <> []) /\ match snd (fst e) with Some l => Forall simple_byte l | None => True end) l ->
  fragment (join [x0a] (map html_line l)).
Proof.
  induction 1 as [|e l ((H1 & _) & H2) _ IH]; [constructor|]. cbn [map]. destruct l as [|e' l].
  - cbn [map join]. rewrite <- (app_nil_r (html_line e)). apply line_fragment; auto.
  - cbn [map join] in *. apply line_fragment; auto. apply fr_text; [discriminate|discriminate|exact IH].
Qed.
Lemma Html_fragment E g k path : views E (out g) k -> Forall (everywhere (Forall simple_byte)) k -> Forall simple_byte path ->
  exists s, Html E (Some g) path = Ok s /\ fragment s.
Proof.
  intros Hv Hk Hp. rewrite (Html_lines E g k path Hv Hk Hp). eexists. split; [reflexivity|]. apply lines_fragment.
  apply Forall_flat_map. apply Forall_forall. intros t Ht. apply entries_simple; [|exact Hp]. rewrite Forall_forall in Hk. auto.
Qed.

(** ** Simplify *)
Lemma bseq_refl s : bseq s s = true.
Proof. destruct (bseq_spec s s); congruence. Qed.
Lemma bseq_ne s t : s <> t -> bseq s t = false.
Proof. destruct (bseq_spec s t); congruence. Qed.
Lemma underscored_spec s t : blanks_replaced s t <-> underscored s = t.
Proof.
  unfold blanks_replaced, underscored. split.
  - induction 1 as [|a b s t H _ IH]; cbn [map]; [reflexivity|]. rewrite IH. destruct (beq_spec a " ") as [Ha|Ha]; destruct H as [[H1 H2]|[H1 H2]]; subst; congruence.
  - intros <-. induction s as [|a s IH]; cbn [map]; constructor; auto. destruct (beq_spec a " ") as [Ha|Ha]; auto.
Qed.

Lemma simplify_eq E v o : simplify_node E (Node v o) =
  match o with
  | [] => Ok (Node v o)
  | c :: o' =>
      let* s := ThisString E c in
      if bseq s (bs "@id") && (2 <=? List.length o)%nat then
        let* v := (match v with
                   | VStr t => if bseq t (bs "p") then Ok v else let* d := grandchild c in Ok (this d)
                   | _ => let* d := grandchild c in Ok (this d)
                   end) in
        let* o := simplify_all E [last o None] in Ok (Node v o)
      else
        let* named := (if Len c =? 1 then
                         let* t := vstring E v in
                         if bseq t (bs "field") then let* s := gstring E (Node v o) in Ok (bseq s (bs "@name")) else Ok false
                       else Ok false) in
        if (named : bool) then
          let* d := grandchild c in
          let* s := vstring E (this d) in
          let* o := simplify_all E o' in Ok (Node (VStr (underscored s)) o)
        else let* o := simplify_all E o in Ok (Node v o)
  end.
Proof.
  cbn [simplify_node].
  assert (Hall : forall o, (fix go (o : list (option graph)) : res (list (option graph)) :=
      match o with [] => Ok [] | None :: _ => Panic | Some c :: o => let* c := simplify_node E c in let* o := go o in Ok (Some c :: o) end) o = simplify_all E o).
  { induction o0 as [|[c|] o0 IH]; cbn [simplify_all]; auto. }
  assert (Hlast : forall o, o <> [] -> (fix go (o : list (option graph)) : res (list (option graph)) :=
      match o with [] => Ok [] | [None] => Panic | [Some c] => let* c := simplify_node E c in Ok [Some c] | _ :: o => go o end) o = simplify_all E [last o None]).
  { clear Hall. induction o0 as [|c o0 IH]; intro H; [congruence|]. destruct o0 as [|c' o0].
    - destruct c as [c|]; cbn [last simplify_all]; [|reflexivity]. destruct (simplify_node E c); reflexivity.
    - cbn [last]. specialize (IH ltac:(discriminate)). cbn [last] in IH. rewrite <- IH. destruct c; reflexivity. }
  destruct o as [|c o']; [reflexivity|]. rewrite <- (Hlast (c :: o')) by discriminate. reflexivity.
Qed.

Scheme simpler_mind := Minimality for simpler Sort Prop with simplers_mind := Minimality for simplers Sort Prop.
Combined Scheme simpler_mut from simpler_mind, simplers_mind.

Lemma gforest_ends i rest c : gforest (i :: rest ++ [c]) = Some (gtree i) :: gforest rest ++ [Some (gtree c)].
Proof. unfold gforest. cbn [map]. rewrite map_app. reflexivity. Qed.
Lemma simplify_id E v i o c : ThisString E (Some i) = Ok (bs "@id") ->
  simplify_node E (Node v (Some i :: o ++ [Some c])) =
  let* v := (match v with
             | VStr t => if bseq t (bs "p") then Ok v else let* d := grandchild (Some i) in Ok (this d)
             | _ => let* d := grandchild (Some i) in Ok (this d)
             end) in
  let* o := simplify_all E [Some c] in Ok (Node v o).
Proof.
  intro H. rewrite simplify_eq, H. cbn [rbind]. rewrite bseq_refl.
  replace (2 <=? List.length (Some i :: o ++ [Some c]))%nat with true.
  - replace (last (Some i :: o ++ [Some c]) None) with (Some c); [reflexivity|].
    symmetry. exact (last_last (Some i :: o) (Some c) None).
  - symmetry. apply Nat.leb_le. cbn [List.length]. rewrite app_length. cbn [List.length]. lia.
Qed.
Lemma gtree_eq s k : gtree (T s k) = Node (VStr s) (gforest k).
Proof. reflexivity. Qed.

Lemma simplify_sound E :
  (forall t t', simpler t t' -> simplify_node E (gtree t) = Ok (gtree t')) /\
  (forall k k', simplers k k' -> simplify_all E (gforest k) = Ok (gforest k')).
Proof.
  apply simpler_mut.
  - intros s iv ik rest c c' Hs _ IH. rewrite gtree_eq, gforest_ends, simplify_id by reflexivity.
    rewrite (bseq_ne _ _ Hs). destruct iv as [si ki]. cbn [simplify_all]. rewrite IH. reflexivity.
  - intros i rest c c' Hi _ IH. rewrite gtree_eq, gforest_ends, simplify_id.
    + rewrite bseq_refl. cbn [simplify_all]. rewrite IH. reflexivity.
    + destruct i as [si ki]. cbn [tlabel] in Hi. subst si. reflexivity.
  - intros nm k k' s Hs _ IH. apply underscored_spec in Hs. rewrite gtree_eq, simplify_eq. cbn [gforest map]. fold (gforest k).
    destruct nm as [sn kn]. cbn [tlabel] in Hs.
    cbn [gtree ThisString this vstring sstring rbind]. fold (gforest kn).
    change (bseq (bs "@name") (bs "@id")) with false. cbn [andb map]. change (bseq (bs "field") (bs "field")) with true.
    cbn [Len out List.length gstring rbind sstring grandchild this vstring].
    change (Z.of_nat 1 =? 1) with true. cbv iota. cbn [rbind]. change (bseq (bs "@name") (bs "@name")) with true. cbv iota. cbn [rbind]. rewrite IH. rewrite <- Hs. reflexivity.
  - intros s k k' Hm Hk IH. rewrite gtree_eq, simplify_eq. destruct k as [|c k].
    { inversion Hk; subst. reflexivity. }
    cbn [gforest map]. fold (gforest k). destruct c as [sc kc]. cbn [gtree ThisString this vstring sstring rbind]. fold (gforest kc).
    assert (Hid : bseq sc (bs "@id") && (2 <=? List.length (Some (Node (VStr sc) (gforest kc)) :: gforest k))%nat = false).
    { destruct (bseq_spec sc (bs "@id")) as [->|]; [|reflexivity]. cbn [andb]. destruct k as [|k0 k]; [reflexivity|].
      exfalso. apply Hm. left. exists (T (bs "@id") kc), (k0 :: k). repeat split. discriminate. }
    rewrite Hid.
    assert (Hnamed : (if Len (Some (Node (VStr sc) (gforest kc))) =? 1 then
        if bseq s (bs "field") then let* s0 := gstring E (Node (VStr s) (Some (Node (VStr sc) (gforest kc)) :: gforest k)) in Ok (bseq s0 (bs "@name")) else Ok false else Ok false) = Ok false).
    { cbn [gstring rbind sstring]. destruct (Len _ =? 1) eqn:El; [|reflexivity]. destruct (bseq_spec s (bs "field")) as [->|]; [|reflexivity].
      destruct (bseq_spec sc (bs "@name")) as [->|]; [|reflexivity]. exfalso. apply Hm. right. split; [reflexivity|].
      cbn [Len out] in El. unfold gforest in El. rewrite map_length in El. destruct kc as [|nm [|]]; cbn [List.length] in El; try lia. eauto. }
    rewrite Hnamed. cbn [rbind]. change (Some (Node (VStr sc) (gforest kc)) :: gforest k) with (gforest (T sc kc :: k)). rewrite IH. reflexivity.
  - reflexivity.
  - intros t t' k k' _ IH1 _ IH2. cbn [gforest map simplify_all]. rewrite IH1. cbn [rbind]. fold (gforest k). rewrite IH2. reflexivity.
Qed.

(** Every tree without a bare @id has a simplification. *)
Lemma marked_dec s k : marked s k \/ ~ marked s k.
Proof.
  unfold marked. destruct k as [|[si ki] r].
  - right. intros [(i & r & H & _)|(_ & nm & r & H)]; discriminate.
  - destruct (bseq_spec si (bs "@id")) as [->|Hi].
    + destruct r as [|r0 r].
      * right. intros [(i & r & [= <- <-] & H & _)|(_ & nm & r & [= ])]. congruence.
      * left. left. exists (T (bs "@id") ki), (r0 :: r). repeat split. discriminate.
    + destruct (bseq_spec s (bs "field")) as [->|Hs].
      * destruct (bseq_spec si (bs "@name")) as [->|Hn].
        -- destruct ki as [|nm [|n2 ki]].
           ++ right. intros [(i & r' & [= <- <-] & _ & H)|(_ & nm & r' & [= ])]. discriminate.
           ++ left. right. split; [reflexivity|]. eauto.
           ++ right. intros [(i & r' & [= <- <-] & _ & H)|(_ & nm' & r' & [= ])]. discriminate.
        -- right. intros [(i & r' & [= <- <-] & _ & H)|(_ & nm' & r' & H)]; [exact (Hi H)|injection H; intros; subst; congruence].
      * right. intros [(i & r' & [= <- <-] & _ & H)|(H & _)]; [exact (Hi H)|congruence].
Qed.
Lemma simpler_total t : ids_have_values t -> exists t', simpler t t'.
Proof.
  induction t as [s k IH] using tree_ind'. intro H. inversion H as [? ? H0 Hk]; subst.
  assert (Hall : forall k1, incl k1 k -> exists k', simplers k1 k').
  { rewrite Forall_forall in IH, Hk. induction k1 as [|c k1 IH1]; intro Hi; [exists []; constructor|].
    destruct (IH c) as (c' & Hc); [apply Hi; left; reflexivity|apply Hk, Hi; left; reflexivity|].
    destruct IH1 as (k' & Hk'); [intros x Hx; apply Hi; right; exact Hx|]. exists (c' :: k'). constructor; auto. }
  destruct (marked_dec s k) as [[(i & r & -> & Hr & Hi)|(-> & nm & r & ->)]|Hm].
  - destruct r as [|c rest _] using rev_ind; [congruence|].
    rewrite Forall_forall in IH, Hk.
    assert (Hin : In c (i :: rest ++ [c])) by (right; apply in_app_iff; right; left; reflexivity).
    destruct (IH c Hin (Hk c Hin)) as (c' & Hc').
    destruct (bseq_spec s (bs "p")) as [->|Hs]; [exists (T (bs "p") [c']); apply si_p; auto|].
    destruct i as [si ki]. cbn [tlabel] in Hi. subst si.
    destruct ki as [|iv ik]; [exfalso; apply Hs; eapply H0; [exact Hr|reflexivity]|].
    exists (T (tlabel iv) [c']). apply si_id; auto.
  - destruct (Hall r) as (r' & Hr'). { intros x Hx. right. exact Hx. }
    eexists. eapply si_field; [apply underscored_spec; reflexivity|exact Hr'].
  - destruct (Hall k (incl_refl k)) as (k' & Hk'). exists (T s k'). apply si_other; auto.
Qed.

(** ** Arguments *)
Definition arg_type (type_other : value graph -> bytes) (a : argument) : bytes :=
  match a with AVal v => type_name type_other v | AStrings _ => bs "[]string" end.
Lemma convert_type E T pb fe v d a : convert E T pb fe v d = Ok (Some a) -> arg_type T a = d.
Proof.
  unfold convert. destruct (is_nil v); [discriminate|]. destruct (bseq_spec d (type_name T v)) as [->|Hd]; [intros [= <-]; reflexivity|].
  destruct v as [|s|s|b|k z|f|f|p|i|i|i]; try discriminate.
  - repeat match goal with |- context [bseq d ?x] => destruct (bseq_spec d x) as [->|] end; intro H; try discriminate; injection H as <-; reflexivity.
  - destruct k; try discriminate.
    repeat match goal with |- context [bseq d ?x] => destruct (bseq_spec d x) as [->|] end; intro H; try discriminate; injection H as <-; reflexivity.
  - repeat match goal with |- context [bseq d ?x] => destruct (bseq_spec d x) as [->|] end; intro H; try discriminate; injection H as <-; reflexivity.
  - repeat match goal with |- context [bseq d ?x] => destruct (bseq_spec d x) as [->|] end; intro H; try discriminate.
    + destruct (Int64 E p None); [injection H as <-; reflexivity|discriminate|discriminate].
    + destruct (Bool_ E p None); [injection H as <-; reflexivity|discriminate|discriminate].
    + destruct (String_def E p None); [injection H as <-; reflexivity|discriminate|discriminate].
    + destruct (Strings E p); [injection H as <-; reflexivity|discriminate|discriminate].
    + destruct (Float64 E p); [injection H as <-; reflexivity|discriminate|discriminate].
    + destruct (Int64 E p None); [injection H as <-; reflexivity|discriminate|discriminate].
Qed.

(** ** Simplify after FromXML *)
From Verif Require Import Xml XmlSpec XmlFacts.
(** No text reads @id, and no element is called so. *)
Inductive no_bare_id (unaccent trim : bytes -> bytes) : xml -> Prop :=
| nb_elem n a k : ~ key_of unaccent n (bs "@id") -> Forall (no_bare_id unaccent trim) k -> no_bare_id unaccent trim (Elem n a k)
| nb_text s : trim s <> bs "@id" -> no_bare_id unaccent trim (Text s)
| nb_misc : no_bare_id unaccent trim Misc.

Lemma attributes_values a oa : Forall2 attribute a oa ->
  exists k, oa = gforest k /\ Forall ids_have_values k /\ Forall (fun t => t <> T (bs "@id") []) k.
Proof.
  induction 1 as [|x c a oa (v & -> & ->) _ (k & -> & Hk & Hf)]; [exists []; repeat split; constructor|].
  exists (T ("@"%byte :: fst x) [T (snd x) []] :: k). split; [reflexivity|]. split; constructor; auto; [|discriminate].
  constructor; [intros r Hr [= _ <-]; congruence|]. constructor; [|constructor]. constructor; [discriminate|constructor].
Qed.
Lemma gforest_app a b : gforest (a ++ b) = gforest a ++ gforest b.
Proof. apply map_app. Qed.
Scheme image_mind := Minimality for image Sort Prop with images_mind := Minimality for images Sort Prop.
Combined Scheme image_mut from image_mind, images_mind.
Lemma images_values unaccent trim :
  (forall x o, image unaccent trim x o -> no_bare_id unaccent trim x -> exists k, o = gforest k /\ Forall ids_have_values k /\ Forall (fun t => t <> T (bs "@id") []) k) /\
  (forall xs o, images unaccent trim xs o -> Forall (no_bare_id unaccent trim) xs -> exists k, o = gforest k /\ Forall ids_have_values k /\ Forall (fun t => t <> T (bs "@id") []) k).
Proof.
  apply image_mut.
  - intros n a k key oa ok Hkey Ha _ IH H. inversion H as [? ? ? Hn Hk| |]; subst. destruct (IH Hk) as (kk & -> & H1 & H2).
    destruct (attributes_values a oa Ha) as (ka & -> & H3 & H4). exists [T key (ka ++ kk)]. rewrite <- gforest_app. split; [reflexivity|].
    assert (Hall : Forall (fun t => t <> T (bs "@id") []) (ka ++ kk)) by (apply Forall_app; auto).
    split; constructor; auto.
    + constructor; [|apply Forall_app; auto]. intros r _ Hr. rewrite Hr in Hall. inversion Hall as [|? ? Hc _]; subst. congruence.
    + intros [= E1 _]. rewrite E1 in Hkey. exact (Hn Hkey).
  - intros s Hs H. inversion H as [|? Ht|]; subst. exists [T (trim s) []]. split; [reflexivity|]. split; constructor; auto; [|congruence].
    constructor; [discriminate|constructor].
  - intros. exists []. repeat split; constructor.
  - intros. exists []. repeat split; constructor.
  - intros. exists []. repeat split; constructor.
  - intros x xs o os _ IH1 _ IH2 H. inversion H as [|? ? Hx Hxs]; subst. destruct (IH1 Hx) as (k1 & -> & A1 & B1). destruct (IH2 Hxs) as (k2 & -> & A2 & B2).
    exists (k1 ++ k2). rewrite gforest_app. split; [reflexivity|]. split; apply Forall_app; auto.
Qed.
Lemma simplers_total k : Forall ids_have_values k -> exists k', simplers k k'.
Proof.
  induction 1 as [|t k H _ (k' & Hk)]; [exists []; constructor|]. destruct (simpler_total t H) as (t' & Ht). exists (t' :: k'). constructor; auto.
Qed.

(** ** Searching in a text *)
Fixpoint starts (p s : bytes) : bool :=
  match p, s with
  | [], _ => true
  | a :: p, b :: s => beq a b && starts p s
  | _, _ => false
  end.
Fixpoint occurs (p s : bytes) : bool := starts p s || match s with [] => false | _ :: s => occurs p s end.
Lemma starts_app p r : starts p (p ++ r) = true.
Proof. induction p as [|a p IH]; cbn [starts app]; auto. rewrite IH. destruct (beq_spec a a); [reflexivity|congruence]. Qed.
Lemma occurs_app a p r : occurs p (a ++ p ++ r) = true.
Proof.
  induction a as [|x a IH]; cbn [app occurs].
  - destruct (p ++ r) eqn:H; cbn [occurs]; rewrite <- H, starts_app; reflexivity.
  - rewrite IH. apply Bool.orb_true_r.
Qed.
Lemma link_closed s : fragment s -> starts (bs "<a ") s = true -> occurs (bs "</a>") s = true.
Proof.
  intro H. destruct H as [|c s Hc _ _|s _|s _|url body s _ _ _]; intro Hs; try discriminate Hs.
  - exfalso. cbn [starts bs] in Hs. change (beq "<" c && starts (bs "a ") s = true) in Hs. destruct (beq_spec "<" c); [congruence|discriminate].
  -
    replace (bs "<a href='" ++ url ++ bs "'>" ++ body ++ bs "</a>" ++ s) with ((bs "<a href='" ++ url ++ bs "'>" ++ body) ++ bs "</a>" ++ s) by (rewrite <- !app_assoc; reflexivity).
    apply occurs_app.
Qed.
