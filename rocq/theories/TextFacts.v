(** Consequences of the document theorem. *)
From Verif Require Import Base Value Event EventSpec EventFacts Lexer TextParser Stream Buffer BufferSpec BufferFacts BufferFacts2 Wp TextTerm TextSpec TextDoc.

(** ** Lines that add nothing *)
Lemma level_insert Q m P : forall n, ((n <= m)%nat \/ Exists (fun q => (q <= m)%nat) Q) -> level (Q ++ m :: P) n = level (Q ++ P) n.
Proof.
  induction Q as [|q Q IH]; intros n H; cbn [app level].
  - destruct H as [H|H]; [|inversion H]. replace (m <? n)%nat with false by (symmetry; apply Nat.ltb_ge; lia). reflexivity.
  - destruct (Nat.ltb_spec q n) as [Hq|Hq].
    + f_equal. apply IH. destruct H as [H|H]; [left; lia|]. inversion H; subst; [left; assumption|right; assumption].
    + apply IH. destruct H as [H|H]; [left; lia|]. inversion H; subst; [left; lia|right; assumption].
Qed.

Lemma doc_events_insert v m P ls : forall Q, match ls with l :: _ => (depth l <= m)%nat \/ Exists (fun q => (q <= m)%nat) Q | [] => True end ->
  doc_events v (Q ++ m :: P) ls = doc_events v (Q ++ P) ls.
Proof.
  induction ls as [|l ls IH]; intros Q H; [reflexivity|]. cbn [doc_events]. rewrite level_insert by exact H. f_equal.
  apply (IH (depth l :: Q)). destruct ls as [|l' ls]; [exact I|]. right. destruct H as [H|H]; [constructor; exact H|constructor 2; exact H].
Qed.

Lemma empty_vals v b : empty_line b -> line_vals v b = [].
Proof. intros (H1 & H2). unfold line_vals. rewrite H1. destruct (fin b); try contradiction; reflexivity. Qed.

Lemma take_insert v b ls2 n : empty_line b -> next_at_most (depth b) ls2 -> forall ls1 P,
  doc_events v P (take n (ls1 ++ b :: ls2)) = doc_events v P (take n (ls1 ++ ls2)).
Proof.
  intros Hb Hn. induction ls1 as [|l ls1 IH]; intro P.
  - cbn [app take]. destruct (Nat.leb_spec n (depth b)) as [H|H].
    + cbn [doc_events]. rewrite (empty_vals _ _ Hb). cbn [at_levels app]. apply (doc_events_insert v (depth b) P (take n ls2) []).
      destruct ls2 as [|l ls2]; [exact I|]. cbn [take]. destruct (n <=? depth l)%nat; [left; exact Hn|exact I].
    + destruct ls2 as [|l ls2]; [reflexivity|]. cbn [take next_at_most] in *. replace (n <=? depth l)%nat with false; [reflexivity|]. symmetry. apply Nat.leb_gt. lia.
  - cbn [app take]. destruct (n <=? depth l)%nat; [|reflexivity]. cbn [doc_events]. rewrite IH. reflexivity.
Qed.

Lemma kept_insert v l0 ls1 b ls2 : empty_line b -> next_at_most (depth b) ls2 ->
  doc_graph v (kept (l0 :: ls1 ++ b :: ls2)) = doc_graph v (kept (l0 :: ls1 ++ ls2)).
Proof. intros Hb Hn. unfold doc_graph, kept. f_equal. apply (take_insert v b ls2 (depth l0) Hb Hn (l0 :: ls1) []). Qed.

Lemma insert_line E l0 ls1 b ls2 fuel fuel' : doc_ok (l0 :: ls1 ++ b :: ls2) -> doc_ok (l0 :: ls1 ++ ls2) -> empty_line b -> next_at_most (depth b) ls2 ->
  (2 * List.length (doc_source (l0 :: ls1 ++ b :: ls2)) + 3 <= fuel)%nat -> (2 * List.length (doc_source (l0 :: ls1 ++ ls2)) + 3 <= fuel')%nat ->
  FromString E fuel (doc_source (l0 :: ls1 ++ b :: ls2)) = FromString E fuel' (doc_source (l0 :: ls1 ++ ls2)).
Proof. intros H1 H2 Hb Hn Hf Hf'. rewrite !FromString_doc by assumption. rewrite (kept_insert _ l0 ls1 b ls2 Hb Hn). reflexivity. Qed.

(** ** Nothing is lost *)
Lemma level_nonneg P : forall n, 0 <= level P n.
Proof. induction P as [|m P IH]; intro n; cbn [level]; [lia|]. destruct (m <? n)%nat; [specialize (IH m); lia|apply IH]. Qed.
Lemma level_mono P : forall n d, (n <= d)%nat -> level P n <= level P d.
Proof.
  induction P as [|m P IH]; intros n d H; cbn [level]; [lia|]. destruct (Nat.ltb_spec m n).
  - replace (m <? d)%nat with true by (symmetry; apply Nat.ltb_lt; lia). lia.
  - destruct (Nat.ltb_spec m d); [|apply IH; exact H]. specialize (IH n m ltac:(lia)). lia.
Qed.
Lemma level_step d P n : level (d :: P) n <= level P d + 1.
Proof. cbn [level]. destruct (Nat.ltb_spec d n); [lia|]. pose proof (level_mono P n d ltac:(lia)). lia. Qed.

Lemma nested_at_levels (vs : list (value graph)) : forall l b r, 0 <= l <= b -> vs <> [] -> nested (l + 1) r -> nested b (at_levels l vs ++ r).
Proof.
  induction vs as [|v vs IH]; intros l b r Hl Hne Hr; [congruence|]. cbn [at_levels app nested]. split; [exact Hl|].
  destruct vs as [|v' vs]; [exact Hr|]. apply IH; [lia|discriminate|]. eapply nested_weaken; [|exact Hr]. lia.
Qed.
Lemma doc_nested v ls : forall P b, Forall (fun l => line_vals v l <> []) ls ->
  match ls with [] => True | l :: _ => level P (depth l) <= b end -> nested b (doc_events v P ls).
Proof.
  induction ls as [|l ls IH]; intros P b Hne Hb; [exact I|]. inversion Hne; subst. cbn [doc_events]. apply nested_at_levels; auto.
  { split; [apply level_nonneg|exact Hb]. }
  apply IH; auto. destruct ls as [|l' ls]; [exact I|]. apply level_step.
Qed.

Lemma doc_vals v ls : forall P, map snd (doc_events v P ls) = flat_map (line_vals v) ls.
Proof.
  assert (G : forall (vs : list (value graph)) l, map snd (at_levels l vs) = vs) by (induction vs; intro l; cbn; [|f_equal]; auto).
  induction ls as [|l ls IH]; intro P; [reflexivity|]. cbn [doc_events flat_map]. rewrite map_app, G, IH. reflexivity.
Qed.

Lemma all_scalars E ls fuel : doc_ok ls -> Forall (fun l => toks l <> []) ls -> kept ls = ls ->
  (2 * List.length (doc_source ls) + 3 <= fuel)%nat ->
  exists f, FromString E fuel (doc_source ls) = Ok (Node (VStr (bs "_")) (map Some f)) /\
    map snd (listings 0 f) = flat_map (line_vals untyped) ls.
Proof.
  intros Hd Hne Hk Hf. rewrite FromString_doc, Hk by assumption. exists (forest 0 (doc_events untyped [] ls)). split; [reflexivity|].
  rewrite nested_listings; [apply doc_vals|]. apply doc_nested.
  - revert Hne. apply Forall_impl. intros l H. unfold line_vals. destruct (toks l); [congruence|discriminate].
  - destruct ls; [exact I|]. cbn. lia.
Qed.

(** ** CR LF *)
Lemma crlf_app a b : crlf (a ++ b) = crlf a ++ crlf b.
Proof. induction a as [|c a IH]; cbn; [reflexivity|]. rewrite IH. destruct (beq c x0a); reflexivity. Qed.
Lemma crlf_none s : Forall (fun c => c <> x0a) s -> crlf s = s.
Proof. induction 1 as [|c s H _ IH]; cbn; [reflexivity|]. apply beq_neq in H. rewrite H, IH. reflexivity. Qed.
Lemma blanks_no_lf s : blanks s -> Forall (fun c => c <> x0a) s.
Proof. apply Forall_impl. intros c H ->. discriminate. Qed.

Lemma crlf_toks n e ts : toks_ok n ts e -> Forall (fun t => match fst t with Plain _ => True | _ => False end) ts -> crlf (toks_source n ts) = toks_source n ts.
Proof.
  intros Hok Hs. apply crlf_none. induction ts as [|[t g] ts IH]; [constructor|]. inversion Hs as [|? ? Ht Hs']; subst. destruct Hok as (H1 & H2 & _ & H4).
  cbn [toks_source flat_map fst snd]. apply Forall_app. split; [apply Forall_app; split|apply IH; auto].
  - destruct t as [w|]; [|contradiction]. destruct H1 as (_ & H1 & _). cbn [source]. revert H1. apply Forall_impl. intros c H ->. cbn in H. lia.
  - apply blanks_no_lf, H2.
Qed.
Lemma crlf_block n b : ending_ok n (Blk false b) -> crlf (ending_source (Blk false b)) = ending_source (Blk true b).
Proof.
  cbn [ending_ok ending_source eol app crlf]. change (beq "\" x0a) with false. change (beq x0a x0a) with true. cbv iota. intro H. f_equal. f_equal. f_equal.
  induction H as [|[i t] b (Hi & _ & Ht & _) _ IH]; [reflexivity|]. cbn [flat_map fst snd] in *. rewrite !crlf_app, IH. f_equal.
  rewrite (crlf_none i) by (apply blanks_no_lf, uniform_blanks, Hi).
  rewrite (crlf_none t) by (revert Ht; apply Forall_impl; intros c (_ & H & _); exact H). reflexivity.
Qed.
Lemma crlf_source ls : Forall line_ok ls -> Forall simple ls -> doc_source (map crlf_line ls) = crlf (doc_source ls).
Proof.
  induction 1 as [|l ls (Hi & _ & Ht & Hend) _ IH]; intro Hs; [reflexivity|]. inversion Hs as [|? ? (Hp & He) Hs']; subst.
  cbn [map doc_source flat_map]. change (flat_map line_source (map crlf_line ls)) with (doc_source (map crlf_line ls)).
  change (flat_map line_source ls) with (doc_source ls). rewrite crlf_app, (IH Hs'). f_equal. unfold line_source.
  rewrite !crlf_app, (crlf_none (ind l)) by (apply blanks_no_lf, Hi). rewrite (crlf_toks _ _ _ Ht Hp). unfold crlf_line, depth. cbn [ind toks fin].
  f_equal. f_equal. destruct He as [He|[He|(b & He)]]; rewrite He in *; [reflexivity|reflexivity|]. symmetry. exact (crlf_block _ b Hend).
Qed.
Lemma toks_ok_gap n ts e e' : needs_gap e' = needs_gap e -> toks_ok n ts e -> toks_ok n ts e'.
Proof. intro He. induction ts as [|[t g] ts IH]; [auto|]. cbn [toks_ok]. rewrite He. intros (X1 & X2 & X3 & X4). auto. Qed.
Lemma crlf_ok ls : Forall simple ls -> doc_ok ls -> doc_ok (map crlf_line ls).
Proof.
  intros Hs (H1 & H2 & H3). split; [|split].
  - clear H2 H3. induction ls as [|l ls IH]; [constructor|]. inversion H1 as [|? ? (Ha & Hb & Hc & Hd) H1']; subst. inversion Hs as [|? ? (Hp & He) Hs']; subst.
    cbn [map]. constructor; [|apply IH; assumption]. unfold line_ok, crlf_line, depth in *. cbn [ind toks fin].
    split; [exact Ha|]. split; [exact Hb|]. split; [|destruct He as [He|[He|(b & He)]]; rewrite He in *; auto].
    apply (toks_ok_gap _ _ (fin l)); [|exact Hc]. destruct He as [->|[->|(b & ->)]]; reflexivity.
  - clear H1 H3. induction ls as [|l ls IH]; [exact I|]. inversion Hs as [|? ? (Hp & He) Hs']; subst. destruct H2 as (H2 & H2'). cbn [map follow_ok]. split; [|apply IH; assumption].
    unfold crlf_line at 1. cbn [fin]. destruct He as [He|[He|(b & He)]]; rewrite He in *; [exact I|rewrite H2; reflexivity|].
    destruct ls as [|l' ls]; [exact I|]. destruct H2 as (Hi & Ht). cbn [map block_end]. split; [exact Hi|]. destruct Ht as [Ht|(Ht1 & Ht2)]; [left; exact Ht|right].
    unfold crlf_line. cbn [fin]. destruct (fin l'); try congruence; split; discriminate.
  - destruct ls; [exact I|]. exact H3.
Qed.
Lemma crlf_kept ls : kept (map crlf_line ls) = map crlf_line (kept ls).
Proof.
  assert (G : forall n ls, take n (map crlf_line ls) = map crlf_line (take n ls)).
  { intros n. induction ls0 as [|l l0 IH]; [reflexivity|]. cbn [map take]. change (depth (crlf_line l)) with (depth l).
    destruct (n <=? depth l)%nat; [cbn [map]; rewrite IH|]; reflexivity. }
  destruct ls as [|l ls]; [reflexivity|]. apply (G (depth l) (l :: ls)).
Qed.
Lemma crlf_events v ls : Forall (fun l => fin l = LF \/ fin l = Eof \/ exists b, fin l = Blk false b) ls -> forall P, doc_events v P (map crlf_line ls) = doc_events v P ls.
Proof.
  induction 1 as [|l ls H _ IH]; intro P; [reflexivity|]. cbn [map doc_events]. change (depth (crlf_line l)) with (depth l). rewrite IH. f_equal. f_equal.
  unfold line_vals, crlf_line. cbn [toks fin]. destruct H as [-> |[-> |(b & ->)]]; reflexivity.
Qed.
Lemma take_Forall {P : textline -> Prop} n ls : Forall P ls -> Forall P (take n ls).
Proof. induction 1; cbn; [constructor|]. destruct (n <=? depth x)%nat; [constructor; auto|constructor]. Qed.

Lemma crlf_same E ls fuel fuel' : doc_ok ls -> Forall simple ls ->
  (2 * List.length (doc_source ls) + 3 <= fuel)%nat -> (2 * List.length (crlf (doc_source ls)) + 3 <= fuel')%nat ->
  FromString E fuel' (crlf (doc_source ls)) = FromString E fuel (doc_source ls).
Proof.
  intros Hd Hs Hf Hf'. rewrite (FromString_doc E ls fuel Hd Hf). rewrite <- crlf_source in * by (auto; apply Hd).
  rewrite FromString_doc by (auto using crlf_ok). rewrite crlf_kept. unfold doc_graph. rewrite crlf_events; [reflexivity|].
  assert (Hk : Forall (fun l => fin l = LF \/ fin l = Eof \/ exists b, fin l = Blk false b) ls) by (revert Hs; apply Forall_impl; intros l (_ & H); exact H).
  destruct ls as [|l ls]; [constructor|]. apply take_Forall. exact Hk.
Qed.

(** ** FromStringTypes refines FromString *)
Definition evref (E : env) (a b : Z * value graph) : Prop := fst a = fst b /\ vref E (snd a) (snd b).
Lemma forest_ref E a b : Forall2 (evref E) a b -> forall l, Forall2 (gref E) (forest l a) (forest l b).
Proof.
  induction 1 as [|[la va] [lb vb] a b (H1 & H2) _ IH]; intro l; [constructor|]. cbn [fst snd] in *. subst lb. cbn [forest].
  destruct (la =? l - 1); [constructor|]. destruct (la =? l); [|apply IH]. constructor; [|apply IH]. constructor; [exact H2|apply IH].
Qed.

Definition string_op (o : hop) : Prop := match o with HAdd v | HAddAt v _ => exists s, v = VStr s | _ => True end.
Inductive oref (E : env) : hop -> hop -> Prop :=
| oref_same o : string_op o -> oref E o o
| oref_add v v' : vref E v v' -> oref E (HAdd v) (HAdd v').
Inductive pref (E : env) {A} : prog A -> prog A -> Prop :=
| pref_ret a : pref E (Ret a) (Ret a)
| pref_get k k' : (forall c ok, pref E (k c ok) (k' c ok)) -> pref E (GetB k) (GetB k')
| pref_un k k' : pref E k k' -> pref E (UnB k) (UnB k')
| pref_tok k k' : (forall t, pref E (k t) (k' t)) -> pref E (Tok k) (Tok k')
| pref_ev o o' k k' : oref E o o' -> pref E k k' -> pref E (Ev o k) (Ev o' k')
| pref_lvl k k' : (forall l, pref E (k l) (k' l)) -> pref E (Lvl k) (Lvl k')
| pref_stop : pref E Stop Stop.

Lemma pref_bind E {A B} (m m' : prog A) (k k' : A -> prog B) : pref E m m' -> (forall a, pref E (k a) (k' a)) -> pref E (pbind m k) (pbind m' k').
Proof. intros H Hk. induction H; cbn [pbind]; try constructor; auto. Qed.

Lemma pref_bind2 E {A B B' D} (m m' : prog A) (k : A -> prog B) (k' : A -> prog B') (c : B -> prog D) (c' : B' -> prog D) : pref E m m' ->
  (forall a, pref E (pbind (k a) c) (pbind (k' a) c')) -> pref E (pbind (pbind m k) c) (pbind (pbind m' k') c').
Proof. intros H Hk. induction H; cbn [pbind]; try constructor; auto. Qed.

Definition href (E : env) (h h' : handler) : Prop := cur h = cur h' /\ mx h = mx h' /\ Forall2 (evref E) (evs h) (evs h').
Lemma Forall2_removelast {A B} (R : A -> B -> Prop) a b : Forall2 R a b -> Forall2 R (removelast a) (removelast b).
Proof. induction 1 as [|x y a b H Hab IH]; [constructor|]. cbn. destruct Hab; constructor; auto. Qed.
Definition rref {A} (E : env) (r r' : res (A * lexer * handler)) : Prop :=
  match r, r' with
  | Ok (a, x, h), Ok (a', x', h') => a = a' /\ x = x' /\ href E h h'
  | Panic, Panic | NoFuel, NoFuel => True
  | _, _ => False
  end.
Lemma h_step_ref E o o' h h' : oref E o o' -> href E h h' ->
  match h_step o h, h_step o' h' with Ok a, Ok b => href E a b | Panic, Panic => True | _, _ => False end.
Proof.
  intros Ho (H1 & H2 & H3). assert (Hadd : forall v v' l, vref E v v' -> Forall2 (evref E) (evs h ++ [(l, v)]) (evs h' ++ [(l, v')])).
  { intros v v' l Hv. apply Forall2_app; [exact H3|]. constructor; [split; [reflexivity|exact Hv]|constructor]. }
  destruct Ho as [o Hs|v v' Hv].
  - destruct o as [v|v| | | |]; try (destruct Hs as (s & ->)); cbn [h_step]; unfold href, h_add, h_add_at, h_set_level, h_inc, h_dec, h_delete; cbn [cur mx evs]; rewrite ?H1, ?H2.
    + repeat split; auto. apply Hadd. constructor.
    + repeat split; auto. apply Hadd. constructor.
    + destruct H3 as [|x y a b Hxy Hab]; [exact I|]. cbn [cur mx evs]. repeat split; auto. apply Forall2_removelast. constructor; auto.
    + repeat split; auto.
    + repeat split; auto.
    + repeat split; auto.
  - cbn [h_step]. unfold href, h_add. cbn [cur mx evs]. rewrite H1. repeat split; auto.
Qed.
Lemma run_ref E f {A} (m m' : prog A) : pref E m m' -> forall x h h', href E h h' -> rref E (run_buf E f m x h) (run_buf E f m' x h').
Proof.
  induction 1 as [a|k k' _ IH|k k' _ IH|k k' _ IH|o o' k k' Ho _ IH|k k' _ IH|]; intros x h h' Hh; cbn [run_buf].
  - cbn. auto.
  - destruct (b_byte x) as [[[c ok] x']| |]; cbn [rbind rref]; auto.
  - auto.
  - destruct (b_token E f [] x) as [[t x']| |]; cbn [rbind rref]; auto.
  - pose proof (h_step_ref E o o' h h' Ho Hh) as Hs. destruct (h_step o h), (h_step o' h'); cbn [rbind rref]; try contradiction; auto.
  - destruct Hh as (Hc & Hh). rewrite Hc. apply IH. split; auto.
  - exact I.
Qed.


(** Programs whose events are strings *)
Ltac quiet := repeat match goal with
  | |- pref _ (pbind _ _) (pbind _ _) => apply pref_bind; [|intros]
  | |- pref _ (if ?b then _ else _) _ => destruct b
  | |- pref _ (let '(_, _) := ?x in _) _ => destruct x
  | |- pref _ (match ?x with _ => _ end) _ => destruct x
  | |- pref _ _ _ => solve [auto] || constructor; intros
  | |- oref _ _ _ => constructor
  | |- string_op _ => first [exact I|eexists; reflexivity]
  end.
Lemma span_ref E p : forall f acc, pref E (span f p acc) (span f p acc).
Proof. induction f as [|f IH]; intro acc; cbn [span]; quiet. Qed.
Lemma space_max_ref E : forall f m a b, pref E (space_max f m a b) (space_max f m a b).
Proof. induction f as [|f IH]; intros m a b; cbn [space_max]; quiet. Qed.
Lemma quoted_loop_ref E F : forall f n q c b, pref E (quoted_loop F f n q c b) (quoted_loop F f n q c b).
Proof. induction f as [|f IH]; intros n q c b; cbn [quoted_loop]; quiet; try apply space_max_ref; try apply IH. Qed.
Lemma comment_loop_ref E : forall f, pref E (comment_loop f) (comment_loop f).
Proof. induction f as [|f IH]; cbn [comment_loop]; quiet. Qed.
Lemma block_line_ref E : forall f b, pref E (block_line f b) (block_line f b).
Proof. induction f as [|f IH]; intro b; cbn [block_line]; quiet. Qed.
Lemma Space_ref E F : pref E (Space F) (Space F).
Proof. unfold Space. quiet. apply span_ref. Qed.
Lemma block_lines_ref E F : forall f n b, pref E (block_lines F f n b) (block_lines F f n b).
Proof. induction f as [|f IH]; intros n b; cbn [block_lines]; quiet; first [apply Space_ref|apply block_line_ref|apply IH]. Qed.
Lemma unread_ref E n : pref E (unread_n n) (unread_n n).
Proof. induction n as [|n IH]; cbn [unread_n]; quiet. Qed.
Lemma End_ref E : pref E End End.
Proof. unfold End. quiet. Qed.
Lemma Break_ref E : pref E Break Break.
Proof. unfold Break, Byte_. quiet. Qed.
Lemma Comment_ref E F : pref E (Comment F) (Comment F).
Proof. unfold Comment, Byte_. quiet. apply comment_loop_ref. Qed.
Lemma Block_ref E F n : pref E (Block F n) (Block F n).
Proof. unfold Block, Byte_. quiet. all: apply block_lines_ref. Qed.
Lemma Quoted_ref E F n : pref E (Quoted F n) (Quoted F n).
Proof. unfold Quoted, Byte_. quiet. apply quoted_loop_ref. Qed.
Lemma emit_ref E s : pref E (emit s) (emit s).
Proof. unfold emit, ev. quiet. Qed.

Lemma scalar_ref F E n : pref E (scalar_event F E false n) (scalar_event F E true n).
Proof.
  unfold scalar_event, Scalar_tok, ScalarType. apply pref_bind2; [apply Quoted_ref|]. intros [b|]; [apply emit_ref|].
  apply pref_bind2; [apply span_ref|]. intros [|c s]; [constructor|]. cbn [pbind nonempty]. constructor; constructor. constructor.
Qed.

Lemma line_loop_ref F E n : forall f, pref E (line_loop F E f false n) (line_loop F E f true n).
Proof.
  induction f as [|f IH]; [constructor|]. cbn [line_loop].
  apply pref_bind; [apply End_ref|intros [|]; [constructor|]].
  apply pref_bind; [apply Break_ref|intros [|]; [constructor|]].
  apply pref_bind; [apply Comment_ref|intros [|]; [constructor|]].
  apply pref_bind; [apply Block_ref|intros [s|]].
  - apply pref_bind; [apply emit_ref|intros _]. apply pref_bind; [apply Break_ref|intros _]. constructor.
  - apply pref_bind; [apply scalar_ref|intros _].
    apply pref_bind; [apply Break_ref|intros [|]; [constructor|]].
    apply pref_bind; [apply Space_ref|intros _].
    apply pref_bind; [unfold ev; quiet|intros _]. exact IH.
Qed.
Lemma line_ref F E r r' f ns : (forall n, pref E (r n) (r' n)) -> pref E (line F E r f false ns) (line F E r' f true ns).
Proof.
  intro Hr. unfold line. apply pref_bind; [apply Space_ref|intros [n u]]. destruct (n <? ns); [apply pref_bind; [apply unread_ref|constructor]|]. destruct (ns <? n).
  - apply pref_bind; [apply unread_ref|intros _]. apply pref_bind; [unfold ev; quiet|intros _]. apply pref_bind; [apply Hr|intros _]. unfold ev; quiet.
  - apply pref_bind; [unfold Level; quiet|intros l]. destruct (beq u x00 && (n =? 0)); [constructor|].
    apply pref_bind; [apply End_ref|intros [|]; [constructor|]]. apply pref_bind; [unfold PeekByte; quiet|intros c].
    apply pref_bind; [destruct (beq c ","); [|constructor]; apply pref_bind; [unfold Byte_; quiet|intros _]; apply pref_bind; [apply Space_ref|constructor]|intros _].
    apply pref_bind; [apply line_loop_ref|intros [|]; unfold ev; quiet].
Qed.
Lemma tree_ref F E : forall f ns, pref E (tree_ F E f false ns) (tree_ F E f true ns).
Proof.
  induction f as [|f IH]; intro ns; [constructor|]. cbn [tree_]. apply pref_bind; [apply line_ref; exact IH|]. intros [|]; [apply IH|].
  apply pref_bind; [apply End_ref|constructor].
Qed.
Lemma Ogdl_ref F E f : pref E (Ogdl F E f false) (Ogdl F E f true).
Proof.
  unfold Ogdl. apply pref_bind; [apply Space_ref|intros [n u]]. destruct (beq u x00); [constructor|]. apply pref_bind; [apply unread_ref|intros _]. apply tree_ref.
Qed.

Lemma types_refine E rd fuel : (2 * List.length (seen (size rd) rd) + 3 <= fuel)%nat ->
  exists g g', FromReader E fuel false rd = Ok g /\ FromReader E fuel true rd = Ok g' /\ gref E g g'.
Proof.
  intro Hf. destruct (FromReader_run E false rd fuel Hf) as (a & x & h & Hr & Hi). destruct (FromReader_run E true rd fuel Hf) as (a' & x' & h' & Hr' & Hi').
  assert (H0 : href E h_init h_init) by (repeat split; constructor).
  pose proof (run_ref E fuel _ _ (Ogdl_ref fuel E fuel) (NewLexer rd) _ _ H0) as H. rewrite Hr, Hr' in H. cbn [rref] in H. destruct H as (_ & _ & _ & _ & H).
  unfold FromReader. rewrite Hr, Hr'. cbn [rbind]. rewrite (h_inv_Tree _ Hi), (h_inv_Tree _ Hi'). eexists _, _. split; [reflexivity|]. split; [reflexivity|].
  unfold events_graph. constructor; [constructor|]. apply forest_ref. exact H.
Qed.
