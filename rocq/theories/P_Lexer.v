(** C74: the scanning functions of Lexer. *)
From Verif Require Import Base Value Event EventSpec EventFacts Lexer TextParser Stream Buffer BufferSpec BufferFacts BufferFacts2 Wp TextTerm TextSpec TextDoc PathSpec WpLong LexSpec LexFacts Samples.

(** ** C74 Full claim: in every session (any text, any length, any order of calls) each
    scanning function answers with the longest piece of its kind at the current position and
    consumes exactly that; when there is none it consumes nothing.  Here: for the calls and
    texts of [reply], with any reader; the texts left out are those of the refutations below,
    and names (Token8) that are not ASCII or end the text (C15, C46). *)
Theorem C74_scanners_partial : forall E F rd cs al, replies (seen (size rd) rd) cs al -> (List.length (seen (size rd) rd) + 3 <= F)%nat ->
  session E F rd cs = Ok al.
Proof. exact session_replies. Qed.
Print Assumptions C74_scanners_partial.
Example C74_ex : forall E, session E 60 (bytes_reader (bs "ab,12  -3.5+ # c")) [CStop (bs ","); CByte; CInteger; CSpace; CNumber; COperator; CPeek; CWhite; CComment; CEnd; CByte]
  = Ok [AText (bs "ab"); AByte (Some ","%byte); AText (bs "12"); ASpace 2 x20; AFound (Some (bs "-3.5")); AText (bs "+"); APeek x20; AYes true; AYes true; AYes true; AByte None].
Proof.
  intro E. assert (Hs : seen (size (bytes_reader (bs "ab,12  -3.5+ # c"))) (bytes_reader (bs "ab,12  -3.5+ # c")) = bs "ab,12  -3.5+ # c") by apply seen_bytes.
  apply C74_scanners_partial; rewrite Hs; [|cbn; lia].
  eapply rs_cons; [apply (r_stop (bs ",") (bs "ab") (bs ",12  -3.5+ # c")); split; [repeat constructor; cbn; intuition discriminate|cbn; intuition discriminate]|].
  eapply rs_cons; [apply r_byte|].
  eapply rs_cons; [apply (r_integer (bs "12") (bs "  -3.5+ # c")); split; [repeat constructor; cbn; lia|cbn; unfold c_digit; cbn; lia]|].
  eapply rs_cons; [apply (r_space (bs "  ") (bs "-3.5+ # c") x20); [split; [repeat constructor|cbn; unfold c_blank; intuition discriminate]|apply kind_spaces; repeat constructor]|].
  eapply rs_cons; [apply (r_minus (bs "3.5") (bs "+ # c")); apply (num_point (bs "3") (bs "5") (bs "+ # c")); [discriminate|repeat constructor; cbn; lia|repeat constructor; cbn; lia|cbn; unfold c_digit; cbn; lia]|].
  eapply rs_cons; [apply (r_operator (bs "+") (bs " # c")); split; [repeat constructor|cbn; unfold c_operator; cbn; intuition discriminate]|].
  eapply rs_cons; [apply r_peek|].
  eapply rs_cons; [apply (r_white (bs " ") (bs "# c")); split; [repeat constructor|cbn; unfold c_white; intuition discriminate]|].
  eapply rs_cons; [apply (r_comment_end x20 (bs "c")); [left; reflexivity|repeat constructor; unfold c_end; cbn; intuition discriminate]|].
  eapply rs_cons; [apply r_end|]. eapply rs_cons; [apply r_byte_end|]. apply rs_nil.
Qed.

(** Most calls have an answer whatever the text, and no call has two. *)
Definition always (c : call) : Prop :=
  match c with CByte | CPeek | CString | CStop _ | CWhite | CSpace | CInteger | COperator | CTemplateText | CEnd | CComment => True | _ => False end.
Lemma split_class (p : byte -> Prop) (b : byte -> bool) l : (forall c, b c = true <-> p c) -> exists w r, l = w ++ r /\ longest p w r.
Proof.
  intro Hb. exists (tw b l), (dw b l). split; [apply tw_dw|]. split.
  - eapply Forall_impl; [|apply tw_all]. intros c. apply Hb.
  - pose proof (dw_stops b l) as H. destruct (dw b l) as [|c r]; [exact I|]. cbn in *. rewrite <- Hb. congruence.
Qed.
Lemma kind_exists w : Forall c_blank w -> exists k, kind_of w k.
Proof.
  induction 1 as [|c w Hc Hw (k & IH)]; [exists x20; apply kind_spaces; constructor|]. destruct IH as [H|Hn H|H1 H2 H3]; destruct Hc as [-> | ->].
  - exists x20. apply kind_spaces. constructor; auto.
  - destruct w as [|d w]; [exists x09; apply kind_tabs; [discriminate|constructor; auto]|]. exists x00. apply kind_mixed; [right; left; inversion H; congruence|left; reflexivity|constructor; [right; reflexivity|exact Hw]].
  - exists x00. apply kind_mixed; [left; reflexivity| |constructor; [left; reflexivity|exact Hw]]. destruct w as [|d w]; [congruence|]. right. left. inversion H; congruence.
  - exists x09. apply kind_tabs; [discriminate|constructor; auto].
  - exists x00. apply kind_mixed; [right; exact H1|right; exact H2|constructor; [left; reflexivity|exact Hw]].
  - exists x00. apply kind_mixed; [right; exact H1|right; exact H2|constructor; [right; reflexivity|exact Hw]].
Qed.
Lemma comment_split l : exists t r, Forall (fun c => ~ c_end c) t /\ (l = t /\ r = [] \/ exists e, c_end e /\ l = t ++ e :: r).
Proof.
  induction l as [|c l (t & r & Ht & IH)]; [exists [], []; auto|]. destruct (is_end c || is_break c) eqn:Ec.
  - exists [], l. split; [constructor|]. right. exists c. split; [apply end_iff; exact Ec|reflexivity].
  - assert (Hc : ~ c_end c) by (rewrite <- end_iff; congruence). exists (c :: t), r. split; [constructor; auto|]. destruct IH as [(-> & ->)|(e & He & ->)]; [left; auto|right; exists e; auto].
Qed.
Lemma answered l c : always c -> exists a r, reply l c a r.
Proof.
  destruct c; cbn [always]; try contradiction; intros _.
  - destruct l as [|c l]; eexists; eexists; constructor.
  - destruct l as [|c l]; eexists; eexists; constructor.
  - destruct (split_class c_text is_text l text_iff) as (w & r & -> & H). eexists; eexists; constructor; exact H.
  - destruct (split_class (fun c => c_text c /\ ~ In c stop) _ l (stop_iff stop)) as (w & r & -> & H). eexists; eexists; constructor; exact H.
  - destruct (split_class c_white is_white l white_iff) as (w & r & -> & H). eexists; eexists; constructor; exact H.
  - destruct (split_class c_blank is_space l blank_iff) as (w & r & -> & H). destruct (kind_exists w (proj1 H)) as (k & Hk). eexists; eexists; constructor; eassumption.
  - destruct (split_class c_digit is_digit l digit_iff) as (w & r & -> & H). eexists; eexists; constructor; exact H.
  - destruct (split_class c_operator is_operator l operator_iff) as (w & r & -> & H). eexists; eexists; constructor; exact H.
  - destruct (split_class c_template is_template_text l template_iff) as (w & r & -> & H). eexists; eexists; constructor; exact H.
  - destruct l as [|c l]; [eexists; eexists; apply r_end|]. destruct (control c) eqn:Ec; eexists; eexists; [apply r_end_char|apply r_end_no]; exact Ec.
  - destruct l as [|c [|b l]]; [eexists; eexists; apply r_comment_no; discriminate|eexists; eexists; apply r_comment_no; discriminate|].
    destruct (beq_spec c "#") as [->|Hc]; [|eexists; eexists; apply r_comment_no; intros b' t' K; injection K as -> _ _; congruence].
    destruct (is_space b) eqn:Eb; [|eexists; eexists; apply r_comment_no; intros b' t' K; injection K as -> _; rewrite <- blank_iff; congruence].
    apply blank_iff in Eb. destruct (comment_split l) as (t & r & Ht & [(-> & ->)|(e & He & ->)]); eexists; eexists; [apply r_comment_end|eapply r_comment]; eassumption.
Qed.
Theorem C74_answered : forall l cs, Forall always cs -> exists al, replies l cs al.
Proof.
  intros l cs H. revert l. induction H as [|c cs Hc Hcs IH]; intro l; [exists []; constructor|].
  destruct (answered l c Hc) as (a & r & Ha). destruct (IH r) as (al & Hal). exists (a :: al). econstructor; eassumption.
Qed.
Print Assumptions C74_answered.
Lemma bytes_replies l : replies l (repeat CByte (List.length l)) (map (fun c => AByte (Some c)) l).
Proof. induction l as [|c l IH]; cbn [List.length repeat map]; [constructor|]. econstructor; [constructor|exact IH]. Qed.
Lemma bytes_more l n : replies l (repeat CByte (List.length l + n)) (map (fun c => AByte (Some c)) l ++ repeat (AByte None) n).
Proof.
  induction l as [|c l IH]; cbn [List.length repeat map app Nat.add]; [|econstructor; [constructor|exact IH]].
  induction n as [|n IH]; cbn [repeat]; [constructor|]. econstructor; [constructor|exact IH].
Qed.
Theorem C74_unique : forall l c a1 r1 a2 r2, reply l c a1 r1 -> reply l c a2 r2 -> a1 = a2 /\ r1 = r2.
Proof.
  intros l c a1 r1 a2 r2 H1 H2. set (m := (List.length r1 + List.length r2)%nat).
  assert (G1 : replies (seen (size (bytes_reader l)) (bytes_reader l)) (c :: repeat CByte m) (a1 :: map (fun c => AByte (Some c)) r1 ++ repeat (AByte None) (List.length r2))).
  { rewrite seen_bytes. econstructor; [exact H1|apply bytes_more]. }
  assert (G2 : replies (seen (size (bytes_reader l)) (bytes_reader l)) (c :: repeat CByte m) (a2 :: map (fun c => AByte (Some c)) r2 ++ repeat (AByte None) (List.length r1))).
  { rewrite seen_bytes. econstructor; [exact H2|]. unfold m. rewrite Nat.add_comm. apply bytes_more. }
  apply (session_replies env0 (List.length (seen (size (bytes_reader l)) (bytes_reader l)) + 3)) in G1; [|lia].
  apply (session_replies env0 (List.length (seen (size (bytes_reader l)) (bytes_reader l)) + 3)) in G2; [|lia].
  rewrite G1 in G2. injection G2 as Ha Hb. split; [exact Ha|]. clear -Hb. revert r2 Hb. induction r1 as [|c r1 IH]; intros [|d r2] Hb; cbn in *; try discriminate; [reflexivity|].
  injection Hb as -> Hb. f_equal. apply IH. rewrite <- (app_assoc _ [AByte None]) || idtac. revert Hb. generalize (List.length r1) (List.length r2). intros n1 n2 Hb.
  apply (f_equal (fun x => removelast x)) in Hb. rewrite !removelast_app in Hb by discriminate. 
  assert (R : forall n (x : answer), removelast (x :: repeat x n) = repeat x n) by (intros n x; induction n as [|n IHn]; [reflexivity|]; cbn [repeat]; cbn [removelast]; f_equal; exact IHn).
  rewrite !R in Hb. exact Hb.
Qed.
Print Assumptions C74_unique.
Example C74_unique_ex : reply (bs "12ab") CInteger (AText (bs "12")) (bs "ab") /\ Forall always [CInteger; CString].
Proof. split; [apply (r_integer (bs "12") (bs "ab")); split; [repeat constructor; cbn; lia|cbn; unfold c_digit; cbn; lia]|repeat constructor]. Qed.

(** *** Where the claim fails *)
Lemma session_wp E F s cs al : wp (perform_all F cs) (s_init s) h_init (fun a _ _ => a = al) -> session E F (bytes_reader s) cs = Ok al.
Proof.
  intro H. unfold session. destruct (wp_sound E F (perform_all F cs) (NewLexer (bytes_reader s)) (s_init s) h_init _ ltac:(rewrite <- (seen_bytes s) at 2; apply NewLexer_repr) H) as (a & x & s' & h & -> & _ & ->).
  reflexivity.
Qed.
Definition first_byte (r : bytes) : option byte := match r with c :: _ => Some c | [] => None end.
Lemma wp_two c F s h (Q : list answer -> stream -> handler -> Prop) : wp (perform F c) s h (fun a s' h' => wp (do l <- perform_all F [CByte]; Ret (a :: l)) s' h' Q) ->
  wp (perform_all F [c; CByte]) s h Q.
Proof. intro H. change (wp (do a <- perform F c; do l <- perform_all F [CByte]; Ret (a :: l)) s h Q). apply wp_bind. exact H. Qed.
Lemma wp_last a F s h (Q : list answer -> stream -> handler -> Prop) : (forall s', Q [a; AByte (first_byte (fut s))] s' h) ->
  wp (do l <- perform_all F [CByte]; Ret (a :: l)) s h Q.
Proof.
  intros HQ. destruct s as [P fu o]. cbn [perform_all perform pbind fut] in *. destruct fu as [|c r]; [apply wp_get_end|apply wp_get]; intros k Hk; cbn [pbind wp]; apply HQ.
Qed.
(** Break is documented as NL, CR or CR+NL; a CR alone is not recognised, but consumed. *)
Theorem C74_break_refuted : forall E F r, first_byte r <> Some x0a -> session E F (bytes_reader (x0d :: r)) [CBreak; CByte] = Ok [AYes false; AByte (first_byte r)].
Proof.
  intros E F r Hr. apply session_wp. apply wp_two. cbn [perform]. apply wp_bind. unfold Break, Byte_. cbn [pbind]. unfold s_init. apply wp_get. intros k Hk. change (beq x0d x0d) with true. cbv iota. cbn [pbind].
  destruct r as [|c r].
  - apply wp_get_end. intros k2 Hk2. change (beq x00 x0a) with false. cbv iota. apply wp_un_over. apply wp_last. reflexivity.
  - apply wp_get. intros k2 Hk2. assert (beq c x0a = false) as -> by (apply beq_neq; intros ->; apply Hr; reflexivity). apply wp_un. apply wp_last. reflexivity.
Qed.
Print Assumptions C74_break_refuted.
(** SpaceMax(2) takes more than two mixed blanks, SpaceMax(0) takes all of them. *)
Theorem C74_max_refuted : forall E F r, (4 <= F)%nat -> session E F (bytes_reader (x20 :: x09 :: x20 :: r)) [CSpaceMax 2; CByte] = Ok [ASpace 3 x00; AByte (first_byte r)].
Proof.
  intros E F r HF. apply session_wp. do 4 (destruct F as [|F]; [lia|]). apply wp_two. cbn [perform]. apply wp_bind. unfold SpaceMax, s_init. cbn [space_max].
  apply wp_get. intros k1 H1. match goal with |- wp _ ?s ?h ?Q => change (wp (space_max (S (S (S F))) 2 1 0) s h Q) end. cbn [space_max].
  apply wp_get. intros k2 H2. match goal with |- wp _ ?s ?h ?Q => change (wp (space_max (S (S F)) 2 1 1) s h Q) end. cbn [space_max].
  apply wp_get. intros k3 H3. match goal with |- wp _ ?s ?h ?Q => change (wp (Ret (3, x00)) s h Q) end. apply wp_last. reflexivity.
Qed.
Print Assumptions C74_max_refuted.
Theorem C74_max_zero_refuted : forall E F r, (1 <= F)%nat -> session E F (bytes_reader (x20 :: r)) [CSpaceMax 0; CByte] = Ok [ASpace 1 x20; AByte (first_byte r)].
Proof.
  intros E F r HF. apply session_wp. destruct F as [|F]; [lia|]. apply wp_two. cbn [perform]. apply wp_bind. unfold SpaceMax, s_init. cbn [space_max].
  apply wp_get. intros k1 H1. match goal with |- wp _ ?s ?h ?Q => change (wp (Ret (1, x20)) s h Q) end. apply wp_last. reflexivity.
Qed.
Print Assumptions C74_max_zero_refuted.
(** Number consumes a sign that is not followed by a number, and takes a point alone for a number. *)
Theorem C74_number_refuted : forall E F r, past_it (fun c => c_digit c \/ c = "."%byte) r -> (1 <= F)%nat ->
  session E F (bytes_reader ("-"%byte :: r)) [CNumber; CByte] = Ok [AFound None; AByte (first_byte r)].
Proof.
  intros E F r Hr HF. apply session_wp. apply wp_two. cbn [perform]. apply wp_bind. unfold Number_tok. apply wp_bind, wp_Peek; [discriminate|]. intros [P1 fu1 o1] G1 F1. cbn [s_init fut] in F1. subst fu1.
  change (head (s_init ("-"%byte :: r))) with "-"%byte. change (beq "-" "-" || beq "-" "+") with true. cbv iota. unfold Byte_. cbn [pbind]. apply wp_get. intros k Hk. apply wp_bind.
  apply l_number_stop; [lia|apply good_false| |].
  - cbn [fut]. destruct r; cbn in *; tauto.
  - intros [P2 fu2 o2] G2 F2. cbn [fut] in F2. subst fu2. apply wp_last. reflexivity.
Qed.
Print Assumptions C74_number_refuted.
Theorem C74_point_refuted : forall E F r, past_it c_digit r -> (2 <= F)%nat -> session E F (bytes_reader ("."%byte :: r)) [CNumber; CByte] = Ok [AFound (Some (bs ".")); AByte (first_byte r)].
Proof.
  intros E F r Hr HF. apply session_wp. apply wp_two. cbn [perform]. apply wp_bind. unfold Number_tok. apply wp_bind, wp_Peek; [discriminate|]. intros [P1 fu1 o1] G1 F1. cbn [s_init fut] in F1. subst fu1.
  change (head (s_init ("."%byte :: r))) with "."%byte. change (beq "." "-" || beq "." "+") with false. cbv iota. cbn [pbind]. apply wp_bind. destruct F as [|F]; [lia|]. cbn [number_loop].
  apply wp_get. intros k Hk. change (is_digit ".") with false. change (negb false && beq "." ".") with true. cbv iota. cbn [app]. apply l_number_stop; [lia|apply good_false| |].
  - cbn [fut]. destruct r; cbn in *; [tauto|]. intros [K|(K & _)]; [tauto|discriminate].
  - intros [P2 fu2 o2] G2 F2. cbn [fut] in F2. subst fu2. apply wp_last. reflexivity.
Qed.
Print Assumptions C74_point_refuted.
(** Quoted consumes everything when the closing quote is missing. *)
Theorem C74_quoted_refuted : forall E F n q t, c_quote q -> Forall (fun c => control c = false /\ c <> q /\ c <> "\"%byte /\ c <> x0a) t -> (List.length t + 1 <= F)%nat ->
  session E F (bytes_reader (q :: t)) [CQuoted n; CByte] = Ok [AFound None; AByte None].
Proof.
  intros E F n q t Hq Ht HF. apply session_wp. apply wp_two. cbn [perform]. apply wp_bind. unfold Quoted, Byte_, s_init. cbn [pbind]. apply wp_get. intros k Hk. apply quote_iff in Hq. rewrite Hq. cbn [negb].
  assert (G : forall F t f c2 buf s h (Q : option bytes -> stream -> handler -> Prop), Forall (fun c => control c = false /\ c <> q /\ c <> "\"%byte /\ c <> x0a) t -> c2 <> "\"%byte -> fut s = t -> (List.length t < f)%nat ->
    (forall s', fut s' = [] -> Q None s' h) -> wp (quoted_loop F f (Z.of_nat n) q c2 buf) s h Q).
  { clear. intro F. induction t as [|c t IH]; intros f c2 buf [P fu o] h Q Ht Hc2 Hf HF HQ; (destruct f as [|f]; [cbn in HF; lia|]); cbn [fut quoted_loop] in *; subst fu.
    - apply wp_get_end. intros k Hk. change (is_end x00) with true. cbn [wp]. apply HQ. reflexivity.
    - inversion Ht as [|? ? (H1 & H2 & H3 & H4) Ht']; subst. rewrite control_end in H1. assert (Hb : beq c2 "\" = false) by (apply beq_neq; exact Hc2). pose proof H3 as H3'. apply beq_neq in H2, H3, H4.
      apply wp_get. intros k Hk. rewrite H1, H2, H3, H4, Hb. cbn [andb]. cbv zeta. apply (IH f c); auto. cbn in HF. lia. }
  apply (G F t F x00 []); [exact Ht|discriminate|reflexivity|lia|]. intros [P2 fu2 o2] F2. cbn [fut] in F2. subst fu2. apply wp_last. reflexivity.
Qed.
Print Assumptions C74_quoted_refuted.
Example C74_refuted_ex : first_byte (bs "a") <> Some x0a /\ past_it (fun c => c_digit c \/ c = "."%byte) (bs "a") /\ past_it c_digit (bs "a") /\ c_quote "'" /\
  Forall (fun c => control c = false /\ c <> "'"%byte /\ c <> "\"%byte /\ c <> x0a) (bs "it").
Proof.
  split; [discriminate|]. split; [cbn; unfold c_digit; cbn; intros [K|K]; [lia|discriminate]|]. split; [cbn; unfold c_digit; cbn; lia|]. split; [right; left; reflexivity|].
  repeat constructor; discriminate.
Qed.
