(** The bounds on loops and recursion ("fuel") of the model do not matter: with more fuel a
    function that has an answer gives the same answer. *)
From Verif Require Import Base Value Event Lexer TextParser Stream Buffer Graph Emit PathParser Eval Template.

(** No answer yet, or the same answer *)
Definition below {A} (m m' : res A) : Prop := m = NoFuel \/ m = m'.
Lemma below_refl {A} (m : res A) : below m m.
Proof. right. reflexivity. Qed.
Lemma below_fuel {A} (m : res A) : below NoFuel m.
Proof. left. reflexivity. Qed.
Lemma below_bind {A B} (m m' : res A) (k k' : A -> res B) : below m m' -> (forall a, below (k a) (k' a)) -> below (rbind m k) (rbind m' k').
Proof. intros [->| ->] H; [left; reflexivity|]. destruct m'; cbn [rbind]; [apply H|right; reflexivity|left; reflexivity]. Qed.
#[export] Hint Resolve below_refl below_fuel : fuel.

(** ** Parser programs *)
Inductive psub {A} : prog A -> prog A -> Prop :=
| psub_stop m : psub Stop m
| psub_ret a : psub (Ret a) (Ret a)
| psub_get k k' : (forall c ok, psub (k c ok) (k' c ok)) -> psub (GetB k) (GetB k')
| psub_un k k' : psub k k' -> psub (UnB k) (UnB k')
| psub_tok k k' : (forall t, psub (k t) (k' t)) -> psub (Tok k) (Tok k')
| psub_ev o k k' : psub k k' -> psub (Ev o k) (Ev o k')
| psub_lvl k k' : (forall l, psub (k l) (k' l)) -> psub (Lvl k) (Lvl k').
#[export] Hint Constructors psub : fuel.
Lemma psub_refl {A} (m : prog A) : psub m m.
Proof. induction m; constructor; auto. Qed.
#[export] Hint Resolve psub_refl : fuel.
Lemma psub_bind {A B} (m m' : prog A) (f f' : A -> prog B) : psub m m' -> (forall a, psub (f a) (f' a)) -> psub (pbind m f) (pbind m' f').
Proof. induction 1; intros Hf; cbn [pbind]; [constructor|apply Hf|..]; constructor; auto. Qed.

(** Descend into both programs; what is left are the calls whose fuel differs *)
Ltac psub :=
  repeat first
    [ apply psub_refl
    | assumption
    | apply psub_bind; [|intros ?]
    | apply psub_get; intros ? ?
    | apply psub_un
    | apply psub_tok; intros ?
    | apply psub_ev
    | apply psub_lvl; intros ?
    | match goal with |- psub (match ?x with _ => _ end) _ => destruct x end
    | progress auto with fuel ].

Section Lexers.
Variables F F' : nat.
Hypothesis HF : (F <= F')%nat.
Lemma span_mono p : forall f f' acc, (f <= f')%nat -> psub (span f p acc) (span f' p acc).
Proof.
  induction f as [|f IH]; intros f' acc H; [constructor|]. destruct f' as [|f']; [lia|]. cbn [span]. constructor. intros c ok.
  destruct (p c); [apply IH; lia|apply psub_refl].
Qed.
Lemma String_mono : psub (String_tok F) (String_tok F').
Proof. apply span_mono, HF. Qed.
Lemma Operator_mono : psub (Operator F) (Operator F').
Proof. apply span_mono, HF. Qed.
Lemma TemplateText_mono : psub (TemplateText F) (TemplateText F').
Proof. apply span_mono, HF. Qed.
Lemma WhiteSpace_mono : psub (WhiteSpace F) (WhiteSpace F').
Proof. apply psub_bind; [apply span_mono, HF|auto with fuel]. Qed.
Lemma Space_mono : psub (Space F) (Space F').
Proof. apply psub_bind; [apply span_mono, HF|auto with fuel]. Qed.
Lemma space_max_mono max : forall f f' s t, (f <= f')%nat -> psub (space_max f max s t) (space_max f' max s t).
Proof.
  induction f as [|f IH]; intros f' s t H; [constructor|]. destruct f' as [|f']; [lia|]. cbn [space_max]. constructor. intros c ok.
  destruct (negb (is_space c)); [apply psub_refl|]. destruct (beq c x20); (destruct (_ || _); [apply psub_refl|apply IH; lia]).
Qed.
Lemma quoted_mono ind q : forall f f' c buf, (f <= f')%nat -> psub (quoted_loop F f ind q c buf) (quoted_loop F' f' ind q c buf).
Proof.
  induction f as [|f IH]; intros f' c0 buf H; [constructor|]. destruct f' as [|f']; [lia|]. cbn [quoted_loop]. constructor. intros c ok.
  destruct (is_end c); [apply psub_refl|]. destruct (_ && _); [apply psub_refl|]. destruct (_ && _); [apply psub_refl|].
  destruct (beq c "\"); [apply IH; lia|]. destruct (beq c x0a); [|apply IH; lia]. apply psub_bind; [apply space_max_mono, HF|]. intros nu.
  destruct (beq _ _); [apply psub_refl|]. destruct (_ <? _); [apply psub_refl|apply IH; lia].
Qed.
Lemma Quoted_mono ind : psub (Quoted F ind) (Quoted F' ind).
Proof. apply psub_bind; [apply psub_refl|]. intros c. destruct (negb _); [apply psub_refl|apply quoted_mono, HF]. Qed.
Lemma number_mono : forall f f' p buf, (f <= f')%nat -> psub (number_loop f p buf) (number_loop f' p buf).
Proof.
  induction f as [|f IH]; intros f' p buf H; [constructor|]. destruct f' as [|f']; [lia|]. cbn [number_loop]. constructor. intros c ok.
  destruct (is_digit c); [apply IH; lia|]. destruct (_ && _); [apply IH; lia|apply psub_refl].
Qed.
Lemma Number_mono : psub (Number_tok F) (Number_tok F').
Proof. apply psub_bind; [apply psub_refl|]. intros c. apply psub_bind; [apply psub_refl|]. intros s. apply psub_bind; [apply number_mono, HF|auto with fuel]. Qed.
Lemma comment_mono : forall f f', (f <= f')%nat -> psub (comment_loop f) (comment_loop f').
Proof.
  induction f as [|f IH]; intros f' H; [constructor|]. destruct f' as [|f']; [lia|]. cbn [comment_loop]. constructor. intros c ok.
  destruct (_ || _); [apply psub_refl|apply IH; lia].
Qed.
Lemma Comment_mono : psub (Comment F) (Comment F').
Proof. apply psub_bind; [apply psub_refl|]. intros c. destruct (beq c "#"); [|apply psub_refl]. apply psub_bind; [apply psub_refl|]. intros d. destruct (is_space d); [apply comment_mono, HF|apply psub_refl]. Qed.
Lemma block_line_mono : forall f f' buf, (f <= f')%nat -> psub (block_line f buf) (block_line f' buf).
Proof.
  induction f as [|f IH]; intros f' buf H; [constructor|]. destruct f' as [|f']; [lia|]. cbn [block_line]. constructor. intros c ok.
  destruct (is_end c); [apply psub_refl|]. destruct (beq c x0d); [apply IH; lia|]. destruct (beq c x0a); [apply psub_refl|apply IH; lia].
Qed.
Lemma block_lines_mono nsp : forall f f' buf, (f <= f')%nat -> psub (block_lines F f nsp buf) (block_lines F' f' nsp buf).
Proof.
  induction f as [|f IH]; intros f' buf H; [constructor|]. destruct f' as [|f']; [lia|]. cbn [block_lines]. apply psub_bind; [apply Space_mono|]. intros nu.
  destruct (_ || _); [apply psub_refl|]. apply psub_bind; [apply block_line_mono, HF|]. intros b. apply IH. lia.
Qed.
Lemma Block_mono n : psub (Block F n) (Block F' n).
Proof.
  apply psub_bind; [apply psub_refl|]. intros c. destruct (negb _); [apply psub_refl|]. apply psub_bind; [apply psub_refl|]. intros d.
  destruct (_ && _); [apply psub_refl|]. apply psub_bind; [apply psub_refl|]. intros _. apply psub_bind; [apply block_lines_mono, HF|auto with fuel].
Qed.
Lemma Scalar_mono n : psub (Scalar_tok F n) (Scalar_tok F' n).
Proof. apply psub_bind; [apply Quoted_mono|]. intros [b|]; [apply psub_refl|]. apply psub_bind; [apply String_mono|auto with fuel]. Qed.
Lemma ScalarType_mono E n : psub (ScalarType F E n) (ScalarType F' E n).
Proof. apply psub_bind; [apply Quoted_mono|]. intros [b|]; [apply psub_refl|]. apply psub_bind; [apply String_mono|auto with fuel]. Qed.

(** *** Text *)
Lemma line_loop_mono E types n : forall f f', (f <= f')%nat -> psub (line_loop F E f types n) (line_loop F' E f' types n).
Proof.
  induction f as [|f IH]; intros f' H; [constructor|]. destruct f' as [|f']; [lia|]. cbn [line_loop].
  apply psub_bind; [apply psub_refl|]. intros e. destruct e; [apply psub_refl|]. apply psub_bind; [apply psub_refl|]. intros b. destruct b; [apply psub_refl|].
  apply psub_bind; [apply Comment_mono|]. intros c. destruct c; [apply psub_refl|]. apply psub_bind; [apply Block_mono|]. intros [s|]; [apply psub_refl|].
  apply psub_bind; [unfold scalar_event; destruct types; (apply psub_bind; [first [apply ScalarType_mono|apply Scalar_mono]|auto with fuel])|]. intros _.
  apply psub_bind; [apply psub_refl|]. intros b. destruct b; [apply psub_refl|]. apply psub_bind; [apply Space_mono|]. intros _.
  apply psub_bind; [apply psub_refl|]. intros _. apply IH. lia.
Qed.
Lemma line_mono E rec rec' types ns : (forall n, psub (rec n) (rec' n)) -> forall f f', (f <= f')%nat -> psub (line F E rec f types ns) (line F' E rec' f' types ns).
Proof.
  intros Hr f f' H. unfold line. apply psub_bind; [apply Space_mono|]. intros [n u]. destruct (n <? ns); [apply psub_refl|]. destruct (ns <? n).
  - apply psub_bind; [apply psub_refl|]. intros _. apply psub_bind; [apply psub_refl|]. intros _. apply psub_bind; [apply Hr|auto with fuel].
  - apply psub_bind; [apply psub_refl|]. intros l. destruct (_ && _); [apply psub_refl|]. apply psub_bind; [apply psub_refl|]. intros e. destruct e; [apply psub_refl|].
    apply psub_bind; [apply psub_refl|]. intros c. apply psub_bind; [destruct (beq c ","); [|apply psub_refl]; apply psub_bind; [apply psub_refl|]; intros _; apply psub_bind; [apply Space_mono|auto with fuel]|].
    intros _. apply psub_bind; [apply line_loop_mono, H|auto with fuel].
Qed.
Lemma tree_mono E types : forall f f' ns, (f <= f')%nat -> psub (tree_ F E f types ns) (tree_ F' E f' types ns).
Proof.
  induction f as [|f IH]; intros f' ns H; [constructor|]. destruct f' as [|f']; [lia|]. cbn [tree_].
  apply psub_bind; [apply line_mono; [intros; apply IH; lia|lia]|]. intros b. destruct b; [apply IH; lia|apply psub_refl].
Qed.
Lemma Ogdl_mono E types f f' : (f <= f')%nat -> psub (Ogdl F E f types) (Ogdl F' E f' types).
Proof. intros H. apply psub_bind; [apply Space_mono|]. intros [n u]. destruct (beq u x00); [apply psub_refl|]. apply psub_bind; [apply psub_refl|]. intros _. apply tree_mono, H. Qed.

(** *** Paths and expressions *)
Local Ltac go IH :=
  repeat first
    [ apply psub_refl | apply psub_ret | apply Operator_mono | apply WhiteSpace_mono | apply Space_mono | apply Quoted_mono | apply Number_mono
    | apply IH | apply psub_tok; intros ? | apply psub_bind; [|intros ?]
    | match goal with |- psub (match ?x with _ => _ end) _ => destruct x end ].
Lemma flow_mono : forall f f', (f <= f')%nat ->
  psub (Expression F f) (Expression F' f') /\ psub (expr_loop F f) (expr_loop F' f') /\ psub (UnaryExpression F f) (UnaryExpression F' f') /\
  (forall b d a, psub (path_loop F f b d a) (path_loop F' f' b d a)) /\
  (forall l r t, psub (bracket F f l r t) (bracket F' f' l r t)) /\
  (forall l s, psub (arg_loop F f l s) (arg_loop F' f' l s)) /\
  (forall d, psub (Args F f d) (Args F' f' d)).
Proof.
  induction f as [|f IH]; intros f' H; [repeat split; intros; constructor|]. destruct f' as [|f']; [lia|].
  destruct (IH f' ltac:(lia)) as (H1 & H2 & H3 & H4 & H5 & H6 & H7).
  repeat split; intros; cbn [Expression expr_loop UnaryExpression path_loop bracket arg_loop Args].
  all: repeat first
    [ apply psub_refl | apply psub_ret | apply Operator_mono | apply WhiteSpace_mono | apply Space_mono | apply Quoted_mono | apply Number_mono
    | apply H1 | apply H2 | apply H3 | apply H4 | apply H5 | apply H6 | apply H7 | apply psub_tok; intros ? | apply psub_bind; [|intros ?]
    | match goal with |- psub (match ?x with _ => _ end) _ => destruct x end ].
Qed.
Lemma Variable_mono : psub (Variable_ F) (Variable_ F').
Proof.
  unfold Variable_, Path. destruct (flow_mono F F' HF) as (H1 & _ & _ & H4 & _).
  repeat first
    [ apply psub_refl | apply psub_ret | apply Space_mono | apply H1 | apply H4 | apply psub_un | apply psub_bind; [|intros ?]
    | match goal with |- psub (match ?x with _ => _ end) _ => destruct x end ].
Qed.
Lemma Template_mono : forall f f', (f <= f')%nat -> psub (Template F f) (Template F' f').
Proof.
  induction f as [|f IH]; intros f' H; [constructor|]. destruct f' as [|f']; [lia|]. cbn [Template]. apply psub_bind; [apply TemplateText_mono|].
  intros [|c t].
  - apply psub_bind; [apply Variable_mono|]. intros b. destruct b; [apply IH; lia|apply psub_refl].
  - apply psub_bind; [apply psub_refl|]. intros _. apply IH. lia.
Qed.
End Lexers.

(** ** Running them *)
Lemma b_token_mono E : forall f f' t x, (f <= f')%nat -> below (b_token E f t x) (b_token E f' t x).
Proof.
  induction f as [|f IH]; intros f' t x H; [apply below_fuel|]. destruct f' as [|f']; [lia|]. cbn [b_token]. apply below_bind; [apply below_refl|].
  intros [[r n] y]. destruct (token_rune E r); [apply IH; lia|apply below_refl].
Qed.
Lemma run_buf_mono {A} E f f' (m m' : prog A) : (f <= f')%nat -> psub m m' -> forall x h, below (run_buf E f m x h) (run_buf E f' m' x h).
Proof.
  intros H. induction 1 as [m|a|k k' _ IH|k k' _ IH|k k' _ IH|o k k' _ IH|k k' _ IH]; intros x h; cbn [run_buf]; auto with fuel.
  - apply below_bind; [apply below_refl|]. intros [[c ok] y]. apply IH.
  - apply below_bind; [apply b_token_mono, H|]. intros [t y]. apply IH.
  - apply below_bind; [apply below_refl|]. intros h'. apply IH.
Qed.

Lemma NewPath_mono E f f' s : (f <= f')%nat -> below (NewPath E f s) (NewPath E f' s).
Proof.
  intros H. apply below_bind; [apply run_buf_mono; [exact H|apply (flow_mono f f' H f f' H)]|]. intros [[a x] h]. apply below_refl.
Qed.
Lemma NewExpression_mono E f f' s : (f <= f')%nat -> below (NewExpression E f s) (NewExpression E f' s).
Proof.
  intros H. apply below_bind; [apply run_buf_mono; [exact H|apply (flow_mono f f' H f f' H)]|]. intros [[a x] h]. apply below_refl.
Qed.
Lemma NewTemplate_mono E f f' s : (f <= f')%nat -> below (NewTemplate E f s) (NewTemplate E f' s).
Proof.
  intros H. apply below_bind; [apply run_buf_mono; [exact H|apply (Template_mono f f' H f f' H)]|]. intros [[a x] h]. apply below_refl.
Qed.
Lemma FromReader_mono E f f' types rd : (f <= f')%nat -> below (FromReader E f types rd) (FromReader E f' types rd).
Proof.
  intros H. apply below_bind; [apply run_buf_mono; [exact H|apply (Ogdl_mono f f' H E types f f' H)]|]. intros [[a x] h]. apply below_refl.
Qed.

(** ** Evaluation *)
Section Mono.
Variable E : env.
Variable C : calls.
Variables ev ev' : bool -> option graph -> graph -> res (graph * eres).
Hypothesis Hev : forall b e g, below (ev b e g) (ev' b e g).

(** Descend into both sides *)
Ltac bel :=
  repeat first
    [ apply below_refl | apply below_fuel | apply Hev
    | apply below_bind; [|intros ?]
    | match goal with
      | |- below (let '(_, _) := ?x in _) _ => destruct x
      | |- below (match ?x with _ => _ end) _ => destruct x
      end ].

Lemma Eval_mono e g : below (Eval_with E ev e g) (Eval_with E ev' e g).
Proof. unfold Eval_with. bel. Qed.
Lemma index_mono n g : below (index_ ev n g) (index_ ev' n g).
Proof. unfold index_. bel. Qed.
Lemma selector_mono n p k g : below (selector E ev n p k g) (selector E ev' n p k g).
Proof.
  unfold selector. destruct p; [|apply below_refl]. destruct k; [apply below_refl|]. apply below_bind; [apply index_mono|]. intros [g' ix]. apply below_refl.
Qed.
Lemma args_mono b l : forall g, below (args_ ev b l g) (args_ ev' b l g).
Proof.
  induction l as [|a l IH]; intros g; [apply below_refl|]. cbn [args_]. apply below_bind; [apply Hev|]. intros [g1 r]. apply below_bind; [apply IH|]. intros [g2 rs]. apply below_refl.
Qed.
Lemma function_mono p t g : below (function E C ev p t g) (function E C ev' p t g).
Proof. unfold function. repeat first [apply args_mono | progress bel]. Qed.
Lemma group_name_mono n g : below (group_name E ev n g) (group_name E ev' n g).
Proof.
  unfold group_name. apply below_bind; [apply below_refl|]. intros e. apply below_bind; [apply Eval_mono|]. intros [g' r]. apply below_refl.
Qed.
Lemma get_els_mono p els : forall ctx prev key g, below (get_els E C ev p els ctx prev key g) (get_els E C ev' p els ctx prev key g).
Proof.
  induction els as [|n els IH]; intros ctx prev key g; [apply below_refl|]. cbn [get_els].
  repeat first [apply function_mono | apply index_mono | apply selector_mono | apply group_name_mono | apply IH | progress bel].
Qed.
Lemma getPath_mono p g : below (getPath E C ev p g) (getPath E C ev' p g).
Proof. unfold getPath. destruct (out p); [apply below_refl|apply get_els_mono]. Qed.
Lemma eval_els_mono p simpl els : forall root ctx prev key g, below (eval_els E C ev p simpl root els ctx prev key g) (eval_els E C ev' p simpl root els ctx prev key g).
Proof.
  induction els as [|n els IH]; intros root ctx prev key g; [apply below_refl|]. cbn [eval_els].
  repeat first [apply function_mono | apply index_mono | apply selector_mono | apply group_name_mono | apply IH | progress bel].
Qed.
Lemma evalPath_mono b p g : below (evalPath E C ev b p g) (evalPath E C ev' b p g).
Proof. unfold evalPath. destruct (out p); [apply below_refl|apply eval_els_mono]. Qed.
Lemma assign_mono p v op g : below (assign E C ev p v op g) (assign E C ev' p v op g).
Proof.
  unfold assign. destruct (beq op "="); [apply below_refl|]. apply below_bind; [destruct p; [apply getPath_mono|apply below_refl]|]. intros [g' l]. apply below_refl.
Qed.
Lemma evalBinary_mono p g : below (evalBinary E C ev p g) (evalBinary E C ev' p g).
Proof.
  unfold evalBinary. apply below_bind; [apply below_refl|]. intros n1. apply below_bind; [apply below_refl|]. intros n2. apply below_bind; [apply Hev|]. intros [g' r2].
  destruct r2; [|apply below_refl]. apply below_bind; [apply below_refl|]. intros s.
  repeat (destruct (bseq s _); [apply assign_mono|]). apply below_bind; [apply Hev|]. intros [g2 r1]. apply below_refl.
Qed.
Lemma evalBool_mono e g : below (evalBool_with E ev e g) (evalBool_with E ev' e g).
Proof. unfold evalBool_with. apply below_bind; [apply Eval_mono|]. intros [g' r]. apply below_refl. Qed.
Lemma group_mono b l : forall g, below (group_ ev b l g) (group_ ev' b l g).
Proof.
  induction l as [|e l IH]; intros g; [apply below_refl|]. cbn [group_]. apply below_bind; [apply Hev|]. intros [g1 r]. apply below_bind; [apply IH|]. intros [g2 rs]. apply below_refl.
Qed.
Lemma body_mono b p g : below (eval_body E C ev b p g) (eval_body E C ev' b p g).
Proof.
  unfold eval_body. destruct p as [p|]; [|apply below_refl].
  assert (H : below
    (let* s := ThisString E (Some p) in
          match s with
          | [] => Ok (g, EVal (VStr []))
          | c :: rest =>
              if isNumber s then let* n := number E (this p) in Ok (g, EVal n)
              else if bseq s (bs "!") then
                let* e := Out_ p 0 in
                let* (g, b) := evalBool_with E ev e g in Ok (g, EVal (VBool (negb b)))
              else if bseq s TypeExpression then let* e := GetAt (Some p) 0 in ev b e g
              else if bseq s TypePath then evalPath E C ev b p g
              else if bseq s TypeGroup then
                let* (g, o) := group_ ev b (out p) g in Ok (g, EVal (VPtr (Some (Node (VStr TypeGroup) o))))
              else if bseq s TypeString then
                match out p with
                | [] => Ok (g, EVal (VStr []))
                | e :: _ => let* t := ThisString E e in Ok (g, EVal (VStr t))
                end
              else if is_operator c && (match rest with [] => true | [d] => is_operator d | _ => false end) then
                let* (g, v) := evalBinary E C ev p g in Ok (g, EVal v)
              else if beq c x22 || beq c "'" then Ok (g, EVal (VStr s))
              else if is_letter c then
                Ok (g, EVal (if bseq s (bs "false") then VBool false else if bseq s (bs "true") then VBool true else VStr s))
              else Ok (g, EVal (VPtr (Some p)))
          end)
    (let* s := ThisString E (Some p) in
          match s with
          | [] => Ok (g, EVal (VStr []))
          | c :: rest =>
              if isNumber s then let* n := number E (this p) in Ok (g, EVal n)
              else if bseq s (bs "!") then
                let* e := Out_ p 0 in
                let* (g, b) := evalBool_with E ev' e g in Ok (g, EVal (VBool (negb b)))
              else if bseq s TypeExpression then let* e := GetAt (Some p) 0 in ev' b e g
              else if bseq s TypePath then evalPath E C ev' b p g
              else if bseq s TypeGroup then
                let* (g, o) := group_ ev' b (out p) g in Ok (g, EVal (VPtr (Some (Node (VStr TypeGroup) o))))
              else if bseq s TypeString then
                match out p with
                | [] => Ok (g, EVal (VStr []))
                | e :: _ => let* t := ThisString E e in Ok (g, EVal (VStr t))
                end
              else if is_operator c && (match rest with [] => true | [d] => is_operator d | _ => false end) then
                let* (g, v) := evalBinary E C ev' p g in Ok (g, EVal v)
              else if beq c x22 || beq c "'" then Ok (g, EVal (VStr s))
              else if is_letter c then
                Ok (g, EVal (if bseq s (bs "false") then VBool false else if bseq s (bs "true") then VBool true else VStr s))
              else Ok (g, EVal (VPtr (Some p)))
          end)).
  { apply below_bind; [apply below_refl|]. intros s. destruct s as [|c rest]; [apply below_refl|]. destruct (isNumber _); [apply below_refl|].
    destruct (bseq _ _); [apply below_bind; [apply below_refl|]; intros e; apply below_bind; [apply evalBool_mono|]; intros [g' r]; apply below_refl|].
    destruct (bseq _ _); [apply below_bind; [apply below_refl|]; intros e; apply Hev|].
    destruct (bseq _ _); [apply evalPath_mono|].
    destruct (bseq _ _); [apply below_bind; [apply group_mono|]; intros [g' r]; apply below_refl|].
    destruct (bseq _ _); [apply below_refl|].
    destruct (_ && _); [apply below_bind; [apply evalBinary_mono|]; intros [g' r]; apply below_refl|]. apply below_refl. }
  destruct (this p); try exact H. apply below_refl.
Qed.
End Mono.

Section Eval_mono.
Variable E : env.
Variable C : calls.
Lemma expr_mono : forall f f' b e g, (f <= f')%nat -> below (evalExpression E C f b e g) (evalExpression E C f' b e g).
Proof.
  induction f as [|f IH]; intros f' b e g H; [apply below_fuel|]. destruct f' as [|f']; [lia|]. cbn [evalExpression]. apply body_mono. intros. apply IH. lia.
Qed.
Variables f f' : nat.
Hypothesis Hf : (f <= f')%nat.
Lemma Eval_fuel g e : below (Eval E C f g e) (Eval E C f' g e).
Proof. apply Eval_mono. intros. apply expr_mono, Hf. Qed.
Lemma evalBool_fuel g e : below (evalBool E C f g e) (evalBool E C f' g e).
Proof. apply evalBool_mono. intros. apply expr_mono, Hf. Qed.
Lemma Get_fuel g s : below (Get E C f g s) (Get E C f' g s).
Proof.
  unfold Get. destruct g as [g|]; [|apply below_refl]. apply below_bind; [apply NewPath_mono, Hf|]. intros p. apply below_bind; [apply getPath_mono; intros; apply expr_mono, Hf|].
  intros [g' r]. apply below_refl.
Qed.
Lemma Set_fuel g s v : below (Set_ E f g s v) (Set_ E f' g s v).
Proof. unfold Set_. destruct g as [g|]; [|apply below_refl]. apply below_bind; [apply NewPath_mono, Hf|]. intros p. apply below_refl. Qed.

(** ** Templates *)
Section With.
Variables rec rec' : option graph -> graph -> res pres_.
Hypothesis Hrec : forall t c, below (rec t c) (rec' t c).
Lemma for_mono x body : forall l live c, below (for_loop rec x body live l c) (for_loop rec' x body live l c).
Proof.
  induction l as [|e l IH]; intros live c; [apply below_refl|]. cbn [for_loop]. apply below_bind; [apply Hrec|]. intros [[[c' o] d] brk]. destruct brk; [apply below_refl|].
  apply below_bind; [apply IH|]. intros [[c2 o'] d']. apply below_refl.
Qed.
Lemma do_for_mono n c : below (do_for E C f rec n c) (do_for E C f' rec' n c).
Proof.
  unfold do_for. do 2 (apply below_bind; [apply below_refl|]; intros ?). apply below_bind; [apply Eval_fuel|]. intros [c' r].
  destruct r as [[]|]; try apply below_refl. destruct p; [|apply below_refl]. destruct (out g); [apply below_refl|].
  do 6 (apply below_bind; [apply below_refl|]; intros ?). destruct a6 as [c2|]; [|apply below_refl]. apply below_bind; [apply below_refl|]. intros body.
  apply below_bind; [apply for_mono|]. intros [[c3 o'] d']. apply below_refl.
Qed.
Lemma do_if_mono n c : below (do_if E C f rec n c) (do_if E C f' rec' n c).
Proof.
  unfold do_if. do 2 (apply below_bind; [apply below_refl|]; intros ?). apply below_bind; [apply evalBool_fuel|]. intros [c' yes]. destruct yes; [|apply below_refl].
  apply below_bind; [apply below_refl|]. intros body. apply below_bind; [apply Hrec|]. intros [[[c3 o'] d'] b']. apply below_refl.
Qed.
Lemma nodes_mono : forall l yes c, below (process_nodes E C f rec l yes c) (process_nodes E C f' rec' l yes c).
Proof.
  induction l as [|n l IH]; intros yes c; [apply below_refl|]. cbn [process_nodes]. destruct n as [n|]; [|apply IH]. cbn zeta.
  assert (Hgo : forall yes (x x' : res (graph * bytes * list bytes)), below x x' ->
    below (let* (c, o, d) := x in let* (c, o', d', brk) := process_nodes E C f rec l yes c in Ok (c, o ++ o', d ++ d', brk))
          (let* (c, o, d) := x' in let* (c, o', d', brk) := process_nodes E C f' rec' l yes c in Ok (c, o ++ o', d ++ d', brk))).
  { intros y x x' Hx. apply below_bind; [exact Hx|]. intros [[c1 o] d]. apply below_bind; [apply IH|]. intros [[[c2 o'] d'] b]. apply below_refl. }
  apply below_bind; [apply below_refl|]. intros s.
  destruct (bseq s TypePath); [apply Hgo; apply below_bind; [apply Eval_fuel|]; intros [c1 r]; apply below_refl|].
  destruct (bseq s TypeExpression); [apply Hgo; apply below_bind; [apply Eval_fuel|]; intros [c1 r]; apply below_refl|].
  destruct (_ || _); [apply below_bind; [apply do_if_mono|]; intros [[[c1 o] d] y]; apply (Hgo y (Ok (c1, o, d))); apply below_refl|].
  destruct (bseq s TypeElseIf); [apply (Hgo yes (Ok (c, [], []))); apply below_refl|].
  destruct (bseq s TypeElse).
  { apply Hgo. destruct yes; [apply below_refl|]. apply below_bind; [apply below_refl|]. intros t. apply below_bind; [apply Hrec|]. intros [[[c1 o] d] y]. apply below_refl. }
  destruct (bseq s TypeFor); [apply Hgo, do_for_mono|]. destruct (bseq s TypeBreak); [apply below_refl|]. apply (Hgo yes (Ok (c, s, []))). apply below_refl.
Qed.
End With.
Lemma process_mono : forall d d' t c, (d <= d')%nat -> below (process E C f d t c) (process E C f' d' t c).
Proof.
  induction d as [|d IH]; intros d' t c H; [apply below_fuel|]. destruct d' as [|d']; [lia|]. cbn [process]. destruct t as [t|]; [|apply below_refl].
  apply nodes_mono. intros. apply IH. lia.
Qed.
Lemma Process_fuel t c : below (Process E C f t c) (Process E C f' t c).
Proof. unfold Process. apply below_bind; [apply process_mono, Hf|]. intros [[[c1 o] d] y]. apply below_refl. Qed.
End Eval_mono.
