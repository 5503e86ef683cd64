(** Expressions without assignments, and what evaluating them does to the context. *)
From Verif Require Import Base Value Graph Lexer PathParser Eval Template.

(** ** Specification *)

(** The assignment operators *)
Definition assigns : list bytes := [bs "="; bs "+="; bs "-="; bs "*="; bs "/="; bs "%="].

(** No node of the expression is an assignment; a node without subnodes assigns nothing. *)
Inductive quiet (E : env) : option graph -> Prop :=
| quiet_nil : quiet E None
| quiet_node v o : (forall s, o <> [] -> ThisString E (Some (Node v o)) = Ok s -> ~ In s assigns) -> Forall (quiet E) o -> quiet E (Some (Node v o)).

(** ** Evaluation *)

(** Whatever the result is, the context is g *)
Definition keeps {A} (m : res (graph * A)) (g : graph) : Prop := forall g' a, m = Ok (g', a) -> g' = g.

Lemma keeps_ok {A} (g : graph) (a : A) : keeps (Ok (g, a)) g.
Proof. intros g' b H. injection H as <- _. reflexivity. Qed.
Lemma keeps_panic {A} (g : graph) : @keeps A Panic g.
Proof. intros g' b H. discriminate. Qed.
Lemma keeps_fuel {A} (g : graph) : @keeps A NoFuel g.
Proof. intros g' b H. discriminate. Qed.
Lemma keeps_bind {A B} (m : res (graph * A)) (k : graph * A -> res (graph * B)) g :
  keeps m g -> (forall a, keeps (k (g, a)) g) -> keeps (rbind m k) g.
Proof.
  intros Hm Hk g' b H. destruct m as [[g1 a]| |] eqn:E; cbn [rbind] in H; try discriminate.
  assert (g1 = g) by (eapply Hm; reflexivity). subst. eapply Hk. exact H.
Qed.
Lemma keeps_pure {A B} (m : res A) (k : A -> res (graph * B)) g : (forall a, m = Ok a -> keeps (k a) g) -> keeps (rbind m k) g.
Proof. intros H. destruct m; cbn [rbind]; auto using keeps_panic, keeps_fuel. Qed.

Lemma quiet_sub E v o e : quiet E (Some (Node v o)) -> In e o -> quiet E e.
Proof. intros H Hi. inversion H as [|? ? _ Hf]; subst. rewrite Forall_forall in Hf. auto. Qed.
Lemma quiet_nth E n i e : quiet E (Some n) -> nth_error (out n) i = Some e -> quiet E e.
Proof. destruct n as [v o]. intros H Hi. eapply quiet_sub; [exact H|]. eapply nth_error_In. exact Hi. Qed.
Lemma quiet_Out E n i e : quiet E (Some n) -> Out_ n i = Ok e -> quiet E e.
Proof. unfold Out_. intros H. destruct (nth_error (out n) i) eqn:En; [|discriminate]. intros [= <-]. eapply quiet_nth; eassumption. Qed.
Lemma quiet_all E n : quiet E (Some n) -> Forall (quiet E) (out n).
Proof. destruct n as [v o]. intros H. inversion H; subst. assumption. Qed.
Lemma quiet_child E n i e : quiet E (Some n) -> child (out n) i = e -> quiet E e.
Proof. intros H <-. unfold child. destruct (nth_error (out n) i) eqn:En; [|constructor]. eapply quiet_nth; eassumption. Qed.
Lemma quiet_GetAt E n i e : quiet E n -> GetAt n i = Ok e -> quiet E e.
Proof.
  destruct n as [[v o]|]; [|discriminate]. intros H Hi. cbn [GetAt] in Hi.
  destruct (_ || _); injection Hi as <-; [constructor|]. eapply quiet_child; [exact H|reflexivity].
Qed.

Ltac keep := first [apply keeps_ok | apply keeps_panic | apply keeps_fuel | assumption].

Section Keeps.
Variable E : env.
Variable C : calls.
Variable ev : bool -> option graph -> graph -> res (graph * eres).
Hypothesis Hev : forall b e g, quiet E e -> keeps (ev b e g) g.

Lemma keeps_Eval e g : quiet E e -> keeps (Eval_with E ev e g) g.
Proof.
  intros He. unfold Eval_with. apply keeps_pure. intros s _. destruct (_ || _); [auto|].
  destruct e as [[v [|x o]]|]; try keep. apply keeps_pure. intros. keep.
Qed.
Lemma keeps_index n g : quiet E (Some n) -> keeps (index_ ev n g) g.
Proof.
  intros Hn. unfold index_. destruct (out n) as [|e o] eqn:Eo; [keep|]. apply keeps_bind; [|intros; keep].
  apply Hev. apply quiet_all in Hn. rewrite Eo in Hn. inversion Hn; assumption.
Qed.
Lemma keeps_selector n p k g : quiet E (Some n) -> keeps (selector E ev n p k g) g.
Proof.
  intros Hn. unfold selector. destruct p as [p|]; [|keep]. destruct k; [keep|]. apply keeps_bind; [apply keeps_index, Hn|]. intros ix.
  cbn beta iota zeta. destruct (_ <? 0); [keep|]. apply keeps_pure. intros. keep.
Qed.
Lemma keeps_args b l : forall g, Forall (quiet E) l -> keeps (args_ ev b l g) g.
Proof.
  induction l as [|a l IH]; intros g H; [keep|]. inversion H; subst. cbn [args_]. apply keeps_bind; [auto|]. intros r. apply keeps_bind; [auto|]. intros. keep.
Qed.
Lemma keeps_args_at b p i g : quiet E (Some p) ->
  keeps (match nth_error (out p) i with None => Ok (g, []) | Some None => Panic | Some (Some l) => args_ ev b (out l) g end) g.
Proof.
  intros Hp. destruct (nth_error (out p) i) as [[l|]|] eqn:En; try keep. apply keeps_args. apply quiet_all. eapply quiet_nth; eassumption.
Qed.
Lemma keeps_function p t g : quiet E (Some p) -> keeps (function E C ev p t g) g.
Proof.
  intros Hp.
  assert (H : keeps match child (out p) 1 with
      | None => Ok (g, EErr ErrNoMethod)
      | Some fn =>
          let* name := ThisString E (Some fn) in
          if has_method C t name then
            let* (g, a) := match nth_error (out p) 2 with
                           | None => Ok (g, [])
                           | Some None => Panic
                           | Some (Some l) => args_ ev false (out l) g
                           end in
            let* r := call C t name a in Ok (g, r)
          else Ok (g, EErr ErrNoMethod)
      end g).
  { destruct (child (out p) 1) as [fn|]; [|keep]. apply keeps_pure. intros name _. destruct (has_method C t name); [|keep].
    apply keeps_bind; [apply keeps_args_at, Hp|]. intros a. apply keeps_pure. intros. keep. }
  unfold function. destruct t; try keep. clear H. destruct (remote C id).
  - apply keeps_pure. intros n _. destruct n as [n|]; [|keep]. apply keeps_bind; [apply keeps_args_at, Hp|]. intros a. apply keeps_pure. intros. keep.
  - apply keeps_pure. intros n Hn. destruct n as [n|]; [|keep]. apply keeps_bind; [apply keeps_args, quiet_all; eapply quiet_Out; eassumption|]. intros a. apply keeps_pure. intros. keep.
Qed.
Lemma keeps_group_name n g : quiet E (Some n) -> keeps (group_name E ev n g) g.
Proof.
  intros Hn. unfold group_name. apply keeps_pure. intros e He. apply keeps_bind; [apply keeps_Eval; eapply quiet_Out; eassumption|].
  intros [v|x]; [|keep]. apply keeps_pure. intros. keep.
Qed.

Lemma keeps_get_els p els : quiet E (Some p) -> Forall (quiet E) els -> forall ctx prev key g, keeps (get_els E C ev p els ctx prev key g) g.
Proof.
  intros Hp. induction els as [|n els IH]; intros Hl ctx prev key g; [keep|]. inversion Hl as [|? ? Hn Hl']; subst. specialize (IH Hl').
  cbn [get_els]. destruct ctx as [c|]; [|keep]. apply keeps_pure. intros s _.
  assert (Hnamed : forall s, keeps (let* next := Node_ E (Some c) s in
            match next with
            | Some _ => get_els E C ev p els next (Some c) s g
            | None =>
                match out c with
                | [] => get_els E C ev p els None (Some c) s g
                | _ =>
                    let* t := first_this c in
                    let* (g, r) := function E C ev p t g in
                    match r with
                    | EErr e => Ok (g, inr e)
                    | EVal (VPtr next) => get_els E C ev p els next (Some c) s g
                    | EVal _ => Ok (g, inr ErrFunctionNoGraph)
                    end
                end
            end) g).
  { intros s'. apply keeps_pure. intros [next|] _; [apply IH|]. destruct (out c) as [|x o]; [apply IH|].
    apply keeps_pure. intros t _. apply keeps_bind; [apply keeps_function, Hp|]. intros [v|e]; [|keep]. destruct v; try keep. apply IH. }
  destruct n as [n|]; [|apply Hnamed].
  destruct (bseq s TypeIndex).
  { apply keeps_bind; [apply keeps_index, Hn|]. intros ix. cbn beta iota. destruct (ix <? 0); [keep|]. apply keeps_pure. intros; apply IH. }
  destruct (bseq s TypeSelector).
  { apply keeps_bind; [apply keeps_selector, Hn|]. intros [r|e]; [apply IH|keep]. }
  destruct (bseq s TypeArguments).
  { destruct (out c) as [|x o]; [keep|]. apply keeps_pure. intros t _. apply keeps_bind; [apply keeps_function, Hp|]. intros [v|e]; [|keep]. destruct v; try keep. apply IH. }
  destruct (bseq s TypeGroup); [|apply Hnamed].
  apply keeps_bind; [apply keeps_group_name, Hn|]. intros [s'|[e|]]; [apply Hnamed|keep|keep].
Qed.
Lemma keeps_getPath p g : quiet E (Some p) -> keeps (getPath E C ev p g) g.
Proof.
  intros Hp. unfold getPath. pose proof (quiet_all _ _ Hp) as Ha. destruct (out p) as [|e els]; [keep|]. apply keeps_get_els; assumption.
Qed.

Lemma keeps_eval_els p b els : quiet E (Some p) -> Forall (quiet E) els -> forall root ctx prev key g, keeps (eval_els E C ev p b root els ctx prev key g) g.
Proof.
  intros Hp. induction els as [|n els IH]; intros Hl root ctx prev key g; [keep|]. inversion Hl as [|? ? Hn Hl']; subst. specialize (IH Hl').
  cbn [eval_els]. destruct ctx as [c|]; [|keep]. apply keeps_pure. intros s _.
  assert (Hnamed : forall s, keeps (let* next := Node_ E (Some c) s in
            match next with
            | Some _ => eval_els E C ev p b false els next (Some c) s g
            | None =>
                match out c with
                | [] => eval_els E C ev p b false els None (Some c) s g
                | _ => let* t := first_this c in function E C ev p t g
                end
            end) g).
  { intros s'. apply keeps_pure. intros [next|] _; [apply IH|]. destruct (out c) as [|x o]; [apply IH|].
    apply keeps_pure. intros t _. apply keeps_function, Hp. }
  destruct n as [n|]; [|apply Hnamed].
  destruct (bseq s TypeIndex).
  { apply keeps_bind; [apply keeps_index, Hn|]. intros ix. cbn beta iota. destruct (ix <? 0); [keep|]. apply keeps_pure. intros; apply IH. }
  destruct (bseq s TypeSelector).
  { apply keeps_bind; [apply keeps_selector, Hn|]. intros [r|e]; [apply IH|keep]. }
  destruct (bseq s (bs "_len")); [keep|]. destruct (bseq s (bs "_this")); [keep|].
  destruct (bseq s (bs "_thisString")); [apply keeps_pure; intros; keep|]. destruct (bseq s (bs "_string")); [apply keeps_pure; intros; keep|].
  destruct (bseq s (bs "_json")); [apply keeps_pure; intros; keep|].
  destruct (bseq s TypeArguments).
  { destruct (out c) as [|x o]; [keep|]. apply keeps_pure. intros t _. apply keeps_bind; [apply keeps_function, Hp|]. intros [v|e]; [|keep]. destruct v; try keep. apply IH. }
  destruct (bseq s TypeGroup); [|apply Hnamed].
  apply keeps_bind; [apply keeps_group_name, Hn|]. intros [s'|[e|]]; [apply Hnamed|keep|keep].
Qed.
Lemma keeps_evalPath b p g : quiet E (Some p) -> keeps (evalPath E C ev b p g) g.
Proof.
  intros Hp. unfold evalPath. pose proof (quiet_all _ _ Hp) as Ha. destruct (out p) as [|e els]; [keep|]. apply keeps_eval_els; assumption.
Qed.

Lemma bseq_in s t l : bseq s t = true -> In t l -> In s l.
Proof. intros H. apply bseq_eq in H. subst. auto. Qed.
Lemma keeps_evalBinary p g : quiet E (Some p) -> keeps (evalBinary E C ev p g) g.
Proof.
  intros Hp. unfold evalBinary. apply keeps_pure. intros n1 H1. apply keeps_pure. intros n2 H2.
  apply keeps_bind; [apply Hev; eapply quiet_Out; eassumption|]. intros [i2|e]; [|keep].
  apply keeps_pure. intros s Hs.
  assert (Hno : ~ In s assigns).
  { destruct p as [v o]. inversion Hp as [|? ? Hq _]; subst. apply Hq; [|exact Hs]. intros ->. discriminate. }
  repeat match goal with |- keeps (if bseq s ?t then assign _ _ _ _ _ _ _ else _) _ => let B := fresh in destruct (bseq s t) eqn:B; [exfalso; apply Hno; eapply bseq_in; [exact B|cbn; tauto]|] end.
  apply keeps_bind; [apply Hev; eapply quiet_Out; eassumption|]. intros [i1|e]; [|keep]. cbn beta iota zeta.
  repeat match goal with |- keeps (if bseq s ?t then _ else _) _ => destruct (bseq s t); [first [keep|apply keeps_pure; intros; keep]|] end. keep.
Qed.
Lemma keeps_evalBool e g : quiet E e -> keeps (evalBool_with E ev e g) g.
Proof. intros He. unfold evalBool_with. apply keeps_bind; [apply keeps_Eval, He|]. intros. keep. Qed.
Lemma keeps_group b l : forall g, Forall (quiet E) l -> keeps (group_ ev b l g) g.
Proof.
  induction l as [|a l IH]; intros g H; [keep|]. inversion H; subst. cbn [group_]. apply keeps_bind; [auto|]. intros r. apply keeps_bind; [auto|]. intros. keep.
Qed.
Lemma keeps_body b e g : quiet E e -> keeps (eval_body E C ev b e g) g.
Proof.
  intros He. unfold eval_body. destruct e as [p|]; [|keep].
  assert (H : keeps (let* s := ThisString E (Some p) in
          match s with
          | [] => Ok (g, EVal (VStr []))
          | c :: rest =>
              if isNumber s then let* n := number E (this p) in Ok (g, EVal n)
              else if bseq s (bs "!") then
                let* e := Out_ p 0 in
                let* (g, b) := evalBool_with E ev e g in Ok (g, EVal (VBool (negb b)))
              else if bseq s TypeExpression then let* e := GetAt (Some p) 0 in ev b e g
              else if bseq s TypePath then evalPath E C ev b p g
              else if bseq s TypeGroup then
                let* (g, o) := group_ ev b (out p) g in Ok (g, EVal (VPtr (Some (Node (VStr TypeGroup) o))))
              else if bseq s TypeString then
                match out p with
                | [] => Ok (g, EVal (VStr []))
                | e :: _ => let* t := ThisString E e in Ok (g, EVal (VStr t))
                end
              else if is_operator c && (match rest with [] => true | [d] => is_operator d | _ => false end) then
                let* (g, v) := evalBinary E C ev p g in Ok (g, EVal v)
              else if beq c x22 || beq c "'" then Ok (g, EVal (VStr s))
              else if is_letter c then
                Ok (g, EVal (if bseq s (bs "false") then VBool false else if bseq s (bs "true") then VBool true else VStr s))
              else Ok (g, EVal (VPtr (Some p)))
          end) g).
  2:{ destruct (this p); try exact H. keep. }
  apply keeps_pure. intros s _. destruct s as [|c rest]; [keep|].
  destruct (isNumber (c :: rest)); [apply keeps_pure; intros; keep|].
  destruct (bseq (c :: rest) (bs "!")).
  { apply keeps_pure. intros e1 H1. apply keeps_bind; [apply keeps_evalBool; eapply quiet_Out; eassumption|]. intros. keep. }
  destruct (bseq (c :: rest) TypeExpression).
  { apply keeps_pure. intros e1 H1. apply Hev. eapply quiet_GetAt; eassumption. }
  destruct (bseq (c :: rest) TypePath); [apply keeps_evalPath, He|].
  destruct (bseq (c :: rest) TypeGroup).
  { apply keeps_bind; [apply keeps_group, quiet_all, He|]. intros. keep. }
  destruct (bseq (c :: rest) TypeString).
  { destruct (out p); [keep|]. apply keeps_pure. intros. keep. }
  destruct (_ && _).
  { apply keeps_bind; [apply keeps_evalBinary, He|]. intros. keep. }
  destruct (_ || _); [keep|]. destruct (is_letter c); keep.
Qed.
End Keeps.

Lemma keeps_evalExpression E C f : forall b e g, quiet E e -> keeps (evalExpression E C f b e g) g.
Proof. induction f as [|f IH]; intros b e g He; [keep|]. cbn [evalExpression]. apply keeps_body; assumption. Qed.
Lemma quiet_Eval E C f e g : quiet E e -> keeps (Eval E C f g e) g.
Proof. intros He. apply keeps_Eval; [|exact He]. intros. apply keeps_evalExpression. assumption. Qed.
Lemma quiet_evalBool E C f e g : quiet E e -> keeps (evalBool E C f g e) g.
Proof. intros He. apply keeps_evalBool; [|exact He]. intros. apply keeps_evalExpression. assumption. Qed.
Lemma quiet_getPath E C f p g : quiet E (Some p) -> keeps (getPath E C (evalExpression E C f) p g) g.
Proof. intros He. apply keeps_getPath; [|exact He]. intros. apply keeps_evalExpression. assumption. Qed.
