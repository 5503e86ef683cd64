(** Evaluation and processing return: the recursion follows the expression, never the context. *)
From Verif Require Import Base Value Event Lexer TextParser Stream Buffer Graph Emit PathParser Eval Template Fuel.
From Verif Require Import HeapSpec HeapFacts.
Import ListNotations.
Local Open Scope nat_scope.

Definition fin {A} (m : res A) : Prop := m <> NoFuel.
Definition deep (e : option graph) : nat := match e with Some g => levels g | None => 0 end.

Lemma fin_ok {A} (x : A) : fin (Ok x).
Proof. discriminate. Qed.
Lemma fin_panic {A} : fin (@Panic A).
Proof. discriminate. Qed.
Lemma fin_bind {A B} (m : res A) (k : A -> res B) : fin m -> (forall x, m = Ok x -> fin (k x)) -> fin (rbind m k).
Proof. destruct m; cbn; intros H Hk; [apply Hk; reflexivity|discriminate|intros _; apply H; reflexivity]. Qed.

Lemma levels_kid v o c : In (Some c) o -> S (levels c) <= levels (Node v o).
Proof.
  rewrite levels_eq. induction o as [|d o IH]; [intros []|]. intros [->|H].
  - change (lv (Some c :: o)) with (Nat.max (levels c) (lv o)). lia.
  - specialize (IH H). destruct d as [d|]; [change (lv (Some d :: o)) with (Nat.max (levels d) (lv o)); lia|exact IH].
Qed.
Lemma levels_pos g : 1 <= levels g.
Proof. destruct g. rewrite levels_eq. lia. Qed.

Section Fin.
Variable E : env.

Ltac fs :=
  repeat first
    [ apply fin_ok | apply fin_panic | assumption
    | apply fin_bind; [|intros ? _]
    | match goal with
      | |- fin (let '(_, _) := ?x in _) => destruct x
      | |- fin (match ?x with _ => _ end) => destruct x
      | |- fin (let x := ?e in _) => cbn zeta
      end ].

Lemma fin_gstring : forall p, fin (gstring E p).
Proof. fix IH 1. intros [tt oo]. destruct oo as [|[[w kk]|] oo]; try discriminate. cbn [gstring]. destruct w as [| | | | | | |[q|]| | |]; try discriminate. exact (IH q). Qed.
Lemma fin_vstring v : fin (vstring E v).
Proof. destruct v as [| | | | | | |[q|]| | |]; try discriminate. apply fin_gstring. Qed.
Lemma fin_ThisString e : fin (ThisString E e).
Proof. destruct e; [apply fin_vstring|discriminate]. Qed.
Lemma fin_String e : fin (String_ E e).
Proof. destruct e; [apply fin_gstring|discriminate]. Qed.
Lemma fin_Interface e : fin (Interface e).
Proof. unfold Interface. fs. Qed.
Lemma fin_int64f v : fin (v_int64f E v).
Proof. unfold v_int64f. fs. Qed.
Lemma fin_float64f v : fin (v_float64f E v).
Proof. unfold v_float64f. fs. apply fin_vstring. Qed.
Lemma fin_isInteger s : fin (isInteger s).
Proof. unfold isInteger. fs. Qed.
Lemma fin_number v : fin (number E v).
Proof.
  assert (H : fin (let* s := vstring E v in match s with [] => Ok VNil | _ => let* b := isInteger s in
                  if b then Ok match parse_int s with Some n => VInt KInt64 n | None => VNil end
                  else Ok match parse_float E s with Some f => VF64 f | None => VNil end end : res (value graph))).
  { apply fin_bind; [apply fin_vstring|]. intros s _. destruct s; [discriminate|]. apply fin_bind; [apply fin_isInteger|]. intros [] _; discriminate. }
  unfold number. destruct v; try discriminate; exact H.
Qed.
Lemma fin_scalar_of v : fin (scalar_of E v).
Proof. unfold scalar_of. apply fin_bind; [apply fin_number|]. intros x _. fs. Qed.
Lemma fin_ThisScalar g : fin (ThisScalar E g).
Proof. unfold ThisScalar. apply fin_bind; [destruct (this g); try discriminate; apply fin_Interface|]. intros x _. apply fin_scalar_of. Qed.
Lemma fin_Int64 e d : fin (Int64 E e d).
Proof. unfold Int64. apply fin_bind; [apply fin_Interface|]. intros x _. apply fin_bind; [apply fin_int64f|]. intros y _. fs. Qed.
Lemma fin_iface v w : fin (iface_eq E v w).
Proof. destruct v as [| | | | | | |[]| | |], w as [| | | | | | |[]| | |]; cbn; discriminate. Qed.
Lemma fin_find s o : fin (find_child E s o).
Proof.
  induction o as [|[c|] o IH]; cbn [find_child]; try discriminate. apply fin_bind; [apply fin_vstring|]. intros t _. destruct (bseq _ _); [discriminate|].
  apply fin_bind; [exact IH|]. intros. discriminate.
Qed.
Lemma fin_Node e s : fin (Node_ E e s).
Proof. destruct e as [[v o]|]; [|discriminate]. cbn [Node_]. apply fin_bind; [apply fin_find|]. intros. discriminate. Qed.
Lemma fin_equal k o : fin (equal_nodes E k o).
Proof.
  induction o as [|[c|] o IH]; cbn [equal_nodes]; try discriminate. apply fin_bind; [apply fin_vstring|]. intros t _. apply fin_bind; [exact IH|]. intros. discriminate.
Qed.
Lemma fin_nth_equal k o : forall n, fin (nth_equal E n k o).
Proof.
  induction o as [|c o IH]; intro n; cbn [nth_equal]; try discriminate. apply fin_bind; [apply fin_ThisString|]. intros t _.
  destruct (bseq _ _); [|apply IH]. destruct n; [destruct c; discriminate|apply IH].
Qed.
Lemma fin_GetAt e i : fin (GetAt e i).
Proof. destruct e as [[v o]|]; [|discriminate]. cbn. destruct (_ || _); discriminate. Qed.
Lemma fin_Out g i : fin (Out_ g i).
Proof. unfold Out_. fs. Qed.
Lemma fin_first g : fin (first_this g).
Proof. unfold first_this. fs. Qed.
Lemma fin_calc_float op a b : fin (calc_float E op a b).
Proof. unfold calc_float. fs. Qed.
Lemma fin_calc v w op : fin (calc E v w op).
Proof.
  assert (Hc : fin (let* s1 := vstring E v in let* s2 := vstring E w in Ok (VStr (s1 ++ s2)) : res (value graph))).
  { do 2 (apply fin_bind; [apply fin_vstring|]; intros ? _). discriminate. }
  unfold calc. destruct (v_int64 v) as [a|], (v_int64 w) as [b|].
  - unfold calc_int. cbn zeta. repeat (destruct (_ : bool); [discriminate|]). discriminate.
  - cbv zeta. destruct (v_float64 w); [apply fin_calc_float|]. apply fin_bind; [apply fin_float64f|]. intros. apply fin_calc_float.
  - cbv zeta. destruct (v_float64 v); [apply fin_calc_float|exact Hc].
  - cbv zeta. destruct (v_float64 v), (v_float64 w); [apply fin_calc_float| |exact Hc|].
    + apply fin_bind; [apply fin_float64f|]. intros. apply fin_calc_float.
    + destruct (beq _ _); [exact Hc|discriminate].
Qed.
Lemma fin_compare v w op : fin (compare_ E v w op).
Proof.
  unfold compare_. destruct (v_int64 v); [apply fin_bind; [apply fin_int64f|]; intros; discriminate|].
  destruct (v_float64 v); [apply fin_bind; [apply fin_float64f|]; intros; discriminate|]. do 2 (apply fin_bind; [apply fin_vstring|]; intros ? _). discriminate.
Qed.
Lemma fin_set_index g i v : fin (set_index g i v).
Proof. unfold set_index. destruct (_ <? _)%Z; discriminate. Qed.
Lemma fin_set_new v : forall els g, fin (set_new E els g v).
Proof.
  induction els as [|e els IH]; intro g; cbn [set_new]; [discriminate|]. apply fin_bind; [apply fin_ThisString|]. intros s _.
  destruct (bseq _ _); [apply fin_bind; [apply fin_Int64|]; intros; apply fin_set_index|]. destruct e as [e|]; [|discriminate]. destruct (add_ret _); [|discriminate].
  apply fin_bind; [apply IH|]. intros [c r] _. discriminate.
Qed.
Lemma fin_set_els v : forall els g, fin (set_els E els g v).
Proof.
  induction els as [|e els IH]; intro g; cbn [set_els]; [discriminate|]. apply fin_bind; [apply fin_ThisString|]. intros s _.
  destruct (bseq _ _); [apply fin_bind; [apply fin_Int64|]; intros; apply fin_set_index|]. apply fin_bind; [apply fin_find|]. intros [i|] _; [|apply fin_set_new].
  destruct (child _ _); [|discriminate]. apply fin_bind; [apply IH|]. intros [c r] _. discriminate.
Qed.
Lemma fin_set_path g p v : fin (set_path E g p v).
Proof. destruct p; [apply fin_set_els|discriminate]. Qed.
Lemma fin_text_ show : forall g n, fin (text_ E show n g).
Proof.
  fix IH 1. intros [v o] n. cbn [text_]. apply fin_bind; [apply fin_vstring|]. intros s _. destruct (text_node show n s) as [hd m].
  apply fin_bind; [|intros; discriminate]. revert o. fix IHo 1. intros [|[c|] o]; [discriminate| |].
  - apply fin_bind; [apply IH|]. intros x _. apply fin_bind; [apply IHo|]. intros. discriminate.
  - apply fin_bind; [apply IHo|]. intros. discriminate.
Qed.
Lemma fin_texts show n o : fin (texts E show n o).
Proof.
  induction o as [|[c|] o IH]; cbn [texts]; [discriminate| |].
  - apply fin_bind; [apply fin_text_|]. intros x _. apply fin_bind; [exact IH|]. intros. discriminate.
  - apply fin_bind; [exact IH|]. intros. discriminate.
Qed.
Lemma fin_finish s : fin (finish s).
Proof. unfold finish. destruct s; [discriminate|]. destruct (beq _ _); [destruct (removelast _) as [|c r]|]; try discriminate; destruct (beq _ _); try discriminate; [destruct r|destruct s]; discriminate. Qed.
Lemma fin_Text e : fin (Text E e).
Proof. destruct e; [|discriminate]. cbn [Text]. apply fin_bind; [apply fin_texts|]. intros. apply fin_finish. Qed.
Lemma fin_text_of v : fin (text_of E v).
Proof. destruct v as [| | | | | | |g| | |]; try discriminate. apply fin_Text. Qed.
Lemma length_remove i (o : list (option graph)) : i < List.length o -> S (List.length (remove_at i o)) = List.length o.
Proof.
  intros H. unfold remove_at. destruct (Nat.ltb_spec i (List.length o - 1)).
  - rewrite app_length, firstn_length, skipn_length. lia.
  - rewrite firstn_length. lia.
Qed.
Lemma fin_delete_loop v : forall f i o, 0 < f -> List.length o < f + i -> fin (delete_loop E f i v o).
Proof.
  induction f as [|f IH]; intros i o H0 H; [lia|]. cbn [delete_loop]. destruct (Nat.ltb_spec i (List.length o)) as [Hi|Hi]; [|discriminate].
  destruct (child o i); [|discriminate]. apply fin_bind; [apply fin_iface|]. intros b _. destruct b; apply IH; [lia| |lia|lia].
  pose proof (length_remove i o Hi). lia.
Qed.
Lemma fin_Delete e v : fin (Delete E e v).
Proof. destruct e as [[t o]|]; [|discriminate]. cbn [Delete]. apply fin_bind; [apply fin_delete_loop; lia|]. intros. discriminate. Qed.

(** ** The evaluator *)
Variable C : calls.
Hypothesis Hcall : forall f m a, fin (call C f m a).
Hypothesis Hjson : forall g, fin (to_json C g).

Section Step.
Variable ev : bool -> option graph -> graph -> res (graph * eres).
Variable n : nat.
Hypothesis Hev : forall b e g, deep e <= n -> fin (ev b e g).
(** All subnodes have at most [n] levels *)
Definition low (p : graph) : Prop := Forall (fun c => deep c <= n) (out p).

Lemma low_nth p i c : low p -> nth_error (out p) i = Some c -> deep c <= n.
Proof. intros H Hi. apply (proj1 (Forall_forall _ _) H). eapply nth_error_In, Hi. Qed.
Lemma low_of p : levels p <= S n -> low p.
Proof.
  destruct p as [v o]. intros H. apply Forall_forall. intros [c|] Hc; cbn [deep]; [|lia]. apply Nat.succ_le_mono. exact (Nat.le_trans _ _ _ (levels_kid v o c Hc) H).
Qed.
Lemma low_kid p k : low p -> In (Some k) (out p) -> low k.
Proof. intros H Hk. apply low_of. pose proof (proj1 (Forall_forall _ _) H _ Hk) as K. cbv beta in K. unfold deep in K. lia. Qed.

Lemma fin_Eval e g : deep e <= n -> fin (Eval_with E ev e g).
Proof.
  intros H. unfold Eval_with. apply fin_bind; [apply fin_ThisString|]. intros s _. destruct (_ || _); [apply Hev, H|].
  destruct e as [[v [|x o]]|]; try discriminate. apply fin_bind; [apply fin_ThisScalar|]. intros. discriminate.
Qed.
Lemma fin_index k g : low k -> fin (index_ ev k g).
Proof.
  intros H. unfold index_. destruct (out k) as [|e o] eqn:Ho; [discriminate|]. apply fin_bind; [apply Hev, (low_nth k 0 e H); rewrite Ho; reflexivity|]. intros [g1 r] _. discriminate.
Qed.
Lemma fin_selector k prev key g : low k -> fin (selector E ev k prev key g).
Proof.
  intros H. unfold selector. destruct prev as [p|]; [|discriminate]. destruct key; [discriminate|]. apply fin_bind; [apply fin_index, H|]. intros [g1 ix] _. cbn zeta.
  destruct (_ <? _)%Z; [discriminate|]. apply fin_bind; [destruct (_ =? _)%Z; [apply fin_equal|apply fin_nth_equal]|]. intros. discriminate.
Qed.
Lemma fin_args b l : Forall (fun c => deep c <= n) l -> forall g, fin (args_ ev b l g).
Proof.
  induction 1 as [|a l Ha Hl IH]; intro g; cbn [args_]; [discriminate|]. apply fin_bind; [apply Hev, Ha|]. intros [g1 r] _. apply fin_bind; [apply IH|]. intros [g2 rs] _. discriminate.
Qed.
Lemma fin_call_bind f m a (g : graph) : fin (let* r := call C f m a in Ok (g, r)).
Proof. apply fin_bind; [apply Hcall|]. intros. discriminate. Qed.
Lemma fin_function p t g : low p -> fin (function E C ev p t g).
Proof.
  intros Hp.
  assert (Ha : forall b i k, nth_error (out p) i = Some (Some k) -> forall g, fin (args_ ev b (out k) g)).
  { intros b i k Hk. apply fin_args. apply (low_kid p k Hp). eapply nth_error_In, Hk. }
  assert (Hm : fin (match child (out p) 1 with
      | None => Ok (g, EErr ErrNoMethod)
      | Some fn =>
          let* name := ThisString E (Some fn) in
          if has_method C t name then
            let* (g, a) := match nth_error (out p) 2 with
                           | None => Ok (g, [])
                           | Some None => Panic
                           | Some (Some l) => args_ ev false (out l) g
                           end in
            let* r := call C t name a in Ok (g, r)
          else Ok (g, EErr ErrNoMethod)
      end)).
  { destruct (child _ _) as [fn|]; [|discriminate]. apply fin_bind; [apply fin_ThisString|]. intros s _. destruct (has_method _ _ _); [|discriminate].
    apply fin_bind; [|intros [g1 a] _; apply fin_call_bind]. destruct (nth_error (out p) 2) as [[l|]|] eqn:H2; try discriminate. apply (Ha _ _ _ H2). }
  unfold function. destruct t; try discriminate; try exact Hm. destruct (remote C _).
  - apply fin_bind; [apply fin_Out|]. intros [k|] _; [|discriminate]. apply fin_bind; [|intros [g1 a] _; apply fin_call_bind].
    destruct (nth_error (out p) 2) as [[l|]|] eqn:H2; try discriminate. apply (Ha _ _ _ H2).
  - apply fin_bind; [apply fin_Out|]. intros [k|] Hk; [|discriminate]. unfold Out_ in Hk. destruct (nth_error (out p) 1) as [c|] eqn:H1; [|discriminate]. injection Hk as ->.
    apply fin_bind; [apply (Ha _ _ _ H1)|]. intros [g1 a] _. apply fin_call_bind.
Qed.
Lemma fin_group_name k g : low k -> fin (group_name E ev k g).
Proof.
  intros H. unfold group_name. apply fin_bind; [apply fin_Out|]. intros e He. unfold Out_ in He. destruct (nth_error (out k) 0) as [c|] eqn:H0; [|discriminate]. injection He as ->.
  apply fin_bind; [apply fin_Eval, (low_nth _ _ _ H H0)|]. intros [g1 r] _. destruct r; [|discriminate]. apply fin_bind; [apply fin_vstring|]. intros. discriminate.
Qed.
Section Path.
Variable p : graph.
Hypothesis Hp : low p.
Lemma fin_get_els els : Forall (fun c => deep c <= n) els -> forall ctx prev key g, fin (get_els E C ev p els ctx prev key g).
Proof.
  induction 1 as [|k els Hk _ IH]; intros ctx prev key g; [discriminate|]. cbn [get_els]. destruct ctx as [c|]; [|discriminate].
  apply fin_bind; [apply fin_ThisString|]. intros s _.
  assert (Hf : forall key g, fin (let* t := first_this c in let* (g, r) := function E C ev p t g in
     match r with EErr e => Ok (g, inr e) | EVal (VPtr next) => get_els E C ev p els next (Some c) key g | EVal _ => Ok (g, inr ErrFunctionNoGraph) end)).
  { intros key' g'. apply fin_bind; [apply fin_first|]. intros t _. apply fin_bind; [apply fin_function; assumption|]. intros [g1 r] _.
    destruct r as [[]|]; try discriminate. apply IH. }
  assert (Hnm : forall s g, fin (let* next := Node_ E (Some c) s in match next with
      | Some _ => get_els E C ev p els next (Some c) s g
      | None => match out c with [] => get_els E C ev p els None (Some c) s g | _ => let* t := first_this c in let* (g, r) := function E C ev p t g in
         match r with EErr e => Ok (g, inr e) | EVal (VPtr next) => get_els E C ev p els next (Some c) s g | EVal _ => Ok (g, inr ErrFunctionNoGraph) end end end)).
  { intros s' g'. apply fin_bind; [apply fin_Node|]. intros [nx|] _; [apply IH|]. destruct (out c); [apply IH|apply Hf]. }
  destruct k as [k|]; [|apply Hnm].
  assert (Hl : low k) by (apply low_of; cbn [deep] in Hk; lia).
  destruct (bseq s TypeIndex).
  { apply fin_bind; [apply fin_index, Hl|]. intros [g1 ix] _. destruct (_ <? _)%Z; [discriminate|]. apply fin_bind; [apply fin_GetAt|]. intros c' _. apply IH. }
  destruct (bseq s TypeSelector).
  { apply fin_bind; [apply fin_selector, Hl|]. intros [g1 r] _. destruct r; [apply IH|discriminate]. }
  destruct (bseq s TypeArguments).
  { destruct (out c); [discriminate|apply Hf]. }
  destruct (bseq s TypeGroup); [|apply Hnm].
  apply fin_bind; [apply fin_group_name, Hl|]. intros [g1 r] _. destruct r as [s'|[]]; try discriminate. apply Hnm.
Qed.
Lemma fin_getPath g : fin (getPath E C ev p g).
Proof. unfold getPath. destruct (out p) eqn:Ho; [discriminate|]. rewrite <- Ho. apply fin_get_els, Hp. Qed.
Lemma fin_eval_els simpl els : Forall (fun c => deep c <= n) els -> forall root ctx prev key g, fin (eval_els E C ev p simpl root els ctx prev key g).
Proof.
  induction 1 as [|k els Hk _ IH]; intros root ctx prev key g; [discriminate|]. cbn [eval_els]. destruct ctx as [c|]; [|discriminate].
  apply fin_bind; [apply fin_ThisString|]. intros s _.
  assert (Hnm : forall s g, fin (let* next := Node_ E (Some c) s in match next with
      | Some _ => eval_els E C ev p simpl false els next (Some c) s g
      | None => match out c with [] => eval_els E C ev p simpl false els None (Some c) s g | _ => let* t := first_this c in function E C ev p t g end end)).
  { intros s' g'. apply fin_bind; [apply fin_Node|]. intros [nx|] _; [apply IH|]. destruct (out c); [apply IH|]. apply fin_bind; [apply fin_first|]. intros t _. apply fin_function; assumption. }
  destruct k as [k|]; [|apply Hnm].
  assert (Hl : low k) by (apply low_of; cbn [deep] in Hk; lia).
  destruct (bseq s TypeIndex).
  { apply fin_bind; [apply fin_index, Hl|]. intros [g1 ix] _. destruct (_ <? _)%Z; [discriminate|]. apply fin_bind; [apply fin_GetAt|]. intros c' _. apply IH. }
  destruct (bseq s TypeSelector).
  { apply fin_bind; [apply fin_selector, Hl|]. intros [g1 r] _. destruct r; [apply IH|discriminate]. }
  destruct (bseq s _); [discriminate|]. destruct (bseq s _); [discriminate|].
  destruct (bseq s _); [apply fin_bind; [apply fin_ThisString|]; intros; discriminate|].
  destruct (bseq s _); [apply fin_bind; [apply fin_String|]; intros; discriminate|].
  destruct (bseq s _); [apply fin_bind; [apply Hjson|]; intros; discriminate|].
  destruct (bseq s TypeArguments).
  { destruct (out c); [discriminate|]. apply fin_bind; [apply fin_first|]. intros t _. apply fin_bind; [apply fin_function; assumption|]. intros [g1 r] _.
    destruct r as [[]|]; try discriminate. apply IH. }
  destruct (bseq s TypeGroup); [|apply Hnm].
  apply fin_bind; [apply fin_group_name, Hl|]. intros [g1 r] _. destruct r as [s'|[]]; try discriminate. apply Hnm.
Qed.
Lemma fin_evalPath b g : fin (evalPath E C ev b p g).
Proof. unfold evalPath. destruct (out p) eqn:Ho; [discriminate|]. rewrite <- Ho. apply fin_eval_els, Hp. Qed.
End Path.
Lemma fin_assign e v op g : deep e <= n -> fin (assign E C ev e v op g).
Proof.
  intros He.
  assert (Hs : forall v g, fin (let* (g, r) := set_path E g e v in Ok (g, VPtr r : value graph))).
  { intros v' g'. apply fin_bind; [apply fin_set_path|]. intros [g1 r] _. discriminate. }
  unfold assign. cbv zeta. destruct (beq op "="); [apply Hs|].
  apply fin_bind; [destruct e as [p|]; [apply fin_getPath, low_of; cbn [deep] in He; lia|discriminate]|]. intros [g1 lhs] _.
  assert (Hr : fin (if beq op "+" then let* (g, r) := set_path E g1 e v in Ok (g, VPtr r : value graph)
        else if beq op "-" then let* w := calc E (VInt KInt 0) v "-" in let* (g, r) := set_path E g1 e w in Ok (g, VPtr r)
        else if beq op "*" then let* (g, r) := set_path E g1 e (VInt KInt 0) in Ok (g, VPtr r)
        else if beq op "/" then let* (g, r) := set_path E g1 e (VStr (bs "infinity")) in Ok (g, VPtr r)
        else let* (g, r) := set_path E g1 e (VStr (bs "undefined")) in Ok (g, VPtr r))).
  { destruct (beq op "+"); [apply Hs|]. destruct (beq op "-"); [apply fin_bind; [apply fin_calc|]; intros; apply Hs|]. destruct (beq op "*"); [apply Hs|]. destruct (beq op "/"); apply Hs. }
  destruct lhs as [[l|]|]; try exact Hr. apply fin_bind; [apply fin_Out|]. intros [c|] _; [|discriminate]. apply fin_bind; [apply fin_calc|]. intros. apply Hs.
Qed.
Lemma fin_evalBinary p g : low p -> fin (evalBinary E C ev p g).
Proof.
  intros Hp. unfold evalBinary. apply fin_bind; [apply fin_Out|]. intros n1 H1. apply fin_bind; [apply fin_Out|]. intros n2 H2.
  unfold Out_ in H1, H2. destruct (nth_error (out p) 0) eqn:E1; [|discriminate]. destruct (nth_error (out p) 1) eqn:E2; [|discriminate]. injection H1 as ->. injection H2 as ->.
  apply (low_nth _ _ _ Hp) in E1, E2. apply fin_bind; [apply Hev, E2|]. intros [g1 r2] _. destruct r2 as [i2|]; [|discriminate]. apply fin_bind; [apply fin_ThisString|]. intros s _.
  repeat (destruct (bseq s _); [apply fin_assign; assumption|]). apply fin_bind; [apply Hev, E1|]. intros [g2 r1] _. destruct r1 as [i1|]; [|discriminate].
  repeat (destruct (bseq s _); [first [apply fin_bind; [apply fin_calc|]; intros; discriminate | apply fin_bind; [apply fin_compare|]; intros; discriminate | discriminate]|]). discriminate.
Qed.
Lemma fin_evalBool e g : deep e <= n -> fin (evalBool_with E ev e g).
Proof. intros H. unfold evalBool_with. apply fin_bind; [apply fin_Eval, H|]. intros [g1 r] _. discriminate. Qed.
Lemma fin_group b l : Forall (fun c => deep c <= n) l -> forall g, fin (group_ ev b l g).
Proof.
  induction 1 as [|a l Ha Hl IH]; intro g; cbn [group_]; [discriminate|]. apply fin_bind; [apply Hev, Ha|]. intros [g1 r] _. apply fin_bind; [apply IH|]. intros [g2 rs] _. discriminate.
Qed.
Lemma fin_body b p g : low p -> fin (eval_body E C ev b (Some p) g).
Proof.
  intros Hp. unfold eval_body.
  enough (H : fin (let* s := ThisString E (Some p) in
          match s with
          | [] => Ok (g, EVal (VStr []))
          | c :: rest =>
              if isNumber s then let* n := number E (this p) in Ok (g, EVal n)
              else if bseq s (bs "!") then
                let* e := Out_ p 0 in
                let* (g, b) := evalBool_with E ev e g in Ok (g, EVal (VBool (negb b)))
              else if bseq s TypeExpression then let* e := GetAt (Some p) 0 in ev b e g
              else if bseq s TypePath then evalPath E C ev b p g
              else if bseq s TypeGroup then
                let* (g, o) := group_ ev b (out p) g in Ok (g, EVal (VPtr (Some (Node (VStr TypeGroup) o))))
              else if bseq s TypeString then
                match out p with
                | [] => Ok (g, EVal (VStr []))
                | e :: _ => let* t := ThisString E e in Ok (g, EVal (VStr t))
                end
              else if is_operator c && (match rest with [] => true | [d] => is_operator d | _ => false end) then
                let* (g, v) := evalBinary E C ev p g in Ok (g, EVal v)
              else if beq c x22 || beq c "'" then Ok (g, EVal (VStr s))
              else if is_letter c then
                Ok (g, EVal (if bseq s (bs "false") then VBool false else if bseq s (bs "true") then VBool true else VStr s))
              else Ok (g, EVal (VPtr (Some p)))
          end)) by (destruct (this p); try exact H; discriminate).
  apply fin_bind; [apply fin_ThisString|]. intros s _. destruct s as [|c rest]; [discriminate|].
  destruct (isNumber _); [apply fin_bind; [apply fin_number|]; intros; discriminate|].
  destruct (bseq _ _).
  { apply fin_bind; [apply fin_Out|]. intros e He. unfold Out_ in He. destruct (nth_error (out p) 0) eqn:E0; [|discriminate]. injection He as ->.
    apply fin_bind; [apply fin_evalBool, (low_nth _ _ _ Hp E0)|]. intros [g1 r] _. discriminate. }
  destruct (bseq _ _).
  { destruct p as [v o]. cbn [GetAt]. destruct (_ || _)%bool; cbn [rbind]; [apply Hev; cbn; lia|]. apply Hev. unfold child. destruct (nth_error o _) eqn:E0; [|cbn; lia].
    exact (low_nth (Node v o) _ _ Hp E0). }
  destruct (bseq _ _); [apply fin_evalPath; assumption|].
  destruct (bseq _ _); [apply fin_bind; [apply fin_group, Hp|]; intros [g1 o] _; discriminate|].
  destruct (bseq _ _); [destruct (out p); [discriminate|]; apply fin_bind; [apply fin_ThisString|]; intros; discriminate|].
  destruct (_ && _)%bool; [apply fin_bind; [apply fin_evalBinary; assumption|]; intros [g1 v] _; discriminate|].
  destruct (_ || _)%bool; [discriminate|]. destruct (is_letter c); discriminate.
Qed.
End Step.

Lemma fin_expr : forall n b e g, deep e <= n -> fin (evalExpression E C (S n) b e g).
Proof.
  induction n as [|n IH]; intros b e g H; cbn [evalExpression]; (destruct e as [p|]; [|discriminate]).
  - exfalso. pose proof (levels_pos p). cbn [deep] in H. lia.
  - apply fin_body with (n := n); [intros; apply IH; assumption|]. apply low_of, H.
Qed.
Lemma fin_ev n f b e g : n < f -> deep e <= n -> fin (evalExpression E C f b e g).
Proof. intros Hf H. destruct f as [|f]; [lia|]. apply fin_expr. lia. Qed.

(** ** Templates *)
Section Process.
Variable f n : nat.
Hypothesis Hf : n < f.
Lemma fin_Eval_at c e : deep e <= n -> fin (Eval E C f c e).
Proof. intros H. apply fin_Eval with (n := n); [|exact H]. intros. apply fin_ev with (n := n); assumption. Qed.
Lemma fin_evalBool_at c e : deep e <= n -> fin (evalBool E C f c e).
Proof. intros H. apply fin_evalBool with (n := n); [|exact H]. intros. apply fin_ev with (n := n); assumption. Qed.
Lemma deep_GetAt p i c : GetAt p i = Ok c -> deep c <= pred (deep p).
Proof.
  destruct p as [[v o]|]; [|discriminate]. cbn [GetAt]. destruct (_ || _)%bool; intros H; injection H as <-; [cbn; lia|]. unfold child.
  destruct (nth_error o _) as [[x|]|] eqn:Hx; cbn [deep]; [|lia|lia]. apply nth_error_In in Hx. pose proof (levels_kid v o x Hx) as K. apply Nat.lt_le_pred. exact K.
Qed.
Section With.
Variable rec : option graph -> graph -> res pres_.
Variable d : nat.
Hypothesis Hd : d <= n.
Hypothesis Hrec : forall t c, deep t < d -> fin (rec t c).
Lemma fin_for x body : deep body < d -> forall l live c, fin (for_loop rec x body live l c).
Proof.
  intros Hb. induction l as [|e l IH]; intros live c; cbn [for_loop]; [discriminate|]. apply fin_bind; [apply Hrec, Hb|]. intros [[[c1 o] dl] brk] _. destruct brk; [discriminate|].
  apply fin_bind; [apply IH|]. intros [[c2 o'] d'] _. discriminate.
Qed.
Lemma fin_do_for k c : levels k <= d -> fin (do_for E C f rec k c).
Proof.
  intros Hk. pose proof (levels_pos k) as Hp. unfold do_for. apply fin_bind; [apply fin_GetAt|]. intros a Ha. apply fin_bind; [apply fin_GetAt|]. intros e He.
  apply deep_GetAt in Ha. apply deep_GetAt in He. cbn [deep] in Ha. apply fin_bind; [apply fin_Eval_at; lia|]. intros [c1 r] _.
  destruct r as [[| | | | | | |[gi|]| | |]|]; try discriminate. destruct (out gi) as [|first o]; [discriminate|].
  apply fin_bind; [apply fin_ThisString|]. intros s _. apply fin_bind; [destruct (bseq _ _); [destruct first|]; discriminate|]. intros l _.
  apply fin_bind; [apply fin_GetAt|]. intros b _. apply fin_bind; [apply fin_GetAt|]. intros p _. apply fin_bind; [apply fin_String|]. intros x _.
  apply fin_bind; [apply fin_Delete|]. intros [c2|] _; [|discriminate]. apply fin_bind; [apply fin_GetAt|]. intros body Hb. apply deep_GetAt in Hb. cbn [deep] in Hb.
  apply fin_bind; [apply fin_for; lia|]. intros [[c3 o'] d'] _. discriminate.
Qed.
Lemma fin_do_if k c : levels k <= d -> fin (do_if E C f rec k c).
Proof.
  intros Hk. pose proof (levels_pos k) as Hp. unfold do_if. apply fin_bind; [apply fin_GetAt|]. intros a Ha. apply fin_bind; [apply fin_GetAt|]. intros e He.
  apply deep_GetAt in Ha. apply deep_GetAt in He. cbn [deep] in Ha. apply fin_bind; [apply fin_evalBool_at; lia|]. intros [c1 yes] _. destruct yes; [|discriminate].
  apply fin_bind; [apply fin_GetAt|]. intros body Hb. apply deep_GetAt in Hb. cbn [deep] in Hb. apply fin_bind; [apply Hrec; lia|]. intros [[[c3 o'] d'] b'] _. discriminate.
Qed.
Lemma fin_nodes : forall l, Forall (fun c => deep c <= d) l -> forall yes c, fin (process_nodes E C f rec l yes c).
Proof.
  induction 1 as [|k l Hk _ IH]; intros yes c; cbn [process_nodes]; [discriminate|]. destruct k as [k|]; [|apply IH]. cbn zeta. cbn [deep] in Hk.
  assert (Hgo : forall yes (x : res (graph * bytes * list bytes)), fin x ->
    fin (let* (c, o, d) := x in let* (c, o', d', brk) := process_nodes E C f rec l yes c in Ok (c, o ++ o', d ++ d', brk))).
  { intros y x Hx. apply fin_bind; [exact Hx|]. intros [[c1 o] dl] _. apply fin_bind; [apply IH|]. intros [[[c2 o'] d'] b] _. discriminate. }
  apply fin_bind; [apply fin_ThisString|]. intros s _.
  assert (He : fin (Eval E C f c (Some k))) by (apply fin_Eval_at; cbn [deep]; lia).
  destruct (bseq s TypePath); [apply Hgo; apply fin_bind; [exact He|]; intros [c1 r] _; apply fin_bind; [apply fin_text_of|]; intros; discriminate|].
  destruct (bseq s TypeExpression); [apply Hgo; apply fin_bind; [exact He|]; intros [c1 r] _; discriminate|].
  destruct (_ || _)%bool; [apply fin_bind; [apply fin_do_if, Hk|]; intros [[[c1 o] dl] y] _; apply (Hgo y (Ok (c1, o, dl))); discriminate|].
  destruct (bseq s TypeElseIf); [apply (Hgo yes (Ok (c, [], []))); discriminate|].
  destruct (bseq s TypeElse).
  { apply Hgo. destruct yes; [discriminate|]. apply fin_bind; [apply fin_GetAt|]. intros t Ht. apply deep_GetAt in Ht. cbn [deep] in Ht. pose proof (levels_pos k).
    apply fin_bind; [apply Hrec; lia|]. intros [[[c1 o] dl] y] _. discriminate. }
  destruct (bseq s TypeFor); [apply Hgo, fin_do_for, Hk|]. destruct (bseq s TypeBreak); [discriminate|]. apply (Hgo yes (Ok (c, s, []))). discriminate.
Qed.
End With.
Lemma fin_process : forall d t c, d <= n -> deep t <= d -> fin (process E C f (S d) t c).
Proof.
  induction d as [|d IH]; intros t c Hd H; cbn [process]; (destruct t as [t|]; [|discriminate]).
  - exfalso. pose proof (levels_pos t). cbn [deep] in H. lia.
  - change (match S d with O => _ | S d => _ end) with (process E C f (S d)). apply fin_nodes with (d := d); [lia| |].
    + intros t' c' Ht. apply IH; lia.
    + apply low_of. exact H.
Qed.
Lemma fin_Process t c : deep t <= n -> fin (Process E C f t c).
Proof.
  intros H. unfold Process. apply fin_bind; [|intros [[[c1 o] dl] y] _; discriminate]. pose proof (process_mono E C f f (le_n _) (S n) f t c Hf) as K.
  destruct K as [K|K]; [|rewrite <- K]; [|apply fin_process; [lia|exact H]]. exfalso. revert K. apply fin_process; [lia|exact H].
Qed.
End Process.
End Fin.
