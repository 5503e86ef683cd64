(** Facts about JSON output and input. *)
From Verif Require Import Base Value Graph TextSpec NumFacts TypesSpec TypesFacts Encoding JsonSpec.
From Coq Require Import SpecFloat.

(** ** Numbers *)
Lemma dec_digits_jnat fuel : forall n acc, 0 <= n < 10 ^ Z.of_nat fuel -> (0 < fuel)%nat -> Forall digit acc ->
  (n = 0 -> acc = []) -> jnat (dec_digits fuel n acc).
Proof.
  induction fuel as [|f IH]; intros n acc Hn Hf Ha Hz; [lia|]. cbn [dec_digits]. destruct (Z.ltb_spec n 10).
  - destruct (Z.eq_dec n 0) as [->|Hn0].
    + rewrite (Hz eq_refl). apply jn_zero.
    + apply jn_pos; [rewrite bz_digit by lia; lia|exact Ha].
  - assert (Hq : n = 10 * (n / 10) + n mod 10) by (apply Z.div_mod; lia).
    assert (Hr : 0 <= n mod 10 < 10) by (apply Z.mod_pos_bound; lia).
    rewrite Nat2Z.inj_succ, Z.pow_succ_r in Hn by lia.
    apply IH.
    + split; [lia|]. apply Z.div_lt_upper_bound; lia.
    + destruct f; [cbn in Hn; lia|lia].
    + constructor; [unfold digit; rewrite bz_digit by lia; lia|exact Ha].
    + intros H0. lia.
Qed.
Lemma format_nat_jnat n : 0 <= n -> jnat (format_nat n).
Proof.
  intros Hn. unfold format_nat. apply dec_digits_jnat; [|lia|constructor|reflexivity]. split; [exact Hn|].
  eapply Z.lt_le_trans; [apply log2_fuel; exact Hn|]. apply Z.pow_le_mono_l. lia.
Qed.
Lemma format_int_jnumber z : jnumber (format_int z).
Proof.
  unfold format_int. destruct (Z.ltb_spec z 0).
  - change ("-"%byte :: format_nat (- z)) with (["-"%byte] ++ format_nat (- z)). rewrite <- (app_nil_r (format_nat (- z))).
    rewrite <- (app_nil_r []) at 1. apply (jnum ["-"%byte] _ [] []); [right; left; reflexivity|apply format_nat_jnat; lia|constructor|constructor].
  - rewrite <- (app_nil_r (format_nat z)). rewrite <- (app_nil_r []) at 1.
    apply (jnum [] _ [] []); [left; reflexivity|apply format_nat_jnat; lia|constructor|constructor].
Qed.

(** ** Output *)
Section Output.
Variable E : env.
Variable fmt_f : spec_float -> bytes.
Notation json := (json E fmt_f).
Notation writeValue := (writeValue E fmt_f).

Lemma escape_jchars s : clean s -> jchars (escape s).
Proof.
  induction 1 as [|c s [H1 H2] _ IH]; [constructor|]. cbn [escape]. destruct (beq_spec c x22) as [->|Hc].
  - apply jc_escape; [left; reflexivity|exact IH].
  - apply jc_plain; assumption.
Qed.
Lemma writeString_tidy v : tidy E v -> exists k, writeString E v = Ok (x22 :: k ++ [x22; x20]) /\ jchars k.
Proof. intros (s & Hs & Hc). unfold writeString. rewrite Hs. cbn [rbind]. eexists. split; [reflexivity|apply escape_jchars; exact Hc]. Qed.
Lemma ws1 : ws [x20]. Proof. repeat constructor. Qed.
Lemma writeValue_ok v : writable E fmt_f v -> exists s, writeValue v = Ok (s ++ [x20]) /\ jvalue s.
Proof.
  intros H.
  assert (Ht : tidy E v -> exists s, writeString E v = Ok (s ++ [x20]) /\ jvalue s).
  { intros Hv. destruct (writeString_tidy v Hv) as (k & -> & Hk). exists (x22 :: k ++ [x22]). split; [|apply jv_string; exact Hk].
    cbn [app]. rewrite <- app_assoc. reflexivity. }
  unfold writeValue, Encoding.writeValue. destruct v; cbn [v_int64 v_float64 writable] in *; try exact (Ht H).
  - eexists. split; [reflexivity|]. apply jv_number, format_int_jnumber.
  - eexists. split; [reflexivity|]. apply jv_number, H.
  - eexists. split; [reflexivity|]. apply jv_number, H.
Qed.

Fixpoint jloop (o : list (option graph)) (comma : bool) : res bytes :=
  match o with
  | [] => Ok []
  | n :: o' =>
      let sep := if comma then bs ", " else [] in
      match n with
      | None => Panic
      | Some n =>
          match out n with
          | [] => let* s := writeValue (this n) in let* r := jloop o' comma in Ok (sep ++ s ++ r)
          | [_] =>
              let* s := writeString E (this n) in let* t := json n in let* r := jloop o' true in
              Ok (sep ++ s ++ bs ": " ++ t ++ r)
          | _ => let* t := json n in let* r := jloop o' true in Ok (sep ++ t ++ r)
          end
      end
  end.
Lemma json_eq v c o : json (Node v (c :: o)) =
  let* s := vstring E v in
  if bseq s (bs "_") then let* r := jloop (c :: o) false in Ok (bs "[ " ++ r ++ bs "]")
  else if (1 <? List.length (c :: o))%nat then let* r := jloop (c :: o) false in Ok (bs "{ " ++ r ++ bs "}")
  else jloop (c :: o) false.
Proof. reflexivity. Qed.

(** [json g] writes a value and perhaps a blank. *)
Definition writes (g : graph) : Prop := exists v w, json g = Ok (v ++ w) /\ jvalue v /\ ws w.
Lemma leaf_writes g : leaf E fmt_f g -> writes g /\ out g = [] /\ exists s, writeValue (this g) = Ok (s ++ [x20]) /\ jvalue s.
Proof.
  intros [v Hv]. destruct (writeValue_ok v Hv) as (s & H & Hs). cbn [out this]. split; [|split; [reflexivity|eauto]].
  exists s, [x20]. split; [exact H|]. split; [exact Hs|exact ws1].
Qed.
Lemma composite_len g : composite E fmt_f g -> (2 <= List.length (out g))%nat.
Proof. destruct 1; cbn [out]; rewrite map_length; assumption. Qed.

(** a value in the middle of the loop *)
Lemma jloop_value n o comma : writes n -> (out n = [] -> exists s, writeValue (this n) = Ok (s ++ [x20]) /\ jvalue s) -> List.length (out n) <> 1%nat ->
  exists v w, jvalue v /\ ws w /\ jloop (Some n :: o) comma =
    let* r := jloop o (comma || (2 <=? List.length (out n))%nat) in Ok ((if comma then bs ", " else []) ++ (v ++ w) ++ r).
Proof.
  intros (v & w & Hj & Hv & Hw) Hl Hn. destruct (out n) as [|a [|b k]] eqn:Ho; [|contradiction Hn; reflexivity|].
  - destruct (Hl eq_refl) as (s & Hs & Hsv). exists s, [x20]. split; [exact Hsv|]. split; [exact ws1|]. cbn [jloop]. rewrite Ho, Hs. cbn [rbind].
    cbn [List.length Nat.leb]. rewrite orb_false_r. reflexivity.
  - exists v, w. split; [exact Hv|]. split; [exact Hw|]. cbn [jloop]. rewrite Ho, Hj. cbn [rbind List.length Nat.leb]. rewrite orb_true_r. reflexivity.
Qed.
Lemma jloop_single n : writes n -> (out n = [] -> exists s, writeValue (this n) = Ok (s ++ [x20]) /\ jvalue s) -> List.length (out n) <> 1%nat ->
  exists v w, jloop [Some n] false = Ok (v ++ w) /\ jvalue v /\ ws w.
Proof.
  intros H1 H2 H3. destruct (jloop_value n [] false H1 H2 H3) as (v & w & Hv & Hw & ->). exists v, w. cbn [jloop rbind app].
  rewrite app_nil_r. auto.
Qed.
Definition good (n : graph) : Prop := writes n /\ (out n = [] -> exists s, writeValue (this n) = Ok (s ++ [x20]) /\ jvalue s) /\ List.length (out n) <> 1%nat.
Lemma leaf_good n : leaf E fmt_f n -> good n.
Proof. intros H. destruct (leaf_writes n H) as (H1 & H2 & H3). split; [exact H1|]. split; [auto|]. rewrite H2. discriminate. Qed.
Lemma composite_good n : writes n -> composite E fmt_f n -> good n.
Proof. intros H1 H2. apply composite_len in H2. split; [exact H1|]. split; [|lia]. intros H. rewrite H in H2. cbn in H2. lia. Qed.

(** a field *)
Lemma field_json v n : good n -> tidy E v -> writes (Node v [Some n]).
Proof.
  intros (H1 & H2 & H3) (s & Hs & _). unfold writes. rewrite json_eq, Hs. cbn [rbind List.length Nat.ltb Nat.leb].
  destruct (jloop_single n H1 H2 H3) as (x & w & -> & Hx & Hw). destruct (bseq s (bs "_")); cbn [rbind].
  - exists (bs "[ " ++ (x ++ w) ++ bs "]"), []. rewrite app_nil_r. split; [reflexivity|]. split; [|constructor].
    change (jvalue ("["%byte :: ([x20] ++ x ++ w) ++ ["]"%byte])). apply jv_array, jl_one; [exact ws1|exact Hx|exact Hw].
  - exists x, w. auto.
Qed.
Lemma ws_app a b : ws a -> ws b -> ws (a ++ b).
Proof. intros H1 H2. apply Forall_app. auto. Qed.
Lemma ws_cons a : ws a -> ws (x20 :: a).
Proof. intros H. constructor; [left; reflexivity|exact H]. Qed.
(** the fields of a record *)
Lemma fields_members k : k <> [] -> Forall (fun n => exists v m, n = Node v [Some m] /\ good m /\ tidy E v) k -> forall comma p,
  ws p -> exists r, jloop (map Some k) comma = Ok ((if comma then bs ", " else []) ++ r) /\ jmembers (p ++ r).
Proof.
  intros Hk H. induction k as [|n k IH]; [congruence|]. clear Hk. intros comma p Hp.
  inversion H as [|? ? (v & m & -> & Hg & Ht) Hrest]; subst. clear H.
  destruct (writeString_tidy v Ht) as (q & Hq & Hqc). destruct (field_json v m Hg Ht) as (x & w & Hx & Hxv & Hw).
  cbn [map jloop out this]. rewrite Hq, Hx. cbn [rbind].
  destruct k as [|n' k].
  - cbn [map jloop rbind]. exists ((x22 :: q ++ [x22; x20]) ++ bs ": " ++ x ++ w). split; [rewrite app_nil_r, <- ?app_assoc; reflexivity|].
    replace (p ++ (x22 :: q ++ [x22; x20]) ++ bs ": " ++ x ++ w) with (p ++ x22 :: q ++ x22 :: [x20] ++ ":"%byte :: [x20] ++ x ++ w).
    + apply jm_one; auto using ws1.
    + cbn [app]. rewrite <- ?app_assoc. reflexivity.
  - destruct (IH ltac:(discriminate) Hrest true [x20] ws1) as (r & -> & Hr). cbn [rbind].
    exists ((x22 :: q ++ [x22; x20]) ++ bs ": " ++ (x ++ w) ++ bs ", " ++ r). split; [rewrite <- ?app_assoc; reflexivity|].
    replace (p ++ (x22 :: q ++ [x22; x20]) ++ bs ": " ++ (x ++ w) ++ bs ", " ++ r)
      with (p ++ x22 :: q ++ x22 :: [x20] ++ ":"%byte :: [x20] ++ x ++ w ++ ","%byte :: [x20] ++ r).
    + apply jm_more; auto using ws1.
    + cbn [app]. rewrite <- ?app_assoc. cbn [app]. rewrite <- ?app_assoc. reflexivity.
Qed.
(** the entries of a list *)
Lemma entries_elements k : k <> [] -> Forall (fun n => good n /\ (2 <= List.length (out n))%nat) (removelast k) -> (forall d, good (last k d)) -> forall comma p,
  ws p -> exists r, jloop (map Some k) comma = Ok ((if comma then bs ", " else []) ++ r) /\ jelements (p ++ r).
Proof.
  intros Hk. induction k as [|n k IH]; [congruence|]. clear Hk. intros Hi Hl comma p Hp. destruct k as [|n' k].
  - specialize (Hl n). cbn [last] in Hl. destruct Hl as (H1 & H2 & H3). cbn [map].
    destruct (jloop_value n [] comma H1 H2 H3) as (v & w & Hv & Hw & ->). exists (v ++ w). cbn [jloop rbind]. rewrite app_nil_r.
    split; [reflexivity|]. apply jl_one; assumption.
  - cbn [removelast] in Hi. inversion Hi as [|? ? [(H1 & H2 & H3) Hn] Hi']; subst.
    change (last (n :: n' :: k)) with (last (n' :: k)) in Hl.
    change (map Some (n :: n' :: k)) with (Some n :: map Some (n' :: k)).
    destruct (jloop_value n (map Some (n' :: k)) comma H1 H2 H3) as (v & w & Hv & Hw & ->).
    replace (2 <=? List.length (out n))%nat with true by (symmetry; apply Nat.leb_le; exact Hn). rewrite orb_true_r.
    destruct (IH ltac:(discriminate) Hi' Hl true [x20] ws1) as (r & -> & Hr). cbn [rbind].
    exists ((v ++ w) ++ bs ", " ++ r). split; [rewrite <- ?app_assoc; reflexivity|].
    replace (p ++ (v ++ w) ++ bs ", " ++ r) with (p ++ v ++ w ++ ","%byte :: [x20] ++ r) by (rewrite <- !app_assoc; reflexivity).
    apply jl_more; assumption.
Qed.

Lemma composite_field g : (composite E fmt_f g -> writes g) /\
  (field E fmt_f g -> exists v m, g = Node v [Some m] /\ good m /\ tidy E v).
Proof.
  induction g as [v o _ IH] using graph_ind'. split; intros H.
  - inversion H as [v' s k Hs Hu Hl Hk|v' k Hs Hl Hk Hlast]; subst.
    + assert (Hf : Forall (fun n => exists v m, n = Node v [Some m] /\ good m /\ tidy E v) k).
      { clear -Hk IH. induction Hk as [|n k Hn _ IHk]; constructor.
        - apply Forall_inv in IH. apply IH, Hn.
        - apply IHk. exact (Forall_inv_tail IH). }
      destruct k as [|n [|n' k]]; cbn [List.length] in Hl; try lia. unfold writes. cbn [map]. rewrite json_eq, Hs. cbn [rbind].
      apply bseq_neq in Hu. rewrite Hu.
      change (Some n :: Some n' :: map Some k) with (map Some (n :: n' :: k)).
      replace (1 <? List.length (map Some (n :: n' :: k)))%nat with true by (rewrite map_length; reflexivity).
      destruct (fields_members (n :: n' :: k) ltac:(discriminate) Hf false [x20] ws1) as (r & -> & Hr). cbn [rbind app].
      exists ("{"%byte :: ([x20] ++ r) ++ ["}"%byte]), []. split; [rewrite app_nil_r; reflexivity|]. split; [apply jv_object; exact Hr|constructor].
    + assert (Hg : forall n, In n k -> leaf E fmt_f n \/ composite E fmt_f n -> good n).
      { intros n Hin [Hn|Hn]; [apply leaf_good; exact Hn|]. rewrite Forall_forall in IH. apply composite_good; [|exact Hn].
        apply (IH (Some n)); [apply in_map; exact Hin|exact Hn]. }
      assert (Hne : k <> []) by (destruct k; [cbn in Hl; lia|discriminate]).
      destruct (entries_elements k) with (comma := false) (p := [x20]) as (r & Hr & Hel).
      * exact Hne.
      * rewrite Forall_forall in *. intros n Hin. assert (Hc := Hk n Hin). split; [|apply composite_len; exact Hc]. apply Hg; [|auto].
        rewrite (app_removelast_last n Hne). apply in_or_app. left. exact Hin.
      * intros d. apply Hg; [|apply Hlast]. rewrite (app_removelast_last d Hne) at 2. apply in_or_app. right. left. reflexivity.
      * exact ws1.
      * unfold writes. destruct k as [|n k]; [congruence|]. cbn [map] in *. rewrite json_eq, Hs. cbn [rbind]. rewrite bseq_refl, Hr. cbn [rbind app].
        exists ("["%byte :: ([x20] ++ r) ++ ["]"%byte]), []. split; [rewrite app_nil_r; reflexivity|]. split; [apply jv_array; exact Hel|constructor].
  - inversion H as [v' n Ht Hn]; subst. exists v, n. split; [reflexivity|]. split; [|exact Ht]. apply Forall_inv in IH. cbn in IH.
    destruct Hn as [Hn|Hn]; [apply leaf_good; exact Hn|]. apply composite_good; [apply IH; exact Hn|exact Hn].
Qed.
Lemma any_good n : leaf E fmt_f n \/ composite E fmt_f n -> good n.
Proof. intros [H|H]; [apply leaf_good; exact H|]. apply composite_good; [apply composite_field; exact H|exact H]. Qed.

Lemma JSON_document t o : document E fmt_f o -> exists s, JSON E fmt_f (Some (Node t o)) = (Some (Node t o), Ok (Some s)) /\ wellformed s.
Proof.
  intros H. assert (Hw : exists s, json (Node (VStr []) o) = Ok s /\ wellformed s).
  { destruct H as [|n Hn|k Hl Hk].
    - exists (bs """"" "). split; [reflexivity|]. apply (wf_text [] [x22; x22] [x20]); [constructor|apply (jv_string []); constructor|exact ws1].
    - destruct (any_good n Hn) as (H1 & H2 & H3). destruct (jloop_single n H1 H2 H3) as (v & w & Hj & Hv & Hw).
      exists (v ++ w). split; [rewrite json_eq; exact Hj|]. apply (wf_text [] v w); [constructor|exact Hv|exact Hw].
    - assert (Hf : Forall (fun n => exists v m, n = Node v [Some m] /\ good m /\ tidy E v) k).
      { revert Hk. apply Forall_impl. intros n. apply composite_field. }
      destruct k as [|n [|n' k]]; cbn [List.length] in Hl; try lia.
      destruct (fields_members (n :: n' :: k) ltac:(discriminate) Hf false [x20] ws1) as (r & Hr & Hm).
      exists ("{"%byte :: ([x20] ++ r) ++ ["}"%byte]). split.
      + cbn [map] in *. rewrite json_eq. cbn [vstring sstring rbind]. change (bseq [] (bs "_")) with false. cbv iota.
        cbn [List.length Nat.ltb Nat.leb]. rewrite Hr. reflexivity.
      + rewrite <- (app_nil_r ("{"%byte :: _)). apply (wf_text [] ("{"%byte :: ([x20] ++ r) ++ ["}"%byte]) []); [constructor|apply jv_object; exact Hm|constructor]. }
  destruct Hw as (s & Hs & Hwf). exists s. unfold JSON. rewrite Hs. auto.
Qed.
Lemma JSON_unchanged g g' s : JSON E fmt_f g = (g', Ok s) -> g' = g.
Proof. destruct g as [[i o]|]; cbn [JSON]; [destruct (json (Node (VStr []) o))|]; congruence. Qed.
End Output.

(** ** A checker that accepts every JSON text (and some more) *)
Definition blankb (c : byte) : bool := beq c x20 || beq c x09 || beq c x0a || beq c x0d.
Definition wordb (c : byte) : bool :=
  ((48 <=? bz c) && (bz c <=? 57)) || ((97 <=? bz c) && (bz c <=? 122)) || beq c "E" || beq c "+" || beq c "-" || beq c ".".
Fixpoint skip (p : byte -> bool) (s : bytes) : bytes := match s with [] => [] | c :: s' => if p c then skip p s' else s end.
Fixpoint close_string (s : bytes) : option bytes :=
  match s with
  | [] => None
  | c :: s' => if beq c x22 then Some s'
               else if beq c "\" then match s' with _ :: s'' => close_string s'' | [] => None end
               else close_string s'
  end.
Fixpoint check_value (f : nat) (s : bytes) {struct f} : option bytes :=
  match f with
  | O => None
  | S f =>
      match s with
      | [] => None
      | c :: s' =>
          if beq c x22 then close_string s'
          else if beq c "[" then
            match skip blankb s' with
            | d :: r => if beq d "]" then Some r else check_elements f (d :: r)
            | [] => None
            end
          else if beq c "{" then
            match skip blankb s' with
            | d :: r => if beq d "}" then Some r else check_members f (d :: r)
            | [] => None
            end
          else if wordb c then Some (skip wordb s') else None
      end
  end
with check_elements (f : nat) (s : bytes) {struct f} : option bytes :=
  match f with
  | O => None
  | S f =>
      match check_value f s with
      | None => None
      | Some r =>
          match skip blankb r with
          | c :: r' => if beq c "," then check_elements f (skip blankb r') else if beq c "]" then Some r' else None
          | [] => None
          end
      end
  end
with check_members (f : nat) (s : bytes) {struct f} : option bytes :=
  match f with
  | O => None
  | S f =>
      match s with
      | [] => None
      | c :: s' =>
          if beq c x22 then
            match close_string s' with
            | None => None
            | Some r =>
                match skip blankb r with
                | [] => None
                | c :: r =>
                    if beq c ":" then
                      match check_value f (skip blankb r) with
                      | None => None
                      | Some r =>
                          match skip blankb r with
                          | c :: r' => if beq c "," then check_members f (skip blankb r') else if beq c "}" then Some r' else None
                          | [] => None
                          end
                      end
                    else None
                end
            end
          else None
      end
  end.
Definition check_text (s : bytes) : bool :=
  match check_value (S (List.length s)) (skip blankb s) with
  | Some r => match skip blankb r with [] => true | _ => false end
  | None => false
  end.

Scheme jvalue_mut := Induction for jvalue Sort Prop
  with jelements_mut := Induction for jelements Sort Prop
  with jmembers_mut := Induction for jmembers Sort Prop.
Combined Scheme json_mut from jvalue_mut, jelements_mut, jmembers_mut.

Lemma skip_ws w s : ws w -> skip blankb (w ++ s) = skip blankb s.
Proof.
  induction 1 as [|c w Hc _ IH]; [reflexivity|]. cbn [app skip].
  replace (blankb c) with true; [exact IH|]. destruct Hc as [<-|[<-|[<-|[<-|[]]]]]; reflexivity.
Qed.
Lemma skip_stop c s : blankb c = false -> skip blankb (c :: s) = c :: s.
Proof. intros H. cbn [skip]. rewrite H. reflexivity. Qed.
Lemma close_jchars k : jchars k -> forall rest, close_string (k ++ x22 :: rest) = Some rest.
Proof.
  induction 1 as [|c s H1 H2 H3 _ IH|c s Hc _ IH|a b c d s Ha Hb Hc Hd _ IH]; intros rest; cbn [app close_string].
  - reflexivity.
  - apply beq_neq in H2, H3. rewrite H2, H3. apply IH.
  - change (beq "\" x22) with false. change (beq "\" "\") with true. cbv iota. apply IH.
  - change (beq "\" x22) with false. change (beq "\" "\") with true. cbv iota.
    assert (Hh : forall c, hex c -> beq c x22 = false /\ beq c "\" = false).
    { intros x Hx. split; apply beq_neq; intros ->; unfold hex in Hx; cbn in Hx; lia. }
    cbn [close_string]. repeat match goal with H : hex ?c |- _ => destruct (Hh c H) as [-> ->]; clear H end. apply IH.
Qed.

Definition word (s : bytes) : Prop := s <> [] /\ Forall (fun c => wordb c = true) s.
Definition stop (s : bytes) : Prop := match s with [] => True | c :: _ => wordb c = false end.
Lemma digit_word c : digit c -> wordb c = true.
Proof. unfold digit, wordb. intros [H1 H2]. apply Z.leb_le in H1, H2. rewrite H1, H2. reflexivity. Qed.
Lemma digits_word s : Forall digit s -> Forall (fun c => wordb c = true) s.
Proof. apply Forall_impl. exact digit_word. Qed.
Lemma jnumber_word s : jnumber s -> word s.
Proof.
  intros [g n f e Hg Hn Hf He]. split.
  - destruct Hg as [<-|[<-|[]]]; [|discriminate]. destruct Hn; discriminate.
  - repeat rewrite Forall_app. repeat split.
    + destruct Hg as [<-|[<-|[]]]; repeat constructor.
    + destruct Hn as [|c q Hc Hs]; [repeat constructor|]. constructor; [apply digit_word; unfold digit; lia|apply digits_word; exact Hs].
    + destruct Hf as [|c q Hc Hs]; [constructor|]. constructor; [reflexivity|]. constructor; [apply digit_word; exact Hc|apply digits_word; exact Hs].
    + destruct He as [|e g' c q Hx Hg' Hc Hs]; [constructor|]. constructor; [destruct Hx as [<-|[<-|[]]]; reflexivity|].
      apply Forall_app. split; [destruct Hg' as [<-|[<-|[<-|[]]]]; repeat constructor|].
      constructor; [apply digit_word; exact Hc|apply digits_word; exact Hs].
Qed.
Lemma skip_word s rest : Forall (fun c => wordb c = true) s -> stop rest -> skip wordb (s ++ rest) = rest.
Proof.
  intros H Hr. induction H as [|c s Hc _ IH].
  - destruct rest as [|d rest]; [reflexivity|]. cbn [app skip]. cbn in Hr. rewrite Hr. reflexivity.
  - cbn [app skip]. rewrite Hc. exact IH.
Qed.
Lemma check_word s f rest : word s -> stop rest -> (0 < f)%nat -> check_value f (s ++ rest) = Some rest.
Proof.
  intros [Hn Hs] Hr Hf. destruct f as [|f]; [lia|]. destruct Hs as [|c s Hc Hs]; [congruence|]. cbn [app check_value].
  assert (Hx : beq c x22 = false /\ beq c "[" = false /\ beq c "{" = false).
  { repeat split; apply beq_neq; intros ->; discriminate. }
  destruct Hx as (-> & -> & ->). rewrite Hc, skip_word by assumption. reflexivity.
Qed.
(** the first byte of a value *)
Lemma value_head v : jvalue v -> exists c v', v = c :: v' /\ blankb c = false /\ beq c "]" = false /\ beq c "}" = false.
Proof.
  assert (Hw : forall s, word s -> exists c v', s = c :: v' /\ blankb c = false /\ beq c "]" = false /\ beq c "}" = false).
  { intros s [Hn Hs]. destruct Hs as [|c s Hc _]; [congruence|]. exists c, s. split; [reflexivity|]. repeat split.
    - unfold blankb. rewrite !orb_false_iff. repeat split; apply beq_neq; intros ->; discriminate.
    - apply beq_neq; intros ->; discriminate.
    - apply beq_neq; intros ->; discriminate. }
  destruct 1; try (do 2 eexists; split; [reflexivity|]; repeat split; fail).
  apply Hw, jnumber_word. assumption.
Qed.
Lemma elements_head s : jelements s -> exists w c r, s = w ++ c :: r /\ ws w /\ blankb c = false /\ beq c "]" = false.
Proof.
  destruct 1 as [w v w' Hw Hv _|w v w' s Hw Hv _ _]; destruct (value_head v Hv) as (c & v' & -> & H1 & H2 & _); exists w, c; eexists; (split; [reflexivity|]); auto.
Qed.
Lemma members_head s : jmembers s -> exists w r, s = w ++ x22 :: r /\ ws w.
Proof. destruct 1; do 2 eexists; (split; [reflexivity|assumption]). Qed.
Lemma stop_ws w rest : ws w -> stop rest -> stop (w ++ rest).
Proof. destruct 1 as [|c w Hc _]; intros H; [exact H|]. cbn. destruct Hc as [<-|[<-|[<-|[<-|[]]]]]; reflexivity. Qed.

Lemma check_complete :
  (forall v, jvalue v -> forall rest f, stop rest -> (List.length v <= f)%nat -> check_value f (v ++ rest) = Some rest) /\
  (forall s, jelements s -> forall rest f, (List.length s < f)%nat -> check_elements f (skip blankb (s ++ "]"%byte :: rest)) = Some rest) /\
  (forall s, jmembers s -> forall rest f, (List.length s < f)%nat -> check_members f (skip blankb (s ++ "}"%byte :: rest)) = Some rest).
Proof.
  apply json_mut.
  - intros rest f Hr Hf. apply check_word; [split; [discriminate|repeat constructor]|exact Hr|cbn in Hf; lia].
  - intros rest f Hr Hf. apply check_word; [split; [discriminate|repeat constructor]|exact Hr|cbn in Hf; lia].
  - intros rest f Hr Hf. apply check_word; [split; [discriminate|repeat constructor]|exact Hr|cbn in Hf; lia].
  - intros s Hs rest f Hr Hf. apply jnumber_word in Hs. apply check_word; [exact Hs|exact Hr|]. destruct Hs as [Hs _]. destruct s; [congruence|cbn in Hf; lia].
  - intros s Hs rest f Hr Hf. destruct f as [|f]; [cbn in Hf; lia|]. cbn [app check_value]. change (beq x22 x22) with true. cbv iota.
    rewrite <- app_assoc. apply close_jchars. exact Hs.
  - intros w Hw rest f Hr Hf. destruct f as [|f]; [cbn in Hf; lia|]. cbn [app check_value]. change (beq "[" x22) with false. change (beq "[" "[") with true. cbv iota.
    rewrite <- app_assoc, skip_ws by exact Hw. reflexivity.
  - intros s Hs IH rest f Hr Hf. destruct f as [|f]; [cbn in Hf; lia|]. cbn [app check_value]. change (beq "[" x22) with false. change (beq "[" "[") with true. cbv iota.
    rewrite <- app_assoc. cbn [app]. cbn [List.length] in Hf. rewrite app_length in Hf. cbn [List.length] in Hf.
    specialize (IH rest f ltac:(lia)). destruct (elements_head s Hs) as (w & c & r & -> & Hw & Hc & Hb).
    rewrite <- app_assoc in *. rewrite skip_ws in * by exact Hw. cbn [app] in *. rewrite skip_stop in * by exact Hc. rewrite Hb. exact IH.
  - intros w Hw rest f Hr Hf. destruct f as [|f]; [cbn in Hf; lia|]. cbn [app check_value]. change (beq "{" x22) with false. change (beq "{" "[") with false. change (beq "{" "{") with true. cbv iota.
    rewrite <- app_assoc, skip_ws by exact Hw. reflexivity.
  - intros s Hs IH rest f Hr Hf. destruct f as [|f]; [cbn in Hf; lia|]. cbn [app check_value]. change (beq "{" x22) with false. change (beq "{" "[") with false. change (beq "{" "{") with true. cbv iota.
    rewrite <- app_assoc. cbn [app]. cbn [List.length] in Hf. rewrite app_length in Hf. cbn [List.length] in Hf.
    specialize (IH rest f ltac:(lia)). destruct (members_head s Hs) as (w & r & -> & Hw).
    rewrite <- app_assoc in *. rewrite skip_ws in * by exact Hw. cbn [app] in *. rewrite skip_stop in * by reflexivity. exact IH.
  - intros w v w' Hw Hv IH Hw' rest f Hf. destruct f as [|f]; [lia|]. rewrite !app_length in Hf.
    rewrite <- !app_assoc, skip_ws by exact Hw. destruct (value_head v Hv) as (c & v' & Hve & Hc & _).
    replace (skip blankb (v ++ w' ++ "]"%byte :: rest)) with (v ++ w' ++ "]"%byte :: rest) by (rewrite Hve; symmetry; apply skip_stop; exact Hc).
    cbn [check_elements]. rewrite IH; [|apply stop_ws; [exact Hw'|reflexivity]|lia]. rewrite skip_ws by exact Hw'. reflexivity.
  - intros w v w' s Hw Hv IH Hw' Hs IHs rest f Hf. destruct f as [|f]; [lia|]. rewrite !app_length in Hf. cbn [List.length] in Hf.
    rewrite <- !app_assoc, skip_ws by exact Hw. destruct (value_head v Hv) as (c & v' & Hve & Hc & _).
    replace (skip blankb (v ++ w' ++ (","%byte :: s) ++ "]"%byte :: rest)) with (v ++ w' ++ (","%byte :: s) ++ "]"%byte :: rest) by (rewrite Hve; symmetry; apply skip_stop; exact Hc).
    cbn [check_elements]. rewrite IH; [|apply stop_ws; [exact Hw'|reflexivity]|lia]. rewrite skip_ws by exact Hw'. cbn [app].
    rewrite skip_stop by reflexivity. change (beq "," ",") with true. cbv iota. apply IHs. lia.
  - intros w k w1 w2 v w' Hw Hk Hw1 Hw2 Hv IH Hw' rest f Hf. destruct f as [|f]; [lia|]. rewrite !app_length in Hf. cbn [List.length] in Hf. rewrite !app_length in Hf. cbn [List.length] in Hf. rewrite !app_length in Hf. cbn [List.length] in Hf. rewrite !app_length in Hf.
    rewrite <- !app_assoc, skip_ws by exact Hw. cbn [app]. rewrite skip_stop by reflexivity. rewrite <- !app_assoc. cbn [app]. rewrite <- !app_assoc. cbn [app]. rewrite <- !app_assoc.
    cbn [check_members]. change (beq x22 x22) with true. cbv iota. rewrite close_jchars by exact Hk. rewrite skip_ws by exact Hw1. rewrite skip_stop by reflexivity.
    change (beq ":" ":") with true. cbv iota. rewrite skip_ws by exact Hw2. destruct (value_head v Hv) as (c & v' & Hve & Hc & _).
    replace (skip blankb (v ++ w' ++ "}"%byte :: rest)) with (v ++ w' ++ "}"%byte :: rest) by (rewrite Hve; symmetry; apply skip_stop; exact Hc).
    rewrite IH; [|apply stop_ws; [exact Hw'|reflexivity]|lia]. rewrite skip_ws by exact Hw'. reflexivity.
  - intros w k w1 w2 v w' s Hw Hk Hw1 Hw2 Hv IH Hw' Hs IHs rest f Hf. destruct f as [|f]; [lia|].
    repeat (rewrite !app_length in Hf; cbn [List.length] in Hf).
    rewrite <- !app_assoc, skip_ws by exact Hw. cbn [app]. rewrite skip_stop by reflexivity. rewrite <- !app_assoc. cbn [app]. rewrite <- !app_assoc. cbn [app]. rewrite <- !app_assoc.
    cbn [check_members]. change (beq x22 x22) with true. cbv iota. rewrite close_jchars by exact Hk. rewrite skip_ws by exact Hw1. rewrite skip_stop by reflexivity.
    change (beq ":" ":") with true. cbv iota. rewrite skip_ws by exact Hw2. destruct (value_head v Hv) as (c & v' & Hve & Hc & _). cbn [app].
    replace (skip blankb (v ++ w' ++ ","%byte :: s ++ "}"%byte :: rest)) with (v ++ w' ++ ","%byte :: s ++ "}"%byte :: rest) by (rewrite Hve; symmetry; apply skip_stop; exact Hc).
    rewrite IH; [|apply stop_ws; [exact Hw'|reflexivity]|lia]. rewrite skip_ws by exact Hw'. rewrite skip_stop by reflexivity.
    change (beq "," ",") with true. cbv iota. apply IHs. lia.
Qed.
Lemma check_wellformed s : wellformed s -> check_text s = true.
Proof.
  intros [w v w' Hw Hv Hw']. unfold check_text. rewrite skip_ws by exact Hw. destruct (value_head v Hv) as (c & v' & Hve & Hc & _).
  replace (skip blankb (v ++ w')) with (v ++ w') by (rewrite Hve; symmetry; apply skip_stop; exact Hc).
  rewrite (proj1 check_complete v Hv).
  - rewrite <- (app_nil_r w'), skip_ws by exact Hw'. reflexivity.
  - rewrite <- (app_nil_r w'). apply stop_ws; [exact Hw'|exact I].
  - rewrite !app_length. lia.
Qed.

(** ** Input *)
Section Input.
Variable E : env.
Section jdoc_ind'.
Variable P : jdoc -> Prop.
Hypothesis H0 : P JNull.
Hypothesis H1 : forall b, P (JBool b).
Hypothesis H2 : forall s, P (JNum s).
Hypothesis H3 : forall s, P (JStr s).
Hypothesis H4 : forall l, Forall P l -> P (JArr l).
Hypothesis H5 : forall l, Forall (fun m => P (snd m)) l -> P (JObj l).
Fixpoint jdoc_ind' (d : jdoc) : P d :=
  match d with
  | JNull => H0 | JBool b => H1 b | JNum s => H2 s | JStr s => H3 s
  | JArr l => H4 l ((fix go l : Forall P l := match l with [] => Forall_nil _ | d :: l' => Forall_cons d (jdoc_ind' d) (go l') end) l)
  | JObj l => H5 l ((fix go l : Forall (fun m => P (snd m)) l :=
      match l with [] => Forall_nil _ | m :: l' => Forall_cons m (jdoc_ind' (snd m)) (go l') end) l)
  end.
End jdoc_ind'.
Lemma toGraph_kept d : numbers_ok E d -> kept E d (out (toGraph E d)).
Proof.
  induction d as [|b|s|s|l IH|l IH] using jdoc_ind'; intros H; cbn [toGraph out]; try (constructor; fail).
  - destruct (parse_int s) as [z|] eqn:Hp; [apply ke_int, parse_int_iff; exact Hp|].
    assert (Hn : forall z, ~ numeral s z) by (intros z Hz; apply parse_int_iff in Hz; congruence).
    inversion H as [| | |s' z Hz|s' f Hf| |]; subst; [destruct (Hn z Hz)|]. rewrite Hf. apply ke_float; assumption.
  - inversion H as [| | | | |l' Hl|]; subst. apply ke_arr. clear H. induction IH as [|d l Hd _ IHl]; [constructor|].
    constructor.
    + apply Forall_inv in Hl. specialize (Hd Hl). exists (out (toGraph E d)). split; [|exact Hd]. destruct d; reflexivity.
    + apply IHl. exact (Forall_inv_tail Hl).
  - inversion H as [| | | | | |l' Hl]; subst. apply ke_obj. clear H. induction IH as [|[k d] l Hd _ IHl]; [constructor|].
    constructor.
    + apply Forall_inv in Hl. specialize (Hd Hl). exists (out (toGraph E d)). split; [reflexivity|exact Hd].
    + apply IHl. exact (Forall_inv_tail Hl).
Qed.
End Input.
