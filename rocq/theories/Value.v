(** Go values stored in graph nodes, the Graph type itself, and the scalar
    conversions of gettypes.go. *)
From Verif Require Import Base.
From Coq Require Export Floats.SpecFloat.

(** ** Dynamic types *)

(** Integer kinds recognised by gettypes.go:498-525. *)
Inductive ikind :=
| KInt | KInt8 | KInt16 | KInt32 | KInt64
| KUint | KUint8 | KUint16 | KUint32 | KUint64.

(** Content of an [interface{}].  [P] is the type of *Graph referents.
    Simplification: all dynamic types that ogdl does not distinguish are [VOther]
    (comparable, printed by an opaque fmt.Sprint); [VFun] stands for Go functions
    and [VObj] for pointers to Go objects other than Graph. *)
Inductive value (P : Type) : Type :=
| VNil
| VStr (s : bytes)
| VBytes (s : bytes)
| VBool (b : bool)
| VInt (k : ikind) (z : Z)
| VF32 (f : spec_float)
| VF64 (f : spec_float)
| VPtr (p : option P)      (* a *Graph; None is the typed nil pointer *)
| VFun (id : N)
| VObj (id : N)
| VOther (id : N).
Arguments VNil {P}. Arguments VStr {P}. Arguments VBytes {P}. Arguments VBool {P}.
Arguments VInt {P}. Arguments VF32 {P}. Arguments VF64 {P}. Arguments VPtr {P}.
Arguments VFun {P}. Arguments VObj {P}. Arguments VOther {P}.

(** graph.go:15-18.  [out] may contain nil pointers ([None]).
    Simplification: a value of type [graph] is a finite tree; sharing of nodes is
    the subject of Heap.v.  A nil slice and an empty slice are both []. *)
Inductive graph : Type :=
| Node (this : value graph) (out : list (option graph)).

Definition this (g : graph) : value graph := match g with Node t _ => t end.
Definition out (g : graph) : list (option graph) := match g with Node _ o => o end.

(** graph.go:21-23 *)
Definition New (v : value graph) : graph := Node v [].

(** graph.go:26-31: -1 on a nil receiver *)
Definition Len (g : option graph) : Z :=
  match g with None => -1 | Some g => Z.of_nat (List.length (out g)) end.

(** Library behaviour that is not transcribed: theorems quantify over it. *)
Record env : Type := {
  sprint_f32 : spec_float -> bytes;       (* fmt.Sprint on float32 *)
  sprint_f64 : spec_float -> bytes;       (* fmt.Sprint on float64 *)
  sprint_fun : N -> bytes;
  sprint_obj : N -> bytes;
  sprint_other : N -> bytes;
  parse_float : bytes -> option spec_float; (* strconv.ParseFloat(s,64); None = error *)
  f2i_out : spec_float -> Z;              (* int64(f) when f is out of range: implementation specific *)
  ptr_eq : graph -> graph -> bool;        (* identity of two *Graph stored in nodes *)
  hi_letter : Z -> bool;                  (* unicode.IsLetter above U+00FF *)
  hi_digit : Z -> bool                    (* unicode.IsDigit above U+00FF *)
}.

(** ** Decimal integers *)

(** strconv.FormatInt / fmt.Sprint on integers. *)
Definition digit_byte (d : Z) : byte := zb (48 + d).
Fixpoint dec_digits (fuel : nat) (n : Z) (acc : bytes) : bytes :=
  match fuel with
  | O => acc
  | S f => if n <? 10 then digit_byte n :: acc
           else dec_digits f (n / 10) (digit_byte (n mod 10) :: acc)
  end.
Definition format_nat (n : Z) : bytes := dec_digits (S (Z.to_nat (Z.log2 n))) n [].
Definition format_int (z : Z) : bytes :=
  if z <? 0 then "-"%byte :: format_nat (- z) else format_nat z.

(** strconv.ParseInt(s, 10, 64); None = error.  Digits are accumulated exactly and
    the range is checked at the end (Go stops at the first overflow; both are errors). *)
Fixpoint parse_digits (s : bytes) (acc : Z) : option Z :=
  match s with
  | [] => Some acc
  | c :: s' => if latin1_digit (bz c) then parse_digits s' (acc * 10 + (bz c - 48)) else None
  end.
Definition parse_nat (s : bytes) : option Z :=
  match s with [] => None | _ => parse_digits s 0 end.
Definition parse_int (s : bytes) : option Z :=
  match s with
  | [] => None
  | c :: s' =>
      let '(neg, body) := if beq c "-" then (true, s') else if beq c "+" then (false, s') else (false, s) in
      match parse_nat body with
      | None => None
      | Some n => if neg then if n <=? 2 ^ 63 then Some (- n) else None
                  else if n <? 2 ^ 63 then Some n else None
      end
  end.

(** ** Floats: IEEE binary64 computed with the standard library's SpecFloat *)
Definition f64_of_Z (z : Z) : spec_float := binary_normalize 53 1024 z 0 false.
Definition f64_of_f32 (f : spec_float) : spec_float :=
  match f with
  | S754_finite s m e => binary_normalize 53 1024 (if s then Z.neg m else Z.pos m) e s
  | _ => f
  end.
(** Truncation toward zero of a finite float; None for inf/nan. *)
Definition f_trunc (f : spec_float) : option Z :=
  match f with
  | S754_zero _ => Some 0
  | S754_finite s m e =>
      let a := match e with
               | Z0 => Z.pos m
               | Zpos p => Z.pos m * 2 ^ Z.pos p
               | Zneg p => Z.pos m / 2 ^ Z.pos p
               end in
      Some (if s then - a else a)
  | _ => None
  end.

(** ** Conversions (gettypes.go) *)
Section Conv.
Variable E : env.

(** Go conversion int64(f): truncation when it fits *)
Definition f2i (f : spec_float) : Z :=
  match f_trunc f with
  | Some z => if (- 2 ^ 63 <=? z) && (z <? 2 ^ 63) then z else f2i_out E f
  | None => f2i_out E f
  end.

Definition bool_str (b : bool) : bytes := if b then bs "true" else bs "false".

(** gettypes.go:574-588 [_string] on non-pointer contents *)
Definition sstring {P} (v : value P) : bytes :=
  match v with
  | VNil => []
  | VStr s => s
  | VBytes s => s
  | VBool b => bool_str b
  | VInt _ z => format_int z
  | VF32 f => sprint_f32 E f
  | VF64 f => sprint_f64 E f
  | VPtr _ => []
  | VFun i => sprint_fun E i
  | VObj i => sprint_obj E i
  | VOther i => sprint_other E i
  end.

(** gettypes.go:92-103 [String()] on a non-nil receiver: _string(g.Interface()),
    where Interface() (279-284) is the first child's content; a nil first child panics. *)
Fixpoint gstring (g : graph) : res bytes :=
  match g with
  | Node _ [] => Ok []
  | Node _ (None :: _) => Panic
  | Node _ (Some (Node v _) :: _) =>
      match v with
      | VPtr None => Ok []
      | VPtr (Some g') => gstring g'
      | _ => Ok (sstring v)
      end
  end.

(** gettypes.go:574-588 [_string] *)
Definition vstring (v : value graph) : res bytes :=
  match v with
  | VPtr None => Ok []
  | VPtr (Some g) => gstring g
  | _ => Ok (sstring v)
  end.

(** gettypes.go:92-103 [String()] without default *)
Definition String_ (g : option graph) : res bytes :=
  match g with None => Ok [] | Some g => gstring g end.

(** gettypes.go:175-186 [ThisString()] without default *)
Definition ThisString (g : option graph) : res bytes :=
  match g with None => Ok [] | Some g => vstring (this g) end.

(** gettypes.go:606-620 [_bytes] (a *Graph gives its own content as a string) *)
Definition vbytes (v : value graph) : res bytes :=
  match v with
  | VPtr p => ThisString p
  | _ => Ok (sstring v)
  end.

(** gettypes.go:279-284 [Interface()] *)
Definition Interface (g : option graph) : res (value graph) :=
  match g with
  | Some (Node _ (Some c :: _)) => Ok (this c)
  | Some (Node _ (None :: _)) => Panic
  | _ => Ok VNil
  end.

(** gettypes.go:498-525 [_int64].  uint/uint64 above 2^63-1 wrap. *)
Definition v_int64 {P} (v : value P) : option Z :=
  match v with VInt _ z => Some (wrap64 z) | _ => None end.

(** gettypes.go:455-466 [_float64] *)
Definition v_float64 {P} (v : value P) : option spec_float :=
  match v with VF32 f => Some (f64_of_f32 f) | VF64 f => Some f | _ => None end.

(** gettypes.go:470-494 [_int64f].  The leading dereference of a typed nil *Graph panics;
    a non-nil *Graph is replaced by its content (and not followed further). *)
Definition v_int64f (v : value graph) : res (option Z) :=
  let* v := match v with VPtr None => Panic | VPtr (Some g) => Ok (this g) | _ => Ok v end in
  Ok match v with
     | VBytes s | VStr s => parse_int s
     | VF32 f => Some (f2i (f64_of_f32 f))
     | VF64 f => Some (f2i f)
     | _ => v_int64 v
     end.

(** gettypes.go:432-451 [_float64f] *)
Definition v_float64f (v : value graph) : res (option spec_float) :=
  match v_float64 v with
  | Some f => Ok (Some f)
  | None =>
      match v_int64 v with
      | Some i => Ok (Some (f64_of_Z i))
      | None => let* s := vstring v in Ok (parse_float E s)
      end
  end.

(** gettypes.go:528-572 [_boolf].  Only int and int64 among integers convert. *)
Definition v_boolf (v : value graph) : option bool :=
  let v := match v with VPtr None => VNil | VPtr (Some g) => this g | _ => v end in
  match v with
  | VBytes s | VStr s =>
      if bseq s (bs "false") then Some false
      else if bseq s (bs "true") then Some true else None
  | VBool b => Some b
  | VInt KInt z | VInt KInt64 z => Some (negb (z =? 0))
  | _ => None
  end.

(** gettypes.go:664-674 [isNumber] *)
Definition isNumber (s : bytes) : bool :=
  match s with
  | [] => false
  | c :: s' =>
      is_digit c ||
      match s' with
      | d :: _ => beq c "-" && is_digit d
      | [] => false
      end
  end.

Fixpoint drop_while (p : byte -> bool) (s : bytes) : bytes :=
  match s with [] => [] | c :: s' => if p c then drop_while p s' else s end.

(** gettypes.go:679-718 [isInteger].  After skipping blanks s[i] is indexed without a
    bound check (line 695): a non-empty string of blanks panics. *)
Definition isInteger (s : bytes) : res bool :=
  match s with
  | [] => Ok false
  | _ =>
      match drop_while is_space s with
      | [] => Panic
      | c :: s' =>
          let body := if beq c "-" then s' else c :: s' in
          match body with
          | d :: body' =>
              if is_digit d
              then Ok (forallb is_space (drop_while is_digit body'))
              else Ok false
          | [] => Ok false
          end
      end
  end.

(** gettypes.go:288-322 [number] *)
Definition number (v : value graph) : res (value graph) :=
  match v with
  | VNil => Ok VNil
  | _ =>
      match v_float64 v with
      | Some f => Ok (VF64 f)
      | None =>
          match v_int64 v with
          | Some i => Ok (VInt KInt64 i)
          | None =>
              let* s := vstring v in
              match s with
              | [] => Ok VNil
              | _ =>
                  let* b := isInteger s in
                  if b then Ok match parse_int s with Some n => VInt KInt64 n | None => VNil end
                  else Ok match parse_float E s with Some f => VF64 f | None => VNil end
              end
          end
      end
  end.

(** gettypes.go:231-252 [Scalar()] and 255-276 [ThisScalar()] share this tail. *)
Definition scalar_of (itf : value graph) : res (value graph) :=
  let* n := number itf in
  match n with
  | VNil => Ok match v_boolf itf with Some b => VBool b | None => itf end
  | _ => Ok n
  end.

(** gettypes.go:231-252 [Scalar()] on a non-nil receiver *)
Definition Scalar (g : graph) : res (value graph) :=
  let* itf := Interface (Some g) in
  scalar_of itf.

(** gettypes.go:255-276 [ThisScalar()]: nil content falls back to the first child. *)
Definition ThisScalar (g : graph) : res (value graph) :=
  let* itf := match this g with VNil => Interface (Some g) | v => Ok v end in
  scalar_of itf.

(** gettypes.go:40-49 [Int64(def...)] *)
Definition Int64 (g : option graph) (def : option Z) : res Z :=
  let* itf := Interface g in
  let* n := v_int64f itf in
  Ok match n with Some n => n | None => match def with Some d => d | None => 0 end end.

(** gettypes.go:66-75 [Bool(def...)] *)
Definition Bool_ (g : option graph) (def : option bool) : res bool :=
  let* s := String_ g in
  Ok match v_boolf (VStr s) with Some b => b | None => match def with Some d => d | None => false end end.

End Conv.

(** ** Go's == on interface values (used by Equals and Delete).
    Comparing two values of the same uncomparable type ([]byte, func) panics. *)
Definition ikind_eqb (a b : ikind) : bool :=
  match a, b with
  | KInt, KInt | KInt8, KInt8 | KInt16, KInt16 | KInt32, KInt32 | KInt64, KInt64
  | KUint, KUint | KUint8, KUint8 | KUint16, KUint16 | KUint32, KUint32 | KUint64, KUint64 => true
  | _, _ => false
  end.

Definition iface_eq (E : env) (a b : value graph) : res bool :=
  match a, b with
  | VNil, VNil => Ok true
  | VStr x, VStr y => Ok (bseq x y)
  | VBytes _, VBytes _ => Panic
  | VBool x, VBool y => Ok (Bool.eqb x y)
  | VInt k x, VInt k' y => Ok (ikind_eqb k k' && (x =? y))
  | VF32 x, VF32 y => Ok (SFeqb x y)
  | VF64 x, VF64 y => Ok (SFeqb x y)
  | VPtr None, VPtr None => Ok true
  | VPtr (Some x), VPtr (Some y) => Ok (ptr_eq E x y)
  | VFun _, VFun _ => Panic
  | VObj x, VObj y => Ok (N.eqb x y)
  | VOther x, VOther y => Ok (N.eqb x y)
  | _, _ => Ok false
  end.

(** ** Induction principle for graphs (through lists, options and contents) *)
Section graph_ind'.
Variable P : graph -> Prop.
Definition vP (v : value graph) : Prop :=
  match v with VPtr (Some g) => P g | _ => True end.
Definition oP (o : option graph) : Prop :=
  match o with Some g => P g | None => True end.
Hypothesis H : forall v l, vP v -> Forall oP l -> P (Node v l).
Fixpoint graph_ind' (g : graph) : P g :=
  match g with
  | Node v l =>
      H v l
        (match v return vP v with
         | VPtr (Some g') => graph_ind' g'
         | VPtr None => I | VNil => I | VStr _ => I | VBytes _ => I | VBool _ => I | VInt _ _ => I
         | VF32 _ => I | VF64 _ => I | VFun _ => I | VObj _ => I | VOther _ => I
         end)
        ((fix go (l : list (option graph)) : Forall oP l :=
            match l with
            | [] => Forall_nil _
            | o :: l' => Forall_cons o (match o return oP o with
                                        | Some g' => graph_ind' g' | None => I end) (go l')
            end) l)
  end.
End graph_ind'.

(** ** Trees of strings: the abstract data model used by specifications *)
Inductive tree : Type := T (s : bytes) (kids : list tree).
Definition tlabel (t : tree) := match t with T s _ => s end.
Definition tkids (t : tree) := match t with T _ k => k end.

Section tree_ind'.
Variable P : tree -> Prop.
Hypothesis H : forall s k, Forall P k -> P (T s k).
Fixpoint tree_ind' (t : tree) : P t :=
  match t with
  | T s k => H s k ((fix go (l : list tree) : Forall P l :=
                       match l with [] => Forall_nil _ | t :: l' => Forall_cons t (tree_ind' t) (go l') end) k)
  end.
End tree_ind'.

(** A tree of strings as a Graph: contents are Go strings, no nil pointers. *)
Fixpoint gtree (t : tree) : graph :=
  match t with T s k => Node (VStr s) (map (fun t => Some (gtree t)) k) end.
Definition gforest (l : list tree) : list (option graph) := map (fun t => Some (gtree t)) l.
(** The graph returned by the parsers: a '_' root over a forest. *)
Definition groot (l : list tree) : graph := Node (VStr (bs "_")) (gforest l).

(** ** Facts about decimal integers *)

Lemma parse_digits_app a b acc :
  parse_digits (a ++ b) acc =
  match parse_digits a acc with Some n => parse_digits b n | None => None end.
Proof.
  revert acc; induction a as [|c a IH]; intro acc; cbn [app parse_digits]; [reflexivity|].
  destruct (latin1_digit (bz c)); [apply IH|reflexivity].
Qed.

Lemma digit_byte_ok d : 0 <= d < 10 -> bz (digit_byte d) = 48 + d.
Proof. intro H. unfold digit_byte. rewrite bz_zb. apply Z.mod_small. lia. Qed.

Lemma digit_byte_digit d : 0 <= d < 10 -> latin1_digit (bz (digit_byte d)) = true.
Proof. intro H. rewrite digit_byte_ok by lia. unfold latin1_digit. lia. Qed.

Lemma dec_digits_app fuel n acc : dec_digits fuel n acc = dec_digits fuel n [] ++ acc.
Proof.
  revert n acc; induction fuel as [|f IH]; intros n acc; [reflexivity|].
  cbn [dec_digits]. destruct (n <? 10); [reflexivity|].
  rewrite IH, (IH _ [_]), <- app_assoc. reflexivity.
Qed.

Lemma dec_digits_parse fuel n :
  0 <= n < 2 ^ Z.of_nat fuel -> (0 < fuel)%nat ->
  forall acc, exists k, 0 <= k /\ (k = Z.of_nat (List.length (dec_digits fuel n []))) /\
    parse_digits (dec_digits fuel n []) acc = Some (acc * 10 ^ k + n).
Proof.
  revert n; induction fuel as [|f IH]; intros n Hn Hf acc; [lia|].
  cbn [dec_digits]. destruct (Z.ltb_spec n 10) as [Hl|Hl].
  - exists 1. cbn [List.length parse_digits].
    rewrite digit_byte_digit by lia. rewrite digit_byte_ok by lia.
    repeat split; try lia. f_equal. lia.
  - assert (Hf' : (0 < f)%nat).
    { destruct f; [|lia]. cbn in Hn. lia. }
    assert (Hn' : 0 <= n / 10 < 2 ^ Z.of_nat f).
    { split; [apply Z.div_pos; lia|]. apply Z.div_lt_upper_bound; [lia|].
      replace (Z.of_nat (S f)) with (Z.of_nat f + 1) in Hn by lia.
      rewrite Z.pow_add_r in Hn by lia. lia. }
    destruct (IH (n / 10) Hn' Hf' acc) as (k & Hk & Hlen & Hp).
    exists (k + 1). rewrite dec_digits_app, app_length, parse_digits_app, Hp.
    cbn [List.length parse_digits].
    pose proof (Z.mod_pos_bound n 10 ltac:(lia)) as Hm.
    rewrite digit_byte_digit by lia. rewrite digit_byte_ok by lia.
    repeat split; [lia|lia|]. f_equal. rewrite Z.pow_add_r by lia.
    pose proof (Z.div_mod n 10 ltac:(lia)). lia.
Qed.

Lemma log2_fuel n : 0 <= n -> n < 2 ^ Z.of_nat (S (Z.to_nat (Z.log2 n))).
Proof.
  intro H. destruct (Z.eq_dec n 0) as [->|Hn]; [reflexivity|].
  pose proof (Z.log2_spec n ltac:(lia)). pose proof (Z.log2_nonneg n).
  replace (Z.of_nat (S (Z.to_nat (Z.log2 n)))) with (Z.succ (Z.log2 n)) by lia. lia.
Qed.

Lemma parse_format_nat n : 0 <= n -> parse_nat (format_nat n) = Some n.
Proof.
  intro H. unfold format_nat.
  destruct (dec_digits_parse (S (Z.to_nat (Z.log2 n))) n (conj H (log2_fuel n H)) ltac:(lia) 0)
    as (k & Hk & Hl & Hp).
  unfold parse_nat.
  destruct (dec_digits _ n []) as [|c l] eqn:Ed.
  - cbn [dec_digits] in Ed. destruct (n <? 10); [discriminate|].
    rewrite dec_digits_app in Ed. destruct (dec_digits _ (n/10) []); discriminate.
  - rewrite Hp. reflexivity.
Qed.

Lemma format_nat_head n : 0 <= n ->
  exists c s, format_nat n = c :: s /\ latin1_digit (bz c) = true.
Proof.
  intro H. unfold format_nat.
  generalize (Z.to_nat (Z.log2 n)). intro f.
  assert (G : forall f n acc, 0 <= n ->
     exists c s, dec_digits (S f) n acc = c :: s /\ (latin1_digit (bz c) = true)).
  { clear. induction f as [|f IH]; intros n acc Hn; cbn [dec_digits].
    - destruct (Z.ltb_spec n 10); [|cbn].
      + exists (digit_byte n), acc. split; [reflexivity|]. apply digit_byte_digit; lia.
      + exists (digit_byte (n mod 10)), acc. split; [reflexivity|].
        apply digit_byte_digit. apply Z.mod_pos_bound. lia.
    - destruct (Z.ltb_spec n 10).
      + exists (digit_byte n), acc. split; [reflexivity|]. apply digit_byte_digit; lia.
      + apply (IH (n / 10) (digit_byte (n mod 10) :: acc)). apply Z.div_pos; lia. }
  apply G; exact H.
Qed.

(** ParseInt inverts FormatInt on all of int64. *)
Lemma parse_format_int z : in64 z -> parse_int (format_int z) = Some z.
Proof.
  unfold in64. intro H. unfold format_int, parse_int.
  destruct (Z.ltb_spec z 0).
  - cbn [beq]. change (beq "-" "-") with true. cbn [fst snd].
    rewrite parse_format_nat by lia. cbv iota.
    replace (- z <=? 2 ^ 63) with true by (symmetry; apply Z.leb_le; lia). f_equal. lia.
  - destruct (format_nat_head z ltac:(lia)) as (c & s & Hc & Hd).
    rewrite Hc. unfold latin1_digit in Hd.
    replace (beq c "-") with false.
    2:{ symmetry. apply beq_neq. intros ->. vm_compute in Hd. discriminate. }
    replace (beq c "+") with false.
    2:{ symmetry. apply beq_neq. intros ->. vm_compute in Hd. discriminate. }
    rewrite <- Hc, parse_format_nat by lia. cbv iota.
    replace (z <? 2 ^ 63) with true by lia. reflexivity.
Qed.

Lemma parse_int_range s z : parse_int s = Some z -> in64 z.
Proof.
  unfold parse_int, in64. destruct s as [|c s]; [discriminate|].
  assert (G : forall s acc n, 0 <= acc -> parse_digits s acc = Some n -> 0 <= n).
  { clear. induction s as [|c s IH]; cbn; intros acc n Ha H; [congruence|].
    destruct (latin1_digit (bz c)) eqn:E; [|discriminate].
    eapply IH; [|exact H]. unfold latin1_digit in E. lia. }
  assert (G' : forall s n, parse_nat s = Some n -> 0 <= n).
  { intros [|d t] n Hn; [discriminate|]. eapply G; [|exact Hn]. lia. }
  destruct (beq c "-"); [|destruct (beq c "+")];
  destruct (parse_nat _) as [n|] eqn:En; try discriminate; apply G' in En;
  intro H; match type of H with (if ?b then _ else _) = _ => destruct b eqn:Eb end;
  inversion H; subst; lia.
Qed.
