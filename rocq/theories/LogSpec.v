(** What reading a log means. *)
From Verif Require Import Base Value Event Binary BinarySpec Log.

Definition is_crash (o : lop) : Prop := match o with LCrash _ => True | _ => False end.
Definition no_crash (os : list lop) : Prop := Forall (fun o => ~ is_crash o) os.

(** Read all objects from position i on, as the documentation suggests: until Get
    reports no next position. [k] bounds the number of Gets. *)
Fixpoint scan (fuel k : nat) (i : Z) (st : lstate) : res (list (option graph)) :=
  match k with
  | O => NoFuel
  | S k => let* (g, next, _) := log_get fuel i st in
           if next <? 0 then Ok [] else
           let* gs := scan fuel k next st in Ok (g :: gs)
  end.

(** The bytes [b] are at position [p] of the log's file. *)
Definition stored (p : Z) (b : bytes) (st : lstate) : Prop :=
  0 <= p /\ exists f r, lfile st = Some f /\ skipn (Z.to_nat p) f = b ++ r /\ (Z.to_nat p <= List.length f)%nat.

(** [adds E os fs]: the operations [os] (no crash) add exactly the objects [fs], in order,
    as graphs or in binary form. *)
Inductive adds (E : env) : list lop -> list (list tree) -> Prop :=
| adds_nil : adds E [] []
| adds_graph g f os fs : shows E (out g) f -> representable f -> adds E os fs ->
    adds E (LAdd (Some g) :: os) (f :: fs)
| adds_binary f os fs : representable f -> adds E os fs ->
    adds E (LAddBinary (fmt_object f) :: os) (f :: fs)
| adds_nothing os fs : adds E os fs -> adds E (LAdd None :: os) fs
| adds_sync os fs : adds E os fs -> adds E (LSync :: os) fs
| adds_set_sync v os fs : adds E os fs -> adds E (LSetSync v :: os) fs.

(** Operations that write. *)
Definition is_write (o : lop) : Prop :=
  match o with LAdd (Some _) | LAddBinary _ => True | _ => False end.
