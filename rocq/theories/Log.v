(** Model of log.go: the append-only log of binary objects. *)
From Verif Require Import Base Value Event Binary.

(** The storage behind a Log: [lfile] is the content of the open file (None: log.f is nil),
    [ldur] the number of its leading bytes known to be on disk, [lauto] is autoSync, [lbuf]
    the bytes.Buffer.
    Simplifications: Seek/Write/Sync on the open file do not fail and Write is not short
    (log.go ignores their errors); the file offset is not kept because every method that
    uses it seeks first; Close and a second process writing the file are not modelled. *)
Record lstate : Type := mkL { lfile : option bytes; ldur : nat; lauto : bool; lbuf : bytes }.

(** log.go:23-33 [OpenLog] on a file holding [b] (empty if just created) *)
Definition OpenLog (b : bytes) : lstate := mkL (Some b) (List.length b) true [].

(** The zero value Log{}: the in-memory log *)
Definition MemLog : lstate := mkL None 0 false [].

(** log.go:43-47 [Sync] *)
Definition log_sync (st : lstate) : lstate :=
  match lfile st with
  | Some f => mkL (Some f) (List.length f) (lauto st) (lbuf st)
  | None => st
  end.

(** log.go:50-52 [SetSync] *)
Definition log_set_sync (v : bool) (st : lstate) : lstate := mkL (lfile st) (ldur st) v (lbuf st).

(** log.go:94-112 [AddBinary]; also the common part of [Add] *)
Definition log_add_binary (b : bytes) (st : lstate) : Z * lstate :=
  match lfile st with
  | Some f =>
      let st := mkL (Some (f ++ b)) (ldur st) (lauto st) (lbuf st) in
      (Z.of_nat (List.length f), if lauto st then log_sync st else st)
  | None => (Z.of_nat (List.length (lbuf st)), mkL None (ldur st) (lauto st) (lbuf st ++ b))
  end.

(** log.go:56-82 [Add] *)
Definition log_add (E : env) (g : option graph) (st : lstate) : res (Z * lstate) :=
  let* b := Binary E g in
  match b with
  | None => Ok (0, st)
  | Some b => Ok (log_add_binary b st)
  end.

(** log.go:85-90 [Bytes] *)
Definition log_bytes (st : lstate) : option bytes :=
  match lfile st with Some _ => None | None => Some (lbuf st) end.

(** log.go:116-132 [Get]: graph, next position, error?  Seek fails on a nil file and on a
    negative offset; past the end it succeeds and the first read gives EOF. *)
Definition log_get (fuel : nat) (i : Z) (st : lstate) : res (option graph * Z * bool) :=
  match lfile st with
  | None => Ok (None, -1, true)
  | Some f =>
      if i <? 0 then Ok (None, -1, true) else
      let* (g, s) := parse fuel (mkR (skipn (Z.to_nat i) f) TEof 0) in
      if rn s =? 0 then Ok (g, -1, false) else Ok (g, i + rn s, false)
  end.

(** log.go:150-155, the loop of [GetBinary] *)
Fixpoint skip_loop (fuel : nat) (s : rst) : res rst :=
  match fuel with
  | O => NoFuel
  | S f =>
      let* (lev, _, _, s) := line f false s in
      if lev =? 0 then Ok s else skip_loop f s
  end.

(** log.go:137-168 [GetBinary]: bytes, second result, error? *)
Definition log_get_binary (fuel : nat) (i : Z) (st : lstate) : res (option bytes * Z * bool) :=
  match lfile st with
  | None => Ok (None, 0, true)
  | Some f =>
      if i <? 0 then Ok (None, 0, true) else
      let r := skipn (Z.to_nat i) f in
      let (ok, s) := header (mkR r TEof 0) in
      if negb ok then Ok (None, 0, false) else
      let* s := skip_loop fuel s in
      let b := firstn (Z.to_nat (rn s)) r in
      (* make([]byte,n) then ReadAt: zero padding and io.EOF if the file is shorter *)
      let k := (Z.to_nat (rn s) - List.length b)%nat in
      Ok (Some (b ++ repeat x00 k), rn s, negb (k =? 0)%nat)
  end.

(** ** Histories.  A crash keeps the durable bytes and an arbitrary part of the rest, and
    the log is opened again afterwards (OpenLog sets autoSync). *)
Inductive lop :=
| LAdd (g : option graph) | LAddBinary (b : bytes) | LSync | LSetSync (v : bool)
| LCrash (k : nat).

Definition log_crash (k : nat) (st : lstate) : lstate :=
  match lfile st with
  | Some f => let f' := firstn (Nat.max k (ldur st)) f in OpenLog f'
  | None => MemLog
  end.

(** One operation; Some p is the position returned by an Add or AddBinary. *)
Definition log_step (E : env) (o : lop) (st : lstate) : res (option Z * lstate) :=
  match o with
  | LAdd g => let* (p, st) := log_add E g st in Ok (Some p, st)
  | LAddBinary b => let (p, st) := log_add_binary b st in Ok (Some p, st)
  | LSync => Ok (None, log_sync st)
  | LSetSync v => Ok (None, log_set_sync v st)
  | LCrash k => Ok (None, log_crash k st)
  end.

Fixpoint log_run (E : env) (os : list lop) (st : lstate) : res (list (option Z) * lstate) :=
  match os with
  | [] => Ok ([], st)
  | o :: os => let* (p, st) := log_step E o st in
               let* (ps, st) := log_run E os st in Ok (p :: ps, st)
  end.
