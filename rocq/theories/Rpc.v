(** Model of ogdlrf/client.go and ogdlrf/server.go: remote functions over a connection.
    Left out: Serve and Serve1 (net.Listen, Accept), logging, deadlines (a deadline that
    expires is a Read or Write that fails).  Allocation is assumed to succeed. *)
From Verif Require Import Base Value Event Binary.

(** ** Connections *)

(** encoding/binary: BigEndian.PutUint32(uint32(n)) and BigEndian.Uint32 *)
Definition be32 (n : Z) : bytes := [zb (n / 2 ^ 24); zb (n / 2 ^ 16); zb (n / 2 ^ 8); zb n].
Definition un_be32 (b : bytes) : Z := fold_left (fun a c => a * 256 + bz c) b 0.

(** What the code uses of a net.Conn, over any state W of the network.  Read n returns at
    most n bytes and whether there was an error, Write the count and whether there was an
    error, Dial whether it succeeded. *)
Record net (W : Type) : Type := mkNet {
  n_dial : W -> res (W * bool);
  n_write : bytes -> W -> res (W * Z * bool);
  n_read : Z -> W -> res (W * bytes * bool) }.
Arguments n_dial {W}. Arguments n_write {W}. Arguments n_read {W}. Arguments mkNet {W}.

(** ogdlrf/client.go:17-22 and the errors made in place *)
Inductive rerr := ErrDial | ErrWriteHeader | ErrWriteBody | ErrHeader | ErrRead | ErrEmpty | ErrWriting.

(** ** Client *)
Section Client.
Context {W : Type} (N : net W) (E : env) (F : nat).

(** ogdlrf/client.go:108-124: the loop that reads the body of the response; l2 counts in
    uint32.  None: the function returns nil and the error (Some ErrRead), or nil and no error
    if Read gave neither bytes nor an error. *)
Fixpoint read_body (fuel : nat) (l l2 : Z) (buf : bytes) (w : W) : res (W * (bytes + option rerr)) :=
  match fuel with
  | O => NoFuel
  | S fuel =>
      let* (w, b, err) := n_read N 10000 w in
      let l2 := (l2 + Z.of_nat (List.length b)) mod 2 ^ 32 in
      if err then Ok (w, inr (Some ErrRead)) else
      match b with
      | [] => Ok (w, inr None)
      | _ => let buf := buf ++ b in
             if l <=? l2 then Ok (w, inl buf) else read_body fuel l l2 buf w
      end
  end.

(** ogdlrf/client.go:78-139 [callV2] *)
Definition callV2 (g : option graph) (w : W) : res (W * (option graph * option rerr)) :=
  let* b := Binary E g in
  let buf := match b with Some b => b | None => [] end in
  let* (w, i, err) := n_write N (be32 (Z.of_nat (List.length buf))) w in
  if negb (i =? 4) || err then Ok (w, (None, Some ErrWriteHeader)) else
  let* (w, i, err) := n_write N buf w in
  if err then Ok (w, (None, Some ErrWriteBody)) else
  if negb (i =? Z.of_nat (List.length buf)) then Ok (w, (None, Some ErrWriteBody)) else
  let* (w, b4, _) := n_read N 4 w in
  if negb (Z.of_nat (List.length b4) =? 4) then Ok (w, (None, Some ErrHeader)) else
  let* (w, r) := read_body F (un_be32 b4) 0 [] w in
  match r with
  | inr e => Ok (w, (None, e))
  | inl buf3 =>
      let* g := FromBinary F buf3 in
      match g with
      | Some (Node v (k :: o)) => Ok (w, (Some (Node v (k :: o)), None))
      | _ => Ok (w, (None, Some ErrEmpty))
      end
  end.

(** ogdlrf/client.go:44-74 [Call] for protocol 2; [conn]: rf.conn is not nil (also returned).
    [n] is the variable n plus one. *)
Fixpoint call_loop (n : nat) (conn : bool) (g : option graph) (w : W) : res (W * bool * (option graph * option rerr)) :=
  match n with
  | O => NoFuel
  | S n =>
      let* (w, up) := (if conn then Ok (w, true) else n_dial N w) in
      if negb up then Ok (w, false, (None, Some ErrDial)) else
      let* (w, r) := callV2 g w in
      match r with
      | (r, None) => Ok (w, true, (r, None))
      | (r, Some e) => match n with O => Ok (w, true, (r, Some e)) | S _ => call_loop n false g w end
      end
  end.
Definition Call (conn : bool) (g : option graph) (w : W) : res (W * bool * (option graph * option rerr)) :=
  call_loop 3 conn g w.
End Client.

(** ** Server *)

(** ogdlrf/function.go: a handler, with the state it works on (the connection it is also given
    is left out).  A panic of the handler is a panic of the server. *)
Definition func (S : Type) : Type := graph -> S -> res (S * option graph).

Section Server.
Context {W St : Type} (N : net W) (E : env) (F : nat) (h : func St).

(** ogdlrf/server.go:115-183: one turn of the loop of [process]; false: the loop is left *)
Definition turn (w : W) (s : St) : res (W * St * bool) :=
  let* (w, b4, err) := n_read N 4 w in
  match b4 with [] => Ok (w, s, false) | _ =>
  if err || negb (Z.of_nat (List.length b4) =? 4) then Ok (w, s, false) else
  let l := un_be32 b4 in
  if l =? 0 then Ok (w, s, false) else
  let* (w, buf, err) := n_read N l w in
  if err then Ok (w, s, false) else
  if negb (Z.of_nat (List.length buf) =? l) then Ok (w, s, false) else
  let* g := FromBinary F buf in
  match g with
  | Some (Node v (k :: o)) =>
      let* (s, r) := h (Node v (k :: o)) s in
      let* b := Binary E r in
      let buf := match b with Some b => b | None => [] end in
      let* (w, i, err) := n_write N (be32 (Z.of_nat (List.length buf))) w in
      if negb (i =? 4) || err then Ok (w, s, false) else
      let* (w, i, err) := n_write N buf w in
      if err then Ok (w, s, false) else
      if negb (i =? Z.of_nat (List.length buf)) then Ok (w, s, false) else
      Ok (w, s, true)
  | _ => Ok (w, s, false)
  end end.

(** ogdlrf/server.go:109-184 [process] *)
Fixpoint process (fuel : nat) (w : W) (s : St) : res (W * St) :=
  match fuel with
  | O => NoFuel
  | S fuel => let* (w, s, more) := turn w s in if more then process fuel w s else Ok (w, s)
  end.
End Server.

(** ** One end of a connection: what the peer sends arrives in the segments [p_in], after which
    reading fails (end of file, or some other error such as a deadline); writing succeeds. *)
Record pipe : Type := mkPipe { p_in : list bytes; p_end : tail; p_out : bytes }.

(** The rest of a segment, if any, stays first. *)
Definition rest_of (b : bytes) (l : list bytes) : list bytes := match b with [] => l | _ => b :: l end.
Definition pipe_net : net pipe := mkNet
  (fun w => Ok (w, true))
  (fun b w => Ok (mkPipe (p_in w) (p_end w) (p_out w ++ b), Z.of_nat (List.length b), false))
  (fun n w => match p_in w with
              | [] => Ok (w, [], true)
              | s :: l => Ok (mkPipe (rest_of (skipn (Z.to_nat n) s) l) (p_end w) (p_out w), firstn (Z.to_nat n) s, false)
              end).

(** ** Protocol 1, over a pipe *)

(** What is left in the connection after a new bufio.Reader (4096 bytes) on it handed out n
    bytes: whole reads are taken from it; what is left in the bufio.Reader is lost. *)
Definition bufio : nat := Z.to_nat 4096.
Fixpoint after (fuel n : nat) (l : list bytes) : list bytes :=
  match fuel, n, l with
  | S fuel, S _, s :: l => after fuel (n - Nat.min bufio (List.length s)) (rest_of (skipn bufio s) l)
  | _, _, _ => l
  end.
(** binary.go:71-74 [FromBinaryReader] on a connection *)
Definition receive (F : nat) (w : pipe) : res (pipe * option graph) :=
  let all := List.concat (p_in w) in
  let* (g, r) := parse F (mkR all (p_end w) 0) in
  let n := (List.length all - List.length (rest r))%nat in
  Ok (mkPipe (after n n (p_in w)) (p_end w) (p_out w), g).

(** What protocol 1 uses of a connection, over any state W of the network: Dial, Write, and
    FromBinaryReader on the connection *)
Record link (W : Type) : Type := mkLink {
  l_dial : W -> res (W * bool);
  l_write : bytes -> W -> res (W * Z * bool);
  l_recv : W -> res (W * option graph) }.
Arguments l_dial {W}. Arguments l_write {W}. Arguments l_recv {W}. Arguments mkLink {W}.

Section Client1.
Context {W : Type} (L : link W) (E : env).
(** ogdlrf/client.go:141-167 [callV1]; the boolean: rf.conn is not nil *)
Definition callV1 (g : option graph) (w : W) : res (W * bool * (option graph * option rerr)) :=
  let* b := Binary E g in
  let buf := match b with Some b => b | None => [] end in
  let* (w, n, err) := l_write L buf w in
  if err then Ok (w, false, (None, Some ErrWriting)) else
  if negb (n =? Z.of_nat (List.length buf)) then Ok (w, false, (None, Some ErrWriting)) else
  let* (w, g) := l_recv L w in
  match g with
  | Some (Node v (k :: o)) => Ok (w, true, (Some (Node v (k :: o)), None))
  | _ => Ok (w, true, (None, Some ErrEmpty))
  end.
(** ogdlrf/client.go:44-74 [Call] for protocol 1, as [call_loop] *)
Fixpoint call1_loop (n : nat) (conn : bool) (g : option graph) (w : W) : res (W * bool * (option graph * option rerr)) :=
  match n with
  | O => NoFuel
  | S n =>
      let* (w, up) := (if conn then Ok (w, true) else l_dial L w) in
      if negb up then Ok (w, false, (None, Some ErrDial)) else
      let* (w, c, r) := callV1 g w in
      match r with
      | (r, None) => Ok (w, c, (r, None))
      | (r, Some e) => match n with O => Ok (w, c, (r, Some e)) | S _ => call1_loop n false g w end
      end
  end.
Definition Call1 (conn : bool) (g : option graph) (w : W) : res (W * bool * (option graph * option rerr)) :=
  call1_loop 3 conn g w.
End Client1.
Definition pipe_link (F : nat) : link pipe := mkLink (n_dial pipe_net) (n_write pipe_net) (receive F).

(** ogdlrf/server.go:191-222 [process1] *)
Fixpoint process1 {St : Type} (E : env) (F : nat) (h : func St) (fuel : nat) (w : pipe) (s : St) : res (pipe * St) :=
  match fuel with
  | O => NoFuel
  | S fuel =>
      let* (w, g) := receive F w in
      match g with
      | None => Ok (w, s)
      | Some g =>
          let* (s, r) := h g s in
          let* b := Binary E r in
          let buf := match b with Some b => b | None => [] end in
          let* (w, i, err) := n_write pipe_net buf w in
          if err then Ok (w, s) else process1 E F h fuel w s
      end
  end.

(** ** Routing *)

(** ogdlrf/server.go:24: FromString("error notFound") *)
Definition notFound : graph := Node (VStr (bs "_")) [Some (Node (VStr (bs "error")) [Some (Node (VStr (bs "notFound")) [])])].
(** rtable: map[string]Function, a missing key being nil *)
Definition table (S : Type) : Type := bytes -> option (func S).
Definition no_routes {S} : table S := fun _ => None.
(** ogdlrf/server.go:28-33 [AddRoute] *)
Definition AddRoute {S} (path : bytes) (f : option (func S)) (t : table S) : table S :=
  fun p => if bseq p path then f else t p.
(** ogdlrf/server.go:35-50 [router] *)
Definition router {S} (E : env) (t : table S) : func S := fun g s =>
  match out g with
  | [] => Ok (s, Some notFound)
  | k :: _ =>
      let* p := ThisString E k in
      match t p with
      | Some h => h g s
      | None => Ok (s, Some notFound)
      end
  end.

(** ** A server with several connections (ogdlrf/server.go:63-82, 86-104: each one is processed in
    its own goroutine).  The goroutines are cut into steps, each with at most one operation on the
    connection or one run of the handler; steps of different goroutines come in any order.  Left
    out: interference within a handler. *)

(** Where a goroutine is: at a read of LEN, at a read of the body, at the call of the handler, at
    the write of the header, at the write of the body, gone *)
Inductive place : Type := AtLen | AtBody (l : Z) | AtCall (g : graph) | AtReply (r : option graph) | AtRest (b : bytes) | Gone.
(** What a goroutine does next: it goes on to x, or it runs the handler on g *)
Inductive act (X : Type) : Type := Move (x : X) | Ask (g : graph) (k : option graph -> X) | Stop.
Arguments Move {X}. Arguments Ask {X}. Arguments Stop {X}.

Section Steps.
Context {W : Type} (N : net W) (E : env) (F : nat).
(** ogdlrf/server.go:109-184 [process], as steps *)
Definition next (c : place * W) : res (act (place * W)) :=
  let (p, w) := c in
  match p with
  | AtLen =>
      let* (w, b4, err) := n_read N 4 w in
      match b4 with [] => Ok (Move (Gone, w)) | _ =>
      if err || negb (Z.of_nat (List.length b4) =? 4) then Ok (Move (Gone, w)) else
      let l := un_be32 b4 in
      if l =? 0 then Ok (Move (Gone, w)) else Ok (Move (AtBody l, w)) end
  | AtBody l =>
      let* (w, buf, err) := n_read N l w in
      if err then Ok (Move (Gone, w)) else
      if negb (Z.of_nat (List.length buf) =? l) then Ok (Move (Gone, w)) else
      let* g := FromBinary F buf in
      match g with
      | Some (Node v (k :: o)) => Ok (Move (AtCall (Node v (k :: o)), w))
      | _ => Ok (Move (Gone, w))
      end
  | AtCall g => Ok (Ask g (fun r => (AtReply r, w)))
  | AtReply r =>
      let* b := Binary E r in
      let buf := match b with Some b => b | None => [] end in
      let* (w, i, err) := n_write N (be32 (Z.of_nat (List.length buf))) w in
      if negb (i =? 4) || err then Ok (Move (Gone, w)) else Ok (Move (AtRest buf, w))
  | AtRest buf =>
      let* (w, i, err) := n_write N buf w in
      if err then Ok (Move (Gone, w)) else
      if negb (i =? Z.of_nat (List.length buf)) then Ok (Move (Gone, w)) else
      Ok (Move (AtLen, w))
  | Gone => Ok Stop
  end.
End Steps.
(** ogdlrf/server.go:191-222 [process1], as steps (the reads of one object are one step) *)
Definition next1 (E : env) (F : nat) (c : place * pipe) : res (act (place * pipe)) :=
  let (p, w) := c in
  match p with
  | AtLen =>
      let* (w, g) := receive F w in
      match g with
      | None => Ok (Move (Gone, w))
      | Some g => Ok (Move (AtCall g, w))
      end
  | AtCall g => Ok (Ask g (fun r => (AtReply r, w)))
  | AtReply r =>
      let* b := Binary E r in
      let buf := match b with Some b => b | None => [] end in
      let* (w, i, err) := n_write pipe_net buf w in
      if err then Ok (Move (Gone, w)) else Ok (Move (AtLen, w))
  | _ => Ok Stop
  end.

(** The goroutines in the states cs, sched saying which one makes the next step *)
Section Many.
Context {X St : Type} (nxt : X -> res (act X)) (h : func St).
Definition set_conn (i : nat) (x : X) (cs : nat -> X) : nat -> X := fun j => if Nat.eqb j i then x else cs j.
Fixpoint serve (sched : list nat) (cs : nat -> X) (s : St) : res ((nat -> X) * St) :=
  match sched with
  | [] => Ok (cs, s)
  | i :: sched =>
      let* a := nxt (cs i) in
      match a with
      | Stop => serve sched cs s
      | Move x => serve sched (set_conn i x cs) s
      | Ask g k => let* (s, r) := h g s in serve sched (set_conn i (k r) cs) s
      end
  end.
End Many.
