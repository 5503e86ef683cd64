(** Notions in which the claims about remote functions are stated. *)
From Verif Require Import Base Value EventSpec Binary BinarySpec Rpc.

(** h is the number n in four bytes, the most significant first. *)
Definition big_endian (h : bytes) (n : Z) : Prop :=
  exists a b c d, h = [a; b; c; d] /\ n = ((bz a * 256 + bz b) * 256 + bz c) * 256 + bz d.
(** A message with body b: its length, then b *)
Definition message (b m : bytes) : Prop := exists h, big_endian h (Z.of_nat (List.length b)) /\ m = h ++ b.
(** The bytes b arrive as the segments l. *)
Definition segments (b : bytes) (l : list bytes) : Prop := List.concat l = b /\ Forall (fun s => s <> []) l.
(** b is the body in which the graph g travels; the receiver gets the forest f. *)
Definition carries (E : env) (g : graph) (f : list tree) (b : bytes) : Prop :=
  shows E (out g) f /\ representable f /\ f <> [] /\ Binary E (Some g) = Ok (Some b) /\ Z.of_nat (List.length b) < 2 ^ 32.

(** ** A client and a server with an unreliable network in between *)

(** The first bytes of b, in segments of the given sizes; the rest is lost. *)
Fixpoint cut (sizes : list nat) (b : bytes) : list bytes :=
  match sizes with
  | [] => []
  | n :: l => rest_of (firstn n b) (cut l (skipn n b))
  end.

(** What happens to one attempt: whether dialing succeeds, what the two Writes return, and how
    much of the request and of the response arrives, in which segments. *)
Record plan : Type := mkPlan { pl_up : bool; pl_w1 : Z * bool; pl_w2 : Z * bool; pl_req : list nat; pl_resp : list nat }.
(** Attempts to come, the present one, the state of the server's handlers, what the client has
    written in this attempt, and what is on its way back to the client (None: the server has
    not been at work yet) *)
Record world (St : Type) : Type := mkWorld { todo : list plan; cur : plan; hs : St; sent : bytes; inbox : option (list bytes) }.
Arguments mkWorld {St}. Arguments todo {St}. Arguments cur {St}. Arguments hs {St}. Arguments sent {St}. Arguments inbox {St}.

Section World.
Context {St : Type} (E : env) (F : nat) (h : func St).
(** The server does its work, on a connection of its own. *)
Definition settle (w : world St) : res (world St) :=
  match inbox w with
  | Some _ => Ok w
  | None =>
      let* (p, s) := process pipe_net E F h F (mkPipe (cut (pl_req (cur w)) (sent w)) TErr []) (hs w) in
      Ok (mkWorld (todo w) (cur w) s (sent w) (Some (cut (pl_resp (cur w)) (p_out p))))
  end.
Definition world_net : net (world St) := mkNet
  (fun w => let* w := settle w in
            match todo w with
            | [] => Ok (w, false)
            | p :: l => Ok (mkWorld l p (hs w) [] None, pl_up p)
            end)
  (fun b w => let r := match sent w with [] => pl_w1 (cur w) | _ => pl_w2 (cur w) end in
              Ok (mkWorld (todo w) (cur w) (hs w) (sent w ++ b) (inbox w), fst r, snd r))
  (fun n w => let* w := settle w in
              match inbox w with
              | Some (s :: l) => Ok (mkWorld (todo w) (cur w) (hs w) (sent w) (Some (rest_of (skipn (Z.to_nat n) s) l)), firstn (Z.to_nat n) s, false)
              | _ => Ok (w, [], true)
              end).
(** A call on a client without a connection, and the state of the handlers when everything
    that was sent has been dealt with *)
Definition remote (plans : list plan) (g : graph) (s : St) : res (St * (option graph * option rerr)) :=
  let* (w, _, r) := Call world_net E F false (Some g) (mkWorld plans (mkPlan true (4, false) (0, false) [] []) s [] None) in
  let* w := settle w in
  Ok (hs w, r).
(** The same on a client with an open connection on which nothing is outstanding; [p] is what
    happens to the attempt on it. *)
Definition remote_open (p : plan) (plans : list plan) (g : graph) (s : St) : res (St * (option graph * option rerr)) :=
  let* (w, _, r) := Call world_net E F true (Some g) (mkWorld plans p s [] None) in
  let* w := settle w in
  Ok (hs w, r).
End World.

(** ** The same for protocol 1 *)

(** What happens to one attempt: whether dialing succeeds, what Write returns, how much of the
    request and of the response arrives, in which segments, and what a Read after that gives. *)
Record plan1 : Type := mkPlan1 { p1_up : bool; p1_w : Z * bool; p1_req : list nat; p1_rend : tail; p1_resp : list nat; p1_send : tail }.
Record world1 (St : Type) : Type := mkWorld1 { todo1 : list plan1; cur1 : plan1; hs1 : St; sent1 : bytes; inbox1 : option (list bytes) }.
Arguments mkWorld1 {St}. Arguments todo1 {St}. Arguments cur1 {St}. Arguments hs1 {St}. Arguments sent1 {St}. Arguments inbox1 {St}.
Section World1.
Context {St : Type} (E : env) (F : nat) (h : func St).
Definition settle1 (w : world1 St) : res (world1 St) :=
  match inbox1 w with
  | Some _ => Ok w
  | None =>
      let* (p, s) := process1 E F h F (mkPipe (cut (p1_req (cur1 w)) (sent1 w)) (p1_rend (cur1 w)) []) (hs1 w) in
      Ok (mkWorld1 (todo1 w) (cur1 w) s (sent1 w) (Some (cut (p1_resp (cur1 w)) (p_out p))))
  end.
Definition world_link : link (world1 St) := mkLink
  (fun w => let* w := settle1 w in
            match todo1 w with
            | [] => Ok (w, false)
            | p :: l => Ok (mkWorld1 l p (hs1 w) [] None, p1_up p)
            end)
  (fun b w => Ok (mkWorld1 (todo1 w) (cur1 w) (hs1 w) (sent1 w ++ b) (inbox1 w), fst (p1_w (cur1 w)), snd (p1_w (cur1 w))))
  (fun w => let* w := settle1 w in
            let* (p, g) := receive F (mkPipe (match inbox1 w with Some l => l | None => [] end) (p1_send (cur1 w)) []) in
            Ok (mkWorld1 (todo1 w) (cur1 w) (hs1 w) (sent1 w) (Some (p_in p)), g)).
Definition remote1 (plans : list plan1) (g : graph) (s : St) : res (St * (option graph * option rerr)) :=
  let* (w, _, r) := Call1 world_link E false (Some g) (mkWorld1 plans (mkPlan1 true (0, false) [] TErr [] TErr) s [] None) in
  let* w := settle1 w in
  Ok (hs1 w, r).
End World1.
(** g is what the parser makes of a beginning of the bytes b. *)
Definition torn (F : nat) (b : bytes) (g : graph) : Prop := exists c d e, b = c ++ d /\ FromBinaryReader F c e = Ok (Some g).
(** Runs of a handler, each with its request and its response *)
Inductive took {St} (h : func St) : St -> list (graph * option graph) -> St -> Prop :=
| took_none s : took h s [] s
| took_one g s s1 x l s2 : h g s = Ok (s1, x) -> took h s1 l s2 -> took h s ((g, x) :: l) s2.
(** Success means that some part of the last response was received. *)
Definition reported1 (E : env) (F : nat) (xs : list (graph * option graph)) (r : option graph * option rerr) : Prop :=
  match r with
  | (Some rg, None) => out rg <> [] /\ exists xs0 g x b, xs = xs0 ++ [(g, Some x)] /\ Binary E (Some x) = Ok (Some b) /\ torn F b rg
  | (None, Some _) => True
  | _ => False
  end.

(** The units of a list of requests as they should not be split: length and body of each *)
Fixpoint units (l : list (bytes * bytes)) : list bytes := match l with [] => [] | (h, b) :: l => h :: b :: units l end.
(** Segments that split none of the units *)
Definition unsplit (u : list bytes) (l : list bytes) : Prop := exists groups, List.concat groups = u /\ l = map (@List.concat byte) groups /\ Forall (fun g => g <> []) groups.

(** The handler last registered for a path p, given the registrations, the last one first *)
Inductive registered {St} (p : bytes) : list (bytes * option (func St)) -> option (func St) -> Prop :=
| registered_none : registered p [] None
| registered_here f l : registered p ((p, f) :: l) f
| registered_earlier q f l r : q <> p -> registered p l r -> registered p ((q, f) :: l) r.

(** The handler gets the requests one after the other and returns the responses. *)
Inductive handled {St} (h : func St) : list graph -> St -> list graph -> St -> Prop :=
| handled_none s : handled h [] s [] s
| handled_one g gs s x s1 xs s2 : h g s = Ok (s1, Some x) -> handled h gs s1 xs s2 -> handled h (g :: gs) s (x :: xs) s2.
(** Runs on one and the same request *)
Inductive runs {St} (h : func St) (g : graph) : St -> list (option graph) -> St -> Prop :=
| runs_none s : runs h g s [] s
| runs_one s s1 x l s2 : h g s = Ok (s1, x) -> runs h g s1 l s2 -> runs h g s (x :: l) s2.
(** The result r of a call, given the responses of the handler: success means that the last
    response was received. *)
Definition reported (E : env) (F : nat) (xs : list (option graph)) (r : option graph * option rerr) : Prop :=
  match r with
  | (Some rg, None) => exists xs0 x b, xs = xs0 ++ [Some x] /\ Binary E (Some x) = Ok (Some b) /\ FromBinary F b = Ok (Some rg)
  | (None, Some _) => True
  | _ => False
  end.

(** ** Several connections *)

(** The runs of the handler one after the other: for which connection, on what, with what answer *)
Inductive history {St : Type} (h : func St) : St -> list (nat * graph * option graph) -> St -> Prop :=
| history_nil s : history h s [] s
| history_cons s i g x s1 l s' : h g s = Ok (s1, x) -> history h s1 l s' -> history h s ((i, g, x) :: l) s'.
(** What was asked for connection i, and answered *)
Definition asked (i : nat) (l : list (nat * graph * option graph)) : list graph :=
  map (fun e => snd (fst e)) (filter (fun e => Nat.eqb (fst (fst e)) i) l).
Definition replies (i : nat) (l : list (nat * graph * option graph)) : list (option graph) :=
  map snd (filter (fun e => Nat.eqb (fst (fst e)) i) l).
(** A handler that gives the answers listed, one after the other, and notes what it was asked *)
Definition scripted : func (list (option graph) * list graph) := fun g s =>
  match fst s with x :: l => Ok ((l, snd s ++ [g]), x) | [] => Panic end.

(** The handler does not panic on graphs without nil subnodes and pointers, nor does the encoding
    of what it returns. *)
Definition sound_handler {St : Type} (E : env) (h : func St) : Prop :=
  forall g s, plain_graph g -> h g s <> Panic /\ forall s' x, h g s = Ok (s', x) -> Binary E x <> Panic.
