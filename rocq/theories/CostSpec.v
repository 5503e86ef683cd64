(** Counting the steps of a parser over the buffered lexer. *)
From Verif Require Import Base Value Event Lexer TextParser Stream Buffer.

(** The same run as [run_buf], with a count of the operations carried out: bytes read and
    unread, tokens, events sent to the handler, levels asked for.  Between two of them the
    parser only compares, assigns and calls. *)
Fixpoint run_count {A} (E : env) (f : nat) (m : prog A) (x : lexer) (h : handler) (t : nat) : res (A * lexer * handler * nat) :=
  match m with
  | Ret a => Ok (a, x, h, t)
  | GetB k => let* (c, ok, x) := b_byte x in run_count E f (k c ok) x h (S t)
  | UnB k => run_count E f k (b_unread x) h (S t)
  | Tok k => let* (s, x) := b_token E f [] x in run_count E f (k s) x h (S t)
  | Ev o k => let* h := h_step o h in run_count E f k x h (S t)
  | Lvl k => run_count E f (k (cur h)) x h (S t)
  | Stop => NoFuel
  end.

(** FromReader with the number of steps the parser took. *)
Definition FromReader_count (E : env) (fuel : nat) (types : bool) (rd : reader) : res (graph * nat) :=
  let* (_, _, h, n) := run_count E fuel (Ogdl fuel E fuel types) (NewLexer rd) h_init 0 in
  let* g := Tree h in Ok (g, n).
Definition FromString_count (E : env) (fuel : nat) (s : bytes) : res (graph * nat) := FromReader_count E fuel false (bytes_reader s).

(** No more than n blanks in a row. *)
Definition blank_runs (n : Z) (s : bytes) : Prop :=
  forall u w v, s = u ++ w ++ v -> Forall (fun c => is_space c = true) w -> Z.of_nat (List.length w) <= n.
