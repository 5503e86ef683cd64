(** Model of the calls of Go functions and methods through reflection (function.go).

    A library says which functions and methods there are.  Types are identified by the text
    that reflect.Type.String gives; functions are not variadic and do not modify the graph. *)
From Verif Require Import Base Value Graph Eval Views.

(** A value handed over to a function: an argument, or the zero value of a type *)
Inductive passed : Type := Arg (a : argument) | Zero (t : bytes).

Record signature : Type := {
  params : list bytes;                                  (* the types of the parameters *)
  results : list bytes;                                 (* the types of the results *)
  body : list passed -> res (list (value graph))
}.
Record library : Type := {
  functions : N -> signature;
  methods : value graph -> bytes -> option signature;   (* MethodByName; the receiver is in the body *)
  type_other : value graph -> bytes;                    (* types of functions and objects *)
  parse_bool : bytes -> option bool;                    (* strconv.ParseBool *)
  float_error : bytes -> spec_float;                    (* what ParseFloat returns with an error *)
  json : graph -> res bytes
}.

(** Errors of function.go:92 and 97 *)
Definition ErrArgCount : N := 7.
Definition ErrArgTypes : N := 8.

(** vv[0].Interface(), or nil if there are no results: the other results are dropped *)
Definition first_result (vv : list (value graph)) : value graph := match vv with [] => VNil | v :: _ => v end.

Section Func.
Variable E : env.
Variable L : library.

(** function.go:37-39, 56: whether the type is that of a remote function *)
Definition rfType (s : signature) : bool :=
  match params s, results s with
  | [p], [r1; r2] => bseq p (bs "*ogdl.Graph") && bseq r1 (bs "*ogdl.Graph") && bseq r2 (bs "error")
  | _, _ => false
  end.

(** function.go:80-87; In(i) panics if there is no such parameter *)
Fixpoint vargs (ps : list bytes) (args : list (value graph)) : res (list passed) :=
  match args with
  | [] => Ok []
  | a :: args =>
      let* x := match a with
                | VNil => match ps with t :: _ => Ok (Zero t) | [] => Panic end
                | _ => Ok (Arg (AVal a))
                end in
      let* l := vargs (tl ps) args in Ok (x :: l)
  end.
(** vargs[i].Type().String() *)
Definition passed_type (x : passed) : bytes :=
  match x with
  | Arg (AVal v) => type_name (type_other L) v
  | Arg (AStrings _) => bs "[]string"
  | Zero t => t
  end.
(** function.go:95-99 *)
Fixpoint types_match (ps : list bytes) (l : list passed) : bool :=
  match ps, l with
  | t :: ps, x :: l => bseq t (passed_type x) && types_match ps l
  | _, _ => true
  end.
(** function.go:80-107 on evaluated arguments *)
Definition call_function (s : signature) (args : list (value graph)) : res eres :=
  let* l := vargs (params s) args in
  if negb (List.length (params s) =? List.length args)%nat then Ok (EErr ErrArgCount)
  else if negb (types_match (params s) l) then Ok (EErr ErrArgTypes)
  else let* vv := body s l in Ok (EVal (first_result vv)).

(** function.go:143-155; an argument that does not convert makes Call panic *)
Fixpoint method_args (ps : list bytes) (args : list (value graph)) : res (list passed) :=
  match ps with
  | [] => Ok []
  | t :: ps =>
      let* x := match args with
                | [] | VNil :: _ => Ok (Zero t)
                | a :: _ =>
                    let* c := convert E (type_other L) (parse_bool L) (float_error L) a t in
                    match c with Some c => Ok (Arg c) | None => Panic end
                end in
      let* l := method_args ps (tl args) in Ok (x :: l)
  end.
(** function.go:143-164 on evaluated arguments *)
Definition call_method (s : signature) (args : list (value graph)) : res eres :=
  let* l := method_args (params s) args in
  let* vv := body s l in Ok (EVal (first_result vv)).

(** function.go:23-170, the parts that Eval.function leaves open *)
Definition reflected : calls := {|
  remote id := rfType (functions L id);
  has_method v name := match methods L v name with Some _ => true | None => false end;
  call v name args :=
    match v with
    | VFun id => call_function (functions L id) args
    | _ => match methods L v name with Some s => call_method s args | None => Ok (EErr ErrNoMethod) end
    end;
  to_json := json L
|}.
End Func.
