(** C18: the text emitter and the parser. *)
From Verif Require Import Base Value Event EventSpec EventFacts Lexer TextParser Stream Buffer BufferSpec BufferFacts BufferFacts2 TextTerm TextSpec TextDoc BinarySpec Emit EmitSpec EmitFacts Samples.

(** ** C18 FromString(g.Text()) is the forest that g prints as.  Full claim: every non-empty
    content of bytes > 32 (and separators below the top level), any depth.  [text_content]
    leaves out a leading backquote, a lone backslash or hash, a backslash before a backslash,
    a quote or the end of a quoted text, and levels beyond 1020. *)
Theorem C18_text_round_trip_partial : forall E g f, prints E (out g) f -> Forall (fun e => text_content (fst e) (snd e)) (pres 0 f) ->
  exists s, Text E (Some g) = Ok s /\
    forall fuel, (2 * List.length s + 3 <= fuel)%nat -> FromString E fuel s = Ok (groot f).
Proof. exact Text_round_trip. Qed.
Print Assumptions C18_text_round_trip_partial.

Definition ex_text : graph := nd "root" [nd "a" [nd "b c" []; nd "" [nd "d\e" [Node (VInt KInt 42) []]]]; Node (VStr []) [Some (nd "f" [Node (VStr (bs "(x, 'y')" ++ x0a :: bs "  ""z""")) [Some (nd "_" [])]])]].
Definition ex_text_forest : list tree := [tr "a" [tr "b c" []; tr "d\e" [tr "42" []]]; tr "f" [T (bs "(x, 'y')" ++ x0a :: bs "  ""z""") [tr "_" []]]].
Ltac words := repeat match goal with
  | |- Forall _ (_ :: _) => constructor
  | |- Forall _ [] => constructor
  | |- _ /\ _ => split
  | |- True => exact I
  | |- _ -> _ => intro
  | |- _ <> _ => discriminate
  | |- ~ _ => let H := fresh in intro H; repeat (destruct H as [H|H]; [discriminate|]); exact H
  | |- _ < _ => reflexivity
  | |- _ = _ => reflexivity || discriminate
  end.
Example C18_text_round_trip_ex : prints env0 (out ex_text) ex_text_forest /\
  Forall (fun e => text_content (fst e) (snd e)) (pres 0 ex_text_forest) /\
  Text env0 (Some ex_text) = Ok (bs "a" ++ x0a :: bs "  ""b c""" ++ x0a :: bs "  d\e" ++ x0a :: bs "    42" ++ x0a ::
    bs "f" ++ x0a :: bs "  ""(x, 'y')" ++ x0a :: bs "    \""z\""""" ++ x0a :: bs "    _").
Proof.
  split; [|split; [|vm_compute; reflexivity]].
  - apply prints_node; [reflexivity| |].
    + apply prints_node; [reflexivity|constructor|]. apply (prints_empty env0 _ _ _ [tr "d\e" [tr "42" []]] []); [reflexivity| |constructor].
      apply prints_node; [reflexivity| |constructor]. apply prints_node; [reflexivity|constructor|constructor].
    + apply (prints_empty env0 _ _ _ [_] []); [reflexivity| |constructor]. apply prints_node; [reflexivity| |constructor].
      apply prints_node; [reflexivity| |constructor]. apply prints_node; [reflexivity|constructor|constructor].
  - cbn [ex_text_forest pres pre flat_map app tr]. unfold text_content. cbn [fst snd].
    Ltac word := solve [split; [cbn; lia|left; unfold plain_ok, separator; cbn; words]].
    repeat (apply Forall_cons; [word || idtac|]); try apply Forall_nil.
    + split; [cbn; lia|right]. split; [cbn; lia|]. split; [apply Exists_exists; exists " "%byte; split; cbn; tauto|]. cbn; words.
    + split; [cbn; lia|right]. split; [cbn; lia|]. split; [apply Exists_exists; exists "("%byte; split; cbn; tauto|]. cbn; words.
Qed.

(** Every graph without nil pointers prints as some forest, so the first hypothesis only
    names it. *)
Theorem C18_prints_exists : forall E g, plain_graph g -> exists f, prints E (out g) f.
Proof. exact plain_prints. Qed.
Print Assumptions C18_prints_exists.

(** The full claim is false: words that do not come back, and one-character texts on which
    Text() panics. *)
Definition comes_back (g : graph) (f : list tree) : Prop :=
  exists s, Text env0 (Some g) = Ok s /\ (2 * List.length s + 3 <= 40)%nat /\ FromString env0 40 s = Ok (groot f).
Ltac ideal := unfold FromString; rewrite (FromReader_ideal _ _ _ _ _ (seen_bytes _)) by (vm_compute; (lia || discriminate)); vm_compute.
(** A lone hash is outside [text_content], since in a document a blank may follow it; the emitter
    writes none, and here it does come back. *)
Example C18_ex_hash : comes_back (groot [tr "a" [tr "#" [tr "c" []]; tr "b" []]]) [tr "a" [tr "#" [tr "c" []]; tr "b" []]].
Proof. eexists. split; [vm_compute; reflexivity|]. split; [cbn; lia|]. ideal. reflexivity. Qed.
Theorem C18_backquote_refuted : exists f, Forall (fun e => Forall (fun c => 32 < bz c) (snd e)) (pres 0 f) /\ ~ comes_back (groot f) f.
Proof.
  exists [tr "a" [tr "`b" []]]. split; [vm_compute; repeat constructor|]. intros (s & H & _ & Hs). vm_compute in H. injection H as <-. revert Hs. ideal. discriminate.
Qed.
Print Assumptions C18_backquote_refuted.

Theorem C18_backslash_refuted : exists f, Forall (fun e => Forall (fun c => 32 < bz c) (snd e)) (pres 0 f) /\ ~ comes_back (groot f) f.
Proof.
  exists [tr "a" [tr "\" []; tr "b" []]]. split; [vm_compute; repeat constructor|]. intros (s & H & _ & Hs). vm_compute in H. injection H as <-. revert Hs. ideal. discriminate.
Qed.
Print Assumptions C18_backslash_refuted.

Theorem C18_escapes_refuted : exists f, Forall (fun e => Forall (fun c => 32 < bz c) (snd e)) (pres 0 f) /\ ~ comes_back (groot f) f.
Proof.
  exists [tr "a" [tr "b\""" []]]. split; [vm_compute; repeat constructor|]. intros (s & H & _ & Hs). vm_compute in H. injection H as <-. revert Hs. ideal. discriminate.
Qed.
Print Assumptions C18_escapes_refuted.

Theorem C18_top_level_blank_needed : exists f, Forall (fun e => Forall (fun c => 32 <= bz c) (snd e)) (pres 0 f) /\ ~ comes_back (groot f) f.
Proof.
  exists [tr "a b" []]. split; [vm_compute; repeat constructor; discriminate|]. intros (s & H & _ & Hs). vm_compute in H. injection H as <-. revert Hs. ideal. discriminate.
Qed.
Print Assumptions C18_top_level_blank_needed.

Theorem C18_Text_panics_refuted : exists g, Text env0 (Some g) = Panic.
Proof. exists (nd "_" [nd """" []]). vm_compute. reflexivity. Qed.
Print Assumptions C18_Text_panics_refuted.
Theorem C18_Text_panics_CR_refuted : exists g, Text env0 (Some g) = Panic.
Proof. exists (nd "_" [Node (VStr [x0d]) []]). vm_compute. reflexivity. Qed.
Print Assumptions C18_Text_panics_CR_refuted.
