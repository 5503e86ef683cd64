(** C13, C14: the buffered lexer and its reader. *)
From Verif Require Import Base Value Event Lexer TextParser Stream Buffer BufferSpec BufferFacts BufferFacts2 Samples.

(** ** C13 Reading and unreading gives the bytes of the input in order, for any length,
    as long as no more than 2048 bytes are unread below the furthest position. *)
Theorem C13_bytes_in_order : forall data os, near (List.length data) os 0 0 = true ->
  x_ops os (NewLexer (bytes_reader data)) = Ok (p_ops data os 0).
Proof. exact ops_of_bytes. Qed.
Print Assumptions C13_bytes_in_order.

Example C13_bytes_in_order_ex :
  near 5000 (RUnread :: repeat RByte 3 ++ [RUnread; RUnread; RByte; RUnread]) 0 0 = true /\
  near 3 (repeat RByte 6 ++ [RUnread; RUnread; RByte; RUnread]) 0 0 = true /\
  p_ops (bs "abc") (repeat RByte 6 ++ [RUnread; RUnread; RByte; RByte]) 0 =
  [Some "a"; Some "b"; Some "c"; None; None; None; Some "c"; None]%byte.
Proof. split; [vm_compute; reflexivity|]. split; vm_compute; reflexivity. Qed.

(** The same for any reader, with what is seen of it (see C14). *)
Theorem C13_bytes_in_order_reader : forall rd os, near (List.length (seen (size rd) rd)) os 0 0 = true ->
  x_ops os (NewLexer rd) = Ok (p_ops (seen (size rd) rd) os 0).
Proof. exact ops_of_reader. Qed.
Print Assumptions C13_bytes_in_order_reader.

Example C13_bytes_in_order_reader_ex :
  let rd := [(bs "ab", false); (bs "c", false); (bs "lost", true)] in
  seen (size rd) rd = bs "abc" /\ near 3 [RByte; RByte; RUnread; RByte; RByte; RByte] 0 0 = true /\
  p_ops (bs "abc") [RByte; RByte; RUnread; RByte; RByte; RByte] 0 = [Some "a"; Some "b"; Some "b"; Some "c"; None]%byte.
Proof. split; [vm_compute; reflexivity|]. split; [vm_compute; reflexivity|]. vm_compute. reflexivity. Qed.

(** The limit of 2048 is exact: with one more, UnreadByte does nothing. *)
Theorem C13_limit_exact_refuted : exists data,
  let os := repeat RByte (Z.to_nat 4096) ++ repeat RUnread (S (Z.to_nat 2048)) ++ [RByte] in
  x_ops os (NewLexer (bytes_reader data)) <> Ok (p_ops data os 0).
Proof.
  exists (repeat "a"%byte (Z.to_nat 2048) ++ repeat "b"%byte (Z.to_nat 2048)).
  apply unread_limit; rewrite ?repeat_length; try apply Z2Nat.id; try lia.
  rewrite !nth_error_repeat by lia. discriminate.
Qed.
Print Assumptions C13_limit_exact_refuted.

(** ** C14 Independence from how the reader delivers.
    Full claim: FromReader(r) depends only on r's data.  False (see below).  True is: it
    depends only on the part that is seen, for every reader and every text. *)
Theorem C14_only_seen_part_partial : forall E fuel types rd,
  FromReader E fuel types rd = FromReader E fuel types (bytes_reader (seen (size rd) rd)).
Proof. exact FromReader_seen. Qed.
Print Assumptions C14_only_seen_part_partial.

Example C14_only_seen_part_ex :
  let rd := [(bs "a", false); (bs " b", false); (bs " c", true); (bs " d", false)] in
  seen (size rd) rd = bs "a b" /\
  FromReader env0 20 false rd = Ok (nd "_" [nd "a" [nd "b" []]]).
Proof.
  cbv zeta. split; [vm_compute; reflexivity|].
  rewrite (FromReader_ideal _ _ _ _ (bs "a b")); [vm_compute; reflexivity|vm_compute; reflexivity|cbn; lia|cbn; lia].
Qed.

(** Everything is seen of a reader that delivers multiples of 2048 bytes (at first 4096). *)
Theorem C14_block_readers_partial : forall E fuel types rd data, blocks rd data -> first_full rd ->
  FromReader E fuel types rd = FromReader E fuel types (bytes_reader data).
Proof. exact FromReader_blocks. Qed.
Print Assumptions C14_block_readers_partial.

Example C14_block_readers_ex :
  let a := repeat "a"%byte (Z.to_nat 4096) in let b := repeat "b"%byte (Z.to_nat 2048) in
  blocks [(a, false); (b, false); (bs "c", false)] (a ++ b ++ bs "c") /\ first_full [(a, false); (b, false); (bs "c", false)].
Proof.
  cbv zeta. split; [|vm_compute; discriminate].
  apply blocks_cons; [discriminate|reflexivity|]. apply blocks_cons; [discriminate|reflexivity|]. apply blocks_last. discriminate.
Qed.

(** Everything is seen of a reader that delivers at most 2048 bytes in fewer than 100 pieces
    of any size, with the error after the data. *)
Theorem C14_small_readers_partial : forall E fuel types rd, (List.length rd < 100)%nat ->
  Forall (fun de => snd de = false) rd -> Z.of_nat (List.length (rd_data rd)) <= 2048 ->
  FromReader E fuel types rd = FromReader E fuel types (bytes_reader (rd_data rd)).
Proof. exact FromReader_small. Qed.
Print Assumptions C14_small_readers_partial.

Example C14_small_readers_ex :
  let rd := [(bs "a ", false); ([], false); (bs "b", false)] in
  (List.length rd < 100)%nat /\ Forall (fun de => snd de = false) rd /\ rd_data rd = bs "a b".
Proof. cbv zeta. split; [cbn; lia|]. split; [repeat constructor|reflexivity]. Qed.

(** Data that comes together with an error is lost. *)
Theorem C14_data_with_EOF_refuted : exists rd g, rd_data rd = bs "a" /\
  FromReader env0 20 false rd = Ok g /\ FromString env0 20 (bs "a") <> Ok g.
Proof.
  exists [(bs "a", true)]. eexists. split; [reflexivity|]. unfold FromString.
  rewrite (FromReader_ideal _ _ _ _ []); [|vm_compute; reflexivity|cbn; lia|cbn; lia].
  rewrite (FromReader_ideal _ _ _ (bytes_reader (bs "a")) (bs "a")); [|vm_compute; reflexivity|cbn; lia|cbn; lia].
  split; [vm_compute; reflexivity|]. vm_compute. discriminate.
Qed.
Print Assumptions C14_data_with_EOF_refuted.

(** A reader that delivers one byte at a time is cut after 100 bytes. *)
Definition ex_hundred : bytes := repeat " "%byte (Z.to_nat 99) ++ bs "abc".
Theorem C14_one_byte_at_a_time_refuted : exists rd g, rd_data rd = ex_hundred /\ Forall (fun de => snd de = false) rd /\
  FromReader env0 150 false rd = Ok g /\ FromString env0 150 ex_hundred <> Ok g.
Proof.
  exists (map (fun c => ([c], false)) ex_hundred). eexists. split; [vm_compute; reflexivity|].
  split; [vm_compute; repeat constructor|]. unfold FromString.
  rewrite (FromReader_ideal _ _ _ _ (firstn 100 ex_hundred)); [|vm_compute; reflexivity|vm_compute; discriminate|vm_compute; lia].
  rewrite (FromReader_ideal _ _ _ (bytes_reader ex_hundred) ex_hundred); [|vm_compute; reflexivity|vm_compute; discriminate|vm_compute; lia].
  split; [vm_compute; reflexivity|]. vm_compute. discriminate.
Qed.
Print Assumptions C14_one_byte_at_a_time_refuted.

(** A reader whose first Read gives between 2048 and 4095 bytes is cut there. *)
Definition ex_first : bytes := repeat x0a (Z.to_nat 2048).
Theorem C14_short_first_read_refuted : exists rd g, rd_data rd = ex_first ++ bs "b" /\ Forall (fun de => snd de = false) rd /\
  FromReader env0 (Z.to_nat 3000) false rd = Ok g /\ FromString env0 (Z.to_nat 3000) (ex_first ++ bs "b") <> Ok g.
Proof.
  assert (Hl : List.length ex_first = Z.to_nat 2048) by apply repeat_length.
  exists [(ex_first, false); (bs "b", false)]. eexists. split; [reflexivity|].
  split; [repeat constructor|]. unfold FromString.
  rewrite (FromReader_ideal _ _ _ _ ex_first); [|apply seen_two; rewrite Hl; lia|lia|lia].
  rewrite (FromReader_ideal _ _ _ (bytes_reader (ex_first ++ bs "b")) (ex_first ++ bs "b"));
    [|apply seen_bytes|rewrite app_length; change (List.length (bs "b")) with 1%nat; lia|rewrite app_length; change (List.length (bs "b")) with 1%nat; lia].
  split; [vm_compute; reflexivity|]. vm_compute. discriminate.
Qed.
Print Assumptions C14_short_first_read_refuted.
