(* C89: the memory a peer can make a connection hold. *)
From Coq Require Import List NArith Bool.
From Verif Require Import Base Aead Hkdf HalfConn SpecAead SpecTls Options HsHandler SpecHs SpecHandler Crypter SpecRecord SpecRx CrypterRun
  FrameProt SpecFrame FrameRun FrameFinal Toy RecordExamples FrameExamples Held HeldProofs HeldFinal HeldEvery HeldCases.
Import ListNotations.
Local Open Scope N_scope.

(* Whatever the peer sends, in every state a frame protector reaches it keeps
   less than seven handshake messages of the largest size, in at most as many
   pieces as bytes: the five tickets to store and the message being read. *)
Theorem C89_memory_bounded : forall P lib al a ops rs f, protector P lib al a ops rs f ->
  held (cx_handler (fp_crypt f)) <= 6 * (4 + 16777215) + 3 /\
  lenN (kept_fragments (cx_handler (fp_crypt f))) <= held (cx_handler (fp_crypt f)).
Proof. exact D89f. Qed.
Print Assumptions C89_memory_bounded.
Example C89_memory_bounded_case : forall lib s, exists f, protector toy lib toy_al (fargs s) [] [] f.
Proof. exact fresh_protector. Qed.

(* The same of the handler alone, given any records, empty and null fragments
   included, and any calls in between. *)
Theorem C89_handler_bounded : forall ops h rs, Forall hop_ok ops -> hrun new_handler ops = Done (h, rs) ->
  held h <= 6 * (4 + 16777215) + 3 /\ lenN (kept_fragments h) <= held h.
Proof. exact D89h. Qed.
Print Assumptions C89_handler_bounded.

(* The bound cannot be lowered by more than four bytes. *)
Theorem C89_bound_reached : exists c rs h, bytes_ok c /\ hrun new_handler [HRecord (IoBuf c)] = Done (h, [HResult (inr rs)]) /\
  held h = 6 * (4 + 16777215) - 1.
Proof. exact R89. Qed.
Print Assumptions C89_bound_reached.

(* While the messages received are well-formed, exactly how much is held: the
   tickets to store, and what has been read of the next message, of which only
   the header if it is a ticket that will not be stored. *)
Theorem C89_memory_exact : forall P lib a ops rs x r, connection P lib a ops rs x -> received P a ops rs r -> d_broken (r_dir r) = false ->
  let handed_over := match r_sent r with [] => false | _ => true end in
  let ts := tickets_of (r_msgs r) in
  held (cx_handler x) =
    (if handed_over then 0 else lenN (concat (firstn 5 ts))) +
    (if (handed_over || (5 <=? lenN ts)) && is_ticket (r_part r) then N.min 4 (lenN (r_part r)) else lenN (r_part r)).
Proof. exact D89exact2. Qed.
Print Assumptions C89_memory_exact.
Example C89_memory_exact_case : forall lib s, exists x rs r,
  connection toy lib (arg s) [hs_op (d_in (arg s)) two_cut] rs x /\
  received toy (arg s) [hs_op (d_in (arg s)) two_cut] rs r /\ d_broken (r_dir r) = false /\
  tickets_of (r_msgs r) = [ticket [1; 2]] /\ r_part r = [4; 0] /\ r_sent r = [] /\ held (cx_handler x) = lenN (ticket [1; 2]) + 2.
Proof. exact held_case. Qed.

(* On every connection that has not yet received tickets the peer can make it
   hold five of the largest messages less a byte, with records that are all
   accepted. *)
Theorem C89_every_connection : forall P lib a ops rs x r, connection P lib a ops rs x -> received P a ops rs r ->
  r_closed r = false -> d_broken (r_dir r) = false -> d_seq (r_dir r) + 5125 <= two64 ->
  r_part r = [] -> tickets_of (r_msgs r) = [] -> r_sent r = [] ->
  exists ops' rs' x', connection P lib a (ops ++ ops') (rs ++ rs') x' /\ Forall (fun q => exists out, q = CUnprotected S_OK 0 out) rs' /\
    held (cx_handler x') = 5 * (4 + 16777215) - 1.
Proof. exact D89every. Qed.
Print Assumptions C89_every_connection.
Example C89_every_connection_case : forall lib s, exists x r, connection toy lib (arg s) [] [] x /\ received toy (arg s) [] [] r /\
  r_closed r = false /\ d_broken (r_dir r) = false /\ d_seq (r_dir r) + 5125 <= two64 /\ r_part r = [] /\ tickets_of (r_msgs r) = [] /\ r_sent r = [].
Proof. exact every_case. Qed.
