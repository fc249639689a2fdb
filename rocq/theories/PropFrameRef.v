(* The frame protector refines the reference of FrameRef.v: C65. *)
From Coq Require Import List NArith Bool.
From Verif Require Import Base Aead Hkdf HalfConn SpecAead SpecTls Options HsHandler Crypter SpecHs SpecRecord SpecRx
  CrypterRun FrameProt SpecFrame FrameRun Toy FrameExamples FrameRef FrameRefProofs FrameRefExample.
Import ListNotations.
Local Open Scope N_scope.

(* C65. All answers of a history are answers of the reference, and, as long as
   the peer's handshake stream is well-formed, the tickets sent to S2A are
   those of the reference, and a call with undefined behaviour is one of those
   the reference names. *)
Theorem C65_refines : forall P lib al a ops rs f, protector P lib al a ops rs f ->
  exists s, ref_run P (ref_start a) ops (map answer_of rs) s /\
    (r_bad (f_rx s) = false ->
      map ts_tickets (cx_sent (fp_crypt f)) = r_sent (f_rx s) /\
      forall op fs u, fop_ok op -> fstep P lib al f op fs = Undef u -> ref_undef P (fs <> []) s op).
Proof. exact F65. Qed.
Print Assumptions C65_refines.

(* Without library failures the reference leaves no choice: its answers are the
   protector's. Null pointers in the input of Protect are included (C86). *)
Theorem C65_answers_unique : forall P lib al a ops rs f answers s, protector P lib al a ops rs f ->
  no_failures ops ->
  ref_run P (ref_start a) ops answers s -> r_bad (f_rx s) = false ->
  map answer_of rs = answers.
Proof. exact F65det. Qed.
Print Assumptions C65_answers_unique.

Example C65_case : exists f rs s, protector toy OpenSSL toy_al (fargs S0) ops2 rs f /\
  no_failures ops2 /\
  ref_run toy (ref_start (fargs S0)) ops2 (map answer_of rs) s /\ r_bad (f_rx s) = false /\
  map answer_of rs = [ABuffers kOk [[1; 2; 3]; [4]]; ABuffers kOk [records toy (f_out (fargs S0)) [[7; 7]]]].
Proof. exact ref_case. Qed.
