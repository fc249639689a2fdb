(* C99: the errors of the SSL library in calls of the crypter. *)
From Coq Require Import List NArith Bool.
From Verif Require Import Base Aead Hkdf HalfConn Options HsHandler Crypter SpecTls SpecHs SpecRecord SpecRx CrypterRun SpecAead HalfRun
  ErrQueue ErrCrypt SpecErrCrypt ErrCryptProofs ErrCryptCases ErrCryptEvery Toy.
Import ListNotations.
Local Open Scope N_scope.

(* [cstep_q] is one call of Protect, Unprotect or UpdateOutboundKey, [q] the
   error queue of the thread before the call. With the queue left out it is the
   call that all other properties are about. *)
Theorem C99_queue_changes_nothing : forall P lib x q op fs next,
  match cstep_q P lib x q op fs next with
  | Done (x', r, _) => cstep P lib x op fs = Done (x', r)
  | Undef u => cstep P lib x op fs = Undef u
  | NoFuel => cstep P lib x op fs = NoFuel
  end.
Proof. exact crypter_same. Qed.
Print Assumptions C99_queue_changes_nothing.

(* Every call, whatever the state, the queue and the failures. Unless a key
   update of the peer failed in it: no library call failed and the queue is as
   before; or the call failed and its status has all the errors; or
   UpdateOutboundKey failed and left them in the queue. If a key update of the
   peer failed, the errors are gone, or in the queue; the text never has them. *)
Theorem C99_each_call : forall P lib x q op fs next x' r e, cstep_q P lib x q op fs next = Done (x', r, e) ->
  (inbound_update_failed op x x' r /\ (vanished e \/ in_queue q e)) \/
  (inbound_broken x' = inbound_broken x /\
   (nothing_happened q e \/
    (~ succeeded r /\ returned q e) \/
    (op = CUpdateKey /\ ~ succeeded r /\ in_queue q e))).
Proof. exact each_crypter_call. Qed.
Print Assumptions C99_each_call.

(* C99 for all sequences of calls in which no key update of the peer failed: the
   texts that were returned, in order, and the errors in the queue at the end
   are the errors that were waiting and those that were raised: none lost, none
   twice, none out of order. *)
Theorem C99_nothing_lost_partial : forall P lib ops x q x' rs, crun_q P lib x q ops = Done (x', rs) ->
  inbound_broken x' = false -> texts rs ++ queue_after q rs = q ++ all_raised rs.
Proof. exact crypter_nothing_lost. Qed.
Print Assumptions C99_nothing_lost_partial.

(* Such a sequence, with failures in all three methods. *)
Example C99_nothing_lost_case : exists x x' r0 r1 r2 r3 r4, crypt_create toy OpenSSL ec_args [] = Done (inr x, []) /\
  crun_q toy OpenSSL x [4] ec_ops = Done (x', [r0; r1; r2; r3; r4]) /\ inbound_broken x' = false /\
  map (fun r => e_text (snd r)) [r0; r1; r2; r3; r4] = [[]; [4; 5; 6]; [7]; []; []] /\
  queue_after [4] [r0; r1; r2; r3; r4] = [8].
Proof. exact ec_case. Qed.

(* C99 is false: a key update of the peer for which the new cipher context cannot
   be set up. Its error, and one that was waiting, are gone. *)
Theorem C99_errors_lost_refuted : exists P lib a x op fs x' r e, crypt_create P lib a [] = Done (inr x, []) /\
  cstep_q P lib x [4] op fs [[1]] = Done (x', r, e) /\
  inbound_update_failed op x x' r /\ e_raised e = [1] /\ e_text e = [] /\ e_queue e = [].
Proof. exact ec_lost. Qed.
Print Assumptions C99_errors_lost_refuted.

(* With HMAC failing instead: not in the text, left in the queue. *)
Theorem C99_errors_left_refuted : exists P lib a x op fs x' r e, crypt_create P lib a [] = Done (inr x, []) /\
  cstep_q P lib x [4] op fs [[1]] = Done (x', r, e) /\
  inbound_update_failed op x x' r /\ e_raised e = [1] /\ e_text e = [] /\ e_queue e = [4; 1].
Proof. exact ec_left. Qed.
Print Assumptions C99_errors_left_refuted.

(* It is false on every key update of the peer, in every state, with both
   libraries, whatever errors are waiting and whatever error the failing call
   raises: if Unprotect, all library calls succeeding, would have installed a new
   key ([hc_epoch] counts them), there is a library call whose failure makes
   Unprotect fail with all of these errors gone. *)
Theorem C99_deviation_on_every_key_update : forall P lib x hd pl buf x' n out q err next,
  cstep P lib x (CUnprotect hd pl buf) [] = Done (x', CUnprotected S_OK n out) -> hc_epoch (cx_in x') <> hc_epoch (cx_in x) ->
  exists fs x2 r e, cstep_q P lib x q (CUnprotect hd pl buf) fs (err :: next) = Done (x2, r, e) /\
    inbound_update_failed (CUnprotect hd pl buf) x x2 r /\ e_raised e = err /\ vanished e.
Proof. exact update_lost. Qed.
Print Assumptions C99_deviation_on_every_key_update.

(* Such a key update. *)
Example C99_key_update_case : exists x hd pl buf x' n out, crypt_create toy OpenSSL ec_args [] = Done (inr x, []) /\
  ec_key_update = CUnprotect hd pl buf /\
  cstep toy OpenSSL x (CUnprotect hd pl buf) [] = Done (x', CUnprotected S_OK n out) /\ hc_epoch (cx_in x) = 0 /\ hc_epoch (cx_in x') = 1.
Proof. exact ec_update. Qed.
