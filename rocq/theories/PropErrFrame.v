(* C100: the errors of the SSL library in calls of the frame protector. *)
From Coq Require Import List NArith Bool.
From Verif Require Import Base Aead Hkdf HalfConn Options HsHandler Crypter FrameProt SpecTls SpecHs SpecRecord SpecRx CrypterRun SpecFrame FrameRun
  SpecAead HalfRun ErrQueue ErrCrypt SpecErrCrypt ErrFrame SpecErrFrame ErrFrameEvery ErrFrameProofs Toy FrameExamples ErrFrameCases.
Import ListNotations.
Local Open Scope N_scope.

(* [fstep_q] is one call on a frame protector, [q] the error queue of the thread
   before the call. With the queue left out, it and [fp_create_q] are the functions
   that all other properties are about. *)
Theorem C100_queue_changes_nothing : forall P lib al f q op fs next,
  match fstep_q P lib al f q op fs next with
  | Done (f', r, _) => fstep P lib al f op fs = Done (f', r)
  | Undef u => fstep P lib al f op fs = Undef u
  | NoFuel => fstep P lib al f op fs = NoFuel
  end.
Proof. exact protector_same. Qed.
Print Assumptions C100_queue_changes_nothing.

Theorem C100_queue_changes_nothing_in_create : forall P lib a q next fs,
  match fp_create_q P lib a {| e_queue := q; e_next := next; e_text := []; e_raised := [] |} fs with
  | Done ((r, _), fs') => fp_create P lib a fs = Done (r, fs')
  | Undef u => fp_create P lib a fs = Undef u
  | NoFuel => fp_create P lib a fs = NoFuel
  end.
Proof. exact protector_create_same. Qed.
Print Assumptions C100_queue_changes_nothing_in_create.

(* Every call, of any number of records, whatever the state, the queue and the
   failures. Unless a key update of the peer failed in it: no library call failed
   and the queue is as before, or the call failed and its status has all the
   errors. If a key update failed, its errors are gone or in the queue. *)
Theorem C100_each_call : forall P lib al f q op fs next f' r e, fstep_q P lib al f q op fs next = Done (f', r, e) ->
  (key_update_failed op f f' r /\ (vanished e \/ in_queue q e)) \/
  (receiving_broken f' = receiving_broken f /\ (nothing_happened q e \/ (status_of r <> kOk /\ returned q e))).
Proof. exact each_protector_call. Qed.
Print Assumptions C100_each_call.

(* An Unprotect that fails otherwise than with kInternal, on its arguments or on
   the framing of the input, does not touch the queue. *)
Theorem C100_refused_input : forall P lib al f q op fs next f' r e, fstep_q P lib al f q op fs next = Done (f', r, e) ->
  match op with FUnprotect _ | FUnprotectInto _ _ => True | _ => False end -> status_of r <> kInternal -> nothing_happened q e.
Proof. exact unprotect_other_failure. Qed.
Print Assumptions C100_refused_input.

Example C100_refused_input_case : exists f e fs f' r e', fp_create_q toy OpenSSL ef_args (no_errors []) [] = Done ((inr f, e), fs) /\
  fstep_q toy OpenSSL toy_al f [4] (FUnprotect [IoBuf [23; 3]]) [] [] = Done (f', r, e') /\ status_of r = kFailedPrecondition /\ e_queue e' = [4].
Proof. exact ef_refused. Qed.

(* Creation: a protector is returned only if no library call failed; otherwise
   the errors are in the status or in the queue. *)
Theorem C100_create : forall P lib a q next fs r e fs',
  fp_create_q P lib a {| e_queue := q; e_next := next; e_text := []; e_raised := [] |} fs = Done ((r, e), fs') ->
  match r with
  | inl st => nothing_happened q e \/ (st <> kOk /\ (returned q e \/ in_queue q e))
  | inr f => nothing_happened q e /\ receiving_broken f = false
  end.
Proof. exact protector_create. Qed.
Print Assumptions C100_create.

(* Both kinds of failure occur. *)
Example C100_create_case : exists e1 e2 fs1 fs2,
  fp_create_q toy OpenSSL ef_args (no_errors [[1]]) [true] = Done ((inl kInternal, e1), fs1) /\ in_queue [] e1 /\ e_raised e1 = [1] /\
  fp_create_q toy OpenSSL ef_args (no_errors [[2]]) (repeat false 10 ++ [true]) = Done ((inl kInternal, e2), fs2) /\
  returned [] e2 /\ e_raised e2 = [2].
Proof. exact ef_create. Qed.

(* C100 for all sequences of calls in which no key update of the peer failed:
   every call returns exactly the errors it raised, none if it succeeds, and
   leaves none behind. *)
Theorem C100_own_errors_partial : forall P lib al ops f f' rs, frun_q P lib al f [] ops = Done (f', rs) -> receiving_broken f' = false ->
  Forall reports_its_own rs.
Proof. exact protector_own. Qed.
Print Assumptions C100_own_errors_partial.

(* And if other users of the library left errors in the queue, none is lost. *)
Theorem C100_nothing_lost_partial : forall P lib al ops f q f' rs, frun_q P lib al f q ops = Done (f', rs) -> receiving_broken f' = false ->
  texts rs ++ queue_after q rs = q ++ all_raised rs.
Proof. exact protector_nothing_lost. Qed.
Print Assumptions C100_nothing_lost_partial.

(* Such a sequence: a failure in the second record of an Unprotect, a failing
   Protect, a Protect that succeeds. *)
Example C100_own_errors_case : exists f e f' r0 r1 r2, fp_create_q toy OpenSSL ef_args (no_errors []) [] = Done ((inr f, e), []) /\
  frun_q toy OpenSSL toy_al f (e_queue e) ef_ops = Done (f', [r0; r1; r2]) /\ receiving_broken f' = false /\
  map (fun r => status_of (fst r)) [r0; r1; r2] = [kInternal; kInternal; kOk] /\
  map (fun r => e_text (snd r)) [r0; r1; r2] = [[5; 6]; [7]; []].
Proof. exact ef_case. Qed.

(* C100 is false: the error of a failed key update of the peer reaches nobody, *)
Theorem C100_errors_lost_refuted : exists P lib al a f e0 fs0 op fs f' r e, fp_create_q P lib a (no_errors []) [] = Done ((inr f, e0), fs0) /\
  fstep_q P lib al f [] op fs [[1]] = Done (f', r, e) /\ key_update_failed op f f' r /\
  e_raised e = [1] /\ e_text e = [] /\ e_queue e = [].
Proof. exact ef_lost. Qed.
Print Assumptions C100_errors_lost_refuted.

(* or is returned by a later call, in the other direction, that failed for
   another reason. *)
Theorem C100_stale_error_refuted : exists P lib al a f e0 fs0 ops f' r1 r2, fp_create_q P lib a (no_errors []) [] = Done ((inr f, e0), fs0) /\
  frun_q P lib al f [] ops = Done (f', [r1; r2]) /\
  status_of (fst r1) = kInternal /\ e_raised (snd r1) = [1] /\ e_text (snd r1) = [] /\ e_queue (snd r1) = [1] /\
  status_of (fst r2) = kInternal /\ e_raised (snd r2) = [2] /\ e_text (snd r2) = [1; 2] /\ e_queue (snd r2) = [].
Proof. exact ef_stale. Qed.
Print Assumptions C100_stale_error_refuted.

(* It is false for every frame protector, on every key update of the peer,
   whatever errors are waiting and whatever error the failing call raises: if
   Unprotect of any number of records (or of one into a given buffer), all
   library calls succeeding, would have installed a new key ([hc_epoch] counts
   them), there is a library call whose failure makes it fail with all of these
   errors gone. *)
Theorem C100_deviation_on_every_key_update : forall P lib al f op f' r q err next,
  match op with FUnprotect _ | FUnprotectInto _ _ => True | _ => False end ->
  fstep P lib al f op [] = Done (f', r) -> status_of r = kOk -> hc_epoch (cx_in (fp_crypt f')) <> hc_epoch (cx_in (fp_crypt f)) ->
  exists fs f2 r2 e, fstep_q P lib al f q op fs (err :: next) = Done (f2, r2, e) /\
    key_update_failed op f f2 r2 /\ e_raised e = err /\ vanished e.
Proof. exact protector_lost. Qed.
Print Assumptions C100_deviation_on_every_key_update.

(* Such a call: a record with application data, then a KeyUpdate. *)
Example C100_key_update_case : exists f e fs f' r, fp_create_q toy OpenSSL ef_args (no_errors []) [] = Done ((inr f, e), fs) /\
  fstep toy OpenSSL toy_al f ef_updating [] = Done (f', r) /\ status_of r = kOk /\
  hc_epoch (cx_in (fp_crypt f)) = 0 /\ hc_epoch (cx_in (fp_crypt f')) = 1.
Proof. exact ef_update. Qed.
