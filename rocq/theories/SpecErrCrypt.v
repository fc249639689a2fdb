(* What C99 says about the errors of the SSL library in calls of the crypter. *)
From Coq Require Import List NArith Bool.
From Verif Require Import Base Aead Hkdf HalfConn Options HsHandler Crypter SpecTls SpecHs SpecRecord SpecRx CrypterRun SpecAead HalfRun ErrQueue ErrCrypt.
Import ListNotations.
Local Open Scope N_scope.

(* With [q] the error queue before a call and [e] what became of it:
   no library call failed, and the queue is as before; *)
Definition nothing_happened (q : list entry) (e : errs) : Prop :=
  e_raised e = [] /\ e_text e = [] /\ e_queue e = q.
(* the errors are in the text that was returned; *)
Definition returned (q : list entry) (e : errs) : Prop :=
  e_text e = q ++ e_raised e /\ e_queue e = [].
(* the errors are in the queue, the text has none; *)
Definition in_queue (q : list entry) (e : errs) : Prop :=
  e_text e = [] /\ e_queue e = q ++ e_raised e.
(* the errors, and those that were waiting, are neither in the text nor in the
   queue. *)
Definition vanished (e : errs) : Prop := e_text e = [] /\ e_queue e = [].

Definition succeeded (r : cres) : Prop :=
  match r with
  | CProtected st _ _ | CUnprotected st _ _ => st = S_OK
  | CUpdated st => st = kOk
  end.

(* A key update of the peer failed in this call. *)
Definition inbound_update_failed (op : cop) (x x' : crypt) (r : cres) : Prop :=
  inbound_broken x = false /\ inbound_broken x' = true /\
  match op, r with
  | CUnprotect _ _ _, CUnprotected st n _ => st = S_INTERNAL_ERROR /\ n = 0
  | _, _ => False
  end.

(* All texts, all errors raised, the queue at the end. *)
Definition texts {A} (rs : list (A * errs)) : list entry := flat_map (fun p => e_text (snd p)) rs.
Definition all_raised {A} (rs : list (A * errs)) : list entry := flat_map (fun p => e_raised (snd p)) rs.
Definition queue_after {A} (q : list entry) (rs : list (A * errs)) : list entry := last (map (fun p => e_queue (snd p)) rs) q.
