(* What C100 says about the errors of the SSL library in calls of the frame
   protector. *)
From Coq Require Import List NArith Bool.
From Verif Require Import Base Aead Hkdf HalfConn Options HsHandler Crypter FrameProt SpecTls SpecHs SpecRecord SpecRx CrypterRun SpecFrame FrameRun
  SpecAead HalfRun ErrQueue ErrCrypt SpecErrCrypt.
Import ListNotations.
Local Open Scope N_scope.

Definition status_of (r : fres) : code :=
  match r with
  | FProtected st _ | FProtectedInto st _ | FUnprotected st _ | FUnprotectedInto st _ _ => st
  end.

(* A key update of the peer has failed: no record can be received any more. *)
Definition receiving_broken (f : fprot) : bool := inbound_broken (fp_crypt f).

(* It failed in this call. *)
Definition key_update_failed (op : fop) (f f' : fprot) (r : fres) : Prop :=
  receiving_broken f = false /\ receiving_broken f' = true /\ status_of r = kInternal /\
  match op with FUnprotect _ | FUnprotectInto _ _ => True | _ => False end.

(* The text has exactly the errors of the call, and the queue is empty. *)
Definition reports_its_own (p : fres * errs) : Prop :=
  e_text (snd p) = e_raised (snd p) /\ e_queue (snd p) = [] /\
  (status_of (fst p) = kOk -> e_raised (snd p) = []).
