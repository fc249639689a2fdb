(* What C98 says about the error queue, in terms of what can be seen of a call. *)
From Coq Require Import List NArith Bool.
From Verif Require Import Base Aead Hkdf HalfConn SpecAead SpecTls HalfRun ErrQueue.
Import ListNotations.
Local Open Scope N_scope.

(* The call returned the errors that were raised, and those that were waiting
   in the queue [q] before, in the text of its status; none remain. *)
Definition reported (q : list entry) (s : seen) : Prop :=
  s_text s = q ++ s_raised s /\ s_queue s = [].

(* The call returned no text of the library; its errors are in the queue. *)
Definition left_behind (q : list entry) (s : seen) : Prop :=
  s_text s = [] /\ s_queue s = q ++ s_raised s.

(* The call returned exactly the errors it raised; none remain. *)
Definition own_errors (s : seen) : Prop := s_text s = s_raised s /\ s_queue s = [].

(* The queue after the calls [ss], if it was [q] before. *)
Definition final_queue (q : list entry) (ss : list seen) : list entry := last (map s_queue ss) q.

(* The status in a result of [hstep]. *)
Definition res_code (r : hres) : code := match r with HCrypt st _ _ => st | HUpdated st => st end.

(* Calls that derive keys and failed. *)
Definition derivation_failed (p : top * seen) : Prop :=
  derives_keys (fst p) = true /\ s_code (snd p) <> kOk.
