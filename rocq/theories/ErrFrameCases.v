(* Witnesses and cases for C100. *)
From Coq Require Import List NArith Bool.
From Verif Require Import Base Aead Hkdf HalfConn Options HsHandler Crypter FrameProt SpecTls SpecHs SpecRecord SpecRx CrypterRun SpecFrame FrameRun
  SpecAead HalfRun ErrQueue ErrCrypt SpecErrCrypt ErrFrame SpecErrFrame Toy FrameExamples.
Import ListNotations.
Local Open Scope N_scope.

Definition no_errors (next : list (list entry)) : errs := {| e_queue := []; e_next := next; e_text := []; e_raised := [] |}.
Definition ef_args : fp_args := fargs AES_128_GCM_SHA256.
Definition ef_in : dir := d_in (fa_crypt ef_args).

(* Data and a second record whose decryption fails with two errors; a failing
   Protect; a Protect that succeeds. *)
Definition ef_data : bytes := tls_record toy ef_in 23 [1; 2; 3] 0 ++ tls_record toy (dir_next ef_in) 23 [4] 0.
Definition ef_ops : list (fop * faults * list (list entry)) :=
  [(FUnprotect [IoBuf ef_data], repeat false 5 ++ [true], [[5; 6]]); (FProtect [IoBuf [1; 2; 3]], [false; true], [[7]]);
   (FProtectInto [IoBuf [1; 2]] 9 (zeros 24), [], [])].
Lemma ef_case : exists f e f' r0 r1 r2, fp_create_q toy OpenSSL ef_args (no_errors []) [] = Done ((inr f, e), []) /\
  frun_q toy OpenSSL toy_al f (e_queue e) ef_ops = Done (f', [r0; r1; r2]) /\ receiving_broken f' = false /\
  map (fun r => status_of (fst r)) [r0; r1; r2] = [kInternal; kInternal; kOk] /\
  map (fun r => e_text (snd r)) [r0; r1; r2] = [[5; 6]; [7]; []].
Proof. eexists _, _, _, _, _, _. split; [vm_compute; reflexivity|]. split; [vm_compute; reflexivity|]. repeat split. Qed.

(* The creation fails in HMAC_CTX_new, or in EVP_DecryptInit_ex. *)
Lemma ef_create : exists e1 e2 fs1 fs2,
  fp_create_q toy OpenSSL ef_args (no_errors [[1]]) [true] = Done ((inl kInternal, e1), fs1) /\ in_queue [] e1 /\ e_raised e1 = [1] /\
  fp_create_q toy OpenSSL ef_args (no_errors [[2]]) (repeat false 10 ++ [true]) = Done ((inl kInternal, e2), fs2) /\
  returned [] e2 /\ e_raised e2 = [2].
Proof.
  eexists _, _, _, _. split; [vm_compute; reflexivity|]. split; [split; reflexivity|]. split; [reflexivity|].
  split; [vm_compute; reflexivity|]. split; [split; reflexivity|reflexivity].
Qed.

Definition ef_key_update : bytes := tls_record toy ef_in 22 key_update_msg 0.
(* The peer's KeyUpdate arrives, EVP_DecryptInit_ex fails. *)
Lemma ef_lost : exists P lib al a f e0 fs0 op fs f' r e, fp_create_q P lib a (no_errors []) [] = Done ((inr f, e0), fs0) /\
  fstep_q P lib al f [] op fs [[1]] = Done (f', r, e) /\ key_update_failed op f f' r /\
  e_raised e = [1] /\ e_text e = [] /\ e_queue e = [].
Proof.
  exists toy, OpenSSL, toy_al, ef_args. eexists _, _, _. exists (FUnprotect [IoBuf ef_key_update]), (repeat false 20 ++ [true]). eexists _, _, _.
  split; [vm_compute; reflexivity|]. split; [vm_compute; reflexivity|]. repeat split.
Qed.
(* It arrives, HMAC fails; then a Protect fails for another reason. *)
Lemma ef_stale : exists P lib al a f e0 fs0 ops f' r1 r2, fp_create_q P lib a (no_errors []) [] = Done ((inr f, e0), fs0) /\
  frun_q P lib al f [] ops = Done (f', [r1; r2]) /\
  status_of (fst r1) = kInternal /\ e_raised (snd r1) = [1] /\ e_text (snd r1) = [] /\ e_queue (snd r1) = [1] /\
  status_of (fst r2) = kInternal /\ e_raised (snd r2) = [2] /\ e_text (snd r2) = [1; 2] /\ e_queue (snd r2) = [].
Proof.
  exists toy, OpenSSL, toy_al, ef_args. eexists _, _, _.
  exists [(FUnprotect [IoBuf ef_key_update], repeat false 6 ++ [true], [[1]]); (FProtect [IoBuf [1; 2; 3]], [true], [[2]])]. eexists _, _, _.
  split; [vm_compute; reflexivity|]. split; [vm_compute; reflexivity|]. repeat split.
Qed.

(* Too few bytes, while an error of another user is waiting. *)
Lemma ef_refused : exists f e fs f' r e', fp_create_q toy OpenSSL ef_args (no_errors []) [] = Done ((inr f, e), fs) /\
  fstep_q toy OpenSSL toy_al f [4] (FUnprotect [IoBuf [23; 3]]) [] [] = Done (f', r, e') /\ status_of r = kFailedPrecondition /\ e_queue e' = [4].
Proof. eexists _, _, _, _, _, _. split; [vm_compute; reflexivity|]. split; [vm_compute; reflexivity|]. split; reflexivity. Qed.
(* Application data and a key update of the peer after it, in one call. *)
Definition ef_updating : fop :=
  FUnprotect [IoBuf (tls_record toy ef_in 23 [1; 2; 3] 0); IoBuf (tls_record toy (dir_next ef_in) 22 key_update_msg 0)].
Lemma ef_update : exists f e fs f' r, fp_create_q toy OpenSSL ef_args (no_errors []) [] = Done ((inr f, e), fs) /\
  fstep toy OpenSSL toy_al f ef_updating [] = Done (f', r) /\ status_of r = kOk /\
  hc_epoch (cx_in (fp_crypt f)) = 0 /\ hc_epoch (cx_in (fp_crypt f')) = 1.
Proof. eexists _, _, _, _, _. split; [vm_compute; reflexivity|]. split; [vm_compute; reflexivity|]. repeat split. Qed.
