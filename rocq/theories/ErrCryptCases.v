(* Witnesses and cases for C99. *)
From Coq Require Import List NArith Bool.
From Verif Require Import Base Aead Hkdf HalfConn Options HsHandler Crypter SpecTls SpecHs SpecRecord SpecRx CrypterRun SpecAead HalfRun
  ErrQueue ErrCrypt SpecErrCrypt Toy.
Import ListNotations.
Local Open Scope N_scope.

Definition ec_args : create_args := toy_args AES_128_GCM_SHA256 0 0.
Definition ec_dir : dir := d_in ec_args.
Definition ec_key_update : cop := fst (peer_record toy ec_dir (inner 22 key_update_msg 0)).
Definition ec_record : cop := fst (peer_record toy ec_dir (inner 23 [1; 2; 3] 0)).
Definition ec_protect : cop := CProtect APPLICATION_DATA [IoBuf [1; 2; 3]] (zeros 25).

(* The library fails in Protect with two errors, in Unprotect, in the key
   derivation of UpdateOutboundKey (whose error stays in the queue), and in the
   next Protect, which does not get that far. *)
Definition ec_ops : list (cop * faults * list (list entry)) :=
  [(ec_protect, [], []); (ec_protect, [false; true], [[5; 6]]); (ec_record, [true], [[7]]); (CUpdateKey, [true], [[8]]);
   (ec_protect, [true], [[9]])].
Lemma ec_case : exists x x' r0 r1 r2 r3 r4, crypt_create toy OpenSSL ec_args [] = Done (inr x, []) /\
  crun_q toy OpenSSL x [4] ec_ops = Done (x', [r0; r1; r2; r3; r4]) /\ inbound_broken x' = false /\
  map (fun r => e_text (snd r)) [r0; r1; r2; r3; r4] = [[]; [4; 5; 6]; [7]; []; []] /\
  queue_after [4] [r0; r1; r2; r3; r4] = [8].
Proof. eexists _, _, _, _, _, _, _. split; [vm_compute; reflexivity|]. split; [vm_compute; reflexivity|]. repeat split. Qed.

(* The peer sends a KeyUpdate; EVP_DecryptInit_ex fails for the new key. *)
Lemma ec_lost : exists P lib a x op fs x' r e, crypt_create P lib a [] = Done (inr x, []) /\
  cstep_q P lib x [4] op fs [[1]] = Done (x', r, e) /\
  inbound_update_failed op x x' r /\ e_raised e = [1] /\ e_text e = [] /\ e_queue e = [].
Proof.
  exists toy, OpenSSL, ec_args. eexists _. exists ec_key_update, (repeat false 20 ++ [true]). eexists _, _, _.
  split; [vm_compute; reflexivity|]. split; [vm_compute; reflexivity|]. repeat split.
Qed.
(* The same with HMAC failing. *)
Lemma ec_left : exists P lib a x op fs x' r e, crypt_create P lib a [] = Done (inr x, []) /\
  cstep_q P lib x [4] op fs [[1]] = Done (x', r, e) /\
  inbound_update_failed op x x' r /\ e_raised e = [1] /\ e_text e = [] /\ e_queue e = [4; 1].
Proof.
  exists toy, OpenSSL, ec_args. eexists _. exists ec_key_update, (repeat false 6 ++ [true]). eexists _, _, _.
  split; [vm_compute; reflexivity|]. split; [vm_compute; reflexivity|]. repeat split.
Qed.
(* A key update of the peer, without failures. *)
Lemma ec_update : exists x hd pl buf x' n out, crypt_create toy OpenSSL ec_args [] = Done (inr x, []) /\ ec_key_update = CUnprotect hd pl buf /\
  cstep toy OpenSSL x (CUnprotect hd pl buf) [] = Done (x', CUnprotected S_OK n out) /\ hc_epoch (cx_in x) = 0 /\ hc_epoch (cx_in x') = 1.
Proof.
  eexists _, _, _, _, _, _, _. split; [vm_compute; reflexivity|]. split; [vm_compute; reflexivity|]. split; [vm_compute; reflexivity|].
  split; reflexivity.
Qed.
