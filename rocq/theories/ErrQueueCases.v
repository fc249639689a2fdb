(* Witnesses and cases for C98. *)
From Coq Require Import List NArith Bool.
From Verif Require Import Base Aead Hkdf HalfConn SpecAead SpecTls HalfRun ErrQueue SpecErr Toy.
Import ListNotations.
Local Open Scope N_scope.

Definition q_secret : bytes := zeros 32.
Definition q_create : top * faults * list (list entry) := (TCreate AES_128_GCM_SHA256 0 q_secret, [], []).
Definition q_encrypt (i : nat) (out : N) : top := TUse i (HEncrypt [IoBuf [1; 2]] [IoBuf [3; 4; 5]] (zeros out)).

(* The seal of the second record fails with two errors, the open of the third
   because of its tag. *)
Definition good_ops : list (top * faults * list (list entry)) :=
  [q_create; (q_encrypt 0 19, [], []); (q_encrypt 0 19, [false; false; true], [[5; 6]]);
   (TUse 0 (HDecrypt [] [IoBuf (zeros 20)] (zeros 4)), [], [[7]])].
Lemma good_case : exists hs s0 s1 s2 s3, trun toy OpenSSL [] [] good_ops = Done (hs, [s0; s1; s2; s3]) /\
  ~ Exists derivation_failed (combine (map (fun c => fst (fst c)) good_ops) [s0; s1; s2; s3]) /\
  s_text s2 = [5; 6] /\ s_text s3 = [7].
Proof.
  eexists _, _, _, _, _. split; [vm_compute; reflexivity|]. split; [|split; reflexivity].
  cbn [good_ops q_create map combine fst]. intros H.
  repeat (apply Exists_cons in H; destruct H as [[H K]|H]; [first [discriminate H|apply K; reflexivity]|]).
  apply Exists_nil in H. exact H.
Qed.

(* A key update of one half connection fails in HMAC_CTX_new; then the
   encryption of another one fails in EVP_EncryptInit_ex. *)
Definition stale_ops : list (top * faults * list (list entry)) :=
  [q_create; q_create; (TUse 0 HUpdateKey, [true], [[1]]); (q_encrypt 1 19, [true], [[2]])].
Lemma stale : exists P lib ops hs s0 s1 s2 s3, trun P lib [] [] ops = Done (hs, [s0; s1; s2; s3]) /\
  map (fun c => derives_keys (fst (fst c))) ops = [true; true; true; false] /\
  s_code s0 = kOk /\ s_code s1 = kOk /\
  s_code s2 = kInternal /\ s_raised s2 = [1] /\ s_text s2 = [] /\ s_queue s2 = [1] /\
  s_code s3 = kInternal /\ s_raised s3 = [2] /\ s_text s3 = [1; 2] /\ s_queue s3 = [].
Proof.
  exists toy, OpenSSL, stale_ops. eexists _, _, _, _, _. split; [vm_compute; reflexivity|]. repeat split.
Qed.

(* An output buffer that is too small: no library call fails, and the errors
   that were waiting are taken. *)
Lemma eaten : exists P lib hs q op hs' s, tstep P lib hs q op [] [] = Done (hs', s) /\
  q = [9] /\ s_code s = kInvalidArgument /\ s_raised s = [] /\ s_text s = [9] /\ s_queue s = [].
Proof.
  pose (r := tstep toy OpenSSL [] [] (TCreate AES_128_GCM_SHA256 0 q_secret) [] []). vm_compute in r.
  match goal with r := Done (?hs, _) |- _ => exists toy, OpenSSL, hs end.
  exists [9], (q_encrypt 0 2). eexists _, _. split; [vm_compute; reflexivity|]. repeat split.
Qed.
