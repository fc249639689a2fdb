(* The model, run with the real primitives, on the test vectors of the
   repository. These are tests, not proofs: they check that the model (and its
   reading of key derivation, nonces, record format, padding, alerts and key
   updates) computes what the code computes. *)
From Coq Require Import List NArith Bool.
From Verif Require Import Base Aead Hkdf HalfConn Options HsHandler Crypter SpecTls SpecAead
  SpecHs SpecRecord SpecRx CrypterRun Toy RealSha2 RealCiphers RealData.
Import ListNotations.
Local Open Scope N_scope.

Definition text (n : nat) (from : N) : bytes := map (fun i => from + N.of_nat i) (seq 0 n).
Definition s123456 : bytes := text 6 49.
Definition s789123456 : bytes := text 3 55 ++ s123456.
Definition s7891 : bytes := text 3 55 ++ [49].

Definition real_secret (s : suite) : bytes := repeat 107 (N.to_nat (suite_secret_size s)).
Definition real_args (s : suite) (q : N) : create_args := {|
  ca_tls := TLS1_3; ca_suite := s; ca_connection_id := 1234; ca_url := ascii_url;
  ca_identity := from_hostname [104];
  ca_in_secret := real_secret s; ca_out_secret := real_secret s;
  ca_in_seq := q; ca_out_seq := q;
  ca_sender := true; ca_channel := true; ca_logger := true |}.

Ltac each := intros; repeat match goal with x : suite |- _ => destruct x
                                          | x : ssl_lib |- _ => destruct x end;
             vm_compute; reflexivity.

(* s2a_test_data.h 46-97: key schedule. The ChaCha20-Poly1305 key there, which
   no test of the repository uses, has byte 25 one too small (0x53 for 0x54). *)
Definition key_vector (s : suite) : bytes :=
  match s with
  | CHACHA20_POLY1305_SHA256 => takeN 25 (v_key s) ++ 84 :: dropN 26 (v_key s)
  | _ => v_key s
  end.
Example vec_keys : forall s,
  derive_key real s (real_secret s) (zeros (suite_key_size s)) [] =
    Done ((kOk, key_vector s), []) /\
  derive_nonce real s (real_secret s) (zeros (suite_nonce_size s)) [] =
    Done ((kOk, v_nonce s), []) /\
  advance_secret real s (real_secret s) [] = Done ((kOk, v_advanced_secret s), []).
Proof. intros s; repeat split; each. Qed.

(* hkdf_test.cc 84-139. *)
Example vec_hkdf :
  map (fun '(info, prk, okm) =>
         hkdf_derive_secret real SHA256 (fun _ => prk) info (zeros (lenN okm)) []) v_hkdf =
  map (fun '(_, _, okm) => Done ((kOk, okm), [])) v_hkdf.
Proof. vm_compute. reflexivity. Qed.

(* hkdf_test.cc 58-81: secrets that are too short, too many blocks. *)
Example vec_hkdf_errors :
  hkdf_derive_secret real SHA256 (fun _ => zeros 31) [] [] [] = Done ((kInvalidArgument, []), []) /\
  hkdf_derive_secret real SHA384 (fun _ => zeros 47) [] [] [] = Done ((kInvalidArgument, []), []) /\
  hkdf_derive_secret real SHA256 (fun _ => zeros 32) [] (zeros 8192) [] =
    Done ((kInternal, zeros 8192), []).
Proof. repeat split; vm_compute; reflexivity. Qed.

(* aes_gcm_crypter_test.cc and chacha_poly_crypter_test.cc: encrypt, compare,
   decrypt again. *)
Definition aead_vector (create : bytes -> M (code + crypter))
  (v : bytes * bytes * bytes * bytes * bytes * bool) : bool :=
  let '(pt, aad, key, nonce, ct, invalid) := v in
  match create key [] with
  | Done (inr c, _) =>
    match aead_encrypt real c nonce [IoBuf aad] [IoBuf pt] (IoBuf (zeros (lenN pt + 16))) [] with
    | Done ((c', (kOk, n), IoBuf out), _) =>
      (n =? lenN ct) && xorb (bytes_eqb out ct) invalid &&
      match aead_decrypt real c' nonce [IoBuf aad] [IoBuf out] (IoBuf (zeros (lenN pt))) [] with
      | Done ((_, (kOk, m), IoBuf back), _) => (m =? lenN pt) && bytes_eqb back pt
      | _ => false
      end
    | _ => false
    end
  | _ => false
  end.
Example vec_aes128 : forallb (aead_vector create_aes_gcm) v_aes128 = true.
Proof. vm_compute. reflexivity. Qed.
Example vec_aes256 : forallb (aead_vector create_aes_gcm) v_aes256 = true.
Proof. vm_compute. reflexivity. Qed.
Example vec_chacha : forall lib, forallb (aead_vector (create_chacha_poly lib)) v_chacha = true.
Proof. each. Qed.

(* s2a_half_connection_test.cc 90-175. *)
Definition half_vector (lib : ssl_lib) (s : suite) (update : bool) : option (cstatus * iovec) :=
  match half_create real lib s 0 (real_secret s) [] with
  | Done (inr h, _) =>
    match (if update then half_update_key real lib h [] else Done ((h, kOk), [])) with
    | Done ((h, kOk), _) =>
      match half_encrypt real h [] [IoBuf s123456] (IoBuf (zeros 22)) [] with
      | Done ((_, st, out), _) => Some (st, out)
      | _ => None
      end
    | _ => None
    end
  | _ => None
  end.
Example vec_half : forall s,
  half_vector OpenSSL s false = Some ((kOk, 22), IoBuf (v_half_encrypt s)) /\
  half_vector OpenSSL s true = Some ((kOk, 22), IoBuf (v_half_update s)).
Proof. intros s; split; each. Qed.

(* s2a_half_connection_test.cc 67-88: the sequence number overflows. *)
Example vec_half_overflow :
  match half_create real OpenSSL AES_256_GCM_SHA384 (two64 - 1) (zeros 48) [] with
  | Done (inr h, _) =>
    match half_encrypt real h [] [] (IoBuf (zeros 16)) [] with
    | Done ((h, (kOk, 16), _), _) =>
      match half_encrypt real h [] [] (IoBuf (zeros 16)) [] with
      | Done ((_, (st, _), _), _) => st
      | _ => kOk
      end
    | _ => kOk
    end
  | _ => kOk
  end = kInternal.
Proof. vm_compute. reflexivity. Qed.

(* s2a_half_connection_test.cc 37-65: a secret of the wrong size. *)
Example vec_half_secret : forall lib,
  half_create real lib AES_128_GCM_SHA256 0 (zeros 48) [] = Done (inl kInvalidArgument, []).
Proof. each. Qed.

(* s2a_crypter_test.cc, s2a_frame_protector_test.cc: records written by Protect. *)
Definition protect_op (pt : bytes) : cop * faults :=
  (CProtect APPLICATION_DATA [IoBuf pt] (zeros (lenN pt + 22)), []).
Definition results (o : outcome (crypt * list cres)) : list cres :=
  match o with Done (_, rs) => rs | _ => [] end.
Example vec_protect : forall s,
  results (play real BoringSSL (real_args s 0) (map protect_op [s123456; s789123456; s7891])) =
  [CProtected S_OK 28 (IoBuf (v_record_one s)); CProtected S_OK 31 (IoBuf (v_record_two s));
   CProtected S_OK 26 (IoBuf (v_record_three s))].
Proof. each. Qed.
(* the outbound key is advanced first *)
Example vec_protect_advanced : forall s,
  results (play real BoringSSL (real_args s 0) [(CUpdateKey, []); protect_op s123456]) =
  [CUpdated kOk; CProtected S_OK 28 (IoBuf (v_advanced_record s))].
Proof. each. Qed.

(* Records read by Unprotect, with a buffer of [n] bytes; status, byte count
   and the reported bytes. *)
Definition unprotect_op (n : N) (record : bytes) : cop * faults :=
  (CUnprotect (takeN 5 record) [IoBuf (dropN 5 record)] (zeros n), []).
Definition seen (r : cres) : scode * N * bytes :=
  match r with
  | CUnprotected st n (IoBuf out) => (st, n, takeN n out)
  | _ => (S_INTERNAL_ERROR, 0, [])
  end.
Definition unprotect_all (s : suite) (records : list bytes)
  : list (scode * N * bytes) :=
  map seen (results (play real BoringSSL (real_args s 0) (map (unprotect_op 100) records))).

Example vec_unprotect : forall s,
  unprotect_all s [v_padded_zeros s; v_record_two s; v_record_three s] =
  [(S_OK, 6, s123456); (S_OK, 9, s789123456); (S_OK, 4, s7891)].
Proof. each. Qed.
Example vec_close_notify : forall s,
  unprotect_all s [v_alert_padded s; v_record_two s] =
  [(S_ALERT_CLOSE_NOTIFY, 0, []); (S_ALERT_CLOSE_NOTIFY, 0, [])].
Proof. each. Qed.
Example vec_alerts : forall s,
  unprotect_all s [v_alert_other s; v_record_two s] =
  [(S_ALERT_OTHER, 0, []); (S_OK, 9, s789123456)].
Proof. each. Qed.
(* a padded KeyUpdate advances the inbound key and resets the sequence number *)
Example vec_key_update : forall s,
  unprotect_all s [v_key_update_padded s; v_advanced_record s] =
  [(S_OK, 0, []); (S_OK, 6, s123456)].
Proof. each. Qed.
(* records out of order, replayed or altered *)
Example vec_rejected : forall s,
  unprotect_all s [takeN 27 (v_record_one s) ++ [0]; v_record_two s; v_record_two s] =
    [(S_INTERNAL_ERROR, 0, []); (S_OK, 9, s789123456); (S_INTERNAL_ERROR, 0, [])].
Proof. each. Qed.
