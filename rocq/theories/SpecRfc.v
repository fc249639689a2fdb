(* RFC 8446, rules for an established connection used by C71 - C76. *)
From Coq Require Import List NArith Bool.
From Verif Require Import Base Aead Hkdf HalfConn SpecTls SpecHs SpecRecord Crypter CrypterRun.
Import ListNotations.
Local Open Scope N_scope.

(* Section 4.6.3: struct { KeyUpdateRequest request_update; } KeyUpdate, with
   update_not_requested(0) and update_requested(1); handshake type 24. *)
Definition key_update (request : N) : bytes := [24; 0; 0; 1; request].
Definition proper_key_update (m : bytes) : Prop := m = key_update 0 \/ m = key_update 1.

(* Section 6: struct { AlertLevel level; AlertDescription description; } Alert,
   close_notify(0). What the receiver of the bytes [c] of an alert record has to
   be told: a record that does not hold exactly one alert is malformed. *)
Inductive alert_kind := AlertMalformed | AlertClose | AlertError.
Definition alert_of (c : bytes) : alert_kind :=
  match c with
  | [_; d] => if d =? 0 then AlertClose else AlertError
  | _ => AlertMalformed
  end.

(* The status with which the record layer reports each of them. *)
Definition alert_status (k : alert_kind) : scode :=
  match k with
  | AlertMalformed => S_INVALID_RECORD
  | AlertClose => S_ALERT_CLOSE_NOTIFY
  | AlertError => S_ALERT_OTHER
  end.

(* Section 5.5: with one AES-GCM key, up to 2^24.5 (23726566) full-size records
   may be protected. *)
Definition aes_gcm_limit : N := 23726566.

(* [x] accepts any application data sealed in the state [d]. *)
Definition then_accepts (P : prims) (lib : ssl_lib) (x : crypt) (d : dir) : Prop :=
  forall data payload buf, let msg := inner ty_application_data data 0 in
    let hdr := tls_header (lenN msg + 16) in
    bytes_ok data -> lenN data <= 16384 -> lenN msg <= lenN buf -> Forall iov_valid payload ->
    iov_concat payload = dir_seal P d hdr msg ->
    exists x' out, cstep P lib x (CUnprotect hdr payload buf) [] = Done (x', CUnprotected S_OK (lenN data) out) /\
      takeN (lenN data) (iov_data out) = data.

(* The payload of the record that seals [msg] in the state [d]. *)
Definition sealed (P : prims) (d : dir) (msg : bytes) : bytes :=
  dir_seal P d (tls_header (lenN msg + 16)) msg.
(* Receiving the sealed [msg] in one piece, into a buffer of its size. *)
Definition receive_op (P : prims) (d : dir) (msg : bytes) : cop :=
  CUnprotect (tls_header (lenN msg + 16)) [IoBuf (sealed P d msg)] (zeros (lenN msg)).
