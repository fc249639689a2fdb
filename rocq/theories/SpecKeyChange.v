(* Specification for C96: what may replace the key for receiving. *)
From Coq Require Import List NArith Bool.
From Verif Require Import Base Aead Hkdf HalfConn SpecTls Options Crypter SpecHs SpecRecord SpecFrame HalfRun CrypterRun FrameProt FrameRun
  Conc ConcRun ConcMix.
Import ListNotations.
Local Open Scope N_scope.

(* The direction from the peer: the key number [hc_epoch] of the chain that
   starts with the secret of the handshake, and the next sequence number, which
   follows from the number of records processed with this key. *)
Definition from_peer (P : prims) (a : create_args) (x : crypt) : dir :=
  let k := hc_epoch (cx_in x) in
  {| d_suite := ca_suite a; d_secret := nth_secret P (ca_suite a) (ca_in_secret a) (N.to_nat k);
     d_seq := key_start (ca_in_seq a) k + lenN (nonces (cx_in x) k); d_broken := false |}.

(* The call is given the next record of the peer, and this carries the
   handshake bytes [content]. *)
Definition gives_handshake (P : prims) (a : create_args) (x : crypt) (op : cop) (content : bytes) : Prop :=
  exists hdr payload buf pad, op = CUnprotect hdr payload buf /\
    hc_always_fail (cx_in x) = false /\ d_seq (from_peer P a x) < two64 /\
    hdr = tls_header (lenN (iov_concat payload)) /\
    iov_concat payload = dir_seal P (from_peer P a x) hdr (inner ty_handshake content pad).

(* After some complete tickets a message of type KeyUpdate (24) begins. *)
Definition brings_update (stream : bytes) : Prop :=
  exists ms rest, stream = concat ms ++ 24 :: rest /\ Forall hs_msg ms /\ Forall (fun m => is_ticket m = true) ms.

(* [p] is the payload of a record in [data], which begins with whole records. *)
Definition has_record (data p : bytes) : Prop :=
  exists ps rest, data = concat (map framed ps) ++ framed p ++ rest /\ Forall (fun p => lenN p < 65536) (ps ++ [p]).

(* No record in [data] carries handshake bytes sealed with the current key of
   the peer, whatever the sequence number. *)
Definition no_handshake (P : prims) (a : create_args) (x : crypt) (data : bytes) : Prop :=
  forall p seq content pad, has_record data p ->
    p <> dir_seal P {| d_suite := ca_suite a; d_secret := nth_secret P (ca_suite a) (ca_in_secret a) (N.to_nat (hc_epoch (cx_in x)));
                       d_seq := seq; d_broken := false |} (tls_header (lenN p)) (inner ty_handshake content pad).

(* A thread's call whose data contain no such record. *)
Definition quiet (P : prims) (a : create_args) (x : crypt) (o : mcall) : Prop :=
  match o with
  | MUnprotect o => Forall nonempty_iov (fc_input o) /\ no_handshake P a x (iov_concat (fc_input o))
  | _ => True
  end.
