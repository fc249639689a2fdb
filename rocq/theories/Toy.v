(* Concrete (not cryptographically meaningful) primitives, used only to show
   that hypotheses of theorems are met and to exhibit witnesses. *)
From Coq Require Import List NArith Bool.
From Verif Require Import Base Aead Hkdf HalfConn Options HsHandler Crypter SpecTls
  SpecRecord SpecHs SpecRx CrypterRun.
Import ListNotations.
Local Open Scope N_scope.

Definition chk (seed : N) (l : bytes) : N :=
  fold_left (fun acc b => (acc * 257 + b + 1) mod 2305843009213693951) l seed.

Definition toy : prims := {|
  p_hmac := fun h k m =>
    be_bytes (N.to_nat (digest_size h)) (chk (chk 1 k) m * 1234567890123456789012345);
  p_ks := fun a k n i => (chk (chk 3 k) n + 7 * N.of_nat i) mod 256;
  p_mac := fun a k n d c => be_bytes 16 (chk (chk (chk (chk 5 k) n) d) c * 98765432123456789)
|}.

Definition ascii_url : bytes := [115; 50; 97].

Definition toy_args (s : suite) (in_seq out_seq : N) : create_args :=
  let len := N.to_nat (digest_size (suite_hash s)) in {|
  ca_tls := TLS1_3; ca_suite := s; ca_connection_id := 77; ca_url := ascii_url;
  ca_identity := from_hostname [104];
  ca_in_secret := repeat 11 len; ca_out_secret := repeat 22 len;
  ca_in_seq := in_seq; ca_out_seq := out_seq;
  ca_sender := true; ca_channel := true; ca_logger := true |}.

(* The crypter made from [a], and the result of running [ops] on it. *)
Definition start (P : prims) (lib : ssl_lib) (a : create_args) : option crypt :=
  match crypt_create P lib a [] with Done (inr x, _) => Some x | _ => None end.
Definition play (P : prims) (lib : ssl_lib) (a : create_args) (ops : list (cop * faults))
  : outcome (crypt * list cres) :=
  match crypt_create P lib a [] with
  | Done (inr x, _) => crun P lib x ops
  | _ => NoFuel
  end.

(* A record from the peer: [msg] sealed in state [d], given to Unprotect in one
   piece with a buffer of the right size, no library call failing. *)
Definition peer_record (P : prims) (d : dir) (msg : bytes) : cop * faults :=
  let hdr := tls_header (lenN msg + 16) in
  (CUnprotect hdr [IoBuf (dir_seal P d hdr msg)] (zeros (lenN msg)), []).

(* A session ticket message with body [b]. *)
Definition ticket (b : bytes) : bytes := 4 :: be_bytes 3 (lenN b) ++ b.
Definition key_update_msg : bytes := [24; 0; 0; 1; 0].

(* What the peer sends, one record after the other, without a key update:
   content type and content of each record. *)
Fixpoint peer_ops (P : prims) (d : dir) (l : list (N * bytes)) : list (cop * faults) :=
  match l with
  | [] => []
  | (ty, c) :: l' => peer_record P d (inner ty c 0) :: peer_ops P (dir_next d) l'
  end.

(* Statuses and byte counts of the results of a history. *)
Definition status (r : cres) : option (scode * N) :=
  match r with CUnprotected st n _ => Some (st, n) | _ => None end.
