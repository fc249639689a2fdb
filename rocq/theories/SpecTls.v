(* Specification of the TLS 1.3 record protection of one direction, written
   from RFC 5869 and RFC 8446, independently of the model of the code. *)
From Coq Require Import String Ascii List NArith Bool.
From Verif Require Import Base Aead Hkdf SpecAead.
Import ListNotations.
Local Open Scope N_scope.

(* ---- RFC 5869 section 2.3: HKDF-Expand ---- *)

(* T(0) = "", T(i+1) = HMAC(PRK, T(i) | info | i+1). *)
Fixpoint hkdf_T (P : prims) (h : hash_fn) (prk info : bytes) (i : nat) : bytes :=
  match i with
  | O => []
  | S j => p_hmac P h prk (hkdf_T P h prk info j ++ info ++ [N.of_nat (S j)])
  end.

(* OKM = first L octets of T(1) | T(2) | ... | T(N), N = ceil(L / HashLen). *)
Definition hkdf_expand (P : prims) (h : hash_fn) (prk info : bytes) (L : N)
  : bytes :=
  let n := (L + digest_size h - 1) / digest_size h in
  takeN L (List.concat (map (hkdf_T P h prk info) (seq 1 (N.to_nat n)))).

(* ---- RFC 8446 section 7.1: HKDF-Expand-Label ---- *)

(* Big-endian encoding of x in n bytes. *)
Fixpoint be_bytes (n : nat) (x : N) : bytes :=
  match n with
  | O => []
  | S m => be_bytes m (x / 256) ++ [x mod 256]
  end.

Definition ascii_bytes (s : string) : bytes :=
  map N_of_ascii (list_ascii_of_string s).

(* opaque v<..255>: one length byte and the contents. *)
Definition opaque8 (v : bytes) : bytes := lenN v :: v.

(* struct { uint16 length = L; opaque label = "tls13 " + Label;
            opaque context = Context; } HkdfLabel *)
Definition hkdf_label (L : N) (label : string) (context : bytes) : bytes :=
  be_bytes 2 L ++ opaque8 (ascii_bytes ("tls13 " ++ label)) ++ opaque8 context.

Definition expand_label (P : prims) (h : hash_fn) (secret : bytes)
  (label : string) (L : N) : bytes :=
  hkdf_expand P h secret (hkdf_label L label []) L.

(* ---- ciphersuites (RFC 8446 appendix B.4) ---- *)
Definition spec_alg (s : suite) : alg :=
  match s with
  | AES_128_GCM_SHA256 => Aes128Gcm
  | AES_256_GCM_SHA384 => Aes256Gcm
  | CHACHA20_POLY1305_SHA256 => ChachaPoly
  end.
Definition spec_hash (s : suite) : hash_fn :=
  match s with
  | AES_256_GCM_SHA384 => SHA384
  | _ => SHA256
  end.
Definition spec_hash_len (s : suite) : N :=
  match s with
  | AES_256_GCM_SHA384 => 48
  | _ => 32
  end.
Definition spec_key_len (s : suite) : N :=
  match s with
  | AES_128_GCM_SHA256 => 16
  | _ => 32
  end.

(* ---- RFC 8446 section 7.2 and 7.3: traffic secrets, keys, IVs ---- *)
Definition next_secret (P : prims) (s : suite) (secret : bytes) : bytes :=
  expand_label P (spec_hash s) secret "traffic upd" (spec_hash_len s).

(* The traffic secret after k key updates. *)
Fixpoint nth_secret (P : prims) (s : suite) (secret : bytes) (k : nat) : bytes :=
  match k with
  | O => secret
  | S j => next_secret P s (nth_secret P s secret j)
  end.

Definition traffic_key (P : prims) (s : suite) (secret : bytes) : bytes :=
  expand_label P (spec_hash s) secret "key" (spec_key_len s).
Definition traffic_iv (P : prims) (s : suite) (secret : bytes) : bytes :=
  expand_label P (spec_hash s) secret "iv" 12.

(* ---- RFC 8446 section 5.3: per-record nonce ---- *)
(* The 64-bit sequence number in network byte order, padded to the left with
   zeros to the IV length, xored with the IV. *)
Definition record_nonce (iv : bytes) (seqno : N) : bytes :=
  xor_bytes iv (be_bytes 12 seqno).

(* ---- the protection state of one direction ---- *)
Record dir := {
  d_suite : suite;
  d_secret : bytes;    (* current traffic secret *)
  d_seq : N;           (* next sequence number; 2^64 means exhausted *)
  d_broken : bool      (* a key update has failed *)
}.

Definition dir_usable (d : dir) : Prop := d_broken d = false /\ d_seq d < two64.

(* Sealing a message under the direction's current key and sequence number. *)
Definition dir_seal (P : prims) (d : dir) (aad msg : bytes) : bytes :=
  seal P (spec_alg (d_suite d)) (traffic_key P (d_suite d) (d_secret d))
    (record_nonce (traffic_iv P (d_suite d) (d_secret d)) (d_seq d)) aad msg.

(* Using one sequence number. *)
Definition dir_next (d : dir) : dir :=
  {| d_suite := d_suite d; d_secret := d_secret d; d_seq := d_seq d + 1;
     d_broken := d_broken d |}.

(* A successful key update. *)
Definition dir_update (P : prims) (d : dir) : dir :=
  {| d_suite := d_suite d; d_secret := next_secret P (d_suite d) (d_secret d);
     d_seq := 0; d_broken := d_broken d |}.

(* The direction's state when it is set up. *)
Definition dir_start (s : suite) (secret : bytes) (sequence : N) : dir :=
  {| d_suite := s; d_secret := secret; d_seq := sequence; d_broken := false |}.

(* A failed key update. *)
Definition dir_break (d : dir) : dir :=
  {| d_suite := d_suite d; d_secret := d_secret d; d_seq := d_seq d;
     d_broken := true |}.

Definition dir_usableb (d : dir) : bool := negb (d_broken d) && (d_seq d <? two64).
