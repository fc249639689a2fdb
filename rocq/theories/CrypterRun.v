(* Histories of operations on one S2ACrypter. *)
From Coq Require Import List NArith Bool.
From Verif Require Import Base Aead Hkdf HalfConn Options HsHandler Crypter SpecTls SpecHs
  SpecRecord SpecRx.
Import ListNotations.
Local Open Scope N_scope.

(* The public methods (s2a_crypter.h 83-129): the convenience overloads of
   Protect and Unprotect that take a single Iovec call these. Output buffers
   and record headers are non-null pointers. Every call has its own fault
   oracle. *)
Inductive cop :=
| CProtect (t : record_type) (pt : list iovec) (buf : bytes)
| CUnprotect (hdr : bytes) (payload : list iovec) (buf : bytes)
| CUpdateKey.

Inductive cres :=
| CProtected (st : scode) (n : N) (buf : iovec)
| CUnprotected (st : scode) (n : N) (buf : iovec)
| CUpdated (st : code).

(* The TLS ContentType numbers (RFC 8446, section 5.1). *)
Definition record_type_number (t : record_type) : N :=
  match t with ALERT => 21 | HANDSHAKE => 22 | APPLICATION_DATA => 23 end.

Definition cstep (P : prims) (lib : ssl_lib) (x : crypt) (op : cop) (fs : faults)
  : outcome (crypt * cres) :=
  match op with
  | CProtect t pt buf =>
    obind (crypt_protect P x t pt (IoBuf buf) fs)
      (fun '((x, (st, n), out), _) => Done (x, CProtected st n out))
  | CUnprotect hdr payload buf =>
    obind (crypt_unprotect P lib x (IoBuf hdr) payload (IoBuf buf) fs)
      (fun '((x, (st, n), out), _) => Done (x, CUnprotected st n out))
  | CUpdateKey =>
    obind (crypt_update_outbound_key P lib x fs)
      (fun '((x, st), _) => Done (x, CUpdated st))
  end.

Fixpoint crun (P : prims) (lib : ssl_lib) (x : crypt) (ops : list (cop * faults))
  : outcome (crypt * list cres) :=
  match ops with
  | [] => Done (x, [])
  | (op, fs) :: ops' =>
    obind (cstep P lib x op fs) (fun '(x, r) =>
    obind (crun P lib x ops') (fun '(x, rs) => Done (x, r :: rs)))
  end.

(* Preconditions: total lengths below 2^64; the record is made of bytes and has
   no null fragment of non-zero length. *)
Definition cop_ok (op : cop) : Prop :=
  match op with
  | CProtect _ pt _ => sum_lens pt < two64
  | CUnprotect hdr payload _ =>
    bytes_ok hdr /\ Forall iov_valid payload /\ bytes_ok (iov_concat payload) /\
    lenN hdr + sum_lens payload < two64
  | CUpdateKey => True
  end.
Definition cops_ok (ops : list (cop * faults)) : Prop :=
  Forall (fun p => cop_ok (fst p)) ops.

(* [x] is reached, with results [rs], by the history [ops] on a crypter created
   with arguments [a]. *)
Definition creach (P : prims) (lib : ssl_lib) (a : create_args)
  (ops : list (cop * faults)) (rs : list cres) (x : crypt) : Prop :=
  exists x0 fs fs', crypt_create P lib a fs = Done (inr x0, fs') /\
    crun P lib x0 ops = Done (x, rs).

(* The outbound state the TLS specification prescribes after a history,
   knowing only which key updates reported success. A Protect uses a sequence
   number if the plaintext is at most 2^14 bytes and the buffer can hold
   header (5), plaintext, content type (1) and tag (16). *)
Definition fits_in (pt : list iovec) (buf : bytes) : bool :=
  (sum_lens pt <=? 16384) && (sum_lens pt + 22 <=? lenN buf).

Definition tx_step (P : prims) (d : dir) (op : cop) (r : cres) : dir :=
  match op, r with
  | CProtect _ pt buf, _ => if fits_in pt buf && dir_usableb d then dir_next d else d
  | CUpdateKey, CUpdated kOk => dir_update P d
  | CUpdateKey, _ => dir_break d
  | CUnprotect _ _ _, _ => d
  end.

Fixpoint tx_run (P : prims) (d : dir) (ops : list (cop * faults))
  (rs : list cres) : dir :=
  match ops, rs with
  | (op, _) :: ops', r :: rs' => tx_run P (tx_step P d op r) ops' rs'
  | _, _ => d
  end.

(* The outbound part of a history. *)
Definition is_outbound (p : cop * faults) : bool :=
  match fst p with CUnprotect _ _ _ => false | _ => true end.
Definition is_outbound_res (r : cres) : bool :=
  match r with CUnprotected _ _ _ => false | _ => true end.

(* The inbound part. *)
Definition is_inbound (p : cop * faults) : bool := negb (is_outbound p).
Definition is_inbound_res (r : cres) : bool := negb (is_outbound_res r).

(* The protection states both directions start from. *)
Definition d_in (a : create_args) : dir := dir_start (ca_suite a) (ca_in_secret a) (ca_in_seq a).
Definition d_out (a : create_args) : dir := dir_start (ca_suite a) (ca_out_secret a) (ca_out_seq a).

(* The reference receiver over a history: every Unprotect is one step of it,
   until the handshake stream is malformed. *)
Inductive rx_run (P : prims) : rx -> list (cop * faults) -> list cres -> rx -> Prop :=
| RrNil : forall r, rx_run P r [] [] r
| RrRecv : forall r hdr payload buf fs st n out r' ops rs r'',
    r_bad r = false ->
    recv P (fs <> []) r hdr (iov_concat payload) buf st n (iov_data out) r' ->
    rx_run P r' ops rs r'' ->
    rx_run P r ((CUnprotect hdr payload buf, fs) :: ops)
      (CUnprotected st n out :: rs) r''
| RrOther : forall r op fs res ops rs r'',
    r_bad r = false -> is_outbound (op, fs) = true -> is_outbound_res res = true ->
    rx_run P r ops rs r'' -> rx_run P r ((op, fs) :: ops) (res :: rs) r''
| RrBad : forall r ops rs, r_bad r = true -> rx_run P r ops rs r.

(* [x] is a connection's crypter after the history [ops] with results [rs]. *)
Definition connection (P : prims) (lib : ssl_lib) (a : create_args)
  (ops : list (cop * faults)) (rs : list cres) (x : crypt) : Prop :=
  prims_ok P /\ ca_in_seq a < two64 /\ ca_out_seq a < two64 /\ cops_ok ops /\
  creach P lib a ops rs x.

(* What the connection has received, according to the reference receiver, if
   the handshake stream was well-formed so far. *)
Definition received (P : prims) (a : create_args) (ops : list (cop * faults))
  (rs : list cres) (r : rx) : Prop :=
  rx_run P (rx_start (d_in a)) ops rs r /\ r_bad r = false.

(* [payload] is, cut in any way, the sealed [msg]: the next record of the peer. *)
Definition next_record (P : prims) (r : rx) (msg : bytes) (payload : list iovec) : Prop :=
  Forall iov_valid payload /\
  iov_concat payload = dir_seal P (r_dir r) (tls_header (lenN msg + 16)) msg.

(* The connection can still receive. *)
Definition open_rx (r : rx) : Prop := r_closed r = false /\ dir_usable (r_dir r).

(* A complete list of tickets followed by a (possibly empty) proper prefix of a
   further ticket. *)
Definition ticket_stream (ms : list bytes) (part : bytes) : Prop :=
  Forall hs_msg ms /\ Forall (fun m => is_ticket m = true) ms /\ hs_partial part /\
  (part <> [] -> is_ticket part = true).
