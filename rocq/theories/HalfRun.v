(* Histories of operations on one half connection. *)
From Coq Require Import List NArith Bool.
From Verif Require Import Base Aead Hkdf HalfConn SpecAead SpecTls.
Import ListNotations.
Local Open Scope N_scope.

(* The public methods of S2AHalfConnection (s2a_half_connection.h 39-75); the
   output buffer is a non-null pointer. Every call has its own fault oracle. *)
Inductive hop :=
| HEncrypt (aad pt : list iovec) (out : bytes)
| HDecrypt (aad ct : list iovec) (out : bytes)
| HUpdateKey.

Inductive hres :=
| HCrypt (st : code) (n : N) (out : iovec)
| HUpdated (st : code).

Definition hstep (P : prims) (lib : ssl_lib) (h : half) (op : hop) (fs : faults)
  : outcome (half * hres) :=
  match op with
  | HEncrypt aad pt out =>
    obind (half_encrypt P h aad pt (IoBuf out) fs)
      (fun '((h, (st, n), out), _) => Done (h, HCrypt st n out))
  | HDecrypt aad ct out =>
    obind (half_decrypt P h aad ct (IoBuf out) fs)
      (fun '((h, (st, n), out), _) => Done (h, HCrypt st n out))
  | HUpdateKey =>
    obind (half_update_key P lib h fs) (fun '((h, st), _) => Done (h, HUpdated st))
  end.

Fixpoint hrun (P : prims) (lib : ssl_lib) (h : half) (ops : list (hop * faults))
  : outcome (half * list hres) :=
  match ops with
  | [] => Done (h, [])
  | (op, fs) :: ops' =>
    obind (hstep P lib h op fs) (fun '(h, r) =>
    obind (hrun P lib h ops') (fun '(h, rs) => Done (h, r :: rs)))
  end.

(* Preconditions of the calls: single buffers below 2^31 bytes (see C56),
   total length below 2^64, no null ciphertext fragment of non-zero length
   (see the notes on C11). *)
Definition hop_ok (op : hop) : Prop :=
  match op with
  | HEncrypt aad pt _ =>
    Forall small_iov aad /\ Forall small_iov pt /\ sum_lens pt + 16 < two64
  | HDecrypt aad ct _ =>
    Forall small_iov aad /\ Forall small_iov ct /\ Forall iov_valid ct /\
    sum_lens ct < two64
  | HUpdateKey => True
  end.
Definition hops_ok (ops : list (hop * faults)) : Prop :=
  Forall (fun p => hop_ok (fst p)) ops.

(* [h] is reached, with results [rs], by the history [ops] on a half connection
   created with ciphersuite s, sequence number q and traffic secret S. *)
Definition hreach (P : prims) (lib : ssl_lib) (s : suite) (q : N) (S : bytes)
  (ops : list (hop * faults)) (rs : list hres) (h : half) : Prop :=
  exists h0 fs fs', half_create P lib s q S fs = Done (inr h0, fs') /\
    hrun P lib h0 ops = Done (h, rs).

(* The state the TLS specification prescribes after a history, knowing only
   which key updates reported success. *)
Definition spec_step (P : prims) (d : dir) (op : hop) (r : hres) : dir :=
  match op, r with
  | HUpdateKey, HUpdated kOk => dir_update P d
  | HUpdateKey, _ => dir_break d
  | _, _ => if dir_usableb d then dir_next d else d
  end.

Fixpoint spec_run (P : prims) (d : dir) (ops : list (hop * faults))
  (rs : list hres) : dir :=
  match ops, rs with
  | (op, _) :: ops', r :: rs' => spec_run P (spec_step P d op r) ops' rs'
  | _, _ => d
  end.

(* Number of key updates in a history that reported success. *)
Fixpoint updates (rs : list hres) : nat :=
  match rs with
  | [] => O
  | HUpdated kOk :: rs' => S (updates rs')
  | _ :: rs' => updates rs'
  end.
Definition no_failed_update (rs : list hres) : Prop :=
  forall st, In (HUpdated st) rs -> st = kOk.

(* Sequence number at which the e-th installed key starts. *)
Definition key_start (q : N) (e : N) : N := if e =? 0 then q else 0.

(* Nonces passed to the AEAD crypter under the e-th installed key, in order. *)
Definition nonces (h : half) (e : N) : list bytes :=
  map snd (filter (fun u => fst u =? e) (hc_used h)).

(* Encrypt and Decrypt, and their output buffer. *)
Definition is_record_op (op : hop) : Prop := op <> HUpdateKey.
Definition op_out (op : hop) : bytes :=
  match op with HEncrypt _ _ o => o | HDecrypt _ _ o => o | HUpdateKey => [] end.
