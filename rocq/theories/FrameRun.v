(* Histories of operations on one S2AFrameProtector. *)
From Coq Require Import List NArith Bool.
From Verif Require Import Base Aead Hkdf HalfConn Options HsHandler Crypter FrameProt SpecTls SpecHs SpecRecord SpecRx CrypterRun SpecFrame.
Import ListNotations.
Local Open Scope N_scope.

(* The four operations (include/s2a_frame_protector.h 74-117). [id] is the
   identity of the caller's buffer. *)
Inductive fop :=
| FProtect (input : list iovec)
| FProtectInto (input : list iovec) (id : N) (buf : bytes)
| FUnprotect (input : list iovec)
| FUnprotectInto (input : list iovec) (buf : bytes).

Inductive fres :=
| FProtected (st : code) (bs : list fbuf)
| FProtectedInto (st : code) (buf : iovec)
| FUnprotected (st : code) (bs : list fbuf)
| FUnprotectedInto (st : code) (buf : iovec) (len : N).

Definition fstep (P : prims) (lib : ssl_lib) (al : allocator) (f : fprot)
  (op : fop) (fs : faults) : outcome (fprot * fres) :=
  match op with
  | FProtect input =>
    obind (fp_protect P al f input fs)
      (fun '((f, st, bs), _) => Done (f, FProtected st bs))
  | FProtectInto input id buf =>
    obind (fp_protect_into P f input id (IoBuf buf) fs)
      (fun '((f, st, buf), _) => Done (f, FProtectedInto st buf))
  | FUnprotect input =>
    obind (fp_unprotect P lib al f input fs)
      (fun '((f, st, bs), _) => Done (f, FUnprotected st bs))
  | FUnprotectInto input buf =>
    obind (fp_unprotect_into P lib f input (IoBuf buf) fs)
      (fun '((f, st, buf, n), _) => Done (f, FUnprotectedInto st buf n))
  end.

Fixpoint frun (P : prims) (lib : ssl_lib) (al : allocator) (f : fprot)
  (ops : list (fop * faults)) : outcome (fprot * list fres) :=
  match ops with
  | [] => Done (f, [])
  | (op, fs) :: ops' =>
    obind (fstep P lib al f op fs) (fun '(f, r) =>
    obind (frun P lib al f ops') (fun '(f, rs) => Done (f, r :: rs)))
  end.

(* Preconditions: sizes fit size_t; what is unprotected consists of bytes, and
   null pointers come with length 0. *)
Definition fop_ok (op : fop) : Prop :=
  match op with
  | FProtect input | FProtectInto input _ _ => protected_size (sum_lens input) < two64
  | FUnprotect input | FUnprotectInto input _ =>
    Forall iov_valid input /\ bytes_ok (iov_concat input) /\ sum_lens input + 5 < two64
  end.
Definition fops_ok (ops : list (fop * faults)) : Prop :=
  Forall (fun p => fop_ok (fst p)) ops.

(* The caller's allocator returns buffers of the size asked for. *)
Definition alloc_ok (al : allocator) : Prop :=
  forall id n, exists d, al id n = IoBuf d /\ lenN d = n.

Definition freach (P : prims) (lib : ssl_lib) (al : allocator) (a : fp_args)
  (ops : list (fop * faults)) (rs : list fres) (f : fprot) : Prop :=
  exists f0 fs fs', fp_create P lib a fs = Done (inr f0, fs') /\
    frun P lib al f0 ops = Done (f, rs).

(* [f] is a frame protector after the history [ops] with results [rs]. *)
Definition protector (P : prims) (lib : ssl_lib) (al : allocator) (a : fp_args)
  (ops : list (fop * faults)) (rs : list fres) (f : fprot) : Prop :=
  prims_ok P /\ alloc_ok al /\ ca_in_seq (fa_crypt a) < two64 /\
  ca_out_seq (fa_crypt a) < two64 /\ fops_ok ops /\ freach P lib al a ops rs f.

(* The directions a frame protector starts with. *)
Definition f_in (a : fp_args) : dir :=
  dir_start (ca_suite (fa_crypt a)) (ca_in_secret (fa_crypt a)) (ca_in_seq (fa_crypt a)).
Definition f_out (a : fp_args) : dir :=
  dir_start (ca_suite (fa_crypt a)) (ca_out_secret (fa_crypt a)) (ca_out_seq (fa_crypt a)).

(* Buffers without empty fragments. *)
Definition nonempty_iov (v : iovec) : Prop := exists d, v = IoBuf d /\ d <> [].

(* Allocations and destructions among events. *)
Definition allocs (es : list event) : list N :=
  flat_map (fun e => match e with EvAlloc id _ => [id] | EvDestroy _ => [] end) es.
Definition destroys (es : list event) : list N :=
  flat_map (fun e => match e with EvAlloc _ _ => [] | EvDestroy id => [id] end) es.

(* ---- reference for Unprotect of several records ---- *)

(* How it ends: fewer than 22 bytes are left; what is left does not begin with
   a complete record; the crypter rejects a record; the crypter runs into
   undefined behaviour. *)
Inductive ending := EndAll (rest : bytes) | EndNoRecord (rest : bytes) | EndFailed (st : scode)
| EndUndef (u : ub).

(* The records at the front of the byte string go to the crypter one after
   another, each with a buffer of the size of its payload ([id]: number of the
   next allocation), until one of these ends. [bs]: the buffers with the
   contents of the accepted records. *)
Inductive rec_run (P : prims) (lib : ssl_lib) (al : allocator) :
  crypt -> N -> bytes -> list (cop * faults) -> list cres -> list fbuf -> ending -> crypt -> Prop :=
| RecEnd : forall x id data, lenN data < 22 -> rec_run P lib al x id data [] [] [] (EndAll data) x
| RecNone : forall x id data, 22 <= lenN data -> ~ starts_with_record data ->
    rec_run P lib al x id data [] [] [] (EndNoRecord data) x
| RecFail : forall x id hdr ps data buf fs x' st n out,
    is_record hdr (iov_concat ps) -> al id (lenN (iov_concat ps)) = IoBuf buf ->
    cstep P lib x (CUnprotect hdr ps buf) fs = Done (x', CUnprotected st n out) -> st <> S_OK ->
    22 <= lenN (hdr ++ iov_concat ps ++ data) ->
    rec_run P lib al x id (hdr ++ iov_concat ps ++ data)
      [(CUnprotect hdr ps buf, fs)] [CUnprotected st n out] [] (EndFailed st) x'
| RecUndef : forall x id hdr ps data buf fs u,
    is_record hdr (iov_concat ps) -> al id (lenN (iov_concat ps)) = IoBuf buf ->
    cstep P lib x (CUnprotect hdr ps buf) fs = Undef u ->
    22 <= lenN (hdr ++ iov_concat ps ++ data) ->
    rec_run P lib al x id (hdr ++ iov_concat ps ++ data)
      [(CUnprotect hdr ps buf, fs)] [] [] (EndUndef u) x
| RecOk : forall x id hdr ps data buf fs x1 n out ops rs bs e x',
    is_record hdr (iov_concat ps) -> al id (lenN (iov_concat ps)) = IoBuf buf ->
    cstep P lib x (CUnprotect hdr ps buf) fs = Done (x1, CUnprotected S_OK n out) ->
    rec_run P lib al x1 (id + 1) data ops rs bs e x' ->
    rec_run P lib al x id (hdr ++ iov_concat ps ++ data)
      ((CUnprotect hdr ps buf, fs) :: ops) (CUnprotected S_OK n out :: rs)
      ({| fb_id := id; fb_mem := out; fb_len := n |} :: bs) e x'.

(* The allocations such a run makes. *)
Fixpoint op_allocs (id : N) (ops : list (cop * faults)) : list event :=
  match ops with
  | [] => []
  | (CUnprotect _ ps _, _) :: ops' => EvAlloc id (lenN (iov_concat ps)) :: op_allocs (id + 1) ops'
  | _ :: ops' => op_allocs (id + 1) ops'
  end.

(* [p] is the payload of a record sealed with a key of the connection's inbound
   chain, [c] its content if it carries application data, nothing if it
   carries handshake messages. *)
Definition authentic (P : prims) (a : fp_args) (p c : bytes) : Prop :=
  exists k seq ty content pad,
    p = dir_seal P {| d_suite := ca_suite (fa_crypt a);
                      d_secret := nth_secret P (ca_suite (fa_crypt a)) (ca_in_secret (fa_crypt a)) k;
                      d_seq := seq; d_broken := false |} (tls_header (lenN p)) (inner ty content pad) /\
    ((ty = ty_application_data /\ c = content) \/ (ty = ty_handshake /\ c = [])).

(* The public status for each status of the record protocol; every alert and
   every malformed record is kInternal. *)
Definition public_code (s : scode) : code :=
  match s with
  | S_OK => kOk
  | S_INVALID_ARGUMENT => kInvalidArgument
  | S_FAILED_PRECONDITION => kFailedPrecondition
  | S_UNKNOWN => kUnknown
  | S_UNIMPLEMENTED => kUnimplemented
  | S_INCOMPLETE_RECORD | S_INVALID_RECORD | S_RENEGOTIATION_ATTEMPT | S_END_OF_DATA | S_INTERNAL_ERROR => kInternal
  | S_ALERT_CLOSE_NOTIFY | S_ALERT_RECORD_OVERFLOW | S_ALERT_OTHER => kInternal
  end.
