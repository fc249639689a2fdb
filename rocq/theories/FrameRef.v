(* Reference for a frame protector: what every operation answers, on byte
   strings, with a protection state for sending and the reference receiver of
   SpecRx.v. Independent of iovecs, cursors, half connections and of the
   crypter. *)
From Coq Require Import List NArith Bool.
From Verif Require Import Base Aead Hkdf SpecAead SpecTls SpecHs SpecRecord SpecRx Options Crypter
  FrameProt SpecFrame CrypterRun FrameRun.
Import ListNotations.
Local Open Scope N_scope.

(* What a caller sees of a result: the status and the contents of the returned
   buffers; the caller's buffer; for reading into the caller's buffer also the
   length reported. *)
Inductive answer :=
| ABuffers (st : code) (bs : list bytes)
| AInto (st : code) (buf : bytes)
| ARead (st : code) (buf : bytes) (len : N).

Definition answer_of (r : fres) : answer :=
  match r with
  | FProtected st bs | FUnprotected st bs => ABuffers st (map fb_bytes bs)
  | FProtectedInto st buf => AInto st (iov_data buf)
  | FUnprotectedInto st buf len => ARead st (iov_data buf) len
  end.

Section Ref.
Variable P : prims.
(* A library call may fail during this operation. *)
Variable faulty : Prop.

(* Writing one record per block into the buffer [buf]: status, buffer
   afterwards, protection state afterwards. The first record that cannot be
   written ends it; what is left of the buffer is zeroed, or untouched if it is
   too small for the record. A sequence number is used even if the library
   fails. *)
Inductive send_all : dir -> bytes -> list bytes -> code -> bytes -> dir -> Prop :=
| SaDone : forall d buf, send_all d buf [] kOk buf d
| SaSmall : forall d buf b bs, lenN buf < lenN b + 22 ->
    send_all d buf (b :: bs) kFailedPrecondition buf d
| SaUnusable : forall d buf b bs, lenN b + 22 <= lenN buf -> ~ dir_usable d ->
    send_all d buf (b :: bs) kInternal (zeros (lenN buf)) d
| SaFault : forall d buf b bs st, lenN b + 22 <= lenN buf -> dir_usable d -> faulty ->
    st = kInvalidArgument \/ st = kInternal ->
    send_all d buf (b :: bs) st (zeros (lenN buf)) (dir_next d)
| SaNext : forall d buf b bs st buf' d', lenN b + 22 <= lenN buf -> dir_usable d ->
    send_all (dir_next d) (dropN (lenN b + 22) buf) bs st buf' d' ->
    send_all d buf (b :: bs) st (tls_record P d ty_application_data b 0 ++ buf') d'.

(* The same when the input has a null pointer with a positive length: [bs] are
   the full blocks before it, [m] the size of the block it lies in. That block
   uses up a sequence number and is refused. *)
Inductive send_null : dir -> bytes -> list bytes -> N -> code -> bytes -> dir -> Prop :=
| SnSmall : forall d buf m, lenN buf < m + 22 -> send_null d buf [] m kFailedPrecondition buf d
| SnUnusable : forall d buf m, m + 22 <= lenN buf -> ~ dir_usable d ->
    send_null d buf [] m kInternal (zeros (lenN buf)) d
| SnNull : forall d buf m st, m + 22 <= lenN buf -> dir_usable d ->
    st = kInvalidArgument \/ (faulty /\ st = kInternal) ->
    send_null d buf [] m st (zeros (lenN buf)) (dir_next d)
| SnStop : forall d buf b bs m st buf' d', send_all d buf [b] st buf' d' -> st <> kOk ->
    send_null d buf (b :: bs) m st buf' d'
| SnNext : forall d buf b bs m st buf' d', lenN b + 22 <= lenN buf -> dir_usable d ->
    send_null (dir_next d) (dropN (lenN b + 22) buf) bs m st buf' d' ->
    send_null d buf (b :: bs) m st (tls_record P d ty_application_data b 0 ++ buf') d'.

(* [input] cut at its first null pointer with a positive length. *)
Definition null_block (input : list iovec) (bs : list bytes) (m : N) : Prop :=
  exists pre n post part, input = pre ++ IoNull n :: post /\ Forall iov_valid pre /\ 0 < n /\
    iov_concat pre = concat bs ++ part /\ Forall (fun b => lenN b = 16384) bs /\ lenN part < 16384 /\
    m = N.min 16384 (lenN part + n + sum_lens post).

(* Reading the records of [data] one after another: status, contents, state
   afterwards. Every record gets a buffer of the size of its payload. An error
   discards the contents of the records before it; less than 22 bytes at the
   end are dropped silently (C25). Once the handshake stream is malformed,
   nothing is specified. *)
Inductive recv_all : rx -> bytes -> code -> list bytes -> rx -> Prop :=
| RaEnd : forall r data, lenN data < 22 -> recv_all r data kOk [] r
| RaNone : forall r data, 22 <= lenN data -> ~ starts_with_record data ->
    recv_all r data kFailedPrecondition [] r
| RaFail : forall r p rest buf st n out r', lenN p < 65536 -> 22 <= lenN (framed p ++ rest) ->
    lenN buf = lenN p -> recv P faulty r (tls_header (lenN p)) p buf st n out r' -> st <> S_OK ->
    recv_all r (framed p ++ rest) (public_code st) [] r'
| RaNext : forall r p rest buf n out r1 st cs r', lenN p < 65536 -> 22 <= lenN (framed p ++ rest) ->
    lenN buf = lenN p -> recv P faulty r (tls_header (lenN p)) p buf S_OK n out r1 -> r_bad r1 = false ->
    recv_all r1 rest st cs r' ->
    recv_all r (framed p ++ rest) st (match st with kOk => takeN n out :: cs | _ => [] end) r'
| RaBad : forall r p rest buf n out r1 st cs, lenN p < 65536 -> 22 <= lenN (framed p ++ rest) ->
    lenN buf = lenN p -> recv P faulty r (tls_header (lenN p)) p buf S_OK n out r1 -> r_bad r1 = true ->
    recv_all r (framed p ++ rest) st cs r1.

(* The call runs into undefined behaviour: after some good records there is
   one with a fatal handshake stream. *)
Inductive fatal_data : rx -> bytes -> Prop :=
| FdHere : forall r p rest c pad, lenN p < 65536 -> r_closed r = false ->
    p = dir_seal P (r_dir r) (tls_header (lenN p)) (inner ty_handshake c pad) ->
    fatal (r_part r ++ c) -> fatal_data r (framed p ++ rest)
| FdLater : forall r p rest buf n out r1, lenN p < 65536 -> lenN buf = lenN p ->
    recv P faulty r (tls_header (lenN p)) p buf S_OK n out r1 -> (r_bad r1 = true \/ fatal_data r1 rest) ->
    fatal_data r (framed p ++ rest).

Record ref := { f_tx : dir; f_rx : rx }.

(* One operation. *)
Inductive ref_step (s : ref) : fop -> answer -> ref -> Prop :=
| RsProtect : forall input bs buf st buf' d, Forall iov_valid input ->
    blocks_of (iov_concat input) bs -> lenN buf = protected_size (lenN (iov_concat input)) ->
    send_all (f_tx s) buf bs st buf' d ->
    ref_step s (FProtect input) (ABuffers st (match st with kOk => [buf'] | _ => [] end))
      {| f_tx := d; f_rx := f_rx s |}
| RsProtectInto : forall input bs id buf st buf' d, Forall iov_valid input ->
    blocks_of (iov_concat input) bs -> send_all (f_tx s) buf bs st buf' d ->
    ref_step s (FProtectInto input id buf) (AInto st buf') {| f_tx := d; f_rx := f_rx s |}
(* a null pointer with a positive length *)
| RsProtectNull : forall input bs m buf st buf' d, null_block input bs m ->
    lenN buf = protected_size (sum_lens input) -> send_null (f_tx s) buf bs m st buf' d ->
    ref_step s (FProtect input) (ABuffers st []) {| f_tx := d; f_rx := f_rx s |}
| RsProtectIntoNull : forall input bs m id buf st buf' d, null_block input bs m ->
    send_null (f_tx s) buf bs m st buf' d ->
    ref_step s (FProtectInto input id buf) (AInto st buf') {| f_tx := d; f_rx := f_rx s |}
| RsShort : forall input, lenN (iov_concat input) < 22 ->
    ref_step s (FUnprotect input) (ABuffers kFailedPrecondition []) s
| RsUnprotect : forall input st cs r, 22 <= lenN (iov_concat input) ->
    recv_all (f_rx s) (iov_concat input) st cs r ->
    ref_step s (FUnprotect input) (ABuffers st cs) {| f_tx := f_tx s; f_rx := r |}
(* the length reported is that of the buffer (C31) *)
| RsShortInto : forall input buf, lenN (iov_concat input) < 22 ->
    ref_step s (FUnprotectInto input buf) (ARead kFailedPrecondition buf (lenN buf)) s
| RsNoneInto : forall input buf, 22 <= lenN (iov_concat input) -> ~ starts_with_record (iov_concat input) ->
    ref_step s (FUnprotectInto input buf) (ARead kFailedPrecondition buf 0) s
(* bytes behind the first record are ignored (C26) *)
| RsInto : forall input buf p rest st n out r, iov_concat input = framed p ++ rest -> lenN p < 65536 ->
    22 <= lenN (iov_concat input) ->
    recv P faulty (f_rx s) (tls_header (lenN p)) p buf st n out r ->
    ref_step s (FUnprotectInto input buf) (ARead (public_code st) out (match st with S_OK => n | _ => 0 end))
      {| f_tx := f_tx s; f_rx := r |}.

(* The operations with undefined behaviour: empty buffers among the input (see
   C27 for which of these), or a fatal handshake stream (C22). *)
Inductive ref_undef (s : ref) : fop -> Prop :=
| UdEmpty : forall input, ~ Forall nonempty_iov input -> ref_undef s (FUnprotect input)
| UdEmptyInto : forall input buf, ~ Forall nonempty_iov input -> ref_undef s (FUnprotectInto input buf)
| UdFatal : forall input, fatal_data (f_rx s) (iov_concat input) -> ref_undef s (FUnprotect input)
| UdFatalInto : forall input buf p rest c pad, iov_concat input = framed p ++ rest -> lenN p < 65536 ->
    r_closed (f_rx s) = false ->
    p = dir_seal P (r_dir (f_rx s)) (tls_header (lenN p)) (inner ty_handshake c pad) ->
    fatal (r_part (f_rx s) ++ c) -> ref_undef s (FUnprotectInto input buf).
End Ref.

Definition ref_start (a : fp_args) : ref := {| f_tx := f_out a; f_rx := rx_start (f_in a) |}.

(* Histories, up to the point where the handshake stream is malformed. *)
Inductive ref_run (P : prims) : ref -> list (fop * faults) -> list answer -> ref -> Prop :=
| RunNil : forall s, ref_run P s [] [] s
| RunStep : forall s op fs r s1 ops rs s', r_bad (f_rx s) = false ->
    ref_step P (fs <> []) s op r s1 -> ref_run P s1 ops rs s' ->
    ref_run P s ((op, fs) :: ops) (r :: rs) s'
| RunBad : forall s ops rs, r_bad (f_rx s) = true -> ref_run P s ops rs s.

(* No call of the library fails. *)
Definition no_failures (ops : list (fop * faults)) : Prop := Forall (fun p => snd p = []) ops.
