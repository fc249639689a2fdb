(* Shared vocabulary of the model: bytes, size_t arithmetic, iovecs, status
   codes, undefined behaviour and the fault oracle for library calls. *)
From Coq Require Import List NArith Bool.
Import ListNotations.
Local Open Scope N_scope.

(* ------------------------------------------------------------------ *)
(* Bytes and sizes *)

(* uint8_t values are numbers; [byte_ok] is the range of uint8_t. *)
Definition bytes := list N.
Definition byte_ok (b : N) : Prop := b < 256.
Definition bytes_ok (bs : bytes) : Prop := Forall byte_ok bs.

Definition lenN {A} (l : list A) : N := N.of_nat (length l).
Definition takeN {A} (n : N) (l : list A) : list A := firstn (N.to_nat n) l.
Definition dropN {A} (n : N) (l : list A) : list A := skipn (N.to_nat n) l.

(* size_t / uint64_t arithmetic is modulo 2^64. *)
Definition two64 : N := 18446744073709551616.
Definition wrap64 (n : N) : N := n mod two64.
Definition sub64 (a b : N) : N := (a + two64 - b) mod two64.

(* [len] zero bytes: the effect of memset(ptr, 0, len). *)
Definition zeros (n : N) : bytes := repeat 0 (N.to_nat n).

(* ------------------------------------------------------------------ *)
(* Constants: include/s2a_constants.h 39-62,
   src/crypto/s2a_aead_constants.h 29-43 and
   src/record_protocol/s2a_crypter.h (record sizes). *)
Definition kTlsRecordHeaderSize : N := 5.
Definition kTlsMaxPlaintextSize : N := 16384.
Definition kTlsSequenceSize : nat := 8.
Definition kAeadNonceSize : N := 12. (* AES-GCM and ChaCha-Poly *)
Definition kAeadTagSize : N := 16.   (* AES-GCM and ChaCha-Poly *)
Definition kAes128GcmKeySize : N := 16.
Definition kAes256GcmKeySize : N := 32.
Definition kChachaPolyKeySize : N := 32.

(* ------------------------------------------------------------------ *)
(* absl::StatusCode, restricted to the codes the library produces. Status
   messages are not modelled. *)
Inductive code :=
| kOk | kUnknown | kInvalidArgument | kNotFound | kFailedPrecondition
| kUnimplemented | kInternal.

Definition code_eqb (a b : code) : bool :=
  match a, b with
  | kOk, kOk | kUnknown, kUnknown | kInvalidArgument, kInvalidArgument
  | kNotFound, kNotFound | kFailedPrecondition, kFailedPrecondition
  | kUnimplemented, kUnimplemented | kInternal, kInternal => true
  | _, _ => false
  end.

Definition is_ok (c : code) : bool := code_eqb c kOk.

(* ------------------------------------------------------------------ *)
(* Outcomes: a C++ call either completes, or runs into undefined behaviour.
   [NoFuel] marks an exhausted recursion bound of the model itself. *)
Inductive ub :=
| UbNullDeref        (* access through a null pointer *)
| UbOutOfBounds      (* access outside a buffer *)
| UbNegativeShift    (* shift by a negative amount *)
| UbUninitialised    (* read of an indeterminate value *)
| UbUseAfterFree.    (* access to a freed object *)

Inductive outcome (A : Type) :=
| Done (a : A)
| Undef (u : ub)
| NoFuel.
Arguments Done {A} a.
Arguments Undef {A} u.
Arguments NoFuel {A}.

(* Fault oracle: one boolean per call into OpenSSL/BoringSSL, [true] meaning
   that the call fails; when the list is used up all calls succeed. *)
Definition faults := list bool.

Definition M (A : Type) := faults -> outcome (A * faults).
Definition ret {A} (a : A) : M A := fun fs => Done (a, fs).
Definition undef {A} (u : ub) : M A := fun _ => Undef u.
Definition bind {A B} (m : M A) (k : A -> M B) : M B :=
  fun fs => match m fs with
            | Done (a, fs') => k a fs'
            | Undef u => Undef u
            | NoFuel => NoFuel
            end.
Notation "x <- m ;; k" := (bind m (fun x => k))
  (at level 61, m at next level, right associativity).
Notation "' p <- m ;; k" := (bind m (fun p => k))
  (at level 61, p pattern, m at next level, right associativity).

(* Lift an outcome that makes no library call. *)
Definition lift {A} (o : outcome A) : M A :=
  fun fs => match o with
            | Done a => Done (a, fs)
            | Undef u => Undef u
            | NoFuel => NoFuel
            end.

(* One library call: [true] means it succeeded. *)
Definition ssl : M bool :=
  fun fs => match fs with
            | [] => Done (true, [])
            | f :: fs' => Done (negb f, fs')
            end.

Definition obind {A B} (m : outcome A) (k : A -> outcome B) : outcome B :=
  match m with
  | Done a => k a
  | Undef u => Undef u
  | NoFuel => NoFuel
  end.

(* ------------------------------------------------------------------ *)
(* Iovec: src/crypto/s2a_aead_constants.h 29-32. [IoBuf d] is a non-null base
   pointer to exactly [iov_len] bytes d; [IoNull n] is a null base pointer
   with iov_len = n. An Iovec whose iov_len exceeds the memory behind iov_base
   is not representable (caller error outside the model). *)
Inductive iovec :=
| IoBuf (data : bytes)
| IoNull (len : N).

Definition iov_len (v : iovec) : N :=
  match v with
  | IoBuf d => lenN d
  | IoNull n => n
  end.

(* The bytes an iovec denotes (none for a null pointer). *)
Definition iov_data (v : iovec) : bytes :=
  match v with
  | IoBuf d => d
  | IoNull _ => []
  end.

(* Not a null pointer with non-zero length. *)
Definition iov_valid (v : iovec) : Prop :=
  match v with
  | IoBuf _ => True
  | IoNull n => n = 0
  end.

Definition iov_concat (vs : list iovec) : bytes := flat_map iov_data vs.

(* Mathematical sum of the lengths (for stating size limits). *)
Fixpoint sum_lens (vs : list iovec) : N :=
  match vs with
  | [] => 0
  | v :: r => iov_len v + sum_lens r
  end.

(* Sum of iov_len in size_t arithmetic. *)
Definition total_len (vs : list iovec) : N :=
  fold_left (fun acc v => wrap64 (acc + iov_len v)) vs 0.

(* Overwrite [data] at offset [off] of an output iovec (memcpy and friends). *)
Definition write_at (out : iovec) (off : N) (data : bytes) : outcome iovec :=
  match data with
  | [] => Done out
  | _ =>
    match out with
    | IoNull _ => Undef UbNullDeref
    | IoBuf buf =>
      if off + lenN data <=? lenN buf
      then Done (IoBuf (takeN off buf ++ data ++ dropN (off + lenN data) buf))
      else Undef UbOutOfBounds
    end
  end.

(* memset(v.iov_base, 0, v.iov_len). *)
Definition zero_out (v : iovec) : outcome iovec :=
  match v with
  | IoBuf d => Done (IoBuf (zeros (lenN d)))
  | IoNull n => if n =? 0 then Done v else Undef UbNullDeref
  end.

(* Pointwise xor of a byte string with another, cut to the shorter one. *)
Fixpoint xor_bytes (a b : bytes) : bytes :=
  match a, b with
  | x :: a', y :: b' => N.lxor x y :: xor_bytes a' b'
  | _, _ => []
  end.
