(* Histories of operations on one S2AFrameProtector in a debug build. *)
From Coq Require Import List NArith Bool.
From Verif Require Import Base Aead Hkdf HalfConn Options HsHandler Crypter FrameProt SpecTls SpecHs SpecRecord SpecRx CrypterRun
  SpecFrame FrameRun SpecAead AeadRun Debug.
Import ListNotations.
Local Open Scope N_scope.

(* What a debug build does: nothing more than [Aborted], or a result. *)
Inductive debug (A : Type) := Aborted | Returned (a : A).
Arguments Aborted {A}.
Arguments Returned {A} a.

Definition dres {A B} (o : outcome (option A * faults)) (k : A -> B) : outcome (debug B) :=
  obind o (fun '(r, _) => match r with Some a => Done (Returned (k a)) | None => Done Aborted end).

Definition fstep_d (P : prims) (lib : ssl_lib) (al : allocator) (f : fprot)
  (op : fop) (fs : faults) : outcome (debug (fprot * fres)) :=
  match op with
  | FProtect input =>
    dres (fp_protect_d P al f input fs) (fun '(f, st, bs) => (f, FProtected st bs))
  | FProtectInto input id buf =>
    dres (fp_protect_into_d P f input id (IoBuf buf) fs) (fun '(f, st, buf) => (f, FProtectedInto st buf))
  | FUnprotect input =>
    dres (fp_unprotect_d P lib al f input fs) (fun '(f, st, bs) => (f, FUnprotected st bs))
  | FUnprotectInto input buf =>
    dres (fp_unprotect_into_d P lib f input (IoBuf buf) fs) (fun '(f, st, buf, n) => (f, FUnprotectedInto st buf n))
  end.

Fixpoint frun_d (P : prims) (lib : ssl_lib) (al : allocator) (f : fprot)
  (ops : list (fop * faults)) : outcome (debug (fprot * list fres)) :=
  match ops with
  | [] => Done (Returned (f, []))
  | (op, fs) :: ops' =>
    obind (fstep_d P lib al f op fs) (fun r =>
      match r with
      | Aborted => Done Aborted
      | Returned (f, r) =>
        obind (frun_d P lib al f ops') (fun q =>
          match q with
          | Aborted => Done Aborted
          | Returned (f, rs) => Done (Returned (f, r :: rs))
          end)
      end)
  end.

(* The calls of an AEAD crypter. *)
Definition astep_d (P : prims) (c : crypter) (op : aop) (fs : faults)
  : outcome (debug (crypter * ares)) :=
  dres (match op with
        | AEncrypt nonce aad pt out => aead_encrypt_d P c nonce aad pt out fs
        | ADecrypt nonce aad ct out => aead_decrypt_d P c nonce aad ct out fs
        end)
    (fun '(c, (st, n), out) => (c, {| ar_st := st; ar_n := n; ar_out := out |})).

(* ---- specification ---- *)

(* The release build's behaviour, as a debug build's. *)
Definition returned {A} (o : outcome A) : outcome (debug A) := obind o (fun a => Done (Returned a)).

(* No null pointer among what is to be unprotected. *)
Definition no_null (op : fop) : Prop :=
  match op with
  | FProtect _ | FProtectInto _ _ _ => True
  | FUnprotect input | FUnprotectInto input _ => Forall (fun v => exists d, v = IoBuf d) input
  end.
