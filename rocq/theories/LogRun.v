(* Operations with their log. *)
From Coq Require Import List NArith Bool.
From Verif Require Import Base Aead Hkdf HalfConn Options HsHandler Crypter FrameProt SpecTls SpecHs SpecRecord SpecRx CrypterRun
  SpecFrame FrameRun Log.
Import ListNotations.
Local Open Scope N_scope.

(* The methods of S2ACrypter, as in CrypterRun.v, with the lines logged. *)
Definition lstep (P : prims) (lib : ssl_lib) (x : crypt) (op : cop) (fs : faults)
  : outcome (crypt * cres * list line) :=
  match op with
  | CProtect t pt buf =>
    obind (crypt_protect_l P x t pt (IoBuf buf) fs)
      (fun '((x, (st, n), out, ls), _) => Done (x, CProtected st n out, ls))
  | CUnprotect hdr payload buf =>
    obind (crypt_unprotect_l P lib x (IoBuf hdr) payload (IoBuf buf) fs)
      (fun '((x, (st, n), out, ls), _) => Done (x, CUnprotected st n out, ls))
  | CUpdateKey =>
    obind (crypt_update_outbound_key_l P lib x fs)
      (fun '((x, st, ls), _) => Done (x, CUpdated st, ls))
  end.

(* The operations of S2AFrameProtector, as in FrameRun.v, with the lines
   logged. *)
Definition flstep (P : prims) (lib : ssl_lib) (al : allocator) (f : fprot)
  (op : fop) (fs : faults) : outcome (fprot * fres * list line) :=
  match op with
  | FProtect input =>
    obind (fp_protect_l P al f input fs)
      (fun '((f, st, bs, ls), _) => Done (f, FProtected st bs, ls))
  | FProtectInto input id buf =>
    obind (fp_protect_into_l P f input id (IoBuf buf) fs)
      (fun '((f, st, buf, ls), _) => Done (f, FProtectedInto st buf, ls))
  | FUnprotect input =>
    obind (fp_unprotect_l P lib al f input fs)
      (fun '((f, st, bs, ls), _) => Done (f, FUnprotected st bs, ls))
  | FUnprotectInto input buf =>
    obind (fp_unprotect_into_l P lib f input (IoBuf buf) fs)
      (fun '((f, st, buf, n, ls), _) => Done (f, FUnprotectedInto st buf n, ls))
  end.
