(* Protect on input with a null pointer: C86. *)
From Coq Require Import List NArith Bool.
From Verif Require Import Base Aead Hkdf HalfConn SpecAead SpecTls Options HsHandler Crypter SpecHs SpecRecord SpecRx
  CrypterRun FrameProt SpecFrame FrameRun FrameRef Toy FrameExamples StreamExample BufFinal BufCases NullWrite.
Import ListNotations.
Local Open Scope N_scope.

(* C86. On every protector without failures of the library, [s] being the state
   of the reference of C65: [bs] are the full blocks of the input before its
   first null pointer with a positive length, [m] is the size of the block that
   pointer lies in. The call is refused, the records of [bs] are in the caller's
   buffer, and the next record sent has a number [lenN bs + 1] further on. *)
Theorem C86_effect : forall P lib al a ops rs f s, protector P lib al a ops rs f -> no_failures ops ->
  ref_run P (ref_start a) ops (map answer_of rs) s -> r_bad (f_rx s) = false ->
  forall input bs m, fop_ok (FProtect input) -> null_block input bs m ->
  dir_usable (dir_adv (f_tx s) (lenN bs)) ->
  (exists f1, fstep P lib al f (FProtect input) [] = Done (f1, FProtected kInvalidArgument []) /\
    (dir_usable (dir_adv (f_tx s) (lenN bs + 1)) -> forall c, lenN c <= 16384 ->
     exists f2 r, fstep P lib al f1 (FProtect [IoBuf c]) [] = Done (f2, FProtected kOk [r]) /\
       fb_bytes r = tls_record P (dir_adv (f_tx s) (lenN bs + 1)) ty_application_data c 0)) /\
  (forall id buf, 16406 * lenN bs + m + 22 <= lenN buf ->
   exists f1 out, fstep P lib al f (FProtectInto input id buf) [] = Done (f1, FProtectedInto kInvalidArgument out) /\
    iov_data out = records P (f_tx s) bs ++ zeros (lenN buf - 16406 * lenN bs) /\
    (dir_usable (dir_adv (f_tx s) (lenN bs + 1)) -> forall c, lenN c <= 16384 ->
     exists f2 r, fstep P lib al f1 (FProtect [IoBuf c]) [] = Done (f2, FProtected kOk [r]) /\
       fb_bytes r = tls_record P (dir_adv (f_tx s) (lenN bs + 1)) ty_application_data c 0)).
Proof. exact N86. Qed.
Print Assumptions C86_effect.

Example C86_case : (exists rs f, protector marked OpenSSL toy_al (fargs S0) b_ops rs f /\ no_failures b_ops /\
    ref_run marked (ref_start (fargs S0)) b_ops (map answer_of rs) b_ref /\
    r_bad (f_rx b_ref) = false /\ open_rx (f_rx b_ref) /\ r_wait (f_rx b_ref) = false /\ dir_usable (dir_next (r_dir (f_rx b_ref)))) /\
  fop_ok (FProtect n_input) /\ null_block n_input [zeros 16384] 6 /\
  dir_usable (dir_adv (f_tx b_ref) (lenN [zeros 16384])) /\ dir_usable (dir_adv (f_tx b_ref) (lenN [zeros 16384] + 1)).
Proof. exact (conj b_case n_case). Qed.

(* Refuted: that the refused call has no effect on what is sent later. *)
Theorem C86_no_effect_refuted : exists P lib al a ops rs f input f1, protector P lib al a ops rs f /\
  fop_ok (FProtect input) /\ fstep P lib al f (FProtect input) [] = Done (f1, FProtected kInvalidArgument []) /\
  exists c f2 r f2' r', fstep P lib al f (FProtect [IoBuf c]) [] = Done (f2, FProtected kOk [r]) /\
    fstep P lib al f1 (FProtect [IoBuf c]) [] = Done (f2', FProtected kOk [r']) /\ fb_bytes r' <> fb_bytes r.
Proof. exact N86refuted. Qed.
Print Assumptions C86_no_effect_refuted.
