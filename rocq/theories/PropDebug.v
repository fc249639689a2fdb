(* C88: the assertions of the record layer. *)
From Coq Require Import List NArith Bool.
From Verif Require Import Base Aead SpecAead AeadRun Hkdf HalfConn SpecTls Options HsHandler SpecHs Crypter SpecRecord SpecRx CrypterRun
  FrameProt SpecFrame FrameRun FrameFinal Toy FrameExamples FrameRefuted AeadExamples Debug DebugRun DebugFinal DebugCases.
Import ListNotations.
Local Open Scope N_scope.

(* A debug build aborts or does exactly what a release build does: in any
   state, with any library, allocator and arguments. *)
Theorem C88_abort_or_same : forall P lib al ops f,
  frun_d P lib al f ops = Done Aborted \/ frun_d P lib al f ops = returned (frun P lib al f ops).
Proof. exact D88run. Qed.
Print Assumptions C88_abort_or_same.

(* Whatever the peer sends and however the library fails, no assertion fails in
   any history of a frame protector, if no null pointer is given to Unprotect.
   Missing: null pointers of length 0, see below. *)
Theorem C88_no_assertion_fails_partial : forall P lib al a,
  prims_ok P -> alloc_ok al -> ca_in_seq (fa_crypt a) < two64 -> ca_out_seq (fa_crypt a) < two64 ->
  forall fs f0 fs', fp_create P lib a fs = Done (inr f0, fs') ->
  forall ops, fops_ok ops -> Forall (fun p => no_null (fst p)) ops ->
  frun_d P lib al f0 ops = returned (frun P lib al f0 ops).
Proof. exact D88hist. Qed.
Print Assumptions C88_no_assertion_fails_partial.
Example C88_no_assertion_fails_case : exists fs f0 fs' f bs1 bs2, fp_create toy OpenSSL (fargs S0) fs = Done (inr f0, fs') /\
  fops_ok ops2 /\ Forall (fun p => no_null (fst p)) ops2 /\
  frun toy OpenSSL toy_al f0 ops2 = Done (f, [FUnprotected kOk bs1; FProtected kOk bs2]) /\ map fb_bytes bs1 = [[1; 2; 3]; [4]].
Proof. exact history_case. Qed.

(* A null pointer of length 0 inside the payload: the release build accepts the
   record, the debug build aborts. *)
Theorem C88_no_assertion_fails_refuted : exists P lib al a f f' b, protector P lib al a [] [] f /\ fop_ok (FUnprotect gapped) /\
  fstep P lib al f (FUnprotect gapped) [] = Done (f', FUnprotected kOk [b]) /\ fb_bytes b = [1; 2; 3] /\
  fstep_d P lib al f (FUnprotect gapped) [] = Done Aborted.
Proof. exact R88. Qed.
Print Assumptions C88_no_assertion_fails_refuted.

(* On every protector, wherever it is in the payload. *)
Theorem C88_aborts_on_every_protector : forall P lib al a ops rs f, protector P lib al a ops rs f ->
  forall hdr p1 p2 rest fs, is_record hdr (p1 ++ p2) -> p2 <> [] -> 17 <= lenN (p1 ++ p2) ->
  sum_lens (IoBuf (hdr ++ p1) :: IoNull 0 :: IoBuf p2 :: rest) < two64 ->
  (forall buf, fstep_d P lib al f (FUnprotectInto (IoBuf (hdr ++ p1) :: IoNull 0 :: IoBuf p2 :: rest) buf) fs = Done Aborted) /\
  fstep_d P lib al f (FUnprotect (IoBuf (hdr ++ p1) :: IoNull 0 :: IoBuf p2 :: rest)) fs = Done Aborted.
Proof. exact D88gap. Qed.
Print Assumptions C88_aborts_on_every_protector.
Example C88_aborts_case : exists f (hdr p1 p2 : bytes), protector toy OpenSSL toy_al (fargs S0) [] [] f /\
  is_record hdr (p1 ++ p2) /\ p2 <> [] /\ 17 <= lenN (p1 ++ p2) /\
  gapped = [IoBuf (hdr ++ p1); IoNull 0; IoBuf p2] /\ sum_lens gapped < two64.
Proof. exact gap_case. Qed.

(* Protect into a null buffer: aborts exactly if the length would be enough for
   the first record; otherwise it is refused. *)
Theorem C88_protect_into_null : forall P lib al a ops rs f, protector P lib al a ops rs f ->
  forall input id n fs, protected_size (sum_lens input) < two64 ->
  fp_protect_into_d P f input id (IoNull n) fs =
    if N.min (sum_lens input) 16384 + 22 <=? n then Done (None, fs)
    else Done (Some (fp_destroy f id, kFailedPrecondition, IoNull n), fs).
Proof. exact D88null. Qed.
Print Assumptions C88_protect_into_null.
Example C88_protect_into_null_case : exists f, protector toy OpenSSL toy_al (fargs S0) [] [] f /\
  protected_size (sum_lens [IoBuf [1; 2; 3]]) < two64 /\
  N.min (sum_lens [IoBuf [1; 2; 3]]) 16384 + 22 <= 25.
Proof.
  destruct (fresh_protector OpenSSL S0) as (f & Hp). exists f. split; [exact Hp|].
  split; [reflexivity|vm_compute; discriminate].
Qed.

(* The AEAD crypters: which calls abort, and that the others are as in a
   release build. Encrypt aborts on a null output even of length 0, which
   release builds and Decrypt take for an empty buffer (C85). *)
Theorem C88_aead : forall P c op fs,
  astep_d P c op fs =
    match op with
    | AEncrypt _ _ _ (IoNull _) => Done Aborted
    | ADecrypt _ _ _ (IoNull n) => if 0 <? n then Done Aborted else returned (astep P c op fs)
    | _ => returned (astep P c op fs)
    end.
Proof. exact D88aead. Qed.
Print Assumptions C88_aead.
Example C88_aead_case : exists c r, areach toy OpenSSL KAesGcm key32 c /\
  astep toy c (AEncrypt nonce12 aad_frags pt_frags (IoNull 0)) [] = Done r /\
  astep_d toy c (AEncrypt nonce12 aad_frags pt_frags (IoNull 0)) [] = Done Aborted.
Proof.
  destruct (acreate OpenSSL KAesGcm key32 []) as [[[e|c] fs]|u|] eqn:A; try discriminate A. exists c.
  assert (R : areach toy OpenSSL KAesGcm key32 c) by (exists c, [], fs, [], []; split; [exact A|reflexivity]).
  cbn in A. injection A as <- <-. eexists. split; [exact R|]. split; [vm_compute; reflexivity|reflexivity].
Qed.
