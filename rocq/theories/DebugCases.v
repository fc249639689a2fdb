(* Cases for C88. *)
From Coq Require Import List NArith Bool Lia.
From Verif Require Import Base Aead SpecAead AeadRun Hkdf HalfConn SpecTls Options HsHandler SpecHs Crypter SpecRecord SpecRx CrypterRun
  FrameProt SpecFrame FrameRun FrameSim FrameFinal Toy FrameExamples FrameRefuted Debug DebugRun DebugFinal.
Import ListNotations.
Local Open Scope N_scope.

(* One record, with a null pointer of length 0 between two parts of it. *)
Definition gapped : list iovec := [IoBuf (takeN 8 rec1); IoNull 0; IoBuf (dropN 8 rec1)].

Lemma gapped_ok : fop_ok (FUnprotect gapped).
Proof. apply unprotect_ok; [vm_compute; reflexivity|repeat constructor]. Qed.

Lemma R88 : exists P lib al a f f' b, protector P lib al a [] [] f /\ fop_ok (FUnprotect gapped) /\
  fstep P lib al f (FUnprotect gapped) [] = Done (f', FUnprotected kOk [b]) /\ fb_bytes b = [1; 2; 3] /\
  fstep_d P lib al f (FUnprotect gapped) [] = Done Aborted.
Proof.
  destruct (fplay_check OpenSSL (fargs S0) [] (fun f rs => match rs with [] =>
    match fstep toy OpenSSL toy_al f (FUnprotect gapped) [], fstep_d toy OpenSSL toy_al f (FUnprotect gapped) [] with
    | Done (f', FUnprotected kOk [b]), Done Aborted => bytes_eqb (fb_bytes b) [1; 2; 3]
    | _, _ => false end | _ => false end)) as (f & rs & Hp & Hc); [vm_compute; reflexivity|reflexivity|reflexivity|constructor|].
  destruct rs; [|discriminate Hc].
  destruct (fstep toy OpenSSL toy_al f (FUnprotect gapped) []) as [[f' [| |[] [|b []]|]]|u|] eqn:E; try discriminate Hc.
  destruct (fstep_d toy OpenSSL toy_al f (FUnprotect gapped) []) as [[|x]|u|] eqn:E2; try discriminate Hc.
  apply bytes_eqb_eq in Hc. exists toy, OpenSSL, toy_al, (fargs S0), f, f', b. split; [exact Hp|]. split; [exact gapped_ok|]. auto.
Qed.

Lemma ops2_no_null : Forall (fun p => no_null (fst p)) ops2.
Proof.
  apply Forall_cons; [cbn [fst no_null]; apply Forall_cons; [eexists; reflexivity|apply Forall_nil]|].
  apply Forall_cons; [exact I|apply Forall_nil].
Qed.

Lemma history_case : exists fs f0 fs' f bs1 bs2, fp_create toy OpenSSL (fargs S0) fs = Done (inr f0, fs') /\
  fops_ok ops2 /\ Forall (fun p => no_null (fst p)) ops2 /\
  frun toy OpenSSL toy_al f0 ops2 = Done (f, [FUnprotected kOk bs1; FProtected kOk bs2]) /\ map fb_bytes bs1 = [[1; 2; 3]; [4]].
Proof.
  destruct two_received as (f & rs & Hp & bs1 & bs2 & -> & Hb & _). destruct Hp as (_ & _ & _ & _ & _ & f0 & fs & fs' & Hc & Hr).
  exists fs, f0, fs', f, bs1, bs2. split; [exact Hc|]. split; [exact ops2_ok|]. split; [exact ops2_no_null|]. auto.
Qed.

Lemma gap_case : exists f (hdr p1 p2 : bytes), protector toy OpenSSL toy_al (fargs S0) [] [] f /\
  is_record hdr (p1 ++ p2) /\ p2 <> [] /\ 17 <= lenN (p1 ++ p2) /\
  gapped = [IoBuf (hdr ++ p1); IoNull 0; IoBuf p2] /\ sum_lens gapped < two64.
Proof.
  destruct (fresh_protector OpenSSL S0) as (f & Hp). exists f, (takeN 5 rec1), (takeN 3 (dropN 5 rec1)), (dropN 8 rec1).
  split; [exact Hp|]. split; [split; vm_compute; reflexivity|]. split; [vm_compute; discriminate|].
  split; [vm_compute; discriminate|]. split; vm_compute; reflexivity.
Qed.
