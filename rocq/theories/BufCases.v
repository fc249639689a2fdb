(* Cases for PropBuf.v. *)
From Coq Require Import List NArith ZArith Bool Lia ZifyBool ZifyNat ZifyN.
From Verif Require Import Base BaseProofs Aead SpecAead Hkdf HalfConn SpecTls Options HsHandler SpecHs Crypter
  SpecRecord SpecRx CrypterRun FrameProt SpecFrame FrameRun HalfProofs CrypterLemmas CrypterProofs FrameProofs FrameSim FrameFinal Toy ToyProofs FrameExamples
  FrameRef FrameRefProofs SpecStream StreamProofs StreamExample SpecBuf BufFinal.
Import ListNotations.
Local Open Scope N_scope.

(* A protector that has sent a record. *)
Definition b_ops : list (fop * faults) := [(FProtect [IoBuf [9]], [])].
Definition b_ref : ref := {| f_tx := dir_next (f_out (fargs S0)); f_rx := rx_start (f_in (fargs S0)) |}.
Definition b_input : list iovec := [IoBuf (takeN 7 (s_rec 0 [1; 2; 3])); IoBuf (dropN 7 (s_rec 0 [1; 2; 3]))].

Lemma b_run : ref_run marked (ref_start (fargs S0)) b_ops [ABuffers kOk [s_back]] b_ref.
Proof.
  eapply RunStep; [reflexivity| |apply RunNil].
  refine (RsProtect marked _ (ref_start (fargs S0)) [IoBuf [9]] [[9]] (zeros 23) kOk s_back _ _ _ _ _).
  - repeat constructor.
  - apply blocks_one. discriminate.
  - reflexivity.
  - unfold s_back. rewrite <- (app_nil_r (tls_record _ _ _ _ _)). apply SaNext; [discriminate|split; reflexivity|].
    exact (SaDone marked _ _ []).
Qed.

Lemma b_case : exists rs f, protector marked OpenSSL toy_al (fargs S0) b_ops rs f /\ no_failures b_ops /\
  ref_run marked (ref_start (fargs S0)) b_ops (map answer_of rs) b_ref /\
  r_bad (f_rx b_ref) = false /\ open_rx (f_rx b_ref) /\ r_wait (f_rx b_ref) = false /\ dir_usable (dir_next (r_dir (f_rx b_ref))).
Proof.
  destruct (start_run (fargs S0) b_ops) as [[f rs]|u|] eqn:E; [|vm_compute in E; discriminate..].
  pose proof (start_protector (fargs S0) b_ops f rs eq_refl eq_refl ltac:(fine) E) as Hp.
  assert (Hn : no_failures b_ops) by repeat constructor.
  exists rs, f. split; [exact Hp|]. split; [exact Hn|].
  rewrite (F65det _ _ _ _ _ _ _ _ _ Hp Hn b_run eq_refl). split; [exact b_run|]. split; [reflexivity|].
  split; [split; [reflexivity|split; reflexivity]|]. split; [reflexivity|]. split; reflexivity.
Qed.

(* Its next record, in two buffers. *)
Lemma b_input_case : Forall nonempty_iov b_input /\
  iov_concat b_input = tls_record marked (r_dir (f_rx b_ref)) ty_application_data [1; 2; 3] 0 /\
  (forall buf, fop_ok (FUnprotectInto b_input buf)) /\
  (forall m, dropN 5 (iov_concat b_input) <> dir_seal marked (dir_next (r_dir (f_rx b_ref))) (takeN 5 (iov_concat b_input)) m).
Proof.
  assert (E : iov_concat b_input = s_rec 0 [1; 2; 3]) by (vm_compute; reflexivity).
  split; [repeat constructor; eexists; (split; [reflexivity|]); vm_compute; discriminate|].
  split; [vm_compute; reflexivity|]. split.
  - intros buf. split; [repeat constructor|]. split; [vm_compute; repeat constructor|vm_compute; reflexivity].
  - intros m K. rewrite E in K.
    assert (Ed : dropN 5 (s_rec 0 [1; 2; 3]) = dir_seal marked (dir_adv s_din 0) (takeN 5 (s_rec 0 [1; 2; 3])) (inner ty_application_data [1; 2; 3] 0))
      by (vm_compute; reflexivity).
    rewrite Ed in K. change (dir_next (r_dir (f_rx b_ref))) with (dir_adv s_din 1) in K.
    clear Ed E. revert K. generalize (takeN 5 (s_rec 0 [1; 2; 3])). intros aad K.
    assert (Q : 0 = 1); [|discriminate].
    refine (marked_seq s_din aad 0 1 _ m _ _ _ _ K); [vm_compute; reflexivity|vm_compute; repeat constructor|split; reflexivity|split; reflexivity].
Qed.

(* Two blocks, and a buffer with room for the first. *)
Definition b_long : list iovec := [IoBuf (zeros 16384); IoBuf [7]].
Lemma b_long_case : Forall iov_valid b_long /\ fop_ok (FProtectInto b_long 0 (zeros 16420)) /\
  blocks_of (iov_concat b_long) ([zeros 16384] ++ [7] :: []) /\
  lenN (concat [zeros 16384]) + 22 * lenN [zeros 16384] <= lenN (zeros 16420) /\
  lenN (zeros 16420) < lenN (concat [zeros 16384]) + 22 * lenN [zeros 16384] + lenN [7] + 22 /\
  dir_usable (dir_adv (f_tx b_ref) (lenN [zeros 16384])).
Proof.
  split; [repeat constructor|]. cbn [concat fop_ok b_long sum_lens iov_len]. rewrite !app_nil_r, !lenN_zeros.
  split; [vm_compute; reflexivity|]. split.
  { split; [unfold b_long, iov_concat; generalize (zeros 16384); intros z; reflexivity|].
    exists [zeros 16384], [7]. split; [reflexivity|]. split; [constructor; [apply lenN_zeros|constructor]|]. split; [discriminate|discriminate]. }
  split; [change (lenN [zeros 16384]) with 1; lia|]. split; [change (lenN [zeros 16384]) with 1; change (lenN [7]) with 1; lia|].
  change (lenN [zeros 16384]) with 1. split; reflexivity.
Qed.

Lemma B83refuted : exists P lib al a ops rs f input buf n f' out len, protector P lib al a ops rs f /\
  fop_ok (FUnprotectInto input buf) /\ number_bytes_to_unprotect f (total_len input) = Done n /\ lenN buf < n /\
  fstep P lib al f (FUnprotectInto input buf) [] = Done (f', FUnprotectedInto kOk out len).
Proof.
  destruct b_case as (rs & f & Hp & Hn & R & Hb & Ho & Hw & _). destruct b_input_case as (Ne & Ei & Ok & _).
  destruct (B83exact _ _ _ _ _ _ _ _ Hp Hn R Hb Ho Hw [1; 2; 3] 0 b_input (zeros 4) ltac:(discriminate) Ne Ei (Ok _))
    as (En & f' & st & out & len & E & K).
  exists marked, OpenSSL, toy_al, (fargs S0), b_ops, rs, f, b_input, (zeros 4), 20, f', out, len.
  split; [exact Hp|]. split; [apply Ok|]. split; [exact En|]. split; [reflexivity|].
  destruct K as [(_ & -> & _)|(K & _)]; [exact E|]. exfalso. revert K. vm_compute. discriminate.
Qed.

Lemma B84refuted : exists P lib al a ops rs f input small large f1 out1 f2 out2 f3 out3 n, protector P lib al a ops rs f /\
  (forall buf, fop_ok (FUnprotectInto input buf)) /\
  fstep P lib al f (FUnprotectInto input large) [] = Done (f1, FUnprotectedInto kOk out1 n) /\
  fstep P lib al f (FUnprotectInto input small) [] = Done (f2, FUnprotectedInto kInternal out2 0) /\
  fstep P lib al f2 (FUnprotectInto input large) [] = Done (f3, FUnprotectedInto kInternal out3 0).
Proof.
  destruct b_case as (rs & f & Hp & Hn & R & Hb & Ho & Hw & Hu). destruct b_input_case as (Ne & Ei & Ok & Nf).
  destruct (B83exact _ _ _ _ _ _ _ _ Hp Hn R Hb Ho Hw [1; 2; 3] 0 b_input (zeros 20) ltac:(discriminate) Ne Ei (Ok _))
    as (En & f1 & st & out1 & len & E1 & K).
  destruct K as [(_ & -> & _)|(K & _)]; [|exfalso; revert K; vm_compute; discriminate].
  destruct (B84read _ _ _ _ _ _ _ _ Hp Hn R Hb Ho Hw Hu [1; 2; 3] 0 b_input (zeros 3) ltac:(discriminate) Ne Ei (Ok _) ltac:(discriminate))
    as (f2 & out2 & E2 & K & _). destruct (K Nf (zeros 20)) as (f3 & out3 & E3).
  exists marked, OpenSSL, toy_al, (fargs S0), b_ops, rs, f, b_input, (zeros 3), (zeros 20), f1, out1, f2, out2, f3, out3, len.
  split; [exact Hp|]. split; [exact Ok|]. auto.
Qed.

(* A record without its last byte. *)
Lemma b_no_record_case : fop_ok (FUnprotectInto [IoBuf (takeN 24 (s_rec 0 [1; 2; 3]))] [0; 0]) /\
  Forall nonempty_iov [IoBuf (takeN 24 (s_rec 0 [1; 2; 3]))] /\ ~ starts_with_record (takeN 24 (s_rec 0 [1; 2; 3])).
Proof.
  split; [split; [repeat constructor|split; [vm_compute; repeat constructor|vm_compute; reflexivity]]|].
  split; [repeat constructor; eexists; (split; [reflexivity|]); vm_compute; discriminate|].
  intros (hdr & p & rest & E & -> & L).
  assert (Hx : tls_header (lenN p) = tls_header 20).
  { pose proof (f_equal (takeN 5) E) as K. rewrite <- (lenN_tls_header (lenN p)) in K at 2.
    rewrite takeN_app_exact in K. rewrite <- K. vm_compute. reflexivity. }
  pose proof (f_equal lenN E) as K. rewrite !lenN_app, lenN_tls_header in K. replace (lenN (takeN 24 (s_rec 0 [1; 2; 3]))) with 24 in K by (vm_compute; reflexivity).
  assert (Hle : lenN p < 20) by lia. assert (Ej : forall n, n < 20 -> tls_header n <> tls_header 20).
  { intros n Hn Hq. unfold tls_header in Hq. change (be_bytes 2 n) with ([(n / 256) mod 256] ++ [n mod 256]) in Hq.
    injection Hq as _ Hq. rewrite N.mod_small in Hq by lia. lia. }
  exact (Ej _ Hle Hx).
Qed.
