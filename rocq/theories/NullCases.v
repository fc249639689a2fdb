(* Cases for PropNull.v. *)
From Coq Require Import List NArith ZArith Bool Lia ZifyBool ZifyNat ZifyN.
From Verif Require Import Base BaseProofs Aead SpecAead AeadRun Hkdf HalfConn SpecTls Options HsHandler Crypter SpecRecord
  CrypterRun FrameProt SpecFrame FrameRun FrameSim FrameFinal FrameRef SpecNull NullProofs Toy ToyProofs AeadExamples FrameExamples BufCases SpecStream StreamExample.
Import ListNotations.
Local Open Scope N_scope.

Definition n_sealed (k : akind) : bytes := seal toy (kind_alg k key32) key32 nonce12 [1; 2; 3] [].
Definition n_frags (k : akind) : list iovec := [IoBuf (takeN 10 (n_sealed k)); IoNull 0; IoBuf (dropN 10 (n_sealed k))].

Lemma n_case : forall lib k, exists c, prims_ok toy /\ areach toy lib k key32 c /\ lenN nonce12 = 12 /\
  carries aad_frags [1; 2; 3] /\ carries (n_frags k) (seal toy (kind_alg k key32) key32 nonce12 [1; 2; 3] []) /\
  sum_lens (n_frags k) < two64 /\ sum_lens pt_frags + 16 < two64.
Proof.
  intros lib k. destruct (used_exists lib k) as (c & rs & _ & R & _). exists c.
  split; [exact toy_ok|]. split; [exact R|]. split; [reflexivity|]. split; [exact aad_carries|].
  split; [|split; [destruct k; vm_compute; reflexivity|vm_compute; reflexivity]].
  split; [repeat constructor|]. split; [constructor; [|constructor; [|constructor; [|constructor]]]; destruct k; vm_compute; reflexivity|].
  destruct k; vm_compute; reflexivity.
Qed.

Lemma n_protector_case : exists rs f cops crs f' fs',
  protector marked OpenSSL toy_al (fargs S0) b_ops rs f /\
  connection marked OpenSSL (c_args (fargs S0)) cops crs (fp_crypt f) /\
  cop_ok (CUnprotect (takeN 5 (s_rec 0 [1; 2; 3])) [IoBuf (dropN 5 (s_rec 0 [1; 2; 3]))] []) /\
  fop_ok (FUnprotectInto b_input []) /\ sum_lens b_long < two64 /\
  fp_unprotect_into marked OpenSSL f b_input (IoNull 0) [] = Done (f', kInternal, IoNull 0, 0, fs') /\
  hc_seq (cx_in (fp_crypt f')) = hc_seq (cx_in (fp_crypt f)) + 1.
Proof.
  destruct (start_run (fargs S0) b_ops) as [[f rs]|u|] eqn:E; [|vm_compute in E; discriminate..].
  pose proof (start_protector (fargs S0) b_ops f rs eq_refl eq_refl ltac:(fine) E) as Hp.
  destruct (protector_connection _ _ _ _ _ _ _ Hp) as (_ & _ & _ & _ & cops & crs & HC).
  assert (K : match start_run (fargs S0) b_ops with
    | Done (f, _) => match fp_unprotect_into marked OpenSSL f b_input (IoNull 0) [] with
        | Done (f', kInternal, IoNull 0, 0, _) => hc_seq (cx_in (fp_crypt f')) =? hc_seq (cx_in (fp_crypt f)) + 1
        | _ => false end
    | _ => false end = true) by (vm_compute; reflexivity).
  rewrite E in K. clear E.
  destruct (fp_unprotect_into marked OpenSSL f b_input (IoNull 0) []) as [[[[[f' st] out] n] fs']|u|] eqn:Eu; try discriminate K.
  destruct st; try discriminate K. destruct out as [?|[|]]; try discriminate K. destruct n; try discriminate K.
  exists rs, f, cops, crs, f', fs'. split; [exact Hp|]. split; [exact HC|].
  split; [split; [vm_compute; repeat constructor|]; split; [repeat constructor|]; split; [vm_compute; repeat constructor|vm_compute; reflexivity]|].
  destruct b_input_case as (_ & _ & Ok & _). split; [apply Ok|].
  split; [vm_compute; reflexivity|]. split; [exact Eu|]. apply N.eqb_eq. exact K.
Qed.
