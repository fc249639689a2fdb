(* One direction of a connection (S2AHalfConnection): C04 - C08. *)
From Coq Require Import List NArith Bool.
From Verif Require Import Base Aead Hkdf HalfConn SpecAead SpecTls HalfRun HalfRunProofs Toy ToyProofs
  HalfExamples.
Import ListNotations.
Local Open Scope N_scope.

(* Throughout: [h] is reached by the history [ops] (each call with its own
   library failures) with results [rs] on a half connection created with
   ciphersuite s, sequence number q and traffic secret S. [hc_used h] is the
   log of (installed key number, nonce) pairs passed to the AEAD crypter,
   [nonces h e] its part for key number e, [key_start q e] the sequence number
   key e starts at: q for the first key, 0 for the others. *)

Theorem C04_no_nonce_reuse : forall P lib s q S ops rs h,
  prims_ok P -> q < two64 -> hops_ok ops -> hreach P lib s q S ops rs h ->
  NoDup (hc_used h).
Proof. exact C04_lemma. Qed.
Print Assumptions C04_no_nonce_reuse.

Theorem C05_sequence_never_wraps : forall P lib s q S ops rs h,
  prims_ok P -> q < two64 -> hops_ok ops -> hreach P lib s q S ops rs h ->
  (forall e, key_start q e + lenN (nonces h e) <= two64) /\
  (key_start q (hc_epoch h) + lenN (nonces h (hc_epoch h)) = two64 ->
   forall op fs, is_record_op op ->
     hstep P lib h op fs = Done (h, HCrypt kInternal 0 (IoBuf (op_out op)))) /\
  (forall aad pt out h1, no_failed_update rs ->
     hstep P lib h HUpdateKey [] = Done (h1, HUpdated kOk) ->
     Forall iov_valid aad -> Forall iov_valid pt ->
     hop_ok (HEncrypt aad pt out) -> sum_lens pt + 16 <= lenN out ->
     exists h2 out', hstep P lib h1 (HEncrypt aad pt out) [] =
       Done (h2, HCrypt kOk (sum_lens pt + 16) out')).
Proof. exact C05_lemma. Qed.
Print Assumptions C05_sequence_never_wraps.

Theorem C06_nonces_follow_rfc8446 : forall P lib s q S ops rs h,
  prims_ok P -> q < two64 -> hops_ok ops -> hreach P lib s q S ops rs h ->
  (forall e, nonces h e =
     map (fun i => record_nonce (traffic_iv P s (nth_secret P s S (N.to_nat e)))
                     (key_start q e + N.of_nat i)) (seq 0 (length (nonces h e)))) /\
  (forall op fs, is_record_op op -> hop_ok op ->
     hstep P lib h op fs = Done (h, HCrypt kInternal 0 (IoBuf (op_out op))) \/
     exists h' st n out nonce, hstep P lib h op fs = Done (h', HCrypt st n out) /\
       hc_epoch h' = hc_epoch h /\
       hc_used h' = hc_used h ++ [(hc_epoch h, nonce)]) /\
  (no_failed_update rs -> key_start q (hc_epoch h) + lenN (nonces h (hc_epoch h)) < two64 ->
   forall op fs, is_record_op op -> hop_ok op ->
     exists h' st n out nonce, hstep P lib h op fs = Done (h', HCrypt st n out) /\
       hc_epoch h' = hc_epoch h /\
       hc_used h' = hc_used h ++ [(hc_epoch h, nonce)]).
Proof. exact C06_lemma. Qed.
Print Assumptions C06_nonces_follow_rfc8446.

Theorem C07_key_schedule_follows_rfc8446 : forall P lib s q S ops rs h,
  prims_ok P -> q < two64 -> hops_ok ops -> hreach P lib s q S ops rs h ->
  no_failed_update rs ->
  let Sk := nth_secret P s S (updates rs) in
  let k := N.of_nat (updates rs) in
  let nonce := record_nonce (traffic_iv P s Sk) (key_start q k + lenN (nonces h k)) in
  hc_epoch h = k /\
  (forall aad pt out fs h' n out', hop_ok (HEncrypt aad pt out) ->
     hstep P lib h (HEncrypt aad pt out) fs = Done (h', HCrypt kOk n out') ->
     n = sum_lens pt + 16 /\
     out' = IoBuf (seal P (spec_alg s) (traffic_key P s Sk) nonce (iov_concat aad)
                     (iov_concat pt) ++ dropN n out)) /\
  (forall aad ct out fs h' n out', hop_ok (HDecrypt aad ct out) ->
     hstep P lib h (HDecrypt aad ct out) fs = Done (h', HCrypt kOk n out') ->
     exists msg, lenN msg = n /\ out' = IoBuf (msg ++ dropN n out) /\
       iov_concat ct = seal P (spec_alg s) (traffic_key P s Sk) nonce (iov_concat aad) msg) /\
  (forall fs h', hstep P lib h HUpdateKey fs = Done (h', HUpdated kOk) ->
     hc_epoch h' = k + 1 /\ nonces h' (k + 1) = []).
Proof. exact C07_lemma. Qed.
Print Assumptions C07_key_schedule_follows_rfc8446.

Theorem C08_failed_update_is_final : forall P lib s q S ops rs h st op fs,
  prims_ok P -> q < two64 -> hops_ok ops -> hreach P lib s q S ops rs h ->
  In (HUpdated st) rs -> st <> kOk -> is_record_op op ->
  hstep P lib h op fs = Done (h, HCrypt kInternal 0 (IoBuf (op_out op))).
Proof. exact C08_lemma. Qed.
Print Assumptions C08_failed_update_is_final.

(* For every library and ciphersuite: Encrypt, a forged Decrypt (which fails),
   a key update, Encrypt, starting at sequence number 7. *)
Example C04_C07_case : forall lib s, hops_ok good_ops /\ exists h rs,
  hreach toy lib s 7 (secret_for s) good_ops rs h /\
  map hstatus rs = [kOk; kInternal; kOk; kOk] /\ no_failed_update rs /\ updates rs = 1%nat /\
  lenN (hc_used h) = 3 /\ hc_epoch h = 1.
Proof. intros lib s. exact (conj good_ops_ok (good_case lib s)). Qed.

(* Starting at the last sequence number: exhausted after one record. *)
Example C05_case : forall lib s, hops_ok last_ops /\ exists h rs,
  hreach toy lib s (two64 - 1) (secret_for s) last_ops rs h /\
  map hstatus rs = [kOk; kInternal] /\
  key_start (two64 - 1) (hc_epoch h) + lenN (nonces h (hc_epoch h)) = two64.
Proof. exact last_case. Qed.

(* The first history followed by a key update that fails and one that would succeed. *)
Example C08_case : forall lib s, hops_ok bad_ops /\ exists h rs,
  hreach toy lib s 7 (secret_for s) bad_ops rs h /\ In (HUpdated kInternal) rs.
Proof. intros lib s. exact (conj bad_ops_ok (bad_case lib s)). Qed.
