(* The statuses of the AEAD crypters: C87. *)
From Coq Require Import List NArith Bool.
From Verif Require Import Base Aead SpecAead AeadRun SpecCodes AeadCodes Toy ToyProofs AeadExamples.
Import ListNotations.
Local Open Scope N_scope.

(* Any crypter after any calls, any output (null too), any library failures
   [fs]. [encrypt_args]: nonce of 12 bytes, no null pointers with a length, room
   for the output. Fragments of 2^31 bytes and more only in the first two. *)
Theorem C87_encrypt_status : forall P lib k key c nonce aad pt out fs c' r, areach P lib k key c -> sum_lens pt + 16 < two64 ->
  astep P c (AEncrypt nonce aad pt out) fs = Done (c', r) ->
  (ar_st r = kOk \/ ar_st r = kInvalidArgument \/ ar_st r = kInternal) /\
  (ar_st r = kInvalidArgument -> ~ encrypt_args nonce aad pt (iov_len out)) /\
  (Forall small_iov aad -> Forall small_iov pt ->
     (ar_st r = kInternal -> fs <> []) /\ (ar_st r = kOk -> encrypt_args nonce aad pt (iov_len out))).
Proof. exact C87enc. Qed.
Print Assumptions C87_encrypt_status.

Theorem C87_decrypt_status : forall P lib k key c nonce aad ct buf fs c' r, prims_ok P -> areach P lib k key c -> sum_lens ct < two64 ->
  astep P c (ADecrypt nonce aad ct (IoBuf buf)) fs = Done (c', r) ->
  (ar_st r = kOk \/ ar_st r = kInvalidArgument \/ ar_st r = kInternal) /\
  (ar_st r = kInvalidArgument -> ~ decrypt_args nonce aad ct (lenN buf)) /\
  (ar_st r = kOk -> decrypt_args nonce aad ct (lenN buf)) /\
  (Forall small_iov aad -> Forall small_iov ct -> ar_st r = kInternal ->
     fs <> [] \/ (decrypt_args nonce aad ct (lenN buf) /\
                  forall m, iov_concat ct <> seal P (kind_alg k key) key nonce (iov_concat aad) m)).
Proof. exact C87dec. Qed.
Print Assumptions C87_decrypt_status.

(* Without library failures the status is determined by the arguments. *)
Theorem C87_encrypt_exact : forall P lib k key c nonce aad pt out c' r, areach P lib k key c -> sum_lens pt + 16 < two64 ->
  Forall small_iov aad -> Forall small_iov pt ->
  astep P c (AEncrypt nonce aad pt out) [] = Done (c', r) ->
  (ar_st r = kOk /\ encrypt_args nonce aad pt (iov_len out)) \/
  (ar_st r = kInvalidArgument /\ ~ encrypt_args nonce aad pt (iov_len out)).
Proof. exact C87enc_exact. Qed.
Print Assumptions C87_encrypt_exact.

Theorem C87_decrypt_exact : forall P lib k key c nonce aad ct buf c' r, prims_ok P -> areach P lib k key c -> sum_lens ct < two64 ->
  Forall small_iov aad -> Forall small_iov ct ->
  astep P c (ADecrypt nonce aad ct (IoBuf buf)) [] = Done (c', r) ->
  (ar_st r = kOk /\ decrypt_args nonce aad ct (lenN buf) /\
     exists m, iov_concat ct = seal P (kind_alg k key) key nonce (iov_concat aad) m) \/
  (ar_st r = kInvalidArgument /\ ~ decrypt_args nonce aad ct (lenN buf)) \/
  (ar_st r = kInternal /\ decrypt_args nonce aad ct (lenN buf) /\
     forall m, iov_concat ct <> seal P (kind_alg k key) key nonce (iov_concat aad) m).
Proof. exact C87dec_exact. Qed.
Print Assumptions C87_decrypt_exact.

(* Each status occurs, for every factory and library: success, an output one
   byte short, a library failure; an authentic and a forged ciphertext, and one
   below 16 bytes. *)
Definition statuses (c : crypter) (ops : list (aop * faults)) : option (list code) :=
  match arun toy c ops with Done (_, rs) => Some (map ar_st rs) | _ => None end.
Definition fresh (lib : ssl_lib) (k : akind) : option crypter :=
  match acreate lib k key32 [] with Done (inr c, _) => Some c | _ => None end.
Example C87_case : forall lib k, exists c, fresh lib k = Some c /\ areach toy lib k key32 c /\ prims_ok toy /\
  statuses c [(AEncrypt nonce12 aad_frags pt_frags (IoBuf (zeros 21)), []);
              (AEncrypt nonce12 aad_frags pt_frags (IoBuf (zeros 20)), []);
              (AEncrypt nonce12 aad_frags pt_frags (IoBuf (zeros 21)), [true]);
              (ADecrypt nonce12 aad_frags [IoBuf (sealed_ex k)] (IoBuf (zeros 5)), []);
              (ADecrypt nonce12 aad_frags [IoBuf (zeros 21)] (IoBuf (zeros 5)), []);
              (ADecrypt nonce12 aad_frags [IoBuf (zeros 15)] (IoBuf (zeros 5)), [])]
  = Some [kOk; kInvalidArgument; kInternal; kOk; kInternal; kInvalidArgument].
Proof.
  intros lib k. destruct (fresh lib k) as [c|] eqn:E; [|destruct lib, k; discriminate E]. exists c. split; [reflexivity|].
  unfold fresh in E. destruct (acreate lib k key32 []) as [[[e|c0] fs]|u|] eqn:A; try discriminate E. injection E as <-.
  split; [exists c0, [], fs, [], []; split; [exact A|reflexivity]|]. split; [exact toy_ok|].
  destruct lib, k; cbn in A; injection A as <- <-; vm_compute; reflexivity.
Qed.

(* The bound of 2^31 bytes is needed: the streaming crypters refuse a fragment
   of 2^31 bytes with kInternal though the library works and the arguments are
   in order. *)
Theorem C87_large_fragment : forall P lib k key c nonce d buf,
  areach P lib k key c -> ~ (k = KChachaPoly /\ lib = BoringSSL) -> lenN nonce = 12 -> lenN d = 2147483648 -> lenN buf = lenN d + 16 ->
  exists c', astep P c (AEncrypt nonce [] [IoBuf d] (IoBuf buf)) [] =
    Done (c', {| ar_st := kInternal; ar_n := 0; ar_out := IoBuf buf |}).
Proof. exact C87big. Qed.
Print Assumptions C87_large_fragment.
Example C87_large_fragment_case : exists c (d buf : bytes), areach toy OpenSSL KAesGcm key32 c /\
  ~ (KAesGcm = KChachaPoly /\ OpenSSL = BoringSSL) /\ lenN nonce12 = 12 /\ lenN d = 2147483648 /\ lenN buf = lenN d + 16.
Proof.
  destruct (used_exists OpenSSL KAesGcm) as (c & rs & _ & R & _). destruct (big_exists 2147483648) as (d & Ld & _).
  destruct (big_exists (lenN d + 16)) as (b & Lb & _). exists c, d, b. split; [exact R|]. split; [intros [K _]; discriminate K|]. auto.
Qed.
