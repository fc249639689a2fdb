(* Concrete crypters and inputs for the examples in PropAead.v. *)
From Coq Require Import List NArith Bool Lia.
From Verif Require Import Base Aead SpecAead AeadRun AeadRunProofs AeadAnyProofs AeadTotalProofs AeadRefuted Hkdf HalfConn Options HsHandler Crypter SpecTls Toy ToyProofs.
Import ListNotations.
Local Open Scope N_scope.

Definition key32 : bytes := repeat 5 32.
Definition nonce12 : bytes := [1; 2; 3; 4; 5; 6; 7; 8; 9; 10; 11; 12].

(* A message in three fragments, an empty null one among them. *)
Definition pt_frags : list iovec := [IoBuf [104; 101]; IoNull 0; IoBuf [108; 108; 111]].
Definition aad_frags : list iovec := [IoBuf [1]; IoBuf []; IoBuf [2; 3]].
Definition sealed_ex (k : akind) : bytes :=
  seal toy (kind_alg k key32) key32 nonce12 [1; 2; 3] [104; 101; 108; 108; 111].

(* A crypter that has already encrypted, failed (null AAD) and decrypted. *)
Definition used (lib : ssl_lib) (k : akind) : outcome (crypter * list ares) :=
  match acreate lib k key32 [] with
  | Done (inr c, _) => arun toy c
      [(AEncrypt nonce12 aad_frags pt_frags (IoBuf (zeros 21)), []);
       (AEncrypt nonce12 [IoNull 3] pt_frags (IoBuf (zeros 21)), [false; true]);
       (ADecrypt nonce12 aad_frags [IoBuf (sealed_ex k)] (IoBuf (zeros 5)), [])]
  | _ => NoFuel
  end.

Lemma used_reach : forall lib k c rs, used lib k = Done (c, rs) -> areach toy lib k key32 c.
Proof.
  intros lib k c rs H. unfold used in H.
  destruct (acreate lib k key32 []) as [[[e|c0] fs]|u|] eqn:E; try discriminate.
  do 5 eexists. split; [exact E|exact H].
Qed.

Lemma used_exists : forall lib k, exists c rs, used lib k = Done (c, rs) /\ areach toy lib k key32 c /\
  map ar_st rs = [kOk; kInvalidArgument; kOk] /\ map ar_n rs = [21; 0; 5].
Proof.
  intros lib k.
  assert (K : match used lib k with
    | Done (c, [r1; r2; r3]) => is_ok (ar_st r1) && code_eqb (ar_st r2) kInvalidArgument && is_ok (ar_st r3) &&
        (ar_n r1 =? 21) && (ar_n r2 =? 0) && (ar_n r3 =? 5)
    | _ => false end = true) by (destruct lib, k; vm_compute; reflexivity).
  destruct (used lib k) as [[c [|r1 [|r2 [|r3 [|]]]]]|u|] eqn:E; try discriminate.
  exists c, [r1; r2; r3]. split; [reflexivity|]. split; [exact (used_reach _ _ _ _ E)|].
  repeat (apply andb_true_iff in K as [K ?]).
  cbn [map]. apply AeadProofs.is_ok_true in K.
  repeat match goal with H : (_ =? _) = true |- _ => apply N.eqb_eq in H; rewrite H end.
  match goal with H : is_ok _ = true |- _ => apply AeadProofs.is_ok_true in H; rewrite H end.
  rewrite K. destruct (ar_st r2); try discriminate. split; reflexivity.
Qed.

Lemma aad_carries : carries aad_frags [1; 2; 3].
Proof. repeat split; repeat constructor. Qed.
Lemma pt_carries : carries pt_frags [104; 101; 108; 108; 111].
Proof. repeat split; repeat constructor. Qed.
Lemma ct_carries : forall k, carries [IoBuf (takeN 2 (sealed_ex k)); IoNull 0; IoBuf (dropN 2 (sealed_ex k))] (sealed_ex k).
Proof.
  intros k. assert (L : lenN (sealed_ex k) = 21) by (destruct k; vm_compute; reflexivity).
  split; [|split].
  - repeat constructor.
  - constructor; [|constructor; [|constructor; [|constructor]]]; unfold small_iov; cbn [iov_len].
    + rewrite BaseProofs.lenN_takeN; lia.
    + lia.
    + rewrite BaseProofs.lenN_dropN; lia.
  - unfold iov_concat. cbn [flat_map iov_data]. rewrite app_nil_r. cbn [app]. apply firstn_skipn.
Qed.

Lemma big_exists : forall n, exists d : bytes, lenN d = n /\ bytes_ok d.
Proof.
  intros n. exists (zeros n). split; [apply BaseProofs.lenN_zeros|].
  unfold bytes_ok, zeros. apply Forall_forall. intros x H. apply repeat_spec in H. subst x. reflexivity.
Qed.

Lemma C56_case_lemma : exists c (d buf : bytes), areach toy OpenSSL KAesGcm key32 c /\
  lenN d = 4294967296 /\ lenN buf = lenN d + 16 /\ bytes_ok d.
Proof.
  destruct (used_exists OpenSSL KAesGcm) as (c & rs & _ & R & _).
  destruct (big_exists 4294967296) as (d & Ld & Bd).
  destruct (big_exists (lenN d + 16)) as (b & Lb & _). exists c, d, b. auto.
Qed.

Lemma C56_refuted_exists : exists P lib k key c nonce pt buf c' n out,
  prims_ok P /\ areach P lib k key c /\ Forall iov_valid pt /\ sum_lens pt + 16 <= lenN buf /\
  sum_lens pt + 16 < two64 /\
  astep P c (AEncrypt nonce [] pt (IoBuf buf)) [] =
    Done (c', {| ar_st := kOk; ar_n := n; ar_out := out |}) /\
  n <> sum_lens pt + 16.
Proof.
  destruct C56_case_lemma as (c & d & buf & R & Ld & Lb & _).
  destruct (C56_refuted_lemma toy OpenSSL KAesGcm key32 c nonce12 d buf toy_ok R) as (c' & out & E);
    [intros [H _]; discriminate|reflexivity|exact Ld|exact Lb|].
  exists toy, OpenSSL, KAesGcm, key32, c, nonce12, [IoBuf d], buf, c', 16, out.
  split; [exact toy_ok|]. split; [exact R|]. split; [repeat constructor|].
  cbn [sum_lens iov_len]. unfold two64. split; [lia|]. split; [lia|]. split; [exact E|]. lia.
Qed.

(* The witness for C12: the first byte of an authentic message, decrypted into
   the buffer of a call that fails. *)
Lemma C12_refuted_exists : exists P lib k key c nonce ct m buf c' r,
  prims_ok P /\ areach P lib k key c /\ lenN nonce = 12 /\
  carries ct (seal P (kind_alg k key) key nonce [] m) /\
  astep P c (ADecrypt nonce [] ct (IoBuf buf)) [] = Done (c', r) /\ ar_st r <> kOk /\
  buf = [0] /\ ar_out r = IoBuf (takeN 1 m) /\ takeN 1 m <> [0].
Proof.
  destruct (used_exists OpenSSL KAesGcm) as (c & rs & _ & R & _).
  set (s := seal toy Aes256Gcm key32 nonce12 [] [104; 101; 108]).
  assert (Es : exists x rest, s = x :: rest /\ lenN rest = 18 /\ stream toy Aes256Gcm key32 nonce12 [x] = [104]).
  { do 2 eexists. split; [vm_compute; reflexivity|]. split; vm_compute; reflexivity. }
  destruct Es as (x & rest & Es & Lr & Ex).
  destruct (C12_refuted_lemma toy OpenSSL KAesGcm key32 c nonce12 x rest 0 R) as (c' & E);
    [intros [H _]; discriminate|reflexivity|lia|lia|].
  exists toy, OpenSSL, KAesGcm, key32, c, nonce12, [IoBuf [x]; IoBuf rest], [104; 101; 108], [0], c'.
  eexists. split; [exact toy_ok|]. split; [exact R|]. split; [reflexivity|].
  split.
  { split; [repeat constructor|]. split.
    - constructor; [reflexivity|]. constructor; [|constructor]. unfold small_iov. cbn [iov_len]. lia.
    - change (kind_alg KAesGcm key32) with Aes256Gcm. fold s. rewrite Es.
      unfold iov_concat. cbn [flat_map iov_data]. rewrite app_nil_r. reflexivity. }
  split; [exact E|]. split; [discriminate|]. split; [reflexivity|].
  cbn [ar_out]. change (kind_alg KAesGcm key32) with Aes256Gcm. rewrite Ex. split; [reflexivity|discriminate].
Qed.

Lemma C58_refuted_exists : exists P lib k key c nonce ct buf,
  prims_ok P /\ areach P lib k key c /\ lenN nonce = 12 /\ sum_lens ct = 16 /\
  astep P c (ADecrypt nonce [] ct (IoBuf buf)) [] = Undef UbNullDeref.
Proof.
  destruct (used_exists OpenSSL KAesGcm) as (c & rs & _ & R & _).
  exists toy, OpenSSL, KAesGcm, key32, c, nonce12, [IoNull 16], [9; 9].
  split; [exact toy_ok|]. split; [exact R|]. split; [reflexivity|]. split; [reflexivity|].
  apply (C58_refuted_lemma toy OpenSSL KAesGcm key32 c nonce12 [9; 9] R); [|reflexivity].
  intros [H _]; discriminate.
Qed.

Lemma C58_case_lemma : forall lib k, exists c, areach toy lib k key32 c /\
  null_in [IoBuf [1]; IoNull 3; IoBuf (repeat 7 16)] /\
  ~ null_in_tag [IoBuf [1]; IoNull 3; IoBuf (repeat 7 16)] /\
  null_in [IoNull 3; IoBuf [1]].
Proof.
  intros lib k. destruct (used_exists lib k) as (c & rs & _ & R & _). exists c. split; [exact R|].
  split; [exists 3; split; [right; left; reflexivity|lia]|].
  split; [|exists 3; split; [left; reflexivity|lia]].
  intros (pre & n & post & E & Hn & L).
  destruct pre as [|p1 [|p2 [|p3 [|p4 pre]]]]; cbn [app] in E; try discriminate.
  - assert (n = 3 /\ post = [IoBuf (repeat 7 16)]) as [-> ->] by (inversion E; auto).
    vm_compute in L. apply L. reflexivity.
Qed.
