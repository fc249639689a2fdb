(* Counterexamples for C12 and C56, for every choice of primitives. *)
From Coq Require Import List NArith ZArith Bool Lia ZifyBool ZifyNat ZifyN.
From Verif Require Import Base BaseProofs Aead SpecAead AeadProofs AeadRun AeadRunProofs.
Import ListNotations.
Local Open Scope N_scope.

Lemma areach_fresh : forall P lib k key c fs', acreate lib k key [] = Done (inr c, fs') -> areach P lib k key c.
Proof. intros P lib k key c fs' H. exists c, [], fs', [], []. auto. Qed.

Lemma evp_impl : forall P lib k key c, areach P lib k key c -> ~ (k = KChachaPoly /\ lib = BoringSSL) ->
  cr_impl c <> ChachaBoringSSLImpl.
Proof. intros P lib k key c H N E. apply N. apply (areach_config _ _ _ _ _ H). exact E. Qed.

(* C12: a forged ciphertext cut after its first byte, and room for one byte. *)
Lemma C12_refuted_lemma : forall P lib k key c nonce x rest old,
  areach P lib k key c -> ~ (k = KChachaPoly /\ lib = BoringSSL) ->
  lenN nonce = 12 -> 17 <= lenN rest -> lenN rest < 2147483648 ->
  exists c', astep P c (ADecrypt nonce [] [IoBuf [x]; IoBuf rest] (IoBuf [old])) [] =
    Done (c', {| ar_st := kInvalidArgument; ar_n := 0;
                 ar_out := IoBuf (stream P (kind_alg k key) key nonce [x]) |}).
Proof.
  intros P lib k key c nonce x rest old Hr Hk Hn Hl Hs.
  pose proof (evp_impl _ _ _ _ _ Hr Hk) as Hi.
  destruct (areach_config _ _ _ _ _ Hr) as (_ & Ea & Ek & _).
  unfold astep, aead_decrypt.
  assert (E : match cr_impl c with ChachaBoringSSLImpl => bssl_decrypt P c | _ => evp_decrypt P c end = evp_decrypt P c)
    by (destruct (cr_impl c); congruence).
  rewrite E. clear E. unfold evp_decrypt. cbn zeta.
  assert (Ht : total_len [IoBuf [x]; IoBuf rest] = 1 + lenN rest).
  { unfold total_len. cbn [fold_left iov_len]. unfold wrap64, two64.
    change (lenN [x]) with 1. rewrite (N.mod_small (0 + 1)) by lia. rewrite N.mod_small by lia. lia. }
  rewrite Ht. unfold kAeadTagSize.
  destruct (N.ltb_spec (1 + lenN rest) 16); [lia|].
  unfold init_context_using_nonce, kAeadNonceSize. rewrite Hn. cbn [N.eqb Pos.eqb negb].
  unfold bind at 1 2. cbn [ssl negb ret is_ok code_eqb].
  unfold bind at 1. cbn [set_aad ret is_ok code_eqb negb].
  unfold bind at 1. cbn [decrypt_loop iov_len]. unfold kAeadTagSize.
  change (lenN [x]) with 1. change (lenN [old]) with 1.
  destruct (N.leb_spec (1 + lenN rest) 16); [lia|]. cbn [N.eqb].
  replace (N.min 1 (1 + lenN rest - 16)) with 1 by lia. cbn [N.ltb N.compare Pos.compare Pos.compare_cont].
  unfold bind at 1. cbn [ssl negb]. rewrite int_narrow_small by lia.
  change (takeN 1 [x]) with [x]. unfold bind at 1, lift.
  set (e := evp_init_nonce (cr_ctx c) nonce).
  assert (Lx : exists y, evp_xor P (cr_alg c) e [x] = [y] /\ [y] = stream P (kind_alg k key) key nonce [x]).
  { eexists. split; [reflexivity|]. unfold stream. rewrite <- Ea, <- Ek. reflexivity. }
  destruct Lx as (y & Ey & Es). rewrite Ey. cbn [write_at].
  change (0 + lenN [y] <=? lenN [old]) with true. cbv iota.
  change (takeN 0 [old] ++ [y] ++ dropN (0 + lenN [y]) [old]) with [y].
  replace (1 + lenN rest - 1) with (lenN rest) by lia.
  destruct (N.leb_spec (lenN rest) 16); [lia|].
  destruct (N.eqb_spec (lenN rest) 0); [lia|].
  destruct (N.ltb_spec (1 - 1) (N.min (lenN rest) (lenN rest - 16))); [|lia].
  cbn [ret obind]. rewrite <- Es. eexists. reflexivity.
Qed.

(* C56: one plaintext iovec of 2^32 bytes. *)
Lemma C56_refuted_lemma : forall P lib k key c nonce d buf,
  prims_ok P -> areach P lib k key c -> ~ (k = KChachaPoly /\ lib = BoringSSL) ->
  lenN nonce = 12 -> lenN d = 4294967296 -> lenN buf = lenN d + 16 ->
  exists c' out, astep P c (AEncrypt nonce [] [IoBuf d] (IoBuf buf)) [] =
    Done (c', {| ar_st := kOk; ar_n := 16; ar_out := out |}).
Proof.
  intros P lib k key c nonce d buf HP Hr Hk Hn Hd Hb.
  pose proof (evp_impl _ _ _ _ _ Hr Hk) as Hi.
  unfold astep, aead_encrypt.
  assert (E : match cr_impl c with ChachaBoringSSLImpl => bssl_encrypt P c | _ => evp_encrypt P c end = evp_encrypt P c)
    by (destruct (cr_impl c); congruence).
  rewrite E. clear E. unfold evp_encrypt.
  unfold init_context_using_nonce, kAeadNonceSize. rewrite Hn. cbn [N.eqb Pos.eqb negb].
  unfold bind at 1 2. cbn [ssl negb ret is_ok code_eqb].
  unfold bind at 1. cbn [set_aad ret is_ok code_eqb negb].
  unfold bind at 1. cbn [encrypt_loop iov_len].
  destruct (N.eqb_spec (lenN d) 0); [lia|].
  destruct (N.ltb_spec (lenN buf) (lenN d)); [lia|].
  unfold bind at 1. cbn [ssl negb].
  assert (Ei : int_narrow (lenN d) = Some 0) by (rewrite Hd; reflexivity). rewrite Ei.
  change (takeN 0 d) with (@nil N). rewrite evp_xor_nil. cbn [write_at lift].
  unfold bind at 1. cbn [lift encrypt_loop ret is_ok code_eqb negb].
  unfold bind at 1. cbn [ssl negb]. unfold kAeadTagSize.
  destruct (N.ltb_spec (lenN buf - 0) 16); [lia|].
  unfold bind at 1. cbn [ssl negb].
  set (e := evp_add_ct _ _). pose proof (mac_len P HP (cr_alg c) (ev_key e) (ev_iv e) (ev_aad e) (ev_ct e)) as Hm.
  fold (evp_tag P (cr_alg c) e) in Hm. destruct (evp_tag P (cr_alg c) e) as [|t0 t] eqn:Et; [discriminate|].
  unfold bind at 1, lift. cbn [write_at]. rewrite Hm. unfold kAeadTagSize.
  destruct (N.leb_spec (0 + 0 + 16) (lenN buf)); [|lia].
  cbn [ret obind iov_len].
  rewrite !lenN_app, Hm. unfold kAeadTagSize.
  assert (Hz : lenN (takeN (0 + 0) buf) = 0) by reflexivity. rewrite Hz.
  assert (Hdr : lenN (dropN (0 + 0 + 16) buf) = lenN buf - 16) by (rewrite lenN_dropN; lia). rewrite Hdr.
  replace (0 + (16 + (lenN buf - 16)) - (lenN buf - 0 - 16)) with 16 by lia.
  do 2 eexists. reflexivity.
Qed.
