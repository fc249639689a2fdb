(* Proofs for C92. *)
From Coq Require Import List NArith Bool Lia.
From Verif Require Import Base BaseProofs Aead Hkdf HalfConn SpecAead SpecTls HalfProofs Options HsHandler Crypter SpecRecord CrypterProofs
  SpecRx CrypterRun CrypterRunProofs FrameProt SpecFrame FrameRun ConcTag CreateCodes NoChacha.
Import ListNotations.
Local Open Scope N_scope.

Lemma half_others : forall P lib s q S fs, s <> CHACHA20_POLY1305_SHA256 -> nc_half_create P s q S fs = half_create P lib s q S fs.
Proof. intros P lib s q S fs H. destruct s; try reflexivity. contradiction H. reflexivity. Qed.
Lemma N92update : forall P lib h fs, hc_suite h <> CHACHA20_POLY1305_SHA256 -> nc_half_update_key P h fs = half_update_key P lib h fs.
Proof.
  intros P lib h fs H. unfold nc_half_update_key, half_update_key, create_crypter, nc_create_crypter.
  destruct (hc_suite h); try reflexivity. contradiction H. reflexivity.
Qed.
Lemma crypt_others : forall P lib a fs, ca_suite a <> CHACHA20_POLY1305_SHA256 -> nc_crypt_create P a fs = crypt_create P lib a fs.
Proof.
  intros P lib a fs H. unfold nc_crypt_create, crypt_create.
  destruct (_ =? 0); [reflexivity|]. destruct (negb (ca_logger a)); [reflexivity|]. destruct (negb (ca_sender a)); [reflexivity|].
  destruct (ca_tls a); [reflexivity|]. unfold bind. rewrite (half_others P lib) by exact H.
  destruct (half_create _ _ _ _ _ _) as [[[c|h] f]|u|]; try reflexivity. rewrite (half_others P lib) by exact H. reflexivity.
Qed.
Lemma N92others : forall P lib a fs, ca_suite (fa_crypt a) <> CHACHA20_POLY1305_SHA256 -> nc_fp_create P a fs = fp_create P lib a fs.
Proof.
  intros P lib a fs H. unfold nc_fp_create, fp_create. destruct (_ || _); [reflexivity|]. cbv zeta. unfold bind.
  rewrite (crypt_others P lib) by exact H. reflexivity.
Qed.

(* Codes of a half connection with that suite. *)
Definition half_refusal (S : bytes) (fs : faults) (c : code) : Prop :=
  (lenN S <> 32 /\ c = kInvalidArgument) \/ (lenN S = 32 /\ ((c = kInternal /\ fs <> []) \/ c = kFailedPrecondition)).
Lemma half_refused : forall P q S fs, prims_ok P -> exists c fs', nc_half_create P CHACHA20_POLY1305_SHA256 q S fs = Done (inl c, fs') /\ half_refusal S fs c.
Proof.
  intros P q S fs HP. unfold nc_half_create, suite_secret_size, half_refusal.
  destruct (N.eqb_spec (lenN S) 32) as [L|L]; cbn [negb]; [|do 2 eexists; split; [reflexivity|auto]].
  destruct (derive_key_spec P CHACHA20_POLY1305_SHA256 S (zeros (suite_key_size CHACHA20_POLY1305_SHA256)) fs HP L) as (s1 & k & f1 & E1 & L1 & _ & K1); [reflexivity|].
  pose proof (derive_code _ CHACHA20_POLY1305_SHA256 _ _ _ L _ _ _ E1) as W1. cbn [fst] in W1. rewrite (bind_done _ _ _ _ _ _ _ E1).
  destruct W1 as [-> | ->]; [change (is_ok kOk) with true|change (is_ok kInternal) with false]; cbn [negb].
  2:{ do 2 eexists. split; [reflexivity|]. right. split; [exact L|]. left. split; [reflexivity|]. intros F. destruct (K1 F) as [K _]. discriminate K. }
  destruct (derive_nonce_spec P CHACHA20_POLY1305_SHA256 S (zeros (suite_nonce_size CHACHA20_POLY1305_SHA256)) f1 HP L) as (s2 & n & f2 & E2 & L2 & _ & K2); [reflexivity|].
  pose proof (derive_code _ CHACHA20_POLY1305_SHA256 _ _ _ L _ _ _ E2) as W2. cbn [fst] in W2. rewrite (bind_done _ _ _ _ _ _ _ E2).
  destruct W2 as [-> | ->]; [change (is_ok kOk) with true|change (is_ok kInternal) with false]; cbn [negb].
  2:{ do 2 eexists. split; [reflexivity|]. right. split; [exact L|]. left. split; [reflexivity|]. intros F. destruct (K1 F) as [_ F1]. destruct (K2 F1) as [K _]. discriminate K. }
  unfold nc_create_crypter, nc_create_chacha_poly. change kChachaPolyKeySize with (spec_key_len CHACHA20_POLY1305_SHA256). rewrite L1, N.eqb_refl. cbn [negb].
  do 2 eexists. split; [reflexivity|]. auto.
Qed.

Lemma N92refused : forall P a fs, prims_ok P -> ca_suite (fa_crypt a) = CHACHA20_POLY1305_SHA256 ->
  exists c fs', nc_fp_create P a fs = Done (inl c, fs') /\
    ((c = kInvalidArgument /\ ~ (fa_allocator a = true /\ fa_destroy a = true /\ fa_logger a = true /\
        ca_url (fa_crypt a) <> [] /\ ca_tls (fa_crypt a) = TLS1_3 /\ lenN (ca_in_secret (fa_crypt a)) = 32)) \/
     (c = kInternal /\ fs <> []) \/
     (c = kFailedPrecondition /\ fa_allocator a = true /\ fa_destroy a = true /\ fa_logger a = true /\
        ca_url (fa_crypt a) <> [] /\ ca_tls (fa_crypt a) = TLS1_3 /\ lenN (ca_in_secret (fa_crypt a)) = 32)).
Proof.
  intros P a fs HP Hs. unfold nc_fp_create.
  destruct (fa_allocator a) eqn:Ea; cbn [negb orb]; [|do 2 eexists; split; [reflexivity|left; split; [reflexivity|]; intros (A & _); discriminate A]].
  destruct (fa_destroy a) eqn:Ed; cbn [negb orb]; [|do 2 eexists; split; [reflexivity|left; split; [reflexivity|]; intros (_ & A & _); discriminate A]].
  destruct (fa_logger a) eqn:El; cbn [negb orb]; [|do 2 eexists; split; [reflexivity|left; split; [reflexivity|]; intros (_ & _ & A & _); discriminate A]].
  cbv zeta. unfold nc_crypt_create. cbn [ca_url ca_logger ca_sender ca_tls ca_suite ca_in_seq ca_in_secret].
  destruct (N.eqb_spec (lenN (ca_url (fa_crypt a))) 0) as [Z|Z]; cbn [negb].
  { do 2 eexists. split; [reflexivity|]. left. split; [reflexivity|]. intros (_ & _ & _ & A & _). apply lenN_0 in Z. contradiction. }
  assert (Zu : ca_url (fa_crypt a) <> []) by (intros K; rewrite K in Z; apply Z; reflexivity).
  destruct (ca_tls (fa_crypt a)) eqn:Et.
  { do 2 eexists. split; [reflexivity|]. left. split; [reflexivity|]. intros (_ & _ & _ & _ & A & _). discriminate A. }
  rewrite Hs. destruct (half_refused P (ca_in_seq (fa_crypt a)) (ca_in_secret (fa_crypt a)) fs HP) as (c & f & E & R).
  exists c, f. unfold bind. rewrite E. split; [reflexivity|]. destruct R as [[L ->]|[L [[-> F] | ->]]]; [left|auto|right; right; auto 10].
  split; [reflexivity|]. intros (_ & _ & _ & _ & _ & A). contradiction.
Qed.
