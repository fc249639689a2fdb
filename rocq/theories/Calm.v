(* A call during which no library call fails leaves no failures behind: the
   fault oracle is read, never extended. *)
From Coq Require Import List NArith Bool.
From Verif Require Import Base Aead Hkdf HalfConn HsHandler Options Crypter.
Import ListNotations.
Local Open Scope N_scope.

Definition calm {A} (m : M A) : Prop := forall a fs', m [] = Done (a, fs') -> fs' = [].

Lemma calm_bind : forall A B (m : M A) (k : A -> M B), calm m -> (forall a, calm (k a)) -> calm (bind m k).
Proof.
  intros A B m k Hm Hk b fs'. unfold bind. destruct (m []) as [[a f1]|u|] eqn:E; try discriminate.
  rewrite (Hm _ _ E). apply Hk.
Qed.
Lemma calm_ret : forall A (a : A), calm (ret a).
Proof. intros A a b fs' H. inversion H. reflexivity. Qed.
Lemma calm_lift : forall A (o : outcome A), calm (lift o).
Proof. intros A [a|u|] b fs' H; inversion H. reflexivity. Qed.
Lemma calm_ssl : calm ssl.
Proof. intros b fs' H. inversion H. reflexivity. Qed.

Create HintDb calm.
#[export] Hint Resolve calm_ret calm_lift calm_ssl : calm.
Ltac calm_step :=
  match goal with
  | |- forall _, _ => intro
  | |- calm (bind _ _) => apply calm_bind
  | |- calm (match ?x with _ => _ end) => destruct x
  | |- calm _ => solve [eauto with calm]
  end.
Ltac calm_tac := repeat (cbv beta zeta; calm_step).

Lemma calm_init : forall e n, calm (init_context_using_nonce e n).
Proof. unfold init_context_using_nonce. calm_tac. Qed.
#[export] Hint Resolve calm_init : calm.
Lemma calm_set_aad : forall aad e, calm (set_aad e aad).
Proof. induction aad; intros e; cbn [set_aad]; calm_tac. Qed.
#[export] Hint Resolve calm_set_aad : calm.
Lemma calm_encrypt_loop : forall P a pt e out off rem, calm (encrypt_loop P a e pt out off rem).
Proof. intros P a. induction pt; intros; cbn [encrypt_loop]; calm_tac. Qed.
#[export] Hint Resolve calm_encrypt_loop : calm.
Lemma calm_zero_exit : forall st e out, calm (zero_exit st e out).
Proof. unfold zero_exit. calm_tac. Qed.
#[export] Hint Resolve calm_zero_exit : calm.
Lemma calm_decrypt_loop : forall P a ct e out total off rem cur, calm (decrypt_loop P a e ct out total off rem cur).
Proof. intros P a. induction ct; intros; cbn [decrypt_loop]; calm_tac. Qed.
#[export] Hint Resolve calm_decrypt_loop : calm.
Lemma calm_check_tag : forall P a e t out, calm (check_tag P a e t out).
Proof. unfold check_tag. calm_tac. Qed.
#[export] Hint Resolve calm_check_tag : calm.
Lemma calm_encrypt : forall P c n aad pt out, calm (aead_encrypt P c n aad pt out).
Proof. intros. unfold aead_encrypt. destruct (cr_impl c); unfold evp_encrypt, bssl_encrypt; calm_tac. Qed.
Lemma calm_decrypt : forall P c n aad pt out, calm (aead_decrypt P c n aad pt out).
Proof. intros. unfold aead_decrypt. destruct (cr_impl c); unfold evp_decrypt, bssl_decrypt; calm_tac. Qed.
#[export] Hint Resolve calm_encrypt calm_decrypt : calm.
Lemma calm_create : forall lib s key, calm (create_crypter lib s key).
Proof. intros. unfold create_crypter, create_aes_gcm, create_chacha_poly. calm_tac. Qed.
#[export] Hint Resolve calm_create : calm.
Lemma calm_restart : forall c i b, calm (hkdf_restart c i b).
Proof. unfold hkdf_restart. calm_tac. Qed.
Lemma calm_block : forall P h c info i, calm (hkdf_block P h c info i).
Proof. unfold hkdf_block. calm_tac. Qed.
#[export] Hint Resolve calm_restart calm_block : calm.
Lemma calm_hkdf_loop : forall P h info k c i b d out, calm (hkdf_loop P h c info i k b d out).
Proof. intros P h info. induction k; intros; cbn [hkdf_loop]; calm_tac. Qed.
#[export] Hint Resolve calm_hkdf_loop : calm.
Lemma calm_derive : forall P h prk info out, calm (hkdf_derive_secret P h prk info out).
Proof. unfold hkdf_derive_secret, hkdf_derivation. calm_tac. Qed.
#[export] Hint Resolve calm_derive : calm.
Lemma calm_update : forall P lib h, calm (half_update_key P lib h).
Proof. unfold half_update_key, advance_secret, derive_key, derive_nonce, derive_secret. calm_tac. Qed.
#[export] Hint Resolve calm_update : calm.
Lemma calm_half_create : forall P lib s q k, calm (half_create P lib s q k).
Proof. unfold half_create, derive_key, derive_nonce, derive_secret. calm_tac. Qed.
Lemma calm_half_encrypt : forall P h aad pt out, calm (half_encrypt P h aad pt out).
Proof. unfold half_encrypt. calm_tac. Qed.
Lemma calm_half_decrypt : forall P h aad pt out, calm (half_decrypt P h aad pt out).
Proof. unfold half_decrypt. calm_tac. Qed.
#[export] Hint Resolve calm_half_create calm_half_encrypt calm_half_decrypt : calm.
Lemma calm_handle : forall P lib x r, calm (handle_result P lib x r).
Proof. unfold handle_result. calm_tac. Qed.
#[export] Hint Resolve calm_handle : calm.
Lemma calm_protect : forall P x t pt r, calm (crypt_protect P x t pt r).
Proof. unfold crypt_protect. calm_tac. Qed.
Lemma calm_unprotect : forall P lib x h p o, calm (crypt_unprotect P lib x h p o).
Proof. unfold crypt_unprotect. calm_tac. Qed.
#[export] Hint Resolve calm_protect calm_unprotect : calm.
Lemma calm_crypt_create : forall P lib a, calm (crypt_create P lib a).
Proof. unfold crypt_create. calm_tac. Qed.
#[export] Hint Resolve calm_crypt_create : calm.
