(* The functions of ErrQueue.v without the error queue are those of Aead.v,
   Hkdf.v and HalfConn.v. *)
From Coq Require Import List NArith Bool.
From Verif Require Import Base Aead Hkdf HalfConn SpecAead SpecTls HalfRun ErrQueue SpecErr.
Import ListNotations.
Local Open Scope N_scope.

(* [m] does what [n] does, whatever is in the queue. *)
Definition same {A} (m : EM A) (n : M A) : Prop :=
  forall e fs, match m e fs with
               | Done ((a, _), fs') => n fs = Done (a, fs')
               | Undef u => n fs = Undef u
               | NoFuel => n fs = NoFuel
               end.

Lemma same_ret : forall A (a : A), same (qret a) (ret a).
Proof. intros A a e fs. reflexivity. Qed.
Lemma same_errors : forall A (a : A), same (with_errors a) (ret a).
Proof. intros A a e fs. reflexivity. Qed.
Lemma same_quiet : forall A (m : M A), same (quiet m) m.
Proof. intros A m e fs. unfold quiet, bind, ret. destruct (m fs) as [[a fs']|u|]; reflexivity. Qed.
Lemma same_bind : forall A B (m : EM A) (n : M A) (k : A -> EM B) (l : A -> M B),
  same m n -> (forall a, same (k a) (l a)) -> same (qbind m k) (bind n l).
Proof.
  intros A B m n k l H K e fs. specialize (H e fs). unfold qbind, bind.
  destruct (m e fs) as [[[a e'] fs']|u|]; rewrite H; [|reflexivity..]. cbn [fst snd]. apply K.
Qed.
Lemma same_quiet_errors : forall A (m : M A), same (qbind (quiet m) (fun r => with_errors r)) m.
Proof.
  intros A m e fs. unfold qbind, quiet, bind, ret, with_errors, get_ssl_errors, qbind, bind, qret, ret.
  destruct (m fs) as [[a fs']|u|]; reflexivity.
Qed.
Lemma same_library : forall B b (k : bool -> EM B) (l : bool -> M B),
  (forall ok, same (k (ok && b)) (l ok)) -> same (qbind (library b) k) (bind ssl l).
Proof.
  intros B b k l H e fs. unfold qbind, library, bind.
  destruct (ssl fs) as [[ok fs']|u|]; [|reflexivity..]. specialize (H ok).
  destruct (ok && b); unfold ret; cbn [fst snd]; apply H.
Qed.

Ltac same_step :=
  match goal with
  | |- same (qret _) (ret _) => apply same_ret
  | |- same (with_errors _) (ret _) => apply same_errors
  | |- same (quiet _) _ => apply same_quiet
  | |- same (qbind (library ?b) _) (bind ssl _) => apply same_library; intros [|]; cbn [andb negb]
  | |- same (qbind (quiet (zero_exit _ _ _)) _) (zero_exit _ _ _) => apply same_quiet_errors
  | |- same (qbind _ _) (bind _ _) => apply same_bind; [|intros]
  | |- same (if ?b then _ else _) (if ?b then _ else _) => destruct b eqn:?
  | |- same (let '(_, _) := ?p in _) _ => destruct p
  | |- same (match ?p with _ => _ end) (match ?p with _ => _ end) => destruct p
  end.
Ltac same_tac := repeat (cbn zeta; same_step).

Lemma init_same : forall e nonce, same (init_context_using_nonce_q e nonce) (init_context_using_nonce e nonce).
Proof. intros. unfold init_context_using_nonce_q, init_context_using_nonce. same_tac. Qed.

Lemma aad_same : forall aad e, same (set_aad_q e aad) (set_aad e aad).
Proof.
  induction aad as [|v r IH]; intros e; cbn [set_aad_q set_aad]; [apply same_ret|].
  destruct (iov_len v =? 0); [apply IH|]. destruct v as [d|n]; [|apply same_ret].
  destruct (int_narrow (lenN d)) as [m|]; same_tac. apply IH.
Qed.

Lemma eloop_same : forall P a pt e out off rem,
  same (encrypt_loop_q P a e pt out off rem) (encrypt_loop P a e pt out off rem).
Proof.
  intros P a. induction pt as [|v r IH]; intros e out off rem; cbn [encrypt_loop_q encrypt_loop]; [apply same_ret|].
  destruct (iov_len v =? 0); [apply IH|]. destruct v as [d|n]; [|apply same_ret].
  destruct (rem <? lenN d); [apply same_errors|].
  destruct (int_narrow (lenN d)) as [m|]; same_tac. apply IH.
Qed.

Lemma evp_encrypt_same : forall P c nonce aad pt out, same (evp_encrypt_q P c nonce aad pt out) (evp_encrypt P c nonce aad pt out).
Proof.
  intros. unfold evp_encrypt_q, evp_encrypt. apply same_bind; [apply init_same|]. intros [st e].
  destruct (negb (is_ok st)); [apply same_ret|]. apply same_bind; [apply aad_same|]. intros [st1 e1].
  destruct (negb (is_ok st1)); [apply same_ret|]. apply same_bind; [apply eloop_same|].
  intros [[[[st2 e2] out2] off] rem]. same_tac.
Qed.

Lemma dloop_same : forall P a ct e out total off rem cur,
  same (decrypt_loop_q P a e ct out total off rem cur) (decrypt_loop P a e ct out total off rem cur).
Proof.
  intros P a. induction ct as [|v r IH]; intros e out total off rem cur; cbn [decrypt_loop_q decrypt_loop]; [apply same_ret|].
  destruct (total <=? kAeadTagSize); [apply same_ret|].
  destruct (iov_len v =? 0); [apply IH|]. destruct v as [d|n]; [|apply same_quiet]. cbn zeta.
  destruct (rem <? N.min (lenN d) (total - kAeadTagSize)); [apply same_ret|].
  destruct (int_narrow (N.min (lenN d) (total - kAeadTagSize))) as [m|]; same_tac. apply IH.
Qed.

Lemma tag_same : forall P a e tag out, same (check_tag_q P a e tag out) (check_tag P a e tag out).
Proof.
  intros. unfold check_tag_q, check_tag. apply same_library. intros [|]; cbn [andb negb]; [|same_tac]. cbn zeta.
  apply same_library. intros [|]; cbn [andb]; same_tac.
Qed.

Lemma evp_decrypt_same : forall P c nonce aad ct out, same (evp_decrypt_q P c nonce aad ct out) (evp_decrypt P c nonce aad ct out).
Proof.
  intros. unfold evp_decrypt_q, evp_decrypt. cbn zeta. destruct (total_len ct <? kAeadTagSize); [apply same_ret|].
  apply same_bind; [apply init_same|]. intros [st e].
  destruct (negb (is_ok st)); [apply same_ret|]. apply same_bind; [apply aad_same|]. intros [st1 e1].
  destruct (negb (is_ok st1)); [apply same_ret|]. apply same_bind; [apply dloop_same|].
  intros [st2 e2 out2|e2 out2 total rem cur rest]; [apply same_ret|].
  destruct (kAeadTagSize <? total); [same_tac|]. apply same_bind; [apply same_quiet|]. intros tag.
  apply same_bind; [apply tag_same|]. intros [[st3 e3] out3]. same_tac.
Qed.

Lemma bssl_encrypt_same : forall P c nonce aad pt out, same (bssl_encrypt_q P c nonce aad pt out) (bssl_encrypt P c nonce aad pt out).
Proof. intros. unfold bssl_encrypt_q, bssl_encrypt. same_tac. Qed.

Lemma bssl_decrypt_same : forall P c nonce aad ct out, same (bssl_decrypt_q P c nonce aad ct out) (bssl_decrypt P c nonce aad ct out).
Proof.
  intros. unfold bssl_decrypt_q, bssl_decrypt. cbn zeta.
  destruct (negb (lenN nonce =? cr_nonce_length c)); [apply same_ret|].
  destruct (checked_len ct 0) as [n|]; [|apply same_ret].
  destruct (n <? kAeadTagSize); [apply same_ret|]. destruct (iov_len out <? n - kAeadTagSize); [apply same_ret|].
  destruct (collect_checked aad []) as [d|]; [|apply same_ret]. cbn zeta.
  apply same_library. intros [|]; cbn [andb]; same_tac.
Qed.

Lemma aead_encrypt_same : forall P c nonce aad pt out, same (aead_encrypt_q P c nonce aad pt out) (aead_encrypt P c nonce aad pt out).
Proof. intros. unfold aead_encrypt_q, aead_encrypt. destruct (cr_impl c); [apply evp_encrypt_same..|apply bssl_encrypt_same]. Qed.
Lemma aead_decrypt_same : forall P c nonce aad ct out, same (aead_decrypt_q P c nonce aad ct out) (aead_decrypt P c nonce aad ct out).
Proof. intros. unfold aead_decrypt_q, aead_decrypt. destruct (cr_impl c); [apply evp_decrypt_same..|apply bssl_decrypt_same]. Qed.

Lemma create_crypter_same : forall lib s key, same (create_crypter_q lib s key) (create_crypter lib s key).
Proof.
  intros lib s key. unfold create_crypter_q, create_crypter, create_aes_gcm_q, create_aes_gcm, create_chacha_poly_q, create_chacha_poly.
  destruct s; same_tac.
Qed.

Lemma restart_same : forall c i b, same (hkdf_restart_q c i b) (hkdf_restart c i b).
Proof. intros. unfold hkdf_restart_q, hkdf_restart. same_tac. Qed.
Lemma block_same : forall P h c info i, same (hkdf_block_q P h c info i) (hkdf_block P h c info i).
Proof. intros. unfold hkdf_block_q, hkdf_block. same_tac. Qed.
Lemma hloop_same : forall P h info k c i b d out, same (hkdf_loop_q P h c info i k b d out) (hkdf_loop P h c info i k b d out).
Proof.
  intros P h info. induction k as [|k IH]; intros c i b d out; cbn [hkdf_loop_q hkdf_loop]; [apply same_ret|].
  apply same_bind; [apply restart_same|]. intros [c1|]; [|apply same_ret].
  apply same_bind; [apply block_same|]. intros [[c2 b2]|]; [|apply same_ret]. apply IH.
Qed.
Lemma hkdf_same : forall P h prk info out, same (hkdf_derive_secret_q P h prk info out) (hkdf_derive_secret P h prk info out).
Proof.
  intros. unfold hkdf_derive_secret_q, hkdf_derive_secret, hkdf_derivation_q, hkdf_derivation. same_tac. apply hloop_same.
Qed.

Lemma create_same : forall P lib s q secret, same (half_create_q P lib s q secret) (half_create P lib s q secret).
Proof.
  intros. unfold half_create_q, half_create. destruct (negb (lenN secret =? suite_secret_size s)); [apply same_ret|].
  apply same_bind; [apply hkdf_same|]. intros [st key]. destruct (negb (is_ok st)); [apply same_ret|].
  apply same_bind; [apply hkdf_same|]. intros [st1 nonce]. destruct (negb (is_ok st1)); [apply same_ret|].
  apply same_bind; [apply create_crypter_same|]. intros [st2|c]; apply same_ret.
Qed.

Lemma half_encrypt_same : forall P h aad pt out, same (half_encrypt_q P h aad pt out) (half_encrypt P h aad pt out).
Proof.
  intros. unfold half_encrypt_q, half_encrypt. destruct (hc_aead h) as [c|]; [|apply same_ret].
  destruct (hc_always_fail h || hc_overflowed h); [apply same_ret|]. apply same_bind; [apply same_quiet|]. intros [nonce h1].
  apply same_bind; [apply aead_encrypt_same|]. intros [[c1 st] o]. apply same_ret.
Qed.
Lemma half_decrypt_same : forall P h aad ct out, same (half_decrypt_q P h aad ct out) (half_decrypt P h aad ct out).
Proof.
  intros. unfold half_decrypt_q, half_decrypt. destruct (hc_aead h) as [c|]; [|apply same_ret].
  destruct (hc_always_fail h || hc_overflowed h); [apply same_ret|]. apply same_bind; [apply same_quiet|]. intros [nonce h1].
  apply same_bind; [apply aead_decrypt_same|]. intros [[c1 st] o]. apply same_ret.
Qed.
Lemma half_update_same : forall P lib h, same (half_update_key_q P lib h) (half_update_key P lib h).
Proof.
  intros. unfold half_update_key_q, half_update_key.
  apply same_bind; [apply hkdf_same|]. intros [st secret]. destruct (negb (is_ok st)); [apply same_ret|].
  apply same_bind; [apply hkdf_same|]. intros [st1 key]. destruct (negb (is_ok st1)); [apply same_ret|].
  apply same_bind; [apply hkdf_same|]. intros [st2 nonce]. destruct (negb (is_ok st2)); [apply same_ret|].
  apply same_bind; [apply create_crypter_same|]. intros [st3|c]; apply same_ret.
Qed.

Lemma queue_create : forall P lib hs q s sequence secret fs next,
  match tstep P lib hs q (TCreate s sequence secret) fs next with
  | Done (hs', x) =>
    exists r fs', half_create P lib s sequence secret fs = Done (r, fs') /\
    match r with inl st => hs' = hs /\ s_code x = st | inr h => hs' = hs ++ [h] /\ s_code x = kOk end
  | Undef u => half_create P lib s sequence secret fs = Undef u
  | NoFuel => half_create P lib s sequence secret fs = NoFuel
  end.
Proof.
  intros. cbn [tstep]. set (e := Build_errs _ _ _ _). pose proof (create_same P lib s sequence secret e fs) as H.
  destruct (half_create_q P lib s sequence secret e fs) as [[[[st|h] e'] fs']|u|]; cbn [obind]; [..|exact H|exact H].
  - eexists _, _. split; [exact H|]. split; reflexivity.
  - eexists _, _. split; [exact H|]. split; reflexivity.
Qed.

Lemma queue_use : forall P lib hs q i h op fs next, nth_error hs i = Some h ->
  match tstep P lib hs q (TUse i op) fs next with
  | Done (hs', x) => exists h' r, hstep P lib h op fs = Done (h', r) /\ hs' = put hs i h' /\ s_code x = res_code r
  | Undef u => hstep P lib h op fs = Undef u
  | NoFuel => hstep P lib h op fs = NoFuel
  end.
Proof.
  intros P lib hs q i h op fs next E. cbn [tstep]. rewrite E. set (e := Build_errs _ _ _ _). clearbody e.
  destruct op as [aad pt out|aad ct out|]; cbn [hstep_q hstep].
  - pose proof (half_encrypt_same P h aad pt (IoBuf out) e fs) as H. unfold qbind, bind, obind, qret, ret.
    destruct (half_encrypt_q P h aad pt (IoBuf out) e fs) as [[[[[h' [st n]] o] e'] fs']|u|]; rewrite H; cbn [fst snd]; [|reflexivity..].
    eexists _, _. repeat split.
  - pose proof (half_decrypt_same P h aad ct (IoBuf out) e fs) as H. unfold qbind, bind, obind, qret, ret.
    destruct (half_decrypt_q P h aad ct (IoBuf out) e fs) as [[[[[h' [st n]] o] e'] fs']|u|]; rewrite H; cbn [fst snd]; [|reflexivity..].
    eexists _, _. repeat split.
  - pose proof (half_update_same P lib h e fs) as H. unfold obind.
    destruct (half_update_key_q P lib h e fs) as [[[[h' st] e'] fs']|u|]; rewrite H; [|reflexivity..].
    eexists _, _. repeat split.
Qed.
