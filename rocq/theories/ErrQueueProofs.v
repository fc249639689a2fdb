(* Proofs for C98. *)
From Coq Require Import List NArith Bool Lia.
From Verif Require Import Base Aead Hkdf HalfConn SpecAead SpecTls HalfRun ErrQueue SpecErr.
Import ListNotations.
Local Open Scope N_scope.

Definition told (e e' : errs) : Prop :=
  exists new, e_queue e' = [] /\ e_text e' = e_queue e ++ new /\ e_raised e' = e_raised e ++ new.
Definition kept (e e' : errs) : Prop :=
  exists new, e_queue e' = e_queue e ++ new /\ e_text e' = e_text e /\ e_raised e' = e_raised e ++ new.
(* A crypter: nothing happened, or the errors were told; always told if the
   status is kInternal. *)
Definition crel (e : errs) (st : code) (e' : errs) : Prop :=
  match st with
  | kOk => e' = e
  | kInternal => told e e'
  | _ => e' = e \/ told e e'
  end.
(* The key derivation. *)
Definition hrel (e : errs) (st : code) (e' : errs) : Prop := e' = e \/ (st <> kOk /\ kept e e').

Lemma raise_spec : forall e, exists new, e_queue (raise e) = e_queue e ++ new /\ e_text (raise e) = e_text e /\
  e_raised (raise e) = e_raised e ++ new.
Proof.
  intros e. unfold raise. destruct (e_next e) as [|x next].
  - exists []. rewrite !app_nil_r. repeat split.
  - exists x. repeat split.
Qed.

Definition taken (e : errs) : errs :=
  {| e_queue := []; e_next := e_next e; e_text := e_queue e; e_raised := e_raised e |}.
Lemma told_taken : forall e, told e (taken e).
Proof. intros e. exists []. rewrite !app_nil_r. repeat split. Qed.
Lemma told_raised : forall e, told e (taken (raise e)).
Proof.
  intros e. destruct (raise_spec e) as [new [A [B C]]]. exists new. cbn [taken e_queue e_text e_raised].
  repeat split; assumption.
Qed.
Lemma kept_raise : forall e, kept e (raise e).
Proof. intros e. destruct (raise_spec e) as [new H]. exists new. exact H. Qed.

Lemma qret_done : forall A (a b : A) e e' fs fs', qret a e fs = Done ((b, e'), fs') -> b = a /\ e' = e.
Proof. intros A a b e e' fs fs' H. unfold qret, ret in H. injection H as <- <- _. split; reflexivity. Qed.
Lemma qerr_done : forall A (a b : A) e e' fs fs', with_errors a e fs = Done ((b, e'), fs') -> b = a /\ e' = taken e.
Proof.
  intros A a b e e' fs fs' H. unfold with_errors, qbind, get_ssl_errors, qret, bind, ret in H. cbn [fst snd] in H.
  injection H as <- <- _. split; reflexivity.
Qed.
Lemma quiet_done : forall A (m : M A) b e e' fs fs', quiet m e fs = Done ((b, e'), fs') -> m fs = Done (b, fs') /\ e' = e.
Proof.
  intros A m b e e' fs fs' H. unfold quiet, bind, ret in H. destruct (m fs) as [[a f]|u|]; [|discriminate..].
  injection H as <- <- <-. split; reflexivity.
Qed.
Lemma qbind_done : forall A B (m : EM A) (k : A -> EM B) b e e' fs fs', qbind m k e fs = Done ((b, e'), fs') ->
  exists a e1 fs1, m e fs = Done ((a, e1), fs1) /\ k a e1 fs1 = Done ((b, e'), fs').
Proof.
  intros A B m k b e e' fs fs' H. unfold qbind, bind in H. destruct (m e fs) as [[[a e1] fs1]|u|]; [|discriminate..].
  exists a, e1, fs1. split; [reflexivity|exact H].
Qed.
Lemma library_done : forall g ok e e' fs fs', library g e fs = Done ((ok, e'), fs') ->
  (ok = true /\ g = true /\ e' = e) \/ (ok = false /\ e' = raise e).
Proof.
  intros g ok e e' fs fs' H. unfold library, bind in H. destruct (ssl fs) as [[o f]|u|]; [|discriminate..].
  destruct o, g; cbn [andb] in H; unfold ret in H; injection H as <- <- _;
    [left; repeat split|right; split; reflexivity..].
Qed.

Ltac step H :=
  match type of H with
  | qret _ _ _ = _ =>
    let E := fresh in destruct (qret_done _ _ _ _ _ _ _ H) as [E ->]; clear H;
    first [injection E as ? ? ? ? ?; subst | injection E as ? ? ? ?; subst | injection E as ? ? ?; subst
          | injection E as ? ?; subst | injection E as ?; subst | subst]
  | with_errors _ _ _ = _ =>
    let E := fresh in destruct (qerr_done _ _ _ _ _ _ _ H) as [E ->]; clear H;
    first [injection E as ? ? ? ? ?; subst | injection E as ? ? ? ?; subst | injection E as ? ? ?; subst
          | injection E as ? ?; subst | injection E as ?; subst | subst]
  | qbind (library _) _ _ _ = _ =>
    let L := fresh in let ok := fresh in let e := fresh in let f := fresh in
    destruct (qbind_done _ _ _ _ _ _ _ _ _ H) as [ok [e [f [L H']]]]; clear H; rename H' into H;
    destruct (library_done _ _ _ _ _ _ L) as [[-> [? ->]]|[-> ->]]; clear L; cbn [negb] in H
  | qbind (quiet _) _ _ _ = _ =>
    let L := fresh "Q" in let ok := fresh in let e := fresh in let f := fresh in
    destruct (qbind_done _ _ _ _ _ _ _ _ _ H) as [ok [e [f [L H']]]]; clear H; rename H' into H;
    destruct (quiet_done _ _ _ _ _ _ _ L) as [? ->]; clear L
  end.
Ltac fin := try (left; reflexivity); try reflexivity; try apply told_taken; try apply told_raised;
  try (right; apply told_taken); try (right; apply told_raised).

Lemma init_rel : forall c nonce e fs st c' e' fs',
  init_context_using_nonce_q c nonce e fs = Done (((st, c'), e'), fs') -> crel e st e'.
Proof.
  intros c nonce e fs st c' e' fs' H. unfold init_context_using_nonce_q in H.
  destruct (negb (lenN nonce =? kAeadNonceSize)).
  - step H. cbn. fin.
  - step H; step H; cbn; fin.
Qed.

Lemma aad_rel : forall aad c e fs st c' e' fs', set_aad_q c aad e fs = Done (((st, c'), e'), fs') -> crel e st e'.
Proof.
  induction aad as [|v r IH]; intros c e fs st c' e' fs' H; cbn [set_aad_q] in H.
  - step H. cbn. fin.
  - destruct (iov_len v =? 0); [apply (IH _ _ _ _ _ _ _ H)|]. destruct v as [d|n]; [|step H; cbn; fin].
    destruct (int_narrow (lenN d)) as [m|].
    + step H; [|step H; cbn; fin]. cbn zeta in H. destruct (m =? lenN d); [apply (IH _ _ _ _ _ _ _ H)|step H; cbn; fin].
    + step H; [discriminate|]. step H. cbn. fin.
Qed.

Lemma eloop_rel : forall P a pt c out off rem e fs st c' out' off' rem' e' fs',
  encrypt_loop_q P a c pt out off rem e fs = Done (((st, c', out', off', rem'), e'), fs') -> crel e st e'.
Proof.
  intros P a. induction pt as [|v r IH]; intros c out off rem e fs st c' out' off' rem' e' fs' H; cbn [encrypt_loop_q] in H.
  - step H. cbn. fin.
  - destruct (iov_len v =? 0); [apply (IH _ _ _ _ _ _ _ _ _ _ _ _ _ H)|]. destruct v as [d|n]; [|step H; cbn; fin].
    destruct (rem <? lenN d); [step H; cbn; fin|]. destruct (int_narrow (lenN d)) as [m|].
    + step H; [|step H; cbn; fin]. cbn zeta in H. step H. apply (IH _ _ _ _ _ _ _ _ _ _ _ _ _ H).
    + step H; [discriminate|]. step H. cbn. fin.
Qed.

Lemma ok_code : forall st, negb (is_ok st) = false -> st = kOk.
Proof. intros [] H; cbn in H; try discriminate; reflexivity. Qed.

Lemma evp_encrypt_rel : forall P c nonce aad pt out e fs c' st n out' e' fs',
  evp_encrypt_q P c nonce aad pt out e fs = Done (((c', (st, n), out'), e'), fs') -> crel e st e'.
Proof.
  intros P c nonce aad pt out e fs c' st n out' e' fs' H. unfold evp_encrypt_q in H.
  destruct (qbind_done _ _ _ _ _ _ _ _ _ H) as [[st1 c1] [e1 [f1 [A H1]]]]. apply init_rel in A. clear H.
  destruct (negb (is_ok st1)) eqn:O1; [step H1; exact A|]. apply ok_code in O1. subst st1. cbn in A. subst e1.
  destruct (qbind_done _ _ _ _ _ _ _ _ _ H1) as [[st2 c2] [e2 [f2 [A H2]]]]. apply aad_rel in A. clear H1.
  destruct (negb (is_ok st2)) eqn:O2; [step H2; exact A|]. apply ok_code in O2. subst st2. cbn in A. subst e2.
  destruct (qbind_done _ _ _ _ _ _ _ _ _ H2) as [[[[[st3 c3] out3] off] rem] [e3 [f3 [A H3]]]]. apply eloop_rel in A. clear H2.
  destruct (negb (is_ok st3)) eqn:O3; [step H3; exact A|]. apply ok_code in O3. subst st3. cbn in A. subst e3.
  step H3; [|step H3; cbn; fin]. destruct (rem <? kAeadTagSize); [step H3; cbn; fin|].
  step H3; [|step H3; cbn; fin]. step H3. step H3. cbn. fin.
Qed.

Definition drel (e : errs) (r : dloop) (e' : errs) : Prop :=
  match r with DExit st _ _ => st <> kOk /\ crel e st e' | DCont _ _ _ _ _ _ => e' = e end.
Lemma zero_exit_done : forall st c out fs r fs', zero_exit st c out fs = Done (r, fs') -> exists o, r = DExit st c o.
Proof.
  intros st c out fs r fs' H. unfold zero_exit, lift, bind, ret in H. destruct (zero_out out) as [o|u|]; [|discriminate..].
  injection H as <- _. exists o. reflexivity.
Qed.
Lemma dloop_rel : forall P a ct c out total off rem cur e fs r e' fs',
  decrypt_loop_q P a c ct out total off rem cur e fs = Done ((r, e'), fs') -> drel e r e'.
Proof.
  intros P a. induction ct as [|v l IH]; intros c out total off rem cur e fs r e' fs' H; cbn [decrypt_loop_q] in H.
  - step H. cbn. fin.
  - destruct (total <=? kAeadTagSize); [step H; cbn; fin|].
    destruct (iov_len v =? 0); [apply (IH _ _ _ _ _ _ _ _ _ _ _ H)|]. destruct v as [d|n].
    + cbn zeta in H. destruct (rem <? N.min (lenN d) (total - kAeadTagSize)); [step H; cbn; split; [discriminate|fin]|].
      destruct (int_narrow (N.min (lenN d) (total - kAeadTagSize))) as [m|].
      * step H.
        -- step H. apply (IH _ _ _ _ _ _ _ _ _ _ _ H).
        -- step H. match goal with Z : zero_exit _ _ _ _ = _ |- _ => destruct (zero_exit_done _ _ _ _ _ _ Z) as [o ->] end. step H. cbn. split; [discriminate|fin].
      * step H; [discriminate|]. step H. match goal with Z : zero_exit _ _ _ _ = _ |- _ => destruct (zero_exit_done _ _ _ _ _ _ Z) as [o ->] end. step H. cbn. split; [discriminate|fin].
    + destruct (quiet_done _ _ _ _ _ _ _ H) as [Z ->]. destruct (zero_exit_done _ _ _ _ _ _ Z) as [o ->].
      cbn. split; [discriminate|fin].
Qed.

Lemma tag_rel : forall P a c tag out e fs st c' out' e' fs',
  check_tag_q P a c tag out e fs = Done (((st, c', out'), e'), fs') -> crel e st e'.
Proof.
  intros P a c tag out e fs st c' out' e' fs' H. unfold check_tag_q in H.
  step H; [|step H; step H; cbn; fin]. cbn zeta in H. step H; [step H; cbn; fin|]. step H. step H. cbn. fin.
Qed.

Lemma evp_decrypt_rel : forall P c nonce aad ct out e fs c' st n out' e' fs',
  evp_decrypt_q P c nonce aad ct out e fs = Done (((c', (st, n), out'), e'), fs') -> crel e st e'.
Proof.
  intros P c nonce aad ct out e fs c' st n out' e' fs' H. unfold evp_decrypt_q in H. cbn zeta in H.
  destruct (total_len ct <? kAeadTagSize); [step H; cbn; fin|].
  destruct (qbind_done _ _ _ _ _ _ _ _ _ H) as [[st1 c1] [e1 [f1 [A H1]]]]. apply init_rel in A. clear H.
  destruct (negb (is_ok st1)) eqn:O1; [step H1; exact A|]. apply ok_code in O1. subst st1. cbn in A. subst e1.
  destruct (qbind_done _ _ _ _ _ _ _ _ _ H1) as [[st2 c2] [e2 [f2 [A H2]]]]. apply aad_rel in A. clear H1.
  destruct (negb (is_ok st2)) eqn:O2; [step H2; exact A|]. apply ok_code in O2. subst st2. cbn in A. subst e2.
  destruct (qbind_done _ _ _ _ _ _ _ _ _ H2) as [r [e3 [f3 [A H3]]]]. apply dloop_rel in A. clear H2.
  destruct r as [st3 c3 out3|c3 out3 total rem cur rest].
  - step H3. apply A.
  - cbn in A. subst e3. destruct (kAeadTagSize <? total); [step H3; step H3; cbn; fin|]. step H3.
    destruct (qbind_done _ _ _ _ _ _ _ _ _ H3) as [[[st4 c4] out4] [e4 [f4 [A H4]]]]. apply tag_rel in A. clear H3.
    destruct (negb (is_ok st4)) eqn:O4; [step H4; exact A|]. apply ok_code in O4. subst st4. step H4. exact A.
Qed.

Lemma bssl_encrypt_rel : forall P c nonce aad pt out e fs c' st n out' e' fs',
  bssl_encrypt_q P c nonce aad pt out e fs = Done (((c', (st, n), out'), e'), fs') -> crel e st e'.
Proof.
  intros P c nonce aad pt out e fs c' st n out' e' fs' H. unfold bssl_encrypt_q in H. cbn zeta in H.
  destruct (negb (lenN nonce =? cr_nonce_length c)); [step H; cbn; fin|].
  destruct (checked_len pt 0) as [m|]; [|step H; cbn; fin].
  destruct (iov_len out <? wrap64 (cr_tag_length c + m)); [step H; cbn; fin|].
  destruct (collect_checked aad []) as [d|]; [|step H; cbn; fin].
  step H; [step H; step H; cbn; fin|]. step H. step H. cbn. fin.
Qed.
Lemma bssl_decrypt_rel : forall P c nonce aad ct out e fs c' st n out' e' fs',
  bssl_decrypt_q P c nonce aad ct out e fs = Done (((c', (st, n), out'), e'), fs') -> crel e st e'.
Proof.
  intros P c nonce aad ct out e fs c' st n out' e' fs' H. unfold bssl_decrypt_q in H. cbn zeta in H.
  destruct (negb (lenN nonce =? cr_nonce_length c)); [step H; cbn; fin|].
  destruct (checked_len ct 0) as [m|]; [|step H; cbn; fin].
  destruct (m <? kAeadTagSize); [step H; cbn; fin|].
  destruct (iov_len out <? m - kAeadTagSize); [step H; cbn; fin|].
  destruct (collect_checked aad []) as [d|]; [|step H; cbn; fin].
  step H; [step H; step H; cbn; fin|]. step H. step H. cbn. fin.
Qed.

Lemma aead_encrypt_rel : forall P c nonce aad pt out e fs c' st n out' e' fs',
  aead_encrypt_q P c nonce aad pt out e fs = Done (((c', (st, n), out'), e'), fs') -> crel e st e'.
Proof. intros P c. unfold aead_encrypt_q. destruct (cr_impl c); [apply evp_encrypt_rel..|apply bssl_encrypt_rel]. Qed.
Lemma aead_decrypt_rel : forall P c nonce aad ct out e fs c' st n out' e' fs',
  aead_decrypt_q P c nonce aad ct out e fs = Done (((c', (st, n), out'), e'), fs') -> crel e st e'.
Proof. intros P c. unfold aead_decrypt_q. destruct (cr_impl c); [apply evp_decrypt_rel..|apply bssl_decrypt_rel]. Qed.

Lemma create_crypter_rel : forall lib s key e fs r e' fs', create_crypter_q lib s key e fs = Done ((r, e'), fs') ->
  match r with inl st => st <> kOk /\ crel e st e' | inr _ => e' = e end.
Proof.
  intros lib s key e fs r e' fs' H. unfold create_crypter_q in H.
  assert (A : forall a, (let mk b := ok <~ library true ;; if negb ok then with_errors (inl kInternal) else
    ok <~ library true ;; if negb ok then with_errors (inl kInternal) else
    qret (inr {| cr_impl := AesGcmImpl; cr_alg := b; cr_key_length := lenN key; cr_nonce_length := kAeadNonceSize;
                 cr_tag_length := kAeadTagSize; cr_ctx := fresh_ctx key |}) in mk a) e fs = Done ((r, e'), fs') ->
    match r with inl st => st <> kOk /\ crel e st e' | inr _ => e' = e end).
  { intros a G. cbn beta zeta in G. step G.
    - step G; step G; cbn; [reflexivity|split; [discriminate|fin]].
    - step G. cbn. split; [discriminate|fin]. }
  assert (B : create_aes_gcm_q key e fs = Done ((r, e'), fs') -> match r with inl st => st <> kOk /\ crel e st e' | inr _ => e' = e end).
  { unfold create_aes_gcm_q. cbn zeta. destruct (lenN key =? kAes128GcmKeySize); [apply (A Aes128Gcm)|].
    destruct (lenN key =? kAes256GcmKeySize); [apply (A Aes256Gcm)|]. intros G. step G. cbn. split; [discriminate|fin]. }
  destruct s; [exact (B H)..|]. unfold create_chacha_poly_q in H. cbn zeta in H.
  destruct (negb (lenN key =? kChachaPolyKeySize)); [step H; cbn; split; [discriminate|fin]|].
  destruct lib.
  - step H; [step H; step H; cbn; [reflexivity|split; [discriminate|fin]]|step H; cbn; split; [discriminate|fin]].
  - step H; step H; cbn; [reflexivity|split; [discriminate|fin]].
Qed.

Lemma kept_refl : forall e, kept e e.
Proof. intros e. exists []. rewrite !app_nil_r. repeat split. Qed.

Lemma restart_rel : forall c i b e fs r e' fs', hkdf_restart_q c i b e fs = Done ((r, e'), fs') ->
  match r with None => kept e e' | Some _ => e' = e end.
Proof.
  intros c i b e fs r e' fs' H. unfold hkdf_restart_q in H. destruct (negb (i =? 0)); [|step H; reflexivity].
  step H; [|step H; apply kept_raise]. step H; step H; [reflexivity|apply kept_raise].
Qed.
Lemma block_rel : forall P h c info i e fs r e' fs', hkdf_block_q P h c info i e fs = Done ((r, e'), fs') ->
  match r with None => kept e e' | Some _ => e' = e end.
Proof.
  intros P h c info i e fs r e' fs' H. unfold hkdf_block_q in H.
  step H; [|step H; apply kept_raise]. step H; [|step H; apply kept_raise]. step H; step H; [reflexivity|apply kept_raise].
Qed.
Lemma hloop_rel : forall P h info k c i b d out e fs st out' e' fs',
  hkdf_loop_q P h c info i k b d out e fs = Done (((st, out'), e'), fs') -> hrel e st e'.
Proof.
  intros P h info. induction k as [|k IH]; intros c i b d out e fs st out' e' fs' H; cbn [hkdf_loop_q] in H.
  - step H. left. reflexivity.
  - destruct (qbind_done _ _ _ _ _ _ _ _ _ H) as [r [e1 [f1 [A H1]]]]. apply restart_rel in A. clear H.
    destruct r as [c1|]; [subst e1|step H1; right; split; [discriminate|exact A]].
    destruct (qbind_done _ _ _ _ _ _ _ _ _ H1) as [r [e2 [f2 [A H2]]]]. apply block_rel in A. clear H1.
    destruct r as [[c2 b2]|]; [subst e2|step H2; right; split; [discriminate|exact A]].
    apply (IH _ _ _ _ _ _ _ _ _ _ _ H2).
Qed.
Lemma hkdf_rel : forall P h prk info out e fs st out' e' fs',
  hkdf_derive_secret_q P h prk info out e fs = Done (((st, out'), e'), fs') -> hrel e st e'.
Proof.
  intros P h prk info out e fs st out' e' fs' H. unfold hkdf_derive_secret_q in H. cbn zeta in H.
  destruct (lenN (prk out) <? digest_size h); [step H; left; reflexivity|].
  match type of H with (if ?b then _ else _) _ _ = _ => destruct b end; [step H; left; reflexivity|].
  step H; [|step H; right; split; [discriminate|apply kept_raise]].
  unfold hkdf_derivation_q in H. step H; [|step H; right; split; [discriminate|apply kept_raise]].
  apply (hloop_rel _ _ _ _ _ _ _ _ _ _ _ _ _ _ _ H).
Qed.

(* A call of a half connection. *)
Definition call_rel (e : errs) (st : code) (e' : errs) : Prop := e' = e \/ (st <> kOk /\ (told e e' \/ kept e e')).
Definition crypt_rel (e : errs) (st : code) (e' : errs) : Prop := e' = e \/ (st <> kOk /\ told e e').

Lemma crel_crypt : forall e st e', crel e st e' -> crypt_rel e st e'.
Proof.
  intros e st e' H. unfold crypt_rel. destruct st; cbn in H; try (left; exact H); try (right; split; [discriminate|exact H]);
    (destruct H as [H|H]; [left; exact H|right; split; [discriminate|exact H]]).
Qed.
Lemma hrel_call : forall e st e', hrel e st e' -> call_rel e st e'.
Proof. intros e st e' [H|[H K]]; [left; exact H|right; split; [exact H|right; exact K]]. Qed.
Lemma crypt_call : forall e st e', crypt_rel e st e' -> call_rel e st e'.
Proof. intros e st e' [H|[H K]]; [left; exact H|right; split; [exact H|left; exact K]]. Qed.
Lemma hrel_ok : forall e e', hrel e kOk e' -> e' = e.
Proof. intros e e' [H|[H _]]; [exact H|destruct (H eq_refl)]. Qed.

Lemma create_rel : forall P lib s q secret e fs r e' fs', half_create_q P lib s q secret e fs = Done ((r, e'), fs') ->
  match r with inl st => call_rel e st e' | inr _ => e' = e end.
Proof.
  intros P lib s q secret e fs r e' fs' H. unfold half_create_q in H.
  destruct (negb (lenN secret =? suite_secret_size s)); [step H; left; reflexivity|].
  destruct (qbind_done _ _ _ _ _ _ _ _ _ H) as [[st1 key] [e1 [f1 [A H1]]]]. apply hkdf_rel in A. clear H.
  destruct (negb (is_ok st1)) eqn:O1; [step H1; apply hrel_call; exact A|]. apply ok_code in O1. subst st1. apply hrel_ok in A. subst e1.
  destruct (qbind_done _ _ _ _ _ _ _ _ _ H1) as [[st2 nonce] [e2 [f2 [A H2]]]]. apply hkdf_rel in A. clear H1.
  destruct (negb (is_ok st2)) eqn:O2; [step H2; apply hrel_call; exact A|]. apply ok_code in O2. subst st2. apply hrel_ok in A. subst e2.
  destruct (qbind_done _ _ _ _ _ _ _ _ _ H2) as [r3 [e3 [f3 [A H3]]]]. apply create_crypter_rel in A. clear H2.
  destruct r3 as [st3|c]; step H3; [apply crypt_call, crel_crypt, A|reflexivity].
Qed.

Lemma update_rel : forall P lib h e fs h' st e' fs', half_update_key_q P lib h e fs = Done (((h', st), e'), fs') -> call_rel e st e'.
Proof.
  intros P lib h e fs h' st e' fs' H. unfold half_update_key_q in H.
  destruct (qbind_done _ _ _ _ _ _ _ _ _ H) as [[st1 s1] [e1 [f1 [A H1]]]]. apply hkdf_rel in A. clear H.
  destruct (negb (is_ok st1)) eqn:O1; [step H1; apply hrel_call; exact A|]. apply ok_code in O1. subst st1. apply hrel_ok in A. subst e1.
  destruct (qbind_done _ _ _ _ _ _ _ _ _ H1) as [[st2 key] [e2 [f2 [A H2]]]]. apply hkdf_rel in A. clear H1.
  destruct (negb (is_ok st2)) eqn:O2; [step H2; apply hrel_call; exact A|]. apply ok_code in O2. subst st2. apply hrel_ok in A. subst e2.
  destruct (qbind_done _ _ _ _ _ _ _ _ _ H2) as [[st3 nonce] [e3 [f3 [A H3]]]]. apply hkdf_rel in A. clear H2.
  destruct (negb (is_ok st3)) eqn:O3; [step H3; apply hrel_call; exact A|]. apply ok_code in O3. subst st3. apply hrel_ok in A. subst e3.
  destruct (qbind_done _ _ _ _ _ _ _ _ _ H3) as [r4 [e4 [f4 [A H4]]]]. apply create_crypter_rel in A. clear H3.
  destruct r4 as [st4|c]; step H4; [apply crypt_call, crel_crypt, A|left; reflexivity].
Qed.

Lemma encrypt_rel : forall P h aad pt out e fs h' st n out' e' fs',
  half_encrypt_q P h aad pt out e fs = Done (((h', (st, n), out'), e'), fs') -> crypt_rel e st e'.
Proof.
  intros P h aad pt out e fs h' st n out' e' fs' H. unfold half_encrypt_q in H.
  destruct (hc_aead h) as [c|]; [|step H; left; reflexivity].
  destruct (hc_always_fail h || hc_overflowed h); [step H; left; reflexivity|].
  destruct (qbind_done _ _ _ _ _ _ _ _ _ H) as [[nonce h1] [e1 [f1 [A H1]]]]. clear H.
  destruct (quiet_done _ _ _ _ _ _ _ A) as [_ ->].
  destruct (qbind_done _ _ _ _ _ _ _ _ _ H1) as [[[c1 [st1 n1]] o] [e2 [f2 [B H2]]]]. clear H1.
  apply aead_encrypt_rel in B. step H2. apply crel_crypt, B.
Qed.
Lemma decrypt_rel : forall P h aad ct out e fs h' st n out' e' fs',
  half_decrypt_q P h aad ct out e fs = Done (((h', (st, n), out'), e'), fs') -> crypt_rel e st e'.
Proof.
  intros P h aad ct out e fs h' st n out' e' fs' H. unfold half_decrypt_q in H.
  destruct (hc_aead h) as [c|]; [|step H; left; reflexivity].
  destruct (hc_always_fail h || hc_overflowed h); [step H; left; reflexivity|].
  destruct (qbind_done _ _ _ _ _ _ _ _ _ H) as [[nonce h1] [e1 [f1 [A H1]]]]. clear H.
  destruct (quiet_done _ _ _ _ _ _ _ A) as [_ ->].
  destruct (qbind_done _ _ _ _ _ _ _ _ _ H1) as [[[c1 [st1 n1]] o] [e2 [f2 [B H2]]]]. clear H1.
  apply aead_decrypt_rel in B. step H2. apply crel_crypt, B.
Qed.

Lemma hstep_rel : forall P lib h op e fs h' st e' fs', hstep_q P lib h op e fs = Done (((h', st), e'), fs') ->
  call_rel e st e' /\ (op <> HUpdateKey -> crypt_rel e st e').
Proof.
  intros P lib h op e fs h' st e' fs' H. destruct op as [aad pt out|aad ct out|]; cbn [hstep_q] in H.
  - destruct (qbind_done _ _ _ _ _ _ _ _ _ H) as [[[h1 [st1 n]] o] [e1 [f1 [A H1]]]]. apply encrypt_rel in A. step H1.
    split; [apply crypt_call, A|intros _; exact A].
  - destruct (qbind_done _ _ _ _ _ _ _ _ _ H) as [[[h1 [st1 n]] o] [e1 [f1 [A H1]]]]. apply decrypt_rel in A. step H1.
    split; [apply crypt_call, A|intros _; exact A].
  - apply update_rel in H. split; [exact H|]. intros E. destruct (E eq_refl).
Qed.

Lemma obind_done : forall A B (m : outcome A) (k : A -> outcome B) b, obind m k = Done b -> exists a, m = Done a /\ k a = Done b.
Proof. intros A B [a|u|] k b H; cbn in H; [|discriminate..]. exists a. split; [reflexivity|exact H]. Qed.

Definition start (q : list entry) (next : list (list entry)) : errs :=
  {| e_queue := q; e_next := next; e_text := []; e_raised := [] |}.
Lemma call_see : forall q next st e', call_rel (start q next) st e' ->
  let s := see st e' in
  (s_code s = kOk -> s_text s = [] /\ s_raised s = [] /\ s_queue s = q) /\ (reported q s \/ left_behind q s).
Proof.
  intros q next st e' H. cbn zeta. destruct H as [->|[N [[new [A [B C]]]|[new [A [B C]]]]]].
  - split; [intros _; repeat split|]. right. split; [reflexivity|]. cbn. symmetry. apply app_nil_r.
  - split; [intros E; destruct (N E)|]. left. cbn in *. split; cbn; [rewrite B, C|]; assumption || reflexivity.
  - split; [intros E; destruct (N E)|]. right. cbn in *. split; cbn; [exact B|rewrite C; exact A].
Qed.
Lemma crypt_see : forall q next st e', crypt_rel (start q next) st e' ->
  let s := see st e' in reported q s \/ (s_text s = [] /\ s_raised s = [] /\ s_queue s = q).
Proof.
  intros q next st e' H. cbn zeta. destruct H as [->|[N [new [A [B C]]]]].
  - right. repeat split.
  - left. cbn in *. split; cbn; [rewrite C; exact B|exact A].
Qed.

Lemma each_call : forall P lib hs q op fs next hs' s, tstep P lib hs q op fs next = Done (hs', s) ->
  (s_code s = kOk -> s_text s = [] /\ s_raised s = [] /\ s_queue s = q) /\
  (reported q s \/ left_behind q s) /\
  (derives_keys op = false -> reported q s \/ (s_text s = [] /\ s_raised s = [] /\ s_queue s = q)).
Proof.
  intros P lib hs q op fs next hs' s H. destruct op as [su sq secret|i op]; cbn [tstep] in H.
  - destruct (obind_done _ _ _ _ _ H) as [[[r e'] f] [A B]]. apply create_rel in A. clear H.
    destruct r as [st|h]; injection B as _ <-.
    + destruct (call_see _ _ _ _ A) as [C D]. split; [exact C|]. split; [exact D|]. discriminate.
    + subst e'. split; [intros _; repeat split|]. split; [|discriminate]. right. split; [reflexivity|]. cbn. symmetry. apply app_nil_r.
  - destruct (nth_error hs i) as [h|]; [|discriminate].
    destruct (obind_done _ _ _ _ _ H) as [[[[h' st] e'] f] [A B]]. apply hstep_rel in A. clear H. injection B as _ <-.
    destruct A as [A A']. destruct (call_see _ _ _ _ A) as [C D]. split; [exact C|]. split; [exact D|].
    intros E. apply (crypt_see q next). apply A'. intros ->. discriminate.
Qed.

Lemma trun_cons : forall P lib hs q op fs next ops hs' ss, trun P lib hs q ((op, fs, next) :: ops) = Done (hs', ss) ->
  exists hs1 s ss', ss = s :: ss' /\ tstep P lib hs q op fs next = Done (hs1, s) /\ trun P lib hs1 (s_queue s) ops = Done (hs', ss').
Proof.
  intros P lib hs q op fs next ops hs' ss H. cbn [trun] in H. destruct (obind_done _ _ _ _ _ H) as [[hs1 s] [A B]].
  destruct (obind_done _ _ _ _ _ B) as [[hs2 ss'] [C D]]. injection D as <- <-. exists hs1, s, ss'. repeat split; assumption.
Qed.

Lemma last_cons : forall (l : list (list entry)) x d, last (x :: l) d = last l x.
Proof.
  induction l as [|y l IH]; intros x d; [reflexivity|]. change (last (x :: y :: l) d) with (last (y :: l) d).
  rewrite (IH y d), (IH y x). reflexivity.
Qed.

Lemma nothing_lost : forall P lib ops hs q hs' ss, trun P lib hs q ops = Done (hs', ss) ->
  flat_map s_text ss ++ final_queue q ss = q ++ flat_map s_raised ss.
Proof.
  intros P lib. induction ops as [|[[op fs] next] ops IH]; intros hs q hs' ss H.
  - injection H as _ <-. cbn. symmetry. apply app_nil_r.
  - destruct (trun_cons _ _ _ _ _ _ _ _ _ _ H) as [hs1 [s [ss' [-> [A B]]]]]. apply IH in B. clear IH H.
    unfold final_queue in *. cbn [map flat_map]. rewrite last_cons, <- app_assoc, B.
    destruct (each_call _ _ _ _ _ _ _ _ _ A) as [_ [[[C D]|[C D]] _]]; rewrite C, D, ?app_nil_l, <- ?app_assoc; reflexivity.
Qed.

Lemma all_own : forall P lib ops hs hs' ss, trun P lib hs [] ops = Done (hs', ss) ->
  ~ Exists derivation_failed (combine (map (fun c => fst (fst c)) ops) ss) -> Forall own_errors ss.
Proof.
  intros P lib. induction ops as [|[[op fs] next] ops IH]; intros hs hs' ss H N.
  - injection H as _ <-. constructor.
  - destruct (trun_cons _ _ _ _ _ _ _ _ _ _ H) as [hs1 [s [ss' [-> [A B]]]]]. cbn [map combine fst] in N.
    destruct (each_call _ _ _ _ _ _ _ _ _ A) as [C [_ D]].
    assert (O : own_errors s).
    { destruct (derives_keys op) eqn:E.
      - assert (K : s_code s = kOk).
        { destruct (s_code s) eqn:K; try reflexivity; exfalso; apply N; left; split; cbn [fst snd]; rewrite ?K; assumption || discriminate. }
        destruct (C K) as [X [Y Z]]. split; [rewrite X, Y; reflexivity|exact Z].
      - destruct (D eq_refl) as [[X Y]|[X [Y Z]]]; split; [exact X|exact Y|rewrite X, Y; reflexivity|exact Z]. }
    constructor; [exact O|]. destruct O as [_ Q]. rewrite Q in B. apply (IH _ _ _ B). intros F. apply N. right. exact F.
Qed.

(* The first library call of the key derivation, HMAC_CTX_new, fails. *)
Lemma create_leaves : forall P lib hs q s sequence secret fs x next, lenN secret = suite_secret_size s ->
  tstep P lib hs q (TCreate s sequence secret) (true :: fs) (x :: next) =
  Done (hs, {| s_code := kInternal; s_text := []; s_raised := x; s_queue := q ++ x |}).
Proof.
  intros P lib hs q s sequence secret fs x next E. unfold tstep, half_create_q, derive_key_q, derive_secret_q, hkdf_derive_secret_q.
  rewrite E, N.eqb_refl. cbn [negb].
  assert (D : (suite_secret_size s <? digest_size (suite_hash s)) = false) by (destruct s; reflexivity).
  cbn zeta. rewrite D.
  destruct s; reflexivity.
Qed.

Lemma update_leaves : forall P lib hs q i h fs x next, nth_error hs i = Some h ->
  lenN (hc_secret h) = suite_secret_size (hc_suite h) ->
  exists hs', tstep P lib hs q (TUse i HUpdateKey) (true :: fs) (x :: next) =
  Done (hs', {| s_code := kInternal; s_text := []; s_raised := x; s_queue := q ++ x |}).
Proof.
  intros P lib hs q i h fs x next I E. unfold tstep. rewrite I. unfold hstep_q, half_update_key_q, advance_secret_q, hkdf_derive_secret_q.
  rewrite E.
  assert (D : (suite_secret_size (hc_suite h) <? digest_size (suite_hash (hc_suite h))) = false) by (destruct (hc_suite h); reflexivity).
  cbn zeta. rewrite D. destruct (hc_suite h); eexists; reflexivity.
Qed.

Lemma creation_reports : forall lib s key q next fs r e fs',
  create_crypter_q lib s key {| e_queue := q; e_next := next; e_text := []; e_raised := [] |} fs = Done ((r, e), fs') ->
  match r with
  | inl st => reported q (see st e) \/ (e_text e = [] /\ e_raised e = [] /\ e_queue e = q)
  | inr _ => e_text e = [] /\ e_raised e = [] /\ e_queue e = q
  end.
Proof.
  intros lib s key q next fs r e fs' H. apply create_crypter_rel in H. destruct r as [st|c].
  - destruct H as [_ H]. apply (crypt_see q next), crel_crypt, H.
  - subst e. repeat split.
Qed.
