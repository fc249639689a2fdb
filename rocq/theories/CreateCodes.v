(* The statuses of creation, key derivation and key updates: for C90. *)
From Coq Require Import List NArith Bool Lia.
From Verif Require Import Base BaseProofs Aead Hkdf HkdfProofs HalfConn SpecAead SpecTls HalfProofs HalfRun HalfRunProofs Options HsHandler Crypter SpecRecord CrypterProofs
  SpecRx CrypterRun CrypterRunProofs FrameProt SpecFrame FrameRun FrameFinal ConcTag.
Import ListNotations.
Local Open Scope N_scope.

Definition works_or_internal (c : code) : Prop := c = kOk \/ c = kInternal.

Lemma loop_code : forall P h info k c i buffer d out, post (hkdf_loop P h c info i k buffer d out) (fun r => works_or_internal (fst r)).
Proof.
  intros P h info k. induction k as [|k IH]; intros c i buffer d out; cbn [hkdf_loop]; [apply post_ret; left; reflexivity|].
  apply post_bind. intros [c1|]; [|apply post_ret; right; reflexivity].
  apply post_bind. intros [[c2 b2]|]; [|apply post_ret; right; reflexivity]. apply IH.
Qed.

Lemma hkdf_code : forall P h prk info out,
  post (hkdf_derive_secret P h prk info out) (fun r => if lenN (prk out) <? digest_size h then fst r = kInvalidArgument else works_or_internal (fst r)).
Proof.
  intros. unfold hkdf_derive_secret, hkdf_derivation. destruct (lenN (prk out) <? digest_size h); [apply post_ret; reflexivity|].
  destruct (_ || _); [apply post_ret; right; reflexivity|].
  apply post_bind. intros []; [|apply post_ret; right; reflexivity]. cbn [negb].
  apply post_bind. intros []; [|apply post_ret; right; reflexivity]. cbn [negb]. apply loop_code.
Qed.

Lemma derive_code : forall P s suffix secret out, lenN secret = spec_hash_len s ->
  post (derive_secret P s suffix secret out) (fun r => works_or_internal (fst r)).
Proof.
  intros P s suffix secret out Hl. unfold derive_secret. intros fs a fs' E. apply hkdf_code in E.
  rewrite suite_hash_spec, digest_hash_len, Hl, N.ltb_irrefl in E. exact E.
Qed.
Lemma advance_code : forall P s secret, lenN secret = spec_hash_len s -> post (advance_secret P s secret) (fun r => works_or_internal (fst r)).
Proof.
  intros P s secret Hl. unfold advance_secret. intros fs a fs' E. apply hkdf_code in E.
  rewrite suite_hash_spec, digest_hash_len, Hl, N.ltb_irrefl in E. exact E.
Qed.
Lemma crypter_code : forall lib s key, lenN key = spec_key_len s ->
  post (create_crypter lib s key) (fun r => forall c, r = inl c -> c = kInternal).
Proof.
  intros lib s key Hk fs r fs' E c ->. destruct (create_crypter_spec lib s key fs Hk) as (r & fs1 & E1 & [-> | (d & -> & _)] & _); rewrite E in E1; congruence.
Qed.

Lemma create_code : forall P lib s q S fs c fs', prims_ok P -> half_create P lib s q S fs = Done (inl c, fs') ->
  (lenN S <> spec_hash_len s /\ c = kInvalidArgument) \/ (lenN S = spec_hash_len s /\ c = kInternal /\ fs <> []).
Proof.
  intros P lib s q S fs c fs' HP E.
  destruct (N.eq_dec (lenN S) (spec_hash_len s)) as [El|Nl].
  2:{ left. split; [exact Nl|]. unfold half_create in E. rewrite suite_secret_spec in E. destruct (N.eqb_spec (lenN S) (spec_hash_len s)) as [?|_]; [contradiction|].
      cbn [negb] in E. unfold ret in E. congruence. }
  right. split; [exact El|]. split.
  - revert E. assert (G : post (half_create P lib s q S) (fun r => forall c, r = inl c -> c = kInternal)); [|intros E; exact (G _ _ _ E c eq_refl)].
    unfold half_create. rewrite suite_secret_spec, El, N.eqb_refl. cbn [negb].
    eapply post_bind2 with (R := fun r => lenN (snd r) = spec_key_len s /\ works_or_internal (fst r)).
    { intros f0 [st key] f1 E. pose proof (derive_code _ _ _ _ _ El _ _ _ E) as W.
      destruct (derive_key_spec P s S (zeros (suite_key_size s)) f0 HP El) as (st1 & k1 & f2 & E1 & L1 & _); [rewrite lenN_zeros; apply suite_key_spec|].
      rewrite E in E1. injection E1 as <- <- _. split; [exact L1|exact W]. }
    intros [st key] [Lk W]. cbn [fst snd] in *. destruct W as [-> | ->]; cbn [is_ok negb]; [|apply post_ret; congruence].
    eapply post_bind2; [apply (derive_code _ _ _ _ _ El)|]. intros [st2 iv] W. cbn [fst] in W. destruct W as [-> | ->]; cbn [is_ok negb]; [|apply post_ret; congruence].
    eapply post_bind2; [apply (crypter_code _ _ _ Lk)|]. intros [st3|cr] W; apply post_ret; [|discriminate]. intros c0 K. apply W. congruence.
  - intros ->. unfold half_create in E. revert E. assert (q = q) by reflexivity. intros E.
    assert (E' : half_create P lib s 0 S [] = Done (inl c, fs')).
    { unfold half_create. revert E. destruct (negb (lenN S =? suite_secret_size s)); [auto|]. unfold bind.
      destruct (derive_key _ _ _ _ _) as [[[s1 k1] f1]|u|]; try discriminate. destruct (negb (is_ok s1)); [auto|].
      destruct (derive_nonce _ _ _ _ _) as [[[s2 k2] f2]|u|]; try discriminate. destruct (negb (is_ok s2)); [auto|].
      destruct (create_crypter _ _ _ _) as [[[s3|k3] f3]|u|]; try discriminate. auto. }
    destruct (half_create_spec P lib s 0 S [] HP) as (r & f & Er & _ & _ & _ & K); [reflexivity|]. destruct (K El eq_refl) as (_ & h & ->). congruence.
Qed.

Lemma update_code : forall P lib h d fs h' st fs', prims_ok P -> half_rel P h d -> half_update_key P lib h fs = Done ((h', st), fs') ->
  st = kOk \/ (st = kInternal /\ fs <> []).
Proof.
  intros P lib h d fs h' st fs' HP R E.
  assert (G : works_or_internal st).
  { pose proof (hr_suite _ _ _ R) as Es. pose proof (hr_secret_len _ _ _ R) as El. pose proof (hr_key_size _ _ _ R) as Ek. pose proof (hr_nonce_len _ _ _ R) as En.
    rewrite <- Es in El, Ek.
    assert (G : post (half_update_key P lib h) (fun r => works_or_internal (snd r))); [|exact (G _ _ _ E)].
    unfold half_update_key.
    eapply post_bind2 with (R := fun r => lenN (snd r) = spec_hash_len (hc_suite h) /\ works_or_internal (fst r)).
    { intros f0 [s0 k0] f1 E0. pose proof (advance_code _ _ _ El _ _ _ E0) as W.
      destruct (advance_secret_spec P (hc_suite h) (hc_secret h) f0 HP El) as (s1 & k1 & f2 & E1 & L1 & _). rewrite E0 in E1. injection E1 as <- <- _.
      split; [cbn [snd]; congruence|exact W]. }
    intros [s0 secret] [L0 W0]. cbn [fst snd] in *. destruct W0 as [-> | ->]; cbn [is_ok negb]; [|apply post_ret; right; reflexivity].
    eapply post_bind2 with (R := fun r => lenN (snd r) = spec_key_len (hc_suite h) /\ works_or_internal (fst r)).
    { intros f0 [s1 k1] f1 E0. pose proof (derive_code _ _ _ _ _ L0 _ _ _ E0) as W.
      destruct (derive_key_spec P (hc_suite h) secret (zeros (hc_key_size h)) f0 HP L0) as (s2 & k2 & f2 & E1 & L1 & _); [rewrite lenN_zeros; exact Ek|].
      rewrite E0 in E1. injection E1 as <- <- _. split; [exact L1|exact W]. }
    intros [s1 key] [L1 W1]. cbn [fst snd] in *. destruct W1 as [-> | ->]; cbn [is_ok negb]; [|apply post_ret; right; reflexivity].
    eapply post_bind2; [apply (derive_code _ _ _ _ _ L0)|]. intros [s2 iv] W2. cbn [fst] in W2. destruct W2 as [-> | ->]; cbn [is_ok negb]; [|apply post_ret; right; reflexivity].
    eapply post_bind2; [apply (crypter_code _ _ _ L1)|]. intros [s3|cr] W; apply post_ret; [|left; reflexivity]. right. cbn [snd]. apply W. reflexivity. }
  destruct G as [-> | ->]; [left; reflexivity|]. right. split; [reflexivity|]. intros ->.
  destruct (half_update_spec P lib h d [] HP R) as (h1 & s1 & f1 & E1 & _ & _ & _ & K). rewrite E in E1. injection E1 as _ <- _.
  destruct (K eq_refl) as [K1 _]. discriminate K1.
Qed.

Lemma D90hkdf : forall P h prk info out fs st out' fs', prims_ok P -> lenN out + digest_size h < two64 ->
  hkdf_derive_secret P h prk info out fs = Done ((st, out'), fs') ->
  (st = kOk \/ st = kInvalidArgument \/ st = kInternal) /\
  (st = kInvalidArgument <-> lenN (prk out) < digest_size h) /\
  (st = kInternal -> 255 * digest_size h < lenN out \/ fs <> []).
Proof.
  intros P h prk info out fs st out' fs' HP Hb E.
  destruct (hkdf_derive_secret_spec P h prk info out fs HP Hb) as (s1 & o1 & f1 & E1 & _ & _ & K1 & _ & K2 & K3). rewrite E in E1. injection E1 as <- <- <-.
  split; [exact K2|]. pose proof (hkdf_code _ _ _ _ _ _ _ _ E) as W. cbn [fst] in W. split.
  - split; [|intros L; apply K1; exact L]. intros ->. destruct (N.ltb_spec (lenN (prk out)) (digest_size h)) as [L|L]; [exact L|]. destruct W; discriminate.
  - intros ->. destruct (N.lt_ge_cases (lenN (prk out)) (digest_size h)) as [L|L]; [destruct (K1 L) as [K _]; discriminate K|].
    destruct (N.lt_ge_cases (255 * digest_size h) (lenN out)) as [M|M]; [left; exact M|]. right. intros F. destruct (K3 L M F) as [K _]. discriminate K.
Qed.

Lemma D90half : forall P lib s q S fs c fs', prims_ok P -> half_create P lib s q S fs = Done (inl c, fs') ->
  (c = kInvalidArgument <-> lenN S <> spec_hash_len s) /\ (c = kInvalidArgument \/ c = kInternal /\ fs <> []).
Proof.
  intros P lib s q S fs c fs' HP E. destruct (create_code _ _ _ _ _ _ _ _ HP E) as [[A ->]|(A & -> & B)].
  - split; [tauto|auto].
  - split; [split; [discriminate|tauto]|auto].
Qed.

Lemma D90update : forall P lib s q S ops rs h fs h' st, prims_ok P -> q < two64 -> hops_ok ops -> hreach P lib s q S ops rs h ->
  hstep P lib h HUpdateKey fs = Done (h', HUpdated st) -> st = kOk \/ (st = kInternal /\ fs <> []).
Proof.
  intros P lib s q S ops rs h fs h' st HP Hq Hok Hr E. destruct (hreach_inv _ _ _ _ _ _ _ _ HP Hq Hok Hr) as (R & _).
  cbn [hstep] in E. destruct (half_update_key P lib h fs) as [[[h1 s1] f1]|u|] eqn:Eu; try discriminate. cbn [obind] in E. injection E as _ <-.
  exact (update_code _ _ _ _ _ _ _ _ HP R Eu).
Qed.

Definition crypt_valid (a : create_args) : Prop :=
  ca_url a <> [] /\ ca_logger a = true /\ ca_sender a = true /\ ca_tls a = TLS1_3 /\
  lenN (ca_in_secret a) = spec_hash_len (ca_suite a) /\ lenN (ca_out_secret a) = spec_hash_len (ca_suite a).

Lemma D90crypt : forall P lib a fs c fs', prims_ok P -> ca_in_seq a < two64 -> ca_out_seq a < two64 ->
  crypt_create P lib a fs = Done (inl c, fs') ->
  (c = kInvalidArgument /\ ~ crypt_valid a) \/ (c = kInternal /\ fs <> []).
Proof.
  intros P lib a fs c fs' HP Hi Ho E.
  destruct (crypt_create_spec P lib a fs HP Hi Ho) as (r & f & Er & _ & _ & Hok & _). rewrite E in Er. injection Er as <- <-.
  assert (Nf : crypt_valid a -> fs <> []).
  { intros (A1 & A2 & A3 & A4 & A5 & A6) F. destruct (Hok A1 A2 A3 A4 A5 A6 F) as (_ & x & K). discriminate K. }
  unfold crypt_create in E.
  destruct (N.eqb_spec (lenN (ca_url a)) 0) as [Z|Z].
  { injection E as <- _. left. split; [reflexivity|]. intros (A1 & _). apply lenN_0 in Z. contradiction. }
  destruct (ca_logger a) eqn:El; cbn [negb] in E.
  2:{ injection E as <- _. left. split; [reflexivity|]. intros (_ & A & _). congruence. }
  destruct (ca_sender a) eqn:Es; cbn [negb] in E.
  2:{ injection E as <- _. left. split; [reflexivity|]. intros (_ & _ & A & _). congruence. }
  destruct (ca_tls a) eqn:Et.
  { injection E as <- _. left. split; [reflexivity|]. intros (_ & _ & _ & A & _). congruence. }
  unfold bind in E. destruct (half_create P lib (ca_suite a) (ca_in_seq a) (ca_in_secret a) fs) as [[[c1|h1] f1]|u|] eqn:E1; try discriminate.
  { injection E as <- _. destruct (create_code _ _ _ _ _ _ _ _ HP E1) as [[A ->]|(A & -> & B)]; [left|right; auto].
    split; [reflexivity|]. intros (_ & _ & _ & _ & K & _). contradiction. }
  destruct (half_create_spec P lib (ca_suite a) (ca_in_seq a) (ca_in_secret a) fs HP Hi) as (r1 & g1 & G1 & Gh & _ & _ & Gn). rewrite E1 in G1. injection G1 as <- <-.
  destruct (half_create P lib (ca_suite a) (ca_out_seq a) (ca_out_secret a) f1) as [[[c2|h2] f2]|u|] eqn:E2; try discriminate.
  injection E as <- _. destruct (create_code _ _ _ _ _ _ _ _ HP E2) as [[A ->]|(A & -> & B)].
  - left. split; [reflexivity|]. intros (_ & _ & _ & _ & _ & K). contradiction.
  - right. split; [reflexivity|]. intros F. apply B. destruct (Gh h1 eq_refl) as (_ & _ & _ & L). exact (proj1 (Gn L F)).
Qed.

Lemma D90frame : forall P lib a fs c fs', prims_ok P -> ca_in_seq (fa_crypt a) < two64 -> ca_out_seq (fa_crypt a) < two64 ->
  fp_create P lib a fs = Done (inl c, fs') ->
  (c = kInvalidArgument /\ ~ (fa_allocator a = true /\ fa_destroy a = true /\ fa_logger a = true /\
     ca_url (fa_crypt a) <> [] /\ ca_tls (fa_crypt a) = TLS1_3 /\
     lenN (ca_in_secret (fa_crypt a)) = spec_hash_len (ca_suite (fa_crypt a)) /\
     lenN (ca_out_secret (fa_crypt a)) = spec_hash_len (ca_suite (fa_crypt a)))) \/ (c = kInternal /\ fs <> []).
Proof.
  intros P lib a fs c fs' HP Hi Ho E. unfold fp_create in E.
  destruct (fa_allocator a) eqn:Ea; cbn [negb orb] in E; [|injection E as <- _; left; split; [reflexivity|]; intros (A & _); discriminate A].
  destruct (fa_destroy a) eqn:Ed; cbn [negb orb] in E; [|injection E as <- _; left; split; [reflexivity|]; intros (_ & A & _); discriminate A].
  destruct (fa_logger a) eqn:El; cbn [negb orb] in E; [|injection E as <- _; left; split; [reflexivity|]; intros (_ & _ & A & _); discriminate A].
  unfold bind in E. destruct (crypt_create P lib _ fs) as [[[c1|x] f1]|u|] eqn:E1; try discriminate.
  - injection E as <- _. match type of E1 with crypt_create _ _ ?a0 _ = _ => destruct (D90crypt P lib a0 fs c1 f1 HP Hi Ho E1) as [[-> V]|K] end; [left|right; exact K]. split; [reflexivity|].
    intros (_ & _ & _ & A4 & A5 & A6 & A7). apply V. unfold crypt_valid. cbn [ca_url ca_logger ca_sender ca_tls ca_in_secret ca_out_secret ca_suite]. auto 10.
  - exfalso. revert E. unfold lift. destruct (record_overhead x); unfold ret; discriminate.
Qed.

Lemma D90outbound : forall P lib a ops rs x fs x' st, connection P lib a ops rs x ->
  cstep P lib x CUpdateKey fs = Done (x', CUpdated st) -> st = kOk \/ (st = kInternal /\ fs <> []).
Proof.
  intros P lib a ops rs x fs x' st (HP & Hi & Ho & Hok & Hr) E. destruct (creach_winv _ _ _ _ _ _ HP Hi Ho Hok Hr) as (W & _).
  cbn [cstep] in E. unfold crypt_update_outbound_key, bind in E.
  destruct (half_update_key P lib (cx_out x) fs) as [[[h1 s1] f1]|u|] eqn:Eu; try discriminate. injection E as _ <-.
  exact (update_code _ _ _ _ _ _ _ _ HP (cw_out _ _ _ _ W) Eu).
Qed.

Lemma D90aes : forall key fs c fs', create_aes_gcm key fs = Done (inl c, fs') ->
  (c = kFailedPrecondition /\ lenN key <> 16 /\ lenN key <> 32) \/ (c = kInternal /\ (lenN key = 16 \/ lenN key = 32) /\ fs <> []).
Proof.
  intros key fs c fs' E. unfold create_aes_gcm, kAes128GcmKeySize, kAes256GcmKeySize in E.
  destruct (N.eqb_spec (lenN key) 16) as [L|L]; [right|destruct (N.eqb_spec (lenN key) 32) as [L2|L2]; [right|left]].
  3:{ unfold ret in E. injection E as <- _. auto. }
  all: cbv zeta in E; unfold bind, ssl in E; destruct fs as [|[] fs1]; cbn [negb] in E; try discriminate;
    try (injection E as <- _; split; [reflexivity|split; [auto|discriminate]]).
  all: destruct fs1 as [|[] fs1]; cbn [negb] in E; try discriminate; injection E as <- _; split; [reflexivity|split; [auto|discriminate]].
Qed.

Lemma D90chacha : forall lib key fs c fs', create_chacha_poly lib key fs = Done (inl c, fs') ->
  (c = kInvalidArgument /\ lenN key <> 32) \/ (c = kInternal /\ lenN key = 32 /\ fs <> []).
Proof.
  intros lib key fs c fs' E. unfold create_chacha_poly, kChachaPolyKeySize in E.
  destruct (N.eqb_spec (lenN key) 32) as [L|L]; cbn [negb] in E; [right|left].
  2:{ unfold ret in E. injection E as <- _. auto. }
  destruct lib; unfold bind, ssl in E; destruct fs as [|[] fs1]; cbn [negb] in E; try discriminate;
    try (injection E as <- _; split; [reflexivity|split; [auto|discriminate]]).
  destruct fs1 as [|[] fs1]; cbn [negb] in E; try discriminate; injection E as <- _; split; [reflexivity|split; [auto|discriminate]].
Qed.

Lemma update_fails : forall P lib a ops rs x, connection P lib a ops rs x -> exists x', cstep P lib x CUpdateKey [true] = Done (x', CUpdated kInternal).
Proof.
  intros P lib a ops rs x (HP & Hi & Ho & Hok & Hr). destruct (creach_winv _ _ _ _ _ _ HP Hi Ho Hok Hr) as (W & _).
  pose proof (cw_out _ _ _ _ W) as R. destruct (half_update_spec P lib (cx_out x) _ [true] HP R) as (h' & st & fs' & E & _).
  destruct (update_code _ _ _ _ _ _ _ _ HP R E) as [-> | [-> _]].
  2:{ exists (set_out x h'). cbn [cstep]. unfold crypt_update_outbound_key, bind. rewrite E. reflexivity. }
  exfalso. unfold half_update_key, advance_secret, hkdf_derive_secret in E.
  pose proof (hr_secret_len _ _ _ R) as L. rewrite <- (hr_suite _ _ _ R) in L.
  rewrite suite_hash_spec, digest_hash_len, L, N.ltb_irrefl in E.
  replace (wrap64 (spec_hash_len (hc_suite (cx_out x)) + spec_hash_len (hc_suite (cx_out x))) <? spec_hash_len (hc_suite (cx_out x))) with false in E
    by (destruct (hc_suite (cx_out x)); reflexivity).
  replace (255 <? sub64 (wrap64 (spec_hash_len (hc_suite (cx_out x)) + spec_hash_len (hc_suite (cx_out x)))) 1 / spec_hash_len (hc_suite (cx_out x))) with false in E
    by (destruct (hc_suite (cx_out x)); reflexivity).
  cbn [orb] in E. unfold bind, ssl in E. cbn [negb] in E. unfold ret in E. cbn [is_ok negb] in E. discriminate E.
Qed.
