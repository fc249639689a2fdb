(* Proofs for C94. *)
From Coq Require Import List NArith ZArith Bool Lia ZifyBool ZifyNat ZifyN.
From Verif Require Import Base BaseProofs Aead Hkdf HalfConn SpecAead SpecTls HkdfProofs HalfProofs Options HsHandler Crypter SpecRecord CrypterProofs
  SpecRx CrypterRun CrypterRunProofs FrameProt SpecFrame FrameRun FrameSim CreateCodes HalfRunProofs NoMem.
Import ListNotations.
Local Open Scope N_scope.
Ltac Zify.zify_post_hook ::= Z.div_mod_to_equations.

(* [m'] does what [m] does for some choice of library failures, or
   dereferences a null pointer after a library failure. *)
Definition thin {A} (m' m : M A) : Prop := forall fs,
  (m' fs = Undef UbNullDeref /\ In true fs) \/
  (exists a p q r, m' fs = Done (a, r) /\ fs = p ++ r /\ forall t, m (q ++ t) = Done (a, t)) \/
  (exists u q, m' fs = Undef u /\ forall t, m (q ++ t) = Undef u) \/
  (exists q, m' fs = NoFuel /\ forall t, m (q ++ t) = NoFuel).

Lemma thin_bind : forall A B (m' m : M A) (k' k : A -> M B), thin m' m -> (forall a, thin (k' a) (k a)) -> thin (bind m' k') (bind m k).
Proof.
  intros A B m' m k' k Hm Hk fs. unfold bind.
  destruct (Hm fs) as [[E I]|[(a & p & q & r & E & F & G)|[(u & q & E & G)|(q & E & G)]]]; rewrite E.
  - auto.
  - destruct (Hk a r) as [[E2 I]|[(b & p2 & q2 & r2 & E2 & F2 & G2)|[(u & q2 & E2 & G2)|(q2 & E2 & G2)]]].
    + left. split; [exact E2|]. subst fs. apply in_or_app. auto.
    + right. left. exists b, (p ++ p2), (q ++ q2), r2. split; [exact E2|]. split; [subst; apply app_assoc|].
      intros t. rewrite <- app_assoc, G. apply G2.
    + right. right. left. exists u, (q ++ q2). split; [exact E2|]. intros t. rewrite <- app_assoc, G. apply G2.
    + right. right. right. exists (q ++ q2). split; [exact E2|]. intros t. rewrite <- app_assoc, G. apply G2.
  - right. right. left. exists u, q. split; [reflexivity|]. intros t. rewrite G. reflexivity.
  - right. right. right. exists q. split; [reflexivity|]. intros t. rewrite G. reflexivity.
Qed.
Lemma thin_ret : forall A (a : A), thin (ret a) (ret a).
Proof. intros A a fs. right. left. exists a, [], [], fs. split; [reflexivity|]. split; reflexivity. Qed.
Lemma thin_lift : forall A (o : outcome A), thin (lift o) (lift o).
Proof.
  intros A [a|u|] fs; [apply (thin_ret _ a)|right; right; left; exists u, []|right; right; right; exists []]; split; reflexivity.
Qed.
Lemma thin_ssl : thin ssl ssl.
Proof.
  intros [|b fs]; right; left.
  - exists true, [], [false], []. split; [reflexivity|]. split; reflexivity.
  - exists (negb b), [b], [b], fs. split; [reflexivity|]. split; reflexivity.
Qed.
(* The unchecked allocation. *)
Lemma thin_alloc : forall A (m : M A), thin m m -> thin (bind ssl (fun ok => if negb ok then undef UbNullDeref else m)) m.
Proof.
  intros A m Hm [|[|] fs].
  - destruct (Hm []) as [[_ []]|H]. right. exact H.
  - left. split; [reflexivity|left; reflexivity].
  - unfold bind. cbn [ssl negb]. destruct (Hm fs) as [[E I]|[(a & p & q & r & E & F & G)|H]].
    + left. split; [exact E|right; exact I].
    + right. left. exists a, (false :: p), q, r. split; [exact E|]. split; [subst; reflexivity|exact G].
    + right. right. exact H.
Qed.

Create HintDb thin.
#[export] Hint Resolve thin_ret thin_lift thin_ssl thin_alloc : thin.
Ltac thin_step :=
  match goal with
  | |- forall _, _ => intro
  | |- thin (bind _ _) (bind _ _) => apply thin_bind
  | |- thin (match ?x with _ => _ end) _ => destruct x
  | |- thin _ _ => solve [eauto with thin]
  end.
Ltac thin_tac := repeat (cbv beta zeta; thin_step).

Lemma thin_restart : forall c i b, thin (hkdf_restart c i b) (hkdf_restart c i b).
Proof. unfold hkdf_restart. thin_tac. Qed.
Lemma thin_block : forall P h c info i, thin (hkdf_block P h c info i) (hkdf_block P h c info i).
Proof. unfold hkdf_block. thin_tac. Qed.
#[export] Hint Resolve thin_restart thin_block : thin.
Lemma thin_loop : forall P h info k c i b d out, thin (hkdf_loop P h c info i k b d out) (hkdf_loop P h c info i k b d out).
Proof. intros P h info. induction k; intros; cbn [hkdf_loop]; thin_tac. Qed.
#[export] Hint Resolve thin_loop : thin.
Lemma thin_derive : forall P h prk info out, thin (hkdf_derive_secret P h prk info out) (hkdf_derive_secret P h prk info out).
Proof. intros. unfold hkdf_derive_secret, hkdf_derivation. thin_tac. Qed.
#[export] Hint Resolve thin_derive : thin.
Lemma thin_advance : forall P s S, thin (advance_secret P s S) (advance_secret P s S).
Proof. intros. unfold advance_secret. thin_tac. Qed.
Lemma thin_key : forall P s S o, thin (derive_key P s S o) (derive_key P s S o).
Proof. intros. unfold derive_key, derive_secret. thin_tac. Qed.
Lemma thin_nonce : forall P s S o, thin (derive_nonce P s S o) (derive_nonce P s S o).
Proof. intros. unfold derive_nonce, derive_secret. thin_tac. Qed.
#[export] Hint Resolve thin_advance thin_key thin_nonce : thin.

Lemma aes_self : forall key, thin (create_aes_gcm key) (create_aes_gcm key).
Proof. intros. unfold create_aes_gcm. thin_tac. Qed.
Lemma chacha_self : forall lib key, thin (create_chacha_poly lib key) (create_chacha_poly lib key).
Proof. intros. unfold create_chacha_poly. thin_tac. Qed.
Lemma thin_create : forall lib s key, thin (nm_create_crypter lib s key) (create_crypter lib s key).
Proof.
  assert (A : forall key, thin (nm_create_aes_gcm key) (create_aes_gcm key)).
  { intros key. unfold nm_create_aes_gcm. destruct (_ || _) eqn:E; [apply thin_alloc, aes_self|].
    apply orb_false_elim in E. destruct E as [E1 E2]. unfold create_aes_gcm. rewrite E1, E2. apply thin_ret. }
  intros lib s key. unfold nm_create_crypter, create_crypter. destruct s; [apply A|apply A|].
  unfold nm_create_chacha_poly. destruct lib; [|apply chacha_self]. destruct (lenN key =? kChachaPolyKeySize) eqn:E; cbn [negb].
  - apply thin_alloc, chacha_self.
  - unfold create_chacha_poly. rewrite E. apply thin_ret.
Qed.
#[export] Hint Resolve thin_create : thin.
Lemma thin_half : forall P lib s q S, thin (nm_half_create P lib s q S) (half_create P lib s q S).
Proof. intros. unfold nm_half_create, half_create. thin_tac. Qed.
Lemma thin_update : forall P lib h, thin (nm_half_update_key P lib h) (half_update_key P lib h).
Proof. intros. unfold nm_half_update_key, half_update_key. thin_tac. Qed.
#[export] Hint Resolve thin_half thin_update : thin.
Lemma thin_crypt : forall P lib a, thin (nm_crypt_create P lib a) (crypt_create P lib a).
Proof. intros. unfold nm_crypt_create, crypt_create. thin_tac. Qed.
#[export] Hint Resolve thin_crypt : thin.
Lemma thin_fp : forall P lib a, thin (nm_fp_create P lib a) (fp_create P lib a).
Proof. intros. unfold nm_fp_create, fp_create. thin_tac. Qed.
Lemma thin_outbound : forall P lib x, thin (nm_update_outbound_key P lib x) (crypt_update_outbound_key P lib x).
Proof. intros. unfold nm_update_outbound_key, crypt_update_outbound_key. thin_tac. Qed.

Lemma fp_create_done : forall P lib a fs, prims_ok P -> ca_in_seq (fa_crypt a) < two64 -> ca_out_seq (fa_crypt a) < two64 ->
  exists r fs', fp_create P lib a fs = Done (r, fs').
Proof.
  intros P lib a fs HP Hi Ho. unfold fp_create. destruct (_ || _) eqn:Eb; [do 2 eexists; reflexivity|]. cbv zeta.
  apply orb_false_elim in Eb. destruct Eb as [_ El]. apply negb_false_iff in El.
  match goal with |- context [crypt_create P lib ?c] => replace c with (c_args a) by (unfold c_args; rewrite El; reflexivity) end.
  destruct (crypt_create_spec P lib (c_args a) fs HP Hi Ho) as (r & fs1 & E1 & _ & H2 & _).
  unfold bind at 1. rewrite E1. destruct r as [st|x]; [do 2 eexists; reflexivity|].
  destruct (create_winv P lib (c_args a) fs fs1 x HP Hi Ho E1) as [W _].
  destruct (cw_in _ _ _ _ W) as (din & Ri & _).
  unfold bind, lift. rewrite (record_overhead_spec _ _ _ Ri). do 2 eexists. reflexivity.
Qed.
Lemma M94create : forall P lib a fs, prims_ok P -> ca_in_seq (fa_crypt a) < two64 -> ca_out_seq (fa_crypt a) < two64 ->
  (nm_fp_create P lib a fs = Undef UbNullDeref /\ In true fs) \/
  exists r fs' gs, nm_fp_create P lib a fs = Done (r, fs') /\ fp_create P lib a gs = Done (r, fs').
Proof.
  intros P lib a fs HP Hi Ho.
  destruct (thin_fp P lib a fs) as [H|[(r & p & q & t & E & _ & G)|[(u & q & _ & G)|(q & _ & G)]]]; [auto| | |].
  - right. exists r, t, (q ++ t). auto.
  - specialize (G []). destruct (fp_create_done P lib a (q ++ []) HP Hi Ho) as (r & fs' & E). rewrite E in G. discriminate G.
  - specialize (G []). destruct (fp_create_done P lib a (q ++ []) HP Hi Ho) as (r & fs' & E). rewrite E in G. discriminate G.
Qed.
Lemma M94update : forall P lib a ops rs x fs, connection P lib a ops rs x ->
  (nm_update_outbound_key P lib x fs = Undef UbNullDeref /\ In true fs) \/
  exists r fs' gs, nm_update_outbound_key P lib x fs = Done (r, fs') /\ crypt_update_outbound_key P lib x gs = Done (r, fs').
Proof.
  intros P lib a ops rs x fs (HP & Hi & Ho & Hok & HR).
  destruct (creach_winv P lib a ops rs x HP Hi Ho Hok HR) as [W _]. pose proof (cw_out _ _ _ _ W) as Ro.
  assert (D : forall gs, exists r fs', crypt_update_outbound_key P lib x gs = Done (r, fs')).
  { intros gs. unfold crypt_update_outbound_key, bind. destruct (half_update_spec P lib _ _ gs HP Ro) as (h' & st & fs' & E & _). rewrite E. do 2 eexists. reflexivity. }
  destruct (thin_outbound P lib x fs) as [H|[(r & p & q & t & E & _ & G)|[(u & q & _ & G)|(q & _ & G)]]]; [auto| | |].
  - right. exists r, t, (q ++ t). auto.
  - specialize (G []). destruct (D (q ++ [])) as (r & fs' & E). rewrite E in G. discriminate G.
  - specialize (G []). destruct (D (q ++ [])) as (r & fs' & E). rewrite E in G. discriminate G.
Qed.

(* The one implementation that checks. *)
Lemma M94checked : forall P a fs, ca_suite (fa_crypt a) = CHACHA20_POLY1305_SHA256 -> nm_fp_create P BoringSSL a fs = fp_create P BoringSSL a fs.
Proof. intros P [al de lo [tls su cid url id si so qi qo sn ch lg]] fs H. cbn [fa_crypt ca_suite] in H. subst su. reflexivity. Qed.
Lemma M94checked_update : forall P x fs, hc_suite (cx_out x) = CHACHA20_POLY1305_SHA256 ->
  nm_update_outbound_key P BoringSSL x fs = crypt_update_outbound_key P BoringSSL x fs.
Proof.
  intros P x fs H. unfold nm_update_outbound_key, crypt_update_outbound_key, bind.
  replace (nm_half_update_key P BoringSSL (cx_out x) fs) with (half_update_key P BoringSSL (cx_out x) fs); [reflexivity|].
  unfold half_update_key, nm_half_update_key. rewrite H. reflexivity.
Qed.

(* One block of HKDF: five library calls. *)
Lemma one_block : forall P h prk info out fs, prims_ok P -> digest_size h <= lenN (prk out) -> 0 < lenN out <= digest_size h ->
  exists o, hkdf_derive_secret P h prk info out (repeat false 5 ++ fs) = Done ((kOk, o), fs).
Proof.
  intros P h prk info out fs HP Hp Ho. pose proof (digest_size_pos h) as Hd. unfold hkdf_derive_secret.
  destruct (N.ltb_spec (lenN (prk out)) (digest_size h)); [lia|].
  rewrite wrap64_small by (unfold two64; lia).
  assert (Hs : sub64 (lenN out + digest_size h) 1 = lenN out + digest_size h - 1).
  { unfold sub64. replace (lenN out + digest_size h + two64 - 1) with ((lenN out + digest_size h - 1) + 1 * two64) by (unfold two64; lia).
    rewrite N.mod_add by (unfold two64; lia). apply N.mod_small. unfold two64. lia. }
  rewrite Hs. replace ((lenN out + digest_size h - 1) / digest_size h) with 1.
  2:{ apply (N.div_unique _ _ 1 (lenN out - 1)); lia. }
  destruct (N.ltb_spec (lenN out + digest_size h) (lenN out)); [lia|]. change (255 <? 1) with false. cbn [orb].
  unfold hkdf_derivation. change (N.to_nat 1) with 1%nat. cbn [hkdf_loop]. unfold hkdf_restart, hkdf_block, bind, ssl, ret.
  cbn [repeat app negb N.eqb]. eexists. reflexivity.
Qed.
Lemma repeat_5_5 : forall fs, repeat false 10 ++ fs = repeat false 5 ++ repeat false 5 ++ fs.
Proof. reflexivity. Qed.
Lemma repeat_5_10 : forall fs, repeat false 15 ++ fs = repeat false 5 ++ repeat false 5 ++ repeat false 5 ++ fs.
Proof. reflexivity. Qed.

(* The implementations that do not check. *)
Definition unchecked (lib : ssl_lib) (s : suite) : Prop := lib = OpenSSL \/ s <> CHACHA20_POLY1305_SHA256.
Lemma null_context : forall lib s key fs, unchecked lib s -> lenN key = spec_key_len s -> nm_create_crypter lib s key (true :: fs) = Undef UbNullDeref.
Proof.
  intros lib s key fs U L. unfold nm_create_crypter. destruct s; unfold nm_create_aes_gcm, nm_create_chacha_poly; try (rewrite L; reflexivity).
  destruct U as [-> | U]; [rewrite L; reflexivity|contradiction U; reflexivity].
Qed.
Lemma key_5 : forall P s S o fs, prims_ok P -> lenN S = spec_hash_len s -> lenN o = spec_key_len s ->
  exists k, derive_key P s S o (repeat false 5 ++ fs) = Done ((kOk, k), fs) /\ lenN k = spec_key_len s.
Proof.
  intros P s S o fs HP L Lo.
  destruct (one_block P (suite_hash s) (fun _ => S) (size_be16 (lenN o) ++ key_suffix) o fs HP) as (k & E).
  - rewrite L. destruct s; vm_compute; discriminate.
  - rewrite Lo. destruct s; vm_compute; split; congruence.
  - exists k. split; [exact E|]. destruct (derive_key_spec P s S o (repeat false 5 ++ fs) HP L Lo) as (st & k' & f & E' & Lk & _).
    pose proof (eq_trans (eq_sym E) E') as Q. inversion Q; subst. exact Lk.
Qed.
Lemma nonce_5 : forall P s S o fs, prims_ok P -> lenN S = spec_hash_len s -> lenN o = 12 ->
  exists k, derive_nonce P s S o (repeat false 5 ++ fs) = Done ((kOk, k), fs).
Proof.
  intros P s S o fs HP L Lo.
  destruct (one_block P (suite_hash s) (fun _ => S) (size_be16 (lenN o) ++ nonce_suffix) o fs HP) as (k & E).
  - rewrite L. destruct s; vm_compute; discriminate.
  - rewrite Lo. destruct s; vm_compute; split; congruence.
  - exists k. exact E.
Qed.
Lemma advance_5 : forall P s S fs, prims_ok P -> lenN S = spec_hash_len s ->
  exists k, advance_secret P s S (repeat false 5 ++ fs) = Done ((kOk, k), fs) /\ lenN k = spec_hash_len s.
Proof.
  intros P s S fs HP L.
  destruct (one_block P (suite_hash s) (fun out => out) (size_be16 (lenN S) ++ upd_suffix) S fs HP) as (k & E).
  - rewrite L. destruct s; vm_compute; discriminate.
  - rewrite L. destruct s; vm_compute; split; congruence.
  - exists k. split; [exact E|]. destruct (advance_secret_spec P s S (repeat false 5 ++ fs) HP L) as (st & k' & f & E' & Lk & _).
    pose proof (eq_trans (eq_sym E) E') as Q. inversion Q; subst. congruence.
Qed.

Lemma M94null : forall P lib a fs, prims_ok P -> unchecked lib (ca_suite (fa_crypt a)) ->
  fa_allocator a = true -> fa_destroy a = true -> fa_logger a = true -> ca_url (fa_crypt a) <> [] -> ca_tls (fa_crypt a) = TLS1_3 ->
  lenN (ca_in_secret (fa_crypt a)) = spec_hash_len (ca_suite (fa_crypt a)) ->
  nm_fp_create P lib a (repeat false 10 ++ true :: fs) = Undef UbNullDeref.
Proof.
  intros P lib a fs HP U E1 E2 E3 Eu Et L. unfold nm_fp_create. rewrite E1, E2, E3. cbn [negb orb]. cbv zeta.
  unfold nm_crypt_create. cbn [ca_url ca_logger ca_sender ca_tls ca_suite ca_in_seq ca_in_secret negb].
  destruct (N.eqb_spec (lenN (ca_url (fa_crypt a))) 0) as [Z|Z]; [apply lenN_0 in Z; contradiction|]. rewrite Et.
  unfold bind at 1. unfold bind at 1. unfold nm_half_create at 1. rewrite suite_secret_spec, L, N.eqb_refl. cbn [negb].
  rewrite repeat_5_5.
  destruct (key_5 P (ca_suite (fa_crypt a)) (ca_in_secret (fa_crypt a)) (zeros (suite_key_size (ca_suite (fa_crypt a)))) (repeat false 5 ++ true :: fs) HP L) as (k & Ek & Lk).
  { rewrite lenN_zeros. apply suite_key_spec. }
  rewrite (bind_done _ _ _ _ _ _ _ Ek). change (is_ok kOk) with true. cbn [negb].
  destruct (nonce_5 P (ca_suite (fa_crypt a)) (ca_in_secret (fa_crypt a)) (zeros (suite_nonce_size (ca_suite (fa_crypt a)))) (true :: fs) HP L) as (n & En).
  { apply lenN_zeros. }
  rewrite (bind_done _ _ _ _ _ _ _ En). change (is_ok kOk) with true. cbn [negb].
  unfold bind at 1. rewrite (null_context _ _ _ _ U Lk). reflexivity.
Qed.
Lemma M94null_update : forall P lib a ops rs x fs, connection P lib a ops rs x -> unchecked lib (ca_suite a) ->
  nm_update_outbound_key P lib x (repeat false 15 ++ true :: fs) = Undef UbNullDeref.
Proof.
  intros P lib a ops rs x fs (HP & Hi & Ho & Hok & HR) U.
  destruct (creach_winv P lib a ops rs x HP Hi Ho Hok HR) as [W _]. pose proof (cw_out _ _ _ _ W) as Ro.
  assert (Es : hc_suite (cx_out x) = ca_suite a).
  { rewrite (hr_suite _ _ _ Ro). destruct (cw_out_used _ _ _ _ W) as [Hs _]. exact Hs. }
  pose proof (hr_secret_len _ _ _ Ro) as L. pose proof (hr_nonce_len _ _ _ Ro) as Ln. pose proof (hr_key_size _ _ _ Ro) as Lk. 
  rewrite <- (hr_suite _ _ _ Ro), Es in L, Lk.
  unfold nm_update_outbound_key, bind at 1. unfold nm_half_update_key. rewrite Es, repeat_5_10.
  destruct (advance_5 P (ca_suite a) (hc_secret (cx_out x)) (repeat false 5 ++ repeat false 5 ++ true :: fs) HP L) as (S' & E1 & L1).
  rewrite (bind_done _ _ _ _ _ _ _ E1). change (is_ok kOk) with true. cbn [negb].
  destruct (key_5 P (ca_suite a) S' (zeros (hc_key_size (cx_out x))) (repeat false 5 ++ true :: fs) HP L1) as (k & E2 & L2).
  { rewrite lenN_zeros. exact Lk. }
  rewrite (bind_done _ _ _ _ _ _ _ E2). change (is_ok kOk) with true. cbn [negb].
  destruct (nonce_5 P (ca_suite a) S' (hc_nonce (cx_out x)) (true :: fs) HP L1 Ln) as (n & E3).
  rewrite (bind_done _ _ _ _ _ _ _ E3). change (is_ok kOk) with true. cbn [negb].
  unfold bind at 1. rewrite (null_context _ _ _ _ U L2). reflexivity.
Qed.
