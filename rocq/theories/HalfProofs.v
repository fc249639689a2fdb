(* Lemmas about HalfConn.v: the half connection refines [dir] of SpecTls.v. *)
From Coq Require Import String List Arith NArith ZArith Bool Lia ZifyBool ZifyNat ZifyN.
From Verif Require Import Base BaseProofs Aead AeadProofs Hkdf HkdfProofs
  HalfConn SpecAead SpecTls.
Import ListNotations.
Local Open Scope N_scope.

(* ------------------------------------------------------------------ *)
(* Labels *)

Lemma upd_label : forall n, n < 65536 ->
  size_be16 n ++ upd_suffix = hkdf_label n "traffic upd" [].
Proof.
  intros n Hn. unfold size_be16, hkdf_label. cbn [be_bytes app].
  reflexivity.
Qed.

Lemma key_label : forall n, n < 65536 ->
  size_be16 n ++ key_suffix = hkdf_label n "key" [].
Proof. intros n Hn. reflexivity. Qed.

Lemma iv_label : forall n, n < 65536 ->
  size_be16 n ++ nonce_suffix = hkdf_label n "iv" [].
Proof. intros n Hn. reflexivity. Qed.

Lemma suite_hash_spec : forall s, suite_hash s = spec_hash s.
Proof. intros []; reflexivity. Qed.
Lemma suite_secret_spec : forall s, suite_secret_size s = spec_hash_len s.
Proof. intros []; reflexivity. Qed.
Lemma suite_key_spec : forall s, suite_key_size s = spec_key_len s.
Proof. intros []; reflexivity. Qed.
Lemma digest_hash_len : forall s, digest_size (spec_hash s) = spec_hash_len s.
Proof. intros []; reflexivity. Qed.
Lemma spec_key_len_bound : forall s, 16 <= spec_key_len s <= 32.
Proof. intros []; cbn; lia. Qed.
Lemma spec_hash_len_bound : forall s, 32 <= spec_hash_len s <= 48.
Proof. intros []; cbn; lia. Qed.

Lemma advance_secret_spec : forall P s secret fs,
  prims_ok P -> lenN secret = spec_hash_len s ->
  exists st secret' fs',
    advance_secret P s secret fs = Done ((st, secret'), fs') /\
    lenN secret' = lenN secret /\
    (st = kOk -> secret' = next_secret P s secret) /\
    (fs = [] -> st = kOk /\ fs' = []).
Proof.
  intros P s secret fs HP Hl. unfold advance_secret.
  pose proof (spec_hash_len_bound s) as Hb.
  rewrite suite_hash_spec, upd_label by lia.
  destruct (hkdf_derive_secret_spec P (spec_hash s) (fun out => out)
    (hkdf_label (lenN secret) "traffic upd" []) secret fs HP)
    as (st & out' & fs' & H1 & H2 & H3 & _ & _ & _ & H7).
  { rewrite digest_hash_len; unfold two64; lia. }
  exists st, out', fs'. split; [exact H1|]. split; [exact H2|].
  rewrite digest_hash_len in *.
  split.
  - intros Hok. destruct (H3 Hok) as (_ & _ & ->).
    unfold next_secret, expand_label. rewrite Hl; reflexivity.
  - intros E; apply H7; lia || exact E.
Qed.

Lemma derive_key_spec : forall P s secret out fs,
  prims_ok P -> lenN secret = spec_hash_len s -> lenN out = spec_key_len s ->
  exists st key fs',
    derive_key P s secret out fs = Done ((st, key), fs') /\
    lenN key = spec_key_len s /\
    (st = kOk -> key = traffic_key P s secret) /\
    (fs = [] -> st = kOk /\ fs' = []).
Proof.
  intros P s secret out fs HP Hl Ho. unfold derive_key, derive_secret.
  pose proof (spec_hash_len_bound s) as Hb. pose proof (spec_key_len_bound s) as Hk.
  rewrite suite_hash_spec, key_label by lia.
  destruct (hkdf_derive_secret_spec P (spec_hash s) (fun _ => secret)
    (hkdf_label (lenN out) "key" []) out fs HP)
    as (st & out' & fs' & H1 & H2 & H3 & _ & _ & _ & H7).
  { rewrite digest_hash_len; unfold two64; lia. }
  exists st, out', fs'. split; [exact H1|]. split; [congruence|].
  rewrite digest_hash_len in *.
  split.
  - intros Hok. destruct (H3 Hok) as (_ & _ & ->).
    unfold traffic_key, expand_label. rewrite Ho; reflexivity.
  - intros E; apply H7; lia || exact E.
Qed.

Lemma derive_nonce_spec : forall P s secret out fs,
  prims_ok P -> lenN secret = spec_hash_len s -> lenN out = 12 ->
  exists st iv fs',
    derive_nonce P s secret out fs = Done ((st, iv), fs') /\
    lenN iv = 12 /\
    (st = kOk -> iv = traffic_iv P s secret) /\
    (fs = [] -> st = kOk /\ fs' = []).
Proof.
  intros P s secret out fs HP Hl Ho. unfold derive_nonce, derive_secret.
  pose proof (spec_hash_len_bound s) as Hb.
  rewrite suite_hash_spec, iv_label by lia.
  destruct (hkdf_derive_secret_spec P (spec_hash s) (fun _ => secret)
    (hkdf_label (lenN out) "iv" []) out fs HP)
    as (st & out' & fs' & H1 & H2 & H3 & _ & _ & _ & H7).
  { rewrite digest_hash_len; unfold two64; lia. }
  exists st, out', fs'. split; [exact H1|]. split; [congruence|].
  rewrite digest_hash_len in *.
  split.
  - intros Hok. destruct (H3 Hok) as (_ & _ & ->).
    unfold traffic_iv, expand_label. rewrite Ho; reflexivity.
  - intros E; apply H7; lia || exact E.
Qed.

Lemma create_crypter_spec : forall lib s key fs, lenN key = spec_key_len s ->
  exists r fs', create_crypter lib s key fs = Done (r, fs') /\
    (r = inl kInternal \/
     exists c, r = inr c /\ crypter_ok c /\ crypter_key c = key /\
               cr_alg c = spec_alg s) /\
    (fs = [] -> fs' = [] /\ exists c, r = inr c).
Proof.
  intros lib s key fs Hk. unfold create_crypter.
  assert (Hgen : forall c, crypter_ok c -> crypter_key c = key -> cr_alg c = spec_alg s ->
    exists r fs',
      (ok <- ssl ;; if negb ok then ret (inl kInternal) else
       ok <- ssl ;; if negb ok then ret (inl kInternal) else ret (inr c)) fs
        = Done (r, fs') /\
      (r = inl kInternal \/
       exists c, r = inr c /\ crypter_ok c /\ crypter_key c = key /\
                 cr_alg c = spec_alg s) /\
      (fs = [] -> fs' = [] /\ exists c, r = inr c)).
  { intros c H1 H2 H3. step_ssl b1 fs1. destruct b1; cbn [negb].
    2:{ do 2 eexists; split; [reflexivity|]. split; [auto|].
        intros E; destruct (Hnil E); discriminate. }
    step_ssl b2 fs2. destruct b2; cbn [negb].
    2:{ do 2 eexists; split; [reflexivity|]. split; [auto|].
        intros E; destruct (Hnil E) as [_ E1]; destruct (Hnil0 E1); discriminate. }
    do 2 eexists; split; [reflexivity|]. split; [right; eauto 6|].
    intros E; destruct (Hnil E) as [_ E1]; destruct (Hnil0 E1) as [_ E2].
    split; [exact E2|eauto]. }
  destruct s; cbn [spec_key_len spec_alg] in *.
  - unfold create_aes_gcm; rewrite Hk. cbn [N.eqb kAes128GcmKeySize Pos.eqb].
    apply Hgen; [split; reflexivity| reflexivity | reflexivity].
  - unfold create_aes_gcm; rewrite Hk.
    change (32 =? kAes128GcmKeySize) with false. change (32 =? kAes256GcmKeySize) with true.
    apply Hgen; [split; reflexivity| reflexivity | reflexivity].
  - unfold create_chacha_poly; rewrite Hk. change (32 =? kChachaPolyKeySize) with true.
    cbn [negb]. destruct lib.
    + apply Hgen; [split; reflexivity| reflexivity | reflexivity].
    + step_ssl b1 fs1. destruct b1; cbn [negb].
      2:{ do 2 eexists; split; [reflexivity|]. split; [auto|].
          intros E; destruct (Hnil E); discriminate. }
      do 2 eexists; split; [reflexivity|]. split.
      * right; eexists; split; [reflexivity|]. split; [split; reflexivity|]. split; reflexivity.
      * intros E; destruct (Hnil E) as [_ E1]. split; [exact E1|eauto].
Qed.

(* ------------------------------------------------------------------ *)
(* The refinement relation *)

Record half_rel (P : prims) (h : half) (d : dir) : Prop := {
  hr_suite : hc_suite h = d_suite d;
  hr_key_size : hc_key_size h = spec_key_len (d_suite d);
  hr_secret_len : lenN (hc_secret h) = spec_hash_len (d_suite d);
  hr_nonce_len : lenN (hc_nonce h) = 12;
  hr_fail : hc_always_fail h = d_broken d;
  hr_seq_le : d_seq d <= two64;
  hr_seq : hc_seq h = d_seq d mod two64;
  hr_over : hc_overflowed h = (d_seq d =? two64);
  hr_aead : exists c, hc_aead h = Some c /\ crypter_ok c /\
    (d_broken d = false ->
       crypter_key c = traffic_key P (d_suite d) (d_secret d) /\
       cr_alg c = spec_alg (d_suite d));
  hr_keys : d_broken d = false ->
    hc_secret h = d_secret d /\ hc_nonce h = traffic_iv P (d_suite d) (d_secret d)
}.

Lemma half_create_spec : forall P lib s sequence secret fs,
  prims_ok P -> sequence < two64 ->
  exists r fs', half_create P lib s sequence secret fs = Done (r, fs') /\
    (forall h, r = inr h ->
       half_rel P h (dir_start s secret sequence) /\
       hc_epoch h = 0 /\ hc_used h = [] /\ lenN secret = spec_hash_len s) /\
    (lenN secret <> spec_hash_len s -> r = inl kInvalidArgument /\ fs' = fs) /\
    (forall c, r = inl c -> c <> kOk) /\
    (lenN secret = spec_hash_len s -> fs = [] -> fs' = [] /\ exists h, r = inr h).
Proof.
  intros P lib s sequence secret fs HP Hseq. unfold half_create.
  rewrite suite_secret_spec, suite_key_spec.
  destruct (N.eqb_spec (lenN secret) (spec_hash_len s)) as [El|El]; cbn [negb].
  2:{ do 2 eexists; split; [reflexivity|]. split; [discriminate|]. split; [auto|].
      split; [|tauto]. intros c E; inversion E; discriminate. }
  destruct (derive_key_spec P s secret (zeros (spec_key_len s)) fs HP El)
    as (st1 & key & fs1 & E1 & L1 & K1 & N1); [apply lenN_zeros|].
  rewrite (bind_done _ _ _ _ _ _ _ E1).
  destruct (is_ok st1) eqn:O1; cbn [negb].
  2:{ apply is_ok_false in O1.
      do 2 eexists; split; [reflexivity|]. split; [discriminate|]. split; [tauto|].
      split; [intros c E; inversion E; subst; assumption|].
      intros _ E; destruct (N1 E); contradiction. }
  apply is_ok_true in O1. specialize (K1 O1).
  destruct (derive_nonce_spec P s secret (zeros (suite_nonce_size s)) fs1 HP El)
    as (st2 & iv & fs2 & E2 & L2 & K2 & N2); [apply lenN_zeros|].
  rewrite (bind_done _ _ _ _ _ _ _ E2).
  destruct (is_ok st2) eqn:O2; cbn [negb].
  2:{ apply is_ok_false in O2.
      do 2 eexists; split; [reflexivity|]. split; [discriminate|]. split; [tauto|].
      split; [intros c E; inversion E; subst; assumption|].
      intros _ E; destruct (N1 E) as [_ E']; destruct (N2 E'); contradiction. }
  apply is_ok_true in O2. specialize (K2 O2).
  destruct (create_crypter_spec lib s key fs2 L1) as (r & fs3 & E3 & Hr & N3).
  rewrite (bind_done _ _ _ _ _ _ _ E3).
  destruct Hr as [->|(c & -> & Hc & Hk & Ha)].
  { do 2 eexists; split; [reflexivity|]. split; [discriminate|]. split; [tauto|].
    split; [intros c E; inversion E; discriminate|].
    intros _ E; destruct (N1 E) as [_ E']; destruct (N2 E') as [_ E''];
    destruct (N3 E'') as (_ & c & Hc); discriminate. }
  do 2 eexists; split; [reflexivity|]. split; [|split; [tauto|split]].
  - intros h E; inversion E; subst h; clear E. split; [|auto].
    constructor; cbn [hc_suite hc_key_size hc_seq hc_overflowed hc_always_fail
      hc_nonce hc_secret hc_aead dir_start d_suite d_secret d_seq d_broken]; auto.
    + lia.
    + symmetry; apply N.mod_small; exact Hseq.
    + symmetry; apply N.eqb_neq; lia.
    + exists c; repeat split; try apply Hc; congruence.
  - intros c0 E; discriminate.
  - intros _ E; destruct (N1 E) as [_ E']; destruct (N2 E') as [_ E''];
    destruct (N3 E'') as (E3' & _). eauto.
Qed.

Lemma half_update_spec : forall P lib h d fs,
  prims_ok P -> half_rel P h d ->
  exists h' st fs', half_update_key P lib h fs = Done ((h', st), fs') /\
    hc_used h' = hc_used h /\
    (st = kOk -> half_rel P h' (dir_update P d) /\ hc_epoch h' = hc_epoch h + 1) /\
    (st <> kOk -> half_rel P h' (dir_break d) /\ hc_epoch h' = hc_epoch h) /\
    (fs = [] -> st = kOk /\ fs' = []).
Proof.
  intros P lib h d fs HP R. pose proof R as R0.
  destruct R as [Rs Rk Rsl Rnl Rf Rle Rq Ro Ra Rkeys].
  unfold half_update_key. rewrite Rs, Rk.
  assert (Hbr : forall secret nonce, lenN secret = spec_hash_len (d_suite d) ->
     lenN nonce = 12 -> half_rel P (with_keys h secret nonce true) (dir_break d)).
  { intros secret nonce H1 H2. destruct Ra as (c & Hc1 & Hc2 & Hc3).
    constructor; cbn [hc_suite hc_key_size hc_seq hc_overflowed hc_always_fail
      hc_nonce hc_secret hc_aead with_keys dir_break d_suite d_secret d_seq d_broken]; auto;
      try discriminate.
    exists c; repeat split; try apply Hc2; auto; discriminate. }
  destruct (advance_secret_spec P (d_suite d) (hc_secret h) fs HP Rsl)
    as (st0 & secret & fs0 & E0 & L0 & K0 & N0).
  rewrite (bind_done _ _ _ _ _ _ _ E0). rewrite Rsl in L0.
  destruct (is_ok st0) eqn:O0; cbn [negb].
  2:{ apply is_ok_false in O0. do 3 eexists; split; [reflexivity|].
      split; [reflexivity|]. split; [contradiction|]. split; [auto|].
      intros E; destruct (N0 E); contradiction. }
  apply is_ok_true in O0. specialize (K0 O0).
  destruct (derive_key_spec P (d_suite d) secret (zeros (spec_key_len (d_suite d))) fs0 HP L0)
    as (st1 & key & fs1 & E1 & L1 & K1 & N1); [apply lenN_zeros|].
  rewrite (bind_done _ _ _ _ _ _ _ E1).
  destruct (is_ok st1) eqn:O1; cbn [negb].
  2:{ apply is_ok_false in O1. do 3 eexists; split; [reflexivity|].
      split; [reflexivity|]. split; [contradiction|]. split; [auto|].
      intros E; destruct (N0 E) as [_ E']; destruct (N1 E'); contradiction. }
  apply is_ok_true in O1. specialize (K1 O1).
  destruct (derive_nonce_spec P (d_suite d) secret (hc_nonce h) fs1 HP L0 Rnl)
    as (st2 & iv & fs2 & E2 & L2 & K2 & N2).
  rewrite (bind_done _ _ _ _ _ _ _ E2).
  destruct (is_ok st2) eqn:O2; cbn [negb].
  2:{ apply is_ok_false in O2. do 3 eexists; split; [reflexivity|].
      split; [reflexivity|]. split; [contradiction|]. split; [auto|].
      intros E; destruct (N0 E) as [_ E']; destruct (N1 E') as [_ E''];
      destruct (N2 E''); contradiction. }
  apply is_ok_true in O2. specialize (K2 O2).
  destruct (create_crypter_spec lib (d_suite d) key fs2 L1) as (r & fs3 & E3 & Hr & N3).
  rewrite (bind_done _ _ _ _ _ _ _ E3).
  destruct Hr as [->|(c & -> & Hc & Hk & Ha)].
  { do 3 eexists; split; [reflexivity|].
    split; [reflexivity|]. split; [discriminate|]. split; [auto|].
    intros E; destruct (N0 E) as [_ E']; destruct (N1 E') as [_ E''];
    destruct (N2 E'') as [_ E3']; destruct (N3 E3') as (_ & c & Hc); discriminate. }
  do 3 eexists; split; [reflexivity|].
  split; [reflexivity|]. split; [|split; [intros X; congruence|]].
  - intros _; split; [|reflexivity].
    constructor; cbn [hc_suite hc_key_size hc_seq hc_overflowed hc_always_fail
      hc_nonce hc_secret hc_aead dir_update d_suite d_secret d_seq d_broken]; auto.
    + unfold two64; lia.
    + exists c; split; [reflexivity|]. split; [exact Hc|].
      intros Hb; destruct (Rkeys Hb) as [Hsec _].
      split; [|exact Ha]. congruence.
    + intros Hb; destruct (Rkeys Hb) as [Hsec _]. split; congruence.
  - intros E; destruct (N0 E) as [_ E']; destruct (N1 E') as [_ E''];
    destruct (N2 E'') as [_ E3']; destruct (N3 E3') as (E4 & _). auto.
Qed.

(* ------------------------------------------------------------------ *)
(* Nonces *)

Lemma be_bytes_length : forall n x, length (be_bytes n x) = n.
Proof.
  induction n as [|n IH]; intros x; [reflexivity|].
  cbn [be_bytes]; rewrite app_length, IH; cbn; lia.
Qed.

Lemma be_bytes_inj : forall n x y, x < 256 ^ N.of_nat n -> y < 256 ^ N.of_nat n ->
  be_bytes n x = be_bytes n y -> x = y.
Proof.
  induction n as [|n IH]; intros x y Hx Hy E.
  - change (256 ^ N.of_nat 0) with 1 in *. lia.
  - cbn [be_bytes] in E. apply app_inj_tail in E. destruct E as [E1 E2].
    rewrite Nat2N.inj_succ, N.pow_succ_r' in Hx, Hy.
    apply IH in E1.
    + rewrite (N.div_mod' x 256), (N.div_mod' y 256). congruence.
    + apply N.div_lt_upper_bound; lia.
    + apply N.div_lt_upper_bound; lia.
Qed.

Lemma xor_bytes_inj : forall a b c, length a = length b -> length a = length c ->
  xor_bytes a b = xor_bytes a c -> b = c.
Proof.
  induction a as [|x a IH]; intros [|y b] [|z c] H1 H2 E; cbn in *; try lia; [reflexivity|].
  inversion E as [[E1 E2]]. f_equal.
  - rewrite <- (N.lxor_0_l y), <- (N.lxor_0_l z), <- (N.lxor_nilpotent x).
    rewrite !N.lxor_assoc. congruence.
  - apply IH; lia || assumption.
Qed.

Lemma record_nonce_inj : forall iv a b, lenN iv = 12 -> a < two64 -> b < two64 ->
  record_nonce iv a = record_nonce iv b -> a = b.
Proof.
  intros iv a b Hl Ha Hb E. unfold record_nonce in E.
  assert (length iv = 12%nat) by (unfold lenN in Hl; lia).
  apply xor_bytes_inj in E; [|rewrite be_bytes_length; lia|rewrite be_bytes_length; lia].
  apply be_bytes_inj in E; [exact E| |];
    change (256 ^ N.of_nat 12) with 79228162514264337593543950336; unfold two64 in *; lia.
Qed.

Lemma record_nonce_len : forall iv s, lenN iv = 12 -> lenN (record_nonce iv s) = 12.
Proof.
  intros iv s Hl. unfold record_nonce, lenN in *. rewrite xor_bytes_length, be_bytes_length.
  lia.
Qed.

Lemma nonce_mask_spec : forall h, lenN (hc_nonce h) = 12 -> hc_seq h < two64 ->
  nonce_mask h = Done (record_nonce (hc_nonce h) (hc_seq h),
    {| hc_suite := hc_suite h; hc_key_size := hc_key_size h;
       hc_seq := wrap64 (hc_seq h + 1);
       hc_overflowed := if wrap64 (hc_seq h + 1) =? 0 then true else hc_overflowed h;
       hc_always_fail := hc_always_fail h; hc_nonce := hc_nonce h;
       hc_secret := hc_secret h; hc_aead := hc_aead h;
       hc_epoch := hc_epoch h;
       hc_used := hc_used h ++ [(hc_epoch h, record_nonce (hc_nonce h) (hc_seq h))] |}).
Proof.
  intros h Hl Hs. unfold nonce_mask. rewrite Hl. cbn [N.ltb N.compare Pos.compare Pos.compare_cont].
  cbv zeta.
  assert (E : takeN (12 - 8) (hc_nonce h) ++
    xor_bytes (dropN (12 - 8) (hc_nonce h)) (map (seq_byte (hc_seq h)) [0; 1; 2; 3; 4; 5; 6; 7])
    = record_nonce (hc_nonce h) (hc_seq h)).
  { assert (Hl' : length (hc_nonce h) = 12%nat) by (unfold lenN in Hl; lia).
    unfold record_nonce. generalize (hc_seq h) Hs Hl'. generalize (hc_nonce h). clear.
    intros iv s Hs Hl.
    assert (Eb : be_bytes 12 s = [0; 0; 0; 0] ++ map (seq_byte s) [0; 1; 2; 3; 4; 5; 6; 7]).
    { cbn [be_bytes app map]. unfold seq_byte.
      rewrite !N.shiftr_div_pow2.
      rewrite !N.div_div by discriminate.
      assert (Hz : forall k, two64 <= k -> s / k = 0)
        by (intros k Hk; apply N.div_small; lia).
      rewrite !(Hz (256 * _)) by (unfold two64; cbn; lia).
      rewrite N.div_1_r. reflexivity. }
    rewrite Eb. set (m := map (seq_byte s) [0; 1; 2; 3; 4; 5; 6; 7]). clearbody m.
    change (12 - 8) with 4. unfold takeN, dropN. cbn [N.to_nat Pos.to_nat Pos.iter_op Init.Nat.add].
    destruct iv as [|a [|b [|c [|d iv]]]]; cbn in Hl; try lia.
    change (Pos.to_nat 4) with 4%nat.
    cbn [firstn skipn app xor_bytes]. rewrite !N.lxor_0_r. reflexivity. }
  rewrite E. reflexivity.
Qed.

(* ------------------------------------------------------------------ *)
(* Encrypt and Decrypt *)

Lemma crypter_ok_config : forall c c', same_config c c' -> crypter_ok c -> crypter_ok c'.
Proof. unfold same_config, crypter_ok; intros c c' H1 H2; intuition congruence. Qed.

Lemma dir_usable_dec : forall d, dir_usable d \/ ~ dir_usable d.
Proof.
  intros d; unfold dir_usable; destruct (d_broken d); [right; intros []; discriminate|].
  destruct (N.lt_ge_cases (d_seq d) two64); [left; auto|right; lia].
Qed.

Lemma half_unusable : forall P h d, half_rel P h d -> ~ dir_usable d ->
  hc_always_fail h || hc_overflowed h = true.
Proof.
  intros P h d R Hu. destruct R as [Rs Rk Rsl Rnl Rf Rle Rq Ro Ra Rkeys].
  rewrite Rf, Ro. unfold dir_usable in Hu.
  destruct (d_broken d); [reflexivity|]. cbn [orb]. apply N.eqb_eq. lia.
Qed.

(* The state after drawing one nonce. *)
Lemma half_draw : forall P h d, half_rel P h d -> dir_usable d ->
  hc_always_fail h || hc_overflowed h = false /\
  exists h1 c, hc_aead h = Some c /\ hc_aead h1 = Some c /\
    nonce_mask h = Done (record_nonce (traffic_iv P (d_suite d) (d_secret d)) (d_seq d), h1) /\
    crypter_ok c /\
    crypter_key c = traffic_key P (d_suite d) (d_secret d) /\
    cr_alg c = spec_alg (d_suite d) /\
    lenN (traffic_iv P (d_suite d) (d_secret d)) = 12 /\
    hc_epoch h1 = hc_epoch h /\
    hc_used h1 = hc_used h ++
      [(hc_epoch h, record_nonce (traffic_iv P (d_suite d) (d_secret d)) (d_seq d))] /\
    forall c', same_config c c' -> half_rel P (with_aead h1 c') (dir_next d).
Proof.
  intros P h d R [Hb Hs]. destruct R as [Rs Rk Rsl Rnl Rf Rle Rq Ro Ra Rkeys].
  split.
  { rewrite Rf, Hb, Ro. cbn [orb]. apply N.eqb_neq; lia. }
  destruct Ra as (c & Hc1 & Hc2 & Hc3). destruct (Hc3 Hb) as [Hc4 Hc5].
  destruct (Rkeys Hb) as [Hsec Hiv].
  rewrite N.mod_small in Rq by exact Hs.
  do 2 eexists; split; [exact Hc1|]. split; [|split].
  2:{ rewrite nonce_mask_spec by (congruence || lia). rewrite Hiv, Rq. reflexivity. }
  { exact Hc1. }
  split; [exact Hc2|]. split; [exact Hc4|]. split; [exact Hc5|].
  split; [congruence|]. split; [reflexivity|]. split; [reflexivity|].
  intros c' Hsc.
  assert (Hw : wrap64 (d_seq d + 1) = (d_seq d + 1) mod two64) by reflexivity.
  constructor; cbn [hc_suite hc_key_size hc_seq hc_overflowed hc_always_fail
      hc_nonce hc_secret hc_aead with_aead dir_next d_suite d_secret d_seq d_broken]; auto.
  - congruence.
  - clear - Hs. lia.
  - destruct (N.eq_dec (d_seq d + 1) two64) as [E|E].
    + rewrite Hw, E. rewrite N.mod_same by (unfold two64; lia).
      rewrite N.eqb_refl. reflexivity.
    + rewrite Hw, N.mod_small by lia.
      destruct (N.eqb_spec (d_seq d + 1) 0); [lia|]. rewrite Ro.
      transitivity false; [apply N.eqb_neq; lia|symmetry; apply N.eqb_neq; lia].
  - exists c'; split; [reflexivity|]. split; [eapply crypter_ok_config; eauto|].
    intros _. destruct Hsc as (_ & Ha & Hk & _). split; congruence.
Qed.

Lemma half_encrypt_spec : forall P h d aad pt buf fs,
  prims_ok P -> half_rel P h d ->
  Forall small_iov aad -> Forall small_iov pt -> sum_lens pt + 16 < two64 ->
  exists h' st n buf' fs',
    half_encrypt P h aad pt (IoBuf buf) fs = Done ((h', (st, n), IoBuf buf'), fs') /\
    lenN buf' = lenN buf /\ hc_epoch h' = hc_epoch h /\
    (st <> kOk -> n = 0) /\
    (st = kOk \/ st = kInvalidArgument \/ st = kInternal) /\
    (~ dir_usable d -> h' = h /\ st = kInternal /\ buf' = buf /\ fs' = fs) /\
    (dir_usable d ->
       half_rel P h' (dir_next d) /\
       hc_used h' = hc_used h ++
         [(hc_epoch h, record_nonce (traffic_iv P (d_suite d) (d_secret d)) (d_seq d))] /\
       (st = kOk -> Forall iov_valid aad /\ Forall iov_valid pt /\
          n = sum_lens pt + 16 /\ n <= lenN buf /\
          buf' = dir_seal P d (iov_concat aad) (iov_concat pt) ++ dropN n buf) /\
       (Forall iov_valid aad -> Forall iov_valid pt ->
        sum_lens pt + 16 <= lenN buf -> fs = [] -> st = kOk /\ fs' = [])).
Proof.
  intros P h d aad pt buf fs HP R Ha Hp Hsz. unfold half_encrypt.
  destruct (dir_usable_dec d) as [Hu|Hu].
  - destruct (half_draw P h d R Hu) as (Hf & h1 & c & Hc & Hc1 & Hm & Hok & Hk & Hal & Hivl & Hep & Hus & Hrel).
    rewrite Hc, Hf. unfold lift at 1. rewrite Hm. unfold bind at 1.
    destruct (aead_encrypt_spec P c
      (record_nonce (traffic_iv P (d_suite d) (d_secret d)) (d_seq d)) aad pt buf fs
      HP Hok Ha Hp Hsz) as (c' & st & n & buf' & fs' & E & Hsc & Hl & H4 & H5 & H6 & H7).
    rewrite (bind_done _ _ _ _ _ _ _ E).
    do 5 eexists; split; [reflexivity|]. split; [exact Hl|]. split; [exact Hep|].
    split; [exact H5|]. split; [exact H6|]. split; [contradiction|].
    intros _. split; [apply Hrel; exact Hsc|]. split; [exact Hus|]. split.
    + intros Eok. destruct (H4 Eok) as (_ & Hv1 & Hv2 & Hn & Hle & Hb).
      split; [exact Hv1|]. split; [exact Hv2|].
      rewrite lenN_seal in Hn by exact HP. rewrite <- sum_lens_concat in Hn by exact Hv2.
      split; [exact Hn|]. split; [exact Hle|].
      rewrite Hb. unfold dir_seal. rewrite Hk, Hal. reflexivity.
    + intros Hv1 Hv2 Hr Efs. apply H7; auto. apply record_nonce_len; exact Hivl.
  - pose proof (half_unusable P h d R Hu) as Hf. rewrite Hf.
    destruct (hr_aead _ _ _ R) as (c & Hc & _). rewrite Hc.
    do 5 eexists; split; [reflexivity|]. repeat split; auto; contradiction.
Qed.

(* Opening under the direction's current key and sequence number. *)
Definition dir_nonce (P : prims) (d : dir) : bytes :=
  record_nonce (traffic_iv P (d_suite d) (d_secret d)) (d_seq d).
Definition dir_key (P : prims) (d : dir) : bytes :=
  traffic_key P (d_suite d) (d_secret d).

Lemma half_decrypt_spec : forall P h d aad ct buf fs,
  prims_ok P -> half_rel P h d ->
  Forall small_iov aad -> Forall small_iov ct -> Forall iov_valid ct ->
  sum_lens ct < two64 ->
  exists h' st n buf' fs',
    half_decrypt P h aad ct (IoBuf buf) fs = Done ((h', (st, n), IoBuf buf'), fs') /\
    lenN buf' = lenN buf /\ hc_epoch h' = hc_epoch h /\
    (st <> kOk -> n = 0) /\
    (st = kOk \/ st = kInvalidArgument \/ st = kInternal) /\
    (~ dir_usable d -> h' = h /\ st = kInternal /\ buf' = buf /\ fs' = fs) /\
    (dir_usable d ->
       half_rel P h' (dir_next d) /\
       hc_used h' = hc_used h ++ [(hc_epoch h, dir_nonce P d)] /\
       (st = kOk -> Forall iov_valid aad /\
          exists msg, iov_concat ct = dir_seal P d (iov_concat aad) msg /\
          n = lenN msg /\ n <= lenN buf /\ buf' = msg ++ dropN n buf) /\
       (st <> kOk -> lenN (iov_concat ct) <= lenN buf + 16 ->
          buf' = buf \/ buf' = zeros (lenN buf)) /\
       (forall msg, Forall iov_valid aad ->
        iov_concat ct = dir_seal P d (iov_concat aad) msg ->
        lenN msg <= lenN buf -> fs = [] -> st = kOk /\ fs' = [])).
Proof.
  intros P h d aad ct buf fs HP R Ha Hp Hv Hsz. unfold half_decrypt.
  destruct (dir_usable_dec d) as [Hu|Hu].
  - destruct (half_draw P h d R Hu) as (Hf & h1 & c & Hc & Hc1 & Hm & Hok & Hk & Hal & Hivl & Hep & Hus & Hrel).
    rewrite Hc, Hf. unfold lift at 1. rewrite Hm. unfold bind at 1.
    destruct (aead_decrypt_spec P c
      (record_nonce (traffic_iv P (d_suite d) (d_secret d)) (d_seq d)) aad ct buf fs
      HP Hok Ha Hp Hv Hsz) as (c' & st & n & buf' & fs' & E & Hsc & Hl & H4 & H5 & H6 & H7).
    rewrite (bind_done _ _ _ _ _ _ _ E). rewrite Hk, Hal in *.
    do 5 eexists; split; [reflexivity|]. split; [exact Hl|]. split; [exact Hep|].
    split; [intros X; apply H5; exact X|]. split; [exact H6|]. split; [contradiction|].
    intros _. split; [apply Hrel; exact Hsc|]. split; [exact Hus|]. split; [|split].
    + intros Eok. destruct (H4 Eok) as (_ & Hv1 & body & Hb1 & Hn & Hle & Hb).
      split; [exact Hv1|].
      exists (stream P (spec_alg (d_suite d)) (traffic_key P (d_suite d) (d_secret d))
        (record_nonce (traffic_iv P (d_suite d) (d_secret d)) (d_seq d)) body).
      rewrite lenN_stream. split; [|auto].
      unfold dir_seal, seal. rewrite stream_involutive. exact Hb1.
    + intros Hne Hle. destruct (H5 Hne) as (_ & [X|[X|(_ & _ & X & _)]]); auto. lia.
    + intros msg Hv1 Hs Hle Efs. unfold dir_seal, seal in Hs.
      eapply H7; [apply record_nonce_len; exact Hivl|exact Hv1|exact Hs| |exact Efs].
      rewrite lenN_stream; exact Hle.
  - pose proof (half_unusable P h d R Hu) as Hf. rewrite Hf.
    destruct (hr_aead _ _ _ R) as (c & Hc & _). rewrite Hc.
    do 5 eexists; split; [reflexivity|]. repeat split; auto; contradiction.
Qed.

Lemma half_tag_spec : forall P h d, half_rel P h d -> half_tag_length h = Done 16.
Proof.
  intros P h d R. destruct (hr_aead _ _ _ R) as (c & Hc & [_ Ht] & _).
  unfold half_tag_length; rewrite Hc, Ht; reflexivity.
Qed.
