From Coq Require Import List NArith ZArith Bool Lia ZifyBool ZifyNat ZifyN.
From Verif Require Import Base BaseProofs Aead SpecAead AeadProofs AeadRun AeadRunProofs AeadAnyProofs.
Import ListNotations.
Local Open Scope N_scope.

(* ------------------------------------------------------------------ *)
(* C57: the factories. *)

Lemma C57_accept_lemma : forall lib k key,
  supported_key k (lenN key) -> exists c, acreate lib k key [] = Done (inr c, []).
Proof.
  intros lib k key H. destruct k; cbn [acreate supported_key] in *.
  - unfold create_aes_gcm, kAes128GcmKeySize, kAes256GcmKeySize. cbn zeta.
    destruct H as [E|E]; rewrite E; eexists; reflexivity.
  - unfold create_chacha_poly, kChachaPolyKeySize. rewrite H. destruct lib; eexists; reflexivity.
Qed.

Lemma C57_reject_lemma : forall lib k key fs, ~ supported_key k (lenN key) ->
  acreate lib k key fs =
    Done (inl (match k with KAesGcm => kFailedPrecondition | KChachaPoly => kInvalidArgument end), fs).
Proof.
  intros lib k key fs H. destruct k; cbn [acreate supported_key] in *.
  - unfold create_aes_gcm, kAes128GcmKeySize, kAes256GcmKeySize. cbn zeta.
    destruct (N.eqb_spec (lenN key) 16); [tauto|]. destruct (N.eqb_spec (lenN key) 32); [tauto|]. reflexivity.
  - unfold create_chacha_poly, kChachaPolyKeySize. destruct (N.eqb_spec (lenN key) 32); [tauto|]. reflexivity.
Qed.

Lemma C57_fault_lemma : forall lib k key fs, supported_key k (lenN key) ->
  exists r fs', acreate lib k key fs = Done (r, fs') /\ (r = inl kInternal \/ exists c, r = inr c).
Proof.
  intros lib k key fs H. destruct k; cbn [acreate supported_key] in *.
  - unfold create_aes_gcm, kAes128GcmKeySize, kAes256GcmKeySize. cbn zeta.
    destruct H as [E|E]; rewrite E; cbn [N.eqb Pos.eqb];
    (step_ssl b f; destruct b; cbn [negb]; [step_ssl b f2; destruct b; cbn [negb]|]; do 2 eexists; (split; [reflexivity|eauto])).
  - unfold create_chacha_poly, kChachaPolyKeySize. rewrite H. cbn [N.eqb Pos.eqb negb]. cbn zeta. destruct lib.
    + step_ssl b f; destruct b; cbn [negb]; [step_ssl b f2; destruct b; cbn [negb]|]; do 2 eexists; (split; [reflexivity|eauto]).
    + step_ssl b f; destruct b; cbn [negb]; do 2 eexists; (split; [reflexivity|eauto]).
Qed.

Lemma acreate_lengths : forall lib k key fs c fs', acreate lib k key fs = Done (inr c, fs') ->
  lengths c = (lenN key, 12, 16) /\ supported_key k (lenN key).
Proof.
  intros lib k key fs c fs' H. destruct k; cbn [acreate] in H.
  - unfold create_aes_gcm in H. cbn zeta in H. unfold kAes128GcmKeySize, kAes256GcmKeySize in H.
    destruct (N.eqb_spec (lenN key) 16) as [E|E];
      [|destruct (N.eqb_spec (lenN key) 32) as [E2|E2]; [|discriminate]];
    (apply bind_inv in H as (ok & f & _ & H); destruct (negb ok); [discriminate|];
     apply bind_inv in H as (ok2 & f2 & _ & H); destruct (negb ok2); [discriminate|];
     apply ret_inv in H as [H _]; inversion H; subst; cbn; auto).
  - unfold create_chacha_poly in H. cbn zeta in H. unfold kChachaPolyKeySize in H.
    destruct (N.eqb_spec (lenN key) 32) as [E|E]; [|discriminate]. cbn [negb] in H.
    destruct lib.
    + apply bind_inv in H as (ok & f & _ & H); destruct (negb ok); [discriminate|];
      apply bind_inv in H as (ok2 & f2 & _ & H); destruct (negb ok2); [discriminate|];
      apply ret_inv in H as [H _]; inversion H; subst; cbn; auto.
    + apply bind_inv in H as (ok & f & _ & H); destruct (negb ok); [discriminate|];
      apply ret_inv in H as [H _]; inversion H; subst; cbn; auto.
Qed.

Lemma C57_getters_lemma : forall P lib k key c, areach P lib k key c ->
  supported_key k (lenN key) /\ lengths c = (lenN key, 12, 16).
Proof.
  intros P lib k key c (c0 & fs & fs' & ops & rs & H & R).
  apply acreate_lengths in H as [L S]. split; [exact S|]. rewrite <- L.
  apply arun_config in R as (E & F & G & I & J & K). unfold lengths. congruence.
Qed.

(* ------------------------------------------------------------------ *)
(* C58: no undefined behaviour, and null fragments. *)

Lemma null_in_tail : forall v vs, null_in (v :: vs) -> iov_valid v -> null_in vs.
Proof. intros v vs (n & [-> | H] & L) V; [cbn in V; lia|]. exists n; auto. Qed.

Lemma null_in_cons : forall v vs, null_in vs -> null_in (v :: vs).
Proof. intros v vs (n & H & L). exists n; split; [right; exact H|exact L]. Qed.

Lemma null_not_valid : forall vs, null_in vs <-> ~ Forall iov_valid vs.
Proof.
  intros vs. split.
  - intros (n & H & L) F. rewrite Forall_forall in F. apply F in H. cbn in H. lia.
  - induction vs as [|v vs IH]; intros F; [exfalso; apply F; constructor|].
    destruct v as [d|n].
    + apply null_in_cons, IH. intros G. apply F. constructor; [exact I|exact G].
    + destruct (N.eq_dec n 0) as [->|E].
      * apply null_in_cons, IH. intros G. apply F. constructor; [reflexivity|exact G].
      * exists n. split; [left; reflexivity|lia].
Qed.

Lemma null_split : forall vs, null_in vs -> exists pre n post, vs = pre ++ IoNull n :: post /\ 0 < n.
Proof.
  intros vs (n & H & L). apply in_split in H as (pre & post & ->). eauto.
Qed.

Lemma sum_lens_app : forall a b, sum_lens (a ++ b) = sum_lens a + sum_lens b.
Proof. induction a as [|v a IH]; intros b; cbn [app sum_lens]; [lia|]. rewrite IH. lia. Qed.

Lemma null_short_tag : forall vs, null_in vs -> sum_lens vs <= 16 -> null_in_tag vs.
Proof.
  intros vs H L. apply null_split in H as (pre & n & post & -> & Hn).
  exists pre, n, post. split; [reflexivity|]. split; [exact Hn|].
  rewrite sum_lens_app in L. cbn [sum_lens iov_len] in L. lia.
Qed.

Lemma null_tag_cons : forall v vs, null_in_tag vs -> null_in_tag (v :: vs).
Proof. intros v vs (pre & n & post & -> & H). exists (v :: pre), n, post. auto. Qed.

Lemma set_aad_total : forall aad e fs, exists st e' fs', set_aad e aad fs = Done ((st, e'), fs') /\
  (st = kOk -> Forall iov_valid aad) /\
  (fs = [] -> fs' = [] /\ (Forall small_iov aad -> st = kOk \/ st = kInvalidArgument)).
Proof.
  induction aad as [|v aad IH]; intros e fs; cbn [set_aad].
  - do 3 eexists. split; [reflexivity|]. split; [constructor|]. auto.
  - destruct (N.eqb_spec (iov_len v) 0) as [E|E].
    + destruct (iov_empty v E) as [V _]. destruct (IH e fs) as (st & e' & fs' & -> & A & B).
      do 3 eexists. split; [reflexivity|]. split; [auto|]. intros ->. destruct (B eq_refl) as [-> C].
      split; [reflexivity|]. intros F. inversion F; subst. auto.
    + destruct v as [d|n].
      2:{ do 3 eexists. split; [reflexivity|]. split; [discriminate|]. auto. }
      step_ssl ok f.
      destruct (int_narrow (lenN d)) as [m|] eqn:Em.
      2:{ do 3 eexists. split; [reflexivity|]. split; [discriminate|]. intros ->. destruct (Hnil eq_refl) as [_ ->].
          split; [reflexivity|]. intros F. inversion F; subst. unfold small_iov in *. cbn [iov_len] in *.
          rewrite int_narrow_small in Em by assumption. discriminate. }
      destruct ok.
      2:{ do 3 eexists. split; [reflexivity|]. split; [discriminate|]. intros ->. destruct (Hnil eq_refl) as [X _]; discriminate. }
      cbn zeta. destruct (N.eqb_spec m (lenN d)) as [Ed|Ed].
      * destruct (IH (evp_add_aad e (takeN m d)) f) as (st & e' & fs' & -> & A & B).
        do 3 eexists. split; [reflexivity|]. split; [intros K; constructor; [exact I|auto]|].
        intros ->. destruct (Hnil eq_refl) as [_ ->]. destruct (B eq_refl) as [-> C]. split; [reflexivity|].
        intros F. inversion F; subst. auto.
      * do 3 eexists. split; [reflexivity|]. split; [discriminate|]. intros ->. destruct (Hnil eq_refl) as [_ ->].
        split; [reflexivity|]. intros F. inversion F; subst. unfold small_iov in *. cbn [iov_len] in *.
        rewrite int_narrow_small in Em by assumption. congruence.
Qed.

Lemma encrypt_loop_total : forall P a pt e buf off rem fs, off + rem = lenN buf ->
  exists st e' buf' off' rem' fs',
    encrypt_loop P a e pt (IoBuf buf) off rem fs = Done ((st, e', IoBuf buf', off', rem'), fs') /\
    off' + rem' = lenN buf' /\ (st = kOk -> Forall iov_valid pt) /\
    (fs = [] -> fs' = [] /\ (Forall small_iov pt -> st = kOk \/ st = kInvalidArgument)).
Proof.
  intros P a. induction pt as [|v pt IH]; intros e buf off rem fs R; cbn [encrypt_loop].
  - do 6 eexists. split; [reflexivity|]. split; [exact R|]. split; [constructor|]. auto.
  - destruct (N.eqb_spec (iov_len v) 0) as [E|E].
    + destruct (iov_empty v E) as [V _]. destruct (IH e buf off rem fs R) as (st & e' & b' & o' & r' & fs' & -> & R' & A & B).
      do 6 eexists. split; [reflexivity|]. split; [exact R'|]. split; [auto|]. intros ->. destruct (B eq_refl) as [-> C].
      split; [reflexivity|]. intros F. inversion F; subst. auto.
    + destruct v as [d|n].
      2:{ do 6 eexists. split; [reflexivity|]. split; [exact R|]. split; [discriminate|]. auto. }
      destruct (N.ltb_spec rem (lenN d)) as [L|L].
      { do 6 eexists. split; [reflexivity|]. split; [exact R|]. split; [discriminate|]. auto. }
      step_ssl ok f.
      destruct (int_narrow (lenN d)) as [m|] eqn:Em.
      2:{ do 6 eexists. split; [reflexivity|]. split; [exact R|]. split; [discriminate|].
          intros ->. destruct (Hnil eq_refl) as [_ ->].
          split; [reflexivity|]. intros F. inversion F; subst. unfold small_iov in *. cbn [iov_len] in *.
          rewrite int_narrow_small in Em by assumption. discriminate. }
      destruct ok.
      2:{ do 6 eexists. split; [reflexivity|]. split; [exact R|]. split; [discriminate|].
          intros ->. destruct (Hnil eq_refl) as [X _]; discriminate. }
      cbn zeta. apply int_narrow_le in Em.
      assert (Lm : lenN (evp_xor P a e (takeN m d)) = m) by (rewrite evp_xor_lenN, lenN_takeN; lia).
      rewrite write_at_buf by lia. cbn [lift]. unfold bind at 1. cbn [lift].
      edestruct IH as (st & e' & b' & o' & r' & fs' & E1 & R' & A & B).
      2:{ rewrite E1. do 6 eexists. split; [reflexivity|]. split; [exact R'|].
          split; [intros K; constructor; [exact I|auto]|].
          intros ->. destruct (Hnil eq_refl) as [_ ->]. destruct (B eq_refl) as [-> C]. split; [reflexivity|].
          intros F. inversion F; subst. auto. }
      rewrite lenN_write by lia. lia.
Qed.

Definition dloop_total (ct : list iovec) (r : dloop) : Prop :=
  match r with
  | DExit st _ out => st <> kOk /\ exists b, out = IoBuf b
  | DCont _ out total' _ cur' rest =>
    (exists b, out = IoBuf b) /\
    (16 < total' \/
     (total' <= 16 /\ lenN cur' + sum_lens rest <= 16 /\ (null_in rest -> null_in_tag ct)))
  end.

Lemma dloop_total_cons : forall v ct r, dloop_total ct r -> dloop_total (v :: ct) r.
Proof.
  intros v ct [st e out|e out t rem cur rest] H; cbn in *; [exact H|].
  destruct H as [B [H|(L & S & N)]]; split; auto. right. repeat split; auto.
  intros X. apply null_tag_cons, N, X.
Qed.

Lemma zero_exit_total : forall st e buf fs, st <> kOk ->
  zero_exit st e (IoBuf buf) fs = Done (DExit st e (IoBuf (zeros (lenN buf))), fs).
Proof. reflexivity. Qed.

Lemma decrypt_loop_total : forall P a ct e buf total off rem cur fs, off + rem = lenN buf ->
  16 + sum_lens ct < total \/ (total = lenN cur + sum_lens ct /\ (cur = [] \/ total <= 16)) ->
  exists r fs', decrypt_loop P a e ct (IoBuf buf) total off rem cur fs = Done (r, fs') /\ dloop_total ct r.
Proof.
  intros P a. induction ct as [|v ct IH]; intros e buf total off rem cur fs R T; cbn [decrypt_loop sum_lens] in *.
  - do 2 eexists. split; [reflexivity|]. cbn. split; [eauto|].
    destruct T as [T|[-> [-> | T]]]; [left; lia|right..];
      (split; [try rewrite lenN_nil; lia|]; split; [try rewrite lenN_nil; lia|]; intros (n & [] & _)).
  - unfold kAeadTagSize. destruct (N.leb_spec total 16) as [Ht|Ht].
    { do 2 eexists. split; [reflexivity|]. cbn [dloop_total]. split; [eauto|].
      destruct T as [T|[-> _]]; [lia|right]. cbn [sum_lens]. split; [lia|]. split; [lia|].
      intros X. apply null_short_tag; [exact X|]. cbn [sum_lens]. lia. }
    destruct (N.eqb_spec (iov_len v) 0) as [Ev|Ev].
    { destruct (IH e buf total off rem [] fs R) as (r & fs' & -> & D).
      - destruct T as [T|[-> [-> | T]]]; [left; lia| |lia]. right. split; [|auto]. rewrite Ev. lia.
      - do 2 eexists. split; [reflexivity|]. apply dloop_total_cons, D. }
    destruct v as [d|n].
    2:{ rewrite zero_exit_total by discriminate. do 2 eexists. split; [reflexivity|].
        cbn. split; [discriminate|eauto]. }
    cbn zeta. cbn [iov_len] in *.
    destruct (N.ltb_spec rem (N.min (lenN d) (total - 16))) as [Hr|Hr].
    { do 2 eexists. split; [reflexivity|]. cbn. split; [discriminate|eauto]. }
    step_ssl ok f.
    destruct (int_narrow _) as [m|] eqn:Em.
    2:{ rewrite zero_exit_total by discriminate. do 2 eexists. split; [reflexivity|].
        cbn. split; [discriminate|eauto]. }
    destruct ok.
    2:{ rewrite zero_exit_total by discriminate. do 2 eexists. split; [reflexivity|].
        cbn. split; [discriminate|eauto]. }
    apply int_narrow_cases in Em.
    assert (Lm : lenN (evp_xor P a e (takeN m d)) = m) by (rewrite evp_xor_lenN, lenN_takeN; lia).
    rewrite write_at_buf by lia. unfold bind at 1. cbn [lift].
    edestruct IH as (r & fs' & E1 & D); [| |rewrite E1; do 2 eexists; split; [reflexivity|apply dloop_total_cons, D]].
    + rewrite lenN_write by lia. lia.
    + rewrite lenN_dropN. destruct T as [T|[-> [-> | T]]]; [left; lia| |lia].
      rewrite lenN_nil in *. destruct Em as [Em|Em]; [right|left; lia].
      split; [lia|].
      destruct (N.le_gt_cases (lenN d) (0 + (lenN d + sum_lens ct) - 16)) as [Q|Q];
        [left; apply dropN_all; lia|right; lia].
Qed.

Lemma decrypt_loop_null : forall P a ct e buf total off rem cur, off + rem = lenN buf ->
  total = lenN cur + sum_lens ct /\ (cur = [] \/ total <= 16) ->
  Forall small_iov ct -> null_in ct -> ~ null_in_tag ct ->
  exists e' out, decrypt_loop P a e ct (IoBuf buf) total off rem cur [] = Done (DExit kInvalidArgument e' out, []).
Proof.
  intros P a. induction ct as [|v ct IH]; intros e buf total off rem cur R T F N1 N2; cbn [decrypt_loop sum_lens] in *.
  - destruct N1 as (n & [] & _).
  - unfold kAeadTagSize. destruct (N.leb_spec total 16) as [Ht|Ht].
    { exfalso. apply N2. apply null_short_tag; [exact N1|]. cbn [sum_lens]. lia. }
    destruct T as [T [-> | T']]; [|lia]. rewrite lenN_nil in T.
    inversion F as [|v' ct' Fv Fc]; subst v' ct'.
    assert (N2' : ~ null_in_tag ct) by (intros X; apply N2, null_tag_cons, X).
    destruct (N.eqb_spec (iov_len v) 0) as [Ev|Ev].
    { apply IH; auto.
      - split; [rewrite lenN_nil; lia|auto].
      - eapply null_in_tail; [exact N1|]. apply iov_empty, Ev. }
    destruct v as [d|n].
    2:{ rewrite zero_exit_total by discriminate. eauto. }
    cbn zeta. unfold small_iov in Fv. cbn [iov_len] in *.
    destruct (N.ltb_spec rem (N.min (lenN d) (total - 16))) as [Hr|Hr]; [do 2 eexists; reflexivity|].
    destruct (ssl_cases []) as (ok & f & Hs & Hnil); rewrite (bind_done _ _ _ _ _ _ _ Hs); destruct (Hnil eq_refl) as [-> ->].
    rewrite int_narrow_small by lia.
    assert (Lm : lenN (evp_xor P a e (takeN (N.min (lenN d) (total - 16)) d)) = N.min (lenN d) (total - 16))
      by (rewrite evp_xor_lenN, lenN_takeN; lia).
    rewrite write_at_buf by lia. unfold bind at 1. cbn [lift].
    apply IH; auto.
    + rewrite lenN_write by lia. lia.
    + rewrite lenN_dropN. split; [lia|].
      destruct (N.le_gt_cases (lenN d) (total - 16)) as [Q|Q]; [left; apply dropN_all; lia|right; lia].
    + eapply null_in_tail; [exact N1|exact I].
Qed.

Definition done_null (fs : faults) (small null : Prop) (o : outcome (crypter * cstatus * iovec * faults)) : Prop :=
  exists c' st n out fs', o = Done ((c', (st, n), out), fs') /\
    (st <> kOk -> n = 0) /\
    (null -> st <> kOk /\ (fs = [] -> small -> st = kInvalidArgument)).

Lemma init_context_total : forall e nonce fs, exists st e' fs',
  init_context_using_nonce e nonce fs = Done ((st, e'), fs') /\
  (fs = [] -> fs' = [] /\ (st = kOk \/ st = kInvalidArgument)).
Proof.
  intros e nonce fs. unfold init_context_using_nonce. destruct (negb _).
  - do 3 eexists. split; [reflexivity|]. auto.
  - step_ssl ok f. destruct ok.
    + do 3 eexists. split; [reflexivity|]. intros H. split; [apply Hnil, H|auto].
    + do 3 eexists. split; [reflexivity|]. intros H. destruct (Hnil H); discriminate.
Qed.

Lemma done_stop : forall fs (small null : Prop) c st out fs', st <> kOk ->
  (fs = [] -> small -> st = kOk \/ st = kInvalidArgument) ->
  done_null fs small null (Done ((c, (st, 0), out), fs')).
Proof.
  intros fs small null c st out fs' H K. do 5 eexists. split; [reflexivity|]. split; [auto|].
  intros _. split; [exact H|]. intros A B. destruct (K A B); [contradiction|assumption].
Qed.

Lemma done_end : forall fs (small null : Prop) c st n out fs', ~ null -> (st <> kOk -> n = 0) ->
  done_null fs small null (Done ((c, (st, n), out), fs')).
Proof.
  intros fs small null c st n out fs' H K. do 5 eexists. split; [reflexivity|]. split; [auto|].
  intros X. contradiction.
Qed.

Lemma evp_encrypt_total : forall P c nonce aad pt buf fs, prims_ok P ->
  done_null fs (Forall small_iov aad /\ Forall small_iov pt) (null_in aad \/ null_in pt)
    (evp_encrypt P c nonce aad pt (IoBuf buf) fs).
Proof.
  intros P c nonce aad pt buf fs HP. unfold evp_encrypt.
  destruct (init_context_total (cr_ctx c) nonce fs) as (st & e & f & E & H1).
  rewrite (bind_done _ _ _ _ _ _ _ E).
  destruct (is_ok st) eqn:Es; cbn [negb].
  2:{ apply is_ok_false in Es. apply done_stop; [exact Es|]. intros -> _. apply H1; reflexivity. }
  destruct (set_aad_total aad e f) as (st2 & e2 & f2 & E2 & A2 & B2).
  rewrite (bind_done _ _ _ _ _ _ _ E2).
  destruct (is_ok st2) eqn:Es2; cbn [negb].
  2:{ apply is_ok_false in Es2. apply done_stop; [exact Es2|]. intros -> [S _]. apply B2; [apply H1; reflexivity|exact S]. }
  apply is_ok_true in Es2. pose proof (A2 Es2) as Va.
  destruct (encrypt_loop_total P (cr_alg c) pt e2 buf 0 (lenN buf) f2) as (st3 & e3 & b3 & o3 & r3 & f3 & E3 & R3 & A3 & B3);
    [lia|].
  cbn [iov_len]. rewrite (bind_done _ _ _ _ _ _ _ E3).
  destruct (is_ok st3) eqn:Es3; cbn [negb].
  2:{ apply is_ok_false in Es3. apply done_stop; [exact Es3|]. intros -> [_ S].
      destruct (H1 eq_refl) as [-> _]. destruct (B2 eq_refl) as [-> _]. apply B3; [reflexivity|exact S]. }
  apply is_ok_true in Es3. pose proof (A3 Es3) as Vp.
  assert (NN : ~ (null_in aad \/ null_in pt)) by (intros [X|X]; apply null_not_valid in X; contradiction).
  step_ssl b f4. destruct b; cbn [negb]; [|apply done_end; auto].
  destruct (N.ltb_spec r3 kAeadTagSize) as [L|L]; [apply done_end; auto|].
  step_ssl b f5. destruct b; cbn [negb]; [|apply done_end; auto].
  unfold kAeadTagSize in *.
  rewrite write_at_buf by (unfold evp_tag; rewrite (mac_len P HP); unfold kAeadTagSize; lia).
  unfold bind at 1. cbn [lift]. apply done_end; [exact NN|congruence].
Qed.

Lemma bssl_encrypt_total : forall P c nonce aad pt buf fs, prims_ok P -> crypter_ok c -> sum_lens pt + 16 < two64 ->
  done_null fs (Forall small_iov aad /\ Forall small_iov pt) (null_in aad \/ null_in pt)
    (bssl_encrypt P c nonce aad pt (IoBuf buf) fs).
Proof.
  intros P c nonce aad pt buf fs HP [Hc Ht] Hb. unfold bssl_encrypt.
  destruct (negb _); [apply done_stop; [discriminate|auto]|].
  destruct (checked_len_spec pt 0) as [D1 D2].
  destruct (iov_valid_dec pt) as [Vc|Vc]; [|rewrite D2 by exact Vc; apply done_stop; [discriminate|auto]].
  rewrite D1 by (auto; lia). rewrite Ht, N.add_0_l, wrap64_small by lia.
  destruct (N.ltb_spec (iov_len (IoBuf buf)) (16 + sum_lens pt)) as [L|L]; [apply done_stop; [discriminate|auto]|].
  cbn zeta. cbn [iov_len] in L.
  destruct (collect_checked_spec aad []) as [C1 C2].
  destruct (iov_valid_dec aad) as [Va|Va]; [|rewrite C2 by exact Va; apply done_stop; [discriminate|auto]].
  rewrite C1 by exact Va. cbn [app].
  assert (NN : ~ (null_in aad \/ null_in pt)) by (intros [X|X]; apply null_not_valid in X; contradiction).
  step_ssl b f. destruct b; cbn [negb].
  - rewrite write_at_buf.
    + unfold bind at 1. cbn [lift]. apply done_end; [exact NN|congruence].
    + unfold evp_tag. rewrite lenN_app, evp_xor_lenN, (mac_len P HP), <- (sum_lens_concat pt Vc). unfold kAeadTagSize. lia.
  - unfold bind at 1. cbn [lift zero_out]. apply done_end; auto.
Qed.

Lemma evp_decrypt_total : forall P c nonce aad ct buf fs, sum_lens ct < two64 -> ~ null_in_tag ct ->
  done_null fs (Forall small_iov aad /\ Forall small_iov ct) (null_in aad \/ null_in ct)
    (evp_decrypt P c nonce aad ct (IoBuf buf) fs).
Proof.
  intros P c nonce aad ct buf fs Hb Hn. unfold evp_decrypt. cbn zeta. rewrite total_len_sum by exact Hb.
  destruct (_ <? _); [apply done_stop; [discriminate|auto]|].
  destruct (init_context_total (cr_ctx c) nonce fs) as (st & e & f & E & H1).
  rewrite (bind_done _ _ _ _ _ _ _ E).
  destruct (is_ok st) eqn:Es; cbn [negb].
  2:{ apply is_ok_false in Es. apply done_stop; [exact Es|]. intros -> _. apply H1; reflexivity. }
  destruct (set_aad_total aad e f) as (st2 & e2 & f2 & E2 & A2 & B2).
  rewrite (bind_done _ _ _ _ _ _ _ E2).
  destruct (is_ok st2) eqn:Es2; cbn [negb].
  2:{ apply is_ok_false in Es2. apply done_stop; [exact Es2|]. intros -> [S _]. apply B2; [apply H1; reflexivity|exact S]. }
  apply is_ok_true in Es2. pose proof (A2 Es2) as Va.
  destruct (decrypt_loop_total P (cr_alg c) ct e2 buf (sum_lens ct) 0 (lenN buf) [] f2) as (r & f3 & E3 & D);
    [lia|right; split; [rewrite lenN_nil; lia|auto]|].
  cbn [iov_len]. rewrite (bind_done _ _ _ _ _ _ _ E3).
  assert (X : null_in aad \/ null_in ct -> fs = [] -> Forall small_iov aad /\ Forall small_iov ct ->
              exists e' out, r = DExit kInvalidArgument e' out).
  { intros [N|N] -> [_ S]; [apply null_not_valid in N; contradiction|].
    destruct (H1 eq_refl) as [-> _]. destruct (B2 eq_refl) as [-> _].
    destruct (decrypt_loop_null P (cr_alg c) ct e2 buf (sum_lens ct) 0 (lenN buf) []) as (e' & out & E4);
      [lia|split; [rewrite lenN_nil; lia|auto]|exact S|exact N|exact Hn|].
    rewrite E4 in E3. inversion E3. eauto. }
  destruct r as [st3 e3 o3|e3 o3 t3 rem3 cur3 rest3]; cbn [dloop_total] in D.
  - destruct D as [D _]. do 5 eexists. split; [reflexivity|]. split; [auto|].
    intros N. split; [exact D|]. intros A B. destruct (X N A B) as (? & ? & Y). inversion Y; reflexivity.
  - destruct D as [[b3 ->] D].
    assert (Y : forall n st out c' f, (st <> kOk -> n = 0) -> (null_in ct -> st <> kOk) ->
      done_null fs (Forall small_iov aad /\ Forall small_iov ct) (null_in aad \/ null_in ct)
        (Done ((c', (st, n), out), f))).
    { intros n st3 out c' f4 H K. do 5 eexists. split; [reflexivity|]. split; [exact H|].
      intros N. split; [destruct N as [N|N]; [apply null_not_valid in N; contradiction|auto]|].
      intros A B. destruct (X N A B) as (? & ? & Z). discriminate. }
    unfold kAeadTagSize. destruct (N.ltb_spec 16 t3) as [L|L].
    + unfold bind at 1. cbn [lift zero_out]. apply Y; [auto|discriminate].
    + destruct D as [D|(_ & D & N)]; [lia|].
      destruct (N.leb_spec (lenN cur3) 16) as [L2|L2]; [|lia].
      rewrite collect_tag_spec; [|destruct (iov_valid_dec rest3) as [V|V]; [exact V|
        exfalso; apply Hn, N, null_not_valid, V]|exact D].
      unfold bind at 1. cbn [lift]. unfold bind at 1. unfold check_tag.
      assert (NV : null_in ct -> Forall iov_valid ct -> False) by (intros Q V; apply null_not_valid in Q; contradiction).
      assert (V : Forall iov_valid ct).
      { apply decrypt_loop_exact in E3 as (body & _ & V & _); [|lia|lia|rewrite lenN_nil; lia|auto].
        apply V. destruct (iov_valid_dec rest3) as [V3|V3]; [exact V3|exfalso; apply Hn, N, null_not_valid, V3]. }
      step_ssl b f4. destruct b; cbn [negb].
      * cbn zeta. step_ssl b f5. destruct (_ && _); cbn [is_ok negb].
        -- apply Y; [congruence|]. intros Q. destruct (NV Q V).
        -- unfold bind at 1. cbn [lift zero_out is_ok negb]. apply Y; [auto|discriminate].
      * unfold bind at 1. cbn [lift zero_out is_ok negb]. apply Y; [auto|discriminate].
Qed.

Lemma bssl_decrypt_total : forall P c nonce aad ct buf fs, sum_lens ct < two64 ->
  done_null fs (Forall small_iov aad /\ Forall small_iov ct) (null_in aad \/ null_in ct)
    (bssl_decrypt P c nonce aad ct (IoBuf buf) fs).
Proof.
  intros P c nonce aad ct buf fs Hb. unfold bssl_decrypt.
  destruct (negb _); [apply done_stop; [discriminate|auto]|].
  destruct (checked_len_spec ct 0) as [D1 D2].
  destruct (iov_valid_dec ct) as [Vc|Vc]; [|rewrite D2 by exact Vc; apply done_stop; [discriminate|auto]].
  rewrite D1 by (auto; lia). rewrite N.add_0_l.
  destruct (_ <? _); [apply done_stop; [discriminate|auto]|].
  destruct (N.ltb_spec (iov_len (IoBuf buf)) (sum_lens ct - kAeadTagSize)) as [L|L]; [apply done_stop; [discriminate|auto]|].
  cbn zeta. cbn [iov_len] in L.
  destruct (collect_checked_spec aad []) as [C1 C2].
  destruct (iov_valid_dec aad) as [Va|Va]; [|rewrite C2 by exact Va; apply done_stop; [discriminate|auto]].
  rewrite C1 by exact Va. cbn [app].
  assert (NN : ~ (null_in aad \/ null_in ct)) by (intros [X|X]; apply null_not_valid in X; contradiction).
  step_ssl b f. destruct (_ && _).
  - rewrite write_at_buf.
    + unfold bind at 1. cbn [lift]. apply done_end; [exact NN|congruence].
    + rewrite evp_xor_lenN, lenN_takeN, <- (sum_lens_concat ct Vc). lia.
  - unfold bind at 1. cbn [lift zero_out]. apply done_end; auto.
Qed.

Lemma done_null_astep : forall P c op fs (small null : Prop),
  done_null fs small null (match op with
         | AEncrypt nonce aad pt out => aead_encrypt P c nonce aad pt out fs
         | ADecrypt nonce aad ct out => aead_decrypt P c nonce aad ct out fs
         end) ->
  exists c' r, astep P c op fs = Done (c', r) /\ (ar_st r <> kOk -> ar_n r = 0) /\
    (null -> ar_st r <> kOk /\ (fs = [] -> small -> ar_st r = kInvalidArgument)).
Proof.
  intros P c op fs small null (c' & st & n & out & fs' & E & A & B).
  unfold astep. rewrite E. cbn [obind]. do 2 eexists. split; [reflexivity|]. cbn. auto.
Qed.

Lemma C58_encrypt_lemma : forall P lib k key c nonce aad pt buf fs,
  prims_ok P -> areach P lib k key c -> sum_lens pt + 16 < two64 ->
  exists c' r, astep P c (AEncrypt nonce aad pt (IoBuf buf)) fs = Done (c', r) /\
    (ar_st r <> kOk -> ar_n r = 0) /\
    (null_in aad \/ null_in pt -> ar_st r <> kOk /\
       (fs = [] -> Forall small_iov aad /\ Forall small_iov pt -> ar_st r = kInvalidArgument)).
Proof.
  intros P lib k key c nonce aad pt buf fs HP Hr Hb.
  destruct (areach_config _ _ _ _ _ Hr) as (Hc & _).
  apply done_null_astep. unfold aead_encrypt.
  destruct (cr_impl c); [apply evp_encrypt_total|apply evp_encrypt_total|apply bssl_encrypt_total]; auto.
Qed.

Lemma C58_decrypt_lemma : forall P lib k key c nonce aad ct buf fs,
  areach P lib k key c -> sum_lens ct < two64 ->
  (k = KChachaPoly /\ lib = BoringSSL) \/ ~ null_in_tag ct ->
  exists c' r, astep P c (ADecrypt nonce aad ct (IoBuf buf)) fs = Done (c', r) /\
    (ar_st r <> kOk -> ar_n r = 0) /\
    (null_in aad \/ null_in ct -> ar_st r <> kOk /\
       (fs = [] -> Forall small_iov aad /\ Forall small_iov ct -> ar_st r = kInvalidArgument)).
Proof.
  intros P lib k key c nonce aad ct buf fs Hr Hb Hx.
  destruct (areach_config _ _ _ _ _ Hr) as (_ & _ & _ & Ei).
  apply done_null_astep. unfold aead_decrypt.
  destruct (cr_impl c); [apply evp_decrypt_total|apply evp_decrypt_total|apply bssl_decrypt_total]; auto;
    (destruct Hx as [Hx|Hx]; [apply Ei in Hx; discriminate|exact Hx]).
Qed.

Lemma C58_refuted_lemma : forall P lib k key c nonce buf,
  areach P lib k key c -> ~ (k = KChachaPoly /\ lib = BoringSSL) -> lenN nonce = 12 ->
  astep P c (ADecrypt nonce [] [IoNull 16] (IoBuf buf)) [] = Undef UbNullDeref.
Proof.
  intros P lib k key c nonce buf Hr Hx Hn.
  destruct (areach_config _ _ _ _ _ Hr) as (_ & _ & _ & Ei).
  assert (X : evp_decrypt P c nonce [] [IoNull 16] (IoBuf buf) [] = Undef UbNullDeref).
  { unfold evp_decrypt, init_context_using_nonce. cbn zeta. rewrite Hn. reflexivity. }
  unfold astep, aead_decrypt.
  destruct (cr_impl c) eqn:E; [rewrite X; reflexivity|rewrite X; reflexivity|].
  exfalso. apply Hx, Ei. reflexivity.
Qed.
