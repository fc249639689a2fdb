(* Lemmas about Aead.v. *)
From Coq Require Import List Arith NArith Bool Lia ZifyBool ZifyNat ZifyN.
From Verif Require Import Base BaseProofs Aead SpecAead.
Import ListNotations.
Local Open Scope N_scope.

Lemma keystream_length : forall P a k i off n, length (keystream P a k i off n) = n.
Proof. intros; unfold keystream; rewrite map_length, seq_length; reflexivity. Qed.

Lemma keystream_app : forall P a k i off n m,
  keystream P a k i off (n + m) =
  keystream P a k i off n ++ keystream P a k i (off + n) m.
Proof. intros; unfold keystream; rewrite seq_app, map_app; reflexivity. Qed.

Lemma evp_xor_length : forall P a e d, length (evp_xor P a e d) = length d.
Proof.
  intros; unfold evp_xor; rewrite xor_bytes_length, keystream_length; lia.
Qed.

Lemma evp_xor_lenN : forall P a e d, lenN (evp_xor P a e d) = lenN d.
Proof. intros; unfold lenN; rewrite evp_xor_length; reflexivity. Qed.

Lemma evp_xor_app : forall P a e d1 d2,
  evp_xor P a e (d1 ++ d2) =
  evp_xor P a e d1 ++ evp_xor P a (evp_add_ct e (evp_xor P a e d1)) d2.
Proof.
  intros; unfold evp_xor at 1; rewrite app_length, keystream_app.
  rewrite xor_bytes_app by (rewrite keystream_length; reflexivity).
  f_equal. unfold evp_xor; cbn [evp_add_ct ev_key ev_iv ev_ct].
  rewrite app_length, xor_bytes_length, keystream_length, Nat.min_id.
  reflexivity.
Qed.

(* The same for decryption, where the ciphertext read is what is recorded. *)
Lemma evp_xor_app_dec : forall P a e d1 d2,
  evp_xor P a e (d1 ++ d2) =
  evp_xor P a e d1 ++ evp_xor P a (evp_add_ct e d1) d2.
Proof.
  intros; rewrite evp_xor_app; f_equal.
  unfold evp_xor; cbn [evp_add_ct ev_key ev_iv ev_ct].
  rewrite !app_length, xor_bytes_length, keystream_length, Nat.min_id.
  reflexivity.
Qed.

Lemma evp_add_ct_app : forall e a b,
  evp_add_ct (evp_add_ct e a) b = evp_add_ct e (a ++ b).
Proof.
  intros; unfold evp_add_ct; cbn; rewrite app_assoc; reflexivity.
Qed.

Lemma evp_add_aad_app : forall e a b,
  evp_add_aad (evp_add_aad e a) b = evp_add_aad e (a ++ b).
Proof.
  intros; unfold evp_add_aad; cbn; rewrite app_assoc; reflexivity.
Qed.

Lemma evp_add_ct_nil : forall e, evp_add_ct e [] = e.
Proof. intros []; unfold evp_add_ct; cbn; rewrite app_nil_r; reflexivity. Qed.

Lemma evp_add_aad_nil : forall e, evp_add_aad e [] = e.
Proof. intros []; unfold evp_add_aad; cbn; rewrite app_nil_r; reflexivity. Qed.

Lemma evp_xor_nil : forall P a e, evp_xor P a e [] = [].
Proof. reflexivity. Qed.

Lemma bytes_eqb_eq : forall a b, bytes_eqb a b = true <-> a = b.
Proof.
  induction a as [|x a IH]; intros [|y b]; cbn; split; intro H;
    try reflexivity; try discriminate.
  - apply andb_prop in H; destruct H as [H1 H2].
    apply N.eqb_eq in H1; apply IH in H2; congruence.
  - injection H as -> ->. rewrite N.eqb_refl; cbn; apply IH; reflexivity.
Qed.

Lemma int_narrow_small : forall n, n < 2147483648 -> int_narrow n = Some n.
Proof.
  intros n H; unfold int_narrow; rewrite N.mod_small by lia.
  destruct (N.ltb_spec n 2147483648); [reflexivity|lia].
Qed.

Lemma ssl_cases : forall fs, exists b fs', ssl fs = Done (b, fs') /\
  (fs = [] -> b = true /\ fs' = []).
Proof.
  intros [|f fs]; unfold ssl; eauto. do 2 eexists; split; [reflexivity|discriminate].
Qed.

Ltac step_ssl b fs' :=
  match goal with
  | |- context [bind ssl _ ?fs] =>
    let H := fresh "Hssl" in let Hn := fresh "Hnil" in
    destruct (ssl_cases fs) as (b & fs' & H & Hn);
    rewrite (bind_done _ _ _ _ _ _ _ H)
  end.

Lemma is_ok_true : forall c, is_ok c = true <-> c = kOk.
Proof. intros []; cbn; split; intro; try reflexivity; discriminate. Qed.

Lemma is_ok_false : forall c, is_ok c = false <-> c <> kOk.
Proof. intros []; cbn; split; intro H; try reflexivity; try discriminate; congruence. Qed.

(* ------------------------------------------------------------------ *)
(* Building blocks of the streaming crypters *)

Lemma init_context_spec : forall e nonce fs, exists st e' fs',
  init_context_using_nonce e nonce fs = Done ((st, e'), fs') /\
  ev_key e' = ev_key e /\
  (st = kOk -> lenN nonce = 12 /\ e' = evp_init_nonce e nonce) /\
  (st = kOk \/ st = kInvalidArgument \/ st = kInternal) /\
  (lenN nonce = 12 -> fs = [] -> st = kOk /\ fs' = []).
Proof.
  intros e nonce fs; unfold init_context_using_nonce, kAeadNonceSize.
  destruct (N.eqb_spec (lenN nonce) 12) as [E|E]; cbn [negb].
  - step_ssl b fs'. destruct b.
    + do 3 eexists; split; [reflexivity|]; repeat split; auto.
      subst fs; apply Hnil; reflexivity.
    + do 3 eexists; split; [reflexivity|]; repeat split; auto; try discriminate.
      all: subst fs; destruct (Hnil eq_refl); discriminate.
  - do 3 eexists; split; [reflexivity|]; repeat split; auto; try discriminate;
      contradiction.
Qed.

Lemma set_aad_spec : forall aad e fs, Forall small_iov aad ->
  exists st e' fs',
  set_aad e aad fs = Done ((st, e'), fs') /\
  ev_key e' = ev_key e /\
  (st = kOk -> Forall iov_valid aad /\ e' = evp_add_aad e (iov_concat aad)) /\
  (st = kOk \/ st = kInvalidArgument \/ st = kInternal) /\
  (Forall iov_valid aad -> fs = [] -> st = kOk /\ fs' = []).
Proof.
  induction aad as [|v aad IH]; intros e fs Hs; cbn [set_aad].
  - do 3 eexists; split; [reflexivity|]; repeat split; auto.
    cbn; rewrite evp_add_aad_nil; reflexivity.
  - inversion Hs as [|? ? Hv Hs']; subst.
    destruct (N.eqb_spec (iov_len v) 0) as [E|E].
    + destruct (IH e fs Hs') as (st & e' & fs' & H1 & H2 & H3 & H4 & H5).
      exists st, e', fs'; split; [exact H1|]. split; [exact H2|].
      split; [|split; [exact H4|]].
      * intros Hok; destruct (H3 Hok) as [Ha Hb]; split.
        -- constructor; [destruct v; cbn in *; auto|assumption].
        -- rewrite iov_concat_cons, Hb.
           destruct v; cbn in *; [apply lenN_0 in E; subst|]; reflexivity.
      * intros Hval Hfs; inversion Hval; subst; auto.
    + destruct v as [d|n].
      * step_ssl b fs'. cbn in Hv; unfold small_iov in Hv; cbn in Hv.
        rewrite int_narrow_small by assumption.
        destruct b.
        -- rewrite N.eqb_refl, takeN_all by lia.
           destruct (IH (evp_add_aad e d) fs' Hs') as (st & e' & fs'' & H1 & H2 & H3 & H4 & H5).
           exists st, e', fs''; split; [exact H1|]. split; [exact H2|].
           split; [|split; [exact H4|]].
           ++ intros Hok; destruct (H3 Hok) as [Ha Hb]; split.
              ** constructor; [exact I|assumption].
              ** rewrite Hb, evp_add_aad_app; reflexivity.
           ++ intros Hval ->; inversion Hval; subst.
              apply H5; [assumption|]. apply Hnil; reflexivity.
        -- do 3 eexists; split; [reflexivity|]; repeat split; auto; try discriminate.
           all: subst fs; destruct (Hnil eq_refl); discriminate.
      * do 3 eexists; split; [reflexivity|]; repeat split; auto; try discriminate.
        all: inversion H; subst; cbn in *; contradiction.
Qed.

Lemma encrypt_loop_spec : forall P a pt e buf off rem fs,
  Forall small_iov pt -> off + rem = lenN buf ->
  exists st e' buf' off' rem' fs',
  encrypt_loop P a e pt (IoBuf buf) off rem fs =
    Done ((st, e', IoBuf buf', off', rem'), fs') /\
  lenN buf' = lenN buf /\ ev_key e' = ev_key e /\
  (st = kOk -> Forall iov_valid pt /\
     let ct := evp_xor P a e (iov_concat pt) in
     lenN ct <= rem /\ e' = evp_add_ct e ct /\
     buf' = takeN off buf ++ ct ++ dropN (off + lenN ct) buf /\
     off' = off + lenN ct /\ rem' = rem - lenN ct) /\
  (st = kOk \/ st = kInvalidArgument \/ st = kInternal) /\
  (Forall iov_valid pt -> sum_lens pt <= rem -> fs = [] -> st = kOk /\ fs' = []).
Proof.
  intros P a; induction pt as [|v pt IH]; intros e buf off rem fs Hs Hlen; cbn [encrypt_loop].
  - do 6 eexists; split; [reflexivity|]. repeat split; auto.
    + cbn [iov_concat flat_map]; rewrite evp_xor_nil, lenN_nil; lia.
    + cbn [iov_concat flat_map]; rewrite evp_xor_nil, evp_add_ct_nil; reflexivity.
    + cbn [iov_concat flat_map]; rewrite evp_xor_nil, lenN_nil; cbn [app].
      rewrite N.add_0_r, takeN_dropN; reflexivity.
    + cbn [iov_concat flat_map]; rewrite evp_xor_nil, lenN_nil; lia.
    + cbn [iov_concat flat_map]; rewrite evp_xor_nil, lenN_nil; lia.
  - inversion Hs as [|? ? Hv Hs']; subst.
    destruct (N.eqb_spec (iov_len v) 0) as [E|E].
    + destruct (IH e buf off rem fs Hs' Hlen)
        as (st & e' & buf' & off' & rem' & fs' & H1 & H2 & H3 & H4 & H5 & H6).
      assert (Ec : iov_concat (v :: pt) = iov_concat pt).
      { rewrite iov_concat_cons; destruct v; cbn in *; [apply lenN_0 in E; subst|]; reflexivity. }
      exists st, e', buf', off', rem', fs'. rewrite Ec.
      split; [exact H1|]. split; [exact H2|]. split; [exact H3|].
      split; [|split; [exact H5|]].
      * intros Hok; destruct (H4 Hok) as [Ha Hb]; split; [|exact Hb].
        constructor; [destruct v; cbn in *; auto|assumption].
      * intros Hval Hsum Hfs; inversion Hval; subst.
        apply H6; auto. cbn in Hsum; lia.
    + destruct v as [d|n].
      * cbn [iov_len] in *. unfold small_iov in Hv; cbn in Hv.
        destruct (N.ltb_spec rem (lenN d)) as [Hlt|Hge].
        -- do 6 eexists; split; [reflexivity|]. repeat split; auto; try discriminate.
           all: cbn in *; lia.
        -- step_ssl b fs'. rewrite int_narrow_small by assumption.
           destruct b.
           ++ rewrite takeN_all by lia.
              set (ct := evp_xor P a e d).
              assert (Hct : lenN ct = lenN d) by apply evp_xor_lenN.
              rewrite (bind_done _ _ _ _ fs' (IoBuf (takeN off buf ++ ct ++ dropN (off + lenN ct) buf)) fs').
              2:{ unfold lift; rewrite write_at_buf by lia; reflexivity. }
              destruct (IH (evp_add_ct e ct)
                 (takeN off buf ++ ct ++ dropN (off + lenN ct) buf)
                 (off + lenN d) (rem - lenN d) fs' Hs')
                as (st & e' & buf' & off' & rem' & fs'' & H1 & H2 & H3 & H4 & H5 & H6).
              { rewrite lenN_write by lia; lia. }
              rewrite lenN_write in H2 by lia.
              exists st, e', buf', off', rem', fs''.
              split; [exact H1|]. split; [exact H2|]. split; [exact H3|].
              split; [|split; [exact H5|]].
              ** intros Hok; destruct (H4 Hok) as [Ha Hb]; clear H4.
                 split; [constructor; [exact I|assumption]|].
                 rewrite iov_concat_cons; cbn [iov_data].
                 rewrite evp_xor_app; fold ct.
                 set (ct2 := evp_xor P a (evp_add_ct e ct) (iov_concat pt)) in *.
                 cbn zeta in Hb |- *. destruct Hb as (Hb1 & Hb2 & Hb3 & Hb4 & Hb5).
                 rewrite lenN_app. split; [lia|].
                 split; [rewrite Hb2, evp_add_ct_app; reflexivity|].
                 split; [|lia].
                 rewrite Hb3, <- Hct. rewrite write_write by lia.
                 rewrite lenN_app; reflexivity.
              ** intros Hval Hsum ->; inversion Hval; subst; cbn in Hsum.
                 apply H6; [assumption|lia|apply Hnil; reflexivity].
           ++ do 6 eexists; split; [reflexivity|]. repeat split; auto; try discriminate.
              all: subst fs; destruct (Hnil eq_refl); discriminate.
      * do 6 eexists; split; [reflexivity|]. repeat split; auto; try discriminate.
        all: inversion H; subst; cbn in *; contradiction.
Qed.

Lemma stream_evp : forall P a e d, ev_ct e = [] ->
  evp_xor P a e d = stream P a (ev_key e) (ev_iv e) d.
Proof. intros P a e d H; unfold evp_xor, stream, keystream; rewrite H; reflexivity. Qed.

Lemma seal_evp : forall P a e nonce aad m,
  let e1 := evp_add_aad (evp_init_nonce e nonce) aad in
  let ct := evp_xor P a e1 m in
  ct ++ evp_tag P a (evp_add_ct e1 ct) = seal P a (ev_key e) nonce aad m.
Proof. intros; subst e1 ct; unfold seal; reflexivity. Qed.

Lemma lenN_stream : forall P a k n m, lenN (stream P a k n m) = lenN m.
Proof.
  intros; unfold stream, lenN. rewrite xor_bytes_length, map_length, seq_length; lia.
Qed.

Lemma lenN_seal : forall P a k n d m, prims_ok P ->
  lenN (seal P a k n d m) = lenN m + 16.
Proof.
  intros P a k n d m HP; unfold seal; rewrite lenN_app, lenN_stream, (mac_len P HP).
  reflexivity.
Qed.

Lemma stream_involutive : forall P a k n m, stream P a k n (stream P a k n m) = m.
Proof.
  intros; unfold stream. rewrite xor_bytes_length, map_length, seq_length, Nat.min_id.
  apply xor_bytes_involutive. rewrite map_length, seq_length; lia.
Qed.

Lemma same_config_refl : forall c, same_config c c.
Proof. intros; repeat split. Qed.

Lemma same_config_trans : forall a b c,
  same_config a b -> same_config b c -> same_config a c.
Proof. unfold same_config; intuition congruence. Qed.

Lemma same_config_with_ctx : forall c e, ev_key e = ev_key (cr_ctx c) ->
  same_config c (with_ctx c e).
Proof. intros; repeat split; assumption. Qed.

Lemma collect_checked_spec : forall vs acc,
  (Forall iov_valid vs -> collect_checked vs acc = Some (acc ++ iov_concat vs)) /\
  (~ Forall iov_valid vs -> collect_checked vs acc = None).
Proof.
  induction vs as [|v vs IH]; intros acc; cbn [collect_checked].
  - split; intros H; [cbn; rewrite app_nil_r; reflexivity|]. exfalso; apply H; constructor.
  - destruct v as [d|n].
    + destruct (IH (acc ++ d)) as [H1 H2]; split; intros H.
      * inversion H; subst. rewrite H1 by assumption. rewrite <- app_assoc; reflexivity.
      * apply H2; intros Hc; apply H; constructor; [exact I|assumption].
    + destruct (N.eqb_spec n 0) as [E|E]; cbn [negb].
      * destruct (IH acc) as [H1 H2]; split; intros H.
        -- inversion H; subst. rewrite H1 by assumption; reflexivity.
        -- apply H2; intros Hc; apply H; constructor; assumption.
      * split; intros H; [|reflexivity]. inversion H; subst; contradiction.
Qed.

Lemma checked_len_spec : forall vs acc,
  (Forall iov_valid vs -> acc + sum_lens vs < two64 ->
     checked_len vs acc = Some (acc + sum_lens vs)) /\
  (~ Forall iov_valid vs -> checked_len vs acc = None).
Proof.
  induction vs as [|v vs IH]; intros acc; cbn [checked_len sum_lens].
  - split; intros H; [intros; f_equal; lia|]. exfalso; apply H; constructor.
  - destruct v as [d|n].
    + destruct (IH (wrap64 (acc + lenN d))) as [H1 H2]; split; intros H.
      * inversion H; subst. cbn [iov_len]; intros Hb.
        rewrite wrap64_small in * by lia.
        rewrite H1 by (auto; lia). f_equal; lia.
      * apply H2; intros Hc; apply H; constructor; [exact I|assumption].
    + destruct (N.eqb_spec n 0) as [E|E]; cbn [negb].
      * destruct (IH acc) as [H1 H2]; split; intros H.
        -- inversion H; subst. cbn [iov_len]; intros. rewrite H1 by (auto; lia). f_equal; lia.
        -- apply H2; intros Hc; apply H; constructor; assumption.
      * split; intros H; [|reflexivity]. inversion H; subst; contradiction.
Qed.

Lemma iov_valid_dec : forall vs, Forall iov_valid vs \/ ~ Forall iov_valid vs.
Proof.
  intros vs. destruct (Forall_dec iov_valid) with (l := vs); auto.
  intros [d|n]; cbn; [left; exact I|]. apply N.eq_dec.
Qed.

(* The one specification of Encrypt, for all three crypters. *)
Lemma aead_encrypt_spec : forall P c nonce aad pt buf fs,
  prims_ok P -> crypter_ok c ->
  Forall small_iov aad -> Forall small_iov pt -> sum_lens pt + 16 < two64 ->
  exists c' st n buf' fs',
  aead_encrypt P c nonce aad pt (IoBuf buf) fs =
    Done ((c', (st, n), IoBuf buf'), fs') /\
  same_config c c' /\ lenN buf' = lenN buf /\
  (st = kOk -> lenN nonce = 12 /\ Forall iov_valid aad /\ Forall iov_valid pt /\
     let s := seal P (cr_alg c) (crypter_key c) nonce (iov_concat aad) (iov_concat pt) in
     n = lenN s /\ n <= lenN buf /\ buf' = s ++ dropN n buf) /\
  (st <> kOk -> n = 0) /\
  (st = kOk \/ st = kInvalidArgument \/ st = kInternal) /\
  (lenN nonce = 12 -> Forall iov_valid aad -> Forall iov_valid pt ->
   sum_lens pt + 16 <= lenN buf -> fs = [] -> st = kOk /\ fs' = []).
Proof.
  intros P c nonce aad pt buf fs HP Hc Haad Hpt Htot.
  destruct Hc as [Hn Ht].
  assert (Hevp : cr_impl c <> ChachaBoringSSLImpl -> aead_encrypt P c = evp_encrypt P c).
  { unfold aead_encrypt; destruct (cr_impl c); congruence. }
  destruct (cr_impl c) eqn:Ei.
  1,2: rewrite Hevp by discriminate; clear Hevp; unfold evp_encrypt.
  3:{ clear Hevp; unfold aead_encrypt; rewrite Ei; unfold bssl_encrypt; rewrite Hn, Ht.
      destruct (N.eqb_spec (lenN nonce) 12) as [En|En]; cbn [negb].
      2:{ do 5 eexists; split; [reflexivity|]. split; [apply same_config_refl|].
          repeat split; auto; try discriminate; contradiction. }
      destruct (iov_valid_dec pt) as [Hv|Hv].
      2:{ rewrite (proj2 (checked_len_spec pt 0) Hv).
          do 5 eexists; split; [reflexivity|]. split; [apply same_config_refl|].
          repeat split; auto; try discriminate; contradiction. }
      rewrite (proj1 (checked_len_spec pt 0) Hv) by lia.
      rewrite N.add_0_l, wrap64_small by lia. cbn [iov_len].
      destruct (N.ltb_spec (lenN buf) (16 + sum_lens pt)) as [Hlt|Hge].
      { do 5 eexists; split; [reflexivity|]. split; [apply same_config_refl|].
        repeat split; auto; try discriminate; lia. }
      destruct (iov_valid_dec aad) as [Hva|Hva].
      2:{ rewrite (proj2 (collect_checked_spec aad []) Hva).
          do 5 eexists; split; [reflexivity|]. split; [apply same_config_refl|].
          repeat split; auto; try discriminate; contradiction. }
      rewrite (proj1 (collect_checked_spec aad []) Hva). cbn [app].
      step_ssl b fs'. destruct b; cbn [negb].
      - cbn zeta. rewrite seal_evp.
        set (s := seal P (cr_alg c) (ev_key (cr_ctx c)) nonce (iov_concat aad) (iov_concat pt)).
        assert (Hs : lenN s = lenN (iov_concat pt) + 16) by (apply lenN_seal; assumption).
        rewrite <- sum_lens_concat in Hs by assumption.
        rewrite (bind_done _ _ _ _ fs' (IoBuf (takeN 0 buf ++ s ++ dropN (0 + lenN s) buf)) fs').
        2:{ unfold lift; rewrite write_at_buf by lia; reflexivity. }
        do 5 eexists; split; [reflexivity|]. split; [apply same_config_refl|].
        split; [apply lenN_write; lia|].
        split; [|split; [congruence|split; [auto|]]].
        + intros _; repeat split; auto. fold s; lia.
        + intros _ _ _ _ ->; split; [reflexivity|]. apply Hnil; reflexivity.
      - do 5 eexists; split; [reflexivity|]. split; [apply same_config_refl|].
        split; [apply lenN_zeros|].
        repeat split; auto; try discriminate.
        all: subst fs; destruct (Hnil eq_refl); discriminate. }
  all: destruct (init_context_spec (cr_ctx c) nonce fs)
    as (st1 & e1 & fs1 & H1 & K1 & O1 & C1 & S1);
  rewrite (bind_done _ _ _ _ _ _ _ H1);
  destruct (is_ok st1) eqn:Eo1; cbn [negb];
  [ apply is_ok_true in Eo1
  | apply is_ok_false in Eo1; do 5 eexists; split; [reflexivity|];
    split; [apply same_config_with_ctx; exact K1|];
    split; [reflexivity|]; split; [contradiction|]; split; [reflexivity|];
    split; [exact C1|]; intros; exfalso; apply Eo1, S1; assumption ].
  all: destruct (O1 Eo1) as [En ->];
  destruct (set_aad_spec aad (evp_init_nonce (cr_ctx c) nonce) fs1 Haad)
    as (st2 & e2 & fs2 & H2 & K2 & O2 & C2 & S2);
  rewrite (bind_done _ _ _ _ _ _ _ H2);
  destruct (is_ok st2) eqn:Eo2; cbn [negb];
  [ apply is_ok_true in Eo2
  | apply is_ok_false in Eo2; do 5 eexists; split; [reflexivity|];
    split; [apply same_config_with_ctx; rewrite K2; reflexivity|];
    split; [reflexivity|]; split; [contradiction|]; split; [reflexivity|];
    split; [exact C2|]; intros; exfalso; apply Eo2, S2; [assumption|];
    apply S1; assumption ].
  all: destruct (O2 Eo2) as [Hva ->];
  cbn [iov_len];
  destruct (encrypt_loop_spec P (cr_alg c) pt
     (evp_add_aad (evp_init_nonce (cr_ctx c) nonce) (iov_concat aad)) buf 0 (lenN buf) fs2 Hpt
     ltac:(lia))
    as (st3 & e3 & buf3 & off3 & rem3 & fs3 & H3 & L3 & K3 & O3 & C3 & S3);
  rewrite (bind_done _ _ _ _ _ _ _ H3);
  destruct (is_ok st3) eqn:Eo3; cbn [negb];
  [ apply is_ok_true in Eo3
  | apply is_ok_false in Eo3; do 5 eexists; split; [reflexivity|];
    split; [apply same_config_with_ctx; rewrite K3; reflexivity|];
    split; [exact L3|]; split; [contradiction|]; split; [reflexivity|];
    split; [exact C3|]; intros; exfalso; apply Eo3, S3; [assumption|lia|];
    apply S2; [assumption|]; apply S1; assumption ].
  all: destruct (O3 Eo3) as [Hvp HO]; cbn zeta in HO;
  destruct HO as (A1 & A2 & A3 & A4 & A5);
  set (ct := evp_xor P (cr_alg c)
     (evp_add_aad (evp_init_nonce (cr_ctx c) nonce) (iov_concat aad)) (iov_concat pt)) in *;
  assert (Hct : lenN ct = sum_lens pt)
    by (unfold ct; rewrite evp_xor_lenN, sum_lens_concat by assumption; reflexivity).
  all: step_ssl b4 fs4; destruct b4; cbn [negb];
  [| do 5 eexists; split; [reflexivity|];
     split; [apply same_config_with_ctx; rewrite K3; reflexivity|];
     split; [exact L3|]; split; [discriminate|]; split; [reflexivity|];
     split; [auto|]; intros P1 P2 P3 P4 P5; exfalso;
     destruct (S1 P1 P5) as [_ Q1]; destruct (S2 P2 Q1) as [_ Q2];
     destruct (S3 P3 ltac:(lia) Q2) as [_ Q3]; destruct (Hnil Q3); discriminate ].
  all: unfold kAeadTagSize; destruct (N.ltb_spec rem3 16) as [Hlt|Hge];
  [ do 5 eexists; split; [reflexivity|];
     split; [apply same_config_with_ctx; rewrite K3; reflexivity|];
     split; [exact L3|]; split; [discriminate|]; split; [reflexivity|];
     split; [auto|]; intros; lia |].
  all: step_ssl b5 fs5; destruct b5; cbn [negb];
  [| do 5 eexists; split; [reflexivity|];
     split; [apply same_config_with_ctx; rewrite K3; reflexivity|];
     split; [exact L3|]; split; [discriminate|]; split; [reflexivity|];
     split; [auto|]; intros P1 P2 P3 P4 P5; exfalso;
     destruct (S1 P1 P5) as [_ Q1]; destruct (S2 P2 Q1) as [_ Q2];
     destruct (S3 P3 ltac:(lia) Q2) as [_ Q3]; destruct (Hnil Q3) as [_ Q4];
     destruct (Hnil0 Q4); discriminate ].
  all: assert (Htag : lenN (evp_tag P (cr_alg c) e3) = 16) by apply (mac_len P HP).
  all: rewrite (bind_done _ _ _ _ fs5 (IoBuf (takeN off3 buf3 ++ evp_tag P (cr_alg c) e3 ++
        dropN (off3 + lenN (evp_tag P (cr_alg c) e3)) buf3)) fs5)
    by (unfold lift; rewrite write_at_buf by lia; reflexivity).
  all: cbn [iov_len]; rewrite lenN_write by lia.
  all: do 5 eexists; split; [reflexivity|];
    split; [apply same_config_with_ctx; rewrite K3; reflexivity|];
    split; [rewrite lenN_write by lia; exact L3|].
  all: split; [|split; [congruence|split; [auto|]]].
  all: try (intros P1 P2 P3 P4 P5; split; [reflexivity|];
     destruct (S1 P1 P5) as [_ Q1]; destruct (S2 P2 Q1) as [_ Q2];
     destruct (S3 P3 ltac:(lia) Q2) as [_ Q3]; destruct (Hnil Q3) as [_ Q4];
     destruct (Hnil0 Q4); assumption).
  all: intros _; split; [assumption|]; split; [assumption|]; split; [assumption|].
  all: cbn zeta; unfold crypter_key; rewrite <- seal_evp; fold ct.
  all: rewrite A2 in *; rewrite lenN_app, Htag.
  all: split; [lia|]; split; [lia|].
  all: rewrite A4, L3, A3, <- Htag; rewrite write_write by lia;
    rewrite takeN_0; cbn [app]; rewrite lenN_app, Htag.
  all: f_equal; f_equal; lia.
Qed.

(* ------------------------------------------------------------------ *)
(* Decrypt *)

Lemma decrypt_loop_spec : forall P a ct e buf total off rem cur fs,
  Forall small_iov ct -> Forall iov_valid ct ->
  off + rem = lenN buf -> total = lenN cur + sum_lens ct -> 16 <= total ->
  (total <= 16 \/ cur = []) ->
  let body := takeN (total - 16) (iov_concat ct) in
  (exists st e' buf' fs',
     decrypt_loop P a e ct (IoBuf buf) total off rem cur fs =
       Done (DExit st e' (IoBuf buf'), fs') /\
     ev_key e' = ev_key e /\ lenN buf' = lenN buf /\
     ((st = kInternal /\ buf' = zeros (lenN buf)) \/
      (st = kInvalidArgument /\ rem < total - 16 /\
       exists j, j <= rem /\
         let pt := evp_xor P a e (takeN j body) in
         buf' = takeN off buf ++ pt ++ dropN (off + lenN pt) buf)) /\
     (total - 16 <= rem -> fs = [] -> False)) \/
  (exists e' buf' rem' cur' rest' fs',
     decrypt_loop P a e ct (IoBuf buf) total off rem cur fs =
       Done (DCont e' (IoBuf buf') 16 rem' cur' rest', fs') /\
     total - 16 <= rem /\
     e' = evp_add_ct e body /\
     (let pt := evp_xor P a e body in
      buf' = takeN off buf ++ pt ++ dropN (off + lenN pt) buf) /\
     rem' = rem - (total - 16) /\
     Forall iov_valid rest' /\
     cur' ++ iov_concat rest' =
       cur ++ dropN (total - 16) (iov_concat ct) /\
     (fs = [] -> fs' = [])).
Proof.
  intros P a; induction ct as [|v ct IH];
    intros e buf total off rem cur fs Hs Hval Hlen Htot H16 Hcur; cbn zeta;
    cbn [decrypt_loop].
  - cbn [sum_lens] in Htot.
    assert (total = 16) by (destruct Hcur as [|Hcur]; [lia|subst; rewrite lenN_nil in *; lia]).
    right. do 6 eexists. subst total.
    replace (lenN cur) with 16 in * by lia.
    split; [replace (16+0) with 16 by lia; reflexivity|].
    cbn [iov_concat flat_map]. replace (16 + 0 - 16) with 0 by lia.
    rewrite takeN_0, evp_xor_nil, lenN_nil, evp_add_ct_nil, N.add_0_r; cbn [app].
    rewrite takeN_dropN. repeat split; auto; lia.
  - inversion Hs as [|? ? Hv Hs']; subst.
    inversion Hval as [|? ? Hvv Hval']; subst.
    set (total := lenN cur + sum_lens (v :: ct)) in *.
    unfold kAeadTagSize. destruct (N.leb_spec total 16) as [Hle|Hgt].
    + right. do 6 eexists. assert (Et : total = 16) by lia. rewrite Et.
      split; [reflexivity|]. replace (16 - 16) with 0 by lia.
      rewrite takeN_0, evp_xor_nil, lenN_nil, evp_add_ct_nil, N.add_0_r; cbn [app].
      rewrite takeN_dropN. repeat split; auto; lia.
    + assert (cur = []) by (destruct Hcur; [lia|assumption]); subst cur.
      assert (Hts : total = sum_lens (v :: ct)) by (subst total; rewrite lenN_nil; lia).
      clearbody total.
      destruct (N.eqb_spec (iov_len v) 0) as [E|E].
      * assert (Ec : iov_concat (v :: ct) = iov_concat ct).
        { rewrite iov_concat_cons; destruct v; cbn in *; [apply lenN_0 in E; subst|]; reflexivity. }
        rewrite Ec.
        apply (IH e buf total off rem [] fs); auto.
        rewrite Hts; cbn [sum_lens]; rewrite E, lenN_nil; lia.
      * destruct v as [d|n]; [|cbn in *; contradiction].
        cbn [iov_len] in *. unfold small_iov in Hv; cbn in Hv.
        set (m := N.min (lenN d) (total - 16)) in *.
        assert (Hm : 0 < m) by lia.
        rewrite iov_concat_cons; cbn [iov_data].
        destruct (N.ltb_spec rem m) as [Hlt|Hge].
        -- left. do 4 eexists; split; [reflexivity|]. repeat split; auto.
           ++ right; split; [reflexivity|]; split; [lia|].
              exists 0; split; [lia|]. rewrite takeN_0, evp_xor_nil, lenN_nil, N.add_0_r.
              cbn [app]; rewrite takeN_dropN; reflexivity.
           ++ intros; lia.
        -- step_ssl b fs'. rewrite int_narrow_small by lia.
           destruct b.
           2:{ left. unfold zero_exit. do 4 eexists; split; [reflexivity|]. repeat split; auto.
               - apply lenN_zeros.
               - intros _ ->; destruct (Hnil eq_refl); discriminate. }
           set (inp := takeN m d).
           assert (Hinp : lenN inp = m) by (unfold inp; rewrite lenN_takeN; lia).
           set (pt := evp_xor P a e inp).
           assert (Hptl : lenN pt = m) by (unfold pt; rewrite evp_xor_lenN; assumption).
           rewrite (bind_done _ _ _ _ fs' (IoBuf (takeN off buf ++ pt ++ dropN (off + lenN pt) buf)) fs').
           2:{ unfold lift; rewrite write_at_buf by lia; reflexivity. }
           assert (Hdd : inp ++ dropN m d = d) by apply takeN_dropN.
           assert (Hbody : takeN (total - 16) (d ++ iov_concat ct) =
                           inp ++ takeN (total - m - 16) (iov_concat ct)).
           { destruct (N.le_gt_cases (lenN d) (total - 16)) as [Hl|Hl].
             - assert (Em : m = lenN d) by lia. unfold inp; rewrite Em.
               rewrite takeN_app_ge by lia. rewrite (takeN_all _ (lenN d) d) by lia.
               do 2 f_equal; lia.
             - assert (Em : m = total - 16) by lia. unfold inp; rewrite Em.
               rewrite takeN_app_le by lia.
               replace (total - (total - 16) - 16) with 0 by lia.
               rewrite takeN_0, app_nil_r; reflexivity. }
           assert (Hdrop : dropN (total - 16) (d ++ iov_concat ct) =
                           dropN m d ++ dropN (total - m - 16) (iov_concat ct)).
           { destruct (N.le_gt_cases (lenN d) (total - 16)) as [Hl|Hl].
             - assert (Em : m = lenN d) by lia. rewrite Em.
               rewrite dropN_app_ge by lia. rewrite (dropN_all _ (lenN d)) by lia.
               cbn [app]; f_equal; lia.
             - assert (Em : m = total - 16) by lia. rewrite Em.
               rewrite dropN_app_le by lia.
               replace (total - (total - 16) - 16) with 0 by lia.
               rewrite dropN_0; reflexivity. }
           rewrite Hbody, Hdrop.
           set (body' := takeN (total - m - 16) (iov_concat ct)) in *.
           destruct (IH (evp_add_ct e inp)
              (takeN off buf ++ pt ++ dropN (off + lenN pt) buf)
              (total - m) (off + m) (rem - m) (dropN m d) fs' Hs' Hval')
             as [(st & e' & buf' & fs'' & H1 & H2 & H3 & H4 & H5) |
                 (e' & buf' & rem' & cur' & rest' & fs'' & H1 & H2 & H3 & H4 & H5 & H6 & H7 & H8)].
           ++ rewrite lenN_write by lia; lia.
           ++ rewrite lenN_dropN. cbn [sum_lens iov_len] in Hts; lia.
           ++ lia.
           ++ destruct (N.le_gt_cases (lenN d) (total - 16)).
              ** right; apply dropN_all; lia.
              ** left; lia.
           ++ left. exists st, e', buf', fs''. fold body' in H4.
              rewrite lenN_write in H3, H4 by lia.
              split; [exact H1|]. split; [exact H2|]. split; [exact H3|].
              split.
              ** destruct H4 as [H4|(H4a & H4b & j & H4c & H4d)]; [left; exact H4|right].
                 split; [exact H4a|]. split; [lia|]. exists (m + j); split; [lia|].
                 cbn zeta in H4d |- *.
                 replace (takeN (m + j) (inp ++ body')) with (inp ++ takeN j body').
                 2:{ rewrite <- Hinp. rewrite takeN_app_ge by lia. do 2 f_equal; lia. }
                 rewrite evp_xor_app_dec; fold pt.
                 set (pt2 := evp_xor P a (evp_add_ct e inp) (takeN j body')) in *.
                 assert (lenN pt2 <= j) by (unfold pt2; rewrite evp_xor_lenN, lenN_takeN; lia).
                 rewrite H4d. rewrite <- Hptl at 1 2. rewrite write_write by lia. reflexivity.
              ** intros Ha ->; apply H5; [lia|apply Hnil; reflexivity].
           ++ right. fold body' in H3, H4. exists e', buf', rem', cur', rest', fs''.
              split; [exact H1|]. split; [lia|].
              split; [rewrite H3, evp_add_ct_app; reflexivity|].
              split.
              ** cbn zeta in H4 |- *. rewrite evp_xor_app_dec; fold pt.
                 set (pt2 := evp_xor P a (evp_add_ct e inp) body') in *.
                 assert (lenN pt2 <= total - m - 16)
                   by (unfold pt2, body'; rewrite evp_xor_lenN, lenN_takeN; lia).
                 rewrite H4. rewrite <- Hptl at 1 2. rewrite write_write by lia. reflexivity.
              ** split; [lia|]. split; [exact H6|]. split.
                 --- rewrite H7. reflexivity.
                 --- intros ->; apply H8, Hnil; reflexivity.
Qed.

Lemma collect_tag_spec : forall rest tag, Forall iov_valid rest ->
  lenN tag + sum_lens rest <= 16 ->
  collect_tag tag rest = Done (tag ++ iov_concat rest).
Proof.
  induction rest as [|v rest IH]; intros tag Hv Hl; cbn [collect_tag].
  - cbn; rewrite app_nil_r; reflexivity.
  - inversion Hv; subst. cbn [sum_lens] in Hl.
    destruct (N.eqb_spec (iov_len v) 0) as [E|E].
    + rewrite IH by (auto; lia). rewrite iov_concat_cons.
      destruct v; cbn in *; [apply lenN_0 in E; subst|]; reflexivity.
    + destruct v as [d|n]; [|cbn in *; contradiction].
      cbn [iov_len] in *. unfold kAeadTagSize.
      destruct (N.leb_spec (lenN tag + lenN d) 16); [|lia].
      rewrite IH by (auto; rewrite lenN_app; lia).
      rewrite iov_concat_cons, app_assoc; reflexivity.
Qed.

Lemma stream_takeN : forall P a k n j m,
  stream P a k n (takeN j m) = takeN j (stream P a k n m).
Proof.
  intros. unfold stream, takeN. rewrite firstn_length.
  generalize (N.to_nat j); clear j; intros j.
  generalize 0%nat as s. revert j; induction m as [|x m IH]; intros j s.
  - rewrite !firstn_nil; reflexivity.
  - destruct j; cbn; [reflexivity|]. f_equal. apply IH.
Qed.

Lemma app_tag_split : forall (b t : bytes), lenN t = 16 ->
  takeN (lenN (b ++ t) - 16) (b ++ t) = b /\
  dropN (lenN (b ++ t) - 16) (b ++ t) = t.
Proof.
  intros b t H. rewrite lenN_app, H. replace (lenN b + 16 - 16) with (lenN b) by lia.
  split; [apply takeN_app_exact|apply dropN_app_exact].
Qed.

(* The one specification of Decrypt, for all three crypters. *)
Lemma aead_decrypt_spec : forall P c nonce aad ct buf fs,
  prims_ok P -> crypter_ok c ->
  Forall small_iov aad -> Forall small_iov ct -> Forall iov_valid ct ->
  sum_lens ct < two64 ->
  exists c' st n buf' fs',
  aead_decrypt P c nonce aad ct (IoBuf buf) fs =
    Done ((c', (st, n), IoBuf buf'), fs') /\
  same_config c c' /\ lenN buf' = lenN buf /\
  (st = kOk -> lenN nonce = 12 /\ Forall iov_valid aad /\
     exists body,
       iov_concat ct = body ++ p_mac P (cr_alg c) (crypter_key c) nonce (iov_concat aad) body /\
       n = lenN body /\ n <= lenN buf /\
       buf' = stream P (cr_alg c) (crypter_key c) nonce body ++ dropN n buf) /\
  (st <> kOk -> n = 0 /\
     (buf' = buf \/ buf' = zeros (lenN buf) \/
      (cr_impl c <> ChachaBoringSSLImpl /\ st = kInvalidArgument /\
       lenN buf + 16 < lenN (iov_concat ct) /\
       exists j, j <= lenN buf /\
         buf' = stream P (cr_alg c) (crypter_key c) nonce (takeN j (iov_concat ct)) ++ dropN j buf))) /\
  (st = kOk \/ st = kInvalidArgument \/ st = kInternal) /\
  (forall body, lenN nonce = 12 -> Forall iov_valid aad ->
     iov_concat ct = body ++ p_mac P (cr_alg c) (crypter_key c) nonce (iov_concat aad) body ->
     lenN body <= lenN buf -> fs = [] -> st = kOk /\ fs' = []).
Proof.
  intros P c nonce aad ct buf fs HP Hc Haad Hct Hv Htot.
  destruct Hc as [Hn Ht].
  assert (Hmac : forall a k n d b, lenN (p_mac P a k n d b) = 16) by apply (mac_len P HP).
  pose proof (sum_lens_concat ct Hv) as Hsum.
  set (all := iov_concat ct) in *.
  assert (Hevp : cr_impl c <> ChachaBoringSSLImpl -> aead_decrypt P c = evp_decrypt P c).
  { unfold aead_decrypt; destruct (cr_impl c); congruence. }
  assert (Hcase : cr_impl c = ChachaBoringSSLImpl \/ cr_impl c <> ChachaBoringSSLImpl)
    by (destruct (cr_impl c); [right|right|left]; congruence).
  destruct Hcase as [Ei|Ei].
  - clear Hevp; unfold aead_decrypt; rewrite Ei; unfold bssl_decrypt; rewrite Hn.
    destruct (N.eqb_spec (lenN nonce) 12) as [En|En]; cbn [negb].
    2:{ do 5 eexists; split; [reflexivity|]. split; [apply same_config_refl|].
        repeat split; auto; try discriminate; contradiction. }
    rewrite (proj1 (checked_len_spec ct 0) Hv) by lia.
    rewrite N.add_0_l. cbn [iov_len]. unfold kAeadTagSize.
    destruct (N.ltb_spec (sum_lens ct) 16) as [Hlt|Hge].
    { do 5 eexists; split; [reflexivity|]. split; [apply same_config_refl|].
      repeat split; auto; try discriminate.
      all: exfalso; rewrite Hsum in Hlt; rewrite H1 in Hlt;
        rewrite lenN_app, Hmac in Hlt; lia. }
    destruct (N.ltb_spec (lenN buf) (sum_lens ct - 16)) as [Hlt2|Hge2].
    { do 5 eexists; split; [reflexivity|]. split; [apply same_config_refl|].
      repeat split; auto; try discriminate.
      all: exfalso; rewrite Hsum in *; rewrite H1 in *;
        rewrite lenN_app, Hmac in *; lia. }
    fold all.
    destruct (iov_valid_dec aad) as [Hva|Hva].
    2:{ rewrite (proj2 (collect_checked_spec aad []) Hva).
        do 5 eexists; split; [reflexivity|]. split; [apply same_config_refl|].
        repeat split; auto; try discriminate; contradiction. }
    rewrite (proj1 (collect_checked_spec aad []) Hva). cbn [app].
    step_ssl b fs'. cbn zeta.
    set (body := takeN (lenN all - 16) all).
    set (tag := dropN (lenN all - 16) all).
    assert (Hall : body ++ tag = all) by apply takeN_dropN.
    assert (Hbl : lenN body = lenN all - 16) by (unfold body; rewrite lenN_takeN; lia).
    set (e := evp_add_aad (evp_init_nonce (cr_ctx c) nonce) (iov_concat aad)).
    change (evp_tag P (cr_alg c) (evp_add_ct e body)) with
      (p_mac P (cr_alg c) (crypter_key c) nonce (iov_concat aad) body).
    change (evp_xor P (cr_alg c) e body) with
      (stream P (cr_alg c) (crypter_key c) nonce body).
    destruct (b && bytes_eqb tag
        (p_mac P (cr_alg c) (crypter_key c) nonce (iov_concat aad) body)) eqn:Eb.
    + apply andb_prop in Eb; destruct Eb as [-> Eb]. apply bytes_eqb_eq in Eb.
      set (pt := stream P (cr_alg c) (crypter_key c) nonce body).
      assert (Hpl : lenN pt = lenN body) by apply lenN_stream.
      rewrite (bind_done _ _ _ _ fs' (IoBuf (takeN 0 buf ++ pt ++ dropN (0 + lenN pt) buf)) fs').
      2:{ unfold lift; rewrite write_at_buf by lia; reflexivity. }
      do 5 eexists; split; [reflexivity|]. split; [apply same_config_refl|].
      split; [apply lenN_write; lia|].
      split; [|split; [congruence|split; [auto|]]].
      * intros _; repeat split; auto. exists body; rewrite <- Eb, Hall.
        repeat split; try lia. rewrite takeN_0; cbn [app]; fold pt.
        rewrite Hpl; do 2 f_equal; lia.
      * intros ? _ _ _ _ ->; split; [reflexivity|]; apply Hnil; reflexivity.
    + do 5 eexists; split; [reflexivity|]. split; [apply same_config_refl|].
      split; [apply lenN_zeros|].
      split; [discriminate|]. split; [auto|]. split; [auto|].
      intros body0 _ _ Hb0 _ ->. exfalso. destruct (Hnil eq_refl) as [-> _].
      cbn [andb] in Eb.
      destruct (app_tag_split body0 _ (Hmac (cr_alg c) (crypter_key c) nonce (iov_concat aad) body0))
        as [T1 T2].
      rewrite <- Hb0 in T1, T2. fold body in T1. fold tag in T2. rewrite T1, T2 in Eb.
      rewrite (proj2 (bytes_eqb_eq _ _)) in Eb; [discriminate|reflexivity].
  - rewrite Hevp by assumption; clear Hevp; unfold evp_decrypt.
    rewrite total_len_sum by assumption. unfold kAeadTagSize at 1.
    destruct (N.ltb_spec (sum_lens ct) 16) as [Hlt|Hge].
    { do 5 eexists; split; [reflexivity|]. split; [apply same_config_refl|].
      repeat split; auto; try discriminate.
      all: exfalso; rewrite Hsum in Hlt; rewrite H1 in Hlt;
        rewrite lenN_app, Hmac in Hlt; lia. }
    destruct (init_context_spec (cr_ctx c) nonce fs)
      as (st1 & e1 & fs1 & H1 & K1 & O1 & C1 & S1);
    rewrite (bind_done _ _ _ _ _ _ _ H1);
    destruct (is_ok st1) eqn:Eo1; cbn [negb];
    [ apply is_ok_true in Eo1
    | apply is_ok_false in Eo1; do 5 eexists; split; [reflexivity|];
      split; [apply same_config_with_ctx; exact K1|];
      split; [reflexivity|]; split; [contradiction|]; split; [auto|];
      split; [exact C1|]; intros; exfalso; apply Eo1, S1; assumption ].
    destruct (O1 Eo1) as [En ->].
    destruct (set_aad_spec aad (evp_init_nonce (cr_ctx c) nonce) fs1 Haad)
      as (st2 & e2 & fs2 & H2 & K2 & O2 & C2 & S2);
    rewrite (bind_done _ _ _ _ _ _ _ H2);
    destruct (is_ok st2) eqn:Eo2; cbn [negb];
    [ apply is_ok_true in Eo2
    | apply is_ok_false in Eo2; do 5 eexists; split; [reflexivity|];
      split; [apply same_config_with_ctx; rewrite K2; reflexivity|];
      split; [reflexivity|]; split; [contradiction|]; split; [auto|];
      split; [exact C2|]; intros; exfalso; apply Eo2, S2; [assumption|];
      apply S1; assumption ].
    destruct (O2 Eo2) as [Hva ->].
    set (e := evp_add_aad (evp_init_nonce (cr_ctx c) nonce) (iov_concat aad)) in *.
    cbn [iov_len].
    destruct (decrypt_loop_spec P (cr_alg c) ct e buf (sum_lens ct) 0 (lenN buf) [] fs2 Hct Hv)
      as [(st & e' & buf' & fs'' & L1 & L2 & L3 & L4 & L5) |
          (e' & buf' & rem' & cur' & rest' & fs'' & L1 & L2 & L3 & L4 & L5 & L6 & L7 & L8)];
      try (rewrite ?lenN_nil; lia); [right; reflexivity| |].
    + rewrite (bind_done _ _ _ _ _ _ _ L1).
      do 5 eexists; split; [reflexivity|].
      split; [apply same_config_with_ctx; rewrite L2; reflexivity|].
      split; [exact L3|].
      assert (Hst : st = kInternal \/ st = kInvalidArgument) by tauto.
      split; [intros ->; destruct Hst; discriminate|].
      split.
      * intros _; split; [reflexivity|]. right.
        destruct L4 as [[_ L4]|(L4 & L4' & j & L4b & L4c)]; [left; exact L4|right].
        split; [exact Ei|]. split; [exact L4|]. split; [lia|].
        exists j; split; [lia|].
        cbn zeta in L4c. rewrite takeN_takeN in L4c.
        fold all in L4c.
        replace (N.min j (sum_lens ct - 16)) with j in L4c by lia.
        change (evp_xor P (cr_alg c) e (takeN j all)) with
          (stream P (cr_alg c) (crypter_key c) nonce (takeN j all)) in L4c.
        rewrite L4c, takeN_0; cbn [app]. rewrite lenN_stream, lenN_takeN.
        do 2 f_equal; lia.
      * split; [tauto|]. intros body Q1 Q2 Q3 Q4 Q5; exfalso; apply L5.
        -- rewrite Hsum, Q3, lenN_app, Hmac; lia.
        -- apply S2; [assumption|]; apply S1; assumption.
    + rewrite (bind_done _ _ _ _ _ _ _ L1). unfold kAeadTagSize.
      destruct (N.ltb_spec 16 16); [lia|].
      fold all in L3, L4, L7. rewrite Hsum in *.
      set (body := takeN (lenN all - 16) all) in *.
      set (tag := dropN (lenN all - 16) all) in *.
      assert (Hall : body ++ tag = all) by apply takeN_dropN.
      assert (Hbl : lenN body = lenN all - 16) by (unfold body; rewrite lenN_takeN; lia).
      assert (Htl : lenN tag = 16) by (unfold tag; rewrite lenN_dropN; lia).
      cbn [app] in L7.
      assert (Hcl : lenN cur' + sum_lens rest' = 16).
      { rewrite sum_lens_concat by assumption. rewrite <- lenN_app, L7. exact Htl. }
      rewrite (bind_done _ _ _ _ fs'' tag fs'').
      2:{ destruct (N.leb_spec (lenN cur') 16); [|lia].
          unfold lift; rewrite collect_tag_spec by (auto; lia). rewrite L7; reflexivity. }
      cbn zeta in L4. set (pt := evp_xor P (cr_alg c) e body) in *.
      assert (Hpt : pt = stream P (cr_alg c) (crypter_key c) nonce body) by reflexivity.
      assert (Hpl : lenN pt = lenN body) by (rewrite Hpt; apply lenN_stream).
      assert (Hb' : lenN buf' = lenN buf) by (rewrite L4; apply lenN_write; lia).
      unfold check_tag.
      assert (Hfsn : lenN nonce = 12 -> Forall iov_valid aad -> fs = [] ->
                fs'' = []).
      { intros Q1 Q2 Q3. apply L8, S2; [assumption|]. apply S1; assumption. }
      destruct (ssl_cases fs'') as (b4 & fs4 & A4 & N4).
      destruct (ssl_cases fs4) as (b5 & fs5 & A5 & N5).
      unfold bind at 1. rewrite (bind_done _ _ _ _ _ _ _ A4).
      destruct b4; cbn [negb].
      2:{ unfold bind, lift; cbn [zero_out is_ok code_eqb negb ret].
          do 5 eexists; split; [reflexivity|].
          split; [apply same_config_with_ctx; rewrite L3; reflexivity|].
          split; [rewrite lenN_zeros; exact Hb'|].
          split; [discriminate|]. split; [rewrite Hb'; auto|]. split; [auto|].
          intros ? Q1 Q2 Q3 Q4 Q5. specialize (N4 (Hfsn Q1 Q2 Q5)).
          destruct N4; discriminate. }
      cbn zeta. rewrite (bind_done _ _ _ _ _ _ _ A5).
      change (evp_tag P (cr_alg c) (evp_set_tag e' tag)) with (evp_tag P (cr_alg c) e').
      rewrite L3.
      change (evp_tag P (cr_alg c) (evp_add_ct e body)) with
        (p_mac P (cr_alg c) (crypter_key c) nonce (iov_concat aad) body).
      destruct (b5 && bytes_eqb tag
        (p_mac P (cr_alg c) (crypter_key c) nonce (iov_concat aad) body)) eqn:Eb.
      * apply andb_prop in Eb; destruct Eb as [-> Eb]. apply bytes_eqb_eq in Eb.
        cbn [ret is_ok code_eqb negb iov_len].
        do 5 eexists; split; [reflexivity|].
        split; [apply same_config_with_ctx; reflexivity|].
        split; [exact Hb'|].
        split; [|split; [congruence|split; [auto|]]].
        -- intros _; repeat split; auto. exists body; rewrite <- Eb, Hall.
           repeat split; try lia. rewrite Hb', L4, takeN_0; cbn [app].
           rewrite <- Hpt, Hpl; do 2 f_equal; lia.
        -- intros ? Q1 Q2 Q3 Q4 Q5; split; [reflexivity|]. apply N5, N4, Hfsn; assumption.
      * unfold bind, lift; cbn [zero_out is_ok code_eqb negb ret].
        do 5 eexists; split; [reflexivity|].
        split; [apply same_config_with_ctx; reflexivity|].
        split; [rewrite lenN_zeros; exact Hb'|].
        split; [discriminate|]. split; [rewrite Hb'; auto|]. split; [auto|].
        intros body0 Q1 Q2 Hb0 Q4 Q5. exfalso.
        specialize (N4 (Hfsn Q1 Q2 Q5)). destruct N4 as [_ N4].
        specialize (N5 N4). destruct N5 as [-> _].
        cbn [andb] in Eb.
        destruct (app_tag_split body0 _ (Hmac (cr_alg c) (crypter_key c) nonce (iov_concat aad) body0))
          as [T1 T2].
        rewrite <- Hb0 in T1, T2. fold body in T1. fold tag in T2. rewrite T1, T2 in Eb.
        rewrite (proj2 (bytes_eqb_eq _ _)) in Eb; [discriminate|reflexivity].
Qed.
