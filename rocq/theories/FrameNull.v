(* Protect on input with a null pointer of positive length. *)
From Coq Require Import List NArith ZArith Wf_nat Bool Lia ZifyBool ZifyNat ZifyN.
From Verif Require Import Base BaseProofs Aead SpecAead AeadProofs AeadRun AeadRunProofs AeadTotalProofs Hkdf HalfConn
  SpecTls HkdfProofs HalfProofs Options HsHandler SpecHs HsProofs Crypter SpecRecord CrypterProofs
  SpecRx CrypterRun CrypterRunProofs SpecRxProofs CrypterLemmas CrypterLemmas2
  FrameProt SpecFrame FrameRun FrameProofs Calm FrameRx FrameRef.
Import ListNotations.
Local Open Scope N_scope.
Ltac Zify.zify_post_hook ::= Z.div_mod_to_equations.

(* ---- the record layer ---- *)
Lemma half_encrypt_null : forall P h d aad pt buf, prims_ok P -> half_rel P h d -> dir_usable d ->
  Forall small_iov aad -> Forall small_iov pt -> sum_lens pt + 16 < two64 -> ~ Forall iov_valid pt ->
  exists h' out fs', half_encrypt P h aad pt (IoBuf buf) [] = Done ((h', (kInvalidArgument, 0), out), fs').
Proof.
  intros P h d aad pt buf HP R Hu Ha Hp Hs Hv. unfold half_encrypt.
  destruct (half_draw P h d R Hu) as (Hf & h1 & c & Hc & Hc1 & Hm & Hok & _).
  rewrite Hc, Hf. unfold lift at 1. rewrite Hm. unfold bind at 1. apply null_not_valid in Hv.
  assert (D : done_null [] (Forall small_iov aad /\ Forall small_iov pt) (null_in aad \/ null_in pt)
    (aead_encrypt P c (record_nonce (traffic_iv P (d_suite d) (d_secret d)) (d_seq d)) aad pt (IoBuf buf) [])).
  { unfold aead_encrypt. destruct (cr_impl c); [apply evp_encrypt_total|apply evp_encrypt_total|apply bssl_encrypt_total]; auto. }
  destruct D as (c' & st & n & out & fs' & E & D1 & D2). rewrite (bind_done _ _ _ _ _ _ _ E).
  destruct (D2 (or_intror Hv)) as (D3 & D4). rewrite (D4 eq_refl (conj Ha Hp)) in *. rewrite (D1 ltac:(discriminate)).
  do 3 eexists. reflexivity.
Qed.

Lemma crypt_protect_null : forall P x din dout t pt buf, prims_ok P ->
  half_rel P (cx_in x) din -> half_rel P (cx_out x) dout -> sum_lens pt < two64 -> fits pt buf -> dir_usable dout ->
  ~ Forall iov_valid pt ->
  exists x' out fs', crypt_protect P x t pt (IoBuf buf) [] = Done ((x', (S_INVALID_ARGUMENT, 0), out), fs').
Proof.
  intros P x din dout t pt buf HP Rin Rout Hsz [Hf1 Hf2] Hu Hv. unfold crypt_protect.
  rewrite total_len_sum by exact Hsz. cbn [iov_len]. unfold kTlsMaxPlaintextSize.
  destruct (N.ltb_spec 16384 (sum_lens pt)) as [K|_]; [lia|].
  rewrite (record_overhead_spec _ _ _ Rin). unfold lift, bind at 1.
  destruct (N.ltb_spec (lenN buf) (sum_lens pt + 22)) as [K|_]; [lia|].
  rewrite (half_tag_spec _ _ _ Rout). unfold bind at 1. rewrite record_header_spec.
  set (pt1 := pt ++ [IoBuf [convert_record_type t]]).
  assert (Hs1 : sum_lens pt1 = sum_lens pt + 1) by (unfold pt1; rewrite BaseProofs.sum_lens_app; cbn; lia).
  set (hdr := tls_header (sum_lens pt + 1 + 16)).
  destruct (half_encrypt_null P (cx_out x) dout [IoBuf hdr] pt1 (dropN kTlsRecordHeaderSize buf) HP Rout Hu) as (h' & out & fs' & E).
  { constructor; [unfold small_iov; cbn; lia|constructor]. }
  { apply small_le. lia. }
  { rewrite Hs1. unfold two64. lia. }
  { intros K. apply Hv. unfold pt1 in K. apply Forall_app in K. tauto. }
  rewrite (bind_done _ _ _ _ _ _ _ E). cbn [is_ok code_eqb negb]. unfold bind, lift. do 3 eexists. reflexivity.
Qed.

(* The first null pointer with a positive length. *)
Lemma null_cut : forall input, ~ Forall iov_valid input ->
  exists pre n post, input = pre ++ IoNull n :: post /\ Forall iov_valid pre /\ 0 < n.
Proof.
  induction input as [|v input IH]; intros H; [exfalso; apply H; constructor|].
  destruct v as [b|n].
  - destruct IH as (pre & n & post & -> & V & Hn); [intros K; apply H; constructor; [exact I|exact K]|].
    exists (IoBuf b :: pre), n, post. split; [reflexivity|]. split; [constructor; [exact I|exact V]|exact Hn].
  - destruct (N.eq_dec n 0) as [->|Hn].
    + destruct IH as (pre & n & post & -> & V & Hn); [intros K; apply H; constructor; [reflexivity|exact K]|].
      exists (IoNull 0 :: pre), n, post. split; [reflexivity|]. split; [constructor; [reflexivity|exact V]|exact Hn].
    + exists [], n, input. split; [reflexivity|]. split; [constructor|lia].
Qed.

(* ---- collecting a block ---- *)
Lemma cur_len_app : forall pre x on, cur_ok (pre, on) -> cur_len (pre ++ x, on) = cur_len (pre, on) + sum_lens x.
Proof.
  intros [|v pre] x on H; cbn [app].
  - cbn in H. subst. destruct (cur_start x) as (_ & -> & _). reflexivity.
  - rewrite !cur_len_cons, BaseProofs.sum_lens_app. lia.
Qed.

Lemma collect_app : forall pre x on need ps vs' on', lens_ok pre -> cur_ok (pre, on) -> need <= cur_len (pre, on) ->
  collect_chunk pre on need = Done (ps, (vs', on')) -> collect_chunk (pre ++ x) on need = Done (ps, (vs' ++ x, on')).
Proof.
  induction pre as [|v pre IH]; intros x on need ps vs' on' Hl Hc Hn E.
  - cbn [cur_len] in Hn. assert (need = 0) by lia. subst. cbn in E. injection E as <- <- <-. cbn [app]. destruct x; reflexivity.
  - cbn [app collect_chunk] in *. destruct (N.eqb_spec need 0) as [->|Hne]; [injection E as <- <- <-; reflexivity|].
    destruct (iov_slice v on (N.min (sub64 (iov_len v) on) need)) as [p|u|]; cbn [obind] in *; try discriminate.
    assert (Hon : on <= iov_len v) by (destruct Hc as [->|(d & -> & H)]; cbn [iov_len]; lia).
    inversion Hl as [|? ? Hlv Hlr]; subst.
    assert (Es : sub64 (iov_len v) on = iov_len v - on) by (apply sub64_small; lia). rewrite Es in *.
    rewrite cur_len_cons in Hn.
    destruct (N.leb_spec (iov_len v) (on + N.min (iov_len v - on) need)) as [Hfull|Hpart].
    + destruct (collect_chunk pre 0 (need - N.min (iov_len v - on) need)) as [[ps1 [v1 o1]]|u|] eqn:E1; cbn [obind] in *; try discriminate.
      injection E as <- <- <-. destruct (cur_start pre) as (C1 & C2 & _).
      assert (Hle : need - N.min (iov_len v - on) need <= cur_len (pre, 0)) by (rewrite C2; lia).
      rewrite (IH x _ _ _ _ _ Hlr C1 Hle E1). reflexivity.
    + injection E as <- <- <-. reflexivity.
Qed.

(* The block reaches into the null pointer. *)
Lemma collect_null : forall pre n post on need ps c', lens_ok (pre ++ IoNull n :: post) -> cur_ok (pre, on) -> 0 < n ->
  cur_len (pre, on) < need -> collect_chunk (pre ++ IoNull n :: post) on need = Done (ps, c') -> ~ Forall iov_valid ps.
Proof.
  induction pre as [|v pre IH]; intros n post on need ps c' Hl Hc Hn0 Hn E HV; cbn [app collect_chunk] in E.
  - cbn in Hc. subst on. cbn [cur_len] in Hn. destruct (N.eqb_spec need 0) as [->|Hne]; [lia|].
    inversion Hl as [|? ? Hlv Hlr]; subst. cbn [iov_len] in *. rewrite sub64_small in E by lia. rewrite N.sub_0_r in E.
    cbn [iov_slice] in E. change (0 =? 0) with true in E. cbn [obind] in E.
    destruct (n <=? 0 + N.min n need).
    + destruct (collect_chunk post 0 (need - N.min n need)) as [[ps1 c1]|u|]; cbn [obind] in E; try discriminate.
      injection E as <- <-. inversion HV as [|? ? A _]; subst. cbn in A. lia.
    + injection E as <- <-. inversion HV as [|? ? A _]; subst. cbn in A. lia.
  - rewrite cur_len_cons in Hn. destruct (N.eqb_spec need 0) as [->|Hne]; [lia|].
    cbn [app] in Hl. inversion Hl as [|? ? Hlv Hlr]; subst.
    assert (Hon : on <= iov_len v) by (destruct Hc as [->|(d & -> & H)]; cbn [iov_len]; lia).
    rewrite sub64_small in E by lia. destruct (iov_slice v on (N.min (iov_len v - on) need)) as [p|u|]; cbn [obind] in E; try discriminate.
    destruct (N.leb_spec (iov_len v) (on + N.min (iov_len v - on) need)) as [Hfull|Hpart]; [|lia].
    destruct (collect_chunk (pre ++ IoNull n :: post) 0 (need - N.min (iov_len v - on) need)) as [[ps1 c1]|u|] eqn:E1; cbn [obind] in E; try discriminate.
    injection E as <- <-. destruct (cur_start pre) as (C1 & C2 & _). inversion HV; subst.
    eapply (IH n post 0 (need - N.min (iov_len v - on) need)); eauto. rewrite C2. lia.
Qed.

Lemma full_exist : forall data : bytes, exists full part, data = concat full ++ part /\ Forall (fun b : bytes => lenN b = 16384) full /\ lenN part < 16384.
Proof.
  intros data. remember (length data) as k eqn:Ek. revert data Ek.
  induction k as [k IH] using lt_wf_ind. intros data ->.
  destruct (N.ltb_spec (lenN data) 16384) as [H|H]; [exists [], data; auto|].
  assert (Ld : lenN (dropN 16384 data) = lenN data - 16384) by (rewrite lenN_dropN; reflexivity).
  destruct (IH (length (dropN 16384 data)) ltac:(unfold lenN in *; lia) _ eq_refl) as (full & part & E & Hf & Hp).
  exists (takeN 16384 data :: full), part. split; [cbn [concat]; rewrite <- app_assoc, <- E; symmetry; apply takeN_dropN|].
  split; [|exact Hp]. constructor; [rewrite lenN_takeN; lia|exact Hf].
Qed.

Lemma send_mono : forall P (F G : Prop) d buf bs st buf' d', (F -> G) ->
  send_all P F d buf bs st buf' d' -> send_all P G d buf bs st buf' d'.
Proof.
  intros P F G d buf bs st buf' d' HI H. induction H.
  - apply SaDone.
  - apply SaSmall; assumption.
  - apply SaUnusable; assumption.
  - apply SaFault; auto.
  - apply SaNext; assumption.
Qed.
Lemma null_mono : forall P (F G : Prop) d buf bs m st buf' d', (F -> G) ->
  send_null P F d buf bs m st buf' d' -> send_null P G d buf bs m st buf' d'.
Proof.
  intros P F G d buf bs m st buf' d' HI H. induction H.
  - apply SnSmall; assumption.
  - apply SnUnusable; assumption.
  - apply SnNull; auto. tauto.
  - eapply SnStop; eauto. eapply send_mono; eauto.
  - apply SnNext; assumption.
Qed.

Lemma protect_loop_null : forall fuel P f pre n post on rem out index id fs din d,
  prims_ok P -> half_rel P (cx_in (fp_crypt f)) din -> half_rel P (cx_out (fp_crypt f)) d ->
  lens_ok (pre ++ IoNull n :: post) -> cur_ok (pre, on) -> Forall iov_valid pre -> 0 < n ->
  cur_len (pre, on) + n + sum_lens post = rem -> rem <= 16384 * N.of_nat fuel -> index <= lenN out ->
  exists h' st buf' fs' full part d',
    protect_loop fuel P f (pre ++ IoNull n :: post, on) rem false out index id fs =
      Done (fp_destroy (with_crypt f (set_out (fp_crypt f) h')) id, st, takeN index out ++ buf', fs') /\ st <> kOk /\
    cur_bytes (pre, on) = concat full ++ part /\ Forall (fun b => lenN b = 16384) full /\ lenN part < 16384 /\
    send_null P (fs <> []) d (dropN index out) full (N.min 16384 (lenN part + n + sum_lens post)) st buf' d' /\
    half_rel P h' d'.
Proof.
  induction fuel as [|fuel IH]; intros P f pre n post on rem out index id fs din d HP Ri Ro Hl Hc HV Hn0 Hrem Hfuel Hix; [lia|].
  cbn [protect_loop]. destruct (N.ltb_spec 0 rem) as [Hr|Hr]; [|lia]. cbn [orb negb fst snd].
  unfold kTlsMaxPlaintextSize. set (m := if rem <? 16384 then rem else 16384).
  assert (Hm : m = N.min rem 16384) by (unfold m; destruct (N.ltb_spec rem 16384); lia).
  assert (Hlp : lens_ok pre) by (unfold lens_ok in *; apply Forall_app in Hl; tauto).
  assert (Hcl : cur_len (pre ++ IoNull n :: post, on) = rem).
  { rewrite cur_len_app by exact Hc. cbn [sum_lens iov_len]. lia. }
  assert (Hco : cur_ok (pre ++ IoNull n :: post, on)).
  { destruct pre as [|v pre]; cbn [app]; [cbn in Hc; subst; apply cur_start|exact Hc]. }
  destruct (N.leb_spec 16384 (cur_len (pre, on))) as [Hbig|Hbig].
  - (* a full block before the null pointer *)
    assert (Em : m = 16384) by lia. clearbody m. clear Hm. subst m.
    destruct (collect_chunk_spec pre on 16384 Hlp Hc Hbig) as (ps & vs1 & on1 & E1 & S1 & S2 & S3 & S4 & S5).
    destruct (S4 HV) as [Vps HV1]. destruct (S5 Vps) as (C1 & C2 & C3).
    pose proof (collect_app pre (IoNull n :: post) on 16384 ps vs1 on1 Hlp Hc Hbig E1) as E1'.
    unfold bind at 1, lift at 1. rewrite E1'.
    destruct (crypt_protect_spec P (fp_crypt f) din d APPLICATION_DATA ps (dropN index out) fs HP Ri Ro
      ltac:(unfold two64; lia)) as (h1 & st1 & w & tail & fs1 & E2 & L1 & _ & Hnf & Hf).
    rewrite (bind_done _ _ _ _ _ _ _ E2). cbn [iov_data].
    set (x1 := set_out (fp_crypt f) h1) in *.
    assert (Lt : lenN tail = lenN out - index) by (rewrite L1, lenN_dropN; reflexivity).
    assert (Hfit : fits ps (dropN index out) <-> 16384 + 22 <= lenN out - index).
    { unfold fits. rewrite lenN_dropN. lia. }
    assert (Hrel : record_overhead x1 = Done 22) by (apply (record_overhead_spec P x1 din); exact Ri).
    assert (Lch : lenN (iov_concat ps) = 16384) by (rewrite <- S1; symmetry; apply sum_lens_concat; exact Vps).
    assert (Eb : cur_bytes (pre, on) = iov_concat ps ++ cur_bytes (vs1, on1)).
    { rewrite C2, C3. symmetry. apply takeN_dropN. }
    assert (Dec : st1 = S_OK \/ st1 <> S_OK) by (destruct st1; (left; reflexivity) || (right; discriminate)).
    destruct Dec as [Hst|Hst].
    2: { destruct (full_exist (cur_bytes (vs1, on1))) as (full & part & F1 & F2 & F3).
      exists h1, (fp_code st1), tail, fs1, (iov_concat ps :: full), part.
      assert (Hno : fp_code st1 <> kOk) by (destruct st1; discriminate || contradiction).
      assert (H : exists d', send_all P (fs <> []) d (dropN index out) [iov_concat ps] (fp_code st1) tail d' /\ half_rel P h1 d').
      { destruct (N.leb_spec (16384 + 22) (lenN out - index)) as [D|D].
        - apply Hfit in D. destruct (Hf D) as [Hun Hus]. apply Hfit in D. destruct (dir_usable_dec d) as [U|U].
          + destruct (Hus U) as (R1 & _ & _ & Hb & Hg). destruct (Hb Hst) as (_ & -> & Hc2). exists (dir_next d).
            split; [|exact R1].
            apply SaFault; [rewrite Lch, lenN_dropN; exact D|exact U| |destruct Hc2 as [-> | ->]; auto].
            intros K. destruct (Hg Vps K) as [K2 _]. contradiction.
          + destruct (Hun U) as (-> & -> & _ & ->). exists d. split; [|exact Ro].
            apply SaUnusable; [rewrite Lch, lenN_dropN; exact D|exact U].
        - destruct Hnf as (-> & -> & _ & -> & _); [rewrite Hfit; lia|]. exists d. split; [|exact Ro].
          apply SaSmall. rewrite Lch, lenN_dropN. lia. }
      destruct H as (d' & H1 & H2). exists d'.
      split; [destruct st1; try reflexivity; contradiction|]. split; [exact Hno|].
      split; [rewrite Eb, F1; cbn [concat]; apply app_assoc|]. split; [constructor; assumption|]. split; [exact F3|].
      split; [|exact H2]. apply SnStop; assumption. }
    assert (Fit : fits ps (dropN index out)).
    { apply Hfit. destruct (N.leb_spec (16384 + 22) (lenN out - index)); [assumption|].
      destruct Hnf as (_ & K & _); [rewrite Hfit; lia|congruence]. }
    destruct (Hf Fit) as [Hun Hus]. apply Hfit in Fit.
    destruct (dir_usable_dec d) as [U|U]; [|destruct (Hun U) as (_ & K & _); congruence].
    destruct (Hus U) as (R1 & _ & Hok & _ & Hgood). rewrite Hst in *.
    destruct (Hok eq_refl) as (_ & Hw & Ht). clear Hok Hus Hun Hf Hnf.
    unfold bind at 1, lift at 1. rewrite Hrel. rewrite Hw, S1, N.eqb_refl. cbn [negb].
    change (convert_record_type APPLICATION_DATA) with ty_application_data in Ht.
    set (out1 := takeN index out ++ tail).
    assert (Lo : lenN out1 = lenN out) by (unfold out1; rewrite lenN_app, lenN_takeN; lia).
    assert (Lrec : lenN (tls_record P d ty_application_data (iov_concat ps) 0) = 16384 + 22)
      by (rewrite lenN_tls_record by exact HP; lia).
    assert (Hl1 : lens_ok (vs1 ++ IoNull n :: post)).
    { unfold lens_ok in *. apply Forall_app in Hl. apply Forall_app. tauto. }
    destruct (IH P (with_crypt f x1) vs1 n post on1 (rem - 16384) out1 (index + (16384 + 22)) id fs1 din (dir_next d) HP Ri R1 Hl1 C1
      HV1 Hn0 ltac:(lia) ltac:(lia) ltac:(lia)) as (h' & st & buf' & fs' & full & part & d' & A & B0 & B1 & B2 & B3 & B4 & B5).
    exists h', st, (tls_record P d ty_application_data (iov_concat ps) 0 ++ buf'), fs', (iov_concat ps :: full), part, d'.
    assert (Eo : takeN (index + (16384 + 22)) out1 = takeN index out ++ tls_record P d ty_application_data (iov_concat ps) 0).
    { unfold out1. rewrite takeN_app_ge by (rewrite lenN_takeN; lia). f_equal. rewrite lenN_takeN.
      replace (index + (16384 + 22) - N.min index (lenN out)) with (16384 + 22) by lia.
      rewrite Ht, <- Lrec. apply takeN_app_exact. }
    assert (Ed : dropN (index + (16384 + 22)) out1 = dropN (16384 + 22) (dropN index out)).
    { unfold out1. rewrite dropN_app_ge by (rewrite lenN_takeN; lia). rewrite lenN_takeN, Ht.
      rewrite dropN_app_ge by lia. rewrite dropN_dropN, dropN_dropN, dropN_dropN, Hw, S1, Lrec. f_equal. lia. }
    rewrite Eo, <- app_assoc in A. change (set_out (fp_crypt (with_crypt f x1)) h') with (set_out (fp_crypt f) h') in A.
    rewrite with_crypt_same in A.
    split; [exact A|]. split; [exact B0|].
    split; [rewrite Eb, B1; cbn [concat]; apply app_assoc|]. split; [constructor; assumption|]. split; [exact B3|].
    split; [|exact B5].
    apply SnNext; [rewrite Lch, lenN_dropN; exact Fit|exact U|]. rewrite Lch, <- Ed.
    eapply null_mono; [|exact B4]. intros K1 K2. apply K1. apply Hgood; assumption.
  - (* the block with the null pointer *)
    destruct (collect_chunk_spec (pre ++ IoNull n :: post) on m Hl Hco ltac:(lia)) as (ps & vs1 & on1 & E1 & S1 & S2 & S3 & S4 & S5).
    assert (Vps : ~ Forall iov_valid ps) by (apply (collect_null pre n post on m ps (vs1, on1)); try assumption; lia).
    unfold bind at 1, lift at 1. rewrite E1.
    destruct (crypt_protect_spec P (fp_crypt f) din d APPLICATION_DATA ps (dropN index out) fs HP Ri Ro
      ltac:(unfold two64; lia)) as (h1 & st1 & w & tail & fs1 & E2 & L1 & _ & Hnf & Hf).
    rewrite (bind_done _ _ _ _ _ _ _ E2). cbn [iov_data].
    set (x1 := set_out (fp_crypt f) h1) in *.
    assert (Hfit : fits ps (dropN index out) <-> m + 22 <= lenN out - index).
    { unfold fits. rewrite lenN_dropN. lia. }
    assert (Hst : st1 <> S_OK).
    { intros K. destruct (N.leb_spec (m + 22) (lenN out - index)) as [D|D].
      - apply Hfit in D. destruct (Hf D) as [Hun Hus]. destruct (dir_usable_dec d) as [U|U].
        + destruct (Hus U) as (_ & _ & Hok & _). destruct (Hok K). contradiction.
        + destruct (Hun U) as (_ & K2 & _). congruence.
      - destruct Hnf as (_ & K2 & _); [rewrite Hfit; lia|]. congruence. }
    assert (Hno : fp_code st1 <> kOk) by (destruct st1; discriminate || contradiction).
    assert (Elen : cur_len (pre, on) = lenN (cur_bytes (pre, on))) by (apply cur_len_bytes; assumption).
    exists h1, (fp_code st1), tail, fs1, [], (cur_bytes (pre, on)).
    replace (N.min 16384 (lenN (cur_bytes (pre, on)) + n + sum_lens post)) with m by lia.
    assert (H : exists d', send_null P (fs <> []) d (dropN index out) [] m (fp_code st1) tail d' /\ half_rel P h1 d').
    { destruct (N.leb_spec (m + 22) (lenN out - index)) as [D|D].
      - apply Hfit in D. destruct (Hf D) as [Hun Hus]. destruct (dir_usable_dec d) as [U|U].
        + destruct (Hus U) as (R1 & _ & _ & Hb & _). destruct (Hb Hst) as (_ & -> & Hc2). exists (dir_next d).
          split; [|exact R1]. apply SnNull; [rewrite lenN_dropN; apply Hfit; exact D|exact U|].
          destruct Hc2 as [-> | ->]; [left; reflexivity|].
          destruct fs as [|b fs]; [|right; split; [discriminate|reflexivity]].
          destruct (crypt_protect_null P (fp_crypt f) din d APPLICATION_DATA ps (dropN index out) HP Ri Ro
            ltac:(unfold two64; lia) D U Vps) as (? & ? & ? & K). rewrite E2 in K. discriminate K.
        + apply Hfit in D. destruct (Hun U) as (-> & -> & _ & ->). exists d. split; [|exact Ro].
          apply SnUnusable; [rewrite lenN_dropN; exact D|exact U].
      - destruct Hnf as (-> & -> & _ & -> & _); [rewrite Hfit; lia|]. exists d. split; [|exact Ro].
        apply SnSmall. rewrite lenN_dropN. lia. }
    destruct H as (d' & H1 & H2). exists d'.
    split; [destruct st1; try reflexivity; contradiction|]. split; [exact Hno|].
    split; [reflexivity|]. split; [constructor|]. split; [lia|]. split; assumption.
Qed.

Lemma protect_into_null : forall P f input id buf fs din d,
  prims_ok P -> half_rel P (cx_in (fp_crypt f)) din -> half_rel P (cx_out (fp_crypt f)) d ->
  sum_lens input < two64 -> ~ Forall iov_valid input ->
  exists h' st buf' fs' bs m d',
    fp_protect_into P f input id (IoBuf buf) fs =
      Done (fp_destroy (with_crypt f (set_out (fp_crypt f) h')) id, st, IoBuf buf', fs') /\ st <> kOk /\
    null_block input bs m /\ send_null P (fs <> []) d buf bs m st buf' d' /\ half_rel P h' d'.
Proof.
  intros P f input id buf fs din d HP Ri Ro Hl HV. unfold fp_protect_into. rewrite total_len_sum by exact Hl.
  destruct (null_cut input HV) as (pre & n & post & -> & Vp & Hn).
  destruct (cur_start pre) as (C1 & C2 & C3). unfold kTlsMaxPlaintextSize.
  assert (Es : sum_lens (pre ++ IoNull n :: post) = sum_lens pre + n + sum_lens post).
  { rewrite BaseProofs.sum_lens_app. cbn [sum_lens iov_len]. lia. }
  destruct (N.eqb_spec (sum_lens (pre ++ IoNull n :: post)) 0) as [K|_]; [lia|].
  destruct (protect_loop_null (S (N.to_nat (sum_lens (pre ++ IoNull n :: post) / 16384))) P f pre n post 0
    (sum_lens (pre ++ IoNull n :: post)) buf 0 id fs din d HP Ri Ro (lens_ok_sum _ Hl) C1 Vp Hn ltac:(lia) ltac:(lia) ltac:(lia))
    as (h' & st & buf' & fs' & bs & part & d' & A & B0 & B1 & B2 & B3 & B4 & B5).
  rewrite C3 in B1. rewrite dropN_0 in B4. cbn [takeN] in A.
  exists h', st, buf', fs', bs, (N.min 16384 (lenN part + n + sum_lens post)), d'.
  rewrite (bind_done _ _ _ _ _ _ _ A). split; [reflexivity|]. split; [exact B0|]. split; [|split; assumption].
  exists pre, n, post, part. auto 10.
Qed.

(* ---- without failures there is one result ---- *)
Lemma full_unique : forall bs bs' part part', concat bs ++ part = concat bs' ++ part' ->
  Forall (fun b : bytes => lenN b = 16384) bs -> Forall (fun b : bytes => lenN b = 16384) bs' ->
  lenN part < 16384 -> lenN part' < 16384 -> bs = bs' /\ part = part'.
Proof.
  induction bs as [|b bs IH]; intros [|b' bs'] part part' E H H' L L'; cbn [concat app] in E.
  - auto.
  - exfalso. inversion H'; subst. rewrite !lenN_app in L. lia.
  - exfalso. inversion H; subst. rewrite !lenN_app in L'. lia.
  - inversion H; subst. inversion H'; subst. rewrite <- !app_assoc in E.
    assert (b = b') as <-.
    { rewrite <- (takeN_app_exact _ b (concat bs ++ part)), E. replace (lenN b) with (lenN b') by congruence. apply takeN_app_exact. }
    apply app_inv_head in E. destruct (IH bs' part part' E) as [-> ->]; auto.
Qed.

Lemma cut_unique : forall pre pre' n n' post post', pre ++ IoNull n :: post = pre' ++ IoNull n' :: post' ->
  Forall iov_valid pre -> Forall iov_valid pre' -> 0 < n -> 0 < n' -> pre = pre' /\ n = n' /\ post = post'.
Proof.
  induction pre as [|v pre IH]; intros [|v' pre'] n n' post post' E H H' L L'; cbn [app] in E; inversion E; subst.
  - auto.
  - exfalso. inversion H' as [|? ? A _]; subst. cbn in A. lia.
  - exfalso. inversion H as [|? ? A _]; subst. cbn in A. lia.
  - inversion H; subst. inversion H'; subst. destruct (IH pre' n n' post post') as (-> & -> & ->); auto.
Qed.

Lemma null_block_unique : forall input bs m bs' m', null_block input bs m -> null_block input bs' m' -> bs = bs' /\ m = m'.
Proof.
  intros input bs m bs' m' (pre & n & post & part & -> & V & Hn & E & F & L & ->) (pre' & n' & post' & part' & E' & V' & Hn' & E2 & F' & L' & ->).
  destruct (cut_unique _ _ _ _ _ _ E' V V' Hn Hn') as (<- & <- & <-). rewrite E in E2.
  destruct (full_unique _ _ _ _ E2 F F' L L') as [<- <-]. auto.
Qed.

Lemma null_block_invalid : forall input bs m, null_block input bs m -> ~ Forall iov_valid input.
Proof.
  intros input bs m (pre & n & post & part & -> & _ & Hn & _) K. apply Forall_app in K. destruct K as [_ K].
  inversion K as [|? ? A _]; subst. cbn in A. lia.
Qed.

Lemma null_not_ok : forall P F d buf bs m st buf' d', send_null P F d buf bs m st buf' d' -> st <> kOk.
Proof.
  intros P F d buf bs m st buf' d' H. induction H; try discriminate; try assumption.
  match goal with K : _ \/ _ |- _ => destruct K as [->|[_ ->]]; discriminate end.
Qed.
