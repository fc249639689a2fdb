From Coq Require Import List NArith ZArith Bool Lia ZifyBool ZifyNat ZifyN.
From Verif Require Import Base BaseProofs Aead SpecAead AeadProofs AeadRun AeadRunProofs.
Import ListNotations.
Local Open Scope N_scope.

(* What a successful Decrypt or Encrypt has done, whatever its arguments: null
   and huge iovecs included. *)

Lemma iov_empty : forall v, iov_len v = 0 -> iov_valid v /\ forall vs, iov_concat (v :: vs) = iov_concat vs.
Proof.
  intros [d|n] H; cbn in *.
  - apply lenN_0 in H. subst. split; [exact I|reflexivity].
  - split; [exact H|reflexivity].
Qed.

Lemma set_aad_ok : forall aad e fs e' fs', set_aad e aad fs = Done ((kOk, e'), fs') ->
  Forall iov_valid aad /\ e' = evp_add_aad e (iov_concat aad).
Proof.
  induction aad as [|v aad IH]; intros e fs e' fs' H; cbn [set_aad] in H.
  - apply ret_inv in H as [H _]. inversion H; subst. split; [constructor|]. cbn. rewrite evp_add_aad_nil. reflexivity.
  - destruct (N.eqb_spec (iov_len v) 0) as [E|E].
    + destruct (iov_empty v E) as [V C]. rewrite C. apply IH in H as [F ->]. auto.
    + destruct v as [d|n]; [|apply ret_inv in H as [H _]; discriminate].
      apply bind_inv in H as (ok & f & _ & H).
      destruct (int_narrow (lenN d)) as [m|]; [|apply ret_inv in H as [H _]; discriminate].
      destruct ok; [|apply ret_inv in H as [H _]; discriminate].
      cbn zeta in H. destruct (N.eqb_spec m (lenN d)) as [Em|]; [subst m|apply ret_inv in H as [H _]; discriminate].
      apply IH in H as [F ->]. split; [constructor; [exact I|exact F]|].
      rewrite takeN_all, iov_concat_cons, evp_add_aad_app by lia. reflexivity.
Qed.

(* Once bytes have been skipped the loop cannot end well. *)
Lemma decrypt_loop_deficit : forall P a ct e buf total off rem cur fs e' out total' rem' cur' rest fs',
  decrypt_loop P a e ct (IoBuf buf) total off rem cur fs = Done (DCont e' out total' rem' cur' rest, fs') ->
  16 + sum_lens ct < total -> 16 < total'.
Proof.
  intros P a. induction ct as [|v ct IH]; intros e buf total off rem cur fs e' out total' rem' cur' rest fs' H L;
    cbn [decrypt_loop sum_lens] in *.
  - apply ret_inv in H as [H _]; inversion H; subst. lia.
  - unfold kAeadTagSize in H. destruct (N.leb_spec total 16) as [Ht|Ht]; [lia|].
    destruct (iov_len v =? 0); [apply IH in H; lia|].
    destruct v as [d|n].
    2:{ apply bind_inv in H as (o & f & _ & H). apply ret_inv in H as [H _]; discriminate. }
    cbn zeta in H. cbn [iov_len] in *.
    destruct (rem <? _); [apply ret_inv in H as [H _]; discriminate|].
    apply bind_inv in H as (ok & f & _ & H).
    destruct (int_narrow _) as [m|] eqn:Em.
    2:{ apply bind_inv in H as (o & f2 & _ & H). apply ret_inv in H as [H _]; discriminate. }
    destruct ok.
    2:{ apply bind_inv in H as (o & f2 & _ & H). apply ret_inv in H as [H _]; discriminate. }
    apply int_narrow_le in Em.
    apply bind_inv in H as (o & f2 & Ew & H). apply lift_inv in Ew as [Ew _].
    apply write_at_len in Ew as (b & -> & Lb).
    apply IH in H; lia.
Qed.

Lemma int_narrow_cases : forall n m, int_narrow n = Some m -> m = n \/ m + 4294967296 <= n.
Proof.
  intros n m H. unfold int_narrow in H. destruct (_ <? _); [|discriminate]. injection H as H.
  pose proof (N.div_mod' n 4294967296) as D. rewrite H in D.
  destruct (N.eq_dec (n / 4294967296) 0) as [Z|Z]; [left; rewrite Z in D; lia|right; nia].
Qed.

Lemma write_at_done : forall buf off d o, off <= lenN buf -> write_at (IoBuf buf) off d = Done o ->
  off + lenN d <= lenN buf /\ o = IoBuf (takeN off buf ++ d ++ dropN (off + lenN d) buf).
Proof.
  intros buf off d o Ho H. destruct (N.leb_spec (off + lenN d) (lenN buf)) as [L|L].
  - rewrite write_at_buf in H by exact L. injection H as <-. auto.
  - unfold write_at in H. destruct d as [|x d]; [rewrite lenN_nil in L; lia|].
    destruct (N.leb_spec (off + lenN (x :: d)) (lenN buf)); [lia|discriminate].
Qed.

Lemma decrypt_loop_exact : forall P a ct e buf total off rem cur fs e' out total' rem' cur' rest fs',
  decrypt_loop P a e ct (IoBuf buf) total off rem cur fs = Done (DCont e' out total' rem' cur' rest, fs') ->
  total' <= 16 -> off + rem = lenN buf ->
  total = lenN cur + sum_lens ct -> cur = [] \/ total <= 16 ->
  exists body, cur ++ iov_concat ct = body ++ cur' ++ iov_concat rest /\
    (Forall iov_valid rest -> Forall iov_valid ct) /\
    e' = evp_add_ct e body /\ off + lenN body <= lenN buf /\
    out = IoBuf (takeN off buf ++ evp_xor P a e body ++ dropN (off + lenN body) buf) /\
    rem' = rem - lenN body.
Proof.
  intros P a. induction ct as [|v ct IH]; intros e buf total off rem cur fs e' out total' rem' cur' rest fs' H L R T C;
    cbn [decrypt_loop sum_lens] in *.
  - apply ret_inv in H as [H _]; inversion H; subst. exists []. rewrite evp_add_ct_nil, evp_xor_nil, lenN_nil.
    cbn. rewrite !N.add_0_r, takeN_dropN. repeat split; auto; lia.
  - unfold kAeadTagSize in H. destruct (N.leb_spec total 16) as [Ht|Ht].
    { apply ret_inv in H as [H _]; inversion H; subst. exists []. rewrite evp_add_ct_nil, evp_xor_nil, lenN_nil.
      cbn [app]. rewrite !N.add_0_r, takeN_dropN. repeat split; auto; lia. }
    destruct C as [->|C]; [|lia]. rewrite lenN_nil in T. cbn [app].
    destruct (N.eqb_spec (iov_len v) 0) as [Ev|Ev].
    { destruct (iov_empty v Ev) as [V Cv]. rewrite Cv.
      apply IH in H as (body & A1 & A2 & A3); [|lia..|rewrite lenN_nil; lia|auto].
      exists body. split; [exact A1|]. split; [auto|exact A3]. }
    destruct v as [d|n].
    2:{ apply bind_inv in H as (o & f & _ & H). apply ret_inv in H as [H _]; discriminate. }
    cbn zeta in H. cbn [iov_len] in *.
    destruct (N.ltb_spec rem (N.min (lenN d) (total - 16))) as [Hr|Hr]; [apply ret_inv in H as [H _]; discriminate|].
    apply bind_inv in H as (ok & f & _ & H).
    destruct (int_narrow _) as [m|] eqn:Em.
    2:{ apply bind_inv in H as (o & f2 & _ & H). apply ret_inv in H as [H _]; discriminate. }
    destruct ok.
    2:{ apply bind_inv in H as (o & f2 & _ & H). apply ret_inv in H as [H _]; discriminate. }
    apply int_narrow_cases in Em.
    assert (Lm : lenN (takeN m d) = m) by (rewrite lenN_takeN; lia).
    apply bind_inv in H as (o & f2 & Ew & H). apply lift_inv in Ew as [Ew _].
    apply write_at_done in Ew as [Lw ->]; [|lia].
    rewrite evp_xor_lenN, Lm in *.
    assert (Lb : lenN (takeN off buf ++ evp_xor P a e (takeN m d) ++ dropN (off + m) buf) = lenN buf).
    { pose proof (lenN_write buf off (evp_xor P a e (takeN m d))) as X. rewrite evp_xor_lenN, Lm in X. auto. }
    destruct Em as [Em|Em].
    2:{ apply decrypt_loop_deficit in H; lia. }
    apply IH in H as (body & A1 & A2 & A3 & A4 & A5 & A6);
      [|lia|rewrite Lb; lia|rewrite lenN_dropN; lia|].
    2:{ destruct (N.le_gt_cases (lenN d) (total - 16)) as [Q|Q]; [left; rewrite dropN_all by lia; reflexivity|right; lia]. }
    exists (takeN m d ++ body). rewrite lenN_app, Lm. rewrite Lb in A4.
    rewrite iov_concat_cons, <- app_assoc, <- A1.
    split; [rewrite app_assoc, takeN_dropN; reflexivity|].
    split; [intros F; constructor; [exact I|auto]|].
    split; [rewrite A3, evp_add_ct_app; reflexivity|]. split; [lia|].
    split; [|lia].
    rewrite A5, evp_xor_app_dec.
    pose proof (write_write buf off (evp_xor P a e (takeN m d)) (evp_xor P a (evp_add_ct e (takeN m d)) body)) as W.
    rewrite lenN_app, !evp_xor_lenN, Lm in W. cbn zeta in W. rewrite W by lia.
    rewrite N.add_assoc. reflexivity.
Qed.

Lemma collect_tag_ok : forall rest tag t, collect_tag tag rest = Done t ->
  Forall iov_valid rest /\ t = tag ++ iov_concat rest.
Proof.
  induction rest as [|v rest IH]; intros tag t H; cbn [collect_tag] in H.
  - injection H as <-. cbn. rewrite app_nil_r. auto.
  - destruct (N.eqb_spec (iov_len v) 0) as [E|E].
    + destruct (iov_empty v E) as [V C]. rewrite C. apply IH in H as [F ->]. auto.
    + destruct v as [d|n]; [|discriminate]. destruct (_ <=? _); [|discriminate].
      apply IH in H as [F ->]. rewrite iov_concat_cons, app_assoc. split; [constructor; [exact I|exact F]|reflexivity].
Qed.

Lemma decrypt_loop_exit : forall P a ct e out total off rem cur fs st e' out' fs',
  decrypt_loop P a e ct out total off rem cur fs = Done (DExit st e' out', fs') -> st <> kOk.
Proof.
  intros P a. induction ct as [|v ct IH]; intros e out total off rem cur fs st e' out' fs' H; cbn [decrypt_loop] in H.
  - apply ret_inv in H as [H _]; discriminate.
  - destruct (total <=? kAeadTagSize); [apply ret_inv in H as [H _]; discriminate|].
    destruct (iov_len v =? 0); [exact (IH _ _ _ _ _ _ _ _ _ _ _ H)|].
    destruct v as [d|n].
    2:{ apply bind_inv in H as (o & f & _ & H). apply ret_inv in H as [H _]. inversion H; discriminate. }
    cbn zeta in H. destruct (rem <? _); [apply ret_inv in H as [H _]; inversion H; discriminate|].
    apply bind_inv in H as (ok & f & _ & H).
    destruct (int_narrow _) as [m|].
    2:{ apply bind_inv in H as (o & f2 & _ & H). apply ret_inv in H as [H _]. inversion H; discriminate. }
    destruct ok.
    2:{ apply bind_inv in H as (o & f2 & _ & H). apply ret_inv in H as [H _]. inversion H; discriminate. }
    apply bind_inv in H as (o & f2 & _ & H). exact (IH _ _ _ _ _ _ _ _ _ _ _ H).
Qed.

(* The calls succeeded on [ct]: it is the sealing of the returned plaintext. *)
Definition opened (P : prims) (c : crypter) (nonce : bytes) (aad ct : list iovec) (buf : bytes)
  (n : N) (out : iovec) : Prop :=
  lenN nonce = 12 /\ Forall iov_valid aad /\ Forall iov_valid ct /\
  exists body, iov_concat ct = body ++ p_mac P (cr_alg c) (crypter_key c) nonce (iov_concat aad) body /\
    n = lenN body /\ lenN body <= lenN buf /\
    out = IoBuf (stream P (cr_alg c) (crypter_key c) nonce body ++ dropN (lenN body) buf).

Lemma evp_decrypt_ok : forall P c nonce aad ct buf fs c' n out fs', sum_lens ct < two64 ->
  evp_decrypt P c nonce aad ct (IoBuf buf) fs = Done ((c', (kOk, n), out), fs') ->
  opened P c nonce aad ct buf n out.
Proof.
  intros P c nonce aad ct buf fs c' n out fs' Hb H. unfold evp_decrypt in H. cbn zeta in H.
  destruct (_ <? _); [apply ret_inv in H as [H _]; discriminate|].
  apply bind_inv in H as ([st e1] & f1 & E1 & H).
  destruct (is_ok st) eqn:Es; cbn [negb] in H; [|apply ret_inv in H as [H _]; inversion H; subst; discriminate].
  apply is_ok_true in Es. subst st.
  assert (N1 : lenN nonce = 12 /\ e1 = evp_init_nonce (cr_ctx c) nonce).
  { unfold init_context_using_nonce, kAeadNonceSize in E1. destruct (N.eqb_spec (lenN nonce) 12) as [E|E]; cbn [negb] in E1.
    - apply bind_inv in E1 as (ok & f & _ & E1). destruct ok; apply ret_inv in E1 as [E1 _]; inversion E1; auto.
    - apply ret_inv in E1 as [E1 _]; discriminate. }
  destruct N1 as [N1 ->]. clear E1. split; [exact N1|].
  apply bind_inv in H as ([st2 e2] & f2 & E2 & H).
  destruct (is_ok st2) eqn:Es2; cbn [negb] in H; [|apply ret_inv in H as [H _]; inversion H; subst; discriminate].
  apply is_ok_true in Es2. subst st2. apply set_aad_ok in E2 as [Va ->]. split; [exact Va|].
  apply bind_inv in H as (r & f3 & E3 & H). rewrite total_len_sum in E3 by exact Hb. cbn [iov_len] in E3.
  destruct r as [st3 e3 o3|e3 o3 t3 rem3 cur3 rest3].
  { exfalso. apply ret_inv in H as [H _]. inversion H; subst. apply decrypt_loop_exit in E3. congruence. }
  unfold kAeadTagSize in H. destruct (N.ltb_spec 16 t3) as [Ht|Ht].
  { apply bind_inv in H as (o & f4 & _ & H). apply ret_inv in H as [H _]. discriminate. }
  apply decrypt_loop_exact in E3 as (body & A1 & A2 & -> & A4 & -> & ->);
    [|exact Ht|reflexivity|rewrite lenN_nil; lia|auto].
  cbn [app] in A1. rewrite N.add_0_l in A4.
  apply bind_inv in H as (tag & f4 & E4 & H). apply lift_inv in E4 as [E4 _].
  destruct (_ <=? 16); [|discriminate]. apply collect_tag_ok in E4 as [Vr ->].
  split; [auto|]. exists body.
  apply bind_inv in H as ([[st4 e4] o4] & f5 & E5 & H).
  destruct (is_ok st4) eqn:Es4; cbn [negb] in H; [|apply ret_inv in H as [H _]; inversion H; subst; discriminate].
  apply is_ok_true in Es4. subst st4. apply ret_inv in H as [H _]. injection H as -> -> ->.
  apply bind_inv in E5 as (ok & f6 & _ & E5). destruct ok; cbn [negb] in E5.
  2:{ apply bind_inv in E5 as (o & f8 & _ & E5). apply ret_inv in E5 as [E5 _]. discriminate. }
  cbn zeta in E5. apply bind_inv in E5 as (ok & f7 & _ & E5).
  destruct (ok && _) eqn:Et.
  2:{ apply bind_inv in E5 as (o & f8 & _ & E5). apply ret_inv in E5 as [E5 _]. discriminate. }
  apply ret_inv in E5 as [E5 _]. injection E5 as -> ->.
  apply andb_true_iff in Et as [_ Et]. apply bytes_eqb_eq in Et.
  rewrite A1, Et.
  split; [reflexivity|].
  cbn [iov_len]. rewrite !lenN_app, evp_xor_lenN, lenN_dropN.
  split; [lia|]. split; [exact A4|]. reflexivity.
Qed.

Lemma bssl_decrypt_ok : forall P c nonce aad ct buf fs c' n out fs',
  prims_ok P -> crypter_ok c -> sum_lens ct < two64 ->
  bssl_decrypt P c nonce aad ct (IoBuf buf) fs = Done ((c', (kOk, n), out), fs') ->
  opened P c nonce aad ct buf n out.
Proof.
  intros P c nonce aad ct buf fs c' n out fs' HP [Hc _] Hb H. unfold bssl_decrypt in H. cbn zeta in H.
  rewrite Hc in H.
  destruct (N.eqb_spec (lenN nonce) 12) as [Hn|Hn]; cbn [negb] in H; [|apply ret_inv in H as [H _]; discriminate].
  split; [exact Hn|].
  destruct (checked_len ct 0) as [l|] eqn:El; [|apply ret_inv in H as [H _]; discriminate].
  destruct (N.ltb_spec l kAeadTagSize) as [L1|L1]; [apply ret_inv in H as [H _]; discriminate|].
  destruct (N.ltb_spec (iov_len (IoBuf buf)) (l - kAeadTagSize)) as [L2|L2]; [apply ret_inv in H as [H _]; discriminate|].
  destruct (collect_checked aad []) as [av|] eqn:Ea; [|apply ret_inv in H as [H _]; discriminate].
  destruct (collect_checked_spec aad []) as [C1 C2].
  destruct (iov_valid_dec aad) as [Va|Va]; [|rewrite C2 in Ea by exact Va; discriminate].
  rewrite C1 in Ea by exact Va. injection Ea as <-. cbn [app] in H. split; [exact Va|].
  destruct (checked_len_spec ct 0) as [D1 D2].
  destruct (iov_valid_dec ct) as [Vc|Vc]; [|rewrite D2 in El by exact Vc; discriminate].
  rewrite D1 in El by (auto; lia). injection El as <-. split; [exact Vc|].
  rewrite N.add_0_l, (sum_lens_concat ct Vc) in *. unfold kAeadTagSize in *. cbn [iov_len] in L2.
  apply bind_inv in H as (ok & f & _ & H). destruct (ok && _) eqn:Et.
  2:{ apply bind_inv in H as (o & f2 & _ & H). apply ret_inv in H as [H _]; discriminate. }
  apply andb_true_iff in Et as [_ Et]. apply bytes_eqb_eq in Et.
  apply bind_inv in H as (o & f2 & Ew & H). apply lift_inv in Ew as [Ew _].
  apply ret_inv in H as [H _]. injection H as -> -> ->.
  apply write_at_done in Ew as [_ ->]; [|lia].
  exists (takeN (lenN (iov_concat ct) - 16) (iov_concat ct)).
  rewrite evp_xor_lenN, lenN_takeN.
  replace (N.min (lenN (iov_concat ct) - 16) (lenN (iov_concat ct))) with (lenN (iov_concat ct) - 16) by lia.
  split; [|split; [reflexivity|split; [exact L2|reflexivity]]].
  transitivity (takeN (lenN (iov_concat ct) - 16) (iov_concat ct) ++ dropN (lenN (iov_concat ct) - 16) (iov_concat ct)).
  - rewrite takeN_dropN. reflexivity.
  - f_equal. exact Et.
Qed.

Lemma C11_lemma : forall P lib k key c nonce aad ct buf fs c' r,
  prims_ok P -> areach P lib k key c -> sum_lens ct < two64 ->
  astep P c (ADecrypt nonce aad ct (IoBuf buf)) fs = Done (c', r) -> ar_st r = kOk ->
  lenN nonce = 12 /\ Forall iov_valid aad /\ Forall iov_valid ct /\
  exists m, iov_concat ct = seal P (kind_alg k key) key nonce (iov_concat aad) m /\
    ar_n r = lenN m /\ lenN m <= lenN buf /\ ar_out r = IoBuf (m ++ dropN (lenN m) buf).
Proof.
  intros P lib k key c nonce aad ct buf fs c' r HP Hr Hb E Hok.
  destruct (areach_config _ _ _ _ _ Hr) as (Hc & Ea & Ek & _).
  unfold astep in E. destruct (aead_decrypt _ _ _ _ _ _ _) as [[[[c1 s] o] fs']|u|] eqn:E1; try discriminate.
  cbn in E. destruct s as [st n]. inversion E; subst; clear E. cbn in *. subst st.
  assert (X : opened P c nonce aad ct buf n o).
  { unfold aead_decrypt in E1.
    destruct (cr_impl c); [eapply evp_decrypt_ok|eapply evp_decrypt_ok|eapply bssl_decrypt_ok]; eauto. }
  destruct X as (Hn & Va & Vc & body & Eq & -> & Lb & ->). rewrite Ea in *.
  split; [exact Hn|]. split; [exact Va|]. split; [exact Vc|].
  exists (stream P (kind_alg k (crypter_key c)) (crypter_key c) nonce body).
  unfold seal. cbn zeta. rewrite stream_involutive, lenN_stream. auto.
Qed.

Lemma C53_dec_lemma : forall P lib k key c nonce aad ct buf fs c' r,
  prims_ok P -> areach P lib k key c -> sum_lens ct < two64 ->
  astep P c (ADecrypt nonce aad ct (IoBuf buf)) fs = Done (c', r) ->
  (ar_st r = kOk -> 16 <= sum_lens ct /\ ar_n r = max_plaintext_length c (sum_lens ct)) /\
  (ar_st r <> kOk -> ar_n r = 0).
Proof.
  intros P lib k key c nonce aad ct buf fs c' r HP Hr Hb E.
  split; [|exact (C12_count_lemma _ _ _ _ _ _ _ _ _ E)]. intros Hk.
  destruct (C11_lemma _ _ _ _ _ _ _ _ _ _ _ _ HP Hr Hb E Hk) as (_ & _ & V & m & Eq & -> & _).
  assert (Hs : sum_lens ct = lenN m + 16).
  { rewrite (sum_lens_concat ct V), Eq, lenN_seal by exact HP. reflexivity. }
  destruct (C53_lemma _ _ _ _ _ Hr) as [_ X]. destruct (X (sum_lens ct)) as [-> _]; lia.
Qed.
