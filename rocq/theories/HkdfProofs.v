(* Lemmas about Hkdf.v. *)
From Coq Require Import String List Arith NArith ZArith Bool Lia ZifyBool ZifyNat ZifyN.
From Verif Require Import Base BaseProofs Aead AeadProofs Hkdf SpecAead SpecTls.
Import ListNotations.
Local Open Scope N_scope.
Ltac Zify.zify_post_hook ::= Z.div_mod_to_equations.

Lemma digest_size_pos : forall h, 32 <= digest_size h <= 48.
Proof. intros []; cbn; lia. Qed.

Lemma hkdf_T_len : forall P h prk info i, prims_ok P ->
  lenN (hkdf_T P h prk info (S i)) = digest_size h.
Proof. intros; cbn [hkdf_T]; apply hmac_len; assumption. Qed.

Lemma hkdf_restart_spec : forall c i buffer fs,
  exists r fs', hkdf_restart c i buffer fs = Done (r, fs') /\
  (r = None \/
   r = Some {| hm_key := hm_key c;
               hm_msg := if i =? 0 then hm_msg c else buffer |}) /\
  (fs = [] -> r <> None /\ fs' = []).
Proof.
  intros c i buffer fs. unfold hkdf_restart.
  destruct (N.eqb_spec i 0) as [E0|E0]; cbn [negb].
  - do 2 eexists; split; [reflexivity|]. split; [right; destruct c; reflexivity|].
    intros ->; split; [discriminate|reflexivity].
  - step_ssl b1 fs1. destruct b1; cbn [negb].
    2:{ do 2 eexists; split; [reflexivity|]. split; [auto|].
        intros E; destruct (Hnil E); discriminate. }
    step_ssl b2 fs2. destruct b2; cbn [negb].
    2:{ do 2 eexists; split; [reflexivity|]. split; [auto|].
        intros E; destruct (Hnil E) as [_ E1]; destruct (Hnil0 E1); discriminate. }
    do 2 eexists; split; [reflexivity|]. split; [right; reflexivity|].
    intros E; destruct (Hnil E) as [_ E1]; destruct (Hnil0 E1) as [_ E2].
    split; [discriminate|exact E2].
Qed.

Lemma hkdf_block_spec : forall P h c info i fs, i + 1 < 256 ->
  exists r fs', hkdf_block P h c info i fs = Done (r, fs') /\
  (r = None \/
   exists m, r = Some ({| hm_key := hm_key c; hm_msg := m |},
     p_hmac P h (hm_key c) (hm_msg c ++ info ++ [i + 1]))) /\
  (fs = [] -> r <> None /\ fs' = []).
Proof.
  intros P h c info i fs Hi. unfold hkdf_block.
  step_ssl b1 fs1. destruct b1; cbn [negb].
  2:{ do 2 eexists; split; [reflexivity|]. split; [auto|].
      intros E; destruct (Hnil E); discriminate. }
  step_ssl b2 fs2. destruct b2; cbn [negb].
  2:{ do 2 eexists; split; [reflexivity|]. split; [auto|].
      intros E; destruct (Hnil E) as [_ E1]; destruct (Hnil0 E1); discriminate. }
  step_ssl b3 fs3. destruct b3; cbn [negb].
  2:{ do 2 eexists; split; [reflexivity|]. split; [auto|].
      intros E; destruct (Hnil E) as [_ E1]; destruct (Hnil0 E1) as [_ E2];
      destruct (Hnil1 E2); discriminate. }
  do 2 eexists; split; [reflexivity|].
  split.
  - right. eexists. cbn [hmac_update hm_key hm_msg].
    rewrite <- app_assoc, N.mod_small by lia. reflexivity.
  - intros E; destruct (Hnil E) as [_ E1]; destruct (Hnil0 E1) as [_ E2];
    destruct (Hnil1 E2) as [_ E3]. split; [discriminate|exact E3].
Qed.

Lemma hkdf_loop_spec : forall P h info prk, prims_ok P ->
  forall k i c buffer done_ out fs,
  hm_key c = prk ->
  (i = 0 -> hm_msg c = []) ->
  (i <> 0 -> buffer = hkdf_T P h prk info (N.to_nat i)) ->
  i + N.of_nat k <= 255 -> done_ <= lenN out ->
  exists st out' fs',
    hkdf_loop P h c info i k buffer done_ out fs = Done ((st, out'), fs') /\
    lenN out' = lenN out /\
    (st = kOk \/ st = kInternal) /\
    (st = kOk -> lenN out - done_ <= N.of_nat k * digest_size h ->
       out' = takeN done_ out ++
         takeN (lenN out - done_)
           (List.concat (map (hkdf_T P h prk info) (seq (S (N.to_nat i)) k)))) /\
    (fs = [] -> st = kOk /\ fs' = []).
Proof.
  intros P h info prk HP; induction k as [|k IH];
    intros i c buffer done_ out fs Hk Hm Hb Hi Hd.
  - cbn [hkdf_loop]. do 3 eexists; split; [reflexivity|].
    split; [reflexivity|]. split; [auto|]. split; [|auto].
    intros _ Hle. replace (lenN out - done_) with 0 by lia.
    rewrite takeN_0, app_nil_r. rewrite takeN_all by lia. reflexivity.
  - cbn [hkdf_loop].
    destruct (hkdf_restart_spec c i buffer fs) as (r & fs1 & E1 & Hr & Hn1).
    rewrite (bind_done _ _ _ _ _ _ _ E1).
    destruct Hr as [->| ->].
    { do 3 eexists; split; [reflexivity|]. split; [reflexivity|]. split; [auto|].
      split; [discriminate|]. intros E; destruct (Hn1 E) as [E' _]; congruence. }
    match goal with |- context [hkdf_block P h ?c1 info i] => set (c1' := c1) end.
    assert (Hm1 : hm_msg c1' = hkdf_T P h prk info (N.to_nat i)).
    { unfold c1'; cbn [hm_msg]. destruct (N.eqb_spec i 0) as [E0|E0].
      - subst i; cbn. auto.
      - auto. }
    assert (Hk1 : hm_key c1' = prk) by exact Hk.
    clearbody c1'.
    destruct (hkdf_block_spec P h c1' info i fs1 ltac:(lia)) as (r & fs2 & E2 & Hr & Hn2).
    rewrite (bind_done _ _ _ _ _ _ _ E2).
    destruct Hr as [->| (m & ->)].
    { do 3 eexists; split; [reflexivity|]. split; [reflexivity|]. split; [auto|].
      split; [discriminate|]. intros E; destruct (Hn1 E) as [_ E'];
      destruct (Hn2 E') as [E'' _]; congruence. }
    rewrite Hk1, Hm1.
    assert (Eblk : p_hmac P h prk (hkdf_T P h prk info (N.to_nat i) ++ info ++ [i + 1])
      = hkdf_T P h prk info (S (N.to_nat i))).
    { cbn [hkdf_T]. do 4 f_equal. lia. }
    rewrite Eblk.
    set (blk := hkdf_T P h prk info (S (N.to_nat i))).
    assert (Hblk : lenN blk = digest_size h) by (apply hkdf_T_len; assumption).
    pose proof (digest_size_pos h) as Hds.
    cbv zeta.
    set (todo := if lenN out <? done_ + digest_size h then lenN out - done_ else digest_size h).
    assert (Htodo : todo = N.min (digest_size h) (lenN out - done_)).
    { unfold todo; destruct (N.ltb_spec (lenN out) (done_ + digest_size h)); lia. }
    clearbody todo.
    assert (Htl : lenN (takeN todo blk) = todo) by (rewrite lenN_takeN; lia).
    set (out1 := takeN done_ out ++ takeN todo blk ++ dropN (done_ + todo) out).
    assert (Hl1 : lenN out1 = lenN out).
    { unfold out1. rewrite !lenN_app, Htl, lenN_takeN, lenN_dropN. lia. }
    destruct (IH (i + 1) {| hm_key := prk; hm_msg := m |}
      blk (done_ + todo) out1 fs2)
      as (st & out' & fs' & H1 & H2 & H3 & H4 & H5).
    { reflexivity. }
    { lia. }
    { intros _; unfold blk; f_equal; lia. }
    { lia. }
    { lia. }
    exists st, out', fs'.
    split; [exact H1|]. split; [congruence|]. split; [exact H3|].
    split.
    + intros Hok Hle. rewrite (H4 Hok).
      2:{ rewrite Hl1. lia. }
      rewrite Hl1.
      assert (Hlead : takeN (done_ + todo) out1 = takeN done_ out ++ takeN todo blk).
      { unfold out1. rewrite app_assoc. rewrite takeN_app_le.
        - apply takeN_all. rewrite lenN_app, Htl, lenN_takeN; lia.
        - rewrite lenN_app, Htl, lenN_takeN; lia. }
      rewrite Hlead. rewrite <- app_assoc. f_equal.
      cbn [seq map List.concat]. fold blk.
      replace (S (N.to_nat (i + 1))) with (S (S (N.to_nat i))) by lia.
      destruct (N.le_gt_cases (digest_size h) (lenN out - done_)) as [Hc|Hc].
      * rewrite (takeN_app_ge _ (lenN out - done_) blk) by lia.
        rewrite (takeN_all _ todo blk) by lia. do 2 f_equal. lia.
      * rewrite (takeN_app_le _ (lenN out - done_) blk) by lia.
        replace todo with (lenN out - done_) by lia.
        replace (lenN out - (done_ + (lenN out - done_))) with 0 by lia.
        rewrite takeN_0, app_nil_r. reflexivity.
    + intros E. destruct (Hn1 E) as [_ E']. destruct (Hn2 E') as [_ E'']. auto.
Qed.

Lemma hkdf_derive_secret_spec : forall P h prk info out fs,
  prims_ok P -> lenN out + digest_size h < two64 ->
  exists st out' fs',
    hkdf_derive_secret P h prk info out fs = Done ((st, out'), fs') /\
    lenN out' = lenN out /\
    (st = kOk -> digest_size h <= lenN (prk out) /\ lenN out <= 255 * digest_size h /\
       out' = hkdf_expand P h (prk out) info (lenN out)) /\
    (lenN (prk out) < digest_size h -> st = kInvalidArgument /\ out' = out /\ fs' = fs) /\
    (digest_size h <= lenN (prk out) -> 255 * digest_size h < lenN out ->
       st = kInternal /\ out' = out /\ fs' = fs) /\
    (st = kOk \/ st = kInvalidArgument \/ st = kInternal) /\
    (digest_size h <= lenN (prk out) -> lenN out <= 255 * digest_size h -> fs = [] ->
       st = kOk /\ fs' = []).
Proof.
  intros P h prk info out fs HP Hbig. unfold hkdf_derive_secret.
  pose proof (digest_size_pos h) as Hds.
  rewrite (wrap64_small (lenN out + digest_size h)) by exact Hbig.
  assert (Hs : sub64 (lenN out + digest_size h) 1 = lenN out + digest_size h - 1).
  { unfold sub64. replace (lenN out + digest_size h + two64 - 1) with
      ((lenN out + digest_size h - 1) + 1 * two64) by lia.
    rewrite N.mod_add by (unfold two64; lia). apply N.mod_small; lia. }
  rewrite Hs.
  remember ((lenN out + digest_size h - 1) / digest_size h) as n eqn:En.
  assert (Hn1 : lenN out <= n * digest_size h).
  { pose proof (N.div_mod' (lenN out + digest_size h - 1) (digest_size h)) as Hdm. rewrite <- En in Hdm.
    pose proof (N.mod_lt (lenN out + digest_size h - 1) (digest_size h) ltac:(lia)). lia. }
  assert (Hn2 : 255 < n <-> 255 * digest_size h < lenN out).
  { pose proof (N.div_mod' (lenN out + digest_size h - 1) (digest_size h)) as Hdm. rewrite <- En in Hdm.
    pose proof (N.mod_lt (lenN out + digest_size h - 1) (digest_size h) ltac:(lia)).
    split; intros; nia. }
  destruct (N.ltb_spec (lenN (prk out)) (digest_size h)) as [Hp|Hp].
  { do 3 eexists; split; [reflexivity|]. repeat split; auto; try discriminate; lia. }
  destruct (N.ltb_spec (lenN out + digest_size h) (lenN out)) as [Hw|Hw]; [lia|].
  cbn [orb]. destruct (N.ltb_spec 255 n) as [Hb|Hb].
  { assert (255 * digest_size h < lenN out) by tauto.
    do 3 eexists; split; [reflexivity|]. repeat split; auto; try discriminate; lia. }
  assert (Hle : lenN out <= 255 * digest_size h) by lia.
  step_ssl b1 fs1. destruct b1; cbn [negb].
  2:{ do 3 eexists; split; [reflexivity|].
      split; [reflexivity|]. split; [discriminate|]. split; [intros; lia|].
      split; [intros; lia|]. split; [auto|].
      intros _ _ E; destruct (Hnil E); discriminate. }
  unfold hkdf_derivation.
  step_ssl b2 fs2. destruct b2; cbn [negb].
  2:{ do 3 eexists; split; [reflexivity|].
      split; [reflexivity|]. split; [discriminate|]. split; [intros; lia|].
      split; [intros; lia|]. split; [auto|].
      intros _ _ E; destruct (Hnil E) as [_ E1]; destruct (Hnil0 E1); discriminate. }
  destruct (hkdf_loop_spec P h info (prk out) HP (N.to_nat n) 0
     {| hm_key := prk out; hm_msg := [] |} [] 0 out fs2)
    as (st & out' & fs' & H1 & H2 & H3 & H4 & H5); try reflexivity; try lia.
  exists st, out', fs'. split; [exact H1|]. split; [exact H2|].
  split; [|split; [intros; lia|split; [intros; lia|split; [tauto|]]]].
  - intros Hok; split; [exact Hp|]. split; [exact Hle|].
    rewrite (H4 Hok) by lia. rewrite takeN_0; cbn [app].
    rewrite N.sub_0_r. unfold hkdf_expand.
    change (S (N.to_nat 0)) with 1%nat.
    rewrite <- En; reflexivity.
  - intros _ _ E. destruct (Hnil E) as [_ E1]. destruct (Hnil0 E1) as [_ E2]. auto.
Qed.
