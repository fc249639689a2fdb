From Coq Require Import List NArith ZArith Bool Lia ZifyBool ZifyNat ZifyN.
From Verif Require Import Base BaseProofs Aead SpecAead AeadProofs AeadRun AeadRunProofs AeadAnyProofs AeadTotalProofs SpecCodes NullProofs.
Import ListNotations.
Local Open Scope N_scope.

Ltac inv_ssl H ok f := apply bind_inv in H as (ok & f & ?Hs & H);
  match goal with K : ssl ?fs = Done (ok, f) |- _ =>
    let Hn := fresh "Hn" in assert (Hn : fs = [] -> ok = true /\ f = []) by (intros ->; cbn in K; injection K as <- <-; auto); clear K end.

Lemma valid_dec : forall vs, Forall iov_valid vs \/ ~ Forall iov_valid vs.
Proof.
  intros vs. destruct (Forall_dec iov_valid) with (l := vs) as [H|H]; [|auto..].
  intros [d|n]; cbn; [auto|]. destruct (N.eq_dec n 0); auto.
Qed.

Lemma init_codes : forall e nonce fs st e' fs', init_context_using_nonce e nonce fs = Done ((st, e'), fs') ->
  (fs = [] -> fs' = []) /\
  ((lenN nonce = 12 /\ (st = kOk \/ (st = kInternal /\ fs <> []))) \/ (lenN nonce <> 12 /\ st = kInvalidArgument)).
Proof.
  intros e nonce fs st e' fs' H. unfold init_context_using_nonce, kAeadNonceSize in H.
  destruct (N.eqb_spec (lenN nonce) 12) as [E|E]; cbn [negb] in H.
  2: { apply ret_inv in H as [H ->]. injection H as -> ->. auto. }
  inv_ssl H ok f. destruct ok; apply ret_inv in H as [H ->]; injection H as -> ->.
  - split; [intros K; apply Hn; exact K|auto].
  - split; [intros K; apply Hn; exact K|]. left. split; [exact E|right]. split; [reflexivity|]. intros K. destruct (Hn K). discriminate.
Qed.

Lemma set_aad_codes : forall aad e fs st e' fs', set_aad e aad fs = Done ((st, e'), fs') ->
  (fs = [] -> fs' = []) /\
  ((st = kOk /\ Forall iov_valid aad) \/ (st = kInvalidArgument /\ ~ Forall iov_valid aad) \/
   (st = kInternal /\ (Forall small_iov aad -> fs <> []))).
Proof.
  induction aad as [|v aad IH]; intros e fs st e' fs' H; cbn [set_aad] in H.
  - apply ret_inv in H as [H ->]. injection H as -> ->. auto.
  - destruct (N.eqb_spec (iov_len v) 0) as [E|E].
    + destruct (iov_empty v E) as [V _]. destruct (IH _ _ _ _ _ H) as (A & [(-> & B)|[(-> & B)|(-> & B)]]); (split; [exact A|]).
      * left. auto.
      * right. left. split; [reflexivity|]. intros K. inversion K; contradiction.
      * right. right. split; [reflexivity|]. intros K. inversion K; auto.
    + destruct v as [d|n].
      2: { apply ret_inv in H as [H ->]. injection H as -> ->. split; [auto|]. right. left. split; [reflexivity|].
           intros K. inversion K; subst. cbn in *. contradiction. }
      inv_ssl H ok f. destruct (int_narrow (lenN d)) as [m|] eqn:Em.
      2: { apply ret_inv in H as [H ->]. injection H as -> ->. split; [intros K; apply Hn; exact K|]. right. right. split; [reflexivity|].
           intros F. inversion F; subst. unfold small_iov in *. cbn [iov_len] in *. rewrite int_narrow_small in Em by assumption. discriminate. }
      destruct ok.
      2: { apply ret_inv in H as [H ->]. injection H as -> ->. split; [intros K; apply Hn; exact K|]. right. right. split; [reflexivity|].
           intros _ K. destruct (Hn K). discriminate. }
      cbn zeta in H. destruct (N.eqb_spec m (lenN d)) as [Ed|Ed].
      * destruct (IH _ _ _ _ _ H) as (A & [(-> & B)|[(-> & B)|(-> & B)]]); (split; [intros K; apply A, Hn, K|]).
        -- left. split; [reflexivity|]. constructor; [exact I|exact B].
        -- right. left. split; [reflexivity|]. intros K. inversion K; contradiction.
        -- right. right. split; [reflexivity|]. intros K. inversion K; subst. intros K2. apply B; [assumption|]. apply Hn. exact K2.
      * apply ret_inv in H as [H ->]. injection H as -> ->. split; [intros K; apply Hn; exact K|]. right. right. split; [reflexivity|].
        intros F. inversion F; subst. unfold small_iov in *. cbn [iov_len] in *. rewrite int_narrow_small in Em by assumption. congruence.
Qed.

Lemma encrypt_loop_codes : forall P a pt e out off rem fs st e' out' off' rem' fs',
  encrypt_loop P a e pt out off rem fs = Done ((st, e', out', off', rem'), fs') ->
  (fs = [] -> fs' = []) /\
  ((st = kOk /\ Forall iov_valid pt /\ rem <= rem' + sum_lens pt /\ (Forall small_iov pt -> sum_lens pt + rem' = rem)) \/
   (st = kInvalidArgument /\ (Forall iov_valid pt -> rem < sum_lens pt)) \/
   (st = kInternal /\ (Forall small_iov pt -> fs <> []))).
Proof.
  intros P a. induction pt as [|v pt IH]; intros e out off rem fs st e' out' off' rem' fs' H; cbn [encrypt_loop sum_lens] in *.
  - apply ret_inv in H as [H ->]. injection H as -> -> -> -> ->. split; [auto|]. left. split; [reflexivity|]. split; [constructor|]. split; intros; lia.
  - destruct (N.eqb_spec (iov_len v) 0) as [E|E].
    + destruct (iov_empty v E) as [V _]. destruct (IH _ _ _ _ _ _ _ _ _ _ _ H) as (A & [(-> & B & C & D)|[(-> & B)|(-> & B)]]); (split; [exact A|]).
      * left. split; [reflexivity|]. split; [auto|]. split; [lia|]. intros K. inversion K; subst. rewrite <- D by assumption. lia.
      * right. left. split; [reflexivity|]. intros K. inversion K; subst. pose proof (B ltac:(assumption)). lia.
      * right. right. split; [reflexivity|]. intros K. inversion K; auto.
    + destruct v as [d|n].
      2: { apply ret_inv in H as [H ->]. injection H as -> -> -> -> ->. split; [auto|]. right. left. split; [reflexivity|].
           intros K. inversion K; subst. cbn in *. contradiction. }
      cbn [iov_len] in *. destruct (N.ltb_spec rem (lenN d)) as [L|L].
      { apply ret_inv in H as [H ->]. injection H as -> -> -> -> ->. split; [auto|]. right. left. split; [reflexivity|]. intros _. lia. }
      inv_ssl H ok f. destruct (int_narrow (lenN d)) as [m|] eqn:Em.
      2: { apply ret_inv in H as [H ->]. injection H as -> -> -> -> ->. split; [intros K; apply Hn; exact K|]. right. right. split; [reflexivity|].
           intros F. inversion F; subst. unfold small_iov in *. cbn [iov_len] in *. rewrite int_narrow_small in Em by assumption. discriminate. }
      destruct ok.
      2: { apply ret_inv in H as [H ->]. injection H as -> -> -> -> ->. split; [intros K; apply Hn; exact K|]. right. right. split; [reflexivity|].
           intros _ K. destruct (Hn K). discriminate. }
      cbn zeta in H. apply bind_inv in H as (o1 & f1 & Hw & H). apply lift_inv in Hw as [_ ->].
      pose proof (int_narrow_le _ _ Em) as Lm.
      destruct (IH _ _ _ _ _ _ _ _ _ _ _ H) as (A & [(-> & B & C & D)|[(-> & B)|(-> & B)]]); (split; [intros K; apply A, Hn, K|]).
      * left. split; [reflexivity|]. split; [constructor; [exact I|exact B]|]. split; [lia|]. intros K. inversion K; subst.
        unfold small_iov in *. cbn [iov_len] in *. rewrite int_narrow_small in Em by assumption. injection Em as <-. specialize (D ltac:(assumption)). lia.
      * right. left. split; [reflexivity|]. intros K. inversion K; subst. specialize (B ltac:(assumption)). lia.
      * right. right. split; [reflexivity|]. intros K. inversion K; subst. intros K2. apply B; [assumption|]. apply Hn. exact K2.
Qed.

Definition enc_codes (nonce : bytes) (aad pt : list iovec) (size : N) (fs : faults) (st : code) : Prop :=
  (st = kOk \/ st = kInvalidArgument \/ st = kInternal) /\
  (st = kInvalidArgument -> ~ encrypt_args nonce aad pt size) /\
  (Forall small_iov aad -> Forall small_iov pt -> (st = kInternal -> fs <> []) /\ (st = kOk -> encrypt_args nonce aad pt size)).

Lemma evp_encrypt_codes : forall P c nonce aad pt out fs c' st n out' fs',
  evp_encrypt P c nonce aad pt out fs = Done ((c', (st, n), out'), fs') ->
  enc_codes nonce aad pt (iov_len out) fs st.
Proof.
  intros P c nonce aad pt out fs c' st n out' fs' H. unfold evp_encrypt, enc_codes, encrypt_args in *.
  apply bind_inv in H as ([st1 e1] & f1 & E1 & H). apply init_codes in E1 as (N1 & K1).
  destruct (is_ok st1) eqn:S1; cbn [negb] in H.
  2: { apply is_ok_false in S1. apply ret_inv in H as [H _]. injection H as -> -> -> ->.
       destruct K1 as [(Hl & [->|(-> & Hf)])|(Hl & ->)]; [contradiction| |].
       - split; [auto|]. split; [discriminate|]. intros _ _. split; [auto|discriminate].
       - split; [auto|]. split; [tauto|]. intros _ _. split; discriminate. }
  apply is_ok_true in S1. subst st1. destruct K1 as [(Hl & _)|(_ & K)]; [|discriminate].
  apply bind_inv in H as ([st2 e2] & f2 & E2 & H). apply set_aad_codes in E2 as (N2 & K2).
  destruct (is_ok st2) eqn:S2; cbn [negb] in H.
  2: { apply is_ok_false in S2. apply ret_inv in H as [H _]. injection H as -> -> -> ->.
       destruct K2 as [(-> & _)|[(-> & Hv)|(-> & Hf)]]; [contradiction| |].
       - split; [auto|]. split; [tauto|]. intros _ _. split; discriminate.
       - split; [auto|]. split; [discriminate|]. intros Sa _. split; [|discriminate]. intros _ K. exact (Hf Sa (N1 K)). }
  apply is_ok_true in S2. subst st2. destruct K2 as [(_ & Va)|[(K & _)|(K & _)]]; [|discriminate..].
  apply bind_inv in H as ([[[[st3 e3] o3] off] rem] & f3 & E3 & H). apply encrypt_loop_codes in E3 as (N3 & K3).
  destruct (is_ok st3) eqn:S3; cbn [negb] in H.
  2: { apply is_ok_false in S3. apply ret_inv in H as [H _]. injection H as -> -> -> ->.
       destruct K3 as [(-> & _)|[(-> & Hv)|(-> & Hf)]]; [contradiction| |].
       - split; [auto|]. split; [|intros _ _; split; discriminate]. intros _ (_ & _ & V & L). specialize (Hv V). lia.
       - split; [auto|]. split; [discriminate|]. intros _ Sp. split; [|discriminate]. intros _ K. exact (Hf Sp (N2 (N1 K))). }
  apply is_ok_true in S3. subst st3. destruct K3 as [(_ & Vp & Hr & Hs)|[(K & _)|(K & _)]]; [|discriminate..].
  inv_ssl H ok f4. destruct ok; cbn [negb] in H.
  2: { apply ret_inv in H as [H _]. injection H as -> -> -> ->. split; [auto|]. split; [discriminate|]. intros _ _. split; [|discriminate].
       intros _ K. destruct (Hn (N3 (N2 (N1 K)))). discriminate. }
  unfold kAeadTagSize in H. destruct (N.ltb_spec rem 16) as [L|L].
  { apply ret_inv in H as [H _]. injection H as -> -> -> ->. split; [auto|]. split; [|intros _ _; split; discriminate].
    intros _ (_ & _ & _ & Q). lia. }
  inv_ssl H ok f5. destruct ok; cbn [negb] in H.
  2: { apply ret_inv in H as [H _]. injection H as -> -> -> ->. split; [auto|]. split; [discriminate|]. intros _ _. split; [|discriminate].
       intros _ K. destruct (Hn0 (proj2 (Hn (N3 (N2 (N1 K)))))). discriminate. }
  apply bind_inv in H as (o4 & f6 & Hw & H). apply lift_inv in Hw as [_ ->]. apply ret_inv in H as [H _]. injection H as -> -> -> ->.
  split; [auto|]. split; [discriminate|]. intros _ Sp. split; [discriminate|]. intros _. specialize (Hs Sp).
  split; [exact Hl|]. split; [exact Va|]. split; [exact Vp|lia].
Qed.

Lemma bssl_encrypt_codes : forall P c nonce aad pt out fs c' st n out' fs', cr_nonce_length c = 12 -> cr_tag_length c = 16 ->
  sum_lens pt + 16 < two64 ->
  bssl_encrypt P c nonce aad pt out fs = Done ((c', (st, n), out'), fs') ->
  enc_codes nonce aad pt (iov_len out) fs st.
Proof.
  intros P c nonce aad pt out fs c' st n out' fs' Hn Ht Hb H. unfold bssl_encrypt, enc_codes, encrypt_args in *. rewrite Hn, Ht in H.
  destruct (N.eqb_spec (lenN nonce) 12) as [Hl|Hl]; cbn [negb] in H.
  2: { apply ret_inv in H as [H _]. injection H as -> -> -> ->. split; [auto|]. split; [tauto|]. intros _ _. split; discriminate. }
  destruct (checked_len pt 0) as [k|] eqn:Ek.
  2: { apply ret_inv in H as [H _]. injection H as -> -> -> ->. split; [auto|]. split; [|intros _ _; split; discriminate].
       intros _ (_ & _ & V & _). rewrite (proj1 (checked_len_spec pt 0) V) in Ek by lia. discriminate. }
  apply checked_len_sum in Ek as [-> Vp]; [|lia]. rewrite N.add_0_l in H.
  unfold wrap64 in H. rewrite N.mod_small in H by lia.
  destruct (N.ltb_spec (iov_len out) (16 + sum_lens pt)) as [L|L].
  { apply ret_inv in H as [H _]. injection H as -> -> -> ->. split; [auto|]. split; [|intros _ _; split; discriminate].
    intros _ (_ & _ & _ & Q). lia. }
  destruct (collect_checked aad []) as [av|] eqn:Ea.
  2: { apply ret_inv in H as [H _]. injection H as -> -> -> ->. split; [auto|]. split; [|intros _ _; split; discriminate].
       intros _ (_ & V & _). rewrite (proj1 (collect_checked_spec aad []) V) in Ea. discriminate. }
  assert (Va : Forall iov_valid aad).
  { destruct (valid_dec aad) as [V|V]; [exact V|]. rewrite (proj2 (collect_checked_spec aad []) V) in Ea. discriminate. }
  inv_ssl H ok f. destruct ok; cbn [negb] in H.
  2: { apply bind_inv in H as (o4 & f6 & Hw & H). apply ret_inv in H as [H _]. injection H as -> -> -> ->.
       split; [auto|]. split; [discriminate|]. intros _ _. split; [|discriminate]. intros _ K. destruct (Hn0 K). discriminate. }
  cbn zeta in H. apply bind_inv in H as (o4 & f6 & Hw & H). apply ret_inv in H as [H _]. injection H as -> -> -> ->.
  split; [auto|]. split; [discriminate|]. intros _ _. split; [discriminate|]. intros _.
  split; [exact Hl|]. split; [exact Va|]. split; [exact Vp|lia].
Qed.

Lemma areach_lens : forall P lib k key c, areach P lib k key c -> cr_nonce_length c = 12 /\ cr_tag_length c = 16.
Proof. intros P lib k key c R. destruct (C57_getters_lemma _ _ _ _ _ R) as [_ L]. unfold lengths in L. injection L as _ -> ->. auto. Qed.

Lemma C87enc : forall P lib k key c nonce aad pt out fs c' r, areach P lib k key c -> sum_lens pt + 16 < two64 ->
  astep P c (AEncrypt nonce aad pt out) fs = Done (c', r) ->
  (ar_st r = kOk \/ ar_st r = kInvalidArgument \/ ar_st r = kInternal) /\
  (ar_st r = kInvalidArgument -> ~ encrypt_args nonce aad pt (iov_len out)) /\
  (Forall small_iov aad -> Forall small_iov pt ->
     (ar_st r = kInternal -> fs <> []) /\ (ar_st r = kOk -> encrypt_args nonce aad pt (iov_len out))).
Proof.
  intros P lib k key c nonce aad pt out fs c' r R Hb H. destruct (areach_lens _ _ _ _ _ R) as [L1 L2].
  unfold astep in H. destruct (aead_encrypt P c nonce aad pt out fs) as [[[[c1 [st n]] o] f]|u|] eqn:E; cbn [obind] in H; try discriminate.
  injection H as <- <-. cbn [ar_st]. unfold aead_encrypt in E.
  destruct (cr_impl c); [eapply evp_encrypt_codes; exact E|eapply evp_encrypt_codes; exact E|eapply bssl_encrypt_codes; eauto].
Qed.

Lemma zero_exit_inv : forall st e out fs r fs', zero_exit st e out fs = Done (r, fs') -> exists o, r = DExit st e o /\ fs' = fs.
Proof.
  intros st e out fs r fs' H. unfold zero_exit in H. apply bind_inv in H as (o & f & Hw & H). apply lift_inv in Hw as [_ ->].
  apply ret_inv in H as [-> ->]. eauto.
Qed.

Definition dloop_codes (ct : list iovec) (total rem : N) (cur : bytes) (fs : faults) (r : dloop) : Prop :=
  match r with
  | DExit st _ _ => (st = kInvalidArgument /\ (Forall iov_valid ct -> rem + 16 < total)) \/
                    (st = kInternal /\ (Forall small_iov ct -> fs <> []))
  | DCont _ _ total' _ _ rest =>
      (total <= rem + 16 \/ 16 < total') /\
      (Forall iov_valid rest -> Forall iov_valid ct) /\
      (Forall small_iov ct -> total = lenN cur + sum_lens ct -> cur = [] \/ total <= 16 -> total' <= 16)
  end.

Lemma decrypt_loop_codes : forall P a ct e out total off rem cur fs r fs',
  decrypt_loop P a e ct out total off rem cur fs = Done (r, fs') ->
  (fs = [] -> fs' = []) /\ dloop_codes ct total rem cur fs r.
Proof.
  intros P a. induction ct as [|v ct IH]; intros e out total off rem cur fs r fs' H; cbn [decrypt_loop] in H.
  - apply ret_inv in H as [-> ->]. split; [auto|]. cbn [dloop_codes sum_lens]. split; [lia|]. split; [auto|].
    intros _ E [->|K]; [subst total; cbn; lia|exact K].
  - unfold kAeadTagSize in H. destruct (N.leb_spec total 16) as [L|L].
    { apply ret_inv in H as [-> ->]. split; [auto|]. cbn [dloop_codes]. split; [lia|]. split; [auto|]. auto. }
    destruct (N.eqb_spec (iov_len v) 0) as [E|E].
    + destruct (iov_empty v E) as [V _]. destruct (IH _ _ _ _ _ _ _ _ _ H) as (A & B). split; [exact A|].
      destruct r as [st e1 o1|e1 o1 t1 r1 c1 rest]; cbn [dloop_codes sum_lens] in *.
      * destruct B as [(-> & B)|(-> & B)]; [left|right]; (split; [reflexivity|]); intros K; inversion K; auto.
      * destruct B as (B1 & B2 & B3). split; [exact B1|]. split; [auto|]. intros K Et [->|Kt]; [|lia]. inversion K; subst.
        apply B3; [assumption| |auto]. cbn in *. lia.
    + destruct v as [d|n].
      2: { apply zero_exit_inv in H as (o & -> & ->). split; [auto|]. left. split; [reflexivity|]. intros K. inversion K; subst. cbn in *. contradiction. }
      cbn [iov_len] in *. cbn zeta in H. destruct (N.ltb_spec rem (N.min (lenN d) (total - 16))) as [Lr|Lr].
      { apply ret_inv in H as [-> ->]. split; [auto|]. left. split; [reflexivity|]. intros _. lia. }
      inv_ssl H ok f. destruct (int_narrow (N.min (lenN d) (total - 16))) as [m|] eqn:Em.
      2: { apply zero_exit_inv in H as (o & -> & ->). split; [intros K; apply Hn; exact K|]. right. split; [reflexivity|].
           intros F. inversion F; subst. unfold small_iov in *. cbn [iov_len] in *. rewrite int_narrow_small in Em by lia. discriminate. }
      destruct ok.
      2: { apply zero_exit_inv in H as (o & -> & ->). split; [intros K; apply Hn; exact K|]. right. split; [reflexivity|].
           intros _ K. destruct (Hn K). discriminate. }
      apply bind_inv in H as (o1 & f1 & Hw & H). apply lift_inv in Hw as [_ ->].
      pose proof (int_narrow_le _ _ Em) as Lm.
      destruct (IH _ _ _ _ _ _ _ _ _ H) as (A & B). split; [intros K; apply A, Hn, K|].
      destruct r as [st e1 o2|e1 o2 t1 r1 c1 rest]; cbn [dloop_codes sum_lens iov_len] in *.
      * destruct B as [(-> & B)|(-> & B)]; [left|right]; (split; [reflexivity|]); intros K; inversion K; subst.
        -- specialize (B ltac:(assumption)). lia.
        -- intros K2. apply B; [assumption|]. apply Hn. exact K2.
      * destruct B as (B1 & B2 & B3). split; [lia|]. split; [intros K; constructor; [exact I|auto]|].
        intros K Et [->|Kt]; [|lia]. inversion K as [|? ? Sv Sr]; subst. unfold small_iov in Sv. cbn [iov_len] in Sv.
        rewrite int_narrow_small in Em by lia. injection Em as <-. change (lenN (@nil N)) with 0 in *.
        apply B3; [assumption|rewrite lenN_dropN; lia|].
        destruct (N.le_gt_cases (lenN d) (0 + (lenN d + sum_lens ct) - 16)) as [Q|Q]; [left|right; lia].
        rewrite N.min_l by lia. apply dropN_all. lia.
Qed.

Lemma collect_tag_valid : forall rest tag t, collect_tag tag rest = Done t -> Forall iov_valid rest.
Proof.
  induction rest as [|v rest IH]; intros tag t H; cbn [collect_tag] in H; [constructor|].
  destruct (N.eqb_spec (iov_len v) 0) as [E|E].
  - destruct (iov_empty v E) as [V _]. eauto.
  - destruct v as [d|n]; [|discriminate]. destruct (lenN tag + lenN d <=? kAeadTagSize); [|discriminate]. constructor; [exact I|eauto].
Qed.

Lemma check_tag_codes : forall P a e tag out fs st e' out' fs', check_tag P a e tag out fs = Done ((st, e', out'), fs') ->
  st = kOk \/ st = kInternal.
Proof.
  intros P a e tag out fs st e' out' fs' H. unfold check_tag in H.
  apply bind_inv in H as (ok & f & _ & H). destruct ok; cbn [negb] in H.
  2: { apply bind_inv in H as (o & f2 & _ & H). apply ret_inv in H as [H _]. injection H as -> -> ->. auto. }
  cbn zeta in H. apply bind_inv in H as (ok & f2 & _ & H). destruct (ok && _)%bool.
  - apply ret_inv in H as [H _]. injection H as -> -> ->. auto.
  - apply bind_inv in H as (o & f3 & _ & H). apply ret_inv in H as [H _]. injection H as -> -> ->. auto.
Qed.

Definition dec_codes (nonce : bytes) (aad ct : list iovec) (size : N) (fs : faults) (st : code) : Prop :=
  (st = kOk \/ st = kInvalidArgument \/ st = kInternal) /\
  (st = kInvalidArgument -> ~ decrypt_args nonce aad ct size) /\
  (Forall small_iov aad -> Forall small_iov ct -> st = kInternal -> fs <> [] \/ decrypt_args nonce aad ct size).

Lemma faults_dec : forall fs : faults, fs = [] \/ fs <> [].
Proof. intros [|x l]; [auto|right; discriminate]. Qed.

Lemma evp_decrypt_codes : forall P c nonce aad ct out fs c' st n out' fs', sum_lens ct < two64 ->
  evp_decrypt P c nonce aad ct out fs = Done ((c', (st, n), out'), fs') ->
  dec_codes nonce aad ct (iov_len out) fs st.
Proof.
  intros P c nonce aad ct out fs c' st n out' fs' Hb H. unfold evp_decrypt, dec_codes, decrypt_args in *.
  rewrite total_len_sum in H by exact Hb. cbn zeta in H. unfold kAeadTagSize in H.
  destruct (N.ltb_spec (sum_lens ct) 16) as [L16|L16].
  { apply ret_inv in H as [H _]. injection H as -> -> -> ->. split; [auto|]. split; [lia|]. intros _ _ K. discriminate. }
  apply bind_inv in H as ([st1 e1] & f1 & E1 & H). apply init_codes in E1 as (N1 & K1).
  destruct (is_ok st1) eqn:S1; cbn [negb] in H.
  2: { apply is_ok_false in S1. apply ret_inv in H as [H _]. injection H as -> -> -> ->.
       destruct K1 as [(Hl & [->|(-> & Hf)])|(Hl & ->)]; [contradiction| |].
       - split; [auto|]. split; [discriminate|]. auto.
       - split; [auto|]. split; [tauto|]. intros _ _ K. discriminate. }
  apply is_ok_true in S1. subst st1. destruct K1 as [(Hl & _)|(_ & K)]; [|discriminate].
  apply bind_inv in H as ([st2 e2] & f2 & E2 & H). apply set_aad_codes in E2 as (N2 & K2).
  destruct (is_ok st2) eqn:S2; cbn [negb] in H.
  2: { apply is_ok_false in S2. apply ret_inv in H as [H _]. injection H as -> -> -> ->.
       destruct K2 as [(-> & _)|[(-> & Hv)|(-> & Hf)]]; [contradiction| |].
       - split; [auto|]. split; [tauto|]. intros _ _ K. discriminate.
       - split; [auto|]. split; [discriminate|]. intros Sa _ _. left. intros K. exact (Hf Sa (N1 K)). }
  apply is_ok_true in S2. subst st2. destruct K2 as [(_ & Va)|[(K & _)|(K & _)]]; [|discriminate..].
  apply bind_inv in H as (r & f3 & E3 & H). apply decrypt_loop_codes in E3 as (N3 & K3).
  destruct r as [st3 e3 o3|e3 o3 t3 r3 cur rest]; cbn [dloop_codes] in K3.
  { apply ret_inv in H as [H _]. injection H as -> -> -> ->. destruct K3 as [(-> & B)|(-> & B)].
    - split; [auto|]. split; [|intros _ _ K; discriminate]. intros _ (_ & _ & V & _ & Q). specialize (B V). lia.
    - split; [auto|]. split; [discriminate|]. intros _ Sc _. left. intros K. exact (B Sc (N2 (N1 K))). }
  destruct K3 as (B1 & B2 & B3).
  destruct (N.ltb_spec 16 t3) as [Lt|Lt].
  { apply bind_inv in H as (o4 & f4 & _ & H). apply ret_inv in H as [H _]. injection H as -> -> -> ->.
    split; [auto|]. split; [discriminate|]. intros _ Sc _. specialize (B3 Sc ltac:(cbn; lia) ltac:(auto)). lia. }
  apply bind_inv in H as (tag & f4 & Ht & H). apply lift_inv in Ht as [Ht ->].
  destruct (lenN cur <=? 16); [|discriminate]. apply collect_tag_valid in Ht.
  apply bind_inv in H as ([[st5 e5] o5] & f5 & E5 & H). apply check_tag_codes in E5.
  assert (Q : lenN nonce = 12 /\ Forall iov_valid aad /\ Forall iov_valid ct /\ 16 <= sum_lens ct /\ sum_lens ct <= iov_len out + 16).
  { split; [exact Hl|]. split; [exact Va|]. split; [auto|]. lia. }
  destruct (is_ok st5) eqn:S5; cbn [negb] in H; apply ret_inv in H as [H _]; injection H as -> -> -> ->.
  - split; [auto|]. split; [discriminate|]. auto.
  - apply is_ok_false in S5. destruct E5 as [-> | ->]; [contradiction|]. split; [auto|]. split; [discriminate|]. auto.
Qed.

Lemma bssl_decrypt_codes : forall P c nonce aad ct out fs c' st n out' fs', cr_nonce_length c = 12 ->
  sum_lens ct < two64 ->
  bssl_decrypt P c nonce aad ct out fs = Done ((c', (st, n), out'), fs') ->
  dec_codes nonce aad ct (iov_len out) fs st.
Proof.
  intros P c nonce aad ct out fs c' st n out' fs' Hn Hb H. unfold bssl_decrypt, dec_codes, decrypt_args, kAeadTagSize in *. rewrite Hn in H.
  destruct (N.eqb_spec (lenN nonce) 12) as [Hl|Hl]; cbn [negb] in H.
  2: { apply ret_inv in H as [H _]. injection H as -> -> -> ->. split; [auto|]. split; [tauto|]. intros _ _ K. discriminate. }
  destruct (checked_len ct 0) as [k|] eqn:Ek.
  2: { apply ret_inv in H as [H _]. injection H as -> -> -> ->. split; [auto|]. split; [|intros _ _ K; discriminate].
       intros _ (_ & _ & V & _). rewrite (proj1 (checked_len_spec ct 0) V) in Ek by lia. discriminate. }
  apply checked_len_sum in Ek as [-> Vp]; [|lia]. rewrite N.add_0_l in H.
  destruct (N.ltb_spec (sum_lens ct) 16) as [L1|L1].
  { apply ret_inv in H as [H _]. injection H as -> -> -> ->. split; [auto|]. split; [lia|intros _ _ K; discriminate]. }
  destruct (N.ltb_spec (iov_len out) (sum_lens ct - 16)) as [L2|L2].
  { apply ret_inv in H as [H _]. injection H as -> -> -> ->. split; [auto|]. split; [lia|intros _ _ K; discriminate]. }
  destruct (collect_checked aad []) as [av|] eqn:Ea.
  2: { apply ret_inv in H as [H _]. injection H as -> -> -> ->. split; [auto|]. split; [|intros _ _ K; discriminate].
       intros _ (_ & V & _). rewrite (proj1 (collect_checked_spec aad []) V) in Ea. discriminate. }
  assert (Va : Forall iov_valid aad).
  { destruct (valid_dec aad) as [V|V]; [exact V|]. rewrite (proj2 (collect_checked_spec aad []) V) in Ea. discriminate. }
  apply bind_inv in H as (ok & f & _ & H). cbn zeta in H.
  assert (Q : lenN nonce = 12 /\ Forall iov_valid aad /\ Forall iov_valid ct /\ 16 <= sum_lens ct /\ sum_lens ct <= iov_len out + 16).
  { split; [exact Hl|]. split; [exact Va|]. split; [exact Vp|]. lia. }
  destruct (ok && _)%bool; apply bind_inv in H as (o & f2 & _ & H); apply ret_inv in H as [H _]; injection H as -> -> -> ->;
    (split; [auto|]; split; [discriminate|]; auto).
Qed.

Lemma C87dec : forall P lib k key c nonce aad ct buf fs c' r, prims_ok P -> areach P lib k key c -> sum_lens ct < two64 ->
  astep P c (ADecrypt nonce aad ct (IoBuf buf)) fs = Done (c', r) ->
  (ar_st r = kOk \/ ar_st r = kInvalidArgument \/ ar_st r = kInternal) /\
  (ar_st r = kInvalidArgument -> ~ decrypt_args nonce aad ct (lenN buf)) /\
  (ar_st r = kOk -> decrypt_args nonce aad ct (lenN buf)) /\
  (Forall small_iov aad -> Forall small_iov ct -> ar_st r = kInternal ->
     fs <> [] \/ (decrypt_args nonce aad ct (lenN buf) /\
                  forall m, iov_concat ct <> seal P (kind_alg k key) key nonce (iov_concat aad) m)).
Proof.
  intros P lib k key c nonce aad ct buf fs c' r HP R Hb H. destruct (areach_lens _ _ _ _ _ R) as [L1 L2].
  assert (Q : dec_codes nonce aad ct (lenN buf) fs (ar_st r)).
  { pose proof H as E. unfold astep in E. destruct (aead_decrypt P c nonce aad ct (IoBuf buf) fs) as [[[[c1 [st n]] o] f]|u|] eqn:E2; cbn [obind] in E; try discriminate.
    injection E as <- <-. cbn [ar_st]. unfold aead_decrypt in E2. change (lenN buf) with (iov_len (IoBuf buf)).
    destruct (cr_impl c); [eapply evp_decrypt_codes; eauto|eapply evp_decrypt_codes; eauto|eapply bssl_decrypt_codes; eauto]. }
  destruct Q as (Q1 & Q2 & Q3). split; [exact Q1|]. split; [exact Q2|]. split.
  - intros Ho. destruct (C11_lemma _ _ _ _ _ _ _ _ _ _ _ _ HP R Hb H Ho) as (A & B & C & m & E & _ & Lm & _).
    pose proof (sum_lens_concat ct C) as S. rewrite E, lenN_seal in S by exact HP. unfold decrypt_args. repeat split; auto; lia.
  - intros Sa Sc Ki. destruct (faults_dec fs) as [-> | F]; [|auto]. destruct (Q3 Sa Sc Ki) as [F|A]; [auto|]. right. split; [exact A|].
    intros m E. destruct A as (An & Aa & Ac & A1 & A2). pose proof (sum_lens_concat ct Ac) as S. rewrite E, lenN_seal in S by exact HP.
    destruct (C10_dec_lemma P lib k key c nonce aad ct (iov_concat aad) m buf HP R An) as (c2 & E2).
    + split; [exact Aa|]. split; [exact Sa|reflexivity].
    + split; [exact Ac|]. split; [exact Sc|exact E].
    + lia.
    + lia.
    + rewrite E2 in H. injection H as _ <-. cbn in Ki. discriminate.
Qed.

(* Without library failures the statuses are exact. *)
Lemma C87enc_exact : forall P lib k key c nonce aad pt out c' r, areach P lib k key c -> sum_lens pt + 16 < two64 ->
  Forall small_iov aad -> Forall small_iov pt ->
  astep P c (AEncrypt nonce aad pt out) [] = Done (c', r) ->
  (ar_st r = kOk /\ encrypt_args nonce aad pt (iov_len out)) \/
  (ar_st r = kInvalidArgument /\ ~ encrypt_args nonce aad pt (iov_len out)).
Proof.
  intros P lib k key c nonce aad pt out c' r R Hb Sa Sp H. destruct (C87enc _ _ _ _ _ _ _ _ _ _ _ _ R Hb H) as (Q1 & Q2 & Q3).
  destruct (Q3 Sa Sp) as (Q4 & Q5). destruct Q1 as [E|[E|E]]; [left; auto|right; auto|]. destruct (Q4 E eq_refl).
Qed.

Lemma C87dec_exact : forall P lib k key c nonce aad ct buf c' r, prims_ok P -> areach P lib k key c -> sum_lens ct < two64 ->
  Forall small_iov aad -> Forall small_iov ct ->
  astep P c (ADecrypt nonce aad ct (IoBuf buf)) [] = Done (c', r) ->
  (ar_st r = kOk /\ decrypt_args nonce aad ct (lenN buf) /\
     exists m, iov_concat ct = seal P (kind_alg k key) key nonce (iov_concat aad) m) \/
  (ar_st r = kInvalidArgument /\ ~ decrypt_args nonce aad ct (lenN buf)) \/
  (ar_st r = kInternal /\ decrypt_args nonce aad ct (lenN buf) /\
     forall m, iov_concat ct <> seal P (kind_alg k key) key nonce (iov_concat aad) m).
Proof.
  intros P lib k key c nonce aad ct buf c' r HP R Hb Sa Sc H.
  destruct (C87dec _ _ _ _ _ _ _ _ _ _ _ _ HP R Hb H) as (Q1 & Q2 & Q3 & Q4). destruct Q1 as [E|[E|E]].
  - left. split; [exact E|]. split; [auto|]. destruct (C11_lemma _ _ _ _ _ _ _ _ _ _ _ _ HP R Hb H E) as (_ & _ & _ & m & Em & _). eauto.
  - right. left. auto.
  - right. right. destruct (Q4 Sa Sc E) as [K|K]; [destruct (K eq_refl)|auto].
Qed.

Lemma C87big : forall P lib k key c nonce d buf,
  areach P lib k key c -> ~ (k = KChachaPoly /\ lib = BoringSSL) -> lenN nonce = 12 -> lenN d = 2147483648 -> lenN buf = lenN d + 16 ->
  exists c', astep P c (AEncrypt nonce [] [IoBuf d] (IoBuf buf)) [] =
    Done (c', {| ar_st := kInternal; ar_n := 0; ar_out := IoBuf buf |}).
Proof.
  intros P lib k key c nonce d buf R Nb Hn Hd Hb.
  destruct (areach_config _ _ _ _ _ R) as (Hc & _ & _ & Hi).
  assert (Ei : cr_impl c <> ChachaBoringSSLImpl).
  { intros K. apply Nb, Hi, K. }
  unfold astep, aead_encrypt. assert (En : int_narrow (lenN d) = None) by (rewrite Hd; reflexivity).
  assert (Ee : exists c1, evp_encrypt P c nonce [] [IoBuf d] (IoBuf buf) [] = Done ((c1, (kInternal, 0), IoBuf buf), [])).
  { unfold evp_encrypt, init_context_using_nonce, kAeadNonceSize. rewrite Hn. change (12 =? 12) with true. cbn [negb].
    unfold bind, ssl, ret. cbn [is_ok negb set_aad encrypt_loop iov_len]. unfold bind, ssl, ret.
    rewrite En. replace (lenN d =? 0) with false by (rewrite Hd; reflexivity).
    replace (lenN buf <? lenN d) with false by (rewrite Hb, Hd; reflexivity).
    cbn [is_ok negb]. eexists. reflexivity. }
  destruct Ee as (c1 & Ee). exists c1. destruct (cr_impl c); [rewrite Ee; reflexivity|rewrite Ee; reflexivity|contradiction].
Qed.
