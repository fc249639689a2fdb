(* Proofs for C83: decrypting into two buffers that are both large enough. *)
From Coq Require Import List NArith ZArith Bool Lia ZifyBool ZifyNat ZifyN.
From Verif Require Import Base BaseProofs Aead SpecAead AeadProofs AeadRunProofs Hkdf HalfConn
  SpecTls HkdfProofs HalfProofs Options HsHandler SpecHs HsProofs Crypter SpecRecord CrypterProofs
  SpecRx CrypterRun CrypterRunProofs SpecRxProofs CrypterLemmas CrypterLemmas2
  FrameProt SpecFrame FrameRun FrameProofs FrameRx FrameSim FrameFinal SpecBuf.
Import ListNotations.
Local Open Scope N_scope.

(* ---- computations that do the same, up to a relation on their results ---- *)
Definition alike {A B} (R : A -> B -> Prop) (m1 : M A) (m2 : M B) : Prop :=
  forall fs, match m1 fs, m2 fs with
             | Done (a, fs1), Done (b, fs2) => R a b /\ fs1 = fs2
             | Undef u1, Undef u2 => u1 = u2
             | NoFuel, NoFuel => True
             | _, _ => False
             end.

Lemma alike_ret : forall A B (R : A -> B -> Prop) a b, R a b -> alike R (ret a) (ret b).
Proof. intros A B R a b H fs. cbn. auto. Qed.
Lemma alike_bind : forall A B C D (R : A -> B -> Prop) (S : C -> D -> Prop) m1 m2 k1 k2,
  alike R m1 m2 -> (forall a b, R a b -> alike S (k1 a) (k2 b)) -> alike S (bind m1 k1) (bind m2 k2).
Proof.
  intros A B C D R S m1 m2 k1 k2 H K fs. unfold bind. specialize (H fs).
  destruct (m1 fs) as [[a fs1]|u|], (m2 fs) as [[b fs2]|u'|]; try contradiction; auto.
  destruct H as [H ->]. exact (K a b H fs2).
Qed.
Lemma alike_refl : forall A (m : M A), alike eq m m.
Proof. intros A m fs. destruct (m fs) as [[a fs1]|u|]; auto. Qed.
Lemma alike_lift : forall A B (R : A -> B -> Prop) a b, R a b -> alike R (lift (Done a)) (lift (Done b)).
Proof. intros A B R a b H fs. cbn. auto. Qed.
Lemma alike_same : forall A C D (S : C -> D -> Prop) (m : M A) k1 k2,
  (forall a, alike S (k1 a) (k2 a)) -> alike S (bind m k1) (bind m k2).
Proof. intros. eapply alike_bind; [apply alike_refl|]. intros a b ->. auto. Qed.

(* Two buffers with the same first [n] bytes. *)
Definition agree (n : N) (o1 o2 : iovec) : Prop :=
  exists b1 b2, o1 = IoBuf b1 /\ o2 = IoBuf b2 /\ n <= lenN b1 /\ n <= lenN b2 /\ takeN n b1 = takeN n b2.
Definition bufs (o1 o2 : iovec) : Prop := agree 0 o1 o2.

Lemma agree_le : forall n m o1 o2, m <= n -> agree n o1 o2 -> agree m o1 o2.
Proof.
  intros n m o1 o2 Hm (b1 & b2 & -> & -> & L1 & L2 & E). exists b1, b2. repeat split; try lia.
  assert (Q : forall b : bytes, takeN m b = takeN m (takeN n b)) by (intros b; rewrite takeN_takeN; f_equal; lia).
  rewrite (Q b1), (Q b2), E. reflexivity.
Qed.
Lemma agree_bufs : forall n o1 o2, agree n o1 o2 -> bufs o1 o2.
Proof. intros n o1 o2 H. apply (agree_le n); [lia|exact H]. Qed.

Lemma alike_zero : forall o1 o2, bufs o1 o2 -> alike bufs (lift (zero_out o1)) (lift (zero_out o2)).
Proof.
  intros o1 o2 (b1 & b2 & -> & -> & _). apply alike_lift. exists (zeros (lenN b1)), (zeros (lenN b2)).
  rewrite !takeN_0. repeat split; lia.
Qed.

Lemma alike_write : forall o1 o2 off data, agree off o1 o2 -> off + lenN data <= iov_len o1 -> off + lenN data <= iov_len o2 ->
  alike (fun o1' o2' => agree (off + lenN data) o1' o2' /\ iov_len o1' = iov_len o1 /\ iov_len o2' = iov_len o2)
    (lift (write_at o1 off data)) (lift (write_at o2 off data)).
Proof.
  intros o1 o2 off data (b1 & b2 & -> & -> & L1 & L2 & E) H1 H2. cbn [iov_len] in *.
  destruct data as [|x data].
  - cbn [write_at]. apply alike_lift. rewrite lenN_nil, N.add_0_r. split; [|auto]. exists b1, b2. auto.
  - set (w := x :: data) in *. cbn [write_at]. change (match w with [] => ?a | _ :: _ => ?b end) with b.
    unfold write_at. subst w. cbn [write_at].
    destruct (N.leb_spec (off + lenN (x :: data)) (lenN b1)); [|lia].
    destruct (N.leb_spec (off + lenN (x :: data)) (lenN b2)); [|lia].
    apply alike_lift. cbn [iov_len]. rewrite !lenN_write by lia. split; [|auto].
    exists (takeN off b1 ++ (x :: data) ++ dropN (off + lenN (x :: data)) b1),
           (takeN off b2 ++ (x :: data) ++ dropN (off + lenN (x :: data)) b2).
    rewrite !lenN_write by lia. repeat split; try lia.
    rewrite E. rewrite !app_assoc.
    assert (Q : off + lenN (x :: data) = lenN (takeN off b2 ++ x :: data)) by (rewrite lenN_app, lenN_takeN; lia).
    rewrite Q at 1 3. rewrite !takeN_app_exact. reflexivity.
Qed.

(* ---- the streaming crypters ---- *)
Definition same_dloop (d1 d2 : dloop) : Prop :=
  match d1, d2 with
  | DExit s1 e1 o1, DExit s2 e2 o2 => s1 = s2 /\ s1 <> kOk /\ e1 = e2 /\ bufs o1 o2
  | DCont e1 o1 t1 r1 c1 l1, DCont e2 o2 t2 r2 c2 l2 =>
    e1 = e2 /\ t1 = t2 /\ c1 = c2 /\ l1 = l2 /\
    exists k, k + r1 = iov_len o1 /\ k + r2 = iov_len o2 /\ agree k o1 o2
  | _, _ => False
  end.

Lemma zero_exit_same : forall st e o1 o2, st <> kOk -> bufs o1 o2 -> alike same_dloop (zero_exit st e o1) (zero_exit st e o2).
Proof.
  intros st e o1 o2 Hs H. unfold zero_exit. eapply alike_bind; [apply alike_zero; exact H|].
  intros a b Hab. apply alike_ret. cbn. auto.
Qed.

Lemma decrypt_loop_same : forall P a ct e o1 o2 total off r1 r2 cur,
  agree off o1 o2 -> off + r1 = iov_len o1 -> off + r2 = iov_len o2 -> total - 16 <= r1 -> total - 16 <= r2 ->
  alike same_dloop (decrypt_loop P a e ct o1 total off r1 cur) (decrypt_loop P a e ct o2 total off r2 cur).
Proof.
  intros P a ct. induction ct as [|v rest IH]; intros e o1 o2 total off r1 r2 cur Ha H1 H2 T1 T2; cbn [decrypt_loop].
  - apply alike_ret. cbn. repeat split; auto. exists off. auto.
  - unfold kAeadTagSize. destruct (total <=? 16) eqn:Et; [apply alike_ret; cbn; repeat split; auto; exists off; auto|].
    destruct (iov_len v =? 0); [apply IH; auto|].
    destruct v as [d|n]; [|apply zero_exit_same; [discriminate|apply (agree_bufs off); exact Ha]].
    destruct (N.ltb_spec r1 (N.min (lenN d) (total - 16))); [lia|].
    destruct (N.ltb_spec r2 (N.min (lenN d) (total - 16))); [lia|].
    apply alike_same. intros ok.
    destruct (int_narrow (N.min (lenN d) (total - 16))) as [m|] eqn:Em; [|apply zero_exit_same; [discriminate|apply (agree_bufs off); exact Ha]].
    destruct ok; [|apply zero_exit_same; [discriminate|apply (agree_bufs off); exact Ha]].
    apply int_narrow_le in Em.
    assert (Lx : lenN (evp_xor P a e (takeN m d)) = m) by (rewrite evp_xor_lenN, lenN_takeN; lia).
    eapply alike_bind; [apply alike_write; [exact Ha|rewrite Lx; lia|rewrite Lx; lia]|].
    cbv beta. rewrite Lx. intros o1' o2' (Ha' & L1 & L2). apply IH; auto; lia.
Qed.

Definition same_dec {S} (x y : S * cstatus * iovec) : Prop :=
  let '(c1, (s1, n1), o1) := x in let '(c2, (s2, n2), o2) := y in
  c1 = c2 /\ s1 = s2 /\ n1 = n2 /\ bufs o1 o2 /\ (s1 = kOk -> agree n1 o1 o2).

Definition same_check (o1 o2 : iovec) (x y : code * evp_ctx * iovec) : Prop :=
  let '(s1, e1, o1') := x in let '(s2, e2, o2') := y in
  s1 = s2 /\ e1 = e2 /\ bufs o1' o2' /\ (s1 = kOk -> o1' = o1 /\ o2' = o2).
Lemma check_tag_same : forall P a e tag o1 o2 k, agree k o1 o2 ->
  alike (same_check o1 o2) (check_tag P a e tag o1) (check_tag P a e tag o2).
Proof.
  intros P a e tag o1 o2 k H. unfold check_tag. apply alike_same. intros ok.
  assert (Hz : forall e', alike (same_check o1 o2)
    (out' <- lift (zero_out o1) ;; ret (kInternal, e', out')) (out' <- lift (zero_out o2) ;; ret (kInternal, e', out'))).
  { intros e'. eapply alike_bind; [apply alike_zero; apply (agree_bufs k); exact H|].
    intros a1 a2 Ha. apply alike_ret. repeat split; auto; discriminate. }
  destruct (negb ok); [apply Hz|]. apply alike_same. intros ok2.
  destruct (ok2 && _); [|apply Hz]. apply alike_ret. repeat split; auto. apply (agree_bufs k). exact H.
Qed.

Lemma evp_decrypt_same : forall P c nonce aad ct o1 o2, bufs o1 o2 ->
  total_len ct - 16 <= iov_len o1 -> total_len ct - 16 <= iov_len o2 ->
  alike same_dec (evp_decrypt P c nonce aad ct o1) (evp_decrypt P c nonce aad ct o2).
Proof.
  intros P c nonce aad ct o1 o2 Hb L1 L2. unfold evp_decrypt.
  assert (Hx : forall c' st, st <> kOk -> forall o1 o2, bufs o1 o2 ->
    alike same_dec (ret (c', (st, 0), o1) : M (crypter * cstatus * iovec)) (ret (c', (st, 0), o2))).
  { intros c' st Hs p1 p2 Hp. apply alike_ret. cbn. repeat split; auto; intros; congruence. }
  destruct (total_len ct <? kAeadTagSize); [apply Hx; [discriminate|exact Hb]|].
  apply alike_same. intros [st e].
  destruct (is_ok st) eqn:Es; cbn [negb]; [|apply Hx; [intros ->; discriminate|exact Hb]].
  apply alike_same. intros [st2 e2].
  destruct (is_ok st2) eqn:Es2; cbn [negb]; [|apply Hx; [intros ->; discriminate|exact Hb]].
  eapply alike_bind; [apply (decrypt_loop_same P (cr_alg c) ct e2 o1 o2 (total_len ct) 0); [exact Hb|lia|lia|exact L1|exact L2]|].
  intros d1 d2 Hd. destruct d1 as [s1 e1 p1|e1 p1 t1 r1 c1 l1], d2 as [s2' e2' p2|e2' p2 t2 r2 c2 l2]; cbn in Hd; try contradiction.
  - destruct Hd as (<- & Hs & <- & Hp). apply Hx; auto.
  - destruct Hd as (<- & <- & <- & <- & k & K1 & K2 & Ka).
    destruct (kAeadTagSize <? t1).
    { eapply alike_bind; [apply alike_zero; apply (agree_bufs k); exact Ka|]. intros q1 q2 Hq. apply Hx; [discriminate|exact Hq]. }
    apply alike_same. intros tag. eapply alike_bind; [apply (check_tag_same P (cr_alg c) e1 tag p1 p2 k Ka)|].
    intros [[s3 e3] q1] [[s4 e4] q2] (<- & <- & Hq & Hk).
    destruct (is_ok s3) eqn:Es3; cbn [negb]; [|apply Hx; [intros ->; discriminate|exact Hq]].
    assert (s3 = kOk) by (destruct s3; try discriminate; reflexivity). subst s3. destruct (Hk eq_refl) as [-> ->].
    apply alike_ret. cbn. replace (iov_len p1 - r1) with k by lia. replace (iov_len p2 - r2) with k by lia. repeat split; auto.
Qed.

(* ---- the BoringSSL crypter ---- *)
Lemma bssl_decrypt_same : forall P c nonce aad ct o1 o2, bufs o1 o2 -> Forall iov_valid ct -> sum_lens ct < two64 ->
  sum_lens ct - 16 <= iov_len o1 -> sum_lens ct - 16 <= iov_len o2 ->
  alike same_dec (bssl_decrypt P c nonce aad ct o1) (bssl_decrypt P c nonce aad ct o2).
Proof.
  intros P c nonce aad ct o1 o2 Hb Hv Hs L1 L2. unfold bssl_decrypt.
  assert (Hx : forall c' st, st <> kOk -> forall o1 o2, bufs o1 o2 ->
    alike same_dec (ret (c', (st, 0), o1) : M (crypter * cstatus * iovec)) (ret (c', (st, 0), o2))).
  { intros c' st Hst p1 p2 Hp. apply alike_ret. cbn. repeat split; auto; intros; congruence. }
  destruct (negb _); [apply Hx; [discriminate|exact Hb]|].
  rewrite (proj1 (checked_len_spec ct 0) Hv) by lia. rewrite N.add_0_l.
  set (n := sum_lens ct) in *. assert (Hl : lenN (iov_concat ct) = n) by (unfold n; symmetry; apply sum_lens_concat; exact Hv). rewrite Hl.
  destruct (n <? kAeadTagSize); [apply Hx; [discriminate|exact Hb]|]. unfold kAeadTagSize.
  destruct (N.ltb_spec (iov_len o1) (n - 16)); [lia|]. destruct (N.ltb_spec (iov_len o2) (n - 16)); [lia|].
  destruct (collect_checked aad []) as [av|]; [|apply Hx; [discriminate|exact Hb]].
  apply alike_same. intros ok. destruct (ok && _).
  - assert (Lx : forall e, lenN (evp_xor P (cr_alg c) e (takeN (n - 16) (iov_concat ct))) = n - 16)
      by (intros e; rewrite evp_xor_lenN, lenN_takeN; lia).
    eapply alike_bind; [apply alike_write; [exact Hb|rewrite Lx; lia|rewrite Lx; lia]|].
    cbv beta. rewrite Lx. intros p1 p2 (Ha & _). apply alike_ret. cbn. rewrite N.add_0_l in Ha. repeat split; auto.
    apply (agree_bufs _ _ _ Ha).
  - eapply alike_bind; [apply alike_zero; exact Hb|]. intros q1 q2 Hq. apply Hx; [discriminate|exact Hq].
Qed.

Lemma half_decrypt_same : forall P h aad ct o1 o2, bufs o1 o2 -> Forall iov_valid ct -> sum_lens ct < two64 ->
  sum_lens ct - 16 <= iov_len o1 -> sum_lens ct - 16 <= iov_len o2 ->
  alike same_dec (half_decrypt P h aad ct o1) (half_decrypt P h aad ct o2).
Proof.
  intros P h aad ct o1 o2 Hb Hv Hs L1 L2. unfold half_decrypt.
  assert (Hx : alike same_dec (ret (h, (kInternal, 0), o1)) (ret (h, (kInternal, 0), o2)))
    by (apply alike_ret; cbn; repeat split; auto; discriminate).
  destruct (hc_aead h) as [c|]; [|exact Hx]. destruct (_ || _); [exact Hx|].
  apply alike_same. intros [nonce h2].
  eapply (alike_bind _ _ _ _ same_dec).
  - unfold aead_decrypt. destruct (cr_impl c);
      first [apply bssl_decrypt_same; assumption | apply evp_decrypt_same; [exact Hb|rewrite total_len_sum by lia; assumption..]].
  - intros [[c1 [s1 n1]] p1] [[c2 [s2 n2]] p2] (<- & <- & <- & Hp & Ha). apply alike_ret. cbn. auto.
Qed.

(* ---- the record protocol ---- *)
Definition same_unp (x y : crypt * sstatus * iovec) : Prop :=
  let '(x1, (s1, n1), o1) := x in let '(x2, (s2, n2), o2) := y in
  x1 = x2 /\ s1 = s2 /\ n1 = n2 /\ bufs o1 o2 /\ (s1 = S_OK -> agree n1 o1 o2).

Lemma crypt_unprotect_same : forall P lib x hdr payload o1 o2, bufs o1 o2 -> Forall iov_valid payload -> sum_lens payload < two64 ->
  sum_lens payload - 16 <= iov_len o1 -> sum_lens payload - 16 <= iov_len o2 ->
  alike same_unp (crypt_unprotect P lib x hdr payload o1) (crypt_unprotect P lib x hdr payload o2).
Proof.
  intros P lib x hdr payload o1 o2 Hb Hv Hs L1 L2. unfold crypt_unprotect.
  assert (Hx : forall x' st, st <> S_OK -> forall o1 o2, bufs o1 o2 ->
    alike same_unp (ret (x', (st, 0), o1)) (ret (x', (st, 0), o2))).
  { intros x' st Hst p1 p2 Hp. apply alike_ret. cbn. repeat split; auto; intros; congruence. }
  assert (Hz : forall x' st, st <> S_OK -> forall o1 o2, bufs o1 o2 ->
    alike same_unp (p <- lift (zero_out o1) ;; ret (x', (st, 0), p)) (p <- lift (zero_out o2) ;; ret (x', (st, 0), p))).
  { intros x' st Hst p1 p2 Hp. eapply alike_bind; [apply alike_zero; exact Hp|]. intros q1 q2 Hq. apply Hx; auto. }
  destruct (cx_close x); [apply Hx; [discriminate|exact Hb]|]. apply alike_same. intros ov.
  destruct (_ <? ov); [apply Hx; [discriminate|exact Hb]|].
  destruct (_ <? _); [apply Hx; [discriminate|exact Hb]|].
  destruct (negb _); [apply Hx; [discriminate|exact Hb]|].
  eapply alike_bind; [apply half_decrypt_same; assumption|].
  intros [[h1 [s1 n1]] p1] [[h2 [s2 n2]] p2] (<- & <- & <- & Hp & Ha).
  destruct (is_ok s1) eqn:Es; cbn [negb]; [|apply Hz; [discriminate|exact Hp]].
  assert (s1 = kOk) by (destruct s1; try discriminate; reflexivity). subst s1. specialize (Ha eq_refl).
  assert (Ht : takeN n1 (iov_data p1) = takeN n1 (iov_data p2)) by (destruct Ha as (b1 & b2 & -> & -> & _ & _ & E); exact E).
  rewrite Ht. destruct (scan_type (rev (takeN n1 (iov_data p2)))) as [[ty content]|] eqn:Ety; [|apply Hx; [discriminate|exact Hp]].
  destruct (ty =? kTls13Alert).
  { destruct content as [|a [|d r]]; try (apply Hz; [discriminate|exact Hp]).
    destruct (d =? kTlsAlertCloseNotify); apply Hz; try discriminate; exact Hp. }
  destruct (ty =? kTls13Handshake).
  { apply alike_same. intros [h r]. apply alike_same. intros [x' st].
    destruct (negb (is_ok st)); [apply Hx; [discriminate|exact Hp]|]. apply alike_ret. cbn. auto. }
  destruct (ty =? kTls13ApplicationData); [|apply Hz; [discriminate|exact Hp]].
  destruct (cx_expecting _); [apply Hx; [discriminate|exact Hp]|].
  apply alike_same. intros x'. apply alike_ret. cbn. repeat split; auto. intros _.
  apply (agree_le n1); [|exact Ha]. apply scan_type_some in Ety. destruct Ety as (_ & pad & E).
  assert (Q : lenN (takeN n1 (iov_data p2)) = lenN (inner ty content pad)) by (rewrite <- E; reflexivity).
  rewrite lenN_takeN, lenN_inner in Q. lia.
Qed.

(* ---- the frame protector ---- *)
Ltac bad_same := cbn; split; [reflexivity|]; split; [reflexivity|]; let K := fresh in intros K; discriminate K.
Lemma B83 : forall P lib al a ops rs f, protector P lib al a ops rs f ->
  forall input fs n buf1 buf2, fop_ok (FUnprotectInto input buf1) ->
  number_bytes_to_unprotect f (sum_lens input) = Done n -> n <= lenN buf1 -> n <= lenN buf2 ->
  same_reading (fstep P lib al f (FUnprotectInto input buf1) fs) (fstep P lib al f (FUnprotectInto input buf2) fs).
Proof.
  intros P lib al a ops rs f Hp input fs n buf1 buf2 Hop En L1 L2.
  assert (Nf : fp_unprotect_into P lib f input (IoBuf buf1) fs <> NoFuel).
  { destruct (protector_winv _ _ _ _ _ _ _ Hp) as (d & din & W & _).
    pose proof (unprotect_into_spec P lib _ f input buf1 d fs (proj1 Hp) W Hop) as K. intros E. rewrite E in K. exact K. }
  destruct Hop as (Hv & Hb & Hs). revert Nf.
  cbn [fstep]. unfold fp_unprotect_into. rewrite total_len_sum by lia.
  unfold bind, lift. rewrite En.
  destruct (N.eqb_spec n 0) as [E0|E0]; [intros _; bad_same|].
  destruct (protector_winv _ _ _ _ _ _ _ Hp) as (d & din & W & _ & Ri).
  unfold number_bytes_to_unprotect in En. rewrite (record_overhead_spec _ _ _ Ri) in En. cbn [obind] in En.
  destruct (N.ltb_spec (sum_lens input) 22) as [K|K]; [injection En as <-; lia|]. injection En as <-.
  unfold kTlsRecordHeaderSize in *. destruct (cur_start input) as (C1 & C2 & C3).
  destruct (rec_spec (input, 0) (start_valid _ Hv ltac:(lia)) ltac:(rewrite C3; exact Hb))
    as [u E Hn|Hn E|hdr vs on Hn E E2|hdr vs on ps c' E E2 Hsz Hr Hvp Hcb Hc' Hne];
    rewrite E; [reflexivity|intros _; bad_same|rewrite E2; intros _; bad_same|rewrite E2].
  rewrite C3 in Hcb.
  assert (Hl : sum_lens ps + 5 <= sum_lens input).
  { rewrite (sum_lens_concat input Hv), Hcb, !lenN_app, (sum_lens_concat ps Hvp). destruct Hr as [-> _]. rewrite lenN_tls_header. lia. }
  pose proof (crypt_unprotect_same P lib (fp_crypt f) (IoBuf hdr) ps (IoBuf buf1) (IoBuf buf2)
    ltac:(exists buf1, buf2; rewrite !takeN_0; repeat split; lia) Hvp ltac:(lia) ltac:(cbn [iov_len]; lia) ltac:(cbn [iov_len]; lia) fs) as Q.
  unfold bind.
  destruct (crypt_unprotect P lib (fp_crypt f) (IoBuf hdr) ps (IoBuf buf1) fs) as [[[[x1 [s1 n1]] p1] fs1]|u|];
  destruct (crypt_unprotect P lib (fp_crypt f) (IoBuf hdr) ps (IoBuf buf2) fs) as [[[[x2 [s2 n2]] p2] fs2]|u'|]; try contradiction; intros Nf.
  - destruct Q as ((<- & <- & <- & Hp1 & Ha) & <-). destruct s1; try bad_same.
    cbn. split; [reflexivity|]. split; [reflexivity|]. intros _. destruct (Ha eq_refl) as (b1 & b2 & -> & -> & A1 & A2 & A3). auto.
  - exact Q.
Qed.
