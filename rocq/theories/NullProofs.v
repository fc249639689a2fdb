(* Proofs for C85: an output buffer of length 0 may be a null pointer. *)
From Coq Require Import List NArith ZArith Bool Lia ZifyBool ZifyNat ZifyN.
From Verif Require Import Base BaseProofs Aead SpecAead AeadProofs AeadRun AeadRunProofs AeadAnyProofs AeadTotalProofs Hkdf HalfConn
  SpecTls HkdfProofs HalfProofs Options HsHandler SpecHs HsProofs Crypter SpecRecord CrypterProofs
  SpecRx CrypterRun CrypterRunProofs SpecRxProofs CrypterLemmas CrypterLemmas2
  FrameProt SpecFrame FrameRun FrameProofs FrameRx FrameSim FrameFinal SpecBuf BufProofs SpecNull.
Import ListNotations.
Local Open Scope N_scope.

Definition nulls (o1 o2 : iovec) : Prop := o1 = IoNull 0 /\ o2 = IoBuf [].

Lemma nulls_zero : forall o1 o2, nulls o1 o2 -> alike nulls (lift (zero_out o1)) (lift (zero_out o2)).
Proof. intros o1 o2 (-> & ->). apply alike_lift. split; reflexivity. Qed.

Definition null_dloop (d1 d2 : dloop) : Prop :=
  match d1, d2 with
  | DExit s1 e1 o1, DExit s2 e2 o2 => s1 = s2 /\ e1 = e2 /\ nulls o1 o2
  | DCont e1 o1 t1 r1 c1 l1, DCont e2 o2 t2 r2 c2 l2 =>
    e1 = e2 /\ t1 = t2 /\ r1 = r2 /\ c1 = c2 /\ l1 = l2 /\ nulls o1 o2
  | _, _ => False
  end.

Lemma null_decrypt_loop : forall P a ct e o1 o2 total off cur, nulls o1 o2 ->
  alike null_dloop (decrypt_loop P a e ct o1 total off 0 cur) (decrypt_loop P a e ct o2 total off 0 cur).
Proof.
  intros P a ct. induction ct as [|v rest IH]; intros e o1 o2 total off cur Hn; cbn [decrypt_loop].
  - apply alike_ret. cbn. auto 10.
  - destruct (total <=? kAeadTagSize) eqn:Et; [apply alike_ret; cbn; auto 10|].
    destruct (N.eqb_spec (iov_len v) 0) as [E0|E0]; [apply IH; exact Hn|].
    destruct v as [d|n].
    + cbn [iov_len] in E0. unfold kAeadTagSize in *.
      destruct (N.ltb_spec 0 (N.min (lenN d) (total - 16))); [apply alike_ret; cbn; auto|lia].
    + unfold zero_exit. eapply alike_bind; [apply nulls_zero; exact Hn|]. intros p q Hpq. apply alike_ret. cbn. auto.
Qed.

Definition null_dec {S T} (x y : S * (T * N) * iovec) : Prop :=
  let '(c1, s1, o1) := x in let '(c2, s2, o2) := y in c1 = c2 /\ s1 = s2 /\ nulls o1 o2.

Ltac nret := apply alike_ret; cbn; auto.

Lemma null_evp_decrypt : forall P c nonce aad ct o1 o2, nulls o1 o2 ->
  alike null_dec (evp_decrypt P c nonce aad ct o1) (evp_decrypt P c nonce aad ct o2).
Proof.
  intros P c nonce aad ct o1 o2 Hn. unfold evp_decrypt.
  destruct (total_len ct <? kAeadTagSize); [nret|].
  apply alike_same. intros [st e]. destruct (negb (is_ok st)); [nret|].
  apply alike_same. intros [st2 e2]. destruct (negb (is_ok st2)); [nret|].
  assert (L : iov_len o1 = 0 /\ iov_len o2 = 0) by (destruct Hn as (-> & ->); split; reflexivity). destruct L as [-> ->].
  eapply alike_bind; [apply null_decrypt_loop; exact Hn|].
  intros d1 d2 Hd. destruct d1 as [s1 e1 p1|e1 p1 t1 r1 c1 l1], d2 as [s2' e2' p2|e2' p2 t2 r2 c2 l2]; cbn in Hd; try contradiction.
  - destruct Hd as (<- & <- & Hp). nret.
  - destruct Hd as (<- & <- & <- & <- & <- & Hp).
    destruct (kAeadTagSize <? t1).
    { eapply alike_bind; [apply nulls_zero; exact Hp|]. intros q1 q2 Hq. nret. }
    apply alike_same. intros tag.
    eapply (alike_bind _ _ _ _ (fun x y : code * evp_ctx * iovec => fst x = fst y /\ nulls (snd x) (snd y))).
    + unfold check_tag. apply alike_same. intros ok. destruct (negb ok).
      { eapply alike_bind; [apply nulls_zero; exact Hp|]. intros q1 q2 Hq. nret. }
      apply alike_same. intros ok2. destruct (ok2 && _); [nret|].
      eapply alike_bind; [apply nulls_zero; exact Hp|]. intros q1 q2 Hq. nret.
    + intros [[s3 e3] q1] [[s4 e4] q2] (E & Hq). cbn [fst snd] in E, Hq. injection E as <- <-.
      destruct (negb (is_ok s3)); [nret|]. apply alike_ret. destruct Hq as (-> & ->). cbn. repeat split.
Qed.

Definition null_eloop (x y : code * evp_ctx * iovec * N * N) : Prop :=
  let '(s1, e1, p1, f1, r1) := x in let '(s2, e2, p2, f2, r2) := y in
  s1 = s2 /\ e1 = e2 /\ f1 = f2 /\ r1 = 0 /\ r2 = 0 /\ nulls p1 p2.

Lemma null_encrypt_loop : forall P a pt e o1 o2 off, nulls o1 o2 ->
  alike null_eloop (encrypt_loop P a e pt o1 off 0) (encrypt_loop P a e pt o2 off 0).
Proof.
  intros P a pt e o1 o2 off Hn. revert e off. induction pt as [|v rest IH]; intros e off; cbn [encrypt_loop].
  - apply alike_ret. cbn. auto 10.
  - destruct (N.eqb_spec (iov_len v) 0) as [E0|E0]; [apply IH|]. destruct v as [d|n]; [|apply alike_ret; cbn; auto 10].
    cbn [iov_len] in E0. destruct (N.ltb_spec 0 (lenN d)); [apply alike_ret; cbn; auto 10|lia].
Qed.

Lemma null_evp_encrypt : forall P c nonce aad pt o1 o2, nulls o1 o2 ->
  alike null_dec (evp_encrypt P c nonce aad pt o1) (evp_encrypt P c nonce aad pt o2).
Proof.
  intros P c nonce aad pt o1 o2 Hn. unfold evp_encrypt.
  apply alike_same. intros [st e]. destruct (negb (is_ok st)); [nret|].
  apply alike_same. intros [st2 e2]. destruct (negb (is_ok st2)); [nret|].
  assert (L : iov_len o1 = 0 /\ iov_len o2 = 0) by (destruct Hn as (-> & ->); split; reflexivity). destruct L as [-> ->].
  eapply alike_bind; [apply null_encrypt_loop; exact Hn|].
    intros [[[[s1 e1] p1] f1] r1] [[[[s2 e2'] p2] f2] r2] (<- & <- & <- & -> & -> & Hp).
    destruct (negb (is_ok s1)); [nret|]. apply alike_same. intros ok. destruct (negb ok); [nret|]. cbn. nret.
Qed.

Lemma checked_len_sum : forall vs acc r, checked_len vs acc = Some r -> acc + sum_lens vs < two64 -> r = acc + sum_lens vs /\ Forall iov_valid vs.
Proof.
  induction vs as [|v vs IH]; intros acc r E H; cbn [checked_len sum_lens] in *; [injection E as <-; split; [lia|constructor]|].
  destruct v as [d|n].
  - cbn [iov_len] in H. rewrite wrap64_small in E by lia. destruct (IH _ _ E ltac:(lia)) as (-> & V).
    cbn [iov_len]. split; [lia|]. constructor; [exact I|exact V].
  - destruct (N.eqb_spec n 0) as [->|K]; cbn [negb] in E; [|discriminate]. cbn [iov_len] in *. destruct (IH _ _ E ltac:(lia)) as (-> & V).
    split; [lia|]. constructor; [reflexivity|exact V].
Qed.

Lemma null_bssl_decrypt : forall P c nonce aad ct o1 o2, nulls o1 o2 -> sum_lens ct < two64 ->
  alike null_dec (bssl_decrypt P c nonce aad ct o1) (bssl_decrypt P c nonce aad ct o2).
Proof.
  intros P c nonce aad ct o1 o2 Hn Hs. unfold bssl_decrypt. destruct (negb _); [nret|].
  destruct (checked_len ct 0) as [len|] eqn:El; [|nret]. destruct (checked_len_sum _ _ _ El ltac:(lia)) as (-> & V).
  destruct (_ <? kAeadTagSize) eqn:E16; [nret|].
  assert (L : iov_len o1 = 0 /\ iov_len o2 = 0) by (destruct Hn as (-> & ->); split; reflexivity). destruct L as [-> ->].
  destruct (N.ltb_spec 0 (0 + sum_lens ct - kAeadTagSize)) as [K|K]; [nret|].
  destruct (collect_checked aad []) as [av|]; [|nret]. apply alike_same. intros ok.
  assert (Hl : lenN (iov_concat ct) - kAeadTagSize = 0) by (rewrite <- (sum_lens_concat ct V); lia). rewrite Hl.
  rewrite takeN_0. destruct (ok && _).
  - change (write_at o1 0 (evp_xor P (cr_alg c) (evp_add_aad (evp_init_nonce (cr_ctx c) nonce) av) [])) with (Done o1).
    change (write_at o2 0 (evp_xor P (cr_alg c) (evp_add_aad (evp_init_nonce (cr_ctx c) nonce) av) [])) with (Done o2).
    nret.
  - eapply alike_bind; [apply nulls_zero; exact Hn|]. intros q1 q2 Hq. nret.
Qed.

Lemma null_bssl_encrypt : forall P c nonce aad pt o1 o2, nulls o1 o2 -> sum_lens pt + 16 < two64 -> cr_tag_length c = 16 ->
  alike null_dec (bssl_encrypt P c nonce aad pt o1) (bssl_encrypt P c nonce aad pt o2).
Proof.
  intros P c nonce aad pt o1 o2 Hn Hs Ht. unfold bssl_encrypt. destruct (negb _); [nret|].
  destruct (checked_len pt 0) as [len|] eqn:El; [|nret]. destruct (checked_len_sum _ _ _ El ltac:(lia)) as (-> & V).
  assert (L : iov_len o1 = 0 /\ iov_len o2 = 0) by (destruct Hn as (-> & ->); split; reflexivity). destruct L as [-> ->].
  rewrite Ht, wrap64_small by lia. destruct (N.ltb_spec 0 (16 + (0 + sum_lens pt))) as [K|K]; [nret|lia].
Qed.

Lemma null_half_decrypt : forall P h aad ct o1 o2, nulls o1 o2 -> sum_lens ct < two64 ->
  alike null_dec (half_decrypt P h aad ct o1) (half_decrypt P h aad ct o2).
Proof.
  intros P h aad ct o1 o2 Hn Hs. unfold half_decrypt.
  destruct (hc_aead h) as [c|]; [|nret]. destruct (_ || _); [nret|].
  apply alike_same. intros [nonce h2].
  eapply (alike_bind _ _ _ _ null_dec).
  - unfold aead_decrypt. destruct (cr_impl c);
      first [apply null_bssl_decrypt; assumption | apply null_evp_decrypt; assumption].
  - intros [[c1 s1] p1] [[c2 s2] p2] (<- & <- & Hp). nret.
Qed.

Lemma null_crypt_unprotect : forall P lib x hdr payload o1 o2, nulls o1 o2 -> sum_lens payload < two64 ->
  alike null_dec (crypt_unprotect P lib x hdr payload o1) (crypt_unprotect P lib x hdr payload o2).
Proof.
  intros P lib x hdr payload o1 o2 Hn Hs. unfold crypt_unprotect.
  assert (Hz : forall (x' : crypt) (st : scode) o1 o2, nulls o1 o2 ->
    alike null_dec (p <- lift (zero_out o1) ;; ret (x', (st, 0), p)) (p <- lift (zero_out o2) ;; ret (x', (st, 0), p))).
  { intros x' st p1 p2 Hp. eapply alike_bind; [apply nulls_zero; exact Hp|]. intros q1 q2 Hq. nret. }
  destruct (cx_close x); [nret|]. apply alike_same. intros ov.
  destruct (_ <? ov); [nret|]. destruct (_ <? _); [nret|]. destruct (negb _); [nret|].
  eapply alike_bind; [apply null_half_decrypt; assumption|].
  intros [[h1 [s1 n1]] p1] [[h2 [s2 n2]] p2] (<- & E & Hp). injection E as <- <-.
  destruct (negb (is_ok s1)); [apply Hz; exact Hp|].
  assert (Ht : takeN n1 (iov_data p1) = takeN n1 (iov_data p2)) by (destruct Hp as (-> & ->); reflexivity).
  rewrite Ht. destruct (scan_type (rev (takeN n1 (iov_data p2)))) as [[ty content]|]; [|nret].
  destruct (ty =? kTls13Alert).
  { destruct content as [|a [|d r]]; try (apply Hz; exact Hp). destruct (d =? kTlsAlertCloseNotify); apply Hz; exact Hp. }
  destruct (ty =? kTls13Handshake).
  { apply alike_same. intros [h r]. apply alike_same. intros [x' st]. destruct (negb (is_ok st)); nret. }
  destruct (ty =? kTls13ApplicationData); [|apply Hz; exact Hp].
  destruct (cx_expecting _); [nret|]. apply alike_same. intros x'. nret.
Qed.

(* Protect never fits into an empty buffer. *)
Lemma null_crypt_protect : forall P x t pt o1 o2, nulls o1 o2 ->
  alike (fun a b => null_dec a b /\ snd (fst a) = (S_FAILED_PRECONDITION, 0)) (crypt_protect P x t pt o1) (crypt_protect P x t pt o2).
Proof.
  intros P x t pt o1 o2 Hn. unfold crypt_protect. destruct (_ <? total_len pt); [nret|].
  unfold record_overhead. intros fs. unfold bind, lift. destruct (half_tag_length (cx_in x)) as [tg|u|]; cbn [obind]; [|reflexivity|exact I].
  assert (L : iov_len o1 = 0 /\ iov_len o2 = 0) by (destruct Hn as (-> & ->); split; reflexivity). destruct L as [-> ->].
  unfold kTlsRecordHeaderSize. destruct (N.ltb_spec 0 (total_len pt + (5 + 1 + tg))); [|lia]. cbn. auto.
Qed.

(* ---- the AEAD crypters use no fuel ---- *)
Definition ends {A} (m : M A) : Prop := forall fs, m fs <> NoFuel.
Lemma ends_ret : forall A (a : A), ends (ret a). Proof. intros A a fs K. cbn in K. discriminate K. Qed.
Lemma ends_ssl : ends ssl. Proof. intros fs. unfold ssl. destruct fs as [|b fs]; intros K; discriminate K. Qed.
Lemma ends_lift : forall A (o : outcome A), o <> NoFuel -> ends (lift o).
Proof. intros A o H fs K. unfold lift in K. destruct o; [discriminate K|discriminate K|exact (H eq_refl)]. Qed.
Lemma ends_bind : forall A B (m : M A) (k : A -> M B), ends m -> (forall a, ends (k a)) -> ends (bind m k).
Proof. intros A B m k H K fs. unfold bind. specialize (H fs). destruct (m fs) as [[a fs']|u|]; [apply K|discriminate|contradiction]. Qed.
Lemma ends_zero : forall o, ends (lift (zero_out o)).
Proof. intros [d|n]; apply ends_lift; cbn; [intros K; discriminate K|destruct (n =? 0); intros K; discriminate K]. Qed.
Lemma ends_write : forall o off d, ends (lift (write_at o off d)).
Proof. intros o off d. apply ends_lift. unfold write_at. destruct o; repeat (destruct (_ <=? _) || destruct (_ =? _)); try discriminate; destruct d; discriminate. Qed.
Ltac nofuel := repeat first
  [ apply ends_ret | apply ends_ssl | apply ends_zero | apply ends_write
  | apply ends_bind; [|intros]
  | match goal with
    | |- ends (if ?b then _ else _) => destruct b
    | |- ends (match ?x with _ => _ end) => destruct x
    | |- ends (let '(_, _) := ?x in _) => destruct x
    end ].
Lemma ends_aad : forall aad e, ends (set_aad e aad).
Proof. induction aad as [|v aad IH]; intros e; cbn [set_aad]; nofuel; apply IH. Qed.
Lemma ends_encrypt_loop : forall P a pt e o off r, ends (encrypt_loop P a e pt o off r).
Proof. intros P a. induction pt as [|v pt IH]; intros e o off r; cbn [encrypt_loop]; nofuel; apply IH. Qed.
Lemma ends_decrypt_loop : forall P a ct e o total off r cur, ends (decrypt_loop P a e ct o total off r cur).
Proof. intros P a. induction ct as [|v ct IH]; intros e o total off r cur; cbn [decrypt_loop]; unfold zero_exit; nofuel; apply IH. Qed.
Lemma ends_tag : forall rest cur, collect_tag cur rest <> NoFuel.
Proof. induction rest as [|v rest IH]; intros cur; cbn [collect_tag]; [discriminate|]. destruct (iov_len v =? 0); [apply IH|]. destruct v; [destruct (_ <=? _); [apply IH|discriminate]|discriminate]. Qed.
Lemma ends_evp_encrypt : forall P c nonce aad pt o, ends (evp_encrypt P c nonce aad pt o).
Proof. intros. unfold evp_encrypt, init_context_using_nonce. nofuel; try apply ends_aad; try apply ends_encrypt_loop. Qed.
Lemma ends_evp_decrypt : forall P c nonce aad pt o, ends (evp_decrypt P c nonce aad pt o).
Proof.
  intros. unfold evp_decrypt, init_context_using_nonce, check_tag. nofuel; try apply ends_aad; try apply ends_decrypt_loop.
  apply ends_lift. destruct (_ <=? _); [apply ends_tag|discriminate].
Qed.
Lemma ends_bssl_encrypt : forall P c nonce aad pt o, ends (bssl_encrypt P c nonce aad pt o).
Proof. intros. unfold bssl_encrypt. nofuel. Qed.
Lemma ends_bssl_decrypt : forall P c nonce aad pt o, ends (bssl_decrypt P c nonce aad pt o).
Proof. intros. unfold bssl_decrypt. nofuel. Qed.

Lemma alike_ends : forall S T (m1 m2 : M (S * (T * N) * iovec)) fs, alike null_dec m1 m2 -> m2 fs <> NoFuel -> ends_same (m1 fs) (m2 fs).
Proof.
  intros S T m1 m2 fs H Nf. specialize (H fs). destruct (m1 fs) as [[[[a s] o] f]|u|], (m2 fs) as [[[[a' s'] o'] f']|u'|]; try contradiction; auto; try congruence.
  destruct H as ((<- & <- & Hn) & <-). destruct Hn as (-> & ->). cbn. auto.
Qed.

Lemma no_nulls : nulls (IoNull 0) (IoBuf []). Proof. split; reflexivity. Qed.

Lemma N85enc : forall P lib k key c, areach P lib k key c ->
  forall nonce aad pt fs, sum_lens pt + 16 < two64 ->
  ends_same (aead_encrypt P c nonce aad pt (IoNull 0) fs) (aead_encrypt P c nonce aad pt (IoBuf []) fs).
Proof.
  intros P lib k key c R nonce aad pt fs Hs. destruct (C57_getters_lemma _ _ _ _ _ R) as (_ & L). unfold lengths in L. injection L as _ _ L.
  unfold aead_encrypt. destruct (cr_impl c); apply alike_ends;
    first [apply null_bssl_encrypt; auto using no_nulls | apply null_evp_encrypt; apply no_nulls | apply ends_evp_encrypt | apply ends_bssl_encrypt].
Qed.

Lemma N85dec : forall P c nonce aad ct fs, sum_lens ct < two64 ->
  ends_same (aead_decrypt P c nonce aad ct (IoNull 0) fs) (aead_decrypt P c nonce aad ct (IoBuf []) fs).
Proof.
  intros P c nonce aad ct fs Hs.
  unfold aead_decrypt. destruct (cr_impl c); apply alike_ends;
    first [apply null_bssl_decrypt; auto using no_nulls | apply null_evp_decrypt; apply no_nulls | apply ends_evp_decrypt | apply ends_bssl_decrypt].
Qed.

Lemma N85unp : forall P lib a ops rs x, connection P lib a ops rs x ->
  forall hdr payload fs, cop_ok (CUnprotect hdr payload []) ->
  ends_same (crypt_unprotect P lib x (IoBuf hdr) payload (IoNull 0) fs) (crypt_unprotect P lib x (IoBuf hdr) payload (IoBuf []) fs).
Proof.
  intros P lib a ops rs x (HP & Hi & Ho & Hok & HR) hdr payload fs Hop.
  destruct (creach_winv P lib a ops rs x HP Hi Ho Hok HR) as [W _].
  pose proof (cstep_weak P lib a x _ (CUnprotect hdr payload []) fs HP W Hop) as K.
  destruct Hop as (_ & _ & _ & Hs).
  apply alike_ends; [apply null_crypt_unprotect; [apply no_nulls|lia]|].
  cbn [cstep] in K. intros E. rewrite E in K. exact K.
Qed.

Lemma N85pro : forall P lib a ops rs x, connection P lib a ops rs x ->
  forall t pt fs, crypt_protect P x t pt (IoNull 0) fs = Done (x, (S_FAILED_PRECONDITION, 0), IoNull 0, fs) /\
    crypt_protect P x t pt (IoBuf []) fs = Done (x, (S_FAILED_PRECONDITION, 0), IoBuf [], fs).
Proof.
  intros P lib a ops rs x (HP & Hi & Ho & Hok & HR) t pt fs.
  destruct (creach_winv P lib a ops rs x HP Hi Ho Hok HR) as [W _]. destruct (cw_in _ _ _ _ W) as (din & Ri & _).
  unfold crypt_protect. destruct (_ <? total_len pt); [split; reflexivity|].
  unfold bind, lift. rewrite (record_overhead_spec _ _ _ Ri). cbn [iov_len lenN length N.of_nat].
  destruct (N.ltb_spec 0 (total_len pt + 22)); [split; reflexivity|lia].
Qed.

Lemma N85fpro : forall P lib al a ops rs f, protector P lib al a ops rs f ->
  forall input id fs, sum_lens input < two64 ->
  fp_protect_into P f input id (IoNull 0) fs = Done (fp_destroy f id, kFailedPrecondition, IoNull 0, fs) /\
  fp_protect_into P f input id (IoBuf []) fs = Done (fp_destroy f id, kFailedPrecondition, IoBuf [], fs).
Proof.
  intros P lib al a ops rs f Hp input id fs Hs.
  destruct (protector_connection _ _ _ _ _ _ _ Hp) as (_ & _ & _ & _ & cops & crs & HC).
  unfold fp_protect_into. rewrite total_len_sum by exact Hs. unfold kTlsMaxPlaintextSize.
  set (n := if sum_lens input <? 16384 then sum_lens input else 16384).
  assert (Hn : n <= sum_lens input) by (unfold n; destruct (N.ltb_spec (sum_lens input) 16384); lia).
  destruct (cur_start input) as (C1 & C2 & _).
  destruct (collect_chunk_spec input 0 n (lens_ok_sum _ Hs) C1 ltac:(rewrite C2; exact Hn)) as (ps & vs' & on' & Ec & _).
  destruct (N85pro _ _ _ _ _ _ HC APPLICATION_DATA ps fs) as [E1 E2].
  assert (Ef : fp_destroy (with_crypt f (fp_crypt f)) id = fp_destroy f id) by (destruct f; reflexivity).
  split.
  - unfold bind at 1, lift at 1. rewrite Ec. unfold bind. rewrite E1. rewrite Ef. reflexivity.
  - cbn [protect_loop fst snd]. replace ((sum_lens input =? 0) || (0 <? sum_lens input)) with true by lia. cbn [negb].
    unfold kTlsMaxPlaintextSize. fold n. unfold bind at 1 2, lift at 1. rewrite Ec. rewrite dropN_nil. unfold bind. rewrite E2.
    rewrite Ef. reflexivity.
Qed.

Lemma N85funp : forall P lib al a ops rs f, protector P lib al a ops rs f ->
  forall input fs, fop_ok (FUnprotectInto input []) ->
  ends_same (buffer_last (fp_unprotect_into P lib f input (IoNull 0) fs)) (buffer_last (fp_unprotect_into P lib f input (IoBuf []) fs)).
Proof.
  intros P lib al a ops rs f Hp input fs Hop.
  assert (Nf : fp_unprotect_into P lib f input (IoBuf []) fs <> NoFuel).
  { destruct (protector_winv _ _ _ _ _ _ _ Hp) as (d & din & W & _).
    pose proof (unprotect_into_spec P lib _ f input [] d fs (proj1 Hp) W Hop) as K. intros E. rewrite E in K. exact K. }
  assert (HC := protector_connection _ _ _ _ _ _ _ Hp). destruct HC as (_ & _ & _ & _ & cops & crs & HC).
  destruct Hop as (Hv & Hb & Hs). revert Nf.
  unfold fp_unprotect_into. rewrite total_len_sum by lia.
  unfold bind, lift. destruct (number_bytes_to_unprotect f (sum_lens input)) as [n|u|]; [|reflexivity|contradiction].
  destruct (N.eqb_spec n 0) as [E0|E0]; [intros _; cbn; auto|].
  destruct (cur_start input) as (C1 & C2 & C3).
  destruct (rec_spec (input, 0) (start_valid _ Hv ltac:(lia)) ltac:(rewrite C3; exact Hb))
    as [u E Hn|Hn E|hdr vs on Hn E E2|hdr vs on ps c' E E2 Hsz Hr Hvp Hcb Hc' Hne];
    rewrite E; [reflexivity|intros _; cbn; auto|rewrite E2; intros _; cbn; auto|rewrite E2].
  rewrite C3 in Hcb.
  assert (Hl : lenN hdr + sum_lens ps <= sum_lens input).
  { rewrite (sum_lens_concat input Hv), Hcb, !lenN_app, (sum_lens_concat ps Hvp). lia. }
  pose proof (null_crypt_unprotect P lib (fp_crypt f) (IoBuf hdr) ps _ _ no_nulls ltac:(lia) fs) as Q.
  destruct (crypt_unprotect P lib (fp_crypt f) (IoBuf hdr) ps (IoNull 0) fs) as [[[[x1 [s1 n1]] p1] fs1]|u|];
  destruct (crypt_unprotect P lib (fp_crypt f) (IoBuf hdr) ps (IoBuf []) fs) as [[[[x2 [s2 n2]] p2] fs2]|u'|]; try contradiction; intros Nf.
  - destruct Q as ((<- & E1 & Hn) & <-). injection E1 as <- <-. destruct Hn as (-> & ->). destruct s1; cbn; auto.
  - exact Q.
Qed.

Lemma N85empty : forall P lib k key c nonce aad ct a, prims_ok P -> areach P lib k key c -> lenN nonce = 12 ->
  carries aad a -> carries ct (seal P (kind_alg k key) key nonce a []) ->
  exists c', astep P c (ADecrypt nonce aad ct (IoNull 0)) [] = Done (c', {| ar_st := kOk; ar_n := 0; ar_out := IoNull 0 |}).
Proof.
  intros P lib k key c nonce aad ct a HP R Hn Ha Hc.
  destruct (C10_dec_lemma P lib k key c nonce aad ct a [] [] HP R Hn Ha Hc ltac:(reflexivity) ltac:(reflexivity)) as (c' & E).
  assert (Hs : sum_lens ct < two64).
  { destruct Hc as (V & _ & Hc). rewrite (sum_lens_concat ct V), Hc. rewrite lenN_seal by exact HP. reflexivity. }
  pose proof (N85dec P c nonce aad ct [] Hs) as Q. unfold astep in *.
  destruct (aead_decrypt P c nonce aad ct (IoBuf []) []) as [[[[c2 [s2 n2]] o2] fs2]|u|]; cbn in E; try discriminate E.
  assert (E2 : s2 = kOk /\ n2 = 0) by (split; congruence). destruct E2 as [-> ->].
  destruct (aead_decrypt P c nonce aad ct (IoNull 0) []) as [[[[c1 [s1 n1]] o1] fs1]|u|]; try contradiction.
  destruct Q as (E1 & -> & _). assert (E2 : s1 = kOk /\ n1 = 0) by (split; congruence). destruct E2 as [-> ->]. exists c1. reflexivity.
Qed.
