(* The frame protector refines the reference of FrameRef.v. *)
From Coq Require Import List NArith ZArith Wf_nat Bool Lia ZifyBool ZifyNat ZifyN.
From Verif Require Import Base BaseProofs Aead SpecAead AeadProofs Hkdf HalfConn
  SpecTls HkdfProofs HalfProofs Options HsHandler SpecHs HsProofs Crypter SpecRecord CrypterProofs
  SpecRx CrypterRun CrypterRunProofs SpecRxProofs CrypterLemmas CrypterLemmas2
  FrameProt SpecFrame FrameRun FrameProofs Calm FrameRx FrameSim FrameLink FrameTrip FrameFinal FrameRef FrameNull.
Import ListNotations.
Local Open Scope N_scope.
Ltac Zify.zify_post_hook ::= Z.div_mod_to_equations.

(* ---- sending ---- *)
Lemma blocks_exist : forall data, exists bs, blocks_of data bs.
Proof.
  intros data. remember (length data) as k eqn:Ek. revert data Ek.
  induction k as [k IH] using lt_wf_ind. intros data ->.
  destruct (N.leb_spec (lenN data) 16384) as [H|H]; [exists [data]; apply blocks_one; exact H|].
  assert (Ld : lenN (dropN 16384 data) = lenN data - 16384) by (rewrite lenN_dropN; reflexivity).
  destruct (IH (length (dropN 16384 data)) ltac:(unfold lenN in *; lia) _ eq_refl) as (bs & Hbs).
  exists (takeN 16384 data :: bs). rewrite <- (takeN_dropN _ 16384 data) at 1.
  apply blocks_cons; [rewrite lenN_takeN; lia|]. right. split; [|exact Hbs]. right.
  intros K. rewrite K in Ld. cbn in Ld. lia.
Qed.

Lemma blocks_unique : forall bs bs' data, blocks_of data bs -> blocks_of data bs' -> bs = bs'.
Proof.
  assert (Hsplit : forall b bs data, blocks_of data (b :: bs) ->
    b = takeN 16384 data /\ (bs = [] -> lenN data <= 16384) /\ (bs <> [] -> 16384 < lenN data /\ blocks_of (dropN 16384 data) bs)).
  { intros b bs data (E & init & last & Eb & Hi & Hl & He). destruct init as [|i0 init].
    - inversion Eb; subst. cbn [concat]. rewrite app_nil_r, takeN_all by exact Hl. split; [reflexivity|].
      split; [auto|contradiction].
    - inversion Eb; subst. inversion Hi as [|? ? Hi1 Hi2]; subst. cbn [concat]. rewrite <- Hi1 at 1. rewrite takeN_app_exact.
      split; [reflexivity|]. split; [intros K; destruct init; discriminate|]. intros _.
      assert (Hne : last <> []) by (intros K; specialize (He K); discriminate).
      split; [|rewrite <- Hi1, dropN_app_exact; split; [reflexivity|exists init, last; split; [reflexivity|split; [exact Hi2|split; [exact Hl|contradiction]]]]].
      rewrite lenN_app, Hi1, concat_app, lenN_app. cbn [concat]. rewrite app_nil_r.
      destruct last; [contradiction|]. rewrite lenN_cons. lia. }
  induction bs as [|b bs IH]; intros bs' data H H'.
  - destruct H as (_ & init & last & K & _). destruct init; discriminate.
  - destruct bs' as [|b' bs']; [destruct H' as (_ & init & last & K & _); destruct init; discriminate|].
    apply Hsplit in H. apply Hsplit in H'. destruct H as (-> & A & B), H' as (-> & A' & B'). f_equal.
    destruct bs as [|c bs], bs' as [|c' bs']; [reflexivity| | |].
    + specialize (A eq_refl). destruct (B' ltac:(discriminate)). lia.
    + specialize (A' eq_refl). destruct (B ltac:(discriminate)). lia.
    + destruct (B ltac:(discriminate)) as [_ C], (B' ltac:(discriminate)) as [_ C']. eapply IH; eauto.
Qed.

Lemma protect_loop_send : forall fuel P f c rem first out index id fs din d,
  prims_ok P -> half_rel P (cx_in (fp_crypt f)) din -> half_rel P (cx_out (fp_crypt f)) d ->
  lens_ok (fst c) -> cur_ok c -> cur_len c = rem -> (first = true -> rem = 0 /\ (1 <= fuel)%nat) ->
  rem <= 16384 * N.of_nat fuel -> index <= lenN out -> Forall iov_valid (fst c) ->
  exists h' st buf' fs' bs d',
    protect_loop fuel P f c rem first out index id fs =
      Done ((if is_ok st then with_crypt f (set_out (fp_crypt f) h')
             else fp_destroy (with_crypt f (set_out (fp_crypt f) h')) id), st, takeN index out ++ buf', fs') /\
    rest_blocks (cur_bytes c) first bs /\ send_all P (fs <> []) d (dropN index out) bs st buf' d' /\
    half_rel P h' d'.
Proof.
  induction fuel as [|fuel IH]; intros P f c rem first out index id fs din d HP Ri Ro Hl Hc Hrem Hfirst Hfuel Hix HV.
  all: cbn [protect_loop]; destruct (negb (first || (0 <? rem))) eqn:Hstop.
  1,3: assert (first = false /\ rem = 0) as (-> & Hr0) by (destruct first; cbn in Hstop; [discriminate|lia]);
    rewrite Hr0 in *; exists (cx_out (fp_crypt f)), kOk, (dropN index out), fs, [], d; cbn [ret is_ok code_eqb];
    rewrite set_out_same, takeN_dropN;
    (split; [destruct f; reflexivity|]); rewrite (cur_len_0 c Hc Hrem);
    (split; [left; auto|]); (split; [apply SaDone|exact Ro]).
  { exfalso. destruct first; [destruct (Hfirst eq_refl); lia|]. cbn in Hstop. lia. }
  assert (Hgo : first = true /\ rem = 0 \/ first = false /\ 0 < rem).
  { destruct first; [left; split; [reflexivity|apply Hfirst; reflexivity]|right; split; [reflexivity|]]. cbn in Hstop. lia. }
  unfold kTlsMaxPlaintextSize. set (n := if rem <? 16384 then rem else 16384).
  assert (Hn : n = N.min rem 16384) by (unfold n; destruct (N.ltb_spec rem 16384); lia).
  destruct c as [vs on]. cbn [fst snd] in *.
  destruct (collect_chunk_spec vs on n Hl Hc ltac:(lia)) as (ps & vs1 & on1 & E1 & S1 & S2 & S3 & S4 & S5).
  destruct (S4 HV) as [Vps HV1]. destruct (S5 Vps) as (C1 & C2 & C3).
  unfold bind at 1, lift at 1. rewrite E1.
  destruct (crypt_protect_spec P (fp_crypt f) din d APPLICATION_DATA ps (dropN index out) fs HP Ri Ro
    ltac:(unfold two64; lia)) as (h1 & st1 & w & tail & fs1 & E2 & L1 & _ & Hnf & Hf).
  rewrite (bind_done _ _ _ _ _ _ _ E2). cbn [iov_data].
  set (x1 := set_out (fp_crypt f) h1) in *.
  assert (Lt : lenN tail = lenN out - index) by (rewrite L1, lenN_dropN; reflexivity).
  assert (Hfit : fits ps (dropN index out) <-> n + 22 <= lenN out - index).
  { unfold fits. rewrite lenN_dropN. lia. }
  assert (Hrel : record_overhead x1 = Done 22) by (apply (record_overhead_spec P x1 din); exact Ri).
  assert (Lch : lenN (iov_concat ps) = n) by (rewrite <- S1; symmetry; apply sum_lens_concat; exact Vps).
  assert (Eb : cur_bytes (vs, on) = iov_concat ps ++ cur_bytes (vs1, on1)).
  { rewrite C2, C3. symmetry. apply takeN_dropN. }
  assert (Hbl : forall bs, rest_blocks (cur_bytes (vs1, on1)) false bs ->
    rest_blocks (cur_bytes (vs, on)) first (iov_concat ps :: bs)).
  { intros bs Q3. right. split.
    { destruct Hgo as [[-> _]|[-> Hp]]; [left; reflexivity|right].
      intros K2. rewrite Eb in K2. apply app_eq_nil in K2. destruct K2 as [K2 _]. rewrite K2 in Lch. cbn in Lch. lia. }
    rewrite Eb. assert (Dec : n = 16384 \/ rem - n = 0) by lia. destruct Dec as [D|D].
    - apply blocks_cons; [lia|exact Q3].
    - rewrite (cur_len_0 (vs1, on1) C1) in Q3 |- * by lia. rewrite app_nil_r.
      destruct Q3 as [(_ & _ & ->)|([K2|K2] & _)]; [|discriminate|congruence]. apply blocks_one. lia. }
  assert (Hsome : exists bs, rest_blocks (cur_bytes (vs1, on1)) false bs).
  { destruct (cur_bytes (vs1, on1)) as [|b0 data0] eqn:Ed; [exists []; left; auto|].
    destruct (blocks_exist (b0 :: data0)) as (bs & Hbs). exists bs. right. split; [right; discriminate|exact Hbs]. }
  assert (Dec : st1 = S_OK \/ st1 <> S_OK) by (destruct st1; (left; reflexivity) || (right; discriminate)).
  destruct Dec as [Hst|Hst].
  2: { assert (Hdest : match st1 with
         | S_OK => (o <- lift (record_overhead x1) ;;
             if negb (w =? n + o) then ret (fp_destroy (with_crypt f x1) id, kInternal, takeN index out ++ tail)
             else protect_loop fuel P (with_crypt f x1) (vs1, on1) (rem - n) false (takeN index out ++ tail) (index + w) id)
         | _ => ret (fp_destroy (with_crypt f x1) id, fp_code st1, takeN index out ++ tail)
         end fs1 = Done (fp_destroy (with_crypt f x1) id, fp_code st1, takeN index out ++ tail, fs1))
         by (destruct st1; try reflexivity; contradiction).
       rewrite Hdest. destruct Hsome as (bs & Hbs).
       exists h1, (fp_code st1), tail, fs1, (iov_concat ps :: bs).
       assert (Hno : is_ok (fp_code st1) = false) by (destruct st1; try reflexivity; contradiction).
       rewrite Hno. fold x1.
       destruct (N.leb_spec (n + 22) (lenN out - index)) as [D|D].
       - apply Hfit in D. destruct (Hf D) as [Hun Hus]. apply Hfit in D. destruct (dir_usable_dec d) as [U|U].
         + destruct (Hus U) as (R1 & _ & _ & Hb & Hg). destruct (Hb Hst) as (_ & -> & Hc2). exists (dir_next d).
           split; [reflexivity|]. split; [apply Hbl; exact Hbs|]. split; [|exact R1].
           apply SaFault; [rewrite Lch, lenN_dropN; exact D|exact U| |destruct Hc2 as [-> | ->]; auto].
           intros K. destruct (Hg Vps K) as [K2 _]. contradiction.
         + destruct (Hun U) as (-> & -> & _ & ->). exists d.
           split; [reflexivity|]. split; [apply Hbl; exact Hbs|]. split; [|exact Ro].
           apply SaUnusable; [rewrite Lch, lenN_dropN; exact D|exact U].
       - destruct Hnf as (-> & -> & _ & -> & _); [rewrite Hfit; lia|]. exists d.
         split; [reflexivity|]. split; [apply Hbl; exact Hbs|]. split; [|exact Ro].
         apply SaSmall. rewrite Lch, lenN_dropN. lia. }
  assert (Fit : fits ps (dropN index out)).
  { apply Hfit. destruct (N.leb_spec (n + 22) (lenN out - index)); [assumption|].
    destruct Hnf as (_ & K & _); [rewrite Hfit; lia|congruence]. }
  destruct (Hf Fit) as [Hun Hus]. apply Hfit in Fit.
  destruct (dir_usable_dec d) as [U|U]; [|destruct (Hun U) as (_ & K & _); congruence].
  destruct (Hus U) as (R1 & _ & Hok & _ & Hgood). rewrite Hst in *.
  destruct (Hok eq_refl) as (_ & Hw & Ht). clear Hok Hus Hun Hf Hnf.
  unfold bind at 1, lift at 1. rewrite Hrel. rewrite Hw, S1, N.eqb_refl. cbn [negb].
  change (convert_record_type APPLICATION_DATA) with ty_application_data in Ht.
  set (out1 := takeN index out ++ tail).
  assert (Lo : lenN out1 = lenN out) by (unfold out1; rewrite lenN_app, lenN_takeN; lia).
  assert (Lrec : lenN (tls_record P d ty_application_data (iov_concat ps) 0) = n + 22)
    by (rewrite lenN_tls_record by exact HP; lia).
  destruct (IH P (with_crypt f x1) (vs1, on1) (rem - n) false out1 (index + (n + 22)) id fs1 din (dir_next d) HP Ri R1 S3 C1
    ltac:(lia) ltac:(discriminate) ltac:(lia) ltac:(lia) HV1) as (h' & st & buf' & fs' & bs & d' & A & B1 & B2 & B3).
  exists h', st, (tls_record P d ty_application_data (iov_concat ps) 0 ++ buf'), fs', (iov_concat ps :: bs), d'.
  assert (Eo : takeN (index + (n + 22)) out1 = takeN index out ++ tls_record P d ty_application_data (iov_concat ps) 0).
  { unfold out1. rewrite takeN_app_ge by (rewrite lenN_takeN; lia). f_equal. rewrite lenN_takeN.
    replace (index + (n + 22) - N.min index (lenN out)) with (n + 22) by lia.
    rewrite Ht, <- Lrec. apply takeN_app_exact. }
  assert (Ed : dropN (index + (n + 22)) out1 = dropN (n + 22) (dropN index out)).
  { unfold out1. rewrite dropN_app_ge by (rewrite lenN_takeN; lia). rewrite lenN_takeN, Ht.
    rewrite dropN_app_ge by lia. rewrite dropN_dropN, dropN_dropN, dropN_dropN, Hw, S1, Lrec. f_equal. lia. }
  rewrite Eo, <- app_assoc in A. change (set_out (fp_crypt (with_crypt f x1)) h') with (set_out (fp_crypt f) h') in A.
  rewrite with_crypt_same in A.
  split; [exact A|]. split; [apply Hbl; exact B1|]. split; [|exact B3].
  apply SaNext; [rewrite Lch, lenN_dropN; exact Fit|exact U|]. rewrite Lch, <- Ed.
  eapply send_mono; [|exact B2]. intros K1 K2. apply K1. apply Hgood; assumption.
Qed.

Lemma protect_into_send : forall P f input id buf fs din d,
  prims_ok P -> half_rel P (cx_in (fp_crypt f)) din -> half_rel P (cx_out (fp_crypt f)) d ->
  sum_lens input < two64 -> Forall iov_valid input ->
  exists h' st buf' fs' bs d',
    fp_protect_into P f input id (IoBuf buf) fs =
      Done ((if is_ok st then with_crypt f (set_out (fp_crypt f) h')
             else fp_destroy (with_crypt f (set_out (fp_crypt f) h')) id), st, IoBuf buf', fs') /\
    blocks_of (iov_concat input) bs /\ send_all P (fs <> []) d buf bs st buf' d' /\ half_rel P h' d'.
Proof.
  intros P f input id buf fs din d HP Ri Ro Hl HV. unfold fp_protect_into. rewrite total_len_sum by exact Hl.
  destruct (cur_start input) as (C1 & C2 & C3). unfold kTlsMaxPlaintextSize.
  destruct (protect_loop_send (S (N.to_nat (sum_lens input / 16384))) P f (input, 0) (sum_lens input)
    (sum_lens input =? 0) buf 0 id fs din d HP Ri Ro (lens_ok_sum _ Hl) C1 C2 ltac:(lia) ltac:(lia) ltac:(lia) HV)
    as (h' & st & buf' & fs' & bs & d' & A & B1 & B2 & B3).
  rewrite C3 in B1. rewrite dropN_0 in B2. cbn [takeN] in A.
  exists h', st, buf', fs', bs, d'. rewrite (bind_done _ _ _ _ _ _ _ A). split; [reflexivity|].
  split; [apply rest_blocks_all; rewrite <- (sum_lens_concat input HV); exact B1|]. auto.
Qed.

(* ---- receiving ---- *)
Lemma accept_mono : forall P (F G : Prop) r msg out st n out' r', (F -> G) ->
  accept P F r msg out st n out' r' -> accept P G r msg out st n out' r'.
Proof.
  intros P F G r msg out st n out' r' HI H. inversion H; subst; try (econstructor; eauto; fail).
  eapply AcEmptyBody; eauto. tauto.
Qed.

Lemma recv_mono : forall P (F G : Prop) r hdr pl out st n out' r', (F -> G) ->
  recv P F r hdr pl out st n out' r' -> recv P G r hdr pl out st n out' r'.
Proof.
  intros P F G r hdr pl out st n out' r' HI H. inversion H; subst; try (econstructor; eauto; fail).
  - apply RvReject; auto. tauto.
  - eapply RvRecord; eauto. eapply accept_mono; eauto.
Qed.

Lemma recv_ok_size : forall P F r hdr pl out n out' r', recv P F r hdr pl out S_OK n out' r' ->
  lenN hdr + lenN pl >= 22.
Proof.
  intros P F r hdr pl out n out' r' H.
  assert (K : well_formed hdr (lenN pl)).
  { inversion H; subst; auto.
    match goal with Q : (if ?b then _ else _) = S_OK |- _ => destruct b; discriminate end. }
  destruct K as [-> K]. rewrite lenN_tls_header. lia.
Qed.

Definition end_code (e : ending) : code :=
  match e with EndAll _ => kOk | EndNoRecord _ => kFailedPrecondition | EndFailed s => public_code s | EndUndef _ => kOk end.

Lemma public_fp_code : forall s, public_code s = fp_code s.
Proof. destruct s; reflexivity. Qed.

Lemma rec_run_recv : forall P lib al x id data ops rs opened e x', rec_run P lib al x id data ops rs opened e x' ->
  forall (F : Prop) r dout, prims_ok P -> alloc_ok al -> rx_rel P x dout r -> cops_ok ops ->
  Forall (fun p => snd p <> [] -> F) ops ->
  match e with
  | EndUndef _ => fatal_data P F r data
  | _ => exists r', recv_all P F r data (end_code e) (match end_code e with kOk => map fb_bytes opened | _ => [] end) r' /\
      (r_bad r' = false -> rx_rel P x' dout r')
  end.
Proof.
  intros P lib al x id data ops rs opened e x' H.
  assert (Hstep : forall (F : Prop) x dout r hdr ps buf fs, prims_ok P -> rx_rel P x dout r -> cop_ok (CUnprotect hdr ps buf) ->
    (fs <> [] -> F) ->
    match cstep P lib x (CUnprotect hdr ps buf) fs with
    | Done (x', CUnprotected st n out) => exists r', recv P F r hdr (iov_concat ps) buf st n (iov_data out) r' /\
        (r_bad r' = false -> rx_rel P x' dout r')
    | Done _ => False
    | Undef u => u = UbNegativeShift /\ r_closed r = false /\ exists c pad,
      iov_concat ps = dir_seal P (r_dir r) hdr (inner ty_handshake c pad) /\ fatal (r_part r ++ c)
    | NoFuel => False
    end).
  { intros F x0 dout r hdr ps buf fs HP Hr (H1 & H2 & H3 & H4) HF. cbn [cstep].
    pose proof (recv_ok P lib x0 dout r hdr ps buf fs HP Hr H1 H2 H3 H4) as K.
    destruct (crypt_unprotect P lib x0 (IoBuf hdr) ps (IoBuf buf) fs) as [[[[x1 [s n]] out] fs1]|u|]; cbn [obind]; auto.
    destruct K as (r' & K1 & K2 & _). exists r'. split; [eapply recv_mono; eauto|]. intros K. apply K2. exact K. }
  induction H; intros F r dout HP HA Hr Hok HF; cbn [end_code].
  - exists r. split; [apply RaEnd; assumption|auto].
  - exists r. split; [apply RaNone; assumption|auto].
  - inversion Hok as [|? ? Hop _]; subst. inversion HF as [|? ? Hf1 _]; subst. cbn [fst snd] in *.
    specialize (Hstep F x dout r hdr ps buf fs HP Hr Hop Hf1). rewrite H1 in Hstep. destruct Hstep as (r' & K1 & K2).
    destruct (HA id (lenN (iov_concat ps))) as (buf0 & E0 & L0). rewrite H0 in E0. injection E0 as ->.
    exists r'. split; [|exact K2]. rewrite app_assoc, (proj1 (is_record_framed _ _ H)).
    rewrite app_assoc, (proj1 (is_record_framed _ _ H)) in H3.
    destruct H as [-> Hlt].
    replace (match public_code st with kOk => map fb_bytes [] | _ => [] end) with (@nil bytes) by (destruct (public_code st); reflexivity).
    eapply RaFail; eauto.
  - inversion Hok as [|? ? Hop _]; subst. inversion HF as [|? ? Hf1 _]; subst. cbn [fst snd] in *.
    specialize (Hstep F x dout r hdr ps buf fs HP Hr Hop Hf1). rewrite H1 in Hstep. destruct Hstep as (-> & Hcl & c & pad & K1 & K2).
    rewrite app_assoc, (proj1 (is_record_framed _ _ H)). destruct H as [-> Hlt].
    eapply FdHere; eauto.
  - inversion Hok as [|? ? Hop Hops]; subst. inversion HF as [|? ? Hf1 HFs]; subst. cbn [fst snd] in *.
    pose proof (Hstep F x dout r hdr ps buf fs HP Hr Hop Hf1) as K. rewrite H1 in K. destruct K as (r1 & K1 & K2).
    destruct (HA id (lenN (iov_concat ps))) as (buf0 & E0 & L0). rewrite H0 in E0. injection E0 as ->.
    pose proof (recv_ok_size _ _ _ _ _ _ _ _ _ K1) as Hsz.
    rewrite app_assoc, (proj1 (is_record_framed _ _ H)).
    assert (Hsz2 : 22 <= lenN (framed (iov_concat ps) ++ data)).
    { rewrite <- (proj1 (is_record_framed _ _ H)), !lenN_app. lia. }
    destruct H as [-> Hlt]. destruct (r_bad r1) eqn:Hb.
    + destruct e; try (eapply FdLater; eauto; fail).
      all: exists r1; split; [eapply RaBad; eauto|congruence].
    + specialize (K2 eq_refl). specialize (IHrec_run F r1 dout HP HA K2 Hops HFs).
      destruct e as [rest|rest|s|u]; cbn [end_code] in *.
      * destruct IHrec_run as (r' & Q1 & Q2). exists r'. split; [|exact Q2]. cbn [map]. rewrite fb_bytes_eq. cbn [fb_len fb_mem].
        exact (RaNext P F r (iov_concat ps) data buf0 n (iov_data out) r1 kOk _ r' Hlt Hsz2 L0 K1 Hb Q1).
      * destruct IHrec_run as (r' & Q1 & Q2). exists r'. split; [|exact Q2].
        exact (RaNext P F r (iov_concat ps) data buf0 n (iov_data out) r1 kFailedPrecondition _ r' Hlt Hsz2 L0 K1 Hb Q1).
      * destruct IHrec_run as (r' & Q1 & Q2). exists r'. split; [|exact Q2].
        assert (Hs : public_code s <> kOk).
        { destruct (rec_run_shape _ _ _ _ _ _ _ _ _ _ _ H2) as (_ & _ & _ & _ & _ & _ & _ & _ & _ & _ & _ & _ & Z).
          specialize (Z s eq_refl). destruct s; discriminate || contradiction. }
        pose proof (RaNext P F r (iov_concat ps) data buf0 n (iov_data out) r1 (public_code s) _ r' Hlt Hsz2 L0 K1 Hb Q1) as Z.
        destruct (public_code s); try contradiction; exact Z.
      * eapply FdLater; eauto.
Qed.

(* ---- one operation ---- *)
Lemma valid_lens : forall vs, lenN (iov_concat vs) = sum_lens vs -> Forall iov_valid vs.
Proof.
  assert (L : forall vs, lenN (iov_concat vs) <= sum_lens vs).
  { induction vs as [|v vs IH]; [reflexivity|]. rewrite iov_concat_cons, lenN_app. cbn [sum_lens].
    destruct v as [d|n]; cbn [iov_data iov_len]; [|rewrite lenN_nil]; lia. }
  induction vs as [|v vs IH]; intros H; [constructor|].
  rewrite iov_concat_cons, lenN_app in H. cbn [sum_lens] in H. pose proof (L vs).
  destruct v as [d|n]; cbn [iov_data iov_len] in H; [|rewrite lenN_nil in H]; (constructor; [|apply IH; lia]).
  - exact I.
  - cbn [iov_valid]. lia.
Qed.

Lemma fstep_ref : forall P lib al a f s op fs dout,
  prims_ok P -> alloc_ok al -> cx_winv P a (fp_crypt f) dout -> rx_rel P (fp_crypt f) (f_tx s) (f_rx s) -> fop_ok op ->
  match fstep P lib al f op fs with
  | Done (f', r) => exists s', ref_step P (fs <> []) s op (answer_of r) s' /\
      (r_bad (f_rx s') = false -> rx_rel P (fp_crypt f') (f_tx s') (f_rx s'))
  | Undef _ => ref_undef P (fs <> []) s op
  | NoFuel => False
  end.
Proof.
  intros P lib al a f s op fs dout HP HA W Hr Hop. destruct s as [dtx r]. cbn [f_tx f_rx] in *.
  pose proof Hr as (Hbad & [Ri Ro _ _ _ _ _] & _).
  assert (Dv : forall input, Forall iov_valid input \/ ~ Forall iov_valid input).
  { induction input as [|v input [IH|IH]]; [left; constructor| |right; intros K; inversion K; contradiction].
    destruct v as [b|n]; [left; constructor; [exact I|exact IH]|].
    destruct (N.eq_dec n 0) as [->|Hn]; [left; constructor; [reflexivity|exact IH]|].
    right. intros K. inversion K; contradiction. }
  destruct op as [input|input id buf|input|input buf]; cbn [fstep].
  - cbn [fop_ok] in Hop. destruct (Dv input) as [V|V].
    + assert (Hl : sum_lens input < two64) by (unfold protected_size in Hop; lia).
      unfold fp_protect. unfold bind at 1, lift at 1. rewrite total_len_sum by exact Hl.
      rewrite (number_bytes_spec P f (r_dir r)) by assumption.
      unfold fp_alloc. destruct (HA (fp_next f) (protected_size (sum_lens input))) as (buf & Eb & Lb). rewrite Eb.
      match goal with |- context [fp_protect_into P ?f0] => set (f1 := f0) end.
      destruct (protect_into_send P f1 input (fp_next f) buf fs (r_dir r) dtx HP Ri Ro Hl V)
        as (h' & st & buf' & fs' & bs & d' & A & B1 & B2 & B3).
      rewrite (bind_done _ _ _ _ _ _ _ A). change (fp_crypt f1) with (fp_crypt f).
      assert (Dec : st = kOk \/ st <> kOk) by (destruct st; (left; reflexivity) || (right; discriminate)).
      assert (Hr' : rx_rel P (set_out (fp_crypt f) h') d' r) by (apply (rx_rel_out _ _ _ dtx); assumption).
      rewrite (sum_lens_concat input V) in Lb.
      destruct Dec as [->|Hn].
      * cbn [is_ok code_eqb negb ret obind answer_of map]. exists {| f_tx := d'; f_rx := r |}. split; [|intros _; exact Hr'].
        rewrite fb_bytes_eq. cbn [fb_len fb_mem iov_len iov_data]. rewrite takeN_all by lia.
        exact (RsProtect P _ {| f_tx := dtx; f_rx := r |} input bs buf kOk buf' d' V B1 Lb B2).
      * replace (is_ok st) with false by (destruct st; try reflexivity; contradiction).
        cbn [negb ret obind answer_of map]. exists {| f_tx := d'; f_rx := r |}. split; [|intros _; exact Hr'].
        pose proof (RsProtect P _ {| f_tx := dtx; f_rx := r |} input bs buf st buf' d' V B1 Lb B2) as Z.
        destruct st; try contradiction; exact Z.
    + assert (Hl : sum_lens input < two64) by (unfold protected_size in Hop; lia).
      unfold fp_protect. unfold bind at 1, lift at 1. rewrite total_len_sum by exact Hl.
      rewrite (number_bytes_spec P f (r_dir r)) by assumption.
      unfold fp_alloc. destruct (HA (fp_next f) (protected_size (sum_lens input))) as (buf & Eb & Lb). rewrite Eb.
      match goal with |- context [fp_protect_into P ?f0] => set (f1 := f0) end.
      destruct (protect_into_null P f1 input (fp_next f) buf fs (r_dir r) dtx HP Ri Ro Hl V)
        as (h' & st & buf' & fs' & bs & m & d' & A & Hn & B1 & B2 & B3).
      rewrite (bind_done _ _ _ _ _ _ _ A). change (fp_crypt f1) with (fp_crypt f).
      assert (Hr' : rx_rel P (set_out (fp_crypt f) h') d' r) by (apply (rx_rel_out _ _ _ dtx); assumption).
      replace (is_ok st) with false by (destruct st; try reflexivity; contradiction).
      cbn [negb ret obind answer_of map]. exists {| f_tx := d'; f_rx := r |}. split; [|intros _; exact Hr'].
      exact (RsProtectNull P _ {| f_tx := dtx; f_rx := r |} input bs m buf st buf' d' B1 Lb B2).
  - cbn [fop_ok] in Hop. assert (Hl : sum_lens input < two64) by (unfold protected_size in Hop; lia).
    destruct (Dv input) as [V|V].
    + destruct (protect_into_send P f input id buf fs (r_dir r) dtx HP Ri Ro Hl V)
        as (h' & st & buf' & fs' & bs & d' & A & B1 & B2 & B3).
      rewrite A. cbn [obind answer_of iov_data]. exists {| f_tx := d'; f_rx := r |}.
      split; [|intros _; replace (fp_crypt (if is_ok st then _ else _)) with (set_out (fp_crypt f) h') by (destruct (is_ok st); reflexivity);
               apply (rx_rel_out _ _ _ dtx); assumption].
      exact (RsProtectInto P _ {| f_tx := dtx; f_rx := r |} input bs id buf st buf' d' V B1 B2).
    + destruct (protect_into_null P f input id buf fs (r_dir r) dtx HP Ri Ro Hl V)
        as (h' & st & buf' & fs' & bs & m & d' & A & Hn & B1 & B2 & B3).
      rewrite A. cbn [obind answer_of iov_data]. exists {| f_tx := d'; f_rx := r |}.
      split; [|intros _; apply (rx_rel_out _ _ _ dtx); assumption].
      exact (RsProtectIntoNull P _ {| f_tx := dtx; f_rx := r |} input bs m id buf st buf' d' B1 B2).
  - pose proof (unprotect_spec P lib al a f input dout fs HP HA W Hop) as K. destruct Hop as (V & _ & _).
    assert (Hfs : forall ops, (fs = [] -> no_faults ops) -> Forall (fun p : cop * faults => snd p <> [] -> fs <> []) ops).
    { intros ops Hq. destruct fs as [|b fs0]; [|apply Forall_forall; discriminate].
      apply Forall_forall. intros q Hin Hne _. apply Hne. specialize (Hq eq_refl). unfold no_faults in Hq.
      rewrite Forall_forall in Hq. apply Hq. exact Hin. }
    rewrite (sum_lens_concat input V) in K.
    destruct (fp_unprotect P lib al f input fs) as [[[[f1 st] bufs] fs']|u|]; cbn [obind answer_of].
    + destruct K as [(K1 & -> & -> & -> & _)|(Hsz & ops & crs & opened & e & R & Hcok & Hq & L)].
      * exists {| f_tx := dtx; f_rx := r |}. split; [apply RsShort; exact K1|auto].
      * assert (HF := Hfs ops (fun Hz => proj1 (Hq Hz))).
        pose proof (rec_run_recv _ _ _ _ _ _ _ _ _ _ _ R (fs <> []) r dtx HP HA Hr Hcok HF) as Q.
        destruct L as (_ & _ & L).
        assert (Q' : exists r', recv_all P (fs <> []) r (iov_concat input) st (map fb_bytes bufs) r' /\ (r_bad r' = false -> rx_rel P (fp_crypt f1) dtx r')).
        { destruct e as [rest|rest|s0|u]; [| | |contradiction].
          - destruct L as (-> & -> & _). exact Q.
          - destruct L as (-> & -> & _). exact Q.
          - destruct L as (-> & -> & _). rewrite <- public_fp_code. cbn [end_code] in Q.
            destruct (rec_run_shape _ _ _ _ _ _ _ _ _ _ _ R) as (_ & _ & _ & _ & _ & _ & _ & _ & _ & _ & _ & _ & Z).
            specialize (Z s0 eq_refl). cbn [map]. destruct s0; try contradiction; exact Q. }
        destruct Q' as (r' & Q1 & Q2). exists {| f_tx := dtx; f_rx := r' |}. split; [|exact Q2].
        apply (RsUnprotect P _ {| f_tx := dtx; f_rx := r |}); assumption.
    + destruct K as [K|(ops & crs & opened & x' & R & Hcok & Hq)]; [apply UdEmpty; exact K|].
      apply UdFatal. cbn [f_rx]. exact (rec_run_recv _ _ _ _ _ _ _ _ _ _ _ R (fs <> []) r dtx HP HA Hr Hcok (Hfs ops Hq)).
    + exact K.
  - pose proof (unprotect_into_spec P lib a f input buf dout fs HP W Hop) as K. destruct Hop as (V & _ & _).
    rewrite (sum_lens_concat input V) in K.
    destruct (fp_unprotect_into P lib f input (IoBuf buf) fs) as [[[[[f1 st] out] n] fs']|u|]; cbn [obind answer_of].
    + destruct K as [(K1 & -> & -> & -> & ->)|[(K1 & K2 & -> & -> & -> & ->)|(K1 & hdr & ps & rest & x' & s & m & K2 & K3 & K4 & K5 & -> & -> & ->)]].
      * exists {| f_tx := dtx; f_rx := r |}. split; [apply RsShortInto; exact K1|auto].
      * exists {| f_tx := dtx; f_rx := r |}. split; [apply RsNoneInto; assumption|auto].
      * destruct K4 as (O1 & O2 & O3 & O4). pose proof (recv_ok P lib (fp_crypt f) dtx r hdr ps buf fs HP Hr O1 O2 O3 O4) as Q.
        cbn [cstep] in K5.
        destruct (crypt_unprotect P lib (fp_crypt f) (IoBuf hdr) ps (IoBuf buf) fs) as [[[[x1 [s1 n1]] out1] fs1]|u|];
          cbn [obind] in K5; try discriminate. inversion K5; subst.
        destruct Q as (r' & Q1 & Q2 & _). exists {| f_tx := dtx; f_rx := r' |}.
        split; [|intros Hz; apply Q2; exact Hz]. destruct (is_record_framed _ _ K3) as [Hf Hlt]. destruct K3 as [-> _].
        rewrite <- public_fp_code.
        eapply (RsInto P _ {| f_tx := dtx; f_rx := r |}); [rewrite K2, app_assoc, Hf; reflexivity|exact Hlt|exact K1|exact Q1].
    + destruct K as [K|(hdr & ps & rest & K2 & K3 & K4 & K5)]; [apply UdEmptyInto; exact K|].
      destruct K4 as (O1 & O2 & O3 & O4). pose proof (recv_ok P lib (fp_crypt f) dtx r hdr ps buf fs HP Hr O1 O2 O3 O4) as Q.
      cbn [cstep] in K5.
      destruct (crypt_unprotect P lib (fp_crypt f) (IoBuf hdr) ps (IoBuf buf) fs) as [[[[x1 [s1 n1]] out1] fs1]|u1|];
        cbn [obind] in K5; try discriminate.
      destruct Q as (_ & Hcl & c & pad & Q1 & Q2). destruct (is_record_framed _ _ K3) as [Hf Hlt]. destruct K3 as [-> _].
      eapply UdFatalInto; [rewrite K2, app_assoc, Hf; reflexivity|exact Hlt|exact Hcl|exact Q1|exact Q2].
    + exact K.
Qed.

Lemma frun_ref : forall P lib al a ops f f' rs s dout,
  prims_ok P -> alloc_ok al -> cx_winv P a (fp_crypt f) dout ->
  (r_bad (f_rx s) = false -> rx_rel P (fp_crypt f) (f_tx s) (f_rx s)) -> fops_ok ops ->
  frun P lib al f ops = Done (f', rs) ->
  exists s', ref_run P s ops (map answer_of rs) s' /\
    (r_bad (f_rx s') = false -> rx_rel P (fp_crypt f') (f_tx s') (f_rx s')).
Proof.
  intros P lib al a ops. induction ops as [|[op fs] ops IH]; intros f f' rs s dout HP HA W Hr Hok E.
  - cbn in E. inversion E; subst. exists s. split; [apply RunNil|exact Hr].
  - destruct (r_bad (f_rx s)) eqn:Hb; [exists s; split; [apply RunBad; exact Hb|congruence]|]. specialize (Hr eq_refl).
    inversion Hok as [|? ? H1 H2]; subst. cbn [frun] in E. cbn [fst] in H1.
    pose proof (fstep_ref P lib al a f s op fs dout HP HA W Hr H1) as K.
    destruct (fstep P lib al f op fs) as [[f1 r]|u|] eqn:E1; cbn [obind] in E; try discriminate.
    destruct (frun P lib al f1 ops) as [[f2 rs2]|u|] eqn:E2; cbn [obind] in E; try discriminate.
    inversion E; subst. destruct K as (s1 & K1 & K2).
    destruct (fstep_sim P lib al a f op fs f1 r dout HP HA W H1 E1) as (o1 & r1 & A1 & A2 & A3).
    destruct (crun_tx P lib a o1 (fp_crypt f) (fp_crypt f1) r1 dout HP W A2 A1) as (d1 & W1).
    destruct (IH f1 f' rs2 s1 d1 HP HA W1 K2 H2 E2) as (s' & Q1 & Q2).
    exists s'. split; [|exact Q2]. cbn [map]. eapply RunStep; eauto.
Qed.

Lemma protector_ref : forall P lib al a ops rs f, protector P lib al a ops rs f ->
  exists s, ref_run P (ref_start a) ops (map answer_of rs) s /\
    (r_bad (f_rx s) = false -> rx_rel P (fp_crypt f) (f_tx s) (f_rx s)).
Proof.
  intros P lib al a ops rs f (HP & HA & Hi & Ho & Hok & f0 & fs & fs' & Ec & Er).
  destruct (fp_create_inv P lib a fs f0 fs' HP Hi Ho Ec) as (L1 & L2 & L3 & x & Ex & ->).
  destruct (create_winv P lib (c_args a) fs fs' x HP Hi Ho Ex) as [W _].
  pose proof (create_rx P lib (c_args a) fs fs' x HP Hi Ho Ex) as R.
  exact (frun_ref P lib al (c_args a) ops {| fp_crypt := x; fp_max := 16384 + 22; fp_next := 0; fp_events := [] |} f rs (ref_start a) _ HP HA W (fun _ => R) Hok Er).
Qed.

(* ---- without failures of the library the reference is a function ---- *)
Lemma broken_not_zero : forall ms m rest ms' z rest', concat ms ++ m ++ rest = concat ms' ++ z ++ rest' ->
  Forall hs_msg ms -> Forall (fun m => is_ticket m = true) ms -> Forall hs_msg ms' -> Forall (fun m => is_ticket m = true) ms' ->
  (m <> [] /\ ~ known m) \/ (hs_msg m /\ is_key_update m = true /\ rest <> []) -> hs_zero z -> known z -> False.
Proof.
  intros ms m rest ms' z rest' E H1 H2 H3 H4 Hm Hz Hk.
  assert (ms = ms') as <- by (eapply breaks_unique; [exact E|try assumption; unfold breaks; tauto..]).
  apply app_inv_head in E. destruct Hm as [(Hne & Hn)|(Hm & _)].
  - apply Hn. apply (known_app m rest Hne). rewrite E. apply known_ext; [|exact Hk]. destruct Hz as (t & ->). discriminate.
  - eapply msg_not_zero; [exact Hz|exact Hm|symmetry; exact E].
Qed.

Lemma accept_fun : forall P (F : Prop) r msg t1 t2 st1 n1 o1 r1 st2 n2 o2 r2, ~ F ->
  lenN t1 = lenN t2 ->
  accept P F r msg (msg ++ t1) st1 n1 o1 r1 -> accept P F r msg (msg ++ t2) st2 n2 o2 r2 ->
  st1 = st2 /\ n1 = n2 /\ r1 = r2 /\ takeN n1 o1 = takeN n2 o2 /\ (t1 = t2 -> o1 = o2).
Proof.
  assert (Hty : ty_alert <> 0 /\ ty_handshake <> 0 /\ ty_application_data <> 0) by (repeat split; discriminate).
  destruct Hty as (T1 & T2 & T3).
  intros P F r msg t1 t2 st1 n1 o1 r1 st2 n2 o2 r2 HF Lt H1 H2.
  assert (Hz : lenN (msg ++ t1) = lenN (msg ++ t2)) by (rewrite !lenN_app, Lt; reflexivity).
  inversion H1; subst; inversion H2; subst; try contradiction;
    repeat match goal with
    | K : _ = S_OK \/ _ |- _ => destruct K as [K|[K _]]; [subst|contradiction]
    end;
    repeat match goal with
    | K : inner _ _ _ = zeros _ |- _ => exfalso; revert K; apply inner_not_zero; assumption
    | K : inner _ _ _ = inner _ _ _ |- _ =>
      apply inner_inj in K; [|assumption|assumption]; destruct K as (? & ? & ?); subst
    | K : ?a = inner _ _ _, L : ?a = zeros _ |- _ => rewrite K in L
    end; try discriminate; try congruence;
    try match goal with K : (?a :: ?b :: ?c)%list = (?a' :: ?b' :: ?c')%list |- _ => inversion K; subst end;
    try contradiction; try congruence;
    try (rewrite !lenN_cons in *; lia).
  all: try (split; [reflexivity|split; [reflexivity|split; [reflexivity|split; [reflexivity|intros; congruence]]]]; fail).
  - split; [reflexivity|]. split; [reflexivity|]. split; [reflexivity|]. split; [|intros; congruence].
    assert (Hc : forall t, takeN (lenN c0) (inner ty_application_data c0 pad0 ++ t) = c0)
      by (intros t; unfold inner; rewrite <- app_assoc; apply takeN_app_exact). rewrite !Hc. reflexivity.
  - match goal with A : ?u = concat ms ++ part, B : ?u = concat ms0 ++ part0 |- _ =>
      rewrite A in B; apply parse_unique in B; [|assumption..]; destruct B as [<- <-] end.
    repeat (split; [reflexivity|]). intros; congruence.
  - exfalso. match goal with A : ?u = concat ms ++ part, B : ?u = _ ++ _ ++ _, C : _ \/ _ |- _ =>
      rewrite A in B; eapply not_malformed; [| | | | |eapply breaks_malformed; [exact B|assumption|assumption|unfold breaks; tauto]] end; assumption.
  - exfalso. match goal with A : ?u = concat ms ++ part, B : ?u = _ ++ _ ++ _ |- _ =>
      rewrite A in B; eapply not_malformed; [| | | | |eapply breaks_malformed; [exact B|assumption|assumption|unfold breaks; tauto]] end; assumption.
  - exfalso. match goal with A : ?u = concat ms0 ++ part, B : ?u = _ ++ _ ++ _, C : _ \/ _ |- _ =>
      rewrite A in B; eapply not_malformed; [| | | | |eapply breaks_malformed; [exact B|assumption|assumption|unfold breaks; tauto]] end; assumption.
  - match goal with A : ?u = concat ms ++ ?m ++ ?rest, B : ?u = concat ms0 ++ ?m' ++ ?rest' |- _ =>
      assert (ms = ms0) as <- by (eapply breaks_unique; [rewrite <- A, <- B; reflexivity|try assumption; unfold breaks; tauto..]) end.
    repeat (split; [reflexivity|]). intros; congruence.
  - exfalso. match goal with A : ?u = concat ms ++ ?m ++ ?rest, B : ?u = concat ms0 ++ ?m' ++ ?rest' |- _ =>
      eapply (broken_not_zero ms m rest ms0 m' rest'); [congruence|assumption..] end.
  - exfalso. match goal with A : ?u = concat ms0 ++ part, B : ?u = _ ++ _ ++ _ |- _ =>
      rewrite A in B; eapply not_malformed; [| | | | |eapply breaks_malformed; [exact B|assumption|assumption|unfold breaks; tauto]] end; assumption.
  - exfalso. match goal with A : ?u = concat ms ++ ?m ++ ?rest, B : ?u = concat ms0 ++ ?m' ++ ?rest' |- _ =>
      eapply (broken_not_zero ms0 m' rest' ms m rest); [congruence|assumption..] end.
  - match goal with A : ?u = concat ms ++ ?m ++ ?rest, B : ?u = concat ms0 ++ ?m' ++ ?rest' |- _ =>
      assert (ms = ms0) as <- by (eapply breaks_unique; [rewrite <- A, <- B; reflexivity|try assumption; unfold breaks; tauto..]) end.
    repeat (split; [reflexivity|]). intros; congruence.
Qed.

Lemma recv_fun : forall P (F : Prop) r hdr p b1 b2 st1 n1 o1 r1 st2 n2 o2 r2, prims_ok P -> ~ F -> lenN b1 = lenN b2 ->
  recv P F r hdr p b1 st1 n1 o1 r1 -> recv P F r hdr p b2 st2 n2 o2 r2 ->
  st1 = st2 /\ n1 = n2 /\ r1 = r2 /\ takeN n1 o1 = takeN n2 o2 /\ (b1 = b2 -> o1 = o2).
Proof.
  intros P F r hdr p b1 b2 st1 n1 o1 r1 st2 n2 o2 r2 HP HF L H1 H2.
  inversion H1; subst; inversion H2; subst; try congruence; try contradiction;
    try (repeat (split; [reflexivity|]); intros; congruence).
  - exfalso. match goal with A : F \/ (forall m, _ -> _) |- _ => destruct A as [A|A]; [contradiction|] end.
    match goal with A : forall m, dir_seal _ _ _ ?q = _ -> _ |- _ => specialize (A q eq_refl) end. lia.
  - exfalso. match goal with A : F \/ (forall m, _ -> _) |- _ => destruct A as [A|A]; [contradiction|] end.
    match goal with A : forall m, dir_seal _ _ _ ?q = _ -> _ |- _ => specialize (A q eq_refl) end. lia.
  - match goal with A : dir_seal _ _ _ ?m = dir_seal _ _ _ ?m' |- _ =>
      apply dir_seal_inj in A; [subst|exact HP] end.
    match goal with A : accept P F _ ?m (?m ++ ?t1) _ _ _ _, B : accept P F _ ?m (?m ++ ?t2) _ _ _ _ |- _ =>
      destruct (accept_fun P F _ m t1 t2 _ _ _ _ _ _ _ _ HF ltac:(rewrite !lenN_dropN, L; reflexivity) A B) as (K1 & K2 & K3 & K4 & K5) end.
    split; [exact K1|]. split; [exact K2|]. split; [exact K3|]. split; [exact K4|]. intros ->. apply K5. reflexivity.
Qed.

Lemma send_ok_bytes : forall P F d buf bs st buf' d', prims_ok P -> send_all P F d buf bs st buf' d' -> st = kOk ->
  buf' = records P d bs ++ dropN (lenN (concat bs) + 22 * lenN bs) buf.
Proof.
  intros P F d buf bs st buf' d' HP H. induction H; intros E; try discriminate.
  - cbn [records concat app]. change (lenN (@nil N) + 22 * lenN (@nil bytes)) with 0. rewrite dropN_0. reflexivity.
  - match goal with K : _ \/ _ |- _ => destruct K; congruence end.
  - cbn [records concat]. rewrite (IHsend_all E), <- app_assoc, dropN_dropN, lenN_app, lenN_cons. unfold bytes in *. match goal with |- _ ++ _ ++ dropN ?x _ = _ ++ _ ++ dropN ?y _ => replace y with x; [reflexivity|] end. lia.
Qed.

Lemma send_fun : forall P (F : Prop) d b1 bs st1 o1 d1, ~ F -> send_all P F d b1 bs st1 o1 d1 ->
  forall b2 st2 o2 d2, lenN b1 = lenN b2 -> send_all P F d b2 bs st2 o2 d2 ->
  st1 = st2 /\ d1 = d2 /\ (b1 = b2 -> o1 = o2).
Proof.
  intros P F d b1 bs st1 o1 d1 HF H. induction H; intros b2 st2 o2 d2 L Hq; inversion Hq; subst; try contradiction; try lia.
  - auto.
  - auto.
  - split; [reflexivity|]. split; [reflexivity|]. intros ->. reflexivity.
  - assert (L2 : lenN (dropN (lenN b + 22) buf) = lenN (dropN (lenN b + 22) b2)) by (rewrite !lenN_dropN, L; reflexivity).
    match goal with K : send_all P F (dir_next d) _ bs st2 _ d2 |- _ =>
      destruct (IHsend_all _ _ _ _ L2 K) as (E1 & E2 & E3) end.
    split; [exact E1|]. split; [exact E2|]. intros ->. rewrite E3; reflexivity.
Qed.

Lemma send_one_next : forall P (F : Prop) d buf b st buf' d', ~ F -> send_all P F d buf [b] st buf' d' -> st <> kOk ->
  lenN b + 22 <= lenN buf -> dir_usable d -> False.
Proof.
  intros P F d buf b st buf' d' HF H Hn Hl Hu. inversion H; subst; try contradiction; try lia.
  match goal with K : send_all _ _ _ _ [] _ _ _ |- _ => inversion K; subst end. contradiction.
Qed.

Lemma null_fun : forall P (F : Prop) d b1 bs m st1 o1 d1, ~ F -> send_null P F d b1 bs m st1 o1 d1 ->
  forall b2 st2 o2 d2, lenN b1 = lenN b2 -> send_null P F d b2 bs m st2 o2 d2 ->
  st1 = st2 /\ d1 = d2 /\ (b1 = b2 -> o1 = o2).
Proof.
  intros P F d b1 bs m st1 o1 d1 HF H. induction H; intros b2 st2 o2 d2 L Hq; inversion Hq; subst; try contradiction; try lia; auto.
  - rewrite L. auto.
  - rewrite L. repeat match goal with K : _ = kInvalidArgument \/ _ |- _ => destruct K as [->|[K _]]; [|contradiction] end. auto.
  - match goal with A : send_all P F _ b2 _ _ _ _ |- _ => exact (send_fun P F _ _ _ _ _ _ HF H _ _ _ _ L A) end.
  - exfalso. match goal with A : send_all P F _ ?b0 [_] _ _ _ |- _ => eapply (send_one_next P F _ b0); [exact HF|exact A|assumption|lia|assumption] end.
  - exfalso. match goal with A : send_all P F _ ?b0 [_] _ _ _ |- _ => eapply (send_one_next P F _ b0); [exact HF|exact A|assumption|lia|assumption] end.
  - assert (L2 : lenN (dropN (lenN b + 22) buf) = lenN (dropN (lenN b + 22) b2)) by (rewrite !lenN_dropN, L; reflexivity).
    match goal with K : send_null P F (dir_next d) _ bs _ st2 _ d2 |- _ =>
      destruct (IHsend_null _ _ _ _ L2 K) as (E1 & E2 & E3) end.
    split; [exact E1|]. split; [exact E2|]. intros ->. rewrite E3; reflexivity.
Qed.

Lemma framed_inj : forall p rest p' rest', lenN p < 65536 -> lenN p' < 65536 ->
  framed p ++ rest = framed p' ++ rest' -> p = p' /\ rest = rest'.
Proof.
  intros p rest p' rest' H H' E. unfold framed in E. rewrite <- !app_assoc in E.
  apply app_split in E; [|rewrite !lenN_tls_header; reflexivity]. destruct E as [E1 E2].
  apply tls_header_inj in E1; auto. apply app_split in E2; auto.
Qed.

Lemma framed_starts : forall p rest, lenN p < 65536 -> starts_with_record (framed p ++ rest).
Proof.
  intros p rest H. exists (tls_header (lenN p)), p, rest. split; [unfold framed; rewrite <- app_assoc; reflexivity|].
  split; [reflexivity|exact H].
Qed.

Lemma recv_all_fun : forall P (F : Prop) r data st1 cs1 r1, prims_ok P -> ~ F -> recv_all P F r data st1 cs1 r1 ->
  forall st2 cs2 r2, recv_all P F r data st2 cs2 r2 ->
  r1 = r2 /\ (r_bad r1 = false -> st1 = st2 /\ cs1 = cs2).
Proof.
  intros P F r data st1 cs1 r1 HP HF H.
  induction H; intros st2 cs2 r2 Hq;
    (match type of Hq with recv_all P F r ?d _ _ _ => remember d as data' eqn:Ed end; inversion Hq; subst data'); try subst data; try subst; try lia; auto;
    try (exfalso; match goal with K : ~ starts_with_record _ |- _ => apply K; apply framed_starts; assumption end);
    try match goal with K : framed _ ++ _ = framed _ ++ _ |- _ => apply framed_inj in K; [|assumption..]; destruct K; subst end;
    try match goal with A : recv P F ?r0 ?h ?q ?b1 _ _ _ _, B : recv P F ?r0 ?h ?q ?b2 _ _ _ _ |- _ =>
      destruct (recv_fun P F r0 h q b1 b2 _ _ _ _ _ _ _ _ HP HF ltac:(congruence) A B) as (E1 & E2 & E3 & E4 & _) end; try congruence;
    subst; try (split; [reflexivity|congruence]).
  - auto.
  - match goal with A : recv_all P F _ _ st2 _ r2 |- _ => destruct (IHrecv_all _ _ _ A) as (-> & Q) end.
    split; [reflexivity|]. intros K. destruct (Q K) as [-> ->]. split; [reflexivity|]. destruct st2; congruence.
Qed.

Lemma blocks_size : forall data bs, blocks_of data bs -> protected_size (lenN data) = lenN (concat bs) + 22 * lenN bs.
Proof. intros data bs H. unfold protected_size. rewrite <- (blocks_count _ _ H), (proj1 H). reflexivity. Qed.

Lemma ref_step_fun : forall P (F : Prop) s op a1 s1 a2 s2, prims_ok P -> ~ F ->
  ref_step P F s op a1 s1 -> ref_step P F s op a2 s2 ->
  s1 = s2 /\ (r_bad (f_rx s1) = false -> a1 = a2).
Proof.
  intros P F s op a1 s1 a2 s2 HP HF H1 H2.
  inversion H1; subst; inversion H2; subst; try contradiction; try lia; auto;
    try (exfalso; match goal with A : null_block ?i _ _, B : Forall iov_valid ?i |- _ => exact (null_block_invalid _ _ _ A B) end).
  - match goal with A : blocks_of ?x ?b, B : blocks_of ?x ?b' |- _ => rewrite <- (blocks_unique _ _ _ A B) in * end.
    match goal with A : send_all P F _ ?b1 _ ?st1 _ _, B : send_all P F _ ?b2 _ ?st2 _ _ |- _ =>
      destruct (send_fun P F _ b1 _ _ _ _ HF A b2 _ _ _ ltac:(congruence) B) as (<- & <- & _);
      pose proof (send_ok_bytes _ _ _ _ _ _ _ _ HP A) as Ka; pose proof (send_ok_bytes _ _ _ _ _ _ _ _ HP B) as Kb;
      split; [reflexivity|]; intros _; destruct st1; try reflexivity;
      rewrite (Ka eq_refl), (Kb eq_refl), !dropN_all; [reflexivity|..] end.
    all: match goal with A : blocks_of _ ?b |- _ => pose proof (blocks_size _ _ A); lia end.
  - match goal with A : blocks_of ?x ?b, B : blocks_of ?x ?b' |- _ => rewrite <- (blocks_unique _ _ _ A B) in * end.
    match goal with A : send_all P F _ ?b1 _ ?st1 _ _, B : send_all P F _ ?b2 _ ?st2 _ _ |- _ =>
      destruct (send_fun P F _ b1 _ _ _ _ HF A b2 _ _ _ ltac:(congruence) B) as (<- & <- & K) end.
    rewrite K by reflexivity. auto.
  - match goal with A : null_block ?i ?b ?m, B : null_block ?i ?b' ?m' |- _ => destruct (null_block_unique _ _ _ _ _ A B) as [<- <-] end.
    match goal with A : send_null P F _ ?b1 _ _ _ _ _, B : send_null P F _ ?b2 _ _ _ _ _ |- _ =>
      destruct (null_fun P F _ b1 _ _ _ _ _ HF A b2 _ _ _ ltac:(congruence) B) as (<- & <- & _) end. auto.
  - match goal with A : null_block ?i ?b ?m, B : null_block ?i ?b' ?m' |- _ => destruct (null_block_unique _ _ _ _ _ A B) as [<- <-] end.
    match goal with A : send_null P F _ ?b1 _ _ _ _ _, B : send_null P F _ ?b2 _ _ _ _ _ |- _ =>
      destruct (null_fun P F _ b1 _ _ _ _ _ HF A b2 _ _ _ eq_refl B) as (<- & <- & K) end.
    rewrite K by reflexivity. auto.
  - match goal with A : recv_all P F _ _ ?st1 _ _, B : recv_all P F _ _ ?st2 _ _ |- _ =>
      destruct (recv_all_fun P F _ _ _ _ _ HP HF A _ _ _ B) as (-> & K) end.
    split; [reflexivity|]. cbn [f_rx]. intros Hb. destruct (K Hb) as [-> ->]. reflexivity.
  - exfalso. match goal with K : ~ starts_with_record _, E : iov_concat input = _ |- _ => apply K; rewrite E; apply framed_starts; assumption end.
  - exfalso. match goal with K : ~ starts_with_record _, E : iov_concat input = _ |- _ => apply K; rewrite E; apply framed_starts; assumption end.
  - match goal with A : iov_concat input = framed ?p ++ _, B : iov_concat input = framed ?p' ++ _ |- _ =>
      rewrite A in B; apply framed_inj in B; [|assumption..]; destruct B; subst end.
    match goal with A : recv P F ?r ?h ?p ?b1 _ _ _ _, B : recv P F ?r ?h ?p ?b1 _ _ _ _ |- _ =>
      destruct (recv_fun P F r h p b1 b1 _ _ _ _ _ _ _ _ HP HF eq_refl A B) as (-> & -> & -> & _ & K) end.
    rewrite K by reflexivity. auto.
Qed.

Lemma ref_run_fun : forall P s ops as1 s1, prims_ok P -> no_failures ops ->
  ref_run P s ops as1 s1 -> forall as2 s2, ref_run P s ops as2 s2 ->
  s1 = s2 /\ (r_bad (f_rx s1) = false -> as1 = as2).
Proof.
  intros P s ops as1 s1 HP Hnf H. induction H; intros as2 s2 Hq; inversion Hq; subst; try congruence; auto.
  - split; [reflexivity|congruence].
  - inversion Hnf as [|? ? N1 N2]; subst. cbn [fst snd] in *. subst fs.
    match goal with A : ref_step P ?F s op ?x1 _, B : ref_step P ?F s op ?x2 ?y |- _ =>
      destruct (ref_step_fun P F s op x1 _ x2 y HP ltac:(intros K; apply K; reflexivity) A B) as (<- & K) end.
    match goal with A : ref_run P s1 ops ?q s2 |- _ => destruct (IHref_run N2 _ _ A) as (<- & K2) end.
    split; [reflexivity|]. intros Hb. rewrite (K2 Hb). f_equal. apply K.
    destruct (r_bad (f_rx s1)) eqn:Eb; [|reflexivity].
    match goal with A : ref_run P s1 ops _ s' |- _ => inversion A; subst; congruence end.
  - split; [reflexivity|congruence].
  - split; [reflexivity|congruence].
Qed.

(* ---- the theorems ---- *)
Lemma F65 : forall P lib al a ops rs f, protector P lib al a ops rs f ->
  exists s, ref_run P (ref_start a) ops (map answer_of rs) s /\
    (r_bad (f_rx s) = false ->
      map ts_tickets (cx_sent (fp_crypt f)) = r_sent (f_rx s) /\
      forall op fs u, fop_ok op -> fstep P lib al f op fs = Undef u -> ref_undef P (fs <> []) s op).
Proof.
  intros P lib al a ops rs f Hp. destruct (protector_ref _ _ _ _ _ _ _ Hp) as (s & R & K).
  exists s. split; [exact R|]. intros Hb. specialize (K Hb). pose proof Hp as (HP & HA & _). split.
  - destruct K as (_ & _ & _ & K & _). exact K.
  - intros op fs u Hop E. destruct (protector_winv _ _ _ _ _ _ _ Hp) as (d & din & W & _).
    pose proof (fstep_ref P lib al (c_args a) f s op fs d HP HA W K Hop) as Q. rewrite E in Q. exact Q.
Qed.

Lemma F65det : forall P lib al a ops rs f answers s, protector P lib al a ops rs f ->
  no_failures ops ->
  ref_run P (ref_start a) ops answers s -> r_bad (f_rx s) = false ->
  map answer_of rs = answers.
Proof.
  intros P lib al a ops rs f answers s Hp Hnf R Hb. destruct (protector_ref _ _ _ _ _ _ _ Hp) as (s' & R' & _).
  symmetry. apply (ref_run_fun P _ _ _ _ (proj1 Hp) Hnf R _ _ R'). exact Hb.
Qed.
