(* What is logged on a connection: proofs of C77 - C79. *)
From Coq Require Import List NArith Bool Lia ZifyBool ZifyNat ZifyN.
From Verif Require Import Base BaseProofs Aead Hkdf HalfConn SpecAead AeadProofs SpecTls HalfProofs Options HsHandler Crypter FrameProt SpecHs
  HsProofs SpecRecord SpecRx CrypterProofs CrypterRun CrypterRunProofs CrypterLemmas CrypterFinal SpecFrame FrameRun FrameProofs FrameSim
  FrameFinal Log LogRun LogProofs SpecLog LogFacts SpecRxProofs.
Import ListNotations.
Local Open Scope N_scope.

Lemma lstep_exists : forall P lib x op fs x' res, cstep P lib x op fs = Done (x', res) ->
  exists ls, lstep P lib x op fs = Done (x', res, ls).
Proof.
  intros P lib x op fs x' res E. rewrite <- lstep_cstep in E. unfold drop_log in E.
  destruct (lstep P lib x op fs) as [[[y r] l]|u|]; cbn in E; try discriminate. injection E as -> ->. eauto.
Qed.
Lemma flstep_exists : forall P lib al f op fs f' res, fstep P lib al f op fs = Done (f', res) ->
  exists ls, flstep P lib al f op fs = Done (f', res, ls).
Proof.
  intros P lib al f op fs f' res E. rewrite <- flstep_fstep in E. unfold drop_log in E.
  destruct (flstep P lib al f op fs) as [[[y r] l]|u|]; cbn in E; try discriminate. injection E as -> ->. eauto.
Qed.

(* ---- a frame protector ---- *)
Lemma protector_overhead : forall P lib al a ops rs f, protector P lib al a ops rs f -> record_overhead (fp_crypt f) = Done 22.
Proof. intros P lib al a ops rs f H. destruct (protector_winv _ _ _ _ _ _ _ H) as (d & din & _ & _ & Ri). exact (record_overhead_spec _ _ _ Ri). Qed.

Lemma fprotect_log_ne : forall st ls, fprotect_log st ls -> st <> kOk -> ls <> [].
Proof. intros st ls [|s l K H|] N; [congruence| |discriminate]. intros E. apply app_eq_nil in E. destruct E; discriminate. Qed.
Lemma funprotect_log_ne : forall st ls, funprotect_log st ls -> st <> kOk -> ls <> [].
Proof.
  intros st ls [ts H|ts c H K|ts c H K|ts s l H K Q] N; [congruence| | |]; intros E; apply app_eq_nil in E; destruct E as [_ E]; try discriminate.
  apply app_eq_nil in E. destruct E; discriminate.
Qed.
Lemma funprotect1_log_ne : forall st ls, funprotect1_log st ls -> st <> kOk -> ls <> [].
Proof.
  intros st ls [l H|c K|c K|s l K H] N; [congruence|discriminate|discriminate|]. intros E. apply app_eq_nil in E. destruct E; discriminate.
Qed.

Lemma U77protector : forall P lib al a ops rs f op fs f' res ls, protector P lib al a ops rs f -> fop_ok op ->
  flstep P lib al f op fs = Done (f', res, ls) -> fres_failed res -> (ls = [] <-> too_short op).
Proof.
  intros P lib al a ops rs f op fs f' res ls HP Hok E Hf.
  pose proof (U77frame _ _ _ _ _ _ _ _ _ (proj1 (proj2 HP)) E) as H. pose proof (protector_overhead _ _ _ _ _ _ _ HP) as Ho.
  destruct op as [input|input id buf|input|input buf], res as [st o|st o|st o|st o n]; try contradiction; cbn [too_short fres_failed] in *.
  - split; [|contradiction]. intros K. exact (fprotect_log_ne _ _ H Hf K).
  - split; [|contradiction]. intros K. exact (fprotect_log_ne _ _ H Hf K).
  - destruct Hok as (_ & _ & Hs). rewrite total_len_sum in * by lia. split.
    + intros K. destruct H as [H|(_ & _ & o' & E' & L)]; [destruct (funprotect_log_ne _ _ H Hf K)|]. rewrite Ho in E'. injection E' as <-. exact L.
    + intros L. unfold flstep, fp_unprotect_l in E. rewrite Ho, total_len_sum in E by lia.
      unfold lbind, quiet, bind, lift, lret, ret in E. cbn [fst snd] in E.
      replace (sum_lens input <? 22) with true in E by lia. cbn in E. injection E as _ _ _ <-. reflexivity.
  - destruct Hok as (_ & _ & Hs). rewrite total_len_sum in * by lia.
    assert (En : number_bytes_to_unprotect f (sum_lens input) = Done (if sum_lens input <? 22 then 0 else sum_lens input - 5)).
    { unfold number_bytes_to_unprotect. rewrite Ho. cbn [obind]. destruct (sum_lens input <? 22); reflexivity. }
    split.
    + intros K. destruct H as [H|(_ & _ & E')]; [destruct (funprotect1_log_ne _ _ H Hf K)|]. rewrite En in E'. injection E' as E'.
      destruct (N.ltb_spec (sum_lens input) 22); lia.
    + intros L. unfold flstep, fp_unprotect_into_l in E. rewrite total_len_sum in E by lia. rewrite En in E.
      replace (sum_lens input <? 22) with true in E by lia.
      unfold lbind, quiet, bind, lift, lret, ret in E. cbn in E. injection E as _ _ _ _ <-. reflexivity.
Qed.

(* What is too short is refused without a line. *)
Lemma U77short : forall P lib al a ops rs f fs, protector P lib al a ops rs f ->
  (forall input, fop_ok (FUnprotect input) -> sum_lens input < 22 ->
     flstep P lib al f (FUnprotect input) fs = Done (f, FUnprotected kFailedPrecondition [], [])) /\
  (forall input buf, fop_ok (FUnprotectInto input buf) -> sum_lens input < 22 ->
     flstep P lib al f (FUnprotectInto input buf) fs = Done (f, FUnprotectedInto kFailedPrecondition (IoBuf buf) (lenN buf), [])).
Proof.
  intros P lib al a ops rs f fs HP. pose proof (protector_overhead _ _ _ _ _ _ _ HP) as Ho. split.
  - intros input (_ & _ & Hs) L. unfold flstep, fp_unprotect_l. rewrite Ho, total_len_sum by lia.
    unfold lbind, quiet, bind, lift, lret, ret. cbn [fst snd]. replace (sum_lens input <? 22) with true by lia. reflexivity.
  - intros input buf (_ & _ & Hs) L. unfold flstep, fp_unprotect_into_l. rewrite total_len_sum by lia.
    unfold number_bytes_to_unprotect. rewrite Ho. cbn [obind]. replace (sum_lens input <? 22) with true by lia. reflexivity.
Qed.

(* ---- sending ---- *)
Lemma U78send : forall P lib a ops rs x t pt buf, connection P lib a ops rs x ->
  sum_lens pt < two64 -> Forall iov_valid pt ->
  let d := tx_run P (d_out a) ops rs in
  exists usable x' res, (usable = true <-> dir_usable d) /\
    lstep P lib x (CProtect t pt buf) [] = Done (x', res, send_log (sum_lens pt) (lenN buf) usable).
Proof.
  intros P lib a ops rs x t pt buf HC Hs Hv d.
  destruct (W31 P lib a ops rs x HC t pt buf [] Hs) as (x' & st & n & buf' & E & _ & K1 & _ & _ & K2 & K3 & K4). cbn zeta in *. fold d in K3, K4.
  destruct (lstep_exists _ _ _ _ _ _ _ E) as (ls & El).
  pose proof (U77crypt _ _ _ _ _ _ _ _ El) as H. cbn in H.
  destruct HC as (H1 & H2 & H3 & H4 & H5). destruct (creach_winv P lib a ops rs x H1 H2 H3 H4 H5) as [W _].
  pose proof (cw_out _ _ _ _ W) as Ro. fold d in Ro. destruct (cw_in _ _ _ _ W) as (din & Ri & _).
  unfold send_log.
  destruct (N.ltb_spec 16384 (sum_lens pt)) as [L1|L1].
  { destruct (dir_usable_dec d) as [Hu|Hu]; [exists true|exists false]; exists x', (CProtected st n (IoBuf buf')); (split; [split; auto; discriminate|]).
    all: rewrite El; f_equal; f_equal; unfold lstep, crypt_protect_l in El; rewrite total_len_sum in El by exact Hs; unfold kTlsMaxPlaintextSize in El;
      replace (16384 <? sum_lens pt) with true in El by lia; cbn in El; injection El as _ _ _ _ <-; reflexivity. }
  destruct (N.ltb_spec (lenN buf) (sum_lens pt + 22)) as [L2|L2].
  { destruct (dir_usable_dec d) as [Hu|Hu]; [exists true|exists false]; exists x', (CProtected st n (IoBuf buf')); (split; [split; auto; discriminate|]).
    all: rewrite El; f_equal; f_equal; unfold lstep, crypt_protect_l in El; rewrite total_len_sum in El by exact Hs; unfold kTlsMaxPlaintextSize in El;
      replace (16384 <? sum_lens pt) with false in El by lia; rewrite (record_overhead_spec _ _ _ Ri) in El;
      unfold lbind, quiet, bind, lift, lret, ret in El; cbn [fst snd iov_len] in El;
      replace (lenN buf <? sum_lens pt + 22) with true in El by lia; cbn in El; injection El as _ _ _ _ <-; reflexivity. }
  assert (Hf : fits_in pt buf = true) by (unfold fits_in; lia).
  destruct (dir_usable_dec d) as [Hu|Hu].
  { exists true, x', (CProtected st n (IoBuf buf')). split; [split; auto|]. rewrite El. f_equal. f_equal.
    specialize (K4 Hf Hu Hv eq_refl). subst st. destruct ls as [|l ls]; [reflexivity|].
    exfalso. apply (proj2 (protect_log_ne _ _ H)); [discriminate|reflexivity]. }
  exists false, x', (CProtected st n (IoBuf buf')). split; [split; [discriminate|contradiction]|]. rewrite El. f_equal. f_equal.
  unfold lstep, crypt_protect_l in El; rewrite total_len_sum in El by exact Hs; unfold kTlsMaxPlaintextSize in El.
  replace (16384 <? sum_lens pt) with false in El by lia. rewrite (record_overhead_spec _ _ _ Ri), (half_tag_spec _ _ _ Ro) in El.
  unfold lbind, quiet, bind, lift, lret, ret in El; cbn [fst snd iov_len] in El.
  replace (lenN buf <? sum_lens pt + 22) with false in El by lia.
  match type of El with context [half_encrypt P ?h ?aad ?p (IoBuf ?b) []] =>
    destruct (half_encrypt_spec P h d aad p b [] H1 Ro) as (h' & s & m & b' & fs' & Ee & _ & _ & _ & _ & Q & _) end.
  - constructor; [reflexivity|constructor].
  - apply Forall_app. split; [apply small_le; lia|constructor; [reflexivity|constructor]].
  - rewrite sum_lens_app. cbn [sum_lens iov_len]. unfold two64. change (lenN [convert_record_type t]) with 1. lia.
  - destruct (Q Hu) as (-> & -> & -> & ->). rewrite Ee in El. cbn in El. injection El as _ _ _ _ <-. reflexivity.
Qed.

(* ---- receiving ---- *)
Lemma U78receive : forall P lib a ops rs x r ty content pad payload buf,
  connection P lib a ops rs x -> received P a ops rs r -> open_rx r ->
  let msg := inner ty content pad in
  next_record P r msg payload -> bytes_ok content -> lenN content + pad <= 16384 -> lenN msg <= lenN buf ->
  0 < ty < 256 -> ty <> ty_handshake ->
  exists x' res, lstep P lib x (CUnprotect (tls_header (lenN msg + 16)) payload buf) [] =
    Done (x', res, receive_log (r_wait r) ty content).
Proof.
  intros P lib a ops rs x r ty content pad payload buf (H1 & H2 & H3 & H4 & H5) (Hr & Hb) (Hc & Hu) msg (Hv & Hp) Hbc Hl Hbuf Hty Hth.
  destruct (R_rel P lib a ops rs x H1 H2 H3 H4 H5 r Hr Hb) as (dout & _ & Hinv & Hcl & _ & Hex).
  destruct (Hex (proj1 Hu)) as (Hw & _). pose proof (ci_hs _ _ _ _ _ _ Hinv (proj1 Hu)) as Ht.
  pose proof (ci_in _ _ _ _ _ _ Hinv) as Ri.
  assert (Hm : lenN msg = lenN content + 1 + pad) by apply lenN_inner.
  assert (Hpl : sum_lens payload = lenN msg + 16).
  { rewrite (sum_lens_concat payload Hv), Hp. apply lenN_dir_seal. exact H1. }
  assert (Hl5 : lenN (tls_header (lenN msg + 16)) = 5) by apply lenN_tls_header.
  destruct (half_decrypt_spec P (cx_in x) (r_dir r) [IoBuf (tls_header (lenN msg + 16))] payload buf [] H1 Ri)
    as (h' & st & n & buf' & fs' & E & _ & _ & _ & _ & _ & Hus).
  { constructor; [unfold small_iov; cbn [iov_len]; lia|constructor]. }
  { apply small_le; lia. }
  { exact Hv. }
  { unfold two64; lia. }
  destruct (Hus Hu) as (_ & _ & Hok & _ & Hlive).
  assert (Hia : iov_concat [IoBuf (tls_header (lenN msg + 16))] = tls_header (lenN msg + 16)) by apply app_nil_r.
  destruct (Hlive msg) as [-> ->]; [repeat constructor|rewrite Hia; exact Hp|exact Hbuf|reflexivity|].
  destruct (Hok eq_refl) as (_ & msg' & Em & En & _ & Eb). rewrite Hia, Hp in Em. apply dir_seal_inj in Em; [|exact H1]. subst msg'.
  unfold lstep, crypt_unprotect_l. rewrite Hcl, Hc. cbn [iov_len].
  rewrite (record_overhead_spec _ _ _ Ri), total_len_sum, wrap64_small by (unfold two64; lia). unfold kTlsMaxPlaintextSize.
  rewrite Hl5, Hpl.
  rewrite validate_header_ok by lia.
  unfold lbind at 1, quiet at 1, bind at 1 2, lift at 1, lret at 1, ret at 1. cbn [fst snd].
  replace (5 + (lenN msg + 16) <? 22) with false by lia. replace (22 + 16384 <? 5 + (lenN msg + 16)) with false by lia. cbn [negb].
  unfold lbind at 1, quiet at 1, bind at 1 2. unfold bind at 1. rewrite E. unfold lret at 1, ret at 1. cbn [fst snd is_ok negb].
  subst buf' n. cbn [iov_data]. rewrite takeN_app_exact. assert (Esc : scan_type (rev msg) = Some (ty, content)) by (apply scan_type_inner; lia). rewrite Esc.
  unfold receive_log, kTls13Alert, kTls13Handshake, kTls13ApplicationData.
  destruct (N.eqb_spec ty 21) as [->|Ha].
  { destruct content as [|b [|dd c]]; [eexists; eexists; reflexivity..|]. unfold kTlsAlertCloseNotify. destruct (dd =? 0); eexists; eexists; reflexivity. }
  destruct (N.eqb_spec ty 22) as [->|Hh]; [contradiction|].
  destruct (N.eqb_spec ty 23) as [->|Hd]; [|eexists; eexists; reflexivity].
  cbn [cx_expecting set_in cx_phase]. rewrite Hw. destruct (r_wait r); [eexists; eexists; reflexivity|].
  destruct (cx_phase x) eqn:Ephase; [eexists; eexists; reflexivity| |eexists; eexists; reflexivity].
  destruct Ht as (o & Hinv2 & Hph). rewrite Ephase in Hph. destruct Hph as (-> & _ & _ & He & _).
  rewrite Hw in He. destruct (r_part r) as [|b0 part]; [|discriminate].
  pose proof (get_stored_tickets_spec _ _ _ Hinv2) as K. cbn in K. destruct K as (h2 & ts & K & _).
  unfold send_tickets_l. cbn [cx_handler set_in]. rewrite K. eexists; eexists; reflexivity.
Qed.
