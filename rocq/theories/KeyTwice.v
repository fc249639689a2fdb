(* The key for receiving changes although no KeyUpdate was received. *)
From Coq Require Import List NArith ZArith Bool Lia ZifyBool ZifyNat ZifyN.
From Verif Require Import Base BaseProofs Aead Hkdf HalfConn SpecAead AeadProofs AeadRun AeadRunProofs AeadTotalProofs SpecTls HkdfProofs HalfProofs HalfRun HalfRunProofs Options HsHandler
  Crypter SpecHs HsProofs SpecRecord SpecRx CrypterProofs CrypterRun CrypterRunProofs SpecRxProofs CrypterLemmas CrypterLemmas2
  CrypterLemmas3 HsRun HsRunProofs CrypterChannel CrypterFinal SpecKeyChange KeyChange.
Import ListNotations.
Local Open Scope N_scope.

(* A sealed handshake record that the handler takes for a KeyUpdate. *)
Lemma sealed_update : forall P lib x din c payload buf h2 r, prims_ok P -> half_rel P (cx_in x) din -> cx_close x = false -> dir_usable din ->
  bytes_ok c -> lenN c <= 16384 -> Forall iov_valid payload ->
  let msg := inner ty_handshake c 0 in let hdr := tls_header (lenN msg + 16) in
  iov_concat payload = dir_seal P din hdr msg -> lenN msg <= lenN buf ->
  process_handshake_message (cx_handler x) c = Done (h2, inr r) -> r_key_update r = true -> r_ticket r = false ->
  exists x' out, cstep P lib x (CUnprotect hdr payload buf) [] = Done (x', CUnprotected S_OK 0 out) /\
    hc_epoch (cx_in x') = hc_epoch (cx_in x) + 1 /\ half_rel P (cx_in x') (dir_update P (dir_next din)) /\
    cx_handler x' = h2 /\ cx_close x' = false.
Proof.
  intros P lib x din c payload buf h2 r HP R Hc Hu Hb Hl Hv msg hdr Es Hbuf Ep Hk Ht.
  assert (Hml : lenN msg = lenN c + 1) by (unfold msg; rewrite lenN_inner; lia).
  assert (Hpl : sum_lens payload = lenN msg + 16) by (rewrite (sum_lens_concat payload Hv), Es; apply lenN_dir_seal; exact HP).
  assert (Hwf : well_formed hdr (sum_lens payload)) by (rewrite Hpl; split; [reflexivity|lia]).
  assert (Hsz : lenN hdr + sum_lens payload < two64) by (rewrite Hpl; unfold hdr; rewrite lenN_tls_header; unfold two64; lia).
  destruct (crypt_unprotect_spec P lib x din hdr payload buf [] HP R (header_bytes_ok _) Hv Hsz) as (_ & _ & K3).
  destruct (K3 Hc Hwf) as (h' & fs1 & Hep & _ & Hus & K). destruct (Hus Hu) as [R1 _]. clear Hus K3.
  destruct K as [[_ K]|(m & buf' & _ & E1 & E2 & E3 & E4 & E')].
  { specialize (K msg Hu eq_refl Es). lia. }
  assert (Em : m = msg).
  { rewrite Es in E1. eapply dir_seal_inj; [exact HP|]. symmetry. exact E1. }
  subst m. cbn [cstep]. rewrite E'. rewrite (E4 eq_refl). unfold deliver. cbn [iov_data].
  assert (Et : takeN (lenN msg) buf' = msg) by (rewrite E3; apply takeN_app_exact). rewrite Et.
  unfold msg. rewrite scan_type_inner by discriminate. 
  change (ty_handshake =? kTls13Alert) with false. change (ty_handshake =? kTls13Handshake) with true. cbv iota.
  unfold bind at 1, lift at 1. change (cx_handler (set_in x h')) with (cx_handler x). rewrite Ep. cbn [obind].
  set (x1 := set_handler (set_in x h') h2). rewrite handle_result_inr.
  destruct (half_update_spec P lib (cx_in (set_phase x1 (cx_phase x1) (r_expecting r))) (dir_next din) [] HP R1) as (h3 & st & fs' & Eu & _ & Ho & _ & Hno).
  destruct (Hno eq_refl) as [-> ->]. destruct (Ho eq_refl) as [R3 Ee]. cbv zeta.
  unfold bind at 1. unfold bind at 1. rewrite Hk. unfold bind at 1. rewrite Eu. cbn [obind ret is_ok negb].
  set (x2 := set_in (set_phase x1 (cx_phase x1) (r_expecting r)) h3).
  assert (Eh : exists x3, handle_tail x2 r [] = Done ((x3, kOk), []) /\ cx_in x3 = h3 /\ cx_handler x3 = h2 /\ cx_close x3 = false).
  { unfold handle_tail. destruct (cx_phase x2); rewrite ?Ht; cbn [andb]; eexists; (split; [reflexivity|]); auto. }
  change (negb (is_ok kOk)) with false. cbv iota. destruct Eh as (x3 & -> & F1 & F2 & F3). change (negb (is_ok kOk)) with false. cbn [obind is_ok negb ret]. exists x3. eexists. split; [reflexivity|].
  rewrite F1. split; [rewrite Ee; cbn; rewrite Hep; reflexivity|]. auto.
Qed.

(* The handler after a KeyUpdate with an empty body. *)
Definition keeps_update (h : handler) : Prop :=
  hs_st h = READ_HEADER /\ hs_hdr h = 4 /\ hs_frags h = [[24; 0; 0; 0]].

Lemma empty_update : forall h o, hs_inv h o [] -> exists h' r,
  process_handshake_message h [24; 0; 0; 0] = Done (h', inr r) /\ r_key_update r = true /\ r_ticket r = false /\ keeps_update h'.
Proof.
  intros h o [Hp _]. inversion Hp as [b S1 S2 S3 S4 S5 S6|]; subst.
  assert (S7 : hs_frags h = []).
  { destruct (hs_frags h) as [|f l]; [reflexivity|]. inversion S3; subst. destruct f; [contradiction|discriminate]. }
  unfold process_handshake_message. cbn [length process_loop]. unfold read_step. rewrite S1, S5.
  change (4 - lenN []) with 4. change (4 <=? lenN [24; 0; 0; 0]) with true. cbv iota.
  rewrite store_header by exact S1. cbn [obind]. rewrite S7. cbn [app]. change (takeN 4 [24; 0; 0; 0]) with [24; 0; 0; 0].
  unfold get_data_size. cbn [with_frags hs_frags data_size_fragments]. cbn [obind].
  change (dropN 4 [24; 0; 0; 0]) with (@nil N). cbn. do 2 eexists. split; [reflexivity|]. repeat split.
Qed.

Lemma short_update : forall h q, keeps_update h -> 1 <= lenN q <= 3 -> exists h' r,
  process_handshake_message h q = Done (h', inr r) /\ r_key_update r = true /\ r_ticket r = false.
Proof.
  intros h q (S1 & S2 & S3) Hq. unfold process_handshake_message. destruct q as [|z q]; [cbn in Hq; lia|].
  cbn [length process_loop]. unfold read_step. rewrite S1, S2. replace (4 <=? lenN (z :: q)) with false by lia.
  rewrite store_header by exact S1. cbn [obind]. rewrite S3.
  assert (Hend : forall f' h0 a b, process_loop f' h0 [] a b = Done (h0, inr
     {| r_expecting := expecting_more h0; r_key_update := a; r_key_update_type := kInvalidKeyUpdateType;
        r_ticket := b; r_num := hs_num h0 |})) by (intros [|f'] h0 a b; reflexivity).
  unfold get_message_type. cbn [app with_frags with_pos hs_frags obind]. change (24 =? kKeyUpdateMessageType) with true. cbv iota.
  rewrite Hend. do 2 eexists. split; [reflexivity|]. split; reflexivity.
Qed.

Lemma key_twice : forall P lib a ops rs x r payload buf, connection P lib a ops rs x -> received P a ops rs r -> open_rx r -> r_part r = [] ->
  let msg := inner ty_handshake [24; 0; 0; 0] 0 in
  next_record P r msg payload -> lenN msg <= lenN buf ->
  exists x1 out1, cstep P lib x (CUnprotect (tls_header (lenN msg + 16)) payload buf) [] = Done (x1, CUnprotected S_OK 0 out1) /\
    hc_epoch (cx_in x1) = hc_epoch (cx_in x) + 1 /\
    forall q payload2 buf2, let msg2 := inner ty_handshake q 0 in let hdr2 := tls_header (lenN msg2 + 16) in
      bytes_ok q -> 1 <= lenN q <= 3 -> Forall iov_valid payload2 -> lenN msg2 <= lenN buf2 ->
      iov_concat payload2 = dir_seal P (dir_update P (dir_next (r_dir r))) hdr2 msg2 ->
      exists x2 out2, cstep P lib x1 (CUnprotect hdr2 payload2 buf2) [] = Done (x2, CUnprotected S_OK 0 out2) /\
        hc_epoch (cx_in x2) = hc_epoch (cx_in x1) + 1.
Proof.
  intros P lib a ops rs x r payload buf HC HR (Hc & Hu) Hp msg (Hv & Es) Hbuf. pose proof HC as (HP & Hi & Ho & Hok & HC').
  destruct (R_rel P lib a ops rs x HP Hi Ho Hok HC' r (proj1 HR) (proj2 HR)) as (dout & _ & Hinv & Hcl & _).
  destruct (ci_hs _ _ _ _ _ _ Hinv (proj1 Hu)) as (o & Hhs & _). rewrite Hp in Hhs.
  destruct (empty_update _ _ Hhs) as (h' & r1 & E1 & E2 & E3 & Hkeep).
  destruct (sealed_update P lib x (r_dir r) [24; 0; 0; 0] payload buf h' r1 HP (ci_in _ _ _ _ _ _ Hinv)) as (x1 & out1 & F1 & F2 & F3 & F4 & F5);
    auto; [congruence|repeat constructor|cbn; lia|].
  exists x1, out1. split; [exact F1|]. split; [exact F2|].
  intros q payload2 buf2 msg2 hdr2 Hb2 Hq Hv2 Hbuf2 Es2.
  destruct (short_update h' q Hkeep Hq) as (h2 & r2 & G1 & G2 & G3). rewrite <- F4 in G1.
  destruct (sealed_update P lib x1 _ q payload2 buf2 h2 r2 HP F3 F5) as (x2 & out2 & K1 & K2 & _); auto.
  - split; [exact (proj1 Hu)|reflexivity].
  - lia.
  - exists x2, out2. auto.
Qed.
