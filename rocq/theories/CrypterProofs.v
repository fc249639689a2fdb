(* Proofs about Crypter.v. *)
From Coq Require Import String List NArith ZArith Bool Lia ZifyBool ZifyNat ZifyN.
From Verif Require Import Base BaseProofs Aead SpecAead AeadProofs Hkdf HalfConn
  SpecTls HkdfProofs HalfProofs Options HsHandler SpecHs HsProofs Crypter SpecRecord.
Import ListNotations.
Local Open Scope N_scope.

Ltac Zify.zify_post_hook ::= Z.div_mod_to_equations.

Lemma record_header_spec : forall n, record_header n = tls_header n.
Proof. reflexivity. Qed.

Lemma lenN_tls_header : forall n, lenN (tls_header n) = 5.
Proof. reflexivity. Qed.

Lemma lenN_dir_seal : forall P d aad m, prims_ok P ->
  lenN (dir_seal P d aad m) = lenN m + 16.
Proof. intros; unfold dir_seal; apply lenN_seal; assumption. Qed.

Lemma lenN_inner : forall t c p, lenN (inner t c p) = lenN c + 1 + p.
Proof. intros; unfold inner; rewrite !lenN_app, lenN_zeros, lenN_cons, lenN_nil; lia. Qed.

Lemma lenN_tls_record : forall P d t c p, prims_ok P ->
  lenN (tls_record P d t c p) = lenN c + p + 22.
Proof.
  intros; unfold tls_record, tls_ciphertext.
  rewrite lenN_app, lenN_tls_header, lenN_dir_seal, lenN_inner by assumption. lia.
Qed.

Lemma record_overhead_spec : forall P x d, half_rel P (cx_in x) d ->
  record_overhead x = Done 22.
Proof.
  intros P x d R. unfold record_overhead. rewrite (half_tag_spec _ _ _ R). reflexivity.
Qed.

Lemma set_out_same : forall x, set_out x (cx_out x) = x.
Proof. destruct x; reflexivity. Qed.
Lemma set_in_same : forall x, set_in x (cx_in x) = x.
Proof. destruct x; reflexivity. Qed.

Lemma small_le : forall vs, sum_lens vs < 2147483648 -> Forall small_iov vs.
Proof.
  induction vs as [|v vs IH]; intros H; constructor; cbn [sum_lens] in H.
  - unfold small_iov; lia.
  - apply IH; lia.
Qed.

(* ------------------------------------------------------------------ *)
(* Protect *)

Definition fits (pt : list iovec) (buf : bytes) : Prop :=
  sum_lens pt <= 16384 /\ sum_lens pt + 22 <= lenN buf.

Lemma crypt_protect_spec : forall P x din dout t pt buf fs,
  prims_ok P -> half_rel P (cx_in x) din -> half_rel P (cx_out x) dout ->
  sum_lens pt < two64 ->
  exists h' st n buf' fs',
    crypt_protect P x t pt (IoBuf buf) fs =
      Done ((set_out x h', (st, n), IoBuf buf'), fs') /\
    lenN buf' = lenN buf /\ hc_epoch h' = hc_epoch (cx_out x) /\
    (~ fits pt buf -> h' = cx_out x /\ st = S_FAILED_PRECONDITION /\ n = 0 /\
       buf' = buf /\ fs' = fs) /\
    (fits pt buf ->
       (~ dir_usable dout -> h' = cx_out x /\ st = S_INTERNAL_ERROR /\ n = 0 /\
          buf' = zeros (lenN buf)) /\
       (dir_usable dout -> half_rel P h' (dir_next dout) /\
          hc_used h' = hc_used (cx_out x) ++
            [(hc_epoch (cx_out x), dir_nonce P dout)] /\
          (st = S_OK -> Forall iov_valid pt /\ n = sum_lens pt + 22 /\
             buf' = tls_record P dout (convert_record_type t) (iov_concat pt) 0
                      ++ dropN n buf) /\
          (st <> S_OK -> n = 0 /\ buf' = zeros (lenN buf) /\
             (st = S_INVALID_ARGUMENT \/ st = S_INTERNAL_ERROR)) /\
          (Forall iov_valid pt -> fs = [] -> st = S_OK /\ fs' = []))).
Proof.
  intros P x din dout t pt buf fs HP Rin Rout Hsz. unfold crypt_protect.
  rewrite total_len_sum by exact Hsz. cbn [iov_len].
  unfold kTlsMaxPlaintextSize.
  destruct (N.ltb_spec 16384 (sum_lens pt)) as [Hbig|Hbig].
  { exists (cx_out x). rewrite set_out_same.
    do 4 eexists; split; [reflexivity|]. unfold fits. repeat split; auto; lia. }
  rewrite (record_overhead_spec _ _ _ Rin). cbn [lift]. unfold lift, bind at 1.
  destruct (N.ltb_spec (lenN buf) (sum_lens pt + 22)) as [Hsm|Hsm].
  { exists (cx_out x). rewrite set_out_same.
    do 4 eexists; split; [reflexivity|]. unfold fits. repeat split; auto; lia. }
  rewrite (half_tag_spec _ _ _ Rout). unfold bind at 1.
  rewrite record_header_spec.
  set (pt1 := pt ++ [IoBuf [convert_record_type t]]).
  assert (Hs1 : sum_lens pt1 = sum_lens pt + 1).
  { unfold pt1; rewrite sum_lens_app; cbn. lia. }
  set (hdr := tls_header (sum_lens pt + 1 + 16)).
  assert (Hsmall : Forall small_iov pt1) by (apply small_le; lia).
  assert (Hsa : Forall small_iov [IoBuf hdr]).
  { constructor; [unfold small_iov; cbn; lia|constructor]. }
  set (tail := dropN kTlsRecordHeaderSize buf).
  destruct (half_encrypt_spec P (cx_out x) dout [IoBuf hdr] pt1 tail fs HP Rout Hsa Hsmall)
    as (h' & st & n & buf' & fs' & E & Hl & Hep & Hn & Hst & Hun & Hus).
  { rewrite Hs1; unfold two64; lia. }
  rewrite (bind_done _ _ _ _ _ _ _ E). cbn [iov_data].
  assert (Hlb : lenN (hdr ++ buf') = lenN buf).
  { rewrite lenN_app, Hl. unfold tail. rewrite lenN_dropN.
    change (lenN hdr) with 5. unfold kTlsRecordHeaderSize. lia. }
  exists h'.
  destruct (is_ok st) eqn:Eok; cbn [negb].
  - apply is_ok_true in Eok. do 4 eexists; split; [reflexivity|].
    split; [exact Hlb|]. split; [exact Hep|]. split; [unfold fits; lia|].
    intros _. split.
    { intros Hu. destruct (Hun Hu) as (_ & K & _). congruence. }
    intros Hu. destruct (Hus Hu) as (R' & U' & K1 & K2).
    split; [exact R'|]. split; [exact U'|].
    destruct (K1 Eok) as (_ & Hv & En & Hle & Eb).
    assert (Hv0 : Forall iov_valid pt).
    { unfold pt1 in Hv. apply Forall_app in Hv; tauto. }
    split; [|split; [intros K; contradiction|]].
    + intros _. split; [exact Hv0|]. unfold kTlsRecordHeaderSize in *.
      split; [lia|].
      rewrite Eb. unfold tls_record, tls_ciphertext.
      rewrite lenN_inner, <- (sum_lens_concat pt Hv0).
      replace (sum_lens pt + 1 + 0 + 16) with (sum_lens pt + 1 + 16) by lia.
      fold hdr. rewrite <- app_assoc. f_equal. f_equal.
      * unfold pt1. rewrite iov_concat_app. reflexivity.
      * unfold tail. rewrite dropN_dropN. f_equal. lia.
    + intros _ Efs. split; [reflexivity|]. apply K2; auto.
      * repeat constructor.
      * unfold tail; rewrite Hs1, lenN_dropN; unfold kTlsRecordHeaderSize; lia.
  - apply is_ok_false in Eok. unfold lift. cbn [zero_out].
    unfold bind. do 4 eexists; split; [reflexivity|].
    rewrite Hlb. split; [apply lenN_zeros|]. split; [exact Hep|].
    split; [unfold fits; lia|]. intros _.
    assert (Hconv : convert_code st = S_INVALID_ARGUMENT \/ convert_code st = S_INTERNAL_ERROR).
    { destruct Hst as [-> | [-> | ->]]; [contradiction|left|right]; reflexivity. }
    split.
    { intros Hu. destruct (Hun Hu) as (-> & -> & _). auto. }
    intros Hu. destruct (Hus Hu) as (R' & U' & K1 & K2).
    split; [exact R'|]. split; [exact U'|]. split.
    { intros K; rewrite K in Hconv; destruct Hconv; discriminate. }
    split; [auto|].
    intros Hv Efs. exfalso. apply Eok. apply K2; auto.
    + repeat constructor.
    + unfold pt1. apply Forall_app; split; [exact Hv|repeat constructor].
    + unfold tail; rewrite Hs1, lenN_dropN; unfold kTlsRecordHeaderSize; lia.
Qed.

(* ------------------------------------------------------------------ *)
(* Unprotect *)

Lemma scan_type_none : forall m, scan_type (rev m) = None <-> m = zeros (lenN m).
Proof.
  intros m. rewrite <- (rev_involutive m) at 2 3. rewrite lenN_rev.
  set (r := rev m). clearbody r. clear m.
  assert (H : scan_type r = None <-> r = zeros (lenN r)).
  { induction r as [|b r IH]; [split; reflexivity|]. cbn [scan_type].
    replace (zeros (lenN (b :: r))) with (0 :: zeros (lenN r)).
    2:{ unfold zeros. rewrite lenN_cons. replace (N.to_nat (1 + lenN r)) with (S (N.to_nat (lenN r))) by lia.
        reflexivity. }
    destruct (N.eqb_spec b 0) as [->|Hb].
    - rewrite IH. split; [intros ->|intros E; inversion E; subst]; try congruence.
      rewrite lenN_zeros. reflexivity.
    - split; [discriminate|]. intros E; inversion E; congruence. }
  rewrite H. unfold zeros.
  assert (Hr : forall n, rev (repeat 0 n) = repeat 0 n).
  { induction n; [reflexivity|]. cbn. rewrite IHn. rewrite repeat_cons. reflexivity. }
  split; intros E.
  - rewrite E at 1. apply Hr.
  - rewrite <- (rev_involutive r), E at 1. apply Hr.
Qed.

Lemma scan_type_some : forall m ty content, scan_type (rev m) = Some (ty, content) ->
  ty <> 0 /\ exists pad, m = inner ty content pad.
Proof.
  intros m ty content H. rewrite <- (rev_involutive m).
  set (r := rev m) in *. clearbody r. clear m.
  revert ty content H. induction r as [|b r IH]; intros ty content H; [discriminate|].
  cbn [scan_type] in H. destruct (N.eqb_spec b 0) as [->|Hb].
  - destruct (IH _ _ H) as (Ht & pad & E). split; [exact Ht|]. exists (pad + 1).
    cbn [rev]. rewrite E. unfold inner, zeros. rewrite <- !app_assoc. f_equal. f_equal.
    replace (N.to_nat (pad + 1)) with (S (N.to_nat pad)) by lia.
    cbn [repeat]. rewrite repeat_cons. reflexivity.
  - inversion H; subst. split; [exact Hb|]. exists 0. cbn [rev]. reflexivity.
Qed.

Lemma scan_type_inner : forall ty content pad, ty <> 0 ->
  scan_type (rev (inner ty content pad)) = Some (ty, content).
Proof.
  intros ty content pad Ht. unfold inner. rewrite !rev_app_distr.
  unfold zeros. induction (N.to_nat pad) as [|k IH].
  - cbn. destruct (N.eqb_spec ty 0); [contradiction|]. rewrite rev_involutive. reflexivity.
  - cbn [repeat]. rewrite repeat_cons, rev_app_distr. cbn. exact IH.
Qed.

(* What Unprotect does with a decrypted record of [n] bytes: the part of the
   function after the call of Decrypt. *)
Definition deliver (P : prims) (lib : ssl_lib) (x : crypt) (n : N)
  (plaintext : iovec) : M (crypt * sstatus * iovec) :=
  match scan_type (rev (takeN n (iov_data plaintext))) with
  | None => ret (x, (S_INVALID_RECORD, 0), plaintext)
  | Some (ty, content) =>
    if ty =? kTls13Alert then
      match content with
      | _ :: description :: _ =>
        plaintext <- lift (zero_out plaintext) ;;
        if description =? kTlsAlertCloseNotify
        then ret (set_close x, (S_ALERT_CLOSE_NOTIFY, 0), plaintext)
        else ret (x, (S_ALERT_OTHER, 0), plaintext)
      | _ =>
        plaintext <- lift (zero_out plaintext) ;;
        ret (x, (S_INVALID_RECORD, 0), plaintext)
      end
    else if ty =? kTls13Handshake then
      '(h, r) <- lift (process_handshake_message (cx_handler x) content) ;;
      '(x, st) <- handle_result P lib (set_handler x h) r ;;
      if negb (is_ok st) then ret (x, (S_INTERNAL_ERROR, 0), plaintext)
      else ret (x, (S_OK, 0), plaintext)
    else if ty =? kTls13ApplicationData then
      if cx_expecting x then ret (x, (S_INVALID_RECORD, 0), plaintext) else
      x <- lift (match cx_phase x with
                 | RECEIVING =>
                   obind (send_tickets x) (fun x =>
                     Done (set_phase x DONE (cx_expecting x)))
                 | _ => Done x
                 end) ;;
      ret (x, (S_OK, lenN content), plaintext)
    else
      plaintext <- lift (zero_out plaintext) ;;
      ret (x, (S_INVALID_RECORD, 0), plaintext)
  end.

Lemma validate_header_spec : forall hdr n, n < 65536 ->
  validate_header (IoBuf hdr) (5 + n) = true -> bytes_ok hdr -> hdr = tls_header n.
Proof.
  intros hdr n Hn H Hb.
  destruct hdr as [|a [|b [|c [|d [|e [|f r]]]]]]; try discriminate.
  cbn [validate_header] in H. unfold kTls12ApplicationData, kTls12WireVersion, kTlsRecordHeaderSize in H.
  assert (a = 23 /\ b = 3 /\ c = 3 /\ n = d * 256 + e) as (-> & -> & -> & ->) by lia.
  assert (He : byte_ok e /\ byte_ok d).
  { unfold bytes_ok in Hb. rewrite Forall_forall in Hb. split; apply Hb; cbn; tauto. }
  unfold byte_ok in He. unfold tls_header. cbn [be_bytes app].
  replace ((d * 256 + e) mod 256) with e by lia.
  replace ((d * 256 + e) / 256 mod 256) with d by lia. reflexivity.
Qed.

Lemma validate_header_ok : forall n, n < 65536 ->
  validate_header (IoBuf (tls_header n)) (5 + n) = true.
Proof.
  intros n Hn. cbn [validate_header tls_header be_bytes app].
  unfold kTls12ApplicationData, kTls12WireVersion, kTlsRecordHeaderSize. lia.
Qed.

Lemma dir_seal_bytes : forall P d aad m, prims_ok P ->
  bytes_ok (dir_seal P d aad m) -> bytes_ok m.
Proof.
  intros P d aad m HP H. unfold dir_seal, seal in H. apply bytes_ok_app in H.
  destruct H as [H _].
  rewrite <- (stream_involutive P (spec_alg (d_suite d))
    (traffic_key P (d_suite d) (d_secret d))
    (record_nonce (traffic_iv P (d_suite d) (d_secret d)) (d_seq d)) m).
  unfold stream at 1. apply bytes_ok_xor; [exact H|].
  apply Forall_forall. intros y Hy. apply in_map_iff in Hy. destruct Hy as (i & <- & _).
  apply (ks_byte P HP).
Qed.

(* Unprotect up to delivery. *)
Lemma crypt_unprotect_spec : forall P lib x din hdr payload buf fs,
  prims_ok P -> half_rel P (cx_in x) din ->
  bytes_ok hdr -> Forall iov_valid payload -> lenN hdr + sum_lens payload < two64 ->
  (cx_close x = true ->
     crypt_unprotect P lib x (IoBuf hdr) payload (IoBuf buf) fs =
       Done ((x, (S_ALERT_CLOSE_NOTIFY, 0), IoBuf buf), fs)) /\
  (cx_close x = false -> ~ well_formed hdr (sum_lens payload) ->
     crypt_unprotect P lib x (IoBuf hdr) payload (IoBuf buf) fs =
       Done ((x, (if 22 + 16384 <? lenN hdr + sum_lens payload
                  then S_ALERT_RECORD_OVERFLOW else S_FAILED_PRECONDITION, 0),
              IoBuf buf), fs)) /\
  (cx_close x = false -> well_formed hdr (sum_lens payload) ->
   exists h' fs1, hc_epoch h' = hc_epoch (cx_in x) /\
     (~ dir_usable din -> h' = cx_in x /\ fs1 = fs) /\
     (dir_usable din -> half_rel P h' (dir_next din) /\
        hc_used h' = hc_used (cx_in x) ++ [(hc_epoch (cx_in x), dir_nonce P din)]) /\
     ((crypt_unprotect P lib x (IoBuf hdr) payload (IoBuf buf) fs =
         Done ((set_in x h', (S_INTERNAL_ERROR, 0), IoBuf (zeros (lenN buf))), fs1) /\
       (forall msg, dir_usable din -> fs = [] -> iov_concat payload = dir_seal P din hdr msg ->
          lenN buf < lenN msg))
      \/
      (exists msg buf', dir_usable din /\
         iov_concat payload = dir_seal P din hdr msg /\ lenN msg <= lenN buf /\
         buf' = msg ++ dropN (lenN msg) buf /\ (fs = [] -> fs1 = []) /\
         crypt_unprotect P lib x (IoBuf hdr) payload (IoBuf buf) fs =
           deliver P lib (set_in x h') (lenN msg) (IoBuf buf') fs1))).
Proof.
  intros P lib x din hdr payload buf fs HP Rin Hbh Hv Hsz.
  assert (Htl : total_len payload = sum_lens payload) by (apply total_len_sum; lia).
  split; [intros Hc; unfold crypt_unprotect; rewrite Hc; reflexivity|].
  split.
  - intros Hc Hwf. unfold crypt_unprotect.
    cbn [iov_len]. rewrite Htl, wrap64_small by exact Hsz.
    rewrite (record_overhead_spec _ _ _ Rin), Hc. unfold lift, bind at 1.
    unfold kTlsMaxPlaintextSize.
    destruct (N.ltb_spec (lenN hdr + sum_lens payload) 22) as [H1|H1].
    { replace (22 + 16384 <? lenN hdr + sum_lens payload) with false by lia. reflexivity. }
    destruct (N.ltb_spec (22 + 16384) (lenN hdr + sum_lens payload)) as [H2|H2]; [reflexivity|].
    destruct (validate_header (IoBuf hdr) (lenN hdr + sum_lens payload)) eqn:Ev; [|reflexivity].
    exfalso. assert (Hl5 : lenN hdr = 5).
    { destruct hdr as [|a [|b [|c [|d [|e [|f r]]]]]]; try discriminate. reflexivity. }
    rewrite Hl5 in *. apply Hwf. split; [|lia].
    apply validate_header_spec; auto. lia.
  - intros Hc [Eh Hlen].
    assert (Hl5 : lenN hdr = 5) by (rewrite Eh; apply lenN_tls_header).
    assert (Hsa : Forall small_iov [IoBuf hdr]).
    { constructor; [unfold small_iov; cbn [iov_len]; lia|constructor]. }
    assert (Hsp : Forall small_iov payload) by (apply small_le; lia).
    destruct (half_decrypt_spec P (cx_in x) din [IoBuf hdr] payload buf fs HP Rin Hsa Hsp Hv)
      as (h' & st & n & buf' & fs' & E & Hl & Hep & Hn & Hst & Hun & Hus); [lia|].
    assert (Heq : crypt_unprotect P lib x (IoBuf hdr) payload (IoBuf buf) fs =
      if is_ok st then deliver P lib (set_in x h') n (IoBuf buf') fs'
      else Done ((set_in x h', (S_INTERNAL_ERROR, 0), IoBuf (zeros (lenN buf))), fs')).
    { unfold crypt_unprotect. cbn [iov_len].
      rewrite Htl, wrap64_small by exact Hsz.
      rewrite (record_overhead_spec _ _ _ Rin), Hc. unfold lift at 1, bind at 1.
      unfold kTlsMaxPlaintextSize. rewrite Hl5.
      destruct (N.ltb_spec (5 + sum_lens payload) 22) as [H1|H1]; [lia|].
      destruct (N.ltb_spec (22 + 16384) (5 + sum_lens payload)) as [H2|H2]; [lia|].
      assert (Hvh : validate_header (IoBuf hdr) (5 + sum_lens payload) = true)
        by (rewrite Eh; apply validate_header_ok; lia).
      rewrite Hvh. cbn [negb].
      rewrite (bind_done _ _ _ _ _ _ _ E).
      destruct (is_ok st); cbn [negb]; [reflexivity|].
      rewrite <- Hl. reflexivity. }
    rewrite Heq. exists h', fs'. split; [exact Hep|].
    split; [intros Hu; destruct (Hun Hu) as (? & _ & _ & ?); auto|].
    split; [intros Hu; destruct (Hus Hu) as (? & ? & _); auto|].
    destruct (is_ok st) eqn:Eok.
    + right. apply is_ok_true in Eok.
      destruct (dir_usable_dec din) as [Hu|Hu].
      2:{ destruct (Hun Hu) as (_ & K & _); congruence. }
      destruct (Hus Hu) as (_ & _ & K & _ & Kc). destruct (K Eok) as (_ & msg & E1 & E2 & E3 & E4).
      exists msg, buf'. split; [exact Hu|].
      split; [rewrite E1; cbn; rewrite app_nil_r; reflexivity|].
      subst n. split; [exact E3|]. split; [exact E4|]. split.
      * intros Efs. eapply Kc; eauto. repeat constructor.
      * reflexivity.
    + left. apply is_ok_false in Eok.
      split; [reflexivity|].
      intros msg Hu Efs Es. destruct (N.lt_ge_cases (lenN buf) (lenN msg)) as [?|Hge]; [assumption|].
      exfalso. destruct (Hus Hu) as (_ & _ & _ & _ & Kc). apply Eok.
      apply (Kc msg); auto; [repeat constructor|].
      rewrite Es. cbn. rewrite app_nil_r. reflexivity.
Qed.

(* ------------------------------------------------------------------ *)
(* Invariant of the receiving side: [ms] are the complete handshake messages
   received so far, [buf] the bytes of the one being received. *)

Definition the_send (x : crypt) (ts : list bytes) (ch : bool) : ticket_send :=
  {| ts_url := cx_url x; ts_connection_id := cx_connection_id x;
     ts_identity := cx_identity x; ts_tickets := ts; ts_channel := ch |}.

Definition sent_ok (x : crypt) (ms : list bytes) : Prop :=
  cx_sent x = [] \/
  exists ms0 ms1 ch, ms = ms0 ++ ms1 /\ filter is_ticket ms0 <> [] /\
    cx_sent x = [the_send x (firstn 5 (filter is_ticket ms0)) ch].

Definition tickets_rel (x : crypt) (ms : list bytes) (buf : bytes) : Prop :=
  exists o, hs_inv (cx_handler x) o buf /\
  match cx_phase x with
  | NOT_RECEIVED =>
    o = Some [] /\ filter is_ticket ms = [] /\ is_ticket buf = false /\
    cx_sent x = [] /\ cx_expecting x = negb (empty buf)
  | RECEIVING =>
    o = Some (filter is_ticket ms) /\ (length (filter is_ticket ms) < 5)%nat /\
    cx_sent x = [] /\ cx_expecting x = negb (empty buf) /\
    existsb is_ticket (ms ++ [buf]) = true
  | DONE =>
    (cx_expecting x = negb (empty buf) \/
     (cx_expecting x = false /\ (5 <= length (filter is_ticket ms))%nat)) /\
    ((o = None /\ cx_sent x <> []) \/
     (o = Some (firstn 5 (filter is_ticket ms)) /\ cx_sent x = [] /\
      (5 <= length (filter is_ticket ms))%nat /\
      (6 <= length (filter is_ticket (ms ++ [buf])))%nat))
  end.

Record cx_inv (P : prims) (x : crypt) (din dout : dir) (ms : list bytes)
  (buf : bytes) : Prop := {
  ci_in : half_rel P (cx_in x) din;
  ci_out : half_rel P (cx_out x) dout;
  ci_msgs : Forall hs_msg ms;
  ci_known : Forall known ms;
  ci_buf : buf <> [] -> known buf;
  ci_sent : sent_ok x ms;
  ci_hs : d_broken din = false -> tickets_rel x ms buf
}.

(* What one call may do to the ticket sender: nothing, or the first invocation
   with the first five tickets among [ms]. *)
Definition send_step (x x' : crypt) (ms : list bytes) (buf : bytes) : Prop :=
  (cx_sent x' = cx_sent x \/
   (cx_sent x = [] /\ exists ch, cx_sent x' = [the_send x' (firstn 5 (filter is_ticket ms)) ch])) /\
  (cx_phase x <> DONE -> cx_phase x' = DONE -> is_ticket buf = false -> cx_sent x' <> []).

Lemma send_step_refl : forall x x' ms buf, cx_sent x' = cx_sent x -> cx_phase x' = cx_phase x ->
  send_step x x' ms buf.
Proof. intros x x' ms buf E1 E2. split; [left; exact E1|congruence]. Qed.

Lemma sent_ok_ext : forall x x' ms ms1,
  cx_sent x' = cx_sent x -> cx_url x' = cx_url x ->
  cx_connection_id x' = cx_connection_id x -> cx_identity x' = cx_identity x ->
  sent_ok x ms -> sent_ok x' (ms ++ ms1).
Proof.
  intros x x' ms ms1 E1 E2 E3 E4 [H|(a & b & ch & -> & Hne & H)].
  - left; congruence.
  - right. exists a, (b ++ ms1), ch. rewrite app_assoc. split; [reflexivity|].
    split; [exact Hne|]. rewrite E1, H. unfold the_send. rewrite E2, E3, E4. reflexivity.
Qed.

Lemma set_handler_same : forall x, set_handler x (cx_handler x) = x.
Proof. destruct x; reflexivity. Qed.

Lemma send_tickets_spec : forall x l buf, hs_inv (cx_handler x) (Some l) buf ->
  if is_ticket buf then send_tickets x = Done x
  else exists h', send_tickets x = Done (add_sent x h' (the_send x l (cx_channel x))) /\
         hs_inv h' None buf.
Proof.
  intros x l buf H. pose proof (get_stored_tickets_spec _ _ _ H) as K. cbn in K.
  unfold send_tickets. destruct (is_ticket buf).
  - rewrite K. cbn [obind]. rewrite set_handler_same. reflexivity.
  - destruct K as (h' & ts & -> & <- & Hinv). cbn [obind]. exists h'. auto.
Qed.

(* Same frame: everything but the inbound side is untouched. *)
Record same_frame (x x' : crypt) : Prop := {
  sf_out : cx_out x' = cx_out x;
  sf_url : cx_url x' = cx_url x;
  sf_cid : cx_connection_id x' = cx_connection_id x;
  sf_id : cx_identity x' = cx_identity x
}.

Lemma same_frame_refl : forall x, same_frame x x.
Proof. constructor; reflexivity. Qed.
Lemma same_frame_trans : forall x y z, same_frame x y -> same_frame y z -> same_frame x z.
Proof. intros x y z [] []; constructor; congruence. Qed.
Lemma same_frame_send : forall x x', send_tickets x = Done x' -> same_frame x x' /\
  cx_in x' = cx_in x /\ cx_close x' = cx_close x /\ cx_phase x' = cx_phase x /\
  cx_expecting x' = cx_expecting x.
Proof.
  intros x x' H. unfold send_tickets in H.
  destruct (get_stored_tickets (cx_handler x)) as [[h [c|ts]]|u|]; cbn in H; inversion H; subst.
  - repeat split.
  - repeat split.
Qed.

Lemma filter_existsb : forall (f : bytes -> bool) l, existsb f l = true -> filter f l <> [].
Proof.
  intros f l H. apply existsb_exists in H. destruct H as (y & Hy & Hf). intro E.
  assert (In y (filter f l)) by (apply filter_In; auto). rewrite E in *. contradiction.
Qed.

Lemma filter_length_app : forall (f : bytes -> bool) a b,
  length (filter f (a ++ b)) = (length (filter f a) + length (filter f b))%nat.
Proof. intros; rewrite filter_app, app_length; reflexivity. Qed.

Lemma step_num : forall h l buf, hs_inv h (Some l) buf -> hs_num h = lenN l.
Proof. intros h l buf [_ (ts & _ & _ & -> & _)]; reflexivity. Qed.
Lemma step_num_none : forall h buf, hs_inv h None buf -> hs_num h = 0.
Proof. intros h buf [_ (_ & -> & _)]; reflexivity. Qed.

Definition key_updates (content : bytes) (ms1 : list bytes) (buf1 : bytes) : bool :=
  negb (empty content) && existsb is_key_update (ms1 ++ [buf1]).

(* The tail of handle_result, after the key update. *)
Definition handle_tail (x : crypt) (r : hs_result) : M (crypt * code) :=
  match cx_phase x with
  | DONE => ret (x, kOk)
  | p =>
    let x := match p with
             | NOT_RECEIVED =>
               if r_ticket r then set_phase x RECEIVING (cx_expecting x)
               else x
             | _ => x
             end in
    if r_ticket r && (kMaxNumTicketsToProcess <=? r_num r) then
      x <- lift (send_tickets x) ;;
      ret (set_phase x DONE false, kOk)
    else ret (x, kOk)
  end.

Lemma handle_result_inr : forall P lib x r,
  handle_result P lib x (inr r) =
  (let x := set_phase x (cx_phase x) (r_expecting r) in
    '(x, failed) <-
      (if r_key_update r then
         '(h, st) <- half_update_key P lib (cx_in x) ;;
         ret (set_in x h, negb (is_ok st))
       else ret (x, false)) ;;
    if (failed : bool) then ret (x, kInternal) else handle_tail x r).
Proof. reflexivity. Qed.

Lemma existsb_false_filter : forall (f : bytes -> bool) l, existsb f l = false -> filter f l = [].
Proof.
  induction l as [|a l IH]; cbn; [reflexivity|]. destruct (f a); cbn; [discriminate|]. exact IH.
Qed.

Lemma existsb_tail : forall (f : bytes -> bool) a b c, existsb f (b ++ c) = true ->
  existsb f ((a ++ b) ++ c) = true.
Proof. intros f a b c H. rewrite <- app_assoc, existsb_app, H. apply orb_true_r. Qed.

Lemma handle_tail_spec : forall x x0 ms buf content ms1 buf1 r fs o1,
  (* x0: the state before the record; x: after processing the messages *)
  tickets_rel x0 ms buf -> sent_ok x0 ms ->
  cx_phase x = cx_phase x0 -> cx_sent x = cx_sent x0 ->
  cx_url x = cx_url x0 -> cx_connection_id x = cx_connection_id x0 ->
  cx_identity x = cx_identity x0 ->
  buf ++ content = concat ms1 ++ buf1 ->
  (forall o, hs_inv (cx_handler x0) o buf -> o1 = store_all o ms1) ->
  hs_inv (cx_handler x) o1 buf1 ->
  Forall hs_msg ms1 ->
  cx_expecting x = negb (empty buf1) ->
  r_ticket r = (negb (empty content) && existsb is_ticket (ms1 ++ [buf1])) ->
  r_num r = hs_num (cx_handler x) ->
  exists x', handle_tail x r fs = Done ((x', kOk), fs) /\
    same_frame x x' /\ cx_in x' = cx_in x /\ cx_close x' = cx_close x /\
    tickets_rel x' (ms ++ ms1) buf1 /\ sent_ok x' (ms ++ ms1) /\ send_step x x' (ms ++ ms1) buf1.
Proof.
  intros x x0 ms buf content ms1 buf1 r fs o1 (o & Hinv0 & Hph) Hsent Eph Esent Eurl Ecid Eid
    Estream Ho1 Hinv1 Hm1 Hexp Hrt Hrn.
  assert (Hso : sent_ok x (ms ++ ms1)) by (eapply sent_ok_ext; [..|exact Hsent]; assumption).
  assert (Hss : forall y, cx_sent y = cx_sent x ->
    (cx_phase y = DONE -> is_ticket buf1 = false -> cx_phase x = DONE) ->
    send_step x y (ms ++ ms1) buf1) by (intros y E K; split; [left; exact E|intros A B C; destruct (A (K B C))]).
  specialize (Ho1 o Hinv0). unfold handle_tail. rewrite Eph.
  assert (Hpart : hs_partial buf) by (eapply pos_partial; apply Hinv0).
  (* with no bytes nothing changes *)
  assert (Hempty : content = [] -> ms1 = [] /\ buf1 = buf).
  { intros ->. rewrite app_nil_r in Estream. apply partial_no_msg; auto. }
  destruct (cx_phase x0) eqn:Ep0.
  - (* NOT_RECEIVED *)
    destruct Hph as (-> & Hf & Hb & Hs0 & He).
    rewrite store_all_firstn in Ho1. subst o1.
    destruct (r_ticket r) eqn:Er; cbn [andb].
    + symmetry in Hrt. apply andb_prop in Hrt. destruct Hrt as [_ Hex].
      rewrite Hrn, (step_num _ _ _ Hinv1). unfold kMaxNumTicketsToProcess, lenN.
      rewrite firstn_length.
      destruct (N.leb_spec 5 (N.of_nat (Nat.min 5 (length (filter is_ticket ms1))))) as [H5|H5].
      * set (xr := set_phase x RECEIVING (cx_expecting x)).
        pose proof (send_tickets_spec xr _ _ Hinv1) as Hst.
        destruct (is_ticket buf1) eqn:Eb1.
        -- rewrite Hst. unfold lift, bind, ret. eexists; split; [reflexivity|].
           split; [constructor; reflexivity|]. split; [reflexivity|]. split; [reflexivity|].
           split; [|split; [exact Hso|apply Hss; [reflexivity|cbn [set_phase cx_phase]; congruence]]].
           eexists; split; [exact Hinv1|]. cbn [set_phase cx_phase cx_expecting cx_sent xr].
           rewrite !filter_app, Hf. cbn [app].
           split; [right; split; [reflexivity|lia]|].
           right. split; [reflexivity|]. split; [congruence|]. split; [lia|].
           rewrite app_length. cbn [filter]. rewrite Eb1. cbn [length]. lia.
        -- destruct Hst as (h' & Est & Hinv'). rewrite Est. unfold lift, bind, ret.
           eexists; split; [reflexivity|].
           split; [constructor; reflexivity|]. split; [reflexivity|]. split; [reflexivity|].
           split.
           ++ exists None. split; [exact Hinv'|]. cbn [set_phase add_sent cx_phase cx_expecting cx_sent].
              split; [right; split; [reflexivity|]; rewrite filter_length_app; lia|].
              left. split; [reflexivity|]. intro K. apply app_eq_nil in K. destruct K; discriminate.
           ++ assert (Hnew : cx_sent (set_phase (add_sent xr h' (the_send xr (firstn 5 (filter is_ticket ms1)) (cx_channel xr))) DONE false)
                 = [the_send x (firstn 5 (filter is_ticket (ms ++ ms1))) (cx_channel x)]).
              { cbn [set_phase add_sent cx_sent xr]. rewrite Esent, Hs0, filter_app, Hf. reflexivity. }
              split; [|split; [right; split; [congruence|eexists; exact Hnew]|intros _ _ _; rewrite Hnew; discriminate]].
              right. exists (ms ++ ms1), [], (cx_channel x). rewrite app_nil_r.
              split; [reflexivity|].
              split; [|exact Hnew].
              rewrite filter_app, Hf. cbn [app].
              intro K; rewrite K in H5; cbn in H5; lia.
      * eexists; split; [reflexivity|]. split; [constructor; reflexivity|].
        split; [reflexivity|]. split; [reflexivity|]. split; [|split; [exact Hso|apply Hss; [reflexivity|cbn [set_phase cx_phase]; congruence]]].
        eexists; split; [exact Hinv1|]. cbn [set_phase cx_phase cx_expecting cx_sent].
        rewrite filter_app, Hf. cbn [app].
        assert (Hlt : (length (filter is_ticket ms1) < 5)%nat) by lia.
        split; [rewrite firstn_all2 by lia; reflexivity|]. split; [exact Hlt|].
        split; [congruence|]. split; [exact Hexp|].
        exact (existsb_tail _ _ _ _ Hex).
    + eexists; split; [reflexivity|]. split; [apply same_frame_refl|].
      split; [reflexivity|]. split; [reflexivity|]. split; [|split; [exact Hso|apply Hss; [reflexivity|cbn [set_phase cx_phase]; congruence]]].
      assert (Hno : existsb is_ticket (ms1 ++ [buf1]) = false).
      { destruct content as [|z content0].
        - destruct (Hempty eq_refl) as [-> ->]. cbn. rewrite Hb. reflexivity.
        - cbn in Hrt. symmetry. exact Hrt. }
      rewrite existsb_app in Hno. apply orb_false_elim in Hno. destruct Hno as [Hno1 Hno2].
      cbn in Hno2. rewrite orb_false_r in Hno2.
      apply existsb_false_filter in Hno1. rewrite Hno1 in Hinv1.
      exists (Some []). split; [exact Hinv1|]. rewrite Eph.
      rewrite filter_app, Hf, Hno1. repeat split; auto. congruence.
  - (* RECEIVING *)
    destruct Hph as (-> & Hlt & Hs0 & He & Hex0).
    assert (Eo1 : o1 = Some (firstn 5 (filter is_ticket (ms ++ ms1)))).
    { rewrite Ho1, <- store_all_firstn, store_all_app, store_all_firstn.
      rewrite firstn_all2 by lia. reflexivity. }
    subst o1. rewrite Eo1 in *.
    assert (Hex1 : existsb is_ticket (ms ++ ms1 ++ [buf1]) = true).
    { rewrite existsb_app in Hex0. rewrite existsb_app. apply orb_prop in Hex0.
      destruct Hex0 as [->|Hb]; [reflexivity|]. cbn in Hb. rewrite orb_false_r in Hb.
      destruct buf as [|b0 buf0]; [discriminate|].
      assert (existsb is_ticket (ms1 ++ [buf1]) = true) as ->; [|apply orb_true_r].
      eapply (first_type 4 (b0 :: buf0) content); eauto. discriminate. }
    destruct (r_ticket r && (kMaxNumTicketsToProcess <=? r_num r)) eqn:Er.
    + apply andb_prop in Er. destruct Er as [Er1 Er2].
      rewrite Hrn, (step_num _ _ _ Hinv1) in Er2. unfold kMaxNumTicketsToProcess, lenN in Er2.
      rewrite firstn_length in Er2.
      assert (H5 : (5 <= length (filter is_ticket (ms ++ ms1)))%nat) by lia.
      pose proof (send_tickets_spec x _ _ Hinv1) as Hst.
      destruct (is_ticket buf1) eqn:Eb1.
      * rewrite Hst. unfold lift, bind, ret. eexists; split; [reflexivity|].
        split; [constructor; reflexivity|]. split; [reflexivity|]. split; [reflexivity|].
        split; [|split; [exact Hso|apply Hss; [reflexivity|cbn [set_phase cx_phase]; congruence]]].
        eexists; split; [exact Hinv1|]. cbn [set_phase cx_phase cx_expecting cx_sent].
        split; [right; split; [reflexivity|lia]|].
        right. split; [reflexivity|]. split; [congruence|]. split; [lia|].
        rewrite (filter_length_app _ (ms ++ ms1)). cbn [filter]. rewrite Eb1. cbn [length]. lia.
      * destruct Hst as (h' & Est & Hinv'). rewrite Est. unfold lift, bind, ret.
        eexists; split; [reflexivity|].
        split; [constructor; reflexivity|]. split; [reflexivity|]. split; [reflexivity|].
        split.
        -- exists None. split; [exact Hinv'|]. cbn [set_phase add_sent cx_phase cx_expecting cx_sent].
           split; [right; split; [reflexivity|lia]|].
           left. split; [reflexivity|]. intro K. apply app_eq_nil in K. destruct K; discriminate.
        -- assert (Hnew : cx_sent (set_phase (add_sent x h' (the_send x (firstn 5 (filter is_ticket (ms ++ ms1))) (cx_channel x))) DONE false)
                 = [the_send x (firstn 5 (filter is_ticket (ms ++ ms1))) (cx_channel x)]).
           { cbn [set_phase add_sent cx_sent]. rewrite Esent, Hs0. reflexivity. }
           split; [|split; [right; split; [congruence|eexists; exact Hnew]|intros _ _ _; rewrite Hnew; discriminate]].
           right. exists (ms ++ ms1), [], (cx_channel x). rewrite app_nil_r.
           split; [reflexivity|].
           split; [intro K; rewrite K in H5; cbn in H5; lia|]. exact Hnew.
    + eexists; split; [reflexivity|]. split; [apply same_frame_refl|].
      split; [reflexivity|]. split; [reflexivity|]. split; [|split; [exact Hso|apply Hss; [reflexivity|cbn [set_phase cx_phase]; congruence]]].
      eexists; split; [exact Hinv1|]. rewrite Eph.
      assert (Hlt1 : (length (filter is_ticket (ms ++ ms1)) < 5)%nat).
      { rewrite Hrn, (step_num _ _ _ Hinv1) in Er. unfold kMaxNumTicketsToProcess, lenN in Er.
        rewrite firstn_length in Er. rewrite Hrt in Er.
        destruct (Nat.lt_ge_cases (length (filter is_ticket (ms ++ ms1))) 5) as [?|Hge]; [assumption|].
        exfalso. rewrite filter_length_app in Hge.
        destruct content as [|z content0].
        - destruct (Hempty eq_refl) as [-> ->]. cbn in Hge. lia.
        - cbn [empty negb andb] in Er.
          assert (Hne : filter is_ticket ms1 <> []) by (intro K; rewrite K in Hge; cbn in Hge; lia).
          assert (Hex : existsb is_ticket (ms1 ++ [buf1]) = true).
          { destruct (existsb is_ticket (ms1 ++ [buf1])) eqn:Eq; [reflexivity|].
            rewrite existsb_app in Eq. apply orb_false_elim in Eq. destruct Eq as [Eq _].
            apply existsb_false_filter in Eq. contradiction. }
          rewrite Hex in Er. rewrite filter_length_app in Er. lia. }
      split; [rewrite firstn_all2 by lia; reflexivity|]. split; [exact Hlt1|].
      split; [congruence|]. split; [exact Hexp|].
      rewrite <- app_assoc. exact Hex1.
  - (* DONE *)
    destruct Hph as [He Hs].
    eexists; split; [reflexivity|]. split; [apply same_frame_refl|].
    split; [reflexivity|]. split; [reflexivity|]. split; [|split; [exact Hso|apply Hss; [reflexivity|cbn [set_phase cx_phase]; congruence]]].
    exists o1. split; [exact Hinv1|]. rewrite Eph. split; [left; exact Hexp|].
    rewrite Esent. destruct Hs as [[-> Hs]|(-> & Hs & H5 & H6)].
    + left. rewrite store_all_none in Ho1. auto.
    + right. rewrite <- store_all_firstn, <- store_all_app, store_all_firstn in Ho1.
      split; [exact Ho1|]. split; [exact Hs|]. split; [rewrite filter_length_app; lia|].
      rewrite <- app_assoc, filter_length_app. rewrite filter_length_app in H6.
      destruct (is_ticket buf) eqn:Eb; cbn [filter] in H6; rewrite Eb in H6; cbn [length] in H6; [|lia].
      assert (Hex : existsb is_ticket (ms1 ++ [buf1]) = true).
      { destruct buf as [|b0 buf0]; [discriminate|].
        eapply (first_type 4 (b0 :: buf0) content); eauto. discriminate. }
      apply filter_existsb in Hex.
      assert (H1 : (1 <= length (filter is_ticket (ms1 ++ [buf1])))%nat).
      { destruct (filter is_ticket (ms1 ++ [buf1])); [contradiction|cbn [length]; lia]. }
      eapply Nat.le_trans; [|apply Nat.add_le_mono_l; exact H1]. lia.
Qed.

(* What the tail does to the phase, to what is expected and to the sends. *)
Definition tail_effect (x x' : crypt) (ts : list bytes) (part : bytes) : Prop :=
  match cx_phase x, 5 <=? lenN ts with
  | DONE, _ | _, false => (cx_phase x' = DONE <-> cx_phase x = DONE) /\
      cx_expecting x' = negb (empty part) /\ cx_sent x' = cx_sent x
  | _, true => cx_phase x' = DONE /\ cx_expecting x' = false /\
      map ts_tickets (cx_sent x') =
        map ts_tickets (cx_sent x) ++ if is_ticket part then [] else [firstn 5 ts]
  end.

Lemma handle_tail_exact : forall x x0 ms buf content ms1 buf1 r fs o1 x' c fs',
  tickets_rel x0 ms buf -> cx_phase x = cx_phase x0 ->
  buf ++ content = concat ms1 ++ buf1 ->
  (forall o, hs_inv (cx_handler x0) o buf -> o1 = store_all o ms1) ->
  hs_inv (cx_handler x) o1 buf1 ->
  Forall hs_msg ms1 ->
  cx_expecting x = negb (empty buf1) ->
  r_ticket r = (negb (empty content) && existsb is_ticket (ms1 ++ [buf1])) ->
  r_num r = hs_num (cx_handler x) ->
  handle_tail x r fs = Done ((x', c), fs') -> tail_effect x x' (filter is_ticket (ms ++ ms1)) buf1.
Proof.
  intros x x0 ms buf content ms1 buf1 r fs o1 x' c fs' (o & Hinv0 & Hph) Eph
    Estream Ho1 Hinv1 Hm1 Hexp Hrt Hrn E.
  specialize (Ho1 o Hinv0). unfold handle_tail in E. unfold tail_effect.
  assert (Hpart : hs_partial buf) by (eapply pos_partial; apply Hinv0).
  assert (Hempty : content = [] -> ms1 = [] /\ buf1 = buf).
  { intros ->. rewrite app_nil_r in Estream. apply partial_no_msg; auto. }
  assert (Main : cx_phase x <> DONE ->
    o1 = Some (firstn 5 (filter is_ticket (ms ++ ms1))) /\
    r_ticket r && (kMaxNumTicketsToProcess <=? r_num r) = (5 <=? lenN (filter is_ticket (ms ++ ms1)))).
  { intros Hd.
    assert (Hlt : o = Some (filter is_ticket ms) /\ (length (filter is_ticket ms) < 5)%nat).
    { rewrite Eph in Hd. destruct (cx_phase x0); [|tauto|congruence].
      destruct Hph as (-> & Hf & _). rewrite Hf. cbn. split; [reflexivity|lia]. }
    destruct Hlt as [Eo Hlt]. subst o.
    assert (Eo1 : o1 = Some (firstn 5 (filter is_ticket (ms ++ ms1)))).
    { rewrite Ho1, <- store_all_firstn, store_all_app, store_all_firstn.
      rewrite firstn_all2 by lia. reflexivity. }
    split; [exact Eo1|]. subst o1. rewrite Eo1 in Hinv1.
    rewrite Hrn, (step_num _ _ _ Hinv1). unfold kMaxNumTicketsToProcess, lenN. rewrite firstn_length.
    destruct (Nat.lt_ge_cases (length (filter is_ticket (ms ++ ms1))) 5) as [H5|H5]; [lia|].
    assert (Hrt1 : r_ticket r = true); [|rewrite Hrt1; lia].
    rewrite Hrt. rewrite filter_length_app in H5.
    assert (Hne : filter is_ticket ms1 <> []) by (intro K; rewrite K in H5; cbn in H5; lia).
    destruct content as [|z content0].
    - destruct (Hempty eq_refl) as [-> ->]. contradiction.
    - cbn [empty negb andb].
      destruct (existsb is_ticket (ms1 ++ [buf1])) eqn:Eq; [reflexivity|].
      rewrite existsb_app in Eq. apply orb_false_elim in Eq. destruct Eq as [Eq _].
      apply existsb_false_filter in Eq. contradiction. }
  assert (Go : forall y, cx_phase x <> DONE -> cx_phase y <> DONE -> cx_handler y = cx_handler x ->
    cx_expecting y = cx_expecting x -> cx_sent y = cx_sent x ->
    (if r_ticket r && (kMaxNumTicketsToProcess <=? r_num r)
       then x <- lift (send_tickets y);; ret (set_phase x DONE false, kOk)
       else ret (y, kOk)) fs = Done ((x', c), fs') ->
    if 5 <=? lenN (filter is_ticket (ms ++ ms1)) then cx_phase x' = DONE /\ cx_expecting x' = false /\
      map ts_tickets (cx_sent x') =
        map ts_tickets (cx_sent x) ++ (if is_ticket buf1 then [] else [firstn 5 (filter is_ticket (ms ++ ms1))])
    else (cx_phase x' = DONE <-> cx_phase x = DONE) /\
      cx_expecting x' = negb (empty buf1) /\ cx_sent x' = cx_sent x).
  { intros y Hd Hdy Ehy Eey Esy Ey. destruct (Main Hd) as [Eo1 Ec]. rewrite Ec in Ey.
    destruct (5 <=? lenN (filter is_ticket (ms ++ ms1))).
    - rewrite Eo1 in Hinv1. rewrite <- Ehy in Hinv1. pose proof (send_tickets_spec y _ _ Hinv1) as Hst.
      destruct (is_ticket buf1).
      + rewrite Hst in Ey. unfold lift, bind, ret in Ey. inversion Ey; subst.
        cbn [set_phase cx_phase cx_expecting cx_sent]. rewrite app_nil_r, Esy. auto.
      + destruct Hst as (h' & Est & _). rewrite Est in Ey. unfold lift, bind, ret in Ey. inversion Ey; subst.
        cbn [set_phase add_sent cx_phase cx_expecting cx_sent]. rewrite map_app, Esy. auto.
    - unfold ret in Ey. inversion Ey; subst. split; [tauto|]. split; congruence. }
  destruct (cx_phase x) eqn:Ep.
  - specialize (fun y => Go y ltac:(discriminate)).
    match goal with |- match ?b with true => _ | false => _ end => change (if b then cx_phase x' = DONE /\ cx_expecting x' = false /\
      map ts_tickets (cx_sent x') =
        map ts_tickets (cx_sent x) ++ (if is_ticket buf1 then [] else [firstn 5 (filter is_ticket (ms ++ ms1))])
      else (cx_phase x' = DONE <-> NOT_RECEIVED = DONE) /\ cx_expecting x' = negb (empty buf1) /\ cx_sent x' = cx_sent x) end.
    destruct (r_ticket r).
    + eapply Go; [..|exact E]; try reflexivity. discriminate.
    + eapply Go; [..|exact E]; try reflexivity. rewrite Ep. discriminate.
  - eapply Go; [discriminate|..|exact E]; try reflexivity. rewrite Ep. discriminate.
  - unfold ret in E. inversion E; subst. rewrite Ep. split; [tauto|]. auto.
Qed.

(* ------------------------------------------------------------------ *)
(* A handshake record *)

Lemma tickets_rel_in : forall x h ms buf, tickets_rel x ms buf -> tickets_rel (set_in x h) ms buf.
Proof. intros x h ms buf H; exact H. Qed.
Lemma sent_ok_in : forall x h ms, sent_ok x ms -> sent_ok (set_in x h) ms.
Proof. intros x h ms H; exact H. Qed.

Lemma handshake_spec : forall P lib x din dout ms buf content fs,
  prims_ok P -> cx_inv P x din dout ms buf -> d_broken din = false ->
  bytes_ok content ->
  (exists o, hs_inv (cx_handler x) o buf /\
     proc_zero o buf content false (process_handshake_message (cx_handler x) content)) \/
  (exists o h', hs_inv (cx_handler x) o buf /\
     process_handshake_message (cx_handler x) content = Done (h', inl kInternal) /\
     proc_err o buf content (process_handshake_message (cx_handler x) content)) \/
  exists h1 r ms1 buf1 x' st fs',
    process_handshake_message (cx_handler x) content = Done (h1, inr r) /\
    buf ++ content = concat ms1 ++ buf1 /\ Forall hs_msg ms1 /\ Forall known ms1 /\
    key_update_last ms1 buf1 /\ hs_partial buf1 /\
    handle_result P lib (set_handler x h1) (inr r) fs = Done ((x', st), fs') /\
    same_frame x x' /\ cx_close x' = cx_close x /\ (fs = [] -> fs' = []) /\
    send_step x x' (ms ++ ms1) buf1 /\
    (st = kOk -> tail_effect x x' (filter is_ticket (ms ++ ms1)) buf1) /\
    (st <> kOk -> cx_sent x' = cx_sent x) /\
    (if key_updates content ms1 buf1 then
       (st = kOk /\ cx_inv P x' (dir_update P din) dout (ms ++ ms1) buf1) \/
       (st = kInternal /\ cx_inv P x' (dir_break din) dout (ms ++ ms1) buf1 /\ fs <> [])
     else st = kOk /\ cx_inv P x' din dout (ms ++ ms1) buf1 /\ fs' = fs).
Proof.
  intros P lib x din dout ms buf content fs HP [Ci Co Cm Ck Cb Cs Ch] Hb Hbc.
  specialize (Ch Hb). pose proof Ch as (o & Hinv & _).
  destruct (process_handshake_message_spec _ _ _ _ Hinv Hbc Cb) as [Hz|[Hok|He]].
  - left; exists o; auto.
  - right; right.
    destruct Hok as (h1 & r & ms1 & buf1 & R1 & R2 & R3 & R4 & R5 & R6 & R7 & R8 & R9 & R10 & R11 & R12).
    cbn [orb] in R9, R10.
    assert (Ho1 : forall o', hs_inv (cx_handler x) o' buf -> store_all o ms1 = store_all o' ms1).
    { intros o' [_ H']. destruct Hinv as [_ H0]. f_equal.
      destruct o as [l|], o' as [l'|]; cbn in H0, H'.
      - destruct H0 as (ts & E1 & E2 & _). destruct H' as (ts' & E1' & E2' & _). congruence.
      - destruct H0 as (ts & E1 & _). destruct H' as (E1' & _). congruence.
      - destruct H' as (ts & E1 & _). destruct H0 as (E1' & _). congruence.
      - reflexivity. }
    exists h1, r, ms1, buf1. rewrite handle_result_inr.
    set (x1 := set_phase (set_handler x h1) (cx_phase (set_handler x h1)) (r_expecting r)).
    assert (Ekus : key_updates content ms1 buf1 = r_key_update r) by (symmetry; exact R9).
    rewrite Ekus.
    assert (Hm : Forall hs_msg (ms ++ ms1)) by (apply Forall_app; auto).
    assert (Hk : Forall known (ms ++ ms1)) by (apply Forall_app; auto).
    assert (Htail : forall h fs0, exists x', handle_tail (set_in x1 h) r fs0 = Done ((x', kOk), fs0) /\
       same_frame (set_in x1 h) x' /\ cx_in x' = h /\ cx_close x' = cx_close x /\
       tickets_rel x' (ms ++ ms1) buf1 /\ sent_ok x' (ms ++ ms1) /\
       send_step x x' (ms ++ ms1) buf1 /\ tail_effect x x' (filter is_ticket (ms ++ ms1)) buf1).
    { intros h fs0.
      destruct (handle_tail_spec (set_in x1 h) x ms buf content ms1 buf1 r fs0 (store_all o ms1))
        as (x' & E & S1 & S2 & S3 & S4 & S5 & S6); auto.
      pose proof (handle_tail_exact (set_in x1 h) x ms buf content ms1 buf1 r fs0 (store_all o ms1) x' _ _
        Ch eq_refl R2 Ho1 R6 R3 R8 R10 R11 E) as S7.
      exists x'. exact (conj E (conj S1 (conj S2 (conj S3 (conj S4 (conj S5 (conj S6 S7))))))). }
    cbv zeta. destruct (r_key_update r) eqn:Eku.
    + destruct (half_update_spec P lib (cx_in x1) din fs HP Ci)
        as (h' & st & fs' & E & Hu & Hok & Hfail & Hfs).
      destruct (is_ok st) eqn:Eok.
      * apply is_ok_true in Eok. destruct (Hok Eok) as [R' _].
        destruct (Htail h' fs') as (x' & E' & S1 & S2 & S3 & S4 & S5 & S6 & S7).
        exists x', kOk, fs'. split; [exact R1|]. split; [exact R2|]. split; [exact R3|].
        split; [exact R4|]. split; [exact R7|]. split; [eapply pos_partial; apply R6|].
        assert (Sf : same_frame x x') by (destruct S1; constructor; assumption).
        split; [|split; [exact Sf|split; [exact S3|split; [apply Hfs|split; [exact S6|split; [auto|split; [congruence|]]]]]]].
        { unfold bind at 1 2. rewrite E. unfold ret. rewrite Eok. cbn [is_ok code_eqb negb].
          exact E'. }
        left. split; [reflexivity|]. constructor; auto.
        -- rewrite S2. exact R'.
        -- rewrite (sf_out _ _ Sf). exact Co.
      * apply is_ok_false in Eok. destruct (Hfail Eok) as [R' _].
        exists (set_in x1 h'), kInternal, fs'. split; [exact R1|]. split; [exact R2|]. split; [exact R3|].
        split; [exact R4|]. split; [exact R7|]. split; [eapply pos_partial; apply R6|].
        split; [|split; [constructor; reflexivity|split; [reflexivity|split; [apply Hfs|split; [apply send_step_refl; reflexivity|split; [discriminate|split; [reflexivity|]]]]]]].
        { unfold bind at 1 2. rewrite E. unfold ret.
          apply is_ok_false in Eok. rewrite Eok. reflexivity. }
        right. split; [reflexivity|]. split; [|intros Efs; apply Eok; apply Hfs; exact Efs].
        constructor; auto.
        -- eapply sent_ok_ext; [..|exact Cs]; reflexivity.
        -- cbn. discriminate.
    + destruct (Htail (cx_in x1) fs) as (x' & E' & S1 & S2 & S3 & S4 & S5 & S6 & S7).
      rewrite set_in_same in E', S1.
      exists x', kOk, fs. split; [exact R1|]. split; [exact R2|]. split; [exact R3|].
      split; [exact R4|]. split; [exact R7|]. split; [eapply pos_partial; apply R6|].
      assert (Sf : same_frame x x') by (destruct S1; constructor; assumption).
      split; [|split; [exact Sf|split; [exact S3|split; [auto|split; [exact S6|split; [auto|split; [congruence|]]]]]]].
      { unfold bind, ret. exact E'. }
      split; [reflexivity|]. split; [|reflexivity]. constructor; auto.
      * rewrite S2. exact Ci.
      * rewrite (sf_out _ _ Sf). exact Co.
  - right; left. pose proof He as (h' & m & rest & ms' & E & _). exists o, h'. auto.
Qed.

(* ------------------------------------------------------------------ *)
(* One record *)

Section RX.
Variables (P : prims) (lib : ssl_lib).

(* Processing a decrypted record [msg]; [outm] is the plaintext buffer. *)
Inductive content_step (x : crypt) (din dout : dir) (ms : list bytes) (buf msg outm : bytes)
  (fs : faults) : outcome (crypt * sstatus * iovec * faults) -> Prop :=
| CsZero : msg = zeros (lenN msg) ->
    content_step x din dout ms buf msg outm fs
      (Done ((x, (S_INVALID_RECORD, 0), IoBuf outm), fs))
| CsAlertClose : forall a rest pad, msg = inner 21 (a :: 0 :: rest) pad ->
    cx_inv P (set_close x) din dout ms buf ->
    content_step x din dout ms buf msg outm fs
      (Done ((set_close x, (S_ALERT_CLOSE_NOTIFY, 0), IoBuf (zeros (lenN outm))), fs))
| CsAlertOther : forall a b rest pad, msg = inner 21 (a :: b :: rest) pad -> b <> 0 ->
    content_step x din dout ms buf msg outm fs
      (Done ((x, (S_ALERT_OTHER, 0), IoBuf (zeros (lenN outm))), fs))
| CsAlertShort : forall content pad, msg = inner 21 content pad -> lenN content < 2 ->
    content_step x din dout ms buf msg outm fs
      (Done ((x, (S_INVALID_RECORD, 0), IoBuf (zeros (lenN outm))), fs))
| CsUnknown : forall ty content pad, msg = inner ty content pad ->
    ty <> 0 -> ty <> 21 -> ty <> 22 -> ty <> 23 ->
    content_step x din dout ms buf msg outm fs
      (Done ((x, (S_INVALID_RECORD, 0), IoBuf (zeros (lenN outm))), fs))
| CsAppInside : forall content pad, msg = inner 23 content pad -> cx_expecting x = true ->
    content_step x din dout ms buf msg outm fs
      (Done ((x, (S_INVALID_RECORD, 0), IoBuf outm), fs))
| CsApp : forall content pad x', msg = inner 23 content pad -> cx_expecting x = false ->
    cx_inv P x' din dout ms buf -> same_frame x x' -> cx_close x' = cx_close x ->
    cx_expecting x' = false -> cx_phase x' <> RECEIVING -> send_step x x' ms buf ->
    (cx_phase x = RECEIVING -> cx_phase x' = DONE /\ filter is_ticket ms <> [] /\
       map ts_tickets (cx_sent x') = map ts_tickets (cx_sent x) ++ [filter is_ticket ms]) ->
    (cx_phase x <> RECEIVING -> cx_phase x' = cx_phase x /\ cx_sent x' = cx_sent x) ->
    content_step x din dout ms buf msg outm fs
      (Done ((x', (S_OK, lenN content), IoBuf outm), fs))
| CsHs : forall content pad ms1 buf1 x' din' st fs', msg = inner 22 content pad ->
    buf ++ content = concat ms1 ++ buf1 -> Forall hs_msg ms1 -> Forall known ms1 ->
    key_update_last ms1 buf1 -> hs_partial buf1 ->
    cx_inv P x' din' dout (ms ++ ms1) buf1 -> same_frame x x' -> cx_close x' = cx_close x ->
    send_step x x' (ms ++ ms1) buf1 ->
    (st = S_OK -> tail_effect x x' (filter is_ticket (ms ++ ms1)) buf1) ->
    (st <> S_OK -> cx_sent x' = cx_sent x) ->
    (st = S_OK /\ din' = (if key_updates content ms1 buf1 then dir_update P din else din) \/
     st = S_INTERNAL_ERROR /\ din' = dir_break din /\ key_updates content ms1 buf1 = true /\ fs <> []) ->
    (fs = [] -> fs' = []) ->
    content_step x din dout ms buf msg outm fs
      (Done ((x', (st, 0), IoBuf outm), fs'))
| CsHsError : forall content pad o h', msg = inner 22 content pad ->
    hs_inv (cx_handler x) o buf -> proc_err o buf content (Done (h', inl kInternal)) ->
    content_step x din dout ms buf msg outm fs
      (Done ((set_handler x h', (S_INTERNAL_ERROR, 0), IoBuf outm), fs))
| CsHsZeroLen : forall content pad o h' r x' st fs', msg = inner 22 content pad ->
    hs_inv (cx_handler x) o buf -> proc_zero o buf content false (Done (h', inr r)) ->
    handle_result P lib (set_handler x h') (inr r) fs = Done ((x', st), fs') ->
    st = kOk \/ (st = kInternal /\ fs <> []) ->
    content_step x din dout ms buf msg outm fs
      (Done ((x', (if is_ok st then S_OK else S_INTERNAL_ERROR, 0), IoBuf outm), fs'))
| CsHsFatal : forall content pad ms1 z rest, msg = inner 22 content pad ->
    buf ++ content = concat ms1 ++ z ++ rest -> Forall hs_msg ms1 ->
    Forall (fun m => is_ticket m = true) ms1 -> hs_zero z -> known z -> 4 <= lenN rest ->
    content_step x din dout ms buf msg outm fs (Undef UbNegativeShift).

Lemma get_stored_done : forall h o, tick_ok h o -> Forall (fun f => f <> []) (hs_frags h) ->
  exists h' r, get_stored_tickets h = Done (h', r).
Proof.
  intros h o Ht Hf. unfold get_stored_tickets. destruct (hs_retrieved h) eqn:Er; [eauto|].
  assert (Hgo : exists ts, hs_tickets h = Some ts).
  { destruct o; cbn in Ht; [destruct Ht as (ts & E & _); eauto|destruct Ht as (_ & _ & K); congruence]. }
  destruct Hgo as (ts & Eg). rewrite Eg.
  destruct (expecting_more h) eqn:Ee; [|eauto].
  unfold get_message_type. unfold expecting_more in Ee.
  destruct (hs_frags h) as [|[|b l] q]; [discriminate|exfalso; exact (Forall_inv Hf eq_refl)|].
  cbn [obind]. destruct (b =? kSessionTicketMessageType); eauto.
Qed.

Lemma handle_result_total : forall x r fs din o, prims_ok P -> half_rel P (cx_in x) din ->
  tick_ok (cx_handler x) o -> Forall (fun f => f <> []) (hs_frags (cx_handler x)) ->
  exists x' st fs', handle_result P lib x (inr r) fs = Done ((x', st), fs') /\
    (st = kOk \/ (st = kInternal /\ fs <> [])).
Proof.
  intros x r fs din o HP R Ht Hf. rewrite handle_result_inr. cbv zeta.
  assert (Htl : forall y fs0, cx_handler y = cx_handler x -> exists x' fs', handle_tail y r fs0 = Done ((x', kOk), fs')).
  { intros y fs0 Ey. unfold handle_tail.
    assert (G : forall y, cx_handler y = cx_handler x -> exists x' fs', (if r_ticket r && (kMaxNumTicketsToProcess <=? r_num r)
       then x <- lift (send_tickets y);; ret (set_phase x DONE false, kOk)
       else ret (y, kOk)) fs0 = Done (x', kOk, fs')).
    { intros y0 Ey0. destruct (r_ticket r && (kMaxNumTicketsToProcess <=? r_num r)); [|unfold ret; eauto].
      unfold send_tickets. rewrite Ey0. destruct (get_stored_done _ _ Ht Hf) as (h' & [c|ts] & Eg); rewrite Eg;
        unfold lift, bind, ret; cbn [obind]; eauto. }
    destruct (cx_phase y); [destruct (r_ticket r) eqn:Et; [apply G; exact Ey|cbn [andb]; unfold ret; eauto]|apply G; exact Ey|unfold ret; eauto]. }
  destruct (r_key_update r).
  - match goal with |- context[half_update_key P lib ?h0] =>
      destruct (half_update_spec P lib h0 din fs HP R) as (h' & st' & fs1 & Eu & _ & _ & _ & Hfs) end.
    unfold bind at 1 2. rewrite Eu. unfold ret at 1.
    destruct (is_ok st') eqn:Eok; cbn [negb].
    + destruct (Htl (set_in (set_phase x (cx_phase x) (r_expecting r)) h') fs1 eq_refl) as (x' & fs' & E). eauto 8.
    + unfold ret. do 3 eexists. split; [reflexivity|]. right. split; [reflexivity|]. intros ->. apply is_ok_false in Eok. apply Eok, Hfs. reflexivity.
  - unfold bind, ret. destruct (Htl (set_phase x (cx_phase x) (r_expecting r)) fs eq_refl) as (x' & fs' & E). eauto 8.
Qed.

Lemma bytes_ok_inner : forall ty c p, bytes_ok (inner ty c p) -> bytes_ok c.
Proof. intros ty c p H. unfold inner in H. apply bytes_ok_app in H. tauto. Qed.

Lemma deliver_spec : forall x din dout ms buf msg outm fs,
  prims_ok P -> cx_inv P x din dout ms buf -> d_broken din = false ->
  bytes_ok msg -> takeN (lenN msg) outm = msg ->
  content_step x din dout ms buf msg outm fs
    (deliver P lib x (lenN msg) (IoBuf outm) fs).
Proof.
  intros x din dout ms buf msg outm fs HP Hinv Hb Hbm Eout. unfold deliver. cbn [iov_data].
  rewrite Eout.
  destruct (scan_type (rev msg)) as [[ty content]|] eqn:Es.
  2:{ apply scan_type_none in Es. apply CsZero. exact Es. }
  apply scan_type_some in Es. destruct Es as (Hty & pad & Em).
  unfold kTls13Alert, kTls13Handshake, kTls13ApplicationData.
  destruct (N.eqb_spec ty 21) as [->|H21].
  { destruct content as [|a [|b rest]].
    - eapply (CsAlertShort _ _ _ _ _ _ _ _ [] pad); [exact Em|reflexivity].
    - eapply (CsAlertShort _ _ _ _ _ _ _ _ [a] pad); [exact Em|reflexivity].
    - unfold lift, bind. cbn [zero_out].
      unfold kTlsAlertCloseNotify. destruct (N.eqb_spec b 0) as [->|Hb0].
      + eapply CsAlertClose; [exact Em|]. destruct Hinv; constructor; auto.
      + eapply CsAlertOther; [exact Em|exact Hb0]. }
  destruct (N.eqb_spec ty 22) as [->|H22].
  { assert (Hbc : bytes_ok content) by (rewrite Em in Hbm; eapply bytes_ok_inner; eauto).
    destruct (handshake_spec P lib x din dout ms buf content fs HP Hinv Hb Hbc)
      as [(o & Hi & Hz)|[(o & h' & Hi & Ep & Herr)|Hok]].
    - pose proof Hz as (ms1 & z & rest & Z1 & Z2 & Z3 & Z4 & Z5 & [[L E]|(L & h' & r & E & Hd & Ht & _)]); rewrite E in Hz |- *.
      + unfold lift, bind. eapply CsHsFatal; eauto.
      + destruct (handle_result_total (set_handler x h') r fs din (store_all o ms1) HP (ci_in _ _ _ _ _ _ Hinv) Ht)
          as (x' & st & fs' & Eh & Hst); [destruct Hd as (_ & _ & F & _); exact F|].
        unfold lift, bind at 1. rewrite (bind_done _ _ _ _ _ _ _ Eh).
        pose proof (CsHsZeroLen x din dout ms buf msg outm fs content pad o h' r x' st fs' Em Hi Hz Eh Hst) as Hc.
        destruct (is_ok st); exact Hc.
    - rewrite Ep in Herr. rewrite Ep. unfold lift, bind at 1. cbn [handle_result].
      unfold bind, ret. cbn [is_ok code_eqb negb].
      eapply CsHsError; eauto.
    - destruct Hok as (h1 & r & ms1 & buf1 & x' & st & fs' & Ep & E1 & E2 & E3 & E4 & E5 & Eh & Sf & Ec & Efs & Hss & Hte & Hnte & Hr).
      rewrite Ep. unfold lift, bind at 1. rewrite (bind_done _ _ _ _ _ _ _ Eh).
      destruct (key_updates content ms1 buf1) eqn:Eku.
      + destruct Hr as [[-> Hi]|(-> & Hi & Hfs)]; cbn [is_ok code_eqb negb]; unfold ret.
        * eapply CsHs; eauto. rewrite Eku. left; auto.
        * eapply CsHs; eauto; [discriminate|intros _; apply Hnte; discriminate].
      + destruct Hr as (-> & Hi & ->). cbn [is_ok code_eqb negb]; unfold ret.
        eapply CsHs; eauto. rewrite Eku. left; auto. }
  destruct (N.eqb_spec ty 23) as [->|H23].
  { destruct (cx_expecting x) eqn:Ex; [eapply CsAppInside; eauto|].
    pose proof Hinv as [Ci Co Cm Ck Cb Cs Ch]. specialize (Ch Hb).
    destruct Ch as (o & Hh & Hph).
    destruct (cx_phase x) eqn:Ephx.
    - unfold lift, bind, ret. eapply CsApp; eauto; try apply same_frame_refl; [congruence|apply send_step_refl; reflexivity|congruence].
    - destruct Hph as (-> & Hlt & Hs0 & He & Hex).
      assert (buf = []) as -> by (destruct buf; [reflexivity|rewrite Ex in He; discriminate]).
      pose proof (send_tickets_spec x _ _ Hh) as Hst. cbn in Hst.
      destruct Hst as (h' & -> & Hinv'). cbn [obind]. unfold lift, bind, ret.
      rewrite existsb_app in Hex. cbn in Hex. rewrite orb_false_r in Hex.
      eapply CsApp; [exact Em|exact Ex| |constructor; reflexivity|reflexivity|exact Ex|discriminate| | |congruence].
      3:{ intros _. split; [reflexivity|]. split; [apply filter_existsb; exact Hex|].
          cbn [set_phase add_sent cx_sent]. rewrite map_app. reflexivity. }
      2:{ split; [right; split; [exact Hs0|]; exists (cx_channel x)|intros _ _ _];
            cbn [set_phase add_sent cx_sent]; [rewrite Hs0, firstn_all2 by lia; reflexivity|].
          intro K. apply app_eq_nil in K. destruct K; discriminate. }
      constructor; auto.
      + right. exists ms, [], (cx_channel x). rewrite app_nil_r. split; [reflexivity|].
        split; [apply filter_existsb; exact Hex|].
        cbn [set_phase add_sent cx_sent]. rewrite Hs0, firstn_all2 by lia. reflexivity.
      + intros _. exists None. split; [exact Hinv'|]. cbn [set_phase add_sent cx_phase cx_expecting cx_sent].
        split; [left; exact Ex|]. left. split; [reflexivity|].
        intro K. apply app_eq_nil in K. destruct K; discriminate.
    - unfold lift, bind, ret. eapply CsApp; eauto; try apply same_frame_refl; [congruence|apply send_step_refl; reflexivity|congruence]. }
  eapply CsUnknown; eauto.
Qed.

(* One call of Unprotect. *)
Inductive rx_step (x : crypt) (din dout : dir) (ms : list bytes) (buf hdr pl out : bytes)
  (fs : faults) : outcome (crypt * sstatus * iovec * faults) -> Prop :=
| RxClosed : cx_close x = true ->
    rx_step x din dout ms buf hdr pl out fs
      (Done ((x, (S_ALERT_CLOSE_NOTIFY, 0), IoBuf out), fs))
| RxMalformed : cx_close x = false -> ~ well_formed hdr (lenN pl) ->
    rx_step x din dout ms buf hdr pl out fs
      (Done ((x, (if 22 + 16384 <? lenN hdr + lenN pl
                  then S_ALERT_RECORD_OVERFLOW else S_FAILED_PRECONDITION, 0),
              IoBuf out), fs))
| RxUnusable : cx_close x = false -> well_formed hdr (lenN pl) -> ~ dir_usable din ->
    rx_step x din dout ms buf hdr pl out fs
      (Done ((x, (S_INTERNAL_ERROR, 0), IoBuf (zeros (lenN out))), fs))
| RxReject : forall h' fs', cx_close x = false -> well_formed hdr (lenN pl) -> dir_usable din ->
    cx_inv P (set_in x h') (dir_next din) dout ms buf ->
    (forall msg, fs = [] -> pl = dir_seal P din hdr msg -> lenN out < lenN msg) ->
    rx_step x din dout ms buf hdr pl out fs
      (Done ((set_in x h', (S_INTERNAL_ERROR, 0), IoBuf (zeros (lenN out))), fs'))
| RxRecord : forall h' fs' msg res, cx_close x = false -> well_formed hdr (lenN pl) ->
    dir_usable din -> pl = dir_seal P din hdr msg -> lenN msg <= lenN out -> bytes_ok msg ->
    cx_inv P (set_in x h') (dir_next din) dout ms buf -> (fs = [] -> fs' = []) ->
    content_step (set_in x h') (dir_next din) dout ms buf msg
      (msg ++ dropN (lenN msg) out) fs' res ->
    rx_step x din dout ms buf hdr pl out fs res.

Lemma cx_inv_set_in : forall x h din din' dout ms buf,
  cx_inv P x din dout ms buf -> half_rel P h din' -> d_broken din' = d_broken din ->
  cx_inv P (set_in x h) din' dout ms buf.
Proof. intros x h din din' dout ms buf [] H E. constructor; auto. rewrite E; auto. Qed.

Lemma rx_step_ok : forall x din dout ms buf hdr payload out fs,
  prims_ok P -> cx_inv P x din dout ms buf ->
  bytes_ok hdr -> Forall iov_valid payload -> bytes_ok (iov_concat payload) ->
  lenN hdr + sum_lens payload < two64 ->
  rx_step x din dout ms buf hdr (iov_concat payload) out fs
    (crypt_unprotect P lib x (IoBuf hdr) payload (IoBuf out) fs).
Proof.
  intros x din dout ms buf hdr payload out fs HP Hinv Hbh Hv Hbp Hsz.
  destruct (crypt_unprotect_spec P lib x din hdr payload out fs HP (ci_in _ _ _ _ _ _ Hinv) Hbh Hv Hsz)
    as (K1 & K2 & K3).
  rewrite (sum_lens_concat payload Hv) in *.
  destruct (cx_close x) eqn:Ec; [rewrite K1 by reflexivity; apply RxClosed; exact Ec|].
  assert (Hwf : well_formed hdr (lenN (iov_concat payload)) \/
                ~ well_formed hdr (lenN (iov_concat payload))).
  { unfold well_formed. destruct (list_eq_dec N.eq_dec hdr (tls_header (lenN (iov_concat payload)))) as [E|E];
      [|right; intros [? _]; contradiction].
    destruct (N.le_gt_cases 17 (lenN (iov_concat payload))); [|right; lia].
    destruct (N.le_gt_cases (lenN (iov_concat payload)) (16384 + 17)); [left; auto|right; lia]. }
  destruct Hwf as [Hwf|Hwf]; [|rewrite K2 by auto; apply RxMalformed; auto].
  destruct (K3 eq_refl Hwf) as (h' & fs1 & Hep & Hun & Hus & [[E Hc]|(msg & buf' & Hu & E1 & E2 & E3 & E4 & E)]);
    rewrite E.
  - destruct (dir_usable_dec din) as [Hu|Hu].
    + destruct (Hus Hu) as [R' _]. apply RxReject; auto.
      eapply cx_inv_set_in; eauto.
    + destruct (Hun Hu) as [-> ->]. rewrite set_in_same. apply RxUnusable; auto.
  - destruct (Hus Hu) as [R' _].
    assert (Hi : cx_inv P (set_in x h') (dir_next din) dout ms buf) by (eapply cx_inv_set_in; eauto).
    assert (Hbm : bytes_ok msg) by (rewrite E1 in Hbp; eapply dir_seal_bytes; eauto).
    eapply RxRecord; eauto. subst buf'.
    apply deliver_spec; auto; [apply Hu|]. apply takeN_app_exact.
Qed.
End RX.
