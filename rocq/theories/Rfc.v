(* Rules of RFC 8446 for an established connection beyond record protection:
   answering key updates, error alerts, the shape of alerts and handshake
   messages, limits on key usage (C71 - C76). *)
From Coq Require Import List NArith ZArith Bool Lia ZifyBool ZifyNat ZifyN.
From Verif Require Import Base BaseProofs Aead Hkdf HalfConn SpecAead AeadProofs AeadRun AeadRunProofs AeadTotalProofs SpecTls HkdfProofs HalfProofs HalfRun HalfRunProofs Options HsHandler
  Crypter SpecHs HsProofs SpecRecord SpecRx CrypterProofs CrypterRun CrypterRunProofs SpecRxProofs CrypterLemmas CrypterLemmas2
  CrypterLemmas3 HsRun HsRunProofs CrypterChannel CrypterFinal FrameProt SpecFrame FrameRun FrameProofs FrameTrip FrameSim FrameLink FrameFinal FrameRef FrameRefProofs Every EveryFrame SpecRfc.
Import ListNotations.
Local Open Scope N_scope.

Lemma inner_bytes : forall ty c pad, ty < 256 -> bytes_ok c -> bytes_ok (inner ty c pad).
Proof.
  intros ty c pad Ht Hc. unfold inner. apply bytes_ok_app. split; [exact Hc|]. constructor; [exact Ht|].
  apply Forall_forall. intros y Hy. apply repeat_spec in Hy. subst y. reflexivity.
Qed.

(* ---- one record that is not a handshake record ---- *)
Lemma rec_step : forall P lib a ops rs x r ty content pad payload buf st n out r',
  connection P lib a ops rs x -> received P a ops rs r -> open_rx r ->
  let msg := inner ty content pad in
  let op := CUnprotect (tls_header (lenN msg + 16)) payload buf in
  next_record P r msg payload -> bytes_ok content -> lenN content + pad <= 16384 -> lenN msg <= lenN buf ->
  0 < ty < 256 -> ty <> ty_handshake ->
  accept P (([] : faults) <> []) (rx_dir r (dir_next (r_dir r))) msg (msg ++ dropN (lenN msg) buf) st n out r' ->
  r_bad r' = false ->
  exists x' o, cstep P lib x op [] = Done (x', CUnprotected st n o) /\ iov_data o = out /\
    connection P lib a (ops ++ [(op, [])]) (rs ++ [CUnprotected st n o]) x' /\
    received P a (ops ++ [(op, [])]) (rs ++ [CUnprotected st n o]) r'.
Proof.
  intros P lib a ops rs x r ty content pad payload buf st n out r' (H1 & H2 & H3 & H4 & H5) (Hr & Hb) (Hc & Hu) msg op
    (Hv & Hp) Hbc Hl Hbuf Hty Hth Ha Hb'.
  assert (Hm : lenN msg = lenN content + 1 + pad) by apply lenN_inner.
  destruct (deliver_lemma P lib a ops rs x H1 H2 H3 H4 H5 r Hr Hb msg payload buf Hc Hu) as [Hok H]; auto; try lia.
  { apply inner_bytes; [lia|exact Hbc]. }
  fold op in H.
  destruct (cstep P lib x op []) as [[x' [?|st1 n1 o|?]]|u|] eqn:Es; try contradiction.
  - destruct H as (r1 & Ha1 & Hrv & _).
    destruct (accept_fun _ _ _ _ _ _ _ _ _ _ _ _ _ _ (fun K : ([] : faults) <> [] => K eq_refl) eq_refl Ha1 Ha) as (-> & -> & -> & _ & Ho).
    exists x', o. split; [reflexivity|]. split; [exact (Ho eq_refl)|].
    split; [|split; [eapply rx_run_snoc; eauto|exact Hb']].
    split; [exact H1|]. split; [exact H2|]. split; [exact H3|].
    split; [apply Forall_app; split; [exact H4|constructor; [exact Hok|constructor]]|].
    eapply creach_snoc; [exact H5|exact Es].
  - exfalso. destruct H as (_ & c & p & E & _). unfold msg in E. apply inner_inj in E; [|lia|discriminate]. tauto.
Qed.

(* ---- the sending side ---- *)
Lemma tx_run_snoc : forall P ops d rs op fs res, length ops = length rs ->
  tx_run P d (ops ++ [(op, fs)]) (rs ++ [res]) = tx_step P (tx_run P d ops rs) op res.
Proof.
  intros P. induction ops as [|[o f] ops IH]; intros d [|re rs] op fs res L; cbn [length] in L; try discriminate; [reflexivity|].
  cbn [app tx_run]. apply IH. congruence.
Qed.

Lemma connection_len : forall P lib a ops rs x, connection P lib a ops rs x -> length ops = length rs.
Proof.
  intros P lib a ops rs x (H1 & H2 & H3 & H4 & H5).
  destruct (creach_winv P lib a ops rs x H1 H2 H3 H4 H5) as (_ & L & _). congruence.
Qed.

Lemma connection_snoc : forall P lib a ops rs x op fs x' res, connection P lib a ops rs x -> cop_ok op ->
  cstep P lib x op fs = Done (x', res) -> connection P lib a (ops ++ [(op, fs)]) (rs ++ [res]) x'.
Proof.
  intros P lib a ops rs x op fs x' res (H1 & H2 & H3 & H4 & H5) Hok E. split; [exact H1|]. split; [exact H2|]. split; [exact H3|].
  split; [apply Forall_app; split; [exact H4|constructor; [exact Hok|constructor]]|]. eapply creach_snoc; eauto.
Qed.

Lemma send_step : forall P lib a ops rs x t data buf, connection P lib a ops rs x ->
  let d := tx_run P (d_out a) ops rs in
  dir_usable d -> lenN data <= 16384 -> lenN data + 22 <= lenN buf ->
  let op := CProtect t [IoBuf data] buf in
  let res := CProtected S_OK (lenN data + 22) (IoBuf (tls_record P d (record_type_number t) data 0 ++ dropN (lenN data + 22) buf)) in
  exists x', cstep P lib x op [] = Done (x', res) /\ connection P lib a (ops ++ [(op, [])]) (rs ++ [res]) x' /\
    tx_run P (d_out a) (ops ++ [(op, [])]) (rs ++ [res]) = dir_next d.
Proof.
  intros P lib a ops rs x t data buf HC d Hu Hd Hbuf op res.
  assert (Hok : cop_ok op) by (unfold op, cop_ok, two64; cbn [sum_lens iov_len]; lia).
  assert (Es : sum_lens [IoBuf data] = lenN data) by (cbn [sum_lens iov_len]; lia).
  assert (Ec : iov_concat [IoBuf data] = data) by apply app_nil_r.
  assert (Hf : fits_in [IoBuf data] buf = true) by (unfold fits_in; rewrite Es; lia).
  destruct (W31 P lib a ops rs x HC t [IoBuf data] buf [] Hok) as (x' & st & n & buf' & E & _ & K1 & _ & _ & _ & _ & K2). cbn zeta in *.
  fold d in K1, K2. specialize (K2 Hf Hu (Forall_cons (IoBuf data) I (Forall_nil _)) eq_refl). subst st.
  destruct (K1 eq_refl) as (-> & -> & _). rewrite Es, Ec in E. fold op in E. fold res in E. exists x'. split; [exact E|].
  split; [exact (connection_snoc _ _ _ _ _ _ _ _ _ _ HC Hok E)|].
  rewrite tx_run_snoc by exact (connection_len _ _ _ _ _ _ HC). fold d. unfold op. cbn [tx_step]. rewrite Hf, (proj2 (dir_usableb_spec d) Hu). reflexivity.
Qed.

Lemma update_step : forall P lib a ops rs x, connection P lib a ops rs x ->
  exists x', cstep P lib x CUpdateKey [] = Done (x', CUpdated kOk) /\
    connection P lib a (ops ++ [(CUpdateKey, [])]) (rs ++ [CUpdated kOk]) x' /\
    tx_run P (d_out a) (ops ++ [(CUpdateKey, [])]) (rs ++ [CUpdated kOk]) = dir_update P (tx_run P (d_out a) ops rs).
Proof.
  intros P lib a ops rs x HC. pose proof HC as (H1 & H2 & H3 & H4 & H5).
  destruct (creach_winv P lib a ops rs x H1 H2 H3 H4 H5) as (W & _).
  destruct (half_update_spec P lib (cx_out x) _ [] H1 (cw_out _ _ _ _ W)) as (h' & st & fs' & E & _ & _ & _ & K).
  destruct (K eq_refl) as [-> ->].
  assert (Es : cstep P lib x CUpdateKey [] = Done (set_out x h', CUpdated kOk)).
  { cbn [cstep]. unfold crypt_update_outbound_key. rewrite (bind_done _ _ _ _ _ _ _ E). reflexivity. }
  exists (set_out x h'). split; [exact Es|]. split; [exact (connection_snoc P lib a ops rs x CUpdateKey [] _ _ HC I Es)|].
  rewrite tx_run_snoc by exact (connection_len _ _ _ _ _ _ HC). reflexivity.
Qed.

(* ---- C71 ---- *)
Lemma ku_stream : forall r content, r_part r = [] -> hs_msg content -> is_key_update content = true ->
  r_part r ++ content = concat [content] ++ [] /\ Forall hs_msg [content] /\ Forall known [content] /\ hs_partial [] /\
  ([] <> @nil N -> known []) /\ key_update_last [content] [] /\ has_key_update content [content] [] = true.
Proof.
  intros r content Hp Hm Hk. rewrite Hp. cbn [concat app]. rewrite !app_nil_r. split; [reflexivity|].
  split; [constructor; [exact Hm|constructor]|]. split; [constructor; [right; exact Hk|constructor]|].
  split; [|split; [intros K; contradiction (K eq_refl)|split]].
  - exists content. split; [intros ->; discriminate Hk|exact Hm].
  - split; [intros _; split; reflexivity|exact I].
  - unfold has_key_update. rewrite existsb_app. cbn [existsb]. rewrite Hk. destruct content; [discriminate Hk|reflexivity].
Qed.

(* What comes after: application data sealed in the state [d] is accepted. *)
Lemma then_data : forall P lib a ops rs x r, connection P lib a ops rs x -> received P a ops rs r ->
  r_closed r = false -> dir_usable (r_dir r) -> r_wait r = false -> then_accepts P lib x (r_dir r).
Proof.
  intros P lib a ops rs x r HC HR Hc Hu Hw data payload buf msg hdr Hb Hl Hbuf Hv Es.
  destruct (Every.data_step _ _ _ _ _ _ _ data 0 payload buf HC HR (conj Hc Hu) (conj Hv Es)) as (x2 & out2 & E2 & K); auto; try lia.
  rewrite Hw in E2. exists x2, out2. split; [exact E2|exact K].
Qed.

Lemma no_wait : forall P lib a ops rs x r, connection P lib a ops rs x -> received P a ops rs r -> open_rx r ->
  r_part r = [] -> r_wait r = false.
Proof.
  intros P lib a ops rs x r (H1 & H2 & H3 & H4 & H5) (Hr & Hb) (_ & Hu & _) Hp.
  exact (proj1 (R_wait P lib a ops rs x H1 H2 H3 H4 H5 r Hr Hb Hu) Hp).
Qed.

Lemma U74 : forall P lib a ops rs x r m pad payload buf, connection P lib a ops rs x -> received P a ops rs r -> open_rx r ->
  r_part r = [] -> hs_msg m -> is_key_update m = true -> lenN m + pad <= 16384 ->
  let msg := inner ty_handshake m pad in
  next_record P r msg payload -> lenN msg <= lenN buf ->
  exists x' out, cstep P lib x (CUnprotect (tls_header (lenN msg + 16)) payload buf) [] = Done (x', CUnprotected S_OK 0 out) /\
    then_accepts P lib x' (dir_update P (dir_next (r_dir r))) /\
    (let d := tx_run P (d_out a) ops rs in dir_usable d ->
     forall t data buf2, lenN data <= 16384 -> lenN data + 22 <= lenN buf2 ->
      exists x2, cstep P lib x' (CProtect t [IoBuf data] buf2) [] =
        Done (x2, CProtected S_OK (lenN data + 22)
          (IoBuf (tls_record P d (record_type_number t) data 0 ++ dropN (lenN data + 22) buf2)))).
Proof.
  intros P lib a ops rs x r m pad payload buf HC HR Ho Hp Hm Hk Hl msg Hn Hbuf.
  destruct (ku_stream r m Hp Hm Hk) as (E1 & E2 & E3 & E4 & E5 & E6 & E7).
  assert (Hbm : bytes_ok m) by (destruct Hm as (? & ? & ? & ? & ? & _ & K & _); exact K).
  destruct (hs_step P lib a ops rs x r m pad payload buf [m] [] HC HR Ho Hn Hbm Hl Hbuf E1 E2 E3 E4 E5 E6) as (x' & out & Es & HC' & HR').
  rewrite E7 in HR'. exists x', out. split; [exact Es|].
  assert (Hd : forall r1 d l, r_dir (rx_read r1 d l []) = d) by reflexivity.
  split.
  - rewrite <- (Hd (rx_dir r (dir_next (r_dir r))) (dir_update P (dir_next (r_dir r))) [m]).
    eapply then_data; [exact HC'|exact HR'| | |].
    + exact (proj1 Ho).
    + split; [exact (proj1 (proj2 Ho))|reflexivity].
    + cbn [rx_read r_wait empty negb]. destruct (_ && _); reflexivity.
  - intros d Hu t data buf2 Hd2 Hb2.
    assert (Ed : tx_run P (d_out a) (ops ++ [(CUnprotect (tls_header (lenN msg + 16)) payload buf, [])]) (rs ++ [CUnprotected S_OK 0 out]) = d).
    { rewrite tx_run_snoc by exact (connection_len _ _ _ _ _ _ HC). reflexivity. }
    destruct (send_step P lib a _ _ x' t data buf2 HC') as (x2 & E & _); auto; [fold msg; rewrite Ed; exact Hu|].
    exists x2. fold msg in E. rewrite Ed in E. exact E.
Qed.

Lemma ku_ok : forall q, q < 256 -> hs_msg (key_update q) /\ is_key_update (key_update q) = true.
Proof.
  intros q Hq. split; [|reflexivity]. exists 24, 0, 0, 1, [q]. split; [reflexivity|]. split; [|split; [reflexivity|discriminate]].
  repeat (constructor; [first [exact Hq|reflexivity]|]). constructor.
Qed.

Lemma U71 : forall P lib a ops rs x r payload buf, connection P lib a ops rs x -> received P a ops rs r -> open_rx r ->
  r_part r = [] ->
  let msg := inner ty_handshake (key_update 1) 0 in
  next_record P r msg payload -> lenN msg <= lenN buf ->
  exists x' out, cstep P lib x (CUnprotect (tls_header (lenN msg + 16)) payload buf) [] = Done (x', CUnprotected S_OK 0 out) /\
    (let d := tx_run P (d_out a) ops rs in dir_usable d ->
     forall t data buf2, lenN data <= 16384 -> lenN data + 22 <= lenN buf2 ->
      exists x2, cstep P lib x' (CProtect t [IoBuf data] buf2) [] =
        Done (x2, CProtected S_OK (lenN data + 22)
          (IoBuf (tls_record P d (record_type_number t) data 0 ++ dropN (lenN data + 22) buf2)))).
Proof.
  intros P lib a ops rs x r payload buf HC HR Ho Hp msg Hn Hbuf.
  destruct (ku_ok 1 eq_refl) as [K1 K2].
  destruct (U74 P lib a ops rs x r (key_update 1) 0 payload buf HC HR Ho Hp K1 K2 ltac:(discriminate) Hn Hbuf) as (x' & out & E & _ & K).
  exists x', out. split; [exact E|exact K].
Qed.

Lemma U71answer : forall P lib a ops rs x, connection P lib a ops rs x ->
  let d := tx_run P (d_out a) ops rs in dir_usable d ->
  forall buf, 27 <= lenN buf ->
  exists x1 x2, cstep P lib x (CProtect HANDSHAKE [IoBuf (key_update 0)] buf) [] =
      Done (x1, CProtected S_OK 27 (IoBuf (tls_record P d ty_handshake (key_update 0) 0 ++ dropN 27 buf))) /\
    cstep P lib x1 CUpdateKey [] = Done (x2, CUpdated kOk) /\
    forall t data buf2, lenN data <= 16384 -> lenN data + 22 <= lenN buf2 ->
      exists x3, cstep P lib x2 (CProtect t [IoBuf data] buf2) [] =
        Done (x3, CProtected S_OK (lenN data + 22)
          (IoBuf (tls_record P (dir_update P (dir_next d)) (record_type_number t) data 0 ++ dropN (lenN data + 22) buf2))).
Proof.
  intros P lib a ops rs x HC d Hu buf Hbuf.
  destruct (send_step P lib a ops rs x HANDSHAKE (key_update 0) buf HC Hu) as (x1 & E1 & HC1 & T1); [discriminate|exact Hbuf|].
  destruct (update_step P lib a _ _ x1 HC1) as (x2 & E2 & HC2 & T2). rewrite T1 in T2.
  exists x1, x2. split; [exact E1|]. split; [exact E2|]. intros t data buf2 H1 H2.
  destruct (send_step P lib a _ _ x2 t data buf2 HC2) as (x3 & E3 & _); auto.
  - rewrite T2. split; [exact (proj1 Hu)|reflexivity].
  - rewrite T2 in E3. exists x3. exact E3.
Qed.

(* ---- C72, C73 ---- *)
Definition status_of_alert (c : bytes) : scode :=
  match c with
  | _ :: d :: _ => if d =? 0 then S_ALERT_CLOSE_NOTIFY else S_ALERT_OTHER
  | _ => S_INVALID_RECORD
  end.

Lemma alert_step : forall P lib a ops rs x r c pad payload buf, connection P lib a ops rs x -> received P a ops rs r -> open_rx r ->
  bytes_ok c -> lenN c + pad <= 16384 ->
  let msg := inner ty_alert c pad in
  let op := CUnprotect (tls_header (lenN msg + 16)) payload buf in
  next_record P r msg payload -> lenN msg <= lenN buf ->
  exists x' out, cstep P lib x op [] = Done (x', CUnprotected (status_of_alert c) 0 out) /\ iov_data out = zeros (lenN buf) /\
    connection P lib a (ops ++ [(op, [])]) (rs ++ [CUnprotected (status_of_alert c) 0 out]) x' /\
    received P a (ops ++ [(op, [])]) (rs ++ [CUnprotected (status_of_alert c) 0 out])
      (let r1 := rx_dir r (dir_next (r_dir r)) in
       match status_of_alert c with S_ALERT_CLOSE_NOTIFY => rx_close r1 | _ => r1 end).
Proof.
  intros P lib a ops rs x r c pad payload buf HC HR Ho Hbc Hl msg op Hn Hbuf.
  assert (Hz : zeros (lenN buf) = zeros (lenN (msg ++ dropN (lenN msg) buf))).
  { rewrite lenN_app, lenN_dropN. f_equal. lia. }
  rewrite Hz. apply rec_step with (r := r); auto; try (unfold ty_alert, ty_handshake; lia).
  - destruct c as [|l [|d rest]]; cbn [status_of_alert].
    + eapply AcAlertShort; [reflexivity|reflexivity].
    + eapply AcAlertShort; [reflexivity|reflexivity].
    + destruct (N.eqb_spec d 0) as [->|Hd]; [eapply AcClose; reflexivity|eapply AcAlert; [reflexivity|exact Hd]].
  - destruct (status_of_alert c); exact (proj2 HR).
Qed.

Lemma U72 : forall P lib a ops rs x r level desc payload buf, connection P lib a ops rs x -> received P a ops rs r -> open_rx r ->
  d_seq (r_dir r) + 1 < two64 -> r_part r = [] -> level < 256 -> desc < 256 -> desc <> 0 ->
  let msg := inner ty_alert [level; desc] 0 in
  next_record P r msg payload -> lenN msg <= lenN buf ->
  exists x' out, cstep P lib x (CUnprotect (tls_header (lenN msg + 16)) payload buf) [] = Done (x', CUnprotected S_ALERT_OTHER 0 out) /\
    then_accepts P lib x' (dir_next (r_dir r)).
Proof.
  intros P lib a ops rs x r level desc payload buf HC HR Ho Hq Hp Hl Hd Hd0 msg Hn Hbuf.
  assert (Hb : bytes_ok [level; desc]) by (repeat (constructor; [assumption|]); constructor).
  destruct (alert_step P lib a ops rs x r [level; desc] 0 payload buf HC HR Ho Hb ltac:(discriminate) Hn Hbuf) as (x' & out & E & _ & HC' & HR').
  cbn [status_of_alert] in *. rewrite (proj2 (N.eqb_neq desc 0) Hd0) in *. exists x', out. split; [exact E|].
  change (dir_next (r_dir r)) with (r_dir (rx_dir r (dir_next (r_dir r)))).
  eapply then_data; [exact HC'|exact HR'|exact (proj1 Ho)| |exact (no_wait _ _ _ _ _ _ _ HC HR Ho Hp)].
  split; [exact (proj1 (proj2 Ho))|exact Hq].
Qed.

Lemma U73 : forall P lib a ops rs x r c pad payload buf, connection P lib a ops rs x -> received P a ops rs r -> open_rx r ->
  bytes_ok c -> lenN c + pad <= 16384 -> lenN c <= 2 ->
  let msg := inner ty_alert c pad in
  next_record P r msg payload -> lenN msg <= lenN buf ->
  exists x' out, cstep P lib x (CUnprotect (tls_header (lenN msg + 16)) payload buf) [] =
      Done (x', CUnprotected (alert_status (alert_of c)) 0 out) /\ iov_data out = zeros (lenN buf).
Proof.
  intros P lib a ops rs x r c pad payload buf HC HR Ho Hbc Hl H2 msg Hn Hbuf.
  destruct (alert_step P lib a ops rs x r c pad payload buf HC HR Ho Hbc Hl Hn Hbuf) as (x' & out & E & Ez & _).
  exists x', out. split; [|exact Ez].
  replace (alert_status (alert_of c)) with (status_of_alert c); [exact E|].
  destruct c as [|l [|d [|e c]]]; try reflexivity; [cbn; destruct (d =? 0); reflexivity|].
  unfold lenN in H2. cbn [length] in H2. lia.
Qed.

Lemma U73long : forall P lib a ops rs x r level desc rest pad payload buf, connection P lib a ops rs x -> received P a ops rs r -> open_rx r ->
  bytes_ok (level :: desc :: rest) -> lenN (level :: desc :: rest) + pad <= 16384 ->
  let msg := inner ty_alert (level :: desc :: rest) pad in
  next_record P r msg payload -> lenN msg <= lenN buf ->
  exists x' out, cstep P lib x (CUnprotect (tls_header (lenN msg + 16)) payload buf) [] =
      Done (x', CUnprotected (alert_status (alert_of [level; desc])) 0 out).
Proof.
  intros P lib a ops rs x r level desc rest pad payload buf HC HR Ho Hbc Hl msg Hn Hbuf.
  destruct (alert_step P lib a ops rs x r _ pad payload buf HC HR Ho Hbc Hl Hn Hbuf) as (x' & out & E & Ez & _).
  exists x', out. replace (alert_status (alert_of [level; desc])) with (status_of_alert (level :: desc :: rest)); [exact E|].
  cbn. destruct (desc =? 0); reflexivity.
Qed.

(* ---- C75 ---- *)
Lemma U75 : forall P lib a ops rs x r pad payload buf, connection P lib a ops rs x -> received P a ops rs r -> open_rx r ->
  d_seq (r_dir r) + 1 < two64 -> r_part r = [] -> pad <= 16384 ->
  let msg := inner ty_handshake [] pad in
  next_record P r msg payload -> lenN msg <= lenN buf ->
  exists x' out, cstep P lib x (CUnprotect (tls_header (lenN msg + 16)) payload buf) [] = Done (x', CUnprotected S_OK 0 out) /\
    then_accepts P lib x' (dir_next (r_dir r)).
Proof.
  intros P lib a ops rs x r pad payload buf HC HR Ho Hq Hp Hl msg Hn Hbuf.
  assert (Hpa : hs_partial []) by (exists (key_update 0); split; [discriminate|exact (proj1 (ku_ok 0 eq_refl))]).
  destruct (hs_step P lib a ops rs x r [] pad payload buf [] [] HC HR Ho Hn (Forall_nil _) Hl Hbuf ltac:(rewrite Hp; reflexivity)
    (Forall_nil _) (Forall_nil _) Hpa (fun K => False_ind _ (K eq_refl)) I) as (x' & out & Es & HC' & HR').
  exists x', out. split; [exact Es|]. cbn [has_key_update empty negb andb] in HR'.
  match type of HR' with received _ _ _ _ ?q => change (dir_next (r_dir r)) with (r_dir q) end.
  eapply then_data; [exact HC'|exact HR'|exact (proj1 Ho)| |].
  - split; [exact (proj1 (proj2 Ho))|exact Hq].
  - cbn [rx_read r_wait empty negb]. destruct (_ && _); reflexivity.
Qed.

(* A message of another type than NewSessionTicket and KeyUpdate. *)
Lemma U74type : forall P lib a ops rs x r c pad payload buf, connection P lib a ops rs x -> received P a ops rs r -> open_rx r ->
  r_part r = [] -> bytes_ok c -> lenN c + pad <= 16384 -> c <> [] -> ~ known c ->
  let msg := inner ty_handshake c pad in
  next_record P r msg payload -> lenN msg <= lenN buf ->
  exists x' out, cstep P lib x (CUnprotect (tls_header (lenN msg + 16)) payload buf) [] = Done (x', CUnprotected S_INTERNAL_ERROR 0 out).
Proof.
  intros P lib a ops rs x r c pad payload buf (H1 & H2 & H3 & H4 & H5) (Hr & Hb) (Hc & Hu) Hp Hbc Hl Hne Hk msg (Hv & Es) Hbuf.
  assert (Hm : lenN msg = lenN c + 1 + pad) by apply lenN_inner.
  destruct (deliver_lemma P lib a ops rs x H1 H2 H3 H4 H5 r Hr Hb msg payload buf Hc Hu) as [_ H]; auto; try lia.
  { apply inner_bytes; [reflexivity|exact Hbc]. }
  destruct (cstep P lib x (CUnprotect (tls_header (lenN msg + 16)) payload buf) []) as [[x' [?|st1 n1 o|?]]|u|] eqn:E; try contradiction.
  - destruct H as (r1 & Ha1 & _).
    assert (Ha : accept P (([] : faults) <> []) (rx_dir r (dir_next (r_dir r))) msg (msg ++ dropN (lenN msg) buf) S_INTERNAL_ERROR 0
        (msg ++ dropN (lenN msg) buf) (rx_bad (rx_dir r (dir_next (r_dir r))) [])).
    { apply (AcBroken P _ _ _ _ c pad [] c []); [reflexivity| |constructor|constructor|left; auto].
      cbn [rx_dir r_part concat app]. rewrite Hp, app_nil_r. reflexivity. }
    destruct (accept_fun _ _ _ _ _ _ _ _ _ _ _ _ _ _ (fun K : ([] : faults) <> [] => K eq_refl) eq_refl Ha1 Ha) as (-> & -> & _).
    exists x', o. reflexivity.
  - exfalso. destruct H as (_ & c1 & p1 & Ei & ms & z & rest & Ec & Hms & Ht & Hz & Hkz & _).
    apply inner_inj in Ei; [|discriminate|discriminate]. destruct Ei as (_ & <- & _). rewrite Hp in Ec. cbn [app] in Ec.
    assert (Hhd : forall (l k : bytes), l <> [] -> known l -> known (l ++ k)) by (intros [|y l] k Hl' Kl; [contradiction (Hl' eq_refl)|exact Kl]).
    apply Hk. rewrite Ec. destruct ms as [|m ms].
    + cbn [concat app]. apply Hhd; [destruct Hz as (t & ->); discriminate|exact Hkz].
    + inversion Hms as [|? ? Hm1 _]; subst. inversion Ht as [|? ? Ht1 _]; subst. cbn [concat]. rewrite <- app_assoc.
      apply Hhd; [destruct Hm1 as (? & ? & ? & ? & ? & -> & _); discriminate|left; exact Ht1].
Qed.

(* ---- the frame protector never changes its key for sending ---- *)
Lemma step_cx_out : forall P lib x hdr ps buf fs x' res, cstep P lib x (CUnprotect hdr ps buf) fs = Done (x', res) -> cx_out x' = cx_out x.
Proof.
  intros P lib x hdr ps buf fs x' res E. cbn [cstep] in E.
  pose proof (unprotect_out P lib x (cx_out x) (IoBuf hdr) ps (IoBuf buf) fs) as Hu.
  rewrite set_out_same in Hu.
  destruct (crypt_unprotect P lib x (IoBuf hdr) ps (IoBuf buf) fs) as [[[[z1 [st n]] o] f]|u|]; cbn [obind] in E; try discriminate.
  cbn [omap] in Hu. injection E as <- _. assert (K : z1 = set_out z1 (cx_out x)) by congruence. rewrite K. reflexivity.
Qed.

Lemma rec_run_out : forall P lib al x id data ops rs opened e x', rec_run P lib al x id data ops rs opened e x' -> cx_out x' = cx_out x.
Proof.
  intros P lib al x id data ops rs opened e x' H. induction H; try reflexivity.
  - eapply step_cx_out; eassumption.
  - rewrite IHrec_run. eapply step_cx_out; eassumption.
Qed.

Lemma dir_adv_adv : forall d j k, dir_adv (dir_adv d j) k = dir_adv d (j + k).
Proof. intros d j k. unfold dir_adv. cbn [d_suite d_secret d_seq d_broken]. f_equal. lia. Qed.
Lemma dir_adv_0 : forall d, dir_adv d 0 = d.
Proof. intros [s t q b]. unfold dir_adv. cbn [d_suite d_secret d_seq d_broken]. f_equal. lia. Qed.

Lemma fstep_key : forall P lib al a f op fs f' r dout d, prims_ok P -> alloc_ok al -> cx_winv P a (fp_crypt f) dout -> fop_ok op ->
  half_rel P (cx_out (fp_crypt f)) d -> fstep P lib al f op fs = Done (f', r) ->
  exists k, half_rel P (cx_out (fp_crypt f')) (dir_adv d k).
Proof.
  intros P lib al a f op fs f' r dout d HP HA W Hok Ro E. destruct (cw_in _ _ _ _ W) as (din & Ri & _).
  destruct op as [input|input id buf|input|input buf]; cbn [fstep] in E.
  - destruct (protect_spec P lib al f input fs din d HP HA Ri Ro Hok) as (h' & st & bufs & fs' & cops & crs & k & A & _ & _ & _ & B & _).
    cbn zeta in A. rewrite A in E. cbn [obind] in E. injection E as <- _. exists k. exact B.
  - assert (Hl : sum_lens input < two64) by (cbn [fop_ok] in Hok; unfold protected_size in Hok; lia).
    destruct (protect_into_spec P lib f input id buf fs din d HP Ri Ro Hl) as (h' & st & out' & fs' & cops & crs & k & A & _ & _ & _ & _ & B & _).
    cbn zeta in A. rewrite A in E. cbn [obind] in E. injection E as <- _. exists k. destruct (is_ok st); exact B.
  - pose proof (unprotect_spec P lib al a f input dout fs HP HA W Hok) as H. exists 0. rewrite dir_adv_0.
    destruct (fp_unprotect P lib al f input fs) as [[[[f1 st] bufs] fs']|u|]; cbn [obind] in E; try discriminate. injection E as <- _.
    destruct H as [(_ & -> & _)|(_ & cops & crs & opened & e & H & _)]; [exact Ro|]. rewrite (rec_run_out _ _ _ _ _ _ _ _ _ _ _ H). exact Ro.
  - pose proof (unprotect_into_spec P lib a f input buf dout fs HP W Hok) as H. exists 0. rewrite dir_adv_0.
    destruct (fp_unprotect_into P lib f input (IoBuf buf) fs) as [[[[[f1 st] out] len] fs']|u|]; cbn [obind] in E; try discriminate. injection E as <- _.
    destruct H as [(_ & -> & _)|[(_ & _ & -> & _)|(_ & hdr & ps & rest & x' & s & n & _ & _ & _ & H & -> & _)]]; [exact Ro|exact Ro|].
    cbn [with_crypt fp_crypt]. rewrite (step_cx_out _ _ _ _ _ _ _ _ _ H). exact Ro.
Qed.

Lemma frun_key : forall P lib al a ops f f' rs dout d, prims_ok P -> alloc_ok al -> cx_winv P a (fp_crypt f) dout -> fops_ok ops ->
  half_rel P (cx_out (fp_crypt f)) d -> frun P lib al f ops = Done (f', rs) ->
  exists k, half_rel P (cx_out (fp_crypt f')) (dir_adv d k).
Proof.
  intros P lib al a ops. induction ops as [|[op fs] ops IH]; intros f f' rs dout d HP HA W Hok Ro E.
  - cbn in E. injection E as <- _. exists 0. rewrite dir_adv_0. exact Ro.
  - inversion Hok as [|? ? H1 H2]; subst. cbn [frun] in E. cbn [fst] in H1.
    destruct (fstep P lib al f op fs) as [[f1 r]|u|] eqn:E1; cbn [obind] in E; try discriminate.
    destruct (frun P lib al f1 ops) as [[f2 rs2]|u|] eqn:E2; cbn [obind] in E; try discriminate. injection E as <- _.
    destruct (fstep_sim P lib al a f op fs f1 r dout HP HA W H1 E1) as (o1 & r1 & A1 & A2 & A3).
    destruct (crun_tx P lib a o1 (fp_crypt f) (fp_crypt f1) r1 dout HP W A2 A1) as (d1 & W1).
    destruct (fstep_key P lib al a f op fs f1 r dout d HP HA W H1 Ro E1) as (j & R1).
    destruct (IH f1 f2 rs2 d1 (dir_adv d j) HP HA W1 H2 R1 E2) as (k & R2). exists (j + k). rewrite <- dir_adv_adv. exact R2.
Qed.

Lemma protector_key : forall P lib al a ops rs f, protector P lib al a ops rs f ->
  exists k, half_rel P (cx_out (fp_crypt f)) (dir_adv (f_out a) k).
Proof.
  intros P lib al a ops rs f (HP & HA & Hi & Ho & Hok & f0 & fs & fs' & Ec & Er).
  destruct (fp_create_inv P lib a fs f0 fs' HP Hi Ho Ec) as (L1 & L2 & L3 & x & Ex & ->).
  destruct (create_winv P lib (c_args a) fs fs' x HP Hi Ho Ex) as [W _].
  exact (frun_key P lib al (c_args a) ops {| fp_crypt := x; fp_max := 16384 + 22; fp_next := 0; fp_events := [] |} f rs _ _ HP HA W Hok (cw_out _ _ _ _ W) Er).
Qed.

Lemma U71protector : forall P lib al a ops rs f, protector P lib al a ops rs f ->
  exists q, ca_out_seq (fa_crypt a) <= q /\
  let d := dir_start (ca_suite (fa_crypt a)) (ca_out_secret (fa_crypt a)) q in
  (forall input fs f' bs, protected_size (sum_lens input) < two64 ->
   fstep P lib al f (FProtect input) fs = Done (f', FProtected kOk bs) ->
   exists blocks, blocks_of (iov_concat input) blocks /\ out_bytes bs = records P d blocks) /\
  (forall input id buf fs f' out, protected_size (sum_lens input) < two64 ->
   fstep P lib al f (FProtectInto input id buf) fs = Done (f', FProtectedInto kOk out) ->
   exists blocks, blocks_of (iov_concat input) blocks /\
     iov_data out = records P d blocks ++ dropN (lenN (records P d blocks)) buf).
Proof.
  intros P lib al a ops rs f Hp. pose proof Hp as (HP & HA & _).
  destruct (protector_winv _ _ _ _ _ _ _ Hp) as (_ & din & _ & _ & Ri).
  destruct (protector_key _ _ _ _ _ _ _ Hp) as (k & Ro).
  exists (ca_out_seq (fa_crypt a) + k). split; [lia|]. cbn zeta.
  change (dir_start (ca_suite (fa_crypt a)) (ca_out_secret (fa_crypt a)) (ca_out_seq (fa_crypt a) + k)) with (dir_adv (f_out a) k).
  set (d := dir_adv (f_out a) k) in *. split.
  - intros input fs f' bs Hs E.
    destruct (protect_spec P lib al f input fs din d HP HA Ri Ro Hs) as (h' & st & bufs & fs' & cops & crs & j & A & B1 & B2 & B3 & B4 & B5 & B6 & B7 & _).
    cbn zeta in A. cbn [fstep] in E. rewrite A in E. cbn [obind] in E. injection E as _ -> ->.
    destruct (B7 eq_refl) as (_ & blocks & K1 & K2 & ->). exists blocks. split; [exact K1|].
    unfold out_bytes. cbn [map List.concat]. rewrite app_nil_r, fb_bytes_eq. cbn [fb_len fb_mem iov_data]. apply takeN_all.
    rewrite lenN_records by exact HP. rewrite (blocks_len _ _ K1), K2. destruct K1 as (-> & _). rewrite K2. unfold protected_size. lia.
  - intros input id buf fs f' out Hs E.
    assert (Hl : sum_lens input < two64) by (unfold protected_size in Hs; lia).
    destruct (protect_into_spec P lib f input id buf fs din d HP Ri Ro Hl) as (h' & st & out' & fs' & cops & crs & j & A & B1 & B2 & B3 & B4 & B5 & B6 & B7 & _).
    cbn zeta in A. cbn [fstep] in E. rewrite A in E. cbn [obind] in E. injection E as _ -> <-.
    destruct (B7 eq_refl) as (_ & _ & blocks & K1 & K2 & ->). exists blocks. split; [exact K1|]. cbn [iov_data]. f_equal. f_equal.
    rewrite lenN_records by exact HP. rewrite (blocks_len _ _ K1), K2. destruct K1 as (-> & _). rewrite K2. unfold protected_size. lia.
Qed.

(* ---- C76 ---- *)
Lemma U76 : forall n P lib a ops rs x data buf, connection P lib a ops rs x ->
  let d := tx_run P (d_out a) ops rs in
  d_broken d = false -> d_seq d + N.of_nat n <= two64 -> lenN data <= 16384 -> lenN data + 22 <= lenN buf ->
  exists x' rs', crun P lib x (repeat (CProtect APPLICATION_DATA [IoBuf data] buf, []) n) = Done (x', rs') /\ length rs' = n /\
    forall i, (i < n)%nat -> nth_error rs' i = Some (CProtected S_OK (lenN data + 22)
      (IoBuf (tls_record P (dir_adv d (N.of_nat i)) ty_application_data data 0 ++ dropN (lenN data + 22) buf))).
Proof.
  induction n as [|n IH]; intros P lib a ops rs x data buf HC d Hb Hq Hl Hbuf.
  - exists x, []. split; [reflexivity|]. split; [reflexivity|]. intros i Hi. lia.
  - destruct (send_step P lib a ops rs x APPLICATION_DATA data buf HC) as (x1 & E1 & HC1 & T1); auto.
    { split; [exact Hb|]. fold d. lia. }
    fold d in T1, E1, HC1. destruct (IH P lib a _ _ x1 data buf HC1) as (x' & rs' & E2 & L & K); auto.
    { rewrite T1. exact Hb. }
    { rewrite T1. cbn [dir_next d_seq]. lia. }
    rewrite T1 in K. cbn [repeat crun]. rewrite E1. cbn [obind]. rewrite E2. cbn [obind]. eexists _, _. split; [reflexivity|].
    split; [cbn [length]; rewrite L; reflexivity|]. intros [|i] Hi; cbn [nth_error].
    + change (N.of_nat 0) with 0. rewrite dir_adv_0. reflexivity.
    + rewrite K by lia. do 4 f_equal. unfold dir_adv, dir_next. cbn [d_suite d_secret d_seq d_broken]. f_equal. f_equal. lia.
Qed.
