(* Cases for PropKeyChange.v. *)
From Coq Require Import List NArith ZArith Bool Lia ZifyBool ZifyNat ZifyN.
From Verif Require Import Base BaseProofs Aead Hkdf HalfConn SpecAead AeadProofs SpecTls HkdfProofs HalfProofs Options HsHandler
  Crypter SpecHs SpecRecord SpecRx SpecRxProofs CrypterProofs CrypterRun CrypterRunProofs CrypterLemmas FrameProt SpecFrame FrameRun FrameSim FrameFinal
  Toy ToyProofs CrypterRefuted RecordExamples FrameExamples Conc ConcRun ConcInst2 ConcRead ConcReadExamples ConcMix ConcMixExamples
  EveryCases SpecKeyChange.
Import ListNotations.
Local Open Scope N_scope.

(* ---- a ticket and a KeyUpdate in one record ---- *)
Definition ku_content : bytes := ticket [7] ++ key_update_msg.
Definition ku_op : cop := fst (peer_record toy (d_in A0) (inner ty_handshake ku_content 0)).
Definition ku_check : bool :=
  match play toy OpenSSL A0 [] with
  | Done (x, _) => match cstep toy OpenSSL x ku_op [] with Done (x', _) => (hc_epoch (cx_in x) =? 0) && (hc_epoch (cx_in x') =? 1) | _ => false end
  | _ => false
  end.

Lemma ku_op_ok : cop_ok ku_op.
Proof.
  unfold ku_op, peer_record. cbv zeta. cbn [fst cop_ok]. split; [apply bytes_check; vm_compute; reflexivity|].
  split; [repeat constructor|]. split; [apply bytes_check; vm_compute; reflexivity|vm_compute; reflexivity].
Qed.

Lemma case96 : exists x x' res, connection toy OpenSSL A0 [] [] x /\ received toy A0 [] [] r0 /\ cop_ok ku_op /\
  cstep toy OpenSSL x ku_op [] = Done (x', res) /\ hc_epoch (cx_in x) = 0 /\ hc_epoch (cx_in x') = 1.
Proof.
  assert (H : ku_check = true) by (vm_compute; reflexivity). unfold ku_check in H.
  destruct (play toy OpenSSL A0 []) as [[x rs]|u|] eqn:E; try discriminate.
  destruct (cstep toy OpenSSL x ku_op []) as [[x' res]|u|] eqn:E1; try discriminate.
  apply andb_prop in H. destruct H as [H1 H2]. apply N.eqb_eq in H1, H2.
  apply play_reach in E. assert (rs = []) as ->.
  { destruct E as (x0 & fs & fs' & _ & R). cbn in R. injection R as _ <-. reflexivity. }
  exists x, x', res. split; [split; [exact toy_ok|]; split; [reflexivity|]; split; [reflexivity|]; split; [constructor|exact E]|].
  split; [split; [constructor|reflexivity]|]. split; [exact ku_op_ok|]. auto.
Qed.

(* ---- the two records of the deviation ---- *)
Definition first_msg : bytes := inner ty_handshake [24; 0; 0; 0] 0.
Definition second_msg : bytes := inner ty_handshake [4] 0.
Definition first_record : list iovec := [IoBuf (dir_seal toy (r_dir r0) (tls_header (lenN first_msg + 16)) first_msg)].
Definition second_record : list iovec :=
  [IoBuf (dir_seal toy (dir_update toy (dir_next (r_dir r0))) (tls_header (lenN second_msg + 16)) second_msg)].

Lemma case96_twice : exists x, connection toy OpenSSL A0 [] [] x /\ received toy A0 [] [] r0 /\ open_rx r0 /\ r_part r0 = [] /\
  next_record toy r0 first_msg first_record /\ Forall iov_valid second_record /\
  iov_concat second_record = dir_seal toy (dir_update toy (dir_next (r_dir r0))) (tls_header (lenN second_msg + 16)) second_msg.
Proof.
  destruct new_case as (x & A & B & C & _ & D & _). exists x. split; [exact A|]. split; [exact B|]. split; [exact C|]. split; [exact D|].
  split; [split; [repeat constructor|apply app_nil_r]|]. split; [repeat constructor|apply app_nil_r].
Qed.

(* ---- records that carry no handshake bytes ---- *)
(* Primitives whose tag shows the nonce. *)
Definition shown : prims := {|
  p_hmac := p_hmac toy; p_ks := p_ks toy;
  p_mac := fun a k n d c => takeN 16 (map (fun b => b mod 256) n ++ zeros 16)
|}.

Lemma first_ok : forall n l, bytes_ok l -> bytes_ok (takeN n l).
Proof. intros n l H. apply Forall_forall. intros b Hb. apply (proj1 (Forall_forall _ _) H). unfold takeN in Hb. rewrite <- (firstn_skipn (N.to_nat n) l). apply in_or_app. left. exact Hb. Qed.

Lemma shown_ok : prims_ok shown.
Proof.
  constructor; cbn [shown p_hmac p_ks p_mac]; intros; try apply toy_ok.
  - rewrite lenN_takeN. rewrite lenN_app, lenN_zeros. unfold kAeadTagSize. lia.
  - apply first_ok. apply Forall_app. split; [|apply bytes_ok_zeros].
    apply Forall_forall. intros b Hb. apply in_map_iff in Hb. destruct Hb as (b0 & <- & _). apply N.mod_lt. discriminate.
Qed.

Lemma mod_bytes : forall l, bytes_ok l -> map (fun b => b mod 256) l = l.
Proof. induction 1 as [|b l Hb _ IH]; [reflexivity|]. cbn [map]. rewrite IH, N.mod_small by exact Hb. reflexivity. Qed.

Lemma records_in : forall qs p, Forall (fun p => lenN p < 65536) qs -> has_record (concat (map framed qs)) p -> In p qs.
Proof.
  induction qs as [|q qs IH]; intros p Hq (ps & rest & E & F); cbn [map concat] in E.
  - destruct ps; discriminate.
  - inversion Hq as [|? ? L Ls]; subst. destruct ps as [|p0 ps]; cbn [map concat app] in E.
    + apply framed_inj in E; [|exact L|exact (Forall_inv F)]. left. exact (proj1 E).
    + rewrite <- app_assoc in E. apply framed_inj in E; [|exact L|exact (Forall_inv F)]. destruct E as [_ E]. right.
      apply IH; [exact Ls|]. exists ps, rest. split; [exact E|exact (Forall_inv_tail F)].
Qed.

(* Application data sealed in any state of this key is no record of another type sealed in any other. *)
Lemma shown_differs : forall s S i j c ty content pad, ty <> 0 -> ty <> ty_application_data -> bytes_ok (traffic_iv shown s S) -> lenN (traffic_iv shown s S) = 12 ->
  let p := dir_seal shown {| d_suite := s; d_secret := S; d_seq := i; d_broken := false |}
             (tls_header (lenN (inner ty_application_data c 0) + 16)) (inner ty_application_data c 0) in
  p <> dir_seal shown {| d_suite := s; d_secret := S; d_seq := j; d_broken := false |} (tls_header (lenN p)) (inner ty content pad).
Proof.
  intros s S i j c ty content pad H0 H23 Hb Hl p E.
  assert (L : lenN p = lenN (inner ty_application_data c 0) + 16) by (apply lenN_dir_seal; exact shown_ok).
  rewrite L in E. unfold p, dir_seal in E. cbn [d_suite d_secret d_seq] in E.
  assert (En : record_nonce (traffic_iv shown s S) i = record_nonce (traffic_iv shown s S) j).
  { assert (Es := E). unfold seal in Es. cbv zeta in Es. cbn [shown p_mac] in Es.
    pose proof (f_equal lenN Es) as EL. rewrite !lenN_app, !lenN_takeN, !lenN_app, !lenN_zeros in EL.
    apply app_split in Es; [|lia]. destruct Es as [_ Es].
    assert (B : forall n, bytes_ok (record_nonce (traffic_iv shown s S) n)) by (intros n; apply bytes_ok_xor; [exact Hb|apply be_bytes_ok]).
    rewrite !mod_bytes in Es by apply B. rewrite <- (takeN_app_exact _ (record_nonce (traffic_iv shown s S) i) (zeros 4)).
    rewrite <- (takeN_app_exact _ (record_nonce (traffic_iv shown s S) j) (zeros 4)).
    assert (T : forall n, takeN 16 (record_nonce (traffic_iv shown s S) n ++ zeros 16) = record_nonce (traffic_iv shown s S) n ++ zeros 4).
    { intros n. change (zeros 16) with (zeros 4 ++ zeros 12). rewrite app_assoc.
      replace 16 with (lenN (record_nonce (traffic_iv shown s S) n ++ zeros 4)) at 1; [apply takeN_app_exact|].
      rewrite lenN_app, record_nonce_len by exact Hl. reflexivity. }
    rewrite !T in Es. rewrite Es. rewrite !record_nonce_len by exact Hl. reflexivity. }
  rewrite En in E.
  change (dir_seal shown {| d_suite := s; d_secret := S; d_seq := j; d_broken := false |}
            (tls_header (lenN (inner ty_application_data c 0) + 16)) (inner ty_application_data c 0) =
          dir_seal shown {| d_suite := s; d_secret := S; d_seq := j; d_broken := false |}
            (tls_header (lenN (inner ty_application_data c 0) + 16)) (inner ty content pad)) in E.
  apply dir_seal_inj in E; [|exact shown_ok]. apply (f_equal (fun m => scan_type (rev m))) in E.
  rewrite scan_type_inner in E by discriminate. rewrite scan_type_inner in E by exact H0. injection E as E _. exact (H23 (eq_sym E)).
Qed.

(* What the peer sends: two records of application data. *)
Definition q_data : bytes := records shown (f_in (fargs S0)) [[5]; [6; 7]].
Definition q_calls : list (list mcall) :=
  [[MProtect (r_call [1] 0); MUnprotect (r_call q_data 10)];
   [MProtectInto (r_call [2] 20) (zeros 23); MUnprotect (r_call [23; 3; 3] 30)]].

Lemma q_calls_ok : Forall (Forall m_ok) q_calls.
Proof.
  repeat first [apply Forall_nil|apply Forall_cons].
  all: first [apply r_call_ok; vm_compute; reflexivity | apply unprotect_ok; [vm_compute; reflexivity|repeat constructor]].
Qed.

Definition q_start : bool :=
  match fp_create shown OpenSSL (fargs S0) [] with Done (inr f, _) => hc_epoch (cx_in (fp_crypt f)) =? 0 | _ => false end.

Lemma q_quiet : forall x, hc_epoch (cx_in x) = 0 -> no_handshake shown (fa_crypt (fargs S0)) x q_data.
Proof.
  intros x E p sq content pad Hp. rewrite E.
  change (N.to_nat 0) with O. cbn [nth_secret].
  set (s := ca_suite (fa_crypt (fargs S0))). set (S := ca_in_secret (fa_crypt (fargs S0))).
  assert (Hb : bytes_ok (traffic_iv shown s S)) by (apply bytes_check; vm_compute; reflexivity).
  assert (Hl : lenN (traffic_iv shown s S) = 12) by (vm_compute; reflexivity).
  set (p1 := fun i c => dir_seal shown {| d_suite := s; d_secret := S; d_seq := i; d_broken := false |}
             (tls_header (lenN (inner ty_application_data c 0) + 16)) (inner ty_application_data c 0)).
  assert (L : forall i c, lenN (p1 i c) = lenN (inner ty_application_data c 0) + 16) by (intros i c; apply lenN_dir_seal; exact shown_ok).
  assert (Eq : q_data = concat (map framed [p1 3 [5]; p1 4 [6; 7]])).
  { unfold q_data, framed. cbn [map concat]. rewrite !L, app_nil_r. vm_compute. reflexivity. }
  rewrite Eq in Hp. apply records_in in Hp; [|repeat (apply Forall_cons; [rewrite L; vm_compute; reflexivity|]); apply Forall_nil].
  clear Eq L E. clearbody s S. destruct Hp as [<- | [<- | []]].
  - exact (shown_differs s S 3 sq [5] ty_handshake content pad ltac:(discriminate) ltac:(discriminate) Hb Hl).
  - exact (shown_differs s S 4 sq [6; 7] ty_handshake content pad ltac:(discriminate) ltac:(discriminate) Hb Hl).
Qed.

Lemma short_quiet : forall P a x, no_handshake P a x [23; 3; 3].
Proof.
  intros P a x p sq content pad (ps & rest & E & _) _. apply (f_equal lenN) in E.
  assert (F : forall q, 5 <= lenN (framed q)) by (intros q; unfold framed; rewrite lenN_app, lenN_tls_header; lia).
  rewrite !lenN_app in E. pose proof (F p). cbn [lenN length] in E. change (lenN [23; 3; 3]) with 3 in E. lia.
Qed.

Lemma case96_quiet : exists f, protector shown OpenSSL toy_al (fargs S0) [] [] f /\
  Forall (Forall m_ok) q_calls /\ Forall (Forall (quiet shown (fa_crypt (fargs S0)) (fp_crypt f))) q_calls /\
  fop_ok (FUnprotect [IoBuf q_data]) /\ Forall nonempty_iov [IoBuf q_data] /\
  no_handshake shown (fa_crypt (fargs S0)) (fp_crypt f) (iov_concat [IoBuf q_data]).
Proof.
  assert (H : q_start = true) by (vm_compute; reflexivity). unfold q_start in H.
  destruct (fp_create shown OpenSSL (fargs S0) []) as [[[c|f] fs]|u|] eqn:Ec; try discriminate. apply N.eqb_eq in H.
  assert (N1 : Forall nonempty_iov [IoBuf q_data]).
  { constructor; [|constructor]. exists q_data. split; [reflexivity|]. vm_compute. discriminate. }
  assert (N2 : Forall nonempty_iov [IoBuf [23; 3; 3]]).
  { constructor; [|constructor]. exists [23; 3; 3]. split; [reflexivity|]. discriminate. }
  pose proof (q_quiet (fp_crypt f) H) as Q.
  exists f. split. { split; [exact shown_ok|]. split; [exact toy_al_ok|]. split; [reflexivity|]. split; [reflexivity|]. split; [constructor|].
           exists f, [], fs. split; [exact Ec|reflexivity]. }
  split; [exact q_calls_ok|].
  split. { repeat first [apply Forall_nil|apply Forall_cons]; cbn [quiet]; try exact I; cbn [r_call fc_input].
           - split; [exact N1|]. change (iov_concat [IoBuf q_data]) with (q_data ++ []). rewrite app_nil_r. exact Q.
           - split; [exact N2|]. apply short_quiet. }
  split; [apply unprotect_ok; [vm_compute; reflexivity|repeat constructor]|]. split; [exact N1|].
  change (iov_concat [IoBuf q_data]) with (q_data ++ []). rewrite app_nil_r. exact Q.
Qed.
