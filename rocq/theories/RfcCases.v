(* Refutations and cases for PropRfc.v. *)
From Coq Require Import List NArith ZArith Bool Lia ZifyBool ZifyNat ZifyN.
From Verif Require Import Base BaseProofs Aead Hkdf HalfConn SpecAead AeadProofs SpecTls Options HsHandler
  Crypter SpecHs SpecRecord SpecRx CrypterProofs CrypterRun FrameProt SpecFrame FrameRun FrameLink SpecRfc Rfc Toy ToyProofs CrypterRefuted FrameExamples EveryCases.
Import ListNotations.
Local Open Scope N_scope.

Lemma sealed_next : forall P r msg, next_record P r msg [IoBuf (sealed P (r_dir r) msg)].
Proof. intros P r msg. split; [constructor; [exact I|constructor]|]. apply app_nil_r. Qed.

(* ---- C71 ---- *)
Definition update_ops : list (fop * faults) :=
  [(FUnprotect [IoBuf (tls_record toy (f_in (fargs S0)) ty_handshake (key_update 1) 0)], []); (FProtect [IoBuf [7; 7]], [])].
Lemma update_ops_ok : fops_ok update_ops.
Proof.
  apply Forall_cons; [apply unprotect_ok; [vm_compute; reflexivity|repeat constructor]|].
  apply Forall_cons; [apply N.ltb_lt; vm_compute; reflexivity|apply Forall_nil].
Qed.
Lemma R71 : exists P lib al a rs f bs1 bs2,
  protector P lib al a
    [(FUnprotect [IoBuf (tls_record P (f_in a) ty_handshake (key_update 1) 0)], []); (FProtect [IoBuf [7; 7]], [])] rs f /\
  rs = [FUnprotected kOk bs1; FProtected kOk bs2] /\ out_bytes bs2 = tls_record P (f_out a) ty_application_data [7; 7] 0.
Proof.
  destruct (fplay_check OpenSSL (fargs S0) update_ops (fun f rs =>
    match rs with
    | [FUnprotected st1 bs1; FProtected st2 bs2] => code_eqb st1 kOk && code_eqb st2 kOk &&
       bytes_eqb (out_bytes bs2) (tls_record toy (f_out (fargs S0)) ty_application_data [7; 7] 0)
    | _ => false end)) as (f & rs & Hp & Hc); [vm_compute; reflexivity|reflexivity|reflexivity|exact update_ops_ok|].
  destruct rs as [|[st1 bs1|st1 out1|st1 bs1|st1 out1 n1] [|[st2 bs2|st2 out2|st2 bs2|st2 out2 n2] [|r3 rs]]]; try discriminate.
  apply andb_prop in Hc. destruct Hc as [Hc A3]. apply andb_prop in Hc. destruct Hc as [A1 A2].
  apply code_eqb_eq in A1, A2. apply bytes_eqb_eq in A3. subst.
  exists toy, OpenSSL, toy_al, (fargs S0), [FUnprotected kOk bs1; FProtected kOk bs2], f, bs1, bs2.
  split; [exact Hp|]. split; [reflexivity|exact A3].
Qed.

(* ---- C72 ---- *)
Lemma data_ok : forall x d, then_accepts toy OpenSSL x d ->
  exists x2 out, cstep toy OpenSSL x (receive_op toy d (inner ty_application_data [1; 2; 3] 0)) [] =
    Done (x2, CUnprotected S_OK 3 out) /\ takeN 3 (iov_data out) = [1; 2; 3].
Proof.
  intros x d H.
  destruct (H [1; 2; 3] [IoBuf (sealed toy d (inner ty_application_data [1; 2; 3] 0))] (zeros 4)) as (x2 & out & E & K);
    [repeat constructor|discriminate|discriminate|repeat constructor|apply app_nil_r|].
  exists x2, out. split; [exact E|exact K].
Qed.

Lemma R72 : exists P lib a x x1 x2 out out2, connection P lib a [] [] x /\
  cstep P lib x (receive_op P (d_in a) (inner ty_alert [2; 40] 0)) [] = Done (x1, CUnprotected S_ALERT_OTHER 0 out) /\
  cstep P lib x1 (receive_op P (dir_next (d_in a)) (inner ty_application_data [1; 2; 3] 0)) [] =
    Done (x2, CUnprotected S_OK 3 out2) /\ takeN 3 (iov_data out2) = [1; 2; 3].
Proof.
  destruct new_case as (x & HC & HR & Ho & Hq & Hp & _).
  destruct (U72 toy OpenSSL A0 [] [] x r0 2 40 _ (zeros 3) HC HR Ho Hq Hp eq_refl eq_refl ltac:(discriminate) (sealed_next _ _ _) ltac:(discriminate)) as (x1 & out & E & K).
  destruct (data_ok _ _ K) as (x2 & out2 & E2 & K2).
  exists toy, OpenSSL, A0, x, x1, x2, out, out2. split; [exact HC|]. split; [exact E|]. split; [exact E2|exact K2].
Qed.

(* ---- C73 ---- *)
Lemma R73 : exists P lib a x x1 out c, connection P lib a [] [] x /\ alert_of c = AlertMalformed /\
  cstep P lib x (receive_op P (d_in a) (inner ty_alert c 0)) [] = Done (x1, CUnprotected S_ALERT_CLOSE_NOTIFY 0 out).
Proof.
  destruct new_case as (x & HC & HR & Ho & Hq & Hp & _).
  destruct (U73long toy OpenSSL A0 [] [] x r0 1 0 [9] 0 _ (zeros 4) HC HR Ho ltac:(repeat constructor) ltac:(discriminate) (sealed_next _ _ _) ltac:(discriminate)) as (x1 & out & E).
  exists toy, OpenSSL, A0, x, x1, out, [1; 0; 9]. split; [exact HC|]. split; [reflexivity|exact E].
Qed.

(* ---- C74 ---- *)
Lemma R74 : exists P lib a x x1 x2 out out2 m, connection P lib a [] [] x /\ hs_msg m /\ is_key_update m = true /\ ~ proper_key_update m /\
  cstep P lib x (receive_op P (d_in a) (inner ty_handshake m 0)) [] = Done (x1, CUnprotected S_OK 0 out) /\
  cstep P lib x1 (receive_op P (dir_update P (dir_next (d_in a))) (inner ty_application_data [1; 2; 3] 0)) [] =
    Done (x2, CUnprotected S_OK 3 out2) /\ takeN 3 (iov_data out2) = [1; 2; 3].
Proof.
  destruct new_case as (x & HC & HR & Ho & Hq & Hp & _). destruct (ku_ok 7 eq_refl) as [K1 K2].
  destruct (U74 toy OpenSSL A0 [] [] x r0 (key_update 7) 0 _ (zeros 6) HC HR Ho Hp K1 K2 ltac:(discriminate) (sealed_next _ _ _) ltac:(discriminate)) as (x1 & out & E & K & _).
  destruct (data_ok _ _ K) as (x2 & out2 & E2 & K3).
  exists toy, OpenSSL, A0, x, x1, x2, out, out2, (key_update 7). split; [exact HC|]. split; [exact K1|]. split; [exact K2|].
  split; [intros [Q|Q]; discriminate Q|]. split; [exact E|]. split; [exact E2|exact K3].
Qed.

(* ---- C75 ---- *)
Lemma R75 : exists P lib a x x1 out, connection P lib a [] [] x /\
  cstep P lib x (receive_op P (d_in a) (inner ty_handshake [] 0)) [] = Done (x1, CUnprotected S_OK 0 out).
Proof.
  destruct new_case as (x & HC & HR & Ho & Hq & Hp & _).
  destruct (U75 toy OpenSSL A0 [] [] x r0 0 _ (zeros 1) HC HR Ho Hq Hp ltac:(discriminate) (sealed_next _ _ _) ltac:(discriminate)) as (x1 & out & E & _).
  exists toy, OpenSSL, A0, x, x1, out. split; [exact HC|exact E].
Qed.

(* ---- C76 ---- *)
Lemma R76 : exists P lib a x x' rs data buf, connection P lib a [] [] x /\ ca_suite a = AES_128_GCM_SHA256 /\ lenN data = 16384 /\
  crun P lib x (repeat (CProtect APPLICATION_DATA [IoBuf data] buf, []) (N.to_nat (aes_gcm_limit + 1))) = Done (x', rs) /\
  lenN rs = aes_gcm_limit + 1 /\
  forall i, i <= aes_gcm_limit -> exists out, nth_error rs (N.to_nat i) = Some (CProtected S_OK (16384 + 22) (IoBuf out)) /\
    takeN (16384 + 22) out = tls_record P (dir_adv (d_out a) i) ty_application_data data 0.
Proof.
  destruct new_case as (x & HC & _). remember (zeros 16384) as data eqn:Ed.
  assert (Hl : lenN data = 16384) by (rewrite Ed; apply lenN_zeros). clear Ed.
  remember (zeros 16406) as buf eqn:Eb. assert (Hb : lenN buf = 16406) by (rewrite Eb; apply lenN_zeros). clear Eb.
  remember (N.to_nat (aes_gcm_limit + 1)) as n eqn:En.
  assert (Hn : N.of_nat n = aes_gcm_limit + 1) by (rewrite En; apply N2Nat.id). clear En.
  destruct (U76 n toy OpenSSL A0 [] [] x data buf HC eq_refl) as (x' & rs & E & L & K).
  - rewrite Hn. discriminate.
  - rewrite Hl. discriminate.
  - rewrite Hl, Hb. discriminate.
  - exists toy, OpenSSL, A0, x, x', rs, data, buf. split; [exact HC|]. split; [reflexivity|]. split; [exact Hl|]. split; [exact E|].
    split; [unfold lenN; rewrite L; exact Hn|]. intros i Hi. eexists. split; [rewrite K by lia; rewrite Hl; reflexivity|].
    rewrite N2Nat.id. cbn [tx_run].
    replace (16384 + 22) with (lenN (tls_record toy (dir_adv (d_out A0) i) ty_application_data data 0)) at 1; [apply takeN_app_exact|].
    rewrite lenN_tls_record by exact toy_ok. rewrite Hl. reflexivity.
Qed.

Lemma strange_update : hs_msg (key_update 7) /\ is_key_update (key_update 7) = true /\ ~ proper_key_update (key_update 7).
Proof. destruct (ku_ok 7 eq_refl) as [K1 K2]. split; [exact K1|]. split; [exact K2|]. intros [Q|Q]; discriminate Q. Qed.
Lemma other_type : bytes_ok [11; 0; 0; 1; 5] /\ ~ known [11; 0; 0; 1; 5].
Proof. split; [repeat constructor|]. intros [K|K]; discriminate K. Qed.
