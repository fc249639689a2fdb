(* The counterexamples of CrypterRefuted.v in the form used by PropRecord.v. *)
From Coq Require Import List NArith ZArith Bool Lia ZifyBool ZifyNat ZifyN.
From Verif Require Import Base BaseProofs Aead Hkdf HalfConn SpecAead SpecTls Options HsHandler
  Crypter SpecHs SpecRecord SpecRx CrypterRun Toy ToyProofs CrypterRefuted RecordExamples.
Import ListNotations.
Local Open Scope N_scope.

Definition five_list : list bytes := [ticket [1]; ticket [2]; ticket [3]; ticket [4]; ticket [5]].

Lemma five_stream : ticket_stream five_list [4].
Proof.
  assert (T : forall i, i < 256 -> hs_msg (ticket [i]) /\ is_ticket (ticket [i]) = true).
  { intros i Hi. apply ticket_is_msg; [repeat constructor; exact Hi|discriminate|reflexivity]. }
  assert (K : forall i, i < 256 -> hs_msg (ticket [i])) by (intros i Hi; exact (proj1 (T i Hi))).
  split; [repeat constructor; apply K; reflexivity|]. split; [repeat constructor|]. split; [|reflexivity].
  exists [0; 0; 1; 9]. split; [discriminate|]. exists 4, 0, 0, 1, [9]. repeat split; try discriminate. repeat constructor.
Qed.

Lemma R13 : exists P lib a ops rs x hdr payload buf x' st out content,
  prims_ok P /\ creach P lib a ops rs x /\
  iov_concat payload = dir_seal P (dir_next (d_in a)) hdr (inner ty_application_data content 0) /\
  cstep P lib x (CUnprotect hdr payload buf) [] = Done (x', CUnprotected st 0 (IoBuf out)) /\
  st <> S_OK /\ content <> [] /\ takeN (lenN content) buf <> content /\ takeN (lenN content) out = content.
Proof.
  destruct C13_refuted_lemma as (x & rs & hdr & payload & buf & x' & st & out & R & El & E & Hs & Hb & Ho).
  exists toy, OpenSSL, A0, (peer_ops toy (d_in A0) [(22, [4])]), rs, x, hdr, payload, buf, x', st, out, [9; 8; 7].
  split; [exact toy_ok|]. split; [exact R|]. split.
  { unfold last_record, peer_record in El. cbn [fst] in El. inversion El; subst.
    cbn [iov_concat flat_map iov_data]. rewrite app_nil_r. reflexivity. }
  split; [exact E|]. split; [rewrite Hs; discriminate|]. split; [discriminate|].
  change (lenN [9; 8; 7]) with 3. split; [rewrite Hb; discriminate|exact Ho].
Qed.

Lemma R17 : exists P lib a ms part data rs x,
  prims_ok P /\ ticket_stream ms part /\ part <> [] /\ data <> [] /\
  creach P lib a (peer_ops P (d_in a) [(22, concat ms ++ part); (23, data)]) rs x /\
  map status rs = [Some (S_OK, 0); Some (S_OK, lenN data)].
Proof.
  destruct C17_refuted_lemma as (x & rs & R & H).
  exists toy, OpenSSL, A0, five_list, [4], [9], rs, x.
  split; [exact toy_ok|]. split; [exact five_stream|]. split; [discriminate|]. split; [discriminate|].
  split; [exact R|exact H].
Qed.

Lemma R20 : exists P lib a ms part rest data1 data2 rs x,
  prims_ok P /\ Forall hs_msg (ms ++ [part ++ rest]) /\
  Forall (fun m => is_ticket m = true) (ms ++ [part ++ rest]) /\ length ms = 5%nat /\
  creach P lib a (peer_ops P (d_in a)
    [(22, concat ms ++ part); (22, rest); (23, data1); (23, data2)]) rs x /\
  map status rs = [Some (S_OK, 0); Some (S_OK, 0); Some (S_OK, lenN data1); Some (S_OK, lenN data2)] /\
  data1 <> [] /\ cx_sent x = [].
Proof.
  destruct C20_refuted_lemma as (x & rs & R & H & S).
  exists toy, OpenSSL, A0, five_list, [4], [0; 0; 1; 6], [9], [10], rs, x.
  split; [exact toy_ok|]. destruct five_stream as (F1 & F2 & _).
  split; [apply Forall_app; split; [exact F1|]; constructor; [|constructor];
          exact (proj1 (ticket_is_msg [6] ltac:(repeat constructor) ltac:(discriminate) eq_refl))|].
  split; [apply Forall_app; split; [exact F2|repeat constructor]|]. split; [reflexivity|].
  split; [exact R|]. split; [exact H|]. split; [discriminate|exact S].
Qed.

Lemma R21 : exists P lib a ku1 ku2 rs x,
  prims_ok P /\ hs_msg (ku1 ++ ku2) /\ is_key_update (ku1 ++ ku2) = true /\
  creach P lib a (peer_ops P (d_in a) [(22, ku1); (22, ku2)]) rs x /\
  map status rs = [Some (S_OK, 0); Some (S_INTERNAL_ERROR, 0)].
Proof.
  destruct C21_refuted_lemma as (x & rs & R & H).
  exists toy, OpenSSL, A0, [24; 0; 0], [1; 0], rs, x. split; [exact toy_ok|].
  split; [exists 24, 0, 0, 1, [0]; repeat split; try discriminate; repeat constructor|].
  split; [reflexivity|]. split; [exact R|exact H].
Qed.

Lemma R22 : exists P lib a x0 u l,
  prims_ok P /\ crypt_create P lib a [] = Done (inr x0, []) /\
  crun P lib x0 (peer_ops P (d_in a) l) = Undef u.
Proof.
  destruct C22_refuted_lemma as (x0 & E & U). exists toy, OpenSSL, A0, x0, UbNegativeShift, empty_tickets.
  split; [exact toy_ok|]. split; [exact E|exact U].
Qed.

(* A KeyUpdate followed by one more byte is refused; the next handshake record
   then shifts by a negative amount. *)
Lemma R22b : exists P lib a c1 c2 rs x u,
  prims_ok P /\ creach P lib a (peer_ops P (d_in a) [(22, c1)]) rs x /\
  map status rs = [Some (S_INTERNAL_ERROR, 0)] /\
  hs_msg c2 /\
  cstep P lib x (fst (peer_record P (dir_next (d_in a)) (inner 22 c2 0))) [] = Undef u.
Proof.
  destruct (play_check toy OpenSSL A0 (peer_ops toy (d_in A0) [(22, [24; 0; 0; 1; 0] ++ [4])])
    (fun x rs => tests (statuses_eq_dec (map status rs) [Some (S_INTERNAL_ERROR, 0)]) &&
       match cstep toy OpenSSL x (fst (peer_record toy (dir_next (d_in A0)) (inner 22 [4; 0; 0; 1; 7] 0))) [] with
       | Undef _ => true | _ => false end)) as (x & rs & R & H); [vm_compute; reflexivity|].
  apply andb_true_iff in H as [Ha Hb].
  destruct (cstep toy OpenSSL x (fst (peer_record toy (dir_next (d_in A0)) (inner 22 [4; 0; 0; 1; 7] 0))) []) as [y|u|] eqn:E;
    try discriminate.
  exists toy, OpenSSL, A0, ([24; 0; 0; 1; 0] ++ [4]), [4; 0; 0; 1; 7], rs, x, u. split; [exact toy_ok|]. split; [exact R|].
  split; [exact (tests_true _ _ Ha)|]. split; [|exact E].
  exists 4, 0, 0, 1, [7]; repeat split; try discriminate; repeat constructor.
Qed.
