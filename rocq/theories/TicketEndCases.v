(* Cases for C69, C70. *)
From Coq Require Import List NArith ZArith Bool Lia ZifyBool ZifyNat ZifyN.
From Verif Require Import Base BaseProofs Aead Hkdf HalfConn Options Wire SpecWire SpecOptions SpecAead SpecTls HsHandler Crypter SpecHs SpecRecord SpecRx
  CrypterRun CrypterFinal Toy ToyProofs CrypterRefuted RecordExamples TicketEnd SpecTicketEnd TicketEndProofs.
Import ListNotations.
Local Open Scope N_scope.

Definition A70 : create_args := arg AES_128_GCM_SHA256.
Definition ops70 : list (cop * faults) := [hs_op (d_in A70) five_tickets].

Lemma sent_case : exists rs x r s, connection toy OpenSSL A70 ops70 rs x /\ rx_run toy (rx_start (d_in A70)) ops70 rs r /\
  cx_sent x = [s] /\ ts_tickets s = [ticket [1]; ticket [2]; ticket [3]; ticket [4]; ticket [5]].
Proof.
  destruct five_sent as (x & rs & HR & HS).
  assert (HC : connection toy OpenSSL A70 ops70 rs x).
  { split; [exact toy_ok|]. split; [reflexivity|]. split; [reflexivity|]. split; [|exact HR].
    constructor; [|constructor]. unfold hs_op, peer_record. cbn [fst]. split; [vm_compute; repeat constructor|].
    split; [repeat constructor|]. split; [vm_compute; repeat constructor|vm_compute; reflexivity]. }
  destruct (Wrx _ _ _ _ _ _ HC) as (r & Hr). unfold sent_tickets in HS.
  destruct (cx_sent x) as [|s [|s' l]] eqn:E; try discriminate HS. exists rs, x, r, s. split; [exact HC|]. split; [exact Hr|]. split; [exact E|]. cbn [map] in HS. congruence.
Qed.
Lemma identity_case : id_type_of (ca_identity A70) <> NONE /\ nul_free (id_string (ca_identity A70)) /\
  text is_utf8 (id_string (ca_identity A70)) /\ lenN (id_string (ca_identity A70)) < 1073741824 /\ ca_connection_id A70 < two64.
Proof.
  split; [discriminate|]. split; [intros [K|[]]; discriminate K|]. split; [reflexivity|]. split; reflexivity.
Qed.
(* A sender that starts something which fails. *)
Definition failing_sender : sender := fun k _ => {| sr_writes := [[N.of_nat k]]; sr_wait := Some 9 |}.
Lemma destroy_case : exists rs x res, connection toy OpenSSL A70 ops70 rs x /\ results failing_sender 0 (cx_sent x) res /\
  all_waits res = [9] /\ crypt_destroy failing_sender (fun _ => false) x = [EvWait 9; EvLogFailure].
Proof.
  destruct sent_case as (rs & x & r & s & HC & _ & E & _). exists rs, x. eexists. split; [exact HC|]. unfold crypt_destroy. rewrite E.
  split; [repeat constructor|]. split; reflexivity.
Qed.

Lemma R70 : exists P lib a ops rs x r res, connection P lib a ops rs x /\ rx_run P (rx_start (d_in a)) ops rs r /\
  5 <= lenN (tickets_of (r_msgs r)) /\ cx_sent x <> [] /\ results send_tickets_to_s2a 0 (cx_sent x) res /\ all_writes res = [].
Proof.
  destruct sent_case as (rs & x & r & s & HC & Hr & E & Et).
  exists toy, OpenSSL, A70, ops70, rs, x, r. eexists.
  split; [exact HC|]. split; [exact Hr|]. rewrite E. split; [|split; [discriminate|split; [repeat constructor|reflexivity]]].
  destruct (W19r _ _ _ _ _ _ HC r Hr) as [K|(s' & rest & K & _ & _ & Ht & _)]; rewrite E in K; [discriminate|].
  injection K as <-. rewrite Ht, Et, lenN_app. apply N.le_add_r.
Qed.
