(* Cases for PropHeld.v. *)
From Coq Require Import List NArith Bool Lia.
From Verif Require Import Base BaseProofs Aead Hkdf HalfConn SpecAead SpecTls Options HsHandler SpecHs Crypter SpecRecord CrypterProofs
  SpecRx CrypterRun CrypterRunProofs CrypterLemmas CrypterLemmas2 Toy RecordExamples Held HeldProofs HeldFinal.
Import ListNotations.
Local Open Scope N_scope.

Lemma cut_sent : forall lib s, exists x rs r,
  connection toy lib (arg s) [hs_op (d_in (arg s)) two_cut] rs x /\
  received toy (arg s) [hs_op (d_in (arg s)) two_cut] rs r /\ d_broken (r_dir r) = false /\
  r_msgs r = [ticket [1; 2]] /\ r_part r = [4; 0] /\ r_sent r = [].
Proof.
  intros lib s.
  destruct (fresh_connection lib s) as (x & HC & HR & HO).
  pose proof HC as (H1 & H2 & H3 & H4 & H5). destruct HR as (R1 & R2), HO as (O1 & O2).
  set (msg := inner ty_handshake two_cut 0).
  destruct (ticket_is_msg [1; 2]) as [T1 T2]; [repeat constructor|discriminate|reflexivity|].
  assert (Tp : hs_partial [4; 0]).
  { exists [0; 1; 9]. split; [discriminate|]. exists 4, 0, 0, 1, [9]. repeat split; try discriminate. repeat constructor. }
  destruct (hs_lemma toy lib (arg s) [] [] x H1 H2 H3 H4 H5 _ R1 R2 two_cut 0
    [IoBuf (dir_seal toy (d_in (arg s)) (tls_header (lenN msg + 16)) msg)] (zeros (lenN msg)) [ticket [1; 2]] [4; 0])
    as (x' & out & Hop & Hs & Hrx); try assumption.
  - repeat constructor.
  - discriminate.
  - rewrite lenN_zeros. reflexivity.
  - repeat constructor.
  - cbn [iov_concat flat_map iov_data]. rewrite app_nil_r. reflexivity.
  - reflexivity.
  - constructor; [exact T1|constructor].
  - constructor; [left; exact T2|constructor].
  - intros _. left. reflexivity.
  - split; [|exact I]. intro K. discriminate K.
  - exists x', [CUnprotected S_OK 0 out]. eexists.
    split.
    { split; [exact H1|]. split; [exact H2|]. split; [exact H3|]. split; [constructor; [exact Hop|constructor]|].
      exact (creach_snoc _ _ _ _ _ _ _ _ _ _ H5 Hs). }
    split; [split; [exact Hrx|reflexivity]|]. split; [reflexivity|]. split; [reflexivity|]. split; [reflexivity|]. reflexivity.
Qed.

Lemma held_case : forall lib s, exists x rs r,
  connection toy lib (arg s) [hs_op (d_in (arg s)) two_cut] rs x /\
  received toy (arg s) [hs_op (d_in (arg s)) two_cut] rs r /\ d_broken (r_dir r) = false /\
  tickets_of (r_msgs r) = [ticket [1; 2]] /\ r_part r = [4; 0] /\ r_sent r = [] /\ held (cx_handler x) = lenN (ticket [1; 2]) + 2.
Proof.
  intros lib s. destruct (cut_sent lib s) as (x & rs & r & A & B & C & D & E & F). exists x, rs, r.
  split; [exact A|]. split; [exact B|]. split; [exact C|]. split; [rewrite D; reflexivity|]. split; [exact E|]. split; [exact F|].
  rewrite (D89exact _ _ _ _ _ _ _ A B C), F, E, D. reflexivity.
Qed.

Lemma every_case : forall lib s, exists x r, connection toy lib (arg s) [] [] x /\ received toy (arg s) [] [] r /\
  r_closed r = false /\ d_broken (r_dir r) = false /\ d_seq (r_dir r) + 5125 <= two64 /\ r_part r = [] /\ tickets_of (r_msgs r) = [] /\ r_sent r = [].
Proof.
  intros lib s. destruct (fresh_connection lib s) as (x & A & B & _). exists x, (rx_start (d_in (arg s))).
  split; [exact A|]. split; [exact B|]. split; [reflexivity|]. split; [reflexivity|]. split; [discriminate|]. auto.
Qed.

Lemma D89exact2 : forall P lib a ops rs x r, connection P lib a ops rs x -> received P a ops rs r -> d_broken (r_dir r) = false ->
  let handed_over := match r_sent r with [] => false | _ => true end in
  let ts := tickets_of (r_msgs r) in
  held (cx_handler x) =
    (if handed_over then 0 else lenN (concat (firstn 5 ts))) +
    (if (handed_over || (5 <=? lenN ts)) && is_ticket (r_part r) then N.min 4 (lenN (r_part r)) else lenN (r_part r)).
Proof. intros P lib a ops rs x r H1 H2 H3. cbn zeta. rewrite (D89exact P lib a ops rs x r H1 H2 H3). destruct (r_sent r); reflexivity. Qed.
