(* Concrete connections for the examples in PropRecord.v. *)
From Coq Require Import List NArith ZArith Bool Lia ZifyBool ZifyNat ZifyN.
From Verif Require Import Base BaseProofs Aead Hkdf HalfConn SpecAead SpecTls HalfRun Options HsHandler
  Crypter SpecHs SpecRecord SpecRx CrypterRun CrypterRunProofs CrypterLemmas2 CrypterFinal
  HsRunProofs Toy ToyProofs.
Import ListNotations.
Local Open Scope N_scope.

Definition arg (s : suite) : create_args := toy_args s 3 5.

Lemma fresh_connection : forall lib s, exists x, connection toy lib (arg s) [] [] x /\
  received toy (arg s) [] [] (rx_start (d_in (arg s))) /\ open_rx (rx_start (d_in (arg s))).
Proof.
  intros lib s.
  destruct (play_check toy lib (arg s) [] (fun _ rs => match rs with [] => true | _ => false end)) as (x & rs & R & H);
    [destruct lib, s; vm_compute; reflexivity|].
  destruct rs; [|discriminate]. exists x.
  split; [|split; [split; [constructor|reflexivity]|split; [reflexivity|split; reflexivity]]].
  split; [exact toy_ok|]. split; [reflexivity|]. split; [reflexivity|]. split; [constructor|exact R].
Qed.

Definition hs_op (d : dir) (c : bytes) : cop * faults := peer_record toy d (inner 22 c 0).

Lemma ticket_is_msg : forall b, bytes_ok b -> b <> [] -> lenN b < 16777216 -> hs_msg (ticket b) /\ is_ticket (ticket b) = true.
Proof.
  intros b Hb Hn Hl. split; [|reflexivity].
  exists 4, (lenN b / 256 / 256 mod 256), (lenN b / 256 mod 256), (lenN b mod 256), b.
  split; [reflexivity|]. split; [|split; [|exact Hn]].
  - unfold ticket. constructor; [reflexivity|]. apply Forall_app. split; [apply CrypterLemmas.be_bytes_ok|exact Hb].
  - pose proof (N.div_mod (lenN b) 256). pose proof (N.div_mod (lenN b / 256) 256).
    assert (lenN b / 256 / 256 < 256) by (apply N.div_lt_upper_bound; [lia|]; apply N.div_lt_upper_bound; lia).
    rewrite (N.mod_small (lenN b / 256 / 256)) by assumption. lia.
Qed.

Definition two_cut : bytes := ticket [1; 2] ++ [4; 0].

(* After one complete ticket and two bytes of the next. *)
Lemma cut_connection : forall lib s, exists x rs r,
  connection toy lib (arg s) [hs_op (d_in (arg s)) two_cut] rs x /\
  received toy (arg s) [hs_op (d_in (arg s)) two_cut] rs r /\ open_rx r /\
  r_msgs r = [ticket [1; 2]] /\ r_part r = [4; 0].
Proof.
  intros lib s. destruct (fresh_connection lib s) as (x & HC & HR & HO).
  pose proof HC as (H1 & H2 & H3 & H4 & H5). destruct HR as (R1 & R2), HO as (O1 & O2).
  set (msg := inner ty_handshake two_cut 0).
  destruct (ticket_is_msg [1; 2]) as [T1 T2]; [repeat constructor|discriminate|reflexivity|].
  assert (Tp : hs_partial [4; 0]).
  { exists [0; 1; 9]. split; [discriminate|]. exists 4, 0, 0, 1, [9]. repeat split; try discriminate. repeat constructor. }
  destruct (hs_lemma toy lib (arg s) [] [] x H1 H2 H3 H4 H5 _ R1 R2 two_cut 0
    [IoBuf (dir_seal toy (d_in (arg s)) (tls_header (lenN msg + 16)) msg)] (zeros (lenN msg)) [ticket [1; 2]] [4; 0])
    as (x' & out & Hop & Hs & Hrx); try assumption.
  - repeat constructor.
  - discriminate.
  - rewrite lenN_zeros. reflexivity.
  - repeat constructor.
  - cbn [iov_concat flat_map iov_data]. rewrite app_nil_r. reflexivity.
  - reflexivity.
  - constructor; [exact T1|constructor].
  - constructor; [left; exact T2|constructor].
  - intros _. left. reflexivity.
  - split; [|exact I]. intro K. discriminate K.
  - exists x', [CUnprotected S_OK 0 out]. eexists.
    split.
    { split; [exact H1|]. split; [exact H2|]. split; [exact H3|]. split; [constructor; [exact Hop|constructor]|].
      exact (creach_snoc _ _ _ _ _ _ _ _ _ _ H5 Hs). }
    split; [split; [exact Hrx|reflexivity]|]. split; [|split; reflexivity].
    split; [reflexivity|]. split; reflexivity.
Qed.

(* After five complete tickets and two bytes of the sixth in one record. *)
Definition five_cut : bytes :=
  ticket [1] ++ ticket [2] ++ ticket [3] ++ ticket [4] ++ ticket [5] ++ [4; 0].
Lemma five_cut_connection : forall lib s, exists x rs r,
  connection toy lib (arg s) [hs_op (d_in (arg s)) five_cut] rs x /\
  received toy (arg s) [hs_op (d_in (arg s)) five_cut] rs r /\ open_rx r /\
  r_part r = [4; 0] /\ r_wait r = false /\ r_sent r = [].
Proof.
  intros lib s. destruct (fresh_connection lib s) as (x & HC & HR & HO).
  pose proof HC as (H1 & H2 & H3 & H4 & H5). destruct HR as (R1 & R2), HO as (O1 & O2).
  set (msg := inner ty_handshake five_cut 0).
  assert (T : forall n, n < 256 -> hs_msg (ticket [n]) /\ is_ticket (ticket [n]) = true).
  { intros n Hn. apply ticket_is_msg; [constructor; [exact Hn|constructor]|discriminate|reflexivity]. }
  assert (Tp : hs_partial [4; 0]).
  { exists [0; 1; 9]. split; [discriminate|]. exists 4, 0, 0, 1, [9]. repeat split; try discriminate. repeat constructor. }
  destruct (hs_lemma toy lib (arg s) [] [] x H1 H2 H3 H4 H5 _ R1 R2 five_cut 0
    [IoBuf (dir_seal toy (d_in (arg s)) (tls_header (lenN msg + 16)) msg)] (zeros (lenN msg))
    [ticket [1]; ticket [2]; ticket [3]; ticket [4]; ticket [5]] [4; 0])
    as (x' & out & Hop & Hs & Hrx); try assumption.
  - repeat constructor.
  - discriminate.
  - rewrite lenN_zeros. reflexivity.
  - repeat constructor.
  - cbn [iov_concat flat_map iov_data]. rewrite app_nil_r. reflexivity.
  - reflexivity.
  - repeat (constructor; [apply T; reflexivity|]). constructor.
  - repeat (constructor; [left; apply T; reflexivity|]). constructor.
  - intros _. left. reflexivity.
  - repeat (split; [intro K; discriminate K|]). exact I.
  - exists x', [CUnprotected S_OK 0 out]. eexists.
    split.
    { split; [exact H1|]. split; [exact H2|]. split; [exact H3|]. split; [constructor; [exact Hop|constructor]|].
      exact (creach_snoc _ _ _ _ _ _ _ _ _ _ H5 Hs). }
    split; [split; [exact Hrx|reflexivity]|]. split; [|split; [reflexivity|split; reflexivity]].
    split; [reflexivity|]. split; reflexivity.
Qed.

(* Any message can be the next record, in two pieces. *)
Lemma next_exists : forall r msg, next_record toy r msg
  (let s := dir_seal toy (r_dir r) (tls_header (lenN msg + 16)) msg in [IoBuf (takeN 3 s); IoNull 0; IoBuf (dropN 3 s)]).
Proof.
  intros r msg. split; [repeat constructor|].
  unfold iov_concat. cbn [flat_map iov_data]. rewrite app_nil_r. cbn [app]. apply firstn_skipn.
Qed.

(* Five tickets in one record are handed over. *)
Definition five_tickets : bytes :=
  ticket [1] ++ ticket [2] ++ ticket [3] ++ ticket [4] ++ ticket [5].
Definition sent_tickets (x : crypt) : list (list bytes) := map ts_tickets (cx_sent x).
Definition lists_eq_dec : forall x y : list (list bytes), {x = y} + {x <> y}.
Proof. repeat decide equality. Defined.

Lemma five_sent : exists x rs,
  creach toy OpenSSL (arg AES_128_GCM_SHA256) [hs_op (d_in (arg AES_128_GCM_SHA256)) five_tickets] rs x /\
  sent_tickets x = [[ticket [1]; ticket [2]; ticket [3]; ticket [4]; ticket [5]]].
Proof.
  destruct (play_check toy OpenSSL (arg AES_128_GCM_SHA256) [hs_op (d_in (arg AES_128_GCM_SHA256)) five_tickets]
    (fun x _ => tests (lists_eq_dec (sent_tickets x) [[ticket [1]; ticket [2]; ticket [3]; ticket [4]; ticket [5]]])))
    as (x & rs & R & H); [vm_compute; reflexivity|].
  exists x, rs. split; [exact R|exact (tests_true _ _ H)].
Qed.

(* A ticket, then a record with a second ticket and a message of unknown type,
   which is refused, then application data: both tickets are handed over. *)
Definition broken_ops (s : suite) : list (cop * faults) :=
  peer_ops toy (d_in (arg s)) [(22, ticket [1]); (22, ticket [2] ++ [99] ++ ticket [3]); (23, [9; 0; 0])].
Lemma broken_sent : forall lib s, exists x rs,
  creach toy lib (arg s) (broken_ops s) rs x /\
  map status rs = [Some (S_OK, 0); Some (S_INTERNAL_ERROR, 0); Some (S_OK, 3)] /\
  sent_tickets x = [[ticket [1]; ticket [2]]].
Proof.
  intros lib s. destruct (play_check toy lib (arg s) (broken_ops s)
    (fun x rs => tests (statuses_eq_dec (map status rs) [Some (S_OK, 0); Some (S_INTERNAL_ERROR, 0); Some (S_OK, 3)]) &&
      tests (lists_eq_dec (sent_tickets x) [[ticket [1]; ticket [2]]])))
    as (x & rs & R & H); [destruct lib, s; vm_compute; reflexivity|].
  apply andb_true_iff in H as [Ha Hb].
  exists x, rs. split; [exact R|]. split; [exact (tests_true _ _ Ha)|exact (tests_true _ _ Hb)].
Qed.

(* A ticket, a NewSessionTicket without a body and four more bytes; with three
   more bytes. *)
Lemma fatal_example : fatal ([4; 0] ++ [0; 1; 7; 4; 0; 0; 0; 4; 0; 0; 1]) /\
  ~ fatal ([4; 0] ++ [0; 1; 7; 4; 0; 0; 0; 4; 0; 0]).
Proof.
  assert (T : hs_msg [4; 0; 0; 1; 7]) by (exists 4, 0, 0, 1, [7]; repeat split; try discriminate; repeat constructor).
  split.
  - exists [[4; 0; 0; 1; 7]], [4; 0; 0; 0], [4; 0; 0; 1]. split; [reflexivity|]. split; [constructor; [exact T|constructor]|].
    split; [constructor; [reflexivity|constructor]|]. split; [exists 4; reflexivity|]. split; [left; reflexivity|]. discriminate.
  - intros (ms & z & rest & E & M & Tk & Hz & Hk & L).
    assert (Hms : ms = [[4; 0; 0; 1; 7]]).
    { apply (SpecRxProofs.breaks_unique _ z rest _ [4; 0; 0; 0] [4; 0; 0]); auto.
      - right; right. auto.
      - right; right. split; [exists 4; reflexivity|left; reflexivity]. }
    subst ms. destruct Hz as (t & ->). cbn in E. inversion E; subst. vm_compute in L. apply L. reflexivity.
Qed.

(* A ticket, then application data: handed over; then close_notify. *)
Definition data_ops (s : suite) : list (cop * faults) :=
  peer_ops toy (d_in (arg s)) [(22, ticket [1]); (23, [9; 0; 0]); (21, [1; 0]); (23, [9])].
Definition statuses_of (rs : list cres) := map status rs.
Lemma data_sent : forall lib s, exists x rs,
  creach toy lib (arg s) (data_ops s) rs x /\
  statuses_of rs = [Some (S_OK, 0); Some (S_OK, 3); Some (S_ALERT_CLOSE_NOTIFY, 0); Some (S_ALERT_CLOSE_NOTIFY, 0)] /\
  sent_tickets x = [[ticket [1]]].
Proof.
  intros lib s. destruct (play_check toy lib (arg s) (data_ops s)
    (fun x rs => tests (statuses_eq_dec (statuses_of rs)
        [Some (S_OK, 0); Some (S_OK, 3); Some (S_ALERT_CLOSE_NOTIFY, 0); Some (S_ALERT_CLOSE_NOTIFY, 0)]) &&
      tests (lists_eq_dec (sent_tickets x) [[ticket [1]]])))
    as (x & rs & R & H); [destruct lib, s; vm_compute; reflexivity|].
  apply andb_true_iff in H as [Ha Hb].
  exists x, rs. split; [exact R|]. split; [exact (tests_true _ _ Ha)|exact (tests_true _ _ Hb)].
Qed.
