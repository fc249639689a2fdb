(* Cases for PropEvery.v. *)
From Coq Require Import List NArith ZArith Bool Lia ZifyBool ZifyNat ZifyN.
From Verif Require Import Base BaseProofs Aead Hkdf HalfConn SpecAead AeadProofs SpecTls Options HsHandler
  Crypter SpecHs SpecRecord SpecRx CrypterRun CrypterRunProofs CrypterLemmas FrameProt SpecFrame FrameRun FrameSim FrameFinal
  FrameRef FrameRefProofs EveryFrame SpecGap GapProofs Toy ToyProofs CrypterRefuted RecordExamples FrameExamples FrameRefuted.
Import ListNotations.
Local Open Scope N_scope.

Definition r0 : rx := rx_start (d_in A0).
Definition five_tickets : list bytes := [ticket [1]; ticket [2]; ticket [3]; ticket [4]; ticket [5]].

Lemma new_case : exists x, connection toy OpenSSL A0 [] [] x /\ received toy A0 [] [] r0 /\ open_rx r0 /\
  d_seq (r_dir r0) + 1 < two64 /\ r_part r0 = [] /\ cx_sent x = [] /\ lenN (tickets_of (r_msgs r0)) < 5.
Proof.
  destruct (play_check toy OpenSSL A0 [] (fun x _ => nothing_sent x)) as (x & rs & R & H); [vm_compute; reflexivity|].
  assert (rs = []) as ->.
  { destruct R as (x0 & fs & fs' & _ & R). cbn in R. injection R as _ <-. reflexivity. }
  exists x. split; [split; [exact toy_ok|]; split; [reflexivity|]; split; [reflexivity|]; split; [constructor|exact R]|].
  split; [split; [constructor|reflexivity]|]. split; [split; [reflexivity|split; reflexivity]|]. split; [reflexivity|]. split; [reflexivity|].
  split; [apply nothing_sent_true; exact H|reflexivity].
Qed.

Lemma five_case : ticket_stream five_tickets [4; 0] /\ bytes_ok (concat five_tickets ++ [4; 0]) /\ lenN (concat five_tickets ++ [4; 0]) <= 16384 /\ lenN five_tickets = 5.
Proof.
  assert (T : forall i, i < 256 -> hs_msg (ticket [i]) /\ is_ticket (ticket [i]) = true).
  { intros i Hi. apply ticket_is_msg; [constructor; [exact Hi|constructor]|discriminate|reflexivity]. }
  split; [|split; [apply bytes_check; vm_compute; reflexivity|split; [vm_compute; discriminate|reflexivity]]].
  split; [repeat (apply Forall_cons; [apply T; reflexivity|]); apply Forall_nil|].
  split; [repeat (apply Forall_cons; [apply T; reflexivity|]); apply Forall_nil|].
  split; [|intros _; reflexivity].
  exists [0; 1; 9]. split; [discriminate|]. exists 4, 0, 0, 1, [9]. repeat split; try discriminate. repeat constructor.
Qed.

(* The second half of a KeyUpdate in a record of its own. *)
Definition ku_msg2 : bytes := inner ty_handshake [0; 1; 0] 0.
Definition ku_record2 : bytes := dir_seal toy (dir_next (r_dir r0)) (tls_header (lenN ku_msg2 + 16)) ku_msg2.
Lemma ku_case : hs_msg ([24; 0] ++ [0; 1; 0]) /\ is_key_update ([24; 0] ++ [0; 1; 0]) = true /\
  forall m, ku_record2 <> dir_seal toy (dir_update toy (dir_next (r_dir r0))) (tls_header (lenN ku_msg2 + 16)) m.
Proof.
  split; [exists 24, 0, 0, 1, [0]; repeat split; try discriminate; repeat constructor|]. split; [reflexivity|].
  intros m E.
  assert (T : forall (x y t u : bytes), x ++ t = y ++ u -> lenN t = lenN u -> x = y /\ t = u).
  { intros x y t u H Lt. pose proof (f_equal lenN H) as K. rewrite !lenN_app in K. apply app_split in H; [tauto|lia]. }
  pose proof (mac_len toy toy_ok) as ML. unfold ku_record2, dir_seal, seal in E. cbv zeta in E.
  apply T in E; [|rewrite !ML; reflexivity]. destruct E as [E1 E2]. rewrite <- E1 in E2. revert E2. vm_compute. discriminate.
Qed.

(* A frame protector that has received a record. *)
Definition one_op : list (fop * faults) := [(FUnprotect [IoBuf rec1], [])].
Definition rx_one : rx := rx_data (rx_dir (rx_start (f_in (fargs S0))) (dir_next (f_in (fargs S0)))).
Definition ref_one : ref := {| f_tx := f_out (fargs S0); f_rx := rx_one |}.
Definition next (c : bytes) : bytes := tls_record toy (r_dir rx_one) ty_application_data c 0.

Lemma rec1_is : rec1 = tls_record toy (r_dir (rx_start (f_in (fargs S0)))) ty_application_data [1; 2; 3] 0.
Proof. vm_compute. reflexivity. Qed.

Lemma one_case : exists rs f, protector toy OpenSSL toy_al (fargs S0) one_op rs f /\ no_failures one_op /\
  ref_run toy (ref_start (fargs S0)) one_op (map answer_of rs) ref_one /\
  r_bad (f_rx ref_one) = false /\ open_rx (f_rx ref_one) /\ r_wait (f_rx ref_one) = false.
Proof.
  assert (Hok : fops_ok one_op).
  { apply Forall_cons; [|apply Forall_nil]. apply unprotect_ok; [vm_compute; reflexivity|repeat constructor]. }
  destruct (fplay_check OpenSSL (fargs S0) one_op (fun _ _ => true)) as (f & rs & Hp & _);
    [vm_compute; reflexivity|reflexivity|reflexivity|exact Hok|].
  exists rs, f. assert (Hn : no_failures one_op) by repeat constructor.
  assert (R : ref_run toy (ref_start (fargs S0)) one_op [ABuffers kOk [[1; 2; 3]]] ref_one).
  { eapply RunStep; [reflexivity| |apply RunNil].
    assert (Ei : iov_concat [IoBuf rec1] = rec1 ++ []) by reflexivity.
    refine (RsUnprotect toy _ (ref_start (fargs S0)) [IoBuf rec1] kOk [[1; 2; 3]] rx_one _ _); rewrite Ei; [vm_compute; discriminate|].
    rewrite rec1_is. refine (next_all toy toy_ok (rx_start (f_in (fargs S0))) _ eq_refl eq_refl [1; 2; 3] _ [] kOk [] rx_one _).
    - split; [reflexivity|split; reflexivity].
    - discriminate.
    - apply RaEnd. reflexivity. }
  split; [exact Hp|]. split; [exact Hn|].
  rewrite (F65det _ _ _ _ _ _ _ _ _ Hp Hn R eq_refl). split; [exact R|].
  split; [reflexivity|]. split; [|reflexivity]. split; [reflexivity|split; reflexivity].
Qed.

(* Continuations of that: the next record with something behind it, in two buffers. *)
Definition with_tail (c tail : bytes) : list iovec := [IoBuf (takeN 3 (next c)); IoBuf (dropN 3 (next c) ++ tail)].
Lemma with_tail_case : Forall nonempty_iov (with_tail [5; 6] [23; 3]) /\ fop_ok (FUnprotect (with_tail [5; 6] [23; 3])) /\
  iov_concat (with_tail [5; 6] [23; 3]) = next [5; 6] ++ [23; 3].
Proof.
  split; [repeat constructor; eexists; (split; [reflexivity|vm_compute; discriminate])|].
  split; [apply unprotect_ok; [vm_compute; reflexivity|repeat constructor]|vm_compute; reflexivity].
Qed.
Lemma with_junk_case : Forall nonempty_iov (with_tail [5; 6] (zeros 22)) /\ fop_ok (FUnprotect (with_tail [5; 6] (zeros 22))) /\
  iov_concat (with_tail [5; 6] (zeros 22)) = next [5; 6] ++ zeros 22 /\ ~ starts_with_record (zeros 22).
Proof.
  split; [repeat constructor; eexists; (split; [reflexivity|vm_compute; discriminate])|].
  split; [apply unprotect_ok; [vm_compute; reflexivity|repeat constructor]|]. split; [vm_compute; reflexivity|].
  intros (hdr & p & rest & E & -> & _). discriminate E.
Qed.

(* C27: the next record, and behind it one with an empty buffer in its header. *)
Definition next2 (c : bytes) : bytes := tls_record toy (dir_next (r_dir rx_one)) ty_application_data c 0.
Definition with_gap : list iovec := [IoBuf (next [5; 6]); IoBuf (takeN 2 (next2 [7])); IoBuf []; IoBuf (dropN 2 (next2 [7]))].
Lemma gap_case : fop_ok (FUnprotect with_gap) /\ exists p rest r, iov_concat with_gap = framed p ++ rest /\
  accepted toy rx_one [p] r /\ r_bad r = false /\ 22 <= lenN rest /\ empty_in_header with_gap (lenN (framed p)) rest.
Proof.
  split; [apply unprotect_ok; [vm_compute; reflexivity|repeat constructor]|].
  set (msg := inner ty_application_data [5; 6] 0).
  set (p := dir_seal toy (r_dir rx_one) (tls_header (lenN msg + 16)) msg).
  assert (Ho : open_rx rx_one) by (split; [reflexivity|split; reflexivity]).
  exists p, (next2 [7]), (rx_data (rx_dir rx_one (dir_next (r_dir rx_one)))). split; [vm_compute; reflexivity|].
  split; [|split; [reflexivity|split; [vm_compute; discriminate|]]].
  - refine (AdCons toy rx_one p (zeros (lenN p)) _ _ _ [] _ eq_refl _ (lenN_zeros _) _ (AdNil _ _)).
    + vm_compute. reflexivity.
    + eapply recv_mono; [|refine (next_recv toy toy_ok rx_one Ho eq_refl [5; 6] _ (zeros (lenN p)) _)]; [intros K; apply K; reflexivity|discriminate|].
      vm_compute. discriminate.
  - exists 2. split; [reflexivity|]. split; [vm_compute; reflexivity|].
    exists [IoBuf (next [5; 6]); IoBuf (takeN 2 (next2 [7]))], (IoBuf []), [IoBuf (dropN 2 (next2 [7]))].
    split; [reflexivity|]. split; [reflexivity|]. vm_compute. reflexivity.
Qed.

(* C23: a null pointer among the input. C31: fewer than 22 bytes. *)
Lemma null_case : ~ Forall iov_valid [IoBuf [1; 2]; IoNull 3] /\ protected_size (sum_lens [IoBuf [1; 2]; IoNull 3]) < two64.
Proof.
  split; [|vm_compute; reflexivity].
  intros H. inversion H as [|? ? _ H2]; subst. inversion H2 as [|? ? H3 _]; discriminate H3.
Qed.
Lemma short_case : fop_ok (FUnprotectInto [IoBuf [23; 3; 3; 0; 1]] (zeros 8)) /\ lenN (iov_concat [IoBuf [23; 3; 3; 0; 1]]) < 22.
Proof. split; [|vm_compute; reflexivity]. repeat split; try solve [vm_compute; reflexivity | repeat constructor]. Qed.
