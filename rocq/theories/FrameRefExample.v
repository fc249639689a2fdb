(* A case for PropFrameRef.v: two records received, one sent. *)
From Coq Require Import List NArith ZArith Bool Lia ZifyBool ZifyNat ZifyN.
From Verif Require Import Base BaseProofs Aead SpecAead Hkdf HalfConn SpecTls Options HsHandler SpecHs Crypter
  SpecRecord SpecRx CrypterRun FrameProt SpecFrame FrameRun FrameLink FrameTrip FrameFinal
  Toy ToyProofs FrameExamples FrameRef FrameRefProofs.
Import ListNotations.
Local Open Scope N_scope.

Lemma ex_recv : forall r p c, lenN p < 65536 -> r_closed r = false -> r_wait r = false ->
  well_formed (tls_header (lenN p)) (lenN p) -> dir_usable (r_dir r) ->
  p = dir_seal toy (r_dir r) (tls_header (lenN p)) (inner ty_application_data c 0) ->
  lenN c + 1 <= lenN p ->
  recv toy ([] <> @nil bool) r (tls_header (lenN p)) p (zeros (lenN p)) S_OK (lenN c)
    (inner ty_application_data c 0 ++ dropN (lenN (inner ty_application_data c 0)) (zeros (lenN p)))
    (rx_data (rx_dir r (dir_next (r_dir r)))).
Proof.
  intros r p c Hp Hc Hw Hf Hu E Hl.
  eapply RvRecord; [exact Hc|exact Hf|exact Hu|exact E| |].
  - rewrite lenN_zeros. unfold inner. rewrite !lenN_app. change (lenN [ty_application_data]) with 1. change (lenN (zeros 0)) with 0. unfold bytes in *. lia.
  - eapply AcData; [reflexivity|exact Hw].
Qed.

Lemma next_ok : forall F r p rest buf n out r1 c cs r', lenN p < 65536 -> 22 <= lenN (framed p ++ rest) ->
  lenN buf = lenN p -> recv toy F r (tls_header (lenN p)) p buf S_OK n out r1 -> r_bad r1 = false ->
  recv_all toy F r1 rest kOk cs r' -> c = takeN n out ->
  recv_all toy F r (framed p ++ rest) kOk (c :: cs) r'.
Proof.
  intros F r p rest buf n out r1 c cs r' H1 H2 H3 H4 H5 H6 ->.
  exact (RaNext toy F r p rest buf n out r1 kOk cs r' H1 H2 H3 H4 H5 H6).
Qed.

Definition rec_payload (d : dir) (c : bytes) : bytes :=
  dir_seal toy d (tls_header (lenN c + 17)) (inner ty_application_data c 0).

Definition ex_answers : list answer :=
  [ABuffers kOk [[1; 2; 3]; [4]]; ABuffers kOk [records toy (f_out (fargs S0)) [[7; 7]]]].
Definition ex_state : ref :=
  {| f_tx := dir_next (f_out (fargs S0));
     f_rx := let r := rx_start (f_in (fargs S0)) in
             let r1 := rx_data (rx_dir r (dir_next (r_dir r))) in rx_data (rx_dir r1 (dir_next (r_dir r1))) |}.

Lemma ex_run : ref_run toy (ref_start (fargs S0)) ops2 ex_answers ex_state.
Proof.
  unfold ops2, ex_answers.
  eapply RunStep with (s1 := {| f_tx := f_out (fargs S0); f_rx := f_rx ex_state |}); [reflexivity| |].
  - apply RsUnprotect; [apply N.leb_le; vm_compute; reflexivity|].
    replace (iov_concat [IoBuf rec2]) with (framed (rec_payload (f_in (fargs S0)) [1; 2; 3]) ++
      framed (rec_payload (dir_next (f_in (fargs S0))) [4]) ++ []) by (vm_compute; reflexivity).
    eapply next_ok; [reflexivity|apply N.leb_le; vm_compute; reflexivity|apply lenN_zeros|..].
    + apply (ex_recv (rx_start (f_in (fargs S0))) _ [1; 2; 3]); try reflexivity.
      * split; [vm_compute; reflexivity|]. split; apply N.leb_le; vm_compute; reflexivity.
      * split; reflexivity.
      * apply N.leb_le. vm_compute. reflexivity.
    + reflexivity.
    + eapply next_ok; [reflexivity|apply N.leb_le; vm_compute; reflexivity|apply lenN_zeros|..].
      * eapply (ex_recv _ _ [4]); try reflexivity.
        -- split; [vm_compute; reflexivity|]. split; apply N.leb_le; vm_compute; reflexivity.
        -- split; reflexivity.
        -- apply N.leb_le. vm_compute. reflexivity.
      * reflexivity.
      * apply RaEnd; reflexivity.
      * reflexivity.
    + reflexivity.
  - eapply RunStep; [reflexivity| |apply RunNil].
    refine (RsProtect toy _ {| f_tx := f_out (fargs S0); f_rx := f_rx ex_state |} [IoBuf [7; 7]] [[7; 7]] (zeros 24) kOk
      (tls_record toy (f_out (fargs S0)) ty_application_data [7; 7] 0 ++ []) (dir_next (f_out (fargs S0))) _ _ _ _).
    + repeat constructor.
    + split; [reflexivity|]. exists [], [7; 7]. repeat split; try constructor; try discriminate. 
    + reflexivity.
    + apply SaNext; [apply N.leb_le; reflexivity|split; reflexivity|]. apply SaDone.
Qed.

Lemma ref_case : exists f rs s, protector toy OpenSSL toy_al (fargs S0) ops2 rs f /\
  no_failures ops2 /\
  ref_run toy (ref_start (fargs S0)) ops2 (map answer_of rs) s /\ r_bad (f_rx s) = false /\
  map answer_of rs = [ABuffers kOk [[1; 2; 3]; [4]]; ABuffers kOk [records toy (f_out (fargs S0)) [[7; 7]]]].
Proof.
  destruct two_received as (f & rs & Hp & _).
  assert (N : no_failures ops2) by (repeat constructor).
  pose proof (F65det _ _ _ _ _ _ _ _ _ Hp N ex_run eq_refl) as E.
  exists f, rs, ex_state. split; [exact Hp|]. split; [exact N|].
  rewrite E. split; [exact ex_run|]. split; reflexivity.
Qed.
