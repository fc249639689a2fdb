(* Refutations and cases for PropLog.v. *)
From Coq Require Import List NArith ZArith Bool Lia ZifyBool ZifyNat ZifyN.
From Verif Require Import Base BaseProofs Aead Hkdf HalfConn SpecAead AeadProofs SpecTls Options HsHandler
  Crypter SpecHs SpecRecord SpecRx CrypterProofs CrypterRun CrypterFinal FrameProt SpecFrame FrameRun FrameLink SpecRfc Rfc Toy ToyProofs CrypterRefuted FrameExamples
  EveryCases RfcCases Log LogRun LogProofs SpecLog LogFacts LogExact.
Import ListNotations.
Local Open Scope N_scope.

Lemma U77erase : forall P lib x op fs,
  match lstep P lib x op fs with
  | Done (x', res, _) => cstep P lib x op fs = Done (x', res)
  | Undef u => cstep P lib x op fs = Undef u
  | NoFuel => cstep P lib x op fs = NoFuel
  end.
Proof.
  intros P lib x op fs. rewrite <- lstep_cstep. unfold drop_log. destruct (lstep P lib x op fs) as [[[y r] l]|u|]; reflexivity.
Qed.
Lemma U77ferase : forall P lib al f op fs,
  match flstep P lib al f op fs with
  | Done (f', res, _) => fstep P lib al f op fs = Done (f', res)
  | Undef u => fstep P lib al f op fs = Undef u
  | NoFuel => fstep P lib al f op fs = NoFuel
  end.
Proof.
  intros P lib al f op fs. rewrite <- flstep_fstep. unfold drop_log. destruct (flstep P lib al f op fs) as [[[y r] l]|u|]; reflexivity.
Qed.

Lemma new_protector : exists f, protector toy OpenSSL toy_al (fargs S0) [] [] f.
Proof.
  destruct (fplay_check OpenSSL (fargs S0) [] (fun f rs => match rs with [] => true | _ => false end)) as (f & rs & Hp & Hc);
    [vm_compute; reflexivity|reflexivity|reflexivity|constructor|].
  destruct rs; [|discriminate]. eauto.
Qed.

Lemma R77 : exists P lib al a f input f' res, protector P lib al a [] [] f /\ fop_ok (FUnprotect input) /\
  flstep P lib al f (FUnprotect input) [] = Done (f', res, []) /\ fres_failed res.
Proof.
  destruct new_protector as (f & Hp). exists toy, OpenSSL, toy_al, (fargs S0), f, [IoBuf [23; 3; 3]], f, (FUnprotected kFailedPrecondition []).
  assert (Hok : fop_ok (FUnprotect [IoBuf [23; 3; 3]])).
  { split; [repeat constructor|]. split; [repeat constructor|reflexivity]. }
  split; [exact Hp|]. split; [exact Hok|]. split; [|discriminate].
  exact (proj1 (U77short _ _ _ _ _ _ _ [] Hp) _ Hok eq_refl).
Qed.

Lemma R77update : exists P lib a x fs x' st, connection P lib a [] [] x /\
  lstep P lib x CUpdateKey fs = Done (x', CUpdated st, []) /\ st <> kOk.
Proof.
  destruct (play_check toy OpenSSL A0 [] (fun x rs =>
    match rs, cstep toy OpenSSL x CUpdateKey [true] with [], Done (_, CUpdated st) => negb (is_ok st) | _, _ => false end))
    as (x & rs & R & H); [vm_compute; reflexivity|].
  destruct rs; [|discriminate].
  destruct (cstep toy OpenSSL x CUpdateKey [true]) as [[x' [| |st]]|u|] eqn:E; try discriminate.
  destruct (lstep_exists _ _ _ _ _ _ _ E) as (ls & El). pose proof (U77crypt _ _ _ _ _ _ _ _ El) as K. cbn in K. subst ls.
  exists toy, OpenSSL, A0, x, [true], x', st.
  split; [split; [exact toy_ok|]; split; [reflexivity|]; split; [reflexivity|]; split; [constructor|exact R]|].
  split; [exact El|]. intros ->. discriminate.
Qed.

(* Two connections that have nothing in common but the numbers. *)
Lemma U78same : forall P lib a ops rs x t pt buf P2 lib2 a2 ops2 rs2 x2 t2 pt2 buf2,
  connection P lib a ops rs x -> connection P2 lib2 a2 ops2 rs2 x2 ->
  sum_lens pt < two64 -> Forall iov_valid pt -> Forall iov_valid pt2 -> sum_lens pt2 = sum_lens pt -> lenN buf2 = lenN buf ->
  (dir_usable (tx_run P (d_out a) ops rs) <-> dir_usable (tx_run P2 (d_out a2) ops2 rs2)) ->
  exists x' res x2' res2 ls,
    lstep P lib x (CProtect t pt buf) [] = Done (x', res, ls) /\ lstep P2 lib2 x2 (CProtect t2 pt2 buf2) [] = Done (x2', res2, ls).
Proof.
  intros P lib a ops rs x t pt buf P2 lib2 a2 ops2 rs2 x2 t2 pt2 buf2 HC HC2 Hs Hv Hv2 Es Eb Hu.
  destruct (U78send P lib a ops rs x t pt buf HC Hs Hv) as (u & x' & res & U & E).
  destruct (U78send P2 lib2 a2 ops2 rs2 x2 t2 pt2 buf2 HC2 ltac:(rewrite Es; exact Hs) Hv2) as (u2 & x2' & res2 & U2 & E2).
  cbn zeta in *. exists x', res, x2', res2, (send_log (sum_lens pt) (lenN buf) u). split; [exact E|].
  rewrite E2, Es, Eb. do 3 f_equal. destruct u, u2; try reflexivity; exfalso.
  - assert (false = true) by (apply U2, Hu, U; reflexivity). discriminate.
  - assert (false = true) by (apply U, Hu, U2; reflexivity). discriminate.
Qed.

(* Received data is not logged. *)
Lemma U78data : forall P lib a ops rs x r data pad payload buf,
  connection P lib a ops rs x -> received P a ops rs r -> open_rx r -> r_wait r = false ->
  let msg := inner ty_application_data data pad in
  next_record P r msg payload -> bytes_ok data -> lenN data + pad <= 16384 -> lenN msg <= lenN buf ->
  exists x' res, lstep P lib x (CUnprotect (tls_header (lenN msg + 16)) payload buf) [] = Done (x', res, []).
Proof.
  intros P lib a ops rs x r data pad payload buf HC HR Ho Hw msg Hn Hb Hl Hbuf.
  destruct (U78receive P lib a ops rs x r ty_application_data data pad payload buf HC HR Ho Hn Hb Hl Hbuf) as (x' & res & E);
    [unfold ty_application_data; lia|discriminate|].
  rewrite Hw in E. eauto.
Qed.

(* ---- C79 ---- *)
Lemma U79 : forall P lib a ops rs x r level desc rest pad payload buf,
  connection P lib a ops rs x -> received P a ops rs r -> open_rx r -> desc <> 0 ->
  let content := level :: desc :: rest in
  let msg := inner ty_alert content pad in
  next_record P r msg payload -> bytes_ok content -> lenN content + pad <= 16384 -> lenN msg <= lenN buf ->
  exists x' res, lstep P lib x (CUnprotect (tls_header (lenN msg + 16)) payload buf) [] = Done (x', res, [LAlert 21]).
Proof.
  intros P lib a ops rs x r level desc rest pad payload buf HC HR Ho Hd content msg Hn Hb Hl Hbuf.
  destruct (U78receive P lib a ops rs x r ty_alert content pad payload buf HC HR Ho Hn Hb Hl Hbuf) as (x' & res & E);
    [unfold ty_alert; lia|discriminate|].
  unfold receive_log, content in E. rewrite (proj2 (N.eqb_neq desc 0) Hd) in E. eauto.
Qed.

Lemma receive_lop : forall P lib x d msg, lstep P lib x (receive_op P d msg) [] =
  lstep P lib x (CUnprotect (tls_header (lenN msg + 16)) [IoBuf (sealed P d msg)] (zeros (lenN msg))) [].
Proof. reflexivity. Qed.

Lemma R79 : exists P lib a x x' res ls, connection P lib a [] [] x /\
  lstep P lib x (receive_op P (d_in a) (inner ty_alert [2; 40] 0)) [] = Done (x', res, ls) /\ ~ names_alert 40 ls.
Proof.
  destruct new_case as (x & HC & HR & Ho & _).
  destruct (U79 toy OpenSSL A0 [] [] x r0 2 40 [] 0 [IoBuf (sealed toy (d_in A0) (inner ty_alert [2; 40] 0))] (zeros 3) HC HR Ho) as (x' & res & E);
    [discriminate|apply (sealed_next toy r0)|repeat constructor|discriminate|discriminate|].
  exists toy, OpenSSL, A0, x, x', res, [LAlert 21]. split; [exact HC|]. split; [exact E|].
  intros [K|[]]. discriminate.
Qed.

Lemma data_log_case : exists x x' res, connection toy OpenSSL A0 [] [] x /\
  lstep toy OpenSSL x (receive_op toy (d_in A0) (inner ty_application_data [1; 2; 3] 0)) [] = Done (x', res, []).
Proof.
  destruct new_case as (x & HC & HR & Ho & _).
  destruct (U78data toy OpenSSL A0 [] [] x r0 [1; 2; 3] 0 [IoBuf (sealed toy (d_in A0) (inner ty_application_data [1; 2; 3] 0))] (zeros 4) HC HR Ho)
    as (x' & res & E); [reflexivity|apply (sealed_next toy r0)|repeat constructor|discriminate|discriminate|].
  exists x, x', res. split; [exact HC|exact E].
Qed.
Lemma type_log_case : exists x x' res, connection toy OpenSSL A0 [] [] x /\
  lstep toy OpenSSL x (receive_op toy (d_in A0) (inner 99 [1; 2; 3] 0)) [] = Done (x', res, [LBadType 99]).
Proof.
  destruct new_case as (x & HC & HR & Ho & _).
  destruct (U78receive toy OpenSSL A0 [] [] x r0 99 [1; 2; 3] 0 [IoBuf (sealed toy (d_in A0) (inner 99 [1; 2; 3] 0))] (zeros 4) HC HR Ho)
    as (x' & res & E); [apply (sealed_next toy r0)|repeat constructor|discriminate|discriminate|lia|discriminate|].
  exists x, x', res. split; [exact HC|exact E].
Qed.
Lemma send_log_case : exists x x' res, connection toy OpenSSL A0 [] [] x /\
  lstep toy OpenSSL x (CProtect APPLICATION_DATA [IoBuf [1; 2; 3]] (zeros 24)) [] = Done (x', res, [LRecordTooSmall]).
Proof.
  destruct new_case as (x & HC & HR & Ho & _).
  destruct (U78send toy OpenSSL A0 [] [] x APPLICATION_DATA [IoBuf [1; 2; 3]] (zeros 24) HC) as (u & x' & res & _ & E);
    [reflexivity|repeat constructor|].
  exists x, x', res. split; [exact HC|exact E].
Qed.

Lemma null_log_case : exists al a f f' fs', protector toy OpenSSL al a [] [] f /\
  fp_protect_into_l toy f [IoBuf [1; 2; 3]] 7 (IoNull 25) [] = Done ((f', kInvalidArgument, IoNull 25, [LHeaderNotWritten; LProtect S_INVALID_ARGUMENT]), fs').
Proof.
  destruct new_protector as (f & Hp). exists toy_al, (fargs S0), f. eexists _, _. split; [exact Hp|].
  destruct (FrameFinal.protector_winv _ _ _ _ _ _ _ Hp) as (d & din & _ & Rt & _).
  pose proof (protector_overhead _ _ _ _ _ _ _ Hp) as Ho. unfold fp_protect_into_l, crypt_protect_l. cbn.
  rewrite Ho. cbn. rewrite (HalfProofs.half_tag_spec _ _ _ Rt). cbn. reflexivity.
Qed.
