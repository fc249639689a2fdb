(* The log of the record layer: C77 - C79. [lstep] and [flstep] are the methods
   of the crypter and of the frame protector with the lines they log. *)
From Coq Require Import List NArith Bool.
From Verif Require Import Base Aead Hkdf HalfConn SpecAead SpecTls Options HsHandler Crypter SpecHs SpecRecord SpecRx
  CrypterRun FrameProt SpecFrame FrameRun SpecRfc Toy CrypterRefuted FrameExamples EveryCases Log LogRun SpecLog LogFacts LogExact LogCases.
Import ListNotations.
Local Open Scope N_scope.

(* C77: every failure is logged. First: with the log left out, these are the
   functions all other properties are about. *)
Theorem C77_log_changes_nothing : forall P lib x op fs,
  match lstep P lib x op fs with
  | Done (x', res, _) => cstep P lib x op fs = Done (x', res)
  | Undef u => cstep P lib x op fs = Undef u
  | NoFuel => cstep P lib x op fs = NoFuel
  end.
Proof. exact U77erase. Qed.
Print Assumptions C77_log_changes_nothing.

Theorem C77_frame_log_changes_nothing : forall P lib al f op fs,
  match flstep P lib al f op fs with
  | Done (f', res, _) => fstep P lib al f op fs = Done (f', res)
  | Undef u => fstep P lib al f op fs = Undef u
  | NoFuel => fstep P lib al f op fs = NoFuel
  end.
Proof. exact U77ferase. Qed.
Print Assumptions C77_frame_log_changes_nothing.

(* A crypter, in whatever state: Protect and Unprotect log every failure. *)
Theorem C77_crypter_logs_failures : forall P lib x op fs x' res ls, lstep P lib x op fs = Done (x', res, ls) ->
  op <> CUpdateKey -> cres_failed res -> ls <> [].
Proof. exact U77logged. Qed.
Print Assumptions C77_crypter_logs_failures.

(* Which lines go with which result. *)
Theorem C77_crypter_lines : forall P lib x op fs x' res ls, lstep P lib x op fs = Done (x', res, ls) ->
  match res with
  | CProtected st _ _ => protect_log st ls
  | CUnprotected st _ _ => unprotect_log st ls
  | CUpdated _ => ls = []
  end.
Proof. exact U77crypt. Qed.
Print Assumptions C77_crypter_lines.

(* A frame protector logs every failure but one: an input too short for a
   record is refused without a line. *)
Theorem C77_protector_logs_failures_partial : forall P lib al a ops rs f op fs f' res ls,
  protector P lib al a ops rs f -> fop_ok op ->
  flstep P lib al f op fs = Done (f', res, ls) -> fres_failed res -> (ls = [] <-> too_short op).
Proof. exact U77protector. Qed.
Print Assumptions C77_protector_logs_failures_partial.

Theorem C77_protector_lines : forall P lib al f op fs f' res ls, alloc_ok al -> flstep P lib al f op fs = Done (f', res, ls) ->
  match op, res with
  | FProtect _, FProtected st _ => fprotect_log st ls
  | FProtectInto _ _ _, FProtectedInto st _ => fprotect_log st ls
  | FUnprotect input, FUnprotected st _ =>
    funprotect_log st ls \/
    (st = kFailedPrecondition /\ ls = [] /\ exists o, record_overhead (fp_crypt f) = Done o /\ total_len input < o)
  | FUnprotectInto input _, FUnprotectedInto st _ _ =>
    funprotect1_log st ls \/ (st = kFailedPrecondition /\ ls = [] /\ number_bytes_to_unprotect f (total_len input) = Done 0)
  | _, _ => False
  end.
Proof. exact U77frame. Qed.
Print Assumptions C77_protector_lines.

(* Protect into a null buffer of whatever length is refused, and logged twice. *)
Theorem C77_null_output_lines : forall P f input id n fs f' st out ls fs',
  fp_protect_into_l P f input id (IoNull n) fs = Done ((f', st, out, ls), fs') ->
  exists s l, s <> S_OK /\ st = fp_code s /\ protect_log s l /\ ls = l ++ [LProtect s].
Proof. exact U77null. Qed.
Print Assumptions C77_null_output_lines.
Example C77_null_output_case : exists al a f f' fs', protector toy OpenSSL al a [] [] f /\
  fp_protect_into_l toy f [IoBuf [1; 2; 3]] 7 (IoNull 25) [] = Done ((f', kInvalidArgument, IoNull 25, [LHeaderNotWritten; LProtect S_INVALID_ARGUMENT]), fs').
Proof. exact null_log_case. Qed.

Theorem C77_short_input_not_logged : forall P lib al a ops rs f fs, protector P lib al a ops rs f ->
  (forall input, fop_ok (FUnprotect input) -> sum_lens input < 22 ->
     flstep P lib al f (FUnprotect input) fs = Done (f, FUnprotected kFailedPrecondition [], [])) /\
  (forall input buf, fop_ok (FUnprotectInto input buf) -> sum_lens input < 22 ->
     flstep P lib al f (FUnprotectInto input buf) fs = Done (f, FUnprotectedInto kFailedPrecondition (IoBuf buf) (lenN buf), [])).
Proof. exact U77short. Qed.
Print Assumptions C77_short_input_not_logged.

Theorem C77_failures_logged_refuted : exists P lib al a f input f' res,
  protector P lib al a [] [] f /\ fop_ok (FUnprotect input) /\
  flstep P lib al f (FUnprotect input) [] = Done (f', res, []) /\ fres_failed res.
Proof. exact R77. Qed.
Print Assumptions C77_failures_logged_refuted.

(* Nor does a failing UpdateOutboundKey log anything. *)
Theorem C77_update_logged_refuted : exists P lib a x fs x' st, connection P lib a [] [] x /\
  lstep P lib x CUpdateKey fs = Done (x', CUpdated st, []) /\ st <> kOk.
Proof. exact R77update. Qed.
Print Assumptions C77_update_logged_refuted.

(* C78: what sending logs is a function of sizes and of whether the direction
   can be used. *)
Theorem C78_sending : forall P lib a ops rs x t pt buf, connection P lib a ops rs x ->
  sum_lens pt < two64 -> Forall iov_valid pt ->
  let d := tx_run P (d_out a) ops rs in
  exists usable x' res, (usable = true <-> dir_usable d) /\
    lstep P lib x (CProtect t pt buf) [] = Done (x', res, send_log (sum_lens pt) (lenN buf) usable).
Proof. exact U78send. Qed.
Print Assumptions C78_sending.

(* So two connections with different keys that protect different data of the
   same length log the same. *)
Theorem C78_sending_reveals_nothing : forall P lib a ops rs x t pt buf P2 lib2 a2 ops2 rs2 x2 t2 pt2 buf2,
  connection P lib a ops rs x -> connection P2 lib2 a2 ops2 rs2 x2 ->
  sum_lens pt < two64 -> Forall iov_valid pt -> Forall iov_valid pt2 -> sum_lens pt2 = sum_lens pt -> lenN buf2 = lenN buf ->
  (dir_usable (tx_run P (d_out a) ops rs) <-> dir_usable (tx_run P2 (d_out a2) ops2 rs2)) ->
  exists x' res x2' res2 ls,
    lstep P lib x (CProtect t pt buf) [] = Done (x', res, ls) /\ lstep P2 lib2 x2 (CProtect t2 pt2 buf2) [] = Done (x2', res2, ls).
Proof. exact U78same. Qed.
Print Assumptions C78_sending_reveals_nothing.

(* What receiving a record of the peer logs: nothing of its content except, for
   an alert, whether it is close_notify. *)
Theorem C78_receiving : forall P lib a ops rs x r ty content pad payload buf,
  connection P lib a ops rs x -> received P a ops rs r -> open_rx r ->
  let msg := inner ty content pad in
  next_record P r msg payload -> bytes_ok content -> lenN content + pad <= 16384 -> lenN msg <= lenN buf ->
  0 < ty < 256 -> ty <> ty_handshake ->
  exists x' res, lstep P lib x (CUnprotect (tls_header (lenN msg + 16)) payload buf) [] =
    Done (x', res, receive_log (r_wait r) ty content).
Proof. exact U78receive. Qed.
Print Assumptions C78_receiving.

Theorem C78_data_not_logged : forall P lib a ops rs x r data pad payload buf,
  connection P lib a ops rs x -> received P a ops rs r -> open_rx r -> r_wait r = false ->
  let msg := inner ty_application_data data pad in
  next_record P r msg payload -> bytes_ok data -> lenN data + pad <= 16384 -> lenN msg <= lenN buf ->
  exists x' res, lstep P lib x (CUnprotect (tls_header (lenN msg + 16)) payload buf) [] = Done (x', res, []).
Proof. exact U78data. Qed.
Print Assumptions C78_data_not_logged.

Example C78_case_send : exists x x' res, connection toy OpenSSL A0 [] [] x /\
  lstep toy OpenSSL x (CProtect APPLICATION_DATA [IoBuf [1; 2; 3]] (zeros 24)) [] = Done (x', res, [LRecordTooSmall]).
Proof. exact send_log_case. Qed.
Example C78_case_data : exists x x' res, connection toy OpenSSL A0 [] [] x /\
  lstep toy OpenSSL x (receive_op toy (d_in A0) (inner ty_application_data [1; 2; 3] 0)) [] = Done (x', res, []).
Proof. exact data_log_case. Qed.
Example C78_case_type : exists x x' res, connection toy OpenSSL A0 [] [] x /\
  lstep toy OpenSSL x (receive_op toy (d_in A0) (inner 99 [1; 2; 3] 0)) [] = Done (x', res, [LBadType 99]).
Proof. exact type_log_case. Qed.

(* C79: the log names the alert received. It does not: on every connection the
   line for every alert other than close_notify is the same. *)
Theorem C79_deviation_on_every_connection : forall P lib a ops rs x r level desc rest pad payload buf,
  connection P lib a ops rs x -> received P a ops rs r -> open_rx r -> desc <> 0 ->
  let content := level :: desc :: rest in
  let msg := inner ty_alert content pad in
  next_record P r msg payload -> bytes_ok content -> lenN content + pad <= 16384 -> lenN msg <= lenN buf ->
  exists x' res, lstep P lib x (CUnprotect (tls_header (lenN msg + 16)) payload buf) [] = Done (x', res, [LAlert 21]).
Proof. exact U79. Qed.
Print Assumptions C79_deviation_on_every_connection.

Theorem C79_alert_named_refuted : exists P lib a x x' res ls, connection P lib a [] [] x /\
  lstep P lib x (receive_op P (d_in a) (inner ty_alert [2; 40] 0)) [] = Done (x', res, ls) /\ ~ names_alert 40 ls.
Proof. exact R79. Qed.
Print Assumptions C79_alert_named_refuted.
