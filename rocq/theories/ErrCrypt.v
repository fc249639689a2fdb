(* Model of what S2ACrypter does with the errors of the SSL library:
   src/record_protocol/s2a_crypter.cc. The functions below are those of
   Crypter.v, on the half connections of ErrQueue.v; [e_text] is the library's
   part of the text of the status that the crypter returns. *)
From Coq Require Import List NArith Bool.
From Verif Require Import Base Aead Hkdf HalfConn Options HsHandler Crypter SpecTls SpecHs SpecRecord SpecRx CrypterRun SpecAead HalfRun ErrQueue.
Import ListNotations.
Local Open Scope N_scope.

(* A status that does not include the text of the one it replaces. *)
Definition new_text : EM unit :=
  fun e => ret (tt, {| e_queue := e_queue e; e_next := e_next e; e_text := []; e_raised := e_raised e |}).

(* Protect: 258-331. The text of the status of Encrypt is returned (322-328). *)
Definition crypt_protect_q (P : prims) (x : crypt) (t : record_type)
  (pt : list iovec) (record : iovec) : EM (crypt * sstatus * iovec) :=
  let len := total_len pt in
  if kTlsMaxPlaintextSize <? len
  then qret (x, (S_FAILED_PRECONDITION, 0), record) else
  overhead <~ quiet (lift (record_overhead x)) ;;
  if iov_len record <? len + overhead
  then qret (x, (S_FAILED_PRECONDITION, 0), record) else
  tag <~ quiet (lift (half_tag_length (cx_out x))) ;;
  match record with
  | IoNull _ => qret (x, (convert_code kInvalidArgument, 0), record)
  | IoBuf buf =>
    let hdr := record_header (len + 1 + tag) in
    let tail := IoBuf (dropN kTlsRecordHeaderSize buf) in
    let payload := pt ++ [IoBuf [convert_record_type t]] in
    '(h, (st, n), tail) <~ half_encrypt_q P (cx_out x) [IoBuf hdr] payload tail ;;
    let x := set_out x h in
    let buf := hdr ++ iov_data tail in
    if negb (is_ok st) then
      record <~ quiet (lift (zero_out (IoBuf buf))) ;;
      qret (x, (convert_code st, 0), record)
    else qret (x, (S_OK, n + kTlsRecordHeaderSize), IoBuf buf)
  end.

(* HandleProcessHandshakeMessageResult: 486-545. The status of UpdateKey is
   replaced by another one (504-508). *)
Definition handle_result_q (P : prims) (lib : ssl_lib) (x : crypt)
  (r : code + hs_result) : EM (crypt * code) :=
  match r with
  | inl st => qret (x, st)
  | inr r =>
    let x := set_phase x (cx_phase x) (r_expecting r) in
    '(x, failed) <~
      (if r_key_update r then
         '(h, st) <~ half_update_key_q P lib (cx_in x) ;;
         qret (set_in x h, negb (is_ok st))
       else qret (x, false)) ;;
    if (failed : bool) then _ <~ new_text ;; qret (x, kInternal) else
    match cx_phase x with
    | DONE => qret (x, kOk)
    | p =>
      let x := match p with
               | NOT_RECEIVED =>
                 if r_ticket r then set_phase x RECEIVING (cx_expecting x)
                 else x
               | _ => x
               end in
      if r_ticket r && (kMaxNumTicketsToProcess <=? r_num r) then
        x <~ quiet (lift (send_tickets x)) ;;
        qret (set_phase x DONE false, kOk)
      else qret (x, kOk)
    end
  end.

(* Unprotect: 333-477. The text of the status of Decrypt is returned (373-380). *)
Definition crypt_unprotect_q (P : prims) (lib : ssl_lib) (x : crypt)
  (header : iovec) (payload : list iovec) (plaintext : iovec)
  : EM (crypt * sstatus * iovec) :=
  if cx_close x then qret (x, (S_ALERT_CLOSE_NOTIFY, 0), plaintext) else
  let record_length := wrap64 (iov_len header + total_len payload) in
  overhead <~ quiet (lift (record_overhead x)) ;;
  if record_length <? overhead
  then qret (x, (S_FAILED_PRECONDITION, 0), plaintext) else
  if overhead + kTlsMaxPlaintextSize <? record_length
  then qret (x, (S_ALERT_RECORD_OVERFLOW, 0), plaintext) else
  if negb (validate_header header record_length)
  then qret (x, (S_FAILED_PRECONDITION, 0), plaintext) else
  '(h, (st, n), plaintext) <~
     half_decrypt_q P (cx_in x) [header] payload plaintext ;;
  let x := set_in x h in
  if negb (is_ok st) then
    plaintext <~ quiet (lift (zero_out plaintext)) ;;
    qret (x, (S_INTERNAL_ERROR, 0), plaintext)
  else
  match scan_type (rev (takeN n (iov_data plaintext))) with
  | None => qret (x, (S_INVALID_RECORD, 0), plaintext)
  | Some (ty, content) =>
    if ty =? kTls13Alert then
      match content with
      | _ :: description :: _ =>
        plaintext <~ quiet (lift (zero_out plaintext)) ;;
        if description =? kTlsAlertCloseNotify
        then qret (set_close x, (S_ALERT_CLOSE_NOTIFY, 0), plaintext)
        else qret (x, (S_ALERT_OTHER, 0), plaintext)
      | _ =>
        plaintext <~ quiet (lift (zero_out plaintext)) ;;
        qret (x, (S_INVALID_RECORD, 0), plaintext)
      end
    else if ty =? kTls13Handshake then
      '(h, r) <~ quiet (lift (process_handshake_message (cx_handler x) content)) ;;
      '(x, st) <~ handle_result_q P lib (set_handler x h) r ;;
      if negb (is_ok st) then qret (x, (S_INTERNAL_ERROR, 0), plaintext)
      else qret (x, (S_OK, 0), plaintext)
    else if ty =? kTls13ApplicationData then
      if cx_expecting x then qret (x, (S_INVALID_RECORD, 0), plaintext) else
      x <~ quiet (lift (match cx_phase x with
                        | RECEIVING =>
                          obind (send_tickets x) (fun x =>
                            Done (set_phase x DONE (cx_expecting x)))
                        | _ => Done x
                        end)) ;;
      qret (x, (S_OK, lenN content), plaintext)
    else
      plaintext <~ quiet (lift (zero_out plaintext)) ;;
      qret (x, (S_INVALID_RECORD, 0), plaintext)
  end.

(* UpdateOutboundKey: 484. *)
Definition crypt_update_outbound_key_q (P : prims) (lib : ssl_lib) (x : crypt) : EM (crypt * code) :=
  '(h, st) <~ half_update_key_q P lib (cx_out x) ;;
  qret (set_out x h, st).

(* One call, see [cstep]: the result of the method, and what became of the
   errors. *)
Definition cstep_q (P : prims) (lib : ssl_lib) (x : crypt) (q : list entry)
  (op : cop) (fs : faults) (next : list (list entry)) : outcome (crypt * cres * errs) :=
  let e := {| e_queue := q; e_next := next; e_text := []; e_raised := [] |} in
  match op with
  | CProtect t pt buf =>
    obind (crypt_protect_q P x t pt (IoBuf buf) e fs)
      (fun '((x, (st, n), out, e), _) => Done (x, CProtected st n out, e))
  | CUnprotect hdr payload buf =>
    obind (crypt_unprotect_q P lib x (IoBuf hdr) payload (IoBuf buf) e fs)
      (fun '((x, (st, n), out, e), _) => Done (x, CUnprotected st n out, e))
  | CUpdateKey =>
    obind (crypt_update_outbound_key_q P lib x e fs)
      (fun '((x, st, e), _) => Done (x, CUpdated st, e))
  end.

Fixpoint crun_q (P : prims) (lib : ssl_lib) (x : crypt) (q : list entry)
  (ops : list (cop * faults * list (list entry))) : outcome (crypt * list (cres * errs)) :=
  match ops with
  | [] => Done (x, [])
  | (op, fs, next) :: ops' =>
    obind (cstep_q P lib x q op fs next) (fun '(x, r, e) =>
    obind (crun_q P lib x (e_queue e) ops') (fun '(x, rs) => Done (x, (r, e) :: rs)))
  end.

(* always_fail_aead_operations_ of in_connection_: no key for the peer's
   records, because a key update failed. *)
Definition inbound_broken (x : crypt) : bool := hc_always_fail (cx_in x).
