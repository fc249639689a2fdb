(* Model of what the record layer writes to its log: the calls of logger_ in
   src/record_protocol/s2a_crypter.cc and
   src/frame_protector/s2a_frame_protector.cc. The functions below are those of
   Crypter.v and FrameProt.v with the calls of logger_ put back; LogProofs.v
   shows that without the log they are the same functions. *)
From Coq Require Import List NArith Bool.
From Verif Require Import Base Aead Hkdf HalfConn Options HsHandler Crypter FrameProt.
Import ListNotations.
Local Open Scope N_scope.

(* One call of logger_, one constructor for each. The text of a status that is
   included in a line is represented by its code: these texts are constants of
   s2a_half_connection.cc, aes_gcm_crypter.cc, chacha_poly_crypter.cc,
   handshake_message_handler.cc and s2a_frame_protector.cc, the AEAD ones
   followed by OpenSSL's own error text (GetSSLErrors). Not included: line 187,
   in the destructor (see TicketEnd.v), and 301, "Unable to parse TLS record
   type.", which no value of the enumeration reaches. *)
Inductive line :=
(* s2a_crypter.cc *)
| LPlaintextTooLong                 (* 268: |plaintext| contains more bytes than are allowed ... *)
| LRecordTooSmall                   (* 278: |record| is not large enough ... *)
| LHeaderNotWritten                 (* 291: Unable to write TLS record header. *)
| LEncryption (st : code)           (* 322: Encryption failure: %s *)
| LClosed                           (* 339: Close notify alert has been received. Close the connection. *)
| LIncomplete                       (* 348: Did not receive a complete TLS 1.3 record. *)
| LOverflow                         (* 358: TLS 1.3 record contains more bytes than allowed. *)
| LBadHeader                        (* 366: TLS 1.3 record header is invalid. *)
| LDecryption (st : code)           (* 376: Decryption failed: %s *)
| LNoType                           (* 402: TLS 1.3 record does not have record type byte. *)
| LAlertShort                       (* 416: The TLS 1.3 alert record is too small. *)
| LCloseNotify                      (* 423: Received close notify alert. *)
| LAlert (n : N)                    (* 432: Received alert of type %d. *)
| LHandshake (st : code)            (* 444: Failed to process handshake message result: %s *)
| LExpecting                        (* 459: Received a non handshake message while expecting ... *)
| LBadType (n : N)                  (* 472: TLS record type byte %d is invalid. *)
| LKeyUpdate                        (* 505: Key update failed. *)
| LTicketIgnored                    (* 532: Received a session ticket from the peer. It is being ignored. *)
| LRetrieving (st : code)           (* 560: Retrieving tickets failed: %s *)
(* s2a_frame_protector.cc *)
| LProtect (st : scode)             (* 299: Failed to protect: ... *)
| LProtectedBytes                   (* 307: Protected an unexpected number of bytes. *)
| LRecordSize (st : code)           (* 336, 408: Failed to compute TLS record size: ... *)
| LIsolate (st : code)              (* 356, 432: Failed to isolate TLS payload: ... *)
| LUnprotectInto                    (* 371: Failed to unprotect bytes from peer. *)
| LUnprotect (st : scode).          (* 455: Failed to unprotect bytes from peer: %s *)

(* A computation that also returns the lines it logged, first to last. *)
Definition LM (A : Type) := M (A * list line).
Definition lret {A} (a : A) : LM A := ret (a, []).
Definition quiet {A} (m : M A) : LM A := bind m lret.
Definition log (l : line) : LM unit := ret (tt, [l]).
Definition lbind {A B} (m : LM A) (k : A -> LM B) : LM B :=
  bind m (fun p => bind (k (fst p)) (fun q => ret (fst q, snd p ++ snd q))).
Notation "x <~ m ;; k" := (lbind m (fun x => k))
  (at level 61, m at next level, right associativity).
Notation "' p <~ m ;; k" := (lbind m (fun p => k))
  (at level 61, p pattern, m at next level, right associativity).

(* Protect: s2a_crypter.cc 258-331. *)
Definition crypt_protect_l (P : prims) (x : crypt) (t : record_type)
  (pt : list iovec) (record : iovec) : LM (crypt * sstatus * iovec) :=
  let len := total_len pt in
  if kTlsMaxPlaintextSize <? len
  then _ <~ log LPlaintextTooLong ;; lret (x, (S_FAILED_PRECONDITION, 0), record) else
  overhead <~ quiet (lift (record_overhead x)) ;;
  if iov_len record <? len + overhead
  then _ <~ log LRecordTooSmall ;; lret (x, (S_FAILED_PRECONDITION, 0), record) else
  tag <~ quiet (lift (half_tag_length (cx_out x))) ;;
  match record with
  | IoNull _ => _ <~ log LHeaderNotWritten ;; lret (x, (convert_code kInvalidArgument, 0), record)
  | IoBuf buf =>
    let hdr := record_header (len + 1 + tag) in
    let tail := IoBuf (dropN kTlsRecordHeaderSize buf) in
    let payload := pt ++ [IoBuf [convert_record_type t]] in
    '(h, (st, n), tail) <~ quiet (half_encrypt P (cx_out x) [IoBuf hdr] payload tail) ;;
    let x := set_out x h in
    let buf := hdr ++ iov_data tail in
    if negb (is_ok st) then
      _ <~ log (LEncryption st) ;;
      record <~ quiet (lift (zero_out (IoBuf buf))) ;;
      lret (x, (convert_code st, 0), record)
    else lret (x, (S_OK, n + kTlsRecordHeaderSize), IoBuf buf)
  end.

(* RetrieveStoredTicketsAndSendToS2A: s2a_crypter.cc 547-592. *)
Definition send_tickets_l (x : crypt) : LM crypt :=
  '(h, r) <~ quiet (lift (get_stored_tickets (cx_handler x))) ;;
  match r with
  | inl st => _ <~ log (LRetrieving st) ;; lret (set_handler x h)
  | inr ts =>
    lret (add_sent x h
            {| ts_url := cx_url x; ts_connection_id := cx_connection_id x;
               ts_identity := cx_identity x;
               ts_tickets := map (@List.concat N) ts;
               ts_channel := cx_channel x |})
  end.

(* HandleProcessHandshakeMessageResult: s2a_crypter.cc 486-545. *)
Definition handle_result_l (P : prims) (lib : ssl_lib) (x : crypt)
  (r : code + hs_result) : LM (crypt * code) :=
  match r with
  | inl st => lret (x, st)
  | inr r =>
    let x := set_phase x (cx_phase x) (r_expecting r) in
    '(x, failed) <~
      (if r_key_update r then
         '(h, st) <~ quiet (half_update_key P lib (cx_in x)) ;;
         lret (set_in x h, negb (is_ok st))
       else lret (x, false)) ;;
    if (failed : bool) then _ <~ log LKeyUpdate ;; lret (x, kInternal) else
    match cx_phase x with
    | DONE =>
      if r_ticket r then _ <~ log LTicketIgnored ;; lret (x, kOk)
      else lret (x, kOk)
    | p =>
      let x := match p with
               | NOT_RECEIVED =>
                 if r_ticket r then set_phase x RECEIVING (cx_expecting x)
                 else x
               | _ => x
               end in
      if r_ticket r && (kMaxNumTicketsToProcess <=? r_num r) then
        x <~ send_tickets_l x ;;
        lret (set_phase x DONE false, kOk)
      else lret (x, kOk)
    end
  end.

(* Unprotect: s2a_crypter.cc 333-477. The line for an alert that is not
   close_notify has record_type, not the description, as its argument. *)
Definition crypt_unprotect_l (P : prims) (lib : ssl_lib) (x : crypt)
  (header : iovec) (payload : list iovec) (plaintext : iovec)
  : LM (crypt * sstatus * iovec) :=
  if cx_close x then _ <~ log LClosed ;; lret (x, (S_ALERT_CLOSE_NOTIFY, 0), plaintext) else
  let record_length := wrap64 (iov_len header + total_len payload) in
  overhead <~ quiet (lift (record_overhead x)) ;;
  if record_length <? overhead
  then _ <~ log LIncomplete ;; lret (x, (S_FAILED_PRECONDITION, 0), plaintext) else
  if overhead + kTlsMaxPlaintextSize <? record_length
  then _ <~ log LOverflow ;; lret (x, (S_ALERT_RECORD_OVERFLOW, 0), plaintext) else
  if negb (validate_header header record_length)
  then _ <~ log LBadHeader ;; lret (x, (S_FAILED_PRECONDITION, 0), plaintext) else
  '(h, (st, n), plaintext) <~
     quiet (half_decrypt P (cx_in x) [header] payload plaintext) ;;
  let x := set_in x h in
  if negb (is_ok st) then
    _ <~ log (LDecryption st) ;;
    plaintext <~ quiet (lift (zero_out plaintext)) ;;
    lret (x, (S_INTERNAL_ERROR, 0), plaintext)
  else
  match scan_type (rev (takeN n (iov_data plaintext))) with
  | None => _ <~ log LNoType ;; lret (x, (S_INVALID_RECORD, 0), plaintext)
  | Some (ty, content) =>
    if ty =? kTls13Alert then
      match content with
      | _ :: description :: _ =>
        if description =? kTlsAlertCloseNotify
        then
          _ <~ log LCloseNotify ;;
          plaintext <~ quiet (lift (zero_out plaintext)) ;;
          lret (set_close x, (S_ALERT_CLOSE_NOTIFY, 0), plaintext)
        else
          _ <~ log (LAlert ty) ;;
          plaintext <~ quiet (lift (zero_out plaintext)) ;;
          lret (x, (S_ALERT_OTHER, 0), plaintext)
      | _ =>
        _ <~ log LAlertShort ;;
        plaintext <~ quiet (lift (zero_out plaintext)) ;;
        lret (x, (S_INVALID_RECORD, 0), plaintext)
      end
    else if ty =? kTls13Handshake then
      '(h, r) <~ quiet (lift (process_handshake_message (cx_handler x) content)) ;;
      '(x, st) <~ handle_result_l P lib (set_handler x h) r ;;
      if negb (is_ok st) then
        _ <~ log (LHandshake st) ;; lret (x, (S_INTERNAL_ERROR, 0), plaintext)
      else lret (x, (S_OK, 0), plaintext)
    else if ty =? kTls13ApplicationData then
      if cx_expecting x then
        _ <~ log LExpecting ;; lret (x, (S_INVALID_RECORD, 0), plaintext)
      else
      x <~ (match cx_phase x with
            | RECEIVING =>
              x <~ send_tickets_l x ;; lret (set_phase x DONE (cx_expecting x))
            | _ => lret x
            end) ;;
      lret (x, (S_OK, lenN content), plaintext)
    else
      _ <~ log (LBadType ty) ;;
      plaintext <~ quiet (lift (zero_out plaintext)) ;;
      lret (x, (S_INVALID_RECORD, 0), plaintext)
  end.

(* UpdateOutboundKey: s2a_crypter.cc 484. It does not log. *)
Definition crypt_update_outbound_key_l (P : prims) (lib : ssl_lib) (x : crypt)
  : LM (crypt * code) := quiet (crypt_update_outbound_key P lib x).

(* The loop of Protect: s2a_frame_protector.cc 256-315. *)
Fixpoint protect_loop_l (fuel : nat) (P : prims) (f : fprot) (c : cursor)
  (remaining : N) (first : bool) (out : bytes) (index : N) (id : N)
  : LM (fprot * code * bytes) :=
  if negb (first || (0 <? remaining)) then lret (f, kOk, out)
  else
    match fuel with
    | O => fun _ => NoFuel
    | S fuel' =>
      let n := if remaining <? kTlsMaxPlaintextSize then remaining
               else kTlsMaxPlaintextSize in
      '(chunk, c) <~ quiet (lift (collect_chunk (fst c) (snd c) n)) ;;
      '(x, (st, written), tail) <~
        crypt_protect_l P (fp_crypt f) APPLICATION_DATA chunk
          (IoBuf (dropN index out)) ;;
      let f := with_crypt f x in
      let out := takeN index out ++ iov_data tail in
      match st with
      | S_OK =>
        o <~ quiet (lift (record_overhead x)) ;;
        if negb (written =? n + o) then
          _ <~ log LProtectedBytes ;; lret (fp_destroy f id, kInternal, out)
        else protect_loop_l fuel' P f c (remaining - n) false out
               (index + written) id
      | _ => _ <~ log (LProtect st) ;; lret (fp_destroy f id, fp_code st, out)
      end
    end.

(* Protect into a caller-provided buffer: s2a_frame_protector.cc 243-317. *)
Definition fp_protect_into_l (P : prims) (f : fprot) (input : list iovec)
  (id : N) (out : iovec) : LM (fprot * code * iovec) :=
  let total := total_len input in
  let fuel := S (N.to_nat (total / kTlsMaxPlaintextSize)) in
  match out with
  | IoBuf buf =>
    '(f, st, buf) <~
      protect_loop_l fuel P f (input, 0) total (total =? 0) buf 0 id ;;
    lret (f, st, IoBuf buf)
  | IoNull n =>
    '(chunk, _) <~
      quiet (lift (collect_chunk input 0
              (if total <? kTlsMaxPlaintextSize then total
               else kTlsMaxPlaintextSize))) ;;
    '(x, (st, _), out) <~
      crypt_protect_l P (fp_crypt f) APPLICATION_DATA chunk out ;;
    _ <~ log (LProtect st) ;;
    lret (fp_destroy (with_crypt f x) id, fp_code st, out)
  end.

(* Protect with allocation: s2a_frame_protector.cc 233-241. *)
Definition fp_protect_l (P : prims) (al : allocator) (f : fprot)
  (input : list iovec) : LM (fprot * code * list fbuf) :=
  size <~ quiet (lift (number_bytes_to_protect f (total_len input))) ;;
  let '(f, id, out) := fp_alloc al f size in
  '(f, st, out) <~ fp_protect_into_l P f input id out ;;
  if negb (is_ok st) then lret (fp_destroy f id, st, [])
  else lret (f, kOk, [{| fb_id := id; fb_mem := out; fb_len := iov_len out |}]).

(* Unprotect into a caller-provided buffer: s2a_frame_protector.cc 319-377. *)
Definition fp_unprotect_into_l (P : prims) (lib : ssl_lib) (f : fprot)
  (input : list iovec) (out : iovec) : LM (fprot * code * iovec * N) :=
  n <~ quiet (lift (number_bytes_to_unprotect f (total_len input))) ;;
  if n =? 0 then lret (f, kFailedPrecondition, out, iov_len out) else
  r <~ quiet (lift (compute_record_size (input, 0))) ;;
  match r with
  | inl st => _ <~ log (LRecordSize st) ;; lret (f, st, out, 0)
  | inr (hdr, (vs, on)) =>
    r <~ quiet (lift (isolate_payload vs on (header_payload_size hdr))) ;;
    match r with
    | inl st => _ <~ log (LIsolate st) ;; lret (f, st, out, 0)
    | inr (payload, _) =>
      '(x, (st, written), out) <~
        crypt_unprotect_l P lib (fp_crypt f) (IoBuf hdr) payload out ;;
      let f := with_crypt f x in
      match st with
      | S_OK => lret (f, kOk, out, written)
      | _ => _ <~ log LUnprotectInto ;; lret (f, fp_code st, out, 0)
      end
    end
  end.

(* The loop of Unprotect: s2a_frame_protector.cc 395-465. *)
Fixpoint unprotect_loop_l (fuel : nat) (P : prims) (lib : ssl_lib)
  (al : allocator) (f : fprot) (c : cursor) (remaining : N) (acc : list fbuf)
  : LM (fprot * code * list fbuf) :=
  o <~ quiet (lift (record_overhead (fp_crypt f))) ;;
  if remaining <? o then lret (f, kOk, acc)
  else
    match fuel with
    | O => fun _ => NoFuel
    | S fuel' =>
      r <~ quiet (lift (compute_record_size c)) ;;
      match r with
      | inl st => _ <~ log (LRecordSize st) ;; lret (f, st, [])
      | inr (hdr, (vs, on)) =>
        let size := header_payload_size hdr in
        r <~ quiet (lift (isolate_payload vs on size)) ;;
        match r with
        | inl st => _ <~ log (LIsolate st) ;; lret (f, st, [])
        | inr (payload, c) =>
          let '(f, id, mem) := fp_alloc al f size in
          '(x, (st, written), mem) <~
            crypt_unprotect_l P lib (fp_crypt f) (IoBuf hdr) payload mem ;;
          let f := with_crypt f x in
          match st with
          | S_OK =>
            unprotect_loop_l fuel' P lib al f c
              (sub64 remaining (kTlsRecordHeaderSize + size))
              (acc ++ [{| fb_id := id; fb_mem := mem; fb_len := written |}])
          | _ =>
            _ <~ log (LUnprotect st) ;;
            let f := fold_left (fun f b => fp_destroy f (fb_id b)) acc
                       (fp_destroy f id) in
            lret (f, fp_code st, [])
          end
        end
      end
    end.

(* Unprotect of a sequence of records: s2a_frame_protector.cc 379-467. *)
Definition fp_unprotect_l (P : prims) (lib : ssl_lib) (al : allocator)
  (f : fprot) (input : list iovec) : LM (fprot * code * list fbuf) :=
  let total := total_len input in
  o <~ quiet (lift (record_overhead (fp_crypt f))) ;;
  if total <? o then lret (f, kFailedPrecondition, [])
  else unprotect_loop_l (S (N.to_nat (total / o))) P lib al f (input, 0) total [].

(* Create (s2a_crypter.cc 192-256, s2a_frame_protector.cc 192-231) does not
   log at all. *)
