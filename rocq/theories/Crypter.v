(* Model of src/record_protocol/s2a_crypter.cc. *)
From Coq Require Import List NArith Bool.
From Verif Require Import Base Aead Hkdf HalfConn Options HsHandler.
Import ListNotations.
Local Open Scope N_scope.

(* RecordType, S2ACrypterStatusCode: s2a_crypter.h 43-63. *)
Inductive record_type := APPLICATION_DATA | ALERT | HANDSHAKE.
Inductive scode :=
| S_OK | S_INCOMPLETE_RECORD | S_INVALID_ARGUMENT | S_INVALID_RECORD
| S_RENEGOTIATION_ATTEMPT | S_ALERT_CLOSE_NOTIFY | S_ALERT_RECORD_OVERFLOW
| S_ALERT_OTHER | S_INTERNAL_ERROR | S_FAILED_PRECONDITION | S_END_OF_DATA
| S_UNIMPLEMENTED | S_UNKNOWN.

(* S2ACrypterStatus without its message. *)
Definition sstatus := (scode * N)%type.

(* Constants: s2a_crypter.cc 55-66. *)
Definition kTls12ApplicationData : N := 23.
Definition kTls12WireVersion : N := 3.
Definition kTls13Alert : N := 21.
Definition kTls13ApplicationData : N := 23.
Definition kTls13Handshake : N := 22.
Definition kTlsAlertCloseNotify : N := 0.

(* ConvertRecordType: 67-79. The default branch is not representable. *)
Definition convert_record_type (t : record_type) : N :=
  match t with
  | APPLICATION_DATA => kTls13ApplicationData
  | ALERT => kTls13Alert
  | HANDSHAKE => kTls13Handshake
  end.

(* ConvertStatusCode: 81-96. *)
Definition convert_code (c : code) : scode :=
  match c with
  | kOk => S_OK
  | kUnknown => S_UNKNOWN
  | kInvalidArgument => S_INVALID_ARGUMENT
  | kFailedPrecondition => S_FAILED_PRECONDITION
  | kUnimplemented => S_UNIMPLEMENTED
  | _ => S_INTERNAL_ERROR
  end.

(* WriteTls13RecordHeader: 113-125: the five bytes; "payload_size >> 8" is
   truncated to uint8_t. *)
Definition record_header (payload_size : N) : bytes :=
  [kTls12ApplicationData; kTls12WireVersion; kTls12WireVersion;
   (payload_size / 256) mod 256; payload_size mod 256].

(* ValidateTls13RecordHeader: 129-143. *)
Definition validate_header (header : iovec) (record_size : N) : bool :=
  match header with
  | IoBuf [a; b; c; d; e] =>
    (a =? kTls12ApplicationData) && (b =? kTls12WireVersion) &&
    (c =? kTls12WireVersion) &&
    (record_size =? kTlsRecordHeaderSize + d * 256 + e)
  | _ => false
  end.

Inductive phase := NOT_RECEIVED | RECEIVING | DONE.

(* One call of the ticket sender function: TicketSenderOptions,
   include/s2a_ticket_sender.h; [ts_channel] says whether the channel factory
   is passed on (it is moved out of the crypter by the first call). *)
Record ticket_send := {
  ts_url : bytes;
  ts_connection_id : N;
  ts_identity : identity;
  ts_tickets : list bytes;
  ts_channel : bool
}.

(* S2ACrypter: s2a_crypter.h 139-183. The logger is not modelled; the ticket
   sender is an external function, every call to it is appended to [cx_sent];
   for its "wait" result see TicketEnd.v. *)
Record crypt := {
  cx_connection_id : N;
  cx_url : bytes;
  cx_identity : identity;
  cx_in : half;
  cx_out : half;
  cx_close : bool;           (* close_notify_received_ *)
  cx_handler : handler;
  cx_phase : phase;
  cx_expecting : bool;       (* expecting_to_read_more_bytes *)
  cx_channel : bool;         (* channel_factory_ != nullptr *)
  cx_sent : list ticket_send
}.

Definition set_in (x : crypt) (h : half) : crypt :=
  {| cx_connection_id := cx_connection_id x; cx_url := cx_url x;
     cx_identity := cx_identity x; cx_in := h; cx_out := cx_out x;
     cx_close := cx_close x; cx_handler := cx_handler x;
     cx_phase := cx_phase x; cx_expecting := cx_expecting x;
     cx_channel := cx_channel x; cx_sent := cx_sent x |}.
Definition set_out (x : crypt) (h : half) : crypt :=
  {| cx_connection_id := cx_connection_id x; cx_url := cx_url x;
     cx_identity := cx_identity x; cx_in := cx_in x; cx_out := h;
     cx_close := cx_close x; cx_handler := cx_handler x;
     cx_phase := cx_phase x; cx_expecting := cx_expecting x;
     cx_channel := cx_channel x; cx_sent := cx_sent x |}.
Definition set_close (x : crypt) : crypt :=
  {| cx_connection_id := cx_connection_id x; cx_url := cx_url x;
     cx_identity := cx_identity x; cx_in := cx_in x; cx_out := cx_out x;
     cx_close := true; cx_handler := cx_handler x;
     cx_phase := cx_phase x; cx_expecting := cx_expecting x;
     cx_channel := cx_channel x; cx_sent := cx_sent x |}.
Definition set_handler (x : crypt) (h : handler) : crypt :=
  {| cx_connection_id := cx_connection_id x; cx_url := cx_url x;
     cx_identity := cx_identity x; cx_in := cx_in x; cx_out := cx_out x;
     cx_close := cx_close x; cx_handler := h;
     cx_phase := cx_phase x; cx_expecting := cx_expecting x;
     cx_channel := cx_channel x; cx_sent := cx_sent x |}.
Definition set_phase (x : crypt) (p : phase) (e : bool) : crypt :=
  {| cx_connection_id := cx_connection_id x; cx_url := cx_url x;
     cx_identity := cx_identity x; cx_in := cx_in x; cx_out := cx_out x;
     cx_close := cx_close x; cx_handler := cx_handler x;
     cx_phase := p; cx_expecting := e;
     cx_channel := cx_channel x; cx_sent := cx_sent x |}.
Definition add_sent (x : crypt) (h : handler) (ts : ticket_send) : crypt :=
  {| cx_connection_id := cx_connection_id x; cx_url := cx_url x;
     cx_identity := cx_identity x; cx_in := cx_in x; cx_out := cx_out x;
     cx_close := cx_close x; cx_handler := h;
     cx_phase := cx_phase x; cx_expecting := cx_expecting x;
     cx_channel := false; cx_sent := cx_sent x ++ [ts] |}.

(* The arguments of S2ACrypter::Create; [ca_logger] and [ca_sender] say
   whether the std::function arguments are non-null. *)
Record create_args := {
  ca_tls : tls_version;
  ca_suite : suite;
  ca_connection_id : N;
  ca_url : bytes;
  ca_identity : identity;
  ca_in_secret : bytes;
  ca_out_secret : bytes;
  ca_in_seq : N;
  ca_out_seq : N;
  ca_sender : bool;
  ca_channel : bool;
  ca_logger : bool
}.

(* S2ACrypter::Create: 192-256. *)
Definition crypt_create (P : prims) (lib : ssl_lib) (a : create_args)
  : M (code + crypt) :=
  if lenN (ca_url a) =? 0 then ret (inl kInvalidArgument) else
  if negb (ca_logger a) then ret (inl kInvalidArgument) else
  if negb (ca_sender a) then ret (inl kInvalidArgument) else
  match ca_tls a with
  | TLS1_2 => ret (inl kInvalidArgument)
  | TLS1_3 =>
    r <- half_create P lib (ca_suite a) (ca_in_seq a) (ca_in_secret a) ;;
    match r with
    | inl st => ret (inl st)
    | inr hin =>
      r <- half_create P lib (ca_suite a) (ca_out_seq a) (ca_out_secret a) ;;
      match r with
      | inl st => ret (inl st)
      | inr hout =>
        ret (inr {| cx_connection_id := ca_connection_id a;
                    cx_url := ca_url a; cx_identity := ca_identity a;
                    cx_in := hin; cx_out := hout; cx_close := false;
                    cx_handler := new_handler; cx_phase := NOT_RECEIVED;
                    cx_expecting := false; cx_channel := ca_channel a;
                    cx_sent := [] |})
      end
    end
  end.

(* RecordOverhead: 479-482. *)
Definition record_overhead (x : crypt) : outcome N :=
  obind (half_tag_length (cx_in x)) (fun t =>
    Done (kTlsRecordHeaderSize + 1 + t)).

(* Protect: 258-331. Null dereference of record.iov_base is prevented by the
   check in WriteTls13RecordHeader. *)
Definition crypt_protect (P : prims) (x : crypt) (t : record_type)
  (pt : list iovec) (record : iovec) : M (crypt * sstatus * iovec) :=
  let len := total_len pt in
  if kTlsMaxPlaintextSize <? len
  then ret (x, (S_FAILED_PRECONDITION, 0), record) else
  overhead <- lift (record_overhead x) ;;
  if iov_len record <? len + overhead
  then ret (x, (S_FAILED_PRECONDITION, 0), record) else
  tag <- lift (half_tag_length (cx_out x)) ;;
  match record with
  | IoNull _ => ret (x, (convert_code kInvalidArgument, 0), record)
  | IoBuf buf =>
    let hdr := record_header (len + 1 + tag) in
    (* the output region is what follows the header *)
    let tail := IoBuf (dropN kTlsRecordHeaderSize buf) in
    let payload := pt ++ [IoBuf [convert_record_type t]] in
    '(h, (st, n), tail) <- half_encrypt P (cx_out x) [IoBuf hdr] payload tail ;;
    let x := set_out x h in
    let buf := hdr ++ iov_data tail in
    if negb (is_ok st) then
      record <- lift (zero_out (IoBuf buf)) ;;
      ret (x, (convert_code st, 0), record)
    else ret (x, (S_OK, n + kTlsRecordHeaderSize), IoBuf buf)
  end.

(* RetrieveStoredTicketsAndSendToS2A: 547-592. *)
Definition send_tickets (x : crypt) : outcome crypt :=
  obind (get_stored_tickets (cx_handler x)) (fun '(h, r) =>
    match r with
    | inl _ => Done (set_handler x h)
    | inr ts =>
      Done (add_sent x h
              {| ts_url := cx_url x; ts_connection_id := cx_connection_id x;
                 ts_identity := cx_identity x;
                 ts_tickets := map (@List.concat N) ts;
                 ts_channel := cx_channel x |})
    end).

(* HandleProcessHandshakeMessageResult: 486-545. *)
Definition handle_result (P : prims) (lib : ssl_lib) (x : crypt)
  (r : code + hs_result) : M (crypt * code) :=
  match r with
  | inl st => ret (x, st)
  | inr r =>
    let x := set_phase x (cx_phase x) (r_expecting r) in
    '(x, failed) <-
      (if r_key_update r then
         '(h, st) <- half_update_key P lib (cx_in x) ;;
         ret (set_in x h, negb (is_ok st))
       else ret (x, false)) ;;
    if (failed : bool) then ret (x, kInternal) else
    match cx_phase x with
    | DONE => ret (x, kOk)
    | p =>
      let x := match p with
               | NOT_RECEIVED =>
                 if r_ticket r then set_phase x RECEIVING (cx_expecting x)
                 else x
               | _ => x
               end in
      if r_ticket r && (kMaxNumTicketsToProcess <=? r_num r) then
        x <- lift (send_tickets x) ;;
        ret (set_phase x DONE false, kOk)
      else ret (x, kOk)
    end
  end.

(* The scan for the record type byte: 397-411. [pre] is the part of the
   plaintext below the index, reversed: the last non-zero byte and what
   precedes it. *)
Fixpoint scan_type (rev_pt : bytes) : option (N * bytes) :=
  match rev_pt with
  | [] => None
  | b :: r => if b =? 0 then scan_type r else Some (b, rev r)
  end.

(* Unprotect: 333-477. [plaintext] is the caller's output buffer. *)
Definition crypt_unprotect (P : prims) (lib : ssl_lib) (x : crypt)
  (header : iovec) (payload : list iovec) (plaintext : iovec)
  : M (crypt * sstatus * iovec) :=
  if cx_close x then ret (x, (S_ALERT_CLOSE_NOTIFY, 0), plaintext) else
  let record_length := wrap64 (iov_len header + total_len payload) in
  overhead <- lift (record_overhead x) ;;
  if record_length <? overhead
  then ret (x, (S_FAILED_PRECONDITION, 0), plaintext) else
  if overhead + kTlsMaxPlaintextSize <? record_length
  then ret (x, (S_ALERT_RECORD_OVERFLOW, 0), plaintext) else
  if negb (validate_header header record_length)
  then ret (x, (S_FAILED_PRECONDITION, 0), plaintext) else
  '(h, (st, n), plaintext) <-
     half_decrypt P (cx_in x) [header] payload plaintext ;;
  let x := set_in x h in
  if negb (is_ok st) then
    plaintext <- lift (zero_out plaintext) ;;
    ret (x, (S_INTERNAL_ERROR, 0), plaintext)
  else
  match scan_type (rev (takeN n (iov_data plaintext))) with
  | None => ret (x, (S_INVALID_RECORD, 0), plaintext)
  | Some (ty, content) =>
    if ty =? kTls13Alert then
      match content with
      | _ :: description :: _ =>
        plaintext <- lift (zero_out plaintext) ;;
        if description =? kTlsAlertCloseNotify
        then ret (set_close x, (S_ALERT_CLOSE_NOTIFY, 0), plaintext)
        else ret (x, (S_ALERT_OTHER, 0), plaintext)
      | _ =>
        plaintext <- lift (zero_out plaintext) ;;
        ret (x, (S_INVALID_RECORD, 0), plaintext)
      end
    else if ty =? kTls13Handshake then
      '(h, r) <- lift (process_handshake_message (cx_handler x) content) ;;
      '(x, st) <- handle_result P lib (set_handler x h) r ;;
      if negb (is_ok st) then ret (x, (S_INTERNAL_ERROR, 0), plaintext)
      else ret (x, (S_OK, 0), plaintext)
    else if ty =? kTls13ApplicationData then
      if cx_expecting x then ret (x, (S_INVALID_RECORD, 0), plaintext) else
      x <- lift (match cx_phase x with
                 | RECEIVING =>
                   obind (send_tickets x) (fun x =>
                     Done (set_phase x DONE (cx_expecting x)))
                 | _ => Done x
                 end) ;;
      ret (x, (S_OK, lenN content), plaintext)
    else
      plaintext <- lift (zero_out plaintext) ;;
      ret (x, (S_INVALID_RECORD, 0), plaintext)
  end.

(* UpdateOutboundKey: 484. *)
Definition crypt_update_outbound_key (P : prims) (lib : ssl_lib) (x : crypt)
  : M (crypt * code) :=
  '(h, st) <- half_update_key P lib (cx_out x) ;;
  ret (set_out x h, st).
