(* Model of a debug build: the ABSL_ASSERTs of the record layer, which abort
   the process if their condition is false. The functions below are those of
   Aead.v, HalfConn.v, HsHandler.v, Crypter.v and FrameProt.v (a release build,
   where ABSL_ASSERT does nothing) with the assertions put back.

   Not here, because the types of the model make them true: the ABSL_ASSERT(0)
   of the third case of a variant (s2a_frame_protector.cc 215, 342, 362, 414,
   438, s2a_crypter.cc 234, 248, 300, 581, s2a_half_connection.cc 163, 247);
   pointers to objects the code has just made or owns (ctx != nullptr in
   aes_gcm_crypter.cc 41, 58, 76, 102, 132 and chacha_poly_crypter_openssl.cc
   42, 60, 79, 106, 136; header != nullptr, s2a_frame_protector.cc 93;
   message and first_fragment, handshake_message_handler.cc 238, 240 - taking
   the first element of an empty message is undefined before 240, see
   [get_message_type]); tag.iov_len == 16 (aes_gcm_crypter.cc 77,
   chacha_poly_crypter_openssl.cc 80, the caller passes a 16-byte array);
   ticket_sender_function_ != nullptr (s2a_crypter.cc 548: Create refuses null,
   and [crypt] has no such field); plaintext != nullptr
   (handshake_message_handler.cc 185: ProcessHandshakeMessage has refused null
   at 53-57). *)
From Coq Require Import List NArith Bool.
From Verif Require Import Base Aead Hkdf HalfConn Options HsHandler Crypter FrameProt.
Import ListNotations.
Local Open Scope N_scope.

(* A computation that may abort: None. *)
Definition DM (A : Type) := M (option A).
Definition dret {A} (a : A) : DM A := ret (Some a).
Definition plain {A} (m : M A) : DM A := bind m dret.
Definition dbind {A B} (m : DM A) (k : A -> DM B) : DM B :=
  bind m (fun o => match o with Some a => k a | None => ret None end).
(* ABSL_ASSERT(b). *)
Definition assert_ (b : bool) : DM unit := ret (if b then Some tt else None).
Notation "x <! m ;; k" := (dbind m (fun x => k))
  (at level 61, m at next level, right associativity).
Notation "' p <! m ;; k" := (dbind m (fun p => k))
  (at level 61, p pattern, m at next level, right associativity).

(* iov_base != nullptr. *)
Definition not_null (v : iovec) : bool :=
  match v with IoBuf _ => true | IoNull _ => false end.

(* Encrypt: aes_gcm_crypter.cc 173, chacha_poly_crypter_openssl.cc 183,
   chacha_poly_crypter_boringssl.cc 57, before anything else. *)
Definition aead_encrypt_d (P : prims) (c : crypter) (nonce : bytes)
  (aad pt : list iovec) (out : iovec) : DM (crypter * cstatus * iovec) :=
  _ <! assert_ (not_null out) ;;
  plain (aead_encrypt P c nonce aad pt out).

(* Decrypt: aes_gcm_crypter.cc 277-279, chacha_poly_crypter_openssl.cc 283-285,
   chacha_poly_crypter_boringssl.cc 144-146. *)
Definition aead_decrypt_d (P : prims) (c : crypter) (nonce : bytes)
  (aad ct : list iovec) (out : iovec) : DM (crypter * cstatus * iovec) :=
  _ <! (if iov_len out =? 0 then dret tt else assert_ (not_null out)) ;;
  plain (aead_decrypt P c nonce aad ct out).

(* Encrypt: s2a_half_connection.cc 171-184. *)
Definition half_encrypt_d (P : prims) (h : half) (aad pt : list iovec)
  (out : iovec) : DM (half * cstatus * iovec) :=
  match hc_aead h with
  | None => dret (h, (kInternal, 0), out)
  | Some c =>
    if hc_always_fail h || hc_overflowed h
    then dret (h, (kInternal, 0), out)
    else
      '(nonce, h) <! plain (lift (nonce_mask h)) ;;
      '(c, st, out) <! aead_encrypt_d P c nonce aad pt out ;;
      dret (with_aead h c, st, out)
  end.

(* Decrypt: s2a_half_connection.cc 186-199. *)
Definition half_decrypt_d (P : prims) (h : half) (aad ct : list iovec)
  (out : iovec) : DM (half * cstatus * iovec) :=
  match hc_aead h with
  | None => dret (h, (kInternal, 0), out)
  | Some c =>
    if hc_always_fail h || hc_overflowed h
    then dret (h, (kInternal, 0), out)
    else
      '(nonce, h) <! plain (lift (nonce_mask h)) ;;
      '(c, st, out) <! aead_decrypt_d P c nonce aad ct out ;;
      dret (with_aead h c, st, out)
  end.

(* full_tickets_ != nullptr. *)
Definition has_tickets (h : handler) : bool :=
  match hs_tickets h with Some _ => true | None => false end.

(* AddTicketToStore: handshake_message_handler.cc 201-206. *)
Definition add_ticket_d (h : handler) : DM handler :=
  _ <! assert_ (has_tickets h) ;; plain (lift (add_ticket h)).

(* The loop of ProcessHandshakeMessage: handshake_message_handler.cc 71-158. *)
Fixpoint process_loop_d (fuel : nat) (h : handler) (pt : bytes)
  (contains_ku contains_ticket : bool) : DM (handler * (code + hs_result)) :=
  match pt with
  | [] =>
    dret (h, inr {| r_expecting := expecting_more h;
                    r_key_update := contains_ku;
                    r_key_update_type := kInvalidKeyUpdateType;
                    r_ticket := contains_ticket; r_num := hs_num h |})
  | _ =>
    match fuel with
    | O => fun _ => NoFuel
    | S fuel' =>
      '(rest, full, h1) <! plain (lift (read_step h pt)) ;;
      t <! plain (lift (get_message_type h1)) ;;
      if t =? kKeyUpdateMessageType then
        if (full : bool) then
          match rest with
          | [] =>
            let ty := get_key_update_type h1 in
            let h2 := with_frags h1 [] in
            dret (h2, inr {| r_expecting := expecting_more h2;
                             r_key_update := true;
                             r_key_update_type := ty;
                             r_ticket := contains_ticket;
                             r_num := hs_num h2 |})
          | _ => dret (h1, inl kInternal)
          end
        else process_loop_d fuel' h1 rest true contains_ticket
      else if t =? kSessionTicketMessageType then
        if (full : bool) then
          h2 <! (if ignore_future_tickets h1 then dret h1 else add_ticket_d h1) ;;
          process_loop_d fuel' (with_frags h2 []) rest contains_ku true
        else process_loop_d fuel' h1 rest contains_ku true
      else dret (h1, inl kInternal)
    end
  end.

(* GetStoredTickets: handshake_message_handler.cc 161-180. *)
Definition get_stored_tickets_d (h : handler)
  : DM (handler * (code + list (list bytes))) :=
  if hs_retrieved h then dret (h, inl kInternal) else
  waiting <! (if expecting_more h then
                t <! plain (lift (get_message_type h)) ;;
                dret (t =? kSessionTicketMessageType)
              else dret false) ;;
  if (waiting : bool) then dret (h, inl kInternal) else
  _ <! assert_ (has_tickets h) ;;
  plain (lift (get_stored_tickets h)).

(* Protect: s2a_crypter.cc 258-331, the assertion is 287. *)
Definition crypt_protect_d (P : prims) (x : crypt) (t : record_type)
  (pt : list iovec) (record : iovec) : DM (crypt * sstatus * iovec) :=
  let len := total_len pt in
  if kTlsMaxPlaintextSize <? len
  then dret (x, (S_FAILED_PRECONDITION, 0), record) else
  overhead <! plain (lift (record_overhead x)) ;;
  if iov_len record <? len + overhead
  then dret (x, (S_FAILED_PRECONDITION, 0), record) else
  tag <! plain (lift (half_tag_length (cx_out x))) ;;
  _ <! assert_ (not_null record) ;;
  match record with
  | IoNull _ => dret (x, (convert_code kInvalidArgument, 0), record)
  | IoBuf buf =>
    let hdr := record_header (len + 1 + tag) in
    let tail := IoBuf (dropN kTlsRecordHeaderSize buf) in
    let payload := pt ++ [IoBuf [convert_record_type t]] in
    '(h, (st, n), tail) <! half_encrypt_d P (cx_out x) [IoBuf hdr] payload tail ;;
    let x := set_out x h in
    let buf := hdr ++ iov_data tail in
    if negb (is_ok st) then
      record <! plain (lift (zero_out (IoBuf buf))) ;;
      dret (x, (convert_code st, 0), record)
    else dret (x, (S_OK, n + kTlsRecordHeaderSize), IoBuf buf)
  end.

(* RetrieveStoredTicketsAndSendToS2A: s2a_crypter.cc 547-592. *)
Definition send_tickets_d (x : crypt) : DM crypt :=
  '(h, r) <! get_stored_tickets_d (cx_handler x) ;;
  match r with
  | inl _ => dret (set_handler x h)
  | inr ts =>
    dret (add_sent x h
            {| ts_url := cx_url x; ts_connection_id := cx_connection_id x;
               ts_identity := cx_identity x;
               ts_tickets := map (@List.concat N) ts;
               ts_channel := cx_channel x |})
  end.

(* HandleProcessHandshakeMessageResult: s2a_crypter.cc 486-545. *)
Definition handle_result_d (P : prims) (lib : ssl_lib) (x : crypt)
  (r : code + hs_result) : DM (crypt * code) :=
  match r with
  | inl st => dret (x, st)
  | inr r =>
    let x := set_phase x (cx_phase x) (r_expecting r) in
    '(x, failed) <!
      (if r_key_update r then
         '(h, st) <! plain (half_update_key P lib (cx_in x)) ;;
         dret (set_in x h, negb (is_ok st))
       else dret (x, false)) ;;
    if (failed : bool) then dret (x, kInternal) else
    match cx_phase x with
    | DONE => dret (x, kOk)
    | p =>
      let x := match p with
               | NOT_RECEIVED =>
                 if r_ticket r then set_phase x RECEIVING (cx_expecting x)
                 else x
               | _ => x
               end in
      if r_ticket r && (kMaxNumTicketsToProcess <=? r_num r) then
        x <! send_tickets_d x ;;
        dret (set_phase x DONE false, kOk)
      else dret (x, kOk)
    end
  end.

(* Unprotect: s2a_crypter.cc 333-477, the assertion is 382. *)
Definition crypt_unprotect_d (P : prims) (lib : ssl_lib) (x : crypt)
  (header : iovec) (payload : list iovec) (plaintext : iovec)
  : DM (crypt * sstatus * iovec) :=
  if cx_close x then dret (x, (S_ALERT_CLOSE_NOTIFY, 0), plaintext) else
  let record_length := wrap64 (iov_len header + total_len payload) in
  overhead <! plain (lift (record_overhead x)) ;;
  if record_length <? overhead
  then dret (x, (S_FAILED_PRECONDITION, 0), plaintext) else
  if overhead + kTlsMaxPlaintextSize <? record_length
  then dret (x, (S_ALERT_RECORD_OVERFLOW, 0), plaintext) else
  if negb (validate_header header record_length)
  then dret (x, (S_FAILED_PRECONDITION, 0), plaintext) else
  '(h, (st, n), plaintext) <!
     half_decrypt_d P (cx_in x) [header] payload plaintext ;;
  let x := set_in x h in
  if negb (is_ok st) then
    plaintext <! plain (lift (zero_out plaintext)) ;;
    dret (x, (S_INTERNAL_ERROR, 0), plaintext)
  else
  _ <! assert_ (not_null plaintext) ;;
  match scan_type (rev (takeN n (iov_data plaintext))) with
  | None => dret (x, (S_INVALID_RECORD, 0), plaintext)
  | Some (ty, content) =>
    if ty =? kTls13Alert then
      match content with
      | _ :: description :: _ =>
        plaintext <! plain (lift (zero_out plaintext)) ;;
        if description =? kTlsAlertCloseNotify
        then dret (set_close x, (S_ALERT_CLOSE_NOTIFY, 0), plaintext)
        else dret (x, (S_ALERT_OTHER, 0), plaintext)
      | _ =>
        plaintext <! plain (lift (zero_out plaintext)) ;;
        dret (x, (S_INVALID_RECORD, 0), plaintext)
      end
    else if ty =? kTls13Handshake then
      '(h, r) <! process_loop_d (length content) (cx_handler x) content false false ;;
      '(x, st) <! handle_result_d P lib (set_handler x h) r ;;
      if negb (is_ok st) then dret (x, (S_INTERNAL_ERROR, 0), plaintext)
      else dret (x, (S_OK, 0), plaintext)
    else if ty =? kTls13ApplicationData then
      if cx_expecting x then dret (x, (S_INVALID_RECORD, 0), plaintext) else
      x <! match cx_phase x with
           | RECEIVING =>
             x <! send_tickets_d x ;; dret (set_phase x DONE (cx_expecting x))
           | _ => dret x
           end ;;
      dret (x, (S_OK, lenN content), plaintext)
    else
      plaintext <! plain (lift (zero_out plaintext)) ;;
      dret (x, (S_INVALID_RECORD, 0), plaintext)
  end.

(* One iteration of the loop of ComputeTlsRecordSize:
   s2a_frame_protector.cc 97-136, the assertion is 104. *)
Definition read_byte_d (c : cursor) : DM (option (N * cursor)) :=
  match c with
  | ([], _) => dret None
  | (v :: rest, on) =>
    _ <! assert_ (not_null v) ;;
    plain (lift (read_byte c))
  end.

(* ComputeTlsRecordSize: s2a_frame_protector.cc 90-144. *)
Fixpoint read_header_d (k : nat) (hdr : bytes) (c : cursor)
  : DM (code + bytes * cursor) :=
  match k with
  | O => dret (inr (hdr, c))
  | S k' =>
    r <! read_byte_d c ;;
    match r with
    | None => dret (inl kFailedPrecondition)
    | Some (b, c') =>
      let bad := match length hdr with
                 | O => negb (b =? kTls12ApplicationData)
                 | 1%nat | 2%nat => negb (b =? kTls12WireVersion)
                 | _ => false
                 end in
      if bad then dret (inl kFailedPrecondition)
      else read_header_d k' (hdr ++ [b]) c'
    end
  end.

(* IsolateTlsPayload: s2a_frame_protector.cc 157-188, the assertion is 169. *)
Fixpoint isolate_payload_d (vs : list iovec) (on : N) (need : N)
  : DM (code + list iovec * cursor) :=
  if need =? 0 then dret (inr ([], (vs, on)))
  else
    match vs with
    | [] => dret (inl kFailedPrecondition)
    | v :: rest =>
      _ <! assert_ (not_null v) ;;
      let k := N.min (sub64 (iov_len v) on) need in
      piece <! plain (lift (iov_slice v on k)) ;;
      if k + on =? iov_len v then
        r <! isolate_payload_d rest 0 (need - k) ;;
        match r with
        | inl e => dret (inl e)
        | inr (ps, c) => dret (inr (piece :: ps, c))
        end
      else dret (inr ([piece], (vs, on + k)))
    end.

(* Collecting the next bytes to protect: s2a_frame_protector.cc 265-285, the
   assertion is 270. *)
Fixpoint collect_chunk_d (vs : list iovec) (on : N) (need : N)
  : DM (list iovec * cursor) :=
  if need =? 0 then dret ([], (vs, on))
  else
    _ <! assert_ (match vs with [] => false | _ => true end) ;;
    match vs with
    | [] => fun _ => Undef UbOutOfBounds
    | v :: rest =>
      let k := N.min (sub64 (iov_len v) on) need in
      piece <! plain (lift (iov_slice v on k)) ;;
      if iov_len v <=? on + k then
        '(ps, c) <! collect_chunk_d rest 0 (need - k) ;;
        dret (piece :: ps, c)
      else dret ([piece], (vs, on + k))
    end.

(* The loop of Protect: s2a_frame_protector.cc 256-315. *)
Fixpoint protect_loop_d (fuel : nat) (P : prims) (f : fprot) (c : cursor)
  (remaining : N) (first : bool) (out : bytes) (index : N) (id : N)
  : DM (fprot * code * bytes) :=
  if negb (first || (0 <? remaining)) then dret (f, kOk, out)
  else
    match fuel with
    | O => fun _ => NoFuel
    | S fuel' =>
      let n := if remaining <? kTlsMaxPlaintextSize then remaining
               else kTlsMaxPlaintextSize in
      '(chunk, c) <! collect_chunk_d (fst c) (snd c) n ;;
      '(x, (st, written), tail) <!
        crypt_protect_d P (fp_crypt f) APPLICATION_DATA chunk
          (IoBuf (dropN index out)) ;;
      let f := with_crypt f x in
      let out := takeN index out ++ iov_data tail in
      match st with
      | S_OK =>
        o <! plain (lift (record_overhead x)) ;;
        if negb (written =? n + o) then dret (fp_destroy f id, kInternal, out)
        else protect_loop_d fuel' P f c (remaining - n) false out
               (index + written) id
      | _ => dret (fp_destroy f id, fp_code st, out)
      end
    end.

(* Protect into a caller-provided buffer: s2a_frame_protector.cc 243-317. *)
Definition fp_protect_into_d (P : prims) (f : fprot) (input : list iovec)
  (id : N) (out : iovec) : DM (fprot * code * iovec) :=
  let total := total_len input in
  let fuel := S (N.to_nat (total / kTlsMaxPlaintextSize)) in
  match out with
  | IoBuf buf =>
    '(f, st, buf) <!
      protect_loop_d fuel P f (input, 0) total (total =? 0) buf 0 id ;;
    dret (f, st, IoBuf buf)
  | IoNull n =>
    '(chunk, _) <!
      collect_chunk_d input 0
        (if total <? kTlsMaxPlaintextSize then total
         else kTlsMaxPlaintextSize) ;;
    '(x, (st, _), out) <!
      crypt_protect_d P (fp_crypt f) APPLICATION_DATA chunk out ;;
    dret (fp_destroy (with_crypt f x) id, fp_code st, out)
  end.

(* Protect with allocation: s2a_frame_protector.cc 233-241. *)
Definition fp_protect_d (P : prims) (al : allocator) (f : fprot)
  (input : list iovec) : DM (fprot * code * list fbuf) :=
  size <! plain (lift (number_bytes_to_protect f (total_len input))) ;;
  let '(f, id, out) := fp_alloc al f size in
  '(f, st, out) <! fp_protect_into_d P f input id out ;;
  if negb (is_ok st) then dret (fp_destroy f id, st, [])
  else dret (f, kOk, [{| fb_id := id; fb_mem := out; fb_len := iov_len out |}]).

(* Unprotect of a single record: s2a_frame_protector.cc 319-377. *)
Definition fp_unprotect_into_d (P : prims) (lib : ssl_lib) (f : fprot)
  (input : list iovec) (out : iovec) : DM (fprot * code * iovec * N) :=
  n <! plain (lift (number_bytes_to_unprotect f (total_len input))) ;;
  if n =? 0 then dret (f, kFailedPrecondition, out, iov_len out) else
  r <! read_header_d 5 [] (input, 0) ;;
  match r with
  | inl st => dret (f, st, out, 0)
  | inr (hdr, (vs, on)) =>
    r <! isolate_payload_d vs on (header_payload_size hdr) ;;
    match r with
    | inl st => dret (f, st, out, 0)
    | inr (payload, _) =>
      '(x, (st, written), out) <!
        crypt_unprotect_d P lib (fp_crypt f) (IoBuf hdr) payload out ;;
      let f := with_crypt f x in
      match st with
      | S_OK => dret (f, kOk, out, written)
      | _ => dret (f, fp_code st, out, 0)
      end
    end
  end.

(* The loop of Unprotect: s2a_frame_protector.cc 395-465. *)
Fixpoint unprotect_loop_d (fuel : nat) (P : prims) (lib : ssl_lib)
  (al : allocator) (f : fprot) (c : cursor) (remaining : N) (acc : list fbuf)
  : DM (fprot * code * list fbuf) :=
  o <! plain (lift (record_overhead (fp_crypt f))) ;;
  if remaining <? o then dret (f, kOk, acc)
  else
    match fuel with
    | O => fun _ => NoFuel
    | S fuel' =>
      r <! read_header_d 5 [] c ;;
      match r with
      | inl st => dret (f, st, [])
      | inr (hdr, (vs, on)) =>
        let size := header_payload_size hdr in
        r <! isolate_payload_d vs on size ;;
        match r with
        | inl st => dret (f, st, [])
        | inr (payload, c) =>
          let '(f, id, mem) := fp_alloc al f size in
          '(x, (st, written), mem) <!
            crypt_unprotect_d P lib (fp_crypt f) (IoBuf hdr) payload mem ;;
          let f := with_crypt f x in
          match st with
          | S_OK =>
            unprotect_loop_d fuel' P lib al f c
              (sub64 remaining (kTlsRecordHeaderSize + size))
              (acc ++ [{| fb_id := id; fb_mem := mem; fb_len := written |}])
          | _ =>
            let f := fold_left (fun f b => fp_destroy f (fb_id b)) acc
                       (fp_destroy f id) in
            dret (f, fp_code st, [])
          end
        end
      end
    end.

(* Unprotect of a sequence of records: s2a_frame_protector.cc 379-467. *)
Definition fp_unprotect_d (P : prims) (lib : ssl_lib) (al : allocator)
  (f : fprot) (input : list iovec) : DM (fprot * code * list fbuf) :=
  let total := total_len input in
  o <! plain (lift (record_overhead (fp_crypt f))) ;;
  if total <? o then dret (f, kFailedPrecondition, [])
  else unprotect_loop_d (S (N.to_nat (total / o))) P lib al f (input, 0) total [].
