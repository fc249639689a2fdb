(* Threads: the calls as programs of memory accesses that can be interleaved.

   Every access to the state shared between threads is a step of its own, with
   two exceptions: a call of Encrypt, Decrypt or UpdateKey of a half connection
   made by S2ACrypter is one step, because it holds mu_ for its whole body (and
   C29 proves that such calls are atomic). The allocator's bookkeeping is local
   to a call: buffers of different calls are distinct anyway, only their names
   differ. The logger, the allocator and the ticket sender are assumed to be
   safe to call from several threads. *)
From Coq Require Import List NArith Bool.
From Verif Require Import Base Aead Hkdf HalfConn Options HsHandler Crypter FrameProt.
Import ListNotations.
Local Open Scope N_scope.

(* ------------------------------------------------------------------ *)
(* A program over the shared state S: finished, or an atomic access and what
   follows it. *)
Inductive prog (S A : Type) : Type :=
| Ret (a : A)
| Step (B : Type) (f : S -> outcome (S * B)) (k : B -> prog S A).
Arguments Ret {S A} a.
Arguments Step {S A B} f k.

Fixpoint pbind {S A B} (p : prog S A) (k : A -> prog S B) : prog S B :=
  match p with
  | Ret a => k a
  | Step f k' => Step f (fun b => pbind (k' b) k)
  end.

(* The program without interference by other threads. *)
Fixpoint alone {S A} (p : prog S A) (s : S) : outcome (S * A) :=
  match p with
  | Ret a => Done (s, a)
  | Step f k => obind (f s) (fun '(s, b) => alone (k b) s)
  end.

(* Programs that call the crypto library: each call has its own faults. *)
Definition C (S A : Type) := faults -> prog S (A * faults).
Definition cret {S A} (a : A) : C S A := fun fs => Ret (a, fs).
Definition cbind {S A B} (m : C S A) (k : A -> C S B) : C S B :=
  fun fs => pbind (m fs) (fun '(a, fs) => k a fs).
(* One access. *)
Definition act {S A} (f : S -> outcome (S * A)) : C S A :=
  fun fs => Step f (fun a => Ret (a, fs)).
(* One access that calls the library. *)
Definition actM {S A} (f : S -> M (S * A)) : C S A :=
  fun fs => Step (fun s => obind (f s fs) (fun '((s, a), fs) => Done (s, (a, fs))))
                 (fun p => Ret p).
(* A computation on the call's own data. *)
Definition own {S A} (o : outcome A) : C S A :=
  fun fs => Step (fun s => obind o (fun a => Done (s, a))) (fun a => Ret (a, fs)).

Notation "x <~ m ;; k" := (cbind m (fun x => k))
  (at level 61, m at next level, right associativity).
Notation "' p <~ m ;; k" := (cbind m (fun p => k))
  (at level 61, p pattern, m at next level, right associativity).

(* ------------------------------------------------------------------ *)
(* S2AHalfConnection: the bodies of the three locked methods, one step per
   access (s2a_half_connection.cc 171-254, 269-281). *)

(* 176-181 and 191-196. *)
Definition check_usable : C half bool :=
  act (fun h => Done (h, match hc_aead h with
                         | None => false
                         | Some _ => negb (hc_always_fail h || hc_overflowed h)
                         end)).

(* 270-274: the masked nonce is computed from nonce_ and sequence_. *)
Definition read_nonce : C half bytes :=
  act (fun h => obind (nonce_mask h) (fun '(n, _) => Done (h, n))).

(* 276-279: sequence_ is incremented; the ghost record notes the nonce this
   call has computed. *)
Definition increment (n : bytes) : C half unit :=
  act (fun h =>
    let seq' := wrap64 (hc_seq h + 1) in
    Done ({| hc_suite := hc_suite h; hc_key_size := hc_key_size h; hc_seq := seq';
             hc_overflowed := if seq' =? 0 then true else hc_overflowed h;
             hc_always_fail := hc_always_fail h; hc_nonce := hc_nonce h;
             hc_secret := hc_secret h; hc_aead := hc_aead h;
             hc_epoch := hc_epoch h;
             hc_used := hc_used h ++ [(hc_epoch h, n)] |}, tt)).

(* The call through aead_crypter_: 182, 197. *)
Definition through_crypter
  (f : crypter -> M (crypter * cstatus * iovec)) : C half (cstatus * iovec) :=
  actM (fun h =>
    match hc_aead h with
    | None => undef UbNullDeref
    | Some c => '(c, st, out) <- f c ;; ret (with_aead h c, (st, out))
    end).

(* Encrypt: 174-184 without the lock. *)
Definition encrypt_body (P : prims) (aad pt : list iovec) (out : iovec)
  : C half (cstatus * iovec) :=
  ok <~ check_usable ;;
  if negb ok then cret ((kInternal, 0), out) else
  n <~ read_nonce ;;
  _ <~ increment n ;;
  through_crypter (fun c => aead_encrypt P c n aad pt out).

(* Decrypt: 189-199 without the lock. *)
Definition decrypt_body (P : prims) (aad ct : list iovec) (out : iovec)
  : C half (cstatus * iovec) :=
  ok <~ check_usable ;;
  if negb ok then cret ((kInternal, 0), out) else
  n <~ read_nonce ;;
  _ <~ increment n ;;
  through_crypter (fun c => aead_decrypt P c n aad ct out).

(* always_fail_aead_operations_ = true; return status. *)
Definition mark_failed (st : code) : C half code :=
  act (fun h => Done (with_keys h (hc_secret h) (hc_nonce h) true, st)).

(* UpdateKey: 203-254 without the lock. *)
Definition update_body (P : prims) (lib : ssl_lib) : C half code :=
  st <~ actM (fun h =>
          '(st, secret) <- advance_secret P (hc_suite h) (hc_secret h) ;;
          ret (with_keys h secret (hc_nonce h) (hc_always_fail h), st)) ;;
  if negb (is_ok st) then mark_failed st else
  '(st, key) <~ actM (fun h =>
          r <- derive_key P (hc_suite h) (hc_secret h) (zeros (hc_key_size h)) ;;
          ret (h, r)) ;;
  if negb (is_ok st) then mark_failed st else
  st <~ actM (fun h =>
          '(st, nonce) <- derive_nonce P (hc_suite h) (hc_secret h) (hc_nonce h) ;;
          ret (with_keys h (hc_secret h) nonce (hc_always_fail h), st)) ;;
  if negb (is_ok st) then mark_failed st else
  r <~ actM (fun h => r <- create_crypter lib (hc_suite h) key ;; ret (h, r)) ;;
  match r with
  | inl st => mark_failed st
  | inr c =>
    (* 244: the old crypter is freed *)
    _ <~ act (fun h =>
           Done ({| hc_suite := hc_suite h; hc_key_size := hc_key_size h;
                    hc_seq := hc_seq h; hc_overflowed := hc_overflowed h;
                    hc_always_fail := hc_always_fail h; hc_nonce := hc_nonce h;
                    hc_secret := hc_secret h; hc_aead := Some c;
                    hc_epoch := hc_epoch h + 1; hc_used := hc_used h |}, tt)) ;;
    (* 251-253 *)
    act (fun h =>
           Done ({| hc_suite := hc_suite h; hc_key_size := hc_key_size h;
                    hc_seq := 0; hc_overflowed := false;
                    hc_always_fail := hc_always_fail h; hc_nonce := hc_nonce h;
                    hc_secret := hc_secret h; hc_aead := hc_aead h;
                    hc_epoch := hc_epoch h; hc_used := hc_used h |}, kOk))
  end.

(* TagLength: 256, without any lock: the pointer aead_crypter_ is loaded, then
   the object it points to is used. The number of the installed key identifies
   the object: every UpdateKey that replaces the object increments it, and
   frees the old object. *)
Definition load_tag (h : half) : option N :=
  match hc_aead h with
  | None => None
  | Some _ => Some (hc_epoch h)
  end.
Definition use_tag (p : option N) (h : half) : outcome N :=
  match p with
  | None => Undef UbNullDeref
  | Some e => if e =? hc_epoch h then half_tag_length h else Undef UbUseAfterFree
  end.

(* ------------------------------------------------------------------ *)
(* S2ACrypter *)

Definition load_in (x : crypt) : outcome (crypt * option N) :=
  Done (x, load_tag (cx_in x)).
Definition use_in (p : option N) (x : crypt) : outcome (crypt * N) :=
  obind (use_tag p (cx_in x)) (fun t => Done (x, t)).
Definition load_out (x : crypt) : outcome (crypt * option N) :=
  Done (x, load_tag (cx_out x)).
Definition use_out (p : option N) (x : crypt) : outcome (crypt * N) :=
  obind (use_tag p (cx_out x)) (fun t => Done (x, t)).

(* in_connection_->TagLength(), out_connection_->TagLength(). *)
Definition tag_in : C crypt N := p <~ act load_in ;; act (use_in p).
Definition tag_out : C crypt N := p <~ act load_out ;; act (use_out p).

(* RecordOverhead: s2a_crypter.cc 479-482. *)
Definition overhead_c : C crypt N :=
  t <~ tag_in ;; cret (kTlsRecordHeaderSize + 1 + t).

(* Protect: 258-331 up to the call of Encrypt. None: the call of Encrypt
   follows, with this header. *)
Definition protect_checks (len : N) (record : iovec) : C crypt (sstatus + bytes) :=
  if kTlsMaxPlaintextSize <? len then cret (inl (S_FAILED_PRECONDITION, 0)) else
  overhead <~ overhead_c ;;
  if iov_len record <? len + overhead then cret (inl (S_FAILED_PRECONDITION, 0)) else
  tag <~ tag_out ;;
  match record with
  | IoNull _ => cret (inl (convert_code kInvalidArgument, 0))
  | IoBuf _ => cret (inr (record_header (len + 1 + tag)))
  end.

(* The call of Encrypt and what follows it. *)
Definition protect_payload (P : prims) (t : record_type) (pt : list iovec)
  (hdr : bytes) (buf : bytes) : C crypt (sstatus * iovec) :=
  '((st, n), tail) <~ actM (fun x =>
     '(h, r, tail) <- half_encrypt P (cx_out x) [IoBuf hdr]
                        (pt ++ [IoBuf [convert_record_type t]])
                        (IoBuf (dropN kTlsRecordHeaderSize buf)) ;;
     ret (set_out x h, (r, tail))) ;;
  let buf := hdr ++ iov_data tail in
  if negb (is_ok st) then
    record <~ own (zero_out (IoBuf buf)) ;;
    cret ((convert_code st, 0), record)
  else cret ((S_OK, n + kTlsRecordHeaderSize), IoBuf buf).

Definition crypt_protect_c (P : prims) (t : record_type) (pt : list iovec)
  (record : iovec) : C crypt (sstatus * iovec) :=
  r <~ protect_checks (total_len pt) record ;;
  match r with
  | inl st => cret (st, record)
  | inr hdr => protect_payload P t pt hdr (iov_data record)
  end.

(* HandleProcessHandshakeMessageResult: 486-545. *)
Definition handle_result_c (P : prims) (lib : ssl_lib) (r : code + hs_result)
  : C crypt code :=
  match r with
  | inl st => cret st
  | inr r =>
    _ <~ act (fun x => Done (set_phase x (cx_phase x) (r_expecting r), tt)) ;;
    failed <~ (if r_key_update r then
                 st <~ actM (fun x => '(h, st) <- half_update_key P lib (cx_in x) ;;
                                      ret (set_in x h, st)) ;;
                 cret (negb (is_ok st))
               else cret false) ;;
    if (failed : bool) then cret kInternal else
    act (fun x =>
      match cx_phase x with
      | DONE => Done (x, kOk)
      | p =>
        let x := match p with
                 | NOT_RECEIVED =>
                   if r_ticket r then set_phase x RECEIVING (cx_expecting x)
                   else x
                 | _ => x
                 end in
        if r_ticket r && (kMaxNumTicketsToProcess <=? r_num r) then
          obind (send_tickets x) (fun x => Done (set_phase x DONE false, kOk))
        else Done (x, kOk)
      end)
  end.

(* Unprotect: 333-477. *)
Definition crypt_unprotect_c (P : prims) (lib : ssl_lib) (header : iovec)
  (payload : list iovec) (plaintext : iovec) : C crypt (sstatus * iovec) :=
  closed <~ act (fun x => Done (x, cx_close x)) ;;
  if (closed : bool) then cret ((S_ALERT_CLOSE_NOTIFY, 0), plaintext) else
  let record_length := wrap64 (iov_len header + total_len payload) in
  (* 346 and 356 call RecordOverhead once each *)
  overhead <~ overhead_c ;;
  if record_length <? overhead
  then cret ((S_FAILED_PRECONDITION, 0), plaintext) else
  overhead <~ overhead_c ;;
  if overhead + kTlsMaxPlaintextSize <? record_length
  then cret ((S_ALERT_RECORD_OVERFLOW, 0), plaintext) else
  if negb (validate_header header record_length)
  then cret ((S_FAILED_PRECONDITION, 0), plaintext) else
  '((st, n), plaintext) <~ actM (fun x =>
     '(h, r, out) <- half_decrypt P (cx_in x) [header] payload plaintext ;;
     ret (set_in x h, (r, out))) ;;
  if negb (is_ok st) then
    plaintext <~ own (zero_out plaintext) ;;
    cret ((S_INTERNAL_ERROR, 0), plaintext)
  else
  match scan_type (rev (takeN n (iov_data plaintext))) with
  | None => cret ((S_INVALID_RECORD, 0), plaintext)
  | Some (ty, content) =>
    if ty =? kTls13Alert then
      match content with
      | _ :: description :: _ =>
        plaintext <~ own (zero_out plaintext) ;;
        if description =? kTlsAlertCloseNotify
        then act (fun x => Done (set_close x, ((S_ALERT_CLOSE_NOTIFY, 0), plaintext)))
        else cret ((S_ALERT_OTHER, 0), plaintext)
      | _ =>
        plaintext <~ own (zero_out plaintext) ;;
        cret ((S_INVALID_RECORD, 0), plaintext)
      end
    else if ty =? kTls13Handshake then
      r <~ act (fun x => obind (process_handshake_message (cx_handler x) content)
                           (fun '(h, r) => Done (set_handler x h, r))) ;;
      st <~ handle_result_c P lib r ;;
      if negb (is_ok st) then cret ((S_INTERNAL_ERROR, 0), plaintext)
      else cret ((S_OK, 0), plaintext)
    else if ty =? kTls13ApplicationData then
      act (fun x =>
        if cx_expecting x then Done (x, ((S_INVALID_RECORD, 0), plaintext)) else
        obind (match cx_phase x with
               | RECEIVING =>
                 obind (send_tickets x) (fun x =>
                   Done (set_phase x DONE (cx_expecting x)))
               | _ => Done x
               end) (fun x => Done (x, ((S_OK, lenN content), plaintext))))
    else
      plaintext <~ own (zero_out plaintext) ;;
      cret ((S_INVALID_RECORD, 0), plaintext)
  end.

(* ------------------------------------------------------------------ *)
(* S2AFrameProtector: s2a_frame_protector.cc. The call's own bookkeeping of
   buffers. *)
Record heap := { hp_next : N; hp_events : list event }.
(* The bookkeeping of a protector. *)
Definition heap_of (f : fprot) : heap := {| hp_next := fp_next f; hp_events := fp_events f |}.
Definition hp_alloc (al : allocator) (m : heap) (size : N) : heap * N * iovec :=
  ({| hp_next := hp_next m + 1;
      hp_events := hp_events m ++ [EvAlloc (hp_next m) size] |},
   hp_next m, al (hp_next m) size).
Definition hp_destroy (m : heap) (id : N) : heap :=
  {| hp_next := hp_next m; hp_events := hp_events m ++ [EvDestroy id] |}.

(* NumberBytesToProtect: 476-489. *)
Definition number_bytes_c (len : N) : C crypt N :=
  o <~ overhead_c ;;
  let n := len / kTlsMaxPlaintextSize in
  let n := if (len =? 0) || negb (n * kTlsMaxPlaintextSize =? len)
           then n + 1 else n in
  cret (wrap64 (len + n * o)).

(* The loop of Protect: 256-315. *)
Fixpoint protect_loop_c (fuel : nat) (P : prims) (m : heap) (c : cursor)
  (remaining : N) (first : bool) (out : bytes) (index : N) (id : N)
  : C crypt (heap * code * bytes) :=
  if negb (first || (0 <? remaining)) then cret (m, kOk, out)
  else
    match fuel with
    | O => own NoFuel
    | S fuel' =>
      let n := if remaining <? kTlsMaxPlaintextSize then remaining
               else kTlsMaxPlaintextSize in
      '(chunk, c) <~ own (collect_chunk (fst c) (snd c) n) ;;
      '((st, written), tail) <~
        crypt_protect_c P APPLICATION_DATA chunk (IoBuf (dropN index out)) ;;
      let out := takeN index out ++ iov_data tail in
      match st with
      | S_OK =>
        o <~ overhead_c ;;
        if negb (written =? n + o) then cret (hp_destroy m id, kInternal, out)
        else protect_loop_c fuel' P m c (remaining - n) false out
               (index + written) id
      | _ => cret (hp_destroy m id, fp_code st, out)
      end
    end.

(* Protect into a given buffer: 243-317. *)
Definition fp_protect_into_c (P : prims) (m : heap) (input : list iovec)
  (id : N) (out : iovec) : C crypt (heap * code * iovec) :=
  let total := total_len input in
  let fuel := S (N.to_nat (total / kTlsMaxPlaintextSize)) in
  match out with
  | IoBuf buf =>
    '(m, st, buf) <~
      protect_loop_c fuel P m (input, 0) total (total =? 0) buf 0 id ;;
    cret (m, st, IoBuf buf)
  | IoNull n =>
    '(chunk, _) <~
      own (collect_chunk input 0
             (if total <? kTlsMaxPlaintextSize then total
              else kTlsMaxPlaintextSize)) ;;
    '((st, _), out) <~ crypt_protect_c P APPLICATION_DATA chunk out ;;
    cret (hp_destroy m id, fp_code st, out)
  end.

(* Protect: 233-241. *)
Definition finish_protect (id : N) (r : heap * code * iovec) : heap * code * list fbuf :=
  let '(m, st, out) := r in
  if negb (is_ok st) then (hp_destroy m id, st, [])
  else (m, kOk, [{| fb_id := id; fb_mem := out; fb_len := iov_len out |}]).

Definition fp_protect_c (P : prims) (al : allocator) (m : heap)
  (input : list iovec) : C crypt (heap * code * list fbuf) :=
  size <~ number_bytes_c (total_len input) ;;
  let '(m, id, out) := hp_alloc al m size in
  r <~ fp_protect_into_c P m input id out ;;
  cret (finish_protect id r).

(* The loop of Unprotect: 395-465. *)
Fixpoint unprotect_loop_c (fuel : nat) (P : prims) (lib : ssl_lib)
  (al : allocator) (m : heap) (c : cursor) (remaining : N) (acc : list fbuf)
  : C crypt (heap * code * list fbuf) :=
  o <~ overhead_c ;;
  if remaining <? o then cret (m, kOk, acc)
  else
    match fuel with
    | O => own NoFuel
    | S fuel' =>
      r <~ own (compute_record_size c) ;;
      match r with
      | inl st => cret (m, st, [])
      | inr (hdr, (vs, on)) =>
        let size := header_payload_size hdr in
        r <~ own (isolate_payload vs on size) ;;
        match r with
        | inl st => cret (m, st, [])
        | inr (payload, c) =>
          let '(m, id, mem) := hp_alloc al m size in
          '((st, written), mem) <~
            crypt_unprotect_c P lib (IoBuf hdr) payload mem ;;
          match st with
          | S_OK =>
            unprotect_loop_c fuel' P lib al m c
              (sub64 remaining (kTlsRecordHeaderSize + size))
              (acc ++ [{| fb_id := id; fb_mem := mem; fb_len := written |}])
          | _ =>
            cret (fold_left (fun m b => hp_destroy m (fb_id b)) acc
                    (hp_destroy m id), fp_code st, [])
          end
        end
      end
    end.

(* Unprotect: 379-467. *)
Definition fp_unprotect_c (P : prims) (lib : ssl_lib) (al : allocator)
  (m : heap) (input : list iovec) : C crypt (heap * code * list fbuf) :=
  let total := total_len input in
  o <~ overhead_c ;;
  if total <? o then cret (m, kFailedPrecondition, [])
  else unprotect_loop_c (S (N.to_nat (total / o))) P lib al m (input, 0) total [].

(* ------------------------------------------------------------------ *)
(* Two calls in two threads: at every moment of the schedule one of them makes
   a step ([true]: the first); a finished one does nothing. *)
Fixpoint both {S A B} (sched : list bool) (p : prog S A) (q : prog S B) (s : S)
  : outcome (S * prog S A * prog S B) :=
  match sched with
  | [] => Done (s, p, q)
  | true :: r =>
    match p with
    | Ret _ => both r p q s
    | Step f k => obind (f s) (fun '(s, b) => both r (k b) q s)
    end
  | false :: r =>
    match q with
    | Ret _ => both r p q s
    | Step f k => obind (f s) (fun '(s, b) => both r p (k b) s)
    end
  end.

(* ------------------------------------------------------------------ *)
(* Any number of threads calling methods that take the same mutex. A call [o]
   first runs [pre o] without the mutex, then takes it, runs the body, releases
   it and returns. *)
Inductive activity (S O Q R : Type) :=
| Idle
| Before (o : O) (p : prog S Q)
| Waiting (o : O) (q : Q)
| Inside (o : O) (p : prog S R).
Arguments Idle {S O Q R}.
Arguments Before {S O Q R} o p.
Arguments Waiting {S O Q R} o q.
Arguments Inside {S O Q R} o p.

Record thread (S O Q R : Type) := {
  th_todo : list O;
  th_doing : activity S O Q R;
  th_done : list R
}.
Arguments Build_thread {S O Q R}.
Arguments th_todo {S O Q R}.
Arguments th_doing {S O Q R}.
Arguments th_done {S O Q R}.

Record config (S O Q R : Type) := {
  cf_mem : S;
  cf_owner : option nat;
  cf_threads : list (thread S O Q R)
}.
Arguments Build_config {S O Q R}.
Arguments cf_mem {S O Q R}.
Arguments cf_owner {S O Q R}.
Arguments cf_threads {S O Q R}.

Fixpoint set_nth {A} (n : nat) (a : A) (l : list A) : list A :=
  match n, l with
  | _, [] => []
  | O, _ :: r => a :: r
  | S n, b :: r => b :: set_nth n a r
  end.

(* Thread number [i] makes a step. *)
Definition tstep {S O Q R} (pre : O -> prog S Q) (body : Q -> prog S R)
  (c : config S O Q R) (i : nat) : outcome (config S O Q R) :=
  match nth_error (cf_threads c) i with
  | None => Done c
  | Some t =>
    let put s owner t := Done (Build_config s owner (set_nth i t (cf_threads c))) in
    match th_doing t with
    | Idle =>
      match th_todo t with
      | [] => Done c
      | o :: r => put (cf_mem c) (cf_owner c) (Build_thread r (Before o (pre o)) (th_done t))
      end
    | Before o (Ret q) =>
      put (cf_mem c) (cf_owner c) (Build_thread (th_todo t) (Waiting o q) (th_done t))
    | Before o (Step f k) =>
      obind (f (cf_mem c)) (fun '(s, b) =>
        put s (cf_owner c) (Build_thread (th_todo t) (Before o (k b)) (th_done t)))
    | Waiting o q =>
      match cf_owner c with
      | Some _ => Done c
      | None => put (cf_mem c) (Some i) (Build_thread (th_todo t) (Inside o (body q)) (th_done t))
      end
    | Inside o (Ret r) =>
      put (cf_mem c) None (Build_thread (th_todo t) Idle (th_done t ++ [r]))
    | Inside o (Step f k) =>
      obind (f (cf_mem c)) (fun '(s, b) =>
        put s (cf_owner c) (Build_thread (th_todo t) (Inside o (k b)) (th_done t)))
    end
  end.

Fixpoint trun {S O Q R} (pre : O -> prog S Q) (body : Q -> prog S R)
  (c : config S O Q R) (sched : list nat) : outcome (config S O Q R) :=
  match sched with
  | [] => Done c
  | i :: r => obind (tstep pre body c i) (fun c => trun pre body c r)
  end.

(* Before the threads start: each has its list of calls. *)
Definition tstart {S O Q R} (s : S) (calls : list (list O)) : config S O Q R :=
  Build_config s None (map (fun os => Build_thread os Idle []) calls).
