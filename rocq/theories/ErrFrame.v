(* Model of what S2AFrameProtector does with the errors of the SSL library:
   s2a_frame_protector.cc, and S2ACrypter::Create of s2a_crypter.cc. The functions
   below are those of FrameProt.v and Crypter.v, on ErrCrypt.v and ErrQueue.v;
   [e_text] is the library's part of the text of the status that the frame
   protector returns. What is logged is in Log.v. *)
From Coq Require Import List NArith Bool.
From Verif Require Import Base Aead Hkdf HalfConn Options HsHandler Crypter FrameProt SpecTls SpecHs SpecRecord SpecRx CrypterRun SpecFrame FrameRun
  SpecAead HalfRun ErrQueue ErrCrypt.
Import ListNotations.
Local Open Scope N_scope.

(* S2ACrypter::Create: s2a_crypter.cc 192-256. The status of
   S2AHalfConnection::Create is returned (228-229, 242-243). *)
Definition crypt_create_q (P : prims) (lib : ssl_lib) (a : create_args)
  : EM (code + crypt) :=
  if lenN (ca_url a) =? 0 then qret (inl kInvalidArgument) else
  if negb (ca_logger a) then qret (inl kInvalidArgument) else
  if negb (ca_sender a) then qret (inl kInvalidArgument) else
  match ca_tls a with
  | TLS1_2 => qret (inl kInvalidArgument)
  | TLS1_3 =>
    r <~ half_create_q P lib (ca_suite a) (ca_in_seq a) (ca_in_secret a) ;;
    match r with
    | inl st => qret (inl st)
    | inr hin =>
      r <~ half_create_q P lib (ca_suite a) (ca_out_seq a) (ca_out_secret a) ;;
      match r with
      | inl st => qret (inl st)
      | inr hout =>
        qret (inr {| cx_connection_id := ca_connection_id a;
                     cx_url := ca_url a; cx_identity := ca_identity a;
                     cx_in := hin; cx_out := hout; cx_close := false;
                     cx_handler := new_handler; cx_phase := NOT_RECEIVED;
                     cx_expecting := false; cx_channel := ca_channel a;
                     cx_sent := [] |})
      end
    end
  end.

(* Create: s2a_frame_protector.cc 192-231. The status of S2ACrypter::Create is
   returned (210-212). *)
Definition fp_create_q (P : prims) (lib : ssl_lib) (a : fp_args)
  : EM (code + fprot) :=
  if negb (fa_allocator a) || negb (fa_destroy a) || negb (fa_logger a)
  then qret (inl kInvalidArgument) else
  let c := fa_crypt a in
  r <~ crypt_create_q P lib
         {| ca_tls := ca_tls c; ca_suite := ca_suite c;
            ca_connection_id := ca_connection_id c; ca_url := ca_url c;
            ca_identity := ca_identity c; ca_in_secret := ca_in_secret c;
            ca_out_secret := ca_out_secret c; ca_in_seq := ca_in_seq c;
            ca_out_seq := ca_out_seq c; ca_sender := true;
            ca_channel := ca_channel c; ca_logger := fa_logger a |} ;;
  match r with
  | inl st => qret (inl st)
  | inr x =>
    o <~ quiet (lift (record_overhead x)) ;;
    qret (inr {| fp_crypt := x; fp_max := kTlsMaxPlaintextSize + o;
                 fp_next := 0; fp_events := [] |})
  end.

(* The loop of Protect: s2a_frame_protector.cc 256-315. The text of the crypter's
   status is returned (296-303). *)
Fixpoint protect_loop_q (fuel : nat) (P : prims) (f : fprot) (c : cursor)
  (remaining : N) (first : bool) (out : bytes) (index : N) (id : N)
  : EM (fprot * code * bytes) :=
  if negb (first || (0 <? remaining)) then qret (f, kOk, out)
  else
    match fuel with
    | O => fun _ _ => NoFuel
    | S fuel' =>
      let n := if remaining <? kTlsMaxPlaintextSize then remaining
               else kTlsMaxPlaintextSize in
      '(chunk, c) <~ quiet (lift (collect_chunk (fst c) (snd c) n)) ;;
      '(x, (st, written), tail) <~
        crypt_protect_q P (fp_crypt f) APPLICATION_DATA chunk
          (IoBuf (dropN index out)) ;;
      let f := with_crypt f x in
      let out := takeN index out ++ iov_data tail in
      match st with
      | S_OK =>
        o <~ quiet (lift (record_overhead x)) ;;
        if negb (written =? n + o) then
          qret (fp_destroy f id, kInternal, out)
        else protect_loop_q fuel' P f c (remaining - n) false out
               (index + written) id
      | _ => qret (fp_destroy f id, fp_code st, out)
      end
    end.

(* Protect into a caller-provided buffer: s2a_frame_protector.cc 243-317. *)
Definition fp_protect_into_q (P : prims) (f : fprot) (input : list iovec)
  (id : N) (out : iovec) : EM (fprot * code * iovec) :=
  let total := total_len input in
  let fuel := S (N.to_nat (total / kTlsMaxPlaintextSize)) in
  match out with
  | IoBuf buf =>
    '(f, st, buf) <~
      protect_loop_q fuel P f (input, 0) total (total =? 0) buf 0 id ;;
    qret (f, st, IoBuf buf)
  | IoNull n =>
    '(chunk, _) <~
      quiet (lift (collect_chunk input 0
              (if total <? kTlsMaxPlaintextSize then total
               else kTlsMaxPlaintextSize))) ;;
    '(x, (st, _), out) <~
      crypt_protect_q P (fp_crypt f) APPLICATION_DATA chunk out ;;
    qret (fp_destroy (with_crypt f x) id, fp_code st, out)
  end.

(* Protect with allocation: s2a_frame_protector.cc 233-241. *)
Definition fp_protect_q (P : prims) (al : allocator) (f : fprot)
  (input : list iovec) : EM (fprot * code * list fbuf) :=
  size <~ quiet (lift (number_bytes_to_protect f (total_len input))) ;;
  let '(f, id, out) := fp_alloc al f size in
  '(f, st, out) <~ fp_protect_into_q P f input id out ;;
  if negb (is_ok st) then qret (fp_destroy f id, st, [])
  else qret (f, kOk, [{| fb_id := id; fb_mem := out; fb_len := iov_len out |}]).

(* Unprotect into a caller-provided buffer: s2a_frame_protector.cc 319-377. The
   text of the crypter's status is returned (368-374). *)
Definition fp_unprotect_into_q (P : prims) (lib : ssl_lib) (f : fprot)
  (input : list iovec) (out : iovec) : EM (fprot * code * iovec * N) :=
  n <~ quiet (lift (number_bytes_to_unprotect f (total_len input))) ;;
  if n =? 0 then qret (f, kFailedPrecondition, out, iov_len out) else
  r <~ quiet (lift (compute_record_size (input, 0))) ;;
  match r with
  | inl st => qret (f, st, out, 0)
  | inr (hdr, (vs, on)) =>
    r <~ quiet (lift (isolate_payload vs on (header_payload_size hdr))) ;;
    match r with
    | inl st => qret (f, st, out, 0)
    | inr (payload, _) =>
      '(x, (st, written), out) <~
        crypt_unprotect_q P lib (fp_crypt f) (IoBuf hdr) payload out ;;
      let f := with_crypt f x in
      match st with
      | S_OK => qret (f, kOk, out, written)
      | _ => qret (f, fp_code st, out, 0)
      end
    end
  end.

(* The loop of Unprotect: s2a_frame_protector.cc 395-465. The text of the
   crypter's status is part of the one returned (452-460). *)
Fixpoint unprotect_loop_q (fuel : nat) (P : prims) (lib : ssl_lib)
  (al : allocator) (f : fprot) (c : cursor) (remaining : N) (acc : list fbuf)
  : EM (fprot * code * list fbuf) :=
  o <~ quiet (lift (record_overhead (fp_crypt f))) ;;
  if remaining <? o then qret (f, kOk, acc)
  else
    match fuel with
    | O => fun _ _ => NoFuel
    | S fuel' =>
      r <~ quiet (lift (compute_record_size c)) ;;
      match r with
      | inl st => qret (f, st, [])
      | inr (hdr, (vs, on)) =>
        let size := header_payload_size hdr in
        r <~ quiet (lift (isolate_payload vs on size)) ;;
        match r with
        | inl st => qret (f, st, [])
        | inr (payload, c) =>
          let '(f, id, mem) := fp_alloc al f size in
          '(x, (st, written), mem) <~
            crypt_unprotect_q P lib (fp_crypt f) (IoBuf hdr) payload mem ;;
          let f := with_crypt f x in
          match st with
          | S_OK =>
            unprotect_loop_q fuel' P lib al f c
              (sub64 remaining (kTlsRecordHeaderSize + size))
              (acc ++ [{| fb_id := id; fb_mem := mem; fb_len := written |}])
          | _ =>
            let f := fold_left (fun f b => fp_destroy f (fb_id b)) acc
                       (fp_destroy f id) in
            qret (f, fp_code st, [])
          end
        end
      end
    end.

(* Unprotect of a sequence of records: s2a_frame_protector.cc 379-467. *)
Definition fp_unprotect_q (P : prims) (lib : ssl_lib) (al : allocator)
  (f : fprot) (input : list iovec) : EM (fprot * code * list fbuf) :=
  let total := total_len input in
  o <~ quiet (lift (record_overhead (fp_crypt f))) ;;
  if total <? o then qret (f, kFailedPrecondition, [])
  else unprotect_loop_q (S (N.to_nat (total / o))) P lib al f (input, 0) total [].

(* One call, see [fstep], and what became of the errors. *)
Definition fstep_q (P : prims) (lib : ssl_lib) (al : allocator) (f : fprot) (q : list entry)
  (op : fop) (fs : faults) (next : list (list entry)) : outcome (fprot * fres * errs) :=
  let e := {| e_queue := q; e_next := next; e_text := []; e_raised := [] |} in
  match op with
  | FProtect input =>
    obind (fp_protect_q P al f input e fs)
      (fun '((f, st, bs, e), _) => Done (f, FProtected st bs, e))
  | FProtectInto input id buf =>
    obind (fp_protect_into_q P f input id (IoBuf buf) e fs)
      (fun '((f, st, buf, e), _) => Done (f, FProtectedInto st buf, e))
  | FUnprotect input =>
    obind (fp_unprotect_q P lib al f input e fs)
      (fun '((f, st, bs, e), _) => Done (f, FUnprotected st bs, e))
  | FUnprotectInto input buf =>
    obind (fp_unprotect_into_q P lib f input (IoBuf buf) e fs)
      (fun '((f, st, buf, n, e), _) => Done (f, FUnprotectedInto st buf n, e))
  end.

Fixpoint frun_q (P : prims) (lib : ssl_lib) (al : allocator) (f : fprot) (q : list entry)
  (ops : list (fop * faults * list (list entry))) : outcome (fprot * list (fres * errs)) :=
  match ops with
  | [] => Done (f, [])
  | (op, fs, next) :: ops' =>
    obind (fstep_q P lib al f q op fs next) (fun '(f, r, e) =>
    obind (frun_q P lib al f (e_queue e) ops') (fun '(f, rs) => Done (f, (r, e) :: rs)))
  end.
