(* Model of src/frame_protector/s2a_frame_protector.cc. *)
From Coq Require Import List NArith Bool.
From Verif Require Import Base Aead Hkdf HalfConn Options HsHandler Crypter.
Import ListNotations.
Local Open Scope N_scope.

(* ConvertStatusCode: 53-68. *)
Definition fp_code (c : scode) : code :=
  match c with
  | S_OK => kOk
  | S_FAILED_PRECONDITION => kFailedPrecondition
  | S_INVALID_ARGUMENT => kInvalidArgument
  | S_UNKNOWN => kUnknown
  | S_UNIMPLEMENTED => kUnimplemented
  | _ => kInternal
  end.

(* ------------------------------------------------------------------ *)
(* Reading iovecs. A position (iovec_index, on_iovec_index) is a cursor: the
   iovecs from the current one on, and the offset into the first of them. *)
Definition cursor := (list iovec * N)%type.

(* "buffer + off, n" for a piece of an iovec; only offset 0 of a null pointer
   has a meaning. *)
Definition iov_slice (v : iovec) (off n : N) : outcome iovec :=
  match v with
  | IoBuf d => Done (IoBuf (takeN n (dropN off d)))
  | IoNull _ => if off =? 0 then Done (IoNull n) else Undef UbNullDeref
  end.

(* "buffer[on_iovec_index]". *)
Definition iov_read (v : iovec) (off : N) : outcome N :=
  match v with
  | IoNull _ => Undef UbNullDeref
  | IoBuf d =>
    match nth_error d (N.to_nat off) with
    | Some b => Done b
    | None => Undef UbOutOfBounds
    end
  end.

(* One iteration of the loop of ComputeTlsRecordSize: 97-136, without the
   comparison of the byte read. None: ran out of iovecs. *)
Definition read_byte (c : cursor) : outcome (option (N * cursor)) :=
  match c with
  | ([], _) => Done None
  | (v :: rest, on) =>
    obind (iov_read v on) (fun b =>
      Done (Some (b, if iov_len v <=? on + 1 then (rest, 0)
                     else (v :: rest, on + 1))))
  end.

(* ComputeTlsRecordSize: 90-144. [k] header bytes are still to be read, [hdr]
   has been read. On success: the header and the position after it. *)
Fixpoint read_header (k : nat) (hdr : bytes) (c : cursor)
  : outcome (code + bytes * cursor) :=
  match k with
  | O => Done (inr (hdr, c))
  | S k' =>
    obind (read_byte c) (fun r =>
      match r with
      | None => Done (inl kFailedPrecondition)
      | Some (b, c') =>
        let bad := match length hdr with
                   | O => negb (b =? kTls12ApplicationData)
                   | 1%nat | 2%nat => negb (b =? kTls12WireVersion)
                   | _ => false
                   end in
        if bad then Done (inl kFailedPrecondition)
        else read_header k' (hdr ++ [b]) c'
      end)
  end.

(* record_size minus the header length: 140-143. *)
Definition header_payload_size (hdr : bytes) : N :=
  match hdr with
  | [_; _; _; a; b] => a * 256 + b
  | _ => 0
  end.

Definition compute_record_size (c : cursor)
  : outcome (code + bytes * cursor) := read_header 5 [] c.

(* IsolateTlsPayload: 157-188. *)
Fixpoint isolate_payload (vs : list iovec) (on : N) (need : N)
  : outcome (code + list iovec * cursor) :=
  if need =? 0 then Done (inr ([], (vs, on)))
  else
    match vs with
    | [] => Done (inl kFailedPrecondition)
    | v :: rest =>
      let k := N.min (sub64 (iov_len v) on) need in
      obind (iov_slice v on k) (fun piece =>
        if k + on =? iov_len v then
          obind (isolate_payload rest 0 (need - k)) (fun r =>
            match r with
            | inl e => Done (inl e)
            | inr (ps, c) => Done (inr (piece :: ps, c))
            end)
        else
          (* bytes of this iovec are left over, so need = k *)
          Done (inr ([piece], (vs, on + k))))
    end.

(* Collecting the next [need] bytes to protect: 265-285. Running past the last
   iovec would be an out-of-bounds access of the vector. *)
Fixpoint collect_chunk (vs : list iovec) (on : N) (need : N)
  : outcome (list iovec * cursor) :=
  if need =? 0 then Done ([], (vs, on))
  else
    match vs with
    | [] => Undef UbOutOfBounds
    | v :: rest =>
      let k := N.min (sub64 (iov_len v) on) need in
      obind (iov_slice v on k) (fun piece =>
        if iov_len v <=? on + k then
          obind (collect_chunk rest 0 (need - k)) (fun '(ps, c) =>
            Done (piece :: ps, c))
        else Done ([piece], (vs, on + k)))
    end.

(* ------------------------------------------------------------------ *)
(* Memory: every buffer has an identity; allocations and destructions are
   recorded. *)
Inductive event :=
| EvAlloc (id size : N)
| EvDestroy (id : N).

(* The caller's allocator: what it returns for allocation number [id] of
   [size] bytes. *)
Definition allocator := N -> N -> iovec.

(* An Iovec handed out: its buffer's identity, the whole memory, iov_len. *)
Record fbuf := { fb_id : N; fb_mem : iovec; fb_len : N }.
Definition fb_bytes (b : fbuf) : bytes := takeN (fb_len b) (iov_data (fb_mem b)).

(* S2AFrameProtector: s2a_frame_protector.h; [fp_next] and [fp_events] belong
   to the memory the caller's functions manage. *)
Record fprot := {
  fp_crypt : crypt;
  fp_max : N;
  fp_next : N;
  fp_events : list event
}.

Definition with_crypt (f : fprot) (x : crypt) : fprot :=
  {| fp_crypt := x; fp_max := fp_max f; fp_next := fp_next f;
     fp_events := fp_events f |}.
Definition fp_alloc (al : allocator) (f : fprot) (size : N) : fprot * N * iovec :=
  ({| fp_crypt := fp_crypt f; fp_max := fp_max f; fp_next := fp_next f + 1;
      fp_events := fp_events f ++ [EvAlloc (fp_next f) size] |},
   fp_next f, al (fp_next f) size).
Definition fp_destroy (f : fprot) (id : N) : fprot :=
  {| fp_crypt := fp_crypt f; fp_max := fp_max f; fp_next := fp_next f;
     fp_events := fp_events f ++ [EvDestroy id] |}.

(* Create: 192-231. The ticket sender is always SendTicketsToS2A. The flags
   say whether the std::function arguments are non-null; [next] is the number
   of allocations the caller's allocator has served before. *)
Record fp_args := {
  fa_allocator : bool;
  fa_destroy : bool;
  fa_logger : bool;
  fa_crypt : create_args
}.

Definition fp_create (P : prims) (lib : ssl_lib) (a : fp_args)
  : M (code + fprot) :=
  if negb (fa_allocator a) || negb (fa_destroy a) || negb (fa_logger a)
  then ret (inl kInvalidArgument) else
  let c := fa_crypt a in
  r <- crypt_create P lib
         {| ca_tls := ca_tls c; ca_suite := ca_suite c;
            ca_connection_id := ca_connection_id c; ca_url := ca_url c;
            ca_identity := ca_identity c; ca_in_secret := ca_in_secret c;
            ca_out_secret := ca_out_secret c; ca_in_seq := ca_in_seq c;
            ca_out_seq := ca_out_seq c; ca_sender := true;
            ca_channel := ca_channel c; ca_logger := fa_logger a |} ;;
  match r with
  | inl st => ret (inl st)
  | inr x =>
    o <- lift (record_overhead x) ;;
    ret (inr {| fp_crypt := x; fp_max := kTlsMaxPlaintextSize + o;
                fp_next := 0; fp_events := [] |})
  end.

(* NumberBytesToProtect: 476-489. floor() of an integer quotient below 2^50
   is exact. *)
Definition number_bytes_to_protect (f : fprot) (len : N) : outcome N :=
  obind (record_overhead (fp_crypt f)) (fun o =>
    let n := len / kTlsMaxPlaintextSize in
    let n := if (len =? 0) || negb (n * kTlsMaxPlaintextSize =? len)
             then n + 1 else n in
    Done (wrap64 (len + n * o))).

(* NumberBytesToUnprotect: 496-502. *)
Definition number_bytes_to_unprotect (f : fprot) (len : N) : outcome N :=
  obind (record_overhead (fp_crypt f)) (fun o =>
    if len <? o then Done 0 else Done (len - kTlsRecordHeaderSize)).

(* MaxRecordSize: 469. *)
Definition max_record_size (f : fprot) : N := fp_max f.

(* The loop of Protect: 256-315. [on] is protected_bytes_index, [first] is
   unprotected_bytes_is_initially_empty; [id] is the identity of the buffer. *)
Fixpoint protect_loop (fuel : nat) (P : prims) (f : fprot) (c : cursor)
  (remaining : N) (first : bool) (out : bytes) (index : N) (id : N)
  : M (fprot * code * bytes) :=
  if negb (first || (0 <? remaining)) then ret (f, kOk, out)
  else
    match fuel with
    | O => fun _ => NoFuel
    | S fuel' =>
      let n := if remaining <? kTlsMaxPlaintextSize then remaining
               else kTlsMaxPlaintextSize in
      '(chunk, c) <- lift (collect_chunk (fst c) (snd c) n) ;;
      '(x, (st, written), tail) <-
        crypt_protect P (fp_crypt f) APPLICATION_DATA chunk
          (IoBuf (dropN index out)) ;;
      let f := with_crypt f x in
      let out := takeN index out ++ iov_data tail in
      match st with
      | S_OK =>
        o <- lift (record_overhead x) ;;
        if negb (written =? n + o) then ret (fp_destroy f id, kInternal, out)
        else protect_loop fuel' P f c (remaining - n) false out
               (index + written) id
      | _ => ret (fp_destroy f id, fp_code st, out)
      end
    end.

(* Protect into a caller-provided buffer: 243-317. A null buffer fails in the
   first call of S2ACrypter::Protect, modelled separately because there is no
   memory to thread through. *)
Definition fp_protect_into (P : prims) (f : fprot) (input : list iovec)
  (id : N) (out : iovec) : M (fprot * code * iovec) :=
  let total := total_len input in
  let fuel := S (N.to_nat (total / kTlsMaxPlaintextSize)) in
  match out with
  | IoBuf buf =>
    '(f, st, buf) <-
      protect_loop fuel P f (input, 0) total (total =? 0) buf 0 id ;;
    ret (f, st, IoBuf buf)
  | IoNull n =>
    '(chunk, _) <-
      lift (collect_chunk input 0
              (if total <? kTlsMaxPlaintextSize then total
               else kTlsMaxPlaintextSize)) ;;
    '(x, (st, _), out) <-
      crypt_protect P (fp_crypt f) APPLICATION_DATA chunk out ;;
    ret (fp_destroy (with_crypt f x) id, fp_code st, out)
  end.

(* Protect with allocation: 233-241. *)
Definition fp_protect (P : prims) (al : allocator) (f : fprot)
  (input : list iovec) : M (fprot * code * list fbuf) :=
  size <- lift (number_bytes_to_protect f (total_len input)) ;;
  let '(f, id, out) := fp_alloc al f size in
  '(f, st, out) <- fp_protect_into P f input id out ;;
  if negb (is_ok st) then ret (fp_destroy f id, st, [])
  else ret (f, kOk, [{| fb_id := id; fb_mem := out; fb_len := iov_len out |}]).

(* Unprotect of a single record into a caller-provided buffer: 319-377.
   Returns the memory and the new iov_len. *)
Definition fp_unprotect_into (P : prims) (lib : ssl_lib) (f : fprot)
  (input : list iovec) (out : iovec) : M (fprot * code * iovec * N) :=
  n <- lift (number_bytes_to_unprotect f (total_len input)) ;;
  if n =? 0 then ret (f, kFailedPrecondition, out, iov_len out) else
  r <- lift (compute_record_size (input, 0)) ;;
  match r with
  | inl st => ret (f, st, out, 0)
  | inr (hdr, (vs, on)) =>
    r <- lift (isolate_payload vs on (header_payload_size hdr)) ;;
    match r with
    | inl st => ret (f, st, out, 0)
    | inr (payload, _) =>
      '(x, (st, written), out) <-
        crypt_unprotect P lib (fp_crypt f) (IoBuf hdr) payload out ;;
      let f := with_crypt f x in
      match st with
      | S_OK => ret (f, kOk, out, written)
      | _ => ret (f, fp_code st, out, 0)
      end
    end
  end.

(* The loop of Unprotect: 395-465. [acc] is plaintext. *)
Fixpoint unprotect_loop (fuel : nat) (P : prims) (lib : ssl_lib)
  (al : allocator) (f : fprot) (c : cursor) (remaining : N) (acc : list fbuf)
  : M (fprot * code * list fbuf) :=
  o <- lift (record_overhead (fp_crypt f)) ;;
  if remaining <? o then ret (f, kOk, acc)
  else
    match fuel with
    | O => fun _ => NoFuel
    | S fuel' =>
      r <- lift (compute_record_size c) ;;
      match r with
      | inl st => ret (f, st, [])
      | inr (hdr, (vs, on)) =>
        let size := header_payload_size hdr in
        r <- lift (isolate_payload vs on size) ;;
        match r with
        | inl st => ret (f, st, [])
        | inr (payload, c) =>
          let '(f, id, mem) := fp_alloc al f size in
          '(x, (st, written), mem) <-
            crypt_unprotect P lib (fp_crypt f) (IoBuf hdr) payload mem ;;
          let f := with_crypt f x in
          match st with
          | S_OK =>
            unprotect_loop fuel' P lib al f c
              (sub64 remaining (kTlsRecordHeaderSize + size))
              (acc ++ [{| fb_id := id; fb_mem := mem; fb_len := written |}])
          | _ =>
            let f := fold_left (fun f b => fp_destroy f (fb_id b)) acc
                       (fp_destroy f id) in
            ret (f, fp_code st, [])
          end
        end
      end
    end.

(* Unprotect of a sequence of records: 379-467. Each iteration consumes at
   least the record overhead, so total / overhead + 1 is enough fuel. *)
Definition fp_unprotect (P : prims) (lib : ssl_lib) (al : allocator)
  (f : fprot) (input : list iovec) : M (fprot * code * list fbuf) :=
  let total := total_len input in
  o <- lift (record_overhead (fp_crypt f)) ;;
  if total <? o then ret (f, kFailedPrecondition, [])
  else unprotect_loop (S (N.to_nat (total / o))) P lib al f (input, 0) total [].
