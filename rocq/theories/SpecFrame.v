(* Specification of the byte strings frame protectors exchange: sequences of
   TLS 1.3 records (RFC 8446 section 5), independent of the model. *)
From Coq Require Import List NArith Bool.
From Verif Require Import Base Aead Hkdf SpecAead SpecTls SpecRecord.
Import ListNotations.
Local Open Scope N_scope.

(* Cutting application data into record contents: all but the last have
   exactly 2^14 bytes; the last is non-empty unless there are no data. *)
Definition blocks_of (data : bytes) (bs : list bytes) : Prop :=
  concat bs = data /\
  exists init last, bs = init ++ [last] /\ Forall (fun b => lenN b = 16384) init /\
    lenN last <= 16384 /\ (last = [] -> init = []).

(* One application data record per block, with consecutive sequence numbers. *)
Fixpoint records (P : prims) (d : dir) (bs : list bytes) : bytes :=
  match bs with
  | [] => []
  | b :: bs' => tls_record P d ty_application_data b 0 ++ records P (dir_next d) bs'
  end.

(* The direction after [n] more records. *)
Definition dir_adv (d : dir) (n : N) : dir :=
  {| d_suite := d_suite d; d_secret := d_secret d; d_seq := d_seq d + n;
     d_broken := d_broken d |}.

(* Number of records for [n] bytes: at least one. *)
Definition record_count (n : N) : N := if n =? 0 then 1 else (n + 16383) / 16384.

(* Number of bytes of the records for [n] bytes: each record adds a header (5),
   a content type (1) and a tag (16). *)
Definition protected_size (n : N) : N := n + 22 * record_count n.

(* A byte string that is exactly one TLS record with the given header and
   payload. *)
Definition is_record (hdr payload : bytes) : Prop :=
  hdr = tls_header (lenN payload) /\ lenN payload < 65536.

(* The byte string begins with a complete record. *)
Definition starts_with_record (data : bytes) : Prop :=
  exists hdr payload rest, data = hdr ++ payload ++ rest /\ is_record hdr payload.

(* A record with the given payload, and byte strings made of whole records. *)
Definition framed (payload : bytes) : bytes := tls_header (lenN payload) ++ payload.
Definition whole_records (ps : list bytes) (data : bytes) : Prop :=
  data = concat (map framed ps) /\ Forall (fun p => lenN p < 65536) ps.
