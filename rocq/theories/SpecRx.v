(* Specification of the receiving side of a TLS 1.3 connection as a relation on
   byte strings: independent of iovecs, half connections, cipher contexts and
   of the handshake message handler's state machine. *)
From Coq Require Import List NArith Bool.
From Verif Require Import Base Aead Hkdf SpecAead SpecTls SpecHs SpecRecord Crypter.
Import ListNotations.
Local Open Scope N_scope.

Record rx := {
  r_dir : dir;             (* keys and sequence number *)
  r_msgs : list bytes;     (* complete handshake messages received, in order *)
  r_part : bytes;          (* bytes of an incomplete handshake message *)
  r_closed : bool;         (* close_notify received *)
  r_bad : bool;            (* the handshake stream was malformed *)
  r_wait : bool;           (* application data is refused for now *)
  r_done : bool;           (* no tickets will be handed over any more *)
  r_sent : list (list bytes)  (* tickets handed over, one list per occasion *)
}.

Definition tickets_of (ms : list bytes) : list bytes := filter is_ticket ms.

Definition rx_start (d : dir) : rx :=
  {| r_dir := d; r_msgs := []; r_part := []; r_closed := false; r_bad := false;
     r_wait := false; r_done := false; r_sent := [] |}.
Definition rx_dir (r : rx) (d : dir) : rx :=
  {| r_dir := d; r_msgs := r_msgs r; r_part := r_part r;
     r_closed := r_closed r; r_bad := r_bad r;
     r_wait := r_wait r; r_done := r_done r; r_sent := r_sent r |}.
Definition rx_close (r : rx) : rx :=
  {| r_dir := r_dir r; r_msgs := r_msgs r; r_part := r_part r;
     r_closed := true; r_bad := r_bad r;
     r_wait := r_wait r; r_done := r_done r; r_sent := r_sent r |}.

(* Handshake messages [ms] and the beginning [part] of another one. Normally
   application data is refused while [part] is not empty. The record with which
   the fifth ticket is complete is different: application data is allowed
   whatever [part] is, and the first five tickets are handed over, unless [part]
   is the beginning of another ticket, in which case nothing is ever handed
   over (see C17, C20). *)
Definition rx_read (r : rx) (d : dir) (ms : list bytes) (part : bytes) : rx :=
  let ts := tickets_of (r_msgs r ++ ms) in
  let fifth := negb (r_done r) && (5 <=? lenN ts) in
  {| r_dir := d; r_msgs := r_msgs r ++ ms; r_part := part;
     r_closed := r_closed r; r_bad := r_bad r;
     r_wait := if fifth then false else negb (empty part);
     r_done := r_done r || fifth;
     r_sent := r_sent r ++ if fifth && negb (is_ticket part) then [firstn 5 ts] else [] |}.

(* The same when the key of this direction cannot be advanced. *)
Definition rx_fail (r : rx) (ms : list bytes) (part : bytes) : rx :=
  {| r_dir := dir_break (r_dir r); r_msgs := r_msgs r ++ ms; r_part := part;
     r_closed := r_closed r; r_bad := r_bad r;
     r_wait := negb (empty part); r_done := r_done r; r_sent := r_sent r |}.

(* Application data: the tickets so far, if any, are handed over. *)
Definition rx_data (r : rx) : rx :=
  let now := negb (r_done r) && negb (lenN (tickets_of (r_msgs r)) =? 0) in
  {| r_dir := r_dir r; r_msgs := r_msgs r; r_part := r_part r;
     r_closed := r_closed r; r_bad := r_bad r; r_wait := r_wait r;
     r_done := r_done r || now;
     r_sent := r_sent r ++ if now then [tickets_of (r_msgs r)] else [] |}.

(* A malformed record: the messages before the malformed place are complete. *)
Definition rx_bad (r : rx) (ms : list bytes) : rx :=
  {| r_dir := r_dir r; r_msgs := r_msgs r ++ ms; r_part := [];
     r_closed := r_closed r; r_bad := true;
     r_wait := r_wait r; r_done := r_done r; r_sent := r_sent r |}.

(* A handshake stream is malformed if, after some complete messages, it has a
   message with an empty body, a message of unknown type, or a KeyUpdate that
   is not the last message of its record. *)
Definition malformed (stream : bytes) : Prop :=
  exists ms m rest, stream = concat ms ++ m ++ rest /\ Forall hs_msg ms /\
    Forall known ms /\
    (hs_zero m \/ (m <> [] /\ ~ known m) \/
     (hs_msg m /\ is_key_update m = true /\ rest <> [])).

(* The worst case: a message with an empty body, followed in the same record by
   at least four more bytes. *)
Definition fatal (stream : bytes) : Prop :=
  exists ms z rest, stream = concat ms ++ z ++ rest /\ Forall hs_msg ms /\
    Forall (fun m => is_ticket m = true) ms /\ hs_zero z /\ known z /\ 4 <= lenN rest.

(* The record contains bytes of a KeyUpdate message. *)
Definition has_key_update (content : bytes) (ms : list bytes) (part : bytes) : bool :=
  negb (empty content) && existsb is_key_update (ms ++ [part]).

Section Recv.
Variable P : prims.
(* A library call may fail during this operation. *)
Variable faulty : Prop.

(* Processing the decrypted record [msg], which has been written to the front
   of the caller's buffer, now [out]. *)
Inductive accept (r : rx) (msg out : bytes) : scode -> N -> bytes -> rx -> Prop :=
| AcZero : msg = zeros (lenN msg) ->
    accept r msg out S_INVALID_RECORD 0 out r
| AcClose : forall a rest pad, msg = inner ty_alert (a :: 0 :: rest) pad ->
    accept r msg out S_ALERT_CLOSE_NOTIFY 0 (zeros (lenN out)) (rx_close r)
| AcAlert : forall a b rest pad, msg = inner ty_alert (a :: b :: rest) pad -> b <> 0 ->
    accept r msg out S_ALERT_OTHER 0 (zeros (lenN out)) r
| AcAlertShort : forall c pad, msg = inner ty_alert c pad -> lenN c < 2 ->
    accept r msg out S_INVALID_RECORD 0 (zeros (lenN out)) r
| AcUnknown : forall ty c pad, msg = inner ty c pad ->
    ty <> 0 -> ty <> ty_alert -> ty <> ty_handshake -> ty <> ty_application_data ->
    accept r msg out S_INVALID_RECORD 0 (zeros (lenN out)) r
(* application data inside a handshake message *)
| AcInside : forall c pad, msg = inner ty_application_data c pad -> r_wait r = true ->
    accept r msg out S_INVALID_RECORD 0 out r
| AcData : forall c pad, msg = inner ty_application_data c pad -> r_wait r = false ->
    accept r msg out S_OK (lenN c) out (rx_data r)
(* handshake bytes: read as many complete messages as possible; the key is
   advanced once if the record contains bytes of a KeyUpdate (see C21) *)
| AcHandshake : forall c pad ms part, msg = inner ty_handshake c pad ->
    r_part r ++ c = concat ms ++ part -> Forall hs_msg ms -> Forall known ms ->
    hs_partial part -> (part <> [] -> known part) -> key_update_last ms part ->
    accept r msg out S_OK 0 out
      (rx_read r (if has_key_update c ms part then dir_update P (r_dir r) else r_dir r)
         ms part)
| AcUpdateFailed : forall c pad ms part, msg = inner ty_handshake c pad -> faulty ->
    r_part r ++ c = concat ms ++ part -> Forall hs_msg ms -> Forall known ms ->
    hs_partial part -> (part <> [] -> known part) -> key_update_last ms part ->
    has_key_update c ms part = true ->
    accept r msg out S_INTERNAL_ERROR 0 out (rx_fail r ms part)
(* malformed handshake stream: the call reports no bytes, the messages before
   the malformed place count as received, and nothing is specified from here on *)
| AcBroken : forall c pad ms m rest, msg = inner ty_handshake c pad ->
    r_part r ++ c = concat ms ++ m ++ rest -> Forall hs_msg ms ->
    Forall (fun m => is_ticket m = true) ms ->
    (m <> [] /\ ~ known m) \/ (hs_msg m /\ is_key_update m = true /\ rest <> []) ->
    accept r msg out S_INTERNAL_ERROR 0 out (rx_bad r ms)
| AcEmptyBody : forall c pad ms z rest st, msg = inner ty_handshake c pad ->
    r_part r ++ c = concat ms ++ z ++ rest -> Forall hs_msg ms ->
    Forall (fun m => is_ticket m = true) ms -> hs_zero z -> known z -> lenN rest < 4 ->
    st = S_OK \/ (faulty /\ st = S_INTERNAL_ERROR) ->
    accept r msg out st 0 out (rx_bad r ms).

(* One call of Unprotect on header [hdr], payload [payload] and a caller buffer
   holding [out]: status, reported byte count, buffer afterwards, new state. *)
Inductive recv (r : rx) (hdr payload out : bytes) : scode -> N -> bytes -> rx -> Prop :=
| RvClosed : r_closed r = true ->
    recv r hdr payload out S_ALERT_CLOSE_NOTIFY 0 out r
| RvMalformed : r_closed r = false -> ~ well_formed hdr (lenN payload) ->
    recv r hdr payload out
      (if 16384 + 22 <? lenN hdr + lenN payload
       then S_ALERT_RECORD_OVERFLOW else S_FAILED_PRECONDITION) 0 out r
| RvUnusable : r_closed r = false -> well_formed hdr (lenN payload) ->
    ~ dir_usable (r_dir r) ->
    recv r hdr payload out S_INTERNAL_ERROR 0 (zeros (lenN out)) r
| RvReject : r_closed r = false -> well_formed hdr (lenN payload) ->
    dir_usable (r_dir r) ->
    (faulty \/ forall msg, payload = dir_seal P (r_dir r) hdr msg -> lenN out < lenN msg) ->
    recv r hdr payload out S_INTERNAL_ERROR 0 (zeros (lenN out))
      (rx_dir r (dir_next (r_dir r)))
| RvRecord : forall msg st n out' r', r_closed r = false ->
    well_formed hdr (lenN payload) -> dir_usable (r_dir r) ->
    payload = dir_seal P (r_dir r) hdr msg -> lenN msg <= lenN out ->
    accept (rx_dir r (dir_next (r_dir r))) msg (msg ++ dropN (lenN msg) out) st n out' r' ->
    recv r hdr payload out st n out' r'.
End Recv.
