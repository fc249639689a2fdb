(* The protocol buffers encoding (protobuf.dev, "Encoding" and "Language guide
   (proto3)") and the messages of src/proto/common.proto, s2a.proto and
   s2a_context.proto, written down without the functions of Wire.v: only its
   record types and the type of fields are used here. *)
From Coq Require Import List NArith Bool.
From Verif Require Import Base Wire.
Import ListNotations.
Local Open Scope N_scope.

(* ------------------------------------------------------------------ *)
(* Bytes to fields *)

(* Base 128, least significant group first; all bytes but the last have the
   top bit set. *)
Inductive base128 : bytes -> N -> Prop :=
| B128Last : forall b, b < 128 -> base128 [b] b
| B128More : forall b bs n, 128 <= b -> base128 bs n -> base128 (b :: bs) (b - 128 + 128 * n).

(* A 64-bit number takes at most ten bytes; excess bits are dropped. *)
Definition number (b : bytes) (n : N) : Prop :=
  exists k, base128 b k /\ lenN b <= 10 /\ n = k mod 18446744073709551616.

(* A field number and a wire type. *)
Definition tag (b : bytes) (num kind : N) : Prop :=
  0 < num /\ kind < 8 /\ 8 * num + kind < 4294967296 /\ number b (8 * num + kind).

Inductive value : N -> bytes -> wval -> Prop :=
| ValVarint : forall b n, number b n -> value 0 b (WVarint n)
| ValFixed64 : forall b, lenN b = 8 -> value 1 b (WFixed64 b)
| ValLen : forall l b, number l (lenN b) -> lenN b < 2147483647 -> value 2 (l ++ b) (WLen b)
| ValFixed32 : forall b, lenN b = 4 -> value 5 b (WFixed32 b).

(* A message is a sequence of fields and (obsolete) groups, which are skipped. *)
Inductive serial : bytes -> list wfield -> Prop :=
| SerNil : serial [] []
| SerField : forall t num kind b v rest fs,
    tag t num kind -> value kind b v -> serial rest fs -> serial (t ++ b ++ rest) ((num, v) :: fs)
| SerGroup : forall t num body skipped e rest fs,
    tag t num 3 -> serial body skipped -> tag e num 4 -> serial rest fs -> serial (t ++ body ++ e ++ rest) fs.

(* ------------------------------------------------------------------ *)
(* Fields to messages *)

(* The contents of the length-delimited fields with number n, and of the
   varint fields, in order. All other fields are ignored. *)
Definition lens (n : N) (fs : list wfield) : list bytes :=
  flat_map (fun f => match f with (k, WLen b) => if k =? n then [b] else [] | _ => [] end) fs.
Definition ints (n : N) (fs : list wfield) : list N :=
  flat_map (fun f => match f with (k, WVarint v) => if k =? n then [v] else [] | _ => [] end) fs.

(* Scalars: the last occurrence counts; text has to pass the check V. *)
Definition the_bytes (n : N) (fs : list wfield) : bytes := last (lens n fs) [].
Definition the_uint64 (n : N) (fs : list wfield) : N := last (ints n fs) 0.
Definition the_uint32 (n : N) (fs : list wfield) : N := last (ints n fs) 0 mod 4294967296.
Definition the_bool (n : N) (fs : list wfield) : bool := negb (last (ints n fs) 0 =? 0).
Definition texts (V : bytes -> bool) (n : N) (fs : list wfield) : Prop := Forall (fun s => V s = true) (lens n fs).
Definition the_text (V : bytes -> bool) (n : N) (fs : list wfield) (s : bytes) : Prop :=
  texts V n fs /\ s = last (lens n fs) [].

(* Repeated enumerations: one by one or packed. *)
Inductive packed : bytes -> list N -> Prop :=
| PackedNil : packed [] []
| PackedCons : forall b n r l, number b n -> packed r l -> packed (b ++ r) (n mod 4294967296 :: l).
Inductive enums (n : N) : list wfield -> list N -> Prop :=
| EnumNil : enums n [] []
| EnumOne : forall v fs l, enums n fs l -> enums n ((n, WVarint v) :: fs) (v mod 4294967296 :: l)
| EnumPacked : forall b vs fs l, packed b vs -> enums n fs l -> enums n ((n, WLen b) :: fs) (vs ++ l)
| EnumOther : forall k v fs l, (forall x, (k, v) <> (n, WVarint x)) -> (forall b, (k, v) <> (n, WLen b)) ->
    enums n fs l -> enums n ((k, v) :: fs) l.

(* A message field: several occurrences are merged, that is, count as one with
   all their fields. *)
Definition the_message {A} (reads : list wfield -> A -> Prop) (n : N) (fs : list wfield) (o : option A) : Prop :=
  match o with
  | None => lens n fs = []
  | Some m => lens n fs <> [] /\ exists parts, Forall2 serial (lens n fs) parts /\ reads (concat parts) m
  end.
Definition messages {A} (reads : list wfield -> A -> Prop) (n : N) (fs : list wfield) (l : list A) : Prop :=
  Forall2 (fun b m => exists part, serial b part /\ reads part m) (lens n fs) l.

(* ---- common.proto 36-60 ---- *)
(* map<string, string> attributes: messages with key = 1 and value = 2. *)
Definition reads_entry (V : bytes -> bool) (fs : list wfield) (e : bytes * bytes) : Prop :=
  the_text V 1 fs (fst e) /\ the_text V 2 fs (snd e).

(* identity_oneof: the last of spiffe_id = 1, hostname = 2, uid = 4. *)
Definition id_choices (fs : list wfield) : list id_oneof :=
  flat_map (fun f =>
    match f with
    | (k, WLen s) => if k =? 1 then [IdSpiffe s] else if k =? 2 then [IdHostname s] else if k =? 4 then [IdUid s] else []
    | _ => []
    end) fs.
Definition reads_identity (V : bytes -> bool) (fs : list wfield) (m : p_identity) : Prop :=
  texts V 1 fs /\ texts V 2 fs /\ texts V 4 fs /\ pi_id m = last (id_choices fs) IdNone /\
  messages (reads_entry V) 3 fs (pi_attrs m).

(* ---- s2a.proto ---- *)
Definition reads_auth (V : bytes -> bool) (fs : list wfield) (m : p_auth) : Prop :=
  the_message (reads_identity V) 1 fs (pa_identity m) /\
  texts V 2 fs /\ pa_token m = last (map Some (lens 2 fs)) None.

Definition reads_client (V : bytes -> bool) (fs : list wfield) (m : p_client) : Prop :=
  texts V 1 fs /\ pc_protocols m = lens 1 fs /\ pc_min m = the_uint32 2 fs /\ pc_max m = the_uint32 3 fs /\
  enums 4 fs (pc_suites m) /\ messages (reads_identity V) 5 fs (pc_targets m) /\
  the_message (reads_identity V) 6 fs (pc_local m) /\ the_text V 7 fs (pc_target_name m).

Definition reads_server (V : bytes -> bool) (fs : list wfield) (m : p_server) : Prop :=
  texts V 1 fs /\ ps_protocols m = lens 1 fs /\ ps_min m = the_uint32 2 fs /\ ps_max m = the_uint32 3 fs /\
  enums 4 fs (ps_suites m) /\ messages (reads_identity V) 5 fs (ps_locals m) /\ ps_in_bytes m = the_bytes 6 fs.

Definition reads_ticket (V : bytes -> bool) (fs : list wfield) (m : p_ticket) : Prop :=
  pt_in_bytes m = lens 1 fs /\ pt_connection_id m = the_uint64 2 fs /\
  the_message (reads_identity V) 3 fs (pt_local m).

(* SessionReq: client_start = 1, server_start = 2, next = 3 (whose only field
   is in_bytes = 1), resumption_ticket = 4 are the cases of a oneof. Requests
   in which more than one field of the oneof occurs are not described. *)
Definition reads_case (V : bytes -> bool) (fs : list wfield) (r : req_oneof) : Prop :=
  match r with
  | ReqNone => lens 1 fs = [] /\ lens 2 fs = [] /\ lens 3 fs = [] /\ lens 4 fs = []
  | ReqClient c => exists b part, lens 1 fs = [b] /\ lens 2 fs = [] /\ lens 3 fs = [] /\ lens 4 fs = [] /\
      serial b part /\ reads_client V part c
  | ReqServer s => exists b part, lens 1 fs = [] /\ lens 2 fs = [b] /\ lens 3 fs = [] /\ lens 4 fs = [] /\
      serial b part /\ reads_server V part s
  | ReqNext i => exists b part, lens 1 fs = [] /\ lens 2 fs = [] /\ lens 3 fs = [b] /\ lens 4 fs = [] /\
      serial b part /\ i = the_bytes 1 part
  | ReqTicket t => exists b part, lens 1 fs = [] /\ lens 2 fs = [] /\ lens 3 fs = [] /\ lens 4 fs = [b] /\
      serial b part /\ reads_ticket V part t
  end.
Definition reads_req (V : bytes -> bool) (fs : list wfield) (m : p_req) : Prop :=
  reads_case V fs (rq_oneof m) /\ messages (reads_auth V) 5 fs (rq_auth m).

Definition reads_state (fs : list wfield) (m : p_state) : Prop :=
  pt_tls m = the_uint32 1 fs /\ pt_suite m = the_uint32 2 fs /\
  pt_in_seq m = the_uint64 3 fs /\ pt_out_seq m = the_uint64 4 fs /\
  pt_in_key m = the_bytes 5 fs /\ pt_out_key m = the_bytes 6 fs /\
  pt_in_nonce m = the_bytes 7 fs /\ pt_out_nonce m = the_bytes 8 fs /\
  pt_conn m = the_uint64 9 fs /\ pt_resumed m = the_bool 10 fs.

Definition reads_result (V : bytes -> bool) (fs : list wfield) (m : p_result) : Prop :=
  the_text V 1 fs (pr_protocol m) /\ the_message reads_state 2 fs (pr_state m) /\
  the_message (reads_identity V) 4 fs (pr_peer m) /\ the_message (reads_identity V) 5 fs (pr_local m) /\
  pr_local_fp m = the_bytes 6 fs /\ pr_peer_fp m = the_bytes 7 fs.

Definition reads_status (V : bytes -> bool) (fs : list wfield) (m : p_status) : Prop :=
  pst_code m = the_uint32 1 fs /\ the_text V 2 fs (pst_details m).

Definition reads_resp (V : bytes -> bool) (fs : list wfield) (m : p_resp) : Prop :=
  the_message (reads_identity V) 1 fs (rs_local m) /\ rs_out_frames m = the_bytes 2 fs /\
  rs_consumed m = the_uint32 3 fs /\ the_message (reads_result V) 4 fs (rs_result m) /\
  the_message (reads_status V) 5 fs (rs_status m).

(* ---- s2a_context.proto ---- *)
Definition reads_context (V : bytes -> bool) (fs : list wfield) (m : p_context) : Prop :=
  the_text V 1 fs (pcx_protocol m) /\ pcx_tls m = the_uint32 2 fs /\ pcx_suite m = the_uint32 3 fs /\
  the_message (reads_identity V) 4 fs (pcx_peer m) /\ the_message (reads_identity V) 5 fs (pcx_local m) /\
  pcx_peer_fp m = the_bytes 6 fs /\ pcx_local_fp m = the_bytes 7 fs /\ pcx_resumed m = the_bool 8 fs.

(* ---- What bytes mean ---- *)
Definition means {A} (reads : list wfield -> A -> Prop) (b : bytes) (m : A) : Prop :=
  exists fs, serial b fs /\ reads fs m.
