(* Which message values exist: numbers in the range of their C type, string
   fields passing the UTF-8 check V of the parser. *)
From Coq Require Import List NArith Bool.
From Verif Require Import Base Wire.
Import ListNotations.
Local Open Scope N_scope.

Definition text (V : bytes -> bool) (s : bytes) : Prop := V s = true.

Definition valid_id (V : bytes -> bool) (i : id_oneof) : Prop :=
  match i with IdNone => True | IdSpiffe s | IdHostname s | IdUid s => text V s end.
Definition valid_identity (V : bytes -> bool) (m : p_identity) : Prop :=
  valid_id V (pi_id m) /\ Forall (fun e => text V (fst e) /\ text V (snd e)) (pi_attrs m).

Definition opt_all {A} (Q : A -> Prop) (o : option A) : Prop :=
  match o with None => True | Some x => Q x end.

Definition valid_auth (V : bytes -> bool) (m : p_auth) : Prop :=
  opt_all (valid_identity V) (pa_identity m) /\ opt_all (text V) (pa_token m).

Definition valid_client (V : bytes -> bool) (m : p_client) : Prop :=
  Forall (text V) (pc_protocols m) /\ pc_min m < two32 /\ pc_max m < two32 /\
  Forall (fun n => n < two32) (pc_suites m) /\ Forall (valid_identity V) (pc_targets m) /\
  opt_all (valid_identity V) (pc_local m) /\ text V (pc_target_name m).

Definition valid_server (V : bytes -> bool) (m : p_server) : Prop :=
  Forall (text V) (ps_protocols m) /\ ps_min m < two32 /\ ps_max m < two32 /\
  Forall (fun n => n < two32) (ps_suites m) /\ Forall (valid_identity V) (ps_locals m).

Definition valid_ticket (V : bytes -> bool) (m : p_ticket) : Prop :=
  pt_connection_id m < two64 /\ opt_all (valid_identity V) (pt_local m).

Definition valid_req (V : bytes -> bool) (m : p_req) : Prop :=
  match rq_oneof m with
  | ReqNone => True
  | ReqClient c => valid_client V c
  | ReqServer s => valid_server V s
  | ReqNext _ => True
  | ReqTicket t => valid_ticket V t
  end /\ Forall (valid_auth V) (rq_auth m).

Definition valid_state (m : p_state) : Prop :=
  pt_tls m < two32 /\ pt_suite m < two32 /\ pt_in_seq m < two64 /\ pt_out_seq m < two64 /\ pt_conn m < two64.

Definition valid_result (V : bytes -> bool) (m : p_result) : Prop :=
  text V (pr_protocol m) /\ opt_all valid_state (pr_state m) /\ opt_all (valid_identity V) (pr_peer m) /\
  opt_all (valid_identity V) (pr_local m).

Definition valid_status (V : bytes -> bool) (m : p_status) : Prop :=
  pst_code m < two32 /\ text V (pst_details m).

Definition valid_resp (V : bytes -> bool) (m : p_resp) : Prop :=
  opt_all (valid_identity V) (rs_local m) /\ rs_consumed m < two32 /\
  opt_all (valid_result V) (rs_result m) /\ opt_all (valid_status V) (rs_status m).

Definition valid_context (V : bytes -> bool) (m : p_context) : Prop :=
  text V (pcx_protocol m) /\ pcx_tls m < two32 /\ pcx_suite m < two32 /\
  opt_all (valid_identity V) (pcx_peer m) /\ opt_all (valid_identity V) (pcx_local m).

(* The size limit of protocol buffer messages. *)
Definition wire_size_ok (b : bytes) : Prop := lenN b < 2147483647.

(* Well-formed UTF-8 (RFC 3629, section 4): the check the parser makes in
   proto3 string fields. The theorems hold for every check V. *)
Definition cont (b : N) : bool := (128 <=? b) && (b <? 192).
Fixpoint utf8 (fuel : nat) (s : bytes) : bool :=
  match fuel with
  | O => false
  | S f =>
    match s with
    | [] => true
    | b :: r =>
      if b <? 128 then utf8 f r
      else if b <? 194 then false
      else if b <? 224 then match r with c :: r => cont c && utf8 f r | _ => false end
      else if b <? 240 then
        match r with
        | c :: d :: r => cont c && cont d && negb ((b =? 224) && (c <? 160)) && negb ((b =? 237) && (160 <=? c)) && utf8 f r
        | _ => false end
      else if b <? 245 then
        match r with
        | c :: d :: e :: r => cont c && cont d && cont e && negb ((b =? 240) && (c <? 144)) && negb ((b =? 244) && (144 <=? c)) && utf8 f r
        | _ => false end
      else false
    end
  end.
Definition is_utf8 (s : bytes) : bool := utf8 (S (length s)) s.
