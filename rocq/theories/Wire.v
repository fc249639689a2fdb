(* The protocol buffer messages of src/proto, as the upb code generated from
   them (src/proto/upb-generated) stores, serializes and parses them.

   upb itself is not part of /repo; what is modelled is the proto3 wire format
   driven by the field tables in the generated *.upb.c files. Simplifications:
   memory does not run out; the limit on the nesting of unknown groups is not
   modelled; unknown fields are dropped (upb keeps them, no code reads them).
   Whether upb checks string fields for UTF-8 depends on its version: the
   check is a parameter [V] of the parsers. *)
From Coq Require Import List NArith Bool.
From Verif Require Import Base.
Import ListNotations.
Local Open Scope N_scope.

(* ------------------------------------------------------------------ *)
(* Wire format *)

Definition two32 : N := 4294967296.
Definition int32_max : N := 2147483647.

(* Base 128 varints, at most 10 bytes. *)
Fixpoint varint (fuel : nat) (n : N) : bytes :=
  match fuel with
  | O => []
  | S f => if n <? 128 then [n] else (n mod 128 + 128) :: varint f (n / 128)
  end.
Definition enc_varint (n : N) : bytes := varint 10 n.

Fixpoint unvarint (fuel : nat) (bs : bytes) : option (N * bytes) :=
  match fuel, bs with
  | S f, b :: r =>
    if b <? 128 then Some (b, r) else
    match unvarint f r with
    | Some (n, r') => Some (b - 128 + 128 * n, r')
    | None => None
    end
  | _, _ => None
  end.
Definition dec_varint (bs : bytes) : option (N * bytes) :=
  match unvarint 10 bs with
  | Some (n, r) => Some (wrap64 n, r)
  | None => None
  end.

(* Field values by wire type: 0, 1, 2, 5. *)
Inductive wval :=
| WVarint (n : N)
| WFixed64 (b : bytes)
| WLen (b : bytes)
| WFixed32 (b : bytes).
Definition wfield := (N * wval)%type.

Definition enc_field (f : wfield) : bytes :=
  match f with
  | (num, WVarint n) => enc_varint (8 * num) ++ enc_varint n
  | (num, WFixed64 b) => enc_varint (8 * num + 1) ++ b
  | (num, WLen b) => enc_varint (8 * num + 2) ++ enc_varint (lenN b) ++ b
  | (num, WFixed32 b) => enc_varint (8 * num + 5) ++ b
  end.
Definition enc_fields (fs : list wfield) : bytes := flat_map enc_field fs.

(* Exactly n bytes. *)
Definition split_bytes (n : N) (bs : bytes) : option (bytes * bytes) :=
  if n <=? lenN bs then Some (takeN n bs, dropN n bs) else None.

(* A field tag: number and wire type. *)
Definition dec_tag (bs : bytes) : option (N * N * bytes) :=
  match dec_varint bs with
  | Some (t, r) =>
    if (t <? two32) && negb (t / 8 =? 0) then Some (t / 8, t mod 8, r) else None
  | None => None
  end.

(* The value of a field that is not a group. *)
Definition dec_value (wt : N) (bs : bytes) : option (wval * bytes) :=
  match wt with
  | 0 => match dec_varint bs with Some (n, r) => Some (WVarint n, r) | None => None end
  | 1 => match split_bytes 8 bs with Some (b, r) => Some (WFixed64 b, r) | None => None end
  | 2 =>
    match dec_varint bs with
    | Some (n, r) =>
      if int32_max <=? n then None else
      match split_bytes n r with Some (b, r') => Some (WLen b, r') | None => None end
    | None => None
    end
  | 5 => match split_bytes 4 bs with Some (b, r) => Some (WFixed32 b, r) | None => None end
  | _ => None
  end.

(* The fields up to the end of the input, or (inside group g) up to the end of
   the group. Groups are skipped. The fuel bounds the number of tags; one more
   than the number of bytes is always enough. *)
Fixpoint fields (fuel : nat) (group : option N) (bs : bytes) : option (list wfield * bytes) :=
  match fuel with
  | O => None
  | S f =>
    match bs with
    | [] => match group with None => Some ([], []) | Some _ => None end
    | _ =>
      match dec_tag bs with
      | None => None
      | Some (num, wt, r) =>
        if wt =? 3 then
          match fields f (Some num) r with
          | Some (_, r') => fields f group r'
          | None => None
          end
        else if wt =? 4 then
          match group with
          | Some g => if g =? num then Some ([], r) else None
          | None => None
          end
        else
          match dec_value wt r with
          | Some (v, r') =>
            match fields f group r' with
            | Some (fs, r'') => Some ((num, v) :: fs, r'')
            | None => None
            end
          | None => None
          end
      end
    end
  end.

Definition dec_fields (bs : bytes) : option (list wfield) :=
  match fields (S (length bs)) None bs with
  | Some (fs, _) => Some fs
  | None => None
  end.

(* A message is parsed by letting its fields act on it one by one. *)
Fixpoint fold_fields {A} (step : A -> wfield -> option A) (m : A) (fs : list wfield) : option A :=
  match fs with
  | [] => Some m
  | f :: r => match step m f with Some m' => fold_fields step m' r | None => None end
  end.
Definition parse_into {A} (step : A -> wfield -> option A) (m : A) (bs : bytes) : option A :=
  match dec_fields bs with
  | Some fs => fold_fields step m fs
  | None => None
  end.

(* Scalars of a proto3 message are written only if they are not the default
   (presence 0 in the field tables). An int32 (enum) is a number below 2^32 in
   two's complement, extended to 64 bits on the wire. *)
Definition f_uint (num n : N) : list wfield := if n =? 0 then [] else [(num, WVarint n)].
Definition sign_extend (n : N) : N := if n <? 2147483648 then n else n + (two64 - two32).
Definition f_enum (num n : N) : list wfield := f_uint num (sign_extend n).
Definition f_bool (num : N) (b : bool) : list wfield := if b then [(num, WVarint 1)] else [].
Definition f_str (num : N) (s : bytes) : list wfield :=
  match s with [] => [] | _ => [(num, WLen s)] end.
(* Presence by hasbit or oneof case: written whenever set. *)
Definition f_opt (num : N) (s : option bytes) : list wfield :=
  match s with None => [] | Some b => [(num, WLen b)] end.
Definition f_rep (num : N) (l : list bytes) : list wfield := map (fun s => (num, WLen s)) l.
(* Packed enums. *)
Definition f_packed (num : N) (l : list N) : list wfield :=
  match l with
  | [] => []
  | _ => [(num, WLen (flat_map (fun n => enc_varint (sign_extend n)) l))]
  end.

Fixpoint unpack (fuel : nat) (bs : bytes) : option (list N) :=
  match fuel with
  | O => None
  | S f =>
    match bs with
    | [] => Some []
    | _ =>
      match dec_varint bs with
      | Some (n, r) => match unpack f r with Some l => Some (n mod two32 :: l) | None => None end
      | None => None
      end
    end
  end.

(* ------------------------------------------------------------------ *)
(* common.proto: common.upb.c *)

(* Identity.identity_oneof *)
Inductive id_oneof := IdNone | IdSpiffe (s : bytes) | IdHostname (s : bytes) | IdUid (s : bytes).

(* s2a_proto_Identity. The attributes are the map entries in wire order; the
   library neither sets nor reads them. *)
Record p_identity := { pi_id : id_oneof; pi_attrs : list (bytes * bytes) }.
Definition p_identity_new : p_identity := {| pi_id := IdNone; pi_attrs := [] |}.

Definition enc_entry (e : bytes * bytes) : bytes :=
  enc_fields ([(1, WLen (fst e))] ++ [(2, WLen (snd e))]).
Definition enc_identity (m : p_identity) : bytes :=
  enc_fields
    (match pi_id m with IdSpiffe s => [(1, WLen s)] | IdHostname s => [(2, WLen s)] | _ => [] end ++
     f_rep 3 (map enc_entry (pi_attrs m)) ++
     match pi_id m with IdUid s => [(4, WLen s)] | _ => [] end).

Definition entry_step (V : bytes -> bool) (e : bytes * bytes) (f : wfield) : option (bytes * bytes) :=
  match f with
  | (1, WLen s) => if V s then Some (s, snd e) else None
  | (2, WLen s) => if V s then Some (fst e, s) else None
  | _ => Some e
  end.
Definition identity_step (V : bytes -> bool) (m : p_identity) (f : wfield) : option p_identity :=
  match f with
  | (1, WLen s) => if V s then Some {| pi_id := IdSpiffe s; pi_attrs := pi_attrs m |} else None
  | (2, WLen s) => if V s then Some {| pi_id := IdHostname s; pi_attrs := pi_attrs m |} else None
  | (3, WLen b) =>
    match parse_into (entry_step V) ([], []) b with
    | Some e => Some {| pi_id := pi_id m; pi_attrs := pi_attrs m ++ [e] |}
    | None => None
    end
  | (4, WLen s) => if V s then Some {| pi_id := IdUid s; pi_attrs := pi_attrs m |} else None
  | _ => Some m
  end.

(* A singular message field: a repeated occurrence is merged into the message
   already there. *)
Definition merge {A} (step : A -> wfield -> option A) (new : A) (old : option A) (b : bytes) : option A :=
  parse_into step (match old with Some m => m | None => new end) b.

(* ------------------------------------------------------------------ *)
(* s2a.proto: s2a.upb.c *)

Record p_auth := { pa_identity : option p_identity; pa_token : option bytes }.
Definition p_auth_new : p_auth := {| pa_identity := None; pa_token := None |}.
Definition enc_auth (m : p_auth) : bytes :=
  enc_fields (f_opt 1 (option_map enc_identity (pa_identity m)) ++ f_opt 2 (pa_token m)).
Definition auth_step (V : bytes -> bool) (m : p_auth) (f : wfield) : option p_auth :=
  match f with
  | (1, WLen b) =>
    match merge (identity_step V) p_identity_new (pa_identity m) b with
    | Some i => Some {| pa_identity := Some i; pa_token := pa_token m |}
    | None => None
    end
  | (2, WLen s) => if V s then Some {| pa_identity := pa_identity m; pa_token := Some s |} else None
  | _ => Some m
  end.

Record p_client := {
  pc_protocols : list bytes;
  pc_min : N;
  pc_max : N;
  pc_suites : list N;
  pc_targets : list p_identity;
  pc_local : option p_identity;
  pc_target_name : bytes
}.
Definition p_client_new : p_client :=
  {| pc_protocols := []; pc_min := 0; pc_max := 0; pc_suites := []; pc_targets := [];
     pc_local := None; pc_target_name := [] |}.
Definition enc_client (m : p_client) : bytes :=
  enc_fields (f_rep 1 (pc_protocols m) ++ f_enum 2 (pc_min m) ++ f_enum 3 (pc_max m) ++
              f_packed 4 (pc_suites m) ++ f_rep 5 (map enc_identity (pc_targets m)) ++
              f_opt 6 (option_map enc_identity (pc_local m)) ++ f_str 7 (pc_target_name m)).
Definition client_step (V : bytes -> bool) (m : p_client) (f : wfield) : option p_client :=
  let '{| pc_protocols := a; pc_min := b; pc_max := c; pc_suites := d; pc_targets := e;
          pc_local := l; pc_target_name := t |} := m in
  match f with
  | (1, WLen s) =>
    if V s then Some {| pc_protocols := a ++ [s]; pc_min := b; pc_max := c; pc_suites := d;
                        pc_targets := e; pc_local := l; pc_target_name := t |} else None
  | (2, WVarint n) =>
    Some {| pc_protocols := a; pc_min := n mod two32; pc_max := c; pc_suites := d;
            pc_targets := e; pc_local := l; pc_target_name := t |}
  | (3, WVarint n) =>
    Some {| pc_protocols := a; pc_min := b; pc_max := n mod two32; pc_suites := d;
            pc_targets := e; pc_local := l; pc_target_name := t |}
  | (4, WVarint n) =>
    Some {| pc_protocols := a; pc_min := b; pc_max := c; pc_suites := d ++ [n mod two32];
            pc_targets := e; pc_local := l; pc_target_name := t |}
  | (4, WLen s) =>
    match unpack (S (length s)) s with
    | Some ns => Some {| pc_protocols := a; pc_min := b; pc_max := c; pc_suites := d ++ ns;
                         pc_targets := e; pc_local := l; pc_target_name := t |}
    | None => None
    end
  | (5, WLen s) =>
    match parse_into (identity_step V) p_identity_new s with
    | Some i => Some {| pc_protocols := a; pc_min := b; pc_max := c; pc_suites := d;
                        pc_targets := e ++ [i]; pc_local := l; pc_target_name := t |}
    | None => None
    end
  | (6, WLen s) =>
    match merge (identity_step V) p_identity_new l s with
    | Some i => Some {| pc_protocols := a; pc_min := b; pc_max := c; pc_suites := d;
                        pc_targets := e; pc_local := Some i; pc_target_name := t |}
    | None => None
    end
  | (7, WLen s) =>
    if V s then Some {| pc_protocols := a; pc_min := b; pc_max := c; pc_suites := d;
                        pc_targets := e; pc_local := l; pc_target_name := s |} else None
  | _ => Some m
  end.

Record p_server := {
  ps_protocols : list bytes;
  ps_min : N;
  ps_max : N;
  ps_suites : list N;
  ps_locals : list p_identity;
  ps_in_bytes : bytes
}.
Definition p_server_new : p_server :=
  {| ps_protocols := []; ps_min := 0; ps_max := 0; ps_suites := []; ps_locals := []; ps_in_bytes := [] |}.
Definition enc_server (m : p_server) : bytes :=
  enc_fields (f_rep 1 (ps_protocols m) ++ f_enum 2 (ps_min m) ++ f_enum 3 (ps_max m) ++
              f_packed 4 (ps_suites m) ++ f_rep 5 (map enc_identity (ps_locals m)) ++
              f_str 6 (ps_in_bytes m)).
Definition server_step (V : bytes -> bool) (m : p_server) (f : wfield) : option p_server :=
  let '{| ps_protocols := a; ps_min := b; ps_max := c; ps_suites := d; ps_locals := e;
          ps_in_bytes := i |} := m in
  match f with
  | (1, WLen s) =>
    if V s then Some {| ps_protocols := a ++ [s]; ps_min := b; ps_max := c; ps_suites := d;
                        ps_locals := e; ps_in_bytes := i |} else None
  | (2, WVarint n) =>
    Some {| ps_protocols := a; ps_min := n mod two32; ps_max := c; ps_suites := d;
            ps_locals := e; ps_in_bytes := i |}
  | (3, WVarint n) =>
    Some {| ps_protocols := a; ps_min := b; ps_max := n mod two32; ps_suites := d;
            ps_locals := e; ps_in_bytes := i |}
  | (4, WVarint n) =>
    Some {| ps_protocols := a; ps_min := b; ps_max := c; ps_suites := d ++ [n mod two32];
            ps_locals := e; ps_in_bytes := i |}
  | (4, WLen s) =>
    match unpack (S (length s)) s with
    | Some ns => Some {| ps_protocols := a; ps_min := b; ps_max := c; ps_suites := d ++ ns;
                         ps_locals := e; ps_in_bytes := i |}
    | None => None
    end
  | (5, WLen s) =>
    match parse_into (identity_step V) p_identity_new s with
    | Some x => Some {| ps_protocols := a; ps_min := b; ps_max := c; ps_suites := d;
                        ps_locals := e ++ [x]; ps_in_bytes := i |}
    | None => None
    end
  | (6, WLen s) =>
    Some {| ps_protocols := a; ps_min := b; ps_max := c; ps_suites := d;
            ps_locals := e; ps_in_bytes := s |}
  | _ => Some m
  end.

(* SessionNextReq: its only field, in_bytes. *)
Definition enc_next (b : bytes) : bytes := enc_fields (f_str 1 b).
Definition next_step (b : bytes) (f : wfield) : option bytes :=
  match f with
  | (1, WLen s) => Some s
  | _ => Some b
  end.

Record p_ticket := { pt_in_bytes : list bytes; pt_connection_id : N; pt_local : option p_identity }.
Definition p_ticket_new : p_ticket := {| pt_in_bytes := []; pt_connection_id := 0; pt_local := None |}.
Definition enc_ticket (m : p_ticket) : bytes :=
  enc_fields (f_rep 1 (pt_in_bytes m) ++ f_uint 2 (pt_connection_id m) ++
              f_opt 3 (option_map enc_identity (pt_local m))).
Definition ticket_step (V : bytes -> bool) (m : p_ticket) (f : wfield) : option p_ticket :=
  match f with
  | (1, WLen s) =>
    Some {| pt_in_bytes := pt_in_bytes m ++ [s]; pt_connection_id := pt_connection_id m; pt_local := pt_local m |}
  | (2, WVarint n) =>
    Some {| pt_in_bytes := pt_in_bytes m; pt_connection_id := n; pt_local := pt_local m |}
  | (3, WLen s) =>
    match merge (identity_step V) p_identity_new (pt_local m) s with
    | Some i => Some {| pt_in_bytes := pt_in_bytes m; pt_connection_id := pt_connection_id m; pt_local := Some i |}
    | None => None
    end
  | _ => Some m
  end.

(* SessionReq.req_oneof *)
Inductive req_oneof :=
| ReqNone
| ReqClient (m : p_client)
| ReqServer (m : p_server)
| ReqNext (b : bytes)
| ReqTicket (m : p_ticket).
Record p_req := { rq_oneof : req_oneof; rq_auth : list p_auth }.
Definition p_req_new : p_req := {| rq_oneof := ReqNone; rq_auth := [] |}.
Definition enc_req (m : p_req) : bytes :=
  enc_fields
    (match rq_oneof m with
     | ReqNone => []
     | ReqClient c => [(1, WLen (enc_client c))]
     | ReqServer s => [(2, WLen (enc_server s))]
     | ReqNext b => [(3, WLen (enc_next b))]
     | ReqTicket t => [(4, WLen (enc_ticket t))]
     end ++ f_rep 5 (map enc_auth (rq_auth m))).
(* A oneof message field merges only into the same case. *)
Definition req_step (V : bytes -> bool) (m : p_req) (f : wfield) : option p_req :=
  match f with
  | (1, WLen s) =>
    match parse_into (client_step V) (match rq_oneof m with ReqClient c => c | _ => p_client_new end) s with
    | Some c => Some {| rq_oneof := ReqClient c; rq_auth := rq_auth m |}
    | None => None
    end
  | (2, WLen s) =>
    match parse_into (server_step V) (match rq_oneof m with ReqServer c => c | _ => p_server_new end) s with
    | Some c => Some {| rq_oneof := ReqServer c; rq_auth := rq_auth m |}
    | None => None
    end
  | (3, WLen s) =>
    match parse_into next_step (match rq_oneof m with ReqNext b => b | _ => [] end) s with
    | Some b => Some {| rq_oneof := ReqNext b; rq_auth := rq_auth m |}
    | None => None
    end
  | (4, WLen s) =>
    match parse_into (ticket_step V) (match rq_oneof m with ReqTicket c => c | _ => p_ticket_new end) s with
    | Some c => Some {| rq_oneof := ReqTicket c; rq_auth := rq_auth m |}
    | None => None
    end
  | (5, WLen s) =>
    match parse_into (auth_step V) p_auth_new s with
    | Some a => Some {| rq_oneof := rq_oneof m; rq_auth := rq_auth m ++ [a] |}
    | None => None
    end
  | _ => Some m
  end.
Definition parse_req (V : bytes -> bool) (bs : bytes) : option p_req := parse_into (req_step V) p_req_new bs.

Record p_state := {
  pt_tls : N;
  pt_suite : N;
  pt_in_seq : N;
  pt_out_seq : N;
  pt_in_key : bytes;
  pt_out_key : bytes;
  pt_in_nonce : bytes;
  pt_out_nonce : bytes;
  pt_conn : N;
  pt_resumed : bool
}.
Definition p_state_new : p_state :=
  {| pt_tls := 0; pt_suite := 0; pt_in_seq := 0; pt_out_seq := 0; pt_in_key := []; pt_out_key := [];
     pt_in_nonce := []; pt_out_nonce := []; pt_conn := 0; pt_resumed := false |}.
Definition enc_state (m : p_state) : bytes :=
  enc_fields (f_enum 1 (pt_tls m) ++ f_enum 2 (pt_suite m) ++ f_uint 3 (pt_in_seq m) ++
              f_uint 4 (pt_out_seq m) ++ f_str 5 (pt_in_key m) ++ f_str 6 (pt_out_key m) ++
              f_str 7 (pt_in_nonce m) ++ f_str 8 (pt_out_nonce m) ++ f_uint 9 (pt_conn m) ++
              f_bool 10 (pt_resumed m)).
Definition state_step (m : p_state) (f : wfield) : option p_state :=
  let '{| pt_tls := a; pt_suite := b; pt_in_seq := c; pt_out_seq := d; pt_in_key := e; pt_out_key := g;
          pt_in_nonce := h; pt_out_nonce := i; pt_conn := j; pt_resumed := k |} := m in
  match f with
  | (1, WVarint n) =>
    Some {| pt_tls := n mod two32; pt_suite := b; pt_in_seq := c; pt_out_seq := d; pt_in_key := e;
            pt_out_key := g; pt_in_nonce := h; pt_out_nonce := i; pt_conn := j; pt_resumed := k |}
  | (2, WVarint n) =>
    Some {| pt_tls := a; pt_suite := n mod two32; pt_in_seq := c; pt_out_seq := d; pt_in_key := e;
            pt_out_key := g; pt_in_nonce := h; pt_out_nonce := i; pt_conn := j; pt_resumed := k |}
  | (3, WVarint n) =>
    Some {| pt_tls := a; pt_suite := b; pt_in_seq := n; pt_out_seq := d; pt_in_key := e;
            pt_out_key := g; pt_in_nonce := h; pt_out_nonce := i; pt_conn := j; pt_resumed := k |}
  | (4, WVarint n) =>
    Some {| pt_tls := a; pt_suite := b; pt_in_seq := c; pt_out_seq := n; pt_in_key := e;
            pt_out_key := g; pt_in_nonce := h; pt_out_nonce := i; pt_conn := j; pt_resumed := k |}
  | (5, WLen s) =>
    Some {| pt_tls := a; pt_suite := b; pt_in_seq := c; pt_out_seq := d; pt_in_key := s;
            pt_out_key := g; pt_in_nonce := h; pt_out_nonce := i; pt_conn := j; pt_resumed := k |}
  | (6, WLen s) =>
    Some {| pt_tls := a; pt_suite := b; pt_in_seq := c; pt_out_seq := d; pt_in_key := e;
            pt_out_key := s; pt_in_nonce := h; pt_out_nonce := i; pt_conn := j; pt_resumed := k |}
  | (7, WLen s) =>
    Some {| pt_tls := a; pt_suite := b; pt_in_seq := c; pt_out_seq := d; pt_in_key := e;
            pt_out_key := g; pt_in_nonce := s; pt_out_nonce := i; pt_conn := j; pt_resumed := k |}
  | (8, WLen s) =>
    Some {| pt_tls := a; pt_suite := b; pt_in_seq := c; pt_out_seq := d; pt_in_key := e;
            pt_out_key := g; pt_in_nonce := h; pt_out_nonce := s; pt_conn := j; pt_resumed := k |}
  | (9, WVarint n) =>
    Some {| pt_tls := a; pt_suite := b; pt_in_seq := c; pt_out_seq := d; pt_in_key := e;
            pt_out_key := g; pt_in_nonce := h; pt_out_nonce := i; pt_conn := n; pt_resumed := k |}
  | (10, WVarint n) =>
    Some {| pt_tls := a; pt_suite := b; pt_in_seq := c; pt_out_seq := d; pt_in_key := e;
            pt_out_key := g; pt_in_nonce := h; pt_out_nonce := i; pt_conn := j;
            pt_resumed := negb (n =? 0) |}
  | _ => Some m
  end.

Record p_result := {
  pr_protocol : bytes;
  pr_state : option p_state;
  pr_peer : option p_identity;
  pr_local : option p_identity;
  pr_local_fp : bytes;
  pr_peer_fp : bytes
}.
Definition p_result_new : p_result :=
  {| pr_protocol := []; pr_state := None; pr_peer := None; pr_local := None; pr_local_fp := []; pr_peer_fp := [] |}.
Definition enc_result (m : p_result) : bytes :=
  enc_fields (f_str 1 (pr_protocol m) ++ f_opt 2 (option_map enc_state (pr_state m)) ++
              f_opt 4 (option_map enc_identity (pr_peer m)) ++
              f_opt 5 (option_map enc_identity (pr_local m)) ++
              f_str 6 (pr_local_fp m) ++ f_str 7 (pr_peer_fp m)).
Definition result_step (V : bytes -> bool) (m : p_result) (f : wfield) : option p_result :=
  let '{| pr_protocol := a; pr_state := b; pr_peer := c; pr_local := d; pr_local_fp := e; pr_peer_fp := g |} := m in
  match f with
  | (1, WLen s) =>
    if V s then Some {| pr_protocol := s; pr_state := b; pr_peer := c; pr_local := d;
                        pr_local_fp := e; pr_peer_fp := g |} else None
  | (2, WLen s) =>
    match merge state_step p_state_new b s with
    | Some x => Some {| pr_protocol := a; pr_state := Some x; pr_peer := c; pr_local := d;
                        pr_local_fp := e; pr_peer_fp := g |}
    | None => None
    end
  | (4, WLen s) =>
    match merge (identity_step V) p_identity_new c s with
    | Some x => Some {| pr_protocol := a; pr_state := b; pr_peer := Some x; pr_local := d;
                        pr_local_fp := e; pr_peer_fp := g |}
    | None => None
    end
  | (5, WLen s) =>
    match merge (identity_step V) p_identity_new d s with
    | Some x => Some {| pr_protocol := a; pr_state := b; pr_peer := c; pr_local := Some x;
                        pr_local_fp := e; pr_peer_fp := g |}
    | None => None
    end
  | (6, WLen s) =>
    Some {| pr_protocol := a; pr_state := b; pr_peer := c; pr_local := d; pr_local_fp := s; pr_peer_fp := g |}
  | (7, WLen s) =>
    Some {| pr_protocol := a; pr_state := b; pr_peer := c; pr_local := d; pr_local_fp := e; pr_peer_fp := s |}
  | _ => Some m
  end.

Record p_status := { pst_code : N; pst_details : bytes }.
Definition p_status_new : p_status := {| pst_code := 0; pst_details := [] |}.
Definition enc_status (m : p_status) : bytes :=
  enc_fields (f_uint 1 (pst_code m) ++ f_str 2 (pst_details m)).
Definition status_step (V : bytes -> bool) (m : p_status) (f : wfield) : option p_status :=
  match f with
  | (1, WVarint n) => Some {| pst_code := n mod two32; pst_details := pst_details m |}
  | (2, WLen s) => if V s then Some {| pst_code := pst_code m; pst_details := s |} else None
  | _ => Some m
  end.

Record p_resp := {
  rs_local : option p_identity;
  rs_out_frames : bytes;
  rs_consumed : N;
  rs_result : option p_result;
  rs_status : option p_status
}.
Definition p_resp_new : p_resp :=
  {| rs_local := None; rs_out_frames := []; rs_consumed := 0; rs_result := None; rs_status := None |}.
Definition enc_resp (m : p_resp) : bytes :=
  enc_fields (f_opt 1 (option_map enc_identity (rs_local m)) ++ f_str 2 (rs_out_frames m) ++
              f_uint 3 (rs_consumed m) ++ f_opt 4 (option_map enc_result (rs_result m)) ++
              f_opt 5 (option_map enc_status (rs_status m))).
Definition resp_step (V : bytes -> bool) (m : p_resp) (f : wfield) : option p_resp :=
  let '{| rs_local := a; rs_out_frames := b; rs_consumed := c; rs_result := d; rs_status := e |} := m in
  match f with
  | (1, WLen s) =>
    match merge (identity_step V) p_identity_new a s with
    | Some x => Some {| rs_local := Some x; rs_out_frames := b; rs_consumed := c; rs_result := d; rs_status := e |}
    | None => None
    end
  | (2, WLen s) =>
    Some {| rs_local := a; rs_out_frames := s; rs_consumed := c; rs_result := d; rs_status := e |}
  | (3, WVarint n) =>
    Some {| rs_local := a; rs_out_frames := b; rs_consumed := n mod two32; rs_result := d; rs_status := e |}
  | (4, WLen s) =>
    match merge (result_step V) p_result_new d s with
    | Some x => Some {| rs_local := a; rs_out_frames := b; rs_consumed := c; rs_result := Some x; rs_status := e |}
    | None => None
    end
  | (5, WLen s) =>
    match merge (status_step V) p_status_new e s with
    | Some x => Some {| rs_local := a; rs_out_frames := b; rs_consumed := c; rs_result := d; rs_status := Some x |}
    | None => None
    end
  | _ => Some m
  end.
Definition parse_resp (V : bytes -> bool) (bs : bytes) : option p_resp := parse_into (resp_step V) p_resp_new bs.

(* ------------------------------------------------------------------ *)
(* s2a_context.proto: s2a_context.upb.c *)
Record p_context := {
  pcx_protocol : bytes;
  pcx_tls : N;
  pcx_suite : N;
  pcx_peer : option p_identity;
  pcx_local : option p_identity;
  pcx_peer_fp : bytes;
  pcx_local_fp : bytes;
  pcx_resumed : bool
}.
Definition p_context_new : p_context :=
  {| pcx_protocol := []; pcx_tls := 0; pcx_suite := 0; pcx_peer := None; pcx_local := None;
     pcx_peer_fp := []; pcx_local_fp := []; pcx_resumed := false |}.
Definition enc_context (m : p_context) : bytes :=
  enc_fields (f_str 1 (pcx_protocol m) ++ f_enum 2 (pcx_tls m) ++ f_enum 3 (pcx_suite m) ++
              f_opt 4 (option_map enc_identity (pcx_peer m)) ++
              f_opt 5 (option_map enc_identity (pcx_local m)) ++
              f_str 6 (pcx_peer_fp m) ++ f_str 7 (pcx_local_fp m) ++ f_bool 8 (pcx_resumed m)).
Definition context_step (V : bytes -> bool) (m : p_context) (f : wfield) : option p_context :=
  let '{| pcx_protocol := a; pcx_tls := b; pcx_suite := c; pcx_peer := d; pcx_local := e;
          pcx_peer_fp := g; pcx_local_fp := h; pcx_resumed := k |} := m in
  match f with
  | (1, WLen s) =>
    if V s then Some {| pcx_protocol := s; pcx_tls := b; pcx_suite := c; pcx_peer := d; pcx_local := e;
                        pcx_peer_fp := g; pcx_local_fp := h; pcx_resumed := k |} else None
  | (2, WVarint n) =>
    Some {| pcx_protocol := a; pcx_tls := n mod two32; pcx_suite := c; pcx_peer := d; pcx_local := e;
            pcx_peer_fp := g; pcx_local_fp := h; pcx_resumed := k |}
  | (3, WVarint n) =>
    Some {| pcx_protocol := a; pcx_tls := b; pcx_suite := n mod two32; pcx_peer := d; pcx_local := e;
            pcx_peer_fp := g; pcx_local_fp := h; pcx_resumed := k |}
  | (4, WLen s) =>
    match merge (identity_step V) p_identity_new d s with
    | Some i => Some {| pcx_protocol := a; pcx_tls := b; pcx_suite := c; pcx_peer := Some i; pcx_local := e;
                        pcx_peer_fp := g; pcx_local_fp := h; pcx_resumed := k |}
    | None => None
    end
  | (5, WLen s) =>
    match merge (identity_step V) p_identity_new e s with
    | Some i => Some {| pcx_protocol := a; pcx_tls := b; pcx_suite := c; pcx_peer := d; pcx_local := Some i;
                        pcx_peer_fp := g; pcx_local_fp := h; pcx_resumed := k |}
    | None => None
    end
  | (6, WLen s) =>
    Some {| pcx_protocol := a; pcx_tls := b; pcx_suite := c; pcx_peer := d; pcx_local := e;
            pcx_peer_fp := s; pcx_local_fp := h; pcx_resumed := k |}
  | (7, WLen s) =>
    Some {| pcx_protocol := a; pcx_tls := b; pcx_suite := c; pcx_peer := d; pcx_local := e;
            pcx_peer_fp := g; pcx_local_fp := s; pcx_resumed := k |}
  | (8, WVarint n) =>
    Some {| pcx_protocol := a; pcx_tls := b; pcx_suite := c; pcx_peer := d; pcx_local := e;
            pcx_peer_fp := g; pcx_local_fp := h; pcx_resumed := negb (n =? 0) |}
  | _ => Some m
  end.
Definition parse_context (V : bytes -> bool) (bs : bytes) : option p_context :=
  parse_into (context_step V) p_context_new bs.
