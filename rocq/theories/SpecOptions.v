(* Small specifications for options, identities, contexts and ticket requests. *)
From Coq Require Import List NArith Bool.
From Verif Require Import Base Aead Hkdf Options Wire SpecWire Context.
Import ListNotations.
Local Open Scope N_scope.

(* The strings C functions see in full. *)
Definition nul_free (s : bytes) : Prop := ~ In 0 s.

(* The numbers of the protocol (src/proto/common.proto 24-34). *)
Inductive tls_number : tls_version -> N -> Prop :=
| Tls12 : tls_number TLS1_2 0
| Tls13 : tls_number TLS1_3 1.
Inductive suite_number : suite -> N -> Prop :=
| Aes128 : suite_number AES_128_GCM_SHA256 0
| Aes256 : suite_number AES_256_GCM_SHA384 1
| Chacha : suite_number CHACHA20_POLY1305_SHA256 2.

(* Message [p] names identity [i]. *)
Inductive names : p_identity -> identity -> Prop :=
| NamesSpiffe : forall s, names {| pi_id := IdSpiffe s; pi_attrs := [] |} {| id_type_of := SPIFFE_ID; id_string := s |}
| NamesHost : forall s, names {| pi_id := IdHostname s; pi_attrs := [] |} {| id_type_of := HOSTNAME; id_string := s |}
| NamesUid : forall s, names {| pi_id := IdUid s; pi_attrs := [] |} {| id_type_of := UID; id_string := s |}.

(* The identity a received message stands for, whatever its attributes; the
   empty identity if it is missing or names none. *)
Inductive meant : option p_identity -> identity -> Prop :=
| MeantNothing : meant None empty_identity
| MeantNone : forall l, meant (Some {| pi_id := IdNone; pi_attrs := l |}) empty_identity
| MeantSpiffe : forall s l, meant (Some {| pi_id := IdSpiffe s; pi_attrs := l |}) {| id_type_of := SPIFFE_ID; id_string := s |}
| MeantHost : forall s l, meant (Some {| pi_id := IdHostname s; pi_attrs := l |}) {| id_type_of := HOSTNAME; id_string := s |}
| MeantUid : forall s l, meant (Some {| pi_id := IdUid s; pi_attrs := l |}) {| id_type_of := UID; id_string := s |}.

(* Message [m] says the same as context [c]. *)
Definition context_says (m : p_context) (c : s2a_context) : Prop :=
  x_protocol c = pcx_protocol m /\ tls_number (x_tls c) (pcx_tls m) /\ suite_number (x_suite c) (pcx_suite m) /\
  meant (pcx_peer m) (x_peer c) /\ meant (pcx_local m) (x_local c) /\
  x_peer_fp c = pcx_peer_fp m /\ x_local_fp c = pcx_local_fp m /\ x_resumed c = pcx_resumed m.

(* Identities come from the four factories: only the empty one has no type. *)
Definition made_identity (i : identity) : Prop := id_type_of i = NONE -> i = empty_identity.

(* Calls of the setters. *)
Inductive setter :=
| SetMin (v : tls_version) | SetMax (v : tls_version) | AddSuite (s : suite) | SetAddress (a : bytes)
| AddLocalSpiffe (s : bytes) | AddLocalHost (s : bytes) | AddLocalUid (s : bytes)
| AddTargetSpiffe (s : bytes) | AddTargetHost (s : bytes) | AddTargetUid (s : bytes).
Definition apply_setter (o : options) (c : setter) : options :=
  match c with
  | SetMin v => set_min_tls_version v o
  | SetMax v => set_max_tls_version v o
  | AddSuite s => add_supported_ciphersuite s o
  | SetAddress a => set_s2a_address a o
  | AddLocalSpiffe s => add_local_spiffe_id s o
  | AddLocalHost s => add_local_hostname s o
  | AddLocalUid s => add_local_uid s o
  | AddTargetSpiffe s => add_target_spiffe_id s o
  | AddTargetHost s => add_target_hostname s o
  | AddTargetUid s => add_target_uid s o
  end.
Definition options_after (cs : list setter) : options := fold_left apply_setter cs default_options.

(* The last element, and what the calls amount to. *)
Definition last_of {A} (d : A) (l : list A) : A := last l d.
Definition mins cs := flat_map (fun c => match c with SetMin v => [v] | _ => [] end) cs.
Definition maxs cs := flat_map (fun c => match c with SetMax v => [v] | _ => [] end) cs.
Definition addresses cs := flat_map (fun c => match c with SetAddress a => [a] | _ => [] end) cs.
Definition suites_added cs := flat_map (fun c => match c with AddSuite s => [s] | _ => [] end) cs.
Definition locals_added cs := flat_map (fun c =>
  match c with
  | AddLocalSpiffe s => [{| id_type_of := SPIFFE_ID; id_string := s |}]
  | AddLocalHost s => [{| id_type_of := HOSTNAME; id_string := s |}]
  | AddLocalUid s => [{| id_type_of := UID; id_string := s |}]
  | _ => [] end) cs.
Definition targets_added cs := flat_map (fun c =>
  match c with
  | AddTargetSpiffe s => [{| id_type_of := SPIFFE_ID; id_string := s |}]
  | AddTargetHost s => [{| id_type_of := HOSTNAME; id_string := s |}]
  | AddTargetUid s => [{| id_type_of := UID; id_string := s |}]
  | _ => [] end) cs.

(* A context whose strings are text without NUL bytes, whose fingerprints have
   no zero bytes, and whose identities come from the factories. *)
Definition context_clean (V : bytes -> bool) (c : s2a_context) : Prop :=
  nul_free (x_protocol c) /\ nul_free (id_string (x_peer c)) /\ nul_free (id_string (x_local c)) /\
  nul_free (x_peer_fp c) /\ nul_free (x_local_fp c) /\
  text V (x_protocol c) /\ text V (id_string (x_peer c)) /\ text V (id_string (x_local c)) /\
  made_identity (x_peer c) /\ made_identity (x_local c).

(* A request that is not already a ticket request. *)
Definition no_ticket_yet (r : p_req) : Prop := forall t, rq_oneof r <> ReqTicket t.
