(* Which session the answers of a proxy are about (C68). *)
From Coq Require Import List NArith Bool.
From Verif Require Import Base Aead Hkdf HalfConn Options HsHandler Crypter FrameProt Wire SpecWire Util Context SpecOptions Proxy ProxyRun SpecProxy.
Import ListNotations.
Local Open Scope N_scope.

(* The call brings session result [res]. *)
Definition brings (V : bytes -> bool) (op : pop) (res : p_result) : Prop :=
  exists b r, op = PToPeer (Some b) /\ good_response V b r /\ rs_result r = Some res.
(* [res] is the latest result of kind [K], and the calls [rest] came after it. *)
Definition latest (V : bytes -> bool) (K : p_result -> Prop) (ops : list pop) (res : p_result) (rest : list pop) : Prop :=
  (exists p op, ops = p ++ op :: rest /\ brings V op res) /\ K res /\
  forall op res', In op rest -> brings V op res' -> ~ K res'.

Definition known_tls (st : p_state) : Prop := exists v, tls_number v (pt_tls st).
Definition known_suite (st : p_state) : Prop := exists u, suite_number u (pt_suite st).
Definition with_state (res : p_result) : Prop := pr_state res <> None.
(* The results that are accepted (C45). *)
Definition complete (res : p_result) : Prop :=
  exists st, pr_state res = Some st /\ known_tls st /\ known_suite st /\ pr_local res <> None.

(* The result a context waits for: no context was asked for since. *)
Definition context_waits (V : bytes -> bool) (ops : list pop) (res : p_result) : Prop :=
  exists rest, latest V complete ops res rest /\ ~ In PContext rest.
(* The result protectors are made from. *)
Definition session (V : bytes -> bool) (ops : list pop) (res : p_result) : Prop :=
  exists rest, latest V with_state ops res rest.

(* The arguments for the frame protector made from a result that need not be
   complete. *)
Definition session_args (res : p_result) (a : fp_args) : Prop :=
  let c := fa_crypt a in
  fa_allocator a = true /\ fa_destroy a = true /\ fa_logger a = true /\
  exists st, pr_state res = Some st /\
  (known_tls st -> tls_number (ca_tls c) (pt_tls st)) /\ (~ known_tls st -> ca_tls c = TLS1_2) /\
  (known_tls st /\ known_suite st ->
     suite_number (ca_suite c) (pt_suite st) /\ ca_in_secret c = pt_in_key st /\ ca_out_secret c = pt_out_key st /\
     ca_in_seq c = pt_in_seq st /\ ca_out_seq c = pt_out_seq st /\
     match pr_local res with
     | Some p => ca_connection_id c = pt_conn st /\ meant (Some p) (ca_identity c)
     | None => ca_connection_id c = 0 /\ ca_identity c = empty_identity
     end) /\
  (~ (known_tls st /\ known_suite st) ->
     ca_suite c = AES_128_GCM_SHA256 /\ ca_in_secret c = [] /\ ca_out_secret c = [] /\ ca_in_seq c = 0 /\ ca_out_seq c = 0 /\
     ca_connection_id c = 0 /\ ca_identity c = empty_identity).
