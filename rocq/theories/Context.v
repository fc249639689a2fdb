(* Model of include/s2a_context.h and src/handshaker/s2a_context.cc. *)
From Coq Require Import List NArith Bool.
From Verif Require Import Base Aead Hkdf Options Wire Util.
Import ListNotations.
Local Open Scope N_scope.

(* S2AContext: include/s2a_context.h 75-83. *)
Record s2a_context := {
  x_protocol : bytes;
  x_tls : tls_version;
  x_suite : suite;
  x_peer : identity;
  x_local : identity;
  x_peer_fp : bytes;
  x_local_fp : bytes;
  x_resumed : bool
}.

(* GetSerializedContext: s2a_context.cc 73-159. The arena is never null;
   serialization fails only if memory runs out. A null identity sets the
   hasbit, but upb's encoder writes nothing for a null submessage. The strings
   pass through upb_strview_makez(). *)
Definition get_serialized_context (c : s2a_context) : code + bytes :=
  match tls_to_proto (x_tls c) with
  | inl st => inl st
  | inr tls =>
    match suite_to_proto (x_suite c) with
    | inl st => inl st
    | inr su =>
      match identity_to_proto true (x_peer c) with
      | inl st => inl st
      | inr peer =>
        match identity_to_proto true (x_local c) with
        | inl st => inl st
        | inr local =>
          inr (enc_context
            {| pcx_protocol := c_str (x_protocol c); pcx_tls := tls; pcx_suite := su;
               pcx_peer := peer; pcx_local := local; pcx_peer_fp := c_str (x_peer_fp c);
               pcx_local_fp := c_str (x_local_fp c); pcx_resumed := x_resumed c |})
        end
      end
    end
  end.

(* GetS2AContextFromSerializedContext: 161-211. *)
Definition context_from_serialized (V : bytes -> bool) (b : bytes) : code + s2a_context :=
  match parse_context V b with
  | None => inl kInternal
  | Some m =>
    match tls_from_proto (pcx_tls m) with
    | inl st => inl st
    | inr tls =>
      match suite_from_proto (pcx_suite m) with
      | inl st => inl st
      | inr su =>
        inr {| x_protocol := pcx_protocol m; x_tls := tls; x_suite := su;
               x_peer := identity_from_proto (pcx_peer m);
               x_local := identity_from_proto (pcx_local m);
               x_peer_fp := pcx_peer_fp m; x_local_fp := pcx_local_fp m;
               x_resumed := pcx_resumed m |}
      end
    end
  end.
