(* Model of src/handshaker/s2a_util.cc: conversions between the enumerations
   and identities of S2AOptions and the protocol messages. An enum class value
   is one of its enumerators, so the default branches of the conversions to
   the protocol are unreachable. *)
From Coq Require Import List NArith Bool.
From Verif Require Import Base Aead Hkdf Options Wire.
Import ListNotations.
Local Open Scope N_scope.

(* ConvertTlsVersionToProto: 31-42; the enum values: common.upb.h 40-43. *)
Definition tls_to_proto (v : tls_version) : code + N :=
  match v with TLS1_2 => inr 0 | TLS1_3 => inr 1 end.

(* ConvertCiphersuiteToProto: 44-57; common.upb.h 34-38. *)
Definition suite_to_proto (s : suite) : code + N :=
  match s with
  | AES_128_GCM_SHA256 => inr 0
  | AES_256_GCM_SHA384 => inr 1
  | CHACHA20_POLY1305_SHA256 => inr 2
  end.

(* The switch over the identity type that fills a message (s2a_proxy.cc
   434-452 and six further places, s2a_upb_ticket_sender.cc 56-71, s2a_util.cc
   65-83); None is its default branch. upb_strview_makez() reads up to the
   first NUL. *)
Definition fill_identity (i : identity) : option p_identity :=
  match id_type_of i with
  | SPIFFE_ID => Some {| pi_id := IdSpiffe (c_str (id_string i)); pi_attrs := [] |}
  | HOSTNAME => Some {| pi_id := IdHostname (c_str (id_string i)); pi_attrs := [] |}
  | UID => Some {| pi_id := IdUid (c_str (id_string i)); pi_attrs := [] |}
  | NONE => None
  end.

(* ConvertIdentityToProto: 59-84. inr None is a null pointer. *)
Definition identity_to_proto (arena : bool) (i : identity) : code + option p_identity :=
  if arena then inr (fill_identity i) else inl kInvalidArgument.

(* ConvertFromProtoToTlsVersion: 86-97. The argument is the int32 field value
   cast to the enumeration; other values take the default branch. *)
Definition tls_from_proto (n : N) : code + tls_version :=
  match n with
  | 0 => inr TLS1_2
  | 1 => inr TLS1_3
  | _ => inl kFailedPrecondition
  end.

(* ConvertFromProtoToCiphersuite: 99-112. *)
Definition suite_from_proto (n : N) : code + suite :=
  match n with
  | 0 => inr AES_128_GCM_SHA256
  | 1 => inr AES_256_GCM_SHA384
  | 2 => inr CHACHA20_POLY1305_SHA256
  | _ => inl kFailedPrecondition
  end.

(* ConvertFromProtoToIdentity: 114-125; ParseUpbStrview (127-129) copies all
   bytes of the string. *)
Definition identity_from_proto (p : option p_identity) : identity :=
  match p with
  | Some {| pi_id := IdSpiffe s |} => from_spiffe_id s
  | Some {| pi_id := IdHostname s |} => from_hostname s
  | Some {| pi_id := IdUid s |} => from_uid s
  | _ => empty_identity
  end.
