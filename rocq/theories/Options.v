(* Model of include/s2a_options.h and src/options/s2a_options.cc. *)
From Coq Require Import List NArith Bool.
From Verif Require Import Base Aead Hkdf.
Import ListNotations.
Local Open Scope N_scope.

(* TlsVersion, IdentityType: include/s2a_options.h 36-44. *)
Inductive tls_version := TLS1_2 | TLS1_3.
Inductive id_type := NONE | SPIFFE_ID | HOSTNAME | UID.

(* Identity: include/s2a_options.h 46-86. *)
Record identity := { id_type_of : id_type; id_string : bytes }.

(* The factory functions: s2a_options.cc 33-47. *)
Definition empty_identity : identity := {| id_type_of := NONE; id_string := [] |}.
Definition from_hostname (s : bytes) : identity :=
  {| id_type_of := HOSTNAME; id_string := s |}.
Definition from_spiffe_id (s : bytes) : identity :=
  {| id_type_of := SPIFFE_ID; id_string := s |}.
Definition from_uid (s : bytes) : identity :=
  {| id_type_of := UID; id_string := s |}.

Definition id_type_eqb (a b : id_type) : bool :=
  match a, b with
  | NONE, NONE | SPIFFE_ID, SPIFFE_ID | HOSTNAME, HOSTNAME | UID, UID => true
  | _, _ => false
  end.

(* operator==: s2a_options.cc 55-58. *)
Definition identity_eqb (a b : identity) : bool :=
  id_type_eqb (id_type_of a) (id_type_of b) &&
  bytes_eqb (id_string a) (id_string b).

(* GetIdentityCString: s2a_options.cc 62. What a reader of the returned C
   string sees: the bytes before the first NUL. *)
Fixpoint c_str (s : bytes) : bytes :=
  match s with
  | [] => []
  | b :: r => if b =? 0 then [] else b :: c_str r
  end.

(* absl::flat_hash_set<Identity>::insert. The set is represented by its
   elements in order of first insertion; the order in which the C++ container
   iterates is unspecified, see Proxy.v. *)
Definition set_mem (x : identity) (s : list identity) : bool :=
  existsb (identity_eqb x) s.
Definition set_insert (x : identity) (s : list identity) : list identity :=
  if set_mem x s then s else s ++ [x].

(* S2AOptions: include/s2a_options.h 134-140. *)
Record options := {
  o_min : tls_version;
  o_max : tls_version;
  o_address : bytes;
  o_suites : list suite;
  o_target : list identity;
  o_local : list identity
}.

(* Default member initialisers: include/s2a_options.h 135-140. *)
Definition default_options : options :=
  {| o_min := TLS1_3; o_max := TLS1_3; o_address := []; o_suites := [];
     o_target := []; o_local := [] |}.

(* The setters: s2a_options.cc 88-126. *)
Definition set_min_tls_version (v : tls_version) (o : options) : options :=
  {| o_min := v; o_max := o_max o; o_address := o_address o;
     o_suites := o_suites o; o_target := o_target o; o_local := o_local o |}.
Definition set_max_tls_version (v : tls_version) (o : options) : options :=
  {| o_min := o_min o; o_max := v; o_address := o_address o;
     o_suites := o_suites o; o_target := o_target o; o_local := o_local o |}.
Definition add_supported_ciphersuite (s : suite) (o : options) : options :=
  {| o_min := o_min o; o_max := o_max o; o_address := o_address o;
     o_suites := o_suites o ++ [s]; o_target := o_target o;
     o_local := o_local o |}.
Definition set_s2a_address (a : bytes) (o : options) : options :=
  {| o_min := o_min o; o_max := o_max o; o_address := a;
     o_suites := o_suites o; o_target := o_target o; o_local := o_local o |}.
Definition add_local (i : identity) (o : options) : options :=
  {| o_min := o_min o; o_max := o_max o; o_address := o_address o;
     o_suites := o_suites o; o_target := o_target o;
     o_local := set_insert i (o_local o) |}.
Definition add_target (i : identity) (o : options) : options :=
  {| o_min := o_min o; o_max := o_max o; o_address := o_address o;
     o_suites := o_suites o; o_target := set_insert i (o_target o);
     o_local := o_local o |}.
Definition add_local_spiffe_id s := add_local (from_spiffe_id s).
Definition add_local_hostname s := add_local (from_hostname s).
Definition add_local_uid s := add_local (from_uid s).
Definition add_target_spiffe_id s := add_target (from_spiffe_id s).
Definition add_target_hostname s := add_target (from_hostname s).
Definition add_target_uid s := add_target (from_uid s).

(* Copy: s2a_options.cc 128-139. *)
Definition options_copy (o : options) : options :=
  let n := set_s2a_address (o_address o)
             (set_max_tls_version (o_max o)
               (set_min_tls_version (o_min o) default_options)) in
  let n := {| o_min := o_min n; o_max := o_max n; o_address := o_address n;
              o_suites := o_suites n; o_target := o_target o;
              o_local := o_local o |} in
  fold_left (fun n s => add_supported_ciphersuite s n) (o_suites o) n.
