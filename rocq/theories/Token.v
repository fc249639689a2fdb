(* Model of src/token_manager/single_token_access_token_manager.cc. *)
From Coq Require Import List NArith Bool.
From Verif Require Import Base Aead Hkdf Options.
Import ListNotations.
Local Open Scope N_scope.

(* The value of the environment variable S2A_ACCESS_TOKEN, a C string. *)
Definition env := option bytes.

(* SingleTokenAccessTokenManager: .h 63; constructor: .cc 30-39. *)
Record single_token := { st_token : code + bytes }.
Definition single_token_new (e : env) : single_token :=
  match e with
  | None => {| st_token := inl kNotFound |}
  | Some t => {| st_token := inr (c_str t) |}
  end.

(* GetDefaultToken, GetToken: 41-48. *)
Definition get_default_token (m : single_token) : code + bytes := st_token m.
Definition get_token (m : single_token) (i : identity) : code + bytes := st_token m.

(* BuildAccessTokenManager: 54-57. *)
Definition build_access_token_manager (e : env) : code + single_token := inr (single_token_new e).

(* Histories: the environment changes, the manager is asked. *)
Inductive tevent := SetEnv (e : env) | AskToken (i : identity) | AskDefault.
Fixpoint trun (m : single_token) (e : env) (evs : list tevent) : list (code + bytes) :=
  match evs with
  | [] => []
  | SetEnv e' :: r => trun m e' r
  | AskToken i :: r => get_token m i :: trun m e r
  | AskDefault :: r => get_default_token m :: trun m e r
  end.
