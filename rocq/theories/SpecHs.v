(* Specification of post-handshake messages (RFC 8446 sections 4, 4.6):
   independent of how they are cut into records. *)
From Coq Require Import List NArith Bool.
From Verif Require Import Base.
Import ListNotations.
Local Open Scope N_scope.

(* A complete handshake message: type, 24-bit length, non-empty body of that
   length. *)
Definition hs_msg (m : bytes) : Prop :=
  exists t a b c body,
    m = t :: a :: b :: c :: body /\ bytes_ok m /\
    lenN body = a * 65536 + b * 256 + c /\ body <> [].

(* A proper prefix of a message (possibly empty). *)
Definition hs_partial (m : bytes) : Prop :=
  exists rest, rest <> [] /\ hs_msg (m ++ rest).

(* A header announcing an empty body. *)
Definition hs_zero (m : bytes) : Prop := exists t, m = [t; 0; 0; 0].

Definition has_type (t : N) (m : bytes) : bool :=
  match m with
  | [] => false
  | x :: _ => x =? t
  end.
Definition is_ticket : bytes -> bool := has_type 4.
Definition is_key_update : bytes -> bool := has_type 24.
Definition known (m : bytes) : Prop :=
  is_ticket m = true \/ is_key_update m = true.

Definition empty (b : bytes) : bool := match b with [] => true | _ => false end.

(* In one record, nothing follows a complete KeyUpdate. *)
Fixpoint key_update_last (ms : list bytes) (rest : bytes) : Prop :=
  match ms with
  | [] => True
  | m :: ms' =>
    (is_key_update m = true -> ms' = [] /\ rest = []) /\
    key_update_last ms' rest
  end.

(* The request_update field of the KeyUpdate that ends a list of messages; 255
   if the last message is none. *)
Fixpoint update_type (ms : list bytes) : N :=
  match ms with
  | [] => 255
  | [m] => if is_key_update m then nth 4 m 255 else 255
  | _ :: ms' => update_type ms'
  end.
