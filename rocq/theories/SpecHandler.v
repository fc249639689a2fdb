(* Histories of one HandshakeMessageHandler, and what it has to answer. *)
From Coq Require Import List NArith Bool.
From Verif Require Import Base HsHandler SpecHs.
Import ListNotations.
Local Open Scope N_scope.

(* ProcessHandshakeMessage and GetStoredTickets
   (handshake_message_handler.cc 50-180). *)
Inductive hop := HRecord (c : iovec) | HTickets.
Inductive hres := HResult (x : code + hs_result) | HTaken (x : code + list bytes).
Definition hop_ok (op : hop) : Prop :=
  match op with HRecord (IoBuf c) => bytes_ok c | _ => True end.

(* The fragments of each ticket are joined. *)
Definition hstep (h : handler) (op : hop) : outcome (handler * hres) :=
  match op with
  | HRecord c => obind (process_handshake_message_ptr h c) (fun '(h', x) => Done (h', HResult x))
  | HTickets =>
    obind (get_stored_tickets h) (fun '(h', x) =>
      Done (h', HTaken (match x with inl c => inl c | inr ts => inr (map (@concat N) ts) end)))
  end.
Fixpoint hrun (h : handler) (ops : list hop) : outcome (handler * list hres) :=
  match ops with
  | [] => Done (h, [])
  | op :: ops' =>
    obind (hstep h op) (fun '(h, r) => obind (hrun h ops') (fun '(h, rs) => Done (h, r :: rs)))
  end.

(* The messages received, the bytes of the next one, whether the tickets were
   taken. *)
Record heard := { hd_msgs : list bytes; hd_part : bytes; hd_taken : bool }.
Definition nothing_heard : heard := {| hd_msgs := []; hd_part := []; hd_taken := false |}.

Definition tickets_in (d : heard) : N :=
  if hd_taken d then 0 else N.min 5 (lenN (filter is_ticket (hd_msgs d))).

(* [c] completes the messages [ms] and leaves [part]. *)
Definition record_parses (part0 c : bytes) (ms : list bytes) (part : bytes) : Prop :=
  part0 ++ c = concat ms ++ part /\ Forall hs_msg ms /\ hs_partial part /\
  Forall known ms /\ (part <> [] -> known part) /\ key_update_last ms part.
(* One of the messages (possibly not complete yet) of a record that is not
   empty. *)
Definition mentions (f : bytes -> bool) (c : bytes) (ms : list bytes) (part : bytes) : bool :=
  negb (empty c) && existsb f (ms ++ [part]).

Inductive hears : heard -> hop -> hres -> heard -> Prop :=
| HearNull : forall d n, hears d (HRecord (IoNull n)) (HResult (inl kInvalidArgument)) d
| HearRecord : forall d c ms part d', record_parses (hd_part d) c ms part ->
    d' = {| hd_msgs := hd_msgs d ++ ms; hd_part := part; hd_taken := hd_taken d |} ->
    hears d (HRecord (IoBuf c))
      (HResult (inr {| r_expecting := negb (empty part);
                       r_key_update := mentions is_key_update c ms part;
                       r_key_update_type := update_type ms;
                       r_ticket := mentions is_ticket c ms part;
                       r_num := tickets_in d' |})) d'
| HearRefused : forall d, hd_taken d = true \/ is_ticket (hd_part d) = true ->
    hears d HTickets (HTaken (inl kInternal)) d
| HearTickets : forall d, hd_taken d = false -> is_ticket (hd_part d) = false ->
    hears d HTickets (HTaken (inr (firstn 5 (filter is_ticket (hd_msgs d)))))
      {| hd_msgs := hd_msgs d; hd_part := hd_part d; hd_taken := true |}.

Inductive hears_all : heard -> list hop -> list hres -> heard -> Prop :=
| HearsNil : forall d, hears_all d [] [] d
| HearsCons : forall d op r d1 ops rs d2, hears d op r d1 -> hears_all d1 ops rs d2 ->
    hears_all d (op :: ops) (r :: rs) d2.

(* After complete tickets: a message of unknown type, or a KeyUpdate with
   something behind it; or a message without body. *)
Definition unreadable (s : bytes) : Prop :=
  exists ms m rest, s = concat ms ++ m ++ rest /\ Forall hs_msg ms /\ Forall (fun m => is_ticket m = true) ms /\
    ((m <> [] /\ ~ known m) \/ (hs_msg m /\ is_key_update m = true /\ rest <> [])).
Definition bodiless (s : bytes) : Prop :=
  exists ms z rest, s = concat ms ++ z ++ rest /\ Forall hs_msg ms /\ Forall (fun m => is_ticket m = true) ms /\
    hs_zero z /\ known z.
