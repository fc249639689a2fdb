(* The handshake message handler on its own: C64. *)
From Coq Require Import List NArith Bool.
From Verif Require Import Base HsHandler SpecHs SpecRx SpecHandler HsHistory.
Import ListNotations.
Local Open Scope N_scope.

(* C64. [hears_all] (SpecHandler.v) is the reference: which messages were
   received, and what has to be answered. [rs] are the answers. *)
Theorem C64_results : forall ops rs d, Forall hop_ok ops -> hears_all nothing_heard ops rs d ->
  exists h, hrun new_handler ops = Done (h, rs).
Proof. exact H64. Qed.
Print Assumptions C64_results.

(* Every record is read, unreadable, or has a message without body. *)
Theorem C64_records : forall ops rs d c, Forall hop_ok ops -> hears_all nothing_heard ops rs d -> bytes_ok c ->
  (exists r d', hears d (HRecord (IoBuf c)) r d') \/ unreadable (hd_part d ++ c) \/ bodiless (hd_part d ++ c).
Proof. exact H64all. Qed.
Print Assumptions C64_records.

Theorem C64_unreadable : forall ops rs d c, Forall hop_ok ops -> hears_all nothing_heard ops rs d -> bytes_ok c ->
  unreadable (hd_part d ++ c) ->
  exists h h', hrun new_handler ops = Done (h, rs) /\ hstep h (HRecord (IoBuf c)) = Done (h', HResult (inl kInternal)).
Proof. exact H64err. Qed.
Print Assumptions C64_unreadable.

(* A message without body is never refused; see C22 for the undefined
   behaviour. *)
Theorem C64_bodiless : forall ops rs d c, Forall hop_ok ops -> hears_all nothing_heard ops rs d -> bytes_ok c ->
  bodiless (hd_part d ++ c) ->
  exists h, hrun new_handler ops = Done (h, rs) /\
    ((exists h' r, hstep h (HRecord (IoBuf c)) = Done (h', HResult (inr r))) \/ hstep h (HRecord (IoBuf c)) = Undef UbNegativeShift) /\
    (hstep h (HRecord (IoBuf c)) = Undef UbNegativeShift <-> fatal (hd_part d ++ c)).
Proof. exact H64bodiless. Qed.
Print Assumptions C64_bodiless.

(* A ticket in two records, the tickets refused in between; a KeyUpdate with
   request_update 1 behind a second ticket; the tickets handed out. *)
Ltac message := do 5 eexists; (split; [reflexivity|]); (split; [repeat constructor|]); split; [reflexivity|discriminate].
Definition ticket1 : bytes := [4; 0; 0; 2; 7; 8].
Definition update1 : bytes := [24; 0; 0; 1; 1].
Definition handler_ops : list hop :=
  [HRecord (IoBuf [4; 0; 0; 2; 7]); HTickets; HRecord (IoBuf ([8] ++ ticket1 ++ update1)); HTickets; HTickets; HRecord (IoNull 3)].
Definition handler_results : list hres :=
  [HResult (inr {| r_expecting := true; r_key_update := false; r_key_update_type := 255; r_ticket := true; r_num := 0 |});
   HTaken (inl kInternal);
   HResult (inr {| r_expecting := false; r_key_update := true; r_key_update_type := 1; r_ticket := true; r_num := 2 |});
   HTaken (inr [ticket1; ticket1]); HTaken (inl kInternal); HResult (inl kInvalidArgument)].
Example C64_case : Forall hop_ok handler_ops /\
  exists d, hears_all nothing_heard handler_ops handler_results d /\
    (exists h, hrun new_handler handler_ops = Done (h, handler_results)) /\
    unreadable (hd_part d ++ [8; 0]) /\ unreadable (hd_part d ++ update1 ++ [4]) /\ bodiless (hd_part d ++ [4; 0; 0; 0]).
Proof.
  split; [repeat constructor|]. eexists. split; [|split; [eexists; vm_compute; reflexivity|]].
  - eapply HearsCons.
    { eapply (HearRecord nothing_heard [4; 0; 0; 2; 7] [] [4; 0; 0; 2; 7] {| hd_msgs := []; hd_part := [4; 0; 0; 2; 7]; hd_taken := false |}); [|reflexivity]. split; [reflexivity|]. split; [constructor|].
      split; [exists [8]; split; [discriminate|]; message|].
      split; [constructor|]. split; [left; reflexivity|exact I]. }
    eapply HearsCons; [apply HearRefused; right; reflexivity|]. eapply HearsCons.
    { eapply (HearRecord {| hd_msgs := []; hd_part := [4; 0; 0; 2; 7]; hd_taken := false |} ([8] ++ ticket1 ++ update1) [ticket1; ticket1; update1] [] {| hd_msgs := [ticket1; ticket1; update1]; hd_part := []; hd_taken := false |}); [|reflexivity]. split; [reflexivity|]. split; [repeat (apply Forall_cons; [message|]); apply Forall_nil|].
      split; [exists ticket1; split; [discriminate|]; message|].
      split; [repeat (apply Forall_cons; [(left; reflexivity) || (right; reflexivity)|]); apply Forall_nil|]. split; [intro K; contradiction|].
      cbn. repeat split; discriminate || auto. }
    eapply HearsCons; [apply HearTickets; reflexivity|]. eapply HearsCons; [apply HearRefused; left; reflexivity|].
    eapply HearsCons; [apply HearNull|]. apply HearsNil.
  - cbn [hd_part app]. split; [|split].
    + exists [], [8; 0], []. split; [reflexivity|]. split; [constructor|]. split; [constructor|]. left. split; [discriminate|]. intros [K|K]; discriminate.
    + exists [], update1, [4]. split; [reflexivity|]. split; [constructor|]. split; [constructor|]. right.
      split; [message|]. split; [reflexivity|discriminate].
    + exists [], [4; 0; 0; 0], []. split; [reflexivity|]. split; [constructor|]. split; [constructor|]. split; [exists 4; reflexivity|left; reflexivity].
Qed.
