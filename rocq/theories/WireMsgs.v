(* Every message is parsed back from its serialization. *)
From Coq Require Import List NArith ZArith Bool Lia ZifyBool ZifyNat ZifyN.
From Verif Require Import Base BaseProofs Wire SpecWire WireProofs.
Import ListNotations.
Local Open Scope N_scope.

Definition shape (fs : list wfield) : Prop :=
  Forall (fun f => 0 < fst f < 536870912 /\
    match snd f with WVarint n => n < two64 | WLen _ => True | _ => False end) fs.

Lemma shape_app : forall a b, shape a -> shape b -> shape (a ++ b).
Proof. intros a b H K. apply Forall_app. split; assumption. Qed.

Lemma shape_nil : shape [].
Proof. constructor. Qed.

Lemma shape_len : forall num s, (0 <? num) && (num <? 536870912) = true -> shape [(num, WLen s)].
Proof. intros. constructor; [|constructor]. cbn [fst snd]. split; [lia|exact I]. Qed.

Lemma shape_uint : forall num n, (0 <? num) && (num <? 536870912) = true -> n < two64 -> shape (f_uint num n).
Proof. intros num n H K. unfold f_uint. destruct (n =? 0); [constructor|]. constructor; [|constructor]. cbn [fst snd]. split; [lia|exact K]. Qed.

Lemma shape_enum : forall num n, (0 <? num) && (num <? 536870912) = true -> n < two32 -> shape (f_enum num n).
Proof. intros num n H K. apply shape_uint; [exact H|]. apply sign_small. exact K. Qed.

Lemma shape_bool : forall num b, (0 <? num) && (num <? 536870912) = true -> shape (f_bool num b).
Proof. intros num [] H; [|constructor]. constructor; [|constructor]. cbn [fst snd]. split; [lia|reflexivity]. Qed.

Lemma shape_str : forall num s, (0 <? num) && (num <? 536870912) = true -> shape (f_str num s).
Proof. intros num [|b s] H; [constructor|]. apply shape_len. exact H. Qed.

Lemma shape_opt : forall num s, (0 <? num) && (num <? 536870912) = true -> shape (f_opt num s).
Proof. intros num [s|] H; [|constructor]. apply shape_len. exact H. Qed.

Lemma shape_rep : forall num l, (0 <? num) && (num <? 536870912) = true -> shape (f_rep num l).
Proof. intros num l H. unfold f_rep. induction l; [constructor|]. constructor; [|exact IHl]. cbn [fst snd]. split; [lia|exact I]. Qed.

Lemma shape_packed : forall num l, (0 <? num) && (num <? 536870912) = true -> shape (f_packed num l).
Proof. intros num [|n l] H; [constructor|]. apply shape_len. exact H. Qed.

Ltac shapes := repeat first
  [ apply shape_app | apply shape_nil | apply shape_len; reflexivity | apply shape_uint; [reflexivity|assumption]
  | apply shape_enum; [reflexivity|assumption] | apply shape_bool; reflexivity | apply shape_str; reflexivity
  | apply shape_opt; reflexivity | apply shape_rep; reflexivity | apply shape_packed; reflexivity ].

Lemma dec_shape : forall fs, shape fs -> lenN (enc_fields fs) < int32_max -> dec_fields (enc_fields fs) = Some fs.
Proof.
  intros fs H L. apply dec_enc_fields. unfold shape in H. rewrite Forall_forall in *. intros [num v] I.
  specialize (H _ I). cbn [fst snd] in *. destruct H as [H1 H2]. split; [exact H1|]. cbn [fst snd].
  destruct v; try contradiction; [exact H2|]. apply enc_fields_In in I. lia.
Qed.

Lemma parse_shape : forall A (step : A -> wfield -> option A) m fs, shape fs -> lenN (enc_fields fs) < int32_max ->
  parse_into step m (enc_fields fs) = fold_fields step m fs.
Proof. intros A step m fs H L. unfold parse_into. rewrite dec_shape by assumption. reflexivity. Qed.

Lemma fold_rep_id : forall A (step : A -> wfield -> option A) num (put : list bytes -> A) l acc,
  (forall acc x, In x l -> step (put acc) (num, WLen x) = Some (put (acc ++ [x]))) ->
  fold_fields step (put acc) (f_rep num l) = Some (put (acc ++ l)).
Proof.
  intros A step num put l acc H. rewrite <- (fold_rep A bytes step num put (fun x => x) l acc H).
  rewrite map_id. reflexivity.
Qed.

(* The size of the parts. *)
Lemma rep_In : forall num l b, In b l -> In (num, WLen b) (f_rep num l).
Proof. intros num l b H. unfold f_rep. apply in_map_iff. exists b. auto. Qed.

Lemma rep_small : forall A (e : A -> bytes) num (l : list A) x pre post,
  lenN (enc_fields (pre ++ f_rep num (map e l) ++ post)) < int32_max -> In x l -> lenN (e x) < int32_max.
Proof.
  intros A e num l x pre post L H. assert (I : In (num, WLen (e x)) (pre ++ f_rep num (map e l) ++ post)).
  { apply in_or_app. right. apply in_or_app. left. apply rep_In. apply in_map. exact H. }
  apply enc_fields_In in I. lia.
Qed.

Lemma opt_small : forall A (e : A -> bytes) num x pre post,
  lenN (enc_fields (pre ++ f_opt num (option_map e (Some x)) ++ post)) < int32_max -> lenN (e x) < int32_max.
Proof.
  intros A e num x pre post L. assert (I : In (num, WLen (e x)) (pre ++ f_opt num (option_map e (Some x)) ++ post)).
  { apply in_or_app. right. apply in_or_app. left. left. reflexivity. }
  apply enc_fields_In in I. lia.
Qed.

Lemma in_small : forall num b fs, In (num, WLen b) fs -> lenN (enc_fields fs) < int32_max -> lenN b < int32_max.
Proof. intros num b fs I L. apply enc_fields_In in I. lia. Qed.

(* In a list of fields built with ++. *)
Ltac find_field := repeat first
  [ apply in_or_app; left; solve [find_field] | apply in_or_app; right; solve [find_field] | left; reflexivity
  | apply rep_In; apply in_map; assumption | assumption ].

(* ---- Identity ---- *)
Lemma rt_entry : forall V e, text V (fst e) /\ text V (snd e) -> lenN (enc_entry e) < int32_max ->
  parse_into (entry_step V) ([], []) (enc_entry e) = Some e.
Proof.
  intros V [k v] [Hk Hv] L. unfold enc_entry in *. cbn [fst snd] in *. rewrite parse_shape by (shapes || assumption).
  cbn [app fold_fields entry_step fst snd]. unfold text in *. rewrite Hk, Hv. reflexivity.
Qed.

Lemma rt_identity : forall V m, valid_identity V m -> lenN (enc_identity m) < int32_max ->
  parse_into (identity_step V) p_identity_new (enc_identity m) = Some m.
Proof.
  intros V [id attrs] [Hid Hat] L. unfold enc_identity in *. cbn [pi_id pi_attrs] in *.
  rewrite parse_shape; [|destruct id; shapes|exact L].
  rewrite fold_app.
  match goal with |- match ?X with _ => _ end = _ => assert (E1 : X =
     Some {| pi_id := match id with IdUid _ => IdNone | _ => id end; pi_attrs := [] |}) end.
  { destruct id; cbn [fold_fields identity_step p_identity_new pi_attrs]; unfold valid_id, text in Hid; rewrite ?Hid; reflexivity. }
  rewrite E1, fold_app.
  rewrite (fold_rep _ _ (identity_step V) 3 (fun l => {| pi_id := match id with IdUid _ => IdNone | _ => id end; pi_attrs := l |}) enc_entry attrs []).
  - destruct id; cbn [fold_fields identity_step p_identity_new pi_attrs app]; unfold valid_id, text in Hid; rewrite ?Hid; reflexivity.
  - intros acc x I. cbn [identity_step pi_attrs pi_id]. rewrite rt_entry; [reflexivity| |].
    + rewrite Forall_forall in Hat. apply Hat. exact I.
    + eapply rep_small; eauto.
Qed.

Lemma rt_merge_identity : forall V m, valid_identity V m -> lenN (enc_identity m) < int32_max ->
  merge (identity_step V) p_identity_new None (enc_identity m) = Some m.
Proof. intros. apply rt_identity; assumption. Qed.

(* ---- AuthenticationMechanism ---- *)
Lemma rt_auth : forall V m, valid_auth V m -> lenN (enc_auth m) < int32_max ->
  parse_into (auth_step V) p_auth_new (enc_auth m) = Some m.
Proof.
  intros V [i t] [Hi Ht] L. unfold enc_auth in *. cbn [pa_identity pa_token] in *.
  rewrite parse_shape; [|shapes|exact L]. rewrite fold_app.
  rewrite (fold_opt _ _ _ {| pa_identity := i; pa_token := None |}).
  - apply fold_opt. destruct t as [t|]; [|reflexivity]. cbn [auth_step pa_identity opt_all] in *. unfold text in Ht. rewrite Ht. reflexivity.
  - destruct i as [i|]; [|reflexivity]. cbn [option_map auth_step p_auth_new pa_identity pa_token].
    rewrite rt_merge_identity; [reflexivity|exact Hi|]. apply (opt_small _ enc_identity 1 i []) in L. exact L.
Qed.

(* ---- SessionNextReq ---- *)
Lemma rt_next : forall b, lenN (enc_next b) < int32_max -> parse_into next_step [] (enc_next b) = Some b.
Proof.
  intros b L. unfold enc_next in *. rewrite parse_shape; [|shapes|exact L]. apply fold_str; intros; [reflexivity|congruence].
Qed.

(* ---- ResumptionTicketReq ---- *)
Lemma rt_ticket : forall V m, valid_ticket V m -> lenN (enc_ticket m) < int32_max ->
  parse_into (ticket_step V) p_ticket_new (enc_ticket m) = Some m.
Proof.
  intros V [ts c l] [Hc Hl] L. unfold enc_ticket in *. cbn [pt_in_bytes pt_connection_id pt_local] in *.
  rewrite parse_shape; [|shapes|exact L]. unfold p_ticket_new, p_client_new, p_server_new. rewrite fold_app.
  rewrite (fold_rep_id _ (ticket_step V) 1 (fun x => {| pt_in_bytes := x; pt_connection_id := 0; pt_local := None |}) ts [] ).
  2: { intros acc x I. reflexivity. }
  rewrite fold_app. cbn [app].
  rewrite (fold_uint _ _ _ {| pt_in_bytes := ts; pt_connection_id := c; pt_local := None |}); [|reflexivity|intros ->; reflexivity].
  apply fold_opt. destruct l as [l|]; [|reflexivity]. cbn [option_map ticket_step pt_in_bytes pt_connection_id pt_local].
  rewrite rt_merge_identity; [reflexivity|exact Hl|].
  eapply in_small; [|exact L]. cbn [option_map f_opt]. find_field.
Qed.

(* ---- ClientSessionStartReq ---- *)
Lemma rt_client : forall V m, valid_client V m -> lenN (enc_client m) < int32_max ->
  parse_into (client_step V) p_client_new (enc_client m) = Some m.
Proof.
  intros V [ps mn mx su tg lo nm] (H1 & H2 & H3 & H4 & H5 & H6 & H7) L. unfold enc_client in *.
  cbn [pc_protocols pc_min pc_max pc_suites pc_targets pc_local pc_target_name] in *.
  rewrite parse_shape; [|shapes|exact L]. unfold p_ticket_new, p_client_new, p_server_new. rewrite fold_app.
  rewrite (fold_rep_id _ (client_step V) 1 (fun x => {| pc_protocols := x; pc_min := 0; pc_max := 0; pc_suites := [];
    pc_targets := []; pc_local := None; pc_target_name := [] |}) ps []).
  2: { intros acc x I. rewrite Forall_forall in H1. specialize (H1 _ I). cbn [client_step]. unfold text in H1. rewrite H1. reflexivity. }
  cbn [app]. rewrite fold_app.
  rewrite (fold_enum _ _ _ {| pc_protocols := ps; pc_min := mn; pc_max := 0; pc_suites := []; pc_targets := []; pc_local := None; pc_target_name := [] |});
    [|exact H2|intros x <-; reflexivity|intros ->; reflexivity].
  rewrite fold_app.
  rewrite (fold_enum _ _ _ {| pc_protocols := ps; pc_min := mn; pc_max := mx; pc_suites := []; pc_targets := []; pc_local := None; pc_target_name := [] |});
    [|exact H3|intros x <-; reflexivity|intros ->; reflexivity].
  rewrite fold_app.
  rewrite (fold_packed _ _ _ {| pc_protocols := ps; pc_min := mn; pc_max := mx; pc_suites := su; pc_targets := []; pc_local := None; pc_target_name := [] |});
    [|exact H4|intros b Eb; cbn [client_step]; rewrite Eb; reflexivity|intros ->; reflexivity].
  rewrite fold_app.
  rewrite (fold_rep _ _ (client_step V) 5 (fun x => {| pc_protocols := ps; pc_min := mn; pc_max := mx; pc_suites := su;
    pc_targets := x; pc_local := None; pc_target_name := [] |}) enc_identity tg []).
  2: { intros acc x I. rewrite Forall_forall in H5. specialize (H5 _ I). cbn [client_step].
       rewrite rt_identity; [reflexivity|exact H5|]. eapply in_small; [|exact L]. find_field. }
  cbn [app]. rewrite fold_app.
  rewrite (fold_opt _ _ _ {| pc_protocols := ps; pc_min := mn; pc_max := mx; pc_suites := su; pc_targets := tg; pc_local := lo; pc_target_name := [] |}).
  2: { destruct lo as [i|]; [|reflexivity]. cbn [option_map client_step]. rewrite rt_merge_identity; [reflexivity|exact H6|].
       eapply in_small; [|exact L]. cbn [option_map f_opt]. find_field. }
  apply fold_str; [|intros ->; reflexivity]. intros _. cbn [client_step]. unfold text in H7. rewrite H7. reflexivity.
Qed.

(* ---- ServerSessionStartReq ---- *)
Lemma rt_server : forall V m, valid_server V m -> lenN (enc_server m) < int32_max ->
  parse_into (server_step V) p_server_new (enc_server m) = Some m.
Proof.
  intros V [ps mn mx su lo ib] (H1 & H2 & H3 & H4 & H5) L. unfold enc_server in *.
  cbn [ps_protocols ps_min ps_max ps_suites ps_locals ps_in_bytes] in *.
  rewrite parse_shape; [|shapes|exact L]. unfold p_ticket_new, p_client_new, p_server_new. rewrite fold_app.
  rewrite (fold_rep_id _ (server_step V) 1 (fun x => {| ps_protocols := x; ps_min := 0; ps_max := 0; ps_suites := [];
    ps_locals := []; ps_in_bytes := [] |}) ps []).
  2: { intros acc x I. rewrite Forall_forall in H1. specialize (H1 _ I). cbn [server_step]. unfold text in H1. rewrite H1. reflexivity. }
  cbn [app]. rewrite fold_app.
  rewrite (fold_enum _ _ _ {| ps_protocols := ps; ps_min := mn; ps_max := 0; ps_suites := []; ps_locals := []; ps_in_bytes := [] |});
    [|exact H2|intros x <-; reflexivity|intros ->; reflexivity].
  rewrite fold_app.
  rewrite (fold_enum _ _ _ {| ps_protocols := ps; ps_min := mn; ps_max := mx; ps_suites := []; ps_locals := []; ps_in_bytes := [] |});
    [|exact H3|intros x <-; reflexivity|intros ->; reflexivity].
  rewrite fold_app.
  rewrite (fold_packed _ _ _ {| ps_protocols := ps; ps_min := mn; ps_max := mx; ps_suites := su; ps_locals := []; ps_in_bytes := [] |});
    [|exact H4|intros b Eb; cbn [server_step]; rewrite Eb; reflexivity|intros ->; reflexivity].
  rewrite fold_app.
  rewrite (fold_rep _ _ (server_step V) 5 (fun x => {| ps_protocols := ps; ps_min := mn; ps_max := mx; ps_suites := su;
    ps_locals := x; ps_in_bytes := [] |}) enc_identity lo []).
  2: { intros acc x I. rewrite Forall_forall in H5. specialize (H5 _ I). cbn [server_step].
       rewrite rt_identity; [reflexivity|exact H5|]. eapply in_small; [|exact L]. find_field. }
  cbn [app]. apply fold_str; [|intros ->; reflexivity]. intros _. reflexivity.
Qed.

(* ---- SessionReq ---- *)
Lemma rt_req : forall V m, valid_req V m -> lenN (enc_req m) < int32_max -> parse_req V (enc_req m) = Some m.
Proof.
  intros V [o au] [Ho Ha] L. unfold parse_req, enc_req in *. cbn [rq_oneof rq_auth] in *.
  rewrite parse_shape; [|destruct o; shapes|exact L]. rewrite fold_app.
  match goal with |- match ?X with _ => _ end = _ => assert (E : X = Some {| rq_oneof := o; rq_auth := [] |}) end.
  { destruct o; cbn [fold_fields req_step p_req_new rq_oneof rq_auth]; [reflexivity| | | |].
    - rewrite rt_client; [reflexivity|exact Ho|]. eapply in_small; [|exact L]. left. reflexivity.
    - rewrite rt_server; [reflexivity|exact Ho|]. eapply in_small; [|exact L]. left. reflexivity.
    - rewrite rt_next; [reflexivity|]. eapply in_small; [|exact L]. left. reflexivity.
    - rewrite rt_ticket; [reflexivity|exact Ho|]. eapply in_small; [|exact L]. left. reflexivity. }
  rewrite E.
  rewrite (fold_rep _ _ (req_step V) 5 (fun x => {| rq_oneof := o; rq_auth := x |}) enc_auth au []); [reflexivity|].
  intros acc x I. cbn [req_step rq_oneof rq_auth]. rewrite rt_auth; [reflexivity| |].
  - rewrite Forall_forall in Ha. apply Ha. exact I.
  - eapply in_small; [|exact L]. apply in_or_app. right. apply rep_In. apply in_map. exact I.
Qed.

(* ---- SessionState, SessionResult, SessionStatus, SessionResp ---- *)
Lemma rt_state : forall m, valid_state m -> lenN (enc_state m) < int32_max ->
  parse_into state_step p_state_new (enc_state m) = Some m.
Proof.
  intros [a b c d e g h i j k] (H1 & H2 & H3 & H4 & H5) L. unfold enc_state in *.
  cbn [pt_tls pt_suite pt_in_seq pt_out_seq pt_in_key pt_out_key pt_in_nonce pt_out_nonce pt_conn pt_resumed] in *.
  rewrite parse_shape; [|shapes|exact L]. unfold p_state_new. rewrite fold_app.
  erewrite fold_enum; [|exact H1|intros x E; cbn [state_step]; rewrite E; reflexivity|intros ->; reflexivity]. rewrite fold_app.
  erewrite fold_enum; [|exact H2|intros x E; cbn [state_step]; rewrite E; reflexivity|intros ->; reflexivity]. rewrite fold_app.
  erewrite fold_uint; [|reflexivity|intros ->; reflexivity]. rewrite fold_app.
  erewrite fold_uint; [|reflexivity|intros ->; reflexivity]. rewrite fold_app.
  erewrite fold_str; [|intros _; reflexivity|intros ->; reflexivity]. rewrite fold_app.
  erewrite fold_str; [|intros _; reflexivity|intros ->; reflexivity]. rewrite fold_app.
  erewrite fold_str; [|intros _; reflexivity|intros ->; reflexivity]. rewrite fold_app.
  erewrite fold_str; [|intros _; reflexivity|intros ->; reflexivity]. rewrite fold_app.
  erewrite fold_uint; [|reflexivity|intros ->; reflexivity].
  apply fold_bool; intros ->; reflexivity.
Qed.

Lemma rt_status : forall V m, valid_status V m -> lenN (enc_status m) < int32_max ->
  parse_into (status_step V) p_status_new (enc_status m) = Some m.
Proof.
  intros V [c d] [H1 H2] L. unfold enc_status in *. cbn [pst_code pst_details] in *.
  rewrite parse_shape; [|shapes; apply shape_uint; [reflexivity|unfold two32, two64 in *; lia]|exact L].
  rewrite fold_app. erewrite (fold_uint _ _ _ {| pst_code := c; pst_details := [] |}).
  - apply fold_str; [|intros ->; reflexivity]. intros _. cbn [status_step pst_code]. unfold text in H2. rewrite H2. reflexivity.
  - cbn [status_step]. rewrite N.mod_small by exact H1. reflexivity.
  - intros ->. reflexivity.
Qed.

Lemma rt_result : forall V m, valid_result V m -> lenN (enc_result m) < int32_max ->
  parse_into (result_step V) p_result_new (enc_result m) = Some m.
Proof.
  intros V [a b c d e g] (H1 & H2 & H3 & H4) L. unfold enc_result in *.
  cbn [pr_protocol pr_state pr_peer pr_local pr_local_fp pr_peer_fp] in *.
  rewrite parse_shape; [|shapes|exact L]. unfold p_result_new. rewrite fold_app.
  rewrite (fold_str _ _ _ {| pr_protocol := a; pr_state := None; pr_peer := None; pr_local := None; pr_local_fp := []; pr_peer_fp := [] |});
    [|intros _; cbn [result_step]; unfold text in H1; rewrite H1; reflexivity|intros ->; reflexivity].
  rewrite fold_app. rewrite (fold_opt _ _ _ {| pr_protocol := a; pr_state := b; pr_peer := None; pr_local := None; pr_local_fp := []; pr_peer_fp := [] |}).
  2: { destruct b as [b|]; [|reflexivity]. cbn [option_map result_step]. unfold merge. rewrite rt_state; [reflexivity|exact H2|].
       eapply in_small; [|exact L]. cbn [option_map f_opt]. find_field. }
  rewrite fold_app. rewrite (fold_opt _ _ _ {| pr_protocol := a; pr_state := b; pr_peer := c; pr_local := None; pr_local_fp := []; pr_peer_fp := [] |}).
  2: { destruct c as [c|]; [|reflexivity]. cbn [option_map result_step]. rewrite rt_merge_identity; [reflexivity|exact H3|].
       eapply in_small; [|exact L]. cbn [option_map f_opt]. find_field. }
  rewrite fold_app. rewrite (fold_opt _ _ _ {| pr_protocol := a; pr_state := b; pr_peer := c; pr_local := d; pr_local_fp := []; pr_peer_fp := [] |}).
  2: { destruct d as [d|]; [|reflexivity]. cbn [option_map result_step]. rewrite rt_merge_identity; [reflexivity|exact H4|].
       eapply in_small; [|exact L]. cbn [option_map f_opt]. find_field. }
  rewrite fold_app. erewrite fold_str; [|intros _; reflexivity|intros ->; reflexivity].
  apply fold_str; [|intros ->; reflexivity]. reflexivity.
Qed.

Lemma rt_resp : forall V m, valid_resp V m -> lenN (enc_resp m) < int32_max -> parse_resp V (enc_resp m) = Some m.
Proof.
  intros V [a b c d e] (H1 & H2 & H3 & H4) L. unfold parse_resp, enc_resp in *.
  cbn [rs_local rs_out_frames rs_consumed rs_result rs_status] in *.
  rewrite parse_shape; [|shapes; apply shape_uint; [reflexivity|unfold two32, two64 in *; lia]|exact L].
  unfold p_resp_new. rewrite fold_app.
  rewrite (fold_opt _ _ _ {| rs_local := a; rs_out_frames := []; rs_consumed := 0; rs_result := None; rs_status := None |}).
  2: { destruct a as [a|]; [|reflexivity]. cbn [option_map resp_step]. rewrite rt_merge_identity; [reflexivity|exact H1|].
       eapply in_small; [|exact L]. cbn [option_map f_opt]. find_field. }
  rewrite fold_app. erewrite fold_str; [|intros _; reflexivity|intros ->; reflexivity].
  rewrite fold_app. rewrite (fold_uint _ _ _ {| rs_local := a; rs_out_frames := b; rs_consumed := c; rs_result := None; rs_status := None |});
    [|cbn [resp_step]; rewrite N.mod_small by exact H2; reflexivity|intros ->; reflexivity].
  rewrite fold_app. rewrite (fold_opt _ _ _ {| rs_local := a; rs_out_frames := b; rs_consumed := c; rs_result := d; rs_status := None |}).
  2: { destruct d as [d|]; [|reflexivity]. cbn [option_map resp_step]. unfold merge. rewrite rt_result; [reflexivity|exact H3|].
       eapply in_small; [|exact L]. cbn [option_map f_opt]. find_field. }
  apply fold_opt. destruct e as [e|]; [|reflexivity]. cbn [option_map resp_step]. unfold merge. rewrite rt_status; [reflexivity|exact H4|].
  eapply in_small; [|exact L]. cbn [option_map f_opt]. find_field.
Qed.

(* ---- S2AContext ---- *)
Lemma rt_context : forall V m, valid_context V m -> lenN (enc_context m) < int32_max -> parse_context V (enc_context m) = Some m.
Proof.
  intros V [a b c d e g h k] (H1 & H2 & H3 & H4 & H5) L. unfold parse_context, enc_context in *.
  cbn [pcx_protocol pcx_tls pcx_suite pcx_peer pcx_local pcx_peer_fp pcx_local_fp pcx_resumed] in *.
  rewrite parse_shape; [|shapes|exact L]. unfold p_context_new. rewrite fold_app.
  rewrite (fold_str _ _ _ {| pcx_protocol := a; pcx_tls := 0; pcx_suite := 0; pcx_peer := None; pcx_local := None; pcx_peer_fp := []; pcx_local_fp := []; pcx_resumed := false |});
    [|intros _; cbn [context_step]; unfold text in H1; rewrite H1; reflexivity|intros ->; reflexivity].
  rewrite fold_app. erewrite fold_enum; [|exact H2|intros x E; cbn [context_step]; rewrite E; reflexivity|intros ->; reflexivity].
  rewrite fold_app. erewrite fold_enum; [|exact H3|intros x E; cbn [context_step]; rewrite E; reflexivity|intros ->; reflexivity].
  rewrite fold_app. rewrite (fold_opt _ _ _ {| pcx_protocol := a; pcx_tls := b; pcx_suite := c; pcx_peer := d; pcx_local := None; pcx_peer_fp := []; pcx_local_fp := []; pcx_resumed := false |}).
  2: { destruct d as [d|]; [|reflexivity]. cbn [option_map context_step]. rewrite rt_merge_identity; [reflexivity|exact H4|].
       eapply in_small; [|exact L]. cbn [option_map f_opt]. find_field. }
  rewrite fold_app. rewrite (fold_opt _ _ _ {| pcx_protocol := a; pcx_tls := b; pcx_suite := c; pcx_peer := d; pcx_local := e; pcx_peer_fp := []; pcx_local_fp := []; pcx_resumed := false |}).
  2: { destruct e as [e|]; [|reflexivity]. cbn [option_map context_step]. rewrite rt_merge_identity; [reflexivity|exact H5|].
       eapply in_small; [|exact L]. cbn [option_map f_opt]. find_field. }
  rewrite fold_app. erewrite fold_str; [|intros _; reflexivity|intros ->; reflexivity].
  rewrite fold_app. erewrite fold_str; [|intros _; reflexivity|intros ->; reflexivity].
  apply fold_bool; intros ->; reflexivity.
Qed.
