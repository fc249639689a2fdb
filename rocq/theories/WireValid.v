(* Whatever is parsed is a valid message. *)
From Coq Require Import List NArith Bool Lia.
From Verif Require Import Base Wire SpecWire WireProofs WireMsgs.
Import ListNotations.
Local Open Scope N_scope.

Definition wv (f : wfield) : Prop := match snd f with WVarint n => n < two64 | _ => True end.

Lemma dec_varint_small : forall bs n r, dec_varint bs = Some (n, r) -> n < two64.
Proof.
  intros bs n r H. unfold dec_varint in H. destruct (unvarint 10 bs) as [[m r']|]; [|discriminate]. injection H as <- <-.
  unfold wrap64. apply N.mod_lt. discriminate.
Qed.
Lemma dec_value_wv : forall w bs v r num, dec_value w bs = Some (v, r) -> wv (num, v).
Proof.
  intros w bs v r num H. unfold wv. cbn [snd]. destruct v; auto. unfold dec_value in H.
  repeat match type of H with
  | match ?x with _ => _ end = _ => destruct x eqn:?; try discriminate
  | (if ?x then _ else _) = _ => destruct x eqn:?; try discriminate
  end.
  injection H as <- <-. eapply dec_varint_small; eassumption.
Qed.
Lemma fields_wv : forall f g bs fs r, fields f g bs = Some (fs, r) -> Forall wv fs.
Proof.
  induction f as [|f IH]; intros g bs fs r H; cbn [fields] in H; [discriminate|].
  destruct bs as [|b bs]; [destruct g; [discriminate|]; injection H as <- <-; constructor|].
  destruct (dec_tag (b :: bs)) as [[[num wt] q]|]; [|discriminate].
  destruct (wt =? 3).
  - destruct (fields f (Some num) q) as [[fs1 r1]|] eqn:E; [|discriminate]. eapply IH; eassumption.
  - destruct (wt =? 4).
    + destruct g as [g|]; [|discriminate]. destruct (g =? num); [|discriminate]. injection H as <- <-. constructor.
    + destruct (dec_value wt q) as [[v r1]|] eqn:E; [|discriminate].
      destruct (fields f g r1) as [[fs1 r2]|] eqn:E2; [|discriminate]. injection H as <- <-.
      constructor; [eapply dec_value_wv; eassumption|eapply IH; eassumption].
Qed.
Lemma parse_inv : forall A (step : A -> wfield -> option A) (Q : A -> Prop),
  (forall m f m', Q m -> wv f -> step m f = Some m' -> Q m') ->
  forall m bs m', Q m -> parse_into step m bs = Some m' -> Q m'.
Proof.
  intros A step Q Hs m bs m' Hm H. unfold parse_into, dec_fields in H.
  destruct (fields (S (length bs)) None bs) as [[fs r]|] eqn:E; [|discriminate]. apply fields_wv in E.
  revert m Hm H. induction E as [|f fs Hf _ IH]; intros m Hm H; cbn in H; [injection H as <-; exact Hm|].
  destruct (step m f) as [m1|] eqn:E1; [|discriminate]. eapply IH; [eapply Hs; eassumption|exact H].
Qed.
Lemma merge_inv : forall A (step : A -> wfield -> option A) (Q : A -> Prop),
  (forall m f m', Q m -> wv f -> step m f = Some m' -> Q m') ->
  forall new old bs m', Q new -> opt_all Q old -> merge step new old bs = Some m' -> Q m'.
Proof.
  intros A step Q Hs new old bs m' Hn Ho H. unfold merge in H. eapply parse_inv; [exact Hs| |exact H]. destruct old; assumption.
Qed.

Lemma mod32 : forall n, n mod two32 < two32.
Proof. intros. apply N.mod_lt. discriminate. Qed.
Lemma unpack_small : forall f bs l, unpack f bs = Some l -> Forall (fun n => n < two32) l.
Proof.
  induction f as [|f IH]; intros bs l H; cbn [unpack] in H; [discriminate|]. destruct bs; [injection H as <-; constructor|].
  destruct (dec_varint (n :: bs)) as [[m r]|]; [|discriminate]. destruct (unpack f r) as [l'|] eqn:E; [|discriminate].
  injection H as <-. constructor; [apply mod32|eauto].
Qed.
Lemma Forall_snoc : forall A (Q : A -> Prop) l x, Forall Q l -> Q x -> Forall Q (l ++ [x]).
Proof. intros. apply Forall_app. auto. Qed.

Ltac cases H :=
  repeat (cbn beta iota in H; match type of H with
  | match ?x with _ => _ end = _ => destruct x eqn:?; try discriminate
  end); injection H as <-.

Section Valid.
Variable V : bytes -> bool.
Hypothesis V0 : V [] = true.

Lemma entry_valid : forall m f m', text V (fst m) /\ text V (snd m) -> wv f -> entry_step V m f = Some m' -> text V (fst m') /\ text V (snd m').
Proof. intros [a b] [num v] m' [H1 H2] Hw H. unfold entry_step in H. unfold text in *. cases H; cbn in *; auto. Qed.
Lemma identity_valid : forall m f m', valid_identity V m -> wv f -> identity_step V m f = Some m' -> valid_identity V m'.
Proof.
  intros [a b] [num v] m' [H1 H2] Hw H. unfold identity_step in H. cbn [pi_id pi_attrs] in *. cases H; split; cbn in *; auto.
  apply Forall_snoc; [assumption|].
  match goal with E : parse_into _ _ _ = Some ?e |- _ => refine (parse_inv _ (entry_step V) _ entry_valid _ _ _ _ E) end. split; exact V0.
Qed.
Lemma identity_new : valid_identity V p_identity_new.
Proof. split; cbn; auto. Qed.
Lemma identity_merge : forall old b m, opt_all (valid_identity V) old -> merge (identity_step V) p_identity_new old b = Some m -> valid_identity V m.
Proof. intros old b m Ho H. exact (merge_inv _ _ _ identity_valid _ _ _ _ identity_new Ho H). Qed.
Lemma identity_parse : forall b m, parse_into (identity_step V) p_identity_new b = Some m -> valid_identity V m.
Proof. intros b m H. exact (parse_inv _ _ _ identity_valid _ _ _ identity_new H). Qed.
Ltac ids := repeat match goal with
  | E : merge (identity_step V) _ _ _ = Some _ |- _ => apply identity_merge in E; [|assumption]
  | E : parse_into (identity_step V) _ _ = Some _ |- _ => apply identity_parse in E
  | E : unpack _ _ = Some _ |- _ => apply unpack_small in E
  end.
Lemma auth_valid_step : forall m f m', valid_auth V m -> wv f -> auth_step V m f = Some m' -> valid_auth V m'.
Proof.
  intros [a b] [num v] m' [H1 H2] Hw H. unfold auth_step in H. cbn [pa_identity pa_token] in *. cases H; ids; split; cbn in *; auto.
Qed.
Ltac fin := unfold text in *; repeat match goal with |- _ /\ _ => split end; auto using Forall_snoc, mod32; try (apply Forall_app; split; assumption).
Lemma client_valid : forall m f m', valid_client V m -> wv f -> client_step V m f = Some m' -> valid_client V m'.
Proof.
  intros [a b c d e g h] [num v] m' (H1 & H2 & H3 & H4 & H5 & H6 & H7) Hw H. unfold client_step in H. cbn in H1, H2, H3, H4, H5, H6, H7.
  cases H; ids; unfold valid_client; cbn; fin.
Qed.
Lemma server_valid : forall m f m', valid_server V m -> wv f -> server_step V m f = Some m' -> valid_server V m'.
Proof.
  intros [a b c d e g] [num v] m' (H1 & H2 & H3 & H4 & H5) Hw H. unfold server_step in H. cbn in H1, H2, H3, H4, H5.
  cases H; ids; unfold valid_server; cbn; fin.
Qed.
Lemma ticket_valid : forall m f m', valid_ticket V m -> wv f -> ticket_step V m f = Some m' -> valid_ticket V m'.
Proof.
  intros [a b c] [num v] m' (H1 & H2) Hw H. unfold ticket_step in H. cbn in H1, H2. cbn [pt_in_bytes pt_connection_id pt_local] in H.
  cases H; ids; unfold valid_ticket; cbn; fin.
Qed.
Lemma client_new : valid_client V p_client_new.
Proof. unfold valid_client; cbn; repeat split; auto. Qed.
Lemma server_new : valid_server V p_server_new.
Proof. unfold valid_server; cbn; repeat split; auto. Qed.
Lemma ticket_new : valid_ticket V p_ticket_new.
Proof. unfold valid_ticket; cbn; repeat split; auto. Qed.
Lemma auth_new : valid_auth V p_auth_new.
Proof. unfold valid_auth; cbn; auto. Qed.
Lemma req_valid : forall m f m', valid_req V m -> wv f -> req_step V m f = Some m' -> valid_req V m'.
Proof.
  intros [a l] [num v] m' [H1 H2] Hw H. unfold req_step in H. cbn [rq_oneof rq_auth] in *.
  repeat (cbn beta iota in H; match type of H with
  | match parse_into ?s ?x ?y with _ => _ end = _ => destruct (parse_into s x y) eqn:?; try discriminate
  | match ?x with _ => _ end = _ => destruct x eqn:?; try discriminate
  end); injection H as <-; split; cbn; auto.
  all: match goal with
  | E : parse_into (client_step V) ?m0 _ = Some _ |- valid_client V _ => refine (parse_inv _ _ _ client_valid m0 _ _ _ E); destruct a; auto using client_new
  | E : parse_into (server_step V) ?m0 _ = Some _ |- valid_server V _ => refine (parse_inv _ _ _ server_valid m0 _ _ _ E); destruct a; auto using server_new
  | E : parse_into (ticket_step V) ?m0 _ = Some _ |- valid_ticket V _ => refine (parse_inv _ _ _ ticket_valid m0 _ _ _ E); destruct a; auto using ticket_new
  | E : parse_into (auth_step V) _ _ = Some _ |- _ => apply Forall_snoc; [assumption|]; exact (parse_inv _ _ _ auth_valid_step _ _ _ auth_new E)
  end.
Qed.
Lemma parse_req_valid : forall b m, parse_req V b = Some m -> valid_req V m.
Proof. intros b m H. refine (parse_inv _ _ _ req_valid p_req_new b m _ H). split; cbn; auto. Qed.

Lemma state_valid : forall m f m', valid_state m -> wv f -> state_step m f = Some m' -> valid_state m'.
Proof.
  intros [a b c d e g h i j k] [num v] m' (H1 & H2 & H3 & H4 & H5) Hw H. unfold state_step in H. cbn in H1, H2, H3, H4, H5.
  cases H; unfold valid_state; cbn; fin.
Qed.
Lemma state_new : valid_state p_state_new.
Proof. unfold valid_state; cbn; repeat split; reflexivity. Qed.
Lemma result_valid : forall m f m', valid_result V m -> wv f -> result_step V m f = Some m' -> valid_result V m'.
Proof.
  intros [a b c d e g] [num v] m' (H1 & H2 & H3 & H4) Hw H. unfold result_step in H. cbn in H1, H2, H3, H4.
  cases H; ids; unfold valid_result; cbn; fin.
  match goal with E : merge state_step _ _ _ = Some _ |- _ => exact (merge_inv _ _ _ state_valid _ _ _ _ state_new H2 E) end.
Qed.
Lemma result_new : valid_result V p_result_new.
Proof. unfold valid_result; cbn; repeat split; auto. Qed.
Lemma status_valid : forall m f m', valid_status V m -> wv f -> status_step V m f = Some m' -> valid_status V m'.
Proof.
  intros [a b] [num v] m' (H1 & H2) Hw H. unfold status_step in H. cbn in H1, H2. cbn [pst_code pst_details] in H.
  cases H; unfold valid_status; cbn; fin.
Qed.
Lemma status_new : valid_status V p_status_new.
Proof. split; cbn; [reflexivity|auto]. Qed.
Lemma resp_valid : forall m f m', valid_resp V m -> wv f -> resp_step V m f = Some m' -> valid_resp V m'.
Proof.
  intros [a b c d e] [num v] m' (H1 & H2 & H3 & H4) Hw H. unfold resp_step in H. cbn in H1, H2, H3, H4.
  cases H; ids; unfold valid_resp; cbn; fin.
  - match goal with E : merge (status_step V) _ _ _ = Some _ |- _ => exact (merge_inv _ _ _ status_valid _ _ _ _ status_new H4 E) end.
  - match goal with E : merge (result_step V) _ _ _ = Some _ |- _ => exact (merge_inv _ _ _ result_valid _ _ _ _ result_new H3 E) end.
Qed.
Lemma parse_resp_valid : forall b m, parse_resp V b = Some m -> valid_resp V m.
Proof. intros b m H. refine (parse_inv _ _ _ resp_valid p_resp_new b m _ H). unfold valid_resp; cbn; repeat split. Qed.

Lemma context_valid : forall m f m', valid_context V m -> wv f -> context_step V m f = Some m' -> valid_context V m'.
Proof.
  intros [a b c d e g h k] [num v] m' (H1 & H2 & H3 & H4 & H5) Hw H. unfold context_step in H. cbn in H1, H2, H3, H4, H5.
  cases H; ids; unfold valid_context; cbn; fin.
Qed.
Lemma parse_context_valid : forall b m, parse_context V b = Some m -> valid_context V m.
Proof. intros b m H. refine (parse_inv _ _ _ context_valid p_context_new b m _ H). unfold valid_context; cbn; repeat split; auto. Qed.
End Valid.
