(* The message parsers (Wire.v) against the meaning of fields (SpecProto.v). *)
From Coq Require Import List NArith ZArith Bool Lia ZifyBool ZifyNat ZifyN.
From Verif Require Import Base BaseProofs Wire WireProofs SpecProto WireSerial.
Import ListNotations.
Local Open Scope N_scope.

(* ---- fields ---- *)
Lemma lens_app : forall n a b, lens n (a ++ b) = lens n a ++ lens n b.
Proof. intros. apply flat_map_app. Qed.
Lemma ints_app : forall n a b, ints n (a ++ b) = ints n a ++ ints n b.
Proof. intros. apply flat_map_app. Qed.
Lemma ids_app : forall a b, id_choices (a ++ b) = id_choices a ++ id_choices b.
Proof. intros. apply flat_map_app. Qed.

Lemma lens_len : forall n fs k b, lens n (fs ++ [(k, WLen b)]) = if k =? n then lens n fs ++ [b] else lens n fs.
Proof. intros. rewrite lens_app. cbn. destruct (k =? n); cbn; [reflexivity|apply app_nil_r]. Qed.
Lemma lens_int : forall n fs k v, lens n (fs ++ [(k, WVarint v)]) = lens n fs.
Proof. intros. rewrite lens_app. apply app_nil_r. Qed.
Lemma lens_64 : forall n fs k v, lens n (fs ++ [(k, WFixed64 v)]) = lens n fs.
Proof. intros. rewrite lens_app. apply app_nil_r. Qed.
Lemma lens_32 : forall n fs k v, lens n (fs ++ [(k, WFixed32 v)]) = lens n fs.
Proof. intros. rewrite lens_app. apply app_nil_r. Qed.
Lemma ints_int : forall n fs k v, ints n (fs ++ [(k, WVarint v)]) = if k =? n then ints n fs ++ [v] else ints n fs.
Proof. intros. rewrite ints_app. cbn. destruct (k =? n); cbn; [reflexivity|apply app_nil_r]. Qed.
Lemma ints_len : forall n fs k v, ints n (fs ++ [(k, WLen v)]) = ints n fs.
Proof. intros. rewrite ints_app. apply app_nil_r. Qed.
Lemma ints_64 : forall n fs k v, ints n (fs ++ [(k, WFixed64 v)]) = ints n fs.
Proof. intros. rewrite ints_app. apply app_nil_r. Qed.
Lemma ints_32 : forall n fs k v, ints n (fs ++ [(k, WFixed32 v)]) = ints n fs.
Proof. intros. rewrite ints_app. apply app_nil_r. Qed.
Lemma ids_len : forall fs k b, id_choices (fs ++ [(k, WLen b)]) =
  if k =? 1 then id_choices fs ++ [IdSpiffe b] else if k =? 2 then id_choices fs ++ [IdHostname b]
  else if k =? 4 then id_choices fs ++ [IdUid b] else id_choices fs.
Proof. intros. rewrite ids_app. cbn. destruct (k =? 1), (k =? 2), (k =? 4); cbn; try reflexivity; apply app_nil_r. Qed.
Lemma ids_int : forall fs k v, id_choices (fs ++ [(k, WVarint v)]) = id_choices fs.
Proof. intros. rewrite ids_app. apply app_nil_r. Qed.
Lemma ids_64 : forall fs k v, id_choices (fs ++ [(k, WFixed64 v)]) = id_choices fs.
Proof. intros. rewrite ids_app. apply app_nil_r. Qed.
Lemma ids_32 : forall fs k v, id_choices (fs ++ [(k, WFixed32 v)]) = id_choices fs.
Proof. intros. rewrite ids_app. apply app_nil_r. Qed.

Lemma in_lens : forall n b fs, In (n, WLen b) fs -> In b (lens n fs).
Proof. intros n b fs H. apply in_flat_map. exists (n, WLen b). split; [exact H|]. cbn. rewrite N.eqb_refl. left. reflexivity. Qed.

Ltac red_fields :=
  repeat (rewrite ?lens_len, ?lens_int, ?lens_64, ?lens_32, ?ints_int, ?ints_len, ?ints_64, ?ints_32,
            ?ids_len, ?ids_int, ?ids_64, ?ids_32; cbn [N.eqb Pos.eqb]).

(* ---- parsers in general ---- *)
Definition accepts {A} (step : A -> wfield -> option A) (f : wfield) : Prop := forall m, exists m', step m f = Some m'.

Record good {A} (step : A -> wfield -> option A) (new : A) (reads : list wfield -> A -> Prop) : Prop := {
  g_new : reads [] new;
  g_step : forall fs m f m', reads fs m -> step m f = Some m' -> reads (fs ++ [f]) m';
  g_ok : forall fs m f, reads fs m -> In f fs -> accepts step f;
  g_det : forall fs m m', reads fs m -> reads fs m' -> m = m'
}.

Lemma fold_accepts : forall A (step : A -> wfield -> option A) fs, (forall f, In f fs -> accepts step f) ->
  forall m, exists m', fold_fields step m fs = Some m'.
Proof.
  intros A step. induction fs as [|f fs IH]; intros H m; cbn [fold_fields]; [eauto|].
  destruct (H f (or_introl eq_refl) m) as [m1 ->]. apply IH. intros g Hg. apply H. right. exact Hg.
Qed.

Lemma fold_snoc : forall A (step : A -> wfield -> option A) fs f m,
  fold_fields step m (fs ++ [f]) = match fold_fields step m fs with Some m' => step m' f | None => None end.
Proof. intros. rewrite fold_app. destruct (fold_fields step m fs) as [a|]; [|reflexivity]. cbn. destruct (step a f); reflexivity. Qed.

Lemma good_iff : forall A step (new : A) reads, good step new reads ->
  forall fs m, fold_fields step new fs = Some m <-> reads fs m.
Proof.
  intros A step new reads G. assert (F : forall fs m, fold_fields step new fs = Some m -> reads fs m).
  { induction fs as [|f fs IH] using rev_ind; intros m H.
    - injection H as <-. apply (g_new _ _ _ G).
    - rewrite fold_snoc in H. destruct (fold_fields step new fs) as [m0|]; [|discriminate]. exact (g_step _ _ _ G _ _ _ _ (IH _ eq_refl) H). }
  intros fs m. split; [apply F|]. intros R. destruct (fold_accepts A step fs (fun f => g_ok _ _ _ G fs m f R) new) as [m' E].
  rewrite E. f_equal. exact (g_det _ _ _ G _ _ _ (F _ _ E) R).
Qed.

Lemma good_parse : forall A step (new : A) reads, good step new reads ->
  forall b m, parse_into step new b = Some m <-> means reads b m.
Proof.
  intros A step new reads G b m. unfold parse_into. split.
  - destruct (dec_fields b) as [fs|] eqn:D; [|discriminate]. intros H. exists fs. split; [apply dec_fields_iff; exact D|].
    apply (good_iff _ _ _ _ G). exact H.
  - intros (fs & S & R). apply dec_fields_iff in S. rewrite S. apply (good_iff _ _ _ _ G). exact R.
Qed.

(* ---- message fields ---- *)
Section Sub.
Context {A : Type} (step : A -> wfield -> option A) (new : A) (reads : list wfield -> A -> Prop).
Hypothesis G : good step new reads.

Lemma serials : forall l parts, Forall2 serial l parts -> forall b, In b l -> exists p, serial b p /\ In p parts.
Proof.
  induction 1 as [|x y l l' S F IH]; intros b H; [contradiction|]. destruct H as [->|H]; [exists y; split; [exact S|left; reflexivity]|].
  destruct (IH b H) as (p & Sp & Ip). exists p. split; [exact Sp|right; exact Ip].
Qed.
Lemma serials_det : forall l x, Forall2 serial l x -> forall y, Forall2 serial l y -> x = y.
Proof.
  induction 1 as [|b p l x S F IH]; intros y H; inversion H; subst; [reflexivity|].
  f_equal; [eapply serial_det; eassumption|apply IH; assumption].
Qed.

Lemma sub_new : forall n, the_message reads n [] None.
Proof. reflexivity. Qed.
Lemma sub_same : forall n fs fs' o, lens n fs' = lens n fs -> the_message reads n fs o -> the_message reads n fs' o.
Proof. intros n fs fs' o E H. unfold the_message in *. rewrite E. exact H. Qed.
Lemma sub_step : forall n fs fs' o b i, lens n fs' = lens n fs ++ [b] -> the_message reads n fs o -> merge step new o b = Some i ->
  the_message reads n fs' (Some i).
Proof.
  intros n fs fs' o b i E H M. unfold the_message in *. rewrite E. split; [destruct (lens n fs); discriminate|].
  unfold merge, parse_into in M. destruct (dec_fields b) as [g|] eqn:D; [|discriminate]. apply dec_fields_iff in D.
  destruct o as [m0|].
  - destruct H as [_ (parts & F & R)]. exists (parts ++ [g]). split; [apply Forall2_app; [exact F|constructor; [exact D|constructor]]|].
    rewrite concat_app. cbn. rewrite app_nil_r. apply (good_iff _ _ _ _ G). rewrite fold_app.
    apply (good_iff _ _ _ _ G) in R. rewrite R. exact M.
  - rewrite H. exists [g]. split; [constructor; [exact D|constructor]|]. cbn. rewrite app_nil_r. apply (good_iff _ _ _ _ G). exact M.
Qed.
Lemma sub_ok : forall n fs o b, the_message reads n fs o -> In (n, WLen b) fs -> forall old, exists i, merge step new old b = Some i.
Proof.
  intros n fs o b H I old. apply in_lens in I. destruct o as [m|]; unfold the_message in H; [|rewrite H in I; contradiction].
  destruct H as (_ & parts & F & R). destruct (serials _ _ F b I) as (p & Sp & Ip).
  unfold merge, parse_into. apply dec_fields_iff in Sp. rewrite Sp. apply fold_accepts. intros f Hf.
  apply (g_ok _ _ _ G _ _ f R). apply in_concat. exists p. auto.
Qed.
Lemma sub_det : forall n fs o o', the_message reads n fs o -> the_message reads n fs o' -> o = o'.
Proof.
  intros n fs [m|] [m'|] H H'; unfold the_message in *; try tauto.
  destruct H as (_ & p & F & R). destruct H' as (_ & p' & F' & R'). rewrite (serials_det _ _ F' _ F) in R'. f_equal. exact (g_det _ _ _ G _ _ _ R R').
Qed.

Lemma rep_new : forall n, messages reads n [] [].
Proof. constructor. Qed.
Lemma rep_same : forall n fs fs' l, lens n fs' = lens n fs -> messages reads n fs l -> messages reads n fs' l.
Proof. intros n fs fs' l E H. unfold messages in *. rewrite E. exact H. Qed.
Lemma rep_step : forall n fs fs' l b i, lens n fs' = lens n fs ++ [b] -> messages reads n fs l -> parse_into step new b = Some i ->
  messages reads n fs' (l ++ [i]).
Proof.
  intros n fs fs' l b i E H M. unfold messages in *. rewrite E. apply Forall2_app; [exact H|]. constructor; [|constructor].
  apply (good_parse _ _ _ _ G) in M. exact M.
Qed.
Lemma rep_ok : forall n fs l b, messages reads n fs l -> In (n, WLen b) fs -> exists i, parse_into step new b = Some i.
Proof.
  intros n fs l b H I. apply in_lens in I. unfold messages in H. revert I. induction H as [|x y l1 l2 S F IH]; intros I; [contradiction|].
  destruct I as [->|I]; [|exact (IH I)]. exists y. apply (good_parse _ _ _ _ G). exact S.
Qed.
Lemma rep_det : forall n fs l l', messages reads n fs l -> messages reads n fs l' -> l = l'.
Proof.
  intros n fs l l' H. unfold messages in *. revert l'. induction H as [|x y l1 l2 S F IH]; intros l' H'; inversion H' as [|x' y' m1 m2 S' F' E1 E2]; subst; [reflexivity|].
  f_equal; [|apply IH; assumption]. apply (good_parse _ _ _ _ G) in S. apply (good_parse _ _ _ _ G) in S'. congruence.
Qed.
End Sub.

(* ---- repeated enumerations ---- *)
Lemma enums_app : forall n a l b l', enums n a l -> enums n b l' -> enums n (a ++ b) (l ++ l').
Proof.
  induction 1 as [|v fs l H IH|x vs fs l P H IH|k v fs l N1 N2 H IH]; intros K; cbn [app]; [exact K|constructor; auto| |constructor; auto].
  rewrite <- app_assoc. constructor; auto.
Qed.
Lemma enums_one : forall n fs l v, enums n fs l -> enums n (fs ++ [(n, WVarint v)]) (l ++ [v mod two32]).
Proof. intros. apply enums_app; [assumption|]. apply EnumOne. constructor. Qed.
Lemma enums_packed : forall n fs l b vs, enums n fs l -> unpack (S (length b)) b = Some vs -> enums n (fs ++ [(n, WLen b)]) (l ++ vs).
Proof.
  intros. apply enums_app; [assumption|]. rewrite <- (app_nil_r vs). apply EnumPacked; [|constructor]. apply unpack_iff. assumption.
Qed.
Lemma enums_other : forall n fs l f, enums n fs l -> (forall x, f <> (n, WVarint x)) -> (forall b, f <> (n, WLen b)) -> enums n (fs ++ [f]) l.
Proof.
  intros n fs l [k v] H N1 N2. rewrite <- (app_nil_r l). apply enums_app; [exact H|]. apply EnumOther; auto. constructor.
Qed.
Lemma enums_ok : forall n fs l b, enums n fs l -> In (n, WLen b) fs -> exists vs, unpack (S (length b)) b = Some vs.
Proof.
  induction 1 as [|v fs l H IH|x vs fs l P H IH|k v fs l N1 N2 H IH]; intros I; [contradiction|..]; destruct I as [E|I]; auto.
  - discriminate.
  - injection E as ->. exists vs. apply unpack_iff. exact P.
  - exfalso. exact (N2 b E).
Qed.
Lemma enums_det : forall n fs l, enums n fs l -> forall l', enums n fs l' -> l = l'.
Proof.
  induction 1 as [|v fs l H IH|x vs fs l P H IH|k v fs l N1 N2 H IH]; intros l' K; inversion K; subst; try congruence.
  - f_equal; auto.
  - exfalso. match goal with N : forall x, (n, WVarint v) <> _ |- _ => exact (N v eq_refl) end.
  - f_equal; auto. match goal with Q : packed x _ |- _ => apply unpack_iff in Q; apply unpack_iff in P; congruence end.
  - exfalso. match goal with N : forall b, (n, WLen x) <> _ |- _ => exact (N x eq_refl) end.
  - exfalso. exact (N1 _ eq_refl).
  - exfalso. exact (N2 _ eq_refl).
  - auto.
Qed.

(* ---- the messages ---- *)
Ltac cases H :=
  repeat (cbn beta iota in H; match type of H with
  | match ?x with _ => _ end = _ => destruct x eqn:?; try discriminate
  end); injection H as <-.

Lemma texts_snoc : forall V n fs s, texts V n fs -> V s = true -> Forall (fun s => V s = true) (lens n fs ++ [s]).
Proof. intros. apply Forall_app. auto. Qed.
Lemma texts_ok : forall V n fs s, texts V n fs -> In (n, WLen s) fs -> V s = true.
Proof. intros V n fs s H I. apply in_lens in I. unfold texts in H. rewrite Forall_forall in H. auto. Qed.

Lemma last_some : forall A (l : list A) x, last (map Some (l ++ [x])) None = Some x.
Proof. intros. rewrite map_app. cbn. apply last_last. Qed.

Ltac scalar := unfold the_text, the_bytes, the_uint32, the_uint64, the_bool, texts in *; red_fields; rewrite ?last_last, ?last_some;
  first [reflexivity | assumption | apply texts_snoc; assumption | split; [first [assumption | apply texts_snoc; assumption]|first [reflexivity | assumption]]].
Ltac splits := repeat match goal with |- _ /\ _ => split end.
Ltac fields_of H := repeat match type of H with _ /\ _ => let H' := fresh "R" in destruct H as [H' H] end.


(* Number patterns only. *)
Ltac numbers := repeat match goal with |- exists _, match ?p with _ => _ end = _ =>
  match type of p with N => destruct p | positive => destruct p end; try (eexists; reflexivity) end.
Ltac accept I := repeat match goal with
  | T : texts ?V ?n ?fs, _ : In (?n, WLen ?s) ?fs |- exists _, (if ?V ?s then _ else _) = _ => rewrite (texts_ok V n fs s T I)
  end; try (eexists; reflexivity).
Ltac same_fields H H' := fields_of H; fields_of H'; repeat match goal with x : _ |- _ => progress cbn in x end.

Section Messages.
Variable V : bytes -> bool.

Lemma entry_good : good (entry_step V) ([], []) (reads_entry V).
Proof.
  constructor.
  - repeat split; constructor.
  - intros fs [k v] [num x] m' [[T1 E1] [T2 E2]] H. cbn in E1, E2. subst k v. unfold entry_step in H. destruct x; cases H; unfold reads_entry; cbn [fst snd];
      split; scalar.
  - intros fs m [num x] [[T1 _] [T2 _]] I m0. unfold entry_step. destruct x; numbers; accept I.
  - intros fs [a b] [c d] [[_ E1] [_ E2]] [[_ E3] [_ E4]]. cbn in *. congruence.
Qed.

Ltac subs E := first
  [ exact E
  | eapply sub_same; [|exact E]; red_fields; reflexivity
  | eapply rep_same; [|exact E]; red_fields; reflexivity ].

Lemma identity_good : good (identity_step V) p_identity_new (reads_identity V).
Proof.
  constructor.
  - repeat split; constructor.
  - intros fs [k v] [num x] m' (T1 & T2 & T3 & E1 & E2) H. cbn in E1, E2. subst k. unfold identity_step in H. cbn [pi_id pi_attrs] in H.
    destruct x; cases H; unfold reads_identity; cbn [pi_id pi_attrs]; splits; try scalar; try subs E2.
    eapply (rep_step _ _ _ entry_good); [|exact E2|eassumption]. red_fields. reflexivity.
  - intros fs m [num x] (T1 & T2 & T3 & E1 & E2) I m0. unfold identity_step. destruct x; numbers; accept I.
    destruct (rep_ok _ _ _ entry_good _ _ _ _ E2 I) as [i ->]. eauto.
  - intros fs [a b] [c d] (_ & _ & _ & E1 & E2) (_ & _ & _ & E3 & E4). cbn in *. f_equal; [congruence|]. exact (rep_det _ _ _ entry_good _ _ _ _ E2 E4).
Qed.

Lemma auth_good : good (auth_step V) p_auth_new (reads_auth V).
Proof.
  constructor.
  - repeat split; constructor.
  - intros fs [k v] [num x] m' (E1 & T2 & E2) H. cbn in E1, E2. subst v. unfold auth_step in H. cbn [pa_identity pa_token] in H.
    destruct x; cases H; unfold reads_auth; cbn [pa_identity pa_token]; splits; try scalar; try subs E1.
    eapply (sub_step _ _ _ identity_good); [|exact E1|eassumption]. red_fields. reflexivity.
  - intros fs m [num x] (E1 & T2 & E2) I m0. unfold auth_step. destruct x; numbers; accept I.
    destruct (sub_ok _ _ _ identity_good _ _ _ _ E1 I (pa_identity m0)) as [i ->]. eauto.
  - intros fs [a b] [c d] (E1 & _ & E2) (E3 & _ & E4). cbn in *. f_equal; [|congruence]. exact (sub_det _ _ _ identity_good _ _ _ _ E1 E3).
Qed.

Ltac enum E := first
  [ exact E | eapply enums_one; exact E | eapply enums_packed; [exact E|assumption]
  | eapply enums_other; [exact E|intros ? Q; discriminate Q|intros ? Q; discriminate Q] ].

Lemma client_good : good (client_step V) p_client_new (reads_client V).
Proof.
  constructor.
  - repeat split; constructor.
  - intros fs [a b c d e l t] [num x] m' (T1 & E1 & E2 & E3 & E4 & E5 & E6 & T7 & E7) H.
    cbn in E1, E2, E3, E4, E5, E6, E7. subst a b c t. unfold client_step in H.
    destruct x; cases H; unfold reads_client; cbn [pc_protocols pc_min pc_max pc_suites pc_targets pc_local pc_target_name]; splits; try scalar; try subs E5; try subs E6; try enum E4.
    + eapply (rep_step _ _ _ identity_good); [|exact E5|eassumption]. red_fields. reflexivity.
    + eapply (sub_step _ _ _ identity_good); [|exact E6|eassumption]. red_fields. reflexivity.
  - intros fs m [num x] (T1 & E1 & E2 & E3 & E4 & E5 & E6 & T7 & E7) I m0. unfold client_step. destruct m0 as [a b c d e l t]. destruct x; numbers; accept I.
    + destruct (rep_ok _ _ _ identity_good _ _ _ _ E5 I) as [i ->]. eauto.
    + destruct (sub_ok _ _ _ identity_good _ _ _ _ E6 I l) as [i ->]. eauto.
    + destruct (enums_ok _ _ _ _ E4 I) as [i ->]. eauto.
  - intros fs [a b c d e l t] [a' b' c' d' e' l' t'] (T1 & E1 & E2 & E3 & E4 & E5 & E6 & T7 & E7) (T1' & E1' & E2' & E3' & E4' & E5' & E6' & T7' & E7').
    cbn in *. f_equal; try congruence; [exact (enums_det _ _ _ E4 _ E4')|exact (rep_det _ _ _ identity_good _ _ _ _ E5 E5')|exact (sub_det _ _ _ identity_good _ _ _ _ E6 E6')].
Qed.

Lemma server_good : good (server_step V) p_server_new (reads_server V).
Proof.
  constructor.
  - repeat split; constructor.
  - intros fs [a b c d e l] [num x] m' (T1 & E1 & E2 & E3 & E4 & E5 & E6) H.
    cbn in E1, E2, E3, E4, E5, E6. subst a b c l. unfold server_step in H.
    destruct x; cases H; unfold reads_server; cbn [ps_protocols ps_min ps_max ps_suites ps_locals ps_in_bytes]; splits; try scalar; try subs E5; try enum E4.
    eapply (rep_step _ _ _ identity_good); [|exact E5|eassumption]. red_fields. reflexivity.
  - intros fs m [num x] (T1 & E1 & E2 & E3 & E4 & E5 & E6) I m0. unfold server_step. destruct m0 as [a b c d e l]. destruct x; numbers; accept I.
    + destruct (rep_ok _ _ _ identity_good _ _ _ _ E5 I) as [i ->]. eauto.
    + destruct (enums_ok _ _ _ _ E4 I) as [i ->]. eauto.
  - intros fs [a b c d e l] [a' b' c' d' e' l'] (T1 & E1 & E2 & E3 & E4 & E5 & E6) (T1' & E1' & E2' & E3' & E4' & E5' & E6').
    cbn in *. f_equal; try congruence; [exact (enums_det _ _ _ E4 _ E4')|exact (rep_det _ _ _ identity_good _ _ _ _ E5 E5')].
Qed.

Lemma next_good : good next_step [] (fun fs b => b = the_bytes 1 fs).
Proof.
  constructor.
  - reflexivity.
  - intros fs m [num x] m' -> H. unfold next_step in H. destruct x; cases H; scalar.
  - intros fs m [num x] _ _ m0. unfold next_step. destruct x; numbers.
  - congruence.
Qed.

Lemma ticket_good : good (ticket_step V) p_ticket_new (reads_ticket V).
Proof.
  constructor.
  - repeat split; constructor.
  - intros fs [a b c] [num x] m' (E1 & E2 & E3) H. cbn in E1, E2, E3. subst a b. unfold ticket_step in H. cbn [pt_in_bytes pt_connection_id pt_local] in H.
    destruct x; cases H; unfold reads_ticket; cbn [pt_in_bytes pt_connection_id pt_local]; splits; try scalar; try subs E3.
    eapply (sub_step _ _ _ identity_good); [|exact E3|eassumption]. red_fields. reflexivity.
  - intros fs m [num x] (E1 & E2 & E3) I m0. unfold ticket_step. destruct x; numbers; accept I.
    destruct (sub_ok _ _ _ identity_good _ _ _ _ E3 I (pt_local m0)) as [i ->]. eauto.
  - intros fs [a b c] [a' b' c'] (E1 & E2 & E3) (E1' & E2' & E3'). cbn in *. f_equal; try congruence. exact (sub_det _ _ _ identity_good _ _ _ _ E3 E3').
Qed.

Lemma state_good : good state_step p_state_new reads_state.
Proof.
  constructor.
  - repeat split; constructor.
  - intros fs [a b c d e g h i j k] [num x] m' (E1 & E2 & E3 & E4 & E5 & E6 & E7 & E8 & E9 & E10) H.
    cbn in E1, E2, E3, E4, E5, E6, E7, E8, E9, E10. subst. unfold state_step in H.
    destruct x; cases H; unfold reads_state; cbn [pt_tls pt_suite pt_in_seq pt_out_seq pt_in_key pt_out_key pt_in_nonce pt_out_nonce pt_conn pt_resumed]; splits; scalar.
  - intros fs m [num x] _ _ m0. unfold state_step. destruct m0. destruct x; numbers.
  - intros fs [a b c d e g h i j k] [a' b' c' d' e' g' h' i' j' k'] (E1 & E2 & E3 & E4 & E5 & E6 & E7 & E8 & E9 & E10) (F1 & F2 & F3 & F4 & F5 & F6 & F7 & F8 & F9 & F10).
    cbn in *. congruence.
Qed.

Lemma status_good : good (status_step V) p_status_new (reads_status V).
Proof.
  constructor.
  - repeat split; constructor.
  - intros fs [a b] [num x] m' (E1 & T2 & E2) H. cbn in E1, E2. subst. unfold status_step in H. cbn [pst_code pst_details] in H.
    destruct x; cases H; unfold reads_status; cbn [pst_code pst_details]; splits; scalar.
  - intros fs m [num x] (E1 & T2 & E2) I m0. unfold status_step. destruct x; numbers; accept I.
  - intros fs [a b] [a' b'] (E1 & _ & E2) (F1 & _ & F2). cbn in *. congruence.
Qed.

Lemma result_good : good (result_step V) p_result_new (reads_result V).
Proof.
  constructor.
  - repeat split; constructor.
  - intros fs [a b c d e g] [num x] m' ((T1 & E1) & E2 & E4 & E5 & E6 & E7) H.
    cbn in E1, E2, E4, E5, E6, E7. subst a e g. unfold result_step in H.
    destruct x; cases H; unfold reads_result; cbn [pr_protocol pr_state pr_peer pr_local pr_local_fp pr_peer_fp]; splits; try scalar; try subs E2; try subs E4; try subs E5.
    + eapply (sub_step _ _ _ identity_good); [|exact E5|eassumption]. red_fields. reflexivity.
    + eapply (sub_step _ _ _ identity_good); [|exact E4|eassumption]. red_fields. reflexivity.
    + eapply (sub_step _ _ _ state_good); [|exact E2|eassumption]. red_fields. reflexivity.
  - intros fs m [num x] ((T1 & E1) & E2 & E4 & E5 & E6 & E7) I m0. unfold result_step. destruct m0 as [a b c d e g]. destruct x; numbers; accept I.
    + destruct (sub_ok _ _ _ identity_good _ _ _ _ E5 I d) as [i ->]. eauto.
    + destruct (sub_ok _ _ _ identity_good _ _ _ _ E4 I c) as [i ->]. eauto.
    + destruct (sub_ok _ _ _ state_good _ _ _ _ E2 I b) as [i ->]. eauto.
  - intros fs [a b c d e g] [a' b' c' d' e' g'] ((T1 & E1) & E2 & E4 & E5 & E6 & E7) ((T1' & E1') & E2' & E4' & E5' & E6' & E7').
    cbn in *. f_equal; try congruence; [exact (sub_det _ _ _ state_good _ _ _ _ E2 E2')|exact (sub_det _ _ _ identity_good _ _ _ _ E4 E4')|exact (sub_det _ _ _ identity_good _ _ _ _ E5 E5')].
Qed.

Lemma resp_good : good (resp_step V) p_resp_new (reads_resp V).
Proof.
  constructor.
  - repeat split; constructor.
  - intros fs [a b c d e] [num x] m' (E1 & E2 & E3 & E4 & E5) H.
    cbn in E1, E2, E3, E4, E5. subst b c. unfold resp_step in H.
    destruct x; cases H; unfold reads_resp; cbn [rs_local rs_out_frames rs_consumed rs_result rs_status]; splits; try scalar; try subs E1; try subs E4; try subs E5.
    + eapply (sub_step _ _ _ status_good); [|exact E5|eassumption]. red_fields. reflexivity.
    + eapply (sub_step _ _ _ result_good); [|exact E4|eassumption]. red_fields. reflexivity.
    + eapply (sub_step _ _ _ identity_good); [|exact E1|eassumption]. red_fields. reflexivity.
  - intros fs m [num x] (E1 & E2 & E3 & E4 & E5) I m0. unfold resp_step. destruct m0 as [a b c d e]. destruct x; numbers; accept I.
    + destruct (sub_ok _ _ _ status_good _ _ _ _ E5 I e) as [i ->]. eauto.
    + destruct (sub_ok _ _ _ result_good _ _ _ _ E4 I d) as [i ->]. eauto.
    + destruct (sub_ok _ _ _ identity_good _ _ _ _ E1 I a) as [i ->]. eauto.
  - intros fs [a b c d e] [a' b' c' d' e'] (E1 & E2 & E3 & E4 & E5) (E1' & E2' & E3' & E4' & E5').
    cbn in *. f_equal; try congruence; [exact (sub_det _ _ _ identity_good _ _ _ _ E1 E1')|exact (sub_det _ _ _ result_good _ _ _ _ E4 E4')|exact (sub_det _ _ _ status_good _ _ _ _ E5 E5')].
Qed.

Lemma context_good : good (context_step V) p_context_new (reads_context V).
Proof.
  constructor.
  - repeat split; constructor.
  - intros fs [a b c d e g h k] [num x] m' ((T1 & E1) & E2 & E3 & E4 & E5 & E6 & E7 & E8) H.
    cbn in E1, E2, E3, E4, E5, E6, E7, E8. subst a b c g h k. unfold context_step in H.
    destruct x; cases H; unfold reads_context; cbn [pcx_protocol pcx_tls pcx_suite pcx_peer pcx_local pcx_peer_fp pcx_local_fp pcx_resumed]; splits; try scalar; try subs E4; try subs E5.
    + eapply (sub_step _ _ _ identity_good); [|exact E5|eassumption]. red_fields. reflexivity.
    + eapply (sub_step _ _ _ identity_good); [|exact E4|eassumption]. red_fields. reflexivity.
  - intros fs m [num x] ((T1 & E1) & E2 & E3 & E4 & E5 & E6 & E7 & E8) I m0. unfold context_step. destruct m0 as [a b c d e g h k]. destruct x; numbers; accept I.
    + destruct (sub_ok _ _ _ identity_good _ _ _ _ E5 I e) as [i ->]. eauto.
    + destruct (sub_ok _ _ _ identity_good _ _ _ _ E4 I d) as [i ->]. eauto.
  - intros fs [a b c d e g h k] [a' b' c' d' e' g' h' k'] ((T1 & E1) & E2 & E3 & E4 & E5 & E6 & E7 & E8) ((T1' & E1') & E2' & E3' & E4' & E5' & E6' & E7' & E8').
    cbn in *. f_equal; try congruence; [exact (sub_det _ _ _ identity_good _ _ _ _ E4 E4')|exact (sub_det _ _ _ identity_good _ _ _ _ E5 E5')].
Qed.
End Messages.
