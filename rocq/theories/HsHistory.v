From Coq Require Import List NArith Bool Lia.
From Verif Require Import Base BaseProofs HsHandler SpecHs HsProofs SpecRecord SpecRx SpecRxProofs HsRun HsRunProofs SpecHandler.
Import ListNotations.
Local Open Scope N_scope.

Definition kept (d : heard) : option (list bytes) :=
  if hd_taken d then None else store_all (Some []) (hd_msgs d).
Definition follows (h : handler) (d : heard) : Prop :=
  hs_inv h (kept d) (hd_part d) /\ (hd_part d <> [] -> known (hd_part d)).

Lemma kept_num : forall h d, tick_ok h (kept d) -> hs_num h = tickets_in d.
Proof.
  intros h d H. unfold kept, tickets_in in *. destruct (hd_taken d); [apply H|]. rewrite store_all_firstn in H.
  destruct H as (ts & _ & _ & -> & _). unfold lenN. rewrite firstn_length. lia.
Qed.
Lemma kept_app : forall d ms part, kept {| hd_msgs := hd_msgs d ++ ms; hd_part := part; hd_taken := hd_taken d |} = store_all (kept d) ms.
Proof.
  intros. unfold kept. cbn [hd_taken hd_msgs]. destruct (hd_taken d); [symmetry; apply store_all_none|apply store_all_app].
Qed.

Lemma record_cases : forall h d c, follows h d -> bytes_ok c ->
  (exists ms part, record_parses (hd_part d) c ms part) \/ unreadable (hd_part d ++ c) \/ bodiless (hd_part d ++ c).
Proof.
  intros h d c [Hi Hk] Hc. destruct (process_handshake_message_spec _ _ _ _ Hi Hc Hk) as [Hz|[Hok|He]].
  - right; right. destruct Hz as (ms & z & rest & A & B & C & D & E & _). exists ms, z, rest. auto 8.
  - left. destruct Hok as (h' & r & ms & part & R1 & R2 & R3 & R4 & R5 & R6 & R7 & _). exists ms, part.
    split; [exact R2|]. split; [exact R3|]. split; [eapply pos_partial; apply R6|]. auto.
  - right; left. destruct He as (h' & ms & m & rest & _ & A & B & C & D & _). exists ms, m, rest. auto 8.
Qed.

Lemma parses_not_malformed : forall p c ms part, record_parses p c ms part -> ~ malformed (p ++ c).
Proof. intros p c ms part (-> & A & B & C & D & E). apply not_malformed; auto. Qed.
Lemma bad_malformed : forall s, unreadable s \/ bodiless s -> malformed s.
Proof.
  intros s [(ms & m & rest & E & A & B & C)|(ms & m & rest & E & A & B & C & D)]; apply (breaks_malformed s ms m rest E A B); unfold breaks; tauto.
Qed.

Lemma hears_step : forall h d op r d', follows h d -> hop_ok op -> hears d op r d' ->
  exists h', hstep h op = Done (h', r) /\ follows h' d'.
Proof.
  intros h d op r d' Hf Hok H. destruct H as [d n|d c ms part d' Hp ->|d Hr|d Ht Hr].
  - exists h. auto.
  - destruct Hf as [Hi Hk]. cbn [hop_ok] in Hok. cbn [hstep process_handshake_message_ptr].
    pose proof (parses_not_malformed _ _ _ _ Hp) as Hnm. destruct Hp as (P1 & P2 & P3 & P4 & P5 & P6).
    destruct (process_handshake_message_spec _ _ _ _ Hi Hok Hk) as [Hz|[Hk1|He]].
    + exfalso. apply Hnm. apply bad_malformed. right. destruct Hz as (ms1 & z & rest & A & B & C & D & E & _). exists ms1, z, rest. auto 8.
    + destruct Hk1 as (h' & r & ms1 & part1 & R1 & R2 & R3 & R4 & R5 & R6 & R7 & R8 & R9 & R10 & R11 & R12).
      rewrite P1 in R2. apply parse_unique in R2; auto; [|eapply pos_partial; apply R6]. destruct R2 as [<- <-].
      exists h'. rewrite R1. cbn [obind]. split; [|split; [rewrite kept_app; exact R6|exact P5]].
      do 4 f_equal. destruct r. cbn in R8, R9, R10, R11, R12. subst. unfold mentions. f_equal.
      apply kept_num. rewrite kept_app. apply R6.
    + exfalso. apply Hnm. apply bad_malformed. left. destruct He as (h' & ms1 & m & rest & _ & A & B & C & D & _). exists ms1, m, rest. auto 8.
  - exists h. split; [|exact Hf]. destruct Hf as [Hi Hk]. cbn [hstep]. pose proof (get_stored_tickets_spec _ _ _ Hi) as G.
    destruct (kept d) as [l|] eqn:Ek; [|rewrite G; reflexivity].
    destruct Hr as [Hr|Hr]; [unfold kept in Ek; rewrite Hr in Ek; discriminate|]. rewrite Hr in G. rewrite G. reflexivity.
  - destruct Hf as [Hi Hk]. cbn [hstep]. pose proof (get_stored_tickets_spec _ _ _ Hi) as G. unfold kept in G. rewrite Ht, store_all_firstn, Hr in G.
    destruct G as (h' & ts & -> & E & Hi'). exists h'. cbn [obind]. rewrite E. split; [reflexivity|]. split; [exact Hi'|exact Hk].
Qed.

Lemma hears_run : forall d ops rs d', hears_all d ops rs d' -> Forall hop_ok ops -> forall h, follows h d ->
  exists h', hrun h ops = Done (h', rs) /\ follows h' d'.
Proof.
  induction 1 as [d|d op r d1 ops rs d2 H1 _ IH]; intros Hok h Hf; [exists h; auto|].
  inversion Hok as [|? ? O1 O2]; subst. destruct (hears_step _ _ _ _ _ Hf O1 H1) as (h1 & E1 & F1).
  destruct (IH O2 h1 F1) as (h2 & E2 & F2). exists h2. cbn [hrun]. rewrite E1. cbn [obind]. rewrite E2. auto.
Qed.

Lemma new_follows : follows new_handler nothing_heard.
Proof. split; [exact new_handler_inv|intro K; contradiction]. Qed.

Lemma H64 : forall ops rs d, Forall hop_ok ops -> hears_all nothing_heard ops rs d ->
  exists h, hrun new_handler ops = Done (h, rs).
Proof. intros ops rs d Hok H. destruct (hears_run _ _ _ _ H Hok _ new_follows) as (h & E & _). eauto. Qed.

Lemma H64err : forall ops rs d c, Forall hop_ok ops -> hears_all nothing_heard ops rs d -> bytes_ok c -> unreadable (hd_part d ++ c) ->
  exists h h', hrun new_handler ops = Done (h, rs) /\ hstep h (HRecord (IoBuf c)) = Done (h', HResult (inl kInternal)).
Proof.
  intros ops rs d c Hok H Hc Hu. destruct (hears_run _ _ _ _ H Hok _ new_follows) as (h & E & [Hi Hk]). exists h.
  cbn [hstep process_handshake_message_ptr].
  destruct (process_handshake_message_spec _ _ _ _ Hi Hc Hk) as [Hz|[Hk1|He]].
  - exfalso. destruct Hz as (ms & z & rest & A & B & C & D & F & _). destruct Hu as (ms' & m & rest' & A' & B' & C' & D').
    assert (ms' = ms). { rewrite A' in A. eapply breaks_unique; [exact A|..]; auto; unfold breaks; tauto. } subst ms'.
    rewrite A' in A. apply app_inv_head in A. destruct D as (t & ->). destruct m as [|x m].
    { destruct D' as [[D' _]|[D' _]]; [contradiction|]. apply hs_msg_ne in D'. contradiction. }
    cbn [app] in A. injection A as -> A. destruct D' as [[_ D']|[D' _]].
    + apply D'. destruct F as [F|F]; [left|right]; exact F.
    + eapply (msg_not_zero [t; 0; 0; 0] rest (t :: m) rest'); [exists t; reflexivity|exact D'|]. cbn [app]. rewrite A. reflexivity.
  - exfalso. destruct Hk1 as (h' & r & ms & part & R1 & R2 & R3 & R4 & R5 & R6 & R7 & _).
    apply (parses_not_malformed (hd_part d) c ms part); [|apply bad_malformed; left; exact Hu].
    split; [exact R2|]. split; [exact R3|]. split; [eapply pos_partial; apply R6|]. auto.
  - destruct He as (h' & ms & m & rest & -> & _). exists h'. split; [exact E|reflexivity].
Qed.

Lemma H64all : forall ops rs d c, Forall hop_ok ops -> hears_all nothing_heard ops rs d -> bytes_ok c ->
  (exists r d', hears d (HRecord (IoBuf c)) r d') \/ unreadable (hd_part d ++ c) \/ bodiless (hd_part d ++ c).
Proof.
  intros ops rs d c Hok H Hc. destruct (hears_run _ _ _ _ H Hok _ new_follows) as (h & _ & Hf).
  destruct (record_cases h d c Hf Hc) as [(ms & part & K)|K]; [left|right; exact K]. do 2 eexists. econstructor; [exact K|reflexivity].
Qed.

Lemma H64bodiless : forall ops rs d c, Forall hop_ok ops -> hears_all nothing_heard ops rs d -> bytes_ok c -> bodiless (hd_part d ++ c) ->
  exists h, hrun new_handler ops = Done (h, rs) /\
    ((exists h' r, hstep h (HRecord (IoBuf c)) = Done (h', HResult (inr r))) \/ hstep h (HRecord (IoBuf c)) = Undef UbNegativeShift) /\
    (hstep h (HRecord (IoBuf c)) = Undef UbNegativeShift <-> fatal (hd_part d ++ c)).
Proof.
  intros ops rs d c Hok H Hc Hu. destruct (hears_run _ _ _ _ H Hok _ new_follows) as (h & E & [Hi Hk]). exists h. split; [exact E|].
  cbn [hstep process_handshake_message_ptr].
  destruct (process_handshake_message_spec _ _ _ _ Hi Hc Hk) as [Hz|[Hk1|He]].
  - destruct Hz as (ms & z & rest & A & B & C & D & F & G).
    destruct G as [(G & ->)|(G & h' & r & -> & _)].
    + split; [auto|]. split; [intros _|reflexivity]. exists ms, z, rest. auto 8.
    + split; [left; cbn [obind]; eauto|]. split; [discriminate|]. intros (ms' & z' & rest' & A' & B' & C' & D' & F' & G').
      assert (ms' = ms). { rewrite A' in A. eapply breaks_unique; [exact A|..]; auto; unfold breaks; tauto. } subst ms'.
      rewrite A' in A. apply app_inv_head in A. destruct D as (t & ->). destruct D' as (t' & ->). injection A as -> ->. lia.
  - exfalso. destruct Hk1 as (h' & r & ms & part & R1 & R2 & R3 & R4 & R5 & R6 & R7 & _).
    apply (parses_not_malformed (hd_part d) c ms part); [|apply bad_malformed; right; exact Hu].
    split; [exact R2|]. split; [exact R3|]. split; [eapply pos_partial; apply R6|]. auto.
  - exfalso. destruct He as (h' & ms & m & rest & _ & A & B & C & D & _). destruct Hu as (ms' & z & rest' & A' & B' & C' & D' & F').
    assert (ms' = ms). { rewrite A' in A. eapply breaks_unique; [exact A|..]; auto; unfold breaks; tauto. } subst ms'.
    rewrite A' in A. apply app_inv_head in A. destruct D' as (t & ->). destruct m as [|x m].
    { destruct D as [[D _]|[D _]]; [contradiction|]. apply hs_msg_ne in D. contradiction. }
    cbn [app] in A. injection A as <- A. destruct D as [[_ D]|[D _]].
    + apply D. destruct F' as [F'|F']; [left|right]; exact F'.
    + eapply (msg_not_zero [t; 0; 0; 0] rest' (t :: m) rest); [exists t; reflexivity|exact D|]. cbn [app]. rewrite A. reflexivity.
Qed.
