From Coq Require Import List NArith ZArith Bool Lia ZifyBool ZifyNat ZifyN.
From Verif Require Import Base BaseProofs Aead Hkdf HalfConn SpecAead AeadProofs SpecTls
  HkdfProofs HalfProofs HalfRun HalfRunProofs Options HsHandler Crypter FrameProt SpecHs
  HsProofs SpecRecord CrypterProofs SpecRx CrypterRun.
Import ListNotations.
Local Open Scope N_scope.

(* ------------------------------------------------------------------ *)
(* Part 1: what holds in every state, also after a malformed handshake
   stream. *)

Definition pos_wk (h : handler) : Prop :=
  1 <= hs_hdr h /\ (hs_st h = READ_DATA -> 1 <= hs_data h) /\
  Forall (fun f => f <> []) (hs_frags h) /\ (hs_st h = READ_DATA -> hs_frags h <> []).

Definition hs_wk (h : handler) (o : option (list bytes)) : Prop := pos_wk h /\ tick_ok h o.

Lemma store_fragment_weak : forall h f, pos_wk h -> f <> [] -> safe (store_fragment h f) (fun h' =>
  hs_tickets h' = hs_tickets h /\ hs_num h' = hs_num h /\ hs_retrieved h' = hs_retrieved h /\
  hs_data h' = hs_data h /\ hs_hdr h' = hs_hdr h /\ hs_st h' = hs_st h /\
  Forall (fun f => f <> []) (hs_frags h') /\ hs_frags h' <> []).
Proof.
  intros h f (_ & _ & Hf & Hne) Hn. unfold store_fragment.
  assert (Hs : safe (Done (with_frags h (hs_frags h ++ [f]))) (fun h' =>
    hs_tickets h' = hs_tickets h /\ hs_num h' = hs_num h /\ hs_retrieved h' = hs_retrieved h /\
    hs_data h' = hs_data h /\ hs_hdr h' = hs_hdr h /\ hs_st h' = hs_st h /\
    Forall (fun f => f <> []) (hs_frags h') /\ hs_frags h' <> [])).
  { cbn [safe with_frags hs_tickets hs_num hs_retrieved hs_data hs_hdr hs_st hs_frags]. repeat (split; [reflexivity|]).
    split; [apply Forall_app; split; [exact Hf|]; apply Forall_cons; [exact Hn|apply Forall_nil]|].
    destruct (hs_frags h); discriminate. }
  destruct (ignore_future_tickets h); [|exact Hs].
  destruct (hs_st h) eqn:E; [exact Hs|]. specialize (Hne eq_refl). unfold get_message_type.
  destruct (hs_frags h) as [|[|b l] r] eqn:Ef; [contradiction|exfalso; exact (Forall_inv Hf eq_refl)|]. cbn [obind].
  destruct (b =? kSessionTicketMessageType); [|exact Hs]. cbn [safe]. rewrite Ef, E. repeat (split; [reflexivity|]).
  split; [exact Hf|discriminate].
Qed.

Lemma tick_ok_same : forall h h' o, tick_ok h o ->
  hs_tickets h' = hs_tickets h -> hs_num h' = hs_num h -> hs_retrieved h' = hs_retrieved h ->
  tick_ok h' o.
Proof.
  intros h h' [l|] H E1 E2 E3; cbn in *; rewrite E1, E2, E3; exact H.
Qed.

Lemma data_size_fragment_safe : forall f a s acc, safe (data_size_fragment f a s acc) (fun _ => True).
Proof.
  induction f as [|b f IH]; intros a s acc; cbn; [exact I|].
  destruct (a =? 1); [apply IH|]. destruct (s <? 0)%Z; [reflexivity|].
  destruct (kTlsHandshakeHeaderLength <? a + 1); [exact I|apply IH].
Qed.

Lemma data_size_fragments_safe : forall fs a s acc, safe (data_size_fragments fs a s acc) (fun _ => True).
Proof.
  induction fs as [|f fs IH]; intros a s acc; cbn; [exact I|].
  eapply safe_bind; [apply data_size_fragment_safe|]. intros [[a' s'] acc'] _. apply IH.
Qed.

Lemma dropN_shorter : forall A n (l : list A), 1 <= n -> l <> [] ->
  (length (dropN n l) < length l)%nat.
Proof.
  intros A n l Hn Hl. unfold dropN. rewrite skipn_length. destruct l; [contradiction|]. cbn [length]. lia.
Qed.

Lemma read_step_weak : forall h o pt, hs_wk h o -> pt <> [] ->
  safe (read_step h pt) (fun '(rest, full, h') => hs_wk h' o /\ (length rest < length pt)%nat /\
    hs_frags h' <> [] /\ (full = true -> hs_st h' = READ_HEADER)).
Proof.
  intros h o pt [Hp Ht] Hne. unfold read_step. pose proof Hp as (Hp1 & Hp2 & _).
  assert (Hl : (0 < length pt)%nat) by (destruct pt; [contradiction|cbn; lia]).
  assert (Htk : forall n, 1 <= n -> takeN n pt <> []).
  { intros n Hn. unfold takeN. destruct pt as [|z pt]; [contradiction|]. destruct (N.to_nat n) eqn:En; [lia|discriminate]. }
  destruct (hs_st h) eqn:Est.
  - destruct (N.leb_spec (hs_hdr h) (lenN pt)) as [Hle|Hgt].
    + eapply safe_bind; [apply store_fragment_weak; auto|]. intros h1 (E1 & E2 & E3 & E4 & E5 & E6 & E7 & E8).
      eapply safe_bind; [apply data_size_fragments_safe|]. intros size _. cbn [safe].
      split; [split|split; [apply dropN_shorter; assumption|split; [exact E8|discriminate]]].
      * split; cbn [with_pos hs_hdr hs_st hs_data hs_frags]; [unfold kTlsHandshakeHeaderLength; lia|].
        split; [destruct (N.ltb_spec 0 size); [lia|discriminate]|]. split; [exact E7|auto].
      * eapply tick_ok_same; eauto.
    + eapply safe_bind; [apply store_fragment_weak; auto|]. intros h1 (E1 & E2 & E3 & E4 & E5 & E6 & E7 & E8). cbn [safe].
      split; [split|split; [exact Hl|split; [exact E8|discriminate]]].
      * split; cbn [with_pos hs_hdr hs_st hs_data hs_frags]; [lia|]. split; [discriminate|]. split; [exact E7|auto].
      * eapply tick_ok_same; eauto.
  - specialize (Hp2 eq_refl). destruct (N.leb_spec (hs_data h) (lenN pt)) as [Hle|Hgt].
    + eapply safe_bind; [apply store_fragment_weak; auto|]. intros h1 (E1 & E2 & E3 & E4 & E5 & E6 & E7 & E8). cbn [safe].
      split; [split|split; [apply dropN_shorter; assumption|split; [exact E8|reflexivity]]].
      * split; cbn [with_pos hs_hdr hs_st hs_data hs_frags]; [lia|]. split; [discriminate|]. split; [exact E7|auto].
      * eapply tick_ok_same; eauto.
    + eapply safe_bind; [apply store_fragment_weak; auto|]. intros h1 (E1 & E2 & E3 & E4 & E5 & E6 & E7 & E8). cbn [safe].
      split; [split|split; [exact Hl|split; [exact E8|discriminate]]].
      * split; cbn [with_pos hs_hdr hs_st hs_data hs_frags]; [lia|]. split; [intros _; lia|]. split; [exact E7|auto].
      * eapply tick_ok_same; eauto.
Qed.

Lemma get_message_type_safe : forall h, pos_wk h -> hs_frags h <> [] -> safe (get_message_type h) (fun _ => True).
Proof.
  intros h (_ & _ & Hf & _) Hn. unfold get_message_type.
  destruct (hs_frags h) as [|[|b l] r]; [contradiction|exfalso; exact (Forall_inv Hf eq_refl)|exact I].
Qed.

Lemma no_frags_wk : forall h o, hs_wk h o -> hs_st h = READ_HEADER -> hs_wk (with_frags h []) o.
Proof.
  intros h o ((H1 & H2 & _ & _) & Ht) E. split; [|exact Ht].
  split; [exact H1|]. split; [exact H2|]. split; [apply Forall_nil|]. cbn [with_frags hs_st]. rewrite E. discriminate.
Qed.

Definition same_kind (o o' : option (list bytes)) : Prop := o = None <-> o' = None.

Lemma add_ticket_weak : forall h o, hs_wk h o -> hs_st h = READ_HEADER -> ignore_future_tickets h = false ->
  safe (add_ticket h) (fun h' => exists o', hs_wk h' o' /\ same_kind o o' /\ hs_st h' = hs_st h).
Proof.
  intros h o [(Hp1 & Hp2 & Hp3 & Hp4) Ht] Hst Hi. unfold ignore_future_tickets in Hi. apply orb_false_elim in Hi.
  destruct Hi as [Hr Hn]. unfold kMaxNumTicketsToProcess in Hn.
  destruct o as [l|]; cbn in Ht.
  - destruct Ht as (ts & E1 & E2 & E3 & E4 & E5). unfold add_ticket. rewrite E1. cbn [safe].
    exists (Some (l ++ [concat (hs_frags h)])). split; [split|split; [split; discriminate|reflexivity]].
    { split; [exact Hp1|]. split; [exact Hp2|]. split; [apply Forall_nil|]. cbn [hs_st]. rewrite Hst. discriminate. }
    cbn. exists (ts ++ [hs_frags h]). split; [reflexivity|].
    rewrite map_app. cbn [map]. split; [rewrite <- E2; reflexivity|].
    rewrite lenN_app. change (lenN [concat (hs_frags h)]) with 1.
    split; [rewrite wrap64_small; [lia|unfold two64; lia]|]. split; [lia|exact E5].
  - destruct Ht as (_ & _ & K). congruence.
Qed.

Lemma process_loop_weak : forall fuel h o pt cu ct, (length pt <= fuel)%nat -> hs_wk h o ->
  safe (process_loop fuel h pt cu ct) (fun '(h', _) => exists o', hs_wk h' o' /\ same_kind o o').
Proof.
  induction fuel as [|fuel IH]; intros h o pt cu ct Hl Hw.
  { destruct pt; [|cbn in Hl; lia]. cbn. exists o. split; [exact Hw|split; auto]. }
  destruct pt as [|z pt]; [cbn; exists o; split; [exact Hw|split; auto]|].
  cbn [process_loop]. eapply safe_bind; [apply (read_step_weak h o (z :: pt) Hw); discriminate|].
  intros [[rest full] h1] (Hw1 & Hlt & Hfr & Hfull).
  eapply safe_bind; [apply get_message_type_safe; [apply Hw1|exact Hfr]|]. intros t _.
  assert (Hrest : (length rest <= fuel)%nat) by lia.
  assert (Hfin : forall r, safe (Done (h1, r) : outcome (handler * (code + hs_result)))
            (fun '(h', _) => exists o', hs_wk h' o' /\ same_kind o o')).
  { intros r. cbn. exists o. split; [exact Hw1|split; auto]. }
  destruct (t =? kKeyUpdateMessageType).
  - destruct full; [|apply IH; assumption]. destruct rest; [|apply Hfin].
    cbn [safe]. exists o. split; [apply no_frags_wk; auto|split; auto].
  - destruct (t =? kSessionTicketMessageType); [|apply Hfin].
    destruct full; [|apply IH; assumption].
    destruct (ignore_future_tickets h1) eqn:Ei; cbn [obind].
    + apply IH; [exact Hrest|apply no_frags_wk; auto].
    + eapply safe_bind; [apply (add_ticket_weak h1 o Hw1 (Hfull eq_refl) Ei)|].
      intros h2 (o2 & Hw2 & K2 & K2').
      assert (Hw2' : hs_wk (with_frags h2 []) o2) by (apply no_frags_wk; [exact Hw2|rewrite K2'; auto]).
      eapply safe_mono; [apply (IH _ _ _ _ _ Hrest Hw2')|].
      intros [h' r] (o3 & Hw3 & K3). exists o3. split; [exact Hw3|].
      unfold same_kind in *. rewrite K2. exact K3.
Qed.

(* ---- the crypter ---- *)

(* At most one call of the ticket sender, with the configured parameters. *)
Definition sent_wk (x : crypt) (o : option (list bytes)) : Prop :=
  match o with
  | Some _ => cx_sent x = []
  | None => exists ts ch, cx_sent x = [the_send x ts ch] /\ lenN ts <= 5
  end.

Definition cx_wk (x : crypt) : Prop :=
  exists o, hs_wk (cx_handler x) o /\ sent_wk x o.

Lemma send_tickets_weak : forall x, cx_wk x ->
  safe (send_tickets x) (fun x' => cx_wk x' /\ same_frame x x' /\ cx_in x' = cx_in x /\
    cx_close x' = cx_close x).
Proof.
  intros x (o & [Hp Ht] & Hs). unfold send_tickets.
  set (h := cx_handler x) in *.
  assert (Hg : safe (get_stored_tickets h) (fun '(h', r) =>
     match r with
     | inl _ => h' = h
     | inr ts => (exists l, o = Some l /\ map (@concat N) ts = l /\ lenN l <= 5) /\ hs_wk h' None
     end)).
  { unfold get_stored_tickets. destruct (hs_retrieved h) eqn:Er; [reflexivity|].
    assert (Hgo : safe (match hs_tickets h with
      | None => Undef UbNullDeref
      | Some ts => Done ({| hs_frags := hs_frags h; hs_tickets := None; hs_num := 0;
          hs_retrieved := true; hs_data := hs_data h; hs_hdr := hs_hdr h; hs_st := hs_st h |},
          @inr code _ ts) end)
      (fun '(h', r) => match r with
       | inl _ => h' = h
       | inr ts => (exists l, o = Some l /\ map (@concat N) ts = l /\ lenN l <= 5) /\ hs_wk h' None
       end)).
    { destruct o as [l|]; cbn in Ht.
      - destruct Ht as (ts & E1 & E2 & E3 & E4 & E5). rewrite E1. cbn [safe].
        split; [exists l; auto|]. split; [exact Hp|]. cbn. auto.
      - destruct Ht as (_ & _ & K). congruence. }
    destruct (expecting_more h) eqn:Ee; [|exact Hgo].
    eapply safe_bind; [apply get_message_type_safe; [exact Hp|unfold expecting_more in Ee; destruct (hs_frags h); discriminate]|]. intros t _.
    destruct (t =? kSessionTicketMessageType); [reflexivity|exact Hgo]. }
  eapply safe_bind; [exact Hg|]. intros [h' [c|ts]] H; cbn [safe].
  - subst h'. unfold h. rewrite set_handler_same.
    split; [exists o; split; [split|]; assumption|]. split; [apply same_frame_refl|auto].
  - destruct H as ((l & -> & El & Hl5) & Hw). cbn in Hs.
    split; [|split; [constructor; reflexivity|auto]].
    exists None. split; [exact Hw|]. cbn [sent_wk]. exists l, (cx_channel x).
    cbn [add_sent cx_sent]. rewrite Hs, El. split; [reflexivity|exact Hl5].
Qed.

(* The relation a weak step of Unprotect preserves. *)
Record weak_step (P : prims) (x : crypt) (din : dir) (x' : crypt) (st : scode) (n : N) : Prop := {
  ws_wk : cx_wk x';
  ws_frame : same_frame x x';
  ws_in : forall s q S0, used_inv P s q S0 (cx_in x) din ->
    exists d', half_rel P (cx_in x') d' /\ used_inv P s q S0 (cx_in x') d';
  ws_close : cx_close x = true -> cx_close x' = true;
  ws_alert : st = S_ALERT_CLOSE_NOTIFY -> cx_close x' = true;
  ws_n : st <> S_OK -> n = 0
}.

Definition safeM {A} (m : M A) (fs : faults) (Q : A -> Prop) : Prop :=
  safe (m fs) (fun '(a, _) => Q a).

Lemma safeM_bind : forall A B (m : M A) (k : A -> M B) fs (Q : A -> Prop) (R : B -> Prop),
  safeM m fs Q -> (forall a fs', Q a -> safeM (k a) fs' R) -> safeM (bind m k) fs R.
Proof.
  intros A B m k fs Q R H K. unfold safeM, bind in *. destruct (m fs) as [[a fs']|u|]; cbn in *; auto.
Qed.
Lemma safeM_lift : forall A (o : outcome A) fs (Q : A -> Prop), safe o Q -> safeM (lift o) fs Q.
Proof. intros A [a|u|] fs Q H; cbn in *; auto. Qed.
Lemma safeM_ret : forall A (a : A) fs (Q : A -> Prop), Q a -> safeM (ret a) fs Q.
Proof. intros; assumption. Qed.

Lemma cx_wk_phase : forall x p e, cx_wk x -> cx_wk (set_phase x p e).
Proof. intros x p e (o & H1 & H2). exists o. split; [exact H1|]. destruct o; exact H2. Qed.
Lemma cx_wk_in : forall x h, cx_wk x -> cx_wk (set_in x h).
Proof. intros x h (o & H1 & H2). exists o. split; [exact H1|]. destruct o; exact H2. Qed.
Lemma cx_wk_close : forall x, cx_wk x -> cx_wk (set_close x).
Proof. intros x (o & H1 & H2). exists o. split; [exact H1|]. destruct o; exact H2. Qed.
Lemma cx_wk_out : forall x h, cx_wk x -> cx_wk (set_out x h).
Proof. intros x h (o & H1 & H2). exists o. split; [exact H1|]. destruct o; exact H2. Qed.

Lemma handle_result_weak : forall P lib x r fs d, prims_ok P -> half_rel P (cx_in x) d -> cx_wk x ->
  safeM (handle_result P lib x r) fs (fun '(x', st) => cx_wk x' /\ same_frame x x' /\
    (forall s q S0, used_inv P s q S0 (cx_in x) d ->
       exists d', half_rel P (cx_in x') d' /\ used_inv P s q S0 (cx_in x') d') /\
    cx_close x' = cx_close x).
Proof.
  intros P lib x [c|r] fs d HP R Hw.
  { cbn. split; [exact Hw|]. split; [apply same_frame_refl|]. eauto. }
  rewrite handle_result_inr.
  set (x1 := set_phase x (cx_phase x) (r_expecting r)).
  assert (Hw1 : cx_wk x1) by (apply cx_wk_phase; exact Hw).
  eapply (safeM_bind _ _ _ _ _ (fun '(x2, _) => exists h' d', x2 = set_in x1 h' /\ half_rel P h' d' /\
    forall s q S0, used_inv P s q S0 (cx_in x) d -> used_inv P s q S0 h' d')).
  - destruct (r_key_update r).
    + destruct (half_update_spec P lib (cx_in x1) d fs HP R) as (h' & st & fs' & E & Eu & Ho & Hf & _).
      unfold safeM. rewrite (bind_done _ _ _ _ _ _ _ E). cbn.
      exists h'. destruct (is_ok st) eqn:Es.
      * apply is_ok_true in Es. destruct (Ho Es) as [A B]. exists (dir_update P d).
        split; [reflexivity|]. split; [exact A|]. intros. eapply used_inv_upd; eauto.
      * apply is_ok_false in Es. destruct (Hf Es) as [A B]. exists (dir_break d).
        split; [reflexivity|]. split; [exact A|]. intros. eapply used_inv_break; eauto.
    + apply safeM_ret. exists (cx_in x1), d. rewrite set_in_same. auto.
  - intros [x2 failed] fs' (h' & d' & -> & R' & U').
    assert (Hw2 : cx_wk (set_in x1 h')) by (apply cx_wk_in; exact Hw1).
    assert (Hsf : same_frame x (set_in x1 h')) by (constructor; reflexivity).
    destruct failed.
    { cbn. split; [exact Hw2|]. split; [exact Hsf|]. eauto. }
    set (x2 := set_in x1 h') in *.
    assert (Hgo : forall y, cx_wk y -> same_frame x y -> cx_in y = h' -> cx_close y = cx_close x ->
       safeM (if r_ticket r && (kMaxNumTicketsToProcess <=? r_num r)
              then x0 <- lift (send_tickets y);; ret (set_phase x0 DONE false, kOk)
              else ret (y, kOk)) fs' (fun '(x', st) => cx_wk x' /\ same_frame x x' /\
         (forall s q S0, used_inv P s q S0 (cx_in x) d ->
            exists d', half_rel P (cx_in x') d' /\ used_inv P s q S0 (cx_in x') d') /\
         cx_close x' = cx_close x)).
    { intros y Hy Hf Ei Ec. destruct (r_ticket r && (kMaxNumTicketsToProcess <=? r_num r)).
      - eapply safeM_bind; [apply safeM_lift; apply send_tickets_weak; exact Hy|].
        intros y' fs2 (A1 & A2 & A3 & A4). apply safeM_ret.
        split; [apply cx_wk_phase; exact A1|].
        split; [apply (same_frame_trans _ _ _ Hf); destruct A2; constructor; assumption|].
        split; [|cbn; congruence]. intros s q S0 U. exists d'. cbn. rewrite A3, Ei. split; [exact R'|apply U'; exact U].
      - apply safeM_ret. split; [exact Hy|]. split; [exact Hf|].
        split; [|exact Ec]. intros s q S0 U. exists d'. rewrite Ei. split; [exact R'|apply U'; exact U]. }
    unfold handle_tail. destruct (cx_phase x2).
    + destruct (r_ticket r) eqn:Et.
      * apply (Hgo (set_phase x2 RECEIVING (cx_expecting x2)));
          [apply cx_wk_phase; exact Hw2|constructor; reflexivity|reflexivity|reflexivity].
      * apply (Hgo x2); auto.
    + apply (Hgo x2); auto.
    + apply safeM_ret. split; [exact Hw2|]. split; [exact Hsf|]. split; [eauto|reflexivity].
Qed.

Lemma unprotect_weak : forall P lib x din hdr payload buf fs,
  prims_ok P -> half_rel P (cx_in x) din -> cx_wk x ->
  bytes_ok hdr -> Forall iov_valid payload -> lenN hdr + sum_lens payload < two64 ->
  safeM (crypt_unprotect P lib x (IoBuf hdr) payload (IoBuf buf)) fs
    (fun '(x', (st, n), out) => weak_step P x din x' st n /\
       exists out', out = IoBuf out' /\ lenN out' = lenN buf).
Proof.
  intros P lib x din hdr payload buf fs HP R Hw Hbh Hv Hsz.
  destruct (crypt_unprotect_spec P lib x din hdr payload buf fs HP R Hbh Hv Hsz) as (K1 & K2 & K3).
  unfold safeM.
  assert (Hself : forall st n, (st = S_ALERT_CLOSE_NOTIFY -> cx_close x = true) -> (st <> S_OK -> n = 0) ->
            weak_step P x din x st n).
  { intros st n H1 H2. constructor; auto; [apply same_frame_refl|eauto]. }
  destruct (cx_close x) eqn:Ec.
  { rewrite K1 by reflexivity. cbn. split; [apply Hself; auto|eauto]. }
  assert (Hwf : well_formed hdr (sum_lens payload) \/ ~ well_formed hdr (sum_lens payload)).
  { unfold well_formed. destruct (list_eq_dec N.eq_dec hdr (tls_header (sum_lens payload))) as [E|E];
      [|right; intros [? _]; contradiction].
    destruct (N.le_gt_cases 17 (sum_lens payload)); [|right; lia].
    destruct (N.le_gt_cases (sum_lens payload) (16384 + 17)); [left; auto|right; lia]. }
  destruct Hwf as [Hwf|Hwf].
  2:{ rewrite K2 by auto. cbn [safe]. split; [|eauto]. apply Hself; [|auto].
      destruct (22 + 16384 <? lenN hdr + sum_lens payload); intros K; discriminate K. }
  destruct (K3 eq_refl Hwf) as (h' & fs1 & Hep & Hun & Hus & [[E _]|(msg & buf' & Hu & E1 & E2 & E3 & E4 & E)]);
    rewrite E.
  - cbn [safe]. split; [|eexists; split; [reflexivity|apply lenN_zeros]].
    assert (Hr : forall s q S0, used_inv P s q S0 (cx_in x) din ->
      exists d', half_rel P h' d' /\ used_inv P s q S0 h' d').
    { intros s q S0 Ud. destruct (dir_usable_dec din) as [Hu|Hu].
      - destruct (Hus Hu) as [Ra Rb]. exists (dir_next din). split; [exact Ra|].
        eapply used_inv_next; eauto.
      - destruct (Hun Hu) as [-> ->]. eauto. }
    constructor; auto; try discriminate; try (apply cx_wk_in; exact Hw); try (constructor; reflexivity).
  - assert (Hb' : lenN buf' = lenN buf).
    { rewrite E3, lenN_app, lenN_dropN. lia. }
    assert (R1 : half_rel P h' (dir_next din)) by (destruct (Hus Hu); assumption).
    assert (U1 : forall s q S0, used_inv P s q S0 (cx_in x) din -> used_inv P s q S0 h' (dir_next din)).
    { intros. destruct (Hus Hu). eapply used_inv_next; eauto. }
    assert (RU : forall s q S0, used_inv P s q S0 (cx_in x) din ->
      exists d', half_rel P h' d' /\ used_inv P s q S0 h' d') by eauto.
    set (x1 := set_in x h') in *.
    assert (Hw1 : cx_wk x1) by (apply cx_wk_in; exact Hw).
    assert (Hself1 : forall st n, (st = S_ALERT_CLOSE_NOTIFY -> False) -> (st <> S_OK -> n = 0) ->
              weak_step P x din x1 st n).
    { intros st n H1 H2. constructor; auto; try (constructor; reflexivity);
        try exact RU; intros K; try (destruct (H1 K)); congruence. }
    assert (Hz : lenN (zeros (lenN buf')) = lenN buf) by (rewrite lenN_zeros; exact Hb').
    fold (safeM (deliver P lib x1 (lenN msg) (IoBuf buf')) fs1
      (fun '(x', (st, n), out) => weak_step P x din x' st n /\
       exists out', out = IoBuf out' /\ lenN out' = lenN buf)).
    unfold deliver. cbn [iov_data].
    destruct (scan_type (rev (takeN (lenN msg) buf'))) as [[ty content]|].
    2:{ apply safeM_ret. split; [apply Hself1; [discriminate|auto]|eauto]. }
    destruct (ty =? kTls13Alert).
    { destruct content as [|a [|b rest]].
      - apply safeM_ret. split; [apply Hself1; [discriminate|auto]|]. eexists; split; [reflexivity|exact Hz].
      - apply safeM_ret. split; [apply Hself1; [discriminate|auto]|]. eexists; split; [reflexivity|exact Hz].
      - unfold lift, bind, safeM. cbn [zero_out]. destruct (b =? kTlsAlertCloseNotify); cbn.
        + split; [|eexists; split; [reflexivity|exact Hz]]. constructor; auto;
            try (apply cx_wk_close; exact Hw1); try (constructor; reflexivity);
            try exact RU.
        + split; [apply Hself1; [discriminate|auto]|]. eexists; split; [reflexivity|exact Hz]. }
    destruct (ty =? kTls13Handshake).
    { destruct Hw1 as (o & Hhw & Hsw).
      eapply safeM_bind; [apply safeM_lift; apply (process_loop_weak _ _ o _ _ _ (le_n _) Hhw)|].
      intros [h2 r] fs2 (o2 & Hhw2 & Hk).
      assert (Hw2 : cx_wk (set_handler x1 h2)).
      { exists o2. split; [exact Hhw2|]. destruct o, o2; cbn in *; auto;
          destruct Hk as [k1 k2]; try (specialize (k1 eq_refl); discriminate);
          specialize (k2 eq_refl); discriminate. }
      eapply safeM_bind; [apply (handle_result_weak P lib (set_handler x1 h2) r fs2 (dir_next din) HP R1 Hw2)|].
      intros [x3 st] fs3 (A1 & A2 & A3 & A4).
      assert (Hws : forall st n, (st = S_ALERT_CLOSE_NOTIFY -> False) -> (st <> S_OK -> n = 0) ->
               weak_step P x din x3 st n).
      { intros st' n H1 H2. constructor; auto; try (destruct A2; constructor; assumption);
          intros K; try (destruct (H1 K)); rewrite A4; cbn; congruence. }
      destruct (negb (is_ok st)); apply safeM_ret; (split; [apply Hws; [discriminate|auto]|eauto]). }
    destruct (ty =? kTls13ApplicationData).
    { destruct (cx_expecting x1).
      - apply safeM_ret. split; [apply Hself1; [discriminate|auto]|eauto].
      - eapply (safeM_bind _ _ _ _ _ (fun x3 => cx_wk x3 /\ same_frame x1 x3 /\ cx_in x3 = cx_in x1 /\
           cx_close x3 = cx_close x1)).
        + apply safeM_lift. destruct (cx_phase x1).
          * cbn. split; [exact Hw1|]. split; [apply same_frame_refl|auto].
          * eapply safe_bind; [apply send_tickets_weak; exact Hw1|].
            intros x3 (A1 & A2 & A3 & A4). cbn.
            split; [apply cx_wk_phase; exact A1|]. split; [destruct A2; constructor; assumption|auto].
          * cbn. split; [exact Hw1|]. split; [apply same_frame_refl|auto].
        + intros x3 fs3 (A1 & A2 & A3 & A4). apply safeM_ret. split; [|eauto].
          constructor; auto; try (destruct A2; constructor; assumption); try discriminate;
            try (intros K; contradiction).
          * rewrite A3. exact RU.
          * rewrite A4. cbn. congruence. }
    unfold lift, bind, safeM. cbn. split; [apply Hself1; [discriminate|auto]|].
    eexists; split; [reflexivity|exact Hz].
Qed.

(* ------------------------------------------------------------------ *)
(* Part 2: histories, all states *)

Record cx_winv (P : prims) (a : create_args) (x : crypt) (dout : dir) : Prop := {
  cw_out : half_rel P (cx_out x) dout;
  cw_out_used : used_inv P (ca_suite a) (ca_out_seq a) (ca_out_secret a) (cx_out x) dout;
  cw_in : exists din, half_rel P (cx_in x) din /\
    used_inv P (ca_suite a) (ca_in_seq a) (ca_in_secret a) (cx_in x) din;
  cw_wk : cx_wk x;
  cw_url : cx_url x = ca_url a;
  cw_cid : cx_connection_id x = ca_connection_id a;
  cw_id : cx_identity x = ca_identity a
}.

Lemma crypt_create_spec : forall P lib a fs,
  prims_ok P -> ca_in_seq a < two64 -> ca_out_seq a < two64 ->
  exists r fs', crypt_create P lib a fs = Done (r, fs') /\
    (forall c, r = inl c -> c <> kOk) /\
    (forall x, r = inr x ->
       ca_url a <> [] /\ ca_logger a = true /\ ca_sender a = true /\ ca_tls a = TLS1_3 /\
       lenN (ca_in_secret a) = spec_hash_len (ca_suite a) /\
       lenN (ca_out_secret a) = spec_hash_len (ca_suite a) /\
       half_rel P (cx_in x) (dir_start (ca_suite a) (ca_in_secret a) (ca_in_seq a)) /\
       half_rel P (cx_out x) (dir_start (ca_suite a) (ca_out_secret a) (ca_out_seq a)) /\
       hc_epoch (cx_in x) = 0 /\ hc_used (cx_in x) = [] /\
       hc_epoch (cx_out x) = 0 /\ hc_used (cx_out x) = [] /\
       x = {| cx_connection_id := ca_connection_id a; cx_url := ca_url a;
              cx_identity := ca_identity a; cx_in := cx_in x; cx_out := cx_out x;
              cx_close := false; cx_handler := new_handler; cx_phase := NOT_RECEIVED;
              cx_expecting := false; cx_channel := ca_channel a; cx_sent := [] |}) /\
    (ca_url a <> [] -> ca_logger a = true -> ca_sender a = true -> ca_tls a = TLS1_3 ->
     lenN (ca_in_secret a) = spec_hash_len (ca_suite a) ->
     lenN (ca_out_secret a) = spec_hash_len (ca_suite a) -> fs = [] ->
     fs' = [] /\ exists x, r = inr x) /\
    (ca_url a = [] \/ ca_logger a = false \/ ca_sender a = false \/ ca_tls a = TLS1_2 \/
     lenN (ca_in_secret a) <> spec_hash_len (ca_suite a) -> r = inl kInvalidArgument).
Proof.
  intros P lib a fs HP Hi Ho. unfold crypt_create.
  assert (Hbad : forall (X : Prop), X ->
    ~ (ca_url a <> [] /\ ca_logger a = true /\ ca_sender a = true /\ ca_tls a = TLS1_3 /\
     lenN (ca_in_secret a) = spec_hash_len (ca_suite a)) ->
    exists (r : code + crypt) fs', @ret (code + crypt) (inl kInvalidArgument) fs = Done (r, fs') /\
    (forall c, r = inl c -> c <> kOk) /\
    (forall x, r = inr x -> False) /\
    (ca_url a <> [] -> ca_logger a = true -> ca_sender a = true -> ca_tls a = TLS1_3 ->
     lenN (ca_in_secret a) = spec_hash_len (ca_suite a) ->
     lenN (ca_out_secret a) = spec_hash_len (ca_suite a) -> fs = [] ->
     fs' = [] /\ exists x, r = inr x) /\
    r = inl kInvalidArgument).
  { intros X _ Hn. do 2 eexists; split; [reflexivity|].
    split; [intros c E; inversion E; discriminate|]. split; [discriminate|]. split; [|auto].
    intros. exfalso. apply Hn. auto. }
  destruct (ca_url a) as [|u0 url] eqn:Eu.
  { rewrite lenN_nil. cbn [N.eqb].
    destruct (Hbad True I) as (r & fs' & E & A & B & C & D); [intros (K & _); congruence|].
    exists r, fs'. split; [exact E|]. split; [exact A|].
    split; [intros x K; destruct (B x K)|]. split; [exact C|auto]. }
  assert (Hnz : lenN (u0 :: url) =? 0 = false) by (apply N.eqb_neq; rewrite lenN_cons; lia).
  rewrite Hnz. rewrite <- Eu in *. assert (Hne : ca_url a <> []) by congruence.
  destruct (ca_logger a) eqn:El; cbn [negb].
  2:{ destruct (Hbad True I) as (r & fs' & E & A & B & C & D); [intros (_ & K & _); congruence|].
      exists r, fs'. split; [exact E|]. split; [exact A|].
      split; [intros x K; destruct (B x K)|]. split; [exact C|auto]. }
  destruct (ca_sender a) eqn:Es; cbn [negb].
  2:{ destruct (Hbad True I) as (r & fs' & E & A & B & C & D); [intros (_ & _ & K & _); congruence|].
      exists r, fs'. split; [exact E|]. split; [exact A|].
      split; [intros x K; destruct (B x K)|]. split; [exact C|auto]. }
  destruct (ca_tls a) eqn:Et.
  { destruct (Hbad True I) as (r & fs' & E & A & B & C & D); [intros (_ & _ & _ & K & _); congruence|].
    exists r, fs'. split; [exact E|]. split; [exact A|].
    split; [intros x K; destruct (B x K)|]. split; [exact C|auto]. }
  clear Hbad.
  destruct (half_create_spec P lib (ca_suite a) (ca_in_seq a) (ca_in_secret a) fs HP Hi)
    as (r1 & fs1 & E1 & A1 & B1 & C1 & D1).
  rewrite (bind_done _ _ _ _ _ _ _ E1).
  destruct r1 as [c1|hin].
  { do 2 eexists; split; [reflexivity|].
    split; [intros c E; inversion E; subst; apply C1; reflexivity|].
    split; [discriminate|]. split.
    - intros _ _ _ _ H1 _ Hf. destruct (D1 H1 Hf) as (_ & h & K). discriminate.
    - intros [K|[K|[K|[K|K]]]]; try congruence. destruct (B1 K) as [K' _]. congruence. }
  destruct (A1 hin eq_refl) as (R1 & Ep1 & Us1 & L1).
  destruct (half_create_spec P lib (ca_suite a) (ca_out_seq a) (ca_out_secret a) fs1 HP Ho)
    as (r2 & fs2 & E2 & A2 & B2 & C2 & D2).
  rewrite (bind_done _ _ _ _ _ _ _ E2).
  destruct r2 as [c2|hout].
  { do 2 eexists; split; [reflexivity|].
    split; [intros c E; inversion E; subst; apply C2; reflexivity|].
    split; [discriminate|]. split.
    - intros _ _ _ _ H1 H2 Hf. destruct (D1 H1 Hf) as (Hf1 & _). destruct (D2 H2 Hf1) as (_ & h & K). discriminate.
    - intros [K|[K|[K|[K|K]]]]; congruence. }
  destruct (A2 hout eq_refl) as (R2 & Ep2 & Us2 & L2).
  do 2 eexists; split; [reflexivity|].
  split; [discriminate|]. split.
  - intros x E. inversion E; subst. cbn [cx_in cx_out]. auto 15.
  - split.
    + intros _ _ _ _ H1 H2 Hf. destruct (D1 H1 Hf) as (Hf1 & _). destruct (D2 H2 Hf1) as (Hf2 & _). eauto.
    + intros [K|[K|[K|[K|K]]]]; congruence.
Qed.

Lemma new_handler_wk : hs_wk new_handler (Some []).
Proof.
  split; [split; cbn; [unfold kTlsHandshakeHeaderLength; lia|repeat split; [discriminate|apply Forall_nil|discriminate]]|].
  cbn. exists []. repeat split; lia.
Qed.

Lemma create_winv : forall P lib a fs fs' x, prims_ok P -> ca_in_seq a < two64 -> ca_out_seq a < two64 ->
  crypt_create P lib a fs = Done (inr x, fs') ->
  cx_winv P a x (dir_start (ca_suite a) (ca_out_secret a) (ca_out_seq a)) /\ cx_close x = false.
Proof.
  intros P lib a fs fs' x HP Hi Ho E.
  destruct (crypt_create_spec P lib a fs HP Hi Ho) as (r & fs1 & E1 & _ & H & _).
  rewrite E in E1. inversion E1; subst.
  destruct (H x eq_refl) as (_ & _ & _ & _ & L1 & L2 & R1 & R2 & Ei & Ui & Eo & Uo & Ex).
  split; [|rewrite Ex; reflexivity].
  constructor; auto.
  - apply used_inv_start; [lia|exact Eo|exact Uo].
  - eexists; split; [exact R1|]. apply used_inv_start; [lia|exact Ei|exact Ui].
  - rewrite Ex. exists (Some []). split; [apply new_handler_wk|reflexivity].
  - rewrite Ex; reflexivity.
  - rewrite Ex; reflexivity.
  - rewrite Ex; reflexivity.
Qed.

Definition is_close_res (r : cres) : Prop := exists n b, r = CUnprotected S_ALERT_CLOSE_NOTIFY n b.

Lemma fits_in_spec : forall pt buf, fits_in pt buf = true <-> fits pt buf.
Proof. intros pt buf. unfold fits_in, fits. lia. Qed.

Lemma cstep_weak : forall P lib a x dout op fs,
  prims_ok P -> cx_winv P a x dout -> cop_ok op ->
  safe (cstep P lib x op fs) (fun '(x', r) =>
    cx_winv P a x' (tx_step P dout op r) /\
    (cx_close x = true -> cx_close x' = true) /\ (is_close_res r -> cx_close x' = true) /\
    match op, r with
    | CProtect _ _ _, CProtected _ _ _ => True
    | CUnprotect _ _ _, CUnprotected _ _ _ => True
    | CUpdateKey, CUpdated _ => True
    | _, _ => False
    end).
Proof.
  intros P lib a x dout op fs HP [Wo Wu (din & Wi & Wiu) Ww W1 W2 W3] Hok.
  destruct op as [t pt buf|hdr payload buf|]; cbn [cstep cop_ok] in *.
  - destruct (crypt_protect_spec P x din dout t pt buf fs HP Wi Wo Hok)
      as (h' & st & n & buf' & fs' & E & _ & Ee & Hnf & Hf).
    rewrite E. cbn [obind safe tx_step].
    split; [|split; [auto|split; [intros (? & ? & K); discriminate|exact I]]].
    assert (Hgen : forall d, half_rel P h' d ->
      used_inv P (ca_suite a) (ca_out_seq a) (ca_out_secret a) h' d -> cx_winv P a (set_out x h') d).
    { intros d Hd Hdu. constructor; auto. exists din. auto. }
    destruct (fits_in pt buf) eqn:Ef; cbn [andb].
    + apply fits_in_spec in Ef. destruct (Hf Ef) as [Hun Hus].
      destruct (dir_usable_dec dout) as [Hu|Hu].
      * rewrite (proj2 (dir_usableb_spec dout) Hu). destruct (Hus Hu) as (R' & Eu & _).
        apply Hgen; [exact R'|]. eapply used_inv_next; eauto.
      * rewrite (proj2 (dir_usableb_false dout) Hu). destruct (Hun Hu) as (-> & _). apply Hgen; auto.
    + assert (Hnfit : ~ fits pt buf) by (rewrite <- fits_in_spec; congruence).
      destruct (Hnf Hnfit) as (-> & _). apply Hgen; auto.
  - destruct Hok as (B1 & B2 & B3 & B4).
    pose proof (unprotect_weak P lib x din hdr payload buf fs HP Wi Ww B1 B2 B4) as H.
    unfold safeM in H.
    destruct (crypt_unprotect P lib x (IoBuf hdr) payload (IoBuf buf) fs) as [[[[x' [st n]] out] fs']|u|];
      cbn in H |- *; [|exact H|contradiction].
    destruct H as [[S1 S2 S3 S4 S5 S6] _]. destruct S2 as [F1 F2 F3 F4].
    split; [|split; [exact S4|split; [|exact I]]].
    + constructor; auto; try congruence; try (rewrite F1; assumption).
    + intros (n' & b & K). inversion K; subst. apply S5; reflexivity.
  - unfold crypt_update_outbound_key.
    destruct (half_update_spec P lib (cx_out x) dout fs HP Wo) as (h' & st & fs' & E & Eu & Ho & Hf & _).
    rewrite (bind_done _ _ _ _ _ _ _ E). cbn [obind ret safe tx_step].
    split; [|split; [auto|split; [intros (? & ? & K); discriminate|exact I]]].
    assert (Hgen : forall d, half_rel P h' d ->
      used_inv P (ca_suite a) (ca_out_seq a) (ca_out_secret a) h' d -> cx_winv P a (set_out x h') d).
    { intros d Hd Hdu. constructor; auto. exists din. auto. }
    destruct st; try (destruct Hf as [R' Ee]; [discriminate|]; apply Hgen; [exact R'|];
      eapply used_inv_break; eauto).
    destruct (Ho eq_refl) as [R' Ee]. apply Hgen; [exact R'|]. eapply used_inv_upd; eauto.
Qed.

Lemma crun_weak : forall P lib a ops x dout,
  prims_ok P -> cx_winv P a x dout -> cops_ok ops ->
  safe (crun P lib x ops) (fun '(x', rs) =>
    cx_winv P a x' (tx_run P dout ops rs) /\ length rs = length ops /\
    (cx_close x = true \/ Exists is_close_res rs -> cx_close x' = true)).
Proof.
  intros P lib a ops. induction ops as [|[op fs] ops IH]; intros x dout HP W Hok.
  - cbn. split; [exact W|]. split; [reflexivity|]. intros [K|K]; [exact K|inversion K].
  - inversion Hok as [|? ? Hop Hops]; subst. cbn [crun].
    eapply safe_bind; [apply (cstep_weak P lib a x dout op fs HP W Hop)|].
    intros [x1 r] (W1 & C1 & C2 & _).
    eapply safe_bind; [apply (IH x1 _ HP W1 Hops)|].
    intros [x2 rs] (W2 & L & C3). cbn [safe tx_run length].
    split; [exact W2|]. split; [congruence|].
    intros [K|K]; apply C3; [left; auto|]. inversion K; subst; auto.
Qed.

Lemma creach_winv : forall P lib a ops rs x,
  prims_ok P -> ca_in_seq a < two64 -> ca_out_seq a < two64 -> cops_ok ops ->
  creach P lib a ops rs x ->
  cx_winv P a x (tx_run P (dir_start (ca_suite a) (ca_out_secret a) (ca_out_seq a)) ops rs) /\
  length rs = length ops /\ (Exists is_close_res rs -> cx_close x = true).
Proof.
  intros P lib a ops rs x HP Hi Ho Hok (x0 & fs & fs' & Ec & Er).
  destruct (create_winv P lib a fs fs' x0 HP Hi Ho Ec) as [W _].
  pose proof (crun_weak P lib a ops x0 _ HP W Hok) as H. rewrite Er in H. cbn in H.
  destruct H as (W' & L & C). auto.
Qed.

(* The run never exhausts the model's fuel. *)
Lemma crun_fuel : forall P lib a ops x0 fs fs', prims_ok P ->
  ca_in_seq a < two64 -> ca_out_seq a < two64 -> cops_ok ops ->
  crypt_create P lib a fs = Done (inr x0, fs') -> crun P lib x0 ops <> NoFuel.
Proof.
  intros P lib a ops x0 fs fs' HP Hi Ho Hok Ec K.
  destruct (create_winv P lib a fs fs' x0 HP Hi Ho Ec) as [W _].
  pose proof (crun_weak P lib a ops x0 _ HP W Hok) as H. rewrite K in H. exact H.
Qed.

(* ------------------------------------------------------------------ *)
(* Part 3: Unprotect refines the reference receiver *)

(* The crypter after a malformed handshake stream: no ticket is added any more,
   and what is sent, if anything, is what had been received before. *)
Definition cx_deadp (q : Prop) (x : crypt) (ms : list bytes) : Prop :=
  exists o b r0, dead (cx_handler x) /\ tick_ok (cx_handler x) o /\
    concat (hs_frags (cx_handler x)) = b :: r0 /\ sent_ok x ms /\
    forall l, o = Some l -> l = firstn 5 (filter is_ticket ms) /\ cx_sent x = [] /\
      (l <> [] \/ b = 4 \/ q).
Definition cx_dead (x : crypt) (ms : list bytes) : Prop := cx_deadp (cx_phase x <> RECEIVING) x ms.

(* [o], if it completes, yields [Q]. *)
Definition yields {A} (o : outcome A) (Q : A -> Prop) : Prop := forall a, o = Done a -> Q a.
Lemma yields_bind : forall A B (o : outcome A) (k : A -> outcome B) (Q : A -> Prop) (R : B -> Prop),
  yields o Q -> (forall a, Q a -> yields (k a) R) -> yields (obind o k) R.
Proof.
  intros A B [a|u|] k Q R H K b E; cbn in E; try discriminate. exact (K a (H a eq_refl) b E).
Qed.
Lemma yieldsM_bind : forall A B (m : M A) (k : A -> M B) fs (Q : A -> Prop) (R : B -> Prop),
  yields (m fs) (fun '(a, _) => Q a) -> (forall a fs', Q a -> yields (k a fs') (fun '(b, _) => R b)) ->
  yields (bind m k fs) (fun '(b, _) => R b).
Proof.
  intros A B m k fs Q R H K b E. unfold bind in E. destruct (m fs) as [[a fs']|u|] eqn:Em; try discriminate.
  exact (K a fs' (H _ eq_refl) b E).
Qed.
Lemma yieldsM_lift : forall A (o : outcome A) fs (Q : A -> Prop), yields o Q ->
  yields (lift o fs) (fun '(a, _) => Q a).
Proof. intros A [a|u|] fs Q H b E; cbn in E; inversion E; subst. apply H. reflexivity. Qed.
Lemma yields_done : forall A (a : A) (Q : A -> Prop), Q a -> yields (Done a) Q.
Proof. intros A a Q H b E. inversion E; subst. exact H. Qed.
Lemma yields_safe : forall A (o : outcome A) (Q : A -> Prop), safe o Q -> yields o Q.
Proof. intros A [a|u|] Q H b E; inversion E; subst; exact H. Qed.
Lemma yields_true : forall A (o : outcome A), yields o (fun _ => True).
Proof. intros A o a _. exact I. Qed.

Lemma deadp_mono : forall (q q' : Prop) x ms, (q -> q') -> cx_deadp q x ms -> cx_deadp q' x ms.
Proof.
  intros q q' x ms H (o & b & r0 & A1 & A2 & A3 & A4 & A5). exists o, b, r0.
  repeat (split; [assumption|]). intros l El. destruct (A5 l El) as (B1 & B2 & B3). repeat (split; [assumption|]). tauto.
Qed.
(* Only the handler, the phase, and the calls of the sender matter. *)
Lemma deadp_same : forall q x y ms, cx_handler y = cx_handler x -> cx_sent y = cx_sent x ->
  cx_url y = cx_url x -> cx_connection_id y = cx_connection_id x -> cx_identity y = cx_identity x ->
  cx_deadp q x ms -> cx_deadp q y ms.
Proof.
  intros q x y ms E1 E2 E3 E4 E5 (o & b & r0 & A1 & A2 & A3 & A4 & A5). exists o, b, r0.
  rewrite E1, E2. repeat (split; [assumption|]). split; [|exact A5].
  rewrite <- (app_nil_r ms). eapply sent_ok_ext; eauto.
Qed.

Lemma send_dead : forall x ms, cx_deadp False x ms ->
  yields (send_tickets x) (fun x' => cx_deadp False x' ms /\ cx_phase x' = cx_phase x).
Proof.
  intros x ms (o & b & r0 & Hd & Ht & Eb & Hs & Ho). unfold send_tickets.
  set (h := cx_handler x) in *.
  assert (Hg : forall h' r, get_stored_tickets h = Done (h', r) ->
     (h' = h /\ (exists c, r = inl c)) \/
     (exists l ts, o = Some l /\ r = inr ts /\ map (@concat N) ts = l /\ b <> 4 /\
        h' = {| hs_frags := hs_frags h; hs_tickets := None; hs_num := 0; hs_retrieved := true;
               hs_data := hs_data h; hs_hdr := hs_hdr h; hs_st := hs_st h |})).
  { intros h' r. unfold get_stored_tickets. destruct (hs_retrieved h) eqn:Er.
    { intros E; inversion E; subst. left. eauto. }
    assert (Ho' : exists l, o = Some l).
    { destruct o; [eauto|]. destruct Ht as (_ & _ & K). congruence. }
    destruct Ho' as (l & ->). destruct Ht as (ts & E1 & E2 & E3 & E4 & E5). rewrite E1.
    assert (Hfr : exists f q, hs_frags h = (b :: f) :: q).
    { destruct Hd as (_ & _ & Hf & _). destruct (hs_frags h) as [|[|b' f] q]; [discriminate| |].
      - exfalso; exact (Forall_inv Hf eq_refl).
      - cbn in Eb. inversion Eb; subst. eauto. }
    destruct Hfr as (f & q & Efr). unfold expecting_more, get_message_type. rewrite Efr. cbn.
    unfold kSessionTicketMessageType. destruct (N.eqb_spec b 4) as [->|Hb]; intros E; inversion E; subst.
    - left. eauto.
    - right. exists (map (@concat N) ts), ts. auto 10. }
  eapply (yields_bind _ _ _ _ (fun '(h', r) => get_stored_tickets h = Done (h', r))).
  { intros [h' r] E. exact E. }
  intros [h' r] E. destruct (Hg h' r E) as [(-> & c & ->)|(l & ts & -> & -> & El & Hb & ->)]; apply yields_done.
  - unfold h. rewrite set_handler_same. split; [|reflexivity]. exists o, b, r0. auto.
  - destruct (Ho l eq_refl) as (El' & Es & Hl).
    assert (Hne : l <> []) by tauto.
    split; [|reflexivity]. exists None, b, r0.
    split; [exact Hd|]. split; [cbn; auto|]. split; [exact Eb|]. split; [|discriminate].
    right. exists ms, [], (cx_channel x). rewrite app_nil_r. split; [reflexivity|].
    split; [intros K; rewrite K in El'; apply Hne; rewrite El'; reflexivity|].
    cbn [add_sent cx_sent]. rewrite Es, El, El'. reflexivity.
Qed.

Lemma handle_dead : forall P lib x res fs ms, cx_dead x ms ->
  (forall r, res = inr r -> r_ticket r = true -> cx_deadp False x ms) ->
  yields (handle_result P lib x res fs) (fun '((x', _), _) => cx_dead x' ms).
Proof.
  intros P lib x [c|r] fs ms Hd Ht.
  { apply yields_done. exact Hd. }
  rewrite handle_result_inr.
  set (x1 := set_phase x (cx_phase x) (r_expecting r)).
  assert (Hd1 : cx_dead x1 ms) by (eapply deadp_same; [..|exact Hd]; reflexivity).
  assert (Ht1 : r_ticket r = true -> cx_deadp False x1 ms).
  { intros E. eapply deadp_same; [..|exact (Ht r eq_refl E)]; reflexivity. }
  clearbody x1. clear Hd Ht.
  refine (yieldsM_bind _ _ _ _ _ (fun '(x2, _) => cx_dead x2 ms /\ (r_ticket r = true -> cx_deadp False x2 ms)) (fun '(x', _) => cx_dead x' ms) _ _).
  - destruct (r_key_update r).
    + refine (yieldsM_bind _ _ _ _ _ (fun _ => True) (fun '(x2, _) => cx_dead x2 ms /\ (r_ticket r = true -> cx_deadp False x2 ms)) _ _).
      { intros [a ?] _. exact I. }
      intros [h st] fs' _. apply yields_done.
      split; [|intros E]; (eapply deadp_same; [..|first [exact Hd1|exact (Ht1 E)]]; reflexivity).
    + apply yields_done. auto.
  - intros [x2 failed] fs' [Hd2 Ht2]. destruct failed; [apply yields_done; exact Hd2|].
    unfold handle_tail.
    assert (Hgo : forall y, cx_dead y ms -> (r_ticket r = true -> cx_deadp False y ms) ->
       yields ((if r_ticket r && (kMaxNumTicketsToProcess <=? r_num r)
              then x0 <- lift (send_tickets y);; ret (set_phase x0 DONE false, kOk)
              else ret (y, kOk)) fs') (fun '((x', _), _) => cx_dead x' ms)).
    { intros y Hy Hy'. destruct (r_ticket r) eqn:Et; cbn [andb]; [|apply yields_done; exact Hy].
      destruct (kMaxNumTicketsToProcess <=? r_num r); [|apply yields_done; exact Hy].
      refine (yieldsM_bind _ _ _ _ _ (fun y' => cx_deadp False y' ms) (fun '(x', _) => cx_dead x' ms) _ _).
      - apply yieldsM_lift. intros y' E. apply (send_dead y ms (Hy' eq_refl) y' E).
      - intros y' fs2 Hy2. apply yields_done. eapply deadp_same; [..|eapply deadp_mono; [|exact Hy2]]; try reflexivity. tauto. }
    destruct (cx_phase x2) eqn:Ep.
    + destruct (r_ticket r) eqn:Et.
      * apply (Hgo (set_phase x2 RECEIVING (cx_expecting x2))).
        -- eapply deadp_same; [..|eapply deadp_mono; [|exact (Ht2 eq_refl)]]; try reflexivity. tauto.
        -- intros _. eapply deadp_same; [..|exact (Ht2 eq_refl)]; reflexivity.
      * apply (Hgo x2); [exact Hd2|exact Ht2].
    + apply Hgo; [exact Hd2|exact Ht2].
    + apply yields_done. exact Hd2.
Qed.

Lemma unprotect_dead : forall P lib x hdr payload buf fs ms, cx_dead x ms ->
  yields (crypt_unprotect P lib x hdr payload buf fs) (fun '((x', _, _), _) => cx_dead x' ms).
Proof.
  intros P lib x hdr payload buf fs ms Hd. unfold crypt_unprotect.
  destruct (cx_close x); [apply yields_done; exact Hd|].
  refine (yieldsM_bind _ _ _ _ _ (fun _ => True) (fun '(x', _, _) => cx_dead x' ms) _ _).
  { intros [a ?] _. exact I. }
  intros ov fs0 _.
  destruct (_ <? ov); [apply yields_done; exact Hd|].
  destruct (_ <? _); [apply yields_done; exact Hd|].
  destruct (negb _); [apply yields_done; exact Hd|].
  refine (yieldsM_bind _ _ _ _ _ (fun _ => True) (fun '(x', _, _) => cx_dead x' ms) _ _).
  { intros [a ?] _. exact I. }
  intros [[h [st n]] pt] fs1 _.
  assert (Hd1 : cx_dead (set_in x h) ms) by (eapply deadp_same; [..|exact Hd]; reflexivity).
  revert Hd1. generalize (set_in x h). clear Hd. intros x1 Hd.
  assert (Hz : forall (k : iovec -> crypt * sstatus * iovec), (forall p, cx_dead (fst (fst (k p))) ms) ->
    yields ((p <- lift (zero_out pt);; ret (k p)) fs1) (fun '((x', _, _), _) => cx_dead x' ms)).
  { intros k Hk. refine (yieldsM_bind _ _ _ _ _ (fun _ => True) (fun '(x', _, _) => cx_dead x' ms) _ _).
    { intros [a ?] _. exact I. }
    intros p fs2 _. apply yields_done. specialize (Hk p). destruct (k p) as [[x' s] o]. exact Hk. }
  destruct (negb (is_ok st)); [apply (Hz (fun p => (x1, (S_INTERNAL_ERROR, 0), p))); intros; exact Hd|].
  destruct (scan_type _) as [[ty content]|]; [|apply yields_done; exact Hd].
  destruct (ty =? kTls13Alert).
  { assert (Hc : cx_dead (set_close x1) ms) by (eapply deadp_same; [..|exact Hd]; reflexivity).
    destruct content as [|a [|d q]]; [apply (Hz (fun p => (x1, (S_INVALID_RECORD, 0), p))); intros; exact Hd..|].
    destruct (d =? kTlsAlertCloseNotify); [apply (Hz (fun p => (set_close x1, (S_ALERT_CLOSE_NOTIFY, 0), p)))|
      apply (Hz (fun p => (x1, (S_ALERT_OTHER, 0), p)))]; intros; assumption. }
  destruct (ty =? kTls13Handshake).
  { refine (yieldsM_bind _ _ _ _ _ (fun '(h', r) => cx_dead (set_handler x1 h') ms /\
      (forall r', r = inr r' -> r_ticket r' = true -> cx_deadp False (set_handler x1 h') ms))
      (fun '(x', _, _) => cx_dead x' ms) _ _).
    - apply yieldsM_lift. destruct Hd as (o & b & r0 & A1 & A2 & A3 & A4 & A5).
      intros [h' r] E. pose proof (dead_loop (length content) (cx_handler x1) o content false false b r0 (le_n _) A1 A2 A3) as K.
      unfold process_handshake_message in E. rewrite E in K. cbn [safe] in K. destruct K as (B1 & B2 & (r1 & B3) & B4).
      assert (Hg : forall q, (forall l, o = Some l -> l = firstn 5 (filter is_ticket ms) /\ cx_sent x1 = [] /\
                 (l <> [] \/ b = 4 \/ q)) -> cx_deadp q (set_handler x1 h') ms).
      { intros q Hq. exists o, b, r1. do 3 (split; [assumption|]). split; [|exact Hq].
        rewrite <- (app_nil_r ms). eapply sent_ok_ext; [..|exact A4]; reflexivity. }
      split; [apply Hg; exact A5|]. intros r' Er Etk. apply Hg. intros l El. destruct (A5 l El) as (C1 & C2 & _).
      destruct (B4 r' Er Etk) as [K|K]; [discriminate|auto].
    - intros [h' r] fs2 [H1 H2].
      refine (yieldsM_bind _ _ _ _ _ (fun '(x', _) => cx_dead x' ms) (fun '(x', _, _) => cx_dead x' ms) _ _).
      + apply handle_dead; assumption.
      + intros [x2 st2] fs3 H. destruct (negb (is_ok st2)); apply yields_done; exact H. }
  destruct (ty =? kTls13ApplicationData).
  { destruct (cx_expecting x1); [apply yields_done; exact Hd|].
    refine (yieldsM_bind _ _ _ _ _ (fun x' => cx_dead x' ms) (fun '(x', _, _) => cx_dead x' ms) _ _).
    - apply yieldsM_lift. destruct (cx_phase x1) eqn:Ep; [apply yields_done; exact Hd| |apply yields_done; exact Hd].
      eapply yields_bind; [apply send_dead; eapply deadp_mono; [|exact Hd]; intros K; apply K; exact Ep|].
      intros x2 [H2 _]. apply yields_done. eapply deadp_same; [..|eapply deadp_mono; [|exact H2]]; try reflexivity. tauto.
    - intros x2 fs2 H. apply yields_done. exact H. }
  apply (Hz (fun p => (x1, (S_INVALID_RECORD, 0), p))); intros; exact Hd.
Qed.

Lemma protect_frame : forall P x t pt rec fs,
  yields (crypt_protect P x t pt rec fs) (fun '((x', _, _), _) => exists h, x' = set_out x h).
Proof.
  intros P x t pt rec fs [[[x' s] o] fs'] E.
  assert (Hsame : exists h, x = set_out x h) by (exists (cx_out x); destruct x; reflexivity).
  revert E. unfold crypt_protect.
  repeat first [progress cbv zeta
    | match goal with
      | |- ret _ _ = _ -> _ => unfold ret; intros E; inversion E; subst; eauto; fail
      | |- bind _ _ _ = _ -> _ => unfold bind at 1
      | |- (if ?b then _ else _) _ = _ -> _ => destruct b
      | |- (match ?m with _ => _ end) = _ -> _ => destruct m; [|discriminate..]
      | |- (match ?m with _ => _ end) _ = _ -> _ => destruct m
      | |- (let '(_, _) := ?m in _) = _ -> _ => destruct m
      | |- (let '(_, _) := ?m in _) _ = _ -> _ => destruct m
      end].
Qed.

Lemma cstep_dead : forall P lib x op fs ms, cx_dead x ms ->
  yields (cstep P lib x op fs) (fun '(x', _) => cx_dead x' ms).
Proof.
  intros P lib x op fs ms Hd. destruct op as [t pt buf|hdr payload buf|]; cbn [cstep].
  - eapply yields_bind; [apply protect_frame|]. intros [[[x' [st n]] o] fs'] (h & ->). apply yields_done.
    eapply deadp_same; [..|exact Hd]; reflexivity.
  - eapply yields_bind; [apply unprotect_dead; exact Hd|]. intros [[[x' [st n]] o] fs'] H. apply yields_done. exact H.
  - unfold crypt_update_outbound_key, bind. destruct (half_update_key P lib (cx_out x) fs) as [[[h st] fs']|u|];
      intros [x' r] E; cbn in E; try discriminate. inversion E; subst.
    eapply deadp_same; [..|exact Hd]; reflexivity.
Qed.

Lemma crun_dead : forall P lib ops x ms, cx_dead x ms ->
  yields (crun P lib x ops) (fun '(x', _) => cx_dead x' ms).
Proof.
  intros P lib ops. induction ops as [|[op fs] ops IH]; intros x ms Hd; cbn [crun]; [apply yields_done; exact Hd|].
  eapply yields_bind; [apply cstep_dead; exact Hd|]. intros [x1 r] H1.
  eapply yields_bind; [apply IH; exact H1|]. intros [x2 rs] H2. apply yields_done. exact H2.
Qed.

(* ---- what a malformed record leaves behind ---- *)

Lemma tick_ok_inj : forall h o o', tick_ok h o -> tick_ok h o' -> o = o'.
Proof.
  intros h [l|] [l'|] H H'; cbn in *; auto.
  - destruct H as (ts & E & <- & _), H' as (ts' & E' & <- & _). congruence.
  - destruct H as (ts & E & _), H' as (E' & _). congruence.
  - destruct H' as (ts & E & _), H as (E' & _). congruence.
Qed.

Lemma filter_all : forall A (f : A -> bool) l, Forall (fun x => f x = true) l -> filter f l = l.
Proof. induction 1 as [|x l H _ IH]; cbn; [reflexivity|]. rewrite H, IH. reflexivity. Qed.

Lemma store_dead : forall (q : Prop) x ms buf o ms1 h' b r0, hs_inv (cx_handler x) o buf -> tickets_rel x ms buf ->
  sent_ok x ms -> Forall (fun m => is_ticket m = true) ms1 -> dead h' -> tick_ok h' (store_all o ms1) ->
  concat (hs_frags h') = b :: r0 ->
  (is_ticket buf = true -> ms1 <> [] \/ b = 4) ->
  (cx_phase x <> RECEIVING -> ms1 <> [] \/ b = 4 \/ q) ->
  cx_deadp q (set_handler x h') (ms ++ ms1).
Proof.
  intros q x ms buf o ms1 h' b r0 [_ Ht0] (o' & [_ Ht1] & Hp) Hs Hm1 Hd Ht Eb Hbuf Hph.
  pose proof (tick_ok_inj _ _ _ Ht0 Ht1) as ->.
  exists (store_all o' ms1), b, r0. split; [exact Hd|]. split; [exact Ht|]. split; [exact Eb|].
  split; [eapply sent_ok_ext; [..|exact Hs]; reflexivity|].
  intros l El. cbn [set_handler cx_sent].
  assert (Hf : filter is_ticket (ms ++ ms1) = filter is_ticket ms ++ ms1) by (rewrite filter_app, (filter_all _ _ ms1 Hm1); reflexivity).
  assert (Hgo : o' = Some (firstn 5 (filter is_ticket ms)) -> l = firstn 5 (filter is_ticket (ms ++ ms1))).
  { intros ->. rewrite <- store_all_firstn, <- store_all_app, store_all_firstn in El. inversion El. reflexivity. }
  assert (Hne : filter is_ticket (ms ++ ms1) <> [] -> firstn 5 (filter is_ticket (ms ++ ms1)) <> []).
  { destruct (filter is_ticket (ms ++ ms1)); [congruence|discriminate]. }
  assert (Hne1 : ms1 <> [] -> filter is_ticket (ms ++ ms1) <> []).
  { rewrite Hf. intros K K'. apply app_eq_nil in K'. tauto. }
  destruct (cx_phase x) eqn:Ep.
  - destruct Hp as (-> & Hf0 & Hb0 & Hs0 & _). rewrite Hf0 in Hgo. specialize (Hgo eq_refl).
    split; [exact Hgo|]. split; [exact Hs0|]. rewrite Hgo.
    destruct Hph as [K|[K|K]]; [discriminate| |auto|auto]. auto.
  - destruct Hp as (-> & Hl & Hs0 & _ & He).
    assert (E5 : firstn 5 (filter is_ticket ms) = filter is_ticket ms) by (apply firstn_all2; lia).
    rewrite E5 in Hgo. specialize (Hgo eq_refl). split; [exact Hgo|]. split; [exact Hs0|]. rewrite Hgo.
    rewrite existsb_app in He. cbn [existsb] in He. rewrite orb_false_r in He.
    apply orb_true_iff in He. destruct He as [He|He].
    + left. apply Hne. rewrite filter_app. intros K. apply app_eq_nil in K. destruct K as [K _].
      apply existsb_exists in He. destruct He as (m & Hi & Em).
      assert (In m (filter is_ticket ms)) by (apply filter_In; auto). rewrite K in H. destruct H.
    + destruct (Hbuf He) as [K|K]; [left; auto|auto].
  - destruct Hp as (_ & [[-> _]|(-> & Hs0 & H5 & _)]).
    + rewrite store_all_none in El. discriminate.
    + specialize (Hgo eq_refl). split; [exact Hgo|]. split; [exact Hs0|]. left. rewrite Hgo. apply Hne.
      rewrite Hf. intros K. apply app_eq_nil in K. destruct K as [K _]. rewrite K in H5. cbn in H5. lia.
Qed.

Lemma dead_first : forall h, dead h -> exists b r0, concat (hs_frags h) = b :: r0.
Proof.
  intros h (_ & _ & _ & [(b & r & E & _)|(_ & L)]); [eauto|].
  destruct (concat (hs_frags h)) as [|b r]; [rewrite lenN_nil in L; lia|eauto].
Qed.

(* The state of the crypter is that of the reference receiver. *)
Definition rx_exact (x : crypt) (r : rx) : Prop :=
  map ts_tickets (cx_sent x) = r_sent r /\
  (d_broken (r_dir r) = false -> cx_expecting x = r_wait r /\ (r_done r = true <-> cx_phase x = DONE)).

Definition rx_rel (P : prims) (x : crypt) (dout : dir) (r : rx) : Prop :=
  r_bad r = false /\ cx_inv P x (r_dir r) dout (r_msgs r) (r_part r) /\ cx_close x = r_closed r /\
  rx_exact x r.

Lemma exact_read : forall x x' r d ms1 part, rx_exact x r -> d_broken (r_dir r) = false ->
  tail_effect x x' (filter is_ticket (r_msgs r ++ ms1)) part -> rx_exact x' (rx_read r d ms1 part).
Proof.
  intros x x' r d ms1 part (Es & Hx) Hb H. destruct (Hx Hb) as (_ & Hd). unfold tail_effect in H.
  unfold rx_exact, rx_read. cbn [r_sent r_wait r_done r_dir]. unfold tickets_of. rewrite <- Es.
  destruct (r_done r); cbn [negb andb orb].
  - rewrite (proj1 Hd eq_refl) in H. destruct H as (H1 & H2 & ->). rewrite app_nil_r.
    split; [reflexivity|]. intros _. split; [exact H2|tauto].
  - assert (Hnd : cx_phase x <> DONE) by (intro K; apply Hd in K; discriminate).
    destruct (5 <=? lenN (filter is_ticket (r_msgs r ++ ms1))); cbn [andb].
    + assert (K : cx_phase x' = DONE /\ cx_expecting x' = false /\ map ts_tickets (cx_sent x') =
        map ts_tickets (cx_sent x) ++ (if is_ticket part then [] else [firstn 5 (filter is_ticket (r_msgs r ++ ms1))]))
        by (destruct (cx_phase x); [exact H|exact H|congruence]).
      destruct K as (K1 & K2 & K3). rewrite K3. split; [destruct (is_ticket part); reflexivity|]. intros _. tauto.
    + assert (K : (cx_phase x' = DONE <-> cx_phase x = DONE) /\ cx_expecting x' = negb (empty part) /\ cx_sent x' = cx_sent x)
        by (destruct (cx_phase x); exact H).
      destruct K as (K1 & K2 & ->). rewrite app_nil_r. split; [reflexivity|]. intros _. split; [exact K2|].
      split; [discriminate|tauto].
Qed.

Lemma exact_data : forall x x' r, rx_exact x r -> d_broken (r_dir r) = false ->
  tickets_rel x (r_msgs r) (r_part r) -> cx_expecting x = false -> cx_expecting x' = false ->
  (cx_phase x = RECEIVING -> cx_phase x' = DONE /\ filter is_ticket (r_msgs r) <> [] /\
     map ts_tickets (cx_sent x') = map ts_tickets (cx_sent x) ++ [filter is_ticket (r_msgs r)]) ->
  (cx_phase x <> RECEIVING -> cx_phase x' = cx_phase x /\ cx_sent x' = cx_sent x) ->
  rx_exact x' (rx_data r).
Proof.
  intros x x' r (Es & Hx) Hb (o & _ & Hp) He He' Hr Hn. destruct (Hx Hb) as (Hw & Hd).
  unfold rx_exact, rx_data. cbn [r_sent r_wait r_done r_dir]. unfold tickets_of. rewrite <- Es.
  assert (Ew : cx_expecting x' = r_wait r) by congruence.
  destruct (cx_phase x) eqn:Ep.
  - destruct Hp as (_ & Hf & _). rewrite Hf, lenN_nil. cbn [N.eqb negb andb]. rewrite andb_false_r, orb_false_r, app_nil_r.
    destruct (Hn ltac:(discriminate)) as [E1 ->]. split; [reflexivity|]. intros _. rewrite E1. auto.
  - destruct (Hr eq_refl) as (E1 & E2 & ->). destruct (r_done r); [apply proj1 in Hd; specialize (Hd eq_refl); discriminate|].
    destruct (N.eqb_spec (lenN (filter is_ticket (r_msgs r))) 0) as [K|K]; [destruct (filter is_ticket (r_msgs r)); [contradiction|discriminate]|].
    cbn [negb andb orb]. split; [reflexivity|]. intros _. tauto.
  - rewrite (proj2 Hd eq_refl). cbn [negb andb orb]. rewrite app_nil_r.
    destruct (Hn ltac:(discriminate)) as [E1 ->]. split; [reflexivity|]. intros _. tauto.
Qed.

Lemma rx_rel_expecting : forall P x dout r, rx_rel P x dout r -> d_broken (r_dir r) = false ->
  (cx_expecting x = true -> r_part r <> []) /\
  (cx_expecting x = false -> r_part r = [] \/ 5 <= lenN (tickets_of (r_msgs r))).
Proof.
  intros P x dout r (_ & [_ _ _ _ _ _ Ch] & _) Hb. destruct (Ch Hb) as (o & _ & Hp).
  assert (Hl : forall k, (5 <= k)%nat -> 5 <= N.of_nat k) by lia.
  unfold tickets_of, lenN.
  destruct (cx_phase x).
  - destruct Hp as (_ & _ & _ & _ & ->). destruct (r_part r); cbn; split; intros; try discriminate; auto.
  - destruct Hp as (_ & _ & _ & -> & _). destruct (r_part r); cbn; split; intros; try discriminate; auto.
  - destruct Hp as ([->|[-> H5]] & _).
    + destruct (r_part r); cbn; split; intros; try discriminate; auto.
    + split; [discriminate|]. intros _. right. apply Hl. exact H5.
Qed.

Lemma accept_ok : forall P lib x dout r msg outm fs res,
  rx_rel P x dout r -> d_broken (r_dir r) = false ->
  content_step P lib x (r_dir r) dout (r_msgs r) (r_part r) msg outm fs res ->
  match res with
  | Done ((x', (st, n), out'), _) =>
    exists r', accept P (fs <> []) r msg outm st n (iov_data out') r' /\
      (r_bad r' = false -> rx_rel P x' dout r' /\ send_step x x' (r_msgs r') (r_part r') /\
         (st = S_OK -> n <> 0 -> cx_phase x' <> RECEIVING)) /\
      (r_bad r' = true -> cx_dead x' (r_msgs r'))
  | Undef u => u = UbNegativeShift /\ exists c pad, msg = inner ty_handshake c pad /\ fatal (r_part r ++ c)
  | NoFuel => False
  end.
Proof.
  intros P lib x dout r msg outm fs res Hr Hb H.
  pose proof Hr as (Hbad & Hinv & Hcl & Hex). pose proof (proj1 (proj2 Hex Hb)) as Hw.
  assert (Hnb : forall r', r_bad r' = r_bad r -> forall X : Prop, r_bad r' = true -> X) by (intros; congruence).
  pose proof (ci_hs _ _ _ _ _ _ Hinv Hb) as Htr. pose proof (ci_sent _ _ _ _ _ _ Hinv) as Hso.
  assert (Hself : r_bad r = false -> forall st n, st <> S_OK -> rx_rel P x dout r /\ send_step x x (r_msgs r) (r_part r) /\
     (st = S_OK -> n <> 0 -> cx_phase x <> RECEIVING)).
  { intros _ st n Hne. split; [exact Hr|]. split; [apply send_step_refl; reflexivity|contradiction]. }
  inversion H; subst.
  - exists r. split; [apply AcZero; assumption|]. split; [intros; apply Hself; [auto|discriminate]|apply Hnb; reflexivity].
  - exists (rx_close r). split; [eapply AcClose; reflexivity|]. split; [intros _|apply (Hnb (rx_close r)); reflexivity].
    split; [split; [exact Hbad|split; [assumption|split; [reflexivity|exact Hex]]]|]. split; [apply send_step_refl; reflexivity|discriminate].
  - exists r. split; [eapply AcAlert; [reflexivity|assumption]|]. split; [intros; apply Hself; [auto|discriminate]|apply Hnb; reflexivity].
  - exists r. split; [eapply AcAlertShort; [reflexivity|assumption]|]. split; [intros; apply Hself; [auto|discriminate]|apply Hnb; reflexivity].
  - exists r. split; [eapply AcUnknown; [reflexivity|..]; assumption|]. split; [intros; apply Hself; [auto|discriminate]|apply Hnb; reflexivity].
  - exists r. split; [eapply AcInside; [reflexivity|congruence]|]. split; [intros; apply Hself; [auto|discriminate]|apply Hnb; reflexivity].
  - exists (rx_data r). split; [eapply AcData; [reflexivity|congruence]|]. split; [intros _|apply (Hnb (rx_data r)); reflexivity].
    split; [split; [exact Hbad|]; split; [assumption|split; [cbn; congruence|eapply exact_data; eauto]]|]. auto.
  - match goal with K : _ = S_OK /\ _ \/ _ |- _ => destruct K as [[-> ->]|(-> & -> & Hku & Hfs)] end.
    + match goal with |- exists r', accept _ _ _ _ _ _ _ _ r' /\ _ =>
        exists (rx_read r (if has_key_update content ms1 buf1 then dir_update P (r_dir r) else r_dir r) ms1 buf1) end.
      split; [eapply AcHandshake; eauto; eapply ci_buf; eauto|]. split; [intros _|apply (Hnb (rx_read r _ ms1 buf1)); reflexivity].
      split; [split; [exact Hbad|]; split; [assumption|split; [cbn; congruence|eapply exact_read; eauto]]|]. split; [assumption|].
      intros _ K; contradiction.
    + exists (rx_fail r ms1 buf1).
      split; [eapply AcUpdateFailed; eauto; eapply ci_buf; eauto|]. split; [intros _|apply (Hnb (rx_fail r ms1 buf1)); reflexivity].
      split; [split; [exact Hbad|]; split; [assumption|split; [cbn; congruence|]]|].
      { split; [|discriminate]. cbn [rx_fail r_sent]. rewrite <- (proj1 Hex). f_equal.
        match goal with K : S_INTERNAL_ERROR <> S_OK -> _ |- _ => apply K; discriminate end. }
      split; [assumption|discriminate].
  - match goal with K : proc_err _ _ _ _ |- _ => destruct K as (h1 & ms1 & m & rest & Er & Es & M1 & M2 & M3 & Hd & Ht) end.
    inversion Er; subst h1. exists (rx_bad r ms1).
    split; [eapply AcBroken; [reflexivity|exact Es|exact M1|exact M2|exact M3]|].
    split; [discriminate|]. intros _. cbn [rx_bad r_msgs].
    destruct (dead_first _ Hd) as (b & r0 & Eb).
    eapply store_dead; eauto.
    + intros Etk. left. intros ->. cbn [concat app] in Es.
      assert (Hm : is_ticket m = true).
      { destruct (r_part r) as [|b0 l0]; [discriminate|]. cbn [app] in Es.
        destruct m as [|b1 l1]; [destruct M3 as [[? _]|[? _]]; [contradiction|exfalso; eapply hs_msg_ne; eauto]|].
        cbn [app] in Es. inversion Es; subst. exact Etk. }
      destruct M3 as [[_ Hu]|[_ [Hku _]]]; [apply Hu; left; exact Hm|].
      destruct m; [discriminate|]. unfold is_ticket, is_key_update, has_type in *. lia.
  - match goal with K : proc_zero _ _ _ _ _ |- _ => destruct K as (ms1 & z & rest & Es & M1 & M2 & M3 & M4 & [[_ K]|(Hl & h1 & r1 & Er & Hd & Ht & (q0 & Eq) & Hrt)]) end;
      [discriminate|].
    inversion Er; subst h1 r1. exists (rx_bad r ms1).
    split; [eapply AcEmptyBody; [reflexivity|exact Es|exact M1|exact M2|exact M3|exact M4|exact Hl|]|].
    { match goal with K : _ = kOk \/ _ |- _ => destruct K as [->|[-> Hfs]] end; cbn [is_ok]; auto. }
    split; [discriminate|]. intros _. cbn [rx_bad r_msgs].
    assert (Hz4 : is_ticket z = true -> exists r2, z = 4 :: r2).
    { destruct M3 as (t & ->). unfold is_ticket, has_type. intros K. exists [0; 0; 0]. f_equal. lia. }
    assert (Hzb : exists b r2, z = b :: r2) by (destruct M3 as (t & ->); eauto). destruct Hzb as (b & r2 & Ez).
    assert (Hz4' : is_ticket z = true -> b = 4) by (intros K; destruct (Hz4 K) as (? & K'); congruence).
    assert (Eb : concat (hs_frags h') = b :: r2 ++ q0) by (rewrite Eq, Ez; reflexivity).
    assert (Hbuf : is_ticket (r_part r) = true -> ms1 <> [] \/ b = 4).
    { intros Etk. destruct ms1 as [|m1 ms1]; [|left; discriminate]. right. apply Hz4'.
      cbn [concat app] in Es. destruct (r_part r) as [|b0 l0]; [discriminate|]. rewrite Ez in Es |- *.
      cbn [app] in Es. inversion Es; subst. exact Etk. }
    match goal with K : handle_result _ _ _ _ _ = _ |- _ => 
      refine (handle_dead P lib _ _ fs (r_msgs r ++ ms1) _ _ _ K) end.
    + eapply store_dead; eauto.
    + intros r3 E3 Etk. inversion E3; subst r3. destruct (Hrt Etk) as [K|K]; [discriminate|].
      rewrite existsb_app in K. cbn [existsb] in K. rewrite orb_false_r in K.
      assert (Hk : ms1 <> [] \/ b = 4).
      { destruct ms1; [right; apply Hz4'; exact K|left; discriminate]. }
      eapply store_dead; eauto. tauto.
  - split; [reflexivity|]. exists content, pad. split; [reflexivity|]. unfold fatal. eauto 12.
Qed.

Lemma recv_ok : forall P lib x dout r hdr payload out fs,
  prims_ok P -> rx_rel P x dout r ->
  bytes_ok hdr -> Forall iov_valid payload -> bytes_ok (iov_concat payload) ->
  lenN hdr + sum_lens payload < two64 ->
  match crypt_unprotect P lib x (IoBuf hdr) payload (IoBuf out) fs with
  | Done ((x', (st, n), out'), _) =>
    exists r', recv P (fs <> []) r hdr (iov_concat payload) out st n (iov_data out') r' /\
      (r_bad r' = false -> rx_rel P x' dout r' /\ send_step x x' (r_msgs r') (r_part r') /\
         (st = S_OK -> n <> 0 -> cx_phase x' <> RECEIVING)) /\
      (r_bad r' = true -> cx_dead x' (r_msgs r'))
  | Undef u => u = UbNegativeShift /\ r_closed r = false /\ exists c pad,
      iov_concat payload = dir_seal P (r_dir r) hdr (inner ty_handshake c pad) /\
      fatal (r_part r ++ c)
  | NoFuel => False
  end.
Proof.
  intros P lib x dout r hdr payload out fs HP Hr H1 H2 H3 H4.
  pose proof Hr as (Hbad & Hinv & Hcl & Hex).
  assert (Hself : forall st n, st <> S_OK -> rx_rel P x dout r /\ send_step x x (r_msgs r) (r_part r) /\
     (st = S_OK -> n <> 0 -> cx_phase x <> RECEIVING)).
  { intros st n Hne. split; [exact Hr|]. split; [apply send_step_refl; reflexivity|contradiction]. }
  pose proof (rx_step_ok P lib x _ dout _ _ hdr payload out fs HP Hinv H1 H2 H3 H4) as H.
  assert (Hnb : forall r', r_bad r' = r_bad r -> forall X : Prop, r_bad r' = true -> X) by (intros; congruence).
  inversion H as [Hc E|Hc Hw E|Hc Hw Hu E|h' fs' Hc Hw Hu Hi Hrej E|h' fs' msg res Hc Hw Hu Es Hl Hbm Hi Hfs Hstep E].
  - exists r. split; [apply RvClosed; congruence|]. split; [intros; apply Hself; discriminate|apply Hnb; reflexivity].
  - exists r. split; [|split; [intros; apply Hself; match goal with |- context [if ?b then _ else _] => destruct b end; discriminate|apply Hnb; reflexivity]].
    replace (22 + 16384) with (16384 + 22) by reflexivity.
    apply RvMalformed; [congruence|exact Hw].
  - exists r. split; [|split; [intros; apply Hself; discriminate|apply Hnb; reflexivity]]. apply RvUnusable; [congruence|exact Hw|exact Hu].
  - exists (rx_dir r (dir_next (r_dir r))). split; [|split; [intros _; split; [split; [exact Hbad|split; [exact Hi|split; [exact Hcl|exact Hex]]]|split; [apply send_step_refl; reflexivity|discriminate]]|apply (Hnb (rx_dir r (dir_next (r_dir r)))); reflexivity]].
    apply RvReject; [congruence|exact Hw|exact Hu|].
    destruct fs as [|b fs0]; [right; intros msg; apply Hrej; reflexivity|left; discriminate].
  - assert (Hr' : rx_rel P (set_in x h') dout (rx_dir r (dir_next (r_dir r)))) by (split; [exact Hbad|split; [exact Hi|split; [exact Hcl|exact Hex]]]).
    pose proof (accept_ok P lib _ dout (rx_dir r (dir_next (r_dir r))) msg _ fs' _ Hr' (proj1 Hu) Hstep) as Ha.
    destruct (crypt_unprotect P lib x (IoBuf hdr) payload (IoBuf out) fs) as [[[[x' [st n]] out'] fs2]|u|].
    + destruct Ha as (r' & Ha & Hrel). exists r'. split; [|exact Hrel].
      eapply RvRecord; [congruence|exact Hw|exact Hu|exact Es|exact Hl|].
      assert (Hmono : fs' <> [] -> fs <> []) by tauto.
      clear - Ha Hmono. revert Ha. generalize (msg ++ dropN (lenN msg) out). intros o Ha.
      inversion Ha; subst; try (econstructor; eauto; fail).
      eapply AcEmptyBody; eauto. tauto.
    + destruct Ha as (-> & c & pad & -> & Hm). split; [reflexivity|]. split; [congruence|]. exists c, pad. auto.
    + destruct Ha.
Qed.

Lemma rx_rel_out : forall P x h dout dout' r, rx_rel P x dout r -> half_rel P h dout' ->
  rx_rel P (set_out x h) dout' r.
Proof.
  intros P x h dout dout' r (A & [B1 B2 B3 B4 B5 B6 B7] & C) Hh. split; [exact A|]. split; [|exact C].
  constructor; auto.
Qed.

Lemma crun_rx : forall P lib ops x dout r x' rs,
  prims_ok P -> cops_ok ops -> (r_bad r = false -> rx_rel P x dout r) ->
  (r_bad r = true -> cx_dead x (r_msgs r)) ->
  crun P lib x ops = Done (x', rs) ->
  exists r', rx_run P r ops rs r' /\ (r_bad r' = false -> exists dout', rx_rel P x' dout' r') /\
    (r_bad r' = true -> cx_dead x' (r_msgs r')).
Proof.
  intros P lib ops. induction ops as [|[op fs] ops IH]; intros x dout r x' rs HP Hok Hr Hdd E.
  - cbn in E. inversion E; subst. exists r. split; [constructor|eauto].
  - destruct (r_bad r) eqn:Hbad.
    { exists r. split; [apply RrBad; exact Hbad|]. split; [congruence|]. intros _.
      exact (crun_dead P lib _ x (r_msgs r) (Hdd eq_refl) _ E). }
    assert (Hdd' : r_bad r = true -> forall y, cx_dead y (r_msgs r)) by congruence.
    specialize (Hr eq_refl). inversion Hok as [|? ? Hop Hops]; subst. cbn [crun] in E.
    assert (Hobind : forall A B (o : outcome A) (k : A -> outcome B) b, obind o k = Done b ->
              exists a, o = Done a /\ k a = Done b).
    { intros A B [a|u|] k b K; cbn in K; try discriminate. eauto. }
    apply Hobind in E as ([x1 res] & E1 & E). apply Hobind in E as ([x2 rs1] & E2 & E). inversion E; subst. clear E.
    pose proof Hr as (_ & [Ci Co _ _ _ _ _] & _).
    destruct op as [t pt buf|hdr payload buf|]; cbn [cstep fst cop_ok] in *.
    + destruct (crypt_protect_spec P x _ _ t pt buf fs HP Ci Co Hop)
        as (h' & st & n & buf' & fs' & Ep & _ & Ee & Hnf & Hf).
      rewrite Ep in E1. cbn in E1. inversion E1; subst.
      assert (exists d, half_rel P h' d) as (d & Hd).
      { destruct (fits_in pt buf) eqn:Ef.
        - apply fits_in_spec in Ef. destruct (Hf Ef) as [Hun Hus].
          destruct (dir_usable_dec dout) as [Hu|Hu].
          + destruct (Hus Hu) as (R' & _). eauto.
          + destruct (Hun Hu) as (-> & _). eauto.
        - assert (Hnfit : ~ fits pt buf) by (rewrite <- fits_in_spec; congruence).
          destruct (Hnf Hnfit) as (-> & _). eauto. }
      destruct (IH (set_out x h') d r x' rs1 HP Hops (fun _ => rx_rel_out _ _ _ _ _ _ Hr Hd) (fun K => Hdd' K _) E2) as (r' & Hrun & Hrel).
      exists r'. split; [apply RrOther; auto|exact Hrel].
    + destruct Hop as (B1 & B2 & B3 & B4).
      pose proof (recv_ok P lib x dout r hdr payload buf fs HP Hr B1 B2 B3 B4) as H.
      destruct (crypt_unprotect P lib x (IoBuf hdr) payload (IoBuf buf) fs) as [[[[y [st n]] out] fs']|u|];
        cbn in E1; try discriminate. inversion E1; subst.
      destruct H as (r1 & Hrecv & Hrel1 & Hdead1).
      destruct (IH x1 dout r1 x' rs1 HP Hops (fun Hb => proj1 (Hrel1 Hb)) Hdead1 E2) as (r' & Hrun & Hrel).
      exists r'. split; [|exact Hrel]. eapply RrRecv; eauto.
    + unfold crypt_update_outbound_key in E1.
      destruct (half_update_spec P lib (cx_out x) dout fs HP Co) as (h' & st & fs' & Eu & _ & Ho & Hf & _).
      rewrite (bind_done _ _ _ _ _ _ _ Eu) in E1. cbn in E1. inversion E1; subst.
      assert (exists d, half_rel P h' d) as (d & Hd).
      { destruct (is_ok st) eqn:Es.
        - apply is_ok_true in Es. destruct (Ho Es). eauto.
        - apply is_ok_false in Es. destruct (Hf Es). eauto. }
      destruct (IH (set_out x h') d r x' rs1 HP Hops (fun _ => rx_rel_out _ _ _ _ _ _ Hr Hd) (fun K => Hdd' K _) E2) as (r' & Hrun & Hrel).
      exists r'. split; [apply RrOther; auto|exact Hrel].
Qed.

Lemma create_rx : forall P lib a fs fs' x, prims_ok P -> ca_in_seq a < two64 -> ca_out_seq a < two64 ->
  crypt_create P lib a fs = Done (inr x, fs') ->
  rx_rel P x (dir_start (ca_suite a) (ca_out_secret a) (ca_out_seq a))
    (rx_start (dir_start (ca_suite a) (ca_in_secret a) (ca_in_seq a))).
Proof.
  intros P lib a fs fs' x HP Hi Ho E.
  destruct (crypt_create_spec P lib a fs HP Hi Ho) as (r & fs1 & E1 & _ & H & _).
  rewrite E in E1. inversion E1; subst.
  destruct (H x eq_refl) as (_ & _ & _ & _ & L1 & L2 & R1 & R2 & Ei & Ui & Eo & Uo & Ex).
  split; [reflexivity|]. split; [|rewrite Ex; split; [reflexivity|split; [reflexivity|intros _; split; [reflexivity|split; discriminate]]]].
  constructor; auto; cbn [rx_start r_dir r_msgs r_part].
  - constructor.
  - constructor.
  - intros K; contradiction.
  - left. rewrite Ex. reflexivity.
  - intros _. rewrite Ex. exists (Some []). split; [apply new_handler_inv|]. cbn. auto.
Qed.

Lemma creach_rx : forall P lib a ops rs x,
  prims_ok P -> ca_in_seq a < two64 -> ca_out_seq a < two64 -> cops_ok ops ->
  creach P lib a ops rs x ->
  exists r, rx_run P (rx_start (dir_start (ca_suite a) (ca_in_secret a) (ca_in_seq a))) ops rs r /\
    (r_bad r = false -> exists dout, rx_rel P x dout r) /\ (r_bad r = true -> cx_dead x (r_msgs r)).
Proof.
  intros P lib a ops rs x HP Hi Ho Hok (x0 & fs & fs' & Ec & Er).
  pose proof (create_rx P lib a fs fs' x0 HP Hi Ho Ec) as Hr.
  eapply crun_rx; eauto. discriminate.
Qed.
