From Coq Require Import List NArith Bool Lia.
From Verif Require Import Base BaseProofs HsHandler SpecHs HsProofs SpecRecord SpecRx SpecRxProofs HsRun.
Import ListNotations.
Local Open Scope N_scope.

Lemma tickets_klast : forall ms part, Forall (fun m => is_ticket m = true) ms -> key_update_last ms part.
Proof.
  induction ms as [|m ms IH]; intros part H; cbn [key_update_last]; [exact I|].
  inversion H as [|? ? H1 H2]; subst. split; [|auto]. intro K. exfalso.
  destruct m as [|t m]; [discriminate|]. unfold is_ticket, is_key_update, has_type in *.
  apply N.eqb_eq in H1, K. congruence.
Qed.

Lemma tickets_known : forall ms, Forall (fun m => is_ticket m = true) ms -> Forall known ms.
Proof. intros ms H. eapply Forall_impl; [|exact H]. intros m K. left; exact K. Qed.

Section S.
Variables (ms : list bytes) (part : bytes).
Hypothesis Hms : Forall hs_msg ms.
Hypothesis Ht : Forall (fun m => is_ticket m = true) ms.
Hypothesis Hp : hs_partial part.
Hypothesis Htp : part <> [] -> is_ticket part = true.

Lemma stream_ok : ~ malformed (concat ms ++ part).
Proof.
  apply not_malformed; auto.
  - apply tickets_known; exact Ht.
  - intros K; left; auto.
  - apply tickets_klast; exact Ht.
Qed.

Lemma feed_step : forall h ms1 buf c more,
  hs_inv h (store_all (Some []) ms1) buf -> Forall hs_msg ms1 -> Forall known ms1 ->
  (buf <> [] -> known buf) -> bytes_ok c ->
  concat ms1 ++ buf ++ c ++ more = concat ms ++ part ->
  exists h' r ms2 buf', process_handshake_message h c = Done (h', inr r) /\
    buf ++ c = concat ms2 ++ buf' /\ hs_inv h' (store_all (Some []) (ms1 ++ ms2)) buf' /\
    Forall hs_msg (ms1 ++ ms2) /\ Forall known (ms1 ++ ms2) /\ (buf' <> [] -> known buf') /\
    r_expecting r = negb (empty buf') /\ r_num r = hs_num h' /\
    r_key_update r = negb (empty c) && existsb is_key_update (ms2 ++ [buf']).
Proof.
  intros h ms1 buf c more Hi Hm Hk Hkb Hbc E.
  destruct (process_handshake_message_spec h _ buf c Hi Hbc Hkb) as [Hz|[Hok|He]].
  - exfalso. apply stream_ok. rewrite <- E. destruct Hz as (m2 & z & rest & Ez & Hm2 & Hk2 & Hz & _). apply tickets_known in Hk2.
    exists (ms1 ++ m2), z, (rest ++ more). rewrite concat_app, <- !app_assoc.
    split; [f_equal; rewrite app_assoc, Ez, <- !app_assoc; reflexivity|].
    split; [apply Forall_app; auto|]. split; [apply Forall_app; auto|]. left; exact Hz.
  - destruct Hok as (h' & r & ms2 & buf' & R1 & R2 & R3 & R4 & R5 & R6 & R7 & R8 & R9 & R10 & R11 & R12).
    exists h', r, ms2, buf'. split; [exact R1|]. split; [exact R2|].
    split; [rewrite store_all_app; exact R6|].
    split; [apply Forall_app; auto|]. split; [apply Forall_app; auto|]. auto.
  - exfalso. apply stream_ok. rewrite <- E. destruct He as (h' & m2 & m & rest & _ & Ez & Hm2 & Hk2 & Hbad & _). apply tickets_known in Hk2.
    exists (ms1 ++ m2), m, (rest ++ more). rewrite concat_app, <- !app_assoc.
    split; [f_equal; rewrite app_assoc, Ez, <- !app_assoc; reflexivity|].
    split; [apply Forall_app; auto|]. split; [apply Forall_app; auto|].
    destruct Hbad as [Hbad|(A & B & C)]; [auto|]. right; right. split; [exact A|]. split; [exact B|].
    destruct rest; [contradiction|discriminate].
Qed.

Lemma feed_all : forall recs h ms1 buf more,
  hs_inv h (store_all (Some []) ms1) buf -> Forall hs_msg ms1 -> Forall known ms1 ->
  (buf <> [] -> known buf) -> Forall bytes_ok recs ->
  concat ms1 ++ buf ++ concat recs ++ more = concat ms ++ part ->
  exists h' rs ms2 buf', hs_feed h recs = Done (h', map inr rs) /\
    buf ++ concat recs = concat ms2 ++ buf' /\ hs_inv h' (store_all (Some []) (ms1 ++ ms2)) buf' /\
    Forall hs_msg (ms1 ++ ms2) /\ Forall known (ms1 ++ ms2) /\ (buf' <> [] -> known buf').
Proof.
  induction recs as [|c recs IH]; intros h ms1 buf more Hi Hm Hk Hkb Hb E.
  - exists h, [], [], buf. cbn [concat app hs_feed map]. rewrite !app_nil_r. auto 8.
  - inversion Hb as [|? ? Hb1 Hb2]; subst. cbn [concat] in E.
    destruct (feed_step h ms1 buf c (concat recs ++ more) Hi Hm Hk Hkb Hb1)
      as (h1 & r & ms2 & buf1 & P1 & P2 & P3 & P4 & P5 & P6 & _); [rewrite <- E, <- !app_assoc; reflexivity|].
    destruct (IH h1 (ms1 ++ ms2) buf1 more P3 P4 P5 P6 Hb2) as (h2 & rs & ms3 & buf2 & Q1 & Q2 & Q3 & Q4 & Q5 & Q6).
    { rewrite <- E, concat_app, <- !app_assoc. f_equal.
      rewrite (app_assoc (concat ms2)), <- P2, <- !app_assoc. reflexivity. }
    exists h2, (r :: rs), (ms2 ++ ms3), buf2. rewrite (app_assoc ms1).
    split; [cbn [hs_feed]; rewrite P1; cbn [obind]; rewrite Q1; reflexivity|].
    split; [|auto]. cbn [concat]. rewrite app_assoc, P2, concat_app, <- !app_assoc. f_equal. exact Q2.
Qed.

Lemma C18_lemma : forall recs c, Forall bytes_ok (recs ++ [c]) ->
  concat (recs ++ [c]) = concat ms ++ part ->
  exists h rs h' r,
    hs_feed new_handler recs = Done (h, map inr rs) /\
    process_handshake_message h c = Done (h', inr r) /\
    r_expecting r = negb (empty part) /\
    r_num r = N.min 5 (lenN ms) /\ r_key_update r = false /\
    (part = [] -> exists h'' ts, get_stored_tickets h' = Done (h'', inr ts) /\
       map (@concat N) ts = firstn 5 ms).
Proof.
  intros recs c Hb E. apply Forall_app in Hb. destruct Hb as [Hb1 Hb2].
  inversion Hb2 as [|? ? Hbc _]; subst.
  rewrite concat_app in E. cbn [concat] in E. rewrite app_nil_r in E.
  destruct (feed_all recs new_handler [] [] c new_handler_inv) as (h & rs & ms1 & buf & F1 & F2 & F3 & F4 & F5 & F6); auto; try (intros; contradiction).
  cbn [app] in *.
  destruct (feed_step h ms1 buf c [] F3 F4 F5 F6 Hbc) as (h' & r & ms2 & buf' & P1 & P2 & P3 & P4 & P5 & P6 & P7 & P8 & P9).
  { rewrite app_nil_r, app_assoc, <- F2. exact E. }
  assert (K : concat (ms1 ++ ms2) ++ buf' = concat ms ++ part).
  { rewrite <- E, F2, concat_app, <- !app_assoc. f_equal. symmetry; exact P2. }
  apply parse_unique in K; auto; [|eapply pos_partial; apply P3]. destruct K as [K1 K2]. subst buf'.
  assert (P3' : hs_inv h' (store_all (Some []) ms) part) by (rewrite <- K1; exact P3).
  clear P3. rename P3' into P3.
  exists h, rs, h', r. split; [exact F1|]. split; [exact P1|]. split; [exact P7|].
  assert (Ef : filter is_ticket ms = ms).
  { clear - Ht. induction ms as [|m l IH]; [reflexivity|]. inversion Ht; subst. cbn [filter].
    match goal with H : is_ticket m = true |- _ => rewrite H end. f_equal. auto. }
  rewrite store_all_firstn, Ef in P3.
  split.
  { rewrite P8. destruct P3 as [_ (ts & _ & T2 & -> & _)].
    unfold lenN. rewrite firstn_length. lia. }
  split.
  { rewrite P9. apply andb_false_intro2. match goal with |- ?e = false => destruct e eqn:Ex; [|reflexivity] end.
    exfalso. apply existsb_exists in Ex. destruct Ex as (m & Hin & Hm).
    assert (Hmt : is_ticket m = true).
    { apply in_app_or in Hin. destruct Hin as [Hin|[<-|[]]].
      - rewrite Forall_forall in Ht. apply Ht. assert (K4 : In m (ms1 ++ ms2)) by (apply in_or_app; auto). rewrite <- K1. exact K4.
      - apply Htp. intro K. rewrite K in Hm. discriminate Hm. }
    destruct m as [|t m]; [discriminate|]. unfold is_ticket, is_key_update, has_type in *.
    apply N.eqb_eq in Hmt, Hm. congruence. }
  intros Ep. rewrite Ep in P3. pose proof (get_stored_tickets_spec _ _ _ P3) as Hg. cbn [is_ticket has_type] in Hg.
  destruct Hg as (h'' & ts & G1 & G2 & _). eauto.
Qed.
End S.
