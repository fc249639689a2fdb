(* Proofs for C91: a build with OpenSSL and a build with BoringSSL, run side by
   side while no library call fails. *)
From Coq Require Import List NArith ZArith Bool Lia ZifyBool ZifyNat ZifyN.
From Verif Require Import Base BaseProofs Aead SpecAead AeadProofs AeadRunProofs Hkdf HalfConn
  SpecTls HkdfProofs HalfProofs Options HsHandler SpecHs HsProofs Crypter SpecRecord CrypterProofs
  SpecRx CrypterRun CrypterRunProofs SpecRxProofs CrypterLemmas CrypterLemmas2 Calm
  FrameProt SpecFrame FrameRun FrameProofs FrameNull FrameRx FrameSim FrameFinal FrameRef AeadCodes.
Import ListNotations.
Local Open Scope N_scope.

(* ---- two computations without library failures ---- *)
Definition same {A B} (R : A -> B -> Prop) (m1 : M A) (m2 : M B) : Prop :=
  match m1 [], m2 [] with
  | Done (a, fs1), Done (b, fs2) => fs1 = [] /\ fs2 = [] /\ R a b
  | Undef u1, Undef u2 => u1 = u2
  | NoFuel, NoFuel => True
  | _, _ => False
  end.

Lemma same_ret : forall A B (R : A -> B -> Prop) a b, R a b -> same R (ret a) (ret b).
Proof. intros A B R a b H. cbn. auto. Qed.
Lemma same_bind : forall A B C D (R : A -> B -> Prop) (S : C -> D -> Prop) m1 m2 k1 k2,
  same R m1 m2 -> (forall a b, R a b -> same S (k1 a) (k2 b)) -> same S (bind m1 k1) (bind m2 k2).
Proof.
  intros A B C D R S m1 m2 k1 k2 H K. unfold same, bind in *.
  destruct (m1 []) as [[a fs1]|u|], (m2 []) as [[b fs2]|u'|]; try contradiction; auto.
  destruct H as (-> & -> & H). exact (K a b H).
Qed.
Lemma same_lift : forall A C D (S : C -> D -> Prop) (o : outcome A) k1 k2,
  (forall a, o = Done a -> same S (k1 a) (k2 a)) -> same S (bind (lift o) k1) (bind (lift o) k2).
Proof.
  intros A C D S o k1 k2 H. unfold same, bind, lift. destruct o as [a|u|]; auto. exact (H a eq_refl).
Qed.
Lemma same_done : forall A B (R : A -> B -> Prop) m1 m2 a b, calm m1 -> calm m2 ->
  (exists f1, m1 [] = Done (a, f1)) -> (exists f2, m2 [] = Done (b, f2)) -> R a b -> same R m1 m2.
Proof.
  intros A B R m1 m2 a b C1 C2 [f1 E1] [f2 E2] H. unfold same. rewrite E1, E2.
  rewrite (C1 _ _ E1), (C2 _ _ E2). auto.
Qed.

Ltac tw := split; [reflexivity|]; split; [assumption|]; split; [assumption|]; split; assumption.

Section Builds.
Variable P : prims.
Variables lib1 lib2 : ssl_lib.
Hypothesis HP : prims_ok P.

(* The two crypters differ at most in their half connections, which are in the
   same protection state. *)
Definition twins (x1 x2 : crypt) : Prop :=
  exists din dout h g, x2 = set_out (set_in x1 h) g /\
    half_rel P (cx_in x1) din /\ half_rel P h din /\ half_rel P (cx_out x1) dout /\ half_rel P g dout.

Lemma twins_overhead : forall x1 x2, twins x1 x2 -> record_overhead x1 = Done 22 /\ record_overhead x2 = Done 22.
Proof.
  intros x1 x2 (din & dout & h & g & -> & R1 & R2 & _). split; [exact (record_overhead_spec _ _ _ R1)|].
  apply (record_overhead_spec P _ din). exact R2.
Qed.

(* Results: the same status, length and memory. *)
Definition same_res {S} (x y : crypt * (S * N) * iovec) : Prop :=
  let '(x1, s1, o1) := x in let '(x2, s2, o2) := y in twins x1 x2 /\ s1 = s2 /\ o1 = o2.

Lemma fits_dec : forall pt buf, fits pt buf \/ ~ fits pt buf.
Proof. intros pt buf. unfold fits. lia. Qed.

Lemma set_in_in : forall x h h', set_in (set_in x h) h' = set_in x h'. Proof. reflexivity. Qed.

Lemma protect_twins : forall x1 x2 t pt buf, twins x1 x2 -> sum_lens pt < two64 ->
  same same_res (crypt_protect P x1 t pt (IoBuf buf)) (crypt_protect P x2 t pt (IoBuf buf)).
Proof.
  intros x1 x2 t pt buf (din & dout & h & g & -> & R1 & R2 & R3 & R4) Hs.
  set (x2 := set_out (set_in x1 h) g).
  destruct (crypt_protect_spec P x1 din dout t pt buf [] HP R1 R3 Hs) as (h1 & s1 & n1 & b1 & f1 & E1 & L1 & _ & N1 & Y1).
  destruct (crypt_protect_spec P x2 din dout t pt buf [] HP R2 R4 Hs) as (h2 & s2 & n2 & b2 & f2 & E2 & L2 & _ & N2 & Y2).
  eapply same_done; [apply calm_protect|apply calm_protect|eexists; exact E1|eexists; exact E2|].
  destruct (fits_dec pt buf) as [F|F].
  2: { destruct (N1 F) as (-> & -> & -> & -> & _). destruct (N2 F) as (-> & -> & -> & -> & _).
       cbn [same_res]. split; [|auto]. exists din, dout, h, g. rewrite !set_out_same. tw. }
  destruct (Y1 F) as [U1 V1], (Y2 F) as [U2 V2]. destruct (dir_usable_dec dout) as [D|D].
  2: { destruct (U1 D) as (-> & -> & -> & ->). destruct (U2 D) as (-> & -> & -> & ->).
       cbn [same_res]. split; [|auto]. exists din, dout, h, g. rewrite !set_out_same. tw. }
  destruct (V1 D) as (Q1 & _ & A1 & B1 & C1), (V2 D) as (Q2 & _ & A2 & B2 & C2).
  assert (T : twins (set_out x1 h1) (set_out x2 h2)).
  { exists din, (dir_next dout), h, h2. tw. }
  destruct (AeadCodes.valid_dec pt) as [Hv|Hv].
  - destruct (C1 Hv eq_refl) as [-> _]. destruct (C2 Hv eq_refl) as [-> _].
    destruct (A1 eq_refl) as (_ & -> & ->). destruct (A2 eq_refl) as (_ & -> & ->). cbn [same_res]. auto.
  - destruct (FrameNull.crypt_protect_null P x1 din dout t pt buf HP R1 R3 Hs F D Hv) as (y1 & o1 & g1 & G1).
    destruct (FrameNull.crypt_protect_null P x2 din dout t pt buf HP R2 R4 Hs F D Hv) as (y2 & o2 & g2 & G2).
    rewrite E1 in G1. injection G1 as _ -> -> _ _. rewrite E2 in G2. injection G2 as _ -> -> _ _.
    destruct (B1 ltac:(discriminate)) as (_ & -> & _). destruct (B2 ltac:(discriminate)) as (_ & -> & _).
    cbn [same_res]. auto.
Qed.

Lemma update_twins : forall h1 h2 d, half_rel P h1 d -> half_rel P h2 d ->
  same (fun a b => snd a = kOk /\ snd b = kOk /\ half_rel P (fst a) (dir_update P d) /\ half_rel P (fst b) (dir_update P d))
    (half_update_key P lib1 h1) (half_update_key P lib2 h2).
Proof.
  intros h1 h2 d R1 R2.
  destruct (half_update_spec P lib1 h1 d [] HP R1) as (k1 & s1 & f1 & E1 & _ & A1 & _ & B1).
  destruct (half_update_spec P lib2 h2 d [] HP R2) as (k2 & s2 & f2 & E2 & _ & A2 & _ & B2).
  eapply same_done; [apply calm_update|apply calm_update|eexists; exact E1|eexists; exact E2|].
  destruct (B1 eq_refl) as [-> _], (B2 eq_refl) as [-> _]. cbn [fst snd].
  split; [reflexivity|]. split; [reflexivity|]. split; [apply A1|apply A2]; reflexivity.
Qed.

Definition same_code (x y : crypt * code) : Prop := twins (fst x) (fst y) /\ snd x = snd y.

Lemma send_twins : forall C D (S : C -> D -> Prop) x1 x2 k1 k2, twins x1 x2 ->
  (forall y1 y2, twins y1 y2 -> same S (k1 y1) (k2 y2)) ->
  same S (bind (lift (send_tickets x1)) k1) (bind (lift (send_tickets x2)) k2).
Proof.
  intros C D S x1 x2 k1 k2 (din & dout & h & g & -> & R1 & R2 & R3 & R4) K.
  unfold send_tickets, same, bind, lift.
  change (cx_handler (set_out (set_in x1 h) g)) with (cx_handler x1).
  destruct (get_stored_tickets (cx_handler x1)) as [[hd r]|u|]; cbn [obind]; auto.
  destruct r as [st|ts]; apply K; exists din, dout, h, g; tw.
Qed.

Lemma result_twins : forall x1 x2 r, twins x1 x2 -> same same_code (handle_result P lib1 x1 r) (handle_result P lib2 x2 r).
Proof.
  intros x1 x2 r (din & dout & h & g & -> & R1 & R2 & R3 & R4). destruct r as [st|r]; cbn [handle_result].
  { apply same_ret. split; [|reflexivity]. exists din, dout, h, g. tw. }
  apply (same_bind _ _ _ _ (fun a b => twins (fst a) (fst b) /\ snd a = false /\ snd b = false)).
  - destruct (r_key_update r).
    + eapply same_bind; [apply (update_twins _ _ din); [exact R1|exact R2]|].
      intros [k1 s1] [k2 s2] (E1 & E2 & Q1 & Q2). cbn [fst snd] in *. subst s1 s2. apply same_ret. cbn [fst snd].
      split; [|auto]. exists (dir_update P din), dout, k2, g. tw.
    + apply same_ret. cbn [fst snd]. split; [|auto]. exists din, dout, h, g. tw.
  - intros [y1 b1] [y2 b2] (T & E1 & E2). cbn [fst snd] in *. subst b1 b2.
    destruct T as (din' & dout' & h' & g' & -> & Q1 & Q2 & Q3 & Q4).
    assert (TT : forall p e, twins (set_phase y1 p e) (set_phase (set_out (set_in y1 h') g') p e))
      by (intros p e; exists din', dout', h', g'; tw).
    assert (T0 : twins y1 (set_out (set_in y1 h') g')) by (exists din', dout', h', g'; tw).
    change (cx_phase (set_out (set_in y1 h') g')) with (cx_phase y1).
    change (cx_expecting (set_out (set_in y1 h') g')) with (cx_expecting y1).
    assert (Fin : forall y z, twins y z -> same same_code (ret (set_phase y DONE false, kOk)) (ret (set_phase z DONE false, kOk))).
    { intros y z (a & b & c & d & -> & K). apply same_ret. split; [|reflexivity]. exists a, b, c, d. exact (conj eq_refl K). }
    destruct (cx_phase y1).
    + destruct (r_ticket r); cbn [andb].
      * destruct (_ <=? _); [apply send_twins; [apply TT|exact Fin]|apply same_ret; split; [apply TT|reflexivity]].
      * apply same_ret. split; [exact T0|reflexivity].
    + destruct (_ && _); [apply send_twins; [exact T0|exact Fin]|apply same_ret; split; [exact T0|reflexivity]].
    + apply same_ret. split; [exact T0|reflexivity].
Qed.

Lemma deliver_twins : forall x1 x2 n buf, twins x1 x2 ->
  same same_res (deliver P lib1 x1 n (IoBuf buf)) (deliver P lib2 x2 n (IoBuf buf)).
Proof.
  intros x1 x2 n buf T. pose proof T as T0. destruct T as (din & dout & h & g & -> & R). unfold deliver.
  assert (Rt : forall y1 y2 (s : sstatus) o, twins y1 y2 -> same same_res (ret (y1, s, o)) (ret (y2, s, o)))
    by (intros; apply same_ret; cbn [same_res]; auto).
  destruct (scan_type _) as [[ty content]|]; [|apply Rt; exact T0].
  destruct (ty =? kTls13Alert).
  { destruct content as [|a [|d c]]; apply same_lift; intros o _; [apply Rt; exact T0..|].
    destruct (d =? _); apply Rt; [|exact T0]. exists din, dout, h, g. exact (conj eq_refl R). }
  destruct (ty =? kTls13Handshake).
  { apply same_lift. intros [hd r] _. eapply same_bind.
    - apply result_twins. exists din, dout, h, g. exact (conj eq_refl R).
    - intros [y1 s1] [y2 s2] [T1 E]. cbn [fst snd] in *. subst s2. destruct (negb _); apply Rt; exact T1. }
  destruct (ty =? kTls13ApplicationData); [|apply same_lift; intros o _; apply Rt; exact T0].
  change (cx_expecting (set_out (set_in x1 h) g)) with (cx_expecting x1).
  change (cx_phase (set_out (set_in x1 h) g)) with (cx_phase x1).
  destruct (cx_expecting x1); [apply Rt; exact T0|].
  destruct (cx_phase x1).
  - unfold same, bind, lift. cbn [ret same_res]. auto.
  - unfold send_tickets. change (cx_handler (set_out (set_in x1 h) g)) with (cx_handler x1).
    destruct (get_stored_tickets (cx_handler x1)) as [[hd r]|u|]; cbn [obind]; [|reflexivity|exact I].
    destruct r as [st|ts]; cbn [obind]; unfold same, bind, lift; cbn [ret same_res]; repeat split;
      exists din, dout, h, g; exact (conj eq_refl R).
  - unfold same, bind, lift. cbn [ret same_res]. auto.
Qed.

Lemma wf_dec : forall hdr n, well_formed hdr n \/ ~ well_formed hdr n.
Proof. intros hdr n. unfold well_formed. destruct (list_eq_dec N.eq_dec hdr (tls_header n)); [|tauto].
  destruct (N.le_gt_cases 17 n); [|right; lia]. destruct (N.le_gt_cases n (16384 + 17)); [tauto|right; lia]. Qed.

Lemma unprotect_twins : forall x1 x2 hdr payload buf, twins x1 x2 -> cop_ok (CUnprotect hdr payload buf) ->
  same same_res (crypt_unprotect P lib1 x1 (IoBuf hdr) payload (IoBuf buf)) (crypt_unprotect P lib2 x2 (IoBuf hdr) payload (IoBuf buf)).
Proof.
  intros x1 x2 hdr payload buf T (Hb & Hv & _ & Hs). pose proof T as T0.
  destruct T as (din & dout & h & g & -> & R1 & R2 & R3 & R4). set (x2 := set_out (set_in x1 h) g) in *.
  destruct (crypt_unprotect_spec P lib1 x1 din hdr payload buf [] HP R1 Hb Hv Hs) as (A1 & B1 & C1).
  destruct (crypt_unprotect_spec P lib2 x2 din hdr payload buf [] HP R2 Hb Hv Hs) as (A2 & B2 & C2).
  change (cx_close x2) with (cx_close x1) in *.
  destruct (cx_close x1) eqn:Ec.
  { unfold same. rewrite (A1 eq_refl), (A2 eq_refl). cbn [same_res]. auto. }
  destruct (wf_dec hdr (sum_lens payload)) as [W|W].
  2: { unfold same. rewrite (B1 eq_refl W), (B2 eq_refl W). cbn [same_res]. auto. }
  destruct (C1 eq_refl W) as (h1 & f1 & _ & U1 & V1 & [[E1 N1]|(m1 & b1 & D1 & S1 & L1 & O1 & F1 & E1)]);
  destruct (C2 eq_refl W) as (h2 & f2 & _ & U2 & V2 & [[E2 N2]|(m2 & b2 & D2 & S2 & L2 & O2 & F2 & E2)]).
  - eapply same_done; [apply calm_unprotect|apply calm_unprotect|eexists; exact E1|eexists; exact E2|].
    cbn [same_res]. split; [|auto]. destruct (dir_usable_dec din) as [D|D].
    + exists (dir_next din), dout, h2, g. destruct (V1 D), (V2 D). tw.
    + destruct (U1 D) as [-> _], (U2 D) as [-> _]. exists din, dout, h, g. tw.
  - specialize (N1 m2 D2 eq_refl S2). lia.
  - specialize (N2 m1 D1 eq_refl S1). lia.
  - assert (m2 = m1) by (apply (dir_seal_inj P din hdr); [exact HP|congruence]). subst m2 b1 b2.
    unfold same. rewrite E1, E2, (F1 eq_refl), (F2 eq_refl). apply deliver_twins.
    exists (dir_next din), dout, h2, g. destruct (V1 D1), (V2 D2). tw.
Qed.

(* ---- frame protectors ---- *)
Definition ftwins (f1 f2 : fprot) : Prop := exists x, f2 = with_crypt f1 x /\ twins (fp_crypt f1) x.

Lemma ftwins_with : forall f1 f2 x1 x2, ftwins f1 f2 -> twins x1 x2 -> ftwins (with_crypt f1 x1) (with_crypt f2 x2).
Proof. intros f1 f2 x1 x2 (x & -> & _) T. exists x2. split; [reflexivity|exact T]. Qed.
Lemma ftwins_destroy : forall f1 f2 id, ftwins f1 f2 -> ftwins (fp_destroy f1 id) (fp_destroy f2 id).
Proof. intros f1 f2 id (x & -> & T). exists x. split; [reflexivity|exact T]. Qed.
Lemma ftwins_crypt : forall f1 f2, ftwins f1 f2 -> twins (fp_crypt f1) (fp_crypt f2).
Proof. intros f1 f2 (x & -> & T). exact T. Qed.
Lemma ftwins_destroys : forall acc f1 f2, ftwins f1 f2 ->
  ftwins (fold_left (fun f b => fp_destroy f (fb_id b)) acc f1) (fold_left (fun f b => fp_destroy f (fb_id b)) acc f2).
Proof. induction acc as [|b acc IH]; intros f1 f2 T; [exact T|]. cbn [fold_left]. apply IH. apply ftwins_destroy. exact T. Qed.

Definition same_fres {A B} (x y : fprot * A * B) : Prop :=
  let '(f1, a1, b1) := x in let '(f2, a2, b2) := y in ftwins f1 f2 /\ a1 = a2 /\ b1 = b2.

Lemma collect_chunk_le : forall vs on need ps c, collect_chunk vs on need = Done (ps, c) -> sum_lens ps <= need.
Proof.
  induction vs as [|v vs IH]; intros on need ps c E; cbn [collect_chunk] in E; (destruct (N.eqb_spec need 0) as [K|K];
    [injection E as <- <-; cbn; lia|]); [discriminate|].
  set (k := N.min (sub64 (iov_len v) on) need) in E.
  destruct (iov_slice v on k) as [piece|u|] eqn:Es; cbn [obind] in E; try discriminate.
  assert (Hp : iov_len piece <= k).
  { destruct v as [d|n]; cbn [iov_slice] in Es.
    - injection Es as <-. cbn [iov_len]. unfold bytes in *. rewrite lenN_takeN. lia.
    - destruct (on =? 0); [|discriminate]. injection Es as <-. cbn [iov_len]. lia. }
  destruct (_ <=? _).
  - destruct (collect_chunk vs 0 (need - k)) as [[ps' c']|u|] eqn:E'; cbn [obind] in E; try discriminate.
    injection E as <- <-. apply IH in E'. cbn [sum_lens map fold_right]. unfold sum_lens in *. cbn [map fold_right]. lia.
  - injection E as <- <-. unfold sum_lens. cbn [map fold_right]. lia.
Qed.

Lemma protect_loop_twins : forall fuel f1 f2 c rem first out index id, ftwins f1 f2 ->
  same same_fres (protect_loop fuel P f1 c rem first out index id) (protect_loop fuel P f2 c rem first out index id).
Proof.
  induction fuel as [|fuel IH]; intros f1 f2 c rem first out index id T; cbn [protect_loop];
    (destruct (negb _); [apply same_ret; cbn [same_fres]; auto|]); [exact I|].
  apply same_lift. intros [chunk c'] Ec. eapply same_bind.
  - apply protect_twins; [exact (ftwins_crypt _ _ T)|]. apply collect_chunk_le in Ec. revert Ec.
    unfold kTlsMaxPlaintextSize, two64. destruct (N.ltb_spec rem 16384); lia.
  - intros [[y1 [s1 n1]] o1] [[y2 [s2 n2]] o2] (T1 & E & <-). injection E as <- <-.
    assert (T2 : ftwins (with_crypt f1 y1) (with_crypt f2 y2)) by (apply ftwins_with; assumption).
    destruct s1; try (apply same_ret; cbn [same_fres]; split; [apply ftwins_destroy; exact T2|auto]).
    destruct (twins_overhead _ _ T1) as [-> ->]. apply same_lift. intros o _.
    destruct (negb _); [apply same_ret; cbn [same_fres]; split; [apply ftwins_destroy; exact T2|auto]|]. apply IH. exact T2.
Qed.

Lemma protect_into_twins : forall f1 f2 input id buf, ftwins f1 f2 ->
  same same_fres (fp_protect_into P f1 input id (IoBuf buf)) (fp_protect_into P f2 input id (IoBuf buf)).
Proof.
  intros f1 f2 input id buf T. unfold fp_protect_into. eapply same_bind; [apply protect_loop_twins; exact T|].
  intros [[g1 s1] o1] [[g2 s2] o2] (T1 & <- & <-). apply same_ret. cbn [same_fres]. auto.
Qed.

Lemma fprotect_twins : forall al f1 f2 input, alloc_ok al -> ftwins f1 f2 ->
  same same_fres (fp_protect P al f1 input) (fp_protect P al f2 input).
Proof.
  intros al f1 f2 input HA T. unfold fp_protect, number_bytes_to_protect.
  destruct (twins_overhead _ _ (ftwins_crypt _ _ T)) as [-> ->]. apply same_lift. intros size _.
  destruct T as (x & -> & T). unfold fp_alloc. cbn [with_crypt fp_next fp_crypt fp_max fp_events].
  destruct (HA (fp_next f1) size) as (d & -> & _). eapply same_bind; [apply protect_into_twins; exists x; split; [reflexivity|exact T]|].
  intros [[g1 s1] o1] [[g2 s2] o2] (T1 & <- & <-).
  destruct (negb _); apply same_ret; cbn [same_fres]; [split; [apply ftwins_destroy; exact T1|auto]|auto].
Qed.

Definition same_into (x y : fprot * code * iovec * N) : Prop :=
  let '(f1, s1, o1, n1) := x in let '(f2, s2, o2, n2) := y in ftwins f1 f2 /\ s1 = s2 /\ o1 = o2 /\ n1 = n2.

Lemma unprotect_into_twins : forall f1 f2 input buf, ftwins f1 f2 -> fop_ok (FUnprotectInto input buf) ->
  same same_into (fp_unprotect_into P lib1 f1 input (IoBuf buf)) (fp_unprotect_into P lib2 f2 input (IoBuf buf)).
Proof.
  intros f1 f2 input buf T (Hv & Hb & Hs). unfold fp_unprotect_into, number_bytes_to_unprotect.
  destruct (twins_overhead _ _ (ftwins_crypt _ _ T)) as [-> ->]. apply same_lift. intros n _.
  assert (Rt : forall st o k, same same_into (ret (f1, st, o, k)) (ret (f2, st, o, k)))
    by (intros; apply same_ret; cbn [same_into]; auto).
  destruct (n =? 0); [apply Rt|]. destruct (cur_start input) as (C1 & C2 & C3).
  destruct (rec_spec (input, 0) (start_valid _ Hv ltac:(lia)) ltac:(rewrite C3; exact Hb))
    as [u E Hn|Hn E|hdr vs on Hn E E2|hdr vs on ps c' E E2 Hsz Hr Hvp Hcb Hc' Hne];
    rewrite E; apply same_lift; intros r Er; try discriminate; injection Er as <-; [apply Rt|..];
    rewrite E2; apply same_lift; intros r Er; injection Er as <-; [apply Rt|].
  rewrite C3 in Hcb. eapply same_bind.
  - apply unprotect_twins; [exact (ftwins_crypt _ _ T)|]. cbn [cop_ok]. rewrite Hcb in Hb.
    destruct (FrameRx.bytes_ok_app _ _ Hb) as [Hb1 Hb2]. destruct (FrameRx.bytes_ok_app _ _ Hb2) as [Hb3 Hb4].
    split; [exact Hb1|]. split; [exact Hvp|]. split; [exact Hb3|].
    rewrite (sum_lens_concat ps Hvp). rewrite (sum_lens_concat input Hv), Hcb, !lenN_app in Hs. lia.
  - intros [[y1 [s1 n1]] o1] [[y2 [s2 n2]] o2] (T1 & Es & <-). injection Es as <- <-.
    assert (T2 : ftwins (with_crypt f1 y1) (with_crypt f2 y2)) by (apply ftwins_with; assumption).
    destruct s1; apply same_ret; cbn [same_into]; auto.
Qed.

Lemma unprotect_loop_twins : forall al, alloc_ok al -> forall fuel f1 f2 c rem acc, ftwins f1 f2 ->
  valid_cur c -> bytes_ok (cur_bytes c) -> lenN (cur_bytes c) + 5 < two64 ->
  same same_fres (unprotect_loop fuel P lib1 al f1 c rem acc) (unprotect_loop fuel P lib2 al f2 c rem acc).
Proof.
  intros al HA. induction fuel as [|fuel IH]; intros f1 f2 c rem acc T Hc Hb Hs; cbn [unprotect_loop];
    destruct (twins_overhead _ _ (ftwins_crypt _ _ T)) as [-> ->]; apply same_lift; intros o _;
    (destruct (_ <? _); [apply same_ret; cbn [same_fres]; auto|]); [exact I|].
  destruct (rec_spec c Hc Hb) as [u E Hn|Hn E|hdr vs on Hn E E2|hdr vs on ps c' E E2 Hsz Hr Hvp Hcb Hc' Hne];
    rewrite E; apply same_lift; intros r Er; try discriminate; injection Er as <-; [apply same_ret; cbn [same_fres]; auto|..];
    rewrite E2; apply same_lift; intros r Er; injection Er as <-; [apply same_ret; cbn [same_fres]; auto|].
  rewrite Hcb in Hb, Hs. destruct (FrameRx.bytes_ok_app _ _ Hb) as [Hb1 Hb2]. destruct (FrameRx.bytes_ok_app _ _ Hb2) as [Hb3 Hb4].
  rewrite !lenN_app in Hs.
  destruct T as (x & -> & T). unfold fp_alloc. cbn [with_crypt fp_next fp_crypt fp_max fp_events].
  destruct (HA (fp_next f1) (header_payload_size hdr)) as (d & -> & _). eapply same_bind.
  - apply unprotect_twins; [exact T|]. cbn [cop_ok]. split; [exact Hb1|]. split; [exact Hvp|]. split; [exact Hb3|].
    rewrite (sum_lens_concat ps Hvp). lia.
  - intros [[y1 [s1 n1]] o1] [[y2 [s2 n2]] o2] (T1 & Es & <-). injection Es as <- <-.
    match goal with |- context [with_crypt ?a y1] => match goal with |- context [with_crypt ?b y2] =>
      assert (T2 : ftwins (with_crypt a y1) (with_crypt b y2)) by (exists y2; split; [reflexivity|exact T1]) end end.
    destruct s1; try (apply same_ret; cbn [same_fres]; split; [apply ftwins_destroys, ftwins_destroy; exact T2|auto]).
    apply IH; [exact T2|exact Hc'|exact Hb4|lia].
Qed.

Lemma funprotect_twins : forall al f1 f2 input, alloc_ok al -> ftwins f1 f2 -> fop_ok (FUnprotect input) ->
  same same_fres (fp_unprotect P lib1 al f1 input) (fp_unprotect P lib2 al f2 input).
Proof.
  intros al f1 f2 input HA T (Hv & Hb & Hs). unfold fp_unprotect.
  destruct (twins_overhead _ _ (ftwins_crypt _ _ T)) as [-> ->]. apply same_lift. intros o _.
  destruct (_ <? _); [apply same_ret; cbn [same_fres]; auto|]. destruct (cur_start input) as (C1 & C2 & C3).
  apply unprotect_loop_twins; auto; [apply start_valid; [exact Hv|lia]|rewrite C3; exact Hb|].
  rewrite C3, <- (sum_lens_concat input Hv). exact Hs.
Qed.

Definition osame {A B} (R : A -> B -> Prop) (o1 : outcome A) (o2 : outcome B) : Prop :=
  match o1, o2 with
  | Done a, Done b => R a b
  | Undef u1, Undef u2 => u1 = u2
  | NoFuel, NoFuel => True
  | _, _ => False
  end.
Definition same_step {A} (x y : fprot * A) : Prop := ftwins (fst x) (fst y) /\ snd x = snd y.

Lemma osame_obind : forall A B (R : A -> A -> Prop) (S : B -> B -> Prop) (m1 m2 : M A) (k1 k2 : A * faults -> outcome B),
  same R m1 m2 -> (forall a b, R a b -> osame S (k1 (a, [])) (k2 (b, []))) -> osame S (obind (m1 []) k1) (obind (m2 []) k2).
Proof.
  intros A B R S m1 m2 k1 k2 H K. unfold same in H. destruct (m1 []) as [[a fs1]|u|], (m2 []) as [[b fs2]|u'|]; try contradiction; cbn; auto.
  destruct H as (-> & -> & H). auto.
Qed.

Lemma fstep_twins : forall al f1 f2 op, alloc_ok al -> ftwins f1 f2 -> fop_ok op ->
  osame same_step (fstep P lib1 al f1 op []) (fstep P lib2 al f2 op []).
Proof.
  intros al f1 f2 op HA T Hop. destruct op as [input|input id buf|input|input buf]; cbn [fstep].
  - eapply osame_obind; [apply fprotect_twins; assumption|]. intros [[g1 s1] o1] [[g2 s2] o2] (T1 & <- & <-). split; auto.
  - eapply osame_obind; [apply protect_into_twins; assumption|]. intros [[g1 s1] o1] [[g2 s2] o2] (T1 & <- & <-). split; auto.
  - eapply osame_obind; [apply funprotect_twins; assumption|]. intros [[g1 s1] o1] [[g2 s2] o2] (T1 & <- & <-). split; auto.
  - eapply osame_obind; [apply unprotect_into_twins; assumption|].
    intros [[[g1 s1] o1] n1] [[[g2 s2] o2] n2] (T1 & <- & <- & <-). split; auto.
Qed.

Lemma frun_twins : forall al ops f1 f2, alloc_ok al -> ftwins f1 f2 -> fops_ok ops -> no_failures ops ->
  osame same_step (frun P lib1 al f1 ops) (frun P lib2 al f2 ops).
Proof.
  intros al. induction ops as [|[op fs] ops IH]; intros f1 f2 HA T Hok Hf; cbn [frun]; [split; auto|].
  inversion Hok as [|? ? H1 H2]; subst. inversion Hf as [|? ? K1 K2]; subst. cbn [fst snd] in *. subst fs.
  pose proof (fstep_twins al f1 f2 op HA T H1) as Q.
  destruct (fstep P lib1 al f1 op []) as [[g1 r1]|u|], (fstep P lib2 al f2 op []) as [[g2 r2]|u'|]; cbn in Q; try contradiction; cbn [obind]; auto.
  destruct Q as [T1 E]. cbn [fst snd] in *. subst r2. specialize (IH g1 g2 HA T1 H2 K2).
  destruct (frun P lib1 al g1 ops) as [[k1 rs1]|u|], (frun P lib2 al g2 ops) as [[k2 rs2]|u'|]; cbn in IH; try contradiction; cbn [obind]; auto.
  destruct IH as [T2 E]. cbn [fst snd] in *. subst rs2. split; auto.
Qed.

End Builds.
