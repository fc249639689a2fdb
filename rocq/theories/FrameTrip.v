(* Proofs: two frame protectors refine two queues of plaintext. *)
From Coq Require Import List NArith ZArith Bool Lia ZifyBool ZifyNat ZifyN.
From Verif Require Import Base BaseProofs Aead SpecAead AeadProofs Hkdf HalfConn
  SpecTls HkdfProofs HalfProofs Options HsHandler SpecHs HsProofs Crypter SpecRecord CrypterProofs
  SpecRx CrypterRun CrypterRunProofs SpecRxProofs CrypterLemmas CrypterLemmas2
  FrameProt SpecFrame FrameRun FrameProofs Calm FrameRx FrameSim FrameLink.
Import ListNotations.
Local Open Scope N_scope.
Ltac Zify.zify_post_hook ::= Z.div_mod_to_equations.

Lemma dir_adv_adv : forall d n m, dir_adv (dir_adv d n) m = dir_adv d (n + m).
Proof. intros d n m. unfold dir_adv. cbn [d_suite d_secret d_seq d_broken]. f_equal. lia. Qed.

Lemma records_app : forall P bs bs' d, records P d (bs ++ bs') = records P d bs ++ records P (dir_adv d (lenN bs)) bs'.
Proof.
  intros P bs bs'. induction bs as [|b bs IH]; intros d; cbn [records app].
  - rewrite lenN_nil, dir_adv_0. reflexivity.
  - rewrite IH, <- app_assoc, lenN_cons, dir_adv_next. reflexivity.
Qed.

Lemma records_bytes_ok : forall P bs d, prims_ok P -> Forall block_ok bs -> bytes_ok (records P d bs).
Proof.
  intros P bs d HP. revert d. induction bs as [|b bs IH]; intros d H; cbn [records]; [constructor|].
  apply Forall_app. split; [|apply IH; apply (Forall_inv_tail H)].
  destruct (Forall_inv H) as (_ & Hb). unfold tls_record, tls_ciphertext. apply Forall_app.
  split; [apply header_bytes_ok|]. apply dir_seal_bytes_ok; [exact HP|].
  unfold inner. apply Forall_app. split; [exact Hb|]. constructor; [reflexivity|constructor].
Qed.

(* Messages in transit. *)
Fixpoint wires (P : prims) (d : dir) (bss : list (list bytes)) : list bytes :=
  match bss with
  | [] => []
  | bs :: bss' => records P d bs :: wires P (dir_adv d (lenN bs)) bss'
  end.

Lemma wires_concat : forall P bss d, List.concat (wires P d bss) = records P d (List.concat bss).
Proof.
  intros P bss. induction bss as [|bs bss IH]; intros d; cbn [wires List.concat]; [reflexivity|].
  rewrite records_app, IH. reflexivity.
Qed.
Lemma wires_firstn : forall P k bss d, firstn k (wires P d bss) = wires P d (firstn k bss).
Proof.
  intros P k. induction k as [|k IH]; intros [|bs bss] d; cbn [wires firstn]; try reflexivity. rewrite IH. reflexivity.
Qed.
Lemma wires_skipn : forall P k bss d,
  skipn k (wires P d bss) = wires P (dir_adv d (lenN (List.concat (firstn k bss)))) (skipn k bss).
Proof.
  intros P k. induction k as [|k IH]; intros [|bs bss] d; cbn [wires firstn skipn List.concat];
    rewrite ?lenN_nil, ?dir_adv_0; try reflexivity.
  rewrite IH, dir_adv_adv, lenN_app. reflexivity.
Qed.
Lemma wires_snoc : forall P bss bs d,
  wires P d (bss ++ [bs]) = wires P d bss ++ [records P (dir_adv d (lenN (List.concat bss))) bs].
Proof.
  intros P bss bs. induction bss as [|b bss IH]; intros d; cbn [wires app List.concat].
  - rewrite lenN_nil, dir_adv_0. reflexivity.
  - rewrite IH, dir_adv_adv, lenN_app. reflexivity.
Qed.

Lemma concat_concat : forall bss : list (list bytes), List.concat (List.concat bss) = List.concat (map (@List.concat N) bss).
Proof.
  induction bss as [|bs bss IH]; cbn [List.concat map]; [reflexivity|]. rewrite concat_app, IH. reflexivity.
Qed.

Lemma blocks_ok : forall data bs, blocks_of data bs -> bytes_ok data -> Forall block_ok bs.
Proof.
  intros data bs (E & init & last & -> & Hi & Hl & _) Hb. rewrite <- E in Hb.
  assert (Hall : Forall bytes_ok (init ++ [last])).
  { clear -Hb. induction (init ++ [last]) as [|x l IH]; [constructor|]. cbn [concat] in Hb. apply Forall_app in Hb.
    constructor; [apply Hb|apply IH; apply Hb]. }
  apply Forall_app in Hall. apply Forall_app. split.
  - destruct Hall as [H _]. clear -H Hi. induction init as [|x l IH]; [constructor|].
    inversion H; inversion Hi; subst. constructor; [split; [lia|assumption]|auto].
  - destruct Hall as [_ H]. inversion H; subst. constructor; [split; assumption|constructor].
Qed.

Lemma blocks_len : forall data bs, blocks_of data bs -> lenN bs = record_count (lenN data).
Proof.
  intros data bs (E & init & last & -> & Hi & Hl & Hz). rewrite <- E, concat_app, lenN_app. cbn [concat].
  rewrite app_nil_r, lenN_app, lenN_cons, lenN_nil.
  assert (Hc : lenN (concat init) = 16384 * lenN init).
  { clear -Hi. induction Hi as [|x l H _ IH]; cbn [concat]; [reflexivity|]. rewrite lenN_app, lenN_cons, IH, H. unfold bytes in *. lia. }
  rewrite Hc. unfold record_count. destruct last as [|z last].
  - rewrite (Hz eq_refl). reflexivity.
  - rewrite lenN_cons in *. destruct (N.eqb_spec (16384 * lenN init + (1 + lenN last)) 0); lia.
Qed.

(* One direction: the sender's direction, the receiver, what is in transit. *)
Definition chan_inv (P : prims) (dout : dir) (r : rx) (q plain : list bytes) : Prop :=
  r_closed r = false /\ d_broken (r_dir r) = false /\ r_part r = [] /\ r_msgs r = [] /\
  exists bss, q = wires P (r_dir r) bss /\ map (@List.concat N) bss = plain /\ Forall (Forall block_ok) bss /\
    Forall (fun bs : list bytes => lenN bs = record_count (lenN (List.concat bs))) bss /\
    dout = dir_adv (r_dir r) (lenN (List.concat bss)).

Lemma send_spec : forall P (lib : ssl_lib) al a f q plain d0 r0 r' u input,
  prims_ok P -> alloc_ok al -> (exists dw, cx_winv P a (fp_crypt f) dw) -> rx_rel P (fp_crypt f) d0 r0 ->
  chan_inv P d0 r' q plain -> levent_ok plain (Send u input) ->
  d_seq d0 + record_count (lenN (iov_concat input)) <= two64 ->
  exists f' q' d1, do_send P al f q input = Done (f', q', Sent kOk) /\
    (exists dw, cx_winv P a (fp_crypt f') dw) /\ rx_rel P (fp_crypt f') d1 r0 /\
    d1 = dir_adv d0 (record_count (lenN (iov_concat input))) /\
    chan_inv P d1 r' q' (plain ++ [iov_concat input]).
Proof.
  intros P lib al a f q plain d0 r0 r' u input HP HA (dw & W) R (C1 & C2 & C3 & C3' & bss & C4 & C5 & C6 & C6' & C7) (E1 & E2 & E3) Hs.
  pose proof R as (_ & Rc & _). pose proof (ci_out _ _ _ _ _ _ Rc) as Ro. destruct (cw_in _ _ _ _ W) as (din & Ri & _).
  pose proof (sum_lens_concat input E1) as Hsl.
  destruct (protect_spec P lib al f input [] din d0 HP HA Ri Ro ltac:(rewrite Hsl; exact E3))
    as (h' & st & bufs & fs' & ops & rs & k & A & B1 & B2 & B3 & B4 & B5 & B6 & B7 & B8 & B9).
  cbn zeta in A. rewrite Hsl in *.
  assert (Hb : d_broken d0 = false) by (rewrite C7; exact C2).
  destruct (B8 Hb Hs E1 eq_refl) as [-> ->]. destruct (B7 eq_refl) as (-> & bs & K1 & K2 & K3).
  unfold do_send. rewrite A. cbn [obind]. eexists _, _, _. split; [reflexivity|]. cbn [fp_crypt]. split.
  { eapply crun_tx; eauto. }
  split; [eapply rx_rel_out; eauto|]. split; [reflexivity|].
  split; [exact C1|]. split; [exact C2|]. split; [exact C3|]. split; [exact C3'|]. exists (bss ++ [bs]).
  pose proof (blocks_len _ _ K1) as Kl. pose proof K1 as (Kc & _). pose proof (lenN_records P bs d0 HP) as Lr.
  split.
  { rewrite wires_snoc, C4, K3. unfold out_bytes. cbn [map List.concat]. rewrite app_nil_r, fb_bytes_eq. cbn [fb_len fb_mem iov_data].
    rewrite takeN_all; [rewrite <- C7; reflexivity|]. rewrite Lr. unfold protected_size.
    change (@concat N) with (@List.concat N). rewrite Kc, Kl. lia. }
  split; [rewrite <- C5, <- Kc; apply map_app|].
  split; [apply Forall_app; split; [exact C6|]; constructor; [apply (blocks_ok _ _ K1 E2)|constructor]|].
  split; [apply Forall_app; split; [exact C6'|]; constructor; [rewrite Kc; exact Kl|constructor]|].
  rewrite concat_app, lenN_app. cbn [List.concat]. rewrite app_nil_r, Kl, C7, dir_adv_adv. reflexivity.
Qed.

Lemma nonempty_valid : forall v, Forall nonempty_iov v -> Forall iov_valid v.
Proof. intros v H. eapply Forall_impl; [|exact H]. intros w (d & -> & _). exact I. Qed.

Lemma firstn_map' : forall A B (g : A -> B) k l, firstn k (map g l) = map g (firstn k l).
Proof. intros A B g k. induction k as [|k IH]; intros [|x l]; cbn; try reflexivity. rewrite IH. reflexivity. Qed.
Lemma skipn_map' : forall A B (g : A -> B) k l, skipn k (map g l) = map g (skipn k l).
Proof. intros A B g k. induction k as [|k IH]; intros [|x l]; cbn; try reflexivity. apply IH. Qed.
Lemma Forall_firstn' : forall A (Q : A -> Prop) k l, Forall Q l -> Forall Q (firstn k l) /\ Forall Q (skipn k l).
Proof. intros A Q k l H. rewrite <- (firstn_skipn k l) in H. apply Forall_app in H. exact H. Qed.

Lemma records_sizes : forall P bss d, prims_ok P -> Forall (fun bs : list bytes => lenN bs = record_count (lenN (List.concat bs))) bss ->
  lenN (records P d (List.concat bss)) =
  fold_right N.add 0 (map (fun m => protected_size (lenN m)) (map (@List.concat N) bss)).
Proof.
  intros P bss d HP H. revert d. induction H as [|bs bss H1 _ IH]; intros d; cbn [List.concat map fold_right]; [reflexivity|].
  rewrite records_app, lenN_app, IH, lenN_records by exact HP. unfold protected_size at 2. unfold bytes in *. lia.
Qed.

Lemma do_deliver_some : forall P lib al g q k cut now, firstn k q = now -> now <> [] ->
  do_deliver P lib al g q k cut =
    obind (fp_unprotect P lib al g (cut (List.concat now)) []) (fun '((g, st, bufs), _) =>
      Done (g, skipn k q, Delivered st (out_bytes bufs))).
Proof. intros P lib al g q k cut now E H. unfold do_deliver. rewrite E. destruct now; [contradiction|reflexivity]. Qed.
Lemma chan_step_some : forall q u k cut now, firstn k q = now -> now <> [] ->
  chan_step q (Deliver u k cut) = (skipn k q, Delivered kOk (List.concat now)).
Proof. intros q u k cut now E H. cbn [chan_step]. rewrite E. destruct now; [contradiction|reflexivity]. Qed.

Lemma deliver_spec : forall P lib al a g q plain d0 d1 r u k cut,
  prims_ok P -> alloc_ok al -> (exists dw, cx_winv P a (fp_crypt g) dw) -> rx_rel P (fp_crypt g) d1 r ->
  chan_inv P d0 r q plain -> levent_ok plain (Deliver u k cut) -> d_seq d0 <= two64 ->
  exists g' r', let '(plain', res) := chan_step plain (Deliver u k cut) in
    exists q', do_deliver P lib al g q k cut = Done (g', q', res) /\
      (exists dw, cx_winv P a (fp_crypt g') dw) /\ rx_rel P (fp_crypt g') d1 r' /\ chan_inv P d0 r' q' plain'.
Proof.
  intros P lib al a g q plain d0 d1 r u k cut HP HA (dw & W) R (C1 & C2 & C3 & C3' & bss & C4 & C5 & C6 & C6' & C7) (Hcut & Hfit) Hseq.
  assert (Fq : firstn k q = wires P (r_dir r) (firstn k bss)) by (rewrite C4; apply wires_firstn).
  assert (Fp : firstn k plain = map (@List.concat N) (firstn k bss)) by (rewrite <- C5; apply firstn_map').
  rewrite Fp in Hfit.
  destruct (Forall_firstn' _ _ k _ C6) as [F1 F2]. destruct (Forall_firstn' _ _ k _ C6') as [F1' F2'].
  destruct (firstn k bss) as [|bs0 rest] eqn:Ef.
  - exists g, r. cbn [chan_step]. unfold do_deliver. rewrite Fp, Fq. cbn [map wires]. exists q.
    split; [reflexivity|]. split; [eauto|]. split; [exact R|].
    split; [exact C1|]. split; [exact C2|]. split; [exact C3|]. split; [exact C3'|]. exists bss. auto.
  - rewrite (chan_step_some _ u k cut _ Fp ltac:(discriminate)), (do_deliver_some P lib al g _ k cut _ Fq ltac:(discriminate)).
    set (now := bs0 :: rest) in *.
    rewrite wires_concat. destruct (Hcut (records P (r_dir r) (List.concat now))) as (K1 & K2).
    set (v := cut (records P (r_dir r) (List.concat now))) in *.
    assert (Hbk : Forall block_ok (List.concat now)).
    { clear -F1. induction F1 as [|x l H _ IH]; cbn [List.concat]; [constructor|]. apply Forall_app; auto. }
    pose proof (records_sizes P now (r_dir r) HP F1') as Hsz.
    pose proof (nonempty_valid _ K2) as Hv. pose proof (sum_lens_concat v Hv) as Hsl. rewrite K1 in Hsl.
    assert (Hok : fop_ok (FUnprotect v)).
    { split; [exact Hv|]. rewrite K1. split; [apply records_bytes_ok; assumption|]. rewrite Hsl, Hsz. exact Hfit. }
    pose proof (unprotect_spec P lib al a g v dw [] HP HA W Hok) as Hu.
    assert (Hlen : lenN (List.concat bss) = lenN (List.concat now) + lenN (List.concat (skipn k bss))).
    { rewrite <- (firstn_skipn k bss) at 1. rewrite Ef, concat_app, lenN_app. reflexivity. }
    assert (Hsq : d_seq (r_dir r) + lenN (List.concat now) <= two64).
    { rewrite C7 in Hseq. cbn [dir_adv d_seq] in Hseq. lia. }
    destruct (fp_unprotect P lib al g v []) as [[[[g' st] bufs] fs']|ub|].
    + destruct Hu as [(Hshort & _)|(_ & ops & rs & opened & e & Rr & Ho & Hf & Hend)].
      * exfalso. rewrite Hsl, lenN_records in Hshort by exact HP.
        pose proof (Forall_inv F1') as L0. assert (1 <= lenN bs0).
        { rewrite L0. unfold record_count. destruct (N.eqb_spec (lenN (List.concat bs0)) 0); lia. }
        unfold now in Hshort. cbn [List.concat] in Hshort. rewrite lenN_app in Hshort. lia.
      * destruct (Hf eq_refl) as [Hnf ->]. rewrite K1 in Rr.
        pose proof (rec_run_crun _ _ _ _ _ _ _ _ _ _ _ Rr) as Hrun.
        destruct (rec_run_records P lib al _ _ _ _ _ _ _ _ _ _ HP HA R C1 C2 C3 C3' Hsq Hbk Rr Ho Hnf) as (-> & G2 & G3).
        destruct Hend as (_ & _ & -> & Eb & _). cbn [app] in Eb. subst bufs.
        exists g', (rx_dir r (dir_adv (r_dir r) (lenN (List.concat now)))). eexists.
        split; [cbn [obind]; unfold out_bytes; rewrite G2, concat_concat; reflexivity|].
        split; [eapply crun_tx; eauto|]. split; [exact G3|].
        split; [exact C1|]. split; [exact C2|]. split; [exact C3|]. split; [exact C3'|]. exists (skipn k bss). cbn [rx_dir r_dir].
        split; [rewrite C4, wires_skipn, Ef; reflexivity|]. split; [rewrite <- C5; symmetry; apply skipn_map'|]. split; [exact F2|]. split; [exact F2'|].
        rewrite dir_adv_adv, <- Hlen. exact C7.
    + exfalso. destruct Hu as [Hn|(ops & rs & opened & x' & Rr & Ho & Hf)]; [contradiction|].
      rewrite K1 in Rr.
      destruct (rec_run_records P lib al _ _ _ _ _ _ _ _ _ _ HP HA R C1 C2 C3 C3' Hsq Hbk Rr Ho (Hf eq_refl)) as (K & _). discriminate.
    + contradiction.
Qed.

Lemma link_refines : forall P liba libb ala alb aa ab es l da db ra rb up down,
  prims_ok P -> alloc_ok ala -> alloc_ok alb ->
  (exists dw, cx_winv P aa (fp_crypt (l_a l)) dw) -> (exists dw, cx_winv P ab (fp_crypt (l_b l)) dw) ->
  rx_rel P (fp_crypt (l_a l)) da ra -> rx_rel P (fp_crypt (l_b l)) db rb ->
  chan_inv P da rb (l_up l) up -> chan_inv P db ra (l_down l) down ->
  levents_ok up down es ->
  d_seq da + records_sent true es <= two64 -> d_seq db + records_sent false es <= two64 ->
  exists l', link_run P liba libb ala alb l es = Done (l', channel up down es).
Proof.
  intros P liba libb ala alb aa ab es. induction es as [|e es IH];
    intros l da db ra rb up down HP HA HB Wa Wb Ra Rb Cu Cd Hok Su Sd.
  - exists l. reflexivity.
  - cbn [levents_ok channel link_run records_sent] in *. destruct e as [u input|u k cut]; cbn [goes_up] in *; destruct u; cbn [Bool.eqb] in *.
    + destruct Hok as [H1 H2]. cbn [chan_step fst] in *.
      destruct (send_spec P liba ala aa (l_a l) (l_up l) up da ra rb true input HP HA Wa Ra Cu H1 ltac:(lia))
        as (f' & q' & d1 & E & W' & R' & Ed & C'). rewrite E. cbn [obind].
      edestruct (IH {| l_a := f'; l_b := l_b l; l_up := q'; l_down := l_down l |}) as (l' & El);
        try eassumption; try (rewrite ?Ed; cbn [dir_adv d_seq]; lia).
      rewrite El. cbn [obind]. eauto.
    + destruct Hok as [H1 H2]. cbn [chan_step fst] in *.
      destruct (send_spec P libb alb ab (l_b l) (l_down l) down db rb ra false input HP HB Wb Rb Cd H1 ltac:(lia))
        as (f' & q' & d1 & E & W' & R' & Ed & C'). rewrite E. cbn [obind].
      edestruct (IH {| l_a := l_a l; l_b := f'; l_up := l_up l; l_down := q' |}) as (l' & El);
        try eassumption; try (rewrite ?Ed; cbn [dir_adv d_seq]; lia).
      rewrite El. cbn [obind]. eauto.
    + destruct Hok as [H1 H2].
      destruct (deliver_spec P libb alb ab (l_b l) (l_up l) up da db rb true k cut HP HB Wb Rb Cu H1 ltac:(lia)) as (g' & r' & K).
      destruct (chan_step up (Deliver true k cut)) as [plain' res]. destruct K as (q' & E & W' & R' & C').
      rewrite E. cbn [obind fst] in *.
      edestruct (IH {| l_a := l_a l; l_b := g'; l_up := q'; l_down := l_down l |}) as (l' & El); try eassumption.
      rewrite El. cbn [obind]. eauto.
    + destruct Hok as [H1 H2].
      destruct (deliver_spec P liba ala aa (l_a l) (l_down l) down db da ra false k cut HP HA Wa Ra Cd H1 ltac:(lia)) as (g' & r' & K).
      destruct (chan_step down (Deliver false k cut)) as [plain' res]. destruct K as (q' & E & W' & R' & C').
      rewrite E. cbn [obind fst] in *.
      edestruct (IH {| l_a := g'; l_b := l_b l; l_up := l_up l; l_down := q' |}) as (l' & El); try eassumption.
      rewrite El. cbn [obind]. eauto.
Qed.

(* Two fresh frame protectors with mirrored secrets and sequence numbers. *)
Lemma round_trip : forall P liba libb ala alb aa ab fsa fsb fsa' fsb' f g es,
  prims_ok P -> alloc_ok ala -> alloc_ok alb ->
  fp_create P liba aa fsa = Done (inr f, fsa') -> fp_create P libb ab fsb = Done (inr g, fsb') ->
  f_out aa = f_in ab -> f_in aa = f_out ab ->
  d_seq (f_out aa) < two64 -> d_seq (f_in aa) < two64 ->
  levents_ok [] [] es ->
  d_seq (f_out aa) + records_sent true es <= two64 -> d_seq (f_in aa) + records_sent false es <= two64 ->
  exists l', link_run P liba libb ala alb {| l_a := f; l_b := g; l_up := []; l_down := [] |} es =
    Done (l', channel [] [] es).
Proof.
  intros P liba libb ala alb aa ab fsa fsb fsa' fsb' f g es HP HA HB Ea Eb Em Em' So Si Hok Su Sd.
  assert (So' : ca_in_seq (fa_crypt ab) < two64) by (rewrite Em in So; exact So).
  assert (Si' : ca_out_seq (fa_crypt ab) < two64) by (rewrite Em' in Si; exact Si).
  destruct (fp_create_inv P liba aa fsa f fsa' HP Si So Ea) as (_ & _ & _ & xa & Ca & ->).
  destruct (fp_create_inv P libb ab fsb g fsb' HP So' Si' Eb) as (_ & _ & _ & xb & Cb & ->).
  destruct (create_winv P liba (c_args aa) fsa fsa' xa HP Si So Ca) as [Wa _].
  destruct (create_winv P libb (c_args ab) fsb fsb' xb HP So' Si' Cb) as [Wb _].
  pose proof (create_rx P liba (c_args aa) fsa fsa' xa HP Si So Ca) as Ra.
  pose proof (create_rx P libb (c_args ab) fsb fsb' xb HP So' Si' Cb) as Rb.
  eapply (link_refines P liba libb ala alb (c_args aa) (c_args ab) es _ (f_out aa) (f_out ab) (rx_start (f_in aa)) (rx_start (f_in ab)));
    cbn [l_a l_b l_up l_down fp_crypt]; eauto.
  - split; [reflexivity|]. split; [reflexivity|]. split; [reflexivity|]. split; [reflexivity|]. exists []. cbn [wires map List.concat rx_start r_dir].
    rewrite lenN_nil, dir_adv_0. repeat split; auto.
  - split; [reflexivity|]. split; [reflexivity|]. split; [reflexivity|]. split; [reflexivity|]. exists []. cbn [wires map List.concat rx_start r_dir].
    rewrite lenN_nil, dir_adv_0. repeat split; auto.
  - rewrite <- Em'. exact Sd.
Qed.
