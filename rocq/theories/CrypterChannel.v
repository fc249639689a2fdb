(* The channel factory passed to the ticket sender (C19), and the statuses of
   Protect (C34). *)
From Coq Require Import List NArith ZArith Bool Lia ZifyBool ZifyNat ZifyN.
From Verif Require Import Base BaseProofs Aead Hkdf HalfConn SpecAead AeadProofs AeadRun AeadRunProofs AeadTotalProofs SpecTls
  HkdfProofs HalfProofs HalfRun HalfRunProofs Options HsHandler Crypter SpecHs
  HsProofs SpecRecord CrypterProofs SpecRx CrypterRun CrypterRunProofs SpecRxProofs CrypterLemmas.
Import ListNotations.
Local Open Scope N_scope.

(* The channel factory [ch] is in the crypter until the first call of the
   sender, which gets it. *)
Definition chan_inv (ch : bool) (x : crypt) : Prop :=
  match cx_sent x with [] => cx_channel x = ch | s :: _ => ts_channel s = ch end.

Lemma chan_same : forall ch x x', cx_sent x' = cx_sent x -> cx_channel x' = cx_channel x -> chan_inv ch x -> chan_inv ch x'.
Proof. intros ch x x' E1 E2 H. unfold chan_inv. rewrite E1, E2. exact H. Qed.

Lemma send_chan : forall ch x x', chan_inv ch x -> send_tickets x = Done x' -> chan_inv ch x'.
Proof.
  intros ch x x' H E. unfold send_tickets in E. destruct (get_stored_tickets (cx_handler x)) as [[h [c|ts]]|u|]; try discriminate;
    cbn [obind] in E; injection E as <-; [exact H|].
  unfold chan_inv in *. cbn [add_sent cx_sent cx_channel]. destruct (cx_sent x) as [|s l]; exact H.
Qed.

Lemma result_chan : forall P lib ch x r fs x' st fs', chan_inv ch x ->
  handle_result P lib x r fs = Done ((x', st), fs') -> chan_inv ch x'.
Proof.
  intros P lib ch x [c|r] fs x' st fs' H E; cbn [handle_result] in E; [apply ret_inv in E; destruct E as [E _]; injection E as -> _; exact H|].
  apply bind_inv in E. destruct E as ([x1 failed] & f1 & E1 & E).
  assert (H1 : chan_inv ch x1).
  { destruct (r_key_update r).
    - apply bind_inv in E1. destruct E1 as ([h s1] & f2 & _ & E1). apply ret_inv in E1. destruct E1 as [E1 _]. injection E1 as -> _. exact H.
    - apply ret_inv in E1. destruct E1 as [E1 _]. injection E1 as -> _. exact H. }
  clear E1 H x. destruct failed; [apply ret_inv in E; destruct E as [E _]; injection E as -> _; exact H1|].
  assert (K : forall x2, chan_inv ch x2 ->
    (if r_ticket r && (kMaxNumTicketsToProcess <=? r_num r) then x0 <- lift (send_tickets x2) ;; ret (set_phase x0 DONE false, kOk) else ret (x2, kOk)) f1
      = Done ((x', st), fs') -> chan_inv ch x').
  { intros x2 H2 K. destruct (r_ticket r && _).
    - apply bind_inv in K. destruct K as (x3 & f3 & K3 & K). apply lift_inv in K3. destruct K3 as [K3 ->].
      apply ret_inv in K. destruct K as [K _]. injection K as -> _. exact (send_chan _ _ _ H2 K3).
    - apply ret_inv in K. destruct K as [K _]. injection K as -> _. exact H2. }
  destruct (cx_phase x1).
  - eapply K; [|exact E]. destruct (r_ticket r); exact H1.
  - eapply K; [|exact E]. exact H1.
  - apply ret_inv in E. destruct E as [E _]. injection E as -> _. exact H1.
Qed.

Ltac end_ret E := apply ret_inv in E; destruct E as [E _]; injection E as -> _ _; assumption.
Ltac zeroed E := apply bind_inv in E; let z := fresh "z" in let f := fresh "f" in destruct E as (z & f & _ & E).

Lemma unprotect_chan : forall P lib ch x hdr payload out fs x' st out' fs', chan_inv ch x ->
  crypt_unprotect P lib x hdr payload out fs = Done ((x', st, out'), fs') -> chan_inv ch x'.
Proof.
  intros P lib ch x hdr payload out fs x' st out' fs' H E. unfold crypt_unprotect in E.
  destruct (cx_close x); [end_ret E|]. zeroed E.
  destruct (_ <? _); [end_ret E|]. destruct (_ <? _); [end_ret E|]. destruct (negb _); [end_ret E|].
  apply bind_inv in E. destruct E as ([[h [s n]] pt] & fa & _ & E). cbn zeta in E.
  assert (H1 : chan_inv ch (set_in x h)) by exact H. remember (set_in x h) as x1 eqn:E1. clear E1 H x.
  destruct (negb _); [zeroed E; end_ret E|].
  destruct (scan_type _) as [[ty content]|]; [|end_ret E].
  destruct (ty =? kTls13Alert).
  { destruct content as [|a [|d r]]; [zeroed E; end_ret E|zeroed E; end_ret E|]. zeroed E. destruct (d =? _); [|end_ret E].
    apply ret_inv in E. destruct E as [E _]. injection E as -> _ _. exact H1. }
  destruct (ty =? kTls13Handshake).
  { apply bind_inv in E. destruct E as ([h2 r] & f2 & _ & E). apply bind_inv in E. destruct E as ([x2 s2] & f3 & E2 & E).
    apply result_chan with (ch := ch) in E2; [|exact H1]. destruct (negb _); end_ret E. }
  destruct (ty =? kTls13ApplicationData).
  { destruct (cx_expecting x1); [end_ret E|]. apply bind_inv in E. destruct E as (x2 & f2 & E2 & E). apply lift_inv in E2. destruct E2 as [E2 _].
    apply ret_inv in E. destruct E as [E _]. injection E as -> _ _. destruct (cx_phase x1); try (injection E2 as <-; exact H1).
    destruct (send_tickets x1) as [x3|u|] eqn:Es; try discriminate. injection E2 as <-. exact (send_chan _ _ _ H1 Es). }
  zeroed E. end_ret E.
Qed.

Lemma protect_chan : forall P ch x t pt out fs x' st out' fs', chan_inv ch x ->
  crypt_protect P x t pt out fs = Done ((x', st, out'), fs') -> chan_inv ch x'.
Proof.
  intros P ch x t pt out fs x' st out' fs' H E. unfold crypt_protect in E. cbn zeta in E.
  destruct (_ <? _); [end_ret E|]. zeroed E. destruct (_ <? _); [end_ret E|]. zeroed E.
  destruct out as [buf|n]; [|end_ret E].
  apply bind_inv in E. destruct E as ([[h [s n]] tail] & fa & _ & E). assert (H1 : chan_inv ch (set_out x h)) by exact H.
  destruct (negb _); [zeroed E; end_ret E|end_ret E].
Qed.

Lemma cstep_chan : forall P lib ch x op fs x' r, chan_inv ch x -> cstep P lib x op fs = Done (x', r) -> chan_inv ch x'.
Proof.
  intros P lib ch x [t pt buf|hdr payload buf|] fs x' r H E; cbn [cstep] in E.
  - destruct (crypt_protect _ _ _ _ _ _) as [[[[x1 [s n]] o] f]|u|] eqn:E1; try discriminate. injection E as <- _. exact (protect_chan _ _ _ _ _ _ _ _ _ _ _ H E1).
  - destruct (crypt_unprotect _ _ _ _ _ _ _) as [[[[x1 [s n]] o] f]|u|] eqn:E1; try discriminate. injection E as <- _. exact (unprotect_chan _ _ _ _ _ _ _ _ _ _ _ _ H E1).
  - destruct (crypt_update_outbound_key _ _ _ _) as [[[x1 s] f]|u|] eqn:E1; try discriminate. injection E as <- _.
    unfold crypt_update_outbound_key in E1. apply bind_inv in E1. destruct E1 as ([h s1] & f2 & _ & E1).
    apply ret_inv in E1. destruct E1 as [E1 _]. injection E1 as -> _. exact H.
Qed.

Lemma crun_chan : forall P lib ch ops x x' rs, chan_inv ch x -> crun P lib x ops = Done (x', rs) -> chan_inv ch x'.
Proof.
  intros P lib ch. induction ops as [|[op fs] ops IH]; intros x x' rs H E; cbn [crun] in E; [injection E as <- _; exact H|].
  destruct (cstep P lib x op fs) as [[x1 r]|u|] eqn:E1; try discriminate. cbn [obind] in E.
  destruct (crun P lib x1 ops) as [[x2 rs2]|u|] eqn:E2; try discriminate. injection E as <- _.
  eapply IH; [|exact E2]. exact (cstep_chan _ _ _ _ _ _ _ _ H E1).
Qed.

Lemma create_chan : forall P lib a fs x fs', crypt_create P lib a fs = Done (inr x, fs') -> cx_sent x = [] /\ cx_channel x = ca_channel a.
Proof.
  intros P lib a fs x fs' E. unfold crypt_create in E.
  repeat match type of E with
  | (if ?b then _ else _) _ = _ => destruct b
  | ret _ _ = Done _ => apply ret_inv in E; destruct E as [E _]; try discriminate E; injection E as ->; split; reflexivity
  | bind _ _ _ = Done _ => apply bind_inv in E; let z := fresh in let f := fresh in destruct E as (z & f & _ & E)
  | match ?m with _ => _ end _ = Done _ => destruct m
  | (let '_ := ?m in _) _ = Done _ => destruct m
  end.
Qed.

Lemma C19_channel_lemma : forall P lib a ops rs x, connection P lib a ops rs x ->
  forall s, In s (cx_sent x) -> ts_channel s = ca_channel a.
Proof.
  intros P lib a ops rs x (HP & Hin & Hout & Hops & Hr) s Hs.
  pose proof (C19_weak_lemma P lib a ops rs x HP Hin Hout Hops Hr) as W.
  destruct Hr as (x0 & fs & fs' & Ec & Er). apply create_chan in Ec. destruct Ec as [E1 E2].
  assert (H : chan_inv (ca_channel a) x). { eapply crun_chan; [|exact Er]. unfold chan_inv. rewrite E1. exact E2. }
  destruct W as [W|(s' & W & _)]; rewrite W in Hs; [destruct Hs|]. destruct Hs as [<-|[]]. unfold chan_inv in H. rewrite W in H. exact H.
Qed.

(* ---- statuses of Protect ---- *)
Lemma half_encrypt_null : forall P h d aad pt buf h' st n out fs',
  prims_ok P -> half_rel P h d -> Forall small_iov aad -> Forall small_iov pt -> sum_lens pt + 16 < two64 ->
  dir_usable d -> ~ Forall iov_valid pt ->
  half_encrypt P h aad pt (IoBuf buf) [] = Done ((h', (st, n), out), fs') -> st = kInvalidArgument.
Proof.
  intros P h d aad pt buf h' st n out fs' HP R Ha Hp Hsz Hu Hn E. unfold half_encrypt in E.
  destruct (half_draw P h d R Hu) as (Hf & h1 & c & Hc & Hc1 & Hm & Hok & _).
  rewrite Hc, Hf in E. apply bind_inv in E. destruct E as ([iv h2] & f1 & E1 & E). apply lift_inv in E1. destruct E1 as [E1 ->].
  apply bind_inv in E. destruct E as ([[c' [st' n']] out'] & f2 & E2 & E). apply ret_inv in E. destruct E as [E _]. injection E as _ -> _ _.
  assert (N : null_in aad \/ null_in pt). { right. apply null_not_valid. exact Hn. }
  assert (D : done_null [] (Forall small_iov aad /\ Forall small_iov pt) (null_in aad \/ null_in pt) (aead_encrypt P c iv aad pt (IoBuf buf) [])).
  { unfold aead_encrypt. destruct (cr_impl c); [apply evp_encrypt_total|apply evp_encrypt_total|apply bssl_encrypt_total]; auto. }
  destruct D as (c2 & st2 & n2 & o2 & f3 & D & _ & K). rewrite E2 in D. injection D as _ -> _ _ _. apply K; auto.
Qed.

Lemma crypt_protect_null : forall P x din dout t pt buf x' st n out fs',
  prims_ok P -> half_rel P (cx_in x) din -> half_rel P (cx_out x) dout ->
  fits pt buf -> dir_usable dout -> ~ Forall iov_valid pt ->
  crypt_protect P x t pt (IoBuf buf) [] = Done ((x', (st, n), out), fs') -> st = S_INVALID_ARGUMENT.
Proof.
  intros P x din dout t pt buf x' st n out fs' HP Rin Rout [Hb Hs] Hu Hv E. unfold crypt_protect in E.
  rewrite total_len_sum in E by (unfold two64; lia). cbn [iov_len] in E. unfold kTlsMaxPlaintextSize in E. cbn zeta in E.
  destruct (N.ltb_spec 16384 (sum_lens pt)); [lia|]. rewrite (record_overhead_spec _ _ _ Rin) in E.
  apply bind_inv in E. destruct E as (ov & f & E1 & E). apply lift_inv in E1. destruct E1 as [E1 ->]. injection E1 as <-.
  destruct (N.ltb_spec (lenN buf) (sum_lens pt + 22)); [lia|]. rewrite (half_tag_spec _ _ _ Rout) in E.
  apply bind_inv in E. destruct E as (tg & f1 & E1 & E). apply lift_inv in E1. destruct E1 as [E1 ->]. injection E1 as <-.
  apply bind_inv in E. destruct E as ([[h [s m]] tail] & fa & E2 & E).
  apply (half_encrypt_null P (cx_out x) dout) in E2; auto.
  - subst s. cbn [is_ok code_eqb negb] in E. apply bind_inv in E. destruct E as (z & f2 & _ & E). apply ret_inv in E. destruct E as [E _].
    injection E as _ -> _ _. reflexivity.
  - constructor; [|constructor]. unfold small_iov. rewrite record_header_spec. cbn. lia.
  - apply small_le. rewrite sum_lens_app. cbn. lia.
  - rewrite sum_lens_app. cbn. unfold two64. lia.
  - intros K. apply Forall_app in K. tauto.
Qed.

Lemma C34_status_lemma : forall P lib a ops rs x, connection P lib a ops rs x ->
  forall t pt buf fs x' st n out, cop_ok (CProtect t pt buf) ->
  cstep P lib x (CProtect t pt buf) fs = Done (x', CProtected st n out) ->
  (st = S_FAILED_PRECONDITION <-> fits_in pt buf = false) /\
  (st = S_OK \/ st = S_FAILED_PRECONDITION \/ st = S_INVALID_ARGUMENT \/ st = S_INTERNAL_ERROR) /\
  (st = S_OK -> Forall iov_valid pt) /\
  (fits_in pt buf = true -> dir_usable (tx_run P (d_out a) ops rs) -> ~ Forall iov_valid pt -> fs = [] -> st = S_INVALID_ARGUMENT).
Proof.
  intros P lib a ops rs x (HP & Hin & Hout & Hops & Hr) t pt buf fs x' st n out Hok E.
  destruct (L_inv P lib a ops rs x HP Hin Hout Hops Hr) as ([Wo Wu (din & Wi & _) _ _ _ _] & _ & _).
  destruct (crypt_protect_spec P x din _ t pt buf fs HP Wi Wo Hok) as (h' & st' & n' & buf' & fs' & E' & El & Ee & Hnf & Hf).
  cbn [cstep] in E. rewrite E' in E. cbn [obind] in E. injection E as <- <- <- <-.
  destruct (fits_in pt buf) eqn:Ef.
  2:{ assert (Hn : ~ fits pt buf) by (rewrite <- fits_in_spec; congruence). destruct (Hnf Hn) as (_ & -> & _).
      split; [tauto|]. split; [auto|]. split; discriminate. }
  apply fits_in_spec in Ef. destruct (Hf Ef) as [Hun Hus].
  destruct (dir_usable_dec (tx_run P (d_out a) ops rs)) as [Hu|Hu].
  - destruct (Hus Hu) as (_ & _ & Hk & Hbad & _). split; [|split; [|split]].
    + split; [|discriminate]. intros ->. destruct Hbad as (_ & _ & [K|K]); discriminate.
    + assert (Kd : {st' = S_OK} + {st' <> S_OK}) by decide equality; destruct Kd as [K|K]; [auto|]. destruct (Hbad K) as (_ & _ & [K'|K']); auto.
    + intros K. apply (Hk K).
    + intros _ _ Hv ->. exact (crypt_protect_null P x din _ t pt buf _ _ _ _ _ HP Wi Wo Ef Hu Hv E').
  - destruct (Hun Hu) as (_ & -> & _). split; [split; discriminate|]. split; [auto|]. split; [discriminate|contradiction].
Qed.
