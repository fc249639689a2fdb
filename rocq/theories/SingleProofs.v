(* Threads that call the single-record Unprotect. *)
From Coq Require Import List NArith ZArith Bool PeanoNat Lia ZifyBool ZifyNat ZifyN.
From Verif Require Import Base BaseProofs Aead Hkdf HalfConn SpecAead AeadProofs SpecTls HalfProofs HalfRun HalfRunProofs Options HsHandler Crypter SpecHs SpecRecord
  CrypterProofs CrypterRun CrypterRunProofs FrameProt SpecFrame FrameRun FrameRx FrameProofs FrameSim FrameFinal BufFinal
  Conc ConcRun ConcAlone ConcLinear ConcPair ConcPairProofs SpecKeyChange KeyChange KeyThreads Single.
Import ListNotations.
Local Open Scope N_scope.

Section Programs.
Variable I : crypt -> Prop.

(* What follows only reads, and ends with [res]. *)
Fixpoint post_ok {A} (p : prog crypt A) (res : A) {struct p} : Prop :=
  match p with
  | Ret b => b = res
  | Step f k => exists b, (forall x, I x -> f x = Done (x, b)) /\ post_ok (k b) res
  end.
(* What follows only reads, but for one access. *)
Fixpoint pre_ok {A} (p : prog crypt A) : Prop :=
  match p with
  | Ret _ => True
  | Step f k => (exists b, (forall x, I x -> f x = Done (x, b)) /\ pre_ok (k b)) \/
      (forall x, I x -> exists y b res, f x = Done (y, b) /\ I y /\ post_ok (k b) res)
  end.

Lemma post_bind_ok : forall A B (p : prog crypt A) (k : A -> prog crypt B) a b, post_ok p a -> post_ok (k a) b -> post_ok (pbind p k) b.
Proof.
  induction p as [a0|T f k0 IH]; intros k a b H K; cbn [post_ok pbind] in *; [subst; exact K|].
  destruct H as (c & H1 & H2). exists c. split; [exact H1|]. eapply IH; eassumption.
Qed.

(* Only reads, and ends with a value of [k]'s choice. *)
Lemma pre_bind_reads : forall A B (p : prog crypt A) (k : A -> prog crypt B) a, post_ok p a -> pre_ok (k a) -> pre_ok (pbind p k).
Proof.
  induction p as [a0|T f k0 IH]; intros k a H K; cbn [post_ok pre_ok pbind] in *; [subst; exact K|].
  destruct H as (c & H1 & H2). left. exists c. split; [exact H1|]. eapply IH; eassumption.
Qed.

Lemma pre_bind_pure : forall A B (p : prog crypt A) (k : A -> prog crypt B), pre_ok p -> (forall a, exists b, k a = Ret b) -> pre_ok (pbind p k).
Proof.
  induction p as [a0|T f k0 IH]; intros k H K; cbn [pre_ok pbind] in *; [destruct (K a0) as (b & ->); exact Logic.I|].
  destruct H as [(c & H1 & H2)|H].
  - left. exists c. split; [exact H1|]. apply IH; assumption.
  - right. intros x Ix. destruct (H x Ix) as (y & b & res & A1 & A2 & A3). destruct (K res) as (r & Er). exists y, b, r.
    split; [exact A1|]. split; [exact A2|]. eapply post_bind_ok; [exact A3|rewrite Er; reflexivity].
Qed.

Lemma post_alone : forall A (p : prog crypt A) res x, post_ok p res -> I x -> alone p x = Done (x, res).
Proof.
  induction p as [a0|T f k0 IH]; intros res x H Ix; cbn [post_ok alone] in *; [subst; reflexivity|].
  destruct H as (c & H1 & H2). rewrite (H1 x Ix). cbn [obind]. apply IH; assumption.
Qed.
End Programs.

Section One.
Variables (P : prims) (lib : ssl_lib) (a : create_args) (x0 : crypt).
Hypothesis HP : prims_ok P.
Hypothesis Hphase : nothing_to_send x0.
Let e0 := hc_epoch (cx_in x0).

(* All that changes is the half connection for receiving, which keeps its key. *)
Definition inv (x : crypt) : Prop :=
  exists h din, x = set_in x0 h /\ half_rel P h din /\ used_inv P (ca_suite a) (ca_in_seq a) (ca_in_secret a) h din /\ hc_epoch h = e0.

Lemma inv_overhead : forall fs, post_ok inv (overhead_c fs) (22, fs).
Proof.
  intros fs. unfold overhead_c, tag_in, cbind, act. cbn [pbind post_ok].
  assert (T : forall x, inv x -> half_tag_length (cx_in x) = Done 16 /\ hc_epoch (cx_in x) = e0).
  { intros x (h & din & -> & R & _ & E). split; [exact (half_tag_spec _ _ _ R)|exact E]. }
  exists (Some e0). split.
  { intros x Hx. destruct (T x Hx) as [A B]. unfold load_in, load_tag, half_tag_length in *.
    destruct (hc_aead (cx_in x)); [rewrite B; reflexivity|discriminate]. }
  exists 16. split; [|reflexivity].
  intros x Hx. destruct (T x Hx) as [A B]. unfold use_in, use_tag. rewrite B, N.eqb_refl, A. reflexivity.
Qed.

Lemma sizes : forall hdr ps, is_record hdr (iov_concat ps) -> Forall iov_valid ps ->
  Forall small_iov [IoBuf hdr] /\ Forall small_iov ps /\ sum_lens ps < two64.
Proof.
  intros hdr ps [Eh L] Hv. rewrite <- (sum_lens_concat ps Hv) in L. split; [|split; [apply small_le; lia|unfold two64; lia]].
  constructor; [|constructor]. unfold small_iov. cbn [iov_len]. rewrite Eh. reflexivity.
Qed.

Lemma inv_step : forall x h' st n buf' fs hdr ps buf fs', inv x -> cop_ok (CUnprotect hdr ps buf) -> is_record hdr (iov_concat ps) ->
  half_decrypt P (cx_in x) [IoBuf hdr] ps (IoBuf buf) fs = Done ((h', (st, n), IoBuf buf'), fs') -> inv (set_in x h').
Proof.
  intros x h' st n buf' fs hdr ps buf fs' (h & din & -> & R & U & E) (Hb & Hv & Hbp & Hl) Hr D. destruct (sizes _ _ Hr Hv) as (Z1 & Z2 & Z3). cbn [cx_in set_in] in D.
  destruct (half_decrypt_spec P h din [IoBuf hdr] ps buf fs HP R) as (h1 & st1 & n1 & b1 & fs1 & D1 & _ & Ep & _ & _ & Nu & Us).
  { exact Z1. }
  { exact Z2. }
  { exact Hv. }
  { exact Z3. }
  rewrite D in D1. injection D1 as <- <- <- <- <-. cbn [set_in] in *.
  destruct (dir_usable_dec din) as [Hu|Hu].
  - destruct (Us Hu) as (R1 & E1 & _). exists h', (dir_next din). split; [reflexivity|]. split; [exact R1|].
    split; [eapply used_inv_next; eassumption|congruence].
  - destruct (Nu Hu) as (-> & _). exists h, din. auto.
Qed.

Lemma own_reads : forall A B (o : outcome A) v (k : A -> C crypt B) fs r, o = Done v -> post_ok inv (k v fs) r -> post_ok inv (cbind (own o) k fs) r.
Proof.
  intros A B o v k fs r -> H. unfold cbind, own. cbn [pbind post_ok]. exists v. split; [reflexivity|exact H].
Qed.

Lemma unprotect_pre : forall hdr ps buf fs, cop_ok (CUnprotect hdr ps buf) -> is_record hdr (iov_concat ps) ->
  no_control P a x0 (hdr ++ iov_concat ps) -> pre_ok inv (crypt_unprotect_c P lib (IoBuf hdr) ps (IoBuf buf) fs).
Proof.
  intros hdr ps buf fs Hop Hr Hc. unfold crypt_unprotect_c. unfold cbind at 1, act. cbn [pbind pre_ok]. left. exists (cx_close x0). split.
  { intros x (h & din & -> & _). reflexivity. }
  destruct (cx_close x0); [exact Logic.I|].
  unfold cbind at 1. apply pre_bind_reads with (a := (22, fs)); [apply inv_overhead|]. cbv beta iota.
  destruct (_ <? _); [exact Logic.I|].
  unfold cbind at 1. apply pre_bind_reads with (a := (22, fs)); [apply inv_overhead|]. cbv beta iota.
  destruct (_ <? _); [exact Logic.I|]. destruct (negb _); [exact Logic.I|].
  unfold cbind at 1, actM. cbn [pbind pre_ok]. right. intros x Hx. pose proof Hx as (h & din & Ex & R & U & Ee).
  destruct (half_decrypt_spec P (cx_in x) din [IoBuf hdr] ps buf fs HP) as (h1 & st & n & buf' & fs' & D & _ & _ & _ & _ & Nu & Us).
  { rewrite Ex. exact R. }
  { apply (sizes hdr ps Hr). apply Hop. }
  { apply (sizes hdr ps Hr). apply Hop. }
  { apply Hop. }
  { apply (sizes hdr ps Hr). apply Hop. }
  unfold bind at 1. rewrite D. cbn [obind ret].
  assert (G : exists res, post_ok inv
    ((if negb (is_ok st) then cbind (own (zero_out (IoBuf buf'))) (fun plaintext => cret ((S_INTERNAL_ERROR, 0), plaintext)) else
      match scan_type (rev (takeN n (iov_data (IoBuf buf')))) with
      | None => cret ((S_INVALID_RECORD, 0), IoBuf buf')
      | Some (ty, content) =>
        if ty =? kTls13Alert then
          match content with
          | _ :: description :: _ =>
            cbind (own (zero_out (IoBuf buf'))) (fun plaintext =>
              if description =? kTlsAlertCloseNotify
              then act (fun x => Done (set_close x, ((S_ALERT_CLOSE_NOTIFY, 0), plaintext)))
              else cret ((S_ALERT_OTHER, 0), plaintext))
          | _ => cbind (own (zero_out (IoBuf buf'))) (fun plaintext => cret ((S_INVALID_RECORD, 0), plaintext))
          end
        else if ty =? kTls13Handshake then
          cbind (act (fun x => obind (process_handshake_message (cx_handler x) content) (fun '(h, r) => Done (set_handler x h, r)))) (fun r =>
          cbind (handle_result_c P lib r) (fun st =>
          if negb (is_ok st) then cret ((S_INTERNAL_ERROR, 0), IoBuf buf') else cret ((S_OK, 0), IoBuf buf')))
        else if ty =? kTls13ApplicationData then
          act (fun x =>
            if cx_expecting x then Done (x, ((S_INVALID_RECORD, 0), IoBuf buf')) else
            obind (match cx_phase x with
                   | RECEIVING => obind (send_tickets x) (fun x => Done (set_phase x DONE (cx_expecting x)))
                   | _ => Done x
                   end) (fun x => Done (x, ((S_OK, lenN content), IoBuf buf'))))
        else cbind (own (zero_out (IoBuf buf'))) (fun plaintext => cret ((S_INVALID_RECORD, 0), plaintext))
      end) fs') res).
  { destruct (is_ok st) eqn:Es; cbn [negb].
    2:{ eexists. eapply own_reads; [reflexivity|]. reflexivity. }
    destruct (scan_type _) as [[ty content]|] eqn:Et; [|eexists; reflexivity].
    assert (Hst : st = kOk) by (destruct st; try discriminate; reflexivity).
    destruct (dir_usable_dec din) as [Hu|Hu]; [|destruct (Nu Hu) as (_ & K & _); rewrite K in Hst; discriminate].
    destruct (Us Hu) as (_ & _ & S1 & _). destruct (S1 Hst) as (_ & msg & E1 & E2 & E3 & E4).
    cbn [iov_data] in Et. rewrite E4, E2, takeN_app_exact in Et. apply scan_type_some in Et. destruct Et as (_ & pad & Em).
    assert (X : ~ control msg).
    { intros T. assert (Hd : din = {| d_suite := ca_suite a; d_secret := nth_secret P (ca_suite a) (ca_in_secret a) (N.to_nat (hc_epoch (cx_in x0)));
                       d_seq := d_seq din; d_broken := false |}).
      { destruct U as (U1 & U2 & _). destruct Hu as [Hbr _]. fold e0. rewrite <- Ee, <- (U2 Hbr), <- U1, <- Hbr. destruct din; reflexivity. }
      pose proof (has_first hdr (iov_concat ps) [] Hr) as F. rewrite app_nil_r in F.
      apply (Hc (iov_concat ps) (d_seq din) msg T F). rewrite <- Hd.
      destruct Hr as [Hh _]. rewrite <- Hh. rewrite E1. f_equal. rewrite iov_concat_cons. apply app_nil_r. }
    change kTls13Alert with 21. change kTls13Handshake with 22. change kTlsAlertCloseNotify with 0.
    destruct (N.eqb_spec ty 21) as [-> |].
    { destruct content as [|level [|des rest]]; [eexists; eapply own_reads; [reflexivity|]; reflexivity|eexists; eapply own_reads; [reflexivity|]; reflexivity|].
      destruct (N.eqb_spec des 0) as [-> |]; [destruct X; right; exists level, rest, pad; exact Em|].
      eexists. eapply own_reads; [reflexivity|]. reflexivity. }
    destruct (N.eqb_spec ty 22) as [-> |]; [destruct X; left; exists content, pad; exact Em|].
    destruct (ty =? kTls13ApplicationData).
    - unfold act. cbn [post_ok].
      destruct (cx_expecting x0) eqn:Ex0; eexists; eexists; (split; [|reflexivity]); intros y (g & dg & -> & _); cbn [set_in cx_expecting cx_phase];
        rewrite Ex0; [reflexivity|]. unfold nothing_to_send in Hphase. destruct (cx_phase x0); [reflexivity|contradiction|reflexivity].
    - eexists. eapply own_reads; [reflexivity|]. reflexivity. }
  destruct G as (res & G). do 2 eexists. exists res. split; [reflexivity|]. split; [eapply inv_step; eassumption|]. exact G.
Qed.

Lemma single_pre : forall m input buf fs, fop_ok (FUnprotectInto input buf) -> Forall nonempty_iov input -> no_control P a x0 (iov_concat input) ->
  pre_ok inv (fp_unprotect_into_c P lib m input (IoBuf buf) fs).
Proof.
  intros m input buf fs (Hv & Hb & Hs) Hne Hc. unfold fp_unprotect_into_c, number_unprotect_c.
  unfold cbind at 1. apply pre_bind_reads with (a := ((if total_len input <? 22 then 0 else total_len input - kTlsRecordHeaderSize), fs)).
  { unfold cbind. eapply post_bind_ok; [apply inv_overhead|reflexivity]. }
  cbv beta iota. destruct (_ =? 0); [exact Logic.I|].
  destruct (cur_start input) as (C1 & C2 & C3).
  destruct (rec_spec (input, 0) (start_valid _ Hv ltac:(lia)) ltac:(rewrite C3; exact Hb))
    as [u E Hn|Hn E|hdr vs on Hn E E2|hdr vs on ps c' E E2 Hsz Hr Hvp Hcb Hc' Hne'].
  - destruct (Hn Hne).
  - unfold cbind at 1, own. cbn [pbind pre_ok]. rewrite E. left. eexists. split; [reflexivity|]. exact Logic.I.
  - unfold cbind at 1, own at 1. cbn [pbind pre_ok]. rewrite E. left. eexists. split; [reflexivity|]. cbv beta iota.
    unfold cbind at 1, own. cbn [pbind pre_ok]. rewrite E2. left. eexists. split; [reflexivity|]. exact Logic.I.
  - unfold cbind at 1, own at 1. cbn [pbind pre_ok]. rewrite E. left. eexists. split; [reflexivity|]. cbv beta iota.
    unfold cbind at 1, own. cbn [pbind pre_ok]. rewrite E2. left. eexists. split; [reflexivity|]. cbv beta iota.
    rewrite C3 in Hcb.
    rewrite Hcb in Hb. destruct (bytes_ok_app _ _ Hb) as [Hb1 Hb2]. apply bytes_ok_app in Hb2. destruct Hb2 as [Hb3 Hb4].
    unfold cbind. apply pre_bind_pure; [|intros [[[s w] out] g]; destruct s; eexists; reflexivity].
    apply unprotect_pre; [|exact Hr|].
    + cbn [cop_ok]. split; [exact Hb1|]. split; [exact Hvp|]. split; [exact Hb3|].
      rewrite (sum_lens_concat input Hv), Hcb, !lenN_app, <- (sum_lens_concat ps Hvp) in Hs. lia.
    + intros p sq msg T (qs & rest & Eq & F). apply (Hc p sq msg T).
      rewrite Hcb, app_assoc, Eq, <- !app_assoc. exists qs, (rest ++ cur_bytes c'). split; [reflexivity|exact F].
Qed.

Lemma call_pre : forall al m op fs, data_call P a x0 (op, fs) -> pre_ok inv (call_c P lib al m op fs).
Proof.
  intros al m op fs (input & buf & E & Hok & Hne & Hc). cbn [fst] in *. subst op. cbn [call_c]. unfold cbind.
  apply pre_bind_pure; [apply single_pre; assumption|]. intros [[[[m1 st] out] n] g]. eexists. reflexivity.
Qed.
End One.
