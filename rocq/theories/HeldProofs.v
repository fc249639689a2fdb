From Coq Require Import List NArith ZArith Bool Lia ZifyBool ZifyNat ZifyN.
From Verif Require Import Base BaseProofs Aead Hkdf HalfConn SpecAead SpecTls HalfProofs Options HsHandler SpecHs HsProofs Crypter SpecRecord CrypterProofs
  CrypterRun CrypterRunProofs CrypterLemmas3 ConcTag FrameProt SpecFrame FrameRun FrameSim FrameFinal SpecHandler HsHistory Held.
Import ListNotations.
Local Open Scope N_scope.

Definition MAX := longest_message.
Definition nef (l : list bytes) : Prop := Forall (fun f => f <> []) l.
Definition nb (h : handler) : N := lenN (concat (hs_frags h)).
Definition ticks (h : handler) : Prop :=
  match hs_tickets h with
  | Some ts => lenN ts = hs_num h /\ lenN ts <= 5 /\ Forall (fun t => nef t /\ lenN (concat t) <= MAX) ts
  | None => True
  end.
Definition posb (h : handler) : Prop :=
  match hs_st h with
  | READ_DATA => hs_hdr h = 4 /\ 1 <= hs_data h /\ 4 <= nb h /\ nb h + hs_data h <= MAX
  | READ_HEADER => 1 <= hs_hdr h <= 4 /\ (nb h + hs_hdr h = 4 \/ (4 <= nb h /\ nb h + hs_hdr h <= MAX + 4))
  end.
Definition binv (h : handler) : Prop := nef (hs_frags h) /\ bytes_ok (concat (hs_frags h)) /\ ticks h /\ posb h.

Lemma new_binv : binv new_handler.
Proof.
  split; [constructor|]. split; [constructor|]. split; [split; [reflexivity|]; split; [discriminate|constructor]|].
  split; [split; discriminate|]. left. reflexivity.
Qed.

Lemma store_cases : forall h f h', store_fragment h f = Done h' ->
  h' = with_frags h (hs_frags h ++ [f]) \/ (h' = h /\ hs_st h = READ_DATA).
Proof.
  intros h f h' E. unfold store_fragment in E. destruct (ignore_future_tickets h); [|injection E as <-; auto].
  destruct (hs_st h) eqn:Es; [injection E as <-; auto|]. destruct (get_message_type h) as [t|u|]; try discriminate. cbn [obind] in E.
  destruct (t =? _); injection E as <-; auto.
Qed.

Lemma nef_snoc : forall l f, nef l -> f <> [] -> nef (l ++ [f]).
Proof. intros. apply Forall_app. split; [assumption|]. constructor; [assumption|constructor]. Qed.
Lemma nb_snoc : forall h f, nb (with_frags h (hs_frags h ++ [f])) = nb h + lenN f.
Proof. intros. unfold nb, with_frags. cbn [hs_frags]. rewrite concat_app, lenN_app. cbn [concat]. rewrite app_nil_r. reflexivity. Qed.
Lemma bytes_snoc : forall l f, bytes_ok (concat l) -> bytes_ok f -> bytes_ok (concat (l ++ [f])).
Proof. intros l f H1 H2. rewrite concat_app. apply bytes_ok_app. split; [exact H1|]. cbn [concat]. rewrite app_nil_r. exact H2. Qed.
Lemma bytes_take : forall n (l : bytes), bytes_ok l -> bytes_ok (takeN n l) /\ bytes_ok (dropN n l).
Proof. intros n l H. rewrite <- (takeN_dropN _ n l) in H at 1. apply bytes_ok_app in H. exact H. Qed.
Lemma size_bound : forall h, lenN (concat (hs_frags h)) = 4 -> bytes_ok (concat (hs_frags h)) ->
  exists size, get_data_size h = Done size /\ size <= 16777215.
Proof.
  intros h L B. destruct (concat (hs_frags h)) as [|t [|a [|b [|c [|d r]]]]] eqn:E; rewrite ?lenN_cons, ?lenN_nil in L; try lia.
  rewrite (get_data_size_spec h t a b c E B). eexists. split; [reflexivity|].
  unfold bytes_ok in B. repeat match goal with H : Forall _ (_ :: _) |- _ => inversion H; clear H; subst end. unfold byte_ok in *. lia.
Qed.

Lemma read_binv : forall h pt rest full h', binv h -> bytes_ok pt -> pt <> [] -> read_step h pt = Done (rest, full, h') ->
  binv h' /\ bytes_ok rest /\ (full = true -> hs_st h' = READ_HEADER /\ hs_hdr h' = 4 /\ nb h' <= MAX).
Proof.
  intros h pt rest full h' (Hn & Hb & Ht & Hp) Bpt Npt E. unfold read_step in E.
  assert (Lpt : 1 <= lenN pt) by (destruct pt; [contradiction|rewrite lenN_cons; lia]).
  assert (S : forall f h1, store_fragment h f = Done h1 -> f <> [] -> bytes_ok f ->
    nef (hs_frags h1) /\ bytes_ok (concat (hs_frags h1)) /\ ticks h1 /\ hs_st h1 = hs_st h /\ hs_hdr h1 = hs_hdr h /\ hs_data h1 = hs_data h /\
    (nb h1 = nb h + lenN f \/ (nb h1 = nb h /\ hs_st h = READ_DATA))).
  { intros f h1 Es Nf Bf. destruct (store_cases _ _ _ Es) as [-> | [-> Hs]].
    - rewrite nb_snoc. cbn [with_frags hs_frags hs_st hs_hdr hs_data]. split; [apply nef_snoc; assumption|]. split; [apply bytes_snoc; assumption|]. split; [exact Ht|]. auto.
    - repeat (split; [assumption || reflexivity|]). auto. }
  assert (T : forall n, 1 <= n -> takeN n pt <> []).
  { intros n H. apply takeN_nonempty; [lia|exact Npt]. }
  unfold posb in Hp. destruct (hs_st h) eqn:Est.
  - destruct Hp as [Hh Hp]. destruct (N.leb_spec (hs_hdr h) (lenN pt)) as [L|L].
    + destruct (store_fragment h (takeN (hs_hdr h) pt)) as [h1|u|] eqn:Es; try discriminate. cbn [obind] in E.
      destruct (S _ _ Es (T _ (proj1 Hh)) (proj1 (bytes_take _ _ Bpt))) as (A1 & A2 & A3 & A4 & A5 & A6 & [A7 | [_ A7]]); [|congruence].
      rewrite lenN_takeN in A7. rewrite N.min_l in A7 by exact L.
      destruct Hp as [Hp | [Hp1 Hp2]].
      * destruct (size_bound h1) as (size & Eg & Bs); [fold (nb h1); lia|exact A2|]. rewrite Eg in E. cbn [obind] in E. injection E as <- <- <-.
        split; [|split; [apply (bytes_take (hs_hdr h)); exact Bpt|discriminate]].
        split; [exact A1|]. split; [exact A2|]. split; [exact A3|]. unfold posb, with_pos. cbn [hs_st hs_hdr hs_data].
        assert (Enb : nb {| hs_frags := hs_frags h1; hs_tickets := hs_tickets h1; hs_num := hs_num h1; hs_retrieved := hs_retrieved h1;
          hs_data := size; hs_hdr := kTlsHandshakeHeaderLength; hs_st := if 0 <? size then READ_DATA else READ_HEADER |} = 4).
        { transitivity (nb h1); [reflexivity|lia]. }
        rewrite Enb. unfold kTlsHandshakeHeaderLength, MAX, longest_message. destruct (N.ltb_spec 0 size).
        -- lia.
        -- split; [lia|]. right. lia.
      * exfalso. destruct (store_cases _ _ _ Es) as [E1 | [_ K]]; [|congruence].
        assert (K : get_data_size h1 = Undef UbNegativeShift).
        { apply (stale_header h1 (hs_frags h) (takeN (hs_hdr h) pt)); [rewrite E1; reflexivity|exact Hp1|exact A1]. }
        rewrite K in E. discriminate.
    + destruct (store_fragment h pt) as [h1|u|] eqn:Es; try discriminate. cbn [obind] in E. injection E as <- <- <-.
      destruct (S _ _ Es Npt Bpt) as (A1 & A2 & A3 & A4 & A5 & A6 & [A7 | [_ A7]]); [|congruence].
      split; [|split; [constructor|discriminate]].
      split; [exact A1|]. split; [exact A2|]. split; [exact A3|]. unfold posb. cbn [with_pos hs_st hs_hdr hs_data].
      unfold nb in *. cbn [with_pos hs_frags]. split; [lia|]. destruct Hp as [Hp | Hp]; [left|right]; lia.
  - destruct Hp as (Hh & Hd & Hp). destruct (N.leb_spec (hs_data h) (lenN pt)) as [L|L].
    + destruct (store_fragment h (takeN (hs_data h) pt)) as [h1|u|] eqn:Es; try discriminate. cbn [obind] in E. injection E as <- <- <-.
      destruct (S _ _ Es (T _ Hd) (proj1 (bytes_take _ _ Bpt))) as (A1 & A2 & A3 & A4 & A5 & A6 & A7).
      rewrite lenN_takeN in A7. rewrite N.min_l in A7 by exact L.
      assert (4 <= nb h1 <= MAX) by lia.
      split; [|split; [apply (bytes_take (hs_data h)); exact Bpt|intros _; split; [reflexivity|]; split; [exact Hh|]; unfold nb in *; cbn [with_pos hs_frags]; lia]].
      split; [exact A1|]. split; [exact A2|]. split; [exact A3|]. unfold posb. cbn [with_pos hs_st hs_hdr hs_data].
      unfold nb in *. cbn [with_pos hs_frags]. split; [lia|]. right. lia.
    + destruct (store_fragment h pt) as [h1|u|] eqn:Es; try discriminate. cbn [obind] in E. injection E as <- <- <-.
      destruct (S _ _ Es Npt Bpt) as (A1 & A2 & A3 & A4 & A5 & A6 & A7).
      split; [|split; [constructor|discriminate]].
      split; [exact A1|]. split; [exact A2|]. split; [exact A3|]. unfold posb. cbn [with_pos hs_st hs_hdr hs_data].
      unfold nb in *. cbn [with_pos hs_frags]. lia.
Qed.

Lemma clear_binv : forall h, ticks h -> hs_st h = READ_HEADER -> hs_hdr h = 4 -> binv (with_frags h []).
Proof.
  intros h Ht Hs Hh. split; [constructor|]. split; [constructor|]. split; [exact Ht|]. unfold posb. cbn [with_frags hs_st hs_hdr hs_data].
  rewrite Hs, Hh. split; [lia|]. left. reflexivity.
Qed.

Lemma loop_binv : forall fuel h pt cu ct h' r, binv h -> bytes_ok pt -> process_loop fuel h pt cu ct = Done (h', r) -> binv h'.
Proof.
  induction fuel as [|fuel IH]; intros h pt cu ct h' r Hi Bpt E.
  { destruct pt; [|discriminate E]. cbn in E. injection E as <- _. exact Hi. }
  destruct pt as [|z pt]; [cbn in E; injection E as <- _; exact Hi|].
  cbn [process_loop] in E. destruct (read_step h (z :: pt)) as [[[rest full] h1]|u|] eqn:Er; try discriminate. cbn [obind] in E.
  destruct (read_binv _ _ _ _ _ Hi Bpt ltac:(discriminate) Er) as (Hi1 & Br & Hf).
  destruct (get_message_type h1) as [t|u|]; try discriminate. cbn [obind] in E.
  destruct (t =? kKeyUpdateMessageType).
  - destruct full; [|eapply IH; eassumption]. destruct rest; [|injection E as <- _; exact Hi1].
    injection E as <- _. destruct (Hf eq_refl) as (S1 & S2 & _). apply clear_binv; [apply Hi1|exact S1|exact S2].
  - destruct (t =? kSessionTicketMessageType); [|injection E as <- _; exact Hi1].
    destruct full; [|eapply IH; eassumption]. destruct (Hf eq_refl) as (S1 & S2 & S3).
    destruct (ignore_future_tickets h1) eqn:Ei; cbn [obind] in E.
    + eapply IH; [|exact Br|exact E]. apply clear_binv; [apply Hi1|exact S1|exact S2].
    + destruct (add_ticket h1) as [h2|u|] eqn:Ea; try discriminate. cbn [obind] in E.
      eapply IH; [|exact Br|exact E]. unfold add_ticket in Ea. destruct Hi1 as (A1 & A2 & A3 & A4). unfold ticks in A3.
      destruct (hs_tickets h1) as [ts|] eqn:Et; [|discriminate]. injection Ea as <-. destruct A3 as (B1 & B2 & B3).
      unfold ignore_future_tickets, kMaxNumTicketsToProcess in Ei. apply orb_false_iff in Ei. destruct Ei as [_ Ei].
      apply clear_binv; [|exact S1|exact S2]. unfold ticks. cbn [hs_tickets hs_num]. rewrite lenN_app. change (lenN [hs_frags h1]) with 1.
      rewrite wrap64_small by (unfold two64; lia). split; [lia|]. split; [lia|].
      apply Forall_app. split; [exact B3|]. constructor; [|constructor]. split; [exact A1|exact S3].
Qed.

Lemma process_binv : forall h pt h' r, binv h -> bytes_ok pt -> process_handshake_message h pt = Done (h', r) -> binv h'.
Proof. intros h pt h' r. apply loop_binv. Qed.
Lemma get_binv : forall h h' r, binv h -> get_stored_tickets h = Done (h', r) -> binv h'.
Proof.
  intros h h' r Hi E. unfold get_stored_tickets in E. destruct (hs_retrieved h); [injection E as <- _; exact Hi|].
  assert (G : forall o, (match hs_tickets h with
    | None => Undef UbNullDeref
    | Some ts => Done ({| hs_frags := hs_frags h; hs_tickets := None; hs_num := 0; hs_retrieved := true; hs_data := hs_data h; hs_hdr := hs_hdr h; hs_st := hs_st h |}, inr ts)
    end) = o -> o = Done (h', r) -> binv h').
  { intros o <- Eo. destruct (hs_tickets h); [|discriminate]. injection Eo as <- _. destruct Hi as (A1 & A2 & _ & A4).
    split; [exact A1|]. split; [exact A2|]. split; [exact I|exact A4]. }
  cbv zeta in E. destruct (expecting_more h); [|eapply G; [reflexivity|exact E]].
  destruct (get_message_type h) as [t|u|]; try discriminate. cbn [obind] in E.
  destruct (t =? _); [injection E as <- _; exact Hi|]. eapply G; [reflexivity|exact E].
Qed.

Lemma nef_len : forall l, nef l -> lenN l <= lenN (concat l).
Proof.
  induction 1 as [|f l Hf _ IH]; [reflexivity|]. cbn [concat]. rewrite lenN_app, lenN_cons. destruct f; [contradiction|]. rewrite lenN_cons. unfold bytes in *. lia.
Qed.
Lemma ticks_len : forall ts, Forall (fun t => nef t /\ lenN (concat t) <= MAX) ts -> nef (concat ts) /\ lenN (concat (concat ts)) <= lenN ts * MAX.
Proof.
  induction 1 as [|t ts [A B] _ [IH1 IH2]]; [split; [constructor|reflexivity]|]. cbn [concat]. rewrite concat_app, lenN_app, lenN_cons.
  split; [apply Forall_app; auto|]. lia.
Qed.
Lemma binv_held : forall h, binv h -> held h <= 6 * longest_message + 3 /\ lenN (kept_fragments h) <= held h.
Proof.
  intros h (A1 & A2 & A3 & A4).
  assert (L : nb h <= MAX + 3). { unfold posb in A4. destruct (hs_st h); unfold MAX, longest_message in *; lia. }
  assert (K : nef (kept_fragments h) /\ lenN (concat (match hs_tickets h with Some ts => concat ts | None => [] end)) <= 5 * MAX).
  { unfold kept_fragments, ticks in *. destruct (hs_tickets h) as [ts|]; [|rewrite app_nil_r; split; [exact A1|apply N.le_0_l]].
    destruct A3 as (_ & B & C). destruct (ticks_len _ C) as [D1 D2]. split; [apply Forall_app; auto|]. unfold MAX, longest_message in *. lia. }
  destruct K as [K1 K2]. split; [|apply nef_len; exact K1].
  unfold held, kept_fragments. rewrite concat_app, lenN_app. unfold nb in L. unfold MAX, longest_message, bytes in *. lia.
Qed.

(* Histories of the handler. *)
Lemma hrun_binv : forall ops h h' rs, binv h -> Forall hop_ok ops -> hrun h ops = Done (h', rs) -> binv h'.
Proof.
  induction ops as [|op ops IH]; intros h h' rs Hi Hok E; [injection E as <- _; exact Hi|].
  inversion Hok as [|? ? O1 O2]; subst. cbn [hrun] in E. destruct (hstep h op) as [[h1 r]|u|] eqn:E1; try discriminate. cbn [obind] in E.
  destruct (hrun h1 ops) as [[h2 rs2]|u|] eqn:E2; try discriminate. cbn [obind] in E. injection E as <- _.
  eapply IH; [|exact O2|exact E2]. destruct op as [[d|n]|]; cbn [hstep process_handshake_message_ptr hop_ok] in E1, O1.
  - destruct (process_handshake_message h d) as [[h3 x]|u|] eqn:Ep; try discriminate. cbn [obind] in E1. injection E1 as <- _. eapply process_binv; eassumption.
  - cbn [obind] in E1. injection E1 as <- _. exact Hi.
  - destruct (get_stored_tickets h) as [[h3 x]|u|] eqn:Ep; try discriminate. cbn [obind] in E1. injection E1 as <- _. eapply get_binv; eassumption.
Qed.

(* The crypter. *)
Definition cbinv (x : crypt) : Prop := binv (cx_handler x).
Lemma send_binv : forall x x', cbinv x -> send_tickets x = Done x' -> cbinv x'.
Proof.
  intros x x' Hi E. unfold send_tickets in E. destruct (get_stored_tickets (cx_handler x)) as [[h r]|u|] eqn:Eg; try discriminate. cbn [obind] in E.
  pose proof (get_binv _ _ _ Hi Eg) as Hh. destruct r; injection E as <-; exact Hh.
Qed.
Lemma handle_binv : forall P lib x r, cbinv x -> post (handle_result P lib x r) (fun p => cbinv (fst p)).
Proof.
  intros P lib x [c|r] Hi; [apply post_ret; exact Hi|]. cbn [handle_result].
  eapply post_bind2 with (R := fun p => cbinv (fst p)).
  { destruct (r_key_update r); [|apply post_ret; exact Hi]. apply post_bind. intros [h st]. apply post_ret. exact Hi. }
  intros [x1 failed] Hi1. cbn [fst] in Hi1. cbn beta iota. destruct failed; [apply post_ret; exact Hi1|].
  assert (G : forall y, cbinv y -> post (if r_ticket r && (kMaxNumTicketsToProcess <=? r_num r) then
        x <- lift (send_tickets y) ;; ret (set_phase x DONE false, kOk) else ret (y, kOk)) (fun p => cbinv (fst p))).
  { intros y Hy. destruct (r_ticket r && _); [|apply post_ret; exact Hy].
    eapply post_bind2; [apply post_lift; intros z Ez; exact (send_binv _ _ Hy Ez)|]. intros z Hz. apply post_ret. exact Hz. }
  destruct (cx_phase x1); [|apply G; exact Hi1|apply post_ret; exact Hi1].
  apply G. destruct (r_ticket r); exact Hi1.
Qed.
Lemma deliver_binv : forall P lib x n buf, cbinv x -> bytes_ok (takeN n (iov_data buf)) ->
  post (deliver P lib x n buf) (fun p => cbinv (fst (fst p))).
Proof.
  intros P lib x n buf Hi Hb. unfold deliver. destruct (scan_type (rev (takeN n (iov_data buf)))) as [[ty content]|] eqn:Es; [|apply post_ret; exact Hi].
  apply scan_type_some in Es. destruct Es as (_ & pad & Em). rewrite Em in Hb. apply bytes_ok_inner in Hb.
  destruct (ty =? kTls13Alert).
  { destruct content as [|a [|b rest]]; apply post_bind; intros z; try (apply post_ret; exact Hi). destruct (b =? _); apply post_ret; exact Hi. }
  destruct (ty =? kTls13Handshake).
  { eapply post_bind2 with (R := fun p => binv (fst p)).
    { apply post_lift. intros [h r] E. cbn [fst]. exact (process_binv _ _ _ _ Hi Hb E). }
    intros [h r] Hh. cbn beta iota. eapply post_bind2; [apply handle_binv; exact Hh|]. intros [x1 st] H1. cbn beta iota. destruct (negb _); apply post_ret; exact H1. }
  destruct (ty =? kTls13ApplicationData); [|apply post_bind; intros z; apply post_ret; exact Hi].
  destruct (cx_expecting x); [apply post_ret; exact Hi|].
  eapply post_bind2 with (R := cbinv); [|intros z Hz; apply post_ret; exact Hz].
  apply post_lift. intros y E. destruct (cx_phase x); try (injection E as <-; exact Hi).
  destruct (send_tickets x) as [y1|u|] eqn:E1; try discriminate. cbn [obind] in E. injection E as <-. exact (send_binv _ _ Hi E1).
Qed.

Lemma cstep_binv : forall P lib a x dout op fs x' r, prims_ok P -> cx_winv P a x dout -> cop_ok op -> cbinv x ->
  cstep P lib x op fs = Done (x', r) -> cbinv x'.
Proof.
  intros P lib a x dout op fs x' r HP W Hok Hi E. destruct op as [t pt buf|hdr payload buf|]; cbn [cstep cop_ok] in E, Hok.
  - destruct (crypt_protect P x t pt (IoBuf buf) fs) as [[[[y [st n]] o] fs']|u|] eqn:Ep; try discriminate. cbn [obind] in E. injection E as <- _.
    destruct (cw_in _ _ _ _ W) as (din & Ri & _).
    rewrite (protect_only_out _ _ _ _ _ _ _ _ _ _ Ep). exact Hi.
  - destruct (crypt_unprotect P lib x (IoBuf hdr) payload (IoBuf buf) fs) as [[[[y [st n]] o] fs']|u|] eqn:Ep; try discriminate. cbn [obind] in E. injection E as <- _.
    destruct Hok as (Hbh & Hv & Hbp & Hsz). destruct (cw_in _ _ _ _ W) as (din & Ri & _).
    destruct (crypt_unprotect_spec P lib x din hdr payload buf fs HP Ri Hbh Hv Hsz) as (K1 & K2 & K3).
    destruct (cx_close x) eqn:Ec.
    { rewrite K1 in Ep by reflexivity. injection Ep as <- _ _ _ _. exact Hi. }
    assert (Hwf : well_formed hdr (sum_lens payload) \/ ~ well_formed hdr (sum_lens payload)).
    { unfold well_formed. destruct (list_eq_dec N.eq_dec hdr (tls_header (sum_lens payload))) as [E|E];
        [|right; intros [? _]; contradiction].
      destruct (N.le_gt_cases 17 (sum_lens payload)); [|right; lia].
      destruct (N.le_gt_cases (sum_lens payload) (16384 + 17)); [left; auto|right; lia]. }
    destruct Hwf as [Hwf|Hwf]; [|rewrite K2 in Ep by auto; injection Ep as <- _ _ _ _; exact Hi].
    destruct (K3 eq_refl Hwf) as (h' & fs1 & _ & _ & _ & [[E _]|(msg & buf' & Hu & E1 & E2 & E3 & E4 & E)]); rewrite E in Ep.
    { injection Ep as <- _ _ _ _. exact Hi. }
    pose proof (deliver_binv P lib (set_in x h') (lenN msg) (IoBuf buf') Hi) as D.
    assert (B : bytes_ok (takeN (lenN msg) (iov_data (IoBuf buf')))).
    { cbn [iov_data]. rewrite E3. rewrite takeN_app_exact. rewrite E1 in Hbp. eapply dir_seal_bytes; eassumption. }
    exact (D B _ _ _ Ep).
  - destruct (crypt_update_outbound_key P lib x fs) as [[[y st] fs']|u|] eqn:Ep; try discriminate. cbn [obind] in E. injection E as <- _.
    unfold crypt_update_outbound_key, bind in Ep. destruct (half_update_key P lib (cx_out x) fs) as [[[h st'] fs2]|u|]; try discriminate.
    injection Ep as <- _ _. exact Hi.
Qed.

Lemma crun_binv : forall P lib a ops x dout x' rs, prims_ok P -> cx_winv P a x dout -> cops_ok ops -> cbinv x ->
  crun P lib x ops = Done (x', rs) -> cbinv x'.
Proof.
  intros P lib a ops. induction ops as [|[op fs] ops IH]; intros x dout x' rs HP W Hok Hi E; [injection E as <- _; exact Hi|].
  inversion Hok as [|? ? O1 O2]; subst. cbn [fst] in O1. cbn [crun] in E.
  pose proof (cstep_weak P lib a x dout op fs HP W O1) as S.
  destruct (cstep P lib x op fs) as [[x1 r]|u|] eqn:E1; try discriminate. cbn [obind] in E. cbn [safe] in S.
  destruct (crun P lib x1 ops) as [[x2 rs2]|u|] eqn:E2; try discriminate. cbn [obind] in E. injection E as <- _.
  eapply IH; [exact HP|apply S|exact O2| |exact E2]. eapply cstep_binv; eassumption.
Qed.

Lemma D89 : forall P lib a ops rs x, connection P lib a ops rs x ->
  held (cx_handler x) <= 6 * longest_message + 3 /\ lenN (kept_fragments (cx_handler x)) <= held (cx_handler x).
Proof.
  intros P lib a ops rs x (HP & Hi & Ho & Hok & (x0 & fs & fs' & Ec & Er)). apply binv_held.
  destruct (create_winv P lib a fs fs' x0 HP Hi Ho Ec) as [W _].
  assert (B : cbinv x0).
  { destruct (crypt_create_spec P lib a fs HP Hi Ho) as (r & fs2 & E & _ & A & _). rewrite Ec in E. injection E as <- <-.
    destruct (A x0 eq_refl) as (_ & _ & _ & _ & _ & _ & _ & _ & _ & _ & _ & _ & Ex). rewrite Ex. exact new_binv. }
  exact (crun_binv P lib a ops x0 _ x rs HP W Hok B Er).
Qed.
Lemma D89f : forall P lib al a ops rs f, protector P lib al a ops rs f ->
  held (cx_handler (fp_crypt f)) <= 6 * longest_message + 3 /\ lenN (kept_fragments (cx_handler (fp_crypt f))) <= held (cx_handler (fp_crypt f)).
Proof.
  intros P lib al a ops rs f H. destruct (protector_connection _ _ _ _ _ _ _ H) as (_ & _ & _ & _ & cops & crs & K).
  exact (D89 _ _ _ _ _ _ K).
Qed.
Lemma D89h : forall ops h rs, Forall hop_ok ops -> hrun new_handler ops = Done (h, rs) ->
  held h <= 6 * longest_message + 3 /\ lenN (kept_fragments h) <= held h.
Proof. intros ops h rs Hok E. apply binv_held. exact (hrun_binv _ _ _ _ new_binv Hok E). Qed.
