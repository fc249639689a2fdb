(* Independence of the two directions. *)
From Coq Require Import List NArith ZArith Bool Lia ZifyBool ZifyNat ZifyN.
From Verif Require Import Base BaseProofs Aead Hkdf HalfConn SpecAead AeadProofs SpecTls
  HkdfProofs HalfProofs HalfRun HalfRunProofs Options HsHandler Crypter SpecHs
  HsProofs SpecRecord CrypterProofs SpecRx CrypterRun CrypterRunProofs SpecRxProofs CrypterLemmas CrypterLemmas2.
Import ListNotations.
Local Open Scope N_scope.

Definition omap {A B} (f : A -> B) (o : outcome A) : outcome B :=
  match o with Done a => Done (f a) | Undef u => Undef u | NoFuel => NoFuel end.

Lemma send_tickets_out : forall x h, send_tickets (set_out x h) = omap (fun y => set_out y h) (send_tickets x).
Proof.
  intros x h. unfold send_tickets. cbn [set_out cx_handler].
  destruct (get_stored_tickets (cx_handler x)) as [[h1 [c|ts]]|u|]; reflexivity.
Qed.

Lemma handle_result_out : forall P lib x h r fs,
  handle_result P lib (set_out x h) r fs =
  omap (fun '((y, st), f) => ((set_out y h, st), f)) (handle_result P lib x r fs).
Proof.
  intros P lib x h [c|r] fs; [reflexivity|]. rewrite !handle_result_inr.
  assert (Ht : forall y fs, handle_tail (set_out y h) r fs =
    omap (fun '((y, st), f) => ((set_out y h, st), f)) (handle_tail y r fs)).
  { intros y fs0. unfold handle_tail. cbn [set_out cx_phase].
    destruct (cx_phase y); try reflexivity; unfold lift, bind, ret.
    - destruct (r_ticket r); cbn [andb]; [|reflexivity].
      destruct (kMaxNumTicketsToProcess <=? r_num r); [|reflexivity].
      change (set_phase (set_out y h) RECEIVING (cx_expecting (set_out y h)))
        with (set_out (set_phase y RECEIVING (cx_expecting y)) h).
      rewrite send_tickets_out. destruct (send_tickets _) as [z|u|]; reflexivity.
    - destruct (r_ticket r && (kMaxNumTicketsToProcess <=? r_num r)); [|reflexivity].
      rewrite send_tickets_out. destruct (send_tickets _) as [z|u|]; reflexivity. }
  cbv zeta.
  set (x1 := set_phase x (cx_phase x) (r_expecting r)).
  change (set_phase (set_out x h) (cx_phase (set_out x h)) (r_expecting r)) with (set_out x1 h).
  destruct (r_key_update r); unfold bind, ret.
  - cbn [set_out cx_in]. destruct (half_update_key P lib (cx_in x1) fs) as [[[h1 st] f]|u|]; [|reflexivity..].
    destruct (negb (is_ok st)); [reflexivity|].
    change (set_in (set_out x1 h) h1) with (set_out (set_in x1 h1) h). apply Ht.
  - apply Ht.
Qed.

Lemma unprotect_out : forall P lib x h hdr payload buf fs,
  crypt_unprotect P lib (set_out x h) hdr payload buf fs =
  omap (fun '((y, st, o), f) => ((set_out y h, st, o), f)) (crypt_unprotect P lib x hdr payload buf fs).
Proof.
  intros P lib x h hdr payload buf fs. unfold crypt_unprotect, record_overhead.
  cbn [set_out cx_close cx_in].
  destruct (cx_close x); [reflexivity|].
  unfold lift, bind, ret.
  destruct (half_tag_length (cx_in x)) as [t|u|]; cbn [obind]; [|reflexivity..].
  destruct (_ <? _); [reflexivity|]. destruct (_ <? _); [reflexivity|].
  destruct (negb (validate_header _ _)); [reflexivity|].
  destruct (half_decrypt P (cx_in x) [hdr] payload buf fs) as [[[[h1 [st n]] o] f]|u|]; [|reflexivity..].
  destruct (negb (is_ok st)).
  { destruct (zero_out o); reflexivity. }
  destruct (scan_type _) as [[ty content]|]; [|reflexivity].
  destruct (ty =? kTls13Alert).
  { destruct content as [|a [|b rest]]; try (destruct (zero_out o); reflexivity).
    destruct (zero_out o); [|reflexivity..]. destruct (b =? kTlsAlertCloseNotify); reflexivity. }
  destruct (ty =? kTls13Handshake).
  { change (set_in (set_out x h) h1) with (set_out (set_in x h1) h).
    cbn [set_out cx_handler].
    destruct (process_handshake_message (cx_handler (set_in x h1)) content) as [[h2 r]|u|]; [|reflexivity..].
    change (set_handler (set_out (set_in x h1) h) h2) with (set_out (set_handler (set_in x h1) h2) h).
    rewrite handle_result_out.
    destruct (handle_result P lib (set_handler (set_in x h1) h2) r f) as [[[y st'] f']|u|]; [|reflexivity..].
    cbn [omap]. destruct (negb (is_ok st')); reflexivity. }
  destruct (ty =? kTls13ApplicationData); [|destruct (zero_out o); reflexivity].
  change (set_in (set_out x h) h1) with (set_out (set_in x h1) h).
  cbn [set_out cx_expecting cx_phase].
  destruct (cx_expecting (set_in x h1)); [reflexivity|].
  destruct (cx_phase (set_in x h1)); try reflexivity.
  change {| cx_connection_id := _; cx_url := _; cx_identity := _; cx_in := _; cx_out := h;
    cx_close := _; cx_handler := _; cx_phase := _; cx_expecting := _; cx_channel := _; cx_sent := _ |}
    with (set_out (set_in x h1) h).
  rewrite send_tickets_out. destruct (send_tickets (set_in x h1)) as [z|u|]; reflexivity.
Qed.

Lemma protect_only_out : forall P x t pt buf fs x' st o fs',
  crypt_protect P x t pt buf fs = Done ((x', st, o), fs') -> x' = set_out x (cx_out x').
Proof.
  intros P x t pt buf fs x' st o fs' E. unfold crypt_protect, lift, bind, ret in E.
  destruct (_ <? _) in E; [inversion E; subst; symmetry; apply set_out_same|].
  destruct (record_overhead x) as [ov|u|]; [|discriminate..].
  destruct (_ <? _) in E; [inversion E; subst; symmetry; apply set_out_same|].
  destruct (half_tag_length (cx_out x)) as [tg|u|]; [|discriminate..].
  destruct buf as [b|l]; [|inversion E; subst; symmetry; apply set_out_same].
  destruct (half_encrypt _ _ _ _ _ fs) as [[[[h [s n]] tl] f]|u|]; [|discriminate..].
  destruct (negb (is_ok s)).
  - destruct (zero_out _); inversion E; reflexivity.
  - inversion E; reflexivity.
Qed.


Lemma cstep_shape : forall P lib x op fs x' res, cstep P lib x op fs = Done (x', res) ->
  is_outbound_res res = is_outbound (op, fs) /\
  (is_outbound (op, fs) = true -> x' = set_out x (cx_out x')).
Proof.
  intros P lib x op fs x' res E. destruct op as [t pt buf|hdr payload buf|]; cbn [cstep] in E.
  - destruct (crypt_protect P x t pt (IoBuf buf) fs) as [[[[y [st n]] o] f]|u|] eqn:Ep; cbn in E; try discriminate.
    inversion E; subst. split; [reflexivity|]. intros _. eapply protect_only_out; eauto.
  - destruct (crypt_unprotect P lib x (IoBuf hdr) payload (IoBuf buf) fs) as [[[[y [st n]] o] f]|u|]; cbn in E; try discriminate.
    inversion E; subst. split; [reflexivity|discriminate].
  - unfold crypt_update_outbound_key, bind, ret in E.
    destruct (half_update_key P lib (cx_out x) fs) as [[[h st] f]|u|]; cbn in E; try discriminate.
    inversion E; subst. split; reflexivity.
Qed.

(* C30, inbound *)
Lemma C30_in_lemma : forall P lib ops x h x' rs,
  crun P lib x ops = Done (x', rs) ->
  crun P lib (set_out x h) (filter is_inbound ops) =
    Done (set_out x' h, filter is_inbound_res rs).
Proof.
  intros P lib ops. induction ops as [|[op fs] ops IH]; intros x h x' rs E.
  - cbn in E. inversion E; subst. reflexivity.
  - cbn [crun] in E. destruct (cstep P lib x op fs) as [[y res]|u|] eqn:Es; cbn [obind] in E; try discriminate.
    destruct (crun P lib y ops) as [[z rs1]|u|] eqn:Er; cbn [obind] in E; try discriminate.
    inversion E; subst. destruct (cstep_shape _ _ _ _ _ _ _ Es) as [Hr Hx].
    cbn [filter]. unfold is_inbound at 1, is_inbound_res at 1. rewrite Hr.
    destruct (is_outbound (op, fs)) eqn:Eo; cbn [negb].
    + rewrite <- (IH y h _ _ Er). rewrite (Hx eq_refl). reflexivity.
    + destruct op as [| hdr payload buf|]; try discriminate. cbn [crun cstep] in *.
      rewrite unprotect_out.
      destruct (crypt_unprotect P lib x (IoBuf hdr) payload (IoBuf buf) fs) as [[[[y1 [st n]] o] f]|u|];
        cbn [obind] in Es; try discriminate. inversion Es; subst.
      cbn [omap obind]. rewrite (IH y h _ _ Er). reflexivity.
Qed.

Lemma protect_same : forall P x y t pt buf fs, cx_out y = cx_out x ->
  half_tag_length (cx_in y) = half_tag_length (cx_in x) ->
  match crypt_protect P x t pt buf fs with
  | Done ((x', st, o), f) => exists y', crypt_protect P y t pt buf fs = Done ((y', st, o), f) /\
      cx_out y' = cx_out x' /\ cx_in y' = cx_in y
  | _ => True
  end.
Proof.
  intros P x y t pt buf fs Eo Et. unfold crypt_protect, record_overhead, lift, bind, ret. rewrite Eo, Et.
  destruct (_ <? _); [eauto|].
  destruct (half_tag_length (cx_in x)) as [tg|u|]; cbn [obind]; auto.
  destruct (_ <? _); [eauto|].
  destruct (half_tag_length (cx_out x)) as [tg'|u|]; auto.
  destruct buf as [b|l]; [|eauto].
  destruct (half_encrypt _ _ _ _ _ fs) as [[[[h [s n]] tl] f]|u|]; auto.
  destruct (negb (is_ok s)).
  - destruct (zero_out _); auto. eexists; split; [reflexivity|]. split; reflexivity.
  - eexists; split; [reflexivity|]. split; reflexivity.
Qed.

(* C30, outbound *)
Lemma C30_out_aux : forall P lib a ops ops0 rs0 x y x' rs,
  prims_ok P -> ca_in_seq a < two64 -> ca_out_seq a < two64 ->
  cops_ok ops0 -> cops_ok ops -> creach P lib a ops0 rs0 x ->
  cx_out y = cx_out x -> half_tag_length (cx_in y) = Done 16 ->
  crun P lib x ops = Done (x', rs) ->
  exists y', crun P lib y (filter is_outbound ops) = Done (y', filter is_outbound_res rs) /\
    cx_out y' = cx_out x' /\ cx_in y' = cx_in y.
Proof.
  intros P lib a ops. induction ops as [|[op fs] ops IH];
    intros ops0 rs0 x y x' rs HP Hi Ho Hok0 Hok Hr Eo Et E.
  - cbn in E. inversion E; subst. exists y. auto.
  - inversion Hok as [|? ? Hop Hops]; subst.
    cbn [crun] in E. destruct (cstep P lib x op fs) as [[z res]|u|] eqn:Es; cbn [obind] in E; try discriminate.
    destruct (crun P lib z ops) as [[w rs1]|u|] eqn:Er; cbn [obind] in E; try discriminate.
    inversion E; subst. destruct (cstep_shape _ _ _ _ _ _ _ Es) as [Hres Hx].
    pose proof (creach_snoc _ _ _ _ _ _ _ _ _ _ Hr Es) as Hr'.
    assert (Hok' : cops_ok (ops0 ++ [(op, fs)])) by (apply Forall_app; split; [exact Hok0|constructor; [exact Hop|constructor]]).
    destruct (L_inv P lib a ops0 rs0 x HP Hi Ho Hok0 Hr) as ([_ _ (din & Wi & _) _ _ _ _] & _ & _).
    assert (Etx : half_tag_length (cx_in x) = Done 16) by (eapply half_tag_spec; eauto).
    cbn [filter]. rewrite Hres.
    destruct op as [t pt buf|hdr payload buf|].
    + change (is_outbound (CProtect t pt buf, fs)) with true. cbv iota.
      cbn [crun cstep] in *.
      pose proof (protect_same P x y t pt (IoBuf buf) fs Eo (eq_trans Et (eq_sym Etx))) as Hp.
      destruct (crypt_protect P x t pt (IoBuf buf) fs) as [[[[z1 [st n]] o] f]|u|]; cbn [obind] in Es; try discriminate.
      inversion Es; subst. destruct Hp as (y1 & -> & E1 & E2). cbn [obind].
      destruct (IH _ _ _ y1 x' rs1 HP Hi Ho Hok' Hops Hr' E1) as (y' & Ey & A & B); [rewrite E2; exact Et|exact Er|].
      exists y'. rewrite Ey. cbn [obind]. split; [reflexivity|]. split; [exact A|congruence].
    + change (is_outbound (CUnprotect hdr payload buf, fs)) with false. cbv iota.
      assert (Eoz : cx_out z = cx_out x).
      { pose proof (unprotect_out P lib x (cx_out x) (IoBuf hdr) payload (IoBuf buf) fs) as Hu.
        rewrite set_out_same in Hu. cbn [cstep] in Es.
        destruct (crypt_unprotect P lib x (IoBuf hdr) payload (IoBuf buf) fs) as [[[[z1 [st n]] o] f]|u|]; cbn [obind] in Es; try discriminate.
        cbn [omap] in Hu. inversion Es; subst. assert (K : z = set_out z (cx_out x)) by congruence.
        rewrite K. reflexivity. }
      destruct (IH _ _ _ y x' rs1 HP Hi Ho Hok' Hops Hr' (eq_trans Eo (eq_sym Eoz)) Et Er) as (y' & Ey & A & B).
      exists y'. auto.
    + change (is_outbound (CUpdateKey, fs)) with true. cbv iota.
      cbn [crun cstep] in *. unfold crypt_update_outbound_key, bind, ret in *. rewrite Eo.
      destruct (half_update_key P lib (cx_out x) fs) as [[[h st] f]|u|]; cbn [obind] in Es; try discriminate.
      inversion Es; subst. cbn [obind].
      destruct (IH _ _ _ (set_out y h) x' rs1 HP Hi Ho Hok' Hops Hr') as (y' & Ey & A & B); [reflexivity|exact Et|exact Er|].
      exists y'. rewrite Ey. cbn [obind]. auto.
Qed.

Lemma C30_out_lemma : forall P lib a ops x0 x' rs fs fs',
  prims_ok P -> ca_in_seq a < two64 -> ca_out_seq a < two64 -> cops_ok ops ->
  crypt_create P lib a fs = Done (inr x0, fs') -> crun P lib x0 ops = Done (x', rs) ->
  exists y', crun P lib x0 (filter is_outbound ops) = Done (y', filter is_outbound_res rs).
Proof.
  intros P lib a ops x0 x' rs fs fs' HP Hi Ho Hok Hc E.
  assert (Hr : creach P lib a [] [] x0) by (exists x0, fs, fs'; split; [exact Hc|reflexivity]).
  destruct (L_inv P lib a [] [] x0 HP Hi Ho (Forall_nil _) Hr) as ([_ _ (din & Wi & _) _ _ _ _] & _ & _).
  destruct (C30_out_aux P lib a ops [] [] x0 x0 x' rs HP Hi Ho (Forall_nil _) Hok Hr eq_refl) as (y' & Ey & _);
    [eapply half_tag_spec; eauto|exact E|eauto].
Qed.
