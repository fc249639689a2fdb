(* Data after close_notify in a second thread, on every frame protector. *)
From Coq Require Import List NArith ZArith Bool PeanoNat Lia ZifyBool ZifyNat ZifyN.
From Verif Require Import Base BaseProofs Aead Hkdf HalfConn SpecAead AeadProofs SpecTls HalfProofs HalfRun HalfRunProofs Options HsHandler Crypter SpecHs SpecRecord SpecRx
  CrypterProofs CrypterRun CrypterRunProofs SpecRxProofs FrameProt SpecFrame FrameRun FrameRx FrameProofs FrameSim FrameFinal FrameRef FrameRefProofs EveryFrame BufFinal
  Conc ConcRun ConcAlone ConcLinear ConcPair ConcPairProofs SpecKeyChange KeyChange KeyThreads Single SingleProofs SingleTeam
  Toy FrameExamples KeyCases SingleCases.
Import ListNotations.
Local Open Scope N_scope.

(* [n] accesses of a program. *)
Fixpoint after {A} (n : nat) (p : prog crypt A) (x : crypt) : outcome (crypt * prog crypt A) :=
  match n with
  | O => Done (x, p)
  | S n => match p with
           | Ret _ => NoFuel
           | Step f k => obind (f x) (fun '(x, b) => after n (k b) x)
           end
  end.
(* Some accesses, none of which changes anything. *)
Definition goes {A} (x : crypt) (p q : prog crypt A) : Prop := exists n, after n p x = Done (x, q).

Lemma goes_refl : forall A x (p : prog crypt A), goes x p p.
Proof. intros. exists O. reflexivity. Qed.

Lemma goes_bind : forall A B x (p : prog crypt A) (k : A -> prog crypt B) r q, post_ok (eq x) p r -> goes x (k r) q -> goes x (pbind p k) q.
Proof.
  induction p as [a|T f k0 IH]; intros k r q H G; cbn [post_ok pbind] in *; [subst; exact G|].
  destruct H as (b & H1 & H2). destruct (IH b k r q H2 G) as (n & E). exists (S n). cbn [after]. rewrite (H1 x eq_refl). exact E.
Qed.

Lemma goes_under : forall A B x (k : A -> prog crypt B) n (p q : prog crypt A), after n p x = Done (x, q) -> goes x (pbind p k) (pbind q k).
Proof.
  intros A B x k n p q E. exists n. revert p E. generalize x at 1 3. induction n as [|n IH]; intros y p E; cbn [after] in *.
  - injection E as -> ->. reflexivity.
  - destruct p as [a|T f k0]; [discriminate|]. cbn [pbind]. destruct (f y) as [[y1 b]|u|]; cbn [obind] in *; try discriminate. apply IH. exact E.
Qed.

Lemma goes_alone : forall A x (p q : prog crypt A), goes x p q -> alone p x = alone q x.
Proof.
  intros A x p q (n & E). revert p E. generalize x at 1 3. induction n as [|n IH]; intros y p E; cbn [after] in E.
  - injection E as -> ->. reflexivity.
  - destruct p as [a|T f k0]; [discriminate|]. cbn [alone]. destruct (f y) as [[y1 b]|u|]; cbn [obind] in *; try discriminate. apply IH. exact E.
Qed.

Lemma alone_after : forall A (p : prog crypt A) x y v, alone p x = Done (y, v) -> exists n, after n p x = Done (y, Ret v).
Proof.
  induction p as [a|T f k IH]; intros x y v E; cbn [alone] in E.
  - injection E as -> ->. exists O. reflexivity.
  - destruct (f x) as [[x1 b]|u|] eqn:Ef; cbn [obind] in E; try discriminate. destruct (IH b _ _ _ E) as (n & En).
    exists (S n). cbn [after]. rewrite Ef. exact En.
Qed.

Section Threads.
Variables (P : prims) (lib : ssl_lib) (al : allocator).
Definition inside (m : heap) (p : prog crypt (heap * fres * faults)) : side := {| sd_heap := m; sd_now := Some p; sd_todo := []; sd_done := [] |}.
Definition returned (m : heap) (r : fres) : side := {| sd_heap := m; sd_now := None; sd_todo := []; sd_done := [r] |}.

Lemma first_goes : forall n t m p q x y, after n p x = Done (y, q) ->
  team_run P lib al x [inside m p; t] (repeat 0%nat n) = Done (y, [inside m q; t]).
Proof.
  induction n as [|n IH]; intros t m p q x y E; cbn [after repeat team_run] in *; [injection E as -> ->; reflexivity|].
  destruct p as [a|T f k]; [discriminate|]. unfold team_step. cbn [nth_error]. unfold side_step. cbn [sd_now inside].
  destruct (f x) as [[x1 b]|u|]; cbn [obind] in *; try discriminate. cbn [set_nth]. apply IH. exact E.
Qed.

Lemma second_goes : forall n t m p q x y, after n p x = Done (y, q) ->
  team_run P lib al x [t; inside m p] (repeat 1%nat n) = Done (y, [t; inside m q]).
Proof.
  induction n as [|n IH]; intros t m p q x y E; cbn [after repeat team_run] in *; [injection E as -> ->; reflexivity|].
  destruct p as [a|T f k]; [discriminate|]. unfold team_step. cbn [nth_error]. unfold side_step. cbn [sd_now inside].
  destruct (f x) as [[x1 b]|u|]; cbn [obind] in *; try discriminate. cbn [set_nth]. apply IH. exact E.
Qed.

Lemma in_between : forall f op0 op1 q1 y z m0 r0 g0 m1 r1 g1,
  goes (fp_crypt f) (call_c P lib al (heap_of f) op1 []) q1 ->
  alone (call_c P lib al (heap_of f) op0 []) (fp_crypt f) = Done (y, ((m0, r0), g0)) ->
  alone q1 y = Done (z, ((m1, r1), g1)) ->
  exists sched, team_run P lib al (fp_crypt f) (team_start f [[(op0, [])]; [(op1, [])]]) sched = Done (z, [returned m0 r0; returned m1 r1]).
Proof.
  intros f op0 op1 q1 y z m0 r0 g0 m1 r1 g1 (n1 & E1) E0 E2.
  apply alone_after in E0. destruct E0 as (n0 & E0). apply alone_after in E2. destruct E2 as (n2 & E2).
  exists ([1%nat] ++ repeat 1%nat n1 ++ [0%nat] ++ repeat 0%nat n0 ++ [0%nat] ++ repeat 1%nat n2 ++ [1%nat]).
  assert (R : forall s1 s2 x ts x1 ts1, team_run P lib al x ts s1 = Done (x1, ts1) -> team_run P lib al x ts (s1 ++ s2) = team_run P lib al x1 ts1 s2).
  { intros s1. induction s1 as [|i r IH]; intros s2 x ts x1 ts1 E; cbn [team_run app] in *; [injection E as -> ->; reflexivity|].
    destruct (team_step P lib al x ts i) as [[x' ts']|u|]; cbn [obind] in *; try discriminate. apply IH. exact E. }
  rewrite (R [1%nat] _ _ _ (fp_crypt f) [side_start f [(op0, [])]; inside (heap_of f) (call_c P lib al (heap_of f) op1 [])]) by reflexivity.
  rewrite (R _ _ _ _ _ _ (second_goes _ _ _ _ _ _ _ E1)).
  rewrite (R [0%nat] _ _ _ (fp_crypt f) [inside (heap_of f) (call_c P lib al (heap_of f) op0 []); inside (heap_of f) q1]) by reflexivity.
  rewrite (R _ _ _ _ _ _ (first_goes _ _ _ _ _ _ _ E0)).
  rewrite (R [0%nat] _ _ _ y [returned m0 r0; inside (heap_of f) q1]) by reflexivity.
  rewrite (R _ _ _ _ _ _ (second_goes _ _ _ _ _ _ _ E2)). reflexivity.
Qed.
End Threads.

Section Call.
Variables (P : prims) (lib : ssl_lib) (al : allocator).
Hypothesis HP : prims_ok P.
Variables (x : crypt) (din : dir).
Hypothesis Hrel : half_rel P (cx_in x) din.
Hypothesis Hopen : cx_close x = false.

Lemma here_overhead : forall fs, post_ok (eq x) (overhead_c fs) (22, fs).
Proof.
  intros fs. unfold overhead_c, tag_in, cbind, act. cbn [pbind post_ok].
  pose proof (half_tag_spec _ _ _ Hrel) as T.
  exists (load_tag (cx_in x)). split; [intros y <-; reflexivity|]. exists 16. split; [|reflexivity].
  intros y <-. unfold use_in, use_tag, load_tag, half_tag_length in *.
  destruct (hc_aead (cx_in x)); [rewrite N.eqb_refl, T; reflexivity|discriminate].
Qed.

(* Decrypt and what follows it, in the state [y]. *)
Definition tail (hdr : bytes) (ps : list iovec) (buf : bytes) (y : crypt) : outcome (crypt * (sstatus * iovec * faults)) :=
  obind (half_decrypt P (cx_in y) [IoBuf hdr] ps (IoBuf buf) []) (fun '((h, (st, n), pl), fs1) =>
    if is_ok st
    then obind (deliver P lib (set_in y h) n pl fs1) (fun '((z, r, out), fs) => Done (z, ((r, out), fs)))
    else obind (zero_out pl) (fun out => Done (set_in y h, (((S_INTERNAL_ERROR, 0), out), fs1)))).

Lemma crypt_goes : forall hdr ps buf, Forall iov_valid ps -> well_formed hdr (sum_lens ps) ->
  exists q, goes x (crypt_unprotect_c P lib (IoBuf hdr) ps (IoBuf buf) []) q /\ forall y, alone q y = tail hdr ps buf y.
Proof.
  intros hdr ps buf Hv [Eh Hl].
  assert (L5 : lenN hdr = 5) by (rewrite Eh; apply lenN_tls_header).
  assert (Ht : wrap64 (iov_len (IoBuf hdr) + total_len ps) = 5 + sum_lens ps).
  { rewrite total_len_sum by (unfold two64; lia). cbn [iov_len]. rewrite L5. apply wrap64_small. unfold two64. lia. }
  assert (Hvh : validate_header (IoBuf hdr) (5 + sum_lens ps) = true) by (rewrite Eh; apply validate_header_ok; lia).
  eexists. split.
  - unfold crypt_unprotect_c. unfold cbind at 1. apply goes_bind with (r := (false, [])).
    { unfold act. cbn [post_ok]. exists false. split; [intros y <-; rewrite Hopen; reflexivity|reflexivity]. }
    cbv beta iota zeta. rewrite Ht.
    unfold cbind at 1. apply goes_bind with (r := (22, [])); [apply here_overhead|]. cbv beta iota.
    destruct (N.ltb_spec (5 + sum_lens ps) 22); [lia|].
    unfold cbind at 1. apply goes_bind with (r := (22, [])); [apply here_overhead|]. cbv beta iota. unfold kTlsMaxPlaintextSize.
    destruct (N.ltb_spec (22 + 16384) (5 + sum_lens ps)); [lia|]. rewrite Hvh. cbn [negb]. apply goes_refl.
  - intros y. unfold tail. sq. sq.
    destruct (half_decrypt P (cx_in y) [IoBuf hdr] ps (IoBuf buf) []) as [[[[h [st n]] pl] fs1]|u|]; cbn [obind ret]; [|reflexivity|reflexivity].
    destruct (is_ok st); cbn [negb].
    2:{ sq. sq. destruct (zero_out pl); reflexivity. }
    unfold deliver.
    destruct (scan_type _) as [[ty content]|]; [|reflexivity].
    destruct (ty =? kTls13Alert).
    { destruct content as [|a [|d c]]; sq; sq; destruct (zero_out pl); cbn [obind]; try reflexivity.
      destruct (d =? kTlsAlertCloseNotify); reflexivity. }
    destruct (ty =? kTls13Handshake).
    { sq. sq. cbn [cx_handler set_in].
      destruct (process_handshake_message (cx_handler y) content) as [[hh r]|u|]; cbn [obind]; [|reflexivity|reflexivity].
      sq. rewrite handle_result_alone. sq.
      destruct (handle_result P lib _ r fs1) as [[[x2 st2] fs2]|u|]; cbn [obind]; [|reflexivity|reflexivity].
      destruct (is_ok st2); reflexivity. }
    destruct (ty =? kTls13ApplicationData).
    { sq. cbn [cx_expecting set_in]. destruct (cx_expecting y); [reflexivity|].
      sq. cbn [cx_phase set_in]. destruct (cx_phase y); [reflexivity| |reflexivity].
      destruct (send_tickets _); reflexivity. }
    sq. sq. destruct (zero_out pl); reflexivity.
Qed.

(* The frame protector: up to Decrypt, and from there on in the state [y]. *)
Lemma call_goes : forall m p input buf, 17 <= lenN p <= 16401 -> fop_ok (FUnprotectInto input buf) -> Forall nonempty_iov input ->
  iov_concat input = framed p ->
  exists ps q, iov_concat ps = p /\ Forall iov_valid ps /\
    goes x (call_c P lib al m (FUnprotectInto input buf) []) q /\
    forall y, alone q y = obind (tail (tls_header (lenN p)) ps buf y) (fun '(z, (((st, w), out), gs)) =>
      Done (z, ((m, match st with S_OK => FUnprotectedInto kOk out w | _ => FUnprotectedInto (fp_code st) out 0 end), gs))).
Proof.
  intros m p input buf Hl (Hv & Hb & Hs) Hne Ei.
  assert (Et : total_len input = 5 + lenN p).
  { rewrite total_len_sum by lia. rewrite (sum_lens_concat input Hv), Ei. unfold framed. rewrite lenN_app, lenN_tls_header. reflexivity. }
  destruct (cur_start input) as (C1 & C2 & C3).
  assert (Hst : starts_with_record (cur_bytes (input, 0))).
  { rewrite C3, Ei, <- (app_nil_r (framed p)). apply framed_starts. lia. }
  destruct (rec_spec (input, 0) (start_valid _ Hv ltac:(lia)) ltac:(rewrite C3; exact Hb))
    as [u E Hn|Hn E|hdr vs on Hn E E2|hdr vs on ps c' E E2 Hsz Hr Hvp Hcb Hc' Hne'].
  - destruct (Hn Hne).
  - destruct (Hn Hst).
  - destruct (Hn Hst).
  - assert (Ep : p = iov_concat ps).
    { rewrite C3, Ei in Hcb. destruct Hr as [-> Hr]. rewrite app_assoc in Hcb. change (tls_header (lenN (iov_concat ps)) ++ iov_concat ps) with (framed (iov_concat ps)) in Hcb.
      rewrite <- (app_nil_r (framed p)) in Hcb. apply FrameFinal.framed_inj in Hcb; [apply Hcb|lia|exact Hr]. }
    assert (Eh : hdr = tls_header (lenN p)) by (rewrite Ep; apply Hr).
    destruct (crypt_goes hdr ps buf Hvp) as (q & (n & G) & T).
    { split; [rewrite (sum_lens_concat ps Hvp), <- Ep; exact Eh|rewrite (sum_lens_concat ps Hvp), <- Ep; lia]. }
    exists ps. eexists. split; [symmetry; exact Ep|]. split; [exact Hvp|]. split.
    + cbn [call_c]. unfold cbind at 1.
      assert (G2 : goes x (fp_unprotect_into_c P lib m input (IoBuf buf) []) (pbind q (fun '(a, fs) =>
         (let '((st, written), out) := a in match st with S_OK => cret (m, kOk, out, written) | _ => cret (m, fp_code st, out, 0) end) fs))).
      { unfold fp_unprotect_into_c, number_unprotect_c. unfold cbind at 1. apply goes_bind with (r := (lenN p, [])).
        { unfold cbind. eapply post_bind_ok; [apply here_overhead|]. cbv beta iota. rewrite Et.
          destruct (N.ltb_spec (5 + lenN p) 22); [lia|]. unfold cret. cbn [post_ok]. unfold kTlsRecordHeaderSize. do 2 f_equal. lia. }
        cbv beta iota. destruct (N.eqb_spec (lenN p) 0); [lia|].
        unfold cbind at 1. apply goes_bind with (r := (inr (hdr, (vs, on)), [])).
        { unfold own. cbn [post_ok]. rewrite E. eexists. split; [intros; reflexivity|reflexivity]. }
        cbv beta iota. unfold cbind at 1. apply goes_bind with (r := (inr (ps, c'), [])).
        { unfold own. cbn [post_ok]. rewrite E2. eexists. split; [intros; reflexivity|reflexivity]. }
        cbv beta iota. unfold cbind at 1.
        match goal with |- goes _ (pbind _ ?k) (pbind _ ?k') => replace k' with k; [exact (goes_under _ _ _ k n _ _ G)|] end.
        reflexivity. }
      destruct G2 as (n2 & G2). eapply goes_under. exact G2.
    + intros y. rewrite !alone_pbind, T. rewrite <- Eh. destruct (tail hdr ps buf y) as [[z [[[st w] out] gs]]|u|]; cbn [obind]; [|reflexivity|reflexivity].
      destruct st; reflexivity.
Qed.
End Call.

(* What a record does in the state [y]. *)
Section Tail.
Variables (P : prims) (lib : ssl_lib).
Hypothesis HP : prims_ok P.
Variables (y : crypt) (d : dir) (p : bytes) (ps : list iovec) (buf : bytes).
Hypothesis Hrel : half_rel P (cx_in y) d.
Hypothesis Hu : dir_usable d.
Hypothesis Hl : 17 <= lenN p <= 16401.
Hypothesis Ep : iov_concat ps = p.
Hypothesis Hv : Forall iov_valid ps.
Let hdr := tls_header (lenN p).

Lemma hdr_alone : iov_concat [IoBuf hdr] = hdr.
Proof. rewrite iov_concat_cons. apply app_nil_r. Qed.

Lemma decrypts : exists h' st n buf' fs', half_decrypt P (cx_in y) [IoBuf hdr] ps (IoBuf buf) [] = Done ((h', (st, n), IoBuf buf'), fs') /\
  half_rel P h' (dir_next d) /\
  (st = kOk -> exists msg, p = dir_seal P d hdr msg) /\
  (forall msg, p = dir_seal P d hdr msg -> lenN msg <= lenN buf -> st = kOk /\ fs' = [] /\ n = lenN msg /\ buf' = msg ++ dropN n buf).
Proof.
  assert (L : sum_lens ps = lenN p) by (rewrite (sum_lens_concat ps Hv), Ep; reflexivity).
  destruct (half_decrypt_spec P (cx_in y) d [IoBuf hdr] ps buf [] HP Hrel) as (h1 & st & n & buf' & fs' & D & _ & _ & _ & _ & _ & Us).
  { constructor; [unfold small_iov; cbn [iov_len]; unfold hdr; rewrite lenN_tls_header; lia|constructor]. }
  { apply small_le. lia. }
  { exact Hv. }
  { rewrite L. unfold two64. lia. }
  destruct (Us Hu) as (R & _ & S1 & _ & S2). rewrite hdr_alone, Ep in *.
  exists h1, st, n, buf', fs'. split; [exact D|]. split; [exact R|]. split.
  - intros K. destruct (S1 K) as (_ & msg & E & _). eauto.
  - intros msg E Lm. destruct (S2 msg ltac:(repeat constructor) E Lm eq_refl) as [K ->]. split; [exact K|]. split; [reflexivity|].
    destruct (S1 K) as (_ & msg' & E' & En & _ & Eb). assert (msg' = msg) by (eapply dir_seal_inj; [exact HP|rewrite <- E'; exact E]). subst msg'. auto.
Qed.

Lemma tail_close : forall level pad, p = dir_seal P d hdr (inner ty_alert [level; 0] pad) -> 3 + pad <= lenN buf ->
  exists h', half_rel P h' (dir_next d) /\ tail P lib hdr ps buf y = Done (set_close (set_in y h'), (((S_ALERT_CLOSE_NOTIFY, 0), IoBuf (zeros (lenN buf))), [])).
Proof.
  intros level pad E Lb. destruct decrypts as (h' & st & n & buf' & fs' & D & R & _ & K).
  destruct (K _ E) as (-> & -> & -> & Eb); [rewrite lenN_inner; change (lenN [level; 0]) with 2; lia|]. exists h'. split; [exact R|].
  unfold tail. rewrite D. cbn [obind is_ok]. unfold deliver. cbn [iov_data]. rewrite Eb, takeN_app_exact, scan_type_inner by discriminate.
  set (b := inner ty_alert [level; 0] pad ++ _). assert (Lz : lenN b = lenN buf).
  { unfold b. rewrite lenN_app, lenN_dropN, lenN_inner. change (lenN [level; 0]) with 2. lia. }
  rewrite <- Lz. reflexivity.
Qed.

Lemma tail_data : forall c pad, p = dir_seal P d hdr (inner ty_application_data c pad) -> lenN c + 1 + pad <= lenN buf ->
  cx_expecting y = false -> cx_phase y <> RECEIVING ->
  exists h' out, tail P lib hdr ps buf y = Done (set_in y h', (((S_OK, lenN c), IoBuf out), [])) /\ takeN (lenN c) out = c.
Proof.
  intros c pad E Lb Hx Hph. destruct decrypts as (h' & st & n & buf' & fs' & D & R & _ & K).
  destruct (K _ E) as (-> & -> & -> & Eb); [rewrite lenN_inner; lia|]. exists h', buf'.
  split.
  - unfold tail. rewrite D. cbn [obind is_ok]. unfold deliver. cbn [iov_data].
    assert (Et : takeN (lenN (inner ty_application_data c pad)) buf' = inner ty_application_data c pad) by (rewrite Eb; apply takeN_app_exact).
    rewrite Et, scan_type_inner by discriminate.
    change (ty_application_data =? kTls13Alert) with false. change (ty_application_data =? kTls13Handshake) with false.
    change (ty_application_data =? kTls13ApplicationData) with true. cbv iota. cbn [cx_expecting cx_phase set_in]. rewrite Hx.
    destruct (cx_phase y); [reflexivity|contradiction|reflexivity].
  - rewrite Eb. unfold inner. rewrite <- !app_assoc. apply takeN_app_exact.
Qed.

Lemma tail_not_ok : (forall msg, p <> dir_seal P d hdr msg) -> forall z st w out gs, tail P lib hdr ps buf y = Done (z, (((st, w), out), gs)) -> st = S_INTERNAL_ERROR.
Proof.
  intros Hn z st w out gs T. destruct decrypts as (h' & st' & n & buf' & fs' & D & _ & K & _). unfold tail in T. rewrite D in T. cbn [obind] in T.
  destruct (is_ok st') eqn:Es.
  - destruct st'; try discriminate. destruct (K eq_refl) as (msg & E). destruct (Hn msg E).
  - cbn [zero_out obind] in T. injection T as _ <- _ _ _. reflexivity.
Qed.
End Tail.

Lemma closed_not_ok : forall P lib al f input buf f' r, cx_close (fp_crypt f) = true -> fop_ok (FUnprotectInto input buf) ->
  fstep P lib al f (FUnprotectInto input buf) [] = Done (f', r) -> forall out n, r <> FUnprotectedInto kOk out n.
Proof.
  intros P lib al f input buf f' r Hc (Hv & Hb & Hs) E out n. cbn [fstep] in E.
  destruct (fp_unprotect_into P lib f input (IoBuf buf) []) as [[[[[f1 st] o] k] fs]|u|] eqn:D; cbn [obind] in E; try discriminate.
  injection E as _ <-. intros F. injection F as -> _ _. revert D. unfold fp_unprotect_into.
  unfold bind at 1, lift at 1. destruct (number_bytes_to_unprotect _ _) as [z|u|]; try discriminate.
  destruct (z =? 0); [discriminate|]. destruct (cur_start input) as (C1 & C2 & C3).
  unfold bind at 1, lift at 1.
  destruct (rec_spec (input, 0) (start_valid _ Hv ltac:(lia)) ltac:(rewrite C3; exact Hb))
    as [u E1 Hn|Hn E1|hdr vs on Hn E1 E2|hdr vs on ps c' E1 E2 Hsz Hr Hvp Hcb Hc' Hne']; rewrite E1; [discriminate|discriminate|..];
    unfold bind at 1, lift at 1; rewrite E2; [discriminate|].
  unfold crypt_unprotect. rewrite Hc. discriminate.
Qed.

Lemma record_framed : forall P d ty c pad, prims_ok P -> exists p, tls_record P d ty c pad = framed p /\ lenN p = lenN c + pad + 17 /\
  p = dir_seal P d (tls_header (lenN p)) (inner ty c pad).
Proof.
  intros P d ty c pad HP. set (p := dir_seal P d (tls_header (lenN (inner ty c pad) + 16)) (inner ty c pad)).
  assert (L : lenN p = lenN (inner ty c pad) + 16) by (unfold p; apply lenN_dir_seal; exact HP).
  exists p. split; [unfold framed; rewrite L; reflexivity|]. split; [rewrite L, lenN_inner; lia|]. rewrite L. reflexivity.
Qed.

(* C97 *)
Lemma past_every : forall P lib al a ops rs f s, protector P lib al a ops rs f -> no_failures ops ->
  ref_run P (ref_start a) ops (map answer_of rs) s -> r_bad (f_rx s) = false ->
  open_rx (f_rx s) -> r_wait (f_rx s) = false -> nothing_to_send (fp_crypt f) ->
  let d := r_dir (f_rx s) in dir_usable (dir_next d) ->
  forall level pad0 input0 buf0 c pad1 input1 buf1,
  2 + pad0 <= 16384 -> 3 + pad0 <= lenN buf0 -> fop_ok (FUnprotectInto input0 buf0) -> Forall nonempty_iov input0 ->
  iov_concat input0 = tls_record P d ty_alert [level; 0] pad0 ->
  lenN c + pad1 <= 16384 -> lenN c + 1 + pad1 <= lenN buf1 -> fop_ok (FUnprotectInto input1 buf1) -> Forall nonempty_iov input1 ->
  iov_concat input1 = tls_record P (dir_next d) ty_application_data c pad1 ->
  (forall msg, iov_concat input1 <> framed (dir_seal P d (tls_header (lenN msg + 16)) msg)) ->
  let calls := [[(FUnprotectInto input0 buf0, [])]; [(FUnprotectInto input1 buf1, [])]] in
  exists sched x ts, team_run P lib al (fp_crypt f) (team_start f calls) sched = Done (x, ts) /\ Forall side_end ts /\
    (forall l, ~ team_explained P lib al f calls x ts l) /\
    cx_close x = true /\ exists t out, nth_error ts 1 = Some t /\ sd_done t = [FUnprotectedInto kOk (IoBuf out) (lenN c)] /\ takeN (lenN c) out = c.
Proof.
  intros P lib al a ops rs f s Hp Hn HR Hb Ho Hw Hph d Hu1 level pad0 input0 buf0 c pad1 input1 buf1 Hl0 Hb0 Hop0 Hne0 Hi0 Hl1 Hb1 Hop1 Hne1 Hi1 Hcol calls.
  pose proof (proj1 Hp) as HP. destruct (ref_known _ _ _ _ _ _ _ _ Hp Hn HR Hb) as (_ & Hinv & Hcl & Hex).
  pose proof (ci_in _ _ _ _ _ _ Hinv) as Hrel. destruct Ho as [Ho1 Ho2]. fold d in Hrel, Ho2. rewrite Ho1 in Hcl.
  destruct (proj2 Hex (proj1 Ho2)) as [Hx _]. rewrite Hw in Hx. clear Hex Hinv.
  destruct (record_framed P d ty_alert [level; 0] pad0 HP) as (p0 & F0 & L0 & E0). rewrite F0 in Hi0.
  destruct (record_framed P (dir_next d) ty_application_data c pad1 HP) as (p1 & F1 & L1 & E1). rewrite F1 in Hi1. change (lenN [level; 0]) with 2 in L0.
  destruct (call_goes P lib al (fp_crypt f) d Hrel Hcl (heap_of f) p0 input0 buf0 ltac:(lia) Hop0 Hne0 Hi0) as (ps0 & q0 & I0 & V0 & G0 & A0).
  destruct (call_goes P lib al (fp_crypt f) d Hrel Hcl (heap_of f) p1 input1 buf1 ltac:(lia) Hop1 Hne1 Hi1) as (ps1 & q1 & I1 & V1 & G1 & A1).
  destruct (tail_close P lib HP (fp_crypt f) d p0 ps0 buf0 Hrel Ho2 ltac:(lia) I0 V0 level pad0 E0 Hb0) as (h' & R' & T0).
  pose proof (A0 (fp_crypt f)) as B0. rewrite T0 in B0. cbn [obind] in B0. rewrite <- (goes_alone _ _ _ _ G0) in B0.
  set (y := set_close (set_in (fp_crypt f) h')) in *.
  destruct (tail_data P lib HP y (dir_next d) p1 ps1 buf1 R' Hu1 ltac:(lia) I1 V1 c pad1 E1 Hb1 Hx Hph) as (h2 & out & T1 & Tc).
  pose proof (A1 y) as B1. rewrite T1 in B1. cbn [obind] in B1.
  destruct (in_between P lib al f _ _ q1 y _ _ _ _ _ _ _ G1 B0 B1) as (sched & Er).
  exists sched. do 2 eexists. split; [exact Er|]. split; [repeat constructor|].
  split; [|split; [reflexivity|do 2 eexists; split; [reflexivity|]; split; [reflexivity|exact Tc]]].
  intros l (f1 & Hf & _ & _ & Hi & Ht).
  destruct (Ht 0%nat _ eq_refl) as (k0 & b0 & K0 & M0 & N0). destruct (Ht 1%nat _ eq_refl) as (k1 & b1 & K1 & M1 & N1).
  cbn [sd_now sd_todo sd_done returned] in *.
  destruct k0; [|discriminate]. destruct b0; [|discriminate]. destruct k1; [|discriminate]. destruct b1; [|discriminate].
  unfold calls in M0, M1. cbn [nth_error app] in M0, M1, K0, K1. rewrite app_nil_r in M0, M1.
  apply some_eq in M0. apply some_eq in M1.
  destruct (two_orders _ _ l _ _ _ _ Hi (eq_sym M0) (eq_sym M1) K0 K1) as (r0 & r1 & Q0 & Q1 & [[Eo Es]|[Eo Es]]);
    injection Q0 as <-; injection Q1 as <-; rewrite Eo, Es in Hf; cbn [frun] in Hf.
  - pose proof (call_alone P lib al f (FUnprotectInto input0 buf0) []) as CA.
    destruct (fstep P lib al f (FUnprotectInto input0 buf0) []) as [[g0 v0]|u|]; cbn [obind] in Hf; try discriminate.
    destruct CA as (gs & CA). pose proof (eq_trans (eq_sym B0) CA) as Ey. injection Ey as Ey _ _ _.
    destruct (fstep P lib al g0 (FUnprotectInto input1 buf1) []) as [[g1 v1]|u|] eqn:Es1; cbn [obind] in Hf; try discriminate.
    injection Hf as _ _ ->. refine (closed_not_ok P lib al g0 input1 buf1 _ _ _ Hop1 Es1 _ _ eq_refl). rewrite <- Ey. reflexivity.
  - pose proof (call_alone P lib al f (FUnprotectInto input1 buf1) []) as CA.
    destruct (fstep P lib al f (FUnprotectInto input1 buf1) []) as [[g0 v0]|u|]; cbn [obind] in Hf; try discriminate.
    destruct CA as (gs & CA). rewrite (goes_alone _ _ _ _ G1), A1 in CA.
    destruct (tail P lib (tls_header (lenN p1)) ps1 buf1 (fp_crypt f)) as [[z [[[st w] o] gs']]|u|] eqn:Et; cbn [obind] in CA; try discriminate.
    assert (st = S_INTERNAL_ERROR).
    { refine (tail_not_ok P lib HP (fp_crypt f) d p1 ps1 buf1 Hrel Ho2 ltac:(lia) I1 V1 _ _ _ _ _ _ Et).
      intros msg K. apply (Hcol msg). assert (Lm : lenN p1 = lenN msg + 16) by (rewrite K at 1; apply lenN_dir_seal; exact HP).
      rewrite Hi1. rewrite <- Lm, <- K. reflexivity. }
    subst st. injection CA as _ _ _ V _.
    destruct (fstep P lib al g0 (FUnprotectInto input0 buf0) []) as [[g1 v1]|u|] eqn:Es1; cbn [obind] in Hf; try discriminate.
    injection Hf as _ K _. rewrite <- V in K. discriminate K.
Qed.

(* The hypotheses: a new protector. *)
Definition e_dir : dir := f_in (fargs S0).
Definition e_close : bytes := tls_record shown e_dir ty_alert [1; 0] 0.
Definition e_data : bytes := tls_record shown (dir_next e_dir) ty_application_data [1; 2; 3] 0.

Lemma e_other : forall msg, e_data <> framed (dir_seal shown e_dir (tls_header (lenN msg + 16)) msg).
Proof.
  intros msg E. pose proof (f_equal lenN E) as L. unfold framed in L. rewrite lenN_app, lenN_tls_header, lenN_dir_seal in L by exact shown_ok.
  change (lenN e_data) with 25 in L. assert (Lm : lenN msg = 4) by lia.
  apply (f_equal (fun w => dropN 9 w)) in E.
  assert (T : dropN 9 (framed (dir_seal shown e_dir (tls_header (lenN msg + 16)) msg)) =
    p_mac shown (spec_alg (d_suite e_dir)) (traffic_key shown (d_suite e_dir) (d_secret e_dir))
      (record_nonce (traffic_iv shown (d_suite e_dir) (d_secret e_dir)) (d_seq e_dir)) [] []).
  { unfold framed, dir_seal, seal. cbv zeta. cbn [shown p_mac].
    rewrite app_assoc.
    match goal with |- dropN 9 ((?h ++ ?b) ++ ?t) = _ => assert (Lb : lenN (h ++ b) = 9) end.
    { rewrite lenN_app, lenN_tls_header. rewrite lenN_stream. lia. }
    rewrite <- Lb at 1. apply dropN_app_exact. }
  rewrite T in E. vm_compute in E. discriminate E.
Qed.

Lemma case97_every : exists f s, protector shown OpenSSL toy_al (fargs S0) [] [] f /\ no_failures [] /\
  ref_run shown (ref_start (fargs S0)) [] (map answer_of []) s /\ r_bad (f_rx s) = false /\
  open_rx (f_rx s) /\ r_wait (f_rx s) = false /\ nothing_to_send (fp_crypt f) /\
  r_dir (f_rx s) = e_dir /\ dir_usable (dir_next e_dir) /\
  fop_ok (fst (into e_close)) /\ fop_ok (fst (into e_data)) /\ Forall nonempty_iov [IoBuf e_close] /\ Forall nonempty_iov [IoBuf e_data] /\
  iov_concat [IoBuf e_close] = tls_record shown e_dir ty_alert [1; 0] 0 /\
  iov_concat [IoBuf e_data] = tls_record shown (dir_next e_dir) ty_application_data [1; 2; 3] 0 /\
  (forall msg, iov_concat [IoBuf e_data] <> framed (dir_seal shown e_dir (tls_header (lenN msg + 16)) msg)).
Proof.
  destruct case97 as (f & Hp & Hs & _). exists f, (ref_start (fargs S0)). split; [exact Hp|]. split; [constructor|]. split; [constructor|].
  split; [reflexivity|]. split; [split; [reflexivity|split; reflexivity]|]. split; [reflexivity|]. split; [exact Hs|]. split; [reflexivity|].
  split; [split; reflexivity|].
  destruct (into_fine e_close) as [A1 A2]; [vm_compute; reflexivity|vm_compute; reflexivity|].
  destruct (into_fine e_data) as [B1 B2]; [vm_compute; reflexivity|vm_compute; reflexivity|].
  split; [exact A1|]. split; [exact B1|]. split; [exact A2|]. split; [exact B2|]. split; [apply app_nil_r|]. split; [apply app_nil_r|].
  intros msg. assert (Ei : iov_concat [IoBuf e_data] = e_data) by apply app_nil_r. rewrite Ei. apply e_other.
Qed.
