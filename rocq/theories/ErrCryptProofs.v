(* Proofs for C99. *)
From Coq Require Import List NArith Bool.
From Verif Require Import Base Aead Hkdf HalfConn Options HsHandler Crypter SpecTls SpecHs SpecRecord SpecRx CrypterRun SpecAead HalfRun
  ErrQueue SpecErr ErrQueueSame ErrQueueProofs ErrCrypt SpecErrCrypt.
Import ListNotations.
Local Open Scope N_scope.

(* Without the errors these are the functions of Crypter.v. *)
Lemma protect_same : forall P x t pt record, same (crypt_protect_q P x t pt record) (crypt_protect P x t pt record).
Proof.
  intros. unfold crypt_protect_q, crypt_protect. cbn zeta. destruct (kTlsMaxPlaintextSize <? total_len pt); [apply same_ret|].
  apply same_bind; [apply same_quiet|]. intros o. destruct (iov_len record <? total_len pt + o); [apply same_ret|].
  apply same_bind; [apply same_quiet|]. intros tag. destruct record as [buf|n]; [|apply same_ret].
  apply same_bind; [apply half_encrypt_same|]. intros [[h [st n]] tail]. same_tac.
Qed.
Lemma same_new_text : forall A (a : A), same (qbind new_text (fun _ => qret a)) (ret a).
Proof. intros A a e fs. reflexivity. Qed.
Lemma handle_same : forall P lib x r, same (handle_result_q P lib x r) (handle_result P lib x r).
Proof.
  intros P lib x [st|r]; [apply same_ret|]. unfold handle_result_q, handle_result. cbn zeta.
  apply same_bind.
  - destruct (r_key_update r); [|apply same_ret]. apply same_bind; [apply half_update_same|]. intros [h st]. apply same_ret.
  - intros [y failed]. destruct failed; [apply same_new_text|]. destruct (cx_phase y); same_tac.
Qed.
Lemma unprotect_same : forall P lib x hd pl pt, same (crypt_unprotect_q P lib x hd pl pt) (crypt_unprotect P lib x hd pl pt).
Proof.
  intros. unfold crypt_unprotect_q, crypt_unprotect. cbn zeta. destruct (cx_close x); [apply same_ret|].
  apply same_bind; [apply same_quiet|]. intros o. destruct (_ <? o); [apply same_ret|]. destruct (o + _ <? _); [apply same_ret|].
  destruct (negb _); [apply same_ret|]. apply same_bind; [apply half_decrypt_same|]. intros [[h [st n]] p].
  destruct (negb (is_ok st)); [same_tac|]. destruct (scan_type _) as [[ty content]|]; [|apply same_ret].
  destruct (ty =? kTls13Alert); [destruct content as [|a [|b c]]; same_tac|].
  destruct (ty =? kTls13Handshake).
  - apply same_bind; [apply same_quiet|]. intros [h1 r]. apply same_bind; [apply handle_same|]. intros [y st1]. same_tac.
  - destruct (ty =? kTls13ApplicationData); [|same_tac]. destruct (cx_expecting (set_in x h)); [apply same_ret|].
    apply same_bind; [apply same_quiet|]. intros y. apply same_ret.
Qed.
Lemma outbound_same : forall P lib x, same (crypt_update_outbound_key_q P lib x) (crypt_update_outbound_key P lib x).
Proof.
  intros. unfold crypt_update_outbound_key_q, crypt_update_outbound_key. apply same_bind; [apply half_update_same|]. intros [h st]. apply same_ret.
Qed.
Lemma crypter_same : forall P lib x q op fs next,
  match cstep_q P lib x q op fs next with
  | Done (x', r, _) => cstep P lib x op fs = Done (x', r)
  | Undef u => cstep P lib x op fs = Undef u
  | NoFuel => cstep P lib x op fs = NoFuel
  end.
Proof.
  intros P lib x q op fs next. unfold cstep_q, cstep. set (e := Build_errs _ _ _ _). clearbody e. destruct op as [t pt buf|hd pl buf|].
  - pose proof (protect_same P x t pt (IoBuf buf) e fs) as H. unfold obind.
    destruct (crypt_protect_q P x t pt (IoBuf buf) e fs) as [[[[[x' [st n]] o] e'] fs']|u|]; rewrite H; reflexivity.
  - pose proof (unprotect_same P lib x (IoBuf hd) pl (IoBuf buf) e fs) as H. unfold obind.
    destruct (crypt_unprotect_q P lib x (IoBuf hd) pl (IoBuf buf) e fs) as [[[[[x' [st n]] o] e'] fs']|u|]; rewrite H; reflexivity.
  - pose proof (outbound_same P lib x e fs) as H. unfold obind.
    destruct (crypt_update_outbound_key_q P lib x e fs) as [[[[x' st] e'] fs']|u|]; rewrite H; reflexivity.
Qed.

(* always_fail_aead_operations_ *)
Lemma decrypt_fail : forall P h aad ct out e fs h' st n out' e' fs',
  half_decrypt_q P h aad ct out e fs = Done (((h', (st, n), out'), e'), fs') ->
  hc_always_fail h' = hc_always_fail h /\ (st = kOk -> hc_always_fail h = false).
Proof.
  intros P h aad ct out e fs h' st n out' e' fs' H. unfold half_decrypt_q in H.
  destruct (hc_aead h) as [c|]; [|step H; split; [reflexivity|discriminate]].
  destruct (hc_always_fail h || hc_overflowed h) eqn:F; [step H; split; [reflexivity|discriminate]|].
  apply orb_false_iff in F. destruct F as [F _].
  destruct (qbind_done _ _ _ _ _ _ _ _ _ H) as [[nonce h1] [e1 [f1 [A H1]]]]. clear H.
  destruct (quiet_done _ _ _ _ _ _ _ A) as [B ->]. clear A.
  assert (K : hc_always_fail h1 = hc_always_fail h).
  { unfold lift, nonce_mask in B. destruct (lenN (hc_nonce h) <? 8); [discriminate|]. injection B as _ <- _. reflexivity. }
  destruct (qbind_done _ _ _ _ _ _ _ _ _ H1) as [[[c1 [st1 n1]] o] [e2 [f2 [C H2]]]]. clear H1. step H2.
  split; [exact K|]. intros _. exact F.
Qed.
Lemma update_fail : forall P lib h e fs h' st e' fs', half_update_key_q P lib h e fs = Done (((h', st), e'), fs') ->
  hc_always_fail h' = if is_ok st then hc_always_fail h else true.
Proof.
  intros P lib h e fs h' st e' fs' H. unfold half_update_key_q in H.
  assert (N : forall c, negb (is_ok c) = true -> is_ok c = false) by (intros c; destruct (is_ok c); [discriminate|reflexivity]).
  destruct (qbind_done _ _ _ _ _ _ _ _ _ H) as [[st1 s1] [e1 [f1 [A H1]]]]. clear H A.
  destruct (negb (is_ok st1)) eqn:O1; [step H1; rewrite (N _ O1); reflexivity|].
  destruct (qbind_done _ _ _ _ _ _ _ _ _ H1) as [[st2 key] [e2 [f2 [A H2]]]]. clear H1 A.
  destruct (negb (is_ok st2)) eqn:O2; [step H2; rewrite (N _ O2); reflexivity|].
  destruct (qbind_done _ _ _ _ _ _ _ _ _ H2) as [[st3 nonce] [e3 [f3 [A H3]]]]. clear H2 A.
  destruct (negb (is_ok st3)) eqn:O3; [step H3; rewrite (N _ O3); reflexivity|].
  destruct (qbind_done _ _ _ _ _ _ _ _ _ H3) as [r4 [e4 [f4 [A H4]]]]. apply create_crypter_rel in A. clear H3.
  destruct r4 as [st4|c]; step H4; [|reflexivity]. destruct A as [A _]. destruct st4; try reflexivity. destruct (A eq_refl).
Qed.

Lemma protect_rel : forall P x t pt record e fs x' st n out e' fs',
  crypt_protect_q P x t pt record e fs = Done (((x', (st, n), out), e'), fs') ->
  cx_in x' = cx_in x /\ (e' = e \/ (st <> S_OK /\ told e e')).
Proof.
  intros P x t pt record e fs x' st n out e' fs' H. unfold crypt_protect_q in H. cbn zeta in H.
  destruct (kTlsMaxPlaintextSize <? total_len pt); [step H; split; [reflexivity|left; reflexivity]|].
  step H. destruct (iov_len record <? _); [step H; split; [reflexivity|left; reflexivity]|]. step H.
  destruct record as [buf|m]; [|step H; split; [reflexivity|left; reflexivity]].
  destruct (qbind_done _ _ _ _ _ _ _ _ _ H) as [[[h [st1 n1]] tail] [e1 [f1 [A R1]]]]. clear H. apply encrypt_rel in A.
  destruct (negb (is_ok st1)) eqn:O.
  - step R1. step R1. split; [reflexivity|]. destruct A as [A|[A B]]; [left; exact A|]. right. split; [|exact B].
    destruct st1; discriminate.
  - apply ok_code in O. subst st1. step R1. split; [reflexivity|]. destruct A as [A|[A B]]; [left; exact A|destruct (A eq_refl)].
Qed.

(* What a failing key update of the peer does. *)
Definition dropped (e e' : errs) : Prop :=
  e_text e' = [] /\
  exists new, e_raised e' = e_raised e ++ new /\ (e_queue e' = [] \/ e_queue e' = e_queue e ++ new).
Lemma handle_rel : forall P lib x r e fs x' st e' fs', e_text e = [] ->
  handle_result_q P lib x r e fs = Done (((x', st), e'), fs') ->
  (e' = e /\ inbound_broken x' = inbound_broken x) \/ (st = kInternal /\ inbound_broken x' = true /\ dropped e e').
Proof.
  intros P lib x r e fs x' st e' fs' T H. unfold handle_result_q in H. cbn zeta in H.
  destruct r as [st0|r]; [step H; left; split; reflexivity|].
  destruct (qbind_done _ _ _ _ _ _ _ _ _ H) as [[y failed] [e1 [f1 [A R1]]]]. clear H.
  assert (K : (e1 = e /\ failed = false /\ inbound_broken y = inbound_broken x) \/
              (failed = true /\ inbound_broken y = true /\ (e1 = e \/ told e e1 \/ kept e e1))).
  { destruct (r_key_update r).
    - destruct (qbind_done _ _ _ _ _ _ _ _ _ A) as [[h st1] [e2 [f2 [B A1]]]]. clear A.
      pose proof (update_rel _ _ _ _ _ _ _ _ _ B) as U. pose proof (update_fail _ _ _ _ _ _ _ _ _ B) as F. clear B. step A1.
      unfold inbound_broken. cbn [cx_in set_in]. destruct (is_ok st1) eqn:O; cbn [negb].
      + left. destruct st1; try discriminate O. destruct U as [U|[U _]]; [|destruct (U eq_refl)].
        split; [exact U|]. split; [reflexivity|exact F].
      + right. split; [reflexivity|]. split; [exact F|]. destruct U as [U|[_ [U|U]]]; [left|right; left|right; right]; exact U.
    - step A. left. repeat split. }
  destruct K as [[-> [-> B]]|[-> [B K]]].
  - left. destruct (cx_phase y) eqn:Ph.
    + destruct (r_ticket r && (kMaxNumTicketsToProcess <=? r_num r)).
      * step R1. step R1. split; [reflexivity|]. rewrite <- B. 
        match goal with Z : lift (send_tickets ?z) _ = Done (?w, _) |- _ => 
          unfold lift, send_tickets in Z; destruct (get_stored_tickets (cx_handler z)) as [[hh [cc|ts]]|u|]; cbn [obind] in Z; try discriminate Z;
          injection Z as <- _; destruct (r_ticket r); reflexivity end.
      * step R1. split; [reflexivity|]. rewrite <- B. destruct (r_ticket r); reflexivity.
    + destruct (r_ticket r && (kMaxNumTicketsToProcess <=? r_num r)).
      * step R1. step R1. split; [reflexivity|]. rewrite <- B. 
        match goal with Z : lift (send_tickets ?z) _ = Done (?w, _) |- _ => 
          unfold lift, send_tickets in Z; destruct (get_stored_tickets (cx_handler z)) as [[hh [cc|ts]]|u|]; cbn [obind] in Z; try discriminate Z;
          injection Z as <- _; reflexivity end.
      * step R1. split; [reflexivity|exact B].
    + step R1. split; [reflexivity|exact B].
  - right. unfold qbind, new_text, qret, bind, ret in R1. cbn [fst snd] in R1. injection R1 as <- <- <- _.
    split; [reflexivity|]. split; [exact B|]. unfold dropped. cbn [e_text e_raised e_queue]. split; [reflexivity|].
    destruct K as [->|[[new [Q1 [Q2 Q3]]]|[new [Q1 [Q2 Q3]]]]].
    + exists []. rewrite !app_nil_r. split; [reflexivity|right; reflexivity].
    + exists new. split; [exact Q3|left; exact Q1].
    + exists new. split; [exact Q3|right; exact Q1].
Qed.

Lemma send_tickets_in : forall x y, send_tickets x = Done y -> cx_in y = cx_in x.
Proof.
  intros x y H. unfold send_tickets in H. destruct (get_stored_tickets (cx_handler x)) as [[hh [cc|ts]]|u|]; cbn [obind] in H; try discriminate H;
    injection H as <-; reflexivity.
Qed.

Lemma unprotect_rel : forall P lib x hd pl pt e fs x' st n out e' fs', e_text e = [] ->
  crypt_unprotect_q P lib x hd pl pt e fs = Done (((x', (st, n), out), e'), fs') ->
  (inbound_broken x' = inbound_broken x /\ (e' = e \/ (st = S_INTERNAL_ERROR /\ told e e'))) \/
  (inbound_broken x = false /\ inbound_broken x' = true /\ st = S_INTERNAL_ERROR /\ n = 0 /\ dropped e e').
Proof.
  intros P lib x hd pl pt e fs x' st n out e' fs' T H. unfold crypt_unprotect_q in H. cbn zeta in H.
  destruct (cx_close x); [step H; left; split; [reflexivity|left; reflexivity]|]. step H.
  destruct (_ <? _); [step H; left; split; [reflexivity|left; reflexivity]|].
  destruct (_ <? _); [step H; left; split; [reflexivity|left; reflexivity]|].
  destruct (negb (validate_header _ _)); [step H; left; split; [reflexivity|left; reflexivity]|].
  destruct (qbind_done _ _ _ _ _ _ _ _ _ H) as [[[h [st1 n1]] p] [e1 [f1 [A R1]]]]. clear H.
  pose proof (decrypt_fail _ _ _ _ _ _ _ _ _ _ _ _ _ A) as [F G]. apply decrypt_rel in A.
  assert (B : inbound_broken (set_in x h) = inbound_broken x) by (unfold inbound_broken; exact F).
  destruct (negb (is_ok st1)) eqn:O.
  { step R1. step R1. left. split; [exact B|]. destruct A as [A|[_ A]]; [left; exact A|right; split; [reflexivity|exact A]]. }
  apply ok_code in O. subst st1. destruct A as [->|[A _]]; [|destruct (A eq_refl)]. specialize (G eq_refl).
  destruct (scan_type _) as [[ty content]|]; [|step R1; left; split; [exact B|left; reflexivity]].
  destruct (ty =? kTls13Alert).
  { destruct content as [|a [|b c]].
    - step R1. step R1. left. split; [exact B|left; reflexivity].
    - step R1. step R1. left. split; [exact B|left; reflexivity].
    - step R1. destruct (b =? kTlsAlertCloseNotify); step R1; left; (split; [exact B|left; reflexivity]). }
  destruct (ty =? kTls13Handshake).
  { destruct (qbind_done _ _ _ _ _ _ _ _ _ R1) as [[h1 r] [e2 [f2 [C R2]]]]. clear R1.
    destruct (quiet_done _ _ _ _ _ _ _ C) as [_ ->]. clear C.
    destruct (qbind_done _ _ _ _ _ _ _ _ _ R2) as [[y st2] [e3 [f3 [C R3]]]]. clear R2.
    apply (handle_rel _ _ _ _ _ _ _ _ _ _ T) in C. destruct C as [[-> C]|[-> [C D]]].
    - left. assert (B2 : inbound_broken y = inbound_broken x) by (rewrite C; exact B).
      destruct (negb (is_ok st2)); step R3; (split; [exact B2|left; reflexivity]).
    - change (negb (is_ok kInternal)) with true in R3. cbv iota in R3. step R3. right. split; [exact G|]. split; [exact C|]. split; [reflexivity|]. split; [reflexivity|exact D]. }
  destruct (ty =? kTls13ApplicationData).
  { destruct (cx_expecting (set_in x h)); [step R1; left; split; [exact B|left; reflexivity]|].
    destruct (qbind_done _ _ _ _ _ _ _ _ _ R1) as [y [e2 [f2 [C R2]]]]. clear R1.
    destruct (quiet_done _ _ _ _ _ _ _ C) as [Y ->]. clear C. step R2. left. split; [|left; reflexivity].
    rewrite <- B. unfold inbound_broken. unfold lift in Y. destruct (cx_phase (set_in x h)).
    - injection Y as <- _. reflexivity.
    - destruct (send_tickets (set_in x h)) as [z|u|] eqn:S; cbn [obind] in Y; try discriminate. injection Y as <- _.
      cbn [cx_in set_phase]. rewrite (send_tickets_in _ _ S). reflexivity.
    - injection Y as <- _. reflexivity. }
  step R1. step R1. left. split; [exact B|left; reflexivity].
Qed.

Lemma told_returned : forall q next e', told (start q next) e' -> returned q e'.
Proof. intros q next e' [new [A [B C]]]. cbn in *. split; [rewrite B, C; reflexivity|exact A]. Qed.
Lemma kept_in_queue : forall q next e', kept (start q next) e' -> in_queue q e'.
Proof. intros q next e' [new [A [B C]]]. cbn in *. split; [exact B|rewrite C; exact A]. Qed.
Lemma start_nothing : forall q next, nothing_happened q (start q next).
Proof. intros. repeat split. Qed.

Lemma each_crypter_call : forall P lib x q op fs next x' r e, cstep_q P lib x q op fs next = Done (x', r, e) ->
  (inbound_update_failed op x x' r /\ (vanished e \/ in_queue q e)) \/
  (inbound_broken x' = inbound_broken x /\
   (nothing_happened q e \/
    (~ succeeded r /\ returned q e) \/
    (op = CUpdateKey /\ ~ succeeded r /\ in_queue q e))).
Proof.
  intros P lib x q op fs next x' r e H. destruct op as [t pt buf|hd pl buf|]; cbn [cstep_q] in H;
    change {| e_queue := q; e_next := next; e_text := []; e_raised := [] |} with (start q next) in H.
  - destruct (obind_done _ _ _ _ _ H) as [[[[[x1 [st n]] o] e1] f] [A B]]. apply protect_rel in A. injection B as <- <- <-.
    destruct A as [A B]. right. split; [unfold inbound_broken; rewrite A; reflexivity|].
    destruct B as [->|[B C]]; [left; apply start_nothing|]. right. left. split; [exact B|exact (told_returned _ _ _ C)].
  - destruct (obind_done _ _ _ _ _ H) as [[[[[x1 [st n]] o] e1] f] [A B]]. apply unprotect_rel in A; [|reflexivity]. injection B as <- <- <-.
    destruct A as [[A B]|[A [B [-> [-> D]]]]].
    + right. split; [exact A|]. destruct B as [->|[-> C]]; [left; apply start_nothing|]. right. left. split; [discriminate|exact (told_returned _ _ _ C)].
    + left. split; [split; [exact A|]; split; [exact B|]; split; reflexivity|].
      destruct D as [T [new [D [E|E]]]]; [left; split; assumption|]. right. cbn in D, E. split; [exact T|]. rewrite D. exact E.
  - destruct (obind_done _ _ _ _ _ H) as [[[[x1 st] e1] f] [A B]]. injection B as <- <- <-. unfold crypt_update_outbound_key_q in A.
    destruct (qbind_done _ _ _ _ _ _ _ _ _ A) as [[h st1] [e2 [f2 [C D]]]]. apply update_rel in C. step D. right. split; [reflexivity|].
    destruct C as [->|[N [C|C]]]; [left; apply start_nothing| |].
    + right. left. split; [exact N|exact (told_returned _ _ _ C)].
    + right. right. split; [reflexivity|]. split; [exact N|exact (kept_in_queue _ _ _ C)].
Qed.

Lemma crun_cons : forall P lib x q op fs next ops x' rs, crun_q P lib x q ((op, fs, next) :: ops) = Done (x', rs) ->
  exists x1 r e rs', rs = (r, e) :: rs' /\ cstep_q P lib x q op fs next = Done (x1, r, e) /\ crun_q P lib x1 (e_queue e) ops = Done (x', rs').
Proof.
  intros P lib x q op fs next ops x' rs H. cbn [crun_q] in H. destruct (obind_done _ _ _ _ _ H) as [[[x1 r] e] [A B]].
  destruct (obind_done _ _ _ _ _ B) as [[x2 rs'] [C D]]. injection D as <- <-. exists x1, r, e, rs'. repeat split; assumption.
Qed.

Lemma broken_stays : forall P lib ops x q x' rs, crun_q P lib x q ops = Done (x', rs) -> inbound_broken x = true -> inbound_broken x' = true.
Proof.
  intros P lib. induction ops as [|[[op fs] next] ops IH]; intros x q x' rs H B.
  - injection H as <- _. exact B.
  - destruct (crun_cons _ _ _ _ _ _ _ _ _ _ H) as [x1 [r [e [rs' [-> [A C]]]]]]. apply (IH _ _ _ _ C).
    destruct (each_crypter_call _ _ _ _ _ _ _ _ _ _ A) as [[[D _] _]|[D _]]; [rewrite B in D; discriminate|rewrite D; exact B].
Qed.

Lemma crypter_nothing_lost : forall P lib ops x q x' rs, crun_q P lib x q ops = Done (x', rs) -> inbound_broken x' = false ->
  texts rs ++ queue_after q rs = q ++ all_raised rs.
Proof.
  intros P lib. induction ops as [|[[op fs] next] ops IH]; intros x q x' rs H B.
  - injection H as _ <-. cbn. symmetry. apply app_nil_r.
  - destruct (crun_cons _ _ _ _ _ _ _ _ _ _ H) as [x1 [r [e [rs' [-> [A C]]]]]]. pose proof (IH _ _ _ _ C B) as D.
    unfold texts, all_raised, queue_after in *. cbn [map flat_map snd]. rewrite last_cons, <- app_assoc, D.
    destruct (each_crypter_call _ _ _ _ _ _ _ _ _ _ A) as [[[_ [E _]] _]|[_ E]].
    + rewrite (broken_stays _ _ _ _ _ _ _ C E) in B. discriminate.
    + destruct E as [[X [Y Z]]|[[_ [Y Z]]|[_ [_ [Y Z]]]]]; rewrite Y, Z; try rewrite X; rewrite ?app_nil_l, <- ?app_assoc; reflexivity.
Qed.
