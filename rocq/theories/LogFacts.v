(* What is logged: proofs of C77 - C79. *)
From Coq Require Import List NArith Bool Lia ZifyBool ZifyNat ZifyN.
From Verif Require Import Base BaseProofs Aead Hkdf HalfConn Options HsHandler Crypter FrameProt SpecTls SpecHs SpecRecord SpecRx CrypterRun
  SpecFrame FrameRun Log LogRun LogProofs SpecLog.
Import ListNotations.
Local Open Scope N_scope.

Definition lpost {A} (m : LM A) (Q : A -> list line -> Prop) : Prop :=
  forall fs a l fs', m fs = Done ((a, l), fs') -> Q a l.

Lemma lpost_ret : forall A (a : A) (Q : A -> list line -> Prop), Q a [] -> lpost (lret a) Q.
Proof. intros A a Q H fs b l fs' E. injection E as <- <- _. exact H. Qed.
Lemma lpost_bind : forall A B (m : LM A) (k : A -> LM B) Q1 Q, lpost m Q1 ->
  (forall a l, Q1 a l -> lpost (k a) (fun b l2 => Q b (l ++ l2))) -> lpost (lbind m k) Q.
Proof.
  intros A B m k Q1 Q H K fs b l fs' E. unfold lbind, bind, ret in E.
  destruct (m fs) as [[[a l1] f1]|u|] eqn:Em; try discriminate. cbn [fst snd] in E.
  destruct (k a f1) as [[[b2 l2] f2]|u|] eqn:Ek; try discriminate. cbn [fst snd] in E. injection E as <- <- _.
  exact (K a l1 (H _ _ _ _ Em) _ _ _ _ Ek).
Qed.
Lemma lpost_quiet : forall A B (m : M A) (k : A -> LM B) Q, (forall a, lpost (k a) Q) -> lpost (lbind (quiet m) k) Q.
Proof.
  intros A B m k Q H. apply lpost_bind with (Q1 := fun _ l => l = []).
  - intros fs a l fs' E. unfold quiet, bind, lret, ret in E. destruct (m fs) as [[b f]|u|]; [|discriminate..]. injection E as _ <- _. reflexivity.
  - intros a l ->. exact (H a).
Qed.
Lemma lpost_log : forall B x (k : unit -> LM B) Q, lpost (k tt) (fun b l => Q b (x :: l)) -> lpost (lbind (log x) k) Q.
Proof.
  intros B x k Q H. apply lpost_bind with (Q1 := fun _ l => l = [x]).
  - intros fs a l fs' E. injection E as _ <- _. reflexivity.
  - intros [] l ->. exact H.
Qed.

Lemma not_ok : forall st, negb (is_ok st) = true -> st <> kOk.
Proof. intros [] H; discriminate. Qed.
Lemma ok_ok : forall st, negb (is_ok st) = false -> st = kOk.
Proof. intros [] H; try discriminate; reflexivity. Qed.

Lemma protect_lines : forall P x t pt record,
  lpost (crypt_protect_l P x t pt record) (fun '(_, (st, _), _) ls => protect_log st ls).
Proof.
  intros. unfold crypt_protect_l. cbn zeta.
  destruct (_ <? _); [apply lpost_log, lpost_ret; constructor|]. apply lpost_quiet. intros o.
  destruct (_ <? _); [apply lpost_log, lpost_ret; constructor|]. apply lpost_quiet. intros tag.
  destruct record as [buf|n]; [|apply lpost_log, lpost_ret; constructor].
  apply lpost_quiet. intros [[h [st n]] tail]. destruct (negb (is_ok st)) eqn:E; [|apply lpost_ret; constructor].
  apply lpost_log, lpost_quiet. intros r. apply lpost_ret. constructor. apply not_ok. exact E.
Qed.

Lemma stored_code : forall h h' c, get_stored_tickets h = Done (h', inl c) -> c = kInternal.
Proof.
  intros h h' c E. unfold get_stored_tickets in E. destruct (hs_retrieved h); [congruence|].
  destruct (expecting_more h).
  - destruct (get_message_type h) as [t|u|]; cbn [obind] in E; try discriminate.
    destruct (t =? _); [congruence|]. destruct (hs_tickets h); discriminate.
  - destruct (hs_tickets h); discriminate.
Qed.

(* Lines of a call that goes on to succeed. *)
Definition calm_lines (ls : list line) : Prop := ls = [] \/ exists l, ls = [l] /\ ticket_line l.

Lemma send_lines : forall x, lpost (send_tickets_l x) (fun _ ls => calm_lines ls).
Proof.
  intros x fs y l fs' E. unfold send_tickets_l, lbind, quiet, bind, lift, lret, ret in E.
  destruct (get_stored_tickets (cx_handler x)) as [[h [c|ts]]|u|] eqn:Es; try discriminate; cbn in E; injection E as _ <- _.
  - right. apply stored_code in Es. subst c. exists (LRetrieving kInternal). split; [reflexivity|]. right. reflexivity.
  - left. reflexivity.
Qed.

Lemma handle_lines : forall P lib x r, lpost (handle_result_l P lib x r) (fun '(_, st) ls =>
  (st = kOk /\ calm_lines ls) \/ (st <> kOk /\ ls = [] /\ r = inl st) \/ (st = kInternal /\ ls = [LKeyUpdate]) \/
  (st = kOk /\ ls = [] /\ r = inl kOk)).
Proof.
  intros P lib x [st|r]; unfold handle_result_l.
  { apply lpost_ret. destruct st; try (right; left; repeat split; congruence). left. split; [reflexivity|left; reflexivity]. }
  cbn zeta. apply lpost_bind with (Q1 := fun _ l => l = []).
  { destruct (r_key_update r); [|apply lpost_ret; reflexivity]. apply lpost_quiet. intros [h st]. apply lpost_ret. reflexivity. }
  intros [y failed] l ->. cbn [app]. destruct failed; [apply lpost_log, lpost_ret; auto|].
  assert (Q : forall z : crypt, lpost
    (if r_ticket r && (kMaxNumTicketsToProcess <=? r_num r) then x0 <~ send_tickets_l z;; lret (set_phase x0 DONE false, kOk) else lret (z, kOk))
    (fun '(_, st) ls => (st = kOk /\ calm_lines ls) \/ (st <> kOk /\ ls = [] /\ @inr code hs_result r = inl st) \/ (st = kInternal /\ ls = [LKeyUpdate]) \/
      (st = kOk /\ ls = [] /\ @inr code hs_result r = inl kOk))).
  { intros z. destruct (_ && _); [|apply lpost_ret; left; split; [reflexivity|left; reflexivity]].
    eapply lpost_bind; [apply send_lines|]. intros w l H. apply lpost_ret. rewrite app_nil_r. auto. }
  destruct (cx_phase y); [apply Q|apply Q|].
  destruct (r_ticket r); [apply lpost_log|]; apply lpost_ret; left; (split; [reflexivity|]).
  - right. exists LTicketIgnored. split; [reflexivity|left; reflexivity].
  - left. reflexivity.
Qed.

Lemma unprotect_lines : forall P lib x hdr payload pt,
  lpost (crypt_unprotect_l P lib x hdr payload pt) (fun '(_, (st, _), _) ls => unprotect_log st ls).
Proof.
  intros. unfold crypt_unprotect_l. destruct (cx_close x); [apply lpost_log, lpost_ret; constructor|]. cbn zeta.
  apply lpost_quiet. intros o.
  destruct (_ <? _); [apply lpost_log, lpost_ret; constructor|].
  destruct (_ <? _); [apply lpost_log, lpost_ret; constructor|].
  destruct (negb _); [apply lpost_log, lpost_ret; constructor|].
  apply lpost_quiet. intros [[h [st n]] pt']. cbn zeta. destruct (negb (is_ok st)) eqn:Est.
  { apply lpost_log, lpost_quiet. intros p. apply lpost_ret. constructor. apply not_ok. exact Est. }
  destruct (scan_type _) as [[ty content]|] eqn:Esc; [|apply lpost_log, lpost_ret; constructor].
  destruct (N.eqb_spec ty kTls13Alert) as [Ha|Ha].
  { destruct content as [|b [|d c]].
    1,2: apply lpost_log, lpost_quiet; intros p; apply lpost_ret; constructor.
    destruct (d =? _); apply lpost_log, lpost_quiet; intros p; apply lpost_ret; [constructor|]. rewrite Ha. constructor. }
  destruct (N.eqb_spec ty kTls13Handshake) as [Hh|Hh].
  { apply lpost_quiet. intros [h' r]. eapply lpost_bind; [apply handle_lines|]. intros [y st'] l H.
    destruct (negb (is_ok st')) eqn:E'.
    - apply not_ok in E'. apply lpost_log, lpost_ret.
      destruct H as [[K _]|[(_ & -> & _)|[(-> & ->)|(K & _)]]]; try congruence; constructor. exact E'.
    - apply ok_ok in E'. subst st'. apply lpost_ret. rewrite app_nil_r.
      destruct H as [[_ K]|[(K & _)|[(K & _)|(_ & -> & _)]]]; try congruence; constructor; [exact K|]. left. reflexivity. }
  destruct (N.eqb_spec ty kTls13ApplicationData) as [Hd|Hd].
  { destruct (cx_expecting _); [apply lpost_log, lpost_ret; constructor|].
    apply lpost_bind with (Q1 := fun _ l => calm_lines l).
    - destruct (cx_phase _); [apply lpost_ret; left; reflexivity| |apply lpost_ret; left; reflexivity].
      eapply lpost_bind; [apply send_lines|]. intros z l K. apply lpost_ret. rewrite app_nil_r. exact K.
    - intros z l K. apply lpost_ret. rewrite app_nil_r. constructor. exact K. }
  apply lpost_log, lpost_quiet. intros p. apply lpost_ret.
  constructor; [|exact Ha|exact Hh|exact Hd].
  clear - Esc. revert Esc. generalize (rev (takeN n (iov_data pt'))) as q. induction q as [|c r IH]; [discriminate|].
  cbn [scan_type]. destruct (N.eqb_spec c 0) as [->|K]; [exact IH|]. intros E. injection E as <- _. exact K.
Qed.

(* The crypter: every state, every call. *)
Lemma U77crypt : forall P lib x op fs x' res ls, lstep P lib x op fs = Done (x', res, ls) ->
  match res with
  | CProtected st _ _ => protect_log st ls
  | CUnprotected st _ _ => unprotect_log st ls
  | CUpdated _ => ls = []
  end.
Proof.
  intros P lib x [t pt buf|hdr payload buf|] fs x' res ls E; unfold lstep in E.
  - destruct (crypt_protect_l _ _ _ _ _ fs) as [[[[[y [st n]] o] l] fs']|u|] eqn:K; try discriminate. injection E as _ <- <-.
    exact (protect_lines _ _ _ _ _ _ _ _ _ K).
  - destruct (crypt_unprotect_l _ _ _ _ _ _ fs) as [[[[[y [st n]] o] l] fs']|u|] eqn:K; try discriminate. injection E as _ <- <-.
    exact (unprotect_lines _ _ _ _ _ _ _ _ _ _ K).
  - unfold crypt_update_outbound_key_l, quiet, bind, lret, ret in E.
    destruct (crypt_update_outbound_key P lib x fs) as [[[y st] f]|u|]; try discriminate. injection E as _ <- <-. reflexivity.
Qed.

Lemma protect_log_ne : forall st ls, protect_log st ls -> (st <> S_OK <-> ls <> []).
Proof. intros st ls []; split; try congruence; try discriminate. intros _. destruct c; try congruence; discriminate. Qed.
Lemma unprotect_log_ne : forall st ls, unprotect_log st ls -> st <> S_OK -> ls <> [].
Proof. intros st ls []; congruence. Qed.

Lemma U77logged : forall P lib x op fs x' res ls, lstep P lib x op fs = Done (x', res, ls) ->
  op <> CUpdateKey -> cres_failed res -> ls <> [].
Proof.
  intros P lib x op fs x' res ls E Ho Hf. pose proof (U77crypt _ _ _ _ _ _ _ _ E) as H.
  destruct res as [st n o|st n o|st].
  - exact (proj1 (protect_log_ne _ _ H) Hf).
  - exact (unprotect_log_ne _ _ H Hf).
  - exfalso. apply Ho. destruct op as [? ? ?|? ? ?|]; [| |reflexivity]; unfold lstep in E.
    + destruct (crypt_protect_l _ _ _ _ _ fs) as [[[[[? [? ?]] ?] ?] ?]|?|]; discriminate.
    + destruct (crypt_unprotect_l _ _ _ _ _ _ fs) as [[[[[? [? ?]] ?] ?] ?]|?|]; discriminate.
Qed.

(* The frame protector. *)
Lemma loop_lines : forall fuel P f c remaining first out index id,
  lpost (protect_loop_l fuel P f c remaining first out index id) (fun '(_, st, _) ls => fprotect_log st ls).
Proof.
  induction fuel as [|fuel IH]; intros; cbn [protect_loop_l];
    (destruct (negb _); [apply lpost_ret; constructor|]); [intros fs a l fs' E; discriminate|].
  cbn zeta. apply lpost_quiet. intros [chunk c'].
  eapply lpost_bind; [apply protect_lines|]. intros [[x [st w]] tail] l H.
  destruct st.
  2-13: try solve [apply lpost_log, lpost_ret; apply FplFail; [discriminate|exact H]].
  assert (l = []) as -> by (destruct l; [reflexivity|]; exfalso; apply (proj2 (protect_log_ne _ _ H)); [discriminate|reflexivity]).
  cbn [app]. apply lpost_quiet. intros o. destruct (negb _); [apply lpost_log, lpost_ret; constructor|]. apply IH.
Qed.

Lemma header_code : forall k hdr c e, read_header k hdr c = Done (inl e) -> e <> kOk.
Proof.
  induction k as [|k IH]; intros hdr c e E; cbn [read_header] in E; [discriminate|].
  destruct (read_byte c) as [[[b c']|]|u|]; cbn [obind] in E; try discriminate; [|congruence].
  cbn zeta in E. destruct (match length hdr with O => _ | _ => _ end); [congruence|]. exact (IH _ _ _ E).
Qed.
Lemma isolate_code : forall vs on need e, isolate_payload vs on need = Done (inl e) -> e <> kOk.
Proof.
  induction vs as [|v vs IH]; intros on need e E; cbn [isolate_payload] in E; (destruct (need =? 0); [discriminate|]); [congruence|].
  cbn zeta in E. destruct (iov_slice v on _) as [p|u|]; cbn [obind] in E; try discriminate.
  destruct (_ =? _); [|discriminate].
  destruct (isolate_payload vs 0 _) as [[e'|[ps c]]|u|] eqn:K; cbn [obind] in E; try discriminate. injection E as <-. exact (IH _ _ _ K).
Qed.

(* A quiet step whose result is known. *)
Lemma lpost_lift : forall A B (o : outcome A) (k : A -> LM B) Q, (forall a, o = Done a -> lpost (k a) Q) -> lpost (lbind (quiet (lift o)) k) Q.
Proof.
  intros A B o k Q H fs b l fs' E. unfold lbind, quiet, bind, lift, lret, ret in E.
  destruct o as [a|u|]; try discriminate. cbn [fst snd] in E.
  destruct (k a fs) as [[[b2 l2] f2]|u|] eqn:Ek; try discriminate. cbn [fst snd app] in E. injection E as <- <- <-.
  exact (H a eq_refl _ _ _ _ Ek).
Qed.

Lemma calm_forall : forall ls, calm_lines ls -> Forall ticket_line ls.
Proof. intros ls [->|(l & -> & H)]; constructor; [exact H|constructor]. Qed.

Lemma uloop_lines : forall fuel P lib al f c remaining acc ts, Forall ticket_line ts ->
  lpost (unprotect_loop_l fuel P lib al f c remaining acc) (fun '(_, st, _) ls => funprotect_log st (ts ++ ls)).
Proof.
  induction fuel as [|fuel IH]; intros P lib al f c remaining acc ts Ht; cbn [unprotect_loop_l];
    (apply lpost_quiet; intros o; destruct (_ <? _); [apply lpost_ret; rewrite app_nil_r; constructor; exact Ht|]).
  { intros fs a l fs' E. discriminate. }
  apply lpost_lift. intros [st|[hdr [vs on]]] E1.
  { apply lpost_log, lpost_ret. apply FulSize; [exact Ht|]. exact (header_code _ _ _ _ E1). }
  cbn zeta. apply lpost_lift. intros [st|[payload c']] E2.
  { apply lpost_log, lpost_ret. apply FulIsolate; [exact Ht|]. exact (isolate_code _ _ _ _ E2). }
  destruct (fp_alloc al f (header_payload_size hdr)) as [[f1 id] mem].
  eapply lpost_bind; [apply unprotect_lines|]. intros [[x [st w]] m] l H. cbn zeta.
  destruct st.
  2-13: try solve [apply lpost_log, lpost_ret; apply FulRecord; [exact Ht|discriminate|exact H]].
  assert (K : Forall ticket_line (ts ++ l)).
  { apply Forall_app. split; [exact Ht|]. inversion H; subst; try (exfalso; destruct c0; congruence). apply calm_forall. assumption. }
  intros fs a l2 fs' E. pose proof (IH _ _ _ _ _ _ _ _ K _ _ _ _ E) as Q. destruct a as [[? ?] ?]. rewrite app_assoc. exact Q.
Qed.

Lemma into_lines : forall P f input id buf,
  lpost (fp_protect_into_l P f input id (IoBuf buf)) (fun '(_, st, _) ls => fprotect_log st ls).
Proof.
  intros. unfold fp_protect_into_l. cbn zeta. eapply lpost_bind; [apply loop_lines|]. intros [[f' st] b] l H.
  apply lpost_ret. rewrite app_nil_r. exact H.
Qed.

(* A null output buffer, whatever its length: refused, and logged twice. *)
Lemma protect_lines_null : forall P x t pt n,
  lpost (crypt_protect_l P x t pt (IoNull n)) (fun '(_, (st, _), _) ls => st <> S_OK /\ protect_log st ls).
Proof.
  intros. unfold crypt_protect_l. cbn zeta.
  destruct (_ <? _); [apply lpost_log, lpost_ret; split; [discriminate|constructor]|]. apply lpost_quiet. intros o.
  destruct (_ <? _); [apply lpost_log, lpost_ret; split; [discriminate|constructor]|]. apply lpost_quiet. intros tag.
  apply lpost_log, lpost_ret. split; [discriminate|constructor].
Qed.
Lemma U77null : forall P f input id n fs f' st out ls fs',
  fp_protect_into_l P f input id (IoNull n) fs = Done ((f', st, out, ls), fs') ->
  exists s l, s <> S_OK /\ st = fp_code s /\ protect_log s l /\ ls = l ++ [LProtect s].
Proof.
  intros P f input id n fs f' st out ls fs' E.
  refine ((_ : lpost (fp_protect_into_l P f input id (IoNull n)) (fun '(_, st, _) ls => exists s l, s <> S_OK /\ st = fp_code s /\ protect_log s l /\ ls = l ++ [LProtect s])) _ _ _ _ E).
  unfold fp_protect_into_l. cbn zeta. apply lpost_quiet. intros [chunk c]. eapply lpost_bind; [apply protect_lines_null|].
  intros [[x [s m]] o] l [H1 H2]. apply lpost_log, lpost_ret. exists s, l. auto.
Qed.

(* One operation of a frame protector whose allocator returns no null
   pointers. *)
Lemma U77frame : forall P lib al f op fs f' res ls, alloc_ok al -> flstep P lib al f op fs = Done (f', res, ls) ->
  match op, res with
  | FProtect _, FProtected st _ => fprotect_log st ls
  | FProtectInto _ _ _, FProtectedInto st _ => fprotect_log st ls
  | FUnprotect input, FUnprotected st _ =>
    funprotect_log st ls \/
    (st = kFailedPrecondition /\ ls = [] /\ exists o, record_overhead (fp_crypt f) = Done o /\ total_len input < o)
  | FUnprotectInto input _, FUnprotectedInto st _ _ =>
    funprotect1_log st ls \/ (st = kFailedPrecondition /\ ls = [] /\ number_bytes_to_unprotect f (total_len input) = Done 0)
  | _, _ => False
  end.
Proof.
  intros P lib al f op fs f' res ls Hal E. destruct op as [input|input id buf|input|input buf]; unfold flstep in E.
  - destruct (fp_protect_l _ _ _ _ fs) as [[[[[y st] o] l] fs']|u|] eqn:K; try discriminate. injection E as _ <- <-.
    revert K. unfold fp_protect_l. intros K.
    refine ((_ : lpost _ (fun '(_, st, _) ls => fprotect_log st ls)) _ _ _ _ K).
    apply lpost_quiet. intros size. unfold fp_alloc. destruct (Hal (fp_next f) size) as (d & Ed & _). rewrite Ed.
    eapply lpost_bind; [apply into_lines|]. intros [[f1 s] b] l1 H. destruct (negb (is_ok s)) eqn:Es; apply lpost_ret; rewrite app_nil_r.
    + exact H.
    + apply ok_ok in Es. subst s. exact H.
  - destruct (fp_protect_into_l _ _ _ _ _ fs) as [[[[[y st] o] l] fs']|u|] eqn:K; try discriminate. injection E as _ <- <-.
    exact (into_lines _ _ _ _ _ _ _ _ _ K).
  - destruct (fp_unprotect_l _ _ _ _ _ fs) as [[[[[y st] o] l] fs']|u|] eqn:K; try discriminate. injection E as _ <- <-.
    revert K. unfold fp_unprotect_l. cbn zeta. intros K.
    refine ((_ : lpost _ (fun '(_, st, _) ls => funprotect_log st ls \/
      (st = kFailedPrecondition /\ ls = [] /\ exists o, record_overhead (fp_crypt f) = Done o /\ total_len input < o))) _ _ _ _ K).
    apply lpost_lift. intros ov Ho. destruct (N.ltb_spec (total_len input) ov) as [Hl|Hl].
    + apply lpost_ret. right. eauto.
    + intros fa a la fb Ea. pose proof (uloop_lines _ _ _ _ _ _ _ _ [] (Forall_nil _) _ _ _ _ Ea) as Q.
      destruct a as [[? ?] ?]. left. exact Q.
  - destruct (fp_unprotect_into_l _ _ _ _ _ fs) as [[[[[[y st] o] n] l] fs']|u|] eqn:K; try discriminate. injection E as _ <- <-.
    revert K. unfold fp_unprotect_into_l. intros K.
    refine ((_ : lpost _ (fun '(_, st, _, _) ls => funprotect1_log st ls \/
      (st = kFailedPrecondition /\ ls = [] /\ number_bytes_to_unprotect f (total_len input) = Done 0))) _ _ _ _ K).
    apply lpost_lift. intros m Hm. destruct (N.eqb_spec m 0) as [->|Hz]; [apply lpost_ret; auto|].
    apply lpost_lift. intros [c|[hdr [vs on]]] E1.
    { apply lpost_log, lpost_ret. left. apply Fu1Size. exact (header_code _ _ _ _ E1). }
    apply lpost_lift. intros [c|[payload c']] E2.
    { apply lpost_log, lpost_ret. left. apply Fu1Isolate. exact (isolate_code _ _ _ _ E2). }
    eapply lpost_bind; [apply unprotect_lines|]. intros [[x [s w]] b] l1 H. cbn zeta. destruct s.
    2-13: try solve [apply lpost_log, lpost_ret; left; apply Fu1Record; [discriminate|exact H]].
    apply lpost_ret. rewrite app_nil_r. left. constructor. exact H.
Qed.
