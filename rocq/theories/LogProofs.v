(* The functions of Log.v without the log are those of Crypter.v and
   FrameProt.v. *)
From Coq Require Import List NArith Bool.
From Verif Require Import Base Aead Hkdf HalfConn Options HsHandler Crypter FrameProt SpecTls SpecHs SpecRecord SpecRx CrypterRun
  SpecFrame FrameRun Log LogRun.
Import ListNotations.
Local Open Scope N_scope.

(* [m] does what [n] does, and logs. *)
Definition logs {A} (m : LM A) (n : M A) : Prop :=
  forall fs, match m fs with
             | Done ((a, _), fs') => n fs = Done (a, fs')
             | Undef u => n fs = Undef u
             | NoFuel => n fs = NoFuel
             end.

Lemma logs_ret : forall A (a : A), logs (lret a) (ret a).
Proof. intros A a fs. reflexivity. Qed.
Lemma logs_quiet : forall A (m : M A), logs (quiet m) m.
Proof. intros A m fs. unfold quiet, bind, lret, ret. destruct (m fs) as [[a fs']|u|]; reflexivity. Qed.
Lemma logs_bind : forall A B (m : LM A) (n : M A) (k : A -> LM B) (l : A -> M B),
  logs m n -> (forall a, logs (k a) (l a)) -> logs (lbind m k) (bind n l).
Proof.
  intros A B m n k l H K fs. specialize (H fs). unfold lbind, bind, ret.
  destruct (m fs) as [[[a la] fs']|u|]; rewrite H; [|reflexivity..]. cbn [fst snd].
  specialize (K a fs'). destruct (k a fs') as [[[b lb] fs2]|u|]; cbn [fst snd]; exact K.
Qed.
Lemma logs_log : forall B l (k : unit -> LM B) n, logs (k tt) n -> logs (lbind (log l) k) n.
Proof.
  intros B l k n H fs. specialize (H fs). unfold lbind, bind, log, ret. cbn [fst snd].
  destruct (k tt fs) as [[[b lb] fs2]|u|]; cbn [fst snd]; exact H.
Qed.

Ltac logs_step :=
  match goal with
  | |- logs (lret _) (ret _) => apply logs_ret
  | |- logs (quiet _) _ => apply logs_quiet
  | |- logs (lbind (log _) _) _ => apply logs_log
  | |- logs (lbind _ _) (bind _ _) => apply logs_bind; [|intros]
  | |- logs (fun _ => NoFuel) (fun _ => NoFuel) => intros ?; reflexivity
  | |- logs (if ?b then _ else _) (if ?b then _ else _) => destruct b
  | |- logs (let '(_, _) := ?p in _) _ => destruct p
  | |- logs (match ?p with _ => _ end) (match ?p with _ => _ end) => destruct p
  end.
Ltac logs_tac := repeat (cbn zeta; logs_step).

Lemma protect_logs : forall P x t pt record, logs (crypt_protect_l P x t pt record) (crypt_protect P x t pt record).
Proof. intros. unfold crypt_protect_l, crypt_protect. logs_tac. Qed.

Lemma send_logs : forall x, logs (send_tickets_l x) (lift (send_tickets x)).
Proof.
  intros x fs. unfold send_tickets_l, send_tickets, lbind, quiet, bind, lift.
  destruct (get_stored_tickets (cx_handler x)) as [[h [st|ts]]|u|]; reflexivity.
Qed.

Lemma handle_logs : forall P lib x r, logs (handle_result_l P lib x r) (handle_result P lib x r).
Proof.
  intros P lib x [st|r]; [apply logs_ret|]. unfold handle_result_l, handle_result. cbn zeta.
  apply logs_bind; [destruct (r_key_update r); logs_tac|]. intros [y failed].
  destruct failed; [logs_tac|]. destruct (cx_phase y).
  - destruct (_ && _); [|apply logs_ret]. apply logs_bind; [apply send_logs|]. intros. apply logs_ret.
  - destruct (_ && _); [|apply logs_ret]. apply logs_bind; [apply send_logs|]. intros. apply logs_ret.
  - destruct (r_ticket r); [apply logs_log|]; apply logs_ret.
Qed.

Lemma unprotect_logs : forall P lib x hdr payload pt,
  logs (crypt_unprotect_l P lib x hdr payload pt) (crypt_unprotect P lib x hdr payload pt).
Proof.
  intros. unfold crypt_unprotect_l, crypt_unprotect.
  destruct (cx_close x); [logs_tac|]. cbn zeta. apply logs_bind; [apply logs_quiet|]. intros o.
  destruct (_ <? _); [logs_tac|]. destruct (_ <? _); [logs_tac|]. destruct (negb _); [logs_tac|].
  apply logs_bind; [apply logs_quiet|]. intros [[h [st n]] pt']. cbn zeta. destruct (negb (is_ok st)); [logs_tac|].
  destruct (scan_type _) as [[ty content]|]; [|logs_tac].
  destruct (ty =? kTls13Alert).
  { destruct content as [|b [|d c]]; [logs_tac..|].
    destruct (d =? kTlsAlertCloseNotify); logs_tac. }
  destruct (ty =? kTls13Handshake).
  { apply logs_bind; [apply logs_quiet|]. intros [h' r]. apply logs_bind; [apply handle_logs|]. intros [y st']. logs_tac. }
  destruct (ty =? kTls13ApplicationData); [|logs_tac].
  cbn [cx_expecting set_in cx_phase]. destruct (cx_expecting x); [logs_tac|].
  apply logs_bind; [|intros; apply logs_ret].
  destruct (cx_phase x).
  - intros fs. reflexivity.
  - intros fs. pose proof (send_logs (set_in x h) fs) as H. unfold lbind, bind, lift, lret, ret in *.
    destruct (send_tickets_l (set_in x h) fs) as [[[y l] fs']|u|]; cbn [fst snd];
      destruct (send_tickets (set_in x h)) as [z|v|]; cbn [obind]; congruence.
  - intros fs. reflexivity.
Qed.

Lemma loop_logs : forall fuel P f c remaining first out index id,
  logs (protect_loop_l fuel P f c remaining first out index id) (protect_loop fuel P f c remaining first out index id).
Proof.
  induction fuel as [|fuel IH]; intros; cbn [protect_loop_l protect_loop];
    (destruct (negb _); [apply logs_ret|]); [intros fs; reflexivity|].
  cbn zeta. apply logs_bind; [apply logs_quiet|]. intros [chunk c'].
  apply logs_bind; [apply protect_logs|]. intros [[x [st w]] tail].
  destruct st; try solve [logs_tac]. apply logs_bind; [apply logs_quiet|]. intros o.
  destruct (negb _); [logs_tac|]. apply IH.
Qed.

Lemma into_logs : forall P f input id out, logs (fp_protect_into_l P f input id out) (fp_protect_into P f input id out).
Proof.
  intros. unfold fp_protect_into_l, fp_protect_into. cbn zeta. destruct out as [buf|n].
  - apply logs_bind; [apply loop_logs|]. intros [[f' st] b]. apply logs_ret.
  - apply logs_bind; [apply logs_quiet|]. intros [chunk c]. apply logs_bind; [apply protect_logs|]. intros [[x [st w]] o]. logs_tac.
Qed.

Lemma fprotect_logs : forall P al f input, logs (fp_protect_l P al f input) (fp_protect P al f input).
Proof.
  intros. unfold fp_protect_l, fp_protect. apply logs_bind; [apply logs_quiet|]. intros size.
  destruct (fp_alloc al f size) as [[f1 id] out]. apply logs_bind; [apply into_logs|]. intros [[f' st] b]. logs_tac.
Qed.

Lemma funprotect_into_logs : forall P lib f input out,
  logs (fp_unprotect_into_l P lib f input out) (fp_unprotect_into P lib f input out).
Proof.
  intros. unfold fp_unprotect_into_l, fp_unprotect_into. apply logs_bind; [apply logs_quiet|]. intros n.
  destruct (n =? 0); [apply logs_ret|]. apply logs_bind; [apply logs_quiet|]. intros [st|[hdr [vs on]]]; [logs_tac|].
  apply logs_bind; [apply logs_quiet|]. intros [st|[payload c]]; [logs_tac|].
  apply logs_bind; [apply unprotect_logs|]. intros [[x [st w]] o]. cbn zeta. destruct st; logs_tac.
Qed.

Lemma uloop_logs : forall fuel P lib al f c remaining acc,
  logs (unprotect_loop_l fuel P lib al f c remaining acc) (unprotect_loop fuel P lib al f c remaining acc).
Proof.
  induction fuel as [|fuel IH]; intros; cbn [unprotect_loop_l unprotect_loop];
    (apply logs_bind; [apply logs_quiet|]; intros o; destruct (_ <? _); [apply logs_ret|]); [intros fs; reflexivity|].
  apply logs_bind; [apply logs_quiet|]. intros [st|[hdr [vs on]]]; [logs_tac|]. cbn zeta.
  apply logs_bind; [apply logs_quiet|]. intros [st|[payload c']]; [logs_tac|].
  destruct (fp_alloc al f (header_payload_size hdr)) as [[f1 id] mem].
  apply logs_bind; [apply unprotect_logs|]. intros [[x [st w]] m]. cbn zeta. destruct st; try solve [logs_tac]. apply IH.
Qed.

Lemma funprotect_logs : forall P lib al f input, logs (fp_unprotect_l P lib al f input) (fp_unprotect P lib al f input).
Proof.
  intros. unfold fp_unprotect_l, fp_unprotect. cbn zeta. apply logs_bind; [apply logs_quiet|]. intros o.
  destruct (_ <? _); [apply logs_ret|]. apply uloop_logs.
Qed.

(* One operation. *)
Definition drop_log {A B C} (o : outcome (A * B * C)) : outcome (A * B) := obind o (fun p => Done (fst p)).

Lemma lstep_cstep : forall P lib x op fs, drop_log (lstep P lib x op fs) = cstep P lib x op fs.
Proof.
  intros P lib x [t pt buf|hdr payload buf|] fs; unfold lstep, cstep, drop_log.
  - pose proof (protect_logs P x t pt (IoBuf buf) fs) as H.
    destruct (crypt_protect_l _ _ _ _ _ fs) as [[[[[y [st n]] o] l] fs']|u|]; rewrite H; reflexivity.
  - pose proof (unprotect_logs P lib x (IoBuf hdr) payload (IoBuf buf) fs) as H.
    destruct (crypt_unprotect_l _ _ _ _ _ _ fs) as [[[[[y [st n]] o] l] fs']|u|]; rewrite H; reflexivity.
  - pose proof (logs_quiet _ (crypt_update_outbound_key P lib x) fs) as H. unfold crypt_update_outbound_key_l.
    destruct (quiet _ fs) as [[[[y st] l] fs']|u|]; rewrite H; reflexivity.
Qed.

Lemma flstep_fstep : forall P lib al f op fs, drop_log (flstep P lib al f op fs) = fstep P lib al f op fs.
Proof.
  intros P lib al f [input|input id buf|input|input buf] fs; unfold flstep, fstep, drop_log.
  - pose proof (fprotect_logs P al f input fs) as H.
    destruct (fp_protect_l _ _ _ _ fs) as [[[[[y st] o] l] fs']|u|]; rewrite H; reflexivity.
  - pose proof (into_logs P f input id (IoBuf buf) fs) as H.
    destruct (fp_protect_into_l _ _ _ _ _ fs) as [[[[[y st] o] l] fs']|u|]; rewrite H; reflexivity.
  - pose proof (funprotect_logs P lib al f input fs) as H.
    destruct (fp_unprotect_l _ _ _ _ _ fs) as [[[[[y st] o] l] fs']|u|]; rewrite H; reflexivity.
  - pose proof (funprotect_into_logs P lib f input (IoBuf buf) fs) as H.
    destruct (fp_unprotect_into_l _ _ _ _ _ fs) as [[[[[[y st] o] n] l] fs']|u|]; rewrite H; reflexivity.
Qed.
