(* C98: the error queue of the SSL library. *)
From Coq Require Import List NArith Bool.
From Verif Require Import Base Aead Hkdf HalfConn SpecAead SpecTls HalfRun ErrQueue SpecErr ErrQueueSame ErrQueueProofs Toy ErrQueueCases ErrQueueEvery.
Import ListNotations.
Local Open Scope N_scope.

(* [tstep] is one call that a thread makes on a half connection, [q] its error
   queue before the call. With the queue left out, these are the functions all
   other properties are about. *)
Theorem C98_queue_changes_nothing : forall P lib hs q i h op fs next, nth_error hs i = Some h ->
  match tstep P lib hs q (TUse i op) fs next with
  | Done (hs', s) => exists h' r, hstep P lib h op fs = Done (h', r) /\ hs' = put hs i h' /\ s_code s = res_code r
  | Undef u => hstep P lib h op fs = Undef u
  | NoFuel => hstep P lib h op fs = NoFuel
  end.
Proof. exact queue_use. Qed.
Print Assumptions C98_queue_changes_nothing.

Theorem C98_queue_changes_nothing_in_create : forall P lib hs q s sequence secret fs next,
  match tstep P lib hs q (TCreate s sequence secret) fs next with
  | Done (hs', x) =>
    exists r fs', half_create P lib s sequence secret fs = Done (r, fs') /\
    match r with inl st => hs' = hs /\ s_code x = st | inr h => hs' = hs ++ [h] /\ s_code x = kOk end
  | Undef u => half_create P lib s sequence secret fs = Undef u
  | NoFuel => half_create P lib s sequence secret fs = NoFuel
  end.
Proof. exact queue_create. Qed.
Print Assumptions C98_queue_changes_nothing_in_create.

(* Every call, whatever the state, the queue and the failures: a call that
   succeeds neither raises errors nor touches the queue. Any other call either
   reports its errors, after those that were waiting, and leaves an empty queue,
   or reports nothing and leaves its errors behind. Encrypt and Decrypt never
   leave errors behind. *)
Theorem C98_each_call : forall P lib hs q op fs next hs' s, tstep P lib hs q op fs next = Done (hs', s) ->
  (s_code s = kOk -> s_text s = [] /\ s_raised s = [] /\ s_queue s = q) /\
  (reported q s \/ left_behind q s) /\
  (derives_keys op = false -> reported q s \/ (s_text s = [] /\ s_raised s = [] /\ s_queue s = q)).
Proof. exact each_call. Qed.
Print Assumptions C98_each_call.

(* Of the two steps of Create and UpdateKey, the creation of the crypter leaves
   no errors behind; the key derivation is the one that does (below). *)
Theorem C98_crypter_creation_reports : forall lib s key q next fs r e fs',
  create_crypter_q lib s key {| e_queue := q; e_next := next; e_text := []; e_raised := [] |} fs = Done ((r, e), fs') ->
  match r with
  | inl st => reported q (see st e) \/ (e_text e = [] /\ e_raised e = [] /\ e_queue e = q)
  | inr _ => e_text e = [] /\ e_raised e = [] /\ e_queue e = q
  end.
Proof. exact creation_reports. Qed.
Print Assumptions C98_crypter_creation_reports.

(* C98 for all sequences of calls of a thread, on any number of half
   connections, in which no Create and no UpdateKey fails: every call reports
   exactly the errors it raised, and the queue is empty after every call. *)
Theorem C98_own_errors_partial : forall P lib ops hs hs' ss, trun P lib hs [] ops = Done (hs', ss) ->
  ~ Exists derivation_failed (combine (map (fun c => fst (fst c)) ops) ss) -> Forall own_errors ss.
Proof. exact all_own. Qed.
Print Assumptions C98_own_errors_partial.

(* An encryption that fails with two errors, and a tag that does not match. *)
Example C98_case : exists hs s0 s1 s2 s3, trun toy OpenSSL [] [] good_ops = Done (hs, [s0; s1; s2; s3]) /\
  ~ Exists derivation_failed (combine (map (fun c => fst (fst c)) good_ops) [s0; s1; s2; s3]) /\
  s_text s2 = [5; 6] /\ s_text s3 = [7].
Proof. exact good_case. Qed.

(* In every sequence of calls no error is lost, reported twice or out of order:
   the texts, followed by what is in the queue at the end, are the errors raised. *)
Theorem C98_nothing_lost : forall P lib ops hs q hs' ss, trun P lib hs q ops = Done (hs', ss) ->
  flat_map s_text ss ++ final_queue q ss = q ++ flat_map s_raised ss.
Proof. exact nothing_lost. Qed.
Print Assumptions C98_nothing_lost.

(* C98 fails: a key update fails, its error is not reported and stays in the
   queue; an encryption of another half connection then reports it as its own. *)
Theorem C98_stale_error_refuted : exists P lib ops hs s0 s1 s2 s3, trun P lib [] [] ops = Done (hs, [s0; s1; s2; s3]) /\
  map (fun c => derives_keys (fst (fst c))) ops = [true; true; true; false] /\
  s_code s0 = kOk /\ s_code s1 = kOk /\
  s_code s2 = kInternal /\ s_raised s2 = [1] /\ s_text s2 = [] /\ s_queue s2 = [1] /\
  s_code s3 = kInternal /\ s_raised s3 = [2] /\ s_text s3 = [1; 2] /\ s_queue s3 = [].
Proof. exact stale. Qed.
Print Assumptions C98_stale_error_refuted.

(* This can happen to every half connection, after any history: if the key
   derivation fails its errors stay, and the next Encrypt or Decrypt that fails
   in the library, on whatever half connection, reports them. *)
Theorem C98_deviation_on_every_half_connection : forall P lib s n secret ops rs h hs i q fs x next,
  prims_ok P -> n < two64 -> hops_ok ops -> hreach P lib s n secret ops rs h -> nth_error hs i = Some h ->
  exists hs' c, tstep P lib hs q (TUse i HUpdateKey) (true :: fs) (x :: next) = Done (hs', c) /\
    s_code c = kInternal /\ s_raised c = x /\ s_text c = [] /\ s_queue c = q ++ x /\
    forall op fs' next' hs'' c', tstep P lib hs' (s_queue c) op fs' next' = Done (hs'', c') ->
      derives_keys op = false -> s_raised c' <> [] -> s_text c' = q ++ x ++ s_raised c'.
Proof. exact update_misreported. Qed.
Print Assumptions C98_deviation_on_every_half_connection.

(* The same in Create. *)
Theorem C98_deviation_in_create : forall P lib hs q s sequence secret fs x next, lenN secret = suite_secret_size s ->
  exists c, tstep P lib hs q (TCreate s sequence secret) (true :: fs) (x :: next) = Done (hs, c) /\
    s_code c = kInternal /\ s_raised c = x /\ s_text c = [] /\ s_queue c = q ++ x.
Proof. exact create_misreported. Qed.
Print Assumptions C98_deviation_in_create.

(* Also a call in which no library call fails can take errors out of the queue
   and report them: Encrypt with an output buffer that is too small. *)
Theorem C98_waiting_errors_taken_refuted : exists P lib hs q op hs' s, tstep P lib hs q op [] [] = Done (hs', s) /\
  q = [9] /\ s_code s = kInvalidArgument /\ s_raised s = [] /\ s_text s = [9] /\ s_queue s = [].
Proof. exact eaten. Qed.
Print Assumptions C98_waiting_errors_taken_refuted.
