(* Threads calling the methods of one object: what it means that a concurrent
   execution is explained by a sequential one. *)
From Coq Require Import List NArith Bool PeanoNat.
From Verif Require Import Base Aead Hkdf HalfConn Options HsHandler Crypter FrameProt HalfRun CrypterRun SpecTls SpecFrame Conc.
Import ListNotations.
Local Open Scope N_scope.

(* One call of a sequential execution: who made it, the call, its result. *)
Record entry (O R : Type) := { e_thread : nat; e_op : O; e_res : R }.
Arguments Build_entry {O R}.
Arguments e_thread {O R}.
Arguments e_op {O R}.
Arguments e_res {O R}.

Definition of_thread {O R} (i : nat) (l : list (entry O R)) : list (entry O R) :=
  filter (fun e => Nat.eqb (e_thread e) i) l.

(* The calls of a thread that have not returned yet. *)
Definition unfinished {S O Q R} (t : thread S O Q R) : list O :=
  match th_doing t with
  | Idle => th_todo t
  | Before o _ | Waiting o _ | Inside o _ => o :: th_todo t
  end.

(* The calls of [l], made one after another on [s0] in this order (by [run]),
   explain the configuration [c] of threads that were given the calls [calls]:
   every thread has made its calls in its own order and has got the results of
   [l]; and the object is in the state after [l], unless a thread is inside a
   method at this moment. *)
Definition explains {S O Q R} (run : S -> list O -> outcome (S * list R)) (s0 : S)
  (calls : list (list O)) (c : config S O Q R) (l : list (entry O R)) : Prop :=
  (exists s1, run s0 (map e_op l) = Done (s1, map e_res l) /\
     (cf_owner c = None -> cf_mem c = s1)) /\
  length (cf_threads c) = length calls /\
  (forall e, In e l -> (e_thread e < length calls)%nat) /\
  forall i t, nth_error (cf_threads c) i = Some t ->
    th_done t = map e_res (of_thread i l) /\
    nth_error calls i = Some (map e_op (of_thread i l) ++ unfinished t).

(* All calls have returned. *)
Definition finished {S O Q R} (c : config S O Q R) : Prop :=
  Forall (fun t => unfinished t = []) (cf_threads c).

(* Calls one after another, given one of them. *)
Fixpoint seq_run {S O R} (step : S -> O -> outcome (S * R)) (s : S) (os : list O)
  : outcome (S * list R) :=
  match os with
  | [] => Done (s, [])
  | o :: os => obind (step s o) (fun '(s, r) =>
               obind (seq_run step s os) (fun '(s, rs) => Done (s, r :: rs)))
  end.

(* ---- half connections: mu_ ---- *)
Definition h_pre (o : hop * faults) : prog half (hop * faults) := Ret o.
Definition h_body (P : prims) (lib : ssl_lib) (o : hop * faults) : prog half hres :=
  match fst o with
  | HEncrypt aad pt out =>
    pbind (encrypt_body P aad pt (IoBuf out) (snd o))
      (fun '((st, n, out), _) => Ret (HCrypt st n out))
  | HDecrypt aad ct out =>
    pbind (decrypt_body P aad ct (IoBuf out) (snd o))
      (fun '((st, n, out), _) => Ret (HCrypt st n out))
  | HUpdateKey =>
    pbind (update_body P lib (snd o)) (fun '(st, _) => Ret (HUpdated st))
  end.

(* No pair of key and nonce is used twice, and the nonces used with key number
   e are those of the sequence numbers from [key_start q e] on, in order and
   without gaps. *)
Definition in_order (P : prims) (s : suite) (q : N) (S : bytes) (h : half) : Prop :=
  NoDup (hc_used h) /\
  forall e, nonces h e =
    map (fun i => record_nonce (traffic_iv P s (nth_secret P s S (N.to_nat e)))
                    (key_start q e + N.of_nat i)) (seq 0 (length (nonces h e))).

Definition h_threads := config half (hop * faults) (hop * faults) hres.

(* ---- S2ACrypter::Protect and UpdateOutboundKey: mu_ of out_connection_.
   A Protect that fails before its call of Encrypt takes no lock in the code;
   here it takes it for nothing. ---- *)
Inductive xop :=
| XProtect (t : record_type) (pt : list iovec) (buf : bytes)
| XUpdateOutboundKey.
Definition as_cop (o : xop) : cop :=
  match o with
  | XProtect t pt buf => CProtect t pt buf
  | XUpdateOutboundKey => CUpdateKey
  end.
Definition xreq := ((sstatus + bytes) * (xop * faults))%type.

Definition x_pre (o : xop * faults) : prog crypt xreq :=
  match fst o with
  | XProtect _ pt buf =>
    pbind (protect_checks (total_len pt) (IoBuf buf) (snd o)) (fun '(r, fs) => Ret (r, (fst o, fs)))
  | XUpdateOutboundKey => Ret (inr [], o)
  end.
Definition x_body (P : prims) (lib : ssl_lib) (q : xreq) : prog crypt cres :=
  match q with
  | (r, (XProtect t pt buf, fs)) =>
    match r with
    | inl st => Ret (CProtected (fst st) (snd st) (IoBuf buf))
    | inr hdr =>
      pbind (protect_payload P t pt hdr buf fs)
        (fun '((st, n, out), _) => Ret (CProtected st n out))
    end
  | (_, (XUpdateOutboundKey, fs)) =>
    Step (fun x => obind (crypt_update_outbound_key P lib x fs) (fun '((x, st), _) => Done (x, st)))
      (fun st => Ret (CUpdated st))
  end.

(* The same calls made one after another. *)
Definition x_run (P : prims) (lib : ssl_lib) (x : crypt) (os : list (xop * faults))
  : outcome (crypt * list cres) :=
  crun P lib x (map (fun o => (as_cop (fst o), snd o)) os).
(* Protect calls. *)
Definition x_ok (o : xop * faults) : Prop :=
  exists t pt buf, fst o = XProtect t pt buf /\ sum_lens pt < two64.
Definition x_threads := config crypt (xop * faults) xreq cres.

(* ---- S2AFrameProtector::Protect: protect_mu_. A call: the bytes, and the name
   the allocator gives to its buffer. ---- *)
Record fcall := { fc_input : list iovec; fc_id : N; fc_faults : faults }.
Record freq := { fr_heap : heap; fr_out : iovec; fr_call : fcall }.
Definition fresult := (code * list fbuf * list event)%type.

Definition f_pre (al : allocator) (o : fcall) : prog crypt freq :=
  pbind (number_bytes_c (total_len (fc_input o)) (fc_faults o)) (fun '(size, fs) =>
    let '(m, id, out) := hp_alloc al {| hp_next := fc_id o; hp_events := [] |} size in
    Ret {| fr_heap := m; fr_out := out;
           fr_call := {| fc_input := fc_input o; fc_id := id; fc_faults := fs |} |}).
Definition f_body (P : prims) (q : freq) : prog crypt fresult :=
  pbind (fp_protect_into_c P (fr_heap q) (fc_input (fr_call q)) (fc_id (fr_call q)) (fr_out q)
           (fc_faults (fr_call q)))
    (fun '(r, _) => let '(m, st, bs) := finish_protect (fc_id (fr_call q)) r in
                    Ret (st, bs, hp_events m)).

Definition f_step (P : prims) (al : allocator) (mx : N) (x : crypt) (o : fcall)
  : outcome (crypt * fresult) :=
  obind (fp_protect P al {| fp_crypt := x; fp_max := mx; fp_next := fc_id o; fp_events := [] |}
           (fc_input o) (fc_faults o))
    (fun '((f, st, bs), _) => Done (fp_crypt f, (st, bs, fp_events f))).
Definition f_ok (o : fcall) : Prop := protected_size (sum_lens (fc_input o)) < two64.
Definition f_threads := config crypt fcall freq fresult.
