(* Threads that call Protect and Unprotect of one S2AFrameProtector, each
   thread any of them, with both mutexes. Model, and what it means that such an
   execution is explained by sequential ones. *)
From Coq Require Import List NArith Bool PeanoNat.
From Verif Require Import Base Aead Hkdf HalfConn Options HsHandler Crypter FrameProt SpecFrame FrameRun
  Conc ConcRun ConcRead.
Import ListNotations.
Local Open Scope N_scope.

(* ---- The three methods that take a mutex (s2a_frame_protector.h 154-157):
   Protect with allocation (s2a_frame_protector.cc 233-241), Protect into the
   caller's buffer (243-317), both with protect_mu_ (255), and Unprotect of
   several records (379-467) with unprotect_mu_ (392). [fc_id] is the name of
   the first buffer of the call, in the second case of the caller's buffer. ---- *)
Inductive mcall :=
| MProtect (o : fcall)
| MProtectInto (o : fcall) (buf : bytes)
| MUnprotect (o : fcall).
Inductive mreq :=
| QProtect (q : freq)
| QProtectInto (o : fcall) (buf : bytes)
| QUnprotect (q : rreq).
Inductive mresult :=
| MBuffers (r : fresult)
| MWritten (st : code) (out : iovec) (evs : list event).

(* Before the mutex: NumberBytesToProtect and the allocation (234); nothing that
   touches shared state (245-253); the comparison with RecordOverhead
   (380-385). *)
Definition m_pre (al : allocator) (o : mcall) : prog crypt mreq :=
  match o with
  | MProtect o => pbind (f_pre al o) (fun q => Ret (QProtect q))
  | MProtectInto o buf => Ret (QProtectInto o buf)
  | MUnprotect o => pbind (r_pre o) (fun q => Ret (QUnprotect q))
  end.
(* With the mutex. *)
Definition m_body (P : prims) (lib : ssl_lib) (al : allocator) (q : mreq) : prog crypt mresult :=
  match q with
  | QProtect q => pbind (f_body P q) (fun r => Ret (MBuffers r))
  | QProtectInto o buf =>
    pbind (fp_protect_into_c P {| hp_next := fc_id o; hp_events := [] |} (fc_input o) (fc_id o) (IoBuf buf) (fc_faults o))
      (fun '((m, st, out), _) => Ret (MWritten st out (hp_events m)))
  | QUnprotect q => pbind (r_body P lib al q) (fun r => Ret (MBuffers r))
  end.
(* Which mutex: protect_mu_ or unprotect_mu_. *)
Definition m_lock (o : mcall) : bool := match o with MUnprotect _ => false | _ => true end.

(* ---- Threads and two mutexes ---- *)
Record mconfig (S O Q R : Type) := {
  mc_mem : S;
  mc_writer : option nat;   (* the thread that holds protect_mu_ *)
  mc_reader : option nat;   (* the thread that holds unprotect_mu_ *)
  mc_threads : list (thread S O Q R)
}.
Arguments Build_mconfig {S O Q R}.
Arguments mc_mem {S O Q R}.
Arguments mc_writer {S O Q R}.
Arguments mc_reader {S O Q R}.
Arguments mc_threads {S O Q R}.

(* Thread number [i] makes a step. *)
Definition mstep {S O Q R} (lock : O -> bool) (pre : O -> prog S Q) (body : Q -> prog S R)
  (c : mconfig S O Q R) (i : nat) : outcome (mconfig S O Q R) :=
  match nth_error (mc_threads c) i with
  | None => Done c
  | Some t =>
    let put s w r t := Done (Build_mconfig s w r (set_nth i t (mc_threads c))) in
    match th_doing t with
    | Idle =>
      match th_todo t with
      | [] => Done c
      | o :: rest => put (mc_mem c) (mc_writer c) (mc_reader c) (Build_thread rest (Before o (pre o)) (th_done t))
      end
    | Before o (Ret q) =>
      put (mc_mem c) (mc_writer c) (mc_reader c) (Build_thread (th_todo t) (Waiting o q) (th_done t))
    | Before o (Step f k) =>
      obind (f (mc_mem c)) (fun '(s, b) =>
        put s (mc_writer c) (mc_reader c) (Build_thread (th_todo t) (Before o (k b)) (th_done t)))
    | Waiting o q =>
      let t' := Build_thread (th_todo t) (Inside o (body q)) (th_done t) in
      if lock o then
        match mc_writer c with Some _ => Done c | None => put (mc_mem c) (Some i) (mc_reader c) t' end
      else
        match mc_reader c with Some _ => Done c | None => put (mc_mem c) (mc_writer c) (Some i) t' end
    | Inside o (Ret r) =>
      let t' := Build_thread (th_todo t) Idle (th_done t ++ [r]) in
      if lock o then put (mc_mem c) None (mc_reader c) t' else put (mc_mem c) (mc_writer c) None t'
    | Inside o (Step f k) =>
      obind (f (mc_mem c)) (fun '(s, b) =>
        put s (mc_writer c) (mc_reader c) (Build_thread (th_todo t) (Inside o (k b)) (th_done t)))
    end
  end.

Fixpoint mrun {S O Q R} (lock : O -> bool) (pre : O -> prog S Q) (body : Q -> prog S R)
  (c : mconfig S O Q R) (sched : list nat) : outcome (mconfig S O Q R) :=
  match sched with
  | [] => Done c
  | i :: r => obind (mstep lock pre body c i) (fun c => mrun lock pre body c r)
  end.

(* Before the threads start: each has its list of calls. *)
Definition mstart {S O Q R} (s : S) (calls : list (list O)) : mconfig S O Q R :=
  Build_mconfig s None None (map (fun os => Build_thread os Idle []) calls).

Definition m_threads := mconfig crypt mcall mreq mresult.

(* ---- The same calls made alone. ---- *)
Definition m_step (P : prims) (lib : ssl_lib) (al : allocator) (mx : N) (x : crypt) (o : mcall)
  : outcome (crypt * mresult) :=
  match o with
  | MProtect o => obind (f_step P al mx x o) (fun '(x, r) => Done (x, MBuffers r))
  | MProtectInto o buf =>
    obind (fp_protect_into P {| fp_crypt := x; fp_max := mx; fp_next := fc_id o; fp_events := [] |}
             (fc_input o) (fc_id o) (IoBuf buf) (fc_faults o))
      (fun '((f, st, out), _) => Done (fp_crypt f, MWritten st out (fp_events f)))
  | MUnprotect o => obind (r_step P lib al mx x o) (fun '(x, r) => Done (x, MBuffers r))
  end.
(* The preconditions of fop_ok. *)
Definition m_ok (o : mcall) : Prop :=
  match o with
  | MProtect o | MProtectInto o _ => f_ok o
  | MUnprotect o => r_ok o
  end.

(* The calls of [l], made one after another on [s0] in this order (by [run]),
   explain the configuration [c] of threads that were given the calls [calls]
   (as in ConcRun.v; the object is in the state after [l] unless a thread holds
   one of the mutexes). *)
Definition m_explains {S O Q R} (run : S -> list O -> outcome (S * list R)) (s0 : S)
  (calls : list (list O)) (c : mconfig S O Q R) (l : list (entry O R)) : Prop :=
  (exists s1, run s0 (map e_op l) = Done (s1, map e_res l) /\
     (mc_writer c = None -> mc_reader c = None -> mc_mem c = s1)) /\
  length (mc_threads c) = length calls /\
  (forall e, In e l -> (e_thread e < length calls)%nat) /\
  forall i t, nth_error (mc_threads c) i = Some t ->
    th_done t = map e_res (of_thread i l) /\
    nth_error calls i = Some (map e_op (of_thread i l) ++ unfinished t).

(* All calls have returned. *)
Definition m_finished {S O Q R} (c : mconfig S O Q R) : Prop :=
  Forall (fun t => unfinished t = []) (mc_threads c).

(* What excuses the undefined behaviour [u] of threads that start with [x]:
   some of their calls, made one after another, have undefined behaviour
   themselves; or they install a new inbound key, and [u] is the use of a freed
   object. *)
Definition m_excused (P : prims) (lib : ssl_lib) (al : allocator) (mx : N) (x : crypt)
  (calls : list (list mcall)) (u : ub) : Prop :=
  exists ps, drawn calls ps /\
  match seq_run (m_step P lib al mx) x (map snd ps) with
  | Done (x', _) => u = UbUseAfterFree /\ hc_epoch (cx_in x) < hc_epoch (cx_in x')
  | Undef v => u = v \/ u = UbUseAfterFree
  | NoFuel => False
  end.
