(* Several threads calling Unprotect of one S2AFrameProtector. Model, and what
   it means that such an execution is explained by sequential ones. *)
From Coq Require Import List NArith Bool PeanoNat.
From Verif Require Import Base Aead Hkdf HalfConn Options HsHandler Crypter FrameProt FrameRun Conc ConcRun.
Import ListNotations.
Local Open Scope N_scope.

(* ---- Unprotect of several records (s2a_frame_protector.cc 379-467). The
   length is compared with RecordOverhead (380-385) before unprotect_mu_ is
   taken (392). A call that fails there takes no lock in the code; here it
   takes it for nothing. A call: the bytes, and the name the allocator gives to
   its first buffer. ---- *)
Definition rreq := (N * fcall)%type.
Definition r_pre (o : fcall) : prog crypt rreq :=
  pbind (overhead_c (fc_faults o)) (fun '(ov, fs) =>
    Ret (ov, {| fc_input := fc_input o; fc_id := fc_id o; fc_faults := fs |})).
Definition r_body (P : prims) (lib : ssl_lib) (al : allocator) (q : rreq) : prog crypt fresult :=
  let '(ov, o) := q in
  let total := total_len (fc_input o) in
  if total <? ov then Ret (kFailedPrecondition, [], []) else
  pbind (unprotect_loop_c (S (N.to_nat (total / ov))) P lib al {| hp_next := fc_id o; hp_events := [] |}
           (fc_input o, 0) total [] (fc_faults o))
    (fun '((m, st, bs), _) => Ret (st, bs, hp_events m)).
Definition r_threads := config crypt fcall rreq fresult.

(* The same call made alone. *)
Definition r_step (P : prims) (lib : ssl_lib) (al : allocator) (mx : N) (x : crypt) (o : fcall)
  : outcome (crypt * fresult) :=
  obind (fp_unprotect P lib al {| fp_crypt := x; fp_max := mx; fp_next := fc_id o; fp_events := [] |}
           (fc_input o) (fc_faults o))
    (fun '((f, st, bs), _) => Done (fp_crypt f, (st, bs, fp_events f))).
Definition r_ok (o : fcall) : Prop := fop_ok (FUnprotect (fc_input o)).

(* ---- Some of the calls, each with the thread that makes it, every thread
   keeping its order. ---- *)
Definition drawn {O} (calls : list (list O)) (ps : list (nat * O)) : Prop :=
  (forall p, In p ps -> (fst p < length calls)%nat) /\
  forall i cs, nth_error calls i = Some cs ->
    exists later, cs = map snd (filter (fun p => Nat.eqb (fst p) i) ps) ++ later.

(* What excuses the undefined behaviour [u] of threads that start with [x]:
   some of their calls, made one after another, have undefined behaviour
   themselves; or they install a new inbound key, and [u] is the use of a freed
   object. *)
Definition excused (P : prims) (lib : ssl_lib) (al : allocator) (mx : N) (x : crypt)
  (calls : list (list fcall)) (u : ub) : Prop :=
  exists ps, drawn calls ps /\
  match seq_run (r_step P lib al mx) x (map snd ps) with
  | Done (x', _) => u = UbUseAfterFree /\ hc_epoch (cx_in x) < hc_epoch (cx_in x')
  | Undef v => u = v \/ u = UbUseAfterFree
  | NoFuel => False
  end.
