(* What is said about threads that share one S2AProxy. *)
From Coq Require Import List NArith Bool.
From Verif Require Import Base Wire Proxy ProxyRun Conc ConcRun ProxyConc.
Import ListNotations.
Local Open Scope N_scope.

(* The calls of a thread that have not returned. *)
Definition pending (q : caller) : list pop :=
  match q_now q with Some (op, _) => op :: q_todo q | None => q_todo q end.
(* All calls have returned. *)
Definition settled (g : crowd) : Prop := Forall (fun q => pending q = []) (g_callers g).

(* The calls of [l], made one after another on [s] in this order, account for
   the configuration [g] of threads given the calls [calls]: the proxy is in the
   state after [l]; every thread's calls are in [l] in the thread's order; the
   answers the thread has got are those in [l]. The last call of a thread may be
   in [l] already before it returns: it will return that answer. *)
Definition accounts (w : world) (s : proxy) (calls : list (list pop)) (g : crowd) (l : list (entry pop pres)) : Prop :=
  prun w s (map e_op l) = Done (sh_proxy (g_mem g), map e_res l) /\
  length (g_callers g) = length calls /\
  (forall e, In e l -> (e_thread e < length calls)%nat) /\
  forall i q, nth_error (g_callers g) i = Some q ->
    exists early, (length early <= length (match q_now q with Some _ => [tt] | None => [] end))%nat /\
      map e_res (of_thread i l) = q_done q ++ early /\
      nth_error calls i = Some (map e_op (of_thread i l) ++ skipn (length early) (pending q)).

(* The calls [l] can be the first ones of the threads. *)
Definition begins (calls : list (list pop)) (l : list (nat * pop)) : Prop :=
  (forall e, In e l -> (fst e < length calls)%nat) /\
  forall i c, nth_error calls i = Some c ->
    exists rest, c = map snd (filter (fun e => Nat.eqb (fst e) i) l) ++ rest.

(* The two methods that work outside of the mutex. *)
Definition is_protector (op : pop) : Prop := exists fs, op = PProtector fs.
Definition is_context (op : pop) : Prop := op = PContext.
Definition calls_in (calls : list (list pop)) (i : nat) (op : pop) : Prop :=
  exists c, nth_error calls i = Some c /\ In op c.
(* Only one thread makes calls of kind [K]. *)
Definition one_thread (K : pop -> Prop) (calls : list (list pop)) : Prop :=
  forall i j op op', calls_in calls i op -> K op -> calls_in calls j op' -> K op' -> i = j.

(* The response has a session result, and the result has a state. *)
Definition stores (V : bytes -> bool) (op : pop) : Prop :=
  exists b r res, op = PToPeer (Some b) /\ good_response V b r /\ rs_result r = Some res /\ pr_state res <> None.
Definition results (V : bytes -> bool) (ops : list pop) : list p_resp :=
  filter (fun r => some (rs_result r)) (responses V ops).

(* Use that needs no lock around the two methods: one thread for each of them,
   and either the threads bring at most one session result, the first one, or
   the thread that brings results is the only one to call the two methods. *)
Definition careful (V : bytes -> bool) (ops : list pop) (calls : list (list pop)) : Prop :=
  one_thread is_protector calls /\ one_thread is_context calls /\
  ((~ result_received V ops /\ (length (flat_map (results V) calls) <= 1)%nat) \/
   (forall i j op op', calls_in calls i op -> stores V op -> calls_in calls j op' ->
      is_protector op' \/ is_context op' -> i = j)).

(* ---- the accesses are what they are said to be ---- *)
(* One step of a thread with the memory. *)
Definition advance (w : world) (m : shared) (op : pop) (p : pc) : outcome (shared * pc) :=
  match p with
  | AtBody => let '(m, r) := body w m op in Done (m, AtUnlock r)
  | _ => unlocked w m op p
  end.

(* A location has the same contents in two memories. LResult is the pointer. *)
Definition same_at (l : loc) (m m' : shared) : Prop :=
  let s := sh_proxy m in let s' := sh_proxy m' in
  match l with
  | LFirst => y_first s' = y_first s
  | LFinished => y_finished s' = y_finished s
  | LTokens => y_cache s' = y_cache s /\ y_log s' = y_log s
  | LSelected => y_selected s' = y_selected s
  | LContext => y_context s' = y_context s
  | LResult => (y_result s' = None <-> y_result s = None) /\ sh_object m' = sh_object m
  | LObject => y_result s' = y_result s /\ sh_object m' = sh_object m
  | LChannel => y_channel s' = y_channel s
  end.
