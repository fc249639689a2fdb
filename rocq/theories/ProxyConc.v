(* Several threads calling the methods of one S2AProxy: include/s2a_proxy.h
   116-148, src/handshaker/s2a_proxy.cc. GetBytesForS2A (171), GetBytesForPeer
   (205) and IsHandshakeFinished (768) hold mu_ from beginning to end.
   CreateFrameProtector (784-807) and GetS2AContext (809-816) hold it only
   inside their call of IsHandshakeFinished; the accesses to result_,
   channel_factory_, channel_options_ and context_ after that are made one by
   one without it.

   Memory is sequentially consistent; the order of the accesses is that of the
   source. A method body under the mutex is one step: another thread's step can
   fall into the middle of it only if it is made without the mutex, and then
   matters only if it races with the body (see [racing]). *)
From Coq Require Import List NArith Bool.
From Verif Require Import Base Aead Hkdf HalfConn Options HsHandler Crypter FrameProt Wire Util Context Proxy ProxyRun Conc.
Import ListNotations.
Local Open Scope N_scope.

(* What the threads share. [sh_object] is the address of the object result_
   points to: a new one for every make_unique of GetBytesForPeer (265), which
   frees the object before. An address is not used again: a read through an old
   pointer is noticed. *)
Record shared := { sh_proxy : proxy; sh_object : N }.

(* The response in a buffer if GetBytesForPeer goes on with it: 206-248. *)
Definition peer_good (V : bytes -> bool) (inp : option bytes) : option p_resp :=
  match inp with
  | None | Some [] => None
  | Some b =>
    match parse_resp V b with
    | None => None
    | Some r =>
      match rs_status r with
      | None => None
      | Some st => if pst_code st =? 0 then Some r else None
      end
    end
  end.
Definition some {A} (o : option A) : bool := match o with Some _ => true | None => false end.
(* It has a session result; the result has a state, so that result_ is
   assigned. *)
Definition has_result (V : bytes -> bool) (inp : option bytes) : bool :=
  match peer_good V inp with Some r => some (rs_result r) | None => false end.
Definition has_state (V : bytes -> bool) (inp : option bytes) : bool :=
  match peer_good V inp with
  | Some r => match rs_result r with Some res => some (pr_state res) | None => false end
  | None => false
  end.

(* The members of S2AHandshakeResult in the order CreateFrameProtector copies
   them: 791-800. *)
Inductive field := FTls | FSuite | FIn | FOut | FInSeq | FOutSeq | FLocal | FConn.
Definition fields : list field := [FTls; FSuite; FIn; FOut; FInSeq; FOutSeq; FLocal; FConn].

(* The copy [acc] with member [f] taken from [r]. *)
Definition copy_field (f : field) (r acc : session_result) : session_result :=
  {| h_tls := match f with FTls => h_tls r | _ => h_tls acc end;
     h_suite := match f with FSuite => h_suite r | _ => h_suite acc end;
     h_in_secret := match f with FIn => h_in_secret r | _ => h_in_secret acc end;
     h_out_secret := match f with FOut => h_out_secret r | _ => h_out_secret acc end;
     h_in_seq := match f with FInSeq => h_in_seq r | _ => h_in_seq acc end;
     h_out_seq := match f with FOutSeq => h_out_seq r | _ => h_out_seq acc end;
     h_conn := match f with FConn => h_conn r | _ => h_conn acc end;
     h_local := match f with FLocal => h_local r | _ => h_local acc end |}.

(* Where a thread is in its call.
   [AtUnlock]: inl is the answer of the call, inr the answer of the inner call
   of IsHandshakeFinished.
   [AtLoad], [AtRead]: the next member is to be copied, `result_->f`: the
   pointer is loaded (None: null), then the member is read.
   [AtLoadChannel], [AtClearChannel]: std::move of channel_factory_ and
   channel_options_, 801-802.
   [AtCreate]: S2AFrameProtector::Create on the copies, 806.
   [AtLoadContext], [AtClearContext]: std::move of context_, 815. *)
Inductive pc :=
| AtLock
| AtBody
| AtUnlock (r : pres + bool)
| AtLoad (f : field) (todo : list field) (acc : session_result)
| AtRead (p : option N) (f : field) (todo : list field) (acc : session_result)
| AtLoadChannel (acc : session_result)
| AtClearChannel (acc : session_result) (ch : bool)
| AtCreate (acc : session_result) (ch : bool)
| AtLoadContext
| AtClearContext (c : option s2a_context)
| AtReturn (r : pres).

Definition load_next (todo : list field) (acc : session_result) : pc :=
  match todo with [] => AtLoadChannel acc | f :: todo => AtLoad f todo acc end.

(* The steps under the mutex: the whole method, or IsHandshakeFinished. *)
Definition body (w : world) (m : shared) (op : pop) : shared * (pres + bool) :=
  let s := sh_proxy m in
  match op with
  | PToS2A inp o ser =>
    let '(s, st) := get_bytes_for_s2a (w_manager w) o ser s inp in
    ({| sh_proxy := s; sh_object := sh_object m |}, inl (RToS2A st))
  | PToPeer inp =>
    let '(s, st) := get_bytes_for_peer (w_text w) s inp in
    ({| sh_proxy := s;
        sh_object := if has_state (w_text w) inp then sh_object m + 1 else sh_object m |},
     inl (RToPeer st))
  | PFinished => (m, inl (RFinished (y_finished s)))
  | PProtector _ | PContext => (m, inr (y_finished s))
  end.

(* What follows the mutex: 785-789, 810-814. *)
Definition after_unlock (op : pop) (r : pres + bool) : pc :=
  match r with
  | inl r => AtReturn r
  | inr true =>
    match op with
    | PProtector _ => load_next fields session_result_new
    | _ => AtLoadContext
    end
  | inr false =>
    match op with
    | PProtector _ => AtReturn (RProtector (inl kFailedPrecondition))
    | _ => AtReturn (RContext (inl kFailedPrecondition))
    end
  end.

(* The steps outside of it. s2a_address of options_ is never written. *)
Definition protector_args (s : proxy) (acc : session_result) (ch : bool) : fp_args :=
  {| fa_allocator := true; fa_destroy := true; fa_logger := true;
     fa_crypt :=
       {| ca_tls := h_tls acc; ca_suite := h_suite acc; ca_connection_id := h_conn acc;
          ca_url := o_address (y_options s); ca_identity := h_local acc;
          ca_in_secret := h_in_secret acc; ca_out_secret := h_out_secret acc;
          ca_in_seq := h_in_seq acc; ca_out_seq := h_out_seq acc; ca_sender := true;
          ca_channel := ch; ca_logger := true |} |}.

Definition unlocked (w : world) (m : shared) (op : pop) (p : pc) : outcome (shared * pc) :=
  let s := sh_proxy m in
  match p with
  | AtLoad f todo acc =>
    Done (m, AtRead (match y_result s with Some _ => Some (sh_object m) | None => None end) f todo acc)
  | AtRead None _ _ _ => Undef UbNullDeref
  | AtRead (Some a) f todo acc =>
    match y_result s with
    | Some r => if a =? sh_object m then Done (m, load_next todo (copy_field f r acc)) else Undef UbUseAfterFree
    | None => Undef UbUseAfterFree
    end
  | AtLoadChannel acc => Done (m, AtClearChannel acc (y_channel s))
  | AtClearChannel acc ch =>
    Done ({| sh_proxy := move_channel s; sh_object := sh_object m |}, AtCreate acc ch)
  | AtCreate acc ch =>
    match op with
    | PProtector fs =>
      obind (fp_create (w_prims w) (w_lib w) (protector_args s acc ch) fs)
        (fun '(r, _) => Done (m, AtReturn (RProtector r)))
    | _ => Done (m, p)
    end
  | AtLoadContext => Done (m, AtClearContext (y_context s))
  | AtClearContext c =>
    Done ({| sh_proxy := set_context s None; sh_object := sh_object m |}, AtReturn (RContext (inr c)))
  | AtLock | AtBody | AtUnlock _ | AtReturn _ => Done (m, p)
  end.

(* A thread: the calls it still has to make, the call it is in, the answers it
   has got. *)
Record caller := { q_todo : list pop; q_now : option (pop * pc); q_done : list pres }.
Record crowd := { g_mem : shared; g_owner : option nat; g_callers : list caller }.

Definition at_pc (q : caller) (op : pop) (p : pc) : caller :=
  {| q_todo := q_todo q; q_now := Some (op, p); q_done := q_done q |}.
Definition put (g : crowd) (m : shared) (o : option nat) (i : nat) (q : caller) : crowd :=
  {| g_mem := m; g_owner := o; g_callers := set_nth i q (g_callers g) |}.

(* Thread [i] makes a step; nothing happens if it is done, or if it waits for
   the mutex. *)
Definition qstep (w : world) (g : crowd) (i : nat) : outcome crowd :=
  match nth_error (g_callers g) i with
  | None => Done g
  | Some q =>
    match q_now q with
    | None =>
      match q_todo q with
      | [] => Done g
      | op :: rest =>
        Done (put g (g_mem g) (g_owner g) i {| q_todo := rest; q_now := Some (op, AtLock); q_done := q_done q |})
      end
    | Some (op, p) =>
      match p with
      | AtLock =>
        match g_owner g with
        | Some _ => Done g
        | None => Done (put g (g_mem g) (Some i) i (at_pc q op AtBody))
        end
      | AtBody =>
        let '(m, r) := body w (g_mem g) op in Done (put g m (g_owner g) i (at_pc q op (AtUnlock r)))
      | AtUnlock r => Done (put g (g_mem g) None i (at_pc q op (after_unlock op r)))
      | AtReturn r =>
        Done (put g (g_mem g) (g_owner g) i {| q_todo := q_todo q; q_now := None; q_done := q_done q ++ [r] |})
      | _ => obind (unlocked w (g_mem g) op p) (fun '(m, p) => Done (put g m (g_owner g) i (at_pc q op p)))
      end
    end
  end.

(* A schedule: which thread steps next. *)
Fixpoint qrun (w : world) (g : crowd) (sched : list nat) : outcome crowd :=
  match sched with
  | [] => Done g
  | i :: r => obind (qstep w g i) (fun g => qrun w g r)
  end.

Definition qstart (s : proxy) (calls : list (list pop)) : crowd :=
  {| g_mem := {| sh_proxy := s; sh_object := 0 |}; g_owner := None;
     g_callers := map (fun l => {| q_todo := l; q_now := None; q_done := [] |}) calls |}.

(* ------------------------------------------------------------------ *)
(* The memory locations: the members of S2AProxy that change, and the object
   behind result_. *)
Inductive loc := LFirst | LFinished | LTokens | LSelected | LContext | LResult | LObject | LChannel.

(* What the next step of a thread reads and writes (true: writes). context_
   is written if the result is accepted: 265-355. *)
Definition accepted (res : p_result) : bool :=
  match pr_state res with
  | None => false
  | Some st =>
    match tls_from_proto (pt_tls st), suite_from_proto (pt_suite st), pr_local res with
    | inr _, inr _, Some _ => true
    | _, _, _ => false
    end
  end.
Definition body_accesses (w : world) (op : pop) : list (loc * bool) :=
  match op with
  | PToS2A _ _ _ => [(LFirst, false); (LFirst, true); (LTokens, false); (LTokens, true); (LSelected, false)]
  | PToPeer inp =>
    match peer_good (w_text w) inp with
    | None => []
    | Some r =>
      (if some (rs_local r) then [(LSelected, true)] else []) ++
      match rs_result r with
      | None => []
      | Some res =>
        (LFinished, true) ::
        (if some (pr_state res) then [(LResult, true); (LObject, true)] else []) ++
        (if accepted res then [(LContext, true)] else [])
      end
    end
  | PFinished | PProtector _ | PContext => [(LFinished, false)]
  end.
Definition accesses (w : world) (op : pop) (p : pc) : list (loc * bool) :=
  match p with
  | AtBody => body_accesses w op
  | AtLoad _ _ _ => [(LResult, false)]
  | AtRead _ _ _ _ => [(LObject, false)]
  | AtLoadChannel _ => [(LChannel, false)]
  | AtClearChannel _ _ => [(LChannel, true)]
  | AtLoadContext => [(LContext, false)]
  | AtClearContext _ => [(LContext, true)]
  | AtLock | AtUnlock _ | AtCreate _ _ | AtReturn _ => []
  end.

(* Two threads are about to access one location, one of them writing. *)
Definition racing (w : world) (g : crowd) : Prop :=
  exists i j qi qj opi opj pi pj l bi bj, i <> j /\
    nth_error (g_callers g) i = Some qi /\ q_now qi = Some (opi, pi) /\ In (l, bi) (accesses w opi pi) /\
    nth_error (g_callers g) j = Some qj /\ q_now qj = Some (opj, pj) /\ In (l, bj) (accesses w opj pj) /\
    bi || bj = true.
