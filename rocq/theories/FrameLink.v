(* Two frame protectors joined by a reliable in-order transport, and the
   specification of what they implement together: two queues of plaintext. *)
From Coq Require Import List NArith Bool.
From Verif Require Import Base Aead Hkdf HalfConn Options HsHandler Crypter FrameProt SpecTls SpecFrame FrameRun.
Import ListNotations.
Local Open Scope N_scope.

(* What can happen. [up] says whether data go from the first to the second
   protector. *)
Inductive levent :=
| Send (up : bool) (input : list iovec)
  (* the sender protects [input]; the bytes produced enter the transport *)
| Deliver (up : bool) (k : nat) (cut : bytes -> list iovec).
  (* the outputs of the next [k] Protect calls in transit (or all there are)
     leave the transport, are joined, cut into buffers, and unprotected *)

Inductive lres :=
| Sent (st : code)
| Delivered (st : code) (data : bytes)
| Idle. (* nothing was in transit *)

(* ---- the system ---- *)
Record link := {
  l_a : fprot; l_b : fprot;
  l_up : list bytes;   (* in transit to the second protector, oldest first *)
  l_down : list bytes  (* in transit to the first *)
}.

Definition out_bytes (bufs : list fbuf) : bytes := List.concat (map fb_bytes bufs).

Definition do_send (P : prims) (al : allocator) (f : fprot) (q : list bytes) (input : list iovec)
  : outcome (fprot * list bytes * lres) :=
  obind (fp_protect P al f input []) (fun '((f, st, bufs), _) =>
    Done (f, q ++ [out_bytes bufs], Sent st)).

Definition do_deliver (P : prims) (lib : ssl_lib) (al : allocator) (g : fprot) (q : list bytes)
  (k : nat) (cut : bytes -> list iovec) : outcome (fprot * list bytes * lres) :=
  match firstn k q with
  | [] => Done (g, q, Idle)
  | now =>
    obind (fp_unprotect P lib al g (cut (List.concat now)) []) (fun '((g, st, bufs), _) =>
      Done (g, skipn k q, Delivered st (out_bytes bufs)))
  end.

Fixpoint link_run (P : prims) (liba libb : ssl_lib) (ala alb : allocator) (l : link)
  (es : list levent) : outcome (link * list lres) :=
  match es with
  | [] => Done (l, [])
  | e :: es' =>
    obind (match e with
           | Send true input =>
             obind (do_send P ala (l_a l) (l_up l) input) (fun '(f, q, r) =>
               Done ({| l_a := f; l_b := l_b l; l_up := q; l_down := l_down l |}, r))
           | Send false input =>
             obind (do_send P alb (l_b l) (l_down l) input) (fun '(f, q, r) =>
               Done ({| l_a := l_a l; l_b := f; l_up := l_up l; l_down := q |}, r))
           | Deliver true k cut =>
             obind (do_deliver P libb alb (l_b l) (l_up l) k cut) (fun '(g, q, r) =>
               Done ({| l_a := l_a l; l_b := g; l_up := q; l_down := l_down l |}, r))
           | Deliver false k cut =>
             obind (do_deliver P liba ala (l_a l) (l_down l) k cut) (fun '(g, q, r) =>
               Done ({| l_a := g; l_b := l_b l; l_up := l_up l; l_down := q |}, r))
           end)
      (fun '(l, r) => obind (link_run P liba libb ala alb l es') (fun '(l, rs) => Done (l, r :: rs)))
  end.

(* ---- the specification ---- *)
(* One event on a queue of plaintexts. *)
Definition chan_step (q : list bytes) (e : levent) : list bytes * lres :=
  match e with
  | Send _ input => (q ++ [iov_concat input], Sent kOk)
  | Deliver _ k _ =>
    match firstn k q with
    | [] => (q, Idle)
    | now => (skipn k q, Delivered kOk (List.concat now))
    end
  end.
Definition goes_up (e : levent) : bool := match e with Send up _ | Deliver up _ _ => up end.

Fixpoint channel (up down : list bytes) (es : list levent) : list lres :=
  match es with
  | [] => []
  | e :: es' =>
    if goes_up e then let '(q, r) := chan_step up e in r :: channel q down es'
    else let '(q, r) := chan_step down e in r :: channel up q es'
  end.

(* Conditions: inputs are bytes (null pointers have length 0); cuts leave no
   empty buffer and the bytes as they are; what one call gets fits size_t. *)
Definition cut_ok (cut : bytes -> list iovec) : Prop :=
  forall b, iov_concat (cut b) = b /\ Forall nonempty_iov (cut b).
Definition levent_ok (q : list bytes) (e : levent) : Prop :=
  match e with
  | Send _ input => Forall iov_valid input /\ bytes_ok (iov_concat input) /\
      protected_size (lenN (iov_concat input)) < two64
  | Deliver _ k cut => cut_ok cut /\
      fold_right N.add 0 (map (fun m => protected_size (lenN m)) (firstn k q)) + 5 < two64
  end.
Fixpoint levents_ok (up down : list bytes) (es : list levent) : Prop :=
  match es with
  | [] => True
  | e :: es' =>
    if goes_up e then levent_ok up e /\ levents_ok (fst (chan_step up e)) down es'
    else levent_ok down e /\ levents_ok up (fst (chan_step down e)) es'
  end.

(* Number of records that will be sent in one direction. *)
Fixpoint records_sent (up : bool) (es : list levent) : N :=
  match es with
  | [] => 0
  | Send u input :: es' =>
    (if Bool.eqb u up then record_count (lenN (iov_concat input)) else 0) + records_sent up es'
  | _ :: es' => records_sent up es'
  end.
