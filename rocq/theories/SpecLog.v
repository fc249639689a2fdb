(* What the record layer's log must look like (C77 - C79): the lines that go
   with each result. *)
From Coq Require Import List NArith Bool.
From Verif Require Import Base Aead Hkdf HalfConn Options HsHandler Crypter FrameProt SpecRecord CrypterRun SpecFrame FrameRun Log.
Import ListNotations.
Local Open Scope N_scope.

(* S2ACrypter::Protect that returned [st] logged the given lines. *)
Inductive protect_log : scode -> list line -> Prop :=
| PlOk : protect_log S_OK []
| PlLong : protect_log S_FAILED_PRECONDITION [LPlaintextTooLong]
| PlSmall : protect_log S_FAILED_PRECONDITION [LRecordTooSmall]
| PlHeader : protect_log S_INVALID_ARGUMENT [LHeaderNotWritten]
| PlEncrypt : forall c, c <> kOk -> protect_log (convert_code c) [LEncryption c].

(* Lines about session tickets; the call they belong to succeeds. *)
Definition ticket_line (l : line) : Prop := l = LTicketIgnored \/ l = LRetrieving kInternal.

(* S2ACrypter::Unprotect. The only decrypted value in any line is a record type
   that is none of the known ones. *)
Inductive unprotect_log : scode -> list line -> Prop :=
| UlOk : forall ls, ls = [] \/ (exists l, ls = [l] /\ ticket_line l) -> unprotect_log S_OK ls
| UlClosed : unprotect_log S_ALERT_CLOSE_NOTIFY [LClosed]
| UlClose : unprotect_log S_ALERT_CLOSE_NOTIFY [LCloseNotify]
| UlAlert : unprotect_log S_ALERT_OTHER [LAlert 21]
| UlOverflow : unprotect_log S_ALERT_RECORD_OVERFLOW [LOverflow]
| UlShort : unprotect_log S_FAILED_PRECONDITION [LIncomplete]
| UlHeader : unprotect_log S_FAILED_PRECONDITION [LBadHeader]
| UlDecrypt : forall c, c <> kOk -> unprotect_log S_INTERNAL_ERROR [LDecryption c]
| UlHandshake : forall c, c <> kOk -> unprotect_log S_INTERNAL_ERROR [LHandshake c]
| UlKeyUpdate : unprotect_log S_INTERNAL_ERROR [LKeyUpdate; LHandshake kInternal]
| UlNoType : unprotect_log S_INVALID_RECORD [LNoType]
| UlAlertShort : unprotect_log S_INVALID_RECORD [LAlertShort]
| UlExpecting : unprotect_log S_INVALID_RECORD [LExpecting]
| UlBadType : forall n, n <> 0 -> n <> 21 -> n <> 22 -> n <> 23 -> unprotect_log S_INVALID_RECORD [LBadType n].

(* S2AFrameProtector::Protect, both forms. *)
Inductive fprotect_log : code -> list line -> Prop :=
| FplOk : fprotect_log kOk []
| FplFail : forall st ls, st <> S_OK -> protect_log st ls -> fprotect_log (fp_code st) (ls ++ [LProtect st])
| FplBytes : fprotect_log kInternal [LProtectedBytes].

(* S2AFrameProtector::Unprotect of several records: the lines of the records
   before the last one, then those of the failure. *)
Inductive funprotect_log : code -> list line -> Prop :=
| FulOk : forall ts, Forall ticket_line ts -> funprotect_log kOk ts
| FulSize : forall ts c, Forall ticket_line ts -> c <> kOk -> funprotect_log c (ts ++ [LRecordSize c])
| FulIsolate : forall ts c, Forall ticket_line ts -> c <> kOk -> funprotect_log c (ts ++ [LIsolate c])
| FulRecord : forall ts st ls, Forall ticket_line ts -> st <> S_OK -> unprotect_log st ls ->
    funprotect_log (fp_code st) (ts ++ ls ++ [LUnprotect st]).

(* S2AFrameProtector::Unprotect of one record. *)
Inductive funprotect1_log : code -> list line -> Prop :=
| Fu1Ok : forall ls, unprotect_log S_OK ls -> funprotect1_log kOk ls
| Fu1Size : forall c, c <> kOk -> funprotect1_log c [LRecordSize c]
| Fu1Isolate : forall c, c <> kOk -> funprotect1_log c [LIsolate c]
| Fu1Record : forall st ls, st <> S_OK -> unprotect_log st ls ->
    funprotect1_log (fp_code st) (ls ++ [LUnprotectInto]).

(* The call failed. *)
Definition cres_failed (r : cres) : Prop :=
  match r with
  | CProtected st _ _ | CUnprotected st _ _ => st <> S_OK
  | CUpdated st => st <> kOk
  end.
Definition fres_failed (r : fres) : Prop :=
  match r with
  | FProtected st _ | FProtectedInto st _ | FUnprotected st _ | FUnprotectedInto st _ _ => st <> kOk
  end.

(* The log says which alert was received. *)
Definition names_alert (description : N) (ls : list line) : Prop := In (LAlert description) ls.

(* What sending logs: a function of the number of bytes, the size of the buffer
   and whether the direction can be used. *)
Definition send_log (len size : N) (usable : bool) : list line :=
  if 16384 <? len then [LPlaintextTooLong]
  else if size <? len + 22 then [LRecordTooSmall]
  else if usable then [] else [LEncryption kInternal].

(* What receiving a record of the peer logs that is not a handshake record:
   [wait] says that a handshake message is incomplete. *)
Definition receive_log (wait : bool) (ty : N) (content : bytes) : list line :=
  if ty =? 21 then
    match content with
    | _ :: d :: _ => if d =? 0 then [LCloseNotify] else [LAlert 21]
    | _ => [LAlertShort]
    end
  else if ty =? 23 then (if wait then [LExpecting] else [])
  else [LBadType ty].

(* An input shorter than a record without content. *)
Definition too_short (op : fop) : Prop :=
  match op with
  | FUnprotect input | FUnprotectInto input _ => sum_lens input < 22
  | _ => False
  end.
