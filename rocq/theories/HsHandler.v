(* Model of src/record_protocol/handshake_message_handler.cc. *)
From Coq Require Import List NArith ZArith Bool.
From Verif Require Import Base.
Import ListNotations.
Local Open Scope N_scope.

(* handshake_message_handler.h 32, 35, 36, 41; .cc 41. *)
Definition kTlsHandshakeHeaderLength : N := 4.
Definition kSessionTicketMessageType : N := 4.
Definition kKeyUpdateMessageType : N := 24.
Definition kMaxNumTicketsToProcess : N := 5.
Definition kInvalidKeyUpdateType : N := 255.

Inductive hs_state := READ_HEADER | READ_DATA.

(* HandshakeMessageHandler: handshake_message_handler.h 140-172. *)
Record handler := {
  hs_frags : list bytes;                  (* message_fragments_ *)
  hs_tickets : option (list (list bytes));(* full_tickets_, None = nullptr *)
  hs_num : N;                             (* num_full_tickets_in_store_ *)
  hs_retrieved : bool;                    (* tickets_retrieved_ *)
  hs_data : N;                            (* num_data_bytes_expecting_to_read_ *)
  hs_hdr : N;                             (* num_header_bytes_expecting_to_read_ *)
  hs_st : hs_state                        (* state_ *)
}.

(* Constructor: handshake_message_handler.cc 45-48 and member initialisers. *)
Definition new_handler : handler :=
  {| hs_frags := []; hs_tickets := Some []; hs_num := 0;
     hs_retrieved := false; hs_data := 0; hs_hdr := kTlsHandshakeHeaderLength;
     hs_st := READ_HEADER |}.

(* Result: handshake_message_handler.h 57-78. *)
Record hs_result := {
  r_expecting : bool;
  r_key_update : bool;
  r_key_update_type : N;
  r_ticket : bool;
  r_num : N
}.

Definition with_frags (h : handler) (f : list bytes) : handler :=
  {| hs_frags := f; hs_tickets := hs_tickets h; hs_num := hs_num h;
     hs_retrieved := hs_retrieved h; hs_data := hs_data h; hs_hdr := hs_hdr h;
     hs_st := hs_st h |}.

Definition with_pos (h : handler) (hdr data : N) (st : hs_state) : handler :=
  {| hs_frags := hs_frags h; hs_tickets := hs_tickets h; hs_num := hs_num h;
     hs_retrieved := hs_retrieved h; hs_data := data; hs_hdr := hdr;
     hs_st := st |}.

(* ExpectingToReadMoreBytes: 258-260. *)
Definition expecting_more (h : handler) : bool :=
  match hs_frags h with [] => false | _ => true end.

(* IgnoreFutureTickets: 262-265. *)
Definition ignore_future_tickets (h : handler) : bool :=
  hs_retrieved h || (kMaxNumTicketsToProcess <=? hs_num h).

(* GetMessageType: 235-242. Indexing an empty vector is undefined. *)
Definition get_message_type (h : handler) : outcome N :=
  match hs_frags h with
  | (b :: _) :: _ => Done b
  | _ => Undef UbOutOfBounds
  end.

(* StoreMessageFragment: 182-199, with the bytes already cut out of the
   plaintext. *)
Definition store_fragment (h : handler) (frag : bytes) : outcome handler :=
  let store := Done (with_frags h (hs_frags h ++ [frag])) in
  if ignore_future_tickets h then
    match hs_st h with
    | READ_DATA =>
      obind (get_message_type h) (fun t =>
        if t =? kSessionTicketMessageType then Done h else store)
    | READ_HEADER => store
    end
  else store.

(* AddTicketToStore: 201-206. *)
Definition add_ticket (h : handler) : outcome handler :=
  match hs_tickets h with
  | None => Undef UbNullDeref
  | Some ts =>
    Done {| hs_frags := []; hs_tickets := Some (ts ++ [hs_frags h]);
            hs_num := wrap64 (hs_num h + 1); hs_retrieved := hs_retrieved h;
            hs_data := hs_data h; hs_hdr := hs_hdr h; hs_st := hs_st h |}
  end.

(* GetMessageDataSizeFromHeader: 208-233. The inner loop over one fragment;
   [at_byte], [shift_by] and the value accumulated so far are threaded through;
   "break" leaves only this loop. *)
Fixpoint data_size_fragment (frag : bytes) (at_byte : N) (shift_by : Z)
  (acc : N) : outcome (N * Z * N) :=
  match frag with
  | [] => Done (at_byte, shift_by, acc)
  | b :: rest =>
    if at_byte =? 1 then data_size_fragment rest 2 shift_by acc
    else if (shift_by <? 0)%Z then Undef UbNegativeShift
    else
      let acc := N.lor acc (N.shiftl b (Z.to_N shift_by)) in
      if kTlsHandshakeHeaderLength <? at_byte + 1
      then Done (at_byte + 1, (shift_by - 8)%Z, acc)
      else data_size_fragment rest (at_byte + 1) (shift_by - 8)%Z acc
  end.

Fixpoint data_size_fragments (frags : list bytes) (at_byte : N) (shift_by : Z)
  (acc : N) : outcome N :=
  match frags with
  | [] => Done acc
  | f :: rest =>
    obind (data_size_fragment f at_byte shift_by acc) (fun '(a, s, acc) =>
      data_size_fragments rest a s acc)
  end.

Definition get_data_size (h : handler) : outcome N :=
  data_size_fragments (hs_frags h) 1 16%Z 0.

(* GetKeyUpdateType: 244-256: the fifth byte over all fragments. *)
Definition get_key_update_type (h : handler) : N :=
  match nth_error (List.concat (hs_frags h)) 4 with
  | Some b => b
  | None => kInvalidKeyUpdateType
  end.

(* Step 1 of the loop of ProcessHandshakeMessage: 71-118. Returns the
   remaining plaintext, whether a full message was read, and the handler. *)
Definition read_step (h : handler) (pt : bytes)
  : outcome (bytes * bool * handler) :=
  let left_ := lenN pt in
  match hs_st h with
  | READ_HEADER =>
    if hs_hdr h <=? left_ then
      obind (store_fragment h (takeN (hs_hdr h) pt)) (fun h1 =>
      obind (get_data_size h1) (fun size =>
        Done (dropN (hs_hdr h) pt, false,
              with_pos h1 kTlsHandshakeHeaderLength size
                (if 0 <? size then READ_DATA else READ_HEADER))))
    else
      obind (store_fragment h pt) (fun h1 =>
        Done ([], false, with_pos h1 (hs_hdr h - left_) (hs_data h) READ_HEADER))
  | READ_DATA =>
    if hs_data h <=? left_ then
      obind (store_fragment h (takeN (hs_data h) pt)) (fun h1 =>
        Done (dropN (hs_data h) pt, true, with_pos h1 (hs_hdr h) 0 READ_HEADER))
    else
      obind (store_fragment h pt) (fun h1 =>
        Done ([], false, with_pos h1 (hs_hdr h) (hs_data h - left_) READ_DATA))
  end.

(* The loop of ProcessHandshakeMessage: 71-153, and the final result 155-158.
   Every iteration consumes a byte, so the length of the plaintext is enough
   fuel. *)
Fixpoint process_loop (fuel : nat) (h : handler) (pt : bytes)
  (contains_ku contains_ticket : bool) : outcome (handler * (code + hs_result)) :=
  match pt with
  | [] =>
    Done (h, inr {| r_expecting := expecting_more h;
                    r_key_update := contains_ku;
                    r_key_update_type := kInvalidKeyUpdateType;
                    r_ticket := contains_ticket; r_num := hs_num h |})
  | _ =>
    match fuel with
    | O => NoFuel
    | S fuel' =>
      obind (read_step h pt) (fun '(rest, full, h1) =>
      obind (get_message_type h1) (fun t =>
        if t =? kKeyUpdateMessageType then
          if full then
            match rest with
            | [] =>
              let ty := get_key_update_type h1 in
              let h2 := with_frags h1 [] in
              Done (h2, inr {| r_expecting := expecting_more h2;
                               r_key_update := true;
                               r_key_update_type := ty;
                               r_ticket := contains_ticket;
                               r_num := hs_num h2 |})
            | _ => Done (h1, inl kInternal)
            end
          else process_loop fuel' h1 rest true contains_ticket
        else if t =? kSessionTicketMessageType then
          if full then
            obind (if ignore_future_tickets h1 then Done h1 else add_ticket h1)
              (fun h2 =>
               process_loop fuel' (with_frags h2 []) rest contains_ku true)
          else process_loop fuel' h1 rest contains_ku true
        else Done (h1, inl kInternal)))
    end
  end.

(* ProcessHandshakeMessage: 50-159, for a non-null plaintext pointer. The null
   check at 53-57 is in [process_handshake_message_ptr]. *)
Definition process_handshake_message (h : handler) (pt : bytes)
  : outcome (handler * (code + hs_result)) :=
  process_loop (length pt) h pt false false.

Definition process_handshake_message_ptr (h : handler) (pt : iovec)
  : outcome (handler * (code + hs_result)) :=
  match pt with
  | IoNull _ => Done (h, inl kInvalidArgument)
  | IoBuf d => process_handshake_message h d
  end.

(* GetStoredTickets: 161-180. GetMessageType is evaluated only if there are
   fragments. On success full_tickets_ is moved out. *)
Definition get_stored_tickets (h : handler)
  : outcome (handler * (code + list (list bytes))) :=
  if hs_retrieved h then Done (h, inl kInternal) else
  let go :=
    match hs_tickets h with
    | None => Undef UbNullDeref
    | Some ts =>
      Done ({| hs_frags := hs_frags h; hs_tickets := None; hs_num := 0;
               hs_retrieved := true; hs_data := hs_data h; hs_hdr := hs_hdr h;
               hs_st := hs_st h |}, inr ts)
    end in
  if expecting_more h then
    obind (get_message_type h) (fun t =>
      if t =? kSessionTicketMessageType then Done (h, inl kInternal) else go)
  else go.
