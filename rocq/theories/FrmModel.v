(** The byte protocols of the services: ecal/service/ecal_service/src/protocol_v1.cpp
    (current protocol), protocol_v0.cpp and server_session_impl_v0.cpp (legacy protocol) and
    the negotiation of the protocol version (server_session_impl_v1.cpp,
    client_session_impl_v1.cpp).  Bytes are numbers 0..255. *)
From Verif Require Import Base.

Definition byte (z : Z) : Z := (z mod 256)%Z.
(** htons, htonl. *)
Definition be16 (z : Z) : list Z := [byte (z / 256); byte z]%Z.
Definition be32 (z : Z) : list Z := [byte (z / 16777216); byte (z / 65536); byte (z / 256); byte z]%Z.
(** ntohs, ntohl. *)
Definition nth0 (i : nat) (l : list Z) : Z := nth i l 0%Z.
Definition rd16 (i : nat) (l : list Z) : Z := (nth0 i l * 256 + nth0 (i + 1) l)%Z.
Definition rd32 (i : nat) (l : list Z) : Z := (((nth0 i l * 256 + nth0 (i + 1) l) * 256 + nth0 (i + 2) l) * 256 + nth0 (i + 3) l)%Z.
Definition len (l : list Z) : Z := Z.of_nat (length l).

(** ** Current protocol *)
(** MessageType, protocol_layout.h 29-36. *)
Definition mt_handshake_request : Z := 1.
Definition mt_handshake_response : Z := 2.
Definition mt_service_request : Z := 3.
Definition mt_service_response : Z := 4.
Definition header_bytes : Z := 16.
(** A message as seen by the sessions: version and type from the header, payload. *)
Record fmsg := FMsg { fm_version : Z; fm_type : Z; fm_pay : list Z }.

(** TcpHeaderV1, protocol_layout.h 48-55, as the sessions fill it (package size, version,
    type, sizeof(TcpHeaderV1)); the size is cast to 32 bits: client_session_impl_v1.cpp
    446-450, server_session_impl_v1.cpp 301-305. *)
Definition header_of (m : fmsg) : list Z :=
  be32 (len (fm_pay m) mod 2 ^ 32) ++ [byte (fm_version m); byte (fm_type m)] ++ be16 header_bytes ++ repeat 0%Z 8.
(** async_send_payload, protocol_v1.cpp 178-200. *)
Definition frame (m : fmsg) : list Z := header_of m ++ fm_pay m.

(** A read in progress: what has been received so far.  [RStart] read_header_start 53-88
    (8 bytes), [RRest size] read_header_rest 90-143 (until [size] bytes), [RPay hdr n]
    read_payload 145-171 (n bytes). *)
Inductive reader :=
| RStart (got : list Z)
| RRest (size : Z) (got : list Z)
| RPay (hdr : list Z) (n : Z) (got : list Z).
Definition reader0 : reader := RStart [].
Definition fmsg_of (hdr pay : list Z) : fmsg := FMsg (nth0 4 hdr) (nth0 5 hdr) pay.

(** asio::async_read collects exactly the number of bytes asked for; the next byte
    arrives.  Result: the read goes on, or the message is complete. *)
Definition push (r : reader) (b : Z) : reader + fmsg :=
  match r with
  | RStart got =>
      let got' := got ++ [b] in
      if (len got' <? 8)%Z then inl (RStart got')
      else inl (RRest (Z.max header_bytes (rd16 6 got')) got')
  | RRest size got =>
      let got' := got ++ [b] in
      if (len got' <? size)%Z then inl (RRest size got')
      else if (0 <? rd32 0 got')%Z then inl (RPay got' (rd32 0 got') [])
      else inr (fmsg_of got' [])
  | RPay hdr n got =>
      let got' := got ++ [b] in
      if (len got' <? n)%Z then inl (RPay hdr n got') else inr (fmsg_of hdr got')
  end.

(** Bytes arriving at a session that reads the next message as soon as one is complete
    (handshake and requests on the server, handshake and responses on the client). *)
Fixpoint feed (r : reader) (bs : list Z) : reader * list fmsg :=
  match bs with
  | [] => (r, [])
  | b :: bs' =>
      match push r b with
      | inl r' => feed r' bs'
      | inr m => let (r', ms) := feed reader0 bs' in (r', m :: ms)
      end
  end.
Fixpoint feed_segments (r : reader) (segs : list (list Z)) : reader * list fmsg :=
  match segs with
  | [] => (r, [])
  | bs :: segs' => let (r1, ms1) := feed r bs in let (r2, ms2) := feed_segments r1 segs' in (r2, ms1 ++ ms2)
  end.

(** ** Negotiation *)
(** ServerSessionV1::receive_handshake_request 147-206 with the range [smin, smax] of the
    server: None is a refusal.  A short payload is filled with zeros. *)
Definition server_choice (smin smax : Z) (m : fmsg) : option Z :=
  if negb (Z.eqb (fm_type m) mt_handshake_request) then None
  else
    let cmin := nth0 0 (fm_pay m) in
    let cmax := nth0 1 (fm_pay m) in
    let hi := Z.min cmax smax in
    let lo := Z.max cmin smin in
    if (lo <=? hi)%Z then Some hi else None.
(** ClientSessionV1::receive_protocol_handshake_response 278-365 (the upper bound of the
    check is MIN_SUPPORTED_PROTOCOL_VERSION, too). *)
Definition client_accepts (cmin cmax : Z) (m : fmsg) : option Z :=
  if negb (Z.eqb (fm_type m) mt_handshake_response) then None
  else let v := nth0 0 (fm_pay m) in if ((cmin <=? v) && (v <=? cmin))%Z then Some v else None.
(** send_protocol_handshake_request 238-276, send_handshake_response 213-257. *)
Definition handshake_request (cmin cmax : Z) : fmsg := FMsg 1 mt_handshake_request [byte cmin; byte cmax].
Definition handshake_response (v : Z) : fmsg := FMsg v mt_handshake_response [byte v].
(** MIN/MAX_SUPPORTED_PROTOCOL_VERSION, client_session_impl_v1.h 151-152, server_session_impl_v1.h 96-97. *)
Definition v_min : Z := 1.
Definition v_max : Z := 1.

(** ** Legacy protocol, server side *)
(** ServerSessionV0: bytes in the socket, request collected so far, bytes of a completed
    read that has not been handled; max_length bytes are read at a time. *)
Definition max_length : nat := Z.to_nat 65536.
Record v0 := V0 { v_sock : list Z; v_req : list Z; v_read : option (list Z); v_calls : list (list Z) }.
Definition v0_init : v0 := V0 [] [] None [].
Inductive v0op :=
| VArrive (bs : list Z)   (* a segment arrives *)
| VRead                   (* async_read_some completes: whatever is there, at most max_length *)
| VHandle.                (* handle_read 163-243 runs (the answer is written at once) *)
Definition v0_step (op : v0op) (s : v0) : v0 :=
  match op with
  | VArrive bs => V0 (v_sock s ++ bs) (v_req s) (v_read s) (v_calls s)
  | VRead =>
      match v_read s, v_sock s with
      | None, _ :: _ => V0 (skipn max_length (v_sock s)) (v_req s) (Some (firstn max_length (v_sock s))) (v_calls s)
      | _, _ => s
      end
  | VHandle =>
      match v_read s with
      | Some d =>
          match v_sock s with
          | [] => V0 [] [] None (v_calls s ++ [v_req s ++ d])
          | _ :: _ => V0 (v_sock s) (v_req s ++ d) None (v_calls s)
          end
      | None => s
      end
  end.
Definition v0_run (ops : list v0op) (s : v0) : v0 := fold_left (fun s op => v0_step op s) ops s.

(** ** Legacy protocol, client side: responses, protocol_v0.cpp 51-108 *)
Definition frame0 (pay : list Z) : list Z := be32 (len pay mod 2 ^ 32) ++ repeat 0%Z 12 ++ pay.
Inductive reader_v0 := SHdr (got : list Z) | SPay (n : Z) (got : list Z).
(** The result may be complete without a further byte (empty payload). *)
Definition push0 (r : reader_v0) (b : Z) : reader_v0 + list Z :=
  match r with
  | SHdr got =>
      let got' := got ++ [b] in
      if (len got' <? 16)%Z then inl (SHdr got')
      else if (0 <? rd32 0 got')%Z then inl (SPay (rd32 0 got') []) else inr []
  | SPay n got => let got' := got ++ [b] in if (len got' <? n)%Z then inl (SPay n got') else inr got'
  end.
Fixpoint feed0 (r : reader_v0) (bs : list Z) : reader_v0 * list (list Z) :=
  match bs with
  | [] => (r, [])
  | b :: bs' =>
      match push0 r b with
      | inl r' => feed0 r' bs'
      | inr m => let (r', ms) := feed0 (SHdr []) bs' in (r', m :: ms)
      end
  end.
(** The same over segments. *)
Definition feed0_segments (segs : list (list Z)) : reader_v0 * list (list Z) :=
  fold_left (fun a seg => let (r, l) := feed0 (fst a) seg in (r, snd a ++ l)) segs (SHdr [], []).
