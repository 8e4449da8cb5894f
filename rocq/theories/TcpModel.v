(** Model of the TCP transport layer of topics.
    /repo/ecal/core/src/readwrite/tcp/ecal_writer_tcp.cpp, ecal_reader_tcp.cpp.

    A message handed to tcp_pubsub (an external library) arrives as the same bytes, or not at
    all.  The machine is little endian. *)
From Coq Require Import List ZArith Bool Lia.
From Verif Require Import Base Sample PbModel SerModel.
Import ListNotations.
Local Open Scope Z_scope.

(** ** Numbers *)
(** static_cast<int64_t>, static_cast<int32_t>, static_cast<uint16_t> and
    static_cast<size_t> of a signed number. *)
Definition to_i64 (z : Z) : Z := (z + 2 ^ 63) mod 2 ^ 64 - 2 ^ 63.
Definition to_i32 (z : Z) : Z := (z + 2 ^ 31) mod 2 ^ 32 - 2 ^ 31.
Definition to_u16 (z : Z) : Z := z mod 2 ^ 16.
Definition to_size (z : Z) : Z := z mod 2 ^ 64.
(** htole16 and le16toh. *)
Definition put16 (z : Z) : list Z := [z mod 256; z / 256].
Definition get16 (a b : Z) : Z := a mod 256 + 256 * (b mod 256).

(** ** Sending *)
(** What a writer hands to the layer: SWriterAttr (id, clock, time, hash) and the payload. *)
Record tmsg := TMsg { tm_id : Z; tm_clock : Z; tm_time : Z; tm_hash : Z; tm_payload : list Z }.
(** proto_header, ecal_writer_tcp.cpp 80-93, with the given padding. *)
Definition tcp_header (tname tid : text) (m : tmsg) (padding : list Z) : psample :=
  PSample bct_none [] tid tname (tm_id m) (tm_clock m) (tm_time m) (to_i64 (tm_hash m)) (to_i32 (len (tm_payload m))) [] padding.
Definition magic_size : Z := 4.
Definition ecal_magic : list Z := [69; 67; 65; 76].
(** Lines 98-109: the padding. *)
Definition tcp_padding (tname tid : text) (m : tmsg) : Z :=
  let proto_header_size := to_u16 (len (ser_payload (tcp_header tname tid m []))) in
  (8 - (magic_size + 2 + proto_header_size) mod 8) mod 8.
(** Lines 111-151: the header buffer and the payload, as one message of the connection.
    [None]: the header buffer is sized by the 16 bit number, the copy by the real size; a
    header of more than 65535 bytes is written behind the end of the buffer. *)
Definition tcp_frame (tname tid : text) (m : tmsg) : option (list Z) :=
  let ser := ser_payload (tcp_header tname tid m (repeat 0 (Z.to_nat (tcp_padding tname tid m)))) in
  let size := to_u16 (len ser) in
  if size <? len ser then None else Some (ecal_magic ++ put16 size ++ ser ++ tm_payload m).

(** ** Receiving *)
(** What is handed to the subscriber gate, ecal_reader_tcp.cpp 110-119. *)
Record tsample := TSample { tx_tname : text; tx_tid : text; tx_payload : list Z; tx_id : Z; tx_clock : Z; tx_time : Z; tx_hash : Z }.
Inductive tres :=
| TOutside              (* bytes outside the received buffer are read *)
| TIgnored              (* the header cannot be read *)
| TGot (x : tsample).
(** CDataReaderTCP::OnTcpMessage 89-123.  [t]: m_ecal_header as the message before left it;
    the result is accompanied by its new value.  What a header that cannot be read leaves in
    m_ecal_header is not modelled: it is kept. *)
Definition tcp_receive (t : psample) (buf : list Z) : psample * tres :=
  match buf with
  | _ :: _ :: _ :: _ :: a :: b :: rest =>
      let header_size := get16 a b in
      if len rest <? header_size then (t, TOutside)
      else
        let data := skipn (Z.to_nat header_size) rest in
        match de_payload_into t (firstn (Z.to_nat header_size) rest) with
        | Ok h =>
            (h, if len data <? to_size (ps_size h) then TOutside
                else TGot (TSample (ps_tname h) (ps_tid h) (firstn (Z.to_nat (to_size (ps_size h))) data)
                             (ps_id h) (ps_clock h) (ps_time h) (ps_hash h)))
        | _ => (t, TIgnored)
        end
  | _ => (t, TOutside)
  end.
(** The messages of a connection one after the other. *)
Fixpoint tcp_receives (t : psample) (l : list (list Z)) : psample * list tres :=
  match l with
  | [] => (t, [])
  | b :: l' => let (t1, r) := tcp_receive t b in let (t2, rs) := tcp_receives t1 l' in (t2, r :: rs)
  end.

(** ** The layer, CTCPReaderLayer *)
(** A connection of a reader: host name and port.  Whether the connection is up is the matter
    of the library. *)
Definition peer := (text * Z)%type.
(** m_datareadertcp_map: the readers by topic name, with the sessions of each. *)
Definition tlayer := list (text * list peer).
Definition tlayer0 : tlayer := [].
Inductive top :=
| TAdd (topic : text)                       (* AddSubscription *)
| TRem (topic : text)                       (* RemSubscription *)
| TPar (topic host : text) (port : Z)       (* SetConnectionParameter, port as uint16_t *)
| TGone (topic host : text) (port : Z).     (* the library gives a session up *)
Definition peer_eqb (a b : peer) : bool := eqb (fst a) (fst b) && (snd a =? snd b).
(** AddConnectionIfNecessary 56-87 *)
Definition add_connection (host : text) (port : Z) (l : list peer) : list peer :=
  if port =? 0 then l else if existsb (peer_eqb (host, port)) l then l else l ++ [(host, port)].
(** AddSubscription 139-150, RemSubscription 152-164, SetConnectionParameter 166-182 *)
Definition tstep (s : tlayer) (o : top) : tlayer :=
  match o with
  | TAdd t => match aget t s with Some _ => s | None => aset t [] s end
  | TRem t => adel t s
  | TPar t h p => match aget t s with Some l => aset t (add_connection h (to_u16 p) l) s | None => s end
  | TGone t h p => match aget t s with Some l => aset t (filter (fun x => negb (peer_eqb (h, p) x)) l) s | None => s end
  end.
Definition truns (s : tlayer) (l : list top) : tlayer := fold_left tstep l s.
(** The peers whose messages reach the subscribers of the topic. *)
Definition sessions (t : text) (s : tlayer) : list peer := match aget t s with Some l => l | None => [] end.
