(** UDP layer: datagrams and multicast memberships.
    ecal/core/src/io/udp/ecal_udp_sample_sender.cpp 107-138, ecal_udp_sample_receiver_asio.cpp 71-204;
    ecal/core/src/readwrite/udp/ecal_reader_udp.cpp 53-105.
    The library ecaludp (splitting and joining of datagrams) is not part of the repository: it is assumed to
    deliver what was sent, or nothing.  Byte order: little endian, as on every supported platform (the
    code copies the native unsigned short). *)
From Verif Require Import Base Sample.

(** ** Datagrams *)
(** static_cast<unsigned short>(size) + 1, stored in an unsigned short, line 120. *)
Definition name_size (name : text) : Z := ((Z.of_nat (length name) mod 65536 + 1) mod 65536)%Z.
(** CSampleSender::Send: two bytes size, that many bytes of the zero terminated name, the sample. *)
Definition datagram (name payload : text) : text :=
  let s1 := name_size name in
  [s1 mod 256; s1 / 256]%Z ++ firstn (Z.to_nat s1) (name ++ [0%Z]) ++ payload.

(** What the receiver does with a datagram. *)
Inductive rx :=
| RxOutside                        (* reads outside of the buffer: undefined *)
| RxDamaged                        (* processed = false: Receive() is not called again *)
| RxSample (name payload : text).
(** std::string(const char* ): up to the first zero. *)
Fixpoint c_string (s : text) : option text :=
  match s with
  | [] => None
  | c :: s' => if Z.eqb c 0 then Some [] else match c_string s' with Some r => Some (c :: r) | None => None end
  end.
(** Lambda of CSampleReceiverAsio::Receive 227-262. *)
Definition receive (bs : text) : rx :=
  match bs with
  | b0 :: b1 :: rest =>
      let ns := (b0 + 256 * b1)%Z in
      let size := Z.of_nat (length bs) in
      if (size <? ns)%Z then RxDamaged
      else match c_string rest with
           | None => RxOutside
           | Some name => if (size <? 2 + ns)%Z then RxDamaged else RxSample name (skipn (Z.to_nat ns) rest)
           end
  | _ => RxOutside
  end.

(** The receiver: it listens until it meets damaged data or an error of the socket. *)
Inductive rx_in := RxArrive (bs : text) | RxError.
Inductive rx_state := Listening | Deaf | Undefined.
(** [has] is the callback HasSample. *)
Definition rx_step (has : text -> bool) (i : rx_in) (s : rx_state) : rx_state * list text :=
  match s, i with
  | Listening, RxArrive bs =>
      match receive bs with
      | RxOutside => (Undefined, [])
      | RxDamaged => (Deaf, [])
      | RxSample name payload => (Listening, if has name then [payload] else [])
      end
  | Listening, RxError => (Deaf, [])
  | _, _ => (s, [])
  end.
Fixpoint rx_run (has : text -> bool) (l : list rx_in) (s : rx_state) : rx_state * list text :=
  match l with
  | [] => (s, [])
  | i :: l' => let (s1, e1) := rx_step has i s in let (s2, e2) := rx_run has l' s1 in (s2, e1 ++ e2)
  end.

(** ** Memberships *)
(** State of CUDPReaderLayer and of its socket.  [ul_live]: the data readers that exist; [ul_inside]:
    threads inside of AddSubscription or RemSubscription, which take no lock. *)
Record ulayer := ULayer {
  ul_started : bool;
  ul_members : list text;              (* groups the socket is a member of *)
  ul_counts : list (text * Z);         (* m_topic_name_mcast_map *)
  ul_live : list (nat * text);
  ul_inside : list nat;
  ul_race : bool }.
Definition ulayer0 : ulayer := ULayer false [] [] [] [] false.
Inductive uop :=
| UAdd (thr sub : nat) (topic : text) (ok ok_base : bool)   (* ok: the system accepts a further membership *)
| URem (thr sub : nat)
| ULeave (thr : nat).
Inductive uev := UJoin (a : text) (ok : bool) | ULeft (a : text).

(** setsockopt: joining twice is an error, so is leaving a group one is not a member of. *)
Definition join (a : text) (ok : bool) (m : list text) : list text * bool :=
  if (ok && negb (existsb (eqb a) m))%bool then (a :: m, true) else (m, false).
Definition leave (a : text) (m : list text) : list text := filter (fun x => negb (eqb a x)) m.

(** [local]: UDP::IsBroadcast(), [base]: GetPayloadAddress(), [addr]: GetTopicPayloadAddress. *)
Definition u_step (local : bool) (base : text) (addr : text -> text) (op : uop) (s : ulayer) : option (ulayer * list uev) :=
  if ul_race s then None else
  match op with
  | UAdd thr sub topic ok ok_base =>
      if amem sub (ul_live s) then None
      else match ul_inside s with
      | _ :: _ => Some (ULayer (ul_started s) (ul_members s) (ul_counts s) (ul_live s) (ul_inside s) true, [])
      | [] =>
        let live := (sub, topic) :: ul_live s in
        (* 55-72: start of the receiver, its constructor joins the base address *)
        let (m1, e1) := if ul_started s then (ul_members s, [])
                        else if local then (ul_members s, [])
                        else let (m, r) := join base ok_base (ul_members s) in (m, [UJoin base r]) in
        if local then Some (ULayer true m1 (ul_counts s) live [thr] false, e1)
        else
          let a := addr topic in
          match aget a (ul_counts s) with
          | None =>
              let (m2, r) := join a ok m1 in
              Some (ULayer true m2 (aset a 1%Z (ul_counts s)) live [thr] false, e1 ++ [UJoin a r])
          | Some n => Some (ULayer true m1 (aset a (n + 1)%Z (ul_counts s)) live [thr] false, e1)
          end
      end
  | URem thr sub =>
      match aget sub (ul_live s) with
      | None => None
      | Some topic =>
        match ul_inside s with
        | _ :: _ => Some (ULayer (ul_started s) (ul_members s) (ul_counts s) (ul_live s) (ul_inside s) true, [])
        | [] =>
          let live := adel sub (ul_live s) in
          (* m_local_mode is set when the receiver is started *)
          if (local && ul_started s)%bool then Some (ULayer (ul_started s) (ul_members s) (ul_counts s) live [thr] false, [])
          else
            let a := addr topic in
            match aget a (ul_counts s) with
            | None => Some (ULayer (ul_started s) (ul_members s) (ul_counts s) live [thr] false, [])
            | Some n =>
                if (n - 1 =? 0)%Z
                then Some (ULayer (ul_started s) (leave a (ul_members s)) (adel a (ul_counts s)) live [thr] false, [ULeft a])
                else Some (ULayer (ul_started s) (ul_members s) (aset a (n - 1)%Z (ul_counts s)) live [thr] false, [])
            end
        end
      end
  | ULeave thr => match ul_inside s with
                  | [t] => if t =? thr then Some (ULayer (ul_started s) (ul_members s) (ul_counts s) (ul_live s) [] false, []) else None
                  | _ => None
                  end
  end.
Fixpoint u_run (local : bool) (base : text) (addr : text -> text) (ops : list uop) (s : ulayer) : option (ulayer * list uev) :=
  match ops with
  | [] => Some (s, [])
  | op :: ops' =>
      match u_step local base addr op s with
      | Some (s', e) => match u_run local base addr ops' s' with Some (s'', e') => Some (s'', e ++ e') | None => None end
      | None => None
      end
  end.
