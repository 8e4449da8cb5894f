(** Model of the typed objects around publishers and subscribers
    (ecal/core/include/ecal/msg/subscriber.h, dynamic.h, publisher.h, string/*.h,
    protobuf/server.h) and of CSubscriber (ecal/core/src/pubsub/ecal_subscriber.cpp) below them.

    A receive callback of the reader is a pair of a member function and the object it
    belongs to; moving the object means binding it anew.  Calls of the user and
    arriving messages alternate at the points where the code holds no lock.  A moved-from
    std::function is taken to be empty, as in the usual libraries.  Types
    of messages: the decoder is arbitrary; data type information is a number, 0 is the empty one. *)
From Verif Require Import Base Sample.

(** CMessageSubscriber, the deprecated CMsgSubscriber, CDynamicMessageSubscriber. *)
Inductive tkind := KMessage | KMsg | KDyn.
#[export] Instance EqDec_tkind : EqDec tkind. Proof. intros x y. decide equality. Defined.

(** The object: kind, topic name (CDynamicMessageSubscriber::m_topic_name), m_datareader, m_created, m_cb_callback, m_error_callback,
    m_datatype_info_received; and whether the destructors of its members have run. *)
Record shell := Shell {
  sh_kind : tkind; sh_topic : text; sh_reader : option nat; sh_created : bool; sh_cb : option nat;
  sh_err : option nat; sh_info : option nat; sh_dead : bool }.
(** The reader: topic, m_created, the object its receive callback is bound to, the message waiting. *)
Record treader := TReader { tr_topic : text; tr_running : bool; tr_bound : option nat; tr_buf : option (list Z) }.
Record tstate := TState {
  ts_shells : list (nat * shell);
  ts_readers : list (nat * treader);
  ts_gate : list nat;                (* CSubGate::m_topic_name_datareader_map *)
  ts_next : nat;
  ts_known : list (text * nat) }.    (* what GetTopicDataTypeInformation answers *)
Definition ts_init : tstate := TState [] [] [] 0 [].

Inductive tout :=
| TCall (cb : nat) (v : list Z)    (* callback of the user with the decoded message *)
| TError (cb : nat)                (* error callback of the user *)
| TIgnored                         (* nobody was called, the message is gone *)
| TKept                            (* the message waits for Receive *)
| TVal (v : option (list Z))       (* result of Receive *)
| TBool (b : bool)
| TUb.                             (* a member function runs on a destroyed object *)

Inductive top :=
| TNew (k : nat) (kd : tkind) (topic : text)
| TCreate (k : nat) (topic : text)
| TAdd (k cb : nat) | TRem (k : nat)
| TErr (k : nat) (cb : option nat)       (* AddErrorCallback, RemErrorCallback, dynamic.h lines 239-258 *)
| TDestroy (k : nat)
| TMove (a b : nat) | TMoveFirst (a b : nat) | TMoveSecond (b : nat)
| TAssign (a b : nat)
| TDelete (k : nat) | TDie (k : nat) | TGone (k : nat)
| TReceive (k : nat)
| TArrive (r : nat) (p : list Z)
| TInfo (topic : text) (i : nat).

Definition sh_new (kd : tkind) (t : text) : shell := Shell kd t None false None None None false.
Definition set_shell k sh s := TState (aset k sh (ts_shells s)) (ts_readers s) (ts_gate s) (ts_next s) (ts_known s).
Definition set_reader r rd s := TState (ts_shells s) (aset r rd (ts_readers s)) (ts_gate s) (ts_next s) (ts_known s).
Definition sh_set_cb cb s := Shell (sh_kind s) (sh_topic s) (sh_reader s) (sh_created s) cb (sh_err s) (sh_info s) (sh_dead s).
Definition sh_set_base r c s := Shell (sh_kind s) (sh_topic s) r c (sh_cb s) (sh_err s) (sh_info s) (sh_dead s).
Definition sh_set_info i s := Shell (sh_kind s) (sh_topic s) (sh_reader s) (sh_created s) (sh_cb s) (sh_err s) i (sh_dead s).
Definition sh_set_err e s := Shell (sh_kind s) (sh_topic s) (sh_reader s) (sh_created s) (sh_cb s) e (sh_info s) (sh_dead s).
Definition sh_kill s := Shell (sh_kind s) (sh_topic s) (sh_reader s) (sh_created s) (sh_cb s) (sh_err s) (sh_info s) true.

(** CSubscriber::AddReceiveCallback and RemReceiveCallback, ecal_subscriber.cpp lines 149-160, on top of
    CDataReader::AddReceiveCallback and RemReceiveCallback (ecal_reader.cpp lines 187-220): bind the reader of the object to
    b; a reader that is stopped refuses. *)
Definition bind_reader (r : option nat) (b : option nat) (s : tstate) : tstate * bool :=
  match r with
  | None => (s, false)
  | Some r =>
      match aget r (ts_readers s) with
      | Some rd => if tr_running rd then (set_reader r (TReader (tr_topic rd) true b (tr_buf rd)) s, true) else (s, false)
      | None => (s, false)
      end
  end.
(** CSubscriber::Create, lines 77-91; the typed constructors call it too (an empty name stands for the constructor
    without a name).  m_topic_name of a dynamic subscriber is set by its constructor only. *)
Definition base_create (k : nat) (sh : shell) (t : text) (s : tstate) : tstate * tout :=
  if sh_created sh then (s, TBool false)
  else match t with
       | [] => (s, TBool false)
       | _ => let r := ts_next s in
              (TState (aset k (sh_set_base (Some r) true sh) (ts_shells s)) (aset r (TReader t true None None) (ts_readers s))
                      (ts_gate s ++ [r]) (S r) (ts_known s), TBool true)
       end.
(** CSubscriber::Destroy, lines 98-123: unbind, unregister, stop, forget. *)
Definition base_destroy (sh : shell) (s : tstate) : tstate * shell * bool :=
  if negb (sh_created sh) then (s, sh, false)
  else
    let s1 := fst (bind_reader (sh_reader sh) None s) in
    match sh_reader sh with
    | None => (s1, sh_set_base None false sh, true)
    | Some r =>
        let rds := match aget r (ts_readers s1) with
                   | Some rd => aset r (TReader (tr_topic rd) false None (tr_buf rd)) (ts_readers s1)
                   | None => ts_readers s1
                   end in
        (TState (ts_shells s1) rds (filter (fun x => negb (Nat.eqb x r)) (ts_gate s1)) (ts_next s1) (ts_known s1),
         sh_set_base None false sh, true)
    end.
(** RemReceiveCallback of the typed object, subscriber.h lines 196-204, 389-397, dynamic.h lines 215-223. *)
Definition typed_rem (sh : shell) (s : tstate) : tstate * shell * bool :=
  let '(s1, ret) := bind_reader (sh_reader sh) None s in
  match sh_cb sh with
  | None => (s1, sh, false)
  | Some _ => (s1, sh_set_cb None sh, ret)
  end.
(** Destroy of the typed object, subscriber.h lines 136-140, 330-334. *)
Definition typed_destroy (sh : shell) (s : tstate) : tstate * shell * bool :=
  let '(s1, sh1, _) := typed_rem sh s in base_destroy sh1 s1.
(** The end of the move constructor and of the move assignment, subscriber.h lines 86-94, 107-115: bind to this object. *)
Definition rebind (k : nat) (sh : shell) (s : tstate) : tstate :=
  match sh_cb sh with
  | None => s
  | Some _ => let s1 := fst (bind_reader (sh_reader sh) None s) in fst (bind_reader (sh_reader sh) (Some k) s1)
  end.
(** The beginning of the move constructor: subscriber.h lines 82-84, 284-287, dynamic.h lines 111-115, ecal_subscriber.cpp
    lines 57-62.  The error callback and the type information are not moved. *)
Definition move_first (a b : nat) (sh : shell) (s : tstate) : tstate * shell :=
  let new := Shell (sh_kind sh) (sh_topic sh) (sh_reader sh) (sh_created sh) (sh_cb sh) None None false in
  let old := Shell (sh_kind sh) [] None false None (sh_err sh) (sh_info sh) false in
  (set_shell b new (set_shell a old s), new).

(** PopulateDatatypeInfo, dynamic.h lines 291-303. *)
Definition populate (sh : shell) (s : tstate) : shell :=
  match sh_info sh with
  | Some _ => sh
  | None => match aget (sh_topic sh) (ts_known s) with
            | Some (S i) => sh_set_info (Some (S i)) sh
            | _ => sh
            end
  end.

Section Decoder.
  (** Deserialize, with the type information for dynamic subscribers. *)
  Variable dec : option nat -> list Z -> option (list Z).

  (** ReceiveCallback, subscriber.h lines 212-229, 400-416, dynamic.h lines 261-289. *)
  Definition receive_callback (k : nat) (sh : shell) (p : list Z) (s : tstate) : tstate * tout :=
    match sh_cb sh with
    | None => (s, TIgnored)
    | Some cb =>
        match sh_kind sh with
        | KDyn =>
            let sh1 := populate sh s in
            let failed := match sh_err sh with Some e => TError e | None => TIgnored end in
            (set_shell k sh1 s,
             match sh_info sh1 with
             | None => failed
             | Some i => match dec (Some i) p with Some v => TCall cb v | None => failed end
             end)
        | _ => (s, match dec None p with Some v => TCall cb v | None => TIgnored end)
        end
    end.
  (** CDataReader::ApplySample for a message that is not filtered out, ecal_reader.cpp lines 457-495. *)
  Definition arrive (r : nat) (p : list Z) (s : tstate) : tstate * tout :=
    match aget r (ts_readers s) with
    | None => (s, TIgnored)
    | Some rd =>
        if tr_running rd then
          match tr_bound rd with
          | None => (set_reader r (TReader (tr_topic rd) true None (Some p)) s, TKept)
          | Some k =>
              match aget k (ts_shells s) with
              | None => (s, TUb)
              | Some sh => if sh_dead sh then (s, TUb) else receive_callback k sh p s
              end
          end
        else (s, TIgnored)
    end.
  (** Receive, subscriber.h lines 151-158, 345-352, dynamic.h lines 153-178. *)
  Definition typed_receive (k : nat) (sh : shell) (s : tstate) : tstate * tout :=
    match sh_created sh, sh_reader sh with
    | true, Some r =>
        match aget r (ts_readers s) with
        | Some rd =>
            match tr_running rd, tr_buf rd with
            | true, Some p =>
                let s1 := set_reader r (TReader (tr_topic rd) true (tr_bound rd) None) s in
                match sh_kind sh with
                | KDyn => let sh1 := populate sh s in
                          (set_shell k sh1 s1, TVal (match sh_info sh1 with None => None | Some i => dec (Some i) p end))
                | _ => (s1, TVal (dec None p))
                end
            | _, _ => (s, TVal None)
            end
        | None => (s, TVal None)
        end
    | _, _ => (s, TVal None)
    end.

  (** None: not a C++ program (an object that does not exist or is being destroyed is used, or constructed twice). *)
  Definition live (k : nat) (s : tstate) : option shell :=
    match aget k (ts_shells s) with Some sh => if sh_dead sh then None else Some sh | None => None end.
  Definition is_fresh (k : nat) (s : tstate) : bool := match aget k (ts_shells s) with None => true | Some _ => false end.

  (** The beginning of a destructor: Destroy for CMessageSubscriber and CDynamicMessageSubscriber (subscriber.h lines 266-269, dynamic.h lines
      93-96), nothing for CMsgSubscriber (line 67); then the members are gone. *)
  Definition die (k : nat) (sh : shell) (s : tstate) : tstate :=
    match sh_kind sh with
    | KMsg => set_shell k (sh_kill sh) s
    | _ => let '(s1, sh1, _) := typed_destroy sh s in set_shell k (sh_kill sh1) s1
    end.
  (** Its end: CSubscriber::~CSubscriber, ecal_subscriber.cpp lines 52-55. *)
  Definition gone (k : nat) (sh : shell) (s : tstate) : tstate :=
    let '(s1, _, _) := base_destroy sh s in
    TState (adel k (ts_shells s1)) (ts_readers s1) (ts_gate s1) (ts_next s1) (ts_known s1).

  Definition t_step (o : top) (s : tstate) : option (tstate * tout) :=
    match o with
    | TNew k kd t => if is_fresh k s then Some (let sh := sh_new kd t in base_create k sh t (set_shell k sh s)) else None
    | TCreate k t => match live k s with None => None | Some sh => Some (base_create k sh t s) end
    | TAdd k cb =>     (* subscriber.h lines 178-189, 372-382 *)
        match live k s with
        | None => None
        | Some sh =>
            let '(s1, sh1, _) := typed_rem sh s in
            let sh2 := sh_set_cb (Some cb) sh1 in
            let '(s2, ret) := bind_reader (sh_reader sh2) (Some k) (set_shell k sh2 s1) in
            Some (s2, TBool ret)
        end
    | TRem k => match live k s with
                | None => None
                | Some sh => let '(s1, sh1, ret) := typed_rem sh s in Some (set_shell k sh1 s1, TBool ret)
                end
    | TErr k e => match live k s with None => None | Some sh => Some (set_shell k (sh_set_err e sh) s, TBool true) end
    | TDestroy k => match live k s with
                    | None => None
                    | Some sh => let '(s1, sh1, ret) := typed_destroy sh s in Some (set_shell k sh1 s1, TBool ret)
                    end
    | TMove a b => match live a s with
                   | None => None
                   | Some sh => if is_fresh b s
                                then let '(s1, new) := move_first a b sh s in Some (rebind b new s1, TBool true) else None
                   end
    | TMoveFirst a b => match live a s with
                        | None => None
                        | Some sh => if is_fresh b s then Some (fst (move_first a b sh s), TBool true) else None
                        end
    | TMoveSecond b => match live b s with None => None | Some sh => Some (rebind b sh s, TBool true) end
    | TAssign a b =>   (* subscriber.h lines 100-118, 303-324; ecal_subscriber.cpp lines 64-75 *)
        match live a s, live b s with
        | Some sha, Some shb =>
            match sh_kind sha, sh_kind shb with
            | KDyn, _ | _, KDyn => None
            | ka, kb =>
                if eqb ka kb then
                  (* Destroy of the typed object for CMessageSubscriber, of the base otherwise *)
                  let '(s1, shb1, _) := match kb with KMessage => typed_destroy shb s | _ => base_destroy shb s end in
                  let s2 := set_shell b shb1 s1 in
                  match aget a (ts_shells s2) with
                  | None => None
                  | Some sha1 =>
                      let shb2 := sh_set_cb (sh_cb sha1) (sh_set_base (sh_reader sha1) (sh_created sha1) shb1) in
                      let sha2 := sh_set_base None false (sh_set_cb None sha1) in
                      if Nat.eqb a b
                      (* a self assignment: the reader moves to itself, m_created becomes false last *)
                      then let self := sh_set_base (sh_reader sha1) false sha1 in Some (rebind b self (set_shell b self s2), TBool true)
                      else Some (rebind b shb2 (set_shell b shb2 (set_shell a sha2 s2)), TBool true)
                  end
                else None
            end
        | _, _ => None
        end
    | TDelete k => match live k s with
                   | None => None
                   | Some sh => let s1 := die k sh s in
                                match aget k (ts_shells s1) with Some sh1 => Some (gone k sh1 s1, TBool true) | None => None end
                   end
    | TDie k => match live k s with None => None | Some sh => Some (die k sh s, TBool true) end
    | TGone k => match aget k (ts_shells s) with
                 | Some sh => if sh_dead sh then Some (gone k sh s, TBool true) else None
                 | None => None
                 end
    | TReceive k => match live k s with None => None | Some sh => Some (typed_receive k sh s) end
    | TArrive r p => Some (arrive r p s)
    | TInfo t i => Some (TState (ts_shells s) (ts_readers s) (ts_gate s) (ts_next s) (aset t i (ts_known s)), TBool true)
    end.
  Fixpoint t_run (os : list top) (s : tstate) : option (tstate * list tout) :=
    match os with
    | [] => Some (s, [])
    | o :: os' => match t_step o s with
                  | None => None
                  | Some (s1, out) => match t_run os' s1 with
                                      | None => None
                                      | Some (s2, outs) => Some (s2, out :: outs)
                                      end
                  end
    end.
End Decoder.

(** ** Sending a typed message: CMsgPublisher::Send, publisher.h lines 135-168, on top of CPublisher::Send, ecal_publisher.cpp
    lines 155-178.  b1 and b2 are the answers of the two calls of IsSubscribed; write is the result of CDataWriter::Write. *)
Inductive pdeed := PWrite (p : list Z) | PCount.   (* handed to the writer / RefreshSendCounter *)
Definition plain_send (created b2 : bool) (write : list Z -> Z) (p : list Z) : list pdeed * Z :=
  if created then if b2 then ([PWrite p], write p) else ([PCount], Z.of_nat (length p)) else ([], 0%Z).
Section Typed.
  Variable M : Type.
  Variable get_size : M -> nat.
  (** Serialize: the bytes it writes at the beginning of the buffer, or None for false. *)
  Variable serialize : M -> nat -> option (list Z).
  (** m_buffer.resize(size): shrinks or appends zeros. *)
  Definition resize (n : nat) (b : list Z) : list Z := firstn n b ++ repeat 0%Z (n - length b).
  (** The state is m_buffer. *)
  Definition typed_send (created b1 b2 : bool) (write : list Z -> Z) (m : M) (buf : list Z) : list Z * (list pdeed * Z) :=
    if b1 then
      match get_size m with
      | O => (buf, plain_send created b2 write [])
      | n => let buf1 := resize n buf in
             match serialize m n with
             | Some bytes => let buf2 := bytes ++ skipn (length bytes) buf1 in (buf2, plain_send created b2 write buf2)
             | None => (buf1, ([], 0%Z))
             end
      end
    else (buf, plain_send created b2 write []).
End Typed.
(** string::CPublisher, string/publisher.h lines 116-138; StringDeserializer, string/subscriber.h lines 50-54. *)
Definition str_size (m : list Z) : nat := length m.
Definition str_serialize (m : list Z) (n : nat) : option (list Z) := if Nat.leb (length m) n then Some m else None.
Definition str_deserialize (p : list Z) : option (list Z) := Some p.

(** ** Protobuf servers: protobuf::CServiceServer, protobuf/server.h.  A service object has a type (its descriptor); the methods of
    a type are given from outside, a method descriptor is the type and the name.  Calls with a descriptor of another type are
    undefined. *)
Record pserver := PServer {
  pv_base : option text;                      (* the name under which the server is announced *)
  pv_bound : list text;                       (* method callbacks of the server below *)
  pv_service : option (nat * nat);            (* m_service: type and object *)
  pv_methods : list (text * (nat * text));    (* m_methods *)
  pv_dead : bool }.
Definition pv_init : pserver := PServer None [] None [] false.
Inductive pvop := PCreate (svc : option (nat * nat)) (name : text) | PDestroy | PBaseDestroy | PDie | PGone | PRequest (m : text) (req : list Z).
Inductive pvout := PUnit (b : bool) | PAnswer (code : Z) (resp : list Z) | PNoMethod | PClosed | PUb.
Section Proto.
  Variable methods_of : nat -> list text.                       (* ServiceDescriptor::method(i)->name() *)
  Variable full_name : nat -> text.
  Variable parse : nat -> text -> list Z -> option (list Z).    (* ParseFromString of the request type *)
  Variable invoke : nat * nat -> text -> list Z -> list Z.      (* CallMethod and SerializeAsString *)

  (** Lines 123-169. *)
  Definition pv_create (svc : option (nat * nat)) (name : text) (s : pserver) : pserver * pvout :=
    match svc with
    | None => (s, PUnit false)
    | Some sv =>
        let nm := match name with [] => full_name (fst sv) | _ => name end in
        let base := match pv_base s with Some b => Some b | None => Some nm end in
        let ms := methods_of (fst sv) in
        (PServer base
           (fold_left (fun bs m => if existsb (eqb m) bs then bs else bs ++ [m]) ms (pv_bound s))
           (Some sv) (fold_left (fun t m => aset m (fst sv, m) t) ms (pv_methods s)) false, PUnit true)
    end.
  (** RequestCallback, lines 185-214. *)
  Definition pv_callback (m : text) (req : list Z) (s : pserver) : pvout :=
    match pv_service s with
    | None => PAnswer (-1) []
    | Some sv =>
        match aget m (pv_methods s) with
        | None => PAnswer (-1) []
        | Some (ty, nm) =>
            if Nat.eqb ty (fst sv) then
              match parse ty nm req with
              | None => PAnswer (-1) []
              | Some q => PAnswer 0 (invoke sv nm q)
              end
            else PUb
        end
    end.
  Definition pv_step (o : pvop) (s : pserver) : option (pserver * pvout) :=
    match o with
    | PRequest m req =>
        Some (s, match pv_base s with
                 | None => PClosed
                 | Some _ => if existsb (eqb m) (pv_bound s) then if pv_dead s then PUb else pv_callback m req s else PNoMethod
                 end)
    | PGone => if pv_dead s then Some (PServer None [] None [] true, PUnit true) else None
    | _ =>
        if pv_dead s then None
        else Some match o with
             | PCreate svc name => pv_create svc name s
             | PDestroy => (PServer (pv_base s) (pv_bound s) None (pv_methods s) false, PUnit true)    (* lines 176-180 *)
             (* eCAL::CServiceServer::Destroy, called with its full name: Stop, see the service server *)
             | PBaseDestroy => (PServer None [] (pv_service s) (pv_methods s) false,
                                PUnit (match pv_base s with Some _ => true | None => false end))
             (* the destructor: Destroy, then the members are gone; PGone is the destructor of the base *)
             | PDie => (PServer (pv_base s) (pv_bound s) None [] true, PUnit true)
             | _ => (s, PUnit false)
             end
    end.
  Fixpoint pv_run (os : list pvop) (s : pserver) : option (pserver * list pvout) :=
    match os with
    | [] => Some (s, [])
    | o :: os' => match pv_step o s with
                  | None => None
                  | Some (s1, out) => match pv_run os' s1 with
                                      | None => None
                                      | Some (s2, outs) => Some (s2, out :: outs)
                                      end
                  end
    end.
End Proto.
