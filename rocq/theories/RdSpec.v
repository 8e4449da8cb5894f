(** Vocabulary for the properties of the receiving side of a subscriber. *)
From Verif Require Import Base Sample RdModel.

Definition rd_after (c : rcfg) (os : list rop) : reader := fst (rd_run c os rd_new).

(** A subscriber delivers a message when its published message counter moves. *)
Definition takes (c : rcfg) (r : reader) (m : msg) : bool :=
  negb (Z.eqb (rd_count (fst (rd_apply c m r))) (rd_count r)).

(** The messages delivered in a run, in order. *)
Fixpoint taken_from (c : rcfg) (os : list rop) (r : reader) : list msg :=
  match os with
  | [] => []
  | o :: os' =>
      match o with RArrive m => if takes c r m then [m] else [] | _ => [] end
      ++ taken_from c os' (fst (rd_step c o r))
  end.
Definition taken (c : rcfg) (os : list rop) : list msg := taken_from c os rd_new.

Definition clocks_of (t : text) (ms : list msg) : list Z :=
  map m_clock (filter (fun m => eqb (m_tid m) t) ms).
Definition increasing (l : list Z) : Prop :=
  forall a x b y d, l = a ++ x :: b ++ y :: d -> (x < y)%Z.

Definition arrivals (os : list rop) : list msg :=
  flat_map (fun o => match o with RArrive m => [m] | _ => [] end) os.
Definition distinct_hashes (os : list rop) : nat :=
  length (nodup Z.eq_dec (map m_hash (arrivals os))).

(** The sizes of the forward jumps in the delivered clocks: how far the clock of a
    message is above the highest clock delivered before for the same publisher, when
    that is more than one. *)
Definition highest (t : text) (past : list msg) : option Z :=
  fold_left (fun acc m => if eqb (m_tid m) t
                          then Some (match acc with Some h => Z.max h (m_clock m) | None => m_clock m end)
                          else acc) past None.
Fixpoint jumps (past ms : list msg) : list Z :=
  match ms with
  | [] => []
  | m :: ms' =>
      match highest (m_tid m) past with
      | Some h => if Z.ltb (h + 1) (m_clock m) then [(m_clock m - h)%Z] else []
      | None => []
      end ++ jumps (past ++ [m]) ms'
  end.
Definition sum (l : list Z) : Z := fold_right Z.add 0%Z l.
(** A jump of j leaves out j - 1 messages. *)
Definition missed (ms : list msg) : Z := sum (map (fun j => j - 1)%Z (jumps [] ms)).

Definition drop_events (outs : list (list rout)) : nat :=
  length (filter (fun o => match o with RODropEvent _ _ => true | _ => false end) (concat outs)).

(** The receive callback, the id filter in force after a history of calls. *)
Definition callback_after (os : list rop) : option nat :=
  fold_left (fun a o => match o with RSetCallback k => Some k | RRemCallback | RStop => None | _ => a end) os None.
Definition filter_after (os : list rop) : list Z :=
  fold_left (fun a o => match o with RSetID ids => ids | _ => a end) os [].

(** [m] is delivered into the receive buffer when it arrives after [os]. *)
Definition buffered (c : rcfg) (os : list rop) (m : msg) : Prop :=
  takes c (rd_after c os) m = true /\ callback_after os = None.
Definition drop_callback_after (os : list rop) : option nat :=
  fold_left (fun a o => match o with RSetDropEvent k => Some k | RRemDropEvent | RStop => None | _ => a end) os None.
(** [m], coming after the messages [past], jumps forward. *)
Definition jumps_over (past : list msg) (m : msg) : Prop :=
  exists h, highest (m_tid m) past = Some h /\ (h + 1 < m_clock m)%Z.
(** The newest message waiting in the receive buffer after [os]: it was put there,
    nothing else was put there later, and no receive call came later. *)
Definition newest (c : rcfg) (os : list rop) (p : list Z) (t : Z) : Prop :=
  exists os1 m os2, os = os1 ++ RArrive m :: os2 /\ buffered c os1 m /\ p = m_payload m /\ t = m_time m /\
    ~ In RRead os2 /\
    (forall a m' b, os2 = a ++ RArrive m' :: b -> ~ buffered c (os1 ++ RArrive m :: a) m').
(** The layer of the message is switched on in the subscriber's configuration. *)
Definition layer_enabled (c : rcfg) (m : msg) : Prop :=
  (m_layer m = tl_udp -> rc_udp c = true) /\ (m_layer m = tl_shm -> rc_shm c = true) /\ (m_layer m = tl_tcp -> rc_tcp c = true).
Definition id_requested (os : list rop) (m : msg) : Prop := filter_after os = [] \/ In (m_id m) (filter_after os).
(** No earlier message of this publisher with this clock or a later one was delivered. *)
Definition newer_clock (past : list msg) (m : msg) : Prop :=
  forall h, In h (clocks_of (m_tid m) past) -> (h < m_clock m)%Z.
