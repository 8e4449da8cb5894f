(** Vocabulary for the statements about shared memory publishing.  Everything is said about
    the sequence of events of a run. *)
From Verif Require Import Base ShmModel.

(** ** Deliveries *)
(** The bytes are the payload the publisher wrote under this header in this file - for
    every payload writer that reported success. *)
Definition written_as (tr : list event) (nm : nat) (h : hdr) (bs : list Z) : Prop :=
  exists pay full good, In (EvWritten nm h pay full good) tr /\ length bs = length pay /\ (good = true -> bs = pay).
(** Clocks handed over by the observer of a process since it was started last. *)
Definition seen_step (pid nm : nat) (l : list Z) (e : event) : list Z :=
  match e with
  | EvStart p n => if Nat.eqb p pid && Nat.eqb n nm then [] else l
  | EvDeliver p n h _ => if Nat.eqb p pid && Nat.eqb n nm then h_clock h :: l else l
  | _ => l
  end.
Definition seen (pid nm : nat) (tr : list event) : list Z := fold_left (seen_step pid nm) tr [].

(** ** Ring *)
Definition is_return (e : event) : bool := match e with EvReturn _ => true | _ => false end.
Definition returns (tr : list event) : nat := length (filter is_return tr).
(** The file holds this header and payload. *)
Definition holds (s : shm) (nm : nat) (h : hdr) (pay : list Z) : Prop :=
  exists f, get_file s nm = Some f /\ f_hdr f = h /\ prefix (h_size h) (f_pay f) = pay /\ h_size h = Z.of_nat (length pay).

(** ** Acknowledgements *)
(** The process is connected to the file and has not timed out since. *)
Definition valid_step (nm pid : nat) (a : bool) (e : event) : bool :=
  match e with
  | EvConnect n p => if Nat.eqb n nm && Nat.eqb p pid then true else a
  | EvTimedOut n p _ => if Nat.eqb n nm && Nat.eqb p pid then false else a
  | _ => a
  end.
Definition valid (nm pid : nat) (tr : list event) : bool := fold_left (valid_step nm pid) tr false.
(** The observer has read a message and has not finished it. *)
Definition busy_step (pid nm : nat) (a : bool) (e : event) : bool :=
  match e with
  | EvStart p n | EvDone p n => if Nat.eqb p pid && Nat.eqb n nm then false else a
  | EvRead p n _ => if Nat.eqb p pid && Nat.eqb n nm then true else a
  | _ => a
  end.
Definition busy (pid nm : nat) (tr : list event) : bool := fold_left (busy_step pid nm) tr false.

(** ** Steps of the waiting publisher *)
(** Steps of the publisher while it waits, and the passing of time. *)
Definition waiting_op (op : sop) : bool :=
  match op with SEat _ | SSet _ | SAckTimeout _ | SSkip _ | SReturn | STick _ => true | _ => false end.
Definition elapsed (ops : list sop) : Z := fold_right (fun op t => match op with STick d => Z.max 0 d + t | _ => t end)%Z 0%Z ops.
