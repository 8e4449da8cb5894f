(** Vocabulary for the connection events of a service server. *)
From Verif Require Import Base SevModel.

(** The clients that are connected: accepted sessions with their protocol version, connected and
    not lost, from the operations alone. *)
Fixpoint version_of (ops : list nop) (i : nat) : bool :=
  match ops with
  | [] => false
  | NAccept j v :: ops' => if Nat.eqb j i then v else version_of ops' i
  | _ :: ops' => version_of ops' i
  end.
Definition joined (cl : list nat) (op : nop) : list nat :=
  match op with
  | NConnect i => i :: cl
  | NLost i => filter (fun j => negb (Nat.eqb j i)) cl
  | _ => cl
  end.
Definition clients (ops : list nop) : list nat := fold_left joined ops [].
Definition connected (ops : list nop) (v : bool) : bool := existsb (fun i => Bool.eqb (version_of ops i) v) (clients ops).

(** The reports that a user expects: a client of a protocol version without clients connects, the
    last client of a protocol version disconnects. *)
Definition expected (ops : list nop) (op : nop) : list (nat * etype) :=
  match op with
  | NConnect i => if connected ops (version_of ops i) then [] else [(i, EConn)]
  | NLost i => if connected (ops ++ [op]) (version_of ops i) then [] else [(i, EDisc)]
  | _ => []
  end.
Fixpoint expectation (before ops : list nop) : list (nat * etype) :=
  match ops with
  | [] => []
  | op :: ops' => expected before op ++ expectation (before ++ [op]) ops'
  end.
Definition reports (tr : list nev) : list (nat * etype) :=
  flat_map (fun e => match e with NEvent i t _ => [(i, t)] | NTerminate _ => [] end) tr.

(** Sessions that neither connected nor failed so far. *)
Definition handshakes (s : sev) : list nat := map fst (filter (fun p => match snd (snd p) with Hand => true | _ => false end) (se_sessions s)).
(** One after the other: nothing happens to a session while another one is connecting or an event
    is being dealt with. *)
Definition one_at_a_time (ops : list nop) : Prop :=
  forall ops1 op ops2 s tr, ops = ops1 ++ op :: ops2 -> n_run ops1 sev0 = Some (s, tr) ->
    match op with
    | NAccept _ _ | NLost _ => se_pending s = [] /\ handshakes s = []
    | _ => True
    end.
(** The callback in force. *)
Definition installed (ops : list nop) (t : etype) : option (option nat) :=
  fold_left (fun c op => match op with
                         | NAdd t' cb => match t, t' with EConn, EConn | EDisc, EDisc => Some (Some cb) | _, _ => c end
                         | NRem t' => match t, t' with EConn, EConn | EDisc, EDisc => Some None | _, _ => c end
                         | _ => c
                         end) ops None.
