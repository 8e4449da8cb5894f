(** Vocabulary for the services of a client. *)
From Verif Require Import Base Sample CsvModel.

(** Connect and disconnect events of one service. *)
Definition changes (k : text) (tr : list kev) : list ctype :=
  flat_map (fun e => match e with KEvent CTimeout _ _ => [] | KEvent t k' _ => if eqb k' k then [t] else [] | KTerminate => [] end) tr.
(** They alternate, starting with connected; up: the last one was connected. *)
Inductive alternating : list ctype -> bool -> Prop :=
| alt_nil : alternating [] false
| alt_up l : alternating l false -> alternating (l ++ [CConnected]) true
| alt_down l : alternating l true -> alternating (l ++ [CDisconnected]) false.

(** Announced and not expired since. *)
Definition announced (ops : list kop) (k : text) : bool :=
  fold_left (fun b op => match op with
                         | KAnnounce k' => if eqb k' k then true else b
                         | KExpire k' => if eqb k' k then false else b
                         | _ => b
                         end) ops false.
(** A session that can be used. *)
Definition usable (k : text) (s : csv) : Prop := aget k (cv_sessions s) = Some false.
Definition broken (k : text) (s : csv) : Prop := aget k (cv_sessions s) = Some true.
(** The callback in force. *)
Definition in_force (ops : list kop) (t : ctype) : option (option nat) :=
  fold_left (fun c op => match op with
                         | KAdd t' cb => if ctype_eq t t' then Some (Some cb) else c
                         | KRem t' => if ctype_eq t t' then Some None else c
                         | _ => c
                         end) ops None.
