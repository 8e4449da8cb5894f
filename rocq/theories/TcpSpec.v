(** Vocabulary for the TCP transport layer (C37, C38). *)
From Coq Require Import List ZArith Bool Lia.
From Verif Require Import Base Sample PbModel PbSpec SerModel TcpModel.
Import ListNotations.
Local Open Scope Z_scope.

(** ** Messages *)
(** A message of a writer: 64 bit numbers, the hash as size_t. *)
Definition wf_tmsg (m : tmsg) : Prop := i64 (tm_id m) /\ i64 (tm_clock m) /\ i64 (tm_time m) /\ 0 <= tm_hash m < 2 ^ 64.
(** The receiver has been handed exactly the message; the hash is the same 64 bit pattern,
    read as a signed number. *)
Definition handed_over (tname tid : text) (m : tmsg) (x : tsample) : Prop :=
  tx_tname x = tname /\ tx_tid x = tid /\ tx_payload x = tm_payload m /\ tx_id x = tm_id m /\ tx_clock x = tm_clock m /\
  tx_time x = tm_time m /\ i64 (tx_hash x) /\ (tx_hash x = tm_hash m \/ tx_hash x = tm_hash m - 2 ^ 64).
Definition delivered (tname tid : text) (m : tmsg) (r : tres) : Prop := exists x, r = TGot x /\ handed_over tname tid m x.

(** ** Subscribers *)
(** The subscribers of a process, by number, and what the layer hears about publishers. *)
Inductive xop :=
| XAdd (sub : nat) (topic : text)
| XRem (sub : nat) (topic : text)
| XPar (topic host : text) (port : Z)
| XGone (topic host : text) (port : Z).
Definition top_of (o : xop) : top :=
  match o with XAdd _ t => TAdd t | XRem _ t => TRem t | XPar t h p => TPar t h p | XGone t h p => TGone t h p end.
(** What the subscribers of the process make the layer do. *)
Definition after (l : list xop) : tlayer := truns tlayer0 (map top_of l).
(** The subscribers that exist. *)
Definition exist1 (l : list (nat * text)) (o : xop) : list (nat * text) :=
  match o with XAdd s t => (s, t) :: l | XRem s t => filter (fun x => negb (eqb x (s, t))) l | _ => l end.
Definition exist (l : list xop) : list (nat * text) := fold_left exist1 l [].
Definition removes (t : text) (o : xop) : bool := match o with XRem _ t' => eqb t' t | _ => false end.
Definition creates (t : text) (o : xop) : bool := match o with XAdd _ t' => eqb t' t | _ => false end.
Definition about (t : text) (o : xop) : bool :=
  match o with XAdd _ t' | XRem _ t' | XPar t' _ _ | XGone t' _ _ => eqb t' t end.
