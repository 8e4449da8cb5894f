(** Specification vocabulary for the registration layer. *)
From Verif Require Import Base Sample RegModel.

(** The group a sample belongs to: its host group if it is a topic sample that names
    one, else its host. *)
Definition group_of (s : sample) (g : text) : Prop :=
  (is_pub_cmd (sm_cmd s) || is_sub_cmd (sm_cmd s) = true /\ tp_hgname (sm_topic s) <> [] /\ g = tp_hgname (sm_topic s)) \/
  ((is_pub_cmd (sm_cmd s) || is_sub_cmd (sm_cmd s) = false \/ tp_hgname (sm_topic s) = []) /\ g = sm_host s).

(** From the group [mine]: both known and equal. *)
Definition from_group (mine : text) (s : sample) : Prop := mine <> [] /\ group_of s mine.

(** The last thing the history says about consumer [c]: registered with callback [f]. *)
Definition registered (h : list apop) (c : text) (f : nat) : Prop :=
  exists h1 h2, h = h1 ++ APSet c f :: h2 /\
    forall o, In o h2 -> o <> APRem c /\ forall g, o <> APSet c g.

(** The loop-back setting after a history that started with [b]. *)
Fixpoint loopback_after (b : bool) (h : list apop) : bool :=
  match h with [] => b | APLoop b' :: h' => loopback_after b' h' | _ :: h' => loopback_after b h' end.

(** User registration events. *)
Definition event_matches (e : regevent) (c : cmd) : Prop :=
  match e with
  | RePub => is_pub_cmd c = true | ReSub => is_sub_cmd c = true | ReService => is_srv_cmd c = true
  | ReClient => is_cli_cmd c = true | ReProcess => is_prc_cmd c = true | ReOther _ => False
  end.
Definition known_event (e : regevent) : Prop := forall z, e <> ReOther z.
(** The callback the user last set for [e]. *)
Definition last_set (h : list uaop) (e : regevent) (f : nat) : Prop :=
  exists h1 h2, h = h1 ++ UAAdd e f :: h2 /\
    forall o, In o h2 -> o <> UARem e /\ forall g, o <> UAAdd e g.

(** Provider: what the interface was given, in order, and what left the process. *)
Section Provider.
  Context {S : Type}.
  (** Samples accepted so far: pushed while the provider was up. *)
  Fixpoint handed (p : prov S) (os : list (pvop S)) : list S :=
    match os with
    | [] => []
    | o :: os' =>
        (match o with
         | PvPush s => if pv_created p then [s] else []
         | PvStopPush s => match pv_stopping p with StNone => if pv_created p then [s] else [] | _ => [] end
         | _ => [] end)
          ++ handed (pv_step p o) os'
    end.
  Definition applied_of (b : batch S) : list S := match b with Applied l => l | Cyclic _ => [] end.
  Definition sent_applied (p : prov S) : list S := flat_map applied_of (pv_sent p).
  (** Cyclic and applied batches alternate, a cyclic batch first. *)
  Fixpoint alternates (l : list (batch S)) : Prop :=
    match l with
    | [] => True
    | [Cyclic _] => True
    | Cyclic _ :: Applied _ :: l' => alternates l'
    | _ => False
    end.
End Provider.
