(** Vocabulary for blocking calls. *)
From Verif Require Import Base Sample PbModel PbSpec SerModel SerSpec BlkModel.

(** The services that the call goes to, in order, and whether the call could be handed over. *)
Definition wanted (host : text) (t : target) : bool := match host with [] => true | _ => eqb host (tg_host t) end.
Fixpoint called (host : text) (services : list target) (sessions : list text) (ops : list bop) : list (target * bool) :=
  match ops with
  | [] => []
  | BSession k :: ops' => called host services (k :: sessions) ops'
  | BIssue ok :: ops' =>
      match services with
      | [] => []
      | t :: services' =>
          (if (wanted host t && existsb (eqb (tg_key t)) sessions)%bool then [(t, ok)] else []) ++ called host services' sessions ops'
      end
  | _ :: ops' => called host services sessions ops'
  end.
(** What happened until the caller stopped waiting, and how that came. *)
Fixpoint until_return (ops : list bop) : list bop :=
  match ops with
  | [] => []
  | (BWake | BTimeout) :: _ => []
  | op :: ops' => op :: until_return ops'
  end.
Fixpoint answer_of (ops : list bop) (i : nat) : option banswer :=
  match ops with
  | [] => None
  | BAnswer j a :: ops' => if Nat.eqb j i then Some a else answer_of ops' i
  | _ :: ops' => answer_of ops' i
  end.
Definition in_time (ops : list bop) (i : nat) : option banswer := answer_of (until_return ops) i.

(** The result of one service. *)
Definition failure (t : target) (method why : text) : sresp := SResp (tg_host t) (tg_name t) (tg_key t) method why 0 2 [].
Definition outcome (method : text) (p : target * bool) (a : option banswer) : sresp :=
  let (t, sent) := p in
  match a with
  | Some (AError e) => failure t method e
  | Some (ABytes bs) =>
      match de_response bs with
      | Ok r =>
          let h := rp_header r in
          SResp (h_hname h) (h_sname h) (h_sid h) (h_mname h) (h_error h) (int32 (rp_ret r)) (if (h_state h =? 1)%Z then 1%Z else 2%Z) (rp_response r)
      | _ => failure t method (str "Could not parse server response")
      end
  | None => failure t method (if sent then str "Timeout" else str "Stopped by user")
  end.
Definition executed (r : sresp) : Prop := sp_state r = 1%Z.
(** The answers that came in time, in the order of the services from the n-th on, and the number of
    services without one. *)
Fixpoint answers_in_time (method : text) (ops : list bop) (n : nat) (l : list (target * bool)) : list sresp :=
  match l with
  | [] => []
  | p :: l' => match in_time ops n with Some a => [outcome method p (Some a)] | None => [] end ++ answers_in_time method ops (S n) l'
  end.
Fixpoint without_answer (ops : list bop) (n : nat) (l : list (target * bool)) : nat :=
  match l with
  | [] => 0
  | _ :: l' => match in_time ops n with Some _ => 0 | None => 1 end + without_answer ops (S n) l'
  end.
