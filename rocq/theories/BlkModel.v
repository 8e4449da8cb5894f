(** Model of a blocking service call to all matching servers.
    ecal/core/src/service/ecal_service_client_impl.cpp 193-297 (Call), 441-595 (CallBlocking),
    597-637 (fromSerializedProtobuf, fromStruct).

    One iteration of the loop over the services is a step (it holds the mutex of the call), one
    response callback is a step, and so are the two ways in which waiting ends.  Each session runs
    the callback of an accepted call once (C29).
    Simplified: int conversion of the error text of a session error is a given text. *)
From Verif Require Import Base Sample PbModel SerModel.

Record target := Target { tg_key : text; tg_host : text; tg_name : text }.   (* SServiceAttr *)
(** SServiceResponse, ecal/core/include/ecal/ecal_service_info.h; call_state 1 executed, 2 failed. *)
Record sresp := SResp { sp_host : text; sp_name : text; sp_id : text; sp_method : text; sp_error : text; sp_ret : Z; sp_state : Z; sp_bytes : text }.
Record bentry := BEntry { be_back : bool; be_resp : sresp; be_open : bool }.  (* be_open: its callback has not run *)
Inductive banswer := AError (e : text) | ABytes (bs : list Z).

Record blk := Blk {
  bk_todo : list target;             (* the rest of service_vec *)
  bk_sessions : list text;           (* keys of m_client_map *)
  bk_entries : list bentry;          (* *responses *)
  bk_expected : nat; bk_finished : nat;
  bk_block : bool;                   (* block_modifying_responses *)
  bk_ret : option (list (bool * sresp)) }.
Definition blk0 (services : list target) (sessions : list text) : blk := Blk services sessions [] 0 0 false None.

(** static_cast<int>(int64_t). *)
Definition int32 (z : Z) : Z := let m := (z mod 2 ^ 32)%Z in if (m <? 2 ^ 31)%Z then m else (m - 2 ^ 32)%Z.
(** fromSerializedProtobuf 597-612, fromStruct 614-635. *)
Definition from_bytes (bs : list Z) (r : sresp) : sresp :=
  match de_response bs with
  | Ok p =>
      let h := rp_header p in
      SResp (h_hname h) (h_sname h) (h_sid h) (h_mname h) (h_error h) (int32 (rp_ret p))
        (if (h_state h =? 1)%Z then 1%Z else if (h_state h =? 2)%Z then 2%Z else sp_state r) (rp_response p)
  | _ => SResp (sp_host r) (sp_name r) (sp_id r) (sp_method r) (str "Could not parse server response") 0 2 []
  end.
(** 508-527: the callback's effect on its response. *)
Definition take_answer (a : banswer) (r : sresp) : sresp :=
  match a with
  | AError e => SResp (sp_host r) (sp_name r) (sp_id r) (sp_method r) e 0 2 (sp_bytes r)
  | ABytes bs => from_bytes bs r
  end.
Fixpoint upd {A} (i : nat) (x : A) (l : list A) {struct l} : list A :=
  match l, i with
  | [], _ => []
  | _ :: l', 0 => x :: l'
  | y :: l', S i' => y :: upd i' x l'
  end.

Inductive bop :=
| BIssue (ok : bool)               (* one iteration; ok: async_call_service accepts the call *)
| BSession (k : text)              (* another thread adds a session, CheckForNewServices *)
| BAnswer (i : nat) (a : banswer)  (* the response callback of entry i *)
| BWake                            (* all calls finished *)
| BTimeout.                        (* wait_for gives up *)
Definition b_finish (s : blk) : blk :=
  Blk (bk_todo s) (bk_sessions s) (bk_entries s) (bk_expected s) (bk_finished s) true (Some (map (fun e => (be_back e, be_resp e)) (bk_entries s))).
(** host: SetHostName, empty for any; method: the name of the method; timed: timeout_ > 0. *)
Definition b_step (host method : text) (timed : bool) (op : bop) (s : blk) : option blk :=
  match op with
  | BIssue ok =>
      match bk_todo s with
      | [] => None
      | t :: todo =>
          if ((match host with [] => true | _ => eqb host (tg_host t) end) && existsb (eqb (tg_key t)) (bk_sessions s))%bool then
            let r := SResp (tg_host t) (tg_name t) (tg_key t) method (str "Timeout") 0 2 [] in
            let r' := if ok then r else SResp (tg_host t) (tg_name t) (tg_key t) method (str "Stopped by user") 0 2 [] in
            Some (Blk todo (bk_sessions s) (bk_entries s ++ [BEntry false r' ok]) (S (bk_expected s))
                    (if ok then bk_finished s else S (bk_finished s)) (bk_block s) (bk_ret s))
          else Some (Blk todo (bk_sessions s) (bk_entries s) (bk_expected s) (bk_finished s) (bk_block s) (bk_ret s))
      end
  | BSession k => Some (Blk (bk_todo s) (k :: bk_sessions s) (bk_entries s) (bk_expected s) (bk_finished s) (bk_block s) (bk_ret s))
  | BAnswer i a =>
      match nth_error (bk_entries s) i with
      | Some (BEntry b r true) =>
          let e := if bk_block s then BEntry b r false else BEntry true (take_answer a r) false in
          Some (Blk (bk_todo s) (bk_sessions s) (upd i e (bk_entries s)) (bk_expected s) (S (bk_finished s)) (bk_block s) (bk_ret s))
      | _ => None
      end
  | BWake =>
      match bk_todo s, bk_ret s with
      | [], None => if Nat.eqb (bk_expected s) (bk_finished s) then Some (b_finish s) else None
      | _, _ => None
      end
  | BTimeout =>
      match bk_todo s, bk_ret s with
      | [], None => if timed then Some (b_finish s) else None
      | _, _ => None
      end
  end.
Fixpoint b_run (host method : text) (timed : bool) (ops : list bop) (s : blk) : option blk :=
  match ops with
  | [] => Some s
  | op :: ops' => match b_step host method timed op s with Some s' => b_run host method timed ops' s' | None => None end
  end.

(** Call 193-240: the responses for the user, the number of timeout events and the result. *)
Definition call_vec (timed : bool) (l : list (bool * sresp)) : list sresp * nat * bool :=
  (map snd l, if timed then length (filter (fun p => negb (fst p)) l) else 0, existsb (fun p => (sp_state (snd p) =? 1)%Z) l).
(** Call 243-297: the response callbacks, the number of timeout events and the result. *)
Definition call_cb (timed : bool) (l : list (bool * sresp)) : list sresp * nat * bool :=
  (map snd (filter fst l), if timed then length (filter (fun p => negb (fst p)) l) else 0, existsb (fun p => (sp_state (snd p) =? 1)%Z) l).
