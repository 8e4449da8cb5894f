(** Model of a service server: the table of methods and the answer to a request.
    ecal/core/src/service/ecal_service_server_impl.cpp 175-251, 310-352, 400-480.

    The sessions of the server call RequestCallback, several at a time (each session has its own
    strand; Start 117-125 passes parallel_service_calls_enabled = true).  The part below the lock
    of the method table is one step, the start and the end of the user's callback are two more.
    Not modelled: Start and Stop (they replace the table and the names as a whole). *)
From Verif Require Import Base Sample PbModel SerModel.

(** SMethod, ecal_service_server_impl.h 100-104.  A user callback is named by a number; None is
    an empty std::function. *)
Record smethod := SMethod { mt_method : method; mt_cb : option nat }.
(** A request that waits for its callback. *)
Record job := Job { jb_method : smethod; jb_req : text; jb_entered : bool }.
Record server := Server {
  vr_host : text; vr_name : text; vr_id : text;
  vr_methods : list (text * smethod);   (* m_method_map; simplified: in no particular order *)
  vr_next : nat;                        (* number of requests so far; requests are named by it *)
  vr_jobs : list (nat * job);
  vr_dead : bool }.                     (* the process was terminated by an exception *)
Definition server0 (host name id : text) : server := Server host name id [] 0 [] false.

Inductive mop :=
| MDescribe (m req_type req_desc resp_type resp_desc : text)   (* AddDescription *)
| MCallback (m req_type resp_type : text) (cb : nat)           (* AddMethodCallback *)
| MRemove (m : text)                                           (* RemMethodCallback *)
| MRequest (bs : list Z)                                       (* RequestCallback until the lock is released *)
| MEnter (k : nat)                                             (* request k enters the callback *)
| MReturn (k : nat) (resp : text) (ret : Z)                    (* the callback of request k returns *)
| MRegister.                                                   (* GetRegistrationSample *)
Inductive mev :=
| VRemoved (found : bool)
| VCall (k : nat) (cb : nat) (m req_type resp_type : text) (req : text)
| VReply (k : nat) (bs : list Z)
| VMethods (l : list method)
| VTerminate (k : nat).

Definition st_executed : Z := 1.
Definition st_failed : Z := 2.
(** AddDescription 175-201. *)
Definition describe (m rt rd st sd : text) (s : list (text * smethod)) : list (text * smethod) :=
  match aget m s with
  | Some e => aset m (SMethod (Method m rt rd st sd (me_count (mt_method e))) (mt_cb e)) s
  | None => aset m (SMethod (Method m rt rd st sd 0) None) s
  end.
(** AddMethodCallback 204-236. *)
Definition add_callback (m rt st : text) (cb : nat) (s : list (text * smethod)) : list (text * smethod) :=
  match aget m s with
  | Some e =>
      aset m (SMethod (Method m rt (me_req_desc (mt_method e)) st (me_resp_desc (mt_method e)) (me_count (mt_method e))) (Some cb)) s
  | None => aset m (SMethod (Method m rt [] st [] 0) (Some cb)) s
  end.
Definition counted (e : smethod) : smethod :=
  let q := mt_method e in
  SMethod (Method (me_name q) (me_req_type q) (me_req_desc q) (me_resp_type q) (me_resp_desc q) (me_count q + 1)) (mt_cb e).

(** 414, 440: the texts. *)
Definition err_parse (name : text) : text := str "Service '" ++ name ++ str "' request message could not be parsed.".
Definition err_method (name m : text) : text := str "Service '" ++ name ++ str "' has no method named '" ++ m ++ str "'".
(** 402-407: the header of all answers. *)
Definition answer (s : server) (mname error : text) (state : Z) (resp : text) (ret : Z) : list Z :=
  ser_response (Response (Header (vr_host s) (vr_name s) (vr_id s) mname error 0 state) resp ret).

Definition set_methods (l : list (text * smethod)) (s : server) : server :=
  Server (vr_host s) (vr_name s) (vr_id s) l (vr_next s) (vr_jobs s) (vr_dead s).
Definition set_jobs (l : list (nat * job)) (s : server) : server :=
  Server (vr_host s) (vr_name s) (vr_id s) (vr_methods s) (vr_next s) l (vr_dead s).
Definition next_request (s : server) : server :=
  Server (vr_host s) (vr_name s) (vr_id s) (vr_methods s) (S (vr_next s)) (vr_jobs s) (vr_dead s).

(** None: the step is not possible. *)
Definition m_step (op : mop) (s : server) : option (server * list mev) :=
  if vr_dead s then None else
  match op with
  | MDescribe m rt rd st sd => Some (set_methods (describe m rt rd st sd (vr_methods s)) s, [])
  | MCallback m rt st cb => Some (set_methods (add_callback m rt st cb (vr_methods s)) s, [])
  | MRemove m =>
      if amem m (vr_methods s) then Some (set_methods (adel m (vr_methods s)) s, [VRemoved true]) else Some (s, [VRemoved false])
  | MRequest bs =>
      let k := vr_next s in
      match de_request bs with
      | Ok q =>
          let m := h_mname (rq_header q) in
          match aget m (vr_methods s) with
          | Some e =>
              let e' := counted e in
              Some (set_jobs ((k, Job e' (rq_request q) false) :: vr_jobs s)
                     (set_methods (aset m e' (vr_methods s)) (next_request s)), [])
          | None => Some (next_request s, [VReply k (answer s m (err_method (vr_name s) m) st_failed [] 0)])
          end
      | _ => Some (next_request s, [VReply k (answer s [] (err_parse (vr_name s)) st_failed [] 0)])
      end
  | MEnter k =>
      match aget k (vr_jobs s) with
      | Some (Job e r false) =>
          match mt_cb e with
          | Some cb =>
              Some (set_jobs (aset k (Job e r true) (vr_jobs s)) s,
                    [VCall k cb (me_name (mt_method e)) (me_req_type (mt_method e)) (me_resp_type (mt_method e)) r])
          | None =>  (* std::bad_function_call, not caught by the thread of the io context *)
              Some (Server (vr_host s) (vr_name s) (vr_id s) (vr_methods s) (vr_next s) (vr_jobs s) true, [VTerminate k])
          end
      | _ => None
      end
  | MReturn k resp ret =>
      match aget k (vr_jobs s) with
      | Some (Job e r true) =>
          Some (set_jobs (adel k (vr_jobs s)) s, [VReply k (answer s (me_name (mt_method e)) [] st_executed resp ret)])
      | _ => None
      end
  | MRegister => Some (s, [VMethods (map (fun p => mt_method (snd p)) (vr_methods s))])
  end.
Fixpoint m_run (ops : list mop) (s : server) : option (server * list mev) :=
  match ops with
  | [] => Some (s, [])
  | op :: ops' =>
      match m_step op s with
      | Some (s1, e1) => match m_run ops' s1 with Some (s2, e2) => Some (s2, e1 ++ e2) | None => None end
      | None => None
      end
  end.
