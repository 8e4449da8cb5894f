(** Vocabulary for services as a whole. *)
From Verif Require Import Base Sample ExpMapModel PbModel PbSpec SerModel SerSpec SrvModel SrvSpec CliModel CliSpec FrmModel RpcModel RpcSpec SdsModel WsvModel.
From Verif Require SdsSpec.

(** The operations lead to this state. *)
Definition wreach (ops : list wop) (s : wsv) : Prop := ws_run ops wsv0 = Some s.
(** Values that the C++ types can hold; no registration, request or answer has 4 GiB. *)
Definition wsane (ops : list wop) : Prop := forall o, In (WNet o) ops -> SdsSpec.dsane_op o.
Definition wfits (s : wsv) : Prop := SdsSpec.dfits (ws_net s) /\ forall n c, nth_error (ws_cons s) n = Some c -> modest (co_tr c).

(** Session [n]; server [i]; session [n] is connected to server [i]. *)
Definition con (s : wsv) (n : nat) (c : wcon) : Prop := nth_error (ws_cons s) n = Some c.
Definition inst (s : wsv) (i : nat) (t : winst) : Prop := nth_error (ws_insts s) i = Some t.
(** What others learn of a server. *)
Definition wi_facts (t : winst) : dattr := SdsSpec.facts (wi_cfg t) (wi_srv t).
(** What server [i] did and what became of it. *)
Definition wi_ops (t : winst) : list mop := server_ops (wi_tr t).
Definition wi_evs (t : winst) : list mev := server_events (wi_tr t).

(** No two servers of one host have ever had the same port. *)
Definition no_reuse (s : wsv) : Prop :=
  forall i j t u, inst s i t -> inst s j u -> pc_host (wi_cfg t) = pc_host (wi_cfg u) ->
    sx_port1 (wi_cfg t) (wi_srv t) = sx_port1 (wi_cfg u) (wi_srv u) -> sx_port1 (wi_cfg t) (wi_srv t) <> 0%Z -> i = j.

(** Steps without failures, without new calls, without changes of the methods. *)
Definition wsmooth (o : wop) : bool :=
  match o with
  | WCon _ (XClient (CSent true)) | WCon _ XClientByte | WCon _ XServerByte | WDo _ (MEnter _) | WDo _ (MReturn _ _ _) => true
  | _ => false
  end.

(** Steps without failures, new calls and changes of the methods; connecting is among them. *)
Definition wgentle (o : wop) : bool :=
  match o with
  | WCon _ (XClient CPost) | WCon _ (XClient (CResolve true)) | WCon _ (XClient (CHsSent true)) | WConnect _ _ => true
  | _ => wsmooth o
  end.
(** The session leads to this server. *)
Definition leads_to (c : wcon) (t : winst) : Prop :=
  ss_proto (co_ses c) <> 0%Z /\ sx_port1 (wi_cfg t) (wi_srv t) <> 0%Z /\
  exists rest, ss_ends (co_ses c) = (pc_host (wi_cfg t), sx_port1 (wi_cfg t) (wi_srv t)) :: rest.
(** No request ever met a known method without callback, and now every known method has one. *)
Definition prepared (ops : list mop) : Prop := callable ops /\ forall m, known ops m = true -> ld_cb (book ops m) <> None.
(** The shortest answers of the server to this request fit. *)
Definition answers_fit (t : winst) (bs : list Z) : Prop :=
  let h := pc_host (wi_cfg t) in let a := sx_name (wi_srv t) in let i := sx_id (wi_srv t) in
  fits (ser_response (say_unreadable h a i)) /\
  forall m, names m bs = true -> fits (ser_response (say_unknown h a i m)) /\ fits (ser_response (say_executed h a i m [] 0)).

(** ** Examples *)
Definition w_bytes (n : nat) (o : xop) (k : nat) : list wop := repeat (WCon n o) k.
Definition w_link (n i : nat) : list wop :=
  [WCon n (XClient (CResolve true)); WConnect n i; WCon n (XClient (CHsSent true))] ++ w_bytes n XServerByte 18 ++ w_bytes n XClientByte 17.
(** Session [n] takes call [m] up to server [i], which executes it as its request [k]; and back. *)
Definition w_up (n : nat) (m req : text) : list wop :=
  [WCon n (XClient CPost); WCon n (XClient (CSent true))] ++ w_bytes n XServerByte (16 + length (call_bytes m req)).
Definition w_work (i k : nat) (resp : text) (ret : Z) : list wop := [WDo i (MEnter k); WDo i (MReturn k resp ret)].
Definition w_down (n : nat) (r : response) : list wop := w_bytes n XClientByte (16 + length (ser_response r)).
(** One server, two clients in two processes; both call it at the same time. *)
Definition w_setup : list wop :=
  map WNet [DStart 1 SdsSpec.d_ca; DStart 2 SdsSpec.d_cb; DStart 3 SdsSpec.d_cc; DAt 1 (PServe 0 (str "s") (str "100") (SdsSpec.d_srv 4000 4001));
            DAt 2 (PClient 0 (str "s")); DAt 3 (PClient 0 (str "s"))] ++
  [WDo 0 (MCallback (str "add") [] [] 3)] ++
  map WNet [DAt 1 PCollect; DAt 2 (PHear 0 1000); DAt 3 (PHear 0 1000)].
Definition w_both : list wop :=
  w_setup ++ [WCall 2 0 (str "add") [1]%Z; WCall 3 0 (str "add") [2]%Z] ++ w_link 0 0 ++ w_link 1 0 ++
  w_up 1 (str "add") [2]%Z ++ w_up 0 (str "add") [1]%Z ++ w_work 0 1 [7]%Z 5 ++ w_work 0 0 [8]%Z 6.
Definition w_says (m resp : text) (ret : Z) : response := say_executed (str "h1") (str "s") (str "100") m resp ret.
Definition w_all : list wop := w_both ++ w_down 0 (w_says (str "add") [7]%Z 5) ++ w_down 1 (w_says (str "add") [8]%Z 6).
(** The server goes, another service gets its port, and the client, which does not know yet, calls. *)
Definition w_reuse : list wop :=
  w_setup ++ map WNet [DAt 1 (PEnd 0); DAt 1 (PServe 1 (str "bank") (str "200") (SdsSpec.d_srv 4002 4001))] ++
  [WDo 1 (MCallback (str "add") [] [] 9); WCall 2 0 (str "add") [1]%Z] ++ w_link 0 1 ++ w_up 0 (str "add") [1]%Z ++ w_work 1 0 [7]%Z 5 ++
  w_down 0 (say_executed (str "h1") (str "bank") (str "200") (str "add") [7]%Z 5).
(** The connection is lost once; the server goes on. *)
Definition w_lost : list wop :=
  w_setup ++ [WCall 2 0 (str "add") [1]%Z] ++ w_link 0 0 ++ w_up 0 (str "add") [1]%Z ++ [WCon 0 XLost; WCon 0 (XClient (CReceived RError))] ++
  map WNet [DAt 2 PCollect; DAt 1 PCollect; DAt 2 (PHear 1 2000)].
Definition w_view (ops : list wop) : option (list (option nat * list (nat * list Z)) * list (list mev)) :=
  match ws_run ops wsv0 with
  | Some s => Some (map (fun c => (co_srv c, gots (co_tr c))) (ws_cons s), map wi_evs (ws_insts s))
  | None => None
  end.
(** The state after a run, a session and a server of it. *)
Definition the_s (ops : list wop) : wsv := match ws_run ops wsv0 with Some s => s | None => wsv0 end.
Definition con0 : wcon := co_new 0 0 [] [] (DSes 0 [] false).
Definition the_con (ops : list wop) (n : nat) : wcon := nth n (ws_cons (the_s ops)) con0.
Definition the_inst (ops : list wop) (i : nat) : winst := nth i (ws_insts (the_s ops)) (wi_new 0 0 SdsSpec.d_ca (DSrv [] [] (SdsSpec.d_srv 0 0))).
(** A request is on its way. *)
Definition w_mid : list wop := w_setup ++ [WCall 2 0 (str "add") [1]%Z] ++ w_link 0 0 ++ [WCon 0 (XClient CPost)].
(** Two calls through a session that is not connected; later the first one is on its way and the second one waits. *)
Definition w_two : list wop := w_setup ++ [WCall 2 0 (str "add") [1]%Z; WCall 2 0 (str "add") [2]%Z].
Definition w_line : list wop := w_two ++ [WCon 0 (XClient CPost); WCon 0 (XClient CPost)] ++ w_link 0 0.
