(** Property C31: how a service server answers requests. *)
From Verif Require Import Base Sample PbModel PbSpec SerModel SerSpec SrvModel SrvSpec SrvProofs.

(** Whatever else the server does, a request for a known method is executed at most once, by the
    callback installed at that time, with the bytes of the request, and the answer is what this
    callback returned.  A request for an unknown method and bytes that are no request are answered
    once, as failed, and nothing is executed. *)
Theorem c31_request : forall host name id ops1 bs ops2 s tr,
  m_run (ops1 ++ MRequest bs :: ops2) (server0 host name id) = Some (s, tr) ->
  let k := requests ops1 in
  match de_request bs with
  | Ok q =>
      let m := h_mname (rq_header q) in
      let l := book ops1 m in
      if ld_known l then
        match ld_cb l with
        | Some cb =>
            let call := VCall k cb m (fst (ld_types l)) (snd (ld_types l)) (rq_request q) in
            (about k tr = [] /\ (vr_dead s = false -> m_step (MEnter k) s <> None)) \/
            (about k tr = [call] /\ (vr_dead s = false -> forall resp ret, m_step (MReturn k resp ret) s <> None)) \/
            (exists resp ret, returns ops2 k = [(resp, ret)] /\
               about k tr = [call; VReply k (ser_response (say_executed host name id m resp ret))])
        | None => about k tr = [] \/ about k tr = [VTerminate k]
        end
      else about k tr = [VReply k (ser_response (say_unknown host name id m))]
  | _ => about k tr = [VReply k (ser_response (say_unreadable host name id))]
  end.
Proof. exact request_lemma. Qed.
Print Assumptions c31_request.

(** The client can read the answers. *)
Theorem c31_answers_readable_partial : forall host name id m resp ret,
  (let r := say_unreadable host name id in (len (ser_response r) < 2 ^ 32)%Z -> de_response (ser_response r) = Ok r) /\
  (let r := say_unknown host name id m in (len (ser_response r) < 2 ^ 32)%Z -> de_response (ser_response r) = Ok r) /\
  (let r := say_executed host name id m resp ret in i64 ret -> (len (ser_response r) < 2 ^ 32)%Z -> de_response (ser_response r) = Ok r).
Proof. exact (fun host name id m resp ret => conj (read_unreadable host name id) (conj (read_unknown host name id m) (read_executed host name id m resp ret))). Qed.
Print Assumptions c31_answers_readable_partial.

(** The registration lists exactly the known methods with their types, descriptions and counters. *)
Theorem c31_registration : forall host name id ops s tr, m_run ops (server0 host name id) = Some (s, tr) -> vr_dead s = false ->
  exists l, m_step MRegister s = Some (s, [VMethods l]) /\ NoDup (map me_name l) /\
    forall q, In q l <->
      (known ops (me_name q) = true /\
       let b := book ops (me_name q) in
       q = Method (me_name q) (fst (ld_types b)) (fst (ld_descs b)) (snd (ld_types b)) (snd (ld_descs b)) (ld_count b)).
Proof. exact register_lemma. Qed.
Print Assumptions c31_registration.

(** Every request for a known method has been executed or still waits, and the counter of a method
    that was never removed is the number of both. *)
Theorem c31_call_counter : forall host name id ops m s tr, m_run ops (server0 host name id) = Some (s, tr) ->
  executions m tr + waiting m s = asked [] ops m /\
  ((forall m', In (MRemove m') ops -> m' <> m) -> ld_count (book ops m) = Z.of_nat (executions m tr + waiting m s)).
Proof. exact calls_lemma. Qed.
Print Assumptions c31_call_counter.

(** If every method has a callback when it is requested the server is not terminated. *)
Theorem c31_no_termination_partial : forall host name id ops s tr,
  m_run ops (server0 host name id) = Some (s, tr) -> callable ops -> vr_dead s = false.
Proof. exact no_terminate_lemma. Qed.
Print Assumptions c31_no_termination_partial.

(** ... and all requests can be finished by the threads of the server alone. *)
Theorem c31_all_answered_partial : forall host name id ops s tr, m_run ops (server0 host name id) = Some (s, tr) -> callable ops ->
  exists ops' s' tr', forallb work ops' = true /\ m_run (ops ++ ops') (server0 host name id) = Some (s', tr ++ tr') /\ vr_jobs s' = [].
Proof. exact finish_lemma. Qed.
Print Assumptions c31_all_answered_partial.

Example c31_example : exists s tr,
  m_run [MCallback (str "add") (str "I") (str "O") 3; MRequest (call_of (str "add") [1; 2]%Z); MRequest (call_of (str "sub") []); MRequest [255]%Z;
         MRequest (call_of (str "add") [9]%Z); MEnter 3; MEnter 0; MReturn 0 [3]%Z 0; MRegister]
    (server0 (str "host") (str "srv") (str "1")) = Some (s, tr) /\
  about 0 tr = [VCall 0 3 (str "add") (str "I") (str "O") [1; 2]%Z; VReply 0 (ser_response (say_executed (str "host") (str "srv") (str "1") (str "add") [3]%Z 0))] /\
  about 1 tr = [VReply 1 (ser_response (say_unknown (str "host") (str "srv") (str "1") (str "sub")))] /\
  about 2 tr = [VReply 2 (ser_response (say_unreadable (str "host") (str "srv") (str "1")))] /\
  about 3 tr = [VCall 3 3 (str "add") (str "I") (str "O") [9]%Z] /\
  In (VMethods [Method (str "add") (str "I") [] (str "O") [] 2]) tr /\ vr_dead s = false.
Proof. do 2 eexists. split; [vm_compute; reflexivity|]. repeat split; try (vm_compute; reflexivity). vm_compute. tauto. Qed.
Example c31_callable_case : callable [MCallback (str "m") [] [] 5; MRequest (call_of (str "m") [7]%Z)].
Proof.
  intros ops1 bs ops2 m E N K. destruct ops1 as [|o1 [|o2 [|o3 ops1]]]; try discriminate.
  injection E as <- <- _. unfold known, book in *. cbn [fold_left note] in *. destruct (eqb (str "m") m); discriminate.
Qed.

(** A method that was only described terminates the process when it is called. *)
Theorem c31_described_method_terminates_refuted :
  exists s, m_run [MDescribe (str "m") [] [] [] []; MRequest (call_of (str "m") [7]%Z); MEnter 0]
    (server0 (str "host") (str "srv") (str "1")) = Some (s, [VTerminate 0]) /\ vr_dead s = true.
Proof. exact described_crash. Qed.
Print Assumptions c31_described_method_terminates_refuted.

(** A callback can be called after it was removed. *)
Theorem c31_removed_callback_called_refuted :
  exists s, m_run [MCallback (str "m") [] [] 5; MRequest (call_of (str "m") [7]%Z); MRemove (str "m"); MEnter 0]
    (server0 (str "host") (str "srv") (str "1")) = Some (s, [VRemoved true; VCall 0 5 (str "m") [] [] [7]%Z]).
Proof. exact removed_called. Qed.
Print Assumptions c31_removed_callback_called_refuted.
