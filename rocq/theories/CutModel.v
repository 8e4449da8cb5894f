(** Model of the C getters of type information, of the log and of the time status: ecal/core/src/cimpl/ecal_util_cimpl.cpp 60-206,
    ecal_log_cimpl.cpp 47-55, ecal_time_cimpl.cpp 73-91, on top of the gate of descriptions (DscModel), the log (LogModel) and CopyBuffer (CapModel).
    A string of the caller is read up to its terminating zero. *)
From Verif Require Import Base Sample DscModel SerModel LogModel CapModel.

(** ** Topics *)
(** What is asked for: ecal_util_cimpl.cpp 67, 79, 91. *)
Inductive tfield := FType | FEncoding | FDescription.
Definition topic_field (f : tfield) (d : datatype) : text :=
  match f with FType => dt_name d | FEncoding => dt_encoding d | FDescription => dt_desc d end.
(** eCAL_Util_GetTopicTypeName, _GetTopicEncoding, _GetTopicDescription, 60-94: the gate (asking removes what is outdated), the result. *)
Definition c_topic (f : tfield) (ms : list bool) (name : option text) (target : option nat) (len now : Z) (g : dgate) (h : heap) : dgate * cres :=
  match name, target with
  | Some n, Some _ =>
      let (g1, pubs) := dg_publishers now g in
      let (g2, subs) := dg_subscribers now g1 in
      (g2, match ut_type_info (upto_zero n) pubs subs with
           | (true, d) => copy_buffer ms target len (topic_field f d) h
           | (false, _) => CRet h 0
           end)
  | _, _ => (g, CRet h 0)
  end.

(** ** Methods of services and clients *)
Inductive mfield := FReqType | FRespType | FReqDesc | FRespDesc.
Definition method_field (f : mfield) (i : sinfo) : text :=
  match f with
  | FReqType => dt_name (si_req i) | FRespType => dt_name (si_resp i)
  | FReqDesc => dt_desc (si_req i) | FRespDesc => dt_desc (si_resp i)
  end.
(** eCAL_Util_GetServiceRequestTypeName and the other seven, 96-206. *)
Definition c_method (client : bool) (f : mfield) (ms : list bool) (name meth : option text) (target : option nat) (len now : Z) (g : dgate) (h : heap)
  : dgate * cres :=
  match name, meth, target with
  | Some n, Some m, Some _ =>
      let (g1, l) := if client then dg_clients now g else dg_services now g in
      (g1, match ut_method_info (upto_zero n, upto_zero m) l with
           | (true, i) => copy_buffer ms target len (method_field f i) h
           | (false, _) => CRet h 0
           end)
  | _, _, _ => (g, CRet h 0)
  end.

(** ** The log *)
(** Logging::GetLogging(std::string&), logging/ecal_log.cpp 71-75, then ecal_log_cimpl.cpp 47-55. *)
Definition c_logging (me : ident) (ms : list bool) (target : option nat) (len : Z) (s : clog) (h : heap) : clog * cres :=
  match log_step me LFetchBuffer s with
  | (s', [EBuffer bs]) => (s', if Z.eqb (cp_int (cp_size bs)) 0 then CRet h 0 else copy_buffer ms target len bs h)
  | (s', _) => (s', CRet h 0)
  end.
(** The log used from C: fetches and everything else. *)
Inductive clop := CFetch (ms : list bool) (target : option nat) (len : Z) | COther (op : lop).
Definition cl_step (me : ident) (o : clop) (s : clog) (h : heap) : clog * cres :=
  match o with
  | CFetch ms target len => c_logging me ms target len s h
  | COther op => (fst (log_step me op s), CRet h 0)
  end.
(** The results of the calls; broken programs stop. *)
Fixpoint cl_run (me : ident) (os : list clop) (s : clog) (h : heap) : clog * option heap * list Z :=
  match os with
  | [] => (s, Some h, [])
  | o :: os' => match cl_step me o s h with
                | (s', CRet h' r) => let '(s2, h2, rs) := cl_run me os' s' h' in (s2, h2, r :: rs)
                | (s', CUb) => (s', None, [])
                end
  end.

(** ** The time *)
Section Status.
  (** What Time::GetStatus says: error number and text. *)
  Variable status : Z * text.
  (** eCAL_Time_GetStatus, ecal_time_cimpl.cpp 73-91.  The error pointer (has_error: not null) is followed in any case; the text goes to CopyBuffer with
      the address of the caller's pointer.  The second component is the error number written. *)
  Definition c_status (ms : list bool) (has_error : bool) (target : option nat) (len : Z) (h : heap) : cres * option Z :=
    if has_error then
      (if (Z.eqb len 0 || Z.ltb 0 len)%bool
       then match snd status with [] => CRet h 0 | m => copy_buffer ms target len m h end
       else CRet h 0, Some (fst status))
    else (CUb, None).
End Status.
(** Time::GetStatus, time/ecal_time.cpp 133-137, as it is compiled (C79). *)
Definition status_text : text := str "Timegate functionality not available.".
