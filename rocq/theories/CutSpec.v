(** Vocabulary for the C getters. *)
From Verif Require Import Base Sample RegModel SerModel DscModel DscSpec LogModel CapModel CapSpec CutModel.

(** A publisher (producer) or subscriber of topic n with number id and type d is registered within the timeout. *)
Definition live (os : list (Z * dgop)) (timeout now : Z) (n : text) (producer : bool) (id : Z) (d : datatype) : Prop :=
  if producer then topic_alive bct_reg_publisher is_pub_cmd (samples os) timeout now n id d
  else topic_alive bct_reg_subscriber is_sub_cmd (samples os) timeout now n id d.
(** d is the type of a live one; none is described better, and of equally good ones this has the smallest number. *)
Definition best_known (os : list (Z * dgop)) (timeout now : Z) (n : text) (d : datatype) : Prop :=
  exists p id, live os timeout now n p id d /\ forall p' id' d', live os timeout now n p' id' d' ->
    (grade d' p' < grade d p)%Z \/ (grade d' p' = grade d p /\ (id <= id')%Z).
(** A service or client has the method described as me. *)
Definition has_method (client : bool) (os : list (Z * dgop)) (timeout now : Z) (n x : text) (me : method) : Prop :=
  exists id, if client then method_alive bct_reg_client bct_unreg_client of_client (samples os) timeout now n x id me
             else method_alive bct_reg_service bct_unreg_service of_service (samples os) timeout now n x id me.
Definition method_text (f : mfield) (m : method) : text :=
  match f with FReqType => me_req_type m | FRespType => me_resp_type m | FReqDesc => me_req_desc m | FRespDesc => me_resp_desc m end.

(** The log's calls as the log sees them. *)
Definition as_log_call (o : clop) : lop := match o with CFetch _ _ _ => LFetch | COther op => op end.

(** What a getter gave for the text s into a buffer: all of it, or nothing. *)
Definition given_to (t : nat) (tlen : Z) (s : text) (h : heap) (r : cres) : Prop :=
  if (filled s && (size s <=? tlen)%Z)%bool
  then exists h' cs, r = CRet h' (size s) /\ content t h = Some cs /\ content t h' = Some (over (bytes s) cs) /\ same_except [t] h h'
  else r = CRet h 0.

(** Without terminating zero inside. *)
Definition c_text (s : text) : Prop := ~ In 0%Z s.

(** Examples: two publishers follow one another. *)
Definition tyA : datatype := DataType (str "A") (str "proto") (str "a").
Definition tyB : datatype := DataType (str "B") (str "mpack") (str "b").
Definition first_pub : list (Z * dgop) := [(0%Z, DSample (topic_sample bct_reg_publisher (str "h") (str "t") (str "7") tyA))].
Definition then_other : list (Z * dgop) :=
  [(1%Z, DSample (topic_sample bct_unreg_publisher (str "h") (str "t") (str "7") tyA)); (1%Z, DSample (topic_sample bct_reg_publisher (str "h") (str "t") (str "8") tyB))].
Definition bare_pub : list (Z * dgop) := [(0%Z, DSample (topic_sample bct_reg_publisher (str "h") (str "t") (str "7") dt0))].
(** A service with a method. *)
Definition a_service : list (Z * dgop) :=
  [(0%Z, DSample (service_sample bct_reg_service (str "h") (str "s") (str "7") [Method (str "m") (str "Q") (str "q") (str "R") (str "r") 0]))].
(** A log with one message waiting. *)
Definition a_message : logmsg := LogMsg 5000 (str "h") 42 (str "p") (str "u") 2 (str "text").
Definition waiting_log : clog := set_queue [a_message] (log0 []).
Definition me0 : ident := Ident (str "h") 1 (str "p").
(** A heap with a variable of pointer size and a buffer of a hundred bytes. *)
Definition heap3 : heap := Heap [(0, repeat Raw 8); (1, repeat Raw 100)] 2.
