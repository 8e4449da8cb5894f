(** C92-C95: typed publishers and subscribers and protobuf servers. *)
From Verif Require Import Base Sample MsgModel MsgSpec MsgProofs.

(** C92: the callback of a typed subscriber. *)

(** Whatever the program does with its objects, a message for a subscription is decoded and given to the callback of
    the object that holds the subscription, once; it waits for Receive when that object has no callback; nothing happens
    when no object holds the subscription.  Missing: programs that add a callback to an object without a
    subscription or assign an object to itself, and messages that arrive inside constructors and destructors. *)
Theorem c92_served_partial : forall dec os r p s outs out, sedate os wo_init = true ->
  t_run dec (os ++ [TArrive r p]) ts_init = Some (s, outs ++ [out]) -> served dec (wo_run os) r p out.
Proof. exact served_lemma. Qed.
Print Assumptions c92_served_partial.
Example c92_served_ex : sedate busy_program wo_init = true /\
  match t_run plain_dec (busy_program ++ [TArrive 0 [6%Z]]) ts_init with
  | Some (_, outs) => outs = [TBool true; TKept; TBool true; TCall 7 [2%Z]; TBool true; TBool true; TCall 7 [3%Z]; TBool true; TBool true; TBool true;
                              TCall 7 [4%Z]; TIgnored] ++ [TCall 7 [6%Z]]
  | None => False
  end.
Proof. split; reflexivity. Qed.

(** Receive answers the newest message that came while the object had no callback and was not yet read. *)
Theorem c92_received_partial : forall dec os k s outs out, sedate os wo_init = true ->
  t_run dec (os ++ [TReceive k]) ts_init = Some (s, outs ++ [out]) -> received dec (wo_run os) k out.
Proof. exact received_lemma. Qed.
Print Assumptions c92_received_partial.
Example c92_received_ex : sedate [TNew 1 KMessage topic_a; TArrive 0 [1%Z]; TArrive 0 [2%Z]; TMove 1 2] wo_init = true /\
  last_out plain_dec [TNew 1 KMessage topic_a; TArrive 0 [1%Z]; TArrive 0 [2%Z]; TMove 1 2; TReceive 2] = Some (TVal (Some [2%Z])).
Proof. split; reflexivity. Qed.

(** No member function runs on a destroyed object, at whatever moment messages arrive, also inside constructors and
    destructors.  Missing: objects of the deprecated class CMsgSubscriber. *)
Theorem c92_no_call_after_destruction_partial : forall dec os q s outs, existsb deprecated os = false -> orderly os PdNone = Some q ->
  t_run dec os ts_init = Some (s, outs) -> ~ In TUb outs.
Proof. exact safe_lemma. Qed.
Print Assumptions c92_no_call_after_destruction_partial.
Example c92_no_call_after_destruction_ex :
  orderly [TNew 1 KMessage topic_a; TAdd 1 7; TMoveFirst 1 2; TArrive 0 [1%Z]; TMoveSecond 2; TArrive 0 [2%Z]; TDie 2; TArrive 0 [3%Z]; TGone 2; TArrive 0 [4%Z]] PdNone = Some PdNone /\
  match t_run plain_dec [TNew 1 KMessage topic_a; TAdd 1 7; TMoveFirst 1 2; TArrive 0 [1%Z]; TMoveSecond 2; TArrive 0 [2%Z]; TDie 2; TArrive 0 [3%Z]; TGone 2; TArrive 0 [4%Z]] ts_init with
  | Some (_, outs) => outs = [TBool true; TBool true; TBool true; TIgnored; TBool true; TCall 7 [2%Z]; TBool true; TIgnored; TBool true; TIgnored]
  | None => False
  end.
Proof. split; reflexivity. Qed.

(** The readers registered with the gate are exactly those held by an object, each by one object. *)
Theorem c92_registered_readers : forall dec os q s outs, orderly os PdNone = Some q -> t_run dec os ts_init = Some (s, outs) ->
  NoDup (ts_gate s) /\
  (forall r, In r (ts_gate s) <-> exists k sh, aget k (ts_shells s) = Some sh /\ sh_reader sh = Some r) /\
  (forall k k' sh sh' r, aget k (ts_shells s) = Some sh -> aget k' (ts_shells s) = Some sh' -> sh_reader sh = Some r -> sh_reader sh' = Some r -> k = k').
Proof. exact gate_lemma. Qed.
Print Assumptions c92_registered_readers.
Example c92_registered_readers_ex : orderly busy_program PdNone = Some PdNone /\
  match t_run plain_dec busy_program ts_init with Some (s, _) => ts_gate s = [0] | None => False end.
Proof. split; reflexivity. Qed.

(** With CMsgSubscriber a message can arrive between the end of the derived destructor and that of the base. *)
Theorem c92_deprecated_class_refuted :
  ~ (forall dec os q s outs, orderly os PdNone = Some q -> t_run dec os ts_init = Some (s, outs) -> ~ In TUb outs).
Proof.
  intros H. eapply (H plain_dec [TNew 1 KMsg topic_a; TAdd 1 7; TDie 1; TArrive 0 [1%Z]] (PdDie 1)); [reflexivity|vm_compute; reflexivity|]. cbn. auto 10.
Qed.
Print Assumptions c92_deprecated_class_refuted.

(** A message that arrives inside the move constructor is lost. *)
Theorem c92_message_during_move_refuted :
  ~ (forall os a b r p x y, last_out plain_dec (os ++ [TArrive r p]) = Some x -> last_out plain_dec (os ++ [TMoveFirst a b; TArrive r p]) = Some y -> x = y).
Proof.
  intros H. specialize (H [TNew 1 KMessage topic_a; TAdd 1 7] 1 2 0 [5%Z] (TCall 7 [5%Z]) TIgnored eq_refl eq_refl). discriminate.
Qed.
Print Assumptions c92_message_during_move_refuted.

(** A callback whose registration was reported as failed is called later all the same. *)
Theorem c92_refused_callback_refuted :
  ~ (forall os1 os2 k cb r p v, existsb adds os1 = false -> existsb adds os2 = false -> last_out plain_dec (os1 ++ [TAdd k cb]) = Some (TBool false) ->
       last_out plain_dec (os1 ++ TAdd k cb :: os2 ++ [TArrive r p]) <> Some (TCall cb v)).
Proof.
  intros H. apply (H [TNew 1 KMessage []] [TCreate 1 topic_a; TMove 1 2] 1 7 0 [5%Z] [5%Z] eq_refl eq_refl eq_refl). reflexivity.
Qed.
Print Assumptions c92_refused_callback_refuted.

(** Assigning an object to itself ends its subscription. *)
Theorem c92_self_assignment_refuted :
  ~ (forall os k r p x y, last_out plain_dec (os ++ [TArrive r p]) = Some x -> last_out plain_dec (os ++ [TAssign k k; TArrive r p]) = Some y -> x = y).
Proof.
  intros H. specialize (H [TNew 1 KMessage topic_a; TAdd 1 7] 1 0 [5%Z] (TCall 7 [5%Z]) TIgnored eq_refl eq_refl). discriminate.
Qed.
Print Assumptions c92_self_assignment_refuted.

(** C93: dynamic subscribers. *)

(** A message for a dynamic object is decoded with the type information the object has, or else with that known for its
    topic; without any, the error callback is called and the message is lost. *)
Theorem c93_decoding : forall dec s k sh cb r rd p, aget k (ts_shells s) = Some sh -> sh_kind sh = KDyn -> sh_dead sh = false -> sh_cb sh = Some cb ->
  aget r (ts_readers s) = Some rd -> tr_running rd = true -> tr_bound rd = Some k ->
  (forall i, sh_info sh = Some i \/ (sh_info sh = None /\ aget (sh_topic sh) (ts_known s) = Some i /\ i <> 0) ->
     snd (arrive dec r p s) = match dec (Some i) p with Some v => TCall cb v | None => complain (sh_err sh) end /\
     exists sh', aget k (ts_shells (fst (arrive dec r p s))) = Some sh' /\ sh_info sh' = Some i) /\
  (sh_info sh = None -> aget (sh_topic sh) (ts_known s) = None \/ aget (sh_topic sh) (ts_known s) = Some 0 ->
     snd (arrive dec r p s) = complain (sh_err sh)).
Proof. exact decoding_lemma. Qed.
Print Assumptions c93_decoding.
Example c93_decoding_ex : last_out plain_dec dyn_start = Some (TCall 7 [1%Z; 4%Z]) /\
  last_out plain_dec [TNew 1 KDyn topic_a; TErr 1 (Some 9); TAdd 1 7; TArrive 0 [4%Z]] = Some (TError 9).
Proof. split; reflexivity. Qed.

(** Type information once taken over stays: however the program goes on, unless the object is destroyed or moved or
    assigned to, every message is decoded with it. *)
Theorem c93_information_stays : forall dec os s s2 outs k sh i, aget k (ts_shells s) = Some sh -> sh_info sh = Some i ->
  existsb (renews k) os = false -> t_run dec os s = Some (s2, outs) ->
  exists sh2, aget k (ts_shells s2) = Some sh2 /\ sh_info sh2 = Some i /\
    forall cb r rd p, sh_kind sh2 = KDyn -> sh_dead sh2 = false -> sh_cb sh2 = Some cb ->
      aget r (ts_readers s2) = Some rd -> tr_running rd = true -> tr_bound rd = Some k ->
      snd (arrive dec r p s2) = match dec (Some i) p with Some v => TCall cb v | None => complain (sh_err sh2) end.
Proof. exact stays_lemma. Qed.
Print Assumptions c93_information_stays.
Example c93_information_stays_ex : last_out plain_dec (dyn_start ++ [TRem 1; TInfo topic_a 2; TAdd 1 8; TArrive 0 [5%Z]]) = Some (TCall 8 [1%Z; 5%Z]) /\
  existsb (renews 1) [TRem 1; TInfo topic_a 2; TAdd 1 8] = false.
Proof. split; reflexivity. Qed.

(** So a publisher whose type changes while the subscriber lives is decoded with the old type. *)
Theorem c93_changed_type_refuted :
  ~ (forall os t i r p x y, last_out plain_dec (os ++ [TInfo t i; TNew 2 KDyn t; TAdd 2 8; TArrive (S r) p]) = Some (TCall 8 x) ->
       last_out plain_dec (os ++ [TInfo t i; TArrive r p]) = Some (TCall 7 y) -> x = y).
Proof.
  intros H. specialize (H dyn_start topic_a 2 0 [5%Z] [2%Z; 5%Z] [1%Z; 5%Z] eq_refl eq_refl). discriminate.
Qed.
Print Assumptions c93_changed_type_refuted.

(** The error callback does not move with the object. *)
Theorem c93_error_callback_moves_refuted :
  ~ (forall os a b r p x y, last_out plain_dec (os ++ [TArrive r p]) = Some x -> last_out plain_dec (os ++ [TMove a b; TArrive r p]) = Some y -> x = y).
Proof.
  intros H. specialize (H dyn_start 1 2 0 [255%Z] (TError 9) TIgnored eq_refl eq_refl). discriminate.
Qed.
Print Assumptions c93_error_callback_moves_refuted.

(** A dynamic object that is given another topic decodes with the type information of the topic it was constructed with. *)
Theorem c93_other_topic_refuted :
  ~ (forall os k t i r p v, last_out plain_dec (os ++ [TInfo t i; TCreate k t]) = Some (TBool true) ->
       last_out plain_dec (os ++ [TInfo t i; TCreate k t; TAdd k 7; TArrive r p]) = Some (TCall 7 v) -> plain_dec (Some i) p = Some v).
Proof.
  intros H. specialize (H [TInfo topic_a 1; TNew 1 KDyn topic_a; TDestroy 1] 1 topic_b 2 1 [5%Z] [1%Z; 5%Z] eq_refl eq_refl). discriminate.
Qed.
Print Assumptions c93_other_topic_refuted.

(** C94: typed publishers. *)

(** A sequence of messages, each sent while the subscription state does not change: those sent to subscribers are written
    exactly as their serialization, in order, whatever was left in the buffer; the others are only counted. *)
Theorem c94_sends : forall (M : Type) (get_size : M -> nat) serialize code write (xs : list (bool * bool * M)) buf, honest get_size serialize code ->
  (forall b1 b2 m, In (b1, b2, m) xs -> b1 = b2) ->
  send_all get_size serialize write xs buf =
    (map (fun x : bool * bool * M => if fst (fst x) then PWrite (code (snd x)) else PCount) xs,
     map (fun x : bool * bool * M => if fst (fst x) then write (code (snd x)) else 0%Z) xs).
Proof. exact @send_all_lemma. Qed.
Print Assumptions c94_sends.
Example c94_sends_ex : send_all str_size str_serialize pure_writer [(true, true, [1%Z; 2%Z; 3%Z]); (false, false, [4%Z]); (true, true, []); (true, true, [5%Z])] [] =
  ([PWrite [1%Z; 2%Z; 3%Z]; PCount; PWrite []; PWrite [5%Z]], [3%Z; 0%Z; 0%Z; 1%Z]).
Proof. reflexivity. Qed.

(** The serializer of strings keeps its promises, and what it writes is read back as the same string. *)
Theorem c94_string : honest str_size str_serialize (fun m => m) /\ (forall m, str_deserialize m = Some m).
Proof. exact string_lemma. Qed.
Print Assumptions c94_string.
Example c94_string_ex : fst (snd (typed_send (list Z) str_size str_serialize true true true pure_writer [1%Z; 0%Z] [9%Z; 9%Z; 9%Z])) = [PWrite [1%Z; 0%Z]].
Proof. reflexivity. Qed.

(** A message that cannot be serialized is neither written nor counted, and the result is 0. *)
Theorem c94_failed : forall (M : Type) (get_size : M -> nat) serialize write b2 m buf, get_size m <> 0 -> serialize m (get_size m) = None ->
  snd (typed_send M get_size serialize true true b2 write m buf) = ([], 0%Z).
Proof. exact @failed_lemma. Qed.
Print Assumptions c94_failed.
Example c94_failed_ex : snd (typed_send (list Z) (fun _ => 3) (fun _ _ => None) true true true pure_writer [1%Z] []) = ([], 0%Z).
Proof. reflexivity. Qed.

(** The subscription is checked twice: if the first subscriber appears in between it receives an empty message that
    nobody sent. *)
Theorem c94_first_subscriber_refuted :
  ~ (forall b1 b2 m p, In (PWrite p) (fst (snd (typed_send (list Z) str_size str_serialize true b1 b2 pure_writer m []))) -> p = m).
Proof. intros H. specialize (H false true [1%Z] [] (or_introl eq_refl)). discriminate. Qed.
Print Assumptions c94_first_subscriber_refuted.

(** A serializer that writes fewer bytes than it announced publishes remains of the previous message. *)
Theorem c94_short_serializer_refuted :
  ~ (forall m m' q q' p p', fst (send_all lazy_size lazy_serialize pure_writer [(true, true, m); (true, true, [1%Z])] []) = [q; PWrite p] ->
       fst (send_all lazy_size lazy_serialize pure_writer [(true, true, m'); (true, true, [1%Z])] []) = [q'; PWrite p'] -> p = p').
Proof.
  intros H. specialize (H [7%Z; 8%Z; 9%Z] [4%Z; 5%Z; 6%Z] _ _ _ _ eq_refl eq_refl). discriminate.
Qed.
Print Assumptions c94_short_serializer_refuted.

(** C95: protobuf servers. *)

(** After creation, further creations with services of the same type and destructions: a request for a method of the
    service is answered by the service of the last creation, or with -1 when it cannot be parsed or after Destroy;
    a request for another method is refused; nothing undefined happens. *)
Theorem c95_answers : forall methods_of full_name parse invoke os sv name m q s outs out, forallb (pv_same_type (fst sv)) os = true ->
  pv_run methods_of full_name parse invoke (PCreate (Some sv) name :: os ++ [PRequest m q]) pv_init = Some (s, outs ++ [out]) ->
  ~ In PUb (outs ++ [out]) /\
  match fold_left pv_current os (Some sv) with
  | Some x => proto_answer methods_of parse invoke x m q out
  | None => out = if existsb (eqb m) (methods_of (fst sv)) then PAnswer (-1) [] else PNoMethod
  end.
Proof. exact proto_lemma. Qed.
Print Assumptions c95_answers.
Example c95_answers_ex : pv_run demo_methods demo_name demo_parse demo_invoke
    [PCreate (Some (0, 3)) []; PRequest (str "sum") [1%Z]; PRequest (str "sum") []; PRequest (str "log") [1%Z]; PCreate (Some (0, 4)) (str "other"); PRequest (str "echo") [2%Z];
     PDestroy; PRequest (str "echo") [2%Z]] pv_init =
  Some (PServer (Some (str "calc")) [str "echo"; str "sum"] None [(str "echo", (0, str "echo")); (str "sum", (0, str "sum"))] false,
        [PUnit true; PAnswer 0 [3%Z; 1%Z]; PAnswer (-1) []; PNoMethod; PUnit true; PAnswer 0 [4%Z; 2%Z]; PUnit true; PAnswer (-1) []]).
Proof. reflexivity. Qed.

(** Destroy leaves the server on the network. *)
Theorem c95_destroy_withdraws_refuted :
  ~ (forall os m q, last_answer (os ++ [PDestroy; PRequest m q]) <> None -> last_answer (os ++ [PDestroy; PRequest m q]) = Some PClosed).
Proof.
  intros H. specialize (H [PCreate (Some (0, 3)) []] (str "sum") [1%Z]). assert (X : last_answer ([PCreate (Some (0, 3)) []] ++ [PDestroy; PRequest (str "sum") [1%Z]]) = Some (PAnswer (-1) [])) by reflexivity.
  rewrite X in H. specialize (H ltac:(discriminate)). discriminate.
Qed.
Print Assumptions c95_destroy_withdraws_refuted.

(** A request that arrives between the destructor of the protobuf server and that of its base uses destroyed members. *)
Theorem c95_request_during_destruction_refuted :
  ~ (forall os m q, last_answer (os ++ [PDie; PRequest m q]) <> Some PUb).
Proof. intros H. apply (H [PCreate (Some (0, 3)) []] (str "sum") [1%Z]). reflexivity. Qed.
Print Assumptions c95_request_during_destruction_refuted.

(** A second creation with a service of another type keeps name and methods of the first: its methods are called on
    the second service. *)
Theorem c95_second_type_refuted :
  ~ (forall os m q, forallb (fun o => match o with PCreate _ _ => true | _ => false end) os = true -> last_answer (os ++ [PRequest m q]) <> Some PUb).
Proof. intros H. apply (H [PCreate (Some (0, 3)) []; PCreate (Some (1, 4)) []] (str "echo") [1%Z] eq_refl). reflexivity. Qed.
Print Assumptions c95_second_type_refuted.
