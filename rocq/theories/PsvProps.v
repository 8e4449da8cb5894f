(** C95 continued: every answer of a protobuf server. *)
From Verif Require Import Base Sample MsgModel MsgSpec MsgProofs PsvSpec PsvProofs.

(** In any program on a protobuf server, Destroy and Create of its base included, every request made
    while the object exists is answered as the history says. *)
Theorem c95_every_request : forall methods_of full_name parse invoke os1 m q os2 s outs, forallb ps_alive os1 = true ->
  pv_run methods_of full_name parse invoke (os1 ++ PRequest m q :: os2) pv_init = Some (s, outs) ->
  nth_error outs (length os1) = Some (ps_answer methods_of parse invoke os1 m q).
Proof. exact every_lemma. Qed.
Print Assumptions c95_every_request.
(** Such a program is defined. *)
Theorem c95_total : forall methods_of full_name parse invoke os, forallb ps_alive os = true -> exists s outs, pv_run methods_of full_name parse invoke os pv_init = Some (s, outs).
Proof. exact total_lemma. Qed.
Print Assumptions c95_total.
Example c95_every_request_ex :
  ps_answer demo_methods demo_parse demo_invoke ps_demo (str "sum") [1%Z] = PAnswer 0 [5%Z; 1%Z] /\
  ps_answer demo_methods demo_parse demo_invoke ps_demo (str "echo") [1%Z] = PNoMethod /\
  ps_answer demo_methods demo_parse demo_invoke (ps_demo ++ [PBaseDestroy]) (str "sum") [1%Z] = PClosed /\
  ps_answer demo_methods demo_parse demo_invoke (ps_demo ++ [PDestroy]) (str "sum") [1%Z] = PAnswer (-1) [].
Proof. vm_compute. auto. Qed.

(** A request is undefined exactly if the server below knows its method and the latest created type
    with such a method is not that of the service in charge. *)
Theorem c95_undefined : forall methods_of parse invoke os m q, ps_answer methods_of parse invoke os m q = PUb <->
  ps_open os = true /\ ps_bound methods_of os m = true /\
  exists sv ty, ps_current os = Some sv /\ find (ps_has methods_of m) (ps_types os) = Some ty /\ ty <> fst sv.
Proof. exact undefined_lemma. Qed.
Print Assumptions c95_undefined.
Example c95_undefined_ex : ps_answer demo_methods demo_parse demo_invoke [PCreate (Some (0, 3)) []; PCreate (Some (1, 4)) []] (str "echo") [1%Z] = PUb.
Proof. reflexivity. Qed.

(** With services of one type only, a request is answered by the service of the last creation. *)
Theorem c95_one_type : forall methods_of parse invoke ty os m q, ps_one ty os -> ps_open os = true ->
  ps_answer methods_of parse invoke os m q =
    if ps_bound methods_of os m then match ps_current os with Some sv => match parse ty m q with Some x => PAnswer 0 (invoke sv m x) | None => PAnswer (-1) [] end | None => PAnswer (-1) [] end
    else PNoMethod.
Proof. exact one_lemma. Qed.
Print Assumptions c95_one_type.
Example c95_one_type_ex : ps_one 0 [PCreate (Some (0, 3)) []; PBaseDestroy; PCreate (Some (0, 4)) []] /\
  ps_answer demo_methods demo_parse demo_invoke [PCreate (Some (0, 3)) []; PBaseDestroy; PCreate (Some (0, 4)) []] (str "echo") [1%Z] = PAnswer 0 [4%Z; 1%Z].
Proof. split; [|reflexivity]. intros o H. cbn in H. repeat destruct H as [H|H]; subst; auto; try reflexivity; contradiction. Qed.

(** Between the two destructors a request for a known method is undefined, any other is answered;
    after both the server is closed. *)
Theorem c95_destruction : forall methods_of full_name parse invoke os m q s outs, forallb ps_alive os = true ->
  pv_run methods_of full_name parse invoke (os ++ [PDie; PRequest m q; PGone; PRequest m q]) pv_init = Some (s, outs) ->
  exists outs0, outs = outs0 ++ [PUnit true; (if ps_open os then if ps_bound methods_of os m then PUb else PNoMethod else PClosed); PUnit true; PClosed].
Proof. exact dying_lemma. Qed.
Print Assumptions c95_destruction.
Example c95_destruction_ex : exists s, pv_run demo_methods demo_name demo_parse demo_invoke ([PCreate (Some (0, 3)) []] ++ [PDie; PRequest (str "sum") [1%Z]; PGone; PRequest (str "sum") [1%Z]]) pv_init =
  Some (s, [PUnit true; PUnit true; PUb; PUnit true; PClosed]).
Proof. eexists. reflexivity. Qed.
