From Coq Require Import String.
From Verif Require McModel MonProofs.
From Verif Require Import Base Sample LogModel LogSpec LogProofs CfgModel CfgSpec.
Open Scope Z_scope.

(** * Reading *)
Lemma assign_path : forall A (read : node -> option A) n k old v, assign read n k old = Some v ->
  (exists m, (forall p, at_path n (str k :: p) = at_path m p) /\ read m = Some v) \/
  ((forall p, at_path n (str k :: p) = None) /\ v = old).
Proof.
  intros A read n k old v H. unfold assign in H.
  destruct n as [|s|l|l]; cbn [lookup] in H; try discriminate H.
  - injection H as <-. right. split; [reflexivity|reflexivity].
  - injection H as <-. right. split; reflexivity.
  - destruct (aget (str k) l) eqn:E.
    + left. exists n. split; [|exact H]. intros p. cbn [at_path]. rewrite E. reflexivity.
    + injection H as <-. right. split; [|reflexivity]. intros p. cbn [at_path]. rewrite E. reflexivity.
Qed.

Definition reads (y : ylib) (k : kind) (n : node) (p : list text) (dflt v : value) : Prop :=
  match at_path n p with Some m => meaning y k m = Some v | None => v = dflt end.

Lemma push_lemma : forall A y kd n k (dec : node -> option A) old d p D v, assign dec n k old = Some d ->
  (forall m, dec m = Some d -> reads y kd m p D v) -> (d = old -> v = D) -> reads y kd n (str k :: p) D v.
Proof.
  intros A y kd n k dec old d p D v H F G. unfold reads.
  destruct (assign_path _ _ _ _ _ _ H) as [(m & P & R)|(P & E)]; rewrite P.
  - exact (F m R).
  - exact (G E).
Qed.

Lemma leaf_lemma : forall A y kd (read : node -> option A) (w : A -> value) n k old v,
  (forall m x, read m = Some x -> meaning y kd m = Some (w x)) -> assign read n k old = Some v ->
  reads y kd n [str k] (w old) (w v).
Proof.
  intros A y kd read w n k old v F H.
  eapply push_lemma; [exact H| |].
  - intros m R. unfold reads. cbn [at_path]. apply F, R.
  - intros ->. reflexivity.
Qed.

Lemma m_bool : forall y m x, read_bool y m = Some x -> meaning y KBool m = Some (VBool x).
Proof. intros y [|s|l|l] x H; try discriminate H. cbn in *. rewrite H. reflexivity. Qed.
Lemma m_uint : forall y m x, read_uint y m = Some x -> meaning y KUint m = Some (VNum x).
Proof. intros y [|s|l|l] x H; try discriminate H. cbn in *. rewrite H. reflexivity. Qed.
Lemma m_size : forall y m x, read_size y m = Some x -> meaning y KSize m = Some (VNum x).
Proof. intros y [|s|l|l] x H; try discriminate H. cbn in *. rewrite H. reflexivity. Qed.
Lemma text_of_eq : forall y n, text_of y n = read_text y n.
Proof. intros y n. destruct n; reflexivity. Qed.
Lemma words_of_eq : forall y n, words_of y n = read_words y n.
Proof. intros y n. destruct n; reflexivity. Qed.
Lemma m_text : forall y m x, read_text y m = Some x -> meaning y KText m = Some (VText x).
Proof. intros y m x H. cbn [meaning]. rewrite text_of_eq, H. reflexivity. Qed.
Lemma m_ip : forall y m x, read_ip y m = Some x -> meaning y KText m = Some (VText x).
Proof.
  intros y m x H. unfold read_ip in H. cbn [meaning]. rewrite text_of_eq. destruct (read_text y m) as [t|] eqn:E; [|discriminate].
  destruct (valid_ip t); [|discriminate]. injection H as ->. reflexivity.
Qed.
Lemma m_is : forall y w m x, read_text y m = Some x -> meaning y (KIs w) m = Some (VBool (eqb x (str w))).
Proof. intros y w m x H. cbn [meaning]. rewrite text_of_eq, H. reflexivity. Qed.
Lemma m_isnot : forall y w m x, read_text y m = Some x -> meaning y (KIsNot w) m = Some (VBool (negb (eqb x (str w)))).
Proof. intros y w m x H. cbn [meaning]. rewrite text_of_eq, H. reflexivity. Qed.

Lemma constrained_inv : forall min step max z v, constrained min step max z = Some v ->
  v = z /\ min <= z <= max /\ Z.rem z step = 0.
Proof.
  intros min step max z v H. unfold constrained in H.
  destruct ((min <=? z) && (z <=? max) && (Z.rem z step =? 0) && (min <=? max))%bool eqn:E; [|discriminate].
  injection H as <-. rewrite !andb_true_iff in E. destruct E as (((a & b) & c) & d). lia.
Qed.
Lemma m_con : forall y min step max m x, sound_lib y -> 0 <= min -> read_constrained y min step max m = Some x ->
  meaning y KUint m = Some (VNum x).
Proof.
  intros y min step max m x S M H. unfold read_constrained in H.
  destruct (read_uint y m) as [z|] eqn:E; [|discriminate].
  apply constrained_inv in H. destruct H as (-> & L & _).
  rewrite (m_uint _ _ _ E). f_equal. f_equal.
  destruct m as [|s|l|l]; try discriminate E. cbn in E.
  pose proof (sl_range _ S _ _ E) as R. unfold as_int in *.
  destruct (z <? 2147483648) eqn:F; [reflexivity|]. change (2^32) with 4294967296 in R. lia.
Qed.
Lemma layers_named : forall ws, layers_of ws = named_layers ws.
Proof.
  intros ws. unfold layers_of, named_layers. induction ws as [|w ws IH]; [reflexivity|].
  cbn [flat_map]. rewrite IH. f_equal. unfold layer_of, known_layers. cbn [aget].
  destruct (eqb w (str "shm")) eqn:A.
  - apply eqb_true in A. subst w. reflexivity.
  - destruct (eqb w (str "udp")) eqn:B; [apply eqb_true in B; subst w; reflexivity|].
    destruct (eqb w (str "tcp")); reflexivity.
Qed.
Lemma m_layers : forall y m x, read_words y m = Some x -> meaning y KLayers m = Some (VLayers (layers_of x)).
Proof. intros y m x H. cbn [meaning]. rewrite words_of_eq, H. cbn. rewrite layers_named. reflexivity. Qed.
Lemma m_levels : forall y m x, read_words y m = Some x -> meaning y KLevels m = Some (VNum (parse_levels x)).
Proof. intros y m x H. cbn [meaning]. rewrite words_of_eq, H. reflexivity. Qed.

Lemma leaf_is : forall y w n k v, assign (read_text y) n k (str w) = Some v ->
  reads y (KIs w) n [str k] (VBool true) (VBool (eqb v (str w))).
Proof.
  intros y w n k v H. replace true with (eqb (str w) (str w)) by apply eqb_refl.
  apply (leaf_lemma _ _ _ _ (fun x => VBool (eqb x (str w))) _ _ _ _ (m_is y w) H).
Qed.
Lemma leaf_isnot : forall y w n k v, assign (read_text y) n k (str w) = Some v ->
  reads y (KIsNot w) n [str k] (VBool false) (VBool (negb (eqb v (str w)))).
Proof.
  intros y w n k v H. replace false with (negb (eqb (str w) (str w))) by (rewrite eqb_refl; reflexivity).
  apply (leaf_lemma _ _ _ _ (fun x => VBool (negb (eqb x (str w)))) _ _ _ _ (m_isnot y w) H).
Qed.
Lemma leaf_layers : forall y n k v, assign (read_words y) n k [] = Some v ->
  reads y KLayers n [str k] (VLayers []) (VLayers (layers_of v)).
Proof. intros y n k v H. exact (leaf_lemma _ _ _ _ (fun x => VLayers (layers_of x)) _ _ _ _ (m_layers y) H). Qed.
Lemma leaf_levels : forall y n k v, assign (read_words y) n k [] = Some v ->
  reads y KLevels n [str k] (VNum 0) (VNum (parse_levels v)).
Proof. intros y n k v H. exact (leaf_lemma _ _ _ _ (fun x => VNum (parse_levels x)) _ _ _ _ (m_levels y) H). Qed.

Definition entries {A} (y : ylib) (n : node) (dflt d : A) (l : list (list string * kind * (A -> value))) : Prop :=
  Forall (fun e => let '(p, k, g) := e in reads y k n (path_of p) (g dflt) (g d)) l.

Ltac undo := repeat match goal with
  | H : match ?a with Some _ => _ | None => _ end = Some _ |- _ =>
      let E := fresh "E" in destruct a eqn:E; [|discriminate H]
  | H : match ?p with (_, _) => _ end = Some _ |- _ => destruct p
  | H : Some _ = Some _ |- _ => injection H as H; try subst
  end.
Ltac leaf S := first
  [ eapply (leaf_lemma _ _ _ _ VBool); [apply m_bool|eassumption]
  | eapply (leaf_lemma _ _ _ _ VNum); [apply m_uint|eassumption]
  | eapply (leaf_lemma _ _ _ _ VNum); [apply m_size|eassumption]
  | eapply (leaf_lemma _ _ _ _ VText); [apply m_text|eassumption]
  | eapply (leaf_lemma _ _ _ _ VText); [apply m_ip|eassumption]
  | eapply (leaf_lemma _ _ _ _ VNum); [|eassumption]; intros ? ?; apply (m_con _ _ _ _ _ _ S); lia
  | eapply leaf_is; eassumption
  | eapply leaf_isnot; eassumption
  | eapply leaf_layers; eassumption
  | eapply leaf_levels; eassumption ].

Ltac projs := cbn [rg_timeout rg_refresh rg_network rg_loopback rg_group rg_layer rs_enable rs_domain rs_queue ru_enable ru_port
  mo_timeout mo_excl mo_incl tu_v1 tu_port tu_local tu_mask tu_send tu_receive tu_join tu_npcap tn_group tn_ttl tt_reader tt_writer
  tt_reconnect ts_min ts_reserve pb_desc pb_type pb_local pb_remote ps_enable ps_zero ps_ack ps_count pu_enable pt_enable
  ss_enable su_enable st_enable ti_rt ti_replay se_v0 se_v1 as_emulator ay_excl
  lc_enable lc_filter lf_enable lf_path lf_filter lu_enable lu_port lu_filter].
Ltac down S unf := eapply push_lemma; [eassumption| |let Q := fresh in intros Q; first [rewrite Q; reflexivity | injection Q; intros; subst; reflexivity]];
  let m := fresh "m" in let H := fresh "H" in intros m H; unf H; undo; projs; first [leaf S | down S unf].
Ltac split_all := unfold entries, path_of; cbn [app map];
  repeat (apply Forall_cons); try apply Forall_nil; cbv beta iota.

Lemma reg_reads : forall y n d, sound_lib y -> decode_reg y n = Some d -> entries y n reg_default d (reg_top ++ reg_inner).
Proof.
  intros y n d S H. unfold decode_reg in H. undo. unfold reg_top, reg_inner. split_all. all: projs.
  all: first [leaf S | down S ltac:(fun H => unfold decode_reg_layer, decode_reg_shm, decode_reg_udp in H)].
Qed.

Lemma mon_reads : forall y n d, sound_lib y -> decode_mon y n = Some d -> entries y n mon_default d mon_plain.
Proof.
  intros y n d S H. unfold decode_mon in H. undo. unfold mon_plain. split_all.
  all: projs. all: leaf S.
Qed.
Lemma tra_reads : forall y n d, sound_lib y -> decode_tra y n = Some d -> entries y n tra_default d tra_plain.
Proof.
  intros y n d S H. unfold decode_tra in H. undo. unfold tra_plain. split_all.
  all: projs.
  all: down S ltac:(fun H => unfold decode_tra_udp, decode_tra_tcp, decode_tra_shm, decode_tra_net in H).
Qed.
Lemma pub_reads : forall y n d, sound_lib y -> decode_pub y n = Some d ->
  entries y n pub_default d (pub_most ++ pub_tcp) /\
  entries y n (mkPubCfg true true 0 0 true true [] [] true true) d pub_lists.
Proof.
  intros y n d S H. unfold decode_pub in H. undo. split; unfold pub_most, pub_tcp, pub_lists; split_all.
  all: projs.
  all: first [leaf S | down S ltac:(fun H => unfold decode_pub_layer, decode_pub_shm, decode_enable in H)].
Qed.
Lemma sub_reads : forall y n d, sound_lib y -> decode_sub y n = Some d -> entries y n sub_default d sub_plain.
Proof.
  intros y n d S H. unfold decode_sub in H. undo. unfold sub_plain. split_all.
  all: projs.
  all: down S ltac:(fun H => unfold decode_sub_layer, decode_enable in H).
Qed.
Lemma tim_reads : forall y n d, sound_lib y -> decode_tim y n = Some d -> entries y n tim_default d tim_plain.
Proof.
  intros y n d S H. unfold decode_tim in H. undo. unfold tim_plain. split_all.
  all: projs. all: leaf S.
Qed.
Lemma srv_reads : forall y n d, sound_lib y -> decode_srv y n = Some d -> entries y n srv_default d srv_plain.
Proof.
  intros y n d S H. unfold decode_srv in H. undo. unfold srv_plain. split_all.
  all: projs. all: leaf S.
Qed.
Lemma app_reads : forall y n d, sound_lib y -> decode_app y n = Some d -> entries y n app_default d app_plain.
Proof.
  intros y n d S H. unfold decode_app in H. undo. unfold app_plain. split_all.
  all: projs.
  all: eapply push_lemma; [eassumption| |intros ->; reflexivity].
  all: intros m H; leaf S.
Qed.
Lemma log_reads : forall y n d, sound_lib y -> decode_log y n = Some d -> entries y n log_default d log_plain.
Proof.
  intros y n d S H. unfold decode_log in H. unfold log_plain. split_all.
  all: down S ltac:(fun H => unfold decode_sinks, decode_log_con, decode_log_file, decode_log_udp in H).
Qed.

(** Every section of an accepted document. *)
Record mapped (y : ylib) (n : node) (c c' : config) : Prop := {
  mp_tra : assign (decode_tra y) n "transport_layer" (cf_tra c) = Some (cf_tra c');
  mp_pub : assign (decode_pub y) n "publisher" (cf_pub c) = Some (cf_pub c');
  mp_sub : assign (decode_sub y) n "subscriber" (cf_sub c) = Some (cf_sub c');
  mp_reg : assign (decode_reg y) n "registration" (cf_reg c) = Some (cf_reg c');
  mp_mon : assign (decode_mon y) n "monitoring" (cf_mon c) = Some (cf_mon c');
  mp_tim : assign (decode_tim y) n "time" (cf_tim c) = Some (cf_tim c');
  mp_srv : assign (decode_srv y) n "service" (cf_srv c) = Some (cf_srv c');
  mp_app : assign (decode_app y) n "application" (cf_app c) = Some (cf_app c');
  mp_log : assign (decode_log y) n "logging" (cf_log c) = Some (cf_log c')
}.
Lemma map_config_spec : forall y n c c', map_config y n c = (c', true) <-> mapped y n c c'.
Proof.
  intros y n c c'. unfold map_config, sections. cbn [map_sections].
  split.
  - intros H.
    repeat match type of H with context[match assign ?f n ?k ?o with _ => _ end] =>
      let E := fresh "E" in destruct (assign f n k o) eqn:E; [|discriminate H] end.
    injection H as <-. constructor; cbn; assumption.
  - intros [A B C D E F G H I]. destruct c' as [a b d e f g h i j]. destruct c as [a0 b0 d0 e0 f0 g0 h0 i0 j0].
    cbn [cf_tra cf_pub cf_sub cf_reg cf_mon cf_tim cf_srv cf_app cf_log] in *.
    rewrite A. cbn [set_tra set_pub set_sub set_reg set_mon set_tim set_srv set_app set_log cf_tra cf_pub cf_sub cf_reg cf_mon cf_tim cf_srv cf_app cf_log]. rewrite B.
    cbn [set_tra set_pub set_sub set_reg set_mon set_tim set_srv set_app set_log cf_tra cf_pub cf_sub cf_reg cf_mon cf_tim cf_srv cf_app cf_log]. rewrite C.
    cbn [set_tra set_pub set_sub set_reg set_mon set_tim set_srv set_app set_log cf_tra cf_pub cf_sub cf_reg cf_mon cf_tim cf_srv cf_app cf_log]. rewrite D.
    cbn [set_tra set_pub set_sub set_reg set_mon set_tim set_srv set_app set_log cf_tra cf_pub cf_sub cf_reg cf_mon cf_tim cf_srv cf_app cf_log]. rewrite E.
    cbn [set_tra set_pub set_sub set_reg set_mon set_tim set_srv set_app set_log cf_tra cf_pub cf_sub cf_reg cf_mon cf_tim cf_srv cf_app cf_log]. rewrite F.
    cbn [set_tra set_pub set_sub set_reg set_mon set_tim set_srv set_app set_log cf_tra cf_pub cf_sub cf_reg cf_mon cf_tim cf_srv cf_app cf_log]. rewrite G.
    cbn [set_tra set_pub set_sub set_reg set_mon set_tim set_srv set_app set_log cf_tra cf_pub cf_sub cf_reg cf_mon cf_tim cf_srv cf_app cf_log]. rewrite H.
    cbn [set_tra set_pub set_sub set_reg set_mon set_tim set_srv set_app set_log cf_tra cf_pub cf_sub cf_reg cf_mon cf_tim cf_srv cf_app cf_log]. rewrite I.
    reflexivity.
Qed.

Lemma within_says : forall A y n (dec : node -> option A) sec get c c' dflt l,
  (forall m d, dec m = Some d -> entries y m dflt d l) ->
  assign dec n sec (get c) = Some (get c') ->
  forall s, In s (within sec get l) -> exists p k g, In (p, k, g) l /\ s = mkSetting (str sec :: path_of p) k (fun c => g (get c)) /\
    says y n s (g dflt) (s_get s c) (s_get s c').
Proof.
  intros A y n dec sec get c c' dflt l D H s I.
  unfold within in I. apply in_map_iff in I. destruct I as (((p & k) & g) & <- & I).
  exists p, k, g. split; [exact I|]. split; [reflexivity|].
  unfold says, section_of. cbn [s_path s_kind s_get firstn].
  destruct (assign_path _ _ _ _ _ _ H) as [(m & P & R)|(P & E)].
  - rewrite !P. cbn [at_path]. apply D in R. unfold entries in R. rewrite Forall_forall in R.
    specialize (R _ I). cbn in R. exact R.
  - rewrite !P. rewrite E. reflexivity.
Qed.
(** For sections whose default is that of the configuration. *)
Lemma within_default : forall A y n (dec : node -> option A) sec get c c' l,
  (forall m d, dec m = Some d -> entries y m (get default_config) d l) ->
  assign dec n sec (get c) = Some (get c') ->
  forall s, In s (within sec get l) -> says y n s (s_get s default_config) (s_get s c) (s_get s c').
Proof.
  intros A y n dec sec get c c' l D H s I.
  destruct (within_says A y n dec sec get c c' _ l D H s I) as (p & k & g & _ & -> & R). exact R.
Qed.
Lemma entries_app : forall A y n (a b : A) l1 l2, entries y n a b (l1 ++ l2) -> entries y n a b l1 /\ entries y n a b l2.
Proof. intros. unfold entries in *. apply Forall_app. assumption. Qed.
Lemma entries_join : forall A y n (a b : A) l1 l2, entries y n a b l1 -> entries y n a b l2 -> entries y n a b (l1 ++ l2).
Proof. intros. unfold entries in *. apply Forall_app. split; assumption. Qed.

Lemma plain_lemma : forall y n c c', sound_lib y -> map_config y n c = (c', true) ->
  forall s, In s plain_settings -> says y n s (s_get s default_config) (s_get s c) (s_get s c').
Proof.
  intros y n c c' S H s I. apply map_config_spec in H. destruct H as [A B C D E F G K L].
  unfold plain_settings, outer_settings, inner_settings, tcp_setting in I. rewrite !in_app_iff in I.
  repeat match goal with X : _ \/ _ |- _ => destruct X end.
  - eapply within_default; [|exact D|eassumption]. intros m d Q. exact (proj1 (entries_app _ _ _ _ _ _ _ (reg_reads _ _ _ S Q))).
  - eapply within_default; [|exact E|eassumption]. intros m d Q. eapply mon_reads; eassumption.
  - eapply within_default; [|exact B|eassumption]. intros m d Q. exact (proj1 (entries_app _ _ _ _ _ _ _ (proj1 (pub_reads _ _ _ S Q)))).
  - eapply within_default; [|exact C|eassumption]. intros m d Q. eapply sub_reads; eassumption.
  - eapply within_default; [|exact F|eassumption]. intros m d Q. eapply tim_reads; eassumption.
  - eapply within_default; [|exact G|eassumption]. intros m d Q. eapply srv_reads; eassumption.
  - eapply within_default; [|exact K|eassumption]. intros m d Q. eapply app_reads; eassumption.
  - eapply within_default; [|exact L|eassumption]. intros m d Q. eapply log_reads; eassumption.
  - eapply within_default; [|exact A|eassumption]. intros m d Q. eapply tra_reads; eassumption.
  - eapply within_default; [|exact D|eassumption]. intros m d Q. exact (proj2 (entries_app _ _ _ _ _ _ _ (reg_reads _ _ _ S Q))).
  - eapply within_default; [|exact B|eassumption]. intros m d Q. exact (proj2 (entries_app _ _ _ _ _ _ _ (proj1 (pub_reads _ _ _ S Q)))).
Qed.
Lemma priorities_lemma : forall y n c c', sound_lib y -> map_config y n c = (c', true) ->
  forall s, In s priorities -> says y n s (VLayers []) (s_get s c) (s_get s c').
Proof.
  intros y n c c' S H s I. apply map_config_spec in H. destruct H as [A B C D E F G K L].
  unfold priorities in I.
  destruct (within_says _ y n _ _ _ _ _ (mkPubCfg true true 0 0 true true [] [] true true) pub_lists
              (fun m d Q => proj2 (pub_reads y m d S Q)) B s I) as (p & k & g & J & -> & R).
  cbn in J. destruct J as [J|[J|[]]]; injection J as <- <- <-; exact R.
Qed.

Lemma at_nil : forall n, at_path n [] = Some n.
Proof. reflexivity. Qed.
Lemma filters_lemma : forall y n c c', sound_lib y -> map_config y n c = (c', true) ->
  forall s, In s filters ->
  match at_path n (s_path s) with
  | Some m => meaning y (s_kind s) m = Some (s_get s c')
  | None => s_get s c' = match at_path n (removelast (s_path s)), at_path n (section_of s) with
                         | Some _, _ => VNum 0
                         | None, Some _ => s_get s default_config
                         | None, None => s_get s c
                         end
  end.
Proof.
  intros y n c c' S H s I. apply map_config_spec in H. destruct H as [A B C D E F G K L]. clear A B C D E F G K.
  unfold filters, within, log_levels in I. cbn [map In path_of] in I.
  destruct (assign_path _ _ _ _ _ _ L) as [(m & P & R)|(P & Q)].
  - unfold decode_log in R.
    destruct (assign_path _ _ _ _ _ _ R) as [(m1 & P1 & R1)|(P1 & Q1)].
    + unfold decode_sinks in R1. undo.
      match goal with X : _ = cf_log c' |- _ => rename X into X0 end.
      destruct I as [<-|[<-|[<-|[]]]]; unfold section_of; cbn [s_path s_kind s_get firstn removelast].
      all: rewrite !P, !P1, ?at_nil; rewrite <- X0; projs.
      all: match goal with
           | |- match at_path _ [str ?k; _] with _ => _ end =>
               match goal with X : assign _ _ k _ = Some _ |- _ =>
                 destruct (assign_path _ _ _ _ _ _ X) as [(m2 & P2 & R2)|(P2 & Q2)] end
           end; rewrite !P2.
      all: try (injection Q2; intros; subst; reflexivity).
      all: rewrite ?at_nil; unfold decode_log_con, decode_log_file, decode_log_udp, decode_level in R2; undo.
      all: match goal with X : assign _ _ "level" _ = Some _ |- _ =>
             destruct (assign_path _ _ _ _ _ _ X) as [(m3 & P3 & R3)|(P3 & Q3)] end; rewrite !P3.
      all: rewrite ?at_nil; try (apply m_levels; exact R3).
      all: subst; reflexivity.
    + destruct I as [<-|[<-|[<-|[]]]]; unfold section_of; cbn [s_path s_kind s_get firstn removelast].
      all: rewrite !P, !P1; rewrite ?at_nil, Q1; reflexivity.
  - destruct I as [<-|[<-|[<-|[]]]]; unfold section_of; cbn [s_path s_kind s_get firstn removelast].
    all: rewrite !P, Q; reflexivity.
Qed.

(** * Writing and reading back *)
Section Round.
Variable y : ylib.
Hypothesis S : sound_lib y.

Lemma enc_bool : forall n k old b, lookup n (str k) = Some (Some (nb y b)) -> assign (read_bool y) n k old = Some b.
Proof. intros n k old b H. unfold assign. rewrite H. cbn. apply sl_bool, S. Qed.
Lemma enc_uint : forall n k old z, lookup n (str k) = Some (Some (nz y z)) -> uint z -> assign (read_uint y) n k old = Some z.
Proof. intros n k old z H U. unfold assign. rewrite H. cbn. apply sl_uint; assumption. Qed.
Lemma enc_size : forall n k old z, lookup n (str k) = Some (Some (nz y z)) -> 0 <= z < 2^64 -> assign (read_size y) n k old = Some z.
Proof. intros n k old z H U. unfold assign. rewrite H. cbn. apply sl_size; assumption. Qed.
Lemma enc_text : forall n k old t, lookup n (str k) = Some (Some (NScalar t)) -> assign (read_text y) n k old = Some t.
Proof. intros n k old t H. unfold assign. rewrite H. reflexivity. Qed.
Lemma enc_ip : forall n k old t, lookup n (str k) = Some (Some (NScalar t)) -> valid_ip t = true -> assign (read_ip y) n k old = Some t.
Proof. intros n k old t H V. unfold assign. rewrite H. unfold read_ip. cbn [read_text]. rewrite V. reflexivity. Qed.
Lemma enc_con : forall n k old min step max z, lookup n (str k) = Some (Some (nz y z)) -> 0 <= min -> max < 2^31 -> step <> 0 ->
  stepped min step max z -> assign (read_constrained y min step max) n k old = Some z.
Proof.
  intros n k old min step max z H M1 M2 N (L & D). unfold assign. rewrite H. unfold read_constrained, nz. cbn [read_uint].
  rewrite (sl_uint _ S z) by (change (2^32) with 4294967296; change (2^31) with 2147483648 in M2; lia).
  unfold as_int. change (2^31) with 2147483648 in M2. replace (z <? 2147483648) with true by lia.
  unfold constrained. replace (Z.rem z step) with 0.
  - replace ((min <=? z) && (z <=? max) && (0 =? 0) && (min <=? max))%bool with true by lia. reflexivity.
  - symmetry. apply Z.rem_divide; assumption.
Qed.
Lemma read_all_map : forall ws, read_all y (map NScalar ws) = Some ws.
Proof. induction ws as [|w ws IH]; [reflexivity|]. cbn. rewrite IH. reflexivity. Qed.
Lemma enc_words : forall n k old ws, lookup n (str k) = Some (Some (nwords ws)) -> assign (read_words y) n k old = Some ws.
Proof. intros n k old ws H. unfold assign. rewrite H. cbn. apply read_all_map. Qed.
Lemma enc_sub : forall A (dec : node -> option A) n k old m, lookup n (str k) = Some (Some m) -> assign dec n k old = dec m.
Proof. intros A dec n k old m H. unfold assign. rewrite H. reflexivity. Qed.
Lemma enc_miss : forall A (dec : node -> option A) n k old, lookup n (str k) = Some None -> assign dec n k old = Some old.
Proof. intros A dec n k old H. unfold assign. rewrite H. reflexivity. Qed.

Lemma layers_back : forall ls, three_layers ls -> layers_of (layer_words ls) = ls.
Proof.
  intros ls H. unfold layers_of, layer_words. induction H as [|l ls N H IH]; [reflexivity|].
  cbn [flat_map]. rewrite flat_map_app, IH. destruct l; try reflexivity. destruct N.
Qed.
Lemma levels_back : forall m, is_filter m -> parse_levels (levels_to_array m) = m.
Proof. exact array_round. Qed.

Lemma sub_round : forall c, decode_sub y (encode_sub y c) = Some (mkSubCfg (ss_enable c) (su_enable c) (st_enable c) true).
Proof.
  intros c. unfold decode_sub, encode_sub.
  erewrite enc_sub by reflexivity. unfold decode_sub_layer, decode_enable, encode_enable.
  do 3 (erewrite enc_sub by reflexivity; erewrite enc_bool by reflexivity; cbv beta iota).
  erewrite enc_miss by reflexivity. reflexivity.
Qed.
Lemma pub_round : forall c, uint (ps_ack c) -> uint (ps_count c) ->
  decode_pub y (encode_pub y c) = Some (mkPubCfg (ps_enable c) (ps_zero c) (ps_ack c) (ps_count c) (pu_enable c) (pt_enable c)
    (layers_of (layer_words (pb_local c))) (layers_of (layer_words (pb_remote c))) (pb_type c) (pb_desc c)).
Proof.
  intros c U1 U2. unfold decode_pub, encode_pub.
  erewrite enc_bool by reflexivity. cbv beta iota. erewrite enc_bool by reflexivity. cbv beta iota.
  erewrite enc_words by reflexivity. cbv beta iota. erewrite enc_words by reflexivity. cbv beta iota.
  erewrite enc_sub by reflexivity. unfold decode_pub_layer.
  erewrite enc_sub by reflexivity. unfold decode_pub_shm.
  do 2 (erewrite enc_bool by reflexivity; cbv beta iota). do 2 (erewrite enc_uint by (reflexivity || assumption); cbv beta iota).
  unfold decode_enable, encode_enable.
  do 2 (erewrite enc_sub by reflexivity; erewrite enc_bool by reflexivity; cbv beta iota). reflexivity.
Qed.
Lemma reg_round : forall c, uint (rg_timeout c) -> uint (rg_refresh c) ->
  decode_reg y (encode_reg y c) = Some (mkRegCfg (rg_timeout c) (rg_refresh c) (rg_network c) (rg_loopback c) (rg_group c) (rg_layer reg_default)).
Proof.
  intros c U1 U2. unfold decode_reg, encode_reg.
  do 2 (erewrite enc_uint by (reflexivity || assumption); cbv beta iota).
  do 2 (erewrite enc_bool by reflexivity; cbv beta iota). erewrite enc_text by reflexivity. cbv beta iota.
  erewrite enc_miss by reflexivity. reflexivity.
Qed.
Lemma mon_round : forall c, stepped 1000 1000 (2^31 - 1) (mo_timeout c) -> decode_mon y (encode_mon y c) = Some c.
Proof.
  intros c U. unfold decode_mon, encode_mon.
  erewrite enc_con by (reflexivity || lia || exact U). cbv beta iota.
  do 2 (erewrite enc_text by reflexivity; cbv beta iota). destruct c; reflexivity.
Qed.
Lemma tim_round : forall c, decode_tim y (encode_tim c) = Some c.
Proof. intros c. unfold decode_tim, encode_tim. do 2 (erewrite enc_text by reflexivity; cbv beta iota). destruct c; reflexivity. Qed.
Lemma srv_round : forall c, decode_srv y (encode_srv y c) = Some c.
Proof. intros c. unfold decode_srv, encode_srv. do 2 (erewrite enc_bool by reflexivity; cbv beta iota). destruct c; reflexivity. Qed.
Lemma app_round : forall c, decode_app y (encode_app c) = Some c.
Proof.
  intros c. unfold decode_app, encode_app.
  do 2 (erewrite enc_sub by reflexivity; cbv beta; erewrite enc_text by reflexivity; cbv beta iota). destruct c; reflexivity.
Qed.
Definition widened (m : Z) : Z := parse_levels (levels_to_words m).
Lemma log_round : forall c, uint (lu_port c) ->
  decode_log y (encode_log y c) = Some (mkLogCfg (lc_enable c) (widened (lc_filter c)) (lf_enable c) (lf_path c) (widened (lf_filter c))
    (lu_enable c) (lu_port c) (widened (lu_filter c))).
Proof.
  intros c U. unfold decode_log, encode_log. erewrite enc_sub by reflexivity. unfold decode_sinks.
  erewrite enc_sub by reflexivity. unfold decode_log_con, decode_level.
  erewrite enc_bool by reflexivity. cbv beta iota. erewrite enc_words by reflexivity. cbv beta iota.
  erewrite enc_sub by reflexivity. unfold decode_log_file, decode_level.
  erewrite enc_bool by reflexivity. cbv beta iota. erewrite enc_text by reflexivity. cbv beta iota. erewrite enc_words by reflexivity. cbv beta iota.
  erewrite enc_sub by reflexivity. unfold decode_log_udp, decode_level.
  erewrite enc_bool by reflexivity. cbv beta iota. erewrite enc_uint by (reflexivity || assumption). cbv beta iota. erewrite enc_words by reflexivity. cbv beta iota.
  reflexivity.
Qed.

(** What is read back. *)
Definition reread (c0 c : config) : config :=
  let r := cf_reg c in let p := cf_pub c in let s := cf_sub c in let l := cf_log c in
  mkConfig (cf_tra c0) (mkRegCfg (rg_timeout r) (rg_refresh r) (rg_network r) (rg_loopback r) (rg_group r) (rg_layer reg_default))
    (cf_mon c) (mkSubCfg (ss_enable s) (su_enable s) (st_enable s) true)
    (mkPubCfg (ps_enable p) (ps_zero p) (ps_ack p) (ps_count p) (pu_enable p) (pt_enable p)
       (layers_of (layer_words (pb_local p))) (layers_of (layer_words (pb_remote p))) (pb_type p) (pb_desc p))
    (cf_tim c) (cf_srv c) (cf_app c)
    (mkLogCfg (lc_enable l) (widened (lc_filter l)) (lf_enable l) (lf_path l) (widened (lf_filter l))
       (lu_enable l) (lu_port l) (widened (lu_filter l))).
Lemma round_lemma : forall c0 c, holdable c -> map_config y (encode y c) c0 = (reread c0 c, true).
Proof.
  intros c0 c [(R1 & R2 & R3 & R4) M _ _ _ _ (P1 & P2) (L1 & L2 & L3 & L4)].
  apply map_config_spec. constructor; unfold encode, reread; cbn [cf_tra cf_pub cf_sub cf_reg cf_mon cf_tim cf_srv cf_app cf_log].
  - erewrite enc_miss by reflexivity. reflexivity.
  - erewrite enc_sub by reflexivity. apply pub_round; assumption.
  - erewrite enc_sub by reflexivity. apply sub_round.
  - erewrite enc_sub by reflexivity. apply reg_round; assumption.
  - erewrite enc_sub by reflexivity. apply mon_round, M.
  - erewrite enc_sub by reflexivity. apply tim_round.
  - erewrite enc_sub by reflexivity. apply srv_round.
  - erewrite enc_sub by reflexivity. apply app_round.
  - erewrite enc_sub by reflexivity. apply log_round, L4.
Qed.
End Round.

(** * The commented file *)
Lemma quoted_ok : forall t, quotable t -> quoted t = Some (NScalar t).
Proof.
  intros t (Q1 & Q2 & _). unfold quoted. replace (unquote t) with (Some t); [reflexivity|]. symmetry.
  induction t as [|c t IH]; [reflexivity|]. cbn [unquote].
  destruct (c =? 34) eqn:E1; [exfalso; apply Q1; left; lia|]. destruct (c =? 92) eqn:E2; [exfalso; apply Q2; left; lia|].
  rewrite IH; [reflexivity| |]; intro; [apply Q1|apply Q2]; right; assumption.
Qed.
Lemma parts_chars : forall s c, In c s -> c = 46 \/ exists p, In p (dot_parts s) /\ In c p.
Proof.
  induction s as [|d s IH]; intros c H; [destruct H|]. cbn [dot_parts]. destruct (d =? 46) eqn:E.
  - destruct H as [<-|H]; [left; lia|]. destruct (IH _ H) as [?|(p & H1 & H2)]; [auto|]. right. exists p. split; [right; exact H1|exact H2].
  - destruct H as [<-|H].
    + right. destruct (dot_parts s) as [|p ps]; eexists; (split; [left; reflexivity|left; reflexivity]).
    + destruct (IH _ H) as [?|(p & H1 & H2)]; [auto|]. right.
      destruct (dot_parts s) as [|q ps]; [destruct H1|]. destruct H1 as [->|H1].
      * eexists. split; [left; reflexivity|right; exact H2].
      * exists p. split; [right; exact H1|exact H2].
Qed.
Lemma head_chars : forall p, dec_head p = true -> Forall (fun c => dig c = true) p.
Proof.
  intros [|a [|b [|c [|? ?]]]] H; try discriminate; cbn in H; repeat constructor; unfold big, dig in *; lia.
Qed.
Lemma tail_chars : forall p, dec_tail p = true -> Forall (fun c => dig c = true) p.
Proof.
  intros [|a [|b [|c [|? ?]]]] H; try discriminate; cbn in H; repeat constructor; unfold big, dig in *; lia.
Qed.
Lemma hex_chars : forall p, hex_part p = true -> Forall (fun c => hex c = true) p.
Proof. intros [|a [|b [|? ?]]] H; try discriminate; cbn [hex_part] in H; [|apply andb_true_iff in H; destruct H]; repeat apply Forall_cons; try apply Forall_nil; assumption. Qed.
Lemma dig_hex : forall c, dig c = true -> hex c = true.
Proof. intros c H. unfold hex. rewrite H. reflexivity. Qed.
Lemma ip_parts : forall s, valid_ip s = true -> exists a b c d, dot_parts s = [a; b; c; d] /\ Forall (Forall (fun c => hex c = true)) [a; b; c; d].
Proof.
  intros s H. unfold valid_ip, dec_match, hex_match in H. destruct (dot_parts s) as [|a [|b [|c [|d [|? ?]]]]]; try (cbn in H; discriminate).
  exists a, b, c, d. split; [reflexivity|]. apply andb_true_iff in H. destruct H as [H _]. apply orb_true_iff in H.
  destruct H as [H|H]; rewrite !andb_true_iff in H; destruct H as (((Ha & Hb) & Hc) & Hd).
  - repeat constructor; (eapply Forall_impl; [|first [apply head_chars; eassumption|apply tail_chars; eassumption]]); exact dig_hex.
  - repeat constructor; apply hex_chars; assumption.
Qed.
Lemma ip_quotable : forall s, valid_ip s = true -> quotable s.
Proof.
  intros s H. destruct (ip_parts s H) as (a & b & c & d & E & F).
  assert (K : forall z, In z s -> z = 46 \/ hex z = true).
  { intros z Hz. destruct (parts_chars _ _ Hz) as [?|(p & P1 & P2)]; [auto|]. right. rewrite E in P1.
    rewrite Forall_forall in F. specialize (F _ P1). rewrite Forall_forall in F. exact (F _ P2). }
  unfold quotable. repeat split; intro C; destruct (K _ C) as [Q|Q]; try lia; cbv in Q; discriminate.
Qed.
Lemma dumpable_ok : forall ls, three_layers ls -> dumpable_layers ls = true.
Proof. intros [|l ls] H; [reflexivity|]. inversion H as [|? ? N _]. subst. destruct l; try reflexivity. destruct N. Qed.

Section Commented.
Variable y : ylib.
Hypothesis S : sound_lib y.
(** What is read back from the commented file: two settings are not what they were. *)
Definition file_reread (c : config) : config :=
  let p := cf_pub c in let s := cf_sub c in
  mkConfig (cf_tra c) (cf_reg c) (cf_mon c) (mkSubCfg (ss_enable s) (su_enable s) (st_enable s) true)
    (mkPubCfg (ps_enable p) (ps_zero p) (ps_ack p) (ps_count p) (pu_enable p) (ps_enable p) (pb_local p) (pb_remote p) (pb_type p) (pb_desc p))
    (cf_tim c) (cf_srv c) (cf_app c) (cf_log c).

Ltac got := first [erewrite enc_bool by (eassumption || reflexivity) | erewrite enc_text by reflexivity
  | erewrite enc_uint by (eassumption || reflexivity) | erewrite enc_size by (eassumption || reflexivity)
  | erewrite enc_con by (eassumption || reflexivity || lia) | erewrite enc_ip by (eassumption || reflexivity)
  | erewrite enc_words by reflexivity]; cbv beta iota.
Ltac into := erewrite enc_sub by reflexivity.

Lemma commented_lemma : forall c, holdable c -> known_priorities c -> quotable_texts c ->
  exists n, commented y c = Dumped n /\ forall c0, map_config y n c0 = (file_reread c, true).
Proof.
  intros c [(R1 & R2 & R3 & R4) M (U1 & U2 & U3 & U4) (I1 & I2) (T1 & T2 & T3) (S1 & S2) (P1 & P2) (L1 & L2 & L3 & L4)] (K1 & K2)
         (Q1 & Q2 & Q3 & Q4 & Q5 & Q6 & Q7 & Q8 & Q9).
  unfold commented. rewrite (dumpable_ok _ K1), (dumpable_ok _ K2). cbn [andb].
  rewrite (quoted_ok _ Q1), (quoted_ok _ Q2), (quoted_ok _ Q3), (quoted_ok _ Q4), (quoted_ok _ (ip_quotable _ I1)), (quoted_ok _ (ip_quotable _ I2)),
    (quoted_ok _ Q5), (quoted_ok _ Q6), (quoted_ok _ Q7), (quoted_ok _ Q8), (quoted_ok _ Q9).
  eexists. split; [reflexivity|]. intros c0. apply map_config_spec.
  constructor; unfold file_reread; cbn [cf_tra cf_pub cf_sub cf_reg cf_mon cf_tim cf_srv cf_app cf_log]; into.
  - unfold decode_tra. into. unfold decode_tra_shm. got. got. into. unfold decode_tra_udp. do 8 got.
    into. unfold decode_tra_net. got. got. into. unfold decode_tra_tcp. do 3 got.
    destruct (cf_tra c) as [v p l k s r j cc g t a b x m rr]. cbn. destruct v, l; reflexivity.
  - unfold decode_pub. do 4 got. into. unfold decode_pub_layer. into. unfold decode_pub_shm. do 4 got.
    unfold decode_enable, encode_enable. into. got. into. got. rewrite (layers_back _ K1), (layers_back _ K2). reflexivity.
  - unfold decode_sub. into. unfold decode_sub_layer, decode_enable, encode_enable. do 3 (into; got). erewrite enc_miss by reflexivity. reflexivity.
  - unfold decode_reg. do 5 got. into. unfold decode_reg_layer. into. unfold decode_reg_shm. do 3 got. into. unfold decode_reg_udp. do 2 got.
    destruct (cf_reg c) as [? ? ? ? ? []]; reflexivity.
  - unfold decode_mon. do 3 got. destruct (cf_mon c); reflexivity.
  - unfold decode_tim. do 2 got. destruct (cf_tim c); reflexivity.
  - unfold decode_srv. do 2 got. destruct (cf_srv c); reflexivity.
  - unfold decode_app. do 2 (into; cbv beta; got). destruct (cf_app c); reflexivity.
  - unfold decode_log. into. unfold decode_sinks. into. unfold decode_log_con, decode_level. do 2 got. into. unfold decode_log_file, decode_level. do 3 got.
    into. unfold decode_log_udp, decode_level. do 3 got. rewrite !levels_back by assumption. destruct (cf_log c); reflexivity.
Qed.
End Commented.

(** * Merging *)
Fixpoint nsize (n : node) : nat :=
  match n with
  | NMap l => S ((fix go l := match l with [] => 0%nat | (_, v) :: r => (S (nsize v) + go r)%nat end) l)
  | _ => 1%nat
  end.
Lemma nsize_cons : forall k v r, nsize (NMap ((k, v) :: r)) = (S (nsize v) + nsize (NMap r))%nat.
Proof. intros. cbn. lia. Qed.
Lemma merge_cons : forall base k v r, merge base (NMap ((k, v) :: r)) =
  match aget k base, v with
  | Some (NMap b), NMap _ => do b' <- merge b v; merge (aset k (NMap b') base) (NMap r)
  | _, _ => merge (aset k v base) (NMap r)
  end.
Proof. reflexivity. Qed.
Lemma merge_total : forall sz other base, (nsize other < sz)%nat -> is_map other -> exists m, merge base other = Some m.
Proof.
  induction sz as [|sz IH]; intros other base L (l & ->); [lia|].
  destruct l as [|[k v] r]; [eexists; reflexivity|]. rewrite nsize_cons in L. rewrite merge_cons.
  assert (R : forall b, exists m, merge b (NMap r) = Some m) by (intro; apply IH; [lia|eexists; reflexivity]).
  destruct (aget k base) as [[]|]; try apply R. destruct v; try apply R.
  destruct (IH (NMap l0) l ltac:(lia) ltac:(eexists; reflexivity)) as (b' & ->). apply R.
Qed.
Definition merges (base : list (text * node)) (other : node) (m : list (text * node)) (p : list text) : Prop :=
  (forall v, at_path other p = Some v -> ~ is_map v -> at_path (NMap m) p = Some v) /\
  (at_path other p = None -> open_path other p -> at_path (NMap m) p = at_path (NMap base) p).
Lemma merge_other : forall sz other base m k, (nsize other < sz)%nat -> merge base other = Some m ->
  forall l, other = NMap l -> ~ In k (map fst l) -> aget k m = aget k base.
Proof.
  induction sz as [|sz IH]; intros other base m k L E l -> N; [lia|].
  destruct l as [|[k' v] r]; [injection E as <-; reflexivity|]. rewrite nsize_cons in L. rewrite merge_cons in E.
  assert (K : k <> k') by (intro; subst; apply N; left; reflexivity).
  assert (N' : ~ In k (map fst r)) by (intro; apply N; right; assumption).
  assert (R : forall w, merge (aset k' w base) (NMap r) = Some m -> aget k m = aget k base).
  { intros w Ew. rewrite (IH (NMap r) _ m k ltac:(lia) Ew r eq_refl N'). apply aget_aset_other. exact K. }
  destruct (aget k' base) as [[]|]; try (exact (R _ E)). destruct v; try (exact (R _ E)).
  destruct (merge l (NMap l0)) as [b'|]; [|discriminate]. exact (R _ E).
Qed.
Lemma at_cons : forall l k q, at_path (NMap l) (k :: q) = match aget k l with Some m => at_path m q | None => None end.
Proof. reflexivity. Qed.
Lemma merge_lemma : forall sz other base m p, (nsize other < sz)%nat -> distinct other -> is_map other -> merge base other = Some m ->
  p <> [] -> merges base other m p.
Proof.
  induction sz as [|sz IH]; intros other base m p L D (l & ->) E NP; [lia|].
  destruct p as [|k' q]; [contradiction|]. clear NP.
  destruct l as [|[k v] r].
  - injection E as <-. split; [intros v H; discriminate|reflexivity].
  - rewrite nsize_cons in L. inversion D as [| | |? ND FD]. subst. cbn [map fst snd] in ND, FD.
    inversion ND as [|? ? NI ND']. subst. inversion FD as [|? ? Dv FD']. subst. rewrite merge_cons in E.
    assert (Dr : distinct (NMap r)) by (constructor; assumption).
    destruct (eqb k' k) eqn:Ek.
    + apply eqb_true in Ek. subst k'.
      assert (H1 : forall w, merge (aset k w base) (NMap r) = Some m -> aget k m = Some w).
      { intros w Ew. rewrite (merge_other (S (nsize (NMap r))) (NMap r) _ m k ltac:(lia) Ew r eq_refl NI). apply aget_aset_same. }
      assert (O : at_path (NMap ((k, v) :: r)) (k :: q) = at_path v q) by (rewrite at_cons; cbn [aget]; rewrite eqb_refl; reflexivity).
      assert (W : forall w, (forall b b', aget k base = Some (NMap b) -> v = NMap b' -> False) -> w = v ->
                  merge (aset k w base) (NMap r) = Some m -> merges base (NMap ((k, v) :: r)) m (k :: q)).
      { intros w NM -> Ew. specialize (H1 _ Ew). unfold merges. rewrite O, at_cons, H1. split; [auto|].
        intros Hn Op. rewrite at_cons. destruct q as [|k2 q2]; [discriminate|].
        assert (Mv : is_map v).
        { apply (Op [k] (k2 :: q2) v eq_refl). rewrite at_cons. cbn [aget]. rewrite eqb_refl. reflexivity. }
        destruct Mv as (lv & ->). destruct (aget k base) as [[| | |b]|] eqn:Eb; try (rewrite Hn; reflexivity).
        exfalso. eapply NM; [reflexivity|reflexivity]. }
      destruct (aget k base) as [b|] eqn:Eb.
      * destruct b as [| | |b]; try (eapply W; [|reflexivity|exact E]; intros ? ? X; discriminate X).
        destruct v as [| | |lv]; try (eapply W; [|reflexivity|exact E]; intros ? ? _ X; discriminate X).
        destruct (merge b (NMap lv)) as [b'|] eqn:Em; [|discriminate]. specialize (H1 _ E).
        unfold merges. rewrite O, !at_cons, H1, Eb.
        destruct q as [|k2 q2].
        -- split; [intros v Hv NV; exfalso; apply NV; rewrite at_nil in Hv; injection Hv as <-; eexists; reflexivity|discriminate].
        -- assert (IHv : merges b (NMap lv) b' (k2 :: q2)) by (apply IH; [lia|exact Dv|eexists; reflexivity|exact Em|discriminate]).
           destruct IHv as [I1 I2]. split; [exact I1|]. intros Hn Op. apply I2; [exact Hn|].
           intros q1 r1 m1 Eq Hq. apply (Op (k :: q1) r1 m1); [cbn; rewrite Eq; reflexivity|].
           rewrite at_cons. cbn [aget]. rewrite eqb_refl. exact Hq.
      * eapply W; [|reflexivity|exact E]. intros ? ? X; discriminate X.
    + assert (Kn : k' <> k) by (apply eqb_false; exact Ek).
      assert (A : forall q', at_path (NMap ((k, v) :: r)) (k' :: q') = at_path (NMap r) (k' :: q')).
      { intros q'. rewrite !at_cons. cbn [aget]. rewrite Ek. reflexivity. }
      assert (W : forall w, merge (aset k w base) (NMap r) = Some m -> merges base (NMap ((k, v) :: r)) m (k' :: q)).
      { intros w Ew. destruct (IH (NMap r) _ m (k' :: q) ltac:(lia) Dr ltac:(eexists; reflexivity) Ew ltac:(discriminate)) as [I1 I2].
        unfold merges. rewrite A. split; [exact I1|]. intros Hn Op. rewrite I2; [|exact Hn|].
        - rewrite !at_cons, aget_aset_other by exact Kn. reflexivity.
        - intros q1 r1 m1 Eq Hq. destruct q1 as [|k1 q1]; [rewrite at_nil in Hq; injection Hq as <-; eexists; reflexivity|].
          injection Eq as <- Eq. eapply (Op (k' :: q1) r1 m1); [cbn; rewrite Eq; reflexivity|]. rewrite A. exact Hq. }
      destruct (aget k base) as [[]|]; try exact (W _ E). destruct v; try exact (W _ E).
      destruct (merge l (NMap l0)) as [b'|]; [|discriminate]. exact (W _ E).
Qed.

(** * Merging a file into a configuration *)
Lemma within_get : forall A sec (get : config -> A) l s c c', In s (within sec get l) -> get c = get c' -> s_get s c = s_get s c'.
Proof.
  intros A sec get l s c c' I E. apply in_map_iff in I. destruct I as ([[p k] g] & <- & _). cbn. rewrite E. reflexivity.
Qed.
Lemma kept_outer : forall c0 c s, In s (outer_settings ++ tcp_setting) -> s_get s (reread c0 c) = s_get s c.
Proof.
  intros c0 c s I. apply in_app_iff in I. destruct I as [I|I].
  - revert s I. apply Forall_forall. unfold outer_settings, within, reg_top, mon_plain, pub_most, sub_plain, tim_plain, srv_plain, app_plain, log_plain.
    cbn [map app]. repeat (apply Forall_cons; [reflexivity|]). apply Forall_nil.
  - destruct I as [<-|[]]. reflexivity.
Qed.
Lemma kept_priorities : forall c0 c s, known_priorities c -> In s priorities -> s_get s (reread c0 c) = s_get s c.
Proof.
  intros c0 c s (K1 & K2) [<-|[<-|[]]]; cbn; rewrite layers_back by assumption; reflexivity.
Qed.
Lemma written_outer : forall y c s, In s (outer_settings ++ tcp_setting ++ priorities) -> exists m, at_path (encode y c) (s_path s) = Some m.
Proof.
  intros y c. apply Forall_forall.
  unfold outer_settings, tcp_setting, priorities, within, reg_top, mon_plain, pub_most, sub_plain, tim_plain, srv_plain, app_plain, log_plain, pub_tcp, pub_lists.
  cbn [map app]. repeat (apply Forall_cons; [eexists; reflexivity|]). apply Forall_nil.
Qed.

Section Into.
Variable y : ylib.
Hypothesis S : sound_lib y.
Lemma encoded_says : forall c, holdable c -> known_priorities c -> forall s, In s (outer_settings ++ tcp_setting ++ priorities) ->
  exists m, at_path (encode y c) (s_path s) = Some m /\ meaning y (s_kind s) m = Some (s_get s c).
Proof.
  intros c H K s I. destruct (written_outer y c s I) as (m & Em). exists m. split; [exact Em|].
  pose proof (round_lemma y S c c H) as R.
  assert (Q : exists a, says y (encode y c) s a (s_get s c) (s_get s (reread c c)) /\ s_get s (reread c c) = s_get s c).
  { rewrite app_assoc, in_app_iff in I. destruct I as [I|I].
    - eexists. split; [apply (plain_lemma y _ _ _ S R)|apply kept_outer, I].
      unfold plain_settings. rewrite !in_app_iff in *. tauto.
    - eexists. split; [apply (priorities_lemma y _ _ _ S R), I|apply kept_priorities; assumption]. }
  destruct Q as (a & Q & G). unfold says in Q. rewrite Em in Q. rewrite Q, G. reflexivity.
Qed.
Lemma setting_nonempty : forall s, In s (outer_settings ++ tcp_setting ++ priorities) -> s_path s <> [].
Proof.
  apply Forall_forall.
  unfold outer_settings, tcp_setting, priorities, within, reg_top, mon_plain, pub_most, sub_plain, tim_plain, srv_plain, app_plain, log_plain, pub_tcp, pub_lists.
  cbn [map app]. repeat (apply Forall_cons; [discriminate|]). apply Forall_nil.
Qed.
Lemma encode_map : forall c, exists b, encode y c = NMap b.
Proof. intros c. eexists. reflexivity. Qed.

Lemma into_lemma : forall c file c', holdable c -> known_priorities c -> distinct file -> is_map file -> merge_into y file c = (c', true) ->
  forall s, In s (outer_settings ++ tcp_setting ++ priorities) ->
  (forall v, at_path file (s_path s) = Some v -> ~ is_map v -> meaning y (s_kind s) v = Some (s_get s c')) /\
  (at_path file (s_path s) = None -> open_path file (s_path s) -> s_get s c' = s_get s c).
Proof.
  intros c file c' H K D M E s I. unfold merge_into in E. destruct (encode_map c) as (b & Eb). rewrite Eb in E.
  destruct (merge b file) as [m|] eqn:Em; [|discriminate].
  destruct (merge_lemma (Datatypes.S (nsize file)) file b m (s_path s) ltac:(lia) D M Em (setting_nonempty s I)) as [M1 M2].
  assert (Q : exists a, says y (NMap m) s a (s_get s c) (s_get s c')).
  { rewrite app_assoc, in_app_iff in I. destruct I as [I|I].
    - eexists. apply (plain_lemma y _ _ _ S E). unfold plain_settings. rewrite !in_app_iff in *. tauto.
    - eexists. apply (priorities_lemma y _ _ _ S E), I. }
  destruct Q as (a & Q). unfold says in Q. split.
  - intros v Hv NV. rewrite (M1 v Hv NV) in Q. exact Q.
  - intros Hn Op. rewrite (M2 Hn Op) in Q. destruct (encoded_says c H K s I) as (m' & Em' & Me).
    rewrite Eb in Em'. rewrite Em' in Q. rewrite Me in Q. injection Q as ->. reflexivity.
Qed.
Lemma into_transport : forall c file c', distinct file -> is_map file -> merge_into y file c = (c', true) ->
  at_path file [str "transport_layer"] = None -> cf_tra c' = cf_tra c.
Proof.
  intros c file c' D M E N. unfold merge_into in E. destruct (encode_map c) as (b & Eb). rewrite Eb in E.
  destruct (merge b file) as [m|] eqn:Em; [|discriminate].
  destruct (merge_lemma (Datatypes.S (nsize file)) file b m [str "transport_layer"] ltac:(lia) D M Em ltac:(discriminate)) as [_ M2].
  assert (Op : open_path file [str "transport_layer"]).
  { intros q r m0 Eq Hq. destruct q as [|k q]; [rewrite at_nil in Hq; injection Hq as <-; exact M|].
    destruct q as [|? ?]; [|discriminate]. injection Eq as <- _. rewrite N in Hq. discriminate. }
  specialize (M2 N Op). rewrite <- Eb in M2. cbn [encode] in M2.
  apply map_config_spec in E. pose proof (mp_tra _ _ _ _ E) as T. unfold assign in T. cbn [lookup] in T.
  rewrite at_cons in M2. change (at_path (encode y c) [str "transport_layer"]) with (@None node) in M2.
  destruct (aget (str "transport_layer") m) as [v|]; [discriminate|]. injection T as <-. reflexivity.
Qed.
End Into.

(** * Constrained integers and addresses *)
Lemma constrained_lemma : forall min step max z r, step <> 0 -> constrained min step max z = Some r -> r = z /\ stepped min step max z.
Proof.
  intros min step max z r N H. unfold constrained in H.
  destruct ((min <=? z) && (z <=? max) && (Z.rem z step =? 0) && (min <=? max))%bool eqn:E; [|discriminate].
  injection H as <-. split; [reflexivity|]. rewrite !andb_true_iff in E. destruct E as (((E1 & E2) & E3) & _).
  split; [lia|]. apply Z.rem_divide; lia.
Qed.
Lemma constrained_ok : forall min step max z, step <> 0 -> stepped min step max z -> constrained min step max z = Some z.
Proof.
  intros min step max z N (L & D). unfold constrained. apply Z.rem_divide in D; [|exact N]. rewrite D.
  replace ((min <=? z) && (z <=? max) && (0 =? 0) && (min <=? max))%bool with true by lia. reflexivity.
Qed.

Lemma parts_word : forall u r, ~ In 46 u -> dot_parts (u ++ 46 :: r) = u :: dot_parts r.
Proof.
  induction u as [|c u IH]; intros r N; [reflexivity|]. cbn [app dot_parts].
  destruct (c =? 46) eqn:E; [exfalso; apply N; left; lia|]. rewrite IH; [reflexivity|]. intro; apply N; right; assumption.
Qed.
Lemma parts_last : forall u, ~ In 46 u -> dot_parts u = [u].
Proof.
  induction u as [|c u IH]; intros N; [reflexivity|]. cbn [dot_parts].
  destruct (c =? 46) eqn:E; [exfalso; apply N; left; lia|]. rewrite IH; [reflexivity|]. intro; apply N; right; assumption.
Qed.
Fixpoint with_dots (ps : list text) : text := match ps with [] => [] | [p] => p | p :: r => p ++ 46 :: with_dots r end.
Lemma parts_join : forall s, with_dots (dot_parts s) = s.
Proof.
  induction s as [|c s IH]; [reflexivity|]. cbn [dot_parts]. destruct (c =? 46) eqn:E.
  - replace c with 46 by lia. destruct (dot_parts s) eqn:F; [destruct s; cbn in F; [discriminate|]|].
    + destruct (z =? 46); [discriminate|]. destruct (dot_parts s); discriminate.
    + change (46 :: with_dots (l :: l0) = 46 :: s). rewrite IH. reflexivity.
  - destruct (dot_parts s) as [|p ps]; [cbn in IH; subst s; reflexivity|].
    rewrite <- IH. destruct ps; reflexivity.
Qed.
Lemma hex_nodot : forall p, Forall (fun c => hex c = true) p -> ~ In 46 p.
Proof. intros p F H. rewrite Forall_forall in F. specialize (F _ H). discriminate. Qed.
Lemma quad_parts : forall base s l, quad base s l -> exists a b c d, dot_parts s = [a; b; c; d] /\ l = map (number base) [a; b; c; d]
  /\ Forall (fun p => p <> [] /\ Forall (digit_of base) p) [a; b; c; d].
Proof.
  intros base s l (a & b & c & d & -> & -> & F). exists a, b, c, d. split; [|split; [reflexivity|exact F]].
  assert (N : forall p, In p [a; b; c; d] -> ~ In 46 p).
  { intros p Hp H. rewrite Forall_forall in F. destruct (F _ Hp) as [_ G]. rewrite Forall_forall in G. specialize (G _ H). unfold digit_of in G. lia. }
  cbn [app]. rewrite !parts_word, parts_last by (apply N; cbn; tauto). reflexivity.
Qed.

Lemma head_range : forall p, dec_head p = true -> p <> [] /\ Forall (digit_of 10) p /\ 0 <= number 10 p <= 255.
Proof.
  intros [|a [|b [|c [|? ?]]]] H; try discriminate; cbn [dec_head] in H; (split; [discriminate|]); unfold big, dig in H;
    (split; [repeat (apply Forall_cons; [unfold digit_of; lia|]); apply Forall_nil|]);
    unfold number, digit_value; cbn [fold_left]; repeat match goal with |- context[?x <? ?y] => destruct (x <? y) eqn:? end; lia.
Qed.
Lemma tail_head : forall p, dec_tail p = true -> dec_head p = true.
Proof. intros [|a [|b [|c [|? ?]]]] H; try discriminate; cbn [dec_head dec_tail] in *; [exact H|unfold dig in *; lia|exact H]. Qed.
Lemma hexp_range : forall p, hex_part p = true -> p <> [] /\ Forall (digit_of 16) p /\ 0 <= number 16 p <= 255.
Proof.
  intros [|a [|b [|? ?]]] H; try discriminate; cbn [hex_part] in H; (split; [discriminate|]); unfold hex, dig in H;
    (split; [repeat (apply Forall_cons; [unfold digit_of; lia|]); apply Forall_nil|]);
    unfold number, digit_value; cbn [fold_left]; repeat match goal with |- context[?x <? ?y] => destruct (x <? y) eqn:? end; lia.
Qed.
Lemma ip_quad : forall s, valid_ip s = true -> exists base l, (base = 10 \/ base = 16) /\ quad base s l /\ Forall (fun x => 0 <= x <= 255) l.
Proof.
  intros s H. unfold valid_ip, dec_match, hex_match in H. pose proof (parts_join s) as J.
  destruct (dot_parts s) as [|a [|b [|c [|d [|? ?]]]]]; try (cbn in H; discriminate).
  apply andb_true_iff in H. destruct H as [H _]. apply orb_true_iff in H. cbn [with_dots] in J.
  destruct H as [H|H]; rewrite !andb_true_iff in H; destruct H as (((Ha & Hb) & Hc) & Hd).
  - apply tail_head in Hd. exists 10. eexists. split; [left; reflexivity|]. split.
    + exists a, b, c, d. split; [symmetry; exact J|]. split; [reflexivity|].
      repeat (apply Forall_cons; [match goal with |- ?p <> [] /\ _ => split; apply (head_range p); assumption end|]). apply Forall_nil.
    + cbn [map]. repeat (apply Forall_cons; [apply head_range; assumption|]). apply Forall_nil.
  - exists 16. eexists. split; [right; reflexivity|]. split.
    + exists a, b, c, d. split; [symmetry; exact J|]. split; [reflexivity|].
      repeat (apply Forall_cons; [match goal with |- ?p <> [] /\ _ => split; apply (hexp_range p); assumption end|]). apply Forall_nil.
    + cbn [map]. repeat (apply Forall_cons; [apply hexp_range; assumption|]). apply Forall_nil.
Qed.

(** The parts of an accepted address that are numbers of a forbidden one. *)
Definition good_part (p : text) : Prop := dec_head p = true \/ hex_part p = true.
Lemma part_ones : forall base p, base = 10 \/ base = 16 -> good_part p -> Forall (digit_of base) p -> number base p = 255 -> ones p = true.
Proof.
  intros base p B G F N.
  assert (Q : p = str "255" \/ p = str "ff" \/ p = str "fF" \/ p = str "Ff" \/ p = str "FF").
  { destruct p as [|a [|b [|c [|? ?]]]]; try (destruct G; discriminate).
    - destruct G as [G|G]; cbn in G; unfold number, digit_value in N; cbn in N; unfold hex, dig in G; destruct (a <? 58) eqn:?, (a <? 71) eqn:?; lia.
    - inversion F as [|? ? Fa F']; subst. inversion F' as [|? ? Fb _]; subst. unfold digit_of in Fa, Fb.
      unfold number, digit_value in N. cbn [fold_left] in N.
      destruct B as [-> | ->]; [exfalso; destruct (a <? 58) eqn:?, (b <? 58) eqn:?; lia|].
      assert (A : (a = 102 \/ a = 70) /\ (b = 102 \/ b = 70)) by (destruct (a <? 58) eqn:?, (b <? 58) eqn:?, (a <? 71) eqn:?, (b <? 71) eqn:?; lia).
      destruct A as [[-> | ->] [-> | ->]]; cbn; tauto.
    - destruct G as [G|G]; [|discriminate]. cbn [dec_head] in G. unfold big, dig in G. unfold number, digit_value in N. cbn [fold_left] in N.
      replace (a <? 58) with true in N by lia. replace (b <? 58) with true in N by lia. replace (c <? 58) with true in N by lia.
      destruct B as [-> | ->]; [|exfalso; lia].
      assert (A : a = 50 /\ b = 53 /\ c = 53) by lia. destruct A as (-> & -> & ->). left. reflexivity. }
  destruct Q as [->|[->|[->|[->| ->]]]]; reflexivity.
Qed.
Lemma part_127 : forall base p, base = 10 \/ base = 16 -> good_part p -> Forall (digit_of base) p -> number base p = 127 -> one_of ["127"; "7f"; "7F"]%string p = true.
Proof.
  intros base p B G F N.
  assert (Q : p = str "127" \/ p = str "7f" \/ p = str "7F").
  { destruct p as [|a [|b [|c [|? ?]]]]; try (destruct G; discriminate).
    - destruct G as [G|G]; cbn in G; unfold number, digit_value in N; cbn in N; unfold hex, dig in G; destruct (a <? 58) eqn:?, (a <? 71) eqn:?; lia.
    - inversion F as [|? ? Fa F']; subst. inversion F' as [|? ? Fb _]; subst. unfold digit_of in Fa, Fb.
      unfold number, digit_value in N. cbn [fold_left] in N.
      destruct B as [-> | ->]; [exfalso; destruct (a <? 58) eqn:?, (b <? 58) eqn:?; lia|].
      assert (A : a = 55 /\ (b = 102 \/ b = 70)) by (destruct (a <? 58) eqn:?, (b <? 58) eqn:?, (a <? 71) eqn:?, (b <? 71) eqn:?; lia).
      destruct A as [-> [-> | ->]]; cbn; tauto.
    - destruct G as [G|G]; [|discriminate]. cbn [dec_head] in G. unfold big, dig in G. unfold number, digit_value in N. cbn [fold_left] in N.
      replace (a <? 58) with true in N by lia. replace (b <? 58) with true in N by lia. replace (c <? 58) with true in N by lia.
      destruct B as [-> | ->]; [|exfalso; lia].
      assert (A : a = 49 /\ b = 50 /\ c = 55) by lia. destruct A as (-> & -> & ->). left. reflexivity. }
  destruct Q as [->|[->| ->]]; reflexivity.
Qed.
Lemma part_small : forall base p v, base = 10 \/ base = 16 -> good_part p -> Forall (digit_of base) p -> number base p = v -> v = 0 \/ v = 1 ->
  p = [48 + v] \/ p = [48; 48 + v].
Proof.
  intros base p v B G F N V.
  destruct p as [|a [|b [|c [|? ?]]]]; try (destruct G; discriminate).
  - inversion F as [|? ? Fa _]; subst. unfold digit_of in Fa. unfold number, digit_value in *. cbn [fold_left] in *.
    left. f_equal. destruct (a <? 58) eqn:?, (a <? 71) eqn:?; destruct B; subst; lia.
  - inversion F as [|? ? Fa F']; subst. inversion F' as [|? ? Fb _]; subst. unfold digit_of in Fa, Fb.
    unfold number, digit_value in *. cbn [fold_left] in *. right.
    assert (a = 48) by (destruct (a <? 58) eqn:?, (b <? 58) eqn:?, (a <? 71) eqn:?, (b <? 71) eqn:?; destruct B; subst; lia).
    subst a. f_equal. f_equal. destruct (b <? 58) eqn:?, (b <? 71) eqn:?; destruct B; subst; cbn in *; lia.
  - destruct G as [G|G]; [|discriminate]. cbn [dec_head] in G. unfold big, dig in G. unfold number, digit_value in *. cbn [fold_left] in *.
    replace (a <? 58) with true in * by lia. replace (b <? 58) with true in * by lia. replace (c <? 58) with true in * by lia. exfalso. destruct B; subst; lia.
Qed.
Lemma ip_barred : forall s base l, valid_ip s = true -> base = 10 \/ base = 16 -> quad base s l -> ~ In l barred.
Proof.
  intros s base l H B Q I. destruct (quad_parts _ _ _ Q) as (a & b & c & d & E & -> & F).
  unfold valid_ip in H. apply andb_true_iff in H. destruct H as [H Nf]. apply negb_true_iff in Nf.
  assert (G : Forall good_part [a; b; c; d]).
  { apply orb_true_iff in H. unfold dec_match, hex_match in H. rewrite E in H.
    destruct H as [H|H]; rewrite !andb_true_iff in H; destruct H as (((Ha & Hb) & Hc) & Hd); unfold good_part.
    - apply tail_head in Hd. repeat (apply Forall_cons; [left; assumption|]). apply Forall_nil.
    - repeat (apply Forall_cons; [right; assumption|]). apply Forall_nil. }
  unfold forbidden_ip in Nf. rewrite E in Nf.
  rewrite Forall_forall in F, G.
  assert (Z0 : forall p, In p [a; b; c; d] -> number base p = 0 -> zeros p = true).
  { intros p Hp Np. destruct (part_small base p 0 B (G _ Hp) (proj2 (F _ Hp)) Np (or_introl eq_refl)) as [->| ->]; reflexivity. }
  assert (Z1 : forall p, In p [a; b; c; d] -> number base p = 1 -> one_of ["1"; "01"; "001"]%string p = true).
  { intros p Hp Np. destruct (part_small base p 1 B (G _ Hp) (proj2 (F _ Hp)) Np (or_intror eq_refl)) as [->| ->]; reflexivity. }
  assert (ZF : forall p, In p [a; b; c; d] -> number base p = 255 -> ones p = true).
  { intros p Hp Np. exact (part_ones base p B (G _ Hp) (proj2 (F _ Hp)) Np). }
  assert (Z7 : forall p, In p [a; b; c; d] -> number base p = 127 -> one_of ["127"; "7f"; "7F"]%string p = true).
  { intros p Hp Np. exact (part_127 base p B (G _ Hp) (proj2 (F _ Hp)) Np). }
  cbn [map] in I. apply orb_false_iff in Nf. destruct Nf as [Nf N3]. apply orb_false_iff in Nf. destruct Nf as [N1 N2].
  destruct I as [I|[I|[I|[]]]]; injection I; intros Id Ic Ib Ia; symmetry in Ia, Ib, Ic, Id.
  - rewrite (ZF a), (ZF b), (ZF c), (ZF d) in N1 by (cbn; tauto || assumption). discriminate.
  - rewrite (Z7 a), (Z0 b), (Z0 c), (Z1 d) in N2 by (cbn; tauto || assumption). discriminate.
  - rewrite (Z0 a), (Z0 b), (Z0 c), (Z0 d) in N3 by (cbn; tauto || assumption). discriminate.
Qed.

(** * A concrete conversion *)
Lemma digits_show : forall bound z, bound <= 2^64 -> 0 <= z < bound -> digits_value bound (McModel.decimal 20 z []) = Some z.
Proof.
  intros bound z B R. unfold digits_value.
  destruct (MonProofs.mc_decimal_spec 19 z []) as (ds & E & F & N & V); [change (10 ^ Z.of_nat 20) with 100000000000000000000; change (2^64) with 18446744073709551616 in B; lia|].
  rewrite E, app_nil_r. rewrite V. rewrite Z.mul_0_l, Z.add_0_l.
  replace (eqb ds []) with false by (symmetry; apply neq_eqb; exact N).
  replace (forallb (fun c => (48 <=? c) && (c <=? 57))%bool ds) with true.
  - replace (z <? bound) with true by lia. reflexivity.
  - symmetry. apply forallb_forall. intros c Hc. rewrite Forall_forall in F. specialize (F c Hc). cbv beta in F. lia.
Qed.
Lemma decimal_lib_sound : sound_lib decimal_lib.
Proof.
  constructor.
  - intros []; reflexivity.
  - intros z R. apply digits_show; [|exact R]. change (2^32) with 4294967296. change (2^64) with 18446744073709551616. lia.
  - intros z R. apply digits_show; [lia|exact R].
  - intros s z H. cbn [decimal_lib y_uint] in H. unfold digits_value in H. cbv zeta in H.
    match type of H with (if ?b then _ else _) = _ => destruct b eqn:E; [|discriminate H] end. injection H as <-.
    rewrite !andb_true_iff in E. destruct E as ((_ & F) & L). split; [|lia].
    assert (G : forall l a, 0 <= a -> forallb (fun c => (48 <=? c) && (c <=? 57))%Z l = true -> 0 <= fold_left (fun n c => n * 10 + (c - 48)) l a).
    { induction l as [|c l IH]; intros a A Hl; [exact A|]. cbn in Hl |- *. apply andb_true_iff in Hl. destruct Hl as [H1 H2]. apply IH; [lia|exact H2]. }
    apply G; [lia|exact F].
Qed.

(** * Concrete configurations *)
Lemma holdable_check : forall c,
  (forallb (fun z => (0 <=? z) && (z <? 2^32))
     [rg_timeout (cf_reg c); rg_refresh (cf_reg c); ru_port (rg_layer (cf_reg c)); tu_port (cf_tra c); tn_ttl (cf_tra c);
      tt_reader (cf_tra c); tt_writer (cf_tra c); tt_reconnect (cf_tra c); ps_ack (cf_pub c); ps_count (cf_pub c); lu_port (cf_log c)] &&
   ((0 <=? rs_queue (rg_layer (cf_reg c))) && (rs_queue (rg_layer (cf_reg c)) <? 2^64)) &&
   forallb (fun e => let '(z, min, step, max) := e in (min <=? z) && (z <=? max) && (z mod step =? 0))
     [(mo_timeout (cf_mon c), 1000, 1000, 2^31 - 1); (tu_send (cf_tra c), 5242880, 1024, 2^31 - 1); (tu_receive (cf_tra c), 5242880, 1024, 2^31 - 1);
      (ts_min (cf_tra c), 4096, 4096, 2^31 - 1); (ts_reserve (cf_tra c), 50, 1, 100)] &&
   (valid_ip (tu_mask (cf_tra c)) && valid_ip (tn_group (cf_tra c))))%bool = true ->
  is_filter (lc_filter (cf_log c)) -> is_filter (lf_filter (cf_log c)) -> is_filter (lu_filter (cf_log c)) -> holdable c.
Proof.
  intros c H F1 F2 F3. cbn [forallb] in H. rewrite !andb_true_iff in H. unfold uint, stepped.
  repeat match goal with H : _ /\ _ |- _ => destruct H end.
  assert (D : forall z s, s <> 0 -> (z mod s =? 0) = true -> (s | z)) by (intros z s N E; apply Z.mod_divide; lia).
  unfold is_filter in F1, F2, F3. constructor; unfold uint, stepped, is_filter; repeat apply conj; try assumption; try lia; apply D; try lia; assumption.
Qed.
Lemma kept_file : forall c s, In s (outer_settings ++ inner_settings ++ priorities ++ filters) -> s_get s (file_reread c) = s_get s c.
Proof.
  intros c. apply Forall_forall.
  unfold outer_settings, inner_settings, priorities, filters, within, reg_top, mon_plain, pub_most, sub_plain, tim_plain, srv_plain, app_plain, log_plain,
    pub_lists, tra_plain, reg_inner, log_levels.
  cbn [map app]. repeat (apply Forall_cons; [reflexivity|]). apply Forall_nil.
Qed.
Lemma round_kept : forall y c0 c, sound_lib y -> holdable c -> known_priorities c ->
  exists c', map_config y (encode y c) c0 = (c', true) /\
  forall s, In s (outer_settings ++ tcp_setting ++ priorities) -> s_get s c' = s_get s c.
Proof.
  intros y c0 c S H K. exists (reread c0 c). split; [apply round_lemma; assumption|]. intros s I.
  rewrite app_assoc, in_app_iff in I. destruct I as [I|I]; [apply kept_outer, I|apply kept_priorities; assumption].
Qed.
Lemma commented_kept : forall y c, sound_lib y -> holdable c -> known_priorities c -> quotable_texts c ->
  exists n, commented y c = Dumped n /\ forall c0, exists c', map_config y n c0 = (c', true) /\
  forall s, In s (outer_settings ++ inner_settings ++ priorities ++ filters) -> s_get s c' = s_get s c.
Proof.
  intros y c S H K Q. destruct (commented_lemma y S c H K Q) as (n & D & R). exists n. split; [exact D|]. intros c0.
  exists (file_reread c). split; [apply R|apply kept_file].
Qed.
Lemma merge_full : forall base other, distinct other -> is_map other -> exists m, merge base other = Some m /\
  forall p, p <> [] ->
    (forall v, at_path other p = Some v -> ~ is_map v -> at_path (NMap m) p = Some v) /\
    (at_path other p = None -> open_path other p -> at_path (NMap m) p = at_path (NMap base) p).
Proof.
  intros base other D M. destruct (merge_total (S (nsize other)) other base ltac:(lia) M) as (m & E). exists m. split; [exact E|].
  intros p N. exact (merge_lemma (S (nsize other)) other base m p ltac:(lia) D M E N).
Qed.
Lemma constrained_full : forall min step max z r, step <> 0 -> (constrained min step max z = Some r <-> r = z /\ stepped min step max z).
Proof. intros min step max z r N. split; [apply constrained_lemma, N|]. intros [-> H]. apply constrained_ok; assumption. Qed.
Ltac hold := apply holdable_check; vm_compute; try reflexivity; (split; [discriminate|reflexivity]).
