(** C80: reading a document; C81: writing and reading back; C82: the commented file; C83: merging
    documents; C84: merging a file into a configuration; C85: constrained integers and addresses. *)
From Verif Require McModel McSpec.
From Verif Require Import Base Sample LogModel LogSpec CfgModel CfgSpec CfgProofs CfgIpProofs.
Open Scope Z_scope.

(** ** C80 *)
(** Every plain setting becomes what the document says at its path; without a node there it becomes the
    default if the document has its section, and stays what it was otherwise. *)
Theorem c80_plain_settings : forall y n c c', sound_lib y -> map_config y n c = (c', true) ->
  forall s, In s plain_settings -> says y n s (s_get s default_config) (s_get s c) (s_get s c').
Proof. exact plain_lemma. Qed.
Example c80_small_file : forall c', map_config decimal_lib small_file before_small = (c', true) ->
  rg_timeout (cf_reg c') = 30000 /\ rg_refresh (cf_reg c') = 1000 /\ pu_enable (cf_pub c') = false /\ tu_port (cf_tra c') = 15000.
Proof. intros c' H. vm_compute in H. injection H as <-. vm_compute. repeat split. Qed.
Example c80_small_succeeds : snd (map_config decimal_lib small_file before_small) = true /\ sound_lib decimal_lib.
Proof. split; [reflexivity|exact decimal_lib_sound]. Qed.

(** The two lists of priorities become empty when their section is there without them. *)
Theorem c80_priorities : forall y n c c', sound_lib y -> map_config y n c = (c', true) ->
  forall s, In s priorities -> says y n s (VLayers []) (s_get s c) (s_get s c').
Proof. exact priorities_lemma. Qed.
Theorem c80_priorities_default_refuted : ~ forall y n c c', sound_lib y -> map_config y n c = (c', true) ->
  forall s, In s priorities -> says y n s (s_get s default_config) (s_get s c) (s_get s c').
Proof.
  intro H. specialize (H decimal_lib small_file default_config _ decimal_lib_sound (eq_refl _) _ (or_introl eq_refl)).
  vm_compute in H. discriminate.
Qed.

(** The filter of a sink that is mentioned without a level is empty. *)
Theorem c80_filters : forall y n c c', sound_lib y -> map_config y n c = (c', true) ->
  forall s, In s filters ->
  match at_path n (s_path s) with
  | Some m => meaning y (s_kind s) m = Some (s_get s c')
  | None => s_get s c' = match at_path n (removelast (s_path s)), at_path n (section_of s) with
                         | Some _, _ => VNum 0
                         | None, Some _ => s_get s default_config
                         | None, None => s_get s c
                         end
  end.
Proof. exact filters_lemma. Qed.
Theorem c80_filters_default_refuted : ~ forall y n c c', sound_lib y -> map_config y n c = (c', true) ->
  forall s, In s filters -> says y n s (s_get s default_config) (s_get s c) (s_get s c').
Proof.
  intro H. specialize (H decimal_lib quiet_file default_config _ decimal_lib_sound (eq_refl _) _ (or_introl eq_refl)).
  vm_compute in H. discriminate.
Qed.

(** The documented key of the subscriber is not the one that is read. *)
Theorem c80_drop_key_refuted : ~ forall y n c c', sound_lib y -> map_config y n c = (c', true) ->
  says y n drop_setting (s_get drop_setting default_config) (s_get drop_setting c) (s_get drop_setting c').
Proof.
  intro H. specialize (H decimal_lib drop_file default_config _ decimal_lib_sound (eq_refl _)). vm_compute in H. discriminate.
Qed.

(** A document that is refused has changed some sections already. *)
Theorem c80_all_or_nothing_refuted : ~ forall y n c c', sound_lib y -> map_config y n c = (c', false) -> c' = c.
Proof.
  intro H. specialize (H decimal_lib broken_file default_config _ decimal_lib_sound (eq_refl _)). discriminate.
Qed.

(** ** C81 *)
(** Writing a configuration and reading the document keeps the settings outside the transport layer and
    the layer of the registration, and the priorities. *)
Theorem c81_round_trip_partial : forall y c0 c, sound_lib y -> holdable c -> known_priorities c ->
  exists c', map_config y (encode y c) c0 = (c', true) /\
  forall s, In s (outer_settings ++ tcp_setting ++ priorities) -> s_get s c' = s_get s c.
Proof. exact round_kept. Qed.
Example c81_tcp_only : let c := with_tcp false in
  holdable c /\ known_priorities c /\ (let '(c', ok) := map_config decimal_lib (encode decimal_lib c) default_config in
    ok = true /\ pt_enable (cf_pub c') = false /\ pb_local (cf_pub c') = [CShm]).
Proof.
  cbv zeta. split; [hold|].
  split; [split; repeat constructor|]. vm_compute. repeat split.
Qed.
(** The transport layer is not written. *)
Theorem c81_transport_layer_refuted : ~ forall y c0 c c', sound_lib y -> holdable c -> known_priorities c ->
  map_config y (encode y c) c0 = (c', true) -> tu_port (cf_tra c') = tu_port (cf_tra c).
Proof.
  intro H. specialize (fun A B => H decimal_lib default_config (with_port 15000) _ decimal_lib_sound A B (eq_refl _)). vm_compute in H.
  assert (14002 = 15000); [|discriminate]. apply H.
  - hold.
  - split; repeat constructor.
Qed.
(** Nor is the layer of the registration: it becomes the default one. *)
Theorem c81_registration_layer_refuted : ~ forall y c0 c c', sound_lib y -> holdable c -> known_priorities c ->
  map_config y (encode y c) c0 = (c', true) -> ru_port (rg_layer (cf_reg c')) = ru_port (rg_layer (cf_reg c)).
Proof.
  intro H. specialize (fun A B => H decimal_lib (with_reg_port 15000) (with_reg_port 15000) _ decimal_lib_sound A B (eq_refl _)). vm_compute in H.
  assert (14000 = 15000); [|discriminate]. apply H.
  - hold.
  - split; repeat constructor.
Qed.
(** It is written under one key and read under another. *)
Theorem c81_drop_refuted : ~ forall y c0 c c', sound_lib y -> holdable c -> known_priorities c ->
  map_config y (encode y c) c0 = (c', true) -> s_get drop_setting c' = s_get drop_setting c.
Proof.
  intro H. specialize (fun A B => H decimal_lib (with_drop false) (with_drop false) _ decimal_lib_sound A B (eq_refl _)). vm_compute in H.
  assert (VBool true = VBool false); [|discriminate]. apply H.
  - hold.
  - split; repeat constructor.
Qed.
(** Log filters become wider. *)
Theorem c81_filters_refuted : ~ forall y c0 c c', sound_lib y -> holdable c -> known_priorities c ->
  map_config y (encode y c) c0 = (c', true) -> forall s, In s filters -> s_get s c' = s_get s c.
Proof.
  intro H. specialize (fun A B => H decimal_lib default_config default_config _ decimal_lib_sound A B (eq_refl _) _ (or_introl eq_refl)). vm_compute in H.
  assert (VNum (-1) = VNum 12); [|discriminate]. apply H.
  - hold.
  - split; repeat constructor.
Qed.
(** Layers that are none of the three are lost. *)
Theorem c81_unknown_layers_refuted : ~ forall y c0 c c', sound_lib y -> holdable c ->
  map_config y (encode y c) c0 = (c', true) -> pb_local (cf_pub c') = pb_local (cf_pub c).
Proof.
  intro H. specialize (fun A => H decimal_lib default_config (with_layers [COther 0; CShm]) _ decimal_lib_sound A (eq_refl _)). vm_compute in H.
  assert ([CShm] = [COther 0; CShm]); [|discriminate]. apply H.
  hold.
Qed.

(** ** C82 *)
(** The commented file of a configuration without quotes, backslashes and line ends in its texts can be read
    and gives back every setting but two. *)
Theorem c82_commented_file_partial : forall y c, sound_lib y -> holdable c -> known_priorities c -> quotable_texts c ->
  exists n, commented y c = Dumped n /\ forall c0, exists c', map_config y n c0 = (c', true) /\
  forall s, In s (outer_settings ++ inner_settings ++ priorities ++ filters) -> s_get s c' = s_get s c.
Proof. exact commented_kept. Qed.
Example c82_default : let c := with_port 15000 in
  holdable c /\ known_priorities c /\ quotable_texts c /\
  match commented decimal_lib c with
  | Dumped n => let '(c', ok) := map_config decimal_lib n default_config in ok = true /\ tu_port (cf_tra c') = 15000 /\ mo_excl (cf_mon c') = str "^__.*$"
  | _ => False
  end.
Proof.
  cbv zeta. split; [hold|].
  split; [split; repeat constructor|]. split.
  - unfold quotable_texts, quotable. vm_compute. repeat split; intro H; repeat (destruct H as [H|H]; [discriminate|]); exact H.
  - vm_compute. repeat split.
Qed.
(** The enabling of TCP in the publisher is written as that of shared memory. *)
Theorem c82_tcp_refuted : ~ forall y c n c0 c', sound_lib y -> holdable c -> known_priorities c -> quotable_texts c ->
  commented y c = Dumped n -> map_config y n c0 = (c', true) -> pt_enable (cf_pub c') = pt_enable (cf_pub c).
Proof.
  intro H. specialize (fun A B C => H decimal_lib (with_tcp false) _ default_config _ decimal_lib_sound A B C (eq_refl _) (eq_refl _)). vm_compute in H.
  assert (true = false); [|discriminate]. apply H.
  - hold.
  - split; repeat constructor.
  - repeat split; intro E; repeat (destruct E as [E|E]; [discriminate|]); exact E.
Qed.
(** The drop flag is not read back. *)
Theorem c82_drop_refuted : ~ forall y c n c0 c', sound_lib y -> holdable c -> known_priorities c -> quotable_texts c ->
  commented y c = Dumped n -> map_config y n c0 = (c', true) -> s_get drop_setting c' = s_get drop_setting c.
Proof.
  intro H. specialize (fun A B C => H decimal_lib (with_drop false) _ default_config _ decimal_lib_sound A B C (eq_refl _) (eq_refl _)). vm_compute in H.
  assert (VBool true = VBool false); [|discriminate]. apply H.
  - hold.
  - split; repeat constructor.
  - repeat split; intro E; repeat (destruct E as [E|E]; [discriminate|]); exact E.
Qed.
(** A regular expression with a backslash makes the file unreadable. *)
Theorem c82_backslash_refuted : ~ forall y c, sound_lib y -> holdable c -> known_priorities c -> commented y c <> Refused.
Proof.
  intro H. apply (H decimal_lib (with_excl (str "^\d+$")) decimal_lib_sound).
  - hold.
  - split; repeat constructor.
  - reflexivity.
Qed.
(** A list of layers without one of the three is undefined. *)
Theorem c82_unknown_layers_refuted : ~ forall y c, sound_lib y -> holdable c -> quotable_texts c -> commented y c <> Undefined.
Proof.
  intro H. apply (H decimal_lib (with_layers [COther 0]) decimal_lib_sound).
  - hold.
  - repeat split; intro E; repeat (destruct E as [E|E]; [discriminate|]); exact E.
  - reflexivity.
Qed.

(** ** C83 *)
(** What the second document says wins, and where it says nothing the first one is kept. *)
Theorem c83_merge : forall base other, distinct other -> is_map other -> exists m, merge base other = Some m /\
  forall p, p <> [] ->
    (forall v, at_path other p = Some v -> ~ is_map v -> at_path (NMap m) p = Some v) /\
    (at_path other p = None -> open_path other p -> at_path (NMap m) p = at_path (NMap base) p).
Proof. exact merge_full. Qed.
Example c83_inner_keys : forall a b c d, exists m,
  merge [key "x" (NMap [key "p" (NScalar a); key "q" (NScalar b)])] (NMap [key "x" (NMap [key "q" (NScalar c)]); key "z" (NScalar d)]) = Some m /\
  m = [key "x" (NMap [key "p" (NScalar a); key "q" (NScalar c)]); key "z" (NScalar d)].
Proof. intros. eexists. split; reflexivity. Qed.

(** ** C84 *)
(** A setting that the file has is taken from it, one it does not have is kept (those that are written, C81). *)
Theorem c84_merge_into_partial : forall y c file c', sound_lib y -> holdable c -> known_priorities c -> distinct file -> is_map file ->
  merge_into y file c = (c', true) -> forall s, In s (outer_settings ++ tcp_setting ++ priorities) ->
  (forall v, at_path file (s_path s) = Some v -> ~ is_map v -> meaning y (s_kind s) v = Some (s_get s c')) /\
  (at_path file (s_path s) = None -> open_path file (s_path s) -> s_get s c' = s_get s c).
Proof. exact (fun y c file c' S => into_lemma y S c file c'). Qed.
Example c84_small : let '(c', ok) := merge_into decimal_lib small_file (with_tcp false) in
  ok = true /\ rg_timeout (cf_reg c') = 30000 /\ pu_enable (cf_pub c') = false /\ pt_enable (cf_pub c') = false /\ pb_local (cf_pub c') = [CShm].
Proof. vm_compute. repeat split. Qed.
(** A transport layer is kept if the file does not mention it. *)
Theorem c84_transport_kept : forall y c file c', distinct file -> is_map file -> merge_into y file c = (c', true) ->
  at_path file [str "transport_layer"] = None -> cf_tra c' = cf_tra c.
Proof. exact into_transport. Qed.
(** If the file mentions one setting of it, the others become the default ones. *)
Theorem c84_transport_layer_refuted : ~ forall y c file c', sound_lib y -> holdable c -> distinct file -> is_map file ->
  merge_into y file c = (c', true) -> at_path file (path_of ["transport_layer"; "udp"; "port"]%string) = None ->
  open_path file (path_of ["transport_layer"; "udp"; "port"]%string) -> tu_port (cf_tra c') = tu_port (cf_tra c).
Proof.
  intro H. specialize (fun A B C => H decimal_lib (with_port 15000) (one ["transport_layer"; "tcp"; "max_reconnections"]%string "7") _ decimal_lib_sound A B C (eq_refl _) (eq_refl _)).
  vm_compute in H. assert (14002 = 15000); [|discriminate]. apply H.
  - hold.
  - repeat (constructor; cbn; auto; try (intros [])).
  - eexists. reflexivity.
  - intros q r m E A. destruct q as [|k1 q]; [vm_compute in A; injection A as <-; eexists; reflexivity|]. injection E as <- E.
    destruct q as [|k2 q]; [vm_compute in A; injection A as <-; eexists; reflexivity|]. injection E as <- E. vm_compute in A. discriminate.
Qed.
(** The layer of the registration always becomes the default one. *)
Theorem c84_registration_layer_refuted : ~ forall y c c', sound_lib y -> holdable c -> merge_into y (NMap []) c = (c', true) ->
  rg_layer (cf_reg c') = rg_layer (cf_reg c).
Proof.
  intro H. specialize (fun A => H decimal_lib (with_reg_port 15000) _ decimal_lib_sound A (eq_refl _)). vm_compute in H.
  assert (mkRegLayer false [101; 99; 97; 108; 95; 109; 111; 110] 1024 true 14000 = mkRegLayer false [101; 99; 97; 108; 95; 109; 111; 110] 1024 true 15000); [|discriminate].
  apply H. hold.
Qed.
Theorem c84_drop_and_filters_refuted : ~ forall y c c', sound_lib y -> holdable c -> merge_into y (NMap []) c = (c', true) ->
  sb_drop (cf_sub c') = sb_drop (cf_sub c) \/ lc_filter (cf_log c') = lc_filter (cf_log c).
Proof.
  intro H. specialize (fun A => H decimal_lib (with_drop false) _ decimal_lib_sound A (eq_refl _)). vm_compute in H.
  destruct H as [H|H]; try discriminate. hold.
Qed.

(** ** C85 *)
(** A constrained integer accepts exactly the numbers of its range that are multiples of its step. *)
Theorem c85_constrained : forall min step max z r, step <> 0 ->
  (constrained min step max z = Some r <-> r = z /\ stepped min step max z).
Proof. exact constrained_full. Qed.
Example c85_send_buffer : constrained 5242880 1024 int_max 5243904 = Some 5243904 /\ constrained 5242880 1024 int_max 5243905 = None /\
  constrained 5242880 1024 int_max 4096 = None.
Proof. repeat split. Qed.
(** An accepted address consists of four numbers up to 255, in decimal or hexadecimal digits. *)
Theorem c85_accepted_is_quad : forall s, valid_ip s = true ->
  exists base l, (base = 10 \/ base = 16) /\ quad base s l /\ Forall (fun x => 0 <= x <= 255) l.
Proof. exact ip_quad. Qed.
(** However it is read, it is not 255.255.255.255, 127.0.0.1 or 0.0.0.0. *)
Theorem c85_never_barred : forall s base l, valid_ip s = true -> base = 10 \/ base = 16 -> quad base s l -> ~ In l barred.
Proof. exact ip_barred. Qed.
(** Every other address in decimal digits is accepted. *)
Theorem c85_decimal_accepted : forall a b c d, McSpec.octet a -> McSpec.octet b -> McSpec.octet c -> McSpec.octet d ->
  (valid_ip (McSpec.dotted a b c d) = true <-> ~ In [a; b; c; d] barred).
Proof. exact decimal_accepted. Qed.
Example c85_addresses : valid_ip (str "239.0.0.1") = true /\ valid_ip (str "256.0.0.1") = false /\ valid_ip (str "0.00.0.0") = false /\
  valid_ip (str "ff.FF.fF.Ff") = false /\ valid_ip (str "ff.ff.ff.f0") = true.
Proof. repeat split. Qed.
(** Decimal addresses mean the same to the code that computes multicast addresses (C34). *)
Theorem c85_decimal_read : forall s a b c d, quad 10 s [a; b; c; d] -> McSpec.octet a -> McSpec.octet b -> McSpec.octet c -> McSpec.octet d ->
  McModel.parse_ipv4 s = Some (McSpec.ipv4 a b c d).
Proof. exact decimal_read. Qed.
Example c85_mask : McModel.parse_ipv4 (str "255.255.255.240") = Some 4294967280.
Proof. reflexivity. Qed.
(** Hexadecimal ones do not: the mask ff.ff.ff.f0 is taken for 0.0.0.0, which may not be configured. *)
Theorem c85_hexadecimal_read_refuted : ~ forall s a b c d, valid_ip s = true -> quad 16 s [a; b; c; d] ->
  (forall l, ~ quad 10 s l) -> McModel.parse_ipv4 s = Some (McSpec.ipv4 a b c d).
Proof.
  intro H. specialize (H (str "ff.ff.ff.f0") 255 255 255 240 eq_refl).
  change (McModel.parse_ipv4 (str "ff.ff.ff.f0")) with (Some 0) in H. change (McSpec.ipv4 255 255 255 240) with 4294967280 in H.
  assert (Some 0 = Some 4294967280); [|discriminate]. apply H; clear H.
  - exists [102; 102], [102; 102], [102; 102], [102; 48]. split; [reflexivity|]. split; [reflexivity|].
    repeat (apply Forall_cons; [split; [discriminate|repeat (apply Forall_cons; [unfold digit_of; lia|]); apply Forall_nil]|]). apply Forall_nil.
  - intros l Q. destruct (quad_parts 10 _ l Q) as (a & b & c & d & E & _ & F). vm_compute in E. injection E as <- <- <- <-.
    inversion F as [|? ? [_ G] _]. inversion G as [|? ? D _]. unfold digit_of in D. lia.
Qed.

Print Assumptions c80_plain_settings.
Print Assumptions c80_priorities.
Print Assumptions c80_priorities_default_refuted.
Print Assumptions c80_filters.
Print Assumptions c80_filters_default_refuted.
Print Assumptions c80_drop_key_refuted.
Print Assumptions c80_all_or_nothing_refuted.
Print Assumptions c81_round_trip_partial.
Print Assumptions c81_transport_layer_refuted.
Print Assumptions c81_registration_layer_refuted.
Print Assumptions c81_drop_refuted.
Print Assumptions c81_filters_refuted.
Print Assumptions c81_unknown_layers_refuted.
Print Assumptions c82_commented_file_partial.
Print Assumptions c82_tcp_refuted.
Print Assumptions c82_drop_refuted.
Print Assumptions c82_backslash_refuted.
Print Assumptions c82_unknown_layers_refuted.
Print Assumptions c83_merge.
Print Assumptions c84_merge_into_partial.
Print Assumptions c84_transport_kept.
Print Assumptions c84_transport_layer_refuted.
Print Assumptions c84_registration_layer_refuted.
Print Assumptions c84_drop_and_filters_refuted.
Print Assumptions c85_constrained.
Print Assumptions c85_accepted_is_quad.
Print Assumptions c85_never_barred.
Print Assumptions c85_decimal_accepted.
Print Assumptions c85_decimal_read.
Print Assumptions c85_hexadecimal_read_refuted.
