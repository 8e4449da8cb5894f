(** Vocabulary for the configuration: what a setting is, where it is in a document and what the
    document says about it. *)
From Coq Require Import String.
From Verif Require McModel.
From Verif Require Import Base Sample LogModel LogSpec CfgModel.
Open Scope Z_scope.

(** The node at a path of keys, if every step of it is in a map. *)
Fixpoint at_path (n : node) (p : list text) : option node :=
  match p with
  | [] => Some n
  | k :: r => match n with
              | NMap l => match aget k l with Some m => at_path m r | None => None end
              | _ => None
              end
  end.

(** What a library that converts scalars must do. *)
Record sound_lib (y : ylib) : Prop := {
  sl_bool : forall b, y_bool y (y_show_bool y b) = Some b;
  sl_uint : forall z, 0 <= z < 2^32 -> y_uint y (y_show y z) = Some z;
  sl_size : forall z, 0 <= z < 2^64 -> y_size y (y_show y z) = Some z;
  sl_range : forall s z, y_uint y s = Some z -> 0 <= z < 2^32
}.

Inductive value := VBool (b : bool) | VNum (z : Z) | VText (t : text) | VLayers (l : list clayer).
Inductive kind :=
| KBool | KUint | KSize | KText
| KIs (w : string)          (* true for this word *)
| KIsNot (w : string)       (* true for every other word *)
| KLayers                   (* a list of layer names; others are passed over *)
| KLevels.                  (* a list of log levels, see C62 *)

(** What a node says as a text, and as a list of words. *)
Definition text_of (y : ylib) (n : node) : option text :=
  match n with NScalar s => Some s | NNull => y_null y | NSeq _ | NMap _ => None end.
Fixpoint all_texts (y : ylib) (l : list node) : option (list text) :=
  match l with
  | [] => Some []
  | n :: r => match text_of y n, all_texts y r with Some t, Some ts => Some (t :: ts) | _, _ => None end
  end.
Definition words_of (y : ylib) (n : node) : option (list text) := match n with NSeq l => all_texts y l | _ => None end.
Definition known_layers : list (text * clayer) := [(str "shm", CShm); (str "udp", CUdp); (str "tcp", CTcp)].
Definition named_layers (ws : list text) : list clayer :=
  flat_map (fun w => match aget w known_layers with Some l => [l] | None => [] end) ws.

(** What a node says for a setting of some kind. *)
Definition meaning (y : ylib) (k : kind) (n : node) : option value :=
  match k with
  | KBool => match n with NScalar s => option_map VBool (y_bool y s) | _ => None end
  | KUint => match n with NScalar s => option_map VNum (y_uint y s) | _ => None end
  | KSize => match n with NScalar s => option_map VNum (y_size y s) | _ => None end
  | KText => option_map VText (text_of y n)
  | KIs w => option_map (fun t => VBool (eqb t (str w))) (text_of y n)
  | KIsNot w => option_map (fun t => VBool (negb (eqb t (str w)))) (text_of y n)
  | KLayers => option_map (fun ws => VLayers (named_layers ws)) (words_of y n)
  | KLevels => option_map (fun ws => VNum (parse_levels ws)) (words_of y n)
  end.

Record setting := mkSetting { s_path : list text; s_kind : kind; s_get : config -> value }.
Definition path_of (ps : list string) : list text := map str ps.
Definition within {A} (sec : string) (get : config -> A) (l : list (list string * kind * (A -> value))) : list setting :=
  map (fun e => let '(p, k, g) := e in mkSetting (str sec :: path_of p) k (fun c => g (get c))) l.

Open Scope string_scope.
(** Settings whose key is read and which have a default for an absent key. *)
Definition tra_plain : list (list string * kind * (tra_cfg -> value)) :=
  [(["udp"; "config_version"], KIsNot "v2", fun c => VBool (tu_v1 c)); (["udp"; "port"], KUint, fun c => VNum (tu_port c));
   (["udp"; "mode"], KIs "local", fun c => VBool (tu_local c)); (["udp"; "mask"], KText, fun c => VText (tu_mask c));
   (["udp"; "send_buffer"], KUint, fun c => VNum (tu_send c)); (["udp"; "receive_buffer"], KUint, fun c => VNum (tu_receive c));
   (["udp"; "join_all_interfaces"], KBool, fun c => VBool (tu_join c)); (["udp"; "npcap_enabled"], KBool, fun c => VBool (tu_npcap c));
   (["udp"; "network"; "group"], KText, fun c => VText (tn_group c)); (["udp"; "network"; "ttl"], KUint, fun c => VNum (tn_ttl c));
   (["tcp"; "number_executor_reader"], KUint, fun c => VNum (tt_reader c));
   (["tcp"; "number_executor_writer"], KUint, fun c => VNum (tt_writer c));
   (["tcp"; "max_reconnections"], KUint, fun c => VNum (tt_reconnect c));
   (["shm"; "memfile_min_size_bytes"], KUint, fun c => VNum (ts_min c));
   (["shm"; "memfile_reserve_percent"], KUint, fun c => VNum (ts_reserve c))].
Definition reg_top : list (list string * kind * (reg_cfg -> value)) :=
  [(["registration_timeout"], KUint, fun c => VNum (rg_timeout c)); (["registration_refresh"], KUint, fun c => VNum (rg_refresh c));
   (["network_enabled"], KBool, fun c => VBool (rg_network c)); (["loopback"], KBool, fun c => VBool (rg_loopback c));
   (["host_group_name"], KText, fun c => VText (rg_group c))].
Definition reg_inner : list (list string * kind * (reg_cfg -> value)) :=
  [(["layer"; "shm"; "enable"], KBool, fun c => VBool (rs_enable (rg_layer c)));
   (["layer"; "shm"; "domain"], KText, fun c => VText (rs_domain (rg_layer c)));
   (["layer"; "shm"; "queue_size"], KSize, fun c => VNum (rs_queue (rg_layer c)));
   (["layer"; "udp"; "enable"], KBool, fun c => VBool (ru_enable (rg_layer c)));
   (["layer"; "udp"; "port"], KUint, fun c => VNum (ru_port (rg_layer c)))].
Definition mon_plain : list (list string * kind * (mon_cfg -> value)) :=
  [(["timeout"], KUint, fun c => VNum (mo_timeout c)); (["filter_excl"], KText, fun c => VText (mo_excl c));
   (["filter_incl"], KText, fun c => VText (mo_incl c))].
Definition pub_most : list (list string * kind * (pub_cfg -> value)) :=
  [(["share_topic_description"], KBool, fun c => VBool (pb_desc c)); (["share_topic_type"], KBool, fun c => VBool (pb_type c));
   (["layer"; "shm"; "enable"], KBool, fun c => VBool (ps_enable c)); (["layer"; "shm"; "zero_copy_mode"], KBool, fun c => VBool (ps_zero c));
   (["layer"; "shm"; "acknowledge_timeout_ms"], KUint, fun c => VNum (ps_ack c));
   (["layer"; "shm"; "memfile_buffer_count"], KUint, fun c => VNum (ps_count c));
   (["layer"; "udp"; "enable"], KBool, fun c => VBool (pu_enable c))].
Definition pub_tcp : list (list string * kind * (pub_cfg -> value)) :=
  [(["layer"; "tcp"; "enable"], KBool, fun c => VBool (pt_enable c))].
Definition pub_lists : list (list string * kind * (pub_cfg -> value)) :=
  [(["priority_local"], KLayers, fun c => VLayers (pb_local c)); (["priority_network"], KLayers, fun c => VLayers (pb_remote c))].
Definition sub_plain : list (list string * kind * (sub_cfg -> value)) :=
  [(["layer"; "shm"; "enable"], KBool, fun c => VBool (ss_enable c)); (["layer"; "udp"; "enable"], KBool, fun c => VBool (su_enable c));
   (["layer"; "tcp"; "enable"], KBool, fun c => VBool (st_enable c))].
Definition tim_plain : list (list string * kind * (tim_cfg -> value)) :=
  [(["rt"], KText, fun c => VText (ti_rt c)); (["replay"], KText, fun c => VText (ti_replay c))].
Definition srv_plain : list (list string * kind * (srv_cfg -> value)) :=
  [(["protocol_v0"], KBool, fun c => VBool (se_v0 c)); (["protocol_v1"], KBool, fun c => VBool (se_v1 c))].
Definition app_plain : list (list string * kind * (app_cfg -> value)) :=
  [(["terminal"; "emulator"], KText, fun c => VText (as_emulator c)); (["sys"; "filter_excl"], KText, fun c => VText (ay_excl c))].
Definition log_plain : list (list string * kind * (log_cfg -> value)) :=
  [(["sinks"; "console"; "enable"], KBool, fun c => VBool (lc_enable c)); (["sinks"; "file"; "enable"], KBool, fun c => VBool (lf_enable c));
   (["sinks"; "file"; "path"], KText, fun c => VText (lf_path c)); (["sinks"; "udp"; "enable"], KBool, fun c => VBool (lu_enable c));
   (["sinks"; "udp"; "port"], KUint, fun c => VNum (lu_port c))].
Definition log_levels : list (list string * kind * (log_cfg -> value)) :=
  [(["sinks"; "console"; "level"], KLevels, fun c => VNum (lc_filter c)); (["sinks"; "file"; "level"], KLevels, fun c => VNum (lf_filter c));
   (["sinks"; "udp"; "level"], KLevels, fun c => VNum (lu_filter c))].

(** Neither in the layer of the registration nor in the transport layer. *)
Definition outer_settings : list setting :=
  within "registration" cf_reg reg_top ++ within "monitoring" cf_mon mon_plain ++ within "publisher" cf_pub pub_most ++
  within "subscriber" cf_sub sub_plain ++ within "time" cf_tim tim_plain ++ within "service" cf_srv srv_plain ++
  within "application" cf_app app_plain ++ within "logging" cf_log log_plain.
Definition inner_settings : list setting := within "transport_layer" cf_tra tra_plain ++ within "registration" cf_reg reg_inner.
Definition tcp_setting : list setting := within "publisher" cf_pub pub_tcp.
Definition plain_settings : list setting := outer_settings ++ inner_settings ++ tcp_setting.
(** Lists: an absent key empties them. *)
Definition priorities : list setting := within "publisher" cf_pub pub_lists.
Definition filters : list setting := within "logging" cf_log log_levels.
Close Scope string_scope.

(** The section of a setting. *)
Definition section_of (s : setting) : list text := firstn 1 (s_path s).

(** What a document leaves of a setting that was [before]. *)
Definition says (y : ylib) (n : node) (s : setting) (absent before now : value) : Prop :=
  match at_path n (s_path s) with
  | Some m => meaning y (s_kind s) m = Some now
  | None => now = match at_path n (section_of s) with Some _ => absent | None => before end
  end.

(** Configurations the structures can hold and the file format can carry. *)
Definition uint (z : Z) : Prop := 0 <= z < 2^32.
Definition stepped (min step max z : Z) : Prop := min <= z <= max /\ (step | z).
Record holdable (c : config) : Prop := {
  h_reg : uint (rg_timeout (cf_reg c)) /\ uint (rg_refresh (cf_reg c)) /\ 0 <= rs_queue (rg_layer (cf_reg c)) < 2^64
          /\ uint (ru_port (rg_layer (cf_reg c)));
  h_mon : stepped 1000 1000 (2^31 - 1) (mo_timeout (cf_mon c));
  h_udp : uint (tu_port (cf_tra c)) /\ stepped 5242880 1024 (2^31 - 1) (tu_send (cf_tra c))
          /\ stepped 5242880 1024 (2^31 - 1) (tu_receive (cf_tra c)) /\ uint (tn_ttl (cf_tra c));
  h_ip : valid_ip (tu_mask (cf_tra c)) = true /\ valid_ip (tn_group (cf_tra c)) = true;
  h_tcp : uint (tt_reader (cf_tra c)) /\ uint (tt_writer (cf_tra c)) /\ uint (tt_reconnect (cf_tra c));
  h_shm : stepped 4096 4096 (2^31 - 1) (ts_min (cf_tra c)) /\ stepped 50 1 100 (ts_reserve (cf_tra c));
  h_pub : uint (ps_ack (cf_pub c)) /\ uint (ps_count (cf_pub c));
  h_log : is_filter (lc_filter (cf_log c)) /\ is_filter (lf_filter (cf_log c)) /\ is_filter (lu_filter (cf_log c)) /\ uint (lu_port (cf_log c))
}.
(** Only the three layers. *)
Definition three_layers (l : list clayer) : Prop := Forall (fun x => match x with COther _ => False | _ => True end) l.
Definition known_priorities (c : config) : Prop := three_layers (pb_local (cf_pub c)) /\ three_layers (pb_remote (cf_pub c)).

(** Texts that survive between double quotes: without a quote, a backslash or the end of a line. *)
Definition quotable (t : text) : Prop := ~ In 34 t /\ ~ In 92 t /\ ~ In 10 t /\ ~ In 13 t.
Definition quotable_texts (c : config) : Prop :=
  quotable (rg_group (cf_reg c)) /\ quotable (rs_domain (rg_layer (cf_reg c))) /\ quotable (mo_excl (cf_mon c)) /\
  quotable (mo_incl (cf_mon c)) /\ quotable (ti_rt (cf_tim c)) /\ quotable (ti_replay (cf_tim c)) /\
  quotable (ay_excl (cf_app c)) /\ quotable (as_emulator (cf_app c)) /\ quotable (lf_path (cf_log c)).

(** No key twice in any map of the document. *)
Inductive distinct : node -> Prop :=
| d_null : distinct NNull
| d_scalar : forall s, distinct (NScalar s)
| d_seq : forall l, distinct (NSeq l)
| d_map : forall l, NoDup (map fst l) -> Forall distinct (map snd l) -> distinct (NMap l).

Definition is_map (n : node) : Prop := exists l, n = NMap l.
(** No beginning of the path leads to something else than a map. *)
Definition open_path (n : node) (p : list text) : Prop :=
  forall q r m, p = q ++ r -> at_path n q = Some m -> is_map m.

(** ** Addresses *)
Definition digit_value (c : Z) : Z := if c <? 58 then c - 48 else if c <? 71 then c - 55 else c - 87.
Definition number (base : Z) (p : text) : Z := fold_left (fun a c => base * a + digit_value c) p 0.
Definition digit_of (base c : Z) : Prop :=
  48 <= c <= 57 \/ (base = 16 /\ (65 <= c <= 70 \/ 97 <= c <= 102)).
(** Four numbers written in this base with dots between them. *)
Definition quad (base : Z) (s : text) (l : list Z) : Prop :=
  exists a b c d,
    s = a ++ [46] ++ b ++ [46] ++ c ++ [46] ++ d /\ l = map (number base) [a; b; c; d] /\
    Forall (fun p => p <> [] /\ Forall (digit_of base) p) [a; b; c; d].
(** Addresses that may not be configured. *)
Definition barred : list (list Z) := [[255; 255; 255; 255]; [127; 0; 0; 1]; [0; 0; 0; 0]].
(** Documented in the commented file. *)
Definition drop_setting : setting :=
  mkSetting (path_of ["subscriber"; "drop_out_of_order_messages"]%string) KBool (fun c => VBool (sb_drop (cf_sub c))).

(** ** A conversion of scalars: decimal digits, true and false. *)
Definition digits_value (bound : Z) (s : text) : option Z :=
  let v := fold_left (fun n c => n * 10 + (c - 48)) s 0 in
  if negb (eqb s []) && forallb (fun c => (48 <=? c) && (c <=? 57)) s && (v <? bound) then Some v else None.
Definition decimal_lib : ylib :=
  mkYlib (fun s => if eqb s (str "true") then Some true else if eqb s (str "false") then Some false else None)
    (digits_value (2^32)) (digits_value (2^64)) (Some (str "null")) (fun b => if b then str "true" else str "false")
    (fun z => McModel.decimal 20 z []).

(** ** Examples *)
Definition with_port (z : Z) : config := set_tra default_config
  (mkTraCfg false z true (str "255.255.255.240") 5242880 5242880 false false (str "239.0.0.1") 3 4 4 5 4096 50).
Definition with_reg_port (z : Z) : config := set_reg default_config
  (mkRegCfg 60000 1000 false true [] (mkRegLayer false (str "ecal_mon") 1024 true z)).
Definition with_drop (b : bool) : config := set_sub default_config (mkSubCfg true true false b).
Definition with_tcp (b : bool) : config := set_pub default_config (mkPubCfg true false 0 1 true b [CShm] [CTcp] true true).
Definition with_excl (t : text) : config := set_mon default_config (mkMonCfg 5000 t []).
Definition with_layers (l : list clayer) : config := set_pub default_config (mkPubCfg true false 0 1 true true l l true true).
Definition small_file : node :=
  NMap [key "registration" (NMap [key "registration_timeout" (NScalar (str "30000"))]);
        key "publisher" (NMap [key "layer" (NMap [key "udp" (NMap [key "enable" (NScalar (str "false"))])])])].
Definition before_small : config := set_reg (with_port 15000) (mkRegCfg 5000 500 true true (str "g") (rg_layer reg_default)).
Definition quiet_file : node := NMap [key "logging" (NMap [key "sinks" (NMap [key "console" (NMap [key "enable" (NScalar (str "true"))])])])].
Definition drop_file : node := NMap [key "subscriber" (NMap [key "drop_out_of_order_messages" (NScalar (str "false"))])].
Definition broken_file : node :=
  NMap [key "publisher" (NMap [key "share_topic_type" (NScalar (str "false"))]);
        key "registration" (NMap [key "loopback" (NScalar (str "maybe"))])].
Definition one (p : list string) (v : string) : node := fold_right (fun k n => NMap [key k n]) (NScalar (str v)) p.
