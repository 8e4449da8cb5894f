(** The configuration and its YAML form.

    Modelled: ecal/core/include/ecal/config/*.h (the structures and their defaults),
    ecal/core/src/config/configuration_to_yaml.cpp 1-720 (encode and decode), configuration_reader.cpp
    3-121 (MapConfiguration, MergeYamlNodes, MergeYamlIntoConfiguration), default_configuration.cpp
    8-366 (the commented file), ecal/core/include/ecal/types/ecal_custom_data_types.h 66-106 and
    ecal/core/src/types/ecal_custom_data_types.cpp 32-77 (ConstrainedInteger, IpAddressV4).

    Simplified: yaml-cpp is not part of the repository.  A document is a tree; reading and writing
    its text are assumed to be inverse to each other; how it turns scalars into numbers and truth
    values is the record ylib.  As in yaml-cpp, looking up a key in a scalar throws, in a null node
    or a sequence it finds nothing; as<T>() of a structure starts from a default constructed one.
    The expressions of IpAddressV4 are written as tests on the parts between the dots.  None stands
    for an exception. *)
From Coq Require Import String.
From Verif Require Import Base Sample LogModel.
Open Scope Z_scope.

Notation "'do' x <- a ; b" := (match a with Some x => b | None => None end)
  (at level 200, x pattern, a at level 100, b at level 200).

(** ** Documents *)
Inductive node :=
| NNull
| NScalar (s : text)
| NSeq (l : list node)
| NMap (l : list (text * node)).

Record ylib := mkYlib {
  y_bool : text -> option bool;     (* as<bool> *)
  y_uint : text -> option Z;        (* as<unsigned int> *)
  y_size : text -> option Z;        (* as<size_t> *)
  y_null : option text;             (* as<std::string> of a null node *)
  y_show_bool : bool -> text;
  y_show : Z -> text                (* of an integer *)
}.

(** node[key] of a constant node *)
Definition lookup (n : node) (k : text) : option (option node) :=
  match n with
  | NMap l => Some (aget k l)
  | NNull | NSeq _ => Some None
  | NScalar _ => None
  end.

Definition read_bool (y : ylib) (n : node) : option bool := match n with NScalar s => y_bool y s | _ => None end.
Definition read_uint (y : ylib) (n : node) : option Z := match n with NScalar s => y_uint y s | _ => None end.
Definition read_size (y : ylib) (n : node) : option Z := match n with NScalar s => y_size y s | _ => None end.
Definition read_text (y : ylib) (n : node) : option text :=
  match n with NScalar s => Some s | NNull => y_null y | _ => None end.
Fixpoint read_all (y : ylib) (l : list node) : option (list text) :=
  match l with
  | [] => Some []
  | n :: r => do t <- read_text y n; do ts <- read_all y r; Some (t :: ts)
  end.
Definition read_words (y : ylib) (n : node) : option (list text) :=
  match n with NSeq l => read_all y l | _ => None end.

(** AssignValue, configuration_to_yaml.cpp 6-11 *)
Definition assign {A} (read : node -> option A) (n : node) (k : string) (old : A) : option A :=
  do o <- lookup n (str k); match o with Some v => read v | None => Some old end.

(** ** Constrained values *)
(** ConstrainedInteger, ecal_custom_data_types.h 84-94; the argument is converted to int. *)
Definition as_int (z : Z) : Z := if z <? 2147483648 then z else z - 4294967296.
Definition constrained (min step max z : Z) : option Z :=
  if (min <=? z) && (z <=? max) && (Z.rem z step =? 0) && (min <=? max) then Some z else None.
Definition int_max : Z := 2147483647.
Definition read_constrained (y : ylib) (min step max : Z) (n : node) : option Z :=
  do z <- read_uint y n; constrained min step max (as_int z).

(** The text between dots. *)
Fixpoint dot_parts (s : text) : list text :=
  match s with
  | [] => [[]]
  | c :: r => if c =? 46 then [] :: dot_parts r
              else match dot_parts r with p :: ps => (c :: p) :: ps | [] => [[c]] end
  end.
Definition dig (c : Z) : bool := (48 <=? c) && (c <=? 57).
Definition hex (c : Z) : bool := dig c || ((65 <=? c) && (c <=? 70)) || ((97 <=? c) && (c <=? 102)).
(** 1[0-9][0-9]|2[0-4][0-9]|25[0-5] *)
Definition big (a b c : Z) : bool :=
  ((a =? 49) && dig b && dig c) || ((a =? 50) && (48 <=? b) && (b <=? 52) && dig c)
  || ((a =? 50) && (b =? 53) && (48 <=? c) && (c <=? 53)).
Definition dec_head (p : text) : bool :=
  match p with [a] => dig a | [a; b] => dig a && dig b | [a; b; c] => big a b c | _ => false end.
Definition dec_tail (p : text) : bool :=
  match p with [a] => dig a | [a; b] => (49 <=? a) && (a <=? 57) && dig b | [a; b; c] => big a b c | _ => false end.
Definition hex_part (p : text) : bool :=
  match p with [a] => hex a | [a; b] => hex a && hex b | _ => false end.
(** IPV4_DEC_REGEX, IPV4_HEX_REGEX, ecal_custom_data_types.cpp 38-39 *)
Definition dec_match (s : text) : bool :=
  match dot_parts s with [a; b; c; d] => dec_head a && dec_head b && dec_head c && dec_tail d | _ => false end.
Definition hex_match (s : text) : bool :=
  match dot_parts s with [a; b; c; d] => hex_part a && hex_part b && hex_part c && hex_part d | _ => false end.
(** INVALID_IPV4_ADDRESSES, 33-37 *)
Definition one_of (l : list string) (p : text) : bool := existsb (fun w => eqb p (str w)) l.
Definition ones : text -> bool := one_of ["255"; "ff"; "fF"; "Ff"; "FF"]%string.
Definition zeros : text -> bool := one_of ["0"; "00"; "000"]%string.
Definition forbidden_ip (s : text) : bool :=
  match dot_parts s with
  | [a; b; c; d] =>
      (ones a && ones b && ones c && ones d)
      || (one_of ["127"; "7f"; "7F"]%string a && zeros b && zeros c && one_of ["1"; "01"; "001"]%string d)
      || (zeros a && zeros b && zeros c && zeros d)
  | _ => false
  end.
(** validateIpString, 51-72 *)
Definition valid_ip (s : text) : bool := (dec_match s || hex_match s) && negb (forbidden_ip s).
Definition read_ip (y : ylib) (n : node) : option text :=
  do t <- read_text y n; if valid_ip t then Some t else None.

(** ** The structures *)
Inductive clayer := CShm | CUdp | CTcp | COther (z : Z).

Record reg_layer := mkRegLayer {
  rs_enable : bool; rs_domain : text; rs_queue : Z;       (* shm *)
  ru_enable : bool; ru_port : Z                           (* udp *)
}.
Record reg_cfg := mkRegCfg {
  rg_timeout : Z; rg_refresh : Z; rg_network : bool; rg_loopback : bool; rg_group : text; rg_layer : reg_layer }.
Record mon_cfg := mkMonCfg { mo_timeout : Z; mo_excl : text; mo_incl : text }.
Record tra_cfg := mkTraCfg {
  tu_v1 : bool; tu_port : Z; tu_local : bool; tu_mask : text; tu_send : Z; tu_receive : Z; tu_join : bool; tu_npcap : bool;
  tn_group : text; tn_ttl : Z;                            (* udp.network *)
  tt_reader : Z; tt_writer : Z; tt_reconnect : Z;         (* tcp *)
  ts_min : Z; ts_reserve : Z                              (* shm *)
}.
Record pub_cfg := mkPubCfg {
  ps_enable : bool; ps_zero : bool; ps_ack : Z; ps_count : Z;   (* layer.shm *)
  pu_enable : bool; pt_enable : bool;                            (* layer.udp, layer.tcp *)
  pb_local : list clayer; pb_remote : list clayer; pb_type : bool; pb_desc : bool }.
Record sub_cfg := mkSubCfg { ss_enable : bool; su_enable : bool; st_enable : bool; sb_drop : bool }.
Record tim_cfg := mkTimCfg { ti_rt : text; ti_replay : text }.
Record srv_cfg := mkSrvCfg { se_v0 : bool; se_v1 : bool }.
Record app_cfg := mkAppCfg { ay_excl : text; as_emulator : text }.
Record log_cfg := mkLogCfg {
  lc_enable : bool; lc_filter : Z;
  lf_enable : bool; lf_path : text; lf_filter : Z;
  lu_enable : bool; lu_port : Z; lu_filter : Z }.
Record config := mkConfig {
  cf_tra : tra_cfg; cf_reg : reg_cfg; cf_mon : mon_cfg; cf_sub : sub_cfg; cf_pub : pub_cfg; cf_tim : tim_cfg;
  cf_srv : srv_cfg; cf_app : app_cfg; cf_log : log_cfg }.

(** The default member initialisers. *)
Definition reg_default : reg_cfg :=
  mkRegCfg 60000 1000 false true [] (mkRegLayer false (str "ecal_mon") 1024 true 14000).
Definition mon_default : mon_cfg := mkMonCfg 5000 (str "^__.*$") [].
Definition tra_default : tra_cfg :=
  mkTraCfg false 14002 true (str "255.255.255.240") 5242880 5242880 false false (str "239.0.0.1") 3 4 4 5 4096 50.
Definition pub_default : pub_cfg := mkPubCfg true false 0 1 true true [CShm; CUdp; CTcp] [CUdp; CTcp] true true.
Definition sub_default : sub_cfg := mkSubCfg true true false true.
Definition tim_default : tim_cfg := mkTimCfg (str "ecaltime-localtime") [].
Definition srv_default : srv_cfg := mkSrvCfg false true.
Definition app_default : app_cfg := mkAppCfg (str "^eCALSysClient$|^eCALSysGUI$|^eCALSys$") [].
Definition log_default : log_cfg := mkLogCfg true 12 false [] 0 true 14001 15.
Definition default_config : config :=
  mkConfig tra_default reg_default mon_default sub_default pub_default tim_default srv_default app_default log_default.

(** What becomes of writing a file. *)
Inductive dump A := Dumped (a : A) | Refused | Undefined.
Arguments Dumped {A} _.
Arguments Refused {A}.
Arguments Undefined {A}.

(** ** Decoding *)
Section Decode.
Variable y : ylib.

(** Registration, 111-116, 128-134, 145-150, 164-173 *)
Definition decode_reg_shm (d : reg_layer) (n : node) : option (bool * text * Z) :=
  do e <- assign (read_bool y) n "enable" (rs_enable d);
  do m <- assign (read_text y) n "domain" (rs_domain d);
  do q <- assign (read_size y) n "queue_size" (rs_queue d);
  Some (e, m, q).
Definition decode_reg_udp (d : reg_layer) (n : node) : option (bool * Z) :=
  do e <- assign (read_bool y) n "enable" (ru_enable d);
  do p <- assign (read_uint y) n "port" (ru_port d);
  Some (e, p).
Definition decode_reg_layer (n : node) : option reg_layer :=
  let d := rg_layer reg_default in
  do (e, m, q) <- assign (decode_reg_shm d) n "shm" (rs_enable d, rs_domain d, rs_queue d);
  do (ue, up) <- assign (decode_reg_udp d) n "udp" (ru_enable d, ru_port d);
  Some (mkRegLayer e m q ue up).
Definition decode_reg (n : node) : option reg_cfg :=
  let d := reg_default in
  do t <- assign (read_uint y) n "registration_timeout" (rg_timeout d);
  do r <- assign (read_uint y) n "registration_refresh" (rg_refresh d);
  do w <- assign (read_bool y) n "network_enabled" (rg_network d);
  do l <- assign (read_bool y) n "loopback" (rg_loopback d);
  do g <- assign (read_text y) n "host_group_name" (rg_group d);
  do a <- assign decode_reg_layer n "layer" (rg_layer d);
  Some (mkRegCfg t r w l g a).

(** Monitoring, 194-200 *)
Definition decode_mon (n : node) : option mon_cfg :=
  let d := mon_default in
  do t <- assign (read_constrained y 1000 1000 int_max) n "timeout" (mo_timeout d);
  do e <- assign (read_text y) n "filter_excl" (mo_excl d);
  do i <- assign (read_text y) n "filter_incl" (mo_incl d);
  Some (mkMonCfg t e i).

(** Transport layer, 219-224, 236-242, 252-257, 275-294, 306-312 *)
Definition decode_tra_shm (n : node) : option (Z * Z) :=
  let d := tra_default in
  do m <- assign (read_constrained y 4096 4096 int_max) n "memfile_min_size_bytes" (ts_min d);
  do r <- assign (read_constrained y 50 1 100) n "memfile_reserve_percent" (ts_reserve d);
  Some (m, r).
Definition decode_tra_tcp (n : node) : option (Z * Z * Z) :=
  let d := tra_default in
  do r <- assign (read_uint y) n "number_executor_reader" (tt_reader d);
  do w <- assign (read_uint y) n "number_executor_writer" (tt_writer d);
  do m <- assign (read_uint y) n "max_reconnections" (tt_reconnect d);
  Some (r, w, m).
Definition decode_tra_net (n : node) : option (text * Z) :=
  let d := tra_default in
  do g <- assign (read_ip y) n "group" (tn_group d);
  do t <- assign (read_uint y) n "ttl" (tn_ttl d);
  Some (g, t).
Definition decode_tra_udp (n : node) : option (bool * Z * bool * text * Z * Z * bool * bool * (text * Z)) :=
  let d := tra_default in
  do v <- assign (read_text y) n "config_version" (str "v2");
  do m <- assign (read_text y) n "mode" (str "local");
  do p <- assign (read_uint y) n "port" (tu_port d);
  do k <- assign (read_ip y) n "mask" (tu_mask d);
  do s <- assign (read_constrained y 5242880 1024 int_max) n "send_buffer" (tu_send d);
  do r <- assign (read_constrained y 5242880 1024 int_max) n "receive_buffer" (tu_receive d);
  do j <- assign (read_bool y) n "join_all_interfaces" (tu_join d);
  do c <- assign (read_bool y) n "npcap_enabled" (tu_npcap d);
  do w <- assign decode_tra_net n "network" (tn_group d, tn_ttl d);
  Some (negb (eqb v (str "v2")), p, eqb m (str "local"), k, s, r, j, c, w).
Definition decode_tra (n : node) : option tra_cfg :=
  let d := tra_default in
  do (m, r) <- assign decode_tra_shm n "shm" (ts_min d, ts_reserve d);
  do (v, p, l, k, s, q, j, c, (g, t)) <- assign decode_tra_udp n "udp"
       (tu_v1 d, tu_port d, tu_local d, tu_mask d, tu_send d, tu_receive d, tu_join d, tu_npcap d, (tn_group d, tn_ttl d));
  do (a, b, x) <- assign decode_tra_tcp n "tcp" (tt_reader d, tt_writer d, tt_reconnect d);
  Some (mkTraCfg v p l k s q j c g t a b x m r).

(** One key called enable, 352-356, 366-370, 421-446 *)
Definition decode_enable (d : bool) (n : node) : option bool := assign (read_bool y) n "enable" d.

(** transformLayerStrToEnum, 57-68 *)
Definition layer_of (w : text) : list clayer :=
  (if eqb w (str "shm") then [CShm] else []) ++ (if eqb w (str "udp") then [CUdp] else []) ++
  (if eqb w (str "tcp") then [CTcp] else []).
Definition layers_of (ws : list text) : list clayer := flat_map layer_of ws.

(** Publisher, 336-343, 381-387, 401-415 *)
Definition decode_pub_shm (n : node) : option (bool * bool * Z * Z) :=
  let d := pub_default in
  do e <- assign (read_bool y) n "enable" (ps_enable d);
  do z <- assign (read_bool y) n "zero_copy_mode" (ps_zero d);
  do a <- assign (read_uint y) n "acknowledge_timeout_ms" (ps_ack d);
  do c <- assign (read_uint y) n "memfile_buffer_count" (ps_count d);
  Some (e, z, a, c).
Definition decode_pub_layer (n : node) : option (bool * bool * Z * Z * bool * bool) :=
  let d := pub_default in
  do s <- assign decode_pub_shm n "shm" (ps_enable d, ps_zero d, ps_ack d, ps_count d);
  do u <- assign (decode_enable (pu_enable d)) n "udp" (pu_enable d);
  do t <- assign (decode_enable (pt_enable d)) n "tcp" (pt_enable d);
  Some (s, u, t).
Definition decode_pub (n : node) : option pub_cfg :=
  let d := pub_default in
  do sd <- assign (read_bool y) n "share_topic_description" (pb_desc d);
  do st <- assign (read_bool y) n "share_topic_type" (pb_type d);
  do l <- assign (read_words y) n "priority_local" [];
  do r <- assign (read_words y) n "priority_network" [];
  do (e, z, a, c, u, t) <- assign decode_pub_layer n "layer" (ps_enable d, ps_zero d, ps_ack d, ps_count d, pu_enable d, pt_enable d);
  Some (mkPubCfg e z a c u t (layers_of l) (layers_of r) st sd).

(** Subscriber, 460-466, 477-482 *)
Definition decode_sub_layer (n : node) : option (bool * bool * bool) :=
  let d := sub_default in
  do s <- assign (decode_enable (ss_enable d)) n "shm" (ss_enable d);
  do u <- assign (decode_enable (su_enable d)) n "udp" (su_enable d);
  do t <- assign (decode_enable (st_enable d)) n "tcp" (st_enable d);
  Some (s, u, t).
Definition decode_sub (n : node) : option sub_cfg :=
  let d := sub_default in
  do (s, u, t) <- assign decode_sub_layer n "layer" (ss_enable d, su_enable d, st_enable d);
  do r <- assign (read_bool y) n "dropt_out_of_order_messages" (sb_drop d);
  Some (mkSubCfg s u t r).

(** Time 500-505, service 525-530 *)
Definition decode_tim (n : node) : option tim_cfg :=
  do p <- assign (read_text y) n "replay" (ti_replay tim_default);
  do r <- assign (read_text y) n "rt" (ti_rt tim_default);
  Some (mkTimCfg r p).
Definition decode_srv (n : node) : option srv_cfg :=
  do a <- assign (read_bool y) n "protocol_v0" (se_v0 srv_default);
  do b <- assign (read_bool y) n "protocol_v1" (se_v1 srv_default);
  Some (mkSrvCfg a b).

(** Application, 549-554, 564-568, 579-584 *)
Definition decode_app (n : node) : option app_cfg :=
  let d := app_default in
  do e <- assign (fun m => assign (read_text y) m "emulator" (as_emulator d)) n "terminal" (as_emulator d);
  do x <- assign (fun m => assign (read_text y) m "filter_excl" (ay_excl d)) n "sys" (ay_excl d);
  Some (mkAppCfg x e).

(** Logging, 603-612, 622-629, 640-649, 660-666, 675-679 *)
Definition decode_level (n : node) : option Z := do ws <- assign (read_words y) n "level" []; Some (parse_levels ws).
Definition decode_log_con (n : node) : option (bool * Z) :=
  do e <- assign (read_bool y) n "enable" (lc_enable log_default);
  do f <- decode_level n;
  Some (e, f).
Definition decode_log_file (n : node) : option (bool * text * Z) :=
  do e <- assign (read_bool y) n "enable" (lf_enable log_default);
  do p <- assign (read_text y) n "path" (lf_path log_default);
  do f <- decode_level n;
  Some (e, p, f).
Definition decode_log_udp (n : node) : option (bool * Z * Z) :=
  do e <- assign (read_bool y) n "enable" (lu_enable log_default);
  do p <- assign (read_uint y) n "port" (lu_port log_default);
  do f <- decode_level n;
  Some (e, p, f).
Definition decode_sinks (n : node) : option log_cfg :=
  let d := log_default in
  do (ce, c) <- assign decode_log_con n "console" (lc_enable d, lc_filter d);
  do (fe, fp, f) <- assign decode_log_file n "file" (lf_enable d, lf_path d, lf_filter d);
  do (ue, up, u) <- assign decode_log_udp n "udp" (lu_enable d, lu_port d, lu_filter d);
  Some (mkLogCfg ce c fe fp f ue up u).
Definition decode_log (n : node) : option log_cfg := assign decode_sinks n "sinks" log_default.

(** MapConfiguration, configuration_reader.cpp 6-17: each section is assigned as soon as it is
    read; an exception leaves the ones before it. *)
Definition set_tra (c : config) v := mkConfig v (cf_reg c) (cf_mon c) (cf_sub c) (cf_pub c) (cf_tim c) (cf_srv c) (cf_app c) (cf_log c).
Definition set_pub (c : config) v := mkConfig (cf_tra c) (cf_reg c) (cf_mon c) (cf_sub c) v (cf_tim c) (cf_srv c) (cf_app c) (cf_log c).
Definition set_sub (c : config) v := mkConfig (cf_tra c) (cf_reg c) (cf_mon c) v (cf_pub c) (cf_tim c) (cf_srv c) (cf_app c) (cf_log c).
Definition set_reg (c : config) v := mkConfig (cf_tra c) v (cf_mon c) (cf_sub c) (cf_pub c) (cf_tim c) (cf_srv c) (cf_app c) (cf_log c).
Definition set_mon (c : config) v := mkConfig (cf_tra c) (cf_reg c) v (cf_sub c) (cf_pub c) (cf_tim c) (cf_srv c) (cf_app c) (cf_log c).
Definition set_tim (c : config) v := mkConfig (cf_tra c) (cf_reg c) (cf_mon c) (cf_sub c) (cf_pub c) v (cf_srv c) (cf_app c) (cf_log c).
Definition set_srv (c : config) v := mkConfig (cf_tra c) (cf_reg c) (cf_mon c) (cf_sub c) (cf_pub c) (cf_tim c) v (cf_app c) (cf_log c).
Definition set_app (c : config) v := mkConfig (cf_tra c) (cf_reg c) (cf_mon c) (cf_sub c) (cf_pub c) (cf_tim c) (cf_srv c) v (cf_log c).
Definition set_log (c : config) v := mkConfig (cf_tra c) (cf_reg c) (cf_mon c) (cf_sub c) (cf_pub c) (cf_tim c) (cf_srv c) (cf_app c) v.

(** One statement of it. *)
Inductive section :=
| Sect {A} (key : string) (decode : node -> option A) (get : config -> A) (set : config -> A -> config).
Definition sections : list section :=
  [Sect "transport_layer" decode_tra cf_tra set_tra; Sect "publisher" decode_pub cf_pub set_pub;
   Sect "subscriber" decode_sub cf_sub set_sub; Sect "registration" decode_reg cf_reg set_reg;
   Sect "monitoring" decode_mon cf_mon set_mon; Sect "time" decode_tim cf_tim set_tim;
   Sect "service" decode_srv cf_srv set_srv; Sect "application" decode_app cf_app set_app;
   Sect "logging" decode_log cf_log set_log].
(** The configuration, and whether no exception was thrown. *)
Fixpoint map_sections (ss : list section) (n : node) (c : config) : config * bool :=
  match ss with
  | [] => (c, true)
  | Sect k dec get set :: r =>
      match assign dec n k (get c) with
      | Some v => map_sections r n (set c v)
      | None => (c, false)
      end
  end.
Definition map_config (n : node) (c : config) : config * bool := map_sections sections n c.

(** ** Encoding, 103-109, 119-126, 137-143, 153-162, 184-192, 210-217, 227-234, 244-250, 260-273,
    297-304, 326-334, 346-350, 360-364, 373-379, 390-399, 413-475, 491-498, 516-523, 541-577,
    593-673, 690-702 *)
Definition nb (b : bool) : node := NScalar (y_show_bool y b).
Definition nz (z : Z) : node := NScalar (y_show y z).
Definition ns (t : text) : node := NScalar t.
Definition key (k : string) (n : node) : text * node := (str k, n).
Definition nwords (ws : list text) : node := NSeq (map NScalar ws).
(** transformLayerEnumToStr, 70-93 *)
Definition layer_word (l : clayer) : list text :=
  match l with CShm => [str "shm"] | CUdp => [str "udp"] | CTcp => [str "tcp"] | COther _ => [] end.
Definition layer_words (ls : list clayer) : list text := flat_map layer_word ls.

Definition encode_enable (b : bool) : node := NMap [key "enable" (nb b)].
Definition encode_pub (c : pub_cfg) : node :=
  NMap [key "share_topic_description" (nb (pb_desc c)); key "share_topic_type" (nb (pb_type c));
        key "layer" (NMap [key "shm" (NMap [key "enable" (nb (ps_enable c)); key "zero_copy_mode" (nb (ps_zero c));
                                            key "acknowledge_timeout_ms" (nz (ps_ack c)); key "memfile_buffer_count" (nz (ps_count c))]);
                           key "udp" (encode_enable (pu_enable c)); key "tcp" (encode_enable (pt_enable c))]);
        key "priority_local" (nwords (layer_words (pb_local c))); key "priority_network" (nwords (layer_words (pb_remote c)))].
Definition encode_sub (c : sub_cfg) : node :=
  NMap [key "layer" (NMap [key "shm" (encode_enable (ss_enable c)); key "udp" (encode_enable (su_enable c));
                           key "tcp" (encode_enable (st_enable c))]);
        key "drop_out_of_order_message" (nb (sb_drop c))].
Definition encode_reg (c : reg_cfg) : node :=
  NMap [key "registration_timeout" (nz (rg_timeout c)); key "registration_refresh" (nz (rg_refresh c));
        key "network_enabled" (nb (rg_network c)); key "loopback" (nb (rg_loopback c)); key "host_group_name" (ns (rg_group c))].
Definition encode_mon (c : mon_cfg) : node :=
  NMap [key "timeout" (nz (mo_timeout c)); key "filter_excl" (ns (mo_excl c)); key "filter_incl" (ns (mo_incl c))].
Definition encode_tim (c : tim_cfg) : node := NMap [key "replay" (ns (ti_replay c)); key "rt" (ns (ti_rt c))].
Definition encode_srv (c : srv_cfg) : node := NMap [key "protocol_v0" (nb (se_v0 c)); key "protocol_v1" (nb (se_v1 c))].
Definition encode_app (c : app_cfg) : node :=
  NMap [key "terminal" (NMap [key "emulator" (ns (as_emulator c))]); key "sys" (NMap [key "filter_excl" (ns (ay_excl c))])].
Definition encode_log (c : log_cfg) : node :=
  NMap [key "sinks" (NMap [
    key "console" (NMap [key "enable" (nb (lc_enable c)); key "level" (nwords (levels_to_words (lc_filter c)))]);
    key "file" (NMap [key "enable" (nb (lf_enable c)); key "path" (ns (lf_path c)); key "level" (nwords (levels_to_words (lf_filter c)))]);
    key "udp" (NMap [key "enable" (nb (lu_enable c)); key "port" (nz (lu_port c)); key "level" (nwords (levels_to_words (lu_filter c)))])])].
Definition encode (c : config) : node :=
  NMap [key "publisher" (encode_pub (cf_pub c)); key "subscriber" (encode_sub (cf_sub c)); key "registration" (encode_reg (cf_reg c));
        key "monitoring" (encode_mon (cf_mon c)); key "time" (encode_tim (cf_tim c)); key "service" (encode_srv (cf_srv c));
        key "application" (encode_app (cf_app c)); key "logging" (encode_log (cf_log c))].

(** ** The commented file, default_configuration.cpp 104-366 *)
(** quoteString 10-16 and the reading of a double quoted scalar: a backslash begins an escape
    sequence (here only those for the two characters themselves; any other sequence is taken to be
    refused, and so is a quote inside; line breaks inside are not folded here). *)
Fixpoint unquote (s : text) : option text :=
  match s with
  | [] => Some []
  | c :: r =>
      if c =? 34 then None
      else if c =? 92 then
        match r with
        | d :: r' => if (d =? 34) || (d =? 92) then option_map (cons d) (unquote r') else None
        | [] => None
        end
      else option_map (cons c) (unquote r)
  end.
Definition quoted (t : text) : option node := option_map NScalar (unquote t).
(** quoteString 46-75 of a list of layers; two characters are removed even if none was added, which
    is undefined for a list without any known layer. *)
Definition dumpable_layers (ls : list clayer) : bool :=
  match ls, layer_words ls with _ :: _, [] => false | _, _ => true end.
(** The document in the file; Refused: the file is not a document. *)
Definition commented (c : config) : dump node :=
  if dumpable_layers (pb_local (cf_pub c)) && dumpable_layers (pb_remote (cf_pub c)) then
    match (
      do hg <- quoted (rg_group (cf_reg c)); do dm <- quoted (rs_domain (rg_layer (cf_reg c)));
      do me <- quoted (mo_excl (cf_mon c)); do mi <- quoted (mo_incl (cf_mon c));
      do mk <- quoted (tu_mask (cf_tra c)); do gr <- quoted (tn_group (cf_tra c));
      do rt <- quoted (ti_rt (cf_tim c)); do rp <- quoted (ti_replay (cf_tim c));
      do ex <- quoted (ay_excl (cf_app c)); do em <- quoted (as_emulator (cf_app c)); do pa <- quoted (lf_path (cf_log c));
      let r := cf_reg c in let t := cf_tra c in let p := cf_pub c in let s := cf_sub c in let l := cf_log c in
      Some (NMap [
        key "registration" (NMap [
          key "registration_refresh" (nz (rg_refresh r)); key "registration_timeout" (nz (rg_timeout r));
          key "loopback" (nb (rg_loopback r)); key "host_group_name" hg; key "network_enabled" (nb (rg_network r));
          key "layer" (NMap [
            key "shm" (NMap [key "enable" (nb (rs_enable (rg_layer r))); key "domain" dm; key "queue_size" (nz (rs_queue (rg_layer r)))]);
            key "udp" (NMap [key "enable" (nb (ru_enable (rg_layer r))); key "port" (nz (ru_port (rg_layer r)))])])]);
        key "monitoring" (NMap [key "timeout" (nz (mo_timeout (cf_mon c))); key "filter_excl" me; key "filter_incl" mi]);
        key "transport_layer" (NMap [
          key "udp" (NMap [
            key "config_version" (ns (if tu_v1 t then str "v1" else str "v2")); key "mode" (ns (if tu_local t then str "local" else str "network"));
            key "port" (nz (tu_port t)); key "mask" mk; key "send_buffer" (nz (tu_send t)); key "receive_buffer" (nz (tu_receive t));
            key "join_all_interfaces" (nb (tu_join t)); key "npcap_enabled" (nb (tu_npcap t)); key "local" NNull;
            key "network" (NMap [key "group" gr; key "ttl" (nz (tn_ttl t))])]);
          key "tcp" (NMap [key "number_executor_reader" (nz (tt_reader t)); key "number_executor_writer" (nz (tt_writer t));
                           key "max_reconnections" (nz (tt_reconnect t))]);
          key "shm" (NMap [key "memfile_min_size_bytes" (nz (ts_min t)); key "memfile_reserve_percent" (nz (ts_reserve t))])]);
        key "publisher" (NMap [
          key "layer" (NMap [
            key "shm" (NMap [key "enable" (nb (ps_enable p)); key "zero_copy_mode" (nb (ps_zero p));
                             key "acknowledge_timeout_ms" (nz (ps_ack p)); key "memfile_buffer_count" (nz (ps_count p))]);
            key "udp" (encode_enable (pu_enable p)); key "tcp" (encode_enable (ps_enable p))]);
          key "share_topic_type" (nb (pb_type p)); key "share_topic_description" (nb (pb_desc p));
          key "priority_local" (nwords (layer_words (pb_local p))); key "priority_network" (nwords (layer_words (pb_remote p)))]);
        key "subscriber" (NMap [
          key "layer" (NMap [key "shm" (encode_enable (ss_enable s)); key "udp" (encode_enable (su_enable s)); key "tcp" (encode_enable (st_enable s))]);
          key "drop_out_of_order_messages" (nb (sb_drop s))]);
        key "time" (NMap [key "rt" rt; key "replay" rp]);
        key "service" (NMap [key "protocol_v0" (nb (se_v0 (cf_srv c))); key "protocol_v1" (nb (se_v1 (cf_srv c)))]);
        key "application" (NMap [key "sys" (NMap [key "filter_excl" ex]); key "terminal" (NMap [key "emulator" em])]);
        key "logging" (NMap [key "sinks" (NMap [
          key "console" (NMap [key "enable" (nb (lc_enable l)); key "level" (nwords (levels_to_array (lc_filter l)))]);
          key "file" (NMap [key "enable" (nb (lf_enable l)); key "level" (nwords (levels_to_array (lf_filter l))); key "path" pa]);
          key "udp" (NMap [key "enable" (nb (lu_enable l)); key "level" (nwords (levels_to_array (lu_filter l))); key "port" (nz (lu_port l))])])])]))
    with Some n => Dumped n | None => Refused end
  else Undefined.
End Decode.

(** ** Merging *)
(** MergeYamlNodes, configuration_reader.cpp 54-99, for a base that is a map.  The order in which
    the stack works does not matter when no key occurs twice in a map. *)
Fixpoint merge (base : list (text * node)) (other : node) {struct other} : option (list (text * node)) :=
  match other with
  | NMap l =>
      (fix go (base : list (text * node)) (l : list (text * node)) : option (list (text * node)) :=
         match l with
         | [] => Some base
         | (k, v) :: r =>
             match aget k base, v with
             | Some (NMap b), NMap _ => do b' <- merge b v; go (aset k (NMap b') base) r
             | _, _ => go (aset k v base) r
             end
         end) base l
  | NSeq (_ :: _) => None              (* the keys of a sequence are not valid *)
  | _ => Some base
  end.

(** MergeYamlIntoConfiguration, 101-119 *)
Definition merge_into (y : ylib) (file : node) (c : config) : config * bool :=
  match encode y c with
  | NMap b => match merge b file with Some m => map_config y (NMap m) c | None => (c, false) end
  | _ => (c, false)
  end.
