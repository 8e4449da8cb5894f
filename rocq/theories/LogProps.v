(** Properties C47, C61 and C62: logging, the log file and the log filters. *)
From Verif Require Import Base Sample PbModel SerModel SerSpec UdpModel UdpSpec LogModel LogSpec LogProofs.

(** C47: after every history in which each start finds its log directory and file, a message
    goes to the console, to the file and to the network exactly if its level has a bit in
    common with the filter of that sink in the configuration of the last start; each of them
    gets it once, with all its fields.  Before a start and after a stop it goes nowhere. *)
Theorem c47_sinks :
  forall me u ops s tr l msg t, log_run me ops (log0 u) = (s, tr) -> Forall finds ops -> is_level l -> msg <> [] -> (0 <= t)%Z ->
  match in_effect ops with
  | None => log_step me (LLog l msg t) s = (s, [])
  | Some c => exists con file udp n line,
      (con = true <-> enabled (sk_mask (lc_con c)) l) /\ (file = true <-> enabled (sk_mask (lc_file c)) l) /\
      (udp = true <-> enabled (sk_mask (lc_udp c)) l) /\
      (~ In 0%Z (line_of (entry_of me (unit_after u ops) t l msg)) -> line = line_of (entry_of me (unit_after u ops) t l msg)) /\
      snd (log_step me (LLog l msg t) s) =
        (if con then [EConsole msg] else []) ++ (if file then [EFile n line] else []) ++
        (if udp then [ESend (datagram (str "_log_message_") (ser_log (LogMsg (t / 1000) (id_host me) (id_pid me) (id_pname me) (unit_after u ops) l msg)))] else [])
  end.
Proof. exact sinks_lemma. Qed.
Print Assumptions c47_sinks.
(** An empty message goes nowhere. *)
Theorem c47_empty_message : forall me u ops s tr l t, log_run me ops (log0 u) = (s, tr) -> log_step me (LLog l [] t) s = (s, []).
Proof. exact empty_message_lemma. Qed.
Print Assumptions c47_empty_message.

Definition c47_me : ident := Ident (str "h") 42 (str "p").
(** Console: warnings; file: errors; network: everything. *)
Definition c47_config : lcfg := LCfg (Sink true 2) (Sink true 4) (Sink true (-1)) false.
Definition c47_history : list lop := [LUnit (str "u"); LStart c47_config (Some (str "/log/")) (str "now") true; LSetLevel 4; LLog 2 (str "w") 5000000].
Example c47_sinks_case :
  Forall finds c47_history /\ in_effect c47_history = Some c47_config /\
  enabled (sk_mask (lc_file c47_config)) 4 /\ ~ enabled (sk_mask (lc_con c47_config)) 4 /\
  snd (log_run c47_me (c47_history ++ [LLogCurrent (str "e") 7000000]) (log0 [])) =
    [EConsole (str "w"); ESend (datagram (str "_log_message_") (ser_log (LogMsg 5000 (str "h") 42 (str "p") (str "u") 2 (str "w"))));
     EFile (str "/log/now_u_42.log") (str "7 ms | h | u | 42 | error | e");
     ESend (datagram (str "_log_message_") (ser_log (LogMsg 7000 (str "h") 42 (str "p") (str "u") 4 (str "e"))))].
Proof.
  split; [|split; [|split; [|split]]].
  - repeat (constructor; [first [exact I|right; split; [discriminate|reflexivity]]|]). constructor.
  - reflexivity.
  - exists 2%Z. split; [lia|]. split; reflexivity.
  - intros (k & K & A & B). assert (k = 0 \/ k = 1 \/ k = 2 \/ k = 3 \/ k = 4 \/ k = 5 \/ k = 6 \/ k = 7)%Z as H by lia.
    decompose [or] H; subst k; vm_compute in A, B; discriminate.
  - vm_compute. reflexivity.
Qed.

(** A message without a level of its own has the level set since the last start, or info. *)
Theorem c47_current_level :
  forall me u ops s tr msg t, log_run me ops (log0 u) = (s, tr) -> Forall finds ops ->
  log_step me (LLogCurrent msg t) s = log_step me (LLog (level_in_force ops) msg t) s.
Proof. exact current_lemma. Qed.
Print Assumptions c47_current_level.

(** Every message accepted from the network is returned by exactly one fetch, in the order of
    arrival: what fetches returned so far, followed by what is still waiting, is what was
    accepted. *)
Theorem c47_fetched_once_partial :
  forall me u ops s tr, log_run me ops (log0 u) = (s, tr) -> Forall no_buffer ops ->
  fetched tr ++ lo_queue s = heard me ops.
Proof. exact fetched_lemma. Qed.
Print Assumptions c47_fetched_once_partial.

(** A fetch leaves nothing behind. *)
Theorem c47_fetch_empties :
  forall me s s' e, log_step me LFetch s = (s', e) \/ log_step me LFetchBuffer s = (s', e) -> lo_queue s' = [].
Proof. exact fetch_empties. Qed.
Print Assumptions c47_fetch_empties.

(** While the receiver listens, the datagrams of messages with a level are all fetched, each
    once and in order, with all their fields: all of them with a network, else those of the
    own host. *)
Theorem c47_delivered_partial :
  forall me u ops s tr ms, log_run me ops (log0 u) = (s, tr) -> Forall no_buffer ops -> listens me ops = true ->
  Forall (fun m => lg_level m <> 0%Z /\ wf_log m /\ (len (ser_log m) < 2 ^ 32)%Z) ms ->
  snd (log_run me (map (fun m => LArrive (datagram (str "_log_message_") (ser_log m))) ms ++ [LFetch]) s) =
  [EFetched (lo_queue s ++ filter (fun m => eqb (id_host me) (lg_hname m) || with_network ops)%bool ms)].
Proof. exact delivered_lemma. Qed.
Print Assumptions c47_delivered_partial.

Definition c47_message (h : text) (c : text) : logmsg := LogMsg 5000 h 42 (str "p") (str "u") 2 c.
Example c47_delivered_case :
  listens c47_me c47_history = true /\ with_network c47_history = false /\
  Forall (fun m => lg_level m <> 0%Z /\ wf_log m /\ (len (ser_log m) < 2 ^ 32)%Z) [c47_message (str "h") (str "a"); c47_message (str "x") (str "b"); c47_message (str "h") (str "c")] /\
  snd (log_run c47_me (skipn 3 c47_history ++ map (fun m => LArrive (datagram (str "_log_message_") (ser_log m)))
      [c47_message (str "h") (str "a"); c47_message (str "x") (str "b"); c47_message (str "h") (str "c")] ++ [LFetch; LFetch]) (fst (log_run c47_me (firstn 3 c47_history) (log0 []))))
  = [EConsole (str "w"); ESend (datagram (str "_log_message_") (ser_log (LogMsg 5000 (str "h") 42 (str "p") (str "u") 2 (str "w"))));
     EFetched [c47_message (str "h") (str "a"); c47_message (str "h") (str "c")]; EFetched []].
Proof.
  split; [reflexivity|]. split; [reflexivity|]. split; [|vm_compute; reflexivity].
  repeat constructor; try discriminate; try (vm_compute; reflexivity); vm_compute; repeat split; try discriminate; try lia.
Qed.

(** The serialized fetch returns the same messages, if there are any. *)
Theorem c47_buffer_partial :
  forall me s, lo_queue s <> [] -> Forall wf_log (lo_queue s) -> (len (ser_logs (lo_queue s)) < 2 ^ 32)%Z ->
  exists s' bs, log_step me LFetchBuffer s = (s', [EBuffer bs]) /\ de_logs bs = Ok (lo_queue s) /\ s' = fst (log_step me LFetch s).
Proof. exact buffer_lemma. Qed.
Print Assumptions c47_buffer_partial.

(** The console and the network need no file; but if the file filter is not empty and the
    log directory is missing, nothing is logged anywhere and nothing is received, whatever
    happens until a later start finds the directory or has no file filter. *)
Theorem c47_needs_directory_refuted :
  forall me u c stamp opened ops, sk_mask (lc_file c) <> 0%Z -> Forall (fun op => begins op = false) ops ->
  Forall (fun e => e = EFetched [] \/ e = EBuffer []) (snd (log_run me (LStart c None stamp opened :: ops) (log0 u))).
Proof. exact missing_lemma. Qed.
Print Assumptions c47_needs_directory_refuted.
Example c47_needs_directory_case :
  sk_mask (lc_file c47_config) <> 0%Z /\ Forall (fun op => begins op = false) [LLog 2 (str "w") 0; LFetch] /\
  snd (log_run c47_me [LStart c47_config None (str "now") true; LLog 2 (str "w") 0; LFetch] (log0 [])) = [EFetched []].
Proof. split; [discriminate|]. split; [repeat constructor|]. reflexivity. Qed.

(** A sink that is switched off is still used: its filter alone counts. *)
Theorem c47_disabled_sink_refuted :
  exists me u c d stamp l msg t, sk_enable (lc_con c) = false /\
    snd (log_run me [LStart c d stamp true; LLog l msg t] (log0 u)) = [EConsole msg].
Proof. exact disabled_run. Qed.
Print Assumptions c47_disabled_sink_refuted.

(** C61: after a start that opens the log file, and without a further start, the file consists
    of the lines of the messages written to it, in order, each with its line feed. *)
Theorem c61_content :
  forall me u ops0 s0 tr0 c d stamp ops s tr, log_run me ops0 (log0 u) = (s0, tr0) -> sk_mask (lc_file c) <> 0%Z ->
  Forall (fun op => match op with LStart _ _ _ _ => False | _ => True end) ops ->
  log_run me (LStart c (Some d) stamp true :: ops) s0 = (s, tr) ->
  aget (log_name me (unit_after u ops0) d stamp) (lo_files s) = Some (flat_map (fun l => l ++ [10%Z]) (filed tr)).
Proof. exact content_lemma. Qed.
Print Assumptions c61_content.

(** If the messages, the host and the unit have no line feed or zero byte, the lines of the file
    are those of the messages whose level is enabled for the file. *)
Theorem c61_lines_partial :
  forall me u ops0 s0 tr0 c d stamp ms s tr, log_run me ops0 (log0 u) = (s0, tr0) -> sk_mask (lc_file c) <> 0%Z ->
  Forall (fun m => is_level (fst (fst m)) /\ snd (fst m) <> [] /\ (0 <= snd m)%Z /\
                   plain_entry (entry_of me (unit_after u ops0) (snd m) (fst (fst m)) (snd (fst m)))) ms ->
  log_run me (LStart c (Some d) stamp true :: logs ms) s0 = (s, tr) ->
  exists name content keep, aget name (lo_files s) = Some content /\
    (forall m, In m ms -> keep m = true <-> enabled (sk_mask (lc_file c)) (fst (fst m))) /\
    lines content = map (fun m => line_of (entry_of me (unit_after u ops0) (snd m) (fst (fst m)) (snd (fst m)))) (filter keep ms).
Proof. exact file_lemma. Qed.
Print Assumptions c61_lines_partial.

Example c61_case :
  Forall (fun m => is_level (fst (fst m)) /\ snd (fst m) <> [] /\ (0 <= snd m)%Z /\
                   plain_entry (entry_of c47_me [] (snd m) (fst (fst m)) (snd (fst m)))) [(4%Z, str "a | b", 1000000%Z); (2%Z, str "c", 2000000%Z); (4%Z, str "d", 3000000%Z)] /\
  option_map lines (aget (str "/log/now__42.log") (lo_files (fst (log_run c47_me (LStart c47_config (Some (str "/log/")) (str "now") true ::
    logs [(4%Z, str "a | b", 1000000%Z); (2%Z, str "c", 2000000%Z); (4%Z, str "d", 3000000%Z)]) (log0 [])))))
  = Some [str "1 ms | h |  | 42 | error | a | b"; str "3 ms | h |  | 42 | error | d"].
Proof.
  split; [|vm_compute; reflexivity].
  repeat (constructor; [split; [split; [discriminate|reflexivity]|split; [discriminate|split; [discriminate|
    repeat split; try discriminate; try (vm_compute; reflexivity); first [vm_compute; intuition discriminate|vm_compute; auto 10]]]]|]).
  constructor.
Qed.

(** A line determines the message, the time in milliseconds, the host, the unit, the process
    and the level, if host and unit have no bar; so do all lines of a file. *)
Theorem c61_line_determines_partial :
  forall a b, plain_entry a -> plain_entry b -> line_of a = line_of b -> a = b.
Proof. exact line_inj. Qed.
Print Assumptions c61_line_determines_partial.

(** Processes with different ids never share a log file. *)
Theorem c61_own_file :
  forall a b u v d e st su, (0 <= id_pid a < 10 ^ 19)%Z -> (0 <= id_pid b < 10 ^ 19)%Z ->
  log_name a u d st = log_name b v e su -> id_pid a = id_pid b.
Proof. exact name_pid. Qed.
Print Assumptions c61_own_file.

(** A message with a line feed forges a line: two histories, with one and with two messages,
    give the same file. *)
Theorem c61_forged_line_refuted :
  exists me u c d stamp ms ms' n x, length ms = 1%nat /\ length ms' = 2%nat /\
    aget n (lo_files (fst (log_run me (LStart c (Some d) stamp true :: logs ms) (log0 u)))) = Some x /\
    aget n (lo_files (fst (log_run me (LStart c (Some d) stamp true :: logs ms') (log0 u)))) = Some x.
Proof. exact forged_run. Qed.
Print Assumptions c61_forged_line_refuted.

(** A message is cut at its first zero byte: two different messages give the same line. *)
Theorem c61_zero_byte_refuted :
  exists me u c d stamp t l m1 m2 n x, m1 <> m2 /\ enabled (sk_mask (lc_file c)) l /\
    aget n (lo_files (fst (log_run me (LStart c (Some d) stamp true :: logs [(l, m1, t)]) (log0 u)))) = Some x /\
    aget n (lo_files (fst (log_run me (LStart c (Some d) stamp true :: logs [(l, m2, t)]) (log0 u)))) = Some x.
Proof. exact zero_run. Qed.
Print Assumptions c61_zero_byte_refuted.

(** A second start within the same second empties the file again, whatever was written. *)
Theorem c61_restart_refuted :
  forall me u ops0 s0 tr0 c d stamp, log_run me ops0 (log0 u) = (s0, tr0) -> sk_mask (lc_file c) <> 0%Z ->
  let s1 := fst (log_step me (LStart c (Some d) stamp true) s0) in
  lo_handle s1 = Some (log_name me (unit_after u ops0) d stamp) /\ aget (log_name me (unit_after u ops0) d stamp) (lo_files s1) = Some [].
Proof. exact start_file. Qed.
Print Assumptions c61_restart_refuted.
Example c61_restart_case :
  aget (str "/log/now_u_42.log") (lo_files (fst (log_run c47_me (c47_history ++ [LLog 4 (str "e") 0]) (log0 [])))) = Some (str "0 ms | h | u | 42 | error | e" ++ [10%Z]) /\
  aget (str "/log/now_u_42.log") (lo_files (fst (log_run c47_me (c47_history ++ [LLog 4 (str "e") 0; LStart c47_config (Some (str "/log/")) (str "now") true]) (log0 [])))) = Some [].
Proof. split; vm_compute; reflexivity. Qed.

(** C62: a list of level names sets exactly the bits of the names in it; "all" sets every bit. *)
Theorem c62_parse :
  forall ws k, (0 <= k < 8)%Z -> Z.testbit (parse_levels ws) k = true <-> In (str "all") ws \/ In (word_of k) ws.
Proof. exact parse_lemma. Qed.
Print Assumptions c62_parse.
Example c62_parse_case : parse_levels [str "error"; str "nonsense"; str "info"; str "error"] = 5%Z /\ parse_levels [str "debug4"] = (-128)%Z.
Proof. split; vm_compute; reflexivity. Qed.

(** The default configuration file written for a filter reads back as that filter. *)
Theorem c62_default_file :
  forall m, is_filter m -> parse_levels (levels_to_array m) = m.
Proof. exact array_round. Qed.
Print Assumptions c62_default_file.
Example c62_default_file_case : levels_to_array 6 = [str "warning"; str "error"].
Proof. vm_compute. reflexivity. Qed.

(** Converting a configuration to YAML and back enables every level of every sink that has
    one enabled. *)
Theorem c62_yaml_refuted :
  forall m, is_filter m -> m <> 0%Z -> parse_levels (levels_to_words m) = (-1)%Z.
Proof. exact words_all. Qed.
Print Assumptions c62_yaml_refuted.
Example c62_yaml_case : levels_to_words 4 = [str "all"; str "error"].
Proof. vm_compute. reflexivity. Qed.
