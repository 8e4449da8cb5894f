(** The TCP transport layer: shared readers (C37) and frames (C38). *)
From Coq Require Import List ZArith Bool Lia.
From Verif Require Import Base Sample PbModel PbSpec PbProofs SerModel TcpModel TcpSpec TcpProofs.
Import ListNotations.
Local Open Scope Z_scope.

(** ** C37 *)
(** An announced publisher is connected as long as a subscriber of the topic exists, provided
    that no subscriber of the topic is destroyed meanwhile (partial: see
    [c37_other_destroyed_refuted]). *)
Theorem c37_connected_partial a s t b h p c :
  forallb (fun o => negb (removes t o)) (b ++ c) = true -> ~ In (XGone t h p) c -> 0 < p < 2 ^ 16 ->
  In (h, p) (sessions t (after (a ++ XAdd s t :: b ++ XPar t h p :: c))).
Proof. exact (connected a s t b h p c). Qed.
Print Assumptions c37_connected_partial.
Example c37_connected_case : sessions [7] (after [XAdd 1 [7]; XPar [7] [1] 500; XAdd 2 [7]; XPar [7] [2] 500; XGone [7] [1] 500; XPar [7] [2] 500]) = [([2], 500)].
Proof. vm_compute. reflexivity. Qed.

(** A publisher announced again and again is connected once. *)
Theorem c37_once t l : NoDup (sessions t (after l)).
Proof. exact (nodup_sessions t l). Qed.
Print Assumptions c37_once.
Example c37_once_case : sessions [7] (after [XAdd 1 [7]; XPar [7] [1] 500; XPar [7] [2] 500; XPar [7] [1] 500]) = [([1], 500); ([2], 500)].
Proof. vm_compute. reflexivity. Qed.

(** Only announced publishers of the topic are connected. *)
Theorem c37_announced t l h p : In (h, p) (sessions t (after l)) -> exists q, In (XPar t h q) l /\ p = q mod 2 ^ 16 /\ p <> 0.
Proof. exact (sessions_announced t l h p). Qed.
Print Assumptions c37_announced.
Example c37_announced_case : In ([1], 500) (sessions [7] (after [XAdd 1 [7]; XPar [7] [1] 66036])).
Proof. vm_compute. now left. Qed.

(** Subscribers and publishers of other topics make no difference. *)
Theorem c37_other_topics t l o : about t o = false -> sessions t (after (l ++ [o])) = sessions t (after l).
Proof. exact (other_topics t l o). Qed.
Print Assumptions c37_other_topics.
Example c37_other_topics_case : sessions [7] (after [XAdd 1 [7]; XAdd 2 [8]; XPar [7] [1] 500; XRem 2 [8]]) = [([1], 500)].
Proof. vm_compute. reflexivity. Qed.

(** The statement as a whole does not hold: when one of two subscribers of a topic is
    destroyed, the other one is connected to nobody, however often publishers are announced,
    until a further subscriber of the topic is created. *)
Theorem c37_other_destroyed_refuted a s s' t c :
  In (s', t) (exist a) -> s' <> s -> ~ In (XRem s' t) c -> forallb (fun o => negb (creates t o)) c = true ->
  In (s', t) (exist (a ++ XRem s t :: c)) /\ sessions t (after (a ++ XRem s t :: c)) = [].
Proof. exact (other_deaf a s s' t c). Qed.
Print Assumptions c37_other_destroyed_refuted.
Example c37_other_destroyed_case :
  let a := [XAdd 1 [7]; XAdd 2 [7]; XPar [7] [1] 500] in
  sessions [7] (after a) = [([1], 500)] /\ In (2%nat, [7]) (exist a) /\
  sessions [7] (after (a ++ XRem 1 [7] :: [XPar [7] [1] 500; XPar [7] [1] 500])) = [].
Proof. vm_compute. split; [reflexivity|]. split; [now left|reflexivity]. Qed.

(** ** C38 *)
(** All messages of a connection arrive as they were sent, whatever the receiver has received
    before (partial: payloads below 2 GiB, names that are not empty). *)
Theorem c38_round_trip_partial tname tid ms bss t : tname <> [] -> tid <> [] ->
  Forall2 (fun m bs => wf_tmsg m /\ len (tm_payload m) < 2 ^ 31 /\ tcp_frame tname tid m = Some bs) ms bss ->
  Forall2 (delivered tname tid) ms (snd (tcp_receives t bss)).
Proof. intros N1 N2. exact (receives_ok tname tid N1 N2 ms bss t). Qed.
Print Assumptions c38_round_trip_partial.
Example c38_round_trip_case :
  let m1 := TMsg 5 (-1) 1000 (2 ^ 64 - 1) [1; 2; 3] in
  let m2 := TMsg 0 2 1001 7 [] in
  match tcp_frame [65; 66] [49] m1, tcp_frame [65; 66] [49] m2 with
  | Some b1, Some b2 => snd (tcp_receives psample0 [b1; b2]) =
      [TGot (TSample [65; 66] [49] [1; 2; 3] 5 (-1) 1000 (-1)); TGot (TSample [65; 66] [49] [] 0 2 1001 7)]
  | _, _ => False
  end.
Proof. vm_compute. reflexivity. Qed.

(** The payload starts at a multiple of eight bytes. *)
Theorem c38_aligned tname tid m bs : tcp_frame tname tid m = Some bs ->
  exists head, bs = head ++ tm_payload m /\ len head mod 8 = 0.
Proof. exact (frame_aligned tname tid m bs). Qed.
Print Assumptions c38_aligned.
Example c38_aligned_case : match tcp_frame [65; 66] [49] (TMsg 5 6 1000 9 [1; 2; 3]) with Some b => len b = 35 | None => False end.
Proof. vm_compute. reflexivity. Qed.

(** There is a frame for every message whose names are not extremely long. *)
Theorem c38_fits tname tid m : len tname + len tid <= 65000 -> exists bs, tcp_frame tname tid m = Some bs.
Proof. exact (frame_fits tname tid m). Qed.
Print Assumptions c38_fits.
Example c38_fits_case : exists bs, tcp_frame (repeat 65 3000) [49] (TMsg 5 6 1000 9 [1; 2; 3]) = Some bs.
Proof. eexists. vm_compute. reflexivity. Qed.

(** What is handed over lies within the received buffer. *)
Theorem c38_inside t buf x : snd (tcp_receive t buf) = TGot x -> exists pre post, buf = pre ++ tx_payload x ++ post /\ 6 <= len pre.
Proof. exact (receive_inside t buf x). Qed.
Print Assumptions c38_inside.
Example c38_inside_case : exists x, snd (tcp_receive psample0 [69; 67; 65; 76; 6; 0; 50; 4; 48; 2; 66; 0; 8; 9; 10]) = TGot x /\ tx_payload x = [8; 9].
Proof. eexists. split; vm_compute; reflexivity. Qed.

(** With names of 65536 bytes or more the header is written behind the end of its buffer. *)
Theorem c38_long_names_refuted tname tid m : 2 ^ 16 <= len tname + len tid -> tcp_frame tname tid m = None.
Proof. exact (frame_too_long tname tid m). Qed.
Print Assumptions c38_long_names_refuted.
Example c38_long_names_case : 2 ^ 16 <= len (repeat 65 (256 * 256)) + len [49].
Proof. vm_compute. discriminate. Qed.

(** The receiver of a payload of 2 GiB or more reads outside of the buffer. *)
Theorem c38_2gib_refuted t tname tid m bs : wf_tmsg m -> 2 ^ 31 <= len (tm_payload m) < 2 ^ 32 -> tcp_frame tname tid m = Some bs ->
  snd (tcp_receive t bs) = TOutside.
Proof. exact (receive_2g t tname tid m bs). Qed.
Print Assumptions c38_2gib_refuted.
Example c38_2gib_case : exists m bs, wf_tmsg m /\ len (tm_payload m) = 2 ^ 31 /\ tcp_frame [65] [49] m = Some bs.
Proof. exact (long_case (2 ^ 31) ltac:(lia)). Qed.

(** A payload of 4 GiB or more is handed over without its end. *)
Theorem c38_4gib_refuted t tname tid m bs : wf_tmsg m -> 2 ^ 32 <= len (tm_payload m) < 2 ^ 32 + 2 ^ 31 -> tcp_frame tname tid m = Some bs ->
  exists x, snd (tcp_receive t bs) = TGot x /\ len (tx_payload x) = len (tm_payload m) - 2 ^ 32.
Proof. exact (receive_4g t tname tid m bs). Qed.
Print Assumptions c38_4gib_refuted.
Example c38_4gib_case : exists m bs, wf_tmsg m /\ len (tm_payload m) = 2 ^ 32 + 5 /\ tcp_frame [65] [49] m = Some bs.
Proof. exact (long_case (2 ^ 32 + 5) ltac:(lia)). Qed.

(** A message of a topic without a name is handed to the topic of the message before. *)
Theorem c38_empty_name_refuted t m bs : wf_tmsg m -> len (tm_payload m) < 2 ^ 31 -> tcp_frame [] [] m = Some bs -> ps_tname t <> [] ->
  exists x, snd (tcp_receive t bs) = TGot x /\ tx_tname x = ps_tname t.
Proof. exact (receive_empty_name t m bs). Qed.
Print Assumptions c38_empty_name_refuted.
Example c38_empty_name_case :
  match tcp_frame [65; 66] [49] (TMsg 1 1 1 1 []), tcp_frame [] [] (TMsg 2 2 2 2 []) with
  | Some b1, Some b2 => snd (tcp_receives psample0 [b1; b2]) = [TGot (TSample [65; 66] [49] [] 1 1 1 1); TGot (TSample [65; 66] [49] [] 2 2 2 2)]
  | _, _ => False
  end.
Proof. vm_compute. reflexivity. Qed.

(** A message of fewer than six bytes is read beyond its end. *)
Theorem c38_short_refuted t buf : len buf < 6 -> snd (tcp_receive t buf) = TOutside.
Proof. exact (receive_short t buf). Qed.
Print Assumptions c38_short_refuted.
Example c38_short_case : snd (tcp_receive psample0 [69; 67; 65; 76]) = TOutside.
Proof. reflexivity. Qed.
