(** Vocabulary for the statements about the byte protocols of the services. *)
From Verif Require Import Base FrmModel.

Definition is_byte (z : Z) : Prop := (0 <= z < 256)%Z.
(** A message whose version and type are bytes. *)
Definition msg_ok (m : fmsg) : Prop := is_byte (fm_version m) /\ is_byte (fm_type m).
Definition small (m : fmsg) : Prop := (Z.of_nat (length (fm_pay m)) < 2 ^ 32)%Z.

(** What a session with a range [smin, smax] and a range [cmin, cmax] have in common. *)
Definition common (smin smax cmin cmax v : Z) : Prop := (smin <= v <= smax /\ cmin <= v <= cmax)%Z.

Definition is_arrive (op : v0op) : bool := match op with VArrive _ => true | _ => false end.
Definition arrived (ops : list v0op) : list Z := flat_map (fun op => match op with VArrive bs => bs | _ => [] end) ops.
(** Rounds of reading and handling, nothing arriving in between. *)
Fixpoint rounds (n : nat) : list v0op := match n with 0 => [] | S n' => VRead :: VHandle :: rounds n' end.

Definition all_ok (ms : list fmsg) : Prop := Forall (fun m => msg_ok m /\ small m) ms.

(** The first 8 bytes of a header that announces a header of [hs] bytes. *)
Definition hdr8 (size hs version type : Z) : list Z := be32 size ++ [byte version; byte type] ++ be16 hs.
(** A frame of a later protocol with a longer header than the known one. *)
Definition frame_ext (ext : list Z) (m : fmsg) : list Z :=
  hdr8 (len (fm_pay m) mod 2 ^ 32) (header_bytes + len ext) (fm_version m) (fm_type m) ++ (repeat 0%Z 8 ++ ext) ++ fm_pay m.
Definition ext_ok (ext : list Z) : Prop := (header_bytes + len ext < 65536)%Z.
