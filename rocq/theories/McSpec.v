(** Vocabulary for IPv4 addresses. *)
From Verif Require Import Base Sample McModel.
Open Scope Z_scope.

Definition octet (x : Z) : Prop := 0 <= x < 256.
(** An octet in decimal, without leading zeros. *)
Definition written (x : Z) : text :=
  if x <? 10 then [48 + x]
  else if x <? 100 then [48 + x / 10; 48 + x mod 10]
  else [48 + x / 100; 48 + x / 10 mod 10; 48 + x mod 10].
Definition dotted (a b c d : Z) : text := written a ++ str "." ++ written b ++ str "." ++ written c ++ str "." ++ written d.
Definition ipv4 (a b c d : Z) : Z := a * 2^24 + b * 2^16 + c * 2^8 + d.
(** A well formed address and its number. *)
Definition denotes (s : text) (x : Z) : Prop := exists a b c d, octet a /\ octet b /\ octet c /\ octet d /\ s = dotted a b c d /\ x = ipv4 a b c d.
(** Number of the host bits: where the mask is 0. *)
Definition same_network (mask x y : Z) : Prop := forall i, 0 <= i < 32 -> Z.testbit mask i = true -> Z.testbit x i = Z.testbit y i.
Definition host_bits_of (mask x y : Z) : Prop := forall i, 0 <= i < 32 -> Z.testbit mask i = false -> Z.testbit x i = Z.testbit y i.
(** The FNV-1 hash over 32 bits. *)
Definition fnv32 (s : text) : Z := fold_left (fun r c => Z.lxor ((16777619 * r) mod 2^32) c) s 2166136261.
(** 224.0.0.0 to 239.255.255.255. *)
Definition multicast (x : Z) : Prop := ipv4 224 0 0 0 <= x <= ipv4 239 255 255 255.
