(** Multicast address of a topic.
    ecal/core/src/io/udp/ecal_udp_topic2mcast.h, ecal_udp_configurations.cpp 83-98, 127-149.
    Strings are lists of bytes (0..255), integers are Z with explicit reduction.  [None] stands for
    undefined behaviour: atoi of a number that does not fit an int (C17 7.22.1). *)
From Verif Require Import Base Sample.
Open Scope Z_scope.

(** fnv_hash 40-54; w = 2^(bits of size_t). *)
Definition fnv_step (w r c : Z) : Z := Z.lxor ((16777619 * r) mod w) c.
Definition fnv (w : Z) (s : text) : Z := fold_left (fnv_step w) s 2166136261.

(** Tokens read by std::getline(ss, token, '.') in a loop: a token ends at a dot or at the end of the
    string; nothing is read from an exhausted stream, so there is no empty token at the end. *)
Fixpoint tokens (cur s : text) : list text :=
  match s with
  | [] => match cur with [] => [] | _ => [cur] end
  | c :: s' => if c =? 46 then cur :: tokens [] s' else tokens (cur ++ [c]) s'
  end.
(** atoi: white space, a sign, digits. *)
Definition is_space (c : Z) : bool := (c =? 32) || ((9 <=? c) && (c <=? 13)).
Definition is_digit (c : Z) : bool := (48 <=? c) && (c <=? 57).
Fixpoint skip_space (s : text) : text := match s with c :: s' => if is_space c then skip_space s' else s | [] => [] end.
Fixpoint digits (acc : Z) (s : text) : Z :=
  match s with c :: s' => if is_digit c then digits (10 * acc + (c - 48)) s' else acc | [] => acc end.
Definition atoi (s : text) : option Z :=
  let s := skip_space s in
  let v := match s with
           | c :: s' => if c =? 45 then - digits 0 s' else if c =? 43 then digits 0 s' else digits 0 s
           | [] => 0
           end in
  if (- 2147483648 <=? v) && (v <=? 2147483647) then Some v else None.
(** static_cast<unsigned char>(atoi(token)) for each of the first four tokens. *)
Fixpoint octets (l : list text) : option (list Z) :=
  match l with
  | [] => Some []
  | t :: l' => match atoi t, octets l' with Some v, Some r => Some (v mod 256 :: r) | _, _ => None end
  end.

(** ** Version 2 *)
(** parse_ipv4 58-71. *)
Definition parse_ipv4 (s : text) : option Z :=
  match octets (firstn 4 (tokens [] s)) with
  | Some l => Some (fold_left (fun ip m => Z.lor (Z.shiftl ip 8 mod 2^32) m) l 0)
  | None => None
  end.
(** Decimal digits of z, as operator<< of an ostream and std::to_string write them. *)
Fixpoint decimal (fuel : nat) (z : Z) (acc : text) : text :=
  match fuel with
  | O => acc
  | S f => let acc := 48 + z mod 10 :: acc in if z / 10 =? 0 then acc else decimal f (z / 10) acc
  end.
Definition to_string (z : Z) : text := decimal 10 z [].
(** serialize_ipv4 73-79. *)
Definition serialize_ipv4 (ip : Z) : text :=
  to_string (Z.shiftr ip 24) ++ [46] ++ to_string (Z.shiftr (Z.land ip 0x00ffffff) 16) ++ [46] ++
  to_string (Z.shiftr (Z.land ip 0x0000ffff) 8) ++ [46] ++ to_string (Z.land ip 0x000000ff).
(** ~mask as a uint32_t. *)
Definition inverted (mask : Z) : Z := 2^32 - 1 - mask.
(** combine_ip_and_hash_with_mask 89-92, increase_adress_by_one 94-97. *)
Definition combine (address hash mask : Z) : Z := Z.lor (Z.land address mask) (Z.land hash (inverted mask)).
Definition increase (address mask : Z) : Z := Z.lor (Z.land address mask) (Z.land ((address + 1) mod 2^32) (inverted mask)).
(** topic2mcast_hash 99-114. *)
Definition pick (hash base mask : Z) : Z :=
  let m := combine base hash mask in if m =? base then increase base mask else m.
Definition v2_topic2mcast_hash (hash : Z) (base mask : text) : option text :=
  match parse_ipv4 mask, parse_ipv4 base with
  | Some m, Some b => Some (serialize_ipv4 (pick hash b m))
  | _, _ => None
  end.
(** topic2mcast 125-131. *)
Definition v2_topic2mcast (w : Z) (topic base mask : text) : option text := v2_topic2mcast_hash (fnv w topic mod 2^32) base mask.

(** ** Version 1 *)
(** topic2mcast_hash 138-164. *)
Definition masks (l : list Z) : Z * Z * Z :=
  match l with
  | [] | [_] => (255, 255, 255)
  | [_; a] => (a, 255, 255)
  | [_; a; b] => (a, b, 255)
  | _ :: a :: b :: c :: _ => (a, b, c)
  end.
Definition v1_topic2mcast_hash (hash : Z) (base mask : text) : option text :=
  match octets (firstn 4 (tokens [] mask)) with
  | None => None
  | Some l =>
      let '(m1, m2, m3) := masks l in
      let a1 := Z.land (Z.shiftr hash 16) m1 in
      let a2 := Z.land (Z.shiftr hash 8) m2 in
      let a3 := Z.land hash m3 in
      let a3 := if a3 <? 2 then 2 else a3 in
      Some (firstn 3 base ++ [46] ++ to_string a1 ++ [46] ++ to_string a2 ++ [46] ++ to_string a3)
  end.
(** topic2mcast 178-184. *)
Definition v1_topic2mcast (w : Z) (topic base mask : text) : option text := v1_topic2mcast_hash (fnv w topic) base mask.

(** GetRegistrationAddress 89-100 (= GetPayloadAddress), GetTopicPayloadAddress 132-154. *)
Record mc_config := McConfig { mc_network : bool; mc_v1 : bool; mc_group : text; mc_mask : text }.
Definition local_broadcast : text := str "127.255.255.255".
Definition registration_address (c : mc_config) : text := if mc_network c then mc_group c else local_broadcast.
Definition topic_address (w : Z) (c : mc_config) (topic : text) : option text :=
  if mc_network c then
    if mc_v1 c then v1_topic2mcast w topic (mc_group c) (mc_mask c) else v2_topic2mcast w topic (mc_group c) (mc_mask c)
  else Some local_broadcast.
