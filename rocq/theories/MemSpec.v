(** Vocabulary for the statements about memory files. *)
From Verif Require Import Base MemModel.

(** The object uses this file in this process. *)
Definition uses (pid name : nat) (o : obj) : bool :=
  o_created o && Nat.eqb (o_pid o) pid && eqb (o_name o) (Some name).
Definition users (s : sys) (pid name : nat) : list (nat * obj) := filter (fun p => uses pid name (snd p)) (s_objs s).

(** What the users of memory files have to keep to.  [lenof] fixes the size every
    creator of a name asks for. *)
Section Rules.
  Variable lenof : nat -> Z.
  Definition op_ok (s : sys) (op : mop) : Prop :=
    match op with
    | MNew _ _ | MDestroy _ _ | MRelease _ _ => True
    | MCreate n name create len san mtx_ok rec =>
        (* an object is destroyed before it is created again, creators of one name agree on
           the size, a creator does not join a process that already reads the file, the
           mutex can be opened, nobody died holding it *)
        mtx_ok = true /\ rec = false /\
        (forall o, aget n (s_objs s) = Some o ->
           o_created o = false /\
           (create = true -> len = lenof name /\ (0 < len)%Z /\
             forall k x, In (k, x) (users s (o_pid o) name) -> o_mode x = true) /\
           (create = false -> len = 0%Z /\ san = false))
    | MGet n w rec =>
        (* writing only with an object created for writing; a mapping grows only if the
           object is and was the only user in its process *)
        rec = false /\
        (forall o, aget n (s_objs s) = Some o ->
           (w = true -> o_mode o = true) /\
           (forall name, o_created o = true -> o_name o = Some name ->
              (i_size (o_info o) < ihdr_bytes + lenof name)%Z ->
              i_ref (o_info o) = 1%Z /\ forall k x, In (k, x) (users s (o_pid o) name) -> k = n))
    | MRead _ len off => (0 <= len /\ 0 <= off /\ len + off < 2 ^ 64)%Z
    | MWrite _ bs off => (0 <= off /\ Z.of_nat (length bs) + off < 2 ^ 64)%Z
    | MPayload _ pw len off _ =>
        (0 <= len /\ 0 <= off /\ len + off < 2 ^ 64)%Z /\
        (* a payload writer stays within the memory it is given *)
        (forall old, length (fst (pw_full pw old)) = length old /\ length (fst (pw_mod pw old)) = length old)
    end.
  Fixpoint run_ok (ops : list mop) (s : sys) : Prop :=
    match ops with
    | [] => True
    | op :: ops' => op_ok s op /\ match m_step op s with Some (s', _) => run_ok ops' s' | None => True end
    end.
End Rules.

(** The access an object has been granted and not given back, from the calls and their
    results alone. *)
Definition window_step (n : nat) (w : access) (e : mop * mres) : access :=
  match e with
  | (MGet m wr _, MBool true) => if Nat.eqb m n then acc_of wr else w
  | (MRelease m _, MBool true) => if Nat.eqb m n then Closed else w
  | (MDestroy m _, MBool true) => if Nat.eqb m n then Closed else w
  | _ => w
  end.
Definition window (n : nat) (h : list (mop * mres)) : access := fold_left (window_step n) h Closed.

(** Bytes of the file the object is attached to. *)
Definition file_of (s : sys) (n : nat) : option file :=
  match aget n (s_objs s) with
  | Some o => match deref s (o_info o) with Some (_, f) => Some f | None => None end
  | None => None
  end.
Definition fd_of (s : sys) (n : nat) : option nat :=
  match aget n (s_objs s) with
  | Some o => match deref s (o_info o) with Some (mp, _) => Some (mp_file mp) | None => None end
  | None => None
  end.
(** CurDataSize and MaxDataSize of the object (ecal_memfile.h). *)
Definition cur_size (s : sys) (n : nat) : Z := match aget n (s_objs s) with Some o => h_cur (o_hdr o) | None => 0%Z end.
Definition max_size (s : sys) (n : nat) : Z := match aget n (s_objs s) with Some o => h_max (o_hdr o) | None => 0%Z end.
(** The object has seen an initialised header. *)
Definition header_seen (s : sys) (n : nat) : Prop := forall o, aget n (s_objs s) = Some o -> h_ihs (o_hdr o) <> 0%Z.

(** The object holds the file of this name. *)
Definition holds (s : sys) (n nm : nat) : Prop :=
  exists o, aget n (s_objs s) = Some o /\ o_name o = Some nm /\ o_acc o <> Closed.

(** No object is destroyed while another object holds the same file. *)
Definition destroy_ok (s : sys) (op : mop) : Prop :=
  match op with
  | MDestroy n _ => forall o nm m, aget n (s_objs s) = Some o -> o_name o = Some nm -> holds s m nm -> m = n
  | _ => True
  end.
Fixpoint run_excl (ops : list mop) (s : sys) : Prop :=
  match ops with
  | [] => True
  | op :: ops' => destroy_ok s op /\ match m_step op s with Some (s', _) => run_excl ops' s' | None => True end
  end.

(** Sizes asked for by creators. *)
Definition sizes_asked (ops : list mop) : list Z :=
  flat_map (fun op => match op with MCreate _ _ true len _ _ _ => [len] | _ => [] end) ops.
