(** Model of the C interface (ecal/core/src/cimpl): the copying of results into memory
    of the caller (ecal_common_cimpl.cpp), the receive, call, send and filter functions on top
    of it, and the lock under which the callbacks run.

    Memory is a set of blocks of cells.  A pointer names a block and points to its
    first cell; a stored pointer takes up eight cells.  Pointers into the middle of a block, alignment and
    the size of the address space are not modelled.  Whether malloc succeeds is given from
    outside, one answer per call. *)
From Verif Require Import Base Sample RdModel.

(** A cell of memory: not written yet, a byte, or the i-th byte of a pointer to block b. *)
Inductive cell := Raw | Byte (z : Z) | Part (b : nat) (i : nat).
(** The live blocks and the number of the next one. *)
Record heap := Heap { hp_blocks : list (nat * list cell); hp_next : nat }.

(** malloc(n), n > 0. *)
Definition cp_alloc (n : nat) (h : heap) : heap * nat :=
  (Heap (aset (hp_next h) (repeat Raw n) (hp_blocks h)) (S (hp_next h)), hp_next h).
(** free, also eCAL_FreeMem (ecal_core_cimpl.cpp lines 75-78). *)
Definition cp_free (b : nat) (h : heap) : heap := Heap (adel b (hp_blocks h)) (hp_next h).
(** Writing cells at the beginning of a block; None: outside of it. *)
Definition cp_store (b : nat) (cs : list cell) (h : heap) : option heap :=
  match aget b (hp_blocks h) with
  | Some old => if Nat.leb (length cs) (length old)
                then Some (Heap (aset b (cs ++ skipn (length cs) old) (hp_blocks h)) (hp_next h)) else None
  | None => None
  end.
Definition cp_pointer (b : nat) : list cell := map (Part b) (seq 0 8).

(** static_cast<int>(size): two's complement, 32 bits. *)
Definition cp_int (z : Z) : Z := ((z + 2147483648) mod 4294967296 - 2147483648)%Z.
Definition cp_size (s : list Z) : Z := Z.of_nat (length s).

(** Result of a call: the program is broken, or a returned number. *)
Inductive cres := CUb | CRet (h : heap) (r : Z).

(** CopyBuffer, ecal_common_cimpl.cpp lines 32-59; ECAL_ALLOCATE_4ME is 0
    (ecalc_types.h line 31).  When the answers of malloc run out it fails. *)
Fixpoint copy_buffer (ms : list bool) (target : option nat) (tlen : Z) (src : list Z) (h : heap) : cres :=
  match target with
  | None => CRet h 0
  | Some t =>
    match src with
    | [] => CRet h 0
    | _ =>
      if Z.eqb tlen 0 then
        match ms with
        | true :: ms' =>
            let '(h1, b) := cp_alloc (length src) h in
            match copy_buffer ms' (Some b) (cp_int (cp_size src)) src h1 with
            | CUb => CUb
            | CRet h2 r =>
                if Z.ltb 0 r
                then match cp_store t (cp_pointer b) h2 with Some h3 => CRet h3 r | None => CUb end
                else CRet (cp_free b h2) 0
            end
        | _ => CRet h 0
        end
      else if Z.ltb tlen (cp_int (cp_size src)) then CRet h 0
      else match cp_store t (map Byte src) h with
           | Some h' => CRet h' (cp_int (cp_size src))
           | None => CUb
           end
    end
  end.

(** The getters of names, types and descriptions, e.g. eCAL_Sub_GetTypeName
    (ecal_subscriber_cimpl.cpp lines 195-209), eCAL_Client_GetServiceName
    (ecal_client_cimpl.cpp lines 164-177). *)
Definition cp_get (ms : list bool) (target : option nat) (tlen : Z) (s : list Z) (h : heap) : cres :=
  match copy_buffer ms target tlen s h with
  | CUb => CUb
  | CRet h' r => if Z.eqb r (cp_int (cp_size s)) then CRet h' r else CRet h' 0
  end.
(** The getters of process, monitoring and dump texts, e.g. eCAL_Process_GetHostName
    (ecal_process_cimpl.cpp lines 37-45). *)
Definition cp_text (ms : list bool) (target : option nat) (tlen : Z) (s : list Z) (h : heap) : cres :=
  match s with [] => CRet h 0 | _ => copy_buffer ms target tlen s h end.

(** eCAL_Sub_Receive_ToBuffer, ecal_subscriber_cimpl.cpp lines 121-132.  The time stamp that is
    written through the time pointer is left out here, rd_read returns it. *)
Definition cp_receive_to (ms : list bool) (buf : option nat) (len : Z) (rd : reader) (h : heap) : reader * cres :=
  match rd_read rd with
  | (rd', Some (m, _)) => (rd', copy_buffer ms buf len m h)
  | (rd', None) => (rd', CRet h 0)
  end.
(** eCAL_Sub_Receive_Alloc, lines 134-145. *)
Definition cp_receive_alloc (ms : list bool) (buf : option nat) (rd : reader) (h : heap) : reader * cres :=
  cp_receive_to ms buf 0 rd h.
(** eCAL_Sub_Receive_Buffer_Alloc, lines 147-160: the length goes through a pointer of the caller, here
    it is the third component, None if nothing was written. *)
Definition cp_receive_both (ms : list bool) (buf : option nat) (lenp : bool) (rd : reader) (h : heap)
  : reader * cres * option Z :=
  match rd_read rd with
  | (rd', Some (m, _)) =>
      match copy_buffer ms buf 0 m h with
      | CUb => (rd', CUb, None)
      | CRet h' _ => (rd', CRet h' 1, if lenp then Some (cp_int (cp_size m)) else None)
      end
  | (rd', None) => (rd', CRet h 0, None)
  end.

(** A service response as the C caller sees it: ret_state, call_state and the data. *)
Record cresp := CResp { cr_ret : Z; cr_call : Z; cr_data : list Z }.
(** eCAL_Client_Call_Wait, ecal_client_cimpl.cpp lines 97-120.  ok and rs: what
    CServiceClient::Call returned.  The second component: what the response structure was set to
    (None: left alone); its pointers are null and its length is 0. *)
Definition cp_call_wait (ms : list bool) (ok : bool) (rs : list cresp) (buf : option nat) (len : Z) (h : heap)
  : cres * option (Z * Z) :=
  match ok, rs with
  | true, r :: _ => (copy_buffer ms buf len (cr_data r) h, Some (cr_ret r, cr_call r))
  | _, _ => (CRet h 0, None)
  end.

(** eCAL_Pub_Send, ecal_publisher_cimpl.cpp lines 103-113.  send is CPublisher::Send: it
    gets the length as size_t and returns a number of bytes. *)
Definition cp_size_t (z : Z) : Z := (z mod 18446744073709551616)%Z.
Definition cp_send (send : Z -> Z) (len : Z) : Z :=
  if Z.eqb (cp_int (send (cp_size_t len))) len then len else 0%Z.

(** eCAL_Sub_SetID, ecal_subscriber_cimpl.cpp lines 89-102: reading the array; None: outside of it.
    The length is converted to size_t. *)
Definition cp_ids (arr : list Z) (n : Z) : option (list Z) :=
  if Z.leb (cp_size_t n) (cp_size arr) then Some (firstn (Z.to_nat (cp_size_t n)) arr) else None.

(** g_method_callback, ecal_server_cimpl.cpp lines 36-47.  The callback of the user leaves a
    pointer and a length behind; resp is the response so far.  The new response is a copy, the block of the callback
    stays as it is. *)
Inductive cmres := MUb | MResp (s : list Z).
Definition cell_byte (c : cell) : option Z := match c with Byte z => Some z | _ => None end.
Fixpoint cp_bytes (cs : list cell) : option (list Z) :=
  match cs with
  | [] => Some []
  | c :: cs' => match cell_byte c, cp_bytes cs' with Some z, Some r => Some (z :: r) | _, _ => None end
  end.
Definition cp_method (p : option nat) (len : Z) (resp : list Z) (h : heap) : cmres :=
  if Z.ltb 0 len then
    match p with
    | None => MUb
    | Some b =>
        match aget b (hp_blocks h) with
        | None => MUb
        | Some cs => if Z.leb len (Z.of_nat (length cs))
                     then match cp_bytes (firstn (Z.to_nat len) cs) with Some s => MResp s | None => MUb end
                     else MUb
        end
    end
  else MResp resp.
(** A method of the user that allocates its answer.  One call of it, and a list of calls. *)
Definition cp_answer (a : list Z) (h : heap) : heap * cmres :=
  match a with
  | [] => (h, cp_method None 0 [] h)
  | _ => let '(h1, b) := cp_alloc (length a) h in
         match cp_store b (map Byte a) h1 with
         | Some h2 => (h2, cp_method (Some b) (cp_size a) [] h2)
         | None => (h1, MUb)
         end
  end.
Fixpoint cp_answers (l : list (list Z)) (h : heap) : heap * list cmres :=
  match l with
  | [] => (h, [])
  | a :: l' => let '(h1, r) := cp_answer a h in let '(h2, rs) := cp_answers l' h1 in (h2, r :: rs)
  end.

(** The recursive mutex around all callbacks of one sort
    (g_sub_receive_callback_mtx, ecal_subscriber_cimpl.cpp lines 35-46, and the others): its
    owner and how often it has it; the callbacks each thread is in; a buffer that the
    callbacks share, as in samples/c/services/minimal_server_c/src/minimal_server_c.c line 32. *)
Record cguard := CGuard { cg_owner : option (nat * nat); cg_in : list (nat * list nat); cg_buf : list Z }.
Inductive cstep := SEnter (t cb : nat) | SWrite (t : nat) (d : list Z) | SLeave (t : nat).
Definition cg_init : cguard := CGuard None [] [].
Definition cg_stack (t : nat) (g : cguard) : list nat := match aget t (cg_in g) with Some l => l | None => [] end.
(** None: the thread has to wait, or there is nothing to leave, or it writes from outside. *)
Definition cg_step (s : cstep) (g : cguard) : option cguard :=
  match s with
  | SEnter t cb =>
      let inside := aset t (cb :: cg_stack t g) (cg_in g) in
      match cg_owner g with
      | None => Some (CGuard (Some (t, 1)) inside (cg_buf g))
      | Some (o, n) => if Nat.eqb o t then Some (CGuard (Some (t, S n)) inside (cg_buf g)) else None
      end
  | SWrite t d => match cg_stack t g with [] => None | _ => Some (CGuard (cg_owner g) (cg_in g) d) end
  | SLeave t =>
      match cg_stack t g, cg_owner g with
      | cb :: st, Some (o, S n) =>
          Some (CGuard (match n with 0 => None | _ => Some (o, n) end) (aset t st (cg_in g)) (cg_buf g))
      | _, _ => None
      end
  end.
Fixpoint cg_run (ss : list cstep) (g : cguard) : option cguard :=
  match ss with
  | [] => Some g
  | s :: ss' => match cg_step s g with Some g' => cg_run ss' g' | None => None end
  end.
