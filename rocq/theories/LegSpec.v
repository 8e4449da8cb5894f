(** Vocabulary for connections of the legacy protocol. *)
From Verif Require Import Base Sample FrmModel LegModel.

Definition lreach (ops : list lop) (s : leg) : Prop := lg_run ops leg0 = Some s.
(** Responses are shorter than 4 GiB; requests are not empty. *)
Definition lfits (s : leg) : Prop := Forall (fun p => (Z.of_nat (length p) < 2 ^ 32)%Z) (lg_resp s).
Definition lfull (ops : list lop) : Prop := forall bs, In (LCall bs) ops -> bs <> [].
(** The calls made while the session had not failed, in their order. *)
Fixpoint asked_for (lost : bool) (ops : list lop) : list (list Z) :=
  match ops with
  | [] => []
  | LLost :: ops' => asked_for true ops'
  | LCall bs :: ops' => (if lost then [] else [bs]) ++ asked_for lost ops'
  | _ :: ops' => asked_for lost ops'
  end.
(** Whenever the server takes what it has read for a complete request, no byte is on its way. *)
Fixpoint whole (ops : list lop) (s : leg) : Prop :=
  match ops with
  | [] => True
  | o :: ops' =>
      match o, v_read (lg_srv s), v_sock (lg_srv s) with
      | LHandle, Some _, [] => lg_up s = []
      | _, _, _ => True
      end /\
      match lg_step o s with Some s' => whole ops' s' | None => False end
  end.
Definition lprefix {A} (a b : list A) : Prop := exists c, b = a ++ c.

(** ** Examples *)
Definition l_bytes (k : nat) : list lop := repeat LByte k.
(** One call, whole. *)
Definition l_call (req resp : list Z) : list lop := [LCall req; LSend; LArrive (length req); LRead; LHandle; LAnswer resp] ++ l_bytes (16 + length resp).
(** The first request reaches the server in two pieces; a second call follows. *)
Definition l_torn (a b req ra rb : list Z) : list lop :=
  [LCall (a ++ b); LCall req; LSend; LArrive (length a); LRead; LHandle; LAnswer ra] ++ l_bytes (16 + length ra) ++
  [LArrive (length b); LRead; LHandle; LAnswer rb; LSend] ++ l_bytes (16 + length rb).
Definition l_view (ops : list lop) : option (list (list Z) * list (list Z) * list (list Z)) :=
  match lg_run ops leg0 with Some s => Some (lg_sent s, v_calls (lg_srv s), lg_got s) | None => None end.
(** The bytes that the session of the server has and has not given to the callback. *)
Definition l_held (v : v0) : list Z := v_req v ++ match v_read v with Some x => x | None => [] end ++ v_sock v.
(** Steps in which nobody calls and no connection is lost. *)
Definition lcalm (ops : list lop) : Prop := Forall (fun o => match o with LCall _ => False | LLost => False | _ => True end) ops.
Definition lshort (f : list Z -> list Z) : Prop := forall p, (Z.of_nat (length (f p)) < 2 ^ 32)%Z.
(** A call answered, one cut off by the loss of the connection, and one made afterwards. *)
Definition l_lossy : list lop := l_call [1; 2; 3]%Z [7]%Z ++ [LCall [4]%Z; LCall [5]%Z; LSend; LLost; LCall [6]%Z].
(** Two calls at once, the first request read by the server and not answered yet. *)
Definition l_two : list lop := [LCall [1; 2]%Z; LCall [3]%Z; LSend; LArrive 1; LArrive 1; LRead; LHandle].
Definition l_echo (p : list Z) : list Z := firstn 2 p.
(** Nothing but a call of the empty request. *)
Definition l_void : list lop := l_call [1]%Z [7]%Z ++ [LCall []; LCall [2]%Z].
Definition l_none (ops : list lop) : option (list (list Z) * bool) :=
  match lg_run ops leg0 with Some s => Some (lg_wait s, lg_flight s) | None => None end.
