(** Vocabulary for the claims about typed publishers, subscribers and protobuf servers. *)
From Verif Require Import Base Sample MsgModel.

(** ** Histories of a program whose thread runs constructors and destructors to their end, while messages
    arrive at any time *)
Inductive pending := PdNone | PdMove (a b : nat) | PdDie (k : nat).
Definition after_op (q : pending) (o : top) : option pending :=
  match o with
  | TArrive _ _ | TInfo _ _ => Some q
  | TMoveFirst a b => match q with PdNone => Some (PdMove a b) | _ => None end
  | TMoveSecond b' => match q with PdMove a b => if Nat.eqb b b' then Some PdNone else None | _ => None end
  | TDie k => match q with PdNone => Some (PdDie k) | _ => None end
  | TGone k' => match q with PdDie k => if Nat.eqb k k' then Some PdNone else None | _ => None end
  | _ => match q with PdNone => Some PdNone | _ => None end
  end.
Fixpoint orderly (os : list top) (q : pending) : option pending :=
  match os with
  | [] => Some q
  | o :: os' => match after_op q o with Some q' => orderly os' q' | None => None end
  end.

(** The object uses the deprecated base class CMsgSubscriber. *)
Definition deprecated (o : top) : bool := match o with TNew _ KMsg _ => true | _ => false end.
Definition calls (out : tout) : bool := match out with TCall _ _ => true | _ => false end.

(** ** What the program expects: objects hold a subscription and a callback *)
Record holding := Holding { ho_kind : tkind; ho_sub : option nat; ho_cb : option nat }.
Record world := World {
  wo_objects : list (nat * holding);
  wo_waiting : list (nat * list Z);     (* per subscription, the message not yet read *)
  wo_next : nat }.
Definition wo_init : world := World [] [] 0.
Definition wo_set k h w := World (aset k h (wo_objects w)) (wo_waiting w) (wo_next w).
Definition nothing_of (h : holding) : holding := Holding (ho_kind h) None None.
Definition subscribe (k : nat) (kd : tkind) (t : text) (w : world) : world :=
  match t with
  | [] => wo_set k (Holding kd None None) w
  | _ => World (aset k (Holding kd (Some (wo_next w)) None) (wo_objects w)) (wo_waiting w) (S (wo_next w))
  end.
Definition has_callback (r : nat) (w : world) : bool :=
  existsb (fun kv => match ho_sub (snd kv), ho_cb (snd kv) with Some r', Some _ => Nat.eqb r r' | _, _ => false end) (wo_objects w).
Definition held (r : nat) (w : world) : bool :=
  existsb (fun kv => match ho_sub (snd kv) with Some r' => Nat.eqb r r' | _ => false end) (wo_objects w).
Definition wo_step (w : world) (o : top) : world :=
  match o with
  | TNew k kd t => subscribe k kd t w
  | TCreate k t => match aget k (wo_objects w) with
                   | Some (Holding kd None _) => subscribe k kd t w
                   | _ => w
                   end
  | TAdd k cb => match aget k (wo_objects w) with
                 | Some (Holding kd sub _) => wo_set k (Holding kd sub (Some cb)) w
                 | None => w
                 end
  | TRem k => match aget k (wo_objects w) with
              | Some (Holding kd sub _) => wo_set k (Holding kd sub None) w
              | None => w
              end
  | TDestroy k => match aget k (wo_objects w) with Some h => wo_set k (nothing_of h) w | None => w end
  | TMove a b | TAssign a b =>
      match aget a (wo_objects w) with Some h => wo_set b h (wo_set a (nothing_of h) w) | None => w end
  | TDelete k => World (adel k (wo_objects w)) (wo_waiting w) (wo_next w)
  | TReceive k => match aget k (wo_objects w) with
                  | Some (Holding _ (Some r) _) => World (wo_objects w) (adel r (wo_waiting w)) (wo_next w)
                  | _ => w
                  end
  | TArrive r p => if held r w && negb (has_callback r w) then World (wo_objects w) (aset r p (wo_waiting w)) (wo_next w) else w
  | _ => w
  end.
Definition wo_run (os : list top) : world := fold_left wo_step os wo_init.
(** Programs that add callbacks only to objects with a subscription, do not assign an object to
    itself, and whose constructors and destructors are not interrupted by messages. *)
Definition sedate_op (w : world) (o : top) : bool :=
  match o with
  | TAdd k _ => match aget k (wo_objects w) with Some (Holding _ (Some _) _) => true | _ => false end
  | TAssign a b => negb (Nat.eqb a b)
  | TMoveFirst _ _ | TMoveSecond _ | TDie _ | TGone _ => false
  | _ => true
  end.
Fixpoint sedate (os : list top) (w : world) : bool :=
  match os with [] => true | o :: os' => sedate_op w o && sedate os' (wo_step w o) end.

Section Decoder.
  Variable dec : option nat -> list Z -> option (list Z).
  (** What has to happen when message p arrives for subscription r. *)
  Definition served (w : world) (r : nat) (p : list Z) (out : tout) : Prop :=
    (forall k h cb, aget k (wo_objects w) = Some h -> ho_sub h = Some r -> ho_cb h = Some cb -> ho_kind h <> KDyn ->
       out = match dec None p with Some v => TCall cb v | None => TIgnored end) /\
    (forall k h cb, aget k (wo_objects w) = Some h -> ho_sub h = Some r -> ho_cb h = Some cb -> ho_kind h = KDyn ->
       (exists v, out = TCall cb v) \/ (exists e, out = TError e) \/ out = TIgnored) /\
    (forall k h, aget k (wo_objects w) = Some h -> ho_sub h = Some r -> ho_cb h = None -> out = TKept) /\
    ((forall k h, aget k (wo_objects w) = Some h -> ho_sub h <> Some r) -> out = TIgnored).
  (** What Receive has to answer. *)
  Definition received (w : world) (k : nat) (out : tout) : Prop :=
    forall h, aget k (wo_objects w) = Some h -> ho_kind h <> KDyn ->
      out = TVal (match ho_sub h with
                  | Some r => match aget r (wo_waiting w) with Some p => dec None p | None => None end
                  | None => None
                  end).
End Decoder.

(** ** Programs for the examples: messages are their own meaning unless they begin with 255, and the type
    information is put in front. *)
Definition plain_dec (i : option nat) (p : list Z) : option (list Z) :=
  match p with
  | 255%Z :: _ => None
  | _ => Some match i with Some n => Z.of_nat n :: p | None => p end
  end.
Definition topic_a : text := [97%Z].
Definition topic_b : text := [98%Z].
Definition busy_program : list top :=
  [TNew 1 KMessage topic_a; TArrive 0 [1%Z]; TAdd 1 7; TArrive 0 [2%Z]; TMove 1 2; TDelete 1; TArrive 0 [3%Z];
   TNew 3 KMessage topic_b; TAdd 3 8; TAssign 2 3; TArrive 0 [4%Z]; TArrive 1 [5%Z]].

(** ** Dynamic subscribers *)
(** The object is created, moved from or to, assigned or destroyed. *)
Definition renews (k : nat) (o : top) : bool :=
  match o with
  | TNew k' _ _ | TDelete k' | TDie k' | TGone k' => Nat.eqb k k'
  | TMove a b | TMoveFirst a b | TAssign a b => Nat.eqb k b
  | _ => false
  end.

(** ** Publishers *)
Definition pure_writer (p : list Z) : Z := Z.of_nat (length p).

(** ** Protobuf servers: a program that creates the server once and does not destroy it in parts *)
Definition pv_quiet (o : pvop) : bool := match o with PRequest _ _ | PDestroy => true | _ => false end.
Definition pv_asks (o : pvop) : bool := match o with PRequest _ _ => true | _ => false end.
Definition demo_methods (ty : nat) : list text := match ty with O => [str "echo"; str "sum"] | _ => [str "sum"; str "log"] end.
Definition demo_name (ty : nat) : text := match ty with O => str "calc" | _ => str "book" end.
Definition demo_parse (ty : nat) (m : text) (q : list Z) : option (list Z) := match q with [] => None | _ => Some q end.
Definition demo_invoke (sv : nat * nat) (m : text) (q : list Z) : list Z := Z.of_nat (snd sv) :: q.

(** The last outcome of a program, if it is one. *)
Definition last_out (dec : option nat -> list Z -> option (list Z)) (os : list top) : option tout :=
  match t_run dec os ts_init with Some (_, outs) => Some (last outs TIgnored) | None => None end.

(** A sequence of sends: the answers of the two subscription checks and the message. *)
Fixpoint send_all {M : Type} (get_size : M -> nat) (serialize : M -> nat -> option (list Z)) (write : list Z -> Z)
  (xs : list (bool * bool * M)) (buf : list Z) : list pdeed * list Z :=
  match xs with
  | [] => ([], [])
  | (b1, b2, m) :: xs' =>
      let '(buf1, (ds, n)) := typed_send M get_size serialize true b1 b2 write m buf in
      let '(ds', ns) := send_all get_size serialize write xs' buf1 in (ds ++ ds', n :: ns)
  end.
(** A serializer that keeps its promises: code m is the meaning of m and has the announced size. *)
Definition honest {M : Type} (get_size : M -> nat) (serialize : M -> nat -> option (list Z)) (code : M -> list Z) : Prop :=
  forall m, get_size m = length (code m) /\ serialize m (length (code m)) = Some (code m).
(** A serializer that announces two bytes more than it writes. *)
Definition lazy_size (m : list Z) : nat := length m + 2.
Definition lazy_serialize (m : list Z) (n : nat) : option (list Z) := Some m.

(** What a caller expects from a protobuf server for service sv. *)
Definition proto_answer (methods_of : nat -> list text) (parse : nat -> text -> list Z -> option (list Z))
  (invoke : nat * nat -> text -> list Z -> list Z) (sv : nat * nat) (m : text) (q : list Z) (out : pvout) : Prop :=
  (In m (methods_of (fst sv)) ->
     out = match parse (fst sv) m q with Some x => PAnswer 0 (invoke sv m x) | None => PAnswer (-1) [] end) /\
  (~ In m (methods_of (fst sv)) -> out = PNoMethod).

(** After the creation of a server: further creations with services of the same type, destructions, requests;
    the service in charge is that of the last creation, unless Destroy came later. *)
Definition pv_same_type (ty : nat) (o : pvop) : bool :=
  match o with PCreate (Some sv) _ => Nat.eqb (fst sv) ty | PCreate None _ | PDestroy | PRequest _ _ => true | _ => false end.
Definition pv_current (sv : option (nat * nat)) (o : pvop) : option (nat * nat) :=
  match o with PCreate (Some x) _ => Some x | PDestroy => None | _ => sv end.
Definition last_answer (os : list pvop) : option pvout :=
  match pv_run demo_methods demo_name demo_parse demo_invoke os pv_init with Some (_, outs) => Some (last outs PClosed) | None => None end.
Definition adds (o : top) : bool := match o with TAdd _ _ => true | _ => false end.
(** How a dynamic object reports a message it cannot decode. *)
Definition complain (e : option nat) : tout := match e with Some e => TError e | None => TIgnored end.
(** Two arguments of examples. *)
Definition dyn_start : list top := [TInfo topic_a 1; TNew 1 KDyn topic_a; TErr 1 (Some 9); TAdd 1 7; TArrive 0 [4%Z]].
