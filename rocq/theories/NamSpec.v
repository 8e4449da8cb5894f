(** What is expected of the names of shared memory objects. *)
From Verif Require Import Base Sample NamModel.
From Verif Require MonModel.

(** Numbers: what is drawn for a file, process ids, ids of payload files. *)
Definition drawable (r : Z) : Prop := (0 <= r < 2 ^ 32)%Z.
Definition a_pid (p : Z) : Prop := (0 <= p < 2 ^ 31)%Z.
Definition an_id (i : Z) : Prop := (0 <= i < 2 ^ 64)%Z.

(** A domain is what remains of its name without leading slashes. *)
Definition bare (d b : text) : Prop := exists n, d = repeat 47%Z n ++ b /\ forall t, b <> 47%Z :: t.
Definition same_domain (d e : text) : Prop := exists b, bare d b /\ bare e b.
Definition same_file (f g : nfile) : Prop :=
  match f, g with
  | TopicFile r, TopicFile r' => r = r'
  | DomainFile d, DomainFile e => same_domain d e
  | PayloadFile d i, PayloadFile e j => same_domain d e /\ i = j
  | _, _ => False
  end.
Definition same_object (o u : nobject) : Prop :=
  match o, u with
  | TheFile f, TheFile g => same_file f g
  | TheGuard f, TheGuard g => same_file f g
  | TheSnd r p, TheSnd r' p' => r = r' /\ p = p'
  | TheAck r p, TheAck r' p' => r = r' /\ p = p'
  | TheShutdown p, TheShutdown p' => p = p'
  | _, _ => False
  end.

(** Domains that get in the way of publishers' files or of the shutdown events, and domains that
    get in the way of each other. *)
Definition hex_char (c : Z) : Prop := (48 <= c <= 57 \/ 97 <= c <= 102)%Z.
Definition reserved (b : text) : Prop :=
  b = str "ecal" \/ (exists c t, hex_char c /\ b = str "ecal_" ++ c :: t) \/ exists t, b = str "ecal_shutdown_process_" ++ t.
Definition nested (b b' : text) : Prop := exists t, b' = b ++ str "_" ++ t.
Definition good_domains (D : list text) : Prop :=
  (forall d, In d D -> exists b, bare d b /\ b <> [] /\ ~ reserved b) /\
  (forall d d' b b', In d D -> In d' D -> bare d b -> bare d' b' -> ~ nested b b').
Definition file_ok (D : list text) (f : nfile) : Prop :=
  match f with TopicFile r => drawable r | DomainFile d => In d D | PayloadFile d i => In d D /\ an_id i end.
Definition object_ok (D : list text) (o : nobject) : Prop :=
  match o with
  | TheFile f => file_ok D f
  | TheGuard f => file_ok D f
  | TheSnd r p => drawable r /\ a_pid p
  | TheAck r p => drawable r /\ a_pid p
  | TheShutdown p => a_pid p
  end.
Definition of_publisher (o : nobject) : Prop :=
  match o with
  | TheFile (TopicFile _) => True
  | TheGuard (TopicFile _) => True
  | TheFile _ => False
  | TheGuard _ => False
  | _ => True
  end.

(** The object an act is about; what has been opened and not been removed since. *)
Definition object_of (a : nact) : nobject := match a with NOpen o => o | NUnlink o => o end.
Definition acts_ok (D : list text) (l : list nact) : Prop := Forall (fun a => object_ok D (object_of a)) l.
Definition there (l : list nact) (o : nobject) : Prop :=
  exists l1 u l2, l = l1 ++ NOpen u :: l2 /\ same_object o u /\ forall v, In (NUnlink v) l2 -> ~ same_object o v.

(** The connections of a publisher's file: whether it still has a file, the number it was named by
    last, the processes connected. *)
Fixpoint alive (l : list sact) (b : bool) : bool :=
  match l with
  | [] => b
  | SRemake _ ok :: l' => alive l' (b && ok)
  | SEnd :: l' => alive l' false
  | _ :: l' => alive l' b
  end.
Fixpoint drawn (l : list sact) (r : Z) : Z :=
  match l with
  | [] => r
  | SRemake r' _ :: l' => drawn l' r'
  | _ :: l' => drawn l' r
  end.
Fixpoint joined (p : text) (l : list sact) (b : bool) : bool :=
  match l with
  | [] => b
  | SConnect q :: l' => joined p l' (b || eqb p q)
  | SDisconnect q :: l' => joined p l' (b && negb (eqb p q))
  | _ :: l' => joined p l' b
  end.

(** Examples. *)
Definition nx_domains : list text := [str "ecal_mon"; str "/test"].
Definition nx_objects : list nobject :=
  [TheFile (TopicFile 26); TheGuard (TopicFile 26); TheSnd 26 4711; TheAck 26 4711; TheShutdown 4711;
   TheFile (DomainFile (str "ecal_mon")); TheGuard (PayloadFile (str "/test") 1234567890123)].
Definition nx_run : list nact := map NOpen nx_objects ++ [NUnlink (TheSnd 26 4711); NOpen (TheAck 26 4711); NOpen (TheSnd 26 4711)].
Definition nx_life : list sact := [SConnect (str "11"); SConnect (str "12"); SRemake 255 true; SDisconnect (str "11"); SConnect (str "13")].
