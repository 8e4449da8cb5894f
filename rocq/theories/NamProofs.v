(** Proofs about the names of shared memory objects. *)
From Verif Require Import Base Sample NamModel NamSpec.
From Verif Require MonModel MonSpec MonProofs DscSpec McModel.

(** ** Numbers as text *)

Fixpoint value16 (ds : text) (a : Z) : Z :=
  match ds with [] => a | c :: ds' => value16 ds' (a * 16 + (if c <? 58 then c - 48 else c - 87))%Z end.
Lemma value16_app x y a : value16 (x ++ y) a = value16 y (value16 x a).
Proof. revert a. induction x as [|c x IH]; intros a; cbn; auto. Qed.
Lemma hex_digit_ok d : (0 <= d < 16)%Z -> hex_char (hex_digit d) /\ (if hex_digit d <? 58 then hex_digit d - 48 else hex_digit d - 87)%Z = d.
Proof.
  intros B. unfold hex_digit, hex_char. destruct (Z.ltb_spec d 10).
  - destruct (Z.ltb_spec (48 + d) 58); lia.
  - destruct (Z.ltb_spec (87 + d) 58); lia.
Qed.
Lemma hex_digits_spec fuel : forall z acc, (0 <= z < 16 ^ Z.of_nat (S fuel))%Z ->
  exists ds, hex_digits (S fuel) z acc = ds ++ acc /\ Forall hex_char ds /\ ds <> [] /\ length ds <= S fuel /\ value16 ds 0 = z.
Proof.
  induction fuel as [|fuel IH]; intros z acc B.
  - change (16 ^ Z.of_nat 1)%Z with 16%Z in B. exists [hex_digit z]. cbn [hex_digits].
    rewrite Z.mod_small, Z.div_small by lia. destruct (hex_digit_ok z ltac:(lia)) as [H V]. cbn. rewrite V.
    repeat split; auto; discriminate.
  - pose proof (Z.div_mod z 16 ltac:(lia)) as D. pose proof (Z.mod_pos_bound z 16 ltac:(lia)) as P.
    destruct (hex_digit_ok _ P) as [H V].
    cbn [hex_digits]. cbv zeta. destruct (Z.eqb_spec (z / 16) 0) as [E|E].
    + exists [hex_digit (z mod 16)]. cbn [app length value16]. rewrite V. repeat split; [constructor; auto|discriminate|lia|lia].
    + assert (0 <= z / 16 < 16 ^ Z.of_nat (S fuel))%Z as B'.
      { split; [apply Z.div_pos; lia|]. apply Z.div_lt_upper_bound; [lia|].
        replace (Z.of_nat (S (S fuel))) with (1 + Z.of_nat (S fuel))%Z in B by lia. rewrite Z.pow_add_r in B by lia. lia. }
      destruct (IH (z / 16)%Z (hex_digit (z mod 16) :: acc) B') as (ds & E1 & F & N & L & W).
      cbn [hex_digits] in E1. cbv zeta in E1. rewrite E1. exists (ds ++ [hex_digit (z mod 16)]). rewrite <- app_assoc.
      split; [reflexivity|]. split; [apply Forall_app; split; [exact F|constructor; auto]|]. split; [destruct ds; discriminate|].
      split; [rewrite app_length; cbn; lia|]. rewrite value16_app, W. cbn [value16]. rewrite V. lia.
Qed.
Definition hexa (r : Z) : text := hex_digits 8 r [].
Lemma hexa_spec r : drawable r -> Forall hex_char (hexa r) /\ hexa r <> [] /\ length (hexa r) <= 8 /\ value16 (hexa r) 0 = r.
Proof.
  intros B. unfold hexa. destruct (hex_digits_spec 7 r []) as (ds & E & F & N & L & V).
  { unfold drawable in B. change (2 ^ 32)%Z with 4294967296%Z in B. change (16 ^ Z.of_nat 8)%Z with 4294967296%Z. exact B. }
  rewrite E, app_nil_r. auto.
Qed.
Lemma hexa_inj a b : drawable a -> drawable b -> hexa a = hexa b -> a = b.
Proof. intros A B E. destruct (hexa_spec a A) as (_ & _ & _ & <-). destruct (hexa_spec b B) as (_ & _ & _ & <-). rewrite E. reflexivity. Qed.
Definition digit (c : Z) : Prop := (48 <= c <= 57)%Z.
Lemma decimal_length fuel : forall z acc, length (McModel.decimal fuel z acc) <= fuel + length acc.
Proof.
  induction fuel as [|f IH]; intros z acc; cbn [McModel.decimal]; [lia|]. cbv zeta. destruct (z / 10 =? 0)%Z; [cbn; lia|].
  specialize (IH (z / 10)%Z ((48 + z mod 10)%Z :: acc)). cbn [length] in IH. lia.
Qed.
Lemma pid_spec p : a_pid p -> Forall digit (MonModel.int_text p) /\ MonModel.int_text p <> [] /\ length (MonModel.int_text p) <= 10.
Proof.
  intros B. destruct (MonProofs.int_text_spec p) as (D & N & _); [unfold a_pid in B; change (2^31)%Z with 2147483648%Z in B; lia|].
  split; [exact D|]. split; [exact N|]. unfold MonModel.int_text. destruct (Z.ltb_spec p 0); [unfold a_pid in B; lia|].
  pose proof (decimal_length 10 p []) as L. cbn [length] in L. unfold McModel.to_string. lia.
Qed.
Lemma pid_inj p q : a_pid p -> a_pid q -> MonModel.int_text p = MonModel.int_text q -> p = q.
Proof. unfold a_pid. change (2^31)%Z with 2147483648%Z. apply MonProofs.int_text_inj. Qed.
Lemma long_spec i : an_id i -> Forall digit (long_number i) /\ long_number i <> [] /\ length (long_number i) <= 20 /\ DscSpec.decimal (long_number i) = i.
Proof.
  intros B. unfold long_number. pose proof (decimal_length 20 i []) as L. cbn [length] in L.
  destruct (MonProofs.mc_decimal_spec 19 i []) as (ds & E & F & N & V).
  { unfold an_id in B. change (10 ^ Z.of_nat 20)%Z with 100000000000000000000%Z. change (2^64)%Z with 18446744073709551616%Z in B. lia. }
  rewrite E, app_nil_r in *. split; [exact F|]. split; [exact N|]. split; [lia|]. unfold DscSpec.decimal. rewrite V. lia.
Qed.
Lemma long_inj i j : an_id i -> an_id j -> long_number i = long_number j -> i = j.
Proof. intros A B E. destruct (long_spec i A) as (_ & _ & _ & <-). destruct (long_spec j B) as (_ & _ & _ & <-). rewrite E. reflexivity. Qed.

(** ** Leading slashes *)

Lemma unslash_repeat n b : unslash (repeat 47%Z n ++ b) = unslash b.
Proof. induction n; cbn; auto. Qed.
Lemma unslash_id b : (forall t, b <> 47%Z :: t) -> unslash b = b.
Proof. destruct b as [|c b]; intros H; [reflexivity|]. cbn. destruct (Z.eqb_spec c 47) as [->|]; [destruct (H b eq_refl)|reflexivity]. Qed.
Lemma unslash_bare d : bare d (unslash d).
Proof.
  induction d as [|c d (n & E & H)]; [exists 0; split; [reflexivity|discriminate]|]. cbn [unslash]. destruct (Z.eqb_spec c 47) as [->|N].
  - exists (S n). split; [cbn; congruence|exact H].
  - exists 0. split; [reflexivity|]. intros t T. injection T as T _. auto.
Qed.
Lemma bare_iff d b : bare d b <-> unslash d = b.
Proof.
  split; [intros (n & -> & H); rewrite unslash_repeat; apply unslash_id; exact H|]. intros <-. apply unslash_bare.
Qed.
Lemma same_domain_iff d e : same_domain d e <-> unslash d = unslash e.
Proof.
  split; [intros (b & D & E); apply bare_iff in D, E; congruence|]. intros E. exists (unslash d). split; apply bare_iff; auto.
Qed.
Lemma unslash_app d s : unslash d <> [] -> unslash (d ++ s) = unslash d ++ s.
Proof. induction d as [|c d IH]; cbn; [congruence|]. destruct (c =? 47)%Z; auto. Qed.
Lemma unslash_alloc n : unslash (alloc_name n) = unslash n.
Proof. destruct n as [|c n]; [reflexivity|]. unfold alloc_name, first_char. destruct (c =? 47)%Z eqn:E; [reflexivity|]. cbn. rewrite E. reflexivity. Qed.
Lemma unslash_mutex n : unslash n <> [] -> unslash (mutex_name n) = unslash n ++ str "_mtx".
Proof.
  intros N. unfold mutex_name. destruct (first_char n =? 47)%Z; cbn [app]; [|change (unslash (47%Z :: n ++ str "_mtx")) with (unslash (n ++ str "_mtx"))]; apply unslash_app; exact N.
Qed.
Lemma unslash_event n : unslash n <> [] -> unslash (event_name n) = unslash n ++ str "_evt".
Proof.
  intros N. unfold event_name. cbv zeta. destruct (first_char (n ++ str "_evt") =? 47)%Z; [|change (unslash (47%Z :: n ++ str "_evt")) with (unslash (n ++ str "_evt"))]; apply unslash_app; exact N.
Qed.

(** ** The names as they stand in the name space *)

Definition file_text (f : nfile) : text :=
  match f with
  | TopicFile r => str "ecal_" ++ hexa r
  | DomainFile d => unslash d
  | PayloadFile d i => unslash d ++ str "_" ++ long_number i
  end.
Definition object_text (o : nobject) : text :=
  match o with
  | TheFile f => file_text f
  | TheGuard f => file_text f ++ str "_mtx"
  | TheSnd r p => str "ecal_" ++ hexa r ++ str "_" ++ MonModel.int_text p ++ str "_evt"
  | TheAck r p => str "ecal_" ++ hexa r ++ str "_" ++ MonModel.int_text p ++ str "_ack_evt"
  | TheShutdown p => str "ecal_shutdown_process_" ++ MonModel.int_text p ++ str "_evt"
  end.
Definition domains_there (D : list text) : Prop := forall d, In d D -> unslash d <> [].
Lemma file_text_spec D f : domains_there D -> file_ok D f -> unslash (file_name f) = file_text f /\ file_text f <> [].
Proof.
  intros G. destruct f as [r|d|d i]; cbn [file_ok file_name file_text].
  - intros _. split; [reflexivity|discriminate].
  - intros I. split; [reflexivity|apply G; exact I].
  - intros [I _]. unfold payload_name. rewrite unslash_app by (apply G; exact I). split; [reflexivity|]. destruct (unslash d); discriminate.
Qed.
Lemma object_text_spec D o : domains_there D -> object_ok D o -> unslash (open_name o) = object_text o.
Proof.
  intros G. destruct o as [f|f|r p|r p|p]; cbn [object_ok open_name object_text]; intros K.
  - rewrite unslash_alloc. apply (file_text_spec D); auto.
  - destruct (file_text_spec D f G K) as [E N]. rewrite unslash_mutex by congruence. congruence.
  - rewrite unslash_event by discriminate. unfold observer_snd, reader_event, random_name, topic_base. fold (hexa r).
    change (unslash ((str "ecal_" ++ hexa r) ++ str "_" ++ MonModel.int_text p)) with (str "ecal_" ++ hexa r ++ str "_" ++ MonModel.int_text p).
    rewrite <- !app_assoc. reflexivity.
  - rewrite unslash_event by discriminate. unfold observer_ack, reader_event, random_name, topic_base. fold (hexa r).
    change (unslash (((str "ecal_" ++ hexa r) ++ str "_" ++ MonModel.int_text p) ++ str "_ack")) with (str "ecal_" ++ (hexa r ++ str "_" ++ MonModel.int_text p) ++ str "_ack").
    rewrite <- !app_assoc. reflexivity.
  - rewrite unslash_event by discriminate. reflexivity.
Qed.
Lemma key_text D o k : domains_there D -> object_ok D o -> shm_key (open_name o) = Some k -> k = object_text o.
Proof.
  intros G K. unfold shm_key. cbv zeta. rewrite (object_text_spec D) by auto. destruct (_ || _); [discriminate|]. congruence.
Qed.
Lemma key_eq D o u : domains_there D -> object_ok D o -> object_ok D u -> object_text o = object_text u -> shm_key (open_name o) = shm_key (open_name u).
Proof. intros G K L E. unfold shm_key. cbv zeta. rewrite !(object_text_spec D) by auto. rewrite E. reflexivity. Qed.

(** ** Taking the names apart *)

Lemma app_cut {A} (a b s t : list A) : a ++ s = b ++ t -> (exists x, b = a ++ x /\ s = x ++ t) \/ (exists x, a = b ++ x /\ t = x ++ s).
Proof.
  revert b. induction a as [|c a IH]; intros b; cbn; [intros ->; left; exists b; auto|].
  destruct b as [|c' b]; cbn; [intros <-; right; exists (c :: a); auto|].
  intros E. injection E as -> E. apply IH in E as [(x & -> & E)|(x & -> & E)]; [left|right]; exists x; auto.
Qed.
Definition ends_run (P : Z -> Prop) (s : text) : Prop := match s with [] => True | c :: _ => ~ P c end.
Lemma run_cut (P : Z -> Prop) h s h' s' : Forall P h -> Forall P h' -> ends_run P s -> ends_run P s' ->
  h ++ s = h' ++ s' -> h = h' /\ s = s'.
Proof.
  intros F. revert h'. induction F as [|c h Pc F IH]; intros h' F' N N' E; destruct F' as [|c' h' Pc' F']; cbn in *; auto.
  - subst s. destruct N; auto.
  - subst s'. destruct N'; auto.
  - injection E as -> E. apply IH in E as [-> ->]; auto.
Qed.
Lemma hex_of_digits ds : Forall digit ds -> Forall hex_char ds.
Proof. apply Forall_impl. unfold digit, hex_char. lia. Qed.

(** What may follow the hexadecimal number of a publisher's file, and what may follow a domain. *)
Inductive tail := TNone | TMtx | TSnd (p : Z) | TAck (p : Z).
Definition tail_text (t : tail) : text :=
  match t with
  | TNone => []
  | TMtx => str "_mtx"
  | TSnd p => str "_" ++ MonModel.int_text p ++ str "_evt"
  | TAck p => str "_" ++ MonModel.int_text p ++ str "_ack_evt"
  end.
Definition tail_ok (t : tail) : Prop := match t with TSnd p => a_pid p | TAck p => a_pid p | _ => True end.
Ltac lit := vm_compute; intuition congruence.
Lemma pid_head p : a_pid p -> exists d ds, MonModel.int_text p = d :: ds /\ digit d.
Proof. intros B. destruct (pid_spec p B) as (F & N & _). destruct (MonModel.int_text p) as [|d ds]; [congruence|]. inversion F. eauto. Qed.
Lemma long_head i : an_id i -> exists d ds, long_number i = d :: ds /\ digit d.
Proof. intros B. destruct (long_spec i B) as (F & N & _). destruct (long_number i) as [|d ds]; [congruence|]. inversion F. eauto. Qed.
Lemma tail_inj t u : tail_ok t -> tail_ok u -> tail_text t = tail_text u -> t = u.
Proof.
  intros A B. destruct t as [| |p|p], u as [| |q|q]; cbn [tail_text tail_ok] in *; try reflexivity; try discriminate.
  - destruct (pid_head q B) as (d & ds & -> & Hd). cbn. intros E. injection E as E _. unfold digit in Hd. lia.
  - destruct (pid_head q B) as (d & ds & -> & Hd). cbn. intros E. injection E as E _. unfold digit in Hd. lia.
  - destruct (pid_head p A) as (d & ds & -> & Hd). cbn. intros E. injection E as E _. unfold digit in Hd. lia.
  - intros E. apply app_inv_head in E. apply (run_cut digit) in E; [|apply pid_spec; auto|apply pid_spec; auto|lit|lit].
    destruct E as [E _]. apply pid_inj in E; auto. congruence.
  - intros E. apply app_inv_head in E. apply (run_cut digit) in E; [|apply pid_spec; auto|apply pid_spec; auto|lit|lit].
    destruct E as [_ E]. discriminate.
  - destruct (pid_head p A) as (d & ds & -> & Hd). cbn. intros E. injection E as E _. unfold digit in Hd. lia.
  - intros E. apply app_inv_head in E. apply (run_cut digit) in E; [|apply pid_spec; auto|apply pid_spec; auto|lit|lit].
    destruct E as [_ E]. discriminate.
  - intros E. apply app_inv_head in E. apply (run_cut digit) in E; [|apply pid_spec; auto|apply pid_spec; auto|lit|lit].
    destruct E as [E _]. apply pid_inj in E; auto. congruence.
Qed.
Inductive dtail := DNone | DMtx | DLong (i : Z) | DLongMtx (i : Z).
Definition dtail_text (t : dtail) : text :=
  match t with
  | DNone => []
  | DMtx => str "_mtx"
  | DLong i => str "_" ++ long_number i
  | DLongMtx i => str "_" ++ long_number i ++ str "_mtx"
  end.
Definition dtail_ok (t : dtail) : Prop := match t with DLong i => an_id i | DLongMtx i => an_id i | _ => True end.
Lemma dtail_inj t u : dtail_ok t -> dtail_ok u -> dtail_text t = dtail_text u -> t = u.
Proof.
  intros A B. destruct t as [| |p|p], u as [| |q|q]; cbn [dtail_text dtail_ok] in *; try reflexivity; try discriminate.
  - destruct (long_head q B) as (d & ds & -> & Hd). cbn. intros E. injection E as E _. unfold digit in Hd. lia.
  - destruct (long_head q B) as (d & ds & -> & Hd). cbn. intros E. injection E as E _. unfold digit in Hd. lia.
  - destruct (long_head p A) as (d & ds & -> & Hd). cbn. intros E. injection E as E _. unfold digit in Hd. lia.
  - intros E. apply app_inv_head in E. apply long_inj in E; auto. congruence.
  - intros E. apply app_inv_head in E. rewrite <- (app_nil_r (long_number p)) in E. apply (run_cut digit) in E; [|apply long_spec; auto|apply long_spec; auto|exact Logic.I|lit].
    destruct E as [_ E]. discriminate.
  - destruct (long_head p A) as (d & ds & -> & Hd). cbn. intros E. injection E as E _. unfold digit in Hd. lia.
  - intros E. apply app_inv_head in E. rewrite <- (app_nil_r (long_number q)) in E. apply (run_cut digit) in E; [|apply long_spec; auto|apply long_spec; auto|lit|exact Logic.I].
    destruct E as [_ E]. discriminate.
  - intros E. apply app_inv_head in E. apply (run_cut digit) in E; [|apply long_spec; auto|apply long_spec; auto|lit|lit].
    destruct E as [E _]. apply long_inj in E; auto. congruence.
Qed.

(** The three families. *)
Inductive shape := HTopic (r : Z) (t : tail) | HDomain (b : text) (t : dtail) | HShut (p : Z).
Definition shape_text (h : shape) : text :=
  match h with
  | HTopic r t => str "ecal_" ++ hexa r ++ tail_text t
  | HDomain b t => b ++ dtail_text t
  | HShut p => str "ecal_shutdown_process_" ++ MonModel.int_text p ++ str "_evt"
  end.
Definition shape_of (o : nobject) : shape :=
  match o with
  | TheFile (TopicFile r) => HTopic r TNone
  | TheGuard (TopicFile r) => HTopic r TMtx
  | TheSnd r p => HTopic r (TSnd p)
  | TheAck r p => HTopic r (TAck p)
  | TheFile (DomainFile d) => HDomain (unslash d) DNone
  | TheGuard (DomainFile d) => HDomain (unslash d) DMtx
  | TheFile (PayloadFile d i) => HDomain (unslash d) (DLong i)
  | TheGuard (PayloadFile d i) => HDomain (unslash d) (DLongMtx i)
  | TheShutdown p => HShut p
  end.
Definition shape_ok (B : text -> Prop) (h : shape) : Prop :=
  match h with HTopic r t => drawable r /\ tail_ok t | HDomain b t => B b /\ dtail_ok t | HShut p => a_pid p end.
Definition bares (D : list text) (b : text) : Prop := exists d, In d D /\ b = unslash d.
Lemma shape_text_spec o : shape_text (shape_of o) = object_text o.
Proof.
  destruct o as [[r|d|d i]|[r|d|d i]|r p|r p|p]; cbn [shape_of shape_text object_text file_text tail_text dtail_text]; rewrite ?app_nil_r, <- ?app_assoc; reflexivity.
Qed.
Lemma shape_of_ok D o : object_ok D o -> shape_ok (bares D) (shape_of o).
Proof. destruct o as [[r|d|d i]|[r|d|d i]|r p|r p|p]; cbn; unfold bares; intuition eauto. Qed.
Lemma shape_same o u : shape_of o = shape_of u <-> same_object o u.
Proof.
  destruct o as [[r|d|d i]|[r|d|d i]|r p|r p|p], u as [[r'|d'|d' i']|[r'|d'|d' i']|r' p'|r' p'|p']; cbn; rewrite ?same_domain_iff;
    split; intros H; try discriminate H; try contradiction; try (injection H; intros; subst; auto); try (destruct H; congruence); try congruence.
Qed.
Lemma dtail_head u c x : dtail_text u = c :: x -> c = 95%Z.
Proof. destruct u as [| |i|i]; cbn [dtail_text]; [discriminate| | |]; intros E; injection E as <- _; reflexivity. Qed.
Lemma reserved_topic b r t u : drawable r -> dtail_ok u -> str "ecal_" ++ hexa r ++ tail_text t = b ++ dtail_text u -> reserved b.
Proof.
  intros R U E. destruct (hexa_spec r R) as (F & N & _). destruct (hexa r) as [|c h]; [congruence|]. inversion F as [|? ? Hc ?]; subst.
  change (str "ecal_" ++ (c :: h) ++ tail_text t) with ((str "ecal_" ++ [c]) ++ h ++ tail_text t) in E.
  apply app_cut in E as [(x & -> & _)|(x & E1 & E2)].
  - right. left. exists c, x. split; [exact Hc|]. rewrite <- app_assoc. reflexivity.
  - destruct x as [|c' x].
    + rewrite app_nil_r in E1. right. left. exists c, []. auto.
    + assert (c' = 95%Z) as -> by exact (dtail_head u _ _ E2).
      assert (hex_char 95 -> False) as N95 by (unfold hex_char; lia).
      destruct b as [|b0 [|b1 [|b2 [|b3 [|b4 [|b5 [|b6 b]]]]]]]; cbn in E1; try discriminate; injection E1; intros; subst; try (exfalso; auto; fail).
      left. reflexivity.
      all: try (destruct b; discriminate).
Qed.
Lemma reserved_shut b p u : a_pid p -> dtail_ok u -> str "ecal_shutdown_process_" ++ MonModel.int_text p ++ str "_evt" = b ++ dtail_text u -> reserved b.
Proof.
  intros P U E. apply app_cut in E as [(x & -> & _)|(x & E1 & E2)]; [right; right; exists x; reflexivity|].
  destruct x as [|c x]; [rewrite app_nil_r in E1; right; right; exists []; rewrite app_nil_r; auto|].
  assert (c = 95%Z) as -> by exact (dtail_head u _ _ E2).
  assert (b = str "ecal" \/ (b = str "ecal_shutdown" /\ x = str "process_") \/ (b = str "ecal_shutdown_process" /\ x = [])) as [->|[[-> ->]|[-> ->]]].
  { clear E2. do 23 (destruct b as [|? b]; [cbn in E1; try discriminate E1; injection E1; intros; subst; cbn; auto; fail|]).
    exfalso. apply (f_equal (@length Z)) in E1. rewrite app_length in E1. cbn in E1. lia. }
  - left. reflexivity.
  - exfalso. destruct u as [| |i|i]; cbn [dtail_text dtail_ok] in E2, U; try discriminate E2;
      destruct (long_head i U) as (d & ds & Q & Hd); rewrite Q in E2; cbn in E2; injection E2 as E2 _; unfold digit in Hd; lia.
  - exfalso. destruct (pid_spec p P) as (F & N & _). destruct u as [| |i|i]; cbn [dtail_text dtail_ok] in E2, U; try discriminate E2.
    + destruct (pid_head p P) as (d & ds & Q & Hd); rewrite Q in E2; cbn in E2; injection E2 as E2 _; unfold digit in Hd; lia.
    + change (str "_" ++ long_number i = str "_" ++ MonModel.int_text p ++ str "_evt") in E2. apply app_inv_head in E2.
      rewrite <- (app_nil_r (long_number i)) in E2. apply (run_cut digit) in E2; [|apply long_spec; auto|auto|exact Logic.I|lit]. destruct E2; discriminate.
    + change (str "_" ++ long_number i ++ str "_mtx" = str "_" ++ MonModel.int_text p ++ str "_evt") in E2. apply app_inv_head in E2.
      apply (run_cut digit) in E2; [|apply long_spec; auto|auto|lit|lit]. destruct E2; discriminate.
Qed.
Lemma tail_ends t : ends_run hex_char (tail_text t).
Proof. destruct t; lit. Qed.
Lemma domain_cut b b' t u : ~ nested b b' -> ~ nested b' b -> b ++ dtail_text t = b' ++ dtail_text u -> b = b' /\ dtail_text t = dtail_text u.
Proof.
  intros N N' E. apply app_cut in E as [(x & -> & E)|(x & -> & E)].
  - destruct x as [|c x]; [rewrite app_nil_r; auto|]. exfalso. apply N. exists x.
    assert (c = 95%Z) as -> by exact (dtail_head t _ _ E). reflexivity.
  - destruct x as [|c x]; [rewrite app_nil_r; auto|]. exfalso. apply N'. exists x.
    assert (c = 95%Z) as -> by exact (dtail_head u _ _ E). reflexivity.
Qed.
Lemma shape_inj (B : text -> Prop) h k : (forall b, B b -> ~ reserved b) -> (forall b b', B b -> B b' -> ~ nested b b') ->
  shape_ok B h -> shape_ok B k -> shape_text h = shape_text k -> h = k.
Proof.
  intros R N. destruct h as [r t|b t|p], k as [r' t'|b' t'|p']; cbn [shape_ok shape_text]; intros H K E.
  - apply app_inv_head in E. destruct H as [H T], K as [K T']. apply (run_cut hex_char) in E; [|apply hexa_spec; auto|apply hexa_spec; auto|apply tail_ends|apply tail_ends].
    destruct E as [E1 E2]. apply hexa_inj in E1; auto. apply tail_inj in E2; auto. congruence.
  - exfalso. destruct H, K as [Bb ?]. apply (R b' Bb). eapply reserved_topic; eauto.
  - exfalso. destruct H as [H _]. destruct (hexa_spec r H) as (F & N0 & _). destruct (hexa r) as [|c h]; [congruence|].
    inversion F as [|? ? Hc ?]; subst. injection E; intros; subst c. unfold hex_char in Hc. lia.
  - exfalso. destruct K, H as [Bb ?]. apply (R b Bb). eapply reserved_topic; eauto.
  - destruct H as [H T], K as [K T']. apply domain_cut in E as [-> E]; auto. apply dtail_inj in E; auto. congruence.
  - exfalso. destruct H as [H T]. apply (R b H). eapply reserved_shut; eauto.
  - exfalso. destruct K as [K _]. destruct (hexa_spec r' K) as (F & N0 & _). destruct (hexa r') as [|c h]; [congruence|].
    inversion F as [|? ? Hc ?]; subst. injection E; intros; subst c. unfold hex_char in Hc. lia.
  - exfalso. destruct K as [K T]. apply (R b' K). eapply reserved_shut; eauto.
  - apply app_inv_head in E. apply app_inv_tail in E. apply pid_inj in E; auto. congruence.
Qed.

Lemma good_there D : good_domains D -> domains_there D.
Proof. intros [G _] d I. destruct (G d I) as (b & Hb & N & _). apply bare_iff in Hb. congruence. Qed.
Lemma text_inj D o u : good_domains D -> object_ok D o -> object_ok D u -> (object_text o = object_text u <-> same_object o u).
Proof.
  intros [G1 G2] K L. rewrite <- shape_same, <- !shape_text_spec. split; [|congruence].
  apply (shape_inj (bares D)); [| |apply shape_of_ok; auto|apply shape_of_ok; auto].
  - intros b (d & I & ->). destruct (G1 d I) as (b & Hb & _ & R). apply bare_iff in Hb. congruence.
  - intros b b' (d & I & ->) (d' & I' & ->). apply (G2 d d'); auto; apply unslash_bare.
Qed.
Lemma distinct_lemma D o u k : good_domains D -> object_ok D o -> object_ok D u ->
  shm_key (open_name o) = Some k -> (shm_key (open_name u) = Some k <-> same_object o u).
Proof.
  intros G K L E. pose proof (good_there D G) as T. rewrite <- (text_inj D) by auto. split.
  - intros E'. apply (key_text D) in E; auto. apply (key_text D) in E'; auto. congruence.
  - intros Q. rewrite <- E. symmetry. apply (key_eq D); auto.
Qed.

(** ** Names that can be opened *)

Definition slashless (s : text) : Prop := Forall (fun c => c <> 47%Z) s.
Lemma slashless_spec s : slashless s -> existsb (Z.eqb 47) s = false.
Proof.
  induction 1 as [|c s N _ IH]; [reflexivity|]. cbn [existsb]. rewrite IH, orb_false_r. apply Z.eqb_neq. congruence.
Qed.
Lemma valid_key n : unslash n <> [] -> slashless (unslash n) -> length (unslash n) < 255 -> shm_key n = Some (unslash n).
Proof.
  intros N F L. unfold shm_key. cbv zeta. rewrite slashless_spec by exact F. destruct (Nat.ltb_spec (length (unslash n)) 255); [|lia].
  destruct (unslash n); [congruence|reflexivity].
Qed.
Lemma slashless_hex ds : Forall hex_char ds -> slashless ds.
Proof. apply Forall_impl. unfold hex_char. lia. Qed.
Lemma slashless_digits ds : Forall digit ds -> slashless ds.
Proof. apply Forall_impl. unfold digit. lia. Qed.
Lemma slashless_app a b : slashless a -> slashless b -> slashless (a ++ b).
Proof. intros A B. apply Forall_app. split; assumption. Qed.
Ltac plain := repeat (apply Forall_cons; [vm_compute; discriminate|]); apply Forall_nil.
Lemma publisher_key_lemma D o : of_publisher o -> object_ok D o -> shm_key (open_name o) = Some (object_text o).
Proof.
  intros P K. assert (object_ok [] o) as K' by (destruct o as [[]|[]| | |]; cbn in *; auto; contradiction).
  assert (domains_there []) as T by (intros d []). pose proof (object_text_spec [] o T K') as E. rewrite <- E. apply valid_key; rewrite E.
  - destruct o as [[]|[]| | |]; cbn in P |- *; try contradiction; discriminate.
  - destruct o as [[r|d|d i]|[r|d|d i]|r p|r p|p]; cbn [of_publisher object_ok file_ok object_text file_text] in *; try contradiction;
      repeat apply slashless_app; try (apply slashless_hex; apply hexa_spec; intuition auto); try (apply slashless_digits; apply pid_spec; intuition auto); plain.
  - assert (forall r, drawable r -> length (hexa r) <= 8) as Lh by (intros r R; apply hexa_spec; exact R).
    assert (forall p, a_pid p -> length (MonModel.int_text p) <= 10) as Lp by (intros p R; apply pid_spec; exact R).
    destruct o as [[r|d|d i]|[r|d|d i]|r p|r p|p]; cbn [of_publisher object_ok file_ok object_text file_text] in *; try contradiction;
      try destruct K as [K1 K2]; rewrite !app_length;
      repeat match goal with H : drawable ?r |- _ => pose proof (Lh r H); clear H end; repeat match goal with H : a_pid ?p |- _ => pose proof (Lp p H); clear H end;
      repeat match goal with |- context [length (str ?s)] => let n := eval vm_compute in (length (str s)) in change (length (str s)) with n end; lia.
Qed.
Lemma domain_key_lemma d b i f : bare d b -> b <> [] -> ~ In 47%Z b -> length b < 230 -> an_id i ->
  In f [DomainFile d; PayloadFile d i] -> shm_key (open_name (TheFile f)) <> None /\ shm_key (open_name (TheGuard f)) <> None.
Proof.
  intros Hb N S L A I. apply bare_iff in Hb. assert (domains_there [d]) as T by (intros x [<-|[]]; congruence).
  assert (slashless b) as Sb by (apply Forall_forall; intros c Ic ->; auto).
  destruct (long_spec i A) as (F & _ & Li & _). apply slashless_digits in F.
  assert (file_ok [d] f) as K by (destruct I as [<-|[<-|[]]]; cbn; auto).
  pose proof (object_text_spec [d] (TheFile f) T K) as E1. pose proof (object_text_spec [d] (TheGuard f) T K) as E2.
  split.
  - rewrite valid_key; [discriminate| | |]; rewrite E1; destruct I as [<-|[<-|[]]]; cbn [object_text file_text]; rewrite Hb; auto.
    + destruct b; discriminate.
    + repeat apply slashless_app; auto; plain.
    + lia.
    + rewrite !app_length. change (length (str "_")) with 1. lia.
  - rewrite valid_key; [discriminate| | |]; rewrite E2; destruct I as [<-|[<-|[]]]; cbn [object_text file_text]; rewrite Hb; auto.
    + destruct b; discriminate.
    + destruct b; discriminate.
    + repeat apply slashless_app; auto; plain.
    + repeat apply slashless_app; auto; plain.
    + rewrite !app_length. change (length (str "_mtx")) with 4. lia.
    + rewrite !app_length. change (length (str "_")) with 1. change (length (str "_mtx")) with 4. lia.
Qed.
Lemma decimal_grows fuel : forall z acc, length (McModel.decimal fuel z acc) >= length acc.
Proof.
  induction fuel as [|f IH]; intros z a; cbn [McModel.decimal]; [lia|]. cbv zeta.
  destruct (z / 10 =? 0)%Z; [cbn; lia|]. specialize (IH (z / 10)%Z ((48 + z mod 10)%Z :: a)). cbn [length] in IH. lia.
Qed.
Lemma decimal_min fuel : forall k z acc, (10 ^ Z.of_nat k <= z)%Z -> k < fuel -> length (McModel.decimal fuel z acc) > k + length acc.
Proof.
  induction fuel as [|f IH]; intros k z acc B L; [lia|]. cbn [McModel.decimal]. cbv zeta.
  destruct k as [|k].
  - destruct (z / 10 =? 0)%Z; [cbn; lia|]. pose proof (decimal_grows f (z / 10) ((48 + z mod 10)%Z :: acc)) as H. cbn [length] in H. lia.
  - replace (Z.of_nat (S k)) with (1 + Z.of_nat k)%Z in B by lia. rewrite Z.pow_add_r in B by lia. change (10 ^ 1)%Z with 10%Z in B.
    assert (10 ^ Z.of_nat k <= z / 10)%Z as B' by (apply Z.div_le_lower_bound; lia).
    pose proof (Z.pow_pos_nonneg 10 (Z.of_nat k) ltac:(lia) ltac:(lia)).
    destruct (Z.eqb_spec (z / 10) 0) as [E|E]; [lia|]. specialize (IH k (z / 10)%Z ((48 + z mod 10)%Z :: acc) B' ltac:(lia)). cbn [length] in IH. lia.
Qed.
Lemma long_domain_lemma : exists d, shm_key (open_name (TheFile (DomainFile d))) <> None /\ shm_key (open_name (TheGuard (DomainFile d))) <> None /\
  forall i, an_id i -> (1000000000 <= i)%Z -> shm_key (open_name (TheFile (PayloadFile d i))) = None.
Proof.
  exists (repeat 120%Z 245). split; [discriminate|]. split; [discriminate|]. intros i A L.
  assert (domains_there [repeat 120%Z 245]) as T by (intros x [<-|[]]; discriminate).
  unfold shm_key. cbv zeta. rewrite (object_text_spec [repeat 120%Z 245]) by (cbn [object_ok file_ok]; auto with datatypes).
  pose proof (decimal_min 20 9 i [] L ltac:(lia)) as M. cbn [length] in M.
  cbn [object_text file_text]. change (unslash (repeat 120%Z 245)) with (repeat 120%Z 245).
  destruct (Nat.ltb_spec (length (repeat 120%Z 245 ++ str "_" ++ long_number i)) 255) as [Q|Q]; [|rewrite !orb_true_r; reflexivity].
  exfalso. rewrite !app_length, repeat_length in Q. change (length (str "_")) with 1 in Q. unfold long_number in Q. lia.
Qed.

(** ** The name space *)

Lemma same_object_refl o : same_object o o.
Proof. apply shape_same. reflexivity. Qed.
Lemma n_run_app l : forall m s, n_run (l ++ m) s = let (s', x) := n_run l s in let (s'', y) := n_run m s' in (s'', x ++ y).
Proof.
  induction l as [|a l IH]; intros m s; cbn [n_run app]; [destruct (n_run m s); reflexivity|].
  destruct (n_step a s) as [s1 x1]. rewrite IH. destruct (n_run l s1) as [s2 x2]. destruct (n_run m s2) as [s3 x3]. reflexivity.
Qed.
(** Names in the space are the names of the objects they were made as. *)
Record tagged (D : list text) (l : list nact) (s : space) : Prop := {
  tg_nodup : NoDup (keys s);
  tg_name : forall k x, aget k s = Some x -> object_ok D x /\ shm_key (open_name x) = Some k;
  tg_there : forall o k, object_ok D o -> shm_key (open_name o) = Some k -> (aget k s <> None <-> there l o)
}.
Lemma there_snoc l a o : there (l ++ [a]) o <->
  match a with NOpen u => there l o \/ same_object o u | NUnlink u => there l o /\ ~ same_object o u end.
Proof.
  split.
  - intros (l1 & u & l2 & E & S & N). destruct l2 as [|b l2 _] using rev_ind.
    + apply app_inj_tail in E as [-> ->]. auto.
    + rewrite app_comm_cons, app_assoc in E. apply app_inj_tail in E as [-> ->].
      assert (there (l1 ++ NOpen u :: l2) o) as T by (exists l1, u, l2; repeat split; auto; intros v I; apply N, in_or_app; auto).
      destruct b as [v|v]; [auto|]. split; [exact T|]. apply N, in_or_app. right. left. reflexivity.
  - destruct a as [v|v].
    + intros [(l1 & u & l2 & -> & S & N)|S].
      * exists l1, u, (l2 ++ [NOpen v]). rewrite <- app_assoc. repeat split; auto. intros w I. apply in_app_or in I as [I|[I|[]]]; [auto|discriminate].
      * exists l, v, []. repeat split; auto.
    + intros [(l1 & u & l2 & -> & S & N) M]. exists l1, u, (l2 ++ [NUnlink v]). rewrite <- app_assoc. repeat split; auto.
      intros w I. apply in_app_or in I as [I|[I|[]]]; [auto|]. injection I as <-. exact M.
Qed.
Lemma tagged_step D l a s : good_domains D -> object_ok D (object_of a) -> tagged D l s -> tagged D (l ++ [a]) (fst (n_step a s)).
Proof.
  intros G K [T1 T2 T3]. pose proof (fun o u k => distinct_lemma D o u k G) as Dd.
  destruct a as [v|v]; cbn [n_step object_of] in *; destruct (shm_key (open_name v)) as [kv|] eqn:Ev.
  - destruct (aget kv s) as [x|] eqn:Ex; cbn [fst].
    + split; auto. intros o k Ko Ek. rewrite there_snoc, (T3 o k Ko Ek). split; [auto|]. intros [H|H]; [exact H|].
      apply (T3 o k Ko Ek). assert (shm_key (open_name v) = Some k) as Q by (apply (Dd o v k); auto). congruence.
    + split; [apply nodup_aset; exact T1| |].
      * intros k x. rewrite aget_aset. destruct (eqb k kv) eqn:Q; [apply eqb_true in Q; subst; intros H; injection H as <-; auto|apply T2].
      * intros o k Ko Ek. rewrite there_snoc, aget_aset. destruct (eqb k kv) eqn:Q.
        -- apply eqb_true in Q; subst. split; [intros _; right|discriminate]. apply (Dd o v kv); auto.
        -- rewrite (T3 o k Ko Ek). split; [auto|]. intros [H|H]; [exact H|]. exfalso.
           assert (shm_key (open_name v) = Some k) as E by (apply (Dd o v k); auto). apply eqb_false in Q. congruence.
  - cbn [fst]. split; auto. intros o k Ko Ek. rewrite there_snoc, (T3 o k Ko Ek). split; [auto|]. intros [H|H]; [exact H|]. exfalso.
    assert (shm_key (open_name v) = Some k) as E by (apply (Dd o v k); auto). congruence.
  - cbn [fst]. split; [apply nodup_adel; exact T1| |].
    + intros k x. rewrite aget_adel. destruct (eqb k kv); [discriminate|apply T2].
    + intros o k Ko Ek. rewrite there_snoc, aget_adel. destruct (eqb k kv) eqn:Q.
      * apply eqb_true in Q; subst. split; [congruence|]. intros [_ H]. exfalso. apply H. apply (Dd o v kv); auto.
      * rewrite (T3 o k Ko Ek). split; [|intros [H _]; exact H]. intros H. split; [exact H|]. intros M.
        assert (shm_key (open_name v) = Some k) as E by (apply (Dd o v k); auto). apply eqb_false in Q. congruence.
  - cbn [fst]. split; auto. intros o k Ko Ek. rewrite there_snoc, (T3 o k Ko Ek). split; [|intros [H _]; exact H]. intros H. split; [exact H|].
    intros M. assert (shm_key (open_name v) = Some k) as E by (apply (Dd o v k); auto). congruence.
Qed.
Lemma tagged_run D l : good_domains D -> acts_ok D l -> tagged D l (fst (n_run l [])).
Proof.
  intros G. induction l as [|a l IH] using rev_ind; intros A.
  - cbn. split; [constructor|discriminate|]. intros o k _ _. split; [cbn; congruence|]. intros (l1 & u & l2 & E & _). destruct l1; discriminate.
  - apply Forall_app in A as [A Aa]. inversion Aa as [|? ? Ka _]; subst. specialize (IH A). rewrite n_run_app.
    destruct (n_run l []) as [s x] eqn:E. cbn [fst] in IH. cbn [n_run]. pose proof (tagged_step D l a s G Ka IH) as T.
    destruct (n_step a s) as [s' y]. exact T.
Qed.
Lemma opened_lemma D l o : good_domains D -> acts_ok D l -> object_ok D o -> shm_key (open_name o) <> None ->
  let a := snd (n_step (NOpen o) (fst (n_run l []))) in
  (there l o -> exists u, a = NFound u /\ same_object o u) /\ (~ there l o -> a = NMade).
Proof.
  intros G A K V. pose proof (tagged_run D l G A) as [T1 T2 T3]. cbn [n_step]. destruct (shm_key (open_name o)) as [k|] eqn:E; [|congruence].
  specialize (T3 o k K E). destruct (aget k (fst (n_run l []))) as [x|] eqn:Q; cbn [snd].
  - destruct (T2 k x Q) as [Kx Ex]. split; [|intros N; exfalso; apply N, T3; discriminate]. intros _. exists x. split; [reflexivity|].
    apply (distinct_lemma D o x k); auto.
  - split; [|reflexivity]. intros H. apply T3 in H. congruence.
Qed.

(** ** The numbers drawn *)

Lemma draw_lemma b r r' : drawable r -> drawable r' -> (random_name b r = random_name b r' <-> r = r').
Proof. intros R R'. split; [|congruence]. unfold random_name. intros E. apply app_inv_head in E. apply hexa_inj; auto. Qed.
Lemma limit_lemma b rs : Forall drawable rs -> NoDup (map (random_name b) rs) -> (Z.of_nat (length rs) <= 2 ^ 32)%Z.
Proof.
  intros F N. apply NoDup_map_inv in N. unfold drawable in F. assert (0 < 2 ^ 32)%Z as P by reflexivity. revert F P. generalize (2 ^ 32)%Z. intros n F P.
  pose proof (NoDup_incl_length (l' := map Z.of_nat (seq 0 (Z.to_nat n))) N) as L. rewrite map_length, seq_length in L.
  assert (incl rs (map Z.of_nat (seq 0 (Z.to_nat n)))) as I.
  { intros r Ir. rewrite Forall_forall in F. destruct (F r Ir) as [F1 F2]. apply in_map_iff. exists (Z.to_nat r). split; [lia|]. apply in_seq. lia. }
  specialize (L I). lia.
Qed.

(** ** Connections *)

Record linked (r0 : Z) (ok : bool) (l : list sact) (s : sfile) : Prop := {
  lk_made : sf_made s = alive l ok;
  lk_base : sf_base s = topic_base;
  lk_dead : sf_made s = false -> sf_conn s = [];
  lk_name : sf_made s = true -> sf_name s = random_name topic_base (drawn l r0);
  lk_conn : forall p x, aget p (sf_conn s) = Some x -> x = (writer_snd (sf_name s) p, writer_ack (sf_name s) p);
  lk_keys : sf_made s = true -> forall p, In p (keys (sf_conn s)) <-> joined p l false = true;
  lk_nodup : NoDup (keys (sf_conn s))
}.
Lemma alive_snoc l a : forall b, alive (l ++ [a]) b = match a with SRemake _ ok => alive l b && ok | SEnd => false | _ => alive l b end.
Proof.
  induction l as [|x l IH]; intros b; [destruct a; reflexivity|]. cbn [app alive]. destruct x; rewrite IH; reflexivity.
Qed.
Lemma drawn_snoc l a : forall r, drawn (l ++ [a]) r = match a with SRemake r' _ => r' | _ => drawn l r end.
Proof. induction l as [|x l IH]; intros b; [destruct a; reflexivity|]. cbn [app drawn]. destruct x; rewrite IH; reflexivity. Qed.
Lemma joined_snoc p l a : forall b, joined p (l ++ [a]) b =
  match a with SConnect q => joined p l b || eqb p q | SDisconnect q => joined p l b && negb (eqb p q) | _ => joined p l b end.
Proof. induction l as [|x l IH]; intros b; [destruct a; reflexivity|]. cbn [app joined]. destruct x; rewrite IH; reflexivity. Qed.
(** Connecting a list of processes to a file that is there. *)
Lemma connect_all ids : forall s, sf_made s = true -> NoDup (keys (sf_conn s)) ->
  (forall p x, aget p (sf_conn s) = Some x -> x = (writer_snd (sf_name s) p, writer_ack (sf_name s) p)) ->
  let s' := fold_left (fun s p => sf_connect p s) ids s in
  sf_made s' = true /\ sf_base s' = sf_base s /\ sf_name s' = sf_name s /\ NoDup (keys (sf_conn s')) /\
  (forall p x, aget p (sf_conn s') = Some x -> x = (writer_snd (sf_name s) p, writer_ack (sf_name s) p)) /\
  (forall p, In p (keys (sf_conn s')) <-> In p (keys (sf_conn s)) \/ In p ids).
Proof.
  induction ids as [|q ids IH]; intros s M N C; cbn [fold_left].
  - repeat split; auto. intros [H|[]]; exact H.
  - destruct (IH (sf_connect q s)) as (I1 & I2 & I3 & I4 & I5 & I6).
    + unfold sf_connect. rewrite M. destruct (amem q (sf_conn s)); auto.
    + unfold sf_connect. rewrite M. destruct (amem q (sf_conn s)); auto. apply nodup_aset. exact N.
    + unfold sf_connect. rewrite M. destruct (amem q (sf_conn s)); auto. cbn [sf_conn sf_name]. intros p x. rewrite aget_aset. destruct (eqb p q) eqn:Q; [|apply C].
      apply eqb_true in Q; subst. intros H; injection H as <-; reflexivity.
    + assert (sf_name (sf_connect q s) = sf_name s /\ sf_base (sf_connect q s) = sf_base s) as [E1 E2] by (unfold sf_connect; rewrite M; destruct (amem q (sf_conn s)); auto).
      rewrite E1, E2 in *. repeat split; auto.
      * intros H. apply I6 in H as [H|H]; [|right; right; exact H]. revert H. unfold sf_connect. rewrite M.
        destruct (amem q (sf_conn s)); [auto|]. cbn. intros H. apply keys_aset_incl in H as [H|H]; [right; left; auto|auto].
      * intros H. apply I6. unfold sf_connect. rewrite M. destruct (amem q (sf_conn s)) eqn:Q.
        -- apply amem_spec in Q as [v Q]. apply aget_in_keys in Q. destruct H as [H|[<-|H]]; auto.
        -- cbn [sf_conn]. rewrite keys_aset_incl. destruct H as [H|[<-|H]]; auto.
Qed.

Lemma linked_new r ok : linked r ok [] (sf_new topic_base r ok).
Proof. split; cbn; auto; try discriminate; [|constructor]. intros _ p. split; [contradiction|discriminate]. Qed.
Lemma linked_step r ok l a s : linked r ok l s -> linked r ok (l ++ [a]) (sf_step a s).
Proof.
  intros [L1 L2 L3 L4 L5 L6 L7]. destruct a as [p|p|r' ok'|]; cbn [sf_step].
  - unfold sf_connect. destruct (sf_made s) eqn:M.
    + destruct (amem p (sf_conn s)) eqn:Q.
      * split; rewrite ?alive_snoc, ?drawn_snoc; auto; [congruence|congruence|]. intros _ q. rewrite joined_snoc, L6 by auto. rewrite orb_true_iff. split; [auto|].
        intros [H|H]; [exact H|]. apply eqb_true in H; subst. apply L6; auto. apply amem_spec in Q as [v Q]. apply aget_in_keys in Q. exact Q.
      * split; cbn [sf_made sf_base sf_name sf_conn]; rewrite ?alive_snoc, ?drawn_snoc; auto; [discriminate| | |].
        -- intros q x. rewrite aget_aset. destruct (eqb q p) eqn:E; [|apply L5]. apply eqb_true in E; subst. intros H; injection H as <-; reflexivity.
        -- intros _ q. rewrite joined_snoc, keys_aset_incl, L6 by auto. rewrite orb_true_iff, eqb_eq. tauto.
        -- apply nodup_aset; exact L7.
    + split; rewrite ?alive_snoc, ?drawn_snoc; auto; congruence.
  - unfold sf_disconnect. destruct (sf_made s) eqn:M.
    + split; cbn [sf_made sf_base sf_name sf_conn]; rewrite ?alive_snoc, ?drawn_snoc; auto; [discriminate| | |].
      * intros q x. rewrite aget_adel. destruct (eqb q p); [discriminate|apply L5].
      * intros _ q. rewrite joined_snoc, keys_adel_in, L6 by auto. rewrite andb_true_iff, negb_true_iff, eqb_neq. tauto.
      * apply nodup_adel; exact L7.
    + split; rewrite ?alive_snoc, ?drawn_snoc; auto; congruence.
  - unfold sf_check. destruct (sf_made s) eqn:M.
    + unfold sf_recreate, sf_destroy, sf_create. rewrite M. cbn [sf_made sf_base sf_name sf_conn]. rewrite L2. destruct ok'.
      * pose proof (connect_all (keys (sf_conn s)) (SFile true topic_base (random_name topic_base r') [])) as C.
        cbn [sf_made sf_base sf_name sf_conn] in C. cbv zeta in C.
        revert C. generalize (fold_left (fun s p => sf_connect p s) (keys (sf_conn s)) (SFile true topic_base (random_name topic_base r') [])). intros s' C.
        destruct C as (C1 & C2 & C3 & C4 & C5 & C6); [reflexivity|constructor|discriminate|].
        split; rewrite ?alive_snoc, ?drawn_snoc, ?C1, ?C2, ?C3; auto; [rewrite <- L1; reflexivity|discriminate|].
        intros _ q. rewrite joined_snoc, C6, L6 by auto. split; [intros [[]|H]; exact H|auto].
      * split; cbn [sf_made sf_base sf_name sf_conn]; rewrite ?alive_snoc, ?andb_false_r; auto; try discriminate. constructor.
    + split; rewrite ?alive_snoc; auto; try congruence. rewrite <- L1, M. reflexivity.
  - unfold sf_destroy. destruct (sf_made s) eqn:M.
    + split; cbn [sf_made sf_base sf_name sf_conn]; rewrite ?alive_snoc; auto; try discriminate. constructor.
    + split; rewrite ?alive_snoc; auto; congruence.
Qed.
Lemma linked_run r ok l : linked r ok l (sf_run l (sf_new topic_base r ok)).
Proof.
  induction l as [|a l IH] using rev_ind; [apply linked_new|]. unfold sf_run. rewrite fold_left_app. cbn [fold_left]. apply linked_step. exact IH.
Qed.
Lemma name_lemma r ok l : let s := sf_run l (sf_new topic_base r ok) in
  sf_made s = alive l ok /\ (alive l ok = true -> sf_name s = random_name topic_base (drawn l r)).
Proof. destruct (linked_run r ok l) as [L1 L2 L3 L4 L5 L6 L7]. cbv zeta. split; [exact L1|]. rewrite <- L1. exact L4. Qed.
Lemma meet_lemma r ok l pid : let s := sf_run l (sf_new topic_base r ok) in
  aget (MonModel.int_text pid) (sf_conn s) =
    if alive l ok && joined (MonModel.int_text pid) l false
    then Some (observer_snd (reader_event (sf_name s) pid), observer_ack (reader_event (sf_name s) pid)) else None.
Proof.
  destruct (linked_run r ok l) as [L1 L2 L3 L4 L5 L6 L7]. cbv zeta. rewrite <- L1.
  destruct (sf_made (sf_run l (sf_new topic_base r ok))) eqn:M; cbn [andb]; [|rewrite (L3 eq_refl); reflexivity].
  specialize (L6 eq_refl (MonModel.int_text pid)). destruct (aget (MonModel.int_text pid) (sf_conn (sf_run l (sf_new topic_base r ok)))) as [x|] eqn:E.
  - pose proof (aget_in_keys _ _ _ E) as I. apply L6 in I. rewrite I. rewrite (L5 _ _ E). unfold writer_snd, writer_ack, observer_snd, observer_ack, reader_event.
    rewrite <- !app_assoc. reflexivity.
  - destruct (joined (MonModel.int_text pid) l false) eqn:J; [|reflexivity]. apply aget_none in E. destruct E. apply L6. reflexivity.
Qed.
Lemma dead_lemma s l : sf_made s = false -> sf_run l s = s.
Proof.
  induction l as [|a l IH] using rev_ind; intros M; [reflexivity|]. unfold sf_run in *. rewrite fold_left_app. cbn [fold_left]. rewrite IH by exact M.
  destruct a; cbn [sf_step]; unfold sf_connect, sf_disconnect, sf_check, sf_destroy; rewrite M; reflexivity.
Qed.
Lemma failed_lemma r ok l r' l' : alive l ok = true -> let s := sf_run (l ++ SRemake r' false :: l') (sf_new topic_base r ok) in
  sf_made s = false /\ sf_conn s = [] /\ sf_name s = random_name topic_base r'.
Proof.
  intros H. destruct (linked_run r ok l) as [L1 L2 L3 L4 L5 L6 L7]. rewrite H in L1. cbv zeta. unfold sf_run in *. rewrite fold_left_app. cbn [fold_left].
  set (s := fold_left (fun s a => sf_step a s) l (sf_new topic_base r ok)) in *. fold (sf_run l' (sf_step (SRemake r' false) s)).
  assert (sf_step (SRemake r' false) s = SFile false topic_base (random_name topic_base r') []) as E.
  { cbn [sf_step]. unfold sf_check, sf_recreate, sf_destroy, sf_create. rewrite L1. cbn. rewrite L2. reflexivity. }
  rewrite E, dead_lemma by reflexivity. auto.
Qed.

(** ** Examples and refutations *)

Lemma good_one d b : bare d b -> b <> [] -> ~ reserved b -> good_domains [d].
Proof.
  intros H N R. split; [intros x [<-|[]]; eauto|]. intros x y c c' [<-|[]] [<-|[]] Hc Hc'. apply bare_iff in Hc, Hc'. subst c c'.
  intros [t E]. apply (f_equal (@length Z)) in E. rewrite !app_length in E. cbn in E. lia.
Qed.
Ltac not_reserved := intros [H|[(c & t & H & E)|(t & E)]]; [discriminate H| |discriminate E];
  injection E; intros; subst; vm_compute in H; intuition congruence.
Lemma nx_good : good_domains nx_domains.
Proof.
  split.
  - intros d [<-|[<-|[]]]; [exists (str "ecal_mon")|exists (str "test")]; (split; [apply bare_iff; reflexivity|split; [discriminate|]]).
    + not_reserved.
    + intros [H|[(c & t & H & E)|(t & E)]]; discriminate.
  - intros d d' b b' [<-|[<-|[]]] [<-|[<-|[]]] H H'; apply bare_iff in H, H'; subst; intros [t E]; discriminate.
Qed.
Lemma nx_ok : acts_ok nx_domains nx_run.
Proof. repeat apply Forall_cons; try apply Forall_nil; cbn; unfold drawable, a_pid, an_id; intuition lia. Qed.
Lemma reserved_refuted : exists d o u, good_domains [str "ecal_mon"] /\ object_ok [d] o /\ object_ok [d] u /\ ~ same_object o u /\ shm_key (open_name o) = shm_key (open_name u) /\
  snd (n_run [NOpen o; NOpen u] []) = [NMade; NFound o].
Proof.
  exists (str "ecal_1a"), (TheFile (TopicFile 26)), (TheFile (DomainFile (str "ecal_1a"))).
  split; [apply (good_one _ (str "ecal_mon")); [apply bare_iff; reflexivity|discriminate|not_reserved]|].
  split; [cbn; unfold drawable; lia|]. split; [left; reflexivity|]. split; [intros H; exact H|]. split; reflexivity.
Qed.
