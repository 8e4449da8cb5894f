From Verif Require Import Base Sample StrModel StrSpec StrProofs SpnModel SpnSpec.

Lemma run_snoc e l a : s_run e (l ++ [a]) = s_step e a (s_run e l).
Proof. unfold s_run. rewrite fold_left_app. reflexivity. Qed.

(** The grandchild has sent its process id. *)
Definition past (g : gphase) : bool := match g with GExec | GErrno _ | GUnlock | GRuns | GEnded | GDead => true | _ => false end.
Definition locking (g : gphase) : bool := match g with GOpen | GOpening | GWrite | GExec | GErrno _ | GUnlock => true | _ => false end.
Definition locked (g : gphase) : bool := match g with GNone | GStart | GTerm | GShell | GZero | GZeroing | GZeroWrite | GLock | GDead => false | _ => true end.
Definition runs (g : gphase) : bool := match g with GRuns | GEnded => true | _ => false end.
Definition m_late (m : mphase) : bool := match m with MWait | MUnlink | MDone => true | _ => false end.
Definition m_early (m : mphase) : bool := match m with MFork | MOpen | MSelect => true | _ => false end.
Definition m_locks (m : mphase) : bool := match m with MLockOpen | MLock => true | _ => false end.
Definition m_ended (m : mphase) : bool := match m with MDone => true | _ => false end.
Definition m_selects (m : mphase) : bool := match m with MSelect => true | _ => false end.
Definition m_forks (m : mphase) : bool := match m with MFork => true | _ => false end.
Definition there (g : gphase) : bool := match g with GNone => false | _ => true end.

Definition shelly (g : gphase) : bool := match g with GTerm | GShell => true | _ => false end.
Definition zeroing (g : gphase) : bool := match g with GZero | GZeroing | GZeroWrite => true | _ => false end.

(** What holds whatever fails and whoever interrupts. *)
Record inv (e : env) (s : spawn) : Prop := {
  i_pid : m_pid s = 0%Z \/ m_pid s = e_gpid e;
  i_data : f_data s = None \/ f_data s = Some (e_gpid e) \/ f_data s = Some 0%Z;
  i_zero : f_data s = Some 0%Z -> e_term e = TMissing;
  i_zeroD : f_data s = Some 0%Z -> g_at s = GDead;
  i_shell : shelly (g_at s) = true -> e_term e <> TNone;
  i_term : zeroing (g_at s) = true -> e_term e = TMissing;
  i_sent1 : m_pid s <> 0%Z -> past (g_at s) = true;
  i_sent2 : f_data s <> None -> past (g_at s) = true;
  i_held : l_held s = true -> locking (g_at s) = true;
  i_holds : e_lock e = true -> locking (g_at s) = true -> l_held s = true;
  i_ldata : l_data s = None \/ l_data s = Some (e_exec e) /\ e_exec e <> 0%Z;
  i_errno : forall n, g_at s = GErrno n -> n = e_exec e /\ e_exec e <> 0%Z;
  i_unlock : g_at s = GUnlock -> e_exec e <> 0%Z /\ (e_lock e = true -> l_data s = Some (e_exec e));
  i_dead1 : g_at s = GDead -> m_pid s <> 0%Z -> e_exec e <> 0%Z /\ (e_lock e = true -> l_data s = Some (e_exec e));
  i_dead2 : g_at s = GDead -> f_data s = Some (e_gpid e) -> e_exec e <> 0%Z /\ (e_lock e = true -> l_data s = Some (e_exec e));
  i_loaded : runs (g_at s) = true -> e_exec e = 0%Z;
  i_name : e_lock e = true -> locked (g_at s) = true -> m_ended (m_at s) = false -> l_name s = true;
  i_nameD : e_lock e = true -> m_pid s <> 0%Z -> m_ended (m_at s) = false -> l_name s = true;
  i_nameF : e_lock e = true -> f_data s = Some (e_gpid e) -> l_name s = true;
  i_none : m_forks (m_at s) = true -> s = spawn0;
  i_open : f_open s = true -> m_selects (m_at s) = true;
  i_fdata : f_data s <> None -> m_selects (m_at s) = true;
  i_early : m_early (m_at s) = true -> m_pid s = 0%Z;
  i_mlock : m_locks (m_at s) = true -> m_pid s = e_gpid e;
  i_fname : m_ended (m_at s) = true -> e_fork1 e = true -> f_name s = false;
  i_lname : m_ended (m_at s) = true -> m_pid s <> 0%Z -> l_name s = false;
  i_parent : there (g_at s) = true -> g_parent s = ByInit;
  i_parents : g_parent s <> ByCaller;
  i_fork : e_fork1 e = false -> m_forks (m_at s) = false -> m_ended (m_at s) = true /\ m_pid s = 0%Z }.
Lemma inv0 e : inv e spawn0.
Proof. constructor; cbn; intros; try congruence; auto. Qed.

Ltac fin := intros; try congruence; auto; try match goal with
  F : e_fork1 ?e = false -> false = false -> _, H : e_fork1 ?e = false |- _ => destruct (F H eq_refl); discriminate end;
  try match goal with F : ?d = Some 0%Z -> _ = GDead, H : ?d = Some 0%Z |- _ => discriminate (F H) end;
  try match goal with H : Some 0%Z = Some (e_gpid _) |- _ => exfalso; injection H; lia | H : Some (e_gpid _) = Some 0%Z |- _ => exfalso; injection H; lia end;
  try match goal with F : ?d <> None -> false = true, H : ?d = Some _ |- _ => exfalso; discriminate F; congruence end.
Ltac spn_split := repeat match goal with
  | |- context [if ?b then _ else _] => destruct b eqn:?; cbn in *
  | |- context [match ?b with Some _ => _ | None => _ end] => destruct b eqn:?; cbn in *
  end.
Lemma inv_step e a s : sane e -> inv e s -> inv e (s_step e a s).
Proof.
  intros [P1 P2] I.
  destruct a; cbn [s_step].
  - (* caller *)
    destruct s as [m p g fn fo fd ln ld lh gp]. unfold m_step, after_fifo, after_lock, waits. destruct m; cbn in *.
    + pose proof (i_none _ _ I eq_refl) as E. injection E as -> -> -> -> -> -> -> -> ->. clear I.
      destruct (e_fork1 e) eqn:?, (e_fork2 e) eqn:?; cbn; constructor; cbn; fin.
    + destruct I; cbn in *. destruct fn; [destruct g|]; spn_split; constructor; cbn; fin; try (rewrite Z.ltb_lt in *; lia).
    + destruct I; cbn in *. spn_split; try (constructor; cbn; fin; fail).
      all: destruct i_data0 as [?|[D|D]]; [discriminate| |]; injection D as ->.
      all: try (destruct (Z.ltb_spec 0 (e_gpid e)); [|lia]; try discriminate).
      all: try (change (0 <? 0)%Z with false in *; try discriminate).
      all: constructor; cbn; fin; first [eapply i_sent4; congruence | eapply i_dead4; congruence | idtac].
      all: try (apply i_sent4; discriminate); try (apply i_dead4; auto; discriminate); try (apply i_nameF0; auto; discriminate).
    + destruct I; cbn in *. spn_split; constructor; cbn; fin.
    + destruct I; cbn in *. spn_split; constructor; cbn; fin.
    + destruct I; cbn in *. destruct gp; [congruence|..]; constructor; cbn; fin.
    + destruct I; cbn in *. constructor; cbn; fin.
    + exact I.
  - destruct s as [m p g fn fo fd ln ld lh gp]. unfold g_step. destruct g; cbn in *; try exact I.
    all: destruct m; [pose proof (i_none _ _ I eq_refl); discriminate|..].
    all: try match goal with |- context [e_term ?x] => destruct (e_term x) eqn:?; try assumption end.
    all: destruct I; cbn in *; spn_split; constructor; cbn; fin.
    all: try (destruct (i_errno0 _ eq_refl)); subst; auto.
    all: repeat match goal with
      | E : (_ =? _)%Z = true |- _ => apply Z.eqb_eq in E
      | E : (_ =? _)%Z = false |- _ => apply Z.eqb_neq in E
      | E : GErrno _ = GErrno _ |- _ => injection E as <-
      | F : GUnlock = GUnlock -> _ |- _ => specialize (F eq_refl)
      end; auto.
    all: try match goal with
      | F : ?p <> _ -> false = true, G : ?p <> _ |- _ => discriminate (F G)
      | F : true = true -> false = true |- _ => discriminate (F eq_refl)
      end.
    all: split; [assumption|intros; congruence].
  - unfold m_timeout. destruct s as [m p g fn fo fd ln ld lh gp]. destruct m; cbn; try exact I.
    unfold after_fifo; cbn. destruct I; cbn in *. rewrite (i_early0 eq_refl) in *. change (0 <? 0)%Z with false. cbn. constructor; cbn; fin.
  - unfold m_intr. destruct s as [m p g fn fo fd ln ld lh gp]. destruct m; cbn; try exact I.
    + unfold after_fifo; cbn. destruct I; cbn in *. rewrite (i_early0 eq_refl) in *. change (0 <? 0)%Z with false. cbn. constructor; cbn; fin.
    + unfold after_lock; cbn. destruct I; cbn in *. spn_split; constructor; cbn; fin.
  - unfold g_end. destruct s as [m p g fn fo fd ln ld lh gp]. destruct g; cbn; try exact I.
    destruct m; [pose proof (i_none _ _ I eq_refl); discriminate|..].
    all: destruct I; cbn in *; constructor; cbn; fin.
Qed.
Lemma inv_run e l : sane e -> inv e (s_run e l).
Proof. intros S. induction l as [|a l IH] using rev_ind; [apply inv0|]. rewrite run_snoc. apply inv_step; assumption. Qed.

(** Without interruption: who holds a process id has seen the lock released. *)
Definition sound (e : env) (s : spawn) : Prop := e_lock e = true -> m_late (m_at s) = true -> m_pid s <> 0%Z -> runs (g_at s) = true.
Lemma sound_step e a s : sane e -> a <> AIntr -> inv e s -> sound e s -> sound e (s_step e a s).
Proof.
  intros [P1 P2] N I So L. specialize (So L). destruct a; cbn [s_step]; try congruence.
  - destruct s as [m p g fn fo fd ln ld lh gp]. unfold m_step, after_fifo, after_lock, waits. destruct m; cbn in *; try exact So.
    + destruct (e_fork1 e), (e_fork2 e); cbn; intros; try discriminate. all: pose proof (i_early _ _ I eq_refl); cbn in *; congruence.
    + pose proof (i_early _ _ I eq_refl) as E; cbn in E; subst p. change (0 <? 0)%Z with false. destruct fn; [destruct g|]; cbn; intros; congruence.
    + destruct fd as [z|]; cbn; [|intros; discriminate]. pose proof (i_data _ _ I) as [D|[D|D]]; cbn in D; [discriminate| |]; injection D as ->.
      * destruct (Z.ltb_spec 0 (e_gpid e)); [|lia]. cbn. discriminate.
      * change (0 <? 0)%Z with false. cbn. congruence.
    + pose proof (i_mlock _ _ I eq_refl) as E; cbn in E; subst p.
      assert (ln = true) as -> by (apply (i_nameD _ _ I L); [cbn; lia|reflexivity]). cbn. discriminate.
    + pose proof (i_mlock _ _ I eq_refl) as E; cbn in E; subst p. destruct lh; cbn; [discriminate|]. intros _ Nz.
      assert (past g = true) as Pa by (apply (i_sent1 _ _ I); cbn; lia).
      pose proof (i_holds _ _ I L) as Ho; cbn in Ho. destruct g; cbn in *; try reflexivity; try discriminate; try (discriminate (Ho eq_refl)).
      destruct (i_dead1 _ _ I eq_refl) as [X Y]; [cbn; lia|]. cbn in Y. rewrite (Y L) in Nz. destruct (Z.eqb_spec (e_exec e) 0); congruence.
    + destruct gp; cbn; auto. exfalso. apply (i_parents _ _ I). reflexivity.
  - destruct s as [m p g fn fo fd ln ld lh gp]. unfold g_step. destruct g; cbn in *; try exact So.
    all: try match goal with |- context [e_term ?x] => destruct (e_term x); cbn end.
    all: repeat match goal with |- context [if ?b then _ else _] => destruct b; cbn end; auto; intros A1 A2; discriminate (So A1 A2).
  - destruct s as [m p g fn fo fd ln ld lh gp]. unfold m_timeout, after_fifo. destruct m; cbn in *; try exact So.
    pose proof (i_early _ _ I eq_refl) as E; cbn in E; subst p. change (0 <? 0)%Z with false. cbn. congruence.
  - destruct s as [m p g fn fo fd ln ld lh gp]. unfold g_end. destruct g; cbn in *; auto.
Qed.
Lemma sound_run e l : sane e -> uninterrupted l -> sound e (s_run e l).
Proof.
  intros Sa. induction l as [|a l IH] using rev_ind; intros U; [intros _ X; discriminate|]. rewrite run_snoc.
  apply sound_step; [exact Sa| |apply inv_run; exact Sa|apply IH]; intros C; apply U, in_app_iff; [right; left; exact C|left; exact C].
Qed.
Lemma runs_loaded s : runs (g_at s) = true <-> loaded s.
Proof. unfold loaded. destruct (g_at s); cbn; split; auto; try discriminate; intros [E|E]; congruence. Qed.
Lemma sound_lemma e l p : sane e -> e_lock e = true -> uninterrupted l -> returned (s_run e l) p -> p <> 0%Z ->
  p = e_gpid e /\ loaded (s_run e l) /\ e_exec e = 0%Z.
Proof.
  intros Sa L U [D <-] N. pose proof (inv_run e l Sa) as I.
  assert (runs (g_at (s_run e l)) = true) as R by (apply (sound_run e l Sa U L); [rewrite D; reflexivity|exact N]).
  split; [destruct (i_pid _ _ I); congruence|]. split; [apply runs_loaded; exact R|exact (i_loaded _ _ I R)].
Qed.
Lemma failure_lemma e l : sane e -> e_exec e <> 0%Z -> ~ loaded (s_run e l).
Proof. intros Sa X C. apply X, (i_loaded _ _ (inv_run e l Sa)), runs_loaded, C. Qed.

(** Nothing fails and nobody is late. *)
Definition waiting (m : mphase) : bool := match m with MOpen | MSelect => true | _ => false end.
Record comp (e : env) (s : spawn) : Prop := {
  c_fname : waiting (m_at s) = true -> f_name s = true;
  c_sel : m_selects (m_at s) = true -> f_open s = true;
  c_late : m_early (m_at s) = false -> m_pid s = 0%Z -> e_exec e <> 0%Z /\ m_late (m_at s) = true;
  c_past : m_early (m_at s) = false -> past (g_at s) = true;
  c_there : there (g_at s) = negb (m_forks (m_at s));
  c_dead : g_at s = GDead -> e_exec e <> 0%Z;
  c_write : g_at s = GWrite -> f_open s = true;
  c_unsent : past (g_at s) = true -> m_early (m_at s) = true -> f_data s <> None;
  c_opening : g_at s = GOpening -> m_at s = MOpen }.
Lemma comp_step e a s : sane e -> healthy e -> a <> AIntr -> a <> ATimeout -> inv e s -> comp e s -> comp e (s_step e a s).
Proof.
  intros [P1 P2] (H1 & H2 & H3 & H4 & H5 & H6) N1 N2 I C. destruct a; cbn [s_step]; try congruence.
  - destruct s as [m p g fn fo fd ln ld lh gp]. unfold m_step, after_fifo, after_lock, waits. destruct m; cbn in *; try exact C.
    + rewrite H1, H2, H3. pose proof (i_none _ _ I eq_refl) as E. injection E as -> -> -> -> -> -> -> -> ->. cbn. constructor; cbn; intros; congruence.
    + pose proof (c_fname _ _ C eq_refl) as E; cbn in E; subst fn. destruct C; cbn in *. destruct g; cbn; constructor; cbn; intros; try congruence; auto.
    + destruct fd as [z|]; cbn; [|exact C]. pose proof (i_data _ _ I) as [D|[D|D]]; cbn in D; [discriminate| |pose proof (i_zero _ _ I) as Z0; cbn in Z0; rewrite (Z0 D) in H6; destruct H6; discriminate]. injection D as ->.
      assert (past g = true) as Pa by (apply (i_sent2 _ _ I); cbn; discriminate).
      destruct (Z.ltb_spec 0 (e_gpid e)); [|lia]. destruct C; cbn in *. constructor; cbn; intros; try congruence; auto; try (subst g; discriminate); try lia.
    + pose proof (i_mlock _ _ I eq_refl) as E; cbn in E; subst p.
      assert (ln = true) as -> by (apply (i_nameD _ _ I H5); [cbn; lia|reflexivity]). destruct C; cbn in *. constructor; cbn; intros; try congruence; auto; try lia.
      subst g. specialize (c_past0 eq_refl). discriminate.
    + pose proof (i_mlock _ _ I eq_refl) as E; cbn in E; subst p. destruct lh; cbn; [exact C|].
      pose proof (i_ldata _ _ I) as Ld; cbn in Ld. destruct C; cbn in *. constructor; cbn; intros; try congruence; auto.
      * split; [|reflexivity]. destruct Ld as [->|[_ Ld]]; [lia|exact Ld].
      * subst g. specialize (c_past0 eq_refl). discriminate.
    + destruct gp; cbn; [exfalso; apply (i_parents _ _ I); reflexivity|..]; destruct C; cbn in *; constructor; cbn; intros; try congruence; auto; subst g; specialize (c_past0 eq_refl); discriminate.
    + destruct C; cbn in *; constructor; cbn; intros; try congruence; auto; subst g; specialize (c_past0 eq_refl); discriminate.
  - destruct s as [m p g fn fo fd ln ld lh gp]. unfold g_step. destruct g; cbn in *; try exact C; rewrite ?H4, ?H5.
    all: try match goal with |- context [e_term ?x] => destruct (e_term x); [|destruct H6; discriminate..|] end.
    all: try (pose proof (i_term _ _ I eq_refl) as Z0; rewrite Z0 in H6; destruct H6; discriminate).
    all: destruct C; cbn in *; repeat match goal with |- context [if ?b then _ else _] => destruct b eqn:?; cbn end.
    all: destruct m; cbn in *; constructor; cbn; intros; try congruence; auto.
    all: first [discriminate (c_sel0 eq_refl) | discriminate (c_past0 eq_refl) | discriminate (c_write0 eq_refl) | exact (proj1 (i_unlock _ _ I eq_refl))].
  - destruct s as [m p g fn fo fd ln ld lh gp]. unfold g_end. destruct g; cbn in *; try exact C. destruct C; cbn in *; constructor; cbn; intros; try congruence; auto.
Qed.
Lemma comp0 e : comp e spawn0.
Proof. constructor; cbn; intros; congruence. Qed.
Lemma comp_run e l : sane e -> healthy e -> in_time l -> uninterrupted l -> comp e (s_run e l).
Proof.
  intros Sa He. induction l as [|a l IH] using rev_ind; intros T U; [apply comp0|]. rewrite run_snoc.
  apply comp_step; [exact Sa|exact He| | |apply inv_run; exact Sa|apply IH]; intros C; first [apply U, in_app_iff; solve [right; left; exact C | left; exact C] | apply T, in_app_iff; solve [right; left; exact C | left; exact C]].
Qed.
Lemma complete_lemma e l z : sane e -> healthy e -> e_exec e = 0%Z -> in_time l -> uninterrupted l -> returned (s_run e l) z -> z = e_gpid e.
Proof.
  intros Sa He X T U [D <-]. destruct (i_pid _ _ (inv_run e l Sa)) as [P|P]; [|exact P].
  destruct (c_late _ _ (comp_run e l Sa He T U)) as [Y _]; [rewrite D; reflexivity|exact P|]. contradiction.
Qed.

(** Nobody will send the process id. *)
Record mute (e : env) (s : spawn) : Prop := {
  q_m : m_early (m_at s) = true;
  q_name : waiting (m_at s) = true -> f_name s = true;
  q_data : f_data s = None;
  q_g : g_at s = GNone \/ e_fork2 e = true /\ (g_at s = GStart \/ g_at s = GDead \/ e_term e = TIdle /\ (g_at s = GTerm \/ g_at s = GShell)) }.
Lemma mute_run e l : e_mkfifo e = true -> e_fork1 e = true -> (e_fork2 e = false \/ e_chdir e = false \/ e_term e = TIdle) -> in_time l -> uninterrupted l -> mute e (s_run e l).
Proof.
  intros H1 H2 H3. induction l as [|a l IH] using rev_ind; intros T U; [constructor; cbn; auto; discriminate|]. rewrite run_snoc.
  assert (mute e (s_run e l)) as M by (apply IH; intros C; [apply T|apply U]; apply in_app_iff; left; exact C).
  assert (a <> AIntr) as N1 by (intros C; apply U, in_app_iff; right; left; exact C). assert (a <> ATimeout) as N2 by (intros C; apply T, in_app_iff; right; left; exact C).
  clear IH T U. destruct (s_run e l) as [m p g fn fo fd ln ld lh gp]. destruct M as [Q1 Q2 Q3 Q4]; cbn in *. subst fd. destruct a; cbn [s_step]; try congruence.
  - unfold m_step, after_fifo. destruct m; cbn in *; try discriminate.
    + rewrite H1, H2. destruct (e_fork2 e) eqn:E; cbn; constructor; cbn; auto. destruct Q4 as [Q|[Q _]]; [auto|discriminate].
    + rewrite (Q2 eq_refl). destruct Q4 as [->|[F [->|[->|[F2 [->| ->]]]]]]; cbn; constructor; cbn; auto 12.
    + constructor; cbn; auto.
  - destruct Q4 as [->|[F [->|[->|[F2 [->| ->]]]]]]; cbn; rewrite ?F2; try (constructor; cbn; auto 12; fail).
    destruct H3 as [H3|[H3|H3]]; [congruence|rewrite H3; constructor; cbn; auto 12|]. rewrite H3. destruct (e_chdir e); constructor; cbn; auto 12.
  - destruct Q4 as [->|[F [->|[->|[F2 [->| ->]]]]]]; cbn; constructor; cbn; auto 12.
Qed.
Lemma slow_lemma e l : e_mkfifo e = true -> e_fork1 e = true -> (e_fork2 e = false \/ e_chdir e = false \/ e_term e = TIdle) -> in_time l -> uninterrupted l -> m_at (s_run e l) <> MDone.
Proof. intros H1 H2 H3 T U C. pose proof (q_m _ _ (mute_run e l H1 H2 H3 T U)) as Q. rewrite C in Q. discriminate. Qed.

(** The terminal emulator cannot be executed: the grandchild says so. *)
Definition zer (s : spawn) : Prop :=
  match m_at s with
  | MFork => s = spawn0
  | MOpen => f_name s = true /\ f_data s = None /\ m_pid s = 0%Z /\ (g_at s = GStart \/ g_at s = GTerm \/ g_at s = GZero \/ g_at s = GZeroing) /\ f_open s = false
  | MSelect => f_name s = true /\ f_open s = true /\ m_pid s = 0%Z /\
      (f_data s = None /\ (g_at s = GStart \/ g_at s = GTerm \/ g_at s = GZero \/ g_at s = GZeroWrite) \/ f_data s = Some 0%Z /\ g_at s = GDead)
  | MUnlink | MDone => m_pid s = 0%Z /\ g_at s = GDead
  | _ => False
  end.
Lemma zer_step e a s : healthy (with_terminal TNone e) -> e_term e = TMissing -> a <> AIntr -> a <> ATimeout -> zer s -> zer (s_step e a s).
Proof.
  intros (H1 & H2 & H3 & H4 & _) H5 N1 N2 Q. cbn in H1, H2, H3, H4. destruct s as [m p g fn fo fd ln ld lh gp]. unfold zer in *. cbn in *.
  destruct a; cbn [s_step]; try congruence.
  - unfold m_step, after_fifo. destruct m; cbn in *; try contradiction.
    + injection Q as -> -> -> -> -> -> -> -> ->. rewrite H1, H2, H3. cbn. auto 20.
    + destruct Q as (-> & -> & -> & Q & ->). destruct Q as [->|[->|[->| ->]]]; cbn; auto 20.
    + destruct Q as (-> & -> & -> & [[-> Q]|[-> ->]]); cbn; [auto 20|]. change (0 <? 0)%Z with false. cbn. auto.
    + destruct Q as (-> & ->). auto.
    + exact Q.
  - unfold g_step. destruct m; cbn in *; try contradiction.
    + injection Q as -> -> -> -> -> -> -> -> ->. reflexivity.
    + destruct Q as (-> & -> & -> & Q & ->). destruct Q as [->|[->|[->| ->]]]; cbn; rewrite ?H4, ?H5; cbn; auto 20.
    + destruct Q as (-> & -> & -> & [[-> [->|[->|[->| ->]]]]|[-> ->]]); cbn; rewrite ?H4, ?H5; cbn; auto 20.
    + destruct Q as (-> & ->). cbn. auto.
    + destruct Q as (-> & ->). cbn. auto.
  - unfold g_end. destruct m; cbn in *; try contradiction.
    + injection Q as -> -> -> -> -> -> -> -> ->. reflexivity.
    + destruct Q as (-> & -> & -> & Q & ->). destruct Q as [->|[->|[->| ->]]]; cbn; auto 20.
    + destruct Q as (-> & -> & -> & [[-> [->|[->|[->| ->]]]]|[-> ->]]); cbn; auto 20.
    + destruct Q as (-> & ->). cbn. auto.
    + destruct Q as (-> & ->). cbn. auto.
Qed.
Lemma zer_run e l : healthy (with_terminal TNone e) -> e_term e = TMissing -> in_time l -> uninterrupted l -> zer (s_run e l).
Proof.
  intros He H5. induction l as [|a l IH] using rev_ind; intros T U; [reflexivity|]. rewrite run_snoc.
  apply zer_step; [exact He|exact H5| | |apply IH]; intros C; first [apply U, in_app_iff; solve [right; left; exact C | left; exact C] | apply T, in_app_iff; solve [right; left; exact C | left; exact C]].
Qed.
Lemma missing_lemma e l : healthy (with_terminal TNone e) -> e_term e = TMissing -> in_time l -> uninterrupted l ->
  (forall z, returned (s_run e l) z -> z = 0%Z /\ g_at (s_run e l) = GDead) /\
  (m_at (s_run e l) <> MDone -> moves e AMain (s_run e l) \/ moves e AGrand (s_run e l)).
Proof.
  intros He H5 T U. pose proof (zer_run e l He H5 T U) as Q. destruct He as (H1 & H2 & H3 & H4 & _). cbn in H1, H2, H3, H4. split.
  - intros z [D <-]. unfold zer in Q. rewrite D in Q. exact Q.
  - intros N. unfold moves. unfold zer in Q. destruct (s_run e l) as [m p g fn fo fd ln ld lh gp]. cbn in *. destruct m; try contradiction; try congruence.
    + left. cbn. rewrite H2. destruct (e_fork2 e); discriminate.
    + destruct Q as (-> & -> & -> & Q & ->). left. destruct Q as [->|[->|[->| ->]]]; discriminate.
    + destruct Q as (-> & -> & -> & [[-> [->|[->|[->| ->]]]]|[-> ->]]); cbn; rewrite ?H4, ?H5; try (right; discriminate). left. discriminate.
    + left. discriminate.
Qed.

(** ** It ends *)
Definition m_rank (m : mphase) : nat := match m with MFork => 7 | MOpen => 6 | MSelect => 5 | MLockOpen => 4 | MLock => 3 | MWait => 2 | MUnlink => 1 | MDone => 0 end.
Definition g_rank (g : gphase) : nat := match g with GNone => 13 | GStart => 12 | GTerm => 11 | GShell => 10 | GZero => 3 | GZeroing => 2 | GZeroWrite => 1 | GLock => 9 | GOpen => 8 | GOpening => 7 | GWrite => 6 | GExec => 5 | GErrno _ => 4 | GUnlock => 3 | GRuns => 2 | GEnded => 1 | GDead => 0 end.
Definition mu (s : spawn) : nat := m_rank (m_at s) + g_rank (g_at s).
Lemma mu_step e a s : inv e s -> moves e a s -> (mu (s_step e a s) < mu s)%nat.
Proof.
  intros I M. unfold moves in M. unfold mu. destruct a; cbn [s_step] in *; destruct s as [m p g fn fo fd ln ld lh gp].
  - unfold m_step, after_fifo, after_lock in *. destruct m; cbn in *; try congruence.
    + pose proof (i_none _ _ I eq_refl) as E. injection E as -> -> -> -> -> -> -> -> ->. destruct (e_fork1 e), (e_fork2 e); cbn; lia.
    + destruct fn; [destruct g|]; cbn; spn_split; cbn; lia.
    + destruct fd; [|congruence]. cbn; spn_split; cbn; lia.
    + cbn; spn_split; cbn; lia.
    + destruct lh; [congruence|]. cbn; spn_split; cbn; lia.
    + destruct (waits _ _); [congruence|]. cbn. lia.
    + lia.
  - unfold g_step in *. destruct g; cbn in *; try congruence; try (destruct (e_term e); cbn in *; try congruence); cbn; spn_split; cbn; lia.
  - unfold m_timeout, after_fifo in *. destruct m; cbn in *; try congruence. cbn; spn_split; cbn; lia.
  - unfold m_intr, after_fifo, after_lock in *. destruct m; cbn in *; try congruence; cbn; spn_split; cbn; lia.
  - unfold g_end in *. destruct g; cbn in *; try congruence; lia.
Qed.
Lemma bound_lemma e l : sane e -> forall l', busy e l' (s_run e l) -> (length l' <= mu (s_run e l))%nat.
Proof.
  intros Sa l'. revert l. induction l' as [|a l' IH]; intros l B; [cbn; lia|]. destruct B as [M B]. rewrite <- run_snoc in B. specialize (IH _ B).
  rewrite run_snoc in IH. pose proof (mu_step e a _ (inv_run e l Sa) M). cbn. lia.
Qed.
Lemma ends_lemma e l : sane e -> busy e l spawn0 -> (length l <= 20)%nat.
Proof. intros Sa B. exact (bound_lemma e [] Sa l B). Qed.
Lemma moves_at e a s : m_at (s_step e a s) <> m_at s -> moves e a s.
Proof. intros N C. apply N. rewrite C. reflexivity. Qed.
Lemma moves_g e a s : g_at (s_step e a s) <> g_at s -> moves e a s.
Proof. intros N C. apply N. rewrite C. reflexivity. Qed.
Lemma progress_lemma e l : sane e -> m_at (s_run e l) <> MDone -> exists a, moves e a (s_run e l) /\ a <> AIntr /\ a <> AEnd.
Proof.
  intros Sa N. pose proof (inv_run e l Sa) as I. destruct Sa as [P1 P2]. destruct (s_run e l) as [m p g fn fo fd ln ld lh gp]. cbn in N. destruct m.
  - exists AMain. repeat split; try discriminate. apply moves_at. cbn. destruct (e_fork1 e), (e_fork2 e); discriminate.
  - exists AMain. repeat split; try discriminate. apply moves_at. cbn. unfold after_fifo. destruct fn; [destruct g|destruct (0 <? _)%Z]; discriminate.
  - exists ATimeout. repeat split; try discriminate. apply moves_at. cbn. unfold after_fifo. destruct (0 <? _)%Z; discriminate.
  - exists AMain. repeat split; try discriminate. apply moves_at. cbn. destruct ln; discriminate.
  - destruct lh.
    + exists AGrand. repeat split; try discriminate. apply moves_g. pose proof (i_held _ _ I eq_refl) as L. cbn in L.
      assert (past g = true) as Pa by (apply (i_sent1 _ _ I); pose proof (i_mlock _ _ I eq_refl) as E; cbn in *; lia).
      destruct g; cbn in *; try discriminate. destruct (_ =? _)%Z; discriminate.
    + exists AMain. repeat split; try discriminate.
  - exists AMain. repeat split; try discriminate. apply moves_at. cbn. destruct (waits _ _) eqn:W; [|discriminate]. unfold waits in W. cbn in W.
    destruct gp; try discriminate. exfalso. apply (i_parents _ _ I). reflexivity.
  - exists AMain. repeat split; try discriminate.
  - congruence.
Qed.
(** In good health the timeout is not needed. *)
Lemma prompt_lemma e l : sane e -> healthy e -> in_time l -> uninterrupted l -> m_at (s_run e l) <> MDone -> moves e AMain (s_run e l) \/ moves e AGrand (s_run e l).
Proof.
  intros Sa He T U N. pose proof (comp_run e l Sa He T U) as C. destruct (progress_lemma e l Sa N) as (a & M & N1 & N2). destruct a; auto; try congruence.
  pose proof (inv_run e l Sa) as I. unfold moves in M at 1. cbn in M. unfold m_timeout in M.
  destruct (s_run e l) as [m p g fn fo fd ln ld lh gp]. destruct m; cbn in M; try congruence. clear M N. destruct C; cbn in *. destruct (past g) eqn:Pa.
  - left. apply moves_at. cbn. destruct fd as [z|]; [|exfalso; apply c_unsent0; reflexivity]. unfold after_fifo. destruct (0 <? _)%Z; discriminate.
  - right. apply moves_g. cbn. destruct g; cbn in *; try discriminate.
    + destruct He as (_ & _ & _ & -> & _). destruct (e_term e); discriminate.
    + destruct (e_term e); discriminate.
    + destruct He as (_ & _ & _ & _ & _ & [E|E]); [exfalso; exact (i_shell _ _ I eq_refl E)|]. rewrite E. discriminate.
    + rewrite (c_fname0 eq_refl), (c_sel0 eq_refl). discriminate.
    + destruct He as (_ & _ & _ & _ & _ & [E|E]); rewrite (i_term _ _ I eq_refl) in E; discriminate.
    + rewrite (c_fname0 eq_refl), (c_sel0 eq_refl). discriminate.
    + discriminate (c_opening0 eq_refl).
    + rewrite (c_sel0 eq_refl). discriminate.
Qed.

(** ** What stays behind *)
Lemma clean_lemma e l p : sane e -> returned (s_run e l) p -> p <> 0%Z -> f_name (s_run e l) = false /\ l_name (s_run e l) = false.
Proof.
  intros Sa [D <-] N. pose proof (inv_run e l Sa) as I. assert (e_fork1 e = true) as F.
  { destruct (e_fork1 e) eqn:F; [reflexivity|]. exfalso. apply N, (i_fork _ _ I F). rewrite D. reflexivity. }
  split; [apply (i_fname _ _ I); [rewrite D; reflexivity|exact F]|apply (i_lname _ _ I); [rewrite D; reflexivity|exact N]].
Qed.
Lemma fifo_lemma e l z : sane e -> e_fork1 e = true -> returned (s_run e l) z -> f_name (s_run e l) = false.
Proof. intros Sa F [D _]. apply (i_fname _ _ (inv_run e l Sa)); [rewrite D; reflexivity|exact F]. Qed.
(** Nobody is left waiting once the process id is known. *)
Lemma not_stuck_lemma e l z : sane e -> returned (s_run e l) z -> z <> 0%Z -> moves e AGrand (s_run e l) \/ loaded (s_run e l) \/ g_at (s_run e l) = GDead.
Proof.
  intros Sa [D <-] N. pose proof (i_sent1 _ _ (inv_run e l Sa) N) as Pa. unfold loaded. destruct (g_at (s_run e l)) eqn:G; try discriminate; auto.
  all: left; apply moves_g; cbn; unfold g_step; rewrite G; cbn; try discriminate. destruct (_ =? _)%Z; discriminate.
Qed.

(** ** Arguments *)
Lemma getlines_arg a rest : ~ In 0%Z a -> forall cur, getlines cur (a ++ 0%Z :: rest) = (cur ++ a) :: getlines [] rest.
Proof.
  induction a as [|c a IH]; intros N cur; cbn.
  - rewrite app_nil_r. reflexivity.
  - destruct (Z.eqb_spec c 0) as [->|]; [exfalso; apply N; left; reflexivity|]. rewrite IH by (intros C; apply N; right; exact C). rewrite <- app_assoc. reflexivity.
Qed.
Lemma getlines_lemma argv : Forall (fun a => ~ In 0%Z a) argv -> getlines [] (cmdline argv) = argv.
Proof.
  induction 1 as [|a l Na F IH]; [reflexivity|]. unfold cmdline in *. cbn [flat_map]. rewrite <- app_assoc. cbn [app]. rewrite getlines_arg by exact Na. rewrite IH. reflexivity.
Qed.
Lemma parameter_lemma argv : Forall (fun a => ~ In 0%Z a) argv -> process_parameter (cmdline argv) = to_command_line argv.
Proof. intros F. unfold process_parameter. rewrite getlines_lemma by exact F. reflexivity. Qed.
Lemma restart_lemma argv : Forall (fun a => ~ In 0%Z a) argv -> Forall sound_arg argv -> to_argv (process_parameter (cmdline argv)) = argv.
Proof. intros F S. rewrite parameter_lemma by exact F. apply argv_lemma. exact S. Qed.
Lemma exec_lemma name args : Forall sound_arg args -> exec_argv name (to_command_line args) = name :: args.
Proof. intros S. unfold exec_argv. rewrite argv_lemma by exact S. reflexivity. Qed.
Lemma terminal_lemma t fifo lock name args :
  stub_main (skipn (length (to_argv t)) (terminal_argv t fifo lock name args)) = StubRun fifo lock (exec_argv name args).
Proof. unfold terminal_argv. rewrite skipn_app, skipn_all, Nat.sub_diag. reflexivity. Qed.
Lemma used_lemma d c o : terminal_command d c o = c /\ (exists x, d = Some x /\ x <> []) /\ (exists x, o = Some x /\ str_trim x = stub_version) \/ terminal_command d c o = [].
Proof.
  unfold terminal_command. destruct d as [[|x d]|]; auto. destruct c as [|y c]; auto. destruct o as [o|]; auto. destruct (eqb (str_trim o) stub_version) eqn:E; auto.
  apply eqb_true in E. left. repeat split; eexists; split; try reflexivity; [discriminate|exact E].
Qed.
Lemma usable_lemma d c : d <> [] -> terminal_command (Some d) c (Some (stub_version ++ [10%Z])) = c.
Proof. intros N. unfold terminal_command. destruct d; [congruence|]. destruct c; reflexivity. Qed.
