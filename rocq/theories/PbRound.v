(** Round trip of any message over any well formed descriptor. *)
From Verif Require Import Base PbModel PbSpec PbProofs.
From Coq Require Import Lia ZArith Znumtheory.

(** ** Enough fuel is enough *)
Definition le_res {A} (r r' : res A) : Prop := r = Fault \/ r = r'.
Lemma le_bind {A B} (x x' : res A) (f f' : A -> res B) :
  le_res x x' -> (forall a, le_res (f a) (f' a)) -> le_res (bind x f) (bind x' f').
Proof. intros [->| ->] H; [now left|]. destruct x'; cbn; [apply H|now right|now right]. Qed.
Lemma le_refl {A} (x : res A) : le_res x x.
Proof. now right. Qed.
Definition le_dec (f g : desc -> list fval -> stream -> res (list fval * stream)) : Prop :=
  forall d m s, le_res (f d m s) (g d m s).
Lemma callback_mono f g ty v s : le_dec f g -> le_res (callback f ty v s) (callback g ty v s).
Proof.
  intros H. destruct v; cbn [callback]; try apply le_refl. destruct ty; try apply le_refl.
  apply le_bind; [apply H|]. intros [m s1]. apply le_refl.
Qed.
Lemma dec_field_mono f g ty v wt s : le_dec f g -> le_res (dec_field f ty v wt s) (dec_field g ty v wt s).
Proof.
  intros H. destruct ty; cbn [dec_field]; try apply le_refl.
  - destruct (negb (Z.eqb wt wt_string)); [apply le_refl|]. destruct v; try apply le_refl.
    apply le_bind; [apply le_refl|]. intros [sub pl]. apply le_bind; [apply H|]. intros [m' s1]. apply le_refl.
  - destruct (Z.eqb wt wt_string).
    + apply le_bind; [apply le_refl|]. intros [sub pl]. apply le_bind; [now apply callback_mono|]. intros [m' s1]. apply le_refl.
    + apply le_bind; [apply le_refl|]. intros [bs s1]. apply le_bind; [now apply callback_mono|]. intros [m' s2]. apply le_refl.
Qed.
Lemma dec_inner_mono f : le_dec (dec_inner f) (dec_inner (S f)).
Proof.
  induction f as [|f IH]; intros d m s.
  - cbn [dec_inner]. destruct (Z.eqb (s_left s) 0); [apply le_refl|now left].
  - remember (S f) as g. rewrite Heqg at 1. cbn [dec_inner]. destruct (Z.eqb (s_left s) 0); [apply le_refl|].
    apply le_bind; [apply le_refl|]. intros [[tag wt] s1]. destruct (Z.eqb tag 0); [apply le_refl|].
    destruct (find_field tag d m) as [[[i ty] v]|].
    + apply le_bind; [now apply dec_field_mono|]. intros [v' s2]. apply IH.
    + apply le_bind; [apply le_refl|]. intros s2. apply IH.
Qed.
Lemma dec_inner_le f g d m s : (f <= g)%nat -> le_res (dec_inner f d m s) (dec_inner g d m s).
Proof.
  induction 1 as [|g L IH]; [apply le_refl|].
  destruct IH as [->| ->]; [now left|]. apply dec_inner_mono.
Qed.

(** Decoding with enough fuel has the outcome [r]. *)
Definition decs (d : desc) (m : list fval) (s : stream) (r : res (list fval * stream)) : Prop :=
  exists f0, forall f, (f0 <= f)%nat -> dec_inner f d m s = r.
Lemma decs_done d m rest : decs d m (Stream rest 0) (Ok (m, Stream rest 0)).
Proof. exists O. intros f _. destruct f; reflexivity. Qed.
Lemma decs_fuel d m s r f : decs d m s r -> dec_inner f d m s <> Fault -> dec_inner f d m s = r.
Proof.
  intros [f0 H] N. destruct (dec_inner_le f (Nat.max f f0) d m s ltac:(lia)) as [E|E]; [now elim N|].
  rewrite E. apply H. lia.
Qed.

(** ** Positions *)
Lemma find_field_app tag d m d2 m2 ty v : length d = length m -> ~ In tag (map fst d) ->
  find_field tag (d ++ (tag, ty) :: d2) (m ++ v :: m2) = Some (length d, ty, v).
Proof.
  revert m. induction d as [|[t f] d IH]; intros [|x m] L N; try discriminate.
  - cbn. now rewrite Z.eqb_refl.
  - cbn [find_field app]. cbn in N. destruct (Z.eqb_spec t tag); [tauto|].
    rewrite IH; [reflexivity|now injection L|tauto].
Qed.
Lemma set_nth_app {A} (m : list A) v v' m2 n : n = length m -> set_nth n v' (m ++ v :: m2) = m ++ v' :: m2.
Proof.
  intros ->. unfold set_nth. rewrite firstn_app, Nat.sub_diag, firstn_all. cbn [firstn]. rewrite app_nil_r. f_equal. f_equal.
  rewrite skipn_app. rewrite skipn_all2 by lia. replace (S (length m) - length m)%nat with 1%nat by lia. reflexivity.
Qed.

(** ** What decoding makes of a message *)
Fixpoint upd (ty : ftype) (t v : fval) {struct ty} : fval :=
  let upd_l := fix upd_l (d : desc) (t v : list fval) {struct d} : list fval :=
    match d, t, v with
    | (_, f) :: d', x :: t', y :: v' => upd f x y :: upd_l d' t' v'
    | _, _, _ => t
    end in
  match ty, t, v with
  | FMsg d, VMsg _ a, VMsg true b => VMsg true (upd_l d a b)
  | FCallStr, VStr _, VStr b => VStr b
  | FCallStr, VStrs a, VStrs b => VStrs (a ++ b)
  | FCallMsg d, VMsgs e a, VMsgs _ b => VMsgs e (a ++ map (upd_l d (map defaults e)) b)
  | _, VInt _, VInt z => VInt z
  | _, _, _ => t
  end.
Fixpoint upd_l (d : desc) (t v : list fval) {struct d} : list fval :=
  match d, t, v with
  | (_, f) :: d', x :: t', y :: v' => upd f x y :: upd_l d' t' v'
  | _, _, _ => t
  end.
(** The value [v] fits the type and the struct [t] it is decoded into. *)
Fixpoint compat (ty : ftype) (t v : fval) {struct ty} : Prop :=
  let compat_l := fix compat_l (d : desc) (t v : list fval) {struct d} : Prop :=
    match d, t, v with
    | (_, f) :: d', x :: t', y :: v' => compat f x y /\ compat_l d' t' v'
    | [], [], [] => True
    | _, _, _ => False
    end in
  match ty, t, v with
  | FI64, VInt a, VInt z => a = 0%Z /\ i64 z
  | FI32, VInt a, VInt z => a = 0%Z /\ i32 z
  | FU32, VInt a, VInt z => a = 0%Z /\ u32 z
  | FBool, VInt a, VInt z => a = 0%Z /\ (z = 0 \/ z = 1)%Z
  | FMsg d, VMsg _ a, VMsg h b => if h then compat_l d a b else True
  | FCallStr, VNull, (VNull | VStr _ | VStrs _) => True
  | FCallStr, VStr _, (VNull | VStr _) => True
  | FCallStr, VStrs _, (VNull | VStrs _) => True
  | FCallMsg d, VNull, VNull => True
  | FCallMsg d, VMsgs _ _, VNull => True
  | FCallMsg d, VMsgs e _, VMsgs _ b => Forall (compat_l d (map defaults e)) b
  | _, _, _ => False
  end.
Fixpoint compat_l (d : desc) (t v : list fval) {struct d} : Prop :=
  match d, t, v with
  | (_, f) :: d', x :: t', y :: v' => compat f x y /\ compat_l d' t' v'
  | [], [], [] => True
  | _, _, _ => False
  end.
(** Field numbers are distinct and in range, at all levels. *)
Fixpoint wf_ty (ty : ftype) : bool :=
  let wf_d := fix wf_d (d : desc) : bool :=
    match d with
    | [] => true
    | (t, f) :: d' => ((0 <? t)%Z && (t <? 2 ^ 29)%Z && wf_ty f && negb (existsb (Z.eqb t) (map fst d')) && wf_d d')%bool
    end in
  match ty with FMsg d | FCallMsg d => wf_d d | _ => true end.
Fixpoint wf_d (d : desc) : bool :=
  match d with
  | [] => true
  | (t, f) :: d' => ((0 <? t)%Z && (t <? 2 ^ 29)%Z && wf_ty f && negb (existsb (Z.eqb t) (map fst d')) && wf_d d')%bool
  end.

Section FtypeInd.
  Variable P : ftype -> Prop.
  Hypothesis H1 : P FI64. Hypothesis H2 : P FI32. Hypothesis H3 : P FU32. Hypothesis H4 : P FBool.
  Hypothesis H5 : forall d, Forall (fun x => P (snd x)) d -> P (FMsg d).
  Hypothesis H6 : P FCallStr.
  Hypothesis H7 : forall d, Forall (fun x => P (snd x)) d -> P (FCallMsg d).
  Fixpoint ftype_ind' (ty : ftype) : P ty :=
    let all := fix all (d : desc) : Forall (fun x => P (snd x)) d :=
      match d with
      | [] => Forall_nil _
      | (t, f) :: d' => Forall_cons (t, f) (ftype_ind' f) (all d')
      end in
    match ty with
    | FI64 => H1 | FI32 => H2 | FU32 => H3 | FBool => H4 | FCallStr => H6
    | FMsg d => H5 d (all d)
    | FCallMsg d => H7 d (all d)
    end.
End FtypeInd.

(** ** One field *)
Lemma varint_pos v : (0 <= v < 2 ^ 64)%Z -> (1 <= len (enc_varint v))%Z.
Proof.
  intros H. apply enc_varint_ok in H. inversion H; subst; rewrite len_cons; [cbn; lia|].
  match goal with |- context [len ?x] => pose proof (len_nonneg x) end. lia.
Qed.
Lemma dec_tag_ok tag wt rest left :
  (0 < tag < 2 ^ 29)%Z -> (0 <= wt < 8)%Z -> (len (enc_tag wt tag) <= left)%Z ->
  dec_tag (Stream (enc_tag wt tag ++ rest) left) = Ok (tag, wt, Stream rest (left - len (enc_tag wt tag))).
Proof.
  intros Ht Hw L. unfold dec_tag, enc_tag in *. rewrite (dec_varint32_ok (tag * 8 + wt)); [|apply enc_varint_ok; lia|lia|exact L].
  cbn [bind]. f_equal. f_equal. f_equal.
  - rewrite Z.add_comm, Z.div_add by lia. rewrite Z.div_small; lia.
  - rewrite Z.add_comm, Z.mod_add by lia. apply Z.mod_small. lia.
Qed.
(** One field on the wire: tag and content. *)
Lemma decs_field d m tag wt ty v v' i rest rest1 L L1 r :
  (0 < tag < 2 ^ 29)%Z -> (0 <= wt < 8)%Z -> (0 <= L)%Z -> find_field tag d m = Some (i, ty, v) ->
  (exists f0, forall f, (f0 <= f)%nat -> dec_field (dec_inner f) ty v wt (Stream rest L) = Ok (v', Stream rest1 L1)) ->
  decs d (set_nth i v' m) (Stream rest1 L1) r ->
  decs d m (Stream (enc_tag wt tag ++ rest) (len (enc_tag wt tag) + L)) r.
Proof.
  intros Ht Hw HL F [f0 H] [f1 H1]. exists (S (Nat.max f0 f1)). intros [|f] Lf; [lia|]. cbn [dec_inner s_left].
  assert (1 <= len (enc_tag wt tag))%Z by (apply varint_pos; lia).
  destruct (Z.eqb_spec (len (enc_tag wt tag) + L) 0); [lia|].
  rewrite dec_tag_ok by (try assumption; lia). cbn [bind].
  destruct (Z.eqb_spec tag 0); [lia|]. rewrite F.
  replace (len (enc_tag wt tag) + L - len (enc_tag wt tag))%Z with L by lia.
  rewrite H by lia. cbn [bind]. apply H1. lia.
Qed.
Lemma rd_all n b rest : len b = n -> rd n (Stream (b ++ rest) n) = Ok (b, Stream rest 0).
Proof.
  intros <-. unfold rd. cbn [s_left s_rest]. destruct (Z.eqb_spec (len b) 0) as [E|N].
  - destruct b; [reflexivity|]. rewrite len_cons in E. pose proof (len_nonneg b). lia.
  - destruct (Z.ltb_spec (len b) (len b)); [lia|]. rewrite len_app. pose proof (len_nonneg rest).
    destruct (Z.ltb_spec (len b + len rest) (len b)); [lia|].
    unfold len. rewrite !Nat2Z.id. rewrite firstn_app, skipn_app, Nat.sub_diag, firstn_all, skipn_all. cbn [firstn skipn app].
    rewrite app_nil_r. f_equal. f_equal. f_equal. lia.
Qed.
Lemma substream_ok b rest L : (len b < 2 ^ 32)%Z -> (0 <= L)%Z ->
  substream (Stream (enc_string b ++ rest) (len (enc_string b) + L)) = Ok (Stream (b ++ rest) (len b), L).
Proof.
  intros Hb HL. unfold substream, enc_string. rewrite <- app_assoc.
  pose proof (len_nonneg b). rewrite len_app.
  rewrite (dec_varint32_ok (len b)); [|apply enc_varint_ok; lia|lia|lia].
  cbn [bind s_left s_rest]. destruct (Z.ltb_spec (len (enc_varint (len b)) + len b + L - len (enc_varint (len b))) (len b)); [lia|].
  f_equal. f_equal. lia.
Qed.
(** A string, read by the callback of a string, of a list of strings, or skipped. *)
Definition got (t : fval) (b : list Z) : fval :=
  match t with VStr _ => VStr b | VStrs l => VStrs (l ++ [b]) | _ => t end.
Lemma dec_string_ok dec ty t b rest L : (ty = FCallStr \/ t = VNull /\ exists d, ty = FCallMsg d) ->
  (t = VNull \/ (exists s, t = VStr s) \/ (exists l, t = VStrs l)) ->
  (len b < 2 ^ 32)%Z -> (0 <= L)%Z ->
  dec_field dec ty t wt_string (Stream (enc_string b ++ rest) (len (enc_string b) + L)) = Ok (got t b, Stream rest L).
Proof.
  intros Ht T Hb HL.
  assert (dec_field dec ty t wt_string (Stream (enc_string b ++ rest) (len (enc_string b) + L)) =
    do (sub, pl) <- substream (Stream (enc_string b ++ rest) (len (enc_string b) + L));
    do (v', sub') <- callback dec ty t sub; do s1 <- close_sub sub' pl; Ok (v', s1)) as ->.
  { destruct Ht as [->|[_ [d ->]]]; reflexivity. }
  rewrite substream_ok by assumption. cbn [bind].
  destruct T as [->|[[s ->]|[l ->]]]; cbn [callback bind got].
  - unfold close_sub. cbn [s_left]. rewrite (rd_all (len b) b rest eq_refl). reflexivity.
  - cbn [s_left]. rewrite (rd_all (len b) b rest eq_refl). reflexivity.
  - cbn [s_left]. rewrite (rd_all (len b) b rest eq_refl). reflexivity.
Qed.

(** What decoding a field does, for every type. *)
Definition field_ok (ty : ftype) : Prop :=
  forall v t tag d m i rest L r,
    compat ty t v -> wf_ty ty = true -> (0 < tag < 2 ^ 29)%Z ->
    find_field tag d m = Some (i, ty, t) ->
    (len (enc_field tag ty v) < 2 ^ 32)%Z -> (0 <= L)%Z ->
    decs d (set_nth i (upd ty t v) m) (Stream rest L) r ->
    decs d m (Stream (enc_field tag ty v ++ rest) (len (enc_field tag ty v) + L)) r.

Lemma enc_field_msg tag d m : enc_field tag (FMsg d) (VMsg true m) = enc_tag wt_string tag ++ enc_string (enc_msg d m).
Proof. reflexivity. Qed.
Lemma enc_field_msgs tag d e l :
  enc_field tag (FCallMsg d) (VMsgs e l) = flat_map (fun m => enc_tag wt_string tag ++ enc_string (enc_msg d m)) l.
Proof. reflexivity. Qed.
Lemma upd_msg d h a b : upd (FMsg d) (VMsg h a) (VMsg true b) = VMsg true (upd_l d a b).
Proof. reflexivity. Qed.
Lemma upd_msgs d e a e' b : upd (FCallMsg d) (VMsgs e a) (VMsgs e' b) = VMsgs e (a ++ map (upd_l d (map defaults e)) b).
Proof. reflexivity. Qed.
Lemma compat_msg d h a b : compat (FMsg d) (VMsg h a) (VMsg true b) = compat_l d a b.
Proof. reflexivity. Qed.
Lemma compat_msgs d e a e' b : compat (FCallMsg d) (VMsgs e a) (VMsgs e' b) = Forall (compat_l d (map defaults e)) b.
Proof. reflexivity. Qed.

(** ** A message, given its fields *)
Lemma set_nth_S {A} i (v x : A) m : set_nth (S i) v (x :: m) = x :: set_nth i v m.
Proof. reflexivity. Qed.
Lemma find_set i tag d m ty t t' : find_field tag d m = Some (i, ty, t) -> find_field tag d (set_nth i t' m) = Some (i, ty, t').
Proof.
  revert m i. induction d as [|[k f] d IH]; intros [|x m] i E; try discriminate.
  cbn [find_field] in E. destruct (Z.eqb_spec k tag) as [->|N].
  - injection E as <- -> ->. cbn. now rewrite Z.eqb_refl.
  - destruct (find_field tag d m) as [[[j f'] x']|] eqn:F; [|discriminate]. injection E as <- -> ->.
    specialize (IH m j F). rewrite set_nth_S. cbn [find_field].
    destruct (Z.eqb_spec k tag); [tauto|]. now rewrite IH.
Qed.
Lemma set_same i tag d m ty t : find_field tag d m = Some (i, ty, t) -> set_nth i t m = m.
Proof.
  revert m i. induction d as [|[k f] d IH]; intros [|x m] i E; try discriminate.
  cbn [find_field] in E. destruct (Z.eqb k tag).
  - injection E as <- -> ->. reflexivity.
  - destruct (find_field tag d m) as [[[j f'] x']|] eqn:F; [|discriminate]. injection E as <- -> ->.
    specialize (IH m j F). rewrite set_nth_S. now rewrite IH.
Qed.
Lemma set_set {A} i (x y : A) m : (i < length m)%nat -> set_nth i x (set_nth i y m) = set_nth i x m.
Proof.
  intros L. unfold set_nth. rewrite firstn_app, firstn_firstn, Nat.min_id, firstn_length_le by lia.
  rewrite Nat.sub_diag. cbn [firstn]. rewrite app_nil_r. f_equal. f_equal.
  rewrite skipn_app, firstn_length_le by lia. rewrite skipn_all2 by (rewrite firstn_length_le; lia).
  replace (S i - i)%nat with 1%nat by lia. reflexivity.
Qed.
Lemma find_lt i tag d m ty t : find_field tag d m = Some (i, ty, t) -> (i < length m)%nat.
Proof.
  revert m i. induction d as [|[k f] d IH]; intros [|x m] i E; try discriminate.
  cbn [find_field] in E. destruct (Z.eqb k tag).
  - injection E as <- -> ->. cbn. lia.
  - destruct (find_field tag d m) as [[[j f'] x']|] eqn:F; [|discriminate]. injection E as <- -> ->.
    specialize (IH m j F). cbn. lia.
Qed.
Lemma wf_d_in d : wf_d d = true -> NoDup (map fst d) /\ Forall (fun x => (0 < fst x < 2 ^ 29)%Z /\ wf_ty (snd x) = true) d.
Proof.
  induction d as [|[t f] d IH]; intros W; [split; constructor|].
  cbn [wf_d] in W. apply andb_true_iff in W as [W W5]. apply andb_true_iff in W as [W W4].
  apply andb_true_iff in W as [W W3]. apply andb_true_iff in W as [W1 W2].
  apply Z.ltb_lt in W1. apply Z.ltb_lt in W2. destruct (IH W5) as [N F]. cbn [map fst]. split.
  - constructor; [|exact N]. intros I. apply negb_true_iff in W4.
    assert (existsb (Z.eqb t) (map fst d) = true) by (apply existsb_exists; exists t; split; [exact I|apply Z.eqb_refl]). congruence.
  - constructor; [|exact F]. cbn. split; [lia|exact W3].
Qed.
Lemma message_suffix d : Forall (fun x => field_ok (snd x)) d -> forall d1 m1 t v rest L r,
  compat_l d t v -> wf_d (d1 ++ d) = true -> length d1 = length m1 ->
  (len (enc_msg d v) < 2 ^ 32)%Z -> (0 <= L)%Z ->
  decs (d1 ++ d) (m1 ++ upd_l d t v) (Stream rest L) r ->
  decs (d1 ++ d) (m1 ++ t) (Stream (enc_msg d v ++ rest) (len (enc_msg d v) + L)) r.
Proof.
  induction 1 as [|[k f] d Hf F IH]; intros d1 m1 t v rest L r C W Ld S HL D.
  - destruct t, v; cbn in C; try tauto; exact D.
  - destruct t as [|x t], v as [|y v]; cbn [compat_l] in C; try tauto. destruct C as [C1 C2].
    cbn [enc_msg] in *. rewrite len_app in *. rewrite <- app_assoc.
    pose proof (len_nonneg (enc_field k f y)). pose proof (len_nonneg (enc_msg d v)).
    destruct (wf_d_in _ W) as [N A]. rewrite map_app in N. cbn [map fst] in N.
    apply Forall_app in A as [_ A]. inversion A as [|? ? [A1 A2] A3]; subst. cbn [fst snd] in *.
    assert (~ In k (map fst d1)) by (apply NoDup_remove_2 in N; intros I; apply N; apply in_or_app; now left).
    rewrite <- Z.add_assoc.
    eapply (Hf y x k); [exact C1|exact A2|exact A1|now apply find_field_app|lia|lia|].
    rewrite set_nth_app by exact Ld. cbn [upd_l] in D.
    replace (d1 ++ (k, f) :: d) with ((d1 ++ [(k, f)]) ++ d) in * by (rewrite <- app_assoc; reflexivity).
    replace (m1 ++ upd f x y :: t) with ((m1 ++ [upd f x y]) ++ t) by (rewrite <- app_assoc; reflexivity).
    apply IH; [exact C2|exact W|rewrite !app_length; cbn; lia|lia|lia|].
    rewrite <- (app_assoc m1). exact D.
Qed.
Lemma message_ok d t v rest L : Forall (fun x => field_ok (snd x)) d -> compat_l d t v -> wf_d d = true ->
  (len (enc_msg d v) < 2 ^ 32)%Z ->
  decs d t (Stream (enc_msg d v ++ rest) (len (enc_msg d v))) (Ok (upd_l d t v, Stream rest 0)) /\
  ((0 <= L)%Z -> True).
Proof.
  intros F C W S. split; [|trivial].
  pose proof (message_suffix d F [] [] t v rest 0 (Ok (upd_l d t v, Stream rest 0)) C W eq_refl S ltac:(lia)) as H.
  cbn [app] in H. rewrite Z.add_0_r in H. apply H, decs_done.
Qed.

Lemma to_i64_u64 z : i64 z -> to_i64 (u64 z) = z.
Proof.
  unfold i64, to_i64, u64. intros H. destruct (Z.lt_ge_cases z 0) as [L|L].
  - replace (z mod 2 ^ 64)%Z with (z + 2 ^ 64)%Z by (rewrite <- (Z.mod_add z 1) by lia; rewrite Z.mul_1_l, Z.mod_small; lia).
    destruct (Z.ltb_spec (z + 2 ^ 64) (2 ^ 63)); lia.
  - rewrite Z.mod_small by lia. destruct (Z.ltb_spec z (2 ^ 63)); lia.
Qed.
Lemma to_i32_u64 z : i32 z -> to_i32 (u64 z) = z.
Proof.
  unfold i32, to_i32, u64. intros H.
  replace ((z mod 2 ^ 64) mod 2 ^ 32)%Z with (z mod 2 ^ 32)%Z.
  2:{ apply Zmod_div_mod; [lia|lia|]. exists (2 ^ 32)%Z. reflexivity. }
  destruct (Z.lt_ge_cases z 0) as [L|L].
  - replace (z mod 2 ^ 32)%Z with (z + 2 ^ 32)%Z by (rewrite <- (Z.mod_add z 1) by lia; rewrite Z.mul_1_l, Z.mod_small; lia).
    destruct (Z.ltb_spec (z + 2 ^ 32) (2 ^ 31)); lia.
  - rewrite Z.mod_small by lia. destruct (Z.ltb_spec z (2 ^ 31)); lia.
Qed.
Lemma u64_range z : (0 <= u64 z < 2 ^ 64)%Z.
Proof. unfold u64. apply Z.mod_pos_bound. lia. Qed.

Lemma all_fields_ok ty : field_ok ty.
Proof.
  induction ty as [| | | |d IHd| |d IHd] using ftype_ind'; intros v t tag dd m i rest L r C W Ht F S HL D.
  - destruct t, v; cbn in C; try tauto. destruct C as [-> C]. cbn [enc_field upd] in *. destruct (Z.eqb_spec z0 0) as [->|N].
    + cbn [app len length]. rewrite (set_same _ _ _ _ _ _ F) in D. exact D.
    + rewrite <- app_assoc, len_app, <- Z.add_assoc. pose proof (u64_range z0) as U.
      eapply decs_field; [exact Ht|unfold wt_varint; lia|pose proof (len_nonneg (enc_varint (u64 z0))); lia|exact F| |exact D].
      exists O. intros f _. cbn [dec_field]. change (Z.eqb wt_varint wt_varint) with true. cbn [negb].
      rewrite (dec_varint_ok (u64 z0)); [|apply enc_varint_ok, U|lia|lia]. cbn [bind]. rewrite to_i64_u64 by exact C.
      f_equal. f_equal. f_equal. lia.
  - destruct t, v; cbn in C; try tauto. destruct C as [-> C]. cbn [enc_field upd] in *. destruct (Z.eqb_spec z0 0) as [->|N].
    + cbn [app len length]. rewrite (set_same _ _ _ _ _ _ F) in D. exact D.
    + rewrite <- app_assoc, len_app, <- Z.add_assoc. pose proof (u64_range z0) as U.
      eapply decs_field; [exact Ht|unfold wt_varint; lia|pose proof (len_nonneg (enc_varint (u64 z0))); lia|exact F| |exact D].
      exists O. intros f _. cbn [dec_field]. change (Z.eqb wt_varint wt_varint) with true. cbn [negb].
      rewrite (dec_varint_ok (u64 z0)); [|apply enc_varint_ok, U|lia|lia]. cbn [bind]. rewrite to_i32_u64 by exact C.
      f_equal. f_equal. f_equal. lia.
  - destruct t, v; cbn in C; try tauto. destruct C as [-> C]. cbn [enc_field upd] in *. destruct (Z.eqb_spec z0 0) as [->|N].
    + cbn [app len length]. rewrite (set_same _ _ _ _ _ _ F) in D. exact D.
    + rewrite <- app_assoc, len_app, <- Z.add_assoc. unfold u32 in C.
      eapply decs_field; [exact Ht|unfold wt_varint; lia|pose proof (len_nonneg (enc_varint z0)); lia|exact F| |exact D].
      exists O. intros f _. cbn [dec_field]. change (Z.eqb wt_varint wt_varint) with true. cbn [negb].
      rewrite (dec_varint_ok z0); [|apply enc_varint_ok; lia|lia|lia]. cbn [bind].
      destruct (Z.leb_spec (2 ^ 32) z0); [lia|]. f_equal. f_equal. f_equal. lia.
  - destruct t, v; cbn in C; try tauto. destruct C as [-> C]. cbn [enc_field upd] in *. destruct (Z.eqb_spec z0 0) as [->|N].
    + cbn [app len length]. rewrite (set_same _ _ _ _ _ _ F) in D. exact D.
    + rewrite <- app_assoc, len_app, <- Z.add_assoc.
      eapply decs_field; [exact Ht|unfold wt_varint; lia|pose proof (len_nonneg (enc_varint 1)); lia|exact F| |exact D].
      exists O. intros f _. cbn [dec_field]. change (Z.eqb wt_varint wt_varint) with true. cbn [negb].
      rewrite (dec_varint32_ok 1); [|apply enc_varint_ok; lia|lia|lia]. cbn [bind Z.eqb].
      assert (z0 = 1)%Z as -> by lia. f_equal. f_equal. f_equal. lia.
  - destruct t as [|h a| | | |], v as [|h' b| | | |]; try (cbn in C; tauto).
    destruct h'.
    + rewrite compat_msg in C. rewrite upd_msg in D. rewrite enc_field_msg in *. rewrite len_app in *.
      rewrite <- app_assoc, <- Z.add_assoc. cbn [wf_ty] in W. change (wf_d d = true) in W.
      pose proof (len_nonneg (enc_string (enc_msg d b))). pose proof (len_nonneg (enc_tag wt_string tag)).
      assert (S' : (len (enc_msg d b) < 2 ^ 32)%Z).
      { unfold enc_string in S. rewrite len_app in S. pose proof (len_nonneg (enc_varint (len (enc_msg d b)))). lia. }
      destruct (message_ok d a b rest 0 IHd C W S') as [[f0 Hm] _].
      eapply decs_field; [exact Ht|unfold wt_string; lia|lia|exact F| |exact D].
      exists f0. intros f Lf. cbn [dec_field]. change (Z.eqb wt_string wt_string) with true. cbn [negb].
      rewrite substream_ok by assumption. cbn [bind]. rewrite Hm by exact Lf. reflexivity.
    + cbn [enc_field app] in *. change (len []) with 0%Z. cbn [upd] in D. rewrite (set_same _ _ _ _ _ _ F) in D. exact D.
  - assert (X : forall b t', (t' = VNull \/ (exists s, t' = VStr s) \/ (exists l, t' = VStrs l)) -> forall m' rest' L',
      find_field tag dd m' = Some (i, FCallStr, t') ->
      (len (enc_tag wt_string tag ++ enc_string b) < 2 ^ 32)%Z -> (0 <= L')%Z ->
      decs dd (set_nth i (got t' b) m') (Stream rest' L') r ->
      decs dd m' (Stream ((enc_tag wt_string tag ++ enc_string b) ++ rest') (len (enc_tag wt_string tag ++ enc_string b) + L')) r).
    { intros b t' T m' rest' L' F' S' HL' D'. rewrite <- app_assoc, len_app, <- Z.add_assoc. rewrite len_app in S'.
      pose proof (len_nonneg (enc_string b)). pose proof (len_nonneg (enc_tag wt_string tag)).
      assert (len b < 2 ^ 32)%Z.
      { unfold enc_string in S'. rewrite len_app in S'. pose proof (len_nonneg (enc_varint (len b))). lia. }
      eapply decs_field; [exact Ht|unfold wt_string; lia|lia|exact F'| |exact D'].
      exists O. intros f _. apply dec_string_ok; [now left|exact T|assumption|exact HL']. }
    assert (Y : forall l t', (t' = VNull \/ (exists l, t' = VStrs l)) -> forall m' ,
      find_field tag dd m' = Some (i, FCallStr, t') -> (len (enc_field tag FCallStr (VStrs l)) < 2 ^ 32)%Z ->
      decs dd (set_nth i (upd FCallStr t' (VStrs l)) m') (Stream rest L) r ->
      decs dd m' (Stream (enc_field tag FCallStr (VStrs l) ++ rest) (len (enc_field tag FCallStr (VStrs l)) + L)) r).
    { clear m v t F S D C. intros l. induction l as [|b l IH]; intros t T m F S D.
      - cbn [enc_field flat_map app]. change (len []) with 0%Z.
        assert (upd FCallStr t (VStrs []) = t) as E by (destruct T as [->|[l ->]]; [reflexivity|cbn; now rewrite app_nil_r]).
        rewrite E, (set_same _ _ _ _ _ _ F) in D. exact D.
      - change (enc_field tag FCallStr (VStrs (b :: l))) with
          ((enc_tag wt_string tag ++ enc_string b) ++ enc_field tag FCallStr (VStrs l)) in *.
        rewrite len_app in *. rewrite <- app_assoc, <- Z.add_assoc.
        pose proof (len_nonneg (enc_tag wt_string tag ++ enc_string b)). pose proof (len_nonneg (enc_field tag FCallStr (VStrs l))).
        apply (X b t); [tauto|exact F|lia|lia|].
        apply (IH (got t b)).
        + destruct T as [->|[l' ->]]; cbn [got]; [now left|right; eexists; reflexivity].
        + eapply find_set, F.
        + lia.
        + rewrite set_set by (eapply find_lt, F).
          assert (upd FCallStr (got t b) (VStrs l) = upd FCallStr t (VStrs (b :: l))) as ->; [|exact D].
          destruct T as [->|[l' ->]]; cbn; [reflexivity|]. now rewrite <- app_assoc. }
    destruct t, v; cbn in C; try tauto.
    + cbn [enc_field app] in *. change (len []) with 0%Z. cbn [upd] in D. rewrite (set_same _ _ _ _ _ _ F) in D. exact D.
    + apply (X s VNull); [now left|exact F|exact S|exact HL|exact D].
    + apply (Y l VNull); [now left|exact F|exact S|exact D].
    + cbn [enc_field app] in *. change (len []) with 0%Z. cbn [upd] in D. rewrite (set_same _ _ _ _ _ _ F) in D. exact D.
    + apply (X s0 (VStr s)); [right; left; now eexists|exact F|exact S|exact HL|exact D].
    + cbn [enc_field app] in *. change (len []) with 0%Z. cbn [upd] in D. rewrite (set_same _ _ _ _ _ _ F) in D. exact D.
    + apply (Y l0 (VStrs l)); [right; now eexists|exact F|exact S|exact D].
  - destruct t as [| | | | |e a], v as [| | | | |e' b]; cbn in C; try tauto.
    + cbn [enc_field app] in *. change (len []) with 0%Z. cbn [upd] in D. rewrite (set_same _ _ _ _ _ _ F) in D. exact D.
    + cbn [enc_field app] in *. change (len []) with 0%Z. cbn [upd] in D. rewrite (set_same _ _ _ _ _ _ F) in D. exact D.
    + change (Forall (compat_l d (map defaults e)) b) in C. rewrite upd_msgs in D. rewrite enc_field_msgs in *.
      cbn [wf_ty] in W. change (wf_d d = true) in W.
      revert a m F D S. induction C as [|x b Cx C IH]; intros a m F D S.
      * cbn [map] in D. rewrite app_nil_r, (set_same _ _ _ _ _ _ F) in D. exact D.
      * cbn [flat_map] in *. rewrite len_app in *. rewrite <- app_assoc, <- Z.add_assoc.
        set (rs := flat_map _ b) in *. pose proof (len_nonneg rs).
        rewrite <- app_assoc. rewrite len_app in *. rewrite <- Z.add_assoc.
        pose proof (len_nonneg (enc_string (enc_msg d x))). pose proof (len_nonneg (enc_tag wt_string tag)).
        assert (S' : (len (enc_msg d x) < 2 ^ 32)%Z).
        { unfold enc_string in S. rewrite len_app in S. pose proof (len_nonneg (enc_varint (len (enc_msg d x)))). lia. }
        destruct (message_ok d (map defaults e) x (rs ++ rest) 0 IHd Cx W S') as [[f0 Hm] _].
        eapply (decs_field dd m tag wt_string (FCallMsg d) (VMsgs e a) (VMsgs e (a ++ [upd_l d (map defaults e) x])));
          [exact Ht|unfold wt_string; lia|lia|exact F| |].
        -- exists f0. intros f Lf. cbn [dec_field]. change (Z.eqb wt_string wt_string) with true.
           rewrite substream_ok by (assumption || lia). cbn [bind callback]. rewrite Hm by exact Lf. reflexivity.
        -- eapply IH; [eapply find_set, F| |lia]. rewrite set_set by (eapply find_lt, F). rewrite <- app_assoc. exact D.
Qed.

(** ** The whole buffer *)
Lemma pb_decode_encode d t v : compat_l d (map defaults t) v -> wf_d d = true -> (len (enc_msg d v) < 2 ^ 32)%Z ->
  pb_decode d t (enc_msg d v) = Ok (upd_l d (map defaults t) v).
Proof.
  intros C W S. pose proof (pb_decode_safe d t (enc_msg d v)) as N. unfold pb_decode in *.
  assert (IHd : Forall (fun x => field_ok (snd x)) d) by (apply Forall_forall; intros; apply all_fields_ok).
  destruct (message_ok d (map defaults t) v [] 0 IHd C W S) as [D _]. rewrite app_nil_r in D.
  rewrite (decs_fuel _ _ _ _ (Datatypes.S (length (enc_msg d v))) D); [reflexivity|].
  intros E. rewrite E in N. now apply N.
Qed.
