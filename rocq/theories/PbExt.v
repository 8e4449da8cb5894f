(** The encoder writes the wire format, and what is in this format, possibly with unknown
    fields in between, is decoded. *)
From Verif Require Import Base PbModel PbSpec PbProofs PbRound.
From Coq Require Import Lia ZArith.

Scheme ext_field_mut := Induction for ext_field Sort Prop with ext_msg_mut := Induction for ext_msg Sort Prop.
Combined Scheme ext_ind from ext_field_mut, ext_msg_mut.

(** ** Wire format is unique *)
Lemma wire_bytes tag b bs : (0 < tag < 2 ^ 29)%Z -> (len b < 2 ^ 64)%Z -> wire [WBytes tag b] bs ->
  bs = enc_tag wt_string tag ++ enc_string b.
Proof.
  intros Ht Hb W. inversion W as [| |tag' b' fs tb lb r V1 V2 W']; subst. inversion W'; subst. rewrite app_nil_r.
  unfold enc_tag, enc_string. pose proof (len_nonneg b). f_equal; [|f_equal].
  - eapply varint_fun; [exact V1|]. apply enc_varint_ok. unfold wt_string. lia.
  - eapply varint_fun; [exact V2|]. apply enc_varint_ok. unfold len in *. lia.
Qed.
Lemma wire_num tag z bs : (0 < tag < 2 ^ 29)%Z -> wire (wnum tag z) bs ->
  bs = if Z.eqb z 0 then [] else enc_tag wt_varint tag ++ enc_varint (u64 z).
Proof.
  intros Ht. unfold wnum. destruct (Z.eqb z 0); intros W.
  - now inversion W.
  - inversion W as [|tag' z' fs tb vb r V1 V2 W'|]; subst. inversion W'; subst. rewrite app_nil_r.
    unfold enc_tag. f_equal.
    + eapply varint_fun; [exact V1|]. unfold wt_varint. rewrite Z.add_0_r. apply enc_varint_ok. lia.
    + eapply varint_fun; [exact V2|]. apply enc_varint_ok, u64_range.
Qed.
Lemma wire_app a b x : wire (a ++ b) x -> exists y z, x = y ++ z /\ wire a y /\ wire b z.
Proof.
  revert x. induction a as [|f a IH]; intros x W.
  - exists [], x. split; [reflexivity|]. split; [constructor|exact W].
  - cbn [app] in W. inversion W as [|tag z fs tb vb bs V1 V2 W'|tag c fs tb lb bs V1 V2 W']; subst.
    + apply IH in W' as (y & z' & -> & A & B). exists (tb ++ vb ++ y), z'. rewrite <- !app_assoc.
      split; [reflexivity|]. split; [now constructor|exact B].
    + apply IH in W' as (y & z' & -> & A & B). exists (tb ++ lb ++ c ++ y), z'. rewrite <- !app_assoc.
      split; [reflexivity|]. split; [now constructor|exact B].
Qed.
Lemma wire_bytes_len tag b bs : wire [WBytes tag b] bs -> (len b <= len bs)%Z.
Proof.
  intros W. inversion W as [| |tag' b' fs tb lb r V1 V2 W']; subst. rewrite !len_app.
  pose proof (len_nonneg tb). pose proof (len_nonneg lb). pose proof (len_nonneg r). lia.
Qed.
Lemma wire_strs tag l bs : (0 < tag < 2 ^ 29)%Z -> (len bs < 2 ^ 64)%Z -> wire (map (WBytes tag) l) bs ->
  bs = flat_map (fun s => enc_tag wt_string tag ++ enc_string s) l.
Proof.
  intros Ht. revert bs. induction l as [|s l IH]; intros bs Hb W; [now inversion W|].
  cbn [map flat_map] in *. apply (wire_app [_]) in W as (y & z & -> & A & B). rewrite len_app in Hb.
  pose proof (len_nonneg y). pose proof (len_nonneg z).
  rewrite <- (IH z ltac:(lia) B). f_equal. apply wire_bytes; [exact Ht| |exact A].
  apply wire_bytes_len in A. lia.
Qed.
(** ** Skipping *)
Lemma skip_varint_ok v bs : varint v bs -> forall n rest left, (length bs <= n)%nat -> (len bs <= left)%Z ->
  skip_varint_go n (Stream (bs ++ rest) left) = Ok (Stream rest (left - len bs)).
Proof.
  assert (R : forall b r left, (0 < left)%Z -> rd 1 (Stream (b :: r) left) = Ok ([b], Stream r (left - 1))).
  { intros b r left H. unfold rd. cbn [s_left s_rest]. change (Z.eqb 1 0) with false. cbv iota.
    destruct (Z.ltb_spec left 1); [lia|]. rewrite len_cons. pose proof (len_nonneg r).
    destruct (Z.ltb_spec (1 + len r) 1); [lia|]. reflexivity. }
  induction 1 as [b Hb|b v bs Hb Hv H IH]; intros [|n] rest left L1 L2; cbn [length] in L1; try lia; rewrite len_cons in *.
  - cbn [skip_varint_go app]. change (len []) with 0%Z in *. rewrite R by lia. cbn [bind hd]. unfold cont.
    destruct (Z.leb_spec 128 b); [lia|]. f_equal.
  - cbn [skip_varint_go app]. pose proof (len_nonneg bs). rewrite R by lia. cbn [bind hd]. unfold cont.
    destruct (Z.leb_spec 128 (b + 128)); [|lia]. rewrite IH by lia. f_equal. f_equal. lia.
Qed.
Lemma rd_some n b rest left : len b = n -> (n <= left)%Z -> rd n (Stream (b ++ rest) left) = Ok (b, Stream rest (left - n)).
Proof.
  intros <- H. unfold rd. cbn [s_left s_rest]. destruct (Z.eqb_spec (len b) 0) as [E|N].
  - destruct b; [|rewrite len_cons in E; pose proof (len_nonneg b); lia]. cbn [app]. change (len []) with 0%Z.
    do 2 f_equal. f_equal. lia.
  - destruct (Z.ltb_spec left (len b)); [lia|]. rewrite len_app. pose proof (len_nonneg rest).
    destruct (Z.ltb_spec (len b + len rest) (len b)); [lia|].
    unfold len. rewrite !Nat2Z.id. rewrite firstn_app, skipn_app, Nat.sub_diag, firstn_all, skipn_all. cbn [firstn skipn app].
    now rewrite app_nil_r.
Qed.
Lemma find_none tag d m : ~ In tag (map fst d) -> find_field tag d m = None.
Proof.
  revert m. induction d as [|[k f] d IH]; intros m N; [destruct m; reflexivity|]. cbn in N. destruct m as [|x m]; [reflexivity|].
  cbn [find_field]. destruct (Z.eqb_spec k tag); [tauto|]. rewrite IH by tauto. reflexivity.
Qed.
Lemma dec_tag_wire tag wt tb rest left : (0 < tag < 2 ^ 29)%Z -> (0 <= wt < 8)%Z -> varint (tag * 8 + wt) tb -> (len tb <= left)%Z ->
  dec_tag (Stream (tb ++ rest) left) = Ok (tag, wt, Stream rest (left - len tb)).
Proof.
  intros Ht Hw V L. assert (tb = enc_tag wt tag) as ->; [|now apply dec_tag_ok].
  eapply varint_fun; [exact V|]. apply enc_varint_ok. lia.
Qed.
Lemma decs_unknown D m u rest L r : unknown D u -> (0 <= L)%Z -> (len u < 2 ^ 32)%Z -> decs D m (Stream rest L) r ->
  decs D m (Stream (u ++ rest) (len u + L)) r.
Proof.
  intros U HL HS [f0 H].
  assert (X : exists tag wt tb c, u = tb ++ c /\ ~ In tag (map fst D) /\ (0 < tag < 2 ^ 29)%Z /\ (0 <= wt < 8)%Z /\
    varint (tag * 8 + wt) tb /\ skip_field wt (Stream (c ++ rest) (len c + L)) = Ok (Stream rest L)).
  { destruct U as [tag z tb vb N Ht V1 V2|tag tb b N Ht V1 V2|tag b tb lb N Ht V1 V2|tag tb b N Ht V1 V2].
    - exists tag, 0%Z, tb, vb. rewrite Z.add_0_r. repeat (split; [assumption || reflexivity || lia|]).
      unfold skip_field. change (Z.eqb 0 wt_varint) with true. cbv iota. unfold skip_varint. cbn [s_rest].
      rewrite (skip_varint_ok z) by (try assumption; rewrite ?app_length; lia). f_equal. f_equal. lia.
    - exists tag, 1%Z, tb, b. repeat (split; [assumption || reflexivity || lia|]).
      unfold skip_field. change (Z.eqb 1 wt_varint) with false. change (Z.eqb 1 wt_64) with true. cbv iota.
      assert (len b = 8)%Z by (unfold len; lia). rewrite (rd_some 8) by lia. cbn [bind]. f_equal. f_equal. lia.
    - exists tag, 2%Z, tb, (lb ++ b). repeat (split; [assumption || reflexivity || lia|]).
      unfold skip_field. change (Z.eqb 2 wt_varint) with false. change (Z.eqb 2 wt_64) with false.
      change (Z.eqb 2 wt_string) with true. cbv iota. rewrite !len_app in *. rewrite <- app_assoc.
      pose proof (len_nonneg tb). pose proof (len_nonneg lb). pose proof (len_nonneg b). fold (len b) in V2.
      rewrite (dec_varint32_ok (len b)) by (try assumption; lia). cbn [bind].
      rewrite (rd_some (len b)) by lia. cbn [bind]. f_equal. f_equal. lia.
    - exists tag, 5%Z, tb, b. repeat (split; [assumption || reflexivity || lia|]).
      unfold skip_field. change (Z.eqb 5 wt_varint) with false. change (Z.eqb 5 wt_64) with false.
      change (Z.eqb 5 wt_string) with false. change (Z.eqb 5 wt_32) with true. cbv iota.
      assert (len b = 4)%Z by (unfold len; lia). rewrite (rd_some 4) by lia. cbn [bind]. f_equal. f_equal. lia. }
  destruct X as (tag & wt & tb & c & -> & N & Ht & Hw & V & SK). exists (S f0). intros [|f] Lf; [lia|]. cbn [dec_inner s_left].
  rewrite len_app in *. pose proof (len_nonneg c).
  assert (1 <= len tb)%Z by (inversion V; subst; rewrite len_cons; match goal with |- context [len ?x] => pose proof (len_nonneg x) end; lia).
  destruct (Z.eqb_spec (len tb + len c + L) 0); [lia|]. rewrite <- app_assoc.
  rewrite (dec_tag_wire tag wt) by (try assumption; lia). cbn [bind]. destruct (Z.eqb_spec tag 0); [lia|].
  rewrite find_none by exact N. replace (len tb + len c + L - len tb)%Z with (len c + L)%Z by lia. rewrite SK. cbn [bind]. apply H. lia.
Qed.

(** ** Decoding *)
Lemma ext_ok :
  (forall tag ty v bs, ext_field tag ty v bs -> forall t d m i rest L r,
     compat ty t v -> wf_ty ty = true -> (0 < tag < 2 ^ 29)%Z -> find_field tag d m = Some (i, ty, t) ->
     (len bs < 2 ^ 32)%Z -> (0 <= L)%Z -> decs d (set_nth i (upd ty t v) m) (Stream rest L) r ->
     decs d m (Stream (bs ++ rest) (len bs + L)) r) /\
  (forall D d v bs, ext_msg D d v bs -> forall d1 m1 t rest L r,
     D = d1 ++ d -> compat_l d t v -> wf_d D = true -> length d1 = length m1 ->
     (len bs < 2 ^ 32)%Z -> (0 <= L)%Z -> decs D (m1 ++ upd_l d t v) (Stream rest L) r ->
     decs D (m1 ++ t) (Stream (bs ++ rest) (len bs + L)) r).
Proof.
  apply ext_ind.
  - intros tag ty z bs Hty W t d m i rest L r C Wt Ht F S HL D. apply (wire_num _ _ _ Ht) in W.
    assert (bs = enc_field tag ty (VInt z)) as ->; [|now apply (all_fields_ok ty (VInt z) t tag d m i)].
    subst bs. destruct Hty as [<-|[<-|[<-|[<-|[]]]]]; destruct t; cbn in C; try tauto; cbn [enc_field]; try reflexivity.
    + destruct (Z.eqb z 0); [reflexivity|]. unfold u64. unfold u32 in C. now rewrite Z.mod_small by lia.
    + destruct (Z.eqb_spec z 0); [reflexivity|]. destruct C as [_ [->| ->]]; [now elim n|reflexivity].
  - intros tag ty t d m i rest L r C Wt Ht F S HL D. cbn [app]. change (len [] + L)%Z with L.
    assert (upd ty t VNull = t) as E by (destruct ty, t; cbn in C |- *; try tauto; reflexivity).
    rewrite E, (set_same _ _ _ _ _ _ F) in D. exact D.
  - intros tag s bs W t d m i rest L r C Wt Ht F S HL D. pose proof (wire_bytes_len _ _ _ W).
    apply (wire_bytes _ _ _ Ht) in W; [|lia]. subst bs. now apply (all_fields_ok FCallStr (VStr s) t tag d m i).
  - intros tag l bs W t d m i rest L r C Wt Ht F S HL D.
    apply (wire_strs _ _ _ Ht) in W; [|lia]. subst bs. now apply (all_fields_ok FCallStr (VStrs l) t tag d m i).
  - intros tag d' m' t d m i rest L r C Wt Ht F S HL D. cbn [app]. change (len [] + L)%Z with L.
    destruct t; cbn in C; try tauto. cbn [upd] in D. rewrite (set_same _ _ _ _ _ _ F) in D. exact D.
  - intros tag d' m' b bs X IH W t d m i rest L r C Wt Ht F S HL D. pose proof (wire_bytes_len _ _ _ W).
    apply (wire_bytes _ _ _ Ht) in W; [|lia]. subst bs. destruct t as [|h a| | | |]; try (cbn in C; tauto).
    rewrite compat_msg in C. rewrite upd_msg in D. rewrite len_app in *. rewrite <- app_assoc, <- Z.add_assoc.
    cbn [wf_ty] in Wt. change (wf_d d' = true) in Wt.
    pose proof (len_nonneg (enc_string b)). pose proof (len_nonneg (enc_tag wt_string tag)).
    assert (M : decs d' a (Stream (b ++ rest) (len b)) (Ok (upd_l d' a m', Stream rest 0))).
    { pose proof (IH [] [] a rest 0%Z (Ok (upd_l d' a m', Stream rest 0)) eq_refl C Wt eq_refl ltac:(lia) ltac:(lia)) as Q.
      cbn [app] in Q. rewrite Z.add_0_r in Q. apply Q, decs_done. }
    destruct M as [f0 Hm].
    eapply decs_field; [exact Ht|unfold wt_string; lia|lia|exact F| |exact D].
    exists f0. intros f Lf. cbn [dec_field]. change (Z.eqb wt_string wt_string) with true. cbn [negb].
    rewrite substream_ok by (assumption || lia). cbn [bind]. rewrite Hm by exact Lf. reflexivity.
  - intros tag d' e t d m i rest L r C Wt Ht F S HL D. cbn [app]. change (len [] + L)%Z with L.
    assert (upd (FCallMsg d') t (VMsgs e []) = t) as E.
    { destruct t; cbn in C; try tauto. cbn. now rewrite app_nil_r. }
    rewrite E, (set_same _ _ _ _ _ _ F) in D. exact D.
  - intros tag d' e m' l b bs bs' X IH W Xl IHl t d m i rest L r C Wt Ht F S HL D. pose proof (wire_bytes_len _ _ _ W) as Lb.
    rewrite len_app in *. pose proof (len_nonneg bs). pose proof (len_nonneg bs').
    apply (wire_bytes _ _ _ Ht) in W; [|lia]. subst bs.
    rewrite <- app_assoc, <- Z.add_assoc. rewrite len_app in *. rewrite <- app_assoc, <- Z.add_assoc.
    pose proof (len_nonneg (enc_string b)). pose proof (len_nonneg (enc_tag wt_string tag)).
    pose proof Wt as Wd. cbn [wf_ty] in Wd. change (wf_d d' = true) in Wd.
    destruct t as [| | | | |e' a]; try (cbn in C; tauto).
    rewrite compat_msgs in C. inversion C as [|? ? C1 C2]; subst. rewrite upd_msgs in D. cbn [map] in D.
      assert (M : decs d' (map defaults e') (Stream (b ++ bs' ++ rest) (len b)) (Ok (upd_l d' (map defaults e') m', Stream (bs' ++ rest) 0))).
      { pose proof (IH [] [] (map defaults e') (bs' ++ rest) 0%Z _ eq_refl C1 Wd eq_refl ltac:(lia) ltac:(lia)
          (decs_done d' ([] ++ upd_l d' (map defaults e') m') (bs' ++ rest))) as Q.
        cbn [app] in Q. rewrite Z.add_0_r in Q. exact Q. }
      destruct M as [f0 Hm].
      eapply (decs_field d m tag wt_string (FCallMsg d') (VMsgs e' a) (VMsgs e' (a ++ [upd_l d' (map defaults e') m'])));
        [exact Ht|unfold wt_string; lia|lia|exact F| |].
      * exists f0. intros f Lf. cbn [dec_field]. change (Z.eqb wt_string wt_string) with true.
        rewrite substream_ok by (assumption || lia). cbn [bind callback]. rewrite Hm by exact Lf. reflexivity.
      * eapply IHl; [rewrite compat_msgs; exact C2|exact Wt|exact Ht|eapply find_set, F|lia|lia|].
        rewrite set_set by (eapply find_lt, F). rewrite upd_msgs. rewrite <- app_assoc. exact D.
  - intros D d1 m1 t rest L r E C W Ld S HL H. destruct t; cbn in C; try tauto; exact H.
  - intros D k f d x v bs bs' X IHX Y IHY d1 m1 t rest L r E C W Ld S HL H.
    destruct t as [|y t]; cbn [compat_l] in C; try tauto. destruct C as [C1 C2].
    rewrite len_app in *. rewrite <- app_assoc, <- Z.add_assoc. pose proof (len_nonneg bs). pose proof (len_nonneg bs').
    pose proof W as W0. rewrite E in W0.
    destruct (wf_d_in _ W0) as [N A]. rewrite map_app in N. cbn [map fst] in N.
    apply Forall_app in A as [_ A]. inversion A as [|? ? [A1 A2] A3]; subst. cbn [fst snd] in *.
    assert (~ In k (map fst d1)) by (apply NoDup_remove_2 in N; intros I; apply N; apply in_or_app; now left).
    eapply (IHX y); [exact C1|exact A2|exact A1|now apply find_field_app|lia|lia|].
    rewrite set_nth_app by exact Ld. cbn [upd_l] in H.
    replace (m1 ++ upd f y x :: t) with ((m1 ++ [upd f y x]) ++ t) by (rewrite <- app_assoc; reflexivity).
    apply (IHY (d1 ++ [(k, f)])); [rewrite <- app_assoc; reflexivity|exact C2|exact W|rewrite !app_length; cbn; lia|lia|lia|].
    rewrite <- (app_assoc m1). exact H.
  - intros D d v u bs U X IH d1 m1 t rest L r E C W Ld S HL H. rewrite len_app in *. rewrite <- app_assoc, <- Z.add_assoc.
    pose proof (len_nonneg bs). pose proof (len_nonneg u). apply decs_unknown; [exact U|lia|lia|].
    apply (IH d1 m1); try assumption; lia.
Qed.
Lemma pb_decode_ext d t v bs : ext_msg d d v bs -> compat_l d (map defaults t) v -> wf_d d = true -> (len bs < 2 ^ 32)%Z ->
  pb_decode d t bs = Ok (upd_l d (map defaults t) v).
Proof.
  intros X C W S. pose proof (pb_decode_safe d t bs) as N. unfold pb_decode in *.
  pose proof (proj2 ext_ok d d v bs X [] [] (map defaults t) [] 0%Z _ eq_refl C W eq_refl S ltac:(lia)
    (decs_done d ([] ++ upd_l d (map defaults t) v) [])) as D. cbn [app] in D. rewrite Z.add_0_r, app_nil_r in D.
  rewrite (decs_fuel _ _ _ _ (Datatypes.S (length bs)) D); [reflexivity|].
  intros E. rewrite E in N. now apply N.
Qed.

(** ** Encoding *)
Lemma wire_one tag b : (0 < tag < 2 ^ 29)%Z -> (len b < 2 ^ 64)%Z -> wire [WBytes tag b] (enc_tag wt_string tag ++ enc_string b).
Proof.
  intros Ht Hb. unfold enc_tag, enc_string. pose proof (len_nonneg b). pose proof (w_bytes tag b [] (enc_varint (tag * 8 + wt_string)) (enc_varint (len b)) []) as X. rewrite app_nil_r in X. apply X; [| |constructor].
  - apply enc_varint_ok. unfold wt_string. lia.
  - apply enc_varint_ok. unfold len in *. lia.
Qed.
Lemma wire_cat a b x y : wire a x -> wire b y -> wire (a ++ b) (x ++ y).
Proof. intros W V. induction W; cbn [app]; [exact V| |]; rewrite <- !app_assoc; now constructor. Qed.
Lemma enc_num_wire tag z : (0 < tag < 2 ^ 29)%Z ->
  wire (wnum tag z) (if Z.eqb z 0 then [] else enc_tag wt_varint tag ++ enc_varint (u64 z)).
Proof.
  intros Ht. unfold wnum. destruct (Z.eqb z 0); [constructor|]. rewrite <- (app_nil_r (enc_varint _)). constructor; [| |constructor].
  - unfold enc_tag, wt_varint. rewrite Z.add_0_r. apply enc_varint_ok. lia.
  - apply enc_varint_ok, u64_range.
Qed.
Lemma enc_strs_wire tag l : (0 < tag < 2 ^ 29)%Z -> (len (flat_map (fun s => enc_tag wt_string tag ++ enc_string s) l) < 2 ^ 64)%Z ->
  wire (map (WBytes tag) l) (flat_map (fun s => enc_tag wt_string tag ++ enc_string s) l).
Proof.
  intros Ht. induction l as [|s l IH]; intros S; [constructor|]. cbn [map flat_map] in *. rewrite !len_app in S.
  change (WBytes tag s :: map (WBytes tag) l) with ([WBytes tag s] ++ map (WBytes tag) l).
  pose proof (len_nonneg (enc_tag wt_string tag)). pose proof (len_nonneg (enc_string s)).
  pose proof (len_nonneg (flat_map (fun s => enc_tag wt_string tag ++ enc_string s) l)).
  apply wire_cat; [|apply IH; lia]. apply wire_one; [exact Ht|]. unfold enc_string in *. rewrite len_app in *.
  pose proof (len_nonneg (enc_varint (len s))). lia.
Qed.
Lemma enc_string_len b : (len b <= len (enc_string b))%Z.
Proof. unfold enc_string. rewrite len_app. pose proof (len_nonneg (enc_varint (len b))). lia. Qed.
Definition enc_ext_ok (ty : ftype) : Prop := forall tag t v, compat ty t v -> wf_ty ty = true -> (0 < tag < 2 ^ 29)%Z ->
  (len (enc_field tag ty v) < 2 ^ 64)%Z -> ext_field tag ty v (enc_field tag ty v).
Lemma enc_msg_ext D d : Forall (fun x => enc_ext_ok (snd x)) d -> forall t v, compat_l d t v -> wf_d d = true ->
  (len (enc_msg d v) < 2 ^ 64)%Z -> ext_msg D d v (enc_msg d v).
Proof.
  induction 1 as [|[k f] d Hf F IH]; intros t v C W S.
  - destruct t, v; cbn in C; try tauto. constructor.
  - destruct t as [|x t], v as [|y v]; cbn [compat_l] in C; try tauto. destruct C as [C1 C2].
    cbn [enc_msg] in *. rewrite len_app in *. pose proof (len_nonneg (enc_field k f y)). pose proof (len_nonneg (enc_msg d v)).
    destruct (wf_d_in _ W) as [N A]. inversion A as [|? ? [A1 A2] A3]; subst. cbn [fst snd] in *.
    constructor; [eapply Hf; try eassumption; lia|]. apply (IH t); [exact C2| |lia].
    cbn [wf_d] in W. now apply andb_true_iff in W as [_ W].
Qed.
Lemma enc_ext_all ty : enc_ext_ok ty.
Proof.
  induction ty as [| | | |d IHd| |d IHd] using ftype_ind'; intros tag t v C W Ht S.
  - destruct t, v; cbn in C; try tauto. constructor; [cbn; tauto|]. now apply enc_num_wire.
  - destruct t, v; cbn in C; try tauto. constructor; [cbn; tauto|]. now apply enc_num_wire.
  - destruct t, v; cbn in C; try tauto. constructor; [cbn; tauto|].
    pose proof (enc_num_wire tag z0 Ht) as X. unfold u64 in X. unfold u32 in C. rewrite Z.mod_small in X by lia. exact X.
  - destruct t, v; cbn in C; try tauto. constructor; [cbn; tauto|]. pose proof (enc_num_wire tag z0 Ht) as X.
    destruct C as [_ [->| ->]]; exact X.
  - destruct t as [|h a| | | |], v as [|h' b| | | |]; try (cbn in C; tauto). destruct h'; [|apply xf_none].
    rewrite compat_msg in C. rewrite enc_field_msg in *. cbn [wf_ty] in W. change (wf_d d = true) in W.
    rewrite len_app in S. pose proof (enc_string_len (enc_msg d b)). pose proof (len_nonneg (enc_tag wt_string tag)).
    eapply xf_msg; [eapply enc_msg_ext; [exact IHd|exact C|exact W|lia]|]. apply wire_one; [exact Ht|lia].
  - destruct t, v; cbn in C; try tauto; try apply xf_null.
    + apply xf_str. cbn [enc_field] in *. rewrite len_app in S. pose proof (enc_string_len s). pose proof (len_nonneg (enc_tag wt_string tag)).
      apply wire_one; [exact Ht|lia].
    + apply xf_strs. cbn [enc_field] in *. now apply enc_strs_wire.
    + apply xf_str. cbn [enc_field] in *. rewrite len_app in S. pose proof (enc_string_len s0). pose proof (len_nonneg (enc_tag wt_string tag)).
      apply wire_one; [exact Ht|lia].
    + apply xf_strs. cbn [enc_field] in *. now apply enc_strs_wire.
  - cbn [wf_ty] in W. change (wf_d d = true) in W.
    destruct t as [| | | | |e a], v as [| | | | |e' b]; try (cbn in C; tauto); try apply xf_null.
    rewrite compat_msgs in C. rewrite enc_field_msgs in *. induction C as [|m b Cm C IH]; [apply xf_msgs_nil|].
        cbn [flat_map] in *. rewrite !len_app in S. pose proof (enc_string_len (enc_msg d m)). pose proof (len_nonneg (enc_tag wt_string tag)).
        pose proof (len_nonneg (flat_map (fun m => enc_tag wt_string tag ++ enc_string (enc_msg d m)) b)). pose proof (len_nonneg (enc_msg d m)).
        eapply xf_msgs; [eapply enc_msg_ext; [exact IHd|exact Cm|exact W|lia]| |apply IH; lia].
        apply wire_one; [exact Ht|lia].
Qed.
Lemma pb_encode_ext d t v : compat_l d t v -> wf_d d = true -> (len (enc_msg d v) < 2 ^ 64)%Z -> ext_msg d d v (enc_msg d v).
Proof.
  intros C W S. eapply enc_msg_ext; [|exact C|exact W|exact S]. apply Forall_forall. intros; apply enc_ext_all.
Qed.
