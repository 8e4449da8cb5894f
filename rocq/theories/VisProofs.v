(** Lemmas about the protobuf decoder. *)
From Verif Require Import Base Sample MonModel MonProofs StrModel FltModel FltSpec FltProofs VisModel VisSpec.

(** ** Induction over messages *)
Definition sub_msgs (b : vbody vmsg) : list vmsg :=
  match b with VSub (Some m) => [m] | VSubs ms => ms | _ => [] end.
Lemma vmsg_deep (P : vmsg -> Prop) :
  (forall ty fs, (forall f m, In f fs -> In m (sub_msgs (snd f)) -> P m) -> P (VMsg ty fs)) -> forall m, P m.
Proof.
  intros H. fix IH 1. intros [ty fs]. apply H. clear ty. induction fs as [|[[[n num] ft] b] fs IHf]; intros f m I J; [destruct I|].
  destruct I as [<-|I]; [|exact (IHf f m I J)]. cbn [snd] in J. destruct b as [s v|vs|[m'|]|ms]; cbn in J; try contradiction.
  - destruct J as [<-|[]]. apply IH.
  - induction ms as [|m' ms IHm]; [destruct J|]. destruct J as [<-|J]; [apply IH|exact (IHm J)].
Qed.

(** ** The functions, unfolded *)
Lemma name_under n g : full_name n g = under g [(n, None)].
Proof. destruct g; reflexivity. Qed.
Lemma index_under n g i : with_index (under g [(n, None)]) i = under g [(n, Some (int_text i))].
Proof. destruct g; cbn; [reflexivity|]. unfold with_index. cbn. rewrite <- app_assoc. reflexivity. Qed.
Lemma star_under n g : under g [(n, None)] ++ str "[*]" = under g [(n, Some [42%Z])].
Proof. destruct g; cbn; [reflexivity|]. rewrite <- app_assoc. reflexivity. Qed.
Definition ok_index (acc : text -> bool) (g n : text) (i : Z) : bool :=
  (acc (under g [(n, Some [42%Z])]) || acc (under g [(n, Some (int_text i))]))%bool.
Definition visit_field (acc : text -> bool) (full : text) (f : vfield) : list vevent :=
  match f with
  | (n, num, fty, b) =>
      if acc (under full [(n, None)]) then
        match b with
        | VOne _ v => [VScalar n full num fty v]
        | VMany vs => VArray n full num fty (Z.of_nat (length vs)) ::
            flat_map (fun iv => if ok_index acc full n (fst iv) then [VElement n full (fst iv) fty (snd iv)] else []) (numbered 0 vs) ++ [VArrayEnd]
        | VSub None => []
        | VSub (Some m') => if listed m' then visit acc n full false num m' else []
        | VSubs ms => VArray n full num fty (Z.of_nat (length ms)) ::
            flat_map (fun im => if (ok_index acc full n (fst im) && listed (snd im))%bool
                                then visit acc (with_index n (fst im)) full true (fst im) (snd im) else []) (numbered 0 ms) ++ [VArrayEnd]
        end
      else []
  end.
Lemma elements_eq ok n g ty vs : forall i,
  elements ok n g ty i vs = flat_map (fun iv => if ok (fst iv) then [VElement n g (fst iv) ty (snd iv)] else []) (numbered i vs).
Proof. induction vs as [|v vs IH]; intros i; cbn; [reflexivity|]. rewrite IH. reflexivity. Qed.
Lemma flat_map_ext_in {A B} (f g : A -> list B) l : (forall x, In x l -> f x = g x) -> flat_map f l = flat_map g l.
Proof. induction l as [|x l IH]; intros H; cbn; [reflexivity|]. rewrite (H x), IH; auto; [intros; apply H; cbn; auto|cbn; auto]. Qed.
Lemma visit_eq acc n g a id ty fs : let full := under g [(n, None)] in
  visit acc n g a id (VMsg ty fs) = VStart a n g id ty (map vname fs) :: flat_map (visit_field acc full) fs ++ [VEnd a].
Proof.
  intros full. cbn [visit]. rewrite name_under. fold full. f_equal. f_equal. apply flat_map_ext_in.
  intros [[[n' num] fty] b] _. unfold visit_field. rewrite name_under. destruct (acc (under full [(n', None)])); [|reflexivity].
  destruct b as [s v|vs|[m'|]|ms]; try reflexivity.
  - rewrite elements_eq. f_equal. f_equal. apply flat_map_ext_in. intros [i v] _. cbn [fst snd].
    rewrite star_under, index_under. reflexivity.
  - f_equal. f_equal. generalize 0%Z. induction ms as [|m' ms IH]; intros i; [reflexivity|].
    cbn [numbered flat_map fst snd]. rewrite IH. unfold ok_index. rewrite star_under, index_under. reflexivity.
Qed.
Definition places_field (f : vfield) : list (path * vscalar) :=
  match f with
  | (n, _, _, b) =>
      match b with
      | VOne _ v => [([(n, None)], v)]
      | VMany vs => map (fun iv => ([(n, Some (int_text (fst iv)))], snd iv)) (numbered 0 vs)
      | VSub None => []
      | VSub (Some m') => if listed m' then below (n, None) (places m') else []
      | VSubs ms => flat_map (fun im => if listed (snd im) then below (n, Some (int_text (fst im))) (places (snd im)) else []) (numbered 0 ms)
      end
  end.
Lemma places_eq ty fs : places (VMsg ty fs) = flat_map places_field fs.
Proof.
  cbn [places]. apply flat_map_ext_in. intros [[[n num] fty] b] _. unfold places_field.
  destruct b as [s v|vs|[m'|]|ms]; try reflexivity. generalize 0%Z. induction ms as [|m' ms IH]; intros i; [reflexivity|].
  cbn [numbered flat_map fst snd]. rewrite IH. reflexivity.
Qed.
Definition field_ok (f : vfield) : Prop :=
  match snd f with
  | VOne _ _ => True
  | VMany vs => (Z.of_nat (length vs) < 2147483648)%Z
  | VSub None => True
  | VSub (Some m') => well_named m'
  | VSubs ms => (Z.of_nat (length ms) < 2147483648)%Z /\ forall m, In m ms -> well_named m
  end.
Lemma fold_and {A} (f : A -> Prop) l : fold_right and True (map f l) <-> forall x, In x l -> f x.
Proof.
  induction l as [|y l IH]; cbn; [tauto|]. rewrite IH. split.
  - intros [H1 H2] x [<-|I]; auto.
  - intros H. split; auto.
Qed.
Lemma well_named_eq ty fs : well_named (VMsg ty fs) <->
  Forall field_name (map vname fs) /\ NoDup (map vname fs) /\ forall f, In f fs -> field_ok f.
Proof.
  cbn [well_named]. rewrite fold_and. split; intros (A & B & C); (split; [exact A|split; [exact B|]]); intros f I; specialize (C f I);
    unfold field_ok in *; destruct (snd f) as [s v|vs|[m'|]|ms]; auto; destruct C as [C D]; (split; [exact C|]);
    apply (fold_and well_named); exact D.
Qed.
Lemma sub_named f m : field_ok f -> In m (sub_msgs (snd f)) -> well_named m.
Proof.
  unfold field_ok. destruct (snd f) as [s v|vs|[m'|]|ms]; cbn; try contradiction; intros H I.
  - destruct I as [<-|[]]. exact H.
  - apply H. exact I.
Qed.
Lemma numbered_in {A} (l : list A) : forall i j x, In (j, x) (numbered i l) -> In x l /\ (i <= j < i + Z.of_nat (length l))%Z.
Proof.
  induction l as [|y l IH]; intros i j x I; [destruct I|]. cbn [numbered] in I. cbn [length]. destruct I as [E|I].
  - injection E as -> ->. split; [left; reflexivity|lia].
  - apply IH in I as [I B]. split; [right; exact I|lia].
Qed.

(** ** The values *)
Lemma flat_flat {A B C} (f : A -> list B) (g : B -> list C) l : flat_map g (flat_map f l) = flat_map (fun x => flat_map g (f x)) l.
Proof. induction l as [|x l IH]; cbn; [reflexivity|]. rewrite flat_map_app, IH. reflexivity. Qed.
Lemma filter_flat {A B} (p : B -> bool) (f : A -> list B) l : filter p (flat_map f l) = flat_map (fun x => filter p (f x)) l.
Proof. induction l as [|x l IH]; cbn; [reflexivity|]. rewrite filter_app, IH. reflexivity. Qed.
Lemma map_flat {A B C} (g : B -> C) (f : A -> list B) l : map g (flat_map f l) = flat_map (fun x => map g (f x)) l.
Proof. induction l as [|x l IH]; cbn; [reflexivity|]. rewrite map_app, IH. reflexivity. Qed.
Lemma places_nonempty m : forall p v, In (p, v) (places m) -> p <> [].
Proof.
  induction m as [ty fs IH] using vmsg_deep. intros p v I. rewrite places_eq in I. apply in_flat_map in I as ([[[n num] fty] b] & Hf & I).
  unfold places_field in I. destruct b as [s w|vs|[m'|]|ms].
  - destruct I as [E|[]]. injection E as <- <-. discriminate.
  - apply in_map_iff in I as (x & E & _). injection E as <- <-. discriminate.
  - destruct (listed m'); [|destruct I]. apply in_map_iff in I as (x & E & _). injection E as <- <-. discriminate.
  - destruct I.
  - apply in_flat_map in I as (x & _ & I). destruct (listed (snd x)); [|destruct I]. apply in_map_iff in I as (y & E & _). injection E as <- <-. discriminate.
Qed.
Definition seen (acc : text -> bool) (base : text) (l : list (path * vscalar)) : list (text * vscalar) :=
  map (fun pv => (under base (fst pv), snd pv)) (filter (fun pv => allowed acc base (fst pv)) l).
Lemma seen_flat {A} acc base (f : A -> list (path * vscalar)) l : seen acc base (flat_map f l) = flat_map (fun x => seen acc base (f x)) l.
Proof. unfold seen. rewrite filter_flat, map_flat. reflexivity. Qed.
Lemma under_cons base s p : fst s <> [] -> p <> [] -> under base (s :: p) = under (under base [s]) p.
Proof.
  intros N P. assert (S : show_step s <> []) by (destruct s as [n [i|]]; cbn in *; destruct n; try congruence; discriminate).
  assert (E : under base [s] <> []).
  { destruct base; cbn; [exact S|]. discriminate. }
  unfold under at 2. destruct (under base [s]) as [|c t] eqn:U; [congruence|]. rewrite <- U. clear U E. unfold under. destruct base as [|d base].
  - rewrite show_cons by exact P. reflexivity.
  - rewrite show_cons by exact P. cbn [app show]. rewrite <- !app_assoc. reflexivity.
Qed.
Lemma seen_below acc base s l : fst s <> [] -> (forall pv, In pv l -> fst pv <> []) ->
  seen acc base (below s l) =
    if (acc (under base [(fst s, None)]) && match snd s with None => true | Some i => acc (under base [(fst s, Some [42%Z])]) || acc (under base [(fst s, Some i)]) end)%bool
    then seen acc (under base [s]) l else [].
Proof.
  intros N. destruct s as [n o]. cbn [fst snd] in *. induction l as [|[p v] l IH]; intros H.
  - cbn. destruct (_ && _)%bool; reflexivity.
  - specialize (IH (fun pv I => H pv (or_intror I))). pose proof (H (p, v) (or_introl eq_refl)) as Np. cbn in Np.
    unfold seen, below in *. cbn [map filter fst snd allowed].
    destruct (acc (under base [(n, None)]) && match o with None => true | Some i => acc (under base [(n, Some [42%Z])]) || acc (under base [(n, Some i)]) end)%bool; cbn [andb].
    + destruct (allowed acc (under base [(n, o)]) p); [|exact IH]. cbn [map fst snd]. rewrite IH.
      f_equal. f_equal. exact (under_cons base (n, o) p N Np).
    + exact IH.
Qed.
Lemma values_lemma acc m : well_named m -> forall n g a id,
  flat_map said (visit acc n g a id m) = seen acc (full_name n g) (places m).
Proof.
  induction m as [ty fs IH] using vmsg_deep. intros W n g a id. apply well_named_eq in W as (WN & _ & W).
  rewrite visit_eq, places_eq, name_under. set (full := under g [(n, None)]). cbn [flat_map said app].
  rewrite flat_map_app. cbn [flat_map said]. rewrite !app_nil_r. rewrite flat_flat, seen_flat. apply flat_map_ext_in.
  intros f If. pose proof (W f If) as Wf. assert (Nf : vname f <> []).
  { rewrite Forall_forall in WN. apply (WN (vname f)). apply in_map. exact If. }
  specialize (IH f). destruct f as [[[n' num] fty] b]. cbn [snd] in IH. unfold vname in Nf; cbn [fst snd] in Nf.
  unfold visit_field, places_field.
  assert (NE : forall m', forall pv, In pv (places m') -> fst pv <> []) by (intros m' [p v] I; exact (places_nonempty m' p v I)).
  destruct b as [s v|vs|[m'|]|ms].
  - unfold seen. cbn [filter fst allowed]. destruct (acc (under full [(n', None)])); reflexivity.
  - unfold seen. transitivity (flat_map (fun iv => if (acc (under full [(n', None)]) && ok_index acc full n' (fst iv))%bool then [(under full [(n', Some (int_text (fst iv)))], snd iv)] else []) (numbered 0 vs)).
    + destruct (acc (under full [(n', None)])).
      * cbn [flat_map said app andb]. rewrite flat_map_app, flat_flat. cbn [flat_map said]. rewrite app_nil_r. apply flat_map_ext_in. intros [i v] _. cbn [fst snd].
        destruct (ok_index acc full n' i); reflexivity.
      * cbn [andb flat_map]. induction (numbered 0 vs); cbn; auto.
    + induction (numbered 0 vs) as [|[i v] l IHl]; [reflexivity|]. cbn [flat_map map filter fst snd allowed].
      rewrite andb_true_r. fold (ok_index acc full n' i). rewrite IHl. destruct (acc (under full [(n', None)]) && ok_index acc full n' i)%bool; reflexivity.
  - destruct (listed m') eqn:L.
    + rewrite (seen_below acc full (n', None)); [|exact Nf|apply NE]. cbn [fst snd]. rewrite andb_true_r.
      destruct (acc (under full [(n', None)])); [|reflexivity].
      rewrite (IH m' If (or_introl eq_refl) (sub_named _ m' Wf (or_introl eq_refl))). rewrite name_under. reflexivity.
    + destruct (acc (under full [(n', None)])); reflexivity.
  - destruct (acc (under full [(n', None)])); reflexivity.
  - rewrite seen_flat. transitivity (flat_map (fun im => if (acc (under full [(n', None)]) && (ok_index acc full n' (fst im) && listed (snd im)))%bool then flat_map said (visit acc (with_index n' (fst im)) full true (fst im) (snd im)) else []) (numbered 0 ms)).
    + destruct (acc (under full [(n', None)])).
      * cbn [flat_map said app andb]. rewrite flat_map_app, flat_flat. cbn [flat_map said]. rewrite app_nil_r. apply flat_map_ext_in. intros [i m'] _. cbn [fst snd].
        destruct (ok_index acc full n' i && listed m')%bool; reflexivity.
      * cbn [andb flat_map]. induction (numbered 0 ms); cbn; auto.
    + apply flat_map_ext_in. intros [i m'] J. apply numbered_in in J as [J _]. cbn [fst snd].
      destruct (listed m'); [|rewrite !andb_false_r; reflexivity]. rewrite andb_true_r.
      rewrite (seen_below acc full (n', Some (int_text i))); [|exact Nf|apply NE]. cbn [fst snd]. fold (ok_index acc full n' i).
      destruct (acc (under full [(n', None)]) && ok_index acc full n' i)%bool; [|reflexivity].
      rewrite (IH m' If J (sub_named _ m' Wf J)). rewrite name_under. reflexivity.
Qed.

(** ** The order of the calls *)
Lemma check_none es : fold_left vcheck1 es None = None.
Proof. induction es as [|e es IH]; [reflexivity|]. cbn. destruct e as [[]| | | | |]; exact IH. Qed.
Lemma in_order_app st a b : in_order st a -> in_order st b -> in_order st (a ++ b).
Proof. unfold in_order. intros H1 H2. rewrite fold_left_app, H1. exact H2. Qed.
Lemma in_order_flat {A} st (f : A -> list vevent) l : (forall x, In x l -> in_order st (f x)) -> in_order st (flat_map f l).
Proof.
  induction l as [|x l IH]; intros H; [reflexivity|]. cbn. apply in_order_app; [apply H; left; reflexivity|apply IH; intros y I; apply H; right; exact I].
Qed.
Lemma order_lemma acc m : forall n g a id outer,
  match a, outer with
  | false, OMsg _ c :: _ => c = g
  | true, OArr c size :: _ => under g [(n, None)] = c ++ [91%Z] ++ int_text id ++ [93%Z] /\ (0 <= id < size)%Z
  | _, _ => False
  end -> in_order outer (visit acc n g a id m).
Proof.
  induction m as [ty fs IH] using vmsg_deep. intros n g a id outer H. rewrite visit_eq. set (full := under g [(n, None)]).
  assert (S : vcheck1 (Some outer) (VStart a n g id ty (map vname fs)) = Some (OMsg a full :: outer)).
  { destruct a, outer as [|[a' c|c size] outer]; try contradiction; cbn [vcheck1]; fold full in H |- *.
    - destruct H as [E B]. rewrite E at 1. rewrite eqb_refl, (proj2 (Z.leb_le _ _)), (proj2 (Z.ltb_lt _ _)) by lia. reflexivity.
    - subst c. rewrite eqb_refl. reflexivity. }
  unfold in_order. cbn [fold_left]. rewrite S, fold_left_app.
  assert (M : in_order (OMsg a full :: outer) (flat_map (visit_field acc full) fs)).
  { apply in_order_flat. intros f If. specialize (IH f). destruct f as [[[n' num] fty] b]. cbn [snd] in IH. unfold visit_field.
    destruct (acc (under full [(n', None)])); [|reflexivity]. destruct b as [s v|vs|[m'|]|ms].
    - unfold in_order. cbn. rewrite eqb_refl. reflexivity.
    - unfold in_order. cbn [fold_left vcheck1]. rewrite eqb_refl, fold_left_app.
      assert (Q : in_order (OArr (under full [(n', None)]) (Z.of_nat (length vs)) :: OMsg a full :: outer)
          (flat_map (fun iv => if ok_index acc full n' (fst iv) then [VElement n' full (fst iv) fty (snd iv)] else []) (numbered 0 vs))).
      { apply in_order_flat. intros [i v] J. apply numbered_in in J as [_ J]. cbn [fst snd]. destruct (ok_index acc full n' i); [|reflexivity].
        unfold in_order. cbn [fold_left vcheck1]. rewrite eqb_refl, (proj2 (Z.leb_le _ _)), (proj2 (Z.ltb_lt _ _)) by lia. reflexivity. }
      rewrite Q. reflexivity.
    - destruct (listed m'); [|reflexivity]. apply (IH m' If (or_introl eq_refl)). reflexivity.
    - reflexivity.
    - unfold in_order. cbn [fold_left vcheck1]. rewrite eqb_refl, fold_left_app.
      assert (Q : in_order (OArr (under full [(n', None)]) (Z.of_nat (length ms)) :: OMsg a full :: outer)
          (flat_map (fun im => if (ok_index acc full n' (fst im) && listed (snd im))%bool then visit acc (with_index n' (fst im)) full true (fst im) (snd im) else []) (numbered 0 ms))).
      { apply in_order_flat. intros [i m'] J. apply numbered_in in J as [I J]. cbn [fst snd]. destruct (_ && _)%bool; [|reflexivity].
        apply (IH m' If I). split; [|lia]. change (under full [(n', None)] ++ [91%Z] ++ int_text i ++ [93%Z]) with (with_index (under full [(n', None)]) i).
        rewrite index_under. destruct full; reflexivity. }
      rewrite Q. reflexivity. }
  rewrite M. cbn. rewrite Bool.eqb_reflx. reflexivity.
Qed.

(** ** Names *)
Lemma index_text i : (0 <= i < 2147483648)%Z -> index (int_text i).
Proof.
  intros B. destruct (int_text_spec i B) as (D & N & _). right. split; [exact N|]. exact D.
Qed.
Lemma below_in s l p v : In (p, v) (below s l) -> exists q, p = s :: q /\ In (q, v) l.
Proof. intros I. apply in_map_iff in I as ([q w] & E & I). injection E as <- <-. eauto. Qed.
Lemma field_step f p v : field_name (vname f) -> field_ok f -> In (p, v) (places_field f) ->
  exists o q, p = (vname f, o) :: q /\ good_step (vname f, o) /\
    (q = [] \/ exists m, In m (sub_msgs (snd f)) /\ In (q, v) (places m)).
Proof.
  destruct f as [[[n num] fty] b]. unfold vname, field_ok, places_field; cbn [fst snd]. intros N W I.
  assert (G : forall o, (forall i, o = Some i -> index i) -> good_step (n, o)) by (intros o H; split; [exact N|exact H]).
  destruct b as [s w|vs|[m'|]|ms].
  - destruct I as [E|[]]. injection E as <- <-. exists None, []. split; [reflexivity|]. split; [apply G; discriminate|auto].
  - apply in_map_iff in I as ([i w] & E & J). apply numbered_in in J as [_ J]. injection E as <- <-. cbn [fst snd].
    exists (Some (int_text i)), []. split; [reflexivity|]. split; [apply G|auto]. intros j E. injection E as <-. apply index_text. lia.
  - destruct (listed m'); [|destruct I]. apply below_in in I as (q & -> & I). exists None, q. split; [reflexivity|].
    split; [apply G; discriminate|]. right. exists m'. cbn. auto.
  - destruct I.
  - apply in_flat_map in I as ([i m'] & J & I). apply numbered_in in J as [Im J]. cbn [fst snd] in I. destruct (listed m'); [|destruct I].
    apply below_in in I as (q & -> & I). exists (Some (int_text i)), q. split; [reflexivity|]. split.
    + apply G. intros j E. injection E as <-. apply index_text. lia.
    + right. exists m'. cbn. auto.
Qed.
Lemma places_good m : well_named m -> forall p v, In (p, v) (places m) -> good p.
Proof.
  induction m as [ty fs IH] using vmsg_deep. intros W p v I. apply well_named_eq in W as (WN & _ & W). rewrite places_eq in I.
  apply in_flat_map in I as (f & If & I). rewrite Forall_forall in WN.
  destruct (field_step f p v) as (o & q & -> & G & Q); [apply WN; apply in_map; exact If|apply W; exact If|exact I|].
  split; [discriminate|]. constructor; [exact G|]. destruct Q as [->|(m & Im & Iq)]; [constructor|].
  apply (IH f m If Im (sub_named f m (W f If) Im) q v Iq).
Qed.
Lemma nodup_join {A} (a b : list A) : NoDup a -> NoDup b -> (forall x, In x a -> ~ In x b) -> NoDup (a ++ b).
Proof.
  intros Na Nb D. induction Na as [|x a Nx Na IH]; [exact Nb|]. cbn. constructor.
  - rewrite in_app_iff. intros [I|I]; [tauto|]. exact (D x (or_introl eq_refl) I).
  - apply IH. intros y I. apply D. right. exact I.
Qed.
Lemma nodup_flat {A B} (f : A -> list B) l : NoDup l -> (forall x, In x l -> NoDup (f x)) ->
  (forall x y z, In x l -> In y l -> In z (f x) -> In z (f y) -> x = y) -> NoDup (flat_map f l).
Proof.
  induction l as [|x l IH]; intros N H D; [constructor|]. inversion N as [|? ? Nx N']; subst. cbn. apply nodup_join.
  - apply H. left. reflexivity.
  - apply IH; [exact N'|intros y I; apply H; right; exact I|]. intros a b z Ia Ib. apply D; right; assumption.
  - intros z I1 I2. apply in_flat_map in I2 as (y & Iy & I2). apply Nx.
    rewrite (D x y z (or_introl eq_refl) (or_intror Iy) I1 I2). exact Iy.
Qed.

Lemma numbered_nodup {A} (l : list A) : forall i, NoDup (numbered i l).
Proof.
  induction l as [|x l IH]; intros i; [constructor|]. cbn. constructor; [|apply IH].
  intros I. apply numbered_in in I as [_ B]. lia.
Qed.
Lemma numbered_same {A} (l : list A) : forall i j x y, In (j, x) (numbered i l) -> In (j, y) (numbered i l) -> x = y.
Proof.
  induction l as [|z l IH]; intros i j x y I J; [destruct I|]. cbn in I, J. destruct I as [E|I], J as [E'|J].
  - congruence.
  - injection E as -> ->. apply numbered_in in J as [_ B]. lia.
  - injection E' as -> ->. apply numbered_in in I as [_ B]. lia.
  - exact (IH _ _ _ _ I J).
Qed.
Lemma paths_below s l : map fst (below s l) = map (cons s) (map fst l).
Proof. unfold below. rewrite !map_map. reflexivity. Qed.
Lemma nodup_cons_paths (s : fstep) (l : list path) : NoDup l -> NoDup (map (cons s) l).
Proof. intros N. apply FinFun.Injective_map_NoDup; [|exact N]. intros a b E. congruence. Qed.
Lemma paths_nodup m : well_named m -> NoDup (map fst (places m)).
Proof.
  induction m as [ty fs IH] using vmsg_deep. intros W. apply well_named_eq in W as (WN & WD & W). rewrite places_eq, map_flat.
  rewrite Forall_forall in WN.
  assert (ST : forall f p, In f fs -> In p (map fst (places_field f)) -> exists o q, p = (vname f, o) :: q).
  { intros f p If I. apply in_map_iff in I as ([p' v] & <- & I).
    destruct (field_step f p' v) as (o & q & -> & _); [apply WN; apply in_map; exact If|apply W; exact If|exact I|]. exists o, q. reflexivity. }
  apply nodup_flat.
  - clear -WD. induction fs as [|f fs IHf]; [constructor|]. cbn in WD. inversion WD as [|? ? N D]; subst. constructor; [|auto].
    intros I. apply N. apply in_map. exact I.
  - intros f If. pose proof (W f If) as Wf. specialize (IH f). destruct f as [[[n num] fty] b]. unfold field_ok in Wf. cbn [snd] in *.
    unfold places_field. destruct b as [s w|vs|[m'|]|ms].
    + repeat constructor. cbn. tauto.
    + rewrite map_map. cbn [fst]. assert (Q : forall l, NoDup l -> (forall x, In x l -> (0 <= fst x < 2147483648)%Z) -> (forall x y, In x l -> In y l -> fst x = fst y -> x = y) ->
        NoDup (map (fun iv : Z * vscalar => [(n, Some (int_text (fst iv)))]) l)).
      { clear. induction l as [|x l IHl]; intros N B E; [constructor|]. inversion N as [|? ? Nx N']; subst. cbn. constructor.
        - intros I. apply in_map_iff in I as (y & E' & Iy). injection E' as E'. apply int_text_inj in E'; [|apply B; right; exact Iy|apply B; left; reflexivity].
          apply Nx. rewrite (E x y); [exact Iy|left; reflexivity|right; exact Iy|congruence].
        - apply IHl; [exact N'|intros y I; apply B; right; exact I|]. intros y z Iy Iz. apply E; right; assumption. }
      apply Q; [apply numbered_nodup| |].
      * intros [i x] I. apply numbered_in in I as [_ I]. cbn. lia.
      * intros [i x] [j y] I J E. cbn in E. subst j. f_equal. exact (numbered_same _ _ _ _ _ I J).
    + destruct (listed m'); [|constructor]. rewrite paths_below. apply nodup_cons_paths. apply (IH m' If (or_introl eq_refl) Wf).
    + constructor.
    + rewrite map_flat. destruct Wf as [B Wm]. apply nodup_flat.
      * apply numbered_nodup.
      * intros [i m'] I. apply numbered_in in I as [I _]. cbn [fst snd]. destruct (listed m'); [|constructor].
        rewrite paths_below. apply nodup_cons_paths. exact (IH m' If I (Wm m' I)).
      * intros [i x] [j y] z Ix Iy. cbn [fst snd]. destruct (listed x); [|intros []]. destruct (listed y); [|intros _ []].
        rewrite !paths_below. intros H1 H2. apply in_map_iff in H1 as (p & <- & _). apply in_map_iff in H2 as (q & E & _).
        injection E as E _. apply int_text_inj in E.
        -- subst j. f_equal. exact (numbered_same _ _ _ _ _ Ix Iy).
        -- apply numbered_in in Iy as [_ Iy]. lia.
        -- apply numbered_in in Ix as [_ Ix]. lia.
  - intros f f' p If If' I I'. destruct (ST f p If I) as (o & q & ->). destruct (ST f' _ If' I') as (o' & q' & E). injection E as E _ _.
    clear -WD If If' E. induction fs as [|x fs IHf]; [destruct If|]. cbn in WD. inversion WD as [|? ? N D]; subst.
    destruct If as [->|If], If' as [->|If']; auto.
    + exfalso. apply N. rewrite E. apply in_map. exact If'.
    + exfalso. apply N. rewrite <- E. apply in_map. exact If.
Qed.
Lemma under_inj base p q : good p -> good q -> under base p = under base q -> p = q.
Proof.
  intros G H E. apply show_inj; [exact G|exact H|]. destruct base; [exact E|]. cbn in E. injection E as E. apply app_inv_head in E. injection E as E. exact E.
Qed.
Lemma filter_nodup_fst (f : path * vscalar -> bool) l : NoDup (map fst l) -> NoDup (map fst (filter f l)).
Proof.
  induction l as [|x l IH]; cbn; intros N; [constructor|]. inversion N as [|? ? Nx N']; subst. destruct (f x); [|auto]. cbn. constructor; [|auto].
  intros I. apply Nx. apply in_map_iff in I as (y & <- & I). apply filter_In in I as [I _]. apply in_map. exact I.
Qed.
Lemma once_lemma acc m n g a id : well_named m -> NoDup (map fst (flat_map said (visit acc n g a id m))).
Proof.
  intros W. rewrite values_lemma by exact W. unfold seen. rewrite map_map. cbn [fst].
  assert (N := filter_nodup_fst (fun pv => allowed acc (full_name n g) (fst pv)) _ (paths_nodup m W)).
  assert (G : forall p, In p (map fst (filter (fun pv => allowed acc (full_name n g) (fst pv)) (places m))) -> good p).
  { intros p I. apply in_map_iff in I as ([p' v] & <- & I). apply filter_In in I as [I _]. exact (places_good m W p' v I). }
  rewrite <- (map_map fst (under (full_name n g))). revert N G. generalize (map fst (filter (fun pv => allowed acc (full_name n g) (fst pv)) (places m))). clear.
  induction l as [|p l IH]; intros N G; [constructor|]. inversion N as [|? ? Np N']; subst. cbn. constructor.
  - intros I. apply in_map_iff in I as (q & E & I). apply under_inj in E; [|apply G; right; exact I|apply G; left; reflexivity]. subst q. tauto.
  - apply IH; [exact N'|intros q I; apply G; right; exact I].
Qed.

(** ** Sizes *)
Definition largest (l : list Z) : Z := fold_left Z.max l 0%Z.
Lemma fold_max l : forall a, fold_left Z.max l a = Z.max a (fold_left Z.max l a).
Proof.
  induction l as [|x l IH]; intros a; cbn; [lia|]. rewrite (IH (Z.max a x)). lia.
Qed.
Lemma dims_fold c es : forall d, max_size (fold_left dims_step es d) c = fold_left Z.max (sizes_of c es) (max_size d c).
Proof.
  induction es as [|e es IH]; intros d; [reflexivity|]. cbn [fold_left]. rewrite IH. unfold sizes_of. cbn [flat_map]. rewrite fold_left_app.
  f_equal. destruct e; try reflexivity. cbn [dims_step]. rewrite name_under. unfold max_size. rewrite aget_aset.
  rewrite (eqb_sym c). destruct (eqb (under group [(name, None)]) c) eqn:E; [|reflexivity]. apply eqb_true in E. subst c. cbn [fold_left].
  destruct (Z.ltb_spec (match aget (under group [(name, None)]) d with Some x => x | None => 0 end) size); lia.
Qed.
Lemma dims_lemma c (ms : list (text * vmsg)) :
  max_size (fold_left (fun d nm => dims_visit d (fst nm) (snd nm)) ms []) c =
  fold_left Z.max (sizes_of c (flat_map (fun nm => visit (fun _ => true) (fst nm) [] false 0 (snd nm)) ms)) 0%Z.
Proof.
  assert (H : forall d, max_size (fold_left (fun d nm => dims_visit d (fst nm) (snd nm)) ms d) c =
    fold_left Z.max (sizes_of c (flat_map (fun nm => visit (fun _ => true) (fst nm) [] false 0 (snd nm)) ms)) (max_size d c)).
  { induction ms as [|[n m] ms IH]; intros d; [reflexivity|]. cbn [fold_left fst snd flat_map]. rewrite IH.
    assert (A : forall a b, sizes_of c (a ++ b) = sizes_of c a ++ sizes_of c b) by (intros; apply flat_map_app).
    rewrite A, fold_left_app. f_equal. unfold dims_visit. apply dims_fold. }
  apply H.
Qed.

(** ** With a filter *)
Lemma under_ne x r : x <> [] -> under x r = x ++ [46%Z] ++ show r.
Proof. destruct x; [congruence|reflexivity]. Qed.
Lemma under_app base q r : Forall good_step q -> q <> [] -> r <> [] -> under base (q ++ r) = under (under base q) r.
Proof.
  intros G Q R. rewrite (under_ne (under base q)).
  - unfold under. destruct base.
    + apply show_app; assumption.
    + rewrite show_app by assumption. rewrite <- !app_assoc. reflexivity.
  - intros U. destruct q as [|s q]; [congruence|]. inversion G as [|? ? Gs _]; subst. destruct (show_step_nodot s Gs) as [_ N].
    unfold under in U. destruct base; [|discriminate]. destruct q; [exact (N U)|]. rewrite show_cons in U by discriminate. apply app_eq_nil in U. tauto.
Qed.
Lemma allowed_spec acc p : Forall good_step p -> forall base,
  allowed acc base p = true <-> forall q n o r, p = q ++ (n, o) :: r ->
    acc (under base (q ++ [(n, None)])) = true /\
    (forall i, o = Some i -> acc (under base (q ++ [(n, Some [42%Z])])) = true \/ acc (under base (q ++ [(n, Some i)])) = true).
Proof.
  induction p as [|[n o] p IH]; intros G base.
  - cbn. split; [|reflexivity]. intros _ q n o r E. destruct q; discriminate.
  - inversion G as [|? ? Gs G']; subst. cbn [allowed]. rewrite !andb_true_iff, (IH G'). clear IH.
    assert (U : forall q n' o', under (under base [(n, o)]) (q ++ [(n', o')]) = under base (((n, o) :: q) ++ [(n', o')])).
    { intros q n' o'. rewrite <- under_app; [reflexivity|constructor; [exact Gs|constructor]|discriminate|destruct q; discriminate]. }
    split.
    + intros [[H1 H2] H3] q n' o' r E. destruct q as [|t q].
      * cbn in E. injection E as <- <- ->. split; [exact H1|]. intros i ->. apply orb_true_iff in H2. exact H2.
      * cbn in E. injection E as <- E. destruct (H3 q n' o' r E) as [H4 H5]. rewrite U in H4. split; [exact H4|].
        intros i Ei. specialize (H5 i Ei). rewrite !U in H5. exact H5.
    + intros H. split; [split|].
      * apply (H [] n o p eq_refl).
      * destruct o as [i|]; [|reflexivity]. apply orb_true_iff. apply (H [] n (Some i) p eq_refl). reflexivity.
      * intros q n' o' r ->. destruct (H ((n, o) :: q) n' o' r eq_refl) as [H4 H5]. rewrite U. split; [exact H4|].
        intros i Ei. rewrite !U. exact (H5 i Ei).
Qed.
Lemma wanted_good ws : Forall good_wish ws -> forall p, In p (wanted ws []) -> good p.
Proof.
  intros W. assert (Q : forall ws acc, Forall good_wish ws -> Forall good acc -> Forall good (wanted ws acc)).
  { clear. induction ws as [|[p|] ws IH]; cbn; intros acc F A; [exact A| |]; inversion F; subst; apply IH; auto. apply Forall_app; auto. }
  specialize (Q ws [] W (Forall_nil _)). rewrite Forall_forall in Q. exact Q.
Qed.
Lemma show_dot s t p : In 46%Z (show (s :: t :: p)).
Proof. rewrite show_cons by discriminate. rewrite !in_app_iff. right. left. left. reflexivity. Qed.
Lemma put_long p s t r : good p -> good (s :: t :: r) -> put_in p (show (s :: t :: r)) -> leading (s :: t :: r) p.
Proof.
  intros G H [(q & L & E)|(i & I)].
  - apply show_inj in E; [subst q; exact L|exact H|exact (leading_good q p G L)].
  - exfalso. destruct G as [_ G]. rewrite Forall_forall in G. destruct (G _ I) as [(_ & D & _) _]. apply D. apply show_dot.
Qed.
Lemma filtered_lemma ws l p : Forall good_wish ws -> Forall flat (wanted ws []) -> Forall starless (wanted ws []) ->
  flt_run (map call_of ws) = Some l -> good p -> flat p ->
  allowed (fun x => flt_has x l) [] p = flt_has (show p) l.
Proof.
  intros W F ST R G Fp. destruct (inserted_has ws W) as (l' & E & H). rewrite E in R. injection R as ->.
  rewrite Forall_forall in F, ST. pose proof (wanted_good ws W) as GW.
  apply eq_true_iff_eq. rewrite (allowed_spec _ p (proj2 G)). split.
  - intros A. destruct (exists_last (proj1 G)) as (q & [n o] & ->). destruct (A q n o [] eq_refl) as [A1 A2].
    destruct o as [i|]; [|exact A1]. destruct q as [|t q].
    + destruct (A2 i eq_refl) as [A3|A3]; [|exact A3]. exfalso. apply H in A3 as (w & Iw & P). cbn [under app] in P.
      apply (put_in_index w [(n, Some [42%Z])] (n, Some [42%Z]) [42%Z] (GW w Iw)) in P as (_ & r & ->); [|split; [discriminate|]|left; reflexivity|reflexivity].
      * apply (ST _ Iw (n, Some [42%Z])); [left; reflexivity|reflexivity].
      * destruct G as [_ G]. inversion G as [|? ? Gs _]; subst. constructor; [|constructor]. split; [apply Gs|]. intros j Ej. cbn in Ej. injection Ej as <-. left. reflexivity.
    + exfalso. assert (Some i = None) by (exact (flat_app (t :: q) (n, Some i) [] Fp ltac:(discriminate))). discriminate.
  - intros I q n o r Eq. apply H in I as (w & Iw & P).
    assert (C : forall x, documented p x -> put_in w (show p) -> (exists t, p = [t] /\ snd t = None) \/ put_in w x).
    { intros x D P'. assert (L : (exists t, p = [t] /\ snd t = None) \/ leading p w).
      { destruct p as [|s [|t p']]; [destruct (proj1 G eq_refl)| |].
        - destruct s as [m [i|]]; [right|left; eauto]. apply (put_in_index w _ (m, Some i) i (GW w Iw) G); [left; reflexivity|reflexivity|exact P'].
        - right. exact (put_long w s t p' (GW w Iw) G P'). }
      destruct L as [L|(N & z & ->)]; [auto|]. right. apply flat_same; [apply F; exact Iw|].
      destruct D as (d & (Nd & y & Ed) & D). exists d. split; [split; [exact Nd|]; exists (y ++ z); rewrite Ed, <- app_assoc; reflexivity|exact D]. }
    assert (Q : leading (q ++ [(n, o)]) p).
    { split; [destruct q; discriminate|]. exists r. rewrite <- app_assoc. exact Eq. }
    split.
    + destruct (C (show (q ++ [(n, None)]))) as [(t & Et & Nt)|P'].
      * destruct o as [i|]; [exists (q ++ [(n, Some i)]); split; [exact Q|right; eauto 6]|exists (q ++ [(n, None)]); auto].
      * exact P.
      * rewrite Et in Eq. destruct q as [|? [|? ?]]; try discriminate. cbn in Eq. injection Eq as -> <-. cbn in Nt. subst o.
        cbn [app under]. apply H. exists w. rewrite Et in P. auto.
      * cbn [under]. apply H. eauto.
    + intros i ->. right. destruct (C (show (q ++ [(n, Some i)]))) as [(t & Et & Nt)|P'].
      * exists (q ++ [(n, Some i)]). auto.
      * exact P.
      * rewrite Et in Eq. destruct q as [|? [|? ?]]; try discriminate. cbn in Eq. injection Eq as -> <-. discriminate.
      * cbn [under]. apply H. eauto.
Qed.

Lemma name_dec n : (negb (eqb n []) && negb (among 46 n) && negb (among 91 n) && negb (among 42 n))%bool = true -> field_name n.
Proof.
  intros H. assert (G : good_step (n, None)) by (apply good_dec_step; cbn [fst snd]; rewrite H; reflexivity). apply G.
Qed.
Ltac names := repeat (apply Forall_cons; [apply name_dec; vm_compute; reflexivity|]); apply Forall_nil.
Ltac apart := repeat (apply NoDup_cons; [vm_compute; intuition discriminate|]); apply NoDup_nil.
Lemma inner_named v : well_named (inner_msg v).
Proof. apply well_named_eq. split; [names|]. split; [apart|]. intros f [<-|[]]. exact Logic.I. Qed.
Lemma outer_named : well_named outer_msg.
Proof.
  apply well_named_eq. split; [names|]. split; [apart|]. intros f I.
  destruct I as [<-|[<-|[<-|[<-|[<-|[]]]]]]; unfold field_ok; cbn [snd].
  - exact Logic.I.
  - reflexivity.
  - apply inner_named.
  - apply inner_named.
  - split; [reflexivity|]. intros m [<-|[<-|[<-|[]]]]; apply inner_named.
Qed.
Lemma nested_bad : exists l, flt_run [FltInsert (str "a.b[0]")] = Some l /\
  In (str "a.b[0]") (map (fun pv => show (fst pv)) (places nested_msg)) /\ flt_has (str "a.b[0]") l = true /\
  flat_map said (visit (fun x => flt_has x l) [] [] false 0 nested_msg) = [] /\
  flat_map said (visit (fun x => flt_complex x l) [] [] false 0 nested_msg) = [].
Proof.
  eexists. split; [reflexivity|]. split; [left; vm_compute; reflexivity|]. repeat split; vm_compute; reflexivity.
Qed.
