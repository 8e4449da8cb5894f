(** Proofs about the C interface. *)
From Verif Require Import Base Sample RdModel CapModel CapSpec.

Lemma cp_int_small z : (-2147483648 <= z < 2147483648)%Z -> cp_int z = z.
Proof. intros H. unfold cp_int. rewrite Z.mod_small; lia. Qed.
Lemma size_pos s : s <> [] -> (0 < size s)%Z.
Proof. destruct s; [easy|]. unfold size. cbn [length]. lia. Qed.
Lemma cp_int_len s : (size s < two_gib)%Z -> cp_int (cp_size s) = size s.
Proof. intros H. apply cp_int_small. unfold size, cp_size, two_gib in *. lia. Qed.

Lemma pointer_eq b : cp_pointer b = pointer b.
Proof. reflexivity. Qed.

Lemma store_ok b cs old h : content b h = Some old -> length cs <= length old ->
  exists h', cp_store b cs h = Some h' /\ content b h' = Some (over cs old) /\
             same_except [b] h h' /\ hp_next h' = hp_next h.
Proof.
  unfold content, cp_store. intros E L. rewrite E. apply Nat.leb_le in L. rewrite L.
  eexists. split; [reflexivity|]. cbn. split; [apply aget_aset_same|]. split; [|reflexivity].
  intros b' N. cbn. apply aget_aset_other. intros ->. apply N. now left.
Qed.
Lemma store_none b cs old h : content b h = Some old -> length old < length cs -> cp_store b cs h = None.
Proof.
  unfold content, cp_store. intros E L. rewrite E. apply Nat.leb_gt in L. now rewrite L.
Qed.

Lemma copy_unfold ms t tlen src h : src <> [] ->
  copy_buffer ms (Some t) tlen src h =
  if Z.eqb tlen 0 then
        match ms with
        | true :: ms' =>
            let '(h1, b) := cp_alloc (length src) h in
            match copy_buffer ms' (Some b) (cp_int (cp_size src)) src h1 with
            | CUb => CUb
            | CRet h2 r =>
                if Z.ltb 0 r
                then match cp_store t (cp_pointer b) h2 with Some h3 => CRet h3 r | None => CUb end
                else CRet (cp_free b h2) 0
            end
        | _ => CRet h 0
        end
      else if Z.ltb tlen (cp_int (cp_size src)) then CRet h 0
      else match cp_store t (map Byte src) h with
           | Some h' => CRet h' (cp_int (cp_size src))
           | None => CUb
           end.
Proof. intros N. destruct src; [easy|]. destruct ms; reflexivity. Qed.

Lemma copy_empty ms t tlen h : copy_buffer ms t tlen [] h = CRet h 0.
Proof. destruct ms, t; reflexivity. Qed.
Lemma copy_null ms tlen src h : copy_buffer ms None tlen src h = CRet h 0.
Proof. destruct ms; reflexivity. Qed.

Lemma copy_fits ms t tlen src h cs : content t h = Some cs -> tlen <> 0%Z -> (tlen <= Z.of_nat (length cs))%Z ->
  src <> [] -> (size src <= tlen)%Z -> (size src < two_gib)%Z ->
  exists h', copy_buffer ms (Some t) tlen src h = CRet h' (size src) /\
    content t h' = Some (over (bytes src) cs) /\ same_except [t] h h' /\ hp_next h' = hp_next h.
Proof.
  intros C Z L N F S. rewrite copy_unfold by exact N.
  apply Z.eqb_neq in Z. rewrite Z, cp_int_len by exact S.
  assert (E : Z.ltb tlen (size src) = false) by (apply Z.ltb_ge; exact F). rewrite E.
  destruct (store_ok t (map Byte src) cs h C) as (h' & E1 & E2 & E3 & E4).
  { rewrite map_length. unfold size in F. lia. }
  rewrite E1. exists h'. repeat (split; [easy|]). exact E4.
Qed.
Lemma copy_short ms t tlen src h : tlen <> 0%Z -> (tlen < size src)%Z -> (size src < two_gib)%Z ->
  copy_buffer ms (Some t) tlen src h = CRet h 0.
Proof.
  intros Z F S. destruct src as [|x src']; [apply copy_empty|]. rewrite copy_unfold by discriminate.
  apply Z.eqb_neq in Z. rewrite Z, cp_int_len by exact S. apply Z.ltb_lt in F. now rewrite F.
Qed.

Lemma buffer_lemma ms t tlen src h cs : content t h = Some cs -> tlen <> 0%Z -> (tlen <= Z.of_nat (length cs))%Z ->
  (size src < two_gib)%Z ->
  (src <> [] /\ (size src <= tlen)%Z /\ exists h', copy_buffer ms (Some t) tlen src h = CRet h' (size src) /\
     content t h' = Some (over (bytes src) cs) /\ same_except [t] h h') \/
  ((src = [] \/ (tlen < size src)%Z) /\ copy_buffer ms (Some t) tlen src h = CRet h 0).
Proof.
  intros C Z L S. destruct src as [|x src'] eqn:E.
  - right. split; [now left|]. apply copy_empty.
  - rewrite <- E in *. assert (N : src <> []) by (rewrite E; discriminate).
    destruct (Z_le_gt_dec (size src) tlen) as [F|F].
    + left. split; [exact N|]. split; [exact F|].
      destruct (copy_fits ms t tlen src h cs C Z L N F S) as (h' & A & B & D & _). now exists h'.
    + right. split; [right; lia|]. apply copy_short; [exact Z|lia|exact S].
Qed.

Lemma alloc_content n h : content (hp_next h) (fst (cp_alloc n h)) = Some (repeat Raw n).
Proof. cbn. apply aget_aset_same. Qed.
Lemma alloc_same n h b : b <> hp_next h -> content b (fst (cp_alloc n h)) = content b h.
Proof. intros N. cbn. now apply aget_aset_other. Qed.
Lemma over_all (cs old : list cell) : length cs = length old -> over cs old = cs.
Proof. intros E. unfold over. rewrite E, skipn_all. apply app_nil_r. Qed.
Lemma numbered_fresh h : numbered h -> content (hp_next h) h = None.
Proof. intros N. destruct (content (hp_next h) h) eqn:E; [|reflexivity]. exfalso.
  assert (A : hp_next h < hp_next h) by (apply N; now rewrite E). lia. Qed.

(** The inner copy into the new block, sizes below 2 GiB. *)
Lemma inner_copy ms src h : src <> [] -> (size src < two_gib)%Z ->
  exists h2, copy_buffer ms (Some (hp_next h)) (cp_int (cp_size src)) src (fst (cp_alloc (length src) h)) = CRet h2 (size src) /\
    content (hp_next h) h2 = Some (bytes src) /\ (forall b, b <> hp_next h -> content b h2 = content b h).
Proof.
  intros N S. rewrite cp_int_len by exact S.
  destruct (copy_fits ms (hp_next h) (size src) src _ _ (alloc_content (length src) h)) as (h2 & A & B & C & _); try lia.
  - pose proof (size_pos src N). lia.
  - rewrite repeat_length. unfold size. lia.
  - exact N.
  - exists h2. split; [exact A|]. split.
    + rewrite B. f_equal. apply over_all. unfold bytes. now rewrite map_length, repeat_length.
    + intros b Hb. rewrite C; [now apply alloc_same|]. cbn. intuition.
Qed.

Lemma alloc_lemma ms t src h cs : numbered h -> content t h = Some cs -> 8 <= length cs ->
  src <> [] -> (size src < two_gib)%Z ->
  exists h' b, copy_buffer (true :: ms) (Some t) 0 src h = CRet h' (size src) /\
    content b h = None /\ content b h' = Some (bytes src) /\
    content t h' = Some (over (pointer b) cs) /\ same_except [t; b] h h'.
Proof.
  intros W C L N S. rewrite copy_unfold by exact N. cbn [Z.eqb].
  destruct (cp_alloc (length src) h) as [h1 b] eqn:EA.
  assert (Eh : h1 = fst (cp_alloc (length src) h)) by now rewrite EA.
  assert (Eb : b = hp_next h) by (unfold cp_alloc in EA; congruence).
  destruct (inner_copy ms src h N S) as (h2 & A & B & D).
  rewrite Eh, Eb, A. pose proof (size_pos src N) as P. apply Z.ltb_lt in P. rewrite P.
  assert (T : t <> hp_next h). { intros ->. now rewrite numbered_fresh in C. }
  destruct (store_ok t (cp_pointer (hp_next h)) cs h2) as (h3 & E1 & E2 & E3 & _).
  { now rewrite D. } { exact L. }
  rewrite E1. exists h3, (hp_next h). split; [reflexivity|]. split; [now apply numbered_fresh|].
  split; [rewrite E3; [exact B|cbn; intuition]|]. split; [exact E2|].
  intros b' Hb'. cbn in Hb'. rewrite E3 by (cbn; intuition). apply D. intuition.
Qed.

Lemma alloc_fails ms t src h : copy_buffer (false :: ms) t 0 src h = CRet h 0.
Proof. destruct t, src; reflexivity. Qed.

Lemma free_content b c h : content c (cp_free b h) = if eqb c b then None else content c h.
Proof. unfold content. cbn. apply aget_adel. Qed.

Lemma over_length (new old : list cell) : length new <= length old -> length (over new old) = length old.
Proof. intros L. unfold over. rewrite app_length, skipn_length. lia. Qed.
Lemma over_same_start (new old : list cell) i : length new <= i -> nth_error (over new old) i = nth_error old i.
Proof.
  intros L. unfold over. rewrite nth_error_app2 by exact L.
  rewrite <- (firstn_skipn (length new) old) at 2.
  destruct (le_lt_dec (length new) (length old)) as [H|H].
  - rewrite nth_error_app2; rewrite firstn_length, Nat.min_l by exact H; [reflexivity|exact L].
  - rewrite skipn_all2 by lia. rewrite firstn_all2, app_nil_r by lia.
    assert (Q : nth_error old i = None) by (apply nth_error_None; lia). rewrite Q.
    apply nth_error_None. cbn. lia.
Qed.

(** Zero means nothing changed. *)
Lemma zero_lemma ms t tlen src h h' : numbered h -> (size src < two_gib)%Z ->
  copy_buffer ms t tlen src h = CRet h' 0 -> forall b, content b h' = content b h.
Proof.
  intros W S E b. destruct t as [t|]; [|rewrite copy_null in E; now injection E as <-].
  destruct src as [|x src'] eqn:ES; [rewrite copy_empty in E; now injection E as <-|].
  rewrite <- ES in *. assert (N : src <> []) by (rewrite ES; discriminate). clear ES.
  rewrite copy_unfold in E by exact N. destruct (Z.eqb tlen 0).
  - destruct ms as [|[|] ms']; try now injection E as <-.
    destruct (cp_alloc (length src) h) as [h1 c] eqn:EA.
    assert (Eh : h1 = fst (cp_alloc (length src) h)) by now rewrite EA.
    assert (Eb : c = hp_next h) by (unfold cp_alloc in EA; congruence).
    destruct (inner_copy ms' src h N S) as (h2 & A & _).
    rewrite Eh, Eb, A in E. pose proof (size_pos src N) as P. pose proof P as P'. apply Z.ltb_lt in P. rewrite P in E.
    destruct (cp_store _ _ _); [|easy]. injection E as _ E. lia.
  - destruct (Z.ltb _ _); [now injection E as <-|].
    destruct (cp_store _ _ _); [|easy]. rewrite cp_int_len in E by exact S.
    injection E as _ E. pose proof (size_pos src N). lia.
Qed.

(** Nobody but the announced cells is written, whatever happens, as long as a length is announced. *)
Lemma tiny_alloc ms t src h cs : numbered h -> content t h = Some cs -> length cs < 8 ->
  src <> [] -> (size src < two_gib)%Z -> copy_buffer (true :: ms) (Some t) 0 src h = CUb.
Proof.
  intros W C L N S. rewrite copy_unfold by exact N. cbn [Z.eqb].
  destruct (cp_alloc (length src) h) as [h1 b] eqn:EA.
  assert (Eh : h1 = fst (cp_alloc (length src) h)) by now rewrite EA.
  assert (Eb : b = hp_next h) by (unfold cp_alloc in EA; congruence).
  destruct (inner_copy ms src h N S) as (h2 & A & B & D).
  rewrite Eh, Eb, A. pose proof (size_pos src N) as P. apply Z.ltb_lt in P. rewrite P.
  assert (T : t <> hp_next h). { intros ->. now rewrite numbered_fresh in C. }
  rewrite (store_none t _ cs); [reflexivity| |exact L]. now rewrite D.
Qed.

Lemma cp_int_wrap z : (two_gib <= z < 2 * two_gib)%Z -> cp_int z = (z - 4294967296)%Z.
Proof.
  unfold two_gib, cp_int. intros H.
  assert (E : ((z + 2147483648) mod 4294967296 = z - 2147483648)%Z).
  { symmetry. apply (Z.mod_unique _ _ 1); lia. }
  rewrite E. lia.
Qed.

Lemma huge_buffer ms t tlen src h cs : content t h = Some cs -> Z.of_nat (length cs) = tlen ->
  (0 < tlen < two_gib)%Z -> (two_gib <= size src < 2 * two_gib)%Z ->
  copy_buffer ms (Some t) tlen src h = CUb.
Proof.
  intros C L T S. assert (N : src <> []) by (intros ->; unfold size, two_gib in S; cbn in S; lia).
  rewrite copy_unfold by exact N.
  assert (E : Z.eqb tlen 0 = false) by (apply Z.eqb_neq; lia). rewrite E. clear E.
  change (cp_size src) with (size src). rewrite cp_int_wrap by exact S.
  assert (E : Z.ltb tlen (size src - 4294967296) = false) by (apply Z.ltb_ge; unfold two_gib in *; lia).
  rewrite E. rewrite (store_none t _ cs h C); [reflexivity|]. rewrite map_length. unfold size in S. lia.
Qed.
Lemma huge_alloc ms t src h : numbered h -> (two_gib <= size src < 2 * two_gib)%Z ->
  exists h', copy_buffer (true :: ms) (Some t) 0 src h = CRet h' 0 /\ forall b, content b h' = content b h.
Proof.
  intros W S. assert (N : src <> []) by (intros ->; unfold size, two_gib in S; cbn in S; lia).
  rewrite copy_unfold by exact N. cbn [Z.eqb].
  destruct (cp_alloc (length src) h) as [h1 b] eqn:EA.
  assert (Eh : h1 = fst (cp_alloc (length src) h)) by now rewrite EA.
  assert (Eb : b = hp_next h) by (unfold cp_alloc in EA; congruence).
  rewrite (copy_unfold ms b) by exact N. change (cp_size src) with (size src). rewrite cp_int_wrap by exact S.
  assert (E0 : Z.eqb (size src - 4294967296) 0 = false) by (apply Z.eqb_neq; unfold two_gib in *; lia). rewrite E0.
  rewrite Z.ltb_irrefl.
  destruct (store_ok b (map Byte src) (repeat Raw (length src)) h1) as (h2 & A & B & D & _).
  { rewrite Eh, Eb. apply alloc_content. } { now rewrite map_length, repeat_length. }
  rewrite A.
  assert (E1 : Z.ltb 0 (size src - 4294967296) = false) by (apply Z.ltb_ge; unfold two_gib in *; lia). rewrite E1.
  eexists. split; [reflexivity|]. intros c. rewrite free_content. destruct (eqb c b) eqn:E.
  - apply eqb_true in E. subst c. rewrite Eb. symmetry. now apply numbered_fresh.
  - apply eqb_false in E. rewrite D by (cbn; intuition). rewrite Eh. apply alloc_same. congruence.
Qed.

(** After the caller freed the block only the pointer is left. *)
Lemma free_lemma ms t src h h' cs : numbered h -> content t h = Some cs -> 8 <= length cs ->
  src <> [] -> (size src < two_gib)%Z ->
  copy_buffer (true :: ms) (Some t) 0 src h = CRet h' (size src) ->
  exists b, content t h' = Some (over (pointer b) cs) /\ same_except [t] h (cp_free b h').
Proof.
  intros W C L N S E. destruct (alloc_lemma ms t src h cs W C L N S) as (h2 & b & A & B & D & F & G).
  rewrite A in E. injection E as <-. exists b. split; [exact F|].
  intros c Hc. rewrite free_content. destruct (eqb c b) eqn:Q.
  - apply eqb_true in Q. now subst c.
  - apply eqb_false in Q. apply G. cbn in *. intuition.
Qed.

(** Receiving. *)
Lemma read_waiting rd m : waiting rd m -> exists rd' tm, rd_read rd = (rd', Some (m, tm)) /\ nothing_waiting rd'.
Proof.
  intros (C & R & B). unfold rd_read. rewrite C, R. cbn. eexists _, _. rewrite B. split; [reflexivity|]. now right.
Qed.
Lemma read_nothing rd : nothing_waiting rd -> rd_read rd = (rd, None).
Proof. unfold rd_read. intros [E|E]; rewrite E; [reflexivity|]. destruct (rd_created rd); reflexivity. Qed.

Lemma receive_to_lemma ms t tlen rd m h cs : content t h = Some cs -> tlen <> 0%Z -> (tlen <= Z.of_nat (length cs))%Z ->
  (size m < two_gib)%Z -> waiting rd m ->
  exists rd', nothing_waiting rd' /\
   ((m <> [] /\ (size m <= tlen)%Z /\ exists h', cp_receive_to ms (Some t) tlen rd h = (rd', CRet h' (size m)) /\
      content t h' = Some (over (bytes m) cs) /\ same_except [t] h h') \/
    ((m = [] \/ (tlen < size m)%Z) /\ cp_receive_to ms (Some t) tlen rd h = (rd', CRet h 0))).
Proof.
  intros C Z L S W. destruct (read_waiting rd m W) as (rd' & tm & E & N). exists rd'. split; [exact N|].
  unfold cp_receive_to. rewrite E.
  destruct (buffer_lemma ms t tlen m h cs C Z L S) as [(A & B & h' & D & F & G)|(A & D)].
  - left. split; [exact A|]. split; [exact B|]. exists h'. now rewrite D.
  - right. split; [exact A|]. now rewrite D.
Qed.
Lemma receive_none ms t tlen rd h : nothing_waiting rd -> cp_receive_to ms t tlen rd h = (rd, CRet h 0).
Proof. intros N. unfold cp_receive_to. now rewrite (read_nothing rd N). Qed.

Lemma receive_alloc_lemma ms t rd m h cs : numbered h -> content t h = Some cs -> 8 <= length cs ->
  m <> [] -> (size m < two_gib)%Z -> waiting rd m ->
  exists rd' h' b, nothing_waiting rd' /\ cp_receive_alloc (true :: ms) (Some t) rd h = (rd', CRet h' (size m)) /\
    content b h = None /\ content b h' = Some (bytes m) /\
    content t h' = Some (over (pointer b) cs) /\ same_except [t; b] h h'.
Proof.
  intros W C L N S A. destruct (read_waiting rd m A) as (rd' & tm & E & Q).
  destruct (alloc_lemma ms t m h cs W C L N S) as (h' & b & E1 & E2).
  exists rd', h', b. split; [exact Q|]. split; [|exact E2].
  unfold cp_receive_alloc, cp_receive_to. now rewrite E, E1.
Qed.

Lemma both_lemma ms t rd m h cs : numbered h -> content t h = Some cs -> 8 <= length cs ->
  m <> [] -> (size m < two_gib)%Z -> waiting rd m ->
  exists rd' h' b, nothing_waiting rd' /\
    cp_receive_both (true :: ms) (Some t) true rd h = (rd', CRet h' 1, Some (size m)) /\
    content b h = None /\ content b h' = Some (bytes m) /\
    content t h' = Some (over (pointer b) cs) /\ same_except [t; b] h h'.
Proof.
  intros W C L N S A. destruct (read_waiting rd m A) as (rd' & tm & E & Q).
  destruct (alloc_lemma ms t m h cs W C L N S) as (h' & b & E1 & E2).
  exists rd', h', b. split; [exact Q|]. split; [|exact E2].
  unfold cp_receive_both. rewrite E, E1. now rewrite cp_int_len.
Qed.
Lemma both_one ms t lp rd h rd' h' r n : cp_receive_both ms t lp rd h = (rd', CRet h' r, n) ->
  (r = 1%Z <-> exists m, waiting rd m) /\ (r = 1%Z \/ r = 0%Z).
Proof.
  unfold cp_receive_both. destruct (rd_read rd) as [rd1 [[m tm]|]] eqn:E.
  - destruct (copy_buffer ms t 0 m h) as [|h1 k]; intros X; [easy|]. injection X as <- <- <- _.
    split; [|now left]. split; [|reflexivity]. intros _. exists m. revert E. unfold rd_read, waiting.
    destruct (rd_created rd); cbn; [|easy]. destruct (rd_received rd); [|easy]. intros X. now injection X as _ -> _.
  - intros X. injection X as <- <- <- _. split; [|now right]. split; [easy|]. intros (m & W).
    destruct (read_waiting rd m W) as (rd2 & tm & E2 & _). congruence.
Qed.
Lemma both_empty ms t rd h : waiting rd [] -> exists rd', cp_receive_both ms t true rd h = (rd', CRet h 1, Some 0%Z).
Proof.
  intros W. destruct (read_waiting rd [] W) as (rd' & tm & E & _). exists rd'. unfold cp_receive_both. rewrite E.
  rewrite copy_empty. reflexivity.
Qed.
Lemma both_failed ms t rd m h : (size m < two_gib)%Z -> waiting rd m -> exists rd', nothing_waiting rd' /\
  cp_receive_both (false :: ms) t true rd h = (rd', CRet h 1, Some (size m)).
Proof.
  intros S W. destruct (read_waiting rd m W) as (rd' & tm & E & N). exists rd'. split; [exact N|].
  unfold cp_receive_both. rewrite E, alloc_fails. now rewrite cp_int_len.
Qed.

(** Getters. *)
Lemma get_lemma ms t tlen s h : (size s < two_gib)%Z -> cp_get ms t tlen s h = copy_buffer ms t tlen s h.
Proof.
  intros S. unfold cp_get. destruct (copy_buffer ms t tlen s h) as [|h' r] eqn:E; [reflexivity|].
  destruct (Z.eqb_spec r (cp_int (cp_size s))) as [Q|Q]; [reflexivity|]. f_equal. rewrite cp_int_len in Q by exact S.
  destruct t as [t|]; [|rewrite copy_null in E; now injection E].
  destruct s as [|x s'] eqn:ES; [rewrite copy_empty in E; now injection E|]. rewrite <- ES in *.
  assert (N : s <> []) by (rewrite ES; discriminate).
  rewrite copy_unfold in E by exact N. destruct (Z.eqb tlen 0).
  - destruct ms as [|[|] ms']; try now injection E.
    destruct (cp_alloc (length s) h) as [h1 c] eqn:EA.
    assert (Eh : h1 = fst (cp_alloc (length s) h)) by now rewrite EA.
    assert (Eb : c = hp_next h) by (unfold cp_alloc in EA; congruence).
    destruct (inner_copy ms' s h N S) as (h2 & A & _).
    rewrite Eh, Eb, A in E. pose proof (size_pos s N) as P. apply Z.ltb_lt in P. rewrite P in E.
    destruct (cp_store _ _ _); [|easy]. injection E as _ E. now elim Q.
  - destruct (Z.ltb _ _); [now injection E|].
    destruct (cp_store _ _ _); [|easy]. rewrite cp_int_len in E by exact S.
    injection E as _ E. now elim Q.
Qed.
Lemma text_lemma ms t tlen s h : cp_text ms t tlen s h = copy_buffer ms t tlen s h.
Proof. destruct s; [now rewrite copy_empty|reflexivity]. Qed.

(** Calls, sends, filters. *)
Lemma call_lemma ms r rs t tlen h : cp_call_wait ms true (r :: rs) t tlen h =
  (copy_buffer ms t tlen (cr_data r) h, Some (cr_ret r, cr_call r)).
Proof. reflexivity. Qed.
Lemma send_lemma send len : (0 <= len < two_gib)%Z -> (0 <= send len < two_gib)%Z ->
  cp_send send len = if Z.eqb (send len) len then len else 0%Z.
Proof.
  intros A B. unfold cp_send. unfold two_gib in *.
  replace (cp_size_t len) with len by (unfold cp_size_t; rewrite Z.mod_small; lia).
  rewrite (cp_int_small (send len)) by lia. reflexivity.
Qed.
Lemma send_negative send len : (- two_gib <= len < 0)%Z ->
  cp_size_t len = (18446744073709551616 + len)%Z /\
  ((forall n, send n = n) -> cp_send send len = len).
Proof.
  intros A. unfold two_gib in A.
  assert (E : cp_size_t len = (18446744073709551616 + len)%Z).
  { unfold cp_size_t. symmetry. apply (Z.mod_unique _ _ (-1)); lia. }
  split; [exact E|]. intros I. unfold cp_send. rewrite I, E.
  assert (E2 : cp_int (18446744073709551616 + len) = len).
  { unfold cp_int. replace (18446744073709551616 + len + 2147483648)%Z with ((len + 2147483648) + 4294967296 * 4294967296)%Z by lia.
    rewrite Z.mod_add by lia. rewrite Z.mod_small; lia. }
  rewrite E2, Z.eqb_refl. reflexivity.
Qed.
Lemma ids_ok arr n : (0 <= n <= size arr)%Z -> (size arr < two_gib)%Z -> cp_ids arr n = Some (firstn (Z.to_nat n) arr).
Proof.
  intros A S. unfold cp_ids, two_gib in *.
  replace (cp_size_t n) with n by (unfold cp_size_t; rewrite Z.mod_small; lia).
  assert (E : Z.leb n (cp_size arr) = true) by (apply Z.leb_le; exact (proj2 A)). now rewrite E.
Qed.
Lemma ids_bad arr n : (- two_gib <= n < two_gib)%Z -> (n < 0 \/ size arr < n)%Z -> (size arr < two_gib)%Z -> cp_ids arr n = None.
Proof.
  intros R A S. unfold cp_ids, two_gib in *.
  assert (E : Z.leb (cp_size_t n) (cp_size arr) = false); [|now rewrite E].
  apply Z.leb_gt. change (cp_size arr) with (size arr). destruct A as [A|A].
  - destruct (send_negative (fun n => n) n) as [E _]; [unfold two_gib; lia|]. rewrite E. lia.
  - unfold cp_size_t. rewrite Z.mod_small; [exact A|]. unfold size in *. lia.
Qed.

(** Methods. *)
Lemma bytes_back s : cp_bytes (bytes s) = Some s.
Proof. induction s as [|x s IH]; [reflexivity|]. cbn in *. unfold bytes in IH. now rewrite IH. Qed.
Lemma firstn_map_byte s (rest : list cell) : firstn (length s) (bytes s ++ rest) = bytes s.
Proof.
  unfold bytes. rewrite firstn_app, map_length, Nat.sub_diag. cbn. rewrite app_nil_r.
  rewrite <- (map_length Byte s) at 1. apply firstn_all.
Qed.
Lemma method_copy b s rest resp h : content b h = Some (bytes s ++ rest) -> s <> [] ->
  cp_method (Some b) (size s) resp h = MResp s.
Proof.
  intros C N. unfold cp_method. pose proof (size_pos s N) as P. apply Z.ltb_lt in P. rewrite P.
  unfold content in C. rewrite C.
  assert (E : Z.leb (size s) (Z.of_nat (length (bytes s ++ rest))) = true).
  { apply Z.leb_le. unfold size, bytes. rewrite app_length, map_length. lia. }
  rewrite E. unfold size. rewrite Nat2Z.id, firstn_map_byte, bytes_back. reflexivity.
Qed.
Lemma method_none p len resp h : (len <= 0)%Z -> cp_method p len resp h = MResp resp.
Proof. intros L. unfold cp_method. apply Z.ltb_ge in L. now rewrite L. Qed.
Lemma method_bad b len resp h cs : content b h = Some cs -> (Z.of_nat (length cs) < len)%Z ->
  cp_method (Some b) len resp h = MUb.
Proof.
  intros C L. unfold cp_method. assert (P : Z.ltb 0 len = true) by (apply Z.ltb_lt; lia). rewrite P.
  unfold content in C. rewrite C. apply Z.leb_gt in L. now rewrite L.
Qed.

Lemma keys_length_aset (b : nat) (c : list cell) m : ~ In b (keys m) -> length (aset b c m) = S (length m).
Proof.
  induction m as [|[k v] m IH]; cbn; intros N; [reflexivity|].
  destruct (eqb b k) eqn:E.
  - apply eqb_true in E. subst. exfalso. apply N. now left.
  - cbn. rewrite IH; [reflexivity|]. intros I. apply N. now right.
Qed.
Lemma length_aset_same (b : nat) (c : list cell) m : In b (keys m) -> length (aset b c m) = length m.
Proof.
  induction m as [|[k v] m IH]; cbn; intros N; [easy|].
  destruct (eqb b k) eqn:E.
  - reflexivity.
  - cbn. rewrite IH; [reflexivity|]. destruct N as [N|N]; [|exact N]. cbn in N. apply eqb_false in E. congruence.
Qed.

Lemma answer_lemma a h : numbered h -> exists h', cp_answer a h = (h', MResp a) /\ numbered h' /\
  length (hp_blocks h') = length (hp_blocks h) + (match a with [] => 0 | _ => 1 end) /\
  forall b, content b h <> None -> content b h' = content b h.
Proof.
  intros W. destruct a as [|x a'] eqn:EA.
  - exists h. split; [reflexivity|]. split; [exact W|]. split; [lia|easy].
  - rewrite <- EA. assert (N : a <> []) by (rewrite EA; discriminate).
    assert (U : cp_answer a h = let '(h1, b) := cp_alloc (length a) h in
         match cp_store b (map Byte a) h1 with
         | Some h2 => (h2, cp_method (Some b) (cp_size a) [] h2)
         | None => (h1, MUb) end) by (rewrite EA; reflexivity).
    rewrite U. destruct (cp_alloc (length a) h) as [h1 b] eqn:EL.
    assert (Eh : h1 = fst (cp_alloc (length a) h)) by now rewrite EL.
    assert (Eb : b = hp_next h) by (unfold cp_alloc in EL; congruence).
    destruct (store_ok b (map Byte a) (repeat Raw (length a)) h1) as (h2 & A & B & D & F).
    { rewrite Eh, Eb. apply alloc_content. } { now rewrite map_length, repeat_length. }
    rewrite A. exists h2. split.
    { f_equal. apply (method_copy b a [] [] h2); [|exact N]. rewrite B, app_nil_r. f_equal. apply over_all.
      unfold bytes. now rewrite map_length, repeat_length. }
    split.
    { intros c Hc. rewrite F, Eh. cbn. destruct (Nat.eq_dec c (hp_next h)) as [->|Q]; [lia|].
      rewrite D in Hc by (cbn; rewrite Eb; intuition). rewrite Eh, alloc_same in Hc by exact Q. apply W in Hc. lia. }
    split.
    { assert (Q : length (hp_blocks h1) = S (length (hp_blocks h))).
      { rewrite Eh. cbn. apply keys_length_aset. apply aget_none.
        exact (numbered_fresh h W). }
      unfold cp_store in A. pose proof (alloc_content (length a) h) as AC. rewrite <- Eh, <- Eb in AC. unfold content in AC.
      rewrite AC in A. destruct (Nat.leb _ _); [|easy]. injection A as <-. cbn. rewrite length_aset_same.
      - rewrite Q. lia.
      - eapply aget_in_keys. exact AC. }
    { intros c Hc. assert (Q : c <> hp_next h) by (intros ->; now rewrite numbered_fresh in Hc).
      rewrite D by (cbn; rewrite Eb; intuition). rewrite Eh. now apply alloc_same. }
Qed.
Lemma answers_lemma l : forall h, numbered h -> exists h', cp_answers l h = (h', map MResp l) /\ numbered h' /\
  length (hp_blocks h') = length (hp_blocks h) + length (filter filled l).
Proof.
  induction l as [|a l IH]; intros h W.
  - exists h. cbn. split; [reflexivity|]. split; [exact W|lia].
  - destruct (answer_lemma a h W) as (h1 & A & B & C & _).
    destruct (IH h1 B) as (h2 & D & E & F). exists h2. cbn [cp_answers]. rewrite A, D. split; [reflexivity|].
    split; [exact E|]. rewrite F, C. cbn [filter]. destruct a as [|x a']; cbn [filled length]; lia.
Qed.

(** The guard. *)
Record guarded (g : cguard) : Prop := {
  gu_none : cg_owner g = None -> forall t, cg_stack t g = [];
  gu_some : forall o n, cg_owner g = Some (o, n) -> n = length (cg_stack o g) /\ 0 < n /\ forall t, t <> o -> cg_stack t g = [] }.

Lemma stack_aset t st g owner buf u : cg_stack u (CGuard owner (aset t st (cg_in g)) buf) = if Nat.eqb u t then st else cg_stack u g.
Proof.
  unfold cg_stack. cbn [cg_in]. rewrite aget_aset. destruct (Nat.eqb_spec u t) as [->|N].
  - now rewrite eqb_refl.
  - destruct (eqb u t) eqn:E; [apply eqb_true in E; contradiction|reflexivity].
Qed.

Lemma guarded_init : guarded cg_init.
Proof. split; cbn; [reflexivity|easy]. Qed.

Lemma guarded_step s g g' : guarded g -> cg_step s g = Some g' -> guarded g'.
Proof.
  intros [Hn Hs] E. destruct s as [t cb|t d|t]; cbn in E.
  - destruct (cg_owner g) as [[o n]|] eqn:EO.
    + destruct (Nat.eqb_spec o t) as [->|]; [|easy]. injection E as <-.
      destruct (Hs t n eq_refl) as (A & B & C). split; cbn [cg_owner]; [easy|].
      intros o n' X. injection X as <- <-. rewrite stack_aset, Nat.eqb_refl. cbn. split; [lia|]. split; [lia|].
      intros u N. rewrite stack_aset. destruct (Nat.eqb_spec u t); [contradiction|]. now apply C.
    + injection E as <-. split; cbn [cg_owner]; [easy|]. intros o n' X. injection X as <- <-.
      rewrite stack_aset, Nat.eqb_refl, (Hn eq_refl). cbn. split; [reflexivity|]. split; [lia|].
      intros u N. rewrite stack_aset. destruct (Nat.eqb_spec u t); [contradiction|]. now apply Hn.
  - destruct (cg_stack t g); [easy|]. injection E as <-. split; cbn [cg_owner]; intros; [now apply Hn|now apply Hs].
  - destruct (cg_stack t g) as [|cb st] eqn:ES; [easy|]. destruct (cg_owner g) as [[o [|n]]|] eqn:EO; try easy.
    injection E as <-. destruct (Hs o (S n) eq_refl) as (A & B & C).
    assert (t = o). { destruct (Nat.eq_dec t o) as [X|X]; [exact X|]. rewrite (C t X) in ES. easy. } subst o.
    rewrite ES in A. cbn in A. injection A as A. destruct n as [|n].
    + split; cbn [cg_owner]; [|easy]. intros _ u. rewrite stack_aset. destruct (Nat.eqb_spec u t); [|now apply C].
      destruct st; [reflexivity|easy].
    + split; cbn [cg_owner]; [easy|]. intros o n' X. injection X as <- <-. rewrite stack_aset, Nat.eqb_refl.
      split; [exact A|]. split; [lia|]. intros u N. rewrite stack_aset. destruct (Nat.eqb_spec u t); [contradiction|]. now apply C.
Qed.
Lemma guarded_run ss : forall g g', guarded g -> cg_run ss g = Some g' -> guarded g'.
Proof.
  induction ss as [|s ss IH]; cbn; intros g g' G E; [now injection E as <-|].
  destruct (cg_step s g) as [g1|] eqn:E1; [|easy]. eapply IH; [|exact E]. eapply guarded_step; eassumption.
Qed.

Lemma busy_stack t g : busy t g <-> cg_stack t g <> [].
Proof.
  unfold busy, cg_stack. destruct (aget t (cg_in g)) as [st|]; split.
  - intros (st' & X & N). now injection X as ->.
  - intros N. now exists st.
  - intros (st & X & _). easy.
  - easy.
Qed.
Lemma busy_owner t g : guarded g -> busy t g -> exists n, cg_owner g = Some (t, n).
Proof.
  intros [Hn Hs] B. apply busy_stack in B. destruct (cg_owner g) as [[o n]|] eqn:E; [|elim B; now apply Hn].
  destruct (Hs o n eq_refl) as (_ & _ & C). exists n. destruct (Nat.eq_dec t o) as [->|N]; [reflexivity|]. elim B. now apply C.
Qed.

Lemma one_thread ss g t u : cg_run ss cg_init = Some g -> busy t g -> busy u g -> t = u.
Proof.
  intros E A B. pose proof (guarded_run ss _ _ guarded_init E) as G.
  destruct (busy_owner t g G A) as [n X]. destruct (busy_owner u g G B) as [m Y]. congruence.
Qed.
Lemma step_alone s g g' t : guarded g -> busy t g -> cg_step s g = Some g' -> stepper s = t.
Proof.
  intros G B E. destruct (busy_owner t g G B) as [n X]. destruct s as [u cb|u d|u]; cbn in *.
  - rewrite X in E. destruct (Nat.eqb_spec t u); congruence.
  - destruct (cg_stack u g) eqn:ES; [easy|]. assert (BU : busy u g) by (apply busy_stack; congruence).
    destruct (busy_owner u g G BU) as [m Y]. congruence.
  - destruct (cg_stack u g) eqn:ES; [easy|]. assert (BU : busy u g) by (apply busy_stack; congruence).
    destruct (busy_owner u g G BU) as [m Y]. congruence.
Qed.
Lemma still_busy s g g' t : busy t g -> cg_step s g = Some g' -> ~ leaves t s -> busy t g'.
Proof.
  intros B E N. apply busy_stack in B. apply busy_stack. destruct s as [u cb|u d|u]; cbn in E.
  - destruct (cg_owner g) as [[o n]|].
    + destruct (Nat.eqb o u); [|easy]. injection E as <-. rewrite stack_aset. now destruct (Nat.eqb t u).
    + injection E as <-. rewrite stack_aset. now destruct (Nat.eqb t u).
  - destruct (cg_stack u g); [easy|]. injection E as <-. exact B.
  - destruct (cg_stack u g); [easy|]. destruct (cg_owner g) as [[o [|k]]|]; try easy. injection E as <-.
    rewrite stack_aset. destruct (Nat.eqb_spec t u) as [->|]; [|exact B]. elim N. reflexivity.
Qed.
Lemma alone_lemma ss : forall g g' t, guarded g -> busy t g -> cg_run ss g = Some g' ->
  (forall s, In s ss -> ~ leaves t s) -> forall s, In s ss -> stepper s = t.
Proof.
  induction ss as [|s ss IH]; cbn; intros g g' t G B E N s' I; [easy|].
  destruct (cg_step s g) as [g1|] eqn:E1; [|easy].
  assert (B1 : busy t g1) by (eapply still_busy; [exact B|exact E1|]; apply N; now left).
  destruct I as [<-|I]; [eapply step_alone; eassumption|].
  eapply IH; [eapply guarded_step; eassumption|exact B1|exact E| |exact I]. intros x X. apply N. now right.
Qed.
Lemma alone_reach pre ss g g' t : cg_run pre cg_init = Some g -> busy t g -> cg_run ss g = Some g' ->
  (forall s, In s ss -> ~ leaves t s) -> forall s, In s ss -> stepper s = t.
Proof. intros P. apply alone_lemma. eapply guarded_run; [apply guarded_init|exact P]. Qed.

(** A shared buffer is safe between the writing and the leaving. *)
Lemma buffer_safe pre g t d g1 ss g2 : cg_run pre cg_init = Some g -> cg_step (SWrite t d) g = Some g1 ->
  cg_run ss g1 = Some g2 -> (forall s, In s ss -> stepper s <> t) -> cg_buf g2 = d.
Proof.
  intros P W R N. pose proof (guarded_run pre _ _ guarded_init P) as G.
  assert (B : busy t g1).
  { cbn in W. destruct (cg_stack t g) eqn:ES; [easy|]. injection W as <-. apply busy_stack. cbn.
    unfold cg_stack in *. cbn. now rewrite ES. }
  assert (G1 : guarded g1) by (eapply guarded_step; eassumption).
  destruct ss as [|s ss].
  - cbn in R. injection R as <-. cbn in W. destruct (cg_stack t g); [easy|]. now injection W as <-.
  - exfalso. cbn in R. destruct (cg_step s g1) as [g3|] eqn:E; [|easy].
    apply (N s); [now left|]. eapply step_alone; eassumption.
Qed.
Lemma blocked pre g t u cb : cg_run pre cg_init = Some g -> busy t g -> u <> t -> cg_step (SEnter u cb) g = None.
Proof.
  intros P B N. destruct (cg_step (SEnter u cb) g) eqn:E; [|reflexivity]. elim N.
  pose proof (guarded_run pre _ _ guarded_init P) as G. now rewrite <- (step_alone _ _ _ _ G B E).
Qed.
Lemma free_entry pre g t cb : cg_run pre cg_init = Some g -> (forall u, u <> t -> ~ busy u g) -> cg_step (SEnter t cb) g <> None.
Proof.
  intros P N. pose proof (guarded_run pre _ _ guarded_init P) as [Hn Hs]. cbn.
  destruct (cg_owner g) as [[o n]|] eqn:E; [|easy]. destruct (Nat.eqb_spec o t) as [|X]; [easy|].
  destruct (Hs o n eq_refl) as (A & B & _). elim (N o X). apply busy_stack. intros Z. rewrite Z in A. cbn in A. lia.
Qed.

Lemma both_null ms t rd h : snd (cp_receive_both ms t false rd h) = None.
Proof. unfold cp_receive_both. destruct (rd_read rd) as [rd1 [[m tm]|]]; [|reflexivity]. destruct (copy_buffer ms t 0 m h); reflexivity. Qed.
Lemma call_failed ms ok rs t tlen h : ok = false \/ rs = [] -> cp_call_wait ms ok rs t tlen h = (CRet h 0, None).
Proof. intros [->| ->]; [reflexivity|destruct ok; reflexivity]. Qed.
